(** C39: records written as tab-separated values are read back. *)
From Verif Require Import PyStr Exchange ExchangeSpec ExchangeProofs.
Open Scope list_scope.

(** A class with [fields] (name and type of values) is written to columns chosen by [m], in any order, by any number of
    calls; the file is read with the types that [fields_to_types] derives.  The header is that of [m]; there is one
    record per entity, in order; the cell in the column of a field holds the attribute. *)
Theorem C39_write_read : forall (T V : Type) (C : codec T V) (fits : T -> V -> Prop) (fields : list (string * T)) (m : mapping) (calls : list (list (entity V))),
  sound C fits ->
  NoDup (map fst fields) -> m <> [] -> NoDup (map fst m) -> NoDup (map snd m) ->
  (forall f, In f (map fst m) <-> In f (map fst fields)) ->
  (forall c, In c (map snd m) -> plain c) ->
  (forall f t e, In (f, t) fields -> In e (concat calls) -> exists v, e f = Some v /\ fits t v) ->
  (forall f t e v, fields = [(f, t)] -> In e (concat calls) -> e f = Some v -> c_write C v <> EmptyString) ->
  exists types file rows,
    fields_to_types fields m = Ok types /\ write_file C m calls = Ok file /\ read_file C types file = Ok (map snd m, rows) /\
    length rows = length (concat calls) /\
    forall i e f c v, nth_error (concat calls) i = Some e -> In (f, c) m -> e f = Some v -> in_cell (map snd m) rows i c v.
Proof.
  intros T V C fits fields m calls SC NDf NE ND1 ND2 SAME PL TY ONE.
  assert (LK : forall f c, In (f, c) m -> lookup f m = Some c).
  { clear - ND1. induction m as [|[k x] m IH]; [intros ? ? []|]. inversion ND1 as [|? ? NI ND]; subst. cbn. intros f c [[= -> ->]|I]; [now rewrite String.eqb_refl|].
    destruct (String.eqb_spec k f) as [->|]; [|exact (IH ND f c I)]. exfalso. apply NI. apply (in_map fst) in I. exact I. }
  assert (X : exists types, fields_to_types fields m = Ok types /\ forall f c t, In (f, c) m -> In (f, t) fields -> In (c, t) types).
  { assert (H : forall f t, In (f, t) fields -> exists c, lookup f m = Some c /\ In (f, c) m).
    { intros f t I. apply (in_map fst) in I. cbn in I. apply SAME in I. apply in_map_iff in I. destruct I as ([f' c] & <- & I). exists c. split; [exact (LK _ _ I)|exact I]. }
    clear - H LK. induction fields as [|[f t] fields IH]; [exists []; split; [reflexivity|intros ? ? ? _ []]|]. cbn.
    destruct (H f t (or_introl eq_refl)) as (c & -> & I). destruct IH as (ts & -> & Y); [intros f' t' J; apply (H f' t'); now right|]. cbn.
    exists ((c, t) :: ts). split; [reflexivity|]. intros f' c' t' J [[= <- <-]|K].
    - left. pose proof (LK _ _ I) as A. pose proof (LK _ _ J) as B. congruence.
    - right. exact (Y f' c' t' J K). }
  destruct X as (types & FT & TI).
  assert (TYPES : forall f c t, In (f, c) m -> In (f, t) fields -> type_of c types = Some t).
  { intros f c t I J. pose proof (TI f c t I J) as K.
    assert (U : forall t', In (c, t') types -> t' = t).
    { assert (B : forall t', In (c, t') types -> exists f', In (f', t') fields /\ lookup f' m = Some c).
      { clear - FT. revert types FT. induction fields as [|[f t] fields IH]; intros types; cbn; [intros [= <-] ? []|].
        destruct (lookup f m) as [c'|] eqn:L; [|discriminate]. destruct (fields_to_types fields m) as [ts|]; [|discriminate]. cbn. intros [= <-] t' [[= <- <-]|I]; [exists f; auto|].
        destruct (IH ts eq_refl t' I) as (f' & A & B). exists f'. auto. }
      intros t' I'. destruct (B t' I') as (f' & F' & L').
      assert (In (f', c) m).
      { clear - L'. induction m as [|[k x] m IH]; cbn in *; [discriminate|]. destruct (String.eqb_spec k f') as [->|]; [injection L' as ->; now left|right; auto]. }
      assert (f' = f).
      { clear - ND2 H I. induction m as [|[k x] m IH]; [destruct I|]. inversion ND2 as [|? ? NI ND]; subst. destruct H as [[= -> ->]|H], I as [[= ->]|I]; auto;
          exfalso; apply NI; [apply (in_map snd) in I; exact I|apply (in_map snd) in H; cbn in *; subst; exact H]. }
      subst f'. clear - NDf F' J. induction fields as [|[k x] fields IH]; [destruct J|]. inversion NDf as [|? ? NI ND]; subst.
      destruct F' as [[= -> ->]|F'], J as [[= ->]|J]; auto; exfalso; apply NI; [apply (in_map fst) in J; exact J|apply (in_map fst) in F'; cbn in *; subst; exact F']. }
    clear - K U. induction types as [|[k x] types IH]; [destruct K|]. cbn. destruct (String.eqb_spec k c) as [->|N]; [f_equal; apply U; now left|].
    apply IH; [destruct K as [[= -> _]|K]; [congruence|exact K]|]. intros t' I. apply U. now right. }
  destruct (round_trip C fits SC m types calls NE) as (file & rows & W & R & L & N).
  - intros f c I. apply PL. apply (in_map snd) in I. exact I.
  - intros f c I. pose proof (in_map fst _ _ I) as J. cbn in J. apply SAME in J. apply in_map_iff in J. destruct J as ([f' t] & E & J). cbn in E. subst f'.
    exists t. split; [exact (TYPES f c t I J)|]. intros e Ie. exact (TY f t e J Ie).
  - intros f c e v -> Ie Ev. pose proof (proj1 (SAME f) (or_introl eq_refl)) as J. apply in_map_iff in J. destruct J as ([f' t] & E & J). cbn in E. subst f'.
    apply (ONE f t e v); [|exact Ie|exact Ev].
    assert (ALL : forall g, In g (map fst fields) -> g = f) by (intros g G; apply SAME in G; destruct G as [<-|[]]; reflexivity).
    destruct fields as [|[a ta] [|[b tb] fields]]; [destruct J| |].
    + destruct J as [J|[]]. now rewrite J.
    + exfalso. inversion NDf as [|? ? NI _]; subst. apply NI. left. rewrite (ALL a (or_introl eq_refl)). apply ALL. right. now left.
  - exists types, file, rows. split; [exact FT|]. split; [exact W|]. split; [exact R|]. split; [exact L|].
    intros i e f c v Ne I Ev. destruct (N i e Ne) as (vs & Nv & E). destruct (extract_inv _ _ _ E) as [_ EX].
    destruct (In_nth_error _ _ I) as (j & Nj). destruct (EX j f c Nj) as (v' & Nv' & Ev'). exists vs, j. split; [exact Nv|]. split; [rewrite nth_error_map, Nj; reflexivity|]. congruence.
Qed.
Print Assumptions C39_write_read.

(** A format: texts with a backslash before special characters, and [\N] for a missing value. *)
Definition esc (c : ascii) : string :=
  if Ascii.eqb c TAB then String BS (String "t" EmptyString) else
  if Ascii.eqb c LF then String BS (String "n" EmptyString) else
  if Ascii.eqb c BS then String BS (String BS EmptyString) else String c EmptyString.
Fixpoint unesc (s : string) : res string :=
  match s with
  | EmptyString => Ok EmptyString
  | String c r =>
      if Ascii.eqb c BS then
        match r with
        | EmptyString => Err "ValueError"
        | String d r' =>
            do t <- unesc r';
            if Ascii.eqb d "t" then Ok (String TAB t) else if Ascii.eqb d "n" then Ok (String LF t) else if Ascii.eqb d BS then Ok (String BS t) else Err "ValueError"
        end
      else do t <- unesc r; Ok (String c t)
  end.
(** the type of a column: may it be missing *)
Definition text_codec : codec bool (option string) :=
  Codec bool (option string)
    (fun v => match v with None => String BS (String "N" EmptyString) | Some s => translate esc s end)
    (fun nullable s => if String.eqb s (String BS (String "N" EmptyString)) then (if nullable then Ok None else Err "ValueError") else do t <- unesc s; Ok (Some t)).
Definition text_fits (nullable : bool) (v : option string) : Prop := v = None -> nullable = true.
Lemma esc_step c t : unesc (esc c ++ t)%string = (do u <- unesc t; Ok (String c u)).
Proof.
  unfold esc. destruct (Ascii.eqb_spec c TAB) as [->|N1]; [reflexivity|]. destruct (Ascii.eqb_spec c LF) as [->|N2]; [reflexivity|].
  destruct (Ascii.eqb_spec c BS) as [->|N3]; [cbn; destruct (unesc t); reflexivity|]. cbn. apply Ascii.eqb_neq in N3. now rewrite N3.
Qed.
Lemma unesc_translate s : unesc (translate esc s) = Ok s.
Proof. induction s as [|c s IH]; [reflexivity|]. cbn [translate]. rewrite esc_step, IH. reflexivity. Qed.
Lemma text_codec_sound : sound text_codec text_fits.
Proof.
  split.
  - intros [s|]; [|split; reflexivity]. cbn. induction s as [|c s [A B]]; [split; reflexivity|]. cbn [translate]. unfold plain. rewrite !has_char_app, A, B, !orb_false_r.
    unfold esc. destruct (Ascii.eqb c TAB) eqn:E1; [split; reflexivity|]. destruct (Ascii.eqb c LF) eqn:E2; [split; reflexivity|]. destruct (Ascii.eqb c BS); [split; reflexivity|].
    cbn [has_char]. rewrite E1, E2. split; reflexivity.
  - intros nullable [s|] F; cbn [c_write c_read text_codec].
    + destruct (String.eqb_spec (translate esc s) (String BS (String "N" EmptyString))) as [E|_].
      * exfalso. assert (X : unesc (translate esc s) = Ok s) by apply unesc_translate. rewrite E in X. discriminate X.
      * rewrite unesc_translate. reflexivity.
    + rewrite String.eqb_refl, (F eq_refl). reflexivity.
Qed.

Open Scope string_scope.
(** The reader takes an empty line for the end of the file: a class with a single text field loses all records from the
    first empty text on. *)
Theorem C39_empty_line_refuted : exists (calls : list (list (entity (option string)))) file rows,
  write_file text_codec [("name", "name")] calls = Ok file /\
  (forall e, In e (concat calls) -> exists v, e "name" = Some v /\ text_fits false v) /\
  read_file text_codec [("name", false)] file = Ok (["name"], rows) /\ length rows < length (concat calls).
Proof.
  exists [[fun _ => Some (Some "a"); fun _ => Some (Some ""); fun _ => Some (Some "b")]].
  eexists. eexists. split; [reflexivity|]. split; [|split; [vm_compute; reflexivity|vm_compute; lia]].
  intros e [<-|[<-|[<-|[]]]]; (eexists; split; [reflexivity|discriminate]).
Qed.
Print Assumptions C39_empty_line_refuted.
(** Column names are written as they are: one with a tab character becomes two columns, and the file cannot be read. *)
Theorem C39_header_not_escaped_refuted : exists (m : mapping) (types : list (string * bool)) file,
  fields_to_types [("f", true)] m = Ok types /\ write_file text_codec m [] = Ok file /\ read_file text_codec types file = Err "KeyError".
Proof. exists [("f", String TAB "x")], [(String TAB "x", true)]. eexists. split; [reflexivity|]. split; [reflexivity|]. vm_compute. reflexivity. Qed.
Print Assumptions C39_header_not_escaped_refuted.

(** Two fields written in the reverse order, with a missing value, a tab and an empty text. *)
Definition ex_entity (a b : option string) : entity (option string) := fun f => if String.eqb f "a" then Some a else if String.eqb f "b" then Some b else None.
Definition ex_calls := [[ex_entity (Some "") (Some (String TAB "x"))]; [ex_entity (Some "y") None; ex_entity (Some "\N") (Some "z")]].
Example C39_ex : exists file, write_file text_codec [("b", "B"); ("a", "A")] ex_calls = Ok file /\
  read_file text_codec [("A", false); ("B", true)] file = Ok (["B"; "A"], [[Some (String TAB "x"); Some ""]; [None; Some "y"]; [Some "z"; Some "\N"]]).
Proof. eexists. split; [reflexivity|]. vm_compute. reflexivity. Qed.
Example C39_ex_hyp : forall f t e, In (f, t) [("a", false); ("b", true)] -> In e (concat ex_calls) -> exists v, e f = Some v /\ text_fits t v.
Proof.
  intros f t e [[= <- <-]|[[= <- <-]|[]]] [<-|[<-|[<-|[]]]]; (eexists; split; [reflexivity|]); try discriminate; intros _; reflexivity.
Qed.
