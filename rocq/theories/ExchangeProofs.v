From Verif Require Import PyStr Exchange ExchangeSpec.
Open Scope list_scope.

Lemma split_plain s : has_char TAB s = false -> split_on TAB s = [s].
Proof. induction s as [|x s IH]; [reflexivity|]. cbn [has_char split_on]. intros H. apply orb_false_iff in H. destruct H as [E H]. rewrite E, (IH H). reflexivity. Qed.
Lemma split_cons s t : has_char TAB s = false -> split_on TAB (s ++ str1 TAB ++ t)%string = s :: split_on TAB t.
Proof.
  induction s as [|x s IH].
  - intros _. cbn. destruct (Ascii.eqb TAB TAB) eqn:E; [reflexivity|]. apply Ascii.eqb_neq in E. congruence.
  - intros H. cbn [has_char] in H. apply orb_false_iff in H. destruct H as [E H]. cbn [append split_on]. rewrite E, (IH H). reflexivity.
Qed.
Lemma split_join l : l <> [] -> (forall s, In s l -> has_char TAB s = false) -> split_on TAB (join_str (str1 TAB) l) = l.
Proof.
  induction l as [|x l IH]; [congruence|]. intros _ H. destruct l as [|y l].
  - cbn. apply split_plain, H. now left.
  - rewrite join_str_cons, split_cons by (apply H; now left). f_equal. apply IH; [discriminate|]. intros s I. apply H. now right.
Qed.
Lemma read_line_app s t : has_char LF s = false -> read_line (s ++ NL ++ t)%string = (s, t).
Proof.
  induction s as [|x s IH].
  - intros _. reflexivity.
  - cbn [has_char]. intros H. apply orb_false_iff in H. destruct H as [E H]. cbn [append read_line]. rewrite E, (IH H). reflexivity.
Qed.
Lemma join_no_lf l : (forall s, In s l -> has_char LF s = false) -> has_char LF (join_str (str1 TAB) l) = false.
Proof.
  induction l as [|x l IH]; intros H; [reflexivity|]. destruct l as [|y l]; [apply H; now left|].
  rewrite join_str_cons, !has_char_app, (H x) by now left. rewrite IH; [reflexivity|]. intros s I. apply H. now right.
Qed.
Lemma join_nonempty l : (forall s, l = [s] -> s <> EmptyString) -> l <> [] -> join_str (str1 TAB) l <> EmptyString.
Proof.
  destruct l as [|x [|y l]]; [congruence|intros H _; exact (H x eq_refl)|]. intros _ _. rewrite join_str_cons. destruct x; discriminate.
Qed.

Section Proofs.
  Context {T V : Type} (C : codec T V) (fits : T -> V -> Prop) (SC : sound C fits).

  Lemma extract_inv m (e : entity V) (vs : list V) : extract m e = Ok vs -> length vs = length m /\ forall j f c, nth_error m j = Some (f, c) -> exists v, nth_error vs j = Some v /\ e f = Some v.
  Proof.
    revert vs. induction m as [|[f c] m IH]; intros vs; cbn.
    - intros [= <-]. split; [reflexivity|]. intros [|j]; discriminate.
    - destruct (e f) as [v|] eqn:E; [|discriminate]. destruct (extract m e) as [vs'|]; [|discriminate]. cbn. intros [= <-]. destruct (IH vs' eq_refl) as [L H].
      split; [cbn; now rewrite L|]. intros [|j] f' c' N; cbn in *; [injection N as <- <-; eauto|exact (H j f' c' N)].
  Qed.
  Lemma extract_ok m (e : entity V) : (forall f c, In (f, c) m -> e f <> None) -> exists vs, extract m e = Ok vs.
  Proof.
    induction m as [|[f c] m IH]; intros H; cbn; [eauto|]. destruct (e f) eqn:E; [|exfalso; exact (H f c (or_introl eq_refl) E)].
    destruct IH as (vs & ->); [intros f' c' I; apply (H f' c'); now right|]. cbn. eauto.
  Qed.
  Lemma write_app m a b : write_objects C m (a ++ b) = (do x <- write_objects C m a; do y <- write_objects C m b; Ok (x ++ y)%string).
  Proof.
    induction a as [|e a IH]; cbn.
    - destruct (write_objects C m b); reflexivity.
    - destruct (extract m e) as [vs|]; [|reflexivity]. cbn. rewrite IH. destruct (write_objects C m a) as [x|]; [|reflexivity]. cbn.
      destruct (write_objects C m b) as [y|]; [|reflexivity]. cbn. f_equal. now rewrite !append_assoc.
  Qed.
  Lemma write_calls_concat m calls : write_calls C m calls = write_objects C m (concat calls).
  Proof.
    induction calls as [|es calls IH]; cbn; [reflexivity|]. rewrite write_app, IH. reflexivity.
  Qed.
  Lemma parse_ok ts vs : Forall2 fits ts vs -> parse_fields C ts (map (c_write C) vs) = Ok vs.
  Proof. destruct SC as [_ R]. induction 1 as [|t v ts vs F _ IH]; cbn; [reflexivity|]. rewrite (R t v F). cbn. now rewrite IH. Qed.
  Lemma line_ok ts vs : vs <> [] -> Forall2 fits ts vs -> parse_line C ts (generate_line C vs) = Ok vs.
  Proof.
    intros NE F. unfold parse_line, generate_line. rewrite split_join; [exact (parse_ok ts vs F)|destruct vs; [congruence|discriminate]|].
    intros s I. apply in_map_iff in I. destruct I as (v & <- & _). apply (proj1 SC v).
  Qed.
  Lemma line_no_lf vs : has_char LF (generate_line C vs) = false.
  Proof. apply join_no_lf. intros s I. apply in_map_iff in I. destruct I as (v & <- & _). apply (proj1 SC v). Qed.
  Lemma line_nonempty vs : vs <> [] -> (forall v, vs = [v] -> c_write C v <> EmptyString) -> generate_line C vs <> EmptyString.
  Proof.
    intros NE H. apply join_nonempty; [|destruct vs; [congruence|discriminate]]. intros s E. destruct vs as [|v [|? ?]]; try discriminate. injection E as <-. now apply H.
  Qed.

  (** all lines of the body are read *)
  Lemma records_ok m ts es : forall body, write_objects C m es = Ok body -> m <> [] ->
    (forall e vs, In e es -> extract m e = Ok vs -> Forall2 fits ts vs) ->
    (forall e v, In e es -> extract m e = Ok [v] -> c_write C v <> EmptyString) ->
    forall fuel, String.length body <= fuel ->
    exists rows, read_records C fuel ts body = Ok rows /\ length rows = length es /\
      forall i e, nth_error es i = Some e -> exists vs, nth_error rows i = Some vs /\ extract m e = Ok vs.
  Proof.
    induction es as [|e es IH]; intros body; cbn [write_objects].
    - intros [= <-] _ _ _ fuel _. exists []. split; [destruct fuel; reflexivity|]. split; [reflexivity|]. intros [|i]; discriminate.
    - destruct (extract m e) as [vs|] eqn:E; [|discriminate]. cbn [bind]. destruct (write_objects C m es) as [t|] eqn:W; [|discriminate]. cbn [bind]. intros EB NE F NB fuel.
      apply (f_equal (fun r => match r with Ok a => a | Err _ => body end)) in EB. subst body.
      destruct (extract_inv _ _ _ E) as [L _]. assert (NV : vs <> []) by (destruct m, vs; try discriminate; congruence).
      rewrite !append_length. intros Hf. destruct fuel as [|fuel]; [cbn in Hf; lia|]. cbn [read_records].
      rewrite read_line_app by apply line_no_lf.
      destruct (String.eqb_spec (generate_line C vs) EmptyString) as [X|_].
      { exfalso. revert X. apply line_nonempty; [exact NV|]. intros v ->. apply (NB e v); [now left|exact E]. }
      rewrite (line_ok ts vs NV) by (apply (F e); [now left|exact E]). cbn [bind].
      destruct (IH t eq_refl NE) with (fuel := fuel) as (rows & R & LR & H).
      { intros e' vs' I. apply F. now right. }
      { intros e' v I. apply NB. now right. }
      { cbn in Hf. lia. }
      rewrite R. cbn [bind]. exists (vs :: rows). split; [reflexivity|]. split; [cbn; now rewrite LR|].
      intros [|i] e' N; cbn in *; [injection N as <-; eauto|exact (H i e' N)].
  Qed.
  Lemma column_types_ok (types : list (string * T)) cols : (forall c, In c cols -> type_of c types <> None) ->
    exists ts, column_types types cols = Ok ts /\ length ts = length cols /\ forall j c, nth_error cols j = Some c -> exists t, nth_error ts j = Some t /\ type_of c types = Some t.
  Proof.
    induction cols as [|c cols IH]; intros H; cbn.
    - exists []. split; [reflexivity|]. split; [reflexivity|]. intros [|j]; discriminate.
    - destruct (type_of c types) as [t|] eqn:E; [|exfalso; exact (H c (or_introl eq_refl) E)].
      destruct IH as (ts & -> & L & X); [intros c' I; apply H; now right|]. cbn. exists (t :: ts). split; [reflexivity|]. split; [cbn; now rewrite L|].
      intros [|j] c' N; cbn in *; [injection N as <-; eauto|exact (X j c' N)].
  Qed.
  Lemma f2_of_nth {A B} (R : A -> B -> Prop) l l' : length l = length l' -> (forall j a b, nth_error l j = Some a -> nth_error l' j = Some b -> R a b) -> Forall2 R l l'.
  Proof.
    revert l'. induction l as [|a l IH]; intros [|b l'] L H; try discriminate L; constructor; [exact (H 0 a b eq_refl eq_refl)|].
    apply IH; [injection L as L; exact L|]. intros j x y. exact (H (S j) x y).
  Qed.

  (** the round trip, for any mapping and any dictionary of types *)
  Lemma round_trip (m : mapping) (types : list (string * T)) (calls : list (list (entity V))) :
    m <> [] -> (forall f c, In (f, c) m -> plain c) ->
    (forall f c, In (f, c) m -> exists t, type_of c types = Some t /\ forall e, In e (concat calls) -> exists v, e f = Some v /\ fits t v) ->
    (forall f c e v, m = [(f, c)] -> In e (concat calls) -> e f = Some v -> c_write C v <> EmptyString) ->
    exists file rows, write_file C m calls = Ok file /\ read_file C types file = Ok (map snd m, rows) /\
      length rows = length (concat calls) /\
      forall i e, nth_error (concat calls) i = Some e -> exists vs, nth_error rows i = Some vs /\ extract m e = Ok vs.
  Proof.
    intros NE P H NB. unfold write_file. rewrite write_calls_concat. set (es := concat calls) in *.
    assert (X : exists body, write_objects C m es = Ok body).
    { assert (Y : forall e, In e es -> exists vs, extract m e = Ok vs).
      { intros e I. apply extract_ok. intros f c J. destruct (H f c J) as (t & _ & K). destruct (K e I) as (v & E & _). congruence. }
      clearbody es. clear - Y. induction es as [|e es IH]; cbn; [eauto|]. destruct (Y e (or_introl eq_refl)) as (vs & ->). cbn.
      destruct IH as (t & ->); [intros e' I; apply Y; now right|]. cbn. eauto. }
    destruct X as (body & W). rewrite W. cbn [bind]. exists (header m ++ body)%string.
    unfold read_file, header. rewrite append_assoc, read_line_app.
    2:{ apply join_no_lf. intros s I. apply in_map_iff in I. destruct I as ([f c] & <- & I). apply (P f c I). }
    assert (NE' : map snd m <> []) by (destruct m; [congruence|discriminate]).
    rewrite split_join by (try exact NE'; intros s I; apply in_map_iff in I; destruct I as ([f c] & <- & I); apply (P f c I)).
    destruct (column_types_ok types (map snd m)) as (ts & CT & LT & TT).
    { intros c I. apply in_map_iff in I. destruct I as ([f c'] & <- & I). destruct (H f c' I) as (t & E & _). cbn. congruence. }
    rewrite CT. cbn [bind].
    destruct (records_ok m ts es body W NE) with (fuel := String.length body) as (rows & R & LR & N).
    - intros e vs I E. destruct (extract_inv _ _ _ E) as [L EX]. rewrite map_length in LT. apply f2_of_nth; [congruence|].
      intros j t v Nt Nv. assert (Y : exists fc, nth_error m j = Some fc).
      { destruct (nth_error m j) eqn:Z; [eauto|]. apply nth_error_None in Z. assert (j < length ts) by (apply nth_error_Some; congruence). lia. }
      destruct Y as ([f c] & Y). destruct (EX j f c Y) as (v' & Nv' & Ev). rewrite Nv in Nv'. injection Nv' as <-.
      destruct (TT j c) as (t' & Nt' & Et); [rewrite nth_error_map, Y; reflexivity|]. rewrite Nt in Nt'. injection Nt' as <-.
      destruct (H f c (nth_error_In _ _ Y)) as (t' & Et' & K). rewrite Et in Et'. injection Et' as <-. destruct (K e I) as (v' & Ev' & F). congruence.
    - intros e v I E. destruct (extract_inv _ _ _ E) as [L EX]. destruct m as [|[f c] [|? ?]]; try discriminate L.
      destruct (EX 0 f c eq_refl) as (v' & Nv & Ev). injection Nv as <-. exact (NB f c e v eq_refl I Ev).
    - exact (le_n _).
    - rewrite R. cbn [bind]. exists rows. auto.
  Qed.
End Proofs.
