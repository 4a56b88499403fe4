(** C11, C16, C18: stored rows.  DataSpec.v says what statements do to rows; [script S l D D'] means that the server [S] can execute
    the script [l] on the rows [D] with the result [D']. *)
From Verif Require Import PyStr QuoteModel ObjectDict Types Objects SqlAst Ddl Mutate DbSpec CatSpec MutSpec StmtSpec DataSpec StoreExec
  EqProofs NoopProofs StmtProofs StmtProofs2 DataProofs1 DataProofs2 DataProofs5 DataProofs6 DataProofs7 DataProofs8 DataProofs9 TabProofs3 TablePredProofs ExCat.
From stdpp Require Import gmap strings.
Open Scope string_scope.
Open Scope list_scope.

(** ** What is claimed about rows *)
(** The row keeps its values in all columns that have the same name and type before and after.  Exceptions: values that the column
    type cannot hold, NULL and 0 in a column that becomes AUTO_INCREMENT, columns named like a soft-deleted one. *)
Definition keeps_columns (S : server) (x y : table) (r r' : record) : Prop :=
  forall u v, In u (t_columns x) -> In v (t_columns y) -> c_name u = c_name v -> c_type u = c_type v ->
  ~ In (c_name u) (map (fun c => deleted (c_name c)) (t_columns x)) ->
  (forall w, r (c_name u) = Some w -> sv_fits S (c_type u) w) -> ~ numbered (c_identity v) (r (c_name u)) -> r' (c_name u) = r (c_name u).
(** the new value is the key of the lookup row that has the old value as its label *)
Definition label_to_key (S : server) (n : string) (lookup : list record) (r r' : record) : Prop :=
  forall a, r n = Some (PStr a) -> exists e b, In e lookup /\ label e b /\ sv_same S a b = true /\ r' n = e "id".
Definition null_to_null (v : column) (r r' : record) : Prop :=
  c_nullable v = true -> c_default v = None -> r (c_name v) = None -> r' (c_name v) = None.
(** [q] is the lookup table of some column that becomes a key *)
Definition lookup_for (d : dialect) (s t : catalog) (q : qid) : Prop :=
  exists a b z w p p' kn rc, common_ns s t a b /\ In z (n_tables a) /\ In w (n_tables b) /\ t_key z = t_key w
    /\ In p (t_columns z) /\ In p' (t_columns w) /\ c_name p = c_name p' /\ migrates d p p' /\ In (CForeign kn [c_name p'] q rc) (t_constraints w).
(** column [v] of table [y] refers to table [q] and to no other table *)
Definition refers (y : table) (v : column) (q : qid) : Prop :=
  (exists kn rc, In (CForeign kn [c_name v] q rc) (t_constraints y)) /\ forall kn q' rc, In (CForeign kn [c_name v] q' rc) (t_constraints y) -> q' = q.

(** ** C11 *)
(** After the CREATE script and the constraint script, an enumeration table has exactly one row per value, in order, every other table
    is empty, and no other table changes. *)
Theorem C11_enum_rows : forall S d c c' l D D', cat_wf d c -> cat_create d c = Ok (c', l) -> script S (l ++ cat_add_constraints d c') D D' ->
  (forall n x, In n c -> In x (n_tables n) ->
    match t_enum x with
    | None => D' (key_of (t_name x)) = []
    | Some vs => Forall2 (gives (map c_name (List.filter (fun c => negb (existsb (String.eqb (c_name c)) (t_pk x)) && negb (c_identity c)) (t_columns x)))) vs (D' (key_of (t_name x)))
    end)
  /\ forall k, (forall n x, In n c -> In x (n_tables n) -> key_of (t_name x) <> k) -> D' k = D k.
Proof. intros S d c c' l D D' W H Hs. apply (created_rows S d c W c' l D D' H Hs). Qed.
Print Assumptions C11_enum_rows.

Definition vc : sqltype := TVarChar None.
Definition lookup_table (d : dialect) (vs : option (list pyval)) : table :=
  Tab (shop "color") [Col "id" int4 false None true None; col "value" vc] ["id"] [CUnique "uq_color" ["value"]] None vs.
Definition colors : table := lookup_table DPg (Some [PStr "red"; PStr "green"]).
Definition show (rows : list record) (cols : list string) : list (list cell) := map (fun r => map r cols) rows.
Definition only (q : qid) (rows : list record) : store := put (key_of q) rows (fun _ => []).
Definition labels_of (l : list (list cell)) : list cell := concat l.
Example C11_rows_example : exists c' l D', cat_wf DPg [Ns "shop" [] [] [colors]] /\ cat_create DPg [Ns "shop" [] [] [colors]] = Ok (c', l)
  /\ script (server0 false) (l ++ cat_add_constraints DPg c') (fun _ => []) D' /\ show (D' ("shop", "color")) ["value"] = [[Some (PStr "red")]; [Some (PStr "green")]].
Proof.
  destruct (cat_create DPg [Ns "shop" [] [] [colors]]) as [[c' l]|] eqn:E; [|exfalso; revert E; vm_compute; discriminate].
  assert (El : (c', l) = match cat_create DPg [Ns "shop" [] [] [colors]] with Ok z => z | Err _ => ([], []) end) by now rewrite E.
  vm_compute in El. injection El as -> ->.
  eexists _, _, _. split; [constructor; [simpl; nodup|]; intros n Hn; cases; nswf|]. split; [reflexivity|]. split; [apply script0_ok; simpl; reflexivity|]. vm_compute. reflexivity.
Qed.

(** ** C16 *)
Theorem C16_stored_values : forall S d o s t s' t' l D D', lawful S -> cat_wf d s -> cat_wf d t -> cat_compat d s t ->
  mutate_catalog d o s t = Ok (s', t', l) -> script S l D D' ->
  forall a b x y, common_ns s t a b -> In x (n_tables a) -> In y (n_tables b) -> t_name x = t_name y ->
  exists old new, D' (key_of (t_name x)) = old ++ new /\ Forall2 (keeps_columns S x y) (D (key_of (t_name x))) old
    /\ ((forall q, lookup_for d s t q -> key_of q <> key_of (t_name x)) -> new = []).
Proof.
  intros S d o s t s' t' l D D' L Ws Wt Cc H Hs a b x y C Ix Iy En.
  destruct (script_extends d o s t a b x y Ws Wt C Ix Iy En S L l D D') as (old & new & E & F); [|exact Hs|].
  { intros st I. eapply mutate_catalog_in; eauto; apply NoDup_ListNoDup; [exact (cw_names _ _ Ws)|exact (cw_names _ _ Wt)]. }
  exists old, new. split; [exact E|]. split.
  - eapply Forall2_impl; [exact F|]. intros r r' K u v Iu Iv Nu Tu Nd Ft Nn. apply (K (c_name u) (c_type u) (c_identity v)); [|exact Ft|exact Nn].
    exists u, v. split; [exact Iu|]. split; [exact Iv|]. do 5 (split; [congruence|]). intros w Iw Z. apply Nd. rewrite Z. now apply (in_map (fun c => deleted (c_name c))).
  - intros NoL. assert (Le : length (D' (key_of (t_name x))) = length (D (key_of (t_name x)))).
    { eapply (no_new_rows S d o s t s' t' l Ws Wt H a b x y C Ix Iy En); [|exact Hs]. intros a' b' z w q' C' Iz Iw E' Lk. apply NoL.
      destruct Lk as (p & p' & kn & rc & (P1 & P2 & P3) & M & Fk). exists a', b', z, w, p, p', kn, rc. do 7 (split; [assumption|]). split; [now apply migrated_spec|exact Fk]. }
    rewrite E, app_length in Le. apply forall2_len in F. destruct new; [reflexivity|simpl in Le; lia].
Qed.
Print Assumptions C16_stored_values.
(** Tables of neither catalog keep their rows, except those in schemas that the mutation removes and the lookup tables that foreign keys name. *)
Theorem C16_other_rows : forall S d o s t s' t' l D D', cat_wf d s -> cat_wf d t -> cat_compat d s t ->
  mutate_catalog d o s t = Ok (s', t', l) -> script S l D D' ->
  forall k, ~ In k (cat_keys s) -> ~ In k (cat_keys t) -> (forall e, replaced s t e -> k <> parked e) -> (forall q, fk_target t q -> key_of q <> k) ->
  (allow_drop_namespace o = true -> forall n, removed_ns s t n -> n_name n <> fst k) -> D' k = D k.
Proof.
  intros S d o s t s' t' l D D' Ws Wt Cc H Hs k K1 K2 K3 K4 K5.
  assert (Sub : forall st, In st l -> cat_stmt d o s t st) by (intros st I; eapply mutate_catalog_in; eauto; apply NoDup_ListNoDup; [exact (cw_names _ _ Ws)|exact (cw_names _ _ Wt)]).
  clear H. revert D Hs. induction l as [|st l IH]; intros D Hs; [apply Hs|]. destruct Hs as (M & H1 & H2). rewrite (IH (fun z I => Sub z (or_intror I)) M H2).
  assert (Cs := Sub st (or_introl eq_refl)). destruct (stmt_target st) as [q|] eqn:T.
  - eapply other_step; [exact T| |exact H1]. destruct (target_named d o s t st q Cs T) as [Z|[Z|[(e & Re & Z)|Z]]].
    + intros a b e x (C1 & C2 & C3) Ie Ix E. eapply (nc_ids _ _ _ (cc_ns _ _ _ Cc a b C1 C2 C3)); eauto. unfold e_key, t_key. congruence.
    + congruence. + congruence. + intros Q. apply (K3 e Re). congruence. + now apply K4.
  - destruct st; try discriminate; simpl in H1; [apply H1|]. rewrite H1. apply drop_schema_source in Cs as (A & m & R & E). destruct (String.eqb_spec (fst k) n) as [Q|Q]; [|reflexivity].
    exfalso. apply (K5 A m R). congruence.
Qed.
Print Assumptions C16_other_rows.

Definition row (cells : list (string * pyval)) : record := fun c => match find (fun p => String.eqb (fst p) c) cells with Some p => Some (snd p) | None => None end.
Definition people : list record := [row [("id", PInt 1); ("name", PStr "Ann"); ("favourite", PStr "red")]; row [("id", PInt 2); ("name", PStr "Bob")]].
Definition vals (rows : list record) (c : string) : list cell := map (fun r => r c) rows.
Example C16_stored_example : exists s' t' l D', mutate_catalog DPg default_options cat1 cat2 = Ok (s', t', l)
  /\ script (server0 false) l (only (shop "person") people) D'
  /\ vals (D' ("shop", "person")) "favourite" = [Some (PStr "red"); None] /\ vals (D' ("shop", "person")) "age" = [Some (PStr "0"); Some (PStr "0")].
Proof.
  destruct (mutate_catalog DPg default_options cat1 cat2) as [[[s' t'] l]|] eqn:E; [|exfalso; revert E; vm_compute; discriminate].
  assert (El : (s', t', l) = match mutate_catalog DPg default_options cat1 cat2 with Ok z => z | Err _ => ([], [], []) end) by now rewrite E.
  vm_compute in El. injection El as -> -> ->.
  eexists _, _, _, _. split; [reflexivity|]. split; [apply script0_ok; simpl; reflexivity|]. split; vm_compute; reflexivity.
Qed.

(** ** C18 *)
Section Moves.
  Context (S : server) (L : lawful S) (d : dialect) (o : options) (s t s' t' : catalog) (l : list stmt) (D D' : store).
  Context (Ws : cat_wf d s) (Wt : cat_wf d t) (Cc : cat_compat d s t) (H : mutate_catalog d o s t = Ok (s', t', l)) (Hs : script S l D D').
  Context (a b : namespace) (x y yq : table) (C : common_ns s t a b) (Ix : In x (n_tables a)) (Iy : In y (n_tables b)) (En : t_name x = t_name y).
  Context (u v : column) (Iu : In u (t_columns x)) (Iv : In v (t_columns y)) (Nu : c_name u = c_name v) (M : migrates d u v).
  Context (Iq : In yq (n_tables b)) (Rf : refers y v (t_name yq)).
  Context (NoL : forall q, lookup_for d s t q -> key_of q <> key_of (t_name x)).
  Context (Lq : ~ In (t_key yq) (map t_key (n_tables a)) \/ exists xq, In xq (n_tables a) /\ t_name xq = t_name yq /\ table_eqb xq yq = true).
  Context (Hd : d = DPg \/ d = DMySQL).
  Let k := key_of (t_name x).
  Let kq := key_of (t_name yq).
  Context (Fu : forall r w, In r (D k) -> r (c_name u) = Some w -> sv_fits S (c_type u) w).
  Context (Fv : forall e w, In e (D' kq) -> e "id" = Some w -> sv_fits S (c_type v) w).
  Context (Kn : forall r c, In r (D k) -> r (c_name u) = Some (PStr c) -> known S d a b u yq D c).
  Lemma moves : Forall2 (fun r r' => label_to_key S (c_name u) (D' kq) r r' /\ null_to_null v r r' /\ keeps_columns S x y r r') (D k) (D' k)
    /\ (In (t_key yq) (map t_key (n_tables a)) -> exists new, D' kq = D kq ++ new)
    /\ (forall e c, d = DPg -> In e (n_enums a) -> ~ In (e_key e) (map e_key (n_enums b)) -> e_name e = t_name yq -> ~ In (t_key yq) (map t_key (n_tables a)) -> In c (e_values e) -> labelled S (D' kq) c).
  Proof.
    destruct Rf as ((kn & rc & F1) & F2).
    assert (NoL' : forall a' b' z w q', common_ns s t a' b' -> In z (n_tables a') -> In w (n_tables b') -> t_key z = t_key w -> lookup_of d z w q' -> key_of q' <> key_of (t_name x)).
    { intros a' b' z w q' C' Iz Iw E' (p & p' & kn' & rc' & (P1 & P2 & P3) & M' & Fk). apply NoL. exists a', b', z, w, p, p', kn', rc'. do 7 (split; [assumption|]). split; [now apply migrated_spec|exact Fk]. }
    destruct (moved_in_catalog S L d Hd o s t s' t' l Ws Wt Cc H a b x y C Ix Iy En u v (conj Iu (conj Iv Nu)) (proj2 (migrated_spec d u v) M) yq Iq kn rc F1 F2 NoL' Lq D D' Hs) as (R & G & E).
    - intros r I w. now apply Fu.
    - intros e I w. now apply Fv.
    - exact Kn.
    - split; [|split; [exact G|exact E]].
      destruct (C16_stored_values S d o s t s' t' l D D' L Ws Wt Cc H Hs a b x y C Ix Iy En) as (old & new & Eo & F & Nn). rewrite (Nn NoL), app_nil_r in Eo. fold k in R, Eo, F. rewrite <- Eo in F.
      clear -R F Nu. fold kq in R. revert R F. generalize (D' kq). intros lq. generalize (D' k) (D k). intros l1 l2 R. induction R as [|r r' l2 l1 R0 R IH]; intros F; inversion F; subst; constructor; auto.
      destruct R0 as [R1 R2]. split; [exact R1|]. split; [|assumption]. intros Nv Dv Z. rewrite <- Nu in *. apply R2; [|exact Z]. unfold plain_null. now rewrite Nv, Dv.
  Qed.
End Moves.

(** PostgreSQL: a column of an enumeration type that is replaced by a lookup table of the same name. *)
Theorem C18_pg_enum_becomes_table : forall S o s t s' t' l D D', lawful S -> cat_wf DPg s -> cat_wf DPg t -> cat_compat DPg s t ->
  mutate_catalog DPg o s t = Ok (s', t', l) -> script S l D D' ->
  forall a b x y e yq u v, common_ns s t a b -> In x (n_tables a) -> In y (n_tables b) -> t_name x = t_name y ->
  In e (n_enums a) -> ~ In (e_key e) (map e_key (n_enums b)) -> In yq (n_tables b) -> t_name yq = e_name e ->
  In u (t_columns x) -> In v (t_columns y) -> c_name u = c_name v -> c_type u = TUser (e_name e) -> is_int (c_type v) = true ->
  refers y v (t_name yq) -> (forall q, lookup_for DPg s t q -> key_of q <> key_of (t_name x)) ->
  (* what the database guarantees: values of the columns belong to their types *)
  (forall r w, In r (D (key_of (t_name x))) -> r (c_name u) = Some w -> sv_fits S (c_type u) w /\ exists c, w = PStr c /\ In c (e_values e)) ->
  (forall r w, In r (D' (key_of (t_name yq))) -> r "id" = Some w -> sv_fits S (c_type v) w) ->
  Forall2 (fun r r' => label_to_key S (c_name u) (D' (key_of (t_name yq))) r r' /\ null_to_null v r r' /\ keeps_columns S x y r r') (D (key_of (t_name x))) (D' (key_of (t_name x)))
  /\ forall c, In c (e_values e) -> labelled S (D' (key_of (t_name yq))) c.
Proof.
  intros S o s t s' t' l D D' L Ws Wt Cc H Hs a b x y e yq u v C Ix Iy En Ie Ne Iq Eq Iu Iv Nu Tu Tv Rf NoL Fu Fv.
  assert (Nq : ~ In (t_key yq) (map t_key (n_tables a))).
  { intros Z. apply in_map_iff in Z as (z & Z & Iz). apply (kind_table_enum DPg a z e (cw_ns _ _ Ws a (proj1 C)) Iz Ie). unfold t_key in Z. rewrite Z, Eq. reflexivity. }
  assert (M : migrates DPg u v).
  { split; [intros Z; rewrite Tu in Z; rewrite <- Z in Tv; discriminate|]. split; [exact Tv|]. right. right. split; [reflexivity|]. rewrite Tu. reflexivity. }
  destruct (moves S L DPg o s t s' t' l D D' Ws Wt Cc H Hs a b x y yq C Ix Iy En u v Iu Iv Nu M Iq Rf NoL (or_introl Nq) (or_introl eq_refl)) as (R & _ & E).
  - intros r w I Z. apply (Fu r w I Z).
  - exact Fv.
  - intros r c I Z. destruct (Fu r _ I Z) as (_ & c' & [= <-] & Ic). right. right. right. exists e. auto 10.
  - split; [exact R|]. intros c Ic. apply (E e c); auto.
Qed.
Print Assumptions C18_pg_enum_becomes_table.

(** MySQL: a column of an inline enumeration type.  The lookup table is new, or it exists and its definition does not change; then it
    only gets rows. *)
Theorem C18_mysql_enum_becomes_key : forall S o s t s' t' l D D', lawful S -> cat_wf DMySQL s -> cat_wf DMySQL t -> cat_compat DMySQL s t ->
  mutate_catalog DMySQL o s t = Ok (s', t', l) -> script S l D D' ->
  forall a b x y yq u v vs, common_ns s t a b -> In x (n_tables a) -> In y (n_tables b) -> t_name x = t_name y -> In yq (n_tables b) ->
  (~ In (t_key yq) (map t_key (n_tables a)) \/ exists xq, In xq (n_tables a) /\ t_name xq = t_name yq /\ table_eqb xq yq = true) ->
  In u (t_columns x) -> In v (t_columns y) -> c_name u = c_name v -> c_type u = TEnum vs -> is_int (c_type v) = true ->
  refers y v (t_name yq) -> (forall q, lookup_for DMySQL s t q -> key_of q <> key_of (t_name x)) ->
  (forall r w, In r (D (key_of (t_name x))) -> r (c_name u) = Some w -> sv_fits S (c_type u) w /\ exists c, w = PStr c /\ In c vs) ->
  (forall r w, In r (D' (key_of (t_name yq))) -> r "id" = Some w -> sv_fits S (c_type v) w) ->
  Forall2 (fun r r' => label_to_key S (c_name u) (D' (key_of (t_name yq))) r r' /\ null_to_null v r r' /\ keeps_columns S x y r r') (D (key_of (t_name x))) (D' (key_of (t_name x)))
  /\ (In (t_key yq) (map t_key (n_tables a)) -> exists new, D' (key_of (t_name yq)) = D (key_of (t_name yq)) ++ new).
Proof.
  intros S o s t s' t' l D D' L Ws Wt Cc H Hs a b x y yq u v vs C Ix Iy En Iq Lq Iu Iv Nu Tu Tv Rf NoL Fu Fv.
  assert (M : migrates DMySQL u v).
  { split; [intros Z; rewrite Tu in Z; rewrite <- Z in Tv; discriminate|]. split; [exact Tv|]. left. rewrite Tu. reflexivity. }
  destruct (moves S L DMySQL o s t s' t' l D D' Ws Wt Cc H Hs a b x y yq C Ix Iy En u v Iu Iv Nu M Iq Rf NoL Lq (or_intror eq_refl)) as (R & E & _).
  - intros r w I Z. apply (Fu r w I Z).
  - exact Fv.
  - intros r c I Z. destruct (Fu r _ I Z) as (_ & c' & [= <-] & Ic). right. left. exists vs. rewrite Tu. auto.
  - split; [exact R|exact E].
Qed.
Print Assumptions C18_mysql_enum_becomes_key.

(** MySQL: a text column, whose labels are collected from the data. *)
Theorem C18_mysql_text_becomes_key : forall S o s t s' t' l D D', lawful S -> cat_wf DMySQL s -> cat_wf DMySQL t -> cat_compat DMySQL s t ->
  mutate_catalog DMySQL o s t = Ok (s', t', l) -> script S l D D' ->
  forall a b x y yq u v len, common_ns s t a b -> In x (n_tables a) -> In y (n_tables b) -> t_name x = t_name y -> In yq (n_tables b) ->
  (~ In (t_key yq) (map t_key (n_tables a)) \/ exists xq, In xq (n_tables a) /\ t_name xq = t_name yq /\ table_eqb xq yq = true) ->
  In u (t_columns x) -> In v (t_columns y) -> c_name u = c_name v -> c_type u = TVarChar len -> is_int (c_type v) = true ->
  refers y v (t_name yq) -> (forall q, lookup_for DMySQL s t q -> key_of q <> key_of (t_name x)) ->
  (forall r w, In r (D (key_of (t_name x))) -> r (c_name u) = Some w -> sv_fits S (c_type u) w) ->
  (forall r w, In r (D' (key_of (t_name yq))) -> r "id" = Some w -> sv_fits S (c_type v) w) ->
  Forall2 (fun r r' => label_to_key S (c_name u) (D' (key_of (t_name yq))) r r' /\ null_to_null v r r' /\ keeps_columns S x y r r') (D (key_of (t_name x))) (D' (key_of (t_name x)))
  /\ (In (t_key yq) (map t_key (n_tables a)) -> exists new, D' (key_of (t_name yq)) = D (key_of (t_name yq)) ++ new).
Proof.
  intros S o s t s' t' l D D' L Ws Wt Cc H Hs a b x y yq u v len C Ix Iy En Iq Lq Iu Iv Nu Tu Tv Rf NoL Fu Fv.
  assert (M : migrates DMySQL u v).
  { split; [intros Z; rewrite Tu in Z; rewrite <- Z in Tv; discriminate|]. split; [exact Tv|]. right. left. rewrite Tu. reflexivity. }
  destruct (moves S L DMySQL o s t s' t' l D D' Ws Wt Cc H Hs a b x y yq C Ix Iy En u v Iu Iv Nu M Iq Rf NoL Lq (or_intror eq_refl)) as (R & E & _).
  - exact Fu.
  - exact Fv.
  - intros r c I Z. left. rewrite Tu. auto.
  - split; [exact R|exact E].
Qed.
Print Assumptions C18_mysql_text_becomes_key.

(** Both: an existing lookup table, not changed by the mutation, that has all labels. *)
Theorem C18_existing_lookup : forall S d o s t s' t' l D D', d = DPg \/ d = DMySQL -> lawful S -> cat_wf d s -> cat_wf d t -> cat_compat d s t ->
  mutate_catalog d o s t = Ok (s', t', l) -> script S l D D' ->
  forall a b x y xq yq u v, common_ns s t a b -> In x (n_tables a) -> In y (n_tables b) -> t_name x = t_name y ->
  In xq (n_tables a) -> In yq (n_tables b) -> t_name xq = t_name yq -> table_eqb xq yq = true ->
  In u (t_columns x) -> In v (t_columns y) -> c_name u = c_name v -> migrates d u v ->
  refers y v (t_name yq) -> (forall q, lookup_for d s t q -> key_of q <> key_of (t_name x)) ->
  (forall r w, In r (D (key_of (t_name x))) -> r (c_name u) = Some w -> sv_fits S (c_type u) w) ->
  (forall r w, In r (D' (key_of (t_name yq))) -> r "id" = Some w -> sv_fits S (c_type v) w) ->
  (forall r c, In r (D (key_of (t_name x))) -> r (c_name u) = Some (PStr c) -> labelled S (D (key_of (t_name yq))) c) ->
  Forall2 (fun r r' => label_to_key S (c_name u) (D' (key_of (t_name yq))) r r' /\ null_to_null v r r' /\ keeps_columns S x y r r') (D (key_of (t_name x))) (D' (key_of (t_name x)))
  /\ exists new, D' (key_of (t_name yq)) = D (key_of (t_name yq)) ++ new.
Proof.
  intros S d o s t s' t' l D D' Hd L Ws Wt Cc H Hs a b x y xq yq u v C Ix Iy En Ixq Iq Eq Et Iu Iv Nu M Rf NoL Fu Fv Kn.
  assert (Lo : In (t_key yq) (map t_key (n_tables a))) by (unfold t_key at 1; rewrite <- Eq; now apply (in_map t_key)).
  destruct (moves S L d o s t s' t' l D D' Ws Wt Cc H Hs a b x y yq C Ix Iy En u v Iu Iv Nu M Iq Rf NoL) as (R & E & _); eauto 10.
  intros r c I Z. right. right. left. eauto.
Qed.
Print Assumptions C18_existing_lookup.

(** *** Examples *)
Definition car (c : column) (ks : list constr) : table := Tab (shop "car") [col "id" int4; c; ncol "year" int4] ["id"] ks None None.
Definition fk_color : constr := CForeign "fk_car_color" ["color"] (shop "color") ["id"].
Definition pg_old : catalog := [Ns "shop" [color1] [] [car (ncol "color" (TUser (shop "color"))) []]].
Definition pg_new : catalog := [Ns "shop" [] [] [lookup_table DPg None; car (ncol "color" int4) [fk_color]]].
Definition my_old (ty : sqltype) (tabs : list table) : catalog := [Ns "shop" [] [] (tabs ++ [car (ncol "color" ty) []])].
Definition my_new : catalog := [Ns "shop" [] [] [lookup_table DMySQL None; car (ncol "color" int4) [fk_color]]].
Definition cars : list record := [row [("id", PInt 1); ("color", PStr "green"); ("year", PInt 1999)]; row [("id", PInt 2); ("year", PInt 2001)]; row [("id", PInt 3); ("color", PStr "red")]].
Definition painted : list record := [row [("id", PInt 1); ("color", PStr "green"); ("year", PInt 1999)]; row [("id", PInt 3); ("color", PStr "red")]].
Ltac compat_cars :=
  constructor;
  [intros a b Ia Ib Eab; cases; constructor;
    [intros x y Ix Iy E; cases; try discriminate; (constructor;
      [reflexivity
      |intros u v Iu Iv Euv; cases; try discriminate; split; unfold ident_compat, default_compat, want_default; simpl; try congruence; try (intuition congruence)
      |intros u v Iu Iv Euv (M1 & M2 & M3); cases; try discriminate; try (cbn in *; intuition congruence); (split; [discriminate|]); (split; [reflexivity|]); (split; [reflexivity|]);
        (split; [vm_compute; intuition discriminate|]); (split; [vm_compute; intuition discriminate|]); (split; [vm_compute; intuition discriminate|]); (split; [intros k0 Ik; cases|reflexivity || (intros; discriminate)])
      |intros _ u k Iu Nu Ik _; cases; simpl in *; intuition congruence
      |intros [G | G]; discriminate G])
    |intros e x Ie Ix E; cases; try discriminate; split; (reflexivity || exact Logic.I)
    |intros e x Ie Ix; cases; discriminate
    |intros x Ix; cases
    |intros x Ix; cases; simpl; intuition discriminate]
  |intros e n ty q (a & b & x & Ia & Ib & Eab & Ie & Ix & E & N) In_ It Iq; cases; vm_compute in It; cases; vm_compute in Iq; cases; discriminate
  |intros e (a & b & x & Ia & Ib & Eab & Ie & Ix & E & N); cases; vm_compute; intuition discriminate].
Lemma pg_old_wf : cat_wf DPg pg_old. Proof. constructor; [simpl; nodup|]. intros n Hn. cases; nswf. Qed.
Lemma pg_new_wf : cat_wf DPg pg_new. Proof. constructor; [simpl; nodup|]. intros n Hn. cases; nswf. Qed.
Lemma pg_cars : cat_compat DPg pg_old pg_new. Proof. compat_cars. Qed.
Ltac script_of E m := match type of E with m = Ok (?s', ?t', ?l) =>
  let El := fresh in assert (El : (s', t', l) = match m with Ok z => z | Err _ => ([], [], []) end) by (now rewrite E); vm_compute in El; injection El as -> -> -> end.
Ltac no_lookup := intros ? (? & ? & ? & ? & ? & ? & ? & ? & (? & ? & ?) & ? & ? & ? & ? & ? & ? & ? & F); cases; try discriminate; destruct F as [F|F]; try discriminate; try (injection F as <- <- <- <-; discriminate); destruct F.

Example C18_pg_example : exists s' t' l D', mutate_catalog DPg default_options pg_old pg_new = Ok (s', t', l)
  /\ script (server0 false) l (only (shop "car") cars) D'
  /\ vals (D' ("shop", "color")) "value" = [Some (PStr "red"); Some (PStr "green")] /\ vals (D' ("shop", "color")) "id" = [Some (PInt 1); Some (PInt 2)]
  /\ vals (D' ("shop", "car")) "color" = [Some (PInt 2); None; Some (PInt 1)] /\ vals (D' ("shop", "car")) "year" = [Some (PInt 1999); Some (PInt 2001); None]
  (* the theorem applies *)
  /\ Forall2 (fun r r' => label_to_key (server0 false) "color" (D' ("shop", "color")) r r' /\ null_to_null (ncol "color" int4) r r'
       /\ keeps_columns (server0 false) (car (ncol "color" (TUser (shop "color"))) []) (car (ncol "color" int4) [fk_color]) r r') cars (D' ("shop", "car")).
Proof.
  destruct (mutate_catalog DPg default_options pg_old pg_new) as [[[s' t'] l]|] eqn:E; [|exfalso; revert E; vm_compute; discriminate]. exists s', t', l.
  assert (X : exists D', script0 false l (only (shop "car") cars) = Some D' /\ vals (D' ("shop", "color")) "value" = [Some (PStr "red"); Some (PStr "green")] /\ vals (D' ("shop", "color")) "id" = [Some (PInt 1); Some (PInt 2)]
    /\ vals (D' ("shop", "car")) "color" = [Some (PInt 2); None; Some (PInt 1)] /\ vals (D' ("shop", "car")) "year" = [Some (PInt 1999); Some (PInt 2001); None]).
  { clear -E. script_of E (mutate_catalog DPg default_options pg_old pg_new). eexists. split; [simpl; reflexivity|]. repeat split; vm_compute; reflexivity. }
  destruct X as (D' & X & X1 & X2 & X3 & X4). exists D'. apply script0_ok in X. do 6 (split; [assumption || reflexivity|]).
  apply (C18_pg_enum_becomes_table (server0 false) default_options pg_old pg_new s' t' l (only (shop "car") cars) D' (server0_lawful false) pg_old_wf pg_new_wf pg_cars E X)
    with (a := Ns "shop" [color1] [] [car (ncol "color" (TUser (shop "color"))) []]) (b := Ns "shop" [] [] [lookup_table DPg None; car (ncol "color" int4) [fk_color]])
    (e := color1) (yq := lookup_table DPg None) (u := ncol "color" (TUser (shop "color"))) (v := ncol "color" int4)
    (x := car (ncol "color" (TUser (shop "color"))) []) (y := car (ncol "color" int4) [fk_color]); try reflexivity; try (simpl; auto; fail).
  - split; [simpl; auto|]. split; [simpl; auto|reflexivity].
  - split; [exists "fk_car_color", ["id"]; simpl; auto|]. intros kn q' rc F. cases; reflexivity.
  - no_lookup.
  - intros r w I Z. split; [exact Logic.I|]. change (In r cars) in I. destruct I as [<-|[<-|[<-|[]]]]; vm_compute in Z; try discriminate; injection Z as <-; eexists; (split; [reflexivity|simpl; auto]).
Qed.

Lemma my_wf : cat_wf DMySQL my_new. Proof. constructor; [simpl; nodup|]. intros n Hn. cases; nswf. Qed.
Definition my_enum : catalog := my_old (TEnum ["red"; "green"]) [].
Definition my_text : catalog := my_old (TVarChar (Some 20%Z)) [lookup_table DMySQL None].
Lemma my_enum_wf : cat_wf DMySQL my_enum. Proof. constructor; [simpl; nodup|]. intros n Hn. cases; nswf. Qed.
Lemma my_text_wf : cat_wf DMySQL my_text. Proof. constructor; [simpl; nodup|]. intros n Hn. cases; nswf. Qed.
Lemma my_enum_cars : cat_compat DMySQL my_enum my_new. Proof. compat_cars. Qed.
Lemma my_text_cars : cat_compat DMySQL my_text my_new. Proof. compat_cars. Qed.
Example C18_mysql_enum_example : exists s' t' l D', mutate_catalog DMySQL default_options my_enum my_new = Ok (s', t', l)
  /\ script (server0 true) l (only (shop "car") cars) D'
  /\ vals (D' ("shop", "color")) "value" = [Some (PStr "red"); Some (PStr "green")]
  /\ vals (D' ("shop", "car")) "color" = [Some (PInt 2); None; Some (PInt 1)] /\ vals (D' ("shop", "car")) "year" = [Some (PInt 1999); Some (PInt 2001); None]
  /\ Forall2 (fun r r' => label_to_key (server0 true) "color" (D' ("shop", "color")) r r' /\ null_to_null (ncol "color" int4) r r'
       /\ keeps_columns (server0 true) (car (ncol "color" (TEnum ["red"; "green"])) []) (car (ncol "color" int4) [fk_color]) r r') cars (D' ("shop", "car")).
Proof.
  destruct (mutate_catalog DMySQL default_options my_enum my_new) as [[[s' t'] l]|] eqn:E; [|exfalso; revert E; vm_compute; discriminate]. exists s', t', l.
  assert (X : exists D', script0 true l (only (shop "car") cars) = Some D' /\ vals (D' ("shop", "color")) "value" = [Some (PStr "red"); Some (PStr "green")]
    /\ vals (D' ("shop", "car")) "color" = [Some (PInt 2); None; Some (PInt 1)] /\ vals (D' ("shop", "car")) "year" = [Some (PInt 1999); Some (PInt 2001); None]).
  { clear -E. script_of E (mutate_catalog DMySQL default_options my_enum my_new). eexists. split; [simpl; reflexivity|]. repeat split; vm_compute; reflexivity. }
  destruct X as (D' & X & X1 & X2 & X3). exists D'. apply script0_ok in X. do 5 (split; [assumption || reflexivity|]).
  apply (C18_mysql_enum_becomes_key (server0 true) default_options my_enum my_new s' t' l (only (shop "car") cars) D' (server0_lawful true) my_enum_wf my_wf my_enum_cars E X)
    with (a := Ns "shop" [] [] [car (ncol "color" (TEnum ["red"; "green"])) []]) (b := Ns "shop" [] [] [lookup_table DMySQL None; car (ncol "color" int4) [fk_color]])
    (yq := lookup_table DMySQL None) (u := ncol "color" (TEnum ["red"; "green"])) (v := ncol "color" int4) (vs := ["red"; "green"])
    (x := car (ncol "color" (TEnum ["red"; "green"])) []) (y := car (ncol "color" int4) [fk_color]); try reflexivity; try (simpl; auto; fail).
  - split; [simpl; auto|]. split; [simpl; auto|reflexivity].
  - left. simpl. intuition discriminate.
  - split; [exists "fk_car_color", ["id"]; simpl; auto|]. intros kn q' rc F. cases; reflexivity.
  - no_lookup.
  - intros r w I Z. split; [exact Logic.I|]. change (In r cars) in I. destruct I as [<-|[<-|[<-|[]]]]; vm_compute in Z; try discriminate; injection Z as <-; eexists; (split; [reflexivity|simpl; auto]).
Qed.
(** the lookup table exists and has a label already *)
Definition text_store : store := put ("shop", "color") [row [("id", PInt 7); ("value", PStr "red")]] (only (shop "car") painted).
Example C18_mysql_text_example : exists s' t' l D', mutate_catalog DMySQL default_options my_text my_new = Ok (s', t', l)
  /\ script (server0 true) l text_store D'
  /\ vals (D' ("shop", "color")) "value" = [Some (PStr "red"); Some (PStr "green")]
  /\ vals (D' ("shop", "car")) "color" = [Some (PInt 2); Some (PInt 7)]
  /\ Forall2 (fun r r' => label_to_key (server0 true) "color" (D' ("shop", "color")) r r' /\ null_to_null (ncol "color" int4) r r'
       /\ keeps_columns (server0 true) (car (ncol "color" (TVarChar (Some 20%Z))) []) (car (ncol "color" int4) [fk_color]) r r') painted (D' ("shop", "car"))
  /\ exists new, D' ("shop", "color") = text_store ("shop", "color") ++ new.
Proof.
  destruct (mutate_catalog DMySQL default_options my_text my_new) as [[[s' t'] l]|] eqn:E; [|exfalso; revert E; vm_compute; discriminate]. exists s', t', l.
  assert (X : exists D', script0 true l text_store = Some D' /\ vals (D' ("shop", "color")) "value" = [Some (PStr "red"); Some (PStr "green")]
    /\ vals (D' ("shop", "car")) "color" = [Some (PInt 2); Some (PInt 7)]).
  { clear -E. script_of E (mutate_catalog DMySQL default_options my_text my_new). eexists. split; [simpl; reflexivity|]. repeat split; vm_compute; reflexivity. }
  destruct X as (D' & X & X1 & X2). exists D'. apply script0_ok in X. do 4 (split; [assumption || reflexivity|]).
  destruct (C18_mysql_text_becomes_key (server0 true) default_options my_text my_new s' t' l text_store D' (server0_lawful true) my_text_wf my_wf my_text_cars E X
    (Ns "shop" [] [] [lookup_table DMySQL None; car (ncol "color" (TVarChar (Some 20%Z))) []]) (Ns "shop" [] [] [lookup_table DMySQL None; car (ncol "color" int4) [fk_color]])
    (car (ncol "color" (TVarChar (Some 20%Z))) []) (car (ncol "color" int4) [fk_color])
    (lookup_table DMySQL None) (ncol "color" (TVarChar (Some 20%Z))) (ncol "color" int4) (Some 20%Z)) as [R1 R2]; try reflexivity; try (simpl; auto; fail).
  - split; [simpl; auto|]. split; [simpl; auto|reflexivity].
  - right. exists (lookup_table DMySQL None). split; [simpl; auto|]. split; reflexivity.
  - split; [exists "fk_car_color", ["id"]; simpl; auto|]. intros kn q' rc F. cases; reflexivity.
  - no_lookup.
  - split; [exact R1|]. apply R2. simpl. auto.
Qed.


(** *** What is not true *)
(** The data always survives: for rows that satisfy the hypotheses of the theorems above the script can be executed.  False on
    PostgreSQL when the column is NOT NULL: the new column is added without a default, which a table with rows refuses. *)
Definition pg_old_nn : catalog := [Ns "shop" [color1] [] [car (col "color" (TUser (shop "color"))) []]].
Definition pg_new_nn : catalog := [Ns "shop" [] [] [lookup_table DPg None; car (col "color" int4) [fk_color]]].
Lemma pg_nn_wf1 : cat_wf DPg pg_old_nn. Proof. constructor; [simpl; nodup|]. intros n Hn. cases; nswf. Qed.
Lemma pg_nn_wf2 : cat_wf DPg pg_new_nn. Proof. constructor; [simpl; nodup|]. intros n Hn. cases; nswf. Qed.
Lemma pg_nn : cat_compat DPg pg_old_nn pg_new_nn. Proof. compat_cars. Qed.
Theorem C18_not_null_column_refuted :
  ~ (forall S o s t s' t' l D, sv_implicit S = false -> lawful S -> cat_wf DPg s -> cat_wf DPg t -> cat_compat DPg s t ->
       mutate_catalog DPg o s t = Ok (s', t', l) ->
       (forall n x e u r c, In n s -> In x (n_tables n) -> In e (n_enums n) -> In u (t_columns x) -> c_type u = TUser (e_name e) -> In r (D (key_of (t_name x))) ->
          r (c_name u) = Some (PStr c) -> In c (e_values e)) ->
       exists D', script S l D D').
Proof.
  intros H. destruct (mutate_catalog DPg default_options pg_old_nn pg_new_nn) as [[[s' t'] l]|] eqn:E; [|revert E; vm_compute; discriminate].
  destruct (H (server0 false) default_options pg_old_nn pg_new_nn s' t' l (only (shop "car") painted) eq_refl (server0_lawful false) pg_nn_wf1 pg_nn_wf2 pg_nn E) as (D' & X).
  - intros n x e u r c In_ Ix Ie Iu Tu Ir Er. revert Ir Er. cases; try discriminate. intros Ir Er. change (In r painted) in Ir. destruct Ir as [<-|[<-|[]]]; vm_compute in Er; injection Er as <-; simpl; auto.
  - clear H. script_of E (mutate_catalog DPg default_options pg_old_nn pg_new_nn).
    destruct X as (M1 & X1 & M2 & X2 & M3 & X3 & M4 & X4 & M5 & X5 & M6 & X6 & _).
    assert (K4 : M4 ("shop", "car") = painted).
    { assert (Oth : forall st A B, stmt_target st = Some (shop "color") -> stmt_step (server0 false) st A B -> B ("shop", "car") = A ("shop", "car")).
      { intros st A B T. apply (other_step (server0 false) st A B (shop "color")); [exact T|discriminate]. }
      rewrite (Oth (SInsert (shop "color") ["value"] [PStr "red"; PStr "green"] PgDoNothing) _ _ eq_refl X4). erewrite Oth; [|idtac|exact X3]; [|reflexivity]. erewrite Oth; [|idtac|exact X2]; [|reflexivity]. erewrite Oth; [|idtac|exact X1]; reflexivity. }
    destruct X5 as [(m5 & F5 & E5) _]. change (key_of (Qualified (Some "shop") "car")) with ("shop", "car") in *. rewrite K4 in F5. simpl in E5.
    destruct X6 as [(m6 & F6 & _) _]. change (key_of (Qualified (Some "shop") "car")) with ("shop", "car") in *. rewrite E5 in F6.
    clear E5. unfold painted in F5. inversion F5 as [|r1 q1 ? ? A1 A2]; subst. inversion F6 as [|r2 q2 ? ? B1 B2]; subst. destruct B1 as (w & Z & _). vm_compute in Z. destruct Z. discriminate.
Qed.
Print Assumptions C18_not_null_column_refuted.

(** PostgreSQL copies the labels only into a lookup table that has the name of the enumeration type.  With another name the values are lost. *)
Definition pg_renamed : catalog :=
  [Ns "shop" [] [] [Tab (shop "paint") [Col "id" int4 false None true None; col "value" vc] ["id"] [] None None;
                    car (ncol "color" int4) [CForeign "fk_car_color" ["color"] (shop "paint") ["id"]]]].
Lemma pg_renamed_wf : cat_wf DPg pg_renamed. Proof. constructor; [simpl; nodup|]. intros n Hn. cases; nswf. Qed.
Lemma pg_renamed_cars : cat_compat DPg pg_old pg_renamed. Proof. compat_cars. Qed.
Theorem C18_lookup_with_other_name_refuted :
  ~ (forall S o s t s' t' l D D', lawful S -> cat_wf DPg s -> cat_wf DPg t -> cat_compat DPg s t -> mutate_catalog DPg o s t = Ok (s', t', l) -> script S l D D' ->
       forall a b x y e yq u v, common_ns s t a b -> In x (n_tables a) -> In y (n_tables b) -> t_name x = t_name y -> In e (n_enums a) -> In yq (n_tables b) ->
       In u (t_columns x) -> In v (t_columns y) -> c_name u = c_name v -> c_type u = TUser (e_name e) -> is_int (c_type v) = true -> refers y v (t_name yq) ->
       Forall2 (label_to_key S (c_name u) (D' (key_of (t_name yq)))) (D (key_of (t_name x))) (D' (key_of (t_name x)))).
Proof.
  intros H. destruct (mutate_catalog DPg default_options pg_old pg_renamed) as [[[s' t'] l]|] eqn:E; [|revert E; vm_compute; discriminate].
  assert (X : exists D', script0 false l (only (shop "car") cars) = Some D' /\ D' ("shop", "paint") = []).
  { clear -E. script_of E (mutate_catalog DPg default_options pg_old pg_renamed). eexists. split; [simpl; reflexivity|]. vm_compute. reflexivity. }
  destruct X as (D' & X & X1). apply script0_ok in X.
  assert (F := H (server0 false) default_options pg_old pg_renamed s' t' l (only (shop "car") cars) D' (server0_lawful false) pg_old_wf pg_renamed_wf pg_renamed_cars E X
    (Ns "shop" [color1] [] [car (ncol "color" (TUser (shop "color"))) []])
    (Ns "shop" [] [] [Tab (shop "paint") [Col "id" int4 false None true None; col "value" vc] ["id"] [] None None; car (ncol "color" int4) [CForeign "fk_car_color" ["color"] (shop "paint") ["id"]]])
    (car (ncol "color" (TUser (shop "color"))) []) (car (ncol "color" int4) [CForeign "fk_car_color" ["color"] (shop "paint") ["id"]]) color1
    (Tab (shop "paint") [Col "id" int4 false None true None; col "value" vc] ["id"] [] None None) (ncol "color" (TUser (shop "color"))) (ncol "color" int4)).
  clear H. cbv zeta in F. change (D' (key_of (t_name (Tab (shop "paint") [Col "id" int4 false None true None; col "value" vc] ["id"] [] None None)))) with (D' ("shop", "paint")) in F. rewrite X1 in F.
  assert (G : Forall2 (label_to_key (server0 false) "color" []) cars (D' ("shop", "car"))).
  { apply F; try reflexivity; try (simpl; auto; fail).
    - split; [simpl; auto|]. split; [simpl; auto|reflexivity].
    - split; [exists "fk_car_color", ["id"]; simpl; auto|]. intros kn q' rc Z. cases; reflexivity. }
  inversion G as [|r r' ? ? G1 G2]; subst. destruct (G1 "green" eq_refl) as (e & b & [] & _).
Qed.
Print Assumptions C18_lookup_with_other_name_refuted.

(** MySQL: a text column that has NULLs cannot be moved, because the statement that collects the labels also collects the NULL. *)
Theorem C18_mysql_null_text_refuted :
  ~ (forall S o s t s' t' l D, lawful S -> cat_wf DMySQL s -> cat_wf DMySQL t -> cat_compat DMySQL s t -> mutate_catalog DMySQL o s t = Ok (s', t', l) ->
       (forall x r c v, In x (flat_map n_tables s) -> In c (t_columns x) -> In r (D (key_of (t_name x))) -> r (c_name c) = Some v -> sv_fits S (c_type c) v) ->
       exists D', script S l D D').
Proof.
  intros H. destruct (mutate_catalog DMySQL default_options my_text my_new) as [[[s' t'] l]|] eqn:E; [|revert E; vm_compute; discriminate].
  destruct (H (server0 true) default_options my_text my_new s' t' l (only (shop "car") cars) (server0_lawful true) my_text_wf my_wf my_text_cars E) as (D' & X); [intros; exact Logic.I|].
  clear H. script_of E (mutate_catalog DMySQL default_options my_text my_new).
  destruct X as (M1 & X1 & M2 & X2 & M3 & X3 & _).
  destruct X1 as [(m1 & F1 & E1) _]. change (key_of (Qualified (Some "shop") "car")) with ("shop", "car") in *. simpl in E1.
  destruct X2 as [(m2 & F2 & E2) _]. change (key_of (Qualified (Some "shop") "car")) with ("shop", "car") in *. simpl in E2. rewrite E1 in F2.
  destruct X3 as [(_ & X3) _]. change (key_of (Qualified (Some "shop") "car")) with ("shop", "car") in *. rewrite E2 in X3. clear E1 E2.
  change (only (shop "car") cars ("shop", "car")) with cars in F1. unfold cars in F1.
  inversion F1 as [|r1 q1 ? ? A1 F1']; subst. inversion F1' as [|r2 q2 ? ? A2 F1'']; subst. inversion F2 as [|? p1 ? ? B1 F2']; subst. inversion F2' as [|? p2 ? ? B2 F2'']; subst.
  destruct (X3 p2) as (c & Z & _); [right; now left|]. destruct B2 as (w & _ & B2). rewrite B2 in Z. vm_compute in Z.
  destruct A2 as (w2 & W2 & A2). rewrite A2 in Z. vm_compute in Z, W2. destruct W2 as [W2|W2]; [congruence|]. destruct W2 as [W2 _]. discriminate W2.
Qed.
Print Assumptions C18_mysql_null_text_refuted.
