(** C38: data-classes made from tables. *)
From Verif Require Import PyStr QuoteModel ObjectDict ObjectDictProofs Types Objects Compat Convert ConvertDialects ConvertSpec ConvertProofs
  CloseSpec CloseProofs1 Reverse ReverseSpec PropsConvert PropsScalar.
From Coq Require Import Permutation Lia.
Open Scope string_scope.

Lemma safe_id_ok s : safe_id s = s \/ (In s keywords /\ safe_id s = s ++ "_").
Proof.
  unfold safe_id, is_keyword. destruct (existsb (String.eqb s) keywords) eqn:E; [|now left]. right. split; [|reflexivity].
  apply existsb_exists in E as (x & I & Q). apply String.eqb_eq in Q. now subst.
Qed.
Lemma in_names x l : existsb (String.eqb x) l = true <-> In x l.
Proof. rewrite existsb_exists. split; [intros (y & I & Q); apply String.eqb_eq in Q; now subst|intros I; exists x; split; [exact I|apply String.eqb_refl]]. Qed.

Section Refine.
Context (modules : list (option string * string)) (col : column).
Lemma refine_all_plain ks : forall t, (forall k qs, In k ks -> ~ refers_from (c_name col) k qs) -> refine_all modules col t ks = Ok t.
Proof.
  induction ks as [|k ks IH]; intros t N; [reflexivity|]. cbn [refine_all].
  assert (R : refine modules col t k = Ok t).
  { unfold refine. destruct k as [? ?|n cols q keys|n cols refs|? ?]; try reflexivity;
      destruct (existsb (String.eqb (c_name col)) cols) eqn:E; try reflexivity; exfalso; apply in_names in E;
      [apply (N (CForeign n cols q keys) [q])|apply (N (CDiscr n cols refs) (map fst refs))]; try (now left); now constructor. }
  rewrite R. cbn [bind]. apply IH. intros k' qs I. apply N. now right.
Qed.
Definition named (t : gtype) : Prop := (exists s, t = GText s) \/ (exists l, t = GUnion l).
Lemma refine_keeps k t u : refine modules col t k = Ok u -> named t -> named u.
Proof.
  unfold refine. destruct k as [? ?|n cols q keys|n cols refs|? ?]; try (intros [= <-]; auto; fail).
  - destruct (existsb _ _); [|intros [= <-]; auto]. intros H _. apply bind_inv in H as (s & _ & H). injection H as <-. left. eauto.
  - destruct (existsb _ _); [|intros [= <-]; auto]. intros H _. apply bind_inv in H as (l & _ & H). destruct l; [discriminate|]. injection H as <-. right. eauto.
Qed.
Lemma refine_all_keeps ks : forall t u, refine_all modules col t ks = Ok u -> named t -> named u.
Proof.
  induction ks as [|k ks IH]; intros t u H N; cbn in H; [now injection H as <-|]. apply bind_inv in H as (v & H1 & H2). eapply IH; eauto. eapply refine_keeps; eauto.
Qed.
Lemma refine_all_named ks k qs : forall t u, refine_all modules col t ks = Ok u -> In k ks -> refers_from (c_name col) k qs -> named u.
Proof.
  induction ks as [|k' ks IH]; intros t u H I R; [destruct I|]. cbn in H. apply bind_inv in H as (v & H1 & H2). destruct I as [->|I]; [|eauto].
  eapply refine_all_keeps; eauto. unfold refine in H1. destruct R as [n cols q keys IC|n cols refs IC]; apply in_names in IC; rewrite IC in H1.
  - apply bind_inv in H1 as (s & _ & H1). injection H1 as <-. left. eauto.
  - apply bind_inv in H1 as (l & _ & H1). destruct l; [discriminate|]. injection H1 as <-. right. eauto.
Qed.
End Refine.

Lemma column_field_for modules tbl col f : column_to_field modules tbl col = Ok f -> field_for tbl col f.
Proof.
  intros H. unfold column_to_field in H. apply bind_inv in H as (t & T & H). cbn [id_equals_tuple] in H. apply bind_inv in H as (u & U & H). injection H as <-.
  split; cbn [gf_name gf_type gf_default].
  - apply safe_id_ok.
  - reflexivity.
  - intros N. exists t. split; [exact T|]. rewrite refine_all_plain in U by exact N. now injection U as <-.
  - intros k qs I R. exact (refine_all_named _ _ _ _ _ _ _ U I R).
Qed.

(** The class of a table has one field for each column, required fields first, otherwise in the order of the columns. *)
Definition required (f : gfield) : bool := negb (is_some (gf_default f)).
Definition has_default (f : gfield) : bool := is_some (gf_default f).
Theorem C38_one_field_per_column_partial modules ident tbl g :
  table_to_dataclass modules ident tbl = Ok g ->
  exists fs, Forall2 (field_for tbl) (t_columns tbl) fs /\ gc_fields g = (filter required fs ++ filter has_default fs)%list /\
    Permutation (gc_fields g) fs /\ NoDup (map gf_name fs) /\ gc_doc g = t_desc tbl.
Proof.
  intros H. unfold table_to_dataclass in H. apply bind_inv in H as (fs & F & H). cbv zeta in H. apply bind_inv in H as (m & M & H).
  destruct (_ && _) eqn:B in H; [|discriminate]. injection H as <-. apply andb_prop in B as [_ B]. cbn [gc_fields gc_doc]. exists fs.
  assert (P : Permutation (filter required fs ++ filter has_default fs) fs).
  { clear. induction fs as [|f fs IH]; [constructor|]. cbn [filter]. unfold required at 1, has_default at 1. destruct (is_some (gf_default f)); cbn [negb].
    - apply Permutation_sym. eapply Permutation_trans; [|apply Permutation_middle]. now constructor.
    - cbn. now constructor. }
  split; [|split; [reflexivity|split; [exact P|split; [|reflexivity]]]].
  - apply map_res_all2 in F. clear - F. induction F as [|c f cs fs H F IH]; constructor; auto. eapply column_field_for; eauto.
  - apply (Permutation_NoDup (l := map gf_name (filter required fs ++ filter has_default fs))); [now apply Permutation_map|].
    fold required has_default in B. change (filter (fun f => negb (is_some (gf_default f))) fs) with (filter required fs) in B.
    change (filter (fun f => is_some (gf_default f)) fs) with (filter has_default fs) in B.
    revert B. generalize (map gf_name (filter required fs ++ filter has_default fs)). clear. induction l as [|x l IH]; cbn; intros H; [constructor|].
    apply andb_prop in H as [H1 H2]. constructor; [|auto]. intros I. apply in_names in I. rewrite I in H1. discriminate.
Qed.
Print Assumptions C38_one_field_per_column_partial.

(** ** Columns come back *)
Lemma reversible_type d g env t n : reversible d t -> (forall m, g_skip g m = false) -> (forall T, g_same g T = true) ->
  exists B ms, to_python t = Ok (GPy (annotated B ms)) /\ simple_base B = true /\ Forall (fun m => is_constraint m = false) ms /\
    member_sql env (dialect_options d g) (S n) (annotated B ms) = Ok t.
Proof.
  intros R SK SM.
  Ltac rev_case SK SM B ms := exists B, ms; (split; [reflexivity|]); (split; [reflexivity|]); (split; [repeat constructor|]);
    cbn [annotated]; cbn [member_sql]; unfold simple_sql, value_sql, fixed_sql, same_object, subst, annotated_base; cbn; rewrite ?SK, ?SM; cbn; try reflexivity.
  destruct R as [d t I R|d w I W|d I|d p I|p|l| |p|k| |k|l| |p|p|l].
  - destruct R as [p| | | | ]; cbn in I;
    [destruct I as [<-|[<-|[<-|[<-|[]]]]]; rev_case SK SM YFloat [MPrecision p 0]
    |destruct I as [<-|[<-|[<-|[<-|[]]]]]; rev_case SK SM YDecimal (@nil meta)
    |destruct I as [<-|[<-|[<-|[<-|[]]]]]; rev_case SK SM YFloat [MStorage 4]
    |destruct I as [<-|[<-|[<-|[<-|[]]]]]; rev_case SK SM YFloat [MStorage 8]
    |destruct I as [<-|[<-|[<-|[<-|[]]]]]; rev_case SK SM YDate (@nil meta)].
  - assert (X : forall T v, In T [py_int16; py_int32; py_int64] -> In d [DPostgres; DMySQL; DMSSQL] -> fixed_column d T = Some v -> member_sql env (dialect_options d g) (S n) T = Ok v).
    { intros T v IT _ F. apply member_sql_fixed; auto. unfold fixed_types. cbn in *. tauto. }
    destruct W as [-> | [-> | ->]]; [exists YInt, (metadata py_int16)|exists YInt, (metadata py_int32)|exists YInt, (metadata py_int64)];
    (split; [reflexivity|]; split; [reflexivity|]; split; [repeat constructor|]);
    [apply (X py_int16)|apply (X py_int32)|apply (X py_int64)]; auto; try (cbn; tauto); cbn in I; destruct I as [<-|[<-|[<-|[]]]]; reflexivity.
  - cbn in I. destruct I as [<-|[<-|[]]]; rev_case SK SM YBool (@nil meta).
  - cbn in I. destruct p as [p|]; destruct I as [<-|[<-|[<-|[]]]]; [rev_case SK SM YTime [MTimePrecision p]..|rev_case SK SM YTime (@nil meta)|rev_case SK SM YTime (@nil meta)|rev_case SK SM YTime (@nil meta)].
  - destruct p as [p|]; [rev_case SK SM YDatetime [MTimePrecision p]|rev_case SK SM YDatetime (@nil meta)].
  - destruct l as [p|]; [rev_case SK SM YStr [MMaxLength p]|rev_case SK SM YStr (@nil meta)].
  - rev_case SK SM YUuid (@nil meta).
  - destruct p as [p|]; [rev_case SK SM YDatetime [MTimePrecision p]|rev_case SK SM YDatetime (@nil meta)].
  - rev_case SK SM YStr [MMaxLength k].
  - rev_case SK SM YBool (@nil meta).
  - rev_case SK SM YDatetime [MTimePrecision k].
  - destruct l as [p|]; [rev_case SK SM YStr [MMaxLength p]|rev_case SK SM YStr (@nil meta)].
  - exists YInt, (metadata py_int64). split; [reflexivity|]; split; [reflexivity|]; split; [repeat constructor|]; reflexivity.
  - destruct p as [p|]; [rev_case SK SM YTime [MTimePrecision p]|rev_case SK SM YTime (@nil meta)].
  - destruct p as [p|]; [rev_case SK SM YDatetime [MTimePrecision p]|rev_case SK SM YDatetime (@nil meta)].
  - destruct l as [p|]; [rev_case SK SM YStr [MMaxLength p]|rev_case SK SM YStr (@nil meta)].
Qed.

Lemma column_names_kept n : is_keyword n = false -> safe_id n = n.
Proof. unfold safe_id. now intros ->. Qed.
Lemma optional_plain B ms : simple_base B = true -> mk_optional (annotated B ms) = YUnion [annotated B ms; YNone].
Proof. intros SB. destruct ms, B; try discriminate; reflexivity. Qed.
Lemma optional_field T : forall B ms, T = annotated B ms -> simple_base B = true -> Forall (fun m => is_constraint m = false) ms -> forall nl : bool,
  let p := field_properties (if nl then YUnion [T; YNone] else T) in field_type p = T /\ p_nullable p = nl /\
  forall env o, relationship env o (if nl then YUnion [T; YNone] else T) = None.
Proof.
  intros B ms -> SB M nl. cbv zeta.
  assert (D : declared_as (Fld "" (if nl then YUnion [annotated B ms; YNone] else annotated B ms) DMissing) (annotated B ms)) by (destruct nl; [right; left|left]; reflexivity).
  split; [exact (declared_type _ B ms SB M D)|]. split; [|intros env o; exact (declared_scalar env o _ B ms SB D)].
  destruct nl; destruct ms, B; try discriminate; reflexivity.
Qed.
Definition same_column (a b : column) : Prop := c_name a = c_name b /\ c_type a = c_type b /\ c_nullable a = c_nullable b.

(** A table whose columns have types of the dialect that Python types stand for, no defaults, no reserved names and no
    references to other tables: every field of its class is converted back into a column of the same name, type and
    nullability, in the same order.  (The conversion of the class as a whole fails, see below.) *)
Theorem C38_columns_come_back_partial d g env modules ident resolve tbl gc :
  (forall m, g_skip g m = false) -> (forall T, g_same g T = true) -> g_auto g = false ->
  table_to_dataclass modules ident tbl = Ok gc ->
  Forall (fun c => reversible d (c_type c) /\ is_keyword (c_name c) = false /\ c_default c = None) (t_columns tbl) ->
  (forall k qs c, In k (t_constraints tbl) -> In c (t_columns tbl) -> ~ refers_from (c_name c) k qs) ->
  exists fs cols, resolve_fields resolve (gc_fields gc) = Some fs /\
    table_columns (with_class env gc fs) (dialect_options d g) 1 (gc_module gc, gc_name gc) = Ok cols /\ Forall2 same_column (t_columns tbl) cols.
Proof.
  intros SK SM AU H RV NR. destruct (C38_one_field_per_column_partial _ _ _ _ H) as (gs & F & G & _ & _ & _).
  assert (ALL : filter has_default gs = [] /\ filter required gs = gs).
  { clear - F RV. induction F as [|c f cs fs P F IH]; [auto|]. inversion RV as [|? ? (_ & _ & D) R2]; subst. destruct (IH R2) as [I1 I2]. cbn [filter].
    unfold has_default at 1, required at 1. rewrite (ff_default _ _ _ P), D. cbn. rewrite I1, I2. auto. }
  destruct ALL as [A1 A2]. rewrite A1, A2, app_nil_r in G. rewrite G.
  assert (STEP : forall cs l, Forall2 (field_for tbl) cs l -> Forall (fun c => reversible d (c_type c) /\ is_keyword (c_name c) = false /\ c_default c = None) cs -> incl cs (t_columns tbl) ->
    exists fs, resolve_fields resolve l = Some fs /\ forall env', (forall f, In f fs -> relationship env' (dialect_options d g) (f_type f) = None) /\
      exists cols, map_res (member_column env' (dialect_options d g) 1 []) fs = Ok cols /\ Forall2 same_column cs cols).
  { clear - SK SM AU NR. induction 1 as [|c f cs l P F IH]; intros RV IN; [exists []; split; [reflexivity|]; intros env'; split; [intros f []|exists []; split; [reflexivity|constructor]]|].
    inversion RV as [|? ? (R1 & R2 & R3) RV2]; subst. destruct (IH RV2 ltac:(intros x X; apply IN; now right)) as (fs & RF & TC).
    destruct (ff_plain _ _ _ P) as (t & T & TY); [intros k qs I; apply NR; [exact I|apply IN; now left]|].
    destruct (reversible_type d g (fun _ => KOther) (c_type c) 0 R1 SK SM) as (B & ms & TP & SB & M & _). assert (t = GPy (annotated B ms)) by congruence. subst t.
    set (T0 := annotated B ms) in *.
    exists (Fld (gf_name f) (if c_nullable c then YUnion [T0; YNone] else T0) DMissing :: fs). split.
    - cbn [resolve_fields]. rewrite TY, RF, (ff_default _ _ _ P), R3. destruct (c_nullable c); [|reflexivity]. cbn [resolve_type]. unfold T0. now rewrite (optional_plain _ _ SB).
    - intros env'. destruct (TC env') as (RL & cols & MC & SC). destruct (optional_field T0 B ms eq_refl SB M (c_nullable c)) as (O1 & O2 & O3). split.
      + intros x [<-|Ix]; [apply O3|auto].
      + destruct (reversible_type d g env' (c_type c) 0 R1 SK SM) as (B' & ms' & TP' & SB' & M' & MS). assert (annotated B' ms' = T0) by congruence. rewrite H in MS.
        cbn [map_res]. unfold member_column at 1. cbn [f_type f_name f_default]. cbv zeta. rewrite O1, MS, O2. cbn [bind].
        assert (OA : o_auto (dialect_options d g) = false) by (unfold dialect_options; cbn; destruct d; auto). rewrite OA. cbn [andb bind]. rewrite MC. cbn [bind].
        eexists. split; [reflexivity|]. constructor; [|exact SC]. repeat split; cbn. destruct (ff_name _ _ _ P) as [X|[X _]]; [now rewrite X|].
        apply in_names in X. unfold is_keyword in R2. congruence. }
  destruct (STEP _ _ F RV (fun x X => X)) as (fs & RF & TC). exists fs. destruct (TC (with_class env gc fs)) as (RL & cols & MC & SC). exists cols.
  split; [exact RF|]. split; [|exact SC].
  unfold table_columns, column_fields, params_of, fields_of, with_class. unfold with_class in RL, MC.
  assert (CE : cid_eqb (gc_module gc, gc_name gc) (gc_module gc, gc_name gc) = true) by (unfold cid_eqb; cbn; now rewrite !String.eqb_refl).
  rewrite CE. rewrite <- MC. f_equal. clear - RL.
  revert RL. generalize (fun c : cid => if cid_eqb c (gc_module gc, gc_name gc) then KData fs false (gc_doc gc) [] else env c). intros e RL.
  induction fs as [|f fs IH]; [reflexivity|]. cbn [filter]. rewrite (RL f (or_introl eq_refl)). cbn [is_some negb]. f_equal. apply IH. intros x X. apply RL. now right.
Qed.
Print Assumptions C38_columns_come_back_partial.

(** ** References are the names of classes *)
Section Named.
Context (modules : list (option string * string)) (col : column).
Lemma qual_text q s : qual_to_module modules q = Ok s -> class_text modules q s.
Proof.
  unfold qual_to_module, module_of. destruct (find _ modules) as [[o m]|] eqn:F; [|discriminate]. cbn [bind]. intros [= <-]. apply find_some in F as [I E]. exists m, (safe_id (local_id q)). split; [|split; [reflexivity|]].
  - assert (o = scope_id q) as -> ; [|exact I]. cbn [fst] in E. destruct o, (scope_id q); try discriminate E; [apply String.eqb_eq in E; now subst|reflexivity].
  - unfold safe_id, is_keyword. destruct (existsb _ keywords) eqn:K; [right|left]; split; auto; [now apply in_names|]. intros J. apply in_names in J. congruence.
Qed.
Definition tells (ks : list constr) (t : gtype) : Prop :=
  exists k qs, In k ks /\ refers_from (c_name col) k qs /\
    ((exists q s, qs = [q] /\ t = GText s /\ class_text modules q s) \/ (exists l, t = GUnion l /\ Forall2 (class_text modules) qs l)).
Lemma refine_tells k t u all : refine modules col t k = Ok u -> In k all -> u = t /\ (forall qs, ~ refers_from (c_name col) k qs) \/ tells all u.
Proof.
  intros H I. unfold refine in H. destruct k as [? ?|n cols q keys|n cols refs|? ?].
  - injection H as <-. left. split; [reflexivity|]. intros qs R. inversion R.
  - destruct (existsb _ cols) eqn:E.
    + right. apply in_names in E. apply bind_inv in H as (s & Q & H). injection H as <-. eexists _, [q]. split; [exact I|]. split; [now constructor|]. left. exists q, s. split; [reflexivity|]. split; [reflexivity|now apply qual_text].
    + injection H as <-. left. split; [reflexivity|]. intros qs R. inversion R; subst. match goal with J : In _ cols |- _ => apply in_names in J; congruence end.
  - destruct (existsb _ cols) eqn:E.
    + right. apply in_names in E. apply bind_inv in H as (l & Q & H). eexists _, (map fst refs). split; [exact I|]. split; [now constructor|]. right. exists l. split; [destruct l; [discriminate|]; now injection H as <-|].
      apply map_res_all2 in Q. clear - Q. induction Q; cbn; constructor; auto. now apply qual_text.
    + injection H as <-. left. split; [reflexivity|]. intros qs R. inversion R; subst. match goal with J : In _ cols |- _ => apply in_names in J; congruence end.
  - injection H as <-. left. split; [reflexivity|]. intros qs R. inversion R.
Qed.
Lemma refine_all_tells all ks : forall t u, incl ks all -> refine_all modules col t ks = Ok u -> u = t /\ (forall k qs, In k ks -> ~ refers_from (c_name col) k qs) \/ tells all u.
Proof.
  induction ks as [|k ks IH]; intros t u Inc H; cbn in H; [injection H as <-; left; split; [reflexivity|intros k qs []]|]. apply bind_inv in H as (v & H1 & H2).
  destruct (IH v u (fun x X => Inc x (or_intror X)) H2) as [[-> N]|T]; [|now right]. destruct (refine_tells k t v all H1 (Inc k (or_introl eq_refl))) as [[-> N']|T]; [|now right].
  left. split; [reflexivity|]. intros k' qs [<-|I]; auto.
Qed.
End Named.
(** The class is found under the name that references to its table have, and the field of a column that refers to other tables has the names of
    their classes. *)
Theorem C38_references_name_classes : forall modules ident tbl g, table_to_dataclass modules ident tbl = Ok g ->
  class_text modules (t_name tbl) (gc_module g ++ "." ++ gc_name g) /\
  forall col k qs, In col (t_columns tbl) -> In k (t_constraints tbl) -> refers_from (c_name col) k qs ->
  exists f k' qs', In f (gc_fields g) /\ (gf_name f = c_name col \/ gf_name f = c_name col ++ "_") /\ In k' (t_constraints tbl) /\ refers_from (c_name col) k' qs' /\
    ((exists q s, qs' = [q] /\ gf_type f = GText s /\ class_text modules q s) \/ (exists l, gf_type f = GUnion l /\ Forall2 (class_text modules) qs' l)).
Proof.
  intros modules ident tbl g H. pose proof H as H0. unfold table_to_dataclass in H. apply bind_inv in H as (fs & F & H). cbv zeta in H. apply bind_inv in H as (m & M & H).
  destruct (_ && _) eqn:B in H; [|discriminate]. injection H as E. split.
  - rewrite <- E. cbn [gc_module gc_name]. apply qual_text. unfold qual_to_module. rewrite M. reflexivity.
  - intros col k qs Ic Ik R. destruct (C38_one_field_per_column_partial _ _ _ _ H0) as (fs' & _ & G & _).
    assert (X : exists f, In f fs /\ column_to_field modules tbl col = Ok f).
    { apply map_res_all2 in F. clear - F Ic. induction F as [|c f cs fs H F IH]; [destruct Ic|]. destruct Ic as [-> | Ic]; [exists f; split; [now left|exact H]|]. destruct (IH Ic) as (x & X & Y). exists x. split; [now right|exact Y]. }
    destruct X as (f & If & Cf). pose proof (column_field_for _ _ _ _ Cf) as FF. unfold column_to_field in Cf. apply bind_inv in Cf as (t & T & Cf). cbn [id_equals_tuple] in Cf. apply bind_inv in Cf as (u & U & Cf). injection Cf as Ef.
    destruct (refine_all_tells modules col (t_constraints tbl) _ _ _ (incl_refl _) U) as [[_ N]|(k' & qs' & I' & R' & T')]; [exfalso; exact (N k qs Ik R)|].
    exists f, k', qs'. split; [|split; [destruct (ff_name _ _ _ FF) as [Y|[_ Y]]; auto|split; [exact I'|split; [exact R'|]]]].
    + rewrite <- E. cbn [gc_fields]. apply in_or_app. destruct (is_some (gf_default f)) eqn:D; [right|left]; apply filter_In; (split; [exact If|]); now rewrite D.
    + rewrite <- Ef. exact T'.
Qed.
Print Assumptions C38_references_name_classes.
(** a table has one such name *)
Theorem C38_class_names_unique : forall modules q s s', NoDup (map fst modules) -> class_text modules q s -> class_text modules q s' -> s = s'.
Proof.
  intros modules q s s' N (m & c & I & -> & C) (m' & c' & I' & -> & C').
  assert (m = m') as ->.
  { clear - N I I'. induction modules as [|[o x] l IH]; [destruct I|]. cbn [map fst] in N. inversion N as [|? ? NI N']; subst. destruct I as [E|I], I' as [E'|I'].
    - congruence.
    - injection E as -> ->. exfalso. apply NI. now apply (in_map fst) in I'.
    - injection E' as -> ->. exfalso. apply NI. now apply (in_map fst) in I.
    - auto. }
  destruct C as [[N1 ->]|[N1 ->]], C' as [[N2 ->]|[N2 ->]]; tauto || reflexivity.
Qed.
Print Assumptions C38_class_names_unique.

(** ** What does not come back *)
Lemma field_of_column modules ident tbl g col : table_to_dataclass modules ident tbl = Ok g -> In col (t_columns tbl) ->
  exists f, In f (gc_fields g) /\ field_for tbl col f.
Proof.
  intros H I. destruct (C38_one_field_per_column_partial _ _ _ _ H) as (fs & F & _ & P & _).
  assert (X : exists f, In f fs /\ field_for tbl col f).
  { clear - F I. induction F as [|c f cs fs H F IH]; [destruct I|]. destruct I as [-> | I]; [exists f; split; [now left|exact H]|].
    destruct (IH I) as (x & X & Y). exists x. split; [now right|exact Y]. }
  destruct X as (f & J & Q). exists f. split; [|exact Q]. exact (Permutation_in _ (Permutation_sym P) J).
Qed.
Definition default_of (f : gfield) : dflt := match gf_default f with Some s => DVal (PStr s) | None => DMissing end.
Lemma resolved_field resolve l : forall fs f, resolve_fields resolve l = Some fs -> In f l ->
  exists t, resolve_type resolve (gf_type f) = Some t /\ In (Fld (gf_name f) t (default_of f)) fs.
Proof.
  induction l as [|g l IH]; intros fs f H I; [destruct I|]. cbn in H. destruct (resolve_type resolve (gf_type g)) as [t|] eqn:T; [|discriminate].
  destruct (resolve_fields resolve l) as [r|] eqn:R; [|discriminate]. injection H as <-. destruct I as [-> | I].
  - exists t. split; [exact T|]. left. reflexivity.
  - destruct (IH r f eq_refl I) as (u & U & V). exists u. split; [exact U|now right].
Qed.
Lemma resolved_source resolve l : forall fs x, resolve_fields resolve l = Some fs -> In x fs ->
  exists f, In f l /\ resolve_type resolve (gf_type f) = Some (f_type x).
Proof.
  induction l as [|g l IH]; intros fs f H I; cbn in H; [injection H as <-; destruct I|]. destruct (resolve_type resolve (gf_type g)) as [t|] eqn:T; [|discriminate].
  destruct (resolve_fields resolve l) as [r|] eqn:R; [|discriminate]. injection H as <-. destruct I as [<- | I].
  - exists g. split; [now left|exact T].
  - destruct (IH r f eq_refl I) as (u & U & V). exists u. split; [now right|exact V].
Qed.

(** no annotation of the generated class says that a field is the primary key *)
Definition unmarked (t : gtype) : Prop := match t with GPy u => is_primary_key_type u = false | _ => True end.
Lemma to_python_unmarked t : forall u, to_python t = Ok u -> unmarked u.
Proof.
  induction t; intros x H; cbn in H; try discriminate; try (injection H as <-); cbn;
    repeat match goal with |- context [match ?e with _ => _ end] => destruct e end; try reflexivity; try exact I.
  - apply bind_inv in H as (i & _ & H). injection H as <-. exact I.
  - auto.
Qed.
Lemma refine_unmarked modules col ks : forall t u, refine_all modules col t ks = Ok u -> unmarked t -> unmarked u.
Proof.
  induction ks as [|k ks IH]; intros t u H U; cbn in H; [now injection H as <-|]. apply bind_inv in H as (v & H1 & H2). apply (IH _ _ H2).
  unfold refine in H1. destruct k as [? ?|n cols q keys|n cols refs|? ?]; try (injection H1 as <-; exact U).
  - destruct (existsb _ _); [|injection H1 as <-; exact U]. apply bind_inv in H1 as (s & _ & H1). injection H1 as <-. exact I.
  - destruct (existsb _ _); [|injection H1 as <-; exact U]. apply bind_inv in H1 as (l & _ & H1). destruct l; [discriminate|]. injection H1 as <-. exact I.
Qed.
Lemma column_unmarked modules tbl col f : column_to_field modules tbl col = Ok f -> unmarked (gf_type f).
Proof.
  intros H. unfold column_to_field in H. apply bind_inv in H as (t & T & H). cbn [id_equals_tuple] in H. apply bind_inv in H as (u & U & H). injection H as <-. cbn [gf_type].
  apply (refine_unmarked _ _ _ _ _ U). destruct (c_nullable col); [exact I|]. now apply to_python_unmarked in T.
Qed.
Lemma union_unmarked l : is_primary_key_type (mk_union (map YCls l)) = false.
Proof. destruct l as [|x [|y l]]; reflexivity. Qed.
Lemma resolve_unmarked resolve t u : resolve_type resolve t = Some u -> unmarked t -> is_primary_key_type u = false.
Proof.
  destruct t as [p|s|t|t|l]; cbn; intros H U.
  - injection H as <-. exact U.
  - destruct (resolve s); [|discriminate]. now injection H as <-.
  - destruct (resolve_type resolve t) as [v|] eqn:E in H; [|discriminate]. injection H as <-. destruct v; try reflexivity. unfold mk_optional. now destruct (existsb is_none l).
  - destruct (resolve_type resolve t) eqn:E in H; [|discriminate]. now injection H as <-.
  - destruct ((fix all (l : list string) := _) l) as [cs|]; [|discriminate]. injection H as <-. apply union_unmarked.
Qed.

(** The primary key is lost: the class of a table, whatever its columns and keys, has no primary key field, and is refused as
    the class of a table by every engine (it is taken for a composite value). *)
Theorem C38_primary_key_refuted modules ident tbl gc resolve fs env o fuel :
  table_to_dataclass modules ident tbl = Ok gc -> resolve_fields resolve (gc_fields gc) = Some fs ->
  is_entity_cls (with_class env gc fs) (gc_module gc, gc_name gc) = false /\
  forall t, dataclass_to_table (with_class env gc fs) o fuel (gc_module gc, gc_name gc) <> Ok t.
Proof.
  intros H R. unfold table_to_dataclass in H. apply bind_inv in H as (gs & F & H). cbv zeta in H. apply bind_inv in H as (m & M & H).
  destruct (_ && _) eqn:B in H; [|discriminate]. injection H as <-. cbn [gc_fields gc_module gc_name] in *. set (c := (m, safe_id (local_id (t_name tbl)))).
  assert (ALL : forall x, In x fs -> is_primary_key_type (f_type x) = false).
  { intros x X. destruct (resolved_source _ _ _ _ R X) as (f & If & T). apply (resolve_unmarked _ _ _ T).
    assert (Ig : In f gs) by (apply in_app_or in If as [If|If]; apply filter_In in If; apply If).
    apply map_res_all2 in F. clear - F Ig. induction F as [|k g cs gs H F IH]; [destruct Ig|]. destruct Ig as [-> | Ig]; [eapply column_unmarked; eauto|auto]. }
  assert (CE : cid_eqb c c = true) by (unfold cid_eqb; now rewrite !String.eqb_refl).
  assert (E : with_class env (GClass m (safe_id (local_id (t_name tbl))) (filter (fun f => negb (is_some (gf_default f))) gs ++ filter (fun f => is_some (gf_default f)) gs) (t_desc tbl)) fs c
              = KData fs false (t_desc tbl) []) by (unfold with_class; cbn [gc_module gc_name gc_doc]; fold c; now rewrite CE).
  revert E. generalize (with_class env (GClass m (safe_id (local_id (t_name tbl))) (filter (fun f => negb (is_some (gf_default f))) gs ++ filter (fun f => is_some (gf_default f)) gs) (t_desc tbl)) fs).
  intros e E. split.
  - unfold is_entity_cls, has_key, fields_of. rewrite E. clear - ALL. induction fs as [|x l IH]; [reflexivity|]. cbn. rewrite (ALL x (or_introl eq_refl)). cbn. apply IH. intros y Y. apply ALL. now right.
  - intros t T. unfold dataclass_to_table in T. rewrite E in T. apply bind_inv in T as (cols & _ & T). apply bind_inv in T as (ks & _ & T). apply bind_inv in T as (q & _ & T).
    apply bind_inv in T as (k & K & _). unfold key_name_of, fields_of in K. rewrite E in K. destruct (find _ fs) as [x|] eqn:X; [|discriminate].
    apply find_some in X as [X1 X2]. rewrite (ALL x X1) in X2. discriminate.
Qed.
Print Assumptions C38_primary_key_refuted.

Lemma union_not_null l : p_nullable (field_properties (mk_union (map YCls l))) = false.
Proof.
  assert (X : existsb is_none (map YCls l) = false) by (induction l; auto).
  assert (Y : existsb is_default_tag (map YCls l) = false) by (clear; induction l; auto).
  destruct l as [|x [|y l]]; try reflexivity. cbn [map mk_union]. unfold field_properties. cbn [p_nullable]. cbv zeta.
  assert (D : drop_default (unwrap (YUnion (YCls x :: YCls y :: map YCls l))) = YUnion (map YCls (x :: y :: l))).
  { unfold drop_default. change (union_members (unwrap (YUnion (YCls x :: YCls y :: map YCls l)))) with (map YCls (x :: y :: l)). rewrite Y. now rewrite andb_false_r. }
  rewrite D. exact X.
Qed.
(** A nullable column that refers to another table comes back as a required one. *)
Theorem C38_nullable_reference_refuted modules ident tbl gc resolve fs col k qs :
  table_to_dataclass modules ident tbl = Ok gc -> resolve_fields resolve (gc_fields gc) = Some fs ->
  In col (t_columns tbl) -> In k (t_constraints tbl) -> refers_from (c_name col) k qs ->
  exists f, In f fs /\ f_name f = safe_id (c_name col) /\ forall env o fuel params c, member_column env o fuel params f = Ok c -> c_nullable c = false.
Proof.
  intros H R IC IK RF. destruct (field_of_column _ _ _ _ _ H IC) as (f & If & P). destruct (resolved_field _ _ _ _ R If) as (t & T & It). eexists. split; [exact It|]. cbn [f_name]. split.
  { destruct (ff_name _ _ _ P) as [E | [E1 E2]]; [|rewrite E2; apply in_names in E1; unfold safe_id, is_keyword; now rewrite E1].
    rewrite E. unfold safe_id. destruct (is_keyword (c_name col)) eqn:KW; [|reflexivity].
    exfalso. clear - H If E KW. unfold table_to_dataclass in H. apply bind_inv in H as (gs & F & H). cbv zeta in H. apply bind_inv in H as (m & M & H).
    destruct (_ && _) eqn:B in H; [|discriminate]. injection H as <-. cbn [gc_fields] in If. apply andb_prop in B as [B _]. rewrite forallb_forall in B. apply B in If.
    rewrite E, KW in If. apply andb_prop in If as [_ If]. discriminate. }
  intros env o fuel params c M. unfold member_column in M. cbv zeta in M. cbn [f_type f_name f_default] in M. apply bind_inv in M as (s & _ & M). apply bind_inv in M as (d & _ & M). injection M as <-. cbn [c_nullable].
  destruct (ff_reference _ _ _ P k qs IK RF) as [(n & E) | (l & E)]; rewrite E in T; cbn in T.
  - destruct (resolve n); [|discriminate]. now injection T as <-.
  - destruct ((fix all (l : list string) := _) l) as [cs|]; [|discriminate]. injection T as <-. apply union_not_null.
Qed.
Print Assumptions C38_nullable_reference_refuted.

(** ** Types, defaults and names that do not come back *)
Lemma irreversible_sound d g env t : irreversible t -> (forall m, g_skip g m = false) ->
  forall T, to_python t = Ok T -> exists U, T = GPy U /\
    forall nl n s, member_sql env (dialect_options d g) (S n) (field_type (field_properties (if nl : bool then mk_optional U else U))) = Ok s -> s <> t.
Proof.
  intros IR SK.
  Ltac none_left := repeat match goal with H : irreversible _ |- _ => inversion H; clear H; subst end.
  assert (S1 : forall B ms, simple_base B = true -> Forall (fun m => is_constraint m = false) ms ->
    (forall n s, member_sql env (dialect_options d g) (S n) (annotated B ms) = Ok s -> ~ irreversible s) ->
    forall nl n s, member_sql env (dialect_options d g) (S n) (field_type (field_properties (if nl : bool then mk_optional (annotated B ms) else annotated B ms))) = Ok s -> ~ irreversible s).
  { intros B ms SB M X nl n s H. rewrite (optional_plain _ _ SB) in H. destruct (optional_field _ B ms eq_refl SB M nl) as (O1 & _ & _). rewrite O1 in H. exact (X _ _ H). }
  assert (X : forall T, to_python t = Ok T -> exists U, T = GPy U /\
    forall nl n s, member_sql env (dialect_options d g) (S n) (field_type (field_properties (if nl : bool then mk_optional U else U))) = Ok s -> ~ irreversible s).
  { induction IR as [p s|p|p|k| | |c t IR IH]; intros T H; cbn in H; try (injection H as <-); try (eexists; split; [reflexivity|]).
    - apply (S1 YDecimal []); auto. intros n x M IX. destruct d; cbn in M; injection M as <-; none_left.
    - destruct p as [p|]; [apply (S1 YDatetime [MTimePrecision p])|apply (S1 YDatetime [])]; auto; intros n x M IX; destruct d;
        cbn [annotated] in M; cbn [member_sql] in M; unfold simple_sql, value_sql, fixed_sql, same_object, subst, annotated_base in M; cbn in M; rewrite ?SK in M; cbn in M; injection M as <-; none_left.
    - destruct p as [p|]; [apply (S1 YTime [MTimePrecision p])|apply (S1 YTime [])]; auto; intros n x M IX; destruct d;
        cbn [annotated] in M; cbn [member_sql] in M; unfold simple_sql, value_sql, fixed_sql, same_object, subst, annotated_base in M; cbn in M; rewrite ?SK in M; cbn in M; injection M as <-; none_left.
    - apply (S1 YStr [MLength k]); auto; intros n x M IX; destruct d;
        cbn [annotated] in M; cbn [member_sql] in M; unfold simple_sql, value_sql, fixed_sql, same_object, subst, annotated_base in M; cbn in M; rewrite ?SK in M; cbn in M; discriminate.
    - intros nl n s M _. assert (E : (if nl then mk_optional py_json else py_json) = py_json) by now destruct nl. rewrite E in M. clear - M.
      change (field_type (field_properties py_json)) with (YUnion [YBool; YInt; YFloat; YStr; YDict; YList YJson]) in M.
      destruct n as [|n]; destruct d; cbn in M; try discriminate.
    - apply (S1 YFloat []); auto; intros n x M IX; destruct d; cbn in M; injection M as <-; none_left.
    - exact (IH T H). }
  intros T H. destruct (X T H) as (U & E & Q). exists U. split; [exact E|]. intros nl n s Y ->. exact (Q nl n t Y IR).
Qed.
Lemma generated_name modules ident tbl gc col f : table_to_dataclass modules ident tbl = Ok gc -> In f (gc_fields gc) -> field_for tbl col f -> gf_name f = safe_id (c_name col).
Proof.
  intros H If P. destruct (ff_name _ _ _ P) as [E | [E1 E2]]; [|rewrite E2; apply in_names in E1; unfold safe_id, is_keyword; now rewrite E1].
  rewrite E. unfold safe_id. destruct (is_keyword (c_name col)) eqn:KW; [|reflexivity].
  exfalso. clear - H If E KW. unfold table_to_dataclass in H. apply bind_inv in H as (gs & F & H). cbv zeta in H. apply bind_inv in H as (m & M & H).
  destruct (_ && _) eqn:B in H; [|discriminate]. injection H as <-. cbn [gc_fields] in If. apply andb_prop in B as [B _]. rewrite forallb_forall in B. apply B in If.
  rewrite E, KW in If. apply andb_prop in If as [_ If]. discriminate.
Qed.
(** JSON, numbers with a precision, moments with a time zone, texts of fixed length and floating-point numbers without a precision
    do not come back, on any engine: the column has another type or is refused. *)
Theorem C38_type_refuted d g env modules ident tbl gc resolve fs col :
  (forall m, g_skip g m = false) -> table_to_dataclass modules ident tbl = Ok gc -> resolve_fields resolve (gc_fields gc) = Some fs ->
  In col (t_columns tbl) -> (forall k qs, In k (t_constraints tbl) -> ~ refers_from (c_name col) k qs) -> irreversible (c_type col) ->
  exists f, In f fs /\ f_name f = safe_id (c_name col) /\
    forall n params c, member_column env (dialect_options d g) (S n) params f = Ok c -> c_type c <> c_type col.
Proof.
  intros SK H R IC NR IR. destruct (field_of_column _ _ _ _ _ H IC) as (f & If & P). destruct (resolved_field _ _ _ _ R If) as (t & T & It). eexists. split; [exact It|]. cbn [f_name].
  split; [eapply generated_name; eauto|]. intros n params c M.
  destruct (ff_plain _ _ _ P NR) as (u & U & TY). destruct (irreversible_sound d g env _ IR SK u U) as (W & -> & Q).
  rewrite TY in T. assert (TT : t = (if c_nullable col then mk_optional W else W)) by (destruct (c_nullable col); cbn in T; congruence). subst t.
  unfold member_column in M. cbv zeta in M. cbn [f_type f_name f_default] in M. apply bind_inv in M as (s & S1 & M). apply bind_inv in M as (df & _ & M). injection M as <-. cbn [c_type].
  exact (Q _ _ _ S1).
Qed.
Print Assumptions C38_type_refuted.

(** No default comes back: the text of the default is taken for a string and quoted again. *)
Theorem C38_default_refuted env o modules ident tbl gc resolve fs col s :
  table_to_dataclass modules ident tbl = Ok gc -> resolve_fields resolve (gc_fields gc) = Some fs ->
  In col (t_columns tbl) -> c_default col = Some s ->
  exists f, In f fs /\ f_name f = safe_id (c_name col) /\
    forall n params c, member_column env o n params f = Ok c -> c_default c = Some (quote s) /\ c_default c <> c_default col.
Proof.
  intros H R IC D. destruct (field_of_column _ _ _ _ _ H IC) as (f & If & P). destruct (resolved_field _ _ _ _ R If) as (t & T & It). eexists. split; [exact It|]. cbn [f_name].
  split; [eapply generated_name; eauto|]. intros n params c M. unfold member_column in M. cbv zeta in M. cbn [f_type f_name f_default] in M. unfold default_of in M.
  rewrite (ff_default _ _ _ P), D in M. apply bind_inv in M as (x & _ & M). apply bind_inv in M as (df & DF & M). injection M as <-. cbn [c_default].
  cbn in DF. injection DF as <-. split; [reflexivity|]. rewrite D. intros [= E]. revert E. unfold quote.
  assert (L : forall a, (String.length a <= String.length (replace1 QT "''" a))%nat).
  { clear. induction a as [|b a IH]; [auto|]. unfold replace1 in *. cbn [translate String.length]. destruct (Ascii.eqb b QT); rewrite append_length; cbn [str1 String.length]; lia. }
  intros E. apply (f_equal String.length) in E. specialize (L s). revert E. cbn [String.append String.length]. rewrite append_length. cbn [String.length]. lia.
Qed.
Print Assumptions C38_default_refuted.

(** A column whose name is a word of Python comes back under another name. *)
Theorem C38_keyword_refuted env o modules ident tbl gc resolve fs col :
  table_to_dataclass modules ident tbl = Ok gc -> resolve_fields resolve (gc_fields gc) = Some fs -> In col (t_columns tbl) -> In (c_name col) keywords ->
  exists f, In f fs /\ forall n params c, member_column env o n params f = Ok c -> c_name c = c_name col ++ "_".
Proof.
  intros H R IC KW. destruct (field_of_column _ _ _ _ _ H IC) as (f & If & P). destruct (resolved_field _ _ _ _ R If) as (t & T & It). eexists. split; [exact It|].
  intros n params c M. unfold member_column in M. cbv zeta in M. cbn [f_type f_name f_default] in M. apply bind_inv in M as (x & _ & M). apply bind_inv in M as (df & DF & M). injection M as <-. cbn [c_name].
  rewrite (generated_name _ _ _ _ _ _ H If P). unfold safe_id, is_keyword. apply in_names in KW. now rewrite KW.
Qed.
Print Assumptions C38_keyword_refuted.

(** ** Example *)
Definition letters_only (s : string) : bool := negb (String.eqb s "").
Definition people : table :=
  Tab (Qualified (Some "public") "people")
    [Col "id" (TInt 8 true None None) false None false None; Col "name" (TVarChar (Some 64%Z)) false None false None;
     Col "born" (TTimestamp (Some 6%Z) false) true None false None; Col "ref" TUuid true None false None]
    ["id"] [CUnique "uq_people_name" ["name"]] (Some "Everybody.") None.
Example C38_people : exists gc, table_to_dataclass [(Some "public", "m")] letters_only people = Ok gc /\ gc_module gc = "m" /\ gc_name gc = "people" /\
  gc_fields gc = [GField "id" (GPy py_int64) None; GField "name" (GPy (YAnn YStr [MMaxLength 64])) None;
                  GField "born" (GOptional (GPy (YAnn YDatetime [MTimePrecision 6]))) None; GField "ref" (GOptional (GPy YUuid)) None] /\
  Forall (fun c => reversible DPostgres (c_type c) /\ is_keyword (c_name c) = false /\ c_default c = None) (t_columns people) /\
  (forall k qs c, In k (t_constraints people) -> In c (t_columns people) -> ~ refers_from (c_name c) k qs).
Proof.
  eexists. split; [reflexivity|]. split; [reflexivity|]. split; [reflexivity|]. split; [reflexivity|]. split.
  - repeat (constructor; [split; [|split; reflexivity]|]); try constructor; try (cbn; tauto); now (right; right).
  - intros k qs c [<-|[]] _ R. inversion R.
Qed.
Definition orders : table :=
  Tab (Qualified (Some "public") "orders")
    [Col "id" (TInt 8 true None None) false None false None; Col "class" (TInt 4 true None None) false (Some "0") false None;
     Col "price" (TDecimal (Some 10%Z) (Some 2%Z)) false None false None; Col "who" (TInt 8 true None None) true None false None]
    ["id"] [CForeign "fk_orders_who" ["who"] (Qualified (Some "public") "people") ["id"]] None None.
Example C38_orders : exists gc fs, table_to_dataclass [(Some "public", "m")] letters_only orders = Ok gc /\
  resolve_fields (fun s => if String.eqb s "m.people" then Some ("m", "people") else None) (gc_fields gc) = Some fs /\
  map f_name fs = ["id"; "price"; "who"; "class_"] /\ map f_type fs = [py_int64; YDecimal; YCls ("m", "people"); py_int32] /\
  irreversible (c_type (nth 2 (t_columns orders) (Col "" TBool false None false None))) /\ In "class" keywords.
Proof. do 2 eexists. repeat split; try reflexivity; [constructor|cbn; tauto]. Qed.
(** a table whose name is a word of Python, and a reference to it *)
Definition lessons : table := Tab (Qualified (Some "public") "lesson") [Col "id" (TInt 8 true None None) false None false None; Col "given" (TInt 8 true None None) false None false None]
  ["id"] [CForeign "fk_lesson_given" ["given"] (Qualified (Some "public") "class") ["id"]] None None.
Example C38_lessons : exists gc, table_to_dataclass [(Some "public", "m")] letters_only lessons = Ok gc /\ map gf_type (gc_fields gc) = [GPy py_int64; GText "m.class_"].
Proof. eexists. split; reflexivity. Qed.
