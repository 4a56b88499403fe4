(** Proofs for C65. *)
From Verif Require Import PyStr QuoteModel ObjectDict ObjectDictProofs Types Objects Ddl Render Dml RowSpec DmlSpec TablePredProofs
  DmlProofs DmlProofs2 DmlProofs3 SqlText TextSpec DmlText DmlTextSpec DmlTextProofs PropsDml PropsDmlText Convert ConvertSpec ConvertProofs ObjData ObjDataSpec.
From Coq Require Import Lia Arith ZArith List.
Import ListNotations.
Open Scope string_scope.
Open Scope list_scope.

Section Values.
Variable V : Type.
Variable env : cid -> classdef.
Notation obj := (obj V). Notation handed := (handed V). Notation instance := (instance V).

(** ** Values *)
Lemma any_in (x : obj) l : (fix any (l : list pytype) : Prop := match l with [] => False | u :: r => of_type env u x \/ any r end) l <-> exists u, In u l /\ of_type env u x.
Proof.
  induction l as [|u r IH]; [split; [intros []|intros (? & [] & _)]|]. rewrite IH. split.
  - intros [H|(v & I & H)]; [exists u|exists v]; cbn; auto.
  - intros (v & [<- | I] & H); [left; exact H|right; eauto].
Qed.
Lemma all_in d l : (fix all (l : list pytype) : bool := match l with [] => true | u :: r => plain_type env d u && all r end) l = true <-> forall u, In u l -> plain_type env d u = true.
Proof.
  induction l as [|u r IH]; [split; [intros _ ? []|reflexivity]|]. rewrite Bool.andb_true_iff, IH. split.
  - intros [A B] v [<- | I]; auto.
  - intros H. split; [apply H; now left|intros v I; apply H; now right].
Qed.
Lemma plain_meant d t : forall x : obj, plain_type env d t = true -> of_type env t x -> meant d x = HObject x.
Proof.
  induction t as [t ms IH|l IH|t IH|t IH|t L] using pytype_ind'; intros x P T; cbn in P, T.
  - now apply IH.
  - apply any_in in T as (u & I & T). rewrite (all_in d) in P. rewrite Forall_forall in IH. exact (IH u I x (P u I) T).
  - destruct T as (v & ->). reflexivity.
  - destruct T as (v & ->). reflexivity.
  - destruct t; cbn in L; try contradiction; cbn in P, T; try (destruct T as (v & ->); reflexivity); try discriminate P;
      try (destruct T as (v & ->); cbn [meant]; now destruct d).
    + now subst x.
    + destruct (is_enum_cls env c); [discriminate P|]. destruct T as (v & ->). reflexivity.

Qed.
Lemma plain_not_ip d t : binary_engine d = true -> plain_type env d t = true -> is_ip t = false.
Proof.
  intros B P. assert (N : existsb (py_eqb YIPv4) (union_members t) = false).
  { destruct (existsb (py_eqb YIPv4) (union_members t)) eqn:E; [|reflexivity]. exfalso.
    apply existsb_exists in E as (u & I & E). apply py_eqb_eq in E. subst u. unfold union_members, unwrap in I. destruct t; try (destruct I).
    - destruct t; try (destruct I). cbn in P. rewrite (all_in d) in P. specialize (P _ I). cbn in P. now rewrite B in P.
    - cbn in P. rewrite (all_in d) in P. specialize (P _ I). cbn in P. now rewrite B in P. }
  destruct t; try reflexivity; try (cbn in P; rewrite B in P; discriminate P); unfold is_ip; rewrite N, Bool.andb_false_r; reflexivity.
Qed.
Lemma plain_not_enum d t : plain_type env d t = true -> is_type_enum env t = false.
Proof.
  unfold is_type_enum, unwrap. destruct t; try reflexivity; cbn.
  - destruct (is_enum_cls env c); [discriminate|reflexivity].
  - destruct t; try reflexivity. cbn. destruct (is_enum_cls env c); [discriminate|reflexivity].
Qed.
Lemma enum_object t (x : obj) : is_type_enum env t = true -> of_type env t x -> exists c e, x = OMember c e.
Proof.
  unfold is_type_enum, unwrap. destruct t; try discriminate; cbn.
  - intros ->. intros (e & ->). eauto.
  - destruct t; try discriminate; cbn. intros ->. intros (e & ->). eauto.
Qed.
Lemma enum_not_special t : is_type_enum env t = true -> py_eqb t YUuid = false /\ is_ip t = false /\ py_eqb t YTime = false.
Proof.
  unfold is_type_enum, unwrap. destruct t; try discriminate; try (repeat split; reflexivity).
  destruct t; try discriminate; repeat split; reflexivity.
Qed.
Lemma address_object l (x : obj) : (l = [YIPv4; YIPv6] \/ l = [YIPv6; YIPv4]) -> of_type env (YUnion l) x -> exists b, x = OAddress b.
Proof. intros [-> | ->]; cbn; intros [(b & ->)|[(b & ->)|[]]]; eauto. Qed.

Lemma extract_direct d t (x : obj) : direct env d t -> of_type env t x -> extract env d t x = Ok (meant d x).
Proof.
  intros [P|[E|S]] T.
  - rewrite (plain_meant d t x P T). assert (B : base_extract env t x = Ok (HObject x)) by (unfold base_extract; now rewrite (plain_not_enum d t P)).
    assert (U : binary_engine d = true -> py_eqb t YUuid = false) by (intros BE; destruct t; try reflexivity; cbn in P; now rewrite BE in P).
    assert (I : binary_engine d = true -> is_ip t = false) by (intros BE; now apply (plain_not_ip d)).
    destruct d; cbn [extract]; try exact B; rewrite (U eq_refl), (I eq_refl); try exact B.
    replace (py_eqb t YTime) with false; [exact B|]. destruct t; try reflexivity. discriminate P.
  - destruct (enum_object t x E T) as (c & e & ->). destruct (enum_not_special t E) as (U & I & M).
    assert (B : base_extract env t (OMember c e : obj) = Ok (HLabel e)) by (unfold base_extract; now rewrite E).
    destruct d; cbn [extract meant]; rewrite ?U, ?I, ?M; exact B.
  - destruct S as [-> |[-> |[-> |[-> |[-> | ->]]]]].
    1-3: destruct T as (b & ->); destruct d; reflexivity.
    1-2: apply address_object in T; [|tauto]; destruct T as (b & ->); destruct d; reflexivity.
    destruct T as (b & ->); destruct d; reflexivity.
Qed.

(** ** Alignment *)
(** the table's columns are the fields, in order; the generated ones are those annotated as identity *)
Definition field_column (f : dfield) (k : column) : Prop := c_name k = f_name f /\ (c_identity k = true <-> tagged MIdentity (f_type f)).
Definition outer_identity (t : pytype) : Prop := (exists u ms, t = YAnn u ms /\ In MIdentity ms) \/ ~ tagged MIdentity t.

Lemma extracted t c fs0 (skip : bool) : NoDup (map c_name (t_columns t)) -> fields_of env c = fs0 -> Forall2 field_column fs0 (t_columns t) ->
  exists fs, extracted_fields env t c skip = Ok fs /\ map f_name fs = map c_name (filter (fun k => negb (skip && c_identity k)) (t_columns t)) /\
    (forall f, In f fs <-> In f fs0 /\ exists k, In k (t_columns t) /\ c_name k = f_name f /\ (skip && c_identity k = false)%bool).
Proof.
  intros N E F. unfold extracted_fields. rewrite E. clear E.
  assert (G : forall fs ks, Forall2 field_column fs ks -> (forall k, In k ks -> In k (t_columns t)) ->
    exists fs', filter_res (fun f => match od_get c_name (f_name f) (t_columns t) with Some k => Ok (negb (skip && c_identity k)) | None => Err "KeyError" end) fs = Ok fs' /\
      map f_name fs' = map c_name (filter (fun k => negb (skip && c_identity k)) ks) /\
      (forall f, In f fs' <-> In f fs /\ exists k, In k (t_columns t) /\ c_name k = f_name f /\ (skip && c_identity k = false)%bool)).
  { clear F. intros fs ks F. induction F as [|f k fs ks [Nm Id] F IH]; intros M; [exists []; split; [reflexivity|split; [reflexivity|]]; intros f; split; [intros []|intros ([] & _)]|].
    destruct (IH (fun k I => M k (or_intror I))) as (fs' & R & Em & Mem). cbn [filter_res filter].
    assert (Gk : od_get c_name (f_name f) (t_columns t) = Some k) by (rewrite <- Nm; apply get_in; [exact N|apply M; now left]).
    rewrite Gk. cbn [bind]. rewrite R. cbn [bind].
    assert (U : forall k', In k' (t_columns t) -> c_name k' = f_name f -> k' = k).
    { intros k' I' E'. pose proof (get_in c_name (t_columns t) k' N I') as X. rewrite E', Gk in X. now injection X. }
    destruct (skip && c_identity k)%bool eqn:S; cbn [negb].
    - exists fs'. split; [reflexivity|split; [exact Em|]]. intros g; split.
      + intros H. apply Mem in H as [H1 H2]. split; [now right|exact H2].
      + intros [[<- | I] (k' & I' & E' & S')]; [apply U in E'; [|exact I']; subst k'; congruence|]. apply Mem. split; [exact I|exists k'; auto].
    - exists (f :: fs'). split; [reflexivity|]. split; [cbn [map]; now rewrite Em, Nm|]. intros g. split.
      + intros [<- | I]; [split; [now left|exists k; repeat split; auto; apply M; now left]|]. apply Mem in I as [I1 I2]. split; [now right|exact I2].
      + intros [[<- | I] H]; [now left|right; apply Mem; auto]. }
  exact (G fs0 (t_columns t) F (fun k I => I)).
Qed.

Lemma row_of_in_order (cols : list string) (r : list handed) : length r = length cols -> row_of cols (seq 1 (length cols)) r = Some (combine cols r).
Proof.
  intros L. unfold row_of. rewrite seq_length, L, Nat.eqb_refl. cbn [andb].
  assert (M : map (fun p => match p with O => None | S n => nth_error r n end) (seq 1 (length cols)) = map Some r).
  { rewrite <- L. clear L. rewrite <- seq_shift, map_map. induction r as [|v r IH]; [reflexivity|]. cbn [length seq map nth_error]. f_equal. rewrite <- seq_shift, map_map. exact IH. }
  rewrite M. replace (forallb _ (map Some r)) with true by (symmetry; apply forallb_forall; intros v I; apply in_map_iff in I as (u & <- & _); reflexivity).
  f_equal. clear M. revert r L. induction cols as [|c cols IH]; intros [|v r] L; try discriminate L; [reflexivity|]. cbn. f_equal. apply IH. now injection L.
Qed.
Lemma rows_of_in_order (cols : list string) (rs : list (list handed)) : Forall (fun r => length r = length cols) rs ->
  rows_of cols (seq 1 (length cols)) rs = Some (map (combine cols) rs).
Proof. induction 1 as [|r rs L F IH]; [reflexivity|]. cbn [rows_of map]. now rewrite (row_of_in_order cols r L), IH. Qed.

(** what is stored for an object: each field of the list, as it is meant *)
Definition stored (d : dialect) (fs : list dfield) (x : instance) (row : list (string * handed)) : Prop :=
  row = map (fun f => (f_name f, meant d (x (f_name f)))) fs.
Lemma records_direct d fs (xs : list instance) : (forall x f, In x xs -> In f fs -> direct env d (f_type f) /\ of_type env (f_type f) (x (f_name f))) ->
  exists rs, map_res (record_of env d fs) xs = Ok rs /\ Forall (fun r => length r = length (map f_name fs)) rs /\
    Forall2 (stored d fs) xs (map (combine (map f_name fs)) rs).
Proof.
  intros H. induction xs as [|x xs IH]; [exists []; repeat split; constructor|].
  destruct IH as (rs & R & L & S); [intros y f I; apply H; now right|].
  assert (X : record_of env d fs x = Ok (map (fun f => meant d (x (f_name f))) fs)).
  { unfold record_of. assert (Hx : forall f, In f fs -> direct env d (f_type f) /\ of_type env (f_type f) (x (f_name f))) by (intros f I; apply H; [now left|exact I]).
    clear - Hx. induction fs as [|f fs IH]; [reflexivity|]. cbn [map_res map]. destruct (Hx f (or_introl eq_refl)) as [D T].
    rewrite (extract_direct d _ _ D T). cbn [bind]. rewrite IH; [reflexivity|]. intros g I. apply Hx. now right. }
  cbn [map_res]. rewrite X. cbn [bind]. rewrite R. eexists. split; [reflexivity|]. split; [constructor; [now rewrite !map_length|exact L]|].
  cbn [map]. constructor; [|exact S]. unfold stored. clear. induction fs as [|f fs IH]; [reflexivity|]. cbn. now rewrite <- IH.
Qed.

(** the row as a set of assignments *)
Lemma stored_pairs d fs fs0 t (skip : bool) x row : (forall f, In f fs <-> In f fs0 /\ exists k, In k (t_columns t) /\ c_name k = f_name f /\ (skip && c_identity k = false)%bool) ->
  NoDup (map f_name fs) -> NoDup (map c_name (t_columns t)) -> Forall2 field_column fs0 (t_columns t) -> stored d fs x row ->
  NoDup (map fst row) /\ forall n v, In (n, v) row <-> exists f, In f fs0 /\ f_name f = n /\ (skip = true -> ~ tagged MIdentity (f_type f)) /\ v = meant d (x n).
Proof.
  intros M N NT F St. unfold stored in St. subst row. split; [rewrite map_map; exact N|]. intros n v. rewrite in_map_iff.
  assert (K : forall f, In f fs0 -> exists k, In k (t_columns t) /\ field_column f k).
  { clear - F. induction F as [|f k fs ks H F IH]; intros g; [intros []|]. intros [<- | I]; [exists k; split; [now left|exact H]|]. destruct (IH g I) as (k' & I' & H'). exists k'. split; [now right|exact H']. }
  assert (K2 : forall f k, In f fs0 -> In k (t_columns t) -> c_name k = f_name f -> field_column f k).
  { intros f k If Ik En. destruct (K f If) as (k' & Ik' & Fc). replace k with k'; [exact Fc|].
    pose proof (get_in c_name _ _ NT Ik) as X. pose proof (get_in c_name _ _ NT Ik') as Y. destruct Fc as [Fn _]. rewrite Fn in Y. rewrite En in X. congruence. }
  split.
  - intros (f & E & I). injection E as <- <-. apply M in I as (I & k & Ik & En & S). exists f. repeat split; auto.
    intros -> T. apply (K2 f k I Ik En) in T. rewrite T in S. discriminate S.
  - intros (f & I & <- & S & ->). exists f. split; [reflexivity|]. apply M. split; [exact I|]. destruct (K f I) as (k & Ik & Fc). exists k. split; [exact Ik|]. split; [apply Fc|].
    destruct skip; [|reflexivity]. cbn. destruct (c_identity k) eqn:Ek; [|reflexivity]. exfalso. apply (S eq_refl). now apply Fc.
Qed.
End Values.
