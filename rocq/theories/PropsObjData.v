(** C65: objects are stored field by field in the columns of their names. *)
From Verif Require Import PyStr QuoteModel ObjectDict ObjectDictProofs Types Objects Ddl Render Dml RowSpec DmlSpec TablePredProofs
  DmlProofs DmlProofs2 DmlProofs3 SqlText TextSpec DmlText DmlTextSpec DmlTextProofs PropsDml PropsDmlText Convert ConvertSpec ConvertProofs
  PropsConvert ObjData ObjDataSpec ObjDataProofs TextProofs1.
From Verif Require ConvertDialects.
From Coq Require Import Lia Arith ZArith List.
Import ListNotations.
Open Scope string_scope.
Open Scope list_scope.

(** the user asks for every collection in a table of its own *)
Definition relations (o : copts) : bool := match o_array o with AmRelation => true | _ => false end.

Lemma ddialect_dec (a b : Ddl.dialect) : {a = b} + {a <> b}.
Proof. decide equality. Qed.

Section Values.
Variable V : Type.
Variable env : cid -> classdef.

(** No field is a collection that gets a table of its own (it has no column), and the identity annotation is outermost, as [Identity[T]] makes it. *)
Definition all_columns (o : copts) (fs : list dfield) : Prop :=
  forall f, In f fs -> ~ joined env (relations o) (f_type f) /\ outer_identity (f_type f).
(** Objects whose fields have values of the declared types *)
Definition objects (d : dialect) (fs : list dfield) (xs : list (instance V)) : Prop :=
  forall x f, In x xs -> In f fs -> direct env d (f_type f) /\ of_type env (f_type f) (x (f_name f)).

Lemma converted_columns o fuel c fs a doc ps t : sane_options o -> env c = KData fs a doc ps -> NoDup (map f_name fs) -> Forall (fun f => py_wf (f_type f)) fs ->
  all_columns o fs -> dataclass_to_table env o fuel c = Ok t ->
  Forall2 field_column fs (t_columns t) /\ NoDup (map c_name (t_columns t)) /\ fields_of env c = fs /\ exists k, t_pk t = [k] /\ In k (map c_name (t_columns t)).
Proof.
  intros S E N W A H. destruct (C34_fields_become_columns env o fuel c fs a doc ps t S E N W H) as (M & (k & Pk & (l & f & r & El & _ & Ef & _)) & _).
  assert (F : Forall2 field_column fs (t_columns t)).
  { fold (relations o) in M. clear - A M. induction M as [|f fs cs J M IH|f k fs cs J Mt M IH].
    - constructor.
    - exfalso. now apply (A f (or_introl eq_refl)).
    - constructor; [|apply IH; intros g I; apply A; now right]. destruct Mt as (_ & Nm & _ & _ & I1 & I2). split; [exact Nm|].
      destruct (proj2 (A f (or_introl eq_refl))) as [(u & ms & Et & Im)|NT].
      + rewrite (I1 u ms Et Im). split; [intros _; rewrite Et; now constructor|reflexivity].
      + rewrite (I2 NT). split; [discriminate|intros T; now destruct NT]. }
  assert (Nm : map c_name (t_columns t) = map f_name fs).
  { clear - F. induction F as [|f c fs cs [H _] F IH]; [reflexivity|]. cbn. now rewrite H, IH. }
  split; [exact F|]. split; [now rewrite Nm|]. split; [unfold fields_of; now rewrite E|]. exists k. split; [exact Pk|]. rewrite Nm, El, map_app. apply in_or_app. right. left. exact Ef.
Qed.

(** [insert_data]: for every object there is one new row in the table of the class, in the order of the objects; it gives every column, except those that
    the database generates, the value of the field of the same name, and nothing else. *)
Theorem C65_insert : forall o fuel c fs a doc ps t d xs,
  sane_options o -> env c = KData fs a doc ps -> NoDup (map f_name fs) -> Forall (fun f => py_wf (f_type f)) fs -> all_columns o fs ->
  dataclass_to_table env o fuel c = Ok t -> name_ok (t_name t) -> (exists f, In f fs /\ ~ tagged MIdentity (f_type f)) ->
  objects d fs xs -> xs <> [] ->
  exists k rows, insert_data env d t c xs = Ok k /\ inserted d k = Some (table_of t, rows) /\
    Forall2 (fun x row => NoDup (map fst row) /\ forall n v, In (n, v) row <->
      exists f, In f fs /\ f_name f = n /\ ~ tagged MIdentity (f_type f) /\ v = meant d (x n)) xs rows.
Proof.
  intros o fuel c fs a doc ps t d xs S E N W A H Q (g & Ig & Tg) O NE.
  destruct (converted_columns o fuel c fs a doc ps t S E N W A H) as (F & NT & Ef & _).
  destruct (extracted env t c fs true NT Ef F) as (fs' & R & Em & Mem).
  assert (O' : forall x f, In x xs -> In f fs' -> direct env d (f_type f) /\ of_type env (f_type f) (x (f_name f))) by (intros x f Ix If; apply O; [exact Ix|apply Mem; exact If]).
  destruct (records_direct V env d fs' xs O') as (rs & Rr & L & St).
  assert (RO : records_of env d t c true xs = Ok rs) by (unfold records_of; rewrite R; exact Rr).
  assert (N' : NoDup (map f_name fs')) by (rewrite Em; clear - NT; induction (t_columns t) as [|k l IH]; [constructor|]; cbn in *; inversion NT; subst; destruct (negb (c_identity k)); cbn; [constructor; [|now apply IH]|now apply IH];
    intros X; match goal with Z : ~ In _ _ |- _ => apply Z end; apply in_map_iff in X as (y & <- & Iy); apply filter_In in Iy as [Iy _]; now apply in_map).
  assert (FIN : Forall2 (fun x row => NoDup (map fst row) /\ forall n v, In (n, v) row <-> exists f, In f fs /\ f_name f = n /\ ~ tagged MIdentity (f_type f) /\ v = meant d (x n))
    xs (map (combine (map f_name fs')) rs)).
  { clear - St Mem N' NT F. induction St as [|x row xs rows H St IH]; constructor; [|exact IH].
    destruct (stored_pairs V d fs' fs t true x row Mem N' NT F H) as [D P]. split; [exact D|]. intros n v. rewrite P. split; intros (f & I & B & G & Z); exists f; (split; [exact I|split; [exact B|split; [auto|exact Z]]]). }
  pose (cols := map f_name fs'). assert (EC : cols = map c_name (filter (fun k => negb (c_identity k)) (t_columns t))) by exact Em.
  assert (PL : exists n, plain (t_columns t) n).
  { exists (f_name g). clear - Ig Tg F. induction F as [|f k fs ks [Nm Id] F IH]; [destruct Ig|]. destruct Ig as [<- | Ig].
    - exists k. split; [now left|]. split; [exact Nm|]. destruct (c_identity k); [|reflexivity]. exfalso. now apply Tg, Id.
    - destruct (IH Ig) as (k' & I' & H'). exists k'. split; [now right|exact H']. }
  destruct (ddialect_dec d DPg) as [-> | ND].
  - eexists. exists (map (combine cols) rs). split; [unfold insert_data; rewrite RO; reflexivity|]. split; [|exact FIN].
    cbn [inserted]. assert (EP : map f_name (filter (fun f => negb (is_identity_type (f_type f))) (fields_of env c)) = cols).
    { unfold cols. rewrite Em, Ef. assert (A' : forall f, In f fs -> outer_identity (f_type f)) by (intros f I; apply A; exact I).
      clear - F A'. induction F as [|f k fs ks [Nm Id] F IH]; [reflexivity|]. cbn [filter map].
      assert (X : is_identity_type (f_type f) = c_identity k).
      { unfold is_identity_type. destruct (A' f (or_introl eq_refl)) as [(u & ms & Et & Im)|NT'].
        - replace (c_identity k) with true by (symmetry; apply Id; rewrite Et; now constructor). rewrite Et. cbn. apply existsb_exists. exists MIdentity. split; [exact Im|now apply meta_eqb_eq].
        - replace (c_identity k) with false by (destruct (c_identity k); [exfalso; now apply NT', Id|reflexivity]).
          destruct (existsb (meta_eqb MIdentity) (metadata (f_type f))) eqn:X; [|reflexivity]. exfalso. apply NT'. apply existsb_exists in X as (m & Im & X). apply meta_eqb_eq in X. subst m. revert Im. destruct (f_type f); cbn; try (intros []). intros Im. now constructor. }
      rewrite X. cbn [andb]. destruct (negb (c_identity k)); cbn [map]; [rewrite <- Nm; f_equal|]; apply IH; intros f' I'; apply A'; now right. }
    rewrite EP. rewrite (rows_of_in_order V cols rs) by exact L. reflexivity.
  - assert (IS : exists s, insert_stmt t None = Ok s) by (eexists; reflexivity). destruct IS as (s & IS).
    pose proof (C56_insert d t None (t_columns t) s Q eq_refl PL IS) as RD. cbn zeta in RD. rewrite <- EC in RD.
    exists (CExecute (render_dml d s) rs), (map (combine cols) rs). split; [|split; [|exact FIN]].
    + unfold insert_data. destruct xs as [|x xs]; [congruence|]. rewrite IS. cbn [bind]. rewrite RO. cbn [bind]. destruct d; try congruence; reflexivity.
    + cbn [inserted]. rewrite RD. rewrite (rows_of_in_order V cols rs) by exact L. reflexivity.
Qed.

(** [upsert_data]: the same with every column, also those that the database generates *)
Theorem C65_upsert : forall o fuel c fs a doc ps t d xs k,
  sane_options o -> env c = KData fs a doc ps -> NoDup (map f_name fs) -> Forall (fun f => py_wf (f_type f)) fs -> all_columns o fs ->
  dataclass_to_table env o fuel c = Ok t -> name_ok (t_name t) -> (exists f, In f fs /\ ~ tagged MIdentity (f_type f)) ->
  objects d fs xs -> xs <> [] -> upsert_data env d t c xs = Ok k ->
  exists rows, upserted d k = Some (table_of t, rows) /\
    Forall2 (fun x row => NoDup (map fst row) /\ forall n v, In (n, v) row <-> exists f, In f fs /\ f_name f = n /\ v = meant d (x n)) xs rows.
Proof.
  intros o fuel c fs a doc ps t d xs k S E N W A H Q (g & Ig & Tg) O NE K.
  destruct (converted_columns o fuel c fs a doc ps t S E N W A H) as (F & NT & Ef & (key & Pk & Ik)).
  destruct (extracted env t c fs false NT Ef F) as (fs' & R & Em & Mem).
  assert (O' : forall x f, In x xs -> In f fs' -> direct env d (f_type f) /\ of_type env (f_type f) (x (f_name f))) by (intros x f Ix If; apply O; [exact Ix|apply Mem; exact If]).
  destruct (records_direct V env d fs' xs O') as (rs & Rr & L & St).
  assert (RO : records_of env d t c false xs = Ok rs) by (unfold records_of; rewrite R; exact Rr).
  assert (EA : filter (fun k => negb (false && c_identity k)) (t_columns t) = t_columns t) by (apply filter_true; reflexivity). rewrite EA in Em.
  assert (N' : NoDup (map f_name fs')) by (rewrite Em; exact NT).
  assert (FIN : Forall2 (fun x row => NoDup (map fst row) /\ forall n v, In (n, v) row <-> exists f, In f fs /\ f_name f = n /\ v = meant d (x n))
    xs (map (combine (map f_name fs')) rs)).
  { clear - St Mem N' NT F. induction St as [|x row xs rows H St IH]; constructor; [|exact IH].
    destruct (stored_pairs V d fs' fs t false x row Mem N' NT F H) as [D P]. split; [exact D|]. intros n v. rewrite P. split.
    - intros (f & I & B & _ & Z). exists f. auto.
    - intros (f & I & B & Z). exists f. repeat split; auto. discriminate. }
  unfold upsert_data in K. destruct xs as [|x0 xs0] eqn:Exs; [congruence|]. rewrite <- Exs in *. clear Exs.
  destruct (upsert_stmt d t None) as [s|] eqn:U; [|discriminate K]. cbn [bind] in K. rewrite RO in K. cbn [bind] in K. injection K as <-.
  exists (map (combine (map f_name fs')) rs). split; [|exact FIN]. cbn [upserted].
  assert (LEN : rows_of (map c_name (t_columns t)) (seq 1 (length (t_columns t))) rs = Some (map (combine (map f_name fs')) rs)).
  { rewrite <- (map_length c_name (t_columns t)), <- Em. apply rows_of_in_order. exact L. }
  assert (PL : exists n, plain (t_columns t) n).
  { exists (f_name g). clear - Ig Tg F. induction F as [|f k fs ks [Nm Id] F IH]; [destruct Ig|]. destruct Ig as [<- | Ig].
    - exists k. split; [now left|]. split; [exact Nm|]. destruct (c_identity k); [|reflexivity]. exfalso. now apply Tg, Id.
    - destruct (IH Ig) as (k' & I' & H'). exists k'. split; [now right|exact H']. }
  assert (D : (d = DPg \/ d = DMySQL) \/ by_merge d) by (destruct d; auto; right; split; discriminate). destruct D as [D|D].
  - assert (NN : t_columns t <> []) by (intros X; rewrite X in Ik; destruct Ik).
    assert (NP : t_pk t <> []) by (rewrite Pk; discriminate).
    destruct (C56_upsert_on_key d t None (t_columns t) s Q D eq_refl NN NP U) as (upd & _ & RD). rewrite RD.
    destruct D as [-> | ->]; destruct upd; rewrite LEN; reflexivity.
  - destruct (C56_upsert_by_merge d t None (t_columns t) s Q D eq_refl) as (keys & upd & ins & _ & _ & _ & RD); [exists key; split; [exact Ik|left; exact Pk]|exact PL|exact U|].
    rewrite RD, LEN. reflexivity.
Qed.

(** [delete_data]: the rows that are deleted are those whose primary key is one of the keys, provided that keys are passed as they are. *)
Theorem C65_delete : forall d t keys, name_ok (t_name t) -> NoDup (map c_name (t_columns t)) -> keys <> [] -> (forall x : obj V, In x keys -> meant d x = HObject x) ->
  is_ok (delete_data d t keys) = true ->
  exists k s, t_pk t = [k] /\ delete_data d t keys = Ok (CExecute s (map (fun x => [meant d x]) keys)) /\ read_data d s = Some (RDelete (table_of t) k 1).
Proof.
  intros d t keys Q N NE M H. unfold delete_data in *. destruct keys as [|x ks] eqn:E; [congruence|]. rewrite <- E in *.
  destruct (delete_stmt t) as [s|] eqn:U; [|discriminate H]. destruct (C56_delete d t s Q N U) as (k & Pk & R). exists k, (render_dml d s).
  split; [exact Pk|]. split; [|exact R]. cbn [bind]. do 2 f_equal. apply map_ext_in. intros y I. now rewrite (M y I).
Qed.
End Values.
Print Assumptions C65_insert.
Print Assumptions C65_upsert.
Print Assumptions C65_delete.

(** ** What does not hold *)

Definition obj0 := obj unit.
(** a class with a UUID as key, an optional enumeration, and a collection *)
Definition ex_classes (c : cid) : classdef :=
  if cid_eqb c ("m", "State") then KEnum [EStr "active"; EStr "gone"]
  else if cid_eqb c ("m", "Device") then KData [Fld "id" (YAnn YUuid [MPrimary]) DMissing; Fld "state" (YUnion [YCls ("m", "State"); YNone]) DNone] false None []
  else if cid_eqb c ("m", "User") then KData [Fld "id" (YAnn YInt [MPrimary; MIdentity]) DMissing; Fld "name" YStr DMissing; Fld "state" (YCls ("m", "State")) DMissing;
    Fld "token" YUuid DMissing; Fld "host" (YUnion [YIPv4; YIPv6]) DMissing; Fld "age" (YUnion [YInt; YNone]) DNone] false None []
  else if cid_eqb c ("m", "Team") then KData [Fld "id" (YAnn YInt [MPrimary]) DMissing; Fld "members" (YList (YCls ("m", "User"))) DMissing] false None []
  else if cid_eqb c ("m", "Pair") then KData [Fld "id" (YAnn YInt [MPrimary]) DMissing; Fld "first" YStr DMissing; Fld "last" YStr DMissing] false None []
  else KOther.
Definition the_device (n : string) : obj0 := if String.eqb n "id" then OUuid "0123456789abcdef" else if String.eqb n "state" then OMember ("m", "State") (EStr "active") else ONone.
Definition the_user (n : string) : obj0 :=
  if String.eqb n "id" then OOther tt else if String.eqb n "name" then OOther tt else if String.eqb n "state" then OMember ("m", "State") (EStr "gone")
  else if String.eqb n "token" then OUuid "fedcba9876543210" else if String.eqb n "host" then OAddress "abcd" else ONone.
Definition converted (d : ConvertDialects.dialect) (c : string) : res table := dataclass_to_table ex_classes (ConvertDialects.dialect_options d plain_user) 5 ("m", c).

(** MySQL: a UUID that is a primary key (any annotated or optional UUID) is handed as the object, not as the 16 bytes of its column; so is a key to delete. *)
Theorem C65_uuid_key_refuted : exists t k row, converted ConvertDialects.DMySQL "Device" = Ok t /\
  (exists col, In col (t_columns t) /\ c_name col = "id" /\ type_str (c_type col) = Ok "binary(16)") /\
  insert_data ex_classes DMySQL t ("m", "Device") [the_device] = Ok k /\ inserted DMySQL k = Some (table_of t, [row]) /\
  In ("id", HObject (the_device "id")) row /\ meant DMySQL (the_device "id") = HBytes "0123456789abcdef" /\
  delete_data DMySQL t [the_device "id"] = Ok (CExecute ("DELETE FROM ""s__Device"" WHERE ""id"" = %s")%string [[HObject (the_device "id")]]).
Proof.
  do 3 eexists. split; [vm_compute; reflexivity|]. split; [eexists; split; [left; reflexivity|split; reflexivity]|]. split; [vm_compute; reflexivity|].
  split; [vm_compute; reflexivity|]. split; [left; reflexivity|]. split; [reflexivity|]. vm_compute. reflexivity.
Qed.
Print Assumptions C65_uuid_key_refuted.
(** An optional enumeration: the member itself is handed to the driver. *)
Theorem C65_optional_enum_refuted : exists t k row, converted ConvertDialects.DPostgres "Device" = Ok t /\
  insert_data ex_classes DPg t ("m", "Device") [the_device] = Ok k /\ inserted DPg k = Some (table_of t, [row]) /\
  In ("state", HObject (OMember ("m", "State") (EStr "active"))) row /\ meant DPg (the_device "state") = HLabel (EStr "active").
Proof.
  do 3 eexists. split; [vm_compute; reflexivity|]. split; [vm_compute; reflexivity|]. split; [vm_compute; reflexivity|]. split; [right; left; reflexivity|reflexivity].
Qed.
Print Assumptions C65_optional_enum_refuted.
(** SQL Server (enumerations as lookup tables): the label is handed for a column that holds the number of the row of the lookup table. *)
Theorem C65_relation_enum_refuted : exists t k row, converted ConvertDialects.DMSSQL "User" = Ok t /\
  (exists col, In col (t_columns t) /\ c_name col = "state" /\ type_str (c_type col) = Ok "integer") /\
  insert_data ex_classes DMSSQL t ("m", "User") [the_user] = Ok k /\ inserted DMSSQL k = Some (table_of t, [row]) /\ In ("state", HLabel (EStr "gone")) row.
Proof.
  do 3 eexists. split; [vm_compute; reflexivity|]. split; [eexists; split; [right; right; left; reflexivity|split; reflexivity]|]. split; [vm_compute; reflexivity|].
  split; [vm_compute; reflexivity|]. right. left. reflexivity.
Qed.
Print Assumptions C65_relation_enum_refuted.
(** A class with a collection that becomes a table of its own: nothing can be inserted. *)
Theorem C65_collection_refuted : forall d, exists t, converted ConvertDialects.DPostgres "Team" = Ok t /\ map c_name (t_columns t) = ["id"] /\
  forall x : instance unit, insert_data ex_classes d t ("m", "Team") [x] = Err "KeyError".
Proof. intros d. eexists. split; [vm_compute; reflexivity|]. split; [reflexivity|]. intros x. destruct d; vm_compute; reflexivity. Qed.
Print Assumptions C65_collection_refuted.
(** A table whose columns are in another order than the fields (a table that was discovered): values go into the wrong columns.  PostgreSQL
    names the columns of the class instead. *)
Theorem C65_other_order_refuted : exists t k row, name_ok (t_name t) /\ map c_name (t_columns t) = ["id"; "last"; "first"] /\
  insert_data (V := string) ex_classes DOracle t ("m", "Pair") [fun n => OOther n] = Ok k /\ inserted DOracle k = Some (table_of t, [row]) /\
  In ("last", HObject (OOther "first")) row /\ In ("first", HObject (OOther "last")) row /\
  exists k' row', insert_data (V := string) ex_classes DPg t ("m", "Pair") [fun n => OOther n] = Ok k' /\ inserted DPg k' = Some (table_of t, [row']) /\
    forall n, In n ["id"; "first"; "last"] -> In (n, HObject (OOther n)) row'.
Proof.
  exists (Tab (Qualified None "Pair") [Col "id" (TInt 8 true None None) false None false None; Col "last" (TVarChar None) false None false None; Col "first" (TVarChar None) false None false None] ["id"] [] None None).
  do 2 eexists. split; [exact Logic.I|]. split; [reflexivity|]. split; [vm_compute; reflexivity|]. split; [vm_compute; reflexivity|].
  split; [right; left; reflexivity|]. split; [right; right; left; reflexivity|]. do 2 eexists. split; [vm_compute; reflexivity|]. split; [vm_compute; reflexivity|].
  intros n [<- |[<- |[<- |[]]]]; cbn; auto.
Qed.
Print Assumptions C65_other_order_refuted.

(** ** Hypotheses are met: a class with a generated key, an enumeration, a UUID and an address *)
Example C65_example : exists t k, converted ConvertDialects.DMySQL "User" = Ok t /\ name_ok (t_name t) /\
  insert_data ex_classes DMySQL t ("m", "User") [the_user] = Ok k /\
  inserted DMySQL k = Some (table_of t, [[("name", HObject (OOther tt)); ("state", HLabel (EStr "gone")); ("token", HBytes "fedcba9876543210"); ("host", HBytes "abcd"); ("age", HObject ONone)]]).
Proof. do 2 eexists. split; [vm_compute; reflexivity|]. split; [exact Logic.I|]. split; vm_compute; reflexivity. Qed.
Example C65_example_meets : exists fs, ex_classes ("m", "User") = KData fs false None [] /\ NoDup (map f_name fs) /\ Forall (fun f => py_wf (f_type f)) fs /\
  all_columns ex_classes (ConvertDialects.dialect_options ConvertDialects.DMySQL plain_user) fs /\ (exists f, In f fs /\ ~ tagged MIdentity (f_type f)) /\
  objects unit ex_classes DMySQL fs [the_user].
Proof.
  eexists. split; [reflexivity|]. split; [repeat constructor; cbn; intuition discriminate|]. split; [repeat constructor; cbn; intuition discriminate|].
  assert (NJ : forall t b, relationship ex_classes (ConvertDialects.dialect_options ConvertDialects.DMySQL plain_user) t = None -> py_wf t -> b = relations (ConvertDialects.dialect_options ConvertDialects.DMySQL plain_user) -> ~ joined ex_classes b t).
  { intros t b R W -> J. unfold relations in J. apply (relationship_complete ex_classes (ConvertDialects.dialect_options ConvertDialects.DMySQL plain_user)) in J; [|exact W]. rewrite R in J. discriminate J. }
  split; [|split].
  - intros f I. split.
    + apply NJ; [|destruct I as [<- |[<- |[<- |[<- |[<- |[<- |[]]]]]]]; repeat constructor; cbn; intuition discriminate|reflexivity].
      destruct I as [<- |[<- |[<- |[<- |[<- |[<- |[]]]]]]]; reflexivity.
    + destruct I as [<- | I]; [left; do 2 eexists; split; [reflexivity|cbn; auto]|right].
      intros T. destruct I as [<- |[<- |[<- |[<- |[<- |[]]]]]]; inversion T; subst; cbn in *; repeat match goal with H : _ \/ _ |- _ => destruct H | H : False |- _ => destruct H end; subst;
        match goal with H : tagged _ _ |- _ => inversion H end.
  - eexists. split; [right; left; reflexivity|]. intros T. inversion T.
  - intros x f [<- |[]] I. destruct I as [<- |[<- |[<- |[<- |[<- |[<- |[]]]]]]]; (split; [vm_compute; tauto|cbn; eauto 8]).
Qed.
