(** C34 (fields become columns) and C36 (integer annotations never shrink). *)
From Verif Require Import PyStr QuoteModel ObjectDict ObjectDictProofs Types Objects Compat Capacity Convert ConvertDialects ConvertSpec ConvertProofs.
From Coq Require Import Permutation Lia.
Open Scope string_scope.

(** The options of every dialect are sane if the user maps neither builtins nor the library's key types to a schema. *)
Lemma dialects_sane d g : (forall m n, In (m, n) (g_ns g) -> m <> "builtins" /\ m <> "pysqlsync.model.key_types") -> sane_options (dialect_options d g).
Proof.
  intros H. split; [|exact H]. intros t s I A. destruct d; simpl in I;
    repeat (destruct I as [I|I]; [injection I as <- <-; apply none_unwrap in A; inversion A|]); contradiction.
Qed.

(** ** C34 *)

(** Converting a data-class: one column per field that is not a collection of entities, in declaration order, with the
    field's name; nullable exactly if [None] is a value of the field's type; the field's default and description; the primary key is
    the first field annotated as such. *)
Theorem C34_fields_become_columns env o fuel c fs a d ps t :
  sane_options o -> env c = KData fs a d ps -> NoDup (map f_name fs) -> Forall (fun f => py_wf (f_type f)) fs ->
  dataclass_to_table env o fuel c = Ok t ->
  columns_match env ps (match o_array o with AmRelation => true | _ => false end) (o_auto o) fs (t_columns t) /\
  (exists k, t_pk t = [k] /\ first_key fs k) /\ t_desc t = d.
Proof.
  intros S E ND W H. apply table_inv in H as (cols & ks & q & k & H1 & H2 & H3 & H4 & ->).
  assert (DF : data_fields env c = fs) by (unfold data_fields; now rewrite E).
  unfold make_table. simpl. rewrite (table_columns_ok env o S fuel c cols) by (rewrite ?DF; auto). split; [|split].
  - unfold table_columns, column_fields, fields_of in H1. rewrite E in H1. unfold params_of in H1. rewrite E in H1. eapply columns_match_fields; eauto.
  - exists k. split; auto. rewrite <- DF. now apply key_name_first.
  - unfold doc_of. now rewrite E.
Qed.
Print Assumptions C34_fields_become_columns.

(** A class without a key field is refused, whatever the options. *)
Theorem C34_class_without_key_refused env o fuel c :
  (forall f, In f (data_fields env c) -> ~ key_field f) -> exists e, dataclass_to_table env o fuel c = Err e.
Proof.
  intros N. destruct (dataclass_to_table env o fuel c) as [t|e] eqn:H; [|eauto]. exfalso.
  apply table_inv in H as (cols & ks & q & k & _ & _ & _ & H & _).
  apply key_name_first in H as (x & f & y & E & K & _). apply (N f); auto. rewrite E. apply in_app_iff. simpl. auto.
Qed.
Print Assumptions C34_class_without_key_refused.

(** Defaults are made up only for required fields that are neither key nor identity, and only if the user asks for it. *)
Theorem C34_auto_default env o fuel ps f c : sane_options o ->
  member_column env o fuel ps f = Ok c -> (f_default f = DMissing \/ f_default f = DNone) -> c_default c <> None ->
  o_auto o = true /\ ~ admits_none (f_type f) /\ c_identity c = false /\ ~ key_field f.
Proof.
  intros S H D N. unfold member_column in H. binds H. binds H. injection H as <-. simpl in *.
  assert (X : (if o_auto o && negb (p_nullable (field_properties (f_type f))) && negb (p_primary (field_properties (f_type f))) && negb (p_identity (field_properties (f_type f)))
      then do u <- auto_type env (p_plain (field_properties (f_type f)));
           match u with Some u => do s <- auto_text env u; Ok (Some s) | None => Ok None end else Ok None) = Ok v0)
    by (destruct D as [D|D]; rewrite D in E0; exact E0).
  clear E0. match type of X with (if ?b then _ else _) = _ => destruct b eqn:B end; [|congruence].
  apply andb_prop in B as [B P]. apply andb_prop in B as [B Q]. apply andb_prop in B as [B R].
  split; [exact B|]. split; [|split].
  - intros A. apply (field_nullable env o S _ _ _ E) in A. rewrite A in R. discriminate.
  - change (p_identity (field_properties (f_type f)) = false). now destruct (p_identity _).
  - intros (t & ms & ET & I). rewrite ET in Q. unfold field_properties in Q. simpl in Q.
    assert (Y : existsb (meta_eqb MPrimary) (ms ++ metadata (if is_optional (drop_default t) then unwrap_optional (drop_default t) else drop_default t)) = true).
    { apply existsb_exists. exists MPrimary. split; [apply in_app_iff; now left|now apply meta_eqb_eq]. }
    rewrite Y in Q. discriminate.
Qed.
Print Assumptions C34_auto_default.
(** A default that is made up is a value of the declared type: zero, empty, false, the first member, or the zero of the key of the
    referenced class. *)
Theorem C34_auto_default_value env o fuel c fs a d ps t : sane_options o -> env c = KData fs a d ps -> NoDup (map f_name fs) ->
  dataclass_to_table env o fuel c = Ok t -> forall f col s, In f fs -> (f_default f = DMissing \/ f_default f = DNone) ->
  In col (t_columns t) -> c_name col = f_name f -> c_default col = Some s -> zero env (f_type f) s.
Proof.
  intros S E ND H f col s If Df Ic N D. apply table_inv in H as (cols & ks & q & k & H1 & _ & _ & _ & ->).
  assert (DF : data_fields env c = fs) by (unfold data_fields; now rewrite E).
  unfold make_table in Ic. simpl in Ic. rewrite (table_columns_ok env o S fuel c cols) in Ic by (rewrite ?DF; auto).
  unfold table_columns in H1. apply map_res_all2 in H1. destruct (all2_in_r _ _ _ _ H1 Ic) as (g & Ig & Hg).
  assert (g = f) as ->.
  { apply member_column_name in Hg; [|exact S]. unfold column_fields in Ig. apply filter_In in Ig as [Ig _]. unfold fields_of in Ig. rewrite E in Ig.
    assert (NN : f_name g = f_name f) by congruence. clear - ND If Ig NN. induction fs as [|x fs IH]; [contradiction|]. simpl in ND. inversion ND; subst.
    destruct If as [-> | If], Ig as [-> | Ig]; auto; exfalso.
    - apply H1. rewrite <- NN. now apply in_map.
    - apply H1. rewrite NN. now apply in_map. }
  eapply member_column_zero; eauto.
Qed.
Print Assumptions C34_auto_default_value.

(** A class with several key fields is not refused: only the first becomes the primary key of the table. *)
Definition two_keys : cid -> classdef := fun c =>
  if cid_eqb c ("m", "Pair")
  then KData [Fld "left" (YAnn YInt [MPrimary]) DMissing; Fld "right" (YAnn YInt [MPrimary]) DMissing] false None [] else KOther.
Definition plain_user : goptions := GOpts None None None [("m", Some "s")] true false (fun _ => false) false (fun _ => true).
Theorem C34_several_keys_refuted : exists t,
  dataclass_to_table two_keys (dialect_options DPostgres plain_user) 5 ("m", "Pair") = Ok t /\ t_pk t = ["left"] /\
  map c_name (t_columns t) = ["left"; "right"] /\ t_constraints t = [].
Proof. eexists. split; [reflexivity|]. repeat split. Qed.
Print Assumptions C34_several_keys_refuted.

(** Hypotheses are met: a class with a generated key, annotations inside and outside of [Optional], a default, an
    enumeration, a reference, an optional reference, and a collection of entities (which is not a column). *)
Definition sample : cid -> classdef := fun c =>
  if cid_eqb c ("m", "Person")
  then KData [Fld "id" (YAnn (YUnion [YInt; YDefault]) [MIdentity; MPrimary]) DMissing;
              Fld "name" (YAnn YStr [MMaxLength 64; MUnique]) DMissing;
              Fld "nick" (YUnion [YAnn YStr [MMaxLength 16]; YNone]) DNone;
              Fld "age" (YAnn YInt [MSigned true; MStorage 2; MRange (- 2 ^ 15) (2 ^ 15 - 1)]) (DVal (PInt 7));
              Fld "state" (YUnion [YCls ("m", "State"); YNone]) DMissing;
              Fld "home" (YCls ("m", "Address")) DMissing;
              Fld "office" (YUnion [YFwd ("m", "Address"); YNone]) DMissing;
              Fld "friends" (YUnion [YList (YCls ("m", "Person")); YNone]) DMissing] false (Some "A person.") [("name", "Full name.")]
  else if cid_eqb c ("m", "Address") then KData [Fld "key" (YAnn YUuid [MPrimary]) DMissing; Fld "city" YStr DMissing] false None []
  else if cid_eqb c ("m", "State") then KEnum [EStr "on"; EStr "off"]
  else KOther.
Example C34_sample : exists t, dataclass_to_table sample (dialect_options DPostgres plain_user) 5 ("m", "Person") = Ok t /\
  map c_name (t_columns t) = ["id"; "name"; "nick"; "age"; "state"; "home"; "office"] /\
  map c_nullable (t_columns t) = [false; false; true; false; true; false; true] /\
  map c_identity (t_columns t) = [true; false; false; false; false; false; false] /\
  map c_default (t_columns t) = [None; None; None; Some "7"; None; None; None] /\
  map c_type (t_columns t) = [TInt 8 true None None; TVarChar (Some 64%Z); TVarChar (Some 16%Z); TInt 2 true None None;
                              TUser (Qualified (Some "s") "State"); TUuid; TUuid] /\
  map c_desc (t_columns t) = [None; Some "Full name."; None; None; None; None; None] /\
  t_pk t = ["id"] /\
  t_constraints t = [CUnique "uq_Person_name" ["name"]; CForeign "fk_Person_home" ["home"] (Qualified (Some "s") "Address") ["key"];
                     CForeign "fk_Person_office" ["office"] (Qualified (Some "s") "Address") ["key"]].
Proof. eexists. split; [reflexivity|]. repeat split. Qed.
(** with made-up defaults: text, enumeration, reference and choice *)
Definition auto_sample : cid -> classdef := fun c =>
  if cid_eqb c ("m", "Pet")
  then KData [Fld "id" (YAnn YInt [MPrimary]) DMissing; Fld "name" YStr DMissing; Fld "state" (YCls ("m", "State")) DMissing;
              Fld "owner" (YCls ("m", "Address")) DMissing; Fld "size" (YUnion [YInt; py_int16]) DMissing; Fld "nick" (YUnion [YStr; YNone]) DMissing] false None []
  else if cid_eqb c ("m", "Address") then KData [Fld "key" (YAnn YStr [MMaxLength 8; MPrimary]) DMissing] false None [] else sample c.
Example C34_auto_default_sample : exists t, dataclass_to_table auto_sample (dialect_options DPostgres (GOpts None None None [("m", Some "s")] true false (fun _ => false) true (fun _ => true))) 5 ("m", "Pet") = Ok t /\
  map c_default (t_columns t) = [None; Some "''"; Some "'on'"; Some "''"; Some "0"; None].
Proof. eexists. split; [vm_compute; reflexivity|]. reflexivity. Qed.
(** For an enumeration kept in a lookup table (as also for [E | str]) the made-up default is the label of the first member,
    although the column has integers: the declaration of the column contradicts itself, whatever the first label. *)
Theorem C34_auto_default_label_refuted env d fuel ps n c s es : env c = KEnum (EStr s :: es) -> In d [DPostgres; DMSSQL] ->
  forall g, g_enum g = Some EmRelation -> o_auto (dialect_options d g) = true -> Forall (fun e => exists t, e = EStr t) es ->
  forall col, member_column env (dialect_options d g) fuel ps (Fld n (YCls c) DMissing) = Ok col ->
  (exists w b lo hi, c_type col = TInt w b lo hi) /\ c_default col = Some (quote s).
Proof.
  intros E I g G A St col H. unfold member_column in H. binds H. binds H. injection H as <-. simpl in *.
  unfold field_properties, field_type in *. simpl in *. rewrite A in E1. simpl in E1. unfold auto_type in E1. unfold entity_of, dataclass_of, struct_of in E1. simpl in E1.
  rewrite E in E1. simpl in E1. unfold struct_of, dataclass_of in E1. simpl in E1. rewrite E in E1. simpl in E1. rewrite E in E1. simpl in E1. injection E1 as <-. split; [|reflexivity].
  destruct fuel as [|fuel]; [discriminate|]. change (drop_default (YCls c)) with (YCls c) in E0. cbn [member_sql is_simple] in E0.
  assert (SB : subst (dialect_options d g) (YCls c) = None) by (destruct I as [<-|[<-|[]]]; reflexivity). rewrite SB in E0.
  unfold is_enum_cls in E0. rewrite E in E0. unfold simple_sql, value_sql in E0. rewrite SB in E0. unfold fixed_sql, same_object in E0. cbn [basic_sql py_eqb metadata bind unwrap] in E0. rewrite E in E0. unfold enum_sql in E0.
  assert (VT : enum_value_type (EStr s :: es) = Ok VtStr).
  { unfold enum_value_type. simpl map. assert (M : forall l, Forall (fun e => exists t, e = EStr t) l -> nodup vtype_eq_dec (VtStr :: map ev_type l) = [VtStr]).
    { induction 1 as [|e l (t & ->) _ IH]; [reflexivity|]. simpl map. cbn [nodup]. destruct (in_dec vtype_eq_dec VtStr (VtStr :: map ev_type l)) as [J|J]; [exact IH|exfalso; apply J; now left]. }
    now rewrite M. }
  rewrite VT in E0. cbn [bind] in E0.
  assert (EN : o_enum (dialect_options d g) = EmRelation) by (destruct I as [<-|[<-|[]]]; simpl; now rewrite G). rewrite EN in E0.
  unfold enum_key_sql, scalar_sql in E0. destruct I as [<-|[<-|[]]]; unfold value_sql, fixed_sql, same_object in E0; cbn in E0; destruct (g_same g _); cbn in E0;
    repeat (destruct (g_skip g _); cbn in E0); injection E0 as <-; unfold plain_int; eauto 8.
Qed.
Print Assumptions C34_auto_default_label_refuted.
Example C34_auto_default_label_example : exists col,
  member_column sample (dialect_options DPostgres (GOpts (Some EmRelation) None None [("m", Some "s")] true false (fun _ => false) true (fun _ => true))) 5 [] (Fld "state" (YCls ("m", "State")) DMissing) = Ok col /\
  c_type col = TInt 4 true None None /\ c_default col = Some "'on'".
Proof. eexists. split; [vm_compute; reflexivity|]. auto. Qed.
Example C34_sample_sane : sane_options (dialect_options DPostgres plain_user) /\ NoDup (map f_name (data_fields sample ("m", "Person"))) /\
  Forall (fun f => py_wf (f_type f)) (data_fields sample ("m", "Person")).
Proof.
  split; [apply dialects_sane; intros m n [[= <- <-]|[]]; split; discriminate|]. split.
  - simpl. repeat (constructor; [simpl; intuition discriminate|]). constructor.
  - simpl. repeat (apply Forall_cons; [simpl|]); try apply Forall_nil.
    all: repeat first [ apply wf_leaf; exact I | apply wf_list | apply wf_ann; [ | discriminate | discriminate ]
         | apply wf_union; [repeat (apply Forall_cons; [|]); try apply Forall_nil | simpl; lia | simpl; intuition discriminate | repeat (constructor; [simpl; intuition discriminate|]); constructor ] ].
Qed.

(** ** C36 *)

Definition engine_of (d : dialect) : option engine :=
  match d with DPostgres => Some PostgreSQL | DMySQL => Some MySQL | DMSSQL => Some SQLServer | DOracle => Some Oracle | _ => None end.
(** the annotation types of the standard widths, and the values they stand for *)
Definition signed_types : list (pytype * Z * Z) :=
  [(py_int8, -128, 127); (py_int16, -32768, 32767); (py_int32, -2147483648, 2147483647);
   (py_int64, -9223372036854775808, 9223372036854775807); (py_uint8, 0, 255)]%Z.
Definition unsigned_types : list (pytype * Z * Z) :=
  [(py_uint16, 0, 65535); (py_uint32, 0, 4294967295); (py_uint64, 0, 18446744073709551615)]%Z.
(** ways to declare a field of the type: plain, optional, key or unique *)
Definition declared_as (f : dfield) (T : pytype) : Prop :=
  f_type f = T \/ f_type f = YUnion [T; YNone] \/ f_type f = YUnion [YNone; T] \/
  exists tags, Forall (fun m => m = MPrimary \/ m = MUnique) tags /\ f_type f = YAnn (unwrap T) (metadata T ++ tags).

(** the server accepts the column's type and stores every integer from [lo] to [hi] in it *)
Definition stores_all (e : engine) (c : column) (lo hi : Z) : Prop :=
  exists s cap, type_str (c_type c) = Ok s /\ server_type e s = Some cap /\ forall z, (lo <= z <= hi)%Z -> fits_int cap z.

Lemma tags_filtered ms tags : Forall (fun m => m = MPrimary \/ m = MUnique) tags -> Forall (fun m => is_constraint m = false) ms ->
  filter (fun m => negb (is_constraint m)) (ms ++ tags) = ms.
Proof.
  intros T M. induction M as [|m ms Hm M IH]; simpl.
  - induction T as [|m r [-> | ->] _ IH]; simpl; auto.
  - rewrite Hm. simpl. now f_equal.
Qed.
Lemma filter_id ms : Forall (fun m => is_constraint m = false) ms -> filter (fun m => negb (is_constraint m)) ms = ms.
Proof. induction 1; simpl; [reflexivity|]. rewrite H. simpl. now f_equal. Qed.
Lemma declared_field_type f ms : ms <> [] -> Forall (fun m => is_constraint m = false) ms -> declared_as f (YAnn YInt ms) ->
  field_type (field_properties (f_type f)) = YAnn YInt ms.
Proof.
  intros NE M D. assert (FI := filter_id ms M). destruct D as [-> | [-> | [-> | (tags & T & ->)]]].
  - unfold field_properties, field_type. simpl. rewrite app_nil_r, FI. destruct ms; [congruence|reflexivity].
  - unfold field_properties, field_type. simpl. rewrite FI. destruct ms; [congruence|reflexivity].
  - unfold field_properties, field_type. simpl. rewrite FI. destruct ms; [congruence|reflexivity].
  - unfold field_properties, field_type. simpl. rewrite app_nil_r, tags_filtered by auto. destruct ms; [congruence|reflexivity].
Qed.
Lemma column_of_field env o fuel c fs a d ps t f T : sane_options o -> env c = KData fs a d ps -> NoDup (map f_name fs) ->
  dataclass_to_table env o fuel c = Ok t -> In f fs -> field_type (field_properties (f_type f)) = T -> (exists u, unwrap T = u /\ u = YInt) ->
  relationship env o (f_type f) = None ->
  exists k, In k (t_columns t) /\ c_name k = f_name f /\ member_sql env o fuel T = Ok (c_type k).
Proof.
  intros S E ND H I FT _ R. apply table_inv in H as (cols & ks & q & k & H1 & H2 & H3 & H4 & ->).
  assert (DF : data_fields env c = fs) by (unfold data_fields; now rewrite E).
  unfold make_table. simpl. rewrite (table_columns_ok env o S fuel c cols) by (rewrite ?DF; auto).
  unfold table_columns in H1. assert (I' : In f (column_fields env o c)).
  { unfold column_fields, fields_of. rewrite E. apply filter_In. split; auto. now rewrite R. }
  destruct (all2_in_l _ _ _ _ (map_res_all2 _ _ _ H1) I') as (col & IC & HC). exists col. split; auto.
  split; [eapply member_column_name; eauto|]. unfold member_column in HC. binds HC. binds HC. injection HC as <-. simpl. congruence.
Qed.
Lemma declared_not_collection env o f ms : ms <> [] -> declared_as f (YAnn YInt ms) -> relationship env o (f_type f) = None.
Proof.
  intros NE [-> | [-> | [-> | (tags & T & ->)]]]; try reflexivity.
Qed.
Lemma in_bounds c lo hi z : (match c with Ints a b => a <= lo /\ hi <= b | _ => False end)%Z -> (lo <= z <= hi)%Z -> fits_int c z.
Proof. destruct c; simpl; try tauto. lia. Qed.

(** the type of the column of a fixed-width field, by dialect *)
Definition fixed_column (d : dialect) (T : pytype) : option sqltype :=
  match find (fun p => py_eqb (fst p) T) (substitutions d) with
  | Some (_, s) => Some s
  | None => match find (fun p => py_eqb T (fst p))
                       [(py_int8, plain_int 2); (py_int16, plain_int 2); (py_int32, plain_int 4); (py_int64, plain_int 8); (py_uint8, plain_int 2);
                        (py_uint16, plain_int 2); (py_uint32, plain_int 4); (py_uint64, plain_int 8)] with
            | Some (_, s) => Some s | None => None end
  end.
Definition fixed_types : list pytype := [py_int8; py_int16; py_int32; py_int64; py_uint8; py_uint16; py_uint32; py_uint64].
Lemma fixed_distinct : Forall (fun T => Forall (fun U => py_eqb T U = true -> T = U) fixed_types) fixed_types.
Proof. apply Forall_forall. intros T _. apply Forall_forall. intros U _. apply py_eqb_eq. Qed.
Lemma member_sql_subst env o n t s : subst o t = Some s -> member_sql env o (Datatypes.S n) t = Ok s.
Proof. intros H. cbn [member_sql]. now rewrite H. Qed.
Lemma member_sql_simple env o n t : subst o t = None -> is_simple env t = true -> member_sql env o (Datatypes.S n) t = simple_sql env o t.
Proof. intros H I. cbn [member_sql]. now rewrite H, I. Qed.
Lemma simple_sql_fixed env o t s : subst o t = None -> basic_sql t = None -> fixed_sql o t = Some s -> simple_sql env o t = Ok s.
Proof. intros H B F. unfold simple_sql, value_sql. now rewrite H, B, F. Qed.
Lemma member_sql_fixed env d g n T s : In T fixed_types -> g_same g T = true -> fixed_column d T = Some s ->
  member_sql env (dialect_options d g) (Datatypes.S n) T = Ok s.
Proof.
  intros I SM F.
  assert (IS : is_simple env T = true) by (simpl in I; decompose [or] I; subst; try contradiction; reflexivity).
  assert (BS : basic_sql T = None) by (simpl in I; decompose [or] I; subst; try contradiction; reflexivity).
  assert (SU : subst (dialect_options d g) T = match find (fun p => py_eqb (fst p) T) (substitutions d) with Some (_, s) => Some s | None => None end) by reflexivity.
  unfold fixed_column in F. destruct (find (fun p => py_eqb (fst p) T) (substitutions d)) as [[k v]|] eqn:SF.
  - injection F as ->. apply member_sql_subst. exact SU.
  - assert (FX : fixed_sql (dialect_options d g) T = Some s).
    { clear SF SU IS BS. unfold fixed_sql, same_object. change (o_same (dialect_options d g)) with (g_same g).
      unfold find, fst in F.
      assert (SM' : forall U, In U fixed_types -> py_eqb T U && g_same g U = py_eqb T U).
      { intros U IU. destruct (py_eqb T U) eqn:Q; [|reflexivity]. apply py_eqb_eq in Q. subst U. now rewrite SM. }
      rewrite !SM' by (simpl; tauto). 
      destruct (py_eqb T py_int8); [exact F|]. destruct (py_eqb T py_int16); [exact F|]. destruct (py_eqb T py_int32); [exact F|].
      destruct (py_eqb T py_int64); [exact F|]. destruct (py_eqb T py_uint8); [exact F|]. destruct (py_eqb T py_uint16); [exact F|].
      destruct (py_eqb T py_uint32); [exact F|]. destruct (py_eqb T py_uint64); [exact F|]. discriminate. }
    rewrite (member_sql_simple env _ n T SU IS). exact (simple_sql_fixed env _ T s SU BS FX).
Qed.
(** what the four servers make of these types, computed *)
Definition server_bounds (e : engine) (t : sqltype) : option (Z * Z) :=
  match type_str t with Ok s => match server_type e s with Some (Ints a b) => Some (a, b) | _ => None end | Err _ => None end.
Definition enough (d : dialect) (e : engine) (T : pytype) (lo hi : Z) : bool :=
  match fixed_column d T with
  | Some s => match server_bounds e s with Some (a, b) => Z.leb a lo && Z.leb hi b | None => false end
  | None => false end.
Lemma enough_all : forallb (fun d => match engine_of d with
    | Some e => forallb (fun x => let '(T, lo, hi) := x in enough d e T lo hi) signed_types | None => true end)
  [DPostgres; DMySQL; DMSSQL; DOracle; DDelta; DSnowflake; DRedshift; DTrino] = true.
Proof. vm_compute. reflexivity. Qed.
Lemma enough_ok d e T lo hi : engine_of d = Some e -> In (T, lo, hi) signed_types -> enough d e T lo hi = true.
Proof.
  intros E I. assert (ID : In d [DPostgres; DMySQL; DMSSQL; DOracle; DDelta; DSnowflake; DRedshift; DTrino]) by (destruct d; simpl; tauto).
  pose proof (proj1 (forallb_forall _ _) enough_all d ID) as H. cbv beta in H. rewrite E in H. exact (proj1 (forallb_forall _ _) H (T, lo, hi) I).
Qed.

(** the type of the column of a fixed-width field *)
Lemma fixed_field d e g env fuel c fs a doc ps t f T x :
  engine_of d = Some e -> sane_options (dialect_options d g) -> env c = KData fs a doc ps -> NoDup (map f_name fs) ->
  dataclass_to_table env (dialect_options d g) fuel c = Ok t -> In f fs -> In T fixed_types -> declared_as f T -> g_same g T = true ->
  fixed_column d T = Some x -> exists k, In k (t_columns t) /\ c_name k = f_name f /\ c_type k = x.
Proof.
  intros HE S E ND H I IT D SM FC.
  assert (MS : exists ms, T = YAnn YInt ms /\ ms <> [] /\ Forall (fun m => is_constraint m = false) ms).
  { unfold fixed_types, In in IT. decompose [or] IT; try contradiction; subst T;
      eexists; (split; [reflexivity|]); (split; [discriminate|]); repeat constructor. }
  destruct MS as (ms & ET & NE & CF).
  destruct (column_of_field env _ fuel c fs a doc ps t f T S E ND H I) as (k & Ik & Nk & Tk);
    [rewrite ET in *; now apply declared_field_type|rewrite ET; simpl; eauto|rewrite ET in *; eapply declared_not_collection; eauto|].
  exists k. split; auto. split; auto. destruct fuel as [|n]; [discriminate|].
  rewrite (member_sql_fixed env d g n T x IT SM FC) in Tk. congruence.
Qed.
Lemma signed_fixed T lo hi : In (T, lo, hi) signed_types -> In T fixed_types.
Proof.
  unfold signed_types, In. intros IT. decompose [or] IT; try contradiction; match goal with X : _ = (T, lo, hi) |- _ => injection X as <- _ _ end;
    unfold fixed_types, In; tauto.
Qed.
Lemma unsigned_fixed T lo hi : In (T, lo, hi) unsigned_types -> In T fixed_types.
Proof.
  unfold unsigned_types, In. intros IT. decompose [or] IT; try contradiction; match goal with X : _ = (T, lo, hi) |- _ => injection X as <- _ _ end;
    unfold fixed_types, In; tauto.
Qed.

(** A column made from a fixed-width signed field, or from [uint8], stores every value of the annotated type, on
    PostgreSQL, MySQL, SQL Server and Oracle, provided the interpreter still knows the annotated type ([g_same]). *)
Theorem C36_fixed_width_integers_fit_partial d e g env fuel c fs a doc ps t f T lo hi :
  engine_of d = Some e -> sane_options (dialect_options d g) -> env c = KData fs a doc ps -> NoDup (map f_name fs) ->
  dataclass_to_table env (dialect_options d g) fuel c = Ok t -> In f fs -> In (T, lo, hi) signed_types -> declared_as f T ->
  g_same g T = true ->
  exists k, In k (t_columns t) /\ c_name k = f_name f /\ stores_all e k lo hi.
Proof.
  intros HE S E ND H I IT D SM. pose proof (enough_ok d e T lo hi HE IT) as EN. unfold enough in EN.
  destruct (fixed_column d T) as [s|] eqn:FC; [|discriminate].
  destruct (fixed_field d e g env fuel c fs a doc ps t f T s HE S E ND H I (signed_fixed _ _ _ IT) D SM FC) as (k & Ik & Nk & Tk).
  exists k. split; auto. split; auto. unfold stores_all, server_bounds in *. rewrite Tk. destruct (type_str s) as [txt|] eqn:TS; [|discriminate].
  destruct (server_type e txt) as [cap|] eqn:ST; [|discriminate]. exists txt, cap. split; auto. split; auto.
  destruct cap; try discriminate. apply andb_prop in EN as [E1 E2]. apply Z.leb_le in E1, E2. intros z Hz. simpl. lia.
Qed.
Print Assumptions C36_fixed_width_integers_fit_partial.

(** Refuted for [uint16], [uint32] and [uint64]: on PostgreSQL, MySQL and SQL Server the largest values of such a field
    never fit into its column; on Oracle those of [uint16] and [uint32] do, and the column of a [uint64] field has a type
    ("bigint") that the server does not know. *)
Definition too_small (d : dialect) (e : engine) (T : pytype) (hi : Z) : bool :=
  match fixed_column d T with
  | Some s => match server_bounds e s with Some (_, b) => Z.ltb b hi | None => false end
  | None => false end.
Lemma too_small_all : forallb (fun d => match engine_of d with
    | Some e => forallb (fun x => let '(T, lo, hi) := x in too_small d e T hi) unsigned_types | None => true end) [DPostgres; DMySQL; DMSSQL] = true.
Proof. vm_compute. reflexivity. Qed.
Theorem C36_unsigned_refuted d e g env fuel c fs a doc ps t f T lo hi :
  engine_of d = Some e -> d <> DOracle -> sane_options (dialect_options d g) -> env c = KData fs a doc ps -> NoDup (map f_name fs) ->
  dataclass_to_table env (dialect_options d g) fuel c = Ok t -> In f fs -> In (T, lo, hi) unsigned_types -> declared_as f T ->
  g_same g T = true ->
  exists k, In k (t_columns t) /\ c_name k = f_name f /\ ~ stores_all e k lo hi.
Proof.
  intros HE NO S E ND H I IT D SM.
  assert (EN : too_small d e T hi = true).
  { assert (ID : In d [DPostgres; DMySQL; DMSSQL]) by (destruct d; simpl; try discriminate; tauto).
    pose proof (proj1 (forallb_forall _ _) too_small_all d ID) as F. cbv beta in F. rewrite HE in F.
    exact (proj1 (forallb_forall _ _) F (T, lo, hi) IT). }
  unfold too_small in EN. destruct (fixed_column d T) as [s|] eqn:FC; [|discriminate].
  destruct (fixed_field d e g env fuel c fs a doc ps t f T s HE S E ND H I (unsigned_fixed _ _ _ IT) D SM FC) as (k & Ik & Nk & Tk).
  exists k. split; auto. split; auto. unfold stores_all, server_bounds in *. rewrite Tk. intros (txt & cap & TS & ST & F). rewrite TS, ST in EN.
  destruct cap; try discriminate. apply Z.ltb_lt in EN.
  assert (LE : (lo <= hi)%Z).
  { unfold unsigned_types, In in IT. decompose [or] IT; try contradiction; match goal with X : _ = (T, lo, hi) |- _ => injection X as _ <- <- end; lia. }
  specialize (F hi (conj LE (Z.le_refl hi))). simpl in F. lia.
Qed.
Print Assumptions C36_unsigned_refuted.

(** Refuted if the interpreter no longer knows the annotated type (its cache of annotated types is bounded): a column of an
    [int8] field on SQL Server stores no negative number, on PostgreSQL its type does not exist. *)
Definition one_byte : cid -> classdef := fun c =>
  if cid_eqb c ("m", "Small") then KData [Fld "id" (YAnn YInt [MPrimary]) DMissing; Fld "level" py_int8 DMissing] false None [] else KOther.
Definition forgetful_user : goptions := GOpts None None None [("m", Some "s")] true false (fun _ => false) false (fun _ => false).
Theorem C36_evicted_type_refuted :
  (exists t k s, dataclass_to_table one_byte (dialect_options DMSSQL forgetful_user) 5 ("m", "Small") = Ok t /\ In k (t_columns t) /\
     c_name k = "level" /\ type_str (c_type k) = Ok s /\ server_type SQLServer s = Some (Ints 0 255)) /\
  (exists t k s, dataclass_to_table one_byte (dialect_options DPostgres forgetful_user) 5 ("m", "Small") = Ok t /\ In k (t_columns t) /\
     c_name k = "level" /\ type_str (c_type k) = Ok s /\ server_type PostgreSQL s = None).
Proof.
  assert (R : forall (x : res table) (P : table -> Prop), (match x with Ok t => P t | Err _ => False end) -> exists t, x = Ok t /\ P t)
    by (intros [t|] P H; [eauto|contradiction]).
  split.
  - destruct (R (dataclass_to_table one_byte (dialect_options DMSSQL forgetful_user) 5 ("m", "Small"))
      (fun t => match t_columns t with [_; k] => c_name k = "level" /\ server_bounds SQLServer (c_type k) = Some (0, 255)%Z | _ => False end)) as (t & E & P);
      [vm_compute; split; reflexivity|].
    destruct (t_columns t) as [|k0 [|k [|]]] eqn:C; try contradiction. destruct P as [N B]. unfold server_bounds in B.
    destruct (type_str (c_type k)) as [s|] eqn:TS; [|discriminate]. exists t, k, s. rewrite C. split; auto. split; [right; left; reflexivity|]. split; auto. split; auto.
    destruct (server_type SQLServer s) as [[]|]; try discriminate. congruence.
  - destruct (R (dataclass_to_table one_byte (dialect_options DPostgres forgetful_user) 5 ("m", "Small"))
      (fun t => match t_columns t with [_; k] => c_name k = "level" /\ match type_str (c_type k) with Ok s => server_type PostgreSQL s = None | _ => False end | _ => False end)) as (t & E & P);
      [vm_compute; split; reflexivity|].
    destruct (t_columns t) as [|k0 [|k [|]]] eqn:C; try contradiction. destruct P as [N B].
    destruct (type_str (c_type k)) as [s|] eqn:TS; [|contradiction]. exists t, k, s. rewrite C. split; auto. split; [right; left; reflexivity|]. split; auto.
Qed.
Print Assumptions C36_evicted_type_refuted.

(** Hypotheses are met by the class [Person] above, whose [age] is an [int16]. *)
Example C36_example : exists t k, dataclass_to_table sample (dialect_options DPostgres plain_user) 5 ("m", "Person") = Ok t /\
  In k (t_columns t) /\ c_name k = "age" /\ stores_all PostgreSQL k (-32768) 32767.
Proof.
  destruct (C36_fixed_width_integers_fit_partial DPostgres PostgreSQL plain_user sample 5 ("m", "Person")
    (data_fields sample ("m", "Person")) false (Some "A person.") [("name", "Full name.")]
    (match dataclass_to_table sample (dialect_options DPostgres plain_user) 5 ("m", "Person") with Ok t => t | Err _ => Tab (Global "") [] [] [] None None end)
    (Fld "age" (YAnn YInt [MSigned true; MStorage 2; MRange (- 2 ^ 15) (2 ^ 15 - 1)]) (DVal (PInt 7))) py_int16 (-32768) 32767) as (k & H).
  - reflexivity.
  - apply C34_sample_sane.
  - reflexivity.
  - apply C34_sample_sane.
  - vm_compute. reflexivity.
  - right. right. right. left. reflexivity.
  - right. left. reflexivity.
  - left. reflexivity.
  - reflexivity.
  - eexists. exists k. split; [vm_compute; reflexivity|]. exact H.
Qed.
