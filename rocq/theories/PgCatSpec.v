(** Specification: the rows of the system catalogs of PostgreSQL that stand for an abstract database (DbSpec.v).  Written from the chapter
    "System Catalogs" of the manual; independent of the queries of the explorer. *)
From Verif Require Import PyStr QuoteModel Types Objects SqlAst DbSpec PgExplore.
From Verif Require DiscoverSpec.
From Coq Require Import Sorted.
From stdpp Require Import gmap strings.

Section Spec.
  (** how format_type shows the types of a schema (depends on the search path), and how pg_get_expr shows a default *)
  Variable show : option string -> string -> string.
  Variable deparse : sqltype -> string -> string.
  Variable P : pgcat.

  Definition schema_of (oid : N) (s : string) : Prop := In (Nsp oid s) (pg_namespace P).

  (** ** Types.  The array type of an element type has the element in [typelem]; both are in the same schema *)
  Definition type_row (t : typ_row) (r : DiscoverSpec.pg_report) : Prop :=
    In t (pg_type P) /\ schema_of (typnamespace t) (DiscoverSpec.nspname r) /\
    if DiscoverSpec.array r
    then exists el, In el (pg_type P) /\ typelem t = typ_oid el /\ typname el = DiscoverSpec.typname r
    else typelem t = 0%N /\ typname t = DiscoverSpec.typname r.
  (** an attribute that was created with type [ty] *)
  Definition att_type (a : att_row) (ty : sqltype) : Prop :=
    exists s r t, type_str ty = Ok s /\ DiscoverSpec.pg_report_of show s = Some r /\ type_row t r /\
      atttypid a = typ_oid t /\ att_format a = DiscoverSpec.formatted r /\ (attndims a <> 0%Z <-> DiscoverSpec.array r = true).

  (** ** Comments: an object has at most one row, by its catalog, its identifier and the number of the column *)
  Definition comment_is (oid : N) (cl : objclass) (sub : Z) (c : option string) : Prop :=
    forall text, In (Dsc oid cl sub text) (pg_description P) <-> c = Some text.

  (** ** Columns.  A column that was dropped keeps its row, with the type 0 *)
  Definition live (rel : N) (a : att_row) : Prop := In a (pg_attribute P) /\ attrelid a = rel /\ (0 < attnum a)%Z /\ atttypid a <> 0%N.
  Record col_row (rel : N) (a : att_row) (c : dbcol) : Prop := {
    cr_type : att_type a (dc_type c);
    cr_null : attnotnull a = negb (dc_null c);
    cr_ident : (attidentity a = "a" \/ attidentity a = "d")%string <-> dc_ident c = true;
    cr_default : forall e, In (Def rel (attnum a) e) (pg_attrdef P) <-> exists n x, dc_default c = Some (n, x) /\ e = deparse (dc_type c) x;
    cr_comment : comment_is rel InClass (attnum a) (dc_comment c) }.

  (** ** Constraints: columns are given by their numbers *)
  Definition numbered (rel : N) (ks : list Z) (names : list string) : Prop :=
    Forall2 (fun k n => exists a, live rel a /\ attnum a = k /\ attname a = n) ks names.
  Definition primary_row (rel : N) (k : con_row) (pk : list string) : Prop :=
    contype k = "p"%string /\ conrelid k = rel /\ numbered rel (conkey k) pk /\ confkey k = [] /\ confrelid k = 0%N.
  Definition constr_row (rel : N) (name : string) (k : con_row) (c : constr) : Prop :=
    conrelid k = rel /\ conname k = name /\
    match c with
    | CUnique _ cs => contype k = "u"%string /\ numbered rel (conkey k) cs /\ confkey k = [] /\ confrelid k = 0%N
    | CForeign _ cs rt rc =>
        contype k = "f"%string /\ numbered rel (conkey k) cs /\
        exists ref, In ref (pg_class P) /\ cls_oid ref = confrelid k /\ relname ref = snd (key_of rt) /\
          schema_of (relnamespace ref) (fst (key_of rt)) /\ numbered (confrelid k) (confkey k) rc
    | CCheck _ _ => contype k = "c"%string
    | CDiscr _ _ _ => False
    end.

  Record table_rows (rel : N) (tb : dbtab) : Prop := {
    tr_cols : forall n c, dt_cols tb !! n = Some c -> exists a, live rel a /\ attname a = n /\ col_row rel a c;
    tr_live : forall a, live rel a -> is_Some (dt_cols tb !! attname a);
    tr_names : forall a b, live rel a -> live rel b -> attname a = attname b -> attnum a = attnum b;
    tr_pk : forall k, In k (pg_constraint P) -> conrelid k = rel -> contype k = "p"%string -> primary_row rel k (dt_pk tb);
    tr_pk_one : forall k k', In k (pg_constraint P) -> In k' (pg_constraint P) -> conrelid k = rel -> conrelid k' = rel ->
                contype k = "p"%string -> contype k' = "p"%string -> conname k = conname k';
    tr_pk_some : dt_pk tb <> [] -> exists k, In k (pg_constraint P) /\ primary_row rel k (dt_pk tb);
    tr_cons : forall n c, dt_cons tb !! n = Some c -> exists k, In k (pg_constraint P) /\ constr_row rel n k c;
    tr_cons_only : forall k, In k (pg_constraint P) -> conrelid k = rel -> contype k = "u"%string \/ contype k = "f"%string -> is_Some (dt_cons tb !! conname k);
    tr_comment : comment_is rel InClass 0 (dt_comment tb) }.
  (** a composite type has attributes like a table, and a row in pg_type that carries its comment *)
  Record struct_rows (rel : N) (ms : gmap string sqltype) : Prop := {
    sr_members : forall n ty, ms !! n = Some ty -> exists a, live rel a /\ attname a = n /\ att_type a ty /\ comment_is rel InClass (attnum a) None;
    sr_live : forall a, live rel a -> is_Some (ms !! attname a);
    sr_names : forall a b, live rel a -> live rel b -> attname a = attname b -> attnum a = attnum b }.
  (** labels of an enumeration in their order *)
  Definition enum_rows (oid : N) (vs : list string) : Prop :=
    exists l, Permutation l (List.filter (fun e => N.eqb (enumtypid e) oid) (pg_enum P)) /\
      StronglySorted (fun a b => (enumsortorder a < enumsortorder b)%Z) l /\ map enumlabel l = vs.

  (** ** The catalogs as a whole: unique keys, and the objects of the database in its schemas *)
  Record keys_ok : Prop := {
    ko_nsp : List.NoDup (map nsp_oid (pg_namespace P));
    ko_nspname : List.NoDup (map nspname (pg_namespace P));
    ko_cls : List.NoDup (map cls_oid (pg_class P));
    ko_relname : List.NoDup (map (fun c => (relname c, relnamespace c)) (pg_class P));
    ko_typ : List.NoDup (map typ_oid (pg_type P));
    ko_typname : List.NoDup (map (fun t => (typname t, typnamespace t)) (pg_type P));
    ko_att : List.NoDup (map (fun a => (attrelid a, attnum a)) (pg_attribute P));
    ko_def : List.NoDup (map (fun d => (adrelid d, adnum d)) (pg_attrdef P));
    ko_dsc : List.NoDup (map (fun d => (objoid d, classoid d, objsubid d)) (pg_description P));
    ko_con : List.NoDup (map (fun k => (conrelid k, conname k)) (pg_constraint P));
    (* 0 is no identifier *)
    ko_typ0 : forall t, In t (pg_type P) -> typ_oid t <> 0%N;
    ko_cls0 : forall c, In c (pg_class P) -> cls_oid c <> 0%N;
    (* only columns have comments with a number *)
    ko_sub : forall d, In d (pg_description P) -> objsubid d <> 0%Z -> classoid d = InClass }.
  (** Identifiers come from one counter; they are unique within a catalog, and across catalogs until the counter wraps
      around.  The objects that have comments of their own are told apart by their identifiers. *)
  Definition oids_apart : Prop :=
    forall d, In d (pg_description P) -> objsubid d = 0%Z ->
    (In (objoid d) (map cls_oid (pg_class P)) -> classoid d = InClass) /\ (In (objoid d) (map typ_oid (pg_type P)) -> classoid d = InType).

  Definition relation_at (k : okey) (kind : string) (c : cls_row) : Prop :=
    In c (pg_class P) /\ relname c = snd k /\ relkind c = kind /\ schema_of (relnamespace c) (fst k).
  Definition type_at (k : okey) (t : typ_row) : Prop := In t (pg_type P) /\ typname t = snd k /\ schema_of (typnamespace t) (fst k).
  Definition obj_rows (k : okey) (x : dbobj) : Prop :=
    match x with
    | OTable tb => exists c, relation_at k "r" c /\ table_rows (cls_oid c) tb
    | OStruct ms cm => exists c t, relation_at k "c" c /\ type_at k t /\ struct_rows (cls_oid c) ms /\ comment_is (typ_oid t) InType 0 cm
    | OEnum vs => exists t l, type_at k t /\ enum_rows (typ_oid t) l /\ vs = list_to_set l
    end.
  (** the catalogs tell about database [D], as far as its own schemas are concerned; there are no views in [D] *)
  Record tells_of (D : db) : Prop := {
    to_objs : forall k x, db_objs D !! k = Some x -> fst k ∈ db_schemas D -> obj_rows k x;
    to_tables : forall k c, fst k ∈ db_schemas D -> relation_at k "r" c -> exists tb, db_objs D !! k = Some (OTable tb);
    to_views : forall k c, fst k ∈ db_schemas D -> ~ relation_at k "v" c;
    to_structs : forall k c, fst k ∈ db_schemas D -> relation_at k "c" c -> exists ms cm, db_objs D !! k = Some (OStruct ms cm);
    to_enums : forall k t e, fst k ∈ db_schemas D -> type_at k t -> In e (pg_enum P) -> enumtypid e = typ_oid t -> exists vs, db_objs D !! k = Some (OEnum vs) }.
  (** the labels of the enumerations of a namespace are kept in the order in which they were declared *)
  Definition labels_kept (n : namespace) : Prop :=
    forall e t, In e (n_enums n) -> type_at (key_of (e_name e)) t -> enum_rows (typ_oid t) (e_values e).
  (** everything above: the catalogs are consistent and report database [D], where catalog [t] was created *)
  Definition reports (D : db) (t : catalog) : Prop :=
    keys_ok /\ oids_apart /\ tells_of D /\ forall n, In n t -> labels_kept n.
End Spec.
(** ** The order of rows: any, but the rows of one constraint come in the order of its columns *)
Definition any_order (order : forall A : Type, string -> list A -> list A) : Prop :=
  forall A q (l : list A), Permutation (order A q l) l.
Definition keys_in_order (order : forall A : Type, string -> list A -> list A) : Prop :=
  forall q (l : list conmeta) n, List.filter (fun r => String.eqb (km_name r) n) (order conmeta q l) = List.filter (fun r => String.eqb (km_name r) n) l.
