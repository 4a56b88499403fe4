(** Specification: the database schema that a catalog stands for, and well-formedness of catalogs.
    Independent of the statement generator. *)
From Verif Require Import PyStr QuoteModel Types Objects SqlAst Ddl DbSpec.
From stdpp Require Import gmap strings.

(** the engine behind each generator *)
Definition engine_of (d : dialect) : engine :=
  match d with
  | DMySQL => eng_mysql
  | DMSSQL => eng_mssql
  | DOracle => eng_oracle
  | _ => eng_pg
  end.

(** Default value of a column in the engine's spelling: SQL Server keeps it in a named constraint, Oracle
    and Snowflake spell timestamps with a type prefix, Delta Lake tables have no defaults. *)
Definition want_default (d : dialect) (c : column) : option (option string * string) :=
  match d, c_default c with
  | _, None => None
  | DMSSQL, Some e => Some (Some (df_name (c_name c)), e)
  | DDelta, Some _ => None
  | _, Some e => Some (None, default_expr d (c_type c) e)
  end.
(** Descriptions are stored as comments by PostgreSQL, Delta and Snowflake, the first line of it by MySQL,
    not at all by the others. *)
Definition want_comment (d : dialect) (desc : option string) : option string :=
  norm_comment (match d with
                | DPg | DDelta | DSnow => desc
                | DMySQL => match desc with Some s => Some (first_line s) | None => None end
                | _ => None end).
Definition want_col (d : dialect) (c : column) : dbcol :=
  DbCol (c_type c) (c_nullable c) (want_default d c) (c_identity c) (want_comment d (c_desc c)).
Definition want_cols (d : dialect) (cs : list column) : gmap string dbcol :=
  list_to_map (map (fun c => (c_name c, want_col d c)) cs).
(** discriminated constraints have no SQL counterpart *)
Definition want_cons (ks : list constr) : gmap string constr :=
  list_to_map (map (fun k => (k_name k, k)) (List.filter is_alter ks)).
Definition want_tab (d : dialect) (t : table) : dbtab :=
  DbTab (want_cols d (t_columns t)) (t_pk t) (want_cons (t_constraints t)) (want_comment d (t_desc t)).
Definition want_members (ms : list member) : gmap string sqltype :=
  list_to_map (map (fun m => (m_name m, m_type m)) ms).
Definition want_struct (d : dialect) (s : structt) : dbobj :=
  OStruct (want_members (s_members s)) (match d with DPg => norm_comment (s_desc s) | _ => None end).
Definition want_enum (e : enumt) : dbobj := OEnum (list_to_set (e_values e)).

(** ** Well-formed tables *)
Definition col_names (t : table) : list string := map c_name (t_columns t).
(** An identity column is generated: it is not nullable and has no default. *)
Definition col_wf (c : column) : Prop :=
  c_identity c = true -> c_nullable c = false /\ c_default c = None.
Record tab_wf (d : dialect) (t : table) : Prop := {
  tw_cols : NoDup (col_names t);
  tw_col : forall c, In c (t_columns t) -> col_wf c;
  tw_pk : forall n, In n (t_pk t) -> In n (col_names t);
  tw_pk_null : forall c, In c (t_columns t) -> In (c_name c) (t_pk t) -> c_nullable c = false;
  tw_cons : NoDup (map k_name (t_constraints t));
  tw_own : forall k n, In k (t_constraints t) -> In n (own_cols k) -> In n (col_names t);
  (* SQL Server: names of default constraints are not used for table constraints *)
  tw_df : d = DMSSQL -> forall k n, In k (t_constraints t) -> k_name k <> df_name n }.

(** ** Pairs of tables that can be mutated into each other

    [migrates]: a text, enumeration or (PostgreSQL) user-typed column becomes an integer column; the
    generator then copies the values into a new column instead of altering the type. *)
Definition migrates (d : dialect) (a b : column) : Prop :=
  c_type a <> c_type b /\ is_int (c_type b) = true /\
  (is_enum (c_type a) = true \/ is_varchar (c_type a) = true \/ (d = DPg /\ is_user (c_type a) = true)).
(** an identity column that becomes an ordinary column stays NOT NULL *)
Definition ident_compat (s t : column) : Prop :=
  c_identity s = true -> c_identity t = false -> c_nullable t = false.
(** the same default text means the same default value before and after (Oracle spells timestamp
    defaults according to the column type) *)
Definition default_compat (d : dialect) (s t : column) : Prop :=
  c_default s = c_default t -> c_name s = c_name t -> want_default d s = want_default d t.

(** Delta and Snowflake use the general mutator: it leaves descriptions alone, and writes a new default as it is, although Snowflake
    spells timestamps with a type prefix and Delta has no defaults *)
Definition general (d : dialect) : Prop := d = DDelta \/ d = DSnow.
Definition default_as_is (d : dialect) (s t : column) : Prop :=
  c_default s = c_default t \/ forall e, c_default t = Some e -> want_default d t = Some (None, e).

Record tab_compat (d : dialect) (s t : table) : Prop := {
  tc_pk : t_pk s = t_pk t;
  tc_col : forall a b, In a (t_columns s) -> In b (t_columns t) -> c_name a = c_name b ->
           ident_compat a b /\ default_compat d a b;
  tc_mig : forall a b, In a (t_columns s) -> In b (t_columns t) -> c_name a = c_name b -> migrates d a b ->
           d <> DMSSQL /\ c_identity a = false /\ c_identity b = false
           /\ ~ In (deleted (c_name a)) (col_names s) /\ ~ In (deleted (c_name a)) (col_names t)
           /\ ~ In (c_name a) (t_pk s)
           /\ (forall k, In k (t_constraints s) -> is_alter k = true -> ~ In (c_name a) (own_cols k))
           /\ (d = DPg -> c_desc a = c_desc b -> want_comment d (c_desc b) = None);
  (* engines that drop constraints together with their columns *)
  tc_drop : eng_cascade (engine_of d) = true ->
            forall a k, In a (t_columns s) -> ~ In (c_name a) (col_names t) ->
            In k (t_constraints s) -> is_alter k = true -> ~ In (c_name a) (own_cols k);
  tc_general : general d -> t_desc s = t_desc t /\
            forall a b, In a (t_columns s) -> In b (t_columns t) -> c_name a = c_name b -> c_desc a = c_desc b /\ default_as_is d a b }.

(** A database table in the state that [s] describes.  The declared type of a column matters only if
    the mutation to [t] keeps it. *)
Record tab_like (d : dialect) (s t : table) (tb : dbtab) : Prop := {
  tl_pk : dt_pk tb = t_pk s;
  tl_cons : dt_cons tb = want_cons (t_constraints s);
  tl_comment : dt_comment tb = want_comment d (t_desc s);
  tl_dom : forall n, is_Some (dt_cols tb !! n) <-> In n (col_names s);
  tl_cols : forall a, In a (t_columns s) ->
            exists ty, dt_cols tb !! c_name a = Some (with_type ty (want_col d a))
                       /\ forall b, In b (t_columns t) -> c_name b = c_name a -> c_type a = c_type b -> ty = c_type a }.

(** ** Namespaces and catalogs *)
Definition ns_names (n : namespace) : list qid :=
  (map e_name (n_enums n) ++ map s_name (n_structs n) ++ map t_name (n_tables n))%list.
(** Objects live in the schema of their namespace (for flat name spaces: the schema without name), names are
    distinct across kinds, enumeration values and member names are distinct. *)
Record ns_wf (d : dialect) (n : namespace) : Prop := {
  nw_scope : forall q, In q (ns_names n) -> fst (key_of q) = n_name n;
  nw_keys : NoDup (map local_id (ns_names n));
  nw_enum : forall e, In e (n_enums n) -> NoDup (e_values e);
  nw_struct : forall x, In x (n_structs n) -> NoDup (map m_name (s_members x));
  nw_table : forall x, In x (n_tables n) -> tab_wf d x }.
Record cat_wf (d : dialect) (c : catalog) : Prop := {
  cw_names : NoDup (map n_name c);
  cw_ns : forall n, In n c -> ns_wf d n }.

(** the objects a namespace stands for *)
Definition ns_objs (d : dialect) (n : namespace) : list (okey * dbobj) :=
  (map (fun e => (key_of (e_name e), want_enum e)) (n_enums n)
   ++ map (fun x => (key_of (s_name x), want_struct d x)) (n_structs n)
   ++ map (fun x => (key_of (t_name x), OTable (want_tab d x))) (n_tables n))%list.
Definition cat_objs (d : dialect) (c : catalog) : gmap okey dbobj := list_to_map (flat_map (ns_objs d) c).
Definition cat_schemas (c : catalog) : gset string :=
  list_to_set (List.filter (fun s => negb (String.eqb s "")) (map n_name c)).
Definition cat_keys (c : catalog) : list okey := map key_of (flat_map ns_names c).

(** ** Pairs of catalogs *)
(** an enumeration type of the source that is replaced by a lookup table of the same name *)
Definition replaced (s t : catalog) (e : enumt) : Prop :=
  exists a b x, In a s /\ In b t /\ n_name a = n_name b /\ In e (n_enums a) /\ In x (n_tables b)
                /\ e_name e = t_name x /\ ~ In (e_key e) (map e_key (n_enums b)).
Definition types_of (n : namespace) : list sqltype :=
  (flat_map (fun x => map m_type (s_members x)) (n_structs n)
   ++ flat_map (fun x => map c_type (t_columns x)) (n_tables n))%list.
Definition plain (q : qid) : Prop := match q with Prefixed (Some _) _ => False | _ => True end.

Record ns_compat (d : dialect) (s t : namespace) : Prop := {
  nc_table : forall a b, In a (n_tables s) -> In b (n_tables t) -> t_key a = t_key b -> tab_compat d a b;
  (* a name keeps its kind, except that an enumeration may become a table *)
  nc_ids : forall e x, In e (n_enums s) -> In x (n_tables t) -> e_key e = t_key x -> e_name e = t_name x /\ plain (e_name e);
  nc_enum_kind : forall e x, In e (n_enums s) -> In x (n_structs t) -> e_key e <> s_key x;
  nc_struct_kind : forall x, In x (n_structs s) ->
                   ~ In (s_key x) (map e_key (n_enums t)) /\ ~ In (s_key x) (map t_key (n_tables t));
  nc_table_kind : forall x, In x (n_tables s) ->
                  ~ In (t_key x) (map e_key (n_enums t)) /\ ~ In (t_key x) (map s_key (n_structs t)) }.

(** A composite type in the state that [s] describes; types matter only where [t] keeps them. *)
Record struct_like (s t : structt) (ms : gmap string sqltype) : Prop := {
  sl_dom : forall n, is_Some (ms !! n) <-> In n (map m_name (s_members s));
  sl_ms : forall a, In a (s_members s) ->
          exists ty, ms !! m_name a = Some ty
                     /\ forall b, In b (s_members t) -> m_name b = m_name a -> m_type a = m_type b -> ty = m_type a }.
Definition struct_comment (d : dialect) (s : structt) : option string :=
  match d with DPg => norm_comment (s_desc s) | _ => None end.

(** The objects of namespace [s] as the mutation towards [t] finds them: types matter only where [t] keeps
    them. *)
Record ns_like (d : dialect) (s t : namespace) (D : db) : Prop := {
  nl_enum : forall e, In e (n_enums s) -> db_objs D !! key_of (e_name e) = Some (want_enum e);
  nl_struct : forall x, In x (n_structs s) ->
              exists ms, db_objs D !! key_of (s_name x) = Some (OStruct ms (struct_comment d x))
                         /\ forall y, In y (n_structs t) -> s_key y = s_key x -> struct_like x y ms;
  nl_table : forall x, In x (n_tables s) ->
             exists tb, db_objs D !! key_of (t_name x) = Some (OTable tb)
                        /\ forall y, In y (n_tables t) -> t_key y = t_key x -> tab_like d x y tb }.

(** ** Whole databases *)
(** The database contains the schemas and objects of the catalog. *)
Definition has_cat (d : dialect) (c : catalog) (D : db) : Prop :=
  (forall n, In n c -> n_name n = ""%string \/ n_name n ∈ db_schemas D)
  /\ forall n k x, In n c -> In (k, x) (ns_objs d n) -> db_objs D !! k = Some x.

(** the key under which the type of a replaced enumeration is parked during the mutation *)
Definition parked (e : enumt) : okey := (fst (key_of (e_name e)), deleted (local_id (e_name e))).
Record cat_compat (d : dialect) (s t : catalog) : Prop := {
  cc_ns : forall a b, In a s -> In b t -> n_name a = n_name b -> ns_compat d a b;
  (* no column or member of the target has the type of a replaced enumeration *)
  cc_free : forall e n ty q, replaced s t e -> In n t -> In ty (types_of n) -> In q (type_refs ty) -> key_of q <> key_of (e_name e);
  cc_parked : forall e, replaced s t e -> ~ In (parked e) (cat_keys t) }.
(** the names that the mutation creates are free *)
Record names_free (s t : catalog) (D : db) : Prop := {
  nf_keys : forall k, In k (cat_keys t) -> ~ In k (cat_keys s) -> db_objs D !! k = None;
  nf_schemas : forall n, In n t -> ~ In (n_name n) (map n_name s) -> n_name n = ""%string \/ n_name n ∉ db_schemas D;
  nf_parked : forall e, replaced s t e -> db_objs D !! parked e = None }.
(** DROP SCHEMA without CASCADE needs schemas that have no other objects *)
Definition cascades (d : dialect) : bool := match d with DPg | DDelta => true | _ => false end.
Definition own_schemas (d : dialect) (s t : catalog) (D : db) : Prop :=
  cascades d = false -> forall n k, In n s -> ~ In (n_name n) (map n_name t) -> n_name n <> ""%string -> fst k = n_name n ->
  ~ In k (cat_keys s) -> db_objs D !! k = None.
(** an object that mentions none of the replaced enumerations *)
Definition mentions_type (k : okey) (x : dbobj) : Prop :=
  match x with
  | OEnum _ => False
  | OStruct ms _ => exists n ty q, ms !! n = Some ty /\ In q (type_refs ty) /\ key_of q = k
  | OTable tb => exists n c q, dt_cols tb !! n = Some c /\ In q (type_refs (dc_type c)) /\ key_of q = k
  end.
