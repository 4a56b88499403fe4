(** Specification: closed catalogs (C35).  What a catalog refers to, and what is assumed about the classes and options from
    which it is converted. *)
From Verif Require Import PyStr QuoteModel Types Objects Convert ConvertSpec.
From Coq Require Import List.
Open Scope string_scope.

(** ** Closed catalogs *)

(** the references that a constraint makes: columns, target table, columns of the target *)
Inductive refers : constr -> list string -> qid -> list string -> Prop :=
| ref_foreign n cols q keys : refers (CForeign n cols q keys) cols q keys
| ref_discr n cols refs q keys : In (q, keys) refs -> refers (CDiscr n cols refs) cols q keys.

(** a table of the catalog, in the namespace that its identifier names *)
Definition located (cat : catalog) (q : qid) (t : table) : Prop :=
  exists n, In n cat /\ n_name n = match scope_id q with Some s => s | None => "" end /\ In t (n_tables n) /\ t_name t = q.
Definition has_column (t : table) (n : string) (s : sqltype) : Prop := exists c, In c (t_columns t) /\ c_name c = n /\ c_type c = s.

(** every reference is from columns of the table to the primary key of a table of the catalog, of the same types *)
Definition foreign_keys_closed (cat : catalog) : Prop :=
  forall n t k cols q keys, In n cat -> In t (n_tables n) -> In k (t_constraints t) -> refers k cols q keys ->
  exists t', located cat q t' /\ t_pk t' = keys /\
             Forall2 (fun c k => exists s, has_column t c s /\ has_column t' k s) cols keys.

(** the named types that a type is made of *)
Inductive uses : sqltype -> qid -> Prop :=
| use_here q : uses (TUser q) q
| use_array t q : uses t q -> uses (TArray t) q
| use_sub c t q : uses t q -> uses (TSub c t) q
| use_struct l n t b q : In (n, t, b) l -> uses t q -> uses (TStruct l) q.
(** a type of the catalog, in the namespace that its identifier names *)
Definition type_located (cat : catalog) (q : qid) : Prop :=
  exists n, In n cat /\ n_name n = match scope_id q with Some s => s | None => "" end /\
            ((exists e, In e (n_enums n) /\ e_name e = q) \/ (exists s, In s (n_structs n) /\ s_name s = q)).
(** types of columns and of members of structures are of the engine ([Global], such as inet) or of the catalog *)
Definition types_closed (cat : catalog) : Prop :=
  forall n s q, In n cat -> uses s q ->
  (exists t, In t (n_tables n) /\ exists c, In c (t_columns t) /\ c_type c = s) \/
  (exists u, In u (n_structs n) /\ exists m, In m (s_members u) /\ m_type m = s) ->
  (exists g, q = Global g) \/ type_located cat q.

(** ** Assumptions *)

(** classes that occur in a type *)
Inductive mentions : pytype -> cid -> Prop :=
| mn_cls c : mentions (YCls c) c
| mn_fwd c : mentions (YFwd c) c
| mn_ann t ms c : mentions t c -> mentions (YAnn t ms) c
| mn_union l t c : In t l -> mentions t c -> mentions (YUnion l) c
| mn_list t c : mentions t c -> mentions (YList t) c
| mn_set t c : mentions t c -> mentions (YSet t) c.

(** the set contains the classes that fields of its classes refer to, and these are enumerations and data-classes *)
Definition complete (env : cid -> classdef) (refs : list cid) : Prop :=
  forall c f d, In c refs -> In f (data_fields env c) -> mentions (f_type f) d -> In d refs /\ env d <> KOther.

Fixpoint underscore (s : string) : Prop :=
  match s with "" => False | String c r => c = "_"%char \/ underscore r end.

Record ordinary (env : cid -> classdef) (o : copts) (refs : list cid) : Prop := Ordinary {
  (* fields of a class have different names *)
  ord_fields : forall c, In c refs -> NoDup (map f_name (data_fields env c)) /\ ~ In "" (map f_name (data_fields env c));
  (* the key annotation is not hidden inside of an optional type *)
  ord_keys : forall c f, In c refs -> In f (data_fields env c) -> tagged MPrimary (f_type f) -> key_field f;
  (* names of classes have no underscore *)
  ord_names : forall c, In c refs -> ~ underscore (snd c);
  (* a field does not refer to a class of another module that has the name of the class itself *)
  ord_same : forall c f d, In c refs -> In f (data_fields env c) -> mentions (f_type f) d -> snd d = snd c -> d = c;
  (* modules are mapped to different schemas; the names of schemas have no underscore if they are put in front of names *)
  ord_schemas : forall m n m' n', In (m, n) (o_ns o) -> In (m', n') (o_ns o) -> or_empty n = or_empty n' -> m = m' /\ n = n';
  ord_prefix : o_qualified o = false -> forall m n, In (m, Some n) (o_ns o) -> n <> "" /\ ~ underscore n;
  (* SQL types are not substituted for classes and collections *)
  ord_subst : forall t s, In (t, s) (o_subst o) -> (forall c, ~ mentions t c) /\ (forall e, ~ annotated t (YList e) /\ ~ annotated t (YSet e));
  (* the values of an enumeration do not have an attribute that is called like the key of its table *)
  ord_values : forall c vs d x s, In c refs -> env c = KEnum vs -> In (EObj d x s) vs -> ~ In "id" (map f_name (data_fields env d)) }.

(** collections of a class *)
Inductive lists : pytype -> cid -> Prop :=
| li_list c : lists (YList (YCls c)) c
| li_set c : lists (YSet (YCls c)) c
| li_ann t ms c : lists t c -> lists (YAnn t ms) c
| li_union l t c : In t l -> lists t c -> lists (YUnion l) c.
(** the fields whose types occur in the catalog: of classes, and of the values of enumerations *)
Inductive relevant (env : cid -> classdef) (refs : list cid) (f : dfield) : Prop :=
| rl_class c : In c refs -> In f (data_fields env c) -> relevant env refs f
| rl_value c vs d x s : In c refs -> env c = KEnum vs -> In (EObj d x s) vs -> In f (data_fields env d) -> relevant env refs f.

Record ordinary_types (env : cid -> classdef) (o : copts) (refs : list cid) : Prop := OrdinaryTypes {
  (* the set contains all classes that fields refer to *)
  ot_complete : forall f d, relevant env refs f -> mentions (f_type f) d -> In d refs /\ env d <> KOther;
  (* names are qualified by a schema, if enumerations or structures become types *)
  ot_qualified : o_enum o = EmType \/ o_struct o = SmType -> o_qualified o = true;
  (* enumerations have at least two members, if they become types *)
  ot_members : forall c vs, o_enum o = EmType -> In c refs -> env c = KEnum vs -> (2 <= length vs)%nat;
  (* every module has an entity *)
  ot_modules : forall c, In c refs -> exists e, In e refs /\ entity env e /\ fst e = fst c;
  (* there is no array of structures, unless structures become types *)
  ot_arrays : forall f d, o_array o = AmArray -> o_struct o <> SmType -> relevant env refs f -> lists (f_type f) d ->
              exists vs, env d = KEnum vs;
  ot_builtin : forall m n, In (m, n) (o_ns o) -> m <> "builtins" /\ m <> "pysqlsync.model.key_types";
  ot_subst : forall t s q, In (t, s) (o_subst o) -> uses s q -> exists g, q = Global g }.
