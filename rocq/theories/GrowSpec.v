(** Specification: catalogs that are extended by namespaces, types and tables (C62). *)
From Verif Require Import PyStr QuoteModel Types Objects SqlAst Ddl Mutate DbSpec CatSpec SortSpec Convert.
From Coq Require Import List.
From stdpp Require Import gmap strings.

(** every namespace of [s] is in [t], with all of its types and tables, as they are *)
Definition part_of (s t : catalog) : Prop :=
  forall a, In a s -> exists b, In b t /\ n_name a = n_name b /\
    List.incl (n_enums a) (n_enums b) /\ List.incl (n_structs a) (n_structs b) /\ List.incl (n_tables a) (n_tables b).
(** the names that are added are not used *)
Definition room (s t : catalog) (D : db) : Prop :=
  (forall k, In k (cat_keys t) -> ~ In k (cat_keys s) -> db_objs D !! k = None) /\
  (forall n, In n t -> ~ In (n_name n) (map n_name s) -> n_name n = ""%string \/ n_name n ∉ db_schemas D).
(** where names have the schema in front of them: either all modules have a schema, or none has *)
Definition prefixed_alike (o : copts) : Prop :=
  o_qualified o = false -> forall m m' k, In (m, None) (o_ns o) -> ~ In (m', Some k) (o_ns o).
(** statements that only add: what they create, fill, constrain or comment on is not among the objects of [s]; none drops,
    renames or changes anything *)
Definition only_adds (s : catalog) (st : stmt) : Prop :=
  match st with
  | SCreateSchema _ n => ~ In n (map n_name s)
  | SCreateEnum q _ | SCreateStruct q _ | SCreateTable q _ _ _ _ | SCommentTable q _ | SCommentColumn q _ _ | SCommentType q _
  | SInsert q _ _ NoClause => ~ In (key_of q) (cat_keys s)
  | SAlterTable q acts => ~ In (key_of q) (cat_keys s) /\ forall a, In a acts -> exists k, a = AAddConstraint k
  | _ => False
  end.
(** The objects of [t] that a namespace of [t] refers to (in the declared type of a column or member, or in a foreign key) and
    that [s] does not have, are in the same namespace, or in a namespace that [s] does not have. *)
Definition local_news (s t : catalog) : Prop :=
  forall n q, In n t -> SortSpec.uses n q -> In (key_of q) (cat_keys t) ->
  In (key_of q) (cat_keys s) \/ fst (key_of q) = n_name n \/ ~ In (fst (key_of q)) (map n_name s).
