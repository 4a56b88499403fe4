(** Specification: catalogs whose references can be resolved in creation order. *)
From Verif Require Import PyStr QuoteModel Types Objects SqlAst Ddl DbSpec CatSpec.
From stdpp Require Import gmap strings.

(** [q] names a type of namespace [n] *)
Definition type_of (n : namespace) (q : qid) : Prop :=
  (exists e, In e (n_enums n) /\ key_of (e_name e) = key_of q) \/ (exists x, In x (n_structs n) /\ key_of (s_name x) = key_of q).
(** The declared type [ty] itself is the type [q] of another namespace (not an array of it, say), and
    the reference names that namespace. *)
Definition other_type (c : catalog) (n : namespace) (ty : sqltype) (q : qid) : Prop :=
  user_ref ty = Some q /\ exists m, In m c /\ n_name m <> n_name n /\ scope_id q = Some (n_name m) /\ type_of m q.

Record refs_closed (c : catalog) : Prop := {
  (* composite types refer to enumerations and to composite types defined earlier in the namespace *)
  rc_member : forall n l1 x l2 m q, In n c -> n_structs n = (l1 ++ x :: l2)%list -> In m (s_members x) -> In q (type_refs (m_type m)) ->
    (exists e, In e (n_enums n) /\ key_of (e_name e) = key_of q) \/ (exists y, In y l1 /\ key_of (s_name y) = key_of q)
    \/ other_type c n (m_type m) q;
  rc_column : forall n x k q, In n c -> In x (n_tables n) -> In k (t_columns x) -> In q (type_refs (c_type k)) ->
    type_of n q \/ other_type c n (c_type k) q;
  (* foreign keys refer to primary keys of tables of the catalog *)
  rc_foreign : forall n x k cs rt rc, In n c -> In x (n_tables n) -> In (CForeign k cs rt rc) (t_constraints x) ->
    length cs = length rc /\ exists m y, In m c /\ In y (n_tables m) /\ key_of (t_name y) = key_of rt /\ t_pk y = rc }.

(** the names of the catalog are not in use *)
Definition unused (c : catalog) (D : db) : Prop :=
  (forall k, In k (cat_keys c) -> db_objs D !! k = None)
  /\ forall n, In n c -> n_name n = ""%string \/ n_name n ∉ db_schemas D.
(** the database with the catalog added *)
Definition plus_cat (d : dialect) (c : catalog) (D : db) : db :=
  Db (db_schemas D ∪ cat_schemas c) (cat_objs d c ∪ db_objs D).
