(** Specification of "equal definitions" and of the union of catalogs, independent of the
    library's [__eq__] and [merge]. *)
From Verif Require Import PyStr QuoteModel Types Objects.
From Coq Require Import List String Permutation.
Import ListNotations.

(** Two objects have the same definition: all attributes agree, members, columns and
    constraints in any order. *)
Definition same_enum (a b : enumt) : Prop := e_name a = e_name b /\ e_values a = e_values b.
Definition same_struct (a b : structt) : Prop :=
  s_name a = s_name b /\ Permutation (s_members a) (s_members b) /\ s_desc a = s_desc b.
Definition same_table (a b : table) : Prop :=
  t_name a = t_name b /\ Permutation (t_columns a) (t_columns b) /\ t_pk a = t_pk b /\
  Permutation (t_constraints a) (t_constraints b) /\ t_desc a = t_desc b /\
  (t_enum a = None <-> t_enum b = None).

(** Common objects of two catalogs agree. *)
Definition agree_ns (a b : namespace) : Prop :=
  (forall x y, In x (n_enums a) -> In y (n_enums b) -> e_key x = e_key y -> same_enum x y) /\
  (forall x y, In x (n_structs a) -> In y (n_structs b) -> s_key x = s_key y -> same_struct x y) /\
  (forall x y, In x (n_tables a) -> In y (n_tables b) -> t_key x = t_key y -> same_table x y).
Definition agree (a b : catalog) : Prop :=
  forall x y, In x a -> In y b -> n_name x = n_name y -> agree_ns x y.

(** [extends key a b m]: [m] is [a] followed by those items of [b] whose names are not in [a] *)
Definition extends {A} (key : A -> string) (a b m : list A) : Prop :=
  exists new, m = a ++ new /\
    (* the new items are the items of [b] that are not in [a], in the order of [b] *)
    (forall x, In x new <-> In x b /\ ~ In (key x) (map key a)) /\
    (exists f, new = filter f b).
Definition ns_extends (a b m : namespace) : Prop :=
  n_name m = n_name a /\ extends e_key (n_enums a) (n_enums b) (n_enums m) /\
  extends s_key (n_structs a) (n_structs b) (n_structs m) /\ extends t_key (n_tables a) (n_tables b) (n_tables m).
(** [m] has the namespaces of [a] in order, each extended by its namesake in [b] if there is one,
    followed by the namespaces of [b] that are not in [a], in the order of [b] *)
Definition cat_union (a b m : catalog) : Prop :=
  exists a' new, m = a' ++ new /\
    Forall2 (fun x x' => (exists y, In y b /\ n_name y = n_name x /\ ns_extends x y x') \/
                         (~ In (n_name x) (map n_name b) /\ x' = x)) a a' /\
    (forall x, In x new <-> In x b /\ ~ In (n_name x) (map n_name a)) /\ (exists f, new = filter f b).

(** [same_objects a b]: for each namespace and name, both catalogs have the object or neither has,
    and its definition is the same *)
Definition same_in {A} (key : A -> string) (same : A -> A -> Prop) (a b : list A) : Prop :=
  (forall x, In x a -> exists y, In y b /\ key x = key y /\ same x y) /\
  (forall y, In y b -> exists x, In x a /\ key x = key y /\ same x y).
Definition same_ns (a b : namespace) : Prop :=
  n_name a = n_name b /\ same_in e_key same_enum (n_enums a) (n_enums b) /\
  same_in s_key same_struct (n_structs a) (n_structs b) /\ same_in t_key same_table (n_tables a) (n_tables b).
Definition same_objects (a b : catalog) : Prop := same_in n_name same_ns a b.
