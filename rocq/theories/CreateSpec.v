(** Specification: classes whose catalog can be created in a database (C59). *)
From Verif Require Import PyStr QuoteModel Types Objects Convert ConvertSpec CloseSpec.
From Coq Require Import List Permutation.
Open Scope string_scope.

(** collections of a class, of an optional class, and so on *)
Inductive collects : pytype -> cid -> Prop :=
| cl_list t c : mentions t c -> collects (YList t) c
| cl_set t c : mentions t c -> collects (YSet t) c
| cl_ann t ms c : collects t c -> collects (YAnn t ms) c
| cl_union l t c : In t l -> collects t c -> collects (YUnion l) c.
(** unions that a type is made of *)
Inductive chooses : pytype -> list pytype -> Prop :=
| ch_here l : chooses (YUnion l) l
| ch_ann t ms l : chooses t l -> chooses (YAnn t ms) l
| ch_union m t l : In t m -> chooses t l -> chooses (YUnion m) l.
(** the fields that become columns or members in the schema of module [m]: of its classes, and of the values of its
    enumerations *)
Inductive field_in (env : cid -> classdef) (refs : list cid) (m : string) (f : dfield) : Prop :=
| fi_class c : In c refs -> fst c = m -> In f (data_fields env c) -> field_in env refs m f
| fi_value c vs d x s : In c refs -> fst c = m -> env c = KEnum vs -> In (EObj d x s) vs -> In f (data_fields env d) -> field_in env refs m f.
Definition enumeration (env : cid -> classdef) (c : cid) : Prop := exists vs, env c = KEnum vs.
Definition structure (env : cid -> classdef) (c : cid) : Prop := (exists fs a d ps, env c = KData fs a d ps) /\ ~ entity env c.
(** a list of classes in which every structure comes after the structures that its fields mention *)
Definition dependencies_first (env : cid -> classdef) (l : list cid) : Prop :=
  forall l1 c l2 f d, l = (l1 ++ c :: l2)%list -> In f (data_fields env c) -> mentions (f_type f) d -> In d l -> In d l1.

Definition as_relation (o : copts) : bool := match o_array o with AmRelation => true | _ => false end.

Record creatable (env : cid -> classdef) (o : copts) (refs : list cid) : Prop := Creatable {
  cr_set : List.NoDup refs;
  cr_types : forall f, relevant env refs f -> py_wf (f_type f);
  (* a field with generated values is neither optional nor has it a default *)
  cr_identity : forall f, relevant env refs f -> tagged MIdentity (f_type f) ->
                ~ admits_none (f_type f) /\ (f_default f = DMissing \/ f_default f = DNone);
  (* a key is not optional, not a collection and not a structure *)
  cr_keys : forall c f, In c refs -> In f (data_fields env c) -> key_field f ->
            ~ admits_none (f_type f) /\ ~ joined env (as_relation o) (f_type f) /\
            (forall d, ~ collects (f_type f) d) /\ (forall d, mentions (f_type f) d -> ~ structure env d);
  (* a collection that becomes a table is not declared to be unique *)
  cr_unique : forall c f, In c refs -> In f (data_fields env c) -> joined env (as_relation o) (f_type f) -> ~ tagged MUnique (f_type f);
  (* enumerations that become types have different texts, and are not extended by strings *)
  cr_values : forall c vs, o_enum o = EmType -> In c refs -> env c = KEnum vs -> List.NoDup (map ev_text vs);
  cr_choices : forall c f e l, o_enum o = EmType -> In c refs -> In f (data_fields env c) -> mentions (f_type f) e -> enumeration env e ->
               chooses (f_type f) l -> exists u, Permutation l [u; YNone];
  (* ... and do not occur in structures that are part of columns *)
  cr_inline : o_enum o = EmType -> o_struct o <> SmInline;
  (* a collection does not refer to types of another module *)
  cr_arrays : forall m f d, o_array o = AmArray -> field_in env refs m f -> collects (f_type f) d -> entity env d \/ fst d = m;
  (* if a module has no schema, there is no other module *)
  cr_named : o_enum o = EmType \/ o_struct o = SmType -> forall m m' n', In (m, None) (o_ns o) -> In (m', n') (o_ns o) -> m' = m }.
