(** Specification for C66: what a class derived from another one is to look like.  Uses the syntax of types and classes only. *)
From Verif Require Import PyStr Types Convert ConvertSpec Entity.
From Coq Require Import List.
Import ListNotations.
Open Scope string_scope.
Open Scope list_scope.

(** Python's rules for the fields of a data-class *)
Definition required (m : mfield) : Prop := m_factory m = false /\ f_default (m_field m) = DMissing.
Definition legal (l : list mfield) : Prop :=
  NoDup (map m_name l) /\ forall a m b n c, l = a ++ m :: b ++ n :: c -> required n -> required m.

(** a type whose values are objects of class [c], and perhaps [None] *)
Definition of_class (t : pytype) (c : cid) : Prop :=
  exists a b, annotated t a /\ annotated b (YCls c) /\
    (a = b \/ exists l, a = YUnion l /\ In b l /\ forall x, In x l -> x = b \/ x = YNone \/ x = YDefault).
(** no union is hidden behind an annotation inside of a union *)
Definition open_unions (t : pytype) : Prop := forall l m ms, annotated t (YUnion l) -> ~ In (YAnn (YUnion m) ms) l.
(** a data-class without primary key *)
Definition struct (env : cid -> classdef) (c : cid) : Prop := exists fs a d ps, env c = KData fs a d ps /\ forall f, In f fs -> ~ key_field f.
Definition struct_field (env : cid -> classdef) (f : dfield) (c : cid) : Prop := of_class (f_type f) c /\ struct env c.

(** the fields of the flat class: a field of a structure is replaced by the fields of the structure *)
Inductive flat (env : cid -> classdef) : list dfield -> list (string * pytype * dflt) -> Prop :=
| flat_nil : flat env [] []
| flat_field f fs r : (forall c, ~ struct_field env f c) -> flat env fs r -> flat env (f :: fs) ((f_name f, f_type f, f_default f) :: r)
| flat_struct f c gs a d ps fs r : struct_field env f c -> env c = KData gs a d ps -> flat env fs r ->
    flat env (f :: fs) (map (fun g => ((f_name f ++ "__" ++ f_name g)%string, f_type g, f_default g)) gs ++ r).

(** [T] annotated as primary key, in addition to the annotations that it has *)
Definition keyed (t t' : pytype) : Prop :=
  ((forall u ns, t <> YAnn u ns) /\ t' = YAnn t [MPrimary]) \/ (exists u ns, t = YAnn u ns /\ t' = YAnn u (ns ++ [MPrimary])).
