(** Specification: classes whose catalog can be written as a script (C61).  The texts in the classes (labels, defaults,
    descriptions) must be such that the engine reads a literal as it is meant (see C49 for what MySQL does not), and a
    default that is not a text, a truth value or an integer must be an expression. *)
From Verif Require Import PyStr QuoteModel QuoteSpec Types Objects SqlAst Ddl SqlText TextSpec Convert ConvertSpec CloseSpec.
From Coq Require Import List.
Open Scope string_scope.

Definition label_ok (d : dialect) (e : evalue) : Prop :=
  text_ok d (ev_text e) /\
  match e with EObj _ vs _ => vs <> [] /\ Forall (scalar_ok d) vs | EStr s => text_ok d s | _ => True end.
Definition default_ok (d : dialect) (x : dflt) : Prop :=
  match x with DVal v => scalar_ok d v | DText e => expr_ok d e | _ => True end.
(** MySQL is given the first lines of descriptions *)
Definition described (d : dialect) (k : classdef) : Prop :=
  match k with
  | KData _ _ doc params => d = DMySQL -> (forall x, doc = Some x -> text_ok d (first_line x)) /\ forall n x, In (n, x) params -> text_ok d (first_line x)
  | _ => True
  end.

(** the class of the values of an enumeration *)
Definition value_class (env : cid -> classdef) (refs : list cid) (v : cid) : Prop :=
  exists c vs x s, In c refs /\ env c = KEnum vs /\ In (EObj v x s) vs.

Record writable (d : dialect) (env : cid -> classdef) (o : copts) (refs : list cid) : Prop := Writable {
  wr_defaults : forall f, relevant env refs f -> default_ok d (f_default f);
  wr_labels : forall c vs e, In c refs -> env c = KEnum vs -> In e vs -> label_ok d e;
  wr_docs : forall c, In c refs \/ value_class env refs c -> described d (env c);
  (* values of an enumeration have attributes, and these are not generated *)
  wr_values : forall v, value_class env refs v -> data_fields env v <> [] /\ forall f, In f (data_fields env v) -> ~ tagged MIdentity (f_type f);
  (* a structure that becomes a type has members; structures are not written as part of a column *)
  wr_members : forall c fs a x ps, In c refs -> env c = KData fs a x ps -> fs <> [];
  wr_inline : o_struct o <> SmInline;
  (* types given in the options can be written, and are not enumerations *)
  wr_subst : forall t s, In (t, s) (o_subst o) -> type_ok d s /\ forall vs, base_type s <> TEnum vs;
  (* SQL Server: CREATE SCHEMA is inside a literal (C50) *)
  wr_schemas : d = DMSSQL -> forall m n, In (m, Some n) (o_ns o) -> has_char QT n = false }.
