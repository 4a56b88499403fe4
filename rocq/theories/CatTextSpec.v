(** Specification for C54: what the catalogs must be like for their scripts to be read. *)
From Verif Require Import PyStr QuoteModel QuoteSpec Types Objects SqlAst Ddl SqlText TextSpec.
From Coq Require Import String List Bool.
Import ListNotations.
Open Scope list_scope.

(** types and defaults can be written; an enumeration has labels; MySQL puts the first line of a description in
    apostrophes *)
Definition col_text (d : dialect) (c : column) : Prop :=
  type_ok d (c_type c)
  /\ (forall e, c_default c = Some e -> expr_ok d e)
  /\ (forall vs, base_type (c_type c) = TEnum vs -> vs <> [] /\ Forall (text_ok d) vs)
  /\ (d = DMySQL -> forall x, c_desc c = Some x -> text_ok d (first_line x)).
Definition table_text (d : dialect) (t : table) : Prop :=
  name_ok (t_name t) /\ t_pk t <> []
  /\ (forall c, In c (t_columns t) -> col_text d c)
  /\ (forall k, In k (t_constraints t) -> is_alter k = true -> constr_ok d k)
  /\ (d = DMySQL -> forall x, t_desc t = Some x -> text_ok d (first_line x))
  (* an enumeration table has rows and a column for them *)
  /\ (forall vs, t_enum t = Some vs -> vs <> [] /\ Forall (row_ok d) vs
        /\ exists c, In c (t_columns t) /\ ~ In (c_name c) (t_pk t) /\ c_identity c = false).
Definition enum_text (d : dialect) (e : enumt) : Prop :=
  name_ok (e_name e) /\ e_values e <> [] /\ Forall (text_ok d) (e_values e).
Definition struct_text (d : dialect) (s : structt) : Prop :=
  name_ok (s_name s) /\ s_members s <> [] /\ forall m, In m (s_members s) -> type_ok d (m_type m).
Definition cat_text (d : dialect) (c : catalog) : Prop :=
  forall n, In n c ->
    (d = DMSSQL -> has_char QT (n_name n) = false)
    /\ (forall e, In e (n_enums n) -> enum_text d e)
    /\ (forall s, In s (n_structs n) -> struct_text d s)
    /\ (forall t, In t (n_tables n) -> table_text d t).

(** What the code writes and the engine does not have: RENAME COLUMN on SQL Server; ADD COLUMN and several
    actions in one ALTER TABLE on Oracle. *)
Definition engine_has (d : dialect) (s : stmt) : Prop :=
  match d, s with
  | DMSSQL, SAlterTable _ acts => forall n m, ~ In (ARenameColumn n m) acts
  | DOracle, SAlterTable _ acts => length acts = 1 /\ forall c, ~ In (AAddColumn c) acts
  | _, _ => True
  end.
