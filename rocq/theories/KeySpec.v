(** Specification: catalogs whose collections have distinct names, as Python dictionaries guarantee. *)
From Verif Require Import PyStr QuoteModel Types Objects.
From Coq Require Import List String.

Record table_keyed (t : table) : Prop := {
  tk_cols : NoDup (map c_name (t_columns t));
  tk_cons : NoDup (map k_name (t_constraints t)) }.
Record ns_keyed (n : namespace) : Prop := {
  nk_enums : NoDup (map e_key (n_enums n));
  nk_structs : NoDup (map s_key (n_structs n));
  nk_tables : NoDup (map t_key (n_tables n));
  nk_members : forall x, In x (n_structs n) -> NoDup (map m_name (s_members x));
  nk_table : forall x, In x (n_tables n) -> table_keyed x }.
Record cat_keyed (c : catalog) : Prop := {
  ck_names : NoDup (map n_name c);
  ck_ns : forall n, In n c -> ns_keyed n }.
