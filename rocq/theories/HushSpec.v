(** Specification: the same catalog without the descriptions of tables and columns. *)
From Verif Require Import PyStr Types Objects Ddl.
From Coq Require Import List.

Definition hush_col (c : column) : column := Col (c_name c) (c_type c) (c_nullable c) (c_default c) (c_identity c) None.
Definition hush_tab (t : table) : table := Tab (t_name t) (map hush_col (t_columns t)) (t_pk t) (t_constraints t) None (t_enum t).
Definition hush_ns (n : namespace) : namespace := Ns (n_name n) (n_enums n) (n_structs n) (map hush_tab (n_tables n)).
Definition hush (c : catalog) : catalog := map hush_ns c.
(** the engines that pysqlsync never gives a comment to *)
Definition silent (d : dialect) : Prop := d = DMSSQL \/ d = DOracle.
