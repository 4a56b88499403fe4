(** Specification: the data-class of a table (C38). *)
From Verif Require Import PyStr QuoteModel Types Objects Convert ConvertDialects Reverse.
Open Scope string_scope.

(** constraints by which a column refers to other tables *)
Inductive refers_from (col : string) : constr -> list qid -> Prop :=
| rf_foreign n cols q keys : In col cols -> refers_from col (CForeign n cols q keys) [q]
| rf_discr n cols refs : In col cols -> refers_from col (CDiscr n cols refs) (map fst refs).

(** the field that stands for a column: its name, with an underscore if Python reserves the word; its default; optional if the
    column is nullable; but if the column refers to other tables, the names of their classes *)
Record field_for (tbl : table) (col : column) (f : gfield) : Prop := FieldFor {
  ff_name : gf_name f = c_name col \/ (In (c_name col) keywords /\ gf_name f = c_name col ++ "_");
  ff_default : gf_default f = c_default col;
  ff_plain : (forall k qs, In k (t_constraints tbl) -> ~ refers_from (c_name col) k qs) ->
             exists t, to_python (c_type col) = Ok t /\ gf_type f = (if c_nullable col then GOptional t else t);
  ff_reference : forall k qs, In k (t_constraints tbl) -> refers_from (c_name col) k qs ->
             (exists s, gf_type f = GText s) \/ (exists l, gf_type f = GUnion l) }.

(** the dotted name of the class of a table: its module by the options, its name, with an underscore if Python reserves the word *)
Definition class_text (modules : list (option string * string)) (q : qid) (s : string) : Prop :=
  exists m c, In (scope_id q, m) modules /\ s = m ++ "." ++ c /\
    (~ In (local_id q) keywords /\ c = local_id q \/ In (local_id q) keywords /\ c = local_id q ++ "_").

(** column types that are those of the Python types that they become, by dialect *)
Definition machine_width (w : Z) : Prop := w = 2%Z \/ w = 4%Z \/ w = 8%Z.
Inductive same_everywhere : sqltype -> Prop :=
| se_float p : same_everywhere (TFloat (Some p))
| se_decimal : same_everywhere (TDecimal None None)
| se_real : same_everywhere TReal
| se_double : same_everywhere TDouble
| se_date : same_everywhere TDate.
Inductive reversible : dialect -> sqltype -> Prop :=
| rv_same d t : In d [DPostgres; DMySQL; DMSSQL; DOracle] -> same_everywhere t -> reversible d t
| rv_int d w : In d [DPostgres; DMySQL; DMSSQL] -> machine_width w -> reversible d (TInt w true None None)
| rv_bool d : In d [DPostgres; DOracle] -> reversible d TBool
| rv_time d p : In d [DPostgres; DMySQL; DMSSQL] -> reversible d (TTime p false)
| rv_pg_timestamp p : reversible DPostgres (TTimestamp p false)
| rv_pg_text l : reversible DPostgres (TVarChar l)
| rv_pg_uuid : reversible DPostgres TUuid
| rv_my_timestamp p : reversible DMySQL (TSub MyDateTime (TTimestamp p false))
| rv_my_text n : reversible DMySQL (TSub MyVarChar (TVarChar (Some n)))
| rv_ms_bool : reversible DMSSQL (TSub MsBool TBool)
| rv_ms_timestamp n : reversible DMSSQL (TSub MsDateTime (TTimestamp (Some n) false))
| rv_ms_text l : reversible DMSSQL (TSub MsVarChar (TVarChar l))
| rv_ora_int : reversible DOracle (TSub OraInt (TInt 8 true None None))
| rv_ora_time p : reversible DOracle (TSub OraTime (TTime p false))
| rv_ora_timestamp p : reversible DOracle (TSub OraTimestamp (TTimestamp p false))
| rv_ora_text l : reversible DOracle (TSub OraVarChar (TVarChar l)).

(** columns whose type another one comes back for, or none at all *)
Inductive irreversible : sqltype -> Prop :=
| ir_decimal p s : irreversible (TDecimal (Some p) s)
| ir_timestamp p : irreversible (TTimestamp p true)
| ir_time p : irreversible (TTime p true)
| ir_char n : irreversible (TFixChar (Some n))
| ir_json : irreversible TJson
| ir_float : irreversible (TFloat None)
| ir_sub c t : irreversible t -> irreversible (TSub c t).
