(** Vocabulary for the theorems about data manipulation: what a record says about a column, which
    columns identify rows, and which rows a record hits. *)
From Verif Require Import PyStr QuoteModel Types Objects Dml RowSpec.
Open Scope list_scope.

(** value [v] is at the position of column [c] in the record *)
Definition record_value {V} (cols : list string) (rec : list (option V)) (c : string) (v : option V) : Prop :=
  exists i, nth_error cols i = Some c /\ nth_error rec i = Some v.

(** columns whose value identifies a row: the primary key and columns with a unique constraint of their own *)
Definition lookup_key (t : table) (c : string) : Prop :=
  t_pk t = [c] \/ exists n, In (CUnique n [c]) (t_constraints t).

(** the record agrees with the row on a non-NULL value of an identifying column *)
Definition hit {V} (t : table) (cols : list string) (rec : list (option V)) (r : string -> option V) : Prop :=
  exists c v, lookup_key t c /\ record_value cols rec c (Some v) /\ r c = Some v.

(** listed columns that are not generated *)
Definition plain (cs : list column) (c : string) : Prop :=
  exists k, In k cs /\ c_name k = c /\ c_identity k = false.

Definition same_row {V} (r s : string -> option V) : Prop := forall c, r c = s c.
Definition same_rows {V} (R S : list (string -> option V)) : Prop := Forall2 same_row R S.

(** the column sets whose values the database keeps unique *)
Definition table_keys (t : table) : list (list string) :=
  match t_pk t with [] => [] | k => [k] end ++
  flat_map (fun k => match k with CUnique _ cs => [cs] | _ => [] end) (t_constraints t).

(** columns that an upsert overwrites in a matched row: listed, not generated, not identifying *)
Definition overwritten (t : table) (cs : list column) (c : string) : Prop := plain cs c /\ ~ lookup_key t c.

(** the record has a value in an identifying column that an insertion writes *)
Definition identified {V} (t : table) (cs : list column) (rec : list (option V)) : Prop :=
  exists c v, lookup_key t c /\ plain cs c /\ record_value (names cs) rec c (Some v).

(** the record agrees with the row on the primary key (PostgreSQL, MySQL) *)
Definition pk_hit {V} (t : table) (cols : list string) (rec : list (option V)) (r : string -> option V) : Prop :=
  forall c, In c (t_pk t) -> exists v, record_value cols rec c (Some v) /\ r c = Some v.
Definition pk_given {V} (t : table) (cols : list string) (rec : list (option V)) : Prop :=
  forall c, In c (t_pk t) -> exists v, record_value cols rec c (Some v).
(** columns outside the primary key that are not generated *)
Definition value_column (t : table) (c : string) : Prop := plain (t_columns t) c /\ ~ In c (t_pk t).

(** what a batch must do, given which rows a record hits and which columns it overwrites *)
Section Batch.
  Context {V : Type} (hits : list (option V) -> (string -> option V) -> Prop)
          (over : string -> Prop) (cols : list string).
  (** rows keep their places; columns that are not overwritten and rows that are not hit are unchanged;
      other rows come after *)
  Definition framed (rows : list (string -> option V)) (recs : list (list (option V))) (rows' : list (string -> option V)) : Prop :=
    exists old new, rows' = old ++ new /\
      Forall2 (fun r r' => (forall c, ~ over c -> r' c = r c)
                        /\ ((forall x, In x recs -> ~ hits x r) -> same_row r' r)) rows old.
  (** every record is stored, and a row has the values of the last record that hits it *)
  Definition stored (recs : list (list (option V))) (rows' : list (string -> option V)) : Prop :=
    forall p1 x p2, recs = p1 ++ x :: p2 ->
      (exists r, In r rows' /\ hits x r) /\
      (forall r, In r rows' -> hits x r -> (forall y, In y p2 -> ~ hits y r) ->
         forall c, over c -> record_value cols x c (r c)).
End Batch.

(** occurrences of a character *)
Fixpoint count_char (c : Ascii.ascii) (s : string) : nat :=
  match s with
  | EmptyString => 0
  | String x r => (if Ascii.eqb x c then 1 else 0) + count_char c r
  end.
