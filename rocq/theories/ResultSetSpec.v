(** What a result set holds, and what an object is expected to hold. *)
From Verif Require Import PyStr ResultSet.
Open Scope list_scope.

Section Spec.
  Context {V : Type}.
  (** distinct column names, and rows as wide as the header *)
  Definition rs_ok (rs : resultset V) : Prop :=
    NoDup (rs_columns rs) /\ forall r, In r (rs_rows rs) -> length r = length (rs_columns rs).
  (** the value of column [c] in row [i] *)
  Definition cell (rs : resultset V) (i : nat) (c : string) (v : V) : Prop :=
    exists r j, nth_error (rs_rows rs) i = Some r /\ nth_error (rs_columns rs) j = Some c /\ nth_error r j = Some v.
  (** the value of field [f] of an object *)
  Definition field (o : obj V) (f : string) (v : V) : Prop := In (f, v) o.
  (** a class can be built from named values: no unknown name, and every field is named or has a default *)
  Definition fits_mapping (fs : cls V) (columns : list string) : Prop :=
    (forall c, In c columns -> In c (map fst fs)) /\ (forall f d, In (f, d) fs -> In f columns \/ d <> None).
  Definition fits_object (fs : cls V) (columns : list string) : Prop := forall f, In f (map fst fs) -> In f columns.
End Spec.
