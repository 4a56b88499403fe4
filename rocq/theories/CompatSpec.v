(** The values that a type can hold. *)
From Verif Require Import PyStr QuoteModel Types.
Open Scope Z_scope.

(** Values: integers, single and double precision numbers, texts and byte strings by length, and anything else, which
    belongs to one type only. *)
Inductive value : Type := VInt (z : Z) | VSingle (x : Z) | VDouble (x : Z) | VText (len : Z) | VBytes (len : Z) | VOther (t : sqltype).
Definition within (mn mx : option Z) (z : Z) : Prop :=
  (forall m, mn = Some m -> m <= z) /\ (forall m, mx = Some m -> z <= m).
Definition at_most (limit : option Z) (n : Z) : Prop := forall m, limit = Some m -> n <= m.
(** [w] bytes *)
Definition int_range (w : Z) (signed : bool) (z : Z) : Prop :=
  if signed then - 2 ^ (8 * w - 1) <= z < 2 ^ (8 * w - 1) else 0 <= z < 2 ^ (8 * w).
(** integer types of positive width *)
Definition width_ok (t : sqltype) : Prop := match base_type t with TInt w _ _ _ => 1 <= w | _ => True end.
Definition is_unsigned (t : sqltype) : Prop := match base_type t with TInt _ s _ _ => s = false | _ => False end.
Definition width_of (t : sqltype) : Z := match base_type t with TInt w _ _ _ => w | _ => 0 end.

(** types of one engine: every kind of type is represented by one class *)
Inductive kind : Type := KInt | KReal | KDouble | KFixChar | KVarChar | KFixBin | KVarBin.
Definition kind_of (t : sqltype) : option kind :=
  match base_type t with
  | TInt _ _ _ _ => Some KInt | TReal => Some KReal | TDouble => Some KDouble | TFixChar _ => Some KFixChar | TVarChar _ => Some KVarChar
  | TFixBin _ => Some KFixBin | TVarBin _ => Some KVarBin | _ => None
  end.
(** A fixed-length type holds texts up to the length (shorter ones are padded); no limit means unlimited, as in the
    library. *)
Definition holds (t : sqltype) (v : value) : Prop :=
  match base_type t, v with
  | TInt w s mn mx, VInt z => int_range w s z /\ within mn mx z
  | TReal, VSingle _ => True
  | TDouble, (VSingle _ | VDouble _) => True
  | TFixChar l, VText n | TVarChar l, VText n => at_most l n
  | TFixBin l, VBytes n | TVarBin l, VBytes n => at_most l n
  | _, VOther u => kind_of t = None /\ t = u
  | _, _ => False
  end.
Fixpoint classes (t : sqltype) : list tcls := match t with TSub c u => c :: classes u | _ => [] end.
Definition one_engine (l : list sqltype) : Prop := exists cl : kind -> list tcls, forall t k, In t l -> kind_of t = Some k -> classes t = cl k.
(** no type with a constructor that takes no arguments *)
Definition no_bare_int (l : list sqltype) : Prop := forall t, In t l -> ~ In OraInt (classes t).
