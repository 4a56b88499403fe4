(** Model of type unification: pysqlsync/model/data_types.py:345-407. *)
From Verif Require Import PyStr QuoteModel Types.
Open Scope Z_scope.

(** [max_or_none], 355-359 *)
Definition max_or_none (a b : option Z) : option Z :=
  match a, b with Some x, Some y => Some (Z.max x y) | _, _ => None end.

(** [type(t)(...)] where the keyword arguments are the fields of [u]: an instance of the class of [t].
    [OracleIntegerType] takes no arguments (dialect/oracle/data_types.py:20-21): TypeError.  The encoding of the SQL
    Server character type is not a field and is lost (set to None). *)
Fixpoint same_class (t u : sqltype) : res sqltype :=
  match t with
  | TSub OraInt _ => Err "TypeError"
  | TSub c t' => do u' <- same_class t' u; Ok (TSub c u')
  | _ => Ok u
  end.

(** [_compatible_type], 362-407; [isinstance] is a test on [base_type] *)
Definition compat2 (l r : sqltype) : res sqltype :=
  if type_eqb l r then Ok l else
  match base_type l, base_type r with
  | TInt w _ _ _, TInt w' _ _ _ => same_class l (TInt (Z.max w w') true None None)
  | TReal, TReal => same_class l TReal
  | TReal, TDouble => same_class r TDouble
  | TDouble, TReal | TDouble, TDouble => same_class l TDouble
  | TFixChar a, TFixChar b => same_class l (TFixChar (max_or_none a b))
  | TFixChar a, TVarChar b => same_class r (TVarChar (max_or_none a b))
  | TVarChar a, TFixChar b | TVarChar a, TVarChar b => same_class l (TVarChar (max_or_none a b))
  | TFixBin a, TFixBin b => same_class l (TFixBin (max_or_none a b))
  | TFixBin a, TVarBin b => same_class r (TVarBin (max_or_none a b))
  | TVarBin a, TFixBin b | TVarBin a, TVarBin b => same_class l (TVarBin (max_or_none a b))
  | _, _ => Err "CompatibilityError"
  end.

(** [reduce(_compatible_type, data_types)], 349-352: an empty list raises TypeError *)
Fixpoint reduce_from (x : sqltype) (l : list sqltype) : res sqltype :=
  match l with [] => Ok x | y :: r => do z <- compat2 x y; reduce_from z r end.
Definition compatible_type (l : list sqltype) : res sqltype :=
  match l with [] => Err "TypeError" | x :: r => reduce_from x r end.
