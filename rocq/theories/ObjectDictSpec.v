(** Specification of a named collection: a finite map with a key order.  Independent of
    the list representation of the model. *)
From Verif Require Import PyStr ObjectDict.
From Coq Require Import Sorting.Permutation Sorting.Sorted.

Record amap (A : Type) := { am_keys : list string; am_val : string -> option A }.
Arguments am_keys {A}. Arguments am_val {A}.

(** keep first occurrences *)
Fixpoint dedup (l : list string) : list string :=
  match l with
  | [] => []
  | k :: r => k :: filter (fun x => negb (String.eqb x k)) (dedup r)
  end.

Definition str_le (a b : string) : Prop := String.leb a b = true.

Section Spec.
  Context {A : Type} (key : A -> string).

  (** [spec_step m op m' ok]: the operation turns [m] into [m'] and succeeds iff [ok]. *)
  Inductive spec_step (m : amap A) : od_op A -> amap A -> bool -> Prop :=
  | sp_add x m' : am_val m (key x) = None ->
      am_keys m' = (am_keys m ++ [key x])%list ->
      (forall k, am_val m' k = if String.eqb k (key x) then Some x else am_val m k) ->
      spec_step m (OpAdd x) m' true
  | sp_add_dup x : am_val m (key x) <> None -> spec_step m (OpAdd x) m false
  | sp_remove k m' : am_val m k <> None ->
      am_keys m' = filter (fun x => negb (String.eqb x k)) (am_keys m) ->
      (forall j, am_val m' j = if String.eqb j k then None else am_val m j) ->
      spec_step m (OpRemove k) m' true
  | sp_remove_absent k : am_val m k = None -> spec_step m (OpRemove k) m false
  | sp_sort m' :
      Permutation (am_keys m) (am_keys m') -> StronglySorted str_le (am_keys m') ->
      (forall k, am_val m' k = am_val m k) ->
      spec_step m OpSort m' true
  | sp_reorder ks m' :
      (forall k, In k ks -> am_val m k <> None) ->
      am_keys m' = dedup ks ->
      (forall k, am_val m' k = if str_in k ks then am_val m k else None) ->
      spec_step m (OpReorder ks) m' true
  | sp_reorder_absent ks k : In k ks -> am_val m k = None -> spec_step m (OpReorder ks) m false.

  (** what a user of the collection observes: key order and lookups *)
  Definition observes (d : list A) (m : amap A) : Prop :=
    od_keys key d = am_keys m /\ forall k, od_get key k d = am_val m k.

  (** well-formed abstract map: keys are distinct and are exactly the domain,
      and every item is stored under its own name *)
  Definition am_wf (m : amap A) : Prop :=
    NoDup (am_keys m)
    /\ (forall k, In k (am_keys m) <-> am_val m k <> None)
    /\ (forall k x, am_val m k = Some x -> key x = k).
End Spec.
