(** Property theorems C08: named collections. *)
From Verif Require Import PyStr ObjectDict ObjectDictSpec ObjectDictProofs.
From Coq Require Import Sorting.Permutation Sorting.Sorted.
Open Scope list_scope.

(** For every construction and every history of operations, the collection is simulated step by
    step by a finite map with a key order; failing operations change nothing. *)
Theorem C08_history_refines_map : forall (A : Type) (key : A -> string) items ops,
  spec_run key (am_of key (od_make key items)) ops
    (am_of key (fold_left (od_run key) ops (od_make key items))).
Proof. exact (fun A key items ops => history_refines key ops (od_make key items) (make_wf key items)). Qed.
Print Assumptions C08_history_refines_map.

(** A step reports success exactly when the specification says so. *)
Theorem C08_step_outcome : forall (A : Type) (key : A -> string) d o,
  NoDup (od_keys key d) ->
  exists ok, spec_step key (am_of key d) o (am_of key (od_run key d o)) ok
             /\ ok = is_ok (od_step key d o).
Proof. exact (fun A key d o W => run_refines key d o W). Qed.
Print Assumptions C08_step_outcome.

(** After any history, keys are distinct, are exactly the names that can be looked up, and an
    item is found under its own name. *)
Theorem C08_history_wellformed : forall (A : Type) (key : A -> string) items ops,
  am_wf key (am_of key (fold_left (od_run key) ops (od_make key items))).
Proof. exact (fun A key items ops => am_of_wf key _ (history_wf key items ops)). Qed.
Print Assumptions C08_history_wellformed.

(** Construction: the last item of a name wins, at the position of the first. *)
Theorem C08_constructor : forall (A : Type) (key : A -> string) items,
  od_keys key (od_make key items) = dedup (od_keys key items)
  /\ forall k, od_get key k (od_make key items) = od_get key k (rev items).
Proof. exact (fun A key items => conj (make_keys key items) (make_get key items)). Qed.
Print Assumptions C08_constructor.

(** difference and intersection split a collection by membership in the other, in its own order,
    and intersection pairs items of equal name. *)
Theorem C08_split_by_membership : forall (A : Type) (key : A -> string) d e,
  map fst (od_intersection key d e) = filter (fun x => od_mem key (key x) e) d
  /\ od_difference key d e = filter (fun x => negb (od_mem key (key x) e)) d.
Proof. exact @split_by_membership. Qed.
Print Assumptions C08_split_by_membership.

Theorem C08_intersection_pairs : forall (A : Type) (key : A -> string) d e x y,
  In (x, y) (od_intersection key d e) <-> In x d /\ od_get key (key x) e = Some y.
Proof. exact @intersection_in. Qed.
Print Assumptions C08_intersection_pairs.

(** equality ignores order *)
Theorem C08_equality_ignores_order : forall (A : Type) (key : A -> string) eqA d e,
  NoDup (od_keys key d) -> Permutation d e -> (forall x, In x d -> eqA x x = true) ->
  od_eqb key eqA d e = true.
Proof. exact @eqb_perm. Qed.
Print Assumptions C08_equality_ignores_order.

(** non-vacuity: a history with failures and a reorder *)
Example C08_ex :
  let key := fun p : string * nat => fst p in
  fold_left (od_run key)
    [OpAdd ("b"%string, 1); OpAdd ("a"%string, 9); OpRemove "z"; OpReorder ["b"; "a"]; OpReorder ["q"]]
    (od_make key [("a"%string, 1); ("c"%string, 2); ("a"%string, 3)])
  = [("b"%string, 1); ("a"%string, 3)].
Proof. reflexivity. Qed.
