(** C10: order of namespaces. *)
From Verif Require Import PyStr QuoteModel ObjectDict Types Objects TopoSpec TopoProofs SortSpec SortProofs.
From Coq Require Import List String Relations Permutation.
Import ListNotations.
Open Scope string_scope.
Open Scope list_scope.

(** Sorting succeeds exactly when no namespace depends on itself through other namespaces; the result is
    a permutation in which every namespace comes after the namespaces it depends on. *)
Theorem C10_sort_is_dependency_order : forall c : catalog, NoDup (map n_name c) ->
  match cat_sort c with
  | Ok c' => sorted_catalog c c' /\ ~ circular c
  | Err e => e = "RuntimeError" /\ circular c
  end.
Proof. exact cat_sort_correct. Qed.
Print Assumptions C10_sort_is_dependency_order.

(** three namespaces in the wrong order, one with a self-reference *)
Definition ex_col (n : string) (t : sqltype) : column := Col n t false None false None.
Definition ex_tab (q : qid) (fk : list constr) : table := Tab q [ex_col "id" (TInt 4%Z true None None)] ["id"] fk None None.
Definition ex_sort : catalog :=
  [ Ns "a" [] [] [ex_tab (Qualified (Some "a") "t") [CForeign "f" ["id"] (Qualified (Some "c") "t") ["id"]]];
    Ns "b" [] [] [ex_tab (Qualified (Some "b") "t") [CForeign "f" ["id"] (Qualified (Some "b") "t") ["id"];
                                                     CForeign "g" ["id"] (Qualified (Some "a") "t") ["id"]]];
    Ns "c" [] [] [ex_tab (Qualified (Some "c") "t") []] ].
Example ex_sort_wf : NoDup (map n_name ex_sort).
Proof. repeat constructor; simpl; intuition discriminate. Qed.
Example ex_sorted : exists c', cat_sort ex_sort = Ok c' /\ map n_name c' = ["c"; "a"; "b"].
Proof. eexists. split; reflexivity. Qed.
Definition ex_circular : catalog :=
  [ Ns "a" [] [] [ex_tab (Qualified (Some "a") "t") [CForeign "f" ["id"] (Qualified (Some "b") "t") ["id"]]];
    Ns "b" [] [] [ex_tab (Qualified (Some "b") "t") [CForeign "f" ["id"] (Qualified (Some "a") "t") ["id"]]] ].
Example ex_circular_fails : cat_sort ex_circular = Err "RuntimeError".
Proof. reflexivity. Qed.

(** Arrays of user-defined types are not references for the sort: the namespace of the table is emitted
    first although its column needs the type of the other namespace. *)
Theorem C10_array_reference_order_refuted :
  ~ (forall c c' : catalog, NoDup (map n_name c) -> cat_sort c = Ok c' ->
     forall l1 n l2 x col q b, c' = l1 ++ n :: l2 -> In x (n_tables n) -> In col (t_columns x) ->
     c_type col = TArray (TUser q) -> scope_id q = Some b -> b <> n_name n -> In b (map n_name c) ->
     exists m, In m l1 /\ n_name m = b).
Proof.
  intros H.
  set (q := Qualified (Some "b") "e").
  set (t := Tab (Qualified (Some "a") "t") [ex_col "id" (TInt 4%Z true None None); ex_col "x" (TArray (TUser q))] ["id"] [] None None).
  set (na := Ns "a" [] [] [t]). set (nb := Ns "b" [Enum q ["u"; "v"]] [] []).
  destruct (H [na; nb] [na; nb]) with (l1 := @nil namespace) (n := na) (l2 := [nb]) (x := t) (col := ex_col "x" (TArray (TUser q))) (q := q) (b := "b")
    as (m & [] & _); try reflexivity.
  - repeat constructor; simpl; intuition discriminate.
  - now left.
  - right. now left.
  - discriminate.
  - right. now left.
Qed.
Print Assumptions C10_array_reference_order_refuted.
