(** Model of pysqlsync/formation/object_dict.py [ObjectDict].

    A collection is the list of its items in dictionary order; the dictionary key of an
    item is its [name.local_id] (object_dict.py:13-14), given here by [key].  Python's
    [dict] keeps insertion order and an overwritten key keeps its position. *)
From Verif Require Import PyStr.

Section OD.
  Context {A : Type} (key : A -> string).

  (** [dict.get] / [ObjectDict.get], object_dict.py:46-49 *)
  Definition od_get (k : string) (d : list A) : option A := find (fun x => String.eqb (key x) k) d.

  (** [__contains__], object_dict.py:16-17 *)
  Definition od_mem (k : string) (d : list A) : bool := existsb (fun x => String.eqb (key x) k) d.

  (** [d[k] = x] on a Python dict *)
  Fixpoint od_set (x : A) (d : list A) : list A :=
    match d with
    | [] => [x]
    | y :: r => if String.eqb (key y) (key x) then x :: r else y :: od_set x r
    end.

  (** constructor: dict comprehension, object_dict.py:13-14 *)
  Definition od_make (items : list A) : list A := fold_left (fun d x => od_set x d) items [].

  (** [add], object_dict.py:51-55 *)
  Definition od_add (x : A) (d : list A) : res (list A) :=
    if od_mem (key x) d then Err "ValueError" else Ok (d ++ [x])%list.

  (** [remove], object_dict.py:57-58 (dict.pop raises KeyError) *)
  Definition od_remove (k : string) (d : list A) : res (list A) :=
    if od_mem k d then Ok (filter (fun x => negb (String.eqb (key x) k)) d) else Err "KeyError".

  (** [keys], object_dict.py:60-61 *)
  Definition od_keys (d : list A) : list string := map key d.

  (** [difference], object_dict.py:69-72 *)
  Definition od_difference (d op : list A) : list A := filter (fun x => negb (od_mem (key x) op)) d.

  (** [intersection], object_dict.py:74-80 *)
  Fixpoint od_intersection (d op : list A) : list (A * A) :=
    match d with
    | [] => []
    | x :: r => match od_get (key x) op with
                | Some y => (x, y) :: od_intersection r op
                | None => od_intersection r op
                end
    end.

  (** [sort], object_dict.py:82-83: ascending by key (keys are distinct, so the stable sort
      of (key, item) pairs never compares items). *)
  Fixpoint od_insert (x : A) (d : list A) : list A :=
    match d with
    | [] => [x]
    | y :: r => if String.leb (key x) (key y) then x :: d else y :: od_insert x r
    end.
  Definition od_sort (d : list A) : list A := fold_right od_insert [] d.

  (** [reorder], object_dict.py:85-86: a dict comprehension over [order]; KeyError if absent,
      in which case the old dictionary stays in place. *)
  Definition od_reorder (order : list string) (d : list A) : res (list A) :=
    do items <- map_res (fun k => match od_get k d with Some x => Ok x | None => Err "KeyError" end) order;
    Ok (od_make items).

  (** [__eq__], object_dict.py:19-23: equality of Python dicts does not depend on order *)
  Definition od_eqb (eqA : A -> A -> bool) (d e : list A) : bool :=
    Nat.eqb (length d) (length e) &&
    forallb (fun x => match od_get (key x) e with Some y => eqA x y | None => false end) d.

  (** operations of a history *)
  Inductive od_op : Type :=
  | OpAdd (x : A) | OpRemove (k : string) | OpSort | OpReorder (order : list string).

  Definition od_step (d : list A) (o : od_op) : res (list A) :=
    match o with
    | OpAdd x => od_add x d
    | OpRemove k => od_remove k d
    | OpSort => Ok (od_sort d)
    | OpReorder ks => od_reorder ks d
    end.
  (** a failing call raises and leaves the object as it was *)
  Definition od_run (d : list A) (o : od_op) : list A :=
    match od_step d o with Ok d' => d' | Err _ => d end.
End OD.
Arguments od_op A : clear implicits.
Arguments OpSort {A}.
Arguments OpRemove {A} k.
Arguments OpReorder {A} order.
Arguments OpAdd {A} x.
