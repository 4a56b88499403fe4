(** Model of the constraint factories: pysqlsync/formation/constraints.py. *)
From Verif Require Import PyStr QuoteModel Types Objects.
Open Scope list_scope.

(** a dictionary from constraint names, in insertion order *)
Section Dict.
  Context {A : Type}.
  Fixpoint find_entry (n : string) (m : list (string * A)) : option A :=
    match m with [] => None | (k, a) :: r => if String.eqb k n then Some a else find_entry n r end.
  Fixpoint set_entry (n : string) (a : A) (m : list (string * A)) : list (string * A) :=
    match m with [] => [(n, a)] | (k, b) :: r => if String.eqb k n then (k, a) :: r else (k, b) :: set_entry n a r end.
End Dict.

(** [UniqueFactory], 7-22 *)
Definition uf : Type := list (string * list string).
Definition uf_add (m : uf) (name column : string) : uf :=
  match find_entry name m with
  | Some cs => set_entry name (cs ++ [column]) m
  | None => set_entry name [column] m
  end.
Definition uf_fetch (m : uf) : list constr := map (fun e => CUnique (fst e) (snd e)) m.
Definition uf_run (rows : list (string * string)) : list constr := uf_fetch (fold_left (fun m r => uf_add m (fst r) (snd r)) rows []).

(** [ForeignFactory], 41-81; a link is a target table and pairs of columns *)
Definition ff : Type := list (string * (qid * list (string * string))).
Record frow : Type := FRow { f_name : string; f_source : string; f_table : qid; f_target : string }.
Definition ff_add (m : ff) (r : frow) : res ff :=
  match find_entry (f_name r) m with
  | Some (q, ps) => if qid_eqb (f_table r) q then Ok (set_entry (f_name r) (q, ps ++ [(f_source r, f_target r)]) m) else Err "ValueError"
  | None => Ok (set_entry (f_name r) (f_table r, [(f_source r, f_target r)]) m)
  end.
Fixpoint ff_all (m : ff) (rows : list frow) : res ff :=
  match rows with [] => Ok m | r :: rest => do m' <- ff_add m r; ff_all m' rest end.
Definition ff_fetch (m : ff) : list constr :=
  match m with
  | [] => []
  | _ => map (fun e => CForeign (fst e) (map fst (snd (snd e))) (fst (snd e)) (map snd (snd (snd e)))) m
  end.
Definition ff_run (rows : list frow) : res (list constr) := do m <- ff_all [] rows; Ok (ff_fetch m).

(** The rows that the catalog queries deliver for the foreign keys of a table: a key is given by the columns of the
    constraint, in order, and those of the unique constraint that it references, in the order of that constraint.
    [AnsiExplorer] (formation/discovery.py:270-310) joins equal positions; [OracleExplorer]
    (dialect/oracle/discovery.py:165-200) joins on the names of the constraints only. *)
Record fkey : Type := FKey { k_name : string; k_source : list string; k_table : qid; k_target : list string }.
Definition joined_by_position (k : fkey) : list frow :=
  map (fun p => FRow (k_name k) (fst p) (k_table k) (snd p)) (combine (k_source k) (k_target k)).
Definition joined_by_name (k : fkey) : list frow :=
  flat_map (fun s => map (fun t => FRow (k_name k) s (k_table k) t) (k_target k)) (k_source k).
