(** Model of the statement lists of pysqlsync/formation/object_types.py:20-38 and of the guard of
    BaseContext.execute (pysqlsync/base.py:859-873). *)
From Verif Require Import PyStr.
Open Scope string_scope.

(** characters that Python's [str.strip] removes (ASCII range) *)
Definition is_space (c : ascii) : bool :=
  let n := nat_of_ascii c in
  (Nat.leb 9 n && Nat.leb n 13) || (Nat.leb 28 n && Nat.leb n 32).
(** [not s.strip()]: every character is white space *)
Definition blank (s : string) : bool := negb (any_char (fun c => negb (is_space c)) s).

(** [StatementList.append], 21-26: the new contents of the list, and the exception raised if any *)
Definition sl_append (l : list string) (o : option string) : list string * option string :=
  match o with
  | None => (l, None)
  | Some s => if blank s then (l, Some "ValueError") else ((l ++ [s])%list, None)
  end.
(** [StatementList.extend], 28-30: an exception leaves the items appended so far in the list *)
Fixpoint sl_extend (l : list string) (os : list (option string)) : list string * option string :=
  match os with
  | [] => (l, None)
  | o :: r => match sl_append l o with
              | (l', None) => sl_extend l' r
              | (l', Some e) => (l', Some e)
              end
  end.
(** [join], 33-34 *)
Fixpoint somes {A} (os : list (option A)) : list A :=
  match os with [] => [] | None :: r => somes r | Some x :: r => x :: somes r end.
Definition join (os : list (option string)) : string := join_str NL (somes os).
(** [join_or_none], 37-38 *)
Definition join_or_none (os : list (option string)) : option string :=
  match join os with "" => None | s => Some s end.

(** base.py:862-865: the guard of [execute] *)
Definition execute_guard (statement : string) : res string :=
  if blank statement then Err "ValueError" else Ok statement.

(** operations on a statement list *)
Inductive sl_op : Type := SlAppend (o : option string) | SlExtend (os : list (option string)).
Definition sl_run (l : list string) (op : sl_op) : list string :=
  match op with SlAppend o => fst (sl_append l o) | SlExtend os => fst (sl_extend l os) end.
