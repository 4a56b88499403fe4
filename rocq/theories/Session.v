(** Model of the life-cycle of a generator's state: pysqlsync/base.py [BaseGenerator.create], [drop],
    [get_mutate_stmt], [BaseContext.create_objects], [drop_objects], [Explorer.discover], [synchronize].

    Simplifications: the conversion of entity classes to a catalog is an argument ([res catalog]: it may
    raise); a script is the list of its statements, executed one after the other by [exec_all]; queries of
    the explorer are an oracle that returns a namespace (or raises) for a schema name. *)
From Verif Require Import PyStr QuoteModel ObjectDict Types Objects SqlAst Ddl Mutate DbSpec.
From Coq Require Import List String.
Import ListNotations.
Open Scope list_scope.

(** what a call on the generator gives: the new believed state, and a script or an exception *)
Definition called : Type := catalog * res (list stmt).

(** [Mutator.mutate_catalog_stmt] sorts both catalogs in place before it does anything else
    (mutation.py:343-344); this is what is left of the source if it raises *)
Definition sorted_or_same (c : catalog) : catalog := match cat_sort c with Ok c' => c' | Err _ => c end.

(** base.py:255-300 [create]: the state is assigned after the statement was generated *)
Definition gen_create (d : dialect) (o : options) (st : catalog) (target : res catalog) : called :=
  match target with
  | Err e => (st, Err e)
  | Ok t => match mutate_catalog d o st t with
            | Ok (_, t', l) => (t', Ok l)
            | Err e => (sorted_or_same st, Err e)
            end
  end.
(** base.py:302-314 [drop] *)
Definition gen_drop (d : dialect) (o : options) (st : catalog) : called := gen_create d o st (Ok []).
(** base.py:316-319 [get_mutate_stmt]: the state stays (sorted) *)
Definition gen_mutate (d : dialect) (o : options) (st t : catalog) : called :=
  match mutate_catalog d o st t with
  | Ok (s', _, l) => (s', Ok l)
  | Err e => (sorted_or_same st, Err e)
  end.

(** ** Execution with faults: [fault = Some k] makes the execution fail after [k] statements have taken effect
    (no transaction); a statement that the engine refuses fails by itself *)
Fixpoint exec_upto (E : engine) (fault : option nat) (l : list stmt) (D : db) : db * bool :=
  match l, fault with
  | _, Some O => (D, false)
  | [], _ => (D, true)
  | s :: r, _ => match exec E s D with
                 | Some D' => exec_upto E (match fault with Some (S k) => Some k | f => f end) r D'
                 | None => (D, false)
                 end
  end.

(** believed state, database, and whether the call returned normally *)
Record world : Type := World { w_state : catalog; w_db : db }.

(** base.py:985-992 [create_objects], 994-1000 [drop_objects]: an empty script is not executed *)
Definition run_call (E : engine) (fault : option nat) (c : called) (D : db) : world * bool :=
  match c with
  | (st, Err _) => (World st D, false)
  | (st, Ok []) => (World st D, true)
  | (st, Ok l) => let (D', ok) := exec_upto E fault l D in (World st D', ok)
  end.
Definition create_objects d o (E : engine) fault (target : res catalog) (w : world) : world * bool :=
  run_call E fault (gen_create d o (w_state w) target) (w_db w).
Definition drop_objects d o (E : engine) fault (w : world) : world * bool :=
  run_call E fault (gen_drop d o (w_state w)) (w_db w).

(** a history of calls *)
Inductive call : Type := KCreate (target : res catalog) | KDrop.
Definition run_one d o E fault (c : call) (w : world) : world * bool :=
  match c with KCreate t => create_objects d o E fault t w | KDrop => drop_objects d o E fault w end.

(** ** Discovery and synchronization *)
Definition explorer : Type := db -> string -> res namespace.
(** base.py:1393-1406: the state is reset, then the namespaces are merged one by one; on failure the state
    is what was merged so far *)
Fixpoint discover_into (X : explorer) (D : db) (mods : list string) (st : catalog) : catalog * bool :=
  match mods with
  | [] => (st, true)
  | m :: r => match X D m with
              | Err _ => (st, false)
              | Ok n => match cat_merge st [n] with
                        | Ok st' => discover_into X D r st'
                        | Err _ => (st, false)
                        end
              end
  end.
Definition discover (X : explorer) (D : db) (mods : list string) : catalog * bool := discover_into X D mods [].

(** base.py:1428-1468 [synchronize]; also returns the script *)
Definition synchronize d o (E : engine) (X : explorer) fault (mods : list string) (target : res catalog) (w : world) : world * bool * list stmt :=
  let (t', c) := gen_create d o [] target in
  match c with
  | Err _ => (World t' (w_db w), false, [])
  | Ok _ =>
      let (s, found) := discover X (w_db w) mods in
      if negb found then (World s (w_db w), false, []) else
      match gen_mutate d o s t' with
      | (s', Err _) => (World s' (w_db w), false, [])
      | (s', Ok []) => (World s' (w_db w), true, [])
      | (s', Ok l) =>
          match exec_upto E fault l (w_db w) with
          | (D', true) => (World (sorted_or_same t') D', true, l)
          | (D', false) => (World s' D', false, l)
          end
      end
  end.
