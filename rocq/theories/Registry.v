(** Model of the dialect registry: pysqlsync/factory.py.  A Python [dict] is the list of its items in insertion order. *)
From Verif Require Import PyStr.
Open Scope string_scope.

(** an engine factory: one found in a package (what it is does not matter), or the placeholder
    [UnavailableEngine] (111-138) with the name of the missing module *)
Inductive engine_factory : Type := EFound (id : nat) | EUnavailable (name module : string).

Definition registry : Type := list (string * engine_factory).
(** [_engines[name]] *)
Fixpoint r_get (n : string) (r : registry) : option engine_factory :=
  match r with [] => None | (k, e) :: r' => if String.eqb k n then Some e else r_get n r' end.
(** [_engines.pop(name)] for a name that is present *)
Fixpoint r_pop (n : string) (r : registry) : registry :=
  match r with [] => [] | (k, e) :: r' => if String.eqb k n then r' else (k, e) :: r_pop n r' end.

(** what a call gives its caller *)
Inductive answer : Type := ANone | AEngine (e : engine_factory) | ARaise (exn : string).

(** register_dialect, 27-41 *)
Definition register_dialect (n : string) (e : engine_factory) (r : registry) : registry * answer :=
  match r_get n r with
  | Some _ => (r, ARaise "ValueError")
  | None => ((r ++ [(n, e)])%list, ANone)
  end.
(** unregister_dialect, 44-51: [dict.pop] of an absent key raises [KeyError] *)
Definition unregister_dialect (n : string) (r : registry) : registry * answer :=
  match r_get n r with
  | Some _ => (r_pop n r, ANone)
  | None => (r, ARaise "KeyError")
  end.
(** get_dialect, 54-62 *)
Definition get_dialect (n : string) (r : registry) : registry * answer :=
  match r_get n r with
  | Some e => (r, AEngine e)
  | None => (r, ARaise "ValueError")
  end.

(** a call on the registry *)
Inductive reg_call : Type := CRegister (n : string) (e : engine_factory) | CUnregister (n : string) | CGet (n : string).
Definition reg_step (r : registry) (c : reg_call) : registry * answer :=
  match c with
  | CRegister n e => register_dialect n e r
  | CUnregister n => unregister_dialect n r
  | CGet n => get_dialect n r
  end.
Fixpoint reg_run (r : registry) (cs : list reg_call) : registry * list answer :=
  match cs with
  | [] => (r, [])
  | c :: cs' => let (r', a) := reg_step r c in let (r'', l) := reg_run r' cs' in (r'', a :: l)
  end.

(** discover_dialects, 141-185.  A resource of the package directory: its name, whether it is a directory, the result of
    importing its module [dependency] ([Some m]: module [m] is missing), the name and factory of its engine. *)
Record resource : Type := Resource { rs_name : string; rs_dir : bool; rs_missing : option string; rs_engine : string; rs_factory : nat }.
Definition skipped (x : resource) : bool :=
  starts_with "." (rs_name x) || starts_with "__" (rs_name x) || negb (rs_dir x).
Definition discovered (x : resource) : string * engine_factory :=
  match rs_missing x with
  | Some m => (rs_name x, EUnavailable (rs_name x) m)
  | None => (rs_engine x, EFound (rs_factory x))
  end.
Fixpoint discover_dialects (l : list resource) (r : registry) : registry * answer :=
  match l with
  | [] => (r, ANone)
  | x :: l' =>
      if skipped x then discover_dialects l' r else
      match register_dialect (fst (discovered x)) (snd (discovered x)) r with
      | (r', ARaise e) => (r', ARaise e)
      | (r', _) => discover_dialects l' r'
      end
  end.

(** UnavailableEngine.get_generator_type, get_connection_type, get_explorer_type, 122-138 (an available engine returns
    its class, represented by the factory) *)
Definition engine_class (e : engine_factory) : res nat :=
  match e with EFound i => Ok i | EUnavailable _ _ => Err "RuntimeError" end.
