(** What the registry should be: a partial map from names to engine factories. *)
From Verif Require Import PyStr Registry.
Open Scope string_scope.

Definition pmap : Type := string -> option engine_factory.
Definition set (m : pmap) (n : string) (v : option engine_factory) : pmap := fun k => if String.eqb k n then v else m k.

(** effect and answer of one call *)
Inductive spec_step : pmap -> reg_call -> pmap -> answer -> Prop :=
| sp_register m n e : m n = None -> spec_step m (CRegister n e) (set m n (Some e)) ANone
| sp_duplicate m n e x : m n = Some x -> spec_step m (CRegister n e) m (ARaise "ValueError")
| sp_unregister m n x : m n = Some x -> spec_step m (CUnregister n) (set m n None) ANone
| sp_absent m n : m n = None -> spec_step m (CUnregister n) m (ARaise "KeyError")
| sp_get m n x : m n = Some x -> spec_step m (CGet n) m (AEngine x)
| sp_unknown m n : m n = None -> spec_step m (CGet n) m (ARaise "ValueError").
Inductive spec_run : pmap -> list reg_call -> pmap -> list answer -> Prop :=
| sr_nil m : spec_run m [] m []
| sr_cons m c m' a cs m'' l : spec_step m c m' a -> spec_run m' cs m'' l -> spec_run m (c :: cs) m'' (a :: l).

(** a dialect of the package: a directory whose name is not that of a hidden or internal file *)
Definition bundled (x : resource) : Prop :=
  rs_dir x = true /\ (forall s, rs_name x <> "." ++ s)%string /\ (forall s, rs_name x <> "__" ++ s)%string.
(** the name and the engine under which it is to be found *)
Definition provides (x : resource) (n : string) (e : engine_factory) : Prop :=
  (rs_missing x = None /\ n = rs_engine x /\ e = EFound (rs_factory x)) \/
  (exists m, rs_missing x = Some m /\ n = rs_name x /\ e = EUnavailable n m).
