(** Specification: a database that contains a catalog next to unrelated objects ([plus_cat], RefSpec.v). *)
From Verif Require Import PyStr QuoteModel Types Objects SqlAst Ddl Mutate DbSpec CatSpec MutSpec.
From stdpp Require Import gmap strings.

(** [F] is unrelated to the catalog: its schemas and objects are elsewhere and use none of its types *)
Record apart (c : catalog) (F : db) : Prop := {
  ap_objs : forall k x, db_objs F !! k = Some x -> ~ In (fst k) (map n_name c);
  ap_schemas : forall n, In n c -> n_name n = ""%string \/ n_name n ∉ db_schemas F;
  ap_types : forall k x j, db_objs F !! k = Some x -> In j (cat_keys c) -> ~ mentions_type j x }.

(** the mutation from [s] to [t] is one for which C13 is proved *)
Definition step_ok (d : dialect) (s t : catalog) : Prop :=
  cat_compat d s t /\ forall e, replaced s t e -> ~ In (parked e) (cat_keys s).

(** The explorer sees the target: whenever the database contains the target, and nothing else in the discovered schemas,
    discovery returns a catalog equal to the target. *)
From Verif Require Import ObjectDict KeySpec Session.
(** the targets of the calls of a history *)
Definition targets (cs : list call) : list catalog := flat_map (fun c => match c with KCreate (Ok t) => [t] | _ => [] end) cs.
(** the history of calls, without faults *)
Definition run_calls (d : dialect) (o : options) (E : engine) (cs : list call) (w : world) : world :=
  fold_left (fun w c => fst (run_one d o E None c w)) cs w.
Definition sees (d : dialect) (X : explorer) (mods : list string) (t : catalog) : Prop :=
  forall D, has_cat d t D -> (forall k x, db_objs D !! k = Some x -> In (fst k) mods -> In k (cat_keys t)) ->
  exists c, discover X D mods = (c, true) /\ cat_keyed c /\ cat_eqb c t = true.
(** the same for one database *)
Definition sees_at (X : explorer) (mods : list string) (t : catalog) (D : db) : Prop :=
  exists c, discover X D mods = (c, true) /\ cat_keyed c /\ cat_eqb c t = true.
