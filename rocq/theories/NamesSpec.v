(** Specification: names of constraints in converted catalogs (C37). *)
From Verif Require Import PyStr QuoteModel Types Objects Convert ConvertSpec CloseSpec.
Open Scope string_scope.

(** the names of the constraints of all tables of a schema *)
Definition constraint_names (n : namespace) : list string := flat_map (fun t => map k_name (t_constraints t)) (n_tables n).

Fixpoint contains (x : ascii) (s : string) : Prop :=
  match s with "" => False | String c r => c = x \/ contains x r end.

Record separable (env : cid -> classdef) (o : copts) (refs : list cid) : Prop := Separable {
  (* modules are mapped to different schemas *)
  sp_schemas : forall m n m' n', In (m, n) (o_ns o) -> In (m', n') (o_ns o) -> or_empty n = or_empty n' -> m = m' /\ n = n';
  (* fields of a class have different names, without a dot *)
  sp_distinct : forall c, In c refs -> NoDup (map f_name (data_fields env c));
  sp_identifiers : forall c f, In c refs -> In f (data_fields env c) -> ~ contains "." (f_name f);
  (* names of classes have neither an underscore nor a dot *)
  sp_names : forall c, In c refs -> ~ contains "_" (snd c) /\ ~ contains "." (snd c);
  (* no field is called like a collection followed by an underscore and the name of a class that the collection refers to *)
  sp_joins : forall c f g r, In c refs -> In f (data_fields env c) -> In g (data_fields env c) -> mentions (f_type f) r ->
             f_name g <> (f_name f ++ "_" ++ snd r)%string;
  sp_refs : forall c f r, In c refs -> In f (data_fields env c) -> mentions (f_type f) r -> In r refs;
  (* if names of schemas are put in front of names: they have neither an underscore nor a dot, fields do not start with an
     underscore, enumerations have different names *)
  sp_prefix : o_qualified o = false -> forall m n, In (m, Some n) (o_ns o) -> ~ contains "_" n /\ ~ contains "." n;
  sp_fields : o_qualified o = false -> forall c f, In c refs -> In f (data_fields env c) -> f_name f <> "" /\ forall s, f_name f <> String "_" s;
  sp_enums : o_qualified o = false -> forall c c' vs vs', In c refs -> In c' refs -> env c = KEnum vs -> env c' = KEnum vs' -> snd c = snd c' -> c = c';
  (* names are qualified by a schema, or constraints are named after it *)
  sp_mode : o_qualified o = true \/ o_unique_names o = true }.
