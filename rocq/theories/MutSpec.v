(** Specification: what a mutation from catalog [s] to catalog [t] may do to a database.
    Independent of the statement generator. *)
From Verif Require Import PyStr QuoteModel Types Objects SqlAst Ddl Mutate DbSpec CatSpec.
From stdpp Require Import gmap strings.

(** An object that the mutation leaves alone: it stays as it is, except that the declared types of its columns
    and members may follow the renaming of a replaced enumeration type. *)
Record kept (s t : catalog) (v v' : option dbobj) : Prop := {
  kp_none : v = None -> v' = None;
  kp_same : forall x, v = Some x -> (forall e, replaced s t e -> ~ mentions_type (key_of (e_name e)) x) -> v' = Some x;
  kp_struct : forall ms c, v = Some (OStruct ms c) ->
              exists ms', v' = Some (OStruct ms' c) /\ forall n, is_Some (ms' !! n) <-> is_Some (ms !! n);
  kp_table : forall tb, v = Some (OTable tb) -> exists tb', v' = Some (OTable tb')
             /\ dt_pk tb' = dt_pk tb /\ dt_cons tb' = dt_cons tb /\ dt_comment tb' = dt_comment tb
             /\ (forall n, is_Some (dt_cols tb' !! n) <-> is_Some (dt_cols tb !! n))
             /\ forall n c, dt_cols tb !! n = Some c -> exists ty, dt_cols tb' !! n = Some (with_type ty c) }.
(** a table that loses its constraints and nothing else *)
Definition stripped (s t : catalog) (v v' : option dbobj) : Prop :=
  exists tb ks, kept s t v (Some (OTable tb)) /\ v' = Some (OTable (DbTab (dt_cols tb) (dt_pk tb) ks (dt_comment tb))).

(** [s] has a namespace [a], [t] has a namespace [b] of the same name *)
Definition common_ns (s t : catalog) (a b : namespace) : Prop := In a s /\ In b t /\ n_name a = n_name b.
(** a namespace of [s] that [t] does not have *)
Definition removed_ns (s t : catalog) (n : namespace) : Prop := In n s /\ ~ In (n_name n) (map n_name t).
Definition not_in_ns (b : namespace) (k : string) : Prop := ~ In k (map local_id (ns_names b)).

Record outcome (d : dialect) (o : options) (s t : catalog) (D D' : db) : Prop := {
  (* every schema, type and table of the target exists as described *)
  oc_target : has_cat d t D';
  oc_schemas : forall x, x ∈ db_schemas D' <->
    x ∈ cat_schemas t \/ (x ∈ db_schemas D /\ ~ (allow_drop_namespace o = true /\ x ∈ cat_schemas s));
  (* removed namespaces *)
  oc_ns_gone : allow_drop_namespace o = true -> forall n k, removed_ns s t n -> In k (map key_of (ns_names n)) -> db_objs D' !! k = None;
  oc_schema_gone : allow_drop_namespace o = true -> forall n k, removed_ns s t n -> n_name n <> ""%string -> fst k = n_name n -> db_objs D' !! k = None;
  oc_ns_kept_type : allow_drop_namespace o = false -> forall n k, removed_ns s t n -> fst k = n_name n -> ~ In k (map (fun x => key_of (t_name x)) (n_tables n)) ->
    kept s t (db_objs D !! k) (db_objs D' !! k);
  oc_ns_kept_table : allow_drop_namespace o = false -> forall n x, removed_ns s t n -> In x (n_tables n) ->
    stripped s t (db_objs D !! key_of (t_name x)) (db_objs D' !! key_of (t_name x));
  (* objects removed from a namespace that stays *)
  oc_table : forall a b x, common_ns s t a b -> In x (n_tables a) -> not_in_ns b (t_key x) ->
    if allow_drop_table o then db_objs D' !! key_of (t_name x) = None
    else kept s t (db_objs D !! key_of (t_name x)) (db_objs D' !! key_of (t_name x));
  oc_struct : forall a b x, common_ns s t a b -> In x (n_structs a) -> not_in_ns b (s_key x) ->
    if allow_drop_struct o then db_objs D' !! key_of (s_name x) = None
    else kept s t (db_objs D !! key_of (s_name x)) (db_objs D' !! key_of (s_name x));
  oc_enum : forall a b x, common_ns s t a b -> In x (n_enums a) -> not_in_ns b (e_key x) ->
    if allow_drop_enum o then db_objs D' !! key_of (e_name x) = None
    else kept s t (db_objs D !! key_of (e_name x)) (db_objs D' !! key_of (e_name x));
  (* the type of an enumeration that became a table *)
  oc_parked : forall e, replaced s t e ->
    if allow_drop_enum o then db_objs D' !! parked e = None else exists x, db_objs D' !! parked e = Some x /\ is_type x = true;
  (* everything else *)
  oc_frame : forall k, ~ In k (cat_keys s) -> ~ In k (cat_keys t) -> (forall e, replaced s t e -> k <> parked e) ->
    (allow_drop_namespace o = true -> forall n, removed_ns s t n -> n_name n <> ""%string -> fst k <> n_name n) ->
    kept s t (db_objs D !! k) (db_objs D' !! k) }.
