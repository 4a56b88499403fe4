(** What C27 and C28 require of the records that reach the database. *)
From Verif Require Import PyStr QuoteModel ObjectDict Types Objects Records.
Open Scope list_scope.

(** the fields of a record that carry a name, in order *)
Definition named_fields (names : list string) (types : list ftype) (r : record) : list (string * ftype * field) :=
  filter (fun f => negb (String.eqb (fst (fst f)) "")) (combine (combine names types) r).
Definition listed (names : list string) : list string := filter (fun n => negb (String.eqb n "")) names.

(** a field that is omitted by its type is omitted by its name, too *)
Definition skipped_unnamed (types : list ftype) (names : list string) : Prop :=
  forall i, nth_error types i = Some FNone -> nth_error names i = Some ""%string.

(** two columns: the primary key [k] and another one, [v], whose values are unique *)
Definition lookup_table (rel : table) (k v : string) : Prop :=
  k <> v /\ t_pk rel = [k] /\ (exists n, In (CUnique n [v]) (t_constraints rel)) /\
  (map c_name (t_columns rel) = [k; v] \/ map c_name (t_columns rel) = [v; k]).
(** the key, and only the key, is generated by the database *)
Definition generated_key (rel : table) (k v : string) : Prop :=
  forall c, In c (t_columns rel) -> (c_name c = k -> c_identity c = true) /\ (c_name c = v -> c_identity c = false).

Section Spec.
  Context (state : catalog) (vt : column -> ftype -> option fn).

  (** column [c] of [t] has a foreign key of its own, and the first one refers to [rel] *)
  Definition refers (t : table) (c : string) (rel : table) : Prop :=
    exists l1 n rt rc l2, t_constraints t = l1 ++ CForeign n [c] rt rc :: l2
      /\ (forall m rt' rc', ~ In (CForeign m [c] rt' rc') l1) /\ cat_get_table state rt = Ok rel.
  (** a field given as text (or list of texts) is replaced by a key of [rel] *)
  Definition substituted (t : table) (c : string) (ty : ftype) (rel : table) (k v : string) : Prop :=
    (ty = FStr \/ ty = FList) /\ refers t c rel /\ lookup_table rel k v.

  (** label [l] has key [z] *)
  Definition maps_to (rows : list prow) (k v : string) (l : pv) (z : field) : Prop :=
    exists r, In r rows /\ r v = Some l /\ r k = z.

  (** what becomes of a field *)
  Inductive converted (S : store) (t : table) : string * ftype * field -> field -> Prop :=
  | conv_null n ty : converted S t (n, ty, None) None
  | conv_same n ty c x : In c (t_columns t) -> c_name c = n -> (forall rel k v, ~ substituted t n ty rel k v) ->
      vt c ty = None -> converted S t (n, ty, Some x) (Some x)
  | conv_value n ty c f x y : In c (t_columns t) -> c_name c = n -> (forall rel k v, ~ substituted t n ty rel k v) ->
      vt c ty = Some f -> f x = Ok y -> converted S t (n, ty, Some x) y
  | conv_label n rel k v x z : substituted t n FStr rel k v -> maps_to (S (t_name rel)) k v x z ->
      converted S t (n, FStr, Some x) z
  | conv_labels n rel k v ls zs : substituted t n FList rel k v ->
      Forall2 (fun l z => exists s, l = Some s /\ maps_to (S (t_name rel)) k v (PVStr s) (Some (PVInt z))) ls zs ->
      converted S t (n, FList, Some (PVLabels ls)) (Some (PVKeys zs)).

  (** a record mentions label [x] in a field that refers to [rel] *)
  Definition mentions (t : table) (names : list string) (types : list ftype) (rel : table) (r : record) (x : pv) : Prop :=
    exists n ty k v, substituted t n ty rel k v /\
      (ty = FStr /\ In (n, ty, Some x) (named_fields names types r) \/
       ty = FList /\ exists ls s, In (n, ty, Some (PVLabels ls)) (named_fields names types r) /\ In (Some s) ls /\ x = PVStr s).
End Spec.

(** keys are integers; no two rows share a key or a label *)
Definition lookup_rows (rows : list prow) (k v : string) : Prop :=
  (forall r, In r rows -> exists z l, r k = Some (PVInt z) /\ r v = Some l) /\
  NoDup (map (fun r => r k) rows) /\ NoDup (map (fun r => r v) rows).

(** tables have distinct columns, and the columns of their keys exist *)
Definition sound_tables (state : catalog) : Prop := forall n t, In n state -> In t (n_tables n) ->
  NoDup (map c_name (t_columns t)) /\ (forall k, In k (t_pk t) -> In k (map c_name (t_columns t))) /\
  forall n cs, In (CUnique n cs) (t_constraints t) -> cs <> [] /\ forall c, In c cs -> In c (map c_name (t_columns t)).

(** a table is found in the namespace that its name says *)
Definition filed (state : catalog) : Prop :=
  forall n t, In n state -> In t (n_tables n) -> match scope_id (t_name t) with Some s => s | None => ""%string end = n_name n.

(** a lookup table of the catalog *)
Definition lookup_of (state : catalog) (rel : table) (k v : string) : Prop :=
  (exists q, cat_get_table state q = Ok rel) /\ lookup_table rel k v.
(** the database generates keys that are not in use *)
Definition fresh_keys (fill : list prow -> string -> option pv) (k v : string) : Prop :=
  forall rows, lookup_rows rows k v -> exists z, fill rows k = Some (PVInt z) /\ forall r, In r rows -> r k <> Some (PVInt z).
(** a lookup table with generated keys and consistent contents *)
Definition live_lookup (state : catalog) (fill : qid -> list prow -> string -> option pv) (S : store) (rel : table) (k v : string) : Prop :=
  lookup_of state rel k v /\ generated_key rel k v /\ fresh_keys (fill (t_name rel)) k v /\ lookup_rows (S (t_name rel)) k v.
Definition has_label (rows : list prow) (v : string) (x : pv) : Prop := exists r, In r rows /\ r v = Some x.

(** values that the code can convert *)
Definition acceptable (state : catalog) (vt : column -> ftype -> option fn) (t : table) (x : string * ftype * field) : Prop :=
  let '(n, ty, f) := x in
  match f with
  | None => ty = FList -> forall rel k v, ~ substituted state t n ty rel k v
  | Some y =>
      (exists rel k v, substituted state t n ty rel k v) /\
        (ty = FStr /\ (exists s, y = PVStr s) \/ ty = FList /\ exists ls, y = PVLabels (map Some ls)) \/
      (forall rel k v, ~ substituted state t n ty rel k v) /\
        forall c g, In c (t_columns t) -> c_name c = n -> vt c ty = Some g -> exists z, g y = Ok z
  end.
(** the foreign keys of the table lead to tables of the catalog; a table with two columns has a simple key *)
Definition resolved (state : catalog) (t : table) : Prop :=
  forall n c rt rc, In (CForeign n [c] rt rc) (t_constraints t) ->
    exists rel, cat_get_table state rt = Ok rel /\ (length (t_columns rel) = 2 -> exists k, t_pk rel = [k]).
