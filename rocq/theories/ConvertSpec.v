(** Specification side of the conversion of data-classes: what a declared Python type means, what it is for a catalog to be
    closed, and what it is for names to be free of the separator.  Uses only the syntax of Convert.v (types, classes), not
    its functions. *)
From Verif Require Import PyStr QuoteModel Types Objects Convert.
From Coq Require Import Permutation.
Open Scope string_scope.

(** [None] is a value of the type *)
Inductive admits_none : pytype -> Prop :=
| an_none : admits_none YNone
| an_union l t : In t l -> admits_none t -> admits_none (YUnion l)
| an_ann t ms : admits_none t -> admits_none (YAnn t ms).

(** Types as Python builds them: [Annotated] is not nested directly, unions have at least two members that are not unions *)
Inductive py_wf : pytype -> Prop :=
| wf_leaf t : match t with YAnn _ _ | YUnion _ | YList _ | YSet _ => False | _ => True end -> py_wf t
| wf_ann t ms : py_wf t -> ms <> [] -> (forall u ns, t <> YAnn u ns) -> py_wf (YAnn t ms)
| wf_union l : Forall py_wf l -> (2 <= length l)%nat -> (forall m, ~ In (YUnion m) l) -> NoDup l -> py_wf (YUnion l)
| wf_list t : py_wf t -> py_wf (YList t)
| wf_set t : py_wf t -> py_wf (YSet t).

(** a data-class with a field annotated as primary key *)
Definition key_field (f : dfield) : Prop := exists t ms, f_type f = YAnn t ms /\ In MPrimary ms.
Definition entity (env : cid -> classdef) (c : cid) : Prop :=
  exists fs a d ps, env c = KData fs a d ps /\ exists f, In f fs /\ key_field f.
Definition data_fields (env : cid -> classdef) (c : cid) : list dfield := match env c with KData fs _ _ _ => fs | _ => [] end.

Definition annotated (t u : pytype) : Prop := t = u \/ exists ms, t = YAnn u ms.
Definition optional (t u : pytype) : Prop := exists l, t = YUnion l /\ Permutation l [u; YNone].
(** an optional or plain list or set of [e], with annotations *)
Definition collection_of (t e : pytype) : Prop :=
  exists a b c, annotated t a /\ (a = b \/ optional a b) /\ annotated b c /\ (c = YList e \/ c = YSet e).
(** the field becomes a table of its own: a collection of entities, or any collection if the user asks for relations *)
Definition joined (env : cid -> classdef) (relations : bool) (t : pytype) : Prop :=
  exists e, collection_of t e /\ (relations = true \/ exists c, annotated e (YCls c) /\ entity env c).

Inductive tagged (m : meta) : pytype -> Prop :=
| tg_here t ms : In m ms -> tagged m (YAnn t ms)
| tg_ann t ms : tagged m t -> tagged m (YAnn t ms)
| tg_union l t : In t l -> tagged m t -> tagged m (YUnion l).

(** the default that is made up for a type: zero, the empty text, False, the first moment, the first member of an
    enumeration; for a reference that of the key, for a choice of types that of one of them *)
Inductive zero (env : cid -> classdef) : pytype -> string -> Prop :=
| z_int : zero env YInt "0" | z_text : zero env YStr "''" | z_bool : zero env YBool "FALSE"
| z_float : zero env YFloat "0.0" | z_decimal : zero env YDecimal "0" | z_datetime : zero env YDatetime "'0001-01-01 00:00:00'"
| z_enum c e es s : env c = KEnum (e :: es) -> constant (ev_value e) = Ok s -> zero env (YCls c) s
| z_key c fs a d ps f s : env c = KData fs a d ps -> In f fs -> tagged MPrimary (f_type f) -> zero env (f_type f) s -> zero env (YCls c) s
| z_named c s : zero env (YCls c) s -> zero env (YFwd c) s
| z_ann t ms s : zero env t s -> zero env (YAnn t ms) s
| z_choice l t s : In t l -> zero env t s -> zero env (YUnion l) s.

(** a description comes from the documentation of the class, and none is lost *)
Definition described (ps : list (string * string)) (n : string) (d : option string) : Prop :=
  match d with Some s => In (n, s) ps | None => ~ In n (map fst ps) end.

(** a column made from a field; [auto]: defaults are made up for fields that have none *)
Definition default_matches (auto : bool) (d : dflt) (c : option string) : Prop :=
  match d with
  | DVal v => exists s, constant v = Ok s /\ c = Some s
  | DText s => c = Some s
  | DMissing | DNone => auto = false -> c = None
  end.
Definition column_matches (ps : list (string * string)) (auto : bool) (f : dfield) (c : column) : Prop :=
  described ps (c_name c) (c_desc c) /\
  c_name c = f_name f /\ (c_nullable c = true <-> admits_none (f_type f)) /\ default_matches auto (f_default f) (c_default c) /\
  (forall t ms, f_type f = YAnn t ms -> In MIdentity ms -> c_identity c = true) /\ (~ tagged MIdentity (f_type f) -> c_identity c = false).
Inductive columns_match (env : cid -> classdef) (ps : list (string * string)) (relations auto : bool) : list dfield -> list column -> Prop :=
| cm_nil : columns_match env ps relations auto [] []
| cm_join f fs cs : joined env relations (f_type f) -> columns_match env ps relations auto fs cs -> columns_match env ps relations auto (f :: fs) cs
| cm_col f fs c cs : ~ joined env relations (f_type f) -> column_matches ps auto f c -> columns_match env ps relations auto fs cs ->
    columns_match env ps relations auto (f :: fs) (c :: cs).

(** the first field annotated as primary key *)
Definition first_key (fs : list dfield) (n : string) : Prop :=
  exists a f b, fs = (a ++ f :: b)%list /\ key_field f /\ f_name f = n /\ forall g, In g a -> ~ key_field g.

(** what the theorems assume about options: no SQL type is substituted for a type that has the value [None], and neither
    Python's builtins nor the library's own key types are mapped to a schema *)
Definition sane_options (o : copts) : Prop :=
  (forall t s, In (t, s) (o_subst o) -> ~ admits_none t) /\
  (forall m n, In (m, n) (o_ns o) -> m <> "builtins" /\ m <> "pysqlsync.model.key_types").
