(** Specification: values that a declared type admits (C45). *)
From Verif Require Import PyStr Types Convert Generator.
Open Scope string_scope.

(** what an annotation demands of a value *)
Inductive obeys : meta -> gval -> Prop :=
| ob_range lo hi z : (lo <= z <= hi)%Z -> obeys (MRange lo hi) (GvInt z)
| ob_signed z : obeys (MSigned true) (GvInt z)
| ob_unsigned z : (0 <= z)%Z -> obeys (MSigned false) (GvInt z)
| ob_storage w z : (- 2 ^ (8 * w - 1) <= z < 2 ^ (8 * w))%Z -> obeys (MStorage w) (GvInt z)
| ob_float_storage w n : obeys (MStorage w) (GvFloat n)
| ob_max n s : (Z.of_nat (String.length s) <= n)%Z -> obeys (MMaxLength n) (GvStr s)
| ob_min n s : (n <= Z.of_nat (String.length s))%Z -> obeys (MMinLength n) (GvStr s)
| ob_length n s : Z.of_nat (String.length s) = n -> obeys (MLength n) (GvStr s)
| ob_precision p d m k : Z.of_nat k = d -> (m < 10 ^ Z.to_N p)%N -> obeys (MPrecision p d) (GvDecimal m k)
| ob_float_precision p d n : obeys (MPrecision p d) (GvFloat n)
| ob_time n s : obeys (MTimePrecision n) (GvTime s)
| ob_datetime n s : obeys (MTimePrecision n) (GvDatetime s)
| ob_other c v : obeys (MOther c) v
| ob_tag m v : In m [MPrimary; MIdentity; MUnique] -> obeys m v.

Section Values.
Variable env : cid -> classdef.
(** the field that is the primary key of a data-class: the first one so annotated *)
Definition key_field (c : cid) (f : dfield) : Prop :=
  exists before after abstract doc params, env c = KData (before ++ f :: after) abstract doc params /\
    p_primary (field_properties (f_type f)) = true /\ forall g, In g before -> p_primary (field_properties (f_type g)) = false.
Definition keyless (c : cid) : Prop := forall f, In f (fields_of env c) -> ~ In MPrimary (metadata (f_type f)).

(** A reference to an object of another table is its key, a composite value or a list is stored as JSON. *)
Inductive is_value : pytype -> gval -> Prop :=
| iv_bool b : is_value YBool (GvBool b)
| iv_int z : is_value YInt (GvInt z)
| iv_float n : is_value YFloat (GvFloat n)
| iv_decimal m k : is_value YDecimal (GvDecimal m k)
| iv_datetime s : is_value YDatetime (GvDatetime s)
| iv_date d : is_value YDate (GvDate d)
| iv_time s : (0 <= s < 86400)%Z -> is_value YTime (GvTime s)
| iv_str s : is_value YStr (GvStr s)
| iv_uuid n : is_value YUuid (GvUuid n)
| iv_ipv4 n : (n < 2 ^ 32)%N -> is_value YIPv4 (GvIPv4 n)
| iv_ipv6 n : (n < 2 ^ 128)%N -> is_value YIPv6 (GvIPv6 n)
| iv_none : is_value YNone GvNone
| iv_enum c es e : env c = KEnum es -> In e es -> is_value (YCls c) (GvEnum c e)
| iv_literal vs v : In v vs -> is_value (YLiteral vs) (GvLiteral v)
| iv_annotated t ms v : is_value t v -> Forall (fun m => obeys m v) ms -> is_value (YAnn t ms) v
| iv_union l t v : In t l -> is_value t v -> is_value (YUnion l) v
| iv_forward c v : is_value (YCls c) v -> is_value (YFwd c) v
| iv_reference c f v : key_field c f -> is_value (f_type f) v -> is_value (YCls c) v
| iv_struct c fs a d ps o : env c = KData fs a d ps -> keyless c -> Forall2 (fun f p => f_name f = fst p /\ is_value (f_type f) (snd p)) fs o ->
    is_value (YCls c) (GvJson (GvObject o))
| iv_list t l : Forall (is_value t) l -> is_value (YList t) (GvJson (GvList l))
| iv_set t l : Forall (is_value t) l -> is_value (YSet t) (GvJson (GvList l)).

(** ** Declarations with sane annotations *)
(** an annotation [m] of type [t] among others: a range, length or precision is given once, the width of an integer comes with
    a range that fits, a fixed length is not supported *)
Inductive sane (ms : list meta) : pytype -> meta -> Prop :=
| sn_range lo hi : (forall a b, In (MRange a b) ms -> a = lo /\ b = hi) -> sane ms YInt (MRange lo hi)
| sn_signed : sane ms YInt (MSigned true)
| sn_unsigned lo hi : In (MRange lo hi) ms -> (forall a b, In (MRange a b) ms -> a = lo /\ b = hi) -> (0 <= lo)%Z -> sane ms YInt (MSigned false)
| sn_storage w lo hi : In (MRange lo hi) ms -> (forall a b, In (MRange a b) ms -> a = lo /\ b = hi) ->
    (- 2 ^ (8 * w - 1) <= lo)%Z -> (hi < 2 ^ (8 * w))%Z -> sane ms YInt (MStorage w)
| sn_max n : (0 <= n)%Z -> (forall a, In (MMaxLength a) ms -> a = n) -> sane ms YStr (MMaxLength n)
| sn_min n : (forall a, In (MMinLength a) ms -> a = n) -> sane ms YStr (MMinLength n)
| sn_precision p d : (forall a b, In (MPrecision a b) ms -> a = p /\ b = d) -> (0 <= d <= p)%Z -> sane ms YDecimal (MPrecision p d)
| sn_float_storage w : sane ms YFloat (MStorage w)
| sn_float_precision p d : sane ms YFloat (MPrecision p d)
| sn_time n : sane ms YTime (MTimePrecision n)
| sn_datetime n : sane ms YDatetime (MTimePrecision n)
| sn_other t c : sane ms t (MOther c).

(** types that a type is composed of *)
Inductive component : pytype -> pytype -> Prop :=
| co_list t : component (YList t) t
| co_set t : component (YSet t) t
| co_union l t : In t l -> component (YUnion l) t
| co_forward c : component (YFwd c) (YCls c)
| co_field c fs a d ps f : env c = KData fs a d ps -> keyless c -> In f fs -> component (YCls c) (f_type f).
(** [typing] does not nest [Annotated] directly; None and the mark of a default occur once *)
Definition unnested (t : pytype) : Prop := match t with YAnn (YAnn _ _) _ => False | _ => True end.
Definition settled (t : pytype) : Prop := match t with YAnn _ _ => False | YUnion l => ~ In YNone l /\ ~ In YDefault l | _ => True end.

(** all annotations are sane, here, in components (which are no keys of tables), and in the keys of referenced classes *)
Inductive sane_type : pytype -> Prop :=
| st t : unnested t -> settled (p_plain (field_properties t)) ->
    Forall (sane (p_meta (field_properties t)) (p_plain (field_properties t))) (p_meta (field_properties t)) ->
    (forall u, component (p_plain (field_properties t)) u -> sane_type u) ->
    (forall u, component (p_plain (field_properties t)) u -> p_primary (field_properties u) = false) ->
    (forall c f, p_plain (field_properties t) = YCls c -> key_field c f -> sane_type (f_type f)) -> sane_type t.
End Values.

(** ** Declarations for which values can be generated *)
Section Makeable.
Variable env : cid -> classdef.
(** a type, and its annotations, that allow some value; a text has a length of 1 to 255 unless declared *)
Inductive supported (ms : list meta) : pytype -> Prop :=
| su_plain t : In t [YBool; YFloat; YDatetime; YDate; YTime; YUuid; YIPv4; YIPv6] -> supported ms t
| su_int : (forall lo hi, In (MRange lo hi) ms -> (lo <= hi)%Z) -> supported ms YInt
| su_str : (forall lo hi, (In (MMinLength lo) ms \/ lo = 1 /\ forall n, ~ In (MMinLength n) ms)%Z ->
    (In (MMaxLength hi) ms \/ hi = 255 /\ forall n, ~ In (MMaxLength n) ms)%Z -> (lo <= hi)%Z) -> supported ms YStr
| su_decimal : (forall p d, In (MPrecision p d) ms -> (0 <= d <= p /\ 0 < p)%Z) -> supported ms YDecimal
| su_enum c e es : env c = KEnum (e :: es) -> supported ms (YCls c)
| su_class c fs a d ps : env c = KData fs a d ps -> supported ms (YCls c)
| su_forward c : ms = [] -> supported ms (YFwd c)
| su_literal v vs : supported ms (YLiteral (v :: vs))
| su_union t l : supported ms (YUnion (t :: l))
| su_list t : match t with YAnn (YCls c) _ => forall es, env c <> KEnum es | _ => True end -> supported ms (YList t)
| su_set t : match t with YAnn (YCls c) _ => forall es, env c <> KEnum es | _ => True end -> supported ms (YSet t).
(** keys are integers or UUIDs; composite types nest finitely *)
Inductive makeable : pytype -> Prop :=
| mk t : settled (p_plain (field_properties t)) -> supported (p_meta (field_properties t)) (p_plain (field_properties t)) ->
    (p_primary (field_properties t) = true -> p_plain (field_properties t) = YInt \/ p_plain (field_properties t) = YUuid) ->
    (forall u, component env (p_plain (field_properties t)) u -> makeable u) ->
    (forall c f, p_plain (field_properties t) = YCls c -> key_field env c f -> makeable (f_type f)) -> makeable t.
End Makeable.
