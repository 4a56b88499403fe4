(** Model of the conversion of Python data-classes into database objects: pysqlsync/formation/py_to_sql.py, with
    pysqlsync/model/properties.py and pysqlsync/formation/inspection.py.

    The functions of the external package [strong_typing] ([is_type_optional], [unwrap_optional_type], [is_type_union],
    [is_generic_list], [dataclass_fields], ...) are modelled from their documentation and are cited as such. *)
From Verif Require Import PyStr QuoteModel ObjectDict Types Objects Compat.
From Coq Require Import ZArith List.
Open Scope string_scope.

(** ** Python types *)

(** a class: module and name *)
Definition cid : Type := string * string.
Definition cid_eqb (a b : cid) : bool := String.eqb (fst a) (fst b) && String.eqb (snd a) (snd b).

(** an annotation of [Annotated]: model/key_types.py:6-38 and [strong_typing.auxiliary]; [MOther] is an instance of any
    other class *)
Inductive meta : Type :=
| MPrimary | MIdentity | MUnique
| MRange (lo hi : Z) | MSigned (b : bool) | MStorage (bytes : Z)
| MMaxLength (n : Z) | MMinLength (n : Z) | MLength (n : Z) | MPrecision (digits : Z) (decimals : Z) | MTimePrecision (n : Z)
| MOther (cls : string).
Definition meta_eq_dec (a b : meta) : {a = b} + {a <> b}.
Proof. decide equality; try apply Z.eq_dec; try apply string_dec; try apply Bool.bool_dec. Defined.
Definition meta_eqb (a b : meta) : bool := if meta_eq_dec a b then true else false.

(** [YCls]: an enumeration, data-class or other class; [YFwd]: a forward reference to a class.  [YJson] stands for
    [JsonType] where the converter itself passes that object on, [YDict] for a generic dictionary, [YDefault] for [DefaultTag], [YNone] for [type(None)].  As in Python an [Annotated] type is not nested
    directly in another and a union not directly in a union ([py_wf] in ConvertSpec). *)
Inductive pytype : Type :=
| YBool | YInt | YFloat | YStr | YDecimal | YDatetime | YDate | YTime | YTimedelta | YUuid | YJson | YIPv4 | YIPv6
| YBytes | YDict | YNone | YDefault
| YCls (c : cid) | YFwd (c : cid)
| YAnn (t : pytype) (ms : list meta)
| YUnion (l : list pytype)
| YList (t : pytype) | YSet (t : pytype)
| YLiteral (l : list pyval).

Fixpoint py_eqb (a b : pytype) : bool :=
  match a, b with
  | YBool, YBool | YInt, YInt | YFloat, YFloat | YStr, YStr | YDecimal, YDecimal | YDatetime, YDatetime | YDate, YDate
  | YTime, YTime | YTimedelta, YTimedelta | YUuid, YUuid | YJson, YJson | YIPv4, YIPv4 | YIPv6, YIPv6 | YBytes, YBytes | YDict, YDict
  | YNone, YNone | YDefault, YDefault => true
  | YCls c, YCls d | YFwd c, YFwd d => cid_eqb c d
  | YAnn t m, YAnn u n => py_eqb t u && list_eqb meta_eqb m n
  | YUnion l, YUnion m =>
      (fix go (l m : list pytype) : bool :=
         match l, m with [], [] => true | x :: l', y :: m' => py_eqb x y && go l' m' | _, _ => false end) l m
  | YList t, YList u | YSet t, YSet u => py_eqb t u
  | _, _ => false
  end.

(** [strong_typing.auxiliary] *)
Definition int_type (signed : bool) (bytes : Z) (lo hi : Z) : pytype := YAnn YInt [MSigned signed; MStorage bytes; MRange lo hi].
Definition py_int8 := int_type true 1 (- 2 ^ 7) (2 ^ 7 - 1).
Definition py_int16 := int_type true 2 (- 2 ^ 15) (2 ^ 15 - 1).
Definition py_int32 := int_type true 4 (- 2 ^ 31) (2 ^ 31 - 1).
Definition py_int64 := int_type true 8 (- 2 ^ 63) (2 ^ 63 - 1).
Definition py_uint8 := int_type false 1 0 (2 ^ 8 - 1).
Definition py_uint16 := int_type false 2 0 (2 ^ 16 - 1).
Definition py_uint32 := int_type false 4 0 (2 ^ 32 - 1).
Definition py_uint64 := int_type false 8 0 (2 ^ 64 - 1).
Definition py_float32 := YAnn YFloat [MStorage 4].
Definition py_float64 := YAnn YFloat [MStorage 8].

(** [strong_typing.core.JsonType] as the annotation of a field: a union that has [None] among its members *)
Definition py_json : pytype := YUnion [YNone; YBool; YInt; YFloat; YStr; YDict; YList YJson].

Definition is_none (t : pytype) : bool := match t with YNone => true | _ => false end.
Definition is_default_tag (t : pytype) : bool := match t with YDefault => true | _ => false end.

(** [unwrap_annotated_type] and [__metadata__] (strong_typing, typing) *)
Definition unwrap (t : pytype) : pytype := match t with YAnn u _ => u | _ => t end.
Definition metadata (t : pytype) : list meta := match t with YAnn _ ms => ms | _ => [] end.
(** [Annotated[(t, *ms)]]: nested annotations are flattened by [typing] *)
Definition mk_ann (t : pytype) (ms : list meta) : pytype :=
  match ms with [] => t | _ => match t with YAnn u ns => YAnn u (ns ++ ms)%list | _ => YAnn t ms end end.
(** [Union[tuple(l)]]: a single member is not a union *)
Definition mk_union (l : list pytype) : pytype := match l with [x] => x | _ => YUnion l end.
(** [is_type_optional]: a union that has [None] as a member *)
Definition is_optional (t : pytype) : bool := match unwrap t with YUnion l => existsb is_none l | _ => false end.
(** [unwrap_optional_type]: keeps annotations *)
Definition unwrap_optional (t : pytype) : pytype :=
  match unwrap t with YUnion l => mk_ann (mk_union (filter (fun x => negb (is_none x)) l)) (metadata t) | _ => t end.
(** [is_type_union]: a union other than [Optional[T]] *)
Definition is_union (t : pytype) : bool :=
  match unwrap t with YUnion l => Nat.ltb 2 (length l) || negb (existsb is_none l) | _ => false end.
Definition union_members (t : pytype) : list pytype := match unwrap t with YUnion l => l | _ => [] end.
(** [evaluate_member_type] *)
Definition evaluate (t : pytype) : pytype := match t with YFwd c => YCls c | _ => t end.
Definition is_list (t : pytype) : bool := match unwrap t with YList _ => true | _ => false end.
Definition is_set (t : pytype) : bool := match unwrap t with YSet _ => true | _ => false end.
(** [isinstance(typ, type)], with [__module__] and [__name__] of the class *)
Definition class_of (t : pytype) : option cid :=
  match t with
  | YCls c => Some c
  | YBytes => Some ("builtins", "bytes") | YNone => Some ("builtins", "NoneType")
  | YDefault => Some ("pysqlsync.model.key_types", "DefaultTag")
  | _ => None
  end.

(** ** Classes *)

(** value of a field's default: absent, [None], a value known to [constant], or a float, Decimal or datetime whose SQL text
    ([constant], model/data_types.py:32-42) is given *)
Inductive dflt : Type := DMissing | DNone | DVal (v : pyval) | DText (sql : string).
(** [DataclassField]: name, type (a string annotation is already evaluated), default *)
Record dfield : Type := Fld { f_name : string; f_type : pytype; f_default : dflt }.
(** [type(e.value)] and [e.value] of an enumeration member; the last component of [EObj] and [EOther] is [str(e.value)] *)
Inductive vtype : Type := VtStr | VtInt | VtCls (c : cid) | VtOther (n : string).
Inductive evalue : Type := EStr (s : string) | EInt (z : Z) | EObj (c : cid) (vs : list pyval) (text : string) | EOther (ty text : string).
Definition ev_type (e : evalue) : vtype := match e with EStr _ => VtStr | EInt _ => VtInt | EObj c _ _ => VtCls c | EOther t _ => VtOther t end.
Definition ev_text (e : evalue) : string := match e with EStr s => s | EInt z => z_to_str z | EObj _ _ t => t | EOther _ t => t end.
Definition ev_value (e : evalue) : pyval := match e with EStr s => PStr s | EInt z => PInt z | EObj _ vs _ => PTuple vs | EOther _ _ => POther end.
Definition vtype_eq_dec (a b : vtype) : {a = b} + {a <> b}.
Proof. decide equality; try apply string_dec. destruct c, c0. decide equality; apply string_dec. Defined.

(** [abstract]: [inspect.isabstract]; [doc]: description of the class and of its fields (docstring) *)
Inductive classdef : Type :=
| KData (fields : list dfield) (abstract : bool) (doc : option string) (params : list (string * string))
| KEnum (members : list evalue)
| KOther.

(** ** Options, py_to_sql.py:208-320 *)
Inductive enum_mode : Type := EmType | EmInline | EmRelation | EmCheck.
Inductive struct_mode : Type := SmType | SmInline | SmJson.
Inductive array_mode : Type := AmArray | AmJson | AmRelation.
(** [o_skip]: [isinstance(meta, skip_annotations)].  [o_same t]: whether an annotated type equal to [t] is the same object
    as [t] ([Annotated[...]] in [FieldProperties.field_type] makes a new object unless the bounded cache of [typing] still
    holds the old one): unknown to the program, so it is a parameter. *)
Record copts : Type := COpts {
  o_enum : enum_mode; o_struct : struct_mode; o_array : array_mode; o_extra : bool; o_qualified : bool;
  o_unique_names : bool; o_ns : list (string * option string); o_foreign : bool; o_check : bool; o_init : bool;
  o_subst : list (pytype * sqltype); o_skip : meta -> bool; o_auto : bool; o_same : pytype -> bool }.

Section Converter.
Variable env : cid -> classdef.
Variable o : copts.

(** [NamespaceMapping.get], 230-237 *)
Definition ns_get (m : string) : res (option string) :=
  match find (fun p => String.eqb (fst p) m) (o_ns o) with Some (_, n) => Ok n | None => Err "ValueError" end.
(** [create_qualified_id], 335-342 *)
Definition qualified_id_of (m n : string) : res qid :=
  do ns <- ns_get m; Ok (if o_qualified o then Qualified ns n else Prefixed ns n).
Definition class_qid (c : cid) : res qid := qualified_id_of (fst c) (snd c).
(** [create_qualified_prefix], 344-349 *)
Definition qualified_prefix (c : cid) : res string :=
  if o_unique_names o then do q <- class_qid c; Ok (replace1 "." "_" (compact_id q)) else Ok (snd c).
(** 351-361 *)
Definition key_name (tag : string) (c : cid) (f : string) : res string :=
  do p <- qualified_prefix c; Ok (tag ++ "_" ++ p ++ "_" ++ f).

(** [is_type_enum] (strong_typing) *)
Definition is_enum_cls (c : cid) : bool := match env c with KEnum _ => true | _ => false end.
Definition is_type_enum (t : pytype) : bool := match unwrap t with YCls c => is_enum_cls c | _ => false end.
(** [is_dataclass_type], [dataclass_fields] (strong_typing) *)
Definition fields_of (c : cid) : list dfield := match env c with KData fs _ _ _ => fs | _ => [] end.
Definition dataclass_of (t : pytype) : option cid :=
  match unwrap t with YCls c => match env c with KData _ _ _ _ => Some c | _ => None end | _ => None end.
(** [is_primary_key_type], model/properties.py:29-32 *)
Definition is_primary_key_type (t : pytype) : bool := existsb (meta_eqb MPrimary) (metadata t).
(** [dataclass_has_primary_key], inspection.py:114-120 *)
Definition has_key (c : cid) : bool := existsb (fun f => is_primary_key_type (f_type f)) (fields_of c).
(** [is_entity_type], [is_struct_type], inspection.py:58-73 *)
Definition entity_of (t : pytype) : option cid := match dataclass_of t with Some c => if has_key c then Some c else None | None => None end.
Definition is_entity (t : pytype) : bool := is_some (entity_of t).
Definition struct_of (t : pytype) : option cid := match dataclass_of t with Some c => if has_key c then None else Some c | None => None end.
(** [is_simple_type], inspection.py:29-55 *)
Fixpoint is_simple (t : pytype) : bool :=
  match t with
  | YBool | YInt | YFloat | YStr | YDecimal | YDatetime | YDate | YTime | YTimedelta | YUuid | YJson | YIPv4 | YIPv6 => true
  | YCls c => is_enum_cls c
  | YAnn u _ => is_simple u
  | YUnion l => existsb is_none l && Nat.eqb (length (filter (fun x => negb (is_none x)) l)) 1 && forallb (fun x => is_none x || is_simple x) l
  | _ => false
  end.

(** [FieldProperties] and [get_field_properties], model/properties.py:133-226 *)
Record fprops : Type := FP { p_plain : pytype; p_nullable : bool; p_meta : list meta; p_primary : bool; p_identity : bool; p_unique : bool }.
Definition is_constraint (m : meta) : bool := match m with MPrimary | MIdentity | MUnique => true | _ => false end.
Fixpoint remove_first (l : list pytype) : list pytype :=
  match l with [] => [] | x :: r => if is_default_tag x then r else x :: remove_first r end.
Definition drop_default (t : pytype) : pytype :=
  if is_union t && existsb is_default_tag (union_members t) then mk_union (remove_first (union_members t)) else t.
Definition field_properties (t : pytype) : fprops :=
  let plain := drop_default (unwrap t) in
  let nullable := is_optional plain in
  let plain := if nullable then unwrap_optional plain else plain in
  let ms := (metadata t ++ metadata plain)%list in
  FP (unwrap plain) nullable (filter (fun m => negb (is_constraint m)) ms)
     (existsb (meta_eqb MPrimary) ms) (existsb (meta_eqb MIdentity) ms) (existsb (meta_eqb MUnique) ms).
(** [FieldProperties.field_type], 153-163 *)
Definition field_type (p : fprops) : pytype := mk_ann (p_plain p) (p_meta p).

(** [dataclass_primary_key_name], [dataclass_primary_key_type], inspection.py:123-144 *)
Definition key_name_of (c : cid) : res string :=
  match find (fun f => is_primary_key_type (f_type f)) (fields_of c) with Some f => Ok (f_name f) | None => Err "TypeError" end.
Definition key_type_of (c : cid) : res pytype :=
  match find (fun f => p_primary (field_properties (f_type f))) (fields_of c) with
  | Some f => Ok (field_type (field_properties (f_type f))) | None => Err "TypeError" end.

(** ** Types *)

(** [options.substitutions.get(typ)] *)
Definition subst (t : pytype) : option sqltype :=
  match find (fun p => py_eqb (fst p) t) (o_subst o) with Some (_, s) => Some s | None => None end.
(** [typ is T] for an annotated type [T] *)
Definition same_object (t T : pytype) : bool := py_eqb t T && o_same o T.

(** [parse_meta]: model/data_types.py:71-74, 111-119, 142-146, 182-187, 206-210, 231-235, 255-259, 285-289; no engine overrides it *)
Fixpoint parse_meta (t : sqltype) (m : meta) : res sqltype :=
  match t with
  | TInt w s lo hi =>
      match m with
      | MRange a b => Ok (TInt w s (Some a) (Some b))
      | MSigned b => Ok (TInt w b lo hi)
      | MStorage n => Ok (TInt n s lo hi)
      | _ => Err "TypeError"
      end
  | TFloat _ => match m with MPrecision p _ => Ok (TFloat (Some p)) | _ => Err "TypeError" end
  | TDecimal _ _ => match m with MPrecision p d => Ok (TDecimal (Some p) (Some d)) | _ => Err "TypeError" end
  | TVarBin _ => match m with MStorage n => Ok (TVarBin (Some n)) | _ => Err "TypeError" end
  | TVarChar _ => match m with MMaxLength n => Ok (TVarChar (Some n)) | _ => Err "TypeError" end
  | TTimestamp _ z => match m with MTimePrecision n => Ok (TTimestamp (Some n) z) | _ => Err "TypeError" end
  | TTime _ z => match m with MTimePrecision n => Ok (TTime (Some n) z) | _ => Err "TypeError" end
  | TSub c u => do u' <- parse_meta u m; Ok (TSub c u')
  | _ => Err "TypeError"
  end.
(** the loop of 447-452 *)
Fixpoint parse_metas (t : option sqltype) (ms : list meta) : res (option sqltype) :=
  match ms with
  | [] => Ok t
  | m :: r => if o_skip o m then parse_metas t r
              else match t with None => Err "TypeError" | Some s => do s' <- parse_meta s m; parse_metas (Some s') r end
  end.
(** [enum_value_type], 121-128; [set.pop] of an empty set raises KeyError *)
Definition enum_value_type (vs : list evalue) : res vtype :=
  match nodup vtype_eq_dec (map ev_type vs) with [] => Err "KeyError" | [t] => Ok t | _ => Err "TypeError" end.
(** [ENUM_LABEL_TYPE], 114-118 *)
Definition label_type : pytype := YAnn YStr [MMaxLength 64].

(** [simple_type_to_sql_data_type] for unannotated types, 364-422 *)
Definition basic_sql (t : pytype) : option sqltype :=
  match t with
  | YBool => Some TBool
  | YInt => Some (TInt 8 true None None)
  | YFloat => Some TDouble
  | YStr => Some (TVarChar None)
  | YDecimal => Some (TDecimal None None)
  | YDatetime => Some (TTimestamp None false)
  | YDate => Some TDate
  | YTime => Some (TTime None false)
  | YTimedelta => Some TInterval
  | YUuid => Some TUuid
  | YJson => Some TJson
  | YIPv4 | YIPv6 => Some (TUser (Global "inet"))
  | _ => None
  end.
Definition plain_int (w : Z) : sqltype := TInt w true None None.
Definition extra (n : string) (w : Z) : sqltype := if o_extra o then TUser (Global n) else plain_int w.
(** ... and for the fixed-width types, 374-406 *)
Definition fixed_sql (t : pytype) : option sqltype :=
  if same_object t py_int8 then Some (extra "int1" 2)
  else if same_object t py_int16 then Some (plain_int 2)
  else if same_object t py_int32 then Some (plain_int 4)
  else if same_object t py_int64 then Some (plain_int 8)
  else if same_object t py_uint8 then Some (extra "uint1" 2)
  else if same_object t py_uint16 then Some (extra "uint2" 2)
  else if same_object t py_uint32 then Some (extra "uint4" 4)
  else if same_object t py_uint64 then Some (extra "uint8" 8)
  else if same_object t py_float32 then Some TReal
  else if same_object t py_float64 then Some TDouble
  else None.
(** the SQL type that annotations are applied to, 427-445 *)
Definition annotated_base (t : pytype) : option sqltype :=
  match subst t with
  | Some s => Some s
  | None => match t with
            | YInt => Some (plain_int 8)
            | YStr => Some (TVarChar None)
            | YFloat => Some (TFloat None)
            | YDecimal => Some (TDecimal None None)
            | YDatetime => Some (TTimestamp None false)
            | YTime => Some (TTime None false)
            | _ => None
            end
  end.
(** 363-457, everything but enumerations *)
Definition value_sql (t : pytype) : res (option sqltype) :=
  match subst t with
  | Some s => Ok (Some s)
  | None =>
      match basic_sql t with
      | Some s => Ok (Some s)
      | None =>
          match fixed_sql t with
          | Some s => Ok (Some s)
          | None => match metadata t with [] => Ok None | ms => parse_metas (annotated_base (unwrap t)) ms end
          end
      end
  end.
(** [_enumeration_key_type], 489-492 *)
Definition scalar_sql (t : pytype) : res sqltype :=
  do s <- value_sql t; match s with Some s => Ok s | None => Err "TypeError" end.
Definition enum_key_sql : res sqltype := scalar_sql py_int32.
(** 459-485 *)
Definition enum_sql (c : cid) (vs : list evalue) : res sqltype :=
  do vt <- enum_value_type vs;
  match vt with
  | VtInt | VtStr =>
      match o_enum o with
      | EmType => do q <- class_qid c; Ok (TUser q)
      | EmInline => Ok (TEnum (map ev_text vs))
      | EmRelation => enum_key_sql
      | EmCheck => scalar_sql (match vt with VtStr => label_type | _ => YInt end)
      end
  | _ => match o_enum o with EmRelation => enum_key_sql | _ => Err "TypeError" end
  end.
(** [simple_type_to_sql_data_type], 363-487 *)
Definition simple_sql (t : pytype) : res sqltype :=
  do s <- value_sql t;
  match s with
  | Some s => Ok s
  | None => match unwrap t with
            | YCls c => match env c with KEnum vs => enum_sql c vs | _ => Err "TypeError" end
            | _ => Err "TypeError"
            end
  end.

(** [is_extensible_enum_type], 147-166 (a member [type(None)] is not the object [None] of the test in line 160) *)
Definition is_extensible (t : pytype) : bool :=
  is_union t && forallb (fun x => let u := unwrap (evaluate x) in match u with YStr => true | _ => is_type_enum u end) (union_members t).
(** [unwrap_extensible_enum_type], 169-177 *)
Definition extensible_enum (t : pytype) : res cid :=
  match find is_type_enum (map evaluate (union_members t)) with
  | Some u => match unwrap u with YCls c => Ok c | _ => Err "TypeError" end
  | None => Err "TypeError"
  end.
Definition literal_type (v : pyval) : option pytype :=
  match v with PStr _ => Some YStr | PBool _ => Some YBool | PInt _ => Some YInt | _ => None end.

(** [isinstance(typ, ForwardRef)], [is_type_literal] and [unwrap_literal_values], [is_generic_list] and [unwrap_generic_list]
    (the same for sets) *)
Definition forward_of (t : pytype) : option cid := match t with YFwd c => Some c | _ => None end.
Definition literals_of (t : pytype) : option (list pyval) := match unwrap t with YLiteral vs => Some vs | _ => None end.
Definition items_of (t : pytype) : option pytype := match unwrap t with YList e | YSet e => Some e | _ => None end.

(** [member_to_sql_data_type], 540-662.  [fuel] bounds the recursion through key types, inline structures, forward
    references and unions; Python raises RecursionError when it is infinite. *)
Fixpoint member_sql (fuel : nat) (t : pytype) : res sqltype :=
  match fuel with
  | O => Err "RecursionError"
  | S n =>
      match subst t with
      | Some s => Ok s
      | None =>
      if is_simple t then simple_sql t else
      match entity_of t with
      | Some c => do k <- key_type_of c; member_sql n k
      | None =>
      match dataclass_of t with
      | Some c =>
          match o_struct o with
          | SmType => do q <- class_qid c; Ok (TUser q)
          | SmInline =>
              do ms <- map_res (fun f => let p := field_properties (f_type f) in
                                         do s <- member_sql n (field_type p); Ok (f_name f, s, p_nullable p)) (fields_of c);
              Ok (TStruct ms)
          | SmJson => member_sql n YJson
          end
      | None =>
      match forward_of t with
      | Some c => member_sql n (YCls c)
      | None =>
      match literals_of t with
      | Some vs =>
          if forallb (fun v => match v with PStr _ => true | _ => false end) vs
          then compatible_type (map (fun v => TFixChar (Some (Z.of_nat (match v with PStr s => String.length s | _ => O end)))) vs)
          else do ss <- map_res (fun v => match literal_type v with Some u => member_sql n u | None => Err "TypeError" end) vs;
               compatible_type ss
      | None =>
      match items_of t with
      | Some e =>
          if is_simple e
          then match o_array o with
               | AmArray => do s <- simple_sql e; Ok (TArray s)
               | AmJson => member_sql n YJson
               | AmRelation => Err "TypeError"
               end
          else if is_entity e then Err "TypeError"
          else match class_of e with
               | Some c => match o_array o with
                           | AmArray => do q <- class_qid c; Ok (TArray (TUser q))
                           | AmJson => member_sql n YJson
                           | AmRelation => Err "TypeError"
                           end
               | None => Err "TypeError"
               end
      | None =>
      if is_extensible t then enum_key_sql
      else if is_union t then
        let ms := map evaluate (union_members t) in
        if forallb is_entity ms
        then do ks <- map_res (fun m => match entity_of m with Some c => key_type_of c | None => Err "TypeError" end) ms;
             match ks with
             | [] => Err "KeyError"
             | k :: r => if forallb (py_eqb k) r then member_sql n k else Err "TypeError"
             end
        else do ss <- map_res (member_sql n) ms; compatible_type ss
      else match class_of t with Some c => do q <- class_qid c; Ok (TUser q) | None => Err "TypeError" end
      end end end end end end
  end.

(** ** Relationships, columns, tables *)

(** [_get_relationship], 494-538: is it a set?, and the element type *)
Definition relationship (t : pytype) : option (bool * pytype) :=
  let u := unwrap (if is_optional t then unwrap_optional t else t) in
  match u with
  | YList e => if (match o_array o with AmRelation => true | _ => false end) || is_entity e then Some (false, e) else None
  | YSet e => if (match o_array o with AmRelation => true | _ => false end) || is_entity e then Some (true, e) else None
  | _ => None
  end.

Definition default_text (d : dflt) : res (option string) :=
  match d with
  | DMissing | DNone => Ok None
  | DVal v => do s <- constant v; Ok (Some s)
  | DText s => Ok (Some s)
  end.
(** [constant(plain_type())] and its special cases, 701-716 *)
Definition auto_text (t : pytype) : res string :=
  match t with
  | YDatetime => Ok "'0001-01-01 00:00:00'"
  | YDate | YTime => Err "NotImplementedError"
  | _ =>
      match unwrap t with
      | YCls c => match env c with
                  | KEnum (e :: _) => constant (ev_value e)
                  | KEnum [] => Err "StopIteration"
                  | _ => Err "TypeError"
                  end
      | YInt => Ok "0" | YStr => Ok "''" | YBool => Ok "FALSE" | YFloat => Ok "0.0" | YDecimal => Ok "0"
      | YTimedelta => Err "NotImplementedError"
      | _ => Err "TypeError"
      end
  end.
(** the type whose default is taken, 680-700; [is_reference_type], [reference_to_key]: inspection.py:76-93, 158-194 *)
Definition auto_type (t : pytype) : res (option pytype) :=
  match entity_of t with
  | Some c => do k <- key_type_of c; Ok (Some k)
  | None =>
      if is_union t then
        let ms := map evaluate (union_members t) in
        if forallb is_entity ms
        then match ms with
             | m :: _ => match entity_of m with Some c => do k <- key_type_of c; Ok (Some k) | None => Err "TypeError" end
             | [] => Err "IndexError"
             end
        else Ok (find is_simple ms)
      else if is_some (struct_of t) || is_list t || is_set t then Ok None
      else Ok (Some t)
  end.
(** [member_to_column], 664-733 *)
Definition member_column (fuel : nat) (params : list (string * string)) (f : dfield) : res column :=
  let p := field_properties (f_type f) in
  do ty <- member_sql fuel (field_type p);
  do d <- match f_default f with
          | DVal _ | DText _ => default_text (f_default f)
          | DMissing | DNone =>
              if o_auto o && negb (p_nullable p) && negb (p_primary p) && negb (p_identity p)
              then do u <- auto_type (p_plain p);
                   match u with Some u => do s <- auto_text u; Ok (Some s) | None => Ok None end
              else Ok None
          end;
  Ok (Col (f_name f) ty (p_nullable p) d (p_identity p)
          (match find (fun e => String.eqb (fst e) (f_name f)) params with Some (_, s) => Some s | None => None end)).

(** [dataclass_fields_as_required], 180-187 *)
Definition required_type (f : dfield) : pytype := evaluate (field_type (field_properties (f_type f))).

(** [dataclass_to_constraints], 832-891 *)
Definition unique_constraints (c : cid) : res (list constr) :=
  do l <- map_res (fun f => if p_unique (field_properties (f_type f))
                            then do n <- key_name "uq" c (f_name f); Ok [CUnique n [f_name f]] else Ok []) (fields_of c);
  Ok (concat l).
Definition reference_to (c : cid) : res (qid * list string) := do q <- class_qid c; do k <- key_name_of c; Ok (q, [k]).
Definition field_reference (c : cid) (f : dfield) : res (list constr) :=
  let t := required_type f in
  do fk <- match entity_of t with
           | Some r => do n <- key_name "fk" c (f_name f); do ref <- reference_to r; Ok [CForeign n [f_name f] (fst ref) (snd ref)]
           | None => Ok []
           end;
  do dk <- if is_union t
           then let ms := map evaluate (union_members t) in
                if forallb is_entity ms
                then do n <- key_name "dk" c (f_name f);
                     do refs <- map_res (fun m => match entity_of m with Some r => reference_to r | None => Err "TypeError" end) ms;
                     Ok [CDiscr n [f_name f] refs]
                else Ok []
           else Ok [];
  Ok (fk ++ dk)%list.
Definition class_constraints (c : cid) : res (list constr) :=
  do us <- unique_constraints c;
  do rs <- if o_foreign o then do l <- map_res (field_reference c) (fields_of c); Ok (concat l) else Ok [];
  Ok (us ++ rs)%list.
(** 755-787: references of enumerations *)
Definition enum_reference (c : cid) (f : dfield) (e : cid) : res constr :=
  do n <- key_name "fk" c (f_name f); do q <- class_qid e; Ok (CForeign n [f_name f] q ["id"]).
Definition extensible_constraints (c : cid) : res (list constr) :=
  map_res (fun f => do e <- extensible_enum (required_type f); enum_reference c f e)
          (filter (fun f => is_extensible (required_type f)) (fields_of c)).
Definition enum_fields (c : cid) : list dfield := filter (fun f => is_type_enum (required_type f)) (fields_of c).
Definition enum_class (t : pytype) : res cid := match unwrap t with YCls c => Ok c | _ => Err "TypeError" end.
Definition enum_constraints (c : cid) : res (list constr) :=
  map_res (fun f => do e <- enum_class (required_type f); enum_reference c f e) (enum_fields c).
(** 789-797 *)
Definition enum_values (t : pytype) : list evalue := match unwrap t with YCls c => match env c with KEnum vs => vs | _ => [] end | _ => [] end.
Definition enum_checks (c : cid) : res (list constr) :=
  map_res (fun f => do vs <- map_res (fun e => constant (ev_value e)) (enum_values (required_type f));
                    do n <- key_name "ch" c (f_name f);
                    Ok (CCheck n (local_quoted (f_name f) ++ " IN (" ++ join_str ", " vs ++ ")"))) (enum_fields c).
(** [create_check_constraint], 819-830, and 799-807 *)
Definition check_condition (k : column) : option string :=
  match base_type (c_type k) with
  | TInt _ _ lo hi =>
      let l := (match lo with Some z => [(local_quoted (c_name k) ++ " >= " ++ z_to_str z)%string] | None => [] end ++
                match hi with Some z => [(local_quoted (c_name k) ++ " <= " ++ z_to_str z)%string] | None => [] end)%list in
      match l with [] => None | _ => Some (join_str " AND " (map (fun c => "(" ++ c ++ ")") l)) end
  | _ => None
  end.
Definition column_checks (c : cid) (cols : list column) : res (list constr) :=
  do l <- map_res (fun k => match check_condition k with
                            | Some s => do n <- key_name "ch" c (c_name k); Ok [CCheck n s] | None => Ok [] end) cols;
  Ok (concat l).

(** constructor of [Table]: the collections are [ObjectDict]s, object_types.py:378-392 *)
Definition make_table (q : qid) (cols : list column) (pk : list string) (ks : list constr) (d : option string) (vals : option (list pyval)) : table :=
  Tab q (od_make c_name cols) pk (od_make k_name ks) d vals.
Definition params_of (c : cid) : list (string * string) := match env c with KData _ _ _ ps => ps | _ => [] end.
Definition doc_of (c : cid) : option string := match env c with KData _ _ d _ => d | _ => None end.
Definition column_fields (c : cid) : list dfield := filter (fun f => negb (is_some (relationship (f_type f)))) (fields_of c).
(** [dataclass_to_table], 735-817 *)
Definition table_columns (fuel : nat) (c : cid) : res (list column) := map_res (member_column fuel (params_of c)) (column_fields c).
Definition table_keys (c : cid) (cols : list column) : res (list constr) :=
  do k1 <- if o_foreign o then class_constraints c else Ok [];
  do k2 <- extensible_constraints c;
  do k3 <- match o_enum o with EmRelation => enum_constraints c | _ => Ok [] end;
  do k4 <- match o_enum o with EmCheck => if o_check o then enum_checks c else Ok [] | _ => Ok [] end;
  do k5 <- column_checks c cols;
  Ok (k1 ++ k2 ++ k3 ++ k4 ++ k5)%list.
Definition dataclass_to_table (fuel : nat) (c : cid) : res table :=
  match env c with
  | KData _ _ _ _ =>
      do cols <- table_columns fuel c;
      do ks <- table_keys c cols;
      do q <- class_qid c;
      do k <- key_name_of c;
      Ok (make_table q cols [k] ks (doc_of c) None)
  | _ => Err "TypeError"
  end.

(** [member_to_field], [dataclass_to_struct], 893-928 *)
Definition dataclass_to_struct (fuel : nat) (c : cid) : res structt :=
  match env c with
  | KData _ _ _ _ =>
      do ms <- map_res (fun f => do s <- member_sql fuel (field_type (field_properties (f_type f)));
                                 Ok (Mem (f_name f) s (match find (fun e => String.eqb (fst e) (f_name f)) (params_of c) with Some (_, d) => Some d | None => None end)))
                       (fields_of c);
      do q <- class_qid c;
      Ok (Struct q (od_make m_name ms) (doc_of c))
  | _ => Err "TypeError"
  end.

(** [_enum_table], 930-993 *)
Definition enum_table (fuel : nat) (c : cid) : res table :=
  do q <- class_qid c;
  do kt <- enum_key_sql;
  match env c with
  | KEnum vs =>
      do vt <- enum_value_type vs;
      do rest <- match vt with
                 | VtInt | VtStr => do s <- member_sql fuel label_type;
                                    Ok ([Col "value" s false None false None], [CUnique ("uq_" ++ snd c) ["value"]])
                 | VtCls d => match env d with
                              | KData _ _ _ _ => do l <- map_res (member_column fuel (params_of d)) (fields_of d); Ok (l, [])
                              | _ => Err "TypeError"
                              end
                 | VtOther _ => Err "TypeError"
                 end;
      Ok (make_table q (Col "id" kt false None true None :: fst rest) ["id"] (snd rest) None
                     (if o_init o then Some (map ev_value vs) else None))
  | _ => Err "AttributeError"
  end.

(** ** Catalogs *)

(** a dictionary of lists: [d.setdefault(k, []).append(x)] *)
Fixpoint multi_add {A} (k : string) (x : A) (d : list (string * list A)) : list (string * list A) :=
  match d with
  | [] => [(k, [x])]
  | (j, l) :: r => if String.eqb j k then (j, (l ++ [x])%list) :: r else (j, l) :: multi_add k x r
  end.
Definition multi_get {A} (k : string) (d : list (string * list A)) : list A :=
  match find (fun p => String.eqb (fst p) k) d with Some (_, l) => l | None => [] end.
Definition multi_of {A} (l : list (string * A)) : list (string * list A) := fold_left (fun d p => multi_add (fst p) (snd p) d) l [].

(** [sort(key=lambda e: e.__name__)]: stable *)
Definition sort_names (l : list cid) : list cid := od_sort (fun c : cid => snd c) l.
Definition is_struct_cls (c : cid) : bool := match env c with KData _ _ _ _ => negb (has_key c) | _ => false end.
Definition is_entity_cls (c : cid) : bool := match env c with KData _ _ _ _ => has_key c | _ => false end.
Definition is_abstract (c : cid) : bool := match env c with KData _ a _ _ => a | _ => false end.
(** [set.add] of every element: no duplicates; iteration order is that of the argument (the callers sort) *)
Definition cid_eq_dec (a b : cid) : {a = b} + {a <> b}.
Proof. destruct a, b. decide equality; apply string_dec. Defined.
Definition as_set (l : list cid) : list cid := nodup cid_eq_dec l.

(** 1012-1033 *)
Definition enum_types (refs : list cid) : res (list (string * enumt)) :=
  match o_enum o with
  | EmType =>
      do l <- map_res (fun c => match env c with
                                | KEnum vs => if Nat.ltb (length vs) 2 then Ok []
                                              else do ns <- ns_get (fst c); Ok [(fst c, Enum (Qualified ns (snd c)) (map ev_text vs))]
                                | _ => Ok [] end)
                      (sort_names (filter is_enum_cls refs));
      Ok (concat l)
  | _ => Ok []
  end.
(** 1035-1043; [topo]: [_topological_sort] *)
Definition struct_types (fuel : nat) (topo : list cid -> list cid) (refs : list cid) : res (list (string * structt)) :=
  match o_struct o with
  | SmType => map_res (fun c => do s <- dataclass_to_struct fuel c; Ok (fst c, s)) (topo (sort_names (filter is_struct_cls refs)))
  | _ => Ok []
  end.
(** 1045-1051 *)
Definition table_types (refs : list cid) : list cid := sort_names (filter is_entity_cls refs).
Definition entity_tables (fuel : nat) (tys : list cid) : res (list (string * table)) :=
  map_res (fun c => do t <- dataclass_to_table fuel c; Ok (fst c, t)) tys.
(** 1053-1076: fields of type [E], [list[E]], [set[E]] *)
Definition item_enum (t : pytype) : list cid :=
  match unwrap t with
  | YCls c => if is_enum_cls c then [c] else []
  | YList e | YSet e => match unwrap e with YCls c => if is_enum_cls c then [c] else [] | _ => [] end
  | _ => []
  end.
Definition regular_enums (tys : list cid) : list cid :=
  match o_enum o with
  | EmRelation => as_set (flat_map (fun c => flat_map (fun f => item_enum (required_type f)) (fields_of c)) tys)
  | _ => []
  end.
(** 1078-1089 *)
Definition extensible_enums (tys : list cid) : res (list cid) :=
  do l <- map_res (fun c => map_res (fun f => extensible_enum (required_type f))
                                    (filter (fun f => is_extensible (required_type f)) (fields_of c))) tys;
  Ok (as_set (concat l)).
Definition enum_tables (fuel : nat) (es : list cid) : res (list (string * table)) :=
  map_res (fun c => do t <- enum_table fuel c; Ok (fst c, t)) (sort_names es).
(** 1092-1180: join tables *)
Definition join_table (fuel : nat) (c : cid) (f : dfield) : res (list (string * table)) :=
  match relationship (f_type f) with
  | None => Ok []
  | Some (is_set_rel, item) =>
      do left_key <- key_name_of c;
      do right <- match entity_of item with
                  | Some r => do k <- key_name_of r; do kt <- key_type_of r; do s <- member_sql fuel kt; Ok (r, k, s)
                  | None => match o_enum o, unwrap item with
                            | EmRelation, YCls e => if is_enum_cls e then do s <- enum_key_sql; Ok (e, "id", s) else Err "TypeError"
                            | _, _ => Err "TypeError"
                            end
                  end;
      let '(r, rk, rs) := right in
      do p <- qualified_prefix c;
      do ql <- class_qid c;
      do qr <- class_qid r;
      let column_left := snd c ++ "_" ++ f_name f in
      let column_right := snd r ++ "_" ++ rk in
      let table_name := column_left ++ "_" ++ snd r in
      let join_left := p ++ "_" ++ f_name f in
      let join_right := join_left ++ "_" ++ snd r in
      do qt <- qualified_id_of (fst c) table_name;
      do us <- member_sql fuel YUuid;
      do lt <- key_type_of c;
      do ls <- member_sql fuel lt;
      Ok [(fst c, make_table qt
             [Col "uuid" us false None false None; Col column_left ls false None false None; Col column_right rs false None false None]
             ["uuid"]
             ([CForeign ("jk_" ++ join_left)%string [column_left] ql [left_key];
               CForeign ("jk_" ++ join_right)%string [column_right] qr [rk]] ++
              (if is_set_rel then [CUnique ("uq_" ++ join_right)%string [column_right]] else []))%list None None)]
  end.
Definition join_tables (fuel : nat) (tys : list cid) : res (list (string * table)) :=
  do l <- map_res (fun c => do l <- map_res (join_table fuel c) (fields_of c); Ok (concat l)) tys; Ok (concat l).

(** constructor of [Namespace], object_types.py:666-676 *)
Definition make_ns (n : string) (es : list enumt) (ss : list structt) (ts : list table) : namespace :=
  Ns n (od_make e_key es) (od_make s_key ss) (od_make t_key ts).
Definition or_empty (n : option string) : string := match n with Some s => s | None => "" end.
(** 1182-1204 *)
Definition make_catalog (es : list (string * list enumt)) (ss : list (string * list structt)) (ts : list (string * list table)) : res catalog :=
  if o_qualified o
  then do nss <- map_res (fun p => do n <- ns_get (fst p);
                                   Ok (make_ns (or_empty n) (multi_get (fst p) es) (multi_get (fst p) ss) (snd p))) ts;
       Ok (od_make n_name nss)
  else Ok [make_ns "" (concat (map snd es)) (concat (map snd ss)) (concat (map snd ts))].

(** [dataclasses_to_catalog], 995-1204.  [refs] is the set built in 1005-1010 from the concrete classes of [entity_types]
    and [get_referenced_types] (strong_typing), in the unspecified order of iterating a Python set. *)
Definition all_tables (fuel : nat) (refs : list cid) : res (list (string * table)) :=
  let tys := table_types refs in
  do t1 <- entity_tables fuel tys;
  do t2 <- enum_tables fuel (regular_enums tys);
  do xs <- extensible_enums tys;
  do t3 <- enum_tables fuel xs;
  do t4 <- join_tables fuel tys;
  Ok (t1 ++ t2 ++ t3 ++ t4)%list.
Definition dataclasses_to_catalog (fuel : nat) (topo : list cid -> list cid) (refs : list cid) : res catalog :=
  do es <- enum_types refs;
  do ss <- struct_types fuel topo refs;
  do ts <- all_tables fuel refs;
  make_catalog (multi_of es) (multi_of ss) (multi_of ts).
End Converter.
