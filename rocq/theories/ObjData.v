(** Objects of data-classes become records: [insert_data], [upsert_data] and [delete_data]. *)
From Verif Require Import PyStr QuoteModel ObjectDict Types Objects Ddl Dml DmlText Convert.
From Coq Require Import List ZArith.
Import ListNotations.
Open Scope string_scope.
Open Scope list_scope.

Section Values.
  (** a value of any other Python type *)
  Variable V : Type.
  (** A Python value: [None], a member of an enumeration, a UUID and an IP address (with the bytes that [.bytes] and [.packed] give), a
      time of day (microseconds since midnight), any other *)
  Inductive obj : Type :=
  | ONone | OMember (c : cid) (e : evalue) | OUuid (bytes : string) | OAddress (bytes : string) | OTime (micros : Z) | OOther (v : V).
  (** what the driver is given: the object, the value of a member, bytes, a [timedelta] *)
  Inductive handed : Type := HObject (x : obj) | HLabel (e : evalue) | HBytes (bytes : string) | HInterval (micros : Z).
  Inductive call : Type :=
  | CNothing                                                       (* no data: a warning *)
  | CExecute (statement : string) (records : list (list handed))  (* [executemany] *)
  | CCopy (q : qid) (columns : list string) (records : list (list handed)). (* asyncpg's [copy_records_to_table] *)

  Variable env : cid -> classdef.

  (** [is_ip_address_type], inspection.py:94-110 *)
  Definition is_ip (t : pytype) : bool :=
    match t with
    | YIPv4 | YIPv6 => true
    | _ => is_union t && Nat.eqb (length (union_members t)) 2 &&
           existsb (py_eqb YIPv4) (union_members t) && existsb (py_eqb YIPv6) (union_members t)
    end.
  (** [obj.field.bytes] and the like *)
  Definition bytes_of (x : obj) : res handed := match x with OUuid b => Ok (HBytes b) | _ => Err "AttributeError" end.
  Definition packed_of (x : obj) : res handed := match x with OAddress b => Ok (HBytes b) | _ => Err "AttributeError" end.
  Definition interval_of (x : obj) : res handed := match x with OTime m => Ok (HInterval m) | _ => Err "TypeError" end.
  (** [get_field_extractor]: base.py:500-508, mysql/generator.py:120-128, mssql/generator.py:75-83, oracle/generator.py:89-104.  (An object
      that is not of the field's type and yet has the attribute is left out.) *)
  Definition base_extract (t : pytype) (x : obj) : res handed :=
    if is_type_enum env t then match x with OMember _ e => Ok (HLabel e) | _ => Err "AttributeError" end else Ok (HObject x).
  Definition extract (d : dialect) (t : pytype) (x : obj) : res handed :=
    match d with
    | DMySQL | DMSSQL => if py_eqb t YUuid then bytes_of x else if is_ip t then packed_of x else base_extract t x
    | DOracle => if py_eqb t YUuid then bytes_of x else if is_ip t then packed_of x else if py_eqb t YTime then interval_of x else base_extract t x
    | _ => base_extract t x
    end.

  (** [_get_dataclass_extractors], base.py:486-498: the fields whose values are taken.  [dataclasses.fields]: annotations are not postponed. *)
  Definition extracted_fields (t : table) (c : cid) (skip_identity : bool) : res (list dfield) :=
    filter_res (fun f => match od_get c_name (f_name f) (t_columns t) with
                         | Some k => Ok (negb (skip_identity && c_identity k))
                         | None => Err "KeyError"
                         end) (fields_of env c).
  (** An instance has a value for each field.  [get_dataclasses_as_records], base.py:467-484 (records are made while they are sent, so that some
      may be sent before one fails) *)
  Definition instance : Type := string -> obj.
  Definition record_of (d : dialect) (fs : list dfield) (x : instance) : res (list handed) := map_res (fun f => extract d (f_type f) (x (f_name f))) fs.
  Definition records_of (d : dialect) (t : table) (c : cid) (skip : bool) (xs : list instance) : res (list (list handed)) :=
    do fs <- extracted_fields t c skip; map_res (record_of d fs) xs.

  (** [is_identity_type], model/properties.py:35-38 *)
  Definition is_identity_type (t : pytype) : bool := existsb (meta_eqb MIdentity) (metadata t).
  (** [insert_data]: base.py:1003-1014, postgresql/connection.py:105-122; [t] is the table that the generator has for the class *)
  Definition insert_data (d : dialect) (t : table) (c : cid) (xs : list instance) : res call :=
    match d with
    | DPg => do rs <- records_of d t c true xs;
             Ok (CCopy (t_name t) (map f_name (filter (fun f => negb (is_identity_type (f_type f))) (fields_of env c))) rs)
    | _ => match xs with
           | [] => Ok CNothing
           | _ => do s <- insert_stmt t None; do rs <- records_of d t c true xs; Ok (CExecute (render_dml d s) rs)
           end
    end.
  (** [upsert_data], base.py:1016-1027 *)
  Definition upsert_data (d : dialect) (t : table) (c : cid) (xs : list instance) : res call :=
    match xs with
    | [] => Ok CNothing
    | _ => do s <- upsert_stmt d t None; do rs <- records_of d t c false xs; Ok (CExecute (render_dml d s) rs)
    end.
  (** [delete_data], base.py:1029-1041 *)
  Definition delete_data (d : dialect) (t : table) (keys : list obj) : res call :=
    match keys with
    | [] => Ok CNothing
    | _ => do s <- delete_stmt t; Ok (CExecute (render_dml d s) (map (fun k => [HObject k]) keys))
    end.
End Values.
Arguments ONone {V}. Arguments OMember {V}. Arguments OUuid {V}. Arguments OAddress {V}. Arguments OTime {V}. Arguments OOther {V}.
Arguments HObject {V}. Arguments HLabel {V}. Arguments HBytes {V}. Arguments HInterval {V}.
Arguments CNothing {V}. Arguments CExecute {V}. Arguments CCopy {V}.
Arguments extract {V}. Arguments record_of {V}. Arguments records_of {V}. Arguments insert_data {V}. Arguments upsert_data {V}. Arguments delete_data {V}.
Arguments base_extract {V}. Arguments bytes_of {V}. Arguments packed_of {V}. Arguments interval_of {V}.
