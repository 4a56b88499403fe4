(** Model of the functions that derive data-classes from data-classes: pysqlsync/model/entity_types.py ([make_entity]) and
    pysqlsync/util/dataclasses.py ([flatten_dataclass], [make_dataclass]), and of [dataclasses.make_dataclass] of Python.

    Simplifications: the description of a class is given by the text and a list of parameters with their descriptions; the type of
    a parameter in the documentation is left out. *)
From Verif Require Import PyStr QuoteModel ObjectDict Types Objects Convert.
From Coq Require Import List.
Import ListNotations.
Open Scope string_scope.
Open Scope list_scope.

(** a field of a class: [m_factory] if it has a [default_factory]; then [default] is [MISSING] *)
Record mfield : Type := MField { m_field : dfield; m_factory : bool }.
Definition m_name (m : mfield) : string := f_name (m_field m).
Definition has_default (m : mfield) : bool := m_factory m || match f_default (m_field m) with DMissing => false | _ => true end.

(** Python: [dataclasses.make_dataclass] refuses duplicate names and a required field after one with a default. *)
Fixpoint ordered (seen : bool) (l : list mfield) : bool :=
  match l with
  | [] => true
  | m :: r => if has_default m then ordered true r else negb seen && ordered false r
  end.
Fixpoint distinct (l : list string) : bool := match l with [] => true | x :: r => negb (existsb (String.eqb x) r) && distinct r end.
Definition py_make (l : list mfield) : res (list mfield) := if distinct (map m_name l) && ordered false l then Ok l else Err "TypeError".

(** ** model/entity_types.py *)
(** [(name, type, dataclasses.field(default=...))], 49-61: the default is passed on, not the factory *)
Definition plain_field (f : dfield) : mfield := MField f false.
(** [key_value_fields], 10-32: the last field of the name is the key *)
Fixpoint key_value_loop (key : string) (k : option dfield) (vs : list dfield) (l : list mfield) : option dfield * list dfield :=
  match l with
  | [] => (k, vs)
  | m :: r => if String.eqb (m_name m) key then key_value_loop key (Some (m_field m)) vs r else key_value_loop key k (vs ++ [m_field m]) r
  end.
Definition key_value_fields (l : list mfield) (key : string) : res (dfield * list dfield) :=
  match key_value_loop key None [] l with (Some k, vs) => Ok (k, vs) | (None, _) => Err "ValueError" end.
(** [make_entity], 35-75; [PrimaryKey[T]] is [Annotated[T, PrimaryKeyTag()]], model/key_types.py:6-20 *)
Definition make_entity (l : list mfield) (key : string) : res (list mfield) :=
  do r <- key_value_fields l key;
  let (k, vs) := r in
  py_make (plain_field (Fld (f_name k) (mk_ann (f_type k) [MPrimary]) (f_default k)) :: map plain_field vs).

(** ** util/dataclasses.py *)
Section Flatten.
  Variable env : cid -> classdef.
  Definition params_of (c : cid) : list (string * string) := match env c with KData _ _ _ ps => ps | _ => [] end.
  Definition set_param (n d : string) (ps : list (string * string)) : list (string * string) := filter (fun p => negb (String.eqb (fst p) n)) ps ++ [(n, d)].
  Definition get_param (n : string) (ps : list (string * string)) : option string :=
    match find (fun p => String.eqb (fst p) n) ps with Some p => Some (snd p) | None => None end.
  (** [is_struct_type(plain_type)], formation/inspection.py:67-73 *)
  Definition struct_plain (t : pytype) : option cid := match p_plain (field_properties t) with YCls c => struct_of env (YCls c) | _ => None end.
  Definition nested_name (f g : string) : string := (f ++ "__" ++ g)%string.
  (** [flatten_dataclass], 58-90: fields and descriptions of parameters; [make_dataclass] passes on the default of a field, 36, so that it is enough to keep it *)
  Definition flatten_step (acc : list dfield * list (string * string)) (m : mfield) : list dfield * list (string * string) :=
    let (fields, ps) := acc in
    let f := m_field m in
    match struct_plain (f_type f) with
    | Some c =>
        (fields ++ map (fun g => Fld (nested_name (f_name f) (f_name g)) (f_type g) (f_default g)) (fields_of env c),
         fold_left (fun ps g => match get_param (f_name g) (params_of c) with Some d => set_param (nested_name (f_name f) (f_name g)) d ps | None => ps end) (fields_of env c) ps)
    | None => (fields ++ [f], ps)
    end.
  Definition flatten_dataclass (l : list mfield) (ps : list (string * string)) : list dfield * list (string * string) := fold_left flatten_step l ([], ps).
  (** [make_dataclass], 13-55: fields without their factories; descriptions of fields that there are *)
  Definition make_dataclass (fields : list dfield) (ps : list (string * string)) : res (list mfield * list (string * string)) :=
    do l <- py_make (map plain_field fields);
    Ok (l, filter (fun p => existsb (String.eqb (fst p)) (map f_name fields)) ps).
End Flatten.
