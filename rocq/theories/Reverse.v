(** Model of the conversion of tables into data-classes: pysqlsync/formation/sql_to_py.py. *)
From Verif Require Import PyStr QuoteModel Types Objects Convert.
Open Scope string_scope.

(** A type annotation as the function leaves it in the generated class: a Python type, a text that is still to be evaluated
    (the dotted name of a class), [Optional] or [list] of an annotation, or a union of such texts. *)
Inductive gtype : Type := GPy (t : pytype) | GText (s : string) | GOptional (t : gtype) | GList (t : gtype) | GUnion (l : list string).

(** [sql_type_to_python], 56-105; [isinstance] sees through the classes of the engines ([TSub]) *)
Fixpoint to_python (t : sqltype) : res gtype :=
  match t with
  | TBool => Ok (GPy YBool)
  | TInt w _ _ _ => Ok (GPy (if Z.eqb w 2 then py_int16 else if Z.eqb w 4 then py_int32 else if Z.eqb w 8 then py_int64 else YInt))
  | TReal => Ok (GPy py_float32)
  | TDouble => Ok (GPy py_float64)
  | TFloat p => Ok (GPy (match p with Some n => YAnn YFloat [MPrecision n 0] | None => YFloat end))
  | TDecimal _ _ => Ok (GPy YDecimal)
  | TTimestamp p _ => Ok (GPy (match p with Some n => YAnn YDatetime [MTimePrecision n] | None => YDatetime end))
  | TDate => Ok (GPy YDate)
  | TTime p _ => Ok (GPy (match p with Some n => YAnn YTime [MTimePrecision n] | None => YTime end))
  | TFixChar l => Ok (GPy (match l with Some n => YAnn YStr [MLength n] | None => YStr end))
  | TVarChar l => Ok (GPy (match l with Some n => YAnn YStr [MMaxLength n] | None => YStr end))
  | TUuid => Ok (GPy YUuid)
  | TJson => Ok (GPy py_json)
  | TUser q => Ok (GText (compact_id q))
  | TArray u => do i <- to_python u; Ok (GList i)
  | TSub _ u => to_python u
  | _ => Err "TypeError"
  end.

(** [keyword.iskeyword] (Python 3.9 to 3.13) *)
Definition keywords : list string :=
  ["False"; "None"; "True"; "and"; "as"; "assert"; "async"; "await"; "break"; "class"; "continue"; "def"; "del"; "elif"; "else"; "except"; "finally"; "for";
   "from"; "global"; "if"; "import"; "in"; "is"; "lambda"; "nonlocal"; "not"; "or"; "pass"; "raise"; "return"; "try"; "while"; "with"; "yield"].
Definition is_keyword (s : string) : bool := existsb (String.eqb s) keywords.
(** [safe_id], 108-111 *)
Definition safe_id (s : string) : string := if is_keyword s then s ++ "_" else s.

Section Reverse.
(** [SqlConverterOptions.namespaces], 114-116: schema to name of the module *)
Variable modules : list (option string * string).
(** [str.isidentifier] *)
Variable is_identifier : string -> bool.

Definition module_of (s : option string) : res string :=
  match find (fun p => match fst p, s with Some a, Some b => String.eqb a b | None, None => true | _, _ => false end) modules with
  | Some (_, m) => Ok m | None => Err "KeyError" end.
(** [qual_to_module], 125-126 *)
Definition qual_to_module (q : qid) : res string := do m <- module_of (scope_id q); Ok (m ++ "." ++ safe_id (local_id q)).

(** [column.name == table.primary_key], 144: a [LocalId] is compared with a tuple of [LocalId]s; the [__eq__] of the data-class
    [LocalId] knows no other class and that of a tuple no [LocalId], so the result is that of [is]: False *)
Definition id_equals_tuple (name : string) (key : list string) : bool := false.

Record gfield : Type := GField { gf_name : string; gf_type : gtype; gf_default : option string }.
(** one turn of the loop 149-161 *)
Definition refine (col : column) (t : gtype) (k : constr) : res gtype :=
  match k with
  | CForeign _ cols q _ => if existsb (String.eqb (c_name col)) cols then do s <- qual_to_module q; Ok (GText s) else Ok t
  | CDiscr _ cols refs =>
      if existsb (String.eqb (c_name col)) cols
      then do l <- map_res (fun r => qual_to_module (fst r)) refs; match l with [] => Err "TypeError" | _ => Ok (GUnion l) end
      else Ok t
  | _ => Ok t
  end.
Fixpoint refine_all (col : column) (t : gtype) (ks : list constr) : res gtype :=
  match ks with [] => Ok t | k :: r => do u <- refine col t k; refine_all col u r end.
(** [column_to_field], 128-166 *)
Definition column_to_field (tbl : table) (col : column) : res gfield :=
  do t <- to_python (c_type col);
  let t := if id_equals_tuple (c_name col) (t_pk tbl) then match t with GPy u => GPy (mk_ann u [MPrimary]) | _ => t end
           else if c_nullable col then GOptional t else t in
  do t <- refine_all col t (t_constraints tbl);
  Ok (GField (safe_id (c_name col)) t (c_default col)).

Record gclass : Type := GClass { gc_module : string; gc_name : string; gc_fields : list gfield; gc_doc : option string }.
Fixpoint distinct (l : list string) : bool := match l with [] => true | x :: r => negb (existsb (String.eqb x) r) && distinct r end.
(** [table_to_dataclass], 168-213; [dataclasses.make_dataclass] refuses names that are no identifiers, keywords and
    duplicates.  The fields have no metadata, so the documentation is that of the table. *)
Definition table_to_dataclass (tbl : table) : res gclass :=
  do fs <- map_res (column_to_field tbl) (t_columns tbl);
  let has_default f := is_some (gf_default f) in
  let sorted := (filter (fun f => negb (has_default f)) fs ++ filter has_default fs)%list in
  do m <- module_of (scope_id (t_name tbl));
  if forallb (fun f => is_identifier (gf_name f) && negb (is_keyword (gf_name f))) sorted && distinct (map gf_name sorted)
  then Ok (GClass m (safe_id (local_id (t_name tbl))) sorted (t_desc tbl))
  else Err "TypeError".
End Reverse.

(** What the class is for the converter of Convert.v: annotations are evaluated ([get_type_hints]); [resolve] says what class
    a text stands for.  The text of a default is a string in Python, whatever the column's type. *)
(** [Optional[t]]: [typing] flattens unions *)
Definition mk_optional (t : pytype) : pytype :=
  match t with YUnion l => if existsb is_none l then t else YUnion (l ++ [YNone])%list | _ => YUnion [t; YNone] end.
Definition resolve_type (resolve : string -> option cid) : gtype -> option pytype :=
  fix go (t : gtype) : option pytype :=
    match t with
    | GPy u => Some u
    | GText s => match resolve s with Some c => Some (YCls c) | None => None end
    | GOptional u => match go u with Some v => Some (mk_optional v) | None => None end
    | GList u => match go u with Some v => Some (YList v) | None => None end
    | GUnion l =>
        match (fix all (l : list string) : option (list cid) :=
                 match l with [] => Some [] | s :: r => match resolve s, all r with Some c, Some cs => Some (c :: cs) | _, _ => None end end) l with
        | Some cs => Some (mk_union (map YCls (nodup cid_eq_dec cs))) | None => None end
    end.
Fixpoint resolve_fields (resolve : string -> option cid) (fs : list gfield) : option (list dfield) :=
  match fs with
  | [] => Some []
  | f :: r => match resolve_type resolve (gf_type f), resolve_fields resolve r with
              | Some t, Some l => Some (Fld (gf_name f) t (match gf_default f with Some s => DVal (PStr s) | None => DMissing end) :: l)
              | _, _ => None end
  end.
(** [env] with the generated class *)
Definition with_class (env : cid -> classdef) (g : gclass) (fs : list dfield) : cid -> classdef :=
  fun c => if cid_eqb c (gc_module g, gc_name g) then KData fs false (gc_doc g) [] else env c.
