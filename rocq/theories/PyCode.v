(** Model of the functions that write Python source code of classes: pysqlsync/python_types.py.

    Simplifications: a default, a class variable and the value of an enumeration member is a constant or any other object, given by its [repr];
    the text of a type comes from strong_typing's [TypeFormatter] and is given; the description of a data-class that has several lines, which
    strong_typing takes apart and Python's [textwrap] folds, is given as the lines that come out; characters that are not ASCII are taken to be
    printable ([repr] leaves these as they are). *)
From Verif Require Import PyStr.
Open Scope string_scope.
Open Scope list_scope.

Inductive literal : Type := LNone | LBool (b : bool) | LInt (z : Z) | LStr (s : string) | LOther (repr : string).

(** ** Python's [repr] *)
Definition hex_digit (n : nat) : ascii := ch (if Nat.ltb n 10 then 48 + n else 87 + n).
Definition repr_char (q c : ascii) : string :=
  let n := nat_of_ascii c in
  if Ascii.eqb c q || Ascii.eqb c BS then String BS (str1 c)
  else if Ascii.eqb c TAB then String BS "t"
  else if Ascii.eqb c LF then String BS "n"
  else if Ascii.eqb c CR then String BS "r"
  else if Nat.ltb n 32 || Nat.eqb n 127 then String BS (String "x" (String (hex_digit (n / 16)) (str1 (hex_digit (n mod 16)))))
  else str1 c.
Definition repr_str (s : string) : string :=
  let q := if has_char QT s && negb (has_char DQ s) then DQ else QT in
  (str1 q ++ translate (repr_char q) s ++ str1 q)%string.
Definition repr (v : literal) : string :=
  match v with
  | LNone => "None" | LBool true => "True" | LBool false => "False" | LInt z => z_to_str z | LStr s => repr_str s | LOther t => t
  end.

(** [print(line, file=target)] for each line *)
Definition print (l : list string) : string := fold_right (fun x r => (x ++ NL ++ r)%string) "" l.
Definition truthy (d : option string) : bool := match d with Some "" | None => false | Some _ => true end.
Definition doc_line (d : option string) : list string := match d with Some s => [("    " ++ repr_str s)%string; ""] | None => [] end.
Definition doc_eqb (a b : option string) : bool := match a, b with Some x, Some y => String.eqb x y | None, None => true | _, _ => false end.

(** [enum_class_to_stream], 161-180: a member has a name, a value and a description *)
Record enum_class : Type := EnumClass { e_name : string; e_doc : option string; e_members : list (string * literal * option string) }.
Definition enum_lines (e : enum_class) : list string :=
  ["@enum.unique"; ("class " ++ e_name e ++ "(enum.Enum):")%string]
  ++ (if truthy (e_doc e) then doc_line (e_doc e) else [])
  ++ map (fun m => ("    " ++ fst (fst m) ++ " = " ++ repr (snd (fst m)))%string) (e_members e)
  ++ flat_map (fun m => match snd m with
                        | Some d => if negb (truthy (snd m)) || doc_eqb (snd m) (e_doc e) then []
                                    else [(e_name e ++ "." ++ fst (fst m) ++ ".__doc__ = " ++ repr_str d)%string]
                        | None => []
                        end) (e_members e).
Definition enum_class_to_code (e : enum_class) : string := print (enum_lines e).

(** A field of a data-class: name, text of the type, default, text of the type of [default_factory], [repr] of the metadata (none if it is empty) *)
Record code_field : Type := CodeField { cf_name : string; cf_type : string; cf_default : option literal; cf_factory : option string; cf_metadata : option string }.
(** the description of a data-class, if it is not the one that Python makes up ([has_docstring]) *)
Inductive description : Type := NoDoc | OneLine (s : string) | ManyLines (lines : list string).
(** [d_members]: what [inspect.getmembers] gives, without routines *)
Record data_class : Type := DataClass { d_name : string; d_doc : description; d_members : list (string * literal); d_fields : list code_field }.

(** [re.match(r"^__.+__$", name)]; [$] matches at the end and before a final line feed, which no name has *)
Fixpoint ends_with (p s : string) : bool := String.eqb p s || match s with "" => false | String _ r => ends_with p r end.
Definition dunder (s : string) : bool := match drop_prefix "__" s with Some r => Nat.leb 3 (String.length r) && ends_with "__" r | None => false end.
(** 84-92 *)
Definition class_variables (d : data_class) : list (string * literal) :=
  filter (fun v => negb (dunder (fst v)) && negb (str_in (fst v) (map cf_name (d_fields d)))) (d_members d).
(** 98-124 *)
Definition initializer (f : code_field) : string :=
  match cf_default f, cf_factory f, cf_metadata f with
  | None, None, None => ""
  | Some v, None, None => (" = " ++ repr v)%string
  | v, a, m =>
      (" = field(" ++ join_str ", " ((match v with Some v => [("default = " ++ repr v)%string] | None => [] end)
                                     ++ (match a with Some t => [("default_factory = " ++ t)%string] | None => [] end)
                                     ++ (match m with Some t => [("metadata = " ++ t)%string] | None => [] end)) ++ ")")%string
  end.
Definition field_line (f : code_field) : string := ("    " ++ cf_name f ++ ": " ++ cf_type f ++ initializer f)%string.
(** [dataclass_to_stream], 54-124 *)
Definition dataclass_lines (d : data_class) : list string :=
  ["@dataclasses.dataclass"; ("class " ++ d_name d ++ ":")%string]
  ++ match d_doc d with
     | NoDoc => []
     | OneLine s => doc_line (Some s)
     | ManyLines ls => [("    " ++ String DQ (String DQ (str1 DQ)))%string] ++ ls ++ [("    " ++ String DQ (String DQ (str1 DQ)))%string; ""]
     end
  ++ (match class_variables d with [] => [] | vs => map (fun v => ("    " ++ fst v ++ " = " ++ repr (snd v))%string) vs ++ [""] end)
  ++ map field_line (d_fields d).
Definition dataclasses_to_code (ds : list data_class) : string := print (flat_map dataclass_lines ds).

(** A class of a module: [get_module_classes] *)
Inductive a_class : Type := AEnum (e : enum_class) | AData (d : data_class) | AOther (name : string).
(** [module_to_stream], 22-51 *)
Definition header : list string :=
  [ "from __future__ import annotations"; "import dataclasses"; "import enum"; "from datetime import datetime, date, time"; "from decimal import Decimal"; "from uuid import UUID";
    "from typing import Annotated, Dict, List, Literal, Optional, Union";
    "from strong_typing.auxiliary import int16, int32, int64, float32, float64, MaxLength, Precision, TimePrecision"; "" ].
Definition class_lines (c : a_class) : res (list string) :=
  match c with AEnum e => Ok (enum_lines e ++ [""]) | AData d => Ok (dataclass_lines d ++ [""]) | AOther _ => Err "NotImplementedError" end.
Definition module_to_code (cs : list a_class) : res string := do ls <- map_res class_lines cs; Ok (print (header ++ concat ls)).
