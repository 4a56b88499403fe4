(** Model of the discovery of column types: pysqlsync/formation/data_types.py and the calls in the explorers. *)
From Verif Require Import PyStr QuoteModel Types.
From Verif Require Url.
Open Scope string_scope.

(** ** Regular expressions of [sql_data_type_from_def]; strings are ASCII, [\d] and [\s] are ASCII classes *)
Definition lower := Url.lower.
(** the keyword, ignoring case: the rest of the string *)
Definition re_word (kw s : string) : option string :=
  (fix go (k t : string) : option string :=
     match k, t with
     | "", _ => Some t
     | String a k', String b t' => if Ascii.eqb a (Url.lower_char b) then go k' t' else None
     | _, _ => None
     end) kw s.
(** [(?:kw1|kw2|...)[(]] *)
Fixpoint re_words (kws : list string) (s : string) : option string :=
  match kws with
  | [] => None
  | k :: r => match re_word k s with Some (String "(" t) => Some t | _ => re_words r s end
  end.
(** [(\d+)], followed by something that is not a digit *)
Fixpoint digits (s : string) : string * string :=
  match s with
  | "" => ("", "")
  | String c r => if is_digit c then let (a, b) := digits r in (String c a, b) else ("", s)
  end.
Definition re_num (s : string) : option (Z * string) :=
  match digits s with
  | ("", _) => None
  | (ds, r) => match str_to_n ds with Some n => Some (Z.of_N n, r) | None => None end
  end.
Definition space (c : ascii) : bool := let n := N_of_ascii c in N.eqb n 32 || (N.leb 9 n && N.leb n 13) || (N.leb 28 n && N.leb n 31).
Fixpoint skip_spaces (s : string) : string := match s with String c r => if space c then skip_spaces r else s | "" => "" end.
(** [^(?:...)[(](\d+)[)]$] *)
Definition re_one (kws : list string) (s : string) : option Z :=
  match re_words kws s with
  | Some t => match re_num t with Some (n, ")") => Some n | _ => None end
  | None => None
  end.
(** [^(?:...)[(](\d+),\s*(\d+)[)]$] *)
Definition re_two (kws : list string) (s : string) : option (Z * Z) :=
  match re_words kws s with
  | Some t => match re_num t with
              | Some (n, String "," r) => match re_num (skip_spaces r) with Some (m, ")") => Some (n, m) | _ => None end
              | _ => None
              end
  | None => None
  end.
(** [^timestamp[(](\d+)[)]\s*(with(?:out)? time zone)?$]: the number and the second group *)
Definition re_timestamp (s : string) : option (Z * option string) :=
  match re_words ["timestamp"] s with
  | Some t => match re_num t with
              | Some (n, String ")" r) =>
                  let g := skip_spaces r in
                  if g =? "" then Some (n, None)
                  else if (lower g =? "with time zone") || (lower g =? "without time zone") then Some (n, Some g) else None
              | _ => None
              end
  | None => None
  end.
(** [re.findall] with the expression of line 137: an apostrophe, a repetition of other characters or doubled apostrophes,
    an apostrophe, and a comma or the end.  The repetition stops in front of the first apostrophe that is not
    followed by another one, and giving back characters never helps: what follows a shorter repetition is either a
    character other than an apostrophe, or an apostrophe followed by an apostrophe. *)
Fixpoint re_value (s : string) : option (string * string) :=
  match s with
  | "" => None
  | String c r =>
      if Ascii.eqb c "'" then
        match r with
        | "" => Some ("", "")
        | String d r' =>
            if Ascii.eqb d "'" then match re_value r' with Some (v, t) => Some (String "'" (String "'" v), t) | None => None end
            else if Ascii.eqb d "," then Some ("", r') else None
        end
      else match re_value r with Some (v, t) => Some (String c v, t) | None => None end
  end.
Fixpoint re_findall (fuel : nat) (s : string) : list string :=
  match fuel, s with
  | S k, String c r =>
      if Ascii.eqb c "'" then match re_value r with Some (v, t) => v :: re_findall k t | None => re_findall k r end
      else re_findall k r
  | _, _ => []
  end.
(** [^enum[(](.+)[)]$]: [.] is any character other than a newline *)
Fixpoint but_last (s : string) : option (string * ascii) :=
  match s with
  | "" => None
  | String c r => match but_last r with Some (a, l) => Some (String c a, l) | None => Some ("", c) end
  end.
Definition re_enum (s : string) : option string :=
  match re_words ["enum"] s with
  | Some t => match but_last t with
              | Some (v, ")"%char) => if (v =? "") || any_char (Ascii.eqb (ascii_of_nat 10)) v then None else Some v
              | _ => None
              end
  | None => None
  end.

(** [sql_data_type_from_def], formation/data_types.py:94-141 *)
Definition from_def (d : string) : option sqltype :=
  match re_two ["decimal"; "number"; "numeric"] d with
  | Some (p, s) => Some (TDecimal (Some p) (Some s))
  | None =>
  match re_timestamp d with
  | Some (p, Some "with time zone") => Some (TTimestamp (Some p) true)
  | Some (p, _) => Some (TTimestamp (Some p) false)
  | None =>
  match re_one ["char"; "character"] d with
  | Some n => Some (TFixChar (Some n))
  | None =>
  match re_one ["varchar"; "character varying"] d with
  | Some n => Some (TVarChar (Some n))
  | None =>
  match re_one ["binary"] d with
  | Some n => Some (TFixBin (Some n))
  | None =>
  match re_one ["varbinary"; "binary varying"] d with
  | Some n => Some (TVarBin (Some n))
  | None =>
  match re_enum d with
  | Some v => Some (TEnum (re_findall (String.length v) v))
  | None => None
  end end end end end end end.

(** [sql_data_type_from_name], formation/data_types.py:40-92 *)
Definition named_types : list (string * sqltype) :=
  [ ("bool", TBool); ("boolean", TBool);
    ("tinyint", TInt 1 true None None); ("tinyint(1)", TInt 1 true None None); ("int1", TInt 1 true None None);
    ("smallint", TInt 2 true None None); ("int2", TInt 2 true None None);
    ("integer", TInt 4 true None None); ("int", TInt 4 true None None); ("int4", TInt 4 true None None);
    ("bigint", TInt 8 true None None); ("int8", TInt 8 true None None);
    ("decimal", TDecimal None None); ("number", TDecimal None None); ("numeric", TDecimal None None);
    ("real", TReal); ("float4", TReal);
    ("double", TDouble); ("double precision", TDouble); ("float8", TDouble);
    ("float", TFloat None);
    ("timestamp", TTimestamp None false); ("timestamp without time zone", TTimestamp None false);
    ("timestamp with time zone", TTimestamp None true);
    ("datetime", TTimestamp None false);
    ("date", TDate);
    ("time", TTime None false); ("time without time zone", TTime None false);
    ("time with time zone", TTime None true);
    ("char", TFixChar None); ("character", TFixChar None);
    ("varchar", TVarChar None); ("character varying", TVarChar None); ("text", TVarChar None);
    ("binary", TFixBin None);
    ("varbinary", TVarBin None); ("binary varying", TVarBin None); ("bytea", TVarBin None);
    ("json", TJson); ("jsonb", TJson);
    ("uuid", TUuid) ].
Fixpoint look (n : string) (l : list (string * sqltype)) : option sqltype :=
  match l with [] => None | (m, t) :: r => if m =? n then Some t else look n r end.
Definition from_name (name : string) (schema : option string) : option sqltype :=
  match look (lower name) named_types with
  | Some t => Some t
  | None => match schema with Some s => Some (TUser (Qualified (Some s) name)) | None => None end
  end.

(** the innermost fields of an instance *)
Fixpoint on_base (f : sqltype -> sqltype) (t : sqltype) : sqltype := match t with TSub c u => TSub c (on_base f u) | _ => f t end.
Definition or_keep (new old : option Z) : option Z := match new with Some n => Some n | None => old end.
Definition or_positive (new old : option Z) : option Z := match new with Some n => if Z.ltb 0 n then Some n else old | None => old end.

(** [sql_data_type_from_spec], formation/data_types.py:143-200; [subst]: the substitutions of the explorer.  The substitute
    is copied before it is changed (line 158). *)
Definition from_spec (subst : list (string * sqltype)) (name : string) (schema def : option string)
  (char_len num_prec num_scale dt_prec : option Z) : res sqltype :=
  let special := if match schema with None => true | Some s => (s =? "pg_catalog") || (s =? "SYS") end then look name subst else None in
  let found := match special with
               | Some t => Some t
               | None => match match def with Some d => from_def d | None => None end with
                         | Some t => Some t
                         | None => from_name name schema
                         end
               end in
  match found with
  | None => Err "TypeError"
  | Some t =>
      Ok (on_base (fun b => match b with
                            | TDecimal p s => TDecimal (or_keep num_prec p) (or_keep num_scale s)
                            | TFloat p => TFloat (or_keep num_prec p)
                            | TTimestamp p z => TTimestamp (or_positive dt_prec p) z
                            | TTime p z => TTime (or_positive dt_prec p) z
                            | TFixChar l => TFixChar (or_keep char_len l)
                            | TVarChar l => TVarChar (or_positive char_len l)
                            | TFixBin l => TFixBin (or_keep char_len l)
                            | TVarBin l => TVarBin (or_positive char_len l)
                            | _ => b
                            end) t)
  end.

(** ** The explorers *)
(** dialect/mysql/discovery.py:38-50 *)
Definition mysql_subst : list (string * sqltype) :=
  [ ("datetime", TSub MyDateTime (TTimestamp None false));
    ("varchar", TSub MyVarChar (TVarChar None)); ("tinytext", TSub MyVarChar (TVarChar (Some 255%Z)));
    ("text", TSub MyVarChar (TVarChar (Some 65535%Z))); ("mediumtext", TSub MyVarChar (TVarChar (Some 16777215%Z)));
    ("longtext", TSub MyVarChar (TVarChar (Some 4294967295%Z)));
    ("varbinary", TSub MyVarBin (TVarBin None)); ("tinyblob", TSub MyVarBin (TVarBin (Some 255%Z)));
    ("blob", TSub MyVarBin (TVarBin (Some 65535%Z))); ("mediumblob", TSub MyVarBin (TVarBin (Some 16777215%Z)));
    ("longblob", TSub MyVarBin (TVarBin (Some 4294967295%Z))) ].
(** dialect/mysql/discovery.py:94-101 *)
Definition mysql_discover (data_type column_type : string) (char_len num_prec num_scale dt_prec : option Z) : res sqltype :=
  from_spec mysql_subst data_type None (Some column_type) char_len num_prec num_scale dt_prec.
(** dialect/mssql/discovery.py:25-34; the encoding is not a field of the type *)
Definition mssql_subst : list (string * sqltype) :=
  [ ("bit", TSub MsBool TBool); ("datetime", TSub MsDateTime (TTimestamp (Some 7%Z) false)); ("datetime2", TSub MsDateTime (TTimestamp (Some 7%Z) false));
    ("nvarchar", TSub MsVarChar (TVarChar None)); ("varchar", TSub MsVarChar (TVarChar None)); ("text", TSub MsVarChar (TVarChar None)) ].
(** formation/discovery.py:215-221 *)
Definition mssql_discover (data_type : string) (char_len num_prec num_scale dt_prec : option Z) : res sqltype :=
  from_spec mssql_subst data_type None None char_len num_prec num_scale dt_prec.
(** dialect/oracle/discovery.py:62-71 *)
Definition oracle_subst : list (string * sqltype) :=
  [ ("BLOB", TSub OraVarBin (TVarBin None)); ("CLOB", TSub OraVarChar (TVarChar None)); ("INTERVAL DAY", TSub OraTime (TTime None false));
    ("LONG", TSub OraVarChar (TVarChar None)); ("NUMBER", TSub OraInt (TInt 8 true None None)); ("RAW", TSub OraVarBin (TVarBin None));
    ("TIMESTAMP", TSub OraTimestamp (TTimestamp None false)); ("VARCHAR2", TSub OraVarChar (TVarChar None)) ].
(** [re.match("^([^()]+)", data_type)], dialect/oracle/discovery.py:137-141 *)
Fixpoint before_paren (s : string) : string :=
  match s with "" => "" | String c r => if Ascii.eqb c "(" || Ascii.eqb c ")" then "" else String c (before_paren r) end.
(** dialect/oracle/discovery.py:131-150 *)
Definition oracle_discover (data_type : string) (owner : option string) (char_length data_length : Z) (precision scale : option Z) : res sqltype :=
  let char_len := if str_in data_type ["BLOB"; "CLOB"] then None else Some (if Z.eqb char_length 0 then data_length else char_length) in
  let name := match before_paren data_type with "" => data_type | n => n end in
  from_spec oracle_subst name owner (Some data_type) char_len precision scale None.
(** dialect/postgresql/discovery.py:107-110 *)
Definition pg_subst : list (string * sqltype) := [ ("jsonb", TSub PgJson TJson); ("inet", TUser (Global "inet")) ].
(** dialect/postgresql/discovery.py:268-274 *)
Definition pg_discover (type_name type_schema type_def : string) (is_array : bool) : res sqltype :=
  do t <- from_spec pg_subst type_name (Some type_schema) (Some type_def) None None None None; Ok (if is_array then TArray t else t).
