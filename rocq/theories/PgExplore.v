(** Model of the PostgreSQL explorer: dialect/postgresql/discovery.py, and of the server side of its queries.

    The system catalogs are lists of rows ([pgcat]); only the columns that the queries use are kept, and
    [format_type(atttypid, atttypmod)] and [pg_get_expr(adbin, adrelid)] are columns.  A SELECT is a comprehension over
    these lists in the order of its joins; the server delivers the rows in any order it likes ([order]; the first
    argument is the text that identifies the query), and ORDER BY sorts them.  Names come into the text of a query
    as [quote(...)]: a condition compares a column with the string that the literal denotes.
    Simplifications: rows are passed on as they are (the conversion to data-classes is C40); of the two columns named
    type_name in the query for members (lines 197-198) the second counts (both are the same unless the type is an
    array). *)
From Verif Require Import PyStr QuoteModel QuoteSpec ObjectDict Types Objects Factory Discover.
Open Scope list_scope.

(** ** System catalogs *)
Record nsp_row : Type := Nsp { nsp_oid : N; nspname : string }.
Record cls_row : Type := Cls { cls_oid : N; relname : string; relnamespace : N; relkind : string }.
Record att_row : Type := Att { attrelid : N; attname : string; atttypid : N; att_format : string; attnum : Z; attndims : Z; attnotnull : bool; attidentity : string }.
Record typ_row : Type := Typ { typ_oid : N; typname : string; typnamespace : N; typelem : N }.
Record def_row : Type := Def { adrelid : N; adnum : Z; ad_expr : string }.
(** the catalog that the described object is in *)
Inductive objclass : Type := InClass | InType | InOther.
Record dsc_row : Type := Dsc { objoid : N; classoid : objclass; objsubid : Z; dsc_text : string }.
Record con_row : Type := Con { contype : string; conname : string; conrelid : N; conkey : list Z; confrelid : N; confkey : list Z }.
Record enm_row : Type := Enm { enumtypid : N; enumlabel : string; enumsortorder : Z }.
Record pgcat : Type := PgCat {
  pg_namespace : list nsp_row; pg_class : list cls_row; pg_attribute : list att_row; pg_type : list typ_row;
  pg_attrdef : list def_row; pg_description : list dsc_row; pg_constraint : list con_row; pg_enum : list enm_row }.

(** ** SQL *)
Notation "'from' x 'of' l ; e" := (flat_map (fun x => e) l) (at level 200, x name, l at level 100, e at level 200).
Notation "'where_' c ; e" := (if c then e else []) (at level 200, c at level 100, e at level 200).
Definition left_join {A} (c : A -> bool) (l : list A) : list (option A) :=
  match filter c l with [] => [None] | r => map Some r end.
(** comparison with a literal *)
Definition is_literal (v lit : string) : bool := match sql_literal lit with Some (s, ""%string) => String.eqb v s | _ => false end.
Section Sort.
  Context {A : Type} (le : A -> A -> bool).
  Fixpoint insert_by (x : A) (l : list A) : list A := match l with [] => [x] | y :: r => if le x y then x :: l else y :: insert_by x r end.
  Fixpoint sort_by (l : list A) : list A := match l with [] => [] | x :: r => insert_by x (sort_by r) end.
End Sort.
(** UNNEST(a, b) pads the shorter array with NULL *)
Fixpoint unnest (a b : list Z) : list (option Z * option Z) :=
  match a, b with
  | [], [] => []
  | x :: a', [] => (Some x, None) :: unnest a' []
  | [], y :: b' => (None, Some y) :: map (fun z => (None, Some z)) b'
  | x :: a', y :: b' => (Some x, Some y) :: unnest a' b'
  end.
(** [a = b] where [b] may be NULL *)
Definition num_is (a : Z) (b : option Z) : bool := match b with Some z => Z.eqb a z | None => false end.

Section Explorer.
  Variable P : pgcat.
  Variable order : forall A : Type, string -> list A -> list A.
  Arguments order {A}.

  (** [_where_relation], 122-132 *)
  Definition where_relation (q : qid) (kinds : list string) (cls : cls_row) (nsp : nsp_row) : bool :=
    is_literal (relname cls) (quote (local_id q))
    && match scope_id q with Some s => is_literal (nspname nsp) (quote s) | None => true end
    && existsb (fun k => is_literal (relkind cls) (quote k)) kinds.
  Definition where_struct (q : qid) := where_relation q ["c"%string].
  Definition where_table (q : qid) := where_relation q ["r"; "v"]%string.

  (** [has_table], 142-149 *)
  Definition q_has_table (q : qid) : list unit :=
    from cls of pg_class P; from nsp of pg_namespace P; where_ N.eqb (relnamespace cls) (nsp_oid nsp); where_ where_table q cls nsp; [tt].
  Definition has_table (q : qid) : bool := negb (Nat.eqb (length (q_has_table q)) 0).
  (** [has_column], 151-170 *)
  Definition q_has_column (q : qid) (c : string) : list unit :=
    from att of pg_attribute P;
    from cls of pg_class P; where_ N.eqb (attrelid att) (cls_oid cls);
    from nsp of pg_namespace P; where_ N.eqb (relnamespace cls) (nsp_oid nsp);
    where_ where_table q cls nsp && is_literal (attname att) (quote c); [tt].
  Definition has_column (q : qid) (c : string) : bool := negb (Nat.eqb (length (q_has_column q c)) 0).

  (** description of a composite type, 179-188 *)
  Definition q_struct (q : qid) : list (option string) :=
    from typ of pg_type P;
    from nsp of pg_namespace P; where_ N.eqb (typnamespace typ) (nsp_oid nsp);
    from dsc of left_join (fun d => N.eqb (objoid d) (typ_oid typ) && Z.eqb (objsubid d) 0) (pg_description P);
    where_ is_literal (typname typ) (quote (local_id q)) && match scope_id q with Some s => is_literal (nspname nsp) (quote s) | None => true end;
    [option_map dsc_text dsc].

  (** what is told about the type of a column or member *)
  Record typemeta : Type := TypeMeta { tm_name : option string; tm_schema : string; tm_def : string }.
  (** [CASE WHEN typ.typelem != 0 THEN typ_elem.typname ELSE typ.typname END] *)
  Definition case_elem (typ : typ_row) (el : option typ_row) : option string :=
    if N.eqb (typelem typ) 0 then Some (typname typ) else option_map typname el.

  (** members, 190-211 *)
  Record memmeta : Type := MemMeta { mm_name : string; mm_type : typemeta; mm_desc : option string }.
  Definition q_members (q : qid) : list (Z * memmeta) :=
    from att of pg_attribute P;
    from typ of pg_type P; where_ N.eqb (atttypid att) (typ_oid typ);
    from tns of pg_namespace P; where_ N.eqb (typnamespace typ) (nsp_oid tns);
    from cls of pg_class P; where_ N.eqb (attrelid att) (cls_oid cls);
    from nsp of pg_namespace P; where_ N.eqb (relnamespace cls) (nsp_oid nsp);
    from el of left_join (fun e => N.eqb (typelem typ) (typ_oid e)) (pg_type P);
    from dsc of left_join (fun d => N.eqb (objoid d) (cls_oid cls) && Z.eqb (objsubid d) (attnum att)) (pg_description P);
    where_ where_struct q cls nsp && Z.ltb 0 (attnum att);
    [(attnum att, MemMeta (attname att) (TypeMeta (case_elem typ el) (nspname tns) (att_format att)) (option_map dsc_text dsc))].

  (** [self.discovery.sql_data_type_from_spec(...)], 215-219 and 268-272; a missing name fails *)
  Definition discover_type (m : typemeta) (is_array : bool) : res sqltype :=
    match tm_name m with
    | Some n => pg_discover n (tm_schema m) (tm_def m) is_array
    | None => Err "AttributeError"
    end.
  (** [d or None] *)
  Definition or_none (d : option string) : option string := match d with Some ""%string => None | _ => d end.
  Definition by_num {A} (a b : Z * A) : bool := Z.leb (fst a) (fst b).

  (** [get_struct], 172-232 *)
  Definition get_struct (q : qid) : res structt :=
    match order ("struct " ++ local_id q)%string (q_struct q) with
    | [] => Err "IndexError"
    | d :: _ =>
        do ms <- map_res (fun r => do t <- discover_type (mm_type (snd r)) false; Ok (Mem (mm_name (snd r)) t (or_none (mm_desc (snd r)))))
                         (sort_by by_num (order ("members " ++ local_id q)%string (q_members q)));
        Ok (Struct q (od_make m_name ms) d)
    end.

  (** description of a table, 235-243 *)
  Definition q_table (q : qid) : list (option string) :=
    from cls of pg_class P;
    from nsp of pg_namespace P; where_ N.eqb (relnamespace cls) (nsp_oid nsp);
    from dsc of left_join (fun d => N.eqb (objoid d) (cls_oid cls) && Z.eqb (objsubid d) 0) (pg_description P);
    where_ where_table q cls nsp;
    [option_map dsc_text dsc].

  (** columns, 245-266 *)
  Record colmeta : Type := ColMeta { cm_name : string; cm_type : typemeta; cm_nullable : bool; cm_array : bool; cm_identity : bool; cm_default : option string; cm_desc : option string }.
  Definition q_columns (q : qid) : list (Z * colmeta) :=
    from att of pg_attribute P;
    from typ of pg_type P; where_ N.eqb (atttypid att) (typ_oid typ);
    from tns of pg_namespace P; where_ N.eqb (typnamespace typ) (nsp_oid tns);
    from cls of pg_class P; where_ N.eqb (attrelid att) (cls_oid cls);
    from nsp of pg_namespace P; where_ N.eqb (relnamespace cls) (nsp_oid nsp);
    from el of left_join (fun e => N.eqb (typelem typ) (typ_oid e)) (pg_type P);
    from def of left_join (fun d => N.eqb (adrelid d) (cls_oid cls) && Z.eqb (adnum d) (attnum att)) (pg_attrdef P);
    from dsc of left_join (fun d => N.eqb (objoid d) (cls_oid cls) && Z.eqb (objsubid d) (attnum att)) (pg_description P);
    where_ where_table q cls nsp && Z.ltb 0 (attnum att);
    [(attnum att, ColMeta (attname att) (TypeMeta (case_elem typ el) (nspname tns) (att_format att)) (negb (attnotnull att))
                          (negb (Z.eqb (attndims att) 0)) (str_in (attidentity att) ["a"; "d"]%string) (option_map ad_expr def) (option_map dsc_text dsc))].

  (** [to_default_expr], 26-48: the expression [^'Y-M-D h:m:s'::timestamp without time zone$] with digits in the places of
      the letters.  [re] takes [$] also before a final newline, which is ignored here.  [datetime.datetime] raises for a
      date or time out of range; otherwise [isoformat] gives back the digits. *)
  Definition all_digits (s : string) : bool := negb (any_char (fun c => negb (is_digit c)) s).
  Definition timestamp_text (expr : string) : option string :=
    match sql_literal expr with
    | Some (v, rest) => if String.eqb rest "::timestamp without time zone" && Nat.eqb (String.length v) 19
                           && all_digits (substring 0 4 v) && String.eqb (substring 4 1 v) "-" && all_digits (substring 5 2 v) && String.eqb (substring 7 1 v) "-"
                           && all_digits (substring 8 2 v) && String.eqb (substring 10 1 v) " " && all_digits (substring 11 2 v) && String.eqb (substring 13 1 v) ":"
                           && all_digits (substring 14 2 v) && String.eqb (substring 16 1 v) ":" && all_digits (substring 17 2 v)
                        then Some v else None
    | None => None
    end.
  Definition field (v : string) (pos len : nat) : N := match str_to_n (substring pos len v) with Some n => n | None => 0%N end.
  Definition days_in_month (y m : N) : N :=
    if existsb (N.eqb m) [4; 6; 9; 11]%N then 30
    else if N.eqb m 2 then if N.eqb (y mod 4) 0 && (negb (N.eqb (y mod 100) 0) || N.eqb (y mod 400) 0) then 29 else 28
    else 31.
  Definition valid_timestamp (v : string) : bool :=
    let y := field v 0 4 in let m := field v 5 2 in let d := field v 8 2 in
    N.leb 1 y && N.leb 1 m && N.leb m 12 && N.leb 1 d && N.leb d (days_in_month y m)
    && N.ltb (field v 11 2) 24 && N.ltb (field v 14 2) 60 && N.ltb (field v 17 2) 60.
  Definition to_default_expr (expr : option string) : res (option string) :=
    match expr with
    | None => Ok None
    | Some e => match timestamp_text e with
                | Some v => if valid_timestamp v then Ok (Some (quote v)) else Err "ValueError"
                | None => Ok (Some e)
                end
    end.

  (** constraints, 283-313 *)
  Record conmeta : Type := ConMeta { km_type : string; km_name : string; km_source : string; km_nsp : option string; km_table : option string; km_target : option string }.
  Definition q_constraints (q : qid) : list conmeta :=
    from con of pg_constraint P;
    from tgt of unnest (conkey con) (confkey con);
    from cls of pg_class P; where_ N.eqb (conrelid con) (cls_oid cls);
    from nsp of pg_namespace P; where_ N.eqb (relnamespace cls) (nsp_oid nsp);
    where_ where_table q cls nsp && str_in (contype con) ["p"; "u"; "f"]%string;
    from att of pg_attribute P; where_ N.eqb (conrelid con) (attrelid att) && num_is (attnum att) (fst tgt);
    from cls_t of left_join (fun c => N.eqb (confrelid con) (cls_oid c)) (pg_class P);
    from nsp_t of left_join (fun n => match cls_t with Some c => N.eqb (relnamespace c) (nsp_oid n) | None => false end) (pg_namespace P);
    from att_t of left_join (fun a => N.eqb (confrelid con) (attrelid a) && num_is (attnum a) (snd tgt)) (pg_attribute P);
    [ConMeta (contype con) (conname con) (attname att) (option_map nspname nsp_t) (option_map relname cls_t) (option_map attname att_t)].

  (** the loop over the constraints, 315-335.  A target that is missing is written as an empty name. *)
  Definition text (o : option string) : string := match o with Some s => s | None => ""%string end.
  Definition primary_of (rows : list conmeta) : list string := map km_source (filter (fun r => String.eqb (km_type r) "p") rows).
  Definition unique_rows (rows : list conmeta) : list (string * string) := map (fun r => (km_name r, km_source r)) (filter (fun r => String.eqb (km_type r) "u") rows).
  Definition foreign_rows (rows : list conmeta) : list frow :=
    map (fun r => FRow (km_name r) (km_source r) (Qualified (km_nsp r) (text (km_table r))) (text (km_target r))) (filter (fun r => String.eqb (km_type r) "f") rows).

  (** [get_table], 234-341 *)
  Definition get_table (q : qid) : res table :=
    match order ("table " ++ local_id q)%string (q_table q) with
    | [] => Err "IndexError"
    | d :: _ =>
        do cs <- map_res (fun r => do t <- discover_type (cm_type (snd r)) (cm_array (snd r)); do e <- to_default_expr (cm_default (snd r));
                                   Ok (Col (cm_name (snd r)) t (cm_nullable (snd r)) e (cm_identity (snd r)) (or_none (cm_desc (snd r)))))
                         (sort_by by_num (order ("columns " ++ local_id q)%string (q_columns q)));
        let rows := order ("constraints " ++ local_id q)%string (q_constraints q) in
        do fks <- ff_run (foreign_rows rows);
        Ok (Tab q (od_make c_name cs) (primary_of rows) (od_make Objects.k_name (uf_run (unique_rows rows) ++ fks)) d None)
    end.

  (** enumeration types, 350-371 *)
  Definition q_enums (ns : string) : list (string * (Z * string)) :=
    from typ of pg_type P;
    from e of pg_enum P; where_ N.eqb (typ_oid typ) (enumtypid e);
    from nsp of pg_namespace P; where_ N.eqb (nsp_oid nsp) (typnamespace typ);
    where_ is_literal (nspname nsp) (quote ns);
    [(typname typ, (enumsortorder e, enumlabel e))].
  (** ORDER BY enum_name, e.enumsortorder (the type of names is compared byte by byte) *)
  Definition by_enum (a b : string * (Z * string)) : bool :=
    if String.eqb (fst a) (fst b) then Z.leb (fst (snd a)) (fst (snd b)) else String.leb (fst a) (fst b).
  (** [itertools.groupby] *)
  Fixpoint groupby {A} (l : list (string * A)) : list (string * list A) :=
    match l with
    | [] => []
    | (k, a) :: r => match groupby r with
                     | (k', g) :: t => if String.eqb k k' then (k, a :: g) :: t else (k, [a]) :: (k', g) :: t
                     | [] => [(k, [a])]
                     end
    end.
  (** names of composite types, 373-379, and of tables, 386-392 *)
  Definition q_relations (ns : string) (kinds : list string) : list string :=
    from cls of pg_class P;
    from nsp of pg_namespace P; where_ N.eqb (relnamespace cls) (nsp_oid nsp);
    where_ is_literal (nspname nsp) (quote ns) && existsb (fun k => is_literal (relkind cls) (quote k)) kinds;
    [relname cls].

  (** [get_namespace], 349-403 *)
  Definition get_namespace (ns : string) : res namespace :=
    let enums := map (fun g => Enum (Qualified (Some ns) (fst g)) (map snd (snd g))) (groupby (sort_by by_enum (order "enums" (q_enums ns)))) in
    do structs <- map_res (fun n => get_struct (Qualified (Some ns) n)) (order "structs" (q_relations ns ["c"%string]));
    do tables <- map_res (fun n => get_table (Qualified (Some ns) n)) (order "tables" (q_relations ns ["r"; "v"]%string));
    match enums, structs, tables with
    | [], [], [] => Ok (Ns "" [] [] [])
    | _, _, _ => Ok (Ns ns (od_make e_key enums) (od_make s_key structs) (od_make t_key tables))
    end.
  (** [get_namespace_current], 343-347; [current]: what current_schema() returns *)
  Definition get_namespace_current (current : option string) : res namespace :=
    match current with Some s => get_namespace s | None => Err "RuntimeError" end.
End Explorer.
(** the call in [Explorer.discover], base.py:1397-1402: a module without a schema is the empty string *)
Definition explore (order : forall A : Type, string -> list A -> list A) (current : option string) (P : pgcat) (ns : string) : res namespace :=
  if String.eqb ns "" then get_namespace_current P order current else get_namespace P order ns.
