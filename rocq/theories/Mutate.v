(** Model of pysqlsync/formation/mutation.py and the mutators of the dialects. *)
From Verif Require Import PyStr QuoteModel ObjectDict Types Objects SqlAst Ddl.
Open Scope list_scope.

(** mutation.py:27-41 [MutatorOptions] *)
Record options : Type := Opts {
  allow_drop_enum : bool; allow_drop_struct : bool; allow_drop_table : bool; allow_drop_namespace : bool }.
Definition default_options : options := Opts true true true true.

(** mutation.py:52-54 [check_identity] *)
Definition check_identity (a b : qid) : res unit :=
  if qid_eqb a b then Ok tt else Err "FormationError".

(** mutation.py:56-58 [migrate_enum_stmt]; postgresql/mutation.py:34-36 *)
Definition migrate_enum (d : dialect) (e : enumt) (t : table) : stmt :=
  SInsert (t_name t) ["value"%string] (map PStr (e_values e))
    (match d with DPg => PgDoNothing | _ => NoClause end).

(** mutation.py:60-78 [mutate_enum_stmt] *)
Definition mutate_enum (s t : enumt) : res (list stmt) :=
  do _ <- check_identity (e_name s) (e_name t);
  match filter (fun v => negb (str_in v (e_values t))) (e_values s) with
  | _ :: _ => Err "FormationError"
  | [] => Ok (map (SAddValue (e_name s)) (filter (fun v => negb (str_in v (e_values s))) (e_values t)))
  end.

(** mutation.py:80-102 [mutate_struct_stmt]; postgresql/mutation.py:83-98 *)
Definition struct_alter (s : structt) (acts : list saction) : list stmt :=
  match acts with [] => [] | _ => [SAlterStruct (s_name s) acts] end.
Definition comment_change (old new : option string) : option (option string) :=
  match new with
  | None => match old with Some _ => Some None | None => None end
  | Some x => if os_eqb old (Some x) then None else Some (Some x)
  end.
Definition mutate_struct_base (s t : structt) : res (list stmt) :=
  do _ <- check_identity (s_name s) (s_name t);
  let drops := map (fun m => SaDrop (m_name m)) (od_difference m_name (s_members s) (s_members t)) in
  do alters <- concat_res (fun p => if mem_eqb (fst p) (snd p) then Ok []
                                    else do _ <- type_str (m_type (snd p));
                                         Ok [SaSetType (m_name (fst p)) (m_type (snd p))])
                 (od_intersection m_name (s_members s) (s_members t));
  do adds <- map_res (fun m => do _ <- type_str (m_type m); Ok (SaAdd (m_name m) (m_type m)))
               (od_difference m_name (s_members t) (s_members s));
  Ok (struct_alter s (drops ++ alters ++ adds)).
Definition mutate_struct (d : dialect) (s t : structt) : res (list stmt) :=
  do base <- mutate_struct_base s t;
  Ok (base ++ match d with
              | DPg => match comment_change (s_desc s) (s_desc t) with
                       | Some c => [SCommentType (s_name t) c] | None => [] end
              | _ => [] end).

(** mutation.py:109-130 [is_column_migrated]; postgresql/mutation.py:21-32 ([None] is falsy) *)
Definition is_column_migrated (d : dialect) (s t : column) : bool :=
  if col_eqb s t || type_eqb (c_type s) (c_type t) then false
  else is_int (c_type t) &&
       (is_enum (c_type s) || is_varchar (c_type s)
        || match d with DPg => is_user (c_type s) | _ => false end).

(** [migrate_column_stmt]: mutation.py:104-107 (nothing); postgresql/mutation.py:38-47;
    mysql/mutation.py:19-40 *)
Definition migrate_column (d : dialect) (st : table) (s : column) (tt : table) (t : column) : res (list stmt) :=
  match d with
  | DPg => do r <- get_constraint tt (c_name t);
           Ok [SUpdateLookup (t_name st) (c_name t) (deleted (c_name s)) (fst r)]
  | DMySQL =>
      do r <- get_constraint tt (c_name t);
      Ok (match base_type (c_type s) with
          | TEnum vs => [SInsert (fst r) ["value"%string] (map PStr vs) MyKeep]
          | TVarChar _ => [SInsertDistinct (fst r) (t_name st) (deleted (c_name s))]
          | _ => [] end
          ++ [SUpdateLookup (t_name st) (c_name t) (deleted (c_name s)) (fst r)])
  | _ => Ok []
  end.

(** [mutate_column_stmt]: mutation.py:132-159; mysql/mutation.py:70-84; mssql/mutation.py:17-28;
    oracle/mutation.py:11-39 *)
Definition mutate_column_base (s t : column) : res (list action) :=
  if col_eqb s t then Ok [] else
  do _ <- (if type_eqb (c_type s) (c_type t) then Ok ""%string else type_str (c_type t));
  let n := c_name s in
  Ok ((if type_eqb (c_type s) (c_type t) then [] else [ASetType n (c_type t)])
      ++ (if c_nullable s && negb (c_nullable t) then [ASetNotNull n]
          else if negb (c_nullable s) && c_nullable t then [ADropNotNull n] else [])
      ++ (match c_default s, c_default t with
          | Some _, None => [ADropDefault n]
          | None, None => []
          | x, Some e => if os_eqb x (Some e) then [] else [ASetDefault n e]
          end)
      ++ (if c_identity s && negb (c_identity t) then [ADropIdentity n]
          else if negb (c_identity s) && c_identity t then [AAddIdentity n] else [])).

(** MySQL compares [comment] properties, each of which may raise; [or] is lazy *)
Definition mutate_column_mysql (s t : column) : res (list action) :=
  do changed <-
    (if negb (type_eqb (c_type s) (c_type t)) || negb (Bool.eqb (c_nullable s) (c_nullable t))
        || negb (os_eqb (c_default s) (c_default t)) || negb (Bool.eqb (c_identity s) (c_identity t))
     then Ok true
     else do a <- mysql_comment (c_desc s); do b <- mysql_comment (c_desc t); Ok (negb (os_eqb a b)));
  if changed then
    do cd <- column_def DMySQL t;
    Ok [AModifyColumn (CD (c_name s) (cd_type cd) (cd_notnull cd) (cd_default cd) (cd_identity cd) (cd_comment cd))]
  else Ok [].

Definition mutate_column_mssql (s t : column) : res (list action) :=
  if negb (Bool.eqb (c_identity s) (c_identity t)) then Err "ColumnFormationError"
  else if negb (type_eqb (c_type s) (c_type t)) || negb (Bool.eqb (c_nullable s) (c_nullable t))
  then do _ <- type_str (c_type t); Ok [AMsAlter (c_name s) (c_type t) (negb (c_nullable t))]
  else Ok [].

Definition mutate_column_oracle (s t : column) : res (list action) :=
  do ty <- (if type_eqb (c_type s) (c_type t) then Ok []
            else do _ <- type_str (c_type t); Ok [OSetType (c_type t)]);
  let cs := ty
    ++ (if os_eqb (c_default s) (c_default t) then []
        else [OSetDefault (match c_default t with
                           | Some e => Some (default_expr DOracle (c_type t) e) | None => None end)])
    ++ (if Bool.eqb (c_nullable s) (c_nullable t) then [] else [OSetNull (c_nullable t)])
    ++ (if Bool.eqb (c_identity s) (c_identity t) then [] else [OSetIdentity (c_identity t)]) in
  match cs with [] => Ok [] | _ => Ok [AOraModify (c_name s) cs] end.

Definition mutate_column (d : dialect) (s t : column) : res (list action) :=
  match d with
  | DMySQL => mutate_column_mysql s t
  | DMSSQL => mutate_column_mssql s t
  | DOracle => mutate_column_oracle s t
  | _ => mutate_column_base s t
  end.

(** re-raising of [ColumnFormationError] as [TableFormationError], mutation.py:186-189 etc. *)
Definition table_error {A} (r : res A) : res A :=
  match r with
  | Err e => if String.eqb e "ColumnFormationError" then Err "TableFormationError"%string else Err e
  | Ok a => Ok a
  end.

(** mutation.py:161-262 [mutate_table_stmt] *)
Definition mutate_table_base (d : dialect) (s t : table) : res (list stmt) :=
  do _ <- check_identity (t_name s) (t_name t);
  let create_columns := od_difference c_name (t_columns t) (t_columns s) in
  let common := od_intersection c_name (t_columns s) (t_columns t) in
  let drop_columns := od_difference c_name (t_columns s) (t_columns t) in
  let migrated := filter (fun p => is_column_migrated d (fst p) (snd p)) common in
  do soft <- table_error (concat_res (fun p => do a <- soft_drop_column d (fst p);
                                               Ok (alter_table d (t_name s) [a])) migrated);
  do mig_create <- table_error (map_res (fun p => create_column d (snd p)) migrated);
  do new_create <- table_error (map_res (create_column d) create_columns);
  let creates := mig_create ++ new_create in
  let create_stmts := match creates with [] => [] | _ => alter_table d (t_name s) creates end in
  do moves <- table_error (concat_res (fun p => migrate_column d s (fst p) t (snd p)) migrated);
  let hard := map (fun p => hard_drop_column (fst p)) migrated in
  do alters <- table_error (concat_res (fun p => mutate_column d (fst p) (snd p)) common);
  let drops := map (drop_column d) drop_columns in
  let drop_ks := map (fun k => ADropConstraint (k_name k))
                   (filter is_alter (od_difference k_name (t_constraints s) (t_constraints t))) in
  if existsb (fun p => negb (constr_eqb (fst p) (snd p)))
       (od_intersection k_name (t_constraints s) (t_constraints t))
  then Err "TableFormationError"
  else
    let add_ks := map AAddConstraint
                    (filter is_alter (od_difference k_name (t_constraints t) (t_constraints s))) in
    let acts := hard ++ alters ++ drops ++ drop_ks ++ add_ks in
    Ok (soft ++ create_stmts ++ moves
        ++ match acts with [] => [] | _ => alter_table d (t_name s) acts end).

(** column comments, postgresql/mutation.py:49-71 *)
Definition pg_column_comments (s t : table) : list stmt :=
  flat_map (fun tc =>
    let sd := match od_get c_name (c_name tc) (t_columns s) with
              | Some sc => c_desc sc | None => None end in
    match comment_change sd (c_desc tc) with
    | Some c => [SCommentColumn (t_name t) (c_name tc) c]
    | None => []
    end) (t_columns t).

(** mysql/mutation.py:42-68 *)
Definition short_desc (o : option string) : option string :=
  match o with Some s => Some (first_line s) | None => None end.
Definition my_table_comment (s t : table) : list stmt :=
  match short_desc (t_desc s), short_desc (t_desc t) with
  | None, None => []
  | None, Some x => [SMyTableComment (t_name t) x]
  | Some _, None => [SMyTableComment (t_name t) ""%string]
  | Some x, Some y => if String.eqb x y then [] else [SMyTableComment (t_name t) y]
  end.

(** default constraints of SQL Server, mssql/mutation.py:30-54 *)
Definition ms_defaults (s t : table) : list action :=
  flat_map (fun p =>
    let sc := fst p in let sd := c_default sc in let td := c_default (snd p) in
    if os_eqb sd td then []
    else match sd with Some _ => [ADropConstraint (df_name (c_name sc))] | None => [] end
         ++ match td with Some e => [AAddDefault (df_name (c_name sc)) e (c_name sc)] | None => [] end)
    (od_intersection c_name (t_columns s) (t_columns t)).

(** [mutate_table_stmt] of the dialects *)
Definition mutate_table (d : dialect) (s t : table) : res (list stmt) :=
  do base <- mutate_table_base d s t;
  Ok (match d with
      | DPg => base ++ pg_column_comments s t
               ++ match comment_change (t_desc s) (t_desc t) with
                  | Some c => [SCommentTable (t_name t) c] | None => [] end
      | DMySQL => base ++ my_table_comment s t
      | DMSSQL => match ms_defaults s t with [] => [] | acts => alter_table d (t_name s) acts end ++ base
      | _ => base
      end).

(** mutation.py:264-338 [mutate_namespace_stmt].  Names of namespaces are compared as LocalIds. *)
Definition mutate_namespace (d : dialect) (o : options) (s t : namespace) : res (list stmt) :=
  if negb (String.eqb (n_name s) (n_name t)) then Err "FormationError" else
  let enum_create := od_difference e_key (n_enums t) (n_enums s) in
  let struct_create := od_difference s_key (n_structs t) (n_structs s) in
  let table_create := od_difference t_key (n_tables t) (n_tables s) in
  let enum_drop := od_difference e_key (n_enums s) (n_enums t) in
  let struct_drop := od_difference s_key (n_structs s) (n_structs t) in
  let table_drop := od_difference t_key (n_tables s) (n_tables t) in
  let same (e : enumt) := filter (fun tb => qid_eqb (e_name e) (t_name tb)) table_create in
  do structs <- concat_res (create_struct d) struct_create;
  let soft := flat_map (fun e => map (fun _ => e) (same e)) enum_drop in
  do tables <- concat_res (create_table d) table_create;
  let constraints := flat_map (add_constraints d) table_create in
  let fill := flat_map (fun e => map (migrate_enum d e) (same e)) enum_drop in
  do menums <- concat_res (fun p => mutate_enum (fst p) (snd p)) (od_intersection e_key (n_enums s) (n_enums t));
  do mstructs <- concat_res (fun p => mutate_struct d (fst p) (snd p)) (od_intersection s_key (n_structs s) (n_structs t));
  do mtables <- concat_res (fun p => mutate_table d (fst p) (snd p)) (od_intersection t_key (n_tables s) (n_tables t));
  Ok (map create_enum enum_create ++ structs
      ++ map soft_drop_enum soft
      ++ tables ++ constraints ++ fill
      ++ menums ++ mstructs ++ mtables
      ++ (if allow_drop_table o then map drop_table table_drop else [])
      ++ (if allow_drop_struct o then map drop_struct struct_drop else [])
      ++ (if allow_drop_enum o
          then map (fun e => if existsb (enum_eqb e) soft then hard_drop_enum e else drop_enum e) enum_drop
          else [])).

(** mutation.py:340-374 [mutate_catalog_stmt].  Both catalogs are sorted in place: the sorted catalogs
    are returned with the statements. *)
Definition mutate_sorted (d : dialect) (o : options) (s t : catalog) : res (list stmt) :=
  let ns_create := od_difference n_name t s in
  let ns_drop := od_difference n_name s t in
  let ns_mutate := od_intersection n_name s t in
  do creates <- concat_res (create_objects d) ns_create;
  do mutates <- concat_res (fun p => mutate_namespace d o (fst p) (snd p)) ns_mutate;
  Ok (flat_map (create_schema d) ns_create
      ++ creates
      ++ flat_map (ns_add_constraints d) ns_create
      ++ mutates
      ++ flat_map ns_drop_constraints ns_drop
      ++ (if allow_drop_namespace o
          then flat_map drop_objects ns_drop ++ flat_map (drop_schema d) ns_drop else [])).
Definition mutate_catalog (d : dialect) (o : options) (s t : catalog) : res (catalog * catalog * list stmt) :=
  do s' <- cat_sort s; do t' <- cat_sort t;
  do ss <- mutate_sorted d o s' t'; Ok (s', t', ss).
