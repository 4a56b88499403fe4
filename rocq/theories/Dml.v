(** Model of the data manipulation statements: pysqlsync/base.py:332-431 and the overrides in
    pysqlsync/dialect/postgresql/generator.py:60-113, pysqlsync/dialect/mysql/generator.py:72-117. *)
From Verif Require Import PyStr QuoteModel ObjectDict Types Objects SqlAst Ddl Render.
Open Scope string_scope.

(** clause after the values of an INSERT (MySQL): [key = key] or [col = VALUES(col)] *)
Inductive my_dup : Type := MyKeepCols (cols : list string) | MyTakeCols (cols : list string).

Inductive dml : Type :=
| QInsert (q : qid) (cols : list string)
| QPgIgnore (q : qid) (cols : list string)                       (* ON CONFLICT DO NOTHING *)
| QPgUpsert (q : qid) (cols keys upd : list string)              (* ON CONFLICT (keys) DO UPDATE / NOTHING *)
| QMyInsert (q : qid) (cols : list string) (dup : my_dup)        (* ON DUPLICATE KEY UPDATE *)
| QMerge (q : qid) (cols matchc : list string) (upd ins : option (list string))
| QDelete (q : qid) (col : string).

Fixpoint filter_res {A} (f : A -> res bool) (l : list A) : res (list A) :=
  match l with
  | [] => Ok []
  | x :: r => do b <- f x; do ys <- filter_res f r; Ok (if b then x :: ys else ys)
  end.
Definition names (cs : list column) : list string := map c_name cs.
Definition not_identity (cs : list column) : list column := filter (fun c => negb (c_identity c)) cs.

(** [get_table_insert_stmt], base.py:332-350; postgresql/generator.py:60-73; mysql/generator.py:73-83 *)
Definition insert_stmt (t : table) (order : option (list string)) : res dml :=
  do cs <- get_columns t order; Ok (QInsert (t_name t) (names (not_identity cs))).

(** the columns of the ON clause of [_get_merge_preamble], base.py:364 *)
Definition match_columns (t : table) (cs : list column) : res (list column) :=
  filter_res (fun c => is_lookup_column t (c_name c)) cs.

(** [get_table_merge_stmt], base.py:374-392; postgresql/generator.py:75-89; mysql/generator.py:85-99 *)
Definition merge_stmt (d : dialect) (t : table) (order : option (list string)) : res dml :=
  do cs0 <- get_columns t order;
  let cs := not_identity cs0 in
  match d with
  | DPg => Ok (QPgIgnore (t_name t) (names cs))
  | DMySQL => Ok (QMyInsert (t_name t) (names cs) (MyKeepCols (t_pk t)))
  | _ => do ms <- match_columns t cs;
         Ok (QMerge (t_name t) (names cs) (names ms) None (Some (names cs)))
  end.

(** [get_table_upsert_stmt], base.py:394-426; postgresql/generator.py:91-113; mysql/generator.py:101-117 *)
Definition opt_names (cs : list column) : option (list string) :=
  match cs with [] => None | _ => Some (names cs) end.
Definition upsert_stmt (d : dialect) (t : table) (order : option (list string)) : res dml :=
  do cs <- get_columns t order;
  match d with
  | DPg => do vs <- get_value_columns t None;
           Ok (QPgUpsert (t_name t) (names cs) (t_pk t) (names vs))
  | DMySQL => do vs <- get_value_columns t None;
              Ok (QMyInsert (t_name t) (names cs)
                    (match vs with [] => MyTakeCols (t_pk t) | _ => MyTakeCols (names vs) end))
  | _ => do ms <- match_columns t cs;
         let ins := not_identity cs in
         do upd <- filter_res (fun c => do b <- is_lookup_column t (c_name c); Ok (negb b)) ins;
         Ok (QMerge (t_name t) (names cs) (names ms) (opt_names upd) (opt_names ins))
  end.

(** [get_table_delete_stmt], base.py:428-431 *)
Definition delete_stmt (t : table) : res dml :=
  do c <- get_primary_column t; Ok (QDelete (t_name t) (c_name c)).

(** ** Text *)

(** [placeholder]: postgresql/generator.py:56-57, mysql/generator.py:69-70, mssql/generator.py:71-72,
    oracle/generator.py:85-86, delta/generator.py:73-74, snowflake/generator.py:63-64.
    [DBase] stands for Redshift (redshift/generator.py:63-64). *)
Definition placeholder (d : dialect) (i : nat) : string :=
  match d with
  | DPg => "$" ++ n_to_str (N.of_nat i)
  | DMySQL => "%s"
  | DMSSQL => "?"
  | _ => ":" ++ n_to_str (N.of_nat i)
  end.
Definition value_list (d : dialect) (cols : list string) : string :=
  join_str ", " (map (placeholder d) (seq 1 (length cols))).
Definition col_list (cols : list string) : string := join_str ", " (map local_quoted cols).
Definition semi (parts : list string) : string := join_str NL (parts ++ [";"])%list.
Definition values_part (d : dialect) (cols : list string) : string :=
  "(" ++ col_list cols ++ ") VALUES (" ++ value_list d cols ++ ")".
Definition opt_part {A} (o : option A) (f : A -> list string) : list string :=
  match o with Some x => f x | None => [] end.

Definition render_dml (d : dialect) (s : dml) : string :=
  match s with
  | QInsert q cols => semi ["INSERT INTO " ++ quoted_id q; values_part d cols]
  | QPgIgnore q cols => semi ["INSERT INTO " ++ quoted_id q; values_part d cols; "ON CONFLICT DO NOTHING"]
  | QPgUpsert q cols keys upd =>
      let k := col_list keys in
      semi (app ["INSERT INTO " ++ quoted_id q; values_part d cols]
            match upd with
            | [] => ["ON CONFLICT (" ++ k ++ ") DO NOTHING"]
            | _ => ["ON CONFLICT (" ++ k ++ ") DO UPDATE SET";
                    join_str ("," ++ NL) (map (fun c => local_quoted c ++ " = EXCLUDED." ++ local_quoted c) upd)]
            end)
  | QMyInsert q cols dup =>
      semi ["INSERT INTO " ++ quoted_id q; values_part d cols; "ON DUPLICATE KEY UPDATE";
            join_str ("," ++ NL)
              match dup with
              | MyKeepCols cs => map (fun c => local_quoted c ++ " = " ++ local_quoted c) cs
              | MyTakeCols cs => map (fun c => local_quoted c ++ " = VALUES(" ++ local_quoted c ++ ")") cs
              end]
  | QMerge q cols ms upd ins =>
      semi (app ["MERGE INTO " ++ quoted_id q ++ " target";
                 "USING (VALUES (" ++ value_list d cols ++ ")) source(" ++ col_list cols ++ ")"]
            (app match ms with
                 | [] => []
                 | _ => ["ON (" ++ join_str " OR " (map (fun c => "target." ++ local_quoted c ++ " = source." ++ local_quoted c) ms) ++ ")"]
                 end
            (app (opt_part upd (fun us =>
                   ["WHEN MATCHED THEN";
                    "UPDATE SET " ++ join_str ", " (map (fun c => "target." ++ local_quoted c ++ " = source." ++ local_quoted c) us)]))
                 (opt_part ins (fun is =>
                   ["WHEN NOT MATCHED THEN";
                    "INSERT (" ++ col_list is ++ ") VALUES (" ++ join_str ", " (map (fun c => "source." ++ local_quoted c) is) ++ ")"])))))
  | QDelete q c => "DELETE FROM " ++ quoted_id q ++ " WHERE " ++ local_quoted c ++ " = " ++ placeholder d 1
  end.

(** ** Conformance with expected outputs (tests/test_generator.py:634-719) *)
Definition ex_data : table :=
  Tab (q0 "DataTable") [Col "id" bigint false None false None; Col "data" (TVarChar None) false None false None]
      ["id"] [] None None.
Example conform_upsert_pg : (do s <- upsert_stmt DPg ex_data None; Ok (render_dml DPg s)) = Ok (lines
  ["INSERT INTO ""DataTable"""; "(""id"", ""data"") VALUES ($1, $2)";
   "ON CONFLICT (""id"") DO UPDATE SET"; """data"" = EXCLUDED.""data"""; ";"]).
Proof. vm_compute. reflexivity. Qed.
Example conform_upsert_mssql : (do s <- upsert_stmt DMSSQL ex_data None; Ok (render_dml DMSSQL s)) = Ok (lines
  ["MERGE INTO ""DataTable"" target"; "USING (VALUES (?, ?)) source(""id"", ""data"")";
   "ON (target.""id"" = source.""id"")"; "WHEN MATCHED THEN"; "UPDATE SET target.""data"" = source.""data""";
   "WHEN NOT MATCHED THEN"; "INSERT (""id"", ""data"") VALUES (source.""id"", source.""data"")"; ";"]).
Proof. vm_compute. reflexivity. Qed.
Example conform_upsert_mysql : (do s <- upsert_stmt DMySQL ex_data None; Ok (render_dml DMySQL s)) = Ok (lines
  ["INSERT INTO ""DataTable"""; "(""id"", ""data"") VALUES (%s, %s)";
   "ON DUPLICATE KEY UPDATE"; """data"" = VALUES(""data"")"; ";"]).
Proof. vm_compute. reflexivity. Qed.
