(** Concrete text of the statements: the f-strings of pysqlsync/formation/object_types.py,
    pysqlsync/formation/mutation.py and the dialect subclasses.  Examples reproduce outputs that the
    project's own tests expect (tests/test_generator.py, tests/test_converter.py). *)
From Verif Require Import PyStr QuoteModel ObjectDict Types Objects SqlAst Ddl Mutate.
Open Scope string_scope.

Definition cols_str (l : list string) : string := join_str ", " (map local_quoted l).

(** [column_spec] / [data_spec]; sources cited at [column_def] *)
Definition render_coldef (d : dialect) (c : coldef) : res string :=
  do ty <- type_str (cd_type c);
  let nn := if cd_notnull c then " NOT NULL" else "" in
  let df := match cd_default c with
            | Some (Some n, e) => " CONSTRAINT " ++ local_quoted n ++ " DEFAULT " ++ e
            | Some (None, e) => " DEFAULT " ++ e
            | None => "" end in
  let gen := if cd_identity c then " GENERATED BY DEFAULT AS IDENTITY" else "" in
  let cm (q : string -> string) := match cd_comment c with Some s => " COMMENT " ++ q s | None => "" end in
  Ok (local_quoted (cd_name c) ++ " " ++
      match d with
      | DBase | DPg => ty ++ nn ++ df ++ gen
      | DOracle => ty ++ df ++ nn ++ gen
      | DMySQL => ty ++ (if is_enum (cd_type c) then " CHARACTER SET ascii COLLATE ascii_bin" else "")
                  ++ nn ++ df ++ (if cd_identity c then " AUTO_INCREMENT" else "") ++ cm quote
      | DMSSQL => ty ++ nn ++ df ++ (if cd_identity c then " IDENTITY" else "")
      | DDelta => ty ++ nn ++ gen ++ cm delta_quoted_string
      | DSnow => ty ++ nn ++ df ++ (if cd_identity c then " IDENTITY" else "") ++ cm snow_quoted_string
      end).

(** [spec], object_types.py:290-293, 323-327, 338-342, 356-358 *)
Definition constr_spec (k : constr) : res string :=
  match k with
  | CUnique n cs => Ok (local_quoted n ++ " UNIQUE (" ++ cols_str cs ++ ")")
  | CForeign n cs rt rc => Ok (local_quoted n ++ " FOREIGN KEY (" ++ cols_str cs ++ ") REFERENCES "
                               ++ quoted_id rt ++ " (" ++ cols_str rc ++ ")")
  | CDiscr _ _ _ => Err "NotImplementedError"
  | CCheck n c => Ok (local_quoted n ++ " CHECK (" ++ c ++ ")")
  end.

Definition render_ora (c : orachange) : res string :=
  match c with
  | OSetType t => type_str t
  | OSetDefault (Some e) => Ok ("DEFAULT " ++ e)
  | OSetDefault None => Ok "DEFAULT NULL"
  | OSetNull true => Ok "NULL"
  | OSetNull false => Ok "NOT NULL"
  | OSetIdentity true => Ok "GENERATED BY DEFAULT AS IDENTITY"
  | OSetIdentity false => Ok "DROP IDENTITY"
  end.

Definition render_action (d : dialect) (a : action) : res string :=
  let alter n s := Ok ("ALTER COLUMN " ++ local_quoted n ++ " " ++ s) in
  match a with
  | AAddColumn c => do s <- render_coldef d c;
                    Ok ((match d with DMSSQL => "ADD " | _ => "ADD COLUMN " end) ++ s)
  | ADropColumn n => Ok ("DROP COLUMN " ++ local_quoted n)
  | ADropDefaultColumn df n => Ok ("DROP CONSTRAINT " ++ local_quoted df ++ ", COLUMN " ++ local_quoted n)
  | ARenameColumn n m => Ok ("RENAME COLUMN " ++ local_quoted n ++ " TO " ++ local_quoted m)
  | AChangeColumn n c => do s <- render_coldef d c; Ok ("CHANGE " ++ local_quoted n ++ " " ++ s)
  | ASetType n t => do s <- type_str t; alter n ("SET DATA TYPE " ++ s)
  | ASetNotNull n => alter n "SET NOT NULL"
  | ADropNotNull n => alter n "DROP NOT NULL"
  | ASetDefault n e => alter n ("SET DEFAULT " ++ e)
  | ADropDefault n => alter n "DROP DEFAULT"
  | ADropIdentity n => alter n "DROP IDENTITY"
  | AAddIdentity n => alter n "ADD GENERATED BY DEFAULT AS IDENTITY"
  | AModifyColumn c => do s <- render_coldef d c; Ok ("MODIFY COLUMN " ++ s)
  | AMsAlter n t nn => do s <- type_str t; alter n (s ++ (if nn then " NOT NULL" else ""))
  | AOraModify n cs => do l <- map_res render_ora cs;
                       Ok ("MODIFY " ++ local_quoted n ++ " " ++ join_str " " l)
  | AAddConstraint k => do s <- constr_spec k; Ok ("ADD CONSTRAINT " ++ s)
  | ADropConstraint n => Ok ("DROP CONSTRAINT " ++ local_quoted n)
  | AAddDefault df e n => Ok ("ADD CONSTRAINT " ++ local_quoted df ++ " DEFAULT " ++ e ++ " FOR " ++ local_quoted n)
  end.

Definition render_saction (a : saction) : res string :=
  match a with
  | SaDrop n => Ok ("DROP ATTRIBUTE " ++ local_quoted n)
  | SaSetType n t => do s <- type_str t; Ok ("ALTER ATTRIBUTE " ++ local_quoted n ++ " SET DATA TYPE " ++ s)
  | SaAdd n t => do s <- type_str t; Ok ("ADD ATTRIBUTE " ++ local_quoted n ++ " " ++ s)
  end.

Definition comma_nl : string := "," ++ NL.
Definition row_str (v : pyval) : res string :=
  match v with PTuple _ => constant v | _ => do s <- constant v; Ok ("(" ++ s ++ ")") end.
Definition opt_comment (c : option string) : string :=
  match c with Some s => pg_quoted_string s | None => "NULL" end.

Definition all_add (acts : list action) : bool :=
  forallb (fun a => match a with AAddConstraint _ => true | _ => false end) acts.

(** [alter_table_stmt] and, for SQL Server, the layout of add_constraints_stmt / drop_constraints_stmt.
    Simplification: for SQL Server a single ADD CONSTRAINT has a line break after ADD where
    alter_table_stmt writes a space (white space only). *)
Definition render_alter (d : dialect) (q : qid) (acts : list action) : res string :=
  match d, acts with
  | DMSSQL, _ :: _ :: _ | DMSSQL, [AAddConstraint _] =>
      if all_add acts then
        do l <- map_res (fun a => match a with AAddConstraint k => constr_spec k | _ => Err "" end) acts;
        Ok ("ALTER TABLE " ++ quoted_id q ++ " ADD" ++ NL
            ++ join_str comma_nl (map (fun s => "CONSTRAINT " ++ s) l) ++ ";")
      else do l <- map_res (render_action d) acts;
           Ok ("ALTER TABLE " ++ quoted_id q ++ " DROP" ++ NL
               ++ join_str comma_nl (map (fun s => remove_prefix "DROP " s) l) ++ NL ++ ";")
  | DMSSQL, _ | DOracle, _ =>
      do l <- map_res (render_action d) acts;
      Ok ("ALTER TABLE " ++ quoted_id q ++ " " ++ join_str comma_nl l ++ ";")
  | _, _ => do l <- map_res (render_action d) acts;
            Ok ("ALTER TABLE " ++ quoted_id q ++ NL ++ join_str comma_nl l ++ ";")
  end.

Definition render (d : dialect) (s : stmt) : res string :=
  match s with
  | SCreateSchema true n =>
      match d with
      | DMSSQL => match mssql_create_schema n with Some x => Ok x | None => Ok "" end
      | _ => Ok ("CREATE SCHEMA IF NOT EXISTS " ++ local_quoted n ++ ";")
      end
  | SCreateSchema false n => Ok ("CREATE SCHEMA " ++ local_quoted n ++ ";")
  | SDropSchema true n => Ok ("DROP SCHEMA IF EXISTS " ++ local_quoted n ++ " CASCADE;")
  | SDropSchema false n => Ok ("DROP SCHEMA " ++ local_quoted n ++ ";")
  | SCreateEnum q vs => Ok (enum_create_text q vs)
  | SCreateStruct q ms =>
      do l <- map_res (fun m => do s <- type_str (snd m); Ok (local_quoted (fst m) ++ " " ++ s)) ms;
      Ok ("CREATE TYPE " ++ quoted_id q ++ " AS (" ++ NL ++ join_str comma_nl l ++ NL ++ ");")
  | SDropType q => Ok ("DROP TYPE " ++ quoted_id q ++ ";")
  | SRenameType q n => Ok ("ALTER TYPE " ++ quoted_id q ++ " RENAME TO " ++ local_quoted n ++ ";")
  | SAddValue q v => Ok ("ALTER TYPE " ++ quoted_id q ++ " ADD VALUE " ++ quote v ++ ";")
  | SAlterStruct q acts =>
      do l <- map_res render_saction acts;
      Ok ("ALTER TYPE " ++ quoted_id q ++ NL ++ join_str comma_nl l ++ ";" ++ NL)
  | SCreateTable q cols pn pk cm =>
      do l <- map_res (render_coldef d) cols;
      let defs := (l ++ [("CONSTRAINT " ++ local_quoted pn ++ " PRIMARY KEY (" ++ cols_str pk ++ ")")%string])%list in
      Ok ("CREATE TABLE " ++ quoted_id q ++ " (" ++ NL ++ join_str comma_nl defs ++ NL ++ ")"
          ++ match cm with
             | None => ""
             | Some c => NL ++ match d with
                               | DDelta => "COMMENT " ++ delta_quoted_string c
                               | DSnow => "COMMENT = " ++ snow_quoted_string c
                               | _ => "COMMENT = " ++ quote c end
             end ++ ";")
  | SDropTable q => Ok ("DROP TABLE " ++ quoted_id q ++ ";")
  | SAlterTable q acts => render_alter d q acts
  | SCommentTable q c => Ok ("COMMENT ON TABLE " ++ quoted_id q ++ " IS " ++ opt_comment c ++ ";")
  | SCommentColumn q col c =>
      Ok ("COMMENT ON COLUMN " ++ quoted_id q ++ "." ++ local_quoted col ++ " IS " ++ opt_comment c ++ ";")
  | SCommentType q c => Ok ("COMMENT ON TYPE " ++ quoted_id q ++ " IS " ++ opt_comment c ++ ";")
  | SMyTableComment q c => Ok ("ALTER TABLE " ++ quoted_id q ++ " COMMENT = " ++ quote c ++ ";")
  | SInsert q cols rows oc =>
      do l <- map_res row_str rows;
      Ok ("INSERT INTO " ++ quoted_id q ++ " (" ++ cols_str cols ++ ") VALUES " ++ join_str ", " l
          ++ match oc with
             | NoClause => ";"
             | PgDoNothing => " ON CONFLICT (" ++ local_quoted "value" ++ ") DO NOTHING;"
             | MyKeep => NL ++ "ON DUPLICATE KEY UPDATE " ++ local_quoted "value" ++ " = " ++ local_quoted "value" ++ ";"
             end)
  | SInsertDistinct q src col =>
      Ok ("INSERT INTO " ++ quoted_id q ++ " (" ++ local_quoted "value" ++ ") SELECT DISTINCT " ++ local_quoted col
          ++ " FROM " ++ quoted_id src ++ NL
          ++ "ON DUPLICATE KEY UPDATE " ++ local_quoted "value" ++ " = " ++ local_quoted "value" ++ ";")
  | SUpdateLookup q nc oc ref =>
      match d with
      | DMySQL => Ok ("UPDATE " ++ quoted_id q ++ " data_table" ++ NL
                      ++ "JOIN " ++ quoted_id ref ++ " enum_table ON data_table." ++ local_quoted oc
                      ++ " = enum_table." ++ local_quoted "value" ++ NL
                      ++ "SET data_table." ++ local_quoted nc ++ " = enum_table." ++ local_quoted "id" ++ ";")
      | _ => Ok ("UPDATE " ++ quoted_id q ++ " data_table" ++ NL
                 ++ "SET " ++ local_quoted nc ++ " = enum_table." ++ local_quoted "id" ++ NL
                 ++ "FROM " ++ quoted_id ref ++ " enum_table" ++ NL
                 ++ "WHERE data_table." ++ local_quoted oc ++ "::VARCHAR = enum_table." ++ local_quoted "value" ++ ";")
      end
  end.

(** all nested joins of the Python code use a newline, so the script is the statements joined once *)
Definition render_script (d : dialect) (ss : list stmt) : res (option string) :=
  do l <- map_res (render d) ss;
  Ok (match l with [] => None | _ => Some (join_str NL l) end).
Definition mutate_text (d : dialect) (o : options) (s t : catalog) : res (option string) :=
  do r <- mutate_catalog d o s t; render_script d (snd r).

(** ** Conformance with expected outputs of the project's tests *)
Definition lines (l : list string) : string := join_str NL l.
Definition bigint := TInt 8 true None None.
Definition int4 := TInt 4 true None None.
Definition q0 (n : string) := Qualified None n.

(* tests/test_generator.py:293-340 (mssql, initialize_tables) *)
Definition ex_ms : catalog :=
  [Ns "" [] []
     [Tab (q0 "EnumTable")
        [Col "id" bigint false None false None; Col "state" int4 false None false None;
         Col "optional_state" int4 true None false None] ["id"]
        [CForeign "fk_EnumTable_state" ["state"] (q0 "WorkflowState") ["id"];
         CForeign "fk_EnumTable_optional_state" ["optional_state"] (q0 "WorkflowState") ["id"]] None None;
      Tab (q0 "WorkflowState")
        [Col "id" int4 false None true None; Col "value" (TSub MsVarChar (TVarChar (Some 64%Z))) false None false None]
        ["id"] [CUnique "uq_WorkflowState" ["value"]] None
        (Some [PStr "active"; PStr "inactive"; PStr "deleted"])]].
Example conform_mssql_enum_table :
  mutate_text DMSSQL default_options [] ex_ms = Ok (Some (lines
   ["CREATE TABLE ""EnumTable"" (";
    """id"" bigint NOT NULL,";
    """state"" integer NOT NULL,";
    """optional_state"" integer,";
    "CONSTRAINT ""pk_EnumTable"" PRIMARY KEY (""id"")";
    ");";
    "CREATE TABLE ""WorkflowState"" (";
    """id"" integer NOT NULL IDENTITY,";
    """value"" varchar(64) NOT NULL,";
    "CONSTRAINT ""pk_WorkflowState"" PRIMARY KEY (""id"")";
    ");";
    "INSERT INTO ""WorkflowState"" (""value"") VALUES ('active'), ('inactive'), ('deleted');";
    "ALTER TABLE ""EnumTable"" ADD";
    "CONSTRAINT ""fk_EnumTable_state"" FOREIGN KEY (""state"") REFERENCES ""WorkflowState"" (""id""),";
    "CONSTRAINT ""fk_EnumTable_optional_state"" FOREIGN KEY (""optional_state"") REFERENCES ""WorkflowState"" (""id"");";
    "ALTER TABLE ""WorkflowState"" ADD";
    "CONSTRAINT ""uq_WorkflowState"" UNIQUE (""value"");"])).
Proof. vm_compute. reflexivity. Qed.

(* tests/test_generator.py:556-617 (Person): PostgreSQL and MySQL *)
Definition ex_person (txt : sqltype) : catalog :=
  [Ns "" [] []
     [Tab (q0 "Address")
        [Col "id" bigint false None false None; Col "city" txt false None false None;
         Col "state" txt true None false None] ["id"] [] None None;
      Tab (q0 "Person")
        [Col "id" bigint false None false None;
         Col "name" txt false None false (Some "The person's full name.");
         Col "address" bigint false None false (Some "The address of the person's permanent residence.")]
        ["id"] [CForeign "fk_Person_address" ["address"] (q0 "Address") ["id"]] (Some "A person.") None]].
Example conform_pg_person :
  mutate_text DPg default_options [] (ex_person (TVarChar None)) = Ok (Some (lines
   ["CREATE TABLE ""Address"" (";
    """id"" bigint NOT NULL,";
    """city"" text NOT NULL,";
    """state"" text,";
    "CONSTRAINT ""pk_Address"" PRIMARY KEY (""id"")";
    ");";
    "CREATE TABLE ""Person"" (";
    """id"" bigint NOT NULL,";
    """name"" text NOT NULL,";
    """address"" bigint NOT NULL,";
    "CONSTRAINT ""pk_Person"" PRIMARY KEY (""id"")";
    ");";
    "COMMENT ON TABLE ""Person"" IS 'A person.';";
    "COMMENT ON COLUMN ""Person"".""name"" IS 'The person''s full name.';";
    "COMMENT ON COLUMN ""Person"".""address"" IS 'The address of the person''s permanent residence.';";
    "ALTER TABLE ""Person""";
    "ADD CONSTRAINT ""fk_Person_address"" FOREIGN KEY (""address"") REFERENCES ""Address"" (""id"");"])).
Proof. vm_compute. reflexivity. Qed.
Example conform_mysql_person :
  mutate_text DMySQL default_options [] (ex_person (TSub MyVarChar (TVarChar None))) = Ok (Some (lines
   ["CREATE TABLE ""Address"" (";
    """id"" bigint NOT NULL,";
    """city"" mediumtext NOT NULL,";
    """state"" mediumtext,";
    "CONSTRAINT ""pk_Address"" PRIMARY KEY (""id"")";
    ");";
    "CREATE TABLE ""Person"" (";
    """id"" bigint NOT NULL,";
    """name"" mediumtext NOT NULL COMMENT 'The person''s full name.',";
    """address"" bigint NOT NULL COMMENT 'The address of the person''s permanent residence.',";
    "CONSTRAINT ""pk_Person"" PRIMARY KEY (""id"")";
    ")";
    "COMMENT = 'A person.';";
    "ALTER TABLE ""Person""";
    "ADD CONSTRAINT ""fk_Person_address"" FOREIGN KEY (""address"") REFERENCES ""Address"" (""id"");"])).
Proof. vm_compute. reflexivity. Qed.

(* tests/test_converter.py:466-476 (the columns that the test changes) *)
Definition ex_user (cols : list column) : catalog :=
  [Ns "public" [] [] [Tab (Qualified (Some "public") "UserTable") cols ["id"] [] None None]].
Example conform_test_mutate :
  mutate_text DBase default_options
    (ex_user [Col "id" bigint false None false None;
              Col "created_at" (TTimestamp None false) false None false None;
              Col "deleted_at" (TTimestamp None false) true None false None;
              Col "short_name" (TVarChar None) false None false None;
              Col "homepage_url" (TVarChar None) true None false None])
    (ex_user [Col "id" bigint false None false None;
              Col "created_at" (TTimestamp None false) false (Some "CURRENT_TIMESTAMP()") false None;
              Col "short_name" (TVarChar None) true None false None;
              Col "homepage_url" (TVarChar None) false (Some "'https://example.com/'") false None;
              Col "social_url" (TVarChar None) false (Some "'https://community.canvaslms.com/'") false None])
  = Ok (Some (lines
   ["ALTER TABLE ""public"".""UserTable""";
    "ADD COLUMN ""social_url"" text NOT NULL DEFAULT 'https://community.canvaslms.com/';";
    "ALTER TABLE ""public"".""UserTable""";
    "ALTER COLUMN ""created_at"" SET DEFAULT CURRENT_TIMESTAMP(),";
    "ALTER COLUMN ""short_name"" DROP NOT NULL,";
    "ALTER COLUMN ""homepage_url"" SET NOT NULL,";
    "ALTER COLUMN ""homepage_url"" SET DEFAULT 'https://example.com/',";
    "DROP COLUMN ""deleted_at"";"])).
Proof. vm_compute. reflexivity. Qed.
