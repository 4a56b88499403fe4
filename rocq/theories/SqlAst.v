(** Abstract syntax of the SQL statements that pysqlsync generates for schema changes.  The concrete
    text of each form is given by Render.v; Ddl.v and Mutate.v produce lists of these statements. *)
From Verif Require Import PyStr QuoteModel Types Objects.

(** A column definition as written in CREATE TABLE / ADD COLUMN / MODIFY COLUMN: what the engine
    sees, i.e. whether NOT NULL is spelled out, the default expression with its constraint name
    (SQL Server), whether an identity clause is present, and an inline comment (MySQL, Delta, Snowflake). *)
Record coldef : Type := CD {
  cd_name : string; cd_type : sqltype; cd_notnull : bool;
  cd_default : option (option string * string); cd_identity : bool; cd_comment : option string }.

(** parts of Oracle's MODIFY *)
Inductive orachange : Type :=
| OSetType (t : sqltype) | OSetDefault (e : option string) | OSetNull (nullable : bool) | OSetIdentity (on : bool).

Inductive action : Type :=
| AAddColumn (c : coldef)
| ADropColumn (n : string)
| ADropDefaultColumn (df n : string)             (* DROP CONSTRAINT df, COLUMN n   (SQL Server) *)
| ARenameColumn (n m : string)
| AChangeColumn (n : string) (c : coldef)        (* CHANGE n m spec                (MySQL) *)
| ASetType (n : string) (t : sqltype)
| ASetNotNull (n : string)
| ADropNotNull (n : string)
| ASetDefault (n e : string)
| ADropDefault (n : string)
| ADropIdentity (n : string)
| AAddIdentity (n : string)
| AModifyColumn (c : coldef)                     (* MODIFY COLUMN n spec           (MySQL) *)
| AMsAlter (n : string) (t : sqltype) (notnull : bool)   (* ALTER COLUMN n type [NOT NULL]  (SQL Server) *)
| AOraModify (n : string) (cs : list orachange)  (* MODIFY n changes               (Oracle) *)
| AAddConstraint (k : constr)
| ADropConstraint (n : string)
| AAddDefault (df e n : string).                 (* ADD CONSTRAINT df DEFAULT e FOR n (SQL Server) *)

Inductive saction : Type :=
| SaDrop (n : string) | SaSetType (n : string) (t : sqltype) | SaAdd (n : string) (t : sqltype).

(** clause of an INSERT that deals with existing labels *)
Inductive onconflict : Type := NoClause | PgDoNothing | MyKeep.

Inductive stmt : Type :=
| SCreateSchema (if_not_exists : bool) (n : string)
| SDropSchema (cascade : bool) (n : string)
| SCreateEnum (q : qid) (vs : list string)
| SCreateStruct (q : qid) (ms : list (string * sqltype))
| SDropType (q : qid)
| SRenameType (q : qid) (n : string)
| SAddValue (q : qid) (v : string)
| SAlterStruct (q : qid) (acts : list saction)
| SCreateTable (q : qid) (cols : list coldef) (pkname : string) (pk : list string) (comment : option string)
| SDropTable (q : qid)
| SAlterTable (q : qid) (acts : list action)
| SCommentTable (q : qid) (c : option string)
| SCommentColumn (q : qid) (col : string) (c : option string)
| SCommentType (q : qid) (c : option string)
| SMyTableComment (q : qid) (c : string)
| SInsert (q : qid) (cols : list string) (rows : list pyval) (oc : onconflict)
| SInsertDistinct (q : qid) (src : qid) (col : string)       (* MySQL: labels found in the data *)
| SUpdateLookup (q : qid) (newcol oldcol : string) (ref : qid).

(** the object a statement is about (schema statements: none) *)
Definition stmt_target (s : stmt) : option qid :=
  match s with
  | SCreateSchema _ _ | SDropSchema _ _ => None
  | SCreateEnum q _ | SCreateStruct q _ | SDropType q | SRenameType q _ | SAddValue q _
  | SAlterStruct q _ | SCreateTable q _ _ _ _ | SDropTable q | SAlterTable q _ | SCommentTable q _
  | SCommentColumn q _ _ | SCommentType q _ | SMyTableComment q _ | SInsert q _ _ _
  | SInsertDistinct q _ _ | SUpdateLookup q _ _ _ => Some q
  end.
