(** Specification for C54: what it means that a statement as read by the engine ([pstmt], SqlText.v) says
    what was meant ([stmt], SqlAst.v), and the provisos under which the text can be read at all. *)
From Verif Require Import PyStr QuoteModel QuoteSpec Types Objects SqlAst Ddl SqlText.
From Coq Require Import String List Bool Arith Ascii ZArith.
Import ListNotations.
Open Scope string_scope.
Open Scope list_scope.

(** ** Agreement *)
Definition says_name (p : pname) (q : qid) : Prop := p = (scope_id q, local_id q).
(** the type as written is the type's SQL name *)
Definition says_type (d : dialect) (ts : list token) (t : sqltype) : Prop :=
  exists s, type_str t = Ok s /\ lex d s = Some ts.
(** the expression as written is the expression given *)
Definition says_expr (d : dialect) (ts : list token) (e : string) : Prop := lex d e = Some ts.
Definition charset (d : dialect) (t : sqltype) : list token :=
  match d with
  | DMySQL => if is_enum t then [W "CHARACTER"; W "SET"; W "ASCII"; W "COLLATE"; W "ASCII_BIN"] else []
  | _ => [] end.
Definition says_col (d : dialect) (p : pcol) (c : coldef) : Prop :=
  pc_name p = cd_name c
  /\ (exists ts, says_type d ts (cd_type c) /\ pc_type p = ts ++ charset d (cd_type c))
  /\ pc_notnull p = cd_notnull c
  /\ match cd_default c with
     | None => pc_default p = None
     | Some (k, e) => exists ts, says_expr d ts e /\ pc_default p = Some (k, ts) end
  /\ pc_identity p = cd_identity c
  /\ pc_comment p = cd_comment c.
Definition says_key (d : dialect) (n : string) (p : pkey) (k : constr) : Prop :=
  match k with
  | CUnique m cs => n = m /\ p = KUnique cs
  | CForeign m cs q rs => n = m /\ exists r, says_name r q /\ p = KForeign cs r rs
  | CCheck m e => n = m /\ exists ts, says_expr d ts e /\ p = KCheck ts
  | CDiscr _ _ _ => False
  end.
(** parts of Oracle's MODIFY, in the order of its grammar *)
Definition ora_changes (t : option sqltype) (df : option (option string)) (nl id : option bool) : list orachange :=
  (match t with Some x => [OSetType x] | None => [] end) ++ (match df with Some x => [OSetDefault x] | None => [] end)
  ++ (match nl with Some x => [OSetNull x] | None => [] end) ++ (match id with Some x => [OSetIdentity x] | None => [] end).
Definition opt_rel {A B} (R : A -> B -> Prop) (a : option A) (b : option B) : Prop :=
  match a, b with None, None => True | Some x, Some y => R x y | _, _ => False end.
Definition says_modify (d : dialect) (p : pmodify) (cs : list orachange) : Prop :=
  exists t df nl id, cs = ora_changes t df nl id
    /\ opt_rel (says_type d) (pm_type p) t
    /\ opt_rel (fun ts x => match x with Some e => says_expr d ts e | None => ts = [W "NULL"] end) (pm_default p) df
    /\ pm_null p = nl /\ pm_identity p = id.
(** one action of the source is one action of the text, except DROP CONSTRAINT c, COLUMN n (two) *)
Definition says_action (d : dialect) (ps : list paction) (a : action) : Prop :=
  match a with
  | AAddColumn c => exists p, ps = [PAddColumn p] /\ says_col d p c
  | ADropColumn n => ps = [PDropColumn n]
  | ADropDefaultColumn k n => ps = [PDropConstraint k; PDropColumn n]
  | ARenameColumn n m => ps = [PRenameColumn n m]
  | AChangeColumn n c => exists p, ps = [PChangeColumn n p] /\ says_col d p c
  | ASetType n t => exists ts, ps = [PSetType n ts] /\ says_type d ts t
  | ASetNotNull n => ps = [PSetNotNull n]
  | ADropNotNull n => ps = [PDropNotNull n]
  | ASetDefault n e => exists ts, ps = [PSetDefault n ts] /\ says_expr d ts e
  | ADropDefault n => ps = [PDropDefault n]
  | ADropIdentity n => ps = [PDropIdentity n]
  | AAddIdentity n => ps = [PAddIdentity n]
  | AModifyColumn c => exists p, ps = [PModifyColumn p] /\ says_col d p c
  | AMsAlter n t nn => exists ts, ps = [PMsAlter n ts nn] /\ says_type d ts t
  | AOraModify n cs => exists m, ps = [POraModify n m] /\ says_modify d m cs
  | AAddConstraint k => exists n p, ps = [PAddConstraint n p] /\ says_key d n p k
  | ADropConstraint n => ps = [PDropConstraint n]
  | AAddDefault k e n => exists ts, ps = [PAddDefault k ts n] /\ says_expr d ts e
  end.
Definition says_saction (d : dialect) (p : paction_s) (a : saction) : Prop :=
  match a with
  | SaDrop n => p = PsDrop n
  | SaSetType n t => exists ts, p = PsSetType n ts /\ says_type d ts t
  | SaAdd n t => exists ts, p = PsAdd n ts /\ says_type d ts t
  end.
Definition says_scalar (p : sqlval) (v : pyval) : Prop :=
  match v with
  | PStr s => p = SStr s | PBool b => p = SBool b | PInt z => p = SInt z | PTuple _ | POther => False end.
(** a row of one value, or of the members of a tuple *)
Definition says_row (p : list sqlval) (v : pyval) : Prop :=
  match v with
  | PTuple l => Forall2 says_scalar p l
  | _ => exists x, p = [x] /\ says_scalar x v end.
Definition says_conflict (p : pconflict) (c : onconflict) : Prop :=
  match c with NoClause => p = PNone | PgDoNothing => p = PDoNothing "value" | MyKeep => p = PKeepRow "value" "value" end.

Definition says (d : dialect) (p : pstmt) (s : stmt) : Prop :=
  match s with
  | SCreateSchema b n => p = PCreateSchema b n
  | SDropSchema b n => p = PDropSchema b b n
  | SCreateEnum q vs => exists r, says_name r q /\ p = PCreateEnum r vs
  | SCreateStruct q ms => exists r l, says_name r q /\ p = PCreateStruct r l
      /\ Forall2 (fun x m => fst x = fst m /\ says_type d (snd x) (snd m)) l ms
  | SDropType q => exists r, says_name r q /\ p = PDropType r
  | SRenameType q n => exists r, says_name r q /\ p = PRenameType r n
  | SAddValue q v => exists r, says_name r q /\ p = PAddValue r v
  | SAlterStruct q acts => exists r l, says_name r q /\ p = PAlterStruct r l /\ Forall2 (says_saction d) l acts
  | SCreateTable q cols pn pk cm => exists r l, says_name r q /\ p = PCreateTable r l pn pk cm /\ Forall2 (says_col d) l cols
  | SDropTable q => exists r, says_name r q /\ p = PDropTable r
  | SAlterTable q acts => exists r l, says_name r q /\ p = PAlterTable r (concat l) /\ Forall2 (says_action d) l acts
  | SCommentTable q c => exists r, says_name r q /\ p = PCommentTable r c
  | SCommentColumn q col c => exists r, says_name r q /\ p = PCommentColumn r col c
  | SCommentType q c => exists r, says_name r q /\ p = PCommentType r c
  | SMyTableComment q c => exists r, says_name r q /\ p = PTableComment r c
  | SInsert q cols rows oc => exists r l k, says_name r q /\ p = PInsert r cols l k /\ Forall2 says_row l rows /\ says_conflict k oc
  | SInsertDistinct q src col => exists r s, says_name r q /\ says_name s src
      /\ p = PInsertDistinct r "value" s col (PKeepRow "value" "value")
  | SUpdateLookup q nc oc ref => exists r s b, says_name r q /\ says_name s ref /\ p = PUpdateLookup r nc oc s "value" "id" b
  end.

(** ** Provisos *)
(** Token lists with matching parentheses, no semicolon, and no token of [stop] outside parentheses *)
Fixpoint bal (stop : token -> bool) (depth : nat) (ts : list token) : bool :=
  match ts with
  | [] => Nat.eqb depth 0
  | t :: r =>
      if is_sym ";" t then false
      else if is_sym "(" t then bal stop (S depth) r
      else if is_sym ")" t then match depth with 0 => false | S k => bal stop k r end
      else if stop t && Nat.eqb depth 0 then false
      else bal stop depth r
  end.
Definition item_stop (t : token) : bool := is_sym "," t.
Definition clause_stop (t : token) : bool := is_sym "," t || is_word clause_words t.

(** A default expression: it lexes, has matching parentheses, no semicolon, and outside parentheses no comma
    and no word that starts another clause of a column definition (except as the first word: NULL). *)
Definition expr_ok (d : dialect) (e : string) : Prop :=
  exists ts, lex d e = Some ts /\ match ts with
                                  | [] => False
                                  | W _ :: r => bal clause_stop 0 r = true
                                  | _ => bal clause_stop 0 ts = true end.
(** A condition in parentheses *)
Definition cond_ok (d : dialect) (e : string) : Prop := exists ts, lex d e = Some ts /\ bal item_stop 0 ts = true.
(** A text written between apostrophes with the apostrophes doubled: see C49 for MySQL *)
Definition text_ok (d : dialect) (s : string) : Prop :=
  match d with
  | DMySQL | DSnow => has_char BS s = false
  | DDelta => has_char BS s = false /\ has_char QT s = false
  | _ => True end.
(** names that are quoted (a GlobalId is written as it is) *)
Definition name_ok (q : qid) : Prop := match q with Global _ => False | _ => True end.
(** ... a type may have such a name, if it is one word: inet *)
Definition word_type (d : dialect) (q : qid) : Prop :=
  match q with Global s => exists w, lex d s = Some [W w] /\ is_word clause_words (W w) = false | _ => True end.
Fixpoint type_ok (d : dialect) (t : sqltype) : Prop :=
  match t with
  | TArray e => type_ok d e
  | TEnum vs => Forall (text_ok d) vs
  | TStruct _ => False
  | TUser q => word_type d q
  | _ => True
  end.
Definition col_ok (d : dialect) (c : coldef) : Prop :=
  type_ok d (cd_type c)
  /\ match cd_default c with None => True | Some (_, e) => d <> DDelta /\ expr_ok d e end
  /\ match cd_comment c with
     | None => True
     | Some s => match d with DMySQL => text_ok d s | DDelta | DSnow => True | _ => False end end.
Definition constr_ok (d : dialect) (k : constr) : Prop :=
  match k with
  | CUnique _ cs => cs <> []
  | CForeign _ cs q rs => cs <> [] /\ name_ok q /\ rs <> []
  | CCheck _ e => cond_ok d e
  | CDiscr _ _ _ => False
  end.
Definition standard_alter (d : dialect) : Prop := match d with DBase | DPg | DDelta | DSnow => True | _ => False end.
Definition ora_ok (d : dialect) (c : orachange) : Prop :=
  match c with OSetType t => type_ok d t | OSetDefault (Some e) => expr_ok d e | _ => True end.
(** Each engine has its own actions.  Oracle has no ADD COLUMN and SQL Server no RENAME COLUMN
    (see the refutations beside the theorem). *)
Definition action_ok (d : dialect) (a : action) : Prop :=
  match a with
  | AAddColumn c => d <> DOracle /\ col_ok d c
  | ADropColumn _ | ADropConstraint _ => True
  | ADropDefaultColumn _ _ => d = DMSSQL
  | ARenameColumn _ _ => d <> DMSSQL
  | AChangeColumn _ c | AModifyColumn c => d = DMySQL /\ col_ok d c
  | ASetType _ t => standard_alter d /\ type_ok d t
  | ASetDefault _ e => standard_alter d /\ expr_ok d e
  | ASetNotNull _ | ADropNotNull _ | ADropDefault _ | ADropIdentity _ | AAddIdentity _ => standard_alter d
  | AMsAlter _ t _ => d = DMSSQL /\ type_ok d t
  | AOraModify _ cs => d = DOracle /\ Forall (ora_ok d) cs /\ exists t df nl id, cs = ora_changes t df nl id
  | AAddConstraint k => constr_ok d k
  | AAddDefault _ e _ => d = DMSSQL /\ expr_ok d e
  end.
Definition is_drop (a : action) : Prop :=
  match a with ADropColumn _ | ADropConstraint _ | ADropDefaultColumn _ _ => True | _ => False end.
Definition is_add_constraint (a : action) : Prop := match a with AAddConstraint _ => True | _ => False end.
(** Oracle takes one action per statement; SQL Server several additions of constraints or several drops *)
Definition actions_ok (d : dialect) (acts : list action) : Prop :=
  acts <> [] /\ Forall (action_ok d) acts
  /\ match d with
     | DOracle => length acts = 1
     | DMSSQL => length acts = 1 \/ Forall is_add_constraint acts \/ Forall is_drop acts
     | _ => True end.
Definition scalar_ok (d : dialect) (v : pyval) : Prop :=
  match v with PStr s => text_ok d s | PBool _ | PInt _ => True | _ => False end.
Definition row_ok (d : dialect) (v : pyval) : Prop :=
  match v with PTuple l => l <> [] /\ Forall (scalar_ok d) l | _ => scalar_ok d v end.
Definition stmt_ok (d : dialect) (s : stmt) : Prop :=
  match s with
  | SCreateSchema true n => d = DMSSQL -> n <> ""%string /\ has_char QT n = false
  | SCreateSchema false _ | SDropSchema _ _ => True
  | SCreateEnum q vs => name_ok q /\ Forall (text_ok d) vs
  | SCreateStruct q ms => name_ok q /\ ms <> [] /\ Forall (fun m => type_ok d (snd m)) ms
  | SDropType q | SDropTable q | SRenameType q _ => name_ok q
  | SAddValue q v => name_ok q /\ text_ok d v
  | SAlterStruct q acts => name_ok q /\ acts <> []
      /\ Forall (fun a => match a with SaDrop _ => True | SaSetType _ t | SaAdd _ t => type_ok d t end) acts
  | SCreateTable q cols _ pk cm => name_ok q /\ Forall (col_ok d) cols /\ pk <> []
      /\ match cm with
         | None => True
         | Some c => match d with DMySQL => text_ok d c | DDelta | DSnow => True | _ => False end end
  | SAlterTable q acts => name_ok q /\ actions_ok d acts
  | SCommentTable q _ | SCommentColumn q _ _ | SCommentType q _ => name_ok q /\ d = DPg
  | SMyTableComment q c => name_ok q /\ d = DMySQL /\ text_ok d c
  | SInsert q cols rows oc => name_ok q /\ cols <> [] /\ rows <> [] /\ Forall (row_ok d) rows
      /\ match oc with NoClause => True | PgDoNothing => d <> DMySQL | MyKeep => d = DMySQL end
  | SInsertDistinct q src _ => name_ok q /\ name_ok src /\ d = DMySQL
  | SUpdateLookup q _ _ ref => name_ok q /\ name_ok ref
  end.
