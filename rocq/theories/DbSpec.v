(** Specification: an abstract database and what the generated DDL statements do to it.

    This file is written from the SQL rules of the engines; it does not use the generator.
    Tables and types of one schema share one name space (as in PostgreSQL).  A name without schema
    lives in the schema "".  Statements about one object fail ([None]) when the object is missing,
    already exists or has the wrong kind.  References between objects are treated separately by
    [refs_ok] (needed before a statement) and [db_ok] (must hold after every statement). *)
From Verif Require Import PyStr QuoteModel Types Objects SqlAst.
From stdpp Require Import gmap strings.

Definition okey : Type := string * string.
Definition key_of (q : qid) : okey := (default ""%string (scope_id q), local_id q).

Record dbcol : Type := DbCol {
  dc_type : sqltype; dc_null : bool;
  dc_default : option (option string * string);     (* name of the default constraint, expression *)
  dc_ident : bool; dc_comment : option string }.
Record dbtab : Type := DbTab {
  dt_cols : gmap string dbcol; dt_pk : list string; dt_cons : gmap string constr; dt_comment : option string }.
Inductive dbobj : Type :=
| OEnum (vs : gset string)
| OStruct (ms : gmap string sqltype) (comment : option string)
| OTable (t : dbtab).
Record db : Type := Db { db_schemas : gset string; db_objs : gmap okey dbobj }.

(** Engines differ in two ways that matter here: whether dropping a column silently drops the
    unique and foreign key constraints it takes part in (PostgreSQL, Oracle) or leaves that to the rest of
    the statement (MySQL), and whether ALTER TABLE ... RENAME COLUMN exists (not in SQL Server). *)
Record engine : Type := Eng { eng_cascade : bool; eng_rename : bool }.
Definition eng_pg : engine := Eng true true.
Definition eng_mysql : engine := Eng false true.
Definition eng_mssql : engine := Eng false false.
Definition eng_oracle : engine := Eng true true.

(** an empty comment is no comment *)
Definition norm_comment (c : option string) : option string :=
  match c with Some s => if String.eqb s "" then None else c | None => None end.

(** columns of its own table that a constraint mentions (a CHECK condition is opaque text) *)
Definition own_cols (k : constr) : list string :=
  match k with CUnique _ cs => cs | CForeign _ cs _ _ => cs | CDiscr _ cs _ => cs | CCheck _ _ => [] end.
Definition mentions (n : string) (k : constr) : bool := str_in n (own_cols k).

Definition rename_in (n m : string) (l : list string) : list string :=
  map (fun x => if String.eqb x n then m else x) l.
Definition rename_constr (n m : string) (k : constr) : constr :=
  match k with
  | CUnique a cs => CUnique a (rename_in n m cs)
  | CForeign a cs t r => CForeign a (rename_in n m cs) t r
  | CDiscr a cs r => CDiscr a (rename_in n m cs) r
  | CCheck a c => CCheck a c
  end.

(** meaning of a column definition in a table with primary key [pk]: key and identity columns are
    never nullable *)
Definition mean_coldef (pk : list string) (c : coldef) : dbcol :=
  DbCol (cd_type c) (negb (cd_notnull c) && negb (cd_identity c) && negb (str_in (cd_name c) pk))
        (cd_default c) (cd_identity c) (norm_comment (cd_comment c)).

Definition set_cols (t : dbtab) (m : gmap string dbcol) : dbtab := DbTab m (dt_pk t) (dt_cons t) (dt_comment t).
Definition upd_col (n : string) (f : dbcol -> option dbcol) (t : dbtab) : option dbtab :=
  c ← dt_cols t !! n; c' ← f c; Some (set_cols t (<[n := c']> (dt_cols t))).

Definition def_name (c : dbcol) : option string := c ← dc_default c; fst c.
Definition with_type (x : sqltype) (c : dbcol) := DbCol x (dc_null c) (dc_default c) (dc_ident c) (dc_comment c).
Definition with_null (x : bool) (c : dbcol) := DbCol (dc_type c) x (dc_default c) (dc_ident c) (dc_comment c).
Definition with_default x (c : dbcol) := DbCol (dc_type c) (dc_null c) x (dc_ident c) (dc_comment c).
Definition with_ident (x : bool) (c : dbcol) := DbCol (dc_type c) (dc_null c) (dc_default c) x (dc_comment c).
Definition with_comment x (c : dbcol) := DbCol (dc_type c) (dc_null c) (dc_default c) (dc_ident c) x.

Definition is_none {A} (o : option A) : bool := match o with None => true | _ => false end.

(** changing nullability: key and identity columns cannot become nullable *)
Definition set_null (pk : list string) (n : string) (nullable : bool) (c : dbcol) : option dbcol :=
  if nullable && (dc_ident c || str_in n pk) then None else Some (with_null nullable c).
(** adding the identity property needs a NOT NULL column without default and identity *)
Definition set_ident (on : bool) (c : dbcol) : option dbcol :=
  if on then if dc_ident c || dc_null c || negb (is_none (dc_default c)) then None else Some (with_ident true c)
  else if dc_ident c then Some (with_ident false c) else None.

Definition exec_ora (pk : list string) (n : string) (x : orachange) (c : dbcol) : option dbcol :=
  match x with
  | OSetType t => Some (with_type t c)
  | OSetDefault e => Some (with_default (match e with Some s => Some (None, s) | None => None end) c)
  | OSetNull b => set_null pk n b c
  | OSetIdentity b => set_ident b c
  end.
Fixpoint exec_oras (pk : list string) (n : string) (xs : list orachange) (c : dbcol) : option dbcol :=
  match xs with [] => Some c | x :: r => c' ← exec_ora pk n x c; exec_oras pk n r c' end.

(** DROP COLUMN: fails while a default constraint exists on it (SQL Server); a key column takes the
    primary key with it *)
Definition exec_drop_column (E : engine) (n : string) (t : dbtab) : option dbtab :=
  c ← dt_cols t !! n;
  if negb (is_none (def_name c)) then None
  else Some (DbTab (delete n (dt_cols t))
                   (if str_in n (dt_pk t) then [] else dt_pk t)
                   (if eng_cascade E then filter (fun p => mentions n (snd p) = false) (dt_cons t) else dt_cons t)
                   (dt_comment t)).
Definition exec_drop_constraint (n : string) (t : dbtab) : option dbtab :=
  match dt_cons t !! n with
  | Some _ => Some (DbTab (dt_cols t) (dt_pk t) (delete n (dt_cons t)) (dt_comment t))
  | None =>
      if decide (filter (fun p => def_name (snd p) = Some n) (dt_cols t) = ∅) then None
      else Some (set_cols t ((fun c => if decide (def_name c = Some n) then with_default None c else c) <$> dt_cols t))
  end.
Definition default_name_free (n : string) (t : dbtab) : bool :=
  bool_decide (filter (fun p => def_name (snd p) = Some n) (dt_cols t) = ∅).

Definition exec_action (E : engine) (a : action) (t : dbtab) : option dbtab :=
  match a with
  | AAddColumn c =>
      if negb (is_none (dt_cols t !! cd_name c)) then None
      else Some (set_cols t (<[cd_name c := mean_coldef (dt_pk t) c]> (dt_cols t)))
  | ADropColumn n => exec_drop_column E n t
  | ADropDefaultColumn df n =>
      c ← dt_cols t !! n;
      if decide (def_name c = Some df) then t' ← exec_drop_constraint df t; exec_drop_column E n t' else None
  | ARenameColumn n m =>
      if negb (eng_rename E) then None else
      c ← dt_cols t !! n;
      if negb (is_none (dt_cols t !! m)) then None
      else Some (DbTab (<[m := c]> (delete n (dt_cols t))) (rename_in n m (dt_pk t))
                       (rename_constr n m <$> dt_cons t) (dt_comment t))
  | AChangeColumn n cd =>
      c ← dt_cols t !! n;
      let m := cd_name cd in
      if negb (is_none (dt_cols t !! m)) && negb (String.eqb n m) then None
      else Some (DbTab (<[m := mean_coldef (rename_in n m (dt_pk t)) cd]> (delete n (dt_cols t)))
                       (rename_in n m (dt_pk t)) (rename_constr n m <$> dt_cons t) (dt_comment t))
  | ASetType n ty => upd_col n (fun c => Some (with_type ty c)) t
  | ASetNotNull n => upd_col n (set_null (dt_pk t) n false) t
  | ADropNotNull n => upd_col n (set_null (dt_pk t) n true) t
  | ASetDefault n e => upd_col n (fun c => Some (with_default (Some (None, e)) c)) t
  | ADropDefault n => upd_col n (fun c => Some (with_default None c)) t
  | ADropIdentity n => upd_col n (set_ident false) t
  | AAddIdentity n => upd_col n (set_ident true) t
  | AModifyColumn cd => upd_col (cd_name cd) (fun _ => Some (mean_coldef (dt_pk t) cd)) t
  | AMsAlter n ty nn => upd_col n (fun c => set_null (dt_pk t) n (negb nn) (with_type ty c)) t
  | AOraModify n cs => upd_col n (exec_oras (dt_pk t) n cs) t
  | AAddConstraint k =>
      if negb (is_alter k) || negb (is_none (dt_cons t !! k_name k)) || negb (default_name_free (k_name k) t)
         || existsb (fun n => is_none (dt_cols t !! n)) (own_cols k)
      then None
      else Some (DbTab (dt_cols t) (dt_pk t) (<[k_name k := k]> (dt_cons t)) (dt_comment t))
  | ADropConstraint n => exec_drop_constraint n t
  | AAddDefault df e n =>
      if negb (is_none (dt_cons t !! df)) || negb (default_name_free df t) then None
      else upd_col n (fun c => if is_none (dc_default c) then Some (with_default (Some (Some df, e)) c) else None) t
  end.
Fixpoint exec_actions (E : engine) (l : list action) (t : dbtab) : option dbtab :=
  match l with [] => Some t | a :: r => t' ← exec_action E a t; exec_actions E r t' end.

Definition exec_saction (a : saction) (m : gmap string sqltype) : option (gmap string sqltype) :=
  match a with
  | SaDrop n => if is_none (m !! n) then None else Some (delete n m)
  | SaSetType n t => if is_none (m !! n) then None else Some (<[n := t]> m)
  | SaAdd n t => if is_none (m !! n) then Some (<[n := t]> m) else None
  end.
Fixpoint exec_sactions (l : list saction) (m : gmap string sqltype) : option (gmap string sqltype) :=
  match l with [] => Some m | a :: r => m' ← exec_saction a m; exec_sactions r m' end.

Definition schema_ok (D : db) (k : okey) : bool :=
  String.eqb (fst k) "" || bool_decide (fst k ∈ db_schemas D).
Definition set_obj (k : okey) (o : option dbobj) (D : db) : db :=
  Db (db_schemas D) (partial_alter (fun _ => o) k (db_objs D)).
Definition create_obj (k : okey) (o : dbobj) (D : db) : option db :=
  if is_none (db_objs D !! k) && schema_ok D k then Some (set_obj k (Some o) D) else None.
Definition upd_table (k : okey) (f : dbtab -> option dbtab) (D : db) : option db :=
  match db_objs D !! k with
  | Some (OTable t) => t' ← f t; Some (set_obj k (Some (OTable t')) D)
  | _ => None
  end.
Definition is_type (o : dbobj) : bool := match o with OTable _ => false | _ => true end.
Definition no_dup (l : list string) : bool := bool_decide (NoDup l).

(** Renaming a type: columns and members refer to types by identity, so their declared type follows. *)
Fixpoint retype (k : okey) (n : string) (t : sqltype) : sqltype :=
  match t with
  | TArray e => TArray (retype k n e)
  | TStruct fs =>
      TStruct ((fix go (fs : list (string * sqltype * bool)) : list (string * sqltype * bool) :=
                  match fs with [] => [] | (a, u, b) :: r => (a, retype k n u, b) :: go r end) fs)
  | TUser (Global _) => t
  | TUser q => if decide (key_of q = k) then TUser (rename_qid q n) else t
  | TSub c u => TSub c (retype k n u)
  | _ => t
  end.
Definition retype_obj (k : okey) (n : string) (o : dbobj) : dbobj :=
  match o with
  | OEnum vs => OEnum vs
  | OStruct ms c => OStruct (retype k n <$> ms) c
  | OTable t => OTable (set_cols t ((fun c => with_type (retype k n (dc_type c)) c) <$> dt_cols t))
  end.

(** effect of one statement on the object it names *)
Definition exec (E : engine) (s : stmt) (D : db) : option db :=
  match s with
  | SCreateSchema ine n =>
      if bool_decide (n ∈ db_schemas D) then if ine then Some D else None
      else Some (Db ({[ n ]} ∪ db_schemas D) (db_objs D))
  | SDropSchema casc n =>
      if casc then Some (Db (db_schemas D ∖ {[ n ]}) (filter (fun p => fst (fst p) <> n) (db_objs D)))
      else if bool_decide (n ∈ db_schemas D) && bool_decide (filter (fun p => fst (fst p) = n) (db_objs D) = ∅)
           then Some (Db (db_schemas D ∖ {[ n ]}) (db_objs D)) else None
  | SCreateEnum q vs => if no_dup vs then create_obj (key_of q) (OEnum (list_to_set vs)) D else None
  | SCreateStruct q ms =>
      if no_dup (map fst ms) then create_obj (key_of q) (OStruct (list_to_map ms) None) D else None
  | SDropType q =>
      o ← db_objs D !! key_of q; if is_type o then Some (set_obj (key_of q) None D) else None
  | SRenameType q n =>
      o ← db_objs D !! key_of q;
      let k' := (fst (key_of q), n) in
      if is_type o && is_none (db_objs D !! k')
      then Some (set_obj k' (Some (retype_obj (key_of q) n o))
                   (set_obj (key_of q) None (Db (db_schemas D) (retype_obj (key_of q) n <$> db_objs D))))
      else None
  | SAddValue q v =>
      match db_objs D !! key_of q with
      | Some (OEnum vs) => if bool_decide (v ∈ vs) then None
                           else Some (set_obj (key_of q) (Some (OEnum ({[ v ]} ∪ vs))) D)
      | _ => None
      end
  | SAlterStruct q acts =>
      match db_objs D !! key_of q with
      | Some (OStruct ms c) => ms' ← exec_sactions acts ms; Some (set_obj (key_of q) (Some (OStruct ms' c)) D)
      | _ => None
      end
  | SCreateTable q cols _ pk c =>
      if no_dup (map cd_name cols) && forallb (fun n => str_in n (map cd_name cols)) pk
      then create_obj (key_of q)
             (OTable (DbTab (list_to_map (map (fun x => (cd_name x, mean_coldef pk x)) cols)) pk ∅ (norm_comment c))) D
      else None
  | SDropTable q =>
      match db_objs D !! key_of q with Some (OTable _) => Some (set_obj (key_of q) None D) | _ => None end
  | SAlterTable q acts => upd_table (key_of q) (exec_actions E acts) D
  | SCommentTable q c =>
      upd_table (key_of q) (fun t => Some (DbTab (dt_cols t) (dt_pk t) (dt_cons t) (norm_comment c))) D
  | SMyTableComment q c =>
      upd_table (key_of q) (fun t => Some (DbTab (dt_cols t) (dt_pk t) (dt_cons t) (norm_comment (Some c)))) D
  | SCommentColumn q n c =>
      upd_table (key_of q) (upd_col n (fun x => Some (with_comment (norm_comment c) x))) D
  | SCommentType q c =>
      match db_objs D !! key_of q with
      | Some (OStruct ms _) => Some (set_obj (key_of q) (Some (OStruct ms (norm_comment c))) D)
      | _ => None
      end
  (* statements about rows leave the schema alone; see RowSpec.v *)
  | SInsert _ _ _ _ | SInsertDistinct _ _ _ | SUpdateLookup _ _ _ _ => Some D
  end.
Fixpoint exec_all (E : engine) (l : list stmt) (D : db) : option db :=
  match l with [] => Some D | s :: r => D' ← exec E s D; exec_all E r D' end.

(** ** References between objects *)

(** user-defined types inside a type (a GlobalId names a type of the engine itself, such as inet) *)
Fixpoint type_refs (t : sqltype) : list qid :=
  match t with
  | TArray e => type_refs e
  | TStruct fs => (fix go (fs : list (string * sqltype * bool)) : list qid :=
                     match fs with [] => [] | (_, u, _) :: r => (type_refs u ++ go r)%list end) fs
  | TUser (Global _) => []
  | TUser q => [q]
  | TSub _ u => type_refs u
  | _ => []
  end.
Definition type_exists (D : db) (q : qid) : Prop :=
  exists o, db_objs D !! key_of q = Some o /\ is_type o = true.
Definition types_ok (D : db) (t : sqltype) : Prop := forall q, In q (type_refs t) -> type_exists D q.

(** a foreign key refers to an existing table, by its primary key or the columns of one of its
    unique constraints *)
Definition fk_ok (D : db) (k : constr) : Prop :=
  match k with
  | CForeign _ cs rt rc =>
      length cs = length rc /\
      exists t, db_objs D !! key_of rt = Some (OTable t)
                /\ (dt_pk t = rc \/ exists n u, dt_cons t !! n = Some (CUnique u rc))
  | _ => True
  end.
Definition obj_ok (D : db) (o : dbobj) : Prop :=
  match o with
  | OEnum _ => True
  | OStruct ms _ => forall n t, ms !! n = Some t -> types_ok D t
  | OTable tb => (forall n c, dt_cols tb !! n = Some c -> types_ok D (dc_type c))
                 /\ (forall n k, dt_cons tb !! n = Some k -> fk_ok D k
                                 /\ forall x, In x (own_cols k) -> is_Some (dt_cols tb !! x))
  end.
(** referential integrity of the whole schema: checked after every statement (RESTRICT) *)
Definition db_ok (D : db) : Prop :=
  forall k o, db_objs D !! k = Some o -> obj_ok D o /\ schema_ok D k = true.

(** tables and columns that a statement about rows reads or writes *)
Definition has_cols (D : db) (q : qid) (cs : list string) : Prop :=
  exists t, db_objs D !! key_of q = Some (OTable t) /\ forall c, In c cs -> is_Some (dt_cols t !! c).
Definition refs_ok (s : stmt) (D : db) : Prop :=
  match s with
  | SInsert q cols _ _ => has_cols D q cols
  | SInsertDistinct q src col => has_cols D q ["value"%string] /\ has_cols D src [col]
  | SUpdateLookup q nc oc ref => has_cols D q [nc; oc] /\ has_cols D ref ["id"; "value"]%string
  | _ => True
  end.

(** execution in which every intermediate state is consistent *)
Fixpoint runs (E : engine) (l : list stmt) (D D' : db) : Prop :=
  match l with
  | [] => D' = D
  | s :: r => refs_ok s D /\ exists D1, exec E s D = Some D1 /\ db_ok D1 /\ runs E r D1 D'
  end.
