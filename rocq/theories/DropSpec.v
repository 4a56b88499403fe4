(** Specification for C60: what the servers answer to the queries, and what the commands do, from the manuals.  The
    database is that of DbSpec; engines without schemas keep their tables in the schema without name. *)
From Verif Require Import PyStr QuoteModel QuoteSpec Types Objects SqlAst Ddl DbSpec SqlText DropSchema.
From stdpp Require Import gmap strings.
From Coq Require Import Permutation.
Open Scope string_scope.

(** ** Queries *)
(** the value of a literal in a query: the engine's rules for literals *)
Definition literal_value (d : dialect) (lit : string) : option string :=
  match lit with
  | String c r => if Ascii.eqb c QT then match scan_lit d r with Some (v, "") => Some v | _ => None end else None
  | "" => None
  end.
Definition has_table (D : db) (k : okey) : Prop := exists t, db_objs D !! k = Some (OTable t).
Definition has_foreign_key (D : db) (k : okey) (c : string) : Prop :=
  exists t n cs rt rc, db_objs D !! k = Some (OTable t) /\ dt_cons t !! c = Some (CForeign n cs rt rc).
(** all elements with a property, once each, in any order *)
Definition lists {A} (P : A -> Prop) (out : list A) : Prop := List.NoDup out /\ forall x, In x out <-> P x.
(** [others]: the tables of other users, which the views of Oracle show as well *)
Definition names_answer (d : dialect) (others : list string) (q : query) (D : db) (out : list string) : Prop :=
  match q with
  | TablesOf lit => exists n, literal_value d lit = Some n /\ lists (fun t => has_table D (n, t)) out
  | TablesLike lit =>
      exists p own oth, literal_value d lit = Some p /\ Permutation out (own ++ oth)%list /\
        lists (fun t => has_table D ("", t) /\ like "~" p t) own /\
        (forall t, In t oth <-> d = DOracle /\ In t others /\ like "~" p t)
  | ForeignKeysOf _ => False
  end.
Definition pairs_answer (d : dialect) (q : query) (D : db) (out : list (string * string)) : Prop :=
  match q with
  | ForeignKeysOf lit => exists n, literal_value d lit = Some n /\ lists (fun p => has_foreign_key D (n, fst p) (snd p)) out
  | _ => False
  end.

(** ** Commands *)
Definition no_table (D : db) (k : okey) : Prop := db_objs D !! k = None.
Definition without_table (k : okey) (D : db) : db := Db (db_schemas D) (delete k (db_objs D)).
(** DROP TABLE IF EXISTS of one table: an object of another kind is an error *)
Definition drop_one (k : okey) (D D' : db) : Prop := (has_table D k \/ no_table D k) /\ D' = without_table k D.
Fixpoint drop_each (l : list okey) (D D' : db) : Prop :=
  match l with [] => D' = D | k :: r => exists D1, drop_one k D D1 /\ db_ok D1 /\ drop_each r D1 D' end.
Fixpoint drop_at_once (l : list okey) (D D' : db) : Prop :=
  match l with [] => D' = D | k :: r => exists D1, drop_one k D D1 /\ drop_at_once r D1 D' end.
(** CASCADE CONSTRAINTS: foreign keys that refer to the table are dropped, in whatever table they are *)
Definition refers_to (P : okey -> Prop) (k : constr) : Prop := match k with CForeign _ _ rt _ => P (key_of rt) | _ => False end.
Global Instance refers_to_dec P `{forall k, Decision (P k)} k : Decision (refers_to P k).
Proof. destruct k; cbn; apply _. Defined.
Definition without_keys (P : okey -> Prop) `{forall k, Decision (P k)} (o : dbobj) : dbobj :=
  match o with
  | OTable t => OTable (DbTab (dt_cols t) (dt_pk t) (filter (fun p => ~ refers_to P (snd p)) (dt_cons t)) (dt_comment t))
  | _ => o
  end.
(** DROP SCHEMA ... CASCADE of PostgreSQL: the objects of the schema, and what depends on them: foreign keys to its
    tables, columns and members of its types (and the constraints on these columns) *)
Definition made_of (n : string) (t : sqltype) : Prop := exists q, In q (type_refs t) /\ fst (key_of q) = n.
Global Instance made_of_dec n t : Decision (made_of n t).
Proof.
  destruct (List.existsb (fun q => String.eqb (fst (key_of q)) n) (type_refs t)) eqn:E.
  - left. apply existsb_exists in E as (q & I & E). apply String.eqb_eq in E. exists q. auto.
  - right. intros (q & I & X). assert (Y : List.existsb (fun q => String.eqb (fst (key_of q)) n) (type_refs t) = true); [|congruence].
    apply existsb_exists. exists q. split; [exact I|apply String.eqb_eq, X].
Defined.
Definition without_schema_refs (n : string) (o : dbobj) : dbobj :=
  match o with
  | OEnum vs => OEnum vs
  | OStruct ms c => OStruct (filter (fun p => ~ made_of n (snd p)) ms) c
  | OTable t =>
      let cols := filter (fun p : string * dbcol => ~ made_of n (dc_type (snd p))) (dt_cols t) in
      let kept := fun x => bool_decide (is_Some (cols !! x)) in
      OTable (DbTab cols (if forallb kept (dt_pk t) then dt_pk t else [])
                (filter (fun p => ~ refers_to (fun k => fst k = n) (snd p) /\ forallb kept (own_cols (snd p)) = true) (dt_cons t)) (dt_comment t))
  end.
(** the database without the schema *)
Definition without_schema (n : string) (D : db) : db :=
  Db (db_schemas D ∖ {[ n ]}) (filter (fun p : okey * dbobj => fst (fst p) <> n) (db_objs D)).
Definition cascade_schema (n : string) (D : db) : db :=
  Db (db_schemas D ∖ {[ n ]}) (without_schema_refs n <$> filter (fun p : okey * dbobj => fst (fst p) <> n) (db_objs D)).
Definition cascade_table (k : okey) (D : db) : db :=
  Db (db_schemas D) (without_keys (eq k) <$> delete k (db_objs D)).

Definition effect (d : dialect) (c : cmd) (D D' : db) : Prop :=
  match c with
  | DropKey t n => exec eng_mssql (SAlterTable t [ADropConstraint n]) D = Some D'
  (* SQL Server drops one table after the other, MySQL looks at foreign keys between other tables only *)
  | DropTables l => match d with
                    | DMySQL => drop_at_once (map key_of l) D D'
                    | _ => drop_each (map key_of l) D D'
                    end
  | DropTableCascade t => has_table D (key_of t) /\ D' = cascade_table (key_of t) D
  | DropSchemaIfExists true n => if decide (n ∈ db_schemas D) then D' = cascade_schema n D else D' = D
  | DropSchemaIfExists false n =>
      if decide (n ∈ db_schemas D) then (forall (k : okey) o, db_objs D !! k = Some o -> fst k <> n) /\ D' = without_schema n D else D' = D
  | DropSchemaPlain n => n ∈ db_schemas D /\ (forall (k : okey) o, db_objs D !! k = Some o -> fst k <> n) /\ D' = without_schema n D
  end.
(** commands are executed one after the other; each leaves a consistent database behind, or fails *)
Fixpoint effects (d : dialect) (l : list cmd) (D D' : db) : Prop :=
  match l with [] => D' = D | c :: r => exists D1, effect d c D D1 /\ db_ok D1 /\ effects d r D1 D' end.

(** ** Programs: whatever the answers of the server, the program ends and leaves the database [D'] *)
Fixpoint leads_to (d : dialect) (others : list string) (p : prog) (D D' : db) : Prop :=
  match p with
  | Done => D' = D
  | AskPairs q k => (exists out, pairs_answer d q D out) /\ forall out, pairs_answer d q D out -> leads_to d others (k out) D D'
  | AskNames q k => (exists out, names_answer d others q D out) /\ forall out, names_answer d others q D out -> leads_to d others (k out) D D'
  | Execute l k => exists D1, effects d l D D1 /\ leads_to d others k D1 D'
  end.

(** ** Vocabulary of the theorems *)
(** nothing outside the objects of [P] refers to them *)
Definition foreign_key_into (P : okey -> Prop) (D : db) : Prop :=
  exists k t n f cs rt rc, ~ P k /\ db_objs D !! k = Some (OTable t) /\ dt_cons t !! n = Some (CForeign f cs rt rc) /\ P (key_of rt).
Definition column_made_of (P : okey -> Prop) (D : db) : Prop :=
  exists k t n c q, ~ P k /\ db_objs D !! k = Some (OTable t) /\ dt_cols t !! n = Some c /\ In q (type_refs (dc_type c)) /\ P (key_of q).
Definition member_made_of (P : okey -> Prop) (D : db) : Prop :=
  exists k ms com n ty q, ~ P k /\ db_objs D !! k = Some (OStruct ms com) /\ ms !! n = Some ty /\ In q (type_refs ty) /\ P (key_of q).
Definition in_schema (n : string) (k : okey) : Prop := fst k = n.
(** tables of a namespace on engines without schemas *)
Definition prefixed_by (ns : string) (k : okey) : Prop := fst k = "" /\ exists r, snd k = ns ++ "__" ++ r.

(** ** Reading the commands: characters outside of quotes, and quoted names *)
Inductive piece : Type := Ch (c : ascii) | Name (s : string).
Fixpoint pieces (q : ascii) (fuel : nat) (s : string) : option (list piece) :=
  match s, fuel with
  | "", _ => Some []
  | _, O => None
  | String c r, S f =>
      if Ascii.eqb c q
      then match scan_quoted q r with Some (v, rest) => match pieces q f rest with Some l => Some (Name v :: l) | None => None end | None => None end
      else match pieces q f r with Some l => Some (Ch c :: l) | None => None end
  end.
Fixpoint chars (s : string) : list piece := match s with "" => [] | String c r => Ch c :: chars r end.
Definition name_pieces (q : qid) : list piece :=
  match scope_id q with Some n => [Name n; Ch "."%char; Name (local_id q)] | None => [Name (local_id q)] end.
Fixpoint separated (l : list (list piece)) : list piece :=
  match l with [] => [] | [x] => x | x :: r => (x ++ chars ", " ++ separated r)%list end.
(** what a command says *)
Definition says (d : dialect) (c : cmd) : list piece :=
  match c with
  | DropKey t n => (chars "ALTER TABLE " ++ name_pieces t ++ chars " DROP CONSTRAINT " ++ [Name n] ++ chars ";")%list
  | DropTables l => (chars "DROP TABLE IF EXISTS " ++ separated (map name_pieces l) ++ chars ";")%list
  | DropTableCascade t => (chars "DROP TABLE " ++ [Name (local_id t)] ++ chars " CASCADE CONSTRAINTS PURGE;")%list
  | DropSchemaIfExists true n => (chars "DROP SCHEMA IF EXISTS " ++ [Name n] ++ chars " CASCADE;")%list
  | DropSchemaIfExists false n => (chars "DROP SCHEMA IF EXISTS " ++ [Name n] ++ chars ";")%list
  | DropSchemaPlain n => (chars "DROP SCHEMA " ++ [Name n] ++ chars ";")%list
  end.
(** the character that MySQL's commands put names in *)
Definition name_quote (d : dialect) : ascii := match d with DMySQL => BQ | _ => DQ end.
