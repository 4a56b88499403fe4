(** Specification: what the statements of a script do to stored rows.

    This file is written from the SQL rules of the engines; it does not use the generator.  A row gives each column a value;
    [None] is NULL, and also the value at a column that the table does not have.  The relation describes the successful
    executions: constraints can only make a statement fail.  Where the engine is free to choose (generated keys, values of
    columns that an INSERT does not list, the conversion of a value to another type) any choice is allowed. *)
From Verif Require Import PyStr QuoteModel Types Objects SqlAst DbSpec.
From Coq Require Import String List.
Import ListNotations.
Open Scope list_scope.

Definition cell : Type := option pyval.
Definition record : Type := string -> cell.
Definition store : Type := okey -> list record.

Record server : Type := Srv {
  sv_fits : sqltype -> pyval -> Prop;                (* a value that a column of the type can hold *)
  sv_cast : sqltype -> pyval -> pyval -> Prop;       (* conversion when a column gets the type *)
  sv_same : string -> string -> bool;                (* comparison of texts (collation) *)
  sv_default : string -> cell -> Prop;               (* values of a default expression *)
  sv_implicit : bool }.                              (* a new NOT NULL column without default gets some value (MySQL) *)
(** a value that fits a type is not changed by a conversion to it; texts are compared by an equivalence *)
Record lawful (S : server) : Prop := {
  lw_cast : forall ty v w, sv_cast S ty v w -> sv_fits S ty v -> w = v;
  lw_refl : forall a, sv_same S a a = true;
  lw_sym : forall a b, sv_same S a b = true -> sv_same S b a = true;
  lw_trans : forall a b c, sv_same S a b = true -> sv_same S b c = true -> sv_same S a c = true }.

Section Server.
  Context (S : server).

  Definition set_cell (r : record) (n : string) (v : cell) : record := fun c => if String.eqb c n then v else r c.
  Definition same_record (r r' : record) : Prop := forall c, r' c = r c.
  (** the value of a new column in existing rows *)
  Definition new_value (c : coldef) (v : cell) : Prop :=
    match cd_default c with
    | Some (_, e) => sv_default S e v
    | None => if cd_identity c then v <> None
              else if cd_notnull c then sv_implicit S = true /\ v <> None
              else v = None
    end.
  Definition converted (ty : sqltype) (v v' : cell) : Prop :=
    match v with None => v' = None | Some x => exists y, v' = Some y /\ sv_cast S ty x y end.
  (** MySQL numbers the rows that have NULL or 0 in a column that becomes AUTO_INCREMENT *)
  Definition numbered (identity : bool) (v : cell) : Prop := identity = true /\ (v = None \/ v = Some (PInt 0)).
  Definition retyped (r : record) (n : string) (ty : sqltype) (r' : record) : Prop :=
    exists v, converted ty (r n) v /\ same_record (set_cell r n v) r'.

  (** one action of ALTER TABLE on one row *)
  Definition on_row (a : action) (r r' : record) : Prop :=
    match a with
    | AAddColumn c => exists v, new_value c v /\ same_record (set_cell r (cd_name c) v) r'
    | ADropColumn n | ADropDefaultColumn _ n => same_record (set_cell r n None) r'
    | ARenameColumn n m => same_record (set_cell (set_cell r n None) m (r n)) r'
    | AChangeColumn n c =>
        exists v, (converted (cd_type c) (r n) v \/ numbered (cd_identity c) (r n))
                  /\ same_record (set_cell (set_cell r n None) (cd_name c) v) r'
    | ASetType n ty => retyped r n ty r'
    | AModifyColumn c =>
        exists v, (converted (cd_type c) (r (cd_name c)) v \/ numbered (cd_identity c) (r (cd_name c)))
                  /\ same_record (set_cell r (cd_name c) v) r'
    | AMsAlter n ty _ => retyped r n ty r'
    | AOraModify n cs =>
        (exists ty, In (OSetType ty) cs /\ retyped r n ty r') \/ ((forall ty, ~ In (OSetType ty) cs) /\ same_record r r')
    | ASetNotNull _ | ADropNotNull _ | ASetDefault _ _ | ADropDefault _ | ADropIdentity _ | AAddIdentity _
    | AAddConstraint _ | ADropConstraint _ | AAddDefault _ _ _ => same_record r r'
    end.
  Fixpoint on_rows (acts : list action) (rows rows' : list record) : Prop :=
    match acts with
    | [] => rows' = rows
    | a :: r => exists mid, Forall2 (on_row a) rows mid /\ on_rows r mid rows'
    end.

  (** a row made from a value: the value itself in the only listed column, or one component per listed column *)
  Definition gives (cols : list string) (v : pyval) (r : record) : Prop :=
    match v with
    | PTuple vs => Forall2 (fun c x => r c = Some x) cols vs
    | _ => exists c, cols = [c] /\ r c = Some v
    end.
  (** the label of a row of a lookup table *)
  Definition label (r : record) (a : string) : Prop := r "value"%string = Some (PStr a).
  Definition labelled (rows : list record) (a : string) : Prop := exists r b, In r rows /\ label r b /\ sv_same S a b = true.
  Definition insert_one (cols : list string) (oc : onconflict) (v : pyval) (rows rows' : list record) : Prop :=
    (exists r, gives cols v r /\ rows' = rows ++ [r] /\ (oc = NoClause \/ forall a, v = PStr a -> ~ labelled rows a))
    \/ (oc <> NoClause /\ rows' = rows /\ exists a, v = PStr a /\ labelled rows a).
  Fixpoint insert_rows (cols : list string) (oc : onconflict) (vs : list pyval) (rows rows' : list record) : Prop :=
    match vs with
    | [] => rows' = rows
    | v :: r => exists mid, insert_one cols oc v rows mid /\ insert_rows cols oc r mid rows'
    end.
  (** labels found in column [col] of [data] are added to the lookup table unless they are there; NULL is refused *)
  Definition insert_distinct (data : list record) (col : string) (rows rows' : list record) : Prop :=
    (exists new, rows' = rows ++ new) /\ forall r, In r data -> exists a, r col = Some (PStr a) /\ labelled rows' a.
  (** UPDATE of a joined table: a row that matches gets the key of a matching row, the others stay *)
  Definition looked_up (lookup : list record) (new old : string) (r r' : record) : Prop :=
    (exists e a b, In e lookup /\ r old = Some (PStr a) /\ label e b /\ sv_same S a b = true /\ same_record (set_cell r new (e "id"%string)) r')
    \/ ((forall e a b, In e lookup -> r old = Some (PStr a) -> label e b -> sv_same S a b = false) /\ same_record r r').

  Definition at_key (q : qid) (P : list record -> Prop) (D D' : store) : Prop :=
    P (D' (key_of q)) /\ forall k, k <> key_of q -> D' k = D k.
  Definition stmt_step (s : stmt) (D D' : store) : Prop :=
    match s with
    | SAlterTable q acts => at_key q (on_rows acts (D (key_of q))) D D'
    | SCreateTable q _ _ _ _ => D (key_of q) = [] /\ at_key q (fun rows => rows = []) D D'
    | SDropTable q => at_key q (fun rows => rows = []) D D'
    | SDropSchema _ n => forall k, D' k = if String.eqb (fst k) n then [] else D k
    | SInsert q cols vs oc => at_key q (insert_rows cols oc vs (D (key_of q))) D D'
    | SInsertDistinct q src col => at_key q (insert_distinct (D (key_of src)) col (D (key_of q))) D D'
    | SUpdateLookup q new old ref => at_key q (Forall2 (looked_up (D (key_of ref)) new old) (D (key_of q))) D D'
    | SCreateSchema _ _ | SCreateEnum _ _ | SCreateStruct _ _ | SDropType _ | SRenameType _ _ | SAddValue _ _ | SAlterStruct _ _
    | SCommentTable _ _ | SCommentColumn _ _ _ | SCommentType _ _ | SMyTableComment _ _ => forall k, D' k = D k
    end.
  Fixpoint script (l : list stmt) (D D' : store) : Prop :=
    match l with
    | [] => forall k, D' k = D k
    | s :: r => exists M, stmt_step s D M /\ script r M D'
    end.
End Server.
