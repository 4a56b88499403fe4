(** Model of the record pipeline of pysqlsync/base.py: the transformers (583-680), the data sources (683-840) and
    [BaseContext._generate_records], [_get_transformer] (1153-1265).

    Simplifications: a field is [None] or a value of [pv]; [field_types] distinguishes only the types that the code
    compares with (NoneType, str, list/set, anything else); the value transformer of the dialect
    ([get_value_transformer], 510-524 and overrides) is a parameter; asynchronous iteration is sequential; the key of a
    lookup table is an integer. The order in which a Python set is iterated is a parameter. *)
From Verif Require Import PyStr QuoteModel ObjectDict Types Objects SqlAst Ddl Render Dml RowSpec DmlSpec.
Open Scope list_scope.

(** Python values of fields: a string, an integer, a list of labels (or [None]), a list of keys, anything else *)
Inductive pv : Type := PVStr (s : string) | PVInt (z : Z) | PVLabels (l : list (option string)) | PVKeys (l : list Z) | PVOther (n : nat).
Definition pv_eq_dec (a b : pv) : {a = b} + {a <> b}.
Proof. decide equality; try apply string_dec; try apply Z.eq_dec; try apply Nat.eq_dec; apply list_eq_dec; [decide equality; apply string_dec|apply Z.eq_dec]. Defined.
Definition pv_eqb (a b : pv) : bool := if pv_eq_dec a b then true else false.
Definition field : Type := option pv.
Definition record : Type := list field.
Inductive ftype : Type := FNone | FStr | FList | FOther (n : nat).

(** contents of the tables of the database *)
Definition prow : Type := row (V := pv).
Definition store : Type := qid -> list prow.
Definition qid_eq_dec (a b : qid) : {a = b} + {a <> b}.
Proof. decide equality; try apply string_dec; decide equality; apply string_dec. Defined.
Definition put (S : store) (q : qid) (rows : list prow) : store := fun k => if qid_eq_dec k q then rows else S k.

(** a function that converts a field that is not [None] *)
Definition fn : Type := pv -> res field.

(** Catalog.get_table, object_types.py:791-802; get_referenced_table, 804-818 *)
Definition cat_get_table (c : catalog) (q : qid) : res table :=
  match c with
  | [] => Err "MappingError"
  | _ => match od_get n_name (match scope_id q with Some s => s | None => ""%string end) c with
         | None => Err "KeyError"
         | Some n => match od_get t_key (local_id q) (n_tables n) with Some t => Ok t | None => Err "KeyError" end
         end
  end.
Definition get_referenced_table (c : catalog) (q : qid) (col : string) : res table :=
  do t <- cat_get_table c q; do ref <- get_constraint t col; cat_get_table c (fst ref).

Section Pipeline.
  Context (d : dialect) (state : catalog) (vt : column -> ftype -> option fn).
  Context (set_order : list pv -> list pv) (fill : qid -> list prow -> string -> option pv).

  (** RecordTransformer and its subclasses, 583-680 *)
  Inductive transformer : Type :=
  | TScalar (f : option fn)
  | TEnum (rel : table) (index : nat)
  | TEnumList (rel : table) (index : nat).

  (** _get_transformer, 1207-1265 *)
  Definition get_transformer (t : table) (index : nat) (ty : ftype) (name : string) : res transformer :=
    match od_get c_name name (t_columns t) with
    | None => Err "ValueError"
    | Some c =>
        let f := vt c ty in
        if negb (is_relation t (c_name c)) then Ok (TScalar f) else
        do rel <- get_referenced_table state (t_name t) (c_name c);
        do b <- is_lookup_table rel;
        if negb b then Ok (TScalar f) else
        match ty with
        | FStr => Ok (TEnum rel index)
        | FList => Ok (TEnumList rel index)
        | _ => Ok (TScalar f)
        end
    end.

  (** _generate_records, 1173-1190: the loop over positions, types and names *)
  Definition omitted (ty : ftype) (name : string) : bool := match ty with FNone => true | _ => String.eqb name "" end.
  Fixpoint plan (t : table) (index : nat) (types : list ftype) (names : list string) : res (list nat * list transformer) :=
    match types, names with
    | ty :: types', n :: names' =>
        if omitted ty n then plan t (S index) types' names' else
        do tr <- get_transformer t index ty n;
        do r <- plan t (S index) types' names';
        Ok (index :: fst r, tr :: snd r)
    | _, _ => Ok ([], [])
    end.

  (** BaseEnumTransformer._merge_lookup_table, 621-640; the result of the query as a Python dictionary *)
  Definition dict : Type := list (field * field).
  Fixpoint dict_get (k : pv) (l : dict) : option field :=
    match l with
    | [] => None
    | (a, b) :: r => match dict_get k r with
                     | Some x => Some x
                     | None => match a with Some v => if pv_eqb v k then Some b else None | None => None end
                     end
    end.
  Definition merge_lookup (rel : table) (S : store) (values : list pv) : res (store * dict) :=
    match values with
    | [] => Ok (S, [])
    | _ =>
        do s <- merge_stmt d rel None;
        do rows <- exec_many pv_eqb (table_keys rel) (fill (t_name rel)) s (S (t_name rel)) (map (fun v => [Some v]) values);
        do vcs <- get_value_columns rel None;
        match vcs with
        | [] => Err "IndexError"
        | v :: _ => do k <- get_primary_column rel;
                    Ok (put S (t_name rel) rows, map (fun r => (r (c_name v), r (c_name k))) rows)
        end
    end.

  (** the values of a column of the batch: [record[self.index]] raises [IndexError]; a list cannot be put in a set *)
  Fixpoint column_values (batch : list record) (i : nat) : res (list pv) :=
    match batch with
    | [] => Ok []
    | r :: rest => match nth_error r i with
                   | None => Err "IndexError"
                   | Some None => column_values rest i
                   | Some (Some (PVLabels _)) | Some (Some (PVKeys _)) => Err "TypeError"
                   | Some (Some v) => do vs <- column_values rest i; Ok (v :: vs)
                   end
    end.
  (** EnumListTransformer.get, 662-680: [values.update(record[self.index])] raises [TypeError] for [None] *)
  Definition labels (l : list (option string)) : list pv := flat_map (fun o => match o with Some s => [PVStr s] | None => [] end) l.
  Fixpoint list_values (batch : list record) (i : nat) : res (list pv) :=
    match batch with
    | [] => Ok []
    | r :: rest => match nth_error r i with
                   | None => Err "IndexError"
                   | Some (Some (PVLabels l)) => do vs <- list_values rest i; Ok (labels l ++ vs)
                   | Some _ => Err "TypeError"
                   end
    end.
  (** the set that the loop builds, without [None] *)
  Definition as_set (l : list pv) : list pv := set_order (nodup pv_eq_dec l).

  (** get_enum_transformer, get_enum_list_transformer, 526-536 *)
  Definition enum_fn (dc : dict) : fn := fun v => match dict_get v dc with Some x => Ok x | None => Err "KeyError" end.
  Definition label_key (dc : dict) (o : option string) : res Z :=
    match o with
    | None => Err "KeyError"
    | Some s => match dict_get (PVStr s) dc with Some (Some (PVInt z)) => Ok z | Some _ => Err "TypeError" | None => Err "KeyError" end
    end.
  Definition enum_list_fn (dc : dict) : fn := fun v =>
    match v with PVLabels l => do ks <- map_res (label_key dc) l; Ok (Some (PVKeys ks)) | _ => Err "TypeError" end.

  (** [transformer.get(batch)], 598-601, 643-660, 663-680 *)
  Definition get_fn (tr : transformer) (S : store) (batch : list record) : res (store * option fn) :=
    match tr with
    | TScalar f => Ok (S, f)
    | TEnum rel i => do vs <- column_values batch i; do r <- merge_lookup rel S (as_set vs); Ok (fst r, Some (enum_fn (snd r)))
    | TEnumList rel i => do vs <- list_values batch i; do r <- merge_lookup rel S (as_set vs); Ok (fst r, Some (enum_list_fn (snd r)))
    end.
  Fixpoint get_fns (trs : list transformer) (S : store) (batch : list record) : res (store * list (option fn)) :=
    match trs with
    | [] => Ok (S, [])
    | tr :: rest => do r <- get_fn tr S batch; do q <- get_fns rest (fst r) batch; Ok (fst q, snd r :: snd q)
    end.

  (** [(fn(field) if field is not None else None) if fn is not None else field] *)
  Definition apply_fn (f : option fn) (x : field) : res field :=
    match f with None => Ok x | Some g => match x with None => Ok None | Some v => g v end end.
  (** the tuple over [zip(fns, record)] *)
  Fixpoint convert (fs : list (option fn)) (r : record) : res record :=
    match fs, r with
    | f :: fs', x :: r' => do y <- apply_fn f x; do ys <- convert fs' r'; Ok (y :: ys)
    | _, _ => Ok []
    end.
  (** [(record[i] for i in indices)] *)
  Definition select (indices : list nat) (r : record) : res record :=
    map_res (fun i => match nth_error r i with Some x => Ok x | None => Err "IndexError" end) indices.
  (** [zip(fns, (record[i] for i in indices))]: a field is fetched when its turn comes *)
  Definition select_convert (indices : list nat) (fs : list (option fn)) (r : record) : res record :=
    do s <- select indices r; convert fs s.

  (** the data source that _generate_records returns, 1192-1205 *)
  Inductive source : Type := SrcSame | SrcSelect (indices : list nat) | SrcTransform (trs : list transformer) | SrcBoth (indices : list nat) (trs : list transformer).
  Definition generate_records (t : table) (types : list ftype) (names : option (list string)) : res source :=
    do p <- plan t 0 types (match names with Some ns => ns | None => map c_name (t_columns t) end);
    let (indices, trs) := p in
    Ok (match trs with
        | [] => if Nat.eqb (length indices) (length types) then SrcSame else SrcSelect indices
        | _ => if Nat.eqb (length indices) (length types) then SrcTransform trs else SrcBoth indices trs
        end).
  (** one batch of that source, 762-840 *)
  Definition one_batch (src : source) (S : store) (batch : list record) : res (store * list record) :=
    match src with
    | SrcSame => Ok (S, batch)
    | SrcSelect indices => do out <- map_res (select indices) batch; Ok (S, out)
    | SrcTransform trs => do r <- get_fns trs S batch; do out <- map_res (convert (snd r)) batch; Ok (fst r, out)
    | SrcBoth indices trs => do r <- get_fns trs S batch; do out <- map_res (select_convert indices (snd r)) batch; Ok (fst r, out)
    end.
  Fixpoint all_batches (src : source) (S : store) (bs : list (list record)) : res (store * list (list record)) :=
    match bs with
    | [] => Ok (S, [])
    | b :: rest => do r <- one_batch src S b; do q <- all_batches src (fst r) rest; Ok (fst q, snd r :: snd q)
    end.
  (** the records that are bound to the statement, for all batches of an insert or upsert *)
  Definition bound_records (t : table) (types : list ftype) (names : option (list string)) (S : store) (bs : list (list record)) : res (store * list (list record)) :=
    do src <- generate_records t types names; all_batches src S bs.
  (** the column order of the statement, 1086, 1148 *)
  Definition statement_order (names : option (list string)) : option (list string) :=
    match names with
    | Some [] | None => None
    | Some ns => Some (filter (fun n => negb (String.eqb n "")) ns)
    end.
End Pipeline.

(** PostgreSQLContext._insert_rows, dialect/postgresql/connection.py:124-143, and RedshiftContext._insert_rows,
    dialect/redshift/connection.py:120-134: rows are copied with the protocol of COPY into the columns that are listed, generated
    ones too.  Its effect is that of an INSERT that lists the columns, for each record. *)
Definition copy_stmt (t : table) (order : option (list string)) : res dml :=
  do cs <- get_columns t order; Ok (QInsert (t_name t) (names cs)).
