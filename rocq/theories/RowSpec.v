(** What the database does with a data manipulation statement and a record: the trusted reading of
    INSERT, INSERT ... ON CONFLICT (PostgreSQL), INSERT ... ON DUPLICATE KEY UPDATE (MySQL), MERGE and
    DELETE.  Independent of how the statements are generated.

    A row gives each column a value; [None] is NULL.  [uniq] lists the column sets of the primary key
    and the unique constraints of the table.  [fill rows c] is the value that the engine supplies for a
    column that an INSERT does not list (default expression, identity, NULL); it may depend on the
    current contents in any way. *)
From Verif Require Import PyStr QuoteModel Dml.
Open Scope list_scope.

Section Rows.
  Context {V : Type} (veqb : V -> V -> bool).
  Definition value := option V.
  Definition row := string -> value.

  (** SQL equality: NULL equals nothing *)
  Definition eq_val (a b : value) : bool :=
    match a, b with Some x, Some y => veqb x y | _, _ => false end.
  (** two rows collide on a key *)
  Definition same_key (r s : row) (key : list string) : bool := forallb (fun c => eq_val (r c) (s c)) key.
  Definition collide (uniq : list (list string)) (r s : row) : bool := existsb (same_key r s) uniq.

  (** no two rows collide *)
  Fixpoint unique_ok (uniq : list (list string)) (rows : list row) : bool :=
    match rows with
    | [] => true
    | r :: rest => negb (existsb (collide uniq r) rest) && unique_ok uniq rest
    end.

  Definition same_list (a b : list string) : bool :=
    if list_eq_dec string_dec a b then match a with [] => false | _ => true end else false.

  (** the value of a column in a parameter record *)
  Fixpoint param (cols : list string) (rec : list value) (c : string) : option value :=
    match cols, rec with
    | k :: ks, v :: vs => if String.eqb k c then Some v else param ks vs c
    | _, _ => None
    end.

  Section Exec.
    Variable uniq : list (list string).
    Variable fill : list row -> string -> value.

    (** the row proposed for insertion *)
    Definition proposed (rows : list row) (cols : list string) (rec : list value) : row :=
      fun c => match param cols rec c with Some v => v | None => fill rows c end.
    (** assign the listed columns from another row *)
    Definition assign (upd : list string) (new old : row) : row :=
      fun c => if str_in c upd then new c else old c.
    Definition checked (rows : list row) : res (list row) :=
      if unique_ok uniq rows then Ok rows else Err "IntegrityError".
    Definition insert_row (rows : list row) (r : row) : res (list row) :=
      if existsb (collide uniq r) rows then Err "IntegrityError" else Ok (rows ++ [r]).

    (** MERGE: a target row is matched when some column of the ON clause has equal values *)
    Definition matched (ms cols : list string) (rec : list value) (r : row) : bool :=
      existsb (fun c => match param cols rec c with Some v => eq_val (r c) v | None => false end) ms.

    (** MySQL: the row that an insert collides with, searching the keys in their order *)
    Fixpoint first_dup (keys : list (list string)) (p : row) (rows : list row) : option (list string) :=
      match keys with
      | [] => None
      | k :: ks => if existsb (fun r => same_key p r k) rows then Some k else first_dup ks p rows
      end.

    Definition exec_dml (s : dml) (rows : list row) (rec : list value) : res (list row) :=
      match s with
      | QInsert _ cols =>
          if negb (Nat.eqb (length rec) (length cols)) then Err "ParameterCount"
          else insert_row rows (proposed rows cols rec)
      | QPgIgnore _ cols =>
          if negb (Nat.eqb (length rec) (length cols)) then Err "ParameterCount"
          else let p := proposed rows cols rec in
               if existsb (collide uniq p) rows then Ok rows else Ok (rows ++ [p])
      | QPgUpsert _ cols keys upd =>
          if negb (Nat.eqb (length rec) (length cols)) then Err "ParameterCount"
          else if negb (existsb (same_list keys) uniq) then Err "SyntaxError"   (* no such unique index *)
          else let p := proposed rows cols rec in
               if existsb (fun r => same_key p r keys) rows
               then checked (map (fun r => if same_key p r keys then assign upd p r else r) rows)
               else insert_row rows p
      | QMyInsert _ cols dup =>
          if negb (Nat.eqb (length rec) (length cols)) then Err "ParameterCount"
          else let p := proposed rows cols rec in
               match first_dup uniq p rows with
               | Some k =>
                   match dup with
                   | MyKeepCols _ => Ok rows
                   | MyTakeCols upd => checked (map (fun r => if same_key p r k then assign upd p r else r) rows)
                   end
               | None => Ok (rows ++ [p])
               end
      | QMerge _ cols ms upd ins =>
          if negb (Nat.eqb (length rec) (length cols)) then Err "ParameterCount"
          else match ms with
          | [] => Err "SyntaxError"                          (* no ON clause *)
          | _ =>
            match upd, ins with
            | None, None => Err "SyntaxError"                (* no WHEN clause *)
            | _, _ =>
              if existsb (matched ms cols rec) rows then
                match upd with
                | None => Ok rows
                | Some us => checked (map (fun r => if matched ms cols rec r
                                                    then assign us (proposed rows cols rec) r else r) rows)
                end
              else match ins with
                   | None => Ok rows
                   | Some is =>
                       insert_row rows (fun c => if str_in c is then proposed rows cols rec c else fill rows c)
                   end
            end
          end
      | QDelete _ c =>
          match rec with
          | [v] => Ok (filter (fun r => negb (eq_val (r c) v)) rows)
          | _ => Err "ParameterCount"
          end
      end.

    (** executemany: one execution per record, in order, stopping at the first failure *)
    Fixpoint exec_many (s : dml) (rows : list row) (recs : list (list value)) : res (list row) :=
      match recs with
      | [] => Ok rows
      | r :: rest => do rows' <- exec_dml s rows r; exec_many s rows' rest
      end.
  End Exec.
End Rows.
