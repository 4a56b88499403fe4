(** Model of the Oracle explorer: dialect/oracle/discovery.py [OracleExplorer], and of the server side of its queries.

    The views of the data dictionary are lists of rows ([dictionary]); only the columns that the queries use are kept.  A
    SELECT is a comprehension over these lists in the order of its joins; the server delivers the rows in any order it likes
    ([order]; the first argument identifies the query), and ORDER BY sorts them.
    Simplifications: the conditions on status, temporary, secondary, dropped and read_only (lines 107, 226) are one flag
    ([ot_plain]); the position of a column in a CHECK constraint, which is NULL, is written as a number (the rows are
    skipped); rows are passed on as they are (the conversion to data-classes is C40).  [get_table_names], [has_table] and
    [has_column] (88-97) raise NotImplementedError. *)
From Verif Require Import PyStr QuoteModel QuoteSpec ObjectDict Types Objects Factory Discover PgExplore IsExplore Flat.
Open Scope list_scope.

Record otab : Type := OTab { ot_owner : string; ot_name : string; ot_space : option string; ot_plain : bool }.
Record otcom : Type := OTCom { oc_owner : string; oc_table : string; oc_text : option string }.
Record ocol : Type := OCol {
  ol_owner : string; ol_table : string; ol_name : string; ol_id : Z; ol_type : string; ol_towner : option string; ol_length : Z;
  ol_prec : option Z; ol_scale : option Z; ol_null : string; ol_default : option string; ol_chars : Z; ol_ident : string }.
Record occom : Type := OCCom { om_owner : string; om_table : string; om_col : string; om_text : option string }.
(** the last column: owner and name of the key that a foreign key refers to *)
Record ocon : Type := OCon { on_owner : string; on_name : string; on_type : string; on_table : string; on_ref : option (string * string) }.
Record oconcol : Type := OConCol { ok_owner : string; ok_name : string; ok_col : string; ok_pos : Z }.
Record dictionary : Type := Dict {
  dba_tables : list otab; dba_tab_comments : list otcom; dba_tab_columns : list ocol; dba_col_comments : list occom;
  dba_constraints : list ocon; dba_cons_columns : list oconcol }.

(** [OracleConstraintMeta], 45-51 *)
Record crow : Type := CRow { cr_name : string; cr_type : string; cr_source : string; cr_table : option string; cr_target : option string }.

Section Oracle.
  Variable V : dictionary.
  Variable order : forall A : Type, string -> list A -> list A.
  Arguments order {A}.

  (** [condition], 100 *)
  Definition named (q : qid) (t : string) : bool := is_literal t (quote (local_id q)).
  (** [t.owner != 'SYS' ...  AND t.tablespace_name != 'SYSAUX' AND ...], 106-107 and 225-226 *)
  Definition listed_table (t : otab) : bool :=
    negb (String.eqb (ot_owner t) "SYS") && match ot_space t with Some s => negb (String.eqb s "SYSAUX") | None => false end && ot_plain t.
  (** 102-108 *)
  Definition q_comments (q : qid) : list (option string) :=
    from t of dba_tables V;
    from tc of dba_tab_comments V; where_ String.eqb (ot_owner t) (oc_owner tc) && String.eqb (ot_name t) (oc_table tc);
    where_ named q (ot_name t) && listed_table t;
    [oc_text tc].
  (** 110-128 *)
  Definition q_ocols (q : qid) : list (Z * (ocol * option string)) :=
    from t of dba_tab_columns V;
    from tc of dba_col_comments V; where_ String.eqb (ol_owner t) (om_owner tc) && String.eqb (ol_table t) (om_table tc) && String.eqb (ol_name t) (om_col tc);
    where_ named q (ol_table t);
    [(ol_id t, (t, om_text tc))].
  (** 130-162 *)
  Definition read_ocol (r : ocol * option string) : res column :=
    let (t, comment) := r in
    do ty <- oracle_discover (ol_type t) (ol_towner t) (ol_chars t) (ol_length t) (ol_prec t) (ol_scale t);
    let identity := String.eqb (ol_ident t) "YES" in
    Ok (Col (ol_name t) ty (negb (String.eqb (ol_null t) "N")) (if identity then None else ol_default t) identity comment).
  (** 164-178 *)
  Definition q_ocons (q : qid) : list (Z * crow) :=
    from t of dba_constraints V;
    from tc of dba_cons_columns V; where_ String.eqb (on_owner t) (ok_owner tc) && String.eqb (on_name t) (ok_name tc);
    from r of left_join (fun r => match on_ref t with Some (o, n) => String.eqb o (on_owner r) && String.eqb n (on_name r) | None => false end) (dba_constraints V);
    from rc of left_join (fun rc => match r with Some r => String.eqb (on_owner r) (ok_owner rc) && String.eqb (on_name r) (ok_name rc) | None => false end) (dba_cons_columns V);
    where_ named q (on_table t);
    [(ok_pos tc, CRow (on_name t) (on_type t) (ok_col tc) (option_map on_table r) (option_map ok_col rc))].
  Definition cons_rows (q : qid) : list crow := map snd (sort_by by_pos (order ("constraints " ++ local_id q)%string (q_ocons q))).
  (** 180-194: rows are sorted out by the type of the constraint *)
  Definition of_type (ty : string) (rows : list crow) : list crow := filter (fun r => String.eqb (cr_type r) ty) rows.
  (** [split_composite_id], 81-86; NULL does not occur *)
  Definition to_frow (r : crow) : frow :=
    FRow (cr_name r) (cr_source r) (let '(n, i) := split_composite_id (match cr_table r with Some t => t | None => "" end) in Prefixed n i) (match cr_target r with Some c => c | None => "" end).
  (** [get_table], 99-206 *)
  Definition or_table (q : qid) : res table :=
    do cs <- map_res read_ocol (map snd (sort_by by_pos (order ("columns " ++ local_id q)%string (q_ocols q))));
    let rows := cons_rows q in
    do fks <- ff_run (map to_frow (of_type "R" rows));
    Ok (Tab q (od_make c_name cs) (map cr_source (of_type "P" rows))
            (od_make Objects.k_name (uf_run (map (fun r => (cr_name r, cr_source r)) (of_type "U" rows)) ++ fks))
            (match order ("comments " ++ local_id q)%string (q_comments q) with c :: _ => c | [] => None end) None).
  (** [_get_namespace], 214-237; [names]: the answer to the query for the names of tables; see Flat.v *)
  Definition or_namespace (names : list string) : res namespace :=
    match names with
    | [] => Ok (Ns "" [] [] [])
    | _ => do ts <- map_res or_table (oracle_ids names); Ok (Ns "" [] [] (od_make t_key ts))
    end.
  (** the tables that the query for names looks at, without the conditions on names (222-227) *)
  Definition candidates : list string := map ot_name (filter listed_table (dba_tables V)).
End Oracle.
