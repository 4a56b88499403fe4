(** Specification: objects that MySQL or SQL Server and its explorer can show as they were declared. *)
From Verif Require Import PyStr QuoteModel Types Objects SqlAst Ddl DbSpec CatSpec.
From Verif Require Import PropsDiscover.
From Coq Require Import List String.

Section Seen.
  (** how the server shows the default of a column *)
  Variable deparse : sqltype -> string -> string.
  Variable d : dialect.
  (** the default is shown as it was written *)
  Definition default_kept (c : column) : Prop := forall e, c_default c = Some e -> deparse (c_type c) (default_expr d (c_type c) e) = e.
  (** a comment of one line; the server has no comment that is empty *)
  Definition one_line (desc : option string) : Prop := forall s, desc = Some s -> s <> ""%string /\ first_line s = s.

  (** ** MySQL *)
  Record my_col_seen (c : column) : Prop := { mc_type : mysql_faithful (c_type c); mc_default : default_kept c; mc_desc : one_line (c_desc c) }.
  (** the name of the table can be split into its two parts again *)
  Definition splits (q : qid) : Prop := exists n i, q = Prefixed n i /\ split_composite_id (local_id q) = (n, i).
  Definition my_constr_seen (k : constr) : Prop :=
    match k with
    | CUnique _ cs => cs <> nil
    | CForeign _ cs rt rc => cs <> nil /\ List.length cs = List.length rc /\ splits rt
    | _ => False
    end.
  Record my_tab_seen (t : table) : Prop := {
    mt_enum : t_enum t = None;
    mt_name : has_char BS (local_id (t_name t)) = false;
    mt_cols : forall c, In c (t_columns t) -> my_col_seen c;
    mt_cons : forall k, In k (t_constraints t) -> my_constr_seen k;
    mt_desc : one_line (t_desc t) }.

  (** ** SQL Server: comments are not stored *)
  Record ms_col_seen (c : column) : Prop := { sn_type : mssql_faithful (c_type c); sn_default : forall e, c_default c = Some e -> deparse (c_type c) e = e; sn_desc : c_desc c = None }.
  Definition ms_constr_seen (k : constr) : Prop :=
    match k with
    | CUnique _ cs => cs <> nil
    | CForeign _ cs rt rc => cs <> nil /\ List.length cs = List.length rc /\ exists s n, rt = Qualified (Some s) n
    | _ => False
    end.
  Record ms_tab_seen (t : table) : Prop := {
    st_enum : t_enum t = None;
    st_cols : forall c, In c (t_columns t) -> ms_col_seen c;
    st_cons : forall k, In k (t_constraints t) -> ms_constr_seen k;
    st_desc : t_desc t = None }.
  (** SQL Server: a namespace is a schema with tables *)
  Record ms_ns_seen (n : namespace) : Prop := {
    ms_name : n_name n <> ""%string;
    ms_types : n_enums n = nil /\ n_structs n = nil;
    ms_some : n_tables n <> nil;
    ms_ids : forall t, In t (n_tables n) -> t_name t = Qualified (Some (n_name n)) (local_id (t_name t));
    ms_tables : forall t, In t (n_tables n) -> ms_tab_seen t }.
End Seen.
