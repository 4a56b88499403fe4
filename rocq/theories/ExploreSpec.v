(** Specification: objects that PostgreSQL and its explorer can show as they were declared. *)
From Verif Require Import PyStr QuoteModel Types Objects SqlAst Ddl DbSpec CatSpec PgExplore.
From Verif Require Import PropsDiscover.
From Coq Require Import List String.

Section Seen.
  (** how pg_get_expr shows the default of a column *)
  Variable deparse : sqltype -> string -> string.
  (** The server shows the default as it was written, or as a timestamp literal that means the same. *)
  Definition default_seen (c : column) : Prop :=
    forall e, c_default c = Some e -> to_default_expr (Some (deparse (c_type c) e)) = Ok (Some e).
  Record col_seen (c : column) : Prop := {
    cs_type : pg_faithful (c_type c); cs_default : default_seen c; cs_desc : c_desc c <> Some ""%string }.
  Definition constr_seen (k : constr) : Prop :=
    match k with
    | CUnique _ cs => cs <> nil
    | CForeign _ cs rt rc => cs <> nil /\ List.length cs = List.length rc /\ exists s n, rt = Qualified (Some s) n
    | _ => False
    end.
  Record tab_seen (t : table) : Prop := {
    ts_enum : t_enum t = None;
    ts_cols : forall c, In c (t_columns t) -> col_seen c;
    ts_cons : forall k, In k (t_constraints t) -> constr_seen k;
    ts_desc : t_desc t <> Some ""%string }.
  Record struct_seen (x : structt) : Prop := {
    ss_members : forall m, In m (s_members x) -> pg_faithful (m_type m) /\ (forall u, m_type m <> TArray u) /\ m_desc m = None;
    ss_desc : s_desc x <> Some ""%string }.
  (** Objects are in a schema; an enumeration without values has no rows. *)
  Record ns_seen (n : namespace) : Prop := {
    sn_name : n_name n <> ""%string;
    sn_some : (n_enums n, n_structs n, n_tables n) <> (nil, nil, nil);
    sn_ids : forall q, In q (ns_names n) -> q = Qualified (Some (n_name n)) (local_id q);
    sn_enum : forall e, In e (n_enums n) -> e_values e <> nil;
    sn_struct : forall x, In x (n_structs n) -> struct_seen x;
    sn_table : forall x, In x (n_tables n) -> tab_seen x }.
End Seen.

(** ** Points in time, as PostgreSQL shows a constant of type timestamp without fraction *)
Definition digit (n : N) : string := String (Ascii.ascii_of_N (48 + n mod 10)) "".
Definition two (n : N) : string := (digit (n / 10) ++ digit n)%string.
Definition four (n : N) : string := (two (n / 100) ++ two (n mod 100))%string.
Definition stamp (y m d h mi s : N) : string :=
  (four y ++ "-" ++ two m ++ "-" ++ two d ++ " " ++ two h ++ ":" ++ two mi ++ ":" ++ two s)%string.
(** lengths of the months of a common year *)
Definition month_lengths : list N := (31 :: 28 :: 31 :: 30 :: 31 :: 30 :: 31 :: 31 :: 30 :: 31 :: 30 :: 31 :: nil)%N.
Definition leap_year (y : N) : Prop := ((y mod 4 = 0 /\ y mod 100 <> 0) \/ y mod 400 = 0)%N.
Definition in_calendar (y m d : N) : Prop :=
  (1 <= y <= 9999 /\ 1 <= m <= 12 /\ 1 <= d)%N /\
  ((d <= nth (N.to_nat (m - 1)) month_lengths 0)%N \/ (m = 2 /\ d = 29 /\ leap_year y)%N).
Definition in_day (h mi s : N) : Prop := (h < 24 /\ mi < 60 /\ s < 60)%N.
