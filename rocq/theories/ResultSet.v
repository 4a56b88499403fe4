(** Model of result set conversion: pysqlsync/resultset.py and the callers in dialect/*/connection.py. *)
From Verif Require Import PyStr.
Open Scope list_scope.

Section ResultSet.
  Context {V : Type}.

  (** A data-class: its fields in order, with the default value if there is one.  Not modelled: fields with
      [init=False] or [kw_only], and default factories (a default is one value). *)
  Definition cls : Type := list (string * option V).
  (** an instance: the value of each field *)
  Definition obj : Type := list (string * V).
  Fixpoint get (n : string) (o : list (string * V)) : option V :=
    match o with [] => None | (k, v) :: r => if String.eqb k n then Some v else get n r end.

  (** [signature( **kwargs )], the generated [__init__]: unknown keywords and missing arguments raise TypeError *)
  Fixpoint bind_fields (fs : cls) (kw : list (string * V)) : res obj :=
    match fs with
    | [] => Ok []
    | (n, d) :: r =>
        match (match get n kw with Some v => Some v | None => d end) with
        | Some v => do o <- bind_fields r kw; Ok ((n, v) :: o)
        | None => Err "TypeError"
        end
    end.
  Definition known (fs : cls) (kw : list (string * V)) : bool :=
    forallb (fun a => existsb (fun f => String.eqb (fst f) (fst a)) fs) kw.
  Definition construct (fs : cls) (kw : list (string * V)) : res obj :=
    if known fs kw then bind_fields fs kw else Err "TypeError".
  (** [signature( *args )], arguments by position *)
  Fixpoint construct_pos (fs : cls) (args : list V) : res obj :=
    match fs, args with
    | [], [] => Ok []
    | [], _ :: _ => Err "TypeError"
    | (n, _) :: r, v :: a => do o <- construct_pos r a; Ok ((n, v) :: o)
    | (n, Some v) :: r, [] => do o <- construct_pos r []; Ok ((n, v) :: o)
    | (_, None) :: _, [] => Err "TypeError"
    end.

  Fixpoint each {A B} (f : A -> res B) (l : list A) : res (list B) :=
    match l with [] => Ok [] | a :: r => do b <- f a; do bs <- each f r; Ok (b :: bs) end.

  (** [resultset_unwrap_dict], 20-38: a record is a dictionary *)
  Definition unwrap_dict (fs : cls) (records : list (list (string * V))) : res (list obj) := each (construct fs) records.

  (** [resultset_unwrap_object], 41-60: a record has attributes; a missing attribute raises AttributeError *)
  Fixpoint attributes (names : list string) (record : list (string * V)) : res (list (string * V)) :=
    match names with
    | [] => Ok []
    | n :: r => match get n record with Some v => do o <- attributes r record; Ok ((n, v) :: o) | None => Err "AttributeError" end
    end.
  Definition unwrap_object (fs : cls) (records : list (list (string * V))) : res (list obj) :=
    each (fun r => do kw <- attributes (map fst fs) r; construct fs kw) records.

  (** [resultset_unwrap_tuple], 63-125.  A signature is one of the four scalar types, a tuple type with a number of
      type arguments ([tuple[int, ...]] counts as two), a data-class, or anything else.  The result is a scalar or a
      tuple; a record that is a list is turned into a tuple, so that both kinds of records are the same here. *)
  Inductive signature : Type := SScalar | STuple (args : nat) | SClass (fs : cls) | SOther.
  Inductive item : Type := IScalar (v : V) | ITuple (vs : list V) | IObject (o : obj).

  Definition first (r : list V) : res item := match r with v :: _ => Ok (IScalar v) | [] => Err "IndexError" end.
  Definition unwrap_tuple (sg : signature) (records : list (list V)) : res (list item) :=
    match sg with
    | SScalar =>
        match records with
        | [] => Ok []
        | r :: rest => if Nat.eqb (length r) 1 then do i <- first r; do is_ <- each first rest; Ok (i :: is_) else Err "ValueError"
        end
    | STuple n =>
        match records with
        | [] => Ok []
        | r :: rest => if Nat.eqb (length r) n then Ok (ITuple r :: map ITuple rest) else Err "ValueError"
        end
    | _ => Err "TypeError"
    end.

  (** A result set, as the server sends it. *)
  Record resultset : Type := RS { rs_columns : list string; rs_rows : list (list V) }.
  Definition named_rows (rs : resultset) : list (list (string * V)) := map (combine (rs_columns rs)) (rs_rows rs).

  (** [_query_all]: postgresql/connection.py:97-102, mysql/connection.py:102-112, mssql/connection.py:125-132,
      redshift/connection.py:95-102, oracle/connection.py:127-138, trino/connection.py:55-62.  The drivers are assumed
      to present a row as a mapping (asyncpg, aiomysql), an object with attributes (pyodbc, redshift) or a sequence. *)
  Inductive driver : Type := DMapping | DObject | DPositional | DNone.
  Definition query_all (d : driver) (sg : signature) (rs : resultset) : res (list item) :=
    match sg with
    | SClass fs =>
        match d with
        | DMapping => do os <- unwrap_dict fs (named_rows rs); Ok (map IObject os)
        | DObject => do os <- unwrap_object fs (named_rows rs); Ok (map IObject os)
        | DPositional => do os <- each (construct_pos fs) (rs_rows rs); Ok (map IObject os)
        | DNone => Err "NotImplementedError"
        end
    | _ => unwrap_tuple sg (rs_rows rs)
    end.
  (** [query_one], base.py:914-918: [rows[0]] *)
  Definition query_one (d : driver) (sg : signature) (rs : resultset) : res item :=
    do items <- query_all d sg rs; match items with i :: _ => Ok i | [] => Err "IndexError" end.
End ResultSet.
Arguments signature : clear implicits. Arguments item : clear implicits. Arguments resultset : clear implicits. Arguments cls : clear implicits. Arguments obj : clear implicits.
