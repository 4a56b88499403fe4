(** Model of data exchange in tab-separated values: pysqlsync/data/exchange.py. *)
From Verif Require Import PyStr.
Open Scope list_scope.

(** The package [tsv] is outside of the repository.  What is assumed of it: a value is written as a text without tab
    and newline characters, a text is read with the type of the column, lines are fields separated by tabs.  [codec]
    holds the two functions; the laws are in ExchangeSpec.v. *)
Record codec (T V : Type) : Type := Codec { c_write : V -> string; c_read : T -> string -> res V }.
Arguments c_write {T V}. Arguments c_read {T V}.

(** [line.split(b"\t")]; never empty *)
Fixpoint split_on (c : ascii) (s : string) : list string :=
  match s with
  | EmptyString => [EmptyString]
  | String x r => if Ascii.eqb x c then EmptyString :: split_on c r
                  else match split_on c r with [] => [String x EmptyString] | f :: fs => String x f :: fs end
  end.
(** [stream.readline().rstrip(b"\n")], and the rest of the stream: at the end of the stream the line is empty *)
Fixpoint read_line (s : string) : string * string :=
  match s with
  | EmptyString => (EmptyString, EmptyString)
  | String x r => if Ascii.eqb x LF then (EmptyString, r) else let '(l, t) := read_line r in (String x l, t)
  end.

Section Exchange.
  Context {T V : Type} (C : codec T V).

  (** an entity: the attribute of each field; [getattr] raises AttributeError *)
  Definition entity : Type := string -> option V.
  (** [field_mapping]: field name and column name, in the order of the dictionary *)
  Definition mapping : Type := list (string * string).

  (** [TextWriter.__init__], 42-69: the header *)
  Definition header (m : mapping) : string := (join_str (str1 TAB) (map snd m) ++ NL)%string.
  (** [write_objects], 71-79, with [Generator.generate_line] *)
  Fixpoint extract (m : mapping) (e : entity) : res (list V) :=
    match m with
    | [] => Ok []
    | (f, _) :: r => match e f with Some v => do vs <- extract r e; Ok (v :: vs) | None => Err "AttributeError" end
    end.
  Definition generate_line (vs : list V) : string := join_str (str1 TAB) (map (c_write C) vs).
  Fixpoint write_objects (m : mapping) (es : list entity) : res string :=
    match es with
    | [] => Ok EmptyString
    | e :: r => do vs <- extract m e; do t <- write_objects m r; Ok (generate_line vs ++ NL ++ t)%string
    end.
  (** the file after a history of calls of [write_objects] *)
  Fixpoint write_calls (m : mapping) (calls : list (list entity)) : res string :=
    match calls with
    | [] => Ok EmptyString
    | es :: r => do a <- write_objects m es; do b <- write_calls m r; Ok (a ++ b)%string
    end.
  Definition write_file (m : mapping) (calls : list (list entity)) : res string :=
    do body <- write_calls m calls; Ok (header m ++ body)%string.

  (** [names_to_types] is a dictionary *)
  Fixpoint type_of (n : string) (types : list (string * T)) : option T :=
    match types with [] => None | (k, t) :: r => if String.eqb k n then Some t else type_of n r end.
  (** [fields_to_types], 82-105: the columns of the fields of a class, given the mapping; [field_mapping[field.name]]
      raises KeyError *)
  Fixpoint lookup (n : string) (m : mapping) : option string :=
    match m with [] => None | (k, c) :: r => if String.eqb k n then Some c else lookup n r end.
  Fixpoint fields_to_types (fields : list (string * T)) (m : mapping) : res (list (string * T)) :=
    match fields with
    | [] => Ok []
    | (f, t) :: r => match lookup f m with Some c => do ts <- fields_to_types r m; Ok ((c, t) :: ts) | None => Err "KeyError" end
    end.

  (** [AutoDetectParser(names_to_types, header)] and [self.field_types], 118-131: an unknown column raises KeyError *)
  Fixpoint column_types (types : list (string * T)) (columns : list string) : res (list T) :=
    match columns with
    | [] => Ok []
    | c :: r => match type_of c types with Some t => do ts <- column_types types r; Ok (t :: ts) | None => Err "KeyError" end
    end.
  (** [parse_line] *)
  Fixpoint parse_fields (ts : list T) (fs : list string) : res (list V) :=
    match ts, fs with
    | [], [] => Ok []
    | t :: ts', f :: fs' => do v <- c_read C t f; do vs <- parse_fields ts' fs'; Ok (v :: vs)
    | _, _ => Err "ValueError"
    end.
  Definition parse_line (ts : list T) (line : string) : res (list V) := parse_fields ts (split_on TAB line).
  (** [read_records], 137-146, and [records], 148-156, which yields the same records one by one; the asynchronous reader
      (163-208) does the same.  The number of lines is at most the length of the stream, used as fuel. *)
  Fixpoint read_records (fuel : nat) (ts : list T) (stream : string) : res (list (list V)) :=
    match fuel with
    | 0 => Ok []
    | S n =>
        let '(line, rest) := read_line stream in
        if String.eqb line EmptyString then Ok []
        else do v <- parse_line ts line; do vs <- read_records n ts rest; Ok (v :: vs)
    end.
  Definition read_file (types : list (string * T)) (stream : string) : res (list string * list (list V)) :=
    let '(h, rest) := read_line stream in
    let columns := split_on TAB h in
    do ts <- column_types types columns;
    do rows <- read_records (String.length rest) ts rest;
    Ok (columns, rows).
End Exchange.
Arguments entity : clear implicits.
