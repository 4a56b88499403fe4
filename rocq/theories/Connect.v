(** Model of how connection parameters are handed to drivers: pysqlsync/dialect/mssql/connection.py:34-52 (a connection string of the ODBC driver) and
    pysqlsync/dialect/oracle/connection.py:39-47 (a connect descriptor); the other dialects pass keyword arguments.  The mode of encryption is in Tls.v, the parameters are those of Url.v. *)
From Verif Require Import PyStr Tls Url.
Open Scope string_scope.
Open Scope list_scope.

(** [f"{value}"] of an optional text *)
Definition formatted (o : option string) : string := match o with Some s => s | None => "None" end.
(** mssql/connection.py:34-48: the entries of the dictionary *)
Definition mssql_entries (p : params) : list (string * option string) :=
  [ ("DRIVER", Some "{ODBC Driver 18 for SQL Server}"); ("APP", Some "pysqlsync");
    ("SERVER", match p_port p with Some n => Some (formatted (p_host p) ++ "," ++ n_to_str n)%string | None => p_host p end);
    ("UID", p_user p); ("PWD", p_password p); ("LongAsMax", Some "yes"); ("TrustServerCertificate", Some "yes") ]
  ++ match p_database p with Some d => [("DATABASE", Some d)] | None => [] end.
(** 49-51 *)
Definition mssql_string (p : params) : string :=
  join_str ";" (flat_map (fun e => match snd e with Some v => [(fst e ++ "=" ++ v)%string] | None => [] end) (mssql_entries p)).

(** [value or default] of a text and of a number *)
Definition or_text (o : option string) (d : string) : string := match o with None | Some "" => d | Some s => s end.
Definition or_number (o : option N) (d : N) : N := match o with None | Some 0%N => d | Some n => n end.
(** oracle/connection.py:39-47: user, password, connect descriptor *)
Definition oracle_arguments (p : params) : option string * option string * string :=
  (p_user p, p_password p, (or_text (p_host p) "localhost" ++ ":" ++ n_to_str (or_number (p_port p) 1521) ++ "/" ++ or_text (p_database p) "FREEPDB1")%string).
