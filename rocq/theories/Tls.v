(** Model of connection opening: pysqlsync/connection.py:24-87 ([ConnectionSSLMode], [create_context]),
    pysqlsync/dialect/postgresql/connection.py:26-62, pysqlsync/dialect/mysql/connection.py:31-74,
    pysqlsync/dialect/mssql/connection.py:30-60, pysqlsync/dialect/oracle/connection.py:31-54.

    Not modelled: user names, ports, time-outs, what happens after the connection is established. *)
From Verif Require Import PyStr.
Open Scope string_scope.

(** connection.py:24-46 *)
Inductive ssl_mode : Type := Disable | Prefer | Allow | Require | VerifyCA | VerifyFull.

(** The two settings of Python's [ssl.SSLContext] that matter, with the behaviour of their setters (Python's ssl
    module): switching host name checks on makes a certificate mandatory; a certificate cannot be made optional while
    host names are checked. *)
Inductive verify : Type := CertNone | CertRequired.
Record ssl_context : Type := Ctx { check_hostname : bool; verify_mode : verify }.
(** [ssl.create_default_context(SERVER_AUTH)] and [SSLContext(PROTOCOL_TLS_CLIENT)] *)
Definition default_context : ssl_context := Ctx true CertRequired.
Definition set_check_hostname (b : bool) (c : ssl_context) : res ssl_context :=
  Ok (Ctx b (if b then match verify_mode c with CertNone => CertRequired | v => v end else verify_mode c)).
Definition set_verify_mode (v : verify) (c : ssl_context) : res ssl_context :=
  match v, check_hostname c with
  | CertNone, true => Err "ValueError"
  | _, _ => Ok (Ctx (check_hostname c) v)
  end.

(** create_context, connection.py:49-87 *)
Definition create_context (m : option ssl_mode) : res (option ssl_context) :=
  match m with
  | None | Some Disable => Ok None
  | Some Prefer | Some Allow | Some Require =>
      do c <- set_check_hostname false default_context; do c' <- set_verify_mode CertNone c; Ok (Some c')
  | Some VerifyCA =>
      do c <- set_check_hostname false default_context; do c' <- set_verify_mode CertRequired c; Ok (Some c')
  | Some VerifyFull =>
      do c <- set_check_hostname true default_context; do c' <- set_verify_mode CertRequired c; Ok (Some c')
  end.

(** ** Attempts *)
Inductive transport : Type := Plain | Tls (c : ssl_context).
(** how an attempt ends: established; the error class that [open] catches ([ConnectionError], or
    [pymysql.err.OperationalError]); any other exception *)
Inductive outcome : Type := Established | Caught | Other.
Definition attempt : Type := transport * outcome.
(** the environment decides the outcome of the n-th attempt *)
Definition environment : Type := nat -> transport -> outcome.

(** A driver tries one or more transports for an [ssl] argument, until one is established. *)
Definition driver : Type := option ssl_context -> list transport.
(** aiomysql: no context, no TLS *)
Definition plain_driver : driver := fun a => match a with None => [Plain] | Some c => [Tls c] end.
(** asyncpg: no context means its own default mode "prefer" (unverified TLS, then plaintext) *)
Definition prefer_driver : driver := fun a => match a with None => [Tls (Ctx false CertNone); Plain] | Some c => [Tls c] end.

(** one call of the driver's [connect]: the attempts made so far are extended *)
Fixpoint try_all (env : environment) (l : list transport) (sofar : list attempt) : list attempt * outcome :=
  match l with
  | [] => (sofar, Other)
  | t :: r => let o := env (List.length sofar) t in
              match o, r with
              | Established, _ => ((sofar ++ [(t, o)])%list, Established)
              | _, [] => ((sofar ++ [(t, o)])%list, o)
              | _, _ => try_all env r (sofar ++ [(t, o)])%list
              end
  end.
(** [_open] of PostgreSQL (50-62) and MySQL (56-74), for the context of a mode *)
Definition open_with (D : driver) (env : environment) (m : option (option ssl_mode)) (sofar : list attempt) : list attempt * outcome :=
  match match m with None => Ok None | Some m' => create_context m' end with
  | Ok c => try_all env (D c) sofar
  | Err _ => (sofar, Other)
  end.
(** [open] of PostgreSQL (26-48) and MySQL (31-54), which are the same up to the exception class *)
Definition open_connection (D : driver) (env : environment) (m : option ssl_mode) : list attempt * outcome :=
  match m with
  | None | Some Disable => open_with D env None []
  | Some Prefer =>
      match open_with D env (Some m) [] with
      | (l, Caught) => open_with D env None l
      | r => r
      end
  | Some Allow =>
      match open_with D env None [] with
      | (l, Caught) => open_with D env (Some m) l
      | r => r
      end
  | Some Require | Some VerifyCA | Some VerifyFull => open_with D env (Some m) []
  end.

(** SQL Server: the mode of the parameters is not read; the connection string says TrustServerCertificate=yes, ODBC
    driver 18 encrypts (mssql/connection.py:30-60) *)
Definition open_mssql (env : environment) (m : option ssl_mode) : list attempt * outcome := try_all env [Tls (Ctx false CertNone)] [].
(** Oracle: the mode is not read; the DSN is host:port/service, protocol TCP (oracle/connection.py:31-54) *)
Definition open_oracle (env : environment) (m : option ssl_mode) : list attempt * outcome := try_all env [Plain] [].
