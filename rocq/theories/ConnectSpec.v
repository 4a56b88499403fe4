(** Specification: how the ODBC driver for SQL Server reads a connection string ([MS-ODBCSTR]), and how Oracle reads host:port/service (Easy
    Connect).  Keywords of ODBC are compared without regard to case; those here are written in one way.  Spaces at the ends of a value may or
    may not be dropped: the claims are about values without such. *)
From Verif Require Import PyStr.
Open Scope string_scope.

(** the text before the first [c], and what follows it *)
Fixpoint upto (c : ascii) (s : string) : string * option string :=
  match s with
  | "" => ("", None)
  | String x r => if Ascii.eqb x c then ("", Some r) else let (a, b) := upto c r in (String x a, b)
  end.
(** a value in braces, after the opening brace: a closing brace in it is doubled *)
Fixpoint braced (s : string) : option (string * string) :=
  match s with
  | "" => None
  | String "}" (String "}" r) => match braced r with Some (v, t) => Some (String "}" v, t) | None => None end
  | String "}" r => Some ("", r)
  | String c r => match braced r with Some (v, t) => Some (String c v, t) | None => None end
  end.
(** keyword=value; ... *)
Fixpoint pairs (fuel : nat) (s : string) : option (list (string * string)) :=
  match fuel, s with
  | _, "" => Some []
  | O, _ => None
  | S n, _ =>
      match upto "=" s with
      | (_, None) => None
      | (k, Some (String "{" r)) =>
          match braced r with
          | Some (v, "") => Some [(k, v)]
          | Some (v, String ";" t) => match pairs n t with Some l => Some ((k, v) :: l) | None => None end
          | _ => None
          end
      | (k, Some r) =>
          match upto ";" r with
          | (v, None) => Some [(k, v)]
          | (v, Some t) => match pairs n t with Some l => Some ((k, v) :: l) | None => None end
          end
      end
  end.
(** what the driver takes for a keyword: the first value given *)
Definition attribute (k s : string) : option string :=
  match pairs (String.length s) s with
  | Some l => match find (fun e => String.eqb (fst e) k) l with Some e => Some (snd e) | None => None end
  | None => None
  end.
(** SERVER: host, or host,port *)
Definition server (s : string) : string * option (option N) :=
  match upto "," s with (h, None) => (h, None) | (h, Some p) => (h, Some (str_to_n p)) end.
(** a value that stands for itself *)
Definition plain (s : string) : Prop := has_char ";" s = false /\ match s with String c r => c <> "{"%char /\ c <> " "%char | "" => True end /\ forall a, s <> a ++ " ".
Definition plain_opt (o : option string) : Prop := forall s, o = Some s -> plain s.

(** Easy Connect: host:port/service *)
Definition easy (s : string) : option (string * N * string) :=
  match upto ":" s with
  | (h, Some r) => match upto "/" r with
                   | (p, Some service) => if String.eqb p "" then None else match str_to_n p with Some n => Some (h, n, service) | None => None end
                   | _ => None
                   end
  | _ => None
  end.
