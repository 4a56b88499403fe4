(** What a server keeps of a value in a column, by the spelling of its type.  Written from the manuals (MySQL 8.0,
    PostgreSQL, SQL Server, Oracle 19c) and independent of the library; [None]: the server has no such type. *)
From Verif Require Import PyStr QuoteSpec Capacity Convert.
From Coq Require Import ZArith.
Open Scope Z_scope.
Open Scope string_scope.

(** ** Values of Python types *)
Inductive pvalue : Type :=
| VBool (b : bool)
| VFloat (m e : Z)      (* m * 2^e, finite *)
| VDecimal (m k : Z)    (* m / 10^k *)
| VDatetime (us : Z)    (* microseconds from the beginning of year 1 *)
| VDate (day : Z)       (* days from the first day of year 1 *)
| VTime (us : Z)        (* microseconds from midnight *)
| VDelta (us : Z)
| VBytes (n : Z)        (* n bytes: an UUID, an address *)
| VDoc (n : Z).         (* a JSON text of n bytes *)
Definition day_us : Z := 86400 * 10 ^ 6.
(** 1000-01-01 (MySQL promises no earlier date) and 9999-12-31 *)
Definition first_day : Z := 364877.
Definition last_day : Z := 3652058.
(** Decimals: the 28 digits of Python's default context, and as many places as PostgreSQL has.  JSON: up to 255 MB. *)
Definition value_of (t : pytype) (v : pvalue) : Prop :=
  match t, v with
  | YBool, VBool _ => True
  | YFloat, VFloat m e => Z.abs m < 2 ^ 53 /\ -1074 <= e <= 971
  | YDecimal, VDecimal m k => Z.abs m < 10 ^ 28 /\ 0 <= k <= 16383
  | YDatetime, VDatetime us => first_day * day_us <= us < (last_day + 1) * day_us
  | YDate, VDate n => first_day <= n <= last_day
  | YTime, VTime us => 0 <= us < day_us
  | YTimedelta, VDelta us => Z.abs us < 10 ^ 9 * day_us
  | YUuid, VBytes n | YIPv6, VBytes n => n = 16
  | YIPv4, VBytes n => n = 4
  | YJson, VDoc n => 0 <= n <= 2 ^ 28 - 1
  | _, _ => False
  end.

(** ** Columns *)
Inductive kind : Type :=
| Truth                          (* truth values *)
| Whole (lo hi : Z)              (* integers *)
| Binary (bits emin emax : Z)    (* binary floating-point numbers *)
| Number (bits : Z)              (* Oracle: decimal floating-point numbers as precise as [bits] binary digits *)
| Digits (p s : Z)               (* decimals of [p] digits, [s] of them after the point *)
| Exact (places : Z)             (* decimals with up to [places] places *)
| Days (lo hi : Z)
| Instant (digits : Z)           (* date and time with [digits] digits of fractional seconds *)
| Clock (digits : Z)             (* time of day *)
| Span (days digits : Z)         (* durations of up to [days] days *)
| Fixed (n : Z)                  (* exactly [n] bytes *)
| UpTo (n : Z)                   (* up to [n] bytes *)
| Address                        (* IPv4 and IPv6 addresses *)
| Doc (n : Z).                   (* JSON or text of up to [n] bytes *)
(** a number of microseconds that [digits] digits of fractional seconds can express *)
Definition micros (digits us : Z) : Prop := 6 <= digits \/ (10 ^ (6 - digits) | us).
Definition kept (k : kind) (v : pvalue) : Prop :=
  match k, v with
  | Truth, VBool _ => True
  | Whole lo hi, VBool _ => lo <= 0 /\ 1 <= hi
  | Binary b lo hi, VFloat m e => Z.abs m < 2 ^ b /\ lo <= e <= hi
  | Number b, VFloat m e =>
      m = 0 \/ (Z.abs m < 2 ^ b /\ 2 ^ Z.max 0 (- e) <= Z.abs m * 2 ^ Z.max 0 e * 10 ^ 130 /\ Z.abs m * 2 ^ Z.max 0 e < 10 ^ 126 * 2 ^ Z.max 0 (- e))
  | Digits p s, VDecimal m k => exists x, x * 10 ^ k = m * 10 ^ s /\ Z.abs x < 10 ^ p
  | Exact places, VDecimal m k => k <= places /\ Z.abs m < 10 ^ 131072
  | Days lo hi, VDate n => lo <= n <= hi
  | Instant d, VDatetime us => micros d us
  | Clock d, VTime us => micros d us
  | Span days d, VDelta us | Span days d, VTime us => micros d us /\ Z.abs us < days * day_us
  | Fixed n, VBytes m => m = n
  | UpTo n, VBytes m => m <= n
  | Address, VBytes m => m = 4 \/ m = 16
  | Doc n, VDoc m => m <= n
  | _, _ => False
  end.

(** [name], [name(n)], [name(n, m)], followed by more words *)
Fixpoint strip (p s : string) : option string :=
  match p, s with
  | "", _ => Some s
  | String a p', String b s' => if Ascii.eqb a b then strip p' s' else None
  | _, "" => None
  end.
Definition spelled (s : string) : option (string * list Z * string) :=
  let (name, r) := upto_paren s in
  match r with
  | "" => Some (name, [], "")
  | "(max)" => Some (name ++ "(max)", [], "")
  | String _ r' =>
      match scan_nat r' with
      | Some (n, q) =>
          match strip ")" q with
          | Some tail => Some (name, [Z.of_N n], tail)
          | None => match strip ", " q with
                    | Some q' => match scan_nat q' with
                                 | Some (m, q'') => match strip ")" q'' with Some tail => Some (name, [Z.of_N n; Z.of_N m], tail) | None => None end
                                 | None => None end
                    | None => None end
          end
      | None => None end
  end.
Definition dflt (n : Z) (args : list Z) : option Z := match args with [] => Some n | [m] => Some m | _ => None end.
Definition limited (lo hi : Z) (n : option Z) (f : Z -> kind) : option kind :=
  match n with Some z => if ((lo <=? z)%Z && (z <=? hi)%Z)%bool then Some (f z) else None | None => None end.
(** DECIMAL, DECIMAL(p) (no places) and DECIMAL(p, s) *)
Definition decimals (maxp maxs : Z) (default : kind) (args : list Z) : option kind :=
  match args with
  | [] => Some default
  | [p] => if ((1 <=? p)%Z && (p <=? maxp)%Z)%bool then Some (Digits p 0) else None
  | [p; s] => if ((1 <=? p)%Z && (p <=? maxp)%Z && (s <=? maxs)%Z && (s <=? p)%Z)%bool then Some (Digits p s) else None
  | _ => None
  end.
Definition single : kind := Binary 24 (-149) 104.
Definition double : kind := Binary 53 (-1074) 971.
Definition floats (n : Z) : kind := if (n <=? 24)%Z then single else double.
Definition storage (e : engine) (s : string) : option kind :=
  match spelled s with
  | None => None
  | Some (name, args, "") =>
      match e with
      | PostgreSQL =>
          if name =? "boolean" then match args with [] => Some Truth | _ => None end
          else if name =? "real" then Some single
          else if name =? "double precision" then Some double
          else if name =? "float" then limited 1 53 (dflt 53 args) floats
          else if name =? "decimal" then decimals 1000 1000 (Exact 16383) args
          else if name =? "timestamp" then limited 0 6 (dflt 6 args) Instant
          else if name =? "date" then Some (Days (-1721425) 2147483493)
          else if name =? "time" then limited 0 6 (dflt 6 args) Clock
          else if name =? "interval" then limited 0 6 (dflt 6 args) (Span (178000000 * 365))
          else if name =? "uuid" then Some (Fixed 16)
          else if name =? "inet" then Some Address
          else if (name =? "json") || (name =? "jsonb") then Some (Doc (2 ^ 28 - 1))
          else None
      | MySQL =>
          if name =? "tinyint" then Some (Whole (- 2 ^ 7) (2 ^ 7 - 1))
          else if (name =? "real") || (name =? "double") || (name =? "double precision") then Some double
          else if name =? "float" then limited 0 53 (dflt 0 args) floats
          else if name =? "decimal" then decimals 65 30 (Digits 10 0) args
          else if name =? "datetime" then limited 0 6 (dflt 0 args) Instant
          else if name =? "date" then Some (Days first_day last_day)
          else if name =? "time" then limited 0 6 (dflt 0 args) Clock
          else if name =? "binary" then limited 0 255 (dflt 1 args) Fixed
          else if name =? "json" then Some (Doc (2 ^ 30))
          else None
      | SQLServer =>
          if name =? "bit" then Some Truth
          else if name =? "real" then Some single
          else if name =? "double precision" then Some double
          else if name =? "float" then limited 1 53 (dflt 53 args) floats
          else if name =? "decimal" then decimals 38 38 (Digits 18 0) args
          else if name =? "datetime2" then limited 0 7 (dflt 7 args) Instant
          else if name =? "date" then Some (Days 0 last_day)
          else if name =? "time" then limited 0 7 (dflt 7 args) Clock
          else if name =? "binary" then limited 1 8000 (dflt 1 args) Fixed
          else if name =? "varchar(max)" then Some (Doc (2 ^ 31 - 1))
          else None
      | Oracle =>
          if name =? "real" then Some (Number 63)
          else if name =? "double precision" then Some (Number 126)
          else if name =? "float" then limited 1 126 (dflt 126 args) Number
          else if name =? "decimal" then decimals 38 38 (Digits 38 0) args
          else if name =? "timestamp" then limited 0 9 (dflt 6 args) Instant
          else if name =? "date" then Some (Days (-1721425) last_day)
          else if name =? "interval day to second" then Some (Span 99 6)
          else if name =? "raw" then limited 1 2000 (dflt (-1) args) UpTo
          else if name =? "clob" then Some (Doc (2 ^ 32 - 1))
          else None
      end
  | Some _ => None
  end%bool.
