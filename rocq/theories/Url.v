(** Model of connection strings: pysqlsync/connection.py:90-118 ([ConnectionParameters]) and
    pysqlsync/factory.py:65-108 ([get_parameters]), with the parts of Python's urllib.parse they use.

    Simplifications: characters are UTF-8 bytes, so percent-decoding is exact where the decoded bytes are valid UTF-8
    (Python replaces invalid sequences); IPv6 hosts in brackets, the Unicode normalisation check and the removal of control characters by
    urlsplit are not modelled. *)
From Verif Require Import PyStr Tls.
Open Scope string_scope.

(** ** Percent-encoding (urllib.parse.quote with safe='', unquote) *)
Definition between (a b : nat) (c : ascii) : bool := let n := nat_of_ascii c in Nat.leb a n && Nat.leb n b.
Definition is_upper (c : ascii) : bool := between 65 90 c.
Definition is_lower (c : ascii) : bool := between 97 122 c.
(** _ALWAYS_SAFE: letters, digits, "_", ".", "-", "~" *)
Definition always_safe (c : ascii) : bool := is_upper c || is_lower c || is_digit c || in_class ["_"%char; "."%char; "-"%char; "~"%char] c.
Definition hex_digit (n : nat) : ascii := if Nat.ltb n 10 then ch (48 + n) else ch (55 + n).
Definition percent (c : ascii) : string := let n := nat_of_ascii c in String "%" (String (hex_digit (n / 16)) (String (hex_digit (n mod 16)) "")).
Definition url_quote (s : string) : string := translate (fun c => if always_safe c then str1 c else percent c) s.

Definition hex_value (c : ascii) : option nat :=
  let n := nat_of_ascii c in
  if between 48 57 c then Some (n - 48) else if between 65 70 c then Some (n - 55) else if between 97 102 c then Some (n - 87) else None.
Fixpoint unquote (s : string) : string :=
  match s with
  | String c r =>
      if Ascii.eqb c "%" then
        match r with
        | String h (String l r') =>
            match hex_value h, hex_value l with
            | Some a, Some b => String (ch (16 * a + b)) (unquote r')
            | _, _ => String c (unquote r)
            end
        | _ => String c (unquote r)
        end
      else String c (unquote r)
  | "" => ""
  end.

(** ** Splitting (str.partition, str.rpartition, str.lstrip, str.lower) *)
(** the text up to the first character of a class, and the rest from there *)
Fixpoint span (p : ascii -> bool) (s : string) : string * string :=
  match s with
  | "" => ("", "")
  | String c r => if p c then ("", s) else let (a, b) := span p r in (String c a, b)
  end.
(** [s.partition(c)]: [None] if the separator does not occur *)
Definition partition (c : ascii) (s : string) : string * option string :=
  match span (Ascii.eqb c) s with
  | (a, String _ b) => (a, Some b)
  | (a, "") => (a, None)
  end.
(** [s.rpartition(c)]: the part before the last occurrence, if any, and the part after it *)
Fixpoint rpartition (c : ascii) (s : string) : option string * string :=
  match s with
  | "" => (None, "")
  | String x r => match rpartition c r with
                  | (Some a, b) => (Some (String x a), b)
                  | (None, b) => if Ascii.eqb c x then (Some "", r) else (None, String x b)
                  end
  end.
Fixpoint lstrip (c : ascii) (s : string) : string :=
  match s with String x r => if Ascii.eqb x c then lstrip c r else s | "" => "" end.
Definition lower_char (c : ascii) : ascii := if is_upper c then ch (nat_of_ascii c + 32) else c.
Fixpoint lower (s : string) : string := match s with "" => "" | String c r => String (lower_char c) (lower r) end.
(** [x or None] *)
Definition or_none (s : string) : option string := match s with "" => None | _ => Some s end.

(** ** urlparse(url, allow_fragments=False) *)
Definition scheme_char (c : ascii) : bool := is_upper c || is_lower c || is_digit c || in_class ["+"%char; "-"%char; "."%char] c.
Record url_parts : Type := Parts { u_scheme : string; u_netloc : string; u_path : string; u_query : string }.
Definition urlsplit (url : string) : url_parts :=
  let (scheme, rest) :=
    match partition ":" url with
    | (String c a, Some r) => if (is_upper c || is_lower c) && negb (any_char (fun x => negb (scheme_char x)) (String c a)) then (lower (String c a), r) else ("", url)
    | _ => ("", url)
    end in
  let (netloc, rest') :=
    match drop_prefix "//" rest with
    | Some r => span (in_class ["/"%char; "?"%char; "#"%char]) r
    | None => ("", rest)
    end in
  match partition "?" rest' with
  | (path, Some q) => Parts scheme netloc path q
  | (path, None) => Parts scheme netloc path ""
  end.
(** [parts.username], [parts.password] *)
Definition userinfo (netloc : string) : option string * option string :=
  match rpartition "@" netloc with
  | (Some info, _) => match partition ":" info with (u, p) => (Some u, p) end
  | (None, _) => (None, None)
  end.
(** [parts.hostname], [parts.port] (raises [ValueError] for a port that is no number below 65536) *)
Definition hostinfo (netloc : string) : option string * res (option N) :=
  let (host, port) := partition ":" (snd (rpartition "@" netloc)) in
  let (name, zone) := partition "%" host in
  (or_none (lower name ++ match zone with Some z => "%" ++ z | None => "" end),
   match port with
   | None | Some "" => Ok None
   | Some p => if all_digits p then match str_to_n p with
                                    | Some n => if N.leb n 65535 then Ok (Some n) else Err "ValueError"
                                    | None => Err "ValueError"
                                    end
               else Err "ValueError"
   end).

(** ** parse_qs(query, strict_parsing=True) *)
Fixpoint split_on (c : ascii) (s : string) : list string :=
  match s with
  | "" => [""]
  | String x r => if Ascii.eqb x c then "" :: split_on c r
                  else match split_on c r with [] => [str1 x] | y :: l => String x y :: l end
  end.
Definition unplus (s : string) : string := replace1 "+" " " s.
Fixpoint parse_pairs (l : list string) : res (list (string * string)) :=
  match l with
  | [] => Ok []
  | f :: r =>
      match partition "=" f with
      | (_, None) => Err "ValueError"
      | (k, Some v) => do rest <- parse_pairs r;
                       Ok (match v with "" => rest | _ => (unquote (unplus k), unquote (unplus v)) :: rest end)
      end
  end.
Definition parse_qs (q : string) : res (list (string * string)) := parse_pairs (split_on "&" q).

(** ** ConnectionParameters and get_parameters *)
Record params : Type := Params { p_host : option string; p_port : option N; p_user : option string; p_password : option string; p_database : option string; p_ssl : option ssl_mode }.
Definition all_modes : list ssl_mode := [Disable; Prefer; Allow; Require; VerifyCA; VerifyFull].
(** [ConnectionSSLMode.value], connection.py:24-46 *)
Definition mode_value (m : ssl_mode) : string :=
  match m with Disable => "disable" | Prefer => "prefer" | Allow => "allow" | Require => "require" | VerifyCA => "verify-ca" | VerifyFull => "verify-full" end.
(** factory.py:84-99 *)
Definition get_ssl (query : string) : res (option ssl_mode) :=
  match query with
  | "" => Ok None
  | _ => do ps <- parse_qs query;
         match filter (fun p => String.eqb (fst p) "ssl") ps with
         | [] => Ok None
         | [(_, v)] => match find (fun m => String.eqb v (mode_value m)) all_modes with Some m => Ok (Some m) | None => Err "ValueError" end
         | _ => Err "ValueError"
         end
  end.
(** [unquote(x) if x else None] *)
Definition unquoted (o : option string) : option string := match o with None | Some "" => None | Some s => Some (unquote s) end.
(** factory.py:82-108 *)
Definition get_parameters (url : string) : res (string * params) :=
  let parts := urlsplit url in
  do ssl <- get_ssl (u_query parts);
  let (host, port) := hostinfo (u_netloc parts) in
  let (user, password) := userinfo (u_netloc parts) in
  do pt <- port;
  Ok (u_scheme parts, Params host pt (unquoted user) (unquoted password)
        (match u_path parts with "" => None | p => Some (lstrip "/" p) end) ssl).
(** [__str__], connection.py:111-118 *)
Definition show (p : params) : string :=
  (match p_user p with None | Some "" => "" | Some u => url_quote u ++ "@" end)
  ++ (match p_host p with None | Some "" => "localhost" | Some h => h end)
  ++ (match p_port p with None | Some 0%N => "" | Some n => ":" ++ n_to_str n end)
  ++ (match p_database p with None | Some "" => "" | Some d => "/" ++ url_quote d end)
  ++ (match p_ssl p with None => "" | Some m => "?ssl=" ++ mode_value m end).
