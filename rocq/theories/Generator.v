(** Model of the generation of random data: pysqlsync/data/generator.py. *)
From Verif Require Import PyStr QuoteModel Types Objects Convert Reverse.
Open Scope string_scope.

(** A generated value.  [GvFloat n] is n / 2^53, [GvDecimal m s] is m / 10^s, a date is in days and a date with a time in
    seconds after the beginning of 1970 (UTC), a time in seconds after midnight; [GvJson v] is what [object_to_json] makes
    of v, where a list or a dictionary consists of values. *)
Inductive gval : Type :=
| GvNone | GvBool (b : bool) | GvInt (z : Z) | GvFloat (n : N) | GvDecimal (m : N) (s : nat)
| GvDatetime (s : Z) | GvDate (d : Z) | GvTime (s : Z) | GvStr (s : string) | GvUuid (n : N) | GvIPv4 (n : N) | GvIPv6 (n : N)
| GvEnum (c : cid) (e : evalue) | GvLiteral (v : pyval) | GvJson (v : gval) | GvList (l : list gval) | GvObject (l : list (string * gval)).

Section Generator.
Variable env : cid -> classdef.
(** what the random number generator answers to the n-th question, before it is reduced to the range asked for *)
Variable src : nat -> N.
(** the clock at the n-th question, in seconds after the beginning of 1970 *)
Variable now : nat -> Z.

(** A computation that asks random questions: the number of questions asked so far is passed on. *)
Definition R (A : Type) : Type := nat -> res (A * nat).
Definition ret {A} (a : A) : R A := fun i => Ok (a, i).
Definition fail {A} (e : string) : R A := fun _ => Err e.
Definition rbind {A B} (x : R A) (f : A -> R B) : R B := fun i => match x i with Ok (a, j) => f a j | Err e => Err e end.
Fixpoint seq_all {A} (l : list (R A)) : R (list A) :=
  match l with [] => ret [] | x :: r => rbind x (fun a => rbind (seq_all r) (fun b => ret (a :: b))) end.

(** module [random] *)
Definition below (n : N) : R N := fun i => if N.eqb n 0 then Err "ValueError" else Ok (N.modulo (src i) n, S i).
Definition randint (a b : Z) : R Z := if Z.ltb b a then fail "ValueError" else rbind (below (Z.to_N (b - a + 1))) (fun n => ret (a + Z.of_N n)%Z).
Definition randrange (n : Z) : R Z := if Z.leb n 0 then fail "ValueError" else rbind (below (Z.to_N n)) (fun n => ret (Z.of_N n)).
Definition choice {A} (l : list A) : R A :=
  rbind (match l with [] => fail "IndexError" | _ => below (N.of_nat (length l)) end)
        (fun n => match nth_error l (N.to_nat n) with Some a => ret a | None => fail "IndexError" end).
(** a negative [k] gives an empty list *)
Definition choices {A} (l : list A) (k : Z) : R (list A) := seq_all (repeat (choice l) (Z.to_nat k)).
(** [x[i], x[j] = x[j], x[i]] *)
Definition set_at {A} (i : nat) (a : A) (l : list A) : list A := (firstn i l ++ match skipn i l with [] => [] | _ :: r => a :: r end)%list.
Definition swap {A} (i j : nat) (l : list A) : list A :=
  match nth_error l i, nth_error l j with Some a, Some b => set_at i b (set_at j a l) | _, _ => l end.
(** [for i in reversed(range(1, len(x))): j = randbelow(i + 1); x[i], x[j] = x[j], x[i]] *)
Fixpoint shuffle_from {A} (i : nat) (l : list A) : R (list A) :=
  match i with
  | O => ret l
  | S k => rbind (below (N.of_nat i + 1)) (fun j => shuffle_from k (swap i (N.to_nat j) l))
  end.
Definition shuffle {A} (l : list A) : R (list A) := shuffle_from (length l - 1) l.
(** [random.uniform(0.0, 1.0)] compared with 0.5 or 0.1: either can happen *)
Definition coin : R bool := rbind (below 2) (fun n => ret (N.eqb n 1)).
Definition mostly : R bool := rbind (below 10) (fun n => ret (negb (N.eqb n 0))).

(** [random_decimal], 41-47; [Decimal(".")] is an error *)
Definition number (ds : list nat) : N := fold_left (fun a d => (10 * a + N.of_nat d)%N) ds 0%N.
Definition ten_digits : list nat := seq 0 10.
Definition random_decimal (significant decimals : Z) : R gval :=
  rbind (choices ten_digits (significant - decimals)) (fun a =>
  rbind (choices ten_digits decimals) (fun b =>
  match (a ++ b)%list with [] => fail "InvalidOperation" | ds => ret (GvDecimal (number ds) (length b)) end)).
(** [random_datetime], [random_date] (56-76) with the bounds of 248-257, [random_time], 78-94 *)
Definition start_seconds : Z := 404188200.
Definition start_day : Z := 4678.
Definition random_datetime : R gval := fun i => rbind (randrange (now i - start_seconds)) (fun n => ret (GvDatetime (start_seconds + n)%Z)) i.
Definition random_date : R gval := fun i => rbind (randrange (now i / 86400 - start_day)) (fun n => ret (GvDate (start_day + n)%Z)) i.
Definition random_time : R gval := rbind (randrange 86399) (fun n => ret (GvTime n)).
(** [random_alphanumeric_str], 158-170 *)
Definition alphanumeric : list ascii := list_ascii_of_string "abcdefghijklmnopqrstuvwxyzABCDEFGHIJKLMNOPQRSTUVWXYZ0123456789".
Definition random_text (lo hi : Z) : R gval :=
  rbind (randint lo hi) (fun k => rbind (choices alphanumeric k) (fun l => ret (GvStr (string_of_list_ascii l)))).
(** [random_enum_generator(enum_type, max_count=5)], 112-133: [min_c] is 0 *)
Definition random_enum_list (c : cid) (es : list evalue) : R gval :=
  rbind (shuffle es) (fun l => rbind (randint 0 5) (fun n =>
  ret (GvJson (GvList (map (GvEnum c) (firstn (Nat.min (Z.to_nat n) (length es)) l)))))).

(** [reference_to_key], formation/inspection.py:158-194 *)
Definition required_reference (d : pytype) : res pytype :=
  let plain := unwrap d in
  match entity_of env plain with
  | Some c => key_type_of env c
  | None =>
      if is_union plain then
        let ms := map evaluate (filter (fun t => negb (is_none t)) (union_members plain)) in
        if forallb (is_entity env) ms
        then match ms with
             | m :: _ => match entity_of env m with Some c => key_type_of env c | None => Err "TypeError" end
             | [] => Err "IndexError"
             end
        else Ok d
      else Ok d
  end.
Definition reference_to_key (t : pytype) : res pytype :=
  let d := evaluate t in
  if is_optional (unwrap d) then do r <- required_reference (evaluate (unwrap_optional (unwrap d))); Ok (mk_optional r) else required_reference d.

(** [get_annotation]: the first annotation of a class *)
Definition find_range (ms : list meta) : option (Z * Z) :=
  match find (fun m => match m with MRange _ _ => true | _ => false end) ms with Some (MRange a b) => Some (a, b) | _ => None end.
Definition find_min (ms : list meta) : option Z :=
  match find (fun m => match m with MMinLength _ => true | _ => false end) ms with Some (MMinLength n) => Some n | _ => None end.
Definition find_max (ms : list meta) : option Z :=
  match find (fun m => match m with MMaxLength _ => true | _ => false end) ms with Some (MMaxLength n) => Some n | _ => None end.
Definition find_precision (ms : list meta) : option (Z * Z) :=
  match find (fun m => match m with MPrecision _ _ => true | _ => false end) ms with Some (MPrecision a b) => Some (a, b) | _ => None end.
Definition default_to {A} (d : A) (x : option A) : A := match x with Some a => a | None => d end.

(** keys of the generated objects, 189-197 *)
Variable keys : list Z.
Definition generator : Type := nat -> R gval.
(** the branches 236-287: types that are not composed *)
Definition scalar_generator (plain : pytype) (ms : list meta) : option (R gval) :=
  match plain with
  | YBool => Some (rbind coin (fun b => ret (GvBool b)))
  | YInt => Some (match find_range ms with
                  | Some (a, b) => rbind (randint a b) (fun z => ret (GvInt z))
                  | None => rbind (randint 0 1000000) (fun z => ret (GvInt z))
                  end)
  | YFloat => Some (rbind (below (2 ^ 53)) (fun n => ret (GvFloat n)))
  | YDatetime => Some random_datetime
  | YDate => Some random_date
  | YTime => Some random_time
  | YStr => Some (random_text (default_to 1%Z (find_min ms)) (default_to 255%Z (find_max ms)))
  | YDecimal => Some (let (p, s) := default_to (10%Z, 0%Z) (find_precision ms) in random_decimal p s)
  | YUuid => Some (rbind (below (2 ^ 122)) (fun n => ret (GvUuid n)))
  | YIPv4 => Some (rbind (below (2 ^ 32)) (fun n => ret (GvIPv4 n)))
  | YIPv6 => Some (rbind (below (2 ^ 64)) (fun a => rbind (below (2 ^ 64)) (fun b => ret (GvIPv6 (a * 2 ^ 64 + b)))))
  | YCls c => match env c with KEnum es => Some (rbind (choice es) (fun e => ret (GvEnum c e))) | _ => None end
  | YLiteral vs => Some (match vs with [v] => ret (GvLiteral v) | _ => rbind (choice vs) (fun v => ret (GvLiteral v)) end)
  | _ => None
  end.
(** [create], 207-307; [create_json], 199-205.  [fuel] bounds the recursion; Python raises RecursionError. *)
Fixpoint create (fuel : nat) (t : pytype) : res generator :=
  match fuel with
  | O => Err "RecursionError"
  | S n =>
      let fp := field_properties t in
      do r <- reference_to_key (field_type fp);
      let vp := field_properties r in
      if p_primary fp then
        match p_plain vp with
        | YInt => Ok (fun k => match nth_error keys k with Some z => ret (GvInt z) | None => fail "IndexError" end)
        | YUuid => Ok (fun _ => rbind (below (2 ^ 122)) (fun n => ret (GvUuid n)))
        | _ => Err "DataGeneratorError"
        end
      else if p_nullable vp then
        do g <- create n (field_type vp); Ok (fun k => rbind mostly (fun b => if b then g k else ret GvNone))
      else match scalar_generator (p_plain vp) (p_meta vp) with
      | Some g => Ok (fun _ => g)
      | None =>
          match p_plain vp with
          | YUnion l =>
              if is_union (YUnion l)
              then do gs <- map_res (create n) l; Ok (fun k => rbind (choice gs) (fun g => g k))
              else Err "DataGeneratorError"
          | YCls c =>
              match env c with
              | KData fs _ _ _ =>
                  if has_key env c then Err "DataGeneratorError"
                  else do gs <- map_res (fun f => do g <- create n (f_type f); Ok (f_name f, g)) fs;
                       Ok (fun k => rbind (seq_all (map (fun p => rbind (snd p k) (fun v => ret (fst p, v))) gs)) (fun l => ret (GvJson (GvObject l))))
              | _ => Err "DataGeneratorError"
              end
          | YList e | YSet e =>
              if is_type_enum env e
              then match e with
                   | YCls c => match env c with KEnum es => Ok (fun _ => random_enum_list c es) | _ => Err "TypeError" end
                   | _ => Err "TypeError"
                   end
              else do g <- create n e;
                   Ok (fun k => rbind (randint 0 5) (fun m => rbind (seq_all (repeat (g k) (Z.to_nat m))) (fun l => ret (GvJson (GvList l)))))
          | _ => Err "DataGeneratorError"
          end
      end
  end.
End Generator.

(** [random_objects], 313-334: the keys are shuffled, the generators of all fields are made, then the objects one by one *)
Definition range_list (count : Z) : list Z := map Z.of_nat (seq 0 (Z.to_nat count)).
Definition random_objects (env : cid -> classdef) (src : nat -> N) (now : nat -> Z) (fuel : nat) (c : cid) (count : Z) : res (list (list (string * gval))) :=
  match shuffle src (range_list count) 0%nat with
  | Err e => Err e
  | Ok (keys, i) =>
      do gs <- map_res (fun f => do g <- create env src now keys fuel (f_type f); Ok (f_name f, g)) (fields_of env c);
      match seq_all (map (fun k => seq_all (map (fun p => rbind (snd p k) (fun v => ret (fst p, v))) gs)) (seq 0 (Z.to_nat count))) i with
      | Ok (l, _) => Ok l
      | Err e => Err e
      end
  end.
