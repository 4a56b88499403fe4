(** * C55: columns of truth values, numbers, dates, times and identifiers keep every value *)
From Verif Require Import PyStr QuoteModel QuoteSpec ConstProofs ObjectDict Types Objects Compat Capacity Convert ConvertDialects ConvertSpec
  CloseSpec CloseProofs5 PropsConvert PropsCapacity PropsScalar Storage.
From Coq Require Import ZArith Lia.
Open Scope string_scope.
Open Scope list_scope.

Definition value_types : list pytype := [YBool; YFloat; YDecimal; YDatetime; YDate; YTime; YTimedelta; YUuid; YJson; YIPv4; YIPv6].
(** the engines that keep all values of the type as the library spells the column *)
Definition lossless (e : engine) (t : pytype) : bool :=
  match t, e with
  | YDecimal, PostgreSQL => true
  | YDecimal, _ => false                                  (* no places after the point *)
  | YTimedelta, PostgreSQL => true
  | YTimedelta, _ => false                                (* no such type *)
  | YDatetime, MySQL | YTime, MySQL => false              (* no fractional seconds *)
  | YBool, Oracle => false                                (* no such type before Oracle 23 *)
  | YFloat, Oracle => false                               (* range of NUMBER *)
  | _, _ => true
  end.
(** the spelling of the column of a field declared as [t] *)
Definition spelling (d : dialect) (t : pytype) : string :=
  match t, d with
  | YBool, DMySQL => "tinyint" | YBool, DMSSQL => "bit" | YBool, _ => "boolean"
  | YFloat, _ => "double precision"
  | YDecimal, _ => "decimal"
  | YDatetime, DMySQL => "datetime" | YDatetime, DMSSQL => "datetime2" | YDatetime, _ => "timestamp"
  | YDate, _ => "date"
  | YTime, DOracle => "interval day to second" | YTime, _ => "time"
  | YTimedelta, _ => "interval"
  | YUuid, DPostgres => "uuid" | YUuid, DOracle => "raw(16)" | YUuid, _ => "binary(16)"
  | YJson, DPostgres => "jsonb" | YJson, DMySQL => "json" | YJson, DMSSQL => "varchar(max)" | YJson, _ => "clob"
  | YIPv4, DPostgres => "inet" | YIPv4, DOracle => "raw(4)" | YIPv4, _ => "binary(4)"
  | YIPv6, DPostgres => "inet" | YIPv6, DOracle => "raw(16)" | YIPv6, _ => "binary(16)"
  | _, _ => ""
  end.
Lemma spelling_ok d e g env n T s : engine_of d = Some e -> In T value_types ->
  member_sql env (dialect_options d g) n T = Ok s -> type_str s = Ok (spelling d T).
Proof.
  intros HE IT H. destruct n as [|n]; [discriminate|].
  destruct d; try discriminate; clear HE; unfold value_types, In in IT; decompose [or] IT; try contradiction; subst T;
    cbv [member_sql subst dialect_options o_subst substitutions find fst py_eqb is_simple simple_sql value_sql basic_sql bind] in H; injection H as <-; reflexivity.
Qed.
Lemma value_field d e g env fuel c fs a doc ps t f T : engine_of d = Some e -> sane_options (dialect_options d g) -> env c = KData fs a doc ps -> NoDup (map f_name fs) ->
  dataclass_to_table env (dialect_options d g) fuel c = Ok t -> In f fs -> In T value_types -> declared_as f T ->
  exists k, In k (t_columns t) /\ c_name k = f_name f /\ type_str (c_type k) = Ok (spelling d T).
Proof.
  intros HE S E ND H I IT D.
  assert (SB : simple_base T = true) by (unfold value_types, In in IT; decompose [or] IT; try contradiction; subst T; reflexivity).
  destruct (scalar_column env _ fuel c fs a doc ps t f T [] S E ND H I SB) as (k & A1 & A2 & A3); auto.
  exists k. split; auto. split; auto. eapply spelling_ok; eauto.
Qed.
Definition the_kind (e : engine) (t : pytype) : option kind :=
  storage e (spelling match e with PostgreSQL => DPostgres | MySQL => DMySQL | SQLServer => DMSSQL | Oracle => DOracle end t).
Lemma the_kind_ok d e t : engine_of d = Some e -> storage e (spelling d t) = the_kind e t.
Proof. destruct d; try discriminate; intros [= <-]; reflexivity. Qed.

(** A field of one of these types becomes a column that the server accepts and that keeps every value of the type. *)
Theorem C55_values_kept : forall d e g env fuel c fs a doc ps t f T,
  engine_of d = Some e -> sane_options (dialect_options d g) -> env c = KData fs a doc ps -> NoDup (map f_name fs) ->
  dataclass_to_table env (dialect_options d g) fuel c = Ok t -> In f fs -> In T value_types -> declared_as f T ->
  lossless e T = true ->
  exists k s kd, In k (t_columns t) /\ c_name k = f_name f /\ type_str (c_type k) = Ok s /\ storage e s = Some kd /\
    forall v, value_of T v -> kept kd v.
Proof.
  intros d e g env fuel c fs a doc ps t f T HE S E ND H I IT D L.
  destruct (value_field d e g env fuel c fs a doc ps t f T HE S E ND H I IT D) as (k & A1 & A2 & A3).
  assert (G : exists kd, the_kind e T = Some kd /\ forall v, value_of T v -> kept kd v).
  { unfold value_types, In in IT. decompose [or] IT; try contradiction; subst T; destruct e; try discriminate L;
      (eexists; split; [vm_compute; reflexivity|]); intros v Hv; destruct v; cbn [value_of kept] in Hv |- *; try contradiction; auto;
      unfold micros in *; try (left; discriminate).
    all: try match goal with |- context [131072%Z] => fail 1 | _ => unfold first_day, last_day, day_us in *; lia end.
    - split; [apply Hv|]. eapply Z.lt_trans; [apply Hv|]. apply Z.pow_lt_mono_r; [reflexivity|discriminate|reflexivity].
    all: split; [left; discriminate|unfold day_us in *; lia]. }
  destruct G as (kd & G1 & G2). exists k, (spelling d T), kd. rewrite (the_kind_ok d e T HE). auto.
Qed.
Print Assumptions C55_values_kept.

(** In all the other cases the server has no such type, or it alters some value of the type. *)
Theorem C55_values_lost_refuted : forall d e g env fuel c fs a doc ps t f T,
  engine_of d = Some e -> sane_options (dialect_options d g) -> env c = KData fs a doc ps -> NoDup (map f_name fs) ->
  dataclass_to_table env (dialect_options d g) fuel c = Ok t -> In f fs -> In T value_types -> declared_as f T ->
  lossless e T = false ->
  exists k s, In k (t_columns t) /\ c_name k = f_name f /\ type_str (c_type k) = Ok s /\
    (storage e s = None \/ exists kd v, storage e s = Some kd /\ value_of T v /\ ~ kept kd v).
Proof.
  intros d e g env fuel c fs a doc ps t f T HE S E ND H I IT D L.
  destruct (value_field d e g env fuel c fs a doc ps t f T HE S E ND H I IT D) as (k & A1 & A2 & A3).
  exists k, (spelling d T). split; auto. split; auto. split; auto. rewrite (the_kind_ok d e T HE).
  assert (F : forall p, ~ kept (Digits p 0) (VDecimal 1 1)).
  { intros p (x & X & _). change (10 ^ 1)%Z with 10%Z in X. change (10 ^ 0)%Z with 1%Z in X. lia. }
  assert (M : ~ micros 0 (first_day * day_us + 1)).
  { unfold micros, first_day, day_us. change (10 ^ (6 - 0))%Z with 1000000%Z. intros [X|[x X]]; lia. }
  assert (M2 : ~ micros 0 1).
  { unfold micros. change (10 ^ (6 - 0))%Z with 1000000%Z. intros [X|[x X]]; lia. }
  unfold value_types, In in IT. decompose [or] IT; try contradiction; subst T; destruct e; try discriminate L.
  - left. vm_compute. reflexivity.
  - right. exists (Number 126), (VFloat 1 900). split; [vm_compute; reflexivity|]. split; [cbn [value_of]; lia|]. cbn [kept]. intros [X|(_ & _ & X)]; [lia|]. vm_compute in X. discriminate.
  - right. exists (Digits 10 0), (VDecimal 1 1). split; [vm_compute; reflexivity|]. split; [cbn [value_of]; lia|apply F].
  - right. exists (Digits 18 0), (VDecimal 1 1). split; [vm_compute; reflexivity|]. split; [cbn [value_of]; lia|apply F].
  - right. exists (Digits 38 0), (VDecimal 1 1). split; [vm_compute; reflexivity|]. split; [cbn [value_of]; lia|apply F].
  - right. exists (Instant 0), (VDatetime (first_day * day_us + 1)). split; [vm_compute; reflexivity|]. split; [cbn [value_of]; unfold first_day, last_day, day_us; lia|exact M].
  - right. exists (Clock 0), (VTime 1). split; [vm_compute; reflexivity|]. split; [cbn [value_of]; unfold day_us; lia|exact M2].
  - left. vm_compute. reflexivity.
  - left. vm_compute. reflexivity.
  - left. vm_compute. reflexivity.
Qed.
Print Assumptions C55_values_lost_refuted.

(** ** Annotated types *)
Lemma scan_z n r : (0 <= n)%Z -> (forall c q, r = String c q -> is_digit c = false) -> scan_nat (z_to_str n ++ r)%string = Some (Z.to_N n, r).
Proof.
  intros P H.
  assert (N : ~ digit_start r) by (intros (c & q & E & D); rewrite (H c q E) in D; discriminate).
  destruct n as [|p|p].
  - change (z_to_str 0) with (n_to_str 0). exact (scan_nat_app 0 r N).
  - exact (scan_nat_app (N.pos p) r N).
  - exfalso. lia.
Qed.
Lemma max_no n r : (0 <= n)%Z -> forall X (a b : X), match String "(" (z_to_str n ++ r)%string with "(max)" => a | _ => b end = b.
Proof.
  intros P X a b. destruct (z_to_str n ++ r)%string as [|c q] eqn:E; [reflexivity|].
  assert (D : is_digit c = true).
  { destruct n as [|p|p]; [injection E as <- _; reflexivity| |lia]. cbn [z_to_str] in E. destruct (n_to_str_nonempty (N.pos p)) as (c' & r' & E' & D). rewrite E' in E. injection E as <- _. exact D. }
  destruct c as [[] [] [] [] [] [] [] []]; try reflexivity. discriminate D.
Qed.
Lemma spelled_one name n tail : any_char (fun c => Ascii.eqb c "(") name = false -> (0 <= n)%Z ->
  spelled (name ++ "(" ++ z_to_str n ++ ")" ++ tail)%string = Some (name, [n], tail).
Proof.
  intros N P. unfold spelled. change ("(" ++ z_to_str n ++ ")" ++ tail)%string with (String "(" (z_to_str n ++ String ")" tail)%string). rewrite (upto_paren_app _ _ N).
  assert (S : scan_nat (z_to_str n ++ String ")" tail)%string = Some (Z.to_N n, String ")" tail)) by (apply scan_z; [exact P|intros c q [= <- <-]; reflexivity]).
  rewrite S, Z2N.id by exact P. cbn [strip]. change (Ascii.eqb ")" ")") with true. cbv iota. apply (max_no n _ P).
Qed.
Lemma spelled_two name n m : any_char (fun c => Ascii.eqb c "(") name = false -> (0 <= n)%Z -> (0 <= m)%Z ->
  spelled (name ++ "(" ++ z_to_str n ++ ", " ++ z_to_str m ++ ")")%string = Some (name, [n; m], "").
Proof.
  intros N P Q. unfold spelled. change ("(" ++ z_to_str n ++ ", " ++ z_to_str m ++ ")")%string with (String "(" (z_to_str n ++ String "," (String " " (z_to_str m ++ ")")))%string). rewrite (upto_paren_app _ _ N).
  assert (S : scan_nat (z_to_str n ++ String "," (String " " (z_to_str m ++ ")")))%string = Some (Z.to_N n, String "," (String " " (z_to_str m ++ ")")))) by (apply scan_z; [exact P|intros c q [= <- <-]; reflexivity]).
  rewrite S, Z2N.id by exact P. cbn [strip]. change (Ascii.eqb ")" ",") with false. change (Ascii.eqb "," ",") with true. change (Ascii.eqb " " " ") with true. cbv iota.
  assert (S2 : scan_nat (z_to_str m ++ ")")%string = Some (Z.to_N m, ")")) by (apply scan_z; [exact Q|intros c q [= <- <-]; reflexivity]).
  rewrite S2, Z2N.id by exact Q. apply (max_no n _ P).
Qed.
(** A decimal with [p] digits, [s] of them after the point: within the limits of the engines, every number of that form is kept. *)
Theorem C55_decimal_precision : forall d e g env fuel c fs a doc ps t f p s,
  engine_of d = Some e -> sane_options (dialect_options d g) -> env c = KData fs a doc ps -> NoDup (map f_name fs) ->
  dataclass_to_table env (dialect_options d g) fuel c = Ok t -> In f fs -> declared_as f (YAnn YDecimal [MPrecision p s]) -> g_skip g (MPrecision p s) = false ->
  (1 <= p <= 38)%Z -> (0 <= s <= p)%Z -> (s <= 30)%Z ->
  exists k x kd, In k (t_columns t) /\ c_name k = f_name f /\ type_str (c_type k) = Ok x /\ storage e x = Some kd /\
    forall m j, (0 <= j <= s)%Z -> (Z.abs m * 10 ^ (s - j) < 10 ^ p)%Z -> kept kd (VDecimal m j).
Proof.
  intros d e g env fuel c fs a doc ps t f p s HE S E ND H I D SK P1 P2 P3.
  destruct (scalar_column env _ fuel c fs a doc ps t f YDecimal [MPrecision p s] S E ND H I) as (k & A1 & A2 & A3); auto.
  assert (TY : c_type k = TDecimal (Some p) (Some s)).
  { destruct fuel as [|n]; [discriminate|]. cbn [annotated member_sql] in A3.
    destruct d; try discriminate; unfold subst, dialect_options, o_subst, substitutions, find, fst, py_eqb in A3; cbn [is_simple] in A3;
      unfold simple_sql, value_sql, subst, dialect_options, o_subst, substitutions, find, fst, py_eqb, basic_sql, fixed_sql, same_object, py_eqb in A3;
      cbn in A3; rewrite SK in A3; cbn in A3; now injection A3 as <-. }
  exists k, ("decimal" ++ "(" ++ z_to_str p ++ ", " ++ z_to_str s ++ ")")%string, (Digits p s). split; [exact A1|]. split; [exact A2|]. split; [rewrite TY; reflexivity|]. split.
  - unfold storage. rewrite (spelled_two "decimal" p s eq_refl) by lia.
    assert (DD : forall mp ms df, (38 <= mp)%Z -> (30 <= ms)%Z -> decimals mp ms df [p; s] = Some (Digits p s)).
    { intros mp ms df M1 M2. unfold decimals. rewrite (proj2 (Z.leb_le 1 p)), (proj2 (Z.leb_le p mp)), (proj2 (Z.leb_le s ms)), (proj2 (Z.leb_le s p)) by lia. reflexivity. }
    destruct e; cbn [String.eqb Ascii.eqb Bool.eqb orb]; apply DD; lia.
  - intros m j J1 J2. cbn [kept]. exists (m * 10 ^ (s - j))%Z. split.
    + rewrite <- Z.mul_assoc, <- Z.pow_add_r by lia. f_equal. f_equal. lia.
    + rewrite Z.abs_mul, (Z.abs_eq (10 ^ (s - j))) by (apply Z.pow_nonneg; lia). exact J2.
Qed.
Print Assumptions C55_decimal_precision.
(** A date and time with [n] digits of fractional seconds; a time of day likewise. *)
Lemma micros_more n m us : (n <= m)%Z -> micros n us -> micros m us.
Proof.
  intros L [X|[x X]]; [left; lia|]. destruct (Z.le_gt_cases 6 m) as [|G]; [now left|]. right. exists (x * 10 ^ (m - n))%Z. rewrite X, <- Z.mul_assoc, <- Z.pow_add_r by lia. f_equal. f_equal. lia.
Qed.
Theorem C55_time_precision : forall d e g env fuel c fs a doc ps t f B n,
  engine_of d = Some e -> sane_options (dialect_options d g) -> env c = KData fs a doc ps -> NoDup (map f_name fs) ->
  dataclass_to_table env (dialect_options d g) fuel c = Ok t -> In f fs -> B = YDatetime \/ B = YTime ->
  declared_as f (YAnn B [MTimePrecision n]) -> g_skip g (MTimePrecision n) = false ->
  (0 <= n <= 6)%Z ->
  exists k x kd, In k (t_columns t) /\ c_name k = f_name f /\ type_str (c_type k) = Ok x /\ storage e x = Some kd /\
    forall v, value_of B v -> (forall us, v = VDatetime us \/ v = VTime us -> micros n us) -> kept kd v.
Proof.
  intros d e g env fuel c fs a doc ps t f B n HE S E ND H I HB D SK P.
  assert (SB : simple_base B = true) by (destruct HB as [-> | ->]; reflexivity).
  destruct (scalar_column env _ fuel c fs a doc ps t f B [MTimePrecision n] S E ND H I SB) as (k & A1 & A2 & A3); auto.
  assert (TY : c_type k = match B, d with
      | YDatetime, DMySQL => TSub MyDateTime (TTimestamp (Some n) false) | YDatetime, DMSSQL => TSub MsDateTime (TTimestamp (Some n) false)
      | YDatetime, DOracle => TSub OraTimestamp (TTimestamp (Some n) false) | YDatetime, _ => TTimestamp (Some n) false
      | _, DOracle => TSub OraTime (TTime (Some n) false) | _, _ => TTime (Some n) false end).
  { destruct fuel as [|m]; [discriminate|]. cbn [annotated member_sql] in A3.
    destruct HB as [-> | ->]; destruct d; try discriminate; unfold subst, dialect_options, o_subst, substitutions, find, fst, py_eqb in A3; cbn [is_simple] in A3;
      unfold simple_sql, value_sql, subst, dialect_options, o_subst, substitutions, find, fst, py_eqb, basic_sql, fixed_sql, same_object, py_eqb in A3;
      cbn in A3; rewrite SK in A3; cbn in A3; now injection A3 as <-. }
  assert (LM : forall hi (F : Z -> kind), (6 <= hi)%Z -> limited 0 hi (dflt 6 [n]) F = Some (F n)).
  { intros hi F Hh. unfold limited, dflt. rewrite (proj2 (Z.leb_le 0 n)), (proj2 (Z.leb_le n hi)) by lia. reflexivity. }
  assert (SP : forall name, any_char (fun c => Ascii.eqb c "(") name = false -> spelled (name ++ "(" ++ z_to_str n ++ ")")%string = Some (name, [n], "")).
  { intros name N. rewrite <- (spelled_one name n "" N) by lia. f_equal. }
  assert (ST : forall en name hi (F : Z -> kind), any_char (fun c => Ascii.eqb c "(") name = false -> (6 <= hi)%Z ->
     (forall s, spelled s = Some (name, [n], "") -> storage en s = limited 0 hi (dflt 6 [n]) F) -> storage en (name ++ paren (Some n)) = Some (F n)).
  { intros en name hi F N Hh X. exact (eq_trans (X (name ++ paren (Some n))%string (SP name N)) (LM hi F Hh)). }
  exists k.
  assert (KI : forall v, value_of B v -> (forall us, v = VDatetime us \/ v = VTime us -> micros n us) -> forall m, (n <= m)%Z -> match B with YDatetime => kept (Instant m) v | _ => kept (Clock m) v end).
  { intros v Hv Hm m L. destruct HB as [-> | ->]; destruct v; cbn [value_of kept] in *; try contradiction; eapply micros_more; eauto. }
  destruct HB as [-> | ->]; destruct d; try discriminate; injection HE as <-; rewrite TY; cbn [type_str sub_str].
  - exists ("timestamp" ++ paren (Some n))%string, (Instant n). split; [exact A1|]. split; [exact A2|]. split; [cbn [tz_str]; rewrite ?append_nil_r; reflexivity|]. split;
      [apply (ST _ "timestamp" 6%Z Instant eq_refl); [lia|intros s0 Hs; unfold storage; rewrite Hs; reflexivity]|intros v V1 V2; exact (KI v V1 V2 n ltac:(lia))].
  - exists ("datetime" ++ paren (Some n))%string, (Instant n). split; [exact A1|]. split; [exact A2|]. split; [cbn [tz_str]; rewrite ?append_nil_r; reflexivity|]. split;
      [apply (ST _ "datetime" 6%Z Instant eq_refl); [lia|intros s0 Hs; unfold storage; rewrite Hs; reflexivity]|intros v V1 V2; exact (KI v V1 V2 n ltac:(lia))].
  - exists "datetime2", (Instant 7). split; [exact A1|]; split; [exact A2|]; split; [reflexivity|]; split; [reflexivity|]. intros v V1 V2. apply (KI v V1 V2). lia.
  - destruct (Z.eqb_spec n 6) as [-> | _].
    + exists "timestamp", (Instant 6). split; [exact A1|]; split; [exact A2|]; split; [reflexivity|]; split; [reflexivity|]. intros v V1 V2. apply (KI v V1 V2). lia.
    + exists ("timestamp" ++ paren (Some n))%string, (Instant n). split; [exact A1|]. split; [exact A2|]. split; [cbn [tz_str]; rewrite ?append_nil_r; reflexivity|]. split;
      [apply (ST _ "timestamp" 9%Z Instant eq_refl); [lia|intros s0 Hs; unfold storage; rewrite Hs; reflexivity]|intros v V1 V2; exact (KI v V1 V2 n ltac:(lia))].
  - exists ("time" ++ paren (Some n))%string, (Clock n). split; [exact A1|]. split; [exact A2|]. split; [cbn [tz_str]; rewrite ?append_nil_r; reflexivity|]. split;
      [apply (ST _ "time" 6%Z Clock eq_refl); [lia|intros s0 Hs; unfold storage; rewrite Hs; reflexivity]|intros v V1 V2; exact (KI v V1 V2 n ltac:(lia))].
  - exists ("time" ++ paren (Some n))%string, (Clock n). split; [exact A1|]. split; [exact A2|]. split; [cbn [tz_str]; rewrite ?append_nil_r; reflexivity|]. split;
      [apply (ST _ "time" 6%Z Clock eq_refl); [lia|intros s0 Hs; unfold storage; rewrite Hs; reflexivity]|intros v V1 V2; exact (KI v V1 V2 n ltac:(lia))].
  - exists ("time" ++ paren (Some n))%string, (Clock n). split; [exact A1|]. split; [exact A2|]. split; [cbn [tz_str]; rewrite ?append_nil_r; reflexivity|]. split;
      [apply (ST _ "time" 7%Z Clock eq_refl); [lia|intros s0 Hs; unfold storage; rewrite Hs; reflexivity]|intros v V1 V2; exact (KI v V1 V2 n ltac:(lia))].
  - exists "interval day to second", (Span 99 6). split; [exact A1|]; split; [exact A2|]; split; [reflexivity|]; split; [reflexivity|].
    intros v V1 V2. destruct v; cbn [value_of kept] in *; try contradiction. split; [left; lia|]. unfold day_us in *. lia.
Qed.
Print Assumptions C55_time_precision.

(** Hypotheses are met. *)
Definition event_class : list dfield :=
  [Fld "id" (YAnn YUuid [MPrimary]) DMissing; Fld "at" YDatetime DMissing; Fld "on" (YUnion [YDate; YNone]) DMissing; Fld "cost" (YAnn YDecimal [MPrecision 12 2]) DMissing;
   Fld "ends" (YAnn YDatetime [MTimePrecision 6]) DMissing; Fld "ok" YBool DMissing; Fld "starts" (YAnn YTime [MTimePrecision 3]) DMissing].
Definition events_env : cid -> classdef := fun c => if cid_eqb c ("m", "Event") then KData event_class false None [] else KOther.
Example C55_event_declared :
  exists f1 f2 f3 f4 f5 f6 f7, event_class = [f1; f2; f3; f4; f5; f6; f7] /\ declared_as f1 YUuid /\ declared_as f2 YDatetime /\ declared_as f3 YDate /\
    declared_as f4 (YAnn YDecimal [MPrecision 12 2]) /\ declared_as f5 (YAnn YDatetime [MTimePrecision 6]) /\ declared_as f6 YBool /\ declared_as f7 (YAnn YTime [MTimePrecision 3]).
Proof.
  do 7 eexists. split; [reflexivity|]. repeat split.
  - right; right; right. exists [MPrimary]. split; [repeat constructor; now left|reflexivity].
  - now left.
  - right; now left.
  - now left.
  - now left.
  - now left.
  - now left.
Qed.
Example C55_event_converted d : In d [DPostgres; DMySQL; DMSSQL; DOracle] ->
  sane_options (dialect_options d plain_user) /\ NoDup (map f_name event_class) /\
  exists t, dataclass_to_table events_env (dialect_options d plain_user) 3 ("m", "Event") = Ok t /\ length (t_columns t) = 7%nat.
Proof.
  intros I. split; [apply dialects_sane; intros m n [[= <- <-]|[]]; split; discriminate|].
  split; [simpl; repeat (constructor; [simpl; intuition discriminate|]); constructor|].
  simpl in I. destruct I as [<-|[<-|[<-|[<-|[]]]]]; (eexists; split; reflexivity).
Qed.
(** ten past nine in the evening of the first day of 2024, to the microsecond, is a value that MySQL alters when declared as [datetime] and keeps at precision 6 *)
Example C55_an_instant : value_of YDatetime (VDatetime (738885 * day_us + 76200000001)) /\ ~ kept (Instant 0) (VDatetime (738885 * day_us + 76200000001)) /\ kept (Instant 6) (VDatetime (738885 * day_us + 76200000001)).
Proof.
  split; [cbn [value_of]; unfold first_day, last_day, day_us; lia|]. split; [|left; lia].
  cbn [kept]. unfold micros, day_us. change (10 ^ (6 - 0))%Z with 1000000%Z. intros [X|[x X]]; lia.
Qed.
