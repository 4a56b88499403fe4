(** C31: engine-specific types are wide enough. *)
From Verif Require Import PyStr QuoteSpec QuoteModel ConstProofs Types Capacity.
From Coq Require Import ZArith.
Open Scope Z_scope.

(** The classes that the generators use: dialect/mysql/generator.py:52-57, dialect/mssql/generator.py:52-58,
    dialect/oracle/generator.py:60-72; PostgreSQL and all the rest: the generic types. *)
Definition text_type (e : engine) (limit : option Z) : sqltype :=
  match e with
  | MySQL => TSub MyVarChar (TVarChar limit) | SQLServer => TSub MsVarChar (TVarChar limit) | Oracle => TSub OraVarChar (TVarChar limit) | PostgreSQL => TVarChar limit
  end.
Definition int_type (e : engine) (width : Z) : sqltype :=
  match e with Oracle => TSub OraInt (TInt 8 true None None) | _ => TInt width true None None end.
(** MySQL and Oracle have classes for byte strings of variable length, the other generators do not map [bytes]. *)
Inductive bytes_engine : Type := BMySQL | BOracle.
Definition bytes_type (e : bytes_engine) (limit : option Z) : sqltype :=
  match e with BMySQL => TSub MyVarBin (TVarBin limit) | BOracle => TSub OraVarBin (TVarBin limit) end.
Definition the_engine (e : bytes_engine) : engine := match e with BMySQL => MySQL | BOracle => Oracle end.

Lemma upto_paren_app name r : any_char (fun c => Ascii.eqb c "(") name = false -> upto_paren (name ++ String "(" r) = (name, String "(" r).
Proof.
  induction name as [|c s IH]; [reflexivity|]. cbn [any_char]. intros H. apply Bool.orb_false_iff in H. destruct H as [H1 H2].
  change (String c s ++ String "(" r)%string with (String c (s ++ String "(" r)). cbn [upto_paren]. now rewrite H1, (IH H2).
Qed.
Lemma read_num name n : any_char (fun c => Ascii.eqb c "(") name = false -> 0 <= n ->
  read_spelling (name ++ "(" ++ z_to_str n ++ ")") = Some (name, Num n).
Proof.
  intros N P. unfold read_spelling. change ("(" ++ z_to_str n ++ ")")%string with (String "(" (z_to_str n ++ ")")). rewrite (upto_paren_app _ _ N).
  assert (S : scan_nat (z_to_str n ++ ")") = Some (Z.to_N n, ")"%string)).
  { destruct n as [|p|p]; [reflexivity| |lia]. cbn [z_to_str Z.to_N]. apply scan_nat_app. intros (c & r & E & D). injection E as <- <-. discriminate D. }
  rewrite S. rewrite Z2N.id by exact P. destruct (z_to_str n ++ ")")%string as [|c r] eqn:E; [reflexivity|].
  destruct c as [[] [] [] [] [] [] [] []]; try reflexivity. destruct r as [|c r]; [reflexivity|].
  exfalso. clear N. destruct n as [|p|p]; [discriminate E| |lia]. cbn [z_to_str] in E. destruct (n_to_str_nonempty (N.pos p)) as (c' & r' & E' & D). rewrite E' in E. injection E as X Y. rewrite X in D. discriminate D.
Qed.
Lemma read_neg name n : any_char (fun c => Ascii.eqb c "(") name = false -> n < 0 -> read_spelling (name ++ "(" ++ z_to_str n ++ ")") = None.
Proof.
  intros N P. destruct n as [|p|p]; try lia. unfold read_spelling. cbn [z_to_str].
  change ("(" ++ ("-" ++ n_to_str (N.pos p)) ++ ")")%string with (String "(" (String "-" (n_to_str (N.pos p) ++ ")"))). now rewrite (upto_paren_app _ _ N).
Qed.
Definition table_of (e : engine) := match e with MySQL => mysql_type | SQLServer => mssql_type | Oracle => oracle_type | PostgreSQL => pg_type end.
Lemma server_num e name n : any_char (fun c => Ascii.eqb c "(") name = false ->
  server_type e (name ++ "(" ++ z_to_str n ++ ")") = if 0 <=? n then table_of e name (Num n) else None.
Proof.
  intros N. unfold server_type. destruct (0 <=? n) eqn:A; [rewrite read_num by (try assumption; lia); destruct e; reflexivity|rewrite read_neg by (try assumption; lia); reflexivity].
Qed.
Lemma server_varchar e n : server_type e ("varchar(" ++ z_to_str n ++ ")") = if 0 <=? n then table_of e "varchar" (Num n) else None.
Proof. exact (server_num e "varchar" n eq_refl). Qed.
Lemma server_varchar2 e n : server_type e ("varchar2(" ++ z_to_str n ++ ")") = if 0 <=? n then table_of e "varchar2" (Num n) else None.
Proof. exact (server_num e "varchar2" n eq_refl). Qed.
Lemma server_varbinary e n : server_type e ("varbinary(" ++ z_to_str n ++ ")") = if 0 <=? n then table_of e "varbinary" (Num n) else None.
Proof. exact (server_num e "varbinary" n eq_refl). Qed.
Lemma server_raw e n : server_type e ("raw(" ++ z_to_str n ++ ")") = if 0 <=? n then table_of e "raw" (Num n) else None.
Proof. exact (server_num e "raw" n eq_refl). Qed.

(** what the server makes of the spelling *)
Definition text_capacity (e : engine) (n : Z) : option capacity :=
  match e with
  | MySQL => if n <? 0 then None else if n <? 2 ^ 16 then Some (Chars n) else if n <? 2 ^ 24 then Some (TextBytes (2 ^ 24 - 1)) else if n <? 2 ^ 32 then Some (TextBytes (2 ^ 32 - 1)) else None
  | SQLServer => if (n <=? 0) || (n =? 2 ^ 31 - 1) then Some (TextBytes (2 ^ 31 - 1)) else if n <=? 8000 then Some (TextBytes n) else None
  | Oracle => if n <? 1 then None else if n <=? 4000 then Some (TextBytes n) else Some (Chars (2 ^ 32 - 1))
  | PostgreSQL => if (1 <=? n) && (n <=? 10485760) then Some (Chars n) else None
  end%bool.
Ltac decide_le := repeat match goal with
  | |- context [?a <=? ?b] => destruct (Z.leb_spec a b); try lia
  | |- context [?a <? ?b] => destruct (Z.ltb_spec a b); try lia
  | |- context [?a =? ?b] => destruct (Z.eqb_spec a b); try lia
  end.
Definition created (e : engine) (t : sqltype) : option capacity := match type_str t with Ok s => server_type e s | Err _ => None end.
Lemma text_capacity_ok e n : created e (text_type e (Some n)) = text_capacity e n.
Proof.
  unfold created, text_capacity. destruct e; cbn [text_type type_str sub_str].
  - change 65536 with (2 ^ 16). change 16777216 with (2 ^ 24). change 4294967296 with (2 ^ 32). decide_le; try reflexivity; rewrite server_varchar; cbn; unfold in_range; decide_le; reflexivity.
  - change 2147483647 with (2 ^ 31 - 1). decide_le; cbn [andb orb negb]; try reflexivity; rewrite server_varchar; cbn; unfold in_range; decide_le; reflexivity.
  - decide_le; try reflexivity; rewrite server_varchar2; cbn; unfold in_range; decide_le; reflexivity.
  - rewrite server_varchar. decide_le; cbn; unfold in_range; decide_le; reflexivity.
Qed.

(** ** The theorems *)
(** A column for texts of up to [n] characters holds them all, if the server accepts the statement.  (Texts of one-byte
    characters; see below for the others.) *)
Theorem C31_text_wide_enough : forall e n s c t, type_str (text_type e (Some n)) = Ok s -> server_type e s = Some c ->
  text_ok t -> ascii_only t -> chars t <= n -> chars t <= most_text e -> fits_text c t.
Proof.
  intros e n s c [ch sz] E S [O1 O2] A L M. assert (X := text_capacity_ok e n). unfold created in X. rewrite E, S in X. unfold ascii_only in A. cbn in *. subst sz.
  destruct e; cbn in X; revert X; decide_le; cbn; intros [= ->]; cbn in *; lia.
Qed.
Print Assumptions C31_text_wide_enough.

(** The limits that a server accepts; no other limit produces a column. *)
Theorem C31_text_accepted_iff : forall e n, (exists s c, type_str (text_type e (Some n)) = Ok s /\ server_type e s = Some c) <->
  match e with
  | MySQL => 0 <= n < 2 ^ 32
  | SQLServer => n <= 8000 \/ n = 2 ^ 31 - 1
  | Oracle => 1 <= n
  | PostgreSQL => 1 <= n <= 10485760
  end.
Proof.
  intros e n. transitivity (created e (text_type e (Some n)) <> None).
  - unfold created. destruct (type_str (text_type e (Some n))) as [s|x].
    + split; [intros (s' & c & [= <-] & ->); discriminate|]. destruct (server_type e s) as [c|] eqn:X; [exists s, c; auto|congruence].
    + split; [intros (s' & c & [=] & _)|congruence].
  - rewrite text_capacity_ok. unfold text_capacity. destruct e; decide_le; cbn; split; intros H'; try lia; try congruence.
Qed.
Print Assumptions C31_text_accepted_iff.

(** A limit beyond the largest MySQL type is refused by the library. *)
Theorem C31_mysql_limit_refused : forall n, type_str (text_type MySQL (Some n)) = Err "ValueError" <-> 2 ^ 32 <= n.
Proof. intros n. cbn [text_type type_str sub_str]. change 4294967296 with (2 ^ 32). decide_le; split; intros X; try lia; try discriminate X; reflexivity. Qed.
Print Assumptions C31_mysql_limit_refused.

(** Texts of any characters fit as long as the engine counts characters. *)
Theorem C31_text_multibyte : forall e n s c t, type_str (text_type e (Some n)) = Ok s -> server_type e s = Some c ->
  match e with MySQL => n < 2 ^ 16 | SQLServer => False | Oracle => 4000 < n | PostgreSQL => True end ->
  text_ok t -> chars t <= n -> chars t <= most_text e -> fits_text c t.
Proof.
  intros e n s c [ch sz] E S D [O1 O2] L M. assert (X := text_capacity_ok e n). unfold created in X. rewrite E, S in X. cbn in *.
  destruct e; cbn in X; revert X; decide_le; cbn; intros [= ->]; cbn in *; lia.
Qed.
Print Assumptions C31_text_multibyte.

(** Without a limit the largest type of the engine is chosen (not on MySQL, see below). *)
Theorem C31_unlimited_text : forall e, e <> MySQL -> exists s c, type_str (text_type e None) = Ok s /\ server_type e s = Some c /\
  forall t, text_ok t -> ascii_only t -> chars t <= most_text e -> fits_text c t.
Proof.
  intros [] N; try congruence; (eexists; eexists; split; [reflexivity|split; [reflexivity|]]); intros [ch sz] [O1 O2] A L; unfold ascii_only in A; cbn in *; lia.
Qed.
Print Assumptions C31_unlimited_text.
(** The MySQL generator maps [str] to a limit of 2^24 - 1. *)
Theorem C31_mysql_plain_text : exists s c, type_str (text_type MySQL (Some 16777215)) = Ok s /\ server_type MySQL s = Some c /\
  forall t, ascii_only t -> chars t <= 2 ^ 24 - 1 -> fits_text c t.
Proof. eexists; eexists; split; [reflexivity|split; [reflexivity|]]. intros [ch sz] A L; unfold ascii_only in A; cbn in *; lia. Qed.
Print Assumptions C31_mysql_plain_text.

(** Byte strings, MySQL and Oracle *)
Definition bytes_capacity (e : bytes_engine) (n : Z) : option capacity :=
  match e with
  | BMySQL => if n <? 0 then None else if n <? 2 ^ 16 then Some (Bytes n) else if n <? 2 ^ 24 then Some (Bytes (2 ^ 24 - 1)) else if n <? 2 ^ 32 then Some (Bytes (2 ^ 32 - 1)) else None
  | BOracle => if n <? 1 then None else if n <=? 2000 then Some (Bytes n) else Some (Bytes (2 ^ 32 - 1))
  end.
Lemma bytes_capacity_ok e n : created (the_engine e) (bytes_type e (Some n)) = bytes_capacity e n.
Proof.
  unfold created, bytes_capacity. destruct e; cbn [bytes_type the_engine type_str sub_str].
  - change 65536 with (2 ^ 16). change 16777216 with (2 ^ 24). change 4294967296 with (2 ^ 32). decide_le; try reflexivity; rewrite server_varbinary; cbn; unfold in_range; decide_le; reflexivity.
  - decide_le; try reflexivity; rewrite server_raw; cbn; unfold in_range; decide_le; reflexivity.
Qed.
Theorem C31_bytes_wide_enough : forall e n s c m, type_str (bytes_type e (Some n)) = Ok s -> server_type (the_engine e) s = Some c ->
  m <= n -> m <= most_bytes (the_engine e) -> fits_bytes c m.
Proof.
  intros e n s c m E S L M. assert (X := bytes_capacity_ok e n). unfold created in X. rewrite E, S in X. cbn in *.
  destruct e; cbn in X; revert X; decide_le; cbn; intros [= ->]; cbn in *; lia.
Qed.
Print Assumptions C31_bytes_wide_enough.
Theorem C31_bytes_accepted_iff : forall e n, (exists s c, type_str (bytes_type e (Some n)) = Ok s /\ server_type (the_engine e) s = Some c) <->
  match e with BMySQL => 0 <= n < 2 ^ 32 | BOracle => 1 <= n end.
Proof.
  intros e n. transitivity (created (the_engine e) (bytes_type e (Some n)) <> None).
  - unfold created. destruct (type_str (bytes_type e (Some n))) as [s|x].
    + split; [intros (s' & c & [= <-] & ->); discriminate|]. destruct (server_type (the_engine e) s) as [c|] eqn:X; [exists s, c; auto|congruence].
    + split; [intros (s' & c & [=] & _)|congruence].
  - rewrite bytes_capacity_ok. unfold bytes_capacity. destruct e; decide_le; cbn; split; intros H'; try lia; try congruence.
Qed.
Print Assumptions C31_bytes_accepted_iff.

(** Integers: a type of [w] bytes holds all the integers of [w] bytes.  SQL Server's one-byte type does not. *)
Theorem C31_integers_wide_enough : forall e w s c z, type_str (int_type e w) = Ok s -> server_type e s = Some c -> (e = SQLServer -> w <> 1) ->
  - 2 ^ (8 * w - 1) <= z < 2 ^ (8 * w - 1) -> (e = Oracle -> w <= 8) -> fits_int c z.
Proof.
  intros e w s c z E S D Z O.
  assert (P : w <= 8 -> - 2 ^ 63 <= z < 2 ^ 63).
  { intros W. assert (2 ^ (8 * w - 1) <= 2 ^ 63); [|lia]. apply Z.pow_le_mono_r; lia. }
  destruct e; cbn [int_type type_str sub_str] in E;
    try (injection E as <-; cbv in S; injection S as <-; specialize (P (O eq_refl)); cbn; lia);
    (revert E; destruct (Z.eqb_spec w 1) as [-> |]; [|destruct (Z.eqb_spec w 2) as [-> |]; [|destruct (Z.eqb_spec w 4) as [-> |]; [|destruct (Z.eqb_spec w 8) as [-> |]]]];
     intros E; try discriminate E; injection E as <-; cbv in S; try discriminate S; injection S as <-; cbn in *; try lia; exfalso; apply D; reflexivity).
Qed.
Print Assumptions C31_integers_wide_enough.
Theorem C31_integers_accepted_iff : forall e w, (exists s c, type_str (int_type e w) = Ok s /\ server_type e s = Some c) <->
  match e with Oracle => True | PostgreSQL => w = 2 \/ w = 4 \/ w = 8 | _ => w = 1 \/ w = 2 \/ w = 4 \/ w = 8 end.
Proof.
  intros e w. split.
  - intros (s & c & E & S). destruct e; [| |exact I|]; cbn [int_type type_str sub_str] in E;
    (revert E; destruct (Z.eqb_spec w 1) as [-> |]; [|destruct (Z.eqb_spec w 2) as [-> |]; [|destruct (Z.eqb_spec w 4) as [-> |]; [|destruct (Z.eqb_spec w 8) as [-> |]]]];
     intros E; try discriminate E; injection E as <-; cbv in S; try discriminate S; tauto).
  - destruct e; intros H; repeat destruct H as [H|H]; subst; (eexists; eexists; split; [reflexivity|reflexivity]).
Qed.
Print Assumptions C31_integers_accepted_iff.

(** ** What does not hold *)
(** A text of [n] characters does not fit into the column for [n] characters if some of them take several bytes. *)
Theorem C31_multibyte_refuted : exists n s c t, type_str (text_type MySQL (Some n)) = Ok s /\ server_type MySQL s = Some c /\ text_ok t /\ chars t <= n /\ ~ fits_text c t.
Proof. exists 16777215; eexists; eexists; exists (Text 8388608 16777216). split; [reflexivity|]. split; [reflexivity|]. unfold text_ok, fits_text; cbn [chars size]. repeat split; lia. Qed.
Print Assumptions C31_multibyte_refuted.
Theorem C31_mssql_multibyte_refuted : exists n s c t, type_str (text_type SQLServer (Some n)) = Ok s /\ server_type SQLServer s = Some c /\ text_ok t /\ chars t <= n /\ ~ fits_text c t.
Proof. exists 10; exists "varchar(10)"%string, (TextBytes 10); exists (Text 10 11). split; [reflexivity|]. split; [reflexivity|]. unfold text_ok, fits_text; cbn [chars size]. repeat split; lia. Qed.
Print Assumptions C31_mssql_multibyte_refuted.
(** No limit means 16 MiB on MySQL although the engine has a larger type. *)
Theorem C31_mysql_unlimited_refuted : exists s c t, type_str (text_type MySQL None) = Ok s /\ server_type MySQL s = Some c /\ text_ok t /\ ascii_only t /\ chars t <= most_text MySQL /\ ~ fits_text c t.
Proof. eexists; eexists; exists (Text 16777216 16777216). split; [reflexivity|]. split; [reflexivity|]. unfold ascii_only, text_ok, fits_text; cbn [chars size most_text]. repeat split; lia. Qed.
Print Assumptions C31_mysql_unlimited_refuted.
(** A limit between 8001 and 2^31 - 2 is spelled with the limit, which SQL Server rejects, although varchar(max) would do. *)
Theorem C31_mssql_limit_rejected_refuted : exists n s, n <= most_text SQLServer /\ type_str (text_type SQLServer (Some n)) = Ok s /\ server_type SQLServer s = None.
Proof. exists 8001; eexists. split; [cbn; lia|]. split; reflexivity. Qed.
Print Assumptions C31_mssql_limit_rejected_refuted.
(** The one-byte integer type of SQL Server is unsigned. *)
Theorem C31_mssql_tinyint_refuted : exists s c z, type_str (int_type SQLServer 1) = Ok s /\ server_type SQLServer s = Some c /\ - 2 ^ 7 <= z < 2 ^ 7 /\ ~ fits_int c z.
Proof. eexists; eexists; exists (-1). split; [reflexivity|]. split; [reflexivity|]. cbn. lia. Qed.
Print Assumptions C31_mssql_tinyint_refuted.
(** An unsigned type is spelled as the signed one of the same width. *)
Theorem C31_unsigned_refuted : exists w s c z, type_str (TInt w false None None) = Ok s /\ server_type PostgreSQL s = Some c /\ 0 <= z < 2 ^ (8 * w) /\ ~ fits_int c z.
Proof. exists 4; eexists; eexists; exists (2 ^ 31). split; [reflexivity|]. split; [reflexivity|]. cbn. lia. Qed.
Print Assumptions C31_unsigned_refuted.
(** A limit beyond the largest Oracle type is not refused. *)
Theorem C31_oracle_huge_refuted : exists n s c t, type_str (text_type Oracle (Some n)) = Ok s /\ server_type Oracle s = Some c /\ text_ok t /\ ascii_only t /\ chars t <= n /\ ~ fits_text c t.
Proof. exists (2 ^ 32); eexists; eexists; exists (Text (2 ^ 32) (2 ^ 32)). split; [reflexivity|]. split; [reflexivity|]. unfold ascii_only, text_ok, fits_text; cbn [chars size most_text]. repeat split; lia. Qed.
Print Assumptions C31_oracle_huge_refuted.

Example C31_ex : type_str (text_type MySQL (Some 65535)) = Ok "varchar(65535)"%string /\ type_str (text_type MySQL (Some 65536)) = Ok "mediumtext"%string /\
  type_str (text_type Oracle (Some 4000)) = Ok "varchar2(4000)"%string /\ type_str (text_type Oracle (Some 4001)) = Ok "clob"%string.
Proof. repeat split. Qed.
