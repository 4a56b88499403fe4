(** C30: data types survive the round trip through the database. *)
From Verif Require Import PyStr QuoteSpec QuoteModel QuoteProofs ConstProofs Types Capacity Discover DiscoverSpec DiscoverProofs.
From Coq Require Import ZArith.
Open Scope Z_scope.
Open Scope string_scope.

(** The type that the explorer finds for a column that was created with type [t]; [None]: there is no such column. *)
Definition found_mysql (t : sqltype) : option (res sqltype) :=
  match type_str t with
  | Ok s => match mysql_report s with
            | Some r => Some (mysql_discover (data_type r) (column_type r) (my_chars r) (my_precision r) (my_scale r) (my_fraction r))
            | None => None
            end
  | Err _ => None
  end.
Definition found_mssql (t : sqltype) : option (res sqltype) :=
  match type_str t with
  | Ok s => match mssql_report s with
            | Some r => Some (mssql_discover (ms_type r) (ms_chars r) (ms_precision r) (ms_scale r) (ms_fraction r))
            | None => None
            end
  | Err _ => None
  end.
Definition found_oracle (w : Z) (t : sqltype) : option (res sqltype) :=
  match type_str t with
  | Ok s => match oracle_report w s with
            | Some r => Some (oracle_discover (ora_type r) None (ora_chars r) (ora_length r) (ora_precision r) (ora_scale r))
            | None => None
            end
  | Err _ => None
  end.
Definition found_pg (show : option string -> string -> string) (t : sqltype) : option (res sqltype) :=
  match type_str t with
  | Ok s => match pg_report_of show s with
            | Some r => Some (pg_discover (typname r) (nspname r) (formatted r) (array r))
            | None => None
            end
  | Err _ => None
  end.
Definition int_of (w : Z) : sqltype := TInt w true None None.

(** ** MySQL *)
(** no apostrophe, backslash or newline *)
Definition plain_label (v : string) : Prop := forall c, In c (list_ascii_of_string v) -> c <> QT /\ c <> BS /\ c <> LF.
Inductive mysql_faithful : sqltype -> Prop :=
| my_ints w : In w [1; 2; 4; 8] -> mysql_faithful (int_of w)
| my_double : mysql_faithful TDouble
| my_date : mysql_faithful TDate
| my_json : mysql_faithful TJson
| my_time : mysql_faithful (TTime None false)
| my_timep p : 1 <= p <= 6 -> mysql_faithful (TTime (Some p) false)
| my_datetime : mysql_faithful (TSub MyDateTime (TTimestamp None false))
| my_datetimep p : 1 <= p <= 6 -> mysql_faithful (TSub MyDateTime (TTimestamp (Some p) false))
| my_decimal p s : 1 <= p <= 65 -> 0 <= s <= 30 -> s <= p -> mysql_faithful (TDecimal (Some p) (Some s))
| my_varchar n : 1 <= n <= 65535 \/ n = 2 ^ 24 - 1 \/ n = 2 ^ 32 - 1 -> mysql_faithful (TSub MyVarChar (TVarChar (Some n)))
| my_varbin n : 1 <= n <= 65535 \/ n = 2 ^ 24 - 1 \/ n = 2 ^ 32 - 1 -> mysql_faithful (TSub MyVarBin (TVarBin (Some n)))
| my_char n : 0 <= n <= 255 -> mysql_faithful (TFixChar (Some n))
| my_binary n : 0 <= n <= 255 -> mysql_faithful (TFixBin (Some n))
| my_enum vs : vs <> [] -> (forall v, In v vs -> plain_label v) -> mysql_faithful (TEnum vs).

Lemma plain_label_value v : plain_label v -> plain_value v = true.
Proof.
  unfold plain_label, plain_value. intros H. apply Bool.negb_true_iff. induction v as [|c v IH]; [reflexivity|]. cbn [any_char].
  destruct (H c (or_introl eq_refl)) as (H1 & H2 & H3). rewrite IH by (intros d I; apply H; now right). rewrite Bool.orb_false_r.
  apply Bool.orb_false_iff; split; [apply Bool.orb_false_iff; split|]; apply Ascii.eqb_neq; assumption.
Qed.
Lemma le_le_true lo n hi : lo <= n <= hi -> le_le lo n hi = true.
Proof. intros [A B]. unfold le_le. apply Bool.andb_true_iff. split; now apply Z.leb_le. Qed.
Lemma positive_keep n old : 1 <= n -> or_positive (Some n) old = Some n.
Proof. intros P. cbn. destruct (Z.ltb_spec 0 n); [reflexivity|lia]. Qed.
Lemma read_num1 name n : any_char (fun c => Ascii.eqb c "(") name = false -> 0 <= n -> read_type (num1 name n) = Some (name, [n], "").
Proof. intros N P. unfold num1. change (name ++ "(" ++ z_to_str n ++ ")") with (name ++ String "(" (z_to_str n ++ String ")" "")). now apply read_type_one. Qed.

Lemma app_nil s : s ++ "" = s.
Proof. induction s as [|c s IH]; [reflexivity|]. change (String c s ++ "") with (String c (s ++ "")). now rewrite IH. Qed.
Ltac my_num name n := unfold found_mysql, mysql_report; cbn [type_str sub_str paren tz_str]; rewrite ?app_nil;
  change (drop_prefix "ENUM (" (num1 name n)) with (@None string); cbn iota; rewrite (read_num1 name n eq_refl) by lia; cbn -[num1 from_spec le_le]; rewrite le_le_true by lia; cbn [when data_type column_type my_chars my_precision my_scale my_fraction].

Theorem C30_mysql : forall t, mysql_faithful t -> found_mysql t = Some (Ok t).
Proof.
  intros t F. destruct F as [w W| | | | |p P| |p P|p s P S L|n N|n N|n N|n N|vs NE PL]; try reflexivity.
  - cbn in W. destruct W as [<-|[<-|[<-|[<-|[]]]]]; reflexivity.
  - assert (T : type_str (TTime (Some p) false) = Ok (num1 "time" p)) by (cbn [type_str paren tz_str]; rewrite app_nil; reflexivity).
    unfold found_mysql. rewrite T. unfold mysql_report. change (drop_prefix "ENUM (" (num1 "time" p)) with (@None string). cbn iota. rewrite (read_num1 "time" p eq_refl) by lia.
    cbn -[num1 mysql_discover le_le]. rewrite le_le_true by lia. cbn [when data_type column_type my_chars my_precision my_scale my_fraction].
    destruct (Z.eqb_spec p 0); [lia|]. unfold mysql_discover, from_spec. change (look "time" mysql_subst) with (@None sqltype). cbn iota. rewrite def_time'. change (from_name "time" None) with (Some (TTime None false)). cbn -[or_positive]. now rewrite positive_keep by lia.
  - assert (T : type_str (TSub MyDateTime (TTimestamp (Some p) false)) = Ok (num1 "datetime" p)) by reflexivity.
    unfold found_mysql. rewrite T. unfold mysql_report. change (drop_prefix "ENUM (" (num1 "datetime" p)) with (@None string). cbn iota. rewrite (read_num1 "datetime" p eq_refl) by lia.
    cbn -[num1 mysql_discover le_le]. rewrite le_le_true by lia. cbn [when data_type column_type my_chars my_precision my_scale my_fraction].
    destruct (Z.eqb_spec p 0); [lia|]. cbn -[or_positive num1]. now rewrite positive_keep by lia.
  - assert (T : type_str (TDecimal (Some p) (Some s)) = Ok ("decimal" ++ String "(" (z_to_str p ++ ", " ++ z_to_str s ++ String ")" ""))) by reflexivity.
    unfold found_mysql. rewrite T. unfold mysql_report. rewrite read_type_two by (try reflexivity; lia). cbn iota.
    change (drop_prefix "ENUM (" ("decimal" ++ String "(" (z_to_str p ++ ", " ++ z_to_str s ++ String ")" ""))) with (@None string). cbn iota. change ("decimal" =? "decimal") with true. cbn iota.
    rewrite !le_le_true by lia. destruct (Z.leb_spec s p); [|lia]. cbn [andb when data_type column_type my_chars my_precision my_scale my_fraction].
    unfold mysql_discover, from_spec. change (look "decimal" mysql_subst) with (@None sqltype). cbn iota. rewrite def_two by (try (now left); lia). reflexivity.
  - assert (D : 1 <= n <= 65535 \/ n = 16777215 \/ n = 4294967295) by (cbn in N; lia). clear N. destruct D as [D|[-> | ->]]; [|reflexivity|reflexivity].
    assert (T : type_str (TSub MyVarChar (TVarChar (Some n))) = Ok (num1 "varchar" n)).
    { cbn [type_str sub_str]. destruct (Z.ltb_spec n 65536); [reflexivity|lia]. }
    unfold found_mysql. rewrite T. unfold mysql_report. change (drop_prefix "ENUM (" (num1 "varchar" n)) with (@None string). cbn iota. rewrite (read_num1 "varchar" n eq_refl) by lia.
    cbn -[num1 mysql_discover le_le]. rewrite le_le_true by lia. cbn [when data_type column_type my_chars my_precision my_scale my_fraction]. cbn -[or_positive num1]. now rewrite positive_keep by lia.
  - assert (D : 1 <= n <= 65535 \/ n = 16777215 \/ n = 4294967295) by (cbn in N; lia). clear N. destruct D as [D|[-> | ->]]; [|reflexivity|reflexivity].
    assert (T : type_str (TSub MyVarBin (TVarBin (Some n))) = Ok (num1 "varbinary" n)).
    { cbn [type_str sub_str]. destruct (Z.ltb_spec n 65536); [reflexivity|lia]. }
    unfold found_mysql. rewrite T. unfold mysql_report. change (drop_prefix "ENUM (" (num1 "varbinary" n)) with (@None string). cbn iota. rewrite (read_num1 "varbinary" n eq_refl) by lia.
    cbn -[num1 mysql_discover le_le]. rewrite le_le_true by lia. cbn [when data_type column_type my_chars my_precision my_scale my_fraction]. cbn -[or_positive num1]. now rewrite positive_keep by lia.
  - assert (T : type_str (TFixChar (Some n)) = Ok (num1 "char" n)) by reflexivity.
    unfold found_mysql. rewrite T. unfold mysql_report. change (drop_prefix "ENUM (" (num1 "char" n)) with (@None string). cbn iota. rewrite (read_num1 "char" n eq_refl) by lia.
    cbn -[num1 mysql_discover le_le]. rewrite le_le_true by lia. cbn [when data_type column_type my_chars my_precision my_scale my_fraction].
    unfold mysql_discover, from_spec. change (look "char" mysql_subst) with (@None sqltype). cbn iota. rewrite def_char by lia. reflexivity.
  - assert (T : type_str (TFixBin (Some n)) = Ok (num1 "binary" n)) by reflexivity.
    unfold found_mysql. rewrite T. unfold mysql_report. change (drop_prefix "ENUM (" (num1 "binary" n)) with (@None string). cbn iota. rewrite (read_num1 "binary" n eq_refl) by lia.
    cbn -[num1 mysql_discover le_le]. rewrite le_le_true by lia. cbn [when data_type column_type my_chars my_precision my_scale my_fraction].
    unfold mysql_discover, from_spec. change (look "binary" mysql_subst) with (@None sqltype). cbn iota. rewrite def_binary by lia. reflexivity.
  - assert (PV : forallb plain_value vs = true) by (apply forallb_forall; intros v I; apply plain_label_value, PL, I).
    unfold found_mysql. cbn [type_str]. unfold mysql_report, enum_type_str.
    change (drop_prefix "ENUM (" ("ENUM (" ++ join_str ", " (map quote vs) ++ ")")) with (Some (join_str ", " (map quote vs) ++ ")")). cbn iota. rewrite read_values_ok by (try assumption; lia).
    unfold mysql_discover, from_spec. cbn [data_type column_type my_chars my_precision my_scale my_fraction]. change (look "enum" mysql_subst) with (@None sqltype). cbn iota.
    fold (values_text vs). now rewrite def_enum.
Qed.
Print Assumptions C30_mysql.
(** the length of a text column: exactly these limits come back *)
Theorem C30_mysql_text_iff : forall n, (exists u, found_mysql (TSub MyVarChar (TVarChar (Some n))) = Some u) ->
  (found_mysql (TSub MyVarChar (TVarChar (Some n))) = Some (Ok (TSub MyVarChar (TVarChar (Some n)))) <-> 1 <= n <= 65535 \/ n = 2 ^ 24 - 1 \/ n = 2 ^ 32 - 1).
Proof.
  intros n [u U]. split; [|intros H; apply C30_mysql; now constructor].
  unfold found_mysql in *. cbn [type_str sub_str] in *. destruct (Z.ltb_spec n 65536).
  - destruct (Z.ltb_spec n 0) as [Ng|].
    + destruct n as [|p|p]; try lia. exfalso. unfold mysql_report in U. change (drop_prefix "ENUM (" ("varchar(" ++ z_to_str (Z.neg p) ++ ")")) with (@None string) in U. cbn iota in U.
      assert (R : read_type ("varchar(" ++ z_to_str (Z.neg p) ++ ")") = None) by reflexivity. rewrite R in U. discriminate U.
    + intros E. assert (n <> 0); [|lia]. intros ->. vm_compute in E. discriminate E.
  - destruct (Z.ltb_spec n 16777216); [|destruct (Z.ltb_spec n 4294967296); [|discriminate U]]; cbv -[Z.sub Z.pow]; intros [= <-]; cbn; lia.
Qed.
Print Assumptions C30_mysql_text_iff.

(** ** SQL Server *)
Inductive mssql_faithful : sqltype -> Prop :=
| ms_bit : mssql_faithful (TSub MsBool TBool)
| ms_ints w : In w [1; 2; 4; 8] -> mssql_faithful (int_of w)
| ms_real : mssql_faithful TReal
| ms_float : mssql_faithful (TFloat (Some 53))
| ms_date : mssql_faithful TDate
| ms_datetime : mssql_faithful (TSub MsDateTime (TTimestamp (Some 7) false))
| ms_time p : 1 <= p <= 7 -> mssql_faithful (TTime (Some p) false)
| ms_decimal p s : 1 <= p <= 38 -> 0 <= s <= p -> mssql_faithful (TDecimal (Some p) (Some s))
| ms_text : mssql_faithful (TSub MsVarChar (TVarChar None))
| ms_varchar n : 1 <= n <= 8000 -> mssql_faithful (TSub MsVarChar (TVarChar (Some n)))
| ms_char n : 1 <= n <= 8000 -> mssql_faithful (TFixChar (Some n))
| ms_binary n : 1 <= n <= 8000 -> mssql_faithful (TFixBin (Some n)).
Lemma not_max n : 0 <= n -> (num1 "varchar" n =? "varchar(max)") = false.
Proof.
  intros P. apply String.eqb_neq. intros E. unfold num1 in E. cbn [append] in E. injection E as E. destruct n as [|p|p]; [discriminate E| |lia].
  cbn [z_to_str] in E. destruct (n_to_str_nonempty (N.pos p)) as (c & r & X & D). rewrite X in E. change (String c r ++ ")") with (String c (r ++ ")")) in E. injection E as -> _. discriminate D.
Qed.
Theorem C30_mssql : forall t, mssql_faithful t -> found_mssql t = Some (Ok t).
Proof.
  intros t F. destruct F as [|w W| | | | |p P|p s P S| |n N|n N|n N]; try reflexivity.
  - cbn in W. destruct W as [<-|[<-|[<-|[<-|[]]]]]; reflexivity.
  - assert (T : type_str (TTime (Some p) false) = Ok (num1 "time" p)) by (cbn [type_str paren tz_str]; rewrite app_nil; reflexivity).
    unfold found_mssql. rewrite T. unfold mssql_report. change (num1 "time" p =? "varchar(max)") with false. cbn iota. rewrite (read_num1 "time" p eq_refl) by lia.
    cbn -[num1 mssql_discover le_le]. rewrite le_le_true by lia. cbn [when ms_type ms_chars ms_precision ms_scale ms_fraction].
    unfold mssql_discover, from_spec. change (look "time" mssql_subst) with (@None sqltype). cbn iota. change (from_name "time" None) with (Some (TTime None false)). cbn -[or_positive]. now rewrite positive_keep by lia.
  - assert (T : type_str (TDecimal (Some p) (Some s)) = Ok ("decimal" ++ String "(" (z_to_str p ++ ", " ++ z_to_str s ++ String ")" ""))) by reflexivity.
    unfold found_mssql. rewrite T. unfold mssql_report. rewrite read_type_two by (try reflexivity; lia).
    change ("decimal" ++ String "(" (z_to_str p ++ ", " ++ z_to_str s ++ String ")" "") =? "varchar(max)") with false. cbn iota. change ("decimal" =? "decimal") with true. cbn iota.
    rewrite !le_le_true by lia. reflexivity.
  - assert (T : type_str (TSub MsVarChar (TVarChar (Some n))) = Ok (num1 "varchar" n)).
    { cbn [type_str sub_str]. destruct (Z.ltb_spec 0 n); [|lia]. destruct (Z.eqb_spec n 2147483647); [lia|]. reflexivity. }
    unfold found_mssql. rewrite T. unfold mssql_report. rewrite not_max by lia. rewrite (read_num1 "varchar" n eq_refl) by lia.
    cbn -[num1 mssql_discover le_le]. rewrite le_le_true by lia. cbn [when ms_type ms_chars ms_precision ms_scale ms_fraction]. cbn -[or_positive num1]. now rewrite positive_keep by lia.
  - assert (T : type_str (TFixChar (Some n)) = Ok (num1 "char" n)) by reflexivity.
    unfold found_mssql. rewrite T. unfold mssql_report. change (num1 "char" n =? "varchar(max)") with false. cbn iota. rewrite (read_num1 "char" n eq_refl) by lia.
    cbn -[num1 mssql_discover le_le]. rewrite le_le_true by lia. reflexivity.
  - assert (T : type_str (TFixBin (Some n)) = Ok (num1 "binary" n)) by reflexivity.
    unfold found_mssql. rewrite T. unfold mssql_report. change (num1 "binary" n =? "varchar(max)") with false. cbn iota. rewrite (read_num1 "binary" n eq_refl) by lia.
    cbn -[num1 mssql_discover le_le]. rewrite le_le_true by lia. reflexivity.
Qed.
Print Assumptions C30_mssql.

(** ** Oracle *)
Inductive oracle_faithful : sqltype -> Prop :=
| ora_int : oracle_faithful (TSub OraInt (int_of 8))
| ora_bool : oracle_faithful TBool
| ora_date : oracle_faithful TDate
| ora_time : oracle_faithful (TSub OraTime (TTime None false))
| ora_timestamp : oracle_faithful (TSub OraTimestamp (TTimestamp None false))
| ora_clob : oracle_faithful (TSub OraVarChar (TVarChar None))
| ora_varchar n : 1 <= n <= 4000 -> oracle_faithful (TSub OraVarChar (TVarChar (Some n)))
| ora_blob : oracle_faithful (TSub OraVarBin (TVarBin None))
| ora_raw n : 1 <= n <= 2000 -> oracle_faithful (TSub OraVarBin (TVarBin (Some n)))
| ora_char n : 1 <= n <= 2000 -> oracle_faithful (TFixChar (Some n))
| ora_float p : 1 <= p <= 126 -> oracle_faithful (TFloat (Some p)).
Theorem C30_oracle : forall w t, oracle_faithful t -> found_oracle w t = Some (Ok t).
Proof.
  intros w t F. destruct F as [ | | | | | |n N| |n N|n N|p P]; try reflexivity.
  - assert (T : type_str (TSub OraVarChar (TVarChar (Some n))) = Ok (num1 "varchar2" n)).
    { cbn [type_str sub_str]. destruct (Z.leb_spec n 4000); [reflexivity|lia]. }
    unfold found_oracle. rewrite T. unfold oracle_report. change (num1 "varchar2" n =? "interval day to second") with false. cbn iota. rewrite (read_num1 "varchar2" n eq_refl) by lia.
    cbn -[num1 oracle_discover le_le]. rewrite le_le_true by lia. cbn [when ora_type ora_chars ora_length ora_precision ora_scale]. unfold oracle_discover.
    destruct (Z.eqb_spec n 0); [lia|]. cbn -[or_positive]. now rewrite positive_keep by lia.
  - assert (T : type_str (TSub OraVarBin (TVarBin (Some n))) = Ok (num1 "raw" n)).
    { cbn [type_str sub_str]. destruct (Z.leb_spec n 2000); [reflexivity|lia]. }
    unfold found_oracle. rewrite T. unfold oracle_report. change (num1 "raw" n =? "interval day to second") with false. cbn iota. rewrite (read_num1 "raw" n eq_refl) by lia.
    cbn -[num1 oracle_discover le_le]. rewrite le_le_true by lia. cbn [when ora_type ora_chars ora_length ora_precision ora_scale]. unfold oracle_discover.
    cbn -[or_positive]. now rewrite positive_keep by lia.
  - assert (T : type_str (TFixChar (Some n)) = Ok (num1 "char" n)) by reflexivity.
    unfold found_oracle. rewrite T. unfold oracle_report. change (num1 "char" n =? "interval day to second") with false. cbn iota. rewrite (read_num1 "char" n eq_refl) by lia.
    cbn -[num1 oracle_discover le_le]. rewrite le_le_true by lia. cbn [when ora_type ora_chars ora_length ora_precision ora_scale]. unfold oracle_discover.
    destruct (Z.eqb_spec n 0); [lia|]. reflexivity.
  - assert (T : type_str (TFloat (Some p)) = Ok (num1 "float" p)) by reflexivity.
    unfold found_oracle. rewrite T. unfold oracle_report. change (num1 "float" p =? "interval day to second") with false. cbn iota. rewrite (read_num1 "float" p eq_refl) by lia.
    cbn -[num1 oracle_discover le_le]. rewrite le_le_true by lia. reflexivity.
Qed.
Print Assumptions C30_oracle.

(** ** PostgreSQL *)
(** types whose spelling has no argument *)
Inductive pg_simple : sqltype -> Prop :=
| pg_bool : pg_simple TBool
| pg_ints w : In w [2; 4; 8] -> pg_simple (int_of w)
| pg_real : pg_simple TReal
| pg_double : pg_simple TDouble
| pg_decimal0 : pg_simple (TDecimal None None)
| pg_text : pg_simple (TVarChar None)
| pg_date : pg_simple TDate
| pg_time : pg_simple (TTime None false)
| pg_timestamp : pg_simple (TTimestamp None false)
| pg_uuid : pg_simple TUuid
| pg_json : pg_simple TJson
| pg_jsonb : pg_simple (TSub PgJson TJson)
| pg_inet : pg_simple (TUser (Global "inet")).
(** a user-defined type, unless its name is that of a built-in type in any case *)
Definition user_type (t : sqltype) : Prop :=
  exists ns name, t = TUser (Qualified (Some ns) name) /\ ns <> "pg_catalog" /\ ns <> "SYS" /\
    forall b, In b ["bool"; "boolean"; "tinyint"; "tinyint(1)"; "int1"; "smallint"; "int2"; "integer"; "int"; "int4"; "bigint"; "int8"; "decimal"; "number"; "numeric"; "real"; "float4";
      "double"; "double precision"; "float8"; "float"; "timestamp"; "timestamp without time zone"; "timestamp with time zone"; "datetime"; "date"; "time"; "time without time zone";
      "time with time zone"; "char"; "character"; "varchar"; "character varying"; "text"; "binary"; "varbinary"; "binary varying"; "bytea"; "json"; "jsonb"; "uuid"] -> Url.lower name <> b.
Inductive pg_faithful : sqltype -> Prop :=
| pg_plain t : pg_simple t -> pg_faithful t
| pg_user t : user_type t -> pg_faithful t
| pg_array t : pg_simple t -> pg_faithful (TArray t)
| pg_user_array t : user_type t -> pg_faithful (TArray t)
| pg_varchar n : 1 <= n <= 10485760 -> pg_faithful (TVarChar (Some n))
| pg_char n : 1 <= n <= 10485760 -> pg_faithful (TFixChar (Some n))
| pg_timestampp p : 0 <= p <= 6 -> pg_faithful (TTimestamp (Some p) false)
| pg_timestamptz p : 0 <= p <= 6 -> pg_faithful (TTimestamp (Some p) true)
| pg_decimal p s : 1 <= p <= 1000 -> 0 <= s <= p -> pg_faithful (TDecimal (Some p) (Some s)).

Lemma cut_suffix_app suf x : cut_suffix suf (x ++ suf) = Some x.
Proof.
  induction x as [|c x IH].
  - cbn [append]. destruct suf; [reflexivity|]. cbn [cut_suffix]. now rewrite String.eqb_refl.
  - change (String c x ++ suf) with (String c (x ++ suf)). cbn [cut_suffix]. rewrite IH.
    destruct (String c (x ++ suf) =? suf) eqn:E; [|reflexivity]. apply String.eqb_eq in E. exfalso. apply (f_equal String.length) in E. cbn in E. rewrite append_length in E. lia.
Qed.
Lemma cut_suffix_some suf s x : cut_suffix suf s = Some x -> s = x ++ suf.
Proof.
  revert x. induction s as [|c s IH]; cbn [cut_suffix]; intros x.
  - destruct ("" =? suf) eqn:E; [|discriminate]. apply String.eqb_eq in E. subst. intros [= <-]. reflexivity.
  - destruct (String c s =? suf) eqn:E; [apply String.eqb_eq in E; subst; intros [= <-]; reflexivity|]. destruct (cut_suffix suf s) as [t|]; [|discriminate]. intros [= <-]. change (String c t ++ suf) with (String c (t ++ suf)). now rewrite <- (IH t eq_refl).
Qed.
Lemma no_array s c : c <> "Y"%char -> cut_suffix " ARRAY" (s ++ String c "") = None.
Proof.
  intros N. destruct (cut_suffix " ARRAY" (s ++ String c "")) as [x|] eqn:E; [|reflexivity]. apply cut_suffix_some in E. exfalso. apply N.
  assert (B : but_last (s ++ String c "") = Some (x ++ " ARRA", "Y"%char)). { rewrite E. rewrite <- (but_last_app (x ++ " ARRA") "Y"). rewrite append_assoc. reflexivity. }
  rewrite but_last_app in B. now injection B.
Qed.

(** What the regular expressions match begins with a keyword and a parenthesis. *)
Definition unmatched (s : string) : Prop :=
  (exists r, s = String DQ r) \/ any_char (Ascii.eqb "(") s = false \/ exists a r, s = a ++ "." ++ String DQ r /\ any_char (Ascii.eqb "(") a = false.
Lemma re_word_split k s t : re_word k s = Some t -> exists p, s = p ++ t /\ Url.lower p = k.
Proof.
  revert s. induction k as [|a k IH]; intros s.
  - destruct s; intros [= <-]; exists ""; auto.
  - destruct s as [|b s]; [discriminate|]. cbn. destruct (Ascii.eqb a (Url.lower_char b)) eqn:E; [|discriminate]. intros H. destruct (IH s H) as (p & -> & L). apply Ascii.eqb_eq in E. exists (String b p). split; [reflexivity|]. cbn. now rewrite <- E, L.
Qed.
Lemma re_words_split kws s t : re_words kws s = Some t -> exists p, s = p ++ String "(" t /\ In (Url.lower p) kws.
Proof.
  induction kws as [|k kws IH]; [discriminate|]. cbn [re_words]. destruct (re_word k s) as [w|] eqn:E.
  - destruct (re_word_split k s w E) as (p & -> & L). destruct w as [|c w]; [intros H; destruct (IH H) as (q & Q & I); exists q; split; [exact Q|now right]|].
    destruct c as [[] [] [] [] [] [] [] []]; try (intros H; destruct (IH H) as (q & Q & I); exists q; split; [exact Q|now right]; fail). intros [= <-]. exists p. split; [reflexivity|now left].
  - intros H; destruct (IH H) as (q & Q & I); exists q; split; [exact Q|now right].
Qed.
Definition odd (c : ascii) : bool := (Ascii.eqb c "." || Ascii.eqb c DQ)%bool.
Lemma odd_lower p : any_char odd p = any_char odd (Url.lower p).
Proof. induction p as [|c p IH]; [reflexivity|]. cbn [any_char Url.lower]. rewrite <- IH. f_equal. destruct c as [[] [] [] [] [] [] [] []]; reflexivity. Qed.
Lemma dot_inside a r p t : a ++ String "." r = p ++ String "(" t -> any_char (Ascii.eqb "(") a = false -> any_char odd p = true.
Proof.
  revert p. induction a as [|c a IH]; intros p E N.
  - destruct p as [|d p]; [discriminate E|]. injection E as <- _. reflexivity.
  - destruct p as [|d p].
    + injection E as -> _. discriminate N.
    + injection E as -> E. cbn [any_char] in *. apply Bool.orb_false_iff in N. destruct N as [_ N]. rewrite (IH p E N). apply Bool.orb_true_r.
Qed.
Lemma unmatched_words kws s : unmatched s -> (forall k, In k kws -> k <> "" /\ any_char odd k = false) -> re_words kws s = None.
Proof.
  intros U K. destruct (re_words kws s) as [t|] eqn:E; [|reflexivity]. exfalso. destruct (re_words_split _ _ _ E) as (p & S & I). destruct (K _ I) as [K1 K2]. rewrite <- odd_lower in K2.
  destruct U as [[r U]|[U|(a & r & U & N)]].
  - rewrite U in S. destruct p as [|c p]; [discriminate S|]. injection S as <- _. discriminate K2.
  - rewrite S, any_char_app in U. cbn [any_char] in U. change (Ascii.eqb "(" "(") with true in U. cbn in U. rewrite Bool.orb_true_r in U. discriminate U.
  - rewrite U in S. change (a ++ "." ++ String DQ r) with (a ++ String "." (String DQ r)) in S. rewrite (dot_inside _ _ _ _ S N) in K2. discriminate K2.
Qed.
Lemma unmatched_def s : unmatched s -> from_def s = None.
Proof.
  intros U. unfold from_def, re_two, re_timestamp, re_one, re_enum.
  rewrite !(unmatched_words _ s U); [reflexivity|..]; cbn; intros k I; repeat (destruct I as [<-|I]; [split; [discriminate|reflexivity]|]); destruct I.
Qed.
Lemma look_none n l : ~ In n (map fst l) -> look n l = None.
Proof. induction l as [|[m t] l IH]; [reflexivity|]. cbn. intros H. destruct (m =? n) eqn:E; [apply String.eqb_eq in E; subst; exfalso; apply H; now left|]. apply IH. intros I. apply H. now right. Qed.
Lemma user_found ns name def arr : user_type (TUser (Qualified (Some ns) name)) -> unmatched def ->
  pg_discover name ns def arr = Ok (if arr then TArray (TUser (Qualified (Some ns) name)) else TUser (Qualified (Some ns) name)).
Proof.
  intros (ns' & name' & [= <- <-] & N1 & N2 & B) U. unfold pg_discover, from_spec.
  destruct (ns =? "pg_catalog") eqn:E1; [apply String.eqb_eq in E1; congruence|]. destruct (ns =? "SYS") eqn:E2; [apply String.eqb_eq in E2; congruence|]. cbn [orb].
  rewrite (unmatched_def def U). unfold from_name. rewrite look_none; [reflexivity|]. intros I. exact (B _ I eq_refl).
Qed.
Lemma unmatched_array s : unmatched s -> unmatched (s ++ "[]").
Proof.
  intros [[r ->]|[U|(a & r & -> & N)]]; [left; eexists; reflexivity|right; left; rewrite any_char_app, U; reflexivity|right; right].
  exists a, (r ++ "[]"). split; [|exact N]. rewrite !append_assoc. reflexivity.
Qed.
Lemma quoted_shape ns name : exists s, quoted_id (Qualified (Some ns) name) = s ++ String DQ "" /\ exists r, s = String DQ r.
Proof.
  eexists (str1 DQ ++ quote_id ns ++ str1 DQ ++ "." ++ str1 DQ ++ quote_id name). split; [|eexists; reflexivity]. cbn [quoted_id]. rewrite !append_assoc. reflexivity.
Qed.

Theorem C30_postgresql : forall show t, show_ok show -> pg_faithful t -> found_pg show t = Some (Ok t).
Proof.
  intros show t SH F. destruct F as [t F|t F|t F|t F|n N|n N|p P|p P|p s P S].
  - destruct F as [|w W| | | | | | | | | | |]; try reflexivity. cbn in W. destruct W as [<-|[<-|[<-|[]]]]; reflexivity.
  - assert (F' := F). destruct F as (ns & name & -> & _). unfold found_pg. cbn [type_str]. unfold pg_report_of.
    assert (C : cut_suffix " ARRAY" (quoted_id (Qualified (Some ns) name)) = None). { destruct (quoted_shape ns name) as (s & -> & _). now apply no_array. }
    rewrite C. rewrite <- (app_nil (quoted_id (Qualified (Some ns) name))). rewrite qualified_scan by (try discriminate; apply not_begins_nil). cbn [typname nspname formatted array]. f_equal.
    rewrite app_nil. apply user_found; [exact F'|]. exact (SH (Some ns) name).
  - destruct F as [|w W| | | | | | | | | | |]; try reflexivity. cbn in W. destruct W as [<-|[<-|[<-|[]]]]; reflexivity.
  - assert (F' := F). destruct F as (ns & name & -> & _). unfold found_pg. cbn [type_str bind]. unfold pg_report_of. rewrite cut_suffix_app.
    rewrite <- (app_nil (quoted_id (Qualified (Some ns) name))). rewrite qualified_scan by (try discriminate; apply not_begins_nil). cbn [typname nspname formatted array]. f_equal.
    apply (user_found ns name _ true); [exact F'|]. apply unmatched_array. exact (SH (Some ns) name).
  - assert (T : type_str (TVarChar (Some n)) = Ok (num1 "varchar" n)) by reflexivity. unfold found_pg. rewrite T. unfold pg_report_of.
    assert (C : cut_suffix " ARRAY" (num1 "varchar" n) = None). { unfold num1. change ("varchar" ++ "(" ++ z_to_str n ++ ")") with ("varchar(" ++ z_to_str n ++ ")"). rewrite <- append_assoc. now apply no_array. }
    rewrite C. change (sql_qualified (num1 "varchar" n)) with (@None (option string * string * string)). cbn iota. unfold pg_builtin. rewrite (read_num1 "varchar" n eq_refl) by lia.
    cbn -[num1 le_le pg_discover]. rewrite le_le_true by lia. cbn [when typname nspname formatted array]. rewrite app_nil.
    unfold pg_discover, from_spec. cbn [String.eqb orb]. change (look "varchar" pg_subst) with (@None sqltype). rewrite def_varying by lia. reflexivity.
  - assert (T : type_str (TFixChar (Some n)) = Ok (num1 "char" n)) by reflexivity. unfold found_pg. rewrite T. unfold pg_report_of.
    assert (C : cut_suffix " ARRAY" (num1 "char" n) = None). { unfold num1. change ("char" ++ "(" ++ z_to_str n ++ ")") with ("char(" ++ z_to_str n ++ ")"). rewrite <- append_assoc. now apply no_array. }
    rewrite C. change (sql_qualified (num1 "char" n)) with (@None (option string * string * string)). cbn iota. unfold pg_builtin. rewrite (read_num1 "char" n eq_refl) by lia.
    cbn -[num1 le_le pg_discover]. rewrite le_le_true by lia. cbn [when typname nspname formatted array]. rewrite app_nil.
    unfold pg_discover, from_spec. cbn [String.eqb orb]. change (look "bpchar" pg_subst) with (@None sqltype). rewrite def_character by lia. reflexivity.
  - assert (T : type_str (TTimestamp (Some p) false) = Ok (num1 "timestamp" p)) by (cbn [type_str paren tz_str]; rewrite app_nil; reflexivity). unfold found_pg. rewrite T. unfold pg_report_of.
    assert (C : cut_suffix " ARRAY" (num1 "timestamp" p) = None). { unfold num1. change ("timestamp" ++ "(" ++ z_to_str p ++ ")") with ("timestamp(" ++ z_to_str p ++ ")"). rewrite <- append_assoc. now apply no_array. }
    rewrite C. change (sql_qualified (num1 "timestamp" p)) with (@None (option string * string * string)). cbn iota. unfold pg_builtin. rewrite (read_num1 "timestamp" p eq_refl) by lia.
    cbn -[num1 le_le pg_discover]. rewrite le_le_true by lia. cbn [when typname nspname formatted array]. rewrite app_nil.
    unfold pg_discover, from_spec. cbn [String.eqb orb]. change (look "timestamp" pg_subst) with (@None sqltype). rewrite def_timestamp by lia. reflexivity.
  - assert (T : type_str (TTimestamp (Some p) true) = Ok ("timestamp(" ++ z_to_str p ++ String ")" " with time zone")) by (cbn [type_str paren tz_str]; rewrite !append_assoc; reflexivity). unfold found_pg. rewrite T. unfold pg_report_of.
    set (x := "timestamp(" ++ z_to_str p ++ String ")" " with time zone").
    assert (C : cut_suffix " ARRAY" x = None). { unfold x. change (String ")" " with time zone") with (") with time zon" ++ "e"). rewrite <- !append_assoc. now apply no_array. }
    rewrite C. change (sql_qualified x) with (@None (option string * string * string)). cbn iota. unfold pg_builtin. unfold x.
    change ("timestamp(" ++ z_to_str p ++ String ")" " with time zone") with ("timestamp" ++ String "(" (z_to_str p ++ String ")" " with time zone")). rewrite read_type_one by (try reflexivity; lia).
    cbn -[num1 le_le pg_discover]. rewrite le_le_true by lia. cbn [when typname nspname formatted array]. rewrite app_nil.
    unfold pg_discover, from_spec. cbn [String.eqb orb]. change (look "timestamptz" pg_subst) with (@None sqltype). rewrite def_timestamp_tz by lia. reflexivity.
  - assert (T : type_str (TDecimal (Some p) (Some s)) = Ok ("decimal" ++ String "(" (z_to_str p ++ ", " ++ z_to_str s ++ String ")" ""))) by reflexivity. unfold found_pg. rewrite T. unfold pg_report_of.
    set (x := "decimal" ++ String "(" (z_to_str p ++ ", " ++ z_to_str s ++ String ")" "")).
    assert (C : cut_suffix " ARRAY" x = None). { unfold x. change ("decimal" ++ String "(" (z_to_str p ++ ", " ++ z_to_str s ++ String ")" "")) with ("decimal(" ++ z_to_str p ++ ", " ++ z_to_str s ++ String ")" ""). rewrite <- !append_assoc. now apply no_array. }
    rewrite C. change (sql_qualified x) with (@None (option string * string * string)). cbn iota. unfold pg_builtin. unfold x. rewrite read_type_two by (try reflexivity; lia).
    change ("decimal" =? "decimal") with true. cbn iota. rewrite !le_le_true by lia. cbn [andb when typname nspname formatted array]. rewrite app_nil.
    unfold pg_discover, from_spec. cbn [String.eqb orb]. change (look "numeric" pg_subst) with (@None sqltype). rewrite def_two by (try (now right); lia). reflexivity.
Qed.
Print Assumptions C30_postgresql.

(** ** Types that come back as another type *)
Theorem C30_integer_range_refuted : exists show t u, show_ok show /\ t = TInt 8 true (Some 1) (Some 10) /\ found_pg show t = Some (Ok u) /\ u <> t /\ found_mysql t = Some (Ok u).
Proof.
  exists (fun _ _ => String DQ ""), (TInt 8 true (Some 1) (Some 10)), (TInt 8 true None None). split; [intros ns n; left; eexists; reflexivity|]. repeat split. discriminate.
Qed.
Print Assumptions C30_integer_range_refuted.
Definition show_quoted (ns : option string) (name : string) : string := String DQ "".
(** PostgreSQL: a time interval is taken for a user-defined type of schema pg_catalog; the precision of a time is lost; a
    decimal with a precision gets a scale; a floating-point type gets another class; the limit of an array element is
    lost; a user-defined type named like a built-in one is taken for it. *)
Theorem C30_postgresql_exceptions_refuted :
  found_pg show_quoted TInterval = Some (Ok (TUser (Qualified (Some "pg_catalog") "interval"))) /\
  found_pg show_quoted (TTime (Some 3) false) = Some (Ok (TTime None false)) /\
  found_pg show_quoted (TDecimal (Some 10) None) = Some (Ok (TDecimal (Some 10) (Some 0))) /\
  found_pg show_quoted (TFloat None) = Some (Ok TDouble) /\
  found_pg show_quoted (TArray (TVarChar (Some 10))) = Some (Ok (TArray (TVarChar None))) /\
  found_pg show_quoted (TUser (Qualified (Some "app") "Date")) = Some (Ok TDate) /\
  found_pg show_quoted (TTimestamp None true) = Some (Ok (TUser (Qualified (Some "pg_catalog") "timestamptz"))).
Proof. repeat split. Qed.
Print Assumptions C30_postgresql_exceptions_refuted.
(** MySQL: single precision becomes double precision; a decimal gets precision and scale; an explicit precision of zero is
    lost; apostrophes in the values of an enumeration stay doubled. *)
Theorem C30_mysql_exceptions_refuted :
  found_mysql TReal = Some (Ok TDouble) /\
  found_mysql (TDecimal None None) = Some (Ok (TDecimal (Some 10) (Some 0))) /\
  found_mysql (TSub MyDateTime (TTimestamp (Some 0) false)) = Some (Ok (TSub MyDateTime (TTimestamp None false))) /\
  found_mysql (TEnum ["it's"; "b"]) = Some (Ok (TEnum ["it''s"; "b"])) /\
  found_mysql (TSub MyVarChar (TVarChar (Some 100000))) = Some (Ok (TSub MyVarChar (TVarChar (Some 16777215)))).
Proof. repeat split. Qed.
Print Assumptions C30_mysql_exceptions_refuted.
(** SQL Server: the type of Python's [float] comes back as another type, and so do [time] and [Decimal]. *)
Theorem C30_mssql_exceptions_refuted :
  found_mssql TDouble = Some (Ok (TFloat (Some 53))) /\
  found_mssql (TTime None false) = Some (Ok (TTime (Some 7) false)) /\
  found_mssql (TDecimal None None) = Some (Ok (TDecimal (Some 18) (Some 0))) /\
  found_mssql (TFloat None) = Some (Ok (TFloat (Some 53))) /\
  found_mssql (TSub MsVarChar (TVarChar (Some 2147483647))) = Some (Ok (TSub MsVarChar (TVarChar None))).
Proof. repeat split. Qed.
Print Assumptions C30_mssql_exceptions_refuted.
(** Oracle: a decimal is taken for an integer; the precision of a timestamp is lost; Python's [float] comes back as another
    type. *)
Theorem C30_oracle_exceptions_refuted w :
  found_oracle w (TDecimal (Some 10) (Some 2)) = Some (Ok (TSub OraInt (int_of 8))) /\
  found_oracle w (TSub OraTimestamp (TTimestamp (Some 3) false)) = Some (Ok (TSub OraTimestamp (TTimestamp None false))) /\
  found_oracle w (TSub OraTimestamp (TTimestamp (Some 6) false)) = Some (Ok (TSub OraTimestamp (TTimestamp None false))) /\
  found_oracle w TDouble = Some (Ok (TFloat (Some 126))) /\
  found_oracle w (TSub OraVarChar (TVarChar (Some 5000))) = Some (Ok (TSub OraVarChar (TVarChar None))).
Proof. repeat split. Qed.
Print Assumptions C30_oracle_exceptions_refuted.

Example C30_ex : type_str (TEnum ["a"; "b c"]) = Ok "ENUM ('a', 'b c')" /\ mysql_faithful (TEnum ["a"; "b c"]) /\ from_def "enum('a','b c')" = Some (TEnum ["a"; "b c"]).
Proof.
  split; [reflexivity|]. split; [|reflexivity]. constructor; [discriminate|]. intros v [<-|[<-|[]]] c I; cbn in I; repeat (destruct I as [<-|I]; [repeat split; discriminate|]); destruct I.
Qed.
Example C30_ex_user : user_type (TUser (Qualified (Some "app") "WorkingStatus")).
Proof. eexists _, _. split; [reflexivity|]. split; [discriminate|]. split; [discriminate|]. intros b I E. cbn in E. subst b. cbn in I. repeat (destruct I as [I|I]; [discriminate I|]). destruct I. Qed.
