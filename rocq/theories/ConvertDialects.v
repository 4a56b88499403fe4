(** Converter options that each dialect derives from the options of the user: the constructors of the generators in
    pysqlsync/dialect/*/generator.py and [GeneratorOptions], pysqlsync/base.py:130-157. *)
From Verif Require Import PyStr QuoteModel Types Objects Compat Convert.
Open Scope string_scope.

Record goptions : Type := GOpts {
  g_enum : option enum_mode; g_struct : option struct_mode; g_array : option array_mode; g_ns : list (string * option string);
  g_foreign : bool; g_init : bool; g_skip : meta -> bool; g_auto : bool; g_same : pytype -> bool }.
Inductive dialect : Type := DPostgres | DMySQL | DMSSQL | DOracle | DDelta | DSnowflake | DRedshift | DTrino.
Definition or_else {A} (x : option A) (d : A) : A := match x with Some a => a | None => d end.

(** [substitutions]: postgresql/generator.py:46-48, mysql:51-58, mssql:51-59, oracle:59-73, delta:55-65, snowflake:49-55,
    redshift:50-55; trino has none *)
Definition substitutions (d : dialect) : list (pytype * sqltype) :=
  match d with
  | DPostgres => [(YJson, TSub PgJson TJson)]
  | DMySQL => [(YBool, TInt 1 true None None); (YDatetime, TSub MyDateTime (TTimestamp None false)); (YUuid, TFixBin (Some 16%Z));
               (YStr, TSub MyVarChar (TVarChar (Some 16777215%Z))); (YIPv4, TFixBin (Some 4%Z)); (YIPv6, TFixBin (Some 16%Z))]
  | DMSSQL => [(YBool, TSub MsBool TBool); (YDatetime, TSub MsDateTime (TTimestamp (Some 7%Z) false)); (YStr, TSub MsVarChar (TVarChar None));
               (YUuid, TFixBin (Some 16%Z)); (YJson, TSub MsVarChar (TVarChar None)); (YIPv4, TFixBin (Some 4%Z)); (YIPv6, TFixBin (Some 16%Z))]
  | DOracle => let ora_int := TSub OraInt (TInt 8 true None None) in
               [(YBytes, TSub OraVarBin (TVarBin None)); (YTime, TSub OraTime (TTime None false)); (YDatetime, TSub OraTimestamp (TTimestamp None false));
                (YInt, ora_int); (py_int8, ora_int); (py_int16, ora_int); (py_int32, ora_int); (py_int64, ora_int);
                (YStr, TSub OraVarChar (TVarChar None)); (YUuid, TSub OraVarBin (TVarBin (Some 16%Z))); (YJson, TSub OraVarChar (TVarChar None));
                (YIPv4, TSub OraVarBin (TVarBin (Some 4%Z))); (YIPv6, TSub OraVarBin (TVarBin (Some 16%Z)))]
  | DDelta => [(YDatetime, TSub DeltaTimestamp (TTimestamp (Some 9%Z) false)); (YFloat, TSub DeltaDouble TDouble); (py_float32, TSub DeltaReal TReal);
               (py_float64, TSub DeltaDouble TDouble); (YStr, TSub DeltaVarChar (TVarChar None)); (YUuid, TSub DeltaFixBin (TFixBin (Some 16%Z)));
               (YJson, TVarChar None); (YIPv4, TSub DeltaFixBin (TFixBin (Some 4%Z))); (YIPv6, TSub DeltaFixBin (TFixBin (Some 16%Z)))]
  | DSnowflake => [(YDatetime, TSub SnowDateTime (TTimestamp (Some 9%Z) false)); (YUuid, TFixBin (Some 16%Z)); (YJson, TSub SnowJson TJson);
                   (YIPv4, TFixBin (Some 4%Z)); (YIPv6, TFixBin (Some 16%Z))]
  | DRedshift => [(YUuid, TSub RsVarBin (TVarBin (Some 16%Z))); (YJson, TVarChar None); (YIPv4, TSub RsVarBin (TVarBin (Some 4%Z)));
                  (YIPv6, TSub RsVarBin (TVarBin (Some 16%Z)))]
  | DTrino => []
  end.

(** postgresql/generator.py:38-52, mysql:43-61 ([auto_default] is not passed on), mssql:44-63, oracle:51-77, delta:47-69,
    snowflake:41-59, redshift:43-59, trino:17-26 *)
Definition dialect_options (d : dialect) (g : goptions) : copts :=
  COpts
    (or_else (g_enum g) match d with DPostgres => EmType | DMySQL => EmInline | DMSSQL | DOracle | DRedshift => EmRelation | _ => EmCheck end)
    (or_else (g_struct g) match d with DPostgres => SmType | DDelta => SmInline | _ => SmJson end)
    (or_else (g_array g) match d with DPostgres | DDelta => AmArray | _ => AmJson end)
    false
    match d with DMySQL | DOracle => false | _ => true end
    match d with DPostgres => false | _ => true end
    (g_ns g)
    match d with DDelta | DSnowflake | DRedshift => false | _ => g_foreign g end
    match d with DDelta | DSnowflake => false | _ => true end
    (g_init g)
    (substitutions d)
    (g_skip g)
    match d with DMySQL => false | _ => g_auto g end
    (g_same g).
