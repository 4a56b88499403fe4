(** Model of the SQL data types: pysqlsync/model/data_types.py:68-333 and the engine-specific
    subclasses in pysqlsync/dialect/*/data_types.py. *)
From Verif Require Import PyStr QuoteModel.
From Coq Require Import ZArith.
Open Scope string_scope.

(** Engine-specific subclasses: dialect/delta/data_types.py:13-52, dialect/mssql/data_types.py:24-62,
    dialect/mysql/data_types.py:8-43, dialect/oracle/data_types.py:19-62,
    dialect/postgresql/data_types.py:4-6, dialect/redshift/data_types.py:4-11,
    dialect/snowflake/data_types.py:4-20.
    Simplification: [MSSQLVariableCharacterType.encoding] is not a compared field of the Python
    class; it is modelled separately (see [MsVarChar16] in DialectTypes). *)
Inductive tcls : Type :=
| DeltaReal | DeltaDouble | DeltaFixBin | DeltaVarBin | DeltaVarChar | DeltaTimestamp
| MsBool | MsVarChar | MsDateTime
| MyDateTime | MyVarChar | MyVarBin
| OraInt | OraTimestamp | OraTime | OraVarChar | OraVarBin
| PgJson | RsVarBin | SnowDateTime | SnowJson.

Definition tcls_eqb (a b : tcls) : bool :=
  match a, b with
  | DeltaReal, DeltaReal | DeltaDouble, DeltaDouble | DeltaFixBin, DeltaFixBin
  | DeltaVarBin, DeltaVarBin | DeltaVarChar, DeltaVarChar | DeltaTimestamp, DeltaTimestamp
  | MsBool, MsBool | MsVarChar, MsVarChar | MsDateTime, MsDateTime
  | MyDateTime, MyDateTime | MyVarChar, MyVarChar | MyVarBin, MyVarBin
  | OraInt, OraInt | OraTimestamp, OraTimestamp | OraTime, OraTime | OraVarChar, OraVarChar
  | OraVarBin, OraVarBin | PgJson, PgJson | RsVarBin, RsVarBin
  | SnowDateTime, SnowDateTime | SnowJson, SnowJson => true
  | _, _ => false
  end.

(** [SqlDataType] and its subclasses, data_types.py:68-333.  [TSub c t] is an instance of the
    engine-specific class [c] whose inherited fields are those of [t]. *)
Inductive sqltype : Type :=
| TArray (el : sqltype)
| TUuid
| TBool
| TInt (width : Z) (signed : bool) (mn mx : option Z)
| TFloat (precision : option Z)
| TReal
| TDouble
| TDecimal (precision scale : option Z)
| TFixBin (storage : option Z)
| TVarBin (storage : option Z)
| TFixChar (limit : option Z)
| TVarChar (limit : option Z)
| TTimestamp (precision : option Z) (tz : bool)
| TDate
| TTime (precision : option Z) (tz : bool)
| TInterval
| TJson
| TEnum (values : list string)
| TStruct (fields : list (string * sqltype * bool))
| TUser (ref : qid)
| TSub (c : tcls) (t : sqltype).

Definition opt_eqb {A} (eq : A -> A -> bool) (a b : option A) : bool :=
  match a, b with Some x, Some y => eq x y | None, None => true | _, _ => false end.
Fixpoint list_eqb {A} (eq : A -> A -> bool) (a b : list A) : bool :=
  match a, b with
  | [], [] => true
  | x :: r, y :: s => eq x y && list_eqb eq r s
  | _, _ => false
  end.
Definition oz_eqb := opt_eqb Z.eqb.
Definition os_eqb := opt_eqb String.eqb.

(** equality of the frozen data-classes of id_types.py: same class, same fields *)
Definition qid_eqb (a b : qid) : bool :=
  match a, b with
  | Qualified n i, Qualified m j => os_eqb n m && String.eqb i j
  | Prefixed n i, Prefixed m j => os_eqb n m && String.eqb i j
  | Global i, Global j => String.eqb i j
  | _, _ => false
  end.

(** data-class equality (generated [__eq__]): same class and equal fields *)
Fixpoint type_eqb (a b : sqltype) : bool :=
  match a, b with
  | TArray x, TArray y => type_eqb x y
  | TUuid, TUuid | TBool, TBool | TReal, TReal | TDouble, TDouble | TDate, TDate
  | TInterval, TInterval | TJson, TJson => true
  | TInt w s m n, TInt w' s' m' n' => Z.eqb w w' && Bool.eqb s s' && oz_eqb m m' && oz_eqb n n'
  | TFloat p, TFloat q => oz_eqb p q
  | TDecimal p s, TDecimal p' s' => oz_eqb p p' && oz_eqb s s'
  | TFixBin x, TFixBin y | TVarBin x, TVarBin y | TFixChar x, TFixChar y
  | TVarChar x, TVarChar y => oz_eqb x y
  | TTimestamp p z, TTimestamp p' z' | TTime p z, TTime p' z' => oz_eqb p p' && Bool.eqb z z'
  | TEnum v, TEnum w => list_eqb String.eqb v w
  | TStruct f, TStruct g =>
      (fix go (f g : list (string * sqltype * bool)) : bool :=
         match f, g with
         | [], [] => true
         | (n, t, b) :: f', (m, u, c) :: g' =>
             (String.eqb n m && type_eqb t u && Bool.eqb b c) && go f' g'
         | _, _ => false
         end) f g
  | TUser p, TUser q => qid_eqb p q
  | TSub c x, TSub d y => tcls_eqb c d && type_eqb x y
  | _, _ => false
  end.

(** [isinstance] looks through subclasses *)
Fixpoint base_type (t : sqltype) : sqltype := match t with TSub _ u => base_type u | _ => t end.
Definition is_int (t : sqltype) : bool := match base_type t with TInt _ _ _ _ => true | _ => false end.
Definition is_enum (t : sqltype) : bool := match base_type t with TEnum _ => true | _ => false end.
Definition is_varchar (t : sqltype) : bool := match base_type t with TVarChar _ => true | _ => false end.
Definition is_user (t : sqltype) : bool := match base_type t with TUser _ => true | _ => false end.
Definition is_timestamp (t : sqltype) : bool := match base_type t with TTimestamp _ _ => true | _ => false end.
Definition user_ref (t : sqltype) : option qid := match base_type t with TUser q => Some q | _ => None end.

Definition paren (z : option Z) : string :=
  match z with Some n => "(" ++ z_to_str n ++ ")" | None => "" end.
Definition tz_str (b : bool) : string := if b then " with time zone" else "".

(** [__str__] of the engine-specific classes (files cited at [tcls]); [t] holds the fields.
    An instance whose fields do not belong to the class cannot be built in Python: [TypeError]. *)
Definition sub_str (c : tcls) (t : sqltype) : res string :=
  match c, t with
  | DeltaReal, TReal => Ok "float"
  | DeltaDouble, TDouble => Ok "double"
  | DeltaFixBin, TFixBin _ => Ok "binary"
  | DeltaVarBin, TVarBin _ => Ok "binary"
  | DeltaVarChar, TVarChar _ => Ok "string"
  | DeltaTimestamp, TTimestamp _ _ => Ok "timestamp_ntz"
  | MsBool, TBool => Ok "bit"
  | MsVarChar, TVarChar l =>
      match l with
      | Some n => if (Z.ltb 0 n && negb (Z.eqb n 2147483647))%bool
                  then Ok ("varchar(" ++ z_to_str n ++ ")") else Ok "varchar(max)"
      | None => Ok "varchar(max)"
      end
  | MsDateTime, TTimestamp _ _ => Ok "datetime2"
  | MyDateTime, TTimestamp p _ => Ok ("datetime" ++ paren p)
  | MyVarChar, TVarChar l =>
      match l with
      | None => Ok "mediumtext"
      | Some n => if Z.ltb n 65536 then Ok ("varchar(" ++ z_to_str n ++ ")")
                  else if Z.ltb n 16777216 then Ok "mediumtext"
                  else if Z.ltb n 4294967296 then Ok "longtext"
                  else Err "ValueError"
      end
  | MyVarBin, TVarBin l =>
      match l with
      | None => Ok "mediumblob"
      | Some n => if Z.ltb n 65536 then Ok ("varbinary(" ++ z_to_str n ++ ")")
                  else if Z.ltb n 16777216 then Ok "mediumblob"
                  else if Z.ltb n 4294967296 then Ok "longblob"
                  else Err "ValueError"
      end
  | OraInt, TInt _ _ _ _ => Ok "number"
  | OraTimestamp, TTimestamp p z =>
      Ok ("timestamp" ++ (match p with Some n => if Z.eqb n 6 then "" else paren (Some n) | None => "" end)
          ++ tz_str z)
  | OraTime, TTime _ _ => Ok "interval day to second"
  | OraVarChar, TVarChar l =>
      match l with
      | Some n => if Z.leb n 4000 then Ok ("varchar2(" ++ z_to_str n ++ ")") else Ok "clob"
      | None => Ok "clob"
      end
  | OraVarBin, TVarBin l =>
      match l with
      | Some n => if Z.leb n 2000 then Ok ("raw(" ++ z_to_str n ++ ")") else Ok "blob"
      | None => Ok "blob"
      end
  | PgJson, TJson => Ok "jsonb"
  | RsVarBin, TVarBin l => Ok ("varbyte" ++ paren l)
  | SnowDateTime, TTimestamp _ _ => Ok "datetime"
  | SnowJson, TJson => Ok "variant"
  | _, _ => Err "TypeError"
  end.

(** [__str__], data_types.py:76-333 *)
Fixpoint type_str (t : sqltype) : res string :=
  match t with
  | TArray e => do s <- type_str e; Ok (s ++ " ARRAY")
  | TUuid => Ok "uuid"
  | TBool => Ok "boolean"
  | TInt w _ _ _ =>
      if Z.eqb w 1 then Ok "tinyint" else if Z.eqb w 2 then Ok "smallint"
      else if Z.eqb w 4 then Ok "integer" else if Z.eqb w 8 then Ok "bigint"
      else Err "TypeError"
  | TFloat p => Ok ("float(" ++ z_to_str (match p with Some n => n | None => 53%Z end) ++ ")")
  | TReal => Ok "real"
  | TDouble => Ok "double precision"
  | TDecimal (Some p) (Some s) => Ok ("decimal(" ++ z_to_str p ++ ", " ++ z_to_str s ++ ")")
  | TDecimal (Some p) None => Ok ("decimal(" ++ z_to_str p ++ ")")
  | TDecimal None _ => Ok "decimal"
  | TFixBin s => Ok ("binary" ++ paren s)
  | TVarBin (Some n) => Ok ("varbinary(" ++ z_to_str n ++ ")")
  | TVarBin None => Ok "blob"
  | TFixChar l => Ok ("char" ++ paren l)
  | TVarChar (Some n) => Ok ("varchar(" ++ z_to_str n ++ ")")
  | TVarChar None => Ok "text"
  | TTimestamp p z => Ok ("timestamp" ++ paren p ++ tz_str z)
  | TDate => Ok "date"
  | TTime p z => Ok ("time" ++ paren p ++ tz_str z)
  | TInterval => Ok "interval"
  | TJson => Ok "json"
  | TEnum vs => Ok (enum_type_str vs)
  | TStruct fs =>
      do l <- (fix go (fs : list (string * sqltype * bool)) : res (list string) :=
                 match fs with
                 | [] => Ok []
                 | (n, u, nl) :: r =>
                     do s <- type_str u; do q <- go r;
                     Ok ((local_quoted n ++ " " ++ s ++ (if nl then "" else " NOT NULL")) :: q)
                 end) fs;
      Ok ("STRUCT <" ++ join_str ", " l ++ ">")
  | TUser q => Ok (quoted_id q)
  | TSub c u => sub_str c u
  end.

(** ** Equality is Leibniz equality *)
Section Ind.
  Variable P : sqltype -> Prop.
  Hypothesis HArray : forall e, P e -> P (TArray e).
  Hypothesis HStruct : forall fs, Forall (fun f => P (snd (fst f))) fs -> P (TStruct fs).
  Hypothesis HSub : forall c t, P t -> P (TSub c t).
  Hypothesis Hleaf : forall t, (forall e, t <> TArray e) -> (forall f, t <> TStruct f) ->
                               (forall c u, t <> TSub c u) -> P t.
  Fixpoint sqltype_rec' (t : sqltype) : P t.
  Proof.
    destruct t; try (apply Hleaf; discriminate).
    - apply HArray. apply sqltype_rec'.
    - apply HStruct. induction fields as [|[[n u] b] r IH]; constructor; [apply sqltype_rec'|exact IH].
    - apply HSub. apply sqltype_rec'.
  Defined.
End Ind.

Lemma opt_eqb_eq {A} (eq : A -> A -> bool) (H : forall x y, eq x y = true <-> x = y) a b :
  opt_eqb eq a b = true <-> a = b.
Proof.
  destruct a, b; simpl; try (split; congruence). rewrite H. split; congruence.
Qed.
Lemma list_eqb_eq {A} (eq : A -> A -> bool) (H : forall x y, eq x y = true <-> x = y) a b :
  list_eqb eq a b = true <-> a = b.
Proof.
  revert b. induction a as [|x a IH]; intros [|y b]; simpl; try (split; congruence).
  rewrite Bool.andb_true_iff, H, IH. split; [intros [-> ->]; reflexivity| intros [= -> ->]; auto].
Qed.
Lemma oz_eqb_eq a b : oz_eqb a b = true <-> a = b.
Proof. apply opt_eqb_eq. apply Z.eqb_eq. Qed.
Lemma os_eqb_eq a b : os_eqb a b = true <-> a = b.
Proof. apply opt_eqb_eq. apply String.eqb_eq. Qed.
Lemma qid_eqb_eq a b : qid_eqb a b = true <-> a = b.
Proof.
  destruct a, b; simpl; try (split; congruence);
    rewrite ?Bool.andb_true_iff, ?os_eqb_eq, ?String.eqb_eq; (split; [intuition congruence| intros [= -> ->] || intros [= ->]; auto]).
Qed.
Lemma tcls_eqb_eq a b : tcls_eqb a b = true <-> a = b.
Proof. split; [|intros ->; now destruct b]. destruct a, b; simpl; (reflexivity || discriminate). Qed.

Lemma type_eqb_eq a b : type_eqb a b = true <-> a = b.
Proof.
  revert b. induction a as [e IH|fs IH|c t IH|t Ha Hs Hb] using sqltype_rec'; intros b.
  - destruct b; simpl; try (split; congruence). rewrite IH. split; congruence.
  - destruct b; simpl; try (split; congruence).
    revert fields. induction fs as [|[[n t] x] fs IHf]; intros [|[[m u] y] g]; try (split; congruence).
    inversion IH as [|? ? I1 I2]; subst. simpl in I1. specialize (IHf I2 g).
    rewrite !Bool.andb_true_iff, I1, String.eqb_eq, Bool.eqb_true_iff, IHf.
    split; [intros [[[-> ->] ->] [= ->]]; reflexivity| intros [= -> -> -> ->]; auto].
  - destruct b; simpl; try (split; congruence).
    rewrite Bool.andb_true_iff, IH, tcls_eqb_eq. split; [intros [-> ->]; reflexivity| intros [= -> ->]; auto].
  - destruct t; try (exfalso; (eapply Ha + eapply Hs + eapply Hb); reflexivity);
      destruct b; simpl; try (split; congruence);
      rewrite ?Bool.andb_true_iff, ?oz_eqb_eq, ?Z.eqb_eq, ?Bool.eqb_true_iff, ?qid_eqb_eq,
        ?(list_eqb_eq _ String.eqb_eq);
      try (split; [intuition congruence | intros E; injection E; intuition congruence]).
Qed.
