(** Specification for C65: the rows that a call to the driver stores. *)
From Verif Require Import PyStr QuoteModel ObjectDict Types Objects Ddl SqlText DmlText Convert ObjData.
From Coq Require Import List ZArith.
Import ListNotations.
Open Scope string_scope.
Open Scope list_scope.

Section Values.
  Variable V : Type.
  (** Column n takes the value of the n-th listed parameter; a record has one value for each parameter. *)
  Definition row_of (cols : list string) (params : list nat) (r : list (handed V)) : option (list (string * handed V)) :=
    if Nat.eqb (length r) (length params) && Nat.eqb (length cols) (length params)
    then let values := map (fun p => match p with O => None | S n => nth_error r n end) params in
         if forallb (fun v => match v with Some _ => true | None => false end) values
         then Some (flat_map (fun cv => match snd cv with Some v => [(fst cv, v)] | None => [] end) (combine cols values)) else None
    else None.
  Fixpoint rows_of (cols : list string) (params : list nat) (rs : list (list (handed V))) : option (list (list (string * handed V))) :=
    match rs with
    | [] => Some []
    | r :: l => match row_of cols params r, rows_of cols params l with Some a, Some b => Some (a :: b) | _, _ => None end
    end.
  (** the table and the rows that are inserted; [copy_records_to_table]: value n of each record goes into column n *)
  Definition inserted (d : Ddl.dialect) (k : call V) : option (pname * list (list (string * handed V))) :=
    match k with
    | CNothing => None
    | CExecute s rs => match read_data d s with
                       | Some (RInsert q cols ps Fail) => match rows_of cols ps rs with Some l => Some (q, l) | None => None end
                       | _ => None
                       end
    | CCopy q cols rs => match rows_of cols (seq 1 (length cols)) rs with Some l => Some ((scope_id q, local_id q), l) | None => None end
    end.
  (** ... inserted or merged *)
  Definition upserted (d : Ddl.dialect) (k : call V) : option (pname * list (list (string * handed V))) :=
    match k with
    | CExecute s rs => match read_data d s with
                       | Some (RInsert q cols ps (Skip _)) | Some (RInsert q cols ps (Assign _ _)) | Some (RMerge q cols ps _ _ _) =>
                           match rows_of cols ps rs with Some l => Some (q, l) | None => None end
                       | _ => None
                       end
    | _ => None
    end.

  (** What a driver has to be given for a Python value: the value of an enumeration's member; bytes for UUIDs and addresses where the column is
      binary (MySQL, SQL Server, Oracle); an interval for a time of day on Oracle; otherwise the object itself *)
  Definition binary_engine (d : Ddl.dialect) : bool := match d with DMySQL | DMSSQL | DOracle => true | _ => false end.
  Definition meant (d : Ddl.dialect) (x : obj V) : handed V :=
    match x with
    | OMember _ e => HLabel e
    | OUuid b | OAddress b => if binary_engine d then HBytes b else HObject x
    | OTime m => match d with DOracle => HInterval m | _ => HObject x end
    | _ => HObject x
    end.

  (** the values of a type; [OOther]: of no type that needs attention *)
  Variable env : cid -> classdef.
  Fixpoint of_type (t : pytype) (x : obj V) : Prop :=
    match t with
    | YNone => x = ONone
    | YUuid => exists b, x = OUuid b
    | YIPv4 | YIPv6 => exists b, x = OAddress b
    | YTime => exists m, x = OTime m
    | YCls c => if is_enum_cls env c then exists e, x = OMember c e else exists v, x = OOther v
    | YAnn u _ => of_type u x
    | YUnion l => (fix any (l : list pytype) : Prop := match l with [] => False | u :: r => of_type u x \/ any r end) l
    | _ => exists v, x = OOther v
    end.
  (** No value of the type needs attention. *)
  Fixpoint plain_type (d : Ddl.dialect) (t : pytype) : bool :=
    match t with
    | YUuid | YIPv4 | YIPv6 => negb (binary_engine d)
    | YTime => match d with DOracle => false | _ => true end
    | YCls c => negb (is_enum_cls env c)
    | YAnn u _ => plain_type d u
    | YUnion l => (fix all (l : list pytype) : bool := match l with [] => true | u :: r => plain_type d u && all r end) l
    | _ => true
    end.
  (** Fields that the theorems cover: of a plain type, of an enumeration, or of one of the special types itself, neither optional nor annotated.
      (The others do not arrive as meant, see below.) *)
  Definition direct (d : Ddl.dialect) (t : pytype) : Prop :=
    plain_type d t = true \/ is_type_enum env t = true \/ t = YUuid \/ t = YIPv4 \/ t = YIPv6 \/ t = YUnion [YIPv4; YIPv6] \/ t = YUnion [YIPv6; YIPv4] \/ t = YTime.
End Values.
Arguments row_of {V}. Arguments rows_of {V}. Arguments inserted {V}. Arguments upserted {V}. Arguments meant {V}. Arguments of_type {V}.
