(** Specification for C56: a data statement as read (DmlText.v) says what was meant (Dml.v). *)
From Verif Require Import PyStr QuoteModel Types Objects Ddl Dml SqlText TextSpec DmlText.
From Coq Require Import String List Bool Arith.
Import ListNotations.
Open Scope string_scope.
Open Scope list_scope.

Definition twice {A} (x : A) : A * A := (x, x).
(** parameter n is the value of the n-th listed column *)
Definition in_order (cols : list string) : list nat := seq 1 (length cols).
Definition says_data (p : pdml) (s : dml) : Prop :=
  match s with
  | QInsert q cols => exists r, says_name r q /\ p = RInsert r cols (in_order cols) Fail
  | QPgIgnore q cols => exists r, says_name r q /\ p = RInsert r cols (in_order cols) (Skip None)
  | QPgUpsert q cols keys [] => exists r, says_name r q /\ p = RInsert r cols (in_order cols) (Skip (Some keys))
  | QPgUpsert q cols keys upd => exists r, says_name r q /\ p = RInsert r cols (in_order cols) (Assign (Some keys) (map (fun c => (c, Incoming c)) upd))
  | QMyInsert q cols (MyKeepCols cs) => exists r, says_name r q /\ p = RInsert r cols (in_order cols) (Assign None (map (fun c => (c, Present c)) cs))
  | QMyInsert q cols (MyTakeCols cs) => exists r, says_name r q /\ p = RInsert r cols (in_order cols) (Assign None (map (fun c => (c, Incoming c)) cs))
  | QMerge q cols ms upd ins => exists r, says_name r q /\
      p = RMerge r cols (in_order cols) (map twice ms) (option_map (map twice) upd) (option_map twice ins)
  | QDelete q c => exists r, says_name r q /\ p = RDelete r c 1
  end.
(** Provisos: quoted names; some column; each clause in its dialect, with some item *)
Definition filled {A} (o : option (list A)) : Prop := o <> Some [].
Definition data_ok (d : dialect) (s : dml) : Prop :=
  match s with
  | QInsert q cols => name_ok q /\ cols <> []
  | QPgIgnore q cols => name_ok q /\ cols <> [] /\ d = DPg
  | QPgUpsert q cols keys _ => name_ok q /\ cols <> [] /\ keys <> [] /\ d = DPg
  | QMyInsert q cols (MyKeepCols cs) | QMyInsert q cols (MyTakeCols cs) => name_ok q /\ cols <> [] /\ cs <> [] /\ d = DMySQL
  | QMerge q cols ms upd ins => name_ok q /\ cols <> [] /\ ms <> [] /\ filled upd /\ filled ins /\ (upd <> None \/ ins <> None) /\ d <> DPg /\ d <> DMySQL
  | QDelete q _ => name_ok q
  end.
