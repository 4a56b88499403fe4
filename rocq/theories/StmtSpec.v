(** Specification: reading a script.  Which statements destroy or rename what. *)
From Verif Require Import PyStr QuoteModel Types Objects SqlAst.
From Coq Require Import String List.
Import ListNotations.

(** The action drops, renames or re-creates the column [n]. *)
Definition disturbs (n : string) (a : action) : Prop :=
  match a with
  | AAddColumn c => cd_name c = n
  | ADropColumn m | ADropDefaultColumn _ m | ARenameColumn m _ => m = n
  | AChangeColumn m c => m = n
  | _ => False
  end.
(** statements that only add rows *)
Definition adds_rows (s : stmt) : Prop :=
  match s with SInsert _ _ _ _ | SInsertDistinct _ _ _ => True | _ => False end.
(** statements that drop or rename a schema, type or table *)
Definition destroys (s : stmt) : Prop :=
  match s with SDropSchema _ _ | SDropType _ | SDropTable _ | SRenameType _ _ => True | _ => False end.
