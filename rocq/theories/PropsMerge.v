(** C09: merging catalogs. *)
From Verif Require Import PyStr QuoteModel ObjectDict Types Objects KeySpec MergeSpec MergeProofs ExCat.
From Coq Require Import String List Permutation.
Import ListNotations.
Open Scope string_scope.
Open Scope list_scope.

(** Merging succeeds exactly when the common objects have the same definitions. *)
Theorem C09_merge_succeeds_iff_agree (a b : catalog) :
  cat_keyed a -> cat_keyed b -> (exists m, cat_merge a b = Ok m) <-> agree a b.
Proof. exact (cat_ok a b). Qed.
Print Assumptions C09_merge_succeeds_iff_agree.

(** The result is the union: A's namespaces in order, each extended by B's new objects in B's order,
    then B's new namespaces; names stay unique. *)
Theorem C09_merge_is_union (a b m : catalog) :
  cat_keyed a -> cat_keyed b -> cat_merge a b = Ok m -> cat_union a b m /\ cat_keyed m.
Proof. intros Ka Kb H. split; [exact (cat_union_ok a b m Ka Kb H)|exact (cat_keyed_merge a b m Ka Kb H)]. Qed.
Print Assumptions C09_merge_is_union.

Theorem C09_merge_empty (a : catalog) : cat_keyed a -> cat_merge a [] = Ok a /\ cat_merge [] a = Ok a.
Proof. intros K. split; [exact (cat_empty a)|exact (cat_empty_l a K)]. Qed.
Print Assumptions C09_merge_empty.

(** Idempotence: merging a catalog with itself, or the same catalog twice, changes nothing more. *)
Theorem C09_merge_idempotent (a : catalog) : cat_keyed a -> cat_merge a a = Ok a.
Proof. exact (cat_idem a). Qed.
Print Assumptions C09_merge_idempotent.
Theorem C09_merge_twice (a b m : catalog) : cat_keyed a -> cat_keyed b -> cat_merge a b = Ok m -> cat_merge m b = Ok m.
Proof. exact (cat_absorb a b m). Qed.
Print Assumptions C09_merge_twice.

(** Merge order does not change the set of objects: of two ... *)
Theorem C09_merge_commutes (a b m : catalog) : cat_keyed a -> cat_keyed b -> cat_merge a b = Ok m ->
  exists m', cat_merge b a = Ok m' /\ same_objects m m'.
Proof. exact (cat_comm a b m). Qed.
Print Assumptions C09_merge_commutes.
(** ... and of three catalogs (here even the order is the same) *)
Theorem C09_merge_associative (a b c m : catalog) : cat_keyed a -> cat_keyed b -> cat_keyed c ->
  (exists ab, cat_merge a b = Ok ab /\ cat_merge ab c = Ok m) <-> (exists bc, cat_merge b c = Ok bc /\ cat_merge a bc = Ok m).
Proof. exact (cat_assoc a b c m). Qed.
Print Assumptions C09_merge_associative.

(** ** Instances *)
Definition extra : catalog := [Ns "shop" [color1; Enum (shop "size") ["s"; "m"]] [] [Tab (shop "stock") [col "id" int4] ["id"] [] None None];
  Ns "audit" [] [] []].
Lemma extra_keyed : cat_keyed extra.
Proof. constructor; [keys|]. intros n Hn. cases; nskeyed. Qed.
Example C09_ex1 : cat_merge cat1 extra = Ok [Ns "logs" [] [] [visit];
  Ns "shop" [color1; Enum (shop "size") ["s"; "m"]] [point1] [order1; person1; Tab (shop "stock") [col "id" int4] ["id"] [] None None]; Ns "audit" [] [] []].
Proof. reflexivity. Qed.
Example C09_ex2 : cat_merge cat1 cat2 = Err "FormationError".
Proof. reflexivity. Qed.
Example C09_ex3 : agree cat1 extra.
Proof. apply (C09_merge_succeeds_iff_agree _ _ cat1_keyed extra_keyed). eexists. exact C09_ex1. Qed.

(** Finding: the labels with which an enumeration table is seeded are not part of its equality, so the
    merge of two enumeration tables with different labels is not refused, and B's labels are lost. *)
Definition colors (vs : list string) : catalog :=
  [Ns "shop" [] [] [Tab (shop "color") [Col "id" int4 false None true None; col "value" (TVarChar (Some 64%Z))] ["id"] [CUnique "uq_color" ["value"]] None (Some (map PStr vs))]].
Theorem C09_enum_table_labels_refuted :
  ~ (forall a b m : catalog, cat_keyed a -> cat_keyed b -> cat_merge a b = Ok m ->
       forall n t vs, In n b -> In t (n_tables n) -> t_enum t = Some vs ->
       exists n' t' vs', In n' m /\ n_name n' = n_name n /\ In t' (n_tables n') /\ t_name t' = t_name t /\ t_enum t' = Some vs' /\ incl vs vs').
Proof.
  intros H. specialize (H (colors ["red"]) (colors ["red"; "blue"]) (colors ["red"])).
  assert (K : forall vs, cat_keyed (colors vs)) by (intros vs; constructor; [keys|]; intros n Hn; cases; nskeyed).
  destruct (H (K _) (K _) eq_refl _ _ _ (or_introl eq_refl) (or_introl eq_refl) eq_refl) as (n' & t' & vs' & In' & _ & It & _ & E & I).
  destruct In' as [<-|[]]. destruct It as [<-|[]]. simpl in E. injection E as <-. specialize (I (PStr "blue") (or_intror (or_introl eq_refl))). destruct I as [I|[]]; discriminate.
Qed.
Print Assumptions C09_enum_table_labels_refuted.
