(** Example catalogs: two versions of a small shop database. *)
From Verif Require Import PyStr QuoteModel ObjectDict Types Objects SqlAst Ddl Mutate DbSpec CatSpec MutSpec RefSpec KeySpec.
From stdpp Require Import gmap strings.
Open Scope string_scope.
Open Scope list_scope.

Definition shop (n : string) : qid := Qualified (Some "shop") n.
Definition logs (n : string) : qid := Qualified (Some "logs") n.
Definition int4 : sqltype := TInt 4%Z true None None.
Definition int8 : sqltype := TInt 8%Z true None None.
Definition col (n : string) (t : sqltype) : column := Col n t false None false None.
Definition ncol (n : string) (t : sqltype) : column := Col n t true None false None.

Definition color1 := Enum (shop "color") ["red"; "green"].
Definition color2 := Enum (shop "color") ["red"; "green"; "blue"].
Definition point1 := Struct (shop "point") [Mem "x" TDouble None; Mem "y" TDouble None] (Some "a place").
Definition point2 := Struct (shop "point") [Mem "x" TReal None; Mem "z" TDouble None] None.
Definition person1 := Tab (shop "person")
  [Col "id" int4 false None true None; Col "name" (TVarChar (Some 64%Z)) false (Some "'?'") false (Some "full name");
   ncol "favourite" (TUser (shop "color")); ncol "home" (TUser (shop "point"))]
  ["id"] [CUnique "uq_name" ["name"]] (Some "people") None.
Definition person2 := Tab (shop "person")
  [Col "id" int8 false None true None; Col "name" (TVarChar None) true None false (Some "name");
   ncol "favourite" (TUser (shop "color")); Col "age" int4 false (Some "0") false None]
  ["id"] [CUnique "uq_name" ["name"]; CCheck "ch_age" "age >= 0"] None None.
Definition order1 := Tab (shop "order") [col "id" int4; col "buyer" int4] ["id"] [CForeign "fk_buyer" ["buyer"] (shop "person") ["id"]] None None.
Definition invoice2 := Tab (shop "invoice") [col "id" int4; col "payer" int8] ["id"] [CForeign "fk_payer" ["payer"] (shop "person") ["id"]] None None.
Definition visit := Tab (logs "visit") [col "id" int8; ncol "visitor" int4; ncol "last" (TUser (shop "point"))] ["id"]
  [CForeign "fk_visitor" ["visitor"] (shop "person") ["id"]] None None.

Definition cat1 : catalog := [Ns "logs" [] [] [visit]; Ns "shop" [color1] [point1] [order1; person1]].
Definition cat2 : catalog := [Ns "shop" [color2] [point2] [person2; invoice2]; Ns "audit" [Enum (Qualified (Some "audit") "level") ["low"; "high"]] [] []].

(** takes hypotheses [In x [a; b; c]] apart *)
Ltac cases :=
  repeat match goal with
  | H : In ?x ?l |- _ => let l' := eval hnf in l in
      match l' with
      | _ :: _ => destruct H as [H|H]; [subst x || discriminate H || (injection H; intros; clear H; subst)|]
      | [] => destruct H
      end
  | H : False |- _ => destruct H
  end.
Ltac nodup := repeat (apply NoDup_cons; split; [rewrite ?elem_of_cons, ?elem_of_nil; intuition discriminate|]); try apply NoDup_nil_2.
Ltac tabwf := constructor; [simpl; nodup|intros c Hc; cases; unfold col_wf; simpl; intuition congruence|intros n Hn; cases; simpl; auto
  |intros c Hc Hp; cases; simpl in *; intuition congruence|simpl; nodup|intros k n Hk Hn; cases; simpl; auto|intros Hd; try discriminate; intros k n Hk; cases; simpl; discriminate].
Ltac nswf := constructor; [intros q Hq; cases; reflexivity|simpl; nodup|intros e He; cases; simpl; nodup|intros x Hx; cases; simpl; nodup|intros x Hx; cases; tabwf].
Lemma cat1_wf : cat_wf DPg cat1.
Proof. constructor; [simpl; nodup|]. intros n Hn. cases; nswf. Qed.
Lemma cat2_wf : cat_wf DPg cat2.
Proof. constructor; [simpl; nodup|]. intros n Hn. cases; nswf. Qed.
Ltac keyed := constructor; [simpl; nodup|simpl; nodup].
Ltac keys := apply NoDup_ListNoDup; simpl; nodup.
Ltac nskeyed := constructor; [keys|keys|keys|intros x Hx; cases; keys|intros x Hx; cases; constructor; keys].
Lemma cat1_keyed : cat_keyed cat1.
Proof. constructor; [keys|]. intros n Hn. cases; nskeyed. Qed.
Lemma cat2_keyed : cat_keyed cat2.
Proof. constructor; [keys|]. intros n Hn. cases; nskeyed. Qed.
Lemma cat_compat12 : cat_compat DPg cat1 cat2.
Proof.
  assert (R : forall e, ~ replaced cat1 cat2 e).
  { intros e (a & b & x & Ia & Ib & En & Ie & Ix & Eq & N). cases; discriminate. }
  constructor.
  - intros a b Ia Ib En. cases; try discriminate. constructor.
    + intros x y Ix Iy E. cases; try discriminate. constructor.
      * reflexivity.
      * intros u v Iu Iv Euv. cases; try discriminate; split; unfold ident_compat, default_compat, want_default; simpl; try congruence; try (intuition congruence).
      * intros u v Iu Iv Euv (M1 & M2 & M3). cases; discriminate || (cbn in *; intuition congruence).
      * intros _ u k Iu Nu Ik _. cases; simpl in *; intuition congruence.
      * intros [G | G]; discriminate G.
    + intros e x Ie Ix E. cases; discriminate.
    + intros e x Ie Ix. cases; discriminate.
    + intros x Ix. cases. simpl. intuition discriminate.
    + intros x Ix. cases; simpl; intuition discriminate.
  - intros e n ty q He. destruct (R e He).
  - intros e He. destruct (R e He).
Qed.
Lemma cat_refs1 : refs_closed cat1.
Proof.
  constructor.
  - intros n l1 x l2 m q In_ E Im Iq. cases; try (simpl in E; destruct l1; discriminate). simpl in E. destruct l1 as [|z l1]; [|destruct l1; discriminate]. injection E as <- <-.
    cases; destruct Iq.
  - intros n x k q In_ Ix Ik Iq. cases.
    + right. split; [reflexivity|]. exists (Ns "shop" [color1] [point1] [order1; person1]). split; [simpl; auto|]. split; [discriminate|]. split; [reflexivity|]. right. exists point1. simpl. auto.
    + left. left. exists color1. simpl. auto.
    + left. right. exists point1. simpl. auto.
  - intros n x k cs rt rc In_ Ix Ik. cases; try discriminate; (split; [reflexivity|]); exists (Ns "shop" [color1] [point1] [order1; person1]), person1; simpl; auto.
Qed.
