(** An executable instance of the row semantics of DataSpec.v, used to build concrete executions for the examples. *)
From Verif Require Import PyStr QuoteModel ObjectDict Types Objects SqlAst Ddl Mutate DbSpec DataSpec.
From Coq Require Import String List ZArith Bool.
Import ListNotations.
Open Scope list_scope.

(** a server that holds every value in every column, compares texts exactly and, if [imp], fills new NOT NULL columns *)
Definition server0 (imp : bool) : server := Srv (fun _ _ => True) (fun _ v w => w = v) String.eqb (fun e v => v = Some (PStr e)) imp.
Lemma server0_lawful imp : lawful (server0 imp).
Proof.
  constructor; simpl; [auto|apply String.eqb_refl| |].
  - intros a b H. now rewrite String.eqb_sym.
  - intros a b c H1 H2. apply String.eqb_eq in H1, H2. subst. apply String.eqb_refl.
Qed.

Section Exec.
  Context (imp : bool).
  Definition new0 (c : coldef) : option cell :=
    match cd_default c with
    | Some (_, e) => Some (Some (PStr e))
    | None => if cd_identity c then Some (Some (PInt 1)) else if cd_notnull c then (if imp then Some (Some (PInt 0)) else None) else Some None
    end.
  Definition row0 (a : action) (r : record) : option record :=
    match a with
    | AAddColumn c => option_map (set_cell r (cd_name c)) (new0 c)
    | ADropColumn n | ADropDefaultColumn _ n => Some (set_cell r n None)
    | ARenameColumn n m => Some (set_cell (set_cell r n None) m (r n))
    | AChangeColumn n c => Some (set_cell (set_cell r n None) (cd_name c) (r n))
    | ASetType n _ => Some (set_cell r n (r n))
    | AModifyColumn c => Some (set_cell r (cd_name c) (r (cd_name c)))
    | AMsAlter n _ _ => Some (set_cell r n (r n))
    | AOraModify _ _ => None
    | ASetNotNull _ | ADropNotNull _ | ASetDefault _ _ | ADropDefault _ | ADropIdentity _ | AAddIdentity _
    | AAddConstraint _ | ADropConstraint _ | AAddDefault _ _ _ => Some r
    end.
  Fixpoint map_opt {A B} (f : A -> option B) (l : list A) : option (list B) :=
    match l with [] => Some [] | x :: r => match f x, map_opt f r with Some y, Some z => Some (y :: z) | _, _ => None end end.
  Fixpoint rows0 (acts : list action) (rows : list record) : option (list record) :=
    match acts with [] => Some rows | a :: r => match map_opt (row0 a) rows with Some m => rows0 r m | None => None end end.
  Definition has_label (e : record) (a : string) : bool := match e "value"%string with Some (PStr b) => String.eqb a b | _ => false end.
  Definition fresh_row (n : nat) (c : string) (v : pyval) : record := set_cell (fun k => if String.eqb k "id" then Some (PInt (Z.of_nat n)) else None) c (Some v).
  Definition ins0 (c : string) (oc : onconflict) (rows : list record) (v : pyval) : option (list record) :=
    match v with
    | PStr a => if existsb (fun e => has_label e a) rows then match oc with NoClause => None | _ => Some rows end else Some (rows ++ [fresh_row (S (List.length rows)) c v])
    | _ => None
    end.
  Fixpoint ins_all (c : string) (oc : onconflict) (vs : list pyval) (rows : list record) : option (list record) :=
    match vs with [] => Some rows | v :: r => match ins0 c oc rows v with Some m => ins_all c oc r m | None => None end end.
  Definition look0 (lookup : list record) (new old : string) (r : record) : record :=
    match r old with
    | Some (PStr a) => match find (fun e => has_label e a) lookup with Some e => set_cell r new (e "id"%string) | None => r end
    | _ => r
    end.
  Definition okey_eqb (a b : okey) : bool := String.eqb (fst a) (fst b) && String.eqb (snd a) (snd b).
  Lemma okey_eqb_eq a b : okey_eqb a b = true <-> a = b.
  Proof. unfold okey_eqb. rewrite andb_true_iff, !String.eqb_eq. destruct a, b; simpl. split; [intros [-> ->]; reflexivity|now intros [= -> ->]]. Qed.
  Definition put (k : okey) (rows : list record) (D : store) : store := fun j => if okey_eqb j k then rows else D j.
  Definition step0 (s : stmt) (D : store) : option store :=
    match s with
    | SAlterTable q acts => option_map (fun rows => put (key_of q) rows D) (rows0 acts (D (key_of q)))
    | SCreateTable q _ _ _ _ => match D (key_of q) with [] => Some (put (key_of q) [] D) | _ => None end
    | SDropTable q => Some (put (key_of q) [] D)
    | SDropSchema _ n => Some (fun k => if String.eqb (fst k) n then [] else D k)
    | SInsert q [c] vs oc => option_map (fun rows => put (key_of q) rows D) (ins_all c oc vs (D (key_of q)))
    | SInsert _ _ _ _ => None
    | SInsertDistinct q src c =>
        match map_opt (fun r => r c) (D (key_of src)) with
        | Some vs => option_map (fun rows => put (key_of q) rows D) (ins_all "value" MyKeep vs (D (key_of q)))
        | None => None
        end
    | SUpdateLookup q new old ref => Some (put (key_of q) (map (look0 (D (key_of ref)) new old) (D (key_of q))) D)
    | SCreateSchema _ _ | SCreateEnum _ _ | SCreateStruct _ _ | SDropType _ | SRenameType _ _ | SAddValue _ _ | SAlterStruct _ _
    | SCommentTable _ _ | SCommentColumn _ _ _ | SCommentType _ _ | SMyTableComment _ _ => Some D
    end.
  Fixpoint script0 (l : list stmt) (D : store) : option store :=
    match l with [] => Some D | s :: r => match step0 s D with Some M => script0 r M | None => None end end.

  Let S0 := server0 imp.
  Lemma same_refl r : same_record r r. Proof. intros c. reflexivity. Qed.
  Lemma conv0 ty v : converted S0 ty v v. Proof. destruct v; simpl; eauto. Qed.
  Lemma row0_ok a r r' : row0 a r = Some r' -> on_row S0 a r r'.
  Proof.
    destruct a; simpl; try (intros [= <-]; try apply same_refl; fail); try discriminate.
    - unfold new0, new_value. destruct (cd_default c) as [[df e]|]; simpl.
      + intros [= <-]. eexists. split; [reflexivity|apply same_refl].
      + destruct (cd_identity c); simpl; [intros [= <-]; eexists; split; [|apply same_refl]; discriminate|].
        destruct (cd_notnull c); simpl; [|intros [= <-]; eexists; split; [reflexivity|apply same_refl]].
        destruct imp; simpl; [|discriminate]. intros [= <-]. eexists. split; [|apply same_refl]. split; [reflexivity|discriminate].
    - intros [= <-]. eexists. split; [left; apply conv0|apply same_refl].
    - intros [= <-]. eexists. split; [apply conv0|apply same_refl].
    - intros [= <-]. eexists. split; [left; apply conv0|apply same_refl].
    - intros [= <-]. eexists. split; [apply conv0|apply same_refl].
  Qed.
  Lemma map_opt_ok {A B} (f : A -> option B) (P : A -> B -> Prop) l : (forall x y, f x = Some y -> P x y) -> forall l', map_opt f l = Some l' -> Forall2 P l l'.
  Proof.
    intros H. induction l as [|x l IH]; simpl; intros l' E; [injection E as <-; constructor|]. destruct (f x) eqn:F; [|discriminate]. destruct (map_opt f l); [|discriminate]. injection E as <-. constructor; auto.
  Qed.
  Lemma rows0_ok acts : forall rows rows', rows0 acts rows = Some rows' -> on_rows S0 acts rows rows'.
  Proof.
    induction acts as [|a acts IH]; simpl; intros rows rows' E; [congruence|]. destruct (map_opt (row0 a) rows) as [m|] eqn:F; [|discriminate]. exists m. split; [|auto].
    eapply map_opt_ok; [|exact F]. intros x y; apply row0_ok.
  Qed.
  Lemma has_label_ok e a : has_label e a = true <-> exists b, label e b /\ String.eqb a b = true.
  Proof.
    unfold has_label, label. split.
    - intros H. destruct (e "value"%string) as [[s| | | |]|]; try discriminate. exists s. auto.
    - intros (b & H1 & H2). now rewrite H1.
  Qed.
  Lemma labelled_ok rows a : existsb (fun e => has_label e a) rows = true <-> labelled S0 rows a.
  Proof.
    rewrite existsb_exists. unfold labelled. split.
    - intros (e & I & H). apply has_label_ok in H as (b & H1 & H2). eauto.
    - intros (e & b & I & H1 & H2). exists e. split; [exact I|]. apply has_label_ok. eauto.
  Qed.
  Lemma ins0_ok c oc rows v rows' : ins0 c oc rows v = Some rows' -> insert_one S0 [c] oc v rows rows'.
  Proof.
    unfold ins0. destruct v; try discriminate. destruct (existsb _ rows) eqn:E.
    - intros H. right. assert (oc <> NoClause /\ rows' = rows) as [? ->] by (destruct oc; [discriminate| |]; split; congruence). split; [assumption|]. split; [reflexivity|]. exists s. split; [reflexivity|]. now apply labelled_ok.
    - intros [= <-]. left. eexists. split; [|split; [reflexivity|]].
      + exists c. split; [reflexivity|]. unfold fresh_row, set_cell. now rewrite String.eqb_refl.
      + right. intros a [= <-] Z. apply labelled_ok in Z. congruence.
  Qed.
  Lemma ins_all_ok c oc vs : forall rows rows', ins_all c oc vs rows = Some rows' -> insert_rows S0 [c] oc vs rows rows'.
  Proof.
    induction vs as [|v vs IH]; simpl; intros rows rows' E; [congruence|]. destruct (ins0 c oc rows v) as [m|] eqn:F; [|discriminate]. exists m. split; [now apply ins0_ok|auto].
  Qed.
  Lemma ins_all_adds c oc vs : oc <> NoClause -> c = "value"%string -> forall rows rows', ins_all c oc vs rows = Some rows' ->
    (exists new, rows' = rows ++ new) /\ forall v, In v vs -> exists a, v = PStr a /\ labelled S0 rows' a.
  Proof.
    intros N ->. induction vs as [|v vs IH]; intros rows rows' E.
    - injection E as <-. split; [exists []; now rewrite app_nil_r|]. intros v [].
    - cbn [ins_all] in E. destruct (ins0 "value" oc rows v) as [m|] eqn:F; [|discriminate]. destruct (IH m rows' E) as ((n2 & ->) & H2). unfold ins0 in F. destruct v as [s| | | |]; try discriminate.
      assert (G : (exists n1, m = rows ++ n1) /\ labelled S0 m s).
      { destruct (existsb (fun e => has_label e s) rows) eqn:X.
        - destruct oc; try discriminate; injection F as <-; (split; [exists []; now rewrite app_nil_r|now apply labelled_ok]).
        - injection F as <-. split; [eauto|]. eexists _, s. split; [apply in_or_app; right; left; reflexivity|]. split; [reflexivity|apply String.eqb_refl]. }
      destruct G as ((n1 & ->) & Gl). split; [exists (n1 ++ n2); now rewrite app_assoc|]. intros v [<-|I]; [|auto]. exists s. split; [reflexivity|].
      destruct Gl as (e & b & I & Z). exists e, b. split; [apply in_or_app; auto|exact Z].
  Qed.
  Lemma look0_ok lookup new old r : looked_up S0 lookup new old r (look0 lookup new old r).
  Proof.
    unfold look0, looked_up. destruct (r old) as [[s| | | |]|] eqn:E; try (right; split; [intros ? ? ? _ ?; congruence|apply same_refl]).
    destruct (find _ lookup) as [e|] eqn:F.
    - left. apply find_some in F as [I H]. apply has_label_ok in H as (b & H1 & H2). exists e, s, b. auto using same_refl.
    - right. split; [|apply same_refl]. intros e a b I [= <-] Lb. destruct (sv_same S0 s b) eqn:Z; [|reflexivity]. assert (has_label e s = true) by (apply has_label_ok; eauto).
      apply (find_none _ _ F) in I. congruence.
  Qed.
  Lemma put_ok k rows D (P : list record -> Prop) q : k = key_of q -> P rows -> at_key q P D (put k rows D).
  Proof.
    intros -> H. split; unfold put; [rewrite (proj2 (okey_eqb_eq _ _) eq_refl); exact H|]. intros j N. destruct (okey_eqb j (key_of q)) eqn:E; [apply okey_eqb_eq in E; contradiction|reflexivity].
  Qed.
  Lemma step0_ok s D D' : step0 s D = Some D' -> stmt_step S0 s D D'.
  Proof.
    destruct s; simpl; try (intros [= <-]; intros k; reflexivity).
    - destruct (D (key_of q)) eqn:E; [|discriminate]. intros [= <-]. split; [reflexivity|now apply put_ok].
    - intros [= <-]. now apply put_ok.
    - destruct (rows0 acts (D (key_of q))) eqn:E; [|discriminate]. intros [= <-]. apply put_ok; [reflexivity|now apply rows0_ok].
    - destruct cols as [|c [|? ?]]; try discriminate. destruct (ins_all c oc rows (D (key_of q))) eqn:E; [|discriminate]. intros [= <-]. apply put_ok; [reflexivity|now apply ins_all_ok].
    - match goal with |- match map_opt ?f ?l with _ => _ end = _ -> _ => destruct (map_opt f l) as [vs|] eqn:E; [|discriminate] end.
      match goal with |- option_map _ ?z = _ -> _ => destruct z as [rows|] eqn:F; [|discriminate] end. intros [= <-]. apply put_ok; [reflexivity|].
      apply ins_all_adds in F as [F1 F2]; [|discriminate|reflexivity]. split; [exact F1|]. intros r I.
      assert (H : Forall2 (fun x y => x col = Some y) (D (key_of src)) vs) by (eapply map_opt_ok; [|exact E]; auto).
      revert F2. clear -I H. induction H as [|x v l l' H0 H IH]; [destruct I|]. destruct I as [<-|I]; intros F2; [|apply IH; auto; intros; apply F2; now right].
      destruct (F2 v (or_introl eq_refl)) as (s & -> & Z). eauto.
    - intros [= <-]. apply put_ok; [reflexivity|]. generalize (D (key_of q)). intros rows. induction rows; constructor; auto using look0_ok.
  Qed.
  Theorem script0_ok l : forall D D', script0 l D = Some D' -> script S0 l D D'.
  Proof.
    induction l as [|s l IH]; simpl; intros D D' E; [injection E as <-; auto|]. destruct (step0 s D) as [M|] eqn:F; [|discriminate]. exists M. split; [now apply step0_ok|auto].
  Qed.
End Exec.
