From Verif Require Import PyStr Batch BatchSpec.
From Coq Require Import Lia Arith List.
Open Scope list_scope.
Section P.
  Context {R : Type} (size : nat) (Hs : 0 < size).
  Lemma loop_cut records : forall rows, length rows < size ->
    cut size (rows ++ records) (@batch_loop R size rows records).
  Proof.
    induction records as [|r rest IH]; intros rows L; simpl.
    - rewrite app_nil_r. destruct rows as [|x rows]; [constructor|]. apply cut_last; [discriminate|exact L].
    - rewrite app_length. simpl. destruct (Nat.leb size (length rows + 1)) eqn:E.
      + apply Nat.leb_le in E. change (rows ++ r :: rest) with (rows ++ [r] ++ rest). rewrite app_assoc.
        apply cut_full; [rewrite app_length; simpl; lia|]. apply (IH []). exact Hs.
      + apply Nat.leb_gt in E. change (rows ++ r :: rest) with (rows ++ [r] ++ rest). rewrite app_assoc.
        apply IH. rewrite app_length. simpl. lia.
  Qed.
  Lemma batches_cut l : cut size l (@batches R size l).
  Proof. apply (loop_cut l []). exact Hs. Qed.
  Lemma cut_concat (l : list R) bs : cut size l bs -> concat bs = l.
  Proof. induction 1; simpl; [reflexivity|apply app_nil_r|congruence]. Qed.
  Lemma cut_sizes (l : list R) bs b : cut size l bs -> In b bs -> b <> [] /\ length b <= size.
  Proof.
    induction 1 as [|b' H L|b' l bs H C IH]; intros I; [destruct I| |].
    - destruct I as [<-|[]]. split; [exact H|lia].
    - destruct I as [<-|I]; [split; [destruct b'; simpl in *; [lia|discriminate]|lia]|auto].
  Qed.
  Lemma cut_full_prefix (l : list R) bs a b c : cut size l bs -> bs = a ++ b :: c -> c <> [] -> length b = size.
  Proof.
    intros C. revert a. induction C as [|b' H L|b' l bs H C IH]; intros a E N.
    - destruct a; discriminate.
    - destruct a as [|x [|y a]]; inversion E; subst; contradiction.
    - destruct a as [|x a]; inversion E; subst; [reflexivity|]. apply (IH a eq_refl N).
  Qed.
  Lemma cut_unique (l : list R) bs : cut size l bs -> forall bs', cut size l bs' -> bs = bs'.
  Proof.
    induction 1 as [|b H L|b l bs H C IH]; intros bs' C'.
    - inversion C' as [|b' H' L' E|b' l' bs'' H' C'' E]; [reflexivity|contradiction|]. destruct b'; [simpl in *; lia|discriminate].
    - inversion C' as [E|b' H' L' E|b' l' bs'' H' C'' E]; [congruence|reflexivity|]. rewrite <- E, app_length in L. lia.
    - inversion C' as [E|b' H' L' E|b' l' bs'' H' C'' E]; try subst bs'.
      + destruct b; [simpl in H; lia|discriminate].
      + rewrite app_length in L'. lia.
      + assert (b' = b /\ l' = l) as [-> ->].
        { clear - E H' H. rewrite <- H in H'. clear H. revert b' H' E. induction b as [|x b IH]; intros [|y b'] H' E; simpl in *; try discriminate; [auto|].
          injection E as -> E. injection H' as H'. destruct (IH b' H' E) as [-> ->]. auto. }
        f_equal. apply IH. exact C''.
  Qed.
  Lemma batches_count (l : list R) bs : cut size l bs -> length l <= length bs * size < length l + size.
  Proof.
    induction 1 as [|b H L|b l bs H C IH]; simpl; [lia| |].
    - destruct b; [contradiction|]. simpl in *. lia.
    - rewrite app_length. lia.
  Qed.
End P.
