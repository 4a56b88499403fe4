(** C32: the constraint factories give back exactly the constraints whose rows they are fed. *)
From Verif Require Import PyStr QuoteModel Types Objects EqProofs Factory FactorySpec FactoryProofs.
From Coq Require Import Permutation.
Open Scope list_scope.
Open Scope string_scope.

(** Unique constraints: for every interleaving [rows] of the columns of [groups]. *)
Theorem C32_unique_regrouped : forall rows groups, tells rows groups ->
  Permutation (uf_run rows) (map (fun g => CUnique (fst g) (snd g)) groups).
Proof. intros rows groups T. rewrite uf_group. apply Permutation_map, group_tells, T. Qed.
Print Assumptions C32_unique_regrouped.

(** Every sequence of rows describes one set of constraints, so the theorem above leaves out no input. *)
Theorem C32_rows_always_tell : forall rows : list (string * string), exists groups, tells rows groups.
Proof. intros rows. exists (group rows). apply tells_group. Qed.
Print Assumptions C32_rows_always_tell.

(** Foreign keys: a constraint set [keys] with distinct names and at least one column each; the rows of each key are its
    column pairs in order and carry its table; other rows do not occur; the keys may be interleaved at will. *)
Definition tells_keys (rows : list frow) (keys : list fkey) : Prop :=
  NoDup (map k_name keys) /\
  (forall k, In k keys -> k_source k <> [] /\ length (k_source k) = length (k_target k) /\
    filter (fun r => String.eqb (f_name r) (k_name k)) rows = map (fun p => FRow (k_name k) (fst p) (k_table k) (snd p)) (combine (k_source k) (k_target k))) /\
  (forall r, In r rows -> In (f_name r) (map k_name keys)).
Definition key_constr (k : fkey) : constr := CForeign (k_name k) (k_source k) (k_table k) (k_target k).

Lemma keys_one_target rows keys : tells_keys rows keys -> one_target rows.
Proof.
  intros (ND & M & R) r s Ir Is E.
  assert (X : forall k t, In k keys -> In t rows -> f_name t = k_name k -> f_table t = k_table k).
  { intros k t Ik It En. destruct (M k Ik) as (_ & _ & F).
    assert (J : In t (filter (fun r => String.eqb (f_name r) (k_name k)) rows)) by (apply filter_In; split; [exact It|now apply String.eqb_eq]).
    rewrite F in J. apply in_map_iff in J. destruct J as (p & <- & _). reflexivity. }
  pose proof (R r Ir) as K. apply in_map_iff in K. destruct K as (k & Ek & Ik).
  rewrite (X k r Ik Ir (eq_sym Ek)). symmetry. apply (X k s Ik Is). congruence.
Qed.
Lemma keys_tells rows keys : tells_keys rows keys -> tells (map as_row rows) (map (fun k => (k_name k, combine (k_source k) (k_target k))) keys).
Proof.
  intros (ND & M & R). unfold tells. rewrite map_map. cbn [fst]. split; [exact ND|]. split.
  - intros n cs I. apply in_map_iff in I. destruct I as (k & [= <- <-] & I). destruct (M k I) as (NE & L & F). split.
    + destruct (k_source k), (k_target k); cbn in *; try discriminate; contradiction.
    + assert (X : forall l, filter (fun r : string * (string * string) => String.eqb (fst r) (k_name k)) (map as_row l) = map as_row (filter (fun r => String.eqb (f_name r) (k_name k)) l)).
      { induction l as [|x l IH]; [reflexivity|]. cbn. destruct (String.eqb (f_name x) (k_name k)); cbn; now rewrite IH. }
      rewrite X, F, !map_map. cbn. etransitivity; [apply map_ext with (g := fun p => p); now intros []|apply map_id].
  - intros r I. apply in_map_iff in I. destruct I as (f & <- & I). cbn. exact (R f I).
Qed.
Lemma map_fst_combine {A B} (l : list A) (l' : list B) : length l = length l' -> map fst (combine l l') = l.
Proof. revert l'. induction l as [|a l IH]; intros [|b l'] E; cbn in *; try discriminate; [reflexivity|]. now rewrite IH by (injection E as E; exact E). Qed.
Lemma map_snd_combine {A B} (l : list A) (l' : list B) : length l = length l' -> map snd (combine l l') = l'.
Proof. revert l'. induction l as [|a l IH]; intros [|b l'] E; cbn in *; try discriminate; [reflexivity|]. now rewrite IH by (injection E as E; exact E). Qed.

Theorem C32_foreign_regrouped : forall rows keys, tells_keys rows keys ->
  exists cs, ff_run rows = Ok cs /\ Permutation cs (map key_constr keys).
Proof.
  intros rows keys T. destruct (ff_run_spec rows) as [A _]. destruct (A (keys_one_target _ _ T)) as (m & E & TG & S).
  exists (ff_fetch m). split; [exact E|].
  pose proof (group_tells _ _ (keys_tells _ _ T)) as P. rewrite <- S in P.
  assert (X : ff_fetch m = map (fun e => CForeign (fst e) (map fst (snd (snd e))) (fst (snd e)) (map snd (snd (snd e)))) m) by (destruct m; reflexivity).
  rewrite X. clear X.
  destruct T as (ND & M & R).
  assert (NDm : NoDup (map fst m)). { rewrite <- strip_fst, S. apply (group_inv (map as_row rows)). }
  assert (FN : forall n v, In (n, v) m -> find_entry n m = Some v).
  { clear - NDm. induction m as [|[k a] m IH]; intros n v; [intros []|]. inversion NDm as [|? ? NI ND']; subst. cbn. intros [[= -> ->]|I]; [now rewrite String.eqb_refl|].
    destruct (String.eqb_spec k n) as [->|_]; [|exact (IH ND' _ _ I)]. exfalso. apply NI. apply (in_map fst) in I. exact I. }
  assert (TT : forall n q ps k, In (n, (q, ps)) m -> In k keys -> n = k_name k -> q = k_table k).
  { intros n q ps k I Ik ->. destruct (proj1 TG _ _ _ (FN _ _ I)) as (r & Ir & En & <-). destruct (M k Ik) as (_ & _ & F).
    assert (J : In r (filter (fun r => String.eqb (f_name r) (k_name k)) rows)) by (apply filter_In; split; [exact Ir|now apply String.eqb_eq]).
    rewrite F in J. apply in_map_iff in J. destruct J as (p & <- & _). reflexivity. }
  apply NoDup_Permutation.
  - apply (NoDup_map_inv Objects.k_name). rewrite map_map. cbn. exact NDm.
  - apply (NoDup_map_inv Objects.k_name). rewrite map_map. cbn. exact ND.
  - intros c. split; intros I; apply in_map_iff in I.
    + destruct I as ([n [q ps]] & <- & I). cbn.
      assert (J : In (n, ps) (strip m)) by (apply in_map_iff; exists (n, (q, ps)); auto).
      apply (Permutation_in _ P) in J. apply in_map_iff in J. destruct J as (k & [= <- <-] & Ik).
      apply in_map_iff. exists k. split; [|exact Ik]. unfold key_constr. destruct (M k Ik) as (_ & L & _).
      rewrite (TT _ _ _ k I Ik eq_refl), map_fst_combine, map_snd_combine by exact L. reflexivity.
    + destruct I as (k & <- & Ik). destruct (M k Ik) as (_ & L & _).
      assert (J : In (k_name k, combine (k_source k) (k_target k)) (strip m)) by (apply (Permutation_in _ (Permutation_sym P)), in_map_iff; exists k; auto).
      apply in_map_iff in J. destruct J as ([n [q ps]] & EE & I). cbn in EE. injection EE as -> ->.
      apply in_map_iff. exists (k_name k, (q, combine (k_source k) (k_target k))). split; [|exact I]. cbn.
      unfold key_constr. rewrite (TT _ _ _ k I Ik eq_refl), map_fst_combine, map_snd_combine by exact L. reflexivity.
Qed.
Print Assumptions C32_foreign_regrouped.

(** Rows of one constraint that point to different tables are refused, and only those. *)
Theorem C32_foreign_refused : forall rows,
  (exists e, ff_run rows = Err e) <-> exists r s, In r rows /\ In s rows /\ f_name r = f_name s /\ f_table r <> f_table s.
Proof.
  intros rows. destruct (ff_run_spec rows) as [A B]. split.
  - intros [e E].
    assert (D : forall l, one_target l \/ exists r s, In r l /\ In s l /\ f_name r = f_name s /\ f_table r <> f_table s).
    { induction l as [|x l [O|(r & s & Ir & Is & X)]]; [left; intros ? ? []| |right; exists r, s; split; [now right|split; [now right|exact X]]].
      assert (Y : (forall s, In s l -> f_name x = f_name s -> f_table x = f_table s) \/ exists s, In s l /\ f_name x = f_name s /\ f_table x <> f_table s).
      { clear. induction l as [|y l [H|(s & I & X)]]; [left; intros ? []| |right; exists s; split; [now right|exact X]].
        destruct (string_dec (f_name x) (f_name y)) as [EN|NN].
        - destruct (qid_eqb (f_table x) (f_table y)) eqn:EQ.
          + apply qid_eqb_eq in EQ. left. intros s [<-|I]; auto.
          + right. exists y. split; [now left|]. split; [exact EN|]. intros EE. assert (Z : qid_eqb (f_table x) (f_table y) = true) by (apply qid_eqb_eq; exact EE). congruence.
        - left. intros s [<-|I]; [contradiction|auto]. }
      destruct Y as [Y|(s & Is & X)].
      - left. intros a b [<-|Ia] [<-|Ib] EN; [reflexivity|exact (Y b Ib EN)|symmetry; exact (Y a Ia (eq_sym EN))|exact (O a b Ia Ib EN)].
      - right. exists x, s. split; [now left|]. split; [now right|exact X]. }
    destruct (D rows) as [O|X]; [|exact X]. destruct (A O) as (m & E' & _). rewrite E' in E. discriminate E.
  - intros (r & s & Ir & Is & EN & NT). exists "ValueError". apply B. intros O. apply NT. exact (O r s Ir Is EN).
Qed.
Print Assumptions C32_foreign_refused.

(** The rows that a catalog query delivers when it joins the columns of the key and of the referenced constraint by
    position, key after key or in any other order that keeps those of each key. *)
Lemma position_tells keys : NoDup (map k_name keys) ->
  (forall k, In k keys -> k_source k <> [] /\ length (k_source k) = length (k_target k)) ->
  tells_keys (flat_map joined_by_position keys) keys.
Proof.
  intros ND H. split; [exact ND|]. split.
  - intros k I. destruct (H k I) as [NE L]. split; [exact NE|]. split; [exact L|].
    assert (X : forall k' l, filter (fun r => String.eqb (f_name r) (k_name k)) (map (fun p => FRow (k_name k') (fst p) (k_table k') (snd p)) l) =
                if String.eqb (k_name k') (k_name k) then map (fun p => FRow (k_name k') (fst p) (k_table k') (snd p)) l else []).
    { intros k' l. induction l as [|p l IH]; cbn; [now destruct (String.eqb _ _)|]. rewrite IH. now destruct (String.eqb (k_name k') (k_name k)). }
    clear H NE L. induction keys as [|k' keys IH]; [destruct I|]. cbn [flat_map]. inversion ND as [|? ? NI ND']; subst.
    rewrite filter_app. unfold joined_by_position at 1. rewrite X. destruct I as [->|I].
    + rewrite String.eqb_refl.
      assert (Z : filter (fun r => String.eqb (f_name r) (k_name k)) (flat_map joined_by_position keys) = []); [|rewrite Z; apply app_nil_r].
      clear IH ND ND'. induction keys as [|k' keys IH]; [reflexivity|]. cbn [flat_map]. rewrite filter_app. unfold joined_by_position at 1. rewrite X.
      destruct (String.eqb_spec (k_name k') (k_name k)) as [EN|_]; [exfalso; apply NI; now left|]. cbn. apply IH. intros J. apply NI. now right.
    + destruct (String.eqb_spec (k_name k') (k_name k)) as [EN|_]; [exfalso; apply NI; rewrite EN; apply in_map; exact I|]. exact (IH ND' I).
  - intros r I. apply in_flat_map in I. destruct I as (k & Ik & I). apply in_map_iff in I. destruct I as (p & <- & _). cbn. apply in_map. exact Ik.
Qed.
Theorem C32_query_by_position : forall keys, NoDup (map k_name keys) ->
  (forall k, In k keys -> k_source k <> [] /\ length (k_source k) = length (k_target k)) ->
  exists cs, ff_run (flat_map joined_by_position keys) = Ok cs /\ Permutation cs (map key_constr keys).
Proof. intros keys ND H. apply C32_foreign_regrouped, position_tells; assumption. Qed.
Print Assumptions C32_query_by_position.

(** The query of the Oracle explorer joins the columns of the two constraints by the names of the constraints alone: a
    key of two columns comes back as one of four. *)
Theorem C32_oracle_query_refuted : exists k : fkey,
  length (k_source k) = length (k_target k) /\ ff_run (joined_by_name k) <> Ok [key_constr k].
Proof.
  exists (FKey "fk" ["a"; "b"] (Qualified (Some "s") "t") ["x"; "y"]). split; [reflexivity|]. vm_compute. discriminate.
Qed.
Print Assumptions C32_oracle_query_refuted.
(** For keys of a single column the two queries are the same. *)
Theorem C32_oracle_query_single : forall k, length (k_source k) = 1 -> length (k_target k) = 1 -> joined_by_name k = joined_by_position k.
Proof. intros [n [|a [|? ?]] q [|b [|? ?]]] L L'; try discriminate L; try discriminate L'. reflexivity. Qed.
Print Assumptions C32_oracle_query_single.

(** The ANSI query pairs a column of the key with the column at the same position of the referenced unique constraint:
    a key that lists the referenced columns in another order comes back with the wrong pairs.  [k] is the key as
    declared and [unique] are the columns of the constraint it references, in the order of that constraint. *)
Theorem C32_reordered_reference_refuted : exists (k : fkey) (unique : list string),
  Permutation unique (k_target k) /\
  ff_run (joined_by_position (FKey (k_name k) (k_source k) (k_table k) unique)) <> Ok [key_constr k].
Proof.
  exists (FKey "fk" ["a"; "b"] (Qualified (Some "s") "t") ["y"; "x"]), ["x"; "y"]. split; [apply perm_swap|]. vm_compute. discriminate.
Qed.
Print Assumptions C32_reordered_reference_refuted.

(** Two keys whose rows interleave, one of them composite. *)
Definition ex_keys : list fkey := [FKey "f1" ["a"; "b"] (Qualified (Some "s") "t") ["x"; "y"]; FKey "f2" ["c"] (Qualified None "u") ["id"]].
Definition ex_rows : list frow := [FRow "f1" "a" (Qualified (Some "s") "t") "x"; FRow "f2" "c" (Qualified None "u") "id"; FRow "f1" "b" (Qualified (Some "s") "t") "y"].
Example C32_ex : tells_keys ex_rows ex_keys /\ ff_run ex_rows = Ok (map key_constr ex_keys).
Proof.
  split; [|reflexivity]. split; [simpl; repeat (apply NoDup_cons; [simpl; intuition discriminate|]); apply NoDup_nil|]. split.
  - intros k [<-|[<-|[]]]; (split; [discriminate|]; split; reflexivity).
  - intros r [<-|[<-|[<-|[]]]]; cbn; auto.
Qed.
Example C32_ex_unique : tells [("u1", "a"); ("u2", "c"); ("u1", "b")] [("u2", ["c"]); ("u1", ["a"; "b"])].
Proof.
  split; [simpl; repeat (apply NoDup_cons; [simpl; intuition discriminate|]); apply NoDup_nil|]. split.
  - intros n cs [[= <- <-]|[[= <- <-]|[]]]; (split; [discriminate|reflexivity]).
  - intros r [<-|[<-|[<-|[]]]]; cbn; auto.
Qed.
