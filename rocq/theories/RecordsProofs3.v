(** Proofs for C28: growth of a lookup table over batches, and success. *)
From Verif Require Import PyStr QuoteModel ObjectDict ObjectDictProofs Types Objects SqlAst Ddl Render Dml RowSpec DmlSpec TablePredProofs
  DmlProofs Records RecordsSpec RecordsProofs RecordsProofs2.
From Coq Require Import Lia Arith Permutation.
Open Scope list_scope.

Section G.
  Context (d : dialect) (state : catalog) (vt : column -> ftype -> option fn).
  Context (set_order : list pv -> list pv) (fill : qid -> list prow -> string -> option pv).
  Context (SO : forall l x, In x (set_order l) <-> In x l) (Hs : sound_tables state) (Hf : filed state).

  Lemma same_name_same q1 q2 r1 r2 : cat_get_table state q1 = Ok r1 -> cat_get_table state q2 = Ok r2 -> t_name r1 = t_name r2 -> r1 = r2.
  Proof.
    intros A B E. destruct (cat_get_in _ _ _ A) as (n1 & I1 & J1 & K1 & G1 & T1). destruct (cat_get_in _ _ _ B) as (n2 & I2 & J2 & K2 & G2 & T2).
    pose proof (Hf _ _ I1 J1) as F1. pose proof (Hf _ _ I2 J2) as F2. rewrite E in F1. rewrite F1 in F2.
    pose proof (get_some _ _ _ _ G1) as [_ N1]. pose proof (get_some _ _ _ _ G2) as [_ N2]. cbn in N1, N2.
    rewrite <- N1 in G1. rewrite <- N2 in G2. rewrite <- F2 in G2. assert (n1 = n2) by congruence. subst n2.
    assert (local_id q1 = local_id q2) by (unfold t_key in K1, K2; congruence). congruence.
  Qed.

  Lemma as_set_in l x : In x (as_set set_order l) <-> In x l.
  Proof. unfold as_set. rewrite SO. apply nodup_In. Qed.

  Lemma column_values_in batch i : forall vs x, column_values batch i = Ok vs -> (In x vs <-> exists r, In r batch /\ nth_error r i = Some (Some x)).
  Proof.
    induction batch as [|r batch IH]; intros vs x H; cbn [column_values] in H.
    - injection H as <-. split; [intros []|intros (? & [] & _)].
    - assert (SK : forall vs', (In x vs' <-> exists r, In r batch /\ nth_error r i = Some (Some x)) -> nth_error r i <> Some (Some x) ->
        (In x vs' <-> exists r', In r' (r :: batch) /\ nth_error r' i = Some (Some x))).
      { intros vs' E N. rewrite E. split; intros (r' & I & F); [exists r'; split; [now right|exact F]|]. destruct I as [<-|I]; [contradiction|eauto]. }
      destruct (nth_error r i) as [[y|]|] eqn:E; [| |discriminate].
      + assert (H' : (do vs <- column_values batch i; Ok (y :: vs)) = Ok vs) by (destruct y; try discriminate; exact H). clear H.
        destruct (column_values batch i) as [vs'|]; cbn [bind] in H'; [|discriminate]. injection H' as <-. specialize (IH vs' x eq_refl).
        split.
        * intros [<-|I]; [exists r; split; [now left|exact E]|]. apply IH in I. destruct I as (r' & I & F). exists r'. split; [now right|exact F].
        * intros (r' & [<-|I] & F); [left; congruence|right; apply IH; eauto].
      + apply SK; [|discriminate]. apply IH. exact H.
  Qed.
  Lemma list_values_in batch i : forall vs x, list_values batch i = Ok vs ->
    (In x vs <-> exists r ls s, In r batch /\ nth_error r i = Some (Some (PVLabels ls)) /\ In (Some s) ls /\ x = PVStr s).
  Proof.
    induction batch as [|r batch IH]; intros vs x H; cbn [list_values] in H.
    - injection H as <-. split; [intros []|intros (? & ? & ? & [] & _)].
    - destruct (nth_error r i) as [[[| |ls| |]|]|] eqn:E; try discriminate.
      destruct (list_values batch i) as [vs'|]; cbn [bind] in H; [|discriminate]. injection H as <-. specialize (IH vs' x eq_refl).
      rewrite in_app_iff, IH. unfold labels. rewrite in_flat_map. split.
      + intros [([s|] & I & J)|(r' & ls' & s & I & F)]; [|destruct J|exists r', ls', s; split; [now right|exact F]].
        destruct J as [<-|[]]. exists r, ls, s. split; [now left|]. auto.
      + intros (r' & ls' & s & [<-|I] & F & J & ->); [|right; exists r', ls', s; auto]. left. assert (ls' = ls) by congruence. subst. exists (Some s). split; [exact J|now left].
  Qed.

  Section One.
    Context (rel : table) (k v : string).
    Context (LO : lookup_of state rel k v) (GK : generated_key rel k v) (FK : fresh_keys (fill (t_name rel)) k v).
    Let q := t_name rel.

    Lemma rel_sound : NoDup (map c_name (t_columns rel)) /\
      (forall n cs, In (CUnique n cs) (t_constraints rel) -> cs <> [] /\ forall c, In c cs -> In c (map c_name (t_columns rel))).
    Proof. destruct LO as [[q0 G] _]. destruct (cat_get_in _ _ _ G) as (n & I & J & _). destruct (Hs _ _ I J) as (A & _ & B). auto. Qed.

    Definition grown (S S' : store) (P : pv -> Prop) : Prop :=
      exists new, S' q = S q ++ new /\ lookup_rows (S' q) k v /\ forall x, has_label new v x <-> P x /\ ~ has_label (S q) v x.
    Lemma grown_none S S' (P : pv -> Prop) : lookup_rows (S q) k v -> S' q = S q -> (forall x, ~ P x) -> grown S S' P.
    Proof. intros L E N. exists []. rewrite E, app_nil_r. split; [reflexivity|]. split; [exact L|]. intros x. split; [intros (? & [] & _)|]. intros [X _]. destruct (N x X). Qed.
    Lemma grown_ext S S' (P Q : pv -> Prop) : (forall x, P x <-> Q x) -> grown S S' P -> grown S S' Q.
    Proof. intros E (new & A & B & C). exists new. split; [exact A|]. split; [exact B|]. intros x. rewrite C, E. tauto. Qed.
    Lemma grown_trans S S1 S2 (P Q : pv -> Prop) : grown S S1 P -> grown S1 S2 Q -> grown S S2 (fun x => P x \/ Q x).
    Proof.
      intros (n1 & A1 & B1 & C1) (n2 & A2 & B2 & C2). exists (n1 ++ n2). split; [now rewrite A2, A1, app_assoc|]. split; [exact B2|].
      assert (AP : forall a b x, has_label (a ++ b) v x <-> has_label a v x \/ has_label b v x).
      { intros a b x. unfold has_label. split.
        - intros (r & I & E). apply in_app_or in I. destruct I; [left|right]; eauto.
        - intros [(r & I & E)|(r & I & E)]; exists r; (split; [apply in_or_app|exact E]); auto. }
      intros x. rewrite AP, C1, C2, A1, AP, C1. destruct (has_label_dec v n1 x) as [H|H]; rewrite C1 in H; tauto.
    Qed.

    Lemma has_dict r rows x : lookup_rows rows k v -> In r rows -> r v = Some x ->
      exists z, dict_get x (map (fun r => (r v, r k)) rows) = Some (Some (PVInt z)).
    Proof.
      intros (A & _) I E.
      assert (X : forall l, (forall r, In r l -> exists z l', r k = Some (PVInt z) /\ r v = Some l') -> In r l -> exists z, dict_get x (map (fun r : prow => (r v, r k)) l) = Some (Some (PVInt z))).
      { clear I A. induction l as [|r0 l IH]; intros A []; cbn [map dict_get].
        - subst r0. destruct (dict_get x (map (fun r : prow => (r v, r k)) l)) as [y|] eqn:D.
          + apply dict_get_in in D. apply in_map_iff in D. destruct D as (r1 & [= E1 E2] & I1). destruct (A r1 (or_intror I1)) as (z & l' & Z & _). exists z. f_equal. rewrite <- E2. exact Z.
          + rewrite E. unfold pv_eqb. destruct (pv_eq_dec x x); [|contradiction]. destruct (A r (or_introl eq_refl)) as (z & l' & Z & _). exists z. f_equal. exact Z.
        - destruct IH as (z & ->); [intros; apply A; now right|assumption|]. eauto. }
      exact (X rows A I).
    Qed.
    Lemma merge_lookup_live S vs : lookup_rows (S q) k v ->
      exists S' dc, merge_lookup d fill rel S vs = Ok (S', dc) /\ grown S S' (fun x => In x vs) /\
        forall x, In x vs -> exists z, dict_get x dc = Some (Some (PVInt z)).
    Proof.
      intros L. destruct vs as [|x0 vs].
      { exists S, []. split; [reflexivity|]. split; [apply grown_none; auto|intros ? []]. }
      destruct rel_sound as [ND UC]. pose proof LO as [_ LT].
      destruct (merge_total d rel k v (fill q) ND UC LT GK FK) as (s & ES & _).
      destruct (merge_many d rel k v (fill q) ND UC LT GK FK s ES (x0 :: vs) _ L) as (new & E & L' & W).
      unfold merge_lookup. rewrite ES. cbn [bind]. fold q. rewrite E. cbn [bind].
      assert (VC : exists vc, get_value_columns rel None = Ok [vc] /\ c_name vc = v).
      { destruct LT as (N & P & _ & M). unfold get_value_columns. cbn [get_columns bind]. rewrite P. unfold generated_key in GK.
        destruct M as [M|M]; destruct (t_columns rel) as [|a [|b [|? ?]]]; try discriminate; injection M as Ea Eb; cbn [filter];
          pose proof (GK a (or_introl eq_refl)) as [Ga Ga']; pose proof (GK b (or_intror (or_introl eq_refl))) as [Gb Gb'];
          rewrite Ea, Eb; assert (X1 : str_in k [k] = true) by (apply str_in_spec; now left);
          assert (X2 : str_in v [k] = false) by (apply str_in_false; simpl; intuition congruence); rewrite X1, X2; cbn [negb andb].
        - rewrite (Gb' Eb). cbn. eauto.
        - rewrite (Ga' Ea). cbn. eauto. }
      destruct VC as (vc & -> & EV). cbn [bind].
      assert (KC : exists kc, get_primary_column rel = Ok kc /\ c_name kc = k).
      { destruct LT as (N & P & _ & M). assert (X : exists kc, In kc (t_columns rel) /\ c_name kc = k).
        { destruct M as [M|M]; destruct (t_columns rel) as [|a [|b [|? ?]]]; try discriminate; injection M as Ea Eb; [exists a|exists b]; simpl; auto. }
        destruct X as (kc & I & EK). exists kc. split; [|exact EK]. apply get_primary_column_ok; [exact ND|]. split; [exact I|congruence]. }
      destruct KC as (kc & -> & EK). cbn [bind]. rewrite EV, EK.
      do 2 eexists. split; [reflexivity|]. split.
      - exists new. rewrite put_eq. auto.
      - intros x I. assert (H : has_label (S q ++ new) v x).
        { destruct (has_label_dec v (S q) x) as [(r & J & R)|H]; [exists r; split; [apply in_or_app; now left|exact R]|].
          destruct (proj2 (W x) (conj I H)) as (r & J & R). exists r. split; [apply in_or_app; now right|exact R]. }
        destruct H as (r & J & R). eapply has_dict; eassumption.
    Qed.
    Lemma merge_lookup_other rel' S vs S' dc : t_name rel' <> q -> merge_lookup d fill rel' S vs = Ok (S', dc) -> S' q = S q.
    Proof.
      intros N H. unfold merge_lookup in H. destruct vs as [|x0 vs]; [now injection H as <- _|].
      destruct (merge_stmt d rel' None) as [s|]; cbn [bind] in H; [|discriminate].
      destruct (exec_many _ _ _ _ _ _) as [rows|]; cbn [bind] in H; [|discriminate].
      destruct (get_value_columns rel' None) as [[|vc vcs]|]; cbn [bind] in H; try discriminate.
      destruct (get_primary_column rel') as [kc|]; cbn [bind] in H; [|discriminate]. injection H as <- _.
      unfold put. destruct (qid_eq_dec q (t_name rel')); congruence.
    Qed.

    (** labels that a transformer contributes to [rel] *)
    Definition contributes (batch : list record) (tr : transformer) (x : pv) : Prop :=
      match tr with
      | TScalar _ => False
      | TEnum rel' i => rel' = rel /\ exists r, In r batch /\ nth_error r i = Some (Some x)
      | TEnumList rel' i => rel' = rel /\ exists r ls s, In r batch /\ nth_error r i = Some (Some (PVLabels ls)) /\ In (Some s) ls /\ x = PVStr s
      end.
    Definition catalogued (tr : transformer) : Prop :=
      match tr with TScalar _ => True | TEnum rel' _ | TEnumList rel' _ => exists q', cat_get_table state q' = Ok rel' end.
    Lemma rel_or_other rel' : (exists q', cat_get_table state q' = Ok rel') -> rel' = rel \/ t_name rel' <> q.
    Proof.
      intros [q' G]. destruct (qid_eq_dec (t_name rel') q) as [E|E]; [left|now right]. destruct LO as [[q2 G2] _]. exact (same_name_same _ _ _ _ G G2 E).
    Qed.
    Lemma merge_grown rel' S vs S' dc (P : pv -> Prop) : (exists q', cat_get_table state q' = Ok rel') -> lookup_rows (S q) k v ->
      merge_lookup d fill rel' S vs = Ok (S', dc) -> (forall x, P x <-> rel' = rel /\ In x vs) -> grown S S' P.
    Proof.
      intros C L M E. destruct (rel_or_other rel' C) as [->|N].
      - destruct (merge_lookup_live S vs L) as (S1 & dc1 & M1 & G & _). rewrite M in M1. injection M1 as <- <-.
        eapply grown_ext; [|exact G]. intros x. rewrite E. tauto.
      - apply grown_none; [exact L|exact (merge_lookup_other _ _ _ _ _ N M)|]. intros x X. apply E in X. destruct X as [X _]. subst. contradiction.
    Qed.
    Lemma get_fn_grown tr S batch S' f : catalogued tr -> lookup_rows (S q) k v -> get_fn d set_order fill tr S batch = Ok (S', f) ->
      grown S S' (contributes batch tr).
    Proof.
      intros C L H. destruct tr as [g|rel' i|rel' i]; cbn [get_fn] in H.
      - injection H as <- <-. apply grown_none; auto.
      - destruct (column_values batch i) as [vs|] eqn:CV; cbn [bind] in H; [|discriminate].
        destruct (merge_lookup d fill rel' S _) as [[S1 dc]|] eqn:M; cbn [bind fst snd] in H; [|discriminate]. injection H as <- <-.
        eapply merge_grown; [exact C|exact L|exact M|]. intros x. cbn. rewrite as_set_in, (column_values_in _ _ _ x CV). reflexivity.
      - destruct (list_values batch i) as [vs|] eqn:CV; cbn [bind] in H; [|discriminate].
        destruct (merge_lookup d fill rel' S _) as [[S1 dc]|] eqn:M; cbn [bind fst snd] in H; [|discriminate]. injection H as <- <-.
        eapply merge_grown; [exact C|exact L|exact M|]. intros x. cbn. rewrite as_set_in, (list_values_in _ _ _ x CV). reflexivity.
    Qed.
    Lemma grown_rows S S' P : grown S S' P -> lookup_rows (S' q) k v.
    Proof. intros (? & _ & H & _). exact H. Qed.
    Lemma get_fns_grown trs : forall S batch S' fs, Forall catalogued trs -> lookup_rows (S q) k v ->
      get_fns d set_order fill trs S batch = Ok (S', fs) -> grown S S' (fun x => exists tr, In tr trs /\ contributes batch tr x).
    Proof.
      induction trs as [|tr trs IH]; intros S batch S' fs C L H; cbn [get_fns] in H.
      - injection H as <- <-. apply grown_none; auto. intros x (? & [] & _).
      - inversion C as [|? ? C1 C2]; subst. destruct (get_fn d set_order fill tr S batch) as [[S1 f]|] eqn:E; cbn [bind fst snd] in H; [|discriminate].
        destruct (get_fns d set_order fill trs S1 batch) as [[S2 gs]|] eqn:E2; cbn [bind fst snd] in H; [|discriminate]. injection H as <- <-.
        pose proof (get_fn_grown _ _ _ _ _ C1 L E) as G1. pose proof (IH _ _ _ _ C2 (grown_rows _ _ _ G1) E2) as G2.
        eapply grown_ext; [|exact (grown_trans _ _ _ _ _ G1 G2)]. cbn. intros x. split.
        + intros [X|(tr' & I & X)]; [exists tr; auto|exists tr'; auto].
        + intros (tr' & [<-|I] & X); [now left|right; eauto].
    Qed.
  End One.

  Section T.
    Context (t : table) (Ht : cat_get_table state (t_name t) = Ok t).

    Lemma trs_catalogued l trs :
      Forall2 (fun (x : nat * ftype * string) tr => get_transformer state vt t (fst (fst x)) (snd (fst x)) (snd x) = Ok tr) l trs -> Forall catalogued trs.
    Proof.
      intros F. induction F as [|x tr l trs G F IH]; constructor; [|exact IH].
      destruct (get_transformer_cases state vt Hs t Ht _ _ _ _ G) as (c & _ & _ & [[_ ->]|(rel & k & v & (_ & (l1 & n & rt & rc & l2 & _ & _ & R) & _) & [[_ ->]|[_ ->]])]); cbn; eauto.
    Qed.
    Lemma items_named types : forall names i pre (r : record) n ty f, skipped_unnamed types names -> length pre = i -> length r = length types -> length names = length types ->
      (In (n, ty, f) (named_fields names types r) <-> exists j, In (j, ty, n) (items i types names) /\ nth_error (pre ++ r) j = Some f).
    Proof.
      induction types as [|ty0 types IH]; intros names i pre r n ty f SK LP LR LN.
      - destruct names; [|discriminate]. destruct r; [|discriminate]. cbn. split; [intros []|intros (? & [] & _)].
      - destruct names as [|n0 names]; [discriminate|]. destruct r as [|x r]; [discriminate|]. injection LR as LR. injection LN as LN.
        assert (SK' : skipped_unnamed types names) by (intros j; exact (SK (S j))).
        assert (EO : omitted ty0 n0 = String.eqb n0 "").
        { destruct ty0; try reflexivity. specialize (SK 0 eq_refl). injection SK as ->. reflexivity. }
        assert (LP' : length (pre ++ [x]) = S i) by (rewrite app_length, LP; apply Nat.add_1_r).
        specialize (IH names (S i) (pre ++ [x]) r n ty f SK' LP' LR LN). rewrite <- app_assoc in IH. cbn [app] in IH.
        unfold named_fields in *. cbn [combine filter fst]. cbn [items]. rewrite EO. destruct (String.eqb n0 "") eqn:EN; cbn [negb app].
        + exact IH.
        + cbn [In]. split.
          * intros [[= -> -> ->]|I]; [exists i; split; [now left|]|].
            -- rewrite nth_error_app2 by (subst; apply Nat.le_refl). subst i. rewrite Nat.sub_diag. reflexivity.
            -- apply IH in I. destruct I as (j & I & E). exists j. split; [now right|exact E].
          * intros (j & [[= <- <- <-]|I] & E); [left|right; apply IH; eauto].
            rewrite nth_error_app2 in E by (subst; apply Nat.le_refl). subst i. rewrite Nat.sub_diag in E. injection E as ->. reflexivity.
    Qed.
    Lemma f2_in_l {A B} (R : A -> B -> Prop) l m a : Forall2 R l m -> In a l -> exists b, In b m /\ R a b.
    Proof. induction 1 as [|x y l m H F IH]; intros []; [subst; exists y; split; [now left|exact H]|]. destruct IH as (b & I & E); [assumption|]. exists b. split; [now right|exact E]. Qed.
    Lemma f2_in_r {A B} (R : A -> B -> Prop) l m b : Forall2 R l m -> In b m -> exists a, In a l /\ R a b.
    Proof. induction 1 as [|x y l m H F IH]; intros []; [subst; exists x; split; [now left|exact H]|]. destruct IH as (a & I & E); [assumption|]. exists a. split; [now right|exact E]. Qed.

    Lemma contributes_mentions types names idx trs batch rel x :
      length names = length types -> skipped_unnamed types names -> (forall r, In r batch -> length r = length types) ->
      plan state vt t 0 types names = Ok (idx, trs) ->
      ((exists tr, In tr trs /\ contributes rel batch tr x) <-> exists r, In r batch /\ mentions state t names types rel r x).
    Proof.
      intros LN SK W P. destruct (plan_items state vt t _ _ _ _ _ P) as [_ F]. split.
      - intros (tr & I & C). destruct (f2_in_r _ _ _ _ F I) as ([[j ty] n] & J & G). cbn in G.
        destruct (get_transformer_cases state vt Hs t Ht _ _ _ _ G) as (c & _ & _ & [[_ ->]|(rel' & k & v & SB & [[-> ->]|[-> ->]])]); [destruct C| |].
        + destruct C as [-> (r & Ir & E)]. exists r. split; [exact Ir|]. exists n, FStr, k, v. split; [exact SB|]. left. split; [reflexivity|].
          apply (items_named types names 0 [] r n FStr _ SK eq_refl (W r Ir) LN). exists j. auto.
        + destruct C as [-> (r & ls & s & Ir & E & L & ->)]. exists r. split; [exact Ir|]. exists n, FList, k, v. split; [exact SB|]. right. split; [reflexivity|].
          exists ls, s. split; [|auto]. apply (items_named types names 0 [] r n FList _ SK eq_refl (W r Ir) LN). exists j. auto.
      - intros (r & Ir & n & ty & k & v & SB & H).
        assert (K : forall f, In (n, ty, f) (named_fields names types r) -> exists tr j, In tr trs /\ nth_error r j = Some f /\
          (ty = FStr /\ tr = TEnum rel j \/ ty = FList /\ tr = TEnumList rel j)).
        { intros f I. apply (items_named types names 0 [] r n ty f SK eq_refl (W r Ir) LN) in I. destruct I as (j & J & E). cbn [app] in E.
          destruct (f2_in_l _ _ _ _ F J) as (tr & It & G). cbn in G.
          destruct (get_transformer_cases state vt Hs t Ht _ _ _ _ G) as (c & _ & _ & [[NS _]|(rel' & k' & v' & SB' & X)]); [destruct (NS _ _ _ SB)|].
          exists tr, j. split; [exact It|]. split; [exact E|]. assert (rel' = rel); [|subst; exact X].
          destruct SB as (_ & R & _), SB' as (_ & R' & _). pose proof (refers_relation state t _ _ R) as RR.
          apply (refers_iff state t Ht _ _ RR) in R. apply (refers_iff state t Ht _ _ RR) in R'. congruence. }
        destruct H as [[-> I]|[-> (ls & s & I & J & ->)]]; destruct (K _ I) as (tr & j & It & E & [[Y ->]|[Y ->]]); try discriminate Y.
        + exists (TEnum rel j). split; [exact It|]. cbn. eauto.
        + exists (TEnumList rel j). split; [exact It|]. cbn. eauto 8.
    Qed.

    Lemma batches_grown types names : length names = length types -> skipped_unnamed types names ->
      forall src, generate_records state vt t types (Some names) = Ok src ->
      forall rel k v, lookup_of state rel k v -> generated_key rel k v -> fresh_keys (fill (t_name rel)) k v ->
      forall bs S S' outs, lookup_rows (S (t_name rel)) k v ->
      (forall b r, In b bs -> In r b -> length r = length types) -> all_batches d set_order fill src S bs = Ok (S', outs) ->
      grown rel k v S S' (fun x => exists r, In r (concat bs) /\ mentions state t names types rel r x).
    Proof.
      intros LN SK src G rel k v LO GK FK. induction bs as [|b bs IH]; intros S S' outs L W H; cbn [all_batches] in H.
      { injection H as <- <-. apply grown_none; auto. intros x (? & [] & _). }
      destruct (one_batch d set_order fill src S b) as [[S1 out]|] eqn:O; cbn [bind fst snd] in H; [|discriminate].
      destruct (all_batches d set_order fill src S1 bs) as [[S2 outs']|] eqn:A; cbn [bind fst snd] in H; [|discriminate]. injection H as <- <-.
      destruct (one_batch_form d state vt set_order fill _ _ _ _ _ _ _ _ G (fun r => W b r (or_introl eq_refl)) O) as (idx & trs & fs & P & GF & M).
      destruct (plan_items state vt t _ _ _ _ _ P) as [_ F1].
      pose proof (get_fns_grown rel k v LO GK FK trs S b S1 fs (trs_catalogued _ _ F1) L GF) as G1.
      pose proof (IH S1 S2 outs' (grown_rows _ _ _ _ _ _ G1) (fun b r I => W b r (or_intror I)) A) as G2.
      eapply grown_ext; [|exact (grown_trans _ _ _ _ _ _ _ _ G1 G2)]. cbn [concat]. intros x.
      rewrite (contributes_mentions types names idx trs b rel x LN SK (fun r => W b r (or_introl eq_refl)) P). split.
      - intros [(r & I & X)|(r & I & X)]; exists r; (split; [apply in_or_app; auto|exact X]).
      - intros (r & I & X). apply in_app_or in I. destruct I; [left|right]; eauto.
    Qed.
  End T.
End G.
