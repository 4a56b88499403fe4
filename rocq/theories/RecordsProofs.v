(** Proofs for C27, C28. *)
From Verif Require Import PyStr QuoteModel ObjectDict ObjectDictProofs Types Objects SqlAst Ddl Render Dml RowSpec DmlSpec TablePredProofs
  DmlProofs Records RecordsSpec.
From Coq Require Import Lia Arith Permutation.
Open Scope list_scope.

Lemma map_res_forall2 {A B} (f : A -> res B) l out : map_res f l = Ok out -> Forall2 (fun a b => f a = Ok b) l out.
Proof.
  revert out. induction l as [|a l IH]; intros out H; simpl in H; [injection H as <-; constructor|].
  destruct (f a) as [b|] eqn:E; simpl in H; [|discriminate]. destruct (map_res f l) as [bs|]; simpl in H; [|discriminate].
  injection H as <-. constructor; [exact E|]. apply IH. reflexivity.
Qed.

Lemma f2_len {A B} (R : A -> B -> Prop) l m : Forall2 R l m -> length l = length m.
Proof. induction 1; simpl; congruence. Qed.
Lemma f2_impl {A B} (R Q : A -> B -> Prop) l m : (forall a b, R a b -> Q a b) -> Forall2 R l m -> Forall2 Q l m.
Proof. intros H F. induction F; constructor; auto. Qed.

Section P.
  Context (d : dialect) (state : catalog) (vt : column -> ftype -> option fn).
  Context (set_order : list pv -> list pv) (fill : qid -> list prow -> string -> option pv).

  (** ** Plan *)
  Fixpoint items (i : nat) (types : list ftype) (names : list string) : list (nat * ftype * string) :=
    match types, names with
    | ty :: types', n :: names' => (if omitted ty n then [] else [(i, ty, n)]) ++ items (S i) types' names'
    | _, _ => []
    end.
  Lemma plan_items t : forall types names i idx trs, plan state vt t i types names = Ok (idx, trs) ->
    idx = map (fun x => fst (fst x)) (items i types names) /\
    Forall2 (fun x tr => get_transformer state vt t (fst (fst x)) (snd (fst x)) (snd x) = Ok tr) (items i types names) trs.
  Proof.
    induction types as [|ty types IH]; intros names i idx trs H; [injection H as <- <-; split; [reflexivity|constructor]|].
    destruct names as [|n names]; [injection H as <- <-; split; [reflexivity|constructor]|].
    cbn [plan] in H. cbn [items]. destruct (omitted ty n); [exact (IH _ _ _ _ H)|].
    destruct (get_transformer state vt t i ty n) as [tr|] eqn:E; cbn [bind] in H; [|discriminate].
    destruct (plan state vt t (S i) types names) as [[a b]|] eqn:E2; cbn [bind] in H; [|discriminate].
    injection H as <- <-. destruct (IH _ _ _ _ E2) as [-> F]. split; [reflexivity|]. cbn. constructor; [exact E|exact F].
  Qed.

  (** ** Sources *)
  Lemma items_length types : forall names i, length (items i types names) <= length types.
  Proof.
    induction types as [|ty types IH]; intros [|n names] i; cbn [items]; simpl; try lia.
    specialize (IH names (S i)). destruct (omitted ty n); simpl; lia.
  Qed.
  Lemma select_all types : forall names i pre (r : record), length (items i types names) = length types ->
    length r = length types -> length pre = i ->
    select (map (fun x => fst (fst x)) (items i types names)) (pre ++ r) = Ok r.
  Proof.
    induction types as [|ty types IH]; intros [|n names] i pre r L R P; cbn [items] in *; simpl in *; try discriminate.
    - destruct r; [reflexivity|discriminate].
    - destruct r; [reflexivity|discriminate].
    - pose proof (items_length types names (S i)). destruct (omitted ty n); simpl in *; [lia|].
      destruct r as [|x r]; [discriminate|]. unfold select in *. cbn [map_res].
      rewrite nth_error_app2 by lia. replace (i - length pre) with 0 by lia. cbn.
      specialize (IH names (S i) (pre ++ [x]) r). rewrite <- app_assoc in IH. cbn in IH. rewrite IH; [reflexivity|injection L as L; exact L|injection R as R; exact R|rewrite app_length; simpl; subst i; apply Nat.add_1_r].
  Qed.
  Lemma one_batch_form t types names src S batch S' out :
    generate_records state vt t types (Some names) = Ok src ->
    (forall r, In r batch -> length r = length types) ->
    one_batch d set_order fill src S batch = Ok (S', out) ->
    exists idx trs fs, plan state vt t 0 types names = Ok (idx, trs) /\ get_fns d set_order fill trs S batch = Ok (S', fs) /\
      map_res (select_convert idx fs) batch = Ok out.
  Proof.
    intros G W O. unfold generate_records in G. destruct (plan state vt t 0 types names) as [[idx trs]|] eqn:P; cbn [bind] in G; [|discriminate].
    exists idx, trs. destruct (plan_items t _ _ _ _ _ P) as [EI F2].
    assert (L : length idx = length trs). { rewrite EI, map_length. exact (f2_len _ _ _ F2). }
    destruct trs as [|tr trs].
    - assert (idx = []) as EI0 by (destruct idx; [reflexivity|discriminate L]). exists []. split; [reflexivity|]. cbn [get_fns]. subst idx. rewrite EI0 in *. clear EI0.
      assert (X : S' = S /\ map_res (select []) batch = Ok out).
      { destruct (Nat.eqb (length (@nil nat)) (length types)) eqn:E; injection G as <-; cbn [one_batch] in O.
        - injection O as <- <-. split; [reflexivity|]. apply Nat.eqb_eq in E. clear - W E. induction batch as [|r b IH]; [reflexivity|].
          cbn [map_res]. unfold select at 1. cbn [map_res bind]. rewrite IH by (intros; apply W; now right). cbn.
          specialize (W r (or_introl eq_refl)). destruct r; [reflexivity|]. rewrite <- E in W. discriminate.
        - destruct (map_res (select []) batch) eqn:E2; cbn [bind] in O; [|discriminate]. injection O as <- <-. split; reflexivity. }
      destruct X as [-> X]. split; [reflexivity|]. rewrite <- X. clear. induction batch as [|r b IH]; [reflexivity|]. cbn [map_res]. rewrite IH. reflexivity.
    - remember (tr :: trs) as T eqn:ET.
      assert (G' : Ok (if Nat.eqb (length idx) (length types) then SrcTransform T else SrcBoth idx T) = Ok src).
      { rewrite <- G. subst T. destruct (Nat.eqb (length idx) (length types)); reflexivity. }
      clear G. destruct (Nat.eqb (length idx) (length types)) eqn:E; injection G' as <-; cbn [one_batch] in O.
      + destruct (get_fns d set_order fill T S batch) as [[S1 fs]|] eqn:EG; cbn [bind fst snd] in O; [|discriminate].
        destruct (map_res (convert fs) batch) as [o|] eqn:EM; cbn [bind] in O; [|discriminate]. injection O as <- <-.
        exists fs. split; [reflexivity|]. split; [reflexivity|]. rewrite <- EM. apply Nat.eqb_eq in E.
        clear - W E EI. induction batch as [|r b IH]; [reflexivity|]. cbn [map_res]. rewrite IH by (intros; apply W; now right).
        replace (select_convert idx fs r) with (convert fs r); [reflexivity|]. unfold select_convert. rewrite EI.
        pose proof (select_all types names 0 [] r) as SA. cbn [app] in SA.
        rewrite SA; [reflexivity| |apply W; now left|reflexivity]. rewrite EI, map_length in E. exact E.
      + destruct (get_fns d set_order fill T S batch) as [[S1 fs]|] eqn:EG; cbn [bind fst snd] in O; [|discriminate].
        destruct (map_res (select_convert idx fs) batch) as [o|] eqn:EM; cbn [bind] in O; [|discriminate]. injection O as <- <-.
        exists fs. auto.
  Qed.

  (** ** Transformers *)
  Lemma cat_get_in q t : cat_get_table state q = Ok t -> exists n, In n state /\ In t (n_tables n) /\ t_key t = local_id q
    /\ od_get n_name (match scope_id q with Some s => s | None => ""%string end) state = Some n /\ od_get t_key (local_id q) (n_tables n) = Some t.
  Proof.
    unfold cat_get_table. destruct state as [|n0 st] eqn:ES; [discriminate|]. rewrite <- ES. intros H.
    destruct (od_get n_name _ state) as [n|] eqn:E; [|discriminate]. destruct (od_get t_key _ (n_tables n)) as [t'|] eqn:E2; [|discriminate].
    injection H as <-. exists n. pose proof (get_some _ _ _ _ E) as [I _]. pose proof (get_some _ _ _ _ E2) as [I2 K]. auto.
  Qed.
  Lemma lookup_table_true rel k v : lookup_table rel k v -> is_lookup_table rel = Ok true.
  Proof.
    intros (N & P & U & M). apply is_lookup_table_true.
    assert (L : length (t_columns rel) = 2) by (rewrite <- (map_length c_name); destruct M as [M|M]; rewrite M; reflexivity).
    split; [exact L|]. exists k. split; [exact P|]. intros c I. apply (in_map c_name) in I.
    assert (X : c_name c = k \/ c_name c = v) by (destruct M as [M|M]; rewrite M in I; simpl in I; intuition).
    destruct X as [X|X]; [now left|right; rewrite X; exact U].
  Qed.
  Lemma lookup_table_of rel : NoDup (map c_name (t_columns rel)) -> (forall k, In k (t_pk rel) -> In k (map c_name (t_columns rel))) ->
    is_lookup_table rel = Ok true -> exists k v, lookup_table rel k v.
  Proof.
    intros ND PK H. apply is_lookup_table_true in H. destruct H as (L & k & P & U). rewrite P in PK. specialize (PK k (or_introl eq_refl)).
    destruct (t_columns rel) as [|a [|b [|c l]]] eqn:EC; try discriminate. simpl in ND, PK. inversion ND as [|? ? NI _]; subst. simpl in NI.
    unfold lookup_table. rewrite EC. simpl. destruct PK as [K|[K|[]]].
    - exists k, (c_name b). split; [intros E; apply NI; left; congruence|]. split; [exact P|]. split; [|left; congruence].
      destruct (U b (or_intror (or_introl eq_refl))) as [E|E]; [exfalso; apply NI; left; congruence|exact E].
    - exists k, (c_name a). split; [intros E; apply NI; left; congruence|]. split; [exact P|]. split; [|right; congruence].
      destruct (U a (or_introl eq_refl)) as [E|E]; [exfalso; apply NI; left; congruence|exact E].
  Qed.
  Lemma lookup_columns_fun rel k v k' v' : lookup_table rel k v -> lookup_table rel k' v' -> k = k' /\ v = v'.
  Proof.
    intros (N & P & _ & M) (N' & P' & _ & M'). assert (E : k = k') by congruence. subst k'. split; [reflexivity|].
    destruct M as [M|M], M' as [M'|M']; congruence.
  Qed.

  Section T.
    Context (Hs : sound_tables state) (t : table) (Ht : cat_get_table state (t_name t) = Ok t).

    Lemma refers_iff c rel : is_relation t c = true -> (get_referenced_table state (t_name t) c = Ok rel <-> refers state t c rel).
    Proof.
      intros R. unfold get_referenced_table. rewrite Ht. cbn [bind]. destruct (get_constraint t c) as [rf|e] eqn:E; cbn [bind].
      - pose proof (proj1 (get_constraint_ok _ _ _) E) as (l1 & n & l2 & C & N). split.
        + intros H. exists l1, n, (fst rf), (snd rf), l2. auto.
        + intros (m1 & m & rt & rc & m2 & C' & N' & G). assert (X : get_constraint t c = Ok (rt, rc)).
          { apply get_constraint_ok. exists m1, m, m2. auto. }
          rewrite E in X. injection X as ->. exact G.
      - assert (X : is_ok (get_constraint t c) = false) by (rewrite E; reflexivity). apply get_constraint_err in X. congruence.
    Qed.
    Lemma refers_relation c rel : refers state t c rel -> is_relation t c = true.
    Proof. intros (l1 & n & rt & rc & l2 & C & _). apply is_relation_spec. exists n, rt, rc. rewrite C. apply in_or_app. right. now left. Qed.
    Lemma refers_sound c rel : refers state t c rel -> NoDup (map c_name (t_columns rel)) /\ forall k, In k (t_pk rel) -> In k (map c_name (t_columns rel)).
    Proof. intros (l1 & n & rt & rc & l2 & _ & _ & G). destruct (cat_get_in _ _ G) as (ns & I & I2 & _). destruct (Hs _ _ I I2) as (A & B & _). auto. Qed.

    Lemma get_transformer_cases i ty n tr : get_transformer state vt t i ty n = Ok tr ->
      exists c, In c (t_columns t) /\ c_name c = n /\
      ((forall rel k v, ~ substituted state t n ty rel k v) /\ tr = TScalar (vt c ty) \/
       exists rel k v, substituted state t n ty rel k v /\ (ty = FStr /\ tr = TEnum rel i \/ ty = FList /\ tr = TEnumList rel i)).
    Proof.
      unfold get_transformer. intros H. destruct (od_get c_name n (t_columns t)) as [c|] eqn:E; [|discriminate].
      apply get_some in E. destruct E as [I <-]. exists c. split; [exact I|]. split; [reflexivity|].
      destruct (is_relation t (c_name c)) eqn:R; cbn [negb] in H.
      - destruct (get_referenced_table state (t_name t) (c_name c)) as [rel|] eqn:G; cbn [bind] in H; [|discriminate].
        apply refers_iff in G; [|exact R]. destruct (is_lookup_table rel) as [b|] eqn:B; cbn [bind] in H; [|discriminate].
        assert (U : forall rel' k v, substituted state t (c_name c) ty rel' k v -> rel' = rel).
        { intros rel' k v (_ & R' & _). apply (refers_iff _ _ R) in R'. apply (refers_iff _ _ R) in G. congruence. }
        destruct b; cbn [negb] in H.
        + destruct (lookup_table_of rel) as (k & v & K); [apply (refers_sound _ _ G)..|exact B|].
          destruct ty; injection H as <-.
          * left. split; [|reflexivity]. intros ? ? ? ([X|X] & _); discriminate.
          * right. exists rel, k, v. unfold substituted. split; auto.
          * right. exists rel, k, v. unfold substituted. split; auto.
          * left. split; [|reflexivity]. intros ? ? ? ([X|X] & _); discriminate.
        + injection H as <-. left. split; [|reflexivity]. intros rel' k v X. pose proof (U _ _ _ X) as ->. destruct X as (_ & _ & X).
          apply lookup_table_true in X. congruence.
      - injection H as <-. left. split; [|reflexivity]. intros rel k v (_ & X & _). apply refers_relation in X. congruence.
    Qed.

    (** ** Lookup tables only grow *)
    Definition extends (S S' : store) : Prop := forall q, exists new, S' q = S q ++ new.
    Lemma extends_refl S : extends S S.
    Proof. intros q. exists []. now rewrite app_nil_r. Qed.
    Lemma extends_trans A B C : extends A B -> extends B C -> extends A C.
    Proof. intros H K q. destruct (H q) as [x X], (K q) as [y Y]. exists (x ++ y). now rewrite Y, X, app_assoc. Qed.
    Lemma put_eq S q rows : put S q rows q = rows.
    Proof. unfold put. destruct (qid_eq_dec q q); congruence. Qed.
    Lemma extends_put S q rows new : rows = S q ++ new -> extends S (put S q rows).
    Proof.
      intros E q'. unfold put. destruct (qid_eq_dec q' q) as [->|N]; [exists new; exact E|]. exists []. now rewrite app_nil_r.
    Qed.
    Lemma merge_grows rel s uniq f : merge_stmt d rel None = Ok s -> forall recs rows rows',
      exec_many pv_eqb uniq f s rows recs = Ok rows' -> exists new, rows' = rows ++ new.
    Proof.
      intros H recs. induction recs as [|r recs IH]; intros rows rows' X; [injection X as <-; exists []; now rewrite app_nil_r|].
      cbn [exec_many] in X. destruct (exec_dml pv_eqb uniq f s rows r) as [rows1|] eqn:E; cbn [bind] in X; [|discriminate].
      assert (Y : exists new, rows1 = rows ++ new).
      { clear X IH. unfold merge_stmt in H. cbn [get_columns bind] in H.
        assert (K : rows1 = rows \/ exists p, rows1 = rows ++ [p]).
        { assert (Z : (exists q cs, s = QPgIgnore q cs) \/ (exists q cs k, s = QMyInsert q cs (MyKeepCols k)) \/ exists q cs ms is, s = QMerge q cs ms None (Some is)).
          { destruct d; cbn [bind] in H; try (injection H as <-; eauto 7);
              (destruct (match_columns rel (not_identity (t_columns rel))); cbn [bind] in H; [injection H as <-; eauto 8|discriminate]). }
          destruct Z as [(q & cs & ->)|[(q & cs & k & ->)|(q & cs & ms & is & ->)]]; cbn [exec_dml] in E;
            destruct (negb (Nat.eqb (length r) (length _))); try discriminate.
          - destruct (existsb _ rows); injection E as <-; eauto.
          - destruct (first_dup _ _ _ _); injection E as <-; eauto.
          - destruct ms as [|m ms]; [discriminate|]. destruct (existsb _ rows); [injection E as <-; eauto|].
            unfold insert_row in E. destruct (existsb _ rows); [discriminate|]. injection E as <-. eauto. }
        destruct K as [->|(p & ->)]; [exists []; now rewrite app_nil_r|eauto]. }
      destruct Y as [a ->]. destruct (IH _ _ X) as [b ->]. exists (a ++ b). now rewrite app_assoc.
    Qed.

    Lemma dict_get_in x dc y : dict_get x dc = Some y -> In (Some x, y) dc.
    Proof.
      induction dc as [|[a b] dc IH]; cbn [dict_get]; [discriminate|]. destruct (dict_get x dc) as [z|] eqn:E.
      - intros [= ->]. right. apply IH. reflexivity.
      - destruct a as [v|]; [|discriminate]. unfold pv_eqb. destruct (pv_eq_dec v x) as [->|]; [|discriminate]. intros [= ->]. now left.
    Qed.
    Definition dict_sound (S : store) (rel : table) (dc : dict) : Prop :=
      forall k v x y, lookup_table rel k v -> dict_get x dc = Some y -> maps_to (S (t_name rel)) k v x y.
    Lemma merge_lookup_sound rel S vs S' dc : NoDup (map c_name (t_columns rel)) -> merge_lookup d fill rel S vs = Ok (S', dc) ->
      extends S S' /\ dict_sound S' rel dc.
    Proof.
      intros ND H. unfold merge_lookup in H. destruct vs as [|x0 vs].
      { injection H as <- <-. split; [apply extends_refl|]. intros k v x y _ X. discriminate X. }
      destruct (merge_stmt d rel None) as [s|] eqn:MS; cbn [bind] in H; [|discriminate].
      destruct (exec_many _ _ _ _ _ _) as [rows|] eqn:EX; cbn [bind] in H; [|discriminate].
      destruct (get_value_columns rel None) as [vcs|] eqn:VC; cbn [bind] in H; [|discriminate].
      destruct vcs as [|vc vcs]; [discriminate|]. destruct (get_primary_column rel) as [kc|] eqn:KC; cbn [bind] in H; [|discriminate].
      injection H as <- <-. destruct (merge_grows _ _ _ _ MS _ _ _ EX) as [new EN].
      split; [exact (extends_put _ _ _ _ EN)|]. intros k v x y LT X. rewrite put_eq. apply dict_get_in in X. apply in_map_iff in X.
      destruct X as (r & [= E1 E2] & I). apply get_primary_column_ok in KC; [|exact ND]. destruct KC as [_ KP].
      destruct LT as (N & P & _ & M). assert (c_name kc = k) by congruence. subst k.
      destruct (get_value_columns_ok _ _ _ VC) as (cs & C & _ & F). injection C as <-. destruct (proj1 (F vc) (or_introl eq_refl)) as (I1 & I2 & _).
      rewrite KP in I2. apply (in_map c_name) in I1.
      assert (c_name vc = v). { destruct M as [M|M]; rewrite M in I1; simpl in I1, I2; intuition; exfalso; auto. }
      subst v. exists r. auto.
    Qed.

    (** ** Functions *)
    Inductive fn_ok (S : store) : transformer -> option fn -> Prop :=
    | fo_scalar f : fn_ok S (TScalar f) f
    | fo_enum rel i dc : dict_sound S rel dc -> fn_ok S (TEnum rel i) (Some (enum_fn dc))
    | fo_list rel i dc : dict_sound S rel dc -> fn_ok S (TEnumList rel i) (Some (enum_list_fn dc)).
    Lemma maps_to_ext S S' q k v x y : extends S S' -> maps_to (S q) k v x y -> maps_to (S' q) k v x y.
    Proof. intros E (r & I & A). destruct (E q) as [new ->]. exists r. split; [apply in_or_app; now left|exact A]. Qed.
    Lemma dict_sound_ext S S' rel dc : extends S S' -> dict_sound S rel dc -> dict_sound S' rel dc.
    Proof. intros E H k v x y L X. apply (maps_to_ext S S'); [exact E|]. exact (H k v x y L X). Qed.
    Lemma fn_ok_ext S S' tr f : extends S S' -> fn_ok S tr f -> fn_ok S' tr f.
    Proof. intros E H. destruct H; constructor; eapply dict_sound_ext; eassumption. Qed.
    Definition tr_sound (tr : transformer) : Prop :=
      match tr with TScalar _ => True | TEnum rel _ | TEnumList rel _ => NoDup (map c_name (t_columns rel)) end.
    Lemma get_fn_ok tr S batch S' f : tr_sound tr -> get_fn d set_order fill tr S batch = Ok (S', f) -> extends S S' /\ fn_ok S' tr f.
    Proof.
      intros ND H. destruct tr as [g|rel i|rel i]; cbn [get_fn] in H.
      - injection H as <- <-. split; [apply extends_refl|constructor].
      - destruct (column_values batch i) as [vs|]; cbn [bind] in H; [|discriminate].
        destruct (merge_lookup d fill rel S _) as [[S1 dc]|] eqn:M; cbn [bind fst snd] in H; [|discriminate]. injection H as <- <-.
        destruct (merge_lookup_sound _ _ _ _ _ ND M) as [A B]. split; [exact A|constructor; exact B].
      - destruct (list_values batch i) as [vs|]; cbn [bind] in H; [|discriminate].
        destruct (merge_lookup d fill rel S _) as [[S1 dc]|] eqn:M; cbn [bind fst snd] in H; [|discriminate]. injection H as <- <-.
        destruct (merge_lookup_sound _ _ _ _ _ ND M) as [A B]. split; [exact A|constructor; exact B].
    Qed.
    Lemma get_fns_ok trs : forall S batch S' fs, Forall tr_sound trs -> get_fns d set_order fill trs S batch = Ok (S', fs) ->
      extends S S' /\ Forall2 (fn_ok S') trs fs.
    Proof.
      induction trs as [|tr trs IH]; intros S batch S' fs ND H; cbn [get_fns] in H; [injection H as <- <-; split; [apply extends_refl|constructor]|].
      inversion ND as [|? ? N1 N2]; subst. destruct (get_fn d set_order fill tr S batch) as [[S1 f]|] eqn:E; cbn [bind fst snd] in H; [|discriminate].
      destruct (get_fns d set_order fill trs S1 batch) as [[S2 gs]|] eqn:E2; cbn [bind fst snd] in H; [|discriminate]. injection H as <- <-.
      destruct (get_fn_ok _ _ _ _ _ N1 E) as [A B]. destruct (IH _ _ _ _ N2 E2) as [C D].
      split; [exact (extends_trans _ _ _ A C)|]. constructor; [exact (fn_ok_ext _ _ _ _ C B)|exact D].
    Qed.

    (** ** One field *)
    Lemma field_converted S i ty n tr f x y : get_transformer state vt t i ty n = Ok tr -> fn_ok S tr f -> apply_fn f x = Ok y ->
      converted state vt S t (n, ty, x) y.
    Proof.
      intros G F A. destruct x as [x|]; [|destruct f; injection A as <-; constructor].
      destruct (get_transformer_cases _ _ _ _ G) as (c & I & E & [[NS ->]|(rel & k & v & SB & K)]).
      - inversion F; subst. destruct (vt c ty) as [g|] eqn:V; cbn [apply_fn] in A.
        + eapply conv_value; eauto.
        + injection A as <-. eapply conv_same; eauto.
      - destruct K as [[-> ->]|[-> ->]]; inversion F; subst; cbn [apply_fn] in A.
        + unfold enum_fn in A. destruct (dict_get x dc) as [z|] eqn:DG; [|discriminate]. injection A as <-.
          eapply conv_label; [exact SB|]. destruct SB as (_ & _ & LT). match goal with H : dict_sound _ _ _ |- _ => exact (H _ _ _ _ LT DG) end.
        + unfold enum_list_fn in A. destruct x as [| |ls| |]; try discriminate.
          destruct (map_res (label_key dc) ls) as [ks|] eqn:M; cbn [bind] in A; [|discriminate]. injection A as <-.
          eapply conv_labels; [exact SB|]. apply map_res_forall2 in M. eapply f2_impl; [|exact M]. cbn. intros l z L.
          unfold label_key in L. destruct l as [s|]; [|discriminate]. destruct (dict_get (PVStr s) dc) as [[[| z'| | |]|]|] eqn:DG; try discriminate.
          injection L as ->. exists s. split; [reflexivity|]. destruct SB as (_ & _ & LT). match goal with H : dict_sound _ _ _ |- _ => exact (H _ _ _ _ LT DG) end.
    Qed.

    (** ** One record *)
    Lemma record_converted S types : forall names i idx trs fs pre (r : record) out,
      length names = length types -> skipped_unnamed types names -> length r = length types -> length pre = i ->
      idx = map (fun x => fst (fst x)) (items i types names) ->
      Forall2 (fun x tr => get_transformer state vt t (fst (fst x)) (snd (fst x)) (snd x) = Ok tr) (items i types names) trs ->
      Forall2 (fn_ok S) trs fs -> select_convert idx fs (pre ++ r) = Ok out ->
      Forall2 (converted state vt S t) (named_fields names types r) out.
    Proof.
      induction types as [|ty types IH]; intros names i idx trs fs pre r out L SK LR LP EI F1 F2 H.
      - destruct names; [|discriminate]. destruct r; [|discriminate]. cbn in EI, F1. subst idx. inversion F1; subst. inversion F2; subst. injection H as <-. constructor.
      - destruct names as [|n names]; [discriminate|]. destruct r as [|x r]; [discriminate|].
        assert (SK' : skipped_unnamed types names) by (intros j; exact (SK (Datatypes.S j))).
        assert (EO : omitted ty n = String.eqb n "").
        { destruct ty; try reflexivity. specialize (SK 0 eq_refl). injection SK as ->. reflexivity. }
        replace (pre ++ x :: r) with ((pre ++ [x]) ++ r) in H by (rewrite <- app_assoc; reflexivity).
        assert (LP' : length (pre ++ [x]) = Datatypes.S i) by (rewrite app_length, LP; apply Nat.add_1_r).
        injection L as L. injection LR as LR. unfold named_fields in *. cbn [combine filter fst].
        cbn [items] in EI, F1. rewrite EO in EI, F1. destruct (String.eqb n "") eqn:EN; cbn [negb app] in *.
        + exact (IH _ _ _ _ _ _ _ _ L SK' LR LP' EI F1 F2 H).
        + inversion F1 as [|? tr ? trs' T1 T2]; subst. inversion F2 as [|? f ? fs' G1 G2]; subst. clear F1 F2.
          cbn [map fst snd] in H. unfold select_convert, select in H. cbn [map_res] in H.
          replace (nth_error ((pre ++ [x]) ++ r) (length pre)) with (Some x) in H.
          2: { rewrite <- app_assoc, nth_error_app2 by apply Nat.le_refl. rewrite Nat.sub_diag. reflexivity. }
          cbn [bind] in H. fold (select (map (fun x => fst (fst x)) (items (Datatypes.S (length pre)) types names)) ((pre ++ [x]) ++ r)) in H.
          destruct (select _ _) as [xs|] eqn:SE; cbn [bind convert] in H; [|discriminate].
          destruct (apply_fn f x) as [y|] eqn:A; cbn [bind] in H; [|discriminate].
          destruct (convert fs' xs) as [ys|] eqn:CV; cbn [bind] in H; [|discriminate]. injection H as <-.
          constructor; [exact (field_converted _ _ _ _ _ _ _ _ T1 G1 A)|].
          eapply (IH names _ _ trs' fs' (pre ++ [x]) r ys L SK' LR LP' eq_refl T2 G2). unfold select_convert. rewrite SE. exact CV.
    Qed.

    Lemma trs_sound types names i trs :
      Forall2 (fun x tr => get_transformer state vt t (fst (fst x)) (snd (fst x)) (snd x) = Ok tr) (items i types names) trs ->
      Forall tr_sound trs.
    Proof.
      generalize (items i types names). intros l F. induction F as [|x tr l trs G F IH]; constructor; [|exact IH].
      destruct (get_transformer_cases _ _ _ _ G) as (c & _ & _ & [[_ ->]|(rel & k & v & (_ & R & _) & [[_ ->]|[_ ->]])]); cbn; [trivial|apply (refers_sound _ _ R)..].
    Qed.

    (** ** Batches *)
    Lemma converted_ext S S' x y : extends S S' -> converted state vt S t x y -> converted state vt S' t x y.
    Proof.
      intros E H. destruct H; [apply conv_null|eapply conv_same; eassumption|eapply conv_value; eassumption|eapply conv_label; [eassumption|]|eapply conv_labels; [eassumption|]].
      - eapply maps_to_ext; eassumption.
      - eapply f2_impl; [|eassumption]. cbn. intros l z (s & -> & M). exists s. split; [reflexivity|]. eapply maps_to_ext; eassumption.
    Qed.
    Lemma batches_converted types names : length names = length types -> skipped_unnamed types names ->
      forall src, generate_records state vt t types (Some names) = Ok src -> forall bs S S' outs,
      (forall b r, In b bs -> In r b -> length r = length types) -> all_batches d set_order fill src S bs = Ok (S', outs) ->
      extends S S' /\ Forall2 (Forall2 (fun r out => Forall2 (converted state vt S' t) (named_fields names types r) out)) bs outs.
    Proof.
      intros L SK src G. induction bs as [|b bs IH]; intros S S' outs W H; cbn [all_batches] in H; [injection H as <- <-; split; [apply extends_refl|constructor]|].
      destruct (one_batch d set_order fill src S b) as [[S1 out]|] eqn:O; cbn [bind fst snd] in H; [|discriminate].
      destruct (all_batches d set_order fill src S1 bs) as [[S2 outs']|] eqn:A; cbn [bind fst snd] in H; [|discriminate]. injection H as <- <-.
      destruct (IH _ _ _ (fun b r I => W b r (or_intror I)) A) as [E2 F].
      destruct (one_batch_form _ _ _ _ _ _ _ _ G (fun r => W b r (or_introl eq_refl)) O) as (idx & trs & fs & P & GF & M).
      destruct (plan_items t _ _ _ _ _ P) as [EI F1]. destruct (get_fns_ok _ _ _ _ _ (trs_sound _ _ _ _ F1) GF) as [E1 F2].
      split; [exact (extends_trans _ _ _ E1 E2)|]. constructor; [|exact F]. apply map_res_forall2 in M.
      assert (W' : forall r, In r b -> length r = length types) by (intros r; exact (W b r (or_introl eq_refl))). clear - M W' L SK EI F1 F2 E2 Hs Ht.
      induction M as [|r o b os C M IH]; constructor; [|apply IH; intros; apply W'; now right].
      eapply f2_impl; [intros x y; apply converted_ext; exact E2|].
      eapply (record_converted _ _ names 0 idx trs fs [] r o L SK (W' r (or_introl eq_refl)) eq_refl EI F1 F2). exact C.
    Qed.
  End T.
End P.
