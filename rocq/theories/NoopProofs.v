(** Mutation between equal catalogs. *)
From Verif Require Import PyStr QuoteModel ObjectDict ObjectDictProofs Types Objects SqlAst Ddl Mutate TopoSpec SortSpec SortProofs EqProofs KeySpec.
From Coq Require Import String List Bool Permutation Lia.
Import ListNotations.
Open Scope list_scope.

Section Dict.
  Context {A : Type} (key : A -> string) (eqA : A -> A -> bool).
  Lemma eqb_diff_l s t : od_eqb key eqA s t = true -> od_difference key s t = [].
  Proof.
    unfold od_eqb. rewrite andb_true_iff, forallb_forall. intros [_ H]. unfold od_difference.
    assert (G : forall l, (forall x, In x l -> In x s) -> filter (fun x => negb (od_mem key (key x) t)) l = []).
    { induction l as [|x l IH]; intros Hl; [reflexivity|]. simpl. rewrite mem_get. specialize (H x (Hl x (or_introl eq_refl))). destruct (od_get key (key x) t); [|discriminate].
      apply IH. intros y Iy. apply Hl. now right. }
    now apply G.
  Qed.
  Lemma eqb_diff_r s t : NoDup (map key s) -> od_eqb key eqA s t = true -> od_difference key t s = [].
  Proof.
    intros N H. assert (H0 := eqb_diff_l s t H). unfold od_eqb in H. apply andb_true_iff in H as [L _]. apply Nat.eqb_eq in L.
    assert (I : incl (map key s) (map key t)).
    { intros k Hk. apply in_map_iff in Hk as (x & <- & Ix). destruct (in_dec string_dec (key x) (map key t)) as [Z|Z]; [exact Z|]. exfalso.
      assert (Hx : In x (od_difference key s t)) by (apply difference_in; split; [exact Ix|exact Z]). rewrite H0 in Hx. destruct Hx. }
    assert (I' : incl (map key t) (map key s)) by (apply NoDup_length_incl; [exact N|rewrite !map_length; lia|exact I]).
    destruct (od_difference key t s) as [|y r] eqn:E; [reflexivity|]. exfalso. assert (Hy : In y (od_difference key t s)) by (rewrite E; now left).
    apply difference_in in Hy as [Hy1 Hy2]. apply Hy2. apply I'. now apply in_map.
  Qed.
  Lemma eqb_inter s t x y : od_eqb key eqA s t = true -> In (x, y) (od_intersection key s t) -> eqA x y = true /\ In x s /\ In y t.
  Proof.
    unfold od_eqb. rewrite andb_true_iff, forallb_forall. intros [_ H]. assert (G : forall l, (forall x, In x l -> In x s) -> In (x, y) (od_intersection key l t) -> eqA x y = true /\ In x s /\ In y t); [|now apply G].
    induction l as [|z l IH]; intros Hl I; [destruct I|]. simpl in I. assert (Hz := H z (Hl z (or_introl eq_refl))). destruct (od_get key (key z) t) as [w|] eqn:E; [|discriminate].
    destruct I as [[= -> ->]|I]; [split; [exact Hz|split; [apply Hl; now left|now apply get_some in E]]|]. apply IH; [|exact I]. intros; apply Hl. now right.
  Qed.
  Lemma eqb_permute s s' t t' : NoDup (map key t) -> Permutation s s' -> Permutation t t' -> od_eqb key eqA s t = od_eqb key eqA s' t'.
  Proof.
    intros N Ps Pt. unfold od_eqb. rewrite <- (Permutation_length Ps), <- (Permutation_length Pt). f_equal. apply eq_true_iff_eq. rewrite !forallb_forall.
    assert (G : forall k, od_get key k t' = od_get key k t) by (intros k; now apply get_perm).
    split; intros H x Ix.
    - rewrite G. apply H. eapply Permutation_in; [symmetry; exact Ps|exact Ix].
    - rewrite <- G. apply H. eapply Permutation_in; [exact Ps|exact Ix].
  Qed.
End Dict.

Lemma col_eqb_eq a b : col_eqb a b = true <-> a = b.
Proof.
  destruct a, b. unfold col_eqb. simpl. rewrite !andb_true_iff, !String.eqb_eq, !eqb_true_iff, !os_eqb_eq, type_eqb_eq. split; [intuition congruence|intros [= -> -> -> -> -> ->]; auto 10].
Qed.
Lemma concat_res_nil {A B} (f : A -> res (list B)) l : (forall x, In x l -> f x = Ok []) -> concat_res f l = Ok [].
Proof.
  intros H. unfold concat_res. assert (G : exists r, map_res f l = Ok r /\ concat r = []).
  { induction l as [|x l IH]; [exists []; auto|]. simpl. rewrite (H x (or_introl eq_refl)). simpl. destruct IH as (r & -> & E); [intros; apply H; now right|]. exists ([] :: r). simpl. auto. }
  destruct G as (r & -> & E). simpl. now rewrite E.
Qed.
Lemma concat_res_all_nil {A B} (f : A -> res (list B)) l r : concat_res f l = Ok r -> (forall x y, In x l -> f x = Ok y -> y = []) -> r = [].
Proof.
  unfold concat_res. intros H Hf. destruct (map_res f l) as [rs|] eqn:E; simpl in H; [|discriminate]. injection H as <-.
  revert rs E. induction l as [|x l IH]; intros rs E; simpl in E; [injection E as <-; reflexivity|].
  destruct (f x) as [y|] eqn:Ey; simpl in E; [|discriminate]. destruct (map_res f l) as [ys|]; simpl in E; [|discriminate]. injection E as <-.
  simpl. rewrite (Hf x y (or_introl eq_refl) Ey). simpl. apply IH; [|reflexivity]. intros; eapply Hf; [right|]; eauto.
Qed.
Lemma comment_change_refl c : comment_change c c = None.
Proof. destruct c as [x|]; [|reflexivity]. simpl. now rewrite String.eqb_refl. Qed.

Lemma enum_noop s t : enum_eqb s t = true -> mutate_enum s t = Ok [].
Proof.
  unfold enum_eqb. rewrite andb_true_iff. intros [E1 E2]. unfold mutate_enum, check_identity. rewrite E1. apply sl_eqb_eq in E2. rewrite E2. simpl.
  assert (G : forall l, (forall v, In v l -> In v (e_values t)) -> filter (fun v => negb (str_in v (e_values t))) l = []).
  { induction l as [|v l IH]; intros H; [reflexivity|]. simpl. assert (str_in v (e_values t) = true) as -> by (apply str_in_spec; apply H; now left). apply IH. intros; apply H. now right. }
  now rewrite G.
Qed.
Lemma struct_noop d s t : NoDup (map m_name (s_members s)) -> struct_eqb s t = true -> mutate_struct d s t = Ok [].
Proof.
  unfold struct_eqb. rewrite !andb_true_iff. intros N [[E1 E2] E3]. unfold mutate_struct, mutate_struct_base, check_identity. rewrite E1. simpl.
  rewrite (eqb_diff_l _ _ _ _ E2), (eqb_diff_r _ _ _ _ N E2). rewrite concat_res_nil.
  - simpl. apply os_eqb_eq in E3. rewrite E3, comment_change_refl. now destruct d.
  - intros [x y] I. apply (eqb_inter _ _ _ _ _ _ E2) in I as [I _]. simpl. now rewrite I.
Qed.
Lemma column_noop d c l : mutate_column d c c = Ok l -> l = [].
Proof.
  assert (T : type_eqb (c_type c) (c_type c) = true) by now apply type_eqb_eq. assert (O : forall x, os_eqb x x = true) by (intros; now apply os_eqb_eq).
  destruct d; simpl; unfold mutate_column_base, mutate_column_mysql, mutate_column_mssql, mutate_column_oracle.
  1,2,6,7: assert (col_eqb c c = true) as -> by now apply col_eqb_eq. 1-4: congruence.
  - rewrite T, O, !Bool.eqb_reflx. simpl. destruct (mysql_comment (c_desc c)) as [x|]; simpl; [|discriminate]. rewrite O. simpl. congruence.
  - rewrite T, !Bool.eqb_reflx. simpl. congruence.
  - rewrite T, O, !Bool.eqb_reflx. simpl. congruence.
Qed.
Lemma table_noop d s t l : table_keyed s -> table_keyed t -> table_eqb s t = true -> mutate_table d s t = Ok l -> l = [].
Proof.
  unfold table_eqb. rewrite !andb_true_iff. intros [Nc Nk] [Nc' Nk'] [[[[[_ E1] E2] E3] E4] E5] H.
  unfold mutate_table in H. destruct (mutate_table_base d s t) as [b|] eqn:B; simpl in H; [|discriminate]. injection H as <-.
  unfold mutate_table_base, check_identity in B. rewrite E1 in B. cbn [bind] in B.
  assert (P : forall p, In p (od_intersection c_name (t_columns s) (t_columns t)) -> fst p = snd p).
  { intros [x y] I. apply (eqb_inter _ _ _ _ _ _ E2) in I as [I _]. now apply col_eqb_eq in I. }
  assert (M : filter (fun p => is_column_migrated d (fst p) (snd p)) (od_intersection c_name (t_columns s) (t_columns t)) = []).
  { revert P. generalize (od_intersection c_name (t_columns s) (t_columns t)). intros ps. induction ps as [|p ps IH]; intros P; [reflexivity|]. simpl.
    rewrite (P p (or_introl eq_refl)). unfold is_column_migrated. assert (col_eqb (snd p) (snd p) = true) as -> by now apply col_eqb_eq. simpl. apply IH. intros; apply P. now right. }
  rewrite M in B. rewrite (eqb_diff_l _ _ _ _ E2), (eqb_diff_r _ _ _ _ Nc E2), (eqb_diff_l _ _ _ _ E4), (eqb_diff_r _ _ _ _ Nk E4) in B. cbn [concat_res map_res bind table_error map app filter concat] in B.
  destruct (concat_res (fun p => mutate_column d (fst p) (snd p)) (od_intersection c_name (t_columns s) (t_columns t))) as [al|] eqn:EA; cbn [table_error bind] in B; [|destruct (String.eqb e "ColumnFormationError"); discriminate].
  assert (al = []).
  { eapply concat_res_all_nil; [exact EA|]. intros p y Ip Hy. simpl in Hy. rewrite (P p Ip) in Hy. now apply column_noop in Hy. }
  subst al. assert (b = []). { destruct (existsb _ _); [discriminate|]. simpl in B. congruence. } subst b. cbn [app].
  assert (Od : forall c, od_get c_name (c_name c) (t_columns s) = Some c \/ ~ In c (t_columns t)).
  { intros c. destruct (in_dec (fun a b : column => match bool_dec (col_eqb a b) true with left e => left (proj1 (col_eqb_eq a b) e) | right n => right (fun z => n (proj2 (col_eqb_eq a b) z)) end) c (t_columns t)) as [I|I]; [left|now right].
    assert (Pm : Permutation (t_columns s) (t_columns t)). { eapply (ObjectDictProofs.eqb_spec c_name); [exact Nc|exact Nc'| |exact E2]. intros x y Hxy. now apply col_eqb_eq. }
    apply get_in; [exact Nc|]. eapply Permutation_in; [symmetry; exact Pm|exact I]. }
  assert (CC : pg_column_comments s t = []).
  { unfold pg_column_comments. assert (G : forall l, (forall c, In c l -> In c (t_columns t)) -> flat_map (fun tc => match comment_change (match od_get c_name (c_name tc) (t_columns s) with Some sc => c_desc sc | None => None end) (c_desc tc) with Some c => [SCommentColumn (t_name t) (c_name tc) c] | None => [] end) l = []).
    { induction l as [|c l IH]; intros H; [reflexivity|]. cbn [flat_map]. destruct (Od c) as [->|Z]; [|destruct (Z (H c (or_introl eq_refl)))]. rewrite comment_change_refl. simpl. apply IH. intros; apply H. now right. }
    now apply G. }
  apply os_eqb_eq in E5.
  destruct d; try reflexivity.
  - rewrite CC, E5, comment_change_refl. reflexivity.
  - unfold my_table_comment. rewrite E5. destruct (short_desc (t_desc t)) as [x|]; [|reflexivity]. now rewrite String.eqb_refl.
  - assert (ms_defaults s t = []) as ->; [|reflexivity]. unfold ms_defaults. revert P. generalize (od_intersection c_name (t_columns s) (t_columns t)).
    intros ps. induction ps as [|p ps IH]; intros P; [reflexivity|]. cbn [flat_map]. rewrite (P p (or_introl eq_refl)). assert (os_eqb (c_default (snd p)) (c_default (snd p)) = true) as -> by now apply os_eqb_eq. simpl. apply IH. intros; apply P. now right.
Qed.
Lemma ns_noop d o s t l : ns_keyed s -> ns_keyed t -> ns_eqb s t = true -> mutate_namespace d o s t = Ok l -> l = [].
Proof.
  unfold ns_eqb. rewrite !andb_true_iff. intros K K' [[[E1 E2] E3] E4] H. unfold mutate_namespace in H. rewrite E1 in H. cbn [negb] in H.
  rewrite (eqb_diff_l _ _ _ _ E2), (eqb_diff_r _ _ _ _ (nk_enums _ K) E2), (eqb_diff_l _ _ _ _ E3), (eqb_diff_r _ _ _ _ (nk_structs _ K) E3), (eqb_diff_l _ _ _ _ E4), (eqb_diff_r _ _ _ _ (nk_tables _ K) E4) in H.
  cbn [concat_res map_res bind map app filter concat flat_map] in H.
  rewrite (concat_res_nil (fun p => mutate_enum (fst p) (snd p))) in H by (intros [x y] I; apply (eqb_inter _ _ _ _ _ _ E2) in I as [I _]; now apply enum_noop).
  cbn [bind] in H.
  rewrite (concat_res_nil (fun p => mutate_struct d (fst p) (snd p))) in H by (intros [x y] I; apply (eqb_inter _ _ _ _ _ _ E3) in I as (I & I1 & _); apply struct_noop; [apply (nk_members _ K x I1)|exact I]).
  cbn [bind] in H.
  destruct (concat_res (fun p => mutate_table d (fst p) (snd p)) _) as [mt|] eqn:E; cbn [bind] in H; [|discriminate].
  apply concat_res_all_nil in E.
  - subst mt. injection H as <-. destruct (allow_drop_table o), (allow_drop_struct o), (allow_drop_enum o); reflexivity.
  - intros [x y] z I Hz. apply (eqb_inter _ _ _ _ _ _ E4) in I as (I & I1 & I2). eapply table_noop; [apply (nk_table _ K x I1)|apply (nk_table _ K' y I2)|exact I|exact Hz].
Qed.
Theorem mutation_noop d o s t s' t' l :
  cat_keyed s -> cat_keyed t -> cat_eqb s t = true -> mutate_catalog d o s t = Ok (s', t', l) -> l = [].
Proof.
  intros K K' E H. unfold mutate_catalog in H.
  assert (S1 := cat_sort_correct s (ck_names _ K)). assert (S2 := cat_sort_correct t (ck_names _ K')).
  destruct (cat_sort s) as [s1|]; cbn [bind] in H; [|discriminate]. destruct (cat_sort t) as [t1|]; cbn [bind] in H; [|discriminate].
  destruct (mutate_sorted d o s1 t1) as [l1|] eqn:M; cbn [bind] in H; [|discriminate]. injection H as <- <- <-.
  destruct S1 as [[P1 _] _], S2 as [[P2 _] _]. unfold cat_eqb in E. rewrite (eqb_permute n_name ns_eqb s s1 t t1 (ck_names _ K') P1 P2) in E.
  assert (N1 : NoDup (map n_name s1)) by (eapply Permutation_NoDup; [apply Permutation_map; exact P1|exact (ck_names _ K)]).
  unfold mutate_sorted in M. rewrite (eqb_diff_l _ _ _ _ E), (eqb_diff_r _ _ _ _ N1 E) in M. cbn [concat_res map_res bind map app filter concat flat_map] in M.
  destruct (concat_res (fun p => mutate_namespace d o (fst p) (snd p)) _) as [mt|] eqn:X; cbn [bind] in M; [|discriminate].
  apply concat_res_all_nil in X.
  - subst mt. injection M as <-. now destruct (allow_drop_namespace o).
  - intros [x y] z I Hz. apply (eqb_inter _ _ _ _ _ _ E) in I as (I & I1 & I2). eapply ns_noop; [| |exact I|exact Hz].
    + apply (ck_ns _ K). eapply Permutation_in; [symmetry; exact P1|exact I1].
    + apply (ck_ns _ K'). eapply Permutation_in; [symmetry; exact P2|exact I2].
Qed.
Print Assumptions mutation_noop.

(** ... and the mutation between equal catalogs succeeds, unless namespaces depend on each other in a circle or
    a MySQL comment is too long. *)
Lemma column_noop_ok d c : (d = DMySQL -> exists m, mysql_comment (c_desc c) = Ok m) -> mutate_column d c c = Ok [].
Proof.
  intros HM. destruct (mutate_column d c c) as [l|e] eqn:E; [now rewrite (column_noop d c l E)|]. exfalso.
  assert (T : type_eqb (c_type c) (c_type c) = true) by now apply type_eqb_eq. assert (O : forall x, os_eqb x x = true) by (intros; now apply os_eqb_eq).
  destruct d; simpl in E; unfold mutate_column_base, mutate_column_mysql, mutate_column_mssql, mutate_column_oracle in E.
  1,2,6,7: assert (Z : col_eqb c c = true) by (now apply col_eqb_eq); rewrite Z in E; discriminate.
  - rewrite T, O, !Bool.eqb_reflx in E. simpl in E. destruct HM as [m Hm]; [reflexivity|]. rewrite Hm in E. simpl in E. rewrite O in E. discriminate.
  - rewrite T, !Bool.eqb_reflx in E. discriminate.
  - rewrite T, O, !Bool.eqb_reflx in E. discriminate.
Qed.
Definition short_comments (t : table) : Prop := forall c, In c (t_columns t) -> exists m, mysql_comment (c_desc c) = Ok m.
Lemma table_noop_ok d s t : table_keyed s -> table_keyed t -> (d = DMySQL -> short_comments s) -> table_eqb s t = true -> mutate_table d s t = Ok [].
Proof.
  intros K K' HM E. destruct (mutate_table d s t) as [l|e] eqn:H; [now rewrite (table_noop d s t l K K' E H)|]. exfalso.
  unfold table_eqb in E. rewrite !andb_true_iff in E. destruct K as [Nc Nk], E as [[[[[_ E1] E2] E3] E4] E5].
  unfold mutate_table in H. destruct (mutate_table_base d s t) as [b|] eqn:B; simpl in H; [discriminate|].
  unfold mutate_table_base, check_identity in B. rewrite E1 in B. cbn [bind] in B.
  assert (P : forall p, In p (od_intersection c_name (t_columns s) (t_columns t)) -> fst p = snd p /\ In (fst p) (t_columns s)).
  { intros [x y] I. apply (eqb_inter _ _ _ _ _ _ E2) in I as (I & I1 & _). now apply col_eqb_eq in I. }
  assert (M : filter (fun p => is_column_migrated d (fst p) (snd p)) (od_intersection c_name (t_columns s) (t_columns t)) = []).
  { revert P. generalize (od_intersection c_name (t_columns s) (t_columns t)). intros ps. induction ps as [|p ps IH]; intros P; [reflexivity|]. simpl.
    rewrite (proj1 (P p (or_introl eq_refl))). unfold is_column_migrated. assert (col_eqb (snd p) (snd p) = true) as -> by now apply col_eqb_eq. simpl. apply IH. intros; apply P. now right. }
  rewrite M in B. cbn [concat_res map_res bind table_error map app concat] in B. rewrite (eqb_diff_r _ _ _ _ Nc E2) in B. cbn [map_res bind table_error app] in B.
  rewrite concat_res_nil in B.
  - cbn [table_error bind] in B. match type of B with (if ?z then _ else _) = _ => destruct z eqn:X end; [|discriminate].
    apply existsb_exists in X as ([x y] & I & Hn). apply (eqb_inter _ _ _ _ _ _ E4) in I as (I & _). simpl in Hn. rewrite I in Hn. discriminate.
  - intros p Ip. destruct (P p Ip) as [Ep Is]. rewrite <- Ep. apply column_noop_ok. intros Hd. exact (HM Hd _ Is).
Qed.
Lemma ns_noop_ok d o s t : ns_keyed s -> ns_keyed t -> (d = DMySQL -> forall x, In x (n_tables s) -> short_comments x) -> ns_eqb s t = true -> mutate_namespace d o s t = Ok [].
Proof.
  intros K K' HM E. destruct (mutate_namespace d o s t) as [l|e] eqn:H; [now rewrite (ns_noop d o s t l K K' E H)|]. exfalso.
  unfold ns_eqb in E. rewrite !andb_true_iff in E. destruct E as [[[E1 E2] E3] E4]. unfold mutate_namespace in H. rewrite E1 in H. cbn [negb] in H.
  rewrite (eqb_diff_r _ _ _ _ (nk_structs _ K) E3), (eqb_diff_r _ _ _ _ (nk_tables _ K) E4) in H.
  cbn [concat_res map_res bind concat] in H.
  rewrite (concat_res_nil (fun p => mutate_enum (fst p) (snd p))) in H by (intros [x y] I; apply (eqb_inter _ _ _ _ _ _ E2) in I as [I _]; now apply enum_noop).
  cbn [bind] in H.
  rewrite (concat_res_nil (fun p => mutate_struct d (fst p) (snd p))) in H by (intros [x y] I; apply (eqb_inter _ _ _ _ _ _ E3) in I as (I & I1 & _); apply struct_noop; [apply (nk_members _ K x I1)|exact I]).
  cbn [bind] in H.
  rewrite (concat_res_nil (fun p => mutate_table d (fst p) (snd p))) in H; [discriminate|].
  intros [x y] I. apply (eqb_inter _ _ _ _ _ _ E4) in I as (I & I1 & I2). apply table_noop_ok; [apply (nk_table _ K x I1)|apply (nk_table _ K' y I2)| |exact I]. intros Hd. exact (HM Hd x I1).
Qed.
Theorem mutation_noop_ok d o s t :
  cat_keyed s -> cat_keyed t -> ~ circular s -> ~ circular t -> (d = DMySQL -> forall n x, In n s -> In x (n_tables n) -> short_comments x) ->
  cat_eqb s t = true -> exists s' t', mutate_catalog d o s t = Ok (s', t', []).
Proof.
  intros K K' C C' HM E. destruct (mutate_catalog d o s t) as [[[s' t'] l]|e] eqn:H; [exists s', t'; now rewrite (mutation_noop d o s t s' t' l K K' E H)|]. exfalso.
  unfold mutate_catalog in H.
  assert (S1 := cat_sort_correct s (ck_names _ K)). assert (S2 := cat_sort_correct t (ck_names _ K')).
  destruct (cat_sort s) as [s1|]; cbn [bind] in H; [|now apply C]. destruct (cat_sort t) as [t1|]; cbn [bind] in H; [|now apply C'].
  destruct (mutate_sorted d o s1 t1) as [l1|] eqn:M; cbn [bind] in H; [discriminate|].
  destruct S1 as [[P1 _] _], S2 as [[P2 _] _]. unfold cat_eqb in E. rewrite (eqb_permute n_name ns_eqb s s1 t t1 (ck_names _ K') P1 P2) in E.
  assert (N1 : NoDup (map n_name s1)) by (eapply Permutation_NoDup; [apply Permutation_map; exact P1|exact (ck_names _ K)]).
  unfold mutate_sorted in M. rewrite (eqb_diff_r _ _ _ _ N1 E) in M. cbn [concat_res map_res bind concat] in M.
  rewrite (concat_res_nil (fun p => mutate_namespace d o (fst p) (snd p))) in M; [discriminate|].
  intros [x y] I. apply (eqb_inter _ _ _ _ _ _ E) in I as (I & I1 & I2). apply Permutation_sym in P1, P2.
  apply ns_noop_ok; [apply (ck_ns _ K); eapply Permutation_in; eauto|apply (ck_ns _ K'); eapply Permutation_in; eauto| |exact I].
  intros Hd z Iz. apply (HM Hd x z); [eapply Permutation_in; eauto|exact Iz].
Qed.
Print Assumptions mutation_noop_ok.
