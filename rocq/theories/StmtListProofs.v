(** Proofs about statement lists (C46). *)
From Verif Require Import PyStr QuoteModel ObjectDict Types Objects SqlAst Ddl Mutate Render StmtList StmtSpec StmtProofs.
Open Scope list_scope.

Lemma sl_extend_app l os : fst (sl_extend l os) = l ++ fst (sl_extend [] os)
  /\ snd (sl_extend l os) = snd (sl_extend [] os).
Proof.
  revert l. induction os as [|o os IH]; intros l; simpl; [rewrite app_nil_r; auto|].
  destruct o as [s|]; simpl; [|apply IH]. destruct (blank s); simpl; [rewrite app_nil_r; auto|].
  destruct (IH (l ++ [s])) as [E1 E2], (IH [s]) as [F1 F2]. rewrite E1, E2, F1, F2, <- app_assoc. auto.
Qed.

Lemma sl_extend_cons s l os : blank s = false ->
  sl_extend l (Some s :: os) = sl_extend (l ++ [s]) os.
Proof. intros B. simpl. rewrite B. reflexivity. Qed.

Lemma sl_extend_ok l os :
  snd (sl_extend l os) = None <-> forall s, In (Some s) os -> blank s = false.
Proof.
  revert l. induction os as [|o os IH]; intros l; simpl; [split; [intros _ ? []|reflexivity]|].
  destruct o as [s|]; simpl.
  - destruct (blank s) eqn:B; simpl.
    + split; [discriminate|]. intros F. rewrite (F s) in B; [discriminate|auto].
    + rewrite IH. split; [intros F x [[= <-]|I]; auto|intros F x I; auto].
  - rewrite IH. split; [intros F x [E|I]; [discriminate|auto]|intros F x I; auto].
Qed.
Lemma sl_extend_contents l os : snd (sl_extend l os) = None -> fst (sl_extend l os) = l ++ somes os.
Proof.
  revert l. induction os as [|o os IH]; intros l; simpl; [rewrite app_nil_r; reflexivity|].
  destruct o as [s|]; simpl; [|apply IH]. destruct (blank s); [discriminate|].
  intros E. rewrite (IH _ E), <- app_assoc. reflexivity.
Qed.
Lemma sl_extend_fail l os e : snd (sl_extend l os) = Some e ->
  exists p s r, os = p ++ Some s :: r /\ blank s = true /\ (forall x, In (Some x) p -> blank x = false)
    /\ fst (sl_extend l os) = l ++ somes p.
Proof.
  revert l. induction os as [|o os IH]; intros l; simpl; [discriminate|].
  destruct o as [s|]; simpl.
  - destruct (blank s) eqn:B; simpl.
    + intros _. exists [], s, os. simpl. rewrite app_nil_r. repeat split; auto. intros ? [].
    + intros E. destruct (IH _ E) as (p & x & r & -> & Bx & F & E'). exists (Some s :: p), x, r.
      simpl. rewrite E', <- app_assoc. repeat split; auto. intros y [[= <-]|I]; auto.
  - intros E. destruct (IH _ E) as (p & x & r & -> & Bx & F & E'). exists (None :: p), x, r.
    simpl. repeat split; auto. intros y [Z|I]; [discriminate|auto].
Qed.

Lemma sl_run_inv ops l : (forall s, In s l -> blank s = false) ->
  forall s, In s (fold_left sl_run ops l) -> blank s = false.
Proof.
  revert l. induction ops as [|op ops IH]; intros l H; [exact H|]. simpl. apply IH. intros s I.
  destruct op as [o|os]; simpl in I.
  - destruct o as [x|]; simpl in I; [|auto]. destruct (blank x) eqn:B; simpl in I; [auto|].
    apply in_app_or in I as [I|[<-|[]]]; auto.
  - destruct (snd (sl_extend l os)) eqn:E.
    + destruct (sl_extend_fail _ _ _ E) as (p & x & r & -> & Bx & F & E'). rewrite E' in I.
      apply in_app_or in I as [I|I]; [auto|]. clear - I F. induction p as [|[y|] p IHp]; simpl in *; [destruct I| |].
      * destruct I as [<-|I]; auto.
      * auto.
    + rewrite (sl_extend_contents _ _ E) in I. apply in_app_or in I as [I|I]; [auto|].
      pose proof (proj1 (sl_extend_ok l os) E) as F. clear - I F.
      induction os as [|[y|] p IHp]; simpl in *; [destruct I| |].
      * destruct I as [<-|I]; auto.
      * auto.
Qed.

(** ** join *)
Lemma append_nil a b : (a ++ b)%string = ""%string -> a = ""%string /\ b = ""%string.
Proof. destruct a; simpl; [auto|discriminate]. Qed.
Lemma join_str_empty sep l : sep <> ""%string ->
  (join_str sep l = ""%string <-> l = [] \/ l = [""%string]).
Proof.
  intros Hs. destruct l as [|x [|y r]]; simpl.
  - split; auto.
  - split; [intros ->; auto|intros [E|[= ->]]; [discriminate|reflexivity]].
  - split; [|intros [E|E]; discriminate]. intros E. apply append_nil in E. destruct E as [_ E].
    apply append_nil in E. destruct E as [E _]. contradiction.
Qed.
Lemma join_or_none_none os : join_or_none os = None <-> somes os = [] \/ somes os = [""%string].
Proof.
  unfold join_or_none, join. rewrite <- (join_str_empty NL) by discriminate.
  destruct (join_str NL (somes os)); split; congruence.
Qed.
Lemma join_or_none_some os s : join_or_none os = Some s -> s = join_str NL (somes os) /\ s <> ""%string.
Proof.
  unfold join_or_none, join. destruct (join_str NL (somes os)); [discriminate|]. intros [= <-]. split; [auto|discriminate].
Qed.
Lemma append_assoc_s a b c : ((a ++ b) ++ c = a ++ (b ++ c))%string.
Proof. induction a as [|x a IH]; [reflexivity|]. change (String x ((a ++ b) ++ c) = String x (a ++ (b ++ c)))%string. rewrite IH. reflexivity. Qed.
Lemma join_str_app sep a b : a <> [] -> b <> [] ->
  join_str sep (a ++ b) = (join_str sep a ++ sep ++ join_str sep b)%string.
Proof.
  intros Ha Hb. induction a as [|x a IH]; [contradiction|]. destruct a as [|y a].
  - simpl. destruct b; [contradiction|reflexivity].
  - change (join_str sep ((x :: y :: a) ++ b)) with (x ++ sep ++ join_str sep ((y :: a) ++ b))%string.
    rewrite IH by discriminate. simpl. rewrite !append_assoc_s. reflexivity.
Qed.

(** nested scripts flatten *)
Lemma join_nested (groups : list (list (option string))) :
  (forall g, In g groups -> ~ In (Some ""%string) g) ->
  join_or_none (map join_or_none groups) = join_or_none (concat groups).
Proof.
  intros H.
  assert (G : forall g, ~ In (Some ""%string) g -> somes g <> [""%string]).
  { intros g. induction g as [|[x|] g IH]; simpl; intros N; [discriminate| |].
    - intros [= -> _]. apply N. auto.
    - apply IH. tauto. }
  assert (S : forall a b : list (option string), somes (a ++ b) = somes a ++ somes b).
  { induction a as [|[x|] a IH]; intros b; simpl; [reflexivity|rewrite IH; reflexivity|apply IH]. }
  enough (E : join_str NL (somes (map join_or_none groups)) = join_str NL (somes (concat groups))
      /\ (somes (map join_or_none groups) = [] <-> somes (concat groups) = [])).
  { unfold join_or_none at 1 3, join. rewrite (proj1 E). reflexivity. }
  induction groups as [|g gs IH]; [simpl; tauto|].
  destruct IH as [E1 E2]; [intros g' I; apply H; right; exact I|].
  simpl. rewrite S. destruct (join_or_none g) as [s|] eqn:J; simpl.
  - apply join_or_none_some in J. destruct J as [-> Hne].
    assert (Hg : somes g <> []) by (intros Z; rewrite Z in Hne; apply Hne; reflexivity).
    split.
    + destruct (somes (map join_or_none gs)) as [|y r] eqn:Q.
      * rewrite (proj1 E2 eq_refl), app_nil_r. reflexivity.
      * rewrite join_str_app; [|exact Hg|intros Z; apply E2 in Z; discriminate].
        rewrite <- E1. reflexivity.
    + split; [discriminate|]. intros Z. apply app_eq_nil in Z. destruct Z. contradiction.
  - apply join_or_none_none in J. destruct J as [J|J].
    + rewrite J. simpl. auto.
    + exfalso. apply (G g); [apply H; left; reflexivity|exact J].
Qed.

(** ** rendered statements are not blank *)
Lemma any_char_app p a b : any_char p (a ++ b)%string = any_char p a || any_char p b.
Proof. induction a as [|c a IH]; simpl; [reflexivity|]. destruct (p c); simpl; auto. Qed.
Lemma blank_app a b : blank (a ++ b)%string = blank a && blank b.
Proof. unfold blank. rewrite any_char_app. rewrite Bool.negb_orb. reflexivity. Qed.
Lemma render_nonblank d s x : render d s = Ok x -> blank x = true -> d = DMSSQL /\ s = SCreateSchema true ""%string.
Proof.
  intros R B.
  assert (K : forall p r, blank p = false -> x = (p ++ r)%string -> False).
  { intros p r Bp ->. rewrite blank_app, Bp in B. discriminate. }
  destruct s; cbn [render] in R;
    repeat match type of R with
    | Ok _ = Ok _ => injection R as R; symmetry in R
    | Err _ = Ok _ => discriminate
    | bind ?z _ = _ => destruct z; cbn [bind] in R; [|discriminate]
    end;
    try (exfalso; refine (K _ _ _ R); reflexivity).
  - destruct if_not_exists.
    + destruct d; try (injection R as R; symmetry in R; exfalso; refine (K _ _ _ R); reflexivity).
      unfold mssql_create_schema in R. destruct n as [|c n]; [auto|].
      injection R as R; symmetry in R; exfalso; refine (K _ _ _ R); reflexivity.
    + injection R as R; symmetry in R; exfalso; refine (K _ _ _ R); reflexivity.
  - destruct cascade; injection R as R; symmetry in R; exfalso; refine (K _ _ _ R); reflexivity.
  - unfold render_alter in R.
    repeat match type of R with
    | match ?z with _ => _ end = _ => destruct z
    | (if ?z then _ else _) = _ => destruct z
    | bind ?z _ = _ => destruct z; cbn [bind] in R
    | Ok _ = Ok _ => injection R as R; symmetry in R
    | Err _ = Ok _ => discriminate
    end; try discriminate; exfalso; refine (K _ _ _ R); reflexivity.
  - destruct d; injection R as R; symmetry in R; exfalso; refine (K _ _ _ R); reflexivity.
Qed.


Lemma mutate_table_target d s t l st : mutate_table d s t = Ok l -> In st l -> forall b n, st <> SCreateSchema b n.
Proof. intros H I b n ->. pose proof (mutate_table_in d s t l _ H I) as T. unfold table_stmt in T. decompose [ex and or] T; discriminate. Qed.

Lemma ns_no_schema d o s t b n : ~ ns_stmt d o s t (SCreateSchema b n).
Proof.
  intros C. destruct C; try discriminate.
  - destruct H2; discriminate.
  - eapply mutate_table_target; eauto.
  - destruct H2 as [E|[E _]]; [discriminate|]. discriminate.
Qed.

Lemma schema_named d o s t l b n : mutate_sorted d o s t = Ok l -> In (SCreateSchema b n) l -> n <> ""%string.
Proof.
  unfold mutate_sorted. intros H I.
  match type of H with bind ?z _ = _ => destruct z as [cs|] eqn:B1; cbn [bind] in H; [|discriminate] end.
  match type of H with bind ?z _ = _ => destruct z as [ct|] eqn:B2; cbn [bind] in H; [|discriminate] end.
  injection H as <-. rewrite !in_app_iff in I. destruct I as [I|[I|[I|[I|[I|I]]]]].
  - apply in_flat_map in I as (m & In_ & I). unfold create_schema in I. destruct (n_name m) eqn:E; [destruct I|].
    destruct I as [[= _ <-]|[]]. discriminate.
  - destruct (concat_res_in _ _ _ _ B1 I) as (m & r & In_ & Hr & Ir).
    destruct (create_objects_in d m r _ Hr Ir) as (q & Q1 & _). discriminate.
  - apply in_flat_map in I as (m & In_ & I). unfold ns_add_constraints in I. apply in_flat_map in I as (x & Ix & I).
    destruct (add_constraints_in d x _ I). discriminate.
  - destruct (concat_res_in _ _ _ _ B2 I) as (p & r & Ip & Hr & Ir).
    exfalso. eapply ns_no_schema. eapply mutate_namespace_in; eauto.
  - apply in_flat_map in I as (m & In_ & I). unfold ns_drop_constraints in I. apply in_flat_map in I as (x & Ix & I).
    unfold drop_constraints in I. destruct (table_constraints x); [destruct I|]. destruct I as [E|[]]. discriminate.
  - destruct (allow_drop_namespace o); [|destruct I]. apply in_app_or in I as [I|I]; apply in_flat_map in I as (m & In_ & I).
    + unfold drop_objects in I. rewrite !in_app_iff in I. destruct I as [I|[I|I]]; apply in_map_iff in I as (x & E & _); discriminate.
    + unfold drop_schema in I. destruct (n_name m); [destruct I|]. destruct I as [E|[]]. discriminate.
Qed.

Lemma join_nonblank sep l x : In x l -> blank x = false -> blank (join_str sep l) = false.
Proof.
  induction l as [|y l IH]; intros I B; [destruct I|]. destruct l as [|z l].
  - destruct I as [->|[]]. exact B.
  - change (join_str sep (y :: z :: l)) with (y ++ sep ++ join_str sep (z :: l))%string. rewrite !blank_app.
    destruct I as [->|I]; [rewrite B; reflexivity|]. rewrite (IH I B), !Bool.andb_false_r. reflexivity.
Qed.

Lemma mutate_text_nonblank d o s t x : mutate_text d o s t = Ok (Some x) -> execute_guard x = Ok x.
Proof.
  unfold mutate_text, mutate_catalog.
  destruct (cat_sort s) as [s'|]; simpl; [|discriminate].
  destruct (cat_sort t) as [t'|]; simpl; [|discriminate].
  destruct (mutate_sorted d o s' t') as [l|] eqn:E; simpl; [|discriminate].
  unfold render_script. destruct (map_res (render d) l) as [r|] eqn:R; simpl; [|discriminate].
  destruct r as [|y r]; [discriminate|]. intros [= <-]. unfold execute_guard.
  assert (I : In y (y :: r)) by (left; reflexivity).
  destruct (map_res_inv _ _ _ _ R I) as (st & Ist & Hst).
  destruct (blank y) eqn:B.
  - exfalso. destruct (render_nonblank _ _ _ Hst B) as [_ ->]. eapply schema_named; eauto.
  - change (match r with [] => y | _ :: _ => (y ++ NL ++ join_str NL r)%string end) with (join_str NL (y :: r)).
    rewrite (join_nonblank NL (y :: r) y I B). reflexivity.
Qed.

Lemma mutate_text_none d o s t : mutate_text d o s t = Ok None <->
  exists s' t', mutate_catalog d o s t = Ok (s', t', []).
Proof.
  unfold mutate_text. destruct (mutate_catalog d o s t) as [[[s' t'] l]|] eqn:E; simpl.
  - unfold render_script. destruct l as [|st l]; simpl.
    + split; eauto.
    + destruct (render d st); simpl; [|split; [discriminate|intros (? & ? & [=])]].
      destruct (map_res (render d) l); simpl; (split; [discriminate|intros (? & ? & [=])]).
  - split; [discriminate|intros (? & ? & [=])].
Qed.
