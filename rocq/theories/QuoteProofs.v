(** Proofs about quoting; statements are collected in PropsQuote.v *)
From Verif Require Import PyStr QuoteModel QuoteSpec.
Open Scope string_scope.

Lemma not_begins_cases q rest :
  ~ begins q rest -> match rest with "" => True | String c _ => Ascii.eqb c q = false end.
Proof.
  destruct rest as [|c r]; intros H; [exact I|].
  destruct (Ascii.eqb_spec c q) as [->|]; [|reflexivity].
  exfalso. apply H. now exists r.
Qed.

Lemma scan_quoted_end q rest : ~ begins q rest -> scan_quoted q (String q rest) = Some ("", rest).
Proof.
  intros H. apply not_begins_cases in H. cbn [scan_quoted]. rewrite Ascii.eqb_refl.
  destruct rest as [|c r]; [reflexivity|]. now rewrite H.
Qed.

Lemma scan_quoted_replace q s rest :
  ~ begins q rest ->
  scan_quoted q (replace1 q (String q (str1 q)) s ++ String q rest) = Some (s, rest).
Proof.
  intros H. induction s as [|c s IH].
  - now apply scan_quoted_end.
  - unfold replace1 in *. cbn [translate]. rewrite append_assoc.
    destruct (Ascii.eqb_spec c q) as [->|N].
    + cbn [append str1 scan_quoted]. rewrite !Ascii.eqb_refl. now rewrite IH.
    + cbn [append str1 scan_quoted].
      destruct (Ascii.eqb_spec c q); [contradiction|]. now rewrite IH.
Qed.

Lemma quote_scan s rest : ~ begins QT rest -> sql_literal (quote s ++ rest) = Some (s, rest).
Proof.
  intros H. unfold quote, sql_literal, scan_token. cbn [append]. rewrite Ascii.eqb_refl.
  rewrite append_assoc. exact (scan_quoted_replace QT s rest H).
Qed.

Lemma not_begins_nil q : ~ begins q "".
Proof. intros [r H]. discriminate. Qed.

Lemma not_begins_other q c r : c <> q -> ~ begins q (String c r).
Proof. intros N [r' H]. injection H. congruence. Qed.

Lemma quote_inj s t : quote s = quote t -> s = t.
Proof.
  intros H. pose proof (quote_scan s "" (not_begins_nil _)) as A.
  pose proof (quote_scan t "" (not_begins_nil _)) as B.
  rewrite H in A. rewrite A in B. now injection B.
Qed.

Lemma local_quoted_scan s rest : ~ begins DQ rest -> sql_ident (local_quoted s ++ rest) = Some (s, rest).
Proof.
  intros H. unfold local_quoted, in_dq, sql_ident, scan_token, quote_id. cbn [append str1].
  rewrite Ascii.eqb_refl, append_assoc. exact (scan_quoted_replace DQ s rest H).
Qed.

Lemma local_quoted_inj s t : local_quoted s = local_quoted t -> s = t.
Proof.
  intros H. pose proof (local_quoted_scan s "" (not_begins_nil _)) as A.
  pose proof (local_quoted_scan t "" (not_begins_nil _)) as B.
  rewrite H in A. rewrite A in B. now injection B.
Qed.

Lemma mysql_quoted_scan s rest :
  ~ begins BQ rest -> scan_token BQ (mysql_quoted_id s ++ rest) = Some (s, rest).
Proof.
  intros H. unfold mysql_quoted_id, scan_token. cbn [append str1].
  rewrite Ascii.eqb_refl, append_assoc. exact (scan_quoted_replace BQ s rest H).
Qed.

Lemma qualified_scan ns id rest :
  ~ begins DQ rest -> (ns = None -> ~ begins "." rest) ->
  sql_qualified (quoted_id (Qualified ns id) ++ rest) = Some (ns, id, rest).
Proof.
  intros H1 H2. unfold sql_qualified. destruct ns as [ns|].
  - replace (quoted_id (Qualified (Some ns) id) ++ rest)
      with (local_quoted ns ++ String "." (local_quoted id ++ rest))
      by (unfold local_quoted, in_dq; cbn [quoted_id]; now rewrite !append_assoc).
    rewrite local_quoted_scan by (now apply not_begins_other).
    now rewrite local_quoted_scan.
  - replace (quoted_id (Qualified None id)) with (local_quoted id) by reflexivity.
    rewrite local_quoted_scan by exact H1.
    destruct rest as [|c r]; [reflexivity|].
    specialize (H2 eq_refl). apply not_begins_cases in H2.
    destruct c as [[] [] [] [] [] [] [] []]; try reflexivity. discriminate H2.
Qed.

Lemma qualified_inj ns1 id1 ns2 id2 :
  quoted_id (Qualified ns1 id1) = quoted_id (Qualified ns2 id2) -> ns1 = ns2 /\ id1 = id2.
Proof.
  intros H.
  pose proof (qualified_scan ns1 id1 "" (not_begins_nil _) (fun _ => not_begins_nil _)) as A.
  pose proof (qualified_scan ns2 id2 "" (not_begins_nil _) (fun _ => not_begins_nil _)) as B.
  rewrite H in A. rewrite A in B. injection B as -> ->. now split.
Qed.

Lemma prefixed_scan ns id rest :
  ~ begins DQ rest ->
  sql_ident (quoted_id (Prefixed ns id) ++ rest) = Some (local_id (Prefixed ns id), rest).
Proof.
  intros H. destruct ns as [ns|]; cbn [quoted_id local_id].
  - replace ((str1 DQ ++ quote_id ns ++ "__" ++ quote_id id ++ str1 DQ) ++ rest)
      with (local_quoted (ns ++ "__" ++ id) ++ rest).
    + now apply local_quoted_scan.
    + unfold local_quoted, in_dq, quote_id, replace1. rewrite !translate_app.
      rewrite !append_assoc. reflexivity.
  - exact (local_quoted_scan id rest H).
Qed.

(** ---- enumeration value lists ---- *)
Lemma literal_list_join vs rest :
  ~ begins QT rest ->
  literal_list (join_str ", " (map quote vs) ++ rest) vs rest.
Proof.
  intros H. induction vs as [|v vs IH]; [constructor|].
  destruct vs as [|w vs].
  - constructor. cbn [map join_str]. now apply quote_scan.
  - change (map quote (v :: w :: vs)) with (quote v :: quote w :: map quote vs).
    rewrite join_str_cons, !append_assoc.
    eapply LL_cons with (s' := join_str ", " (map quote (w :: vs)) ++ rest).
    + apply quote_scan. apply not_begins_other. discriminate.
    + discriminate.
    + exact IH.
Qed.

Lemma literal_list_det s : forall vs rest, literal_list s vs rest ->
  forall vs' rest', literal_list s vs' rest' -> vs <> [] -> vs' <> [] ->
  (~ exists r, rest = ", " ++ r) -> (~ exists r, rest' = ", " ++ r) -> vs = vs' /\ rest = rest'.
Proof.
  intros vs rest H. induction H as [s|s v rest H|s v s' vs rest H N H2 IH]; intros vs' rest' H' N1 N2 R1 R2.
  - congruence.
  - destruct H' as [|s0 v0 rest0 H0|s0 v0 s0' vs0 rest0 H0 N0 H0'].
    + congruence.
    + rewrite H in H0. injection H0 as -> ->. now split.
    + rewrite H in H0. injection H0 as -> ->. exfalso. apply R1. eexists; reflexivity.
  - destruct H' as [|s0 v0 rest0 H0|s0 v0 s0' vs0 rest0 H0 N0 H0'].
    + congruence.
    + rewrite H in H0. injection H0 as -> <-. exfalso. apply R2. eexists; reflexivity.
    + rewrite H in H0. injection H0 as -> E. subst s0'.
      destruct (IH _ _ H0' N N0 R1 R2) as [-> ->]. now split.
Qed.

Lemma enum_list_inj vs ws :
  vs <> [] -> ws <> [] ->
  join_str ", " (map quote vs) = join_str ", " (map quote ws) -> vs = ws.
Proof.
  intros N1 N2 E.
  assert (NB : ~ begins QT ");") by (apply not_begins_other; discriminate).
  pose proof (literal_list_join vs ");" NB) as A.
  pose proof (literal_list_join ws ");" NB) as B.
  rewrite E in A.
  refine (proj1 (literal_list_det _ _ _ A _ _ B N1 N2 _ _)); intros [r H]; discriminate.
Qed.

(** ---- escaped literals ---- *)
Lemma scan_escaped_end esc dbl rest :
  ~ begins QT rest -> scan_escaped esc dbl (String QT rest) = Some ("", rest).
Proof.
  intros H. apply not_begins_cases in H. cbn [scan_escaped].
  change (Ascii.eqb QT BS) with false. cbn iota. rewrite Ascii.eqb_refl.
  destruct rest as [|c r]; [reflexivity|]. rewrite H. now rewrite andb_false_r.
Qed.

(** one character of the translation is read back as one character *)
Definition reads_back (esc : ascii -> ascii) (tab : ascii -> string) (c : ascii) : Prop :=
  (exists c2, tab c = String BS (str1 c2) /\ esc c2 = c) \/ (tab c = str1 c /\ c <> BS /\ c <> QT).

Lemma scan_escaped_translate esc tab dbl s rest :
  (forall c, reads_back esc tab c) -> ~ begins QT rest ->
  scan_escaped esc dbl (translate tab s ++ String QT rest) = Some (s, rest).
Proof.
  intros T H. induction s as [|c s IH]; [now apply scan_escaped_end|].
  cbn [translate]. rewrite append_assoc.
  destruct (T c) as [[c2 [E1 E2]]|[E [N1 N2]]].
  - rewrite E1. cbn [append str1 scan_escaped]. rewrite Ascii.eqb_refl, IH, E2. reflexivity.
  - rewrite E. cbn [append str1 scan_escaped].
    destruct (Ascii.eqb_spec c BS); [contradiction|].
    destruct (Ascii.eqb_spec c QT); [contradiction|]. now rewrite IH.
Qed.

Ltac all_ascii c := destruct c as [[] [] [] [] [] [] [] []].

Lemma pg_reads c : reads_back esc_pg pg_table c.
Proof.
  all_ascii c;
    first [ right; split; [reflexivity| split; discriminate]
          | left; eexists; split; [reflexivity| reflexivity] ].
Qed.
Lemma delta_reads c : reads_back esc_delta delta_table c.
Proof.
  all_ascii c;
    first [ right; split; [reflexivity| split; discriminate]
          | left; eexists; split; [reflexivity| reflexivity] ].
Qed.
Lemma snow_reads c : reads_back esc_snow snow_table c.
Proof.
  all_ascii c;
    first [ right; split; [reflexivity| split; discriminate]
          | left; eexists; split; [reflexivity| reflexivity] ].
Qed.

Lemma pg_quoted_scan s rest :
  ~ begins QT rest -> pg_literal (pg_quoted_string s ++ rest) = Some (s, rest).
Proof.
  intros H. unfold pg_quoted_string.
  destruct (any_char _ s).
  - cbn [append pg_literal]. cbn [Ascii.eqb andb Bool.eqb].
    rewrite append_assoc. cbn [append]. apply scan_escaped_translate; [apply pg_reads|exact H].
  - change (("'" ++ replace1 QT "''" s ++ "'") ++ rest) with (quote s ++ rest).
    pose proof (quote_scan s rest H) as Q.
    unfold quote in *. cbn [append] in *. unfold pg_literal.
    destruct ((replace1 QT "''" s ++ "'") ++ rest) as [|c r] eqn:E; [exact Q|].
    cbn [Ascii.eqb andb Bool.eqb]. exact Q.
Qed.

(** text without the special characters is scanned verbatim *)
Lemma scan_escaped_plain esc dbl s rest :
  has_char BS s = false -> has_char QT s = false -> ~ begins QT rest ->
  scan_escaped esc dbl (s ++ String QT rest) = Some (s, rest).
Proof.
  intros H1 H2 H. induction s as [|c s IH]; [now apply scan_escaped_end|].
  cbn [has_char] in H1, H2. apply orb_false_iff in H1, H2.
  destruct H1 as [A1 B1], H2 as [A2 B2].
  cbn [append scan_escaped]. rewrite A1, A2. now rewrite (IH B1 B2).
Qed.

Lemma scan_escaped_doubled esc s rest :
  has_char BS s = false -> ~ begins QT rest ->
  scan_escaped esc true (replace1 QT "''" s ++ String QT rest) = Some (s, rest).
Proof.
  intros H1 H. induction s as [|c s IH]; [now apply scan_escaped_end|].
  cbn [has_char] in H1. apply orb_false_iff in H1. destruct H1 as [A1 B1].
  unfold replace1 in *. cbn [translate]. rewrite append_assoc.
  destruct (Ascii.eqb_spec c QT) as [->|N].
  - cbn [append str1 scan_escaped]. change (Ascii.eqb QT BS) with false. cbn iota.
    rewrite Ascii.eqb_refl. cbn [andb]. now rewrite (IH B1).
  - cbn [append str1 scan_escaped]. rewrite A1.
    destruct (Ascii.eqb_spec c QT); [contradiction|]. now rewrite (IH B1).
Qed.

Lemma any_in_class_false cs c s :
  any_char (in_class cs) s = false -> In c cs -> has_char c s = false.
Proof.
  intros H I. eapply any_char_false_has; [exact H|]. now apply in_class_spec.
Qed.

Lemma delta_quoted_scan s rest :
  ~ begins QT rest -> delta_literal (delta_quoted_string s ++ rest) = Some (s, rest).
Proof.
  intros H. unfold delta_literal, esc_literal, delta_quoted_string. cbn [append].
  rewrite Ascii.eqb_refl.
  destruct (any_char _ s) eqn:E; rewrite append_assoc; cbn [append].
  - apply scan_escaped_translate; [apply delta_reads|exact H].
  - apply scan_escaped_plain; [| |exact H];
      eapply any_in_class_false; try exact E; simpl; tauto.
Qed.

Lemma snow_quoted_scan s rest :
  ~ begins QT rest -> snow_literal (snow_quoted_string s ++ rest) = Some (s, rest).
Proof.
  intros H. unfold snow_literal, esc_literal, snow_quoted_string. cbn [append].
  rewrite Ascii.eqb_refl.
  destruct (any_char _ s) eqn:E; rewrite append_assoc; cbn [append].
  - apply scan_escaped_translate; [apply snow_reads|exact H].
  - assert (B : has_char BS s = false) by (eapply any_in_class_false; [exact E| simpl; tauto]).
    destruct (has_char QT s) eqn:Q.
    + now apply scan_escaped_doubled.
    + now apply scan_escaped_plain.
Qed.

(** MySQL runs without NO_BACKSLASH_ESCAPES: [quote] is right exactly for texts without backslash *)
Lemma mysql_quote_plain s rest :
  has_char BS s = false -> ~ begins QT rest -> mysql_literal (quote s ++ rest) = Some (s, rest).
Proof.
  intros H1 H2. unfold mysql_literal, esc_literal, quote. cbn [append]. rewrite Ascii.eqb_refl.
  rewrite append_assoc. now apply scan_escaped_doubled.
Qed.

(** ---- LIKE ---- *)
Definition like_esc_char (e c : ascii) : string :=
  if Ascii.eqb c e || Ascii.eqb c "_" || Ascii.eqb c "%" then String e (str1 c) else str1 c.
Definition like_escaped (e : ascii) (v : string) : string := translate (like_esc_char e) v.

Lemma translate_translate f g s : translate g (translate f s) = translate (fun c => translate g (f c)) s.
Proof. induction s as [|c s IH]; [reflexivity|]. cbn [translate]. now rewrite translate_app, IH. Qed.

Lemma translate_ext f g s : (forall c, f c = g c) -> translate f s = translate g s.
Proof. intros H. induction s as [|c s IH]; [reflexivity|]. cbn [translate]. now rewrite H, IH. Qed.

Lemma escape_like_split v : escape_like v "~" = replace1 QT "''" (like_escaped "~" v).
Proof.
  unfold escape_like, like_escaped, replace1. rewrite !translate_translate.
  apply translate_ext. intros c. all_ascii c; reflexivity.
Qed.

Definition like_pattern (ns : string) : string := like_escaped "~" ns ++ "~_~_%".

Lemma like_literal_scan ns rest :
  ~ begins QT rest -> sql_literal (like_literal ns ++ rest) = Some (like_pattern ns, rest).
Proof.
  intros H.
  replace (like_literal ns) with (quote (like_pattern ns)).
  - now apply quote_scan.
  - unfold quote, like_literal, like_pattern. rewrite escape_like_split.
    unfold replace1. rewrite translate_app, !append_assoc. reflexivity.
Qed.

Lemma like_esc_inv e c p t :
  like e (String e (String c p)) t -> e <> "%"%char -> e <> "_"%char ->
  exists s, t = String c s /\ like e p s.
Proof. intros H N1 N2. inversion H; subst; try congruence. eauto. Qed.
Lemma like_lit_inv e c p t :
  like e (String c p) t -> c <> e -> c <> "%"%char -> c <> "_"%char ->
  exists s, t = String c s /\ like e p s.
Proof. intros H N1 N2 N3. inversion H; subst; try congruence. eauto. Qed.
Lemma like_any_inv e p t :
  like e (String "%" p) t -> e <> "%"%char -> exists a s, t = a ++ s /\ like e p s.
Proof. intros H N. inversion H; subst; try congruence. eauto. Qed.

Lemma like_prefix ns p t :
  like "~" (like_escaped "~" ns ++ p) t <-> exists r, t = ns ++ r /\ like "~" p r.
Proof.
  revert t. induction ns as [|c ns IH]; intros t.
  - cbn. split; [intros H; now exists t | now intros [r [-> H]]].
  - unfold like_escaped in *. cbn [translate]. rewrite append_assoc.
    unfold like_esc_char at 1.
    destruct (Ascii.eqb c "~" || Ascii.eqb c "_" || Ascii.eqb c "%") eqn:E.
    + cbn [append str1]. split.
      * intros H. apply like_esc_inv in H; try discriminate. destruct H as [u [-> H1]].
        apply IH in H1. destruct H1 as [r [-> H1]]. now exists r.
      * intros [r [-> H]]. cbn [append]. constructor. apply IH. now exists r.
    + apply orb_false_iff in E. destruct E as [E E3]. apply orb_false_iff in E. destruct E as [E1 E2].
      apply Ascii.eqb_neq in E1, E2, E3. cbn [append str1]. split.
      * intros H. apply like_lit_inv in H; auto. destruct H as [u [-> H5]].
        apply IH in H5. destruct H5 as [r [-> H5]]. now exists r.
      * intros [r [-> H]]. cbn [append]. apply like_lit; auto. apply IH. now exists r.
Qed.

Lemma like_nil_inv e s : like e "" s -> s = "".
Proof. intros H; inversion H; reflexivity. Qed.

Lemma like_percent s : like "~" "%" s.
Proof.
  rewrite <- (append_nil_r s). apply like_any; [discriminate|constructor].
Qed.

Lemma like_pattern_spec ns t : like "~" (like_pattern ns) t <-> starts_with (ns ++ "__") t = true.
Proof.
  unfold like_pattern. rewrite like_prefix, starts_with_spec. split.
  - intros [r [-> H]]. apply like_esc_inv in H; try discriminate. destruct H as [u [-> H]].
    apply like_esc_inv in H; try discriminate. destruct H as [u' [-> H]].
    exists u'. now rewrite append_assoc.
  - intros [r ->]. exists ("__" ++ r). split; [apply append_assoc|].
    apply like_esc, like_esc, like_percent.
Qed.

(** tables of the unqualified namespace: NOT LIKE '%~_~_%' *)
Lemma like_infix t : like "~" "%~_~_%" t <-> exists a b, t = a ++ "__" ++ b.
Proof.
  split.
  - intros H. apply like_any_inv in H; try discriminate. destruct H as [a [u [-> H]]].
    apply like_esc_inv in H; try discriminate. destruct H as [u1 [-> H]].
    apply like_esc_inv in H; try discriminate. destruct H as [u2 [-> H]].
    exists a, u2. reflexivity.
  - intros [a [b ->]]. apply like_any; [discriminate|]. apply like_esc, like_esc, like_percent.
Qed.

(** ---- splitting flat identifiers ---- *)
Definition has_dunder (s : string) : Prop := exists a b, s = a ++ "__" ++ b.
Definition ends_underscore (s : string) : Prop := exists a, s = a ++ "_".

Lemma split_first_none s : split_first s = None <-> ~ has_dunder s.
Proof.
  induction s as [|c s IH].
  - split; [|reflexivity]. intros _ [a [b H]]. destruct a; discriminate.
  - cbn [split_first]. destruct (drop_prefix "__" (String c s)) as [tl|] eqn:E.
    + split; [discriminate|]. intros H. exfalso. apply H.
      apply drop_prefix_spec in E. exists "", tl. exact E.
    + destruct (split_first s) as [[a b]|] eqn:F.
      * split; [discriminate|]. intros H. exfalso. apply H.
        assert (D : ~ ~ has_dunder s).
        { intros D. apply IH in D. discriminate. }
        exfalso. apply D. intros [x [y ->]]. apply H. exists (String c x), y. reflexivity.
      * split; [|reflexivity]. intros _ [a [b H]].
        destruct a as [|x a]; cbn [append] in H.
        { assert (E2 : drop_prefix "__" (String c s) = Some b) by (apply drop_prefix_spec; exact H).
          congruence. }
        injection H as -> ->. apply IH; [reflexivity|]. now exists a, b.
Qed.

Lemma split_first_some s a b : split_first s = Some (a, b) -> s = a ++ "__" ++ b.
Proof.
  revert a. induction s as [|c s IH]; intros a; [discriminate|].
  cbn [split_first]. destruct (drop_prefix "__" (String c s)) as [tl|] eqn:E.
  - intros H. injection H as <- <-. apply drop_prefix_spec in E. exact E.
  - destruct (split_first s) as [[x y]|]; [|discriminate].
    intros H. injection H as <- <-. cbn [append]. now rewrite (IH x eq_refl).
Qed.

(** the split point is the first occurrence *)
Lemma split_first_join ns id :
  ~ has_dunder (ns ++ "_") -> split_first (ns ++ "__" ++ id) = Some (ns, id).
Proof.
  induction ns as [|c ns IH]; intros H; [reflexivity|].
  cbn [append split_first].
  assert (H' : ~ has_dunder (ns ++ "_")).
  { intros [a [b E]]. apply H. exists (String c a), b. cbn [append]. now rewrite E. }
  destruct (drop_prefix "__" (String c (ns ++ String "_" (String "_" id)))) as [tl|] eqn:E.
  - exfalso. apply drop_prefix_spec in E. cbn [append] in E. injection E as -> E.
    apply H. destruct ns as [|d ns].
    + exists "", "". reflexivity.
    + cbn [append] in E. injection E as -> _. exists "", (ns ++ "_"). reflexivity.
  - specialize (IH H'). cbn [append] in IH. rewrite IH. reflexivity.
Qed.

Lemma dunder_snoc ns : has_dunder (ns ++ "_") <-> has_dunder ns \/ ends_underscore ns.
Proof.
  split.
  - intros [a [b E]].
    revert ns E. induction a as [|c a IH]; intros ns E.
    + destruct ns as [|x ns]; [discriminate|]. cbn [append] in E. injection E as -> E.
      destruct ns as [|y ns]; cbn [append] in E.
      * right. now exists "".
      * injection E as -> E. left. exists "", ns. reflexivity.
    + destruct ns as [|x ns]; cbn [append] in E.
      * injection E as _ E. destruct a; discriminate.
      * injection E as -> E. destruct (IH ns E) as [[p [q ->]]|[p ->]].
        { left. now exists (String c p), q. }
        { right. now exists (String c p). }
  - intros [[a [b ->]]|[a ->]].
    + exists a, (b ++ "_"). now rewrite !append_assoc.
    + exists a, "". now rewrite append_assoc.
Qed.

Lemma split_first_minimal s : forall u v x y,
  split_first s = Some (u, v) -> s = x ++ "__" ++ y -> String.length u <= String.length x.
Proof.
  induction s as [|c s IH]; intros u v x y; [discriminate|].
  cbn [split_first]. destruct (drop_prefix "__" (String c s)) as [tl|] eqn:E.
  - intros H; injection H as <- <-. simpl; lia.
  - destruct (split_first s) as [[p q]|] eqn:F; [|discriminate].
    intros H; injection H as <- <-. intros Hx. destruct x as [|x0 x].
    + exfalso. assert (E2 : drop_prefix "__" (String c s) = Some y) by (apply drop_prefix_spec; exact Hx).
      congruence.
    + cbn [append] in Hx. injection Hx as -> Hx. simpl. apply le_n_S. exact (IH p q x y eq_refl Hx).
Qed.

Lemma split_composite_iff ns id :
  split_composite_id (local_id (Prefixed (Some ns) id)) = (Some ns, id)
  <-> ~ has_dunder ns /\ ~ ends_underscore ns.
Proof.
  cbn [local_id]. unfold split_composite_id. split.
  - intros H.
    assert (N : ~ has_dunder (ns ++ "_")).
    { intros [a [b D]].
      destruct (split_first (ns ++ "__" ++ id)) as [[u v]|] eqn:E; [|discriminate].
      injection H as -> ->.
      assert (P : ns ++ "__" ++ id = a ++ "__" ++ (b ++ "_" ++ id)).
      { transitivity ((ns ++ "_") ++ ("_" ++ id)); [now rewrite append_assoc|].
        rewrite D, !append_assoc. reflexivity. }
      pose proof (split_first_minimal _ _ _ _ _ E P) as LE.
      apply (f_equal String.length) in D. rewrite !append_length in D. simpl in D. lia. }
    rewrite dunder_snoc in N. tauto.
  - intros [H1 H2]. rewrite split_first_join; [reflexivity|]. rewrite dunder_snoc. tauto.
Qed.

Lemma split_composite_none id :
  ~ has_dunder id -> split_composite_id (local_id (Prefixed None id)) = (None, id).
Proof. intros H. unfold split_composite_id. cbn [local_id]. apply split_first_none in H. now rewrite H. Qed.

Definition flat_safe (q : option string * string) : Prop :=
  match q with
  | (Some ns, _) => ~ has_dunder ns /\ ~ ends_underscore ns
  | (None, id) => ~ has_dunder id
  end.

Lemma flat_split ns id :
  flat_safe (ns, id) -> split_composite_id (local_id (Prefixed ns id)) = (ns, id).
Proof.
  destruct ns as [ns|]; cbn [flat_safe]; intros H.
  - now apply split_composite_iff.
  - now apply split_composite_none.
Qed.

Lemma flat_inj ns1 id1 ns2 id2 :
  flat_safe (ns1, id1) -> flat_safe (ns2, id2) ->
  local_id (Prefixed ns1 id1) = local_id (Prefixed ns2 id2) -> ns1 = ns2 /\ id1 = id2.
Proof.
  intros H1 H2 E. apply flat_split in H1, H2. rewrite E in H1. rewrite H1 in H2.
  injection H2 as -> ->. now split.
Qed.

(** ---- MSSQL schema creation ---- *)
Lemma replace1_id c r s : has_char c s = false -> replace1 c r s = s.
Proof.
  induction s as [|x s IH]; [reflexivity|]. cbn [has_char]. intros D.
  apply orb_false_iff in D. destruct D as [D1 D2].
  unfold replace1 in *. cbn [translate]. rewrite D1, (IH D2). reflexivity.
Qed.

Lemma quote_id_no_qt s : has_char QT s = false -> has_char QT (quote_id s) = false.
Proof.
  unfold quote_id, replace1.
  induction s as [|x s IH]; [reflexivity|]. cbn [has_char translate]. intros D.
  apply orb_false_iff in D. destruct D as [D1 D2]. rewrite has_char_app, (IH D2), orb_false_r.
  destruct (Ascii.eqb x DQ); [reflexivity|]. cbn [has_char str1]. now rewrite D1.
Qed.

Lemma mssql_schema_plain name text :
  has_char QT name = false -> mssql_create_schema name = Some text ->
  exists tail,
    text = "IF NOT EXISTS ( SELECT * FROM sys.schemas WHERE name = N" ++ quote name ++ " ) EXEC(" ++ tail
    /\ sql_literal tail = Some ("CREATE SCHEMA " ++ local_quoted name, ");").
Proof.
  intros H E. exists (quote ("CREATE SCHEMA " ++ local_quoted name) ++ ");").
  split.
  - unfold mssql_create_schema in E. destruct name as [|c name]; [discriminate|].
    injection E as <-. unfold quote.
    rewrite (replace1_id QT "''" ("CREATE SCHEMA " ++ local_quoted (String c name))).
    + unfold local_quoted, in_dq. rewrite !append_assoc. reflexivity.
    + rewrite has_char_app. unfold local_quoted, in_dq. rewrite !has_char_app.
      rewrite (quote_id_no_qt _ H). reflexivity.
  - apply quote_scan. intros [r D]. discriminate.
Qed.
