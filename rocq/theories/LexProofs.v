(** The lexer of SqlText.v: texts may be concatenated where a separator stands between them. *)
From Verif Require Import PyStr QuoteModel QuoteSpec QuoteProofs Types Objects SqlAst Ddl SqlText TextSpec.
From Coq Require Import String List Bool Arith Ascii ZArith Lia.
Import ListNotations.
Open Scope string_scope.
Open Scope list_scope.
Notation "a +++ b" := (String.append a b) (at level 60, right associativity).

(** characters after or before which no token continues *)
Definition delim (c : ascii) : bool := in_class [" "%char; LF; "("%char; ")"%char; ","%char; ";"%char; "."%char; "="%char; ":"%char] c.
Definition lead (b : string) : bool := match b with "" => true | String c _ => delim c end.
Fixpoint ends (a : string) : bool :=
  match a with "" => false | String c "" => delim c | String _ r => ends r end.

(** ** Facts about single steps *)
Definition follows (rest b : string) : Prop := rest <> "" \/ lead b = true.
Lemma follows_quote q rest b c : delim q = false -> follows rest b -> head_is (Ascii.eqb c) (rest +++ b) = true -> c = q -> head_is (Ascii.eqb c) rest = true.
Proof.
  intros D [N|L] H ->; destruct rest as [|x r]; try congruence; try exact H.
  simpl in H. destruct b as [|y b]; [discriminate|]. simpl in H, L.
  apply Ascii.eqb_eq in H. subst y. congruence.
Qed.
Lemma scan_quoted_app q s v rest b : delim q = false -> scan_quoted q s = Some (v, rest) -> follows rest b ->
  scan_quoted q (s +++ b) = Some (v, rest +++ b).
Proof.
  intros D. revert v rest. induction s as [s IH] using (induction_ltof1 _ String.length). unfold ltof in IH.
  intros v rest H F. destruct s as [|c r]; [discriminate|]. cbn [append]. cbn [scan_quoted] in H |- *.
  destruct (Ascii.eqb_spec c q) as [->|N].
  - destruct r as [|c2 r2].
    + injection H as <- <-. destruct F as [F|F]; [congruence|]. cbn [append].
      destruct b as [|y b]; [reflexivity|]. destruct (Ascii.eqb_spec y q) as [->|]; [simpl in F; congruence| reflexivity].
    + cbn [append]. destruct (Ascii.eqb_spec c2 q) as [->|N2].
      * destruct (scan_quoted q r2) as [[v' r']|] eqn:E; [|discriminate]. injection H as <- <-.
        rewrite (IH r2 ltac:(simpl; lia) _ _ E F). reflexivity.
      * injection H as <- <-. reflexivity.
  - destruct (scan_quoted q r) as [[v' r']|] eqn:E; [|discriminate]. injection H as <- <-.
    rewrite (IH r ltac:(simpl; lia) _ _ E F). reflexivity.
Qed.
Lemma scan_escaped_app esc dbl s v rest b : scan_escaped esc dbl s = Some (v, rest) -> follows rest b ->
  scan_escaped esc dbl (s +++ b) = Some (v, rest +++ b).
Proof.
  revert v rest. induction s as [s IH] using (induction_ltof1 _ String.length). unfold ltof in IH.
  intros v rest H F. destruct s as [|c r]; [discriminate|]. cbn [append]. cbn [scan_escaped] in H |- *.
  destruct (Ascii.eqb_spec c BS) as [->|N].
  - destruct r as [|c2 r2]; [discriminate|]. cbn [append].
    destruct (scan_escaped esc dbl r2) as [[v' r']|] eqn:E; [|discriminate]. injection H as <- <-.
    rewrite (IH r2 ltac:(simpl; lia) _ _ E F). reflexivity.
  - destruct (Ascii.eqb_spec c QT) as [->|N1].
    + destruct r as [|c2 r2].
      * injection H as <- <-. destruct F as [F|F]; [congruence|]. cbn [append].
        destruct b as [|y b]; [reflexivity|]. destruct (Ascii.eqb_spec y QT) as [->|]; [discriminate F|].
        rewrite andb_false_r. reflexivity.
      * cbn [append]. destruct (dbl && Ascii.eqb c2 QT).
        -- destruct (scan_escaped esc dbl r2) as [[v' r']|] eqn:E; [|discriminate]. injection H as <- <-.
           rewrite (IH r2 ltac:(simpl; lia) _ _ E F). reflexivity.
        -- injection H as <- <-. reflexivity.
    + destruct (scan_escaped esc dbl r) as [[v' r']|] eqn:E; [|discriminate]. injection H as <- <-.
      rewrite (IH r ltac:(simpl; lia) _ _ E F). reflexivity.
Qed.
(** what a scan leaves is preceded by the closing quote *)
Lemma scan_quoted_suffix q s v rest : scan_quoted q s = Some (v, rest) -> exists p, s = p +++ String q rest.
Proof.
  revert v rest. induction s as [s IH] using (induction_ltof1 _ String.length). unfold ltof in IH.
  intros v rest H. destruct s as [|c r]; [discriminate|]. cbn [scan_quoted] in H.
  destruct (Ascii.eqb_spec c q) as [->|N].
  - destruct r as [|c2 r2].
    + injection H as <- <-. now exists "".
    + destruct (Ascii.eqb_spec c2 q) as [->|N2].
      * destruct (scan_quoted q r2) as [[v' r']|] eqn:E; [|discriminate]. injection H as <- <-.
        destruct (IH r2 ltac:(simpl; lia) _ _ E) as [p ->]. now exists (String q (String q p)).
      * injection H as <- <-. now exists "".
  - destruct (scan_quoted q r) as [[v' r']|] eqn:E; [|discriminate]. injection H as <- <-.
    destruct (IH r ltac:(simpl; lia) _ _ E) as [p ->]. now exists (String c p).
Qed.
Lemma scan_escaped_suffix esc dbl s v rest : scan_escaped esc dbl s = Some (v, rest) -> exists p, s = p +++ String QT rest.
Proof.
  revert v rest. induction s as [s IH] using (induction_ltof1 _ String.length). unfold ltof in IH.
  intros v rest H. destruct s as [|c r]; [discriminate|]. cbn [scan_escaped] in H.
  destruct (Ascii.eqb_spec c BS) as [->|N].
  - destruct r as [|c2 r2]; [discriminate|].
    destruct (scan_escaped esc dbl r2) as [[v' r']|] eqn:E; [|discriminate]. injection H as <- <-.
    destruct (IH r2 ltac:(simpl; lia) _ _ E) as [p ->]. now exists (String BS (String c2 p)).
  - destruct (Ascii.eqb_spec c QT) as [->|N1].
    + destruct r as [|c2 r2].
      * injection H as <- <-. now exists "".
      * destruct (dbl && Ascii.eqb c2 QT).
        -- destruct (scan_escaped esc dbl r2) as [[v' r']|] eqn:E; [|discriminate]. injection H as <- <-.
           destruct (IH r2 ltac:(simpl; lia) _ _ E) as [p ->]. now exists (String QT (String c2 p)).
        -- injection H as <- <-. now exists "".
    + destruct (scan_escaped esc dbl r) as [[v' r']|] eqn:E; [|discriminate]. injection H as <- <-.
      destruct (IH r ltac:(simpl; lia) _ _ E) as [p ->]. now exists (String c p).
Qed.
Lemma span_word_spec s w rest : span_word s = (w, rest) -> s = w +++ rest /\ any_char (fun c => negb (word_char c)) w = false
  /\ head_is word_char rest = false.
Proof.
  revert w rest. induction s as [|c s IH]; simpl; intros w rest H; [injection H as <- <-; auto|].
  destruct (word_char c) eqn:E.
  - destruct (span_word s) as [a b]. destruct (IH a b eq_refl) as (-> & A & B). injection H as <- <-. simpl. rewrite E. auto.
  - injection H as <- <-. simpl. rewrite E. auto.
Qed.
Lemma span_word_exact w rest : any_char (fun c => negb (word_char c)) w = false -> head_is word_char rest = false ->
  span_word (w +++ rest) = (w, rest).
Proof.
  intros A B. induction w as [|c w IH]; simpl in A |- *.
  - destruct rest as [|c r]; [reflexivity|]. simpl in B |- *. now rewrite B.
  - apply orb_false_iff in A as [A1 A2]. apply negb_false_iff in A1. rewrite A1, (IH A2). reflexivity.
Qed.

Lemma delim_class c : delim c = true -> word_char c = false /\ quote_char c = false /\ (Ascii.eqb "-" c = false) /\ (Ascii.eqb "*" c = false)
   /\ Ascii.eqb c DQ = false /\ Ascii.eqb c QT = false /\ Ascii.eqb c "-" = false /\ Ascii.eqb c "/" = false /\ Ascii.eqb c "$" = false /\ is_digit c = false
   /\ (space_char c = true \/ (space_char c = false /\ symbol_char c = true)).
Proof.
  unfold delim. intros H. apply in_class_spec in H.
  repeat (destruct H as [<-|H]; [vm_compute; repeat split; auto|]). destruct H.
Qed.
Lemma lead_word b : lead b = true -> head_is word_char b = false.
Proof. destruct b as [|c b]; simpl; [reflexivity|]. intros H. now apply delim_class in H. Qed.
Lemma lead_quote b : lead b = true -> head_is quote_char b = false.
Proof. destruct b as [|c b]; simpl; [reflexivity|]. intros H. now apply delim_class in H. Qed.
Lemma scan_lit_app d s v rest b : scan_lit d s = Some (v, rest) -> follows rest b -> scan_lit d (s +++ b) = Some (v, rest +++ b).
Proof. destruct d; simpl; (apply scan_escaped_app || apply scan_quoted_app; reflexivity). Qed.
Lemma scan_lit_suffix d s v rest : scan_lit d s = Some (v, rest) -> exists p, s = p +++ String QT rest.
Proof. destruct d; simpl; (apply scan_escaped_suffix || apply scan_quoted_suffix). Qed.
Lemma scan_prefixed_app d c s x b : scan_prefixed d c s = Some x ->
  match x with
  | Some (v, rest) => follows rest b -> scan_prefixed d c (s +++ b) = Some (Some (v, rest +++ b))
  | None => True end.
Proof.
  destruct d; simpl; try discriminate; destruct (Ascii.eqb (upper c) _); try discriminate; intros [= <-].
  - destruct (scan_escaped esc_pg true s) as [[v rest]|] eqn:E; auto. intros F. now rewrite (scan_escaped_app _ _ _ _ _ _ E F).
  - destruct (scan_quoted QT s) as [[v rest]|] eqn:E; auto. intros F. now rewrite (scan_quoted_app QT _ _ _ _ eq_refl E F).
Qed.
Lemma scan_prefixed_suffix d c s v rest : scan_prefixed d c s = Some (Some (v, rest)) -> exists p, s = p +++ String QT rest.
Proof.
  destruct d; simpl; try discriminate; destruct (Ascii.eqb (upper c) _); try discriminate; intros [= E];
    (exact (scan_escaped_suffix _ _ _ _ _ E) || exact (scan_quoted_suffix _ _ _ _ E)).
Qed.
Lemma scan_prefixed_none d c s b : scan_prefixed d c s = None -> scan_prefixed d c (s +++ b) = None.
Proof. destruct d; simpl; auto; destruct (Ascii.eqb (upper c) _); auto; discriminate. Qed.

(** what remains after a token is a proper suffix *)
Lemma next_suffix d s t rest : next d s = Some (t, rest) -> exists c p, s = String c (p +++ rest) /\
  (rest = "" -> ends s = true -> p = "").
Proof.
  assert (EQ : forall p q, delim q = false -> ends (p +++ String q "") = true -> False).
  { induction p as [|x p IH]; simpl; intros q D H; [congruence|].
    destruct (p +++ String q "") eqn:E; [destruct p; discriminate|]. rewrite <- E in H. exact (IH q D H). }
  assert (EW : forall w, any_char (fun c => negb (word_char c)) w = false -> ends w = true -> False).
  { induction w as [|x w IH]; simpl; intros A H; [discriminate|]. apply orb_false_iff in A as [A1 A2]. apply negb_false_iff in A1.
    destruct w as [|y w]; [apply delim_class in H as (Hw & _); congruence| exact (IH A2 H)]. }
  destruct s as [|c r]; [discriminate|]. cbn [next].
  destruct (space_char c); [intros [= <- <-]; exists c, ""; auto|].
  destruct (Ascii.eqb_spec c DQ) as [->|].
  { destruct (scan_quoted DQ r) as [[v r']|] eqn:E; [|discriminate]. intros [= <- <-].
    apply scan_quoted_suffix in E as [p ->]. exists DQ, (p +++ str1 DQ).
    split; [now rewrite append_assoc|]. intros -> H. exfalso. apply (EQ (String DQ p) DQ eq_refl). exact H. }
  destruct (Ascii.eqb_spec c QT) as [->|].
  { destruct (scan_lit d r) as [[v r']|] eqn:E; [|discriminate]. intros [= <- <-].
    apply scan_lit_suffix in E as [p ->]. exists QT, (p +++ str1 QT).
    split; [now rewrite append_assoc|]. intros -> H. exfalso. apply (EQ (String QT p) QT eq_refl). exact H. }
  destruct (word_char c) eqn:Wc.
  { destruct (match r with String q r' => if Ascii.eqb q QT then scan_prefixed d c r' else None | "" => None end) as [x|] eqn:P.
    - destruct x as [[v r']|]; [|discriminate]. intros [= <- <-].
      destruct r as [|q r0]; [discriminate|]. destruct (Ascii.eqb_spec q QT) as [->|]; [|discriminate].
      apply scan_prefixed_suffix in P as [p ->]. exists c, (String QT (p +++ str1 QT)).
      split; [simpl; now rewrite append_assoc|]. intros -> H. exfalso. apply (EQ (String c (String QT p)) QT eq_refl). exact H.
    - destruct (span_word (String c r)) as [w rest'] eqn:E. destruct (head_is quote_char rest'); [discriminate|]. intros [= <- <-].
      pose proof (span_word_spec _ _ _ E) as (S & A & B). destruct w as [|c' w]; simpl in S.
      + subst rest'. simpl in B. congruence.
      + injection S as <- S. subst r. exists c, w. split; [reflexivity|]. intros -> H. exfalso. apply (EW _ A).
        rewrite append_nil_r in H. exact H. }
  destruct (symbol_char c); [|discriminate]. destruct (opens_comment c r); [discriminate|]. intros [= <- <-]. exists c, ""; auto.
Qed.
Lemma ends_suffix p rest : ends (p +++ rest) = true -> rest <> "" -> ends rest = true.
Proof.
  induction p as [|x p IH]; simpl; auto. intros H N. destruct (p +++ rest) eqn:E; [destruct p; simpl in E; congruence|].
  apply IH; auto.
Qed.
Lemma head_is_app p rest b : follows rest b -> (lead b = true -> head_is p b = false) -> head_is p (rest +++ b) = head_is p rest.
Proof.
  intros F H. destruct rest as [|x r]; [|reflexivity]. destruct F as [F|F]; [congruence|]. simpl. now apply H.
Qed.

Lemma next_app d s t rest b : next d s = Some (t, rest) -> lead b = true \/ ends s = true ->
  next d (s +++ b) = Some (t, rest +++ b).
Proof.
  intros H J. destruct (next_suffix _ _ _ _ H) as (c0 & p0 & S & P).
  destruct s as [|c r]; [discriminate|]. injection S as <- S.
  assert (F : follows rest b \/ (rest = "" /\ r = "" /\ delim c = true)).
  { destruct rest as [|x rest]; [|left; left; discriminate].
    destruct J as [J|J]; [left; now right|]. right. specialize (P eq_refl J). subst p0. simpl in S. subst r. auto. }
  cbn [append]. cbn [next] in H |- *.
  destruct (space_char c) eqn:Sp; [injection H as <- <-; reflexivity|].
  destruct F as [F|(-> & -> & Dc)].
  2:{ apply delim_class in Dc as (A1 & _ & _ & _ & A2 & A3 & A4 & A5 & A7 & _ & [A6|[_ A6]]); [congruence|].
      rewrite A1, A2, A3, A6 in *. destruct (opens_comment c ""); [discriminate|]. injection H as <-.
      unfold opens_comment. rewrite A4, A5, A7. reflexivity. }
  destruct (Ascii.eqb c DQ).
  { destruct (scan_quoted DQ r) as [[v r']|] eqn:E; [|discriminate]. injection H as <- <-.
    now rewrite (scan_quoted_app DQ _ _ _ _ eq_refl E F). }
  destruct (Ascii.eqb c QT).
  { destruct (scan_lit d r) as [[v r']|] eqn:E; [|discriminate]. injection H as <- <-.
    now rewrite (scan_lit_app _ _ _ _ _ E F). }
  destruct (word_char c) eqn:Wc.
  { destruct (match r with String q r' => if Ascii.eqb q QT then scan_prefixed d c r' else None | "" => None end) as [x|] eqn:Px.
    - destruct x as [[v r']|]; [|discriminate]. injection H as <- <-.
      destruct r as [|q r0]; [discriminate|]. cbn [append]. destruct (Ascii.eqb q QT); [|discriminate].
      pose proof (scan_prefixed_app _ _ _ _ b Px) as A. cbn iota in A. rewrite (A F). reflexivity.
    - assert (Px' : match r +++ b with String q r' => if Ascii.eqb q QT then scan_prefixed d c r' else None | "" => None end = None).
      { destruct r as [|q r0].
        - destruct b as [|y b]; [reflexivity|]. simpl. destruct (Ascii.eqb_spec y QT) as [->|]; [|reflexivity].
          (* word of one character followed by an apostrophe: excluded *)
          exfalso. destruct J as [J|J]; [discriminate J|]. simpl in J. apply delim_class in J as (J & _). congruence.
        - cbn [append]. destruct (Ascii.eqb q QT); [|reflexivity]. now apply scan_prefixed_none. }
      rewrite Px'. change (String c (r +++ b)) with (String c r +++ b).
      destruct (span_word (String c r)) as [w rest'] eqn:E.
      pose proof (span_word_spec _ _ _ E) as (Sw & A & B). rewrite Sw. rewrite append_assoc.
      destruct (head_is quote_char rest') eqn:Q; [discriminate|]. injection H as <- <-.
      rewrite (span_word_exact w (rest' +++ b) A) by (rewrite (head_is_app _ _ _ F); auto using lead_word).
      rewrite (head_is_app quote_char _ _ F); [|apply lead_quote]. now rewrite Q. }
  destruct (symbol_char c); [|discriminate]. destruct (opens_comment c r) eqn:O; [discriminate|]. injection H as <- <-.
  assert (O' : opens_comment c (r +++ b) = false); [|now rewrite O'].
  unfold opens_comment in *. apply orb_false_iff in O as [O O3]. apply orb_false_iff in O as [O1 O2]. apply orb_false_iff. rewrite orb_false_iff.
  rewrite !(head_is_app _ _ _ F); auto; destruct b as [|y b]; simpl; auto; intros D; apply delim_class in D; intuition.
Qed.

(** ** Fuel *)
Lemma next_shorter d s t rest : next d s = Some (t, rest) -> String.length rest < String.length s.
Proof. intros H. apply next_suffix in H as (c & p & -> & _). simpl. rewrite append_length. lia. Qed.
Lemma lex_go_more d k s ts : lex_go d k s = Some ts -> forall k', String.length s <= k' -> lex_go d k' s = Some ts.
Proof.
  revert s ts. induction k as [|k IH]; intros s ts H k' Hk.
  - destruct s; [|discriminate]. destruct k'; exact H.
  - destruct s as [|c r]; [destruct k'; exact H|]. cbn [lex_go] in H.
    destruct (next d (String c r)) as [[t rest]|] eqn:E; [|discriminate].
    destruct k' as [|k']; [simpl in Hk; lia|]. cbn [lex_go]. rewrite E.
    pose proof (next_shorter _ _ _ _ E) as Sh.
    destruct (lex_go d k rest) as [tl|] eqn:G; [|discriminate]. rewrite (IH _ _ G k'); [exact H|lia].
Qed.
Lemma lex_intro d k s ts : lex_go d k s = Some ts -> lex d s = Some ts.
Proof. intros H. exact (lex_go_more _ _ _ _ H _ (le_n _)). Qed.
Lemma lex_step d s t rest tl : next d s = Some (t, rest) -> lex d rest = Some tl -> lex d s = Some (t ++ tl).
Proof.
  intros H1 H2. apply (lex_intro d (S (String.length rest))). destruct s as [|c r]; [discriminate|]. cbn [lex_go].
  rewrite H1. unfold lex in H2. now rewrite H2.
Qed.

(** ** Concatenation *)
Lemma lex_app d a b ta tb : lex d a = Some ta -> lex d b = Some tb -> lead b = true \/ ends a = true \/ a = "" ->
  lex d (a +++ b) = Some (ta ++ tb).
Proof.
  intros Ha Hb. revert ta Ha. induction a as [a IH] using (induction_ltof1 _ String.length). unfold ltof in IH.
  intros ta Ha J. destruct a as [|c r]; [injection Ha as <-; exact Hb|].
  unfold lex in Ha. cbn [String.length lex_go] in Ha. destruct (next d (String c r)) as [[t rest]|] eqn:E; [|discriminate].
  destruct (lex_go d (String.length r) rest) as [tl|] eqn:G; [|discriminate]. injection Ha as <-.
  rewrite <- app_assoc. eapply lex_step.
  - apply next_app; [exact E|]. destruct J as [J|[J|J]]; [auto|auto|discriminate].
  - apply IH; [exact (next_shorter _ _ _ _ E)| exact (lex_intro _ _ _ _ G)|].
    destruct J as [J|[J|J]]; [auto| |discriminate].
    destruct rest as [|x rest]; [auto|]. right; left. destruct (next_suffix _ _ _ _ E) as (c' & p & S & _). injection S as -> S.
    subst r. apply (ends_suffix (String c' p)); [exact J|discriminate].
Qed.
