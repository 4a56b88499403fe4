(** Tokens of the pieces of a statement: names, literals, numbers, lists, data types. *)
From Verif Require Import PyStr QuoteModel QuoteSpec QuoteProofs Types Objects SqlAst Ddl Mutate Render SqlText TextSpec LexProofs.
From Coq Require Import String List Bool Arith Ascii ZArith Lia.
Import ListNotations.
Open Scope string_scope.
Open Scope list_scope.

Definition name_toks (q : qid) : list token :=
  match scope_id q with Some ns => [I ns; C "."; I (local_id q)] | None => [I (local_id q)] end.
Fixpoint join_toks (l : list (list token)) : list token :=
  match l with [] => [] | [x] => x | x :: r => x ++ C "," :: join_toks r end.
Definition ident_toks (cs : list string) : list token := join_toks (map (fun n => [I n]) cs).
Definition z_toks (z : Z) : list token :=
  match z with
  | Z0 => [W "0"] | Zpos p => [W (n_to_str (Npos p))] | Zneg p => [C "-"; W (n_to_str (Npos p))] end.

Lemma bind_inv {A B} (x : res A) (f : A -> res B) y : bind x f = Ok y -> exists a, x = Ok a /\ f a = Ok y.
Proof. destruct x; simpl; [eauto|discriminate]. Qed.
Ltac side := first [left; reflexivity | right; left; reflexivity | right; right; reflexivity].

Lemma lead_app x y : lead x = true -> lead y = true -> lead (x +++ y) = true.
Proof. destruct x; simpl; auto. Qed.

Lemma lex_ident d n : lex d (local_quoted n) = Some [I n].
Proof.
  change [I n] with ([I n] ++ []). apply (lex_step d _ [I n] ""); [|reflexivity].
  pose proof (local_quoted_scan n "" (not_begins_nil _)) as H. rewrite append_nil_r in H.
  unfold sql_ident, scan_token in H. unfold local_quoted, in_dq in *. cbn [str1 append] in *. cbn [next].
  change (space_char DQ) with false. cbn iota. rewrite Ascii.eqb_refl in H |- *. now rewrite H.
Qed.
Lemma lex_qid d q : name_ok q -> lex d (quoted_id q) = Some (name_toks q).
Proof.
  destruct q as [[ns|] id|[ns|] id|g]; intros H; try (destruct H); unfold name_toks; cbn [scope_id local_id quoted_id].
  - change (str1 DQ +++ quote_id ns +++ str1 DQ +++ "." +++ str1 DQ +++ quote_id id +++ str1 DQ)
      with (str1 DQ +++ quote_id ns +++ str1 DQ +++ "." +++ local_quoted id).
    replace (str1 DQ +++ quote_id ns +++ str1 DQ +++ "." +++ local_quoted id) with (local_quoted ns +++ "." +++ local_quoted id)
      by (unfold local_quoted, in_dq; now rewrite !append_assoc).
    apply (lex_app d _ _ [I ns] [C "."; I id]); [apply lex_ident| |side].
    apply (lex_app d "." _ [C "."] [I id]); [reflexivity|apply lex_ident|side].
  - exact (lex_ident d id).
  - replace (str1 DQ +++ quote_id ns +++ "__" +++ quote_id id +++ str1 DQ) with (local_quoted (ns +++ "__" +++ id)).
    + apply lex_ident.
    + unfold local_quoted, in_dq, quote_id, replace1. rewrite !translate_app.
      change (translate (fun x : ascii => if (x =? DQ)%char then String DQ (str1 DQ) else str1 x) "__") with "__".
      now rewrite !append_assoc.
  - exact (lex_ident d id).
Qed.
Lemma lex_lit_gen d s v : scan_lit d (s +++ str1 QT) = Some (v, "") -> lex d (String QT (s +++ str1 QT)) = Some [L v].
Proof.
  intros H. change [L v] with ([L v] ++ []). apply (lex_step d _ [L v] ""); [|reflexivity]. cbn [next].
  change (space_char QT) with false. change (Ascii.eqb QT DQ) with false. cbn iota. rewrite Ascii.eqb_refl. now rewrite H.
Qed.
Lemma lex_quote d s : text_ok d s -> lex d (quote s) = Some [L s].
Proof.
  intros H. unfold quote. apply lex_lit_gen. pose proof (not_begins_nil QT) as N.
  destruct d; simpl in H |- *; try exact (scan_quoted_replace QT s "" N); try (now apply scan_escaped_doubled).
  destruct H as [H1 H2]. rewrite (replace1_id QT "''" s H2). now apply scan_escaped_plain.
Qed.
Lemma lex_pg s : lex DPg (pg_quoted_string s) = Some [L s].
Proof.
  unfold pg_quoted_string. destruct (any_char _ s); [|exact (lex_quote DPg s Logic.I)].
  change [L s] with ([L s] ++ []). apply (lex_step DPg _ [L s] ""); [|reflexivity]. cbn [append next].
  change (space_char "E") with false. change (Ascii.eqb "E" DQ) with false. change (Ascii.eqb "E" QT) with false.
  change (word_char "E") with true. change (Ascii.eqb "'" QT) with true. cbn iota.
  unfold scan_prefixed. change (Ascii.eqb (upper "E") "E") with true. cbn iota.
  pose proof (scan_escaped_translate esc_pg pg_table true s "" pg_reads (not_begins_nil _)) as H.
  change (String QT "") with "'" in H. rewrite H. reflexivity.
Qed.
Lemma lex_delta s : lex DDelta (delta_quoted_string s) = Some [L s].
Proof.
  unfold delta_quoted_string. pose proof (delta_quoted_scan s "" (not_begins_nil _)) as H. rewrite append_nil_r in H.
  unfold delta_literal, esc_literal, delta_quoted_string in H. cbn [append] in H. apply lex_lit_gen. exact H.
Qed.
Lemma lex_snow s : lex DSnow (snow_quoted_string s) = Some [L s].
Proof.
  unfold snow_quoted_string. pose proof (snow_quoted_scan s "" (not_begins_nil _)) as H. rewrite append_nil_r in H.
  unfold snow_literal, esc_literal, snow_quoted_string in H. cbn [append] in H. apply lex_lit_gen. exact H.
Qed.

(** words *)
Lemma lex_word d w : w <> "" -> any_char (fun c => negb (word_char c)) w = false -> lex d w = Some [W (upcase w)].
Proof.
  intros N A. change [W (upcase w)] with ([W (upcase w)] ++ []). apply (lex_step d _ [W (upcase w)] ""); [|reflexivity].
  destruct w as [|c r]; [congruence|]. cbn [next]. pose proof A as A0. simpl in A. apply orb_false_iff in A as [A1 A2]. apply negb_false_iff in A1.
  assert (X : space_char c = false /\ Ascii.eqb c DQ = false /\ Ascii.eqb c QT = false).
  { destruct c as [[] [] [] [] [] [] [] []]; vm_compute in A1; try discriminate A1; vm_compute; auto. }
  destruct X as (-> & -> & ->). rewrite A1.
  assert (P : match r with String q r' => if Ascii.eqb q QT then scan_prefixed d c r' else None | "" => None end = None).
  { destruct r as [|q r']; [reflexivity|]. destruct (Ascii.eqb_spec q QT) as [->|]; [|reflexivity].
    simpl in A2. discriminate. }
  rewrite P. pose proof (span_word_exact (String c r) "" A0 eq_refl) as S. rewrite append_nil_r in S. rewrite S. reflexivity.
Qed.
Lemma digit_word c : is_digit c = true -> word_char c = true /\ upper c = c.
Proof.
  intros H. split; [unfold word_char; rewrite H, !orb_true_r; reflexivity|].
  destruct c as [[] [] [] [] [] [] [] []]; vm_compute in H; try discriminate H; reflexivity.
Qed.
Lemma digits_upcase s : any_char (fun c => negb (is_digit c)) s = false -> upcase s = s /\ any_char (fun c => negb (word_char c)) s = false.
Proof.
  induction s as [|c s IH]; simpl; [auto|]. intros H. apply orb_false_iff in H as [H1 H2]. apply negb_false_iff in H1.
  apply digit_word in H1 as [-> ->]. destruct (IH H2) as [-> ->]. auto.
Qed.
Lemma lex_n d n : lex d (n_to_str n) = Some [W (n_to_str n)].
Proof.
  destruct (digits_upcase _ (n_to_str_digits n)) as [U A]. rewrite <- U at 2. apply lex_word; [|exact A].
  destruct (n_to_str_nonempty n) as (c & r & -> & _). discriminate.
Qed.
Lemma lex_z d z : lex d (z_to_str z) = Some (z_toks z).
Proof.
  destruct z as [|p|p]; cbn [z_to_str z_toks]; [reflexivity|apply lex_n|].
  destruct (n_to_str_nonempty (Npos p)) as (c & r & E & D).
  apply (lex_step d _ [C "-"] (n_to_str (Npos p))); [|apply lex_n].
  change ("-" +++ n_to_str (N.pos p)) with (String "-" (n_to_str (Npos p))). cbn [next].
  change (space_char "-") with false. change (Ascii.eqb "-" DQ) with false. change (Ascii.eqb "-" QT) with false.
  change (word_char "-") with false. change (symbol_char "-") with true. cbn iota.
  rewrite E. assert (O : opens_comment "-" (String c r) = false).
  { destruct c as [[] [] [] [] [] [] [] []]; vm_compute in D; try discriminate D; reflexivity. }
  now rewrite O.
Qed.

(** lists: the items are separated by a comma and white space *)
Definition comma_sep (sep : string) : Prop := sep = ", " \/ sep = comma_nl.
Lemma lex_join d sep l ts : comma_sep sep -> Forall2 (fun s t => lex d s = Some t) l ts -> lex d (join_str sep l) = Some (join_toks ts).
Proof.
  intros S H. induction H as [|x t l ts Hx H IH]; [reflexivity|].
  destruct H as [|y u l ts Hy H]; [exact Hx|].
  rewrite join_str_cons. change (join_toks (t :: u :: ts)) with (t ++ [C ","] ++ join_toks (u :: ts)).
  apply lex_app; [exact Hx| |left; destruct S as [-> | ->]; reflexivity].
  apply lex_app; [|exact IH|]; destruct S as [-> | ->]; (reflexivity || side).
Qed.
Lemma lex_cols d cs : lex d (cols_str cs) = Some (ident_toks cs).
Proof.
  apply lex_join; [now left|]. induction cs; constructor; auto. apply lex_ident.
Qed.
Lemma lex_lits d vs : Forall (text_ok d) vs -> lex d (join_str ", " (map quote vs)) = Some (join_toks (map (fun v => [L v]) vs)).
Proof.
  intros H. apply lex_join; [now left|]. induction H; constructor; auto. now apply lex_quote.
Qed.

(** ** Balance *)
Lemma bal_app stop k a b : bal stop k a = true -> bal stop 0 b = true -> bal stop k (a ++ b) = true.
Proof.
  revert k. induction a as [|t a IH]; simpl; intros k A B.
  - apply Nat.eqb_eq in A. now subst k.
  - destruct (is_sym ";" t); [discriminate|]. destruct (is_sym "(" t); [auto|]. destruct (is_sym ")" t); [destruct k; auto|].
    destruct (stop t && Nat.eqb k 0); [discriminate|]. auto.
Qed.
Lemma bal_paren stop a r : bal stop 0 a = true -> bal stop 0 r = true -> bal stop 0 (C "(" :: a ++ C ")" :: r) = true.
Proof.
  intros A B. simpl. assert (H : forall k, bal stop k a = true -> bal stop (S k) (a ++ C ")" :: r) = true); [|auto].
  clear A. induction a as [|t a IH]; simpl; intros k A.
  - apply Nat.eqb_eq in A. now subst k.
  - destruct (is_sym ";" t); [discriminate|]. destruct (is_sym "(" t); [auto|]. destruct (is_sym ")" t); [destruct k; [discriminate|auto]|].
    rewrite andb_false_r. destruct (stop t && Nat.eqb k 0); [discriminate|]. auto.
Qed.
(** inside parentheses nothing stops *)
Lemma bal_inner (stop stop' : token -> bool) a r : bal stop' 0 a = true -> bal stop 0 r = true -> bal stop 0 (C "(" :: a ++ C ")" :: r) = true.
Proof.
  intros A B. simpl. assert (H : forall k, bal stop' k a = true -> bal stop (S k) (a ++ C ")" :: r) = true); [|auto].
  clear A. induction a as [|t a IH]; simpl; intros k A.
  - apply Nat.eqb_eq in A. now subst k.
  - destruct (is_sym ";" t); [discriminate|]. destruct (is_sym "(" t); [auto|]. destruct (is_sym ")" t); [destruct k; [discriminate|auto]|].
    rewrite andb_false_r. destruct (stop' t && Nat.eqb k 0); [discriminate|]. auto.
Qed.
Lemma bal_weaken (s1 s2 : token -> bool) k ts : (forall t, s1 t = true -> s2 t = true) -> bal s2 k ts = true -> bal s1 k ts = true.
Proof.
  intros H. revert k. induction ts as [|t ts IH]; simpl; intros k B; auto.
  destruct (is_sym ";" t); [discriminate|]. destruct (is_sym "(" t); [auto|]. destruct (is_sym ")" t); [destruct k; [discriminate|auto]|].
  destruct (s2 t) eqn:E2; destruct (s1 t) eqn:E1; simpl in *; auto.
  - destruct (Nat.eqb k 0); [discriminate|auto].
  - destruct (Nat.eqb k 0); [discriminate|auto].
  - specialize (H t E1). congruence.
Qed.
Definition no_stop (t : token) : bool := false.
Lemma bal_item ts : bal clause_stop 0 ts = true -> bal item_stop 0 ts = true.
Proof. apply bal_weaken. intros t H. unfold clause_stop. unfold item_stop in H. now rewrite H. Qed.
Lemma bal_none s ts : bal s 0 ts = true -> bal no_stop 0 ts = true.
Proof. apply bal_weaken. discriminate. Qed.
Lemma bal_join l : Forall (fun x => bal no_stop 0 x = true) l -> bal no_stop 0 (join_toks l) = true.
Proof.
  induction 1 as [|x l Hx H IH]; [reflexivity|]. destruct l as [|y l]; [exact Hx|].
  change (join_toks (x :: y :: l)) with (x ++ C "," :: join_toks (y :: l)). apply bal_app; [exact Hx|]. exact IH.
Qed.
Lemma bal_idents cs : bal no_stop 0 (ident_toks cs) = true.
Proof. apply bal_join. apply Forall_map. apply Forall_forall. reflexivity. Qed.
Lemma bal_lits vs : bal no_stop 0 (join_toks (map (fun v => [L v]) vs)) = true.
Proof. apply bal_join. apply Forall_map. apply Forall_forall. reflexivity. Qed.
Lemma bal_name stop q : stop (C ".") = false -> (forall n, stop (I n) = false) -> bal stop 0 (name_toks q) = true.
Proof. intros A B. unfold name_toks. destruct (scope_id q); simpl; rewrite ?A, ?B; reflexivity. Qed.
Lemma bal_z z : bal no_stop 0 (z_toks z) = true.
Proof. destruct z; reflexivity. Qed.

(** ** Data types *)
Definition ty_toks (ts : list token) : Prop := ts <> [] /\ bal clause_stop 0 ts = true.
Lemma lex_sized d pre z w : lex d pre = Some [W w; C "("] -> ends pre = true ->
  lex d (pre +++ z_to_str z +++ ")") = Some (W w :: C "(" :: z_toks z ++ [C ")"]).
Proof.
  intros H E. apply (lex_app d pre _ [W w; C "("] (z_toks z ++ [C ")"])); [exact H| |auto].
  apply lex_app; [apply lex_z|reflexivity|side].
Qed.
Lemma ty_sized w z r : is_word clause_words (W w) = false -> bal clause_stop 0 r = true -> ty_toks (W w :: C "(" :: z_toks z ++ C ")" :: r).
Proof.
  intros H B. split; [discriminate|]. change (W w :: C "(" :: z_toks z ++ C ")" :: r) with ([W w] ++ C "(" :: z_toks z ++ C ")" :: r).
  apply bal_app; [|apply (bal_inner _ no_stop); [apply bal_z|exact B]].
  cbn [bal]. unfold clause_stop. rewrite H. reflexivity.
Qed.
Definition paren_toks (z : option Z) : list token := match z with Some n => C "(" :: z_toks n ++ [C ")"] | None => [] end.
Lemma lex_paren d z : lex d (paren z) = Some (paren_toks z).
Proof.
  destruct z as [z|]; [|reflexivity]. cbn [paren paren_toks].
  apply (lex_app d "(" _ [C "("] (z_toks z ++ [C ")"])); [reflexivity| |side].
  apply lex_app; [apply lex_z|reflexivity|side].
Qed.
Lemma lex_named d w u z post tp : lex d w = Some [W u] -> lex d post = Some tp -> lead post = true ->
  lex d (w +++ paren z +++ post) = Some (W u :: paren_toks z ++ tp).
Proof.
  intros H P Ld. apply (lex_app d w _ [W u] (paren_toks z ++ tp)); [exact H| |left; apply lead_app; [destruct z; reflexivity|exact Ld]].
  apply lex_app; [apply lex_paren|exact P|auto].
Qed.
Lemma ty_named u z tp : is_word clause_words (W u) = false -> bal clause_stop 0 tp = true -> ty_toks (W u :: paren_toks z ++ tp).
Proof.
  intros H B. split; [discriminate|]. change (W u :: paren_toks z ++ tp) with ([W u] ++ paren_toks z ++ tp).
  apply bal_app; [cbn [bal]; unfold clause_stop; rewrite H; reflexivity|].
  apply bal_app; [|exact B]. destruct z as [z|]; [|reflexivity]. cbn [paren_toks]. apply (bal_inner _ no_stop); [apply bal_z|reflexivity].
Qed.
Lemma named d w u z post tp : lex d w = Some [W u] -> lex d post = Some tp -> lead post = true ->
  is_word clause_words (W u) = false -> bal clause_stop 0 tp = true ->
  exists ts, lex d (w +++ paren z +++ post) = Some ts /\ ty_toks ts.
Proof. intros. eexists; split; [apply lex_named; eauto| now apply ty_named]. Qed.
Lemma named0 d w u z : lex d w = Some [W u] -> is_word clause_words (W u) = false ->
  exists ts, lex d (w +++ paren z) = Some ts /\ ty_toks ts.
Proof.
  intros. destruct (named d w u z "" [] H eq_refl eq_refl H0 eq_refl) as (ts & A & B). exists ts. split; [|exact B].
  now rewrite append_nil_r in A.
Qed.
Lemma named_tz d w u z b : lex d w = Some [W u] -> is_word clause_words (W u) = false ->
  exists ts, lex d (w +++ paren z +++ tz_str b) = Some ts /\ ty_toks ts.
Proof. intros. destruct b; eapply named; eauto; reflexivity. Qed.

Ltac ty_closed := eexists; split; [vm_compute; reflexivity| split; [discriminate|reflexivity]].
Lemma sub_lex d c t s : sub_str c t = Ok s -> exists ts, lex d s = Some ts /\ ty_toks ts.
Proof.
  assert (V : forall z, exists ts, lex d ("varchar" +++ paren (Some z)) = Some ts /\ ty_toks ts) by (intros; eapply named0; reflexivity).
  assert (V2 : forall z, exists ts, lex d ("varchar2" +++ paren (Some z)) = Some ts /\ ty_toks ts) by (intros; eapply named0; reflexivity).
  assert (VB : forall z, exists ts, lex d ("varbinary" +++ paren (Some z)) = Some ts /\ ty_toks ts) by (intros; eapply named0; reflexivity).
  assert (R : forall z, exists ts, lex d ("raw" +++ paren (Some z)) = Some ts /\ ty_toks ts) by (intros; eapply named0; reflexivity).
  destruct c; destruct t; cbn [sub_str]; intros E; try discriminate E; try (injection E as <-; ty_closed).
  - destruct limit as [z|]; [|injection E as <-; ty_closed].
    destruct (Z.ltb 0 z && negb (Z.eqb z 2147483647))%bool; injection E as <-; [exact (V z)|ty_closed].
  - injection E as <-. apply (named0 d "datetime" "DATETIME" precision); reflexivity.
  - destruct limit as [z|]; [|injection E as <-; ty_closed].
    destruct (Z.ltb z 65536); [injection E as <-; exact (V z)|].
    destruct (Z.ltb z 16777216); [injection E as <-; ty_closed|].
    destruct (Z.ltb z 4294967296); [injection E as <-; ty_closed|discriminate].
  - destruct storage as [z|]; [|injection E as <-; ty_closed].
    destruct (Z.ltb z 65536); [injection E as <-; exact (VB z)|].
    destruct (Z.ltb z 16777216); [injection E as <-; ty_closed|].
    destruct (Z.ltb z 4294967296); [injection E as <-; ty_closed|discriminate].
  - injection E as <-. destruct precision as [z|]; [destruct (Z.eqb z 6)|].
    + apply (named_tz d "timestamp" "TIMESTAMP" None); reflexivity.
    + apply (named_tz d "timestamp" "TIMESTAMP" (Some z)); reflexivity.
    + apply (named_tz d "timestamp" "TIMESTAMP" None); reflexivity.
  - destruct limit as [z|]; [|injection E as <-; ty_closed].
    destruct (Z.leb z 4000); injection E as <-; [exact (V2 z)|ty_closed].
  - destruct storage as [z|]; [|injection E as <-; ty_closed].
    destruct (Z.leb z 2000); injection E as <-; [exact (R z)|ty_closed].
  - injection E as <-. apply (named0 d "varbyte" "VARBYTE" storage); reflexivity.
Qed.

Lemma type_lex d t s : type_ok d t -> type_str t = Ok s -> exists ts, lex d s = Some ts /\ ty_toks ts.
Proof.
  revert s. induction t as [e IH|fs IH|c t IH|t Ha Hs Hb] using sqltype_rec'; intros s Hok E.
  - cbn [type_str] in E. apply bind_inv in E as (x & E1 & E2). injection E2 as <-.
    destruct (IH _ Hok E1) as (ts & A & B & D). exists (ts ++ [W "ARRAY"]). split.
    + apply lex_app; [exact A|reflexivity|side].
    + split; [destruct ts; discriminate|]. apply bal_app; [exact D|reflexivity].
  - destruct Hok.
  - cbn [type_str] in E. exact (sub_lex d c t s E).
  - destruct t; try (exfalso; (eapply Ha + eapply Hs + eapply Hb); reflexivity); cbn [type_str] in E.
    + injection E as <-; ty_closed.
    + injection E as <-; ty_closed.
    + repeat match type of E with context [if ?b then _ else _] => destruct b end; try discriminate E; injection E as <-; ty_closed.
    + injection E as <-. apply (named0 d "float" "FLOAT" (Some (match precision with Some n => n | None => 53%Z end))); reflexivity.
    + injection E as <-; ty_closed.
    + injection E as <-; ty_closed.
    + destruct precision as [p|]; [|injection E as <-; ty_closed]. destruct scale as [sc|].
      * injection E as <-. exists (W "DECIMAL" :: C "(" :: (z_toks p ++ C "," :: z_toks sc) ++ [C ")"]). split.
        -- apply (lex_app d "decimal(" _ [W "DECIMAL"; C "("] _); [reflexivity| |side].
           rewrite <- app_assoc. apply lex_app; [apply lex_z| |side].
           apply (lex_app d ", " _ [C ","] _); [reflexivity| |side]. apply lex_app; [apply lex_z|reflexivity|side].
        -- split; [discriminate|].
           change (W "DECIMAL" :: C "(" :: (z_toks p ++ C "," :: z_toks sc) ++ [C ")"]) with ([W "DECIMAL"] ++ C "(" :: (z_toks p ++ C "," :: z_toks sc) ++ [C ")"]).
           apply bal_app; [reflexivity|]. apply (bal_inner _ no_stop); [|reflexivity]. apply bal_app; [apply bal_z|]. simpl. apply bal_z.
      * injection E as <-. apply (named0 d "decimal" "DECIMAL" (Some p)); reflexivity.
    + injection E as <-. apply (named0 d "binary" "BINARY" storage); reflexivity.
    + destruct storage as [n|]; injection E as <-; [|ty_closed]. apply (named0 d "varbinary" "VARBINARY" (Some n)); reflexivity.
    + injection E as <-. apply (named0 d "char" "CHAR" limit); reflexivity.
    + destruct limit as [n|]; injection E as <-; [|ty_closed]. apply (named0 d "varchar" "VARCHAR" (Some n)); reflexivity.
    + injection E as <-. apply (named_tz d "timestamp" "TIMESTAMP"); reflexivity.
    + injection E as <-; ty_closed.
    + injection E as <-. apply (named_tz d "time" "TIME"); reflexivity.
    + injection E as <-; ty_closed.
    + injection E as <-; ty_closed.
    + injection E as <-. unfold enum_type_str. exists (W "ENUM" :: C "(" :: join_toks (map (fun v => [L v]) values) ++ [C ")"]). split.
      * apply (lex_app d "ENUM (" _ [W "ENUM"; C "("] _); [reflexivity| |side].
        apply lex_app; [now apply lex_lits|reflexivity|side].
      * split; [discriminate|].
        change (W "ENUM" :: C "(" :: join_toks (map (fun v => [L v]) values) ++ [C ")"]) with ([W "ENUM"] ++ C "(" :: join_toks (map (fun v => [L v]) values) ++ [C ")"]).
        apply bal_app; [reflexivity|]. apply (bal_inner _ no_stop); [apply bal_lits|reflexivity].
    + injection E as <-. cbn [type_ok] in Hok. destruct ref as [n i|n i|g].
      3: { destruct Hok as (w & L & N). exists [W w]. split; [exact L|]. split; [discriminate|]. cbn [bal]. unfold is_sym at 1 2 3, clause_stop. cbn [is_sym orb andb]. rewrite N. reflexivity. }
      all: match goal with |- context [quoted_id ?q] => exists (name_toks q) end. all: (split; [now apply lex_qid|]).
      all: (split; [unfold name_toks; destruct (scope_id _); discriminate|]). all: apply bal_name; reflexivity.
Qed.
