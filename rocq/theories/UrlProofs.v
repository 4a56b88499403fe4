From Verif Require Import PyStr Tls Url.
Open Scope string_scope.

(** ** percent-encoding *)
Lemma unquote_safe c r : Ascii.eqb c "%" = false -> unquote (String c r) = String c (unquote r).
Proof. intros H. cbn [unquote]. now rewrite H. Qed.
Lemma all_ascii (P : ascii -> bool) : (forall n, n < 256 -> P (ascii_of_nat n) = true) -> forall c, P c = true.
Proof. intros H c. rewrite <- (ascii_nat_embedding c). apply H. apply nat_ascii_bounded. Qed.
Lemma below (P : nat -> bool) k : forallb P (seq 0 k) = true -> forall n, n < k -> P n = true.
Proof. intros H n Hn. rewrite forallb_forall in H. apply H. apply in_seq. lia. Qed.
Lemma percent_back c r : unquote (percent c ++ r) = String c (unquote r).
Proof.
  assert (G : (match percent c with
    | String p (String h (String l "")) => Ascii.eqb p "%" && match hex_value h, hex_value l with Some a, Some b => Ascii.eqb (ch (16 * a + b)) c | _, _ => false end
    | _ => false end) = true).
  { revert c. apply all_ascii. intros n Hn. revert n Hn. apply below. vm_compute. reflexivity. }
  destruct (percent c) as [|p [|h [|l [|x s]]]] eqn:E; try discriminate G. apply andb_true_iff in G as [G1 G2].
  change (String p (String h (String l "")) ++ r) with (String p (String h (String l r))). cbn [unquote]. rewrite G1.
  destruct (hex_value h), (hex_value l); try discriminate G2. apply Ascii.eqb_eq in G2. now rewrite G2.
Qed.
Lemma safe_not_percent c : always_safe c = true -> Ascii.eqb c "%" = false.
Proof.
  intros H. destruct (Ascii.eqb_spec c "%") as [->|]; [vm_compute in H; discriminate H|reflexivity].
Qed.
Lemma unquote_quote_app s r : unquote (url_quote s ++ r) = s ++ unquote r.
Proof.
  induction s as [|c s IH]; [reflexivity|]. unfold url_quote. cbn [translate]. rewrite append_assoc. destruct (always_safe c) eqn:E.
  - cbn [str1 append]. rewrite unquote_safe by now apply safe_not_percent. f_equal. exact IH.
  - rewrite percent_back. cbn [append]. f_equal. exact IH.
Qed.
Lemma unquote_quote s : unquote (url_quote s) = s.
Proof. rewrite <- (append_nil_r (url_quote s)), unquote_quote_app. apply append_nil_r. Qed.

(** characters of an encoded text *)
Definition url_char (c : ascii) : bool := always_safe c || Ascii.eqb c "%".
Lemma percent_chars c : any_char (fun x => negb (url_char x)) (percent c) = false.
Proof.
  assert (G : negb (any_char (fun x => negb (url_char x)) (percent c)) = true); [|now apply negb_true_iff].
  revert c. apply all_ascii. intros n Hn. revert n Hn. apply below. vm_compute. reflexivity.
Qed.
Lemma quote_chars s : any_char (fun x => negb (url_char x)) (url_quote s) = false.
Proof.
  induction s as [|c s IH]; [reflexivity|]. unfold url_quote. cbn [translate]. rewrite any_char_app. unfold url_quote in IH. rewrite IH, orb_false_r. destruct (always_safe c) eqn:E.
  - cbn. unfold url_char. now rewrite E.
  - apply percent_chars.
Qed.
Lemma quote_empty s : url_quote s = "" -> s = "".
Proof. destruct s as [|c s]; [reflexivity|]. unfold url_quote. cbn [translate]. destruct (always_safe c); discriminate. Qed.

(** ** spans *)
Definition none_of (p : ascii -> bool) (s : string) : Prop := any_char p s = false.
Lemma span_app p a c b : none_of p a -> p c = true -> span p (a ++ String c b) = (a, String c b).
Proof.
  unfold none_of. induction a as [|x a IH]; cbn; intros H Hc; [now rewrite Hc|]. apply orb_false_iff in H as [H1 H2]. rewrite H1. now rewrite (IH H2 Hc).
Qed.
Lemma span_all p a : none_of p a -> span p a = (a, "").
Proof. unfold none_of. induction a as [|x a IH]; cbn; intros H; [reflexivity|]. apply orb_false_iff in H as [H1 H2]. rewrite H1. now rewrite (IH H2). Qed.
Lemma none_any p q s : (forall c, p c = true -> q c = true) -> none_of q s -> none_of p s.
Proof.
  unfold none_of. intros H. induction s as [|x s IH]; cbn; [reflexivity|]. intros E. apply orb_false_iff in E as [E1 E2]. rewrite (IH E2), orb_false_r. destruct (p x) eqn:P; [|reflexivity]. rewrite (H x P) in E1. discriminate.
Qed.
Lemma partition_app c a b : none_of (Ascii.eqb c) a -> partition c (a ++ String c b) = (a, Some b).
Proof. intros H. unfold partition. rewrite span_app by (assumption || apply Ascii.eqb_refl). reflexivity. Qed.
Lemma partition_none c a : none_of (Ascii.eqb c) a -> partition c a = (a, None).
Proof. intros H. unfold partition. now rewrite span_all. Qed.
Lemma rpartition_none c a : none_of (Ascii.eqb c) a -> rpartition c a = (None, a).
Proof. unfold none_of. induction a as [|x a IH]; cbn; intros H; [reflexivity|]. apply orb_false_iff in H as [H1 H2]. rewrite (IH H2), H1. reflexivity. Qed.
Lemma rpartition_app c a b : none_of (Ascii.eqb c) b -> rpartition c (a ++ String c b) = (Some a, b).
Proof.
  intros H. induction a as [|x a IH]; cbn.
  - rewrite (rpartition_none c b H), Ascii.eqb_refl. reflexivity.
  - now rewrite IH.
Qed.
(** [c] is none of the characters of encoded text *)
Lemma quote_none c s : url_char c = false -> none_of (Ascii.eqb c) (url_quote s).
Proof.
  intros H. apply (none_any _ (fun x => negb (url_char x))); [|apply quote_chars]. intros x E. apply Ascii.eqb_eq in E. subst x. now rewrite H.
Qed.
Lemma none_app p a b : none_of p (a ++ b) <-> none_of p a /\ none_of p b.
Proof. unfold none_of. rewrite any_char_app. apply orb_false_iff. Qed.
Lemma none_cons p c b : none_of p (String c b) <-> p c = false /\ none_of p b.
Proof. unfold none_of. cbn. apply orb_false_iff. Qed.
Lemma none_nil p : none_of p "".
Proof. reflexivity. Qed.

(** ** whole connection strings *)
From Verif Require Import UrlSpec.
Lemma lower_id s : none_of is_upper s -> lower s = s.
Proof. unfold none_of. induction s as [|c s IH]; cbn; [reflexivity|]. intros H. apply orb_false_iff in H as [H1 H2]. unfold lower_char. rewrite H1. now rewrite (IH H2). Qed.
Lemma only_none p q s : only p s -> (forall c, p c = true -> q c = false) -> none_of q s.
Proof.
  intros H N. induction s as [|c s IH]; [reflexivity|]. apply none_cons. split; [apply N; apply (H "" c s); reflexivity|]. apply IH. intros a x b E. apply (H (String c a) x b). now rewrite E.
Qed.
Lemma only_neq p c s : only p s -> p c = false -> none_of (Ascii.eqb c) s.
Proof. intros H N. apply (only_none p); [exact H|]. intros x Hx. destruct (Ascii.eqb_spec c x) as [->|]; [congruence|reflexivity]. Qed.
Lemma only_app p a b : only p a -> only p b -> only p (a ++ b).
Proof.
  intros Ha Hb. induction a as [|c a IH]; [exact Hb|]. intros x y z E. destruct x as [|d x]; cbn in E; injection E as <- E.
  - apply (Ha "" c a). reflexivity.
  - apply (IH ltac:(intros u v w Z; apply (Ha (String c u) v w); now rewrite Z) x y z E).
Qed.
Lemma any_only p s : any_char (fun c => negb (p c)) s = false -> only p s.
Proof.
  intros H a c b E. subst s. rewrite any_char_app in H. apply orb_false_iff in H as [_ H]. cbn in H. apply orb_false_iff in H as [H _]. now apply negb_false_iff.
Qed.
Lemma only_any p s : only p s -> any_char (fun c => negb (p c)) s = false.
Proof. intros H. apply (only_none p); [exact H|]. intros c Hc. now rewrite Hc. Qed.
Lemma only_weaken p q s : (forall c, p c = true -> q c = true) -> only p s -> only q s.
Proof. intros H O a c b E. apply H. eapply O; eauto. Qed.

Section Parse.
  Context (scheme : string) (cred : string) (host : string) (port : option N) (db : option string) (ssl : option ssl_mode).
  Context (Hs : scheme_ok scheme) (Hh : host_ok host) (Hp : forall n, port = Some n -> (n <= 65535)%N) (Hd : forall d, db = Some d -> database_ok d).
  Context (Hc : none_of (in_class ["/"%char; "?"%char; "#"%char]) cred).
  Let tail : string := match db with None => "" | Some d => "/" ++ d end ++ match ssl with None => "" | Some m => "?ssl=" ++ mode_value m end.
  Let hp : string := host ++ match port with None => "" | Some n => ":" ++ n_to_str n end.
  Lemma hp_only : only (fun c => is_lower c || is_digit c || in_class ["-"%char; "."%char; ":"%char] c) hp.
  Proof.
    unfold hp. apply only_app.
    - destruct Hh as [_ H]. eapply only_weaken; [|exact H]. intros c. rewrite !orb_true_iff. intros [[?|?]|H1]; auto. right. cbn in *. rewrite !orb_true_iff in *. tauto.
    - destruct port as [n|]; [|intros [|? ?] ? ? E; discriminate E]. apply only_app; [intros [|? [|? ?]] ? ? E; try discriminate E; injection E as <- _; reflexivity|].
      eapply only_weaken; [|apply any_only, n_to_str_digits]. intros c H. now rewrite H, orb_true_r.
  Qed.
  Lemma split_netloc : span (in_class ["/"%char; "?"%char; "#"%char]) (cred ++ hp ++ tail) = (cred ++ hp, tail).
  Proof.
    assert (N : none_of (in_class ["/"%char; "?"%char; "#"%char]) (cred ++ hp)).
    { apply none_app. split; [exact Hc|]. apply (only_none _ _ _ hp_only). intros c H. destruct (in_class ["/"%char; "?"%char; "#"%char] c) eqn:E; [|reflexivity]. exfalso.
      apply in_class_spec in E. destruct E as [<-|[<-|[<-|[]]]]; vm_compute in H; discriminate H. }
    rewrite <- append_assoc. unfold tail. destruct db as [d|].
    - change (("/" ++ d) ++ match ssl with None => "" | Some m => "?ssl=" ++ mode_value m end) with (String "/" (d ++ match ssl with None => "" | Some m => "?ssl=" ++ mode_value m end)).
      now apply span_app.
    - destruct ssl as [m|].
      + change ("" ++ "?ssl=" ++ mode_value m) with (String "?" ("ssl=" ++ mode_value m)). now apply span_app.
      + cbn [append]. rewrite append_nil_r. now apply span_all.
  Qed.
  Lemma split_url : urlsplit (scheme ++ "://" ++ cred ++ hp ++ tail) = Parts scheme (cred ++ hp) (match db with None => "" | Some d => "/" ++ d end) (match ssl with None => "" | Some m => "ssl=" ++ mode_value m end).
  Proof.
    destruct Hs as (c & s & -> & Hl & Ho). unfold urlsplit. change ("://" ++ cred ++ hp ++ tail) with (String ":" ("//" ++ cred ++ hp ++ tail)).
    assert (Oc : only scheme_lower (String c s)).
    { intros a x b E. destruct a as [|y a]; cbn in E; injection E as <- E; [unfold scheme_lower; now rewrite Hl|eapply Ho; eauto]. }
    rewrite partition_app by (eapply only_neq; [exact Oc|reflexivity]). rewrite Hl, orb_true_r.
    assert (A : any_char (fun x => negb (scheme_char x)) (String c s) = false).
    { apply (only_none scheme_lower); [exact Oc|]. intros x H. apply negb_false_iff. revert H. unfold scheme_lower, scheme_char. rewrite !orb_true_iff. tauto. }
    rewrite A. cbn [andb negb]. rewrite drop_prefix_app, split_netloc.
    rewrite (lower_id (String c s)).
    2:{ apply (only_none scheme_lower); [exact Oc|]. intros x H. destruct (is_upper x) eqn:U; [|reflexivity]. exfalso. revert H U. clear. revert x.
        assert (G : forall x, negb (scheme_lower x && is_upper x) = true) by (apply all_ascii; intros n Hn; revert n Hn; apply below; vm_compute; reflexivity).
        intros x H U. specialize (G x). rewrite H, U in G. discriminate G. }
    unfold tail. destruct db as [d|].
    - destruct (Hd d eq_refl) as (_ & Nq & _). destruct ssl as [m|].
      + change (("/" ++ d) ++ "?ssl=" ++ mode_value m) with (("/" ++ d) ++ String "?" ("ssl=" ++ mode_value m)). rewrite partition_app; [reflexivity|]. apply none_cons. split; [reflexivity|exact Nq].
      + rewrite append_nil_r. rewrite partition_none; [reflexivity|]. apply none_cons. split; [reflexivity|exact Nq].
    - destruct ssl as [m|]; [|reflexivity]. change ("" ++ "?ssl=" ++ mode_value m) with ("" ++ String "?" ("ssl=" ++ mode_value m)). rewrite partition_app by reflexivity. reflexivity.
  Qed.
  Lemma get_ssl_mode : get_ssl (match ssl with None => "" | Some m => "ssl=" ++ mode_value m end) = Ok ssl.
  Proof. destruct ssl as [[]|]; vm_compute; reflexivity. Qed.
  Lemma host_of_hp : (let (h, p) := partition ":" hp in
      let (name, zone) := partition "%" h in
      (or_none (lower name ++ match zone with Some z => "%" ++ z | None => "" end),
       match p with None | Some "" => Ok None
       | Some p => if all_digits p then match str_to_n p with Some n => if N.leb n 65535 then Ok (Some n) else Err "ValueError" | None => Err "ValueError" end else Err "ValueError" end)) = (Some host, Ok port).
  Proof.
    destruct Hh as [Ne Oh]. assert (P1 : partition "%" host = (host, None)) by (apply partition_none; eapply only_neq; [exact Oh|reflexivity]).
    assert (Lh : lower host = host).
    { apply lower_id. apply (only_none _ _ _ Oh). intros x H. destruct (is_upper x) eqn:U; [|reflexivity]. exfalso. revert x H U.
      assert (G : forall x, negb ((is_lower x || is_digit x || in_class ["-"%char; "."%char] x) && is_upper x) = true) by (apply all_ascii; intros n Hn; revert n Hn; apply below; vm_compute; reflexivity).
      intros x H U. specialize (G x). rewrite H, U in G. discriminate G. }
    assert (Oe : or_none host = Some host) by (destruct host; [now destruct Ne|reflexivity]).
    unfold hp. destruct port as [n|].
    - change (":" ++ n_to_str n) with (String ":" (n_to_str n)). rewrite partition_app by (eapply only_neq; [exact Oh|reflexivity]). rewrite P1, Lh, append_nil_r, Oe.
      destruct (n_to_str_nonempty n) as (c & r & E & _). assert (D := n_to_str_digits n). assert (I := n_to_str_inv n). rewrite E in D, I |- *. unfold all_digits. rewrite D. cbn [negb]. rewrite I.
      rewrite (proj2 (N.leb_le n 65535) (Hp n eq_refl)). reflexivity.
    - rewrite append_nil_r, partition_none by (eapply only_neq; [exact Oh|reflexivity]). now rewrite P1, Lh, append_nil_r, Oe.
  Qed.
  Lemma database_of : (match match db with None => "" | Some d => "/" ++ d end with "" => None | p => Some (lstrip "/" p) end) = db.
  Proof.
    destruct db as [d|]; [|reflexivity]. destruct (Hd d eq_refl) as (Ne & _ & Ns). cbn. f_equal. destruct d as [|c d]; [reflexivity|]. cbn. destruct (Ascii.eqb_spec c "/") as [->|]; [|reflexivity].
    destruct (Ns d). reflexivity.
  Qed.
End Parse.
