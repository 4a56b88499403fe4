From Verif Require Import PyStr ResultSet ResultSetSpec.
Open Scope list_scope.

Section Proofs.
  Context {V : Type}.
  Implicit Types (fs : cls V) (kw o : list (string * V)) (rs : resultset V).

  Lemma get_in kw n v : get n kw = Some v -> In (n, v) kw.
  Proof. induction kw as [|[k x] kw IH]; cbn; [discriminate|]. destruct (String.eqb_spec k n) as [->|]; [intros [= ->]; now left|auto]. Qed.
  Lemma get_none kw n : get n kw = None <-> ~ In n (map fst kw).
  Proof. induction kw as [|[k x] kw IH]; cbn; [tauto|]. destruct (String.eqb_spec k n) as [->|]; [split; [discriminate|tauto]|]. rewrite IH. tauto. Qed.
  Lemma in_get kw n v : NoDup (map fst kw) -> In (n, v) kw -> get n kw = Some v.
  Proof.
    induction kw as [|[k x] kw IH]; cbn; [intros _ []|]. intros ND. inversion ND as [|? ? NI ND']; subst. intros [[= -> ->]|I]; [now rewrite String.eqb_refl|].
    destruct (String.eqb_spec k n) as [->|]; [|auto]. exfalso. apply NI. apply (in_map fst) in I. exact I.
  Qed.
  Lemma known_spec fs kw : known fs kw = true <-> forall c, In c (map fst kw) -> In c (map fst fs).
  Proof.
    unfold known. rewrite forallb_forall. split.
    - intros H c I. apply in_map_iff in I. destruct I as (a & <- & I). specialize (H a I). apply existsb_exists in H. destruct H as (f & If & E).
      apply String.eqb_eq in E. rewrite <- E. now apply in_map.
    - intros H a I. apply existsb_exists. pose proof (H (fst a) (in_map fst _ _ I)) as J. apply in_map_iff in J. destruct J as (f & E & If).
      exists f. split; [exact If|]. now apply String.eqb_eq.
  Qed.
  (** building an instance *)
  Lemma bind_ok fs kw : (forall f d, In (f, d) fs -> In f (map fst kw) \/ d <> None) ->
    exists o, bind_fields fs kw = Ok o.
  Proof.
    induction fs as [|[n d] fs IH]; intros H; cbn; [eauto|].
    destruct IH as (o & E); [intros f d' I; apply (H f d'); now right|].
    destruct (get n kw) as [v|] eqn:G; [rewrite E; cbn; eauto|]. apply get_none in G. destruct (H n d (or_introl eq_refl)) as [X|X]; [contradiction|].
    destruct d; [rewrite E; cbn; eauto|congruence].
  Qed.
  Lemma bind_inv fs kw o : bind_fields fs kw = Ok o ->
    map fst o = map fst fs /\ (forall f v, In (f, v) o -> get f kw = Some v \/ get f kw = None /\ In (f, Some v) fs) /\
    (forall f d, In (f, d) fs -> In f (map fst kw) \/ d <> None).
  Proof.
    revert o. induction fs as [|[n d] fs IH]; intros o; cbn.
    - intros [= <-]. split; [reflexivity|]. split; [intros ? ? []|intros ? ? []].
    - destruct (match get n kw with Some v => Some v | None => d end) as [v|] eqn:M; [|discriminate].
      destruct (bind_fields fs kw) as [o'|] eqn:E; [|discriminate]. cbn. intros [= <-]. destruct (IH o' eq_refl) as (A & B & C). split; [cbn; now rewrite A|]. split.
      + intros f w [[= <- <-]|I].
        * destruct (get n kw) as [x|]; [left; congruence|]. right. split; [reflexivity|]. left. congruence.
        * destruct (B f w I) as [X|[X Y]]; [now left|right; auto].
      + intros f d' [[= <- <-]|I]; [|exact (C f d' I)].
        destruct (get n kw) as [x|] eqn:G; [left; apply get_in, (in_map fst) in G; exact G|right; congruence].
  Qed.

  Lemma each_ok {A B} (f : A -> res B) l bs : each f l = Ok bs <-> (length bs = length l /\ forall i a, nth_error l i = Some a -> exists b, nth_error bs i = Some b /\ f a = Ok b).
  Proof.
    revert bs. induction l as [|a l IH]; intros bs; cbn.
    - split; [intros [= <-]; split; [reflexivity|intros [|i] ? [=]]|]. intros [L _]. destruct bs; [reflexivity|discriminate].
    - split.
      + destruct (f a) as [b|] eqn:F; [|discriminate]. cbn. destruct (each f l) as [bs'|] eqn:E; [|discriminate]. cbn. intros [= <-].
        destruct (proj1 (IH bs') eq_refl) as [L H]. split; [cbn; congruence|]. intros [|i] a' X; cbn in *; [injection X as <-; eauto|eauto].
      + intros [L H]. destruct (H 0 a eq_refl) as (b & N & F). rewrite F. cbn. destruct bs as [|b' bs]; [discriminate|]. cbn in N. injection N as ->.
        rewrite (proj2 (IH bs)); [reflexivity|]. split; [injection L as L; exact L|]. intros i a' X. exact (H (S i) a' X).
  Qed.
  Lemma each_total {A B} (f : A -> res B) l : (forall a, In a l -> exists b, f a = Ok b) -> exists bs, each f l = Ok bs.
  Proof.
    induction l as [|a l IH]; intros H; cbn; [eauto|]. destruct (H a (or_introl eq_refl)) as (b & ->). cbn. destruct IH as (bs & ->); [intros x I; apply H; now right|]. cbn. eauto.
  Qed.
  Lemma each_first {A B} (f : A -> res B) a l bs : each f (a :: l) = Ok bs -> exists b, f a = Ok b.
  Proof. cbn. destruct (f a); [eauto|discriminate]. Qed.

  Lemma combine_fst {A B} (l : list A) (l' : list B) : length l' = length l -> map fst (combine l l') = l.
  Proof. revert l'. induction l as [|a l IH]; intros [|b l'] E; cbn in *; try discriminate; [reflexivity|]. now rewrite IH by (injection E as E; exact E). Qed.
  Lemma combine_nth {A B} (l : list A) (l' : list B) a b : In (a, b) (combine l l') -> exists j, nth_error l j = Some a /\ nth_error l' j = Some b.
  Proof.
    revert l'. induction l as [|x l IH]; intros [|y l']; cbn; try tauto. intros [[= -> ->]|I]; [exists 0; auto|].
    destruct (IH _ I) as (j & X & Y). exists (S j). auto.
  Qed.
  Lemma nth_combine {A B} (l : list A) (l' : list B) j a b : nth_error l j = Some a -> nth_error l' j = Some b -> In (a, b) (combine l l').
  Proof. revert l l'. induction j as [|j IH]; intros [|x l] [|y l']; cbn; try discriminate; [intros [= ->] [= ->]; now left|intros X Y; right; eauto]. Qed.

  Lemma named_nth rs i kw : nth_error (named_rows rs) i = Some kw <-> exists r, nth_error (rs_rows rs) i = Some r /\ kw = combine (rs_columns rs) r.
  Proof.
    unfold named_rows. rewrite nth_error_map. destruct (nth_error (rs_rows rs) i) as [r|]; cbn; [|split; [discriminate|intros (? & [=] & _)]].
    split; [intros [= <-]; eauto|intros (r' & [= <-] & ->); reflexivity].
  Qed.
  Lemma named_cell rs i kw f v : rs_ok rs -> nth_error (named_rows rs) i = Some kw -> (In (f, v) kw <-> cell rs i f v).
  Proof.
    intros _ N. apply named_nth in N. destruct N as (r & R & ->). split.
    - intros I. destruct (combine_nth _ _ _ _ I) as (j & X & Y). exists r, j. auto.
    - intros (r' & j & R' & X & Y). rewrite R in R'. injection R' as <-. exact (nth_combine _ _ _ _ _ X Y).
  Qed.
  Lemma named_fst rs i kw : rs_ok rs -> nth_error (named_rows rs) i = Some kw -> map fst kw = rs_columns rs.
  Proof. intros [_ W] N. apply named_nth in N. destruct N as (r & R & ->). apply combine_fst, W. apply nth_error_In in R. exact R. Qed.
  Lemma named_in rs kw : In kw (named_rows rs) -> exists i, nth_error (named_rows rs) i = Some kw.
  Proof. apply In_nth_error. Qed.
  Lemma named_len rs : length (named_rows rs) = length (rs_rows rs).
  Proof. apply map_length. Qed.
  Lemma named_cons rs r rest : rs_rows rs = r :: rest -> exists k ks, named_rows rs = k :: ks.
  Proof. unfold named_rows. intros ->. cbn. eauto. Qed.

  Lemma attributes_ok names kw : (forall n, In n names -> In n (map fst kw)) -> exists o, attributes names kw = Ok o.
  Proof.
    induction names as [|n names IH]; intros H; cbn; [eauto|]. destruct (get n kw) as [v|] eqn:G; [|apply get_none in G; exfalso; apply G, H; now left].
    destruct IH as (o & ->); [intros m I; apply H; now right|]. cbn. eauto.
  Qed.
  Lemma attributes_inv names kw o : attributes names kw = Ok o -> map fst o = names /\ (forall f v, In (f, v) o -> In (f, v) kw) /\ (forall n, In n names -> In n (map fst kw)).
  Proof.
    revert o. induction names as [|n names IH]; intros o; cbn; [intros [= <-]; split; [reflexivity|split; [intros ? ? []|intros ? []]]|].
    destruct (get n kw) as [v|] eqn:G; [|discriminate]. destruct (attributes names kw) as [o'|]; [|discriminate]. cbn. intros [= <-].
    destruct (IH o' eq_refl) as (A & B & C). split; [cbn; now rewrite A|]. apply get_in in G. split.
    - intros f w [[= <- <-]|I]; [exact G|exact (B _ _ I)].
    - intros m [<-|I]; [apply (in_map fst) in G; exact G|exact (C m I)].
  Qed.
End Proofs.
