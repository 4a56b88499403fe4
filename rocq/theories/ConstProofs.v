(** Proofs about [constant] (nested row values). *)
From Verif Require Import PyStr QuoteModel QuoteSpec QuoteProofs.
Open Scope string_scope.

(** The value denoted by a Python constant; [None] if some component has no SQL counterpart. *)
Fixpoint denote (v : pyval) : option sqlval :=
  match v with
  | PStr s => Some (SStr s)
  | PBool b => Some (SBool b)
  | PInt z => Some (SInt z)
  | PTuple l =>
      let fix go (l : list pyval) : option (list sqlval) :=
        match l with
        | [] => Some []
        | x :: r => match denote x, go r with
                    | Some a, Some b => Some (a :: b)
                    | _, _ => None
                    end
        end in
      match go l with Some vs => Some (SRow vs) | None => None end
  | POther => None
  end.

Fixpoint denotes (l : list pyval) : option (list sqlval) :=
  match l with
  | [] => Some []
  | x :: r => match denote x, denotes r with
              | Some a, Some b => Some (a :: b)
              | _, _ => None
              end
  end.
Fixpoint constants (l : list pyval) : res (list string) :=
  match l with
  | [] => Ok []
  | x :: r => do a <- constant x; do b <- constants r; Ok (a :: b)
  end.

Lemma denote_tuple l : denote (PTuple l) = match denotes l with Some vs => Some (SRow vs) | None => None end.
Proof.
  cbn [denote].
  match goal with |- match ?f l with _ => _ end = _ => assert (E : f l = denotes l) end.
  { induction l as [|x l IH]; [reflexivity|]. cbn [denotes]. rewrite <- IH. reflexivity. }
  now rewrite E.
Qed.
Lemma constant_tuple l :
  constant (PTuple l) = do vs <- constants l; Ok ("(" ++ join_str ", " vs ++ ")").
Proof.
  cbn [constant].
  match goal with |- bind (?f l) _ = _ => assert (E : f l = constants l) end.
  { induction l as [|x l IH]; [reflexivity|]. cbn [constants]. rewrite <- IH. reflexivity. }
  now rewrite E.
Qed.

Section pyval_induction.
  Variable P : pyval -> Prop.
  Hypothesis HS : forall s, P (PStr s).
  Hypothesis HB : forall b, P (PBool b).
  Hypothesis HI : forall z, P (PInt z).
  Hypothesis HT : forall l, Forall P l -> P (PTuple l).
  Hypothesis HO : P POther.
  Fixpoint pyval_ind' (v : pyval) : P v :=
    match v with
    | PStr s => HS s
    | PBool b => HB b
    | PInt z => HI z
    | PTuple l => HT l ((fix go (l : list pyval) : Forall P l :=
                           match l with
                           | [] => Forall_nil P
                           | x :: r => Forall_cons x (pyval_ind' x) (go r)
                           end) l)
    | POther => HO
    end.
End pyval_induction.

(** [constant] succeeds exactly on values that have an SQL counterpart *)
Lemma constant_denote v :
  match constant v, denote v with
  | Ok _, Some _ => True
  | Err e, None => e = "NotImplementedError"
  | _, _ => False
  end.
Proof.
  induction v as [s|b|z|l IH|] using pyval_ind'; try exact I.
  - rewrite constant_tuple, denote_tuple.
    assert (A : match constants l, denotes l with
                | Ok _, Some _ => True
                | Err e, None => e = "NotImplementedError"
                | _, _ => False end).
    { induction IH as [|x l Hx Hl IH]; [exact I|]. cbn [constants denotes].
      destruct (constant x) as [tx|e], (denote x) as [dx|]; try contradiction; cbn [bind].
      - destruct (constants l), (denotes l); try contradiction; cbn [bind]; auto.
      - exact Hx. }
    destruct (constants l), (denotes l); try contradiction; cbn [bind]; auto.
  - reflexivity.
Qed.

Fixpoint size (v : pyval) : nat :=
  match v with
  | PTuple l => S (S (fold_right (fun x n => S (size x + n)) 0 l))
  | _ => 1
  end.
Definition sizes (l : list pyval) : nat := fold_right (fun x n => S (size x + n)) 0 l.

Definition digit_start (s : string) : Prop := exists c r, s = String c r /\ is_digit c = true.

(** what may follow a value: neither an apostrophe (it would continue a literal) nor a digit *)
Definition ends_value (rest : string) : Prop := ~ begins QT rest /\ ~ digit_start rest.

Lemma span_digits_app ds rest :
  any_char (fun c => negb (is_digit c)) ds = false -> ~ digit_start rest ->
  span_digits (ds ++ rest) = (ds, rest).
Proof.
  intros D H. induction ds as [|c ds IH].
  - cbn [append]. destruct rest as [|c r]; [reflexivity|]. cbn [span_digits].
    destruct (is_digit c) eqn:E; [|reflexivity]. exfalso. apply H. now exists c, r.
  - cbn [any_char] in D. apply orb_false_iff in D. destruct D as [D1 D2].
    apply negb_false_iff in D1. cbn [append span_digits]. rewrite D1, (IH D2). reflexivity.
Qed.

Lemma scan_nat_app n rest : ~ digit_start rest -> scan_nat (n_to_str n ++ rest) = Some (n, rest).
Proof.
  intros H. unfold scan_nat. rewrite (span_digits_app _ _ (n_to_str_digits n) H).
  destruct (n_to_str_nonempty n) as [c [r [E _]]].
  rewrite E. rewrite <- E. now rewrite n_to_str_inv.
Qed.

Lemma digit_not_special c :
  is_digit c = true ->
  Ascii.eqb c QT = false /\ Ascii.eqb c "T" = false /\ Ascii.eqb c "F" = false
  /\ Ascii.eqb c "-" = false /\ Ascii.eqb c "(" = false.
Proof. all_ascii c; intros H; try discriminate H; repeat split; reflexivity. Qed.

Lemma read_digit fuel n rest :
  ~ digit_start rest -> read_val (S fuel) (n_to_str n ++ rest) = Some (SInt (Z.of_N n), rest).
Proof.
  intros H. pose proof (scan_nat_app n rest H) as Q.
  destruct (n_to_str_nonempty n) as [c [r [E D]]]. rewrite E in *.
  destruct (digit_not_special c D) as [E1 [E2 [E3 [E4 E5]]]].
  cbn [append read_val]. rewrite E1, E2, E3, E4, E5. cbn [append] in Q. now rewrite Q.
Qed.

Lemma ends_comma r : ends_value (", " ++ r).
Proof.
  split; [apply not_begins_other; discriminate|].
  intros [c [r' [E D]]]. injection E as <- _. discriminate.
Qed.
Lemma ends_paren r : ends_value (")" ++ r).
Proof.
  split; [apply not_begins_other; discriminate|].
  intros [c [r' [E D]]]. injection E as <- _. discriminate.
Qed.

Definition reads (v : pyval) : Prop :=
  forall t d, constant v = Ok t -> denote v = Some d ->
  forall fuel rest, size v <= fuel -> ends_value rest -> read_val fuel (t ++ rest) = Some (d, rest).

Lemma constant_nonempty v t : constant v = Ok t -> exists c r, t = String c r /\ Ascii.eqb c ")" = false.
Proof.
  destruct v as [s|b|z|l|]; cbn [constant]; intros H.
  - injection H as <-. unfold quote. cbn [append]. eauto.
  - injection H as <-. destruct b; eauto.
  - injection H as <-. destruct z as [|p|p]; cbn [z_to_str].
    + eauto.
    + destruct (n_to_str_nonempty (Npos p)) as [c [r [-> D]]]. exists c, r. split; [reflexivity|].
      revert D. all_ascii c; intros D; try discriminate D; reflexivity.
    + cbn [append]. eauto.
  - match type of H with bind ?x _ = _ => destruct x end; [|discriminate]. injection H as <-.
    cbn [append]. eauto.
  - discriminate.
Qed.

Lemma read_items_list l :
  Forall reads l -> l <> [] ->
  forall ts ds, constants l = Ok ts -> denotes l = Some ds ->
  forall fuel rest, sizes l <= fuel -> read_items fuel (join_str ", " ts ++ ")" ++ rest) = Some (ds, rest).
Proof.
  intros F. induction F as [|x l Hx Hl IH]; intros N ts ds C D fuel rest HF; [congruence|].
  cbn [constants denotes] in C, D.
  destruct (constant x) as [tx|] eqn:Cx; [|discriminate]. cbn [bind] in C.
  destruct (constants l) as [tl|] eqn:Cl; [|discriminate]. cbn [bind] in C. injection C as <-.
  destruct (denote x) as [dx|] eqn:Dx; [|discriminate].
  destruct (denotes l) as [dl|] eqn:Dl; [|discriminate]. injection D as <-.
  cbn [sizes fold_right] in HF. fold (sizes l) in HF.
  destruct fuel as [|k]; [lia|]. cbn [read_items].
  destruct l as [|y l].
  - cbn in Cl, Dl. injection Cl as <-. injection Dl as <-. cbn [join_str].
    rewrite (Hx tx dx Cx Dx k (")" ++ rest)); [|lia|apply ends_paren].
    cbn [drop_prefix append]. reflexivity.
  - destruct tl as [|ty tl].
    { exfalso. cbn [constants] in Cl. destruct (constant y); [|discriminate].
      cbn [bind] in Cl. destruct (constants l); discriminate. }
    rewrite join_str_cons, !append_assoc.
    rewrite (Hx tx dx Cx Dx k (", " ++ join_str ", " (ty :: tl) ++ ")" ++ rest)); [|lia|apply ends_comma].
    rewrite drop_prefix_app.
    rewrite (IH ltac:(discriminate) (ty :: tl) dl eq_refl eq_refl k rest); [reflexivity|lia].
Qed.

Lemma all_read v : reads v.
Proof.
  induction v as [s|b|z|l IH|] using pyval_ind'; intros t d C D fuel rest HF HE.
  - injection C as <-. injection D as <-. cbn [size] in HF. destruct fuel as [|k]; [lia|].
    pose proof (quote_scan s rest (proj1 HE)) as Q.
    unfold quote in *. cbn [append read_val] in *. rewrite Ascii.eqb_refl. now rewrite Q.
  - injection C as <-. injection D as <-. cbn [size] in HF. destruct fuel as [|k]; [lia|].
    destruct b; reflexivity.
  - injection C as <-. injection D as <-. cbn [size] in HF. destruct fuel as [|k]; [lia|].
    destruct z as [|p|p]; cbn [z_to_str].
    + exact (read_digit k 0 rest (proj2 HE)).
    + exact (read_digit k (Npos p) rest (proj2 HE)).
    + cbn [append read_val]. cbn [Ascii.eqb Bool.eqb QT].
      rewrite (scan_nat_app (Npos p) rest (proj2 HE)). reflexivity.
  - rewrite constant_tuple in C. rewrite denote_tuple in D.
    destruct (constants l) as [ts|] eqn:Cl; [|discriminate]. cbn [bind] in C. injection C as <-.
    destruct (denotes l) as [ds|] eqn:Dl; [|discriminate]. injection D as <-.
    change (size (PTuple l)) with (S (S (sizes l))) in HF. destruct fuel as [|k]; [lia|].
    cbn [append read_val]. cbn [Ascii.eqb Bool.eqb QT].
    destruct l as [|x l].
    + cbn in Cl, Dl. injection Cl as <-. injection Dl as <-. reflexivity.
    + rewrite append_assoc.
      rewrite (read_items_list (x :: l) IH ltac:(discriminate) ts ds Cl Dl k rest); [|lia].
      assert (NP : drop_prefix ")" (join_str ", " ts ++ ")" ++ rest) = None).
      { cbn [constants] in Cl. destruct (constant x) as [tx|] eqn:Cx; [|discriminate].
        cbn [bind] in Cl. destruct (constants l); [|discriminate]. injection Cl as <-.
        destruct (constant_nonempty x tx Cx) as [c [r [-> NC]]].
        destruct a as [|y a]; cbn [join_str append drop_prefix].
        - rewrite Ascii.eqb_sym, NC. reflexivity.
        - rewrite Ascii.eqb_sym, NC. reflexivity. }
      now rewrite NP.
  - discriminate.
Qed.

Lemma constant_reads v t :
  constant v = Ok t ->
  exists d, denote v = Some d /\
    exists n, forall fuel rest, n <= fuel -> ends_value rest ->
      read_val fuel (t ++ rest) = Some (d, rest).
Proof.
  intros C. pose proof (constant_denote v) as H. rewrite C in H.
  destruct (denote v) as [d|] eqn:D; [|contradiction].
  exists d. split; [reflexivity|]. exists (size v). intros fuel rest HF HE.
  exact (all_read v t d C D fuel rest HF HE).
Qed.

Lemma denote_inj v : forall w d, denote v = Some d -> denote w = Some d -> v = w.
Proof.
  induction v as [s|b|z|l IH|] using pyval_ind'; intros w d Hv Hw.
  1-3: injection Hv as <-; destruct w; try discriminate; try (injection Hw as ->; reflexivity);
       rewrite denote_tuple in Hw; destruct (denotes l); discriminate.
  - rewrite denote_tuple in Hv. destruct (denotes l) as [ds|] eqn:Dl; [|discriminate].
    injection Hv as <-. destruct w as [| | |m|]; try discriminate.
    rewrite denote_tuple in Hw. destruct (denotes m) as [es|] eqn:Dm; [|discriminate].
    injection Hw as ->. f_equal. clear -IH Dl Dm.
    revert m ds Dl Dm. induction IH as [|x l Hx Hl IHl]; intros m ds Dl Dm.
    + injection Dl as <-. destruct m as [|y m]; [reflexivity|].
      cbn [denotes] in Dm. destruct (denote y), (denotes m); discriminate.
    + cbn [denotes] in Dl. destruct (denote x) as [dx|] eqn:Dx; [|discriminate].
      destruct (denotes l) as [dl|] eqn:Dl'; [|discriminate]. injection Dl as <-.
      destruct m as [|y m]; [discriminate|]. cbn [denotes] in Dm.
      destruct (denote y) as [dy|] eqn:Dy; [|discriminate].
      destruct (denotes m) as [dm|] eqn:Dm'; [|discriminate]. injection Dm as -> ->.
      f_equal; [exact (Hx y dx eq_refl Dy) | exact (IHl m dl eq_refl Dm')].
  - discriminate.
Qed.

Lemma constant_inj v w t : constant v = Ok t -> constant w = Ok t -> v = w.
Proof.
  intros Cv Cw.
  destruct (constant_reads v t Cv) as [d [Dv [n Rn]]].
  destruct (constant_reads w t Cw) as [e [Dw [m Rm]]].
  assert (E : ends_value "").
  { split; [apply not_begins_nil|]. intros [c [r [H _]]]. discriminate. }
  specialize (Rn (n + m) "" ltac:(lia) E). specialize (Rm (n + m) "" ltac:(lia) E).
  rewrite Rn in Rm. injection Rm as ->. exact (denote_inj v w e Dv Dw).
Qed.
