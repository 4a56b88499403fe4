(** C40: query results become objects, tuples or scalars, row by row and column by column. *)
From Verif Require Import PyStr ResultSet ResultSetSpec ResultSetProofs.
Open Scope list_scope.

Section P.
  Context {V : Type}.
  Implicit Types (fs : cls V) (rs : resultset V).

  Lemma mapping_row fs rs i kw o : rs_ok rs -> nth_error (named_rows rs) i = Some kw -> construct fs kw = Ok o ->
    map fst o = map fst fs /\
    (forall f v, field o f v -> cell rs i f v \/ ~ In f (rs_columns rs) /\ In (f, Some v) fs) /\ fits_mapping fs (rs_columns rs).
  Proof.
    intros OK N. unfold construct. destruct (known fs kw) eqn:K; [|discriminate]. intros B. destruct (bind_inv _ _ _ B) as (A & X & C).
    pose proof (named_fst rs i kw OK N) as F. split; [exact A|]. split.
    - intros f v I. destruct (X f v I) as [G|[G D]].
      + left. apply (named_cell rs i kw f v OK N), get_in, G.
      + right. split; [|exact D]. rewrite <- F. now apply get_none.
    - rewrite <- F. split; [now apply known_spec|exact C].
  Qed.

  (** Drivers whose rows are mappings: the answer is one object per row, in order; a field holds the cell of the column
      of the same name, or its default if the result set lacks the column. *)
  Theorem C40_mapping_rows : forall fs rs items, rs_ok rs -> query_all DMapping (SClass fs) rs = Ok items ->
    length items = length (rs_rows rs) /\
    forall i it, nth_error items i = Some it -> exists o, it = IObject o /\ map fst o = map fst fs /\
      forall f v, field o f v -> cell rs i f v \/ ~ In f (rs_columns rs) /\ In (f, Some v) fs.
  Proof.
    intros fs rs items OK. cbn. unfold unwrap_dict. destruct (each (construct fs) (named_rows rs)) as [os|] eqn:E; [|discriminate]. cbn. intros [= <-].
    apply each_ok in E. destruct E as [L H]. rewrite map_length, L, named_len. split; [reflexivity|].
    intros i it N. rewrite nth_error_map in N. destruct (nth_error os i) as [o|] eqn:No; [|discriminate]. injection N as <-. exists o. split; [reflexivity|].
    destruct (nth_error (named_rows rs) i) as [kw|] eqn:K.
    - destruct (H i kw K) as (b & Nb & C). rewrite No in Nb. injection Nb as <-. destruct (mapping_row _ _ _ _ _ OK K C) as (A & B & _). auto.
    - exfalso. apply nth_error_None in K. assert (X : i < length os) by (apply nth_error_Some; congruence). rewrite L in X. apply Nat.lt_nge in X. contradiction.
  Qed.
  (** ... and it is given exactly if there are no rows, or the columns fit the class. *)
  Theorem C40_mapping_refused : forall fs rs, rs_ok rs ->
    ((exists items, query_all DMapping (SClass fs) rs = Ok items) <-> rs_rows rs = [] \/ fits_mapping fs (rs_columns rs)).
  Proof.
    intros fs rs OK. cbn. unfold unwrap_dict. split.
    - intros [items E]. destruct (each (construct fs) (named_rows rs)) as [os|] eqn:EE; [|discriminate]. destruct (rs_rows rs) as [|r rest] eqn:R; [now left|]. right.
      destruct (named_cons rs r rest R) as (k & ks & N). rewrite N in EE. destruct (each_first _ _ _ _ EE) as (o & C).
      apply (mapping_row fs rs 0 k o OK); [now rewrite N|exact C].
    - intros H. destruct (each_total (construct fs) (named_rows rs)) as (os & ->); [|cbn; eauto].
      intros kw I. destruct H as [R|[H1 H2]]; [unfold named_rows in I; rewrite R in I; destruct I|].
      destruct (named_in _ _ I) as (i & N). pose proof (named_fst rs i kw OK N) as F. unfold construct.
      rewrite (proj2 (known_spec fs kw)); [|now rewrite F]. apply bind_ok. now rewrite F.
  Qed.

  Lemma object_row fs rs i kw o : rs_ok rs -> nth_error (named_rows rs) i = Some kw -> (do k <- attributes (map fst fs) kw; construct fs k) = Ok o ->
    map fst o = map fst fs /\ (forall f v, field o f v -> cell rs i f v) /\ fits_object fs (rs_columns rs).
  Proof.
    intros OK N. destruct (attributes (map fst fs) kw) as [k|] eqn:A; [|discriminate]. cbn. destruct (attributes_inv _ _ _ A) as (F & I & S).
    unfold construct. destruct (known fs k) eqn:K; [|discriminate]. intros B. destruct (bind_inv _ _ _ B) as (FF & X & _). split; [exact FF|]. split.
    - intros f v J. destruct (X f v J) as [G|[G D]].
      + apply (named_cell rs i kw f v OK N), I, get_in, G.
      + exfalso. apply get_none in G. apply G. rewrite F. apply (in_map fst) in D. exact D.
    - intros f J. rewrite <- (named_fst rs i kw OK N). exact (S f J).
  Qed.
  (** Drivers whose rows are objects: every field holds the cell of the column of the same name. *)
  Theorem C40_object_rows : forall fs rs items, rs_ok rs -> query_all DObject (SClass fs) rs = Ok items ->
    length items = length (rs_rows rs) /\
    forall i it, nth_error items i = Some it -> exists o, it = IObject o /\ map fst o = map fst fs /\ forall f v, field o f v -> cell rs i f v.
  Proof.
    intros fs rs items OK. cbn. unfold unwrap_object. destruct (each _ (named_rows rs)) as [os|] eqn:E; [|discriminate]. cbn. intros [= <-].
    apply each_ok in E. destruct E as [L H]. rewrite map_length, L, named_len. split; [reflexivity|].
    intros i it N. rewrite nth_error_map in N. destruct (nth_error os i) as [o|] eqn:No; [|discriminate]. injection N as <-. exists o. split; [reflexivity|].
    destruct (nth_error (named_rows rs) i) as [kw|] eqn:K.
    - destruct (H i kw K) as (b & Nb & C). rewrite No in Nb. injection Nb as <-. destruct (object_row _ _ _ _ _ OK K C) as (A & B & _). auto.
    - exfalso. apply nth_error_None in K. assert (X : i < length os) by (apply nth_error_Some; congruence). rewrite L in X. apply Nat.lt_nge in X. contradiction.
  Qed.
  Theorem C40_object_refused : forall fs rs, rs_ok rs ->
    ((exists items, query_all DObject (SClass fs) rs = Ok items) <-> rs_rows rs = [] \/ fits_object fs (rs_columns rs)).
  Proof.
    intros fs rs OK. cbn. unfold unwrap_object. split.
    - intros [items E]. destruct (each _ (named_rows rs)) as [os|] eqn:EE; [|discriminate]. destruct (rs_rows rs) as [|r rest] eqn:R; [now left|]. right.
      destruct (named_cons rs r rest R) as (k & ks & N). rewrite N in EE. destruct (each_first _ _ _ _ EE) as (o & C).
      apply (object_row fs rs 0 k o OK); [now rewrite N|exact C].
    - intros H. destruct (each_total (fun r => do kw <- attributes (map fst fs) r; construct fs kw) (named_rows rs)) as (os & ->); [|cbn; eauto].
      intros kw I. destruct H as [R|H]; [unfold named_rows in I; rewrite R in I; destruct I|].
      destruct (named_in _ _ I) as (i & N). pose proof (named_fst rs i kw OK N) as F.
      destruct (attributes_ok (map fst fs) kw) as (o & A); [intros n J; rewrite F; exact (H n J)|]. rewrite A. cbn. destruct (attributes_inv _ _ _ A) as (FF & _).
      unfold construct. rewrite (proj2 (known_spec fs o)); [|now rewrite FF]. apply bind_ok. intros f d J. left. rewrite FF. apply (in_map fst) in J. exact J.
  Qed.

  (** Tuples: each row as it is, if the first has as many values as the signature has types. *)
  Theorem C40_tuple_rows : forall d n rs, rs_ok rs ->
    query_all d (STuple n) rs = (if forallb (fun _ => Nat.eqb (length (rs_columns rs)) n) (rs_rows rs) then Ok (map ITuple (rs_rows rs)) else Err "ValueError").
  Proof.
    intros d n rs [_ W]. cbn. destruct (rs_rows rs) as [|r rest]; [reflexivity|]. cbn. rewrite (W r (or_introl eq_refl)).
    destruct (Nat.eqb (length (rs_columns rs)) n) eqn:E; cbn; [|reflexivity].
    assert (X : forallb (fun _ : list V => true) rest = true) by (clear; induction rest; auto). now rewrite X.
  Qed.
  (** Scalars: the single column of each row. *)
  Theorem C40_scalar_rows : forall d rs, rs_ok rs ->
    (rs_rows rs <> [] -> length (rs_columns rs) <> 1 -> query_all d SScalar rs = Err "ValueError") /\
    (forall c, rs_columns rs = [c] -> exists vs, query_all d SScalar rs = Ok (map IScalar vs) /\ rs_rows rs = map (fun v => [v]) vs).
  Proof.
    intros d rs [_ W]. cbn. split.
    - destruct (rs_rows rs) as [|r rest]; [congruence|]. intros _ N. rewrite <- (W r (or_introl eq_refl)) in N. apply Nat.eqb_neq in N. now rewrite N.
    - intros c C. rewrite C in W. cbn in W. destruct (rs_rows rs) as [|r rest]; [exists []; auto|].
      pose proof (W r (or_introl eq_refl)) as L. rewrite L. cbn. destruct r as [|v [|? ?]]; try discriminate L. cbn.
      assert (X : exists vs, each first rest = Ok (map IScalar vs) /\ rest = map (fun v => [v]) vs).
      { assert (W' : forall r, In r rest -> length r = 1) by (intros r I; apply W; now right). clear W L. induction rest as [|r rest IH]; [exists []; auto|].
        destruct IH as (vs & E & ->); [intros x I; apply W'; now right|]. pose proof (W' r (or_introl eq_refl)) as L. destruct r as [|w [|? ?]]; try discriminate L.
        exists (w :: vs). cbn. rewrite E. auto. }
      destruct X as (vs & E & ->). exists (v :: vs). rewrite E. auto.
  Qed.
  (** The three kinds of signatures agree: the field of an object is the component of the tuple at the position of the
      column, and the scalar is the only component. *)
  Theorem C40_signatures_agree : forall d fs rs items, (d = DMapping \/ d = DObject) -> rs_ok rs -> query_all d (SClass fs) rs = Ok items ->
    query_all d (STuple (length (rs_columns rs))) rs = Ok (map ITuple (rs_rows rs)) /\
    (forall i o, nth_error items i = Some (IObject o) -> exists t, nth_error (map ITuple (rs_rows rs)) i = Some (ITuple t) /\
      forall j c v, nth_error (rs_columns rs) j = Some c -> field o c v -> nth_error t j = Some v) /\
    (forall c i o v, rs_columns rs = [c] -> nth_error items i = Some (IObject o) -> field o c v ->
      exists ss, query_all d SScalar rs = Ok ss /\ nth_error ss i = Some (IScalar v)).
  Proof.
    intros d fs rs items D OK Q.
    assert (H : length items = length (rs_rows rs) /\ forall i it, nth_error items i = Some it -> exists o, it = IObject o /\
                 forall f v, field o f v -> cell rs i f v \/ ~ In f (rs_columns rs)).
    { destruct D as [-> | ->].
      - destruct (C40_mapping_rows _ _ _ OK Q) as [L X]. split; [exact L|]. intros i it N. destruct (X i it N) as (o & E & _ & Y). exists o. split; [exact E|]. intros f v F. destruct (Y f v F) as [Z|[Z _]]; [left; exact Z|right; exact Z].
      - destruct (C40_object_rows _ _ _ OK Q) as [L X]. split; [exact L|]. intros i it N. destruct (X i it N) as (o & E & _ & Y). exists o. split; [exact E|]. intros f v F. left. exact (Y f v F). }
    destruct H as [L H]. split; [|split].
    - rewrite C40_tuple_rows by exact OK. rewrite Nat.eqb_refl. assert (X : forallb (fun _ : list V => true) (rs_rows rs) = true) by (clear; induction (rs_rows rs); auto). now rewrite X.
    - intros i o N. destruct (H i _ N) as (o' & [= <-] & F).
      destruct (nth_error (rs_rows rs) i) as [t|] eqn:R.
      + exists t. rewrite nth_error_map, R. split; [reflexivity|]. intros j c v C I. destruct (F c v I) as [(r & j' & R' & C' & X)|NI].
        * rewrite R in R'. injection R' as <-. assert (j = j'); [|congruence]. destruct OK as [ND _].
          apply (proj1 (NoDup_nth_error _) ND); [apply nth_error_Some; congruence|congruence].
        * exfalso. apply NI. exact (nth_error_In _ _ C).
      + exfalso. apply nth_error_None in R. rewrite <- L in R. assert (X : i < length items) by (apply nth_error_Some; congruence). apply Nat.lt_nge in X. contradiction.
    - intros c i o v C N I. destruct (proj2 (C40_scalar_rows d rs OK) c C) as (vs & E & R). exists (map IScalar vs). split; [exact E|].
      destruct (H i _ N) as (o' & [= <-] & F). destruct (F c v I) as [(r & j & Ri & Cj & X)|NI]; [|exfalso; apply NI; rewrite C; now left].
      rewrite R, nth_error_map in Ri. destruct (nth_error vs i) as [w|] eqn:W; [|discriminate]. injection Ri as <-. rewrite nth_error_map, W. cbn.
      rewrite C in Cj. destruct j as [|j]; [|destruct j; discriminate Cj]. cbn in X. congruence.
  Qed.
  (** A query for one row gives the first, and fails on an empty result set. *)
  Theorem C40_query_one : forall d sg rs,
    match query_all d sg rs with
    | Ok (i :: _) => query_one d sg rs = Ok i
    | Ok [] => query_one d sg rs = Err "IndexError"
    | Err e => query_one d sg rs = Err e
    end.
  Proof. intros d sg rs. unfold query_one. destruct (query_all d sg rs) as [[|i l]|e]; reflexivity. Qed.
End P.
Print Assumptions C40_mapping_rows.
Print Assumptions C40_mapping_refused.
Print Assumptions C40_object_rows.
Print Assumptions C40_object_refused.
Print Assumptions C40_tuple_rows.
Print Assumptions C40_scalar_rows.
Print Assumptions C40_signatures_agree.
Print Assumptions C40_query_one.

Open Scope string_scope.
(** With Oracle, fields are filled by position: a query that names the columns in another order than the class mixes
    them up. *)
Theorem C40_oracle_by_position_refuted : exists (fs : cls nat) (rs : resultset nat) o,
  rs_ok rs /\ fits_mapping fs (rs_columns rs) /\ query_all DPositional (SClass fs) rs = Ok [IObject o] /\
  field o "a" 2 /\ cell rs 0 "a" 1.
Proof.
  exists [("a", None); ("b", None)], (RS ["b"; "a"] [[2; 1]]), [("a", 2); ("b", 1)]. split; [|split; [|split; [reflexivity|]]].
  - split; [repeat (apply NoDup_cons; [simpl; intuition discriminate|]); apply NoDup_nil|]. intros r [<-|[]]. reflexivity.
  - split; [intros c [<-|[<-|[]]]; cbn; auto|]. intros f d [[= <- <-]|[[= <- <-]|[]]]; left; cbn; auto.
  - split; [now left|]. exists [2; 1], 1. auto.
Qed.
Print Assumptions C40_oracle_by_position_refuted.
(** A class with a default fits a result set without the column if rows are mappings, and not if they are objects. *)
Theorem C40_drivers_disagree_on_defaults_refuted : exists (fs : cls nat) (rs : resultset nat),
  rs_ok rs /\ query_all DMapping (SClass fs) rs = Ok [IObject [("a", 1); ("b", 7)]] /\ query_all DObject (SClass fs) rs = Err "AttributeError".
Proof.
  exists [("a", None); ("b", Some 7)], (RS ["a"] [[1]]). split; [|split; reflexivity].
  split; [repeat (apply NoDup_cons; [simpl; intuition discriminate|]); apply NoDup_nil|]. intros r [<-|[]]. reflexivity.
Qed.
Print Assumptions C40_drivers_disagree_on_defaults_refuted.
(** Only the first record is checked: raw records of uneven lengths are let through. *)
Theorem C40_uneven_records_refuted : exists (records : list (list nat)) items,
  unwrap_tuple (STuple 2) records = Ok items /\ exists t, In (ITuple t) items /\ length t <> 2.
Proof. exists [[1; 2]; [3]], [ITuple [1; 2]; ITuple [3]]. split; [reflexivity|]. exists [3]. split; [right; now left|discriminate]. Qed.
Print Assumptions C40_uneven_records_refuted.

Example C40_ex : exists rs : resultset nat, rs_ok rs /\
  query_all DMapping (SClass [("a", None); ("b", None)]) rs = Ok [IObject [("a", 1); ("b", 2)]; IObject [("a", 3); ("b", 4)]] /\
  query_all DObject (SClass [("a", None); ("b", None)]) rs = Ok [IObject [("a", 1); ("b", 2)]; IObject [("a", 3); ("b", 4)]] /\
  query_all DObject (STuple 2) rs = Ok [ITuple [2; 1]; ITuple [4; 3]].
Proof.
  exists (RS ["b"; "a"] [[2; 1]; [4; 3]]). split; [|repeat split].
  split; [repeat (apply NoDup_cons; [simpl; intuition discriminate|]); apply NoDup_nil|]. intros r [<-|[<-|[]]]; reflexivity.
Qed.
