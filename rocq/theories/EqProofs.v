(** The comparison functions of the model decide equality. *)
From Verif Require Import PyStr QuoteModel ObjectDict ObjectDictSpec ObjectDictProofs Types Objects.

Lemma sl_eqb_eq a b : sl_eqb a b = true <-> a = b.
Proof. unfold sl_eqb. apply list_eqb_eq. apply String.eqb_eq. Qed.
Lemma ref_eqb_eq a b : ref_eqb a b = true <-> a = b.
Proof.
  destruct a, b. unfold ref_eqb. simpl. rewrite andb_true_iff, qid_eqb_eq, sl_eqb_eq.
  split; [intros [-> ->]; reflexivity|]. intros [= -> ->]. auto.
Qed.
Lemma constr_eqb_eq a b : constr_eqb a b = true <-> a = b.
Proof.
  destruct a, b; simpl; rewrite ?andb_true_iff, ?String.eqb_eq, ?sl_eqb_eq, ?qid_eqb_eq,
    ?(list_eqb_eq _ ref_eqb_eq); split; intros H; try discriminate;
    try (intuition congruence); injection H; intros; subst; auto 10.
Qed.
Lemma mem_eqb_eq a b : mem_eqb a b = true <-> a = b.
Proof.
  destruct a, b. unfold mem_eqb. simpl. rewrite !andb_true_iff, String.eqb_eq, type_eqb_eq, os_eqb_eq.
  split; [intuition congruence|]. intros [= -> -> ->]. auto.
Qed.
Lemma enum_eqb_eq a b : enum_eqb a b = true <-> a = b.
Proof.
  destruct a, b. unfold enum_eqb. simpl. rewrite !andb_true_iff, qid_eqb_eq, sl_eqb_eq.
  split; [intuition congruence|]. intros [= -> ->]. auto.
Qed.
