(** Python string helpers used throughout the model.

    A Python [str] is a Coq [string]; the 8-bit characters stand for the UTF-8
    bytes of the text.  Only single-character search/replace, concatenation,
    join, prefix tests and decimal rendering are needed by the modelled code. *)
From Coq Require Export String Ascii List Bool Arith NArith ZArith Lia.
From Coq Require Import DecimalString DecimalPos DecimalN DecimalFacts.
Export ListNotations.
Open Scope string_scope.

(** Result of code that may raise: the exception class name and nothing else. *)
Inductive res (A : Type) : Type :=
| Ok (a : A)
| Err (e : string).
Arguments Ok {A} a.
Arguments Err {A} e.

Definition bind {A B} (x : res A) (f : A -> res B) : res B :=
  match x with Ok a => f a | Err e => Err e end.
Notation "'do' x <- e1 ; e2" := (bind e1 (fun x => e2))
  (at level 200, x name, e1 at level 100, e2 at level 200, right associativity).

Fixpoint map_res {A B} (f : A -> res B) (l : list A) : res (list B) :=
  match l with
  | [] => Ok []
  | a :: l' => do b <- f a; do bs <- map_res f l'; Ok (b :: bs)
  end.

Definition is_ok {A} (x : res A) : bool := match x with Ok _ => true | Err _ => false end.

(** Characters that cannot be written comfortably in a Coq string literal. *)
Definition ch (n : nat) : ascii := ascii_of_nat n.
Definition QT : ascii := "'"%char.
Definition DQ : ascii := """"%char.
Definition BQ : ascii := "`"%char.
Definition BS : ascii := "\"%char.
Definition NUL : ascii := ch 0.
Definition BEL : ascii := ch 8.   (* \b, backspace *)
Definition TAB : ascii := ch 9.
Definition LF : ascii := ch 10.
Definition VT : ascii := ch 11.
Definition FF : ascii := ch 12.
Definition CR : ascii := ch 13.
Definition SUB : ascii := ch 26.
Definition NL : string := String LF "".
Definition str1 (c : ascii) : string := String c "".

(** [s.translate(table)] where the table maps single characters to strings;
    [s.replace(c, r)] for a one-character [c] is the special case below. *)
Fixpoint translate (f : ascii -> string) (s : string) : string :=
  match s with
  | "" => ""
  | String c r => f c ++ translate f r
  end.

Definition replace1 (c : ascii) (r : string) (s : string) : string :=
  translate (fun x => if Ascii.eqb x c then r else str1 x) s.

(** [c in s] for a one-character [c] *)
Fixpoint has_char (c : ascii) (s : string) : bool :=
  match s with
  | "" => false
  | String x r => Ascii.eqb x c || has_char c r
  end.

(** [re.search("[...]", s)] for a character class given as a predicate *)
Fixpoint any_char (p : ascii -> bool) (s : string) : bool :=
  match s with
  | "" => false
  | String x r => p x || any_char p r
  end.

Definition in_class (cs : list ascii) (x : ascii) : bool := existsb (Ascii.eqb x) cs.

(** [sep.join(items)] *)
Fixpoint join_str (sep : string) (l : list string) : string :=
  match l with
  | [] => ""
  | [x] => x
  | x :: l' => x ++ sep ++ join_str sep l'
  end.

(** [s.startswith(p)], [s.removeprefix(p)] *)
Fixpoint starts_with (p s : string) : bool :=
  match p, s with
  | "", _ => true
  | String a p', String b s' => Ascii.eqb a b && starts_with p' s'
  | _, _ => false
  end.

Fixpoint drop_prefix (p s : string) : option string :=
  match p, s with
  | "", _ => Some s
  | String a p', String b s' => if Ascii.eqb a b then drop_prefix p' s' else None
  | _, _ => None
  end.

Definition remove_prefix (p s : string) : string :=
  match drop_prefix p s with Some r => r | None => s end.

Definition str_in (s : string) (l : list string) : bool := existsb (String.eqb s) l.

(** decimal rendering of a natural / integer: Python's [str(int)] *)
Definition n_to_str (n : N) : string := NilEmpty.string_of_uint (N.to_uint n).
Definition z_to_str (z : Z) : string :=
  match z with
  | Z0 => "0"
  | Zpos p => n_to_str (Npos p)
  | Zneg p => "-" ++ n_to_str (Npos p)
  end.
Definition is_digit (c : ascii) : bool :=
  let n := N_of_ascii c in N.leb 48 n && N.leb n 57.
Definition all_digits (s : string) : bool := negb (any_char (fun c => negb (is_digit c)) s).
(** Python's [int(s)] on a non-empty string of ASCII digits *)
Definition str_to_n (s : string) : option N :=
  match NilEmpty.uint_of_string s with
  | Some u => Some (N.of_uint u)
  | None => None
  end.

(** ------------------------------------------------------------------ *)
(** Lemmas *)

Lemma append_assoc (a b c : string) : (a ++ b) ++ c = a ++ b ++ c.
Proof. induction a as [|x a IH]; simpl; [reflexivity| now rewrite IH]. Qed.

Lemma append_nil_r (a : string) : a ++ "" = a.
Proof. induction a as [|x a IH]; simpl; [reflexivity| now rewrite IH]. Qed.

Lemma append_length (a b : string) : String.length (a ++ b) = String.length a + String.length b.
Proof. induction a as [|x a IH]; simpl; [reflexivity | now rewrite IH]. Qed.

Lemma append_inj_l (a b c : string) : a ++ b = a ++ c -> b = c.
Proof. induction a as [|x a IH]; simpl; intros H; [exact H| injection H as H; auto]. Qed.

Lemma append_inj_len (a b c d : string) :
  String.length a = String.length c -> a ++ b = c ++ d -> a = c /\ b = d.
Proof.
  revert c; induction a as [|x a IH]; intros [|y c]; simpl; intros HL H; try discriminate.
  - auto.
  - injection H as H1 H2. injection HL as HL. destruct (IH c HL H2); subst; auto.
Qed.

Lemma append_inj_r (a b c : string) : a ++ c = b ++ c -> a = b.
Proof.
  intros H. assert (L : String.length a = String.length b).
  { pose proof (f_equal String.length H) as E. rewrite !append_length in E. lia. }
  exact (proj1 (append_inj_len _ _ _ _ L H)).
Qed.

Lemma translate_app f a b : translate f (a ++ b) = translate f a ++ translate f b.
Proof. induction a as [|x a IH]; simpl; [reflexivity| now rewrite IH, append_assoc]. Qed.

Lemma has_char_app c a b : has_char c (a ++ b) = has_char c a || has_char c b.
Proof. induction a as [|x a IH]; simpl; [reflexivity| now rewrite IH, orb_assoc]. Qed.

Lemma any_char_app p a b : any_char p (a ++ b) = any_char p a || any_char p b.
Proof. induction a as [|x a IH]; simpl; [reflexivity| now rewrite IH, orb_assoc]. Qed.

Lemma has_char_any c s : has_char c s = any_char (fun x => Ascii.eqb x c) s.
Proof. induction s as [|x s IH]; simpl; [reflexivity| now rewrite IH]. Qed.

Lemma join_str_cons sep x y l :
  join_str sep (x :: y :: l) = x ++ sep ++ join_str sep (y :: l).
Proof. reflexivity. Qed.

Lemma starts_with_app p s : starts_with p (p ++ s) = true.
Proof. induction p as [|a p IH]; simpl; [reflexivity| now rewrite Ascii.eqb_refl, IH]. Qed.

Lemma starts_with_spec p s : starts_with p s = true <-> exists r, s = p ++ r.
Proof.
  revert s; induction p as [|a p IH]; intros s; simpl.
  - split; [eauto | reflexivity].
  - destruct s as [|b s].
    + split; [discriminate| intros [r H]; discriminate].
    + rewrite andb_true_iff, Ascii.eqb_eq, IH. split.
      * intros [-> [r ->]]. now exists r.
      * intros [r H]. injection H as -> ->. split; [reflexivity| now exists r].
Qed.

Lemma drop_prefix_spec p s r : drop_prefix p s = Some r <-> s = p ++ r.
Proof.
  revert s; induction p as [|a p IH]; intros s; simpl.
  - split; [intros H; now injection H | now intros ->].
  - destruct s as [|b s]; [split; discriminate|].
    destruct (Ascii.eqb_spec a b) as [->|N].
    + rewrite IH. split; [now intros -> | intros H; now injection H].
    + split; [discriminate| intros H; injection H; congruence].
Qed.

Lemma drop_prefix_app p r : drop_prefix p (p ++ r) = Some r.
Proof. now apply drop_prefix_spec. Qed.

Lemma str_in_spec s l : str_in s l = true <-> In s l.
Proof.
  unfold str_in. rewrite existsb_exists. split.
  - intros [x [H E]]. apply String.eqb_eq in E. now subst.
  - intros H. exists s. split; [exact H| apply String.eqb_refl].
Qed.

Lemma str_in_false s l : str_in s l = false <-> ~ In s l.
Proof. rewrite <- str_in_spec. destruct (str_in s l); split; congruence. Qed.

Lemma in_class_spec cs x : in_class cs x = true <-> In x cs.
Proof.
  unfold in_class. rewrite existsb_exists. split.
  - intros [y [H E]]. apply Ascii.eqb_eq in E. now subst.
  - intros H. exists x. split; [exact H| apply Ascii.eqb_refl].
Qed.

(** decimal numerals *)
Lemma n_to_str_inv n : str_to_n (n_to_str n) = Some n.
Proof.
  unfold str_to_n, n_to_str. rewrite NilEmpty.usu.
  now rewrite DecimalN.Unsigned.of_to.
Qed.

Lemma string_of_uint_digits d : any_char (fun c => negb (is_digit c)) (NilEmpty.string_of_uint d) = false.
Proof. induction d as [|d IH|d IH|d IH|d IH|d IH|d IH|d IH|d IH|d IH|d IH]; simpl; try exact IH; reflexivity. Qed.

Lemma n_to_str_digits n : any_char (fun c => negb (is_digit c)) (n_to_str n) = false.
Proof. apply string_of_uint_digits. Qed.

Lemma n_to_str_nonempty n : exists c r, n_to_str n = String c r /\ is_digit c = true.
Proof.
  pose proof (n_to_str_digits n) as D.
  destruct (n_to_str n) as [|c r] eqn:E.
  - exfalso. unfold n_to_str in E.
    destruct (N.to_uint n) eqn:U; try discriminate.
    destruct n as [|p]; [discriminate|]. exact (DecimalPos.Unsigned.to_uint_nonnil p U).
  - exists c, r. split; [reflexivity|].
    simpl in D. apply orb_false_iff in D. destruct D as [D _]. now apply negb_false_iff in D.
Qed.

Lemma n_to_str_inj a b : n_to_str a = n_to_str b -> a = b.
Proof. intros H. apply (f_equal str_to_n) in H. rewrite !n_to_str_inv in H. now injection H. Qed.

Lemma any_char_false_has p c s : any_char p s = false -> p c = true -> has_char c s = false.
Proof.
  induction s as [|x s IH]; simpl; [reflexivity|]. intros H Hc.
  apply orb_false_iff in H. destruct H as [H1 H2].
  rewrite (IH H2 Hc), orb_false_r.
  destruct (Ascii.eqb_spec x c); [subst; congruence| reflexivity].
Qed.

Lemma string_list_eq_dec (a b : list string) : {a = b} + {a <> b}.
Proof. apply list_eq_dec, string_dec. Qed.
