(** Proofs about the discovery of types. *)
From Verif Require Import PyStr QuoteSpec QuoteModel QuoteProofs ConstProofs Types Capacity Discover DiscoverSpec.
From Coq Require Import ZArith.
Open Scope Z_scope.
Open Scope string_scope.

Lemma digits_span s : digits s = span_digits s.
Proof. induction s as [|c s IH]; [reflexivity|]. cbn. now rewrite IH. Qed.
Lemma scan_str n rest : 0 <= n -> ~ digit_start rest -> exists m, scan_nat (z_to_str n ++ rest) = Some (m, rest) /\ Z.of_N m = n.
Proof.
  intros P D. exists (Z.to_N n). split; [|now apply Z2N.id]. destruct n as [|p|p]; [|now apply scan_nat_app|lia]. exact (scan_nat_app 0 rest D).
Qed.
Lemma re_num_str n rest : 0 <= n -> ~ digit_start rest -> re_num (z_to_str n ++ rest) = Some (n, rest).
Proof.
  intros P D. destruct (scan_str n rest P D) as (m & S & M). unfold scan_nat in S. unfold re_num. rewrite digits_span.
  destruct (span_digits (z_to_str n ++ rest)) as [[|c ds] r]; [discriminate S|]. destruct (str_to_n (String c ds)); [|discriminate S]. injection S as -> ->. now rewrite M.
Qed.
Lemma no_digit c r : is_digit c = false -> ~ digit_start (String c r).
Proof. intros H (c' & r' & E & D). injection E as <- <-. congruence. Qed.
Lemma re_close n rest : 0 <= n -> re_num (z_to_str n ++ String ")" rest) = Some (n, String ")" rest).
Proof. intros P. apply re_num_str; [exact P|]. now apply no_digit. Qed.
Lemma re_comma n rest : 0 <= n -> re_num (z_to_str n ++ String "," rest) = Some (n, String "," rest).
Proof. intros P. apply re_num_str; [exact P|]. now apply no_digit. Qed.

Lemma upto_app name r : any_char (fun c => Ascii.eqb c "(") name = false -> upto_paren (name ++ String "(" r) = (name, String "(" r).
Proof.
  induction name as [|c s IH]; [reflexivity|]. cbn [any_char]. intros H. apply Bool.orb_false_iff in H. destruct H as [H1 H2].
  change (String c s ++ String "(" r)%string with (String c (s ++ String "(" r)). cbn [upto_paren]. now rewrite H1, (IH H2).
Qed.
Lemma read_type_one name n suffix : any_char (fun c => Ascii.eqb c "(") name = false -> 0 <= n ->
  read_type (name ++ String "(" (z_to_str n ++ String ")" suffix)) = Some (name, [n], suffix).
Proof.
  intros N P. unfold read_type. rewrite (upto_app _ _ N). cbn [read_args].
  destruct (scan_str n (String ")" suffix) P) as (m & -> & M); [now apply no_digit|]. now rewrite M.
Qed.
Lemma read_type_two name n m suffix : any_char (fun c => Ascii.eqb c "(") name = false -> 0 <= n -> 0 <= m ->
  read_type (name ++ String "(" (z_to_str n ++ ", " ++ z_to_str m ++ String ")" suffix)) = Some (name, [n; m], suffix).
Proof.
  intros N P Q. unfold read_type. rewrite (upto_app _ _ N). cbn [read_args].
  destruct (scan_str n (", " ++ z_to_str m ++ String ")" suffix) P) as (x & X & M); [now apply no_digit|]. rewrite X.
  change (skip_blanks (" " ++ z_to_str m ++ String ")" suffix)) with (skip_blanks (z_to_str m ++ String ")" suffix)).
  assert (B : skip_blanks (z_to_str m ++ String ")" suffix) = z_to_str m ++ String ")" suffix).
  { destruct m as [|p|p]; [reflexivity| |lia]. cbn [z_to_str]. destruct (n_to_str_nonempty (N.pos p)) as (c & r & E & D). rewrite E.
    change (String c r ++ String ")" suffix) with (String c (r ++ String ")" suffix)). cbn [skip_blanks]. destruct c as [[] [] [] [] [] [] [] []]; try reflexivity. discriminate D. }
  cbn [append]. change ((" " ++ z_to_str m ++ String ")" suffix)) with (String " " (z_to_str m ++ String ")" suffix)) in *. cbn [skip_blanks]. rewrite B.
  destruct (scan_str m (String ")" suffix) Q) as (y & Y & M'); [now apply no_digit|]. rewrite Y. now rewrite M, M'.
Qed.
Lemma skip_num m rest : 0 <= m -> skip_spaces (z_to_str m ++ rest) = z_to_str m ++ rest.
Proof.
  intros P. destruct m as [|p|p]; [reflexivity| |lia]. cbn [z_to_str]. destruct (n_to_str_nonempty (N.pos p)) as (c & r & E & D). rewrite E.
  change (String c r ++ rest) with (String c (r ++ rest)). cbn [skip_spaces]. assert (S : space c = false); [|now rewrite S].
  destruct c as [[] [] [] [] [] [] [] []]; try reflexivity; discriminate D.
Qed.

(** ** Definitions as the servers spell them *)
Ltac by_regex H := match type of H with re_num ?x = _ => let t := fresh "t" in remember x as t eqn:T; clear T; cbv -[re_num skip_spaces]; rewrite H; reflexivity end.
Lemma def_char n : 0 <= n -> from_def (num1 "char" n) = Some (TFixChar (Some n)).
Proof. intros P. assert (H := re_close n "" P). unfold num1. by_regex H. Qed.
Lemma def_character n : 0 <= n -> from_def (num1 "character" n) = Some (TFixChar (Some n)).
Proof. intros P. assert (H := re_close n "" P). unfold num1. by_regex H. Qed.
Lemma def_varchar n : 0 <= n -> from_def (num1 "varchar" n) = Some (TVarChar (Some n)).
Proof. intros P. assert (H := re_close n "" P). unfold num1. by_regex H. Qed.
Lemma def_varying n : 0 <= n -> from_def (num1 "character varying" n) = Some (TVarChar (Some n)).
Proof. intros P. assert (H := re_close n "" P). unfold num1. by_regex H. Qed.
Lemma def_binary n : 0 <= n -> from_def (num1 "binary" n) = Some (TFixBin (Some n)).
Proof. intros P. assert (H := re_close n "" P). unfold num1. by_regex H. Qed.
Lemma def_varbinary n : 0 <= n -> from_def (num1 "varbinary" n) = Some (TVarBin (Some n)).
Proof. intros P. assert (H := re_close n "" P). unfold num1. by_regex H. Qed.
Lemma app1 a c r : (a ++ String c "") ++ r = a ++ String c r.
Proof. rewrite append_assoc. reflexivity. Qed.
Lemma def_timestamp n : 0 <= n -> from_def (num1 "timestamp" n ++ " without time zone") = Some (TTimestamp (Some n) false).
Proof.
  intros P. assert (H := re_close n " without time zone" P). unfold num1. rewrite !append_assoc.
  change (")" ++ " without time zone") with (String ")" " without time zone"). remember (z_to_str n ++ String ")" " without time zone") as t eqn:T; clear T. cbv -[re_num]. rewrite H. reflexivity.
Qed.
Lemma def_timestamp_tz n : 0 <= n -> from_def (num1 "timestamp" n ++ " with time zone") = Some (TTimestamp (Some n) true).
Proof.
  intros P. assert (H := re_close n " with time zone" P). unfold num1. rewrite !append_assoc.
  change (")" ++ " with time zone") with (String ")" " with time zone"). remember (z_to_str n ++ String ")" " with time zone") as t eqn:T; clear T. cbv -[re_num]. rewrite H. reflexivity.
Qed.
Lemma def_time n : 0 <= n -> from_def (num1 "time" n ++ " without time zone") = None.
Proof. intros _. unfold num1. rewrite !append_assoc. generalize (z_to_str n ++ ")" ++ " without time zone"). intros t. reflexivity. Qed.
Lemma def_time' n : from_def (num1 "time" n) = None.
Proof. reflexivity. Qed.
Lemma def_datetime n : from_def (num1 "datetime" n) = None.
Proof. reflexivity. Qed.
Lemma def_two kw n m : kw = "decimal" \/ kw = "numeric" -> 0 <= n -> 0 <= m -> from_def (num2 kw n m) = Some (TDecimal (Some n) (Some m)).
Proof.
  intros K P Q. assert (H := re_comma n (z_to_str m ++ ")") P). assert (H' := re_close m "" Q). assert (S := skip_num m ")" Q). unfold num2.
  change ("," ++ z_to_str m ++ ")") with (String "," (z_to_str m ++ ")")). remember (z_to_str n ++ String "," (z_to_str m ++ ")")) as t eqn:T; clear T.
  destruct K as [-> | ->]; unfold from_def, re_two.
  - change (re_words ["decimal"; "number"; "numeric"] ("decimal" ++ "(" ++ t)) with (Some t). cbn iota. rewrite H, S, H'. reflexivity.
  - change (re_words ["decimal"; "number"; "numeric"] ("numeric" ++ "(" ++ t)) with (Some t). cbn iota. rewrite H, S, H'. reflexivity.
Qed.

(** ** Enumerations *)
Definition plain_value (v : string) : bool := negb (any_char (fun c => Ascii.eqb c QT || Ascii.eqb c BS || Ascii.eqb c (ascii_of_nat 10))%bool v).
Lemma plain_double v : plain_value v = true -> double_apostrophes v = v.
Proof.
  unfold plain_value. rewrite Bool.negb_true_iff. induction v as [|c v IH]; [reflexivity|]. cbn [any_char double_apostrophes]. intros H.
  apply Bool.orb_false_iff in H. destruct H as [H1 H2]. apply Bool.orb_false_iff in H1. destruct H1 as [H1 _]. apply Bool.orb_false_iff in H1. destruct H1 as [-> _]. now rewrite (IH H2).
Qed.
Lemma re_value_plain v rest : plain_value v = true -> (rest = "" \/ exists r, rest = String "," r) ->
  re_value (v ++ String QT rest) = Some (v, match rest with String "," r => r | _ => "" end).
Proof.
  intros P R. unfold plain_value in P. apply Bool.negb_true_iff in P. induction v as [|c v IH].
  - destruct R as [-> |[r ->]]; reflexivity.
  - cbn [any_char] in P. apply Bool.orb_false_iff in P. destruct P as [P1 P2]. apply Bool.orb_false_iff in P1. destruct P1 as [P1 _]. apply Bool.orb_false_iff in P1. destruct P1 as [P1 _].
    change (String c v ++ String QT rest) with (String c (v ++ String QT rest)). cbn [re_value]. change "'"%char with QT. now rewrite P1, (IH P2).
Qed.
Definition values_text (vs : list string) : string := join_str "," (map show_value vs).
Lemma values_cons v w vs : values_text (v :: w :: vs) = show_value v ++ "," ++ values_text (w :: vs).
Proof. reflexivity. Qed.
Lemma show_plain v : plain_value v = true -> show_value v = String QT (v ++ String QT "").
Proof. intros P. unfold show_value. now rewrite plain_double. Qed.
Lemma findall_values vs : forall fuel, forallb plain_value vs = true -> (String.length (values_text vs) <= fuel)%nat -> re_findall fuel (values_text vs) = vs.
Proof.
  induction vs as [|v vs IH]; intros fuel P L.
  - destruct fuel; reflexivity.
  - cbn [forallb] in P. apply Bool.andb_true_iff in P. destruct P as [P1 P2].
    destruct vs as [|w vs].
    + unfold values_text in *. cbn [map join_str] in *. rewrite (show_plain v P1) in *. destruct fuel as [|k]; [cbn in L; lia|]. cbn [re_findall]. change (Ascii.eqb QT "'") with true. cbn iota.
      rewrite (re_value_plain v "" P1) by now left. f_equal. destruct k; reflexivity.
    + rewrite values_cons in *. rewrite (show_plain v P1) in *. revert L. rewrite append_length. cbn [String.length]. rewrite !append_length. intros L.
      change (String QT (v ++ String QT "") ++ "," ++ values_text (w :: vs)) with (String QT ((v ++ String QT "") ++ String "," (values_text (w :: vs)))). rewrite append_assoc.
      change (String QT "" ++ String "," (values_text (w :: vs))) with (String QT (String "," (values_text (w :: vs)))).
      destruct fuel as [|k]; [lia|]. cbn [re_findall]. change (Ascii.eqb QT "'") with true. cbn iota.
      rewrite (re_value_plain v (String "," (values_text (w :: vs))) P1) by (right; eauto). f_equal. apply IH; [exact P2|]. cbn [String.length] in L. lia.
Qed.
Lemma but_last_app a c : but_last (a ++ String c "") = Some (a, c).
Proof. induction a as [|d a IH]; [reflexivity|]. change (String d a ++ String c "") with (String d (a ++ String c "")). cbn [but_last]. now rewrite IH. Qed.
Lemma plain_no_newline v : plain_value v = true -> any_char (Ascii.eqb (ascii_of_nat 10)) v = false.
Proof.
  unfold plain_value. rewrite Bool.negb_true_iff. induction v as [|c v IH]; [reflexivity|]. cbn [any_char]. intros H.
  apply Bool.orb_false_iff in H. destruct H as [H1 H2]. apply Bool.orb_false_iff in H1. destruct H1 as [_ H1]. rewrite Ascii.eqb_sym in H1. rewrite (IH H2), Bool.orb_false_r. exact H1.
Qed.
Lemma values_no_newline vs : forallb plain_value vs = true -> any_char (Ascii.eqb (ascii_of_nat 10)) (values_text vs) = false.
Proof.
  induction vs as [|v vs IH]; [reflexivity|]. cbn [forallb]. intros P. apply Bool.andb_true_iff in P. destruct P as [P1 P2]. specialize (IH P2).
  assert (V : any_char (Ascii.eqb (ascii_of_nat 10)) (show_value v) = false).
  { rewrite (show_plain v P1). cbn [any_char]. rewrite any_char_app, (plain_no_newline v P1). reflexivity. }
  destruct vs as [|w vs]; [exact V|]. rewrite values_cons, !any_char_app, V, IH. reflexivity.
Qed.
Lemma def_enum vs : vs <> [] -> forallb plain_value vs = true -> from_def ("enum(" ++ values_text vs ++ ")") = Some (TEnum vs).
Proof.
  intros N P. assert (R : re_enum ("enum(" ++ values_text vs ++ ")") = Some (values_text vs)).
  { unfold re_enum. change (re_words ["enum"] ("enum(" ++ values_text vs ++ ")")) with (Some (values_text vs ++ ")")). cbn iota. rewrite but_last_app.
    rewrite (values_no_newline vs P), Bool.orb_false_r. destruct (values_text vs =? "") eqn:E; [|reflexivity]. apply String.eqb_eq in E. destruct vs as [|v [|w vs]]; [congruence| |]; discriminate E. }
  unfold from_def. change (re_two ["decimal"; "number"; "numeric"] ("enum(" ++ values_text vs ++ ")")) with (@None (Z * Z)).
  change (re_timestamp ("enum(" ++ values_text vs ++ ")")) with (@None (Z * option string)).
  change (re_one ["char"; "character"] ("enum(" ++ values_text vs ++ ")")) with (@None Z). change (re_one ["varchar"; "character varying"] ("enum(" ++ values_text vs ++ ")")) with (@None Z).
  change (re_one ["binary"] ("enum(" ++ values_text vs ++ ")")) with (@None Z). change (re_one ["varbinary"; "binary varying"] ("enum(" ++ values_text vs ++ ")")) with (@None Z).
  rewrite R. now rewrite findall_values.
Qed.
Lemma plain_no_bs v : plain_value v = true -> has_char BS v = false.
Proof.
  unfold plain_value, has_char. rewrite Bool.negb_true_iff. induction v as [|c v IH]; [reflexivity|]. cbn [any_char]. intros H.
  apply Bool.orb_false_iff in H. destruct H as [H1 H2]. apply Bool.orb_false_iff in H1. destruct H1 as [H1 _]. apply Bool.orb_false_iff in H1. destruct H1 as [_ H1]. rewrite (IH H2), Bool.orb_false_r. rewrite ?(Ascii.eqb_sym BS c). exact H1.
Qed.
Lemma read_values_ok vs : forall fuel, vs <> [] -> forallb plain_value vs = true -> (String.length (join_str ", " (map quote vs) ++ ")") <= fuel)%nat ->
  read_values fuel (join_str ", " (map quote vs) ++ ")") = Some vs.
Proof.
  induction vs as [|v vs IH]; intros fuel N P L; [congruence|]. clear N.
  cbn [forallb] in P. apply Bool.andb_true_iff in P. destruct P as [P1 P2].
  destruct vs as [|w vs].
  - cbn [map join_str] in *. destruct fuel as [|k]; [rewrite append_length in L; cbn in L; lia|]. cbn [read_values]. rewrite (mysql_quote_plain v ")" (plain_no_bs v P1)); [reflexivity|]. now apply not_begins_other.
  - change (join_str ", " (map quote (v :: w :: vs))) with (quote v ++ ", " ++ join_str ", " (map quote (w :: vs))) in *. rewrite !append_assoc in *. rewrite append_length in L.
    change (", " ++ join_str ", " (map quote (w :: vs)) ++ ")") with (String "," (String " " (join_str ", " (map quote (w :: vs)) ++ ")"))) in *.
    destruct fuel as [|k]; [cbn [String.length] in L; lia|]. cbn [read_values]. rewrite (mysql_quote_plain v _ (plain_no_bs v P1)); [|now apply not_begins_other].
    cbn [skip_blanks]. assert (B : forall r, skip_blanks (join_str ", " (map quote (w :: vs)) ++ r) = join_str ", " (map quote (w :: vs)) ++ r) by (intros r; destruct vs; reflexivity).
    rewrite B. cbn [String.length] in L. rewrite IH; [reflexivity|discriminate|exact P2|lia].
Qed.
