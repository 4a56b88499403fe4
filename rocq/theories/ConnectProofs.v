From Verif Require Import PyStr Tls Url Connect ConnectSpec.
From Coq Require Import Lia.
Open Scope string_scope.
Open Scope list_scope.

Lemma upto_app c a r : has_char c a = false -> upto c (a ++ String c r)%string = (a, Some r).
Proof.
  induction a as [|x a IH]; cbn [append has_char upto]; [now rewrite Ascii.eqb_refl|]. rewrite Bool.orb_false_iff. intros [A B]. rewrite A, (IH B). reflexivity.
Qed.
Lemma upto_none c a : has_char c a = false -> upto c a = (a, None).
Proof. induction a as [|x a IH]; cbn [has_char upto]; [reflexivity|]. rewrite Bool.orb_false_iff. intros [A B]. now rewrite A, (IH B). Qed.
Definition entry (e : string * string) : string := (fst e ++ "=" ++ snd e)%string.
Definition entry_ok (e : string * string) : Prop := fst e <> "" /\ has_char "=" (fst e) = false /\ plain (snd e).
Lemma pairs_value n k v t : k <> "" -> has_char "=" k = false -> match v with String c _ => c <> "{"%char | "" => match t with String c _ => c <> "{"%char | "" => True end end ->
  pairs (S n) (k ++ "=" ++ v ++ t)%string = match upto ";" (v ++ t)%string with
    | (v, None) => Some [(k, v)]
    | (v, Some t) => match pairs n t with Some l => Some ((k, v) :: l) | None => None end end.
Proof.
  intros K E B. destruct k as [|c k]; [congruence|]. cbn [append pairs]. change (String c (k ++ String "=" (v ++ t))) with (String c k ++ String "=" (v ++ t))%string.
  rewrite (upto_app "=" (String c k) (v ++ t) E). destruct v as [|x v]; cbn [append].
  - destruct t as [|x t]; [reflexivity|]. destruct x as [[|] [|] [|] [|] [|] [|] [|] [|]]; try reflexivity. now destruct B.
  - destruct x as [[|] [|] [|] [|] [|] [|] [|] [|]]; try reflexivity. now destruct B.
Qed.
Lemma pairs_join l : forall n, List.length l <= n -> Forall entry_ok l -> pairs n (join_str ";" (map entry l)) = Some l.
Proof.
  induction l as [|[k v] l IH]; intros n L H; [now destruct n|]. destruct n as [|n]; [cbn in L; lia|]. inversion H as [|? ? (K & E & P1 & P2 & _) Hl]; subst. cbn [fst snd] in *.
  destruct l as [|e l].
  - cbn [map join_str]. unfold entry. cbn [fst snd]. rewrite <- (append_nil_r v) at 1. rewrite pairs_value by (auto; destruct v; auto; tauto). rewrite append_nil_r, upto_none by exact P1. reflexivity.
  - cbn [map join_str] in *. unfold entry at 1. cbn [fst snd]. rewrite !append_assoc.
    rewrite pairs_value by (first [assumption | destruct v; [discriminate|tauto]]). match goal with |- context[(";" ++ ?x)%string] => change (";" ++ x)%string with (String ";" x) end. rewrite upto_app by exact P1. rewrite IH by (cbn in *; lia || exact Hl). reflexivity.
Qed.
Lemma join_length l : List.length l <= String.length (join_str ";" (map entry l)).
Proof.
  induction l as [|e l IH]; [cbn; lia|]. assert (X : 1 <= String.length (entry e)) by (unfold entry; rewrite !append_length; cbn; lia).
  destruct l as [|f l]; [exact X|]. cbn [map join_str] in *. rewrite !append_length. cbn [List.length String.length] in *. lia.
Qed.
(** the entries after the first one *)
Definition values (l : list (string * option string)) : list (string * string) := flat_map (fun e => match snd e with Some v => [(fst e, v)] | None => [] end) l.
Definition server_value (p : params) : option string := match p_port p with Some n => Some (formatted (p_host p) ++ "," ++ n_to_str n)%string | None => p_host p end.
Definition rest (p : params) : list (string * option string) :=
  [("SERVER", server_value p); ("UID", p_user p); ("PWD", p_password p); ("LongAsMax", Some "yes"); ("TrustServerCertificate", Some "yes")]
  ++ match p_database p with Some d => [("DATABASE", Some d)] | None => [] end.
Lemma values_map l : flat_map (fun e : string * option string => match snd e with Some v => [(fst e ++ "=" ++ v)%string] | None => [] end) l = map entry (values l).
Proof. induction l as [|[k [v|]] l IH]; [reflexivity| |exact IH]. cbn [flat_map snd fst values app map]. fold (values l). now rewrite IH. Qed.
Definition DRIVER : string := "ODBC Driver 18 for SQL Server".
Lemma mssql_string_eq p : mssql_string p = ("DRIVER={" ++ DRIVER ++ "};" ++ join_str ";" (map entry (("APP", "pysqlsync") :: values (rest p))))%string.
Proof.
  unfold mssql_string. rewrite (values_map (mssql_entries p)). change (mssql_entries p) with (("DRIVER", Some ("{" ++ DRIVER ++ "}")%string) :: ("APP", Some "pysqlsync") :: rest p).
  change (values (("DRIVER", Some ("{" ++ DRIVER ++ "}")%string) :: ("APP", Some "pysqlsync") :: rest p)) with (("DRIVER", ("{" ++ DRIVER ++ "}")%string) :: ("APP", "pysqlsync") :: values (rest p)).
  generalize (values (rest p)) as l. intros l. cbn [map join_str]. reflexivity.
Qed.
Lemma pairs_driver n t : pairs (S n) ("DRIVER={" ++ DRIVER ++ "};" ++ t)%string = match pairs n t with Some l => Some (("DRIVER", DRIVER) :: l) | None => None end.
Proof. reflexivity. Qed.
Lemma values_ok l : Forall (fun e : string * option string => fst e <> "" /\ has_char "=" (fst e) = false /\ plain_opt (snd e)) l -> Forall entry_ok (values l).
Proof. induction 1 as [|[k [v|]] l (A & B & C) _ IH]; [constructor| |exact IH]. constructor; [|exact IH]. repeat split; try assumption; apply (C v eq_refl). Qed.
Lemma find_values k l : find (fun e => String.eqb (fst e) k) (values l) = match find (fun e => String.eqb (fst e) k && match snd e with Some _ => true | None => false end) l with Some (k', Some v) => Some (k', v) | _ => None end.
Proof. induction l as [|[k' [v|]] l IH]; cbn; [reflexivity| |]. - destruct (String.eqb k' k); [reflexivity|exact IH]. - now rewrite Bool.andb_false_r. Qed.
Lemma plain_literal s : has_char ";" s = false -> has_char " " s = false -> has_char "{" s = false -> plain s.
Proof.
  intros A B C. split; [exact A|]. split.
  - destruct s as [|c s]; [exact I|]. cbn in B, C. apply Bool.orb_false_iff in B as [B _], C as [C _]. now apply Ascii.eqb_neq in B, C.
  - intros a ->. rewrite has_char_app in B. cbn in B. now rewrite Bool.orb_true_r in B.
Qed.
Lemma digits_no n c : is_digit c = false -> has_char c (n_to_str n) = false.
Proof.
  intros D. pose proof (n_to_str_digits n) as X. induction (n_to_str n) as [|x s IH]; [reflexivity|]. cbn [any_char has_char] in *. apply Bool.orb_false_iff in X as [X1 X2].
  rewrite (IH X2), Bool.orb_false_r. destruct (Ascii.eqb_spec x c) as [->|]; [|reflexivity]. rewrite D in X1. discriminate X1.
Qed.
(** what the driver reads *)
Lemma reads p : Forall (fun e : string * option string => fst e <> "" /\ has_char "=" (fst e) = false /\ plain_opt (snd e)) (rest p) ->
  pairs (String.length (mssql_string p)) (mssql_string p) = Some (("DRIVER", DRIVER) :: ("APP", "pysqlsync") :: values (rest p)).
Proof.
  intros H. rewrite mssql_string_eq. set (l := ("APP", "pysqlsync") :: values (rest p)). set (t := join_str ";" (map entry l)).
  assert (R : pairs (String.length ("RIVER={" ++ DRIVER ++ "};" ++ t)) t = Some l).
  { apply pairs_join.
    - rewrite !append_length. pose proof (join_length l). fold t in H0. lia.
    - constructor; [|now apply values_ok]. repeat split; try discriminate. intros a X. assert (Y : has_char " " (a ++ " ") = true) by (rewrite has_char_app; apply Bool.orb_true_r). rewrite <- X in Y. discriminate Y. }
  clearbody t l.
  assert (X : String.length ("DRIVER={" ++ DRIVER ++ "};" ++ t) = S (String.length ("RIVER={" ++ DRIVER ++ "};" ++ t))) by reflexivity. rewrite X.
  rewrite pairs_driver. now rewrite R.
Qed.
