(** C63: rows copied to Redshift arrive as they were. *)
From Verif Require Import PyStr QuoteSpec Copy CopySpec CopyProofs.
From Coq Require Import List ZArith.
Open Scope string_scope.

(** Records of integers, truth values, dates, times of day, points of time and text without line feeds, vertical bars, or \N alone, arrive as they were: as many rows,
    in order, with the values in their columns. *)
Theorem C63_rows_arrive_partial rs : Forall (fun r => r <> [] /\ Forall copyable r) rs ->
  exists rows, copied (copy_stream rs) rows /\ Forall2 (Forall2 arrives) rs rows.
Proof. exact (rows_arrive rs). Qed.
Print Assumptions C63_rows_arrive_partial.

(** what arrives is determined by the stream *)
Theorem C63_read_one_way s r1 r2 : copied s r1 -> copied s r2 -> r1 = r2.
Proof. intros H1 H2. exact (copied_unique s r1 H1 r2 H2). Qed.
Print Assumptions C63_read_one_way.

(** It does not matter how the records are divided into batches, each of which is copied by itself; whatever the records are. *)
Theorem C63_batches bs rows : Forall2 copied (copy_batches bs) rows -> copied (copy_stream (concat bs)) (concat rows).
Proof.
  revert rows. induction bs as [|b bs IH]; intros rows H; inversion H as [|? r ? rows' H1 H2]; subst; cbn [concat].
  - exists []. split; [constructor|constructor].
  - apply copied_app; [exact H1|now apply IH].
Qed.
Print Assumptions C63_batches.

(** ** What does not arrive (findings)

    A stream never has NULL in it for a value that is None: ... *)
Definition lost (rs : list (list copyval)) : Prop := exists rows, copied (copy_stream rs) rows /\ ~ Forall2 (Forall2 arrives) rs rows.
Theorem C63_null_refuted rs r v : Forall (fun r => r <> [] /\ Forall (fun v => copyable v \/ v = VNone) r) rs -> In r rs -> In v r -> v = VNone -> lost rs.
Proof.
  intros H Ir Iv ->. exists (map (map (fun v => cell (py_str v))) rs). split.
  - apply records_copied. eapply Forall_impl; [|exact H]. intros r' [N F]. split; [exact N|]. eapply Forall_impl; [|exact F].
    intros v [C| ->]; [exact (proj1 (copyable_text v C))|]. split; reflexivity.
  - intros F. clear H. induction rs as [|r' rs IH]; [destruct Ir|]. inversion F as [|? ? ? ? F1 F2]; subst. destruct Ir as [<-|Ir]; [|auto].
    clear - Iv F1. induction r' as [|w r' IH]; [destruct Iv|]. inversion F1 as [|? ? ? ? G1 G2]; subst. destruct Iv as [->|Iv]; [exact G1|auto].
Qed.
Print Assumptions C63_null_refuted.
(** ... binary data (UUIDs, IP addresses) is written as a Python literal, ... *)
Theorem C63_bytes_refuted s : ~ arrives (VBytes s) (cell (py_str (VBytes s))).
Proof.
  cbn [py_str]. set (q := if has_char QT s && negb (has_char DQ s) then DQ else QT). unfold cell. destruct (String.eqb_spec ("b" ++ String q (repr_bytes q s ++ String q "")) "\N"); [discriminate|].
  cbn [arrives append]. destruct s as [|c s]; cbn [hex_means]; [intros []|]. intros [(x & y & _ & Y & _) _]. subst q. destruct (has_char QT _ && negb _); discriminate Y.
Qed.
Print Assumptions C63_bytes_refuted.
(** ... and text with a vertical bar or a line feed becomes several columns or rows; the text \N becomes NULL. *)
Theorem C63_text_refuted : lost [[VStr "a|b"]] /\ lost [[VStr ("a" ++ NL ++ "b")]] /\ lost [[VStr "\N"]].
Proof.
  split; [|split].
  - exists [[Some "a"; Some "b"]]. split.
    + exists ["a|b"]. split; [apply (ln_line "a|b" ""); [reflexivity|constructor]|]. constructor; [|constructor]. exists ["a"; "b"]. split; [|reflexivity].
      apply (cl_next "a" "b"); [reflexivity|]. constructor. reflexivity.
    + intros F. inversion F as [|? ? ? ? F1 F2]; subst. inversion F1 as [|? ? ? ? _ G]; subst. inversion G.
  - exists [[Some "a"]; [Some "b"]]. split.
    + exists ["a"; "b"]. split; [apply (ln_line "a" ("b" ++ NL)); [reflexivity|]; apply (ln_line "b" ""); [reflexivity|constructor]|].
      constructor; [exists ["a"]; split; [constructor; reflexivity|reflexivity]|]. constructor; [exists ["b"]; split; [constructor; reflexivity|reflexivity]|constructor].
    + intros F. inversion F as [|? ? ? ? F1 F2]; subst. inversion F2.
  - exists [[None]]. split.
    + exists ["\N"]. split; [apply (ln_line "\N" ""); [reflexivity|constructor]|]. constructor; [|constructor]. exists ["\N"]. split; [constructor; reflexivity|reflexivity].
    + intros F. inversion F as [|? ? ? ? F1 F2]; subst. inversion F1 as [|? ? ? ? G1 G2]; subst. exact G1.
Qed.
Print Assumptions C63_text_refuted.

(** ** Examples *)
Definition ex_records : list (list copyval) := [[VInt 1; VStr "O'Neil \x"; VBool true; VDate 2024 2 29]; [VInt (-23); VStr ""; VBool false; VStamp 1999 12 31 23 59 59 700]; [VTime 8 5 0 0]].
Example C63_example_copyable : Forall (fun r => r <> [] /\ Forall copyable r) ex_records.
Proof. repeat (constructor; [split; [discriminate|repeat (constructor; [cbn; try exact Logic.I; repeat split; discriminate|]); constructor]|]). constructor. Qed.
Example C63_example_stream : copy_stream ex_records = "1|O'Neil \x|True|2024-02-29" ++ NL ++ "-23||False|1999-12-31 23:59:59.000700" ++ NL ++ "08:05:00" ++ NL.
Proof. reflexivity. Qed.
Example C63_example_uuid : py_str (VBytes (String (ascii_of_nat 18) (String (ascii_of_nat 171) "A"))) = "b'\x12\xabA'".
Proof. reflexivity. Qed.
Example C63_example_batches : copy_batches [[[VInt 1]]; [[VInt 2]; [VInt 3]]] = ["1" ++ NL; "2" ++ NL ++ "3" ++ NL].
Proof. reflexivity. Qed.
