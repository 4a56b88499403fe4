(** Proofs about the PostgreSQL explorer: defaults that are points in time; has_table, has_column. *)
From Verif Require Import PyStr QuoteModel QuoteSpec QuoteProofs ObjectDict Types Objects SqlAst Ddl DbSpec CatSpec PgExplore PgCatSpec PgProofs1 PgProofs2 ExploreSpec.
From Verif Require Factory.
Lemma bind_inv {A B} (x : res A) (f : A -> res B) y : bind x f = Ok y -> exists a, x = Ok a /\ f a = Ok y.
Proof. destruct x as [a|e]; [exists a; auto|discriminate]. Qed.
From Coq Require Import List String Ascii NArith Lia.
From stdpp Require Import gmap strings.
Import ListNotations.
Open Scope list_scope.

Fixpoint below (k : nat) (f : N -> bool) : bool := match k with O => true | S k' => f (N.of_nat k') && below k' f end.
Lemma below_spec k f : below k f = true -> forall n, (n < N.of_nat k)%N -> f n = true.
Proof.
  induction k as [|k IH]; intros H n L; [lia|]. cbn [below] in H. apply andb_true_iff in H as [H1 H2]. destruct (N.eq_dec n (N.of_nat k)) as [->|D]; [exact H1|]. apply IH; [exact H2|lia].
Qed.
Definition digits_ok (s : string) : bool := all_digits s.
Lemma two_ok n : (n < 100)%N -> str_to_n (two n) = Some n /\ all_digits (two n) = true.
Proof.
  intros L. assert (B : below 100 (fun n => match str_to_n (two n) with Some m => N.eqb m n | None => false end && all_digits (two n)) = true) by (vm_compute; reflexivity).
  pose proof (below_spec _ _ B n L) as H. apply andb_true_iff in H as [H1 H2]. split; [|exact H2]. destruct (str_to_n (two n)); [|discriminate]. apply N.eqb_eq in H1. now subst.
Qed.
Lemma four_ok n : (n < 10000)%N -> str_to_n (four n) = Some n /\ all_digits (four n) = true.
Proof.
  intros L. assert (B : below (100 * 100) (fun n => match str_to_n (four n) with Some m => N.eqb m n | None => false end && all_digits (four n)) = true) by (vm_compute; reflexivity).
  pose proof (below_spec _ _ B n L) as H. apply andb_true_iff in H as [H1 H2]. split; [|exact H2]. destruct (str_to_n (four n)); [|discriminate]. apply N.eqb_eq in H1. now subst.
Qed.
Lemma days_ok y m d : in_calendar y m d -> (d <= days_in_month y m)%N.
Proof.
  intros ((Y & M & Dm) & H). assert (C : (m = 1 \/ m = 2 \/ m = 3 \/ m = 4 \/ m = 5 \/ m = 6 \/ m = 7 \/ m = 8 \/ m = 9 \/ m = 10 \/ m = 11 \/ m = 12)%N) by lia.
  destruct H as [H|(-> & -> & Lp)].
  - repeat destruct C as [->|C]; try subst m; match type of H with (d <= ?x)%N => let v := eval vm_compute in x in change x with v in H end;
      first [ match goal with |- (d <= ?x)%N => let v := eval vm_compute in x in change x with v; exact H end
            | unfold days_in_month; cbn [existsb N.eqb Pos.eqb orb]; destruct (N.eqb (y mod 4) 0 && _)%bool; lia ].
  - unfold days_in_month. cbn [existsb N.eqb Pos.eqb orb].
    assert (E : (N.eqb (y mod 4) 0 && (negb (N.eqb (y mod 100) 0) || N.eqb (y mod 400) 0))%bool = true); [|rewrite E; lia].
    destruct Lp as [[L1 L2]|L]; apply andb_true_iff; rewrite orb_true_iff, negb_true_iff, !N.eqb_eq, N.eqb_neq; [auto|].
    split; [|now right]. apply N.mod_divide in L; [|lia]. apply N.mod_divide; [lia|]. destruct L as [k ->]. exists (k * 100)%N. lia.
Qed.
Lemma stamp_parts y m d h mi s : let v := stamp y m d h mi s in
  substring 0 4 v = four y /\ substring 5 2 v = two m /\ substring 8 2 v = two d /\ substring 11 2 v = two h /\ substring 14 2 v = two mi /\ substring 17 2 v = two s.
Proof. cbv -[Ascii.ascii_of_N N.modulo N.div N.add]. repeat split. Qed.
Lemma stamp_default y m d h mi s : in_calendar y m d -> in_day h mi s ->
  to_default_expr (Some (quote (stamp y m d h mi s) ++ "::timestamp without time zone")%string) = Ok (Some (quote (stamp y m d h mi s))).
Proof.
  intros C Dy. pose proof (days_ok y m d C) as L. destruct C as ((Y & M & Dm) & _). destruct Dy as (H & Mi & Sc).
  destruct (stamp_parts y m d h mi s) as (P1 & P2 & P3 & P4 & P5 & P6).
  assert (Dl : (d <= 31)%N). { unfold days_in_month in L. destruct (existsb _ _); [lia|]. destruct (N.eqb m 2); [|lia]. destruct (_ && _)%bool; lia. }
  destruct (four_ok y) as [Y1 Y2]; [lia|]. destruct (two_ok m) as [M1 M2]; [lia|]. destruct (two_ok d) as [D1 D2]; [lia|]. destruct (two_ok h) as [H1 H2]; [lia|]. destruct (two_ok mi) as [I1 I2]; [lia|]. destruct (two_ok s) as [S1 S2]; [lia|].
  assert (T : timestamp_text (quote (stamp y m d h mi s) ++ "::timestamp without time zone") = Some (stamp y m d h mi s)).
  { unfold timestamp_text. rewrite quote_scan by (intros [r Z]; discriminate Z). rewrite P1, P2, P3, P4, P5, P6, Y2, M2, D2, H2, I2, S2. reflexivity. }
  unfold to_default_expr. rewrite T. assert (V : valid_timestamp (stamp y m d h mi s) = true); [|now rewrite V].
  unfold valid_timestamp, field. rewrite P1, P2, P3, P4, P5, P6, Y1, M1, D1, H1, I1, S1. rewrite !andb_true_iff, !N.leb_le, !N.ltb_lt. lia.
Qed.

Section Has.
  Context (show : option string -> string -> string) (deparse : sqltype -> string -> string) (P : pgcat) (D : db).
  Hypothesis K : keys_ok P.
  Hypothesis TO : tells_of show deparse P D.
  Context (s n : string).
  Hypothesis Sch : s ∈ db_schemas D.
  Notation q := (Qualified (Some s) n).
  Lemma has_table_spec : has_table P q = true <-> exists tb, db_objs D !! (s, n) = Some (OTable tb).
  Proof.
    unfold has_table. rewrite negb_true_iff, Nat.eqb_neq. split.
    - intros H. destruct (q_has_table P q) as [|u r] eqn:E; [destruct H; reflexivity|]. assert (I : In u (q_has_table P q)) by (rewrite E; now left). clear H E r.
      unfold q_has_table in I. apply in_flat_map in I as (c & Ic & I). apply in_flat_map in I as (m & Im & I). destruct (N.eqb_spec (relnamespace c) (nsp_oid m)) as [En|En]; [|destruct I].
      destruct (where_table q c m) eqn:Wt; [|destruct I]. unfold where_table in Wt. rewrite where_is in Wt. apply andb_true_iff in Wt as [Wt Wk]. apply andb_true_iff in Wt as [W1 W2]. apply String.eqb_eq in W1, W2.
      assert (Sc : schema_of P (relnamespace c) s) by (rewrite En; destruct m as [o z]; cbn in *; subst z; exact Im).
      cbn [existsb] in Wk. rewrite !orb_true_iff in Wk. destruct Wk as [Wk|[Wk|Wk]]; [| |discriminate]; apply String.eqb_eq in Wk.
      + apply (to_tables _ _ _ _ TO (s, n) c Sch). repeat split; auto.
      + exfalso. apply (to_views _ _ _ _ TO (s, n) c Sch). repeat split; auto.
    - intros (tb & H). destruct (to_objs _ _ _ _ TO _ _ H Sch) as (c & R & _). destruct (R) as (Ic & En & Ek & Sc). cbn in En, Sc.
      assert (I : In tt (q_has_table P q)). { unfold q_has_table. apply in_flat_map. exists c. split; [exact Ic|]. rewrite (join_oid nsp_oid _ _ _ (Nsp (relnamespace c) s) (ko_nsp _ K) Sc eq_refl). unfold where_table. rewrite (where_true P s n _ "r" c R) by (cbn; auto). now left. }
      destruct (q_has_table P q); [destruct I|discriminate].
  Qed.
  (** the names of system columns and of dropped columns are not names of columns *)
  Definition ordinary (k : string) : Prop := forall a, In a (pg_attribute P) -> attname a = k -> (0 < attnum a)%Z /\ atttypid a <> 0%N.
  Lemma has_column_spec tb k : db_objs D !! (s, n) = Some (OTable tb) -> ordinary k -> has_column P q k = true <-> is_Some (dt_cols tb !! k).
  Proof.
    intros H Or. destruct (to_objs _ _ _ _ TO _ _ H Sch) as (c & R & T). unfold has_column. rewrite negb_true_iff, Nat.eqb_neq. split.
    - intros L. destruct (q_has_column P q k) as [|u r] eqn:E; [destruct L; reflexivity|]. assert (I : In u (q_has_column P q k)) by (rewrite E; now left). clear L E r.
      unfold q_has_column in I. apply in_flat_map in I as (a & Ia & I). apply in_flat_map in I as (c' & Ic & I). destruct (N.eqb_spec (attrelid a) (cls_oid c')) as [Ea|Ea]; [|destruct I].
      apply in_flat_map in I as (m & Im & I). destruct (N.eqb (relnamespace c') (nsp_oid m)) eqn:En; [|destruct I].
      destruct (where_table q c' m && is_literal (attname a) (quote k))%bool eqn:Wt; [|destruct I]. apply andb_true_iff in Wt as [Wt Wk]. rewrite is_literal_quote in Wk. apply String.eqb_eq in Wk.
      pose proof (where_only P K s n _ "r" c c' m R Ic Im En Wt) as ->. destruct (Or a Ia Wk) as [O1 O2]. rewrite <- Wk. apply (tr_live _ _ _ _ _ T a). repeat split; auto.
    - intros [x X]. destruct (tr_cols _ _ _ _ _ T k x X) as (a & (Ia & La & _) & Ea & _). destruct (R) as (Ic & En & Ek & Sc). cbn in En, Sc.
      assert (I : In tt (q_has_column P q k)). { unfold q_has_column. apply in_flat_map. exists a. split; [exact Ia|]. rewrite (join_oid cls_oid _ _ _ c (ko_cls _ K) Ic (eq_sym La)). rewrite (join_oid nsp_oid _ _ _ (Nsp (relnamespace c) s) (ko_nsp _ K) Sc eq_refl). unfold where_table. rewrite (where_true P s n _ "r" c R) by (cbn; auto). rewrite is_literal_quote, Ea, String.eqb_refl. now left. }
      destruct (q_has_column P q k); [destruct I|discriminate].
  Qed.
End Has.

(** ** Constraints of a kind that the explorer does not read *)
Lemma od_set_in {A} (key : A -> string) y : forall l x, In x (od_set key y l) -> x = y \/ In x l.
Proof.
  induction l as [|z l IH]; intros x I; [destruct I as [<-|[]]; now left|]. cbn in I. destruct (String.eqb (key z) (key y)); destruct I as [<-|I]; auto.
  - right. now right.
  - right. now left.
  - destruct (IH x I); [now left|right; now right].
Qed.
Lemma od_make_in {A} (key : A -> string) l x : In x (od_make key l) -> In x l.
Proof.
  unfold od_make. enough (G : forall d, In x (fold_left (fun d y => od_set key y d) l d) -> In x d \/ In x l) by (intros I; destruct (G [] I) as [[]|]; auto).
  induction l as [|y l IH]; intros d I; [now left|]. cbn in I. destruct (IH _ I) as [J|J]; [|right; now right]. apply od_set_in in J as [->|J]; [right; now left|now left].
Qed.
Definition by_rows (k : constr) : Prop := match k with CUnique _ _ | CForeign _ _ _ _ => True | _ => False end.
Lemma table_constraints P order q t : get_table P order q = Ok t -> forall k, In k (t_constraints t) -> by_rows k.
Proof.
  unfold get_table. destruct (order _ _ (q_table P q)); [discriminate|]. intros H. apply bind_inv in H as (cs & _ & H). apply bind_inv in H as (fks & F & H). injection H as <-. cbn. intros k I. apply od_make_in in I. apply in_app_iff in I as [I|I].
  - unfold Factory.uf_run, Factory.uf_fetch in I. apply in_map_iff in I as (e & <- & _). exact Logic.I.
  - unfold Factory.ff_run in F. apply bind_inv in F as (m & _ & F). injection F as <-. unfold Factory.ff_fetch in I. destruct m; [destruct I|]. apply in_map_iff in I as (e & <- & _). exact Logic.I.
Qed.
