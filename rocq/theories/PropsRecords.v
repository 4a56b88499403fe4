(** C27, C28: records that reach the database. *)
From Verif Require Import PyStr QuoteModel ObjectDict ObjectDictProofs Types Objects SqlAst Ddl Render Dml RowSpec DmlSpec TablePredProofs
  DmlProofs Records RecordsSpec RecordsProofs RecordsProofs2 RecordsProofs3 RecordsProofs4 ExCat.
From Coq Require Import Lia Arith.
Open Scope string_scope.
Open Scope list_scope.

Definition well_formed_rows (types : list ftype) (names : list string) (bs : list (list record)) : Prop :=
  length names = length types /\ skipped_unnamed types names /\ forall b r, In b bs -> In r b -> length r = length types.

(** ** C27 *)
(** Every row yields one record, in order; value i of the record is what becomes of the i-th named field: NULL stays
    NULL, a label becomes the key that the lookup table (finally) has for it, other values go through the
    transformation of their column.  Lookup tables only grow. *)
Theorem C27_records_aligned : forall d state vt set_order fill t types names bs S S' outs,
  sound_tables state -> cat_get_table state (t_name t) = Ok t -> well_formed_rows types names bs ->
  bound_records d state vt set_order fill t types (Some names) S bs = Ok (S', outs) ->
  Forall2 (Forall2 (fun r out => Forall2 (converted state vt S' t) (named_fields names types r) out)) bs outs /\
  forall q, exists new, S' q = S q ++ new.
Proof.
  intros d state vt set_order fill t types names bs S S' outs Hs Ht (LN & SK & W) H. unfold bound_records in H.
  destruct (generate_records state vt t types (Some names)) as [src|] eqn:G; cbn [bind] in H; [|discriminate].
  destruct (batches_converted d state vt set_order fill Hs t Ht types names LN SK src G bs S S' outs W H) as [A B]. split; [exact B|exact A].
Qed.
Print Assumptions C27_records_aligned.
(** The statement lists the named columns in the same order, so every inserted row has, in the column of each named
    field, what becomes of the field. *)
Lemma named_names names : forall types (r : record), length names = length types -> length r = length types ->
  map (fun f => fst (fst f)) (named_fields names types r) = listed names.
Proof.
  unfold named_fields, listed. induction names as [|n names IH]; intros [|ty types] [|x r] L R; try discriminate; [reflexivity|].
  injection L as L. injection R as R. cbn [combine filter fst]. destruct (String.eqb n ""); cbn [negb map fst]; [|f_equal]; apply IH; assumption.
Qed.
Lemma param_aligned (R : string * ftype * field -> field -> Prop) l out n ty f : NoDup (map (fun f => fst (fst f)) l) -> Forall2 R l out -> In (n, ty, f) l ->
  exists y, param (map (fun f => fst (fst f)) l) out n = Some y /\ R (n, ty, f) y.
Proof.
  intros ND F. induction F as [|a b l out Rab F IH]; intros []; cbn [map param].
  - subst a. cbn. rewrite String.eqb_refl. eauto.
  - inversion ND as [|? ? NI ND']; subst. destruct IH as (y & E & Ry); [assumption..|].
    destruct (String.eqb_spec (fst (fst a)) n) as [En|_]; [|eauto]. exfalso. apply NI. rewrite En. apply (in_map (fun f => fst (fst f))) in H. exact H.
Qed.
Lemma rows_hold state vt S' t types names bs outs q uniq f : length names = length types -> (forall b r, In b bs -> In r b -> length r = length types) -> NoDup (listed names) ->
  Forall2 (Forall2 (fun r out => Forall2 (converted state vt S' t) (named_fields names types r) out)) bs outs ->
  forall rows rows', exec_many pv_eqb uniq f (QInsert q (listed names)) rows (concat outs) = Ok rows' ->
  exists new, rows' = rows ++ new /\
    Forall2 (fun r row => forall x, In x (named_fields names types r) -> converted state vt S' t x (row (fst (fst x)))) (concat bs) new.
Proof.
  intros LN W ND F rows rows' HX.
  assert (F' : Forall2 (fun r out => length r = length types /\ Forall2 (converted state vt S' t) (named_fields names types r) out) (concat bs) (concat outs)).
  { clear HX. induction F as [|b o bs outs Fb F IH]; [constructor|]. cbn [concat]. apply Forall2_app; [|apply IH; intros b0 r I; apply W; now right].
    assert (Wb : forall r, In r b -> length r = length types) by (intros r; apply W; now left). clear - Fb Wb. induction Fb; constructor; [split; [apply Wb; now left|assumption]|apply IHFb; intros; apply Wb; now right]. }
  clear F W. revert rows HX. induction F' as [|r out rs os [LR Fr] F IH]; intros rows HX.
  - injection HX as <-. exists []. split; [now rewrite app_nil_r|constructor].
  - cbn [exec_many] in HX. destruct (exec_dml pv_eqb uniq f (QInsert q (listed names)) rows out) as [rows1|] eqn:E; cbn [bind] in HX; [|discriminate].
    cbn [exec_dml] in E. destruct (negb _) ; [discriminate|]. unfold insert_row in E. destruct (existsb _ rows); [discriminate|].
    assert (E1 : rows1 = rows ++ [proposed f rows (listed names) out]) by congruence. subst rows1. clear E.
    destruct (IH _ HX) as (new & -> & FN). exists (proposed f rows (listed names) out :: new). split; [now rewrite <- app_assoc|]. constructor; [|exact FN].
    intros [[n ty] x] I. cbn [fst]. pose proof (named_names names types r LN LR) as EN.
    destruct (param_aligned _ _ _ _ _ _ ltac:(rewrite EN; exact ND) Fr I) as (y & PY & C). rewrite EN in PY. unfold proposed. rewrite PY. exact C.
Qed.
Theorem C27_inserted_rows : forall d state vt set_order fill t types names bs S S' outs s uniq f rows rows',
  sound_tables state -> cat_get_table state (t_name t) = Ok t -> well_formed_rows types names bs -> names <> [] ->
  NoDup (listed names) -> (forall c, In c (t_columns t) -> In (c_name c) (listed names) -> c_identity c = false) ->
  bound_records d state vt set_order fill t types (Some names) S bs = Ok (S', outs) ->
  insert_stmt t (statement_order (Some names)) = Ok s ->
  exec_many pv_eqb uniq f s rows (concat outs) = Ok rows' ->
  exists new, rows' = rows ++ new /\
    Forall2 (fun r row => forall x, In x (named_fields names types r) -> converted state vt S' t x (row (fst (fst x)))) (concat bs) new.
Proof.
  intros d state vt set_order fill t types names bs S S' outs s uniq f rows rows' Hs Ht WF NE ND NI H HI HX.
  destruct (C27_records_aligned _ _ _ _ _ _ _ _ _ _ _ _ Hs Ht WF H) as [F _]. destruct WF as (LN & SK & W).
  destruct (cat_get_in _ _ _ Ht) as (n0 & I0 & J0 & _). destruct (Hs _ _ I0 J0) as (NDC & _).
  destruct (insert_stmt_ok _ _ _ HI) as (cs & EC & ->).
  assert (SO : statement_order (Some names) = Some (listed names)) by (destruct names; [contradiction|reflexivity]). rewrite SO in EC.
  apply get_columns_named in EC; [|exact NDC]. destruct EC as [EN EI].
  assert (EP : Dml.names (not_identity cs) = listed names).
  { rewrite <- EN. unfold Dml.names, not_identity. f_equal. assert (A : forall c, In c cs -> c_identity c = false).
    { intros c I. apply NI; [exact (EI c I)|]. rewrite <- EN. apply in_map. exact I. }
    clear - A. induction cs as [|c cs IH]; [reflexivity|]. cbn [filter]. rewrite (A c (or_introl eq_refl)). cbn [negb]. f_equal. apply IH. intros; apply A; now right. }
  rewrite EP in HX. exact (rows_hold state vt S' t types names bs outs _ uniq f LN W ND F rows rows' HX).
Qed.
Print Assumptions C27_inserted_rows.
(** PostgreSQL and Redshift copy the rows instead: the same, with or without names, also for columns that are otherwise generated. *)
Theorem C27_copied_rows : forall d state vt set_order fill t types names bs S S' outs s uniq f rows rows',
  let given := match names with Some ns => ns | None => map c_name (t_columns t) end in
  sound_tables state -> cat_get_table state (t_name t) = Ok t -> well_formed_rows types given bs -> given <> [] ->
  NoDup (listed given) -> (names = None -> ~ In "" given) ->
  bound_records d state vt set_order fill t types names S bs = Ok (S', outs) ->
  copy_stmt t (statement_order names) = Ok s ->
  exec_many pv_eqb uniq f s rows (concat outs) = Ok rows' ->
  exists new, rows' = rows ++ new /\
    Forall2 (fun r row => forall x, In x (named_fields given types r) -> converted state vt S' t x (row (fst (fst x)))) (concat bs) new.
Proof.
  intros d state vt set_order fill t types names bs S S' outs s uniq f rows rows' given Hs Ht WF NE ND NN H HI HX.
  assert (H' : bound_records d state vt set_order fill t types (Some given) S bs = Ok (S', outs)) by exact H.
  destruct (C27_records_aligned _ _ _ _ _ _ _ _ _ _ _ _ Hs Ht WF H') as [F _]. destruct WF as (LN & SK & W).
  destruct (cat_get_in _ _ _ Ht) as (n0 & I0 & J0 & _). destruct (Hs _ _ I0 J0) as (NDC & _).
  assert (ES : s = QInsert (t_name t) (listed given)).
  { unfold copy_stmt in HI. destruct (get_columns t (statement_order names)) as [cs|] eqn:EC; [|discriminate HI]. injection HI as <-. f_equal. destruct names as [ns|].
    - assert (SO : statement_order (Some ns) = Some (listed ns)) by (destruct ns; [contradiction|reflexivity]). rewrite SO in EC.
      apply get_columns_named in EC; [|exact NDC]. exact (proj1 EC).
    - injection EC as <-. unfold Dml.names, given, listed. symmetry. specialize (NN eq_refl). unfold given in NN. clear - NN. induction (map c_name (t_columns t)) as [|n l IH]; [reflexivity|].
      cbn [filter]. destruct (String.eqb_spec n "") as [->|_]; [destruct NN; now left|]. cbn [negb]. f_equal. apply IH. intros I. apply NN. now right. }
  subst s. exact (rows_hold state vt S' t types given bs outs _ uniq f LN W ND F rows rows' HX).
Qed.
Print Assumptions C27_copied_rows.
(** A name that is not a column is refused before anything is written. *)
Theorem C27_unknown_name_refused : forall d state vt set_order fill t types names S bs i n ty,
  nth_error names i = Some n -> nth_error types i = Some ty -> ty <> FNone -> n <> "" -> ~ In n (map c_name (t_columns t)) ->
  is_ok (bound_records d state vt set_order fill t types (Some names) S bs) = false.
Proof.
  intros d state vt set_order fill t types names S bs i n ty En Et NF NN NC. unfold bound_records, generate_records.
  assert (X : forall types names j i, nth_error names i = Some n -> nth_error types i = Some ty -> is_ok (plan state vt t j types names) = false).
  { clear En Et. clear - NF NN NC. induction types as [|ty0 types IH]; intros [|n0 names] j [|i] En Et; try discriminate; cbn [plan].
    - injection En as ->. injection Et as ->. assert (O : omitted ty n = false).
      { destruct ty; cbn; [contradiction|..]; (destruct (String.eqb_spec n ""); [contradiction|reflexivity]). }
      rewrite O. unfold get_transformer. rewrite (proj2 (get_none c_name n (t_columns t)) NC). reflexivity.
    - cbn in En, Et. specialize (IH names (Datatypes.S j) i En Et). destruct (omitted ty0 n0); [exact IH|].
      destruct (get_transformer state vt t j ty0 n0); [|reflexivity]. cbn [bind]. destruct (plan state vt t (Datatypes.S j) types names); [discriminate IH|reflexivity]. }
  specialize (X types names 0 i En Et). destruct (plan state vt t 0 types names); [discriminate X|reflexivity].
Qed.
Print Assumptions C27_unknown_name_refused.

(** ** Example: a table that refers to a lookup table *)
Definition ex_color : table :=
  Tab (q0 "color") [Col "id" bigint false None true None; Col "value" (TVarChar None) false None false None] ["id"] [CUnique "uq_color" ["value"]] None None.
Definition ex_car : table :=
  Tab (q0 "car") [Col "id" bigint false None false None; Col "color" bigint true None false None; Col "colors" (TVarChar None) true None false None; Col "name" (TVarChar None) true None false None]
    ["id"] [CForeign "fk_color" ["color"] (q0 "color") ["id"]; CForeign "fk_colors" ["colors"] (q0 "color") ["id"]] None None.
Definition ex_state : catalog := [Ns "" [] [] [ex_color; ex_car]].
Definition ex_vt : column -> ftype -> option fn := fun _ _ => None.
(** keys are numbered from one *)
Fixpoint max_key (rows : list prow) : Z :=
  match rows with [] => 0%Z | r :: rest => match r "id" with Some (PVInt z) => Z.max z (max_key rest) | _ => max_key rest end end.
Definition ex_fill : qid -> list prow -> string -> option pv := fun _ rows _ => Some (PVInt (max_key rows + 1)).
Definition ex_S : store := fun _ => [].
Definition ex_types := [FOther 0; FStr; FNone; FList].
Definition ex_names := ["id"; "color"; ""; "colors"].
Definition ex_bs : list (list record) :=
  [[[Some (PVInt 1); Some (PVStr "red"); Some (PVOther 9); Some (PVLabels [Some "red"; Some "blue"])];
    [Some (PVInt 2); None; None; Some (PVLabels [])]];
   [[Some (PVInt 3); Some (PVStr "green"); None; Some (PVLabels [Some "blue"])]]].
Ltac nd := simpl; repeat (apply NoDup_cons; [simpl; intuition discriminate|]); apply NoDup_nil.
Lemma ex_sound : sound_tables ex_state.
Proof.
  intros n t [<-|[]] [<-|[<-|[]]]; (split; [nd|]); (split; [intros k [<-|[]]; simpl; auto|]); simpl; intros m cs.
  - intros [E|[]]. injection E as <- <-. split; [discriminate|]. intros c [<-|[]]. simpl. auto.
  - intros [E|[E|[]]]; discriminate E.
Qed.
Lemma ex_filed : filed ex_state. Proof. intros n t [<-|[]] [<-|[<-|[]]]; reflexivity. Qed.
Example C27_example : sound_tables ex_state /\ cat_get_table ex_state (t_name ex_car) = Ok ex_car /\ well_formed_rows ex_types ex_names ex_bs /\
  ex_names <> [] /\ NoDup (listed ex_names) /\ (forall c, In c (t_columns ex_car) -> In (c_name c) (listed ex_names) -> c_identity c = false) /\
  match bound_records DPg ex_state ex_vt (fun l => l) ex_fill ex_car ex_types (Some ex_names) ex_S ex_bs with
  | Ok (_, outs) => outs = [[[Some (PVInt 1); Some (PVInt 1); Some (PVKeys [1%Z; 2%Z])]; [Some (PVInt 2); None; Some (PVKeys [])]];
                            [[Some (PVInt 3); Some (PVInt 3); Some (PVKeys [2%Z])]]]
  | Err _ => False end.
Proof.
  split; [exact ex_sound|]. split; [reflexivity|]. split.
  { split; [reflexivity|]. split; [intros [|[|[|[|[|i]]]]]; intros E; try discriminate E; reflexivity|]. intros b r [<-|[<-|[]]]; simpl; intuition; subst; reflexivity. }
  split; [discriminate|]. split; [cbn; nd|]. split; [intros c [<-|[<-|[<-|[<-|[]]]]] _; reflexivity|].
  vm_compute. reflexivity.
Qed.
(** A field that is omitted by its type but has a name stays in the column list: the record is too short, and the
    database refuses it (finding). *)
Theorem C27_omitted_by_type_only_refuted : exists types names r S' out s,
  bound_records DMySQL ex_state ex_vt (fun l => l) ex_fill ex_car types (Some names) ex_S [[r]] = Ok (S', [[out]]) /\
  insert_stmt ex_car (statement_order (Some names)) = Ok s /\
  forall rows f, is_ok (exec_dml pv_eqb (table_keys ex_car) f s rows out) = false.
Proof.
  exists [FOther 0; FNone], ["id"; "name"], [Some (PVInt 1); Some (PVStr "x")]. do 3 eexists. split; [reflexivity|]. split; [reflexivity|]. reflexivity.
Qed.
(** Without names, the record has the values of all columns, but an INSERT leaves out identity columns (finding). *)
Theorem C27_identity_without_names_refuted : exists r S' out s,
  bound_records DMySQL ex_state ex_vt (fun l => l) ex_fill ex_color [FOther 0; FOther 1] None ex_S [[r]] = Ok (S', [[out]]) /\
  insert_stmt ex_color (statement_order None) = Ok s /\
  forall rows f, is_ok (exec_dml pv_eqb (table_keys ex_color) f s rows out) = false.
Proof. exists [Some (PVInt 1); Some (PVStr "red")]. do 3 eexists. split; [reflexivity|]. split; reflexivity. Qed.
(** ... and a copy works. *)
Example C27_copied_example : exists S' out s rows, bound_records DPg ex_state ex_vt (fun l => l) ex_fill ex_color [FOther 0; FOther 1] None ex_S [[[Some (PVInt 7); Some (PVStr "red")]]] = Ok (S', [[out]]) /\
  copy_stmt ex_color (statement_order None) = Ok s /\ exec_many pv_eqb (table_keys ex_color) (ex_fill (q0 "color")) s [] [out] = Ok rows /\
  map (fun r => (r "id", r "value")) rows = [(Some (PVInt 7), Some (PVStr "red"))].
Proof. do 4 eexists. split; [reflexivity|]. split; [reflexivity|]. split; [vm_compute; reflexivity|]. vm_compute. reflexivity. Qed.
(** A row with more fields than the types say is cut silently when every field is named (finding). *)
Theorem C27_long_row_cut_refuted : exists S' out,
  bound_records DPg ex_state ex_vt (fun l => l) ex_fill ex_car [FOther 0; FOther 1] (Some ["id"; "name"]) ex_S
    [[[Some (PVInt 1); Some (PVStr "x"); Some (PVStr "lost")]]] = Ok (S', [[out]]) /\ out = [Some (PVInt 1); Some (PVStr "x")].
Proof. do 2 eexists. split; reflexivity. Qed.

(** ** C28 *)
(** One key per label and one label per key, ... *)
Theorem C28_one_to_one : forall rows k v l1 l2 z1 z2, lookup_rows rows k v -> maps_to rows k v l1 z1 -> maps_to rows k v l2 z2 -> (l1 = l2 <-> z1 = z2).
Proof.
  assert (U : forall (g : prow -> option pv) rows a b, NoDup (map g rows) -> In a rows -> In b rows -> g a = g b -> a = b).
  { intros g rows a b ND. induction rows as [|x rows IH]; [intros []|]. cbn in ND. inversion ND as [|? ? NI ND']; subst.
    intros [->|A] [->|B] E; [reflexivity|exfalso; apply NI; rewrite E; apply in_map; exact B|exfalso; apply NI; rewrite <- E; apply in_map; exact A|].
    exact (IH ND' A B E). }
  intros rows k v l1 l2 z1 z2 (_ & NK & NV) (r1 & I1 & V1 & K1) (r2 & I2 & V2 & K2). split; intros E.
  - assert (r1 = r2); [|congruence]. apply (U (fun r => r v) rows); auto. congruence.
  - assert (r1 = r2); [|congruence]. apply (U (fun r => r k) rows); auto. congruence.
Qed.
Print Assumptions C28_one_to_one.
(** ... which hold for ever: every call only appends rows to a lookup table, exactly one for every label that
    the rows mention and that is not there yet; its contents stay consistent. *)
Theorem C28_lookup_grows : forall d state vt set_order fill t types names bs S S' outs rel k v,
  (forall l x, In x (set_order l) <-> In x l) ->
  sound_tables state -> filed state -> cat_get_table state (t_name t) = Ok t -> well_formed_rows types names bs ->
  live_lookup state fill S rel k v ->
  bound_records d state vt set_order fill t types (Some names) S bs = Ok (S', outs) ->
  live_lookup state fill S' rel k v /\
  exists new, S' (t_name rel) = S (t_name rel) ++ new /\
    forall x, has_label new v x <-> (exists r, In r (concat bs) /\ mentions state t names types rel r x) /\ ~ has_label (S (t_name rel)) v x.
Proof.
  intros d state vt set_order fill t types names bs S S' outs rel k v SO Hs Hf Ht (LN & SK & W) (LO & GK & FK & R) H. unfold bound_records in H.
  destruct (generate_records state vt t types (Some names)) as [src|] eqn:G; cbn [bind] in H; [|discriminate].
  destruct (batches_grown d state vt set_order fill SO Hs Hf t Ht types names LN SK src G rel k v LO GK FK bs S S' outs R W H) as (new & A & B & C).
  split; [split; auto|]. exists new. auto.
Qed.
Print Assumptions C28_lookup_grows.
(** Whole histories of calls: the final lookup table extends the initial one, by one row for each new label, it
    is consistent, and every record of every call carries the keys of the final table. *)
Record call : Type := Call { on_table : table; with_types : list ftype; with_names : list string; with_rows : list (list record) }.
Section History.
  Context (d : dialect) (state : catalog) (vt : column -> ftype -> option fn) (set_order : list pv -> list pv) (fill : qid -> list prow -> string -> option pv).
  Fixpoint run_calls (cs : list call) (S : store) : res (store * list (list (list record))) :=
    match cs with
    | [] => Ok (S, [])
    | c :: rest => do r <- bound_records d state vt set_order fill (on_table c) (with_types c) (Some (with_names c)) S (with_rows c);
                   do q <- run_calls rest (fst r); Ok (fst q, snd r :: snd q)
    end.
  Definition valid_call (c : call) : Prop :=
    cat_get_table state (t_name (on_table c)) = Ok (on_table c) /\ well_formed_rows (with_types c) (with_names c) (with_rows c).
End History.
Theorem C28_history : forall d state vt set_order fill cs S S' outs rel k v,
  (forall l x, In x (set_order l) <-> In x l) -> sound_tables state -> filed state -> (forall c, In c cs -> valid_call state c) ->
  live_lookup state fill S rel k v -> run_calls d state vt set_order fill cs S = Ok (S', outs) ->
  live_lookup state fill S' rel k v /\
  (exists new, S' (t_name rel) = S (t_name rel) ++ new /\
    forall x, has_label new v x <->
      (exists c r, In c cs /\ In r (concat (with_rows c)) /\ mentions state (on_table c) (with_names c) (with_types c) rel r x) /\ ~ has_label (S (t_name rel)) v x) /\
  Forall2 (fun c out => Forall2 (Forall2 (fun r o => Forall2 (converted state vt S' (on_table c)) (named_fields (with_names c) (with_types c) r) o)) (with_rows c) out) cs outs.
Proof.
  intros d state vt set_order fill cs S S' outs rel k v SO Hs Hf V LV H.
  assert (X : (forall q, exists new, S' q = S q ++ new) /\ grown rel k v S S' (fun x => exists c r, In c cs /\ In r (concat (with_rows c)) /\ mentions state (on_table c) (with_names c) (with_types c) rel r x) /\
    Forall2 (fun c out => Forall2 (Forall2 (fun r o => Forall2 (converted state vt S' (on_table c)) (named_fields (with_names c) (with_types c) r) o)) (with_rows c) out) cs outs).
  { revert S outs V LV H. induction cs as [|c cs IH]; intros S outs V LV H; cbn [run_calls] in H.
    - injection H as <- <-. split; [intros q; exists []; now rewrite app_nil_r|]. split; [|constructor]. apply grown_none; [apply LV|reflexivity|]. intros x (? & ? & [] & _).
    - destruct (bound_records _ _ _ _ _ _ _ _ _ _) as [[S1 out]|] eqn:B; cbn [bind fst snd] in H; [|discriminate].
      destruct (run_calls d state vt set_order fill cs S1) as [[S2 outs']|] eqn:R; cbn [bind fst snd] in H; [|discriminate]. injection H as <- <-.
      destruct (V c (or_introl eq_refl)) as [Ht WF]. destruct (C27_records_aligned _ _ _ _ _ _ _ _ _ _ _ _ Hs Ht WF B) as [AL E1].
      destruct (C28_lookup_grows _ _ _ _ _ _ _ _ _ _ _ _ rel k v SO Hs Hf Ht WF LV B) as [LV1 (new & N1 & N2)].
      destruct (IH S1 outs' (fun c I => V c (or_intror I)) LV1 R) as (E2 & G2 & F2). split; [|split].
      + intros q. destruct (E1 q) as [a A], (E2 q) as [b' B']. exists (a ++ b'). now rewrite B', A, app_assoc.
      + assert (G1 : grown rel k v S S1 (fun x => exists r, In r (concat (with_rows c)) /\ mentions state (on_table c) (with_names c) (with_types c) rel r x)).
        { exists new. split; [exact N1|]. split; [apply LV1|exact N2]. }
        eapply grown_ext; [|exact (grown_trans _ _ _ _ _ _ _ _ G1 G2)]. cbn. intros x. split.
        * intros [(r & I & M)|(c' & r & I & J & M)]; [exists c, r; auto|exists c', r; auto].
        * intros (c' & r & [<-|I] & J & M); [left; eauto|right; eauto].
      + constructor; [|exact F2]. clear - AL E2. eapply f2_impl; [|exact AL]. cbn. intros b o Fb. eapply f2_impl; [|exact Fb]. cbn. intros r o' Fr.
        eapply f2_impl; [|exact Fr]. intros x y. apply converted_ext. exact E2. }
  destruct X as (_ & (new & A & B & C) & F). split; [|split; [exists new; auto|exact F]]. destruct LV as (L1 & L2 & L3 & _). split; auto.
Qed.
Print Assumptions C28_history.
(** The substitution goes through for every acceptable input. *)
Theorem C28_succeeds : forall d state vt set_order fill t types names bs S,
  (forall l x, In x (set_order l) <-> In x l) -> sound_tables state -> filed state -> resolved state t ->
  cat_get_table state (t_name t) = Ok t -> well_formed_rows types names bs ->
  (forall n, In n names -> n <> "" -> In n (map c_name (t_columns t))) ->
  (forall n ty rel k v, substituted state t n ty rel k v -> live_lookup state fill S rel k v) ->
  (forall r x, In r (concat bs) -> In x (named_fields names types r) -> acceptable state vt t x) ->
  exists S' outs, bound_records d state vt set_order fill t types (Some names) S bs = Ok (S', outs).
Proof.
  intros d state vt set_order fill t types names bs S SO Hs Hf R Ht (LN & SK & W) K L A.
  destruct (all_total d state vt set_order fill SO Hs Hf t Ht types names LN SK R K bs S L W) as (S' & outs & E & _); [|eauto].
  intros b r x Ib Ir. apply A. apply in_concat. eauto.
Qed.
Print Assumptions C28_succeeds.

Lemma max_key_ge rows r z : In r rows -> r "id" = Some (PVInt z) -> (z <= max_key rows)%Z.
Proof.
  induction rows as [|a rows IH]; intros [] E; cbn [max_key].
  - subst a. rewrite E. lia.
  - specialize (IH H E). destruct (a "id") as [[]|]; lia.
Qed.
Lemma ex_lookup : lookup_table ex_color "id" "value".
Proof. split; [discriminate|]. split; [reflexivity|]. split; [exists "uq_color"; now left|]. now left. Qed.
Lemma ex_live : live_lookup ex_state ex_fill ex_S ex_color "id" "value".
Proof.
  split; [split; [exists (q0 "color"); reflexivity|exact ex_lookup]|]. split.
  { intros c [<-|[<-|[]]]; split; intros E; try discriminate E; reflexivity. }
  split; [|split; [intros r []|split; constructor]].
  intros rows _. eexists. split; [reflexivity|]. intros r I E. pose proof (max_key_ge _ _ _ I E). lia.
Qed.
Lemma ex_subst n ty rel k v : substituted ex_state ex_car n ty rel k v -> rel = ex_color /\ k = "id" /\ v = "value".
Proof.
  intros (_ & (l1 & m & rt & rc & l2 & C & _ & G) & LT).
  assert (rt = q0 "color").
  { assert (I : In (CForeign m [n] rt rc) (t_constraints ex_car)) by (rewrite C; apply in_or_app; right; now left).
    destruct I as [I|[I|[]]]; injection I; congruence. }
  subst rt. cbn in G. injection G as <-. split; [reflexivity|]. destruct (lookup_columns_fun ex_color k v "id" "value" LT ex_lookup); auto.
Qed.
Example C28_example : (forall (l : list pv) x, In x ((fun l => l) l) <-> In x l) /\ sound_tables ex_state /\ filed ex_state /\ resolved ex_state ex_car /\
  (forall n ty rel k v, substituted ex_state ex_car n ty rel k v -> live_lookup ex_state ex_fill ex_S rel k v) /\
  (exists rel k v, substituted ex_state ex_car "color" FStr rel k v) /\
  (forall r x, In r (concat ex_bs) -> In x (named_fields ex_names ex_types r) -> acceptable ex_state ex_vt ex_car x) /\
  match bound_records DMySQL ex_state ex_vt (fun l => l) ex_fill ex_car ex_types (Some ex_names) ex_S ex_bs with
  | Ok (S', _) => map (fun r => (r "id", r "value")) (S' (q0 "color")) =
                  [(Some (PVInt 1), Some (PVStr "red")); (Some (PVInt 2), Some (PVStr "blue")); (Some (PVInt 3), Some (PVStr "green"))]
  | Err _ => False end.
Proof.
  split; [reflexivity|]. split; [exact ex_sound|]. split; [exact ex_filed|]. split.
  { intros n c rt rc [I|[I|[]]]; injection I as <- <- <- <-; (exists ex_color; split; [reflexivity|]; intros _; exists "id"; reflexivity). }
  split. { intros n ty rel k v SB. destruct (ex_subst _ _ _ _ _ SB) as (-> & -> & ->). exact ex_live. }
  assert (SC : substituted ex_state ex_car "color" FStr ex_color "id" "value").
  { split; [now left|]. split; [|exact ex_lookup]. exists [], "fk_color", (q0 "color"), ["id"]. eexists. split; [reflexivity|]. split; [intros ? ? ? []|reflexivity]. }
  assert (SL : substituted ex_state ex_car "colors" FList ex_color "id" "value").
  { split; [now right|]. split; [|exact ex_lookup]. exists [CForeign "fk_color" ["color"] (q0 "color") ["id"]], "fk_colors", (q0 "color"), ["id"], []. split; [reflexivity|]. split; [|reflexivity].
    intros ? ? ? [E|[]]. discriminate E. }
  split; [eauto|]. split; [|vm_compute; reflexivity].
  assert (SI : forall rel k v, ~ substituted ex_state ex_car "id" (FOther 0) rel k v) by (intros ? ? ? ([X|X] & _); discriminate).
  intros r x Ir Ix. simpl in Ir.
  destruct Ir as [<-|[<-|[<-|[]]]]; simpl in Ix; destruct Ix as [<-|[<-|[<-|[]]]]; cbn [acceptable];
    try (right; split; [exact SI|intros c g _ _ X; discriminate X]);
    try (left; split; [eauto|left; split; [reflexivity|eauto]]);
    try (left; split; [eauto|right; split; [reflexivity|]]);
    try (intros X; discriminate X).
  - exists ["red"; "blue"]. reflexivity.
  - exists []. reflexivity.
  - exists ["blue"]. reflexivity.
Qed.
(** A NULL in place of a list of labels, or inside one, makes the call fail (findings). *)
Theorem C28_null_list_refuted : forall l, l = None \/ l = Some (PVLabels [None]) ->
  is_ok (bound_records DPg ex_state ex_vt (fun l => l) ex_fill ex_car [FList] (Some ["colors"]) ex_S [[[l]]]) = false.
Proof. intros l [-> | ->]; reflexivity. Qed.
(** A lookup table whose key is not generated cannot take new labels: the statement wants two values (finding). *)
Theorem C28_plain_key_refuted : forall d fill S,
  let rel := Tab (q0 "color") [Col "id" bigint false None false None; Col "value" (TVarChar None) false None false None] ["id"] [CUnique "uq_color" ["value"]] None None in
  is_lookup_table rel = Ok true /\ is_ok (merge_lookup d fill rel S [PVStr "red"]) = false.
Proof. intros d fill S rel. split; [reflexivity|]. destruct d; reflexivity. Qed.
