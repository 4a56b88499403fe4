(** Proofs for C60: a catalog that has been created is dropped with its schema; the text of the commands. *)
From Verif Require Import PyStr QuoteModel QuoteSpec QuoteProofs Types Objects SqlAst Ddl DbSpec CatSpec RefSpec SqlText DropSchema DropSpec DropProofs1 DropProofs2 DropProofs3.
From stdpp Require Import gmap strings.
Open Scope string_scope.

Section Added.
  Context (P : okey -> Prop) `{forall k, Decision (P k)} (D : db) (X : gmap okey dbobj) (S' : gset string).
  Hypothesis OK : db_ok D.
  Hypothesis XP : forall k o, X !! k = Some o -> P k.
  Hypothesis DP : forall k o, db_objs D !! k = Some o -> ~ P k.
  Notation D1 := (Db S' (X ∪ db_objs D)).
  Lemma added_outside k o : ~ P k -> (X ∪ db_objs D) !! k = Some o <-> db_objs D !! k = Some o.
  Proof.
    intros N. destruct (X !! k) as [x|] eqn:E; [destruct (N (XP k x E))|]. now rewrite lookup_union_r.
  Qed.
  Lemma added_no_fk : ~ foreign_key_into P D1.
  Proof.
    intros (i & t & m & f & cs & rt & rc & N & L & C & E). cbn [db_objs] in L. apply added_outside in L; [|exact N].
    destruct (OK i _ L) as [[_ O] _]. destruct (O m _ C) as [[_ (x & Lx & _)] _]. exact (DP _ _ Lx E).
  Qed.
  Lemma added_no_column : ~ column_made_of P D1.
  Proof.
    intros (i & t & m & c & q & N & L & C & I & E). cbn [db_objs] in L. apply added_outside in L; [|exact N].
    destruct (OK i _ L) as [[O _] _]. destruct (O m c C q I) as (x & Lx & _). exact (DP _ _ Lx E).
  Qed.
  Lemma added_no_member : ~ member_made_of P D1.
  Proof.
    intros (i & ms & com & m & ty & q & N & L & C & I & E). cbn [db_objs] in L. apply added_outside in L; [|exact N].
    destruct (OK i _ L) as [O _]. destruct (O m ty C q I) as (x & Lx & _). exact (DP _ _ Lx E).
  Qed.
  Lemma added_others : others_only P D1 = db_objs D.
  Proof.
    apply map_eq. intros k. destruct (db_objs D !! k) as [o|] eqn:E.
    - apply others_lookup. split; [cbn [db_objs]; apply added_outside; eauto|eauto].
    - unfold others_only. apply map_filter_lookup_None. destruct (decide (P k)) as [Y|N]; [right; simpl; auto|left]. cbn [db_objs].
      destruct (X !! k) as [x|] eqn:Ex; [destruct (N (XP k x Ex))|]. now rewrite lookup_union_r.
  Qed.
End Added.
Lemma cat_objs_key d n k o : cat_objs d [n] !! k = Some o -> exists q, In q (ns_names n) /\ k = key_of q.
Proof.
  intros L. unfold cat_objs in L. apply elem_of_list_to_map_2, elem_of_list_In, in_flat_map in L as (n' & [<-|[]] & L). unfold ns_objs in L. rewrite !in_app_iff, !in_map_iff in L. unfold ns_names.
  destruct L as [(e & [= <- <-] & I)|[(e & [= <- <-] & I)|(e & [= <- <-] & I)]]; eexists; (split; [|reflexivity]); rewrite !in_app_iff, !in_map_iff; eauto.
Qed.
Lemma cat_objs_table d n k t : cat_objs d [n] !! k = Some (OTable t) -> exists x, In x (n_tables n) /\ t = want_tab d x.
Proof.
  intros L. unfold cat_objs in L. apply elem_of_list_to_map_2, elem_of_list_In, in_flat_map in L as (n' & [<-|[]] & L). unfold ns_objs in L. rewrite !in_app_iff, !in_map_iff in L.
  destruct L as [(e & E & I)|[(e & E & I)|(e & E & I)]]; try discriminate. injection E as <- <-. eauto.
Qed.
Lemma cat_objs_kind d n k o : n_enums n = [] -> n_structs n = [] -> cat_objs d [n] !! k = Some o -> exists t, o = OTable t.
Proof.
  intros E1 E2 L. unfold cat_objs in L. apply elem_of_list_to_map_2, elem_of_list_In, in_flat_map in L as (n' & [<-|[]] & L). unfold ns_objs in L. rewrite E1, E2 in L. simpl in L.
  apply in_map_iff in L as (e & [= <- <-] & I). eauto.
Qed.
Lemma want_pk d x n : tab_wf d x -> In n (dt_pk (want_tab d x)) -> is_Some (dt_cols (want_tab d x) !! n).
Proof.
  intros W I. cbn in *. apply (tw_pk _ _ W) in I. unfold col_names in I. apply in_map_iff in I as (c & <- & I). unfold want_cols.
  destruct (list_to_map (map (fun c => (c_name c, want_col d c)) (t_columns x)) !! c_name c) eqn:E; [eauto|]. exfalso.
  apply not_elem_of_list_to_map_2 in E. apply E. rewrite <- list_fmap_compose. apply elem_of_list_In, in_map_iff. exists c. auto.
Qed.
Lemma keys_exist_added d n D : cat_wf d [n] -> keys_exist D -> keys_exist (plus_cat d [n] D).
Proof.
  intros W KE k t x L I. cbn [plus_cat db_objs] in L. apply lookup_union_Some_raw in L as [L|[_ L]]; [|eapply KE; eauto].
  apply cat_objs_table in L as (y & Iy & ->). apply want_pk; [|exact I]. apply (nw_table _ _ (cw_ns _ _ W n (or_introl eq_refl))), Iy.
Qed.
(** engines with schemas *)
Lemma created_gone d n D : cat_wf d [n] -> n_name n <> "" -> db_ok D -> unused [n] D -> without_schema (n_name n) (plus_cat d [n] D) = D
  /\ ~ foreign_key_into (in_schema (n_name n)) (plus_cat d [n] D) /\ ~ column_made_of (in_schema (n_name n)) (plus_cat d [n] D) /\ ~ member_made_of (in_schema (n_name n)) (plus_cat d [n] D).
Proof.
  intros W N OK [_ U]. destruct (U n (or_introl eq_refl)) as [?|NI]; [contradiction|].
  assert (XP : forall k o, cat_objs d [n] !! k = Some o -> in_schema (n_name n) k).
  { intros k o L. apply cat_objs_key in L as (q & Iq & ->). exact (nw_scope _ _ (cw_ns _ _ W n (or_introl eq_refl)) q Iq). }
  assert (DP : forall k o, db_objs D !! k = Some o -> ~ in_schema (n_name n) k).
  { intros k o L E. apply NI. unfold in_schema in E. rewrite <- E. eapply no_schema; eauto. now rewrite E. }
  split; [|split; [|split]].
  - rewrite without_schema_is. unfold plus_cat. rewrite (added_others _ _ _ _ XP DP). apply db_eq; [|reflexivity]. cbn [db_schemas]. unfold cat_schemas. cbn [map List.filter].
    destruct (String.eqb_spec (n_name n) ""); [contradiction|]. simpl. set_solver.
  - now apply added_no_fk.
  - now apply added_no_column.
  - now apply added_no_member.
Qed.
(** engines without schemas *)
Lemma created_prefix_gone d n m D : cat_wf d [n] -> n_name n = "" -> (forall q, In q (ns_names n) -> exists id, q = Prefixed (Some m) id) -> db_ok D ->
  (forall k o, db_objs D !! k = Some o -> ~ prefixed_by m k) -> without_prefix m (plus_cat d [n] D) = D /\ ~ foreign_key_into (prefixed_by m) (plus_cat d [n] D).
Proof.
  intros W N IDS OK DP. assert (XP : forall k o, cat_objs d [n] !! k = Some o -> prefixed_by m k).
  { intros k o L. apply cat_objs_key in L as (q & Iq & ->). destruct (IDS q Iq) as (id & ->). split; [reflexivity|]. exists id. reflexivity. }
  split; [|now apply added_no_fk]. unfold without_prefix, plus_cat. rewrite (added_others _ _ _ _ XP DP). apply db_eq; [|reflexivity]. cbn [db_schemas]. unfold cat_schemas. cbn [map List.filter]. rewrite N. simpl. set_solver.
Qed.

(** ** Text *)
Definition reads (q : ascii) (s : string) (l : list piece) : Prop := forall f, String.length s <= f -> pieces q f s = Some l.
Lemma reads_nil q : reads q "" [].
Proof. intros [|f] _; reflexivity. Qed.
Lemma reads_ch q c s l : c <> q -> reads q s l -> reads q (String c s) (Ch c :: l).
Proof. intros N R [|f] L; cbn in L; [lia|]. cbn [pieces]. destruct (Ascii.eqb_spec c q); [contradiction|]. rewrite R by lia. reflexivity. Qed.
Lemma reads_chars q w s l : has_char q w = false -> reads q s l -> reads q (w ++ s) (chars w ++ l).
Proof.
  intros H R. induction w as [|c w IH]; [exact R|]. cbn in H. apply orb_false_iff in H as [H1 H2]. cbn [String.append chars]. simpl. apply reads_ch; [now apply Ascii.eqb_neq|]. now apply IH.
Qed.
Lemma reads_name q t v s l : scan_token q (t ++ s) = Some (v, s) -> t <> "" -> reads q s l -> reads q (t ++ s) (Name v :: l).
Proof.
  intros H N R. destruct t as [|c t]; [contradiction|]. change (String c t ++ s) with (String c (t ++ s)) in *. unfold scan_token in H. destruct (Ascii.eqb_spec c q) as [->|]; [|inversion H].
  intros [|f] L; cbn [String.length] in L; [inversion L|]. cbn [pieces]. cbn iota in H |- *. rewrite Ascii.eqb_refl. rewrite H, R; [reflexivity|]. rewrite append_length in L. lia.
Qed.
Lemma reads_local n s l : ~ begins DQ s -> reads DQ s l -> reads DQ (local_quoted n ++ s) (Name n :: l).
Proof. intros B. apply reads_name; [now apply local_quoted_scan|unfold local_quoted, in_dq; cbn; intros E; inversion E]. Qed.
Lemma reads_mysql n s l : ~ begins BQ s -> reads BQ s l -> reads BQ (mysql_quoted_id n ++ s) (Name n :: l).
Proof. intros B. apply reads_name; [now apply mysql_quoted_scan|unfold mysql_quoted_id; cbn; intros E; inversion E]. Qed.
Definition quotable (q : qid) : Prop := match q with Global _ => False | _ => True end.
Lemma reads_qid q s l : quotable q -> ~ begins DQ s -> reads DQ s l -> reads DQ (quoted_id q ++ s) (name_pieces q ++ l).
Proof.
  intros Q B R. destruct q as [[n|] id|[n|] id|id]; [| | | |contradiction]; unfold name_pieces; cbn [scope_id quoted_id local_id].
  - replace ((str1 DQ ++ quote_id n ++ str1 DQ ++ "." ++ str1 DQ ++ quote_id id ++ str1 DQ) ++ s) with (local_quoted n ++ String "." (local_quoted id ++ s))
      by (unfold local_quoted, in_dq; rewrite !append_assoc; reflexivity).
    simpl app. apply reads_local; [intros (r & E); discriminate|]. apply reads_ch; [discriminate|]. now apply reads_local.
  - change (str1 DQ ++ quote_id id ++ str1 DQ) with (local_quoted id). now apply reads_local.
  - replace (str1 DQ ++ quote_id n ++ "__" ++ quote_id id ++ str1 DQ) with (local_quoted (n ++ "__" ++ id)); [now apply reads_local|].
    unfold local_quoted, in_dq, quote_id, replace1. rewrite !translate_app, !append_assoc. reflexivity.
  - change (str1 DQ ++ quote_id id ++ str1 DQ) with (local_quoted id). now apply reads_local.
Qed.

Lemma reads_end q : q <> ";"%char -> reads q ";" [Ch ";"%char].
Proof. intros N. apply reads_ch; [congruence|apply reads_nil]. Qed.
Lemma not_begins_char q c s : c <> q -> ~ begins q (String c s).
Proof. intros N (r & E). congruence. Qed.
Lemma reads_separated q (text : qid -> string) ts : q <> ";"%char -> q <> ","%char -> q <> " "%char ->
  (forall t s l, In t ts -> ~ begins q s -> reads q s l -> reads q (text t ++ s) (name_pieces t ++ l)) ->
  reads q (join_str ", " (map text ts) ++ ";") (separated (map name_pieces ts) ++ chars ";").
Proof.
  intros N1 N2 N3. induction ts as [|t ts IH]; intros T; [now apply reads_end|]. destruct ts as [|u ts].
  - cbn [map join_str separated]. apply T; [now left|apply not_begins_char; congruence|now apply reads_end].
  - change (join_str ", " (map text (t :: u :: ts))) with (text t ++ ", " ++ join_str ", " (map text (u :: ts))).
    change (separated (map name_pieces (t :: u :: ts))) with (name_pieces t ++ chars ", " ++ separated (map name_pieces (u :: ts)))%list.
    rewrite !append_assoc, <- !app_assoc. apply T; [now left|apply not_begins_char; congruence|].
    apply reads_chars; [cbn [has_char]; destruct (Ascii.eqb_spec "," q), (Ascii.eqb_spec " " q); try congruence; reflexivity|]. apply IH. intros v s l I. apply T. now right.
Qed.
