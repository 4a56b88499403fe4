(** Data statements are read as meant. *)
From Verif Require Import PyStr QuoteModel QuoteSpec QuoteProofs ConstProofs Types Objects SqlAst Ddl Mutate Render Dml SqlText TextSpec LexProofs TextProofs1 TextProofs2 TextProofs3 TextProofs4
  DmlText DmlTextSpec.
From Coq Require Import String List Bool Arith Ascii ZArith Lia.
Import ListNotations.
Open Scope string_scope.
Open Scope list_scope.

Lemma nm_bal q : bal no_stop 0 (name_toks q) = true.
Proof. apply bal_name; reflexivity. Qed.
Lemma join_nl_lex d l ts : Forall2 (fun s t => lex d s = Some t) l ts -> lex d (join_str NL l) = Some (concat ts).
Proof.
  induction 1 as [|x t l ts Hx H IH]; [reflexivity|]. destruct H as [|y u l ts Hy H].
  - simpl. now rewrite app_nil_r.
  - rewrite join_str_cons. change (concat (t :: u :: ts)) with (t ++ concat (u :: ts)).
    apply app_lead; [exact Hx| |reflexivity]. apply (app_ends d NL _ []); [reflexivity|reflexivity|exact IH].
Qed.
Lemma read_semi d parts tss p : Forall2 (fun s t => lex d s = Some t) parts tss -> bal no_stop 0 (concat tss) = true ->
  data_statement d (concat tss) = Some p -> read_data d (Dml.semi parts) = Some p.
Proof.
  intros F B P. unfold read_data, Dml.semi. rewrite (join_nl_lex d _ (tss ++ [[C ";"]])).
  - rewrite concat_app. cbn [concat app]. rewrite (statements_bal _ [] [] B eq_refl). exact P.
  - apply Forall2_app; [exact F|]. repeat constructor.
Qed.

(** ** Parameters *)
Definition ph_toks (d : dialect) (i : nat) : list token :=
  match d with
  | DPg => [C "$"; W (n_to_str (N.of_nat i))]
  | DMySQL => [C "%"; W "S"]
  | DMSSQL => [C "?"]
  | _ => [C ":"; W (n_to_str (N.of_nat i))]
  end.
Lemma ph_lex d i : lex d (placeholder d i) = Some (ph_toks d i).
Proof.
  assert (N : forall e, lex e (":" +++ n_to_str (N.of_nat i)) = Some [C ":"; W (n_to_str (N.of_nat i))]).
  { intros e. apply (app_ends e ":" _ [C ":"]); [reflexivity|reflexivity|apply lex_n]. }
  destruct d; cbn [placeholder ph_toks]; try apply N; try reflexivity.
  pose proof (lex_n DPg (N.of_nat i)) as X. change [C "$"; W (n_to_str (N.of_nat i))] with ([C "$"] ++ [W (n_to_str (N.of_nat i))]).
  apply (lex_step DPg _ [C "$"] (n_to_str (N.of_nat i))); [|exact X].
  destruct (n_to_str_nonempty (N.of_nat i)) as (c & r & E & D). rewrite E. cbn [append next].
  change (space_char "$") with false. change (Ascii.eqb "$" DQ) with false. change (Ascii.eqb "$" QT) with false. change (word_char "$") with false. change (symbol_char "$") with true. cbv iota.
  unfold opens_comment. cbn [head_is]. rewrite D. reflexivity.
Qed.
Lemma number_n n : number (n_to_str (N.of_nat n)) = Some n.
Proof.
  unfold number. rewrite n_to_str_inv, Nnat.Nat2N.id.
  unfold all_digits. rewrite n_to_str_digits. reflexivity.
Qed.
Lemma ph_param d i : param d i (ph_toks d i) = Some i.
Proof. destruct d; cbn [param ph_toks]; try reflexivity; exact (number_n i). Qed.
Lemma ph_bal d i : bal item_stop 0 (ph_toks d i) = true.
Proof. destruct d; reflexivity. Qed.
Definition vl_toks (d : dialect) (cols : list string) : list token := join_toks (map (ph_toks d) (seq 1 (length cols))).
Lemma vl_lex d cols : lex d (value_list d cols) = Some (vl_toks d cols).
Proof.
  unfold value_list, vl_toks. apply lex_join; [now left|]. generalize (seq 1 (length cols)). intros l. induction l; constructor; auto. apply ph_lex.
Qed.
Lemma vl_bal d cols : bal no_stop 0 (vl_toks d cols) = true.
Proof. apply bal_join_items. apply Forall_forall. intros x I. apply in_map_iff in I as (i & <- & _). apply ph_bal. Qed.
Lemma params_seq d n k : params_from d k (map (ph_toks d) (seq k n)) = Some (seq k n).
Proof. revert k. induction n as [|n IH]; intros k; [reflexivity|]. cbn [seq map params_from]. now rewrite ph_param, IH. Qed.
Lemma params_parse d cols r : cols <> [] -> params d (C "(" :: vl_toks d cols ++ C ")" :: r) = Some (in_order cols, r).
Proof.
  intros N. unfold params. cbn [sym]. rewrite Ascii.eqb_refl. rewrite inside_bal by apply vl_bal. unfold vl_toks.
  rewrite commas_join; [now rewrite params_seq| |].
  - destruct cols; [congruence|discriminate].
  - apply Forall_forall. intros x I. apply in_map_iff in I as (i & <- & _). apply ph_bal.
Qed.

(** ** Pieces *)
Definition val_toks (d : dialect) (cols : list string) : list token := C "(" :: ident_toks cols ++ C ")" :: W "VALUES" :: C "(" :: vl_toks d cols ++ [C ")"].
Lemma val_lex d cols : lex d (values_part d cols) = Some (val_toks d cols).
Proof.
  unfold values_part. change (col_list cols) with (cols_str cols).
  change (val_toks d cols) with ([C "("] ++ (ident_toks cols ++ ([C ")"; W "VALUES"; C "("] ++ (vl_toks d cols ++ [C ")"])))).
  apply (app_ends d "(" _ [C "("]); [reflexivity|reflexivity|]. apply app_lead; [apply lex_cols| |reflexivity].
  apply (app_ends d ") VALUES (" _ [C ")"; W "VALUES"; C "("]); [reflexivity|destruct d; reflexivity|]. apply app_lead; [apply vl_lex|destruct d; reflexivity|reflexivity].
Qed.
Lemma bal_val d cols r : bal no_stop 0 r = true -> bal no_stop 0 (val_toks d cols ++ r) = true.
Proof.
  intros R. unfold val_toks. cbn [app]. rewrite <- app_assoc. cbn [app]. apply bal_paren; [apply bal_idents|].
  change (bal no_stop 0 (C "(" :: (vl_toks d cols ++ [C ")"]) ++ r) = true). rewrite <- app_assoc. cbn [app]. apply bal_paren; [apply vl_bal|exact R].
Qed.
Definition into (d : dialect) (q : qid) : list token := W "INSERT" :: W "INTO" :: name_toks q.
Lemma into_lex d q : name_ok q -> lex d ("INSERT INTO " +++ quoted_id q) = Some (into d q).
Proof. intros Q. apply (app_ends d "INSERT INTO " _ [W "INSERT"; W "INTO"]); [reflexivity|destruct d; reflexivity|now apply lex_qid]. Qed.
Lemma insert_parse d q cols dts dup : cols <> [] -> duplicates d dts = Some dup ->
  data_statement d (into d q ++ val_toks d cols ++ dts) = Some (RInsert (scope_id q, local_id q) cols (in_order cols) dup).
Proof.
  intros N D.
  change (data_statement d (into d q ++ val_toks d cols ++ dts)) with
    (try (q', r) <- object_name (name_toks q ++ val_toks d cols ++ dts); try (cs, r) <- columns r; try r <- kw ["VALUES"] r; try (ps, r) <- params d r;
              try dup <- duplicates d r; if Nat.eqb (length cs) (length ps) then Some (RInsert q' cs ps dup) else None).
  rewrite name_parse by reflexivity. unfold val_toks. cbn [app]. rewrite <- app_assoc. cbn [app]. rewrite columns_parse by exact N.
  change (kw ["VALUES"] (W "VALUES" :: ?x)) with (Some x). cbv iota beta. rewrite <- app_assoc. cbn [app]. rewrite params_parse by exact N.
  rewrite D. unfold in_order. rewrite seq_length, Nat.eqb_refl. reflexivity.
Qed.
Lemma insert_bal d q cols dts : bal no_stop 0 dts = true -> bal no_stop 0 (into d q ++ val_toks d cols ++ dts) = true.
Proof. intros B. change (bal no_stop 0 (name_toks q ++ val_toks d cols ++ dts) = true). apply bal_app; [apply nm_bal|now apply bal_val]. Qed.

(** lists of assignments *)
Lemma items_lex {A} d sep (f : A -> string) (g : A -> list token) l : comma_sep sep -> (forall x, lex d (f x) = Some (g x)) ->
  lex d (join_str sep (map f l)) = Some (join_toks (map g l)).
Proof. intros S H. apply lex_join; [exact S|]. induction l; constructor; auto. Qed.
Lemma items_parse_all {A B} (p : list token -> option B) (g : A -> list token) (h : A -> B) l : l <> [] -> (forall x, bal item_stop 0 (g x) = true) -> (forall x, p (g x) = Some (h x)) ->
  each p (commas 0 (join_toks (map g l))) = Some (map h l).
Proof.
  intros N BL P. rewrite commas_join.
  - apply each_all. clear N. induction l; constructor; auto.
  - destruct l; [congruence|discriminate].
  - apply Forall_forall. intros x I. apply in_map_iff in I as (y & <- & _). apply BL.
Qed.
Lemma items_bal_all {A} (g : A -> list token) l : (forall x, bal item_stop 0 (g x) = true) -> bal no_stop 0 (join_toks (map g l)) = true.
Proof. intros B. apply bal_join_items. apply Forall_forall. intros x I. apply in_map_iff in I as (y & <- & _). apply B. Qed.

(** ** Each statement *)
Lemma insert_read d q cols : data_ok d (QInsert q cols) -> exists p, read_data d (render_dml d (QInsert q cols)) = Some p /\ says_data p (QInsert q cols).
Proof.
  intros [Q N]. eexists. split; [|eexists; split; reflexivity]. cbn [render_dml].
  apply (read_semi d _ [into d q; val_toks d cols]).
  - repeat constructor; [now apply into_lex|apply val_lex].
  - cbn [concat]. apply insert_bal. reflexivity.
  - cbn [concat]. apply insert_parse; [exact N|reflexivity].
Qed.
Lemma ignore_read q cols : data_ok DPg (QPgIgnore q cols) -> exists p, read_data DPg (render_dml DPg (QPgIgnore q cols)) = Some p /\ says_data p (QPgIgnore q cols).
Proof.
  intros (Q & N & _). eexists. split; [|eexists; split; reflexivity]. cbn [render_dml].
  apply (read_semi DPg _ [into DPg q; val_toks DPg cols; [W "ON"; W "CONFLICT"; W "DO"; W "NOTHING"]]).
  - repeat constructor; [now apply into_lex|apply val_lex].
  - cbn [concat]. apply insert_bal. reflexivity.
  - cbn [concat]. apply insert_parse; [exact N|reflexivity].
Qed.
Definition pg_item (c : string) : list token := [I c; C "="; W "EXCLUDED"; C "."; I c].
Lemma upsert_read q cols keys upd : data_ok DPg (QPgUpsert q cols keys upd) -> exists p, read_data DPg (render_dml DPg (QPgUpsert q cols keys upd)) = Some p /\ says_data p (QPgUpsert q cols keys upd).
Proof.
  intros (Q & N & K & _).
  assert (KL : forall tail tt, lex DPg tail = Some tt -> lead tail = true -> lex DPg ("ON CONFLICT (" +++ col_list keys +++ tail) = Some (W "ON" :: W "CONFLICT" :: C "(" :: ident_toks keys ++ tt)).
  { intros tail tt T1 T2. apply (app_ends DPg "ON CONFLICT (" _ [W "ON"; W "CONFLICT"; C "("]); [reflexivity|reflexivity|]. apply app_lead; [apply lex_cols|exact T1|exact T2]. }
  assert (DD : forall r, duplicates DPg (W "ON" :: W "CONFLICT" :: C "(" :: ident_toks keys ++ C ")" :: r) =
      (match kw ["DO"; "NOTHING"] r with
        | Some r => done (Skip (Some keys)) r
        | None => try r <- kw ["DO"; "UPDATE"; "SET"] r; try l <- each pg_assignment (commas 0 r); Some (Assign (Some keys) l) end)).
  { intros r. change (duplicates DPg (W "ON" :: W "CONFLICT" :: ?x)) with
      (try (ks, r) <- match kw ["DO"] x with Some _ => Some (None, x) | None => try (cs, r2) <- columns x; Some (Some cs, r2) end;
        match kw ["DO"; "NOTHING"] r with
        | Some r => done (Skip ks) r
        | None => try r <- kw ["DO"; "UPDATE"; "SET"] r; try l <- each pg_assignment (commas 0 r);
                  match ks with Some _ => Some (Assign ks l) | None => None end end).
    cbn [kw]. rewrite columns_parse by exact K. reflexivity. }
  destruct upd as [|u upd].
  - eexists. split; [|eexists; split; reflexivity]. cbn [render_dml].
    apply (read_semi DPg _ [into DPg q; val_toks DPg cols; W "ON" :: W "CONFLICT" :: C "(" :: ident_toks keys ++ [C ")"; W "DO"; W "NOTHING"]]).
    + repeat constructor; [now apply into_lex|apply val_lex|apply KL; reflexivity].
    + cbn [concat]. rewrite app_nil_r. apply insert_bal. change (bal no_stop 0 (C "(" :: ident_toks keys ++ [C ")"; W "DO"; W "NOTHING"]) = true). apply bal_paren; [apply bal_idents|reflexivity].
    + cbn [concat]. rewrite app_nil_r. apply insert_parse; [exact N|]. rewrite DD. reflexivity.
  - set (us := u :: upd). assert (NU : us <> []) by discriminate. eexists. split; [|eexists; split; reflexivity]. fold us. cbn [render_dml]. unfold us at 1. fold us.
    apply (read_semi DPg _ [into DPg q; val_toks DPg cols; W "ON" :: W "CONFLICT" :: C "(" :: ident_toks keys ++ [C ")"; W "DO"; W "UPDATE"; W "SET"]; join_toks (map pg_item us)]).
    + repeat constructor; [now apply into_lex|apply val_lex|apply KL; reflexivity|].
      apply (items_lex DPg comma_nl _ pg_item); [now right|]. intros x. change (pg_item x) with ([I x] ++ ([C "="; W "EXCLUDED"; C "."] ++ [I x])).
      apply app_lead; [apply lex_ident| |reflexivity]. apply (app_ends DPg " = EXCLUDED." _ [C "="; W "EXCLUDED"; C "."]); [reflexivity|reflexivity|apply lex_ident].
    + cbn [concat]. rewrite app_nil_r. apply insert_bal. cbn [app]. rewrite <- app_assoc. cbn [app].
      change (bal no_stop 0 (C "(" :: ident_toks keys ++ C ")" :: W "DO" :: W "UPDATE" :: W "SET" :: join_toks (map pg_item us)) = true). apply bal_paren; [apply bal_idents|].
      change (bal no_stop 0 (join_toks (map pg_item us)) = true). apply items_bal_all. reflexivity.
    + cbn [concat]. rewrite app_nil_r. apply insert_parse; [exact N|]. cbn [app]. rewrite <- app_assoc. cbn [app]. rewrite DD.
      change (match kw ["DO"; "NOTHING"] (W "DO" :: W "UPDATE" :: W "SET" :: ?x) with Some r => _ | None => _ end) with (try l <- each pg_assignment (commas 0 x); Some (Assign (Some keys) l)).
      rewrite (items_parse_all pg_assignment pg_item (fun c => (c, Incoming c))); [reflexivity|exact NU|reflexivity|reflexivity].
Qed.
Definition dup_kws : list token := [W "ON"; W "DUPLICATE"; W "KEY"; W "UPDATE"].
Lemma my_read_gen q cols (f : string -> string) (g : string -> list token) (h : string -> string * source) cs :
  name_ok q -> cols <> [] -> cs <> [] -> (forall x, lex DMySQL (f x) = Some (g x)) -> (forall x, bal item_stop 0 (g x) = true) -> (forall x, my_assignment (g x) = Some (h x)) ->
  read_data DMySQL (Dml.semi ["INSERT INTO " +++ quoted_id q; values_part DMySQL cols; "ON DUPLICATE KEY UPDATE"; join_str comma_nl (map f cs)])
  = Some (RInsert (scope_id q, local_id q) cols (in_order cols) (Assign None (map h cs))).
Proof.
  intros Q N NC L B P. apply (read_semi DMySQL _ [into DMySQL q; val_toks DMySQL cols; dup_kws; join_toks (map g cs)]).
  - repeat constructor; [now apply into_lex|apply val_lex|]. apply items_lex; [now right|exact L].
  - cbn [concat]. rewrite app_nil_r. apply insert_bal. change (bal no_stop 0 (join_toks (map g cs)) = true). now apply items_bal_all.
  - cbn [concat]. rewrite app_nil_r. apply insert_parse; [exact N|].
    change (duplicates DMySQL (dup_kws ++ ?x)) with (try l <- each my_assignment (commas 0 x); Some (Assign None l)).
    rewrite (items_parse_all my_assignment g h); [reflexivity|exact NC|exact B|exact P].
Qed.
Lemma my_read q cols dup : data_ok DMySQL (QMyInsert q cols dup) -> exists p, read_data DMySQL (render_dml DMySQL (QMyInsert q cols dup)) = Some p /\ says_data p (QMyInsert q cols dup).
Proof.
  intros H. destruct dup as [cs|cs]; destruct H as (Q & N & NC & _); (eexists; split; [|eexists; split; reflexivity]); cbn [render_dml].
  - apply (my_read_gen q cols _ (fun c => [I c; C "="; I c]) (fun c => (c, Present c))); auto; intros x.
    change [I x; C "="; I x] with ([I x] ++ ([C "="] ++ [I x])). apply app_lead; [apply lex_ident| |reflexivity]. apply (app_ends DMySQL " = " _ [C "="]); [reflexivity|reflexivity|apply lex_ident].
  - apply (my_read_gen q cols _ (fun c => [I c; C "="; W "VALUES"; C "("; I c; C ")"]) (fun c => (c, Incoming c))); auto; intros x.
    change [I x; C "="; W "VALUES"; C "("; I x; C ")"] with ([I x] ++ ([C "="; W "VALUES"; C "("] ++ ([I x] ++ [C ")"]))). apply app_lead; [apply lex_ident| |reflexivity].
    apply (app_ends DMySQL " = VALUES(" _ [C "="; W "VALUES"; C "("]); [reflexivity|reflexivity|]. apply app_lead; [apply lex_ident|reflexivity|reflexivity].
Qed.
Lemma delete_read d q c : name_ok q -> read_data d (render_dml d (QDelete q c)) = Some (RDelete (scope_id q, local_id q) c 1).
Proof.
  intros Q. cbn [render_dml]. set (ts := [W "DELETE"; W "FROM"] ++ (name_toks q ++ ([W "WHERE"] ++ ([I c] ++ ([C "="] ++ ph_toks d 1))))).
  assert (Lx : lex d ("DELETE FROM " +++ quoted_id q +++ " WHERE " +++ local_quoted c +++ " = " +++ placeholder d 1) = Some ts).
  { apply app_ends; [reflexivity|destruct d; reflexivity|]. apply app_lead; [now apply lex_qid| |reflexivity]. apply app_ends; [reflexivity|destruct d; reflexivity|].
    apply app_lead; [apply lex_ident| |reflexivity]. apply app_ends; [reflexivity|destruct d; reflexivity|apply ph_lex]. }
  assert (B : bal no_stop 0 ts = true).
  { change (bal no_stop 0 (name_toks q ++ ([W "WHERE"] ++ ([I c] ++ ([C "="] ++ ph_toks d 1)))) = true). apply bal_app; [apply nm_bal|]. destruct d; reflexivity. }
  assert (D : data_statement d ts = Some (RDelete (scope_id q, local_id q) c 1)).
  { change (data_statement d ts) with (try (q', r) <- object_name (name_toks q ++ [W "WHERE"; I c; C "="] ++ ph_toks d 1); try r <- kw ["WHERE"] r; try (c, r) <- ident r; try r <- sym "=" r;
              try k <- param d 1 r; Some (RDelete q' c k)).
    rewrite name_parse by reflexivity.
    change (match kw ["WHERE"] ([W "WHERE"; I c; C "="] ++ ph_toks d 1) with Some r => _ | None => None end) with (try k <- param d 1 (ph_toks d 1); Some (RDelete (scope_id q, local_id q) c k)).
    rewrite ph_param. reflexivity. }
  unfold read_data. cbn [append] in Lx |- *. rewrite Lx.
  assert (S0 : statements ts = None).
  { assert (G : forall k l, bal no_stop k l = true -> l <> [] -> statements l = None).
    { intros k l. revert k. induction l as [|t l IH]; intros k Hb Hn; [congruence|]. cbn [bal] in Hb. cbn [statements]. walk t.
      - destruct l; [reflexivity|]. rewrite (IH _ Hb); [reflexivity|discriminate].
      - destruct k; [discriminate|]. destruct l; [reflexivity|]. rewrite (IH _ Hb); [reflexivity|discriminate].
      - destruct (no_stop t && Nat.eqb k 0); [discriminate|]. destruct l; [reflexivity|]. rewrite (IH _ Hb); [reflexivity|discriminate]. }
    apply (G 0 _ B). discriminate. }
  rewrite S0, (statements_bal ts [] [] B eq_refl). exact D.
Qed.

(** ** MERGE *)
Definition eq_toks (c : string) : list token := [W "TARGET"; C "."; I c; C "="; W "SOURCE"; C "."; I c].
Fixpoint or_toks (l : list (list token)) : list token := match l with [] => [] | [x] => x | x :: r => x ++ W "OR" :: or_toks r end.
Definition src_toks (c : string) : list token := [W "SOURCE"; C "."; I c].
Lemma eq_lex d c : lex d ("target." +++ local_quoted c +++ " = source." +++ local_quoted c) = Some (eq_toks c).
Proof.
  change (eq_toks c) with ([W "TARGET"; C "."] ++ ([I c] ++ ([C "="; W "SOURCE"; C "."] ++ [I c]))).
  apply app_ends; [reflexivity|destruct d; reflexivity|]. apply app_lead; [apply lex_ident| |reflexivity]. apply app_ends; [reflexivity|destruct d; reflexivity|apply lex_ident].
Qed.
Lemma src_lex d c : lex d ("source." +++ local_quoted c) = Some (src_toks c).
Proof. apply (app_ends d "source." _ [W "SOURCE"; C "."]); [reflexivity|destruct d; reflexivity|apply lex_ident]. Qed.
Lemma or_lex d l : lex d (join_str " OR " (map (fun c => "target." +++ local_quoted c +++ " = source." +++ local_quoted c) l)) = Some (or_toks (map eq_toks l)).
Proof.
  induction l as [|x l IH]; [destruct d; reflexivity|]. destruct l as [|y l]; [apply eq_lex|].
  cbn [map]. rewrite join_str_cons. change (or_toks (eq_toks x :: eq_toks y :: map eq_toks l)) with (eq_toks x ++ ([W "OR"] ++ or_toks (map eq_toks (y :: l)))).
  apply app_lead; [apply eq_lex| |reflexivity]. apply app_ends; [reflexivity|destruct d; reflexivity|exact IH].
Qed.
Lemma ors_join l : l <> [] -> ors (or_toks (map eq_toks l)) = map eq_toks l.
Proof.
  intros N. induction l as [|x l IH]; [congruence|]. destruct l as [|y l]; [reflexivity|].
  change (or_toks (map eq_toks (x :: y :: l))) with (eq_toks x ++ W "OR" :: or_toks (map eq_toks (y :: l))).
  change (ors (eq_toks x ++ W "OR" :: ?r)) with (eq_toks x :: ors r). rewrite IH by discriminate. reflexivity.
Qed.
Lemma or_bal l : bal no_stop 0 (or_toks (map eq_toks l)) = true.
Proof. induction l as [|x l IH]; [reflexivity|]. destruct l as [|y l]; [reflexivity|]. exact IH. Qed.
Definition when_upd (us : list string) : list token := W "WHEN" :: W "MATCHED" :: W "THEN" :: W "UPDATE" :: W "SET" :: join_toks (map eq_toks us).
Definition when_ins (is : list string) : list token :=
  W "WHEN" :: W "NOT" :: W "MATCHED" :: W "THEN" :: W "INSERT" :: C "(" :: ident_toks is ++ C ")" :: W "VALUES" :: C "(" :: join_toks (map src_toks is) ++ [C ")"].
Definition opt_toks {A} (o : option A) (f : A -> list token) : list token := match o with Some x => f x | None => [] end.
Lemma until_when_app a r : Forall (fun t => is_sym "(" t = false /\ is_sym ")" t = false /\ is_word ["WHEN"] t = false) a -> r = [] \/ (exists r', r = W "WHEN" :: r') ->
  until_word "WHEN" 0 (a ++ r) = (a, r).
Proof.
  intros F R. induction F as [|t a (A1 & A2 & A3) F IH]; [destruct R as [-> | (r' & ->)]; reflexivity|].
  cbn [app until_word]. rewrite A1, A2, A3, IH. reflexivity.
Qed.
Lemma eqs_plain us : Forall (fun t => is_sym "(" t = false /\ is_sym ")" t = false /\ is_word ["WHEN"] t = false) (join_toks (map eq_toks us)).
Proof.
  induction us as [|x us IH]; [constructor|]. destruct us as [|y us]; [repeat constructor|].
  change (join_toks (map eq_toks (x :: y :: us))) with (eq_toks x ++ C "," :: join_toks (map eq_toks (y :: us))). apply Forall_app. split; [repeat constructor|]. constructor; [repeat constructor|exact IH].
Qed.
Lemma upd_parse us r : us <> [] -> r = [] \/ (exists r', r = W "WHEN" :: r') ->
  (let (a, b) := until_word "WHEN" 0 (join_toks (map eq_toks us) ++ r) in try l <- each equation (commas 0 a); Some (Some l, b)) = Some (Some (map twice us), r).
Proof.
  intros N R. rewrite (until_when_app _ _ (eqs_plain us) R). rewrite (items_parse_all equation eq_toks twice); [reflexivity|exact N|reflexivity|reflexivity].
Qed.
Lemma ins_parse is : is <> [] ->
  (try (ic, r) <- columns (C "(" :: ident_toks is ++ C ")" :: W "VALUES" :: C "(" :: join_toks (map src_toks is) ++ [C ")"]); try r <- kw ["VALUES"] r; try r <- sym "(" r; try (a, r) <- inside 0 r;
                              try l <- each source_ref (commas 0 a); Some (Some (ic, l), r)) = Some (Some (twice is), []).
Proof.
  intros N. rewrite columns_parse by exact N. change (kw ["VALUES"] (W "VALUES" :: ?x)) with (Some x). cbv iota beta. change (sym "(" (C "(" :: ?x)) with (Some x). cbv iota beta.
  rewrite inside_bal by (apply items_bal_all; reflexivity). rewrite (items_parse_all source_ref src_toks (fun c => c)); [rewrite map_id; reflexivity|exact N|reflexivity|reflexivity].
Qed.
Lemma no_when_matched is : kw ["WHEN"; "MATCHED"; "THEN"; "UPDATE"; "SET"] (when_ins is) = None.
Proof. reflexivity. Qed.

Lemma merge_parse d q cols ms upd ins : cols <> [] -> ms <> [] -> filled upd -> filled ins -> upd <> None \/ ins <> None ->
  merge d (name_toks q ++ W "TARGET" :: W "USING" :: C "(" :: W "VALUES" :: C "(" :: vl_toks d cols ++ C ")" :: C ")" :: W "SOURCE" :: C "(" :: ident_toks cols ++ C ")" ::
           W "ON" :: C "(" :: or_toks (map eq_toks ms) ++ C ")" :: opt_toks upd when_upd ++ opt_toks ins when_ins)
  = Some (RMerge (scope_id q, local_id q) cols (in_order cols) (map twice ms) (option_map (map twice) upd) (option_map twice ins)).
Proof.
  intros N M U J H. unfold merge. rewrite name_parse by reflexivity. cbv iota beta.
  change (kw ["TARGET"; "USING"] (W "TARGET" :: W "USING" :: ?x)) with (Some x). cbv iota beta. change (sym "(" (C "(" :: W "VALUES" :: ?x)) with (Some (W "VALUES" :: x)). cbv iota beta.
  change (kw ["VALUES"] (W "VALUES" :: ?x)) with (Some x). cbv iota beta. rewrite params_parse by exact N. cbv iota beta.
  change (sym ")" (C ")" :: ?x)) with (Some x). cbv iota beta. change (kw ["SOURCE"] (W "SOURCE" :: ?x)) with (Some x). cbv iota beta. rewrite columns_parse by exact N. cbv iota beta.
  change (kw ["ON"] (W "ON" :: ?x)) with (Some x). cbv iota beta. change (sym "(" (C "(" :: ?x)) with (Some x). cbv iota beta. rewrite inside_bal by apply or_bal. cbv iota beta.
  rewrite (ors_join ms M).
  assert (E : each equation (map eq_toks ms) = Some (map twice ms)) by (apply each_all; clear; induction ms; constructor; auto). rewrite E. clear E. cbv iota beta.
  assert (T : opt_toks ins when_ins = [] \/ exists r', opt_toks ins when_ins = W "WHEN" :: r') by (destruct ins as [is|]; [right; eexists; reflexivity|now left]).
  assert (XU : (match kw ["WHEN"; "MATCHED"; "THEN"; "UPDATE"; "SET"] (opt_toks upd when_upd ++ opt_toks ins when_ins) with
                  | Some r => let (a, b) := until_word "WHEN" 0 r in try l <- each equation (commas 0 a); Some (Some l, b)
                  | None => Some (None, opt_toks upd when_upd ++ opt_toks ins when_ins) end) = Some (option_map (map twice) upd, opt_toks ins when_ins)).
  { destruct upd as [us|].
    - change (kw ["WHEN"; "MATCHED"; "THEN"; "UPDATE"; "SET"] (opt_toks (Some us) when_upd ++ ?x)) with (Some (join_toks (map eq_toks us) ++ x)). cbv iota beta. rewrite upd_parse; [reflexivity| |exact T].
      intros ->. now apply U.
    - destruct ins; reflexivity. }
  rewrite XU. cbv iota beta.
  assert (XI : (match kw ["WHEN"; "NOT"; "MATCHED"; "THEN"; "INSERT"] (opt_toks ins when_ins) with
                  | Some r => try (ic, r) <- columns r; try r <- kw ["VALUES"] r; try r <- sym "(" r; try (a, r) <- inside 0 r;
                              try l <- each source_ref (commas 0 a); Some (Some (ic, l), r)
                  | None => Some (None, opt_toks ins when_ins) end) = Some (option_map twice ins, [])).
  { destruct ins as [is|]; [|reflexivity].
    change (kw ["WHEN"; "NOT"; "MATCHED"; "THEN"; "INSERT"] (opt_toks (Some is) when_ins)) with (Some (C "(" :: ident_toks is ++ C ")" :: W "VALUES" :: C "(" :: join_toks (map src_toks is) ++ [C ")"])).
    cbv iota. rewrite ins_parse; [reflexivity|]. intros ->. now apply J. }
  rewrite XI. cbv iota beta. destruct upd, ins; try reflexivity. exfalso. destruct H; congruence.
Qed.
Lemma merge_read d q cols ms upd ins : data_ok d (QMerge q cols ms upd ins) -> exists p, read_data d (render_dml d (QMerge q cols ms upd ins)) = Some p /\ says_data p (QMerge q cols ms upd ins).
Proof.
  intros (Q & N & M & U & J & H & D1 & D2). eexists. split; [|eexists; split; reflexivity]. cbn [render_dml].
  set (t1 := [W "MERGE"; W "INTO"] ++ (name_toks q ++ [W "TARGET"])).
  set (t2 := [W "USING"; C "("; W "VALUES"; C "("] ++ (vl_toks d cols ++ ([C ")"; C ")"; W "SOURCE"; C "("] ++ (ident_toks cols ++ [C ")"])))).
  set (t3 := [W "ON"; C "("] ++ (or_toks (map eq_toks ms) ++ [C ")"])).
  assert (L1 : lex d ("MERGE INTO " +++ quoted_id q +++ " target") = Some t1).
  { apply app_ends; [reflexivity|destruct d; reflexivity|]. apply app_lead; [now apply lex_qid|destruct d; reflexivity|reflexivity]. }
  assert (L2 : lex d ("USING (VALUES (" +++ value_list d cols +++ ")) source(" +++ col_list cols +++ ")") = Some t2).
  { apply app_ends; [reflexivity|destruct d; reflexivity|]. apply app_lead; [apply vl_lex| |reflexivity]. apply app_ends; [reflexivity|destruct d; reflexivity|].
    apply app_lead; [apply lex_cols|destruct d; reflexivity|reflexivity]. }
  assert (L3 : lex d ("ON (" +++ join_str " OR " (map (fun c => "target." +++ local_quoted c +++ " = source." +++ local_quoted c) ms) +++ ")") = Some t3).
  { apply app_ends; [reflexivity|destruct d; reflexivity|]. apply app_lead; [apply or_lex|destruct d; reflexivity|reflexivity]. }
  set (pu := opt_part upd (fun us => ["WHEN MATCHED THEN"; "UPDATE SET " +++ join_str ", " (map (fun c => "target." +++ local_quoted c +++ " = source." +++ local_quoted c) us)])).
  set (tu := opt_toks upd when_upd).
  assert (Lu : exists tus, Forall2 (fun s t => lex d s = Some t) pu tus /\ concat tus = tu).
  { unfold pu, tu. destruct upd as [us|]; cbn [opt_part opt_toks]; [|exists []; split; constructor].
    exists [[W "WHEN"; W "MATCHED"; W "THEN"]; [W "UPDATE"; W "SET"] ++ join_toks (map eq_toks us)]. split; [|cbn [concat]; rewrite app_nil_r; reflexivity].
    constructor; [destruct d; reflexivity|]. constructor; [|constructor]. apply app_ends; [reflexivity|destruct d; reflexivity|]. apply items_lex; [now left|apply eq_lex]. }
  set (pi := opt_part ins (fun is => ["WHEN NOT MATCHED THEN"; "INSERT (" +++ col_list is +++ ") VALUES (" +++ join_str ", " (map (fun c => "source." +++ local_quoted c) is) +++ ")"])).
  set (ti := opt_toks ins when_ins).
  assert (Li : exists tis, Forall2 (fun s t => lex d s = Some t) pi tis /\ concat tis = ti).
  { unfold pi, ti. destruct ins as [is|]; cbn [opt_part opt_toks]; [|exists []; split; constructor].
    exists [[W "WHEN"; W "NOT"; W "MATCHED"; W "THEN"]; [W "INSERT"; C "("] ++ (ident_toks is ++ ([C ")"; W "VALUES"; C "("] ++ (join_toks (map src_toks is) ++ [C ")"])))]. split; [|cbn [concat]; rewrite app_nil_r; reflexivity].
    constructor; [destruct d; reflexivity|]. constructor; [|constructor]. apply app_ends; [reflexivity|destruct d; reflexivity|]. apply app_lead; [apply lex_cols| |reflexivity].
    apply app_ends; [reflexivity|destruct d; reflexivity|]. apply app_lead; [apply items_lex; [now left|apply src_lex]|destruct d; reflexivity|reflexivity]. }
  destruct Lu as (tus & Fu & Eu). destruct Li as (tis & Fi & Ei).
  assert (TT : concat ([t1; t2] ++ [t3] ++ tus ++ tis) = W "MERGE" :: W "INTO" :: name_toks q ++ W "TARGET" :: W "USING" :: C "(" :: W "VALUES" :: C "(" :: vl_toks d cols ++ C ")" :: C ")" :: W "SOURCE" :: C "(" :: ident_toks cols ++ C ")" ::
           W "ON" :: C "(" :: or_toks (map eq_toks ms) ++ C ")" :: tu ++ ti).
  { rewrite !concat_app, Eu, Ei. cbn [concat]. unfold t1, t2, t3. repeat (progress (rewrite <- ?app_assoc; cbn [app])). reflexivity. }
  apply (read_semi d _ ([t1; t2] ++ [t3] ++ tus ++ tis)).
  - apply (Forall2_app (l1 := ["MERGE INTO " +++ quoted_id q +++ " target"; "USING (VALUES (" +++ value_list d cols +++ ")) source(" +++ col_list cols +++ ")"])); [repeat constructor; [exact L1|exact L2]|].
    apply Forall2_app; [|apply Forall2_app; [exact Fu|exact Fi]]. destruct ms as [|m ms]; [congruence|]. repeat constructor. exact L3.
  - rewrite TT. change (bal no_stop 0 (W "MERGE" :: W "INTO" :: ?x)) with (bal no_stop 0 x). apply bal_app; [apply nm_bal|].
    change (bal no_stop 0 (C "(" :: W "VALUES" :: C "(" :: vl_toks d cols ++ C ")" :: C ")" :: W "SOURCE" :: C "(" :: ident_toks cols ++ C ")" ::
           W "ON" :: C "(" :: or_toks (map eq_toks ms) ++ C ")" :: tu ++ ti) = true).
    pose proof (bal_paren no_stop (W "VALUES" :: C "(" :: vl_toks d cols ++ [C ")"])) as P. cbn [app] in P. specialize (P (W "SOURCE" :: C "(" :: ident_toks cols ++ C ")" :: W "ON" :: C "(" :: or_toks (map eq_toks ms) ++ C ")" :: tu ++ ti)).
    rewrite <- app_assoc in P. cbn [app] in P. apply P; clear P.
    + change (bal no_stop 0 (C "(" :: vl_toks d cols ++ [C ")"]) = true). apply bal_paren; [apply vl_bal|reflexivity].
    + change (bal no_stop 0 (C "(" :: ident_toks cols ++ C ")" :: W "ON" :: C "(" :: or_toks (map eq_toks ms) ++ C ")" :: tu ++ ti) = true). apply bal_paren; [apply bal_idents|].
      change (bal no_stop 0 (C "(" :: or_toks (map eq_toks ms) ++ C ")" :: tu ++ ti) = true). apply bal_paren; [apply or_bal|]. apply bal_app.
      * unfold tu. destruct upd; [|reflexivity]. change (bal no_stop 0 (join_toks (map eq_toks l)) = true). apply items_bal_all. reflexivity.
      * unfold ti. destruct ins as [is|]; [|reflexivity]. change (bal no_stop 0 (C "(" :: ident_toks is ++ C ")" :: W "VALUES" :: C "(" :: join_toks (map src_toks is) ++ [C ")"]) = true).
        apply bal_paren; [apply bal_idents|]. change (bal no_stop 0 (C "(" :: join_toks (map src_toks is) ++ [C ")"]) = true). apply bal_paren; [apply items_bal_all; reflexivity|reflexivity].
  - rewrite TT. transitivity (merge d (name_toks q ++ W "TARGET" :: W "USING" :: C "(" :: W "VALUES" :: C "(" :: vl_toks d cols ++ C ")" :: C ")" :: W "SOURCE" :: C "(" :: ident_toks cols ++ C ")" ::
           W "ON" :: C "(" :: or_toks (map eq_toks ms) ++ C ")" :: tu ++ ti)).
    + unfold data_statement. change (kw ["INSERT"; "INTO"] (W "MERGE" :: ?x)) with (@None (list token)). cbv iota. change (kw ["MERGE"; "INTO"] (W "MERGE" :: W "INTO" :: ?x)) with (Some x). cbv iota.
      destruct d; congruence || reflexivity.
    + apply merge_parse; auto.
Qed.
Lemma data_read d s : data_ok d s -> exists p, read_data d (render_dml d s) = Some p /\ says_data p s.
Proof.
  intros H. destruct s as [q cols|q cols|q cols keys upd|q cols dup|q cols ms upd ins|q c].
  - now apply insert_read.
  - destruct H as (H1 & H2 & ->). apply ignore_read. repeat split; auto.
  - destruct H as (H1 & H2 & H3 & ->). apply upsert_read. repeat split; auto.
  - assert (d = DMySQL) by (destruct dup; apply H). subst d. now apply my_read.
  - now apply merge_read.
  - eexists. split; [now apply delete_read|]. eexists. split; reflexivity.
Qed.
