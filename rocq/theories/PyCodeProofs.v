(** Proofs for C67. *)
From Verif Require Import PyStr PyCode PyCodeSpec.
From Coq Require Import Lia.
Open Scope string_scope.
Open Scope list_scope.

(** ** lines *)
Lemma lines_app a s : has_char LF a = false -> lines ((a ++ NL ++ s)%string) = a :: lines s.
Proof.
  induction a as [|c a IH]; [reflexivity|]. cbn [has_char]. rewrite Bool.orb_false_iff. intros [H1 H2]. specialize (IH H2).
  change ((String c a ++ NL ++ s)%string) with (String c (a ++ NL ++ s)%string). cbn [lines]. rewrite H1, IH. reflexivity.
Qed.
Lemma lines_print ls : Forall (fun l => has_char LF l = false) ls -> lines (print ls) = ls ++ [""].
Proof. induction 1 as [|l ls H _ IH]; [reflexivity|]. change (print (l :: ls)) with ((l ++ NL ++ print ls)%string). now rewrite lines_app, IH. Qed.
(** ** constants *)
Definition is_quote (q : ascii) : Prop := q = QT \/ q = DQ.
Lemma quoted_char q c t : is_quote q -> quoted q (repr_char q c ++ t)%string = add c (quoted q t).
Proof.
  intros [-> | ->].
  - destruct c as [[|] [|] [|] [|] [|] [|] [|] [|]]; reflexivity.
  - destruct c as [[|] [|] [|] [|] [|] [|] [|] [|]]; reflexivity.
Qed.
Lemma quoted_text q s : is_quote q -> quoted q (translate (repr_char q) s ++ str1 q)%string = Some s.
Proof.
  intros Q. induction s as [|c s IH]; [destruct Q as [-> | ->]; reflexivity|]. cbn [translate]. rewrite append_assoc, quoted_char by exact Q. now rewrite IH.
Qed.
Lemma repr_quote s : exists q, is_quote q /\ repr_str s = String q (translate (repr_char q) s ++ str1 q)%string.
Proof. unfold repr_str. destruct (has_char QT s && negb (has_char DQ s)); [exists DQ|exists QT]; (split; [unfold is_quote; tauto|reflexivity]). Qed.
Lemma char_line q c : is_quote q -> has_char LF (repr_char q c) = false.
Proof. intros [-> | ->]; destruct c as [[|] [|] [|] [|] [|] [|] [|] [|]]; reflexivity. Qed.
Lemma repr_str_line s : has_char LF (repr_str s) = false.
Proof.
  destruct (repr_quote s) as (q & Q & ->). cbn [has_char]. replace (Ascii.eqb q LF) with false by (destruct Q as [-> | ->]; reflexivity). cbn [orb].
  induction s as [|c s IH]; [destruct Q as [-> | ->]; reflexivity|]. cbn [translate]. now rewrite append_assoc, has_char_app, char_line, IH.
Qed.
Lemma read_repr_str s : read_literal (repr_str s) = Some (LStr s).
Proof.
  destruct (repr_quote s) as (q & Q & ->). unfold read_literal. rewrite (quoted_text q s Q). destruct Q as [-> | ->]; reflexivity.
Qed.
Lemma natural_n n : natural (n_to_str n) = Some (Z.of_N n).
Proof. unfold natural. rewrite n_to_str_inv. destruct (n_to_str_nonempty n) as (c & r & E & _). now rewrite E. Qed.
Lemma digit_char c : is_digit c = true -> Ascii.eqb c QT = false /\ Ascii.eqb c DQ = false /\ Ascii.eqb c "-" = false /\ Ascii.eqb c "N" = false /\ Ascii.eqb c "T" = false /\ Ascii.eqb c "F" = false.
Proof. destruct c as [[|] [|] [|] [|] [|] [|] [|] [|]]; cbn; intros H; try discriminate H; auto 10. Qed.
Lemma read_natural n : read_literal (n_to_str n) = Some (LInt (Z.of_N n)).
Proof.
  pose proof (natural_n n) as X. destruct (n_to_str_nonempty n) as (c & r & E & D). rewrite E in *. destruct (digit_char c D) as (A & B & M & N & T & F). unfold read_literal. rewrite A, B, M, X. cbn [orb String.eqb]. now rewrite N, T, F.
Qed.
Lemma read_repr v : constant v -> read_literal (repr v) = Some v.
Proof.
  destruct v as [|[]|z|s|t]; cbn [constant repr]; intros C; try reflexivity; [|apply read_repr_str|destruct C].
  destruct z as [|p|p]; cbn [z_to_str]; [reflexivity|exact (read_natural (Npos p))|].
  change (("-" ++ n_to_str (Npos p))%string) with (String "-" (n_to_str (Npos p))). unfold read_literal. cbn [Ascii.eqb Bool.eqb QT DQ orb String.eqb]. rewrite natural_n. reflexivity.
Qed.
Lemma digits_line s : any_char (fun x => negb (is_digit x)) s = false -> has_char LF s = false.
Proof.
  induction s as [|x s IH]; [reflexivity|]. cbn [any_char has_char]. rewrite !Bool.orb_false_iff. intros [D1 D2]. split; [|auto].
  destruct (Ascii.eqb_spec x LF) as [->|]; [discriminate D1|reflexivity].
Qed.
Lemma repr_line v : constant v -> has_char LF (repr v) = false.
Proof.
  destruct v as [|[]|z|s|t]; cbn [constant repr]; intros C; try reflexivity; [|apply repr_str_line|destruct C].
  destruct z as [|p|p]; cbn [z_to_str]; [reflexivity|apply digits_line, n_to_str_digits|]. cbn [append has_char]. apply (digits_line _ (n_to_str_digits (Npos p))).
Qed.

(** ** names *)
Definition stops (r : string) : Prop := match r with String c _ => name_char c = false | "" => True end.
Lemma name_span_app n : any_char (fun x => negb (name_char x)) n = false -> forall r, stops r -> name_span (n ++ r)%string = (n, r).
Proof.
  induction n as [|c n IH]; cbn [any_char]; intros H r S.
  - cbn [append]. destruct r as [|c r]; [reflexivity|]. cbn [name_span stops] in *. now rewrite S.
  - apply Bool.orb_false_iff in H as [H1 H2]. cbn [append name_span]. rewrite (IH H2 r S). apply Bool.negb_false_iff in H1. now rewrite H1.
Qed.
Lemma identifier_parts n : identifier n = true -> any_char (fun x => negb (name_char x)) n = false.
Proof. unfold identifier. destruct n as [|c n]; [discriminate|]. rewrite !Bool.andb_true_iff. intros [[_ H] _]. now apply Bool.negb_true_iff in H. Qed.
Lemma name_of_app n r : identifier n = true -> stops r -> name_of (n ++ r)%string = Some (n, r).
Proof. intros I S. unfold name_of. rewrite (name_span_app n (identifier_parts n I) r S). now rewrite I. Qed.
Lemma name_line n : identifier n = true -> has_char LF n = false.
Proof.
  intros I. apply identifier_parts in I. induction n as [|c n IH]; [reflexivity|]. cbn [any_char has_char] in *. apply Bool.orb_false_iff in I as [A B].
  rewrite (IH B). destruct (Ascii.eqb_spec c LF) as [->|]; [discriminate A|reflexivity].
Qed.
(** an identifier begins with a character that is neither a quotation mark nor one of those that other lines begin with *)
Lemma identifier_first n : identifier n = true -> exists c r, n = String c r /\ Ascii.eqb c QT = false /\ Ascii.eqb c DQ = false /\ Ascii.eqb c " " = false /\ Ascii.eqb c "@" = false.
Proof.
  intros I. pose proof (identifier_parts n I) as P. destruct n as [|c r]; [discriminate I|]. exists c, r. split; [reflexivity|]. cbn [any_char] in P. apply Bool.orb_false_iff in P as [P _]. apply Bool.negb_false_iff in P.
  clear I. destruct c as [[|] [|] [|] [|] [|] [|] [|] [|]]; try discriminate P; auto.
Qed.

(** ** annotations *)
Definition more (a : string) (x : option (string * string)) : option (string * string) := match x with Some (b, r) => Some ((a ++ b)%string, r) | None => None end.
Lemma annotation_app t : forall w r, annotation w t = Some (t, "") -> annotation w (t ++ r)%string = more t (annotation (Outside 0) r).
Proof.
  induction t as [|c t IH]; intros w r H.
  - cbn [append]. cbn [annotation] in H. destruct w as [[|n]| |]; try discriminate H. destruct (annotation (Outside 0) r) as [[a b]|]; reflexivity.
  - cbn [append annotation] in *. destruct (match w with Outside 0 => Ascii.eqb c "=" | _ => false end); [discriminate H|]. destruct (move w c) as [w'|]; [|discriminate H].
    destruct (annotation w' t) as [[a b]|] eqn:E; [|discriminate H]. injection H as -> ->. rewrite (IH w' r E). destruct (annotation (Outside 0) r) as [[x y]|]; reflexivity.
Qed.
Lemma chop_space t : chop (t ++ " ")%string = Some t.
Proof. induction t as [|c t IH]; [reflexivity|]. cbn [append chop]. rewrite IH. destruct t; reflexivity. Qed.

(** ** statements of a class *)
Lemma read_text s : read_item (repr_str s) = Some (Text s).
Proof.
  pose proof (read_repr_str s) as X. destruct (repr_quote s) as (q & Q & E). unfold read_item. rewrite E in *. rewrite X. destruct Q as [-> | ->]; reflexivity.
Qed.
Lemma item_name n r : identifier n = true -> stops r -> read_item (n ++ r)%string =
  match drop_prefix " = " r with
  | Some v => match read_literal v with Some v => Some (Assign n v) | None => None end
  | None =>
      match drop_prefix ": " r with
      | Some t => match annotation (Outside 0) t with
                  | Some (a, "") => Some (Field n a None)
                  | Some (a, b) => match chop a, drop_prefix "= " b with
                                   | Some a, Some v => match read_literal v with Some v => Some (Field n a (Some v)) | None => None end
                                   | _, _ => None
                                   end
                  | None => None
                  end
      | None => None
      end
  end.
Proof.
  intros I S. unfold read_item. rewrite (name_of_app n r I S). destruct (identifier_first n I) as (c & t & -> & A & B & _). cbn [append]. now rewrite A, B.
Qed.
Lemma read_assign n v : identifier n = true -> constant v -> read_item ((n ++ " = " ++ repr v)%string) = Some (Assign n v).
Proof. intros I C. rewrite item_name by (exact I || reflexivity). cbn [append drop_prefix Ascii.eqb Bool.eqb]. now rewrite read_repr. Qed.
Lemma annotation_default v : annotation (Outside 0) (" = " ++ v)%string = Some (" ", ("= " ++ v)%string).
Proof. reflexivity. Qed.
Lemma read_field f : field_ok f -> read_item ((cf_name f ++ ": " ++ cf_type f ++ initializer f)%string) = Some (Field (cf_name f) (cf_type f) (cf_default f)).
Proof.
  intros [I [T _] D [P1 P2]]. rewrite item_name by (exact I || reflexivity). cbn [append drop_prefix Ascii.eqb Bool.eqb]. unfold initializer. rewrite P1, P2. destruct (cf_default f) as [v|] eqn:E.
  - rewrite (annotation_app _ _ _ T), annotation_default. cbn [append more]. rewrite chop_space. cbn [drop_prefix append Ascii.eqb Bool.eqb]. now rewrite (read_repr v (D v eq_refl)).
  - rewrite append_nil_r, T. reflexivity.
Qed.

(** ** lines *)
Lemma line_inside t i : read_item t = Some i -> read_line (("    " ++ t)%string) = Some (Inside i).
Proof. intros H. unfold read_line. cbn [append String.eqb]. cbn [drop_prefix Ascii.eqb Bool.eqb]. now rewrite H. Qed.
Lemma stops_dot r : stops (String "." r).
Proof. reflexivity. Qed.
Lemma line_class n : identifier n = true -> read_line (("class " ++ n ++ ":")%string) = Some (Class n None).
Proof. intros I. unfold read_line. cbn [append String.eqb drop_prefix Ascii.eqb Bool.eqb]. now rewrite (name_of_app n ":" I). Qed.
Lemma line_enum n : identifier n = true -> read_line (("class " ++ n ++ "(enum.Enum):")%string) = Some (Class n (Some "enum.Enum")).
Proof. intros I. unfold read_line. cbn [append String.eqb drop_prefix Ascii.eqb Bool.eqb]. now rewrite (name_of_app n "(enum.Enum):" I). Qed.
Lemma not_keyword k n r : In k Reverse.keywords -> identifier n = true -> any_char (fun x => negb (name_char x)) k = false -> stops r ->
  drop_prefix (k ++ " ")%string (n ++ r)%string = None.
Proof.
  intros K I C S. destruct (drop_prefix (k ++ " ")%string (n ++ r)%string) as [t|] eqn:E; [|reflexivity]. exfalso. apply drop_prefix_spec in E. rewrite append_assoc in E.
  pose proof (name_span_app n (identifier_parts n I) r S) as X. rewrite E, (name_span_app k C (" " ++ t)%string eq_refl) in X. injection X as -> _.
  unfold identifier in I. destruct n as [|c n]; [discriminate|]. apply Bool.andb_true_iff in I as [_ I]. apply Bool.negb_true_iff in I. apply (proj2 (str_in_spec _ _)) in K. congruence.
Qed.
Lemma line_doc c m d : identifier c = true -> identifier m = true -> read_line ((c ++ "." ++ m ++ ".__doc__ = " ++ repr_str d)%string) = Some (SetDoc c m d).
Proof.
  intros I J. assert (S : stops (("." ++ m ++ ".__doc__ = " ++ repr_str d)%string)) by reflexivity. unfold read_line.
  destruct (String.eqb_spec ((c ++ "." ++ m ++ ".__doc__ = " ++ repr_str d)%string) "") as [E|_]; [destruct c; discriminate E|].
  destruct (identifier_first c I) as (x & t & Ec & _ & _ & F1 & F2).
  assert (D1 : drop_prefix "    " (c ++ "." ++ m ++ ".__doc__ = " ++ repr_str d)%string = None).
  { rewrite Ec. cbn [append drop_prefix]. rewrite Ascii.eqb_sym. now rewrite F1. }
  assert (D2 : drop_prefix "@" (c ++ "." ++ m ++ ".__doc__ = " ++ repr_str d)%string = None).
  { rewrite Ec. cbn [append drop_prefix]. rewrite Ascii.eqb_sym. now rewrite F2. }
  rewrite D1, D2. clear D1 D2.
  change "class " with (("class" ++ " ")%string). change "import " with (("import" ++ " ")%string). change "from " with (("from" ++ " ")%string).
  rewrite !not_keyword by (exact I || exact S || reflexivity || (cbn; tauto)).
  rewrite (name_of_app c _ I S). cbn [append drop_prefix Ascii.eqb Bool.eqb]. rewrite (name_of_app m _ J) by reflexivity. cbn [append drop_prefix Ascii.eqb Bool.eqb]. now rewrite read_repr_str.
Qed.
Lemma run_one l x s s' : read_line l = Some x -> run_line x s = Some s' -> forall r, run (l :: r) s = run r s'.
Proof.
  intros A B r. cbn [run]. destruct (String.eqb_spec l ("    " ++ triple)%string) as [->|_]; [vm_compute in A; discriminate A|]. now rewrite A, B.
Qed.
Lemma up_to_spec p s a b : up_to p s = Some (a, b) -> s = (a ++ p ++ b)%string.
Proof.
  revert a b. induction s as [|c s IH]; intros a b; cbn [up_to].
  - destruct (drop_prefix p "") as [r|] eqn:E; [|discriminate]. intros X. injection X as <- <-. now apply drop_prefix_spec in E.
  - destruct (drop_prefix p (String c s)) as [r|] eqn:E; [intros X; injection X as <- <-; now apply drop_prefix_spec in E|].
    destruct (up_to p s) as [[x y]|]; [|discriminate]. intros X. injection X as <- <-. cbn [append]. f_equal. now apply IH.
Qed.
Lemma unescape_plain s : has_char BS s = false -> has_char LF s = false -> has_char CR s = false -> has_char NUL s = false -> unescape s = Some s.
Proof.
  induction s as [|c s IH]; [reflexivity|]. cbn [has_char unescape]. rewrite !Bool.orb_false_iff. intros [A1 A2] [B1 B2] [C1 C2] [D1 D2]. unfold breaks.
  rewrite A1, B1, C1, D1. cbn [orb]. now rewrite (IH A2 B2 C2 D2).
Qed.
Lemma line_plain l : description_line l -> text_line l = Some l.
Proof.
  intros (A & B & C & D & T). unfold text_line. destruct (up_to triple l) as [[a b]|] eqn:E; [|now apply unescape_plain]. apply up_to_spec in E. now apply T in E.
Qed.
Lemma run_block ls s s' r : Forall description_line ls -> run_line (Inside (Text (NL ++ block ls ++ "    "))) s = Some s' ->
  run (("    " ++ triple)%string :: ls ++ ("    " ++ triple)%string :: r) s = run r s'.
Proof.
  intros H R. cbn [run]. rewrite String.eqb_refl. revert R. generalize NL at 1 3 as t. induction H as [|l ls Hl _ IH]; intros t R.
  - cbn [app block append] in *. rewrite String.eqb_refl, R. reflexivity.
  - cbn [app]. destruct (String.eqb_spec l ("    " ++ triple)%string) as [->|_]; [destruct Hl as (_ & _ & _ & _ & T); now destruct (T "    " "")|].
    rewrite (line_plain l Hl). apply IH. rewrite <- R. cbn [block]. now rewrite !append_assoc.
Qed.

(** ** classes *)
Definition with_items (k : pyclass) (l : list item) : pyclass := PyClass (p_decorator k) (p_name k) (p_base k) (p_doc k) (p_items k ++ l) (p_docs k).
Definition with_docs (k : pyclass) (l : list (string * string)) : pyclass := PyClass (p_decorator k) (p_name k) (p_base k) (p_doc k) (p_items k) (p_docs k ++ l).
Lemma with_items_nil k : with_items k [] = k.
Proof. destruct k. unfold with_items. cbn. now rewrite app_nil_r. Qed.
Lemma with_docs_nil k : with_docs k [] = k.
Proof. destruct k. unfold with_docs. cbn. now rewrite app_nil_r. Qed.
Definition statement (i : item) : Prop := match i with Text _ => False | _ => True end.
Lemma run_items (l : list (string * item)) ns ks r : Forall (fun p => read_item (fst p) = Some (snd p) /\ statement (snd p)) l ->
  forall k, run (map (fun p => ("    " ++ fst p)%string) l ++ r) (State ns (k :: ks) None true) = run r (State ns (with_items k (map snd l) :: ks) None true).
Proof.
  induction 1 as [|[t i] l [H S] _ IH]; intros k; [cbn; now rewrite with_items_nil|]. cbn [map app].
  rewrite (run_one _ (Inside i) _ (State ns (with_items k [i] :: ks) None true) (line_inside t i H)).
  - rewrite IH. f_equal. unfold with_items. cbn. now rewrite <- app_assoc.
  - cbn. destruct i; [destruct S| |]; reflexivity.
Qed.
Lemma run_docs (c : string) (l : list (string * string)) ns ks r : identifier c = true -> Forall (fun p => identifier (fst p) = true) l ->
  forall k o, p_name k = c -> exists o', run (map (fun p => (c ++ "." ++ fst p ++ ".__doc__ = " ++ repr_str (snd p))%string) l ++ r) (State ns (k :: ks) None o) =
    run r (State ns (with_docs k l :: ks) None o').
Proof.
  intros I. induction 1 as [|[m d] l H _ IH]; intros k o N; [exists o; cbn; now rewrite with_docs_nil|]. cbn [map app].
  destruct (IH (with_docs k [(m, d)]) false N) as (o' & E). exists o'.
  rewrite (run_one _ (SetDoc c m d) _ (State ns (with_docs k [(m, d)] :: ks) None false) (line_doc c m d I H)).
  - rewrite E. f_equal. unfold with_docs. cbn. now rewrite <- app_assoc.
  - cbn. subst c. rewrite String.eqb_refl. reflexivity.
Qed.
Lemma run_blank s r : run ("" :: r) s = run r s.
Proof. reflexivity. Qed.
Lemma run_doc d (b : option string) n dec ns ks r : run (doc_line d ++ r) (State ns (PyClass dec n b None [] [] :: ks) None true) = run r (State ns (PyClass dec n b d [] [] :: ks) None true).
Proof.
  destruct d as [s|]; [|reflexivity]. cbn [doc_line app]. rewrite (run_one _ (Inside (Text s)) _ (State ns (PyClass dec n b (Some s) [] [] :: ks) None true) (line_inside _ _ (read_text s))) by reflexivity. apply run_blank.
Qed.

(** an enumeration *)
Definition docs_of (e : enum_class) : list (string * string) :=
  flat_map (fun m => match snd m with Some d => if negb (truthy (snd m)) || doc_eqb (snd m) (e_doc e) then [] else [(fst (fst m), d)] | None => [] end) (e_members e).
Definition enum_result (e : enum_class) : pyclass :=
  PyClass (Some "enum.unique") (e_name e) (Some "enum.Enum") (e_doc e) (map (fun m => Assign (fst (fst m)) (snd (fst m))) (e_members e)) (docs_of e).
Lemma doc_text_lines e : (if truthy (e_doc e) then doc_line (e_doc e) else []) = doc_line (e_doc e) \/ e_doc e = Some "".
Proof. destruct (e_doc e) as [[|]|]; auto. Qed.
Lemma run_enum e ns ks o r : enum_ok e -> exists o', run (enum_lines e ++ r) (State ns ks None o) = run r (State ns (enum_result e :: ks) None o').
Proof.
  intros [I NE M D N]. unfold enum_lines. destruct (doc_text_lines e) as [-> |X]; [|now destruct D]. cbn [app].
  rewrite (run_one "@enum.unique" (Decorator "enum.unique") _ (State ns ks (Some "enum.unique") false) eq_refl) by reflexivity.
  rewrite (run_one _ (Class (e_name e) (Some "enum.Enum")) _ (State ns (PyClass (Some "enum.unique") (e_name e) (Some "enum.Enum") None [] [] :: ks) None true) (line_enum _ I)) by reflexivity.
  rewrite <- !app_assoc, run_doc.
  replace (map (fun m : string * literal * option string => ("    " ++ fst (fst m) ++ " = " ++ repr (snd (fst m)))%string) (e_members e))
    with (map (fun p : string * item => ("    " ++ fst p)%string) (map (fun m : string * literal * option string => ((fst (fst m) ++ " = " ++ repr (snd (fst m)))%string, Assign (fst (fst m)) (snd (fst m)))) (e_members e))) by now rewrite map_map.
  rewrite run_items; [|apply Forall_forall; intros p J; apply in_map_iff in J as ([[m v] d] & <- & J); destruct (M m v d J) as (A & B & _); split; [exact (read_assign m v A B)|exact Logic.I]].
  set (k := with_items _ _).
  replace (flat_map _ (e_members e)) with (map (fun p => (e_name e ++ "." ++ fst p ++ ".__doc__ = " ++ repr_str (snd p))%string) (docs_of e)).
  - destruct (run_docs (e_name e) (docs_of e) ns ks r I) with (k := k) (o := true) as (o' & E).
    + apply Forall_forall. intros [m d] J. apply in_flat_map in J as ([[n v] x] & J & X). cbn [fst snd] in *. destruct x as [x|]; [|destruct X]. destruct (negb (truthy (Some x)) || doc_eqb (Some x) (e_doc e)); [destruct X|]. destruct X as [X|[]]. injection X as <- <-. apply (M n v _ J).
    + reflexivity.
    + exists o'. rewrite E. f_equal. unfold enum_result, k, with_docs, with_items. cbn. rewrite map_map. reflexivity.
  - unfold docs_of. clear. induction (e_members e) as [|[[m v] d] l IH]; [reflexivity|]. cbn [flat_map fst snd]. rewrite map_app, IH. f_equal. destruct d as [d|]; [|reflexivity]. destruct (negb (truthy (Some d)) || doc_eqb (Some d) (e_doc e)); reflexivity.
Qed.
Lemma find_none {A} (f : A -> bool) l : (forall x, In x l -> f x = false) -> find f l = None.
Proof. induction l as [|x l IH]; [reflexivity|]. intros H. cbn. rewrite (H x (or_introl eq_refl)). apply IH. intros y I. apply H. now right. Qed.
Lemma enum_same e : enum_ok e -> same_enum e (enum_result e).
Proof.
  intros [I NE M D N]. split; try reflexivity. intros m v d J. unfold member_doc, enum_result. cbn [p_docs p_doc].
  assert (X : find (fun p => String.eqb (fst p) m) (docs_of e) = match d with Some x => if negb (truthy d) || doc_eqb d (e_doc e) then None else Some (m, x) | None => None end).
  { unfold docs_of. clear D NE I. revert N J. assert (M' : True) by exact Logic.I. clear M M'. generalize (e_doc e) as o. intros o. induction (e_members e) as [|[[n w] x] l IH]; [intros _ []|]. cbn [map fst]. intros N J. inversion N as [|? ? NI N']; subst.
    cbn [flat_map fst snd]. destruct J as [J|J].
    - injection J as -> -> ->.
      assert (Z : find (fun p : string * string => String.eqb (fst p) m) (flat_map (fun m => match snd m with Some d => if negb (truthy (snd m)) || doc_eqb (snd m) o then [] else [(fst (fst m), d)] | None => [] end) l) = None).
      { apply find_none. intros [a b] K. apply in_flat_map in K as ([[a' w'] x'] & K & Y). cbn [fst snd] in *. destruct x' as [x'|]; [|destruct Y]. destruct (negb (truthy (Some x')) || doc_eqb (Some x') o); [destruct Y|]. destruct Y as [Y|[]]. injection Y as <- <-.
        apply String.eqb_neq. intros ->. apply NI. apply in_map_iff. exists (m, w', Some x'). auto. }
      destruct d as [d|]; [|exact Z]. destruct (negb (truthy (Some d)) || doc_eqb (Some d) o); [exact Z|]. cbn. now rewrite String.eqb_refl.
    - specialize (IH N' J). assert (NM : n <> m) by (intros ->; apply NI; apply in_map_iff; exists (m, v, d); auto).
      destruct x as [x|]; [|exact IH]. destruct (negb (truthy (Some x)) || doc_eqb (Some x) o); [exact IH|]. cbn. apply String.eqb_neq in NM. rewrite NM. exact IH. }
  rewrite X. clear X. destruct (M m v d J) as (_ & _ & NE' & NN). destruct d as [x|]; [|exact (NN eq_refl)].
  assert (T : truthy (Some x) = true) by (destruct x; [now destruct NE'|reflexivity]). rewrite T. cbn [negb orb]. destruct (e_doc e) as [y|]; cbn [doc_eqb snd]; [|reflexivity].
  destruct (String.eqb_spec x y) as [->|]; reflexivity.
Qed.

(** a data-class *)
Definition data_result (d : data_class) : pyclass :=
  PyClass (Some "dataclasses.dataclass") (d_name d) None (doc_text (d_doc d))
    (map (fun v => Assign (fst v) (snd v)) (class_variables d) ++ map (fun f => Field (cf_name f) (cf_type f) (cf_default f)) (d_fields d)) [].
Lemma run_data d ns ks o r : data_ok d -> exists o', run (dataclass_lines d ++ r) (State ns ks None o) = run r (State ns (data_result d :: ks) None o').
Proof.
  intros [I _ D M F]. exists true. unfold dataclass_lines. cbn [app].
  rewrite (run_one "@dataclasses.dataclass" (Decorator "dataclasses.dataclass") _ (State ns ks (Some "dataclasses.dataclass") false) eq_refl) by reflexivity.
  rewrite (run_one _ (Class (d_name d) None) _ (State ns (PyClass (Some "dataclasses.dataclass") (d_name d) None None [] [] :: ks) None true) (line_class _ I)) by reflexivity.
  rewrite <- !app_assoc.
  set (k := PyClass (Some "dataclasses.dataclass") (d_name d) None (doc_text (d_doc d)) [] []).
  match goal with |- run (?a ++ ?b) _ = _ => assert (RD : forall r', run (a ++ r') (State ns (PyClass (Some "dataclasses.dataclass") (d_name d) None None [] [] :: ks) None true) = run r' (State ns (k :: ks) None true)) end.
  { intros r'. unfold k. destruct (d_doc d) as [|t|ls] eqn:E.
    - reflexivity.
    - apply (run_doc (Some t)).
    - cbn [app]. rewrite <- app_assoc. cbn [app].
      rewrite (run_block ls _ (State ns (PyClass (Some "dataclasses.dataclass") (d_name d) None (doc_text (ManyLines ls)) [] [] :: ks) None true) ("" :: r') (D ls eq_refl)) by reflexivity.
      apply run_blank. }
  rewrite RD. clear RD.
  assert (V : forall r', run ((match class_variables d with [] => [] | vs => map (fun v => ("    " ++ fst v ++ " = " ++ repr (snd v))%string) vs ++ [""] end) ++ r') (State ns (k :: ks) None true)
    = run r' (State ns (with_items k (map (fun v => Assign (fst v) (snd v)) (class_variables d)) :: ks) None true)).
  { intros r'. assert (C : Forall (fun v => identifier (fst v) = true /\ constant (snd v)) (class_variables d)).
    { apply Forall_forall. intros [n v] J. unfold class_variables in J. apply filter_In in J as [J _]. exact (M n v J). }
    destruct (class_variables d) as [|v0 vs]; [cbn; now rewrite with_items_nil|]. set (l := v0 :: vs) in *. rewrite <- app_assoc.
    replace (map (fun v : string * literal => ("    " ++ fst v ++ " = " ++ repr (snd v))%string) l)
      with (map (fun p : string * item => ("    " ++ fst p)%string) (map (fun v : string * literal => ((fst v ++ " = " ++ repr (snd v))%string, Assign (fst v) (snd v))) l)) by now rewrite map_map.
    rewrite run_items; [|apply Forall_forall; intros p J; apply in_map_iff in J as (v & <- & J); destruct (proj1 (Forall_forall _ l) C v J) as [A B]; split; [exact (read_assign _ _ A B)|exact Logic.I]].
    cbn [app]. rewrite run_blank, map_map. reflexivity. }
  rewrite V.
  replace (map field_line (d_fields d)) with (map (fun p : string * item => ("    " ++ fst p)%string) (map (fun f => ((cf_name f ++ ": " ++ cf_type f ++ initializer f)%string, Field (cf_name f) (cf_type f) (cf_default f))) (d_fields d))) by (rewrite map_map; reflexivity).
  rewrite run_items; [|apply Forall_forall; intros p J; apply in_map_iff in J as (f & <- & J); split; [apply read_field; exact (proj1 (Forall_forall _ _) F f J)|exact Logic.I]].
  f_equal. unfold data_result, with_items, k. cbn. rewrite map_map. reflexivity.
Qed.
Lemma ends_with_spec p s : ends_with p s = true <-> exists a, s = (a ++ p)%string.
Proof.
  induction s as [|c s IH]; cbn [ends_with]; rewrite Bool.orb_true_iff, String.eqb_eq.
  - split; [intros [-> | X]; [now exists ""|discriminate X]|]. intros ([|] & E); [left; now symmetry|discriminate E].
  - rewrite IH. split.
    + intros [-> |(a & ->)]; [now exists ""|now exists (String c a)].
    + intros ([|x a] & E); [left; now symmetry|]. injection E as -> ->. right. now exists a.
Qed.
Lemma dunder_spec s : dunder s = true <-> special s.
Proof.
  unfold dunder, special. destruct (drop_prefix "__" s) as [r|] eqn:E.
  - apply drop_prefix_spec in E as ->. rewrite Bool.andb_true_iff, Nat.leb_le, ends_with_spec. split.
    + intros [L (a & ->)]. destruct a as [|c a]; [cbn in L; lia|]. exists c, a. reflexivity.
    + intros (c & a & X). apply append_inj_l in X. subst r. split; [cbn [append String.length]; rewrite append_length; cbn; lia|]. exists (String c a). reflexivity.
  - split; [discriminate|]. intros (c & r & ->). cbn [append drop_prefix Ascii.eqb Bool.eqb] in E. discriminate E.
Qed.
Lemma data_same d : data_ok d -> same_data d (data_result d).
Proof.
  intros _. split; try reflexivity. exists (class_variables d). split; [|reflexivity]. eexists. split; [reflexivity|]. intros v. cbn beta. rewrite Bool.andb_true_iff, !Bool.negb_true_iff.
  rewrite <- dunder_spec, <- str_in_spec. destruct (dunder (fst v)), (str_in (fst v) (map cf_name (d_fields d))); intuition congruence.
Qed.
