(** C67: Python source code that is written for classes is read by Python as these classes. *)
From Verif Require Import PyStr PyCode PyCodeSpec PyCodeProofs.
From Coq Require Import Lia.
Open Scope string_scope.
Open Scope list_scope.

(** Constants: every text (with whatever quotation marks, backslashes and control characters), number, truth value and [None] *)
Theorem C67_constants : forall v, constant v -> read_literal (repr v) = Some v.
Proof. exact read_repr. Qed.
Print Assumptions C67_constants.

Lemma prefix_line a s : has_char LF a = false -> has_char LF s = false -> has_char LF (a ++ s)%string = false.
Proof. intros A S. now rewrite has_char_app, A, S. Qed.
Ltac line_ok := repeat first [assumption | apply repr_str_line | apply repr_line; assumption | apply name_line; assumption | match goal with |- has_char LF (_ ++ _)%string = false => apply prefix_line end | reflexivity].
Lemma enum_lines_ok e : enum_ok e -> Forall (fun l => has_char LF l = false) (enum_lines e).
Proof.
  intros [I _ M _ _]. unfold enum_lines. repeat (apply Forall_app; split).
  - constructor; [reflexivity|]. constructor; [|constructor]. line_ok.
  - destruct (truthy (e_doc e)); [|constructor]. destruct (e_doc e); [|constructor]. constructor; [line_ok|]. constructor; [reflexivity|constructor].
  - apply Forall_forall. intros l J. apply in_map_iff in J as ([[m v] d] & <- & J). destruct (M m v d J) as (A & B & _). cbn [fst snd]. line_ok.
  - apply Forall_forall. intros l J. apply in_flat_map in J as ([[m v] d] & J & X). destruct (M m v d J) as (A & _). cbn [fst snd] in X. destruct d as [d|]; [|destruct X]. destruct (negb (truthy (Some d)) || doc_eqb (Some d) (e_doc e)); [destruct X|]. destruct X as [<-|[]]. line_ok.
Qed.
Lemma data_lines_ok d : data_ok d -> Forall (fun l => has_char LF l = false) (dataclass_lines d).
Proof.
  intros [I _ D M F]. unfold dataclass_lines. repeat (apply Forall_app; split).
  - constructor; [reflexivity|]. constructor; [|constructor]. line_ok.
  - destruct (d_doc d) as [|s|ls]; [constructor| |].
    + constructor; [line_ok|]. constructor; [reflexivity|constructor].
    + apply Forall_app. split; [constructor; [reflexivity|constructor]|]. apply Forall_app. split; [|constructor; [reflexivity|]; constructor; [reflexivity|constructor]].
      apply (Forall_impl _ (fun l (H : description_line l) => proj1 (proj2 H)) (D ls eq_refl)).
  - assert (C : Forall (fun v => identifier (fst v) = true /\ constant (snd v)) (class_variables d)).
    { apply Forall_forall. intros [n v] J. unfold class_variables in J. apply filter_In in J as [J _]. exact (M n v J). }
    destruct (class_variables d) as [|v0 vs]; [constructor|]. apply Forall_app. split; [|repeat constructor].
    apply Forall_forall. intros l J. apply in_map_iff in J as (v & <- & J). destruct (proj1 (Forall_forall _ _) C v J) as [A B]. line_ok.
  - apply Forall_forall. intros l J. apply in_map_iff in J as (f & <- & J). destruct (proj1 (Forall_forall _ _) F f J) as [A [_ B] C [P1 P2]]. unfold field_line, initializer. rewrite P1, P2.
    destruct (cf_default f) as [v|]; [pose proof (C v eq_refl)|]; line_ok.
Qed.
Lemma enum_body e : enum_ok e -> has_body (enum_result e) = true.
Proof. intros [_ NE _ _ _]. unfold has_body, enum_result. cbn. destruct (e_members e); [congruence|]. now destruct (e_doc e). Qed.
Lemma data_body d : data_ok d -> has_body (data_result d) = true.
Proof.
  intros [_ NE _ _ _]. unfold has_body, data_result. cbn. destruct (doc_text (d_doc d)); [reflexivity|]. destruct NE as [NE|NE]; [congruence|]. destruct (d_fields d); [congruence|].
  destruct (class_variables d); reflexivity.
Qed.

(** An enumeration *)
Theorem C67_enumeration : forall e, enum_ok e -> exists k, read_python (enum_class_to_code e) = Some ([], [k]) /\ same_enum e k.
Proof.
  intros e H. exists (enum_result e). split; [|now apply enum_same]. unfold read_python, enum_class_to_code. rewrite lines_print by now apply enum_lines_ok.
  destruct (run_enum e [] [] false [""] H) as (o & E). unfold start. rewrite E. cbn. now rewrite (enum_body e H).
Qed.
Print Assumptions C67_enumeration.
(** Data-classes *)
Theorem C67_dataclasses : forall ds, Forall data_ok ds -> exists ks, read_python (dataclasses_to_code ds) = Some ([], ks) /\ Forall2 same_data ds ks.
Proof.
  intros ds H. exists (map data_result ds). split; [|induction H as [|d ds Hd _ IH]; constructor; [now apply data_same|exact IH]].
  unfold read_python, dataclasses_to_code. rewrite lines_print.
  - assert (R : forall ks o, exists o', run (flat_map dataclass_lines ds ++ [""]) (State [] ks None o) = Some (State [] (rev (map data_result ds) ++ ks) None o')).
    { induction H as [|d ds Hd _ IH]; intros ks o; [exists o; reflexivity|]. cbn [flat_map map rev]. rewrite <- app_assoc. destruct (run_data d [] ks o (flat_map dataclass_lines ds ++ [""]) Hd) as (o1 & ->).
      destruct (IH (data_result d :: ks) o1) as (o2 & ->). exists o2. now rewrite <- app_assoc. }
    destruct (R [] false) as (o & E). unfold start. rewrite E. cbn. rewrite app_nil_r.
    replace (forallb has_body (rev (map data_result ds))) with true; [now rewrite rev_involutive|].
    symmetry. apply forallb_forall. intros k I. apply in_rev, in_map_iff in I as (d & <- & I). apply data_body, (proj1 (Forall_forall _ _) H d I).
  - apply Forall_forall. intros l I. apply in_flat_map in I as (d & I & J). exact (proj1 (Forall_forall _ _) (data_lines_ok d (proj1 (Forall_forall _ _) H d I)) l J).
Qed.
Print Assumptions C67_dataclasses.
(** A module: all its classes, in order, and the names that fields refer to besides Python's own *)
Definition imported : list string :=
  ["dataclasses"; "enum"; "datetime"; "date"; "time"; "Decimal"; "UUID"; "Annotated"; "Dict"; "List"; "Literal"; "Optional"; "Union"; "int16"; "int32"; "int64"; "float32"; "float64";
   "MaxLength"; "Precision"; "TimePrecision"].
Definition result_of (c : a_class) : pyclass := match c with AEnum e => enum_result e | AData d => data_result d | AOther n => PyClass None n None None [] [] end.
Theorem C67_module : forall cs, Forall class_ok cs ->
  exists text ns ks, module_to_code cs = Ok text /\ read_python text = Some (ns, ks) /\ incl imported ns /\ Forall2 same_class cs ks.
Proof.
  intros cs H.
  assert (X : exists ls, map_res class_lines cs = Ok ls /\ Forall (fun l => has_char LF l = false) (concat ls) /\
    forall ns ks o, exists o', run (concat ls ++ [""]) (State ns ks None o) = Some (State ns (rev (map result_of cs) ++ ks) None o')).
  { induction H as [|c cs Hc _ (ls & E & L & R)]; [exists []; split; [reflexivity|]; split; [constructor|]; intros ns ks o; exists o; reflexivity|].
    destruct c as [e|d|n]; [| |destruct Hc]; cbn [class_ok] in Hc.
    - exists ((enum_lines e ++ [""]) :: ls). cbn [map_res class_lines bind]. rewrite E. split; [reflexivity|]. split.
      + cbn [concat]. apply Forall_app. split; [|exact L]. apply Forall_app. split; [now apply enum_lines_ok|repeat constructor].
      + intros ns ks o. cbn [concat map rev]. rewrite <- !app_assoc. destruct (run_enum e ns ks o ([""] ++ concat ls ++ [""]) Hc) as (o1 & ->). cbn [app]. rewrite run_blank. destruct (R ns (enum_result e :: ks) o1) as (o2 & ->). exists o2. reflexivity.
    - exists ((dataclass_lines d ++ [""]) :: ls). cbn [map_res class_lines bind]. rewrite E. split; [reflexivity|]. split.
      + cbn [concat]. apply Forall_app. split; [|exact L]. apply Forall_app. split; [now apply data_lines_ok|repeat constructor].
      + intros ns ks o. cbn [concat map rev]. rewrite <- !app_assoc. destruct (run_data d ns ks o ([""] ++ concat ls ++ [""]) Hc) as (o1 & ->). cbn [app]. rewrite run_blank. destruct (R ns (data_result d :: ks) o1) as (o2 & ->). exists o2. reflexivity. }
  destruct X as (ls & E & L & R). unfold module_to_code. rewrite E. cbn [bind].
  assert (Hd : forall r, run (header ++ r) start = run r (State ("annotations" :: imported) [] None false)) by reflexivity.
  destruct (R ("annotations" :: imported) [] false) as (o & Rn). do 3 eexists. split; [reflexivity|]. split; [|split].
  - unfold read_python. rewrite lines_print.
    + rewrite <- app_assoc, Hd, Rn. cbn [s_decorator s_classes s_names]. rewrite app_nil_r.
      replace (forallb has_body (rev (map result_of cs))) with true; [rewrite rev_involutive; reflexivity|].
      symmetry. apply forallb_forall. intros k I. apply in_rev, in_map_iff in I as (c & <- & I). pose proof (proj1 (Forall_forall _ _) H c I) as Hc. destruct c as [e|d|n]; [now apply enum_body|now apply data_body|destruct Hc].
    + apply Forall_app. split; [repeat constructor|exact L].
  - intros x I. now right.
  - clear - H. induction H as [|c cs Hc _ IH]; constructor; [|exact IH]. destruct c as [e|d|n]; [constructor; now apply enum_same|constructor; now apply data_same|destruct Hc].
Qed.
Print Assumptions C67_module.
(** The functions refuse modules with other classes, and only these. *)
Theorem C67_other_classes : forall cs, (exists n, In (AOther n) cs) <-> module_to_code cs = Err "NotImplementedError".
Proof.
  intros cs. assert (X : (exists n, In (AOther n) cs) /\ map_res class_lines cs = Err "NotImplementedError" \/ (~ exists n, In (AOther n) cs) /\ exists ls, map_res class_lines cs = Ok ls).
  { induction cs as [|c cs IH]; [right; split; [intros (n & [])|now exists []]|].
    destruct c as [e|d|n]; [| |left; split; [exists n; now left|reflexivity]]; cbn [map_res class_lines bind];
      (destruct IH as [[(n & I) ->]|[N (ls & ->)]]; [left; split; [exists n; now right|reflexivity]|]);
      (right; split; [|cbn; eauto]); intros (n & [I|I]); [discriminate I|apply N; now exists n|discriminate I|apply N; now exists n]. }
  unfold module_to_code. destruct X as [[Y ->]|[N (ls & ->)]]; cbn [bind]; split; try tauto; intros F; try discriminate F.
Qed.
Print Assumptions C67_other_classes.

(** ** What does not hold *)
(** A default that is a member of an enumeration is written as its [repr], [<Color.red: 'red'>]; no expression of Python begins with that character. *)
Theorem C67_enum_default_refuted : forall d f r, In f (d_fields d) -> cf_default f = Some (LOther ("<" ++ r)) -> cf_factory f = None -> cf_metadata f = None ->
  In ("    " ++ cf_name f ++ ": " ++ cf_type f ++ " = <" ++ r)%string (dataclass_lines d).
Proof.
  intros d f r I D A M. unfold dataclass_lines. apply in_or_app. right. apply in_or_app. right. apply in_or_app. right. apply in_map_iff. exists f. split; [|exact I]. unfold field_line, initializer. rewrite D, A, M. reflexivity.
Qed.
Print Assumptions C67_enum_default_refuted.
(** A field with a factory or with metadata is written as a call of [field], which no import binds. *)
Definition with_tags : data_class := DataClass "Post" (OneLine "A post.") [] [CodeField "tags" "List[str]" None (Some "list") None].
Theorem C67_field_refuted : exists text s, module_to_code [AData with_tags] = Ok text /\ run header start = Some s /\
  In "    tags: List[str] = field(default_factory = list)" (lines text) /\ ~ In "field" (s_names s) /\ read_python text = None.
Proof. do 2 eexists. split; [reflexivity|]. split; [vm_compute; reflexivity|]. split; [vm_compute; tauto|]. split; [cbn; intuition discriminate|vm_compute; reflexivity]. Qed.
Print Assumptions C67_field_refuted.
(** The type of a primary key names [PrimaryKey], which no import binds. *)
Theorem C67_primary_key_refuted : exists s, run header start = Some s /\ ~ In "PrimaryKey" (s_names s).
Proof. eexists. split; [vm_compute; reflexivity|]. cbn. intuition discriminate. Qed.
Print Assumptions C67_primary_key_refuted.
(** A class without description, variables and fields has no statement, which is not Python. *)
Theorem C67_empty_refuted : forall n, dataclass_lines (DataClass n NoDoc [] []) = ["@dataclasses.dataclass"; ("class " ++ n ++ ":")%string].
Proof. reflexivity. Qed.
Print Assumptions C67_empty_refuted.
(** A description of several lines is written between triples of quotation marks, whatever is in it: it ends at the next triple. *)
Theorem C67_triple_refuted : forall n ls a b ds fs, In (a ++ triple ++ b)%string ls ->
  exists x y z w, dataclasses_to_code [DataClass n (ManyLines ls) ds fs] = (x ++ triple ++ y ++ triple ++ z ++ triple ++ w)%string.
Proof.
  intros n ls a b ds fs I. unfold dataclasses_to_code. cbn [flat_map]. rewrite app_nil_r. unfold dataclass_lines. cbn [d_doc d_name d_fields d_members].
  apply in_split in I as (l1 & l2 & ->).
  assert (P : forall l m, print (l ++ m) = (print l ++ print m)%string) by (induction l as [|x l IH]; intros m; [reflexivity|]; cbn [app print fold_right]; fold (print (l ++ m)); fold (print l); now rewrite IH, !append_assoc).
  set (tail := (_ ++ map field_line fs)). exists (print ["@dataclasses.dataclass"; ("class " ++ n ++ ":")%string] ++ "    ")%string, (NL ++ print l1 ++ a)%string, (b ++ NL ++ print l2 ++ "    ")%string, (NL ++ print ([""] ++ tail))%string.
  assert (S : forall x, print [x] = (x ++ NL)%string) by reflexivity.
  change [("    " ++ triple)%string; ""] with ([("    " ++ triple)%string] ++ [""]). change (l1 ++ (a ++ triple ++ b)%string :: l2) with (l1 ++ [(a ++ triple ++ b)%string] ++ l2).
  change [("    " ++ String DQ (String DQ (str1 DQ)))%string; ""] with ([("    " ++ triple)%string] ++ [""]). change [("    " ++ String DQ (String DQ (str1 DQ)))%string] with [("    " ++ triple)%string].
  rewrite <- !app_assoc. rewrite !P, !S, !append_assoc. reflexivity.
Qed.
Print Assumptions C67_triple_refuted.
(** Backslashes in a description of several lines are written as they are: read back, a path or a regular expression is another text. *)
Definition with_path : data_class := DataClass "Example" (ManyLines ["    Files are in C:\new."; ""; "    :param code: A code."]) [] [CodeField "code" "str" None None None].
Theorem C67_backslash_refuted : exists k, read_python (dataclasses_to_code [with_path]) = Some ([], [k]) /\ p_doc k <> doc_text (d_doc with_path).
Proof. eexists. split; [vm_compute; reflexivity|]. intros E. vm_compute in E. discriminate E. Qed.
Print Assumptions C67_backslash_refuted.

(** ** Examples *)
Definition quotes : string := "it's " ++ str1 DQ ++ "quoted" ++ str1 DQ ++ " \ " ++ str1 LF ++ str1 NUL.
Definition workflow : enum_class := EnumClass "WorkflowState" (Some "An enumeration type.")
  [("active", LStr "active", Some "An enumeration type."); ("inactive", LStr quotes, Some "No longer used."); ("deleted", LInt (-3), Some "An enumeration type.")].
Definition example : data_class := DataClass "Example" (OneLine "It's an example.")
  [("__doc__", LStr "It's an example."); ("static_var_int", LInt 1); ("static_var_str", LStr "string"); ("var_def", LInt 23)]
  [CodeField "var_bool" "bool" None None None; CodeField "var_kind" "Literal['a=b', '[']" None None None; CodeField "var_def" "Annotated[int, Range(low=1)]" (Some (LInt 23)) None None;
   CodeField "var_opt" "Optional[str]" (Some LNone) None None].
Example C67_example_enum_ok : enum_ok workflow.
Proof.
  constructor; try reflexivity; try discriminate.
  - intros m v d [E|[E|[E|[]]]]; injection E as <- <- <-; repeat split; try discriminate; vm_compute; exact Logic.I.
  - repeat constructor; cbn; intuition discriminate.
Qed.
Example C67_example_data_ok : data_ok example.
Proof.
  constructor; try reflexivity; try discriminate; [left; discriminate| |].
  - intros n v [E|[E|[E|[E|[]]]]]; injection E as <- <-; split; try reflexivity; exact Logic.I.
  - repeat constructor; cbn; try reflexivity; intros v E; try discriminate E; injection E as <-; exact Logic.I.
Qed.
Definition example_lines : data_class := DataClass "Post" (ManyLines ["    A post of the user's, with a title that is"; "    long."; ""; "    :param title: The title."]) [] [CodeField "title" "str" None None None].
Example C67_example_lines_ok : data_ok example_lines.
Proof.
  constructor; try reflexivity; try discriminate; [left; discriminate| | |repeat constructor; discriminate].
  - intros ls E. injection E as <-. repeat constructor; intros a b X;
      (match type of X with ?s = _ => assert (U : forall a b, s <> (a ++ triple ++ b)%string) by (clear; intros a b X; assert (Y : has_char DQ (a ++ triple ++ b)%string = true) by (rewrite !has_char_app, Bool.orb_true_iff; now right);
         rewrite <- X in Y; vm_compute in Y; discriminate Y); exact (U a b X) end).
  - intros n v [].
Qed.
Example C67_example_lines : exists k, read_python (dataclasses_to_code [example_lines]) = Some ([], [k]) /\
  p_doc k = Some (NL ++ "    A post of the user's, with a title that is" ++ NL ++ "    long." ++ NL ++ NL ++ "    :param title: The title." ++ NL ++ "    ")%string.
Proof. eexists. split; vm_compute; reflexivity. Qed.
Example C67_example_code : dataclasses_to_code [example] = print
  ["@dataclasses.dataclass"; "class Example:"; "    " ++ str1 DQ ++ "It's an example." ++ str1 DQ; ""; "    static_var_int = 1"; "    static_var_str = 'string'"; "";
   "    var_bool: bool"; "    var_kind: Literal['a=b', '[']"; "    var_def: Annotated[int, Range(low=1)] = 23"; "    var_opt: Optional[str] = None"]%string.
Proof. vm_compute. reflexivity. Qed.
Example C67_example_module : exists text, module_to_code [AEnum workflow; AData example] = Ok text /\ read_python text = Some
  ("annotations" :: imported,
   [PyClass (Some "enum.unique") "WorkflowState" (Some "enum.Enum") (Some "An enumeration type.")
      [Assign "active" (LStr "active"); Assign "inactive" (LStr quotes); Assign "deleted" (LInt (-3))] [("inactive", "No longer used.")];
    PyClass (Some "dataclasses.dataclass") "Example" None (Some "It's an example.")
      [Assign "static_var_int" (LInt 1); Assign "static_var_str" (LStr "string"); Field "var_bool" "bool" None; Field "var_kind" "Literal['a=b', '[']" None;
       Field "var_def" "Annotated[int, Range(low=1)]" (Some (LInt 23)); Field "var_opt" "Optional[str]" (Some LNone)] []]).
Proof. eexists. split; [reflexivity|]. vm_compute. reflexivity. Qed.
