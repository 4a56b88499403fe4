(** C66: classes derived from classes ([make_entity], [flatten_dataclass], [make_dataclass]). *)
From Verif Require Import PyStr QuoteModel QuoteProofs ObjectDict Types Objects Convert ConvertSpec ConvertProofs PropsConvert Flat FlatSpec PropsFlat Entity EntitySpec EntityProofs.
From Verif Require ConvertDialects.
From Verif Require TextProofs1.
From Coq Require Import List Lia.
Import ListNotations.
Open Scope string_scope.
Open Scope list_scope.

Definition plain_names (l : list mfield) : list string := map m_name l.
(** [make_entity] makes a class of the same fields, the key first. *)
Theorem C66_entity_fields : forall l key l', legal l -> make_entity l key = Ok l' ->
  exists a k b t, l = a ++ k :: b /\ m_name k = key /\ legal l' /\ keyed (f_type (m_field k)) t /\
    map m_field l' = Fld key t (f_default (m_field k)) :: map m_field (a ++ b).
Proof.
  intros l key l' [N _] H. destruct (entity_fields l key l' N H) as (a & k & b & -> & E & L & M). exists a, k, b, (mk_ann (f_type (m_field k)) [MPrimary]).
  split; [reflexivity|]. split; [exact E|]. split; [exact L|]. split; [apply keyed_mk|]. rewrite M, <- E. reflexivity.
Qed.
Print Assumptions C66_entity_fields.
(** It does so for every class that has the field, if the field has no default and no field has a factory. *)
Theorem C66_entity_made : forall l key, legal l -> In key (plain_names l) -> (forall m, In m l -> m_factory m = false) -> (forall m, In m l -> m_name m = key -> required m) ->
  exists l', make_entity l key = Ok l'.
Proof. exact entity_made. Qed.
Print Assumptions C66_entity_made.
Theorem C66_unknown_key_refused : forall l key, ~ In key (plain_names l) -> make_entity l key = Err "ValueError".
Proof. intros l key N. unfold make_entity, key_value_fields. now rewrite (key_loop_skip key l None [] N). Qed.
Print Assumptions C66_unknown_key_refused.
(** The table of the class: the field is its primary key, and the only one, whatever was annotated as key before; every other field becomes the
    column that it would become by itself. *)
Theorem C66_entity_table : forall env o fuel c l key l' doc ps t, sane_options o -> legal l -> make_entity l key = Ok l' ->
  env c = KData (map m_field l') false doc ps -> Forall (fun m => py_wf (f_type (m_field m))) l -> dataclass_to_table env o fuel c = Ok t ->
  t_pk t = [key] /\ t_desc t = doc /\
  exists a k b kt, l = a ++ k :: b /\ m_name k = key /\ keyed (f_type (m_field k)) kt /\
    columns_match env ps (match o_array o with AmRelation => true | _ => false end) (o_auto o) (Fld key kt (f_default (m_field k)) :: map m_field (a ++ b)) (t_columns t).
Proof.
  intros env o fuel c l key l' doc ps t S L H E W T. destruct (C66_entity_fields l key l' L H) as (a & k & b & kt & -> & En & L' & K & M).
  assert (W' : Forall (fun f => py_wf (f_type f)) (map m_field l')).
  { rewrite M. apply Forall_app in W as [W1 W2]. inversion W2; subst. constructor; [cbn; eapply keyed_wf; eassumption|]. rewrite map_app. apply Forall_app. split; apply Forall_forall; intros f I; apply in_map_iff in I as (m & <- & I); [exact (proj1 (Forall_forall _ a) W1 m I)|exact (proj1 (Forall_forall _ b) H3 m I)]. }
  assert (N' : NoDup (map f_name (map m_field l'))) by (rewrite map_map; exact (proj1 L')).
  destruct (C34_fields_become_columns env o fuel c _ false doc ps t S E N' W' T) as (CM & (k' & Pk & (l1 & f & r & El & Kf & Ef & Fst)) & D).
  assert (P : key_field (Fld key kt (f_default (m_field k)))) by (destruct K as [[_ ->]|(u & ns & _ & ->)]; do 2 eexists; (split; [reflexivity|]); [now left|apply in_or_app; right; now left]).
  split; [|split; [exact D|]].
  - rewrite Pk. rewrite M in El. destruct l1 as [|g l1]; [injection El as <- _; subst k'; reflexivity|]. injection El as <- _. destruct (Fst _ (or_introl eq_refl) P).
  - exists a, k, b, kt. split; [reflexivity|]. split; [exact En|]. split; [exact K|]. rewrite M in CM. exact CM.
Qed.
Print Assumptions C66_entity_table.

(** [flatten_dataclass] and [make_dataclass]: fields whose type is a structure are replaced by those of the structure. *)
Theorem C66_flat_fields : forall env l ps fields ps1 l' ps', (forall m, In m l -> py_wf (f_type (m_field m)) /\ open_unions (f_type (m_field m))) ->
  flatten_dataclass env l ps = (fields, ps1) -> make_dataclass fields ps1 = Ok (l', ps') ->
  legal l' /\ flat env (map m_field l) (map (fun m => (f_name (m_field m), f_type (m_field m), f_default (m_field m))) l').
Proof.
  intros env l ps fields ps1 l' ps' W H M. unfold flatten_dataclass in H. rewrite flatten_parts in H. injection H as <- <-. unfold make_dataclass in M. apply TextProofs1.bind_inv in M as (l0 & P & M). injection M as <- _.
  apply py_make_legal in P as [-> L]. split; [exact L|]. clear L. cbn [app]. rewrite map_map. cbn. induction l as [|m l IH]; [constructor|]. cbn [flat_map map]. rewrite map_app.
  destruct (W m (or_introl eq_refl)) as [Wm Om]. specialize (IH (fun x I => W x (or_intror I))). pose proof (fun c => struct_plain_spec env (f_type (m_field m)) c Wm Om) as SP. unfold part at 1. destruct (struct_plain env (f_type (m_field m))) as [c|].
  - pose proof (proj1 (SP c) eq_refl) as [OC ST]. pose proof ST as (gs & a & d & q & E & _). unfold fields_of. rewrite E, map_map. cbn. eapply flat_struct; [split; [exact OC|exact ST]|exact E|exact IH].
  - cbn. apply flat_field; [|exact IH]. intros c F. apply SP in F. discriminate F.
Qed.
Print Assumptions C66_flat_fields.
(** The columns of the table of the flat class are those of its fields, as for any class (C34); nothing of a structure is left. *)
Theorem C66_flat_table : forall env o fuel c l ps fields ps1 l' ps' doc t, sane_options o ->
  (forall m, In m l -> py_wf (f_type (m_field m)) /\ open_unions (f_type (m_field m))) -> (forall c gs a d q g, env c = KData gs a d q -> In g gs -> py_wf (f_type g)) ->
  flatten_dataclass env l ps = (fields, ps1) -> make_dataclass fields ps1 = Ok (l', ps') -> env c = KData (map m_field l') false doc ps' -> dataclass_to_table env o fuel c = Ok t ->
  columns_match env ps' (match o_array o with AmRelation => true | _ => false end) (o_auto o) (map m_field l') (t_columns t) /\
  forall col, In col (t_columns t) ->
    (exists f, In f (map m_field l) /\ (forall c, ~ struct_field env f c) /\ c_name col = f_name f /\ (c_nullable col = true <-> admits_none (f_type f))) \/
    (exists f c gs a d q g, In f (map m_field l) /\ struct_field env f c /\ env c = KData gs a d q /\ In g gs /\ c_name col = (f_name f ++ "__" ++ f_name g)%string /\ (c_nullable col = true <-> admits_none (f_type g))).
Proof.
  intros env o fuel c l ps fields ps1 l' ps' doc t S W WG H M E T. destruct (C66_flat_fields env l ps fields ps1 l' ps' W H M) as [L' F].
  assert (W' : forall f, In f (map m_field l') -> py_wf (f_type f) /\
     ((exists f0, In f0 (map m_field l) /\ (forall c, ~ struct_field env f0 c) /\ f_name f = f_name f0 /\ f_type f = f_type f0) \/
      (exists f0 c gs a d q g, In f0 (map m_field l) /\ struct_field env f0 c /\ env c = KData gs a d q /\ In g gs /\ f_name f = (f_name f0 ++ "__" ++ f_name g)%string /\ f_type f = f_type g))).
  { intros f I. assert (J : In (f_name f, f_type f, f_default f) (map (fun m => (f_name (m_field m), f_type (m_field m), f_default (m_field m))) l')) by (apply in_map_iff in I as (m & <- & I); now apply in_map with (f := fun m => (f_name (m_field m), f_type (m_field m), f_default (m_field m)))).
    assert (W0 : forall f, In f (map m_field l) -> py_wf (f_type f)) by (intros g J'; apply in_map_iff in J' as (m & <- & J'); exact (proj1 (W m J'))).
    clear - F J W0 WG. revert J W0. generalize (map (fun m => (f_name (m_field m), f_type (m_field m), f_default (m_field m))) l') as r, (map m_field l) as fs, F. intros r fs G. induction G as [|f0 fs r NS G IH|f0 c gs a d q fs r SF E G IH]; intros J W0.
    - destruct J.
    - destruct J as [J|J]; [injection J as J1 J2 J3; rewrite <- J2; split; [apply W0; now left|left; exists f0; split; [now left|]; repeat split; auto]|].
      destruct (IH J (fun x I => W0 x (or_intror I))) as [X [(y & Y1 & Y)|(y & Y0)]]; (split; [exact X|]); [left; exists y; split; [now right|exact Y]|right; exists y; destruct Y0 as (c & gs & a & d & q & g & Y1 & Y); exists c, gs, a, d, q, g; split; [now right|exact Y]].
    - apply in_app_or in J as [J|J].
      + apply in_map_iff in J as (g & J & Ig). injection J as J1 J2 J3. rewrite <- J2. split; [exact (WG c gs a d q g E Ig)|]. right. exists f0, c, gs, a, d, q, g. split; [now left|]. repeat split; auto; apply SF.
      + destruct (IH J (fun x I => W0 x (or_intror I))) as [X [(y & Y1 & Y)|(y & Y0)]]; (split; [exact X|]); [left; exists y; split; [now right|exact Y]|right; exists y; destruct Y0 as (c' & gs' & a' & d' & q' & g & Y1 & Y); exists c', gs', a', d', q', g; split; [now right|exact Y]]. }
  assert (N' : NoDup (map f_name (map m_field l'))) by (rewrite map_map; exact (proj1 L')).
  destruct (C34_fields_become_columns env o fuel c _ false doc ps' t S E N' ltac:(apply Forall_forall; intros f I; exact (proj1 (W' f I))) T) as (CM & _).
  split; [exact CM|]. intros col I.
  assert (X : exists f, In f (map m_field l') /\ column_matches ps' (o_auto o) f col).
  { clear - CM I. induction CM as [|f fs cs J M IH|f fs k cs J Mt M IH]; [destruct I|destruct (IH I) as (g & Ig & Mg); exists g; split; [now right|exact Mg]|]. destruct I as [<- | I]; [exists f; split; [now left|exact Mt]|]. destruct (IH I) as (g & Ig & Mg). exists g. split; [now right|exact Mg]. }
  destruct X as (f & If & (_ & Nm & Nu & _)). destruct (W' f If) as [_ [(f0 & I0 & NS & En & Et)|(f0 & c0 & gs & a & d & q & g & I0 & SF & E0 & Ig & En & Et)]].
  - left. exists f0. rewrite <- Et, <- En. auto.
  - right. exists f0, c0, gs, a, d, q, g. rewrite <- Et, <- En. auto 8.
Qed.
Print Assumptions C66_flat_table.
(** Every field keeps its description. *)
Theorem C66_flat_docs : forall env l ps fields ps1 l' ps', (forall m, In m l -> py_wf (f_type (m_field m)) /\ open_unions (f_type (m_field m))) ->
  (forall c gs a d q, env c = KData gs a d q -> NoDup (map fst q)) ->
  flatten_dataclass env l ps = (fields, ps1) -> make_dataclass fields ps1 = Ok (l', ps') ->
  (forall f d, In f (map m_field l) -> (forall c, ~ struct_field env f c) -> In (f_name f, d) ps -> In (f_name f, d) ps') /\
  (forall f c gs a d q g x, In f (map m_field l) -> struct_field env f c -> env c = KData gs a d q -> In g gs -> In (f_name g, x) q -> In ((f_name f ++ "__" ++ f_name g)%string, x) ps').
Proof.
  intros env l ps fields ps1 l' ps' W NQ H M. unfold flatten_dataclass in H. rewrite flatten_parts in H. injection H as <- <-. unfold make_dataclass in M. apply TextProofs1.bind_inv in M as (l0 & P & M). injection M as <- <-.
  apply py_make_legal in P as [-> [N _]]. cbn [app] in *.
  assert (N' : NoDup (map f_name (flat_map (part env) l))) by (rewrite map_map in N; exact N). destruct (assigns_nodup env l N') as [NA IA].
  assert (KEEP : forall x, In (fst x) (map f_name (flat_map (part env) l)) -> In x (fold_left setp (flat_map (assigns env) l) ps) -> In x (filter (fun p => existsb (String.eqb (fst p)) (map f_name (flat_map (part env) l))) (fold_left setp (flat_map (assigns env) l) ps))).
  { intros x I J. apply filter_In. split; [exact J|]. apply existsb_exists. exists (fst x). split; [exact I|apply String.eqb_refl]. }
  assert (PARTS : forall m, In m l -> incl (part env m) (flat_map (part env) l)) by (intros m I x J; apply in_flat_map; eauto).
  split.
  - intros f d I NS J. apply in_map_iff in I as (m & <- & I). destruct (W m I) as [Wm Om].
    assert (SP : struct_plain env (f_type (m_field m)) = None). { destruct (struct_plain env (f_type (m_field m))) as [c|] eqn:E; [|reflexivity]. apply struct_plain_spec in E; [|exact Wm|exact Om]. destruct (NS c E). }
    assert (Pm : part env m = [m_field m]) by (unfold part; now rewrite SP).
    apply KEEP; [cbn; apply in_map, (PARTS m I); rewrite Pm; now left|]. apply sets_in; [exact NA|]. right. split; [exact J|]. cbn [fst].
    (* the name belongs to another part *)
    clear - N' I Pm SP. apply in_split in I as (a & b & ->). rewrite flat_map_app in *. cbn [flat_map] in *. rewrite Pm in N'. rewrite map_app in N'. cbn [map app] in N'.
    apply NoDup_remove in N' as [N1 N2]. intros J. apply N2. rewrite map_app in J. apply in_app_or in J as [J|J].
    + apply nodup_parts in N1 as (Na & _ & _). apply in_or_app. left. now apply (assigns_nodup env a Na).
    + unfold assigns at 1 in J. rewrite SP in J. cbn [app] in J. apply nodup_parts in N1 as (_ & Nb & _). apply in_or_app. right. now apply (assigns_nodup env b Nb).
  - intros f c gs a d q g x I SF E Ig J. apply in_map_iff in I as (m & <- & I). destruct (W m I) as [Wm Om].
    assert (SP : struct_plain env (f_type (m_field m)) = Some c) by (apply struct_plain_spec; assumption).
    assert (G : get_param (f_name g) q = Some x).
    { unfold get_param. specialize (NQ c gs a d q E). clear - NQ J. induction q as [|[n y] q IH]; [destruct J|]. cbn [find fst map] in *. inversion NQ; subst. destruct J as [J|J].
      - injection J as -> ->. now rewrite String.eqb_refl.
      - destruct (String.eqb_spec n (f_name g)) as [->|_]; [exfalso; apply H1; now apply in_map with (f := fst) in J|]. now apply IH. }
    assert (IAs : In (nested_name (f_name (m_field m)) (f_name g), x) (flat_map (assigns env) l)).
    { apply in_flat_map. exists m. split; [exact I|]. unfold assigns. rewrite SP. apply in_flat_map. exists g. unfold fields_of, params_of. rewrite E. split; [exact Ig|]. rewrite G. now left. }
    apply KEEP; [|apply sets_in; [exact NA|left; exact IAs]]. apply IA. apply in_map with (f := fst) in IAs. exact IAs.
Qed.
Print Assumptions C66_flat_docs.

(** Flattening works, if no field has a default and the names of the fields leave no doubt where the double underscore is. *)
Theorem C66_flat_made : forall env l ps, legal l ->
  (forall m, In m l -> py_wf (f_type (m_field m)) /\ open_unions (f_type (m_field m))) ->
  (forall m, In m l -> clean (m_name m) /\ f_default (m_field m) = DMissing) ->
  (forall m c gs a d q, In m l -> struct_field env (m_field m) c -> env c = KData gs a d q -> NoDup (map f_name gs) /\ forall g, In g gs -> f_default g = DMissing) ->
  exists fields ps1 l' ps', flatten_dataclass env l ps = (fields, ps1) /\ make_dataclass fields ps1 = Ok (l', ps').
Proof.
  intros env l ps [N _] W C G. destruct (flatten_dataclass env l ps) as [fields ps1] eqn:E. exists fields, ps1. unfold flatten_dataclass in E. rewrite flatten_parts in E. injection E as E _. cbn [app] in E.
  assert (SP : forall m c, In m l -> struct_plain env (f_type (m_field m)) = Some c -> exists gs a d q, env c = KData gs a d q /\ NoDup (map f_name gs) /\ forall g, In g gs -> f_default g = DMissing).
  { intros m c I H. destruct (W m I) as [Wm Om]. apply struct_plain_spec in H; [|exact Wm|exact Om]. pose proof H as [_ (gs & a & d & q & Ec & _)]. exists gs, a, d, q. split; [exact Ec|]. exact (G m c gs a d q I H Ec). }
  assert (DF : forall f, In f fields -> f_default f = DMissing).
  { intros f I. rewrite <- E in I. apply in_flat_map in I as (m & I & J). unfold part in J. destruct (struct_plain env (f_type (m_field m))) as [c|] eqn:S.
    - destruct (SP m c I S) as (gs & a & d & q & Ec & _ & D). unfold fields_of in J. rewrite Ec in J. apply in_map_iff in J as (g & <- & Ig). exact (D g Ig).
    - destruct J as [<-|[]]. exact (proj2 (C m I)). }
  assert (NF : NoDup (map f_name fields)).
  { rewrite <- E. clear E DF ps fields ps1. induction l as [|m l IH]; [constructor|]. cbn [flat_map map] in *. inversion N; subst. rewrite map_app. apply nodup_parts.
    split; [|split; [apply IH; [assumption|intros x I; apply W; now right|intros x I; apply C; now right|intros x c gs a d q I; apply (G x c gs a d q); now right|intros x c I; apply SP; now right]|]].
    - unfold part. destruct (struct_plain env (f_type (m_field m))) as [c|] eqn:S; [|repeat constructor; intros []]. destruct (SP m c (or_introl eq_refl) S) as (gs & a & d & q & Ec & Ng & _). unfold fields_of. rewrite Ec, map_map. cbn. clear - Ng.
      induction gs as [|g gs IH]; [constructor|]. cbn in *. inversion Ng; subst. constructor; [|now apply IH]. intros I. apply in_map_iff in I as (h & Eh & I). apply H1. apply in_map_iff. exists h. split; [|exact I].
      destruct (flat_inj (Some "x") (f_name h) (Some "x") (f_name g)) as [_ X]; [apply clear_safe|apply clear_safe| |exact X].
      1,2: split; intros (a & b); [destruct b as [b b']|]; destruct a as [|? [|? ?]]; try discriminate.
      cbn. unfold nested_name in Eh. clear - Eh. f_equal. induction (f_name (m_field m)) as [|z s IHs]; [exact Eh|]. injection Eh as Eh. exact (IHs Eh).
    - intros x I J. rewrite in_map_iff in I. destruct I as (f & <- & I). rewrite in_map_iff in J. destruct J as (f' & En & J). apply in_flat_map in J as (m' & I' & J).
      assert (NE : m_name m <> m_name m') by (intros X; apply H1; rewrite X; now apply in_map).
      assert (Cm : clean (m_name m)) by (apply C; now left). assert (Cm' : clean (m_name m')) by (apply C; now right).
      assert (PN : forall k z, In z (part env k) -> f_name z = m_name k \/ exists y, f_name z = nested_name (m_name k) y).
      { intros k z Z. unfold part in Z. destruct (struct_plain env (f_type (m_field k))); [right; apply in_map_iff in Z as (y & <- & _); cbn; eauto|left; destruct Z as [<-|[]]; reflexivity]. }
      destruct (PN m f I) as [A|[y A]], (PN m' f' J) as [B|[y' B]]; rewrite A, B in En.
      + now apply NE.
      + apply (proj1 Cm). exists (m_name m'), y'. now rewrite <- En.
      + apply (proj1 Cm'). exists (m_name m), y. now rewrite En.
      + destruct (flat_inj (Some (m_name m')) y' (Some (m_name m)) y) as [X _]; [now apply clear_safe|now apply clear_safe|exact En|]. injection X as X. now apply NE. }
  assert (L : legal (map plain_field fields)).
  { split; [rewrite map_map; exact NF|]. intros a m b n c H _. assert (I : In m (map plain_field fields)) by (rewrite H; apply in_or_app; right; now left). apply in_map_iff in I as (f & <- & I). split; [reflexivity|exact (DF f I)]. }
  do 2 eexists. split; [reflexivity|]. unfold make_dataclass. rewrite (proj2 (py_make_legal _ _) (conj eq_refl L)). reflexivity.
Qed.
Print Assumptions C66_flat_made.

(** ** What does not hold *)
Definition fld (n : string) (t : pytype) (d : dflt) : mfield := MField (Fld n t d) false.
(** a factory is dropped: the field is required afterwards, and the class may be refused *)
Theorem C66_factory_refuted : exists l l', legal l /\ make_entity l "id" = Ok l' /\ exists m m', In m l /\ In m' l' /\ m_name m = m_name m' /\ ~ required m /\ required m'.
Proof.
  exists [fld "id" YInt DMissing; MField (Fld "tags" (YList YStr) DMissing) true]. eexists.
  split; [apply (py_make_legal _ [fld "id" YInt DMissing; MField (Fld "tags" (YList YStr) DMissing) true]); reflexivity|]. split; [reflexivity|].
  do 2 eexists. split; [right; left; reflexivity|]. split; [right; left; reflexivity|]. split; [reflexivity|]. split; [intros [X _]; discriminate X|split; reflexivity].
Qed.
Print Assumptions C66_factory_refuted.
Theorem C66_factory_order_refuted : exists l, legal l /\ In "id" (plain_names l) /\ make_entity l "id" = Err "TypeError".
Proof.
  exists [fld "id" YInt DMissing; fld "name" YStr (DVal (PStr "x")); MField (Fld "tags" (YList YStr) DMissing) true].
  split; [apply (py_make_legal _ [fld "id" YInt DMissing; fld "name" YStr (DVal (PStr "x")); MField (Fld "tags" (YList YStr) DMissing) true]); reflexivity|]. split; [now left|reflexivity].
Qed.
Print Assumptions C66_factory_order_refuted.
(** a structure whose last field has a default, before a required field: flattening makes no class *)
Definition ex_env (c : cid) : classdef :=
  if cid_eqb c ("m", "Place") then KData [Fld "x" YInt DMissing; Fld "label" (YUnion [YStr; YNone]) DNone] false None [("x", "across")]
  else if cid_eqb c ("m", "Pos") then KData [Fld "x" YInt DMissing; Fld "y" YInt DMissing] false None [("x", "across"); ("y", "down")]
  else KOther.
Theorem C66_flat_order_refuted : exists l, legal l /\ forall ps fields ps1, flatten_dataclass ex_env l ps = (fields, ps1) -> make_dataclass fields ps1 = Err "TypeError".
Proof.
  exists [fld "at" (YCls ("m", "Place")) DMissing; fld "count" YInt DMissing].
  split; [apply (py_make_legal _ [fld "at" (YCls ("m", "Place")) DMissing; fld "count" YInt DMissing]); reflexivity|]. intros ps fields ps1 H. injection H as <- _. reflexivity.
Qed.
Print Assumptions C66_flat_order_refuted.
(** an optional structure: its columns are required, so that [None] cannot be stored *)
Theorem C66_flat_optional_refuted : exists l fields ps1 l' ps', legal l /\ (forall m, In m l -> admits_none (f_type (m_field m))) /\
  flatten_dataclass ex_env l [] = (fields, ps1) /\ make_dataclass fields ps1 = Ok (l', ps') /\ l' <> [] /\ forall m, In m l' -> ~ admits_none (f_type (m_field m)).
Proof.
  exists [fld "at" (YUnion [YCls ("m", "Pos"); YNone]) DMissing]. do 4 eexists.
  split; [apply (py_make_legal _ [fld "at" (YUnion [YCls ("m", "Pos"); YNone]) DMissing]); reflexivity|]. split; [intros m [<-|[]]; apply an_union with YNone; [right; now left|constructor]|].
  split; [reflexivity|]. split; [reflexivity|]. split; [discriminate|]. intros m [<-|[<-|[]]] H; inversion H.
Qed.
Print Assumptions C66_flat_optional_refuted.
(** names that collide *)
Theorem C66_flat_collision_refuted : exists l, legal l /\ forall ps fields ps1, flatten_dataclass ex_env l ps = (fields, ps1) -> make_dataclass fields ps1 = Err "TypeError".
Proof.
  exists [fld "at" (YCls ("m", "Pos")) DMissing; fld "at__x" YInt DMissing].
  split; [apply (py_make_legal _ [fld "at" (YCls ("m", "Pos")) DMissing; fld "at__x" YInt DMissing]); reflexivity|]. intros ps fields ps1 H. injection H as <- _. reflexivity.
Qed.
Print Assumptions C66_flat_collision_refuted.

(** ** Hypotheses are met *)
Definition ex_l : list mfield := [fld "name" YStr DMissing; fld "id" YInt DMissing; fld "at" (YUnion [YCls ("m", "Pos"); YNone]) DMissing].
Example C66_example_entity : legal ex_l /\ In "id" (plain_names ex_l) /\ (forall m, In m ex_l -> m_factory m = false) /\ (forall m, In m ex_l -> m_name m = "id" -> required m) /\
  exists l', make_entity ex_l "id" = Ok l' /\ map (fun m => (m_name m, f_type (m_field m))) l' = [("id", YAnn YInt [MPrimary]); ("name", YStr); ("at", YUnion [YCls ("m", "Pos"); YNone])].
Proof.
  split; [apply (py_make_legal _ ex_l); reflexivity|]. split; [right; now left|]. split; [intros m [<-|[<-|[<-|[]]]]; reflexivity|]. split; [intros m [<-|[<-|[<-|[]]]] _; split; reflexivity|].
  eexists. split; reflexivity.
Qed.
Example C66_example_table : exists l' t, make_entity ex_l "id" = Ok l' /\
  dataclass_to_table (fun c => if cid_eqb c ("m", "Thing") then KData (map m_field l') false None [] else ex_env c) (ConvertDialects.dialect_options ConvertDialects.DPostgres plain_user) 5 ("m", "Thing") = Ok t /\ t_pk t = ["id"] /\ map c_name (t_columns t) = ["id"; "name"; "at"].
Proof. do 2 eexists. split; [reflexivity|]. split; [vm_compute; reflexivity|]. split; reflexivity. Qed.
Example C66_example_flat : legal ex_l /\ (forall m, In m ex_l -> py_wf (f_type (m_field m)) /\ open_unions (f_type (m_field m))) /\ (forall m, In m ex_l -> clean (m_name m) /\ f_default (m_field m) = DMissing) /\
  exists fields ps1 l' ps', flatten_dataclass ex_env ex_l [("id", "number"); ("at", "where")] = (fields, ps1) /\ make_dataclass fields ps1 = Ok (l', ps') /\
    plain_names l' = ["name"; "id"; "at__x"; "at__y"] /\ ps' = [("id", "number"); ("at__x", "across"); ("at__y", "down")].
Proof.
  split; [apply (py_make_legal _ ex_l); reflexivity|]. split; [|split].
  - intros m [<-|[<-|[<-|[]]]]; cbn; (split; [repeat constructor; cbn; intuition discriminate|]); intros l m' ms [A|[ns A]] I; try discriminate A. injection A as <-. destruct I as [I|[I|[]]]; discriminate I.
  - intros m [<-|[<-|[<-|[]]]]; (split; [|reflexivity]); split; [intros (a & b & E)|intros (a & E)|intros (a & b & E)|intros (a & E)|intros (a & b & E)|intros (a & E)];
      repeat (destruct a as [|? a]; cbn in E; [try discriminate E|injection E as _ E || discriminate E]); try discriminate E.
  - do 4 eexists. split; [reflexivity|]. split; [reflexivity|]. split; reflexivity.
Qed.
