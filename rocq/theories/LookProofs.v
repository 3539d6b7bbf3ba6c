(** Computed styles under another table of identifiers; for C51. *)

From Coq Require Import List String Bool QArith Lia Relations.
From Verif Require Import IdModel StyleModel StyleProofs PropsStyle StyleTree PropsScope PropsSegmentHead.
Import ListNotations.
Open Scope string_scope.

(** ** One element *)

(** With multiRowAlign taken out ([m]) or not. *)
Definition strip (m : bool) (s : sattrs) : sattrs := if m then setattr s MultiRowAlign None else s.
Definition redress (m : bool) (s : sattrs) : sattrs := if m then setattr s MultiRowAlign (Some "auto") else s.

Definition ceq (m : bool) (c c' : computed) : Prop :=
  fontSize (c_attrs c') = fontSize (c_attrs c) /\ lineHeight (c_attrs c') = lineHeight (c_attrs c) /\
  c_default_lh c' = c_default_lh c /\
  forall a, real c' a = if (m && aname_eqb a MultiRowAlign)%bool then None else real c a.
Definition oceq (m : bool) (c c' : option computed) : Prop :=
  match c, c' with Some x, Some y => ceq m x y | None, None => True | _, _ => False end.

Lemma sattrs_ext : forall a b, fontSize a = fontSize b -> lineHeight a = lineHeight b ->
  (forall n, getattr a n = getattr b n) -> a = b.
Proof.
  intros [] [] F L G. cbn in F, L. subst.
  assert (G1 := G Direction). assert (G2 := G FontFamily). assert (G3 := G TextAlign). assert (G4 := G Color).
  assert (G5 := G BackgroundColor). assert (G6 := G FontStyle). assert (G7 := G FontWeight). assert (G8 := G TextDecoration).
  assert (G9 := G UnicodeBidi). assert (G10 := G WrapOption). assert (G11 := G Padding). assert (G12 := G LinePadding).
  assert (G13 := G MultiRowAlign). cbn in *. congruence.
Qed.

Lemma strip_font : forall m s, fontSize (strip m s) = fontSize s.
Proof. intros [] []; auto. Qed.
Lemma strip_line : forall m s, lineHeight (strip m s) = lineHeight s.
Proof. intros [] []; auto. Qed.
Lemma strip_get : forall m s a, getattr (strip m s) a = if (m && aname_eqb a MultiRowAlign)%bool then None else getattr s a.
Proof. intros [] s a; cbn [strip]; auto. rewrite getattr_setattr. auto. Qed.
Lemma redress_font : forall m s, fontSize (redress m s) = fontSize s.
Proof. intros [] []; auto. Qed.
Lemma redress_line : forall m s, lineHeight (redress m s) = lineHeight s.
Proof. intros [] []; auto. Qed.
Lemma redress_get : forall m s a, getattr (redress m s) a = if (m && aname_eqb a MultiRowAlign)%bool then Some "auto" else getattr s a.
Proof. intros [] s a; cbn [redress]; auto. rewrite getattr_setattr. auto. Qed.

Lemma oceq_font : forall m p p', oceq m p p' -> opt_font p' = opt_font p.
Proof. intros m [p|] [p'|] H; cbn in *; try contradiction; auto. apply H. Qed.

Lemma font_compat : forall m z spec p g p' g' defer, oceq m p p' -> oceq m g g' ->
  compute_font_size z (strip m spec) p' g' defer = compute_font_size z spec p g defer.
Proof.
  intros m z spec p g p' g' defer Hp Hg. unfold compute_font_size. rewrite strip_font, (oceq_font _ _ _ Hp), (oceq_font _ _ _ Hg).
  destruct g, g'; try contradiction; auto.
Qed.

Lemma line_compat : forall m z spec p g p' g' fs, oceq m p p' -> oceq m g g' ->
  compute_line_height z (strip m spec) p' g' fs = compute_line_height z spec p g fs.
Proof.
  intros m z spec p g p' g' fs Hp Hg. unfold compute_line_height. rewrite strip_line.
  assert (Q : forall c c', oceq m c c' ->
     match c' with Some x => if c_default_lh x then None else lineHeight (c_attrs x) | None => None end =
     match c with Some x => if c_default_lh x then None else lineHeight (c_attrs x) | None => None end).
  { intros [c|] [c'|] H; cbn in H; try contradiction; auto. destruct H as (_ & -> & -> & _). auto. }
  rewrite (Q _ _ Hp), (Q _ _ Hg). auto.
Qed.

Lemma pick_compat : forall m a c c', oceq m c c' ->
  pick_attr a c' = if (m && aname_eqb a MultiRowAlign)%bool then None else pick_attr a c.
Proof.
  intros m a [c|] [c'|] H; cbn [oceq] in H; try contradiction; [apply H|]. cbn. destruct (_ && _)%bool; auto.
Qed.

Lemma inherited_compat : forall m a spec p g p' g', oceq m p p' -> oceq m g g' ->
  compute_inherited a (strip m spec) p' g' = if (m && aname_eqb a MultiRowAlign)%bool then None else compute_inherited a spec p g.
Proof.
  intros m a spec p g p' g' Hp Hg. unfold compute_inherited. rewrite strip_get, (pick_compat _ _ _ _ Hp), (pick_compat _ _ _ _ Hg).
  destruct (_ && _)%bool; auto.
Qed.

Lemma compute_compat : forall m z spec p g p' g' defer c, oceq m p p' -> oceq m g g' ->
  compute_style z spec p g defer = SOk c ->
  exists c', compute_style z (strip m spec) p' g' defer = SOk c' /\ ceq m c c' /\ c_attrs c' = redress m (c_attrs c).
Proof.
  intros m z spec p g p' g' defer c Hp Hg H.
  destruct (compute_style_spec _ _ _ _ _ _ H) as (fs & lh & F & L & Fc & Lc & Dc & A).
  destruct (compute_style z (strip m spec) p' g' defer) as [c'|e] eqn:H'.
  2:{ exfalso. unfold compute_style in H'. rewrite (font_compat _ _ _ _ _ _ _ _ Hp Hg), F in H'. cbn [sbind] in H'.
      rewrite (line_compat _ _ _ _ _ _ _ _ Hp Hg), L in H'. discriminate. }
  destruct (compute_style_spec _ _ _ _ _ _ H') as (fs' & lh' & F' & L' & Fc' & Lc' & Dc' & A').
  rewrite (font_compat _ _ _ _ _ _ _ _ Hp Hg), F in F'. assert (Ef : fs' = fs) by congruence. rewrite Ef in *. clear Ef.
  rewrite (line_compat _ _ _ _ _ _ _ _ Hp Hg) in L'. assert (El : lh' = lh) by congruence. rewrite El in *. clear El.
  exists c'. split; auto.
  assert (R : forall a, real c' a = if (m && aname_eqb a MultiRowAlign)%bool then None else real c a).
  { intros a. rewrite (proj1 (A a)), (proj1 (A' a)), (inherited_compat _ _ _ _ _ _ _ Hp Hg), strip_get.
    destruct (_ && _)%bool, (in_defaults inherited_defaults a), (in_defaults simple_defaults a); auto. }
  split.
  - split; [congruence|]. split; [congruence|]. split; [congruence|]. auto.
  - apply sattrs_ext; rewrite ?redress_font, ?redress_line; [congruence|congruence|].
    intros a. rewrite redress_get, (proj2 (A' a)), R. destruct m; cbn [andb]; [|rewrite (proj2 (A a)); auto].
    destruct (aname_eqb_spec a MultiRowAlign) as [->|]; [reflexivity|rewrite (proj2 (A a)); auto].
Qed.

(** The computed style is a function of its arguments up to what is compared. *)
Lemma ceq_refl : forall c, ceq false c c.
Proof. intros c. repeat split; auto. Qed.

Lemma strip_add : forall m a b, strip m (add a b) = add (strip m a) (strip m b).
Proof. intros [] a b; cbn; auto. apply add_mra. Qed.

Lemma resolve_strip : forall m l, resolve_styles (map (strip m) l) = strip m (resolve_styles l).
Proof. intros [] l; [apply resolve_mra|]. cbn. rewrite map_id. auto. Qed.

(** ** Tables *)

(** [d'] has, under new identifiers, the styles of [d] that are [ok]. *)
Definition carries (m : bool) (f : string -> string) (d d' : list (string * kind)) (ok : string -> Prop) : Prop :=
  (forall a b, f a = f b -> a = b) /\
  (forall i s, ok i -> get_style d i = Some s ->
     get_style d' (f i) = Some (mkStyle (option_map (map f) (s_refs s)) (strip m (s_attrs s)))) /\
  (forall i s j, ok i -> get_style d i = Some s -> In j (refs (s_refs s)) -> ok j).

Lemma unfolds_carried : forall m f d d' ok, carries m f d d' ok ->
  (forall i u, unfolds d i u -> ok i -> unfolds d' (f i) (map f u) /\ forall j, In j u -> ok j) /\
  (forall l u, unfolds_all d l u -> (forall i, In i l -> ok i) -> unfolds_all d' (map f l) (map f u) /\ forall j, In j u -> ok j).
Proof.
  intros m f d d' ok (Inj & H1 & H2). apply unfolds_mutind.
  - intros i s l G _ IH Ok. assert (Or : forall j, In j (match s_refs s with Some r => r | None => [] end) -> ok j).
    { intros j Hj. eapply H2; eauto. }
    destruct (IH Or) as [U A]. split; [|intros j [<-|Hj]; auto]. cbn [map]. econstructor; [apply H1; eauto|].
    cbn [s_refs]. destruct (s_refs s); cbn; auto.
  - intros _. split; [constructor|]. intros j [].
  - intros i r l l' U IHi Us IHr Ok. destruct (IHi (Ok i (or_introl eq_refl))) as [A B].
    destruct (IHr (fun j Hj => Ok j (or_intror Hj))) as [A' B']. split; [cbn [map]; rewrite map_app; constructor; auto|].
    intros j Hj. apply in_app_iff in Hj as [Hj|Hj]; auto.
Qed.

Lemma unfolds_known : forall d l u j, unfolds_all d l u -> In j u -> get_style d j <> None.
Proof.
  intros d l u j U Hj. apply (proj2 (unfolds_reach _) _ _ U) in Hj as (i & Hi & R).
  destruct (unfolds_all_in _ _ _ _ U Hi) as (l0 & a & b & U0 & _). apply (unfolds_sound _ _ _ U0). auto.
Qed.

Lemma specified_carried : forall m f d d' ok l u, carries m f d d' ok -> unfolds_all d l u -> (forall i, In i l -> ok i) ->
  unfolds_all d' (map f l) (map f u) /\
  map (attrs_of d') (keep_first (map f u)) = map (strip m) (map (attrs_of d) (keep_first u)).
Proof.
  intros m f d d' ok l u C U Ok. destruct (proj2 (unfolds_carried _ _ _ _ _ C) _ _ U Ok) as [U' A]. split; auto.
  destruct C as (Inj & H1 & H2). rewrite keep_first_map by auto. rewrite !map_map. apply map_ext_in. intros j Hj.
  apply (keep_first_In u j) in Hj. assert (G := unfolds_known _ _ _ _ U Hj). unfold attrs_of.
  destruct (get_style d j) as [s|] eqn:E; [|congruence]. rewrite (H1 _ _ (A _ Hj) E). auto.
Qed.

(** The same from any state of the cache. *)
Lemma collect_found : forall d st l u, settled d st -> unfolds_all d l u -> fst (collect_refs d st l) = SOk (keep_first u).
Proof.
  intros d st l u S U. assert (Y := collect_refs_spec d l [] [] st S (U_nil d)). cbn [keep_first app] in Y. unfold collect_refs.
  destruct (each_ref (ordered_styles (enough d) d) d l [] st) as [r st']. destruct Y as [_ Y]. cbn [fst]. destruct r as [r|e].
  - destruct Y as (v & V & ->). rewrite (proj2 (unfolds_fun d) _ _ V _ U). auto.
  - exfalso. destruct e; try contradiction.
    + destruct Y as (j & Hj & R & Pt). destruct (unfolds_all_in _ _ _ _ U Hj) as (l0 & a & b & U0 & _).
      apply (proj2 (unfolds_sound _ _ _ U0 i R)). auto.
    + destruct Y as (G & [Hj|(j & y & Hj & R & E)]).
      * destruct (unfolds_all_in _ _ _ _ U Hj) as (l0 & a & b & U0 & _). apply unfolds_inv in U0. tauto.
      * destruct (unfolds_all_in _ _ _ _ U Hj) as (l0 & a & b & U0 & _). apply (proj1 (unfolds_sound _ _ _ U0 i (rt_trans _ _ _ _ _ R (rt_step _ _ _ _ E)))). auto.
Qed.

Lemma collect_finds : forall d st l r, settled d st -> fst (collect_refs d st l) = SOk r -> exists u, unfolds_all d l u /\ r = keep_first u.
Proof.
  intros d st l r S H. assert (Y := collect_refs_spec d l [] [] st S (U_nil d)). cbn [keep_first app] in Y. unfold collect_refs in H.
  destruct (each_ref (ordered_styles (enough d) d) d l [] st) as [r' st']. cbn [fst] in H. subst r'. destruct Y as [_ Y]. exact Y.
Qed.

(** ** The pass over the body, without the dataset *)

(** [passes above parent t o]: the element, with [above] the region it is found
    in and [parent] the computed style of its parent.  Regions are not reset. *)
Inductive passes (d : list (string * kind)) (z : sizing) (regions : list (string * styled))
  : option string -> option computed -> sel -> sout -> Prop :=
| passes_el above parent k s r kids e os u :
    unfolds_all d (refs s) u ->
    e_region e = or_else (here k r) above ->
    (forall j, e_region e = Some j -> dict_get regions j <> None) ->
    compute_style z (resolve_styles (map (attrs_of d) (keep_first u))) parent (comp (region_of regions e)) (defers k)
      = SOk (e_computed e) ->
    Forall2 (passes d z regions (e_region e) (Some (e_computed e))) kids os ->
    passes d z regions above parent (SNode k s r kids) (SOut k r e os).

(** No region below another. *)
Definition calm (above : option string) (t : sel) : Prop := bare t = true \/ (above = None /\ flat t = true).

Lemma calm_kids : forall above k s r kids, calm above (SNode k s r kids) ->
  forall t, In t kids -> calm (or_else (here k r) above) t.
Proof.
  intros above k s r kids H t Ht. destruct H as [H|[-> H]]; cbn in H; destruct (here k r) as [j|]; try discriminate;
    rewrite forallb_forall in H; cbn [or_else]; [left|left|right]; auto.
Qed.
Lemma calm_own : forall above k s r kids j, calm above (SNode k s r kids) -> here k r = Some j -> above = None.
Proof. intros above k s r kids j [H|[H _]] E; auto. cbn in H. rewrite E in H. discriminate. Qed.

Lemma pass_forward : forall d z regions t parent w o w', tidy d regions w -> calm (in_effect w) t ->
  style_pass d z regions parent t w = SOk (o, w') ->
  tidy d regions w' /\ w_region w' = w_region w /\ passes d z regions (in_effect w) parent t o.
Proof.
  intros d z regions. induction t as [k s r kids IH] using sel_ind'. intros parent w o w' T Cm H.
  apply style_pass_inv in H as (w1 & e & w2 & os & w3 & H1 & H2 & H3 & -> & ->).
  assert (T1 := set_region_tidy _ _ _ _ _ _ T H1). assert (T2 := collect_tidy _ _ _ _ _ _ _ _ _ _ T1 H2).
  apply set_region_here in H1. assert (E1 : in_effect w1 = or_else (here k r) (in_effect w)).
  { destruct (here k r) as [j|]; [destruct H1 as (g & _ & ->)|subst]; auto. }
  apply collect_fields in H2 as (_ & Wr & Er & Sp & Rf & _ & _ & _ & Cs). fold (in_effect w1) in Er. cbn [app] in Sp.
  destruct (collect_finds _ _ _ _ (proj1 T1) Rf) as (u & U & Eu).
  assert (K : forall ks w0 os0 w4, Forall (fun t => forall parent w o w', tidy d regions w -> calm (in_effect w) t ->
        style_pass d z regions parent t w = SOk (o, w') ->
        tidy d regions w' /\ w_region w' = w_region w /\ passes d z regions (in_effect w) parent t o) ks ->
      (forall t, In t ks -> calm (e_region e) t) -> tidy d regions w0 -> in_effect w0 = e_region e ->
      pass_all d z regions (Some (e_computed e)) ks w0 = SOk (os0, w4) ->
      tidy d regions w4 /\ w_region w4 = w_region w0 /\ Forall2 (passes d z regions (e_region e) (Some (e_computed e))) ks os0).
  { induction ks as [|x m IHm]; intros w0 os0 w4 F Cl T0 E0 P.
    - inversion P; subst. auto.
    - inversion F as [|? ? Fx Fm]; subst. apply pass_all_cons in P as (o0 & w5 & os' & Ex & Em & ->).
      assert (Cx : calm (in_effect w0) x) by (rewrite E0; apply Cl; left; auto).
      destruct (Fx _ _ _ _ T0 Cx Ex) as (Tx & Rx & Px). rewrite E0 in Px.
      assert (E5 : in_effect w5 = e_region e) by (unfold in_effect in *; rewrite Rx; auto).
      destruct (IHm _ _ _ Fm (fun t Ht => Cl t (or_intror Ht)) Tx E5 Em) as (Tm & Rm & Pm). split; auto. split; [congruence|]. constructor; auto. }
  assert (Cl : forall t, In t kids -> calm (e_region e) t).
  { rewrite Er, E1. exact (calm_kids _ _ _ _ _ Cm). }
  assert (Ep : in_effect (push w2 e) = e_region e) by (rewrite Er; unfold in_effect, push; cbn [w_region]; rewrite Wr; auto).
  destruct (K kids (push w2 e) os w3 IH Cl T2 Ep H3) as (T3 & R3 & P3).
  split; [assert (Tu := unset_region_tidy d regions k r w3 T3); destruct k; auto|]. split.
  - rewrite unset_region_here. cbn [push w_region] in R3. destruct (here k r) as [j|] eqn:Eh.
    + assert (A := calm_own _ _ _ _ _ _ Cm Eh). unfold in_effect in A. destruct (w_region w) as [[? ?]|]; [discriminate|]. destruct k; auto.
    + subst w1. destruct k; cbn [pop w_region]; congruence.
  - apply passes_el with u; auto.
    + congruence.
    + intros j Ej. rewrite Er in Ej. destruct T1 as [_ R1]. unfold in_effect in Ej. destruct (w_region w1) as [[i g]|]; [|discriminate]. inversion Ej; subst. congruence.
    + rewrite <- Eu, <- Sp. unfold region_of. rewrite Er. destruct T1 as [_ R1]. unfold in_effect. destruct (w_region w1) as [[i g]|]; [rewrite R1|]; exact Cs.
Qed.

Lemma style_pass_eq : forall d z regions parent k s r kids w,
  style_pass d z regions parent (SNode k s r kids) w =
  sbind (set_region regions k r w) (fun w1 =>
  match collect d z w1 s parent (defers k) [] with
  | (SErr e, _) => SErr e
  | (SOk e, w2) => sbind (pass_all d z regions (Some (e_computed e)) kids (push w2 e)) (fun '(os, w3) =>
      SOk (SOut k r e os, match k with Div => unset_region k r w3 | _ => pop (unset_region k r w3) end))
  end).
Proof.
  intros. cbn [style_pass]. destruct (set_region regions k r w) as [w1|]; cbn [sbind]; auto.
  destruct (collect d z w1 s parent (defers k) []) as [[e|er] w2]; auto.
  match goal with |- sbind (?f kids (push w2 e)) _ = _ =>
    assert (E : forall ks w0, f ks w0 = pass_all d z regions (Some (e_computed e)) ks w0) end.
  { induction ks as [|x m IH]; intros w0; auto. cbn [pass_all].
    destruct (style_pass d z regions (Some (e_computed e)) x w0) as [[o0 w0']|]; cbn [sbind]; auto. rewrite IH. auto. }
  rewrite E. destruct (pass_all _ _ _ _ _ _) as [[os w3]|]; cbn [sbind]; auto.
Qed.

Lemma collect_ok : forall d z w s parent defer extra u c, settled d (w_styles w) -> unfolds_all d (refs s) u ->
  compute_style z (resolve_styles (extra ++ map (attrs_of d) (keep_first u))) parent
    (match w_region w with Some (_, g) => Some (e_computed g) | None => None end) defer = SOk c ->
  exists e w', collect d z w s parent defer extra = (SOk e, w') /\ e_computed e = c.
Proof.
  intros d z w s parent defer extra u c S U C. unfold collect. assert (F := collect_found _ _ _ _ S U). unfold refs in F.
  destruct (collect_refs d (w_styles w) _) as [r st]. cbn [fst] in F. subst r. rewrite C. eauto.
Qed.

(** ** Leaving elements out *)

Inductive thin (f : string -> string) (ok okr : string -> Prop) : list sel -> list sel -> Prop :=
| thin_nil : thin f ok okr [] []
| thin_drop t ts ts' : thin f ok okr ts ts' -> thin f ok okr (t :: ts) ts'
| thin_keep k s r r' kids kids' ts ts' :
    (forall j, In j (refs s) -> ok j) -> (forall j, here k r = Some j -> okr j) -> here k r' = option_map f (here k r) ->
    thin f ok okr kids kids' -> thin f ok okr ts ts' ->
    thin f ok okr (SNode k s r kids :: ts) (SNode k (option_map (map f) s) r' kids' :: ts').

Lemma thin_bare : forall f ok okr ts ts', thin f ok okr ts ts' -> forallb bare ts = true -> forallb bare ts' = true.
Proof.
  induction 1 as [|t ts ts' T IH|k s r r' kids kids' ts ts' O1 O2 E T1 IH1 T2 IH2]; cbn [forallb]; intros H; auto.
  - apply andb_true_iff in H as [_ H]. auto.
  - apply andb_true_iff in H as [H H']. rewrite IH2, andb_true_r by auto. cbn [bare] in *. rewrite E.
    destruct (here k r); cbn; [discriminate|auto].
Qed.
Lemma thin_flat : forall f ok okr ts ts', thin f ok okr ts ts' -> forallb flat ts = true -> forallb flat ts' = true.
Proof.
  induction 1 as [|t ts ts' T IH|k s r r' kids kids' ts ts' O1 O2 E T1 IH1 T2 IH2]; cbn [forallb]; intros H; auto.
  - apply andb_true_iff in H as [_ H]. auto.
  - apply andb_true_iff in H as [H H']. rewrite IH2, andb_true_r by auto. cbn [flat] in *. rewrite E.
    destruct (here k r); cbn; [eapply thin_bare; eauto|auto].
Qed.

(** [regions'] has, under new identifiers, the regions that are [okr]. *)
Definition rcarries (m : bool) (f : string -> string) (regions regions' : list (string * styled)) (okr : string -> Prop) : Prop :=
  forall j e, okr j -> dict_get regions j = Some e ->
    exists e', dict_get regions' (f j) = Some e' /\ ceq m (e_computed e) (e_computed e').

Definition in_region (w : world) : option computed := match w_region w with Some (_, g) => Some (e_computed g) | None => None end.

Lemma region_carried : forall m f d' regions regions' okr o w, rcarries m f regions regions' okr ->
  (forall j, o = Some j -> okr j) -> (forall j, o = Some j -> dict_get regions j <> None) ->
  tidy d' regions' w -> in_effect w = option_map f o ->
  oceq m (comp (match o with Some j => dict_get regions j | None => None end)) (in_region w).
Proof.
  intros m f d' regions regions' okr o w Rc Ok Kn [_ T] E. unfold in_region, in_effect in *.
  destruct o as [j|], (w_region w) as [[i g]|]; cbn in E; try discriminate; [|exact I]. inversion E; subst i.
  specialize (Ok _ eq_refl). specialize (Kn _ eq_refl). destruct (dict_get regions j) as [e|] eqn:G; [|congruence].
  destruct (Rc _ _ Ok G) as (e' & G' & C). rewrite G' in T. inversion T; subst. exact C.
Qed.

Lemma set_region_ok : forall m f d' regions regions' okr k r r' o w, rcarries m f regions regions' okr ->
  here k r' = option_map f (here k r) -> (forall j, here k r = Some j -> okr j) ->
  (forall j, or_else (here k r) o = Some j -> dict_get regions j <> None) ->
  tidy d' regions' w -> in_effect w = option_map f o ->
  exists w1, set_region regions' k r' w = SOk w1 /\ tidy d' regions' w1 /\ in_effect w1 = option_map f (or_else (here k r) o) /\
    (here k r = None -> w1 = w).
Proof.
  intros m f d' regions regions' okr k r r' o w Rc E Ok Kn T Ew. destruct (here k r) as [j|] eqn:Eh; cbn [or_else option_map] in *.
  - specialize (Ok _ eq_refl). specialize (Kn _ eq_refl). destruct (dict_get regions j) as [e|] eqn:G; [|congruence].
    destruct (Rc _ _ Ok G) as (e' & G' & C). exists (mkW (w_styles w) (w_stack w) (Some (f j, e'))).
    assert (Er : (k = Div \/ k = P) /\ r' = Some (f j)) by (unfold here in E; destruct k; cbn in E; try discriminate; auto).
    destruct Er as [Ek ->]. split; [unfold set_region; destruct Ek as [-> | ->]; rewrite G'; auto|].
    split; [split; [apply T|exact G']|]. split; [reflexivity|discriminate].
  - exists w. split; [|auto]. unfold set_region, here in *. destruct k, r'; cbn in E; try discriminate; auto.
Qed.

Lemma pass_back : forall m f d d' z regions regions' ok okr, carries m f d d' ok -> rcarries m f regions regions' okr ->
  forall ts ts', thin f ok okr ts ts' ->
  forall above parent os parent' w, Forall2 (passes d z regions above parent) ts os -> (forall t, In t ts -> calm above t) ->
  oceq m parent parent' -> (forall j, above = Some j -> okr j) -> tidy d' regions' w -> in_effect w = option_map f above ->
  exists os' w', pass_all d' z regions' parent' ts' w = SOk (os', w') /\ tidy d' regions' w' /\ w_region w' = w_region w.
Proof.
  intros m f d d' z regions regions' ok okr Ca Rc ts ts' Th.
  induction Th as [|t ts ts' T0 IH|k s r r' kids kids' ts ts' O1 O2 E T1 IH1 T2 IH2]; intros above parent os parent' w F Cl Hp Ok T Ew.
  - exists [], w. auto.
  - inversion F; subst. eapply IH; eauto. intros x Hx. apply Cl. right. auto.
  - inversion F as [|? o ? os1 Fx Fr]; subst. inversion Fx as [ab pa k0 s0 r0 kids0 e osk u U Er Kn Cs Fk]; subst.
    assert (Cm := Cl _ (or_introl eq_refl)). rewrite Er in Kn.
    destruct (set_region_ok m f d' regions regions' okr k r r' above w Rc E O2 Kn T Ew) as (w1 & S1 & Tw1 & Ew1 & Same).
    destruct (specified_carried _ _ _ _ _ _ _ Ca U O1) as [U' At].
    assert (Or : forall j, or_else (here k r) above = Some j -> okr j) by (destruct (here k r); cbn; auto).
    assert (Hr := region_carried m f d' regions regions' okr _ w1 Rc Or Kn Tw1 Ew1).
    unfold region_of in Cs. rewrite Er in Cs. destruct (compute_compat m _ _ _ _ _ _ _ _ Hp Hr Cs) as (c' & Cc & Ce & _).
    rewrite <- resolve_strip, <- At in Cc.
    assert (U2 : unfolds_all d' (refs (option_map (map f) s)) (map f u)) by (destruct s; exact U').
    destruct (collect_ok d' z w1 (option_map (map f) s) parent' (defers k) [] _ _ (proj1 Tw1) U2 Cc) as (e' & w2 & C2 & Ec).
    assert (T2' := collect_tidy _ _ _ _ _ _ _ _ _ _ Tw1 C2). assert (Cf := collect_fields _ _ _ _ _ _ _ _ _ C2). destruct Cf as (_ & Wr & _).
    destruct (IH1 (e_region e) (Some (e_computed e)) osk (Some (e_computed e')) (push w2 e')) as (os' & w3 & P3 & T3 & R3); auto.
    + rewrite Er. exact (calm_kids _ _ _ _ _ Cm).
    + cbn [oceq]. rewrite Ec. exact Ce.
    + rewrite Er. auto.
    + rewrite Er. unfold in_effect, push in *. cbn [w_region]. rewrite Wr. auto.
    + set (w4 := match k with Div => unset_region k r' w3 | _ => pop (unset_region k r' w3) end).
      assert (R4 : w_region w4 = w_region w).
      { unfold w4. rewrite unset_region_here, E. cbn [push w_region] in R3. destruct (here k r) as [j|] eqn:Eh; cbn [option_map].
        - assert (A := calm_own _ _ _ _ _ _ Cm Eh). subst above. unfold in_effect in Ew. destruct (w_region w) as [[? ?]|]; [discriminate|]. destruct k; auto.
        - rewrite (Same eq_refl) in Wr. destruct k; cbn [pop w_region]; congruence. }
      assert (T4 : tidy d' regions' w4) by (unfold w4; assert (Tu := unset_region_tidy d' regions' k r' w3 T3); destruct k; auto).
      destruct (IH2 above parent os1 parent' w4) as (os2 & w5 & P5 & T5 & R5); auto.
      * intros x Hx. apply Cl. right. auto.
      * unfold in_effect in *. rewrite R4. auto.
      * exists (SOut k r' e' os' :: os2), w5. split; [|split; [auto|congruence]].
        cbn [pass_all]. rewrite style_pass_eq, S1. cbn [sbind]. rewrite C2, P3. cbn [sbind]. fold w4. rewrite P5. auto.
Qed.

(** ** Regions *)

Definition own_padding (g : region_el) : sattrs :=
  mkAttrs None None None None None None None None None None None None (r_padding g) None None.

(** A region of [d] that validates, to the computed style [c]. *)
Definition region_good (d : list (string * kind)) (z : sizing) (g : region_el) (c : computed) : Prop :=
  exists u, unfolds_all d (refs (r_refs g)) u /\
    compute_style z (resolve_styles (own_padding g :: map (attrs_of d) (keep_first u))) None None false = SOk c.

Lemma linked_good : forall d z g e, region_linked d z g e -> region_good d z g (e_computed e).
Proof.
  intros d z g e (_ & (st & S & R) & Sp & _ & C). destruct (collect_finds _ _ _ _ S R) as (u & U & E). exists u. split; auto.
  rewrite <- E. unfold own_padding. rewrite <- Sp. auto.
Qed.
Lemma good_fun : forall d z g c c', region_good d z g c -> region_good d z g c' -> c = c'.
Proof.
  intros d z g c c' (u & U & C) (u' & U' & C'). rewrite (proj2 (unfolds_fun d) _ _ U _ U') in C. congruence.
Qed.

Lemma pass_regions_ok : forall d z l w, settled d (w_styles w) -> w_region w = None ->
  (forall i g, In (i, KRegion g) l -> exists c, region_good d z g c) ->
  exists es w', pass_regions d z l w = SOk (es, w').
Proof.
  intros d z. induction l as [|[i k] l IH]; intros w S R H; cbn [pass_regions]; [eauto|].
  destruct k as [s|g|]; [apply IH; auto; intros; eapply H; right; eauto| |apply IH; auto; intros; eapply H; right; eauto].
  destruct (H i g (or_introl eq_refl)) as (c & u & U & C).
  destruct (collect_ok d z w (r_refs g) None false [own_padding g] u c S U) as (e & w' & E & _); [rewrite R; exact C|].
  unfold own_padding in E. rewrite E. apply collect_fields in E as (_ & Wr & _ & _ & _ & St & _).
  destruct (IH w') as (es & w2 & E2).
  - rewrite St. apply collect_refs_settled. auto.
  - congruence.
  - intros j g' Hj. apply (H j). right. auto.
  - rewrite E2. cbn [sbind]. eauto.
Qed.

Lemma good_carried : forall m f d d' ok z g c, carries m f d d' ok -> region_good d z g c -> (forall j, In j (refs (r_refs g)) -> ok j) ->
  exists c', region_good d' z (mkRegion (option_map (map f) (r_refs g)) (r_padding g)) c' /\ ceq m c c'.
Proof.
  intros m f d d' ok z g c Ca (u & U & C) Ok. destruct (specified_carried _ _ _ _ _ _ _ Ca U Ok) as [U' At].
  destruct (compute_compat m z _ None None None None false c I I C) as (c' & C' & E & _). exists c'. split; auto.
  exists (map f u). split; [cbn [r_refs]; destruct (r_refs g); exact U'|]. rewrite At, <- C', <- resolve_strip. cbn [map r_padding].
  f_equal. f_equal. f_equal. unfold own_padding. destruct m; auto.
Qed.

(** Validation up to the body. *)
Lemma validate_start : forall d z body regions o, validate_styles d z body = SOk (regions, o) ->
  exists w w', tidy d regions w /\ w_region w = None /\ pass_regions d z d (mkW sstart [] None) = SOk (regions, w) /\
    check_styles z d = SOk tt /\ style_pass d z regions None body w = SOk (o, w').
Proof.
  intros d z body regions o H. unfold validate_styles in H.
  destruct (check_styles z d) as [[]|] eqn:Cs; [|discriminate]. cbn [sbind] in H.
  destruct (pass_regions d z d (mkW sstart [] None)) as [[rs w]|] eqn:Pr; [|discriminate]. cbn [sbind] in H.
  destruct (style_pass d z rs None body w) as [[o' w']|] eqn:S; [|discriminate]. cbn [sbind] in H. inversion H; subst rs o'.
  destruct (pass_regions_linked d z d (mkW sstart [] None) _ _ (settled_start d) eq_refl eq_refl Pr) as (A & B & _).
  exists w, w'. split; [split; auto; rewrite B; exact I|]. auto.
Qed.

Lemma check_styles_in : forall z d i s, check_styles z d = SOk tt -> In (i, KStyle s) d -> check_style z s = SOk tt.
Proof.
  intros z. induction d as [|[j k] d IH]; intros i s H Hi; [destruct Hi|]. cbn [check_styles] in H. destruct Hi as [E|Hi].
  - inversion E; subst. destruct (check_style z s) as [[]|]; [auto|discriminate].
  - destruct k as [s'| |]; eauto. destruct (check_style z s') as [[]|]; [cbn in H; eauto|discriminate].
Qed.
Lemma check_styles_all : forall z d, (forall i s, In (i, KStyle s) d -> check_style z s = SOk tt) -> check_styles z d = SOk tt.
Proof.
  intros z. induction d as [|[j k] d IH]; intros H; auto. cbn [check_styles].
  assert (Hd : check_styles z d = SOk tt) by (apply IH; intros i s Hi; apply (H i); right; auto).
  destruct k as [s| |]; auto. rewrite (H j s (or_introl eq_refl)). auto.
Qed.
Lemma check_style_font : forall z s s', fontSize (s_attrs s') = fontSize (s_attrs s) -> check_style z s' = check_style z s.
Proof. intros z s s' E. unfold check_style. rewrite E. auto. Qed.

Lemma dict_get_known : forall A (l : list (string * A)) i, In i (map fst l) -> exists x, dict_get l i = Some x.
Proof.
  induction l as [|[j y] l IH]; intros i H; [destruct H|]. cbn. destruct (String.eqb_spec i j); eauto.
  destruct H as [H|H]; [cbn in H; congruence|auto].
Qed.

(** The regions of a table without identifiers twice, all of which are good. *)
Lemma regions_made : forall d z, NoDup (map fst d) -> (forall i g, In (i, KRegion g) d -> exists c, region_good d z g c) ->
  exists regions w, pass_regions d z d (mkW sstart [] None) = SOk (regions, w) /\ tidy d regions w /\ w_region w = None /\
    forall j g c, In (j, KRegion g) d -> region_good d z g c -> exists e, dict_get regions j = Some e /\ e_computed e = c.
Proof.
  intros d z N H. destruct (pass_regions_ok d z d (mkW sstart [] None) (settled_start d) eq_refl H) as (es & w & E).
  destruct (pass_regions_linked d z d (mkW sstart [] None) _ _ (settled_start d) eq_refl eq_refl E) as (A & B & _ & M & L).
  exists es, w. split; auto. split; [split; auto; rewrite B; exact I|]. split; auto. intros j g c Hj G.
  assert (Hk : In j (map fst es)).
  { rewrite M. apply in_map_iff. exists (j, KRegion g). split; auto. apply filter_In. auto. }
  destruct (dict_get_known _ _ _ Hk) as (e & Ee). exists e. split; auto. destruct (L _ _ Ee) as (g' & Hg' & Lg).
  assert (E1 := dict_get_nodup _ _ _ _ N Hj). assert (E2 := dict_get_nodup _ _ _ _ N Hg'). rewrite E1 in E2. inversion E2; subst g'.
  eapply good_fun; [apply linked_good; exact Lg|exact G].
Qed.

Lemma validate_end : forall d z regions w k s r kids o w', check_styles z d = SOk tt ->
  pass_regions d z d (mkW sstart [] None) = SOk (regions, w) -> style_pass d z regions None (SNode k s r kids) w = SOk (o, w') ->
  validate_styles d z (SNode k s r kids) = SOk (regions, o).
Proof. intros d z regions w k s r kids o w' C P S. unfold validate_styles. rewrite C. cbn [sbind]. rewrite P. cbn [sbind]. rewrite S. auto. Qed.
