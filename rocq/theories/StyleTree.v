(** Elements of the style pass, where they stand and how they were computed;
    used by C29, C30, C45 and C46. *)

From Coq Require Import List String Bool QArith Lia.
From Verif Require Import IdModel StyleModel StyleProofs.
Import ListNotations.
Open Scope string_scope.

(** The first value given in a list. *)
Fixpoint nearest {A} (l : list (option A)) : option A :=
  match l with
  | [] => None
  | Some x :: _ => Some x
  | None :: r => nearest r
  end.

Lemma or_else_assoc : forall A (a b c : option A), or_else (or_else a b) c = or_else a (or_else b c).
Proof. destruct a; auto. Qed.
Lemma or_else_none : forall A (a : option A), or_else a None = a.
Proof. destruct a; auto. Qed.

Lemma nearest_cons : forall A (x : option A) l, nearest (x :: l) = or_else x (nearest l).
Proof. destruct x; auto. Qed.

Lemma nearest_app : forall A (l l' : list (option A)), nearest (l ++ l') = or_else (nearest l) (nearest l').
Proof. induction l as [|[x|] r IH]; intros; cbn; auto. Qed.

Lemma fold_add : forall A (get : sattrs -> option A),
  (forall s o, get (add s o) = or_else (get s) (get o)) ->
  forall l s, get (fold_left add l s) = or_else (get s) (nearest (map get l)).
Proof.
  intros A get H. induction l as [|x r IH]; intros s; cbn [fold_left map].
  - cbn. rewrite or_else_none. auto.
  - rewrite IH, H, nearest_cons, or_else_assoc. auto.
Qed.

(** ** The computed style of one element *)

Lemma getattr_setattr : forall s a v b, getattr (setattr s a v) b = if aname_eqb b a then v else getattr s b.
Proof. intros [] a v b. destruct a, b; auto. Qed.

Lemma aname_eqb_spec : forall a b, reflect (a = b) (aname_eqb a b).
Proof. intros a b. destruct a, b; constructor; congruence. Qed.

Lemma aname_eqb_refl : forall a, aname_eqb a a = true.
Proof. destruct a; auto. Qed.

Definition in_defaults (l : list (aname * option string)) (a : aname) : bool := existsb (fun e => aname_eqb a (fst e)) l.

(** The value of an attribute that is not merely its initial value. *)
Definition real (c : computed) (a : aname) : option string := pick_attr a (Some c).

Definition initial (l : list (aname * option string)) (a : aname) : option string :=
  match find (fun e => aname_eqb a (fst e)) l with Some e => snd e | None => None end.

Lemma fold_put : forall (val : aname -> option string) l c a, NoDup (map fst l) ->
  (forall e, In e l -> existsb (aname_eqb (fst e)) (c_default c) = false) ->
  let c' := fold_left (fun c e => put_attr c (fst e) (snd e) (val (fst e))) l c in
  real c' a = (if in_defaults l a then val a else real c a) /\
  getattr (c_attrs c') a = (if in_defaults l a then or_else (val a) (initial l a) else getattr (c_attrs c) a) /\
  fontSize (c_attrs c') = fontSize (c_attrs c) /\ lineHeight (c_attrs c') = lineHeight (c_attrs c) /\
  c_default_lh c' = c_default_lh c /\
  (in_defaults l a = false -> existsb (aname_eqb a) (c_default c') = existsb (aname_eqb a) (c_default c)).
Proof.
  intros val. induction l as [|[b dflt] r IH]; intros c a N D; [cbn; auto 10|].
  inversion N as [|? ? Nb N']; subst. cbn [fold_left fst snd]. cbn zeta in IH.
  assert (Db := D (b, dflt) (or_introl eq_refl)). cbn [fst] in Db.
  set (c1 := put_attr c b dflt (val b)).
  assert (D1 : forall e, In e r -> existsb (aname_eqb (fst e)) (c_default c1) = false).
  { intros e He. unfold c1, put_attr. destruct (val b); cbn [c_default]; [apply D; right; auto|].
    cbn [existsb]. rewrite (D e) by (right; auto). destruct (aname_eqb_spec (fst e) b); auto.
    exfalso. apply Nb. subst b. apply in_map. auto. }
  destruct (IH c1 a N' D1) as (R & G & F & L & DL & DD). clear IH.
  set (c' := fold_left _ r c1) in *. unfold in_defaults, initial in *. cbn [existsb find fst]. 
  assert (Out : aname_eqb a b = true -> existsb (fun e : aname * option string => aname_eqb a (fst e)) r = false).
  { intros E. destruct (aname_eqb_spec a b); [subst a|discriminate]. clear -Nb. induction r as [|e r IH]; auto. cbn.
    destruct (aname_eqb_spec b (fst e)); [exfalso; apply Nb; left; auto|]. apply IH. intros H; apply Nb; right; auto. }
  cbn zeta. destruct (aname_eqb a b) eqn:Eab; cbn [orb].
  - specialize (Out eq_refl). rewrite Out in R, G, DD. destruct (aname_eqb_spec a b); [subst a|discriminate].
    rewrite R, G, F, L, DL. rewrite ?Out. unfold c1, put_attr, real, pick_attr.
    destruct (val b); cbn [c_attrs c_default c_default_lh existsb].
    + rewrite Db. rewrite getattr_setattr, aname_eqb_refl. destruct (c_attrs c); destruct b; cbn; auto 10.
      all: repeat split; auto; discriminate.
    + rewrite getattr_setattr, aname_eqb_refl. destruct (c_attrs c); destruct b; cbn; repeat split; auto; discriminate.
  - rewrite F, L, DL. split; [|split; [|split; [|split; [|split]]]].
    + rewrite R. destruct (existsb _ r); auto. unfold c1, put_attr, real, pick_attr.
      destruct (val b); cbn [c_attrs c_default existsb]; rewrite getattr_setattr, Eab; auto.
    + rewrite G. destruct (existsb _ r); auto. unfold c1, put_attr. destruct (val b); cbn [c_attrs]; rewrite getattr_setattr, Eab; auto.
    + unfold c1, put_attr. destruct (val b); cbn [c_attrs]; destruct (c_attrs c), b; auto.
    + unfold c1, put_attr. destruct (val b); cbn [c_attrs]; destruct (c_attrs c), b; auto.
    + unfold c1, put_attr. destruct (val b); auto.
    + intros E. rewrite DD by auto. unfold c1, put_attr. destruct (val b); cbn [c_default existsb]; auto. rewrite Eab. auto.
Qed.

Lemma nodup_simple : NoDup (map fst simple_defaults).
Proof. cbn. repeat constructor; cbn; intuition discriminate. Qed.
Lemma nodup_inherited : NoDup (map fst inherited_defaults).
Proof. cbn. repeat constructor; cbn; intuition discriminate. Qed.

Lemma compute_style_spec : forall z spec parent region defer c,
  compute_style z spec parent region defer = SOk c ->
  exists fs lh, compute_font_size z spec parent region defer = SOk fs /\
    compute_line_height z spec parent region fs = SOk lh /\
    fontSize (c_attrs c) = fs /\ lineHeight (c_attrs c) = or_else lh (Some LNormal) /\
    c_default_lh c = (match lh with None => true | Some _ => false end) /\
    forall a,
      real c a = (if in_defaults inherited_defaults a then compute_inherited a spec parent region
                  else if in_defaults simple_defaults a then getattr spec a else None) /\
      getattr (c_attrs c) a = or_else (real c a) (or_else (initial inherited_defaults a) (initial simple_defaults a)).
Proof.
  intros z spec parent region defer c H. unfold compute_style in H.
  destruct (compute_font_size z spec parent region defer) as [fs|e] eqn:F; [|discriminate]. cbn [sbind] in H.
  destruct (compute_line_height z spec parent region fs) as [lh|e] eqn:L; [|discriminate]. cbn [sbind] in H.
  exists fs, lh. split; auto. split; auto.
  set (c1 := match lh with None => _ | Some _ => _ end) in H.
  set (c2 := fold_left _ simple_defaults c1) in H.
  assert (Cd : c_default c1 = []) by (unfold c1; destruct lh; auto).
  assert (D1 : forall e, In e simple_defaults -> existsb (aname_eqb (fst e)) (c_default c1) = false) by (intros; rewrite Cd; auto).
  assert (S1 := fun a => fold_put (getattr spec) simple_defaults c1 a nodup_simple D1). cbn zeta in S1. fold c2 in S1.
  assert (D2 : forall e, In e inherited_defaults -> existsb (aname_eqb (fst e)) (c_default c2) = false).
  { intros e He. destruct (S1 (fst e)) as (_ & _ & _ & _ & _ & DD). rewrite DD, Cd; auto.
    cbn in He. repeat (destruct He as [<-|He]; [reflexivity|]). destruct He. }
  assert (S2 := fun a => fold_put (fun a => compute_inherited a spec parent region) inherited_defaults c2 a nodup_inherited D2).
  cbn beta zeta in S2. assert (Hc := f_equal (fun r => match r with SOk x => x | SErr _ => c end) H). cbn beta iota in Hc. rewrite Hc in S2. clear H Hc.
  destruct (S2 Color) as (_ & _ & F2 & L2 & DL2 & _). destruct (S1 Color) as (_ & _ & F1 & L1 & DL1 & _).
  rewrite F2, F1, L2, L1, DL2, DL1.
  split; [unfold c1; destruct lh; auto|]. split; [unfold c1; destruct lh; auto|]. split; [unfold c1; destruct lh; auto|].
  intros a. destruct (S2 a) as (R2 & G2 & _). destruct (S1 a) as (R1 & G1 & _).
  rewrite R2, R1, G2, G1.
  assert (N1 : getattr (c_attrs c1) a = None) by (unfold c1; destruct lh, a; auto).
  assert (N2 : real c1 a = None) by (unfold real, pick_attr; rewrite N1; destruct (existsb _ _); auto).
  destruct a; cbn [in_defaults existsb aname_eqb fst orb inherited_defaults simple_defaults initial find snd]; split; auto; rewrite ?or_else_none; auto.
Qed.


(** ** Whole documents *)

(** An element of a document: its kind, its style and region attributes, and
    what the pass left on it. *)
Record item := mkI { i_kind : ekind; i_style : option (list string); i_region : option string; i_el : styled }.

(** [within t o anc i]: [i] is an element of the body [t], validated as [o];
    [anc] its ancestors, parent first. *)
Inductive within : sel -> sout -> list item -> item -> Prop :=
| W_here : forall k s r e kids os, within (SNode k s r kids) (SOut k r e os) [] (mkI k s r e)
| W_below : forall k s r e kids os n kid o anc i, nth_error kids n = Some kid -> nth_error os n = Some o ->
    within kid o anc i ->
    within (SNode k s r kids) (SOut k r e os) (anc ++ [mkI k s r e])%list i.

(** What holds of every element and its ancestors. *)
Definition region_of (regions : list (string * styled)) (e : styled) : option styled :=
  match e_region e with Some i => dict_get regions i | None => None end.
Definition parent_of (up : list item) : option styled :=
  match up with [] => None | p :: _ => Some (i_el p) end.
Definition comp (o : option styled) : option computed :=
  match o with Some e => Some (e_computed e) | None => None end.
Definition refs (s : option (list string)) : list string := match s with Some l => l | None => [] end.

Inductive linked (d : list (string * kind)) (z : sizing) (regions : list (string * styled)) : list item -> Prop :=
| L_nil : linked d z regions []
| L_cons : forall i up, linked d z regions up ->
    (forall r, e_region (i_el i) = Some r -> dict_get regions r <> None) ->
    (exists st, settled d st /\ fst (collect_refs d st (refs (i_style i))) = SOk (e_referenced (i_el i))) ->
    e_specified (i_el i) = resolve_styles (map (attrs_of d) (e_referenced (i_el i))) ->
    e_region_styles (i_el i) = match region_of regions (i_el i) with
                               | Some g => fresh_region (e_referenced (i_el i)) (e_inherited (i_el i)) (validated_styles g)
                               | None => []
                               end ->
    compute_style z (e_specified (i_el i)) (comp (parent_of up)) (comp (region_of regions (i_el i)))
                  (defers (i_kind i)) = SOk (e_computed (i_el i)) ->
    linked d z regions (i :: up).

(** The same for a region. *)
Definition region_linked (d : list (string * kind)) (z : sizing) (g : region_el) (e : styled) : Prop :=
  e_region e = None /\
  (exists st, settled d st /\ fst (collect_refs d st (refs (r_refs g))) = SOk (e_referenced e)) /\
  e_specified e = resolve_styles
    (mkAttrs None None None None None None None None None None None None (r_padding g) None None
     :: map (attrs_of d) (e_referenced e)) /\
  validated_styles e = e_referenced e /\
  compute_style z (e_specified e) None None false = SOk (e_computed e).

Fixpoint sel_ind' (Pr : sel -> Prop)
  (step : forall k s r kids, Forall Pr kids -> Pr (SNode k s r kids)) (t : sel) : Pr t :=
  match t with
  | SNode k s r kids =>
      step k s r kids ((fix all (l : list sel) : Forall Pr l :=
        match l with [] => Forall_nil _ | x :: m => Forall_cons _ (sel_ind' Pr step x) (all m) end) kids)
  end.

Lemma collect_fields : forall d z w style parent defer extra e w', collect d z w style parent defer extra = (SOk e, w') ->
  w_stack w' = w_stack w /\ w_region w' = w_region w /\
  e_region e = (match w_region w with Some (i, _) => Some i | None => None end) /\
  e_specified e = resolve_styles (extra ++ map (attrs_of d) (e_referenced e)) /\
  fst (collect_refs d (w_styles w) (refs style)) = SOk (e_referenced e) /\
  w_styles w' = snd (collect_refs d (w_styles w) (refs style)) /\
  e_inherited e = fold_left (fresh (e_referenced e)) (w_stack w) [] /\
  e_region_styles e = (match w_region w with
                       | Some (_, g) => fresh_region (e_referenced e) (e_inherited e) (validated_styles g)
                       | None => [] end) /\
  compute_style z (e_specified e) parent (match w_region w with Some (_, g) => Some (e_computed g) | None => None end) defer
    = SOk (e_computed e).
Proof.
  intros d z w style parent defer extra e w' H. unfold collect in H. unfold refs.
  destruct (collect_refs d (w_styles w) (match style with Some l => l | None => [] end)) as [[r|er] st0] eqn:C; [|discriminate].
  destruct (compute_style _ _ _ _ _) as [c|er] eqn:E in H; [|discriminate]. inversion H; subst. cbn. auto 12.
Qed.

Lemma collect_refs_settled : forall d st l, settled d st -> settled d (snd (collect_refs d st l)).
Proof.
  intros d st l S. assert (Y := collect_refs_spec d l [] [] st S (U_nil d)). cbn [keep_first app] in Y. unfold collect_refs.
  destruct (each_ref (ordered_styles (enough d) d) d l [] st) as [r st']. exact (proj1 Y).
Qed.

(** The children part of style_pass as a function of its own. *)
Fixpoint pass_all d z regions (parent : option computed) (ks : list sel) (w : world) : sres (list sout * world) :=
  match ks with
  | [] => SOk ([], w)
  | x :: r => sbind (style_pass d z regions parent x w) (fun '(o, w') =>
              sbind (pass_all d z regions parent r w') (fun '(os, w'') => SOk (o :: os, w'')))
  end.

Lemma style_pass_inv : forall d z regions k s r kids parent w o w', style_pass d z regions parent (SNode k s r kids) w = SOk (o, w') ->
  exists w1 e w2 os w3, set_region regions k r w = SOk w1 /\ collect d z w1 s parent (defers k) [] = (SOk e, w2) /\
    pass_all d z regions (Some (e_computed e)) kids (push w2 e) = SOk (os, w3) /\ o = SOut k r e os /\
    w' = (match k with Div => unset_region k r w3 | _ => pop (unset_region k r w3) end).
Proof.
  intros d z regions k s r kids parent w o w' H. cbn [style_pass] in H.
  destruct (set_region regions k r w) as [w1|e]; [|discriminate]. cbn [sbind] in H.
  destruct (collect d z w1 s parent (defers k) []) as [[e|er] w2] eqn:C; [|discriminate].
  match type of H with sbind (?f kids (push w2 e)) _ = _ =>
    assert (E : forall ks w0, f ks w0 = pass_all d z regions (Some (e_computed e)) ks w0) end.
  { induction ks as [|x m IH]; intros w0; auto. cbn [pass_all].
    destruct (style_pass d z regions (Some (e_computed e)) x w0) as [[o0 w0']|]; cbn [sbind]; auto. rewrite IH. auto. }
  rewrite E in H. destruct (pass_all d z regions (Some (e_computed e)) kids (push w2 e)) as [[os w3]|er] eqn:P; [|discriminate].
  cbn [sbind] in H. exists w1, e, w2, os, w3. repeat split; auto; destruct k; inversion H; auto.
Qed.

Lemma pass_all_cons : forall d z regions parent x m w os w', pass_all d z regions parent (x :: m) w = SOk (os, w') ->
  exists o w1 os', style_pass d z regions parent x w = SOk (o, w1) /\ pass_all d z regions parent m w1 = SOk (os', w') /\ os = o :: os'.
Proof.
  intros d z regions parent x m w os w' H. cbn [pass_all] in H.
  destruct (style_pass d z regions parent x w) as [[o w1]|]; [|discriminate]. cbn [sbind] in H.
  destruct (pass_all d z regions parent m w1) as [[os' w2]|] eqn:E; [|discriminate]. cbn [sbind] in H. inversion H; subst. eauto 8.
Qed.

(** Regions in the dataset come from the layout; the locks are free. *)
Definition tidy (d : list (string * kind)) (regions : list (string * styled)) (w : world) : Prop :=
  settled d (w_styles w) /\
  match w_region w with Some (i, g) => dict_get regions i = Some g | None => True end.

Lemma set_region_tidy : forall d regions k r w w', tidy d regions w -> set_region regions k r w = SOk w' -> tidy d regions w'.
Proof.
  intros d regions k r w w' [S R] H. unfold set_region in H. destruct k, r as [i|]; try (inversion H; subst; split; auto; fail);
    destruct (dict_get regions i) eqn:E; try discriminate; inversion H; subst; split; auto.
Qed.

Lemma unset_region_tidy : forall d regions k r w, tidy d regions w -> tidy d regions (unset_region k r w).
Proof. intros d regions k r w [S R]. unfold unset_region. destruct k, r; split; auto; exact I. Qed.

Lemma collect_tidy : forall d z regions w s parent defer extra e w', tidy d regions w ->
  collect d z w s parent defer extra = (SOk e, w') -> tidy d regions w'.
Proof.
  intros d z regions w s parent defer extra e w' [S R] H. apply collect_fields in H as (_ & E & _ & _ & _ & St & _).
  split; [rewrite St; apply collect_refs_settled; auto|rewrite E; auto].
Qed.

Lemma pop_tidy : forall d regions w, tidy d regions w -> tidy d regions (pop w).
Proof. auto. Qed.

Lemma style_pass_linked : forall d z regions t up w o w', tidy d regions w -> linked d z regions up ->
  style_pass d z regions (comp (parent_of up)) t w = SOk (o, w') ->
  tidy d regions w' /\ forall anc i, within t o anc i -> linked d z regions (i :: anc ++ up).
Proof.
  intros d z regions. induction t as [k s r kids IH] using sel_ind'. intros up w o w' T L H.
  apply style_pass_inv in H as (w1 & e & w2 & os & w3 & H1 & H2 & H3 & -> & ->).
  assert (T1 := set_region_tidy _ _ _ _ _ _ T H1). assert (T2 := collect_tidy _ _ _ _ _ _ _ _ _ _ T1 H2).
  assert (L' : linked d z regions (mkI k s r e :: up)).
  { apply collect_fields in H2 as (_ & _ & Er & Sp & Rf & _ & _ & Rs & C). destruct T1 as [S1 R1].
    constructor; auto; cbn [i_el i_kind i_style].
    - intros j Ej. rewrite Er in Ej. destruct (w_region w1) as [[i g]|]; [|discriminate]. inversion Ej; subst. congruence.
    - eauto.
    - unfold region_of. rewrite Er. destruct (w_region w1) as [[i g]|]; [rewrite R1|]; exact Rs.
    - unfold region_of. rewrite Er. destruct (w_region w1) as [[i g]|]; [rewrite R1|]; exact C. }
  assert (K : forall ks w0 os0 w4, Forall (fun t => forall up w o w', tidy d regions w -> linked d z regions up ->
        style_pass d z regions (comp (parent_of up)) t w = SOk (o, w') ->
        tidy d regions w' /\ forall anc i, within t o anc i -> linked d z regions (i :: anc ++ up)) ks ->
      tidy d regions w0 -> pass_all d z regions (Some (e_computed e)) ks w0 = SOk (os0, w4) ->
      tidy d regions w4 /\ forall n t' o' anc i, nth_error ks n = Some t' -> nth_error os0 n = Some o' -> within t' o' anc i ->
        linked d z regions (i :: anc ++ mkI k s r e :: up)).
  { induction ks as [|x m IHm]; intros w0 os0 w4 F T0 P.
    - inversion P; subst. split; auto. intros [|n] ? ? ? ? N; discriminate.
    - inversion F as [|? ? Fx Fm]; subst. apply pass_all_cons in P as (o0 & w5 & os' & Ex & Em & ->).
      destruct (Fx (mkI k s r e :: up) w0 o0 w5 T0 L' Ex) as [Tx Wx].
      destruct (IHm _ _ _ Fm Tx Em) as [Tm Wm]. split; auto. intros [|n] t' o' anc i N N' W; cbn in N, N'.
      + inversion N; inversion N'; subst. eauto.
      + eauto. }
  destruct (K kids (push w2 e) os w3 IH T2 H3) as [T3 W3]. split.
  - assert (Tu := unset_region_tidy d regions k r w3 T3). destruct k; auto.
  - intros anc i W. inversion W as [|? ? ? ? ? ? n kid o anc' i' N N' W']; subst; auto.
    rewrite <- app_assoc. cbn [app]. eauto.
Qed.

Lemma pass_regions_linked : forall d z l w es w', settled d (w_styles w) -> w_region w = None -> w_stack w = [] ->
  pass_regions d z l w = SOk (es, w') ->
  settled d (w_styles w') /\ w_region w' = None /\ w_stack w' = w_stack w /\
  map fst es = map fst (filter (fun x => match snd x with KRegion _ => true | _ => false end) l) /\
  forall j e, dict_get es j = Some e -> exists g, In (j, KRegion g) l /\ region_linked d z g e.
Proof.
  intros d z. induction l as [|[i k] r IH]; intros w es w' S W K H; cbn [pass_regions] in H.
  - inversion H; subst. split; [auto|]. split; [auto|]. split; [auto|]. split; [auto|]. intros j e E. discriminate.
  - destruct k as [s|g|].
    + destruct (IH _ _ _ S W K H) as (A & B & C & D & E). split; [auto|]. split; [auto|]. split; [auto|]. split; [auto|]. intros j e X. destruct (E _ _ X) as (g & I1 & I2). eauto using in_cons.
    + destruct (collect d z w (r_refs g) None false _) as [[e|er] w1] eqn:C; [|discriminate].
      destruct (pass_regions d z r w1) as [[es' w2]|er] eqn:P; [|discriminate]. cbn [sbind] in H. inversion H; subst.
      apply collect_fields in C as (Sk & Wr & Er & Sp & Rf & St & Ih & Rs & C). rewrite W, K in *.
      assert (S1 : settled d (w_styles w1)) by (rewrite St; apply collect_refs_settled; auto).
      destruct (IH _ _ _ S1 Wr Sk P) as (I1 & I2 & I3 & I4 & I5). split; [auto|]. split; [auto|]. split; [congruence|].
      split; [cbn [map filter snd fst]; f_equal; exact I4|].
      intros j e' E. cbn in E. destruct (String.eqb_spec j i).
      * inversion E; subst. exists g. split; [left; auto|]. split; auto. split; eauto. split; auto. split; auto.
        unfold validated_styles. rewrite Rs, Ih. cbn. rewrite app_nil_r. auto.
      * destruct (I5 _ _ E) as (g' & G1 & G2). eauto using in_cons.
    + destruct (IH _ _ _ S W K H) as (A & B & C & D & E). split; [auto|]. split; [auto|]. split; [auto|]. split; [auto|]. intros j e X. destruct (E _ _ X) as (g & I1 & I2). eauto using in_cons.
Qed.

(** Every element and every region of a document that validates. *)
Lemma validate_linked : forall d z body regions o, validate_styles d z body = SOk (regions, o) ->
  (forall anc i, within body o anc i -> linked d z regions (i :: anc)) /\
  (forall j e, dict_get regions j = Some e -> exists g, In (j, KRegion g) d /\ region_linked d z g e).
Proof.
  intros d z body regions o H. unfold validate_styles in H.
  destruct (check_styles z d); [|discriminate]. cbn [sbind] in H.
  destruct (pass_regions d z d (mkW sstart [] None)) as [[rs w]|] eqn:P; [|discriminate]. cbn [sbind] in H.
  destruct (style_pass d z rs None body w) as [[o' w']|] eqn:S; [|discriminate]. cbn [sbind] in H. inversion H; subst rs o'. clear H.
  destruct (pass_regions_linked d z d (mkW sstart [] None) _ _ (settled_start d) eq_refl eq_refl P) as (A & B & _ & _ & E).
  split; auto. intros anc i W.
  assert (T : tidy d regions w) by (split; auto; rewrite B; exact I).
  destruct (style_pass_linked d z regions body [] w o w' T (L_nil _ _ _) S) as [_ G].
  specialize (G _ _ W). rewrite app_nil_r in G. exact G.
Qed.

(** Every element of the body is there. *)
Inductive inside : sel -> sel -> Prop :=
| I_here : forall t, inside t t
| I_below : forall k s r kids kid t, In kid kids -> inside kid t -> inside (SNode k s r kids) t.

Lemma style_pass_complete : forall d z regions t parent w o w', style_pass d z regions parent t w = SOk (o, w') ->
  forall k s r kids, inside t (SNode k s r kids) -> exists anc e, within t o anc (mkI k s r e).
Proof.
  intros d z regions. induction t as [k s r kids IH] using sel_ind'. intros parent w o w' H k' s' r' kids' I.
  apply style_pass_inv in H as (w1 & e & w2 & os & w3 & _ & _ & H3 & -> & _).
  inversion I as [|? ? ? ? kid ? Hin I']; subst.
  - exists [], e. constructor.
  - assert (K : exists n o, nth_error kids n = Some kid /\ nth_error os n = Some o /\
                exists anc e, within kid o anc (mkI k' s' r' e)).
    { clear I. revert os H3. generalize (push w2 e) as w0. induction IH as [|x m Hx Hm IHm]; intros w0 os H3; [destruct Hin|].
      apply pass_all_cons in H3 as (o0 & w5 & os' & Ex & Em & ->). destruct Hin as [->|Hin].
      - exists 0%nat, o0. split; auto. split; auto. eauto.
      - destruct (IHm Hin _ _ Em) as (n & o' & N & N' & W). exists (S n), o'. auto. }
    destruct K as (n & o' & N & N' & anc & e' & W). exists (anc ++ [mkI k s r e])%list, e'. econstructor; eauto.
Qed.
