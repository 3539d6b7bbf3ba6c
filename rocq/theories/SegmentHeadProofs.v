(** Proofs for C47: the head of a segment. *)

From Coq Require Import List ZArith String Bool Lia Relations.
From Verif Require Import IdModel TimingModel StyleModel StyleProofs StyleTree PropsScope PropsId SegmentModel SegmentSpec SegmentProofs.
Import ListNotations.
Open Scope Z_scope.

Lemma mem_iff : forall i l, mem i l = true <-> In i l.
Proof. exact StyleProofs.mem_In. Qed.

(** ** What the style pass leaves on elements *)

(** All styles, and with every style those it refers to. *)
Definition closed (d : list (string * kind)) (l : list string) : Prop :=
  forall x, In x l -> get_style d x <> None /\ forall y, edge d x y -> In y l.

Lemma collect_closed : forall d st l r, settled d st -> fst (collect_refs d st l) = SOk r ->
  closed d r /\ (forall j, In j l -> In j r).
Proof.
  intros d st l r Hs E. assert (Y := collect_refs_spec d l [] [] st Hs (U_nil d)). cbn [keep_first app] in Y. unfold collect_refs in E.
  destruct (each_ref (ordered_styles (enough d) d) d l [] st) as [[q|e] st']; cbn [fst] in E; [|discriminate].
  inversion E; subst q. destruct Y as [_ (u & U & ->)].
  assert (R := fun x => proj2 (unfolds_reach d) l u U x). split.
  - intros x Hx. rewrite keep_first_In in *. apply R in Hx. destruct Hx as (i & Hi & Hx). split.
    + destruct (unfolds_all_in _ _ _ _ U Hi) as (l0 & a & b & U0 & _). apply (unfolds_sound _ _ _ U0). auto.
    + intros y Exy. rewrite keep_first_In. apply R. exists i. split; auto. eapply rt_trans; [exact Hx|apply rt_step; auto].
  - intros j Hj. rewrite keep_first_In. apply R. exists j. split; auto. apply rt_refl.
Qed.

(** Closed stacks, and a closed region. *)
Definition closed_world (d : list (string * kind)) (w : world) : Prop :=
  settled d (w_styles w) /\ Forall (closed d) (w_stack w) /\
  match w_region w with Some (_, g) => closed d (validated_styles g) | None => True end.

Definition closed_regions (d : list (string * kind)) (regions : list (string * styled)) : Prop :=
  forall j g, dict_get regions j = Some g -> closed d (validated_styles g).

Lemma concat_closed : forall d l, Forall (closed d) l -> closed d (List.concat l).
Proof.
  intros d l F x Hx. apply in_concat in Hx. destruct Hx as (c & Hc & Hx). rewrite Forall_forall in F.
  destruct (F _ Hc _ Hx) as [G E]. split; auto. intros y Hy. apply in_concat. eauto.
Qed.

Lemma collect_el : forall d z w s parent defer e w', closed_world d w -> collect d z w s parent defer [] = (SOk e, w') ->
  closed_world d w' /\ closed d (e_referenced e) /\ closed d (validated_styles e) /\
  (forall j, In j (refs s) -> In j (validated_styles e)) /\
  (forall i g, w_region w = Some (i, g) -> forall j, In j (validated_styles g) -> In j (validated_styles e)).
Proof.
  intros d z w s parent defer e w' (St & Sk & Rg) H.
  apply collect_fields in H as (S1 & R1 & Er & _ & Rf & St1 & Inh & Rs & _).
  destruct (collect_closed _ _ _ _ St Rf) as [Cr Hr].
  assert (Ai : forall y, In y (List.concat (w_stack w)) -> In y (e_referenced e) \/ In y (e_inherited e)).
  { intros y Hy. destruct (fresh_all (e_referenced e) (w_stack w) []) as (r & E1 & _ & I1). rewrite Inh, E1. cbn [app].
    rewrite I1. destruct (in_dec string_dec y (e_referenced e)); auto. }
  assert (Ai' : forall y, In y (e_inherited e) -> In y (List.concat (w_stack w))).
  { intros y Hy. destruct (fresh_all (e_referenced e) (w_stack w) []) as (r & E1 & _ & I1). rewrite Inh, E1 in Hy. cbn [app] in Hy.
    apply I1 in Hy. tauto. }
  assert (Ar : forall i g, w_region w = Some (i, g) -> forall j, In j (validated_styles g) -> In j (validated_styles e)).
  { intros i g W j Hj. rewrite W in Rs. unfold validated_styles. rewrite !in_app_iff, Rs. unfold fresh_region. rewrite filter_In.
    destruct (mem j (e_referenced e)) eqn:M1; [apply mem_iff in M1; auto|].
    destruct (mem j (e_inherited e)) eqn:M2; [apply mem_iff in M2; auto|]. auto. }
  split; [|split; [auto|split; [|split; [|auto]]]].
  - split; [rewrite St1; apply collect_refs_settled; auto|]. rewrite S1, R1. auto.
  - intros x Hx. unfold validated_styles in Hx. rewrite !in_app_iff in Hx. destruct Hx as [Hx|[Hx|Hx]].
    + destruct (Cr _ Hx) as [G E]. split; auto. intros y Hy. unfold validated_styles. rewrite !in_app_iff. auto.
    + apply Ai' in Hx. destruct (concat_closed _ _ Sk _ Hx) as [G E]. split; auto. intros y Hy. unfold validated_styles.
      rewrite !in_app_iff. destruct (Ai y); auto.
    + rewrite Rs in Hx. destruct (w_region w) as [[i g]|] eqn:W; [|destruct Hx]. apply filter_In in Hx as [Hx _].
      destruct (Rg _ Hx) as [G E]. split; eauto.
  - intros j Hj. unfold validated_styles. apply in_app_iff. left. auto.
Qed.

(** What is known of an element. *)
Definition el_ok (d : list (string * kind)) (regions : list (string * styled)) (i : item) : Prop :=
  closed d (validated_styles (i_el i)) /\
  (forall j, In j (refs (i_style i)) -> In j (validated_styles (i_el i))) /\
  (forall r, names i = Some r -> exists g, dict_get regions r = Some g /\
     forall j, In j (validated_styles g) -> In j (validated_styles (i_el i))).

Lemma pass_ok : forall d z regions, closed_regions d regions -> forall t parent w o w', closed_world d w ->
  style_pass d z regions parent t w = SOk (o, w') ->
  closed_world d w' /\ forall anc i, within t o anc i -> el_ok d regions i.
Proof.
  intros d z regions CR. induction t as [k s r kids IH] using sel_ind'. intros parent w o w' C H.
  apply style_pass_inv in H as (w1 & e & w2 & os & w3 & H1 & H2 & H3 & -> & ->).
  assert (C1 : closed_world d w1 /\ forall j, here k r = Some j -> exists g, dict_get regions j = Some g /\ w_region w1 = Some (j, g)).
  { apply set_region_here in H1. destruct (here k r) as [j|].
    - destruct H1 as (g & Eg & ->). destruct C as (A & B & _). split.
      + split; [auto|]. split; [auto|]. cbn. eapply CR; eauto.
      + intros j' E. inversion E; subst. eauto.
    - subst w1. split; auto. discriminate. }
  destruct C1 as [C1 Hn]. destruct (collect_el _ _ _ _ _ _ _ _ C1 H2) as (C2 & Ce & Cv & Hs & Hg).
  assert (Cp : closed_world d (push w2 e)).
  { destruct C2 as (A & B & D). split; [auto|]. split; [|auto]. cbn. apply Forall_app. split; auto. }
  assert (K : closed_world d w3 /\ forall n t' o' anc i, nth_error kids n = Some t' -> nth_error os n = Some o' ->
              within t' o' anc i -> el_ok d regions i).
  { clear - IH H3 Cp. revert IH os w3 H3 Cp. generalize (push w2 e) as w0.
    induction kids as [|x m IHm]; intros w0 IH os w3 H3 Cp.
    - inversion H3; subst. split; auto. intros [|n]; discriminate.
    - inversion IH as [|? ? Ix Im]; subst. apply pass_all_cons in H3 as (o0 & w5 & os' & Ex & Em & ->).
      destruct (Ix _ _ _ _ Cp Ex) as [C5 W5]. destruct (IHm _ Im _ _ Em C5) as [C3 W3]. split; auto.
      intros [|n] t' o' anc i N N' W; cbn in N, N'; [inversion N; inversion N'; subst; eauto|eauto]. }
  destruct K as [C3 W3]. split.
  - assert (Cu : closed_world d (unset_region k r w3)).
    { rewrite unset_region_here. destruct (here k r); auto. destruct C3 as (A & B & _). split; [auto|]. split; [auto|exact I]. }
    assert (Po : closed_world d (pop (unset_region k r w3))).
    { destruct Cu as (A & B & D). split; [auto|]. split; [|auto]. cbn. clear - B. induction B as [|x l Hx B IHB]; cbn; auto.
      destruct l; auto. }
    destruct k; auto.
  - intros anc i W. inversion W as [|? ? ? ? ? ? n kid o anc' i' N N' W']; subst.
    + split; [auto|]. split; [auto|]. intros j Hj. unfold names in Hj. cbn [i_kind i_region] in Hj.
      destruct (Hn j Hj) as (g & Eg & Ew). exists g. split; auto. intros x Hx. cbn [i_el]. eapply Hg; eauto.
    + eauto.
Qed.

Lemma validate_ok : forall d z body regions o, validate_styles d z body = SOk (regions, o) ->
  (forall anc i, within body o anc i -> el_ok d regions i) /\
  (forall j g, dict_get regions j = Some g -> exists r, In (j, KRegion r) d /\
     forall x, In x (refs (r_refs r)) -> In x (validated_styles g)).
Proof.
  intros d z body regions o H. destruct (validate_linked _ _ _ _ _ H) as [_ RL].
  assert (Rg : forall j g, dict_get regions j = Some g -> exists r, In (j, KRegion r) d /\
            closed d (validated_styles g) /\ forall x, In x (refs (r_refs r)) -> In x (validated_styles g)).
  { intros j g E. destruct (RL _ _ E) as (r & Hr & (_ & (st & S & C) & _ & V & _)). exists r. split; auto. rewrite V.
    eapply collect_closed; eauto. }
  split.
  - unfold validate_styles in H. destruct (check_styles z d); [|discriminate]. cbn [sbind] in H.
    destruct (pass_regions d z d (mkW sstart [] None)) as [[rs w]|] eqn:P; [|discriminate]. cbn [sbind] in H.
    destruct (style_pass d z rs None body w) as [[o' w']|] eqn:S; [|discriminate]. cbn [sbind] in H. inversion H; subst rs o'. clear H.
    destruct (pass_regions_linked d z d (mkW sstart [] None) _ _ (settled_start d) eq_refl eq_refl P) as (A & B & K & _ & _).
    eapply pass_ok; [|split; [exact A|split; [rewrite K; constructor|rewrite B; exact I]]|exact S].
    intros j g E. destruct (Rg _ _ E) as (r & _ & C & _). auto.
  - intros j g E. destruct (Rg _ _ E) as (r & Hr & _ & C). eauto.
Qed.

(** ** The same on the elements of the document *)

Definition node_fine (d : list (string * kind)) (v : vnode) : Prop :=
  match v with
  | VNode k i r st b e cb ce vs inh kids =>
      closed d vs /\ (forall j, In j (opt_list st) -> In j vs) /\
      forall j, In j (own_region k r) -> exists g, In (j, KRegion g) d /\ forall x, In x (opt_list (r_refs g)) -> In x vs
  | _ => True
  end.

Lemma refs_opt : forall s, refs s = opt_list s.
Proof. destruct s; auto. Qed.

Lemma names_own : forall k s r e j, In j (own_region k r) -> names (mkI k s r e) = Some j.
Proof. intros [] s [i|] e j H; cbn in *; try destruct H as [H|H]; subst; tauto. Qed.

Lemma item_fine : forall d regions k i r st b e cb ce vs inh kids el,
  (forall j g, dict_get regions j = Some g -> exists r, In (j, KRegion r) d /\
     forall x, In x (refs (r_refs r)) -> In x (validated_styles g)) ->
  el_ok d regions (mkI k st r el) -> vs = validated_styles el ->
  node_fine d (VNode k i r st b e cb ce vs inh kids).
Proof.
  intros d regions k i r st b e cb ce vs inh kids el RL (C & Sr & Rr) ->. cbn [node_fine i_el] in *. split; [auto|]. split.
  - intros j Hj. apply Sr. rewrite refs_opt. auto.
  - intros j Hj. destruct (Rr j) as (g & Eg & Hg); [apply names_own; auto|]. destruct (RL _ _ Eg) as (q & Hq & Rq).
    exists q. split; [auto|]. intros x Hx. apply Hg. apply Rq. rewrite refs_opt. auto.
Qed.

Inductive mirrors : sel -> sout -> Prop :=
| M_node k s r kids e os : Forall2 mirrors kids os -> mirrors (SNode k s r kids) (SOut k r e os).

Lemma pass_mirrors : forall d z regions t parent w o w', style_pass d z regions parent t w = SOk (o, w') -> mirrors t o.
Proof.
  intros d z regions. induction t as [k s r kids IH] using sel_ind'. intros parent w o w' H.
  apply style_pass_inv in H as (w1 & e & w2 & os & w3 & _ & _ & H3 & -> & _). constructor.
  revert os w3 H3. generalize (push w2 e) as w0. induction kids as [|x m IHm]; intros w0 os w3 H3.
  - inversion H3. constructor.
  - inversion IH as [|? ? Ix Im]; subst. apply pass_all_cons in H3 as (o0 & w5 & os' & Ex & Em & ->). constructor; eauto.
Qed.

Lemma validate_mirrors : forall d z body regions o, validate_styles d z body = SOk (regions, o) -> mirrors body o.
Proof.
  intros d z body regions o H. destruct (validate_pass _ _ _ _ _ H) as (w & w' & _ & _ & S). eapply pass_mirrors; eauto.
Qed.

(** One element, or none, for one child. *)
Lemma styling_vstyles : forall v, match v with
  | VNode k i r st b e cb ce vs inh kids =>
      styling (plain v) = [SNode k st r (flat_map styling (map plain kids))] /\ vstyles v = [STree k vs inh (flat_map vstyles kids)]
  | _ => styling (plain v) = [] /\ vstyles v = []
  end.
Proof. destruct v; cbn; auto. Qed.

Definition fine_below (d : list (string * kind)) (v : vnode) : Prop := forall w, part v w -> node_fine d w.

Lemma kids_fine : forall d kids, Forall (fun v => forall t o, styling (plain v) = [t] -> vstyles v = [ostyles o] -> mirrors t o ->
      (forall anc i, within t o anc i -> exists regions, el_ok d regions i /\
         forall j g, dict_get regions j = Some g -> exists r, In (j, KRegion r) d /\
           forall x, In x (refs (r_refs r)) -> In x (validated_styles g)) ->
      fine_below d v) kids ->
  forall os, Forall2 mirrors (flat_map styling (map plain kids)) os -> flat_map vstyles kids = map ostyles os ->
  (forall n t o anc i, nth_error (flat_map styling (map plain kids)) n = Some t -> nth_error os n = Some o -> within t o anc i ->
     exists regions, el_ok d regions i /\
         forall j g, dict_get regions j = Some g -> exists r, In (j, KRegion r) d /\
           forall x, In x (refs (r_refs r)) -> In x (validated_styles g)) ->
  Forall (fine_below d) kids.
Proof.
  induction kids as [|v kids IH]; intros F os M E W; [constructor|]. inversion F as [|? ? Fv Fk]; subst.
  destruct v as [s| |k i r st b e cb ce vs inh ks].
  - constructor; [|eapply IH; eauto]. intros w Hw. inversion Hw; subst. exact I.
  - constructor; [|eapply IH; eauto]. intros w Hw. inversion Hw; subst. exact I.
  - cbn [map plain flat_map styling vstyles app] in *. destruct os as [|o os]; [inversion M|]. cbn [map] in E.
    inversion M as [|? ? ? ? M1 M2]; subst. injection E as E1 E2. constructor.
    + eapply Fv; [reflexivity|rewrite <- E1; reflexivity|exact M1|]. intros anc i0 Wi. eapply (W 0%nat); cbn; eauto.
    + eapply IH; eauto. intros n t o' anc i0 N N' Wi. eapply (W (S n)); cbn; eauto.
Qed.

Lemma tree_fine : forall d v t o, styling (plain v) = [t] -> vstyles v = [ostyles o] -> mirrors t o ->
  (forall anc i, within t o anc i -> exists regions, el_ok d regions i /\
     forall j g, dict_get regions j = Some g -> exists r, In (j, KRegion r) d /\
       forall x, In x (refs (r_refs r)) -> In x (validated_styles g)) ->
  fine_below d v.
Proof.
  intros d. induction v as [s| |k i r st b e cb ce vs inh kids IH] using vnode_ind'; intros t o Et Eo M W.
  - discriminate.
  - discriminate.
  - cbn in Et, Eo. inversion Et; subst t. inversion M as [k' s' r' kids' el os M' E1 E2]; subst. cbn [ostyles] in Eo. inversion Eo; subst.
    assert (K : Forall (fine_below d) kids).
    { eapply kids_fine; [exact IH|exact M'|auto|]. intros n t o anc i0 N N' Wi. eapply W. eapply W_below; eauto. }
    intros w Hw. inversion Hw as [|? ? ? ? ? ? ? ? ? ? ? v w' Hin Hp]; subst.
    + destruct (W [] _ (W_here _ _ _ _ _ _)) as (regions & Ok & RL). eapply item_fine; eauto.
    + rewrite Forall_forall in K. eapply K; eauto.
Qed.

Lemma checked_fine : forall d v, style_checked d v ->
  let tbl := doc_table d (plain_body v) in
  closed tbl (vb_styles v) /\ (forall j, In j (opt_list (vb_style v)) -> In j (vb_styles v)) /\
  Forall (fine_below tbl) (vb_kids v).
Proof.
  intros d v H0 tbl. destruct H0 as (N & z & regions & o & H & E). fold tbl in H.
  destruct (validate_ok _ _ _ _ _ H) as [W RL]. assert (M := validate_mirrors _ _ _ _ _ H).
  unfold styling_body in *. cbn [bd_style bd_kids plain_body] in *.
  inversion M as [k' s' r' kids' el os M' E1 E2]; subst. unfold vstyles_body in E. cbn [ostyles] in E. inversion E as [[Ev Er Ek]].
  assert (Ok : el_ok tbl regions (mkI Body (vb_style v) None el)) by (apply (W []); apply W_here). destruct Ok as (C & Sr & _). cbn [i_el i_style] in *.
  rewrite Ev. split; [exact C|]. split; [intros j Hj; apply Sr; rewrite refs_opt; auto|].
  eapply kids_fine; [|exact M'|exact Ek|].
  - apply Forall_forall. intros w _ t o. apply tree_fine.
  - intros n t o anc i N0 N1 Wi. exists regions. split; [|exact RL]. eapply W. eapply W_below; eauto.
Qed.

(** ** The copies *)

Definition styles_of (v : vnode) : list string := match v with VNode _ _ _ _ _ _ _ _ vs _ _ => vs | _ => [] end.
Definition own_styles (v : vnode) : list string := match v with VNode _ _ _ st _ _ _ _ _ _ _ => opt_list st | _ => [] end.
Definition own_regions (v : vnode) : list string := match v with VNode k _ r _ _ _ _ _ _ _ _ => own_region k r | _ => [] end.
Definition copied (x : sctx) (v : vnode) : Prop := exists o n o', copy_node x v o = GOk (Some n, o').

Definition used_by (x : sctx) (vs : list vnode) (ns : list node) (o o' : list string) (used : list vnode) : Prop :=
  (forall i, In i o' <-> In i o /\ forall w, In w used -> ~ In i (styles_of w) /\ ~ In i (own_regions w)) /\
  (forall w, In w used -> (exists u, In u vs /\ part u w) /\ copied x w) /\
  (forall j, In j (flat_map style_refs ns) -> exists j0 w, j = copy_ref (x_dec x) (x_seq x) j0 /\ In w used /\ In j0 (own_styles w) /\ In j0 (x_styles x)) /\
  (forall j, In j (flat_map region_refs ns) -> exists j0 w, j = copy_ref (x_dec x) (x_seq x) j0 /\ In w used /\ In j0 (own_regions w) /\ In j0 (x_regions x)).

Lemma unorphan_in : forall u o i, In i (unorphan u o) <-> In i o /\ ~ In i u.
Proof.
  intros u o i. unfold unorphan. rewrite filter_In, negb_true_iff. rewrite <- mem_out. tauto.
Qed.

Lemma kids_used : forall x kids,
  Forall (fun v => forall o m o', copy_node x v o = GOk (m, o') -> exists used, used_by x [v] (opt_one m) o o' used) kids ->
  forall o ns o', copy_nodes x kids o = GOk (ns, o') ->
  exists used, used_by x kids ns o o' used.
Proof.
  intros x. induction kids as [|v kids IH]; intros F o ns o' H; cbn [copy_nodes] in H.
  - inversion H; subst. exists []. split; [intros i0; split; [intros Hi; split; [exact Hi|intros w0 []]|intros [Hi _]; exact Hi]|]. split; [intros w []|]. split; intros j [].
  - inversion F as [|? ? Fv Fk]; subst.
    destruct (copy_node x v o) as [[n o1]|] eqn:E; [|discriminate]. cbn [gbind] in H.
    destruct (copy_nodes x kids o1) as [[ns' o2]|] eqn:E2; [|discriminate]. cbn [gbind] in H.
    assert (En : ns = (opt_one n ++ ns')%list) by (inversion H; destruct n; auto).
    assert (Eo : o' = o2) by (inversion H; auto). subst. clear H.
    destruct (Fv _ _ _ E) as (u1 & A1 & B1 & C1 & D1).
    destruct (IH Fk _ _ _ E2) as (u2 & A2 & B2 & C2 & D2).
    exists (u1 ++ u2)%list. unfold used_by. rewrite !flat_map_app. split; [|split; [|split]].
    + intros j. rewrite A2, A1. split.
      * intros [[H1 H2] H3]. split; auto. intros w Hw. apply in_app_iff in Hw as [Hw|Hw]; auto.
      * intros [H1 H2]. split; [split; auto|]; intros w Hw; apply H2; apply in_app_iff; auto.
    + intros w Hw. apply in_app_iff in Hw as [Hw|Hw]; [destruct (B1 _ Hw) as [(u & Hu & Pu) Cw]|destruct (B2 _ Hw) as [(u & Hu & Pu) Cw]]; split; auto; exists u; split; auto;
        [destruct Hu as [<-|[]]; left; auto|right; auto].
    + intros j Hj. apply in_app_iff in Hj as [Hj|Hj]; [apply C1 in Hj|apply C2 in Hj];
        destruct Hj as (j0 & w & ? & ? & ?); exists j0, w; split; auto; split; auto; apply in_app_iff; auto.
    + intros j Hj. apply in_app_iff in Hj as [Hj|Hj]; [apply D1 in Hj|apply D2 in Hj];
        destruct Hj as (j0 & w & ? & ? & ?); exists j0, w; split; auto; split; auto; apply in_app_iff; auto.
Qed.

Lemma node_used : forall x v o m o', copy_node x v o = GOk (m, o') -> exists used, used_by x [v] (opt_one m) o o' used.
Proof.
  intros x. induction v as [s| |k i r st b e cb ce vs inh kids IH] using vnode_ind'; intros o m o' H.
  - inversion H; subst. exists []. split; [intros i0; split; [intros Hi; split; [exact Hi|intros w0 []]|intros [Hi _]; exact Hi]|]. split; [intros w []|]. split; intros j [].
  - inversion H; subst. exists []. split; [intros i0; split; [intros Hi; split; [exact Hi|intros w0 []]|intros [Hi _]; exact Hi]|]. split; [intros w []|]. split; intros j [].
  - assert (H' := H). apply copy_inv in H as [(_ & -> & ->)|(_ & r' & st' & ks & o1 & Er & Es & Ek & D)].
    + exists []. split; [intros i0; split; [intros Hi; split; [exact Hi|intros w0 []]|intros [Hi _]; exact Hi]|]. split; [intros w []|]. split; intros j [].
    + destruct (kids_used x kids IH _ _ _ Ek) as (u & A & B0 & C & R).
      assert (B : forall w, In w u -> (exists u0, In u0 [VNode k i r st b e cb ce vs inh kids] /\ part u0 w) /\ copied x w).
      { intros w Hw. destruct (B0 _ Hw) as [(u0 & Hu & Pu) Cw]. split; auto. eexists. split; [left; reflexivity|]. econstructor; eauto. }
      destruct D as [(_ & -> & ->)|(_ & b' & e' & _ & -> & ->)].
      * exists u. split; auto. split; auto. split; intros j [].
      * exists (VNode k i r st b e cb ce vs inh kids :: u). unfold used_by. cbn [opt_one flat_map]. rewrite !app_nil_r.
        destruct (map_style_ok _ _ _ Es) as [-> Ms]. destruct (map_region_ok _ _ _ _ Er) as [-> Mr].
        split; [|split; [|split]].
        -- intros j. rewrite unorphan_in, A, in_app_iff. cbn [In]. split.
           ++ intros [[H1 H2] H3]. split; auto. intros w [<-|Hw]; [cbn; tauto|auto].
           ++ intros [H1 H2]. split; [split; auto|]. destruct (H2 _ (or_introl eq_refl)) as [Q1 Q2]. cbn in Q1, Q2. tauto.
        -- intros w [<-|Hw]; auto. split; [eexists; split; [left; reflexivity|constructor]|]. unfold copied. eauto.
        -- cbn [style_refs]. intros j Hj. apply in_app_iff in Hj as [Hj|Hj].
           ++ destruct st as [l|]; [|destruct Hj]. cbn in Hj. apply in_map_iff in Hj as (j0 & <- & Hj).
              exists j0, (VNode k i r (Some l) b e cb ce vs inh kids). split; auto. split; [left; auto|]. split; [auto|].
              apply mem_iff. eauto.
           ++ destruct (C _ Hj) as (j0 & w & ? & ? & ?). exists j0, w. split; auto. split; auto. right. auto.
        -- cbn [region_refs]. intros j Hj. apply in_app_iff in Hj as [Hj|Hj].
           ++ assert (Hx : exists j0, j = copy_ref (x_dec x) (x_seq x) j0 /\ In j0 (own_region k r)).
              { destruct k, r; cbn in Hj; try tauto; destruct Hj as [<-|[]]; eexists; split; try reflexivity; left; auto. }
              destruct Hx as (j0 & -> & Hx). exists j0, (VNode k i r st b e cb ce vs inh kids). split; auto. split; [left; auto|].
              split; [auto|]. apply mem_iff. auto.
           ++ destruct (R _ Hj) as (j0 & w & ? & ? & ?). exists j0, w. split; auto. split; auto. right. auto.
Qed.

(** ** The identifiers of copies *)

Inductive sublist {A} : list A -> list A -> Prop :=
| sub_nil : sublist [] []
| sub_skip x l l' : sublist l l' -> sublist l (x :: l')
| sub_keep x l l' : sublist l l' -> sublist (x :: l) (x :: l').

Lemma sublist_none : forall A (l : list A), sublist [] l.
Proof. induction l; constructor; auto. Qed.
Lemma sublist_refl : forall A (l : list A), sublist l l.
Proof. induction l; [constructor|apply sub_keep; auto]. Qed.
Lemma sublist_app : forall A (a b c d : list A), sublist a b -> sublist c d -> sublist (a ++ c) (b ++ d).
Proof. induction 1 as [|x l l' S IH|x l l' S IH]; intros Q; cbn; [auto|apply sub_skip|apply sub_keep]; auto. Qed.
Lemma sublist_in : forall A (a b : list A), sublist a b -> forall x, In x a -> In x b.
Proof. induction 1; intros y Hy; cbn in *; auto; destruct Hy; auto. Qed.
Lemma sublist_nodup : forall A (a b : list A), sublist a b -> NoDup b -> NoDup a.
Proof.
  induction 1 as [|x l l' H IH|x l l' H IH]; intros N; auto; inversion N; subst; auto. constructor; auto.
  intros Hx. eapply sublist_in in Hx; eauto.
Qed.
Lemma sublist_filter : forall A (f : A -> bool) l, sublist (filter f l) l.
Proof. induction l as [|x l IH]; cbn; [constructor|]. destruct (f x); [apply sub_keep|apply sub_skip]; auto. Qed.
Lemma sublist_map : forall A B (f : A -> B) a b, sublist a b -> sublist (map f a) (map f b).
Proof. induction 1; cbn; [constructor|apply sub_skip|apply sub_keep]; auto. Qed.

Lemma copies_ids : forall x vs,
  Forall (fun v => forall o m o', copy_node x v o = GOk (m, o') ->
    sublist (flat_map node_ids (opt_one m)) (map (copy_ref (x_dec x) (x_seq x)) (node_ids (plain v)))) vs ->
  forall o ns o', copy_nodes x vs o = GOk (ns, o') ->
  sublist (flat_map node_ids ns) (map (copy_ref (x_dec x) (x_seq x)) (flat_map node_ids (map plain vs))).
Proof.
  intros x. induction vs as [|v vs IH]; intros F o ns o' H; cbn [copy_nodes] in H.
  - inversion H. constructor.
  - inversion F as [|? ? Fv Fk]; subst. destruct (copy_node x v o) as [[n o1]|] eqn:E; [|discriminate]. cbn [gbind] in H.
    destruct (copy_nodes x vs o1) as [[ns' o2]|] eqn:E2; [|discriminate]. cbn [gbind] in H.
    assert (En : ns = (opt_one n ++ ns')%list) by (inversion H; destruct n; auto). subst ns.
    cbn [map flat_map]. rewrite flat_map_app, map_app. apply sublist_app; eauto.
Qed.

Lemma copy_ids : forall x v o m o', copy_node x v o = GOk (m, o') ->
  sublist (flat_map node_ids (opt_one m)) (map (copy_ref (x_dec x) (x_seq x)) (node_ids (plain v))).
Proof.
  intros x. induction v as [s| |k i r st b e cb ce vs inh kids IH] using vnode_ind'; intros o m o' H.
  - inversion H; subst. constructor.
  - inversion H; subst. constructor.
  - apply copy_inv in H as [(_ & -> & _)|(_ & r' & st' & ks & o1 & _ & _ & Ek & D)]; [apply sublist_none|].
    destruct D as [(_ & -> & _)|(_ & b' & e' & _ & -> & _)]; [apply sublist_none|].
    cbn [opt_one flat_map node_ids plain]. rewrite app_nil_r, map_app. apply sublist_app; [|eapply copies_ids; eauto].
    rewrite copy_id_ref. destruct i; cbn; apply sublist_refl.
Qed.

(** New identifiers of different elements are different. *)
Lemma append_inj : forall a b c : string, (a ++ b)%string = (a ++ c)%string -> b = c.
Proof. induction a; cbn; intros b c H; auto. inversion H. auto. Qed.
Lemma copy_ref_inj : forall dec seq i j, copy_ref dec seq i = copy_ref dec seq j -> i = j.
Proof.
  intros [] seq i j H; unfold copy_ref, copy_id, deconflict in H; auto.
  apply append_inj in H. apply append_inj in H. apply append_inj in H. auto.
Qed.

Lemma nodup_map_inj : forall A B (f : A -> B), (forall x y, f x = f y -> x = y) -> forall l, NoDup l -> NoDup (map f l).
Proof.
  intros A B f I l N. induction N as [|x l H N IH]; cbn; constructor; auto. rewrite in_map_iff. intros (y & E & Hy).
  apply I in E. subst. auto.
Qed.

(** ** The copies in the head *)

Lemma copy_styles_ok : forall x l l', copy_styles x l = GOk l' ->
  l' = map (renamed_style (copy_ref (x_dec x) (x_seq x))) (filter (fun s => mem (fst s) (x_styles x)) l) /\
  forall s j, In s l -> In (fst s) (x_styles x) -> In j (opt_list (s_refs (snd s))) -> In j (x_styles x).
Proof.
  intros x. induction l as [|s l IH]; intros l' H; cbn [copy_styles] in H.
  - inversion H. split; auto. intros s j [].
  - cbn [filter]. destruct (mem (fst s) (x_styles x)) eqn:M.
    + destruct (map_style x (s_refs (snd s))) as [r|] eqn:E; [|discriminate]. cbn [gbind] in H.
      destruct (copy_styles x l) as [r'|] eqn:E2; [|discriminate]. cbn [gbind] in H. inversion H; subst.
      destruct (map_style_ok _ _ _ E) as [-> Ms]. destruct (IH _ eq_refl) as [-> I2]. split; [reflexivity|].
      intros s' j [<-|Hs] Hx Hj; [|eauto]. destruct (s_refs (snd s)) as [q|]; [|destruct Hj]. apply mem_iff. eauto.
    + destruct (IH _ H) as [-> I2]. split; auto. intros s' j [<-|Hs] Hx Hj; [|eauto].
      apply mem_iff in Hx. congruence.
Qed.

Lemma copy_regions_ok : forall x l l', copy_regions x l = GOk l' ->
  l' = map (renamed_region (copy_ref (x_dec x) (x_seq x))) (filter (fun s => mem (fst s) (x_regions x)) l) /\
  forall s j, In s l -> In (fst s) (x_regions x) -> In j (opt_list (r_refs (snd s))) -> In j (x_styles x).
Proof.
  intros x. induction l as [|s l IH]; intros l' H; cbn [copy_regions] in H.
  - inversion H. split; auto. intros s j [].
  - cbn [filter]. destruct (mem (fst s) (x_regions x)) eqn:M.
    + destruct (map_style x (r_refs (snd s))) as [r|] eqn:E; [|discriminate]. cbn [gbind] in H.
      destruct (copy_regions x l) as [r'|] eqn:E2; [|discriminate]. cbn [gbind] in H. inversion H; subst.
      destruct (map_style_ok _ _ _ E) as [-> Ms]. destruct (IH _ eq_refl) as [-> I2]. split; [reflexivity|].
      intros s' j [<-|Hs] Hx Hj; [|eauto]. destruct (r_refs (snd s)) as [q|]; [|destruct Hj]. apply mem_iff. eauto.
    + destruct (IH _ H) as [-> I2]. split; auto. intros s' j [<-|Hs] Hx Hj; [|eauto].
      apply mem_iff in Hx. congruence.
Qed.

Lemma drop_map : forall A B (x : sctx) (f : string * A -> string * B) orph l,
  (forall s, fst (f s) = copy_ref (x_dec x) (x_seq x) (fst s)) ->
  drop_orphans x orph (map f l) = map f (filter (fun s => negb (mem (fst s) orph)) l).
Proof.
  intros A B x f orph l Hf. unfold drop_orphans. induction l as [|s l IH]; cbn; auto. rewrite Hf.
  assert (E : mem (copy_ref (x_dec x) (x_seq x) (fst s)) (map (copy_ref (x_dec x) (x_seq x)) orph) = mem (fst s) orph).
  { apply eq_iff_eq_true. rewrite !mem_iff, in_map_iff. split.
    - intros (y & E & Hy). apply copy_ref_inj in E. congruence.
    - intros H. eauto. }
  rewrite E. destruct (mem (fst s) orph); cbn; rewrite IH; auto.
Qed.

Lemma filter_both : forall A (f g : A -> bool) l, filter f (filter g l) = filter (fun x => g x && f x)%bool l.
Proof. induction l as [|x l IH]; cbn; auto. destruct (g x); cbn; [destruct (f x)|]; rewrite ?IH; auto. Qed.
