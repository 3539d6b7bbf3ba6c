(** C31: when a segment of a validated document is made. *)

From Coq Require Import List ZArith String Bool Lia Relations.
From Verif Require Import TimingModel TimingSpec TimingProofs PropsTiming TimeModel TimeSpec TimeProofs IdModel TimelineModel PropsTimeline StyleModel StyleProofs PropsStyle StyleTree PropsScope
  SegmentModel SegmentSpec SegmentProofs PropsSegment SegmentHeadProofs PropsSegmentHead.
Import ListNotations.
Open Scope Z_scope.

(** ** Elements of the tree and elements of the style pass *)

(** [chain v up w]: [w] is [v] or below it, [up] are the elements above it,
    nearest first. *)
Inductive chain : vnode -> list vnode -> vnode -> Prop :=
| ch_here v : chain v [] v
| ch_below k i r st b e cb ce vs inh kids v up w : In v kids -> chain v up w ->
    chain (VNode k i r st b e cb ce vs inh kids) (up ++ [VNode k i r st b e cb ce vs inh kids])%list w.

Definition is_node_v (v : vnode) : Prop := match v with VNode _ _ _ _ _ _ _ _ _ _ _ => True | _ => False end.

Definition like (v : vnode) (i : item) : Prop :=
  match v with
  | VNode k _ r st _ _ _ _ vs inh _ =>
      i_kind i = k /\ i_style i = st /\ i_region i = r /\ validated_styles (i_el i) = vs /\ e_region (i_el i) = inh
  | _ => False
  end.

Lemma kids_like : forall kids, Forall (fun v => forall t o, styling (plain v) = [t] -> vstyles v = [ostyles o] -> mirrors t o ->
    forall up w, is_node_v w -> chain v up w -> exists anc i, within t o anc i /\ Forall2 like (w :: up) (i :: anc)) kids ->
  forall os, Forall2 mirrors (flat_map styling (map plain kids)) os -> flat_map vstyles kids = map ostyles os ->
  forall v up w, In v kids -> is_node_v w -> chain v up w ->
  exists n t o anc i, nth_error (flat_map styling (map plain kids)) n = Some t /\ nth_error os n = Some o /\
    within t o anc i /\ Forall2 like (w :: up) (i :: anc).
Proof.
  induction kids as [|u kids IH]; intros F os M E v up w Hv Nw C; [destruct Hv|].
  inversion F as [|? ? Fu Fk]; subst. cbn [flat_map map] in M, E. destruct u as [s| |k i r st b e cb ce vs inh ks].
  - destruct Hv as [<-|Hv]; [inversion C; subst; destruct Nw|]. apply (IH Fk os M E v up w Hv Nw C).
  - destruct Hv as [<-|Hv]; [inversion C; subst; destruct Nw|]. apply (IH Fk os M E v up w Hv Nw C).
  - destruct (styling_vstyles (VNode k i r st b e cb ce vs inh ks)) as [Es Ev]. rewrite Es in M. rewrite Ev in E. cbn [app] in M, E.
    inversion M as [|t o ? os' Mo M']; subst. cbn [map] in E. inversion E as [[Eo Ek]]. destruct Hv as [<-|Hv].
    + destruct (Fu _ o Es) with (3 := Nw) (4 := C) as (anc & it & W & L); [rewrite Ev; f_equal; auto|auto|].
      exists 0%nat, (SNode k st r (flat_map styling (map plain ks))), o, anc, it. cbn [flat_map map]. rewrite Es. cbn. auto.
    + destruct (IH Fk os' M' Ek v up w Hv Nw C) as (n & t & o' & anc & it & A & B & W & L).
      exists (S n), t, o', anc, it. cbn [flat_map map]. rewrite Es. cbn. auto.
Qed.

Lemma tree_like : forall v t o, styling (plain v) = [t] -> vstyles v = [ostyles o] -> mirrors t o ->
  forall up w, is_node_v w -> chain v up w -> exists anc i, within t o anc i /\ Forall2 like (w :: up) (i :: anc).
Proof.
  induction v as [s| |k i r st b e cb ce vs inh kids IH] using vnode_ind'; intros t o Et Eo M up w Nw C; try discriminate.
  cbn in Et, Eo. inversion Et; subst t. inversion M as [k' s' r' kids' el os M' E1 E2]; subst. cbn [ostyles] in Eo. inversion Eo as [[Ev Ei Ek]].
  assert (L0 : like (VNode k i r st b e cb ce vs inh kids) (mkI k st r el)) by (cbn; auto).
  inversion C as [|? ? ? ? ? ? ? ? ? ? ? v up' ? Hv C']; subst.
  - exists [], (mkI k st r el). split; [constructor|]. constructor; auto.
  - destruct (kids_like kids IH os M' Ek _ _ _ Hv Nw C') as (n & t & o' & anc & it & A & B & W & L).
    exists (anc ++ [mkI k st r el])%list, it. split; [econstructor; eauto|].
    inversion L as [|? ? ? ? L1 L2]; subst. constructor; auto. apply Forall2_app; auto.
Qed.

(** ** The shape of the style pass' input *)

Lemma kids_shaped : forall k kids, k <> Body -> Forall (fun v => fits k v = true) kids ->
  Forall (fun v => SegmentSpec.shaped v -> forallb PropsScope.shaped (styling (plain v)) = true) kids ->
  Forall SegmentSpec.shaped kids ->
  match k with Body | Div => forallb is_div_p (flat_map styling (map plain kids)) | P | Span => forallb is_span (flat_map styling (map plain kids)) end = true /\
  forallb PropsScope.shaped (flat_map styling (map plain kids)) = true.
Proof.
  intros k kids NB. induction kids as [|v kids IH]; intros F S Sh; [destruct k; auto|].
  inversion F as [|? ? Fv Fk]; subst. inversion S as [|? ? Sv Sk]; subst. inversion Sh as [|? ? Hv Hk]; subst.
  destruct (IH Fk Sk Hk) as [A B]. specialize (Sv Hv). cbn [map flat_map]. split; [|rewrite forallb_app, B, Sv; auto].
  destruct k; try congruence; rewrite forallb_app, A; destruct v as [| |[]]; cbn in Fv |- *; auto; discriminate.
Qed.

Lemma sel_shaped : forall v, SegmentSpec.shaped v -> match v with VNode Body _ _ _ _ _ _ _ _ _ _ => False | _ => True end ->
  forallb PropsScope.shaped (styling (plain v)) = true.
Proof.
  induction v as [s| |k i r st b e cb ce vs inh kids IH] using vnode_ind'; intros Sh NB; auto.
  inversion Sh as [| |? ? ? ? ? ? ? ? ? ? ? Fi Sk]; subst. cbn [plain styling forallb PropsScope.shaped].
  destruct (kids_shaped k kids) as [A B]; auto.
  - destruct k; congruence.
  - rewrite Forall_forall in *. intros v Hv Hs. apply IH; auto. specialize (Fi _ Hv). destruct v as [| |[]]; auto; destruct k; discriminate.
  - rewrite A, B. auto.
Qed.

Lemma body_shaped : forall v, Forall (fun w => fits Body w = true) (vb_kids v) -> Forall SegmentSpec.shaped (vb_kids v) ->
  PropsScope.shaped (styling_body (plain_body v)) = true.
Proof.
  intros v F S. unfold styling_body. cbn [PropsScope.shaped plain_body bd_kids].
  apply andb_true_iff. induction (vb_kids v) as [|w l IH]; [auto|]. inversion F; subst. inversion S; subst.
  destruct IH as [A B]; auto. cbn [map flat_map]. rewrite !forallb_app, A, B.
  rewrite sel_shaped; auto; destruct w as [| |[]]; cbn in *; auto; discriminate.
Qed.

(** ** The one region on a path *)

Lemma bare_within : forall t o anc i, bare t = true -> within t o anc i -> forall j, In j (i :: anc) -> names j = None.
Proof.
  intros t o anc i B W. induction W as [k s r e kids os|k s r e kids os n kid o anc i N N' W IH]; intros j Hj.
  - destruct Hj as [<-|[]]. cbn in B. unfold names, here in *. cbn. destruct (takes_region k); auto. destruct r; [discriminate|auto].
  - cbn in B. destruct (here k r) eqn:E; [discriminate|]. rewrite forallb_forall in B.
    assert (Bk : bare kid = true) by (apply B; eapply nth_error_In; eauto).
    destruct Hj as [<-|Hj]; [apply IH; cbn; auto|]. apply in_app_iff in Hj as [Hj|[<-|[]]]; [apply IH; cbn; auto|]. exact E.
Qed.

Lemma nearest_none : forall A (l : list (option A)), (forall x, In x l -> x = None) -> nearest l = None.
Proof. induction l as [|[a|] l IH]; intros H; cbn; auto. - specialize (H (Some a) (or_introl eq_refl)). discriminate. - apply IH. intros; apply H; cbn; auto. Qed.

Lemma flat_within : forall t o anc i, flat t = true -> within t o anc i -> forall j q, In j (i :: anc) -> names j = Some q -> named (i :: anc) = Some q.
Proof.
  intros t o anc i F W. induction W as [k s r e kids os|k s r e kids os n kid o anc i N N' W IH]; intros j q Hj Nm.
  - destruct Hj as [<-|[]]. unfold named. cbn [map]. rewrite Nm. auto.
  - cbn in F. unfold named. rewrite app_comm_cons, map_app, nearest_app. destruct (here k r) eqn:E.
    + rewrite forallb_forall in F. assert (Bk : bare kid = true) by (apply F; eapply nth_error_In; eauto).
      rewrite nearest_none by (intros x Hx; apply in_map_iff in Hx as (y & <- & Hy); eapply bare_within; eauto).
      assert (j = mkI k s r e) as ->.
      { rewrite app_comm_cons in Hj. apply in_app_iff in Hj as [Hj|[Hj|[]]]; auto. exfalso.
        rewrite (bare_within _ _ _ _ Bk W j Hj) in Nm. discriminate. }
      cbn. rewrite Nm. auto.
    + rewrite forallb_forall in F. assert (Bk : flat kid = true) by (apply F; eapply nth_error_In; eauto).
      rewrite app_comm_cons in Hj. apply in_app_iff in Hj as [Hj|[<-|[]]].
      * specialize (IH Bk j q Hj Nm). unfold named in IH. rewrite IH. auto.
      * exfalso. unfold names, here in *. cbn in *. congruence.
Qed.

(** ** Paragraphs and spans inside the window are looked at *)

Lemma entries_part : forall v w, part v w -> match w with
  | VNode k _ _ _ _ _ cb ce vs inh _ => mixed k = true -> In (mkEntry cb ce vs inh) (entries v)
  | _ => True end.
Proof.
  intros v w Pt. induction Pt as [v|k i r st b e cb ce vs inh kids v w Hv Pt IH].
  - destruct v as [| |k i r st b e cb ce vs inh kids]; auto. intros M. cbn [entries]. apply in_app_iff. right. destruct k; try discriminate; cbn; auto.
  - destruct w as [| |k' ? ? ? ? ? cb' ce' vs' inh' ?]; auto. intros M. cbn [entries]. apply in_app_iff. left. apply in_flat_map. eauto.
Qed.

Lemma touched_in : forall vs a sb se, In a (flat_map entries vs) -> is_in_segment (en_begin a) (en_end a) sb se = true ->
  In a (touched vs sb se).
Proof.
  intros vs a sb se H I. unfold touched. set (l := flat_map entries vs) in *.
  apply In_nth_error in H as (n & Hn). apply in_flat_map. exists n. split; [|rewrite Hn; cbn; auto].
  apply C48_lookup. exists (en_begin a), (en_end a). split; [rewrite (map_nth_error (fun a => (en_begin a, en_end a)) _ _ Hn); auto|].
  unfold is_in_segment in I. split.
  - destruct sb as [s|], (en_end a) as [x|], se as [z|]; auto;
      repeat match goal with H : context [?a <=? ?b] |- _ => destruct (Z.leb_spec a b); cbn in * end; try discriminate; lia.
  - intros x Ex (T1 & T2 & T3). rewrite Ex in I. destruct sb as [s|]; [|auto].
    destruct (Z.leb_spec x s); [discriminate|]. try lia.
Qed.

Lemma touched_from : forall vs a sb se, In a (touched vs sb se) -> In a (flat_map entries vs).
Proof.
  intros vs a sb se H. unfold touched in H. apply in_flat_map in H as (n & _ & Hn).
  destruct (nth_error (flat_map entries vs) n) eqn:E; [|destruct Hn]. destruct Hn as [<-|[]]. eapply nth_error_In; eauto.
Qed.

Lemma entries_back : forall v a, In a (entries v) -> exists up w, chain v up w /\ is_node_v w /\ (exists k i r st b e cb ce vs inh kids,
  w = VNode k i r st b e cb ce vs inh kids /\ a = mkEntry cb ce vs inh).
Proof.
  induction v as [s| |k i r st b e cb ce vs inh kids IH] using vnode_ind'; intros a H; try destruct H.
  cbn [entries] in H. apply in_app_iff in H as [H|H].
  - apply in_flat_map in H as (u & Hu & Ha). rewrite Forall_forall in IH. destruct (IH _ Hu _ Ha) as (up & w & C & Nw & R).
    exists (up ++ [VNode k i r st b e cb ce vs inh kids])%list, w. split; [econstructor; eauto|]. auto.
  - exists [], (VNode k i r st b e cb ce vs inh kids). split; [constructor|]. split; [exact I|].
    destruct k; try destruct H as [H|[]]; try (destruct H; fail); subst; eauto 15.
Qed.

Lemma chain_part : forall v up w, chain v up w -> part v w.
Proof. induction 1; econstructor; eauto. Qed.
Lemma part_chain : forall v w, part v w -> exists up, chain v up w.
Proof. induction 1 as [v|k i r st b e cb ce vs inh kids v w Hv _ (up & C)]; [exists []; constructor|]. eexists. econstructor; eauto. Qed.
Lemma chain_trans : forall v up w, chain v up w -> forall up' u, chain w up' u -> exists up2, chain v up2 u /\
  (up' = [] /\ u = w \/ In w up2).
Proof.
  induction 1 as [v|k i r st b e cb ce vs inh kids v up w Hv C IH]; intros up' u C'.
  - exists up'. split; auto. inversion C' as [|? ? ? ? ? ? ? ? ? ? ? v0 up0 ? Hv0 C0]; subst; auto. right. apply in_app_iff. right. cbn. auto.
  - destruct (IH _ _ C') as (up2 & C2 & D). eexists. split; [econstructor; eauto|]. destruct D as [D|D]; auto. right. apply in_app_iff. auto.
Qed.

(** ** What a paragraph or span carries *)

Definition inh_of (v : vnode) : option string := match v with VNode _ _ _ _ _ _ _ _ _ inh _ => inh | _ => None end.

Lemma Forall2_in : forall A B (R : A -> B -> Prop) l l' x, Forall2 R l l' -> In x l -> exists y, In y l' /\ R x y.
Proof. induction 1 as [|a b l l' Hab H IH]; intros Hx; [destruct Hx|]. destruct Hx as [->|Hx]; [exists b; cbn; auto|]. destruct (IH Hx) as (y & Hy & R'). exists y. cbn; auto. Qed.

Lemma carried : forall d v, style_checked d v ->
  Forall (fun w => fits Body w = true) (vb_kids v) -> Forall SegmentSpec.shaped (vb_kids v) ->
  forall kid up w, In kid (vb_kids v) -> is_node_v w -> chain kid up w ->
  (forall u j, In u (w :: up) -> In j (own_styles u) -> In j (styles_of w)) /\
  (forall j, inh_of w = Some j -> exists g, In (j, g) (els (t_layout d)) /\ forall x, In x (opt_list (r_refs g)) -> In x (styles_of w)) /\
  (flat (styling_body (plain_body v)) = true -> forall u j, In u (w :: up) -> In j (own_regions u) -> inh_of w = Some j).
Proof.
  intros d v Ck Fi Sh kid up w Hk Nw C. destruct (checked_fine _ _ Ck) as (_ & _ & Fine). cbv zeta in Fine.
  destruct Ck as (N & z & regions & o & H & E). set (tbl := doc_table d (plain_body v)) in *.
  assert (Sb := body_shaped _ Fi Sh). assert (M := validate_mirrors _ _ _ _ _ H).
  assert (X : exists anc i, within (styling_body (plain_body v)) o anc i /\ like w i /\ forall u, In u up -> exists iu, In iu anc /\ like u iu).
  { unfold styling_body in M |- *. cbn [plain_body bd_kids bd_style] in M |- *. unfold vstyles_body in E.
    inversion M as [k' s' r' kids' el os M' E1 E2]; subst. cbn [ostyles] in E. inversion E as [[Ev Er Ek]].
    destruct (kids_like (vb_kids v)) with (2 := M') (3 := Ek) (4 := Hk) (5 := Nw) (6 := C) as (n & t & o' & anc & i & A & B & W & L).
    { apply Forall_forall. intros u _. apply tree_like. }
    inversion L as [|? ? ? ? L1 L2]; subst. eexists _, i. split; [econstructor; eauto|]. split; [auto|].
    intros u Hu. destruct (Forall2_in _ _ _ _ _ _ L2 Hu) as (iu & Hiu & Lu). exists iu. split; auto. apply in_app_iff. auto. }
  destruct X as (anc & i & W & Lw & Lup).
  assert (Lv : validated_styles (i_el i) = styles_of w /\ e_region (i_el i) = inh_of w).
  { destruct w; try contradiction. destruct Lw as (_ & _ & _ & A & B). auto. }
  destruct Lv as [Lv Li].
  assert (Ow : forall u iu, like u iu -> own_styles u = refs (i_style iu) /\ forall j, In j (own_regions u) -> names iu = Some j).
  { intros [| |k1 i1 r1 st1 b1 e1 cb1 ce1 vs1 inh1 kids1] iu L; try contradiction. destruct L as (K & S & R & _). split.
    - cbn. rewrite S. symmetry. apply refs_opt.
    - intros j Hj. cbn in Hj. destruct iu as [ik is ir ie]. cbn in K, S, R. subst. apply names_own. auto. }
  split; [|split].
  - intros u j [<-|Hu] Hj.
    + rewrite Forall_forall in Fine. assert (F := Fine _ Hk w (chain_part _ _ _ C)). apply (fine_own _ _ _ F Hj).
    + destruct (Lup _ Hu) as (iu & Hiu & Lu). destruct (Ow _ _ Lu) as [Os _]. rewrite Os in Hj.
      rewrite <- Lv. eapply C46_ancestors; eauto.
      destruct (validate_linked _ _ _ _ _ H) as [Lk _]. specialize (Lk _ _ W).
      assert (Lq : exists st, settled tbl st /\ fst (collect_refs tbl st (refs (i_style iu))) = SOk (e_referenced (i_el iu))).
      { assert (G : forall l, linked tbl z regions l -> In iu l -> exists st, settled tbl st /\ fst (collect_refs tbl st (refs (i_style iu))) = SOk (e_referenced (i_el iu))).
        { induction 1 as [|q up' Lq IHq ? Q]; intros []; subst; auto. }
        apply (G _ Lk). cbn. auto. }
      destruct Lq as (st & Ss & Cr). apply (proj2 (collect_closed _ _ _ _ Ss Cr)). auto.
  - intros j Hj. rewrite <- Li in Hj. destruct (validate_linked _ _ _ _ _ H) as [Lk RL]. assert (Lw' := Lk _ _ W).
    inversion Lw' as [|? ? _ Rd _ _ _ _]; subst. specialize (Rd _ Hj). destruct (dict_get regions j) as [g|] eqn:Eg; [|congruence].
    destruct (validate_ok _ _ _ _ _ H) as [_ RO]. destruct (RO _ _ Eg) as (r & Hr & Rr). exists r. apply table_region in Hr. split; auto.
    intros x Hx. rewrite <- Lv. rewrite <- refs_opt in Hx. specialize (Rr _ Hx). destruct (RL _ _ Eg) as (r' & _ & (_ & _ & _ & Vr & _)). rewrite Vr in Rr.
    destruct (within_held _ _ _ _ W) as (l & Hl). destruct (C46_applicable _ _ _ _ _ _ _ H Sb Hl) as (_ & _ & I3 & _). specialize (I3 x).
    unfold validated_styles. rewrite !in_app_iff. destruct (in_dec string_dec x (e_referenced (i_el i))); auto.
    destruct (in_dec string_dec x (e_inherited (i_el i))); auto. right. right. apply I3. split; auto. exists g. split; auto.
    unfold region_of. rewrite Hj. auto.
  - intros Fl u j Hu Hj. rewrite <- Li. rewrite (C45_nearest _ _ _ _ _ _ _ H Fl W).
    assert (exists iu, In iu (i :: anc) /\ like u iu) as (iu & Hiu & Lu).
    { destruct Hu as [<-|Hu]; [exists i; cbn; auto|]. destruct (Lup _ Hu) as (iu & A & B). exists iu. cbn; auto. }
    apply (flat_within _ _ _ _ Fl W iu); auto. apply (proj2 (Ow _ _ Lu)); auto.
Qed.

Lemma busy_part : forall sb se v, busy sb se v -> forall w, part v w -> busy sb se w.
Proof.
  induction v as [s| |k i r st b e cb ce vs inh kids IH] using vnode_ind'; intros B w Pt; inversion Pt; subst; auto.
  inversion B; subst. rewrite Forall_forall in *. eauto.
Qed.

Lemma all_resolve : forall sb se styles regions v, 
  (forall w, part v w -> in_play sb se w = true -> (forall j, In j (own_styles w) -> In j styles) /\ (forall j, In j (own_regions w) -> In j regions)) ->
  resolves sb se styles regions v.
Proof.
  intros sb se styles regions v. induction v as [s| |k i r st b e cb ce vs inh kids IH] using vnode_ind'; intros H; [constructor|constructor|].
  destruct (is_in_segment cb ce sb se) eqn:E; [|apply rs_out; auto].
  destruct (H _ (part_here _) E) as [H1 H2]. cbn in H1, H2. apply rs_in.
  - intros l j -> Hj. apply H1. auto.
  - intros j -> [->| ->]; apply H2; cbn; auto.
  - rewrite Forall_forall in *. intros u Hu. apply IH; auto. intros w Pw. apply H. econstructor; eauto.
Qed.

(** A head with styling and layout, body and window overlapping, no region named
    inside another, a paragraph in the window for every div in the window, times
    that can be written: then a segment is made. *)
Theorem C31_made : forall d dec s e v stl lay avail cb ce,
  t_body d = Some v -> t_styling d = Some stl -> t_layout d = Some lay -> style_checked d v ->
  validate avail (Some (timing_body (plain_body v))) = TOk (cb, ce, vtimes_body v) ->
  0 <= at_avail avail -> nn_body (timing_body (plain_body v)) ->
  Forall (fun w => fits Body w = true) (vb_kids v) -> Forall SegmentSpec.shaped (vb_kids v) ->
  flat (styling_body (plain_body v)) = true -> Forall (busy (Some s) (Some e)) (vb_kids v) ->
  Forall times_ok (vb_kids v) -> 0 <= s < h100 -> 1000 <= e < h100 ->
  is_in_segment (vb_cb v) (vb_ce v) (Some s) (Some e) = true ->
  exists seg, segment d dec (Some s) (Some e) = GOk seg.
Proof.
  intros d dec s e v stl lay avail cb ce Bv St La Ck V A0 NN Fi Sh Fl Bz TO Hs He Is.
  assert (Cd := carried _ _ Ck Fi Sh). destruct (checked_fine _ _ Ck) as (Cb & Ob & Fine). cbv zeta in Cb, Ob, Fine.
  set (tbl := doc_table d (plain_body v)) in *. set (x := segment_ctx d v dec (Some s) (Some e)).
  assert (Nd := proj1 Ck). fold tbl in Nd.
  assert (Sty : forall j, get_style tbl j <> None -> In j (map fst (els (t_styling d)))).
  { intros j G. unfold get_style in G. destruct (dict_get tbl j) as [[st| |]|] eqn:E; try congruence. apply dict_get_pair in E.
    apply table_style in E. apply in_map_iff. exists (j, st). auto. }
  (* what the entries looked at carry *)
  assert (Seen : forall kid up w, In kid (vb_kids v) -> chain kid up w -> in_play (Some s) (Some e) w = true ->
            match w with VNode k _ _ _ _ _ _ _ _ _ _ => mixed k = true | _ => False end ->
            (forall j, In j (styles_of w) -> In j (needed_styles v (Some s) (Some e))) /\
            (forall j, inh_of w = Some j -> In j (needed_regions v (Some s) (Some e)))).
  { intros kid up w Hk C Pl Mx. destruct w as [| |k i r st b e0 cb0 ce0 vs inh kids]; try contradiction.
    assert (He' := entries_part _ _ (chain_part _ _ _ C)). cbn in He'. specialize (He' Mx).
    assert (T : In (mkEntry cb0 ce0 vs inh) (touched (vb_kids v) (Some s) (Some e))).
    { apply touched_in; [apply in_flat_map; eauto|exact Pl]. }
    split.
    - intros j Hj. unfold needed_styles. apply in_app_iff. right. apply in_flat_map. eexists. split; [exact T|exact Hj].
    - intros j Hj. unfold needed_regions. apply in_flat_map. eexists. split; [exact T|]. cbn in *. rewrite Hj. cbn. auto. }
  assert (Clo : forall kid up w, In kid (vb_kids v) -> chain kid up w -> forall j, In j (styles_of w) ->
            In j (map fst (els (t_styling d))) /\ forall q, edge tbl j q -> In q (styles_of w)).
  { intros kid up w Hk C j Hj. rewrite Forall_forall in Fine. assert (F := Fine _ Hk w (chain_part _ _ _ C)).
    destruct w as [| |k i r st b e0 cb0 ce0 vs inh kids]; try (destruct Hj; fail). destruct F as [F _]. destruct (F _ Hj) as [G Ed]. auto. }
  assert (Nst : forall j, In j (needed_styles v (Some s) (Some e)) ->
            In j (map fst (els (t_styling d))) /\ forall q, edge tbl j q -> In q (needed_styles v (Some s) (Some e))).
  { intros j Hj. unfold needed_styles in Hj. apply in_app_iff in Hj as [Hj|Hj].
    - destruct (Cb _ Hj) as [G Ed]. split; auto. intros q Hq. unfold needed_styles. apply in_app_iff. auto.
    - apply in_flat_map in Hj as (a & Ha & Hj). assert (Ha' := touched_from _ _ _ _ Ha). apply in_flat_map in Ha' as (kid & Hk & Ha').
      destruct (entries_back _ _ Ha') as (up & w & C & _ & k & i & r & st & b & e0 & cb0 & ce0 & vs & inh & kids & -> & ->).
      destruct (Clo _ _ _ Hk C j Hj) as [A B]. split; auto. intros q Hq. unfold needed_styles. apply in_app_iff. right.
      apply in_flat_map. eexists. split; [exact Ha|]. apply (B _ Hq). }
  assert (Edge : forall j st q, In (j, st) stl -> In q (opt_list (s_refs st)) -> edge tbl j q).
  { intros j st q Hj Hq. unfold edge. assert (G : dict_get tbl j = Some (KStyle st)).
    { apply dict_get_nodup; auto. apply table_style. rewrite St. auto. }
    unfold get_style. rewrite G. exists st. destruct (s_refs st) as [l|]; [|destruct Hq]. exists l. auto. }
  assert (Div_ok : forall kid up w, In kid (vb_kids v) -> chain kid up w -> in_play (Some s) (Some e) w = true ->
            (forall j, In j (own_styles w) -> In j (needed_styles v (Some s) (Some e)) /\ In j (map fst (els (t_styling d)))) /\
            (forall j, In j (own_regions w) -> In j (needed_regions v (Some s) (Some e)) /\ In j (map fst (els (t_layout d))))).
  { intros kid up w Hk C Pl.
    assert (Nw : is_node_v w) by (destruct w; try discriminate Pl; exact I).
    assert (P0 : exists up2 u, chain kid up2 u /\ In w (u :: up2) /\ is_node_v u /\ in_play (Some s) (Some e) u = true /\
              match u with VNode k _ _ _ _ _ _ _ _ _ _ => mixed k = true | _ => False end).
    { destruct w as [| |k i r st b e0 cb0 ce0 vs inh kids]; try contradiction.
      assert (Hb : busy (Some s) (Some e) (VNode k i r st b e0 cb0 ce0 vs inh kids)).
      { rewrite Forall_forall in Bz. eapply busy_part; [apply Bz; eauto|eapply chain_part; eauto]. }
      assert (K : k = Div \/ mixed k = true).
      { destruct k; auto. exfalso. clear -C Hk Fi Sh.
        assert (G : forall v up w, chain v up w -> SegmentSpec.shaped v -> match v with VNode Body _ _ _ _ _ _ _ _ _ _ => False | _ => True end ->
                      match w with VNode Body _ _ _ _ _ _ _ _ _ _ => False | _ => True end).
        { induction 1 as [v9|k1 i1 r1 st1 b1 e1 cb1 ce1 vs1 inh1 kids1 v1 up1 w1 Hv1 _ IH]; auto. intros Sv NB.
          inversion Sv as [| |? ? ? ? ? ? ? ? ? ? ? F1 S1]; subst. rewrite Forall_forall in F1, S1. apply IH; auto.
          specialize (F1 _ Hv1). destruct v1 as [| |[]]; auto. destruct k1; discriminate. }
        rewrite Forall_forall in Fi, Sh. specialize (Fi _ Hk). specialize (Sh _ Hk). eapply (G _ _ _ C); auto.
        destruct kid as [| |[]]; auto; discriminate. }
      destruct K as [->|K].
      - inversion Hb as [| |? ? ? ? ? ? ? ? ? ? ? D _]; subst. destruct (D eq_refl Pl) as (u & Pu & Par & Plu).
        destruct (part_chain _ _ Pu) as (up' & Cu). destruct (chain_trans _ _ _ C _ _ Cu) as (up2 & C2 & Q).
        exists up2, u. split; auto. split; [destruct Q as [[_ ->]|Q]; cbn; auto|].
        destruct u as [| |[]]; try discriminate; cbn; auto.
      - eexists _, _. split; [exact C|]. cbn. auto. }
    destruct P0 as (up2 & u & C2 & Hin & Nu & Plu & Mx). destruct (Cd _ _ _ Hk Nu C2) as (Q1 & Q2 & Q3).
    destruct (Seen _ _ _ Hk C2 Plu Mx) as [S1 S2]. split.
    - intros j Hj. assert (Hu := Q1 _ _ Hin Hj). split; auto. apply (Clo _ _ _ Hk C2 j Hu).
    - intros j Hj. assert (Hu := Q3 Fl _ _ Hin Hj). split; auto. destruct (Q2 _ Hu) as (g & Hg & _). apply in_map_iff. exists (j, g). auto. }
  eapply C31_succeeds with (stl := stl) (lay := lay); eauto; fold x.
  - intros l j El Hj. apply x_styles_in. assert (Hv : In j (vb_styles v)) by (apply Ob; rewrite El; auto).
    split; [apply Sty; apply (Cb _ Hv)|]. unfold needed_styles. apply in_app_iff. auto.
  - apply Forall_forall. intros kid Hk. apply all_resolve. intros w Pw Pl. destruct (part_chain _ _ Pw) as (up & C).
    destruct (Div_ok _ _ _ Hk C Pl) as [D1 D2]. split; intros j Hj.
    + apply x_styles_in. destruct (D1 _ Hj). auto.
    + apply x_regions_in. destruct (D2 _ Hj). auto.
  - intros i st rs j Hi Hx Er Hj. apply x_styles_in in Hx as [_ Hx]. destruct (Nst _ Hx) as [_ Ed].
    assert (Hq : In j (needed_styles v (Some s) (Some e))) by (apply Ed; eapply Edge; eauto; rewrite Er; auto).
    apply x_styles_in. split; auto. apply Nst. auto.
  - intros i r rs j Hi Hx Er Hj. apply x_regions_in in Hx as [_ Hx]. unfold needed_regions in Hx.
    apply in_flat_map in Hx as (a & Ha & Hx). assert (Ha' := touched_from _ _ _ _ Ha). apply in_flat_map in Ha' as (kid & Hk & Ha').
    destruct (entries_back _ _ Ha') as (up & w & C & Nw & k & i1 & r1 & st1 & b1 & e1 & cb1 & ce1 & vs1 & inh1 & kids1 & -> & ->).
    cbn in Hx. destruct inh1 as [q|]; [|destruct Hx]. destruct Hx as [<-|[]].
    destruct (Cd _ _ _ Hk Nw C) as (_ & Q2 & _). destruct (Q2 q eq_refl) as (g & Hg & Rg).
    assert (g = r) as ->.
    { assert (G1 : dict_get tbl q = Some (KRegion g)) by (apply dict_get_nodup; auto; apply table_region; auto).
      assert (G2 : dict_get tbl q = Some (KRegion r)) by (apply dict_get_nodup; auto; apply table_region; rewrite La; auto).
      congruence. }
    assert (Hs' := Rg j ltac:(rewrite Er; auto)). apply x_styles_in. split; [apply (Clo _ _ _ Hk C j Hs')|].
    unfold needed_styles. apply in_app_iff. right. apply in_flat_map. eexists. split; [exact Ha|exact Hs'].
Qed.

(** No empty element is in a segment: every div has a div or p in it, every p and
    span text that is not blank, a line break or a span. *)
Theorem C31_no_empty : forall d dec sb se seg v,
  segment d dec sb se = GOk seg -> t_body d = Some v ->
  Forall (fun w => fits Body w = true) (vb_kids v) -> Forall SegmentSpec.shaped (vb_kids v) ->
  exists bd, t_body seg = Some bd /\ Forall filled (bd_kids bd).
Proof.
  intros d dec sb se seg v S Bv Fi Sh.
  destruct (segment_inv _ _ _ _ _ S) as (v' & styles & regions & bd0 & orph & stl & lay & bd & Q). cbv zeta in Q.
  destruct Q as (Bv' & _ & _ & _ & _ & Cb & _ & _ & _ & _ & Hb & _ & Bk & _). rewrite Bv in Bv'. inversion Bv'; subst v'.
  exists bd. split; auto. rewrite Bk. unfold copy_body in Cb. destruct (is_in_segment _ _ _ _); [|discriminate].
  destruct (map_style _ (vb_style v)) as [st'|]; [|discriminate]. cbn [gbind] in Cb.
  destruct (copy_nodes _ (vb_kids v) _) as [[ks o1]|] eqn:Ck; [|discriminate]. cbn [gbind] in Cb. inversion Cb; subst. cbn [bd_kids].
  apply copy_nodes_kept in Ck. rewrite Forall_forall in *. intros n Hn. destruct (kept_in _ _ _ Ck _ Hn) as (w & o & o' & Hw & C).
  eapply copy_filled; eauto. specialize (Fi _ Hw). destruct w as [| |[]]; auto; discriminate.
Qed.

(** ** Cases *)

Local Open Scope string_scope.

(** The document of C31 meets the hypotheses. *)
Example C31_doc1_made : style_checked doc1 doc1_body /\ flat (styling_body (plain_body doc1_body)) = true /\
  Forall (fun w => fits Body w = true) (vb_kids doc1_body) /\ Forall SegmentSpec.shaped (vb_kids doc1_body) /\
  Forall (busy (Some 2000000) (Some 9000000)) (vb_kids doc1_body) /\
  is_in_segment (vb_cb doc1_body) (vb_ce doc1_body) (Some 2000000) (Some 9000000) = true.
Proof.
  split; [checked|]. split; [reflexivity|]. cbn [vb_kids doc1_body].
  split; [repeat constructor|]. split; [repeat constructor|]. split; [|reflexivity].
  constructor; [|constructor]. constructor.
  - intros _ _. eexists. split; [eapply part_below; [left; reflexivity|apply part_here]|]. split; reflexivity.
  - repeat (constructor; try discriminate).
Qed.

(** A styled body and a window without any paragraph: an empty body is left, with
    its style and the times of the window. *)
Definition doc10_body : vbody :=
  mkVbody (Some ["s1"]) None None None 0 (Some 9000000) ["s1"]
   [VNode Div (Some "d1") None None None (Some (mkTattr "00:00:03.000" 3000000)) 0 (Some 3000000) ["s1"] None
     [VNode P (Some "p1") None None None None 0 (Some 3000000) ["s1"] None [VText "Hello"]];
    VNode Div (Some "d2") None None (Some (mkTattr "00:00:08.000" 8000000)) (Some (mkTattr "00:00:09.000" 9000000)) 8000000 (Some 9000000) ["s1"] None
     [VNode P (Some "p2") None None None None 8000000 (Some 9000000) ["s1"] None [VText " "; VNode Span None None None None None 8000000 (Some 9000000) ["s1"] None [VText "	"]]]].
Definition doc10 : docu vbody := mkDocu Media 3 (Some [("s0", mkStyle None no_attrs); ("s1", mkStyle None no_attrs)]) (Some []) (Some doc10_body).
Definition empty_segment (b e : string) (vb ve : Z) : docu bodyd :=
  mkDocu Media 3 (Some [("SEQ3.s1", mkStyle None no_attrs)]) (Some [])
    (Some (mkBodyd (Some ["SEQ3.s1"]) (Some (mkTattr b vb)) (Some (mkTattr e ve)) None [])).
Example C31_idle_body : style_checked doc10 doc10_body /\
  validate None (Some (timing_body (plain_body doc10_body))) = TOk (0, Some 9000000, vtimes_body doc10_body) /\
  Forall (busy (Some 5000000) (Some 6000000)) (vb_kids doc10_body) /\
  segment doc10 true (Some 5000000) (Some 6000000) = GOk (empty_segment "00:00:05" "00:00:06" 5000000 6000000) /\
  segment doc10 true (Some 8000000) (Some 9000000) = GOk (empty_segment "00:00:08" "00:00:09" 8000000 9000000).
Proof.
  split; [checked|]. split; [vm_compute; reflexivity|]. split; [|split; vm_compute; reflexivity].
  cbn [vb_kids doc10_body]. repeat (constructor; try discriminate).
Qed.

Print Assumptions C31_made.
Print Assumptions C31_no_empty.
