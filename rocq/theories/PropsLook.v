(** C51: content looks the same in a segment, and in what segments are joined to. *)

From Coq Require Import List ZArith String Bool QArith Lia.
From Verif Require Import IdModel TimingModel TimingSpec TimingProofs PropsTiming TimeSpec StyleModel StyleProofs StyleTree PropsStyle PropsScope
  SegmentModel SegmentSpec SegmentProofs SegmentHeadProofs PropsSegment PropsSegmentHead SpliceModel SpliceSpec SpliceProofs PropsSplice
  LookSpec LookProofs LookDressProofs.
Import ListNotations.
Open Scope Z_scope.

(** ** Segments *)

(** The styles and regions of a segment are those of the original that are in it. *)
Lemma segment_carries : forall d dec sb se seg v bd,
  segment d dec sb se = GOk seg -> t_body d = Some v -> style_checked d v -> t_body seg = Some bd ->
  let f := copy_ref dec (t_seq d) in
  let ok := fun j => In (f j) (map fst (els (t_styling seg))) in
  let okr := fun j => In (f j) (map fst (els (t_layout seg))) in
  let t := doc_table d (plain_body v) in let t' := doc_table seg bd in
  carries true f t t' ok /\
  (forall j g, okr j -> In (j, KRegion g) t ->
     In (f j, KRegion (mkRegion (option_map (map f) (r_refs g)) (r_padding g))) t' /\ forall i, In i (refs (r_refs g)) -> ok i) /\
  (forall i g', In (i, KRegion g') t' -> exists j g, i = f j /\ okr j /\ In (j, KRegion g) t /\ g' = mkRegion (option_map (map f) (r_refs g)) (r_padding g)) /\
  (forall i s', In (i, KStyle s') t' -> exists j s, In (j, KStyle s) t /\ fontSize (s_attrs s') = fontSize (s_attrs s)) /\
  NoDup (map fst t').
Proof.
  intros d dec sb se seg v bd S Bv Ck Hb f ok okr t t'. assert (Nd := proj1 Ck).
  destruct (C47_unique _ _ _ _ _ _ S Bv Ck) as (bd' & Hb' & Nd'). rewrite Hb in Hb'. inversion Hb'; subst bd'. clear Hb'.
  destruct (C47_self_contained _ _ _ _ _ _ S Bv Ck) as (bd' & Hb' & _ & _ & Cl & Cr). rewrite Hb in Hb'. inversion Hb'; subst bd'. clear Hb'.
  destruct (C47_head _ _ _ _ _ _ S Bv Ck) as (keep & keep' & Hs & Hl & _). fold f in Hs, Hl.
  assert (Inj : forall a b, f a = f b -> a = b) by (intros a b; apply copy_ref_inj).
  assert (H1 : forall i s, ok i -> get_style t i = Some s ->
            get_style t' (f i) = Some (mkStyle (option_map (map f) (s_refs s)) (strip true (s_attrs s)))).
  { intros i s Ok G. unfold get_style in G. destruct (dict_get _ i) as [[s'| |]|] eqn:E; inversion G; subst s'. clear G.
    apply dict_get_pair in E. apply table_style in E. unfold ok in Ok. rewrite Hs in Ok. apply kept_style_ids in Ok as [Kp _]; auto.
    unfold get_style. rewrite (dict_get_nodup _ _ (f i) (KStyle (snd (renamed_style f (i, s))))); auto. apply table_style.
    rewrite Hs. apply in_map_iff. exists (i, s). split; auto. apply filter_In. auto. }
  split; [split; [auto|split; [auto|]]|split; [|split; [|split]]].
  - intros i s j Ok G Hj. specialize (H1 _ _ Ok G). unfold get_style in H1. destruct (dict_get _ (f i)) as [[s'| |]|] eqn:E; inversion H1; subst s'.
    apply dict_get_pair in E. apply table_style in E. unfold ok. eapply Cl; [exact E|]. cbn [s_refs]. destruct (s_refs s); [|destruct Hj].
    cbn. apply in_map. auto.
  - intros j g Or Hj. apply table_region in Hj. unfold okr in Or. rewrite Hl in Or. apply kept_region_ids in Or as [Kp _]; auto.
    assert (Hi : In (f j, mkRegion (option_map (map f) (r_refs g)) (r_padding g)) (els (t_layout seg))).
    { rewrite Hl. apply in_map_iff. exists (j, g). split; auto. apply filter_In. auto. }
    split; [apply table_region; auto|]. intros i Hr. unfold ok. eapply Cr; [exact Hi|]. cbn [r_refs]. destruct (r_refs g); [|destruct Hr].
    cbn. apply in_map. auto.
  - intros i g' Hi. apply table_region in Hi. rewrite Hl in Hi. apply in_map_iff in Hi as ([j g] & E & Hj). unfold renamed_region in E. cbn in E.
    inversion E; subst. exists j, g. split; auto. split; [|split; auto; apply table_region; apply filter_In in Hj; tauto].
    unfold okr. rewrite Hl. rewrite map_map. apply in_map_iff. exists (j, g). auto.
  - intros i s' Hi. apply table_style in Hi. rewrite Hs in Hi. apply in_map_iff in Hi as ([j s] & E & Hj). unfold renamed_style in E. cbn in E.
    inversion E; subst. exists j, s. split; [apply table_style; apply filter_In in Hj; tauto|]. cbn. destruct (s_attrs s). auto.
  - auto.
Qed.

Lemma at_checked : forall z d v, style_checked_at z d v -> style_checked d v.
Proof. intros z d v (N & r & o & H). split; auto. exists z, r, o. auto. Qed.

Lemma shown_renamed : forall f ss, flat_map shown_styles (map (rename f) ss) = map f (flat_map shown_styles ss) /\
  flat_map shown_regions (map (rename f) ss) = map f (flat_map shown_regions ss).
Proof.
  intros f ss. assert (Al : forall ss, Forall (fun s => shown_styles (rename f s) = map f (shown_styles s) /\ shown_regions (rename f s) = map f (shown_regions s)) ss ->
    flat_map shown_styles (map (rename f) ss) = map f (flat_map shown_styles ss) /\ flat_map shown_regions (map (rename f) ss) = map f (flat_map shown_regions ss)).
  { induction 1 as [|s l [A B] _ [C D]]; auto. cbn [map flat_map]. rewrite !map_app, A, B, C, D. auto. }
  apply Al. apply Forall_forall. intros s _. induction s as [s| |k i r st kids IH] using shown_ind'; auto.
  cbn [rename shown_styles shown_regions]. destruct (Al _ IH) as [A B]. rewrite !map_app, A, B. split; f_equal.
  - destruct st; auto.
  - unfold here. destruct k, r; auto.
Qed.

(** Everything about a segment at once. *)
Lemma segment_looks : forall d dec sb se seg v z,
  segment d dec sb se = GOk seg -> t_body d = Some v -> style_checked_at z d v ->
  flat (styling_body (plain_body v)) = true ->
  let f := copy_ref dec (t_seq d) in let T := doc_table d (plain_body v) in
  exists bd regions e os regions' e' os', t_body seg = Some bd /\
    let T' := doc_table seg bd in
    validate_styles T z (styling_body (plain_body v)) = SOk (regions, SOut Body None e os) /\
    validate_styles T' z (styling_body bd) = SOk (regions', SOut Body None e' os') /\
    forallb flat (flat_map styling (bd_kids bd)) = true /\
    carries true f T T' (fun j => In (f j) (map fst (els (t_styling seg)))) /\
    rcarries true f regions regions' (fun j => In (f j) (map fst (els (t_layout seg)))) /\
    Forall2 (passes T z regions None (Some (e_computed e))) (flat_map styling (bd_kids (plain_body v))) os /\
    Forall2 (passes T' z regions' None (Some (e_computed e'))) (flat_map styling (bd_kids bd)) os' /\
    ceq true (e_computed e) (e_computed e') /\ c_attrs (e_computed e') = no_align (c_attrs (e_computed e)).
Proof.
  intros d dec sb se seg v z S Bv Ca Fl f T. assert (Ck := at_checked _ _ _ Ca).
  destruct (segment_inv _ _ _ _ _ S) as (v' & styles & rgs & bd0 & orph & stl & lay & bd & Q). cbv zeta in Q.
  destruct Q as (Bv' & _ & _ & _ & _ & Cb & _ & _ & _ & _ & Hb & Bs & Bk & _ & _). rewrite Bv in Bv'. inversion Bv'; subst v'. clear Bv'.
  unfold copy_body in Cb. destruct (is_in_segment _ _ _ _); [|discriminate].
  destruct (map_style _ (vb_style v)) as [st'|] eqn:Ms; [|discriminate]. cbn [gbind] in Cb.
  destruct (copy_nodes _ (vb_kids v) _) as [[ks o1]|] eqn:Ck'; [|discriminate]. cbn [gbind] in Cb. inversion Cb; subst bd0 orph. clear Cb.
  cbn [bd_style bd_kids] in Bs, Bk. destruct (map_style_ok _ _ _ Ms) as [-> _]. cbn [x_dec x_seq segment_ctx] in Bs. fold f in Bs.
  destruct (C47_self_contained _ _ _ _ _ _ S Bv Ck) as (bd' & Hb' & Rs & Rr & _). rewrite Hb in Hb'. inversion Hb'; subst bd'. clear Hb'.
  destruct (segment_carries _ _ _ _ _ _ _ S Bv Ck Hb) as (Car & Rg & Rg' & St' & Nd'). fold f T in Car, Rg, Rg', St'.
  set (T' := doc_table seg bd) in *.
  assert (Th : thin f (fun j => In (f j) (map fst (els (t_styling seg)))) (fun j => In (f j) (map fst (els (t_layout seg))))
                 (flat_map styling (map plain (vb_kids v))) (flat_map styling (bd_kids bd))).
  { rewrite Bk in *. refine (copies_thin _ (fun j => In j (map fst (els (t_styling seg)))) (fun j => In j (map fst (els (t_layout seg)))) _ _ _ _ Ck' _ _).
    - intros j Hj. apply Rs. unfold body_style_refs. rewrite Bk. apply in_app_iff. auto.
    - intros j Hj. apply Rr. unfold body_region_refs. rewrite Bk. auto. }
  destruct Ca as (_ & regions & o & V & _). fold T in V. cbn in Fl.
  destruct (validated_passes _ _ _ _ _ _ V Fl) as (e & os & u & -> & U & C & F & Cs & Gd & Gall).
  assert (Ob : forall j, In j (refs (vb_style v)) -> In (f j) (map fst (els (t_styling seg)))).
  { intros j Hj. apply Rs. unfold body_style_refs. rewrite Bs. apply in_app_iff. left. cbn in Hj. destruct (vb_style v); [|destruct Hj]. cbn. apply in_map. auto. }
  destruct (specified_carried _ _ _ _ _ _ _ Car U Ob) as [U' At]. cbn [bd_style plain_body] in U'.
  destruct (compute_compat true _ _ None None None None _ _ I I C) as (c' & C' & Ce & Ea). rewrite <- resolve_strip, <- At in C'.
  destruct (validates_from T' z (bd_style bd) (flat_map styling (bd_kids bd)) (map f u) c') as (regions' & o' & V' & Mk); auto.
  - apply check_styles_all. intros i s' Hi. destruct (St' _ _ Hi) as (j & s & Hj & Ef). rewrite (check_style_font z s s' Ef).
    eapply check_styles_in; eauto.
  - intros i g' Hi. destruct (Rg' _ _ Hi) as (j & g & -> & Or & Hj & ->). destruct (Gall _ _ Hj) as (c0 & G0).
    destruct (good_carried _ _ _ _ _ _ _ _ Car G0 (proj2 (Rg _ _ Or Hj))) as (c1 & G1 & _). eauto.
  - rewrite Bs. destruct (vb_style v); exact U'.
  - intros regions' Mk. eapply goes_carried; eauto. eapply made_carries; eauto.
  - assert (Fl' : forallb flat (flat_map styling (bd_kids bd)) = true) by (eapply thin_flat; eauto).
    destruct (validated_passes _ _ _ _ _ _ V' Fl') as (e' & os' & u' & -> & U2 & C2 & F' & _).
    assert (Ec : e_computed e' = c').
    { assert (Eu : u' = map f u). { eapply (proj2 (unfolds_fun T')); [exact U2|]. rewrite Bs. destruct (vb_style v); exact U'. }
      rewrite Eu in C2. congruence. }
    exists bd, regions, e, os, regions', e', os'. split; auto. cbv zeta. fold T'. split; [exact V|]. split; [exact V'|]. split; [auto|]. split; [auto|].
    split; [eapply made_carries; eauto|]. split; [auto|]. split; [auto|]. rewrite Ec. split; auto.
Qed.

(** A segment of a document that validates has valid styles and regions, when no
    region is below another. *)
Theorem C51_segment_valid : forall d dec sb se seg v z,
  segment d dec sb se = GOk seg -> t_body d = Some v -> style_checked_at z d v ->
  flat (styling_body (plain_body v)) = true -> style_valid z seg.
Proof.
  intros d dec sb se seg v z S Bv Ck Fl.
  destruct (segment_looks _ _ _ _ _ _ _ S Bv Ck Fl) as (bd & regions & e & os & regions' & e' & os' & Hb & _ & V' & _).
  unfold style_valid. rewrite Hb. eauto.
Qed.

(** Inside the window everything looks as in the document, up to identifiers and
    multiRowAlign; outside there is nothing. *)
Theorem C51_segment : forall d dec sb se seg v z avail cb ce,
  segment d dec sb se = GOk seg -> t_body d = Some v -> style_checked_at z d v ->
  flat (styling_body (plain_body v)) = true ->
  validate avail (Some (timing_body (plain_body v))) = TOk (cb, ce, vtimes_body v) ->
  0 <= at_avail avail -> nn_body (timing_body (plain_body v)) ->
  presentable sb se v -> begin_ok sb -> end_ok se ->
  forall t, looks_at None z seg t =
    if in_window sb se (ms_last t)
    then map (relook (copy_ref dec (t_seq d)) no_align) (looks_at avail z (unchecked d) (ms_last t))
    else [].
Proof.
  intros d dec sb se seg v z avail cb ce S Bv Ck Fl V A0 NN Pr Wb We t.
  destruct (C31_same_presentation _ _ _ _ _ _ _ _ _ S Bv V A0 NN Pr Wb We) as (bd & Hb & Sp).
  destruct (segment_looks _ _ _ _ _ _ _ S Bv Ck Fl) as (bd' & regions & e & os & regions' & e' & os' & Hb' & Q).
  rewrite Hb in Hb'. inversion Hb'; subst bd'. clear Hb'. cbv zeta in Q. destruct Q as (Vs & Vs' & _ & Car & Rc & F & F' & Ce & _).
  destruct (C11_never_fails None (Some (timing_body bd))) as (b0 & e0 & c0 & V0). specialize (Sp _ _ _ V0 t).
  assert (D' := looks_dressed None z seg bd regions' e' os' t _ _ _ Hb V0 Vs' F').
  assert (D := looks_dressed avail z (unchecked d) (plain_body v) regions e os (ms_last t) _ _ _ ltac:(cbn; rewrite Bv; auto) V Vs F).
  rewrite Sp in D'. destruct (in_window sb se (ms_last t)); [|inversion D'; auto].
  eapply dressed_all_fun; [exact D'|]. refine (dressed_all_carried true _ _ _ z _ _ _ _ Car Rc _ None _ _ _ _ _ _ _ D).
  - intros j Hj. destruct (C47_self_contained _ _ _ _ _ _ S Bv (at_checked _ _ _ Ck)) as (bd' & Hb' & Rs & _). rewrite Hb in Hb'. inversion Hb'; subst bd'.
    apply Rs. unfold body_style_refs. apply in_app_iff. right. destruct c0 as [b1 e1 cb1 ce1 cs|]; cbn [present_body] in Sp.
    + apply (proj1 (present_refs t _ cs)). destruct (active t cb1 ce1).
      * rewrite Sp, (proj1 (shown_renamed _ _)). apply in_map. auto.
      * apply (in_map (copy_ref dec (t_seq d))) in Hj. rewrite <- (proj1 (shown_renamed _ _)), <- Sp in Hj. destruct Hj.
    + apply (in_map (copy_ref dec (t_seq d))) in Hj. rewrite <- (proj1 (shown_renamed _ _)), <- Sp in Hj. destruct Hj.
  - intros j Hj. destruct (C47_self_contained _ _ _ _ _ _ S Bv (at_checked _ _ _ Ck)) as (bd' & Hb' & _ & Rr & _). rewrite Hb in Hb'. inversion Hb'; subst bd'.
    apply Rr. unfold body_region_refs. destruct c0 as [b1 e1 cb1 ce1 cs|]; cbn [present_body] in Sp.
    + apply (proj2 (present_refs t _ cs)). destruct (active t cb1 ce1).
      * rewrite Sp, (proj2 (shown_renamed _ _)). apply in_map. auto.
      * apply (in_map (copy_ref dec (t_seq d))) in Hj. rewrite <- (proj2 (shown_renamed _ _)), <- Sp in Hj. destruct Hj.
    + apply (in_map (copy_ref dec (t_seq d))) in Hj. rewrite <- (proj2 (shown_renamed _ _)), <- Sp in Hj. destruct Hj.
  - discriminate.
  - exact Ce.
Qed.

(** ** Joining *)

Lemma as_parent_ceq : forall c c', as_parent c c' <-> ceq false c c'.
Proof. intros c c'. unfold as_parent, ceq, real. cbn [andb]. tauto. Qed.
Lemma as_parent_sym : forall c c', as_parent c c' -> as_parent c' c.
Proof. intros c c' (A & B & C & D). repeat split; auto. Qed.
Lemma as_parent_trans : forall a b c, as_parent a b -> as_parent b c -> as_parent a c.
Proof.
  intros a b c (A & B & C & D) (A' & B' & C' & D'). split; [congruence|]. split; [congruence|]. split; [congruence|].
  intros x. rewrite D'. auto.
Qed.

Lemma map_same : forall st : option (list string), option_map (map (fun i => i)) st = st.
Proof. intros [l|]; cbn; auto. rewrite map_id. auto. Qed.

Lemma relook_same : forall l, relook (fun i => i) (redress false) l = l.
Proof.
  fix IH 1. intros [s| |k i r a kids]; [reflexivity|reflexivity|]. cbn [relook redress].
  assert (E : map (relook (fun i => i) (redress false)) kids = kids).
  { induction kids as [|x kids IHk]; [reflexivity|]. cbn [map]. rewrite IH, IHk. reflexivity. }
  rewrite E. destruct i, r; reflexivity.
Qed.
Lemma anonymous_same : forall s, anonymous (rename (fun i => i) s) = anonymous s.
Proof.
  induction s as [s| |k i r st kids IH] using shown_ind'; auto. cbn [rename anonymous]. rewrite map_same, map_map. rewrite Forall_forall in IH.
  rewrite (map_ext_in _ _ _ IH). f_equal. destruct k, r; auto.
Qed.

(** Content with the same elements and references. *)
Lemma unnamed_thin : forall d z regions ns above parent os, Forall2 (passes d z regions above parent) (flat_map styling ns) os ->
  forall ns', map unnamed ns' = map unnamed ns ->
  thin (fun i => i) (fun i => exists u, unfolds d i u) (fun j => dict_get regions j <> None) (flat_map styling ns) (flat_map styling ns').
Proof.
  intros d z regions ns.
  assert (App : forall ok okr a a' b b', thin (fun i => i) ok okr a a' -> thin (fun i => i) ok okr b b' -> thin (fun i => i) ok okr (a ++ b) (a' ++ b')).
  { intros ok okr a a' b b' Ta Tb. induction Ta; cbn [app]; auto; [apply thin_drop|apply thin_keep]; auto. }
  assert (Al : forall ns, Forall (fun n => forall above parent os, Forall2 (passes d z regions above parent) (styling n) os ->
      forall n', unnamed n' = unnamed n ->
      thin (fun i => i) (fun i => exists u, unfolds d i u) (fun j => dict_get regions j <> None) (styling n) (styling n')) ns ->
    forall above parent os, Forall2 (passes d z regions above parent) (flat_map styling ns) os -> forall ns', map unnamed ns' = map unnamed ns ->
    thin (fun i => i) (fun i => exists u, unfolds d i u) (fun j => dict_get regions j <> None) (flat_map styling ns) (flat_map styling ns')).
  { induction 1 as [|n ms Hn _ IH]; intros above parent os F [|n' ns'] E; cbn [map] in E; try discriminate; [constructor|].
    inversion E as [[E1 E2]]. cbn [flat_map] in *. apply Forall2_app_inv_l in F as (o1 & o2 & F1 & F2 & ->). apply App; eauto. }
  apply Al. apply Forall_forall. intros n _. clear ns.
  induction n as [s| |k i r st b e kids IH] using node_ind2; intros above parent os F [s'| |k' i' r' st' b' e' kids'] E; cbn [unnamed] in E; try discriminate; try apply thin_nil.
  inversion E as [[Ek Er Es Eb Ee Eks]]. subst k' st'. cbn [styling] in *. inversion F as [|? o ? ? Fo _]; subst.
  inversion Fo as [ab pa k0 s0 r0 kids0 el oks u U Re Kn Cs Fk]; subst. rewrite <- (map_same st) at 2. apply thin_keep.
  - intros j Hj. destruct (unfolds_all_in _ _ _ _ U Hj) as (l0 & a0 & b0 & U0 & _). eauto.
  - intros j Hj. apply Kn. rewrite Re, Hj. auto.
  - unfold here. destruct k; cbn in *; subst; auto; destruct r; auto.
  - eapply Al; eauto.
  - constructor.
Qed.

Lemma dressed_refs : forall d z regions above parent ss ls, Forall2 (dressed d z regions above parent) ss ls ->
  (forall j, In j (flat_map shown_styles ss) -> exists u, unfolds d j u) /\ (forall j, In j (flat_map shown_regions ss) -> dict_get regions j <> None).
Proof.
  intros d z regions above parent ss. revert above parent.
  assert (Al : forall ss, Forall (fun s => forall above parent l, dressed d z regions above parent s l ->
      (forall j, In j (shown_styles s) -> exists u, unfolds d j u) /\ (forall j, In j (shown_regions s) -> dict_get regions j <> None)) ss ->
    forall above parent ls, Forall2 (dressed d z regions above parent) ss ls ->
      (forall j, In j (flat_map shown_styles ss) -> exists u, unfolds d j u) /\ (forall j, In j (flat_map shown_regions ss) -> dict_get regions j <> None)).
  { induction 1 as [|s ms Hs _ IH]; intros above parent ls F; inversion F; subst; cbn [flat_map]; [split; intros j []|].
    destruct (Hs _ _ _ H1) as [A B]. destruct (IH _ _ _ H3) as [A' B'].
    split; intros j Hj; apply in_app_iff in Hj as [Hj|Hj]; auto. }
  apply Al. apply Forall_forall. intros s _. clear ss.
  induction s as [s| |k i r st kids IH] using shown_ind'; intros above parent l H; try (split; intros j []; fail).
  inversion H as [| |? ? ? ? ? ? ? u c ls U Kn C F]; subst. destruct (Al _ IH _ _ _ F) as [A B]. cbn [shown_styles shown_regions].
  split; intros j Hj; apply in_app_iff in Hj as [Hj|Hj]; auto.
  - destruct (unfolds_all_in _ _ _ _ U Hj) as (l0 & a0 & b0 & U0 & _). eauto.
  - apply Kn. destruct (here k r) as [q|]; [|destruct Hj]. destruct Hj as [->|[]]. auto.
Qed.

(** Chunks of a list that is a concatenation up to names. *)
Lemma unnamed_chunks : forall (ds : list (docu bodyd)) ns, map unnamed ns = map unnamed (flat_map content ds) ->
  exists nss, ns = List.concat nss /\ Forall2 (fun c d => map unnamed c = map unnamed (content d)) nss ds.
Proof.
  induction ds as [|d ds IH]; intros ns E; cbn [flat_map] in E.
  - destruct ns; [|discriminate]. exists []. split; [auto|constructor].
  - rewrite map_app in E. assert (L := f_equal (firstn (List.length (content d))) E). assert (R := f_equal (skipn (List.length (content d))) E).
    assert (Ln : List.length (map unnamed (content d)) = List.length (content d)) by apply map_length.
    rewrite <- Ln in L, R at 2. rewrite firstn_app, firstn_all, Nat.sub_diag in L. rewrite skipn_app, skipn_all, Nat.sub_diag in R.
    cbn [firstn skipn app] in L, R. rewrite app_nil_r in L. rewrite firstn_map in L. rewrite skipn_map in R.
    destruct (IH _ R) as (nss & En & F). exists (firstn (List.length (content d)) ns :: nss). cbn [List.concat].
    rewrite <- En, firstn_skipn. rewrite Ln in L. split; [auto|constructor; auto].
Qed.

(** Everything about joining at once. *)
Lemma splice_looks : forall ds ns n x z c0, splice ds n = POk x -> Forall2 of_number ns ds -> NoDup ns ->
  Forall flat_doc ds -> Forall (fun d => exists c, body_computed z d = Some c /\ as_parent c0 c) ds ->
  exists bx regions e os, t_body x = Some bx /\ let T := doc_table x bx in
    validate_styles T z (styling_body bx) = SOk (regions, SOut Body None e os) /\ as_parent c0 (e_computed e) /\
    forallb flat (flat_map styling (bd_kids bx)) = true /\
    Forall2 (passes T z regions None (Some (e_computed e))) (flat_map styling (bd_kids bx)) os /\
    forall d, In d ds -> exists b rd ed od, t_body d = Some b /\
      validate_styles (doc_table d b) z (styling_body b) = SOk (rd, SOut Body None ed od) /\ as_parent (e_computed ed) (e_computed e) /\
      Forall2 (passes (doc_table d b) z rd None (Some (e_computed ed))) (flat_map styling (bd_kids b)) od /\
      carries false (fun i => i) (doc_table d b) T (fun i => exists u, unfolds (doc_table d b) i u) /\
      rcarries false (fun i => i) rd regions (fun j => dict_get rd j <> None).
Proof.
  intros ds ns n x z c0 H F N Fl Bc. destruct (C33_unique _ _ _ _ H F N) as (Es & El & Nu).
  destruct (splice_body _ _ _ H) as (Un & St & _).
  (* the documents *)
  assert (Each : forall d, In d ds -> exists b rd ed od u, t_body d = Some b /\
    validate_styles (doc_table d b) z (styling_body b) = SOk (rd, SOut Body None ed od) /\ as_parent c0 (e_computed ed) /\
    forallb flat (flat_map styling (bd_kids b)) = true /\ unfolds_all (doc_table d b) (refs (bd_style b)) u /\
    compute_style z (resolve_styles (map (attrs_of (doc_table d b)) (keep_first u))) None None (defers Body) = SOk (e_computed ed) /\
    Forall2 (passes (doc_table d b) z rd None (Some (e_computed ed))) (flat_map styling (bd_kids b)) od /\
    check_styles z (doc_table d b) = SOk tt /\
    (forall j e, dict_get rd j = Some e -> exists g, In (j, KRegion g) (doc_table d b) /\ region_good (doc_table d b) z g (e_computed e)) /\
    (forall i g, In (i, KRegion g) (doc_table d b) -> exists c, region_good (doc_table d b) z g c)).
  { intros d Hd. rewrite Forall_forall in Fl, Bc. destruct (Bc _ Hd) as (c & Eb & As). unfold body_computed in Eb.
    destruct (t_body d) as [b|] eqn:Hb; [|discriminate]. assert (Fb := Fl _ Hd b Hb).
    destruct (validate_styles (doc_table d b) z (styling_body b)) as [[rd o]|] eqn:V; [|discriminate].
    destruct (validated_passes _ _ _ _ _ _ V Fb) as (ed & od & u & -> & U & C & Fp & Cs & G1 & G2). inversion Eb; subst c.
    exists b, rd, ed, od, u. do 8 (split; [auto; fail|]). split; auto. }
  (* the body *)
  destruct (splice_inv _ _ _ H) as (d0 & r0 & m0 & Ed & _). assert (H0 : In d0 ds) by (subst; left; auto).
  destruct (Each _ H0) as (b0 & rd0 & ed0 & od0 & u0 & Hb0 & V0 & As0 & Fb0 & U0 & C0 & Fp0 & _).
  assert (Fbd : first_body ds = Some b0) by (subst ds; unfold first_body; cbn [flat_map]; rewrite Hb0; auto).
  rewrite Fbd in St. destruct (t_body x) as [bx|] eqn:Hx; [|discriminate]. cbn in St. inversion St as [St']. clear St.
  assert (Cx : content x = bd_kids bx) by (unfold content; rewrite Hx; auto).
  set (T := doc_table x bx).
  assert (Nt : NoDup (map fst T)) by (unfold T; rewrite table_ids; unfold all_ids, content_ids in Nu; rewrite Cx in Nu; exact Nu).
  (* tables *)
  assert (Sin : forall d b i s, In d ds -> In (i, KStyle s) (doc_table d b) -> In (i, KStyle s) T).
  { intros d b i s Hd Hi. apply table_style in Hi. apply table_style. rewrite Es. apply in_flat_map. eauto. }
  assert (Rin : forall d b i g, In d ds -> In (i, KRegion g) (doc_table d b) -> In (i, KRegion g) T).
  { intros d b i g Hd Hi. apply table_region in Hi. apply table_region. rewrite El. apply in_flat_map. eauto. }
  assert (Car : forall d b, In d ds -> carries false (fun i => i) (doc_table d b) T (fun i => exists u, unfolds (doc_table d b) i u)).
  { intros d b Hd. split; [auto|]. split.
    - intros i s _ G. unfold get_style in G. destruct (dict_get _ i) as [[s'| |]|] eqn:E; inversion G; subst s'. apply dict_get_pair in E.
      unfold get_style. rewrite (dict_get_nodup _ _ i (KStyle s)); eauto. rewrite map_same. destruct s; auto.
    - intros i s j (u & U) G Hj. apply unfolds_inv in U. destruct U as (_ & l & _ & U'). rewrite (refs_of_some _ _ _ G) in U'. destruct (unfolds_all_in _ _ _ _ U' Hj) as (l0 & a0 & b1 & Uj & _). eauto. }
  assert (Rok : forall d b rd, In d ds ->
    (forall j e, dict_get rd j = Some e -> exists g, In (j, KRegion g) (doc_table d b) /\ region_good (doc_table d b) z g (e_computed e)) ->
    (forall i g, In (i, KRegion g) (doc_table d b) -> exists c, region_good (doc_table d b) z g c) ->
    forall j g, dict_get rd j <> None -> In (j, KRegion g) (doc_table d b) ->
     In (j, KRegion (mkRegion (option_map (map (fun i => i)) (r_refs g)) (r_padding g))) T /\
     forall i, In i (refs (r_refs g)) -> exists u, unfolds (doc_table d b) i u).
  { intros d b rd Hd G1 G2 j g _ Hj. rewrite map_same. split; [destruct g; eauto|]. intros i Hi.
    destruct (G2 _ _ Hj) as (c & u & U & _). destruct (unfolds_all_in _ _ _ _ U Hi) as (l0 & a0 & b1 & Uj & _). eauto. }
  destruct (unnamed_chunks _ _ Un) as (nss & Ens & Fch). rewrite Cx in Ens.
  assert (Ch : forall ch, In ch nss -> exists d, In d ds /\ map unnamed ch = map unnamed (content d)).
  { clear - Fch. induction Fch as [|ch d nss ds E _ IH]; intros q Hq; [destruct Hq|]. destruct Hq as [->|Hq]; [exists d; split; [left|]; auto|].
    destruct (IH q Hq) as (d' & Hd & E'). exists d'. split; [right|]; auto. }
  assert (Ob : forall i, In i (refs (bd_style b0)) -> exists u, unfolds (doc_table d0 b0) i u).
  { intros i Hi. destruct (unfolds_all_in _ _ _ _ U0 Hi) as (l0 & a0 & b1 & Uj & _). eauto. }
  destruct (specified_carried _ _ _ _ _ _ _ (Car d0 b0 H0) U0 Ob) as [Ux At]. cbn [strip] in At. rewrite !map_id in At. rewrite !map_id in Ux.
  rewrite <- At in C0.
  destruct (validates_from T z (bd_style bx) (flat_map styling (bd_kids bx)) u0 (e_computed ed0)) as (regions & o & V & Mk); auto.
  - apply check_styles_all. intros i s Hi. apply table_style in Hi. rewrite Es in Hi. apply in_flat_map in Hi as (d & Hd & Hi).
    destruct (Each _ Hd) as (b & rd & ed & od & u & Hb & _ & _ & _ & _ & _ & _ & Cs & _).
    eapply check_styles_in; [exact Cs|]. apply table_style. exact Hi.
  - intros i g Hi. apply table_region in Hi. rewrite El in Hi. apply in_flat_map in Hi as (d & Hd & Hi).
    destruct (Each _ Hd) as (b & rd & ed & od & u & Hb & _ & _ & _ & _ & _ & _ & _ & G1 & G2).
    assert (Hi' := proj2 (table_region _ d b i g) Hi). destruct (G2 _ _ Hi') as (c & G). assert (G0 := G). destruct G0 as (u' & U' & _).
    destruct (good_carried _ _ _ _ _ _ _ _ (Car d b Hd) G) as (c' & G' & _).
    + intros j Hj. destruct (unfolds_all_in _ _ _ _ U' Hj) as (l0 & a0 & b1 & Uj & _). eauto.
    + rewrite map_same in G'. exists c'. destruct g; exact G'.
  - rewrite St'. exact Ux.
  - intros regions Mk. rewrite Ens. clear - Each Car Rok Ch Mk As0. induction nss as [|ch nss IH]; cbn [List.concat flat_map].
    + intros c' w _ T0 R0. exists [], w. auto.
    + rewrite flat_map_app. apply goes_app; [|apply IH; intros; apply Ch; right; auto]. destruct (Ch ch (or_introl eq_refl)) as (d & Hd & Ech).
      destruct (Each _ Hd) as (b & rd & ed & od & u & Hb & V & As & Fb & U & C & Fp & Cs & G1 & G2).
      unfold content in Ech. rewrite Hb in Ech.
      refine (goes_carried false _ _ _ z rd regions _ _ (e_computed ed) _ _ _ od (Car d b Hd) _ (unnamed_thin _ _ _ _ _ _ _ Fp _ Ech) Fb Fp _).
      * eapply made_carries; [exact (Car d b Hd)|exact G1| |exact Mk]. intros j g Kj Hj. exact (Rok d b rd Hd G1 G2 j g Kj Hj).
      * apply as_parent_ceq. eapply as_parent_trans; [apply as_parent_sym; exact As|exact As0].
  - assert (Flx : forallb flat (flat_map styling (bd_kids bx)) = true).
    { rewrite Ens. clear - Each Ch. induction nss as [|ch nss IH]; auto. cbn [List.concat]. rewrite flat_map_app, forallb_app.
      rewrite IH by (intros; apply Ch; right; auto). rewrite andb_true_r. destruct (Ch ch (or_introl eq_refl)) as (d & Hd & Ech).
      destruct (Each _ Hd) as (b & rd & ed & od & u & Hb & V & As & Fb & U & C & Fp & Cs & G1 & G2). unfold content in Ech. rewrite Hb in Ech.
      eapply thin_flat; [exact (unnamed_thin _ _ _ _ _ _ _ Fp _ Ech)|exact Fb]. }
    destruct (validated_passes _ _ _ _ _ _ V Flx) as (e & os & u & -> & U & C & Fp & _).
    assert (Eu : u = u0). { eapply (proj2 (unfolds_fun T)); [exact U|]. rewrite St'. exact Ux. } subst u.
    assert (Ee : e_computed e = e_computed ed0) by congruence.
    exists bx, regions, e, os. split; auto. cbv zeta. fold T. split; [exact V|]. rewrite Ee. split; [auto|]. split; [auto|]. rewrite <- Ee. split; [auto|].
    intros d Hd. destruct (Each _ Hd) as (b & rd & ed & od & u & Hb & Vd & As & Fb & Ud & Cd & Fpd & Cs & G1 & G2).
    exists b, rd, ed, od. split; auto. split; auto. split; [|split; [auto|split; [auto|eapply made_carries; [exact (Car d b Hd)|exact G1|intros j g Kj Hj; exact (Rok d b rd Hd G1 G2 j g Kj Hj)|exact Mk]]]].
    rewrite Ee. eapply as_parent_trans; [apply as_parent_sym; exact As|exact As0].
Qed.

(** Documents of different numbers whose bodies pass on the same join to a
    document with valid styles and regions, that looks at every instant as they
    do one after the other. *)
Theorem C51_joined : forall ds ns n x z c0, splice ds n = POk x -> Forall2 of_number ns ds -> NoDup ns ->
  Forall flat_doc ds -> Forall (fun d => exists c, body_computed z d = Some c /\ as_parent c0 c) ds ->
  style_valid z x /\ flat_doc x /\ (exists c, body_computed z x = Some c /\ as_parent c0 c) /\
  (Forall joinable ds -> forall avail t, 0 <= at_avail avail ->
   map nameless (looks_at avail z x t) = map nameless (flat_map (fun d => looks_at avail z d t) ds)).
Proof.
  intros ds ns n x z c0 H F N Fl Bc.
  destruct (splice_looks _ _ _ _ _ _ H F N Fl Bc) as (bx & regions & e & os & Hx & Q). cbv zeta in Q.
  destruct Q as (V & As & Flx & Fp & Each). set (T := doc_table x bx) in *.
  split; [unfold style_valid; rewrite Hx; eauto|]. split; [intros b Hb; rewrite Hx in Hb; inversion Hb; subst; exact Flx|].
  split; [exists (e_computed e); split; auto; unfold body_computed; rewrite Hx; fold T; rewrite V; auto|].
  intros J avail t A. assert (P := C33_presentation _ _ _ avail t H A J).
  destruct (C11_never_fails avail (Some (timing_body bx))) as (b1 & e1 & ct & Vt).
  assert (D := looks_dressed avail z x bx regions e os t _ _ _ Hx Vt V Fp). fold T in D.
  assert (Sx : shows_at avail x t = present_body t bx ct) by (unfold shows_at; rewrite Hx, Vt; auto). rewrite <- Sx in D.
  assert (Anon : forall ss ls, Forall2 (dressed T z regions None (Some (e_computed e))) ss ls ->
    Forall2 (dressed T z regions None (Some (e_computed e))) (map anonymous ss) (map nameless ls)).
  { induction 1; cbn [map]; constructor; auto. apply dressed_anonymous. auto. }
  eapply dressed_all_fun; [apply Anon; exact D|]. rewrite P. clear - Each Anon. induction ds as [|d ds IH]; [constructor|].
  cbn [flat_map]. rewrite !map_app. apply Forall2_app; [|apply IH; intros; apply Each; right; auto].
  destruct (Each d (or_introl eq_refl)) as (b & rd & ed & od & Hb & Vd & As & Fpd & Car & Rc).
  destruct (C11_never_fails avail (Some (timing_body b))) as (b1 & e1 & cd & Vt).
  assert (D := looks_dressed avail z d b rd ed od t _ _ _ Hb Vt Vd Fpd).
  assert (Sd : shows_at avail d t = present_body t b cd) by (unfold shows_at; rewrite Hb, Vt; auto). rewrite <- Sd in D.
  destruct (dressed_refs _ _ _ _ _ _ _ D) as [R1 R2].
  assert (D' : Forall2 (dressed T z regions None (Some (e_computed e))) (map (rename (fun i => i)) (shows_at avail d t))
    (map (relook (fun i => i) (redress false)) (looks_at avail z d t))).
  { refine (dressed_all_carried false (fun i => i) _ T z rd regions _ _ Car Rc _ None _ (Some (e_computed e)) _ R1 R2 _ _ D); [discriminate|].
    apply as_parent_ceq. exact As. }
  assert (D2 := Anon _ _ D'). rewrite (map_ext _ _ relook_same), map_id in D2. rewrite map_map in D2.
  rewrite (map_ext _ _ anonymous_same) in D2. exact D2.
Qed.

(** ** Joining segments *)

Definition cut_at (z : sizing) (p : piece) : Prop :=
  segment (p_doc p) true (p_begin p) (p_end p) = GOk (p_seg p) /\ t_body (p_doc p) = Some (p_body p) /\
  style_checked_at z (p_doc p) (p_body p) /\ flat (styling_body (plain_body (p_body p))) = true.

(** What of the document a segment was cut from is to be seen. *)
Definition seen_in_window (z : sizing) (p : piece) (t : Z) : list seen :=
  if in_window (p_begin p) (p_end p) (ms_last t)
  then map (relook (copy_ref true (t_seq (p_doc p))) no_align) (looks_checked z (p_doc p) (p_body p) (ms_last t))
  else [].

Lemma cut_at_was : forall z p, cut_at z p -> was_cut p.
Proof. intros z p (S & B & C & _). split; auto. split; auto. eapply at_checked; eauto. Qed.

(** The computed style of the body of the segment. *)
Theorem C51_segment_body : forall d dec sb se seg v z,
  segment d dec sb se = GOk seg -> t_body d = Some v -> style_checked_at z d v ->
  flat (styling_body (plain_body v)) = true ->
  exists c c', body_computed z (unchecked d) = Some c /\ body_computed z seg = Some c' /\ c_attrs c' = no_align (c_attrs c) /\
    (forall a, a <> MultiRowAlign -> pick_attr a (Some c') = pick_attr a (Some c)) /\ flat_doc seg.
Proof.
  intros d dec sb se seg v z S Bv Ck Fl.
  destruct (segment_looks _ _ _ _ _ _ _ S Bv Ck Fl) as (bd & regions & e & os & regions' & e' & os' & Hb & Vs & Vs' & Fl' & _ & _ & _ & _ & Ce & Ea).
  exists (e_computed e), (e_computed e').
  assert (Eu : body_computed z (unchecked d) = Some (e_computed e)).
  { unfold body_computed, unchecked. rewrite Bv. cbn [option_map t_body]. unfold doc_table, head_table in *. cbn [t_styling t_layout]. rewrite Vs. auto. }
  split; [exact Eu|]. split; [unfold body_computed; rewrite Hb, Vs'; auto|]. split; [auto|]. split.
  - intros a Ha. destruct Ce as (_ & _ & _ & R). specialize (R a). unfold real in R. rewrite R. cbn [andb].
    destruct (aname_eqb_spec a MultiRowAlign); congruence.
  - intros b Hb'. rewrite Hb in Hb'. inversion Hb'; subst. exact Fl'.
Qed.

Lemma bodies_alike : forall z ps c0, Forall (cut_at z) ps ->
  Forall (fun p => exists c, body_computed z (unchecked (p_doc p)) = Some c /\ as_parent c0 c) ps ->
  exists c1, Forall (fun d => exists c, body_computed z d = Some c /\ as_parent c1 c) (map p_seg ps).
Proof.
  intros z ps c0 Cut Al. assert (Q : forall p, In p ps -> exists c c', body_computed z (unchecked (p_doc p)) = Some c /\ as_parent c0 c /\
    body_computed z (p_seg p) = Some c' /\ ceq true c c').
  { intros p Hp. rewrite Forall_forall in Cut, Al. destruct (Cut _ Hp) as (S & Bv & Ck & Fl). destruct (Al _ Hp) as (c & Ec & As).
    destruct (segment_looks _ _ _ _ _ _ _ S Bv Ck Fl) as (bd & regions & e & os & regions' & e' & os' & Hb & Vs & Vs' & Fl' & _ & _ & _ & _ & Ce & Ea).
    assert (Eu : body_computed z (unchecked (p_doc p)) = Some (e_computed e)).
    { unfold body_computed, unchecked. rewrite Bv. cbn [option_map t_body]. unfold doc_table, head_table in *. cbn [t_styling t_layout]. rewrite Vs. auto. }
    rewrite Eu in Ec. inversion Ec; subst c. exists (e_computed e), (e_computed e'). split; auto. split; auto. split; auto.
    unfold body_computed. rewrite Hb, Vs'. auto. }
  clear Cut Al. destruct ps as [|p0 ps]; [exists c0; constructor|]. destruct (Q p0 (or_introl eq_refl)) as (k & k' & _ & A0 & E0 & C0).
  exists k'. apply Forall_forall. intros d Hd. apply in_map_iff in Hd as (p & <- & Hp). destruct (Q p Hp) as (c & c' & _ & A & E & C).
  exists c'. split; auto. destruct A0 as (a1 & a2 & a3 & a4), A as (b1 & b2 & b3 & b4), C0 as (d1 & d2 & d3 & d4), C as (f1 & f2 & f3 & f4).
  split; [congruence|]. split; [congruence|]. split; [congruence|]. intros a. specialize (d4 a). specialize (f4 a). unfold real in *. rewrite d4, f4, b4, a4. auto.
Qed.

(** Segments of documents of different numbers, whose bodies pass on the same,
    join to a document with valid styles and regions, in which there is to be
    seen what there is of every document in its window. *)
Theorem C51_segments_joined : forall ps n x z c0, splice (map p_seg ps) n = POk x -> Forall (cut_at z) ps ->
  Forall (fun p => 0 <= t_seq (p_doc p)) ps -> NoDup (map (fun p => t_seq (p_doc p)) ps) ->
  Forall (fun p => exists c, body_computed z (unchecked (p_doc p)) = Some c /\ as_parent c0 c) ps ->
  style_valid z x /\
  (Forall presentable_piece ps -> forall t, map nameless (looks_at None z x t) = map nameless (flat_map (fun p => seen_in_window z p t) ps)).
Proof.
  intros ps n x z c0 H Cut Pos Nd Al.
  assert (Was : Forall was_cut ps) by (eapply Forall_impl; [|exact Cut]; apply cut_at_was).
  destruct (bodies_alike _ _ _ Cut Al) as (c1 & Al').
  assert (Fl : Forall flat_doc (map p_seg ps)).
  { apply Forall_forall. intros d Hd. apply in_map_iff in Hd as (p & <- & Hp). rewrite Forall_forall in Cut. destruct (Cut _ Hp) as (S & Bv & Ck & Fl).
    destruct (C51_segment_body _ _ _ _ _ _ _ S Bv Ck Fl) as (c & c' & _ & _ & _ & _ & Q). exact Q. }
  destruct (C51_joined _ _ _ _ _ _ H (pieces_numbers _ Was Pos) Nd Fl Al') as (V & _ & _ & Lk). split; auto.
  intros Pr t. rewrite (Lk) with (avail := None); [|clear - Was Pr; induction Was; inversion Pr; subst; constructor; auto; apply piece_joinable; auto|cbn; lia].
  f_equal. clear - Cut Pr. induction Cut as [|p ps Cp _ IH]; auto. inversion Pr as [|? ? Pp Pr']; subst. cbn [map flat_map]. rewrite IH by auto. f_equal.
  destruct Cp as (S & Bv & Ck & Fl). destruct Pp as (avail & cb & ce & V & A0 & NN & P & Wb & We).
  rewrite (C51_segment _ _ _ _ _ _ _ _ _ _ S Bv Ck Fl V A0 NN P Wb We t). unfold seen_in_window.
  destruct (in_window _ _ _); auto. f_equal. unfold looks_at, looks_checked, unchecked. rewrite Bv. cbn [option_map t_body]. rewrite V. auto.
Qed.

(** ** Cases *)

Local Open Scope string_scope.

Definition z0 : sizing := mkSizing None (QArith_base.Qmake 32 1, QArith_base.Qmake 15 1).
Definition plain_style (l : list (aname * string)) : sattrs := fold_left (fun a e => setattr a (fst e) (Some (snd e))) l no_attrs.

(** doc1 in colours: s1 of the div and the region, s2 of a span. *)
Definition doc_l : docu vbody :=
  mkDocu Media 7 (Some [("s0", mkStyle None no_attrs); ("s1", mkStyle None (plain_style [(Color, "yellow"); (MultiRowAlign, "start")]));
                        ("s2", mkStyle None (plain_style [(BackgroundColor, "black")]))]) doc1_layout (Some doc1_body).

Ltac checked_at := split; [vm_compute; repeat (apply NoDup_cons; [cbn; intuition discriminate|]); apply NoDup_nil|eexists _, _; split; vm_compute; reflexivity].

Fixpoint glance (s : seen) : list (string * (option string * (option string * (option string * option string)))) :=
  match s with
  | TEl k i r a kids => (match i with Some i => i | None => "" end, (r, (getattr a Color, (getattr a BackgroundColor, getattr a MultiRowAlign)))) :: flat_map glance kids
  | _ => []
  end.


Example C51_case : style_checked_at z0 doc_l doc1_body /\ flat (styling_body (plain_body doc1_body)) = true /\
  flat_map glance (looks_at None z0 (unchecked doc_l) 2500000) =
    [("d1", (Some "r1", (Some "yellow", (Some "transparent", Some "start"))));
     ("p1", (Some "r1", (Some "yellow", (Some "transparent", Some "start"))));
     ("", (Some "r1", (Some "yellow", (Some "black", Some "start"))))] /\
  match segment doc_l true (Some 2000000) (Some 9000000) with
  | GOk seg => flat_map glance (looks_at None z0 seg 2500000) =
      [("SEQ7.d1", (Some "SEQ7.r1", (Some "yellow", (Some "transparent", Some "auto"))));
       ("SEQ7.p1", (Some "SEQ7.r1", (Some "yellow", (Some "transparent", Some "auto"))));
       ("", (Some "SEQ7.r1", (Some "yellow", (Some "black", Some "auto"))))]
  | GErr _ => False
  end.
Proof. split; [checked_at|]. repeat split; vm_compute; reflexivity. Qed.

(** The rest of the hypotheses is C31_doc1_meets.  Two segments joined. *)
Definition doc_l' : docu vbody := mkDocu Media 8 (t_styling doc_l) doc1_layout (Some doc1_body).
Definition two_looks : list piece :=
  [mkPiece doc_l doc1_body (Some 2000000) (Some 9000000) (cut_of doc_l (Some 2000000) (Some 9000000));
   mkPiece doc_l' doc1_body (Some 9000000) (Some 10000000) (cut_of doc_l' (Some 9000000) (Some 10000000))].

Example C51_case_joined : Forall (cut_at z0) two_looks /\ Forall (fun p => 0 <= t_seq (p_doc p)) two_looks /\
  NoDup (map (fun p => t_seq (p_doc p)) two_looks) /\
  (exists c0, Forall (fun p => exists c, body_computed z0 (unchecked (p_doc p)) = Some c /\ as_parent c0 c) two_looks) /\
  Forall presentable_piece two_looks /\
  match splice (map p_seg two_looks) 1 with
  | POk x => flat_map glance (looks_at None z0 x 8500000) =
        [("SEQ7.d1", (Some "SEQ7.r1", (Some "yellow", (Some "transparent", Some "auto"))));
         ("SEQ7.p2", (Some "SEQ7.r1", (Some "yellow", (Some "transparent", Some "auto"))))] /\
      flat_map glance (looks_at None z0 x 9500000) =
        [("SEQ8.d1", (Some "SEQ8.r1", (Some "yellow", (Some "transparent", Some "auto"))));
         ("SEQ8.p2", (Some "SEQ8.r1", (Some "yellow", (Some "transparent", Some "auto"))))]
  | PErr _ => False
  end.
Proof.
  split; [constructor; [|constructor; [|constructor]]; (split; [vm_compute; reflexivity|]; split; [reflexivity|]; split; [exact (proj1 C51_case)|reflexivity])|].
  split; [repeat constructor; cbn; lia|]. split; [vm_compute; repeat (apply NoDup_cons; [cbn; intuition discriminate|]); apply NoDup_nil|].
  split.
  { eexists. constructor; [|constructor; [|constructor]]; (eexists; split; [vm_compute; reflexivity|]); apply as_parent_ceq; apply ceq_refl. }
  split; [|vm_compute; auto].
  destruct C33_case_meets as (_ & _ & _ & P). inversion P as [|? ? P1 P']; subst. inversion P' as [|? ? P2 _]; subst.
  constructor; [exact P1|constructor; [exact P2|constructor]].
Qed.

(** Where regions are nested an element can come to be in another region: one
    that follows, in its div, a paragraph with a region of its own is in no region
    (C45), but is in that of the div once that paragraph is outside the window. *)
Definition doc_n_body : vbody :=
  mkVbody None None None None 0 (Some 10000000) []
   [VNode Div (Some "d") (Some "R1") None None None 0 (Some 10000000) ["s1"] (Some "R1")
     [VNode P (Some "p0") None None (at_ "00:00:00.000" 0) (at_ "00:00:10.000" 10000000) 0 (Some 10000000) ["s1"] (Some "R1") [VText "one"];
      VNode P (Some "p1") (Some "R2") None (at_ "00:00:00.000" 0) (at_ "00:00:05.000" 5000000) 0 (Some 5000000) [] (Some "R2") [VText "two"];
      VNode P (Some "p2") None None (at_ "00:00:05.000" 5000000) (at_ "00:00:10.000" 10000000) 5000000 (Some 10000000) [] None [VText "three"]]].
Definition doc_n : docu vbody :=
  mkDocu Media 7 (Some [("s1", mkStyle None (plain_style [(Color, "yellow")]))]) (Some [("R1", mkRegion (Some ["s1"]) None); ("R2", mkRegion None None)]) (Some doc_n_body).
Theorem C51_nested_region : exists d v sb se seg z avail cb ce t,
  segment d true sb se = GOk seg /\ t_body d = Some v /\ style_checked_at z d v /\
  validate avail (Some (timing_body (plain_body v))) = TOk (cb, ce, vtimes_body v) /\ 0 <= at_avail avail /\
  nn_body (timing_body (plain_body v)) /\ presentable sb se v /\ begin_ok sb /\ end_ok se /\ in_window sb se (ms_last t) = true /\
  flat_map glance (looks_at avail z (unchecked d) (ms_last t)) =
    [("d", (Some "R1", (Some "yellow", (Some "transparent", Some "auto"))));
     ("p0", (Some "R1", (Some "yellow", (Some "transparent", Some "auto"))));
     ("p2", (None, (Some "yellow", (Some "transparent", Some "auto"))))] /\
  flat_map glance (looks_at None z seg t) =
    [("SEQ7.d", (Some "SEQ7.R1", (Some "yellow", (Some "transparent", Some "auto"))));
     ("SEQ7.p0", (Some "SEQ7.R1", (Some "yellow", (Some "transparent", Some "auto"))));
     ("SEQ7.p2", (Some "SEQ7.R1", (Some "yellow", (Some "transparent", Some "auto"))))].
Proof.
  exists doc_n, doc_n_body, (Some 5000000), (Some 10000000), (cut_of doc_n (Some 5000000) (Some 10000000)), z0, None, 0, (Some 10000000), 7000000.
  split; [vm_compute; reflexivity|]. split; [reflexivity|]. split; [checked_at|]. split; [vm_compute; reflexivity|]. split; [cbn; lia|].
  split. { split; [|split; [|split]]; cbn; auto. ok_tree; cbn; auto; lia. }
  split. { split; [|split; [|split; [|split]]]; cbn [vb_kids doc_n_body]; ok_tree; try reflexivity; try (cbn; unfold h100; lia); discriminate. }
  split; [cbn; unfold h100; lia|]. split; [cbn; unfold h100; lia|]. split; [reflexivity|]. split; vm_compute; reflexivity.
Qed.

(** The style of a later body is lost in joining, and with it what its content
    inherits. *)
Definition tinted (i : string) (st : option (list string)) : docu bodyd :=
  mkDocu Media 1 (Some [(i ++ ".s", colour "red")]) (Some []) (Some (mkBodyd st None None None [par (i ++ ".p") None "text"])).
Theorem C51_body_style_lost : exists ds ns n x z t, splice ds n = POk x /\ Forall2 of_number ns ds /\ NoDup ns /\ Forall flat_doc ds /\
  Forall (fun d => exists c, body_computed z d = Some c) ds /\ Forall joinable ds /\
  map snd (flat_map glance (flat_map (fun d => looks_at None z d t) ds)) =
    [(None, (None, (Some "transparent", Some "auto"))); (None, (None, (Some "transparent", Some "auto")));
     (None, (Some "red", (Some "transparent", Some "auto"))); (None, (Some "red", (Some "transparent", Some "auto")))] /\
  map snd (flat_map glance (looks_at None z x t)) =
    [(None, (None, (Some "transparent", Some "auto"))); (None, (None, (Some "transparent", Some "auto")));
     (None, (None, (Some "transparent", Some "auto"))); (None, (None, (Some "transparent", Some "auto")))].
Proof.
  exists [tinted "SEQ1" None; tinted "SEQ2" (Some ["SEQ2.s"])], [1; 2], 9. eexists. exists z0, 1000000.
  split; [vm_compute; reflexivity|]. split.
  { constructor; [|constructor; [|constructor]]; (split; [lia|]); (split; [vm_compute; repeat (apply NoDup_cons; [cbn; intuition discriminate|]); apply NoDup_nil|]);
      intros i [<-|[<-|[]]]; [exists "s"|exists "p"|exists "s"|exists "p"]; vm_compute; reflexivity. }
  split; [repeat (apply NoDup_cons; [cbn; intuition discriminate|]); apply NoDup_nil|].
  split; [repeat constructor; intros b E; inversion E; subst; reflexivity|].
  split; [constructor; [|constructor; [|constructor]]; eexists; vm_compute; reflexivity|].
  split; [|split; vm_compute; reflexivity].
  constructor; [|constructor; [|constructor]]; intros b E; inversion E; subst; (split; [right; repeat split|]); split; repeat constructor; cbn; lia.
Qed.

Print Assumptions C51_segment_valid.
Print Assumptions C51_segment.
Print Assumptions C51_segment_body.
Print Assumptions C51_joined.
Print Assumptions C51_segments_joined.
Print Assumptions C51_nested_region.
Print Assumptions C51_body_style_lost.
