(** C47: a segment is complete and keeps no more than it may need. *)

From Coq Require Import List ZArith String Bool Lia Relations.
From Verif Require Import IdModel TimingModel TimeSpec StyleModel StyleProofs StyleTree PropsStyle PropsId SegmentModel SegmentSpec SegmentProofs
  SegmentHeadProofs PropsSegment.
Import ListNotations.
Open Scope Z_scope.

(** Lookups. *)
Lemma dict_get_pair : forall A (l : list (string * A)) i x, dict_get l i = Some x -> In (i, x) l.
Proof.
  induction l as [|[j y] l IH]; intros i x H; cbn in H; [discriminate|]. destruct (String.eqb_spec i j) as [->|Hn].
  - inversion H; subst. left. auto.
  - right. auto.
Qed.
Lemma dict_get_nodup : forall A (l : list (string * A)) i x, NoDup (map fst l) -> In (i, x) l -> dict_get l i = Some x.
Proof.
  induction l as [|[j y] l IH]; intros i x N H; [destruct H|]. cbn in N. inversion N as [|? ? Nj N']; subst. cbn.
  destruct H as [E|H].
  - inversion E; subst. rewrite String.eqb_refl. auto.
  - destruct (String.eqb_spec i j) as [->|Hn]; auto. exfalso. apply Nj. apply (in_map fst) in H. auto.
Qed.

Lemma table_style : forall B (d : docu B) b i s, In (i, KStyle s) (doc_table d b) <-> In (i, s) (els (t_styling d)).
Proof.
  intros B d b i s. unfold doc_table, head_table. rewrite !in_app_iff, !in_map_iff. split.
  - intros [[([j t] & E & H)|([j t] & E & H)]|(j & E & H)]; cbn in E; inversion E; subst; auto.
  - intros H. left. left. exists (i, s). auto.
Qed.
Lemma table_region : forall B (d : docu B) b i s, In (i, KRegion s) (doc_table d b) <-> In (i, s) (els (t_layout d)).
Proof.
  intros B d b i s. unfold doc_table, head_table. rewrite !in_app_iff, !in_map_iff. split.
  - intros [[([j t] & E & H)|([j t] & E & H)]|(j & E & H)]; cbn in E; inversion E; subst; auto.
  - intros H. left. right. exists (i, s). auto.
Qed.
Lemma table_ids : forall B (d : docu B) b,
  map fst (doc_table d b) = (map fst (els (t_styling d)) ++ map fst (els (t_layout d)) ++ body_ids b)%list.
Proof.
  intros B d b. unfold doc_table, head_table. rewrite !map_app, !map_map, <- app_assoc. cbn. rewrite map_id. auto.
Qed.

(** ** The parts of a segment *)

Definition needed (d : docu vbody) (v : vbody) sb se : list string := (needed_styles v sb se ++ needed_regions v sb se)%list.

(** Everything the theorems need. *)
Lemma head_main : forall d dec sb se seg v,
  segment d dec sb se = GOk seg -> t_body d = Some v -> style_checked d v ->
  let f := copy_ref dec (t_seq d) in let x := segment_ctx d v dec sb se in
  exists bd orph used, t_body seg = Some bd /\
    els (t_styling seg) = map (renamed_style f) (filter (fun s => mem (fst s) (x_styles x) && negb (mem (fst s) orph))%bool (els (t_styling d))) /\
    els (t_layout seg) = map (renamed_region f) (filter (fun s => mem (fst s) (x_regions x) && negb (mem (fst s) orph))%bool (els (t_layout d))) /\
    (forall i, In i orph <-> In i (needed d v sb se) /\ ~ In i (vb_styles v) /\
       forall w, In w used -> ~ In i (styles_of w) /\ ~ In i (own_regions w)) /\
    (forall w, In w used -> (exists u, In u (vb_kids v) /\ part u w) /\ copied x w /\ node_fine (doc_table d (plain_body v)) w) /\
    bd_style bd = option_map (map f) (vb_style v) /\ (forall j, In j (opt_list (vb_style v)) -> In j (x_styles x)) /\
    (forall j, In j (flat_map style_refs (bd_kids bd)) -> exists j0 w, j = f j0 /\ In w used /\ In j0 (own_styles w) /\ In j0 (x_styles x)) /\
    (forall j, In j (flat_map region_refs (bd_kids bd)) -> exists j0 w, j = f j0 /\ In w used /\ In j0 (own_regions w) /\ In j0 (x_regions x)) /\
    (forall s j, In s (els (t_styling d)) -> In (fst s) (x_styles x) -> In j (opt_list (s_refs (snd s))) -> In j (x_styles x)) /\
    (forall s j, In s (els (t_layout d)) -> In (fst s) (x_regions x) -> In j (opt_list (r_refs (snd s))) -> In j (x_styles x)) /\
    sublist (body_ids bd) (map f (body_ids (plain_body v))).
Proof.
  intros d dec sb se seg v S Bv Ck f x.
  destruct (segment_inv _ _ _ _ _ S) as (v' & styles & regions & bd0 & orph & stl & lay & bd & Q). cbv zeta in Q.
  destruct Q as (Bv' & Est & Ely & Cs & Cr & Cb & _ & _ & Hs & Hl & Hb & Bs & Bk & _). rewrite Bv in Bv'. inversion Bv'; subst v'. clear Bv'.
  fold x in Cs, Cr, Cb, Hs, Hl. rewrite Est, Ely. cbn [els].
  destruct (copy_styles_ok _ _ _ Cs) as [-> Rs]. destruct (copy_regions_ok _ _ _ Cr) as [-> Rr].
  unfold copy_body in Cb. destruct (is_in_segment _ _ _ _); [|discriminate].
  destruct (map_style x (vb_style v)) as [st'|] eqn:Ms; [|discriminate]. cbn [gbind] in Cb.
  destruct (copy_nodes x (vb_kids v) _) as [[ks o1]|] eqn:Ck'; [|discriminate]. cbn [gbind] in Cb. inversion Cb; subst bd0 orph. clear Cb.
  cbn [bd_style bd_kids] in Bs, Bk. destruct (map_style_ok _ _ _ Ms) as [-> Mx].
  destruct (kids_used x (vb_kids v)) with (2 := Ck') as (used & U1 & U2 & U3 & U4).
  { apply Forall_forall. intros w _. apply node_used. }
  destruct (checked_fine _ _ Ck) as (_ & _ & Fine). cbv zeta in Fine.
  exists bd, (unorphan (vb_styles v) o1), used.
  split; [auto|].
  split. { rewrite Hs, drop_map by auto. f_equal. apply filter_both. }
  split. { rewrite Hl. cbn [els]. rewrite drop_map by auto. f_equal. apply filter_both. }
  split. { intros i. rewrite unorphan_in, U1. unfold needed. tauto. }
  split.
  { intros w Hw. destruct (U2 _ Hw) as [(u & Hu & Pu) Cw]. split; [eauto|]. split; [auto|].
    rewrite Forall_forall in Fine. eapply Fine; eauto. }
  split; [auto|]. split. { intros j Hj. destruct (vb_style v); [|destruct Hj]. apply mem_iff. eauto. }
  rewrite Bk. split; [auto|]. split; [auto|]. split; [auto|]. split; [auto|].
  unfold body_ids. rewrite Bk. cbn [bd_kids plain_body]. eapply (copies_ids x); [|exact Ck'].
  apply Forall_forall. intros w _. apply copy_ids.
Qed.

(** The identifiers in the head of the segment. *)
Lemma kept_style_ids : forall (d : docu vbody) (p : string -> bool) f i, (forall a b, f a = f b -> a = b) ->
  In (f i) (map fst (map (renamed_style f) (filter (fun s => p (fst s)) (els (t_styling d))))) <->
  p i = true /\ In i (map fst (els (t_styling d))).
Proof.
  intros d p f i Inj. rewrite map_map. cbn [renamed_style fst]. rewrite !in_map_iff. split.
  - intros ([j s] & E & H). cbn in E. apply Inj in E. subst j. apply filter_In in H as [H1 H2]. split; auto. exists (i, s). auto.
  - intros [H1 ([j s] & E & H)]. cbn in E. subst j. exists (i, s). split; auto. apply filter_In. auto.
Qed.
Lemma kept_region_ids : forall (d : docu vbody) (p : string -> bool) f i, (forall a b, f a = f b -> a = b) ->
  In (f i) (map fst (map (renamed_region f) (filter (fun s => p (fst s)) (els (t_layout d))))) <->
  p i = true /\ In i (map fst (els (t_layout d))).
Proof.
  intros d p f i Inj. rewrite map_map. cbn [renamed_region fst]. rewrite !in_map_iff. split.
  - intros ([j s] & E & H). cbn in E. apply Inj in E. subst j. apply filter_In in H as [H1 H2]. split; auto. exists (i, s). auto.
  - intros [H1 ([j s] & E & H)]. cbn in E. subst j. exists (i, s). split; auto. apply filter_In. auto.
Qed.

Lemma x_styles_in : forall d v dec sb se i, In i (x_styles (segment_ctx d v dec sb se)) <->
  In i (map fst (els (t_styling d))) /\ In i (needed_styles v sb se).
Proof.
  intros d v dec sb se i. cbn [x_styles segment_ctx]. rewrite filter_In, mem_iff. unfold SegmentModel.ids, els. destruct (t_styling d); reflexivity.
Qed.
Lemma x_regions_in : forall d v dec sb se i, In i (x_regions (segment_ctx d v dec sb se)) <->
  In i (map fst (els (t_layout d))) /\ In i (needed_regions v sb se).
Proof.
  intros d v dec sb se i. cbn [x_regions segment_ctx]. rewrite filter_In, mem_iff. unfold SegmentModel.ids, els. destruct (t_layout d); reflexivity.
Qed.

Lemma not_orphan : forall b i o, (b && negb (mem i o) = true)%bool <-> b = true /\ ~ In i o.
Proof. intros b i o. rewrite andb_true_iff, negb_true_iff, mem_out. tauto. Qed.

(** A style and a region never share an identifier. *)
Lemma style_not_region : forall (d : docu vbody) b i, NoDup (map fst (doc_table d b)) ->
  In i (map fst (els (t_styling d))) -> ~ In i (map fst (els (t_layout d))).
Proof.
  intros d b i N H1 H2. rewrite table_ids in N. revert H1. induction (map fst (els (t_styling d))) as [|x l IH]; intros H1; [destruct H1|].
  cbn in N. inversion N as [|? ? Nx N']; subst. destruct H1 as [->|H1]; auto. apply Nx. rewrite !in_app_iff. auto.
Qed.

Lemma fine_region : forall (d : docu vbody) b w j, node_fine (doc_table d b) w -> In j (own_regions w) ->
  exists g, In (j, g) (els (t_layout d)) /\ forall x, In x (opt_list (r_refs g)) -> In x (styles_of w).
Proof.
  intros d b [ | |k i r st b' e cb ce vs inh kids] j F H; try destruct H. cbn in F. destruct F as (_ & _ & F).
  cbn in H. destruct (F _ H) as (g & G1 & G2). exists g. split; auto. apply table_region in G1. auto.
Qed.
Lemma fine_closed : forall (d : docu vbody) b w i s j, NoDup (map fst (doc_table d b)) -> node_fine (doc_table d b) w ->
  In i (styles_of w) -> In (i, s) (els (t_styling d)) -> In j (opt_list (s_refs s)) -> In j (styles_of w).
Proof.
  intros d b [tx| |k i' r st b' e cb ce vs inh kids] i s j N F H Hs Hj; try destruct H. cbn in F. destruct F as (F & _ & _).
  cbn in *. apply (proj2 (F i H)). exists s. destruct (s_refs s) as [l|] eqn:E; [|destruct Hj]. exists l. split; [|auto].
  unfold get_style. rewrite (dict_get_nodup _ _ i (KStyle s)); auto. apply table_style. auto.
Qed.
Lemma fine_own : forall d w j, node_fine d w -> In j (own_styles w) -> In j (styles_of w).
Proof. intros d [ | |k i r st b e cb ce vs inh kids] j F H; try destruct H. cbn in *. apply F. auto. Qed.

(** ** C47 *)

(** Every reference in the segment is to something in the segment. *)
Theorem C47_self_contained : forall d dec sb se seg v,
  segment d dec sb se = GOk seg -> t_body d = Some v -> style_checked d v ->
  exists bd, t_body seg = Some bd /\
    (forall j, In j (body_style_refs bd) -> In j (map fst (els (t_styling seg)))) /\
    (forall j, In j (body_region_refs bd) -> In j (map fst (els (t_layout seg)))) /\
    (forall i s j, In (i, s) (els (t_styling seg)) -> In j (opt_list (s_refs s)) -> In j (map fst (els (t_styling seg)))) /\
    (forall i g j, In (i, g) (els (t_layout seg)) -> In j (opt_list (r_refs g)) -> In j (map fst (els (t_styling seg)))).
Proof.
  intros d dec sb se seg v S Bv Ck. assert (Nd := proj1 Ck). assert (Cf := checked_fine _ _ Ck). cbv zeta in Cf.
  destruct (head_main _ _ _ _ _ _ S Bv Ck) as (bd & orph & used & Hb & Hs & Hl & Ho & Hu & Bs & Bx & Rs & Rr & Cs & Cr & _).
  set (f := copy_ref dec (t_seq d)) in *. set (x := segment_ctx d v dec sb se) in *.
  assert (Inj : forall a b, f a = f b -> a = b) by (intros a b; apply copy_ref_inj).
  assert (KS : forall j, In j (x_styles x) -> ~ In j orph -> In (f j) (map fst (els (t_styling seg)))).
  { intros j H1 H2. rewrite Hs. apply (kept_style_ids d (fun i => mem i (x_styles x) && negb (mem i orph))%bool); auto. split.
    - apply not_orphan. split; [apply mem_iff|]; auto.
    - apply x_styles_in in H1. tauto. }
  assert (KR : forall j, In j (x_regions x) -> ~ In j orph -> In (f j) (map fst (els (t_layout seg)))).
  { intros j H1 H2. rewrite Hl. apply (kept_region_ids d (fun i => mem i (x_regions x) && negb (mem i orph))%bool); auto. split.
    - apply not_orphan. split; [apply mem_iff|]; auto.
    - apply x_regions_in in H1. tauto. }
  assert (Uo : forall w j, In w used -> In j (styles_of w) \/ In j (own_regions w) -> ~ In j orph).
  { intros w j Hw Hj H. apply Ho in H as (_ & _ & H). destruct (H _ Hw). tauto. }
  assert (Bo : forall j, In j (vb_styles v) -> ~ In j orph) by (intros j Hj H; apply Ho in H; tauto).
  exists bd. split; [auto|]. split; [|split; [|split]].
  - intros j Hj. unfold body_style_refs in Hj. apply in_app_iff in Hj as [Hj|Hj].
    + rewrite Bs in Hj. destruct (vb_style v) as [l|] eqn:El; [|destruct Hj]. cbn in Hj. apply in_map_iff in Hj as (j0 & <- & Hj).
      apply KS; auto. apply Bo. apply (proj1 (proj2 Cf)). auto.
    + destruct (Rs _ Hj) as (j0 & w & -> & Hw & Ow & Xs). apply KS; auto. eapply Uo; eauto. left. eapply fine_own; eauto. apply Hu. auto.
  - intros j Hj. destruct (Rr _ Hj) as (j0 & w & -> & Hw & Ow & Xs). apply KR; auto. eapply Uo; eauto.
  - intros i s j Hi Hj. rewrite Hs in Hi. apply in_map_iff in Hi as ([i0 s0] & E & Hi). apply filter_In in Hi as [Hi Hk].
    apply not_orphan in Hk as [Hx Hn]. cbn [fst] in *. apply mem_iff in Hx. unfold renamed_style in E. cbn [fst snd] in E. inversion E; subst i s. clear E.
    cbn [s_refs] in Hj. destruct (s_refs s0) as [l|] eqn:El; [|destruct Hj]. cbn in Hj. apply in_map_iff in Hj as (j0 & <- & Hj).
    apply KS; [eapply (Cs (i0, s0)); cbn; eauto; rewrite El; auto|]. intros Ho0. apply Hn. apply Ho. split; [unfold needed; apply in_app_iff; left; apply x_styles_in in Hx; tauto|].
    apply Ho in Ho0 as (_ & N1 & N2). split.
    + intros H. apply N1. apply (proj2 (proj1 Cf i0 H)). exists s0, l. split; [|auto]. unfold get_style.
      rewrite (dict_get_nodup _ _ i0 (KStyle s0)); auto. apply table_style. auto.
    + intros w Hw. split; intros H.
      * destruct (N2 _ Hw) as [Q _]. apply Q. eapply fine_closed; eauto; [apply Hu; auto|]. rewrite El. auto.
      * destruct (fine_region d (plain_body v) w i0) as (g & G & _); auto; [apply Hu; auto|].
        eapply style_not_region; eauto; [apply (in_map fst) in Hi; exact Hi|apply (in_map fst) in G; exact G].
  - intros i g j Hi Hj. rewrite Hl in Hi. apply in_map_iff in Hi as ([i0 g0] & E & Hi). apply filter_In in Hi as [Hi Hk].
    apply not_orphan in Hk as [Hx Hn]. cbn [fst] in *. apply mem_iff in Hx. unfold renamed_region in E. cbn [fst snd] in E. inversion E; subst i g. clear E.
    cbn [r_refs] in Hj. destruct (r_refs g0) as [l|] eqn:El; [|destruct Hj]. cbn in Hj. apply in_map_iff in Hj as (j0 & <- & Hj).
    apply KS; [eapply (Cr (i0, g0)); cbn; eauto; rewrite El; auto|]. intros Ho0. apply Hn. apply Ho. split; [unfold needed; apply in_app_iff; right; apply x_regions_in in Hx; tauto|].
    apply Ho in Ho0 as (_ & N1 & N2). assert (NS : get_style (doc_table d (plain_body v)) i0 = None).
    { unfold get_style. rewrite (dict_get_nodup _ _ i0 (KRegion g0)); auto. apply table_region. auto. }
    split.
    + intros H. apply (proj1 Cf i0 H). auto.
    + intros w Hw. split; intros H.
      * assert (Fw := proj2 (proj2 (Hu _ Hw))). destruct w; try destruct H. destruct Fw as (Fw & _). apply (Fw i0 H). auto.
      * destruct (fine_region d (plain_body v) w i0) as (g & G & Gr); auto; [apply Hu; auto|].
        assert (E : g = g0).
        { assert (A1 := proj2 (table_region _ d (plain_body v) i0 g) G). assert (A2 := proj2 (table_region _ d (plain_body v) i0 g0) Hi).
          assert (B1 := dict_get_nodup _ _ _ _ Nd A1). rewrite (dict_get_nodup _ _ _ _ Nd A2) in B1. inversion B1. auto. }
        subst g. destruct (N2 _ Hw) as [Q _]. apply Q. apply Gr. rewrite El. auto.
Qed.

(** Its head consists of copies from the original's head, in the same order: of
    styles applicable to the body or to an element that is copied, and of regions
    an element that is copied names. *)
Theorem C47_head : forall d dec sb se seg v,
  segment d dec sb se = GOk seg -> t_body d = Some v -> style_checked d v ->
  let f := copy_ref dec (t_seq d) in let x := segment_ctx d v dec sb se in
  exists keep keep',
    els (t_styling seg) = map (renamed_style f) (filter (fun s => keep (fst s)) (els (t_styling d))) /\
    els (t_layout seg) = map (renamed_region f) (filter (fun s => keep' (fst s)) (els (t_layout d))) /\
    (forall i s, In (i, s) (els (t_styling d)) -> keep i = true ->
       In i (vb_styles v) \/ exists u w, In u (vb_kids v) /\ part u w /\ copied x w /\ In i (styles_of w)) /\
    (forall i g, In (i, g) (els (t_layout d)) -> keep' i = true ->
       exists u w, In u (vb_kids v) /\ part u w /\ copied x w /\ In i (own_regions w)).
Proof.
  intros d dec sb se seg v S Bv Ck f x. assert (Nd := proj1 Ck). assert (Cf := checked_fine _ _ Ck). cbv zeta in Cf.
  destruct (head_main _ _ _ _ _ _ S Bv Ck) as (bd & orph & used & Hb & Hs & Hl & Ho & Hu & _). fold f in Hs, Hl. fold x in Hs, Hl, Hu.
  exists (fun i => mem i (x_styles x) && negb (mem i orph))%bool, (fun i => mem i (x_regions x) && negb (mem i orph))%bool.
  split; [auto|]. split; [auto|].
  assert (Pick : forall i, In i (needed d v sb se) -> ~ In i orph -> In i (vb_styles v) \/
            exists w, In w used /\ (In i (styles_of w) \/ In i (own_regions w))).
  { intros i Hn Hi. destruct (in_dec string_dec i (vb_styles v)); auto. right.
    destruct (Exists_dec (fun w => In i (styles_of w) \/ In i (own_regions w)) used) as [E|E].
    - intros w. destruct (in_dec string_dec i (styles_of w)), (in_dec string_dec i (own_regions w)); tauto.
    - apply Exists_exists in E. exact E.
    - exfalso. apply Hi. apply Ho. split; auto. split; auto. intros w Hw.
      assert (Q : ~ (In i (styles_of w) \/ In i (own_regions w))) by (intros Q; apply E; apply Exists_exists; eauto). tauto. }
  split.
  - intros i s Hi K. apply not_orphan in K as [K1 K2]. apply mem_iff in K1. apply x_styles_in in K1 as [K1 K3].
    destruct (Pick i) as [H|(w & Hw & H)]; auto; [unfold needed; apply in_app_iff; auto|]. right.
    destruct (Hu _ Hw) as ((u & Hin & Pu) & Cw & Fw). exists u, w. destruct H as [H|H]; auto.
    exfalso. destruct (fine_region d (plain_body v) w i) as (g & G & _); auto.
    eapply style_not_region; eauto. apply (in_map fst) in G. exact G.
  - intros i g Hi K. apply not_orphan in K as [K1 K2]. apply mem_iff in K1. apply x_regions_in in K1 as [K1 K3].
    assert (NS : get_style (doc_table d (plain_body v)) i = None).
    { unfold get_style. rewrite (dict_get_nodup _ _ i (KRegion g)); auto. apply table_region. auto. }
    destruct (Pick i) as [H|(w & Hw & H)]; auto; [unfold needed; apply in_app_iff; auto|exfalso; apply (proj1 Cf i H); auto|].
    destruct (Hu _ Hw) as ((u & Hin & Pu) & Cw & Fw). exists u, w. destruct H as [H|H]; auto.
    exfalso. destruct w; try destruct H. destruct Fw as (Fw & _). apply (Fw i H). auto.
Qed.

(** Its identifiers are unique. *)
Theorem C47_unique : forall d dec sb se seg v,
  segment d dec sb se = GOk seg -> t_body d = Some v -> style_checked d v ->
  exists bd, t_body seg = Some bd /\ NoDup (map fst (doc_table seg bd)).
Proof.
  intros d dec sb se seg v S Bv Ck. assert (Nd := proj1 Ck).
  destruct (head_main _ _ _ _ _ _ S Bv Ck) as (bd & orph & used & Hb & Hs & Hl & _ & _ & _ & _ & _ & _ & _ & _ & Sub).
  set (f := copy_ref dec (t_seq d)) in *. exists bd. split; auto. rewrite table_ids in *.
  apply (sublist_nodup _ _ (map f (map fst (els (t_styling d)) ++ map fst (els (t_layout d)) ++ body_ids (plain_body v)))).
  - rewrite !map_app. apply sublist_app; [|apply sublist_app; auto].
    + rewrite Hs. assert (E : forall l, map fst (map (renamed_style f) l) = map f (map fst l)) by (intros l; rewrite !map_map; auto). rewrite E. apply sublist_map, sublist_map, sublist_filter.
    + rewrite Hl. assert (E : forall l, map fst (map (renamed_region f) l) = map f (map fst l)) by (intros l; rewrite !map_map; auto). rewrite E. apply sublist_map, sublist_map, sublist_filter.
  - apply nodup_map_inj; auto. intros a b. apply copy_ref_inj.
Qed.

(** ** Resolution in the segment *)

Lemma mem_map_inj : forall f i l, (forall a b : string, f a = f b -> a = b) -> mem (f i) (map f l) = mem i l.
Proof.
  intros f i l Inj. apply eq_iff_eq_true. rewrite !mem_iff, in_map_iff. split.
  - intros (y & E & H). apply Inj in E. congruence.
  - eauto.
Qed.
Lemma keep_first_map : forall f l, (forall a b : string, f a = f b -> a = b) -> keep_first (map f l) = map f (keep_first l).
Proof.
  intros f l Inj. induction l as [|x l IH]; cbn; auto. f_equal. rewrite IH. clear IH.
  induction (keep_first l) as [|y m IHm]; cbn; auto.
  destruct (String.eqb_spec (f y) (f x)) as [E|E], (String.eqb_spec y x) as [E'|E']; cbn; rewrite ?IHm; auto.
  - exfalso. auto.
  - exfalso. subst. auto.
Qed.

Lemma unfolds_renamed : forall d d' f (ok : string -> Prop),
  (forall i s, ok i -> get_style d i = Some s -> get_style d' (f i) = Some (mkStyle (option_map (map f) (s_refs s)) (setattr (s_attrs s) MultiRowAlign None))) ->
  (forall i s j, ok i -> get_style d i = Some s -> In j (opt_list (s_refs s)) -> ok j) ->
  (forall i u, unfolds d i u -> ok i -> unfolds d' (f i) (map f u) /\ forall j, In j u -> ok j) /\
  (forall l u, unfolds_all d l u -> (forall i, In i l -> ok i) -> unfolds_all d' (map f l) (map f u) /\ forall j, In j u -> ok j).
Proof.
  intros d d' f ok H1 H2. apply unfolds_mutind.
  - intros i s l G _ IH Ok. assert (Or : forall j, In j (match s_refs s with Some r => r | None => [] end) -> ok j).
    { intros j Hj. eapply H2; eauto. }
    destruct (IH Or) as [U A]. split; [|intros j [<-|Hj]; auto]. cbn [map]. econstructor; [apply H1; eauto|].
    cbn [s_refs]. destruct (s_refs s); exact U.
  - intros _. split; [constructor|intros j []].
  - intros i r l l' _ IH1 _ IH2 Ok. destruct (IH1 (Ok _ (or_introl eq_refl))) as [U1 A1].
    destruct (IH2 (fun j Hj => Ok j (or_intror Hj))) as [U2 A2]. cbn [map]. rewrite map_app. split; [constructor; auto|].
    intros j Hj. apply in_app_iff in Hj as [Hj|Hj]; auto.
Qed.

Lemma collect_unfolds : forall d calls l r, fst (collect_refs d (after_calls d calls) l) = SOk r ->
  exists u, unfolds_all d l u /\ r = keep_first u.
Proof. intros d calls l r H. assert (C := C28_element d calls l). rewrite H in C. destruct C as (_ & _ & _ & C). exact C. Qed.

Lemma unfolds_collect : forall d calls l u, unfolds_all d l u -> fst (collect_refs d (after_calls d calls) l) = SOk (keep_first u).
Proof.
  intros d calls l u U. assert (C := C28_element d calls l). destruct (fst (collect_refs d (after_calls d calls) l)) as [r|e].
  - destruct C as (_ & _ & _ & u' & U' & ->). rewrite (proj2 (unfolds_fun d) _ _ U _ U'). auto.
  - exfalso. destruct C as (i & Hi & C). destruct (unfolds_all_in _ _ _ _ U Hi) as (l0 & a & b & U0 & _).
    destruct C as [C|C]; [apply unfolds_inv in U0; tauto|apply C; eapply unfolds_sound; eauto].
Qed.

Lemma add_mra : forall a b, setattr (add a b) MultiRowAlign None = add (setattr a MultiRowAlign None) (setattr b MultiRowAlign None).
Proof. intros [] []. reflexivity. Qed.
Lemma resolve_mra : forall l, resolve_styles (map (fun a => setattr a MultiRowAlign None) l) = setattr (resolve_styles l) MultiRowAlign None.
Proof.
  intros l. unfold resolve_styles. assert (E : no_attrs = setattr no_attrs MultiRowAlign None) by reflexivity.
  rewrite E at 1. generalize no_attrs as s. induction l as [|a l IH]; intros s; cbn [map fold_left]; auto.
  rewrite <- add_mra. auto.
Qed.

(** References resolve in the segment as they do in the original, to styles with
    the same attributes save multiRowAlign, whatever was resolved before. *)
Theorem C47_same_styles : forall d dec sb se seg v,
  segment d dec sb se = GOk seg -> t_body d = Some v -> style_checked d v ->
  let f := copy_ref dec (t_seq d) in
  exists bd, t_body seg = Some bd /\
    forall l calls calls' r, (forall j, In j l -> In (f j) (map fst (els (t_styling seg)))) ->
      fst (collect_refs (doc_table d (plain_body v)) (after_calls (doc_table d (plain_body v)) calls) l) = SOk r ->
      fst (collect_refs (doc_table seg bd) (after_calls (doc_table seg bd) calls') (map f l)) = SOk (map f r) /\
      resolve_styles (map (attrs_of (doc_table seg bd)) (map f r)) =
      setattr (resolve_styles (map (attrs_of (doc_table d (plain_body v))) r)) MultiRowAlign None.
Proof.
  intros d dec sb se seg v S Bv Ck f. assert (Nd := proj1 Ck).
  destruct (C47_unique _ _ _ _ _ _ S Bv Ck) as (bd & Hb & Nd'). exists bd. split; auto.
  destruct (C47_self_contained _ _ _ _ _ _ S Bv Ck) as (bd' & Hb' & _ & _ & Cl & _). rewrite Hb in Hb'. inversion Hb'; subst bd'. clear Hb'.
  destruct (C47_head _ _ _ _ _ _ S Bv Ck) as (keep & keep' & Hs & _). fold f in Hs.
  assert (Inj : forall a b, f a = f b -> a = b) by (intros a b; apply copy_ref_inj).
  set (ok := fun j => In (f j) (map fst (els (t_styling seg)))).
  assert (H1 : forall i s, ok i -> get_style (doc_table d (plain_body v)) i = Some s ->
            get_style (doc_table seg bd) (f i) = Some (mkStyle (option_map (map f) (s_refs s)) (setattr (s_attrs s) MultiRowAlign None))).
  { intros i s Ok G. unfold get_style in G. destruct (dict_get _ i) as [[s'| |]|] eqn:E; inversion G; subst s'. clear G.
    apply dict_get_pair in E. apply table_style in E. unfold ok in Ok. rewrite Hs in Ok. apply kept_style_ids in Ok as [Kp _]; auto.
    unfold get_style. rewrite (dict_get_nodup _ _ (f i) (KStyle (snd (renamed_style f (i, s))))); auto. apply table_style.
    rewrite Hs. apply in_map_iff. exists (i, s). split; auto. apply filter_In. auto. }
  assert (H2 : forall i s j, ok i -> get_style (doc_table d (plain_body v)) i = Some s -> In j (opt_list (s_refs s)) -> ok j).
  { intros i s j Ok G Hj. specialize (H1 _ _ Ok G). unfold get_style in H1. destruct (dict_get _ (f i)) as [[s'| |]|] eqn:E; inversion H1; subst s'.
    apply dict_get_pair in E. apply table_style in E. unfold ok. eapply Cl; [exact E|]. cbn [s_refs]. destruct (s_refs s); [|destruct Hj].
    cbn. apply in_map. auto. }
  intros l calls calls' r Ok C. apply collect_unfolds in C as (u & U & ->).
  destruct (proj2 (unfolds_renamed _ _ f ok H1 H2) _ _ U Ok) as [U' Au].
  split; [rewrite <- keep_first_map; auto; apply unfolds_collect; auto|].
  rewrite <- resolve_mra, !map_map. f_equal. apply map_ext_in. intros j Hj. apply (keep_first_In u j) in Hj.
  assert (Gj : get_style (doc_table d (plain_body v)) j <> None).
  { apply (proj2 (unfolds_reach _) _ _ U) in Hj as (i & Hi & R). destruct (unfolds_all_in _ _ _ _ U Hi) as (l0 & a & b & U0 & _).
    apply (unfolds_sound _ _ _ U0). auto. }
  destruct (get_style (doc_table d (plain_body v)) j) as [s|] eqn:G; [|congruence].
  unfold attrs_of. rewrite (H1 _ _ (Au _ Hj) G), G. auto.
Qed.

(** ** Cases *)

Local Open Scope string_scope.

Example C47_case : style_checked doc1 doc1_body /\
  match segment doc1 true (Some 2000000) (Some 9000000) with
  | GOk seg => map fst (els (t_styling seg)) = ["SEQ7.s1"; "SEQ7.s2"] /\
               els (t_layout seg) = [("SEQ7.r1", mkRegion (Some ["SEQ7.s1"]) None)]
  | GErr _ => False
  end /\
  match segment doc1 true (Some 7000000) (Some 9000000) with
  | GOk seg => map fst (els (t_styling seg)) = ["SEQ7.s1"]
  | GErr _ => False
  end.
Proof. split; [checked|]. vm_compute. auto. Qed.

(** More than needed is kept: a style that nothing in the segment refers to, left
    over from a div before the window (its styles stay on the stack, C46). *)
Definition doc9_body : vbody :=
  mkVbody None None None None 0 (Some 9000000) []
   [VNode Div (Some "d1") None (Some ["s1"]) None None 0 (Some 3000000) ["s1"] None
     [VNode P (Some "p1") None None None (Some (mkTattr "00:00:03.000" 3000000)) 0 (Some 3000000) ["s1"] None [VText "Hello"]];
    VNode Div (Some "d2") None None None None 0 (Some 9000000) ["s1"] None
     [VNode P (Some "p2") None None None (Some (mkTattr "00:00:09.000" 9000000)) 0 (Some 9000000) ["s1"] None [VText "world"]]].
Theorem C47_left_over : exists d v sb se seg bd, t_body d = Some v /\ style_checked d v /\
  validate None (Some (timing_body (plain_body v))) = TOk (vb_cb v, vb_ce v, vtimes_body v) /\
  segment d false sb se = GOk seg /\ t_body seg = Some bd /\
  map fst (els (t_styling seg)) = ["s1"] /\ els (t_layout seg) = [] /\ body_style_refs bd = [] /\ bd_kids bd <> [].
Proof.
  set (d := mkDocu Media 1 (Some [("s1", mkStyle None no_attrs)]) (Some []) (Some doc9_body)).
  exists d, doc9_body, (Some 5000000), (Some 6000000).
  destruct (segment d false (Some 5000000) (Some 6000000)) as [seg|] eqn:E; [|vm_compute in E; discriminate].
  vm_compute in E. inversion E; subst seg. eexists _, _. split; [reflexivity|]. split; [checked|]. split; [vm_compute; reflexivity|].
  split; [reflexivity|]. split; [reflexivity|]. repeat split. discriminate.
Qed.

Print Assumptions C47_self_contained.
Print Assumptions C47_head.
Print Assumptions C47_unique.
Print Assumptions C47_same_styles.
Print Assumptions C47_left_over.
