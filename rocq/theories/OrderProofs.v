(** The timeline when documents come in any order: proofs. *)
From Verif Require Import SequenceModel SequenceSpec SequenceProofs SequenceHistory OrderSpec.
From Coq Require Import Sorting.Sorted ZifyBool ZifyNat.
Open Scope Z_scope.

(** * Lists of events *)

Definition ev_le (a b : event document) : Prop := ev_when a <= ev_when b.
Notation sorted := (StronglySorted ev_le).
Definition evb (b : block) : event document := ev_begin (fst b).

Lemma sorted_cut t tl : sorted tl -> exists F R, tl = F ++ R /\ (forall x, In x F -> ev_when x <= t) /\ (forall x, In x R -> t < ev_when x).
Proof.
  induction 1 as [|a l Hs IH Hf].
  - exists [], []. repeat split; intros ? [].
  - destruct (Z.le_gt_cases (ev_when a) t) as [Hle|Hgt].
    + destruct IH as (F & R & -> & H1 & H2). exists (a :: F), R. split; [reflexivity|]. split; [|assumption].
      intros x [<-|Hx]; auto.
    + exists [], (a :: l). split; [reflexivity|]. split; [intros ? []|]. rewrite Forall_forall in Hf.
      intros x [<-|Hx]; [assumption|]. specialize (Hf x Hx). unfold ev_le in Hf. lia.
Qed.

Lemma cut_unique {A} (P : A -> Prop) a b c d :
  (forall x, In x a -> P x) -> (forall x, In x b -> ~ P x) -> (forall x, In x c -> P x) -> (forall x, In x d -> ~ P x) ->
  a ++ b = c ++ d -> a = c /\ b = d.
Proof.
  revert c. induction a as [|x a IH]; intros [|y c] Ha Hb Hc Hd E; simpl in E.
  - auto.
  - exfalso. apply (Hb y); [rewrite E; left; reflexivity|apply Hc; left; reflexivity].
  - exfalso. apply (Hd x); [rewrite <- E; left; reflexivity|apply Ha; left; reflexivity].
  - injection E as -> E. destruct (IH c) as [-> ->]; auto using in_cons.
Qed.

Lemma tl_add_split e tl : sorted tl -> exists a b, tl = a ++ b /\ tl_add e tl = a ++ e :: b
  /\ (forall x, In x a -> ev_when x <= ev_when e) /\ (forall x, In x b -> ev_when e < ev_when x).
Proof.
  intros Hs. destruct (sorted_cut (ev_when e) tl Hs) as (F & R & -> & H1 & H2). exists F, R.
  repeat split; auto. apply tl_add_mid; assumption.
Qed.

Lemma sorted_add e tl : sorted tl -> sorted (tl_add e tl).
Proof.
  intros Hs. destruct (tl_add_split e tl Hs) as (a & b & -> & -> & H1 & H2).
  apply StronglySorted_app in Hs. destruct Hs as (Ha & Hb & Hr). apply StronglySorted_app. split; [assumption|]. split.
  - constructor; [assumption|]. apply Forall_forall. intros x Hx. specialize (H2 x Hx). unfold ev_le. lia.
  - intros x y Hx [<-|Hy]; [apply H1; assumption|apply Hr; assumption].
Qed.

Lemma filter_add_no (f : event document -> bool) e tl : sorted tl -> f e = false -> filter f (tl_add e tl) = filter f tl.
Proof.
  intros Hs Hf. destruct (tl_add_split e tl Hs) as (a & b & -> & -> & _ & _). rewrite !filter_app. simpl. rewrite Hf. reflexivity.
Qed.

Lemma filter_add_yes (f : event document -> bool) e tl : sorted tl -> f e = true -> filter f (tl_add e tl) = tl_add e (filter f tl).
Proof.
  intros Hs Hf. destruct (tl_add_split e tl Hs) as (a & b & -> & -> & H1 & H2). rewrite !filter_app. simpl. rewrite Hf.
  symmetry. apply tl_add_mid; intros x Hx; apply filter_In in Hx; [apply H1|apply H2]; tauto.
Qed.

Lemma nth_split {A} i (l : list A) x : nth_error l i = Some x -> exists a b, l = a ++ x :: b /\ remove_at i l = a ++ b.
Proof.
  revert i. induction l as [|y l IH]; intros [|i] H; simpl in *; try discriminate.
  - injection H as ->. exists [], l. auto.
  - destruct (IH i H) as (a & b & -> & ->). exists (y :: a), b. auto.
Qed.

Lemma enum_nth {A} (l : list A) : forall n i x, In (i, x) (enum_from n l) -> (n <= i)%nat /\ nth_error l (i - n) = Some x.
Proof.
  induction l as [|y l IH]; intros n i x H; simpl in H; [destruct H|].
  destruct H as [H|H].
  - injection H as <- <-. rewrite Nat.sub_diag. auto.
  - destruct (IH _ _ _ H) as [H1 H2]. split; [lia|]. replace (i - n)%nat with (S (i - S n)) by lia. exact H2.
Qed.

Lemma enum_fst_inj {A} (l : list A) n i x y : In (i, x) (enum_from n l) -> In (i, y) (enum_from n l) -> x = y.
Proof. intros H1 H2. apply enum_nth in H1, H2. destruct H1 as [_ H1], H2 as [_ H2]. congruence. Qed.

Lemma filter_enum {A} (f : A -> bool) (l : list A) n : map snd (filter (fun p => f (snd p)) (enum_from n l)) = filter f l.
Proof.
  revert n. induction l as [|x l IH]; intros n; simpl; [reflexivity|]. destruct (f x); simpl; rewrite IH; reflexivity.
Qed.

Lemma filter_split {A} (f : A -> bool) tl : forall l1 x l2, filter f tl = l1 ++ x :: l2 ->
  exists m1 m2, tl = m1 ++ x :: m2 /\ filter f m1 = l1.
Proof.
  induction tl as [|y tl IH]; intros l1 x l2 H; simpl in H; [destruct l1; discriminate|].
  destruct (f y) eqn:Hf.
  - destruct l1 as [|z l1]; simpl in H; injection H as <- H.
    + exists [], tl. auto.
    + destruct (IH _ _ _ H) as (m1 & m2 & -> & E). exists (y :: m1), m2. simpl. rewrite Hf, E. auto.
  - destruct (IH _ _ _ H) as (m1 & m2 & -> & E). exists (y :: m1), m2. simpl. rewrite Hf, E. auto.
Qed.

(** * What is kept true of the timeline *)

Definition has_end (tl : list (event document)) (p : document) (x : Z) : Prop := In (mkEvent KEnd x p) tl.

Definition end_is (tl : list (event document)) (p : document) (e : option Z) : Prop :=
  match e with
  | None => forall x, ~ has_end tl p x
  | Some x => has_end tl p x /\ forall y, has_end tl p y -> x <= y
  end.

Definition first_begin (tl : list (event document)) : Prop :=
  forall l1 e l2, tl = l1 ++ e :: l2 -> ev_kind e = KEnd -> In (ev_begin (ev_elem e)) l1.

(** The begins are those of the blocks, and the end of a block is the first of
    the end events the document has; there may be more. *)
Record tinv (tl : list (event document)) (bs : list block) : Prop := {
  t_sorted : sorted tl;
  t_chain : chain bs;
  t_obj : NoDup (map bobj bs);
  t_begins : filter is_begin tl = map evb bs;
  t_ends : forall p e, In (p, e) bs -> end_is tl p e;
  t_elem : forall e, In e tl -> In (ev_elem e) (map fst bs);
  t_first : first_begin tl }.

Lemma tinv_begin tl bs e : tinv tl bs -> In e tl -> ev_kind e = KBegin -> exists b, In b bs /\ e = evb b.
Proof.
  intros T H K. assert (X : In e (filter is_begin tl)) by (apply filter_In; unfold is_begin; rewrite K; auto).
  rewrite (t_begins _ _ T) in X. apply in_map_iff in X. destruct X as (b & <- & Hb). eauto.
Qed.

Lemma tinv_block tl bs b : tinv tl bs -> In b bs -> In (evb b) tl.
Proof.
  intros T H. assert (X : In (evb b) (filter is_begin tl)) by (rewrite (t_begins _ _ T); apply in_map; assumption).
  apply filter_In in X. tauto.
Qed.

Lemma tinv_late tl bs e : tinv tl bs -> In e tl -> d_begin (ev_elem e) <= ev_when e.
Proof.
  intros T H. destruct (ev_kind e) eqn:K.
  - destruct (tinv_begin _ _ _ T H K) as (b & _ & ->). simpl. lia.
  - apply in_split in H. destruct H as (l1 & l2 & E). pose proof (t_first _ _ T _ _ _ E K) as B.
    pose proof (t_sorted _ _ T) as Hs. rewrite E in Hs. apply StronglySorted_app in Hs. destruct Hs as (_ & _ & Hr).
    specialize (Hr _ e B (or_introl eq_refl)). exact Hr.
Qed.

Lemma tinv_nodup tl bs : tinv tl bs -> NoDup (filter is_begin tl).
Proof.
  intros T. rewrite (t_begins _ _ T). apply (NoDup_map_inv (fun e => d_obj (ev_elem e))). rewrite map_map. exact (t_obj _ _ T).
Qed.

Lemma in_bs_unique bs p q e e' : chain bs -> In (p, e) bs -> In (q, e') bs -> d_num p = d_num q -> p = q /\ e = e'.
Proof.
  intros Hc H1 H2 Hn. destruct (chain_order _ _ _ Hc H1 H2) as [E|[(E & _)|(E & _)]]; simpl in *; [|lia|lia].
  injection E as -> ->. auto.
Qed.

(** An end event of a document comes after the only begin event of it. *)
Lemma end_after tl bs l1 y l2 x : tinv tl bs -> tl = l1 ++ ev_begin y :: l2 -> has_end tl y x -> In (mkEvent KEnd x y) l2.
Proof.
  intros T E H. unfold has_end in H. rewrite E in H. apply in_app_iff in H. destruct H as [H|[H|H]]; [|discriminate|assumption].
  exfalso. apply in_split in H. destruct H as (a & b & ->). rewrite <- app_assoc in E. simpl in E.
  pose proof (t_first _ _ T _ _ _ E eq_refl) as B. simpl in B.
  pose proof (tinv_nodup _ _ T) as N. rewrite E in N. apply in_split in B. destruct B as (a1 & a2 & ->).
  rewrite <- !app_assoc in N. simpl in N. rewrite filter_app in N. simpl in N. apply NoDup_remove_2 in N. apply N.
  apply in_app_iff. right. apply filter_In. split; [|reflexivity]. apply in_app_iff. right. right. apply in_app_iff. right. left. reflexivity.
Qed.

(** The events up to a time have the begins of the blocks up to that time. *)
Lemma tinv_split tl bs t : tinv tl bs -> exists F R pre post,
  tl = F ++ R /\ bs = pre ++ post /\ (forall x, In x F -> ev_when x <= t) /\ (forall x, In x R -> t < ev_when x) /\
  Forall (fun b => d_begin (fst b) <= t) pre /\ Forall (fun b => t < d_begin (fst b)) post /\
  filter is_begin F = map evb pre /\ filter is_begin R = map evb post.
Proof.
  intros T. destruct (sorted_cut t tl (t_sorted _ _ T)) as (F & R & E & H1 & H2).
  destruct (chain_split bs t (t_chain _ _ T)) as (pre & post & E' & H3 & H4).
  exists F, R, pre, post. repeat (split; [assumption|]).
  pose proof (t_begins _ _ T) as B. rewrite E, E', filter_app, map_app in B.
  apply (cut_unique (fun e => ev_when e <= t)) in B; [assumption| | | |].
  - intros x Hx. apply filter_In in Hx. apply H1. tauto.
  - intros x Hx. apply filter_In in Hx. destruct Hx as [Hx _]. specialize (H2 x Hx). lia.
  - intros x Hx. apply in_map_iff in Hx. destruct Hx as (b & <- & Hb). rewrite Forall_forall in H3. apply H3. assumption.
  - intros x Hx. apply in_map_iff in Hx. destruct Hx as (b & <- & Hb). rewrite Forall_forall in H4. specialize (H4 b Hb).
    unfold evb. simpl. simpl in H4. lia.
Qed.

(** * The backward loop *)

Inductive back_spec (d : document) (pre : list block) : scan -> Prop :=
| bk_bad : back_spec d pre SInconsistent
| bk_old o e : In (o, e) pre -> d_num d < d_num o -> back_spec d pre (SDiscarded o)
| bk_none : (forall pre' y e, pre = pre' ++ [(y, e)] -> d_num y < d_num d /\ end_le e (d_begin d) = true) ->
    back_spec d pre (SOk None)
| bk_run pre' y e : pre = pre' ++ [(y, e)] -> d_num y < d_num d -> end_le e (d_begin d) = false ->
    back_spec d pre (SOk (Some (ev_begin y))).

Lemma last_begin F B tail pre : filter is_begin F = map evb pre -> F = B ++ tail -> filter is_begin tail = [] ->
  forall B' y, B = B' ++ [ev_begin y] -> exists pre' e, pre = pre' ++ [(y, e)].
Proof.
  intros HF -> Ht B' y ->. rewrite filter_app, Ht, app_nil_r, filter_app in HF. simpl in HF.
  destruct (list_snoc_cases pre) as [->|(pre' & [p e] & ->)].
  - apply app_eq_nil in HF. destruct HF. discriminate.
  - rewrite map_app in HF. simpl in HF. apply app_inj_tail in HF. destruct HF as [_ HF].
    unfold evb in HF. simpl in HF. injection HF as HF. subst. eauto.
Qed.

Lemma scan_back_any tl bs d pre post :
  tinv tl bs -> bs = pre ++ post ->
  Forall (fun b => d_begin (fst b) <= d_begin d) pre -> Forall (fun b => d_begin d < d_begin (fst b)) post ->
  (forall b, In b bs -> d_num (fst b) <> d_num d) ->
  back_spec d pre (scan_back d None (rev (irange_upto (Some (d_begin d)) tl))).
Proof.
  intros T Ebs Hpre Hpost Hfr.
  destruct (tinv_split tl bs (d_begin d) T) as (F & R & pre0 & post0 & Etl & E0 & HF & HR & Hp0 & Hq0 & BF & BR).
  assert (pre0 = pre).
  { rewrite Forall_forall in Hpre, Hpost, Hp0, Hq0. rewrite Ebs in E0.
    apply (cut_unique (fun b => d_begin (fst b) <= d_begin d)) in E0; [symmetry; tauto| | | |]; auto.
    - intros x Hx. specialize (Hpost x Hx). simpl in Hpost. lia.
    - intros x Hx. specialize (Hq0 x Hx). simpl in Hq0. lia. }
  subst pre0. clear E0 Hp0 Hq0 BR post0.
  assert (EF : irange_upto (Some (d_begin d)) tl = F).
  { simpl. rewrite Etl, filter_app, filter_all, filter_none, app_nil_r; auto.
    - intros x Hx. specialize (HR x Hx). lia.
    - intros x Hx. specialize (HF x Hx). lia. }
  rewrite EF.
  (* an event up to now belongs to a block up to now *)
  assert (IN : forall ev, In ev F -> exists e, In (ev_elem ev, e) pre).
  { intros ev Hev. assert (Hev' : In ev tl) by (rewrite Etl; apply in_app_iff; auto).
    pose proof (t_elem _ _ T _ Hev') as Hel. apply in_map_iff in Hel. destruct Hel as ([p e] & Hp & Hin). simpl in Hp. subst p.
    exists e. rewrite Ebs in Hin. apply in_app_iff in Hin. destruct Hin as [Hin|Hin]; [assumption|exfalso].
    rewrite Forall_forall in Hpost. specialize (Hpost _ Hin). simpl in Hpost.
    pose proof (tinv_late _ _ _ T Hev'). specialize (HF _ Hev). lia. }
  assert (NUM : forall ev, In ev F -> d_num (ev_elem ev) <> d_num d).
  { intros ev Hev. destruct (IN _ Hev) as (e & He). apply (Hfr (ev_elem ev, e)). rewrite Ebs. apply in_app_iff. auto. }
  assert (OLD : forall ev, In ev F -> d_num d < d_num (ev_elem ev) -> back_spec d pre (SDiscarded (ev_elem ev))).
  { intros ev Hev Hn. destruct (IN _ Hev) as (e & He). eapply bk_old; eauto. }
  destruct (list_snoc_cases F) as [->|(F1 & it & ->)].
  { simpl. apply bk_none. intros pre' y e ->. rewrite map_app in BF. destruct (map evb pre'); discriminate. }
  rewrite rev_app_distr. simpl.
  assert (I1 : In it (F1 ++ [it])) by (apply in_app_iff; right; left; reflexivity).
  destruct (Z.gtb_spec (d_num (ev_elem it)) (d_num d)) as [Hgt|Hle]; [apply OLD; auto; lia|].
  destruct (ev_kind it) eqn:K1.
  - (* a begin: its document runs *)
    assert (Hit : In it tl) by (rewrite Etl; apply in_app_iff; auto).
    destruct (tinv_begin _ _ _ T Hit K1) as ([y e0] & _ & ->). unfold evb in *. simpl in *.
    destruct (last_begin _ (F1 ++ [ev_begin y]) [] pre BF) with (B' := F1) (y := y) as (pre' & e & ->); auto; [rewrite app_nil_r; reflexivity|].
    apply (bk_run _ _ pre' y e); auto.
    + specialize (NUM _ I1). simpl in NUM. lia.
    + destruct e as [x|]; [|reflexivity]. simpl. apply Z.leb_gt.
      assert (HE : In (y, Some x) bs) by (rewrite Ebs; rewrite !in_app_iff; left; right; left; reflexivity).
      pose proof (t_ends _ _ T _ _ HE) as [HE' _].
      assert (In (mkEvent KEnd x y) R).
      { apply (end_after tl bs F1 y R x T); auto. rewrite Etl, <- app_assoc. reflexivity. }
      specialize (HR _ H). simpl in HR. exact HR.
  - (* an end *)
    destruct (list_snoc_cases F1) as [->|(F2 & it2 & ->)].
    { exfalso. assert (X : tl = [] ++ it :: R) by (rewrite Etl; reflexivity). pose proof (t_first _ _ T _ _ _ X K1) as []. }
    rewrite rev_app_distr. simpl.
    assert (I2 : In it2 ((F2 ++ [it2]) ++ [it])) by (rewrite !in_app_iff; left; right; left; reflexivity).
    destruct (Z.gtb_spec (d_num (ev_elem it2)) (d_num d)) as [Hgt|Hle2]; [apply OLD; auto; lia|].
    destruct (ev_kind it2) eqn:K2; [|apply bk_bad].
    assert (Hit2 : In it2 tl) by (rewrite Etl; apply in_app_iff; auto).
    destruct (tinv_begin _ _ _ T Hit2 K2) as ([y e0] & Hy0 & ->). unfold evb in *. simpl in *.
    destruct (last_begin _ (F2 ++ [ev_begin y]) [it] pre BF) with (B' := F2) (y := y) as (pre' & e & ->); auto.
    { simpl. unfold is_begin. rewrite K1. reflexivity. }
    assert (HE : In (y, e) bs) by (rewrite Ebs; rewrite !in_app_iff; left; right; left; reflexivity).
    assert (Hyn : d_num y < d_num d) by (specialize (NUM _ I2); simpl in NUM; lia).
    destruct (IN _ I1) as (ei & Hei).
    assert (Hei' : In (ev_elem it, ei) bs) by (rewrite Ebs; apply in_app_iff; auto).
    pose proof (t_ends _ _ T _ _ HE) as EI.
    unfold doc_eqb. destruct (Z.eqb_spec (d_num (ev_elem it)) (d_num y)) as [Hq|Hq].
    + destruct (in_bs_unique _ _ _ _ _ (t_chain _ _ T) Hei' HE Hq) as [Hel _].
      apply bk_none. intros pre'' y' e' Heq. apply app_inj_tail in Heq. destruct Heq as [<- Heq]. injection Heq as <- <-.
      split; [assumption|].
      assert (Hend : has_end tl y (ev_when it)).
      { unfold has_end. rewrite Etl. apply in_app_iff. left. destruct it as [k w el]. simpl in *. subst k el. exact I1. }
      destruct e as [x|]; simpl in EI; [|exfalso; eapply EI; eassumption].
      destruct EI as [_ EI]. specialize (EI _ Hend). specialize (HF _ I1). simpl. lia.
    + apply (bk_run _ _ pre' y e); auto.
      destruct e as [x|]; [|reflexivity]. simpl. apply Z.leb_gt. simpl in EI. destruct EI as [EI _].
      assert (X : In (mkEvent KEnd x y) ([it] ++ R)).
      { apply (end_after tl bs F2 y ([it] ++ R) x T); auto. rewrite Etl, <- !app_assoc. reflexivity. }
      apply in_app_iff in X. destruct X as [[X|[]]|X]; [subst it; simpl in Hq; congruence|].
      specialize (HR _ X). simpl in HR. exact HR.
Qed.

(** * The forward loop *)

Inductive fwd_spec (d : document) (te : option Z) (bb : option (event document)) (evs : list (nat * event document))
  (ea : option (nat * event document)) : fscan -> Prop :=
| fw_over i it : In (i, it) evs -> ev_kind it = KBegin -> d_num (ev_elem it) < d_num d -> fwd_spec d te bb evs ea FOverridden
| fw_bad : fwd_spec d te bb evs ea FInconsistent
| fw_type : te = None -> fwd_spec d te bb evs ea FTypeError
| fw_all ea' :
    (forall q, In q evs -> ev_kind (snd q) = KEnd /\ bb_ok bb (snd q)) ->
    (ea' = ea \/ exists q, In q evs /\ ea' = Some q) ->
    fwd_spec d te bb evs ea (FOk ea' None)
| fw_next ea' ends i r rest x :
    evs = ends ++ (i, r) :: rest -> ev_kind r = KBegin -> d_num d < d_num (ev_elem r) -> te = Some x ->
    (forall q, In q ends -> ev_kind (snd q) = KEnd /\ bb_ok bb (snd q)) ->
    (ea' = ea \/ exists q, In q ends /\ ea' = Some q) ->
    fwd_spec d te bb evs ea (FOk ea' (if x >? ev_when r then Some (ev_when r) else None)).

Lemma scan_fwd_any d te bb evs : (forall q, In q evs -> d_num (ev_elem (snd q)) <> d_num d) ->
  forall ea, fwd_spec d te bb evs ea (scan_fwd d te bb evs ea).
Proof.
  induction evs as [|[i it] evs IH]; intros Hn ea.
  - simpl. apply fw_all; [intros ? []|auto].
  - assert (Hn' : forall q, In q evs -> d_num (ev_elem (snd q)) <> d_num d) by (intros q Hq; apply Hn; right; exact Hq).
    specialize (IH Hn'). pose proof (Hn _ (or_introl eq_refl)) as Hni. simpl in Hni.
    destruct (ev_kind it) eqn:K.
    + simpl. rewrite K. destruct (Z.gtb_spec (d_num d) (d_num (ev_elem it))) as [Hlt|Hge].
      * apply (fw_over _ _ _ _ _ i it); [left; reflexivity|assumption|lia].
      * destruct (Z.gtb_spec (d_num (ev_elem it)) (d_num d)) as [Hgt|]; [|lia].
        destruct te as [x|]; [|apply fw_type; reflexivity].
        apply (fw_next _ _ _ _ _ ea [] i it evs x); auto. intros ? [].
    + assert (D : scan_fwd d te bb ((i, it) :: evs) ea = FInconsistent \/ bb_ok bb it).
      { simpl. rewrite K. destruct bb as [b|]; [|right; exact I]. unfold doc_eqb, bb_ok.
        destruct (Z.eqb_spec (d_num (ev_elem it)) (d_num (ev_elem b))); [auto|].
        destruct (Z.eqb_spec (ev_when it) (ev_when b)); auto. }
      destruct D as [->|Hok]; [apply fw_bad|].
      rewrite scan_fwd_end by assumption. specialize (IH (Some (i, it))).
      remember (scan_fwd d te bb evs (Some (i, it))) as r eqn:Er. clear Er. destruct IH as [j jt H1 H2 H3| |H1|ea' H1 H2|ea' ends j r rest x H1 H2 H3 H4 H5 H6].
      * apply (fw_over _ _ _ _ _ j jt); auto. right; assumption.
      * apply fw_bad.
      * apply fw_type; assumption.
      * apply fw_all.
        -- intros q [<-|Hq]; [auto|apply H1; assumption].
        -- right. destruct H2 as [->|(q & Hq & ->)]; [exists (i, it)|exists q]; split; auto; [left; reflexivity|right; assumption].
      * apply (fw_next _ _ _ _ _ ea' ((i, it) :: ends) j r rest x); auto.
        -- rewrite H1. reflexivity.
        -- intros q [<-|Hq]; [auto|apply H5; assumption].
        -- right. destruct H6 as [->|(q & Hq & ->)]; [exists (i, it)|exists q]; split; auto; [left; reflexivity|right; assumption].
Qed.

(** * Inserting *)

Lemma first_add e tl : sorted tl -> first_begin tl ->
  (ev_kind e = KEnd -> In (ev_begin (ev_elem e)) tl /\ d_begin (ev_elem e) <= ev_when e) -> first_begin (tl_add e tl).
Proof.
  intros Hs Hf He. destruct (tl_add_split e tl Hs) as (a & b & -> & -> & H1 & H2).
  intros l1 x l2 E K.
  assert (C : (exists l, a = l1 ++ x :: l) \/ (l1 = a /\ x = e) \/ (exists l, l1 = a ++ e :: l /\ b = l ++ x :: l2)).
  { clear - E. revert l1 E. induction a as [|y a IH]; intros l1 E; simpl in E.
    - destruct l1 as [|z l1]; simpl in E; injection E as <- E; [auto|]. right. right. exists l1. auto.
    - destruct l1 as [|z l1]; simpl in E; injection E as <- E; [left; exists a; reflexivity|].
      destruct (IH _ E) as [(l & ->)|[(-> & ->)|(l & -> & ->)]]; [left; exists l; reflexivity|auto|right; right; exists l; auto]. }
  destruct C as [(l & ->)|[(-> & ->)|(l & -> & ->)]].
  - apply (Hf l1 x (l ++ b)); [rewrite <- app_assoc; reflexivity|assumption].
  - destruct (He K) as [Hi Hw]. apply in_app_iff in Hi. destruct Hi as [Hi|Hi]; [assumption|]. specialize (H2 _ Hi). simpl in H2. lia.
  - assert (X : In (ev_begin (ev_elem x)) (a ++ l)) by (apply (Hf (a ++ l) x l2); [rewrite <- app_assoc; reflexivity|assumption]).
    apply in_app_iff in X. apply in_app_iff. simpl. tauto.
Qed.

Lemma first_remove a it b : ev_kind it = KEnd -> first_begin (a ++ it :: b) -> first_begin (a ++ b).
Proof.
  intros K Hf l1 x l2 E Kx.
  assert (C : (exists l, a = l1 ++ x :: l) \/ (exists l, l1 = a ++ l /\ b = l ++ x :: l2)).
  { clear - E. revert l1 E. induction a as [|y a IH]; intros l1 E; simpl in E; [right; exists l1; auto|].
    destruct l1 as [|z l1]; simpl in E; injection E as <- E; [left; exists a; reflexivity|].
    destruct (IH _ E) as [(l & ->)|(l & -> & ->)]; [left; exists l; reflexivity|right; exists l; auto]. }
  destruct C as [(l & ->)|(l & -> & ->)].
  - apply (Hf l1 x (l ++ it :: b)); [rewrite <- app_assoc; reflexivity|assumption].
  - assert (X : In (ev_begin (ev_elem x)) (a ++ it :: l)) by (apply (Hf (a ++ it :: l) x l2); [rewrite <- app_assoc; reflexivity|assumption]).
    apply in_app_iff in X. apply in_app_iff. destruct X as [X|[X|X]]; auto. subst it. discriminate.
Qed.

Definition ins_blocks (d : document) (te : option Z) (pre post : list block) : list block :=
  trim_last (d_begin d) pre ++ (d, te) :: post.

Lemma ins_blocks_fst d te pre post : map fst (ins_blocks d te pre post) = map fst pre ++ d :: map fst post.
Proof. unfold ins_blocks. rewrite map_app, trim_last_fst. reflexivity. Qed.

Lemma ins_blocks_chain d te pre post :
  chain (pre ++ post) -> okb (d, te) ->
  Forall (fun b => d_begin (fst b) < d_begin d /\ d_num (fst b) < d_num d) pre ->
  Forall (fun b => d_begin d < d_begin (fst b) /\ d_num d < d_num (fst b)) post ->
  (forall b, In b post -> exists x, te = Some x /\ x <= d_begin (fst b)) -> chain (ins_blocks d te pre post).
Proof.
  intros Hc Hok Hpre Hpost Hpo. apply chain_app in Hc. destruct Hc as (Hc1 & Hc2 & Hr).
  assert (Hpre1 : Forall (fun b => d_begin (fst b) < d_begin d) pre) by (eapply Forall_impl; [|exact Hpre]; intros ? [? _]; assumption).
  destruct (trim_last_chain (d_begin d) pre Hc1 Hpre1) as [Ht1 Ht2].
  rewrite Forall_forall in Hpre, Hpost.
  assert (Hfst : forall b, In b (trim_last (d_begin d) pre) -> d_begin (fst b) < d_begin d /\ d_num (fst b) < d_num d).
  { intros b Hb. apply (in_map fst) in Hb. rewrite trim_last_fst in Hb. apply in_map_iff in Hb. destruct Hb as (c & Hc & Hc').
    rewrite <- Hc. apply Hpre; assumption. }
  assert (Hdp : forall y, In y post -> brel (d, te) y).
  { intros y Hy. pose proof (Hpost y Hy) as [H1 H2]. split; [assumption|]. split; [assumption|]. exact (Hpo y Hy). }
  apply chain_app. split; [assumption|]. split.
  - destruct Hc2 as [Ho Hs]. split; [constructor; assumption|]. constructor; [assumption|]. apply Forall_forall. assumption.
  - intros x y Hx Hy. pose proof (Hfst x Hx) as [H1 H2]. pose proof (Ht2 x Hx) as (z & Hz & Hzt).
    destruct Hy as [<-|Hy]; [|pose proof (Hpost y Hy)]; repeat split; simpl; try lia; exists z; split; auto; lia.
Qed.

Lemma app_eq_snoc {A} (l l' : list A) x : l ++ [] = l' ++ [x] -> l = l' ++ [x].
Proof. rewrite app_nil_r. auto. Qed.

(** The events of the timeline after ending the running document [bb] at [t]. *)
Definition ended (t : Z) (bb : option (event document)) (ea : option (nat * event document)) (tl : list (event document)) :=
  match bb with
  | None => tl
  | Some b => match ea with
              | Some (i, it) => tl_add (mkEvent KEnd t (ev_elem it)) (remove_at i tl)
              | None => tl_add (mkEvent KEnd t (ev_elem b)) tl
              end
  end.

(** Ending the running document keeps the timeline sound; its first end is now [t]. *)
Lemma tinv_ended tl bs t y e ea :
  tinv tl bs -> In (y, e) bs -> d_begin y < t -> end_le e t = false ->
  match ea with
  | None => True
  | Some (i, it) => nth_error tl i = Some it /\ ev_kind it = KEnd /\ ev_elem it = y
  end ->
  let tl1 := ended t (Some (ev_begin y)) ea tl in
  sorted tl1 /\ filter is_begin tl1 = map evb bs /\ first_begin tl1 /\
  (forall ev, In ev tl1 -> In (ev_elem ev) (map fst bs)) /\ end_is tl1 y (Some t) /\
  (forall p x, p <> y -> (has_end tl1 p x <-> has_end tl p x)).
Proof.
  intros T Hy Hb He Hea tl1.
  assert (MIN : forall x, has_end tl y x -> t <= x).
  { intros x Hx. pose proof (t_ends _ _ T _ _ Hy) as E. destruct e as [z|]; simpl in E; [|exfalso; eapply E; eassumption].
    destruct E as [_ E]. specialize (E x Hx). simpl in He. lia. }
  pose proof (tinv_block _ _ _ T Hy) as By. unfold evb in By. simpl in By.
  destruct ea as [[i it]|].
  - destruct Hea as (Hn & K & Hel). destruct (nth_split _ _ _ Hn) as (a & b & Etl & Er).
    assert (E1 : tl1 = tl_add (mkEvent KEnd t y) (a ++ b)) by (unfold tl1, ended; rewrite Er, Hel; reflexivity).
    assert (Hs : sorted (a ++ b)).
    { pose proof (t_sorted _ _ T) as Hs. rewrite Etl in Hs. apply StronglySorted_app in Hs. destruct Hs as (S1 & S2 & S3).
      apply StronglySorted_app. split; [assumption|]. split; [inversion S2; assumption|]. intros u v Hu Hv. apply S3; [|right]; assumption. }
    assert (Hf : filter is_begin (a ++ b) = map evb bs).
    { rewrite <- (t_begins _ _ T), Etl, !filter_app. simpl. unfold is_begin at 4. rewrite K. reflexivity. }
    assert (Hab : forall ev, In ev (a ++ b) -> In ev tl) by (intros ev H; rewrite Etl; rewrite in_app_iff in *; simpl; tauto).
    assert (Hin : forall ev, In ev tl -> ev <> it -> In ev (a ++ b)).
    { intros ev H H'. rewrite Etl in H. rewrite in_app_iff in *. simpl in H. destruct H as [H|[H|H]]; auto. congruence. }
    rewrite E1. split; [apply sorted_add; assumption|]. split; [rewrite filter_add_no; auto|]. split; [|split; [|split]].
    + apply first_add; [assumption| |].
      * apply (first_remove a it b K). rewrite <- Etl. apply (t_first _ _ T).
      * intros _. simpl. split; [apply Hin; [assumption|intros E; rewrite <- E in K; discriminate]|lia].
    + intros ev H. apply tl_add_in in H. destruct H as [->|H]; [simpl; apply in_map_iff; exists (y, e); auto|].
      apply (t_elem _ _ T). apply Hab. assumption.
    + split; [apply tl_add_in; left; reflexivity|]. intros x H. apply tl_add_in in H. destruct H as [H|H]; [injection H as ->; lia|].
      apply MIN. apply Hab. assumption.
    + intros p x Hp. unfold has_end. rewrite tl_add_in. split.
      * intros [H|H]; [injection H as _ ->; congruence|apply Hab; assumption].
      * intros H. right. apply Hin; [assumption|]. intros E. rewrite <- E in Hel. simpl in Hel. congruence.
  - assert (E1 : tl1 = tl_add (mkEvent KEnd t y) tl) by reflexivity. rewrite E1.
    split; [apply sorted_add; apply (t_sorted _ _ T)|]. split; [rewrite filter_add_no; [apply (t_begins _ _ T)|apply (t_sorted _ _ T)|reflexivity]|].
    split; [|split; [|split]].
    + apply first_add; [apply (t_sorted _ _ T)|apply (t_first _ _ T)|]. intros _. simpl. split; [assumption|lia].
    + intros ev H. apply tl_add_in in H. destruct H as [->|H]; [simpl; apply in_map_iff; exists (y, e); auto|apply (t_elem _ _ T); assumption].
    + split; [apply tl_add_in; left; reflexivity|]. intros x H. apply tl_add_in in H. destruct H as [H|H]; [injection H as ->; lia|apply MIN; assumption].
    + intros p x Hp. unfold has_end. rewrite tl_add_in. split; [intros [H|H]; [injection H as _ ->; congruence|assumption]|auto].
Qed.

(** Putting the new document between the blocks. *)
Lemma tinv_put tl tl1 bs pre post d te :
  tinv tl bs -> bs = pre ++ post -> okb (d, te) -> ~ In (d_obj d) (map bobj bs) ->
  Forall (fun b => d_begin (fst b) < d_begin d /\ d_num (fst b) < d_num d) pre ->
  Forall (fun b => d_begin d < d_begin (fst b) /\ d_num d < d_num (fst b)) post ->
  (forall b, In b post -> exists x, te = Some x /\ x <= d_begin (fst b)) ->
  sorted tl1 -> filter is_begin tl1 = map evb bs -> first_begin tl1 ->
  (forall ev, In ev tl1 -> In (ev_elem ev) (map fst bs)) ->
  (forall p e, In (p, e) (trim_last (d_begin d) pre ++ post) -> end_is tl1 p e) ->
  let tl2 := tl_add (ev_begin d) tl1 in
  tinv (match te with None => tl2 | Some x => tl_add (mkEvent KEnd x d) tl2 end) (ins_blocks d te pre post).
Proof.
  intros T Ebs Hok Hobj Hpre Hpost Hpo S1 F1 B1 M1 E1 tl2.
  pose proof (t_chain _ _ T) as Hc. rewrite Ebs in Hc.
  pose proof (ins_blocks_chain d te pre post Hc Hok Hpre Hpost Hpo) as Hch.
  rewrite Forall_forall in Hpre, Hpost.
  assert (S2 : sorted tl2) by (apply sorted_add; assumption).
  assert (F2 : filter is_begin tl2 = map evb (ins_blocks d te pre post)).
  { unfold tl2. rewrite filter_add_yes; [|assumption|reflexivity]. rewrite F1, Ebs, map_app, tl_add_mid.
    - unfold evb. rewrite <- !(map_map fst (fun x => ev_begin x)), ins_blocks_fst, map_app. reflexivity.
    - intros x Hx. apply in_map_iff in Hx. destruct Hx as (b & <- & Hb). specialize (Hpre b Hb). unfold evb. simpl. lia.
    - intros x Hx. apply in_map_iff in Hx. destruct Hx as (b & <- & Hb). specialize (Hpost b Hb). unfold evb. simpl. lia. }
  assert (B2 : first_begin tl2) by (apply first_add; [assumption|assumption|discriminate]).
  assert (FST : forall p, In p (map fst (ins_blocks d te pre post)) <-> p = d \/ In p (map fst bs)).
  { intros p. rewrite ins_blocks_fst, Ebs, map_app, !in_app_iff. simpl. intuition. }
  assert (M2 : forall ev, In ev tl2 -> In (ev_elem ev) (map fst (ins_blocks d te pre post))).
  { intros ev H. apply tl_add_in in H. apply FST. destruct H as [->|H]; [left; reflexivity|right; apply M1; assumption]. }
  assert (NO : forall x, ~ has_end tl1 d x).
  { intros x H. specialize (M1 _ H). simpl in M1. apply Hobj. rewrite bobj_fst. apply in_map. assumption. }
  assert (NO2 : forall x, ~ has_end tl2 d x).
  { intros x H. apply tl_add_in in H. destruct H as [H|H]; [discriminate|eapply NO; eassumption]. }
  assert (E2 : forall p e, In (p, e) (trim_last (d_begin d) pre ++ post) -> end_is tl2 p e /\ p <> d).
  { intros p e H. split.
    - specialize (E1 p e H). unfold end_is, has_end in *. unfold tl2.
      destruct e as [x|].
      + destruct E1 as [X1 X2]. split; [apply tl_add_in; right; assumption|].
        intros y Hy. apply tl_add_in in Hy. destruct Hy as [Hy|Hy]; [discriminate|apply X2; assumption].
      + intros x Hx. apply tl_add_in in Hx. destruct Hx as [Hx|Hx]; [discriminate|eapply E1; eassumption].
    - intros ->. apply Hobj. rewrite bobj_fst, Ebs, map_app. apply (in_map fst) in H. rewrite map_app, trim_last_fst in H.
      apply in_map. exact H. }
  assert (ND : NoDup (map bobj (ins_blocks d te pre post))).
  { rewrite bobj_fst, ins_blocks_fst. apply (map_app_nodup d_obj).
    - rewrite <- map_app, <- Ebs, <- bobj_fst. apply (t_obj _ _ T).
    - rewrite <- map_app, <- Ebs, <- bobj_fst. assumption. }
  assert (IN : forall p e, In (p, e) (ins_blocks d te pre post) -> (p = d /\ e = te) \/ In (p, e) (trim_last (d_begin d) pre ++ post)).
  { intros p e H. unfold ins_blocks in H. rewrite in_app_iff in *. simpl in H. destruct H as [H|[H|H]]; auto. injection H as <- <-. auto. }
  destruct te as [x|].
  - unfold okb in Hok. simpl in Hok. constructor.
    + apply sorted_add; assumption.
    + assumption.
    + assumption.
    + rewrite filter_add_no; auto.
    + intros p e H. apply IN in H. destruct H as [[-> ->]|H].
      * split; [apply tl_add_in; left; reflexivity|]. intros z Hz. apply tl_add_in in Hz. destruct Hz as [Hz|Hz]; [injection Hz as ->; lia|].
        exfalso. eapply NO2; eassumption.
      * destruct (E2 p e H) as [X Hp]. unfold end_is, has_end in *. destruct e as [z|].
        -- destruct X as [X1 X2]. split; [apply tl_add_in; right; assumption|].
           intros w Hw. apply tl_add_in in Hw. destruct Hw as [Hw|Hw]; [injection Hw as _ ->; congruence|apply X2; assumption].
        -- intros w Hw. apply tl_add_in in Hw. destruct Hw as [Hw|Hw]; [injection Hw as _ ->; congruence|eapply X; eassumption].
    + intros ev H. apply tl_add_in in H. destruct H as [->|H]; [apply FST; left; reflexivity|apply M2; assumption].
    + apply first_add; [assumption|assumption|]. intros _. simpl. split; [apply tl_add_in; left; reflexivity|lia].
  - constructor; auto.
    intros p e H. apply IN in H. destruct H as [[-> ->]|H]; [exact NO2|apply E2; assumption].
Qed.

(** The end given to a document inserted before [post]. *)
Definition end_given (d : document) (post : list block) (te : option Z) : Prop :=
  match post with
  | [] => te = d_end d
  | (r, _) :: _ => exists x, d_end d = Some x /\ te = Some (Z.min x (d_begin r))
  end.

Definition put_at (d : document) (bs pre post : list block) : Prop :=
  bs = pre ++ post /\
  Forall (fun b => d_begin (fst b) < d_begin d /\ d_num (fst b) < d_num d) pre /\
  Forall (fun b => d_begin d < d_begin (fst b) /\ d_num d < d_num (fst b)) post.

Lemma insert_any s d bs :
  tinv (q_tl s) bs -> doc_wf d ->
  (forall b, In b bs -> d_num (fst b) <> d_num d) -> ~ In (d_obj d) (map bobj bs) ->
  match insert_or_discard s d with
  | IInserted s' => exists pre post te tl', put_at d bs pre post /\ end_given d post te /\
      s' = set_store s (docs_add d (q_docs s)) tl' /\ tinv tl' (ins_blocks d te pre post)
  | IDiscarded o => exists e, In (o, e) bs /\ d_num d < d_num o /\ d_begin o <= d_begin d
  | IOverridden => exists b, In b bs /\ okill d b = true
  | IError e => e = EInconsistent \/ (e = ETypeError /\ d_end d = None)
  end.
Proof.
  intros T Hwf Hfr Hobj. unfold insert_or_discard.
  destruct (chain_split bs (d_begin d) (t_chain _ _ T)) as (pre & post & Ebs & Hpre & Hpost).
  pose proof (scan_back_any _ _ d pre post T Ebs Hpre Hpost Hfr) as BK.
  destruct (scan_back d None (rev (irange_upto (Some (d_begin d)) (q_tl s)))) as [bb|o|]; [|inversion BK as [|o' e H1 H2| |]; subst|auto].
  2:{ exists e. rewrite Forall_forall in Hpre. specialize (Hpre _ H1). simpl in Hpre. repeat split; auto. apply in_app_iff. auto. }
  assert (NQ : forall q, In q (irange_from (d_begin d) (q_tl s)) -> In (snd q) (q_tl s) /\ d_begin d <= ev_when (snd q)
                /\ nth_error (q_tl s) (fst q) = Some (snd q)).
  { intros [i q] Hq. unfold irange_from in Hq. apply filter_In in Hq. destruct Hq as [Hq Hw]. simpl in *.
    pose proof (in_enum_snd _ _ _ Hq) as H1. simpl in H1. split; [assumption|]. split; [lia|].
    apply enum_nth in Hq. rewrite Nat.sub_0_r in Hq. tauto. }
  assert (EN : forall ev, In ev (q_tl s) -> d_num (ev_elem ev) <> d_num d).
  { intros ev H. apply (t_elem _ _ T) in H. apply in_map_iff in H. destruct H as (b & <- & Hb). apply Hfr. assumption. }
  pose proof (scan_fwd_any d (d_end d) bb (irange_from (d_begin d) (q_tl s)) (fun q Hq => EN _ (proj1 (NQ q Hq))) None) as FW.
  destruct (scan_fwd d (d_end d) bb (irange_from (d_begin d) (q_tl s)) None) as [ea tr| | |].
  2:{ inversion FW as [i it H1 H2 H3| | | |]; subst. destruct (NQ _ H1) as (H4 & H5 & _). simpl in *.
      destruct (tinv_begin _ _ _ T H4 H2) as (b & Hb & ->). exists b. split; [assumption|]. unfold okill. unfold evb in *. simpl in *. lia. }
  2:{ auto. }
  2:{ inversion FW. auto. }
  (* the blocks that begin at or after the document *)
  assert (GE : exists pre2 post2, bs = pre2 ++ post2 /\ Forall (fun b => d_begin (fst b) <= d_begin d - 1) pre2 /\
             Forall (fun b => d_begin d <= d_begin (fst b)) post2 /\
             filter is_begin (map snd (irange_from (d_begin d) (q_tl s))) = map evb post2).
  { destruct (tinv_split _ _ (d_begin d - 1) T) as (F & R & p2 & q2 & Etl & E2 & HF & HR & Hp & Hq & BF & BR).
    exists p2, q2. split; [assumption|]. split; [assumption|]. split.
    - eapply Forall_impl; [|exact Hq]. intros b Hb. simpl in *. lia.
    - unfold irange_from. rewrite (filter_enum (fun e => d_begin d <=? ev_when e)). rewrite Etl, filter_app, (filter_none _ F), (filter_all _ R); [exact BR| |].
      + intros x Hx. specialize (HR x Hx). lia.
      + intros x Hx. specialize (HF x Hx). lia. }
  destruct GE as (pre2 & post2 & E2 & Hpre2 & Hpost2 & BG).
  assert (ENDS : exists ends, (forall q, In q ends -> ev_kind (snd q) = KEnd /\ bb_ok bb (snd q)) /\
             (forall q, In q ends -> In q (irange_from (d_begin d) (q_tl s))) /\
             (ea = None \/ exists q, In q ends /\ ea = Some q) /\
             (forall b, In b post2 -> d_num d < d_num (fst b)) /\
             end_given d post2 (match tr with Some w => Some w | None => d_end d end)).
  { assert (NB : forall l : list (nat * event document), (forall q, In q l -> ev_kind (snd q) = KEnd /\ bb_ok bb (snd q)) -> filter is_begin (map snd l) = []).
    { intros l Hl. apply filter_none. intros x Hx. apply in_map_iff in Hx. destruct Hx as (q & <- & Hq). unfold is_begin. rewrite (proj1 (Hl q Hq)). reflexivity. }
    inversion FW as [| | |ea' H1 H2|ea' ends i r rest x H1 H2 H3 H4 H5 H6]; subst ea'.
    - exists (irange_from (d_begin d) (q_tl s)). split; [assumption|]. split; [auto|]. split; [assumption|].
      rewrite NB in BG by assumption. destruct post2; [|discriminate]. split; [intros ? []|]. reflexivity.
    - exists ends. split; [assumption|]. split; [intros q Hq; rewrite H1; apply in_app_iff; auto|]. split; [assumption|].
      rewrite H1, map_app, filter_app, NB in BG by assumption. simpl in BG. unfold is_begin at 1 in BG. rewrite H2 in BG.
      destruct post2 as [|[p2 e2] post2]; [discriminate|]. simpl in BG. injection BG as BG1 BG2. subst r. simpl in H3 |- *. split.
      + intros b [<-|Hb]; [exact H3|]. pose proof (t_chain _ _ T) as Hc. rewrite E2 in Hc. apply chain_app in Hc.
        destruct Hc as (_ & [_ Hc] & _). inversion Hc as [|? ? _ Hf]; subst. rewrite Forall_forall in Hf. destruct (Hf b Hb) as (Hn & _).
        simpl in Hn. lia.
      + exists x. split; [assumption|]. destruct (Z.gtb_spec x (d_begin p2)); [f_equal; lia|]. rewrite H4. f_equal. lia. }
  destruct ENDS as (ends & En1 & En2 & Hea & Hnum & Hgiv). clear FW.
  (* nothing begins together with the document *)
  assert (PP : pre = pre2 /\ post = post2).
  { assert (Hgt : Forall (fun b => d_begin d < d_begin (fst b)) post2).
    { apply Forall_forall. intros b Hb. rewrite Forall_forall in Hpost2. pose proof (Hpost2 b Hb) as Hge. specialize (Hnum b Hb). simpl in Hge.
      destruct (Z.eq_dec (d_begin d) (d_begin (fst b))) as [Heq|]; [|lia]. exfalso.
      assert (Hin : In b pre).
      { assert (X : In b bs) by (rewrite E2; apply in_app_iff; auto). rewrite Ebs in X. apply in_app_iff in X. destruct X as [X|X]; [assumption|].
        rewrite Forall_forall in Hpost. specialize (Hpost b X). simpl in Hpost. lia. }
      assert (Hlast : exists pre' y e, pre = pre' ++ [(y, e)] /\ d_num y < d_num d).
      { inversion BK as [| |H|pre' y e H1 H2 H3]; subst bb.
        - destruct (list_snoc_cases pre) as [->|(pre' & [y e] & ->)]; [destruct Hin|]. exists pre', y, e. split; [reflexivity|].
          apply (H pre' y e eq_refl).
        - exists pre', y, e. auto. }
      destruct Hlast as (pre' & y & e & -> & Hy). apply in_app_iff in Hin. destruct Hin as [Hin|[<-|[]]]; [|simpl in Hnum; lia].
      pose proof (t_chain _ _ T) as Hc. rewrite Ebs, <- app_assoc in Hc. apply chain_app in Hc. destruct Hc as (_ & _ & Hc).
      destruct (Hc b (y, e) Hin (or_introl eq_refl)) as (Hn & _). simpl in Hn. lia. }
    rewrite Ebs in E2. rewrite Forall_forall in Hpre, Hpost, Hpre2, Hgt.
    apply (cut_unique (fun b => d_begin (fst b) <= d_begin d)) in E2; auto.
    - intros b Hb. specialize (Hpost b Hb). simpl in Hpost. lia.
    - intros b Hb. specialize (Hpre2 b Hb). simpl in Hpre2. lia.
    - intros b Hb. specialize (Hgt b Hb). simpl in Hgt. lia. }
  destruct PP as [<- <-]. clear E2 Hpost2 BG.
  assert (Hpre' : Forall (fun b => d_begin (fst b) < d_begin d /\ d_num (fst b) < d_num d) pre).
  { apply Forall_forall. intros b Hb. rewrite Forall_forall in Hpre2. specialize (Hpre2 b Hb). simpl in Hpre2. split; [lia|].
    assert (Hlast : exists pre' y e, pre = pre' ++ [(y, e)] /\ d_num y < d_num d).
    { inversion BK as [| |H|pre' y e H1 H2 H3]; subst bb.
      - destruct (list_snoc_cases pre) as [->|(pre' & [y e] & ->)]; [destruct Hb|]. exists pre', y, e. split; [reflexivity|].
        apply (H pre' y e eq_refl).
      - exists pre', y, e. auto. }
    destruct Hlast as (pre' & y & e & -> & Hy). apply in_app_iff in Hb. destruct Hb as [Hb|[<-|[]]]; [|exact Hy].
    pose proof (t_chain _ _ T) as Hc. rewrite Ebs, <- app_assoc in Hc. apply chain_app in Hc. destruct Hc as (_ & _ & Hc).
    destruct (Hc b (y, e) Hb (or_introl eq_refl)) as (Hn & _). simpl in Hn. lia. }
  assert (Hpost' : Forall (fun b => d_begin d < d_begin (fst b) /\ d_num d < d_num (fst b)) post).
  { apply Forall_forall. intros b Hb. rewrite Forall_forall in Hpost. specialize (Hpost b Hb). specialize (Hnum b Hb). auto. }
  set (te := match tr with Some w => Some w | None => d_end d end) in *.
  exists pre, post, te.
  set (tl1 := ended (d_begin d) bb ea (q_tl s)).
  exists (match te with None => tl_add (ev_begin d) tl1 | Some x => tl_add (mkEvent KEnd x d) (tl_add (ev_begin d) tl1) end).
  split; [split; [assumption|split; assumption]|]. split; [assumption|]. split.
  { reflexivity. }
  assert (Hok : okb (d, te)).
  { unfold okb. simpl. destruct Hwf as [_ Hw]. unfold end_given in Hgiv. destruct post as [|[r er] post'].
    - rewrite Hgiv. destruct (d_end d); [tauto|exact I].
    - destruct Hgiv as (x & Hx & ->). rewrite Hx in Hw. inversion Hpost' as [|? ? [H1 _] _]; subst. simpl in H1. lia. }
  assert (Hte : forall b, In b post -> exists x, te = Some x /\ x <= d_begin (fst b)).
  { intros b Hb. unfold end_given in Hgiv. destruct post as [|[r er] post']; [destruct Hb|]. destruct Hgiv as (x & Hx & ->).
    eexists. split; [reflexivity|]. destruct Hb as [<-|Hb]; [simpl; lia|].
    pose proof (t_chain _ _ T) as Hc. rewrite Ebs in Hc. apply chain_app in Hc. destruct Hc as (_ & [_ Hc] & _).
    inversion Hc as [|? ? _ Hf]; subst. rewrite Forall_forall in Hf. destruct (Hf b Hb) as (_ & Hn & _). simpl in Hn. lia. }
  inversion BK as [| |H|pre' y e H1 H2 H3]; subst bb.
  - (* no document is running *)
    apply (tinv_put (q_tl s) tl1 bs pre post d te); auto; try apply T.
    intros p e Hp. apply (t_ends _ _ T). rewrite Ebs.
    assert (trim_last (d_begin d) pre = pre) as <-; [|assumption].
    destruct (list_snoc_cases pre) as [->|(pre' & [y e'] & ->)]; [reflexivity|]. rewrite trim_last_snoc.
    destruct (H pre' y e' eq_refl) as [_ ->]. reflexivity.
  - assert (Hy : In (y, e) bs) by (rewrite Ebs, H1, !in_app_iff; left; right; left; reflexivity).
    assert (Hyb : d_begin y < d_begin d).
    { rewrite Forall_forall in Hpre'. apply (Hpre' (y, e)). rewrite H1. apply in_app_iff. right. left. reflexivity. }
    assert (X : match ea with None => True | Some (i, it) => nth_error (q_tl s) i = Some it /\ ev_kind it = KEnd /\ ev_elem it = y end).
    { destruct Hea as [->|([i it] & Hq & ->)]; [exact I|]. destruct (En1 _ Hq) as [K OK]. destruct (NQ _ (En2 _ Hq)) as (I1 & I2 & I3). simpl in *.
      split; [assumption|]. split; [assumption|]. destruct OK as [OK|OK]; [|lia].
      pose proof (t_elem _ _ T _ I1) as M. apply in_map_iff in M. destruct M as ([p ep] & Hp & Hin). simpl in Hp. rewrite <- Hp in OK.
      destruct (in_bs_unique _ _ _ _ _ (t_chain _ _ T) Hin Hy OK). congruence. }
    pose proof (tinv_ended _ _ (d_begin d) y e ea T Hy Hyb H3 X) as Z. cbv zeta in Z. fold tl1 in Z.
    destruct Z as (Z1 & Z2 & Z3 & Z4 & Z5 & Z6).
    apply (tinv_put (q_tl s) tl1 bs pre post d te); auto.
    assert (NE : forall p ep, In (p, ep) (pre' ++ post) -> p <> y).
    { intros p ep Hp ->. pose proof (t_chain _ _ T) as Hc. rewrite Ebs, H1, <- app_assoc in Hc. apply chain_app in Hc. destruct Hc as (_ & Hc & Hr).
      apply in_app_iff in Hp. destruct Hp as [Hp|Hp].
      - destruct (Hr _ (y, e) Hp (or_introl eq_refl)) as (Hn & _). simpl in Hn. lia.
      - destruct Hc as [_ Hc]. inversion Hc as [|? ? _ Hf]; subst. rewrite Forall_forall in Hf. destruct (Hf _ Hp) as (Hn & _). simpl in Hn. lia. }
    intros p ep Hp. rewrite H1, trim_last_snoc, H3 in Hp.
    assert (C : (p, ep) = (y, Some (d_begin d)) \/ In (p, ep) (pre' ++ post)).
    { rewrite !in_app_iff in Hp. rewrite in_app_iff. simpl in Hp. intuition. }
    destruct C as [C|C]; [injection C as -> ->; assumption|].
    assert (Hpb : In (p, ep) bs) by (rewrite Ebs, H1; rewrite !in_app_iff in *; tauto).
    pose proof (t_ends _ _ T _ _ Hpb) as W. specialize (NE _ _ C). unfold end_is in *. destruct ep as [x|].
    + destruct W as [W1 W2]. split; [apply Z6; assumption|]. intros z Hz. apply W2. apply Z6; assumption.
    + intros x Hx. eapply W. apply Z6; eassumption.
Qed.
