(** Properties C11-C15, C42 and C43: computed times of documents. *)

From Coq Require Import List ZArith String Bool Lia.
From Verif Require Import TimingModel TimingSpec TimingProofs.
Import ListNotations.
Open Scope Z_scope.

Notation at_avail avail := (match avail with Some a => a | None => 0 end).

(** Sample documents used below. *)
Definition A (s : string) (us : Z) : option tattr := Some (mkTattr s us).

(** body begin=10s; div (no times) with p begin=1s end=5s and p begin=3s end=4s
    holding a span end=9s and a line break; div end=20s with an empty p. *)
Definition sample : body := mkBody (A "10s" 10000000) None None
  [ Timed None None
      [ Timed (A "1s" 1000000) (A "5s" 5000000) [Other];
        Timed (A "3s" 3000000) (A "4s" 4000000) [Timed None (A "9s" 9000000) []; Other] ];
    Timed None (A "20s" 20000000) [ Timed None None [] ] ]%string.

(** The same with a badly timed p (as strings, "1s" < "5s") inside. *)
Definition sample_bad : body := mkBody (A "10s" 10000000) None None
  [ Timed None None
      [ Timed (A "5s" 5000000) (A "1s" 1000000) [Timed None None []];
        Timed (A "3s" 3000000) (A "4s" 4000000) [] ] ]%string.

(** ** C11 *)

Theorem C11_context_restored : forall avail t c,
  exists ct, visit avail t c = TOk (c, ct).
Proof.
  intros. destruct (visit_correct avail t c) as (ct & E & _). eauto.
Qed.

Theorem C11_context_restored_body : forall avail x c,
  exists ct, visit_body avail x c = TOk (c, ct).
Proof. exact visit_body_restores. Qed.

Theorem C11_never_fails : forall avail x,
  exists cb ce ct, validate avail x = TOk (cb, ce, ct).
Proof.
  intros avail [x|].
  - destruct (validate_body avail x) as (ct & cb & ce & ks & _ & _ & _ & E). eauto.
  - cbn. eauto.
Qed.

(** Each child is treated as if it were alone in the context of its parent. *)
Theorem C11_siblings_independent : forall avail ks c cks,
  visit_all avail ks c = TOk (c, cks) <->
  Forall2 (fun k ck => visit avail k c = TOk (c, ck)) ks cks.
Proof.
  intros avail ks c. induction ks as [|k r IH]; intros cks.
  - split; intros H; [inversion H; constructor|inversion H; reflexivity].
  - destruct (C11_context_restored avail k c) as (ck & Ek).
    cbn [visit_all]. rewrite Ek. cbn [tbind].
    destruct (visit_all_correct avail r c) as (cr & Er & _).
    assert (Fr : Forall2 (fun k ck => visit avail k c = TOk (c, ck)) r cr)
      by (apply IH; auto).
    rewrite Er. cbn [tbind]. split.
    + intros H. inversion H; subst. constructor; auto.
    + intros H. inversion H as [|? ck' ? cr' H1 H2]; subst.
      rewrite Ek in H1. inversion H1; subst.
      apply IH in H2. rewrite Er in H2. inversion H2; subst. auto.
Qed.

Example C11_sample :
  visit_body 3 sample (mkCtx [7] [90000000; 5] 11) =
  TOk (mkCtx [7] [90000000; 5] 11,
    match visit_body 3 sample (mkCtx [7] [90000000; 5] 11) with
    | TOk (_, ct) => ct | TErr _ => COther end).
Proof. vm_compute. reflexivity. Qed.

(** ** C12 *)

Theorem C12_compositional : forall avail x cb ce ct,
  validate avail (Some x) = TOk (cb, ce, ct) ->
  timed_body (at_avail avail) x ct /\
  exists ks, ct = CTimed (b_begin x) (b_end x) cb ce ks.
Proof.
  intros avail x cb ce ct H.
  destruct (validate_body avail x) as (ct' & cb' & ce' & ks & _ & T & Eq & E).
  rewrite H in E. inversion E; subst. eauto.
Qed.

(** The semantics admits exactly one assignment of times, so validation
    computes exactly it. *)
Theorem C12_unique : forall avail x ct,
  timed_body (at_avail avail) x ct ->
  exists cb ce, validate avail (Some x) = TOk (cb, ce, ct).
Proof.
  intros avail x ct H.
  destruct (validate_body avail x) as (ct' & cb & ce & ks & _ & T & Eq & E).
  rewrite (timed_body_det _ _ _ _ H T). eauto.
Qed.

(** A document without a body begins when it is available and is active at no
    time. *)
Theorem C12_no_body : forall avail cb ce ct, validate avail None = TOk (cb, ce, ct) ->
  cb = at_avail avail /\ exists e, ce = Some e /\ cb <= e /\ forall t, ~ cb <= t < e.
Proof.
  intros avail cb ce ct H. cbn in H. injection H as <- <- <-. split; [reflexivity|].
  eexists. split; [reflexivity|]. split; [lia|]. intros t. lia.
Qed.

Example C12_no_body_sample : validate (Some 5) None = TOk (5, Some 5, COther).
Proof. reflexivity. Qed.

(** The same for every element in every context of the traversal. *)
Theorem C12_element : forall avail t c ct,
  visit avail t c = TOk (c, ct) <->
  timed avail (c_syncbase c) (hd_error (c_end_stack c)) t ct.
Proof.
  intros. destruct (visit_correct avail t c) as (ct' & E & T). split; intros H.
  - rewrite E in H. inversion H; subst. auto.
  - rewrite (timed_det _ _ _ _ _ _ H T). auto.
Qed.

Example C12_sample :
  match validate (Some 2000000) (Some sample) with
  | TOk (cb, ce, ct) => (cb, ce, times ct)
  | TErr _ => (0, None, ShO)
  end =
  (10000000, Some 30000000,
   Sh 10000000 (Some 30000000)
     [Sh 11000000 (Some 15000000)
        [Sh 11000000 (Some 15000000) [ShO];
         Sh 13000000 (Some 14000000) [Sh 13000000 (Some 14000000) []; ShO]];
      Sh 10000000 (Some 30000000) [Sh 10000000 (Some 30000000) []]]).
Proof. vm_compute. reflexivity. Qed.

(** ** C13 *)

(** Below the body: an element with an explicit end. *)
Theorem C13_explicit_end_bounds : forall avail x cb ce ct,
  validate avail (Some x) = TOk (cb, ce, ct) ->
  forall b e nb ne nks, sub (CTimed b e nb ne nks) ct ->
  eff e <> None ->
  (CTimed b e nb ne nks = ct -> bad_body x = false /\ eff (b_dur x) = None) ->
  exists v, ne = Some v /\
  forall b' e' mb me mks, sub (CTimed b' e' mb me mks) (CTimed b e nb ne nks) ->
  exists w, me = Some w /\ w <= v.
Proof.
  intros avail x cb ce ct H b e nb ne nks Hs He Hroot.
  destruct (C12_compositional _ _ _ _ _ H) as [T _].
  destruct (body_sub _ _ _ _ T Hs) as [Eq|(t & base & lim & Tt)].
  - destruct (Hroot Eq) as [Hbad Hdur].
    rewrite <- Eq in T. inversion T as [? ? ? N F E B|? ? N F B]; subst; [|congruence].
    unfold body_end in *. rewrite Hdur in *.
    destruct (eff (b_end x)) as [v|] eqn:Hv; [|congruence].
    inversion E as [v' Hv'|Hn Hnc|cbx Hn Hc|mx cbx Hn Hc Hle]; subst; try discriminate.
    inversion Hv'; subst v'. exists v. split; auto.
    intros b' e' mb me mks Hm. inversion Hm as [|? ? ? ? ? k Hk Hmk]; subst.
    + exists v. split; auto; lia.
    + destruct (Forall2_in_r _ _ _ _ _ _ F Hk) as (t & Ht & Tt).
      destruct (timed_within _ _ _ _ _ Tt _ Hmk _ _ _ _ _ eq_refl) as (w & Ew & Hw).
      exists w. auto.
  - destruct (timed_explicit_end _ _ _ _ _ _ _ _ _ Tt He) as (v & Ev & Hw).
    exists v. split; auto. intros b' e' mb me mks Hm.
    destruct (Hw _ Hm _ _ _ _ _ eq_refl) as (w & Ew & Hle). eauto.
Qed.

(** At the body: end and dur together. *)
Theorem C13_body_end_bounds : forall avail x cb ce ct L,
  validate avail (Some x) = TOk (cb, ce, ct) ->
  body_end (at_avail avail) x = Some L ->
  bad_body x = false ->
  ce = Some L /\
  forall b' e' mb me mks, sub (CTimed b' e' mb me mks) ct ->
  exists w, me = Some w /\ w <= L.
Proof.
  intros avail x cb ce ct L H HL Hbad.
  destruct (C12_compositional _ _ _ _ _ H) as [T (ks & Eq)]. subst ct.
  inversion T as [? ? ? N F E B|? ? N F B]; subst; [|congruence].
  rewrite HL in *.
  inversion E as [v' Hv'|Hn Hnc|cbx Hn Hc|mx cbx Hn Hc Hle]; subst; try discriminate.
  inversion Hv'; subst v'. split; auto.
  intros b' e' mb me mks Hm. inversion Hm as [|? ? ? ? ? k Hk Hmk]; subst.
  - exists L. split; auto; lia.
  - destruct (Forall2_in_r _ _ _ _ _ _ F Hk) as (t & Ht & Tt).
    destruct (timed_within _ _ _ _ _ Tt _ Hmk _ _ _ _ _ eq_refl) as (w & Ew & Hw).
    exists w. auto.
Qed.

Example C13_sample :
  body_end 2000000 (mkBody None (A "30s" 30000000) (A "8s" 8000000) (b_kids sample))
    = Some 10000000 /\
  match validate (Some 2000000)
          (Some (mkBody None (A "30s" 30000000) (A "8s" 8000000) (b_kids sample))) with
  | TOk (cb, ce, ct) => times ct
  | TErr _ => ShO
  end =
   Sh 2000000 (Some 10000000)
     [Sh 2000000 (Some 5000000)
        [Sh 2000000 (Some 5000000) [ShO];
         Sh 3000000 (Some 4000000) [Sh 3000000 (Some 4000000) []; ShO]];
      Sh 2000000 (Some 10000000) [Sh 2000000 (Some 10000000) []]].
Proof. vm_compute. split; reflexivity. Qed.

(** A body whose end does not follow its begin is the exception: it is
    reported as endless although its content ends. *)
Theorem C13_badly_timed_body_endless : forall avail x cb ce ct,
  validate avail (Some x) = TOk (cb, ce, ct) -> bad_body x = true ->
  ce = None /\ (is_given (b_begin x) = true -> cb = 0).
Proof.
  intros avail x cb ce ct H Hbad.
  destruct (C12_compositional _ _ _ _ _ H) as [T (ks & Eq)]. subst ct.
  inversion T as [? ? ? N F E B|? ? N F B]; subst; [congruence|]. split; auto.
  intros Hg. rewrite Hg in B. inversion B; subst; auto; discriminate.
Qed.

(** ** C14 *)

Theorem C14_not_before_available : forall avail x cb ce ct,
  validate avail (Some x) = TOk (cb, ce, ct) ->
  0 <= at_avail avail -> nn_body x ->
  forall b e nb ne nks, sub (CTimed b e nb ne nks) ct ->
  (CTimed b e nb ne nks = ct -> bad_body x = false) ->
  at_avail avail <= nb.
Proof.
  intros avail x cb ce ct H Ha (Nb & Ne & Nd & Nk) b e nb ne nks Hs Hroot.
  destruct (C12_compositional _ _ _ _ _ H) as [T (ks & Eq)].
  assert (Ho := offset_nn _ Nb).
  assert (Hst : at_avail avail <= start_at (at_avail avail) (offset (b_begin x))).
  { unfold start_at. destruct (Z.eq_dec (at_avail avail) 0); lia. }
  assert (Hkid : forall cks, Forall2 (timed (at_avail avail) (offset (b_begin x))
      (body_end (at_avail avail) x)) (b_kids x) cks ->
    forall k, In k cks -> sub (CTimed b e nb ne nks) k -> at_avail avail <= nb).
  { intros cks F k Hk Hsk. destruct (Forall2_in_r _ _ _ _ _ _ F Hk) as (t & Ht & Tt).
    rewrite Forall_forall in Nk.
    assert (Hge := timed_begin_ge _ _ _ _ _ Tt (Nk _ Ht) _ _ _ _ _ Hsk). lia. }
  subst ct. inversion Hs as [Eq|? ? ? ? ? k Hk Hsk]; subst.
  - inversion T as [? ? ? N F E B|? ? N F B]; subst.
    + apply begin_rule_ge in B. lia.
    + rewrite Hroot in N; auto. discriminate.
  - inversion T as [? ? ? N F E B|? ? N F B]; subst; eapply Hkid; eassumption.
Qed.

Example C14_sample : 0 <= at_avail (Some 12000000) /\ nn_body sample /\
  match validate (Some 12000000) (Some sample) with
  | TOk (cb, ce, ct) => (cb, ce) | TErr _ => (0, None) end = (12000000, Some 30000000).
Proof.
  split; [cbn; lia|split; [|vm_compute; reflexivity]].
  unfold nn_body, sample; cbn. repeat split; try lia.
  repeat (constructor; cbn; try lia).
Qed.

(** The exception is real. *)
Theorem C14_badly_timed_body_before_available :
  exists x, nn_body x /\ forall a, 0 < a ->
    exists ct, validate (Some a) (Some x) = TOk (0, None, ct).
Proof.
  exists (mkBody (A "00:00:05" 5000000) (A "00:00:05" 5000000) None []).
  split.
  - repeat split; cbn; try lia. constructor.
  - intros a Ha. vm_compute.
    destruct a as [|p|p]; try lia; eexists; reflexivity.
Qed.

(** ** C15 *)

Theorem C15_zero_is_absent : forall avail x cb ce ct,
  zero_safe_body x ->
  validate avail (Some x) = TOk (cb, ce, ct) ->
  exists ct', validate avail (Some (erase_body x)) = TOk (cb, ce, ct') /\
              times ct' = times ct.
Proof.
  intros avail x cb ce ct Hz H.
  destruct (C12_compositional _ _ _ _ _ H) as [T (ks & Eq)].
  destruct (body_erase _ _ _ Hz T) as (ct' & T' & Et).
  destruct (C12_unique avail (erase_body x) ct' T') as (cb' & ce' & E).
  destruct (C12_compositional _ _ _ _ _ E) as [_ (ks' & Eq')]. subst.
  cbn in Et. inversion Et; subst. eexists. split; [exact E|]. cbn. congruence.
Qed.

(** In particular end=0 does not bound a paragraph that has no begin. *)
Theorem C15_zero_end_unbounded : forall a, exists cb ct,
  validate a (Some (mkBody None None None
    [Timed None None [Timed None (A "00:00:00" 0) []]])) = TOk (cb, None, ct).
Proof. intros [a|]; cbn; eauto. Qed.

Example C15_sample :
  let x := mkBody (A "0s" 0) (A "9s" 9000000) None
    [Timed (A "00:00:00" 0) None [Timed None (A "0s" 0) []];
     Timed (A "2s" 2000000) (A "1s" 1000000) []]%string in
  zero_safe_body x /\ erase_body x <> x /\
  match validate None (Some x) with
  | TOk (_, _, ct) => times ct | TErr _ => ShO end =
  Sh 0 (Some 9000000) [Sh 0 (Some 9000000) [Sh 0 (Some 9000000) []]; Sh 2000000 (Some 1000000) []].
Proof.
  split; [|split; [discriminate|vm_compute; reflexivity]].
  split; [intros H; vm_compute in H; discriminate|].
  repeat constructor; unfold erase_safe; vm_compute; auto; intros; try discriminate.
Qed.

(** The restriction is needed: with both attributes present a zero end makes
    an element badly timed, and then it differs from an absent end. *)
Theorem C15_zero_end_after_begin_differs :
  exists x, ~ zero_safe_body x /\
    match validate None (Some x), validate None (Some (erase_body x)) with
    | TOk (_, ce, _), TOk (_, ce', _) => ce <> ce'
    | _, _ => False
    end.
Proof.
  exists (mkBody None None None
    [Timed None None [Timed (A "10s" 10000000) (A "0s" 0) [];
                      Timed None (A "5s" 5000000) []]]%string).
  split; [|vm_compute; discriminate].
  intros [_ H]. inversion H as [|? ? H1 _]; subst. inversion H1 as [|? ? ? _ H2]; subst.
  inversion H2 as [|? ? H3 _]; subst. inversion H3 as [|? ? ? Hs _]; subst.
  destruct (Hs eq_refl) as [_ E]. discriminate.
Qed.

(** ** C42: elements whose end does not follow their begin are invisible *)

Theorem C42_badly_timed_invisible : forall avail x cb ce ct,
  validate avail (Some x) = TOk (cb, ce, ct) ->
  validate avail (Some (prune_body x)) = TOk (cb, ce, prune_c ct).
Proof.
  intros avail x cb ce ct H.
  destruct (C12_compositional _ _ _ _ _ H) as [T (ks & Eq)].
  destruct (C12_unique avail _ _ (body_prune _ _ _ T)) as (cb' & ce' & E).
  rewrite E. destruct (C12_compositional _ _ _ _ _ E) as [_ (ks' & Eq')].
  subst ct. cbn in Eq'. inversion Eq'; subst. reflexivity.
Qed.

Example C42_sample : prune_body sample_bad <> sample_bad /\
  match validate None (Some sample_bad) with
  | TOk (cb, ce, ct) => (cb, ce, times ct) | TErr _ => (0, None, ShO) end =
  (10000000, Some 14000000, Sh 10000000 (Some 14000000)
    [Sh 13000000 (Some 14000000)
       [Sh 15000000 (Some 11000000) [Sh 15000000 (Some 11000000) []];
        Sh 13000000 (Some 14000000) []]]).
Proof. split; [discriminate|vm_compute; reflexivity]. Qed.

(** ** C43: intervals nest *)

Theorem C43_intervals_nest : forall avail x cb ce ct,
  validate avail (Some x) = TOk (cb, ce, ct) ->
  0 <= at_avail avail -> nn_body x ->
  forall b e nb ne nks, sub (CTimed b e nb ne nks) ct ->
  forall kb ke kcb kce kks, In (CTimed kb ke kcb kce kks) nks ->
  badly_timed kb ke = false ->
  nb <= kcb /\ (ne = None \/ exists v w, ne = Some v /\ kce = Some w /\ w <= v).
Proof.
  intros avail x cb ce ct H Ha Hn b e nb ne nks Hs kb ke kcb kce kks Hk Hbad.
  destruct (C12_compositional _ _ _ _ _ H) as [T _].
  eapply (body_nested _ _ _ Ha Hn T _ Hs); [reflexivity|].
  eexists. split; [exact Hk|]. exists kb, ke, kks. auto.
Qed.

(** So when an element is part of a time segment (timing.py 272-279), the
    element around it is as well. *)
Theorem C43_segment_keeps_ancestors : forall avail x cb ce ct,
  validate avail (Some x) = TOk (cb, ce, ct) ->
  0 <= at_avail avail -> nn_body x ->
  forall b e nb ne nks, sub (CTimed b e nb ne nks) ct ->
  forall kb ke kcb kce kks, In (CTimed kb ke kcb kce kks) nks ->
  badly_timed kb ke = false ->
  forall sb se, is_in_segment kcb kce sb se = true -> is_in_segment nb ne sb se = true.
Proof.
  intros avail x cb ce ct H Ha Hn b e nb ne nks Hs kb ke kcb kce kks Hk Hbad sb se Hseg.
  destruct (C43_intervals_nest _ _ _ _ _ H Ha Hn _ _ _ _ _ Hs _ _ _ _ _ Hk Hbad)
    as [Hb [->|(v & w & -> & -> & Hw)]]; unfold is_in_segment in *.
  - assert (Hz : match se with Some z => negb (z <=? kcb) | None => true end = true).
    { destruct sb, kce, se; auto; destruct (_ <=? _); auto; discriminate. }
    destruct sb, se; auto; apply negb_true_iff, Z.leb_gt in Hz;
      apply negb_true_iff, Z.leb_gt; lia.
  - destruct sb as [s|].
    + destruct (Z.leb_spec w s); [discriminate|].
      destruct (Z.leb_spec v s); [lia|].
      destruct se; auto. apply negb_true_iff, Z.leb_gt in Hseg.
      apply negb_true_iff, Z.leb_gt. lia.
    + destruct se; auto. apply negb_true_iff, Z.leb_gt in Hseg.
      apply negb_true_iff, Z.leb_gt. lia.
Qed.

Example C43_sample : nn_body sample_bad /\
  In (CTimed (A "3s" 3000000) (A "4s" 4000000) 13000000 (Some 14000000) [])
     [CTimed (A "3s" 3000000) (A "4s" 4000000) 13000000 (Some 14000000) []]%string.
Proof.
  split; [|left; auto].
  unfold nn_body, sample_bad; cbn. repeat split; try lia.
  repeat (constructor; cbn; try lia).
Qed.

Print Assumptions C11_context_restored.
Print Assumptions C11_context_restored_body.
Print Assumptions C11_never_fails.
Print Assumptions C11_siblings_independent.
Print Assumptions C12_compositional.
Print Assumptions C12_unique.
Print Assumptions C12_element.
Print Assumptions C12_no_body.
Print Assumptions C13_explicit_end_bounds.
Print Assumptions C13_body_end_bounds.
Print Assumptions C13_badly_timed_body_endless.
Print Assumptions C14_not_before_available.
Print Assumptions C14_badly_timed_body_before_available.
Print Assumptions C15_zero_is_absent.
Print Assumptions C15_zero_end_unbounded.
Print Assumptions C15_zero_end_after_begin_differs.
Print Assumptions C42_badly_timed_invisible.
Print Assumptions C43_intervals_nest.
Print Assumptions C43_segment_keeps_ancestors.
