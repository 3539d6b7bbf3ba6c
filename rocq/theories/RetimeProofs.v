(** Proofs about retiming. *)

From Coq Require Import List ZArith String Bool Lia.
From Verif Require Import TimeModel TimeSpec TimeProofs TimingModel TimingSpec TimingProofs.
From Verif Require Import RetimeModel RetimeSpec PropsTime.
Import ListNotations.
Open Scope Z_scope.

Lemma node_ind' : forall P : node -> Prop,
  P NOther ->
  (forall k b e ks, Forall P ks -> P (NTimed k b e ks)) ->
  forall n, P n.
Proof.
  intros P H0 H1. fix IH 1. intros [k b e ks|]; [|exact H0].
  apply H1. induction ks as [|x r IHr]; constructor; auto.
Qed.

Lemma leaves_timed : forall k b e ks cb' ce' cb ce cks,
  leaves (NTimed k b e ks) (CTimed cb' ce' cb ce cks) =
  if is_timed_leaf k ks then [(cb, ce)] else leaves_all ks cks.
Proof.
  intros. reflexivity.
Qed.

Lemma update_child_timed : forall tb d k b e ks,
  update_child tb d (NTimed k b e ks) =
  rbind (delayed_opt tb d e) (fun e' =>
  match b with
  | Some x => rbind (delayed tb d x) (fun x' => ROk (NTimed k (Some x') e' ks))
  | None => rbind (update_all tb d ks) (fun ks' => ROk (NTimed k None e' ks'))
  end).
Proof.
  intros. cbn [update_child]. destruct (delayed_opt tb d e); cbn [rbind]; auto.
  destruct b; auto. f_equal. induction ks as [|x r IH]; cbn [update_all]; auto.
  destruct (update_child tb d x); cbn [rbind]; auto. rewrite IH. auto.
Qed.

(** ** The path finder *)

Lemma find_found : forall n s, f_found s = true -> find n s = s.
Proof. intros [k b e ks|] s H; cbn [find]; auto. rewrite H. auto. Qed.

Lemma fold_found : forall l s, f_found s = true -> fold_left (fun s k => find k s) l s = s.
Proof. induction l; cbn; intros; auto. rewrite find_found; auto. Qed.

Lemma find_pos : forall n k, find n (mkFinder false (S k)) = mkFinder false (S k).
Proof.
  induction n as [|kd b e ks IH] using node_ind'; intros k; cbn [find]; auto.
  cbn [f_found].
  assert (Hf : forall m, fold_left (fun s k => find k s) ks (mkFinder false (S m)) = mkFinder false (S m)).
  { intros m. induction IH as [|x r Hx Hr IHr]; cbn [fold_left]; auto. rewrite Hx; auto. }
  destruct (begin_timed b); cbn [f_stack Nat.eqb]; rewrite andb_false_r, Hf; reflexivity.
Qed.

Lemma fold_pos : forall l k,
  fold_left (fun s k => find k s) l (mkFinder false (S k)) = mkFinder false (S k).
Proof. induction l; cbn; intros; auto. rewrite find_pos; auto. Qed.

Lemma find_zero : forall n, exists r, find n (mkFinder false 0) = mkFinder r 0 /\
  (r = false <-> all_timed n).
Proof.
  induction n as [|k b e ks IH] using node_ind'.
  - exists false. split; [reflexivity|]. split; auto. constructor.
  - cbn [find f_found]. destruct b as [b|]; cbn [begin_timed f_stack].
    + cbn [Nat.eqb]. rewrite andb_false_r, fold_pos. exists false. split; [reflexivity|].
      split; auto. constructor.
    + cbn [Nat.eqb]. rewrite andb_true_r. destruct (is_timed_leaf k ks) eqn:El.
      * exists true. split; [reflexivity|]. split; [discriminate|].
        intros H. inversion H; subst. congruence.
      * assert (Hf : exists r, fold_left (fun s k => find k s) ks (mkFinder false 0) = mkFinder r 0 /\
          (r = false <-> Forall all_timed ks)).
        { clear El. induction IH as [|x l Hx Hl IHl].
          - exists false. split; [reflexivity|]. split; auto.
          - cbn [fold_left]. destruct Hx as (rx & -> & Hx). destruct rx.
            + rewrite fold_found by auto. exists true. split; auto. split; [discriminate|].
              intros H. inversion H; subst. apply Hx in H2. discriminate.
            + destruct IHl as (r & -> & Hr). exists r. split; auto. rewrite Hr. split; intros H.
              * constructor; auto. apply Hx; auto.
              * inversion H; auto. }
        destruct Hf as (r & -> & Hr). exists r. split; [reflexivity|]. rewrite Hr. split; intros H.
        -- constructor; auto.
        -- inversion H; auto.
Qed.

Lemma has_untimed_leaf_spec : forall x, has_untimed_leaf x = false <-> all_timed_body x.
Proof.
  intros x. unfold has_untimed_leaf, all_timed_body.
  destruct (nb_begin x) as [b|]; cbn [begin_timed].
  - rewrite fold_pos. cbn. split; auto. left; discriminate.
  - assert (Hf : forall ks, exists r, fold_left (fun s k => find k s) ks (mkFinder false 0) = mkFinder r 0 /\
      (r = false <-> Forall all_timed ks)).
    { induction ks as [|y l IHl].
      - exists false. split; [reflexivity|]. split; auto.
      - cbn [fold_left]. destruct (find_zero y) as (ry & -> & Hy). destruct ry.
        + rewrite fold_found by auto. exists true. split; auto. split; [discriminate|].
          intros H. inversion H; subst. apply Hy in H2. discriminate.
        + destruct IHl as (r & -> & Hr). exists r. split; auto. rewrite Hr. split; intros H.
          * constructor; auto. apply Hy; auto.
          * inversion H; auto. }
    destruct (Hf (nb_kids x)) as (r & -> & Hr). cbn [f_found]. rewrite Hr. split; auto.
    intros [H|H]; [congruence|auto].
Qed.

(** ** Written times *)

Lemma make_time_us : forall tb t a, in_range t -> make_time tb t = ROk a -> ta_us a = trunc_ms t.
Proof.
  intros tb t a Hr H.
  assert (Hfull : clock_td false (full_of t) = Some (trunc_ms t)) by (apply C17_full_roundtrip; auto).
  destruct tb; cbn [make_time] in H.
  - destruct (limited_of t) as [s|] eqn:E; [|discriminate].
    destruct (C17_limited_roundtrip t s Hr E) as [H1 _]. rewrite H1 in H. inversion H. reflexivity.
  - rewrite Hfull in H. inversion H. reflexivity.
  - rewrite Hfull in H. inversion H. reflexivity.
Qed.

Lemma trunc_add : forall a d, trunc_ms (a + trunc_ms d) = trunc_ms a + trunc_ms d.
Proof.
  intros a d. unfold trunc_ms.
  assert (Hd := Z.div_mod d 1000 ltac:(lia)).
  replace (d - d mod 1000) with (d / 1000 * 1000) by lia.
  rewrite Z_mod_plus_full. lia.
Qed.

Lemma trunc_range : forall t, in_range t -> in_range (trunc_ms t).
Proof.
  intros t H. unfold in_range, trunc_ms in *.
  assert (Hd := Z.div_mod t 1000 ltac:(lia)). assert (Hb := Z.mod_pos_bound t 1000 ltac:(lia)).
  assert (0 <= t / 1000) by (apply Z.div_pos; lia). lia.
Qed.

Lemma delayed_us : forall tb d a a', tb <> TBOther -> in_range d -> 0 <= ta_us a ->
  delayed tb d a = ROk a' -> ta_us a' = trunc_ms (ta_us a) + trunc_ms d.
Proof.
  intros tb d a a' Htb Hd Ha H.
  assert (E : delayed tb d a = rbind (make_time tb d) (fun da =>
         match mk_td (ta_us a + ta_us da) with
         | Some t => make_time tb t
         | None => RErr RFormat
         end)) by (destruct tb; [reflexivity|reflexivity|congruence]).
  rewrite E in H. destruct (make_time tb d) as [da|] eqn:Ed; [|discriminate].
  cbn [rbind] in H. rewrite (make_time_us tb d da Hd Ed) in H.
  unfold mk_td in H.
  destruct ((min_td <=? ta_us a + trunc_ms d) && (ta_us a + trunc_ms d <? max_td)) eqn:Em; [|discriminate].
  apply andb_true_iff in Em as [_ Em]. apply Z.ltb_lt in Em.
  apply make_time_us in H.
  - rewrite H. apply trunc_add.
  - assert (Hr := trunc_range d Hd). unfold in_range in *. unfold max_td, us_per_day, us_per_s in Em. lia.
Qed.

(** ** Intervals *)

Lemma offset_some : forall a, offset (Some a) = ta_us a.
Proof. intros a. unfold offset, eff. destruct (Z.eq_dec (ta_us a) 0); auto. Qed.

Lemma offset_none : offset None = 0.
Proof. reflexivity. Qed.

Lemma onear_tighten_same : forall d s base base' lim lim' e,
  near d s base base' -> onear d s lim lim' ->
  onear d s (tighten lim base e) (tighten lim' base' e).
Proof.
  intros d s base base' lim lim' e Hb Hl. unfold tighten.
  destruct (eff e) as [v|]; auto.
  destruct lim as [l|], lim' as [l'|]; cbn in Hl; try contradiction; cbn [onear]; unfold near in *; lia.
Qed.

Lemma leaf_no_kids : forall k b e ks, wf (NTimed k b e ks) -> is_timed_leaf k ks = true ->
  Forall (fun n => n = NOther) ks.
Proof.
  intros k b e ks Hw Hl. destruct k; [discriminate|]. inversion Hw as [| |? ? ? Hwk Hin]; subst.
  unfold is_timed_leaf in Hl. apply negb_true_iff in Hl.
  rewrite Forall_forall in Hin |- *. intros x Hx. destruct (Hin x Hx) as [H|H]; auto.
  exfalso. assert (Ht : existsb is_inline ks = true) by (apply existsb_exists; eauto). congruence.
Qed.

Lemma others_not_counted : forall avail base lim ks cks,
  Forall (fun n => n = NOther) ks -> Forall2 (timed avail base lim) (map to_elem ks) cks ->
  forall cb ce, ~ counted_in cks cb ce.
Proof.
  intros avail base lim ks cks Hk Hf cb ce (k & Hin & b & e & kk & -> & _).
  revert cks Hf Hin. induction Hk as [|x r Hx Hr IH]; intros cks Hf Hin; cbn [map] in Hf; inversion Hf; subst.
  - destruct Hin.
  - destruct Hin as [->|Hin]; [|eauto]. cbn [to_elem] in *. inversion H1.
Qed.

(** The computed times of a leaf. *)
Lemma leaf_times : forall avail base lim k b e ks ct,
  wf (NTimed k b e ks) -> is_timed_leaf k ks = true ->
  timed avail base lim (to_elem (NTimed k b e ks)) ct ->
  exists cks, ct = CTimed b e (start_at avail (base + offset b)) (tighten lim base e) cks.
Proof.
  intros avail base lim k b e ks ct Hw Hl H. cbn [to_elem] in H.
  inversion H as [|? ? ? cb ce cks F E B]; subst. exists cks.
  assert (Hn : forall cb ce, ~ counted_in cks cb ce).
  { eapply others_not_counted; [eapply leaf_no_kids; eauto|exact F]. }
  assert (Ece : ce = tighten lim base e).
  { unfold is_given in E. destruct (eff e) as [v|] eqn:Ee.
    - assert (exists w, tighten lim base e = Some w) as (w & Ew).
      { unfold tighten. rewrite Ee. destruct lim; eauto. }
      rewrite Ew in E. inversion E; subst; try congruence.
    - assert (Et : tighten lim base e = lim) by (unfold tighten; rewrite Ee; auto).
      rewrite Et. inversion E; subst; try discriminate; auto.
      + exfalso. eapply Hn; eauto.
      + exfalso. eapply Hn; eauto. }
  assert (Ecb : cb = start_at avail (base + offset b)).
  { inversion B; subst; auto. exfalso. eapply Hn; eauto. }
  subst. reflexivity.
Qed.

(** Same attributes in a moved context. *)
Lemma moved_same : forall avail d s n base base' lim lim' ct ct',
  wf n -> near d s base base' -> onear d s lim lim' ->
  timed avail base lim (to_elem n) ct -> timed avail base' lim' (to_elem n) ct' ->
  Forall2 (moved avail d s) (leaves n ct) (leaves n ct').
Proof.
  intros avail d s. induction n as [|k b e ks IH] using node_ind';
    intros base base' lim lim' ct ct' Hw Hb Hl H H'.
  - cbn. constructor.
  - destruct (is_timed_leaf k ks) eqn:El.
    + destruct (leaf_times _ _ _ _ _ _ _ _ Hw El H) as (c1 & ->).
      destruct (leaf_times _ _ _ _ _ _ _ _ Hw El H') as (c2 & ->).
      rewrite !leaves_timed, El. constructor; [|constructor]. split; cbn [fst snd].
      * exists (base + offset b), (base' + offset b). split; [auto|]. split; [auto|].
        unfold near in *. lia.
      * apply onear_tighten_same; auto.
    + cbn [to_elem] in H, H'.
      inversion H as [|? ? ? cb ce cks F _ _]; subst. inversion H' as [|? ? ? cb' ce' cks' F' _ _]; subst.
      rewrite !leaves_timed, El.
      assert (Hwk : Forall wf ks) by (inversion Hw; auto).
      assert (Hb2 : near d s (base + offset b) (base' + offset b)) by (unfold near in *; lia).
      assert (Hl2 := onear_tighten_same d s base base' lim lim' e Hb Hl).
      clear H H' El Hw. revert cks cks' F F'.
      induction IH as [|x r Hx Hr IHr]; intros cks cks' F F'; cbn [map] in F, F';
        inversion F; subst; inversion F'; subst; cbn [leaves_all]; [constructor|].
      inversion Hwk; subst. apply Forall2_app; [eapply Hx; eauto|eauto].
Qed.

Lemma moved_same_all : forall avail d s ks base base' lim lim' cks cks',
  Forall wf ks -> near d s base base' -> onear d s lim lim' ->
  Forall2 (timed avail base lim) (map to_elem ks) cks ->
  Forall2 (timed avail base' lim') (map to_elem ks) cks' ->
  Forall2 (moved avail d s) (leaves_all ks cks) (leaves_all ks cks').
Proof.
  induction ks as [|x r IH]; intros base base' lim lim' cks cks' Hw Hb Hl F F';
    cbn [map] in F, F'; inversion F; subst; inversion F'; subst; cbn [leaves_all]; [constructor|].
  inversion Hw; subst. apply Forall2_app; [eapply moved_same; eauto|eauto].
Qed.

(** Ends moved, same sync base. *)
Lemma onear_tighten_end : forall tb d s base lim lim' e e',
  tb <> TBOther -> in_range d -> fine_end s e -> delayed_opt tb d e = ROk e' ->
  onear (trunc_ms d) s lim lim' ->
  onear (trunc_ms d) s (tighten lim base e) (tighten lim' base e').
Proof.
  intros tb d s base lim lim' e e' Htb Hd Hf He Hl.
  destruct e as [x|]; cbn [delayed_opt] in He.
  - destruct (delayed tb d x) as [y|] eqn:Ey; [|discriminate]. cbn [rbind] in He. inversion He; subst; clear He.
    cbn [fine_end] in Hf. destruct Hf as [H1 H2].
    assert (Hy := delayed_us tb d x y Htb Hd ltac:(lia) Ey).
    assert (Hr := trunc_range d Hd). unfold in_range in Hr.
    assert (Hdm := Z.div_mod (ta_us x) 1000 ltac:(lia)).
    assert (Hmb := Z.mod_pos_bound (ta_us x) 1000 ltac:(lia)).
    assert (1 <= ta_us x / 1000) by (apply Z.div_le_lower_bound; lia).
    assert (Htx : trunc_ms (ta_us x) = ta_us x - ta_us x mod 1000) by reflexivity.
    unfold tighten, eff.
    destruct (Z.eq_dec (ta_us x) 0); [lia|]. destruct (Z.eq_dec (ta_us y) 0); [lia|].
    destruct lim as [l|], lim' as [l'|]; cbn in Hl; try contradiction; cbn [onear]; unfold near in *; lia.
  - inversion He; subst. unfold tighten. cbn [eff]. auto.
Qed.

Lemma near_begin : forall tb d s x y, tb <> TBOther -> in_range d -> fine_begin s (Some x) ->
  delayed tb d x = ROk y -> forall base, near (trunc_ms d) s (base + offset (Some x)) (base + offset (Some y)).
Proof.
  intros tb d s x y Htb Hd [H1 H2] Hy base. rewrite !offset_some.
  rewrite (delayed_us tb d x y Htb Hd H1 Hy). unfold near, trunc_ms.
  assert (Hmb := Z.mod_pos_bound (ta_us x) 1000 ltac:(lia)). lia.
Qed.

Lemma update_shape : forall tb d n n', update_child tb d n = ROk n' ->
  shape_of n' = shape_of n /\ is_inline n' = is_inline n.
Proof.
  intros tb d. induction n as [|k b e ks IH] using node_ind'; intros n' H.
  - cbn in H. inversion H; auto.
  - rewrite update_child_timed in H. destruct (delayed_opt tb d e); [|discriminate]. cbn [rbind] in H.
    destruct b as [x|].
    + destruct (delayed tb d x); [|discriminate]. cbn [rbind] in H. inversion H; subst. auto.
    + destruct (update_all tb d ks) as [ks'|] eqn:Ek; [|discriminate]. cbn [rbind] in H.
      inversion H; subst. cbn [shape_of is_inline]. split; [|destruct k; auto]. f_equal.
      clear H. revert ks' Ek. induction IH as [|x r Hx Hr IHr]; intros ks' Ek; cbn [update_all] in Ek.
      * inversion Ek; auto.
      * destruct (update_child tb d x) eqn:Ex; [|discriminate]. cbn [rbind] in Ek.
        destruct (update_all tb d r) eqn:Er; [|discriminate]. cbn [rbind] in Ek. inversion Ek; subst.
        cbn [map]. f_equal; [apply Hx; auto|auto].
Qed.

Lemma update_all_leaf : forall tb d k ks ks', update_all tb d ks = ROk ks' ->
  is_timed_leaf k ks' = is_timed_leaf k ks.
Proof.
  intros tb d k ks ks' H. unfold is_timed_leaf. destruct k; auto. f_equal.
  revert ks' H. induction ks as [|x r IH]; intros ks' H; cbn [update_all] in H.
  - inversion H; auto.
  - destruct (update_child tb d x) eqn:Ex; [|discriminate]. cbn [rbind] in H.
    destruct (update_all tb d r) eqn:Er; [|discriminate]. cbn [rbind] in H. inversion H; subst.
    cbn [existsb]. f_equal; [|auto]. eapply update_shape; eauto.
Qed.

Lemma wf_update : forall tb d n n', update_child tb d n = ROk n' -> wf n -> wf n'.
Proof.
  intros tb d. induction n as [|k b e ks IH] using node_ind'; intros n' H Hw.
  - cbn in H. inversion H; constructor.
  - rewrite update_child_timed in H. destruct (delayed_opt tb d e); [|discriminate]. cbn [rbind] in H.
    destruct b as [x|].
    + destruct (delayed tb d x); [|discriminate]. cbn [rbind] in H. inversion H; subst.
      inversion Hw; subst; constructor; auto.
    + destruct (update_all tb d ks) as [ks'|] eqn:Ek; [|discriminate]. cbn [rbind] in H.
      inversion H; subst; clear H.
      assert (Hk : Forall wf ks -> Forall wf ks').
      { clear Hw. revert ks' Ek. induction IH as [|x r Hx Hr IHr]; intros ks' Ek Hk; cbn [update_all] in Ek.
        - inversion Ek; auto.
        - destruct (update_child tb d x) eqn:Ex; [|discriminate]. cbn [rbind] in Ek.
          destruct (update_all tb d r) eqn:Er; [|discriminate]. cbn [rbind] in Ek. inversion Ek; subst.
          inversion Hk; subst. constructor; auto. }
      assert (Hi : Forall (fun k => k = NOther \/ is_inline k = true) ks ->
                   Forall (fun k => k = NOther \/ is_inline k = true) ks').
      { clear Hw IH Hk. revert ks' Ek. induction ks as [|x r IHr]; intros ks' Ek Hk; cbn [update_all] in Ek.
        - inversion Ek; auto.
        - destruct (update_child tb d x) as [x'|] eqn:Ex; [|discriminate]. cbn [rbind] in Ek.
          destruct (update_all tb d r) eqn:Er; [|discriminate]. cbn [rbind] in Ek. inversion Ek; subst.
          inversion Hk as [|? ? Hd Hk']; subst. constructor; auto. destruct Hd as [->|Hd].
          + cbn in Ex. inversion Ex. auto.
          + right. destruct (update_shape _ _ _ _ Ex) as [_ E]. congruence. }
      inversion Hw; subst; constructor; auto.
Qed.

(** Delayed children: every leaf has a begin on its path. *)
Lemma moved_update : forall avail tb d s, tb <> TBOther -> in_range d -> 0 <= s ->
  forall n n' base lim lim' ct ct',
  wf n -> fine s n -> all_timed n -> update_child tb d n = ROk n' ->
  onear (trunc_ms d) s lim lim' ->
  timed avail base lim (to_elem n) ct -> timed avail base lim' (to_elem n') ct' ->
  Forall2 (moved avail (trunc_ms d) s) (leaves n ct) (leaves n' ct').
Proof.
  intros avail tb d s Htb Hd Hs. induction n as [|k b e ks IH] using node_ind';
    intros n' base lim lim' ct ct' Hw Hf Ha Hu Hl H H'.
  - cbn in Hu. inversion Hu; subst. cbn. constructor.
  - assert (Hw' := wf_update _ _ _ _ Hu Hw).
    rewrite update_child_timed in Hu.
    destruct (delayed_opt tb d e) as [e'|] eqn:Ee; [|discriminate]. cbn [rbind] in Hu.
    inversion Hf as [|? ? ? ? Fb Fe Fk]; subst.
    assert (Hl2 := onear_tighten_end tb d s base lim lim' e e' Htb Hd Fe Ee Hl).
    assert (Hwk : Forall wf ks) by (inversion Hw; auto).
    destruct b as [x|].
    + destruct (delayed tb d x) as [y|] eqn:Ey; [|discriminate]. cbn [rbind] in Hu.
      inversion Hu; subst; clear Hu.
      assert (Hb2 := near_begin tb d s x y Htb Hd Fb Ey base).
      destruct (is_timed_leaf k ks) eqn:El.
      * destruct (leaf_times _ _ _ _ _ _ _ _ Hw El H) as (c1 & ->).
        destruct (leaf_times _ _ _ _ _ _ _ _ Hw' El H') as (c2 & ->).
        rewrite !leaves_timed, El. constructor; [|constructor]. split; cbn [fst snd]; auto.
        eexists _, _. split; [reflexivity|]. split; [reflexivity|]. exact Hb2.
      * cbn [to_elem] in H, H'.
        inversion H as [|? ? ? cb ce cks F _ _]; subst. inversion H' as [|? ? ? cb' ce' cks' F' _ _]; subst.
        rewrite !leaves_timed, El. eapply moved_same_all; eauto.
    + destruct (update_all tb d ks) as [ks'|] eqn:Ek; [|discriminate]. cbn [rbind] in Hu.
      inversion Hu; subst; clear Hu. inversion Ha as [| |? ? ? El Hak]; subst.
      assert (El' := update_all_leaf tb d k ks ks' Ek). rewrite El in El'.
      cbn [to_elem] in H, H'.
      inversion H as [|? ? ? cb ce cks F _ _]; subst. inversion H' as [|? ? ? cb' ce' cks' F' _ _]; subst.
      rewrite !leaves_timed, El, El'. rewrite offset_none in F, F'.
      clear H H' Hw Hw' Hf Ha El El'.
      revert ks' cks cks' Ek F F'. induction IH as [|x r Hx Hr IHr]; intros ks' cks cks' Ek F F';
        cbn [update_all] in Ek.
      * inversion Ek; subst. cbn. constructor.
      * destruct (update_child tb d x) as [x'|] eqn:Ex; [|discriminate]. cbn [rbind] in Ek.
        destruct (update_all tb d r) as [r'|] eqn:Er; [|discriminate]. cbn [rbind] in Ek.
        inversion Ek; subst; clear Ek. cbn [map] in F, F'.
        inversion F; subst; inversion F'; subst; cbn [leaves_all].
        inversion Hwk; subst. inversion Fk; subst. inversion Hak; subst.
        apply Forall2_app; [eapply Hx; eauto|eapply IHr; eauto].
Qed.

Lemma moved_update_all : forall avail tb d s ks ks' base lim lim' cks cks',
  tb <> TBOther -> in_range d -> 0 <= s ->
  Forall wf ks -> Forall (fine s) ks -> Forall all_timed ks -> update_all tb d ks = ROk ks' ->
  onear (trunc_ms d) s lim lim' ->
  Forall2 (timed avail base lim) (map to_elem ks) cks ->
  Forall2 (timed avail base lim') (map to_elem ks') cks' ->
  Forall2 (moved avail (trunc_ms d) s) (leaves_all ks cks) (leaves_all ks' cks').
Proof.
  intros avail tb d s. induction ks as [|x r IH]; intros ks' base lim lim' cks cks' Htb Hd Hs Hw Hf Ha Hu Hl F F';
    cbn [update_all] in Hu.
  - inversion Hu; subst. cbn. constructor.
  - destruct (update_child tb d x) as [x'|] eqn:Ex; [|discriminate]. cbn [rbind] in Hu.
    destruct (update_all tb d r) as [r'|] eqn:Er; [|discriminate]. cbn [rbind] in Hu.
    inversion Hu; subst; clear Hu. cbn [map] in F, F'.
    inversion F; subst; inversion F'; subst; cbn [leaves_all].
    inversion Hw; subst. inversion Hf; subst. inversion Ha; subst.
    apply Forall2_app; [eapply moved_update; eauto|eapply IH; eauto].
Qed.

(** ** Documents *)

Lemma document_leaves_spec : forall avail x, exists cks,
  Forall2 (timed avail (offset (nb_begin x)) (body_end avail (to_body x))) (map to_elem (nb_kids x)) cks /\
  document_leaves avail x = leaves_all (nb_kids x) cks.
Proof.
  intros avail x. unfold document_leaves, validate.
  destruct (visit_body_correct avail (to_body x)) as (ct & -> & H). cbn [tbind].
  inversion H as [cb ce cks Hb F E B|cb cks Hb F B]; subst; exists cks; split; auto.
Qed.

Lemma body_end_plain : forall avail x, nb_dur x = None ->
  body_end avail (to_body x) = tighten None 0 (nb_end x).
Proof.
  intros avail x H. unfold body_end, to_body, tighten. cbn [b_dur b_end]. rewrite H. cbn [eff].
  destruct (eff (nb_end x)); auto.
Qed.

Lemma retime_moved : forall avail tb d s x x',
  tb <> TBOther -> in_range d -> 0 <= s -> nb_dur x = None ->
  Forall wf (nb_kids x) -> fine_body s x -> retime tb d x = ROk x' ->
  Forall2 (moved avail (trunc_ms d) s) (document_leaves avail x) (document_leaves avail x').
Proof.
  intros avail tb d s x x' Htb Hd Hs Hdur Hw (Fb & Fe & Fk) Hr.
  destruct (document_leaves_spec avail x) as (cks & F & ->).
  destruct (document_leaves_spec avail x') as (cks' & F' & ->).
  unfold retime in Hr. destruct (has_untimed_leaf x) eqn:Hu.
  - unfold update_body in Hr. destruct (nb_begin x) eqn:Hb; [discriminate|].
    assert (E : rbind (make_time tb d) (fun da => rbind (make_time tb (ta_us da)) (fun b => ROk (Some b)))
      = match tb with
             | TBOther => ROk None
             | _ => rbind (make_time tb d) (fun da =>
                    rbind (make_time tb (ta_us da)) (fun b => ROk (Some b)))
             end) by (destruct tb; congruence).
    rewrite <- E in Hr. clear E.
    destruct (make_time tb d) as [da|] eqn:Ed; [|discriminate]. cbn [rbind] in Hr.
    assert (Hda := make_time_us tb d da Hd Ed).
    destruct (make_time tb (ta_us da)) as [b|] eqn:Eb; [|discriminate]. cbn [rbind] in Hr.
    assert (Hbu : ta_us b = trunc_ms d).
    { rewrite Hda in Eb. apply make_time_us in Eb; [|apply trunc_range; auto].
      rewrite Eb. assert (T := trunc_add 0 d). cbn [Z.add] in T. rewrite T. reflexivity. }
    destruct (delayed_opt tb d (nb_end x)) as [e'|] eqn:Ee; [|discriminate]. cbn [rbind] in Hr.
    inversion Hr; subst; clear Hr. cbn [nb_kids nb_begin] in *.
    rewrite body_end_plain in F, F' by auto. cbn [nb_end] in F'.
    rewrite ?Hb in F. rewrite offset_none in F. rewrite offset_some, Hbu in F'.
    eapply moved_same_all; [exact Hw| | |exact F|exact F'].
    + unfold near. lia.
    + eapply onear_tighten_end; eauto.
  - apply has_untimed_leaf_spec in Hu. unfold update_children in Hr.
    destruct (delayed_opt tb d (nb_end x)) as [e'|] eqn:Ee; [|discriminate]. cbn [rbind] in Hr.
    assert (Hl : onear (trunc_ms d) s (tighten None 0 (nb_end x)) (tighten None 0 e'))
      by (eapply onear_tighten_end; [exact Htb|exact Hd|exact Fe|exact Ee|exact I]).
    destruct (nb_begin x) as [b|] eqn:Hb.
    + destruct (delayed tb d b) as [b'|] eqn:Eb; [|discriminate]. cbn [rbind] in Hr.
      inversion Hr; subst; clear Hr. cbn [nb_kids nb_begin] in *.
      rewrite body_end_plain in F, F' by auto. cbn [nb_end] in F'. rewrite ?Hb in F.
      assert (Hn := near_begin tb d s b b' Htb Hd Fb Eb 0). cbn [Z.add] in Hn.
      eapply moved_same_all; eauto.
    + destruct (update_all tb d (nb_kids x)) as [ks'|] eqn:Ek; [|discriminate]. cbn [rbind] in Hr.
      inversion Hr; subst; clear Hr. cbn [nb_kids nb_begin] in *.
      rewrite body_end_plain in F, F' by auto. cbn [nb_end] in F'. rewrite ?Hb in F.
      destruct Hu as [Hu|Hu]; [congruence|]. eapply moved_update_all; eauto.
Qed.

(** ** Success *)

Lemma make_time_ok : forall tb t, in_range t -> (tb = TBClock -> t < h100) ->
  exists a, make_time tb t = ROk a /\ ta_us a = trunc_ms t.
Proof.
  intros tb t Hr Hc.
  assert (Hfull : clock_td false (full_of t) = Some (trunc_ms t)) by (apply C17_full_roundtrip; auto).
  destruct tb; cbn [make_time].
  - destruct (limited_of t) as [s|] eqn:E.
    + destruct (C17_limited_roundtrip t s Hr E) as [H1 _]. rewrite H1. eexists; split; reflexivity.
    + apply C17_limited_overflow in E. specialize (Hc eq_refl). lia.
  - rewrite Hfull. eexists; split; reflexivity.
  - rewrite Hfull. eexists; split; reflexivity.
Qed.

Lemma delayed_ok : forall tb d a, in_range d -> 0 <= ta_us a -> in_range (ta_us a + d) ->
  (tb = TBClock -> ta_us a + d < h100) -> exists a', delayed tb d a = ROk a'.
Proof.
  intros tb d a Hd Ha Hr Hc. destruct (Z.eq_dec 0 0) as [_|]; [|congruence].
  assert (Ht := trunc_range d Hd).
  assert (Hle : trunc_ms d <= d).
  { unfold trunc_ms. assert (Hb := Z.mod_pos_bound d 1000 ltac:(lia)). lia. }
  destruct (make_time_ok tb d Hd) as (da & Ed & Hda); [intros E; specialize (Hc E); lia|].
  unfold in_range in *.
  assert (Em : mk_td (ta_us a + ta_us da) = Some (ta_us a + ta_us da)).
  { apply mk_td_ok. rewrite Hda. unfold min_td, max_td, us_per_day, us_per_s. lia. }
  destruct (make_time_ok tb (ta_us a + ta_us da)) as (a' & Ea & _).
  { unfold in_range. rewrite Hda. lia. }
  { intros E. specialize (Hc E). rewrite Hda. lia. }
  destruct tb; cbn [delayed]; try (rewrite Ed; cbn [rbind]; rewrite Em, Ea); eauto.
Qed.
