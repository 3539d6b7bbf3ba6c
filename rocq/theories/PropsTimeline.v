(** C48: which elements of a document a range of time touches. *)

From Coq Require Import List ZArith Bool Arith Lia Sorting.Sorted Permutation.
From Verif Require Import SequenceModel SequenceProofs TimelineModel.
Import ListNotations.
Open Scope Z_scope.

(** What the lookup is to return, in terms of the elements' computed times: an
    element beginning before the end of the range that had not ended when the
    range began. *)
Definition touches (b e : option Z) (cb : Z) (ce : option Z) : Prop :=
  match e with Some z => cb < z | None => True end /\
  match b, ce with Some s, Some x => s < x | _, _ => True end.

(** ** The loop in closed form *)

Definition begins (evs : list (event nat)) : list nat := map ev_elem (filter is_begin evs).

Definition ended (b : option Z) (evs : list (event nat)) (n : nat) : bool :=
  existsb (fun ev => negb (is_begin ev) && (ev_elem ev =? n)%nat &&
                     match b with Some s => ev_when ev <=? s | None => false end) evs.

Fixpoint kept_begins (b e : option Z) (evs : list (event nat)) : list (event nat) :=
  match evs with
  | [] => []
  | ev :: r =>
      if is_begin ev && match e with None => true | Some x => negb (ev_when ev =? x) end
         && negb (ended b r (ev_elem ev))
      then ev :: kept_begins b e r else kept_begins b e r
  end.

Lemma remove_first_filter : forall n acc, NoDup acc ->
  (if existsb (fun y => (n =? y)%nat) acc then remove_first (fun y => (n =? y)%nat) acc else acc)
  = filter (fun y => negb (n =? y)%nat) acc.
Proof.
  induction acc as [|a acc IH]; intros N; auto. inversion N as [|? ? Na N']; subst. cbn.
  destruct (Nat.eqb_spec n a) as [->|Hn]; cbn.
  - symmetry. apply filter_all. intros y Hy.
    destruct (Nat.eqb_spec a y); auto. subst. contradiction.
  - rewrite <- IH by auto. destruct (existsb (fun y => (n =? y)%nat) acc); auto.
Qed.

Lemma filter_filter : forall (A : Type) (p q : A -> bool) l, filter p (filter q l) = filter (fun x => q x && p x) l.
Proof. induction l as [|a l IH]; auto. cbn. destruct (q a); cbn; rewrite IH; auto. Qed.

Lemma NoDup_left : forall (A : Type) (l1 l2 : list A), NoDup (l1 ++ l2) -> NoDup l1.
Proof.
  induction l1 as [|a l1 IH]; intros l2 N; constructor; inversion N; subst; eauto.
  intros H. apply H1. apply in_or_app. auto.
Qed.

Lemma NoDup_app_filter : forall (A : Type) (p : A -> bool) l1 l2, NoDup (l1 ++ l2) -> NoDup (filter p l1 ++ l2).
Proof.
  induction l1 as [|a l1 IH]; intros l2 N; auto. cbn. inversion N as [|? ? Na N']; subst. destruct (p a); cbn; auto.
  constructor; auto. intros H. apply Na. rewrite in_app_iff in *. destruct H; auto. apply filter_In in H. tauto.
Qed.

Lemma loop_closed : forall b e evs acc, NoDup (acc ++ begins evs) ->
  lookup_loop Nat.eqb b e evs acc =
  (filter (fun n => negb (ended b evs n)) acc ++ map ev_elem (kept_begins b e evs))%list.
Proof.
  intros b e. induction evs as [|ev r IH]; intros acc N.
  - cbn. rewrite app_nil_r. symmetry. apply filter_all. auto.
  - destruct ev as [k w n]. cbn [lookup_loop ev_kind ev_when ev_elem].
    destruct k; cbn [kept_begins is_begin ev_kind ev_when ev_elem].
    + unfold begins in N. cbn in N. fold (begins r) in N.
      assert (F : forall m, ended b (mkEvent KBegin w n :: r) m = ended b r m) by reflexivity.
      rewrite (filter_ext _ _ (fun m => f_equal negb (F m))). cbn [andb].
      destruct (match e with None => true | Some x => negb (w =? x) end).
      * rewrite IH by (rewrite <- app_assoc; exact N). rewrite filter_app. cbn [filter andb].
        rewrite <- app_assoc. destruct (negb (ended b r n)); auto.
      * rewrite IH; auto. apply NoDup_remove_1 in N. exact N.
    + unfold begins in N. cbn in N. fold (begins r) in N. cbn [andb].
      destruct (match b with None => false | Some x => w <=? x end) eqn:E.
      * rewrite remove_first_filter by (eapply NoDup_left; eauto).
        rewrite IH by (apply NoDup_app_filter; auto). rewrite filter_filter.
        f_equal. apply filter_ext. intros m. cbn. replace (match b with Some s => w <=? s | None => false end) with true by (destruct b; auto).
        rewrite andb_true_r. cbn. rewrite negb_orb. auto.
      * rewrite IH by auto. f_equal. apply filter_ext. intros m. cbn.
        replace (match b with Some s => w <=? s | None => false end) with false by (destruct b; auto).
        rewrite andb_false_r. auto.
Qed.

(** ** The timeline *)

Lemma tl_add_split : forall (A : Type) (e : event A) l, exists l1 l2, l = l1 ++ l2 /\ tl_add e l = l1 ++ e :: l2.
Proof.
  induction l as [|x r IH]; [exists [], []; auto|]. cbn. destruct (ev_when x <=? ev_when e).
  - destruct IH as (l1 & l2 & E1 & E2). exists (x :: l1), l2. rewrite E2. cbn. split; auto. rewrite E1 at 1. auto.
  - exists [], (x :: r). auto.
Qed.

Lemma tl_add_sorted : forall (A : Type) (e : event A) l,
  StronglySorted (fun x y => ev_when x <= ev_when y) l -> StronglySorted (fun x y => ev_when x <= ev_when y) (tl_add e l).
Proof.
  induction l as [|x r IH]; intros S; cbn; [repeat constructor|].
  inversion S as [|? ? Sr Fx]; subst. destruct (Z.leb_spec (ev_when x) (ev_when e)).
  - constructor; auto. apply Forall_forall. intros y Hy. apply tl_add_in in Hy. rewrite Forall_forall in Fx.
    destruct Hy as [->|Hy]; auto.
  - constructor; auto. constructor; [lia|]. eapply Forall_impl; [|exact Fx]. cbn. intros; lia.
Qed.

(** The begin event of [n] at [cb] stands in [tl]; its end event at [x], if any,
    stands behind it exactly when [x] is not earlier. *)
Definition placed (tl : list (event nat)) (n : nat) (cb : Z) (ce : option Z) : Prop :=
  exists l1 l2, tl = l1 ++ mkEvent KBegin cb n :: l2 /\
    match ce with
    | Some x => if cb <=? x then In (mkEvent KEnd x n) l2 else In (mkEvent KEnd x n) l1
    | None => True
    end.

Lemma in_mid : forall (A : Type) (x y : A) a b, In x (a ++ b) -> In x (a ++ y :: b).
Proof. intros A x y a b H. rewrite in_app_iff in *. cbn. tauto. Qed.

Lemma placed_add : forall ev tl n cb ce, placed tl n cb ce -> placed (tl_add ev tl) n cb ce.
Proof.
  intros ev tl n cb ce (l1 & l2 & -> & H). destruct (tl_add_split _ ev (l1 ++ mkEvent KBegin cb n :: l2)) as (a & c & E & ->).
  assert (D : (exists m, a = l1 ++ mkEvent KBegin cb n :: m /\ l2 = m ++ c) \/
              (exists m, l1 = a ++ m /\ c = m ++ mkEvent KBegin cb n :: l2)).
  { apply app_eq_app in E. destruct E as (m & [[-> E]|[-> E]]).
    - right. exists m. auto.
    - destruct m as [|y m].
      + right. exists []. rewrite !app_nil_r in *. cbn in *. auto.
      + left. cbn in E. inversion E; subst. exists m. auto. }
  destruct D as [(m & -> & ->)|(m & -> & ->)].
  - exists l1, (m ++ ev :: c). rewrite <- app_assoc. split; [auto|]. destruct ce as [x|]; auto.
    destruct (cb <=? x); auto. apply in_mid; auto.
  - exists (a ++ ev :: m), l2. rewrite <- app_assoc. split; [auto|]. destruct ce as [x|]; auto.
    destruct (cb <=? x); auto. apply in_mid; auto.
Qed.

Lemma placed_new : forall tl n cb ce, StronglySorted (fun x y => ev_when x <= ev_when y) tl -> placed (add_element tl n (cb, ce)) n cb ce.
Proof.
  intros tl n cb ce S. unfold add_element. cbn [fst snd].
  assert (S1 := tl_add_sorted _ (mkEvent KBegin cb n) _ S).
  destruct (tl_add_split _ (mkEvent KBegin cb n) tl) as (l1 & l2 & E & E1). rewrite E1 in *.
  destruct ce as [x|]; [|exists l1, l2; auto].
  assert (S2 : forall y, In y l1 -> ev_when y <= cb).
  { intros y Hy. apply StronglySorted_app in S1. destruct S1 as (_ & _ & S1). apply (S1 y (mkEvent KBegin cb n)); cbn; auto. }
  destruct (Z.leb_spec cb x) as [H|H].
  - rewrite tl_add_app_le by (cbn; intros y Hy; specialize (S2 y Hy); lia). cbn [tl_add ev_when].
    destruct (Z.leb_spec cb x); [|lia]. exists l1, (tl_add (mkEvent KEnd x n) l2). split; auto.
    destruct (Z.leb_spec cb x); [|lia]. apply tl_add_in. auto.
  - assert (G : forall l, exists l1', tl_add (mkEvent KEnd x n) (l ++ mkEvent KBegin cb n :: l2) = l1' ++ mkEvent KBegin cb n :: l2 /\ In (mkEvent KEnd x n) l1').
    { induction l as [|y l (l1' & IH1 & IH2)]; cbn.
      - destruct (Z.leb_spec cb x); [lia|]. exists [mkEvent KEnd x n]. cbn. auto.
      - destruct (ev_when y <=? x).
        + exists (y :: l1'). rewrite IH1. cbn. auto.
        + exists (mkEvent KEnd x n :: y :: l). cbn. auto. }
    destruct (G l1) as (l1' & -> & I). exists l1', l2. split; auto. destruct (Z.leb_spec cb x); [lia|auto].
Qed.

Definition tl_events (m : nat) (l : list (Z * option Z)) (ev : event nat) : Prop :=
  exists k cb ce, nth_error l k = Some (cb, ce) /\ ev_elem ev = (m + k)%nat /\
    match ev_kind ev with KBegin => ev_when ev = cb | KEnd => ce = Some (ev_when ev) end.

Lemma add_element_in : forall tl n cb ce ev, In ev (add_element tl n (cb, ce)) <->
  In ev tl \/ ev = mkEvent KBegin cb n \/ exists x, ce = Some x /\ ev = mkEvent KEnd x n.
Proof.
  intros tl n cb ce ev. unfold add_element. cbn [fst snd]. destruct ce as [x|]; rewrite ?tl_add_in; split.
  - intros [->|[->|H]]; eauto 6.
  - intros [H|[->|(y & E & ->)]]; auto. inversion E; auto.
  - intros [->|H]; auto.
  - intros [H|[->|(y & E & ->)]]; auto. discriminate.
Qed.

Lemma add_elements_in : forall l m tl ev, In ev (add_elements tl m l) <-> In ev tl \/ tl_events m l ev.
Proof.
  induction l as [|[cb ce] l IH]; intros m tl ev; cbn [add_elements].
  - split; auto. intros [H|(k & cb & ce & H & _)]; auto. destruct k; discriminate.
  - rewrite IH, add_element_in. split.
    + intros [[H|[->|(x & -> & ->)]]|(k & cb' & ce' & H1 & H2 & H3)]; auto; right.
      * exists 0%nat, cb, ce. cbn. rewrite Nat.add_0_r. auto.
      * exists 0%nat, cb, (Some x). cbn. rewrite Nat.add_0_r. auto.
      * exists (S k), cb', ce'. cbn. split; auto. split; auto. lia.
    + intros [H|(k & cb' & ce' & H1 & H2 & H3)]; auto. destruct k as [|k].
      * cbn in H1. inversion H1; subst. left. right. rewrite Nat.add_0_r in H2. destruct ev as [[] w n]; cbn in *; subst; eauto.
      * right. exists k, cb', ce'. cbn in H1. split; auto. split; auto. lia.
Qed.

Lemma add_sorted : forall tl n x, StronglySorted (fun x y => ev_when x <= ev_when y) tl ->
  StronglySorted (fun x y => ev_when x <= ev_when y) (add_element tl n x).
Proof. intros tl n [cb ce] S. unfold add_element. cbn. destruct ce; repeat apply tl_add_sorted; auto. Qed.

Lemma add_elements_sorted : forall l m tl, StronglySorted (fun x y => ev_when x <= ev_when y) tl ->
  StronglySorted (fun x y => ev_when x <= ev_when y) (add_elements tl m l).
Proof. induction l as [|x l IH]; intros m tl S; cbn; auto. apply IH, add_sorted; auto. Qed.

Lemma placed_keep : forall l m tl n cb ce, placed tl n cb ce -> placed (add_elements tl m l) n cb ce.
Proof.
  induction l as [|[cb' ce'] l IH]; intros m tl n cb ce P; cbn; auto. apply IH. unfold add_element. cbn.
  destruct ce'; repeat apply placed_add; auto.
Qed.

Lemma placed_all : forall l m tl, StronglySorted (fun x y => ev_when x <= ev_when y) tl ->
  forall k cb ce, nth_error l k = Some (cb, ce) -> placed (add_elements tl m l) (m + k) cb ce.
Proof.
  induction l as [|[cb' ce'] l IH]; intros m tl So k cb ce H; [destruct k; discriminate|].
  cbn [add_elements]. destruct k as [|k]; cbn in H.
  - inversion H; subst. rewrite Nat.add_0_r. apply placed_keep, placed_new; auto.
  - replace (m + S k)%nat with (S m + k)%nat by lia. apply IH; auto. apply add_sorted; auto.
Qed.

(** Each element begins once. *)
Lemma begins_add : forall ev tl, is_begin ev = false -> Permutation (begins (tl_add ev tl)) (begins tl).
Proof.
  intros ev tl H. destruct (tl_add_split _ ev tl) as (a & c & -> & ->). unfold begins. rewrite !filter_app. cbn [filter].
  rewrite H. apply Permutation_refl.
Qed.
Lemma begins_add_b : forall ev tl, is_begin ev = true -> Permutation (begins (tl_add ev tl)) (ev_elem ev :: begins tl).
Proof.
  intros ev tl H. destruct (tl_add_split _ ev tl) as (a & c & -> & ->). unfold begins. rewrite !filter_app. cbn [filter].
  rewrite H, !map_app. cbn. apply Permutation_sym, Permutation_middle.
Qed.

Lemma begins_element : forall tl n x, Permutation (begins (add_element tl n x)) (n :: begins tl).
Proof.
  intros tl n [cb ce]. unfold add_element. cbn [fst snd]. destruct ce.
  - eapply perm_trans; [apply begins_add; auto|]. apply (begins_add_b (mkEvent KBegin cb n)); auto.
  - apply (begins_add_b (mkEvent KBegin cb n)); auto.
Qed.

Lemma begins_nodup : forall l m tl, NoDup (begins tl) -> (forall n, In n (begins tl) -> (n < m)%nat) ->
  NoDup (begins (add_elements tl m l)).
Proof.
  induction l as [|x l IH]; intros m tl N B; cbn; auto. apply IH.
  - eapply Permutation_NoDup; [apply Permutation_sym, begins_element|]. constructor; auto.
    intros H. apply B in H. lia.
  - intros n H. eapply Permutation_in in H; [|apply begins_element]. destruct H as [<-|H]; [lia|].
    apply B in H. lia.
Qed.

Lemma kept_in_iff : forall b e evs ev, In ev (kept_begins b e evs) <->
  is_begin ev = true /\ match e with Some x => ev_when ev <> x | None => True end /\
  exists l1 l2, evs = l1 ++ ev :: l2 /\ ended b l2 (ev_elem ev) = false.
Proof.
  intros b e. induction evs as [|a r IH]; intros ev; cbn [kept_begins].
  - split; [intros []|]. intros (_ & _ & l1 & l2 & E & _). destruct l1; discriminate.
  - assert (R : In ev (kept_begins b e r) -> is_begin ev = true /\ match e with Some x => ev_when ev <> x | None => True end /\
      exists l1 l2, a :: r = l1 ++ ev :: l2 /\ ended b l2 (ev_elem ev) = false).
    { intros H. apply IH in H. destruct H as (H1 & H2 & l1 & l2 & -> & H3). split; auto. split; auto. exists (a :: l1), l2. auto. }
    destruct (is_begin a && _ && _)%bool eqn:C; split; auto.
    + intros [<-|H]; auto. apply andb_true_iff in C. destruct C as [C C3]. apply andb_true_iff in C. destruct C as [C1 C2].
      split; auto. split; [destruct e; auto; apply negb_true_iff, Z.eqb_neq in C2; auto|].
      exists [], r. apply negb_true_iff in C3. auto.
    + intros (H1 & H2 & l1 & l2 & E & H3). destruct l1 as [|y l1]; cbn in E; inversion E; subst; [left; auto|right].
      apply IH. split; auto. split; auto. exists l1, l2. auto.
    + intros (H1 & H2 & l1 & l2 & E & H3). destruct l1 as [|y l1]; cbn in E; inversion E; subst.
      * rewrite H1, H3 in C. cbn in C. rewrite andb_true_r in C. destruct e; [|discriminate].
        apply negb_false_iff, Z.eqb_eq in C. congruence.
      * apply IH. split; auto. split; auto. exists l1, l2. auto.
Qed.

Lemma begins_in : forall ev evs, In ev evs -> is_begin ev = true -> In (ev_elem ev) (begins evs).
Proof. intros ev evs H B. unfold begins. apply in_map, filter_In. auto. Qed.

Lemma begins_filter_nodup : forall (p : event nat -> bool) evs, NoDup (begins evs) -> NoDup (begins (filter p evs)).
Proof.
  intros p. unfold begins. induction evs as [|a r IH]; intros N; auto. cbn in *. destruct (is_begin a) eqn:B.
  - cbn in N. inversion N as [|? ? Na N']; subst. destruct (p a); auto. cbn. rewrite B. cbn. constructor; auto.
    intros H. apply Na. apply in_map_iff in H. destruct H as (y & Ey & Hy). apply filter_In in Hy. destruct Hy as [Hy By].
    apply filter_In in Hy. rewrite <- Ey. apply in_map, filter_In. tauto.
  - destruct (p a); auto. cbn. rewrite B. auto.
Qed.

Lemma split_unique : forall (n : nat) (ev : event nat) l1 l2 l1' l2' evs,
  NoDup (begins evs) -> evs = l1 ++ ev :: l2 -> evs = l1' ++ ev :: l2' -> is_begin ev = true -> l1 = l1' /\ l2 = l2'.
Proof.
  intros n ev. induction l1 as [|a l1 IH]; intros l2 l1' l2' evs N E1 E2 B.
  - destruct l1' as [|a' l1']; subst; cbn in E2; inversion E2; subst; auto. exfalso.
    unfold begins in N. cbn in N. rewrite B in N. cbn in N. inversion N as [|? ? Na _]; subst.
    apply Na. apply begins_in; auto. apply in_or_app. cbn. auto.
  - destruct l1' as [|a' l1']; subst; cbn in E2; inversion E2; subst.
    + exfalso. unfold begins in N. cbn in N. rewrite B in N. cbn in N. inversion N as [|? ? Na _]; subst.
      apply Na. apply begins_in; auto. apply in_or_app. cbn. auto.
    + assert (N' : NoDup (begins (l1 ++ ev :: l2))).
      { unfold begins in *. cbn in N. destruct (is_begin a'); auto. cbn in N. inversion N; auto. }
      destruct (IH l2 l1' l2' _ N' eq_refl H1 B) as [-> ->]. auto.
Qed.

Lemma ended_iff : forall b evs n, ended b evs n = true <->
  exists x s, In (mkEvent KEnd x n) evs /\ b = Some s /\ x <= s.
Proof.
  intros b evs n. unfold ended. rewrite existsb_exists. split.
  - intros ([k w m] & Hin & H). apply andb_true_iff in H. destruct H as [H Hb]. apply andb_true_iff in H. destruct H as [Hk Hn].
    cbn in *. apply Nat.eqb_eq in Hn. subst m. destruct k; [discriminate|]. destruct b as [s|]; [|discriminate].
    apply Z.leb_le in Hb. eauto.
  - intros (x & s & Hin & -> & H). exists (mkEvent KEnd x n). split; auto. cbn. rewrite Nat.eqb_refl. cbn. apply Z.leb_le; auto.
Qed.

(** [took_off b e cb x]: the end at [x] takes an element beginning at [cb] off the
    list again. *)
Definition took_off (b e : option Z) (cb x : Z) : Prop :=
  cb <= x /\ match b with Some s => x <= s | None => False end /\
  match e with Some z => x <= z | None => True end.

(** The lookup in closed form, for any elements and any range. *)
Theorem C48_lookup : forall l b e n,
  In n (affected l b e) <->
  exists cb ce, nth_error l n = Some (cb, ce) /\
    match e with Some z => cb < z | None => True end /\
    forall x, ce = Some x -> ~ took_off b e cb x.
Proof.
  intros l b e n. unfold affected, lookup_range, doc_timeline.
  set (tl := add_elements [] 0 l).
  assert (Sd : StronglySorted (fun x y => ev_when x <= ev_when y) tl) by (apply add_elements_sorted; constructor).
  assert (ND : NoDup (begins tl)) by (apply begins_nodup; [constructor|intros ? []]).
  assert (PL : forall k cb ce, nth_error l k = Some (cb, ce) -> placed tl k cb ce).
  { intros k cb ce H. apply (placed_all l 0 [] (SSorted_nil _) k cb ce H). }
  assert (EV : forall ev, In ev tl <-> tl_events 0 l ev).
  { intros ev. unfold tl. rewrite add_elements_in. split; auto. intros [[]|H]; auto. }
  set (p := fun ev : event nat => match e with Some z => ev_when ev <=? z | None => true end).
  assert (IR : irange_upto e tl = filter p tl).
  { unfold irange_upto, p. destruct e; auto. symmetry. apply filter_all. auto. }
  rewrite IR. rewrite loop_closed by (cbn; apply begins_filter_nodup; auto). cbn [filter app].
  rewrite in_map_iff. split.
  - intros (ev & <- & H). apply kept_in_iff in H. destruct H as (B & Ne & l1 & l2 & E & En).
    assert (Hin : In ev (filter p tl)) by (rewrite E; apply in_or_app; cbn; auto).
    apply filter_In in Hin. destruct Hin as [Hin Hp]. apply EV in Hin. destruct Hin as (k & cb & ce & Hk & He & Hw).
    cbn in He. unfold is_begin in B. destruct ev as [[] w m]; cbn in *; [|discriminate]. subst m w.
    exists cb, ce. split; auto. split.
    + unfold p in Hp. cbn in Hp. destruct e as [z|]; auto. apply Z.leb_le in Hp. lia.
    + intros x -> (T1 & T2 & T3). destruct (PL _ _ _ Hk) as (t1 & t2 & Et & Hx).
      destruct (Z.leb_spec cb x); [|lia].
      assert (E2 : filter p tl = filter p t1 ++ mkEvent KBegin cb k :: filter p t2).
      { rewrite Et, filter_app. cbn [filter]. unfold p at 2. cbn [ev_when].
        unfold p in Hp. cbn [ev_when] in Hp. rewrite Hp. auto. }
      destruct (split_unique k _ _ _ _ _ _ (begins_filter_nodup p _ ND) E E2 eq_refl) as [_ ->].
      destruct b as [s|]; [|contradiction].
      assert (X : ended (Some s) (filter p t2) k = true).
      { apply ended_iff. exists x, s. split; auto. apply filter_In. split; auto. unfold p. cbn. destruct e; auto. apply Z.leb_le; auto. }
      congruence.
  - intros (cb & ce & Hk & He & Hx). exists (mkEvent KBegin cb n). split; auto. apply kept_in_iff. split; auto. split.
    { cbn. destruct e; auto. lia. }
    destruct (PL _ _ _ Hk) as (t1 & t2 & Et & Hpl).
    exists (filter p t1), (filter p t2). split.
    { rewrite Et, filter_app. cbn [filter]. unfold p at 2. cbn [ev_when].
      replace (match e with Some z => cb <=? z | None => true end) with true; auto.
      destruct e as [z|]; auto. symmetry. apply Z.leb_le. lia. }
    cbn [ev_elem]. destruct (ended b (filter p t2) n) eqn:En; auto. exfalso.
    apply ended_iff in En. destruct En as (x & s & Hin & -> & Hxs). apply filter_In in Hin. destruct Hin as [Hin Hp].
    assert (Hev : tl_events 0 l (mkEvent KEnd x n)).
    { apply EV. rewrite Et. apply in_or_app. cbn. auto. }
    destruct Hev as (k & cb' & ce' & Hk' & Hn & Hc). cbn in Hn, Hc. subst k. rewrite Hk in Hk'. inversion Hk'; subst cb' ce'. subst ce.
    apply (Hx x eq_refl). split; [|split; auto].
    + destruct (Z.leb_spec cb x) as [|Hlt]; auto.
      (* sorted: what stands behind the begin event is not earlier *)
      rewrite Et in Sd. apply StronglySorted_app in Sd. destruct Sd as (_ & Sd & _). inversion Sd as [|? ? _ Fo]; subst.
      rewrite Forall_forall in Fo. specialize (Fo _ Hin). cbn in Fo. lia.
    + unfold p in Hp. cbn in Hp. destruct e; auto. apply Z.leb_le; auto.
Qed.

(** For elements that do not end before they begin, and ranges that do not
    either, it is the expected one. *)
Theorem C48_touches : forall l b e n,
  (forall cb x, In (cb, Some x) l -> cb <= x) ->
  (forall s z, b = Some s -> e = Some z -> s <= z) ->
  (In n (affected l b e) <->
   exists cb ce, nth_error l n = Some (cb, ce) /\ touches b e cb ce).
Proof.
  intros l b e n Hl Hbe. rewrite C48_lookup. split; intros (cb & ce & Hk & H1 & H2); exists cb, ce; (split; [auto|]).
  - split; auto. destruct b as [s|], ce as [x|]; auto. destruct (Z.lt_ge_cases s x); auto. exfalso.
    apply (H2 x eq_refl). split; [apply Hl; eapply nth_error_In; eauto|]. split; auto. destruct e as [z|]; auto.
    specialize (Hbe s z eq_refl eq_refl). lia.
  - split; auto. intros x -> (T1 & T2 & T3). destruct b as [s|]; auto. lia.
Qed.

(** Every element at most once, ... *)
Theorem C48_once : forall l b e, NoDup (affected l b e).
Proof.
  intros l b e. unfold affected, lookup_range, doc_timeline.
  assert (ND : NoDup (begins (irange_upto e (add_elements [] 0 l)))).
  { assert (N : NoDup (begins (add_elements [] 0 l))) by (apply begins_nodup; [constructor|intros ? []]).
    unfold irange_upto. destruct e; auto. apply begins_filter_nodup; auto. }
  rewrite loop_closed by auto. cbn [filter app].
  assert (G : forall evs, NoDup (begins evs) -> NoDup (map ev_elem (kept_begins b e evs))).
  { induction evs as [|a r IH]; intros N; [constructor|]. cbn [kept_begins].
    assert (N' : NoDup (begins r)).
    { unfold begins in *. cbn in N. destruct (is_begin a); auto. cbn in N. inversion N; auto. }
    destruct (is_begin a && _ && _)%bool eqn:C; auto. cbn. constructor; auto. intros H.
    apply andb_true_iff in C. destruct C as [C _]. apply andb_true_iff in C. destruct C as [C _].
    unfold begins in N. cbn in N. rewrite C in N. cbn in N. inversion N as [|? ? Na _]; subst. apply Na.
    apply in_map_iff in H. destruct H as (y & <- & Hy). apply kept_in_iff in Hy. destruct Hy as (By & _ & l1 & l2 & -> & _).
    apply begins_in; auto. apply in_or_app. cbn. auto. }
  apply G; auto.
Qed.

(** ... in the order of their begin times. *)
Theorem C48_chronological : forall l b e,
  StronglySorted (fun n m => forall cb ce cb' ce', nth_error l n = Some (cb, ce) -> nth_error l m = Some (cb', ce') -> cb <= cb')
    (affected l b e).
Proof.
  intros l b e. unfold affected, lookup_range, doc_timeline.
  set (tl := add_elements [] 0 l).
  assert (Sd : StronglySorted (fun x y => ev_when x <= ev_when y) (irange_upto e tl)).
  { assert (S1 : StronglySorted (fun x y => ev_when x <= ev_when y) tl) by (apply add_elements_sorted; constructor).
    unfold irange_upto. destruct e; auto. apply StronglySorted_filter; auto. }
  assert (EV : forall ev, In ev (irange_upto e tl) -> tl_events 0 l ev).
  { intros ev H. assert (Hin : In ev tl) by (unfold irange_upto in H; destruct e; auto; apply filter_In in H; tauto).
    unfold tl in Hin. apply add_elements_in in Hin. destruct Hin as [[]|]; auto. }
  rewrite loop_closed.
  2:{ assert (N : NoDup (begins tl)) by (apply begins_nodup; [constructor|intros ? []]).
      cbn. unfold irange_upto. destruct e; auto. apply begins_filter_nodup; auto. }
  cbn [filter app].
  assert (G : forall evs, StronglySorted (fun x y => ev_when x <= ev_when y) evs -> (forall ev, In ev evs -> tl_events 0 l ev) ->
    StronglySorted (fun n m => forall cb ce cb' ce', nth_error l n = Some (cb, ce) -> nth_error l m = Some (cb', ce') -> cb <= cb')
      (map ev_elem (kept_begins b e evs))).
  { induction evs as [|a r IH]; intros Sx Ex; [constructor|]. inversion Sx as [|? ? Sr Fa]; subst. cbn [kept_begins].
    destruct (is_begin a && _ && _)%bool eqn:C; [|apply IH; auto; intros; apply Ex; right; auto].
    cbn. constructor; [apply IH; auto; intros; apply Ex; right; auto|].
    apply Forall_forall. intros m Hm cb ce cb' ce' H1 H2. apply in_map_iff in Hm. destruct Hm as (y & <- & Hy).
    apply kept_in_iff in Hy. destruct Hy as (By & _ & l1 & l2 & -> & _).
    apply andb_true_iff in C. destruct C as [C _]. apply andb_true_iff in C. destruct C as [C _].
    assert (Iy : In y (l1 ++ y :: l2)) by (apply in_or_app; cbn; auto).
    destruct (Ex a (or_introl eq_refl)) as (k & cbk & cek & K1 & K2 & K3).
    destruct (Ex y (or_intror Iy)) as (q & cbq & ceq & Q1 & Q2 & Q3).
    rewrite Forall_forall in Fa. specialize (Fa _ Iy).
    unfold is_begin in C, By. destruct (ev_kind a); [|discriminate]. destruct (ev_kind y); [|discriminate].
    cbn in K2, Q2. rewrite K2 in H1. rewrite Q2 in H2. rewrite K1 in H1. rewrite Q1 in H2. inversion H1; inversion H2; subst. lia. }
  apply G; auto.
Qed.

Example C48_ex :
  affected [(10, Some 20); (15, Some 15); (0, None); (20, Some 30); (30, Some 40)] (Some 18) (Some 30) = [2; 0; 3]%nat.
Proof. reflexivity. Qed.

(** An element whose end is earlier than its begin is found however late the
    range begins. *)
Theorem C48_ends_before_begin : exists l b e, affected l (Some b) (Some e) = [0%nat] /\ l = [(10, Some 5)] /\ 10 < b < e.
Proof. exists [(10, Some 5)], 100, 200. split; [reflexivity|split; [reflexivity|lia]]. Qed.

Print Assumptions C48_lookup.
Print Assumptions C48_touches.
Print Assumptions C48_once.
Print Assumptions C48_chronological.
Print Assumptions C48_ends_before_begin.
