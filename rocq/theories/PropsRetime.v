(** Property C19: the retiming delay node. *)

From Coq Require Import List ZArith String Bool Lia.
From Verif Require Import TimeModel TimeSpec TimeProofs TimingModel TimingSpec TimingProofs.
From Verif Require Import RetimeModel RetimeSpec RetimeProofs.
Import ListNotations.
Open Scope Z_scope.

(** Sample documents: a body without begin; all leaves below a begin. *)
Notation T s us := (Some (mkTattr s us)).
Definition paths : nbody := mkNBody None (T "00:01:00" 60000000) None
  [ NTimed KBlock None (T "00:00:40" 40000000)
      [ NTimed KInline (T "00:00:05" 5000000) (T "00:00:09" 9000000) [NOther];
        NTimed KInline None None
          [ NTimed KInline (T "00:00:07" 7000000) None [NOther];
            NTimed KInline (T "00:00:10" 10000000) (T "00:00:12.500" 12500000) [] ] ];
    NTimed KBlock (T "00:00:20" 20000000) None
      [ NTimed KInline None (T "00:00:03" 3000000) [] ] ]%string.

(** The same with a leaf that has no begin on its path. *)
Definition untimed : nbody := mkNBody None (T "00:01:00" 60000000) None
  (NTimed KBlock None None [NTimed KInline None (T "00:00:30" 30000000) []] :: nb_kids paths)%string.

Ltac fine_tac :=
  repeat first
    [ progress cbn
    | match goal with
      | |- _ /\ _ => split
      | |- Forall _ [] => constructor
      | |- Forall _ (_ :: _) => constructor
      | |- fine _ _ => constructor
      | |- wf _ => constructor
      | |- _ \/ _ => first [left; reflexivity | right; reflexivity]
      | |- True => exact I
      end
    | lia | reflexivity ].

Example paths_wf : Forall wf (nb_kids paths) /\ Forall wf (nb_kids untimed).
Proof. fine_tac. Qed.
Example paths_fine : fine_body 0 paths /\ fine_body 0 untimed.
Proof. unfold fine_body. fine_tac. Qed.

(** ** The exact delay *)

Theorem C19_shift : forall tb d x x',
  tb <> TBOther -> in_range d -> nb_dur x = None ->
  Forall wf (nb_kids x) -> fine_body 0 x -> retime tb d x = ROk x' ->
  document_leaves 0 x' = map (shift (trunc_ms d)) (document_leaves 0 x).
Proof.
  intros tb d x x' Htb Hd Hdur Hw Hf Hr.
  assert (H := retime_moved 0 tb d 0 x x' Htb Hd ltac:(lia) Hdur Hw Hf Hr).
  induction H as [|i j l m Hm H IH]; cbn [map]; auto. rewrite IH. f_equal.
  destruct Hm as ((r & r' & Hi & Hj & Hn) & He). destruct i as [b e], j as [b' e']. unfold shift.
  cbn [fst snd start_at Z.eq_dec Z.add] in *.
  unfold start_at in Hi, Hj. destruct (Z.eq_dec 0 0); [|congruence].
  unfold near in Hn. f_equal; [lia|].
  destruct e, e'; cbn in He; try contradiction; auto. unfold near in He. f_equal. lia.
Qed.

Example C19_shift_paths : exists x', retime TBClock 90000000 paths = ROk x' /\
  document_leaves 0 paths =
    [(5000000, Some 9000000); (7000000, Some 40000000); (10000000, Some 12500000);
     (20000000, Some 23000000)] /\
  document_leaves 0 x' =
    [(95000000, Some 99000000); (97000000, Some 130000000); (100000000, Some 102500000);
     (110000000, Some 113000000)].
Proof. eexists. split; [vm_compute; reflexivity|]. split; vm_compute; reflexivity. Qed.

Example C19_shift_untimed : exists x', retime TBMedia 90000000 untimed = ROk x' /\
  document_leaves 0 x' = map (shift 90000000) (document_leaves 0 untimed) /\
  List.length (document_leaves 0 untimed) = 5%nat.
Proof. eexists. split; [vm_compute; reflexivity|]. split; vm_compute; reflexivity. Qed.

(** In a document that becomes available later, ends are shifted exactly, and
    begins too unless they were held back by the availability time; those never
    move by more than the delay and never backwards. *)
Theorem C19_shift_available : forall avail tb d x x',
  0 < avail -> tb <> TBOther -> in_range d -> nb_dur x = None ->
  Forall wf (nb_kids x) -> fine_body 0 x -> retime tb d x = ROk x' ->
  Forall2 (fun i j => snd j = snd (shift (trunc_ms d) i) /\
                      fst i <= fst j <= fst i + trunc_ms d /\
                      (avail < fst i -> fst j = fst i + trunc_ms d))
          (document_leaves avail x) (document_leaves avail x').
Proof.
  intros avail tb d x x' Ha Htb Hd Hdur Hw Hf Hr.
  assert (H := retime_moved avail tb d 0 x x' Htb Hd ltac:(lia) Hdur Hw Hf Hr).
  assert (Hp := trunc_range d Hd). unfold in_range in Hp.
  induction H as [|i j l m Hm H IH]; constructor; auto. clear IH H.
  destruct Hm as ((r & r' & Hi & Hj & Hn) & He). destruct i as [b e], j as [b' e']. unfold shift.
  cbn [fst snd] in *. unfold start_at in Hi, Hj. destruct (Z.eq_dec avail 0); [lia|].
  unfold near in Hn. split; [|lia].
  destruct e, e'; cbn in He; try contradiction; auto. unfold near in He. f_equal. lia.
Qed.

Example C19_shift_available_paths : exists x', retime TBClock 4000000 paths = ROk x' /\
  document_leaves 8000000 paths =
    [(8000000, Some 9000000); (8000000, Some 40000000); (10000000, Some 12500000);
     (20000000, Some 23000000)] /\
  document_leaves 8000000 x' =
    [(9000000, Some 13000000); (11000000, Some 44000000); (14000000, Some 16500000);
     (24000000, Some 27000000)].
Proof. eexists. split; [vm_compute; reflexivity|]. split; vm_compute; reflexivity. Qed.

(** Times finer than a millisecond: the shift is short by less than one. *)
Theorem C19_near : forall avail tb d x x',
  tb <> TBOther -> in_range d -> nb_dur x = None ->
  Forall wf (nb_kids x) -> fine_body 999 x -> retime tb d x = ROk x' ->
  Forall2 (moved avail (trunc_ms d) 999) (document_leaves avail x) (document_leaves avail x').
Proof.
  intros avail tb d x x' Htb Hd Hdur Hw Hf Hr. eapply retime_moved; eauto. lia.
Qed.

Definition micro : nbody := mkNBody None None None
  [ NTimed KBlock None (T "00:00:40.0009" 40000900)
      [ NTimed KInline (T "00:00:05.0001" 5000100) None [] ] ]%string.
Example C19_near_micro : fine_body 999 micro /\ exists x', retime TBClock 4000000 micro = ROk x' /\
  document_leaves 0 micro = [(5000100, Some 40000900)] /\
  document_leaves 0 x' = [(9000000, Some 44000000)].
Proof.
  split; [unfold fine_body; fine_tac|].
  eexists. split; [vm_compute; reflexivity|]. split; vm_compute; reflexivity.
Qed.

(** ** Which of the two ways is taken *)

Theorem C19_decision : forall x, has_untimed_leaf x = false <-> all_timed_body x.
Proof. exact has_untimed_leaf_spec. Qed.

Example C19_decision_cases : has_untimed_leaf paths = false /\ has_untimed_leaf untimed = true.
Proof. split; reflexivity. Qed.

(** The assertion that the body has no begin holds whenever it is reached. *)
Lemma make_time_no_assert : forall tb t, make_time tb t <> RErr RAssert.
Proof.
  intros tb t. unfold make_time. destruct tb; [destruct (limited_of t) as [s|]; [|discriminate]| |];
    destruct (clock_td _ _); discriminate.
Qed.

Lemma delayed_no_assert : forall tb d a, delayed tb d a <> RErr RAssert.
Proof.
  intros tb d a H. unfold delayed in H. destruct tb; [| |discriminate].
  - destruct (make_time TBClock d) eqn:E; cbn [rbind] in H.
    + destruct (mk_td _); [|discriminate]. eapply make_time_no_assert; eauto.
    + inversion H; subst. eapply make_time_no_assert; eauto.
  - destruct (make_time TBMedia d) eqn:E; cbn [rbind] in H.
    + destruct (mk_td _); [|discriminate]. eapply make_time_no_assert; eauto.
    + inversion H; subst. eapply make_time_no_assert; eauto.
Qed.

Lemma delayed_opt_no_assert : forall tb d a, delayed_opt tb d a <> RErr RAssert.
Proof.
  intros tb d [a|] H; cbn [delayed_opt] in H; [|discriminate].
  destruct (delayed tb d a) eqn:E; cbn [rbind] in H; [discriminate|].
  inversion H; subst. eapply delayed_no_assert; eauto.
Qed.

Lemma update_child_no_assert : forall tb d n, update_child tb d n <> RErr RAssert.
Proof.
  intros tb d. induction n as [|k b e ks IH] using node_ind'; [discriminate|].
  rewrite update_child_timed. intros H.
  destruct (delayed_opt tb d e) eqn:E; cbn [rbind] in H.
  - destruct b as [x|].
    + destruct (delayed tb d x) eqn:Ex; cbn [rbind] in H; [discriminate|].
      inversion H; subst. eapply delayed_no_assert; eauto.
    + assert (Hk : update_all tb d ks <> RErr RAssert).
      { clear H. induction IH as [|y r Hy Hr IHr]; cbn [update_all]; [discriminate|].
        destruct (update_child tb d y) as [|er]; cbn [rbind]; [|destruct er; congruence].
        destruct (update_all tb d r) as [|er]; cbn [rbind]; [discriminate|destruct er; congruence]. }
      destruct (update_all tb d ks) as [|er]; cbn [rbind] in H; [discriminate|congruence].
  - inversion H; subst. eapply delayed_opt_no_assert; eauto.
Qed.

Lemma update_all_no_assert : forall tb d l, update_all tb d l <> RErr RAssert.
Proof.
  intros tb d. induction l as [|y r IHr]; cbn [update_all]; [discriminate|].
  assert (Hy := update_child_no_assert tb d y).
  destruct (update_child tb d y) as [|er]; cbn [rbind]; [|destruct er; congruence].
  destruct (update_all tb d r) as [|er]; cbn [rbind]; [discriminate|destruct er; congruence].
Qed.

Theorem C19_no_assertion : forall tb d x, retime tb d x <> RErr RAssert.
Proof.
  intros tb d x H. unfold retime in H. destruct (has_untimed_leaf x) eqn:Hu.
  - unfold update_body in H. destruct (nb_begin x) eqn:Hb.
    + assert (has_untimed_leaf x = false) by (apply has_untimed_leaf_spec; left; congruence). congruence.
    + destruct (match tb with TBOther => _ | _ => _ end) eqn:E; cbn [rbind] in H.
      * destruct (delayed_opt tb d (nb_end x)) eqn:Ee; cbn [rbind] in H; [discriminate|].
        inversion H; subst. eapply delayed_opt_no_assert; eauto.
      * inversion H; subst. destruct tb; [| |discriminate].
        -- destruct (make_time TBClock d) eqn:Em; cbn [rbind] in E.
           ++ destruct (make_time TBClock (ta_us a)) eqn:Em2; cbn [rbind] in E; [discriminate|].
              inversion E; subst. eapply make_time_no_assert; eauto.
           ++ inversion E; subst. eapply make_time_no_assert; eauto.
        -- destruct (make_time TBMedia d) eqn:Em; cbn [rbind] in E.
           ++ destruct (make_time TBMedia (ta_us a)) eqn:Em2; cbn [rbind] in E; [discriminate|].
              inversion E; subst. eapply make_time_no_assert; eauto.
           ++ inversion E; subst. eapply make_time_no_assert; eauto.
  - unfold update_children in H.
    destruct (delayed_opt tb d (nb_end x)) eqn:Ee; cbn [rbind] in H.
    + destruct (nb_begin x) as [b|].
      * destruct (delayed tb d b) eqn:Eb; cbn [rbind] in H; [discriminate|].
        inversion H; subst. eapply delayed_no_assert; eauto.
      * destruct (update_all tb d (nb_kids x)) eqn:Ek; cbn [rbind] in H; [discriminate|].
        inversion H; subst. eapply update_all_no_assert; eauto.
    + inversion H; subst. eapply delayed_opt_no_assert; eauto.
Qed.

(** ** Nothing else is touched *)

Lemma update_all_shape : forall tb d l l', update_all tb d l = ROk l' ->
  map shape_of l' = map shape_of l.
Proof.
  intros tb d. induction l as [|y r IHr]; intros l' H; cbn [update_all] in H.
  - inversion H; auto.
  - destruct (update_child tb d y) eqn:Ey; [|discriminate]. cbn [rbind] in H.
    destruct (update_all tb d r) eqn:Er; [|discriminate]. cbn [rbind] in H. inversion H; subst.
    cbn [map]. f_equal; auto. eapply update_shape; eauto.
Qed.

Theorem C19_structure : forall tb d x x', retime tb d x = ROk x' ->
  map shape_of (nb_kids x') = map shape_of (nb_kids x) /\ nb_dur x' = nb_dur x.
Proof.
  intros tb d x x' H. unfold retime in H. destruct (has_untimed_leaf x).
  - unfold update_body in H. destruct (nb_begin x); [discriminate|].
    destruct (match tb with TBOther => _ | _ => _ end); [|discriminate]. cbn [rbind] in H.
    destruct (delayed_opt tb d (nb_end x)); [|discriminate]. cbn [rbind] in H.
    inversion H; subst; auto.
  - unfold update_children in H. destruct (delayed_opt tb d (nb_end x)); [|discriminate].
    cbn [rbind] in H. destruct (nb_begin x).
    + destruct (delayed tb d t); [|discriminate]. cbn [rbind] in H. inversion H; subst; auto.
    + destruct (update_all tb d (nb_kids x)) eqn:Ek; [|discriminate]. cbn [rbind] in H.
      inversion H; subst. cbn. split; auto. eapply update_all_shape; eauto.
Qed.

(** Exactly one begin changes on the way down to any leaf: below an element
    with a begin, and below an untimed body, the tree is the same tree. *)
Theorem C19_below_begin : forall tb d k b e ks n',
  update_child tb d (NTimed k (Some b) e ks) = ROk n' ->
  exists b' e', n' = NTimed k (Some b') e' ks.
Proof.
  intros tb d k b e ks n' H. rewrite update_child_timed in H.
  destruct (delayed_opt tb d e); [|discriminate]. cbn [rbind] in H.
  destruct (delayed tb d b); [|discriminate]. cbn [rbind] in H. inversion H. eauto.
Qed.

Theorem C19_below_body : forall tb d x x',
  nb_begin x <> None \/ has_untimed_leaf x = true -> retime tb d x = ROk x' ->
  nb_kids x' = nb_kids x.
Proof.
  intros tb d x x' Hc H. unfold retime in H. destruct (has_untimed_leaf x) eqn:Hu.
  - unfold update_body in H. destruct (nb_begin x); [discriminate|].
    destruct (match tb with TBOther => _ | _ => _ end); [|discriminate]. cbn [rbind] in H.
    destruct (delayed_opt tb d (nb_end x)); [|discriminate]. cbn [rbind] in H.
    inversion H; subst; auto.
  - destruct Hc as [Hc|]; [|discriminate].
    unfold update_children in H. destruct (delayed_opt tb d (nb_end x)); [|discriminate].
    cbn [rbind] in H. destruct (nb_begin x) as [b|]; [|congruence].
    destruct (delayed tb d b); [|discriminate]. cbn [rbind] in H. inversion H; subst; auto.
Qed.

(** ** When it succeeds *)

(** Every time in the document stays in the range of the format. *)
Definition fits (tb : timebase) (d : Z) (a : option tattr) : Prop :=
  match a with
  | Some x => 0 <= ta_us x /\ in_range (ta_us x + d) /\ (tb = TBClock -> ta_us x + d < h100)
  | None => True
  end.

Inductive fits_node (tb : timebase) (d : Z) : node -> Prop :=
| fits_other : fits_node tb d NOther
| fits_timed k b e ks : fits tb d b -> fits tb d e -> Forall (fits_node tb d) ks ->
    fits_node tb d (NTimed k b e ks).

Lemma delayed_opt_ok : forall tb d a, in_range d -> fits tb d a ->
  exists a', delayed_opt tb d a = ROk a'.
Proof.
  intros tb d [a|] Hd Hf; cbn [delayed_opt]; [|eauto]. destruct Hf as (H1 & H2 & H3).
  destruct (delayed_ok tb d a Hd H1 H2 H3) as (a' & ->). cbn. eauto.
Qed.

Lemma update_child_ok : forall tb d n, in_range d -> fits_node tb d n ->
  exists n', update_child tb d n = ROk n'.
Proof.
  intros tb d n Hd. induction n as [|k b e ks IH] using node_ind'; intros Hf; [cbn; eauto|].
  rewrite update_child_timed. inversion Hf as [|? ? ? ? Fb Fe Fk]; subst.
  destruct (delayed_opt_ok tb d e Hd Fe) as (e' & ->). cbn [rbind]. destruct b as [x|].
  - destruct Fb as (H1 & H2 & H3). destruct (delayed_ok tb d x Hd H1 H2 H3) as (x' & ->). cbn. eauto.
  - assert (Hk : exists ks', update_all tb d ks = ROk ks').
    { clear Hf. induction IH as [|y r Hy Hr IHr]; cbn [update_all]; [eauto|]. inversion Fk; subst.
      destruct Hy as (y' & ->); auto. cbn [rbind]. destruct IHr as (r' & ->); auto. cbn. eauto. }
    destruct Hk as (ks' & ->). cbn. eauto.
Qed.

Theorem C19_succeeds : forall tb d x, in_range d -> (tb = TBClock -> d < h100) ->
  fits tb d (nb_begin x) -> fits tb d (nb_end x) -> Forall (fits_node tb d) (nb_kids x) ->
  exists x', retime tb d x = ROk x'.
Proof.
  intros tb d x Hd Hc Fb Fe Fk. unfold retime. destruct (has_untimed_leaf x) eqn:Hu.
  - unfold update_body. destruct (nb_begin x) eqn:Hb.
    + assert (has_untimed_leaf x = false) by (apply has_untimed_leaf_spec; left; congruence). congruence.
    + destruct (make_time_ok tb d Hd Hc) as (da & Ed & Hda).
      destruct (make_time_ok tb (ta_us da)) as (b & Eb & _).
      { rewrite Hda. apply trunc_range; auto. }
      { intros E. specialize (Hc E). rewrite Hda. unfold trunc_ms.
        assert (Hm := Z.mod_pos_bound d 1000 ltac:(lia)). lia. }
      destruct (delayed_opt_ok tb d (nb_end x) Hd Fe) as (e' & Ee).
      destruct tb; rewrite ?Ed; cbn [rbind]; rewrite ?Eb; cbn [rbind]; rewrite Ee; cbn; eauto.
  - unfold update_children. destruct (delayed_opt_ok tb d (nb_end x) Hd Fe) as (e' & ->). cbn [rbind].
    destruct (nb_begin x) as [b|].
    + destruct Fb as (H1 & H2 & H3). destruct (delayed_ok tb d b Hd H1 H2 H3) as (b' & ->). cbn. eauto.
    + assert (Hk : exists ks', update_all tb d (nb_kids x) = ROk ks').
      { clear Hu. induction Fk as [|y r Hy Hr IHr]; cbn [update_all]; [eauto|].
        destruct (update_child_ok tb d y Hd Hy) as (y' & ->). cbn [rbind].
        destruct IHr as (r' & ->). cbn. eauto. }
      destruct Hk as (ks' & ->). cbn. eauto.
Qed.

Example C19_succeeds_paths :
  fits TBClock 359900000000 (nb_end paths) /\
  (exists x', retime TBClock 359900000000 paths = ROk x') /\
  retime TBClock 359970000000 paths = RErr RFormat.
Proof.
  split; [cbn; unfold in_range, h100; repeat split; lia|]. split; [|vm_compute; reflexivity].
  eexists. vm_compute. reflexivity.
Qed.

(** Other time bases (smpte) are left alone. *)
Theorem C19_other_base : forall d x, retime TBOther d x = ROk x.
Proof.
  intros d x.
  assert (Ho : forall a, delayed_opt TBOther d a = ROk a) by (intros [a|]; reflexivity).
  assert (Hn : forall n, update_child TBOther d n = ROk n).
  { induction n as [|k b e ks IH] using node_ind'; [reflexivity|].
    rewrite update_child_timed, Ho. cbn [rbind]. destruct b; [reflexivity|].
    assert (Hk : update_all TBOther d ks = ROk ks).
    { induction IH as [|y r Hy Hr IHr]; cbn [update_all]; [reflexivity|]. rewrite Hy, IHr. reflexivity. }
    rewrite Hk. reflexivity. }
  unfold retime. destruct (has_untimed_leaf x) eqn:Hu.
  - unfold update_body. destruct (nb_begin x) eqn:Hb.
    + assert (has_untimed_leaf x = false) by (apply has_untimed_leaf_spec; left; congruence). congruence.
    + cbn [rbind]. rewrite Ho. cbn [rbind]. rewrite <- Hb. destruct x; reflexivity.
  - unfold update_children. rewrite Ho. cbn [rbind]. destruct (nb_begin x) eqn:Hb.
    + cbn [delayed rbind]. rewrite <- Hb. destruct x; reflexivity.
    + assert (Hk : forall l, update_all TBOther d l = ROk l).
      { induction l as [|y r IHr]; cbn [update_all]; [reflexivity|]. rewrite Hn, IHr. reflexivity. }
      rewrite Hk. cbn [rbind]. rewrite <- Hb. destruct x; reflexivity.
Qed.

(** ** Where the statement fails *)

(** With a body duration and no body begin, a leaf that relies on the duration
    keeps its end while its begin moves past it. *)
Theorem C19_dur_wrong : exists x x', retime TBClock 90000000 x = ROk x' /\
  Forall wf (nb_kids x) /\ fine_body 0 x /\
  document_leaves 0 x = [(5000000, Some 10000000)] /\
  document_leaves 0 x' = [(95000000, Some 10000000)].
Proof.
  exists (mkNBody None None (T "00:00:10" 10000000)
            [NTimed KBlock None None [NTimed KInline (T "00:00:05" 5000000) None []]])%string.
  eexists. split; [vm_compute; reflexivity|]. split; [fine_tac|]. split; [unfold fine_body; fine_tac|].
  split; vm_compute; reflexivity.
Qed.

(** An end of zero means "no end" to the validation; retiming makes it one. *)
Theorem C19_zero_end_wrong : exists x x', retime TBClock 90000000 x = ROk x' /\
  Forall wf (nb_kids x) /\
  document_leaves 0 x = [(5000000, None)] /\
  document_leaves 0 x' = [(95000000, Some 90000000)].
Proof.
  exists (mkNBody None (T "00:00:00" 0) None
            [NTimed KBlock None None [NTimed KInline (T "00:00:05" 5000000) None []]])%string.
  eexists. split; [vm_compute; reflexivity|]. split; [fine_tac|].
  split; vm_compute; reflexivity.
Qed.

Print Assumptions C19_shift.
Print Assumptions C19_shift_available.
Print Assumptions C19_near.
Print Assumptions C19_decision.
Print Assumptions C19_no_assertion.
Print Assumptions C19_structure.
Print Assumptions C19_below_begin.
Print Assumptions C19_below_body.
Print Assumptions C19_succeeds.
Print Assumptions C19_other_base.
Print Assumptions C19_dur_wrong.
Print Assumptions C19_zero_end_wrong.
