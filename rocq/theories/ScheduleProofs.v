(** Facts about scheduling. *)

From Coq Require Import List ZArith String Bool Lia.
From Verif Require Import SequenceModel SequenceSpec NodeModel NodeSpec NodeProofs ReseqProofs ResegModel ResegSpec.
From Verif Require Import ScheduleModel ScheduleSpec.
Import ListNotations.
Open Scope Z_scope.

(** ** The clock *)

Lemma clock_diff : forall off a b, same_day off a b -> clock off b - clock off a = b - a.
Proof.
  intros off a b H. unfold same_day, clock in *. change (24 * 3600 * 1000000) with day in H.
  rewrite !Z.mod_eq by (unfold day; lia). rewrite H. lia.
Qed.

Lemma same_day_between : forall off a b c, a <= b <= c -> same_day off a c -> same_day off a b.
Proof.
  intros off a b c L H. unfold same_day in *. change (24 * 3600 * 1000000) with day in *.
  assert ((a + off) / day <= (b + off) / day) by (apply Z.div_le_mono; unfold day; lia).
  assert ((b + off) / day <= (c + off) / day) by (apply Z.div_le_mono; unfold day; lia).
  lia.
Qed.

Lemma same_day_trans : forall off a b c, same_day off a b -> same_day off a c -> same_day off b c.
Proof. unfold same_day. intros. congruence. Qed.

Lemma launched_start : forall off b tc t0 r start, launched off b tc t0 r start -> t0 <= start.
Proof.
  intros off b tc t0 r start (A & B & from & L & F). unfold loop_from in L.
  destruct (begin_delay off b tc <? 0) eqn:E; [discriminate|]. apply Z.ltb_ge in E.
  injection L as <-. lia.
Qed.

Lemma launched_begin : forall off b tc t0 r start, launched off (Some b) tc t0 r start ->
  same_day off tc start -> b <= clock off start.
Proof.
  intros off b tc t0 r start (A & B & from & L & F) D. unfold loop_from, begin_delay in L.
  destruct (b - clock off tc <? 0); [discriminate|]. injection L as <-.
  apply clock_diff in D. lia.
Qed.

(** ** Any node *)

Section Loop.
Context {S X R : Type}.
Variable step : S -> X -> S * R.
Variable is_tick : X -> bool.
Variable raised : R -> bool.
Variables start len : Z.
Hypothesis Hlen : 0 < len.

Notation sstep := (sched_step step is_tick raised start len).
Notation srun := (sched_run step is_tick raised start len).

Lemma srun_app : forall l1 s l2 s2 rs, srun s (l1 ++ l2) = Some (s2, rs) ->
  exists s1 rs1 rs2, srun s l1 = Some (s1, rs1) /\ srun s1 l2 = Some (s2, rs2) /\ rs = (rs1 ++ rs2)%list.
Proof.
  induction l1 as [|e l1 IH]; intros s l2 s2 rs H; cbn [app sched_run] in *.
  - eauto 6.
  - destruct (sstep s e) as [[s1 r]|]; [|discriminate].
    destruct (srun s1 (l1 ++ l2)) as [[s3 rs3]|] eqn:E; [|discriminate]. injection H as <- <-.
    destruct (IH _ _ _ _ E) as (s4 & r1 & r2 & -> & A & ->). eauto 6.
Qed.

Lemma sstep_cases : forall s e s1 r, sstep s e = Some (s1, r) ->
  sc_now s <= at_ e <= done e /\ sc_now s1 = done e /\ step (sc_node s) (what e) = (sc_node s1, r) /\
  (is_tick (what e) = true ->
     exists u, sc_due s = Some u /\ u <= at_ e /\
       sc_due s1 = if raised r then None else Some (next_due start len (done e))) /\
  (is_tick (what e) = false -> sc_due s1 = sc_due s).
Proof.
  intros s e s1 r H. unfold sched_step in H.
  destruct (at_ e <? sc_now s) eqn:A; [discriminate|]. destruct (done e <? at_ e) eqn:B; [discriminate|].
  apply Z.ltb_ge in A, B. cbn [orb] in H.
  destruct (is_tick (what e)).
  - destruct (sc_due s) as [u|]; [|discriminate]. destruct (at_ e <? u) eqn:C; [discriminate|].
    apply Z.ltb_ge in C. destruct (step (sc_node s) (what e)) as [n q]. injection H as <- <-. cbn.
    repeat split; auto; [|discriminate]. intros _. exists u. auto.
  - destruct (step (sc_node s) (what e)) as [n q]. injection H as <- <-. cbn.
    repeat split; auto. discriminate.
Qed.

Lemma srun_run : forall l s s1 rs, srun s l = Some (s1, rs) ->
  run step (sc_node s) (map what l) = (sc_node s1, rs).
Proof.
  induction l as [|e l IH]; intros s s1 rs H; cbn [sched_run map run] in *.
  - congruence.
  - destruct (sstep s e) as [[s2 r]|] eqn:E; [|discriminate].
    destruct (srun s2 l) as [[s3 rs3]|] eqn:F; [|discriminate]. injection H as <- <-.
    apply sstep_cases in E as (_ & _ & E & _). rewrite E, (IH _ _ _ F). auto.
Qed.

Lemma srun_length : forall l s s1 rs, srun s l = Some (s1, rs) -> List.length rs = List.length l.
Proof.
  induction l as [|e l IH]; intros s s1 rs H; cbn [sched_run] in *.
  - injection H as <- <-. auto.
  - destruct (sstep s e) as [[s2 r]|]; [|discriminate].
    destruct (srun s2 l) as [[s3 rs3]|] eqn:F; [|discriminate]. injection H as <- <-. cbn. f_equal. eauto.
Qed.

Lemma srun_now : forall l s s1 rs, srun s l = Some (s1, rs) -> sc_now s <= sc_now s1.
Proof.
  induction l as [|e l IH]; intros s s1 rs H; cbn [sched_run] in *.
  - injection H as <- <-. lia.
  - destruct (sstep s e) as [[s2 r]|] eqn:E; [|discriminate].
    destruct (srun s2 l) as [[s3 rs3]|] eqn:F; [|discriminate]. injection H as <- <-.
    apply sstep_cases in E as (A & B & _). apply IH in F. lia.
Qed.

Lemma srun_after : forall l s s1 rs, srun s l = Some (s1, rs) ->
  forall x, In x l -> sc_now s <= at_ x <= sc_now s1.
Proof.
  induction l as [|e l IH]; intros s s1 rs H x Hx; cbn [sched_run] in *; [destruct Hx|].
  destruct (sstep s e) as [[s2 r]|] eqn:E; [|discriminate].
  destruct (srun s2 l) as [[s3 rs3]|] eqn:F; [|discriminate]. injection H as <- <-.
  apply sstep_cases in E as (A & B & _). pose proof (srun_now _ _ _ _ F). destruct Hx as [<- | Hx]; [lia|].
  apply (IH _ _ _ F) in Hx. lia.
Qed.

Lemma next_due_multiple : forall now, exists m, next_due start len now = start + m * len /\ now < start + m * len <= now + len.
Proof.
  intros now. unfold next_due. exists ((now - start) / len + 1). split; [lia|].
  pose proof (Z.div_mod (now - start) len ltac:(lia)).
  pose proof (Z.mod_pos_bound (now - start) len Hlen). nia.
Qed.

Lemma due_from : forall l s s1 rs m, srun s l = Some (s1, rs) ->
  (forall u, sc_due s = Some u -> exists k, u = start + k * len /\ m <= k) ->
  forall u, sc_due s1 = Some u -> exists k, u = start + k * len /\ m + Z.of_nat (ticks is_tick l) <= k.
Proof.
  induction l as [|e l IH]; intros s s1 rs m H D u U; cbn [sched_run ticks] in *.
  - injection H as <- <-. destruct (D u U) as (k & -> & L). exists k. split; auto. lia.
  - destruct (sstep s e) as [[s2 r]|] eqn:E; [|discriminate].
    destruct (srun s2 l) as [[s3 rs3]|] eqn:F; [|discriminate]. injection H as <- <-.
    apply sstep_cases in E as (A & B & _ & T & N).
    destruct (is_tick (what e)).
    + destruct (T eq_refl) as (v & V & L & W). destruct (D v V) as (k & -> & K).
      destruct (IH s2 _ _ (m + 1) F) with (u := u) as (k' & -> & K'); auto.
      * intros w Hw. rewrite W in Hw. destruct (raised r); [discriminate|]. injection Hw as <-.
        destruct (next_due_multiple (done e)) as (j & -> & J). exists j. split; auto.
        assert (k < j) by nia. lia.
      * exists k'. split; auto. lia.
    + destruct (IH s2 _ _ m F) with (u := u) as (k' & -> & K'); auto.
      * intros w Hw. apply D. rewrite <- N; auto.
      * exists k'. split; auto.
Qed.

Lemma due_exact : forall l s s1 rs m, srun s l = Some (s1, rs) ->
  keeps_up step is_tick raised start len s l ->
  (forall u, sc_due s = Some u -> u = start + m * len) ->
  forall u, sc_due s1 = Some u -> u = start + (m + Z.of_nat (ticks is_tick l)) * len.
Proof.
  induction l as [|e l IH]; intros s s1 rs m H K D u U; cbn [sched_run ticks keeps_up] in *.
  - injection H as <- <-. rewrite (D u U). lia.
  - destruct (sstep s e) as [[s2 r]|] eqn:E; [|discriminate].
    destruct (srun s2 l) as [[s3 rs3]|] eqn:F; [|discriminate]. injection H as <- <-.
    destruct K as [K1 K2]. apply sstep_cases in E as (A & B & _ & T & N).
    destruct (is_tick (what e)).
    + destruct (T eq_refl) as (v & V & L & W). rewrite V in K1. specialize (K1 eq_refl).
      pose proof (D v V) as Ev. subst v.
      rewrite (IH s2 _ _ (m + 1) F K2) with (u := u); auto; [lia|].
      intros w Hw. rewrite W in Hw. destruct (raised r); [discriminate|]. injection Hw as <-.
      destruct (next_due_multiple (done e)) as (j & -> & J).
      assert (m < j) by nia. assert (j < m + 2) by nia. assert (j = m + 1) by lia. subst. lia.
    + rewrite (IH s2 _ _ m F K2) with (u := u); auto.
      intros w Hw. apply D. rewrite <- N; auto.
Qed.

(** Without a looping call there are no ticks any more. *)
Lemma no_ticks : forall l s s1 rs, srun s l = Some (s1, rs) -> sc_due s = None ->
  ticks is_tick l = 0%nat /\ sc_due s1 = None.
Proof.
  induction l as [|e l IH]; intros s s1 rs H D; cbn [sched_run ticks] in *.
  - injection H as <- <-. auto.
  - destruct (sstep s e) as [[s2 r]|] eqn:E; [|discriminate].
    destruct (srun s2 l) as [[s3 rs3]|] eqn:F; [|discriminate]. injection H as <- <-.
    apply sstep_cases in E as (_ & _ & _ & T & N). destruct (is_tick (what e)).
    + destruct (T eq_refl) as (v & V & _). congruence.
    + destruct (IH s2 _ _ F) as [A B]; [rewrite N; auto|]. rewrite A. auto.
Qed.
End Loop.

(** ** The re-sequencing node *)

Lemma node_end : forall out len discard l s,
  let r := run (reseq_step out len discard) s l in
  rs_end (fst r) = rs_end s + Z.of_nat (sent (snd r)) * len.
Proof.
  intros out len discard l s. cbv zeta. unfold sent. induction l as [|i l IH] using rev_ind; [cbn; lia|].
  rewrite run_state_snoc, run_out_snoc, segments_app, app_length.
  destruct (reseq_step out len discard (fst (run (reseq_step out len discard) s l)) i) as [s' o] eqn:E.
  cbn [fst snd]. destruct (reseq_step_cases _ _ _ _ _ _ _ E) as [(A & B & _)|(q & ws & _ & _ & -> & B & _)].
  - rewrite A, B, IH. cbn. lia.
  - rewrite B, IH. cbn [segments List.length]. lia.
Qed.

Lemma sent_ticks : forall out discard start len l s s1 rs,
  reseq_run out discard start len s l = Some (s1, rs) -> (sent rs <= ticks rtick l)%nat.
Proof.
  unfold reseq_run, sent. induction l as [|e l IH]; intros s s1 rs H; cbn [sched_run ticks] in *.
  - injection H as <- <-. cbn. lia.
  - destruct (sched_step _ _ _ _ _ s e) as [[s2 r]|] eqn:E; [|discriminate].
    destruct (sched_run _ _ _ _ _ s2 l) as [[s3 rs3]|] eqn:F; [|discriminate]. injection H as <- <-.
    apply IH in F. apply sstep_cases in E as (_ & _ & E & _).
    destruct (reseq_step_cases _ _ _ _ _ _ _ E) as [(A & _)|(q & ws & W & _ & -> & _)].
    + change (segments (r :: rs3)) with (segments ([r] ++ rs3)). rewrite segments_app, A. cbn [app].
      destruct (rtick (what e)); lia.
    + rewrite W. cbn [rtick segments List.length]. lia.
Qed.

Lemma documents_app : forall A (a b : list (A + built)), documents (a ++ b) = (documents a ++ documents b)%list.
Proof. induction a as [|[x|u] a IH]; intros b; cbn; auto. f_equal. auto. Qed.

Lemma content_tick : forall content out len discard s i s' u,
  reseq_content content out len discard s i = (s', inr u) -> i = CTick.
Proof. intros content out len discard s [d|] s' u H; auto. cbn in H. destruct (consume s d). discriminate. Qed.

Lemma sent_ticks_c : forall content out discard start len l s s1 rs,
  content_run content out discard start len s l = Some (s1, rs) -> (sent_c rs <= ticks ctick l)%nat.
Proof.
  unfold content_run, sent_c. induction l as [|e l IH]; intros s s1 rs H; cbn [sched_run ticks] in *.
  - injection H as <- <-. cbn. lia.
  - destruct (sched_step _ _ _ _ _ s e) as [[s2 r]|] eqn:E; [|discriminate].
    destruct (sched_run _ _ _ _ _ s2 l) as [[s3 rs3]|] eqn:F; [|discriminate]. injection H as <- <-.
    apply IH in F. apply sstep_cases in E as (_ & _ & E & _). destruct r as [x|u]; cbn [documents List.length].
    + destruct (ctick (what e)); lia.
    + apply content_tick in E. rewrite E. cbn [ctick]. lia.
Qed.

(** ** Documents that begin later change nothing before *)

Lemma active_before : forall h h' t d, (forall x, In x h' -> t < d_begin x) ->
  (active (h ++ h') t d <-> active h t d).
Proof.
  intros h h' t d H. unfold active. split.
  - intros (I & B & M & E). apply in_app_or in I as [I|I]; [|apply H in I; lia].
    split; [auto|]. split; [auto|]. split; [|auto]. intros x Hx. apply M. apply in_or_app. auto.
  - intros (I & B & M & E). split; [apply in_or_app; auto|]. split; [auto|]. split; [|auto].
    intros x Hx Bx. apply in_app_or in Hx as [Hx|Hx]; auto. apply H in Hx. lia.
Qed.

Lemma rdocs_in : forall l d, In d (rdocs (map what l)) -> exists x, In x l /\ what x = RDoc d.
Proof.
  induction l as [|[a b [y|k]] l IH]; cbn; intros d H; [destruct H| |].
  - destruct H as [<- | H]; [eexists; split; [left; reflexivity|reflexivity]|].
    apply IH in H as (x & A & B). eauto.
  - apply IH in H as (x & A & B). eauto.
Qed.

Lemma arrivals_in : forall l d, In d (arrivals (map what l)) -> exists x, In x l /\ what x = CDoc d.
Proof.
  induction l as [|[a b [y|]] l IH]; cbn; intros d H; [destruct H| |].
  - destruct H as [<- | H]; [eexists; split; [left; reflexivity|reflexivity]|].
    apply IH in H as (x & A & B). eauto.
  - apply IH in H as (x & A & B). eauto.
Qed.
