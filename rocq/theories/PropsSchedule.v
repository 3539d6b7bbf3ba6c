(** C70: when the re-sequencing node sends its segments, how late they are, and
    that nothing that arrives later could have changed them. *)

From Coq Require Import List ZArith String Bool Lia.
From Verif Require Import SequenceModel SequenceSpec NodeModel NodeSpec NodeProofs ReseqProofs PropsReseq.
From Verif Require Import TimeSpec ResegModel ResegSpec PropsLook PropsReseg.
From Verif Require Import ScheduleModel ScheduleSpec ScheduleProofs.
Import ListNotations.
Open Scope Z_scope.

(** ** Windows and lateness *)

(** Whatever arrives and whichever state the node was in: the window of a
    segment only depends on how many were sent before, the time of its sending
    on how often the looping call was called.  A call that sends nothing, and one
    that takes too long, delay all segments that follow. *)
Theorem C70_window : forall out discard start len n0 now l s rs e s' g,
  0 < len ->
  reseq_run out discard start len (sched0 start len n0 now) l = Some (s, rs) ->
  sched_step (reseq_step out len discard) rtick rraised start len s e = Some (s', RSegment g) ->
  sg_begin g = rs_end n0 + Z.of_nat (sent rs) * len /\ sg_end g = sg_begin g + len /\
  start + (1 + Z.of_nat (ticks rtick l)) * len <= at_ e /\ (sent rs <= ticks rtick l)%nat.
Proof.
  intros out discard start len n0 now l s rs e s' g Hl H E.
  pose proof (sent_ticks _ _ _ _ _ _ _ _ H) as St.
  pose proof (srun_run _ _ _ _ _ _ _ _ _ H) as Hr. cbn [sc_node sched0] in Hr.
  pose proof (node_end out len discard (map what l) n0) as N. cbv zeta in N. rewrite Hr in N. cbn [fst snd] in N.
  apply sstep_cases in E as (A & _ & E & T & _).
  destruct (reseq_step_cases _ _ _ _ _ _ _ E) as [(B & _)|(q & ws & W & _ & G & _)]; [discriminate|].
  injection G as ->. cbn [sg_begin sg_end]. rewrite <- N. rewrite W in T.
  destruct (T eq_refl) as (u & U & L & _).
  destruct (due_from _ _ _ start len Hl l _ _ _ 1 H) with (u := u) as (k & -> & K); auto.
  - intros v V. cbn in V. injection V as <-. exists 1. split; lia.
  - repeat split; auto. nia.
Qed.

(** So a segment is never sent before its window is over: by the clock of the
    node, it comes late by the time between the making of the node and the start of
    the looping call, and by one segment length for every call that did not send
    one. *)
Theorem C70_late : forall out discard off b tc t0 r start len l s rs e s' g,
  0 < len -> launched off b tc t0 r start -> same_day off t0 (at_ e) ->
  reseq_run out discard start len (sched0 start len (new_node off t0) start) l = Some (s, rs) ->
  sched_step (reseq_step out len discard) rtick rraised start len s e = Some (s', RSegment g) ->
  sg_begin g = clock off t0 + Z.of_nat (sent rs) * len /\ sg_end g = sg_begin g + len /\
  sg_end g + (start - t0) + (Z.of_nat (ticks rtick l) - Z.of_nat (sent rs)) * len <= clock off (at_ e) /\
  sg_end g <= clock off (at_ e).
Proof.
  intros out discard off b tc t0 r start len l s rs e s' g Hl La D H E.
  destruct (C70_window _ _ _ _ _ _ _ _ _ _ _ _ Hl H E) as (B & C & T & N).
  apply launched_start in La. apply clock_diff in D. cbn [new_node r0 rs_end] in B.
  split; [auto|]. split; [auto|]. split; nia.
Qed.

(** And no later than that, as long as calls are made when they are due and are
    over before the next. *)
Theorem C70_exact : forall out discard off b tc t0 r start len l s rs e s' g,
  0 < len -> launched off b tc t0 r start -> same_day off t0 (at_ e) ->
  reseq_run out discard start len (sched0 start len (new_node off t0) start) l = Some (s, rs) ->
  keeps_up (reseq_step out len discard) rtick rraised start len (sched0 start len (new_node off t0) start) l ->
  sched_step (reseq_step out len discard) rtick rraised start len s e = Some (s', RSegment g) ->
  sc_due s = Some (at_ e) ->
  clock off (at_ e) =
    sg_end g + (start - t0) + (Z.of_nat (ticks rtick l) - Z.of_nat (sent rs)) * len.
Proof.
  intros out discard off b tc t0 r start len l s rs e s' g Hl La D H K E U.
  destruct (C70_window _ _ _ _ _ _ _ _ _ _ _ _ Hl H E) as (B & C & T & N).
  pose proof (due_exact _ _ _ start len Hl l _ _ _ 1 H K) as X. specialize (X ltac:(intros u Q; cbn in Q; injection Q as <-; lia) _ U).
  apply clock_diff in D. cbn [new_node r0 rs_end] in B. rewrite X in *. lia.
Qed.

(** ** begin_output *)

(** A time of the day that is over keeps the application from starting. *)
Theorem C70_over : forall off b tc r,
  loop_from (begin_delay off (Some b) tc) r = None <-> b < clock off tc.
Proof.
  intros off b tc r. unfold loop_from, begin_delay.
  destruct (Z.ltb_spec (b - clock off tc) 0); split; intros; try discriminate; auto; lia.
Qed.

(** begin_output is not when the first segment begins, but a time before which
    none is sent: the first one begins when the node was made, is sent no
    earlier than a segment length after begin_output, and so are the others. *)
Theorem C70_begin_output : forall out discard off b tc t0 r start len l s rs e s' g,
  0 < len -> launched off (Some b) tc t0 r start -> same_day off tc (at_ e) ->
  reseq_run out discard start len (sched0 start len (new_node off t0) start) l = Some (s, rs) ->
  sched_step (reseq_step out len discard) rtick rraised start len s e = Some (s', RSegment g) ->
  b + len <= clock off (at_ e) /\
  (sent rs = 0%nat -> sg_begin g = clock off t0) /\
  sg_end g + (b - clock off t0) <= clock off (at_ e).
Proof.
  intros out discard off b tc t0 r start len l s rs e s' g Hl La D H E.
  destruct (C70_window _ _ _ _ _ _ _ _ _ _ _ _ Hl H E) as (B & C & T & N).
  assert (tc <= t0) by apply La. pose proof (launched_start _ _ _ _ _ _ La) as L0.
  assert (start <= at_ e) by nia.
  assert (D1 : same_day off tc start) by (eapply same_day_between; [|exact D]; lia).
  assert (D2 : same_day off start (at_ e)) by (eapply same_day_trans; eauto).
  assert (D3 : same_day off tc t0) by (eapply same_day_between; [|exact D]; lia).
  assert (D4 : same_day off t0 (at_ e)) by (eapply same_day_trans; eauto).
  pose proof (launched_begin _ _ _ _ _ _ La D1) as Lb.
  apply clock_diff in D2, D4. cbn [new_node r0 rs_end] in B.
  split; [nia|]. split; [|nia]. intros Z0. rewrite B, Z0. lia.
Qed.

(** ** Nothing that arrives later matters *)

Theorem C70_final : forall out discard off b tc t0 r start len l1 e l2 s rs s1 rs1 s2 g,
  0 < len -> launched off b tc t0 r start ->
  reseq_run out discard start len (sched0 start len (new_node off t0) start) (l1 ++ e :: l2) = Some (s, rs) ->
  same_day off t0 (sc_now s) -> live off l2 ->
  reseq_run out discard start len (sched0 start len (new_node off t0) start) l1 = Some (s1, rs1) ->
  sched_step (reseq_step out len discard) rtick rraised start len s1 e = Some (s2, RSegment g) ->
  forall t d, t < sg_end g ->
    (active (rdocs (map what (l1 ++ e :: l2))) t d <-> active (rdocs (map what l1)) t d).
Proof.
  intros out discard off b tc t0 r start len l1 e l2 s rs s1 rs1 s2 g Hl La H D Lv H1 E t d Ht.
  destruct (C70_window _ _ _ _ _ _ _ _ _ _ _ _ Hl H1 E) as (B & C & T & N).
  pose proof (launched_start _ _ _ _ _ _ La) as L0.
  unfold reseq_run in *. apply srun_app in H as (s3 & r3 & r4 & H3 & H4 & _).
  assert (s3 = s1) by congruence. subst s3. cbn [sched_run] in H4. rewrite E in H4.
  destruct (sched_run _ _ _ _ _ s2 l2) as [[s5 r5]|] eqn:H5; [|discriminate]. injection H4 as <- <-.
  pose proof (sstep_cases _ _ _ _ _ _ _ _ _ E) as ((E1 & E2) & E3 & E4 & _).
  assert (W : rdocs (map what [e]) = []).
  { destruct (what e) as [x|] eqn:We; cbn [map]; rewrite We; auto.
    destruct (reseq_step_cases _ _ _ _ _ _ _ E4) as [(Q & _)|(q & ws & Q & _)]; discriminate. }
  rewrite map_app. change (map what (e :: l2)) with (map what [e] ++ map what l2)%list.
  rewrite !rdocs_app, W. cbn [app]. apply active_before. intros x Hx.
  apply rdocs_in in Hx as (y & Hy & Wy). pose proof (Lv _ _ Hy Wy) as Q.
  pose proof (srun_after _ _ _ _ _ _ _ _ _ H5 y Hy) as [Y1 Y2].
  assert (same_day off t0 (at_ y)) as Dy.
  { eapply same_day_between; [|exact D]. rewrite E3 in Y1. assert (start <= at_ e) by nia. lia. }
  apply clock_diff in Dy. rewrite E3 in Y1. cbn [new_node r0 rs_end] in B. nia.
Qed.

(** With C24: the pieces of a segment are those of the documents active among all
    that ever arrive. *)
Theorem C70_content : forall out discard off b tc t0 r start len l1 e l2 s rs s1 rs1 s2 gg sid tb cm g,
  0 < len -> launched off b tc t0 r start ->
  reseq_run out discard start len (sched0 start len (new_node off t0) start) (l1 ++ e :: l2) = Some (s, rs) ->
  same_day off t0 (sc_now s) -> live off l2 ->
  reseq_run out discard start len (sched0 start len (new_node off t0) start) l1 = Some (s1, rs1) ->
  sched_step (reseq_step out len discard) rtick rraised start len s1 e = Some (s2, RSegment gg) ->
  let all := rdocs (map what (l1 ++ e :: l2)) in
  clock_of tb cm <> None -> Forall (fits sid tb cm g) all -> in_order None all -> NoDup (map d_obj all) ->
  forall t d, sg_begin gg <= t < sg_end gg ->
    (active all t d <->
     exists wb we, In (d, wb, we) (sg_windows gg) /\ after_begin wb t /\ before_end t we /\ d_begin d <= t).
Proof.
  intros out discard off b tc t0 r start len l1 e l2 s rs s1 rs1 s2 gg sid tb cm g Hl La H D Lv H1 E all Hc Hf Ho Hn t d Ht.
  unfold all. rewrite (C70_final _ _ _ _ _ _ _ _ _ _ _ _ _ _ _ _ _ _ Hl La H D Lv H1 E) by lia.
  pose proof (srun_run _ _ _ _ _ _ _ _ _ H1) as R1. cbn [sched0 sc_node] in R1.
  pose proof (sstep_cases _ _ _ _ _ _ _ _ _ E) as (_ & _ & E4 & _).
  destruct (reseq_step_cases _ _ _ _ _ _ _ E4) as [(Q & _)|(q & ws & Q & _)]; [discriminate|].
  assert (A : all = (rdocs (map what l1) ++ rdocs (map what (e :: l2)))%list) by (unfold all; rewrite map_app, rdocs_app; auto).
  rewrite A in Hf, Ho, Hn.
  apply (C24_content out len (clock off t0) discard sid tb cm g (map what l1) gg); auto; try lia.
  - apply Forall_app in Hf. tauto.
  - clear -Ho. revert Ho. generalize (@None Z). induction (rdocs (map what l1)) as [|x h IH]; intros o Ho; [exact I|]. destruct Ho as [O1 O2]. split; auto.
  - rewrite map_app in Hn. eapply SequenceHistory.NoDup_app_l; eauto.
  - unfold new_node in R1. rewrite R1. cbn [fst]. rewrite Q in E4. rewrite E4. auto.
Qed.

(** With C52: what is to be seen in the k-th document sent is what the sequence of
    all documents that ever arrive shows in the k-th window. *)
Theorem C70_shows : forall content out discard off b tc t0 r start len sid tb cm g z c0 l1 e l2 s rs,
  0 < len -> launched off b tc t0 r start ->
  content_run content out discard start len (sched0 start len (new_node off t0) start) (l1 ++ e :: l2) = Some (s, rs) ->
  what e = CTick -> same_day off t0 (sc_now s) -> live_c off l2 ->
  let l := map what (l1 ++ e :: l2) in
  clock_of tb cm <> None -> stream sid tb cm g l ->
  (forall d, In d (arrivals l) -> cut_anywhere z c0 d (content d)) ->
  (1000 | clock off t0) -> (1000 | len) ->
  clock off t0 + Z.of_nat (List.length l) * len < h100 -> arrivals (map what l1) <> [] ->
  exists s1 rs1 s2 u,
    content_run content out discard start len (sched0 start len (new_node off t0) start) l1 = Some (s1, rs1) /\
    sched_step (reseq_content content out len discard) ctick craised start len s1 e = Some (s2, inr u) /\
    let k := Z.of_nat (sent_c rs1) in
    u_sid u = out /\ SegmentModel.t_seq (u_doc u) = k + 1 /\ validates (u_size u) (u_doc u) = true /\
    clock off t0 + (k + 1) * len <= clock off (at_ e) /\
    looks_like content (arrivals l) (Some (clock off t0 + k * len)) (Some (clock off t0 + (k + 1) * len)) u.
Proof.
  intros content out discard off b tc t0 r start len sid tb cm g z c0 l1 e l2 s rs Hl La H We D Lv l Hc St Tidy D1 D2 Hh Ne.
  unfold content_run in *. pose proof H as H'.
  apply srun_app in H' as (s1 & rs1 & r4 & H1 & H4 & _). cbn [sched_run] in H4.
  destruct (sched_step _ _ _ _ _ s1 e) as [[s2 o]|] eqn:E; [|discriminate].
  destruct (sched_run _ _ _ _ _ s2 l2) as [[s5 r5]|] eqn:H5; [|discriminate]. injection H4 as <- <-.
  pose proof (sstep_cases _ _ _ _ _ _ _ _ _ E) as ((E1 & E2) & E3 & E4 & T & _).
  pose proof (srun_run _ _ _ _ _ _ _ _ _ H1) as R1. cbn [sched0 sc_node] in R1.
  pose proof (launched_start _ _ _ _ _ _ La) as L0.
  assert (El : l = (map what l1 ++ CTick :: map what l2)%list) by (unfold l; rewrite map_app; cbn [map]; rewrite We; auto).
  assert (S0 : 0 <= clock off t0) by (unfold clock; apply Z.mod_pos_bound; unfold day; lia).
  pose proof (C52_stream content out len (clock off t0) discard sid tb cm g z c0 (map what l1) (map what l2)) as Q.
  cbv zeta in Q. rewrite <- El in Q. specialize (Q Hl Hc St Tidy D1 D2 S0 Hh Ne).
  unfold new_node in R1. rewrite R1 in Q. cbn [fst snd] in Q. destruct Q as (u & Qu & Us & Un & Uv & Lk).
  rewrite We in E4. rewrite E4 in Qu. cbn [snd] in Qu. subst o.
  exists s1, rs1, s2, u. split; auto. split; auto. cbv zeta. fold (sent_c rs1) in Un, Lk.
  split; auto. split; auto. split; auto.
  rewrite We in T. destruct (T eq_refl) as (v & V & Lv' & _).
  destruct (due_from _ _ _ start len Hl l1 _ _ _ 1 H1) with (u := v) as (k & -> & K); auto.
  { intros w W. cbn in W. injection W as <-. exists 1. split; lia. }
  pose proof (sent_ticks_c _ _ _ _ _ _ _ _ _ H1) as Sc.
  assert (B : start + (1 + Z.of_nat (sent_c rs1)) * len <= at_ e) by nia.
  pose proof (srun_now _ _ _ _ _ _ _ _ _ H5) as Now. rewrite E3 in Now.
  assert (De : same_day off t0 (at_ e)) by (eapply same_day_between; [|exact D]; nia).
  apply clock_diff in De.
  assert (End : clock off t0 + (Z.of_nat (sent_c rs1) + 1) * len <= clock off (at_ e)) by nia.
  split; auto.
  assert (Act : forall t d, t < clock off t0 + (Z.of_nat (sent_c rs1) + 1) * len ->
            (active (arrivals l) t d <-> active (arrivals (map what l1)) t d)).
  { intros t d Ht. rewrite El, arrivals_app. cbn [arrivals]. apply active_before. intros x Hx.
    apply arrivals_in in Hx as (y & Hy & Wy). pose proof (Lv _ _ Hy Wy) as Q.
    pose proof (srun_after _ _ _ _ _ _ _ _ _ H5 y Hy) as [Y1 Y2]. rewrite E3 in Y1.
    assert (Dy : same_day off t0 (at_ y)) by (eapply same_day_between; [|exact D]; nia).
    apply clock_diff in Dy. lia. }
  intros t. destruct (Lk t) as (K1 & K2 & K3). cbv zeta in *. split; [auto|]. split.
  - intros d W A. apply K2; auto. apply Act; auto.
    unfold SegmentSpec.in_window in W. apply andb_prop in W as [_ W]. apply Z.ltb_lt in W. exact W.
  - intros A. destruct (SegmentSpec.in_window (Some (clock off t0 + Z.of_nat (sent_c rs1) * len))
      (Some (clock off t0 + (Z.of_nat (sent_c rs1) + 1) * len)) (SegmentSpec.ms_last t)) eqn:W; [|auto].
    apply K3. intros d Ad. apply (A d). apply Act; auto.
    unfold SegmentSpec.in_window in W. apply andb_prop in W as [_ W]. apply Z.ltb_lt in W. exact W.
Qed.

(** ** What ends it *)

(** One exception in convert_next_segment and nothing is sent any more, whatever
    arrives and however long it goes on. *)
Theorem C70_stops : forall out discard start len s e s1 x l s2 rs,
  sched_step (reseq_step out len discard) rtick rraised start len s e = Some (s1, x) ->
  rtick (what e) = true -> rraised x = true ->
  reseq_run out discard start len s1 l = Some (s2, rs) ->
  segments rs = [] /\ ticks rtick l = 0%nat.
Proof.
  intros out discard start len s e s1 x l s2 rs E T Rx H.
  apply sstep_cases in E as (_ & _ & _ & Q & _). destruct (Q T) as (u & _ & _ & U). rewrite Rx in U.
  destruct (no_ticks _ _ _ _ _ _ _ _ _ H U) as [A _]. split; auto.
  apply sent_ticks in H. unfold sent in H. rewrite A in H. destruct (segments rs); [auto|cbn in H; lia].
Qed.

(** The same with the content of the documents: when a call ends neither with a
    document sent nor for want of a sequence, it was the last. *)
Theorem C70_stops_content : forall content out discard start len s e s1 x l s2 rs,
  sched_step (reseq_content content out len discard) ctick craised start len s e = Some (s1, inl x) ->
  what e = CTick -> x <> RNothing ->
  content_run content out discard start len s1 l = Some (s2, rs) ->
  documents rs = [] /\ ticks ctick l = 0%nat.
Proof.
  intros content out discard start len s e s1 x l s2 rs E T Nx H.
  pose proof E as E'. apply sstep_cases in E' as (_ & _ & St & Q & _).
  destruct (Q ltac:(rewrite T; reflexivity)) as (u & _ & _ & U).
  assert (R : craised (inl x) = true).
  { rewrite T in St. cbn in St. destruct (rs_seq (sc_node s)) as [[q|]|]; try (injection St as _ <-; reflexivity).
    - destruct (extract _ _ _ _ _ _) as [q' []]; injection St as _ Sx; try discriminate; subst x; reflexivity.
    - injection St as _ Sx. congruence. }
  rewrite R in U. destruct (no_ticks _ _ _ _ _ _ _ _ _ H U) as [A _]. split; auto.
  apply sent_ticks_c in H. unfold sent_c in H. rewrite A in H. destruct (documents rs); [auto|cbn in H; lia].
Qed.

(** A document that is over when the window yet to come begins is shown by no
    segment to come, whatever the clock said when it arrived. *)
Theorem C70_missed : forall out discard start len s l s1 rs d x,
  0 < len -> reseq_run out discard start len s l = Some (s1, rs) ->
  d_end d = Some x -> x <= rs_end (sc_node s) ->
  Forall (fun g => forall h t, sg_begin g <= t < sg_end g -> ~ active h t d) (segments rs).
Proof.
  intros out discard start len s l s1 rs d x Hl H Hd Hx.
  apply srun_run in H. revert H Hx. generalize (sc_node s), (sc_node s1). generalize (map what l) rs.
  clear -Hd Hl. induction l as [|i l IH]; intros rs n n1 H Hx; cbn [run] in H.
  - injection H as _ <-. constructor.
  - destruct (reseq_step out len discard n i) as [n2 o] eqn:E.
    destruct (run (reseq_step out len discard) n2 l) as [n3 os] eqn:F. injection H as _ <-.
    destruct (reseq_step_cases _ _ _ _ _ _ _ E) as [(A & B & _)|(q & ws & _ & _ & -> & B & _)].
    + change (segments (o :: os)) with (segments ([o] ++ os)). rewrite segments_app, A.
      eapply IH; [exact F|lia].
    + cbn [segments]. constructor; [|eapply IH; [exact F|lia]].
      intros h t Ht (_ & _ & _ & Q). cbn in Ht. rewrite Hd in Q. lia.
Qed.

(** ** Cases *)

Local Open Scope string_scope.

(** Made at 10:00:00 with begin_output 10:00:04 and segments of 2 s; a document
    comes at 10:00:07.  Looping from 10:00:04, called at 6, 8 and 10 s; the first
    segment, of 10:00:00 to 10:00:02, is sent at 10:00:08: late by 4 s of waiting
    and a call that sent nothing. *)
Definition s_ (n : Z) : Z := n * 1000000.
Definition ten : Z := 10 * 3600 * 1000000.
Definition doc_a := mkDoc 1 "s" "clock" (Some "local") None 1 (ten + s_ 7) None.
Definition doc_b := mkDoc 2 "s" "clock" (Some "local") None 2 (ten + s_ 9) (Some (ten + s_ 11)).
Definition tick_at (n : Z) : timed rinput := mkTimed (s_ n) (s_ n + 1) (RTick true).
Definition early : list (timed rinput) := [tick_at 6; mkTimed (s_ 7) (s_ 7 + 1) (RDoc doc_a)].
Definition node_a : rstate := new_node ten 0.

Example C70_case_launched : launched ten (Some (ten + s_ 4)) 0 0 0 (s_ 4).
Proof. repeat split; try lia. exists (s_ 4). split; [vm_compute; reflexivity|lia]. Qed.

Example C70_case_run :
  match reseq_run "out" true (s_ 4) (s_ 2) (sched0 (s_ 4) (s_ 2) node_a (s_ 4)) early with
  | Some (s, rs) =>
      rs = [RNothing; RNothing] /\ sc_due s = Some (s_ 8) /\
      match sched_step (reseq_step "out" (s_ 2) true) rtick rraised (s_ 4) (s_ 2) s (tick_at 8) with
      | Some (_, RSegment g) => sg_begin g = ten /\ sg_end g = ten + s_ 2 /\ sg_windows g = []
      | _ => False
      end
  | None => False
  end.
Proof. vm_compute. repeat split; reflexivity. Qed.

Example C70_case_keeps_up :
  keeps_up (reseq_step "out" (s_ 2) true) rtick rraised (s_ 4) (s_ 2) (sched0 (s_ 4) (s_ 2) node_a (s_ 4)) early.
Proof. vm_compute. repeat split; reflexivity. Qed.

Example C70_case_same_day : same_day ten 0 (s_ 100).
Proof. vm_compute. reflexivity. Qed.

(** A call cannot come before it is due; one that is over after 5.5 s is followed
    by the next multiple of 2 s. *)
Example C70_case_due :
  reseq_run "out" true 0 (s_ 2) (sched0 0 (s_ 2) node_a 0) [tick_at 1] = None /\
  match reseq_run "out" true 0 (s_ 2) (sched0 0 (s_ 2) node_a 0) [mkTimed (s_ 3) 5500000 (RTick true)] with
  | Some (s, _) => sc_due s = Some (s_ 6)
  | None => False
  end /\
  match reseq_run "out" true 0 (s_ 2) (sched0 0 (s_ 2) node_a 0) [mkTimed (s_ 3) (s_ 4) (RTick true)] with
  | Some (s, _) => sc_due s = Some (s_ 6)
  | None => False
  end.
Proof. vm_compute. repeat split; reflexivity. Qed.

(** The whole history: two documents, both live. *)
Definition whole : list (timed rinput) :=
  (early ++ tick_at 8 :: [mkTimed (s_ 9) (s_ 9 + 1) (RDoc doc_b); tick_at 10; tick_at 12; tick_at 14; tick_at 16])%list.
Example C70_case_whole :
  match reseq_run "out" true (s_ 4) (s_ 2) (sched0 (s_ 4) (s_ 2) node_a (s_ 4)) whole with
  | Some (s, rs) => same_day ten 0 (sc_now s) /\
      map (fun g => (sg_begin g - ten, sg_end g - ten, map (fun w => d_num (fst (fst w))) (sg_windows g))) (segments rs) =
      [(0, s_ 2, []); (s_ 2, s_ 4, []); (s_ 4, s_ 6, []); (s_ 6, s_ 8, [1]); (s_ 8, s_ 10, [1; 2])]
  | None => False
  end.
Proof. vm_compute. repeat split; reflexivity. Qed.
Example C70_case_live : live ten whole.
Proof.
  intros x d H E. cbn in H.
  repeat (destruct H as [<- | H]; [try discriminate; injection E as <-; vm_compute; discriminate|]). destruct H.
Qed.

(** The documents of C52_case_meets as they go on air, in segments of four
    seconds: the hypotheses of C70_shows hold for the second call, and for the
    third. *)
Definition on_air : list (timed cinput) :=
  [mkTimed (s_ 1) (s_ 1) (CDoc doc_1); mkTimed (s_ 4) (s_ 4) CTick; mkTimed (s_ 5) (s_ 5) (CDoc doc_2);
   mkTimed (s_ 8) (s_ 8) CTick; mkTimed (s_ 8) (s_ 8) (CDoc doc_3); mkTimed (s_ 12) (s_ 12) CTick].
Example C70_case_shows :
  launched 0 None 0 0 0 0 /\ live_c 0 on_air /\ stream "s" "media" None "g" (map what on_air) /\
  (forall d, In d (arrivals (map what on_air)) -> cut_anywhere z0 c_none d (contents d)) /\
  match content_run contents "out" true 0 (s_ 4) (sched0 0 (s_ 4) (new_node 0 0) 0) on_air with
  | Some (s, rs) => same_day 0 0 (sc_now s) /\ sent_c rs = 3%nat /\ sc_due s = Some (s_ 16)
  | None => False
  end.
Proof.
  destruct C52_case_meets as (St & _ & Cut).
  split. { repeat split; try lia. exists 0. split; [reflexivity|lia]. }
  split. { intros x d H W. cbn in H.
    repeat (destruct H as [<- | H]; [try discriminate; injection W as <-; vm_compute; discriminate|]). destruct H. }
  split; [exact St|]. split; [exact Cut|].
  vm_compute. repeat split; reflexivity.
Qed.

(** begin_output at 9 o'clock, started at 10. *)
Example C70_case_over : loop_from (begin_delay ten (Some (9 * 3600 * 1000000)) 0) 0 = None.
Proof. reflexivity. Qed.

(** An exception at the first segment. *)
Example C70_case_stops :
  match reseq_run "out" true 0 (s_ 2) (sched0 0 (s_ 2) node_a 0)
          [mkTimed (s_ 1) (s_ 1) (RDoc doc_a); mkTimed (s_ 2) (s_ 2) (RTick false)] with
  | Some (s, rs) => rs = [RNothing; RRaiseSplice] /\ sc_due s = None /\
      reseq_run "out" true 0 (s_ 2) s [tick_at 4] = None
  | None => False
  end.
Proof. vm_compute. repeat split; reflexivity. Qed.

(** With the documents of C52_stuck: the call at nine seconds is the last. *)
Example C70_case_stops_content :
  match content_run PropsReseg.extents "out" true 0 (s_ 9) (sched0 0 (s_ 9) (r0 0) 0)
          [mkTimed (s_ 1) (s_ 1) (CDoc PropsReseg.doc_1); mkTimed (s_ 2) (s_ 2) (CDoc PropsReseg.doc_2); mkTimed (s_ 9) (s_ 9) CTick] with
  | Some (s, rs) => rs = [inl RNothing; inl RNothing; inl RRaiseSplice] /\ sc_due s = None /\
      content_run PropsReseg.extents "out" true 0 (s_ 9) s [mkTimed (s_ 18) (s_ 18) CTick] = None
  | None => False
  end.
Proof. vm_compute. repeat split; reflexivity. Qed.

(** Over midnight: the node is made three seconds before.  A document that comes two
    seconds after begins at once, at 00:00:02, for two seconds; the window after
    that begins at 24:00:01.  The sequence shows it from 00:00:02 on, which was no
    part of any window, nor will be. *)
Theorem C70_midnight : exists off l d s rs,
  let start := 0 in let n := new_node off 0 in
  reseq_run "out" true start (s_ 2) (sched0 start (s_ 2) n start) l = Some (s, rs) /\
  launched off None 0 0 0 start /\ live off l /\ in_order None (rdocs (map what l)) /\
  In d (rdocs (map what l)) /\ d_begin d = s_ 2 /\ active (rdocs (map what l)) (s_ 3) d /\
  List.length (segments rs) = 4%nat /\
  Forall (fun g => forall h t, sg_begin g <= t < sg_end g -> ~ active h t d) (segments rs) /\
  forall l' s' rs', reseq_run "out" true start (s_ 2) s l' = Some (s', rs') ->
    Forall (fun g => forall h t, sg_begin g <= t < sg_end g -> ~ active h t d) (segments rs').
Proof.
  set (a := mkDoc 1 "s" "clock" (Some "local") None 1 (day - s_ 2) (Some (day - s_ 1))).
  set (b := mkDoc 2 "s" "clock" (Some "local") None 2 (s_ 2) (Some (s_ 4))).
  exists (day - s_ 3),
    [mkTimed (s_ 1) (s_ 1) (RDoc a); tick_at 2; tick_at 4; mkTimed (s_ 5) (s_ 5) (RDoc b); tick_at 6; tick_at 8], b.
  match goal with |- exists s rs, let start := 0 in let n := _ in ?X = Some (s, rs) /\ _ => idtac end.
  destruct (reseq_run "out" true 0 (s_ 2) (sched0 0 (s_ 2) (new_node (day - s_ 3) 0) 0)
    [mkTimed (s_ 1) (s_ 1) (RDoc a); tick_at 2; tick_at 4; mkTimed (s_ 5) (s_ 5) (RDoc b); tick_at 6; tick_at 8]) as [[s rs]|] eqn:E;
    [|vm_compute in E; discriminate].
  exists s, rs. cbv zeta. split; [auto|].
  assert (X : rs_end (sc_node s) = day + s_ 5 /\ List.length (segments rs) = 4%nat).
  { clear -E. vm_compute in E. injection E as <- <-. split; reflexivity. }
  split. { repeat split; try lia. exists 0. split; [reflexivity|lia]. }
  split. { intros x d H W. cbn in H.
    repeat (destruct H as [<- | H]; [try discriminate; injection W as <-; vm_compute; discriminate|]). destruct H. }
  split. { cbn. repeat split; lia. }
  split. { cbn. auto. }
  split; [reflexivity|].
  split. { split; [cbn; auto|]. split; [vm_compute; discriminate|]. split; [|vm_compute; reflexivity].
    intros y [<- | [<- | []]] Hy; cbn; lia. }
  split; [apply X|]. split.
  - eapply (C70_missed "out" true 0 (s_ 2) _ _ _ _ b (s_ 4) ltac:(unfold s_; lia) E eq_refl). vm_compute. discriminate.
  - intros l' s' rs' H. eapply (C70_missed "out" true 0 (s_ 2) _ _ _ _ b (s_ 4) ltac:(unfold s_; lia) H eq_refl).
    rewrite (proj1 X). vm_compute. discriminate.
Qed.

Print Assumptions C70_window.
Print Assumptions C70_late.
Print Assumptions C70_exact.
Print Assumptions C70_over.
Print Assumptions C70_begin_output.
Print Assumptions C70_final.
Print Assumptions C70_content.
Print Assumptions C70_shows.
Print Assumptions C70_stops.
Print Assumptions C70_stops_content.
Print Assumptions C70_missed.
Print Assumptions C70_midnight.
