(** C76: how often the page of the user input producer updates its clocks, and what the media
    clock shows. *)

From Coq Require Import List Arith ZArith Lia.
From Verif Require Import TimerModel TimerSpec.
Import ListNotations.

Lemma half_running t c : t_interval t = Some c -> t_interval (half t) = Some c /\ calls (half t) = S (calls t).
Proof. intros I. unfold half. rewrite I. destruct c; cbn; unfold calls; rewrite I; cbn; split; auto; lia. Qed.

Lemma after_app t a b : after t (a ++ b) = after (after t a) b.
Proof. apply fold_left_app. Qed.
Lemma after_cons t v l : after t (v :: l) = after (step t v) l.
Proof. reflexivity. Qed.

(** While a clock runs, each half second has one call more than the one before... *)
Theorem C76_grows : forall es c k, t_interval (after opened es) = Some c ->
  calls (after opened (es ++ repeat Half k)) = k + calls (after opened es) /\
  2 * work (after opened es) (repeat Half k) = k * (2 * calls (after opened es) + k - 1).
Proof.
  intros es c k I. rewrite after_app. revert I. generalize (after opened es). induction k as [|k IH]; intros t I; [split; reflexivity|].
  cbn [repeat work]. rewrite after_cons. cbn [step]. destruct (half_running t c I) as [A B]. destruct (IH _ A) as [C D]. rewrite C, B. split; [lia|].
  rewrite Nat.mul_add_distr_l, D, B. destruct k; nia.
Qed.

(** ... which begins when the page is opened, in whatever mode: after k half seconds there are
    k calls in each, and there were k(k+1)/2. *)
Theorem C76_opened : forall k, t_local (after opened (repeat Half k)) = k /\ 2 * work opened (repeat Half k) = k * (k + 1).
Proof.
  intros k. destruct (C76_grows [] LocalClock k eq_refl) as [_ W]. split.
  - assert (G : forall t, t_interval t = Some LocalClock -> t_local (after t (repeat Half k)) = k + t_local t).
    { clear. induction k as [|k IH]; intros t I; [reflexivity|]. cbn [repeat]. rewrite after_cons. cbn [step]. rewrite IH; unfold half; rewrite I; cbn; [lia|reflexivity]. }
    rewrite G by reflexivity. cbn. lia.
  - change (after opened []) with opened in W. rewrite W. change (calls opened) with 1. f_equal. lia.
Qed.

(** Nothing the user does makes the timeouts fewer: stopping a clock stops only the growth. *)
Theorem C76_never_less : forall es l, t_local (after opened es) <= t_local (after opened (es ++ l)) /\ t_media (after opened es) <= t_media (after opened (es ++ l)).
Proof.
  intros es l. rewrite after_app. generalize (after opened es). induction l as [|v l IH]; intros t; [split; apply le_n|].
  rewrite after_cons. destruct (IH (step t v)) as [A B].
  assert (S : t_local t <= t_local (step t v) /\ t_media t <= t_media (step t v)).
  { destruct v as [|[]|[]|]; cbn; try lia. unfold half. destruct (t_interval t) as [[]|]; cbn; lia. }
  lia.
Qed.
Theorem C76_stopped : forall es s k, s <> OnTime ->
  let t := after opened (es ++ [Sending s]) in
  after t (repeat Half k) = t /\ work t (repeat Half k) = k * (t_local (after opened es) + t_media (after opened es)).
Proof.
  intros es s k N t.
  assert (T : t = stop (after opened es)) by (unfold t; rewrite after_app; destruct s; [reflexivity|congruence|reflexivity]).
  rewrite T. clear. induction k as [|k [A B]]; [split; reflexivity|]. cbn [repeat work]. rewrite after_cons. cbn [step half stop t_interval]. split; [exact A|].
  unfold half in *. cbn [t_interval stop]. rewrite B. unfold calls. cbn. lia.
Qed.

(** Which clock runs is up to the last choice; it is none after leaving the scheduled mode, also
    when coming back to it. *)
Theorem C76_interval : forall es v l, controls v -> Forall (fun w => ~ controls w) l ->
  t_interval (after opened (es ++ v :: l)) = match v with ClockType LocalClock => Some LocalClock | Synchronize => Some MediaClock | _ => None end /\
  t_interval (after opened l) = Some LocalClock.
Proof.
  intros es v l V L.
  assert (K : forall t, t_interval (after t l) = t_interval t).
  { induction L as [|w l W L IH]; intros t; [reflexivity|]. rewrite after_cons, IH. destruct w as [|[]|[]|]; try (destruct (W I)); [|reflexivity].
    cbn. unfold half. destruct (t_interval t) as [[]|] eqn:E; cbn; auto. }
  rewrite after_app, after_cons, !K. split; [|reflexivity]. destruct v as [|[]|[]|]; try destruct V; reflexivity.
Qed.

(** There are never more than one for each half second that the page is open, whatever
    is done. *)
Theorem C76_bound : forall es, t_local (after opened es) + t_media (after opened es) <= halves es.
Proof.
  assert (G : forall es t, t_local (after t es) + t_media (after t es) <= t_local t + t_media t + halves es).
  { induction es as [|v es IH]; intros t; [cbn; lia|]. rewrite after_cons. specialize (IH (step t v)).
    assert (S : t_local (step t v) + t_media (step t v) + halves es <= t_local t + t_media t + halves (v :: es)).
    { unfold halves. destruct v as [|[]|[]|]; cbn; try lia. unfold half. destruct (t_interval t) as [[]|]; cbn; lia. }
    lia. }
  intros es. apply (G es opened).
Qed.

(** ** The media clock *)

Open Scope Z_scope.

Lemma hms_stopwatch x : stopwatch x (hms x).
Proof.
  unfold stopwatch, hms. set (s := x / 1000 mod 86400).
  assert (S : 0 <= s < 86400) by (apply Z.mod_pos_bound; lia).
  pose proof (Z.div_mod s 60 ltac:(lia)) as A. pose proof (Z.mod_pos_bound s 60 ltac:(lia)) as A'.
  pose proof (Z.div_mod (s / 60) 60 ltac:(lia)) as B. pose proof (Z.mod_pos_bound (s / 60) 60 ltac:(lia)) as B'.
  assert (D : s / 3600 = s / 60 / 60) by (rewrite Z.div_div by lia; reflexivity).
  split; [split; [apply Z.div_pos; lia|apply Z.div_lt_upper_bound; lia]|]. split; [exact B'|]. split; [exact A'|].
  exists (x / 1000 / 86400). rewrite D.
  replace (s mod 60 + 60 * ((s / 60) mod 60 + 60 * (s / 60 / 60 + 24 * (x / 1000 / 86400)))) with (s + 86400 * (x / 1000 / 86400)) by lia.
  pose proof (Z.div_mod (x / 1000) 86400 ltac:(lia)) as E. fold s in E. pose proof (Z.div_mod x 1000 ltac:(lia)). pose proof (Z.mod_pos_bound x 1000 ltac:(lia)). lia.
Qed.

(** The media clock shows the time since Synchronize exactly if the local time had no offset
    at the beginning of 1970 (and that long after), or whole days. *)
Theorem C76_media : forall zone sync now, (1000 | zone (now - sync)) ->
  (stopwatch (now - sync) (media_clock zone sync now) <-> (86400000 | zone (now - sync))).
Proof.
  intros zone sync now [z Z0]. unfold media_clock. set (e := now - sync) in *.
  pose proof (hms_stopwatch (e + zone e)) as H. unfold stopwatch in *. destruct (hms (e + zone e)) as [[h m] s].
  destruct H as (A & B & C & (day & D)). split.
  - intros (_ & _ & _ & (d & E)). exists (day - d). lia.
  - intros (k & K). repeat (split; [assumption|]). exists (day - k). lia.
Qed.

(** What it shows is ahead by the offset. *)
Theorem C76_ahead : forall zone sync now, stopwatch (now - sync + zone (now - sync)) (media_clock zone sync now).
Proof. intros. apply hms_stopwatch. Qed.

(** ** Cases *)

Example C76_case_opened : calls opened = 1%nat /\ calls (after opened (repeat Half 720)) = 721%nat /\
  t_local (after opened [Half; Half; Sending OnKeys; Half; Sending OnTime; Half]) = 2%nat.
Proof. vm_compute. auto. Qed.
Example C76_case_media_timers : let es := [Half; Sending OnTime; ClockType MediaClock; Half; Synchronize; Half; Half; Half; ClockType LocalClock; Half] in
  after opened es = mkTimers (Some LocalClock) 2 3 /\ work opened es = (1 + 1 + 2 + 3 + 4 + 5)%nat /\ halves es = 6%nat.
Proof. vm_compute. auto. Qed.
Example C76_case_interval : t_interval (after opened [ClockType MediaClock; Synchronize; Half; Sending OnTime; Half]) = Some MediaClock /\
  t_interval (after opened [Sending OnTime; Sending OnKeys; Sending OnTime; Half]) = None.
Proof. vm_compute. auto. Qed.
Example C76_case_stopped : after opened ([Half; Half; Half] ++ [Sending Asynchronously]) = mkTimers None 3 0 /\
  work (mkTimers None 3 0) [Half; Half] = 6%nat.
Proof. vm_compute. auto. Qed.
(** An hour ahead: it begins with 01:00:00. *)
Example C76_case_media : media_clock (fun _ => 3600000) 1000000000 1000000000 = (1, 0, 0) /\
  media_clock (fun _ => 0) 1000000000 1000061500 = (0, 1, 1) /\ media_clock (fun _ => -18000000) 5 5 = (19, 0, 0).
Proof. vm_compute. auto. Qed.

Print Assumptions C76_grows.
Print Assumptions C76_opened.
Print Assumptions C76_never_less.
Print Assumptions C76_stopped.
Print Assumptions C76_bound.
Print Assumptions C76_media.
Print Assumptions C76_ahead.
Print Assumptions C76_interval.
