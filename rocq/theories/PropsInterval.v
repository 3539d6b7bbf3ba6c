(** C78: when the page of the user input producer sends at intervals. *)

From Coq Require Import List ZArith QArith Qround Lia.
From Verif Require Import IntervalModel IntervalSpec.
Import ListNotations.

Lemma valid_positive e p : valid e = Some p <-> positive e p.
Proof.
  unfold valid, positive. destruct e as [q|]; [|split; [discriminate|intros [H _]; discriminate]].
  destruct (Qle_bool q 0) eqn:E.
  - apply Qle_bool_iff in E. split; [discriminate|]. intros [H P]. injection H as ->. exfalso. apply (Qlt_not_le _ _ P E).
  - split; intros H; [injection H as <-; split; [reflexivity|]|destruct H as [H _]; exact H].
    apply Qnot_le_lt. intros L. apply Qle_bool_iff in L. congruence.
Qed.
Lemma after_app a b : after (a ++ b) = fold_left step b (after a).
Proof. apply fold_left_app. Qed.
Lemma visible_is l : forall s, i_visible (fold_left step l s) = asynchronous (i_visible s) l.
Proof.
  induction l as [|v l IH]; intros s; [reflexivity|]. cbn [fold_left]. rewrite IH. destruct v; cbn [step asynchronous]; try reflexivity.
  - destruct (i_visible s) eqn:E; [|rewrite E; reflexivity]. destruct (i_period s); cbn; rewrite ?E; reflexivity.
  - destruct (i_visible s) eqn:E; cbn; rewrite ?E; reflexivity.
Qed.

(** The buttons can be used in the mode "asynchronously" only. *)
Theorem C78_buttons : forall l v, asynchronous false l = false -> (exists e, v = Start e) \/ v = Stop -> after (l ++ [v]) = after l.
Proof.
  intros l v A V. rewrite after_app. cbn [fold_left]. pose proof (visible_is l loaded) as H. cbn in H. rewrite A in H. fold (after l) in H.
  destruct V as [(e & ->)| ->]; cbn; rewrite H; reflexivity.
Qed.

(** In that mode a positive number starts sending with that period, unless it is started; no
    other does. *)
Theorem C78_start : forall l e p, asynchronous false l = true -> i_period (after l) = None ->
  (i_period (after (l ++ [Start e])) = Some p <-> positive e p).
Proof.
  intros l e p A N. rewrite after_app. cbn [fold_left step]. pose proof (visible_is l loaded) as H. cbn in H. rewrite A in H. fold (after l) in H.
  rewrite H, N. cbn. apply valid_positive.
Qed.

(** It goes on with that period, whatever is entered and whichever mode is chosen, until Stop is
    pressed in the mode "asynchronously" or the page is loaded again. *)
Theorem C78_goes_on : forall l p m, i_period (after l) = Some p -> ~ In Load m ->
  (forall a b, m = (a ++ Stop :: b)%list -> asynchronous false (l ++ a) = false) -> i_period (after (l ++ m)) = Some p.
Proof.
  intros l p m. revert l. induction m as [|v m IH]; intros l P N S; [rewrite app_nil_r; exact P|].
  replace (l ++ v :: m)%list with ((l ++ [v]) ++ m)%list by (rewrite <- app_assoc; reflexivity). apply IH.
  - rewrite after_app. cbn [fold_left]. destruct v; cbn; auto.
    + destruct (i_visible (after l)); [rewrite P|]; exact P.
    + pose proof (visible_is l loaded) as H. cbn in H. fold (after l) in H. specialize (S [] m eq_refl). rewrite app_nil_r in S. rewrite H, S. exact P.
    + destruct N. left. reflexivity.
  - intros I. apply N. right. exact I.
  - intros a b ->. rewrite <- app_assoc. apply (S (v :: a) b). reflexivity.
Qed.
Theorem C78_ends : forall l v, v = Load \/ (v = Stop /\ asynchronous false l = true) -> i_period (after (l ++ [v])) = None.
Proof.
  intros l v V. rewrite after_app. cbn [fold_left]. destruct V as [-> |[-> A]]; [reflexivity|].
  pose proof (visible_is l loaded) as H. cbn in H. rewrite A in H. fold (after l) in H. cbn. rewrite H. reflexivity.
Qed.

(** So documents are sent at intervals in another mode. *)
Theorem C78_other_mode : exists l, asynchronous false l = false /\ ticks (after l) 10 = 5%Z.
Proof. exists [Enter; Start (Some 2%Q); Leave]. split; vm_compute; reflexivity. Qed.

(** The n-th comes after n periods. *)
Theorem C78_ticks : forall l p time n, i_period (after l) = Some p -> (0 < p)%Q -> (0 < n)%Z ->
  ((n <= ticks (after l) time)%Z <-> (inject_Z n * p <= time)%Q).
Proof.
  intros l p time n P H N. unfold ticks. rewrite P.
  assert (E : (inject_Z n * p <= time)%Q <-> (inject_Z n <= time / p)%Q).
  { split; intros K; [apply Qle_shift_div_l; assumption|]. apply (Qmult_le_r _ _ p H) in K. rewrite (Qmult_comm (time / p)), Qmult_div_r in K; [exact K|].
    intros Z. rewrite Z in H. apply (Qlt_irrefl 0 H). }
  rewrite E. split; intros K.
  - apply Qle_trans with (inject_Z (Qfloor (time / p))); [rewrite <- Zle_Qle; lia|apply Qfloor_le].
  - apply Qfloor_resp_le in K. rewrite Qfloor_Z in K. lia.
Qed.

(** And the period of a started interval is positive. *)
Theorem C78_positive : forall l p, i_period (after l) = Some p -> (0 < p)%Q.
Proof.
  intros l. induction l as [|v l IH] using rev_ind; intros p; [discriminate|]. rewrite after_app. cbn [fold_left]. destruct v; cbn; try discriminate; auto.
  - destruct (i_visible (after l)); [|apply IH]. destruct (i_period (after l)) eqn:E; [rewrite E; apply IH|]. cbn. intros H. apply valid_positive in H. apply H.
  - destruct (i_visible (after l)); [discriminate|apply IH].
Qed.

(** ** Cases *)

Example C78_case_start : i_period (after [Start (Some 1%Q)]) = None /\ i_period (after [Enter; Start (Some (-1)%Q); Start None; Start (Some 0%Q)]) = None /\
  i_period (after [Enter; Start (Some (1 # 2)%Q); Start (Some 7%Q)]) = Some (1 # 2)%Q.
Proof. vm_compute. auto. Qed.
Example C78_case_goes_on : let l := [Enter; Start (Some 1%Q)] in i_period (after (l ++ [Leave; Stop; Start (Some 3%Q); Enter])) = Some 1%Q /\
  i_period (after (l ++ [Leave; Enter; Stop])) = None /\ asynchronous false (l ++ [Leave]) = false /\ i_period (after (l ++ [Load])) = None.
Proof. vm_compute. auto. Qed.
Example C78_case_ticks : ticks (after [Enter; Start (Some (3 # 2)%Q)]) 10 = 6%Z /\ ticks loaded 10 = 0%Z.
Proof. vm_compute. auto. Qed.

Print Assumptions C78_buttons.
Print Assumptions C78_start.
Print Assumptions C78_goes_on.
Print Assumptions C78_ends.
Print Assumptions C78_other_mode.
Print Assumptions C78_ticks.
Print Assumptions C78_positive.
