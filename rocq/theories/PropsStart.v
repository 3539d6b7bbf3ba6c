(** C71: who receives what is read from files at the start of an application. *)

From Coq Require Import List Arith String Bool Lia Permutation.
From Verif Require Import StartModel StartSpec StartProofs.
Import ListNotations.

(** ** Before the reactor runs *)

(** Whatever the nodes do, in whichever order the configurators are started and
    however that ends: nothing is received by anyone while they are. *)
Theorem C71_silent : forall (N I : Type) (net : N -> I -> N * list emission * bool) n order,
  a_got (state_of (start net (app0 n) order)) = [] /\ a_conns (state_of (start net (app0 n) order)) = [].
Proof. intros N I net n order. apply (start_silent net order (app0 n)). reflexivity. Qed.

(** All that files are read for without a delay is lost to the connections of the
    websocket outputs: what someone receives later was sent with a delay when it
    was read, or sent while the reactor ran. *)
Theorem C71_lost : forall (N I : Type) (net : N -> I -> N * list emission * bool) n order a l w x,
  start net (app0 n) order = Running a -> In (w, x) (a_got (happens net a l)) ->
  (exists e d, In e (emitted net n (read order)) /\ e_delay e = Some d /\ e_text e = x) \/
  (exists e, In e (emitted net (after net n (read order)) (coming l)) /\ e_text e = x).
Proof.
  intros N I net n order a l w x H G.
  pose proof (C71_silent N I net n order) as [S _]. rewrite H in S. cbn [state_of] in S.
  pose proof (start_running net order _ _ H) as (A & _). cbn [app0 a_net] in A.
  apply happens_from in G as [G|[(t & G & X)|G]].
  - rewrite S in G. destruct G.
  - destruct (proj1 (start_timers net order _ _ H (t_out t) (t_sid t) (t_text t)) (ex_intro _ t (conj G (conj eq_refl (conj eq_refl eq_refl))))) as [(t' & [] & _)|Q].
    destruct Q as (pre & ls & tail & post & e & -> & _ & Q & _ & D & _ & Y). cbn [app0 a_net] in Q.
    left. destruct (e_delay e) as [d|] eqn:De; [|congruence]. exists e, d. split; [|split; congruence].
    assert (Em : forall l1 l2 m, emitted net m (l1 ++ l2) = (emitted net m l1 ++ emitted net (after net m l1) l2)%list).
    { induction l1 as [|i l1 IH]; intros; cbn; auto. rewrite IH, app_assoc. auto. }
    unfold read. rewrite flat_map_app. cbn [flat_map]. rewrite !Em. apply in_or_app. right. apply in_or_app. left. exact Q.
  - right. rewrite A in G. exact G.
Qed.

(** Files, on the other hand, are written in any case: everything the nodes send to
    a file output, in order. *)
Theorem C71_files : forall (N I : Type) (net : N -> I -> N * list emission * bool) n order a,
  start net (app0 n) order = Running a -> a_files a = to_files (emitted net n (read order)).
Proof. intros N I net n order a H. apply start_running in H. apply H. Qed.

(** ** With a delay *)

(** What is sent with a delay is kept exactly if the websocket output was started
    before the input that reads it. *)
Theorem C71_kept : forall (N I : Type) (net : N -> I -> N * list emission * bool) n order a o s x,
  start net (app0 n) order = Running a ->
  ((exists t, In t (a_timers a) /\ t_out t = o /\ t_sid t = s /\ t_text t = x) <->
   exists pre l tail post e, order = (pre ++ FileIn l tail :: post)%list /\ In (SocketOut o) pre /\
     In e (emitted net (after net n (read pre)) (map snd (lines l tail))) /\
     e_to e = ToSocket o /\ e_delay e <> None /\ e_sid e = s /\ e_text e = x).
Proof.
  intros N I net n order a o s x H. rewrite (start_timers net order _ _ H o s x). cbn [app0 a_net a_ready a_timers List.app].
  assert (O : forall pre : list (component I), In o (outputs pre) <-> In (SocketOut o) pre).
  { intros pre. unfold outputs. rewrite in_flat_map. split.
    - intros (c & C & D). destruct c; cbn in D; intuition. subst. auto.
    - intros C. exists (SocketOut o). split; auto. cbn. auto. }
  split.
  - intros [(t & [] & _)|(pre & l & tail & post & e & A & B & R)]. exists pre, l, tail, post, e.
    split; auto. split; [apply O; auto|exact R].
  - intros (pre & l & tail & post & e & A & B & R). right. exists pre, l, tail, post, e.
    split; auto. split; [apply O; auto|exact R].
Qed.

(** What is kept goes to those who are connected when the delay is over. *)
Theorem C71_delayed : forall (N I : Type) (net : N -> I -> N * list emission * bool) a t l c d,
  In t (a_timers a) -> a_now a + waited l < t_due t -> t_due t <= a_now a + waited l + d ->
  In c (a_conns (happens net a l)) -> c_out c = t_out t -> c_sid c = t_sid t ->
  In (c_who c, t_text t) (a_got (happens net a (l ++ [Wait d]))).
Proof.
  intros N I net a t l c d H L U C O S. unfold happens. rewrite fold_left_app. cbn [fold_left happen].
  fold (happens net a l). apply fires; auto.
  - cbn [pass a_timers]. apply happens_waits; auto.
  - cbn [pass a_now]. destruct (happens_keeps net l a) as (_ & _ & E). rewrite E. auto.
Qed.

(** And these are exactly those who have connected and not left since. *)
Theorem C71_connected : forall (N I : Type) (net : N -> I -> N * list emission * bool) l a c,
  In c (a_conns (happens net a l)) <-> connected (a_conns a) l c.
Proof.
  intros N I net. unfold connected. induction l as [|v l IH] using rev_ind; intros a c.
  - cbn. split; [intros H; left; auto|]. intros [[H _]|(l1 & l2 & E & _)]; auto. destruct l1; discriminate.
  - unfold happens. rewrite fold_left_app. cbn [fold_left]. fold (happens net a l).
    assert (Same : (forall d, v <> Connect d) -> v <> Disconnect (c_who c) ->
      (In c (a_conns (happens net a l)) <-> (In c (a_conns a) /\ ~ In (Disconnect (c_who c)) (l ++ [v])%list) \/
       exists l1 l2, (l ++ [v])%list = (l1 ++ Connect c :: l2)%list /\ ~ In (Disconnect (c_who c)) l2)).
    { intros NC ND. rewrite (IH a c), in_app_iff. cbn [In]. split.
      - intros [[A B]|(l1 & l2 & -> & B)]; [left; split; auto; intros [X|[X|[]]]; auto|].
        right. exists l1, (l2 ++ [v])%list. split; [rewrite <- app_assoc; reflexivity|]. rewrite in_app_iff. cbn. intros [X|[X|[]]]; auto.
      - intros [[A B]|(l1 & l2 & E & B)]; [left; auto|].
        destruct l2 as [|y l2 _] using rev_ind; [apply app_inj_tail in E as [_ E]; destruct (NC c E)|].
        rewrite app_comm_cons, app_assoc in E. apply app_inj_tail in E as [-> ->].
        right. exists l1, l2. split; auto. intros X. apply B, in_app_iff. auto. }
    destruct v as [i|d|w|d]; cbn [happen].
    + destruct (react net (happens net a l) i) as [b r] eqn:E. apply react_keeps in E as (_ & _ & _ & _ & E & _). cbn [fst]. rewrite E.
      apply Same; discriminate.
    + cbn [a_conns]. rewrite in_app_iff, (IH a c). cbn [In]. split.
      * intros [[[A B]|(l1 & l2 & -> & B)]|[->|[]]].
        -- left. split; auto. rewrite in_app_iff. cbn. intros [X|[X|[]]]; [auto|discriminate].
        -- right. exists l1, (l2 ++ [Connect d])%list. split; [rewrite <- app_assoc; reflexivity|].
           rewrite in_app_iff. cbn. intros [X|[X|[]]]; [auto|discriminate].
        -- right. exists l, []. auto.
      * intros [[A B]|(l1 & l2 & E & B)]; [left; left; split; auto; intros X; apply B, in_app_iff; auto|].
        destruct l2 as [|y l2 _] using rev_ind; [apply app_inj_tail in E as [_ E]; injection E as ->; auto|].
        rewrite app_comm_cons, app_assoc in E. apply app_inj_tail in E as [-> _].
        left. right. exists l1, l2. split; auto. intros X. apply B, in_app_iff. auto.
    + cbn [a_conns]. rewrite filter_In. destruct (Nat.eqb_spec (c_who c) w) as [<-|NE]; cbn [negb].
      * split; [intros [_ X]; discriminate|]. intros [[_ B]|(l1 & l2 & E & B)]; exfalso.
        -- apply B, in_app_iff. cbn. auto.
        -- destruct l2 as [|y l2 _] using rev_ind; [apply app_inj_tail in E as [_ E]; discriminate|].
           rewrite app_comm_cons, app_assoc in E. apply app_inj_tail in E as [_ <-]. apply B, in_app_iff. cbn. auto.
      * rewrite <- Same; [intuition|discriminate|]. intros X. injection X as X. congruence.
    + unfold fire. destruct (writes_keep (filter (due (a_now (pass (happens net a l) d))) (a_timers (pass (happens net a l) d)))
        (mkApp (a_net (pass (happens net a l) d)) (a_now (pass (happens net a l) d)) (a_ready (pass (happens net a l) d)) (a_conns (pass (happens net a l) d))
         (filter (fun t => negb (due (a_now (pass (happens net a l) d)) t)) (a_timers (pass (happens net a l) d)))
         (a_got (pass (happens net a l) d)) (a_files (pass (happens net a l) d)))) as (_ & _ & _ & C & _).
      rewrite C. cbn [a_conns pass]. apply Same; discriminate.
Qed.

(** ** With the tail option *)

(** An input with the tail option that is not interrupted keeps the reactor from
    running, wherever it comes in the order. *)
Theorem C71_never : forall (N I : Type) (net : N -> I -> N * list emission * bool) n order l more,
  In (FileIn l (Some (more, false))) order -> forall a, start net (app0 n) order <> Running a.
Proof.
  intros N I net n order l more H a E. apply start_running in E as (_ & _ & _ & _ & F).
  rewrite Forall_forall in F. specialize (F _ H). discriminate.
Qed.

(** When it reads for ever, what comes after it in the order is not started. *)
Theorem C71_reading : forall (N I : Type) (net : N -> I -> N * list emission * bool) n order a,
  start net (app0 n) order = Reading a ->
  exists pre l more post, order = (pre ++ FileIn l (Some (more, false)) :: post)%list /\ a_ready a = outputs pre /\
    a_net a = after net n (read pre ++ map snd (l ++ more)) /\ a_got a = [].
Proof.
  intros N I net n order a H.
  assert (G : forall order b, start net b order = Reading a ->
    exists pre l more post, order = (pre ++ FileIn l (Some (more, false)) :: post)%list /\
      exists b', start net b pre = Running b' /\ feed net b' (l ++ more) = (a, false)).
  { clear H n order. induction order as [|c order IH]; intros b H; cbn [start] in H; [discriminate|].
    destruct c as [l tail|o|].
    - destruct (feed net b (lines l tail)) as [b1 r] eqn:F. destruct r; [discriminate|].
      destruct (endless tail) eqn:T.
      + injection H as <-. destruct tail as [[more []]|]; try discriminate.
        exists [], l, more, order. split; auto. exists b. auto.
      + apply IH in H as (pre & l' & more & post & -> & b' & P & Q).
        exists (FileIn l tail :: pre), l', more, post. split; auto. exists b'. cbn [start]. rewrite F, T. auto.
    - apply IH in H as (pre & l' & more & post & -> & b' & P & Q). exists (SocketOut o :: pre), l', more, post. split; auto. exists b'. auto.
    - apply IH in H as (pre & l' & more & post & -> & b' & P & Q). exists (Other :: pre), l', more, post. split; auto. exists b'. auto. }
  pose proof (C71_silent N I net n order) as [S _]. rewrite H in S. cbn [state_of] in S.
  apply G in H as (pre & l & more & post & -> & b' & P & Q). exists pre, l, more, post. split; auto.
  apply start_running in P as (P1 & P2 & _). apply feed_keeps in Q as (Q1 & _ & Q2). destruct (Q2 eq_refl) as [Q3 _].
  rewrite Q1, P2, Q3, P1. cbn [app0 a_ready a_net List.app]. rewrite after_app. auto.
Qed.

(** As long as nothing raises, whether the reactor runs does not depend on the
    order. *)
Theorem C71_runs : forall (N I : Type) (net : N -> I -> N * list emission * bool) n order,
  (forall m i, snd (net m i) = false) ->
  ((exists a, start net (app0 n) order = Running a) <->
   forall l more, ~ In (FileIn l (Some (more, false))) order).
Proof.
  intros N I net n order Calm. split.
  - intros (a & H) l more Hin. eapply C71_never; eauto.
  - intros H.
    assert (F : forall l b, snd (feed net b l) = false).
    { induction l as [|[d i] l IH]; intros b; cbn [feed]; auto.
      destruct (react net (pass b d) i) as [b1 r] eqn:E. apply react_keeps in E as (_ & R & _). rewrite Calm in R. subst. auto. }
    revert H. generalize (@app0 N n). induction order as [|c order IH]; intros b H; cbn [start]; [eauto|].
    assert (H' : forall l more, ~ In (FileIn l (Some (more, false))) order) by (intros l more X; eapply H; right; eauto).
    destruct c as [l tail|o|]; auto. specialize (F (lines l tail) b). destruct (feed net b (lines l tail)) as [b1 r]. cbn in F. subst r.
    destruct tail as [[more []]|]; cbn [endless]; auto. exfalso. eapply H. left. reflexivity.
Qed.

(** ** Cases *)

Local Open Scope string_scope.

(** Nodes that hand on the text: to a websocket output, to one through a buffer delay
    of 5, or to a file; and that raise on "bad". *)
Definition relay (k : sink) (d : option nat) (n : nat) (i : string) : nat * list emission * bool :=
  if String.eqb i "bad" then (n, [], true) else (S n, [mkEm k d "s" i], false).
Definition file : component string := FileIn [(0, "a"); (1, "b")] None.
Definition viewer : conn := mkConn 7 1 "s".
Definition evening : list (event string) := [Connect viewer; Wait 4; Comes "c"; Wait 4].
Definition got (s : started nat) (net : nat -> string -> nat * list emission * bool) (l : list (event string)) : option (list (nat * string)) :=
  match s with Running a => Some (a_got (happens net a l)) | _ => None end.

(** The two documents of the manifest are sent to nobody, the later one is. *)
Example C71_case_lost : got (start (relay (ToSocket 1) None) (app0 0) [SocketOut 1; file; Other]) (relay (ToSocket 1) None) evening
  = Some [(7, "c")].
Proof. reflexivity. Qed.

(** With the delay they come (the third is yet to come), *)
Example C71_case_delayed : got (start (relay (ToSocket 1) (Some 5)) (app0 0) [SocketOut 1; file; Other]) (relay (ToSocket 1) (Some 5)) evening
  = Some [(7, "a"); (7, "b")].
Proof. reflexivity. Qed.
(** unless the viewer connects after the delay of the first is over, *)
Example C71_case_late : got (start (relay (ToSocket 1) (Some 5)) (app0 0) [SocketOut 1; file]) (relay (ToSocket 1) (Some 5))
  [Wait 4; Connect viewer; Wait 9] = Some [(7, "b")].
Proof. reflexivity. Qed.
(** or asks for another sequence or another output, or has left. *)
Example C71_case_other :
  let s := start (relay (ToSocket 1) (Some 5)) (app0 0) [SocketOut 1; SocketOut 2; file] in
  got s (relay (ToSocket 1) (Some 5))
    [Connect (mkConn 7 1 "t"); Connect (mkConn 8 2 "s"); Connect (mkConn 9 1 "s"); Connect (mkConn 5 1 "s"); Disconnect 9; Wait 9]
  = Some [(5, "a"); (5, "b")].
Proof. reflexivity. Qed.

(** Two viewers, in the order in which they came. *)
Example C71_case_two : got (start (relay (ToSocket 1) None) (app0 0) [SocketOut 1]) (relay (ToSocket 1) None)
  [Connect (mkConn 8 1 "s"); Connect viewer; Comes "c"; Disconnect 8; Comes "d"] = Some [(8, "c"); (7, "c"); (7, "d")].
Proof. reflexivity. Qed.

Example C71_case_files : match start (relay (ToFile 3) (Some 5)) (app0 0) [file; SocketOut 1] with
  | Running a => a_files a = [(3, "a"); (3, "b")] | _ => False end.
Proof. reflexivity. Qed.

(** Waiting for more lines; interrupted; and an exception, after which neither the
    output nor the reactor is started. *)
Example C71_case_reading : match start (relay (ToSocket 1) None) (app0 0) [SocketOut 1; FileIn [(0, "a")] (Some ([(9, "b")], false)); SocketOut 2] with
  | Reading a => a_ready a = [1] /\ a_net a = 2 /\ a_now a = 9 | _ => False end.
Proof. repeat split. Qed.
Example C71_case_interrupted : match start (relay (ToSocket 1) None) (app0 0) [SocketOut 1; FileIn [(0, "a")] (Some ([(9, "b")], true)); SocketOut 2] with
  | Running a => a_ready a = [1; 2] /\ a_net a = 2 | _ => False end.
Proof. repeat split. Qed.
Example C71_case_failed : match start (relay (ToFile 1) None) (app0 0) [FileIn [(0, "a"); (0, "bad"); (0, "b")] None; SocketOut 2] with
  | Failed a => a_ready a = [] /\ a_files a = [(1, "a")] | _ => False end.
Proof. repeat split. Qed.

(** The order, that of a set of objects, decides what a viewer gets. *)
Theorem C71_order : exists (net : nat -> string -> nat * list emission * bool) o1 o2 a1 a2 l,
  Permutation o1 o2 /\ start net (app0 0) o1 = Running a1 /\ start net (app0 0) o2 = Running a2 /\
  a_got (happens net a1 l) = [(7, "a"); (7, "b")] /\ a_got (happens net a2 l) = [].
Proof.
  exists (relay (ToSocket 1) (Some 5)), [SocketOut 1; file], [file; SocketOut 1]. eexists. eexists.
  exists [Connect viewer; Wait 9]. split; [apply perm_swap|]. repeat split; reflexivity.
Qed.

Print Assumptions C71_silent.
Print Assumptions C71_lost.
Print Assumptions C71_files.
Print Assumptions C71_kept.
Print Assumptions C71_delayed.
Print Assumptions C71_connected.
Print Assumptions C71_never.
Print Assumptions C71_reading.
Print Assumptions C71_runs.
Print Assumptions C71_order.
