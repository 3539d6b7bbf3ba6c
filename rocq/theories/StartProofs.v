(** Lemmas for C71. *)

From Coq Require Import List Arith String Bool Lia.
From Verif Require Import StartModel StartSpec.
Import ListNotations.

Section P.
Context {N I : Type}.
Variable net : N -> I -> N * list emission * bool.

(** ** Emitting leaves these alone *)

Lemma emit_keeps : forall (a : app N) e, a_net (emit a e) = a_net a /\ a_now (emit a e) = a_now a /\
  a_ready (emit a e) = a_ready a /\ a_conns (emit a e) = a_conns a.
Proof.
  intros a e. unfold emit. destruct (e_to e); auto.
  destruct (existsb _ _); auto. destruct (e_delay e); auto.
Qed.

Lemma emits_keep : forall es (a : app N), let b := fold_left emit es a in
  a_net b = a_net a /\ a_now b = a_now a /\ a_ready b = a_ready a /\ a_conns b = a_conns a.
Proof.
  induction es as [|e es IH]; intros a; cbn; auto.
  destruct (IH (emit a e)) as (A & B & C & D). destruct (emit_keeps a e) as (E & F & G & H).
  rewrite A, B, C, D. auto.
Qed.

Lemma emits_files : forall es (a : app N), a_files (fold_left emit es a) = (a_files a ++ to_files es)%list.
Proof.
  induction es as [|e es IH]; intros a; cbn [fold_left to_files flat_map]; [rewrite app_nil_r; auto|].
  rewrite IH. unfold emit. destruct (e_to e); cbn [a_files]; [rewrite <- app_assoc; auto|].
  destruct (existsb _ _); auto. destruct (e_delay e); auto.
Qed.

Lemma emits_got : forall es (a : app N) w x, In (w, x) (a_got (fold_left emit es a)) ->
  In (w, x) (a_got a) \/
  exists e c, In e es /\ e_text e = x /\ In c (a_conns a) /\ c_who c = w /\ e_to e = ToSocket (c_out c) /\
    e_sid e = c_sid c /\ e_delay e = None.
Proof.
  induction es as [|e es IH]; intros a w x H; [auto|]. cbn [fold_left] in H. apply IH in H as [H|H].
  - unfold emit in H. destruct (e_to e) eqn:T; auto. destruct (existsb _ _); auto. destruct (e_delay e) eqn:D; auto.
    cbn in H. apply in_app_or in H as [H|H]; auto. right.
    apply in_map_iff in H as (c & E & H). injection E as <- <-. apply filter_In in H as [H1 H2].
    unfold hears in H2. apply andb_prop in H2 as [H2 H3]. apply Nat.eqb_eq in H2. apply String.eqb_eq in H3.
    exists e, c. subst. cbn. repeat split; auto.
  - destruct H as (f & c & H & H'). destruct (emit_keeps a e) as (_ & _ & _ & K). rewrite K in H'.
    right. exists f, c. cbn. tauto.
Qed.

Lemma emits_timers : forall es (a : app N) t, In t (a_timers (fold_left emit es a)) <->
  In t (a_timers a) \/
  exists e d, In e es /\ e_to e = ToSocket (t_out t) /\ In (t_out t) (a_ready a) /\ e_delay e = Some d /\
    t_due t = a_now a + d /\ e_sid e = t_sid t /\ e_text e = t_text t.
Proof.
  induction es as [|e es IH]; intros a t; cbn [fold_left].
  { split; auto. intros [H|(e & d & [] & _)]; auto. }
  rewrite IH. destruct (emit_keeps a e) as (_ & K1 & K2 & _). rewrite K1, K2.
  split.
  - intros [H|(f & d & F & R)]; [|right; exists f, d; cbn; tauto].
    unfold emit in H. destruct (e_to e) as [f|o] eqn:T; auto.
    destruct (existsb (Nat.eqb o) (a_ready a)) eqn:X; auto. destruct (e_delay e) as [d|] eqn:D; auto.
    cbn in H. apply in_app_or in H as [H|[<-|[]]]; auto. right.
    apply existsb_exists in X as (o' & X & Y). apply Nat.eqb_eq in Y. subst o'.
    exists e, d. cbn. repeat split; auto.
  - intros [H|(f & d & [<-|F] & T & R & D & U & S & X)].
    + left. unfold emit. destruct (e_to e); auto. destruct (existsb _ _); auto. destruct (e_delay e); auto.
      cbn. apply in_or_app. auto.
    + left. unfold emit. rewrite T. rewrite (proj2 (existsb_exists _ _)) by (exists (t_out t); split; [auto|apply Nat.eqb_refl]).
      rewrite D. cbn. apply in_or_app. right. left. destruct t; cbn in *; congruence.
    + right. exists f, d. tauto.
Qed.

(** ** Reacting and reading *)

Lemma react_keeps : forall a i a1 r, react net a i = (a1, r) ->
  a_net a1 = fst (fst (net (a_net a) i)) /\ r = snd (net (a_net a) i) /\
  a_now a1 = a_now a /\ a_ready a1 = a_ready a /\ a_conns a1 = a_conns a /\
  a_files a1 = (a_files a ++ to_files (snd (fst (net (a_net a) i))))%list.
Proof.
  intros a i a1 r H. unfold react in H. destruct (net (a_net a) i) as [[n es] x]. injection H as <- <-.
  cbn [fst snd].
  pose proof (emits_keep es (mkApp n (a_now a) (a_ready a) (a_conns a) (a_timers a) (a_got a) (a_files a))) as K.
  cbv zeta in K. destruct K as (A & B & C & D). cbn in A, B, C, D.
  repeat split; auto. apply (emits_files es (mkApp n (a_now a) (a_ready a) (a_conns a) (a_timers a) (a_got a) (a_files a))).
Qed.

Lemma react_got : forall a i a1 r w x, react net a i = (a1, r) -> In (w, x) (a_got a1) ->
  In (w, x) (a_got a) \/
  exists e c, In e (snd (fst (net (a_net a) i))) /\ e_text e = x /\ In c (a_conns a) /\ c_who c = w /\
    e_to e = ToSocket (c_out c) /\ e_sid e = c_sid c /\ e_delay e = None.
Proof.
  intros a i a1 r w x H K. unfold react in H. destruct (net (a_net a) i) as [[n es] y]. injection H as <- <-.
  apply emits_got in K. exact K.
Qed.

Lemma react_timers : forall a i a1 r t, react net a i = (a1, r) ->
  (In t (a_timers a1) <-> In t (a_timers a) \/
  exists e d, In e (snd (fst (net (a_net a) i))) /\ e_to e = ToSocket (t_out t) /\ In (t_out t) (a_ready a) /\ e_delay e = Some d /\
    t_due t = a_now a + d /\ e_sid e = t_sid t /\ e_text e = t_text t).
Proof.
  intros a i a1 r t H. unfold react in H. destruct (net (a_net a) i) as [[n es] y]. injection H as <- <-.
  apply (emits_timers es (mkApp n (a_now a) (a_ready a) (a_conns a) (a_timers a) (a_got a) (a_files a))).
Qed.

(** What reading leaves of the rest. *)
Lemma feed_keeps : forall l a a1 r, feed net a l = (a1, r) ->
  a_ready a1 = a_ready a /\ a_conns a1 = a_conns a /\
  (r = false -> a_net a1 = after net (a_net a) (map snd l) /\
     a_files a1 = (a_files a ++ to_files (emitted net (a_net a) (map snd l)))%list).
Proof.
  induction l as [|[d i] l IH]; intros a a1 r H; cbn [feed map snd after emitted] in *.
  - injection H as <- <-. repeat split; auto. intros. cbn. rewrite app_nil_r. auto.
  - destruct (react net (pass a d) i) as [a2 x] eqn:E. apply react_keeps in E as (A & B & C & D & F & G).
    cbn [pass a_net a_now a_ready a_conns a_files] in *.
    destruct x.
    + injection H as <- <-. repeat split; auto; discriminate.
    + apply IH in H as (P & Q & R). rewrite P, Q, D, F. split; [auto|]. split; [auto|].
      intros Hr. destruct (R Hr) as [R1 R2]. rewrite R1, R2, A, G. split; auto.
      unfold to_files. rewrite flat_map_app, app_assoc. auto.
Qed.

Lemma feed_silent : forall l a a1 r, feed net a l = (a1, r) -> a_conns a = [] -> a_got a1 = a_got a.
Proof.
  assert (S : forall es (a : app N), a_conns a = [] -> a_got (fold_left emit es a) = a_got a).
  { induction es as [|e es IH]; intros a H; cbn [fold_left]; auto. rewrite IH.
    - unfold emit. destruct (e_to e); auto. destruct (existsb _ _); auto. destruct (e_delay e); auto.
      cbn. rewrite H. cbn. apply app_nil_r.
    - destruct (emit_keeps a e) as (_ & _ & _ & K). congruence. }
  induction l as [|[d i] l IH]; intros a a1 r H C; cbn [feed] in H.
  - injection H as <- <-. auto.
  - assert (E : a_got (fst (react net (pass a d) i)) = a_got a).
    { unfold react. destruct (net _ i) as [[n es] x]. cbn [fst]. rewrite S; auto. }
    destruct (react net (pass a d) i) as [a2 x] eqn:F. apply react_keeps in F as (_ & _ & _ & _ & F & _). cbn in F.
    cbn [fst] in E. destruct x; [injection H as <- <-; auto|]. rewrite (IH _ _ _ H); congruence.
Qed.

Lemma feed_timers : forall l a a1, feed net a l = (a1, false) -> forall o s x,
  ((exists t, In t (a_timers a1) /\ t_out t = o /\ t_sid t = s /\ t_text t = x) <->
   (exists t, In t (a_timers a) /\ t_out t = o /\ t_sid t = s /\ t_text t = x) \/
   In o (a_ready a) /\ exists e, In e (emitted net (a_net a) (map snd l)) /\ e_to e = ToSocket o /\
     e_delay e <> None /\ e_sid e = s /\ e_text e = x).
Proof.
  induction l as [|[d i] l IH]; intros a a1 H o s x; cbn [feed map snd emitted] in *.
  - injection H as <-. split; auto. intros [Q|(_ & e & [] & _)]; auto.
  - destruct (react net (pass a d) i) as [a2 y] eqn:E. destruct y; [discriminate|].
    specialize (IH _ _ H o s x). pose proof (react_keeps _ _ _ _ E) as (A & _ & _ & D & _).
    cbn [pass a_net a_ready] in A, D. rewrite A, D in IH. rewrite IH. clear IH.
    pose proof (fun t => react_timers _ _ _ _ t E) as T. cbn [pass a_net a_now a_ready a_timers] in T.
    split.
    + intros [(t & Ht & P)|(R & e & He & P)].
      * apply T in Ht as [Ht|(e & k & He & Q1 & Q2 & Q3 & _ & Q5 & Q6)]; [left; eauto|].
        destruct P as (<- & <- & <-). right. split; auto. exists e. split; [apply in_or_app; auto|].
        repeat split; auto. congruence.
      * right. split; auto. exists e. split; [apply in_or_app; auto|auto].
    + intros [(t & Ht & P)|(R & e & He & P)].
      * left. exists t. split; auto. apply T. auto.
      * apply in_app_or in He as [He|He]; [|right; eauto].
        destruct P as (P1 & P2 & P3 & P4). destruct (e_delay e) as [k|] eqn:K; [|congruence].
        left. exists (mkTimer (a_now a + d + k) o s x). cbn. split; auto. apply T. right.
        exists e, k. cbn. repeat split; auto.
Qed.

(** ** Starting *)

Lemma start_silent : forall order a, a_conns a = [] ->
  a_got (state_of (start net a order)) = a_got a /\ a_conns (state_of (start net a order)) = [].
Proof.
  induction order as [|c order IH]; intros a H; cbn [start state_of]; auto.
  destruct c as [l tail|o|]; auto.
  - destruct (feed net a (lines l tail)) as [a1 r] eqn:E.
    pose proof (feed_silent _ _ _ _ E H) as G. apply feed_keeps in E as (_ & C & _). rewrite H in C.
    destruct r; cbn [state_of]; auto. destruct (endless tail); cbn [state_of]; auto.
    destruct (IH a1 C). rewrite H0, G. auto.
  - destruct (IH (mkApp (a_net a) (a_now a) (a_ready a ++ [o]) (a_conns a) (a_timers a) (a_got a) (a_files a)) H). auto.
Qed.

Lemma start_app : forall o1 o2 a, start net a (o1 ++ o2) =
  match start net a o1 with Running b => start net b o2 | r => r end.
Proof.
  induction o1 as [|c o1 IH]; intros o2 a; cbn [start List.app]; auto.
  destruct c as [l tail|o|]; auto. destruct (feed net a (lines l tail)) as [a1 r].
  destruct r; auto. destruct (endless tail); auto.
Qed.

Lemma start_running : forall order a b, start net a order = Running b ->
  a_net b = after net (a_net a) (read order) /\ a_ready b = (a_ready a ++ outputs order)%list /\
  a_conns b = a_conns a /\ a_files b = (a_files a ++ to_files (emitted net (a_net a) (read order)))%list /\
  Forall (fun c => match c with FileIn _ tail => endless tail = false | _ => True end) order.
Proof.
  assert (Aft : forall l1 l2 n, after net n (l1 ++ l2) = after net (after net n l1) l2).
  { induction l1; intros; cbn; auto. }
  assert (Em : forall l1 l2 n, emitted net n (l1 ++ l2) = (emitted net n l1 ++ emitted net (after net n l1) l2)%list).
  { induction l1; intros; cbn; auto. rewrite IHl1, app_assoc. auto. }
  induction order as [|c order IH]; intros a b H; cbn [start read outputs flat_map] in *.
  - injection H as <-. cbn. rewrite !app_nil_r. auto.
  - destruct c as [l tail|o|].
    + destruct (feed net a (lines l tail)) as [a1 r] eqn:E. destruct r; [discriminate|].
      destruct (endless tail) eqn:T; [discriminate|].
      apply feed_keeps in E as (R & C & K). destruct (K eq_refl) as [K1 K2].
      apply IH in H as (A & B & D & F & G). rewrite A, B, D, F, K1, K2, R, C.
      fold (read order). rewrite Aft, Em. unfold to_files. rewrite flat_map_app, <- app_assoc. cbn [List.app]. repeat split; auto; constructor; auto.
    + apply IH in H as (A & B & D & F & G). cbn in *. rewrite A, B, D, F, <- app_assoc. repeat split; auto; constructor; auto.
    + apply IH in H as (A & B & D & F & G). cbn. repeat split; auto; constructor; auto.
Qed.

Lemma after_app : forall l1 l2 n, after net n (l1 ++ l2) = after net (after net n l1) l2.
Proof. induction l1; intros; cbn; auto. Qed.

(** The delayed sendings that wait when the reactor starts. *)
Lemma start_timers : forall order a b, start net a order = Running b -> forall o s x,
  ((exists t, In t (a_timers b) /\ t_out t = o /\ t_sid t = s /\ t_text t = x) <->
   (exists t, In t (a_timers a) /\ t_out t = o /\ t_sid t = s /\ t_text t = x) \/
   exists pre l tail post e, order = (pre ++ FileIn l tail :: post)%list /\
     In o (a_ready a ++ outputs pre) /\
     In e (emitted net (after net (a_net a) (read pre)) (map snd (lines l tail))) /\
     e_to e = ToSocket o /\ e_delay e <> None /\ e_sid e = s /\ e_text e = x).
Proof.
  induction order as [|c order IH]; intros a b H o s x.
  - cbn in H. injection H as <-. split; auto. intros [Q|(pre & l & tail & post & e & Q & _)]; auto.
    destruct pre; discriminate.
  - assert (Skip : forall a', a_net a' = a_net a -> a_timers a' = a_timers a -> a_ready a' = (a_ready a ++ outputs [c])%list ->
      (forall l tail, c <> FileIn l tail) -> start net a' order = Running b -> 
      ((exists t, In t (a_timers b) /\ t_out t = o /\ t_sid t = s /\ t_text t = x) <->
      (exists t, In t (a_timers a) /\ t_out t = o /\ t_sid t = s /\ t_text t = x) \/
      exists pre l tail post e, c :: order = (pre ++ FileIn l tail :: post)%list /\
        In o (a_ready a ++ outputs pre) /\
        In e (emitted net (after net (a_net a) (read pre)) (map snd (lines l tail))) /\
        e_to e = ToSocket o /\ e_delay e <> None /\ e_sid e = s /\ e_text e = x)).
    { intros a' A1 A2 A3 Nf H'. rewrite (IH _ _ H' o s x), A1, A2, A3. 
      assert (Rc : read [c] = []) by (destruct c; [exfalso; eapply Nf; eauto|reflexivity..]).
      split; (intros [Q|(pre & l & tail & post & e & Q & R & S)]; [auto|right]).
      - exists (c :: pre), l, tail, post, e. split; [cbn; congruence|].
        change (outputs (c :: pre)) with (outputs ([c] ++ pre)%list). change (read (c :: pre)) with (read ([c] ++ pre)%list).
        unfold outputs, read. rewrite !flat_map_app. fold (@read I) (@outputs I). unfold read at 1 in Rc. rewrite Rc.
        rewrite app_assoc. split; [exact R|]. exact S.
      - destruct pre as [|c' pre]; cbn in Q; injection Q as Qc Q; [exfalso; eapply Nf; eauto|]. subst c'.
        exists pre, l, tail, post, e. split; auto.
        change (outputs (c :: pre)) with (outputs ([c] ++ pre)%list) in R. change (read (c :: pre)) with (read ([c] ++ pre)%list) in S.
        unfold outputs, read in R, S. rewrite !flat_map_app in R, S. unfold read at 1 in Rc. rewrite Rc in S.
        rewrite app_assoc in R. split; [exact R|exact S]. }
    destruct c as [l tail|o'|].
    + clear Skip. cbn [start] in H. destruct (feed net a (lines l tail)) as [a1 r] eqn:E. destruct r; [discriminate|].
      destruct (endless tail); [discriminate|].
      pose proof (feed_timers _ _ _ E o s x) as F. apply feed_keeps in E as (R & C & K). destruct (K eq_refl) as [K1 _].
      rewrite (IH _ _ H o s x), F, R, K1. clear IH F. split.
      * intros [[Q|(Q1 & e & Q2 & Q3)]|(pre & l' & tail' & post & e & -> & Q1 & Q2)]; auto; right.
        -- exists [], l, tail, order, e. cbn. rewrite app_nil_r. auto.
        -- exists (FileIn l tail :: pre), l', tail', post, e. split; auto. split; [exact Q1|].
           cbn [read flat_map]. fold (read pre). rewrite after_app. exact Q2.
      * intros [Q|(pre & l' & tail' & post & e & Q & Q1 & Q2)]; auto.
        destruct pre as [|c pre]; cbn in Q; injection Q as <- Q.
        -- subst. left. right. cbn in Q1, Q2. rewrite app_nil_r in Q1. split; auto. exists e. exact Q2.
        -- right. exists pre, l', tail', post, e. split; auto. split; [exact Q1|].
           cbn [read flat_map] in Q2. fold (read pre) in Q2. rewrite after_app in Q2. exact Q2.
    + apply (Skip (mkApp (a_net a) (a_now a) (a_ready a ++ [o']) (a_conns a) (a_timers a) (a_got a) (a_files a))); auto; try discriminate.
    + apply (Skip a); auto; [cbn; rewrite app_nil_r; auto|discriminate].
Qed.

(** ** Running *)

Lemma writes_keep : forall ts (a : app N), let b := fold_left (fun b t => write b (t_out t) (t_sid t) (t_text t)) ts a in
  a_net b = a_net a /\ a_now b = a_now a /\ a_ready b = a_ready a /\ a_conns b = a_conns a /\ a_timers b = a_timers a.
Proof. induction ts as [|t ts IH]; intros a; cbn; auto. destruct (IH (write a (t_out t) (t_sid t) (t_text t))) as (A & B & C & D & E). rewrite A, B, C, D, E. repeat split. Qed.

Lemma writes_got : forall ts (a : app N) w x, In (w, x) (a_got (fold_left (fun b t => write b (t_out t) (t_sid t) (t_text t)) ts a)) <->
  In (w, x) (a_got a) \/ exists t c, In t ts /\ In c (a_conns a) /\ hears (t_out t) (t_sid t) c = true /\ c_who c = w /\ t_text t = x.
Proof.
  induction ts as [|t ts IH]; intros a w x; cbn [fold_left].
  - split; auto. intros [H|(t & c & [] & _)]; auto.
  - rewrite IH. cbn [write a_got a_conns]. rewrite in_app_iff, in_map_iff. split.
    + intros [[H|(c & E & H)]|(t' & c & H & R)]; auto; right.
      * injection E as <- <-. apply filter_In in H as [H1 H2]. exists t, c. cbn. auto.
      * exists t', c. cbn. tauto.
    + intros [H|(t' & c & [<-|H] & R1 & R2 & R3 & R4)]; auto.
      * left. right. exists c. split; [congruence|]. apply filter_In. auto.
      * right. exists t', c. auto.
Qed.

Lemma happen_keeps : forall a v, a_ready (happen net a v) = a_ready a /\
  a_net (happen net a v) = after net (a_net a) (coming [v]) /\ a_now (happen net a v) = a_now a + waited [v].
Proof.
  intros a v. destruct v as [i|c|w|d]; cbn [happen coming flat_map List.app after waited]; auto.
  - destruct (react net a i) as [b r] eqn:E. apply react_keeps in E as (A & _ & B & C & _). cbn [fst].
    rewrite A, B, C. repeat split; lia.
  - unfold fire. destruct (writes_keep (filter (due (a_now (pass a d))) (a_timers (pass a d)))
      (mkApp (a_net (pass a d)) (a_now (pass a d)) (a_ready (pass a d)) (a_conns (pass a d))
       (filter (fun t => negb (due (a_now (pass a d)) t)) (a_timers (pass a d))) (a_got (pass a d)) (a_files (pass a d)))) as (A & B & C & _).
    rewrite A, B, C. cbn. repeat split; lia.
Qed.

Lemma happens_keeps : forall l a, a_ready (happens net a l) = a_ready a /\
  a_net (happens net a l) = after net (a_net a) (coming l) /\ a_now (happens net a l) = a_now a + waited l.
Proof.
  induction l as [|v l IH]; intros a; cbn [happens fold_left]; [repeat split; cbn; lia|].
  destruct (IH (happen net a v)) as (A & B & C). destruct (happen_keeps a v) as (D & E & F).
  unfold happens in *. rewrite A, B, C, D, E, F. split; auto. split.
  - change (coming (v :: l)) with (coming ([v] ++ l)%list). unfold coming. rewrite flat_map_app, after_app. auto.
  - destruct v; cbn; lia.
Qed.

(** Where a text that is received or waits comes from. *)
Lemma happens_from : forall l a w x,
  In (w, x) (a_got (happens net a l)) ->
  In (w, x) (a_got a) \/ (exists t, In t (a_timers a) /\ t_text t = x) \/
  exists e, In e (emitted net (a_net a) (coming l)) /\ e_text e = x.
Proof.
  assert (G : forall l a,
    (forall w x, In (w, x) (a_got (happens net a l)) ->
      In (w, x) (a_got a) \/ (exists t, In t (a_timers a) /\ t_text t = x) \/
      exists e, In e (emitted net (a_net a) (coming l)) /\ e_text e = x)).
  { induction l as [|v l IH]; intros a w x H; cbn [happens fold_left] in H; auto.
    apply IH in H. destruct v as [i|c|u|d].
    - cbn [happen] in H. destruct (react net a i) as [b r] eqn:E. cbn [fst] in H.
      pose proof (react_keeps _ _ _ _ E) as (A & _). rewrite A in H.
      cbn [coming flat_map List.app emitted]. fold (coming l).
      destruct H as [H|[(t & H & X)|(e & H & X)]].
      + apply (react_got _ _ _ _ _ _ E) in H as [H|(e & c & H & X & _)]; auto.
        right. right. exists e. split; [apply in_or_app; auto|auto].
      + apply (react_timers _ _ _ _ t E) in H as [H|(e & k & H & _ & _ & _ & _ & _ & Y)]; [right; left; eauto|].
        right. right. exists e. split; [apply in_or_app; auto|congruence].
      + right. right. exists e. split; [apply in_or_app; auto|auto].
    - exact H.
    - exact H.
    - cbn [happen] in H. unfold fire in H.
      match type of H with context [fold_left ?f ?ts ?b] => pose proof (writes_keep ts b) as K; pose proof (writes_got ts b w x) as W end.
      cbv zeta in K. destruct K as (K1 & _ & _ & _ & K5). rewrite K1, K5 in H. cbn [a_net a_timers pass a_got] in *.
      destruct H as [H|[(t & H & X)|H]].
      + apply W in H as [H|(t & c & H & _ & _ & _ & X)]; auto. apply filter_In in H as [H _]. right. left. eauto.
      + apply filter_In in H as [H _]. right. left. eauto.
      + right. right. exact H. }
  exact G.
Qed.

(** A sending that waits is there until its time comes. *)
Lemma happens_waits : forall l a t, In t (a_timers a) -> a_now a + waited l < t_due t ->
  In t (a_timers (happens net a l)).
Proof.
  induction l as [|v l IH]; intros a t H L; cbn [happens fold_left]; auto.
  destruct (happen_keeps a v) as (_ & _ & F).
  apply IH; [|rewrite F; destruct v; cbn in *; lia].
  destruct v as [i|c|u|d]; cbn [happen]; auto.
  - destruct (react net a i) as [b r] eqn:E. apply (react_timers _ _ _ _ t E). auto.
  - unfold fire. match goal with |- context [fold_left ?f ?ts ?b] => pose proof (writes_keep ts b) as K end.
    cbv zeta in K. destruct K as (_ & _ & _ & _ & K5). rewrite K5. cbn [a_timers]. apply filter_In. split; auto.
    unfold due. cbn in *. apply negb_true_iff. apply Nat.leb_gt. lia.
Qed.

Lemma fires : forall (a : app N) t c, In t (a_timers a) -> t_due t <= a_now a -> In c (a_conns a) ->
  c_out c = t_out t -> c_sid c = t_sid t -> In (c_who c, t_text t) (a_got (fire a)).
Proof.
  intros a t c H L C O S. unfold fire. apply writes_got. right. exists t, c. split.
  - apply filter_In. split; auto. apply Nat.leb_le. auto.
  - cbn. repeat split; auto. unfold hears. rewrite O, S, Nat.eqb_refl, String.eqb_refl. auto.
Qed.
End P.
