(** Property C36: who receives what over websockets. *)

From Coq Require Import List String Bool Arith Lia Permutation.
From Verif Require Import SocketModel.
Import ListNotations.
Open Scope string_scope.

(** ** What is broadcast, read off the history *)

(** The delayed messages of a history, in the order they were given. *)
Fixpoint laters (h : list event) : list (string * string) :=
  match h with
  | [] => []
  | EEmitLater s p :: r => (s, p) :: laters r
  | _ :: r => laters r
  end.

(** Whether the [i]-th of them has been sent, [n] being given before. *)
Fixpoint fired (n : nat) (h : list event) (i : nat) : bool :=
  match h with
  | [] => false
  | EEmitLater _ _ :: r => fired (S n) r i
  | EFire j :: r => (Nat.eqb i j && Nat.ltb i n) || fired n r i
  | _ :: r => fired n r i
  end.

(** What the event [e] broadcasts after the history [h]. *)
Definition air (h : list event) (e : event) : option (string * string) :=
  match e with
  | EEmit s p => Some (s, p)
  | EFire i => if fired 0 h i then None else nth_error (laters h) i
  | _ => None
  end.

Fixpoint broadcasts (h l : list event) : list (string * string) :=
  match l with
  | [] => []
  | e :: r => (match air h e with Some b => [b] | None => [] end ++ broadcasts (h ++ [e]) r)%list
  end.

(** The messages for one sequence. *)
Definition payloads_for (s : string) (l : list (string * string)) : list string :=
  map snd (filter (fun b => s =? fst b) l).

(** What connection [k] gets. *)
Definition received (k : nat) (o : list effect) : list string :=
  flat_map (fun e => match e with Sent j p => if Nat.eqb k j then [p] else [] | _ => [] end) o.

Definition opens (k : nat) (e : event) : Prop := exists path, e = EOpen k path.
Definition name (a : action) : string := match a with Publish => "publish" | Subscribe => "subscribe" end.
Definition other (a : action) : action := match a with Publish => Subscribe | Subscribe => Publish end.

(** Ends a connection that is sent to: its loss, and for a server also a message
    on it. *)
Definition closes (r : role) (k : nat) (e : event) : Prop :=
  e = ELost k \/ (r = Server /\ exists p b, e = EMessage k p b).

(** [k] is connected to be sent the messages of [s]. *)
Definition listening (f : config) (h : list event) (k : nat) (s : string) : Prop :=
  exists pre mid, h = (pre ++ EOpen k [s; name (sending (f_role f))] :: mid)%list /\
    (forall e, In e pre -> ~ opens k e) /\ (forall e, In e mid -> ~ closes (f_role f) k e).

(** [k] is connected to deliver messages of [s]; a refused message ends it. *)
Definition talking (f : config) (h : list event) (k : nat) (s : string) : Prop :=
  exists pre mid, h = (pre ++ EOpen k [s; name (other (sending (f_role f)))] :: mid)%list /\
    (forall e, In e pre -> ~ opens k e) /\
    (forall e, In e mid -> ~ (e = ELost k \/ exists p, e = EMessage k p true)).

(** ** Running *)

Definition state_of (f : config) (h : list event) : state := fst (runs f start h).

Lemma runs_app : forall f l1 l2 s,
  runs f s (l1 ++ l2) = (fst (runs f (fst (runs f s l1)) l2), (snd (runs f s l1) ++ snd (runs f (fst (runs f s l1)) l2))%list).
Proof.
  intros f. induction l1 as [|e l1 IH]; intros l2 s; cbn [app runs].
  - cbn. destruct (runs f s l2); auto.
  - destruct (step f s e) as [s1 o1]. rewrite IH. destruct (runs f s1 l1) as [s2 o2]. cbn [fst snd].
    destruct (runs f s2 l2) as [s3 o3]. cbn. rewrite app_assoc. auto.
Qed.

Lemma state_snoc : forall f h e, state_of f (h ++ [e]) = fst (step f (state_of f h) e).
Proof.
  intros. unfold state_of. rewrite runs_app. cbn. destruct (step f (fst (runs f start h)) e). auto.
Qed.

Lemma runs_from : forall f h l,
  snd (runs f (state_of f h) l) = match l with [] => [] | e :: r =>
    (snd (step f (state_of f h) e) ++ snd (runs f (state_of f (h ++ [e])) r))%list end.
Proof.
  intros f h [|e r]; auto. cbn [runs]. rewrite state_snoc. destruct (step f (state_of f h) e) as [s1 o1].
  cbn [fst snd]. destruct (runs f s1 r). auto.
Qed.

(** ** The registered connections *)

Record inv (f : config) (s : state) : Prop := mkInv {
  i_nodup : NoDup (s_regs s);
  i_regs : forall k, In k (s_regs s) <->
    f_producer f = true /\ exists c, get (s_conns s) k = Some c /\ n_phase c <> Gone /\ n_action c = Some (sending (f_role f)) }.

Lemma action_eqb_eq : forall a b, action_eqb a b = true <-> a = b.
Proof. intros [] []; cbn; split; congruence. Qed.
Lemma action_eqb_refl : forall a, action_eqb a a = true.
Proof. intros []; auto. Qed.

Lemma get_put : forall l k c j, get (put l k c) j = if Nat.eqb j k then Some c else get l j.
Proof. reflexivity. Qed.

Lemma do_write_regs : forall f conns regs sid p,
  (forall k, In k regs -> exists c, get conns k = Some c /\ n_action c = Some (sending (f_role f))) ->
  do_write f conns regs sid p =
  (conns, flat_map (fun k => match get conns k with
                             | Some c => match n_phase c, n_sid c with
                                         | Open, Some t => if sid =? t then [Sent k p] else []
                                         | _, _ => []
                                         end
                             | None => []
                             end) regs).
Proof.
  intros f conns regs sid p. induction regs as [|k r IH]; intros H; auto.
  cbn [do_write flat_map]. destruct (H k (or_introl eq_refl)) as (c & E & A). rewrite E, A, action_eqb_refl.
  rewrite IH by (intros; apply H; right; auto).
  destruct (n_phase c), (n_sid c); auto. destruct (sid =? s); auto.
Qed.

Lemma remove_first_in : forall l k, In k l -> exists l', remove_first l k = Some l'.
Proof.
  induction l as [|j l IH]; intros k []; cbn.
  - subst. rewrite Nat.eqb_refl. eauto.
  - destruct (Nat.eqb k j); eauto. destruct (IH k H) as [l' ->]. eauto.
Qed.

Lemma remove_first_spec : forall l k l', NoDup l -> remove_first l k = Some l' ->
  NoDup l' /\ forall j, In j l' <-> In j l /\ j <> k.
Proof.
  induction l as [|i l IH]; intros k l' N E; [discriminate|]. cbn in E. inversion N as [|? ? Ni N']; subst.
  destruct (Nat.eqb_spec k i) as [->|Hk].
  - inversion E; subst. split; auto. intros j. cbn. intuition congruence.
  - destruct (remove_first l k) as [l0|] eqn:R; [|discriminate]. inversion E; subst l'.
    destruct (IH k l0 N' R) as [N0 S]. split.
    + constructor; auto. rewrite S. tauto.
    + intros j. cbn. rewrite S. intuition congruence.
Qed.

(** The record of one connection moves by the events about it alone. *)
Definition opened (f : config) (path : list string) : conn :=
  let '(sid, act) := parse_path path in
  match act with
  | None => mkConn Dropped sid None false
  | Some a => if action_eqb a (sending (f_role f))
              then mkConn (if f_producer f then Open else Dropped) sid act false
              else mkConn (if f_consumer f then Open else Dropped) sid act (f_consumer f)
  end.

Definition cstep (f : config) (k : nat) (c : option conn) (e : event) : option conn :=
  match c, e with
  | None, EOpen j path => if Nat.eqb k j then Some (opened f path) else None
  | Some c, ELost j =>
      if Nat.eqb k j then
        match n_phase c with
        | Gone => Some c
        | _ => Some (mkConn Gone (n_sid c) (n_action c)
                 (match n_action c with
                  | Some a => if action_eqb a (sending (f_role f)) then n_consumer c
                              else if f_consumer f then false else n_consumer c
                  | None => n_consumer c end))
        end
      else Some c
  | Some c, EMessage j p raises =>
      if Nat.eqb k j then
        match n_phase c with
        | Open => fst (let s := mkState [(k, c)] [] [] in
                       (get (s_conns (fst (on_message f s k c p raises))) k, tt))
        | _ => Some c
        end
      else Some c
  | _, _ => c
  end.

Lemma on_message_same : forall f s k c p r,
  s_regs (fst (on_message f s k c p r)) = s_regs s /\ s_later (fst (on_message f s k c p r)) = s_later s.
Proof.
  intros. unfold on_message.
  destruct (match n_action c with Some a => negb (action_eqb a (sending (f_role f))) | None => false end);
    destruct (f_role f), (n_consumer c), r; cbn; auto.
Qed.

Lemma on_message_conns : forall f s k c p r, get (s_conns s) k = Some c ->
  (get (s_conns (fst (on_message f s k c p r))) k = Some c \/
   get (s_conns (fst (on_message f s k c p r))) k = Some (mkConn Dropped (n_sid c) (n_action c) (n_consumer c))) /\
  forall j, j <> k -> get (s_conns (fst (on_message f s k c p r))) j = get (s_conns s) j.
Proof.
  intros f s k c p r H. unfold on_message.
  destruct (match n_action c with Some a => negb (action_eqb a (sending (f_role f))) | None => false end);
    destruct (f_role f), (n_consumer c), r; cbn; rewrite ?Nat.eqb_refl; split; auto;
    intros j Hj; apply Nat.eqb_neq in Hj; rewrite Hj; auto.
Qed.

Lemma inv_conns : forall f s k c, inv f s -> In k (s_regs s) -> get (s_conns s) k = Some c -> n_action c = Some (sending (f_role f)).
Proof. intros f s k c I H G. apply (i_regs f s I) in H as (_ & c' & G' & _ & A). congruence. Qed.

Lemma inv_write : forall f s, inv f s ->
  forall k, In k (s_regs s) -> exists c, get (s_conns s) k = Some c /\ n_action c = Some (sending (f_role f)).
Proof. intros f s I k H. apply (i_regs f s I) in H as (_ & c & G & _ & A). eauto. Qed.

Lemma inv_same : forall f s s', s_conns s' = s_conns s -> s_regs s' = s_regs s -> inv f s -> inv f s'.
Proof. intros f s s' E1 E2 [N R]. constructor; rewrite ?E1, ?E2; auto. Qed.

(** The two facts about a step: registered connections stay as they should, and
    every connection moves by [cstep]. *)
Lemma step_inv : forall f s e, inv f s ->
  inv f (fst (step f s e)) /\ forall k, get (s_conns (fst (step f s e))) k = cstep f k (get (s_conns s) k) e.
Proof.
  intros f s e I. assert (N := i_nodup f s I). assert (R := i_regs f s I).
  assert (W := inv_write f s I).
  destruct e as [k path|k|k p raises|sid p|sid p|i]; cbn [step].
  - (* open *)
    destruct (get (s_conns s) k) as [c|] eqn:G.
    + split; auto. intros j. cbn [fst]; unfold cstep. destruct (get (s_conns s) j) eqn:Gj; cbn; auto.
      destruct (Nat.eqb_spec j k); auto. congruence.
    + cbn [fst].
      assert (Nk : ~ In k (s_regs s)) by (rewrite R; intros (_ & c & G' & _); congruence).
      assert (Cs : forall j, get (s_conns (on_open f s k path)) j = if Nat.eqb j k then Some (opened f path) else get (s_conns s) j).
      { intros j. unfold on_open, opened. destruct (parse_path path) as [sid [a|]]; [|apply get_put].
        destruct (action_eqb a (sending (f_role f))); [destruct (f_producer f)|destruct (f_consumer f)]; apply get_put. }
      assert (Rs : s_regs (on_open f s k path) =
        (s_regs s ++ if f_producer f && match snd (parse_path path) with Some a => action_eqb a (sending (f_role f)) | None => false end
                     then [k] else [])%list).
      { unfold on_open. destruct (parse_path path) as [sid [a|]]; cbn [snd]; [|rewrite andb_false_r, app_nil_r; auto].
        destruct (action_eqb a (sending (f_role f))); destruct (f_producer f); destruct (f_consumer f); cbn; rewrite ?app_nil_r; auto. }
      split.
      * constructor.
        -- rewrite Rs. destruct (_ && _); [|rewrite app_nil_r; auto].
           apply (Permutation_NoDup (l := k :: s_regs s)); [apply Permutation_cons_append|constructor; auto].
        -- intros j. rewrite Rs, in_app_iff, Cs. destruct (Nat.eqb_spec j k) as [->|Hj].
           ++ unfold opened. destruct (parse_path path) as [sid [a|]]; cbn [snd].
              ** destruct (action_eqb a (sending (f_role f))) eqn:Ea.
                 --- apply action_eqb_eq in Ea. subst a. destruct (f_producer f) eqn:Ep; cbn; split.
                     +++ intros _. split; auto. eexists. split; [reflexivity|]. cbn. split; [discriminate|auto].
                     +++ auto.
                     +++ intros [H|[]]. tauto.
                     +++ intros [H _]. discriminate.
                 --- rewrite andb_false_r. cbn. split; [tauto|]. intros (_ & c & H & _ & A). inversion H; subst c. cbn in A.
                     inversion A; subst a. rewrite action_eqb_refl in Ea. discriminate.
              ** rewrite andb_false_r. cbn. split; [tauto|]. intros (_ & c & H & _ & A). inversion H; subst c. discriminate.
           ++ rewrite R. destruct (_ && _); cbn; [|tauto]. split; [|tauto]. intros [H|[H|[]]]; auto. congruence.
      * intros j. rewrite Cs. unfold cstep. destruct (Nat.eqb_spec j k) as [->|Hj].
        -- rewrite G. auto.
        -- destruct (get (s_conns s) j); auto.
  - (* lost *)
    destruct (get (s_conns s) k) as [c|] eqn:G.
    2:{ split; auto. intros j. cbn [fst]; unfold cstep. destruct (get (s_conns s) j) eqn:Gj; auto.
        destruct (Nat.eqb_spec j k); auto. congruence. }
    assert (J : n_phase c = Gone \/ n_phase c <> Gone) by (destruct (n_phase c); auto; right; discriminate).
    destruct J as [P|P].
    { rewrite P. split; auto. intros j. cbn [fst]; unfold cstep. destruct (get (s_conns s) j) eqn:Gj; auto.
      destruct (Nat.eqb_spec j k); auto. subst. rewrite G in Gj. inversion Gj; subst. rewrite P. auto. }
    assert (E : (match n_phase c with Gone => (s, []) | _ => on_lost f s k c end) = on_lost f s k c)
      by (destruct (n_phase c); auto; congruence). rewrite E. clear E.
    set (b := match n_action c with
              | Some a => if action_eqb a (sending (f_role f)) then n_consumer c
                          else if f_consumer f then false else n_consumer c
              | None => n_consumer c end).
    assert (Cs : forall j, get (s_conns (fst (on_lost f s k c))) j =
                 if Nat.eqb j k then Some (mkConn Gone (n_sid c) (n_action c) b) else get (s_conns s) j).
    { intros j. unfold on_lost, b. destruct (n_action c) as [a|]; [|apply get_put].
      destruct (action_eqb a (sending (f_role f))).
      - destruct (f_producer f); [destruct (remove_first (s_regs s) k)|]; apply get_put.
      - destruct (f_consumer f); apply get_put. }
    assert (Rs : NoDup (s_regs (fst (on_lost f s k c))) /\
                 forall j, In j (s_regs (fst (on_lost f s k c))) <-> In j (s_regs s) /\ j <> k).
    { assert (Same : ~ In k (s_regs s) -> NoDup (s_regs s) /\ forall j, In j (s_regs s) <-> In j (s_regs s) /\ j <> k)
        by (intros H; split; auto; intros j; intuition congruence).
      unfold on_lost. destruct (n_action c) as [a|] eqn:A.
      - destruct (action_eqb a (sending (f_role f))) eqn:Ea.
        + destruct (f_producer f) eqn:Ep.
          * assert (Hin : In k (s_regs s)).
            { apply R. split; auto. exists c. split; auto. split; auto. apply action_eqb_eq in Ea. congruence. }
            destruct (remove_first_in _ _ Hin) as [l' El]. rewrite El. cbn. apply remove_first_spec; auto.
          * cbn. apply Same. rewrite R. intros [H _]. congruence.
        + assert (Nk : ~ In k (s_regs s)).
          { rewrite R. intros (_ & c' & G' & _ & A'). rewrite G in G'. inversion G'; subst c'. rewrite A in A'. inversion A'; subst a.
            rewrite action_eqb_refl in Ea. discriminate. }
          destruct (f_consumer f); cbn; auto.
      - cbn. apply Same. rewrite R. intros (_ & c' & G' & _ & A'). congruence. }
    destruct Rs as [Rs1 Rs2]. split.
    + constructor; auto. intros j. rewrite Rs2, Cs, R. destruct (Nat.eqb_spec j k) as [->|Hj].
      * split; [tauto|]. intros (_ & c' & H & Hp & _). inversion H; subst c'. cbn in Hp. congruence.
      * tauto.
    + intros j. rewrite Cs. unfold cstep. destruct (Nat.eqb_spec j k) as [->|Hj].
      * rewrite G. destruct (n_phase c); auto. congruence.
      * destruct (get (s_conns s) j); auto.
  - (* message *)
    destruct (get (s_conns s) k) as [c|] eqn:G.
    2:{ split; auto. intros j. cbn [fst]; unfold cstep. destruct (get (s_conns s) j) eqn:Gj; auto.
        destruct (Nat.eqb_spec j k); auto. congruence. }
    assert (J : n_phase c = Open \/ n_phase c <> Open) by (destruct (n_phase c); auto; right; discriminate).
    destruct J as [P|P].
    2:{ assert (E : (match n_phase c with Open => on_message f s k c p raises | _ => (s, []) end) = (s, []))
          by (destruct (n_phase c); auto; congruence). rewrite E. clear E.
        split; auto. intros j. cbn [fst]; unfold cstep. destruct (get (s_conns s) j) eqn:Gj; auto.
        destruct (Nat.eqb_spec j k); auto. subst. rewrite G in Gj. inversion Gj; subst. destruct (n_phase c0); auto. congruence. }
    rewrite P. destruct (on_message_same f s k c p raises) as [S1 S2].
    destruct (on_message_conns f s k c p raises G) as [S3 S4]. split.
    + constructor.
      * rewrite S1. auto.
      * intros j. rewrite S1, R. destruct (Nat.eq_dec j k) as [->|Hj].
        -- split; intros (Ep & c' & G' & P' & A').
           ++ split; auto. rewrite G in G'. inversion G'; subst c'.
              destruct S3 as [-> | ->]; eexists; (split; [reflexivity|]); cbn; split; auto. discriminate.
           ++ split; auto. exists c. split; auto. split; [congruence|].
              destruct S3 as [S3|S3]; rewrite S3 in G'; inversion G'; subst c'; auto.
        -- rewrite S4 by auto. tauto.
    + intros j. unfold cstep. destruct (Nat.eqb_spec j k) as [->|Hj].
      * rewrite G, P. cbn [fst].
        unfold on_message. destruct (match n_action c with Some a => negb (action_eqb a (sending (f_role f))) | None => false end);
          destruct (f_role f), (n_consumer c), raises; cbn; rewrite ?Nat.eqb_refl; auto.
      * rewrite S4 by auto. destruct (get (s_conns s) j); auto.
  - (* emit *)
    destruct (f_producer f) eqn:Ep; [|split; auto; intros j; cbn; destruct (get (s_conns s) j); auto].
    rewrite do_write_regs by auto. cbn [fst]. split; [apply (inv_same f s); auto|].
    intros j. cbn. destruct (get (s_conns s) j); auto.
  - destruct (f_producer f) eqn:Ep; cbn [fst]; (split; [apply (inv_same f s); auto|]); intros j; cbn;
      destruct (get (s_conns s) j); auto.
  - destruct (nth_error (s_later s) i) as [[[sid p]|]|].
    + rewrite do_write_regs by auto. cbn [fst]. split; [apply (inv_same f s); auto|].
      intros j. cbn. destruct (get (s_conns s) j); auto.
    + split; auto. intros j. cbn. destruct (get (s_conns s) j); auto.
    + split; auto. intros j. cbn. destruct (get (s_conns s) j); auto.
Qed.

Lemma inv_start : forall f, inv f start.
Proof. intros f. constructor; [constructor|]. intros k. cbn. split; [tauto|]. intros (_ & c & H & _). discriminate. Qed.

Lemma inv_state : forall f h, inv f (state_of f h).
Proof.
  intros f h. induction h as [|e h IH] using rev_ind; [apply inv_start|].
  rewrite state_snoc. apply step_inv; auto.
Qed.

Lemma conn_snoc : forall f h e k,
  get (s_conns (state_of f (h ++ [e]))) k = cstep f k (get (s_conns (state_of f h)) k) e.
Proof. intros. rewrite state_snoc. apply step_inv. apply inv_state. Qed.

(** ** Delayed messages *)

Lemma laters_app : forall h1 h2, laters (h1 ++ h2) = (laters h1 ++ laters h2)%list.
Proof. induction h1 as [|[] h1 IH]; intros h2; cbn; rewrite ?IH; auto. Qed.

Lemma fired_app : forall h1 n h2 i, fired n (h1 ++ h2) i = fired n h1 i || fired (n + List.length (laters h1)) h2 i.
Proof.
  induction h1 as [|e h1 IH]; intros n h2 i; cbn [app fired laters].
  - cbn. rewrite Nat.add_0_r. auto.
  - destruct e; cbn [fired laters]; rewrite ?IH; auto.
    + cbn [List.length]. rewrite Nat.add_succ_r. auto.
    + rewrite orb_assoc. auto.
Qed.

Lemma fired_bound : forall h n i, fired n h i = true -> i < n + List.length (laters h).
Proof.
  induction h as [|e h IH]; intros n i H; cbn in *; [discriminate|].
  destruct e as [j path|j|j p raises|sid p|sid p|j]; cbn; try (apply IH in H; lia).
  apply orb_true_iff in H as [H|H]; [|apply IH; auto]. apply andb_true_iff in H as [_ H]. apply Nat.ltb_lt in H. lia.
Qed.

Lemma nth_set_none : forall A (l : list (option A)) i j,
  nth_error (set_none l i) j = if Nat.eqb j i then (if Nat.ltb i (List.length l) then Some None else None) else nth_error l j.
Proof.
  induction l as [|x l IH]; intros i j; cbn.
  - destruct j; destruct (Nat.eqb _ _); auto.
  - destruct i, j; cbn; auto. rewrite IH. destruct (Nat.eqb j i); auto.
Qed.

Lemma length_set_none : forall A (l : list (option A)) i, List.length (set_none l i) = List.length l.
Proof. induction l as [|x l IH]; intros [|i]; cbn; auto. Qed.

Lemma later_state : forall f h, f_producer f = true ->
  List.length (s_later (state_of f h)) = List.length (laters h) /\
  forall i, nth_error (s_later (state_of f h)) i =
            if fired 0 h i then Some None else option_map Some (nth_error (laters h) i).
Proof.
  intros f h Ep. induction h as [|e h [IL IH]] using rev_ind.
  - split; auto. intros [|i]; auto.
  - assert (W := inv_write f _ (inv_state f h)).
    rewrite state_snoc, laters_app.
    assert (FA : forall i, fired 0 (h ++ [e]) i = fired 0 h i || fired (List.length (laters h)) [e] i)
      by (intros i; rewrite fired_app; auto).
    assert (Same : forall s', s_later s' = s_later (state_of f h) -> laters [e] = [] ->
      (forall i, fired (List.length (laters h)) [e] i = false) ->
      List.length (s_later s') = List.length (laters h ++ laters [e]) /\
      forall i, nth_error (s_later s') i =
            if fired 0 (h ++ [e]) i then Some None else option_map Some (nth_error (laters h ++ laters [e]) i)).
    { intros s' E El Ef. rewrite E, El, app_nil_r. split; auto. intros i. rewrite FA, Ef, orb_false_r. auto. }
    destruct e as [k path|k|k p raises|sid p|sid p|i]; cbn [step].
    + apply Same; auto. destruct (get (s_conns (state_of f h)) k); auto. cbn. unfold on_open.
      destruct (parse_path path) as [sid [a|]]; auto.
      destruct (action_eqb a (sending (f_role f))); [destruct (f_producer f)|destruct (f_consumer f)]; auto.
    + apply Same; auto. destruct (get (s_conns (state_of f h)) k) as [c|]; auto.
      assert (X : s_later (fst (on_lost f (state_of f h) k c)) = s_later (state_of f h)).
      { unfold on_lost. destruct (n_action c) as [a|]; auto.
        destruct (action_eqb a (sending (f_role f))); [destruct (f_producer f); [destruct (remove_first _ _)|]|destruct (f_consumer f)]; auto. }
      destruct (n_phase c); auto.
    + apply Same; auto. destruct (get (s_conns (state_of f h)) k) as [c|]; auto.
      destruct (n_phase c); auto. apply on_message_same.
    + apply Same; auto. rewrite Ep. rewrite do_write_regs by auto. auto.
    + rewrite Ep. cbn [fst s_later]. split; [rewrite !app_length; cbn; lia|].
      intros i. rewrite FA. cbn [fired laters]. rewrite orb_false_r.
      destruct (Nat.lt_ge_cases i (List.length (laters h))) as [Hi|Hi].
      * rewrite !nth_error_app1 by lia. auto.
      * assert (F : fired 0 h i = false).
        { destruct (fired 0 h i) eqn:F; auto. apply fired_bound in F. lia. }
        rewrite F, !nth_error_app2 by lia. rewrite IL. destruct (i - List.length (laters h)) as [|[|j]]; auto.
    + cbn [laters]. rewrite app_nil_r.
      assert (F1 : forall j, fired (List.length (laters h)) [EFire i] j = Nat.eqb j i && Nat.ltb j (List.length (laters h)))
        by (intros j; cbn; rewrite orb_false_r; auto).
      assert (IHi := IH i). destruct (nth_error (s_later (state_of f h)) i) as [[[sid p]|]|] eqn:En.
      * rewrite do_write_regs by auto. cbn [fst s_later]. rewrite length_set_none. split; auto.
        intros j. rewrite nth_set_none, FA, F1, IL.
        destruct (Nat.eqb_spec j i) as [->|Hj]; [|cbn; rewrite orb_false_r; auto].
        assert (B : i < List.length (s_later (state_of f h))) by (apply nth_error_Some; congruence).
        rewrite IL in B. apply Nat.ltb_lt in B. rewrite B. cbn. rewrite orb_true_r. auto.
      * cbn [fst]. split; auto. intros j. rewrite FA, F1, IH.
        destruct (Nat.eqb_spec j i) as [->|Hj]; [|cbn; rewrite orb_false_r; auto].
        destruct (fired 0 h i) eqn:F; auto. destruct (nth_error (laters h) i); discriminate.
      * cbn [fst]. split; auto. intros j. rewrite FA, F1, IH.
        destruct (Nat.eqb_spec j i) as [->|Hj]; [|cbn; rewrite orb_false_r; auto].
        apply nth_error_None in En. rewrite IL in En. apply Nat.ltb_ge in En. rewrite En. cbn. rewrite orb_false_r. auto.
Qed.

(** ** What a connection gets at one event *)

Definition gets (f : config) (c : option conn) (s : string) : bool :=
  match c with
  | Some c => match n_phase c, n_action c, n_sid c with
              | Open, Some a, Some t => action_eqb a (sending (f_role f)) && (s =? t)
              | _, _, _ => false
              end
  | None => false
  end.

Lemma received_app : forall k a b, received k (a ++ b) = (received k a ++ received k b)%list.
Proof. intros. apply flat_map_app. Qed.

Lemma received_write : forall f s k sid p, inv f s -> f_producer f = true ->
  received k (snd (do_write f (s_conns s) (s_regs s) sid p)) = if gets f (get (s_conns s) k) sid then [p] else [].
Proof.
  intros f s k sid p I Ep. rewrite do_write_regs by (apply inv_write; auto). cbn [snd].
  assert (G : forall regs, NoDup regs -> received k (flat_map (fun k0 => match get (s_conns s) k0 with
                             | Some c => match n_phase c, n_sid c with
                                         | Open, Some t => if sid =? t then [Sent k0 p] else []
                                         | _, _ => []
                                         end
                             | None => []
                             end) regs) =
     if existsb (Nat.eqb k) regs then
       match get (s_conns s) k with
       | Some c => match n_phase c, n_sid c with Open, Some t => if sid =? t then [p] else [] | _, _ => [] end
       | None => [] end
     else []).
  { induction regs as [|j regs IH]; intros N; auto. inversion N as [|? ? Nj N']; subst.
    cbn [flat_map existsb]. rewrite received_app, IH by auto.
    destruct (Nat.eqb_spec k j) as [->|Hk].
    - assert (X : existsb (Nat.eqb j) regs = false).
      { destruct (existsb (Nat.eqb j) regs) eqn:X; auto. apply existsb_exists in X as (i & Hi & X).
        apply Nat.eqb_eq in X. subst. tauto. }
      rewrite X, app_nil_r. cbn [orb].
      destruct (get (s_conns s) j) as [c|]; auto. destruct (n_phase c), (n_sid c) as [t|]; auto.
      destruct (sid =? t); cbn; rewrite ?Nat.eqb_refl; auto.
    - cbn [orb].
      match goal with |- (?x ++ _)%list = _ => assert (X : x = []); [|rewrite X; auto] end.
      apply Nat.eqb_neq in Hk.
      destruct (get (s_conns s) j) as [c|]; auto. destruct (n_phase c), (n_sid c) as [t|]; auto.
      destruct (sid =? t); cbn; rewrite ?Hk; auto. }
  rewrite G by apply I.
  destruct (existsb (Nat.eqb k) (s_regs s)) eqn:X.
  - apply existsb_exists in X as (j & Hj & X). apply Nat.eqb_eq in X. subst j.
    apply (i_regs f s I) in Hj as (_ & c & Gc & Hp & Ha). rewrite Gc. cbn [gets]. rewrite Ha, action_eqb_refl.
    destruct (n_phase c), (n_sid c) as [t|]; auto.
  - destruct (get (s_conns s) k) as [c|] eqn:Gc; auto. cbn [gets].
    destruct (n_phase c) eqn:Pc; auto. destruct (n_action c) as [a|] eqn:Ac; auto. destruct (n_sid c) as [t|]; auto.
    destruct (action_eqb a (sending (f_role f))) eqn:Ea; auto. exfalso. apply action_eqb_eq in Ea. subst a.
    assert (Hin : In k (s_regs s)).
    { apply (i_regs f s I). split; auto. exists c. split; auto. split; [congruence|auto]. }
    assert (existsb (Nat.eqb k) (s_regs s) = true) by (apply existsb_exists; exists k; split; auto; apply Nat.eqb_refl).
    congruence.
Qed.

Lemma received_step : forall f h k e, f_producer f = true ->
  received k (snd (step f (state_of f h) e)) =
  match air h e with
  | Some (s, p) => if gets f (get (s_conns (state_of f h)) k) s then [p] else []
  | None => []
  end.
Proof.
  intros f h k e Ep. assert (I := inv_state f h). destruct (later_state f h Ep) as [_ L].
  destruct e as [j path|j|j p raises|sid p|sid p|i]; cbn [step air].
  - destruct (get (s_conns (state_of f h)) j); auto.
  - destruct (get (s_conns (state_of f h)) j) as [c|]; auto.
    assert (X : received k (snd (on_lost f (state_of f h) j c)) = []).
    { unfold on_lost. destruct (n_action c) as [a|]; auto.
      destruct (action_eqb a (sending (f_role f))); [destruct (f_producer f); [destruct (remove_first _ _)|]|destruct (f_consumer f)];
        cbn; auto; destruct (f_role f); auto. }
    destruct (n_phase c); auto.
  - destruct (get (s_conns (state_of f h)) j) as [c|]; auto. destruct (n_phase c); auto.
    unfold on_message. destruct (match n_action c with Some a => negb (action_eqb a (sending (f_role f))) | None => false end); auto.
    destruct (n_consumer c); auto.
  - rewrite Ep. rewrite <- (received_write f) by auto.
    destruct (do_write f (s_conns (state_of f h)) (s_regs (state_of f h)) sid p); auto.
  - rewrite Ep. auto.
  - rewrite L. destruct (fired 0 h i); auto. destruct (nth_error (laters h) i) as [[sid p]|]; auto. cbn [option_map].
    rewrite <- (received_write f) by auto.
    destruct (do_write f (s_conns (state_of f h)) (s_regs (state_of f h)) sid p); auto.
Qed.

(** ** Being connected *)

Definition spell (k : nat) (o : event) (ends : event -> Prop) (h : list event) : Prop :=
  exists pre mid, h = (pre ++ o :: mid)%list /\ (forall e, In e pre -> ~ opens k e) /\ (forall e, In e mid -> ~ ends e).

Lemma spell_snoc : forall k o ends h e, opens k o ->
  (spell k o ends (h ++ [e]) <-> (spell k o ends h /\ ~ ends e) \/ (e = o /\ forall x, In x h -> ~ opens k x)).
Proof.
  intros k o ends h e Ho. split.
  - intros (pre & mid & E & A & B). destruct mid as [|m mid] using rev_ind.
    + apply app_inj_tail in E as [-> ->]. right. auto.
    + clear IHmid. rewrite app_comm_cons, app_assoc in E. apply app_inj_tail in E as [-> ->]. left. split.
      * exists pre, mid. split; auto. split; auto. intros x Hx. apply B. apply in_or_app. auto.
      * apply B. apply in_or_app. right. left. auto.
  - intros [[(pre & mid & -> & A & B) C]|[-> A]].
    + exists pre, (mid ++ [e])%list. rewrite <- app_assoc. split; auto. split; auto.
      intros x Hx. apply in_app_or in Hx as [Hx|[<-|[]]]; auto.
    + exists h, []. split; auto.
Qed.

Lemma conn_none : forall f h k, get (s_conns (state_of f h)) k = None <-> forall e, In e h -> ~ opens k e.
Proof.
  intros f h k. induction h as [|e h IH] using rev_ind.
  - cbn. split; auto.
  - rewrite conn_snoc. split.
    + intros H x Hx. apply in_app_or in Hx as [Hx|[<-|[]]].
      * apply IH; auto. destruct (get (s_conns (state_of f h)) k) as [c|]; auto. exfalso.
        unfold cstep in H. destruct e; try discriminate;
          destruct (Nat.eqb k k0); try discriminate; destruct (n_phase c); try discriminate.
        cbn [fst] in H.
        assert (X := on_message_conns f (mkState [(k, c)] [] []) k c payload m_raises). cbn [s_conns get] in X.
        rewrite Nat.eqb_refl in X. destruct (X eq_refl) as [[X1|X1] _]; congruence.
      * intros [path ->]. unfold cstep in H. rewrite Nat.eqb_refl in H. destruct (get (s_conns (state_of f h)) k); discriminate.
    + intros H. assert (X : get (s_conns (state_of f h)) k = None) by (apply IH; intros; apply H; apply in_or_app; auto).
      rewrite X. unfold cstep. destruct e; auto. destruct (Nat.eqb_spec k k0); auto. subst. exfalso.
      apply (H (EOpen k0 path)); [apply in_or_app; right; left; auto|]. exists path. auto.
Qed.

Lemma parse_action_name : forall a, parse_action (name a) = Some a.
Proof. intros []; reflexivity. Qed.
Lemma parse_action_inv : forall t a, parse_action t = Some a -> t = name a.
Proof.
  intros t a H. unfold parse_action in H. destruct (String.eqb_spec t "publish"); [inversion H; auto|].
  destruct (String.eqb_spec t "subscribe"); inversion H; auto.
Qed.

(** Connected to be sent to. *)
Definition out_open (f : config) (c : option conn) (s : string) : Prop :=
  exists x, c = Some x /\ n_phase x = Open /\ n_action x = Some (sending (f_role f)) /\ n_sid x = Some s.
(** Connected to send. *)
Definition in_open (f : config) (c : option conn) (s : string) : Prop :=
  exists x, c = Some x /\ n_phase x = Open /\ n_action x = Some (other (sending (f_role f))) /\ n_sid x = Some s /\ n_consumer x = true.

Lemma gets_out_open : forall f c s, gets f c s = true <-> out_open f c s.
Proof.
  intros f c s. unfold gets, out_open. destruct c as [x|]; [|split; [discriminate|intros (x & H & _); discriminate]].
  destruct (n_phase x) eqn:P; try (split; [discriminate|intros (y & H & Q & _); inversion H; subst; congruence]).
  destruct (n_action x) as [a|] eqn:A; [|split; [discriminate|intros (y & H & _ & Q & _); inversion H; subst; congruence]].
  destruct (n_sid x) as [t|] eqn:S; [|split; [discriminate|intros (y & H & _ & _ & Q); inversion H; subst; congruence]].
  rewrite andb_true_iff, action_eqb_eq, String.eqb_eq. split.
  - intros [-> ->]. exists x. auto.
  - intros (y & H & _ & Q1 & Q2). inversion H; subst y. split; congruence.
Qed.

Lemma other_neq : forall a, action_eqb (other a) a = false.
Proof. intros []; auto. Qed.

Lemma cstep_out : forall f k c e s, f_producer f = true ->
  (out_open f (cstep f k c e) s <->
   (out_open f c s /\ ~ closes (f_role f) k e) \/ (c = None /\ e = EOpen k [s; name (sending (f_role f))])).
Proof.
  intros f k c e s Ep. destruct c as [c|].
  - (* known *)
    assert (Stay : cstep f k (Some c) e = Some c -> ~ closes (f_role f) k e ->
      (out_open f (cstep f k (Some c) e) s <->
       (out_open f (Some c) s /\ ~ closes (f_role f) k e) \/ (Some c = None /\ e = EOpen k [s; name (sending (f_role f))]))).
    { intros -> N. split; [auto|]. intros [[H _]|[H _]]; [auto|discriminate]. }
    assert (Drop : ~ out_open f (cstep f k (Some c) e) s -> (~ out_open f (Some c) s \/ closes (f_role f) k e) ->
      (out_open f (cstep f k (Some c) e) s <->
       (out_open f (Some c) s /\ ~ closes (f_role f) k e) \/ (Some c = None /\ e = EOpen k [s; name (sending (f_role f))]))).
    { intros N Q. split; [tauto|]. intros [[H C]|[H _]]; [|discriminate]. destruct Q; tauto. }
    destruct e as [j path|j|j p raises|sid p|sid p|i];
      try (apply Stay; [reflexivity|intros [H|(_ & p' & b & H)]; discriminate]).
    + destruct (Nat.eqb_spec k j) as [<-|Hk].
      2:{ apply Stay; [unfold cstep; apply Nat.eqb_neq in Hk; rewrite Hk; auto|]. intros [H|(_ & p & b & H)]; congruence. }
      apply Drop; [|right; left; auto].
      unfold cstep. rewrite Nat.eqb_refl. intros (x & H & Q & _). destruct (n_phase c) eqn:P; inversion H; subst x; cbn in Q; congruence.
    + destruct (Nat.eqb_spec k j) as [<-|Hk].
      2:{ apply Stay; [unfold cstep; apply Nat.eqb_neq in Hk; rewrite Hk; auto|]. intros [H|(_ & p' & b & H)]; congruence. }
      unfold cstep in *. rewrite Nat.eqb_refl in *.
      destruct (n_phase c) eqn:P.
      * cbn [fst] in *. destruct (n_action c) as [a|] eqn:A.
        -- destruct (action_eqb a (sending (f_role f))) eqn:Ea.
           ++ destruct (f_role f) eqn:Er.
              ** apply Drop; [|right; right; split; eauto].
                 unfold on_message. rewrite A, Er, Ea. cbn. rewrite Nat.eqb_refl. intros (x & H & Q & _). inversion H; subst x. discriminate.
              ** apply Stay; [unfold on_message; rewrite A, Er, Ea; cbn; rewrite Nat.eqb_refl; auto|].
                 intros [H|(H & _)]; discriminate.
           ++ assert (N : forall x, n_action x = n_action c -> ~ out_open f (Some x) s).
              { intros x Hx (y & H & _ & Q & _). inversion H; subst y. rewrite Hx, A in Q. inversion Q; subst a.
                rewrite action_eqb_refl in Ea. discriminate. }
              apply Drop; [|left; apply N; auto].
              assert (X := on_message_conns f (mkState [(k, c)] [] []) k c p raises). cbn [s_conns get] in X.
              rewrite Nat.eqb_refl in X. destruct (X eq_refl) as [[X1|X1] _]; rewrite X1; apply N; auto.
        -- assert (N : forall x, n_action x = n_action c -> ~ out_open f (Some x) s).
           { intros x Hx (y & H & _ & Q & _). inversion H; subst y. congruence. }
           apply Drop; [|left; apply N; auto].
           assert (X := on_message_conns f (mkState [(k, c)] [] []) k c p raises). cbn [s_conns get] in X.
           rewrite Nat.eqb_refl in X. destruct (X eq_refl) as [[X1|X1] _]; rewrite X1; apply N; auto.
      * apply Drop; [|left]; intros (x & H & Q & _); inversion H; subst; congruence.
      * apply Drop; [|left]; intros (x & H & Q & _); inversion H; subst; congruence.
  - (* new *)
    split.
    + intros H. right. split; auto. unfold cstep in H. destruct e; try (destruct H as (x & H & _); discriminate).
      destruct (Nat.eqb_spec k k0) as [<-|]; [|destruct H as (x & H & _); discriminate].
      destruct H as (x & H & P & A & S). inversion H; subst x. unfold opened in *.
      destruct path as [|t [|u [|]]]; cbn [parse_path] in *; try discriminate.
      destruct (parse_action u) as [a|] eqn:Eu; [|discriminate]. apply parse_action_inv in Eu. subst u.
      destruct (action_eqb a (sending (f_role f))) eqn:Ea; cbn in A, S.
      * inversion A; subst a. inversion S; subst t. auto.
      * inversion A; subst a. rewrite action_eqb_refl in Ea. discriminate.
    + intros [[(x & H & _) _]|[_ ->]]; [discriminate|]. unfold cstep. rewrite Nat.eqb_refl. unfold opened.
      cbn [parse_path]. rewrite parse_action_name, action_eqb_refl, Ep. eexists. split; [reflexivity|]. auto.
Qed.

Lemma cstep_in : forall f k c e s, f_consumer f = true ->
  (in_open f (cstep f k c e) s <->
   (in_open f c s /\ ~ (e = ELost k \/ exists p, e = EMessage k p true)) \/
   (c = None /\ e = EOpen k [s; name (other (sending (f_role f)))])).
Proof.
  intros f k c e s Ep. destruct c as [c|].
  - assert (Stay : cstep f k (Some c) e = Some c -> ~ (e = ELost k \/ exists p, e = EMessage k p true) ->
      (in_open f (cstep f k (Some c) e) s <->
       (in_open f (Some c) s /\ ~ (e = ELost k \/ exists p, e = EMessage k p true)) \/
       (Some c = None /\ e = EOpen k [s; name (other (sending (f_role f)))]))).
    { intros -> N. split; [auto|]. intros [[H _]|[H _]]; [auto|discriminate]. }
    assert (Drop : ~ in_open f (cstep f k (Some c) e) s ->
      (~ in_open f (Some c) s \/ (e = ELost k \/ exists p, e = EMessage k p true)) ->
      (in_open f (cstep f k (Some c) e) s <->
       (in_open f (Some c) s /\ ~ (e = ELost k \/ exists p, e = EMessage k p true)) \/
       (Some c = None /\ e = EOpen k [s; name (other (sending (f_role f)))]))).
    { intros N Q. split; [tauto|]. intros [[H C]|[H _]]; [|discriminate]. destruct Q; tauto. }
    destruct e as [j path|j|j p raises|sid p|sid p|i];
      try (apply Stay; [reflexivity|intros [H|(p' & H)]; discriminate]).
    + destruct (Nat.eqb_spec k j) as [<-|Hk].
      2:{ apply Stay; [unfold cstep; apply Nat.eqb_neq in Hk; rewrite Hk; auto|]. intros [H|(p & H)]; congruence. }
      apply Drop; [|right; left; auto].
      unfold cstep. rewrite Nat.eqb_refl. intros (x & H & Q & _). destruct (n_phase c) eqn:P; inversion H; subst x; cbn in Q; congruence.
    + destruct (Nat.eqb_spec k j) as [<-|Hk].
      2:{ apply Stay; [unfold cstep; apply Nat.eqb_neq in Hk; rewrite Hk; auto|]. intros [H|(p' & H)]; congruence. }
      unfold cstep in *. rewrite Nat.eqb_refl in *.
      destruct (n_phase c) eqn:P.
      2,3: apply Drop; [|left]; intros (x & H & Q & _); inversion H; subst; congruence.
      cbn [fst] in *.
      assert (D : (n_action c = Some (other (sending (f_role f))) /\ n_consumer c = true) \/
                  (forall x, n_action x = n_action c -> n_consumer x = n_consumer c -> ~ in_open f (Some x) s)).
      { destruct (n_consumer c) eqn:Nc.
        - destruct (n_action c) as [a|] eqn:A.
          + destruct (action_eqb a (other (sending (f_role f)))) eqn:Ea.
            * left. apply action_eqb_eq in Ea. subst a. auto.
            * right. intros x Hx _ (y & H & _ & Q & _). inversion H; subst y. rewrite Hx in Q. inversion Q; subst a.
              rewrite action_eqb_refl in Ea. discriminate.
          + right. intros x Hx _ (y & H & _ & Q & _). inversion H; subst y. congruence.
        - right. intros x _ Hx (y & H & _ & _ & _ & Q). inversion H; subst y. congruence. }
      destruct D as [[A Nc]|N].
      * destruct raises.
        -- apply Drop; [|right; right; eauto]. unfold on_message. rewrite A, other_neq, Nc. cbn. rewrite Nat.eqb_refl.
           intros (x & H & Q & _). inversion H; subst x. discriminate.
        -- apply Stay; [|intros [H|(p' & H)]; discriminate]. unfold on_message. rewrite A, other_neq, Nc. cbn. rewrite Nat.eqb_refl. auto.
      * apply Drop; [|left; apply N; auto].
        assert (X := on_message_conns f (mkState [(k, c)] [] []) k c p raises). cbn [s_conns get] in X.
        rewrite Nat.eqb_refl in X. destruct (X eq_refl) as [[X1|X1] _]; rewrite X1; apply N; auto.
  - split.
    + intros H. right. split; auto. unfold cstep in H. destruct e; try (destruct H as (x & H & _); discriminate).
      destruct (Nat.eqb_spec k k0) as [<-|]; [|destruct H as (x & H & _); discriminate].
      destruct H as (x & H & P & A & S & Nc). inversion H; subst x. unfold opened in *.
      destruct path as [|t [|u [|]]]; cbn [parse_path] in *; try discriminate.
      destruct (parse_action u) as [a|] eqn:Eu; [|discriminate]. apply parse_action_inv in Eu. subst u.
      destruct (action_eqb a (sending (f_role f))) eqn:Ea; cbn in A, S, Nc; [discriminate|].
      inversion A; subst a. inversion S; subst t. auto.
    + intros [[(x & H & _) _]|[_ ->]]; [discriminate|]. unfold cstep. rewrite Nat.eqb_refl. unfold opened.
      cbn [parse_path]. rewrite parse_action_name, other_neq, Ep. eexists. split; [reflexivity|]. cbn. auto.
Qed.

Lemma listening_state : forall f h k s, f_producer f = true ->
  (listening f h k s <-> out_open f (get (s_conns (state_of f h)) k) s).
Proof.
  intros f h k s Ep. change (listening f h k s) with (spell k (EOpen k [s; name (sending (f_role f))]) (closes (f_role f) k) h).
  induction h as [|e h IH] using rev_ind.
  - split; [intros (pre & mid & E & _); destruct pre; discriminate|]. intros (x & H & _). discriminate.
  - rewrite spell_snoc by (eexists; eauto). rewrite conn_snoc, cstep_out by auto. rewrite IH, conn_none. tauto.
Qed.

Lemma talking_state : forall f h k s, f_consumer f = true ->
  (talking f h k s <-> in_open f (get (s_conns (state_of f h)) k) s).
Proof.
  intros f h k s Ep.
  change (talking f h k s) with (spell k (EOpen k [s; name (other (sending (f_role f)))])
    (fun e => e = ELost k \/ exists p, e = EMessage k p true) h).
  induction h as [|e h IH] using rev_ind.
  - split; [intros (pre & mid & E & _); destruct pre; discriminate|]. intros (x & H & _). discriminate.
  - rewrite spell_snoc by (eexists; eauto). rewrite conn_snoc, cstep_in by auto. rewrite IH, conn_none. tauto.
Qed.

(** ** The property *)

(** At each event a connection is sent what is broadcast for the sequence it is
    listening to, once, and nothing else. *)
Theorem C36_step : forall f h k e, f_producer f = true ->
  match air h e with
  | Some (s, p) =>
      (listening f h k s /\ received k (snd (step f (state_of f h) e)) = [p]) \/
      (~ listening f h k s /\ received k (snd (step f (state_of f h) e)) = [])
  | None => received k (snd (step f (state_of f h) e)) = []
  end.
Proof.
  intros f h k e Ep. rewrite received_step by auto. destruct (air h e) as [[s p]|]; auto.
  rewrite listening_state by auto. rewrite <- gets_out_open.
  destruct (gets f (get (s_conns (state_of f h)) k) s); [left|right]; auto.
Qed.

(** Over a whole history: exactly the broadcasts for its sequence between its
    registration and the end of its connection, in order. *)
Theorem C36_received : forall f pre k s mid post, f_producer f = true ->
  (forall e, In e pre -> ~ opens k e) ->
  (forall e, In e mid -> ~ closes (f_role f) k e) ->
  match post with [] => True | e :: _ => closes (f_role f) k e end ->
  let o := EOpen k [s; name (sending (f_role f))] in
  received k (snd (runs f start (pre ++ o :: mid ++ post))) = payloads_for s (broadcasts (pre ++ [o]) mid).
Proof.
  intros f pre k s mid post Ep Hpre Hmid Hpost o.
  assert (Silent : forall l h, (forall h1 e h2, l = (h1 ++ e :: h2)%list -> forall t, ~ listening f (h ++ h1) k t) ->
    received k (snd (runs f (state_of f h) l)) = []).
  { induction l as [|e l IH]; intros h H; auto. rewrite runs_from, received_app.
    assert (X := C36_step f h k e Ep). assert (N := H [] e l eq_refl). rewrite app_nil_r in N.
    rewrite IH.
    - destruct (air h e) as [[t p]|]; [|rewrite X; auto]. destruct X as [[L _]|[_ ->]]; auto. exfalso. apply (N t L).
    - intros h1 e' h2 E t. rewrite <- app_assoc. apply (H (e :: h1) e' h2). rewrite E. auto. }
  rewrite runs_app. cbn [snd]. rewrite received_app.
  assert (A : received k (snd (runs f start pre)) = []).
  { change start with (state_of f []). apply Silent. intros h1 e h2 E t (p1 & m1 & E1 & _). cbn [app] in E1.
    apply (Hpre (EOpen k [t; name (sending (f_role f))])); [|eexists; eauto].
    rewrite E, E1. apply in_or_app. left. apply in_or_app. right. left. auto. }
  rewrite A. cbn [app].
  change (fst (runs f start pre)) with (state_of f pre). rewrite runs_from, received_app.
  assert (B : received k (snd (step f (state_of f pre) o)) = []).
  { assert (X := C36_step f pre k o Ep). cbn [air] in X. auto. }
  rewrite B. cbn [app]. rewrite runs_app. cbn [snd]. rewrite received_app.
  assert (L0 : listening f (pre ++ [o]) k s).
  { exists pre, []. split; auto. }
  assert (U : forall h t, listening f h k s -> listening f h k t -> t = s).
  { intros h t H1 H2. apply listening_state in H1; auto. apply listening_state in H2; auto.
    destruct H1 as (x & E1 & _ & _ & S1), H2 as (y & E2 & _ & _ & S2). congruence. }
  assert (C : forall m h, (forall e, In e m -> ~ closes (f_role f) k e) -> listening f h k s ->
    received k (snd (runs f (state_of f h) m)) = payloads_for s (broadcasts h m) /\ listening f (h ++ m) k s).
  { induction m as [|e m IH]; intros h Hm L.
    - rewrite app_nil_r. auto.
    - assert (L' : listening f (h ++ [e]) k s).
      { destruct L as (p1 & m1 & -> & L1 & L2). exists p1, (m1 ++ [e])%list. rewrite <- app_assoc. split; auto. split; auto.
        intros x Hx. apply in_app_or in Hx as [Hx|[<-|[]]]; auto. apply Hm. left. auto. }
      destruct (IH (h ++ [e])%list ltac:(intros; apply Hm; right; auto) L') as [I1 I2].
      rewrite <- app_assoc in I2. split; auto.
      rewrite runs_from, received_app, I1. cbn [broadcasts]. unfold payloads_for. rewrite filter_app, map_app. f_equal.
      assert (X := C36_step f h k e Ep). destruct (air h e) as [[t p]|]; [|rewrite X; auto].
      cbn [filter fst]. destruct (String.eqb_spec s t) as [<-|Hst].
      + destruct X as [[_ ->]|[N _]]; [auto|tauto].
      + destruct X as [[N _]|[_ ->]]; [|auto]. exfalso. apply Hst. symmetry. apply (U h t); auto. }
  destruct (C mid (pre ++ [o])%list Hmid L0) as [C1 C2]. rewrite C1.
  assert (D : received k (snd (runs f (fst (runs f (state_of f (pre ++ [o])) mid)) post)) = []).
  { assert (E : fst (runs f (state_of f (pre ++ [o])) mid) = state_of f ((pre ++ [o]) ++ mid)%list).
    { unfold state_of. rewrite (runs_app f (pre ++ [o])%list mid). auto. }
    rewrite E. clear E. destruct post as [|c post]; auto. rewrite runs_from, received_app.
    assert (X := C36_step f ((pre ++ [o]) ++ mid)%list k c Ep).
    assert (Ac : air ((pre ++ [o]) ++ mid)%list c = None) by (destruct Hpost as [->|(_ & p & b & ->)]; auto).
    rewrite Ac in X. rewrite X. cbn [app]. apply Silent. intros h1 e h2 _ t HL.
    apply listening_state in HL; auto. revert HL.
    induction h1 as [|x m IHm] using rev_ind.
    - rewrite app_nil_r, conn_snoc, cstep_out by auto. intros [[_ N]|[N _]]; [tauto|].
      apply conn_none with (e := o) in N; [apply N; eexists; reflexivity|].
      apply in_or_app. left. apply in_or_app. right. left. auto.
    - rewrite app_assoc, conn_snoc, cstep_out by auto. intros [[N _]|[N _]]; [apply IHm; auto|].
      apply conn_none with (e := o) in N; [apply N; eexists; reflexivity|].
      apply in_or_app. left. apply in_or_app. left. apply in_or_app. left. apply in_or_app. right. left. auto. }
  rewrite D, app_nil_r. auto.
Qed.

(** A connection that never asked for it is sent nothing. *)
Theorem C36_others : forall f h k, f_producer f = true ->
  (forall s, ~ In (EOpen k [s; name (sending (f_role f))]) h) -> received k (snd (runs f start h)) = [].
Proof.
  intros f h k Ep. induction h as [|e h IH] using rev_ind; intros H; auto.
  rewrite runs_app. cbn [snd]. rewrite received_app, IH by (intros s Hs; apply (H s); apply in_or_app; auto).
  cbn [app]. change (fst (runs f start h)) with (state_of f h). rewrite runs_from, received_app. cbn [runs snd].
  assert (X := C36_step f h k e Ep). destruct (air h e) as [[s p]|]; [|rewrite X; auto].
  destruct X as [[(pre & mid & -> & _) _]|[_ ->]]; [|auto]. exfalso. apply (H s).
  apply in_or_app. left. apply in_or_app. right. left. auto.
Qed.

(** *** The other direction, and exceptions *)

(** What is known of a connection on record. *)
Definition wfc (f : config) (c : conn) : Prop :=
  match n_action c with
  | None => n_phase c <> Open
  | Some a => n_sid c <> None /\
      (n_phase c = Open -> if action_eqb a (sending (f_role f)) then f_producer f = true
                           else f_consumer f = true /\ n_consumer c = true)
  end.

Lemma opened_wfc : forall f path, wfc f (opened f path).
Proof.
  intros f path. unfold opened, wfc. destruct path as [|t [|u [|]]]; cbn [parse_path]; try (cbn; discriminate).
  destruct (parse_action u) as [a|]; [|cbn; discriminate].
  destruct (action_eqb a (sending (f_role f))) eqn:Ea; cbn; (split; [discriminate|]); rewrite Ea;
    [destruct (f_producer f)|destruct (f_consumer f)]; auto; discriminate.
Qed.

Lemma wfc_state : forall f h k c, get (s_conns (state_of f h)) k = Some c -> wfc f c.
Proof.
  intros f h. induction h as [|e h IH] using rev_ind; intros k c; [discriminate|]. rewrite conn_snoc.
  destruct (get (s_conns (state_of f h)) k) as [x|] eqn:G.
  - assert (W := IH k x G).
    assert (Closed : forall b, wfc f (mkConn Dropped (n_sid x) (n_action x) b) /\ wfc f (mkConn Gone (n_sid x) (n_action x) b)).
    { intros b. unfold wfc in *. cbn. destruct (n_action x); split; try discriminate; (split; [apply W|discriminate]). }
    unfold cstep. destruct e as [j path|j|j p raises|sid p|sid p|i]; try (intros H; inversion H; subst; auto; fail).
    + destruct (Nat.eqb k j); [|intros H; inversion H; subst; auto].
      destruct (n_phase x); intros H; inversion H; subst; auto; apply Closed.
    + destruct (Nat.eqb k j); [|intros H; inversion H; subst; auto].
      destruct (n_phase x); intros H; try (inversion H; subst; auto; fail).
      cbn [fst] in H.
      assert (X := on_message_conns f (mkState [(k, x)] [] []) k x p raises). cbn [s_conns get] in X.
      rewrite Nat.eqb_refl in X. destruct (X eq_refl) as [[X1|X1] _]; rewrite X1 in H; inversion H; subst; auto. apply Closed.
  - unfold cstep. destruct e; try discriminate. destruct (Nat.eqb k k0); intros H; inversion H; subst. apply opened_wfc.
Qed.

Lemma other_or : forall a b, a = b \/ a = other b.
Proof. intros [] []; auto. Qed.

(** What is delivered by a connection goes to the consumer with the sequence
    identifier of its path, up to and including the first refused message;
    nothing else does. *)
Theorem C36_published : forall f h, f_consumer f = true ->
  (forall k p raises s, talking f h k s ->
     snd (step f (state_of f h) (EMessage k p raises)) = [Written (Some s) p]) /\
  (forall e sid p, In (Written sid p) (snd (step f (state_of f h) e)) ->
     exists k raises s, e = EMessage k p raises /\ sid = Some s /\ talking f h k s).
Proof.
  intros f h Ec. split.
  - intros k p raises s T. apply talking_state in T; auto. destruct T as (x & G & P & A & S & N).
    cbn [step]. rewrite G, P. unfold on_message. rewrite A, other_neq, N, S. destruct raises; auto.
  - intros e sid p H. assert (W := inv_write f _ (inv_state f h)).
    assert (NW : forall sid0 p0, ~ In (Written sid p) (snd (do_write f (s_conns (state_of f h)) (s_regs (state_of f h)) sid0 p0))).
    { intros sid0 p0 Hin. rewrite do_write_regs in Hin by auto. cbn [snd] in Hin. apply in_flat_map in Hin as (k & _ & Hin).
      destruct (get (s_conns (state_of f h)) k) as [c|]; auto. destruct (n_phase c), (n_sid c) as [t|]; auto.
      destruct (sid0 =? t); auto. destruct Hin as [Hin|[]]; discriminate. }
    destruct e as [j path|j|j q raises|sid0 q|sid0 q|i]; cbn [step] in H.
    + destruct (get (s_conns (state_of f h)) j); destruct H.
    + exfalso. destruct (get (s_conns (state_of f h)) j) as [c|]; [|destruct H].
      assert (X : ~ In (Written sid p) (snd (on_lost f (state_of f h) j c))).
      { unfold on_lost. destruct (n_action c) as [a|]; auto.
        destruct (action_eqb a (sending (f_role f))); [destruct (f_producer f); [destruct (remove_first _ _)|]|destruct (f_consumer f)];
          cbn; auto; try (intros [Q|[]]; discriminate); destruct (f_role f); cbn; auto; intros [Q|[]]; discriminate. }
      destruct (n_phase c); auto; destruct H.
    + destruct (get (s_conns (state_of f h)) j) as [c|] eqn:G; [|destruct H].
      destruct (n_phase c) eqn:P; try (destruct H; fail).
      assert (Wc := wfc_state f h j c G). unfold wfc in Wc. unfold on_message in H.
      destruct (n_action c) as [a|] eqn:A; [|congruence]. destruct Wc as [S Wc].
      destruct (action_eqb a (sending (f_role f))) eqn:Ea; cbn [negb] in H; [destruct (f_role f); destruct H|].
      destruct (Wc P) as [_ N]. rewrite N in H. cbn [snd] in H. destruct H as [H|[]]. inversion H; subst.
      destruct (n_sid c) as [s|] eqn:Sc; [|congruence]. exists j, raises, s. split; auto. split; auto.
      apply talking_state; auto. exists c. split; auto. split; auto. split; auto.
      destruct (other_or a (sending (f_role f))) as [->| ->]; auto. rewrite action_eqb_refl in Ea. discriminate.
    + exfalso. destruct (f_producer f); [|destruct H]. apply (NW sid0 q).
      destruct (do_write f (s_conns (state_of f h)) (s_regs (state_of f h)) sid0 q); auto.
    + exfalso. destruct (f_producer f); destruct H.
    + exfalso. destruct (nth_error (s_later (state_of f h)) i) as [[[sid0 q]|]|]; try (destruct H; fail). apply (NW sid0 q).
      destruct (do_write f (s_conns (state_of f h)) (s_regs (state_of f h)) sid0 q); auto.
Qed.

(** Known under a path and not yet lost. *)
Lemma known_state : forall f h k s a,
  spell k (EOpen k [s; name a]) (fun e => e = ELost k) h <->
  exists x, get (s_conns (state_of f h)) k = Some x /\ n_phase x <> Gone /\ n_action x = Some a /\ n_sid x = Some s.
Proof.
  intros f h k s a. induction h as [|e h IH] using rev_ind.
  - split; [intros (pre & mid & E & _); destruct pre; discriminate|]. intros (x & H & _). discriminate.
  - rewrite spell_snoc by (eexists; eauto). rewrite IH, <- (conn_none f), conn_snoc.
    destruct (get (s_conns (state_of f h)) k) as [c|] eqn:G.
    + split.
      * intros [[(x & E & P & A & S) N]|[_ N]]; [|discriminate]. inversion E; subst x.
        unfold cstep. destruct e as [j path|j|j p raises|sid p|sid p|i]; try (exists c; auto; fail).
        -- destruct (Nat.eqb_spec k j); [subst; congruence|]. exists c; auto.
        -- destruct (Nat.eqb_spec k j); [|exists c; auto]. destruct (n_phase c) eqn:Pc; try (exists c; rewrite Pc; split; auto; fail).
           cbn [fst]. assert (X := on_message_conns f (mkState [(k, c)] [] []) k c p raises). cbn [s_conns get] in X.
           rewrite Nat.eqb_refl in X. destruct (X eq_refl) as [[X1|X1] _]; rewrite X1; eexists; (split; [reflexivity|]);
             cbn; rewrite ?Pc; (split; [discriminate|auto]).
      * intros (x & E & P & A & S). left. unfold cstep in E.
        destruct e as [j path|j|j p raises|sid p|sid p|i];
          try (inversion E; subst x; split; [exists c; auto|discriminate]; fail).
        -- destruct (Nat.eqb_spec k j).
           ++ exfalso. destruct (n_phase c) eqn:Pc; inversion E; subst x; cbn in P; congruence.
           ++ inversion E; subst x. split; [exists c; auto|congruence].
        -- split; [|discriminate]. destruct (Nat.eqb k j); [|inversion E; subst x; exists c; auto].
           destruct (n_phase c) eqn:Pc; try (inversion E; subst x; exists c; rewrite ?Pc; split; auto; split; auto; congruence).
           cbn [fst] in E.
           assert (X := on_message_conns f (mkState [(k, c)] [] []) k c p raises). cbn [s_conns get] in X.
           rewrite Nat.eqb_refl in X. destruct (X eq_refl) as [[X1|X1] _]; rewrite X1 in E; inversion E; subst x;
             exists c; rewrite Pc; split; auto; split; auto; discriminate.
    + split.
      * intros [[(x & E & _) _]|[-> _]]; [discriminate|]. unfold cstep. rewrite Nat.eqb_refl. unfold opened. cbn [parse_path].
        rewrite parse_action_name.
        destruct (action_eqb a (sending (f_role f))); eexists; (split; [reflexivity|]); cbn; split; auto;
          [destruct (f_producer f)|destruct (f_consumer f)]; discriminate.
      * intros (x & E & P & A & S). right. unfold cstep in E. destruct e; try discriminate.
        destruct (Nat.eqb_spec k k0) as [<-|]; [|discriminate]. inversion E; subst x. split; auto.
        unfold opened in A, S. destruct path as [|t [|u [|]]]; cbn [parse_path] in *; try discriminate.
        destruct (parse_action u) as [b|] eqn:Eu; [|discriminate]. apply parse_action_inv in Eu. subst u.
        destruct (action_eqb b (sending (f_role f))); cbn in A, S; inversion A; inversion S; subst; auto.
Qed.

(** The factory has no counterpart for connections of this kind. *)
Definition refused (f : config) (a : action) : Prop :=
  if action_eqb a (sending (f_role f)) then f_producer f = false else f_consumer f = false.

(** The only exception is AttributeError in a server, when a connection that was
    refused is lost. *)
Theorem C36_exceptions : forall f h e k,
  ~ In (ValueError k) (snd (step f (state_of f h) e)) /\
  (In (AttributeError k) (snd (step f (state_of f h) e)) <->
   f_role f = Server /\ e = ELost k /\ exists s a, refused f a /\ spell k (EOpen k [s; name a]) (fun e => e = ELost k) h).
Proof.
  intros f h e k. assert (W := inv_write f _ (inv_state f h)).
  assert (NW : forall x sid0 p0, In x (snd (do_write f (s_conns (state_of f h)) (s_regs (state_of f h)) sid0 p0)) -> exists j p, x = Sent j p).
  { intros x sid0 p0 Hin. rewrite do_write_regs in Hin by auto. cbn [snd] in Hin. apply in_flat_map in Hin as (i & _ & Hin).
    destruct (get (s_conns (state_of f h)) i) as [c|]; [|destruct Hin]. destruct (n_phase c), (n_sid c) as [t|]; try (destruct Hin; fail).
    destruct (sid0 =? t); [|destruct Hin]. destruct Hin as [<-|[]]; eauto. }
  assert (Emit : forall sid p s', snd (let '(conns, out) := do_write f (s_conns (state_of f h)) (s_regs (state_of f h)) sid p in (s' conns : state, out)) =
     snd (do_write f (s_conns (state_of f h)) (s_regs (state_of f h)) sid p)).
  { intros. destruct (do_write f (s_conns (state_of f h)) (s_regs (state_of f h)) sid p); auto. }
  destruct e as [j path|j|j q raises|sid0 q|sid0 q|i]; cbn [step].
  - destruct (get (s_conns (state_of f h)) j); cbn; (split; [tauto|]); split; [tauto|intros (_ & H & _); discriminate|tauto|intros (_ & H & _); discriminate].
  - destruct (get (s_conns (state_of f h)) j) as [c|] eqn:G.
    2:{ cbn. split; [tauto|]. split; [tauto|]. intros (_ & H & s & a & _ & K). inversion H; subst j.
        apply (known_state f) in K as (x & K & _). congruence. }
    assert (J : n_phase c = Gone \/ n_phase c <> Gone) by (destruct (n_phase c); auto; right; discriminate).
    destruct J as [P|P].
    { rewrite P. cbn. split; [tauto|]. split; [tauto|]. intros (_ & H & s & a & _ & K). inversion H; subst j.
      apply (known_state f) in K as (x & K & Q & _). congruence. }
    assert (E : (match n_phase c with Gone => (state_of f h, []) | _ => on_lost f (state_of f h) j c end) = on_lost f (state_of f h) j c)
      by (destruct (n_phase c); auto; congruence). rewrite E. clear E.
    assert (Wc := wfc_state f h j c G). unfold wfc in Wc.
    assert (Uniq : forall s a, spell j (EOpen j [s; name a]) (fun e => e = ELost j) h -> n_action c = Some a).
    { intros s a K. apply (known_state f) in K as (x & K & _ & Q & _). congruence. }
    unfold on_lost. destruct (n_action c) as [a|] eqn:A.
    2:{ cbn. split; [tauto|]. split; [tauto|]. intros (_ & H & s & a & _ & K). inversion H; subst j.
        apply Uniq in K. discriminate. }
    destruct Wc as [Sc _].
    assert (Yes : forall s, n_sid c = Some s -> spell j (EOpen j [s; name a]) (fun e => e = ELost j) h).
    { intros s S. apply (known_state f). exists c. auto. }
    destruct (n_sid c) as [s|] eqn:S; [|congruence]. specialize (Yes s eq_refl).
    assert (Fin : forall b : bool, (b = true <-> refused f a) -> forall out,
      out = (if b then match f_role f with Server => [AttributeError j] | Client => [] end else []) ->
      ~ In (ValueError k) out /\ (In (AttributeError k) out <-> f_role f = Server /\ ELost j = ELost k /\ exists s a,
        refused f a /\ spell k (EOpen k [s; name a]) (fun e => e = ELost k) h)).
    { intros b Hb out ->. split.
      - destruct b, (f_role f); cbn; try tauto. intros [H|[]]; discriminate.
      - split.
        + destruct b; [|intros []]. destruct (f_role f) eqn:R; [|intros []]. intros [H|[]]. inversion H; subst j. split; auto. split; auto.
          exists s, a. split; auto. apply Hb. auto.
        + intros (R & H & s' & a' & Q & K). inversion H; subst k. apply Uniq in K. inversion K; subst a'.
          apply Hb in Q. rewrite Q, R. left. auto. }
    assert (Rf : refused f a <-> (if action_eqb a (sending (f_role f)) then f_producer f = false else f_consumer f = false))
      by reflexivity.
    destruct (action_eqb a (sending (f_role f))) eqn:Ea.
    + destruct (f_producer f) eqn:Ep.
      * assert (Hin : In j (s_regs (state_of f h))).
        { apply (i_regs f _ (inv_state f h)). split; auto. exists c. split; auto. split; auto. apply action_eqb_eq in Ea. congruence. }
        destruct (remove_first_in _ _ Hin) as [l' ->]. apply (Fin false); [rewrite Rf; split; discriminate|auto].
      * apply (Fin true); [rewrite Rf; tauto|auto].
    + destruct (f_consumer f) eqn:Ec.
      * apply (Fin false); [rewrite Rf; split; discriminate|auto].
      * apply (Fin true); [rewrite Rf; tauto|auto].
  - assert (R : forall out, out = snd (match get (s_conns (state_of f h)) j with
        | Some c => match n_phase c with Open => on_message f (state_of f h) j c q raises | _ => (state_of f h, []) end
        | None => (state_of f h, []) end) -> out = [] \/ exists sid, out = [Written sid q]).
    { intros out ->. destruct (get (s_conns (state_of f h)) j) as [c|] eqn:G; auto. destruct (n_phase c) eqn:P; auto.
      assert (Wc := wfc_state f h j c G). unfold wfc in Wc. unfold on_message.
      destruct (n_action c) as [a|]; [|congruence]. destruct Wc as [_ Wc]. specialize (Wc P).
      destruct (action_eqb a (sending (f_role f))); cbn [negb]; auto. destruct Wc as [_ ->]. right. eexists. reflexivity. }
    destruct (R _ eq_refl) as [-> |[sid ->]]; cbn; split; try tauto; try (intros [H|[]]; discriminate);
      (split; [intuition discriminate|intros (_ & H & _); discriminate]).
  - destruct (f_producer f).
    + rewrite Emit. split; [intros H; apply NW in H as (j & p & H); discriminate|]. split.
      * intros H; apply NW in H as (j & p & H); discriminate.
      * intros (_ & H & _); discriminate.
    + cbn. split; [tauto|]. split; [tauto|intros (_ & H & _); discriminate].
  - destruct (f_producer f); cbn; (split; [tauto|]); (split; [tauto|intros (_ & H & _); discriminate]).
  - destruct (nth_error (s_later (state_of f h)) i) as [[[sid0 q]|]|].
    + rewrite (Emit sid0 q (fun conns => mkState conns _ _)). split; [intros H; apply NW in H as (j & p & H); discriminate|]. split.
      * intros H; apply NW in H as (j & p & H); discriminate.
      * intros (_ & H & _); discriminate.
    + cbn. split; [tauto|]. split; [tauto|intros (_ & H & _); discriminate].
    + cbn. split; [tauto|]. split; [tauto|intros (_ & H & _); discriminate].
Qed.

(** *** Concrete *)

Definition server : config := mkConfig Server true false.
Definition day_log : list event :=
  [EOpen 1 ["A"; "subscribe"]; EEmit "A" "a1"; EOpen 2 ["B"; "subscribe"]; EOpen 3 ["A"; "subscribe"]; EOpen 4 ["A"];
   EEmitLater "A" "late"; EEmit "B" "b1"; EEmit "A" "a2"; ELost 1; EOpen 5 ["A"; "publish"]; EFire 0; EFire 0;
   EMessage 3 "hello" false; EEmit "A" "a3"; ELost 3; ELost 5; EEmit "B" "b2"].

Example C36_case : snd (runs server start day_log) =
  [Sent 1 "a1"; Sent 2 "b1"; Sent 1 "a2"; Sent 3 "a2"; Sent 3 "late"; AttributeError 5; Sent 2 "b2"].
Proof. vm_compute. reflexivity. Qed.

Example C36_case_pub :
  snd (runs (mkConfig Server false true) start
    [EOpen 1 ["A"; "publish"]; EMessage 1 "x" false; EMessage 1 "y" true; EMessage 1 "z" false; ELost 1]) =
  [Written (Some "A") "x"; Written (Some "A") "y"] /\
  snd (runs (mkConfig Client true false) start
    [EOpen 1 ["A"; "publish"]; EEmit "A" "p"; EMessage 1 "x" false; EEmit "B" "q"; EEmit "A" "r"; ELost 1; EEmit "A" "t"]) =
  [Sent 1 "p"; Sent 1 "r"].
Proof. vm_compute. auto. Qed.

(** ** The older protocol *)

Definition lconnected (h : list levent) (k : nat) : Prop :=
  exists pre mid, h = (pre ++ LOpen k :: mid)%list /\ forall e, In e mid -> e <> LLost k.

(** The last word about the channel was to subscribe. *)
Definition tuned (h : list levent) (k : nat) (ch : string) : Prop :=
  exists pre unsub mid, h = (pre ++ LMessage k (Some ch) unsub :: mid)%list /\ unsub <> Some ch /\ lconnected pre k /\
    forall e, In e mid -> e <> LLost k /\ forall sub, e <> LMessage k sub (Some ch).

Definition lreceived (k : nat) (o : list (nat * string)) : list string :=
  flat_map (fun p => if Nat.eqb k (fst p) then [snd p] else []) o.

Definition lstate (h : list levent) : list lclient := fst (lruns [] h).

Lemma lruns_app : forall l1 l2 s,
  lruns s (l1 ++ l2) = (fst (lruns (fst (lruns s l1)) l2), (snd (lruns s l1) ++ snd (lruns (fst (lruns s l1)) l2))%list).
Proof.
  induction l1 as [|e l1 IH]; intros l2 s; cbn [app lruns].
  - cbn. destruct (lruns s l2); auto.
  - destruct (lstep s e) as [s1 o1]. rewrite IH. destruct (lruns s1 l1) as [s2 o2]. cbn [fst snd].
    destruct (lruns s2 l2) as [s3 o3]. cbn. rewrite app_assoc. auto.
Qed.

Lemma lstate_snoc : forall h e, lstate (h ++ [e]) = fst (lstep (lstate h) e).
Proof. intros. unfold lstate. rewrite lruns_app. cbn. destruct (lstep (fst (lruns [] h)) e). auto. Qed.

Lemma snoc_split : forall A (h pre mid : list A) e o, (h ++ [e] = pre ++ o :: mid)%list ->
  (mid = [] /\ h = pre /\ e = o) \/ exists mid', mid = (mid' ++ [e])%list /\ h = (pre ++ o :: mid')%list.
Proof.
  intros A h pre mid e o E. destruct mid as [|m mid] using rev_ind.
  - apply app_inj_tail in E as [-> ->]. auto.
  - clear IHmid. rewrite app_comm_cons, app_assoc in E. apply app_inj_tail in E as [-> ->]. right. eauto.
Qed.

Lemma lconnected_snoc : forall h e k, lconnected (h ++ [e]) k <-> (lconnected h k /\ e <> LLost k) \/ e = LOpen k.
Proof.
  intros h e k. split.
  - intros (pre & mid & E & N). apply snoc_split in E as [(-> & -> & ->)|(mid' & -> & ->)]; auto. left. split.
    + exists pre, mid'. split; auto. intros x Hx. apply N. apply in_or_app. auto.
    + apply N. apply in_or_app. right. left. auto.
  - intros [[(pre & mid & -> & N) Ne]| ->].
    + exists pre, (mid ++ [e])%list. rewrite <- app_assoc. split; auto.
      intros x Hx. apply in_app_or in Hx as [Hx|[<-|[]]]; auto.
    + exists h, []. split; auto.
Qed.

Lemma tuned_snoc : forall h e k ch, tuned (h ++ [e]) k ch <->
  (tuned h k ch /\ e <> LLost k /\ forall sub, e <> LMessage k sub (Some ch)) \/
  (lconnected h k /\ exists unsub, e = LMessage k (Some ch) unsub /\ unsub <> Some ch).
Proof.
  intros h e k ch. split.
  - intros (pre & u & mid & E & Nu & C & N). apply snoc_split in E as [(-> & -> & ->)|(mid' & -> & ->)].
    + right. split; auto. exists u. auto.
    + left. split; [|apply N; apply in_or_app; right; left; auto].
      exists pre, u, mid'. split; auto. split; auto. split; auto. intros x Hx. apply N. apply in_or_app. auto.
  - intros [[(pre & u & mid & -> & Nu & C & N) Ne]|[C (u & -> & Nu)]].
    + exists pre, u, (mid ++ [e])%list. rewrite <- app_assoc. split; auto. split; auto. split; auto.
      intros x Hx. apply in_app_or in Hx as [Hx|[<-|[]]]; auto.
    + exists h, u, []. split; [auto|]. split; [auto|]. split; [auto|]. intros x [].
Qed.

Lemma tuned_connected : forall h k ch, tuned h k ch -> lconnected h k.
Proof.
  intros h k ch (pre & u & mid & -> & _ & C & N).
  assert (G : forall l h0, lconnected h0 k -> (forall e, In e l -> e <> LLost k) -> lconnected (h0 ++ l) k).
  { induction l as [|e l IH]; intros h0 H H0; [rewrite app_nil_r; auto|].
    change (e :: l) with ([e] ++ l)%list. rewrite app_assoc. apply IH; [|intros; apply H0; right; auto].
    apply lconnected_snoc. left. split; auto. apply H0. left. auto. }
  apply G; auto. intros e [<-|He]; [discriminate|]. apply N. auto.
Qed.

Lemma in_set_add : forall l c d, In d (set_add l c) <-> In d l \/ d = c.
Proof.
  intros l c d. unfold set_add. destruct (existsb (String.eqb c) l) eqn:E.
  - split; auto. intros [H| ->]; auto. apply existsb_exists in E as (x & H & E). apply String.eqb_eq in E. congruence.
  - rewrite in_app_iff. cbn. intuition.
Qed.
Lemma in_set_remove : forall l c d, In d (set_remove l c) <-> In d l /\ d <> c.
Proof.
  intros l c d. unfold set_remove. rewrite filter_In. destruct (String.eqb_spec c d); cbn; intuition congruence.
Qed.
Lemma in_l_message : forall l sub unsub ch, In ch (l_message l sub unsub) <-> unsub <> Some ch /\ (In ch l \/ sub = Some ch).
Proof.
  intros l sub unsub ch. unfold l_message.
  destruct sub as [c|], unsub as [d|]; rewrite ?in_set_remove, ?in_set_add; intuition congruence.
Qed.

Lemma lstate_inv : forall h,
  NoDup (map l_id (lstate h)) /\ (forall k, In k (map l_id (lstate h)) <-> lconnected h k) /\
  (forall c, In c (lstate h) -> forall ch, In ch (l_channels c) <-> tuned h (l_id c) ch).
Proof.
  induction h as [|e h (N & C & T)] using rev_ind.
  - split; [constructor|]. split; [|intros c []]. intros k. cbn. split; [tauto|]. intros (pre & mid & E & _). destruct pre; discriminate.
  - rewrite lstate_snoc. destruct e as [k|k|k sub unsub|ch p]; cbn [lstep].
    + destruct (existsb (fun c => Nat.eqb k (l_id c)) (lstate h)) eqn:X; cbn [fst].
      * apply existsb_exists in X as (c & Hc & X). apply Nat.eqb_eq in X.
        split; auto. split.
        -- intros j. rewrite lconnected_snoc, <- C. split; [intros; left; split; [auto|discriminate]|].
           intros [[H _]|H]; auto. inversion H; subst. apply in_map; auto.
        -- intros d Hd ch. rewrite tuned_snoc, T by auto. split; [intros; left; repeat split; auto; discriminate|].
           intros [[H _]|(_ & u & H & _)]; auto. discriminate.
      * assert (Nk : ~ In k (map l_id (lstate h))).
        { intros H. apply in_map_iff in H as (c & <- & Hc). assert (existsb (fun d => Nat.eqb (l_id c) (l_id d)) (lstate h) = true)
            by (apply existsb_exists; exists c; split; auto; apply Nat.eqb_refl). congruence. }
        split; [|split].
        -- rewrite map_app. cbn. apply (Permutation_NoDup (l := k :: map l_id (lstate h))); [apply Permutation_cons_append|constructor; auto].
        -- intros j. rewrite map_app, in_app_iff, lconnected_snoc, C. cbn. split.
           ++ intros [H|[<-|[]]]; auto. left. split; auto. discriminate.
           ++ intros [[H _]|H]; auto. inversion H; auto.
        -- intros d Hd ch. rewrite tuned_snoc. apply in_app_or in Hd as [Hd|[<-|[]]].
           ++ rewrite T by auto. split; [intros; left; repeat split; auto; discriminate|].
              intros [[H _]|(_ & u & H & _)]; auto. discriminate.
           ++ cbn. split; [tauto|]. intros [[H _]|(_ & u & H & _)]; [|discriminate]. apply tuned_connected, C in H. tauto.
    + cbn [fst]. split; [|split].
      * clear -N. induction (lstate h) as [|c l IH]; cbn; auto. inversion N as [|? ? Nc N']; subst.
        destruct (Nat.eqb k (l_id c)); cbn; auto. constructor; auto.
        intros H. apply Nc. apply in_map_iff in H as (x & E & Hx). apply filter_In in Hx as [Hx _]. rewrite <- E. apply in_map. auto.
      * intros j. rewrite lconnected_snoc, <- C, !in_map_iff. split.
        -- intros (c & <- & H). apply filter_In in H as [H X]. left. split; [eauto|]. intros E. inversion E; subst.
           rewrite Nat.eqb_refl in X. discriminate.
        -- intros [[(c & <- & H) X]|H]; [|discriminate]. exists c. split; auto. apply filter_In. split; auto.
           destruct (Nat.eqb_spec k (l_id c)); [congruence|auto].
      * intros c Hc ch. apply filter_In in Hc as [Hc X]. rewrite tuned_snoc, T by auto. split.
        -- intros H. left. split; auto. split; [|discriminate]. intros E. inversion E; subst. rewrite Nat.eqb_refl in X. discriminate.
        -- intros [[H _]|(_ & u & H & _)]; auto. discriminate.
    + cbn [fst]. rewrite map_map.
      assert (Em : map (fun c => l_id (if Nat.eqb k (l_id c) then mkLclient k (l_message (l_channels c) sub unsub) else c)) (lstate h)
                   = map l_id (lstate h)).
      { apply map_ext. intros c. destruct (Nat.eqb_spec k (l_id c)); auto. }
      rewrite Em. split; auto. split.
      * intros j. rewrite lconnected_snoc, C. split; [intros; left; split; auto; discriminate|]. intros [[H _]|H]; auto. discriminate.
      * intros d Hd ch. apply in_map_iff in Hd as (c & <- & Hc). rewrite tuned_snoc.
        destruct (Nat.eqb_spec k (l_id c)) as [->|Hk]; cbn [l_id l_channels].
        -- rewrite in_l_message, T by auto. split.
           ++ intros [Hu [H| ->]].
              ** left. split; auto. split; [discriminate|]. intros s E. inversion E; subst. congruence.
              ** right. split; [|exists unsub; auto]. apply C. apply in_map. auto.
           ++ intros [(H & _ & X)|(_ & u & E & Hu)].
              ** split; auto. intros ->. apply (X sub). auto.
              ** inversion E; subst. auto.
        -- rewrite T by auto. split.
           ++ intros H. left. split; auto. split; [discriminate|]. intros s E. inversion E. congruence.
           ++ intros [(H & _)|(_ & u & E & _)]; auto. inversion E. congruence.
    + cbn [fst]. split; auto. split.
      * intros j. rewrite lconnected_snoc, C. split; [intros; left; split; auto; discriminate|]. intros [[H _]|H]; auto. discriminate.
      * intros d Hd c. rewrite tuned_snoc, T by auto. split; [intros; left; repeat split; auto; discriminate|].
        intros [[H _]|(_ & u & H & _)]; auto. discriminate.
Qed.

(** A client of the older protocol gets each broadcast on a channel once if the
    channel is the one it subscribed to and has not given up, and no other. *)
Theorem C36_channels : forall h k e,
  match e with
  | LBroadcast ch p =>
      (tuned h k ch /\ lreceived k (snd (lstep (lstate h) e)) = [p]) \/
      (~ tuned h k ch /\ lreceived k (snd (lstep (lstate h) e)) = [])
  | _ => snd (lstep (lstate h) e) = []
  end.
Proof.
  intros h k e. destruct e as [j|j|j sub unsub|ch p]; cbn [lstep]; auto.
  { destruct (existsb _ _); auto. }
  cbn [snd]. destruct (lstate_inv h) as (N & C & T).
  assert (G : forall l, NoDup (map l_id l) ->
     lreceived k (flat_map (fun c => if existsb (String.eqb ch) (l_channels c) then [(l_id c, p)] else []) l) =
     match find (fun c => Nat.eqb k (l_id c)) l with
     | Some c => if existsb (String.eqb ch) (l_channels c) then [p] else []
     | None => [] end).
  { induction l as [|c l IH]; intros Nl; auto. inversion Nl as [|? ? Nc Nl']; subst. cbn [flat_map find].
    unfold lreceived in *. rewrite flat_map_app, IH by auto.
    destruct (Nat.eqb_spec k (l_id c)) as [E|E].
    - assert (F : find (fun d => Nat.eqb k (l_id d)) l = None).
      { destruct (find (fun d => Nat.eqb k (l_id d)) l) as [d|] eqn:F; auto. apply find_some in F as [Hd F].
        apply Nat.eqb_eq in F. exfalso. apply Nc. rewrite <- E, F. apply in_map. auto. }
      rewrite F, app_nil_r. destruct (existsb (String.eqb ch) (l_channels c)); auto. cbn. apply Nat.eqb_eq in E. rewrite E. auto.
    - apply Nat.eqb_neq in E. destruct (existsb (String.eqb ch) (l_channels c)); cbn; rewrite ?E; auto. }
  rewrite G by auto. destruct (find (fun c => Nat.eqb k (l_id c)) (lstate h)) as [c|] eqn:F.
  - apply find_some in F as [Hc F]. apply Nat.eqb_eq in F. subst k. rewrite <- (T c Hc ch).
    destruct (existsb (String.eqb ch) (l_channels c)) eqn:X.
    + left. split; auto. apply existsb_exists in X as (x & Hx & X). apply String.eqb_eq in X. congruence.
    + right. split; auto. intros H. assert (existsb (String.eqb ch) (l_channels c) = true)
        by (apply existsb_exists; exists ch; split; auto; apply String.eqb_refl). congruence.
  - right. split; auto. intros H. apply tuned_connected, C in H. apply in_map_iff in H as (c & <- & Hc).
    assert (X := find_none _ _ F c Hc). cbn in X. rewrite Nat.eqb_refl in X. discriminate.
Qed.

Example C36_case_channels :
  snd (lruns [] [LOpen 1; LOpen 2; LMessage 1 (Some "A") None; LBroadcast "A" "x"; LMessage 2 (Some "A") None;
                 LMessage 1 None (Some "B"); LBroadcast "A" "y"; LMessage 1 (Some "B") (Some "A"); LBroadcast "A" "z";
                 LBroadcast "B" "b"; LLost 2; LBroadcast "A" "w"]) =
  [(1, "x"); (1, "y"); (2, "y"); (2, "z"); (1, "b")] /\
  tuned [LOpen 1; LOpen 2; LMessage 1 (Some "A") None; LBroadcast "A" "x"] 1 "A".
Proof.
  split; [vm_compute; auto|]. exists [LOpen 1; LOpen 2], None, [LBroadcast "A" "x"]. split; auto. split; [discriminate|].
  split; [exists [], [LOpen 2]; split; auto; intros e [<-|[]]; discriminate|].
  intros e [<-|[]]. split; discriminate.
Qed.

Print Assumptions C36_step.
Print Assumptions C36_received.
Print Assumptions C36_others.
Print Assumptions C36_published.
Print Assumptions C36_exceptions.
Print Assumptions C36_channels.
