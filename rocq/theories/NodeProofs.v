(** Proofs about the nodes. *)

From Coq Require Import List ZArith String Bool Lia.
From Verif Require Import RingModel RingProofs SequenceModel SequenceSpec NodeModel NodeSpec.
Import ListNotations.
Open Scope string_scope.
Open Scope Z_scope.

(** ** Dictionaries and runs *)

Lemma dict_get_put : forall V (m : list (string * V)) k v k',
  dict_get (dict_put m k v) k' = if String.eqb k' k then Some v else dict_get m k'.
Proof.
  intros V m k v k'. induction m as [|[a w] r IH]; cbn [dict_put dict_get]; auto.
  destruct (String.eqb_spec k a) as [->|Hn]; cbn [dict_get].
  - destruct (String.eqb_spec k' a); auto.
  - rewrite IH. destruct (String.eqb_spec k' a) as [->|]; auto.
    destruct (String.eqb_spec a k); auto. congruence.
Qed.

Lemma run_app : forall S I O (step : S -> I -> S * O) l1 l2 s,
  run step s (l1 ++ l2) =
  let '(s1, o1) := run step s l1 in
  let '(s2, o2) := run step s1 l2 in (s2, (o1 ++ o2)%list).
Proof.
  intros S I O step. induction l1 as [|i l1 IH]; intros l2 s; cbn [run app].
  - destruct (run step s l2); auto.
  - destruct (step s i) as [s1 o]. rewrite IH.
    destruct (run step s1 l1) as [s2 o1]. destruct (run step s2 l2); auto.
Qed.

Lemma run_length : forall S I O (step : S -> I -> S * O) l s,
  List.length (snd (run step s l)) = List.length l.
Proof.
  intros S I O step. induction l as [|i l IH]; intros s; cbn [run]; auto.
  destruct (step s i) as [s1 o]. specialize (IH s1). destruct (run step s1 l). cbn in *. auto.
Qed.

Lemma run_snoc : forall S I O (step : S -> I -> S * O) l i s s1 os s2 o,
  run step s l = (s1, os) -> step s1 i = (s2, o) ->
  run step s (l ++ [i]) = (s2, (os ++ [o])%list).
Proof. intros. rewrite run_app, H. cbn [run]. rewrite H0. auto. Qed.

Lemma combine_app : forall A B (l1 l2 : list A) (m1 m2 : list B),
  List.length l1 = List.length m1 -> combine (l1 ++ l2) (m1 ++ m2) = (combine l1 m1 ++ combine l2 m2)%list.
Proof.
  induction l1 as [|a l1 IH]; intros l2 [|b m1] m2 H; cbn in *; try discriminate; auto.
  f_equal. auto.
Qed.

(** ** Seen documents *)

Lemma accepted_app : forall sid t1 t2, accepted sid (t1 ++ t2) = (accepted sid t1 ++ accepted sid t2)%list.
Proof.
  intros sid. induction t1 as [|[[s n] b] t1 IH]; intros t2; cbn [accepted app]; auto.
  destruct (b && String.eqb sid s); cbn [app]; rewrite IH; auto.
Qed.

Definition remembers (m : seen) (tr : list (query * bool)) : Prop :=
  forall sid, match dict_get m sid with
              | None => accepted sid tr = []
              | Some r => r = mkRing (Some 100%nat) false (newest (Some 100%nat) (accepted sid tr))
              end.

Definition memory (tr : list (query * bool)) (sid : string) : list Z :=
  newest (Some 100%nat) (accepted sid tr).

Lemma existsb_Zeqb : forall n l, existsb (Z.eqb n) l = true <-> In n l.
Proof.
  intros n l. rewrite existsb_exists. split.
  - intros (x & H & E). apply Z.eqb_eq in E. subst; auto.
  - intros H. exists n. split; auto. apply Z.eqb_refl.
Qed.

Lemma check_seen_spec : forall m tr sid num m' b, remembers m tr ->
  check_seen m sid num = (m', b) ->
  (b = true <-> ~ In num (memory tr sid)) /\ remembers m' (tr ++ [((sid, num), b)]).
Proof.
  intros m tr sid num m' b Hr H. unfold check_seen in H.
  assert (Hm : match dict_get m sid with Some r => existsb (Z.eqb num) (r_items r) | None => false end
               = existsb (Z.eqb num) (memory tr sid)).
  { specialize (Hr sid). unfold memory. destruct (dict_get m sid) as [r|].
    - rewrite Hr at 1. reflexivity.
    - rewrite Hr. reflexivity. }
  rewrite Hm in H. destruct (existsb (Z.eqb num) (memory tr sid)) eqn:Ee.
  - inversion H; subst. apply existsb_Zeqb in Ee. split; [split; [discriminate|tauto]|].
    intros s. specialize (Hr s). rewrite accepted_app. cbn [accepted andb]. rewrite app_nil_r. auto.
  - assert (Hn : ~ In num (memory tr sid)) by (intros Hi; apply existsb_Zeqb in Hi; congruence).
    assert (Hring : match dict_get m sid with Some r => r | None => ring_new [] (Some 100%nat) false end
                    = mkRing (Some 100%nat) false (memory tr sid)).
    { specialize (Hr sid). unfold memory. destruct (dict_get m sid) as [r|]; auto.
      rewrite Hr. reflexivity. }
    rewrite Hring in H. unfold ring_append in H. cbn [r_max r_callback r_items] in H.
    rewrite andb_false_r in H. inversion H; subst. split; [tauto|].
    intros s. rewrite dict_get_put, accepted_app. cbn [accepted andb].
    destruct (String.eqb_spec s sid) as [->|Hs].
    + f_equal. unfold memory. apply (newest_app Z 100).
    + rewrite app_nil_r. apply Hr.
Qed.

Lemma run_remembers : forall h, remembers (fst (run seen_step [] h)) (seen_trace h).
Proof.
  induction h as [|q h IH] using rev_ind.
  - intros sid. reflexivity.
  - unfold seen_trace in *. destruct (run seen_step [] h) as [m os] eqn:Er. cbn [fst snd] in IH.
    destruct (seen_step m q) as [m' b] eqn:Es.
    rewrite (run_snoc _ _ _ _ _ _ _ _ _ _ _ Er Es). cbn [fst snd].
    rewrite combine_app.
    + destruct q as [sid num]. unfold seen_step in Es. cbn [fst snd] in Es.
      apply (check_seen_spec _ _ _ _ _ _ IH Es).
    + assert (L := run_length _ _ _ seen_step h []). rewrite Er in L. auto.
Qed.

Lemma seen_trace_snoc : forall h q, exists b, seen_trace (h ++ [q]) = (seen_trace h ++ [(q, b)])%list /\
  b = snd (seen_step (fst (run seen_step [] h)) q).
Proof.
  intros h q. unfold seen_trace. destruct (run seen_step [] h) as [m os] eqn:Er. cbn [fst snd].
  destruct (seen_step m q) as [m' b] eqn:Es. exists b.
  rewrite (run_snoc _ _ _ _ _ _ _ _ _ _ _ Er Es). cbn [snd]. rewrite combine_app; auto.
  assert (L := run_length _ _ _ seen_step h []). rewrite Er in L. auto.
Qed.

Lemma seen_trace_prefix : forall h tr1 q b tr2, seen_trace h = (tr1 ++ (q, b) :: tr2)%list ->
  exists h1 h2, h = (h1 ++ q :: h2)%list /\ tr1 = seen_trace h1 /\
    b = snd (seen_step (fst (run seen_step [] h1)) q).
Proof.
  induction h as [|q0 h IH] using rev_ind; intros tr1 q b tr2 H.
  - destruct tr1; discriminate.
  - destruct (seen_trace_snoc h q0) as (b0 & E & Hb). rewrite E in H.
    destruct tr2 as [|x tr2] using rev_ind.
    + apply app_inj_tail in H as [H1 H2]. inversion H2; subst. exists h, []. auto.
    + rewrite app_comm_cons, app_assoc in H. apply app_inj_tail in H as [H1 H2].
      destruct (IH _ _ _ _ H1) as (h1 & h2 & -> & E1 & E2). exists h1, (h2 ++ [q0])%list.
      split; [rewrite <- app_assoc; reflexivity|]. auto.
Qed.

Lemma newest_In : forall A n (l : list A) x, In x (newest (Some n) l) -> In x l.
Proof.
  intros A n l x H. unfold newest in H. rewrite <- (firstn_skipn (List.length l - n) l).
  apply in_or_app; auto.
Qed.

Lemma newest_app_r : forall A n (l m : list A), (List.length m <= n)%nat ->
  forall x, In x m -> In x (newest (Some n) (l ++ m)).
Proof.
  intros A n l m H x Hx. unfold newest. rewrite skipn_app.
  apply in_or_app. right. rewrite app_length.
  replace (List.length l + List.length m - n - List.length l)%nat with 0%nat by lia. auto.
Qed.

Lemma NoDup_skipn : forall A n (l : list A), NoDup l -> NoDup (skipn n l).
Proof.
  intros A n. induction n as [|n IH]; intros [|a l] H; cbn [skipn]; auto.
  inversion H; auto.
Qed.

(** The remembered numbers are distinct. *)
Lemma memory_NoDup : forall h sid, NoDup (memory (seen_trace h) sid).
Proof.
  induction h as [|q h IH] using rev_ind; intros sid; [constructor|].
  destruct (seen_trace_snoc h q) as (b & E & Hb). rewrite E. unfold memory in *. rewrite accepted_app.
  destruct q as [s n]. cbn [accepted]. destruct b; cbn [andb]; [|rewrite app_nil_r; auto].
  destruct (String.eqb_spec sid s) as [->|Hn]; [|rewrite app_nil_r; auto].
  rewrite <- newest_app. unfold newest at 1.
  apply NoDup_skipn.
  change (seen_step ?m (s, n)) with (check_seen m s n) in Hb.
  destruct (check_seen (fst (run seen_step [] h)) s n) as [m' b'] eqn:Ec. cbn [snd] in Hb. subst b'.
  destruct (check_seen_spec _ _ _ _ _ _ (run_remembers h) Ec) as [[Hi _] _].
  specialize (Hi eq_refl). unfold memory in Hi. specialize (IH s).
  apply NoDup_rev in IH. rewrite <- (rev_involutive (newest _ _ ++ [n])).
  apply NoDup_rev. rewrite rev_app_distr. cbn [rev app]. constructor.
  - rewrite <- in_rev. auto.
  - exact IH.
Qed.

Lemma answer_spec : forall h tr1 sid num b tr2, seen_trace h = (tr1 ++ ((sid, num), b) :: tr2)%list ->
  (b = true <-> ~ In num (newest (Some 100%nat) (accepted sid tr1))).
Proof.
  intros h tr1 sid num b tr2 H.
  destruct (seen_trace_prefix _ _ _ _ _ H) as (h1 & h2 & -> & -> & Hb).
  change (seen_step ?m (sid, num)) with (check_seen m sid num) in Hb.
  destruct (check_seen (fst (run seen_step [] h1)) sid num) as [m' b'] eqn:Ec. cbn [snd] in Hb. subst b'.
  apply (check_seen_spec _ _ _ _ _ _ (run_remembers h1) Ec).
Qed.

Lemma accepted_asked : forall tr sid n, In n (accepted sid tr) -> In (sid, n) (map fst tr).
Proof.
  induction tr as [|[[s k] b] tr IH]; intros sid n H; cbn [accepted map fst] in *; [destruct H|].
  destruct b; cbn [andb] in H.
  - destruct (String.eqb_spec sid s) as [->|].
    + destruct H as [->|H]; [left; auto|right; auto].
    + right; auto.
  - right; auto.
Qed.

Lemma seen_trace_fst : forall h, map fst (seen_trace h) = h.
Proof.
  induction h as [|q h IH] using rev_ind; auto.
  destruct (seen_trace_snoc h q) as (b & E & _). rewrite E, map_app, IH. reflexivity.
Qed.

(** While a sequence has used at most 100 numbers, exactly those asked for are
    remembered. *)
Lemma all_remembered : forall h sid ns, (List.length ns <= 100)%nat ->
  (forall n, In (sid, n) h -> In n ns) ->
  NoDup (accepted sid (seen_trace h)) /\
  (forall n, In n (accepted sid (seen_trace h)) <-> In (sid, n) h) /\
  (List.length (accepted sid (seen_trace h)) <= 100)%nat.
Proof.
  intros h sid ns Hl. induction h as [|[s n] h IH] using rev_ind; intros Hin.
  - cbn. repeat split; try constructor; tauto || lia.
  - destruct IH as (N & Q & L); [intros; apply Hin, in_or_app; auto|].
    destruct (seen_trace_snoc h (s, n)) as (b & E & Hb). rewrite E, accepted_app. cbn [accepted].
    assert (A := answer_spec (h ++ [(s, n)]) (seen_trace h) s n b [] E).
    assert (G : NoDup (accepted sid (seen_trace h) ++ (if b && String.eqb sid s then [n] else []))%list /\
       (forall k, In k (accepted sid (seen_trace h) ++ (if b && String.eqb sid s then [n] else []))%list <->
                  In (sid, k) (h ++ [(s, n)]))).
    { destruct (String.eqb_spec sid s) as [->|Hs].
      - rewrite newest_short in A by auto. destruct b; cbn [andb].
        + destruct A as [A _]. specialize (A eq_refl). split.
          * rewrite <- (rev_involutive (_ ++ _)). apply NoDup_rev. rewrite rev_app_distr. cbn [rev app].
            constructor; [rewrite <- in_rev; auto|apply NoDup_rev; auto].
          * intros k. rewrite !in_app_iff, Q. cbn [In]. split; intros [H|H]; auto.
            -- destruct H as [->|[]]. auto.
            -- destruct H as [H|[]]. inversion H; auto.
        + rewrite app_nil_r. split; auto. intros k. rewrite in_app_iff, Q. cbn [In]. split; auto.
          intros [H|[H|[]]]; auto. inversion H; subst k.
          apply Q. destruct (in_dec Z.eq_dec n (accepted s (seen_trace h))); auto.
          destruct A as [_ A]. specialize (A n0). discriminate.
      - rewrite andb_false_r, app_nil_r. split; auto. intros k. rewrite in_app_iff, Q. cbn [In].
        split; auto. intros [H|[H|[]]]; auto. inversion H; congruence. }
    destruct G as [G1 G2].
    assert (E2 : (if b && String.eqb sid s then [n] else []) =
                 (if b && (sid =? s)%string then n :: accepted sid [] else accepted sid [])) by reflexivity.
    rewrite E2 in G1, G2. clear E2. split; [exact G1|]. split; [exact G2|].
    apply Nat.le_trans with (List.length ns); auto. apply NoDup_incl_length; auto.
    intros k Hk. apply Hin, G2, Hk.
Qed.

Lemma accepted_filter : forall sid tr,
  accepted sid (filter (fun e => of_sequence sid (fst e)) tr) = accepted sid tr.
Proof.
  intros sid. induction tr as [|[[s n] b] tr IH]; auto.
  cbn [filter fst of_sequence accepted]. unfold of_sequence at 1. cbn [fst].
  destruct (String.eqb_spec sid s) as [->|].
  - cbn [accepted]. rewrite String.eqb_refl, IH. auto.
  - rewrite andb_false_r. auto.
Qed.

Lemma filter_trace : forall sid h,
  filter (fun e => of_sequence sid (fst e)) (seen_trace h) = seen_trace (filter (of_sequence sid) h).
Proof.
  intros sid h. induction h as [|[s n] h IH] using rev_ind; auto.
  destruct (seen_trace_snoc h (s, n)) as (b & E & Hb). rewrite E, !filter_app, IH. cbn [filter fst].
  destruct (of_sequence sid (s, n)) eqn:Ho; [|rewrite !app_nil_r; auto].
  destruct (seen_trace_snoc (filter (of_sequence sid) h) (s, n)) as (b' & E' & Hb'). rewrite E'.
  f_equal. f_equal. f_equal.
  assert (A := answer_spec _ _ _ _ _ _ E). assert (A' := answer_spec _ _ _ _ _ _ E').
  unfold of_sequence in Ho. cbn [fst] in Ho. apply String.eqb_eq in Ho. subst s.
  rewrite <- IH, accepted_filter in A'. destruct b, b'; auto.
  - symmetry. apply A'. apply A. auto.
  - apply A. apply A'. auto.
Qed.

(** ** One input sequence *)

Lemma flat_map_snoc : forall A B (f : A -> list B) l x, flat_map f (l ++ [x]) = (flat_map f l ++ f x)%list.
Proof. intros. rewrite flat_map_app. cbn. rewrite app_nil_r. auto. Qed.

Lemma run_state_snoc : forall S I O (step : S -> I -> S * O) l i s,
  fst (run step s (l ++ [i])) = fst (step (fst (run step s l)) i).
Proof.
  intros. destruct (run step s l) as [s1 os] eqn:E. destruct (step s1 i) as [s2 o] eqn:E2.
  rewrite (run_snoc _ _ _ _ _ _ _ _ _ _ _ E E2). cbn [fst]. rewrite E2. auto.
Qed.

Lemma run_out_snoc : forall S I O (step : S -> I -> S * O) l i s,
  snd (run step s (l ++ [i])) = (snd (run step s l) ++ [snd (step (fst (run step s l)) i)])%list.
Proof.
  intros. destruct (run step s l) as [s1 os] eqn:E. destruct (step s1 i) as [s2 o] eqn:E2.
  rewrite (run_snoc _ _ _ _ _ _ _ _ _ _ _ E E2). cbn [fst snd]. rewrite E2. auto.
Qed.

(** The answer to the next query is a matter of the memory. *)
Lemma next_answer : forall h sid num m b,
  check_seen (fst (run seen_step [] h)) sid num = (m, b) ->
  m = fst (run seen_step [] (h ++ [(sid, num)])) /\
  (b = true <-> ~ In num (newest (Some 100%nat) (accepted sid (seen_trace h)))).
Proof.
  intros h sid num m b H. split.
  - rewrite run_state_snoc. change (seen_step ?x (sid, num)) with (check_seen x sid num). rewrite H. auto.
  - apply (check_seen_spec _ _ _ _ _ _ (run_remembers h) H).
Qed.

Lemma home_app : forall P M out (h : list (input P M)) i,
  home out (h ++ [i]) = match home out h with Some f => Some f | None => home out [i] end.
Proof.
  intros P M out h i. induction h as [|[d|m] h IH]; cbn [app]; auto.
  - cbn [home] in *. destruct (String.eqb (p_sid d) out); auto.
Qed.

Lemma asked_home : forall P M out (h : list (input P M)), home out h = None -> asked out h = [].
Proof.
  intros P M out h. induction h as [|[d|m] h IH]; cbn [home asked flat_map]; auto.
  destruct (String.eqb (p_sid d) out); [|discriminate]. auto.
Qed.

Lemma rewriting_state : forall P M out msgs (rewrite : P -> option P) (h : list (input P M)),
  fst (run (rewriting_step out msgs rewrite) t0 h) = mkT (fst (run seen_step [] (asked out h))) (home out h).
Proof.
  intros P M out msgs rewrite h. induction h as [|i h IH] using rev_ind; auto.
  rewrite run_state_snoc, IH. destruct i as [d|m].
  - rewrite home_app. unfold asked. rewrite flat_map_snoc. fold (asked out h).
    cbn [rewriting_step home t_seen t_first].
    destruct (String.eqb_spec (p_sid d) out) as [He|Hn].
    + rewrite app_nil_r. destruct (home out h); auto.
    + destruct (check_seen (fst (run seen_step [] (asked out h))) (p_sid d) (p_num d)) as [m b] eqn:Ec.
      destruct (next_answer _ _ _ _ _ Ec) as [Em Eb]. subst m.
      destruct (home out h) as [f|] eqn:Eh.
      * destruct b; cbn [negb limit_one]; [|auto].
        destruct (String.eqb f (p_sid d)); cbn [negb]; auto. destruct (rewrite (p_body d)); auto.
      * rewrite (asked_home _ _ _ _ Eh) in *. destruct Eb as [_ Eb]. rewrite Eb by (intros []).
        cbn [negb limit_one]. destruct (rewrite (p_body d)); auto.
  - rewrite home_app. unfold asked. rewrite flat_map_snoc, app_nil_r. cbn. destruct (home out h); auto.
Qed.

Definition reaction_to {P M} out msgs (rewrite : P -> option P) (h : list (input P M)) (i : input P M) :=
  snd (rewriting_step out msgs rewrite (fst (run (rewriting_step out msgs rewrite) t0 h)) i).

Lemma rewriting_reaction : forall P M out msgs (rewrite : P -> option P) (h : list (input P M)) d,
  let r := reaction_to out msgs rewrite h (IDoc d) in
  (p_sid d = out -> r = RaiseSequence) /\
  (p_sid d <> out -> recent out h d -> r = Ignore) /\
  (p_sid d <> out -> ~ recent out h d ->
     (exists f, home out h = Some f /\ f <> p_sid d) -> r = RaiseSequence) /\
  (p_sid d <> out -> ~ recent out h d ->
     home out (h ++ [IDoc d]) = Some (p_sid d) ->
     r = match rewrite (p_body d) with Some b => Emit (mkPdoc out (p_num d) b) | None => RaiseOther end).
Proof.
  intros P M out msgs rewrite h d r. subst r. unfold reaction_to. rewrite rewriting_state.
  cbn [rewriting_step t_seen t_first]. destruct (String.eqb_spec (p_sid d) out) as [He|Hn].
  - repeat split; auto; intros; contradiction.
  - destruct (check_seen (fst (run seen_step [] (asked out h))) (p_sid d) (p_num d)) as [m b] eqn:Ec.
    destruct (next_answer _ _ _ _ _ Ec) as [_ Eb]. fold (recent out h d) in Eb.
    split; [contradiction|]. split; [|split].
    + intros _ Hr. destruct b; auto. exfalso. destruct Eb as [Eb _]. apply Eb; auto.
    + intros _ Hr (f & Hf & Hd). apply Eb in Hr. subst b. cbn [negb]. rewrite Hf. cbn [limit_one].
      destruct (String.eqb_spec f (p_sid d)); [contradiction|]. reflexivity.
    + intros _ Hr Hh. apply Eb in Hr. subst b. cbn [negb]. rewrite home_app in Hh.
      destruct (home out h) as [f|]; cbn [limit_one].
      * inversion Hh; subst. rewrite String.eqb_refl. cbn [negb]. destruct (rewrite (p_body d)); auto.
      * cbn [negb]. destruct (rewrite (p_body d)); auto.
Qed.

Lemma sent_app : forall P M (a b : list (reaction P M)), sent (a ++ b) = (sent a ++ sent b)%list.
Proof. intros P M a b. induction a as [|[] a IH]; cbn [app sent]; auto; rewrite IH; auto. Qed.

Lemma accepted_asked_filter : forall P M out f (h : list (input P M)), f <> out ->
  accepted f (seen_trace (asked out (filter (at_home f) h))) = accepted f (seen_trace (asked out h)).
Proof.
  intros P M out f h Hf. rewrite <- (accepted_filter f (seen_trace (asked out h))), filter_trace.
  f_equal. f_equal. induction h as [|[d|m] h IH]; auto.
  cbn [filter at_home asked flat_map]. fold (asked out h). rewrite filter_app, <- IH.
  destruct (String.eqb_spec (p_sid d) f) as [He|Hn].
  - cbn [asked flat_map]. fold (asked out (filter (at_home f) h)).
    destruct (String.eqb_spec (p_sid d) out); [congruence|].
    cbn [filter]. unfold of_sequence. cbn [fst]. rewrite He, String.eqb_refl. auto.
  - destruct (String.eqb (p_sid d) out); auto. cbn [filter]. unfold of_sequence. cbn [fst].
    destruct (String.eqb_spec f (p_sid d)); [congruence|]. auto.
Qed.

Lemma home_filter : forall P M out f (h : list (input P M)), home out h = Some f ->
  home out (filter (at_home f) h) = Some f.
Proof.
  intros P M out f h. induction h as [|[d|m] h IH]; cbn [home filter at_home]; try discriminate; auto.
  destruct (String.eqb_spec (p_sid d) out) as [He|Hn].
  - intros H. destruct (String.eqb_spec (p_sid d) f) as [E|E]; auto.
    cbn [home]. rewrite He, String.eqb_refl. auto.
  - intros H. inversion H; subst. rewrite String.eqb_refl. cbn [home].
    destruct (String.eqb_spec (p_sid d) out); congruence.
Qed.

Lemma home_not_out : forall P M out f (h : list (input P M)), home out h = Some f -> f <> out.
Proof.
  intros P M out f h. induction h as [|[d|m] h IH]; cbn [home]; try discriminate; auto.
  destruct (String.eqb_spec (p_sid d) out); auto. intros H. inversion H; subst. auto.
Qed.

(** What a reaction to a document sends. *)
Lemma rewriting_sends : forall P M out msgs (rewrite : P -> option P) (h : list (input P M)) d f,
  home out (h ++ [IDoc d]) = Some f ->
  sent [reaction_to out msgs rewrite h (IDoc d)] =
  if String.eqb (p_sid d) f
  then match check_seen (fst (run seen_step [] (asked out h))) (p_sid d) (p_num d), rewrite (p_body d) with
       | (_, true), Some b => [Emit (mkPdoc out (p_num d) b)]
       | _, _ => []
       end
  else [].
Proof.
  intros P M out msgs rewrite h d f H. assert (Hf := home_not_out _ _ _ _ _ H).
  unfold reaction_to. rewrite rewriting_state.
  cbn [rewriting_step t_seen t_first]. rewrite home_app in H. cbn [home] in H.
  destruct (String.eqb_spec (p_sid d) f) as [->|Hd].
  - destruct (String.eqb_spec f out); [contradiction|].
    destruct (check_seen (fst (run seen_step [] (asked out h))) f (p_num d)) as [m []]; cbn [negb]; auto.
    destruct (home out h) as [g|]; cbn [limit_one].
    + inversion H; subst. rewrite String.eqb_refl. cbn [negb]. destruct (rewrite (p_body d)); auto.
    + cbn [negb]. destruct (rewrite (p_body d)); auto.
  - destruct (String.eqb_spec (p_sid d) out); auto.
    destruct (check_seen (fst (run seen_step [] (asked out h))) (p_sid d) (p_num d)) as [m []]; cbn [negb]; auto.
    destruct (home out h) as [g|]; cbn [limit_one]; [|congruence].
    inversion H; subst. destruct (String.eqb_spec f (p_sid d)); [congruence|]. auto.
Qed.

Lemma home_none_docs : forall P M out (h : list (input P M)), home out h = None ->
  forall d, In (IDoc d) h -> p_sid d = out.
Proof.
  intros P M out h. induction h as [|[d|m] h IH]; cbn [home]; intros H x Hx; [destruct Hx| |].
  - destruct (String.eqb_spec (p_sid d) out); [|discriminate]. destruct Hx as [E|Hx]; auto. inversion E; congruence.
  - destruct Hx as [E|Hx]; [discriminate|auto].
Qed.

Lemma foreign_harmless : forall P M out msgs (rewrite : P -> option P) (h : list (input P M)) f,
  home out h = Some f ->
  sent (snd (run (rewriting_step out msgs rewrite) t0 h)) =
  sent (snd (run (rewriting_step out msgs rewrite) t0 (filter (at_home f) h))).
Proof.
  intros P M out msgs rewrite h f. 
  enough (G : forall h : list (input P M), (home out h = Some f \/ (home out h = None /\ f <> out)) ->
    sent (snd (run (rewriting_step out msgs rewrite) t0 h)) =
    sent (snd (run (rewriting_step out msgs rewrite) t0 (filter (at_home f) h)))) by (intros H; apply G; auto).
  clear h. induction h as [|i h IH] using rev_ind; intros H; auto.
  assert (Hfo : f <> out) by (destruct H as [H|[_ H]]; auto; apply (home_not_out _ _ _ _ _ H)).
  assert (Hh : home out h = Some f \/ (home out h = None /\ f <> out)).
  { rewrite home_app in H. destruct (home out h) as [g|]; auto. }
  specialize (IH Hh). rewrite filter_app. rewrite run_out_snoc, sent_app, IH. cbn [filter].
  destruct i as [d|m].
  - fold (reaction_to out msgs rewrite h (IDoc d)). cbn [at_home].
    destruct H as [H|[H _]].
    + rewrite (rewriting_sends _ _ _ _ _ _ _ _ H).
      destruct (String.eqb_spec (p_sid d) f) as [He|Hd]; [|rewrite !app_nil_r; auto].
      rewrite run_out_snoc, sent_app. f_equal.
      fold (reaction_to out msgs rewrite (filter (at_home f) h) (IDoc d)).
      assert (H' : home out (filter (at_home f) h ++ [IDoc d]) = Some f).
      { apply home_filter in H. rewrite filter_app in H. cbn [filter at_home] in H.
        rewrite He, String.eqb_refl in H. auto. }
      rewrite (rewriting_sends _ _ _ _ _ _ _ _ H'), He, String.eqb_refl.
      destruct (check_seen (fst (run seen_step [] (asked out h))) f (p_num d)) as [m1 b1] eqn:E1.
      destruct (check_seen (fst (run seen_step [] (asked out (filter (at_home f) h)))) f (p_num d)) as [m2 b2] eqn:E2.
      apply next_answer in E1 as [_ E1]. apply next_answer in E2 as [_ E2].
      rewrite accepted_asked_filter in E2 by auto.
      replace b2 with b1; auto. destruct b1, b2; auto; [symmetry|]; tauto.
    + assert (Hd : p_sid d = out) by (apply (home_none_docs _ _ _ _ H), in_or_app; right; left; auto).
      destruct (String.eqb_spec (p_sid d) f); [congruence|]. rewrite app_nil_r.
      assert (R := proj1 (rewriting_reaction P M out msgs rewrite h d) Hd). rewrite R. cbn [sent]. rewrite app_nil_r. auto.
  - cbn [at_home]. rewrite run_out_snoc, sent_app. reflexivity.
Qed.

(** What was just looked up is remembered. *)
Lemma just_seen : forall P M out (h : list (input P M)) d, p_sid d <> out -> recent out (h ++ [IDoc d]) d.
Proof.
  intros P M out h d Hd. unfold recent, asked. rewrite flat_map_snoc. fold (asked out h).
  destruct (String.eqb_spec (p_sid d) out); [contradiction|].
  destruct (seen_trace_snoc (asked out h) (p_sid d, p_num d)) as (b & E & _). rewrite E, accepted_app.
  assert (A := answer_spec _ _ _ _ _ _ E). cbn [accepted]. destruct b; cbn [andb].
  - rewrite String.eqb_refl. apply newest_app_r; [cbn; lia|left; auto].
  - rewrite app_nil_r.
    destruct (in_dec Z.eq_dec (p_num d)
      (newest (Some 100%nat) (accepted (p_sid d) (seen_trace (asked out h))))) as [H|H]; auto.
    apply A in H. discriminate.
Qed.

(** *** The encoder *)

Lemma encoding_state : forall P Q M (convert : P -> option Q) (h : list (input P M)),
  fst (run (encoding_step convert) None h) = first_of h.
Proof.
  intros P Q M convert h. induction h as [|i h IH] using rev_ind; auto.
  rewrite run_state_snoc, IH.
  assert (E : first_of (h ++ [i]) = match first_of h with Some f => Some f | None => first_of [i] end).
  { clear IH. induction h as [|[d|m] h IH]; cbn [app first_of]; auto. }
  rewrite E. destruct i as [d|m]; cbn [encoding_step first_of].
  - destruct (first_of h) as [f|]; cbn [limit_one].
    + destruct (String.eqb f (p_sid d)); cbn [negb]; auto. destruct (convert (p_body d)); auto.
    + cbn [negb]. destruct (convert (p_body d)); auto.
  - destruct (first_of h); auto.
Qed.

(** ** Distribution *)

Lemma distribute_state : forall h,
  fst (run distribute_step [] h) = fst (run seen_step [] (xdocs h)).
Proof.
  induction h as [|i h IH] using rev_ind; auto.
  rewrite run_state_snoc, IH. unfold xdocs. rewrite flat_map_snoc. fold (xdocs h).
  destruct i as [d|m]; cbn [distribute_step].
  - destruct (check_seen (fst (run seen_step [] (xdocs h))) (x_sid d) (x_num d)) as [m b] eqn:Ec.
    apply next_answer in Ec as [-> _]. reflexivity.
  - rewrite app_nil_r. reflexivity.
Qed.
