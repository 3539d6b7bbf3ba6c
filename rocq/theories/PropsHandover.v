(** Properties C22 and C23: the handover node. *)

From Coq Require Import List ZArith String Bool Lia.
From Verif Require Import RingModel RingProofs SequenceModel SequenceSpec NodeModel NodeSpec NodeProofs HandoverProofs.
Import ListNotations.
Open Scope string_scope.
Open Scope Z_scope.

(** From HandoverProofs: [outs] are the reactions of a run from a fresh node and
    [state] the state after it; [reacts] is the reaction to one more input. *)
Arguments outs {M} out group h.
Arguments state {M} out group h.
Arguments reacts {M} out group h i.

(** * C22 *)

(** Numbers 1, 2, 3, ..., the configured identifier, the source recorded. *)
Theorem C22_gapless : forall M out group (h : list (hinput M)),
  let em := emitted (outs out group h) in
  map (fun e => fst (fst (fst e))) em = one_to (List.length em) /\
  Forall (fun e => match e with (n, o, s, x) => o = out /\ s = d_sid (h_doc x) end) em.
Proof.
  intros M out group h em. destruct (inv_holds M out group h) as [_ _ _ _ _ E N]. split; [exact N|].
  eapply Forall_impl; [|exact E]. intros [[[n o] s] x] (A & B & _). auto.
Qed.

(** Every emission is the reaction to the arrival of that very document. *)
Theorem C22_source : forall M out group (h : list (hinput M)) i n o s x,
  reacts out group h i = HEmit n o s x -> i = HDoc x.
Proof.
  intros M out group h i n o s x H.
  change (reacts out group h i = HEmit n o s x) in H. rewrite reacts_expected in H.
  destruct i as [y|m]; [|discriminate]. unfold expected in H.
  destruct (verdict _ _) as [[e|]|]; try discriminate. destruct (h_token y) as [t|]; [|discriminate].
  destruct (_ && _ && _); [|discriminate]. inversion H; auto.
Qed.

(** Messages are always passed on, under the output identifier, and change
    nothing. *)
Theorem C22_messages : forall M out group (h : list (hinput M)) m,
  reacts out group h (HMsg m) = HEmitMsg out m /\
  state out group (h ++ [HMsg m]) = state out group h.
Proof. intros. split; auto. rewrite state_snoc. auto. Qed.

(** * C23 *)

(** When a document is let in at all.  [docs]: the documents of its sequence that
    arrived before; [x0]: the first of them or the document itself. *)
Theorem C23_admission : forall M out group (h : list (hinput M)) x,
  let d := h_doc x in
  let docs := received (d_sid d) h in
  let x0 := hd d docs in
  let r := reacts out group h (HDoc x) in
  (r = HAttribute <-> clock_of (d_tb x0) (d_cm x0) = None) /\
  (r = HRaise EIncompatible <-> clock_of (d_tb x0) (d_cm x0) <> None /\ same_clock x0 d = false) /\
  (r = HRaise EAuthorsGroup <-> clock_of (d_tb x0) (d_cm x0) <> None /\ same_clock x0 d = true /\
     proper_group d = true /\ group_of (docs ++ [d]) <> d_agid d) /\
  (forall e, r = HRaise e -> e = EIncompatible \/ e = EAuthorsGroup).
Proof.
  intros M out group h x d docs x0 r.
  assert (E : r = expected M out group h (HDoc x)) by apply reacts_expected.
  unfold expected, verdict in E. fold d docs x0 in E.
  clearbody r. destruct (clock_of (d_tb x0) (d_cm x0)) as [c|].
  2:{ subst r. repeat apply conj; intros; try split; intuition congruence. }
  assert (Hnone : forall r' : hreaction M, r' = match h_token x with
             | Some t => if is_new M out group h d && ostr_eqb (d_agid d) group && wins M out group h x t
                         then HEmit (Z.of_nat (List.length (emitted (outs out group h))) + 1) out (d_sid d) x
                         else HIgnore
             | None => HIgnore end -> r' <> HAttribute /\ forall e, r' <> HRaise e).
  { intros r' ->. destruct (h_token x); [destruct (_ && _ && _)|]; split; intros; discriminate. }
  destruct (same_clock x0 d); cbn [negb] in E.
  2:{ subst r. repeat apply conj; intros; try split; intuition congruence. }
  destruct (proper_group d); cbn [andb] in E.
  2:{ apply Hnone in E as [E1 E2]. assert (E3 := E2 EIncompatible). assert (E4 := E2 EAuthorsGroup).
      repeat apply conj; intros; try split; try (exfalso; eapply E2; eassumption); intuition congruence. }
  destruct (ostr_eqb_spec (group_of (docs ++ [d])) (d_agid d)) as [Eg|Ng]; cbn [negb] in E.
  - apply Hnone in E as [E1 E2]. assert (E3 := E2 EIncompatible). assert (E4 := E2 EAuthorsGroup).
    repeat apply conj; intros; try split; try (exfalso; eapply E2; eassumption); intuition congruence.
  - subst r. repeat apply conj; intros; try split; intuition congruence.
Qed.

(** The rule, for a document that is let in: it is emitted exactly when it is new
    (C20, among the documents let in), is of the configured group, has a token,
    and nothing was emitted yet, or the token exceeds that of the last emitted
    document, or that one was of the same sequence. *)
Theorem C23_rule : forall M out group (h : list (hinput M)) x,
  let d := h_doc x in
  let r := reacts out group h (HDoc x) in
  let em := emitted (outs out group h) in
  let asked := let_in (combine h (outs out group h)) in
  (forall e, r <> HRaise e) -> r <> HAttribute ->
  (r = HIgnore \/ exists n, r = HEmit n out (d_sid d) x) /\
  ((exists n, r = HEmit n out (d_sid d) x) <->
   ~ In (d_num d) (newest (Some 100%nat) (accepted (d_sid d) (seen_trace asked))) /\
   d_agid d = group /\
   exists t, h_token x = Some t /\
     (em = [] \/
      exists n o s y c, last_of em = Some (n, o, s, y) /\ h_token y = Some c /\
        (c < t \/ s = d_sid d))).
Proof.
  intros M out group h x d r em asked H1 H2.
  assert (E : r = expected M out group h (HDoc x)) by apply reacts_expected.
  assert (Hem : Forall (fun e => match e with (n, o, s, x) => o = out /\ s = d_sid (h_doc x) /\
                         d_agid (h_doc x) = group /\ h_token x <> None end) em)
    by apply (iv_emitted M out group h (inv_holds M out group h)).
  unfold expected in E. fold d in E.
  destruct (verdict (received (d_sid d) h) d) as [[e|]|]; [exfalso; apply (H1 e); auto| |contradiction].
  destruct (h_token x) as [t|] eqn:Et.
  2:{ split; [auto|]. split; [intros (n & Hn); congruence|]. intros (_ & _ & t & Ht & _). discriminate. }
  assert (Hnew : is_new M out group h d = true <->
          ~ In (d_num d) (newest (Some 100%nat) (accepted (d_sid d) (seen_trace asked)))).
  { unfold is_new. rewrite negb_true_iff.
    change (let_in (trace M out group h)) with asked. rewrite <- existsb_Zeqb.
    destruct (existsb (Z.eqb (d_num d)) _); split; congruence || discriminate || auto. }
  assert (Hwin : wins M out group h x t = true <->
     (em = [] \/ exists n o s y c, last_of em = Some (n, o, s, y) /\ h_token y = Some c /\ (c < t \/ s = d_sid d))).
  { unfold wins. change (emitted (outs out group h)) with em.
    destruct (last_of em) as [[[[n o] s] y]|] eqn:El.
    - assert (Hin : In (n, o, s, y) em).
      { clear -El. unfold last_of in El. destruct em as [|a l] using rev_ind; [discriminate|].
        rewrite map_app in El. cbn [map] in El. rewrite last_last in El. inversion El. apply in_or_app. right. left. auto. }
      rewrite Forall_forall in Hem. specialize (Hem _ Hin). cbv beta iota in Hem.
      destruct (h_token y) as [c|] eqn:Ey; [|destruct Hem as (_ & _ & _ & Hem); congruence].
      rewrite orb_true_iff, Z.ltb_lt, String.eqb_eq. fold d. split.
      + intros Hc. right. exists n, o, s, y, c. auto.
      + intros [Hc|(n' & o' & s' & y' & c' & A & B & C)]; [rewrite Hc in El; discriminate|].
        inversion A; subst. rewrite Ey in B. inversion B; subst. auto.
    - split; auto. intros _. left. destruct em as [|a l] using rev_ind; auto.
      rewrite last_of_snoc in El. discriminate. }
  destruct (is_new M out group h d && ostr_eqb (d_agid d) group && wins M out group h x t) eqn:Eb.
  - split; [right; eauto|]. split; [|eauto]. intros _.
    apply andb_true_iff in Eb as [Eb Ew]. apply andb_true_iff in Eb as [En Eg].
    destruct (ostr_eqb_spec (d_agid d) group); [|discriminate]. split; [tauto|]. split; auto.
    exists t. split; auto. tauto.
  - split; [auto|]. split; [intros (n & Hn); congruence|].
    intros (A & B & t' & C & D). inversion C; subst t'.
    apply Hnew in A. apply Hwin in D. rewrite A, D, B, ostr_eqb_refl in Eb. discriminate.
Qed.

(** The selected sequence changes only on a strictly higher token: of two
    successive emissions from different sequences the second has the higher one. *)
Theorem C23_switch : forall M out group (h : list (hinput M)) l1 n1 o1 s1 x1 n2 o2 s2 x2 l2,
  emitted (outs out group h) = (l1 ++ (n1, o1, s1, x1) :: (n2, o2, s2, x2) :: l2)%list ->
  s1 <> s2 ->
  exists t1 t2, h_token x1 = Some t1 /\ h_token x2 = Some t2 /\ t1 < t2.
Proof.
  intros M out group h. induction h as [|i h IH] using rev_ind; intros l1 n1 o1 s1 x1 n2 o2 s2 x2 l2 H Hs.
  - destruct l1; discriminate.
  - rewrite outs_snoc, emitted_app in H.
    destruct (reacts out group h i) as [n o s x| | | |] eqn:Er; cbn [emitted] in H;
      try (rewrite app_nil_r in H; eapply IH; eauto).
    destruct l2 as [|e l2 _] using rev_ind.
    + replace (l1 ++ [(n1, o1, s1, x1); (n2, o2, s2, x2)])%list
        with ((l1 ++ [(n1, o1, s1, x1)]) ++ [(n2, o2, s2, x2)])%list in H by (rewrite <- app_assoc; auto).
      apply app_inj_tail in H as [Hem He]. inversion He; subst n o s x.
      assert (Hi := C22_source M out group h i _ _ _ _ Er). subst i.
      destruct (C23_rule M out group h x2) as [_ Hr].
      * intros e He2. change (reacts out group h (HDoc x2) = HRaise e) in He2. congruence.
      * intros He2. change (reacts out group h (HDoc x2) = HAttribute) in He2. congruence.
      * assert (Hs2 : s2 = d_sid (h_doc x2) /\ o2 = out).
        { rewrite reacts_expected in Er. unfold expected in Er.
          destruct (verdict _ _) as [[e|]|]; try discriminate. destruct (h_token x2) as [t|]; [|discriminate].
          destruct (_ && _ && _); [|discriminate]. inversion Er; auto. }
        destruct Hs2 as [-> ->].
        destruct Hr as [Hr _]. destruct Hr as (_ & _ & t & Ht & Hd).
        { exists n2. exact Er. }
        rewrite Hem in Hd. destruct Hd as [Hd|(n & o & s & y & c & A & B & C)]; [destruct l1; discriminate|].
        rewrite last_of_snoc in A. inversion A; subst. exists c, t. repeat split; auto.
        destruct C as [C|C]; [auto|congruence].
    + replace (l1 ++ (n1, o1, s1, x1) :: (n2, o2, s2, x2) :: l2 ++ [e])%list
        with ((l1 ++ (n1, o1, s1, x1) :: (n2, o2, s2, x2) :: l2) ++ [e])%list in H
        by (rewrite <- app_assoc; auto).
      apply app_inj_tail in H as [Hem _]. eapply IH; eauto.
Qed.

(** ** Cases *)

Definition hd_doc (sid : string) (num : Z) (g : option string) (tok : option Z) : hdoc :=
  mkHdoc (mkDoc num sid "media" None g num 0 None) tok.

(** The token of the selected sequence may fall, and then a token below the
    highest one seen takes over. *)
Theorem C23_token_may_fall : exists h : list (hinput unit),
  map (fun e => (fst (fst (fst e)), snd (fst e), h_token (snd e)))
      (emitted (outs "out" (Some "g") h)) =
  [(1, "a", Some 9); (2, "a", Some 1); (3, "b", Some 2)].
Proof.
  exists [HDoc (hd_doc "a" 1 (Some "g") (Some 9)); HDoc (hd_doc "a" 2 (Some "g") (Some 1));
          HDoc (hd_doc "b" 1 (Some "g") (Some 2))].
  reflexivity.
Qed.

(** A document turned away for its low token is remembered as seen: sent again
    when its token would do, it is ignored. *)
Theorem C23_turned_away : exists h : list (hinput unit),
  outs "out" (Some "g") h =
  [HEmit 1 "out" "a" (hd_doc "a" 1 (Some "g") (Some 5)); HIgnore;
   HEmit 2 "out" "a" (hd_doc "a" 2 (Some "g") (Some 3)); HIgnore] /\
  nth_error h 1 = nth_error h 3.
Proof.
  exists [HDoc (hd_doc "a" 1 (Some "g") (Some 5)); HDoc (hd_doc "b" 1 (Some "g") (Some 4));
          HDoc (hd_doc "a" 2 (Some "g") (Some 3)); HDoc (hd_doc "b" 1 (Some "g") (Some 4))].
  split; reflexivity.
Qed.

(** An empty authors group on the first document of a sequence keeps every later
    document of that sequence with a group out. *)
Theorem C23_empty_group : forall M out group g x y, g <> "" ->
  d_agid (h_doc x) = Some "" -> d_agid (h_doc y) = Some g -> d_sid (h_doc x) = d_sid (h_doc y) ->
  same_clock (h_doc x) (h_doc y) = true -> clock_of (d_tb (h_doc x)) (d_cm (h_doc x)) <> None ->
  reacts out group [HDoc (M := M) x] (HDoc y) = HRaise EAuthorsGroup.
Proof.
  intros M out group g x y Hg Hx Hy Hs Hc Hk.
  destruct (C23_admission M out group [HDoc x] y) as (_ & _ & A & _). apply A. cbn [received].
  rewrite Hs, String.eqb_refl. cbn [hd app group_of]. unfold proper_group. rewrite Hx, Hy.
  repeat split; auto; [|congruence]. destruct (String.eqb_spec g ""); [contradiction|auto].
Qed.

Example C23_case :
  let d := hd_doc in
  outs "out" (Some "g")
    [HDoc (d "a" 1 (Some "g") (Some 1)); HMsg "m"; HDoc (d "b" 1 (Some "g") (Some 1));
     HDoc (d "b" 2 (Some "g") (Some 2)); HDoc (d "b" 2 (Some "g") (Some 7)); HDoc (d "a" 2 (Some "g") (Some 2));
     HDoc (d "b" 3 (Some "g") None); HDoc (d "b" 4 (Some "other") (Some 9)); HDoc (d "c" 1 (Some "x") (Some 9));
     HDoc (d "b" 5 (Some "g") (Some 2))] =
  [HEmit 1 "out" "a" (d "a" 1 (Some "g") (Some 1)); HEmitMsg "out" "m"; HIgnore;
   HEmit 2 "out" "b" (d "b" 2 (Some "g") (Some 2)); HIgnore; HIgnore; HIgnore; HRaise EAuthorsGroup; HIgnore;
   HEmit 3 "out" "b" (d "b" 5 (Some "g") (Some 2))].
Proof. reflexivity. Qed.

(** Time base clock with clock mode gps. *)
Example C23_gps : forall tok,
  reacts "out" (Some "g") [] (HDoc (M := unit)
    (mkHdoc (mkDoc 1 "a" "clock" (Some "gps") (Some "g") 1 0 None) tok)) = HAttribute.
Proof. reflexivity. Qed.

Print Assumptions C22_gapless.
Print Assumptions C22_source.
Print Assumptions C22_messages.
Print Assumptions C23_admission.
Print Assumptions C23_rule.
Print Assumptions C23_switch.
Print Assumptions C23_token_may_fall.
Print Assumptions C23_turned_away.
Print Assumptions C23_empty_group.
