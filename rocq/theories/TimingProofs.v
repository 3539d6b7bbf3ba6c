(** Proofs about the timing pass. *)

From Coq Require Import List ZArith String Bool Lia.
From Verif Require Import TimingModel TimingSpec.
Import ListNotations.
Open Scope Z_scope.

(** ** Induction principles for the nested trees *)

Fixpoint elem_ind' (P : elem -> Prop) (HO : P Other)
    (HT : forall b e ks, Forall P ks -> P (Timed b e ks)) (t : elem) : P t :=
  match t with
  | Other => HO
  | Timed b e ks =>
      HT b e ks ((fix go l : Forall P l :=
        match l with
        | [] => Forall_nil P
        | k :: r => Forall_cons k (elem_ind' P HO HT k) (go r)
        end) ks)
  end.

Fixpoint ctree_ind' (P : ctree -> Prop) (HO : P COther)
    (HT : forall b e cb ce ks, Forall P ks -> P (CTimed b e cb ce ks))
    (t : ctree) : P t :=
  match t with
  | COther => HO
  | CTimed b e cb ce ks =>
      HT b e cb ce ks ((fix go l : Forall P l :=
        match l with
        | [] => Forall_nil P
        | k :: r => Forall_cons k (ctree_ind' P HO HT k) (go r)
        end) ks)
  end.

(** ** Small facts *)

Lemma delta_eff : forall a, delta a = eff a.
Proof.
  intros [x|]; cbn; auto.
  destruct (Z.eqb_spec (ta_us x) 0), (Z.eq_dec (ta_us x) 0); congruence.
Qed.

Lemma visit_Timed : forall avail b e kids c,
  visit avail (Timed b e kids) c =
  let '(c1, ce) := pre_calculate_end c (delta e) in
  let '(c2, cb) := pre_assign_begin avail c1 (delta b) in
  tbind (visit_all avail kids c2) (fun '(c3, kids') =>
  tbind (postprocess c3 (delta b)
           (match delta e with Some _ => true | None => false end)
           false cb ce kids') (fun '(c4, cb', ce') =>
  TOk (c4, CTimed b e cb' ce' kids'))).
Proof.
  intros. cbn [visit].
  destruct (pre_calculate_end c (delta e)) as [c1 ce].
  destruct (pre_assign_begin avail c1 (delta b)) as [c2 cb].
  f_equal.
  generalize c2. induction kids as [|k r IH]; intros; cbn [visit_all]; auto.
  destruct (visit avail k c0) as [[c' k']|]; cbn; auto.
  rewrite IH. reflexivity.
Qed.

Lemma zmin_list_spec : forall l x,
  In (zmin_list x l) (x :: l) /\ forall y, In y (x :: l) -> zmin_list x l <= y.
Proof.
  unfold zmin_list. induction l as [|a l IH]; intros x; cbn [fold_left].
  - split; [left; auto|]. intros y [->|[]]. lia.
  - destruct (IH (Z.min x a)) as [Hin Hle]. split.
    + destruct Hin as [E|Hin]; [|right; right; auto].
      destruct (Z.min_spec x a) as [[_ Em]|[_ Em]]; rewrite <- E, Em;
        [left|right; left]; auto.
    + intros y [E|[E|Hy]]; subst.
      * specialize (Hle _ (or_introl eq_refl)). lia.
      * specialize (Hle _ (or_introl eq_refl)). lia.
      * apply Hle. right; auto.
Qed.

Lemma zmax_list_spec : forall l x,
  In (zmax_list x l) (x :: l) /\ forall y, In y (x :: l) -> y <= zmax_list x l.
Proof.
  unfold zmax_list. induction l as [|a l IH]; intros x; cbn [fold_left].
  - split; [left; auto|]. intros y [->|[]]. lia.
  - destruct (IH (Z.max x a)) as [Hin Hle]. split.
    + destruct Hin as [E|Hin]; [|right; right; auto].
      destruct (Z.max_spec x a) as [[_ Em]|[_ Em]]; rewrite <- E, Em;
        [right; left|left]; auto.
    + intros y [E|[E|Hy]]; subst.
      * specialize (Hle _ (or_introl eq_refl)). lia.
      * specialize (Hle _ (or_introl eq_refl)). lia.
      * apply Hle. right; auto.
Qed.

Lemma good_children_in : forall ks cb ce,
  In (cb, ce) (good_children ks) <-> counted_in ks cb ce.
Proof.
  induction ks as [|k r IH]; intros cb ce; cbn [good_children].
  - split; [intros []|]. intros (k & [] & _).
  - destruct k as [b e cb0 ce0 ks0|].
    + destruct (badly_timed b e) eqn:Hb.
      * rewrite IH. split.
        -- intros (k & Hk & Hc). exists k. split; [right|]; auto.
        -- intros (k & [<-|Hk] & Hc).
           ++ destruct Hc as (b' & e' & ks' & E & Hb'). inversion E; subst. congruence.
           ++ exists k; auto.
      * cbn [In]. rewrite IH. split.
        -- intros [E|(k & Hk & Hc)].
           ++ inversion E; subst. exists (CTimed b e cb ce ks0).
              split; [left; auto|]. exists b, e, ks0; auto.
           ++ exists k. split; [right|]; auto.
        -- intros (k & [<-|Hk] & Hc).
           ++ destruct Hc as (b' & e' & ks' & E & Hb'). inversion E; subst. left; auto.
           ++ right. exists k; auto.
    + rewrite IH. split.
      * intros (k & Hk & Hc). exists k. split; [right|]; auto.
      * intros (k & [<-|Hk] & Hc).
        -- destruct Hc as (b' & e' & ks' & E & Hb'). discriminate.
        -- exists k; auto.
Qed.

Lemma all_some_none : forall l, all_some l = None <-> In None l.
Proof.
  induction l as [|[x|] l IH]; cbn.
  - split; [discriminate|intros []].
  - destruct (all_some l) eqn:E.
    + split; [discriminate|]. intros [H|H]; [discriminate|].
      apply IH in H. discriminate.
    + split; auto. intros _. right. apply IH; auto.
  - split; auto.
Qed.

Lemma all_some_some : forall l l', all_some l = Some l' -> l = map Some l'.
Proof.
  induction l as [|[x|] l IH]; cbn; intros l' H.
  - inversion H; auto.
  - destruct (all_some l) eqn:E; [|discriminate]. inversion H; subst. cbn.
    rewrite (IH l0); auto.
  - discriminate.
Qed.

Lemma up_end_rule : forall c ks,
  end_rule None (hd_error (c_end_stack c)) ks (up_end c (good_children ks)).
Proof.
  intros c ks. unfold up_end.
  destruct (good_children ks) as [|p r] eqn:Hg.
  - replace (match c_end_stack c with [] => None | top :: _ => Some top end)
      with (hd_error (c_end_stack c)) by (destruct (c_end_stack c); auto).
    apply end_leaf; auto. intros cb ce H. apply good_children_in in H.
    rewrite Hg in H. destruct H.
  - destruct (all_some (map snd (p :: r))) as [l|] eqn:Ha.
    + apply all_some_some in Ha. destruct l as [|x l]; [discriminate|].
      destruct (zmax_list_spec l x) as [Hin Hle].
      assert (Hm : In (Some (zmax_list x l)) (map snd (p :: r))).
      { rewrite Ha. apply in_map; auto. }
      apply in_map_iff in Hm. destruct Hm as ([cb ce] & Hce & Hpr). cbn in Hce. subst.
      apply (end_latest _ _ _ (zmax_list x l) cb); auto.
      * apply good_children_in. rewrite Hg; auto.
      * intros cb' ce' H. apply good_children_in in H. rewrite Hg in H.
        apply (in_map snd) in H. rewrite Ha in H. cbn [snd] in H.
        apply in_map_iff in H. destruct H as (m' & E & Hm'). exists m'. auto.
    + apply all_some_none in Ha. apply in_map_iff in Ha.
      destruct Ha as ([cb ce] & Hce & Hpr). cbn in Hce. subst.
      apply (end_endless _ _ _ cb); auto. apply good_children_in. rewrite Hg; auto.
Qed.

Lemma post_begin_rule : forall start ks,
  begin_rule start false ks (post_calculate_begin start (good_children ks)).
Proof.
  intros start ks. unfold post_calculate_begin.
  destruct (map fst (good_children ks)) as [|x l] eqn:Hg.
  - apply begin_leaf; auto. intros cb ce H. apply good_children_in in H.
    apply (in_map fst) in H. rewrite Hg in H. destruct H.
  - destruct (zmin_list_spec l x) as [Hin Hle].
    assert (Hm := Hin). rewrite <- Hg in Hm. apply in_map_iff in Hm.
    destruct Hm as ([cb ce] & Hcb & Hpr). cbn in Hcb. subst cb.
    replace (if start <? zmin_list x l then zmin_list x l else start)
      with (Z.max start (zmin_list x l)).
    + apply (begin_earliest _ _ _ _ ce); auto.
      * apply good_children_in; auto.
      * intros cb' ce' H. apply good_children_in in H. apply (in_map fst) in H.
        rewrite Hg in H. cbn [fst] in H. auto.
    + destruct (Z.ltb_spec start (zmin_list x l)); lia.
Qed.

Lemma start_at_eq : forall avail base,
  (if avail =? 0 then base else Z.max base avail) = start_at avail base.
Proof.
  intros. unfold start_at.
  destruct (Z.eqb_spec avail 0), (Z.eq_dec avail 0); congruence.
Qed.

(** ** The pass refines the semantics and restores its context *)

Definition visit_spec (avail : Z) (t : elem) : Prop :=
  forall c, exists ct, visit avail t c = TOk (c, ct) /\
    timed avail (c_syncbase c) (hd_error (c_end_stack c)) t ct.

Lemma visit_all_spec : forall avail ks, Forall (visit_spec avail) ks ->
  forall c, exists cks, visit_all avail ks c = TOk (c, cks) /\
    Forall2 (timed avail (c_syncbase c) (hd_error (c_end_stack c))) ks cks.
Proof.
  induction 1 as [|k r Hk Hr IH]; intros c.
  - exists []. split; [reflexivity|constructor].
  - destruct (Hk c) as (ck & Ek & Tk). destruct (IH c) as (cr & Er & Tr).
    exists (ck :: cr). cbn [visit_all]. rewrite Ek. cbn [tbind]. rewrite Er.
    split; [reflexivity|constructor; auto].
Qed.

Lemma visit_correct : forall avail t, visit_spec avail t.
Proof.
  intros avail. induction t as [|b e ks IH] using elem_ind'; intros [bs es s].
  - exists COther. split; [reflexivity|constructor].
  - rewrite visit_Timed, !delta_eff.
    unfold pre_calculate_end, pre_assign_begin, pre_assign_end.
    destruct (eff e) as [ev|] eqn:He; destruct (eff b) as [bv|] eqn:Hb;
      cbn [c_begin_stack c_end_stack c_syncbase];
      match goal with |- context [visit_all avail ks ?c] =>
        destruct (visit_all_spec avail ks IH c) as (cks & Ek & Tk) end;
      rewrite Ek; cbn [tbind]; unfold postprocess; cbn;
      rewrite ?Z.add_simpl_r;
      (eexists; split; [reflexivity|]);
      rewrite start_at_eq; cbn in Tk.
    + apply timed_elem.
      * unfold offset, tighten. rewrite He, Hb. destruct es; exact Tk.
      * unfold is_given, tighten. rewrite He.
        destruct es; cbn; apply end_own; auto.
      * unfold is_given, offset. rewrite Hb. apply begin_given; auto.
    + apply timed_elem.
      * unfold offset, tighten. rewrite He, Hb, Z.add_0_r. destruct es; exact Tk.
      * unfold is_given, tighten. rewrite He.
        destruct es; cbn; apply end_own; auto.
      * unfold is_given, offset. rewrite Hb, Z.add_0_r. apply post_begin_rule.
    + apply timed_elem.
      * unfold offset, tighten. rewrite He, Hb. exact Tk.
      * unfold is_given. rewrite He. cbn.
        exact (up_end_rule (mkCtx bs es s) cks).
      * unfold is_given, offset. rewrite Hb. apply begin_given; auto.
    + apply timed_elem.
      * unfold offset, tighten. rewrite He, Hb, Z.add_0_r. exact Tk.
      * unfold is_given. rewrite He. cbn.
        exact (up_end_rule (mkCtx bs es s) cks).
      * unfold is_given, offset. rewrite Hb, Z.add_0_r. apply post_begin_rule.
Qed.

Lemma visit_all_correct : forall avail ks c, exists cks,
  visit_all avail ks c = TOk (c, cks) /\
  Forall2 (timed avail (c_syncbase c) (hd_error (c_end_stack c))) ks cks.
Proof.
  intros. apply visit_all_spec. apply Forall_forall. intros. apply visit_correct.
Qed.

Lemma body_pre_end : forall avail x bs s,
  body_pre_calculate_end avail (mkCtx bs [] s) (eff (b_begin x)) (eff (b_end x)) (eff (b_dur x))
  = (mkCtx bs (match eff (b_dur x), eff (b_end x) with
               | None, None => []
               | None, Some e => [s + e]
               | _, _ => match body_end avail x with Some v => [v] | None => [] end
               end) s,
     match eff (b_dur x), eff (b_end x) with
     | None, Some e => Some (s + e)
     | _, _ => body_end avail x
     end).
Proof.
  intros. unfold body_pre_calculate_end, pre_calculate_end, pre_assign_end, body_end.
  destruct (eff (b_dur x)), (eff (b_end x)), (eff (b_begin x)); cbn; auto;
    try rewrite Z.add_comm; auto; f_equal; f_equal; f_equal; f_equal; lia.
Qed.

(** The body pass on a context without pending ends (the only kind it is run
    in: the root context of the document). *)
Lemma visit_body_correct : forall avail x, exists ct,
  visit_body avail x ctx0 = TOk (ctx0, ct) /\ timed_body avail x ct.
Proof.
  intros avail x. unfold visit_body. rewrite !delta_eff.
  unfold ctx0 at 1. rewrite body_pre_end.
  remember (match eff (b_dur x), eff (b_end x) with
            | None, Some e => Some (0 + e)
            | _, _ => body_end avail x
            end) as ce eqn:Hce.
  assert (Hce' : ce = body_end avail x).
  { subst ce. unfold body_end.
    destruct (eff (b_dur x)), (eff (b_end x)); auto. }
  assert (Hst : (match eff (b_dur x), eff (b_end x) with
               | None, None => []
               | None, Some e => [0 + e]
               | _, _ => match body_end avail x with Some v => [v] | None => [] end
               end) = match ce with Some v => [v] | None => [] end).
  { subst ce. unfold body_end.
    destruct (eff (b_dur x)), (eff (b_end x)); auto. }
  rewrite Hst. clear Hst.
  assert (Hpush : (match eff (b_end x), eff (b_dur x) with None, None => false | _, _ => true end)
                  = match ce with Some _ => true | None => false end).
  { rewrite Hce'. unfold body_end. destruct (eff (b_dur x)), (eff (b_end x)); auto. }
  rewrite Hpush. clear Hpush Hce.
  unfold pre_assign_begin.
  destruct (eff (b_begin x)) as [bv|] eqn:Hb; cbn [c_begin_stack c_end_stack c_syncbase];
    match goal with |- context [visit_all avail (b_kids x) ?c] =>
      destruct (visit_all_correct avail (b_kids x) c) as (cks & Ek & Tk) end;
    rewrite Ek; cbn [tbind]; unfold postprocess; rewrite start_at_eq;
    cbn [c_syncbase c_end_stack] in Tk;
    replace (hd_error (match ce with Some v => [v] | None => [] end))
      with ce in Tk by (destruct ce; auto);
    rewrite Hce' in *; clear ce Hce';
    fold (bad_body x).
  - assert (Ho : offset (b_begin x) = 0 + bv) by (unfold offset; rewrite Hb; auto).
    assert (Hg : is_given (b_begin x) = true) by (unfold is_given; rewrite Hb; auto).
    rewrite <- Ho in *.
    destruct (bad_body x) eqn:Hbad; destruct (body_end avail x) as [v|] eqn:Hbe; cbn;
      replace (offset (b_begin x) - bv) with 0 by lia;
      (eexists; split; [reflexivity|]).
    + apply timed_body_bad; auto; rewrite ?Hbe; auto. rewrite Hg. apply begin_given; auto.
    + apply timed_body_bad; auto; rewrite ?Hbe; auto. rewrite Hg. apply begin_given; auto.
    + apply timed_body_ok; auto; rewrite ?Hbe; auto; [apply end_own; auto|].
      rewrite Hg. apply begin_given; auto.
    + apply timed_body_ok; auto; rewrite ?Hbe; auto.
      * exact (up_end_rule ctx0 cks).
      * rewrite Hg. apply begin_given; auto.
  - assert (Ho : offset (b_begin x) = 0) by (unfold offset; rewrite Hb; auto).
    assert (Hg : is_given (b_begin x) = false) by (unfold is_given; rewrite Hb; auto).
    destruct (bad_body x) eqn:Hbad; destruct (body_end avail x) as [v|] eqn:Hbe; cbn;
      (eexists; split; [reflexivity|]).
    + apply timed_body_bad; auto; rewrite ?Hbe, ?Ho; auto. rewrite Hg. apply post_begin_rule.
    + apply timed_body_bad; auto; rewrite ?Hbe, ?Ho; auto. rewrite Hg. apply post_begin_rule.
    + apply timed_body_ok; auto; rewrite ?Hbe, ?Ho; auto; [apply end_own; auto|].
      rewrite Hg. apply post_begin_rule.
    + apply timed_body_ok; auto; rewrite ?Hbe, ?Ho; auto.
      * exact (up_end_rule ctx0 cks).
      * rewrite Hg. apply post_begin_rule.
Qed.

(** In any context at all the body pass succeeds and restores the context. *)
Lemma visit_body_restores : forall avail x c, exists ct,
  visit_body avail x c = TOk (c, ct).
Proof.
  intros avail x [bs es s]. unfold visit_body, body_pre_calculate_end,
    pre_calculate_end, pre_assign_end, pre_assign_begin.
  destruct (delta (b_dur x)) as [dv|], (delta (b_end x)) as [ev|],
    (delta (b_begin x)) as [bv|];
    cbn [c_begin_stack c_end_stack c_syncbase];
    match goal with |- context [visit_all avail (b_kids x) ?c] =>
      destruct (visit_all_correct avail (b_kids x) c) as (cks & Ek & _) end;
    rewrite Ek; cbn [tbind]; unfold postprocess; cbn;
    rewrite ?Z.add_simpl_r;
    destruct (badly_timed (b_begin x) (b_end x)); cbn; eexists; reflexivity.
Qed.

(** ** The semantics determines the times *)

Lemma end_rule_det : forall own lim ks e1 e2,
  end_rule own lim ks e1 -> end_rule own lim ks e2 -> e1 = e2.
Proof.
  intros own lim ks e1 e2 H1 H2.
  inversion H1 as [v1 E1|E1 N1|cb1 E1 C1|m1 cb1 E1 C1 L1]; subst;
  inversion H2 as [v2 E2|E2 N2|cb2 E2 C2|m2 cb2 E2 C2 L2]; subst;
    try congruence; try (exfalso; eapply N1; eassumption);
    try (exfalso; eapply N2; eassumption).
  - destruct (L2 _ _ C1) as (m' & E & _). discriminate.
  - destruct (L1 _ _ C2) as (m' & E & _). discriminate.
  - destruct (L1 _ _ C2) as (a & Ea & Ha). destruct (L2 _ _ C1) as (b & Eb & Hb).
    inversion Ea; inversion Eb; subst. f_equal. lia.
Qed.

Lemma begin_rule_det : forall start given ks b1 b2,
  begin_rule start given ks b1 -> begin_rule start given ks b2 -> b1 = b2.
Proof.
  intros start given ks b1 b2 H1 H2.
  inversion H1 as [E1|E1 N1|m1 ce1 E1 C1 L1]; subst;
  inversion H2 as [E2|E2 N2|m2 ce2 E2 C2 L2]; subst;
    try congruence; try (exfalso; eapply N1; eassumption);
    try (exfalso; eapply N2; eassumption).
  specialize (L1 _ _ C2). specialize (L2 _ _ C1). f_equal. lia.
Qed.

Lemma Forall2_det : forall (A B : Type) (R : A -> B -> Prop) ks,
  Forall (fun k => forall c1 c2, R k c1 -> R k c2 -> c1 = c2) ks ->
  forall l1 l2, Forall2 R ks l1 -> Forall2 R ks l2 -> l1 = l2.
Proof.
  induction 1 as [|k r Hk Hr IH]; intros l1 l2 H1 H2; inversion H1; subst; inversion H2; subst; auto.
  f_equal; auto.
Qed.

Lemma timed_det : forall avail t base lim c1 c2,
  timed avail base lim t c1 -> timed avail base lim t c2 -> c1 = c2.
Proof.
  intros avail. induction t as [|b e ks IH] using elem_ind'; intros base lim c1 c2 H1 H2.
  - inversion H1; inversion H2; subst; auto.
  - inversion H1 as [|? ? ? cb1 ce1 k1 F1 E1 B1]; subst.
    inversion H2 as [|? ? ? cb2 ce2 k2 F2 E2 B2]; subst.
    assert (k1 = k2).
    { eapply Forall2_det; [|exact F1|exact F2].
      eapply Forall_impl; [|exact IH]. intros k Hk d1 d2. apply Hk. }
    subst k2. rewrite (end_rule_det _ _ _ _ _ E1 E2), (begin_rule_det _ _ _ _ _ B1 B2). auto.
Qed.

Lemma timed_all_det : forall avail base lim ks k1 k2,
  Forall2 (timed avail base lim) ks k1 -> Forall2 (timed avail base lim) ks k2 -> k1 = k2.
Proof.
  intros avail base lim ks k1 k2 F1 F2. eapply Forall2_det; [|exact F1|exact F2].
  apply Forall_forall. intros. eapply timed_det; eassumption.
Qed.

Lemma timed_body_det : forall avail x c1 c2,
  timed_body avail x c1 -> timed_body avail x c2 -> c1 = c2.
Proof.
  intros avail x c1 c2 H1 H2.
  inversion H1 as [cb1 ce1 k1 N1 F1 E1 B1|cb1 k1 N1 F1 B1]; subst;
  inversion H2 as [cb2 ce2 k2 N2 F2 E2 B2|cb2 k2 N2 F2 B2]; subst; try congruence;
  assert (k1 = k2) by (eapply timed_all_det; eassumption); subst k2.
  - rewrite (end_rule_det _ _ _ _ _ E1 E2), (begin_rule_det _ _ _ _ _ B1 B2). auto.
  - rewrite (begin_rule_det _ _ _ _ _ B1 B2). auto.
Qed.

(** ** Limits (C13) *)

Lemma counted_sub : forall ks cb ce, counted_in ks cb ce ->
  exists b e cks, In (CTimed b e cb ce cks) ks.
Proof. intros ks cb ce (k & Hk & b & e & cks & -> & _). eauto. Qed.

Definition within (L : Z) (n : ctree) : Prop :=
  forall b e cb ce ks, n = CTimed b e cb ce ks -> exists v, ce = Some v /\ v <= L.

Lemma tighten_some : forall L base e, exists l, tighten (Some L) base e = Some l /\ l <= L.
Proof.
  intros. unfold tighten. destruct (eff e); eexists; (split; [reflexivity|lia]).
Qed.

Lemma Forall2_in_r : forall (A B : Type) (R : A -> B -> Prop) l1 l2 y,
  Forall2 R l1 l2 -> In y l2 -> exists x, In x l1 /\ R x y.
Proof.
  induction 1; intros Hin; [destruct Hin|]. destruct Hin as [<-|Hin].
  - eexists. split; [left; reflexivity|auto].
  - destruct (IHForall2 Hin) as (z & Hz & Hr). exists z. split; [right|]; auto.
Qed.

Lemma timed_within : forall avail t base L ct,
  timed avail base (Some L) t ct -> forall m, sub m ct -> within L m.
Proof.
  intros avail. induction t as [|b e ks IH] using elem_ind'; intros base L ct H.
  - inversion H; subst. intros m Hm. inversion Hm; subst. intros ? ? ? ? ? E; discriminate.
  - inversion H as [|? ? ? cb ce cks F E B]; subst.
    destruct (tighten_some L base e) as (l & Hl & HlL).
    assert (Hkids : forall k, In k cks -> forall m, sub m k -> within l m).
    { intros k Hk m Hm. destruct (Forall2_in_r _ _ _ _ _ _ F Hk) as (t & Ht & Tt).
      rewrite Hl in Tt. rewrite Forall_forall in IH. eapply IH; eassumption. }
    intros m Hm. inversion Hm as [|? ? ? ? ? k Hk Hmk]; subst.
    + intros b' e' cb' ce' ks' Eq. inversion Eq; subst; clear Eq.
      inversion E as [v Hv|Hn Hnc|cbx Hn Hc|mx cbx Hn Hc Hle]; subst.
      * destruct (is_given e'); [|discriminate]. rewrite Hl in Hv. inversion Hv; subst.
        eauto.
      * exists L. split; auto; lia.
      * destruct (counted_sub _ _ _ Hc) as (? & ? & ? & Hin).
        destruct (Hkids _ Hin _ (sub_refl _) _ _ _ _ _ eq_refl) as (v & Ev & _). discriminate.
      * destruct (counted_sub _ _ _ Hc) as (? & ? & ? & Hin).
        destruct (Hkids _ Hin _ (sub_refl _) _ _ _ _ _ eq_refl) as (v & Ev & Hv).
        inversion Ev; subst. exists v. split; auto; lia.
    + intros b' e' cb' ce' ks' Eq.
      destruct (Hkids _ Hk _ Hmk _ _ _ _ _ Eq) as (v & Ev & Hv). exists v. split; auto; lia.
Qed.

(** Where a subtree of a result comes from. *)
Lemma timed_sub : forall avail t base lim ct, timed avail base lim t ct ->
  forall n, sub n ct -> exists t' base' lim', timed avail base' lim' t' n.
Proof.
  intros avail. induction t as [|b e ks IH] using elem_ind'; intros base lim ct H n Hn.
  - inversion H; subst. inversion Hn; subst. eauto.
  - inversion Hn as [|? ? ? ? ? k Hk Hnk]; subst; [eauto|].
    inversion H as [|? ? ? cb' ce' cks F E B]; subst.
    destruct (Forall2_in_r _ _ _ _ _ _ F Hk) as (t & Ht & Tt).
    rewrite Forall_forall in IH. eapply IH; eassumption.
Qed.

Lemma timed_explicit_end : forall avail base lim t b e cb ce ks,
  timed avail base lim t (CTimed b e cb ce ks) -> eff e <> None ->
  exists v, ce = Some v /\
    forall m, sub m (CTimed b e cb ce ks) -> within v m.
Proof.
  intros avail base lim t b e cb ce ks H He.
  inversion H as [|? ? ks0 ? ? ? F E B]; subst.
  unfold is_given in E. destruct (eff e) as [ev|] eqn:Hev; [|congruence].
  inversion E as [v Hv|Hn Hnc|cbx Hn Hc|mx cbx Hn Hc Hle]; subst;
    try (unfold tighten in Hn; rewrite Hev in Hn;
         match type of Hn with context [match ?l with _ => _ end] => destruct l end;
         discriminate).
  exists v. split; auto. intros m Hm. inversion Hm as [|? ? ? ? ? k Hk Hmk]; subst.
  - intros ? ? ? ? ? Eq. inversion Eq; subst. exists v. split; auto; lia.
  - destruct (Forall2_in_r _ _ _ _ _ _ F Hk) as (t & Ht & Tt).
    rewrite Hv in Tt. eapply timed_within; eassumption.
Qed.

Lemma body_sub : forall avail x ct n, timed_body avail x ct -> sub n ct ->
  n = ct \/ exists t base lim, timed avail base lim t n.
Proof.
  intros avail x ct n H Hn.
  inversion Hn as [|? ? ? ? ? k Hk Hnk]; subst; auto. right.
  inversion H as [? ? ? N F E B|? ? N F B]; subst;
    destruct (Forall2_in_r _ _ _ _ _ _ F Hk) as (t & Ht & Tt);
    eapply timed_sub; eassumption.
Qed.

(** ** Lower bounds (C14) and nesting *)

Lemma begin_rule_ge : forall start g ks cb, begin_rule start g ks cb -> start <= cb.
Proof. intros start g ks cb H. inversion H; subst; lia. Qed.

Lemma offset_nn : forall a, nn a -> 0 <= offset a.
Proof.
  intros [x|] H; unfold offset, eff; cbn in *; [|lia].
  destruct (Z.eq_dec (ta_us x) 0); lia.
Qed.

Lemma start_at_mono : forall avail s s', s <= s' -> start_at avail s <= start_at avail s'.
Proof. intros. unfold start_at. destruct (Z.eq_dec avail 0); lia. Qed.

Lemma timed_begin_ge : forall avail t base lim ct, timed avail base lim t ct ->
  nn_elem t ->
  forall b e cb ce ks, sub (CTimed b e cb ce ks) ct -> start_at avail base <= cb.
Proof.
  intros avail. induction t as [|b e ks IH] using elem_ind';
    intros base lim ct H Hnn b' e' cb' ce' ks' Hs.
  - inversion H; subst. inversion Hs.
  - inversion H as [|? ? ? cb ce cks F E B]; subst.
    inversion Hnn as [|? ? ? Nb Ne Nk]; subst.
    assert (Ho := offset_nn _ Nb).
    inversion Hs as [|? ? ? ? ? k Hk Hsk]; subst.
    + apply begin_rule_ge in B.
      assert (start_at avail base <= start_at avail (base + offset b))
        by (apply start_at_mono; lia). lia.
    + destruct (Forall2_in_r _ _ _ _ _ _ F Hk) as (t & Ht & Tt).
      rewrite Forall_forall in IH, Nk.
      assert (start_at avail (base + offset b) <= cb') by (eapply IH; eauto).
      assert (start_at avail base <= start_at avail (base + offset b))
        by (apply start_at_mono; lia). lia.
Qed.

(** Without any assumption on the attribute values when the availability time
    is not zero. *)
Lemma timed_begin_avail : forall avail, avail <> 0 ->
  forall t base lim ct, timed avail base lim t ct ->
  forall b e cb ce ks, sub (CTimed b e cb ce ks) ct -> avail <= cb.
Proof.
  intros avail Ha t base lim ct H b e cb ce ks Hs.
  destruct (timed_sub _ _ _ _ _ H _ Hs) as (t' & base' & lim' & H').
  inversion H' as [|? ? ? ? ? ? F E B]; subst. apply begin_rule_ge in B.
  unfold start_at in B. destruct (Z.eq_dec avail 0); lia.
Qed.

(** [nested n]: the children an element counts lie inside its own interval. *)
Definition nested (n : ctree) : Prop :=
  forall b e cb ce ks, n = CTimed b e cb ce ks ->
  forall kcb kce, counted_in ks kcb kce ->
    cb <= kcb /\ (ce = None \/ exists v w, ce = Some v /\ kce = Some w /\ w <= v).

Lemma end_rule_nested : forall avail base lim0 own lim tks ks ce,
  Forall2 (timed avail base lim0) tks ks ->
  (own <> None -> lim0 = own) ->
  end_rule own lim ks ce ->
  forall kcb kce, counted_in ks kcb kce ->
  ce = None \/ exists v w, ce = Some v /\ kce = Some w /\ w <= v.
Proof.
  intros avail base lim0 own lim tks ks ce F Hl E kcb kce Hc.
  inversion E as [v Hv|Hn Hnc|cbx Hn Hcx|m cbx Hn Hcx Hle]; subst; auto.
  - right. rewrite Hl in F by discriminate.
    destruct Hc as (k & Hk & b & e & cks & -> & _).
    destruct (Forall2_in_r _ _ _ _ _ _ F Hk) as (t & Ht & Tt).
    destruct (timed_within _ _ _ _ _ Tt _ (sub_refl _) _ _ _ _ _ eq_refl) as (w & Ew & Hw).
    exists v, w. auto.
  - exfalso. eapply Hnc; eassumption.
  - right. destruct (Hle _ _ Hc) as (w & Ew & Hw). exists m, w. auto.
Qed.

Lemma begin_rule_nested : forall avail base lim0 g tks ks cb,
  Forall2 (timed avail base lim0) tks ks ->
  Forall nn_elem tks ->
  begin_rule (start_at avail base) g ks cb ->
  forall kcb kce, counted_in ks kcb kce -> cb <= kcb.
Proof.
  intros avail base lim0 g tks ks cb F N B kcb kce Hc.
  assert (Hs : start_at avail base <= kcb).
  { destruct Hc as (k & Hk & b & e & cks & -> & _).
    destruct (Forall2_in_r _ _ _ _ _ _ F Hk) as (t & Ht & Tt).
    rewrite Forall_forall in N.
    eapply timed_begin_ge; [exact Tt|auto|apply sub_refl]. }
  inversion B as [Hg|Hg Hn|m ce Hg Hm Hle]; subst; auto.
  specialize (Hle _ _ Hc). lia.
Qed.

Lemma tighten_given : forall lim base e,
  (if is_given e then tighten lim base e else None) <> None ->
  tighten lim base e = if is_given e then tighten lim base e else None.
Proof. intros. destruct (is_given e); congruence. Qed.

Lemma timed_nested : forall avail t base lim ct, timed avail base lim t ct ->
  nn_elem t -> forall n, sub n ct -> nested n.
Proof.
  intros avail. induction t as [|b e ks IH] using elem_ind'; intros base lim ct H Hnn n Hn.
  - inversion H; subst. inversion Hn; subst. intros ? ? ? ? ? Eq; discriminate.
  - inversion H as [|? ? ? cb ce cks F E B]; subst.
    inversion Hnn as [|? ? ? Nb Ne Nk]; subst.
    inversion Hn as [|? ? ? ? ? k Hk Hsk]; subst.
    + intros b' e' cb' ce' ks' Eq kcb kce Hc. inversion Eq; subst; clear Eq. split.
      * eapply begin_rule_nested; eassumption.
      * eapply end_rule_nested; [exact F| |exact E|exact Hc]. apply tighten_given.
    + destruct (Forall2_in_r _ _ _ _ _ _ F Hk) as (t & Ht & Tt).
      rewrite Forall_forall in IH, Nk. eapply IH; eauto.
Qed.

Lemma body_nested : forall avail x ct, 0 <= avail -> nn_body x ->
  timed_body avail x ct -> forall n, sub n ct -> nested n.
Proof.
  intros avail x ct Ha (Nb & Ne & Nd & Nk) H n Hn.
  assert (Hkid : forall cks, Forall2 (timed avail (offset (b_begin x)) (body_end avail x)) (b_kids x) cks ->
    forall k, In k cks -> sub n k -> nested n).
  { intros cks F k Hk Hs. destruct (Forall2_in_r _ _ _ _ _ _ F Hk) as (t & Ht & Tt).
    rewrite Forall_forall in Nk. eapply timed_nested; eauto. }
  assert (Ho := offset_nn _ Nb).
  inversion H as [cb ce cks N F E B|cb cks N F B]; subst.
  - inversion Hn as [|? ? ? ? ? k Hk Hsk]; subst; [|eauto].
    intros b' e' cb' ce' ks' Eq kcb kce Hc. inversion Eq; subst; clear Eq. split.
    + eapply begin_rule_nested; eassumption.
    + eapply end_rule_nested; [exact F| |exact E|exact Hc]. auto.
  - inversion Hn as [|? ? ? ? ? k Hk Hsk]; subst; [|eauto].
    intros b' e' cb' ce' ks' Eq kcb kce Hc. inversion Eq; subst; clear Eq. split; auto.
    assert (Hs : start_at avail (offset (b_begin x)) <= kcb).
    { destruct Hc as (k & Hk & b & e & ck & -> & _).
      destruct (Forall2_in_r _ _ _ _ _ _ F Hk) as (t & Ht & Tt).
      rewrite Forall_forall in Nk. eapply timed_begin_ge; [exact Tt|auto|apply sub_refl]. }
    assert (0 <= kcb) by (unfold start_at in Hs; destruct (Z.eq_dec avail 0); lia).
    inversion B as [Hg|Hg Hnc|m cex Hg Hm Hle]; subst; auto.
    specialize (Hle _ _ Hc). lia.
Qed.

(** ** Rules only look at the counted children *)

Lemma end_rule_ext : forall own lim ks ks' ce,
  (forall cb c, counted_in ks cb c <-> counted_in ks' cb c) ->
  end_rule own lim ks ce -> end_rule own lim ks' ce.
Proof.
  intros own lim ks ks' ce Hx E.
  inversion E as [v Hv|Hn Hnc|cbx Hn Hcx|m cbx Hn Hcx Hle]; subst.
  - apply end_own; auto.
  - apply end_leaf; auto. intros cb c Hc. apply Hx in Hc. eapply Hnc; eauto.
  - eapply end_endless; auto. apply Hx. eauto.
  - eapply end_latest; auto.
    + apply Hx. eauto.
    + intros cb' ce' Hc. apply Hx in Hc. eauto.
Qed.

Lemma begin_rule_ext : forall start g ks ks' cb,
  (forall cb c, counted_in ks cb c <-> counted_in ks' cb c) ->
  begin_rule start g ks cb -> begin_rule start g ks' cb.
Proof.
  intros start g ks ks' cb Hx B.
  inversion B as [Hg|Hg Hn|m ce Hg Hm Hle]; subst.
  - apply begin_given; auto.
  - apply begin_leaf; auto. intros c d Hc. apply Hx in Hc. eapply Hn; eauto.
  - eapply begin_earliest; auto.
    + apply Hx; eauto.
    + intros c d Hc. apply Hx in Hc. eauto.
Qed.

(** ** Zero attributes (C15) *)

Lemma eff_erase : forall a, eff (erase_attr a) = eff a.
Proof.
  intros [x|]; cbn; auto. destruct (Z.eqb_spec (ta_us x) 0) as [E|E]; cbn.
  - destruct (Z.eq_dec (ta_us x) 0); congruence.
  - reflexivity.
Qed.

Lemma badly_erase : forall b e, erase_safe b e ->
  badly_timed (erase_attr b) (erase_attr e) = badly_timed b e.
Proof.
  intros b e H. unfold erase_safe in H. destruct (badly_timed b e) eqn:Hb.
  - destruct (H eq_refl) as [-> ->]. auto.
  - destruct b as [x|], e as [y|]; cbn in *; auto;
      repeat match goal with |- context [if ?c then _ else _] => destruct c end; cbn; auto.
Qed.

(** Two children that look the same to their parent. *)
Definition alike (k k' : ctree) : Prop :=
  times k = times k' /\ is_bad_c k = is_bad_c k'.

Lemma alike_counted : forall ks ks', Forall2 alike ks ks' ->
  forall cb ce, counted_in ks cb ce -> counted_in ks' cb ce.
Proof.
  induction 1 as [|k k' r r' [Ht Hb] Hr IH]; intros cb ce (q & Hq & Hc).
  - destruct Hq.
  - destruct Hq as [->|Hq].
    + destruct Hc as (b & e & cks & -> & Hbad). destruct k' as [b' e' cb' ce' ks'|].
      * cbn in Ht, Hb. inversion Ht; subst.
        exists (CTimed b' e' cb' ce' ks'). split; [left; auto|].
        exists b', e', ks'. split; congruence.
      * discriminate.
    + destruct (IH cb ce) as (q' & Hq' & Hc'); [exists q; auto|].
      exists q'. split; [right|]; auto.
Qed.

Lemma alike_sym : forall ks ks', Forall2 alike ks ks' -> Forall2 alike ks' ks.
Proof. induction 1; constructor; auto. destruct H; split; congruence. Qed.

Lemma alike_times : forall ks ks', Forall2 alike ks ks' -> map times ks = map times ks'.
Proof. induction 1; cbn; auto. destruct H; congruence. Qed.

Lemma offset_erase : forall a, offset (erase_attr a) = offset a.
Proof. intros. unfold offset. rewrite eff_erase. auto. Qed.
Lemma given_erase : forall a, is_given (erase_attr a) = is_given a.
Proof. intros. unfold is_given. rewrite eff_erase. auto. Qed.
Lemma tighten_erase : forall l b a, tighten l b (erase_attr a) = tighten l b a.
Proof. intros. unfold tighten. rewrite eff_erase. auto. Qed.

Lemma erase_all : forall (R : elem -> ctree -> Prop) ks,
  Forall (fun k => zero_safe k -> forall ct, R k ct -> exists ct', R (erase k) ct' /\ alike ct ct') ks ->
  Forall zero_safe ks -> forall cks, Forall2 R ks cks ->
  exists cks', Forall2 R (map erase ks) cks' /\ Forall2 alike cks cks'.
Proof.
  induction 1 as [|k r Hk Hr IH]; intros Z cks F; inversion F; subst; cbn.
  - exists []. split; constructor.
  - inversion Z; subst. destruct (Hk H2 _ H1) as (c' & Rc & Ac).
    destruct (IH H4 _ H3) as (r' & Rr & Ar). exists (c' :: r'). split; constructor; auto.
Qed.

Lemma timed_erase : forall avail t base lim ct, zero_safe t ->
  timed avail base lim t ct ->
  exists ct', timed avail base lim (erase t) ct' /\ alike ct ct'.
Proof.
  intros avail. induction t as [|b e ks IH] using elem_ind'; intros base lim ct Hz H.
  - inversion H; subst. exists COther. split; [constructor|split; auto].
  - inversion H as [|? ? ? cb ce cks F E B]; subst.
    inversion Hz as [|? ? ? Hs Hk]; subst.
    destruct (erase_all (timed avail (base + offset b) (tighten lim base e)) ks)
      with (cks := cks) as (cks' & F' & A); auto.
    { eapply Forall_impl; [|exact IH]. cbn. intros k Hk' Zk c Tc. apply Hk'; auto. }
    exists (CTimed (erase_attr b) (erase_attr e) cb ce cks'). split.
    + cbn [erase]. apply timed_elem.
      * rewrite offset_erase, tighten_erase. exact F'.
      * rewrite given_erase, tighten_erase. eapply end_rule_ext; [|exact E].
        intros; split; apply alike_counted; auto. apply alike_sym; auto.
      * rewrite given_erase, offset_erase. eapply begin_rule_ext; [|exact B].
        intros; split; apply alike_counted; auto. apply alike_sym; auto.
    + split; cbn.
      * rewrite (alike_times _ _ A). auto.
      * rewrite badly_erase; auto.
Qed.

Lemma body_erase : forall avail x ct, zero_safe_body x -> timed_body avail x ct ->
  exists ct', timed_body avail (erase_body x) ct' /\ times ct = times ct'.
Proof.
  intros avail x ct [Hs Hk] H.
  assert (He : body_end avail (erase_body x) = body_end avail x).
  { unfold body_end, erase_body. cbn. rewrite !eff_erase. auto. }
  assert (Hbad : bad_body (erase_body x) = bad_body x).
  { unfold bad_body, erase_body. cbn. apply badly_erase; auto. }
  assert (Hall : forall cks,
    Forall2 (timed avail (offset (b_begin x)) (body_end avail x)) (b_kids x) cks ->
    exists cks', Forall2 (timed avail (offset (b_begin x)) (body_end avail x))
                   (map erase (b_kids x)) cks' /\ Forall2 alike cks cks').
  { intros cks F. apply erase_all; auto. apply Forall_forall.
    intros k _ Zk c Tc. apply timed_erase; auto. }
  inversion H as [cb ce cks N F E B|cb cks N F B]; subst;
    destruct (Hall _ F) as (cks' & F' & A).
  - exists (CTimed (b_begin (erase_body x)) (b_end (erase_body x)) cb ce cks'). split.
    + apply timed_body_ok; try congruence.
      * rewrite He. cbn. rewrite offset_erase. exact F'.
      * rewrite He. eapply end_rule_ext; [|exact E].
        intros; split; apply alike_counted; auto. apply alike_sym; auto.
      * cbn. rewrite offset_erase, given_erase. eapply begin_rule_ext; [|exact B].
        intros; split; apply alike_counted; auto. apply alike_sym; auto.
    + cbn. rewrite (alike_times _ _ A). auto.
  - exists (CTimed (b_begin (erase_body x)) (b_end (erase_body x)) cb None cks'). split.
    + apply timed_body_bad; try congruence.
      * rewrite He. cbn. rewrite offset_erase. exact F'.
      * cbn. rewrite given_erase. eapply begin_rule_ext; [|exact B].
        intros; split; apply alike_counted; auto. apply alike_sym; auto.
    + cbn. rewrite (alike_times _ _ A). auto.
Qed.

(** ** Badly timed elements are invisible *)

Lemma timed_flags : forall avail base lim t ct, timed avail base lim t ct ->
  is_bad t = is_bad_c ct.
Proof. intros. inversion H; subst; auto. Qed.

Lemma counted_prune : forall ks cb ce,
  counted_in (flat_map (fun k => if is_bad_c k then [] else [prune_c k]) ks) cb ce
  <-> counted_in ks cb ce.
Proof.
  intros ks cb ce. split.
  - intros (k & Hk & Hc). apply in_flat_map in Hk. destruct Hk as (q & Hq & Hk).
    destruct (is_bad_c q) eqn:Hb; [destruct Hk|]. destruct Hk as [<-|[]].
    destruct q as [b e cb' ce' cks|].
    + destruct Hc as (b' & e' & ks' & Eq & Hb'). cbn in Eq. inversion Eq; subst.
      exists (CTimed b' e' cb ce cks). split; auto. exists b', e', cks; auto.
    + destruct Hc as (b' & e' & ks' & Eq & Hb'). discriminate.
  - intros (k & Hk & b & e & cks & -> & Hb).
    exists (prune_c (CTimed b e cb ce cks)). split.
    + apply in_flat_map. eexists. split; [exact Hk|]. cbn [is_bad_c]. rewrite Hb. left; auto.
    + cbn. eexists _, _, _. split; [reflexivity|auto].
Qed.

Lemma prune_all : forall (R : elem -> ctree -> Prop) ks,
  (forall k ct, R k ct -> is_bad k = is_bad_c ct) ->
  Forall (fun k => forall ct, R k ct -> R (prune k) (prune_c ct)) ks ->
  forall cks, Forall2 R ks cks ->
  Forall2 R (flat_map (fun k => if is_bad k then [] else [prune k]) ks)
            (flat_map (fun k => if is_bad_c k then [] else [prune_c k]) cks).
Proof.
  intros R ks Hf H. induction H as [|k r Hk Hr IH]; intros cks F; inversion F; subst; cbn.
  - constructor.
  - rewrite <- (Hf _ _ H1). destruct (is_bad k); cbn; auto.
Qed.

Lemma timed_prune : forall avail t base lim ct,
  timed avail base lim t ct -> timed avail base lim (prune t) (prune_c ct).
Proof.
  intros avail. induction t as [|b e ks IH] using elem_ind'; intros base lim ct H.
  - inversion H; subst. constructor.
  - inversion H as [|? ? ? cb ce cks F E B]; subst. cbn [prune prune_c].
    apply timed_elem.
    + apply prune_all; auto.
      * intros. eapply timed_flags; eassumption.
      * eapply Forall_impl; [|exact IH]. intros k Hk c Tc. apply Hk; auto.
    + eapply end_rule_ext; [|exact E]. intros. symmetry. apply counted_prune.
    + eapply begin_rule_ext; [|exact B]. intros. symmetry. apply counted_prune.
Qed.

Lemma body_prune : forall avail x ct, timed_body avail x ct ->
  timed_body avail (prune_body x) (prune_c ct).
Proof.
  intros avail x ct H.
  assert (Hall : forall cks,
    Forall2 (timed avail (offset (b_begin x)) (body_end avail x)) (b_kids x) cks ->
    Forall2 (timed avail (offset (b_begin x)) (body_end avail x))
      (flat_map (fun k => if is_bad k then [] else [prune k]) (b_kids x))
      (flat_map (fun k => if is_bad_c k then [] else [prune_c k]) cks)).
  { intros cks F. apply prune_all; auto.
    - intros. eapply timed_flags; eassumption.
    - apply Forall_forall. intros. apply timed_prune; auto. }
  inversion H as [cb ce cks N F E B|cb cks N F B]; subst.
  - apply (timed_body_ok avail (prune_body x) cb ce); auto.
    + eapply end_rule_ext; [|exact E]. intros. symmetry. apply counted_prune.
    + eapply begin_rule_ext; [|exact B]. intros. symmetry. apply counted_prune.
  - apply (timed_body_bad avail (prune_body x) cb); auto.
    + eapply begin_rule_ext; [|exact B]. intros. symmetry. apply counted_prune.
Qed.

(** ** The document level *)

Lemma validate_body : forall avail x, exists ct cb ce ks,
  visit_body (match avail with Some a => a | None => 0 end) x ctx0 = TOk (ctx0, ct) /\
  timed_body (match avail with Some a => a | None => 0 end) x ct /\
  ct = CTimed (b_begin x) (b_end x) cb ce ks /\
  validate avail (Some x) = TOk (cb, ce, ct).
Proof.
  intros avail x.
  destruct (visit_body_correct (match avail with Some a => a | None => 0 end) x)
    as (ct & Ev & T).
  inversion T; subst; (eexists _, _, _, _; split; [exact Ev|split; [exact T|split; [reflexivity|]]]);
    unfold validate; rewrite Ev; reflexivity.
Qed.
