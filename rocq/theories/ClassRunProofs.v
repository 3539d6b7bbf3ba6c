(** Proofs about programs that define classes. *)

From Coq Require Import List Arith String Bool Lia.
From Verif Require Import ClassModel ClassSpec ClassProofs ClassCheckProofs.
Import ListNotations.
Open Scope string_scope.

(** Two worlds that differ in what has been collected only. *)
Definition alike (w w' : world) : Prop :=
  forall i, match get w i, get w' i with
            | Some k, Some k' => k_body k = k_body k' /\ k_mro k = k_mro k' /\ k_meta k = k_meta k' /\ k_hook k = k_hook k'
            | None, None => True
            | _, _ => False
            end.

Lemma alike_own w w' i n : alike w w' -> own w i n = own w' i n.
Proof.
  intro A. specialize (A i). unfold own. destruct (get w i), (get w' i); try contradiction; auto.
  destruct A as (-> & _). reflexivity.
Qed.

Lemma alike_attr w w' i n : alike w w' -> attr w i n = attr w' i n.
Proof.
  intro A. pose proof (A i) as B. unfold attr. destruct (get w i), (get w' i); try contradiction; auto.
  destruct B as (_ & -> & _). apply seen_ext. intros. apply alike_own; auto.
Qed.

Lemma alike_asks w w' b n f : alike w w' -> Asks w b n f -> Asks w' b n f.
Proof.
  intros A (k & G & M & O). pose proof (A b) as B. rewrite G in B.
  destruct (get w' b) as [k'|] eqn:G'; [|contradiction].
  exists k'. split; auto. destruct B as (_ & _ & B & _). split; [congruence|].
  rewrite <- (alike_own _ _ _ _ A). exact O.
Qed.

Lemma alike_hooked w w' b : alike w w' -> hooked w b -> hooked w' b.
Proof.
  intros A (k & G & M & H). pose proof (A b) as B. rewrite G in B.
  destruct (get w' b) as [k'|] eqn:G'; [|contradiction].
  exists k'. destruct B as (_ & _ & B1 & B2). split; auto. split; congruence.
Qed.

Lemma alike_sym w w' : alike w w' -> alike w' w.
Proof.
  intros A i. specialize (A i). destruct (get w i), (get w' i); try contradiction; auto. intuition.
Qed.

Lemma alike_finish w k abs sts : alike (w ++ [Some k])%list (w ++ [Some (finish k abs sts)])%list.
Proof.
  intro i. destruct (lt_eq_lt_dec i (List.length w)) as [[L| ->]|L].
  - rewrite !get_app by auto. destruct (get w i); auto.
  - rewrite !get_new. cbn. auto.
  - rewrite !get_none; auto; rewrite app_length; cbn; lia.
Qed.

(** ** A class statement *)

Definition the_draft (st : state) (s : statement) (order : list nat) (meta : bool) : world :=
  (classes st ++ [Some (draft s order (List.length (classes st)) meta)])%list.

Section Statement.
  Variable st : state.
  Variable s : statement.
  Variable bs : list class.
  Variable order : list nat.
  Hypothesis W : wf (classes st).
  Hypothesis HB : get_all (classes st) (s_bases s) = Some bs.
  Hypothesis HT : no_twice (s_bases s) = true.
  Hypothesis HL : linearise (map k_mro bs) (s_bases s) = Some order.
  Hypothesis HM : (s_metaclass s || existsb k_meta bs)%bool = true.
  Let i := List.length (classes st).
  Let k := draft s order i true.
  Let w := (classes st ++ [Some k])%list.
  Let HK : k_mro k = i :: order /\ k_bases k = s_bases s /\ k_body k = s_body s.
  Proof. repeat split. Defined.

  Definition all_well : Prop :=
    values_ok w i (s_bases s) /\
    (forall n f, body_get (s_body s) n <> Some (VStatic f)) /\
    (forall n o, asked w (s_bases s) n -> attr w i n = Some o -> given o) /\
    (any_hook w (s_bases s) -> snd (register (registry st) w i) = None).

  Lemma bases_sane : forall b, In b (s_bases s) -> exists kb, get w b = Some kb /\ (exists r, k_mro kb = b :: r) /\
       (k_meta kb = true -> k_statics kb = statics (k_body kb)).
  Proof.
    intros b Hb. destruct (base_known _ _ _ HB _ Hb) as (kb & E & _ & L). exists kb.
    split; [unfold w; rewrite get_app; auto|].
    destruct (W _ _ E) as ((r & R & _) & _ & _ & _ & _ & _ & A7 & _). split; eauto.
  Qed.

  Lemma asks_seen b n f : In b (s_bases s) -> Asks w b n f -> exists v, attr w i n = Some v.
  Proof.
    intros Hb (kb & G & M & O). destruct (base_known _ _ _ HB _ Hb) as (kb' & E & _ & L).
    eapply (attr_base_some st s bs order W HB HL k HK); eauto.
    unfold attr. rewrite E. destruct (W _ _ E) as ((r & -> & _) & _). cbn.
    unfold w in O. rewrite own_app in O by auto. rewrite O. reflexivity.
  Qed.

  Lemma define_abstract : abstracts w i (s_body s) bs <> [] ->
    define st s = (mkState (classes st ++ [Some (finish k (abstracts w i (s_body s) bs) (statics (s_body s)))])%list
                     (registry st), None).
  Proof.
    intro H. unfold define. rewrite HB, HT. cbn [negb]. rewrite HL, HM. fold i. fold k. fold w.
    destruct (abstracts w i (s_body s) bs); [congruence|reflexivity].
  Qed.

  Lemma register_wrong : any_hook w (s_bases s) -> snd (register (registry st) w i) <> None -> Wrong st s w.
  Proof.
    intros (b & Hb & Hh) N. pose proof (register_spec (registry st) w i) as S.
    destruct (snd (register (registry st) w i)) as [e|]; [|congruence].
    inversion S; subst.
    - eapply wrong_nothing; eauto.
    - eapply wrong_clash; eauto.
  Qed.

  Lemma define_concrete : abstracts w i (s_body s) bs = [] ->
    (snd (define st s) = None <-> all_well) /\
    (snd (define st s) = None -> exists reg,
       fst (define st s) = mkState (classes st ++ [Some (finish k [] [])])%list reg /\
       reg_state w i (registry st) (s_bases s) reg) /\
    (snd (define st s) <> None ->
       classes (fst (define st s)) = (classes st ++ [None])%list /\ Wrong st s w /\
       (registry (fst (define st s)) = registry st \/
        (any_hook w (s_bases s) /\ registry (fst (define st s)) = fst (register (registry st) w i)))).
  Proof.
    intro H. unfold define. rewrite HB, HT. cbn [negb]. rewrite HL, HM. fold i. fold k. fold w. rewrite H.
    assert (CB := check_bases_spec w i (registry st) (s_bases s) [] (registry st) [] []
                    bases_sane asks_seen).
    cbn [app] in CB.
    assert (P1 : forall n, In n [] <-> asked w [] n /\ exists v, attr w i n = Some v /\ given v).
    { intro n. split; [intros []|]. intros ((b & f & [] & _) & _). }
    assert (P2 : forall n, In n [] <-> asked w [] n /\ exists v, attr w i n = Some v /\ ~ given v).
    { intro n. split; [intros []|]. intros ((b & f & [] & _) & _). }
    assert (P3 : values_ok w i []).
    { intros pre b post n f v E. destruct pre; discriminate. }
    assert (P4 : reg_state w i (registry st) [] (registry st)).
    { right. split; auto. intros (b & [] & _). }
    specialize (CB P1 P2 P3 P4).
    destruct (check_bases w i (s_bases s) (registry st) [] []) as [reg [miss|e]].
    - destruct CB as (RS & OK & MI).
      assert (HH : any_hook w (s_bases s) -> snd (register (registry st) w i) = None).
      { intro X. destruct RS as [(_ & ->)|(N & _)]; [reflexivity|contradiction]. }
      destruct (statics (s_body s) ++ miss)%list as [|m ms] eqn:EM.
      + apply app_eq_nil in EM as (E1 & E2). cbn. repeat split; auto; try congruence.
        * intros n f E. assert (X : In n (statics (s_body s))) by (apply statics_in; eauto).
          rewrite E1 in X. contradiction.
        * intros ->. assert (X : In n miss).
          { apply MI. split; auto. exists VNotImplemented. split; auto. intros (Y & _). congruence. }
          rewrite E2 in X. contradiction.
        * intros f ->. assert (X : In n miss).
          { apply MI. split; auto. exists (VStatic f). split; auto. intros (_ & Y). eapply Y; eauto. }
          rewrite E2 in X. contradiction.
        * eauto.
      + cbn. split; [|split].
        * split; [congruence|]. intros (_ & A2 & A3 & _). exfalso.
          assert (X : In m (statics (s_body s) ++ miss)%list) by (rewrite EM; cbn; auto).
          apply in_app_or in X as [X|X].
          -- apply statics_in in X as (f & X). eapply A2; eauto.
          -- apply MI in X as (X & v & E & G). apply G. eauto.
        * congruence.
        * intros _. split; auto. split.
          { assert (X : In m (statics (s_body s) ++ miss)%list) by (rewrite EM; cbn; auto).
            apply in_app_or in X as [X|X].
            - apply statics_in in X as (f & X). eapply wrong_own; eauto.
            - apply MI in X as ((b & f & Hb & Hf) & v & E & G). eapply wrong_missing; eauto. }
          destruct RS as [(X & E)|(X & ->)]; auto.
          right. rewrite E. auto.
    - destruct CB as (RG & BAD). cbn. split; [|split].
      + split; [congruence|]. intros (A1 & _ & _ & A4). exfalso. destruct BAD as [B|(B & C)]; auto.
        destruct B as (pre & b & post & n & f & v & E & Hf & Hfirst & Ev & Gv & VA).
        rewrite (A1 pre b post n f v) in VA; auto. discriminate.
      + congruence.
      + intros _. split; auto. split; auto. destruct BAD as [B|(B & C)].
        * destruct B as (pre & b & post & n & f & v & E & Hf & Hfirst & Ev & Gv & VA).
          eapply wrong_value; eauto.
        * apply register_wrong; auto.
  Qed.

  Lemma all_well_wrong : all_well <-> ~ Wrong st s w.
  Proof.
    split.
    - intros (A1 & A2 & A3 & A4) X. destruct X as [n f E|b n f o Hb Hf E G|pre b post n f v E Hf Hfirst Ev Gv VA|b n Hb Hh Hn Hv|b ex pr Hb Hh E1 E2 CL].
      + eapply A2; eauto.
      + apply G. eapply A3; eauto. exists b, f. auto.
      + rewrite (A1 pre b post n f v) in VA; auto. discriminate.
      + assert (AH : any_hook w (s_bases s)) by (exists b; auto). specialize (A4 AH).
        pose proof (register_spec (registry st) w i) as S. rewrite A4 in S.
        inversion S; subst; destruct Hn as [-> | ->];
          match goal with [H : forall f, ?e <> VStatic f, A : attr w i ?n = Some ?e, V : forall v, attr w _ ?n = Some v -> _ |- _] =>
            destruct (V _ A) as (f & F); apply (H f F) end.
      + assert (AH : any_hook w (s_bases s)) by (exists b; auto). specialize (A4 AH).
        pose proof (register_spec (registry st) w i) as S. rewrite A4 in S. fold i in E1, E2.
        destruct CL as ((pr' & j & Hin & PE) & NO).
        inversion S; subst.
        * assert (ex0 = ex) by congruence. assert (pr0 = pr) by congruence. subst. eapply NO; eauto.
        * assert (ex0 = ex) by congruence. assert (pr0 = pr) by congruence. subst.
          match goal with [H : forall pr' j, In _ _ -> py_eq _ _ = false |- _] => rewrite (H _ _ Hin) in PE end.
          discriminate.
    - intro N. repeat split.
      + intros pre b post n f v E Hf Hfirst Ev Gv. destruct (validate f v) eqn:VA; auto. exfalso. apply N.
        eapply wrong_value; eauto.
      + intros n f E. apply N. eapply wrong_own; eauto.
      + intros ->. destruct H as (b & f & Hb & Hf). apply N.
        eapply wrong_missing; eauto. intros (Y & _). congruence.
      + intros f' ->. destruct H as (b & f & Hb & Hf). apply N.
        eapply wrong_missing; eauto. intros (_ & Y). eapply Y; eauto.
      + intro AH. destruct (snd (register (registry st) w i)) eqn:E; auto. exfalso. apply N. apply register_wrong; auto. congruence.
  Qed.

  (** The new class is as classes are. *)
  Lemma new_wf abs sts :
    sts = statics (s_body s) ->
    (forall n, In n abs -> attr w i n = Some VAbstract) ->
    (abs = [] -> all_well) ->
    wf_class (classes st ++ [Some (finish k abs sts)])%list i (finish k abs sts).
  Proof.
    intros HS HA HW.
    pose proof (alike_finish (classes st) k abs sts) as AL. fold w in AL.
    set (k' := finish k abs sts) in *. set (w' := (classes st ++ [Some k'])%list) in *.
    assert (OG : forall j kj, get (classes st) j = Some kj -> get w' j = Some kj).
    { intros j kj E. unfold w'. rewrite get_app; auto. eapply get_lt; eauto. }
    unfold wf_class. split; [|split; [|split; [|split; [|split; [|split; [|split; [|split; [|split]]]]]]]].
    - exists order. split; auto. eapply order_bases; eauto.
    - cbn. eapply order_nodup; eauto.
    - cbn. intros j [<-|Hj]; [split; auto; exists k'; apply get_new|].
      destruct (order_old st s bs order W HB HL _ Hj) as (L & kj & E). split; [unfold i; lia|]. exists kj. auto.
    - cbn. intros b Hb. destruct (base_known _ _ _ HB _ Hb) as (kb & E & _ & L). split; auto.
      exists kb. split; auto. constructor 2. eapply order_base; eauto.
    - cbn. intros j [<-|Hj] Hne; [congruence|].
      destruct (order_from st s bs order W HB HL _ Hj) as (b & kb & Hb & E & Hin). exists b, kb. auto.
    - reflexivity.
    - intros _. exact HS.
    - cbn. congruence.
    - intros _ n Hn. rewrite <- (alike_attr _ _ _ _ AL). apply HA. exact Hn.
    - cbn. intros _ E n f b Hf Hb. destruct (HW E) as (A1 & A2 & A3 & A4).
      apply (alike_asks _ _ _ _ _ (alike_sym _ _ AL)) in Hf.
      destruct Hb as [<-|Hb].
      + exfalso. destruct Hf as (k0 & G & _ & O).
        unfold w in O. rewrite (new_own st s order k HK) in O. eapply A2; eauto.
      + destruct (base_known _ _ _ HB _ Hb) as (kb & Ek & _ & L). split; [unfold i; lia|].
        destruct (asks_seen _ _ _ Hb Hf) as (v & Ev). exists v.
        rewrite <- (alike_attr _ _ _ _ AL). split; auto. apply (A3 n); auto. exists b, f. auto.
  Qed.
End Statement.

(** ** Reachable states *)

Lemma wf_refused w : wf w -> wf (w ++ [None])%list.
Proof.
  intros W i k G. rewrite get_refused in G. apply wf_class_app; auto.
Qed.

Lemma wf_new w k : wf w -> wf_class (w ++ [Some k])%list (List.length w) k -> wf (w ++ [Some k])%list.
Proof.
  intros W HK i k' G. destruct (lt_eq_lt_dec i (List.length w)) as [[L| ->]|L].
  - rewrite get_app in G by auto. apply wf_class_app; auto.
  - rewrite get_new in G. injection G as <-. exact HK.
  - rewrite get_none in G; [discriminate|]. rewrite app_length. cbn. lia.
Qed.

(** Everything that can become of a statement. *)
Inductive Outcome (st : state) (s : statement) : Prop :=
| out_unfit e : define st s = (mkState (classes st ++ [None])%list (registry st), Some e) ->
    (forall w, ~ drafted st s w) -> Outcome st s
| out_plain bs order : get_all (classes st) (s_bases s) = Some bs -> no_twice (s_bases s) = true ->
    linearise (map k_mro bs) (s_bases s) = Some order ->
    s_metaclass s = false -> (forall kb, In kb bs -> k_meta kb = false) ->
    define st s = (mkState (the_draft st s order false) (registry st), None) -> Outcome st s
| out_meta bs order : get_all (classes st) (s_bases s) = Some bs -> no_twice (s_bases s) = true ->
    linearise (map k_mro bs) (s_bases s) = Some order ->
    (s_metaclass s || existsb k_meta bs)%bool = true ->
    drafted st s (the_draft st s order true) -> Outcome st s.

Lemma outcome st s : Outcome st s.
Proof.
  destruct (get_all (classes st) (s_bases s)) as [bs|] eqn:HB.
  2: { eapply out_unfit; [unfold define; rewrite HB; reflexivity|]. intros w (bs & o & E & _). congruence. }
  destruct (no_twice (s_bases s)) eqn:HT.
  2: { eapply out_unfit; [unfold define; rewrite HB, HT; reflexivity|]. intros w (bs' & o & _ & E & _). congruence. }
  destruct (linearise (map k_mro bs) (s_bases s)) as [order|] eqn:HL.
  2: { eapply out_unfit; [unfold define; rewrite HB, HT; cbn [negb]; rewrite HL; reflexivity|].
       intros w (bs' & o & E1 & _ & E2 & _). congruence. }
  destruct (s_metaclass s || existsb k_meta bs)%bool eqn:HM.
  - eapply out_meta; eauto. exists bs, order. repeat split; auto.
  - eapply out_plain; eauto.
    + apply orb_false_iff in HM. apply HM.
    + apply orb_false_iff in HM as (_ & HM). intros kb Hk. destruct (k_meta kb) eqn:E; auto.
      rewrite (proj2 (existsb_exists _ _)) in HM; eauto.
    + unfold define. rewrite HB, HT. cbn [negb]. rewrite HL, HM. reflexivity.
Qed.

Lemma plain_wf st s bs order : wf (classes st) -> get_all (classes st) (s_bases s) = Some bs ->
  linearise (map k_mro bs) (s_bases s) = Some order ->
  s_metaclass s = false -> (forall kb, In kb bs -> k_meta kb = false) -> wf (the_draft st s order false).
Proof.
  intros W HB HL HM HN. unfold the_draft. set (i := List.length (classes st)).
  set (k := draft s order i false). apply wf_new; auto. fold i.
  assert (OG : forall j kj, get (classes st) j = Some kj -> get (classes st ++ [Some k])%list j = Some kj).
  { intros j kj E. rewrite get_app; auto. eapply get_lt; eauto. }
  unfold wf_class. split; [|split; [|split; [|split; [|split; [|split; [|split; [|split; [|split]]]]]]]].
  - exists order. split; auto. eapply order_bases; eauto.
  - cbn. eapply order_nodup; eauto.
  - cbn. intros j [<-|Hj]; [split; auto; exists k; apply get_new|].
    destruct (order_old st s bs order W HB HL _ Hj) as (L & kj & E). split; [unfold i; lia|]. exists kj. auto.
  - cbn. intros b Hb. destruct (base_known _ _ _ HB _ Hb) as (kb & E & _ & L). split; auto.
    exists kb. split; auto. constructor 2. eapply order_base; eauto.
  - cbn. intros j [<-|Hj] Hne; [congruence|].
    destruct (order_from st s bs order W HB HL _ Hj) as (b & kb & Hb & E & Hin). exists b, kb. auto.
  - cbn. intros b kb Hb E Hm. destruct (base_known _ _ _ HB _ Hb) as (kb' & E' & Hin & L).
    rewrite get_app in E by auto. rewrite E in E'. injection E' as <-. rewrite (HN _ Hin) in Hm. discriminate.
  - cbn. congruence.
  - cbn. auto.
  - cbn. congruence.
  - cbn. congruence.
Qed.

(** What a statement that has made its draft leads to. *)
Lemma define_meta_state st s bs order : wf (classes st) -> get_all (classes st) (s_bases s) = Some bs ->
  no_twice (s_bases s) = true -> linearise (map k_mro bs) (s_bases s) = Some order ->
  (s_metaclass s || existsb k_meta bs)%bool = true ->
  (snd (define st s) = None /\ exists abs sts reg,
     fst (define st s) = mkState (classes st ++ [Some (finish (draft s order (List.length (classes st)) true) abs sts)])%list reg /\
     abs = abstracts (the_draft st s order true) (List.length (classes st)) (s_body s) bs /\
     wf (classes (fst (define st s))) /\
     (abs <> [] -> reg = registry st) /\
     (abs = [] -> reg_state (the_draft st s order true) (List.length (classes st)) (registry st) (s_bases s) reg)) \/
  (snd (define st s) <> None /\ classes (fst (define st s)) = (classes st ++ [None])%list /\
   abstracts (the_draft st s order true) (List.length (classes st)) (s_body s) bs = [] /\
   Wrong st s (the_draft st s order true) /\
   (registry (fst (define st s)) = registry st \/
    (any_hook (the_draft st s order true) (s_bases s) /\
     registry (fst (define st s)) = fst (register (registry st) (the_draft st s order true) (List.length (classes st)))))).
Proof.
  intros W HB HT HL HM.
  set (i := List.length (classes st)) in *. set (w := the_draft st s order true) in *.
  destruct (abstracts w i (s_body s) bs) as [|a abs] eqn:EA.
  - destruct (define_concrete st s bs order W HB HT HL HM EA) as (D1 & D2 & D3).
    destruct (snd (define st s)) as [e|] eqn:SE.
    + right. destruct D3 as (E1 & E2 & E3); [congruence|].
      split; [congruence|]. split; [exact E1|]. split; [reflexivity|]. split; [exact E2|exact E3].
    + left. split; auto. destruct (D2 eq_refl) as (reg & E & RS).
      exists [], [], reg. rewrite E. cbn [classes].
      split; [reflexivity|]. split; [reflexivity|]. split; [|split; [congruence|intros _; exact RS]].
      apply wf_new; auto. apply (new_wf st s bs order W HB HL); auto.
      * destruct D1 as (D1 & _). destruct (D1 eq_refl) as (_ & A2 & _). symmetry. apply nil_iff. intros n Hn.
        apply statics_in in Hn as (f & Hn). eapply A2; eauto.
      * intros n [].
      * intros _. apply D1. reflexivity.
  - left. assert (NE : abstracts w i (s_body s) bs <> []) by congruence.
    rewrite (define_abstract st s bs order HB HT HL HM NE). cbn [fst snd]. split; auto.
    exists (abstracts w i (s_body s) bs), (statics (s_body s)), (registry st).
    split; [reflexivity|]. split; [auto|]. split; [|split; [auto|congruence]].
    cbn [classes]. apply wf_new; auto. apply (new_wf st s bs order W HB HL); auto.
    + intros n Hn. eapply abstracts_sound; eauto.
    + intro X. exfalso. exact (NE X).
Qed.

Lemma define_wf st s : wf (classes st) -> wf (classes (fst (define st s))).
Proof.
  intro W. destruct (outcome st s) as [e E _|bs order HB HT HL HM HN E|bs order HB HT HL HM _].
  - rewrite E. apply wf_refused; auto.
  - rewrite E. cbn [fst classes]. eapply plain_wf; eauto.
  - destruct (define_meta_state st s bs order W HB HT HL HM) as [(_ & abs & sts & reg & _ & _ & X & _)|(_ & E & _)]; auto.
    rewrite E. apply wf_refused; auto.
Qed.

Lemma step_wf st e : wf (classes st) -> wf (classes (step st e)).
Proof. destruct e; cbn; auto using define_wf. Qed.

Lemma run_snoc es e : run (es ++ [e]) = step (run es) e.
Proof. unfold run. rewrite fold_left_app. reflexivity. Qed.

Lemma run_wf es : wf (classes (run es)).
Proof.
  induction es as [|e es IH] using rev_ind.
  - intros i k G. unfold get in G. destruct i; discriminate.
  - rewrite run_snoc. apply step_wf; auto.
Qed.

(** ** The order of the ancestors *)

Lemma in_order_ancestor w : wf w -> forall i j k, get w i = Some k -> (In j (k_mro k) <-> Ancestor w i j).
Proof.
  intro W. induction i as [i IH] using lt_wf_ind. intros j k G.
  destruct (W _ _ G) as ((r & R & SB) & ND & A3 & A4 & A5 & _). split.
  - intro Hj. destruct (Nat.eq_dec j i) as [->|Hne]; [econstructor 1; eauto|].
    destruct (A5 _ Hj Hne) as (b & kb & Hb & E & Hin). destruct (A4 _ Hb) as (L & _).
    econstructor 2; eauto. apply (IH b L j kb E). exact Hin.
  - intro A. inversion A as [i' k' G' E1|i' k' b j' G' Hb Ab E1]; subst.
    + rewrite R. cbn; auto.
    + rewrite G in G'. injection G' as <-. destruct (A4 _ Hb) as (L & kb & E & S).
      eapply Sub_in; eauto. apply (IH b L j kb E). exact Ab.
Qed.

(** ** What is collected, in every reachable state *)

Definition collected (w : world) : Prop :=
  unmarked_plain w -> forall i k n, get w i = Some k -> k_meta k = true ->
    attr w i n = Some VAbstract -> In n (k_abstracts k).

Lemma unmarked_app w x : unmarked_plain (w ++ [x])%list -> unmarked_plain w.
Proof.
  intros U i k n G M. pose proof (get_lt _ _ _ G) as L.
  specialize (U i k n). rewrite get_app, own_app in U by auto. auto.
Qed.

Lemma collected_app w x : wf w -> collected w ->
  (forall k, x = Some k -> unmarked_plain (w ++ [x])%list -> k_meta k = true ->
     forall n, attr (w ++ [x])%list (List.length w) n = Some VAbstract -> In n (k_abstracts k)) ->
  collected (w ++ [x])%list.
Proof.
  intros W C N U i k n G M A. destruct (lt_eq_lt_dec i (List.length w)) as [[L| ->]|L].
  - rewrite get_app in G by auto. rewrite attr_app in A by auto.
    apply (C (unmarked_app _ _ U) i k n); auto.
  - destruct x as [k'|]; [rewrite get_new in G; injection G as ->; eauto|].
    rewrite get_refused, get_none in G by auto. discriminate.
  - rewrite get_none in G; [discriminate|]. rewrite app_length. cbn. lia.
Qed.

Lemma step_collected st e : wf (classes st) -> collected (classes st) -> collected (classes (step st e)).
Proof.
  intros W C. destruct e as [s|]; cbn [step]; auto.
  destruct (outcome st s) as [e E _|bs order HB HT HL HM HN E|bs order HB HT HL HM _].
  - rewrite E. cbn [fst classes]. apply collected_app; auto. congruence.
  - rewrite E. cbn [fst classes]. unfold the_draft. apply collected_app; auto.
    intros k X _ M. injection X as <-. discriminate.
  - destruct (define_meta_state st s bs order W HB HT HL HM) as [(_ & abs & sts & reg & E & EA & _)|(_ & E & _)].
    + rewrite E. cbn [classes]. apply collected_app; auto.
      intros k X U M n A. injection X as <-. cbn [finish k_abstracts]. rewrite EA.
      apply (abstracts_complete st s bs order W HB HL (draft s order (List.length (classes st)) true)).
      * repeat split.
      * eapply unmarked_app; eauto.
      * intros b kb Hb G Mb Ab. apply (C (unmarked_app _ _ U) b kb n); auto.
      * rewrite <- A. apply alike_attr. apply alike_finish.
    + rewrite E. apply collected_app; auto. congruence.
Qed.

Lemma run_collected es : collected (classes (run es)).
Proof.
  induction es as [|e es IH] using rev_ind.
  - intros _ i k n G. unfold get in G. destruct i; discriminate.
  - rewrite run_snoc. apply step_collected; auto. apply run_wf.
Qed.

(** ** The registry *)

Lemma Adapter_app w x i ex pr : wf w -> i < List.length w ->
  (Adapter (w ++ [x])%list i ex pr <-> Adapter w i ex pr).
Proof.
  intros W L. unfold Adapter. split; intros (k & b & G & M & A & Hb & H & E1 & E2); exists k, b.
  - rewrite get_app in G by auto. rewrite attr_app in E1, E2 by auto.
    destruct (W _ _ G) as (_ & _ & _ & A4 & _). destruct (A4 _ Hb) as (Lb & _).
    unfold hooked in *. rewrite get_app in H by lia. auto 10.
  - rewrite get_app, !attr_app by auto.
    destruct (W _ _ G) as (_ & _ & _ & A4 & _). destruct (A4 _ Hb) as (Lb & _).
    unfold hooked in *. rewrite get_app by lia. auto 10.
Qed.

Lemma Adapter_lt w i ex pr : Adapter w i ex pr -> i < List.length w.
Proof. intros (k & b & G & _). eapply get_lt; eauto. Qed.

Definition registry_ok (st : state) : Prop :=
  (forall ex pr i, In (ex, pr, i) (registry st) -> Adapter (classes st) i ex pr /\ any_free pr = true) /\
  (forall ex pr i, Adapter (classes st) i ex pr -> exists j, j <= i /\ In (ex, pr, j) (registry st)) /\
  (forall ex pr i j, In (ex, pr, i) (registry st) -> In (ex, pr, j) (registry st) -> i = j).

Lemma registry_ok_refused st r : wf (classes st) -> registry_ok st -> r = registry st ->
  registry_ok (mkState (classes st ++ [None])%list r).
Proof.
  intros W (R1 & R2 & R3) ->. split; [|split]; cbn [classes registry]; auto.
  - intros ex pr i H. destruct (R1 _ _ _ H) as (A & F). split; auto. apply Adapter_app; auto. eapply Adapter_lt; eauto.
  - intros ex pr i A. pose proof A as (k & b & G & _). rewrite get_refused in G. pose proof (get_lt _ _ _ G).
    apply (R2 ex pr i). apply (proj1 (Adapter_app (classes st) None i ex pr W H)). exact A.
Qed.

(** A class that is no adapter changes nothing. *)
Lemma registry_ok_other st k r : wf (classes st) -> registry_ok st -> r = registry st ->
  (forall ex pr, Adapter (classes st ++ [Some k])%list (List.length (classes st)) ex pr ->
     exists j, In (ex, pr, j) (registry st)) ->
  registry_ok (mkState (classes st ++ [Some k])%list r).
Proof.
  intros W (R1 & R2 & R3) -> N. split; [|split]; cbn [classes registry]; auto.
  - intros ex pr i H. destruct (R1 _ _ _ H) as (A & F). split; auto. apply Adapter_app; auto. eapply Adapter_lt; eauto.
  - intros ex pr i A. pose proof (Adapter_lt _ _ _ _ A) as L. rewrite app_length in L. cbn in L.
    destruct (Nat.eq_dec i (List.length (classes st))) as [->|Hne].
    + destruct (N _ _ A) as (j & Hj). exists j. split; auto.
      destruct (R1 _ _ _ Hj) as (B & _). apply Adapter_lt in B. lia.
    + apply (R2 ex pr i). apply (proj1 (Adapter_app (classes st) (Some k) i ex pr W ltac:(lia))). exact A.
Qed.

Lemma same_registry_dec (r r' : list (value * value * nat)) : {r = r'} + {r <> r'}.
Proof.
  assert (DI : forall a b : item, {a = b} + {a <> b}) by (decide equality; apply Nat.eq_dec).
  assert (DV : forall a b : value, {a = b} + {a <> b}).
  { decide equality; [decide equality|apply list_eq_dec; auto]. }
  apply list_eq_dec. decide equality; [apply Nat.eq_dec|decide equality].
Qed.

Lemma define_registry_ok st s : wf (classes st) -> registry_ok st -> calm_step st s ->
  registry_ok (fst (define st s)).
Proof.
  intros W RO CA. pose proof RO as (R1 & R2 & R3).
  destruct (outcome st s) as [e E _|bs order HB HT HL HM HN E|bs order HB HT HL HM _].
  - rewrite E. apply registry_ok_refused; auto.
  - rewrite E. cbn [fst]. unfold the_draft. apply registry_ok_other; auto.
    intros ex pr (k & b & G & M & _). rewrite get_new in G. injection G as <-. discriminate.
  - destruct (define_meta_state st s bs order W HB HT HL HM)
      as [(SN & abs & sts & reg & E & EA & WF' & N1 & N2)|(SN & E & _ & _ & RG)].
    + rewrite E in *. cbn [classes registry] in *.
      set (k := draft s order (List.length (classes st)) true) in *.
      set (i := List.length (classes st)) in *.
      pose proof (alike_finish (classes st) k abs sts) as AL.
      assert (HKS : forall b, In b (s_bases s) -> hooked (classes st ++ [Some (finish k abs sts)])%list b ->
                 hooked (the_draft st s order true) b).
      { intros b _ H. eapply alike_hooked; [|exact H]. apply alike_sym. exact AL. }
      destruct abs as [|a abs].
      * specialize (N2 eq_refl). destruct N2 as [(AH & RE)|(AH & ->)].
        -- pose proof (register_spec (registry st) (the_draft st s order true) i) as RS. fold i in RE. rewrite RE in RS. cbn in RS.
           assert (AT : forall n, attr (classes st ++ [Some (finish k [] sts)])%list i n = attr (the_draft st s order true) i n).
           { intro n. symmetry. apply alike_attr. exact AL. }
           inversion RS as [| |ex pr j E1 E2 F1 F2 Hin|ex pr E1 E2 F1 F2 NO].
           ++ apply registry_ok_other; auto. fold i.
              intros ex' pr' (k' & b & G & M & A & Hb & Hk & E1' & E2'). exists j. rewrite AT in E1', E2'. congruence.
           ++ subst reg.
              assert (NEW : any_free pr = true).
              { destruct CA as (_ & CA).
                - rewrite E. cbn. intro X. apply (f_equal (@List.length _)) in X. rewrite app_length in X. cbn in X. lia.
                - destruct (CA ex pr i) as [H|H]; auto.
                  + rewrite E. cbn. apply in_or_app. right. cbn; auto.
                  + destruct (R1 _ _ _ H) as (A & _). apply Adapter_lt in A. unfold i in A. lia. }
              assert (NA : Adapter (classes st ++ [Some (finish k [] sts)])%list i ex pr).
              { destruct AH as (b & Hb & Hh). exists (finish k [] sts), b. split; [apply get_new|].
                split; [reflexivity|]. split; [reflexivity|]. split; [exact Hb|].
                split; [eapply alike_hooked; [exact AL|exact Hh]|]. rewrite !AT. auto. }
              split; [|split]; cbn [classes registry].
              ** intros ex' pr' j H. apply in_app_or in H as [H|[H|[]]].
                 --- destruct (R1 _ _ _ H) as (A & F). split; auto. apply Adapter_app; auto. eapply Adapter_lt; eauto.
                 --- injection H as <- <- <-. auto.
              ** intros ex' pr' j A. pose proof (Adapter_lt _ _ _ _ A) as L. rewrite app_length in L. cbn in L.
                 destruct (Nat.eq_dec j i) as [->|Hne].
                 --- exists i. split; auto. apply in_or_app. right. cbn. left.
                     destruct A as (k' & b & _ & _ & _ & _ & _ & E1' & E2'). rewrite AT in E1', E2'. congruence.
                 --- apply (proj1 (Adapter_app (classes st) _ j ex' pr' W ltac:(unfold i in Hne; lia))) in A.
                     destruct (R2 _ _ _ A) as (j' & Hle & Hin). exists j'. split; auto. apply in_or_app; auto.
              ** intros ex' pr' j1 j2 H1 H2.
                 apply in_app_or in H1 as [H1|[H1|[]]]; apply in_app_or in H2 as [H2|[H2|[]]].
                 --- eauto.
                 --- injection H2 as <- <- <-. pose proof (NO _ _ H1) as X. rewrite py_eq_refl in X. discriminate.
                 --- injection H1 as <- <- <-. pose proof (NO _ _ H2) as X. rewrite py_eq_refl in X. discriminate.
                 --- congruence.
        -- apply registry_ok_other; auto. intros ex pr (k' & b & G & M & A & Hb & H & _). exfalso. apply AH.
           fold i in G. unfold i in G. rewrite get_new in G. injection G as <-. exists b. split; auto.
      * apply registry_ok_other; auto; [apply N1; congruence|]. intros ex pr (k' & b & G & M & A & _).
        rewrite get_new in G. injection G as <-. discriminate.
    + assert (RG' : registry (fst (define st s)) = registry st).
      { destruct (same_registry_dec (registry (fst (define st s))) (registry st)) as [X|X]; auto.
        destruct (CA X). contradiction. }
      destruct (fst (define st s)) as [c r]. cbn [classes registry] in *. subst c. apply registry_ok_refused; auto.
Qed.

Lemma collect_ok st : registry_ok st -> collect st = st.
Proof.
  intros (R1 & _). unfold collect. destruct st as [c r]. cbn [classes registry] in *. f_equal.
  assert (H : forall x, In x r -> match get c (snd x) with Some _ => true | None => false end = true).
  { intros [[ex pr] i] Hx. destruct (R1 _ _ _ Hx) as ((k & b & G & _) & _). cbn. rewrite G. reflexivity. }
  clear R1. induction r as [|x r IH]; cbn; auto. rewrite H by (cbn; auto). f_equal. apply IH.
  intros; apply H; cbn; auto.
Qed.

Lemma calm_snoc es e : calm (es ++ [e]) -> calm es.
Proof.
  intros C pre s post ->. apply (C pre s (post ++ [e])%list). rewrite <- app_assoc. reflexivity.
Qed.

Lemma run_registry_ok es : calm es -> registry_ok (run es).
Proof.
  induction es as [|e es IH] using rev_ind; intro C.
  - split; [|split].
    + intros ex pr i [].
    + intros ex pr i (k & b & G & _). unfold get in G. destruct i; discriminate.
    + intros ex pr i j [].
  - rewrite run_snoc. specialize (IH (calm_snoc _ _ C)). destruct e as [s|]; cbn [step].
    + apply define_registry_ok; auto. apply run_wf. apply (C es s []). reflexivity.
    + rewrite collect_ok; auto.
Qed.

Lemma registered_iff reg ex pr i :
  (forall i j, In (ex, pr, i) reg -> In (ex, pr, j) reg -> i = j) ->
  (get_registered_impl reg ex pr = Some i <-> In (ex, pr, i) reg).
Proof.
  intro U. unfold get_registered_impl.
  destruct (find _ reg) as [[[e p] j]|] eqn:F.
  - apply find_some in F as (Hin & S). cbn in S. apply andb_true_iff in S as (S1 & S2).
    apply same_eq in S1 as <-. apply same_eq in S2 as <-. cbn. split.
    + intro H. injection H as <-. exact Hin.
    + intro H. f_equal. eauto.
  - split; [discriminate|]. intro H. pose proof (find_none _ _ F _ H) as X. cbn in X.
    rewrite (proj2 (same_eq ex ex)), (proj2 (same_eq pr pr)) in X by auto. discriminate.
Qed.
