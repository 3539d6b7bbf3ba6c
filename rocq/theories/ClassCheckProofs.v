(** Proofs about what is checked when a class is defined, and registered. *)

From Coq Require Import List Arith String Bool Lia.
From Verif Require Import ClassModel ClassSpec ClassProofs.
Import ListNotations.
Open Scope string_scope.

Lemma given_dec v : given v \/ ~ given v.
Proof.
  destruct v; try (left; split; [congruence|intros; congruence]).
  - right. intros (_ & H). apply (H v). reflexivity.
  - right. intros (H & _). apply H. reflexivity.
Qed.

(** ** Registering *)

Lemma accessor_ok w i n v : accessor w i n = inl v <-> attr w i n = Some v /\ forall f, v <> VStatic f.
Proof.
  unfold accessor. destruct (attr w i n) as [[]|]; split; intro H;
    try congruence; try (destruct H as (H & Hf); congruence); try (injection H as <-; split; congruence).
Qed.

Lemma accessor_bad w i n e : accessor w i n = inr e ->
  forall v, attr w i n = Some v -> exists f, v = VStatic f.
Proof.
  unfold accessor. destruct (attr w i n) as [[]|]; intros H u Hu; try congruence. injection Hu as <-. eauto.
Qed.

Lemma there_iff ex pr reg (f : value -> value -> bool) :
  existsb (fun x : value * value * nat => f pr (snd (fst x))) (filter (fun x => same ex (fst (fst x))) reg) = true
  <-> exists pr' j, In (ex, pr', j) reg /\ f pr pr' = true.
Proof.
  rewrite existsb_exists. split.
  - intros ([[e p] j] & H & E). apply filter_In in H as (H & S). cbn in *. apply same_eq in S as <-. eauto.
  - intros (pr' & j & H & E). exists (ex, pr', j). split; auto. apply filter_In. split; auto.
    apply same_eq. reflexivity.
Qed.

Inductive registered_as (reg : list (value * value * nat)) (w : world) (i : nat)
  : list (value * value * nat) -> option error -> Prop :=
| reg_nothing n e : n = "_expects" \/ n = "_provides" ->
    (forall v, attr w i n = Some v -> exists f, v = VStatic f) -> registered_as reg w i reg (Some e)
| reg_clash ex pr : attr w i "_expects" = Some ex -> attr w i "_provides" = Some pr ->
    (forall f, ex <> VStatic f) -> (forall f, pr <> VStatic f) ->
    Clash reg ex pr -> registered_as reg w i reg (Some EKey)
| reg_there ex pr j : attr w i "_expects" = Some ex -> attr w i "_provides" = Some pr ->
    (forall f, ex <> VStatic f) -> (forall f, pr <> VStatic f) ->
    In (ex, pr, j) reg -> registered_as reg w i reg None
| reg_new ex pr : attr w i "_expects" = Some ex -> attr w i "_provides" = Some pr ->
    (forall f, ex <> VStatic f) -> (forall f, pr <> VStatic f) ->
    (forall pr' j, In (ex, pr', j) reg -> py_eq pr pr' = false) ->
    registered_as reg w i (reg ++ [(ex, pr, i)])%list None.

Lemma register_spec reg w i : registered_as reg w i (fst (register reg w i)) (snd (register reg w i)).
Proof.
  unfold register. destruct (accessor w i "_expects") as [ex|e] eqn:A1; cbn [fst snd].
  2: { eapply reg_nothing; [left; reflexivity|]. eapply accessor_bad; eauto. }
  destruct (accessor w i "_provides") as [pr|e] eqn:A2; cbn [fst snd].
  2: { eapply reg_nothing; [right; reflexivity|]. eapply accessor_bad; eauto. }
  apply accessor_ok in A1 as (A1 & F1). apply accessor_ok in A2 as (A2 & F2).
  destruct (existsb _ _) eqn:E1; cbn [fst snd].
  - apply (there_iff ex pr reg py_eq) in E1.
    destruct (existsb (fun x => same pr _) _) eqn:E2; cbn [fst snd].
    + apply (there_iff ex pr reg same) in E2. destruct E2 as (pr' & j & H & S). apply same_eq in S as <-.
      eapply reg_there; eauto.
    + eapply reg_clash; eauto. split; auto. intros j Hj.
      assert (X : existsb (fun x => same pr (snd (fst x))) (filter (fun x => same ex (fst (fst x))) reg) = true).
      { apply (there_iff ex pr reg same). exists pr, j. split; auto. apply same_eq; reflexivity. }
      congruence.
  - eapply reg_new; eauto. intros pr' j Hj. destruct (py_eq pr pr') eqn:P; auto.
    assert (X : existsb (fun x => py_eq pr (snd (fst x))) (filter (fun x => same ex (fst (fst x))) reg) = true).
    { apply (there_iff ex pr reg py_eq). eauto. }
    congruence.
Qed.

Lemma register_again reg w i reg' : register reg w i = (reg', None) -> register reg' w i = (reg', None).
Proof.
  intro H. pose proof (register_spec reg w i) as S. rewrite H in S. cbn in S.
  assert (Z : exists ex pr j, attr w i "_expects" = Some ex /\ attr w i "_provides" = Some pr /\
            (forall f, ex <> VStatic f) /\ (forall f, pr <> VStatic f) /\ In (ex, pr, j) reg').
  { inversion S; subst; repeat eexists; eauto. apply in_or_app; right; cbn; auto. }
  destruct Z as (ex & pr & j & E1 & E2 & F1 & F2 & Hin).
  unfold register. rewrite (proj2 (accessor_ok w i "_expects" ex)) by auto.
  rewrite (proj2 (accessor_ok w i "_provides" pr)) by auto.
  rewrite (proj2 (there_iff ex pr reg' py_eq)), (proj2 (there_iff ex pr reg' same)); auto.
  - exists pr, j. split; auto. apply same_eq; reflexivity.
  - exists pr, j. split; auto. apply py_eq_refl.
Qed.

(** ** The members of one base *)

Section Check.
  Variable w : world.
  Variable i : nat.

  Lemma check_members_spec b : forall ms vs miss,
    (forall m, In m ms -> exists f, attr w b m = Some (VStatic f)) ->
    (forall m, In m ms -> exists v, attr w i m = Some v) ->
    (forall m, In m vs -> exists v, attr w i m = Some v /\ given v) ->
    match check_members w i b ms vs miss with
    | None => exists m f v, In m ms /\ ~ In m vs /\ attr w b m = Some (VStatic f) /\
                attr w i m = Some v /\ given v /\ validate f v = false
    | Some (vs', miss') =>
        (forall m, In m vs' <-> In m vs \/ (In m ms /\ exists v, attr w i m = Some v /\ given v)) /\
        (forall m, In m miss' <-> In m miss \/ (In m ms /\ exists v, attr w i m = Some v /\ ~ given v)) /\
        (forall m f v, In m ms -> ~ In m vs -> attr w b m = Some (VStatic f) ->
           attr w i m = Some v -> given v -> validate f v = true)
    end.
  Proof.
    induction ms as [|m ms IH]; intros vs miss HS HA HV; cbn [check_members].
    - split; [|split]; try contradiction; intro m; cbn; tauto.
    - assert (HS' : forall m, In m ms -> exists f, attr w b m = Some (VStatic f)) by (intros; apply HS; cbn; auto).
      assert (HA' : forall m, In m ms -> exists v, attr w i m = Some v) by (intros; apply HA; cbn; auto).
      destruct (mem m vs) eqn:M.
      + apply mem_in in M. specialize (IH vs miss HS' HA' HV).
        destruct (check_members w i b ms vs miss) as [[vs' miss']|].
        * destruct IH as (I1 & I2 & I3). split; [|split].
          -- intro n. rewrite I1. split; [intros [H|(H & H')]; cbn; auto|].
             intros [H|([->|H] & H')]; auto.
          -- intro n. rewrite I2. split; [intros [H|(H & H')]; cbn; auto|].
             intros [H|([->|H] & H')]; auto. exfalso. destruct H' as (v & E & G).
             destruct (HV _ M) as (v' & E' & G'). congruence.
          -- intros n f v [->|H]; [contradiction|eauto].
        * destruct IH as (n & f & v & H & R). exists n, f, v. cbn; auto.
      + assert (Mn : ~ In m vs) by (intro H; apply mem_in in H; congruence).
        destruct (HA m) as (v & Ev); [cbn; auto|]. destruct (HS m) as (f & Ef); [cbn; auto|].
        rewrite Ev, Ef.
        destruct (given_dec v) as [G|G].
        * assert (EQ : (match v with
                        | VNotImplemented | VStatic _ => check_members w i b ms vs (m :: miss)
                        | _ => if validate f v then check_members w i b ms (m :: vs) miss else None
                        end) = if validate f v then check_members w i b ms (m :: vs) miss else None).
          { destruct v; auto; exfalso; destruct G as (G1 & G2); [apply (G2 v); auto|apply G1; auto]. }
          match goal with |- match ?X with _ => _ end => replace X with
            (if validate f v then check_members w i b ms (m :: vs) miss else None)
            by (symmetry; destruct v; exact EQ) end.
          destruct (validate f v) eqn:VA.
          -- assert (HV' : forall n, In n (m :: vs) -> exists v, attr w i n = Some v /\ given v).
             { intros n [<-|Hn]; eauto. }
             specialize (IH (m :: vs) miss HS' HA' HV').
             destruct (check_members w i b ms (m :: vs) miss) as [[vs' miss']|].
             ++ destruct IH as (I1 & I2 & I3). split; [|split].
                ** intro n. rewrite I1. cbn. split; [intros [[<-|H]|(H & H')]; [right; split; eauto|auto|auto]|].
                   intros [H|([<-|H] & H')]; auto.
                ** intro n. rewrite I2. cbn. split; [intros [H|(H & H')]; auto|].
                   intros [H|([<-|H] & H')]; auto. exfalso. destruct H' as (v' & E' & G'). congruence.
                ** intros n f' v' Hn Hvs Ef' Ev' G'.
                   destruct (string_dec m n) as [<-|Hne]; [congruence|].
                   destruct Hn as [?|Hn]; [contradiction|].
                   apply (I3 n f' v'); auto. intros [?|?]; auto.
             ++ destruct IH as (n & f' & v' & H & Hvs & R). exists n, f', v'. split; [cbn; auto|]. split; auto.
                intro X. apply Hvs. cbn; auto.
          -- exists m, f, v. cbn; auto 10.
        * assert (EQ : (match v with
                        | VNotImplemented | VStatic _ => check_members w i b ms vs (m :: miss)
                        | _ => if validate f v then check_members w i b ms (m :: vs) miss else None
                        end) = check_members w i b ms vs (m :: miss)).
          { destruct v; auto; exfalso; apply G; split; congruence. }
          match goal with |- match ?X with _ => _ end => replace X with
            (check_members w i b ms vs (m :: miss)) by (symmetry; destruct v; exact EQ) end.
          specialize (IH vs (m :: miss) HS' HA' HV).
          destruct (check_members w i b ms vs (m :: miss)) as [[vs' miss']|].
          -- destruct IH as (I1 & I2 & I3). split; [|split].
             ++ intro n. rewrite I1. cbn. split; [intros [H|(H & H')]; auto|].
                intros [H|([<-|H] & H')]; auto. exfalso. destruct H' as (v' & E' & G'). congruence.
             ++ intro n. rewrite I2. cbn. split; [intros [[<-|H]|(H & H')]; [right; split; eauto|auto|auto]|].
                intros [H|([<-|H] & H')]; auto.
             ++ intros n f' v' Hn Hvs Ef' Ev' G'. destruct Hn as [<-|Hn]; [congruence|]. apply (I3 n f' v'); auto.
          -- destruct IH as (n & f' & v' & H & R). exists n, f', v'. cbn; auto.
  Qed.

  (** ** All the bases *)

  Definition asked (l : list nat) (n : name) : Prop := exists b f, In b l /\ Asks w b n f.
  Definition values_ok (l : list nat) : Prop :=
    forall pre b post n f v, l = (pre ++ b :: post)%list -> Asks w b n f ->
      (forall b' f', In b' pre -> ~ Asks w b' n f') ->
      attr w i n = Some v -> given v -> validate f v = true.

  Definition bad_value (l : list nat) : Prop :=
    exists pre b post n f v, l = (pre ++ b :: post)%list /\ Asks w b n f /\
      (forall b' f', In b' pre -> ~ Asks w b' n f') /\
      attr w i n = Some v /\ given v /\ validate f v = false.

  Variable reg0 : list (value * value * nat).
  Definition any_hook (l : list nat) : Prop := exists b, In b l /\ hooked w b.
  Definition reg_state (l : list nat) (reg : list (value * value * nat)) : Prop :=
    (any_hook l /\ register reg0 w i = (reg, None)) \/ (~ any_hook l /\ reg = reg0).

  Lemma asks_attr b k : get w b = Some k -> (exists r, k_mro k = b :: r) -> k_meta k = true ->
    k_statics k = statics (k_body k) ->
    forall n, (In n (k_statics k) <-> exists f, Asks w b n f) /\
              (forall f, Asks w b n f <-> k_meta k = true /\ own w b n = Some (VStatic f)) /\
              (forall f, own w b n = Some (VStatic f) -> attr w b n = Some (VStatic f)).
  Proof.
    intros G (r & R) Hm HS n. split; [|split].
    - rewrite HS, statics_in. unfold Asks, own. rewrite G. split.
      + intros (f & E). exists f, k. auto.
      + intros (f & k' & _ & _ & E). eauto.
    - intro f. unfold Asks. rewrite G. split.
      + intros (k' & E & M & O). split; auto.
      + intros (_ & O). eauto.
    - intros f O. unfold attr. rewrite G, R. cbn. rewrite O. reflexivity.
  Qed.

  Lemma check_bases_spec : forall post pre reg vs miss,
    (forall b, In b (pre ++ post)%list -> exists k, get w b = Some k /\ (exists r, k_mro k = b :: r) /\
       (k_meta k = true -> k_statics k = statics (k_body k))) ->
    (forall b n f, In b (pre ++ post)%list -> Asks w b n f -> exists v, attr w i n = Some v) ->
    (forall n, In n vs <-> asked pre n /\ exists v, attr w i n = Some v /\ given v) ->
    (forall n, In n miss <-> asked pre n /\ exists v, attr w i n = Some v /\ ~ given v) ->
    values_ok pre -> reg_state pre reg ->
    match check_bases w i post reg vs miss with
    | (reg', inr e) =>
        (reg' = reg0 \/ (any_hook (pre ++ post) /\ reg' = fst (register reg0 w i))) /\
        (bad_value (pre ++ post) \/ (any_hook (pre ++ post) /\ snd (register reg0 w i) <> None))
    | (reg', inl miss') =>
        reg_state (pre ++ post) reg' /\ values_ok (pre ++ post) /\
        (forall n, In n miss' <-> asked (pre ++ post) n /\ exists v, attr w i n = Some v /\ ~ given v)
    end.
  Proof.
    induction post as [|b post IH]; intros pre reg vs miss HK HA HV HM OK RS; cbn [check_bases].
    - rewrite app_nil_r. auto.
    - assert (EA : (pre ++ b :: post = (pre ++ [b]) ++ post)%list) by (rewrite <- app_assoc; reflexivity).
      destruct (HK b) as (k & G & R & HS); [apply in_or_app; right; cbn; auto|]. rewrite G.
      destruct (k_meta k) eqn:Em.
      + pose proof (asks_attr _ _ G R Em (HS eq_refl)) as AA.
        assert (C1 : forall m, In m (k_statics k) -> exists f, attr w b m = Some (VStatic f)).
        { intros m Hm. destruct (AA m) as (B1 & B2 & B3). apply B1 in Hm as (f & Hf). exists f. apply B3, B2. auto. }
        assert (C2 : forall m, In m (k_statics k) -> exists v, attr w i m = Some v).
        { intros m Hm. destruct (AA m) as (B1 & _). apply B1 in Hm as (f & Hf). eapply (HA b); eauto.
          apply in_or_app; right; cbn; auto. }
        assert (C3 : forall m, In m vs -> exists v, attr w i m = Some v /\ given v).
        { intros m Hm. apply HV in Hm. apply Hm. }
        pose proof (check_members_spec b (k_statics k) vs miss C1 C2 C3) as CM.
        destruct (check_members w i b (k_statics k) vs miss) as [[vs' miss']|].
        * destruct CM as (I1 & I2 & I3).
          assert (AS : forall n, asked (pre ++ [b])%list n <-> asked pre n \/ In n (k_statics k)).
          { intro n. destruct (AA n) as (B1 & _). rewrite B1. unfold asked. split.
            - intros (b' & f & Hb & Hf). apply in_app_or in Hb as [Hb|[<-|[]]]; eauto.
            - intros [(b' & f & Hb & Hf)|(f & Hf)].
              + exists b', f. split; auto. apply in_or_app; auto.
              + exists b, f. split; auto. apply in_or_app; right; cbn; auto. }
          assert (HV' : forall n, In n vs' <-> asked (pre ++ [b])%list n /\ exists v, attr w i n = Some v /\ given v).
          { intro n. rewrite I1, AS, HV. tauto. }
          assert (HM' : forall n, In n miss' <-> asked (pre ++ [b])%list n /\ exists v, attr w i n = Some v /\ ~ given v).
          { intro n. rewrite I2, AS, HM. tauto. }
          assert (OK' : values_ok (pre ++ [b])%list).
          { intros p c q n f v E Hf Hfirst Ev Gv.
            destruct q as [|q0 q] using rev_ind.
            - apply app_inj_tail in E as (-> & ->).
              destruct (AA n) as (B1 & B2 & B3). apply (I3 n f v); auto.
              + apply B1. eauto.
              + intro Hn. apply HV in Hn as ((b' & f' & Hb' & Hf') & _). exact (Hfirst b' f' Hb' Hf').
              + apply B3. apply B2. auto.
            - clear IHq. rewrite app_comm_cons, app_assoc in E. apply app_inj_tail in E as (-> & ->).
              eapply OK; eauto. }
          assert (HX : any_hook (pre ++ [b])%list <-> any_hook pre \/ k_hook k = true).
          { unfold any_hook. split.
            - intros (b' & Hb & Hh). apply in_app_or in Hb as [Hb|[<-|[]]]; eauto.
              right. destruct Hh as (k' & G' & _ & Hh). congruence.
            - intros [(b' & Hb & Hh)|Hh].
              + exists b'. split; auto. apply in_or_app; auto.
              + exists b. split; [apply in_or_app; right; cbn; auto|]. exists k. auto. }
          destruct (k_hook k) eqn:Hk.
          -- assert (AH : any_hook (pre ++ b :: post)%list).
             { exists b. split; [apply in_or_app; right; cbn; auto|]. exists k; auto. }
             destruct (register reg w i) as [reg' [e|]] eqn:RE.
             ++ destruct RS as [(_ & RS)|(_ & ->)].
                ** rewrite (register_again _ _ _ _ RS) in RE. discriminate.
                ** split; [right; split; auto; rewrite RE; reflexivity|].
                   right. split; auto. rewrite RE. cbn. discriminate.
             ++ rewrite EA. apply IH; auto.
                ** rewrite <- EA; auto.
                ** rewrite <- EA; auto.
                ** left. split; [apply HX; auto|].
                   destruct RS as [(_ & RS)|(_ & ->)]; auto.
                   rewrite (register_again _ _ _ _ RS) in RE. congruence.
          -- rewrite EA. apply IH; auto.
             ++ rewrite <- EA; auto.
             ++ rewrite <- EA; auto.
             ++ destruct RS as [(H & RS)|(H & ->)]; [left|right]; split; auto.
                ** apply HX; auto.
                ** intro X. apply HX in X as [X|X]; [auto|discriminate].
        * destruct CM as (m & f & v & Hm & Hvs & Ef & Ev & Gv & VA).
          destruct (AA m) as (B1 & B2 & B3). apply B1 in Hm as (f' & Hf').
          assert (f' = f) by (apply B2 in Hf' as (_ & O); apply B3 in O; congruence). subst f'.
          split.
          -- destruct RS as [((b' & Hb & Hh) & RS)|(_ & ->)]; auto. right. split; [|rewrite RS; reflexivity].
             exists b'. split; auto. apply in_or_app; auto.
          -- left. exists pre, b, post, m, f, v. repeat (split; auto).
             intros b' g Hb' Hg. apply Hvs. apply HV. split; [exists b', g; auto|eauto].
      + assert (NA : forall n f, ~ Asks w b n f) by (intros n f (k' & G' & M' & _); congruence).
        rewrite EA. apply IH; auto.
        * rewrite <- EA; auto.
        * rewrite <- EA; auto.
        * intro n. rewrite HV. unfold asked. split; intros ((b' & f & Hb & Hf) & H); split; auto; exists b', f; split; auto.
          -- apply in_or_app; auto.
          -- apply in_app_or in Hb as [Hb|[<-|[]]]; auto. exfalso. eapply NA; eauto.
        * intro n. rewrite HM. unfold asked. split; intros ((b' & f & Hb & Hf) & H); split; auto; exists b', f; split; auto.
          -- apply in_or_app; auto.
          -- apply in_app_or in Hb as [Hb|[<-|[]]]; auto. exfalso. eapply NA; eauto.
        * intros p c q n f v E Hf Hfirst Ev Gv.
          destruct q as [|q0 q] using rev_ind.
          -- apply app_inj_tail in E as (-> & ->). exfalso. eapply NA; eauto.
          -- clear IHq. rewrite app_comm_cons, app_assoc in E. apply app_inj_tail in E as (-> & ->).
             eapply OK; eauto.
        * assert (HX : any_hook (pre ++ [b])%list <-> any_hook pre).
          { unfold any_hook. split; intros (b' & Hb & Hh).
            - apply in_app_or in Hb as [Hb|[<-|[]]]; eauto. destruct Hh as (k' & G' & M' & _). congruence.
            - exists b'. split; auto. apply in_or_app; auto. }
          destruct RS as [(H & RS)|(H & ->)]; [left|right]; split; auto; rewrite HX; auto.
  Qed.
End Check.
