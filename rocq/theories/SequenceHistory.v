(** Delivery histories: the step lemma and the induction over histories. *)
From Verif Require Import SequenceModel SequenceSpec SequenceProofs.
From Coq Require Import ZifyBool ZifyNat.
Open Scope Z_scope.

Lemma bump_last_fields s d :
  q_tl (bump_last s d) = q_tl s /\ q_docs (bump_last s d) = q_docs s /\ q_disc (bump_last s d) = q_disc s
  /\ q_sid (bump_last s d) = q_sid s /\ q_tb (bump_last s d) = q_tb s /\ q_cm (bump_last s d) = q_cm s
  /\ q_agid (bump_last s d) = q_agid s.
Proof. unfold bump_last. destruct (_ >? _); repeat split. Qed.

Lemma sane_bump sid tb cm g s d : sane sid tb cm g s -> sane sid tb cm g (bump_last s d).
Proof.
  destruct (bump_last_fields s d) as (_ & _ & _ & E1 & E2 & E3 & E4). unfold sane. rewrite E1, E2, E3, E4. tauto.
Qed.

Lemma map_app_nodup {A B} (f : A -> B) a x b :
  NoDup (map f (a ++ b)) -> ~ In (f x) (map f (a ++ b)) -> NoDup (map f (a ++ x :: b)).
Proof.
  rewrite !map_app. simpl. intros H1 H2. apply NoDup_Add with (a := f x) (l := map f a ++ map f b).
  - apply Add_app.
  - split; assumption.
Qed.

Lemma NoDup_map_filter {A B} (f : A -> B) p l : NoDup (map f l) -> NoDup (map f (filter p l)).
Proof.
  induction l as [|x l IH]; simpl; intros H; [constructor|]. inversion H as [|? ? Hn Hd]; subst.
  destruct (p x); simpl; [|auto]. constructor; [|auto]. intros Hi. apply Hn.
  apply in_map_iff in Hi. destruct Hi as (y & Hy & Hi). apply filter_In in Hi. rewrite <- Hy. apply in_map. tauto.
Qed.

Lemma hinv_inserted a h s d bs pre rest s' :
  hinv a h s bs -> doc_wf d -> ~ In (d_obj d) (map d_obj a) ->
  NoDup (map d_obj a) ->
  bs = pre ++ rest ->
  Forall (fun b => d_begin (fst b) < d_begin d /\ d_num (fst b) < d_num d) pre ->
  Forall (fun b => d_begin d <= d_begin (fst b)) rest ->
  s' = set_disc (set_ends s (new_blocks d pre (filter (fun b => negb (okill d b)) rest)))
                (rev (map (disc_entry (d_begin d)) (map fst (filter (okill d) bs))) ++ q_disc s) ->
  chain (new_blocks d pre (filter (fun b => negb (okill d b)) rest)) ->
  hinv (a ++ [d]) (h ++ [d]) s' (new_blocks d pre (filter (fun b => negb (okill d b)) rest)).
Proof.
  intros Hi Hwf Hobj Hndh Hbs Hpre Hrest Hs' Hch.
  set (post := filter (fun b => negb (okill d b)) rest) in *.
  destruct Hi as [[Rtl Rdocs Rchain Robj] Hex Hincl Hsub Hdom Hlog Hdisc].
  assert (Hobjs : forall b, In b bs -> In (bobj b) (map d_obj a)).
  { intros b Hb. unfold bobj; apply in_map. apply Hincl, Hsub. assumption. }
  assert (Hkp : forall b, In b (pre ++ post) -> In b bs).
  { intros b Hb. subst bs. apply in_app_iff in Hb. apply in_app_iff. destruct Hb as [Hb|Hb]; [auto|].
    apply filter_In in Hb. tauto. }
  assert (Hfst : map fst (new_blocks d pre post) = map fst pre ++ d :: map fst post) by apply new_blocks_fst.
  assert (Hbo : map bobj (new_blocks d pre post) = map bobj pre ++ d_obj d :: map bobj post).
  { rewrite !bobj_fst, Hfst, map_app. reflexivity. }
  assert (Hkeepbs : filter (fun b => negb (okill d b)) bs = pre ++ post).
  { subst bs. rewrite filter_app. f_equal. apply filter_all. intros b Hb. rewrite Forall_forall in Hpre. specialize (Hpre b Hb).
    unfold okill. destruct (Z.leb_spec (d_begin d) (d_begin (fst b))); [lia|]. rewrite andb_false_r. reflexivity. }
  assert (Hnd' : NoDup (map bobj (pre ++ post))) by (rewrite <- Hkeepbs; apply NoDup_map_filter; assumption).
  assert (Hdnot : ~ In (d_obj d) (map bobj bs)).
  { intros Hin. apply in_map_iff in Hin. destruct Hin as (b & Hb & Hin). apply Hobj. rewrite <- Hb. apply Hobjs; assumption. }
  assert (Hdnot' : ~ In (d_obj d) (map bobj (pre ++ post))).
  { intros Hin. apply in_map_iff in Hin. destruct Hin as (b & Hb & Hin). apply Hdnot. rewrite <- Hb. apply in_map. auto. }
  assert (Hkilled : forall b, In b bs -> okill d b = true -> ~ In (bobj b) (map bobj (new_blocks d pre post))).
  { intros b Hb Hk. rewrite Hbo. intros Hin. rewrite in_app_iff in Hin. simpl in Hin.
    assert (Hin' : In (bobj b) (map bobj (pre ++ post))).
    { rewrite map_app, in_app_iff. destruct Hin as [Hin|[Hin|Hin]]; [auto| |auto].
      exfalso. apply Hobj. rewrite Hin. apply Hobjs. assumption. }
    rewrite <- Hkeepbs in Hin'. apply in_map_iff in Hin'. destruct Hin' as (c & Hc & Hin').
    apply filter_In in Hin'. destruct Hin' as [Hcb Hck].
    assert (c = b); [|subst; rewrite Hk in Hck; discriminate].
    clear - Robj Hc Hcb Hb. induction bs as [|a l IH]; [destruct Hb|].
    simpl in Robj. inversion Robj as [|? ? Hn Hd]; subst.
    destruct Hb as [Hb|Hb], Hcb as [Hcb|Hcb]; subst; auto; exfalso; apply Hn.
    - rewrite <- Hc. apply in_map; assumption.
    - rewrite Hc. apply in_map; assumption. }
  constructor.
  - (* rep *) subst s'. constructor; simpl; [reflexivity|reflexivity|assumption|].
    rewrite Hbo. change (d_obj d) with (bobj (d, d_end d)).
    rewrite <- map_cons, <- map_app. apply map_app_nodup; assumption.
  - apply new_blocks_exact with (bs := bs); assumption.
  - apply incl_app; [apply incl_appl; assumption|apply incl_appr, incl_refl].
  - intros b Hb. apply (in_map fst) in Hb. rewrite Hfst in Hb. rewrite in_app_iff in Hb. simpl in Hb.
    apply in_app_iff. destruct Hb as [Hb|[Hb|Hb]].
    + left. apply in_map_iff in Hb. destruct Hb as (c & <- & Hc). apply Hsub, Hkp, in_app_iff. auto.
    + right. left. assumption.
    + left. apply in_map_iff in Hb. destruct Hb as (c & <- & Hc). apply Hsub, Hkp, in_app_iff. auto.
  - intros x Hx. apply in_app_iff in Hx. 
    assert (Hnew : forall y, In y (map fst (new_blocks d pre post)) -> exists b, In b (new_blocks d pre post) /\ fst b = y).
    { intros y Hy. apply in_map_iff in Hy. destruct Hy as (b & Hb & Hin). exists b. auto. }
    destruct Hx as [Hx|[<-|[]]].
    + destruct (Hdom x Hx) as (b & Hb & Hn & Hbg).
      destruct (okill d b) eqn:Hk.
      * exists (d, d_end d). split; [apply in_app_iff; right; left; reflexivity|]. simpl. unfold okill in Hk. lia.
      * assert (Hb' : In (fst b) (map fst (new_blocks d pre post))).
        { rewrite Hfst. assert (In b (pre ++ post)) by (rewrite <- Hkeepbs; apply filter_In; rewrite Hk; auto).
          rewrite in_app_iff in *. simpl. destruct H as [H|H]; [left|right; right]; apply in_map; assumption. }
        destruct (Hnew _ Hb') as (c & Hc & Hcf). exists c. rewrite Hcf. auto.
    + exists (d, d_end d). split; [apply in_app_iff; right; left; reflexivity|]. simpl. lia.
  - intros o e b Hin. subst s'. simpl in Hin. rewrite in_app_iff in Hin. destruct Hin as [Hin|Hin].
    + rewrite <- in_rev in Hin. rewrite map_map in Hin. apply in_map_iff in Hin. destruct Hin as (k & Hk & Hin).
      apply filter_In in Hin. destruct Hin as [Hin Hkk]. unfold disc_entry in Hk. injection Hk as <- <- <-.
      exists (fst k). repeat split; [apply in_app_iff; left; apply Hincl, Hsub; assumption| |].
      * unfold okill in Hkk. lia.
      * apply Hkilled; assumption.
    + destruct (Hlog _ _ _ Hin) as (x & Hx & H1 & H2 & H3 & H4). exists x. repeat split; try assumption; [apply in_app_iff; auto|].
      rewrite Hbo, in_app_iff. simpl. intros [H|[H|H]].
      * apply H4. apply in_map_iff in H. destruct H as (c & <- & Hc). apply in_map, Hkp, in_app_iff. auto.
      * apply Hobj. rewrite H, <- H1. apply in_map. assumption.
      * apply H4. apply in_map_iff in H. destruct H as (c & <- & Hc). apply in_map, Hkp, in_app_iff. auto.
  - intros x Hx. apply in_app_iff in Hx. destruct Hx as [Hx|[<-|[]]].
    + destruct (Hdisc x Hx) as [Hin|(e & Hin)].
      * apply in_map_iff in Hin. destruct Hin as (b & Hb & Hin). destruct (okill d b) eqn:Hk.
        -- right. exists (d_begin d). subst s'. simpl. rewrite in_app_iff. left. rewrite <- in_rev.
           rewrite map_map. apply in_map_iff. exists b. split; [|apply filter_In; auto].
           unfold disc_entry.
           assert (fst b = x); [|subst; reflexivity].
           specialize (Hsub b Hin). apply Hincl in Hsub, Hx. unfold bobj in Hb.
           clear - Hb Hsub Hx Hndh. induction a as [|y l IH]; [destruct Hx|]. simpl in Hndh. inversion Hndh as [|? ? Hn Hd]; subst.
           destruct Hsub as [Hs|Hs], Hx as [Hx|Hx]; subst; auto; exfalso; apply Hn.
           ++ rewrite Hb. apply in_map; assumption.
           ++ rewrite <- Hb. apply in_map; assumption.
        -- left. rewrite Hbo, in_app_iff. simpl.
           assert (In b (pre ++ post)) by (rewrite <- Hkeepbs; apply filter_In; rewrite Hk; auto).
           rewrite in_app_iff in H. rewrite <- Hb. destruct H as [H|H]; [left|right; right]; apply in_map; assumption.
      * right. exists e. subst s'. simpl. rewrite in_app_iff. auto.
    + left. rewrite Hbo, in_app_iff. right. left. reflexivity.
Qed.

Lemma hinv_discarded a h s d bs rb s' :
  hinv a h s bs -> ~ In (d_obj d) (map d_obj a) -> rb <= d_begin d -> dominated h d ->
  q_tl s' = q_tl s -> q_docs s' = q_docs s -> q_disc s' = (d_obj d, rb, d_begin d) :: q_disc s ->
  hinv (a ++ [d]) (h ++ [d]) s' bs.
Proof.
  intros [[Rtl Rdocs Rchain Robj] Hex Hincl Hsub Hdom Hlog Hdisc] Hobj Hrb (d' & Hd' & Hn & Hb) E1 E2 E3.
  constructor.
  - constructor; congruence.
  - assumption.
  - apply incl_app; [apply incl_appl; assumption|apply incl_appr, incl_refl].
  - intros b Hin. apply in_app_iff. left. auto.
  - intros x Hx. apply in_app_iff in Hx. destruct Hx as [Hx|[<-|[]]]; [auto|].
    destruct (Hdom d' Hd') as (b & Hin & H1 & H2). exists b. split; [assumption|lia].
  - intros o e b Hin. rewrite E3 in Hin. destruct Hin as [Hin|Hin].
    + injection Hin as <- <- <-. exists d. repeat split; [apply in_app_iff; right; left; reflexivity|assumption|].
      intros Hi. apply in_map_iff in Hi. destruct Hi as (c & Hc & Hi). apply Hobj. rewrite <- Hc. unfold bobj; apply in_map, Hincl, Hsub. assumption.
    + destruct (Hlog _ _ _ Hin) as (x & Hx & H). exists x. split; [apply in_app_iff; auto|assumption].
  - intros x Hx. rewrite E3. apply in_app_iff in Hx. destruct Hx as [Hx|[<-|[]]].
    + destruct (Hdisc x Hx) as [H|(e & H)]; [auto|]. right. exists e. right. assumption.
    + right. exists rb. left. reflexivity.
Qed.

Theorem add_step sid tb cm g a h s bs d :
  hinv a h s bs -> sane sid tb cm g s -> belongs sid tb cm g d -> doc_wf d ->
  NoDup (map d_obj a) -> ~ In (d_obj d) (map d_obj a) -> ~ In (d_num d) (map d_num h) -> late_ok h d ->
  exists s' o bs', add_document s d = (s', o) /\ hinv (a ++ [d]) (h ++ [d]) s' bs' /\ sane sid tb cm g s'
     /\ ((o = ODiscarded /\ dominated h d) \/ (o = OInserted /\ ~ dominated h d)).
Proof.
  intros Hi Hsane Hbel Hwf Hndo Hobj Hnum Hlate.
  assert (Hfresh : ~ In (d_num d) (map (fun b => d_num (fst b)) bs)).
  { intros Hin. apply in_map_iff in Hin. destruct Hin as (b & Hb & Hin). apply Hnum. rewrite <- Hb.
    apply in_map. apply (hi_sub _ _ _ _ Hi). assumption. }
  destruct (check_compat_ok sid tb cm g s d Hsane Hbel) as (ag & Hcc & Ha).
  { rewrite (rep_docs _ _ (hi_rep _ _ _ _ Hi)), map_map. assumption. }
  unfold add_document. rewrite Hcc.
  set (s1 := set_agid s ag).
  assert (Hi1 : hinv a h s1 bs) by (eapply hinv_state; [exact Hi| | |]; reflexivity).
  assert (Hsane1 : sane sid tb cm g s1).
  { destruct Hsane as (H1 & H2 & H3 & _). repeat split; assumption. }
  clearbody s1. clear Hcc Hi Hsane.
  destruct (chain_split bs (d_begin d) (rep_chain _ _ (hi_rep _ _ _ _ Hi1))) as (pre & post & Hbs & Hpre & Hpost).
  assert (Hcase : (exists pre' p e, pre = pre' ++ [(p, e)] /\ d_num d < d_num p)
          \/ (forall b, In b bs -> d_num d < d_num (fst b) -> d_begin d < d_begin (fst b))).
  { destruct (list_snoc_cases pre) as [->|(pre' & [p e] & ->)].
    - right. intros b Hb _. subst bs. rewrite Forall_forall in Hpost. apply Hpost. assumption.
    - destruct (Z.lt_ge_cases (d_num d) (d_num p)) as [Hlt|Hge]; [left; eauto|right].
      intros b Hb Hnb. subst bs. pose proof (rep_chain _ _ (hi_rep _ _ _ _ Hi1)) as Hc. rewrite Forall_forall in Hpost.
      rewrite !in_app_iff in Hb. destruct Hb as [[Hb|[<-|[]]]|Hb]; [| |apply Hpost; assumption].
      + rewrite <- app_assoc in Hc. apply chain_app in Hc. destruct Hc as (_ & _ & Hc).
        specialize (Hc b (p, e) Hb (or_introl eq_refl)). destruct Hc as (Hc & _). simpl in Hc. lia.
      + simpl in Hnb. lia. }
  destruct Hcase as [(pre' & p & e & -> & Hlt)|Hnd].
  - (* discarded *)
    assert (Hin : In (p, e) bs) by (subst bs; rewrite !in_app_iff; left; right; left; reflexivity).
    assert (Hpb : d_begin p <= d_begin d).
    { rewrite Forall_app in Hpre. destruct Hpre as [_ Hp]. inversion Hp; assumption. }
    assert (Hdomi : dominated h d).
    { exists p. pose proof (hi_sub _ _ _ _ Hi1 _ Hin). auto. }
    assert (Hiod : insert_or_discard s1 d = IDiscarded p).
    { unfold insert_or_discard. rewrite (rep_tl _ _ (hi_rep _ _ _ _ Hi1)), Hbs.
      rewrite scan_back_blocks by (try assumption; rewrite <- Hbs; apply (hi_rep _ _ _ _ Hi1)).
      rewrite rev_app_distr. simpl. destruct (Z.gtb_spec (d_num p) (d_num d)); [reflexivity|lia]. }
    rewrite Hiod. pose proof (hinv_resolved_begin _ _ _ _ _ Hi1 Hin) as Hrb. simpl in Hrb. rewrite Hrb.
    unfold discard_document. destruct (Z.gtb_spec (d_begin p) (d_begin d)); [lia|].
    eexists _, _, bs. split; [reflexivity|]. split; [|split].
    + eapply hinv_discarded; try eassumption; destruct (bump_last_fields (set_disc s1 ((d_obj d, d_begin p, d_begin d) :: q_disc s1)) d) as (E1 & E2 & E3 & _).
      * rewrite E1. reflexivity.
      * rewrite E2. reflexivity.
      * rewrite E3. reflexivity.
    + apply sane_bump. exact Hsane1.
    + left. auto.
  - assert (Hndom : ~ dominated h d).
    { intros (d' & Hd' & Hn & Hb). destruct (hi_dom _ _ _ _ Hi1 d' Hd') as (b & Hin & H1 & H2).
      specialize (Hnd b Hin). lia. }
    assert (Hlate' : forall b, In b bs -> d_num d < d_num (fst b) ->
        d_begin d < d_begin (fst b) /\ exists x, d_end d = Some x /\ x < d_begin (fst b)).
    { intros b Hin Hn. split; [apply Hnd; assumption|]. destruct Hlate as [Hl|Hl]; [contradiction|].
      apply Hl; [apply (hi_sub _ _ _ _ Hi1); assumption|assumption]. }
    destruct (insertion s1 d bs (hi_rep _ _ _ _ Hi1) Hwf Hfresh Hlate') as (pr & re & s' & Hb' & Hpr & Hre & Hs' & Hch & Hrun).
    pose proof (hinv_inserted a h s1 d bs pr re s' Hi1 Hwf Hobj Hndo Hb' Hpr Hre Hs' Hch) as Hnew.
    assert (Hsane' : sane sid tb cm g s') by (subst s'; exact Hsane1).
    assert (Hfin : hinv (a ++ [d]) (h ++ [d]) (bump_last s' d) (new_blocks d pr (filter (fun b => negb (okill d b)) re))).
    { destruct (bump_last_fields s' d) as (E1 & E2 & E3 & _). eapply hinv_state; eassumption. }
    exists (bump_last s' d), OInserted. eexists. split; [|split; [exact Hfin|split; [apply sane_bump; assumption|right; auto]]].
    destruct Hrun as [->|(-> & s2 & -> & ->)]; reflexivity.
Qed.

Lemma nodup_inj (f : document -> Z) l : NoDup (map f l) -> forall x y, In x l -> In y l -> f x = f y -> x = y.
Proof.
  induction l as [|a l IH]; intros Hnd x y Hx Hy He; [destruct Hx|]. simpl in Hnd.
  inversion Hnd as [|? ? H1 H2]; subst. destruct Hx as [Hx|Hx], Hy as [Hy|Hy]; subst; auto; exfalso; apply H1.
  - rewrite He. apply in_map; assumption.
  - rewrite <- He. apply in_map; assumption.
Qed.

Lemma hinv_presented a h s bs t d :
  hinv a h s bs -> Forall doc_wf h -> NoDup (map d_num h) -> NoDup (map d_obj a) -> In d h ->
  (presented s t d <-> active h t d).
Proof.
  intros Hi Hwf Hnn Hno Hd.
  pose proof (hi_incl _ _ _ _ Hi) as Hincl.
  pose proof (rep_chain _ _ (hi_rep _ _ _ _ Hi)) as Hc.
  destruct (hi_disc _ _ _ _ Hi d Hd) as [Hin|(e & Hin)].
  - apply in_map_iff in Hin. destruct Hin as ([d1 e] & Ho & Hin).
    assert (d1 = d).
    { apply (nodup_inj d_obj _ Hno); [apply (hi_sub _ _ _ _ Hi) in Hin; apply Hincl; exact Hin|apply Hincl; assumption|exact Ho]. }
    subst d1.
    assert (Hz : forall x, e = Some x -> x <> 0).
    { intros x -> Hx. subst x. rewrite Forall_forall in Hwf.
      destruct (hi_exact _ _ _ _ Hi _ _ Hin) as [He|(q & eq & Hq & Hn & He & _)].
      - destruct (Hwf d Hd) as [_ Hw]. rewrite <- He in Hw. lia.
      - injection He as He. destruct (chain_order _ _ _ Hc Hin Hq) as [E|[(_ & E & _)|(E & _)]]; simpl in *.
        + injection E as -> _. lia.
        + destruct (Hwf d Hd) as [Hw _]. lia.
        + lia. }
    unfold presented, active.
    pose proof (hinv_resolved_begin _ _ _ _ _ Hi Hin) as Hrb. simpl in Hrb. rewrite Hrb.
    rewrite (hinv_resolved_end _ _ _ _ _ _ Hi Hin Hz).
    split.
    + intros (rb & re & E1 & E2 & Hb & He). injection E1 as <-. injection E2 as <-.
      split; [assumption|]. split; [assumption|]. split.
      * intros d' Hd' Hb'. destruct (hi_dom _ _ _ _ Hi d' Hd') as (b & Hbin & H1 & H2).
        destruct (chain_order _ _ _ Hc Hin Hbin) as [E|[(_ & _ & x & Ex & E)|(E & _)]]; simpl in *.
        -- subst b. simpl in *. lia.
        -- subst e. lia.
        -- lia.
      * destruct (hi_exact _ _ _ _ Hi _ _ Hin) as [->|(q & eq & Hq & Hn & -> & Hge)]; [assumption|].
        unfold end_ge in Hge. destruct (d_end d); [lia|exact I].
    + intros (_ & Hb & Hmax & Hend). exists (d_begin d), e. repeat split; [assumption|].
      destruct (hi_exact _ _ _ _ Hi _ _ Hin) as [->|(q & eq & Hq & Hn & -> & Hge)]; [assumption|].
      destruct (Z.lt_ge_cases t (d_begin q)) as [|Hge']; [assumption|].
      pose proof (hi_sub _ _ _ _ Hi _ Hq) as Hqh. simpl in Hqh. specialize (Hmax q Hqh Hge'). lia.
  - assert (Hexi : exists e b, In (d_obj d, e, b) (q_disc s)) by eauto. destruct (disc_lookup_some s d Hexi) as (e' & b' & Hl & Hin').
    destruct (hi_log _ _ _ _ Hi _ _ _ Hin') as (d1 & Hd1 & Ho & Hb & Hle & Hnot).
    assert (d1 = d) by (apply (nodup_inj d_obj _ Hno); auto). subst d1.
    unfold presented, resolved_begin, resolved_end. rewrite Hl. split.
    + intros (rb & re & E1 & E2 & H1 & H2). injection E1 as <-. injection E2 as <-. lia.
    + intros (_ & Hbt & Hmax & _). exfalso.
      destruct (hi_dom _ _ _ _ Hi d Hd) as (b & Hbin & H1 & H2).
      pose proof (hi_sub _ _ _ _ Hi _ Hbin) as Hbh. specialize (Hmax _ Hbh).
      assert (d_num (fst b) = d_num d) by lia.
      assert (fst b = d) by (apply (nodup_inj d_num _ Hnn); assumption). subst d.
      apply Hnot. apply (in_map bobj) in Hbin. exact Hbin.
Qed.
Lemma hinv_new sid tb cm agid : hinv [] [] (new_sequence sid tb cm agid) [].
Proof.
  constructor.
  - constructor; try reflexivity; [split; constructor|constructor].
  - intros ? ? [].
  - apply incl_refl.
  - intros ? [].
  - intros ? [].
  - intros ? ? ? [].
  - intros ? [].
Qed.

Lemma sane_new sid tb cm agid g : agid = None \/ agid = Some g -> sane sid tb cm g (new_sequence sid tb cm agid).
Proof. intros H. repeat split. exact H. Qed.


(** * discard_before *)

Definition bkill (d : document) (b : block) : bool := d_begin (fst b) <? d_begin d.

Definition bskip (d : document) (it : event document) (_ : list document) : bool := doc_eqb (ev_elem it) d.

Definition iru {A} (t : Z) n (l : list (event A)) := filter (fun p => ev_when (snd p) <=? t) (enum_from n l).

Lemma iru_app {A} t n (l1 l2 : list (event A)) : iru t n (l1 ++ l2) = iru t n l1 ++ iru t (n + List.length l1) l2.
Proof. unfold iru. rewrite enum_from_app, filter_app. reflexivity. Qed.

Lemma collect_before_post d bs n ds is :
  chain bs -> Forall (fun b => d_begin d < d_begin (fst b)) bs ->
  collect (bskip d) (iru (d_begin d) n (flat bs)) ds is = (ds, is).
Proof.
  intros Hc Hf. unfold iru. rewrite filter_none; [reflexivity|].
  intros [i q] Hq. apply in_enum_snd in Hq. simpl in *. apply Z.leb_gt. eapply chain_post_gt; eassumption.
Qed.

Lemma collect_before_pre d (p : block) pre : forall n rest ds is,
  chain (pre ++ [p]) -> fst p = d ->
  NoDup (map bobj pre) -> (forall b, In b pre -> docs_in (fst b) ds = false) ->
  collect (bskip d) (iru (d_begin d) n (flat pre) ++ rest) ds is =
  collect (bskip d) rest (ds ++ map fst pre) (is ++ seq n (List.length (flat pre))).
Proof.
  induction pre as [|b pre IH]; intros n rest ds is Hc Hp Hnd Hds.
  - simpl. rewrite !app_nil_r. reflexivity.
  - rewrite flat_cons, iru_app, <- app_assoc. simpl in Hc.
    assert (Hbp : brel b p).
    { change (b :: pre ++ [p]) with ([b] ++ (pre ++ [p])) in Hc. apply chain_app in Hc. destruct Hc as (_ & _ & Hc).
      apply Hc; [left; reflexivity|apply in_app_iff; right; left; reflexivity]. }
    assert (Hb : collect (bskip d) (iru (d_begin d) n (blk_events b) ++ iru (d_begin d) (n + List.length (blk_events b)) (flat pre) ++ rest) ds is =
       collect (bskip d) (iru (d_begin d) (n + List.length (blk_events b)) (flat pre) ++ rest) (ds ++ [fst b]) (is ++ seq n (List.length (blk_events b)))).
    { generalize (iru (d_begin d) (n + List.length (blk_events b)) (flat pre) ++ rest). intros rr.
      destruct b as [q e]. destruct Hbp as (Hn & Hbg & x & He & Hx). rewrite Hp in *. simpl in Hn, Hbg, He, Hx. subst e.
      unfold iru, blk_events. simpl. destruct (Z.leb_spec (d_begin q) (d_begin d)); [|lia].
      destruct (Z.leb_spec x (d_begin d)); [|lia]. simpl.
      assert (Hsk : forall k w l, bskip d (mkEvent k w q) l = false).
      { intros. unfold bskip, doc_eqb. simpl. lia. }
      unfold ev_begin. rewrite !Hsk. simpl.
      pose proof (Hds (q, Some x) (or_introl eq_refl)) as Hq. unfold docs_in in Hq. simpl in Hq. rewrite Hq.
      rewrite existsb_app. simpl. rewrite doc_same_refl, orb_true_r. rewrite <- app_assoc. reflexivity. }
    rewrite Hb. simpl in Hnd. inversion Hnd as [|? ? Hn1 Hn2]; subst. rewrite IH.
    + rewrite app_length, seq_app. rewrite <- !app_assoc. reflexivity.
    + change (b :: pre ++ [p]) with ([b] ++ (pre ++ [p])) in Hc. apply chain_app in Hc. tauto.
    + reflexivity.
    + assumption.
    + intros c Hc'. rewrite docs_in_app. rewrite (Hds c) by (right; assumption). simpl. rewrite orb_false_r.
      unfold doc_same. apply Z.eqb_neq. intros E. apply Hn1. apply in_map_iff. exists c. unfold bobj. auto.
Qed.

Lemma discard_before_blocks s pre d e post :
  rep s (pre ++ (d, e) :: post) -> (forall b, In b pre -> 0 <= d_begin (fst b)) ->
  discard_before s d =
  (set_disc (set_ends s ((d, e) :: post)) (rev (map (disc_entry 0) (map fst pre)) ++ q_disc s), Ok tt).
Proof.
  intros [Htl Hdocs Hc Hnd] Hpos. unfold discard_before. rewrite Htl.
  change (filter (fun p => ev_when (snd p) <=? d_begin d) (enum_from 0 (flat (pre ++ (d, e) :: post))))
    with (iru (d_begin d) 0 (flat (pre ++ (d, e) :: post))).
  change (fun it _ => _) with (bskip d).
  pose proof Hc as Hc'. apply chain_app in Hc. destruct Hc as (Hc1 & Hc2 & Hr).
  assert (Hpc : chain (pre ++ [(d, e)])).
  { change ((d, e) :: post) with ([(d, e)] ++ post) in Hc'. rewrite app_assoc in Hc'. apply chain_app in Hc'. tauto. }
  rewrite map_app in Hnd. simpl in Hnd.
  assert (Hndpre : NoDup (map bobj pre)).
  { clear - Hnd. induction pre as [|b pre IH]; [constructor|]. simpl in *. inversion Hnd as [|? ? H1 H2]; subst.
    constructor; [|auto]. intros H. apply H1. apply in_app_iff. auto. }
  rewrite flat_app, iru_app.
  rewrite (collect_before_pre d (d, e) pre 0 _ [] [] Hpc eq_refl Hndpre) by reflexivity.
  rewrite flat_cons, iru_app.
  assert (Hskip : forall n rest ds is, collect (bskip d) (iru (d_begin d) n (blk_events (d, e)) ++ rest) ds is = collect (bskip d) rest ds is).
  { intros n rest ds is. unfold iru, blk_events. simpl.
    assert (Hsk : forall k w l, bskip d (mkEvent k w d) l = true).
    { intros. unfold bskip, doc_eqb. simpl. apply Z.eqb_refl. }
    rewrite Z.leb_refl. destruct e as [x|]; simpl; [destruct (x <=? d_begin d)|]; simpl; unfold ev_begin; rewrite ?Hsk; reflexivity. }
  rewrite Hskip. rewrite collect_before_post.
  2:{ change ((d, e) :: post) with ([(d, e)] ++ post) in Hc2. apply chain_app in Hc2. tauto. }
  2:{ destruct Hc2 as [_ Hs]. inversion Hs as [|? ? _ Hf]; subst. eapply Forall_impl; [|exact Hf]. intros b Hb. destruct Hb as (_ & Hb & _). exact Hb. }
  rewrite !app_nil_l. rewrite discard_all_ok.
  2:{ intros x Hx. apply in_map_iff in Hx. destruct Hx as (b & <- & Hb). auto. }
  cbn [q_docs q_tl set_disc set_store]. rewrite Htl.
  assert (Hrm : remove_positions (seq 0 (List.length (flat pre))) (flat (pre ++ (d, e) :: post)) = flat ((d, e) :: post)).
  { rewrite flat_app. unfold remove_positions. rewrite enum_from_app, filter_app.
    rewrite filter_none; [rewrite filter_all; [rewrite app_nil_l; apply enum_from_snd|]|].
    - intros p Hp. apply negb_true_iff. destruct (existsb _ _) eqn:He; [exfalso|reflexivity].
      apply existsb_eqb_in in He. apply in_seq in He. apply enum_from_ge in Hp. lia.
    - intros p Hp. apply negb_false_iff. apply existsb_eqb_in. apply in_seq. pose proof (enum_from_lt _ _ _ Hp). lia. }
  rewrite Hrm.
  assert (Hdd : filter (fun x => negb (docs_in x (map fst pre))) (q_docs s) = map fst ((d, e) :: post)).
  { rewrite Hdocs, map_app, filter_app. rewrite filter_none; [rewrite filter_all; [reflexivity|]|].
    - intros x Hx. apply negb_true_iff. destruct (docs_in _ _) eqn:Hin; [exfalso|reflexivity].
      apply docs_in_spec in Hin. rewrite <- bobj_fst in Hin. apply (in_map d_obj) in Hx. rewrite <- bobj_fst in Hx.
      clear - Hnd Hin Hx. change (d_obj d :: map bobj post) with (map bobj ((d, e) :: post)) in Hnd.
      induction (map bobj pre) as [|y l IH]; [destruct Hin|]. simpl in Hnd. inversion Hnd as [|? ? H1 H2]; subst.
      destruct Hin as [Hy|Hin]; [|auto]. apply H1. rewrite Hy. apply in_app_iff. right. exact Hx.
    - intros x Hx. apply negb_false_iff. apply docs_in_spec. apply in_map. assumption. }
  rewrite Hdd. reflexivity.
Qed.

Lemma nodup_map_filter_num (f : document -> Z) p h : NoDup (map f h) -> NoDup (map f (filter p h)).
Proof. apply NoDup_map_filter. Qed.

Lemma scheduled_block a h s bs d :
  hinv a h s bs -> NoDup (map d_num h) -> scheduled h d -> exists e, In (d, e) bs.
Proof.
  intros Hi Hnn [Hd Hs]. destruct (hi_dom _ _ _ _ Hi d Hd) as ([b e] & Hb & H1 & H2). simpl in *.
  pose proof (hi_sub _ _ _ _ Hi _ Hb) as Hbh. simpl in Hbh.
  assert (b = d); [|subst; eauto].
  apply (nodup_inj d_num _ Hnn); try assumption. specialize (Hs b Hbh). lia.
Qed.

Lemma forget_step a h s bs d sid tb cm g :
  hinv a h s bs -> sane sid tb cm g s -> Forall doc_wf h -> NoDup (map d_num h) -> NoDup (map d_obj a) -> scheduled h d ->
  exists s' bs', discard_before s d = (s', Ok tt) /\ hinv a (live h (Forget d)) s' bs' /\ sane sid tb cm g s'
     /\ (forall b, In b bs' <-> In b bs /\ d_begin d <= d_begin (fst b)).
Proof.
  intros Hi Hsane Hwf Hnn Hno Hsch. destruct (scheduled_block _ _ _ _ _ Hi Hnn Hsch) as (e & Hin).
  pose proof Hi as [Hrep Hex Hincl Hsub Hdom Hlog Hdisc].
  destruct (in_split_unique _ _ (rep_chain _ _ Hrep) Hin) as (pre & post & -> & Hpre & Hpost).
  assert (Hpos : forall b, In b (pre ++ (d, e) :: post) -> 0 <= d_begin (fst b)).
  { intros b Hb. rewrite Forall_forall in Hwf. apply (Hwf (fst b)). apply Hsub. assumption. }
  rewrite (discard_before_blocks s pre d e post Hrep).
  2:{ intros b Hb. apply Hpos. apply in_app_iff. auto. }
  eexists _, ((d, e) :: post). split; [reflexivity|].
  assert (Hmem : forall b, In b ((d, e) :: post) <-> In b (pre ++ (d, e) :: post) /\ d_begin d <= d_begin (fst b)).
  { intros b. split.
    - intros Hb. split; [apply in_app_iff; auto|]. destruct Hb as [<-|Hb]; [simpl; lia|].
      specialize (Hpost b Hb). destruct Hpost as (_ & Hp & _). simpl in Hp. lia.
    - intros [Hb Hle]. apply in_app_iff in Hb. destruct Hb as [Hb|Hb]; [|assumption].
      specialize (Hpre b Hb). destruct Hpre as (_ & Hp & _). simpl in Hp. lia. }
  split; [|split; [exact Hsane|exact Hmem]].
  destruct Hrep as [Rtl Rdocs Rchain Robj].
  assert (Hlive : forall x, In x (live h (Forget d)) <-> In x h /\ d_begin d <= d_begin x).
  { intros x. unfold live. rewrite filter_In. rewrite Z.leb_le. reflexivity. }
  assert (Hdisj : forall b, In b pre -> ~ In (bobj b) (map bobj ((d, e) :: post))).
  { clear - Robj. rewrite map_app in Robj. generalize dependent (map bobj ((d, e) :: post)). intros l Hnd b Hb Hl.
    induction pre as [|c pre IH]; [destruct Hb|]. simpl in Hnd. inversion Hnd as [|? ? H1 H2]; subst.
    destruct Hb as [<-|Hb]; [|auto]. apply H1. apply in_app_iff. auto. }
  constructor.
  - constructor; try reflexivity.
    + apply chain_app in Rchain. tauto.
    + rewrite map_app in Robj. clear - Robj. induction (map bobj pre) as [|y l IH]; [exact Robj|].
      simpl in Robj. inversion Robj; auto.
  - intros p x Hp. apply Hmem in Hp. destruct Hp as [Hp Hpb]. destruct (Hex p x Hp) as [E|(q & eq & Hq & Hn & E & Hge)]; [auto|].
    right. exists q, eq. repeat split; try assumption. apply Hmem. split; [assumption|]. simpl in *.
    destruct (chain_order _ _ _ Rchain Hp Hq) as [Eq|[(_ & Eq & _)|(Eq & _)]]; simpl in *.
    + injection Eq as -> _. lia.
    + lia.
    + lia.
  - intros x Hx. apply Hlive in Hx. apply Hincl. tauto.
  - intros b Hb. apply Hmem in Hb. apply Hlive. destruct Hb as [Hb Hle]. split; [apply Hsub; assumption|assumption].
  - intros x Hx. apply Hlive in Hx. destruct Hx as [Hx Hle]. destruct (Hdom x Hx) as (b & Hb & H1 & H2).
    apply in_app_iff in Hb. destruct Hb as [Hb|Hb].
    + exists (d, e). split; [left; reflexivity|]. specialize (Hpre b Hb). destruct Hpre as (Hp & _). simpl in *. lia.
    + exists b. auto.
  - intros o x b Hb. simpl in Hb. rewrite in_app_iff in Hb. destruct Hb as [Hb|Hb].
    + rewrite <- in_rev, map_map in Hb. apply in_map_iff in Hb. destruct Hb as (c & Hc & Hcin).
      unfold disc_entry in Hc. injection Hc as <- <- <-. exists (fst c).
      assert (Hc' : In c (pre ++ (d, e) :: post)) by (apply in_app_iff; auto).
      repeat split; [apply Hincl, Hsub; assumption|apply Hpos; assumption|]. apply Hdisj. assumption.
    + destruct (Hlog _ _ _ Hb) as (y & Hy & H1 & H2 & H3 & H4). exists y. repeat split; try assumption.
      intros Hn. apply H4. rewrite map_app, in_app_iff. auto.
  - intros x Hx. apply Hlive in Hx. destruct Hx as [Hx Hle]. destruct (Hdisc x Hx) as [Hb|(y & Hy)].
    + left. apply in_map_iff in Hb. destruct Hb as (c & Hc & Hcin).
      assert (fst c = x).
      { apply (nodup_inj d_obj _ Hno); [apply Hincl, Hsub; assumption|apply Hincl; assumption|exact Hc]. }
      rewrite <- Hc. apply in_map. apply Hmem. subst x. auto.
    + right. exists y. simpl. apply in_app_iff. auto.
Qed.

(** * Interleaved histories *)

Lemma NoDup_app_l {A} (a b : list A) : NoDup (a ++ b) -> NoDup a.
Proof.
  induction a as [|x a IH]; simpl; intros H; [constructor|]. inversion H as [|? ? H1 H2]; subst. constructor; [|auto].
  intros Hi. apply H1. apply in_app_iff. auto.
Qed.

Lemma NoDup_snoc {A} (a : list A) x : NoDup a -> ~ In x a -> NoDup (a ++ [x]).
Proof. intros H1 H2. apply NoDup_Add with (a := x) (l := a); [|auto]. rewrite <- (app_nil_r a) at 1. apply Add_app. Qed.

(** What is known after a history. *)
Record known (a h : list document) sid tb cm g (s : seqstate) (bs : list block) : Prop := {
  kn_hinv : hinv a h s bs;
  kn_sane : sane sid tb cm g s;
  kn_wf : Forall doc_wf h;
  kn_num : NoDup (map d_num h);
  kn_obj : NoDup (map d_obj a) }.

Lemma run_ops_known sid tb cm g ops : forall a h s bs,
  known a h sid tb cm g s bs -> Forall (op_belongs sid tb cm g) ops -> ops_ok a h ops ->
  exists s' os a' bs', run_ops s ops = (s', os) /\ Forall not_error os /\ known a' (live_after h ops) sid tb cm g s' bs'.
Proof.
  induction ops as [|op ops IH]; intros a h s bs Hk Hb Hok.
  - exists s, [], a, bs. auto.
  - inversion Hb as [|? ? Hb1 Hb2]; subst. destruct Hk as [Hi Hs Hw Hn Ho]. destruct op as [d|d]; simpl in Hok.
    + destruct Hok as (Hwd & Hl & Hnd & Hod & Hok).
      destruct (add_step sid tb cm g a h s bs d Hi Hs Hb1 Hwd Ho Hod Hnd Hl) as (s1 & o & bs1 & Hadd & Hi1 & Hs1 & Hoc).
      destruct (IH (a ++ [d]) (h ++ [d]) s1 bs1) as (s2 & os & a2 & bs2 & Hrun & Hne & Hk2).
      * constructor; try assumption.
        -- apply Forall_app. auto.
        -- rewrite map_app. apply NoDup_snoc; assumption.
        -- rewrite map_app. apply NoDup_snoc; assumption.
      * assumption.
      * assumption.
      * exists s2, (o :: os), a2, bs2. simpl. rewrite Hadd, Hrun. split; [reflexivity|]. split; [|assumption].
        constructor; [|assumption]. destruct Hoc as [[-> _]|[-> _]]; exact I.
    + destruct Hok as (Hsch & Hok).
      destruct (forget_step a h s bs d sid tb cm g Hi Hs Hw Hn Ho Hsch) as (s1 & bs1 & Hrun1 & Hi1 & Hs1 & _).
      destruct (IH a (live h (Forget d)) s1 bs1) as (s2 & os & a2 & bs2 & Hrun & Hne & Hk2).
      * constructor; try assumption.
        -- unfold live. apply Forall_forall. intros x Hx. apply filter_In in Hx. rewrite Forall_forall in Hw. apply Hw. tauto.
        -- unfold live. apply nodup_map_filter_num. assumption.
      * assumption.
      * assumption.
      * exists s2, (ODiscarded :: os), a2, bs2. simpl. rewrite Hrun1, Hrun. split; [reflexivity|]. split; [|assumption].
        constructor; [exact I|assumption].
Qed.

Lemma known_new sid tb cm agid g : agid = None \/ agid = Some g -> known [] [] sid tb cm g (new_sequence sid tb cm agid) [].
Proof. intros H. constructor; try constructor; try apply hinv_new; auto. Qed.

Lemma known_presented a h sid tb cm g s bs t d :
  known a h sid tb cm g s bs -> In d h -> (presented s t d <-> active h t d).
Proof. intros [Hi Hs Hw Hn Ho] Hd. eapply hinv_presented; eassumption. Qed.

(** Ends are never the time origin, so resolved_end_time reports them. *)
Lemma known_ends a h sid tb cm g s bs p e :
  known a h sid tb cm g s bs -> In (p, e) bs -> forall x, e = Some x -> x <> 0.
Proof.
  intros [Hi Hs Hw Hn Ho] Hin x -> Hx. subst x. rewrite Forall_forall in Hw.
  pose proof (hi_sub _ _ _ _ Hi _ Hin) as Hd. simpl in Hd.
  destruct (hi_exact _ _ _ _ Hi _ _ Hin) as [He|(q & eq & Hq & Hnq & He & _)].
  - destruct (Hw p Hd) as [_ Hwp]. rewrite <- He in Hwp. lia.
  - injection He as He. destruct (chain_order _ _ _ (rep_chain _ _ (hi_rep _ _ _ _ Hi)) Hin Hq) as [E|[(_ & E & _)|(E & _)]]; simpl in *.
    + injection E as -> _. lia.
    + destruct (Hw p Hd) as [Hwp _]. lia.
    + lia.
Qed.

Lemma known_resolved a h sid tb cm g s bs p e :
  known a h sid tb cm g s bs -> In (p, e) bs ->
  resolved_begin s p = Ok (d_begin p) /\ resolved_end s p = Ok e.
Proof.
  intros Hk Hin. pose proof (kn_hinv _ _ _ _ _ _ _ _ Hk) as Hi. split.
  - exact (hinv_resolved_begin _ _ _ _ _ Hi Hin).
  - apply (hinv_resolved_end _ _ _ _ _ _ Hi Hin). eapply known_ends; eassumption.
Qed.

(** * lookup_range_on_timeline *)

Definition sel (b e : option Z) (k : block) : bool :=
  match e with Some y => d_begin (fst k) <? y | None => true end
  && match b, snd k with Some x, Some z => x <? z | _, _ => true end.

Lemma irange_upto_app {A} e (l1 l2 : list (event A)) : irange_upto e (l1 ++ l2) = irange_upto e l1 ++ irange_upto e l2.
Proof. destruct e; simpl; [apply filter_app|reflexivity]. Qed.

Lemma remove_first_snoc (p : document) acc :
  (forall a, In a acc -> d_num a <> d_num p) -> remove_first (fun y => doc_eqb p y) (acc ++ [p]) = acc.
Proof.
  induction acc as [|a acc IH]; simpl; intros H.
  - unfold doc_eqb. rewrite Z.eqb_refl. reflexivity.
  - unfold doc_eqb at 1. destruct (Z.eqb_spec (d_num p) (d_num a)) as [E|]; [exfalso; apply (H a); auto|].
    rewrite IH by auto. reflexivity.
Qed.

Lemma lookup_block b e k rest acc :
  okb k -> bounds_ok b e -> (forall a, In a acc -> d_num a <> d_num (fst k)) ->
  lookup_loop doc_eqb b e (irange_upto e (blk_events k) ++ rest) acc =
  lookup_loop doc_eqb b e rest (acc ++ if sel b e k then [fst k] else []).
Proof.
  intros Hok Hbe Hacc. destruct k as [p x]. unfold okb, sel, blk_events in *. simpl in Hok. simpl fst in *. simpl snd in *.
  assert (Hex : forall l, l = acc ->
    existsb (fun y => doc_eqb p y) l = false).
  { intros l ->. destruct (existsb _ _) eqn:E; [|reflexivity]. apply existsb_exists in E. destruct E as (y & Hy & E).
    unfold doc_eqb in E. apply Z.eqb_eq in E. exfalso. apply (Hacc y); auto. }
  assert (Hex2 : existsb (fun y => doc_eqb p y) (acc ++ [p]) = true).
  { rewrite existsb_app. simpl. unfold doc_eqb at 2. rewrite Z.eqb_refl. apply orb_true_r. }
  pose proof (remove_first_snoc p acc Hacc) as Hrf.
  destruct e as [y|].
  - simpl irange_upto. destruct (Z.leb_spec (d_begin p) y) as [Hle|Hgt].
    + destruct (Z.ltb_spec (d_begin p) y) as [Hlt|Hge]; simpl.
      * destruct (Z.eqb_spec (d_begin p) y); [lia|]. simpl.
        destruct x as [x|]; simpl.
        -- destruct (Z.leb_spec x y) as [Hxy|Hxy]; simpl.
           ++ destruct b as [b|]; simpl.
              ** destruct (Z.leb_spec x b), (Z.ltb_spec b x); try lia.
                 --- rewrite Hex2, Hrf, app_nil_r. reflexivity.
                 --- reflexivity.
              ** reflexivity.
           ++ destruct b as [b|]; simpl in *; [|reflexivity]. destruct (Z.ltb_spec b x); [reflexivity|lia].
        -- destruct b; reflexivity.
      * destruct (Z.eqb_spec (d_begin p) y); [|lia]. simpl. rewrite app_nil_r.
        destruct x as [x|]; simpl; [|reflexivity]. destruct (x <=? y); simpl; [|reflexivity].
        destruct b as [b|]; simpl; [|reflexivity]. destruct (x <=? b); [|reflexivity]. rewrite Hex by reflexivity. reflexivity.
    + destruct (Z.ltb_spec (d_begin p) y); [lia|]. simpl. rewrite app_nil_r.
      destruct x as [x|]; simpl; [|reflexivity]. destruct (Z.leb_spec x y); [lia|reflexivity].
  - simpl. destruct x as [x|]; simpl.
    + destruct b as [b|]; simpl; [|reflexivity]. destruct (Z.leb_spec x b), (Z.ltb_spec b x); try lia.
      * rewrite Hex2, Hrf, app_nil_r. reflexivity.
      * reflexivity.
    + destruct b; reflexivity.
Qed.

Lemma lookup_blocks b e bs : forall acc,
  chain bs -> bounds_ok b e -> (forall a k, In a acc -> In k bs -> d_num a <> d_num (fst k)) ->
  lookup_loop doc_eqb b e (irange_upto e (flat bs)) acc = acc ++ map fst (filter (sel b e) bs).
Proof.
  induction bs as [|k bs IH]; intros acc Hc Hbe Hacc.
  - destruct e; simpl; rewrite app_nil_r; reflexivity.
  - rewrite flat_cons, irange_upto_app. change (k :: bs) with ([k] ++ bs) in Hc. apply chain_app in Hc.
    destruct Hc as ([Hok _] & Hc & Hr). inversion Hok as [|? ? Hk _]; subst.
    rewrite lookup_block; [|assumption|assumption|intros a Ha; apply Hacc; [assumption|left; reflexivity]].
    rewrite IH; [|assumption|assumption|].
    + cbn [filter]. destruct (sel b e k); simpl; rewrite <- app_assoc; reflexivity.
    + intros a k' Ha Hk'. apply in_app_iff in Ha. destruct Ha as [Ha|Ha]; [apply Hacc; [assumption|right; assumption]|].
      destruct (sel b e k); [|destruct Ha]. destruct Ha as [<-|[]].
      specialize (Hr k k' (or_introl eq_refl) Hk'). destruct Hr as (Hr & _). lia.
Qed.

Lemma known_lookup a h sid tb cm g s bs b e :
  known a h sid tb cm g s bs -> bounds_ok b e ->
  lookup_range doc_eqb (q_tl s) b e = map fst (filter (sel b e) bs).
Proof.
  intros [Hi _ _ _ _] Hbe. unfold lookup_range. rewrite (rep_tl _ _ (hi_rep _ _ _ _ Hi)).
  rewrite lookup_blocks; [reflexivity|apply (hi_rep _ _ _ _ Hi)|assumption|intros ? ? []].
Qed.

From Coq Require Import Sorting.Sorted.

Lemma known_lookup_spec a h sid tb cm g s bs b e :
  known a h sid tb cm g s bs -> bounds_ok b e ->
  (forall d, In d (lookup_range doc_eqb (q_tl s) b e) <-> In d (q_docs s) /\ overlaps s b e d)
  /\ StronglySorted (fun x y => d_begin x < d_begin y) (lookup_range doc_eqb (q_tl s) b e).
Proof.
  intros Hk Hbe. rewrite (known_lookup _ _ _ _ _ _ _ _ _ _ Hk Hbe).
  pose proof (hi_rep _ _ _ _ (kn_hinv _ _ _ _ _ _ _ _ Hk)) as [_ Hdocs Hc _]. split.
  - intros d. rewrite Hdocs. rewrite in_map_iff. split.
    + intros ([p x] & Hp & Hin). simpl in Hp. subst p. apply filter_In in Hin. destruct Hin as [Hin Hsel].
      split; [apply (in_map fst) in Hin; exact Hin|].
      destruct (known_resolved _ _ _ _ _ _ _ _ _ _ Hk Hin) as [H1 H2]. exists (d_begin d), x. repeat split; try assumption.
      * unfold sel in Hsel. simpl in Hsel. unfold before_end. destruct e; [lia|exact I].
      * unfold sel in Hsel. simpl in Hsel. destruct x as [x|], b as [b|]; try exact I. lia.
    + intros [Hin (rb & re & H1 & H2 & H3 & H4)]. apply in_map_iff in Hin. destruct Hin as ([p x] & Hp & Hin). simpl in Hp. subst p.
      destruct (known_resolved _ _ _ _ _ _ _ _ _ _ Hk Hin) as [E1 E2]. rewrite E1 in H1. rewrite E2 in H2.
      injection H1 as <-. injection H2 as <-. exists (d, x). split; [reflexivity|]. apply filter_In. split; [assumption|].
      unfold sel. simpl. unfold before_end in H3. destruct e as [e|], b as [b|], x as [x|]; simpl; lia.
  - pose proof (chain_filter (sel b e) bs Hc) as [_ Hs]. induction Hs as [|k l Hs IH Hf]; simpl; constructor; [assumption|].
    apply Forall_forall. intros y Hy. apply in_map_iff in Hy. destruct Hy as (z & <- & Hz).
    eapply Forall_forall in Hf; [|exact Hz]. apply Hf.
Qed.

(** * Segment windows *)

Definition clip (x e : option Z) : option Z :=
  match e with
  | None => x
  | Some y => match x with None => Some y | Some z => if y <? z then Some y else Some z end
  end.

Fixpoint win (l : list block) (b e : option Z) : list (document * option Z * option Z) :=
  match l with
  | [] => []
  | (p, x) :: r => (p, b, clip x e) :: win r (clip x e) e
  end.

Lemma extract_windows_win s l : forall b e,
  (forall p x, In (p, x) l -> resolved_end s p = Ok x) ->
  extract_windows s (map fst l) b e = Ok (win l b e).
Proof.
  induction l as [|[p x] l IH]; intros b e H; [reflexivity|].
  simpl. rewrite (H p x) by (left; reflexivity). fold (clip x e).
  rewrite IH by (intros q y Hq; apply H; right; assumption). reflexivity.
Qed.

Lemma win_tiles b e l :
  chain l -> Forall (fun k => sel b e k = true) l -> forall b0, bounds_ok b0 e ->
  (match l with [] => True | k :: _ => match b0, snd k with Some x, Some z => x <= z | _, _ => True end end) ->
  tiles b0 e (win l b0 e).
Proof.
  induction l as [|[p x] l IH]; intros Hc Hs b0 Hb0 Hb; [exact I|].
  change ((p, x) :: l) with ([(p, x)] ++ l) in Hc. apply chain_app in Hc. destruct Hc as (_ & Hc & Hr).
  inversion Hs as [|? ? Hs1 Hs2]; subst. simpl in Hb. unfold sel in Hs1. simpl in Hs1.
  simpl. split; [reflexivity|]. split; [|split; [|split]].
  - unfold bounds_ok, clip in *. destruct b0 as [b0|]; [|exact I]. destruct e as [e|], x as [x|]; try exact I; try lia.
    destruct (e <? x); lia.
  - unfold clip. destruct e as [e|]; [|destruct x; exact I]. destruct x as [x|]; [destruct (Z.ltb_spec e x)|]; lia.
  - intros Hnone. destruct l as [|[q y] l]; [reflexivity|exfalso].
    specialize (Hr (p, x) (q, y) (or_introl eq_refl) (or_introl eq_refl)). destruct Hr as (_ & _ & z & Hz & _). simpl in Hz.
    subst x. unfold clip in Hnone. destruct e as [e|]; [|discriminate]. destruct (e <? z); discriminate.
  - apply IH; try assumption.
    + unfold bounds_ok, clip. destruct e as [e|]; [|destruct x; exact I]. destruct x as [x|]; [destruct (Z.ltb_spec e x)|]; lia.
    + destruct l as [|[q y] l]; [exact I|]. simpl.
      specialize (Hr (p, x) (q, y) (or_introl eq_refl) (or_introl eq_refl)). destruct Hr as (_ & _ & z & Hz & Hzq). simpl in Hz, Hzq.
      subst x. inversion Hs2 as [|? ? Hs3 _]; subst. unfold sel in Hs3. simpl in Hs3.
      destruct Hc as [Hok _]. inversion Hok as [|? ? Hoq _]; subst. unfold okb in Hoq. simpl in Hoq.
      destruct y as [y|]; [|destruct (clip _ _); exact I]. unfold clip. destruct e as [e|]; [destruct (Z.ltb_spec e z)|]; lia.
Qed.

Lemma win_cover e l t d x :
  chain l -> forall b0, In (d, x) l -> d_begin d <= t -> before_end t x -> before_end t e ->
  after_begin b0 t ->
  exists wb we, In (d, wb, we) (win l b0 e) /\ after_begin wb t /\ before_end t we.
Proof.
  induction l as [|[p y] l IH]; intros Hc b0 Hin Hb Hx He Hb0; [destruct Hin|].
  change ((p, y) :: l) with ([(p, y)] ++ l) in Hc. apply chain_app in Hc. destruct Hc as (_ & Hc & Hr).
  destruct Hin as [Hin|Hin].
  - injection Hin as -> ->. exists b0, (clip x e). split; [left; reflexivity|]. split; [assumption|].
    unfold before_end, clip in *. destruct e as [e|], x as [x|]; try assumption. destruct (e <? x); assumption.
  - destruct (IH Hc (clip y e) Hin Hb Hx He) as (wb & we & H1 & H2 & H3).
    + specialize (Hr (p, y) (d, x) (or_introl eq_refl) Hin). destruct Hr as (_ & _ & z & Hz & Hzq). simpl in *. subst y.
      unfold after_begin, clip. destruct e as [e|]; [destruct (Z.ltb_spec e z)|]; lia.
    + exists wb, we. split; [right; assumption|auto].
Qed.

Lemma known_windows a h sid tb cm g s bs b e :
  known a h sid tb cm g s bs -> bounds_ok b e ->
  exists ws, extract_windows s (lookup_range doc_eqb (q_tl s) b e) b e = Ok ws
    /\ tiles b e ws
    /\ forall t d, In d h -> after_begin b t -> before_end t e -> presented s t d ->
         exists wb we, In (d, wb, we) ws /\ after_begin wb t /\ before_end t we.
Proof.
  intros Hk Hbe. rewrite (known_lookup _ _ _ _ _ _ _ _ _ _ Hk Hbe).
  pose proof (hi_rep _ _ _ _ (kn_hinv _ _ _ _ _ _ _ _ Hk)) as [_ Hdocs Hc _].
  exists (win (filter (sel b e) bs) b e). split; [|split].
  - apply extract_windows_win. intros p x Hin. apply filter_In in Hin. eapply known_resolved; [eassumption|apply Hin].
  - apply win_tiles with (b := b).
    + apply chain_filter; assumption.
    + apply Forall_forall. intros k Hin. apply filter_In in Hin. tauto.
    + assumption.
    + destruct (filter (sel b e) bs) as [|[p x] l] eqn:Hf; [exact I|].
      assert (Hin : In (p, x) (filter (sel b e) bs)) by (rewrite Hf; left; reflexivity).
      apply filter_In in Hin. destruct Hin as [_ Hs]. unfold sel in Hs. simpl in *. destruct b as [b|], x as [x|]; try exact I. lia.
  - intros t d Hd Hb He Hp.
    pose proof Hp as Hp'.
    destruct Hp as (rb & re & H1 & H2 & H3 & H4).
    pose proof (kn_hinv _ _ _ _ _ _ _ _ Hk) as Hi.
    (* d is stored, otherwise it could not be presented *)
    assert (Hst : exists x, In (d, x) bs).
    { destruct (hi_disc _ _ _ _ Hi d Hd) as [Hin|(y & Hin)].
      - apply in_map_iff in Hin. destruct Hin as ([d1 x] & Ho & Hin). exists x.
        assert (d1 = d); [|subst; assumption].
        apply (nodup_inj d_obj _ (kn_obj _ _ _ _ _ _ _ _ Hk)); [apply (hi_incl _ _ _ _ Hi), (hi_sub _ _ _ _ Hi _ Hin)|apply (hi_incl _ _ _ _ Hi); assumption|exact Ho].
      - exfalso. assert (Hexi : exists e b, In (d_obj d, e, b) (q_disc s)) by eauto.
        destruct (disc_lookup_some s d Hexi) as (e' & b' & Hl & Hin').
        destruct (hi_log _ _ _ _ Hi _ _ _ Hin') as (_ & _ & _ & _ & Hle & _).
        unfold resolved_begin in H1. unfold resolved_end in H2. rewrite Hl in H1, H2. injection H1 as <-. injection H2 as <-. lia. }
    destruct Hst as (x & Hin). destruct (known_resolved _ _ _ _ _ _ _ _ _ _ Hk Hin) as [E1 E2].
    rewrite E1 in H1. rewrite E2 in H2. injection H1 as <-. injection H2 as <-.
    apply win_cover with (x := x); try assumption.
    + apply chain_filter; assumption.
    + apply filter_In. split; [assumption|]. unfold sel. simpl. unfold before_end, after_begin in *.
      destruct e as [e|], b as [b|], x as [x|]; simpl; lia.
Qed.
