(** Histories of documents in any order: proofs. *)
From Verif Require Import SequenceModel SequenceSpec SequenceProofs SequenceHistory OrderSpec OrderProofs.
From Coq Require Import Sorting.Sorted ZifyBool ZifyNat.
Open Scope Z_scope.

Notation sorted := (StronglySorted ev_le).

Lemma nodup_right {A} (a b : list A) : NoDup (a ++ b) -> NoDup b.
Proof. induction a as [|x a IH]; intros H; [exact H|]. inversion H; auto. Qed.

Lemma nodup_left {A} (a b : list A) : NoDup (a ++ b) -> NoDup a.
Proof.
  induction a as [|x a IH]; intros H; [constructor|]. inversion H as [|? ? Hn Hd]; subst. constructor; [|auto].
  intros X. apply Hn, in_app_iff. auto.
Qed.

(** * Overriding *)

Definition killed (d x : document) : bool := okill d (x, None).

Lemma docs_in_iff U x ds : NoDup (map d_obj U) -> In x U -> incl ds U -> (docs_in x ds = true <-> In x ds).
Proof.
  intros N Hx Hi. rewrite docs_in_spec. split; [|apply in_map].
  intros H. apply in_map_iff in H. destruct H as (y & Hy & Hin).
  rewrite <- (nodup_inj d_obj U N y x); auto.
Qed.

Lemma collect_killed U d : NoDup (map d_obj U) -> forall evs ds is,
  incl ds U ->
  (forall q, In q evs -> In (ev_elem (snd q)) U) ->
  (forall q, In q evs -> ev_kind (snd q) = KBegin -> killed d (ev_elem (snd q)) = (d_num (ev_elem (snd q)) <? d_num d)) ->
  (forall a q b, evs = a ++ q :: b -> killed d (ev_elem (snd q)) = true -> ev_kind (snd q) = KEnd ->
     In (ev_elem (snd q)) ds \/ exists j, In (j, ev_begin (ev_elem (snd q))) a) ->
  (forall x, In x ds -> killed d x = true) ->
  NoDup (ds ++ map ev_elem (filter is_begin (map snd evs))) ->
  collect (oskip d) evs ds is =
  (ds ++ filter (killed d) (map ev_elem (filter is_begin (map snd evs))),
   is ++ map fst (filter (fun q => killed d (ev_elem (snd q))) evs)).
Proof.
  intros N. induction evs as [|[i it] evs IH]; intros ds is Hi Hu Hb Hf Hk Hn.
  - simpl. rewrite !app_nil_r. reflexivity.
  - assert (Hu0 : In (ev_elem it) U) by (apply (Hu (i, it)); left; reflexivity).
    assert (KN : killed d (ev_elem it) = true -> d_num (ev_elem it) < d_num d) by (unfold killed, okill; simpl; lia).
    pose proof (docs_in_iff U (ev_elem it) ds N Hu0 Hi) as DI. unfold docs_in in DI.
    assert (IH' : forall ds' is', incl ds' U -> (forall x, In x ds' -> killed d x = true) -> incl ds ds' ->
       (killed d (ev_elem it) = true -> ev_kind it = KBegin -> In (ev_elem it) ds') ->
       NoDup (ds' ++ map ev_elem (filter is_begin (map snd evs))) ->
       collect (oskip d) evs ds' is' = (ds' ++ filter (killed d) (map ev_elem (filter is_begin (map snd evs))),
         is' ++ map fst (filter (fun q => killed d (ev_elem (snd q))) evs))).
    { intros ds' is' H1 H2 H3 H4 H5. apply IH; auto.
      - intros q Hq. apply Hu. right. assumption.
      - intros q Hq. apply Hb. right. assumption.
      - intros a q b E Kq Eq. destruct (Hf ((i, it) :: a) q b) as [X|(j & [X|X])]; auto.
        + rewrite E. reflexivity.
        + injection X as <- X. left. rewrite X in H4. simpl in H4. apply H4; auto.
        + right. exists j. assumption. }
    simpl collect. unfold oskip at 1.
    destruct (ev_kind it) eqn:K.
    + (* a begin *)
      pose proof (Hb (i, it) (or_introl eq_refl) K) as Hb0. simpl in Hb0.
      assert (IB : is_begin it = true) by (unfold is_begin; rewrite K; reflexivity).
      rewrite IB. simpl negb. rewrite andb_false_l, orb_false_r.
      simpl map in *. simpl filter in *. rewrite IB in *. simpl map in *. simpl filter. rewrite Hb0.
      assert (Hnot : ~ In (ev_elem it) ds).
      { intros Hin. simpl in Hn. apply NoDup_remove_2 in Hn. apply Hn. apply in_app_iff. left. assumption. }
      destruct (existsb (doc_same (ev_elem it)) ds) eqn:Hd; [exfalso; apply Hnot, DI; reflexivity|].
      destruct (Z.ltb_spec (d_num (ev_elem it)) (d_num d)) as [Hlt|Hge]; simpl negb; cbv iota.
      * rewrite IH'.
        -- simpl map. rewrite <- !app_assoc. reflexivity.
        -- apply incl_app; [assumption|]. intros x [<-|[]]. assumption.
        -- intros x Hx. apply in_app_iff in Hx. destruct Hx as [Hx|[<-|[]]]; auto.
        -- apply incl_appl, incl_refl.
        -- intros _ _. apply in_app_iff. right. left. reflexivity.
        -- rewrite <- app_assoc. exact Hn.
      * rewrite IH'; auto.
        -- apply incl_refl.
        -- rewrite Hb0. discriminate.
        -- simpl in Hn. apply NoDup_remove_1 in Hn. exact Hn.
    + (* an end *)
      assert (IB : is_begin it = false) by (unfold is_begin; rewrite K; reflexivity).
      rewrite IB. simpl negb. rewrite andb_true_l.
      simpl map in *. simpl filter in *. rewrite IB in *.
      destruct (killed d (ev_elem it)) eqn:Kd.
      * assert (Hin : In (ev_elem it) ds).
        { destruct (Hf [] (i, it) evs) as [X|(j & [])]; auto. }
        rewrite (proj2 DI Hin). specialize (KN eq_refl). destruct (Z.ltb_spec (d_num (ev_elem it)) (d_num d)); [|lia]. simpl orb. cbv iota.
        rewrite IH'; auto; [|apply incl_refl]. simpl map. rewrite <- !app_assoc. reflexivity.
      * assert (Hnot : existsb (doc_same (ev_elem it)) ds = false).
        { destruct (existsb (doc_same (ev_elem it)) ds) eqn:Hd; [|reflexivity]. exfalso. rewrite (Hk (ev_elem it)) in Kd; [discriminate|]. apply DI. reflexivity. }
        rewrite Hnot. simpl negb. rewrite orb_true_r. cbv iota. rewrite IH'; auto; [apply incl_refl|discriminate].
Qed.

Lemma remove_positions_filter {A} (f : A -> bool) (l : list A) is :
  (forall q, In q (enum_from 0 l) -> (In (fst q) is <-> f (snd q) = true)) ->
  remove_positions is l = filter (fun x => negb (f x)) l.
Proof.
  intros H. unfold remove_positions. rewrite <- (filter_enum (fun x => negb (f x)) l 0). f_equal. apply filter_ext_in.
  intros q Hq. specialize (H q Hq). rewrite <- existsb_eqb_in in H. destruct (existsb _ _), (f (snd q)); intuition congruence.
Qed.

Lemma map_filter_comm {A B} (f : A -> B) (p : B -> bool) l : filter p (map f l) = map f (filter (fun x => p (f x)) l).
Proof. induction l as [|x l IH]; simpl; [reflexivity|]. destruct (p (f x)); simpl; rewrite IH; reflexivity. Qed.

Lemma filter_comm {A} (f g : A -> bool) l : filter f (filter g l) = filter g (filter f l).
Proof.
  induction l as [|x l IH]; simpl; [reflexivity|]. destruct (g x) eqn:G, (f x) eqn:F; simpl; rewrite ?G, ?F, IH; reflexivity.
Qed.

Lemma okill_killed d b : okill d b = killed d (fst b).
Proof. reflexivity. Qed.

Definition keep (d : document) (b : block) : bool := negb (okill d b).

Lemma override_any s d bs :
  tinv (q_tl s) bs -> q_docs s = map fst bs ->
  override_sequence s d =
  (set_disc (set_store s (map fst (filter (keep d) bs)) (filter (fun e => negb (killed d (ev_elem e))) (q_tl s)))
            (rev (map (disc_entry (d_begin d)) (map fst (filter (okill d) bs))) ++ q_disc s), Ok tt)
  /\ tinv (filter (fun e => negb (killed d (ev_elem e))) (q_tl s)) (filter (keep d) bs).
Proof.
  intros T Hdocs. split.
  - assert (LATE : forall ev, In ev (q_tl s) -> killed d (ev_elem ev) = true -> d_begin d <= ev_when ev).
    { intros ev H K. pose proof (tinv_late _ _ _ T H). unfold killed, okill in K. simpl in K. lia. }
    assert (NU : NoDup (map d_obj (map fst bs))) by (rewrite <- bobj_fst; apply (t_obj _ _ T)).
    assert (BG : exists pre2 post2, bs = pre2 ++ post2 /\ Forall (fun b => d_begin (fst b) <= d_begin d - 1) pre2 /\
             filter is_begin (map snd (irange_from (d_begin d) (q_tl s))) = map evb post2).
    { destruct (tinv_split _ _ (d_begin d - 1) T) as (F & R & p2 & q2 & Etl & E2 & HF & HR & Hp & Hq & BF & BR).
      exists p2, q2. split; [assumption|]. split; [assumption|].
      unfold irange_from. rewrite (filter_enum (fun e => d_begin d <=? ev_when e)). rewrite Etl, filter_app, (filter_none _ F), (filter_all _ R); [exact BR| |].
      + intros x Hx. specialize (HR x Hx). lia.
      + intros x Hx. specialize (HF x Hx). lia. }
    destruct BG as (pre2 & post2 & E2 & Hpre2 & BG).
    assert (EL : map ev_elem (map evb post2) = map fst post2) by (rewrite map_map; reflexivity).
    assert (IR : forall q, In q (irange_from (d_begin d) (q_tl s)) -> In (snd q) (q_tl s) /\ d_begin d <= ev_when (snd q)).
    { intros [i q] Hq. unfold irange_from in Hq. apply filter_In in Hq. destruct Hq as [Hq Hw]. simpl in *.
      pose proof (in_enum_snd _ _ _ Hq) as H1. simpl in H1. split; [assumption|lia]. }
    unfold override_sequence.
    change (fun it ds => negb (d_num (ev_elem it) <? d_num d) || negb (is_begin it) && negb (existsb (doc_same (ev_elem it)) ds)) with (oskip d).
    rewrite (collect_killed (map fst bs) d NU).
    + rewrite !app_nil_l, BG, EL.
      assert (KD : filter (killed d) (map fst post2) = map fst (filter (okill d) bs)).
      { rewrite map_filter_comm, E2, filter_app. rewrite (filter_none _ pre2); [reflexivity|].
        intros b Hb. rewrite Forall_forall in Hpre2. specialize (Hpre2 b Hb). simpl in Hpre2. unfold okill. lia. }
      rewrite KD, discard_all_ok.
      2:{ intros x Hx. apply in_map_iff in Hx. destruct Hx as (b & <- & Hb). apply filter_In in Hb.
          destruct Hb as [_ Hb]. unfold okill in Hb. lia. }
      rewrite Hdocs, filter_docs_kill by (apply (t_obj _ _ T)).
      unfold set_store, set_disc. simpl. f_equal. f_equal. apply remove_positions_filter.
      intros q Hq. split.
      * intros H. apply in_map_iff in H. destruct H as (q' & Hf & Hin). apply filter_In in Hin. destruct Hin as [Hin Hk].
        unfold irange_from in Hin. apply filter_In in Hin. destruct Hin as [Hin _].
        destruct q as [i x], q' as [i' x']. simpl in *. subst i'. rewrite (enum_fst_inj _ _ _ _ _ Hq Hin). assumption.
      * intros Hk. apply in_map. apply filter_In. split; [|assumption]. unfold irange_from. apply filter_In. split; [assumption|].
        apply in_enum_snd in Hq. specialize (LATE _ Hq Hk). lia.
    + intros x [].
    + intros q Hq. apply (t_elem _ _ T). apply IR. assumption.
    + intros q Hq K. destruct (IR q Hq) as [H1 H2]. destruct (tinv_begin _ _ _ T H1 K) as (b & _ & E).
      rewrite E in *. unfold evb in *. simpl in *. unfold killed, okill. simpl. lia.
    + intros a q b E Kq Eq. right.
      assert (E' : map snd (irange_from (d_begin d) (q_tl s)) = map snd a ++ snd q :: map snd b) by (rewrite E, map_app; reflexivity).
      unfold irange_from in E'. rewrite (filter_enum (fun e => d_begin d <=? ev_when e)) in E'.
      destruct (filter_split _ _ _ _ _ E') as (m1 & m2 & Em & Ef).
      pose proof (t_first _ _ T _ _ _ Em Eq) as B.
      assert (X : In (ev_begin (ev_elem (snd q))) (map snd a)).
      { rewrite <- Ef. apply filter_In. split; [assumption|]. simpl. unfold killed, okill in Kq. simpl in Kq. lia. }
      apply in_map_iff in X. destruct X as ([j ev] & Hev & Hin). simpl in Hev. exists j. rewrite <- Hev. assumption.
    + intros x [].
    + simpl. rewrite BG, EL. rewrite E2, map_app in NU. apply (NoDup_map_inv d_obj). rewrite map_app in NU.
      apply nodup_right in NU. assumption.
  - set (f := fun e : event document => negb (killed d (ev_elem e))).
    assert (IN : forall ev, In ev (filter f (q_tl s)) <-> In ev (q_tl s) /\ killed d (ev_elem ev) = false).
    { intros ev. rewrite filter_In. unfold f. rewrite negb_true_iff. reflexivity. }
    constructor.
    + apply StronglySorted_filter. apply (t_sorted _ _ T).
    + apply chain_filter. apply (t_chain _ _ T).
    + apply NoDup_map_filter. apply (t_obj _ _ T).
    + rewrite filter_comm, (t_begins _ _ T), map_filter_comm. f_equal.
    + intros p e H. apply filter_In in H. destruct H as [H Hk]. pose proof (t_ends _ _ T _ _ H) as E.
      unfold keep in Hk. rewrite okill_killed in Hk. simpl in Hk. apply negb_true_iff in Hk.
      unfold end_is, has_end in *. destruct e as [x|].
      * destruct E as [E1 E2]. split; [apply IN; auto|]. intros y Hy. apply IN in Hy. apply E2. tauto.
      * intros x Hx. apply IN in Hx. eapply E. apply Hx.
    + intros ev H. apply IN in H. destruct H as [H Hk]. pose proof (t_elem _ _ T _ H) as M. apply in_map_iff in M.
      destruct M as (b & Hb & Hin). rewrite <- Hb. apply in_map. apply filter_In. split; [assumption|].
      unfold keep. rewrite okill_killed, Hb, Hk. reflexivity.
    + intros l1 e l2 E K. destruct (filter_split _ _ _ _ _ E) as (m1 & m2 & Em & Ef).
      assert (Hin : In e (filter f (q_tl s))) by (rewrite E; apply in_app_iff; right; left; reflexivity). apply IN in Hin.
      rewrite <- Ef. apply filter_In. split; [apply (t_first _ _ T _ _ _ Em K)|]. unfold f. simpl. rewrite (proj2 Hin). reflexivity.
Qed.

(** * Where the ends come from *)

Lemma put_exact d te bs pre rest :
  chain bs -> exact_ends bs -> bs = pre ++ rest ->
  Forall (fun b => d_begin (fst b) < d_begin d /\ d_num (fst b) < d_num d) pre ->
  Forall (fun b => d_begin d <= d_begin (fst b)) rest ->
  (forall b, In b (filter (keep d) rest) -> d_num d < d_num (fst b)) ->
  end_given d (filter (keep d) rest) te ->
  exact_ends (ins_blocks d te pre (filter (keep d) rest)).
Proof.
  intros Hc Hex -> Hpre Hrest Hnum Hgiv p e Hin. unfold ins_blocks in Hin. apply in_app_iff in Hin.
  assert (Hcp : chain pre) by (apply chain_app in Hc; tauto).
  rewrite Forall_forall in Hpre, Hrest.
  destruct Hin as [Hin|[Hin|Hin]].
  - assert (Htr : forall e0, In (p, e0) pre -> end_le e0 (d_begin d) = true -> 
        e0 = d_end p \/ exists q eq, In (q, eq) (ins_blocks d te pre (filter (keep d) rest)) /\
           d_num p < d_num q /\ e0 = Some (d_begin q) /\ end_ge (d_end p) (d_begin q)).
    { intros e0 H0 He0. destruct (Hex p e0) as [He|(q & eq & Hq & Hn & He & Hge)]; [apply in_app_iff; auto|auto|].
      right. subst e0. simpl in He0. apply Z.leb_le in He0. apply in_app_iff in Hq. destruct Hq as [Hq|Hq].
      - apply (in_map fst) in Hq. simpl in Hq.
        assert (Hq' : In q (map fst (ins_blocks d te pre (filter (keep d) rest)))).
        { rewrite ins_blocks_fst. apply in_app_iff. auto. }
        apply in_map_iff in Hq'. destruct Hq' as ([q' eq'] & Heq & Hq'). simpl in Heq. subst q'. exists q, eq'. auto.
      - pose proof (Hrest _ Hq) as Hr. simpl in Hr. pose proof (Hpre _ H0) as Hp. simpl in Hp.
        exists d, te. replace (d_begin d) with (d_begin q) by lia. repeat split; try assumption; [|lia].
        apply in_app_iff. right. left. reflexivity. }
    apply trim_last_in in Hin; [|assumption|apply Forall_forall; intros b Hb; apply Hpre in Hb; tauto].
    destruct Hin as [[Hin Hle]|(e0 & H0 & Hle & ->)].
    + apply Htr; assumption.
    + right. exists d, te. pose proof (Hpre _ H0) as Hp. simpl in Hp. repeat split; [apply in_app_iff; right; left; reflexivity|lia|].
      destruct (Hex p e0) as [He|(q & eq & Hq & Hn & He & Hge)]; [apply in_app_iff; auto| |].
      * subst e0. unfold end_le in Hle. unfold end_ge. destruct (d_end p); [lia|exact I].
      * subst e0. simpl in Hle. unfold end_ge in *. destruct (d_end p); [lia|exact I].
  - injection Hin as <- <-. unfold end_given in Hgiv. destruct (filter (keep d) rest) as [|[r er] post] eqn:Ef; [auto|].
    destruct Hgiv as (x & Hx & ->). destruct (Z.le_gt_cases x (d_begin r)) as [Hle|Hgt].
    + left. rewrite Hx. f_equal. lia.
    + right. exists r, er. split; [apply in_app_iff; right; right; left; reflexivity|]. split; [apply (Hnum (r, er)); left; reflexivity|].
      rewrite Hx. split; [f_equal; lia|simpl; lia].
  - apply filter_In in Hin. destruct Hin as [Hin Hk].
    destruct (Hex p e) as [He|(q & eq & Hq & Hn & He & Hge)]; [apply in_app_iff; auto|auto|].
    right. exists q, eq. repeat split; try assumption. apply in_app_iff. right. right. apply filter_In.
    apply in_app_iff in Hq. pose proof (Hrest _ Hin) as Hr. simpl in Hr. unfold keep, okill in *. simpl in *.
    destruct Hq as [Hq|Hq].
    + apply chain_app in Hc. destruct Hc as (_ & _ & Hc). specialize (Hc _ _ Hq Hin). destruct Hc as (Hc & _). simpl in Hc. lia.
    + split; [assumption|]. lia.
Qed.

(** * Locating events *)

Lemma locate_hd k s d : locate k s d =
  hd_error (filter (fun e => doc_eqb (ev_elem e) d && match k, ev_kind e with KBegin, KBegin => true | KEnd, KEnd => true | _, _ => false end)
             (filter (fun e => d_begin d <=? ev_when e) (q_tl s))).
Proof.
  unfold locate. rewrite <- (filter_enum (fun e => d_begin d <=? ev_when e) (q_tl s) 0).
  change (filter (fun p => d_begin d <=? ev_when (snd p)) (enum_from 0 (q_tl s))) with (irange_from (d_begin d) (q_tl s)).
  rewrite (map_filter_comm snd).
  destruct (filter _ (irange_from (d_begin d) (q_tl s))); reflexivity.
Qed.

Lemma locate_any k s bs p e :
  tinv (q_tl s) bs -> In (p, e) bs ->
  locate k s p = match k with
                 | KBegin => Some (ev_begin p)
                 | KEnd => match e with Some x => Some (mkEvent KEnd x p) | None => None end
                 end.
Proof.
  intros T Hin. rewrite locate_hd.
  set (L := filter _ (filter _ (q_tl s))).
  assert (IN : forall ev, In ev L <-> In ev (q_tl s) /\ d_begin p <= ev_when ev /\ ev_elem ev = p /\ ev_kind ev = k).
  { intros ev. unfold L. rewrite !filter_In. unfold doc_eqb. split.
    - intros [[H1 H2] H3]. apply andb_true_iff in H3. destruct H3 as [H3 H4]. split; [assumption|]. split; [lia|]. split.
      + pose proof (t_elem _ _ T _ H1) as M. apply in_map_iff in M. destruct M as ([q eq] & Hq & Hb). simpl in Hq. rewrite <- Hq in H3.
        destruct (in_bs_unique _ q p eq e (t_chain _ _ T) Hb Hin); [lia|congruence].
      + destruct k, (ev_kind ev); congruence.
    - intros (H1 & H2 & H3 & H4). split; [split; [assumption|lia]|]. rewrite H3, H4, Z.eqb_refl. destruct k; reflexivity. }
  assert (S : sorted L) by (apply StronglySorted_filter, StronglySorted_filter, (t_sorted _ _ T)).
  clearbody L. destruct L as [|ev L].
  - simpl. destruct k.
    + exfalso. apply (proj2 (IN (ev_begin p))). split; [apply (tinv_block _ _ (p, e) T Hin)|]. simpl. repeat split. lia.
    + destruct e as [x|]; [|reflexivity]. exfalso. apply (proj2 (IN (mkEvent KEnd x p))).
      pose proof (t_ends _ _ T _ _ Hin) as [E _]. split; [exact E|]. simpl. repeat split.
      apply (tinv_late _ _ _ T E).
  - simpl. destruct (proj1 (IN ev) (or_introl eq_refl)) as (H1 & H2 & H3 & H4). destruct k.
    + destruct (tinv_begin _ _ _ T H1 H4) as (b & _ & ->). unfold evb in *. simpl in *. subst p. reflexivity.
    + pose proof (t_ends _ _ T _ _ Hin) as E. destruct ev as [kk w el]. simpl in *. subst kk el.
      destruct e as [x|]; simpl in E; [|exfalso; eapply E; exact H1]. destruct E as [E1 E2].
      pose proof (E2 w H1) as Hle.
      assert (X : In (mkEvent KEnd x p) (mkEvent KEnd w p :: L)).
      { apply IN. split; [exact E1|]. simpl. repeat split. apply (tinv_late _ _ _ T E1). }
      destruct X as [X|X]; [rewrite X; reflexivity|]. inversion S as [|? ? _ Hf]; subst. rewrite Forall_forall in Hf. specialize (Hf _ X).
      unfold ev_le in Hf. simpl in Hf. repeat f_equal. lia.
Qed.

(** * What is kept true of the sequence *)

(** [a]: the documents delivered; [h]: those taken. *)
Record oinv (a h : list document) (s : seqstate) (bs : list block) : Prop := {
  o_tl : tinv (q_tl s) bs;
  o_docs : q_docs s = map fst bs;
  o_exact : exact_ends bs;
  o_incl : incl h a;
  o_sub : forall b, In b bs -> In (fst b) h;
  o_dom : forall x, In x h -> In x (map fst bs) \/
            exists b, In b bs /\ d_num x < d_num (fst b) /\ d_begin (fst b) <= d_begin x;
  o_log : forall o e b, In (o, e, b) (q_disc s) ->
            exists x, In x h /\ d_obj x = o /\ d_begin x = b /\ e <= b /\ ~ In o (map bobj bs);
  o_disc : forall x, In x h -> In (d_obj x) (map bobj bs) \/ exists e, In (d_obj x, e, d_begin x) (q_disc s) }.

Lemma oinv_new sid tb cm agid : oinv [] [] (new_sequence sid tb cm agid) [].
Proof.
  constructor; simpl.
  - constructor.
    + constructor.
    + split; constructor.
    + constructor.
    + reflexivity.
    + intros ? ? [].
    + intros ? [].
    + intros l1 e l2 E. destruct l1; discriminate.
  - reflexivity.
  - intros ? ? [].
  - apply incl_refl.
  - intros ? [].
  - intros ? [].
  - intros ? ? ? [].
  - intros ? [].
Qed.

Lemma oinv_state a a' h s s' bs :
  oinv a h s bs -> incl a a' -> q_tl s' = q_tl s -> q_docs s' = q_docs s -> q_disc s' = q_disc s -> oinv a' h s' bs.
Proof.
  intros [H1 H2 H3 H4 H5 H6 H7 H8] Ha E1 E2 E3. constructor; try rewrite E1; try rewrite E2; try rewrite E3; auto.
  eapply incl_tran; eassumption.
Qed.

Lemma oinv_logged a h s bs b : oinv a h s bs -> In b bs -> disc_lookup s (fst b) = None.
Proof.
  intros Hi Hin. apply disc_lookup_none. intros o e b' Hl Ho. apply (o_log _ _ _ _ Hi) in Hl.
  destruct Hl as (d & _ & _ & _ & _ & Hn). apply Hn. subst o. apply (in_map bobj) in Hin. exact Hin.
Qed.

Lemma oinv_stored a h s bs b : oinv a h s bs -> In b bs -> stored s (fst b) = true.
Proof.
  intros Hi Hin. unfold stored. rewrite (o_docs _ _ _ _ Hi). apply existsb_exists. exists (fst b).
  split; [apply in_map; assumption|apply doc_same_refl].
Qed.

Lemma oinv_resolved_begin a h s bs b : oinv a h s bs -> In b bs -> resolved_begin s (fst b) = Ok (d_begin (fst b)).
Proof.
  intros Hi Hin. unfold resolved_begin. rewrite (oinv_logged _ _ _ _ _ Hi Hin). unfold seq_resolved_begin.
  rewrite (oinv_stored _ _ _ _ _ Hi Hin). destruct b as [p e].
  rewrite (locate_any KBegin s bs (fst (p, e)) e (o_tl _ _ _ _ Hi) Hin). reflexivity.
Qed.

Lemma oinv_resolved_end a h s bs p e : oinv a h s bs -> In (p, e) bs -> (forall x, e = Some x -> x <> 0) -> resolved_end s p = Ok e.
Proof.
  intros Hi Hin Hz. unfold resolved_end. pose proof (oinv_logged _ _ _ _ _ Hi Hin) as HL. simpl in HL. rewrite HL.
  unfold seq_resolved_end. pose proof (oinv_stored _ _ _ _ _ Hi Hin) as Hst. simpl in Hst. rewrite Hst.
  rewrite (locate_any KEnd s bs p e (o_tl _ _ _ _ Hi) Hin). destruct e as [x|]; simpl.
  - destruct (Z.eqb_spec x 0) as [->|]; [exfalso; eapply Hz; reflexivity|reflexivity].
  - destruct (o_exact _ _ _ _ Hi _ _ Hin) as [He|(q & eq & _ & _ & He & _)]; [|discriminate]. rewrite <- He. reflexivity.
Qed.

Lemma oinv_presented a h s bs t d :
  oinv a h s bs -> Forall doc_wf h -> NoDup (map d_obj a) -> In d a -> (presented s t d <-> active h t d).
Proof.
  intros Hi Hwf Hno Hd.
  pose proof (o_incl _ _ _ _ Hi) as Hincl. pose proof (t_chain _ _ (o_tl _ _ _ _ Hi)) as Hc.
  assert (INJ : forall x, In x h -> d_obj x = d_obj d -> x = d) by (intros x Hx E; apply (nodup_inj d_obj a Hno); auto).
  destruct (in_dec Z.eq_dec (d_obj d) (map bobj bs)) as [Hin|Hnin].
  - apply in_map_iff in Hin. destruct Hin as ([d1 e] & Ho & Hin).
    assert (d1 = d) by (apply INJ; [apply (o_sub _ _ _ _ Hi _ Hin)|exact Ho]). subst d1.
    pose proof (o_sub _ _ _ _ Hi _ Hin) as Hdh. simpl in Hdh.
    assert (Hz : forall x, e = Some x -> x <> 0).
    { intros x -> Hx. subst x. rewrite Forall_forall in Hwf.
      destruct (o_exact _ _ _ _ Hi _ _ Hin) as [He|(q & eq & Hq & Hn & He & _)].
      - destruct (Hwf d Hdh) as [_ Hw]. rewrite <- He in Hw. lia.
      - injection He as He. destruct (chain_order _ _ _ Hc Hin Hq) as [E|[(_ & E & _)|(E & _)]]; simpl in *.
        + injection E as -> _. lia.
        + destruct (Hwf d Hdh) as [Hw _]. lia.
        + lia. }
    unfold presented, active.
    pose proof (oinv_resolved_begin _ _ _ _ _ Hi Hin) as Hrb. simpl in Hrb. rewrite Hrb.
    rewrite (oinv_resolved_end _ _ _ _ _ _ Hi Hin Hz).
    split.
    + intros (rb & re & E1 & E2 & Hb & He). injection E1 as <-. injection E2 as <-.
      split; [assumption|]. split; [assumption|]. split.
      * intros d' Hd' Hb'.
        assert (X : exists b, In b bs /\ d_num d' <= d_num (fst b) /\ d_begin (fst b) <= d_begin d').
        { destruct (o_dom _ _ _ _ Hi d' Hd') as [X|(b & X1 & X2 & X3)].
          - apply in_map_iff in X. destruct X as (b & <- & X). exists b. split; [assumption|lia].
          - exists b. split; [assumption|lia]. }
        destruct X as (b & Hbin & H1 & H2).
        destruct (chain_order _ _ _ Hc Hin Hbin) as [E|[(_ & _ & x & Ex & E)|(E & _)]]; simpl in *.
        -- subst b. simpl in *. lia.
        -- subst e. lia.
        -- lia.
      * destruct (o_exact _ _ _ _ Hi _ _ Hin) as [->|(q & eq & Hq & Hn & -> & Hge)]; [assumption|].
        unfold end_ge in Hge. destruct (d_end d); [lia|exact I].
    + intros (_ & Hb & Hmax & Hend). exists (d_begin d), e. repeat split; [assumption|].
      destruct (o_exact _ _ _ _ Hi _ _ Hin) as [->|(q & eq & Hq & Hn & -> & Hge)]; [assumption|].
      destruct (Z.lt_ge_cases t (d_begin q)) as [|Hge']; [assumption|].
      pose proof (o_sub _ _ _ _ Hi _ Hq) as Hqh. simpl in Hqh. specialize (Hmax q Hqh Hge'). lia.
  - assert (NA : ~ active h t d).
    { intros (Hdh & Hbt & Hmax & _). destruct (o_dom _ _ _ _ Hi d Hdh) as [X|(b & X1 & X2 & X3)].
      - apply Hnin. rewrite bobj_fst. apply in_map. assumption.
      - specialize (Hmax _ (o_sub _ _ _ _ Hi _ X1)). lia. }
    assert (NS : stored s d = false).
    { unfold stored. rewrite (o_docs _ _ _ _ Hi). destruct (existsb _ _) eqn:E; [exfalso|reflexivity].
      apply Hnin. rewrite bobj_fst. apply docs_in_spec. exact E. }
    split; [|intros; contradiction]. intros (rb & re & E1 & E2 & H1 & H2). exfalso.
    unfold resolved_begin, resolved_end in *. destruct (disc_lookup s d) as [[b e]|] eqn:HL.
    + injection E1 as <-. injection E2 as <-.
      assert (X : In (d_obj d, e, b) (q_disc s)).
      { unfold disc_lookup in HL. destruct (filter _ _) as [|[[o e'] b'] l] eqn:Hf; [discriminate|]. injection HL as -> ->.
        assert (Hi' : In (o, e, b) (filter (fun p => fst (fst p) =? d_obj d) (q_disc s))) by (rewrite Hf; left; reflexivity).
        apply filter_In in Hi'. destruct Hi' as [Hi' Ho]. simpl in Ho. apply Z.eqb_eq in Ho. subst. assumption. }
      destruct (o_log _ _ _ _ Hi _ _ _ X) as (x & _ & _ & _ & Hle & _). lia.
    + unfold seq_resolved_begin in E1. rewrite NS in E1. discriminate.
Qed.

(** * One delivery *)

Lemma oinv_put a h s d bs pre rest te s' :
  oinv a h s bs -> ~ In (d_obj d) (map d_obj a) -> NoDup (map d_obj a) ->
  bs = pre ++ rest ->
  Forall (fun b => d_begin (fst b) < d_begin d /\ d_num (fst b) < d_num d) pre ->
  Forall (fun b => d_begin d <= d_begin (fst b)) rest ->
  (forall b, In b (filter (keep d) rest) -> d_num d < d_num (fst b)) ->
  end_given d (filter (keep d) rest) te ->
  tinv (q_tl s') (ins_blocks d te pre (filter (keep d) rest)) ->
  q_docs s' = docs_add d (map fst (pre ++ filter (keep d) rest)) ->
  q_disc s' = rev (map (disc_entry (d_begin d)) (map fst (filter (okill d) bs))) ++ q_disc s ->
  oinv (a ++ [d]) (h ++ [d]) s' (ins_blocks d te pre (filter (keep d) rest)).
Proof.
  intros Hi Hobj Hno Hbs Hpre Hrest Hnum Hgiv HT Hdocs Hdisc.
  set (post := filter (keep d) rest) in *.
  pose proof Hi as [T Od Hex Hincl Hsub Hdom Hlog Hdc].
  assert (Hobjs : forall x, In x h -> In (d_obj x) (map d_obj a)) by (intros x Hx; apply in_map, Hincl; assumption).
  assert (Hfst : map fst (ins_blocks d te pre post) = map fst pre ++ d :: map fst post) by apply ins_blocks_fst.
  assert (Hkeepbs : filter (keep d) bs = pre ++ post).
  { subst bs. rewrite filter_app. f_equal. apply filter_all. intros b Hb. rewrite Forall_forall in Hpre. specialize (Hpre b Hb).
    unfold keep, okill. lia. }
  assert (IN : forall x, In x (map fst (ins_blocks d te pre post)) <-> x = d \/ exists b, In b bs /\ okill d b = false /\ fst b = x).
  { intros x. rewrite Hfst, in_app_iff. simpl.
    assert (In x (map fst (pre ++ post)) <-> exists b, In b bs /\ okill d b = false /\ fst b = x).
    { rewrite <- Hkeepbs, in_map_iff. split.
      - intros (b & E & H). apply filter_In in H. destruct H as [H1 H2]. exists b. unfold keep in H2. apply negb_true_iff in H2. auto.
      - intros (b & H1 & H2 & H3). exists b. split; [assumption|]. apply filter_In. unfold keep. rewrite H2. auto. }
    rewrite map_app, in_app_iff in H. intuition. }
  assert (OIN : forall o, In o (map bobj (ins_blocks d te pre post)) <-> o = d_obj d \/ exists b, In b bs /\ okill d b = false /\ bobj b = o).
  { intros o. rewrite bobj_fst, in_map_iff. split.
    - intros (x & <- & H). apply IN in H. destruct H as [->|(b & H1 & H2 & <-)]; [auto|right; exists b; auto].
    - intros [->|(b & H1 & H2 & <-)]; [exists d; split; [reflexivity|apply IN; auto]|]. exists (fst b). split; [reflexivity|]. apply IN. right. eauto. }
  assert (BI : forall b c, In b bs -> In c bs -> bobj b = bobj c -> fst b = fst c).
  { intros b c Hb Hc E. apply (nodup_inj d_obj a Hno); auto. }
  constructor.
  - assumption.
  - rewrite Hdocs, Hfst. apply docs_add_mid.
    + intros b Hb. rewrite Forall_forall in Hpre. apply Hpre. assumption.
    + assumption.
  - apply put_exact with (bs := bs); auto. apply (t_chain _ _ T).
  - apply incl_app; [apply incl_appl; assumption|apply incl_appr, incl_refl].
  - intros b Hb. apply (in_map fst) in Hb. apply IN in Hb. apply in_app_iff. destruct Hb as [->|(c & Hc & _ & <-)]; [right; left; reflexivity|auto].
  - assert (NEW : forall b, In b bs -> (In (fst b) (map fst (ins_blocks d te pre post))) \/
        (d_num (fst b) < d_num d /\ d_begin d <= d_begin (fst b))).
    { intros b Hb. destruct (okill d b) eqn:K; [right; unfold okill in K; lia|left; apply IN; right; eauto]. }
    assert (Dn : exists b, In b (ins_blocks d te pre post) /\ fst b = d) by (exists (d, te); split; [apply in_app_iff; right; left; reflexivity|reflexivity]).
    destruct Dn as (bd & Hbd & Ebd).
    intros x Hx. apply in_app_iff in Hx. destruct Hx as [Hx|[<-|[]]]; [|left; apply IN; auto].
    destruct (Hdom x Hx) as [H|(b & H1 & H2 & H3)].
    + apply in_map_iff in H. destruct H as (b & <- & Hb). destruct (NEW b Hb) as [H|[H H']]; [auto|right; exists bd; rewrite Ebd; auto].
    + right. destruct (NEW b H1) as [H|[H H']].
      * apply in_map_iff in H. destruct H as (c & Ec & Hc). exists c. rewrite Ec. auto.
      * exists bd. rewrite Ebd. split; [assumption|lia].
  - intros o e b Hin. rewrite Hdisc in Hin. apply in_app_iff in Hin. destruct Hin as [Hin|Hin].
    + rewrite <- in_rev in Hin. rewrite map_map in Hin. apply in_map_iff in Hin. destruct Hin as (k & Hk & Hin).
      apply filter_In in Hin. destruct Hin as [Hin Hkk]. unfold disc_entry in Hk. injection Hk as <- <- <-.
      exists (fst k). split; [apply in_app_iff; left; apply Hsub; assumption|]. split; [reflexivity|]. split; [reflexivity|].
      split; [unfold okill in Hkk; lia|]. intros X. apply OIN in X. destruct X as [X|(c & Hc & Kc & X)].
      * apply Hobj. rewrite <- X. apply Hobjs. apply Hsub. assumption.
      * rewrite okill_killed in *. rewrite (BI c k Hc Hin X) in Kc. congruence.
    + destruct (Hlog _ _ _ Hin) as (x & Hx & H1 & H2 & H3 & H4). exists x. split; [apply in_app_iff; auto|].
      repeat split; try assumption. intros X. apply OIN in X. destruct X as [X|(c & Hc & _ & X)].
      * apply Hobj. rewrite <- X, <- H1. apply Hobjs. assumption.
      * apply H4. rewrite <- X. apply in_map. assumption.
  - intros x Hx. apply in_app_iff in Hx. destruct Hx as [Hx|[<-|[]]]; [|left; apply OIN; auto].
    destruct (Hdc x Hx) as [Hin|(e & Hin)].
    + apply in_map_iff in Hin. destruct Hin as (b & Hb & Hin). destruct (okill d b) eqn:Hk.
      * right. exists (d_begin d). rewrite Hdisc. apply in_app_iff. left. rewrite <- in_rev, map_map. apply in_map_iff. exists b.
        split; [|apply filter_In; auto]. unfold disc_entry.
        assert (fst b = x) as ->; [|reflexivity]. apply (nodup_inj d_obj a Hno); auto.
      * left. apply OIN. right. exists b. auto.
    + right. exists e. rewrite Hdisc. apply in_app_iff. auto.
Qed.

Lemma oinv_old a h s d bs o e s' :
  oinv a h s bs -> ~ In (d_obj d) (map d_obj a) -> In (o, e) bs -> d_num d < d_num o -> d_begin o <= d_begin d ->
  q_tl s' = q_tl s -> q_docs s' = q_docs s -> q_disc s' = (d_obj d, d_begin o, d_begin d) :: q_disc s ->
  oinv (a ++ [d]) (h ++ [d]) s' bs.
Proof.
  intros [T Od Hex Hincl Hsub Hdom Hlog Hdc] Hobj Ho Hn Hb E1 E2 E3.
  constructor; try rewrite E1; try rewrite E2; auto.
  - apply incl_app; [apply incl_appl; assumption|apply incl_appr, incl_refl].
  - intros b Hin. apply in_app_iff. left. auto.
  - intros x Hx. apply in_app_iff in Hx. destruct Hx as [Hx|[<-|[]]]; [auto|]. right. exists (o, e). auto.
  - intros o' e' b Hin. rewrite E3 in Hin. destruct Hin as [Hin|Hin].
    + injection Hin as <- <- <-. exists d. split; [apply in_app_iff; right; left; reflexivity|]. repeat split; [assumption|].
      intros Hi. apply in_map_iff in Hi. destruct Hi as (c & Hc & Hi). apply Hobj. rewrite <- Hc. unfold bobj. apply in_map, Hincl, Hsub. assumption.
    + destruct (Hlog _ _ _ Hin) as (x & Hx & H). exists x. split; [apply in_app_iff; auto|assumption].
  - intros x Hx. rewrite E3. apply in_app_iff in Hx. destruct Hx as [Hx|[<-|[]]].
    + destruct (Hdc x Hx) as [H|(e' & H)]; [auto|]. right. exists e'. right. assumption.
    + right. exists (d_begin o). left. reflexivity.
Qed.

Lemma check_compat_cases s d s1 r : check_compat s d = (s1, r) ->
  q_tl s1 = q_tl s /\ q_docs s1 = q_docs s /\ q_disc s1 = q_disc s /\
  (r = Ok tt -> forall x, In x (q_docs s) -> d_num x <> d_num d).
Proof.
  unfold check_compat. intros H.
  destruct (negb (String.eqb (q_sid s) (d_sid d)) || negb (String.eqb (q_tb s) (d_tb d))); [injection H as <- <-; repeat split; discriminate|].
  destruct (String.eqb (q_tb s) "clock" && negb (ostr_eqb (q_cm s) (d_cm d))); [injection H as <- <-; repeat split; discriminate|].
  destruct (existsb (fun x => d_num x =? d_num d) (q_docs s)) eqn:E; [injection H as <- <-; repeat split; discriminate|].
  assert (X : forall x, In x (q_docs s) -> d_num x <> d_num d).
  { intros x Hx Hn. assert (existsb (fun y => d_num y =? d_num d) (q_docs s) = true) by (apply existsb_exists; exists x; split; [assumption|lia]). congruence. }
  destruct (d_agid d) as [g|]; [destruct (String.eqb g ""); [|destruct (q_agid s) as [g'|]; [destruct (String.eqb g g')|]]|];
    injection H as <- <-; repeat split; auto; discriminate.
Qed.

(** What a delivery does: an error leaves everything alone, unless documents
    the new one overrides were removed first. *)
Inductive add_spec (a h : list document) (s : seqstate) (bs : list block) (d : document) : seqstate * outcome -> Prop :=
| ad_taken s' bs' o : o = OInserted \/ (o = ODiscarded /\ exists b, In b bs /\ d_num d < d_num (fst b) /\ d_begin (fst b) <= d_begin d) ->
    oinv (a ++ [d]) (h ++ [d]) s' bs' -> add_spec a h s bs d (s', o)
| ad_raised s' e : q_tl s' = q_tl s -> q_docs s' = q_docs s -> q_disc s' = q_disc s -> add_spec a h s bs d (s', OError e)
| ad_lost s' e b : In b bs -> okill d b = true -> q_docs s' = map fst (filter (keep d) bs) -> add_spec a h s bs d (s', OError e).

Theorem add_any a h s bs d :
  oinv a h s bs -> doc_wf d -> NoDup (map d_obj a) -> ~ In (d_obj d) (map d_obj a) -> add_spec a h s bs d (add_document s d).
Proof.
  intros Hi Hwf Hno Hobj. unfold add_document.
  destruct (check_compat s d) as [s1 r] eqn:CC. destruct (check_compat_cases _ _ _ _ CC) as (E1 & E2 & E3 & Hfr).
  destruct r as [[]|e]; [|apply ad_raised; assumption]. specialize (Hfr eq_refl).
  assert (Hi1 : oinv a h s1 bs) by (eapply oinv_state; [exact Hi|apply incl_refl| | |]; assumption).
  assert (Hfr' : forall b, In b bs -> d_num (fst b) <> d_num d).
  { intros b Hb. apply Hfr. rewrite (o_docs _ _ _ _ Hi). apply in_map. assumption. }
  assert (Hob' : ~ In (d_obj d) (map bobj bs)).
  { intros X. apply in_map_iff in X. destruct X as (b & Hb & X). apply Hobj. rewrite <- Hb. unfold bobj. apply in_map.
    apply (o_incl _ _ _ _ Hi), (o_sub _ _ _ _ Hi). assumption. }
  pose proof (insert_any s1 d bs (o_tl _ _ _ _ Hi1) Hwf Hfr' Hob') as I.
  destruct (insert_or_discard s1 d) as [s2|o| |e].
  - destruct I as (pre & post & te & tl' & (Ebs & Hpre & Hpost) & Hgiv & -> & HT).
    assert (Hk : filter (keep d) post = post).
    { apply filter_all. intros b Hb. rewrite Forall_forall in Hpost. specialize (Hpost b Hb). unfold keep, okill. lia. }
    assert (Hnk : filter (okill d) bs = []).
    { rewrite Ebs. apply filter_none. intros b Hb. apply in_app_iff in Hb. rewrite Forall_forall in Hpre, Hpost. unfold okill.
      destruct Hb as [Hb|Hb]; [specialize (Hpre b Hb)|specialize (Hpost b Hb)]; lia. }
    apply (ad_taken a h s bs d _ (ins_blocks d te pre (filter (keep d) post))); [auto|].
    destruct (bump_last_fields (set_store s1 (docs_add d (q_docs s1)) tl') d) as (B1 & B2 & B3 & _).
    apply (oinv_put a h s1 d bs pre post te); auto; try rewrite Hk; auto.
    + eapply Forall_impl; [|exact Hpost]. intros b Hb. simpl in *. lia.
    + intros b Hb. rewrite Forall_forall in Hpost. apply Hpost. assumption.
    + rewrite B1. exact HT.
    + rewrite B2. simpl. rewrite (o_docs _ _ _ _ Hi1), Ebs. reflexivity.
    + rewrite B3, Hnk. reflexivity.
  - destruct I as (e & Ho & Hn & Hb).
    pose proof (oinv_resolved_begin _ _ _ _ _ Hi1 Ho) as Hrb. simpl in Hrb. rewrite Hrb.
    unfold discard_document. destruct (Z.gtb_spec (d_begin o) (d_begin d)); [lia|].
    apply (ad_taken a h s bs d _ bs); [right; split; [reflexivity|]; exists (o, e); auto|].
    destruct (bump_last_fields (set_disc s1 ((d_obj d, d_begin o, d_begin d) :: q_disc s1)) d) as (B1 & B2 & B3 & _).
    eapply oinv_old; eassumption.
  - destruct I as (b0 & Hb0 & Hk0).
    destruct (override_any s1 d bs (o_tl _ _ _ _ Hi1) (o_docs _ _ _ _ Hi1)) as [-> HT].
    match goal with |- add_spec _ _ _ _ _ (match insert_or_discard ?x d with _ => _ end) => set (s2 := x) end.
    assert (Hsub : forall b, In b (filter (keep d) bs) -> In b bs) by (intros b Hb; apply filter_In in Hb; tauto).
    assert (Hob2 : ~ In (d_obj d) (map bobj (filter (keep d) bs))).
    { intros X. apply Hob'. apply in_map_iff in X. destruct X as (b & <- & X). apply in_map, Hsub. assumption. }
    pose proof (insert_any s2 d (filter (keep d) bs) HT Hwf (fun b Hb => Hfr' b (Hsub b Hb)) Hob2) as I2.
    destruct (insert_or_discard s2 d) as [s3|o| |e].
    + destruct I2 as (pre & post & te & tl' & (Ebs & Hpre & Hpost) & Hgiv & -> & HT2).
      destruct (chain_split bs (d_begin d - 1) (t_chain _ _ (o_tl _ _ _ _ Hi1))) as (pre0 & rest & E0 & Hpre0 & Hrest0).
      assert (X : pre0 = pre /\ filter (keep d) rest = post).
      { rewrite E0, filter_app, (filter_all _ pre0) in Ebs.
        - rewrite Forall_forall in Hpre0, Hrest0, Hpre, Hpost.
          apply (cut_unique (fun b => d_begin (fst b) <= d_begin d - 1)) in Ebs; auto.
          + intros b Hb. apply filter_In in Hb. destruct Hb as [Hb _]. specialize (Hrest0 b Hb). simpl in Hrest0. lia.
          + intros b Hb. specialize (Hpre b Hb). lia.
          + intros b Hb. specialize (Hpost b Hb). lia.
        - intros b Hb. rewrite Forall_forall in Hpre0. specialize (Hpre0 b Hb). simpl in Hpre0. unfold keep, okill. lia. }
      destruct X as [-> <-].
      apply (ad_taken a h s bs d _ (ins_blocks d te pre (filter (keep d) rest))); [auto|].
      destruct (bump_last_fields (set_store s2 (docs_add d (q_docs s2)) tl') d) as (B1 & B2 & B3 & _).
      apply (oinv_put a h s1 d bs pre rest te); auto.
      * eapply Forall_impl; [|exact Hrest0]. intros b Hb. simpl in *. lia.
      * intros b Hb. rewrite Forall_forall in Hpost. apply Hpost. assumption.
      * rewrite B1. exact HT2.
      * rewrite B2. simpl. rewrite Ebs. reflexivity.
    + apply (ad_lost a h s bs d _ _ b0); auto.
    + apply (ad_lost a h s bs d _ _ b0); auto.
    + apply (ad_lost a h s bs d _ _ b0); auto.
  - apply ad_raised; assumption.
Qed.

Lemma filter_shorter {A} (f : A -> bool) l x : In x l -> f x = false -> (List.length (filter f l) < List.length l)%nat.
Proof.
  induction l as [|y l IH]; intros H Hf; [destruct H|]. simpl.
  assert (X : (List.length (filter f l) <= List.length l)%nat).
  { clear. induction l as [|z l IH]; simpl; [lia|]. destruct (f z); simpl; lia. }
  destruct H as [->|H]; [rewrite Hf; lia|]. specialize (IH H Hf). destruct (f y); simpl; lia.
Qed.

(** * Histories *)

Theorem deliver_any h : forall a k s bs,
  oinv a k s bs -> Forall doc_wf h -> NoDup (map d_obj (a ++ h)) -> harmless s h ->
  exists bs', oinv (a ++ h) (k ++ taken s h) (fst (deliver s h)) bs'.
Proof.
  induction h as [|d h IH]; intros a k s bs Hi Hwf Hno Hh.
  - simpl. rewrite !app_nil_r. eauto.
  - inversion Hwf as [|? ? Hd Hwf']; subst. simpl in Hh. simpl.
    assert (Na : NoDup (map d_obj a)) by (rewrite map_app in Hno; apply nodup_left in Hno; assumption).
    assert (Nd : ~ In (d_obj d) (map d_obj a)).
    { rewrite map_app in Hno. simpl in Hno. apply NoDup_remove_2 in Hno. intros X. apply Hno, in_app_iff. auto. }
    assert (N2 : NoDup (map d_obj ((a ++ [d]) ++ h))) by (rewrite <- app_assoc; exact Hno).
    pose proof (add_any a k s bs d Hi Hd Na Nd) as A.
    destruct (add_document s d) as [s1 o]. destruct Hh as [Hh1 Hh2].
    assert (F : fst (let '(s2, os) := deliver s1 h in (s2, o :: os)) = fst (deliver s1 h)) by (destruct (deliver s1 h); reflexivity).
    rewrite F.
    inversion A as [s' bs' o' Ho Hi'|s' e H1 H2 H3|s' e b Hb Hk Hdocs]; subst.
    + destruct (IH _ _ _ _ Hi' Hwf' N2 Hh2) as (bs'' & H). exists bs''. rewrite <- !app_assoc in H.
      destruct Ho as [->|[-> _]]; exact H.
    + assert (Hi' : oinv (a ++ [d]) k s1 bs) by (eapply oinv_state; [exact Hi|apply incl_appl, incl_refl| | |]; assumption).
      destruct (IH _ _ _ _ Hi' Hwf' N2 Hh2) as (bs'' & H). exists bs''. rewrite <- !app_assoc in H. exact H.
    + exfalso. destruct Hh1 as [Hh1 _]. rewrite Hdocs, (o_docs _ _ _ _ Hi) in Hh1.
      apply (f_equal (@List.length _)) in Hh1. rewrite !map_length in Hh1.
      pose proof (filter_shorter (keep d) bs b Hb). unfold keep in H at 1. rewrite Hk in H. specialize (H eq_refl). lia.
Qed.

(** * Sequences without left-over events *)

Lemma tinv_flat bs : chain bs -> NoDup (map bobj bs) -> tinv (flat bs) bs.
Proof.
  intros Hc Hn. constructor; auto.
  - clear Hn. induction bs as [|[p e] bs IH]; [constructor|]. rewrite flat_cons. pose proof Hc as [Ho Hs].
    inversion Ho as [|? ? Hop Ho']; subst. inversion Hs as [|? ? Hs' Hf]; subst. apply StronglySorted_app. unfold okb in Hop. simpl in Hop. split.
    + unfold blk_events. simpl. destruct e as [x|]; [|repeat constructor].
      repeat constructor. unfold ev_le. simpl. exact Hop.
    + split; [apply IH; split; assumption|]. intros u v Hu Hv. apply in_flat in Hv. destruct Hv as (b & Hb & Hv).
      rewrite Forall_forall in Hf. destruct (Hf b Hb) as (_ & Hbb & x & Hx & Hle). simpl in Hx, Hbb, Hle. subst e.
      assert (Hu' : ev_when u <= d_begin (fst b)).
      { unfold blk_events in Hu. simpl in Hu. destruct Hu as [<-|[<-|[]]]; simpl; lia. }
      rewrite Forall_forall in Ho'. specialize (Ho' b Hb). unfold okb in Ho'. unfold ev_le.
      destruct Hv as [->|(y & Hy & ->)]; simpl; [assumption|]. rewrite Hy in Ho'. lia.
  - clear. induction bs as [|[p e] bs IH]; [reflexivity|]. rewrite flat_cons, filter_app, IH. destruct e; reflexivity.
  - intros p e H. assert (X : forall x, has_end (flat bs) p x -> e = Some x).
    { intros x Hx. apply in_flat in Hx. destruct Hx as ([q eq] & Hq & [X|(y & Hy & X)]); [discriminate|].
      simpl in *. injection X as <- <-. destruct (in_bs_unique _ _ _ _ _ Hc Hq H eq_refl). congruence. }
    unfold end_is. destruct e as [x|].
    + split; [apply in_flat; exists (p, Some x); split; [assumption|right; exists x; auto]|].
      intros y Hy. apply X in Hy. injection Hy as ->. lia.
    + intros x Hx. apply X in Hx. discriminate.
  - intros ev H. apply in_flat_elem. assumption.
  - clear. induction bs as [|[p e] bs IH]; [intros l1 ev l2 E; destruct l1; discriminate|]. rewrite flat_cons.
    intros l1 ev l2 E K. destruct l1 as [|u l1]; simpl in E; injection E as E0 E; [rewrite <- E0 in K; simpl in K; congruence|]. subst u.
    destruct e as [x|]; simpl in E.
    + destruct l1 as [|u l1]; simpl in E; injection E as <- E; [left; reflexivity|].
      right. right. apply (IH l1 ev l2); assumption.
    + right. apply (IH l1 ev l2); assumption.
Qed.

Lemma rep_tinv s bs : rep s bs -> tinv (q_tl s) bs.
Proof. intros [E _ Hc Hn]. rewrite E. apply tinv_flat; assumption. Qed.

Lemma scan_fwd_consistent d te bb evs :
  (forall q, In q evs -> d_num (ev_elem (snd q)) <> d_num d) ->
  (forall a q b, evs = a ++ q :: b -> (forall x, In x a -> ev_kind (snd x) = KEnd) -> ev_kind (snd q) = KEnd -> bb_ok bb (snd q)) ->
  forall ea, scan_fwd d te bb evs ea <> FInconsistent.
Proof.
  induction evs as [|[i it] evs IH]; intros Hn Ho ea; [discriminate|].
  destruct (ev_kind it) eqn:K.
  - simpl. rewrite K. destruct (Z.gtb_spec (d_num d) (d_num (ev_elem it))); [discriminate|].
    destruct (Z.gtb_spec (d_num (ev_elem it)) (d_num d)); [destruct te; discriminate|].
    specialize (Hn _ (or_introl eq_refl)). simpl in Hn. exfalso. lia.
  - rewrite scan_fwd_end.
    + apply IH; [intros q Hq; apply Hn; right; assumption|]. intros a q b E Ha Kq. apply (Ho ((i, it) :: a) q b); auto.
      * rewrite E. reflexivity.
      * intros x [<-|Hx]; auto.
    + assumption.
    + apply (Ho [] (i, it) evs); auto. intros ? [].
Qed.

Definition beaten (bs : list block) (d : document) : Prop :=
  exists b, In b bs /\ d_num d < d_num (fst b) /\ d_begin (fst b) <= d_begin d.

Lemma flat_old s bs d : rep s bs -> beaten bs d -> exists o, insert_or_discard s d = IDiscarded o.
Proof.
  intros R (b & Hb & Hn & Hbb). destruct (chain_split bs (d_begin d) (rep_chain _ _ R)) as (pre & post & Ebs & Hpre & Hpost).
  assert (Hin : In b pre).
  { rewrite Ebs in Hb. apply in_app_iff in Hb. destruct Hb as [Hb|Hb]; [assumption|]. rewrite Forall_forall in Hpost. specialize (Hpost b Hb). simpl in Hpost. lia. }
  destruct (list_snoc_cases pre) as [->|(pre' & [p e] & ->)]; [destruct Hin|]. exists p.
  unfold insert_or_discard. rewrite (rep_tl _ _ R), Ebs.
  pose proof (rep_chain _ _ R) as Hc. rewrite Ebs in Hc.
  rewrite scan_back_blocks by assumption. rewrite rev_app_distr. simpl.
  destruct (Z.gtb_spec (d_num p) (d_num d)); [reflexivity|exfalso].
  apply in_app_iff in Hin. destruct Hin as [Hin|[<-|[]]]; [|simpl in Hn; lia].
  rewrite <- app_assoc in Hc. apply chain_app in Hc. destruct Hc as (_ & _ & Hc).
  specialize (Hc b (p, e) Hin (or_introl eq_refl)). destruct Hc as (Hc & _). simpl in Hc. lia.
Qed.

Lemma flat_consistent s bs d : rep s bs -> (forall b, In b bs -> d_num (fst b) <> d_num d) -> insert_or_discard s d <> IError EInconsistent.
Proof.
  intros R Hfr. destruct (chain_split bs (d_begin d) (rep_chain _ _ R)) as (pre & post & Ebs & Hpre & Hpost).
  pose proof (rep_tinv _ _ R) as T. pose proof (rep_chain _ _ R) as Hc.
  unfold insert_or_discard.
  assert (SB : scan_back d None (rev (irange_upto (Some (d_begin d)) (q_tl s))) =
     match rev pre with [] => SOk None | (p, e) :: _ => if d_num p >? d_num d then SDiscarded p
       else if end_le e (d_begin d) then SOk None else SOk (Some (ev_begin p)) end).
  { rewrite (rep_tl _ _ R), Ebs. apply scan_back_blocks; auto. rewrite <- Ebs. assumption. }
  rewrite SB. clear SB.
  assert (G : forall bb, match bb with None => True | Some b => exists pre' p e, pre = pre' ++ [(p, e)] /\ b = ev_begin p end ->
    scan_fwd d (d_end d) bb (irange_from (d_begin d) (q_tl s)) None <> FInconsistent).
  { intros bb Hbb. apply scan_fwd_consistent.
    - intros q Hq. unfold irange_from in Hq. apply filter_In in Hq. destruct Hq as [Hq _]. apply in_enum_snd in Hq.
      apply (t_elem _ _ T) in Hq. apply in_map_iff in Hq. destruct Hq as (b & <- & Hb). apply Hfr. assumption.
    - intros a q b E Ha Kq. destruct bb as [b0|]; [|exact I]. destruct Hbb as (pre' & p & e & Epre & ->). simpl.
      assert (E' : map snd (irange_from (d_begin d) (q_tl s)) = map snd a ++ snd q :: map snd b) by (rewrite E, map_app; reflexivity).
      unfold irange_from in E'. rewrite (filter_enum (fun e => d_begin d <=? ev_when e)) in E'.
      assert (Hq : In (snd q) (filter (fun e => d_begin d <=? ev_when e) (q_tl s))) by (rewrite E'; apply in_app_iff; right; left; reflexivity).
      apply filter_In in Hq. destruct Hq as [Hq Hw]. pose proof Hq as Hq'. rewrite (rep_tl _ _ R) in Hq'. apply in_flat in Hq'.
      destruct Hq' as ([z ez] & Hz & [X|(x & Hx & X)]); [rewrite X in Kq; discriminate|]. simpl in Hx. subst ez. rewrite X in *. simpl in *.
      pose proof Hz as Hz'. rewrite Ebs in Hz. apply in_app_iff in Hz. destruct Hz as [Hz|Hz].
      + rewrite Epre in Hz. apply in_app_iff in Hz. destruct Hz as [Hz|[Hz|[]]]; [|injection Hz as -> _; auto].
        right. rewrite Ebs, Epre, <- app_assoc in Hc. apply chain_app in Hc. destruct Hc as (_ & _ & Hc).
        destruct (Hc _ (p, e) Hz (or_introl eq_refl)) as (_ & _ & y & Hy & Hle). simpl in *. injection Hy as <-.
        rewrite Forall_forall in Hpre. assert (Hp : d_begin p <= d_begin d) by (apply (Hpre (p, e)); rewrite Epre; apply in_app_iff; right; left; reflexivity).
        lia.
      + exfalso. rewrite Forall_forall in Hpost. specialize (Hpost _ Hz). simpl in Hpost.
        destruct (filter_split _ _ _ _ _ E') as (m1 & m2 & Em & Ef). pose proof (t_first _ _ T _ _ _ Em eq_refl) as B. simpl in B.
        assert (Y : In (ev_begin z) (map snd a)) by (rewrite <- Ef; apply filter_In; split; [assumption|simpl; lia]).
        apply in_map_iff in Y. destruct Y as (y & Ey & Hy). specialize (Ha y Hy). rewrite Ey in Ha. discriminate. }
  destruct (list_snoc_cases pre) as [Ep|(pre' & [p e] & Ep)].
  - rewrite Ep. simpl. specialize (G None I). destruct (scan_fwd _ _ _ _ _); congruence.
  - rewrite Ep, rev_app_distr. simpl. destruct (d_num p >? d_num d); [discriminate|].
    destruct (end_le e (d_begin d)).
    + specialize (G None I). destruct (scan_fwd _ _ _ _ _); congruence.
    + specialize (G (Some (ev_begin p))). assert (X : exists pre'' p' e', pre = pre'' ++ [(p', e')] /\ ev_begin p = ev_begin p') by eauto.
      specialize (G X). destruct (scan_fwd _ _ _ _ _); congruence.
Qed.

Lemma flat_override s bs d : rep s bs -> ~ beaten bs d -> (forall b, In b bs -> d_num (fst b) <> d_num d) ->
  (exists b, In b bs /\ okill d b = true) -> insert_or_discard s d = IOverridden.
Proof.
  intros R Hnb Hfr ([p0 e0] & Hb0 & Hk0). destruct (chain_split bs (d_begin d) (rep_chain _ _ R)) as (pre & post & Ebs & Hpre & Hpost).
  pose proof (rep_chain _ _ R) as Hc. unfold insert_or_discard.
  assert (SB : scan_back d None (rev (irange_upto (Some (d_begin d)) (q_tl s))) =
     match rev pre with [] => SOk None | (p, e) :: _ => if d_num p >? d_num d then SDiscarded p
       else if end_le e (d_begin d) then SOk None else SOk (Some (ev_begin p)) end).
  { rewrite (rep_tl _ _ R), Ebs. apply scan_back_blocks; auto. rewrite <- Ebs. assumption. }
  rewrite SB. clear SB.
  assert (LOW : forall p e, In (p, e) bs -> d_begin p <= d_begin d -> d_num p < d_num d).
  { intros p e Hp Hbp. specialize (Hfr _ Hp). simpl in Hfr. destruct (Z.lt_ge_cases (d_num d) (d_num p)); [|lia].
    exfalso. apply Hnb. exists (p, e). auto. }
  assert (G : forall bb, match bb with None => True
     | Some b => exists p e, In (p, e) bs /\ b = ev_begin p /\ d_begin p <= d_begin d /\ end_le e (d_begin d) = false end ->
    scan_fwd d (d_end d) bb (irange_from (d_begin d) (q_tl s)) None = FOverridden).
  { intros bb Hbb. rewrite (rep_tl _ _ R). apply (scan_fwd_override d (d_end d) bs bb Hc Hbb).
    - exists p0, e0. unfold okill in Hk0. simpl in Hk0. repeat split; [assumption|lia|lia].
    - intros p e Hp Hlt. apply (LOW p e); [assumption|lia]. }
  destruct (list_snoc_cases pre) as [Ep|(pre' & [p e] & Ep)].
  - rewrite Ep. simpl. rewrite (G None I). reflexivity.
  - assert (Hp : In (p, e) bs) by (rewrite Ebs, Ep, !in_app_iff; left; right; left; reflexivity).
    assert (Hpb : d_begin p <= d_begin d).
    { rewrite Forall_forall in Hpre. apply (Hpre (p, e)). rewrite Ep. apply in_app_iff. right. left. reflexivity. }
    rewrite Ep, rev_app_distr. simpl. pose proof (LOW p e Hp Hpb). destruct (Z.gtb_spec (d_num p) (d_num d)); [lia|].
    destruct (end_le e (d_begin d)) eqn:He.
    + rewrite (G None I). reflexivity.
    + rewrite G; [reflexivity|]. exists p, e. auto.
Qed.

Section Flat.
Variables (sid tb : string) (cm : option string) (g : string) (a h : list document) (s : seqstate) (bs : list block) (d : document).
Hypotheses (Hi : hinv a h s bs) (Hs : sane sid tb cm g s) (Hb : belongs sid tb cm g d) (Hw : doc_wf d)
  (Ho : ~ In (d_obj d) (map d_obj a)) (Hn : ~ In (d_num d) (map d_num h)).

Lemma flat_fresh b : In b bs -> d_num (fst b) <> d_num d.
Proof. intros H E. apply Hn. rewrite <- E. apply in_map. apply (hi_sub _ _ _ _ Hi). assumption. Qed.

Lemma flat_fresh_obj bs' : incl bs' bs -> ~ In (d_obj d) (map bobj bs').
Proof.
  intros Hin X. apply in_map_iff in X. destruct X as (b & Eb & X). apply Ho. rewrite <- Eb. unfold bobj. apply in_map.
  apply (hi_incl _ _ _ _ Hi), (hi_sub _ _ _ _ Hi), Hin. assumption.
Qed.

Lemma flat_compat : exists ag, check_compat s d = (set_agid s ag, Ok tt).
Proof.
  destruct (check_compat_ok sid tb cm g s d Hs Hb) as (ag & H & _); [|eauto].
  rewrite (rep_docs _ _ (hi_rep _ _ _ _ Hi)), map_map. intros X. apply in_map_iff in X. destruct X as (b & E & X).
  exact (flat_fresh b X E).
Qed.

Lemma flat_agid ag : hinv a h (set_agid s ag) bs.
Proof. eapply hinv_state; [exact Hi| | |]; reflexivity. Qed.

(** The state after overriding. *)
Lemma flat_overridden ag : exists s2, override_sequence (set_agid s ag) d = (s2, Ok tt) /\ rep s2 (filter (keep d) bs) /\ q_docs s2 = map fst (filter (keep d) bs).
Proof.
  pose proof (hi_rep _ _ _ _ (flat_agid ag)) as [E1 E2 E3 E4].
  eexists. split; [apply (override_blocks _ d bs); assumption|]. split; [|reflexivity].
  constructor; [reflexivity|reflexivity|apply chain_filter; assumption|apply NoDup_map_filter; assumption].
Qed.

Lemma keep_incl : incl (filter (keep d) bs) bs.
Proof. intros b H. apply filter_In in H. tauto. Qed.

Lemma add_closed : d_end d <> None -> not_error (snd (add_document s d)).
Proof.
  intros He. destruct flat_compat as (ag & CC). unfold add_document. rewrite CC.
  pose proof (flat_agid ag) as Hi1. pose proof (hi_rep _ _ _ _ Hi1) as R1.
  pose proof (insert_any (set_agid s ag) d bs (rep_tinv _ _ R1) Hw flat_fresh (flat_fresh_obj bs (incl_refl _))) as I.
  pose proof (flat_consistent _ _ d R1 flat_fresh) as NI.
  assert (OLD := flat_old (set_agid s ag) bs d R1).
  destruct (insert_or_discard (set_agid s ag) d) as [s2|o| |e]; simpl.
  - exact Logic.I.
  - destruct I as (e & Hin & H1 & H2). pose proof (hinv_resolved_begin _ _ _ _ _ Hi1 Hin) as Hrb. simpl in Hrb. rewrite Hrb.
    unfold discard_document. destruct (Z.gtb_spec (d_begin o) (d_begin d)); [lia|]. exact Logic.I.
  - destruct (flat_overridden ag) as (s2 & -> & R2 & _).
    pose proof (insert_any s2 d _ (rep_tinv _ _ R2) Hw (fun b H => flat_fresh b (keep_incl b H)) (flat_fresh_obj _ keep_incl)) as I2.
    pose proof (flat_consistent _ _ d R2 (fun b H => flat_fresh b (keep_incl b H))) as NI2.
    destruct (insert_or_discard s2 d) as [s3|o| |e]; simpl.
    + exact Logic.I.
    + destruct I2 as (e & Hin & H1 & H2). destruct OLD as (o' & X); [|discriminate]. exists (o, e). repeat split; auto. apply keep_incl. assumption.
    + destruct I2 as (b & H1 & H2). apply filter_In in H1. destruct H1 as [_ H1]. unfold keep in H1. rewrite H2 in H1. discriminate.
    + destruct I2 as [->|[-> X]]; congruence.
  - destruct I as [->|[-> X]]; congruence.
Qed.

Lemma add_open : d_end d = None -> ~ beaten bs d -> (exists b, In b bs /\ d_num d < d_num (fst b)) ->
  snd (add_document s d) = OError ETypeError /\ q_docs (fst (add_document s d)) = map fst (filter (keep d) bs).
Proof.
  intros He Hnb (b0 & Hb0 & Hn0). destruct flat_compat as (ag & CC). unfold add_document. rewrite CC.
  pose proof (flat_agid ag) as Hi1. pose proof (hi_rep _ _ _ _ Hi1) as R1.
  assert (NP : forall bs' pre post te, In b0 bs' -> put_at d bs' pre post -> end_given d post te -> False).
  { intros bs' pre post te Hin (E & Hpre & Hpost) Hg. rewrite E in Hin. apply in_app_iff in Hin.
    rewrite Forall_forall in Hpre. destruct Hin as [Hin|Hin]; [specialize (Hpre b0 Hin); lia|].
    destruct post as [|[r er] post]; [destruct Hin|]. destruct Hg as (x & Hx & _). congruence. }
  pose proof (insert_any (set_agid s ag) d bs (rep_tinv _ _ R1) Hw flat_fresh (flat_fresh_obj bs (incl_refl _))) as I.
  pose proof (flat_consistent _ _ d R1 flat_fresh) as NI.
  pose proof (flat_override _ _ d R1 Hnb flat_fresh) as OV.
  destruct (insert_or_discard (set_agid s ag) d) as [s2|o| |e]; simpl.
  - exfalso. destruct I as (pre & post & te & tl' & H1 & H2 & _). exact (NP _ _ _ _ Hb0 H1 H2).
  - exfalso. apply Hnb. destruct I as (e & H1 & H2 & H3). exists (o, e). auto.
  - destruct (flat_overridden ag) as (s2 & -> & R2 & ED).
    pose proof (insert_any s2 d _ (rep_tinv _ _ R2) Hw (fun b H => flat_fresh b (keep_incl b H)) (flat_fresh_obj _ keep_incl)) as I2.
    pose proof (flat_consistent _ _ d R2 (fun b H => flat_fresh b (keep_incl b H))) as NI2.
    destruct (insert_or_discard s2 d) as [s3|o| |e]; simpl.
    + exfalso. destruct I2 as (pre & post & te & tl' & H1 & H2 & _). apply (NP _ pre post te) in H1; auto.
      apply filter_In. split; [assumption|]. unfold keep, okill. lia.
    + exfalso. apply Hnb. destruct I2 as (e & H1 & H2 & H3). exists (o, e). repeat split; auto. apply keep_incl. assumption.
    + exfalso. destruct I2 as (b & H1 & H2). apply filter_In in H1. destruct H1 as [_ H1]. unfold keep in H1. rewrite H2 in H1. discriminate.
    + destruct I2 as [->|[-> _]]; [congruence|auto].
  - assert (K : filter (keep d) bs = bs).
    { apply filter_all. intros b Hin. unfold keep. destruct (okill d b) eqn:Hk; [|reflexivity]. exfalso.
      assert (X : IError e = IOverridden) by (apply OV; eauto). discriminate. }
    rewrite K. destruct I as [->|[-> _]]; [congruence|]. split; [reflexivity|]. apply (rep_docs _ _ R1).
Qed.
End Flat.
