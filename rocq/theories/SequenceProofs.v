(** Proofs about the document sequence model. *)
From Verif Require Import SequenceModel.
From Coq Require Import Sorting.Sorted ZifyBool ZifyNat.
Open Scope Z_scope.

(** * Generic list facts *)

Lemma enum_from_app {A} n (l1 l2 : list A) :
  enum_from n (l1 ++ l2) = enum_from n l1 ++ enum_from (n + List.length l1) l2.
Proof.
  revert n; induction l1 as [|x l1 IH]; intros n; simpl.
  - rewrite Nat.add_0_r; reflexivity.
  - rewrite IH, Nat.add_succ_r; reflexivity.
Qed.

Lemma enum_from_snd {A} n (l : list A) : map snd (enum_from n l) = l.
Proof. revert n; induction l as [|x l IH]; intros n; simpl; [|rewrite IH]; reflexivity. Qed.

Lemma enum_from_ge {A} n (l : list A) p : In p (enum_from n l) -> (n <= fst p)%nat.
Proof.
  revert n; induction l as [|x l IH]; intros n; simpl; [tauto|].
  intros [H|H]; [subst; simpl; lia|]. apply IH in H; lia.
Qed.

Lemma remove_at_app {A} (l1 : list A) x l2 : remove_at (List.length l1) (l1 ++ x :: l2) = l1 ++ l2.
Proof. induction l1 as [|y l1 IH]; simpl; [|rewrite IH]; reflexivity. Qed.

Lemma remove_at_S {A} (l1 : list A) x y l2 : remove_at (S (List.length l1)) (l1 ++ x :: y :: l2) = l1 ++ x :: l2.
Proof. induction l1 as [|z l1 IH]; [reflexivity|]. change (z :: remove_at (S (List.length l1)) (l1 ++ x :: y :: l2) = z :: l1 ++ x :: l2). rewrite IH; reflexivity. Qed.

Lemma filter_none {A} (f : A -> bool) l : (forall x, In x l -> f x = false) -> filter f l = [].
Proof.
  induction l as [|x l IH]; simpl; intros H; [reflexivity|].
  rewrite (H x) by auto. apply IH; auto.
Qed.

Lemma filter_all {A} (f : A -> bool) l : (forall x, In x l -> f x = true) -> filter f l = l.
Proof.
  induction l as [|x l IH]; simpl; intros H; [reflexivity|].
  rewrite (H x) by auto. rewrite IH; auto.
Qed.

Lemma tl_add_app_le {A} (e : event A) l1 l2 :
  (forall x, In x l1 -> ev_when x <= ev_when e) ->
  tl_add e (l1 ++ l2) = l1 ++ tl_add e l2.
Proof.
  induction l1 as [|x l1 IH]; simpl; intros H; [reflexivity|].
  destruct (Z.leb_spec (ev_when x) (ev_when e)); [|specialize (H x (or_introl eq_refl)); lia].
  rewrite IH; auto.
Qed.

Lemma tl_add_gt {A} (e : event A) l :
  (forall x, In x l -> ev_when e < ev_when x) -> tl_add e l = e :: l.
Proof.
  destruct l as [|x l]; simpl; intros H; [reflexivity|].
  destruct (Z.leb_spec (ev_when x) (ev_when e)); [|reflexivity].
  specialize (H x (or_introl eq_refl)); lia.
Qed.

Lemma tl_add_mid {A} (e : event A) l1 l2 :
  (forall x, In x l1 -> ev_when x <= ev_when e) ->
  (forall x, In x l2 -> ev_when e < ev_when x) ->
  tl_add e (l1 ++ l2) = l1 ++ e :: l2.
Proof. intros H1 H2. rewrite tl_add_app_le by assumption. rewrite tl_add_gt by assumption. reflexivity. Qed.

Lemma tl_add_in {A} (e x : event A) l : In x (tl_add e l) <-> x = e \/ In x l.
Proof.
  induction l as [|y l IH]; simpl; [intuition congruence|].
  destruct (_ <=? _); simpl; [rewrite IH|]; intuition.
Qed.

Lemma StronglySorted_app {A} (R : A -> A -> Prop) l1 l2 :
  StronglySorted R (l1 ++ l2) <->
  StronglySorted R l1 /\ StronglySorted R l2 /\ (forall x y, In x l1 -> In y l2 -> R x y).
Proof.
  induction l1 as [|a l1 IH]; simpl.
  - split; [intros H; repeat split; [constructor|assumption|tauto]|tauto].
  - split.
    + intros H. inversion H as [|a' l' Hs Hf]; subst. apply IH in Hs. destruct Hs as (H1 & H2 & H3).
      rewrite Forall_app in Hf. destruct Hf as [Hf1 Hf2]. repeat split.
      * constructor; assumption.
      * assumption.
      * intros x y [Hx|Hx] Hy; [subst; eapply Forall_forall in Hf2; eassumption|auto].
    + intros (H1 & H2 & H3). inversion H1 as [|a' l' Hs Hf]; subst. constructor.
      * apply IH; repeat split; auto.
      * rewrite Forall_app; split; [assumption|]. apply Forall_forall; intros y Hy; auto.
Qed.

Lemma StronglySorted_filter {A} (R : A -> A -> Prop) f l :
  StronglySorted R l -> StronglySorted R (filter f l).
Proof.
  induction 1 as [|a l Hs IH Hf]; simpl; [constructor|].
  destruct (f a); [|assumption]. constructor; [assumption|].
  apply Forall_forall. intros x Hx. apply filter_In in Hx. eapply Forall_forall in Hf; [eassumption|tauto].
Qed.

(** * Blocks: the representation invariant of the timeline *)

Notation block := (document * option Z)%type.

Definition blk_events (b : block) : list (event document) :=
  ev_begin (fst b) :: match snd b with Some x => [mkEvent KEnd x (fst b)] | None => [] end.

Definition flat (bs : list block) : list (event document) := flat_map blk_events bs.

Arguments flat : simpl never.
Arguments blk_events : simpl never.

Lemma flat_app a b : flat (a ++ b) = flat a ++ flat b.
Proof. unfold flat. rewrite flat_map_app. reflexivity. Qed.

Lemma flat_cons b bs : flat (b :: bs) = blk_events b ++ flat bs.
Proof. reflexivity. Qed.
Lemma flat_one b : flat [b] = blk_events b.
Proof. exact (app_nil_r (blk_events b)). Qed.

Definition brel (p q : block) : Prop :=
  d_num (fst p) < d_num (fst q) /\ d_begin (fst p) < d_begin (fst q)
  /\ exists x, snd p = Some x /\ x <= d_begin (fst q).

Definition okb (p : block) : Prop :=
  match snd p with Some x => d_begin (fst p) <= x | None => True end.

Definition chain (bs : list block) : Prop := Forall okb bs /\ StronglySorted brel bs.

Lemma chain_app a b :
  chain (a ++ b) <-> chain a /\ chain b /\ (forall x y, In x a -> In y b -> brel x y).
Proof.
  unfold chain. rewrite Forall_app, StronglySorted_app. tauto.
Qed.

Lemma chain_filter f bs : chain bs -> chain (filter f bs).
Proof.
  intros [H1 H2]; split; [|apply StronglySorted_filter; assumption].
  apply Forall_forall; intros x Hx; apply filter_In in Hx. eapply Forall_forall in H1; [eassumption|tauto].
Qed.

Lemma in_flat e bs : In e (flat bs) <->
  exists b, In b bs /\ (e = ev_begin (fst b) \/ exists x, snd b = Some x /\ e = mkEvent KEnd x (fst b)).
Proof.
  unfold flat. rewrite in_flat_map. split.
  - intros (b & Hb & He). exists b; split; [assumption|].
    unfold blk_events in He. destruct (snd b) as [x|]; simpl in He; intuition eauto.
  - intros (b & Hb & He). exists b; split; [assumption|]. unfold blk_events.
    destruct He as [He|(x & Hx & He)]; [left; auto|right]. rewrite Hx; left; auto.
Qed.

(** Events of the blocks strictly before a block. *)
Lemma chain_pre_le pre p post e t :
  chain (pre ++ p :: post) -> d_begin (fst p) <= t -> In e (flat pre) -> ev_when e <= t.
Proof.
  intros Hc Ht He. apply chain_app in Hc. destruct Hc as (_ & _ & Hr).
  apply in_flat in He. destruct He as (b & Hb & He).
  specialize (Hr b p Hb (or_introl eq_refl)). destruct Hr as (_ & Hr1 & x & Hx & Hx2).
  destruct He as [He|(y & Hy & He)]; subst; simpl; [lia|]. rewrite Hx in Hy; injection Hy; lia.
Qed.

Lemma chain_pre_lt pre p post e t :
  chain (pre ++ p :: post) -> d_begin (fst p) < t -> In e (flat pre) -> ev_when e < t.
Proof. intros Hc Ht He. pose proof (chain_pre_le pre p post e (d_begin (fst p)) Hc). lia. Qed.

Lemma chain_post_gt bs t e :
  chain bs -> Forall (fun b => t < d_begin (fst b)) bs -> In e (flat bs) -> t < ev_when e.
Proof.
  intros [Hc _] Hf He. apply in_flat in He. destruct He as (b & Hb & He).
  rewrite Forall_forall in Hc, Hf. specialize (Hc b Hb). specialize (Hf b Hb). unfold okb in Hc.
  destruct He as [He|(y & Hy & He)]; subst; simpl; [lia|]. rewrite Hy in Hc. lia.
Qed.

(** Split of a chain at a time. *)
Lemma chain_split bs t : chain bs ->
  exists pre post, bs = pre ++ post /\ Forall (fun b => d_begin (fst b) <= t) pre
                   /\ Forall (fun b => t < d_begin (fst b)) post.
Proof.
  intros [_ Hs]. induction Hs as [|b bs Hs IH Hf].
  - exists [], []; repeat split; constructor.
  - destruct (Z.leb_spec (d_begin (fst b)) t) as [Hle|Hgt].
    + destruct IH as (pre & post & -> & H1 & H2). exists (b :: pre), post; repeat split; auto.
    + exists [], (b :: bs); repeat split; auto. constructor; [assumption|].
      apply Forall_forall; intros x Hx. eapply Forall_forall in Hf; [|eassumption]. destruct Hf as (_ & Hb & _). lia.
Qed.

Lemma list_snoc_cases {A} (l : list A) : l = [] \/ exists l' x, l = l' ++ [x].
Proof. destruct l as [|a l] using rev_ind; [left; reflexivity|right; eauto]. Qed.

(** * The two scanning loops on a block-structured timeline *)

Definition end_le (e : option Z) (t : Z) : bool := match e with Some x => x <=? t | None => false end.

Lemma irange_upto_split pre post t :
  chain (pre ++ post) -> Forall (fun b => d_begin (fst b) <= t) pre -> Forall (fun b => t < d_begin (fst b)) post ->
  irange_upto (Some t) (flat (pre ++ post)) =
  match rev pre with
  | [] => []
  | (p, e) :: rpre => flat (rev rpre) ++ ev_begin p :: (match e with Some x => if x <=? t then [mkEvent KEnd x p] else [] | None => [] end)
  end.
Proof.
  intros Hc Hpre Hpost. unfold irange_upto. rewrite flat_app, filter_app.
  rewrite (filter_none _ (flat post)).
  2:{ intros e He. apply Z.leb_gt. eapply chain_post_gt; [|eassumption|eassumption]. apply chain_app in Hc; tauto. }
  rewrite app_nil_r. destruct (list_snoc_cases pre) as [->|(pre' & [p e] & ->)]; [reflexivity|].
  rewrite rev_app_distr. simpl. rewrite rev_involutive. rewrite flat_app, filter_app.
  rewrite (filter_all _ (flat pre')).
  2:{ intros x Hx. apply Z.leb_le. rewrite <- app_assoc in Hc. simpl in Hc. eapply chain_pre_le; [eassumption| |eassumption].
      rewrite Forall_app in Hpre. destruct Hpre as [_ Hp]. inversion Hp; assumption. }
  f_equal. rewrite Forall_app in Hpre. destruct Hpre as [_ Hp]. inversion Hp as [|? ? Hp1 _]; subst. simpl in *.
  destruct (Z.leb_spec (d_begin p) t); [|lia]. f_equal.
  destruct e as [x|]; simpl; [|reflexivity]. destruct (x <=? t); reflexivity.
Qed.

(** Backward loop: discarded, or the candidate to trim. *)
Lemma scan_back_blocks d pre post :
  chain (pre ++ post) ->
  Forall (fun b => d_begin (fst b) <= d_begin d) pre -> Forall (fun b => d_begin d < d_begin (fst b)) post ->
  scan_back d None (rev (irange_upto (Some (d_begin d)) (flat (pre ++ post)))) =
  match rev pre with
  | [] => SOk None
  | (p, e) :: _ =>
    if d_num p >? d_num d then SDiscarded p
    else if end_le e (d_begin d) then SOk None else SOk (Some (ev_begin p))
  end.
Proof.
  intros Hc Hpre Hpost. rewrite irange_upto_split by assumption.
  destruct (rev pre) as [|[p e] rpre]; [reflexivity|].
  rewrite rev_app_distr. unfold end_le. destruct e as [x|]; [destruct (x <=? d_begin d)|]; simpl.
  - destruct (d_num p >? d_num d) eqn:Hn; [reflexivity|]. unfold doc_eqb. rewrite Z.eqb_refl. reflexivity.
  - destruct (d_num p >? d_num d) eqn:Hn; reflexivity.
  - destruct (d_num p >? d_num d) eqn:Hn; reflexivity.
Qed.

(** Prefix of end events in the forward loop. *)
Definition bb_ok (bb : option (event document)) (it : event document) : Prop :=
  match bb with
  | None => True
  | Some b => d_num (ev_elem it) = d_num (ev_elem b) \/ ev_when it = ev_when b
  end.

Lemma scan_fwd_end d te bb i it rest ea :
  ev_kind it = KEnd -> bb_ok bb it ->
  scan_fwd d te bb ((i, it) :: rest) ea = scan_fwd d te bb rest (Some (i, it)).
Proof.
  intros Hk Hb. simpl. rewrite Hk. destruct bb as [b|]; [|reflexivity]. unfold doc_eqb.
  destruct Hb as [Hb|Hb]; rewrite Hb, Z.eqb_refl; simpl; [reflexivity|].
  rewrite andb_false_r. reflexivity.
Qed.

Lemma scan_fwd_over d te bb ends i p rest ea :
  (forall q, In q ends -> ev_kind (snd q) = KEnd /\ bb_ok bb (snd q)) ->
  d_num p < d_num d ->
  scan_fwd d te bb (ends ++ (i, ev_begin p) :: rest) ea = FOverridden.
Proof.
  intros He Hn. revert ea. induction ends as [|[j q] ends IH]; intros ea; simpl app.
  - simpl. destruct (Z.gtb_spec (d_num d) (d_num p)); [reflexivity|lia].
  - rewrite scan_fwd_end by (apply (He (j, q)); left; reflexivity).
    apply IH. intros q' Hq'. apply He. right; assumption.
Qed.

Definition irf {A} (t : Z) n (l : list (event A)) := filter (fun p => t <=? ev_when (snd p)) (enum_from n l).

Lemma irf_app {A} t n (l1 l2 : list (event A)) : irf t n (l1 ++ l2) = irf t n l1 ++ irf t (n + List.length l1) l2.
Proof. unfold irf. rewrite enum_from_app, filter_app. reflexivity. Qed.

Lemma in_enum_snd {A} n (l : list A) p : In p (enum_from n l) -> In (snd p) l.
Proof.
  revert n; induction l as [|x l IH]; intros n; simpl; [tauto|].
  intros [H|H]; [subst; left; reflexivity|right; eapply IH; eassumption].
Qed.

Lemma irf_none {A} t n (l : list (event A)) : (forall e, In e l -> ev_when e < t) -> irf t n l = [].
Proof.
  intros H. apply filter_none. intros p Hp. apply Z.leb_gt. apply H. eapply in_enum_snd; eassumption.
Qed.

(** A scan that must report an override (A2). *)
Lemma scan_fwd_override d te bs bb :
  chain bs ->
  (match bb with None => True
   | Some b => exists p e, In (p, e) bs /\ b = ev_begin p /\ d_begin p <= d_begin d /\ end_le e (d_begin d) = false end) ->
  (exists p e, In (p, e) bs /\ d_begin d <= d_begin p /\ d_num p < d_num d) ->
  (forall p e, In (p, e) bs -> d_begin p < d_begin d -> d_num p < d_num d) ->
  scan_fwd d te bb (irf (d_begin d) 0 (flat bs)) None = FOverridden.
Proof.
  intros Hc Hbb Hex Hlow.
  (* first block with begin >= t *)
  assert (Hsp : exists pre p e post, bs = pre ++ (p, e) :: post /\ d_begin d <= d_begin p
                 /\ Forall (fun b => d_begin (fst b) < d_begin d) pre).
  { clear Hbb. destruct Hex as (p0 & e0 & Hin & Hge & _). clear Hc Hlow. induction bs as [|[q eq] bs IH]; [destruct Hin|].
    destruct (Z.leb_spec (d_begin d) (d_begin q)) as [Hq|Hq].
    - exists [], q, eq, bs. auto.
    - destruct Hin as [Hin|Hin]; [injection Hin; intros; subst; lia|].
      destruct (IH Hin) as (pre & p & e & post & -> & H1 & H2). exists ((q, eq) :: pre), p, e, post. auto. }
  destruct Hsp as (pre & p & e & post & -> & Hge & Hpre).
  assert (Hnp : d_num p < d_num d).
  { destruct Hex as (p0 & e0 & Hin & Hge0 & Hn0). apply in_app_iff in Hin. destruct Hin as [Hin|[Hin|Hin]].
    - rewrite Forall_forall in Hpre. specialize (Hpre _ Hin). simpl in Hpre. lia.
    - injection Hin; intros; subst; assumption.
    - apply chain_app in Hc. destruct Hc as (_ & [_ Hc] & _). inversion Hc as [|? ? _ Hf]; subst.
      eapply Forall_forall in Hf; [|exact Hin]. destruct Hf as (Hf & _). simpl in Hf. lia. }
  rewrite flat_app, irf_app, flat_cons, irf_app.
  assert (He : forall n, irf (d_begin d) n (blk_events (p, e)) = (n, ev_begin p) ::
             irf (d_begin d) (S n) (match e with Some x => [mkEvent KEnd x p] | None => [] end)).
  { intros n. unfold irf, blk_events. simpl. destruct (Z.leb_spec (d_begin d) (d_begin p)); [reflexivity|lia]. }
  rewrite He. simpl app. apply scan_fwd_over; [|assumption].
  intros [i q] Hq. unfold irf in Hq. apply filter_In in Hq. destruct Hq as [Hq Hw].
  apply in_enum_snd in Hq. simpl in Hq, Hw. apply in_flat in Hq. destruct Hq as (b & Hb & Hq).
  rewrite Forall_forall in Hpre. pose proof (Hpre b Hb) as Hb2.
  destruct Hq as [Hq|(x & Hx & Hq)]; subst q; simpl in *; [lia|]. split; [reflexivity|].
  destruct bb as [b0|]; [|exact I]. destruct Hbb as (p1 & e1 & Hin1 & -> & Hb1 & He1). simpl.
  apply in_app_iff in Hin1.
  pose proof Hc as Hc'. apply chain_app in Hc'. destruct Hc' as (Hcp & _ & Hr).
  destruct Hin1 as [Hin1|[Hin1|Hin1]].
  - (* both in pre : same block, otherwise ordering contradiction *)
    left. destruct b as [bd be]. simpl in *. subst be.
    destruct (Z.eq_dec (d_num bd) (d_num p1)) as [|Hne]; [assumption|exfalso].
    (* order of the two *)
    assert (Hord : brel (bd, Some x) (p1, e1) \/ brel (p1, e1) (bd, Some x) \/ (bd, Some x) = (p1, e1)).
    { clear - Hcp Hb Hin1. destruct Hcp as [_ Hs]. induction Hs as [|y l Hs IH Hf]; [destruct Hb|].
      rewrite Forall_forall in Hf. destruct Hb as [Hb|Hb], Hin1 as [Hi|Hi]; subst; auto.
    }
    pose proof (Hpre _ Hin1) as Hp1. simpl in Hp1.
    destruct Hord as [(_ & _ & y & Hy & Hy2)|[(_ & _ & y & Hy & Hy2)|Heq]].
    + simpl in *. injection Hy as Hy. subst. lia.
    + simpl in *. subst e1. simpl in He1. lia.
    + injection Heq as H1 H2. subst. lia.
  - injection Hin1 as <- <-. right.
    specialize (Hr b (p, e) Hb (or_introl eq_refl)). destruct Hr as (_ & _ & y & Hy & Hy2). simpl in *.
    rewrite Hx in Hy; injection Hy as Hy; subst. lia.
  - apply chain_app in Hc. destruct Hc as (_ & [_ Hc] & _). inversion Hc as [|? ? _ Hf]; subst.
    eapply Forall_forall in Hf; [|exact Hin1]. destruct Hf as (_ & Hf & _). simpl in Hf. lia.
Qed.

Definition trim_last (t : Z) (pre : list block) : list block :=
  match rev pre with
  | [] => []
  | (p, e) :: r => rev r ++ [(p, if end_le e t then e else Some t)]
  end.

Definition post_ok (d : document) (post : list block) : Prop :=
  match post with
  | [] => True
  | (q, _) :: _ => d_num d < d_num q /\ exists x, d_end d = Some x /\ x < d_begin q
  end.

Lemma irf_all_flat t n l : (forall e, In e l -> t <= ev_when e) -> irf t n l = @enum_from (event document) n l.
Proof.
  intros H. apply filter_all. intros p Hp. apply Z.leb_le. apply H. eapply in_enum_snd; eassumption.
Qed.

Lemma scan_fwd_post d post n ea bb :
  chain post -> Forall (fun b => d_begin d < d_begin (fst b)) post -> post_ok d post ->
  scan_fwd d (d_end d) bb (irf (d_begin d) n (flat post)) ea = FOk ea None.
Proof.
  intros Hc Hf Hp. destruct post as [|[q eq] post]; [reflexivity|].
  rewrite irf_all_flat.
  2:{ intros e He. pose proof (chain_post_gt _ (d_begin d) e Hc Hf He). lia. }
  simpl. destruct Hp as (Hn & x & Hx & Hlt). rewrite Hx.
  destruct (Z.gtb_spec (d_num d) (d_num q)); [lia|].
  destruct (Z.gtb_spec (d_num q) (d_num d)); [|lia].
  destruct (Z.gtb_spec x (d_begin q)); [lia|]. reflexivity.
Qed.

Definition set_ends (s : seqstate) (bs : list block) : seqstate := set_store s (map fst bs) (flat bs).

Lemma docs_add_mid d (pre post : list block) :
  (forall b, In b pre -> d_num (fst b) < d_num d) -> (forall b, In b post -> d_num d < d_num (fst b)) ->
  docs_add d (map fst (pre ++ post)) = map fst pre ++ d :: map fst post.
Proof.
  intros H1 H2. induction pre as [|b pre IH]; simpl.
  - destruct post as [|c post]; simpl; [reflexivity|].
    destruct (Z.leb_spec (d_num (fst c)) (d_num d)) as [Hle|]; [|reflexivity].
    specialize (H2 c (or_introl eq_refl)). lia.
  - destruct (Z.leb_spec (d_num (fst b)) (d_num d)) as [|Hgt].
    + rewrite IH; [reflexivity|]. intros; apply H1; right; assumption.
    + specialize (H1 b (or_introl eq_refl)). lia.
Qed.

(** A3: the plain insertion. *)
Lemma insert_blocks s d pre post :
  q_tl s = flat (pre ++ post) -> q_docs s = map fst (pre ++ post) -> chain (pre ++ post) ->
  (match d_end d with Some x => d_begin d <= x | None => True end) ->
  Forall (fun b => d_begin (fst b) < d_begin d /\ d_num (fst b) < d_num d) pre ->
  Forall (fun b => d_begin d < d_begin (fst b) /\ d_num d < d_num (fst b)) post ->
  post_ok d post ->
  insert_or_discard s d = IInserted (set_ends s (trim_last (d_begin d) pre ++ (d, d_end d) :: post)).
Proof.
  intros Htl Hdocs Hc Hwf Hpre Hpost Hpo. unfold insert_or_discard. rewrite Htl.
  assert (Hpre1 : Forall (fun b => d_begin (fst b) <= d_begin d) pre)
    by (eapply Forall_impl; [|exact Hpre]; intros ? [H _]; simpl; lia).
  assert (Hpost1 : Forall (fun b => d_begin d < d_begin (fst b)) post)
    by (eapply Forall_impl; [|exact Hpost]; intros ? [H _]; exact H).
  assert (Hcpost : chain post) by (apply chain_app in Hc; tauto).
  rewrite scan_back_blocks by assumption.
  change (irange_from (d_begin d) (flat (pre ++ post))) with (irf (d_begin d) 0 (flat (pre ++ post))).
  assert (Hpostgt : forall e, In e (flat post) -> d_begin d < ev_when e)
    by (intros e He; eapply chain_post_gt; eassumption).
  assert (Hfin : forall l0, (forall e, In e l0 -> ev_when e <= d_begin d) ->
     insert_document (set_store s (q_docs s) (l0 ++ flat post)) d (d_end d) =
     set_store s (docs_add d (q_docs s)) (l0 ++ blk_events (d, d_end d) ++ flat post)).
  { intros l0 Hl0. unfold insert_document. simpl q_tl. simpl q_docs.
    rewrite tl_add_mid by (simpl; auto).
    unfold set_store; f_equal. unfold blk_events. simpl snd; simpl fst.
    destruct (d_end d) as [x|] eqn:Hx; [|reflexivity].
    change (l0 ++ ev_begin d :: flat post) with (l0 ++ [ev_begin d] ++ flat post).
    rewrite app_assoc. rewrite tl_add_mid.
    - rewrite <- app_assoc. reflexivity.
    - intros e He. apply in_app_iff in He. simpl. destruct He as [He|[<-|[]]]; [specialize (Hl0 _ He); lia|simpl; lia].
    - intros e He. simpl. destruct post as [|[q eq] post]; [destruct He|].
      destruct Hpo as (_ & y & Hy & Hlt). rewrite Hx in Hy; injection Hy as <-.
      assert (d_begin q <= ev_when e); [|lia].
      assert (Hg : d_begin q - 1 < ev_when e); [|lia].
      eapply chain_post_gt; [eassumption| |exact He].
      apply Forall_forall. intros b Hb. destruct Hb as [<-|Hb]; simpl; [lia|].
      destruct Hcpost as [_ Hs]. inversion Hs as [|? ? _ Hf]; subst. eapply Forall_forall in Hf; [|exact Hb].
      destruct Hf as (_ & Hf & _). simpl in Hf. lia. }
  assert (Hfin' : forall l0 x, (forall e, In e (l0 ++ [x]) -> ev_when e <= d_begin d) ->
     insert_document (set_store s (q_docs s) (l0 ++ x :: flat post)) d (d_end d) =
     set_store s (docs_add d (q_docs s)) (l0 ++ [x] ++ blk_events (d, d_end d) ++ flat post)).
  { intros l0 x Hl0. replace (l0 ++ x :: flat post) with ((l0 ++ [x]) ++ flat post) by (rewrite <- app_assoc; reflexivity).
    rewrite Hfin by assumption. rewrite <- app_assoc. reflexivity. }
  assert (Hdocs' : docs_add d (q_docs s) = map fst (trim_last (d_begin d) pre ++ (d, d_end d) :: post)).
  { rewrite Hdocs. rewrite docs_add_mid.
    - rewrite map_app. simpl. f_equal. unfold trim_last.
      destruct (list_snoc_cases pre) as [->|(pre' & [p e] & ->)]; [reflexivity|].
      rewrite rev_app_distr. simpl. rewrite rev_involutive. rewrite !map_app. reflexivity.
    - intros b Hb. rewrite Forall_forall in Hpre. specialize (Hpre b Hb). tauto.
    - intros b Hb. rewrite Forall_forall in Hpost. specialize (Hpost b Hb). tauto. }
  destruct (list_snoc_cases pre) as [->|(pre' & [p e] & ->)].
  - simpl rev. cbv iota. simpl app. rewrite scan_fwd_post by assumption. cbv zeta iota.
    pose proof (Hfin [] (fun e (H : In e []) => match H with end)) as Hf0. simpl app in Hf0. simpl app. rewrite Hf0. unfold set_ends. rewrite Hdocs'. reflexivity.
  - rewrite rev_app_distr. simpl rev. cbv beta iota. simpl app.
    rewrite Forall_app in Hpre. destruct Hpre as [Hpre' Hp]. inversion Hp as [|? ? [Hpb Hpn] _]; subst. simpl in Hpb, Hpn.
    destruct (Z.gtb_spec (d_num p) (d_num d)); [lia|].
    assert (Hlt : forall x, In x (flat pre') -> ev_when x < d_begin d).
    { intros x Hx. rewrite <- app_assoc in Hc. eapply chain_pre_lt; [exact Hc| |exact Hx]. exact Hpb. }
    assert (Hset : trim_last (d_begin d) (pre' ++ [(p, e)]) = pre' ++ [(p, if end_le e (d_begin d) then e else Some (d_begin d))]).
    { unfold trim_last. rewrite rev_app_distr. simpl. rewrite rev_involutive. reflexivity. }
    rewrite !flat_app, !irf_app. rewrite (irf_none _ 0) by assumption. rewrite !app_nil_l.
    rewrite !flat_one.
    assert (Hblk : forall n, irf (d_begin d) n (blk_events (p, e)) =
              match e with Some x => if d_begin d <=? x then [(S n, mkEvent KEnd x p)] else [] | None => [] end).
    { intros n. unfold irf, blk_events. simpl. destruct (Z.leb_spec (d_begin d) (d_begin p)); [lia|].
      destruct e as [x|]; [|reflexivity]. simpl. reflexivity. }
    rewrite Hblk.
    unfold set_ends. rewrite <- Hdocs', Hset. rewrite !flat_app, !flat_cons.
    destruct e as [x|]; simpl end_le.
    + destruct (Z.leb_spec x (d_begin d)) as [Hxle|Hxgt].
      * (* ended already *)
        destruct (Z.leb_spec (d_begin d) x) as [Hxge|Hxlt].
        -- rewrite <- app_comm_cons, app_nil_l. rewrite scan_fwd_end by (simpl; auto).
           rewrite scan_fwd_post by assumption. cbv zeta iota.
           rewrite Hfin; [reflexivity|]. intros y Hy. apply in_app_iff in Hy. destruct Hy as [Hy|[<-|[<-|[]]]]; simpl; [specialize (Hlt _ Hy)| |]; lia.
        -- rewrite app_nil_l. rewrite scan_fwd_post by assumption. cbv zeta iota.
           rewrite Hfin; [reflexivity|]. intros y Hy. apply in_app_iff in Hy. destruct Hy as [Hy|[<-|[<-|[]]]]; simpl; [specialize (Hlt _ Hy)| |]; lia.
      * destruct (Z.leb_spec (d_begin d) x); [|lia].
        rewrite <- app_comm_cons, app_nil_l. rewrite scan_fwd_end by (simpl; auto).
        rewrite scan_fwd_post by assumption. cbv zeta iota.
        assert (Hrem : remove_at (S (0 + List.length (flat pre'))) ((flat pre' ++ blk_events (p, Some x)) ++ flat post)
                       = (flat pre' ++ [ev_begin p]) ++ flat post).
        { unfold blk_events. simpl fst; simpl snd; cbv iota. rewrite <- !app_assoc. exact (remove_at_S (flat pre') _ _ _). }
        rewrite Hrem. rewrite tl_add_mid.
        -- simpl ev_elem. rewrite Hfin'.
           ++ rewrite <- !app_assoc. reflexivity.
           ++ intros y Hy. rewrite !in_app_iff in Hy. destruct Hy as [[Hy|[<-|[]]]|[<-|[]]]; simpl; [specialize (Hlt _ Hy)| |]; lia.
        -- intros y Hy. rewrite in_app_iff in Hy. simpl. destruct Hy as [Hy|[<-|[]]]; simpl; [specialize (Hlt _ Hy)|]; lia.
        -- intros y Hy. simpl. apply Hpostgt; assumption.
    + rewrite app_nil_l. rewrite scan_fwd_post by assumption. cbv zeta iota.
      simpl (ev_elem (ev_begin p)). rewrite tl_add_mid.
      * rewrite Hfin'.
        -- rewrite <- !app_assoc. reflexivity.
        -- intros y Hy. rewrite !in_app_iff in Hy. destruct Hy as [[Hy|[<-|[]]]|[<-|[]]]; simpl; [specialize (Hlt _ Hy)| |]; lia.
      * intros y Hy. rewrite in_app_iff in Hy. simpl. destruct Hy as [Hy|[<-|[]]]; simpl; [specialize (Hlt _ Hy)|]; lia.
      * intros y Hy. simpl. apply Hpostgt; assumption.
Qed.

(** * Removing whole blocks *)

Fixpoint killpos (kill : block -> bool) (n : nat) (bs : list block) : list nat :=
  match bs with
  | [] => []
  | b :: r => (if kill b then seq n (List.length (blk_events b)) else [])
              ++ killpos kill (n + List.length (blk_events b)) r
  end.

Lemma killpos_ge kill n bs i : In i (killpos kill n bs) -> (n <= i)%nat.
Proof.
  revert n; induction bs as [|b bs IH]; intros n; cbn [killpos]; [simpl; tauto|].
  rewrite in_app_iff. intros [H|H]; [|apply IH in H; lia].
  destruct (kill b); [apply in_seq in H; lia|destruct H].
Qed.

Lemma existsb_eqb_in i is : existsb (Nat.eqb i) is = true <-> In i is.
Proof.
  rewrite existsb_exists. split.
  - intros (x & Hx & He). apply Nat.eqb_eq in He. subst. assumption.
  - intros H. exists i. rewrite Nat.eqb_refl. auto.
Qed.

Lemma enum_from_lt {A} n (l : list A) p : In p (enum_from n l) -> (fst p < n + List.length l)%nat.
Proof.
  revert n; induction l as [|x l IH]; intros n; simpl; [tauto|].
  intros [H|H]; [subst; simpl; lia|]. apply IH in H; lia.
Qed.

Lemma remove_positions_blocks kill bs : forall n is,
  (forall i, (n <= i)%nat -> (In i is <-> In i (killpos kill n bs))) ->
  map snd (filter (fun p => negb (existsb (Nat.eqb (fst p)) is)) (enum_from n (flat bs)))
  = flat (filter (fun b => negb (kill b)) bs).
Proof.
  induction bs as [|b bs IH]; intros n is His; [reflexivity|].
  rewrite flat_cons, enum_from_app, filter_app, map_app. rewrite IH.
  2:{ intros i Hi. rewrite His by lia. cbn [killpos]. rewrite in_app_iff.
      split; [|auto]. intros [H|H]; [|assumption]. destruct (kill b); [apply in_seq in H; lia|destruct H]. }
  cbn [filter]. destruct (kill b) eqn:Hk; cbn [negb].
  - rewrite filter_none; [reflexivity|]. intros p Hp. apply negb_false_iff. apply existsb_eqb_in.
    pose proof (enum_from_ge _ _ _ Hp). pose proof (enum_from_lt _ _ _ Hp).
    apply His; [lia|]. cbn [killpos]. rewrite Hk. apply in_app_iff. left. apply in_seq. lia.
  - rewrite flat_cons. f_equal. rewrite filter_all; [apply enum_from_snd|].
    intros p Hp. apply negb_true_iff. destruct (existsb _ _) eqn:He; [exfalso|reflexivity].
    apply existsb_eqb_in in He. 
    pose proof (enum_from_ge _ _ _ Hp). pose proof (enum_from_lt _ _ _ Hp).
    apply His in He; [|lia]. cbn [killpos] in He. rewrite Hk in He. rewrite app_nil_l in He. apply killpos_ge in He. lia.
Qed.

Definition docs_in (x : document) (ds : list document) : bool := existsb (doc_same x) ds.

Lemma docs_in_spec x ds : docs_in x ds = true <-> In (d_obj x) (map d_obj ds).
Proof.
  unfold docs_in. rewrite existsb_exists, in_map_iff. split.
  - intros (y & Hy & He). unfold doc_same in He. exists y. split; [lia|assumption].
  - intros (y & Hy & He). exists y. split; [assumption|]. unfold doc_same. lia.
Qed.

Lemma docs_in_app x a b : docs_in x (a ++ b) = docs_in x a || docs_in x b.
Proof. unfold docs_in. apply existsb_app. Qed.

Definition okill (d : document) (b : block) : bool :=
  (d_num (fst b) <? d_num d) && (d_begin d <=? d_begin (fst b)).

Definition oskip (d : document) (it : event document) (ds : list document) : bool :=
  negb (d_num (ev_elem it) <? d_num d)
  || (negb (is_begin it) && negb (existsb (doc_same (ev_elem it)) ds)).

Lemma doc_same_refl x : doc_same x x = true.
Proof. unfold doc_same. lia. Qed.

Lemma collect_override_block d b n rest ds is :
  okb b -> docs_in (fst b) ds = false ->
  collect (oskip d) (irf (d_begin d) n (blk_events b) ++ rest) ds is =
  collect (oskip d) rest (if okill d b then ds ++ [fst b] else ds)
          (is ++ (if okill d b then seq n (List.length (blk_events b)) else [])).
Proof.
  intros Hok Hin. destruct b as [p e]. unfold okb in Hok. unfold okill. simpl fst in *. simpl snd in *.
  unfold irf, blk_events. simpl fst; simpl snd. simpl enum_from. simpl filter.
  unfold docs_in in Hin.
  destruct (Z.leb_spec (d_begin d) (d_begin p)) as [Hb|Hb].
  - simpl app. simpl collect. unfold oskip at 1. simpl.
    destruct (Z.ltb_spec (d_num p) (d_num d)) as [Hn|Hn]; simpl.
    + rewrite Hin. destruct e as [x|]; simpl.
      * destruct (Z.leb_spec (d_begin d) x); [|lia]. simpl. unfold oskip at 1. simpl.
        rewrite existsb_app. simpl. rewrite doc_same_refl, !orb_true_r. simpl.
        destruct (Z.ltb_spec (d_num p) (d_num d)); [|lia]. simpl. rewrite <- app_assoc. reflexivity.
      * reflexivity.
    + rewrite app_nil_r. destruct e as [x|]; simpl; [|reflexivity].
      destruct (Z.leb_spec (d_begin d) x); [|lia]. simpl. unfold oskip at 1. simpl.
      destruct (Z.ltb_spec (d_num p) (d_num d)); [lia|]. reflexivity.
  - rewrite andb_false_r, app_nil_r. destruct e as [x|]; simpl; [|reflexivity].
    destruct (d_begin d <=? x); [|reflexivity]. simpl. unfold oskip at 1. simpl. rewrite Hin. rewrite orb_true_r. reflexivity.
Qed.

Lemma collect_override d bs : forall n ds is,
  Forall okb bs -> NoDup (map (fun b => d_obj (fst b)) bs) ->
  (forall b, In b bs -> docs_in (fst b) ds = false) ->
  collect (oskip d) (irf (d_begin d) n (flat bs)) ds is =
  (ds ++ map fst (filter (okill d) bs), is ++ killpos (okill d) n bs).
Proof.
  induction bs as [|b bs IH]; intros n ds is Hok Hnd Hds.
  - simpl. rewrite !app_nil_r. reflexivity.
  - inversion Hok as [|? ? Hob Hok']; subst. inversion Hnd as [|? ? Hnb Hnd']; subst.
    rewrite flat_cons, irf_app. rewrite collect_override_block by (try assumption; apply Hds; left; reflexivity).
    rewrite IH; [|assumption|assumption|].
    + cbn [killpos filter]. destruct (okill d b); cbn [map]; rewrite <- ?app_assoc; reflexivity.
    + intros c Hc. destruct (okill d b); [|apply Hds; right; assumption].
      rewrite docs_in_app. rewrite (Hds c) by (right; assumption). simpl.
      rewrite orb_false_r. unfold doc_same. apply Z.eqb_neq. intros Heq. apply Hnb. apply in_map_iff.
      exists c. auto.
Qed.

Definition disc_entry (t : Z) (d : document) : Z * Z * Z := (d_obj d, t, d_begin d).

Lemma discard_all_ok ds t : forall s,
  (forall x, In x ds -> t <= d_begin x) ->
  discard_all s ds t =
  (set_disc (set_store s (filter (fun x => negb (docs_in x ds)) (q_docs s)) (q_tl s))
            (rev (map (disc_entry t) ds) ++ q_disc s), Ok tt).
Proof.
  induction ds as [|d ds IH]; intros s H.
  - simpl. rewrite filter_all by reflexivity. destruct s; reflexivity.
  - simpl discard_all. unfold discard_document. destruct (Z.gtb_spec t (d_begin d)) as [Hgt|].
    + specialize (H d (or_introl eq_refl)). lia.
    + rewrite IH by (intros; apply H; right; assumption).
      unfold set_disc, set_store. simpl. rewrite <- app_assoc. simpl. f_equal. f_equal.
      induction (q_docs s) as [|x l IHl]; [reflexivity|].
      cbn [filter]. change (docs_in x (d :: ds)) with (doc_same x d || docs_in x ds).
      replace (doc_same x d) with (doc_same d x) by (unfold doc_same; apply Z.eqb_sym).
      destruct (doc_same d x); cbn [negb orb filter]; [exact IHl|].
      destruct (docs_in x ds); cbn [negb]; [exact IHl|]. f_equal. exact IHl.
Qed.

Lemma filter_docs_kill (kill : block -> bool) bs :
  NoDup (map (fun b => d_obj (fst b)) bs) ->
  filter (fun x => negb (docs_in x (map fst (filter kill bs)))) (map fst bs)
  = map fst (filter (fun b => negb (kill b)) bs).
Proof.
  intros Hnd.
  assert (H : forall sub, incl sub bs ->
     filter (fun x => negb (docs_in x (map fst (filter kill bs)))) (map fst sub)
     = map fst (filter (fun b => negb (kill b)) sub)).
  { induction sub as [|b sub IH]; intros Hi; [reflexivity|]. simpl.
    assert (Hb : In b bs) by (apply Hi; left; reflexivity).
    assert (Hs : incl sub bs) by (intros x Hx; apply Hi; right; assumption).
    assert (Hk : docs_in (fst b) (map fst (filter kill bs)) = kill b).
    { destruct (kill b) eqn:Hk.
      - apply docs_in_spec. rewrite map_map. apply (in_map (fun b => d_obj (fst b))). apply filter_In. auto.
      - destruct (docs_in _ _) eqn:Hd; [exfalso|reflexivity].
        apply docs_in_spec in Hd. rewrite map_map in Hd. apply in_map_iff in Hd.
        destruct Hd as (c & Hc1 & Hc2). apply filter_In in Hc2. destruct Hc2 as [Hc2 Hc3].
        assert (c = b); [|congruence].
        clear - Hnd Hb Hc1 Hc2. induction bs as [|a l IH]; [destruct Hb|].
        simpl in Hnd. inversion Hnd as [|? ? Hn Hnd']; subst.
        destruct Hb as [Hb|Hb], Hc2 as [Hc|Hc]; subst; auto.
        + exfalso. apply Hn. rewrite <- Hc1. apply (in_map (fun b => d_obj (fst b))). assumption.
        + exfalso. apply Hn. rewrite Hc1. apply (in_map (fun b => d_obj (fst b))). assumption. }
    rewrite Hk. destruct (kill b); simpl; rewrite IH by assumption; reflexivity. }
  apply H. apply incl_refl.
Qed.

Lemma remove_positions_flat kill bs : remove_positions (killpos kill 0 bs) (flat bs) = flat (filter (fun b => negb (kill b)) bs).
Proof. apply remove_positions_blocks. tauto. Qed.

Lemma override_blocks s d bs :
  q_tl s = flat bs -> q_docs s = map fst bs -> chain bs -> NoDup (map (fun b => d_obj (fst b)) bs) ->
  override_sequence s d =
  (set_disc (set_ends s (filter (fun b => negb (okill d b)) bs))
            (rev (map (disc_entry (d_begin d)) (map fst (filter (okill d) bs))) ++ q_disc s), Ok tt).
Proof.
  intros Htl Hdocs Hc Hnd. unfold override_sequence. rewrite Htl.
  change (irange_from (d_begin d) (flat bs)) with (irf (d_begin d) 0 (flat bs)).
  change (fun it ds => _) with (oskip d).
  rewrite collect_override; [|apply Hc|assumption|reflexivity]. rewrite !app_nil_l.
  rewrite discard_all_ok.
  2:{ intros x Hx. apply in_map_iff in Hx. destruct Hx as (b & <- & Hb). apply filter_In in Hb.
      destruct Hb as [_ Hb]. unfold okill in Hb. lia. }
  simpl. rewrite Htl, remove_positions_flat, Hdocs, filter_docs_kill by assumption. reflexivity.
Qed.

(** * Locating events *)

Lemma in_split_unique (bs : list block) (b : block) :
  chain bs -> In b bs -> exists a c, bs = a ++ b :: c
     /\ (forall x, In x a -> brel x b) /\ (forall x, In x c -> brel b x).
Proof.
  intros Hc Hin. apply in_split in Hin. destruct Hin as (a & c & ->). exists a, c.
  apply chain_app in Hc. destruct Hc as (_ & [_ Hs] & Hr). inversion Hs as [|? ? _ Hf]; subst.
  split; [reflexivity|split]; [intros x Hx; apply Hr; [assumption|left; reflexivity]|].
  intros x Hx. eapply Forall_forall in Hf; eassumption.
Qed.

Lemma in_flat_elem e bs : In e (flat bs) -> In (ev_elem e) (map fst bs).
Proof.
  intros H. apply in_flat in H. destruct H as (b & Hb & [->|(x & _ & ->)]); simpl; apply in_map; assumption.
Qed.

Lemma locate_blocks k s bs p e :
  q_tl s = flat bs -> chain bs -> In (p, e) bs ->
  locate k s p = match k with
                 | KBegin => Some (ev_begin p)
                 | KEnd => match e with Some x => Some (mkEvent KEnd x p) | None => None end
                 end.
Proof.
  intros Htl Hc Hin. unfold locate. rewrite Htl.
  change (irange_from (d_begin p) (flat bs)) with (irf (d_begin p) 0 (flat bs)).
  assert (Hokb : okb (p, e)) by (destruct Hc as [Hc _]; eapply Forall_forall in Hc; eassumption).
  unfold okb in Hokb. simpl in Hokb.
  destruct (in_split_unique _ _ Hc Hin) as (a & c & -> & Ha & Hcc).
  rewrite flat_app, flat_cons, !irf_app, !filter_app.
  rewrite (filter_none _ (irf _ 0 (flat a))).
  2:{ intros [i q] Hq. apply filter_In in Hq. destruct Hq as [Hq _]. apply in_enum_snd in Hq. simpl in *.
      apply in_flat_elem in Hq. apply in_map_iff in Hq. destruct Hq as (b & Hb & Hb2). specialize (Ha b Hb2).
      destruct Ha as (Ha & _). simpl in Ha. rewrite <- Hb. unfold doc_eqb.
      destruct (Z.eqb_spec (d_num (fst b)) (d_num p)); [lia|reflexivity]. }
  match goal with |- context[filter ?f (irf ?t ?n (flat c))] => rewrite (filter_none f (irf t n (flat c))) end.
  2:{ intros [i q] Hq. apply filter_In in Hq. destruct Hq as [Hq _]. apply in_enum_snd in Hq. simpl in *.
      apply in_flat_elem in Hq. apply in_map_iff in Hq. destruct Hq as (b & Hb & Hb2). specialize (Hcc b Hb2).
      destruct Hcc as (Hcc & _). simpl in Hcc. rewrite <- Hb. unfold doc_eqb.
      destruct (Z.eqb_spec (d_num (fst b)) (d_num p)); [lia|reflexivity]. }
  rewrite app_nil_l, app_nil_r. unfold irf, blk_events, doc_eqb. simpl.
  rewrite Z.leb_refl. destruct e as [x|]; simpl.
  - destruct (Z.leb_spec (d_begin p) x); [|lia]. rewrite Z.eqb_refl. destruct k; simpl; rewrite ?Z.eqb_refl; reflexivity.
  - rewrite Z.eqb_refl. destruct k; reflexivity.
Qed.

(** * Invariants *)

From Verif Require Import SequenceSpec.

Definition bobj (b : block) : Z := d_obj (fst b).

Record rep (s : seqstate) (bs : list block) : Prop := {
  rep_tl : q_tl s = flat bs;
  rep_docs : q_docs s = map fst bs;
  rep_chain : chain bs;
  rep_obj : NoDup (map bobj bs) }.

Definition end_ge (e : option Z) (t : Z) : Prop := match e with Some x => t <= x | None => True end.

Definition exact_ends (bs : list block) : Prop :=
  forall p e, In (p, e) bs ->
    e = d_end p \/ exists q eq, In (q, eq) bs /\ d_num p < d_num q /\ e = Some (d_begin q) /\ end_ge (d_end p) (d_begin q).

(** [a]: every document ever delivered; [h]: those delivered and not forgotten. *)
Record hinv (a h : list document) (s : seqstate) (bs : list block) : Prop := {
  hi_rep : rep s bs;
  hi_exact : exact_ends bs;
  hi_incl : incl h a;
  hi_sub : forall b, In b bs -> In (fst b) h;
  hi_dom : forall d, In d h -> exists b, In b bs /\ d_num d <= d_num (fst b) /\ d_begin (fst b) <= d_begin d;
  hi_log : forall o e b, In (o, e, b) (q_disc s) ->
            exists d, In d a /\ d_obj d = o /\ d_begin d = b /\ e <= b /\ ~ In o (map bobj bs);
  hi_disc : forall d, In d h -> In (d_obj d) (map bobj bs) \/ exists e, In (d_obj d, e, d_begin d) (q_disc s) }.

Definition sane (sid tb : string) (cm : option string) (g : string) (s : seqstate) : Prop :=
  q_sid s = sid /\ q_tb s = tb /\ q_cm s = cm /\ (q_agid s = None \/ q_agid s = Some g).

Lemma disc_lookup_none s d : (forall o e b, In (o, e, b) (q_disc s) -> o <> d_obj d) -> disc_lookup s d = None.
Proof.
  intros H. unfold disc_lookup. rewrite filter_none; [reflexivity|].
  intros [[o e] b] Hin. simpl. apply Z.eqb_neq. eapply H; eassumption.
Qed.

Lemma disc_lookup_some s d :
  (exists e b, In (d_obj d, e, b) (q_disc s)) ->
  exists e b, disc_lookup s d = Some (b, e) /\ In (d_obj d, e, b) (q_disc s).
Proof.
  intros (e & b & Hin). unfold disc_lookup.
  destruct (filter _ _) as [|[[o e'] b'] l] eqn:Hf.
  - exfalso. assert (Hi : In (d_obj d, e, b) (filter (fun p => fst (fst p) =? d_obj d) (q_disc s))).
    { apply filter_In. split; [assumption|]. simpl. apply Z.eqb_refl. }
    rewrite Hf in Hi. destruct Hi.
  - exists e', b'. split; [reflexivity|].
    assert (Hi : In (o, e', b') (filter (fun p => fst (fst p) =? d_obj d) (q_disc s))) by (rewrite Hf; left; reflexivity).
    apply filter_In in Hi. destruct Hi as [Hi Ho]. simpl in Ho. apply Z.eqb_eq in Ho. subst. assumption.
Qed.

Lemma stored_in s bs b : rep s bs -> In b bs -> stored s (fst b) = true.
Proof.
  intros Hr Hin. unfold stored. rewrite (rep_docs _ _ Hr). apply existsb_exists. exists (fst b).
  split; [apply in_map; assumption|apply doc_same_refl].
Qed.

Lemma hinv_resolved_begin a h s bs b : hinv a h s bs -> In b bs -> resolved_begin s (fst b) = Ok (d_begin (fst b)).
Proof.
  intros Hi Hin. unfold resolved_begin. rewrite disc_lookup_none.
  - unfold seq_resolved_begin. rewrite (stored_in _ _ _ (hi_rep _ _ _ _ Hi) Hin).
    destruct b as [p e]. simpl fst in *.
    rewrite (locate_blocks KBegin s bs p e); [reflexivity| | |assumption]; apply (hi_rep _ _ _ _ Hi).
  - intros o e b' Hl Ho. apply (hi_log _ _ _ _ Hi) in Hl. destruct Hl as (d & _ & _ & _ & _ & Hn). apply Hn. subst o.
    apply (in_map bobj) in Hin. exact Hin.
Qed.

Lemma hinv_resolved_end a h s bs p e : hinv a h s bs -> In (p, e) bs -> (forall x, e = Some x -> x <> 0) ->
  resolved_end s p = Ok e.
Proof.
  intros Hi Hin Hz. unfold resolved_end. rewrite disc_lookup_none.
  - unfold seq_resolved_end. pose proof (stored_in _ _ _ (hi_rep _ _ _ _ Hi) Hin) as Hst. simpl in Hst. rewrite Hst.
    rewrite (locate_blocks KEnd s bs p e); [|apply (hi_rep _ _ _ _ Hi)|apply (hi_rep _ _ _ _ Hi)|assumption].
    destruct e as [x|]; simpl.
    + destruct (Z.eqb_spec x 0) as [->|]; [exfalso; eapply Hz; reflexivity|reflexivity].
    + destruct (hi_exact _ _ _ _ Hi _ _ Hin) as [He|(q & eq & _ & _ & He & _)]; [|discriminate].
      rewrite <- He. reflexivity.
  - intros o e' b' Hl Ho. apply (hi_log _ _ _ _ Hi) in Hl. destruct Hl as (d & _ & _ & _ & _ & Hn). apply Hn. subst o.
    apply (in_map bobj) in Hin. exact Hin.
Qed.

Lemma check_compat_ok sid tb cm g s d :
  sane sid tb cm g s -> belongs sid tb cm g d -> ~ In (d_num d) (map d_num (q_docs s)) ->
  exists a, check_compat s d = (set_agid s a, Ok tt) /\ (a = None \/ a = Some g).
Proof.
  intros (H1 & H2 & H3 & H4) (B1 & B2 & B3 & B4) Hn. unfold check_compat.
  rewrite H1, H2, B1, B2, !String.eqb_refl. simpl.
  assert (Hcm : (tb =? "clock")%string && negb (ostr_eqb (q_cm s) (d_cm d)) = false).
  { destruct (String.eqb_spec tb "clock") as [He|]; [|reflexivity]. rewrite (B3 He), H3.
    destruct cm; simpl; [rewrite String.eqb_refl|]; reflexivity. }
  rewrite Hcm.
  assert (Hex : existsb (fun x => d_num x =? d_num d) (q_docs s) = false).
  { destruct (existsb _ _) eqn:He; [exfalso|reflexivity]. apply existsb_exists in He. destruct He as (x & Hx & He).
    apply Hn. apply in_map_iff. exists x. split; [lia|assumption]. }
  rewrite Hex.
  assert (Hid : set_agid s (q_agid s) = s) by (destruct s; reflexivity).
  destruct B4 as [B4 | [B4 | B4]]; rewrite B4.
  - exists (q_agid s). rewrite Hid. auto.
  - exists (q_agid s). rewrite Hid. auto.
  - destruct (String.eqb_spec g "") as [He|Hne].
    + exists (q_agid s). rewrite Hid. auto.
    + destruct H4 as [->|H4]; [exists (Some g); auto|]. rewrite H4, String.eqb_refl. exists (q_agid s). rewrite Hid. auto.
Qed.

Lemma hinv_state a h s s' bs :
  hinv a h s bs -> q_tl s' = q_tl s -> q_docs s' = q_docs s -> q_disc s' = q_disc s -> hinv a h s' bs.
Proof.
  intros [[R1 R2 R3 R4] H2 H2' H3 H4 H5 H6] E1 E2 E3.
  constructor; [constructor; congruence|assumption|assumption|assumption|assumption|rewrite E3; assumption|rewrite E3; assumption].
Qed.

Lemma insert_or_discard_state s s' d :
  q_tl s' = q_tl s -> insert_or_discard s' d =
  match insert_or_discard s d with
  | IInserted s2 => IInserted (set_store s' (docs_add d (q_docs s')) (q_tl s2))
  | r => r
  end.
Proof.
  intros E. unfold insert_or_discard. rewrite E. destruct (scan_back _ _ _); try reflexivity.
  destruct (scan_fwd _ _ _ _ _); reflexivity.
Qed.

(** Closing a block list by inserting [d] between [pre] and [post]. *)
Lemma trim_last_nil t : trim_last t [] = [].
Proof. reflexivity. Qed.

Lemma trim_last_snoc t pre p e : trim_last t (pre ++ [(p, e)]) = pre ++ [(p, if end_le e t then e else Some t)].
Proof. unfold trim_last. rewrite rev_app_distr. simpl. rewrite rev_involutive. reflexivity. Qed.

Lemma trim_last_fst t pre : map fst (trim_last t pre) = map fst pre.
Proof.
  destruct (list_snoc_cases pre) as [->|(pre' & [p0 e0] & ->)]; [reflexivity|].
  rewrite trim_last_snoc, !map_app. reflexivity.
Qed.

Lemma trim_last_chain t pre :
  chain pre -> Forall (fun b => d_begin (fst b) < t) pre ->
  chain (trim_last t pre) /\ (forall b, In b (trim_last t pre) -> exists x, snd b = Some x /\ x <= t).
Proof.
  intros Hc Hf. destruct (list_snoc_cases pre) as [->|(pre' & [p0 e0] & ->)]; [split; [assumption|intros ? []]|].
  rewrite trim_last_snoc. rewrite Forall_app in Hf. destruct Hf as [Hf1 Hf2]. inversion Hf2 as [|? ? Hp _]; subst. simpl in Hp.
  apply chain_app in Hc. destruct Hc as (Hc1 & [Hc2 _] & Hr). inversion Hc2 as [|? ? Hok _]; subst. unfold okb in Hok. simpl in Hok.
  split.
  - apply chain_app. split; [assumption|]. split.
    + split; [constructor; [|constructor]|repeat constructor]. unfold okb. simpl. unfold end_le. destruct e0 as [x|]; [destruct (x <=? t)|]; lia.
    + intros x y Hx [<-|[]]. specialize (Hr x (p0, e0) Hx (or_introl eq_refl)). exact Hr.
  - intros b Hb. apply in_app_iff in Hb. destruct Hb as [Hb|[<-|[]]].
    + specialize (Hr b (p0, e0) Hb (or_introl eq_refl)). destruct Hr as (_ & _ & x & Hx & Hx2). exists x. simpl in Hx2. split; [assumption|lia].
    + simpl. unfold end_le. destruct e0 as [x|]; [destruct (Z.leb_spec x t)|]; eexists; split; try reflexivity; lia.
Qed.

Definition dominated (h : list document) (d : document) : Prop :=
  exists d', In d' h /\ d_num d < d_num d' /\ d_begin d' <= d_begin d.

Definition new_blocks (d : document) (pre post : list block) : list block :=
  trim_last (d_begin d) pre ++ (d, d_end d) :: post.

Lemma new_blocks_fst d pre post : map fst (new_blocks d pre post) = map fst pre ++ d :: map fst post.
Proof. unfold new_blocks. rewrite map_app, trim_last_fst. reflexivity. Qed.

Lemma bobj_fst bs : map bobj bs = map d_obj (map fst bs).
Proof. rewrite map_map. reflexivity. Qed.

Lemma new_blocks_chain d pre post :
  chain (pre ++ post) -> doc_wf d ->
  Forall (fun b => d_begin (fst b) < d_begin d /\ d_num (fst b) < d_num d) pre ->
  Forall (fun b => d_begin d < d_begin (fst b) /\ d_num d < d_num (fst b)) post ->
  post_ok d post -> chain (new_blocks d pre post).
Proof.
  intros Hc Hwf Hpre Hpost Hpo. apply chain_app in Hc. destruct Hc as (Hc1 & Hc2 & Hr).
  assert (Hpre1 : Forall (fun b => d_begin (fst b) < d_begin d) pre) by (eapply Forall_impl; [|exact Hpre]; intros ? [? _]; assumption).
  destruct (trim_last_chain (d_begin d) pre Hc1 Hpre1) as [Ht1 Ht2].
  rewrite Forall_forall in Hpre, Hpost.
  assert (Hfst : forall b, In b (trim_last (d_begin d) pre) -> d_begin (fst b) < d_begin d /\ d_num (fst b) < d_num d).
  { intros b Hb. apply (in_map fst) in Hb. rewrite trim_last_fst in Hb. apply in_map_iff in Hb. destruct Hb as (c & Hc & Hc').
    rewrite <- Hc. apply Hpre; assumption. }
  assert (Hdp : forall y, In y post -> brel (d, d_end d) y).
  { intros y Hy. pose proof (Hpost y Hy) as [H1 H2]. repeat split; try assumption. simpl.
    destruct post as [|[q eq] post]; [destruct Hy|]. destruct Hpo as (_ & x & Hx & Hlt). exists x. split; [assumption|].
    destruct Hy as [<-|Hy]; [simpl; lia|]. destruct Hc2 as [_ Hs]. inversion Hs as [|? ? _ Hf]; subst.
    eapply Forall_forall in Hf; [|exact Hy]. destruct Hf as (_ & Hf & _). simpl in Hf. lia. }
  apply chain_app. split; [assumption|]. split.
  - destruct Hc2 as [Ho Hs]. split.
    + constructor; [|assumption]. unfold okb. simpl. destruct Hwf as [_ Hwf]. destruct (d_end d); [tauto|exact I].
    + constructor; [assumption|]. apply Forall_forall. assumption.
  - intros x y Hx Hy. pose proof (Hfst x Hx) as [H1 H2]. pose proof (Ht2 x Hx) as (z & Hz & Hzt).
    destruct Hy as [<-|Hy]; repeat split; simpl; try assumption.
    + exists z; auto.
    + pose proof (Hpost y Hy). lia.
    + pose proof (Hpost y Hy). lia.
    + exists z. split; [assumption|]. pose proof (Hpost y Hy). lia.
Qed.

Lemma chain_order bs x y : chain bs -> In x bs -> In y bs -> x = y \/ brel x y \/ brel y x.
Proof.
  intros [_ Hs] Hx Hy. induction Hs as [|a l Hs IH Hf]; [destruct Hx|].
  rewrite Forall_forall in Hf. destruct Hx as [Hx|Hx], Hy as [Hy|Hy]; subst; auto.
Qed.

Lemma trim_last_in t pre p e :
  chain pre -> Forall (fun b => d_begin (fst b) < t) pre -> In (p, e) (trim_last t pre) ->
  (In (p, e) pre /\ end_le e t = true) \/ exists e0, In (p, e0) pre /\ end_le e0 t = false /\ e = Some t.
Proof.
  intros Hc Hf. destruct (list_snoc_cases pre) as [->|(pre' & [p0 e0] & ->)]; [intros []|].
  rewrite trim_last_snoc, in_app_iff. rewrite Forall_app in Hf. destruct Hf as [_ Hf]. inversion Hf as [|? ? Hp0 _]; subst. simpl in Hp0.
  intros [H|[H|[]]].
  - left. split; [apply in_app_iff; auto|]. apply chain_app in Hc. destruct Hc as (_ & _ & Hc).
    specialize (Hc _ (p0, e0) H (or_introl eq_refl)). destruct Hc as (_ & _ & x & Hx & Hx2). simpl in *. subst e. simpl. lia.
  - destruct (end_le e0 t) eqn:He; injection H as <- <-.
    + left. split; [apply in_app_iff; right; left; reflexivity|assumption].
    + right. exists e0. repeat split; [apply in_app_iff; right; left; reflexivity|assumption].
Qed.

Lemma new_blocks_exact d bs pre rest :
  chain bs -> exact_ends bs -> bs = pre ++ rest ->
  Forall (fun b => d_begin (fst b) < d_begin d /\ d_num (fst b) < d_num d) pre ->
  Forall (fun b => d_begin d <= d_begin (fst b)) rest ->
  exact_ends (new_blocks d pre (filter (fun b => negb (okill d b)) rest)).
Proof.
  intros Hc Hex -> Hpre Hrest p e Hin. unfold new_blocks in Hin. apply in_app_iff in Hin.
  assert (Hcp : chain pre) by (apply chain_app in Hc; tauto).
  rewrite Forall_forall in Hpre, Hrest.
  destruct Hin as [Hin|[Hin|Hin]].
  - assert (Htr : forall e0, In (p, e0) pre -> end_le e0 (d_begin d) = true -> 
        e0 = d_end p \/ exists q eq, In (q, eq) (new_blocks d pre (filter (fun b => negb (okill d b)) rest)) /\
           d_num p < d_num q /\ e0 = Some (d_begin q) /\ end_ge (d_end p) (d_begin q)).
    { intros e0 H0 He0. destruct (Hex p e0) as [He|(q & eq & Hq & Hn & He & Hge)]; [apply in_app_iff; auto|auto|].
      right. subst e0. simpl in He0. apply Z.leb_le in He0. apply in_app_iff in Hq. destruct Hq as [Hq|Hq].
      - apply (in_map fst) in Hq. simpl in Hq.
        assert (Hq' : In q (map fst (new_blocks d pre (filter (fun b => negb (okill d b)) rest)))).
        { rewrite new_blocks_fst. apply in_app_iff. auto. }
        apply in_map_iff in Hq'. destruct Hq' as ([q' eq'] & Heq & Hq'). simpl in Heq. subst q'. exists q, eq'. auto.
      - pose proof (Hrest _ Hq) as Hr. simpl in Hr. pose proof (Hpre _ H0) as Hp. simpl in Hp.
        exists d, (d_end d). replace (d_begin d) with (d_begin q) by lia. repeat split; try assumption; [|lia].
        apply in_app_iff. right. left. reflexivity. }
    apply trim_last_in in Hin; [|assumption|apply Forall_forall; intros b Hb; apply Hpre in Hb; tauto].
    destruct Hin as [[Hin Hle]|(e0 & H0 & Hle & ->)].
    + apply Htr; assumption.
    + right. exists d, (d_end d). pose proof (Hpre _ H0) as Hp. simpl in Hp. repeat split; [apply in_app_iff; right; left; reflexivity|lia|].
      destruct (Hex p e0) as [He|(q & eq & Hq & Hn & He & Hge)]; [apply in_app_iff; auto| |].
      * subst e0. unfold end_le in Hle. unfold end_ge. destruct (d_end p); [lia|exact I].
      * subst e0. simpl in Hle. unfold end_ge in *. destruct (d_end p); [lia|exact I].
  - injection Hin as <- <-. left. reflexivity.
  - apply filter_In in Hin. destruct Hin as [Hin Hk].
    destruct (Hex p e) as [He|(q & eq & Hq & Hn & He & Hge)]; [apply in_app_iff; auto|auto|].
    right. exists q, eq. repeat split; try assumption. apply in_app_iff. right. right. apply filter_In.
    apply in_app_iff in Hq. pose proof (Hrest _ Hin) as Hr. simpl in Hr. unfold okill in *. simpl in *.
    destruct Hq as [Hq|Hq].
    + apply chain_app in Hc. destruct Hc as (_ & _ & Hc). specialize (Hc _ _ Hq Hin). destruct Hc as (Hc & _). simpl in Hc. lia.
    + split; [assumption|]. lia.
Qed.

(** Insertion (with or without overriding) in one lemma. *)
Lemma insertion s d bs :
  rep s bs -> doc_wf d -> ~ In (d_num d) (map (fun b => d_num (fst b)) bs) ->
  (forall b, In b bs -> d_num d < d_num (fst b) -> d_begin d < d_begin (fst b) /\ exists x, d_end d = Some x /\ x < d_begin (fst b)) ->
  exists pre rest s',
    bs = pre ++ rest
    /\ Forall (fun b => d_begin (fst b) < d_begin d /\ d_num (fst b) < d_num d) pre
    /\ Forall (fun b => d_begin d <= d_begin (fst b)) rest
    /\ s' = set_disc (set_ends s (new_blocks d pre (filter (fun b => negb (okill d b)) rest)))
                     (rev (map (disc_entry (d_begin d)) (map fst (filter (okill d) bs))) ++ q_disc s)
    /\ chain (new_blocks d pre (filter (fun b => negb (okill d b)) rest))
    /\ (insert_or_discard s d = IInserted s'
        \/ insert_or_discard s d = IOverridden /\
           exists s2, override_sequence s d = (s2, Ok tt) /\ insert_or_discard s2 d = IInserted s').
Proof.
  intros [Htl Hdocs Hc Hnd] Hwf Hfresh Hlate.
  destruct (chain_split bs (d_begin d - 1) Hc) as (pre & rest & -> & Hpre0 & Hrest0).
  assert (Hfr : forall b, In b (pre ++ rest) -> d_num (fst b) <> d_num d).
  { intros b Hb He. apply Hfresh. apply in_map_iff. exists b. auto. }
  assert (Hpre : Forall (fun b => d_begin (fst b) < d_begin d /\ d_num (fst b) < d_num d) pre).
  { apply Forall_forall. intros b Hb. rewrite Forall_forall in Hpre0. specialize (Hpre0 b Hb). simpl in Hpre0.
    assert (Hb' : In b (pre ++ rest)) by (apply in_app_iff; auto).
    split; [lia|]. specialize (Hfr b Hb'). specialize (Hlate b Hb').
    destruct (Z.lt_ge_cases (d_num d) (d_num (fst b))); [specialize (Hlate H)|]; lia. }
  assert (Hrest : Forall (fun b => d_begin d <= d_begin (fst b)) rest).
  { eapply Forall_impl; [|exact Hrest0]. intros b Hb. simpl in *. lia. }
  set (keep := fun b => negb (okill d b)).
  set (post := filter keep rest).
  assert (Hkeep : filter keep (pre ++ rest) = pre ++ post).
  { rewrite filter_app. f_equal. apply filter_all. intros b Hb. rewrite Forall_forall in Hpre. specialize (Hpre b Hb).
    unfold keep, okill. destruct (Z.leb_spec (d_begin d) (d_begin (fst b))); [lia|]. rewrite andb_false_r. reflexivity. }
  assert (Hpost : Forall (fun b => d_begin d < d_begin (fst b) /\ d_num d < d_num (fst b)) post).
  { apply Forall_forall. intros b Hb. apply filter_In in Hb. destruct Hb as [Hb Hk].
    rewrite Forall_forall in Hrest. specialize (Hrest b Hb). simpl in Hrest.
    assert (Hb' : In b (pre ++ rest)) by (apply in_app_iff; auto).
    unfold keep, okill in Hk. specialize (Hfr b Hb').
    assert (Hn : d_num d < d_num (fst b)) by lia. specialize (Hlate b Hb' Hn). tauto. }
  assert (Hpo : post_ok d post).
  { destruct post as [|[q eq] post'] eqn:Hp; [exact I|].
    assert (Hq : In (q, eq) (pre ++ rest)).
    { apply in_app_iff. right. assert (Hq : In (q, eq) (filter keep rest)) by (fold post; rewrite Hp; left; reflexivity).
      apply filter_In in Hq. tauto. }
    inversion Hpost as [|? ? [H1 H2] _]; subst. simpl in *. split; [assumption|]. apply (Hlate _ Hq). assumption. }
  assert (Hcpp : chain (pre ++ post)) by (rewrite <- Hkeep; apply chain_filter; assumption).
  pose proof (new_blocks_chain d pre post Hcpp Hwf Hpre Hpost Hpo) as Hnc.
  assert (Hwf1 : match d_end d with Some x => d_begin d <= x | None => True end).
  { destruct Hwf as [_ Hwf]. destruct (d_end d); [tauto|exact I]. }
  exists pre, rest. eexists. split; [reflexivity|]. split; [assumption|]. split; [assumption|].
  split; [reflexivity|]. split; [assumption|].
  destruct (filter (okill d) (pre ++ rest)) as [|[k ke] ks] eqn:Hkill.
  - left. assert (Hall : filter keep (pre ++ rest) = pre ++ rest).
    { apply filter_all. intros b Hb. unfold keep. destruct (okill d b) eqn:Hk; [|reflexivity].
      assert (Hi : In b (filter (okill d) (pre ++ rest))) by (apply filter_In; auto). rewrite Hkill in Hi. destruct Hi. }
    rewrite Hall in Hkeep. rewrite Hkeep in *.
    rewrite (insert_blocks s d pre post) by assumption.
    reflexivity.
  - right.
    assert (Hk : In (k, ke) (pre ++ rest) /\ okill d (k, ke) = true).
    { apply filter_In. rewrite Hkill. left. reflexivity. }
    split.
    + unfold insert_or_discard. rewrite Htl.
      destruct (chain_split (pre ++ rest) (d_begin d) Hc) as (pre2 & post2 & Hsp & Hpre2 & Hpost2).
      rewrite Hsp. rewrite scan_back_blocks by (try assumption; rewrite <- Hsp; assumption).
      change (irange_from (d_begin d) (flat (pre2 ++ post2))) with (irf (d_begin d) 0 (flat (pre2 ++ post2))).
      rewrite <- Hsp.
      assert (Hov : forall bb, (match bb with None => True
           | Some b => exists p e, In (p, e) (pre ++ rest) /\ b = ev_begin p /\ d_begin p <= d_begin d /\ end_le e (d_begin d) = false end) ->
         scan_fwd d (d_end d) bb (irf (d_begin d) 0 (flat (pre ++ rest))) None = FOverridden).
      { intros bb Hbb. apply scan_fwd_override; [assumption|assumption| |].
        - exists k, ke. split; [tauto|]. destruct Hk as [_ Hk]. unfold okill in Hk. simpl in Hk. lia.
        - intros p e Hin Hb. apply in_app_iff in Hin. rewrite Forall_forall in Hpre, Hrest. destruct Hin as [Hin|Hin].
          + apply Hpre in Hin. simpl in Hin. tauto.
          + apply Hrest in Hin. simpl in Hin. lia. }
      destruct (list_snoc_cases pre2) as [->|(pre' & [p e] & ->)].
      * simpl rev. cbv iota. rewrite Hov by exact I. reflexivity.
      * rewrite rev_app_distr. simpl rev. simpl app. cbv iota.
        assert (Hin : In (p, e) (pre ++ rest)) by (rewrite Hsp; rewrite !in_app_iff; left; right; left; reflexivity).
        assert (Hpb : d_begin p <= d_begin d).
        { rewrite Forall_app in Hpre2. destruct Hpre2 as [_ Hp]. inversion Hp; assumption. }
        destruct (Z.gtb_spec (d_num p) (d_num d)) as [Hgt|].
        { specialize (Hlate _ Hin). simpl in Hlate. lia. }
        destruct (end_le e (d_begin d)) eqn:He.
        -- rewrite Hov by exact I. reflexivity.
        -- rewrite Hov; [reflexivity|]. exists p, e. auto.
    + rewrite (override_blocks s d (pre ++ rest)) by assumption. rewrite Hkill.
      fold keep. rewrite Hkeep. eexists. split; [reflexivity|].
      rewrite (insert_blocks _ d pre post) by (try assumption; reflexivity).
      reflexivity.
Qed.
