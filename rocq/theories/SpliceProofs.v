(** Lemmas on SpliceModel. *)

From Coq Require Import List ZArith String Bool Lia.
From Verif Require Import IdModel TimingModel TimingSpec TimingProofs PropsTiming StyleModel StyleProofs PropsId SegmentModel SegmentSpec SegmentProofs
  SegmentHeadProofs SpliceModel SpliceSpec.
Import ListNotations.
Open Scope string_scope.

(** ** Fresh identifiers *)

Fixpoint ext (k : nat) (i : string) : string :=
  match k with O => i | S k => ext k (i ++ ".1") end.

Lemma length_app_str : forall a b, String.length (a ++ b) = (String.length a + String.length b)%nat.
Proof. induction a as [|c a IH]; intros b; cbn; auto. Qed.

Lemma ext_length : forall k i, String.length (ext k i) = (String.length i + 2 * k)%nat.
Proof. induction k as [|k IH]; intros i; cbn [ext]; [lia|]. rewrite IH, length_app_str. cbn. lia. Qed.

Lemma next_free_ext : forall f ids i, exists k, next_free f ids i = ext k i /\
  (In (next_free f ids i) ids -> forall m, (m < f)%nat -> In (ext m i) ids).
Proof.
  induction f as [|f IH]; intros ids i; cbn [next_free].
  - exists 0%nat. split; auto. intros; lia.
  - destruct (mem i ids) eqn:M.
    + destruct (IH ids (i ++ ".1")) as (k & E & H). exists (S k). split; auto. intros Hi [|m] Hm.
      * apply mem_iff. auto.
      * cbn [ext]. apply H; auto. lia.
    + exists 0%nat. split; auto. intros Hi. exfalso. apply mem_out in M. auto.
Qed.

Lemma free_id_free : forall ids i, ~ In (free_id ids i) ids.
Proof.
  intros ids i H. unfold free_id in H. destruct (next_free_ext (S (List.length ids)) ids i) as (k & _ & A). specialize (A H).
  assert (N : NoDup (map (fun m => ext m i) (seq 0 (S (List.length ids))))).
  { generalize (S (List.length ids)), 0%nat. clear. induction n as [|n IH]; intros s; cbn [seq map]; constructor; auto.
    intros Hin. apply in_map_iff in Hin. destruct Hin as (m & E & Hm). apply in_seq in Hm.
    apply (f_equal String.length) in E. rewrite !ext_length in E. lia. }
  assert (I : incl (map (fun m => ext m i) (seq 0 (S (List.length ids)))) ids).
  { intros x Hx. apply in_map_iff in Hx. destruct Hx as (m & <- & Hm). apply A. apply in_seq in Hm. lia. }
  apply NoDup_incl_length in I; auto. rewrite map_length, seq_length in I. lia.
Qed.

Lemma free_id_same : forall ids i, ~ In i ids -> free_id ids i = i.
Proof. intros ids i H. apply mem_out in H. unfold free_id. cbn [next_free]. rewrite H. auto. Qed.

Lemma free_id_ext : forall ids i, exists k, free_id ids i = ext k i.
Proof. intros ids i. unfold free_id. destruct (next_free_ext (S (List.length ids)) ids i) as (k & E & _). eauto. Qed.

(** ** Renaming in content *)

Lemma renumber_eq : forall k i r st b e kids ids,
  renumber (Node k i r st b e kids) ids =
  let '(kids', ids1) := renumbers kids ids in
  match i with
  | None => (Node k None (match k with Div | P => r | _ => None end) st b e kids', ids1)
  | Some j => (Node k (Some (free_id ids1 j)) (match k with Div | P => r | _ => None end) st b e kids', free_id ids1 j :: ids1)
  end.
Proof.
  reflexivity.
Qed.

(** What holds of a renaming: [old] and [new] are the identifiers before and
    after. *)
Definition renamed_ok (ids ids' old new : list string) : Prop :=
  (forall i, In i ids' <-> In i new \/ In i ids) /\
  NoDup new /\ (forall i, In i new -> ~ In i ids) /\
  (forall i, In i new -> exists j k, In j old /\ i = ext k j).

Definition node_renamed (n : node) : Prop := forall ids n' ids', renumber n ids = (n', ids') ->
  unnamed n' = unnamed n /\ renamed_ok ids ids' (node_ids n) (node_ids n').
Definition nodes_renamed (ns : list node) : Prop := forall ids ns' ids', renumbers ns ids = (ns', ids') ->
  map unnamed ns' = map unnamed ns /\ renamed_ok ids ids' (flat_map node_ids ns) (flat_map node_ids ns').


Lemma NoDup_join : forall A (a b : list A), NoDup a -> NoDup b -> (forall x, In x a -> ~ In x b) -> NoDup (a ++ b).
Proof.
  intros A a b Na Nb H. induction Na as [|x l Hx N IH]; cbn; auto. constructor.
  - rewrite in_app_iff. intros [|Hb]; auto. apply (H x); [left|]; auto.
  - apply IH. intros y Hy. apply H. right. auto.
Qed.

















Lemma renamed_join : forall ids ids1 ids2 o1 n1 o2 n2, renamed_ok ids ids1 o1 n1 -> renamed_ok ids1 ids2 o2 n2 ->
  renamed_ok ids ids2 (o1 ++ o2) (n1 ++ n2).
Proof.
  intros ids ids1 ids2 o1 n1 o2 n2 (A1 & B1 & C1 & D1) (A2 & B2 & C2 & D2). split; [|split; [|split]].
  - intros i. rewrite A2, A1, in_app_iff. tauto.
  - apply NoDup_join; auto. intros x Hx H2. apply (C2 _ H2). apply A1. auto.
  - intros i H. apply in_app_iff in H as [H|H]; auto. intros Hi. apply (C2 _ H). apply A1. auto.
  - intros i H. apply in_app_iff in H as [H|H]; [destruct (D1 _ H) as (j & k & Hj & E)|destruct (D2 _ H) as (j & k & Hj & E)];
      exists j, k; rewrite in_app_iff; auto.
Qed.

Lemma nodes_renamed_all : forall ns, Forall node_renamed ns -> nodes_renamed ns.
Proof.
  induction 1 as [|n ns Hn _ IH]; intros ids ns' ids' H; cbn [renumbers] in H.
  - inversion H; subst. split; auto. split; [|split; [constructor|]]; [intros; cbn; tauto|]. split; intros i [].
  - destruct (renumber n ids) as [n1 ids1] eqn:E1. destruct (renumbers ns ids1) as [ns1 ids2] eqn:E2. inversion H; subst.
    destruct (Hn _ _ _ E1) as [U1 R1]. destruct (IH _ _ _ E2) as [U2 R2]. cbn [map flat_map]. split; [f_equal; auto|].
    eapply renamed_join; eauto.
Qed.

Lemma renumber_ok : forall n, node_renamed n.
Proof.
  induction n as [s| |k i r st b e kids IH] using node_ind2; intros ids n' ids' H.
  - cbn in H. inversion H; subst. split; auto. split; [|split; [constructor|]]; [intros; cbn; tauto|]. split; intros i [].
  - cbn in H. inversion H; subst. split; auto. split; [|split; [constructor|]]; [intros; cbn; tauto|]. split; intros i [].
  - rewrite renumber_eq in H. destruct (renumbers kids ids) as [ks ids1] eqn:E.
    destruct (nodes_renamed_all _ IH _ _ _ E) as [U R]. destruct R as (A & B & C & D).
    assert (Rg : forall j, unnamed (Node k j (match k with Div | P => r | _ => None end) st b e ks) = unnamed (Node k i r st b e kids)).
    { intros j. cbn [unnamed]. rewrite U. destruct k; auto. }
    destruct i as [j|]; inversion H; subst; (split; [apply Rg|]); cbn [node_ids opt_one app].
    + split; [|split; [|split]].
      * intros i. cbn [In]. rewrite A. tauto.
      * constructor; auto. intros Hin. apply (free_id_free ids1 j). apply A. auto.
      * intros i [<-|Hi]; auto. intros Hin. apply (free_id_free ids1 j). apply A. auto.
      * intros i [<-|Hi].
        -- destruct (free_id_ext ids1 j) as (m & ->). exists j, m. split; [left|]; auto.
        -- destruct (D _ Hi) as (j' & m & Hj & ->). exists j', m. split; [right|]; auto.
    + split; [|split; [|split]]; auto.
Qed.

Lemma renumbers_ok : forall ns, nodes_renamed ns.
Proof. intros ns. apply nodes_renamed_all. apply Forall_forall. intros. apply renumber_ok. Qed.

(** Identifiers that are free and unique stay. *)
Definition node_kept (n : node) : Prop := forall ids n' ids', renumber n ids = (n', ids') ->
  NoDup (node_ids n) -> (forall i, In i (node_ids n) -> ~ In i ids) -> node_ids n' = node_ids n.

Lemma NoDup_app_parts : forall A (a b : list A), NoDup (a ++ b) -> NoDup a /\ NoDup b /\ forall x, In x a -> ~ In x b.
Proof.
  induction a as [|x a IH]; intros b N; cbn in N.
  - split; [constructor|]. split; auto.
  - inversion N as [|? ? Nx N']; subst. destruct (IH _ N') as (Na & Nb & D). rewrite in_app_iff in Nx. split; [constructor; auto|].
    split; auto. intros y [<-|Hy]; auto.
Qed.

Lemma renumbers_kept_all : forall ns, Forall node_kept ns -> forall ids ns' ids', renumbers ns ids = (ns', ids') ->
  NoDup (flat_map node_ids ns) -> (forall i, In i (flat_map node_ids ns) -> ~ In i ids) -> flat_map node_ids ns' = flat_map node_ids ns.
Proof.
  induction 1 as [|n ns Hn _ IH]; intros ids ns' ids' H N D; cbn [renumbers] in H.
  - inversion H; auto.
  - destruct (renumber n ids) as [n1 ids1] eqn:E1. destruct (renumbers ns ids1) as [ns1 ids2] eqn:E2. inversion H; subst.
    cbn [flat_map] in *. destruct (NoDup_app_parts _ _ _ N) as (N1 & N2 & Dj).
    assert (K1 : node_ids n1 = node_ids n). { eapply Hn; eauto. intros i Hi. apply D. apply in_app_iff. auto. }
    rewrite K1. f_equal. eapply IH; eauto. intros i Hi Hin. destruct (renumber_ok _ _ _ _ E1) as (_ & A & _).
    apply A in Hin. rewrite K1 in Hin. destruct Hin as [Hin|Hin]; [apply (Dj _ Hin Hi)|]. revert Hin. apply D. apply in_app_iff. auto.
Qed.

Lemma renumber_kept : forall n, node_kept n.
Proof.
  induction n as [s| |k i r st b e kids IH] using node_ind2; intros ids n' ids' H N D.
  - cbn in H. inversion H; auto.
  - cbn in H. inversion H; auto.
  - rewrite renumber_eq in H. destruct (renumbers kids ids) as [ks ids1] eqn:E. cbn [node_ids] in N, D.
    destruct (NoDup_app_parts _ _ _ N) as (_ & N2 & Dj).
    assert (K : flat_map node_ids ks = flat_map node_ids kids).
    { eapply renumbers_kept_all; eauto. intros j Hj. apply D. apply in_app_iff. auto. }
    destruct i as [j|]; inversion H; subst; cbn [node_ids opt_one app] in *; rewrite K; auto.
    f_equal. apply free_id_same. intros Hin. destruct (renumbers_ok _ _ _ _ E) as (_ & A & _). apply A in Hin. rewrite K in Hin.
    destruct Hin as [Hin|Hin]; [apply (Dj j)|revert Hin; apply D]; cbn; auto.
Qed.

Lemma renumbers_kept : forall ns ids ns' ids', renumbers ns ids = (ns', ids') ->
  NoDup (flat_map node_ids ns) -> (forall i, In i (flat_map node_ids ns) -> ~ In i ids) -> flat_map node_ids ns' = flat_map node_ids ns.
Proof. intros ns. apply renumbers_kept_all. apply Forall_forall. intros. apply renumber_kept. Qed.

(** ** Presentation does not depend on identifiers *)

Lemma unnamed_timing : forall n, timing (unnamed n) = timing n.
Proof.
  induction n as [s| |k i r st b e kids IH] using node_ind2; auto. cbn [unnamed timing]. f_equal. rewrite map_map.
  apply map_ext_in. intros n Hn. rewrite Forall_forall in IH. auto.
Qed.

Lemma anonymous_readable : forall l, existsb readable (map anonymous l) = existsb readable l.
Proof. induction l as [|[s| |k i r st ks] l IH]; cbn; auto. rewrite IH. auto. Qed.

Lemma present_unnamed : forall t n c, map anonymous (present t n c) = present t (unnamed n) c.
Proof.
  intros t. induction n as [s| |k i r st b e kids IH] using node_ind2; intros c; auto.
  destruct c as [b' e' cb ce cs|]; auto. cbn [unnamed]. rewrite !present_eq.
  assert (E : forall cs, map anonymous (present_all t kids cs) = present_all t (map unnamed kids) cs).
  { clear cs. induction IH as [|n ns Hn _ IH']; intros cs; auto. destruct cs as [|c cs]; auto.
    cbn [present_all map]. rewrite map_app, Hn, IH'. auto. }
  rewrite <- E, anonymous_readable. destruct (active t cb ce && existsb readable (present_all t kids cs))%bool; auto.
Qed.

Lemma present_all_unnamed : forall t ns cs, map anonymous (present_all t ns cs) = present_all t (map unnamed ns) cs.
Proof.
  intros t. induction ns as [|n ns IH]; intros cs; auto. destruct cs as [|c cs]; auto.
  cbn [present_all map]. rewrite map_app, present_unnamed, IH. auto.
Qed.

(** A body without times presents what its elements present. *)
Definition like_times (n : node) (c : ctree) : Prop :=
  match timing n, c with
  | Timed b e _, CTimed b' e' _ _ _ => b' = b /\ e' = e
  | Other, COther => True
  | _, _ => False
  end.
Lemma idle_kids : forall t ns cks, Forall top_ok ns -> Forall2 like_times ns cks ->
  (forall cb ce, counted_in cks cb ce -> active t cb ce = false) -> present_all t ns cks = [].
Proof.
  intros t ns cks T F. induction F as [|n c ns cs H _ IH]; intros A; auto. inversion T as [|? ? Tn Tr]; subst.
  cbn [present_all]. rewrite IH; auto; [|intros; apply A; apply counted_later; auto].
  rewrite app_nil_r. destruct n as [s| |k i r st b e kids]; try contradiction. cbn in H.
  destruct c as [b' e' cb ce ks|]; try contradiction. destruct H as [-> ->]. rewrite present_eq.
  rewrite (A cb ce); auto. apply counted_cons. exists b, e, ks. auto.
Qed.

Lemma timed_shape : forall av base lim ns cks, Forall2 (timed av base lim) (map timing ns) cks -> Forall2 like_times ns cks.
Proof.
  intros av base lim. induction ns as [|n ns IH]; intros cks F; inversion F as [|? c ? cs H Fr]; subst; constructor; auto.
  unfold like_times. inversion H; subst; auto.
Qed.

Lemma shows_eq : forall avail d b, (0 <= at_avail avail)%Z -> joinable d -> t_body d = Some b ->
  exists cks, Forall2 (timed (at_avail avail) 0 None) (map timing (bd_kids b)) cks /\
    forall t, shows_at avail d t = present_all t (bd_kids b) cks.
Proof.
  intros avail d b A0 J Hb. destruct (J _ Hb) as (Hk & T & N). unfold shows_at. rewrite Hb.
  destruct (validate avail (Some (timing_body b))) as [[[cb ce] ct]|] eqn:V.
  2:{ destruct (C11_never_fails avail (Some (timing_body b))) as (? & ? & ? & E). congruence. }
  destruct (C12_compositional _ _ _ _ _ V) as [Tb (ks & ->)].
  destruct Hk as [Hk|(H1 & H2 & H3)].
  - exists []. rewrite Hk. split; [constructor|]. intros t. cbn. rewrite Hk. destruct (active t cb ce); auto.
  - assert (Nn : nn_body (timing_body b)).
    { unfold nn_body, timing_body. cbn [b_begin b_end b_dur b_kids]. rewrite H1, H2, H3. cbn. auto. }
    assert (Ne := body_nested _ _ _ A0 Nn Tb _ (sub_refl _)).
    unfold timing_body in *. cbn [b_begin b_end b_kids b_dur] in *. rewrite H1, H2, H3 in *.
    assert (F : Forall2 (timed (at_avail avail) 0 None) (map timing (bd_kids b)) ks).
    { inversion Tb; subst; auto. }
    exists ks. split; auto. intros t. cbn [present_body]. destruct (active t cb ce) eqn:A; auto.
    symmetry. eapply idle_kids; eauto; [eapply timed_shape; eauto|]. intros kb ke C.
    destruct (active t kb ke) eqn:Ak; auto. rewrite (nested_active _ _ _ _ _ _ _ _ Ne C Ak) in A. discriminate.
Qed.
