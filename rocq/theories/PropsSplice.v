(** C33: splicing documents together. *)

From Coq Require Import List ZArith String Bool Lia Relations Permutation.
From Verif Require Import Digits IdModel TimingModel TimingSpec TimingProofs PropsTiming TimeSpec StyleModel StyleProofs StyleTree PropsStyle PropsId
  SegmentModel SegmentSpec SegmentProofs SegmentHeadProofs PropsSegment PropsSegmentHead SpliceModel SpliceSpec SpliceProofs.
Import ListNotations.
Open Scope Z_scope.

(** ** One step *)

Definition merged_content (m : merged) : list node := match m_body m with Some b => bd_kids b | None => [] end.

Lemma merge_next_body : forall m d m', merge_next m d = POk m' ->
  match m_body m with
  | None => m_body m' = t_body d
  | Some b => exists c ids ids1 ks ls, t_body d = Some c /\
      renumbers (bd_kids b) ids = (ks, ids1) /\ renumbers (bd_kids c) ids1 = (ls, m_ids m') /\
      m_body m' = Some (mkBodyd (bd_style b) None None None (ks ++ ls))
  end.
Proof.
  intros m d m' H. unfold merge_next in H.
  destruct (match m_styling m with Some l => _ | None => _ end) as [st ids1].
  destruct (match m_layout m with Some l => _ | None => _ end) as [la ids2].
  destruct (m_body m) as [b|]; [|inversion H; auto]. unfold merge_body in H.
  destruct (t_body d) as [c|]; [|discriminate].
  destruct (renumbers (bd_kids b) ids2) as [ks ids3] eqn:E1. destruct (renumbers (bd_kids c) ids3) as [ls ids4] eqn:E2.
  cbn [pbind] in H. inversion H; subst. cbn [m_body m_ids]. exists c, ids2, ids3, ks, ls. auto.
Qed.

(** Induction over the documents: [P done m] holds of what is merged from the
    documents [done]. *)
Lemma merge_all_ind : forall (P : list (docu bodyd) -> merged -> Prop),
  (forall done m d m', P done m -> merge_next m d = POk m' -> P (done ++ [d])%list m') ->
  forall r done m m', P done m -> merge_all m r = POk m' -> P (done ++ r)%list m'.
Proof.
  intros P H. induction r as [|d r IH]; intros done m m' Hm E; cbn [merge_all] in E.
  - inversion E; subst. rewrite app_nil_r. auto.
  - destruct (merge_next m d) as [m1|] eqn:E1; [|discriminate]. cbn [pbind] in E.
    replace (done ++ d :: r)%list with ((done ++ [d]) ++ r)%list by (rewrite <- app_assoc; auto). eauto.
Qed.

Lemma splice_inv : forall ds n x, splice ds n = POk x -> exists d r m, ds = d :: r /\
  merge_all (mkMerged (t_styling d) (t_layout d) (t_body d) []) r = POk m /\
  x = mkDocu (t_base d) n (m_styling m) (m_layout m) (m_body m).
Proof.
  intros [|d r] n x H; [discriminate|]. cbn [splice] in H.
  destruct (merge_all _ r) as [m|] eqn:E; [|discriminate]. cbn [pbind] in H. inversion H; subst. exists d, r, m. auto.
Qed.

Lemma splice_ind : forall (P : list (docu bodyd) -> merged -> Prop),
  (forall d, P [d] (mkMerged (t_styling d) (t_layout d) (t_body d) [])) ->
  (forall done m d m', P done m -> merge_next m d = POk m' -> P (done ++ [d])%list m') ->
  forall ds n x, splice ds n = POk x -> exists m, P ds m /\ m_styling m = t_styling x /\ m_layout m = t_layout x /\ m_body m = t_body x.
Proof.
  intros P H1 H2 ds n x H. destruct (splice_inv _ _ _ H) as (d & r & m & -> & E & ->). exists m. split; [|auto].
  exact (merge_all_ind P H2 r [d] _ _ (H1 d) E).
Qed.

Lemma flat_map_app' : forall A B (f : A -> list B) a b, flat_map f (a ++ b) = (flat_map f a ++ flat_map f b)%list.
Proof. intros. apply flat_map_app. Qed.

(** ** When it fails *)

Definition bodiless (r : list (docu bodyd)) (b : option bodyd) : Prop :=
  exists l e l', r = (l ++ e :: l')%list /\ t_body e = None /\ (b <> None \/ exists d, In d l /\ t_body d <> None).

Lemma merge_all_fails : forall r m, match merge_all m r with
  | POk _ => ~ bodiless r (m_body m)
  | PErr e => e = NoBody /\ bodiless r (m_body m)
  end.
Proof.
  induction r as [|d r IH]; intros m; cbn [merge_all].
  - intros ([|? ?] & e & l' & E & _); discriminate.
  - destruct (merge_next m d) as [m1|e1] eqn:E1; cbn [pbind].
    + assert (Hs : m_body m1 <> None <-> m_body m <> None \/ t_body d <> None).
      { apply merge_next_body in E1. destruct (m_body m).
        - destruct E1 as (c & ids & ids1 & ks & ls & Hc & _ & _ & ->). split; [left|]; discriminate.
        - rewrite E1. intuition. }
      assert (Hd : m_body m <> None -> t_body d <> None).
      { apply merge_next_body in E1. destruct (m_body m); [|congruence]. destruct E1 as (c & ids & ids1 & ks & ls & Hc & _). congruence. }
      specialize (IH m1). destruct (merge_all m1 r) as [m2|er].
      * intros (l & e & l' & E & He & H). destruct l as [|d0 l]; cbn in E; inversion E; subst.
        -- destruct H as [H|(d & [] & _)]. apply (Hd H). auto.
        -- apply IH. exists l, e, l'. split; auto. split; auto. destruct H as [H|(d & [<-|Hd0] & Hn)]; [left|left|right; eauto]; apply Hs; auto.
      * destruct IH as [-> (l & e & l' & -> & He & H)]. split; auto. exists (d :: l), e, l'. split; auto. split; auto.
        destruct H as [H|(d' & Hd' & Hn)].
        -- apply Hs in H. destruct H as [H|H]; auto. right. exists d. split; [left|]; auto.
        -- right. exists d'. split; [right|]; auto.
    + unfold merge_next in E1.
      destruct (match m_styling m with Some l => _ | None => _ end) as [st ids1].
      destruct (match m_layout m with Some l => _ | None => _ end) as [la ids2].
      destruct (m_body m) as [b|]; [|discriminate]. unfold merge_body in E1. destruct (t_body d) as [c|] eqn:Hd.
      * destruct (renumbers (bd_kids b) ids2) as [ks ids3]. destruct (renumbers (bd_kids c) ids3) as [ls ids4]. cbn in E1. discriminate.
      * cbn in E1. split; [congruence|]. exists [], d, r. split; auto. split; auto. left. discriminate.
Qed.

(** Splicing fails when there are no documents or a document without body comes
    after one with a body, and only then. *)
Theorem C33_fails : forall ds n,
  (splice ds n = PErr NoSegments <-> ds = []) /\
  (splice ds n = PErr NoBody <-> exists l d l1 e l2, ds = (l ++ d :: l1 ++ e :: l2)%list /\ t_body d <> None /\ t_body e = None).
Proof.
  intros [|d0 r] n.
  - split; [split; auto|]. split; [discriminate|]. intros ([|? ?] & ? & ? & ? & ? & E & _); discriminate.
  - cbn [splice]. assert (M := merge_all_fails r (mkMerged (t_styling d0) (t_layout d0) (t_body d0) [])). cbn [m_body] in M.
    destruct (merge_all _ r) as [m|er] eqn:E; cbn [pbind].
    + split; [split; discriminate|]. split; [discriminate|]. intros (l & d & l1 & e & l2 & Eq & Hd & He). exfalso.
      apply M. destruct l as [|x l]; cbn in Eq; inversion Eq; subst.
      * exists l1, e, l2. auto.
      * exists (l ++ d :: l1)%list, e, l2. rewrite <- app_assoc. split; auto. split; auto. right. exists d. rewrite in_app_iff. cbn. auto.
    + destruct M as [-> (l & e & l' & -> & He & H)]. split; [split; discriminate|]. split; auto. intros _.
      destruct H as [H|(d & Hd & Hn)].
      * exists [], d0, l, e, l'. auto.
      * apply in_split in Hd. destruct Hd as (l1 & l2 & ->). exists (d0 :: l1), d, l2, e, l'. cbn. rewrite <- app_assoc. auto.
Qed.

(** ** Content *)

(** The content of the documents in order, changed in its identifiers only; the
    style of the body is that of the first body; the rest of the document is
    that of the first document. *)
Definition first_body (ds : list (docu bodyd)) : option bodyd :=
  hd_error (flat_map (fun d => opt_one (t_body d)) ds).
Definition body_from (done : list (docu bodyd)) (m : merged) : Prop :=
  map unnamed (merged_content m) = map unnamed (flat_map content done) /\
  option_map bd_style (m_body m) = option_map bd_style (first_body done) /\
  (m_body m = first_body done \/ exists b, m_body m = Some b /\ no_times b) /\
  (Forall (fun d => NoDup (content_ids d)) done -> NoDup (flat_map node_ids (merged_content m))).

Lemma opt_hd : forall A (o : option A) l, hd_error (opt_one o ++ l) = match o with Some x => Some x | None => hd_error l end.
Proof. intros A [x|] l; auto. Qed.
Lemma first_body_app : forall a b, first_body (a ++ b) = match first_body a with Some x => Some x | None => first_body b end.
Proof.
  intros a b. unfold first_body. rewrite flat_map_app. destruct (flat_map _ a); auto.
Qed.

Lemma body_from_first : forall d, body_from [d] (mkMerged (t_styling d) (t_layout d) (t_body d) []).
Proof.
  intros d. unfold body_from, merged_content, content_ids, content, first_body. cbn [flat_map m_body]. rewrite opt_hd, app_nil_r.
  split; [auto|]. split; [destruct (t_body d); auto|]. split; [left; destruct (t_body d); auto|]. intros F. inversion F; subst. auto.
Qed.

Lemma body_from_next : forall done m d m', body_from done m -> merge_next m d = POk m' -> body_from (done ++ [d]) m'.
Proof.
  intros done m d m' (H1 & H2 & H3 & H4) H. apply merge_next_body in H. unfold body_from. rewrite first_body_app, flat_map_app.
  cbn [flat_map]. rewrite app_nil_r, map_app. unfold merged_content in *. destruct (m_body m) as [b|] eqn:Eb.
  - destruct H as (c & ids & ids1 & ks & ls & Hc & R1 & R2 & ->). cbn [bd_kids bd_style option_map].
    destruct (renumbers_ok _ _ _ _ R1) as [U1 K1]. destruct (renumbers_ok _ _ _ _ R2) as [U2 K2].
    split. { rewrite map_app, U1, H1. f_equal. unfold content. rewrite Hc. auto. }
    split. { destruct (first_body done) as [fb|]; cbn in *; congruence. }
    split. { right. eexists. split; [reflexivity|]. repeat split. }
    intros _. rewrite flat_map_app. apply (renamed_join _ _ _ _ _ _ _ K1 K2).
  - cbn in H1. assert (E0 : first_body done = None) by (destruct (first_body done); cbn in H2; [discriminate|auto]).
    rewrite E0, H, <- H1. cbn [app map]. unfold first_body. cbn [flat_map]. rewrite opt_hd. cbn.
    split; [unfold content; destruct (t_body d); auto|]. split; [destruct (t_body d); auto|]. split; [left; destruct (t_body d); auto|].
    intros F. apply Forall_app in F as [_ F]. inversion F as [|? ? N _]; subst. unfold content_ids, content in N. destruct (t_body d); auto.
Qed.

Lemma splice_body : forall ds n x, splice ds n = POk x ->
  map unnamed (content x) = map unnamed (flat_map content ds) /\
  option_map bd_style (t_body x) = option_map bd_style (first_body ds) /\
  (t_body x = first_body ds \/ exists b, t_body x = Some b /\ no_times b) /\
  (Forall (fun d => NoDup (content_ids d)) ds -> NoDup (content_ids x)).
Proof.
  intros ds n x H. destruct (splice_ind body_from body_from_first body_from_next _ _ _ H) as (m & B & _ & _ & Eb).
  unfold body_from, merged_content in B. unfold content_ids, content. rewrite Eb in B. exact B.
Qed.

Theorem C33_content : forall ds n x, splice ds n = POk x ->
  map unnamed (content x) = map unnamed (flat_map content ds) /\
  option_map bd_style (t_body x) = option_map bd_style (first_body ds) /\
  t_seq x = n /\ exists d r, ds = d :: r /\ t_base x = t_base d.
Proof.
  intros ds n x H. destruct (splice_body _ _ _ H) as (A & B & _). split; auto. split; auto.
  destruct (splice_inv _ _ _ H) as (d & r & m & -> & _ & ->). split; auto. exists d, r. auto.
Qed.

(** In the content of what is made no identifier is there twice, whatever the
    identifiers of different documents have in common. *)
Theorem C33_content_ids : forall ds n x, splice ds n = POk x ->
  Forall (fun d => NoDup (content_ids d)) ds -> NoDup (content_ids x).
Proof. intros ds n x H. exact (proj2 (proj2 (proj2 (splice_body _ _ _ H)))). Qed.

(** ** Presentation *)

Lemma top_unnamed : forall ns ns', map unnamed ns' = map unnamed ns -> Forall top_ok ns -> Forall top_ok ns'.
Proof.
  induction ns as [|n ns IH]; intros [|n' ns'] E F; cbn in E; try discriminate; auto. inversion E as [[E1 E2]]. inversion F; subst.
  constructor; eauto. destruct n as [s| |k i r st b e ks], n' as [s'| |k' i' r' st' b' e' ks']; cbn in *; try discriminate; auto. congruence.
Qed.
Lemma timing_unnamed : forall ns ns', map unnamed ns' = map unnamed ns -> map timing ns' = map timing ns.
Proof.
  intros ns ns' E. assert (Q : forall l, map timing l = map timing (map unnamed l)).
  { intros l. rewrite map_map. apply map_ext. intros n. symmetry. apply unnamed_timing. }
  rewrite (Q ns'), (Q ns), E. auto.
Qed.

Lemma present_all_app : forall t a b ca cb av base lim, Forall2 (timed av base lim) (map timing a) ca ->
  present_all t (a ++ b) (ca ++ cb) = (present_all t a ca ++ present_all t b cb)%list.
Proof.
  intros t a b ca cb av base lim F. revert ca F. induction a as [|n a IH]; intros ca F; inversion F; subst; auto.
  cbn [app present_all]. rewrite IH, app_assoc; auto.
Qed.

Lemma shows_content : forall avail d, 0 <= at_avail avail -> joinable d -> exists cks,
  Forall2 (timed (at_avail avail) 0 None) (map timing (content d)) cks /\
  forall t, shows_at avail d t = present_all t (content d) cks.
Proof.
  intros avail d A J. unfold content. destruct (t_body d) as [b|] eqn:Eb.
  - exact (shows_eq _ _ _ A J Eb).
  - exists []. split; [constructor|]. intros t. unfold shows_at. rewrite Eb. auto.
Qed.

Lemma shows_flat : forall avail ds, 0 <= at_avail avail -> Forall joinable ds -> exists cks,
  Forall2 (timed (at_avail avail) 0 None) (map timing (flat_map content ds)) cks /\
  forall t, flat_map (fun d => shows_at avail d t) ds = present_all t (flat_map content ds) cks.
Proof.
  intros avail ds A. induction 1 as [|d ds J _ IH].
  - exists []. split; [constructor|auto].
  - destruct IH as (c2 & F2 & S2). destruct (shows_content _ _ A J) as (c1 & F1 & S1). exists (c1 ++ c2)%list. cbn [flat_map].
    rewrite map_app. split; [apply Forall2_app; auto|]. intros t. rewrite (present_all_app _ _ _ _ _ _ _ _ F1), S1, S2. auto.
Qed.

Lemma joinable_all : forall ds, Forall joinable ds -> Forall top_ok (flat_map content ds) /\ Forall nn_elem (map timing (flat_map content ds)).
Proof.
  induction 1 as [|d ds J _ [IH1 IH2]]; [split; constructor|]. cbn [flat_map]. rewrite map_app, !Forall_app.
  unfold joinable in J. unfold content at 1 3. destruct (t_body d) as [b|]; [|cbn; auto]. destruct (J b eq_refl) as (_ & T & N). auto.
Qed.

Lemma first_body_in : forall ds b, first_body ds = Some b -> exists d, In d ds /\ t_body d = Some b.
Proof.
  induction ds as [|d ds IH]; intros b H; [discriminate|]. unfold first_body in *. cbn [flat_map] in H. rewrite opt_hd in H.
  destruct (t_body d) as [c|] eqn:E.
  - inversion H; subst. exists d. split; [left|]; auto.
  - destruct (IH b H) as (d' & Hd & E'). exists d'. split; [right|]; auto.
Qed.

Lemma splice_joinable : forall ds n x, splice ds n = POk x -> Forall joinable ds -> joinable x.
Proof.
  intros ds n x H J. destruct (splice_body _ _ _ H) as (A & _ & B & _). destruct (joinable_all _ J) as [T N].
  apply timing_unnamed in A as At. apply top_unnamed in A as Au; auto. intros b Eb. unfold content in At, Au. rewrite Eb in *.
  split; [|rewrite At; auto]. destruct B as [B|(b' & B & Hn)]; [|inversion B; subst; auto].
  symmetry in B. apply first_body_in in B. destruct B as (d & Hd & Ed). rewrite Forall_forall in J. apply (J d Hd b Ed).
Qed.

(** At every instant there is shown what the documents show one after the other. *)
Theorem C33_presentation : forall ds n x avail t, splice ds n = POk x -> 0 <= at_avail avail -> Forall joinable ds ->
  map anonymous (shows_at avail x t) = map anonymous (flat_map (fun d => shows_at avail d t) ds).
Proof.
  intros ds n x avail t H A J. destruct (shows_flat _ _ A J) as (cks & F & S). rewrite S.
  destruct (shows_content _ _ A (splice_joinable _ _ _ H J)) as (cks' & F' & S'). rewrite S'.
  destruct (splice_body _ _ _ H) as (U & _). rewrite (timing_unnamed _ _ U) in F'. rewrite (timed_all_det _ _ _ _ _ _ F' F).
  rewrite !present_all_unnamed, U. auto.
Qed.

(** ** Documents with identifiers of their own *)

Lemma owned_ext : forall n m i, owned n i -> owned n (ext m i).
Proof.
  intros n. induction m as [|m IH]; intros i H; auto. cbn [ext]. apply IH. destruct H as (j & E). exists (j ++ ".1")%string.
  cbn [deconflict] in *. assert (Ei : i = ("SEQ" ++ show n ++ "." ++ j)%string) by congruence. rewrite Ei, !app_assoc_s. reflexivity.
Qed.
Lemma owned_one : forall n m i, 0 <= n -> 0 <= m -> owned n i -> owned m i -> n = m.
Proof. intros n m i Hn Hm (j & E) (j' & E'). rewrite <- E' in E. apply C32_injective in E; auto. tauto. Qed.

Lemma merge_styling_fresh : forall l o ids, (forall i, In i (map fst (els o)) -> ~ In i (map fst l ++ ids)%list) ->
  merge_styling l o ids = (l ++ els o, map fst l ++ ids)%list.
Proof.
  intros l o ids H. unfold merge_styling. cbv zeta. f_equal. f_equal. rewrite <- (map_id (els o)) at 2. apply map_ext_in. intros s Hs.
  assert (E : mem (fst s) (map fst l ++ ids) = false) by (apply mem_out; apply H; apply in_map; auto). rewrite E. auto.
Qed.
Lemma add_regions_fresh : forall l ids, (forall i, In i (map fst l) -> ~ In i ids) -> add_regions l ids = (l, ids).
Proof.
  induction l as [|r l IH]; intros ids H; auto. cbn [add_regions].
  assert (E : mem (fst r) ids = false) by (apply mem_out; apply H; left; auto). rewrite E, IH; auto. intros i Hi. apply H. right. auto.
Qed.
Lemma merge_layout_fresh : forall l o ids, (forall i, In i (map fst (els o)) -> ~ In i (map fst l ++ ids)%list) ->
  merge_layout l o ids = (l ++ els o, map fst l ++ ids)%list.
Proof. intros l o ids H. unfold merge_layout. rewrite add_regions_fresh; auto. Qed.

(** The next document, when none of the identifiers of its head are taken. *)
Lemma merge_next_fresh : forall m d m',
  (forall i, In i (map fst (els (t_styling d))) -> ~ In i (map fst (els (m_styling m)) ++ m_ids m)%list) ->
  (forall i, In i (map fst (els (t_layout d))) -> ~ In i (map fst (els (m_layout m)) ++ map fst (els (m_styling m)) ++ m_ids m)%list) ->
  merge_next m d = POk m' ->
  els (m_styling m') = (els (m_styling m) ++ els (t_styling d))%list /\ els (m_layout m') = (els (m_layout m) ++ els (t_layout d))%list /\
  let ids := (map fst (els (m_layout m)) ++ map fst (els (m_styling m)) ++ m_ids m)%list in
  match m_body m with
  | None => m_body m' = t_body d /\ m_ids m' = ids
  | Some b => exists c ids1 ks ls, t_body d = Some c /\
      renumbers (bd_kids b) ids = (ks, ids1) /\ renumbers (bd_kids c) ids1 = (ls, m_ids m') /\
      m_body m' = Some (mkBodyd (bd_style b) None None None (ks ++ ls))
  end.
Proof.
  intros m d m' Hs Hl H. unfold merge_next in H.
  remember (match m_styling m with Some l => _ | None => _ end) as p eqn:Ep.
  assert (P1 : els (fst p) = (els (m_styling m) ++ els (t_styling d))%list /\ snd p = (map fst (els (m_styling m)) ++ m_ids m)%list).
  { subst p. destruct (m_styling m) as [l|]; auto. rewrite merge_styling_fresh by auto. auto. }
  clear Ep. destruct p as [st ids1]. cbn [fst snd] in P1. destruct P1 as [P1 ->].
  remember (match m_layout m with Some l => _ | None => _ end) as p eqn:Ep.
  assert (P2 : els (fst p) = (els (m_layout m) ++ els (t_layout d))%list /\ snd p = (map fst (els (m_layout m)) ++ map fst (els (m_styling m)) ++ m_ids m)%list).
  { subst p. destruct (m_layout m) as [l|]; auto. rewrite merge_layout_fresh by auto. auto. }
  clear Ep. destruct p as [la ids2]. cbn [fst snd] in P2. destruct P2 as [P2 ->].
  set (ids := (map fst (els (m_layout m)) ++ map fst (els (m_styling m)) ++ m_ids m)%list) in *.
  destruct (m_body m) as [b|]; [|inversion H; subst; auto]. unfold merge_body in H.
  destruct (t_body d) as [c|]; [|discriminate].
  destruct (renumbers (bd_kids b) ids) as [ks ids3] eqn:E1. destruct (renumbers (bd_kids c) ids3) as [ls ids4] eqn:E2.
  cbn [pbind] in H. inversion H; subst. cbn [m_styling m_layout m_body m_ids]. split; auto. split; auto. exists c, ids3, ks, ls. auto.
Qed.

Definition of_number (k : Z) (d : docu bodyd) : Prop :=
  0 <= k /\ NoDup (all_ids d) /\ forall i, In i (all_ids d) -> owned k i.

Definition head_from (done : list (docu bodyd)) (m : merged) : Prop :=
  forall ns, Forall2 of_number ns done -> NoDup ns ->
  let all := (map fst (els (m_styling m)) ++ map fst (els (m_layout m)) ++ flat_map node_ids (merged_content m))%list in
  els (m_styling m) = flat_map (fun d => els (t_styling d)) done /\
  els (m_layout m) = flat_map (fun d => els (t_layout d)) done /\
  NoDup all /\ (forall i, In i (m_ids m ++ all)%list -> exists k, In k ns /\ owned k i).

Lemma head_from_first : forall d, head_from [d] (mkMerged (t_styling d) (t_layout d) (t_body d) []).
Proof.
  intros d ns F N all. inversion F as [|k ? ns' ? (Hk & Nd & O) F']; subst. inversion F'; subst. subst all. cbn [m_styling m_layout m_ids flat_map app].
  rewrite !app_nil_r. split; auto. split; auto. split; auto. intros i Hi. exists k. split; [left|]; auto.
Qed.

Lemma head_from_next : forall done m d m', head_from done m -> merge_next m d = POk m' -> head_from (done ++ [d]) m'.
Proof.
  intros done m d m' IH H ns F N. apply Forall2_app_inv_r in F. destruct F as (ns0 & ns1 & F0 & F1 & ->).
  inversion F1 as [|k ? ns' ? (Hk & Nd & O) F']; subst. inversion F'; subst. clear F1 F'.
  apply NoDup_remove in N. rewrite app_nil_r in N. destruct N as [N0 Nk].
  destruct (IH _ F0 N0) as (Es & El & Na & Own). clear IH.
  assert (Pos : forall k0, In k0 ns0 -> 0 <= k0).
  { clear - F0. induction F0 as [|? ? ? ? H _ IH]; intros z Hz; destruct Hz; subst; auto. apply H. }
  assert (Sep : forall i, owned k i -> ~ In i (m_ids m ++ map fst (els (m_styling m)) ++ map fst (els (m_layout m)) ++ flat_map node_ids (merged_content m))%list).
  { intros i Hi Hin. destruct (Own _ Hin) as (k0 & Hk0 & O0). apply Nk. rewrite (owned_one k k0 i); auto. }
  unfold all_ids in O, Nd.
  destruct (merge_next_fresh m d m') as (Ss & Sl & B); auto.
  { intros i Hi Hin. apply (Sep i); [apply O; rewrite !in_app_iff; auto|]. rewrite !in_app_iff in *. tauto. }
  { intros i Hi Hin. apply (Sep i); [apply O; rewrite !in_app_iff; auto|]. rewrite !in_app_iff in *. tauto. }
  cbv zeta in B. set (ids := (map fst (els (m_layout m)) ++ map fst (els (m_styling m)) ++ m_ids m)%list) in *.
  assert (C : exists ks ls, merged_content m' = (ks ++ ls)%list /\ flat_map node_ids ls = content_ids d /\
    NoDup (map fst (els (m_styling m)) ++ map fst (els (m_layout m)) ++ flat_map node_ids ks)%list /\
    (forall i, In i (flat_map node_ids ks) -> exists k0, In k0 ns0 /\ owned k0 i) /\
    (forall i, In i (m_ids m') -> (exists k0, In k0 ns0 /\ owned k0 i) \/ owned k i)).
  { assert (Oi : forall i, In i ids -> exists k0, In k0 ns0 /\ owned k0 i).
    { intros i Hi. apply Own. unfold ids in Hi. rewrite !in_app_iff in *. tauto. }
    unfold merged_content in *. destruct (m_body m) as [b|] eqn:Eb.
    - destruct B as (c & ids1 & ks & ls & Hc & R1 & R2 & Eb'). rewrite Eb'. cbn [bd_kids].
      destruct (renumbers_ok _ _ _ _ R1) as (_ & A1 & N1 & D1 & X1).
      assert (Ok : forall i, In i (flat_map node_ids ks) -> exists k0, In k0 ns0 /\ owned k0 i).
      { intros i Hi. destruct (X1 _ Hi) as (j & z & Hj & ->). destruct (Own j) as (k0 & Hk0 & O0); [rewrite !in_app_iff; auto|].
        exists k0. split; auto. apply owned_ext. auto. }
      assert (Kc : flat_map node_ids ls = content_ids d).
      { unfold content_ids, content in *. rewrite Hc in *. eapply renumbers_kept; eauto.
        - apply NoDup_app_parts in Nd. destruct Nd as (_ & Nd & _). apply NoDup_app_parts in Nd. tauto.
        - intros i Hi Hin. apply A1 in Hin. assert (Ow : owned k i) by (apply O; rewrite !in_app_iff; auto).
          assert (Hex : exists k0, In k0 ns0 /\ owned k0 i) by (destruct Hin as [Hin|Hin]; auto).
          destruct Hex as (k0 & Hk0 & O0). apply Nk. rewrite (owned_one k k0 i); auto. }
      exists ks, ls. split; auto. split; auto. split; [|split; [auto|]].
      + rewrite app_assoc. apply NoDup_join; auto.
        * rewrite app_assoc in Na. apply NoDup_app_parts in Na. tauto.
        * intros i Hi Hin. apply (D1 _ Hin). unfold ids. rewrite !in_app_iff in *. tauto.
      + intros i Hi. destruct (renumbers_ok _ _ _ _ R2) as (_ & A2 & _). apply A2 in Hi. rewrite Kc, A1 in Hi. destruct Hi as [Hi|[Hi|Hi]]; auto.
        right. apply O. rewrite !in_app_iff. auto.
    - destruct B as [B Ei]. exists [], (content d). unfold content_ids, content. rewrite B. split; [destruct (t_body d); auto|]. split; auto.
      cbn [flat_map] in *. split; auto. split; [intros i []|]. rewrite Ei. intros i Hi. left. auto. }
  destruct C as (ks & ls & Ec & Ek & Nm & Ok & Oi). rewrite Ss, Sl, Ec, !flat_map_app, Ek, Es, El. cbn [flat_map]. rewrite !app_nil_r.
  rewrite <- Es, <- El, !map_app. split; auto. split; auto. split.
  - apply (Permutation_NoDup (l := ((map fst (els (m_styling m)) ++ map fst (els (m_layout m)) ++ flat_map node_ids ks) ++
      (map fst (els (t_styling d)) ++ map fst (els (t_layout d)) ++ content_ids d))%list)).
    + rewrite <- !app_assoc. apply Permutation_app_head. rewrite !app_assoc.
      assert (Q : forall A (r k s t u : list A), Permutation ((((r ++ k) ++ s) ++ t) ++ u) ((((s ++ r) ++ t) ++ k) ++ u)).
      { intros A r k0 s t u. apply Permutation_app_tail.
        rewrite (Permutation_app_comm (r ++ k0)). rewrite <- !app_assoc. apply Permutation_app_head.
        apply Permutation_app_head. apply Permutation_app_comm. }
      rewrite <- !app_assoc. specialize (Q _ (map fst (els (m_layout m))) (flat_map node_ids ks) (map fst (els (t_styling d))) (map fst (els (t_layout d))) (content_ids d)).
      rewrite <- !app_assoc in Q. exact Q.
    + apply NoDup_join; auto. intros i Hi Hin. apply O in Hin.
      assert (E : exists k0, In k0 ns0 /\ owned k0 i).
      { rewrite !in_app_iff in Hi. destruct Hi as [Hi|[Hi|Hi]]; auto; apply Own; rewrite !in_app_iff; auto. }
      destruct E as (k0 & Hk0 & O0). apply Nk. rewrite (owned_one k k0 i); auto.
  - intros i Hi. assert (E : (exists k0, In k0 ns0 /\ owned k0 i) \/ owned k i).
    { rewrite !in_app_iff in Hi. destruct Hi as [Hi|[[Hi|Hi]|[[Hi|Hi]|[Hi|Hi]]]]; auto;
        solve [right; apply O; rewrite !in_app_iff; auto | left; apply Own; rewrite !in_app_iff; auto]. }
    destruct E as [(k0 & Hk0 & O0)|O0]; [exists k0|exists k]; rewrite in_app_iff; cbn; auto.
Qed.

(** When every document has identifiers given out for a number of its own (as
    the segmenter makes them), the head of the result has all styles and regions
    under their own identifiers, and no identifier is there twice. *)
Theorem C33_unique : forall ds ns n x, splice ds n = POk x -> Forall2 of_number ns ds -> NoDup ns ->
  els (t_styling x) = flat_map (fun d => els (t_styling d)) ds /\
  els (t_layout x) = flat_map (fun d => els (t_layout d)) ds /\
  NoDup (all_ids x).
Proof.
  intros ds ns n x H F N. destruct (splice_ind head_from head_from_first head_from_next _ _ _ H) as (m & B & Es & El & Eb).
  destruct (B _ F N) as (B1 & B2 & B3 & _). rewrite Es, El in *. split; auto. split; auto.
  unfold all_ids, content_ids, content. unfold merged_content in B3. rewrite Eb in B3. auto.
Qed.

(** ** What references mean *)

(** Every identifier of the head of a document means in the result what it means
    in the document. *)
Theorem C33_same_head : forall ds ns n x d bx i, splice ds n = POk x -> Forall2 of_number ns ds -> NoDup ns -> In d ds ->
  t_body x = Some bx -> In i (map fst (head_table d)) -> dict_get (doc_table x bx) i = dict_get (head_table d) i.
Proof.
  intros ds ns n x d bx i H F N Hd Hb Hi. destruct (C33_unique _ _ _ _ H F N) as (Es & El & Nd).
  assert (Nt : NoDup (map fst (doc_table x bx))).
  { rewrite table_ids. unfold all_ids, content_ids, content in Nd. rewrite Hb in Nd. exact Nd. }
  destruct (dict_get (head_table d) i) as [z|] eqn:E; [|exfalso; revert E; apply dict_get_in; auto].
  apply dict_get_pair in E. apply dict_get_nodup; auto. unfold doc_table, head_table in *. rewrite Es, El.
  rewrite !in_app_iff in *. rewrite !in_map_iff in *. left.
  destruct E as [([j s] & E & Hs)|([j s] & E & Hs)]; [left|right]; exists (j, s); (split; [auto|]); apply in_flat_map; eauto.
Qed.

Lemma unfolds_same : forall d d' (ok : string -> Prop),
  (forall i, ok i -> get_style d' i = get_style d i) ->
  (forall i s j, ok i -> get_style d i = Some s -> In j (opt_list (s_refs s)) -> ok j) ->
  (forall i u, unfolds d i u -> ok i -> unfolds d' i u /\ forall j, In j u -> ok j) /\
  (forall l u, unfolds_all d l u -> (forall i, In i l -> ok i) -> unfolds_all d' l u /\ forall j, In j u -> ok j).
Proof.
  intros d d' ok H1 H2. apply unfolds_mutind.
  - intros i s l G _ IH Ok. assert (Or : forall j, In j (match s_refs s with Some r => r | None => [] end) -> ok j).
    { intros j Hj. eapply H2; eauto. }
    destruct (IH Or) as [U A]. split; [|intros j [<-|Hj]; auto]. econstructor; [rewrite H1; eauto|]. auto.
  - intros _. split; [constructor|intros j []].
  - intros i r l l' _ IH1 _ IH2 Ok. destruct (IH1 (Ok _ (or_introl eq_refl))) as [U1 A1].
    destruct (IH2 (fun j Hj => Ok j (or_intror Hj))) as [U2 A2]. split; [constructor; auto|].
    intros j Hj. apply in_app_iff in Hj as [Hj|Hj]; auto.
Qed.

(** Style references resolve in the result as they do in the document they come
    from, to the same attributes, whatever was resolved before. *)
Theorem C33_same_styles : forall ds ns n x d b bx, splice ds n = POk x -> Forall2 of_number ns ds -> NoDup ns -> In d ds ->
  t_body d = Some b -> t_body x = Some bx ->
  (forall i s j, In (i, s) (els (t_styling d)) -> In j (opt_list (s_refs s)) -> In j (map fst (els (t_styling d)))) ->
  forall l calls calls' r, (forall j, In j l -> In j (map fst (els (t_styling d)))) ->
    fst (collect_refs (doc_table d b) (after_calls (doc_table d b) calls) l) = SOk r ->
    fst (collect_refs (doc_table x bx) (after_calls (doc_table x bx) calls') l) = SOk r /\
    resolve_styles (map (attrs_of (doc_table x bx)) r) = resolve_styles (map (attrs_of (doc_table d b)) r).
Proof.
  intros ds ns n x d b bx H F N Hd Eb Ex Cl l calls calls' r Hl E.
  set (ok := fun i => In i (map fst (els (t_styling d)))).
  assert (Hh : forall i, ok i -> In i (map fst (head_table d))).
  { intros i Hi. unfold head_table. rewrite map_app, !map_map, in_app_iff. left. exact Hi. }
  assert (Same : forall i, ok i -> get_style (doc_table x bx) i = get_style (doc_table d b) i).
  { intros i Hi. unfold get_style. rewrite (C33_same_head _ _ _ _ _ _ i H F N Hd Ex (Hh _ Hi)).
    assert (G : dict_get (doc_table d b) i = dict_get (head_table d) i).
    { unfold doc_table. specialize (Hh _ Hi). apply dict_get_in in Hh. induction (head_table d) as [|[j z] t IH]; cbn in *; [congruence|].
      destruct (String.eqb i j); auto. }
    rewrite G. auto. }
  assert (Clo : forall i s j, ok i -> get_style (doc_table d b) i = Some s -> In j (opt_list (s_refs s)) -> ok j).
  { intros i s j Hi G Hj. unfold get_style in G. destruct (dict_get (doc_table d b) i) as [[s'| |]|] eqn:D; try discriminate.
    inversion G; subst s'. apply dict_get_pair in D. apply table_style in D. eapply Cl; eauto. }
  destruct (collect_unfolds _ _ _ _ E) as (u & U & ->).
  destruct (proj2 (unfolds_same _ _ ok Same Clo) _ _ U Hl) as [U' Ou]. split; [apply unfolds_collect; auto|].
  f_equal. apply map_ext_in. intros i Hi. unfold attrs_of. rewrite Same; auto. apply Ou. apply keep_first_In. auto.
Qed.

(** ** Splicing segments *)

(** A segment, with the document and the window it was cut from. *)
Record piece := mkPiece { p_doc : docu vbody; p_body : vbody; p_begin : option Z; p_end : option Z; p_seg : docu bodyd }.
Definition was_cut (p : piece) : Prop :=
  segment (p_doc p) true (p_begin p) (p_end p) = GOk (p_seg p) /\ t_body (p_doc p) = Some (p_body p) /\
  style_checked (p_doc p) (p_body p).

Lemma copy_ref_owned : forall n j, owned n (copy_ref true n j).
Proof. intros n j. exists j. unfold copy_ref, copy_id. destruct (deconflict n (Some j)) eqn:E; auto. discriminate. Qed.

Lemma sublist_in : forall (a b : list string), sublist a b -> forall i, In i a -> In i b.
Proof. induction 1; cbn; intuition. Qed.

Lemma piece_number : forall p, was_cut p -> 0 <= t_seq (p_doc p) -> of_number (t_seq (p_doc p)) (p_seg p).
Proof.
  intros p (S & Bv & Ck) H0. destruct (C47_unique _ _ _ _ _ _ S Bv Ck) as (bd & Hb & Nd). rewrite table_ids in Nd.
  assert (Eq : content_ids (p_seg p) = body_ids bd) by (unfold content_ids, content; rewrite Hb; auto).
  unfold of_number, all_ids. rewrite Eq. split; [auto|]. split; [auto|].
  destruct (head_main _ _ _ _ _ _ S Bv Ck) as (bd' & orph & used & Hb' & Hs & Hl & _ & _ & _ & _ & _ & _ & _ & _ & Sub).
  rewrite Hb in Hb'. inversion Hb'; subst bd'. intros i Hi. rewrite Hs, Hl, !in_app_iff, !map_map in Hi.
  destruct Hi as [Hi|[Hi|Hi]].
  - apply in_map_iff in Hi. destruct Hi as (s & <- & _). apply copy_ref_owned.
  - apply in_map_iff in Hi. destruct Hi as (s & <- & _). apply copy_ref_owned.
  - apply (sublist_in _ _ Sub) in Hi. apply in_map_iff in Hi. destruct Hi as (j & <- & _). apply copy_ref_owned.
Qed.

Lemma pieces_numbers : forall ps, Forall was_cut ps -> Forall (fun p => 0 <= t_seq (p_doc p)) ps ->
  Forall2 of_number (map (fun p => t_seq (p_doc p)) ps) (map p_seg ps).
Proof.
  induction 1 as [|p ps C _ IH]; intros F; cbn [map]; constructor; inversion F; subst; auto. apply piece_number; auto.
Qed.

Lemma refs_unnamed : forall n, style_refs (unnamed n) = style_refs n.
Proof.
  induction n as [s| |k i r st b e kids IH] using node_ind2; auto. cbn [unnamed style_refs]. rewrite Forall_forall in IH.
  f_equal. rewrite !flat_map_concat_map, map_map. f_equal. apply map_ext_in. auto.
Qed.
Lemma all_refs_unnamed : forall ns ns', map unnamed ns' = map unnamed ns -> flat_map style_refs ns' = flat_map style_refs ns.
Proof.
  intros ns ns' E. assert (Q : forall l, flat_map style_refs l = flat_map style_refs (map unnamed l)).
  { intros l. rewrite !flat_map_concat_map, map_map. f_equal. apply map_ext. intros n. symmetry. apply refs_unnamed. }
  rewrite (Q ns'), (Q ns), E. auto.
Qed.
Lemma renumbers_region : forall ns ids ns' ids' j, renumbers ns ids = (ns', ids') -> In j (flat_map region_refs ns') -> In j (flat_map region_refs ns).
Proof.
  assert (All : forall ns, Forall (fun n => forall ids n' ids' j, renumber n ids = (n', ids') -> In j (region_refs n') -> In j (region_refs n)) ns ->
    forall ids ns' ids' j, renumbers ns ids = (ns', ids') -> In j (flat_map region_refs ns') -> In j (flat_map region_refs ns)).
  { induction 1 as [|n ns Hn _ IH]; intros ids ns' ids' j H Hj; cbn [renumbers] in H.
    - inversion H; subst. auto.
    - destruct (renumber n ids) as [n1 ids1] eqn:E1. destruct (renumbers ns ids1) as [ns1 ids2] eqn:E2. inversion H; subst.
      cbn [flat_map] in *. rewrite in_app_iff in *. destruct Hj; eauto. }
  intros ns. apply All. apply Forall_forall. intros n _. clear ns.
  induction n as [s| |k i r st b e kids IH] using node_ind2; intros ids n' ids' j H Hj.
  - cbn in H. inversion H; subst. auto.
  - cbn in H. inversion H; subst. auto.
  - rewrite renumber_eq in H. destruct (renumbers kids ids) as [ks ids1] eqn:E.
    destruct i; inversion H; subst; cbn [region_refs] in *; rewrite in_app_iff in *; destruct Hj as [Hj|Hj]; eauto; left; destruct k; auto; destruct Hj.
Qed.

Lemma splice_region_refs : forall ds n x j, splice ds n = POk x ->
  In j (flat_map region_refs (content x)) -> In j (flat_map region_refs (flat_map content ds)).
Proof.
  intros ds n x j H. set (P := fun (done : list (docu bodyd)) m => forall j, In j (flat_map region_refs (merged_content m)) -> In j (flat_map region_refs (flat_map content done))).
  destruct (splice_ind P) with (3 := H) as (m & B & _ & _ & Eb).
  - intros d i. unfold merged_content. cbn [m_body flat_map]. rewrite app_nil_r. auto.
  - intros done m d m' IH E i. apply merge_next_body in E. unfold P, merged_content in *. rewrite flat_map_app. cbn [flat_map]. rewrite app_nil_r.
    rewrite flat_map_app, in_app_iff. destruct (m_body m) as [b|].
    + destruct E as (c & ids & ids1 & ks & ls & Hc & R1 & R2 & ->). cbn [bd_kids]. rewrite flat_map_app, in_app_iff. unfold content at 2. rewrite Hc.
      intros [Hi|Hi]; [left; apply IH|right]; eapply renumbers_region; eauto.
    + rewrite E. unfold content at 2. auto.
  - specialize (B j). unfold merged_content in B. rewrite Eb in B. exact B.
Qed.

(** Segments of documents with different numbers splice, to a document in which
    no identifier is there twice and every reference is to something in it. *)
Theorem C33_segments : forall ps n, ps <> [] -> Forall was_cut ps -> Forall (fun p => 0 <= t_seq (p_doc p)) ps ->
  NoDup (map (fun p => t_seq (p_doc p)) ps) ->
  exists x bx, splice (map p_seg ps) n = POk x /\ t_body x = Some bx /\ NoDup (map fst (doc_table x bx)) /\
    (forall j, In j (body_style_refs bx) -> In j (map fst (els (t_styling x)))) /\
    (forall j, In j (body_region_refs bx) -> In j (map fst (els (t_layout x)))) /\
    (forall i s j, In (i, s) (els (t_styling x)) -> In j (opt_list (s_refs s)) -> In j (map fst (els (t_styling x)))) /\
    (forall i g j, In (i, g) (els (t_layout x)) -> In j (opt_list (r_refs g)) -> In j (map fst (els (t_styling x)))).
Proof.
  intros ps n Ne Cut Pos Nd.
  assert (Hb : forall p, In p ps -> t_body (p_seg p) <> None).
  { intros p Hp. rewrite Forall_forall in Cut. destruct (Cut _ Hp) as (S & Bv & Ck). destruct (C47_unique _ _ _ _ _ _ S Bv Ck) as (bd & Hb & _). congruence. }
  destruct (splice (map p_seg ps) n) as [x|e] eqn:H.
  2:{ exfalso. destruct (C33_fails (map p_seg ps) n) as [F1 F2]. destruct e.
      - apply Ne. apply F1 in H. destruct ps; auto. discriminate.
      - apply F2 in H. destruct H as (l & d & l1 & e & l2 & E & _ & He).
        assert (Hin : In e (map p_seg ps)). { rewrite E. apply in_app_iff. right. right. apply in_app_iff. right. left. auto. }
        apply in_map_iff in Hin. destruct Hin as (p & <- & Hp). apply (Hb _ Hp He). }
  assert (F := pieces_numbers _ Cut Pos). destruct (C33_unique _ _ _ _ H F Nd) as (Es & El & Nu).
  destruct (splice_body _ _ _ H) as (U & St & _).
  assert (Fb : exists p0 b0, In p0 ps /\ t_body (p_seg p0) = Some b0 /\ first_body (map p_seg ps) = Some b0).
  { destruct ps as [|p ps]; [congruence|]. specialize (Hb p (or_introl eq_refl)). destruct (t_body (p_seg p)) as [b0|] eqn:E; [|congruence].
    exists p, b0. split; [left; auto|]. split; auto. unfold first_body. cbn [map flat_map]. rewrite E. auto. }
  destruct Fb as (p0 & b0 & Hp0 & Hb0 & Fb). rewrite Fb in St. destruct (t_body x) as [bx|] eqn:Ex; [|discriminate]. cbn in St. inversion St as [St'].
  assert (Cx : content x = bd_kids bx) by (unfold content; rewrite Ex; auto).
  exists x, bx. split; auto. split; auto. split. { rewrite table_ids. unfold all_ids, content_ids in Nu. rewrite Cx in Nu. exact Nu. }
  rewrite Forall_forall in Cut.
  assert (Sin : forall p j, In p ps -> In j (map fst (els (t_styling (p_seg p)))) -> In j (map fst (els (t_styling x)))).
  { intros p j Hp Hj. rewrite Es. apply in_map_iff in Hj. destruct Hj as (s & <- & Hs). apply in_map. apply in_flat_map. exists (p_seg p). split; auto. apply in_map. auto. }
  assert (Lin : forall p j, In p ps -> In j (map fst (els (t_layout (p_seg p)))) -> In j (map fst (els (t_layout x)))).
  { intros p j Hp Hj. rewrite El. apply in_map_iff in Hj. destruct Hj as (s & <- & Hs). apply in_map. apply in_flat_map. exists (p_seg p). split; auto. apply in_map. auto. }
  assert (Self : forall p, In p ps -> exists bd, t_body (p_seg p) = Some bd /\
    (forall j, In j (body_style_refs bd) -> In j (map fst (els (t_styling x)))) /\
    (forall j, In j (body_region_refs bd) -> In j (map fst (els (t_layout x)))) /\
    (forall i s j, In (i, s) (els (t_styling (p_seg p))) -> In j (opt_list (s_refs s)) -> In j (map fst (els (t_styling x)))) /\
    (forall i g j, In (i, g) (els (t_layout (p_seg p))) -> In j (opt_list (r_refs g)) -> In j (map fst (els (t_styling x))))).
  { intros p Hp. destruct (Cut _ Hp) as (S & Bv & Ck). destruct (C47_self_contained _ _ _ _ _ _ S Bv Ck) as (bd & E & A1 & A2 & A3 & A4).
    exists bd. split; auto. split; [eauto|]. split; [eauto|]. split; eauto. }
  split; [|split; [|split]].
  - intros j Hj. unfold body_style_refs in Hj. rewrite in_app_iff in Hj. destruct Hj as [Hj|Hj].
    + destruct (Self _ Hp0) as (bd & E & A1 & _). rewrite Hb0 in E. inversion E; subst bd. apply A1. unfold body_style_refs. rewrite St' in Hj. apply in_app_iff. auto.
    + rewrite <- Cx, (all_refs_unnamed _ _ U) in Hj. apply in_flat_map in Hj. destruct Hj as (m & Hm & Hj). apply in_flat_map in Hm. destruct Hm as (d & Hd & Hm).
      apply in_map_iff in Hd. destruct Hd as (p & <- & Hp). destruct (Self _ Hp) as (bd & E & A1 & _). apply A1. unfold body_style_refs. apply in_app_iff. right.
      apply in_flat_map. exists m. split; auto. unfold content in Hm. rewrite E in Hm. auto.
  - intros j Hj. unfold body_region_refs in Hj. rewrite <- Cx in Hj. apply (splice_region_refs _ _ _ _ H) in Hj.
    apply in_flat_map in Hj. destruct Hj as (m & Hm & Hj). apply in_flat_map in Hm. destruct Hm as (d & Hd & Hm).
    apply in_map_iff in Hd. destruct Hd as (p & <- & Hp). destruct (Self _ Hp) as (bd & E & _ & A2 & _). apply A2. unfold body_region_refs.
    apply in_flat_map. exists m. split; auto. unfold content in Hm. rewrite E in Hm. auto.
  - intros i s j Hs Hj. rewrite Es in Hs. apply in_flat_map in Hs. destruct Hs as (d & Hd & Hs). apply in_map_iff in Hd. destruct Hd as (p & <- & Hp).
    destruct (Self _ Hp) as (bd & _ & _ & _ & A3 & _). eauto.
  - intros i s j Hs Hj. rewrite El in Hs. apply in_flat_map in Hs. destruct Hs as (d & Hd & Hs). apply in_map_iff in Hd. destruct Hd as (p & <- & Hp).
    destruct (Self _ Hp) as (bd & _ & _ & _ & _ & A4). eauto.
Qed.

(** What is shown: what each document shows inside its window. *)
Definition presentable_piece (p : piece) : Prop :=
  exists avail cb ce, validate avail (Some (timing_body (plain_body (p_body p)))) = TOk (cb, ce, vtimes_body (p_body p)) /\
    0 <= at_avail avail /\ nn_body (timing_body (plain_body (p_body p))) /\
    presentable (p_begin p) (p_end p) (p_body p) /\ begin_ok (p_begin p) /\ end_ok (p_end p).
Definition in_its_window (p : piece) (t : Z) : list shown :=
  if in_window (p_begin p) (p_end p) (ms_last t)
  then map (rename (copy_ref true (t_seq (p_doc p)))) (present_body (ms_last t) (plain_body (p_body p)) (vtimes_body (p_body p)))
  else [].

Lemma piece_joinable : forall p, was_cut p -> presentable_piece p -> joinable (p_seg p).
Proof.
  intros p (S & Bv & _) (avail & cb & ce & V & A0 & NN & (P1 & P2 & P3 & P4 & P5) & Wb & We) bd Hb.
  destruct (segment_inv _ _ _ _ _ S) as (v' & styles & regions & bd0 & orph & stl & lay & bd1 & Q). cbv zeta in Q.
  destruct Q as (Bv' & _ & _ & _ & _ & C & _ & _ & _ & _ & Eb & _ & Ks & Kn & _). rewrite Bv in Bv'. inversion Bv'; subst v'.
  rewrite Hb in Eb. inversion Eb; subst bd1. clear Eb Bv'. set (x := segment_ctx (p_doc p) (p_body p) true (p_begin p) (p_end p)) in *.
  unfold copy_body in C. destruct (is_in_segment _ _ _ _) eqn:Is; [|discriminate].
  destruct (map_style x (vb_style (p_body p))) as [st'|]; [|discriminate]. cbn [gbind] in C.
  destruct (copy_nodes x (vb_kids (p_body p)) _) as [[ks o1]|] eqn:CK; [|discriminate]. cbn [gbind] in C. inversion C; subst bd0. cbn [bd_kids] in *.
  rewrite Ks. split. { destruct ks as [|k ks]; [left; auto|right]. rewrite Kn by discriminate. repeat split. }
  assert (K := copy_nodes_kept _ _ _ _ _ CK). destruct (C12_compositional _ _ _ _ _ V) as [T _].
  assert (OB := NN). destruct OB as (OB & _ & _ & Nk). apply offset_nn in OB.
  set (av := at_avail avail) in *.
  assert (S1 : 0 <= start_at av (offset (b_begin (timing_body (plain_body (p_body p)))))) by (unfold start_at; destruct (Z.eq_dec av 0); lia).
  assert (F : Forall2 (timed av (offset (b_begin (timing_body (plain_body (p_body p))))) (body_end av (timing_body (plain_body (p_body p)))))
                (map timing (map plain (vb_kids (p_body p)))) (map vtimes (vb_kids (p_body p)))) by (inversion T; auto).
  apply timed_kids in F. split.
  - apply Forall_forall. intros n Hn. destruct (kept_in _ _ _ K _ Hn) as (w & o & o' & Hw & Cw). rewrite Forall_forall in P1. specialize (P1 _ Hw).
    destruct w as [s| |[] i r st b e cb' ce' vs inh kids]; cbn in P1; try discriminate.
    destruct (copy_inv _ _ _ _ _ _ _ _ _ _ _ _ _ _ _ Cw) as [(_ & X & _)|(_ & r' & st2 & ks2 & o2 & _ & _ & _ & [(_ & X & _)|(_ & b' & e' & LT & M & _)])]; try discriminate.
    inversion M; subst n. unfold leaf_timing in LT. cbn in LT. inversion LT; subst. reflexivity.
  - assert (KI : forall w, In w (vb_kids (p_body p)) -> forall o m o', copy_node x w o = GOk (m, o') -> node_ok x 0 w m).
    { rewrite Forall_forall in *. intros w Hw oo mm oo' Cv. eapply node_main; eauto; [split; auto|].
      apply Nk. cbn. apply in_map, in_map. auto. }
    destruct (kids_ok _ 0 _ _ K KI) as [KN _]. exact KN.
Qed.

Theorem C33_segments_show : forall ps n x t, splice (map p_seg ps) n = POk x -> Forall was_cut ps -> Forall presentable_piece ps ->
  map anonymous (shows_at None x t) = map anonymous (flat_map (fun p => in_its_window p t) ps).
Proof.
  intros ps n x t H Cut Pr. rewrite (C33_presentation _ _ _ None t H ltac:(cbn; lia)).
  - f_equal. rewrite flat_map_concat_map, map_map, <- flat_map_concat_map. clear H. induction Cut as [|p ps Cp _ IH]; auto. inversion Pr as [|? ? Pp Pr']; subst.
    cbn [flat_map]. rewrite IH by auto. f_equal. destruct Cp as (S & Bv & _). destruct Pp as (avail & cb & ce & V & A0 & NN & P & Wb & We).
    destruct (C31_same_presentation _ _ _ _ _ _ _ _ _ S Bv V A0 NN P Wb We) as (bd & Eb & Q). unfold shows_at. rewrite Eb.
    destruct (validate None (Some (timing_body bd))) as [[[b e] ct]|] eqn:Vs; [exact (Q _ _ _ eq_refl t)|].
    destruct (C11_never_fails None (Some (timing_body bd))) as (? & ? & ? & E). congruence.
  - clear H. induction Cut as [|p ps Cp _ IH]; inversion Pr; subst; constructor; auto. apply piece_joinable; auto.
Qed.

(** ** Cases *)

Local Open Scope string_scope.

(** The same document under two numbers, cut at two windows that meet. *)
Definition cut_of (d : docu vbody) (sb se : option Z) : docu bodyd :=
  match segment d true sb se with GOk s => s | GErr _ => mkDocu Media 0 None None None end.
Definition doc1' : docu vbody := mkDocu Media 8 doc1_styling doc1_layout (Some doc1_body).
Definition two_pieces : list piece :=
  [mkPiece doc1 doc1_body (Some 2000000) (Some 9000000) (cut_of doc1 (Some 2000000) (Some 9000000));
   mkPiece doc1' doc1_body (Some 9000000) (Some 10000000) (cut_of doc1' (Some 9000000) (Some 10000000))].

Example C33_case_meets : Forall was_cut two_pieces /\ Forall (fun p => 0 <= t_seq (p_doc p)) two_pieces /\
  NoDup (map (fun p => t_seq (p_doc p)) two_pieces) /\ Forall presentable_piece two_pieces.
Proof.
  assert (Ck : style_checked doc1 doc1_body) by exact (proj1 C47_case).
  split.
  { constructor; [|constructor; [|constructor]]; (split; [vm_compute; reflexivity|]; split; [reflexivity|exact Ck]). }
  split; [repeat constructor; cbn; lia|]. split; [vm_compute; repeat (apply NoDup_cons; [cbn; intuition discriminate|]); apply NoDup_nil|].
  destruct C31_doc1_meets as ((A1 & A2 & A3 & A4 & A5) & Nn & Wb & We & _).
  constructor; [|constructor; [|constructor]]; exists None; do 2 eexists; (split; [vm_compute; reflexivity|]); (split; [cbn; lia|]);
    (split; [exact Nn|]); cbn [p_begin p_end p_body].
  - split; [split; auto|]. split; auto.
  - split; [|split; cbn; unfold h100; lia]. split; auto. split; auto. split; auto. split; auto.
    cbn [vb_kids doc1_body]. ok_tree; try reflexivity; discriminate.
Qed.

Example C33_case_shows :
  match splice (map p_seg two_pieces) 1 with
  | POk x => all_ids x = ["SEQ7.s1"; "SEQ7.s2"; "SEQ8.s1"; "SEQ7.r1"; "SEQ8.r1"; "SEQ7.d1"; "SEQ7.p1"; "SEQ7.p2"; "SEQ8.d1"; "SEQ8.p2"] /\
      shows_at None x 8500000 = [SEl Div (Some "SEQ7.d1") (Some "SEQ7.r1") (Some ["SEQ7.s1"]) [SEl P (Some "SEQ7.p2") None None [SText "bye"]]] /\
      shows_at None x 9500000 = [SEl Div (Some "SEQ8.d1") (Some "SEQ8.r1") (Some ["SEQ8.s1"]) [SEl P (Some "SEQ8.p2") None None [SText "bye"]]] /\
      shows_at None x 10500000 = []
  | PErr _ => False
  end.
Proof. vm_compute. auto. Qed.

(** Small documents. *)
Definition at_ (s : string) (us : Z) : option tattr := Some (mkTattr s us).
Definition par (i : string) (st : option (list string)) (s : string) : node :=
  Node Div None None None None None [Node P (Some i) None st None (at_ "00:00:05" 5000000) [Text s]].
Definition with_body (b : bodyd) : docu bodyd := mkDocu Media 1 (Some []) (Some []) (Some b).
Definition small (i : string) : docu bodyd := with_body (mkBodyd None None None None [par i None "text"]).
Definition colour (c : string) : style_el := mkStyle None (setattr no_attrs Color (Some c)).
Definition coloured (i c : string) : docu bodyd :=
  mkDocu Media 1 (Some [("s", colour c)]) (Some []) (Some (mkBodyd None None None None [par i (Some ["s"]) "text"])).
Definition spliced (ds : list (docu bodyd)) : docu bodyd :=
  match splice ds 9 with POk x => x | PErr _ => with_body (mkBodyd None None None None []) end.

(** Joining with the same identifier in all documents: the content has three
    different ones. *)
Example C33_case_ids : content_ids (spliced [small "p"; small "p"; small "p"]) = ["p.1.1"; "p.1.1.1"; "p.1.1.1.1"] /\
  Forall joinable [small "p"; small "p"; small "p"] /\ splice [small "p"; small "p"; small "p"] 9 = POk (spliced [small "p"; small "p"; small "p"]).
Proof.
  split; [reflexivity|]. split; [|reflexivity].
  assert (J : joinable (small "p")).
  { intros b E. inversion E; subst. split; [right; repeat split|]. split; repeat constructor. cbn. lia. }
  repeat (apply Forall_cons; [exact J|]). apply Forall_nil.
Qed.

(** Children are named before their parents. *)
Example C33_case_order : content_ids (spliced [small "a"; with_body (mkBodyd None None None None
    [Node Div (Some "a") None None None None [Node P (Some "a.1") None None None None [Text "text"]]])]) = ["a"; "a.1.1"; "a.1"].
Proof. reflexivity. Qed.

(** Regions that were renamed count as taken, styles that were renamed do not. *)
Example C33_case_heads :
  let head i := mkDocu Media 1 (Some (map (fun j => ("s" ++ j, mkStyle None no_attrs)) i)) (Some (map (fun j => ("r" ++ j, mkRegion None None)) i))
                  (Some (mkBodyd None None None None [])) in
  all_ids (spliced [head [""]; head [""; ".1"]]) = ["s"; "s.1"; "s.1"; "r"; "r.1"; "r.1.1"].
Proof. reflexivity. Qed.

(** Content is named apart from the styles and regions merged before. *)
Example C33_case_head_ids :
  let d := mkDocu Media 1 (Some [("a", mkStyle None no_attrs)]) (Some [("b", mkRegion None None)]) (Some (mkBodyd None None None None [])) in
  let e := mkDocu Media 2 (Some []) (Some []) (Some (mkBodyd None None None None [par "a" None "text"; par "b" None "text"])) in
  content_ids (spliced [d; e]) = ["a.1"; "b.1"].
Proof. reflexivity. Qed.

(** A document without styling or layout takes over those of the next. *)
Example C33_case_no_head :
  let d := mkDocu Media 1 None None None in
  spliced [d; d; coloured "p" "red"; small "q"] = mkDocu Media 9 (Some [("s", colour "red")]) (Some [])
    (Some (mkBodyd None None None None [par "p" (Some ["s"]) "text"; par "q" None "text"])).
Proof. reflexivity. Qed.

(** ** What goes wrong *)

(** The times of a body are lost: what was shown ten seconds later is shown at
    once. *)
Theorem C33_body_times_lost : exists d e n x t t', splice [d; e] n = POk x /\ content e = [] /\
  shows_at None d t <> [] /\ shows_at None x t = [] /\ shows_at None d t' = [] /\ shows_at None x t' <> [].
Proof.
  exists (with_body (mkBodyd None (at_ "00:00:10" 10000000) None None [par "p" None "text"])), (with_body (mkBodyd None None None None [])), 9.
  eexists. exists 12000000, 2000000. split; [vm_compute; reflexivity|]. repeat split; vm_compute; auto; discriminate.
Qed.

(** The style of a later body is lost: its paragraphs no longer have it. *)
Theorem C33_body_style_lost : exists d e n x b bx, splice [d; e] n = POk x /\ t_body e = Some b /\ t_body x = Some bx /\
  bd_style b = Some ["s"] /\ In "s" (map fst (els (t_styling x))) /\ ~ In "s" (body_style_refs bx).
Proof.
  exists (small "p"), (mkDocu Media 2 (Some [("s", mkStyle None no_attrs)]) (Some []) (Some (mkBodyd (Some ["s"]) None None None [par "q" None "text"]))), 9.
  do 3 eexists. split; [vm_compute; reflexivity|]. split; [reflexivity|]. split; [reflexivity|]. split; [reflexivity|].
  split; [vm_compute; auto|]. vm_compute. tauto.
Qed.

(** A reference is not changed with the identifier it refers to: with the same
    identifier for different styles in two documents, the text of the second gets
    the style of the first. *)
Theorem C33_reference_taken : exists d e n x b bx, splice [d; e] n = POk x /\ t_body e = Some b /\ t_body x = Some bx /\
  get_style (doc_table e b) "s" = Some (colour "red") /\
  get_style (doc_table x bx) "s" = Some (colour "white") /\ get_style (doc_table x bx) "s.1" = Some (colour "red") /\
  body_style_refs bx = ["s"; "s"] /\ NoDup (all_ids x).
Proof.
  exists (coloured "p" "white"), (coloured "q" "red"), 9. do 3 eexists. split; [vm_compute; reflexivity|]. split; [reflexivity|]. split; [reflexivity|].
  repeat (split; [reflexivity|]). vm_compute. repeat (apply NoDup_cons; [cbn; intuition discriminate|]); apply NoDup_nil.
Qed.

(** A new identifier in the head may itself be taken: what is made is refused by
    validation. *)
Theorem C33_head_clash : exists d e n x, splice [d; e] n = POk x /\ NoDup (all_ids d) /\ NoDup (all_ids e) /\
  register_all [] (map (fun i => (Some i, tt)) (all_ids x)) = None.
Proof.
  exists (mkDocu Media 1 (Some [("s", colour "red"); ("s.1", colour "white")]) (Some []) (Some (mkBodyd None None None None []))),
    (mkDocu Media 2 (Some [("s", colour "red")]) (Some []) (Some (mkBodyd None None None None []))), 9.
  eexists. split; [vm_compute; reflexivity|]. split; [|split; [|reflexivity]];
    vm_compute; repeat (apply NoDup_cons; [cbn; intuition discriminate|]); apply NoDup_nil.
Qed.

(** Identifiers that were never in conflict change as soon as there is a third
    document. *)
Theorem C33_renamed_needlessly :
  content_ids (spliced [small "a"; small "b"]) = ["a"; "b"] /\
  content_ids (spliced [small "a"; small "b"; small "c"]) = ["a.1"; "b.1"; "c"].
Proof. split; reflexivity. Qed.

Print Assumptions C33_fails.
Print Assumptions C33_content.
Print Assumptions C33_content_ids.
Print Assumptions C33_presentation.
Print Assumptions C33_unique.
Print Assumptions C33_same_head.
Print Assumptions C33_same_styles.
Print Assumptions C33_segments.
Print Assumptions C33_segments_show.
Print Assumptions C33_body_times_lost.
Print Assumptions C33_body_style_lost.
Print Assumptions C33_reference_taken.
Print Assumptions C33_head_clash.
Print Assumptions C33_renamed_needlessly.
