(** Proofs about the re-sequencing node. *)

From Coq Require Import List ZArith String Bool Lia.
From Verif Require Import SequenceModel SequenceSpec SequenceProofs SequenceHistory NodeModel NodeSpec NodeProofs.
Import ListNotations.
Open Scope string_scope.
Open Scope Z_scope.

(** ** Numbers and windows, whatever arrives *)

Lemma segments_app : forall a b, segments (a ++ b) = (segments a ++ segments b)%list.
Proof. intros a b. induction a as [|[] a IH]; cbn [app segments]; auto. rewrite IH. auto. Qed.

Lemma rdocs_app : forall a b, rdocs (a ++ b) = (rdocs a ++ rdocs b)%list.
Proof. intros a b. induction a as [|[d|x] a IH]; cbn [app rdocs]; auto. rewrite IH. auto. Qed.

(** What the k-th segment, counting from 0, should be. *)
Definition slot (start len : Z) (k : nat) : Z * Z * Z :=
  (Z.of_nat k + 1, start + Z.of_nat k * len, start + (Z.of_nat k + 1) * len).

Lemma reseq_step_cases : forall out len discard s i s' o, reseq_step out len discard s i = (s', o) ->
  (segments [o] = [] /\ rs_end s' = rs_end s /\ rs_counter s' = rs_counter s) \/
  (exists q ws, i = RTick true /\ rs_seq s = Some (Some q) /\
     o = RSegment (mkSegment (rs_counter s) out (rs_end s) (rs_end s + len) ws) /\
     rs_end s' = rs_end s + len /\ rs_counter s' = rs_counter s + 1).
Proof.
  intros out len discard s [d|built] s' o E; cbn [reseq_step] in E.
  - left. unfold consume in E. destruct (limit_one (rs_first s) (d_sid d)) as [f fine].
    destruct (negb fine); [inversion E; subst; auto|].
    destruct (match rs_seq s with Some q => q | None => sequence_of d end) as [q0|]; [|inversion E; subst; auto].
    destruct (add_document q0 d) as [q1 o1]. inversion E; subst. destruct o1 as [| |[]]; auto.
  - unfold tick in E. destruct (rs_seq s) as [[q|]|] eqn:Eq; [|inversion E; subst; auto..].
    destruct (seq_extract q (Some (rs_end s)) (Some (rs_end s + len)) (discard && built)) as [q' [ws|x]];
      [|inversion E; subst; auto].
    destruct built; inversion E; subst; auto. right. exists q, ws. auto.
Qed.

Lemma reseq_state : forall out len discard start l,
  let r := run (reseq_step out len discard) (r0 start) l in
  let n := List.length (segments (snd r)) in
  rs_end (fst r) = start + Z.of_nat n * len /\ rs_counter (fst r) = Z.of_nat n + 1 /\
  map (fun g => (sg_num g, sg_begin g, sg_end g)) (segments (snd r)) = map (slot start len) (seq 0 n) /\
  Forall (fun g => sg_sid g = out) (segments (snd r)).
Proof.
  intros out len discard start l. induction l as [|i l IH] using rev_ind.
  - cbn. repeat split; auto; lia.
  - cbv zeta in *. rewrite run_state_snoc, run_out_snoc, segments_app.
    destruct IH as (A & B & C & D).
    destruct (reseq_step out len discard (fst (run (reseq_step out len discard) (r0 start) l)) i) as [s' o] eqn:E.
    cbn [fst snd]. destruct (reseq_step_cases _ _ _ _ _ _ _ E) as [(S1 & S2 & S3)|(q & ws & -> & Hq & -> & S2 & S3)].
    + rewrite S1, app_nil_r, S2, S3. auto.
    + cbn [segments]. rewrite app_length, S2, S3, A, B, map_app, C. cbn [List.length map sg_num sg_begin sg_end].
      rewrite Nat.add_1_r. repeat split; try lia.
      * rewrite seq_S, map_app. cbn [map Nat.add]. f_equal. f_equal. unfold slot. f_equal. lia.
      * apply Forall_app. split; auto.
Qed.

(** ** Nothing stops a well-behaved stream *)

Lemma in_order_lt : forall l last d, in_order last (l ++ [d]) ->
  (forall x, In x l -> d_num x < d_num d) /\ in_order last l /\
  match last with Some n => n < d_num d | None => True end.
Proof.
  induction l as [|a l IH]; intros last d H; cbn [app in_order] in H.
  - destruct H as [H _]. repeat split; auto. intros x [].
  - destruct H as [H1 H2]. destruct (IH _ _ H2) as (A & B & C). cbn in C. repeat split; auto.
    + intros x [->|Hx]; auto.
    + destruct last; auto. lia.
Qed.

Lemma win_sound : forall l b e d wb we, In (d, wb, we) (win l b e) -> exists x, In (d, x) l /\ we = clip x e.
Proof.
  induction l as [|[p x] l IH]; intros b e d wb we H; [destruct H|]. destruct H as [H|H].
  - inversion H; subst. exists x. split; [left|]; auto.
  - destruct (IH _ _ _ _ _ H) as (y & A & B). exists y. split; [right|]; auto.
Qed.

Lemma before_clip : forall t x e, before_end t (clip x e) -> before_end t x.
Proof.
  intros t [x|] [e|]; cbn; auto. destruct (Z.ltb_spec e x); cbn; lia.
Qed.

(** The pieces of a window are exactly what is to be presented in it. *)
Lemma known_windows_iff a h sid tb cm g s bs b e :
  known a h sid tb cm g s bs -> bounds_ok b e ->
  exists ws, extract_windows s (lookup_range doc_eqb (q_tl s) b e) b e = Ok ws
    /\ tiles b e ws
    /\ (forall t d, after_begin b t -> before_end t e ->
          (active h t d <->
           exists wb we, In (d, wb, we) ws /\ after_begin wb t /\ before_end t we /\ d_begin d <= t)).
Proof.
  intros Hk Hbe. destruct (known_windows _ _ _ _ _ _ _ _ _ _ Hk Hbe) as (ws & Hw & Ht & Hc).
  exists ws. split; [exact Hw|]. split; [exact Ht|]. intros t d Hb He. split.
  - intros Ha. assert (Hd : In d h) by apply Ha.
    destruct (Hc t d Hd Hb He) as (wb & we & A & B & C).
    + apply (known_presented _ _ _ _ _ _ _ _ _ _ Hk Hd), Ha.
    + exists wb, we. repeat split; auto. apply Ha.
  - intros (wb & we & Hin & H1 & H2 & H3).
    rewrite (known_lookup _ _ _ _ _ _ _ _ _ _ Hk Hbe) in Hw.
    rewrite extract_windows_win in Hw.
    2:{ intros p x Hp. apply filter_In in Hp. eapply known_resolved; [eassumption|apply Hp]. }
    inversion Hw; subst ws. apply win_sound in Hin as (x & Hin & ->). apply filter_In in Hin as [Hin _].
    assert (Hd : In d h) by apply (hi_sub _ _ _ _ (kn_hinv _ _ _ _ _ _ _ _ Hk) _ Hin).
    apply (known_presented _ _ _ _ _ _ _ _ _ _ Hk Hd).
    destruct (known_resolved _ _ _ _ _ _ _ _ _ _ Hk Hin) as [E1 E2].
    exists (d_begin d), x. repeat split; auto. apply before_clip in H2. exact H2.
Qed.

Lemma last_scheduled a h sid tb cm g s bs b e d r :
  known a h sid tb cm g s bs -> bounds_ok b (Some e) ->
  rev (lookup_range doc_eqb (q_tl s) b (Some e)) = d :: r -> scheduled h d /\ d_begin d < e.
Proof.
  intros Hk Hbe Hr. rewrite (known_lookup _ _ _ _ _ _ _ _ _ _ Hk Hbe) in Hr.
  assert (Hin : In d (map fst (filter (sel b (Some e)) bs))) by (rewrite in_rev, Hr; left; auto).
  apply in_map_iff in Hin as ([d' x] & E & Hin). cbn in E. subst d'. apply filter_In in Hin as [Hin Hs].
  pose proof (kn_hinv _ _ _ _ _ _ _ _ Hk) as Hi. split.
  - split; [apply (hi_sub _ _ _ _ Hi _ Hin)|]. intros y Hy Hn.
    destruct (hi_dom _ _ _ _ Hi y Hy) as ([p z] & Hp & P1 & P2). cbn [fst] in *.
    destruct (chain_order _ _ _ (rep_chain _ _ (hi_rep _ _ _ _ Hi)) Hin Hp) as [E|[(E1 & E2 & _)|(E1 & E2 & _)]];
      cbn [fst] in *; [inversion E; subst; lia|lia|lia].
  - unfold sel in Hs. cbn [fst] in Hs. apply andb_true_iff in Hs as [Hs _]. lia.
Qed.

Section Stream.
Variables (out : string) (len start : Z) (discard : bool).
Variables (sid tb : string) (cm : option string) (g : string).

(** A document of the stream. *)
Definition fits (d : document) : Prop :=
  d_sid d = sid /\ d_tb d = tb /\ d_cm d = cm /\ (d_agid d = None \/ d_agid d = Some g) /\ doc_wf d.

Notation st l := (fst (run (reseq_step out len discard) (r0 start) l)).

(** Every document that was dropped is hidden, from the end of the last segment
    on, by one that is still there. *)
Definition hidden (h : list document) (t : Z) (y : document) : Prop :=
  In y h \/ exists z, In z h /\ d_num y < d_num z /\ d_begin z < t.

Lemma hidden_active : forall a h t0 t d, incl h a -> (forall y, In y a -> hidden h t0 y) -> t0 <= t ->
  (active a t d <-> active h t d).
Proof.
  intros a h t0 t d Hi Hh Ht. unfold active. split.
  - intros (A & B & C & D). destruct (Hh d A) as [Hd|(z & Z1 & Z2 & Z3)].
    + repeat split; auto.
    + specialize (C z (Hi z Z1)). lia.
  - intros (A & B & C & D). repeat split; auto. intros y Hy Hb.
    destruct (Hh y Hy) as [Hd|(z & Z1 & Z2 & Z3)]; auto.
    specialize (C z Z1). lia.
Qed.

Lemma hidden_forget : forall a h t0 t d, NoDup (map d_num h) -> (forall y, In y a -> hidden h t0 y) ->
  scheduled h d -> d_begin d < t -> t0 <= t ->
  forall y, In y a -> hidden (live h (Forget d)) t y.
Proof.
  intros a h t0 t d Hn Hh [Hd Hs] Hb Ht y Hy. unfold hidden. cbn [live].
  assert (Hstep : forall z, In z h -> In z (filter (fun x => d_begin d <=? d_begin x) h) \/ d_num z < d_num d).
  { intros z Hz. destruct (Z.leb_spec (d_begin d) (d_begin z)) as [Hle|Hlt].
    - left. apply filter_In. split; auto. apply Z.leb_le; auto.
    - right. destruct (Z.lt_trichotomy (d_num z) (d_num d)) as [H|[H|H]]; auto.
      + apply (nodup_inj d_num _ Hn) in H; auto. subst z. lia.
      + specialize (Hs z Hz H). lia. }
  assert (Hdl : In d (filter (fun x => d_begin d <=? d_begin x) h)) by (apply filter_In; split; auto; apply Z.leb_refl).
  destruct (Hh y Hy) as [H|(z & Z1 & Z2 & Z3)].
  - destruct (Hstep y H) as [H'|H']; auto. right. exists d. auto.
  - right. destruct (Hstep z Z1) as [H'|H']; [exists z|exists d]; repeat split; auto; lia.
Qed.

Record going (l : list rinput) : Prop := {
  go_empty : rdocs l = [] -> st l = r0 start;
  go_some : rdocs l <> [] -> exists q h bs, rs_seq (st l) = Some (Some q) /\ rs_first (st l) = Some sid /\
    known (rdocs l) h sid tb (match clock_of tb cm with Some (_, c) => c | None => None end) g q bs /\
    incl h (rdocs l) /\ (forall y, In y (rdocs l) -> hidden h (rs_end (st l)) y) }.

Lemma tick_known : forall a h c q bs s built, rs_seq s = Some (Some q) ->
  known a h sid tb c g q bs -> 0 <= len ->
  exists q' h' bs', rs_seq (fst (tick out len discard built s)) = Some (Some q') /\
    rs_first (fst (tick out len discard built s)) = rs_first s /\
    known a h' sid tb c g q' bs' /\ incl h' h /\
    (forall a', (forall y, In y a' -> hidden h (rs_end s) y) ->
                forall y, In y a' -> hidden h' (rs_end (fst (tick out len discard built s))) y) /\
    (built = false -> snd (tick out len discard built s) = RRaiseSplice) /\
    (built = true -> exists ws, snd (tick out len discard built s) =
       RSegment (mkSegment (rs_counter s) out (rs_end s) (rs_end s + len) ws) /\
       tiles (Some (rs_end s)) (Some (rs_end s + len)) ws /\
       forall t d, rs_end s <= t < rs_end s + len ->
         (active h t d <->
          exists wb we, In (d, wb, we) ws /\ after_begin wb t /\ before_end t we /\ d_begin d <= t)).
Proof.
  intros a h c q bs s built Hq Hk Hl.
  assert (Hb : bounds_ok (Some (rs_end s)) (Some (rs_end s + len))) by (cbn; lia).
  destruct (known_windows_iff _ _ _ _ _ _ _ _ _ _ Hk Hb) as (ws & Hw & Ht & Hc).
  assert (Hc' : forall t d, rs_end s <= t < rs_end s + len ->
         (active h t d <->
          exists wb we, In (d, wb, we) ws /\ after_begin wb t /\ before_end t we /\ d_begin d <= t)).
  { intros t d Ht'. apply Hc; cbn; lia. }
  unfold tick. rewrite Hq. unfold seq_extract. rewrite Hw.
  destruct built; [|rewrite andb_false_r; cbn [fst snd rs_seq rs_first rs_end]].
  - rewrite andb_true_r. destruct discard.
    + destruct (rev (lookup_range doc_eqb (q_tl q) (Some (rs_end s)) (Some (rs_end s + len)))) as [|d r] eqn:Er.
      * cbn [fst snd rs_seq rs_first rs_end]. exists q, h, bs. split; [auto|]. split; [auto|]. split; [auto|]. split; [apply incl_refl|].
        split; [|split; [discriminate|]].
        -- intros a' H y Hy. destruct (H y Hy) as [A|(z & A & B & C)]; [left|right; exists z; repeat split]; auto; lia.
        -- intros _. exists ws. auto.
      * destruct (last_scheduled _ _ _ _ _ _ _ _ _ _ _ _ Hk Hb Er) as [Hs Hd].
        destruct Hk as [Hi Hsn Hwf Hn Ho].
        destruct (forget_step a h q bs d sid tb c g Hi Hsn Hwf Hn Ho Hs) as (q' & bs' & E & Hi' & Hsn' & _).
        rewrite E. cbn [fst snd rs_seq rs_first rs_end]. exists q', (live h (Forget d)), bs'.
        split; [auto|]. split; [auto|]. split; [constructor; auto|split; [|split; [|split; [discriminate|]]]].
        -- apply Forall_forall. intros x Hx. apply filter_In in Hx. rewrite Forall_forall in Hwf. apply Hwf. tauto.
        -- apply nodup_map_filter_num. auto.
        -- intros x Hx. apply filter_In in Hx. tauto.
        -- intros a' H y Hy. eapply hidden_forget; eauto.
        -- intros _. exists ws. auto.
    + cbn [fst snd rs_seq rs_first rs_end]. exists q, h, bs. split; [auto|]. split; [auto|]. split; [auto|]. split; [apply incl_refl|].
        split; [|split; [discriminate|]].
      * intros a' H y Hy. destruct (H y Hy) as [A|(z & A & B & C)]; [left|right; exists z; repeat split]; auto; lia.
      * intros _. exists ws. auto.
  - exists q, h, bs. split; [auto|]. split; [auto|]. split; [auto|]. split; [apply incl_refl|].
    split; [auto|]. split; [auto|discriminate].
Qed.

Theorem going_holds : forall l, 0 <= len -> clock_of tb cm <> None ->
  Forall fits (rdocs l) -> in_order None (rdocs l) -> NoDup (map d_obj (rdocs l)) ->
  going l /\
  (forall l1 d l2, l = (l1 ++ RDoc d :: l2)%list ->
     snd (reseq_step out len discard (st l1) (RDoc d)) = RNothing).
Proof.
  intros l Hl Hck. induction l as [|i l IH] using rev_ind; intros Hf Ho Hn.
  { split; [constructor; auto; intros H; contradiction|]. intros [|x l1] d l2 H; discriminate. }
  rewrite rdocs_app in *. apply Forall_app in Hf as [Hf1 Hf2].
  assert (Ho' : in_order None (rdocs l)).
  { destruct i; cbn [rdocs] in Ho; [apply (in_order_lt _ _ _ Ho)|rewrite app_nil_r in Ho; auto]. }
  assert (Hn' : NoDup (map d_obj (rdocs l))) by (rewrite map_app in Hn; eapply NoDup_app_l; eauto).
  destruct (IH Hf1 Ho' Hn') as [[Ge Gs] Hacc]. clear IH.
  destruct (clock_of tb cm) as [[tb' c]|] eqn:Ec; [|congruence].
  assert (Et : tb' = tb /\ (tb = "clock" -> c = cm)).
  { revert Ec. unfold clock_of. destruct (String.eqb_spec tb "clock") as [->|].
    - destruct cm as [k|]; [|discriminate].
      destruct (String.eqb_spec k "local") as [->|]; [intros E; inversion E; auto|].
      destruct (String.eqb_spec k "utc") as [->|]; [intros E; inversion E; auto|discriminate].
    - destruct (String.eqb_spec tb "media") as [->|]; [intros E; inversion E; split; auto; intros; discriminate|].
      destruct (String.eqb_spec tb "smpte") as [->|]; [intros E; inversion E; split; auto; intros; discriminate|discriminate]. }
  destruct Et as [-> Ecm].
  destruct i as [d|built].
  - (* a document *)
    cbn [rdocs] in Hf2, Ho, Hn. inversion Hf2 as [|? ? (F1 & F2 & F3 & F4 & F5) _]; subst.
    assert (Hbel : belongs sid tb c g d).
    { split; [auto|]. split; [auto|]. split; [intros E; rewrite F3, (Ecm E); auto|tauto]. }
    assert (Hstart : exists q h bs, match rs_seq (st l) with Some q => q | None => sequence_of d end = Some q /\
      limit_one (rs_first (st l)) (d_sid d) = (Some sid, true) /\
      known (rdocs l) h sid tb c g q bs /\ incl h (rdocs l) /\
      (forall y, In y (rdocs l) -> hidden h (rs_end (st l)) y)).
    { destruct (rdocs l) as [|d0 ds] eqn:Ed.
      - rewrite Ge by auto. cbn [rs_seq r0 rs_first limit_one]. unfold sequence_of. rewrite F1, F2, F3, Ec.
        eexists _, [], []. split; [reflexivity|]. split; [reflexivity|]. split; [|split].
        + apply known_new. auto.
        + apply incl_refl.
        + intros y [].
      - destruct Gs as (q & h & bs & A & B & C & D & E); [discriminate|].
        rewrite A, B, F1. exists q, h, bs. cbn [limit_one]. rewrite String.eqb_refl. auto. }
    destruct Hstart as (q & h & bs & Eq & El & [Hi Hsn Hwf Hnn Hno] & Hinc & Hhid).
    destruct (in_order_lt _ _ _ Ho) as (Hlt & _ & _).
    destruct (add_step sid tb c g (rdocs l) h q bs d Hi Hsn Hbel F5 Hno) as (q' & o & bs' & Ea & Hi' & Hsn' & Hoc).
    { rewrite map_app in Hn. cbn [map] in Hn. apply NoDup_remove_2 in Hn. rewrite app_nil_r in Hn. auto. }
    { intros Hin. apply in_map_iff in Hin as (x & Ex & Hx). specialize (Hlt x (Hinc x Hx)). lia. }
    { right. intros d' Hd' Hd2. specialize (Hlt d' (Hinc d' Hd')). lia. }
    assert (Estep : reseq_step out len discard (st l) (RDoc d) =
              (mkR (Some (Some q')) (Some sid) (rs_end (st l)) (rs_counter (st l)), RNothing)).
    { cbn [reseq_step]. unfold consume. rewrite El. cbn [negb]. rewrite Eq, Ea.
      destruct Hoc as [[-> _]|[-> _]]; auto. }
    split.
    + constructor.
      * rewrite rdocs_app. cbn [rdocs]. intros E. destruct (rdocs l); discriminate.
      * intros _. rewrite run_state_snoc, Estep. cbn [fst rs_seq rs_first rs_end].
        rewrite rdocs_app. cbn [rdocs].
        exists q', (h ++ [d])%list, bs'. split; auto. split; auto. split; [|split].
        -- rewrite Ec. constructor; auto.
           ++ apply Forall_app. auto.
           ++ rewrite map_app. apply NoDup_snoc; auto. intros Hin. apply in_map_iff in Hin as (x & Ex & Hx).
              specialize (Hlt x (Hinc x Hx)). lia.
        -- apply incl_app; [apply incl_appl; auto|apply incl_appr, incl_refl].
        -- intros y Hy. apply in_app_or in Hy as [Hy|[<-|[]]].
           ++ destruct (Hhid y Hy) as [A|(z & A & B)]; [left; apply in_or_app; auto|right; exists z].
              split; [apply in_or_app|]; auto.
           ++ left. apply in_or_app. right. left. auto.
    + intros l1 d' l2 E. destruct l2 as [|x l2 _] using rev_ind.
      * apply app_inj_tail in E as [<- E]. inversion E; subst. rewrite Estep. auto.
      * rewrite app_comm_cons, app_assoc in E. apply app_inj_tail in E as [E _]. eapply Hacc; eauto.
  - (* a tick *)
    assert (Hacc' : forall l1 d l2, (l ++ [RTick built])%list = (l1 ++ RDoc d :: l2)%list ->
              snd (reseq_step out len discard (st l1) (RDoc d)) = RNothing).
    { intros l1 d' l2 E. destruct l2 as [|x l2 _] using rev_ind.
      * apply app_inj_tail in E as [_ E]. discriminate.
      * rewrite app_comm_cons, app_assoc in E. apply app_inj_tail in E as [E _]. eapply Hacc; eauto. }
    split; auto. constructor; rewrite rdocs_app; cbn [rdocs]; rewrite app_nil_r; intros E; rewrite run_state_snoc.
    + rewrite Ge by auto. reflexivity.
    + destruct (Gs E) as (q & h & bs & A & B & C & D & F). cbn [reseq_step].
      destruct (tick_known _ _ _ _ _ _ built A C Hl) as (q' & h' & bs' & A' & B' & C' & D' & F' & _ & _).
      exists q', h', bs'. rewrite A', B', B, Ec. split; [auto|]. split; [auto|]. split; [auto|]. split.
      * eapply incl_tran; eauto.
      * eapply F'; eauto.
Qed.

End Stream.
