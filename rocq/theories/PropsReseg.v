(** C52: extracting one document from a sequence, and re-sequencing. *)

From Coq Require Import Sorting.Sorted.
From Verif Require Import NodeProofs SequenceModel SequenceSpec SequenceProofs SequenceHistory SequenceInv NodeModel NodeSpec ReseqProofs PropsReseq.
From Coq Require Import List ZArith String Bool QArith Lia.
From Verif Require Import IdModel TimingModel TimeSpec TimingSpec TimingProofs PropsTiming TimeSpec StyleModel StyleProofs StyleTree PropsStyle PropsScope
  SegmentModel SegmentSpec SegmentProofs SegmentHeadProofs PropsSegment PropsSegmentHead PropsSegmentMade SpliceModel SpliceSpec SpliceProofs PropsSplice
  LookSpec LookProofs LookDressProofs PropsLook ResegModel ResegSpec.
Import ListNotations.
Open Scope Z_scope.

(** ** Validation *)

Lemma distinct_ok : forall l, NoDup l -> distinct l = true.
Proof.
  induction 1 as [|i l H _ IH]; auto. cbn. rewrite IH, andb_true_r. destruct (mem i l) eqn:E; auto.
  exfalso. apply H. apply mem_iff. auto.
Qed.

Lemma validates_ok : forall z d b, t_body d = Some b -> NoDup (map fst (doc_table d b)) -> style_valid z d -> validates z d = true.
Proof.
  intros z d b Hb Nd V. unfold validates, style_valid in *. rewrite Hb in *. destruct V as (r & V). rewrite V, (distinct_ok _ Nd).
  destruct (C11_never_fails None (Some (timing_body b))) as (? & ? & ? & E). rewrite E. auto.
Qed.

(** ** The pieces *)

Section Content.
Variables (content : document -> stored) (z : sizing) (c0 : computed).

Definition pieces_of (ws : list (document * option Z * option Z)) : list piece :=
  flat_map (fun w => let '(d, b, e) := w in
    match t_body (st_doc (content d)), segment (st_doc (content d)) true b e with
    | Some v, GOk g => [mkPiece (st_doc (content d)) v b e g]
    | _, _ => []
    end) ws.

(** What a document contributes. *)
Definition part_of (t : Z) (w : document * option Z * option Z) : list seen :=
  let '(d, b, e) := w in
  if in_window b e (ms_last t) then map (relook (copy_ref true (d_num d)) no_align) (as_seen (content d) (ms_last t)) else [].

Lemma pieces_cuts : forall ws, Forall (ready content z c0) ws -> cuts content ws = map (fun p => (z, p_seg p)) (pieces_of ws).
Proof.
  induction 1 as [|[[d b] e] ws [H C] _ IH]; auto. cbn [cuts pieces_of flat_map]. rewrite map_app. fold (pieces_of ws). rewrite <- IH. clear IH.
  destruct H as (Hn & Hs & Hz & Hb). unfold cut. unfold cuttable in C.
  destruct (t_body (st_doc (content d))) as [v|] eqn:Bv.
  - destruct Hb as (Ck & Fl & _). destruct (segment (st_doc (content d)) true b e) as [g|] eqn:S; auto.
    assert (V : validates (st_size (content d)) g = true).
    { destruct (C47_unique _ _ _ _ _ _ S Bv (at_checked _ _ _ Ck)) as (bd & Eb & Nd). eapply validates_ok; eauto. rewrite Hz. eapply C51_segment_valid; eauto. }
    rewrite V, Hz. auto.
  - assert (S : segment (st_doc (content d)) true b e = GErr AttributeErr) by (unfold segment; rewrite Bv; auto). rewrite S. auto.
Qed.

Lemma piece_from : forall ws p, In p (pieces_of ws) -> exists d, In (d, p_begin p, p_end p) ws /\ p_doc p = st_doc (content d) /\
  t_body (p_doc p) = Some (p_body p) /\ segment (p_doc p) true (p_begin p) (p_end p) = GOk (p_seg p).
Proof.
  intros ws p H. apply in_flat_map in H as ([[d b] e] & Hw & H). destruct (t_body (st_doc (content d))) as [v|] eqn:Bv; [|destruct H].
  destruct (segment (st_doc (content d)) true b e) as [g|] eqn:S; [destruct H as [<-|[]]|destruct H]. exists d. cbn. auto.
Qed.

Lemma pieces_ok : forall ws, Forall (ready content z c0) ws -> Forall (cut_at z) (pieces_of ws) /\ Forall presentable_piece (pieces_of ws) /\
  Forall (fun p => 0 <= t_seq (p_doc p)) (pieces_of ws) /\
  Forall (fun p => exists c, body_computed z (unchecked (p_doc p)) = Some c /\ as_parent c0 c) (pieces_of ws).
Proof.
  intros ws R. rewrite Forall_forall in R. rewrite !Forall_forall.
  assert (Q : forall p, In p (pieces_of ws) -> cut_at z p /\ presentable_piece p /\ 0 <= t_seq (p_doc p) /\
    exists c, body_computed z (unchecked (p_doc p)) = Some c /\ as_parent c0 c).
  { intros p Hp. destruct (piece_from _ _ Hp) as (d & Hw & Ed & Bv & S). destruct (R _ Hw) as [H C].
    destruct H as (Hn & Hs & Hz & Hb). rewrite <- Ed in *. rewrite Bv in Hb. destruct Hb as (Ck & Fl & (av & V & A0) & NN & K).
    unfold cuttable in C. rewrite <- Ed in C. destruct (C _ Bv) as (P & Wb & We & _).
    split; [|split; [|split]]; auto.
    - split; auto.
    - exists av, (d_begin d), (d_end d). auto 10.
    - rewrite Hs. auto. }
  split; [|split; [|split]]; intros p Hp; apply (Q _ Hp).
Qed.

Lemma body_times : forall v avail cb ce, validate avail (Some (timing_body (plain_body v))) = TOk (cb, ce, vtimes_body v) -> vb_cb v = cb /\ vb_ce v = ce.
Proof.
  intros v avail cb ce V. unfold validate in V. destruct (visit_body _ _ _) as [[? t]|]; [|discriminate]. cbn [tbind] in V.
  destruct t; [|inversion V; fail]. inversion V; subst. auto.
Qed.

Lemma nothing_outside : forall c v t, t_body (st_doc c) = Some v -> active t (vb_cb v) (vb_ce v) = false -> as_seen c t = [].
Proof.
  intros c v t Bv A. unfold as_seen. rewrite Bv. unfold looks_checked. destruct (validate_styles _ _ _) as [[? [? ? ? ?]]|]; auto.
  unfold appear_body, vtimes_body. rewrite A. auto.
Qed.

Lemma active_in : forall t cb ce b e, active t cb ce = true -> in_window b e t = true -> is_in_segment cb ce b e = true.
Proof.
  intros t cb ce b e A W. unfold active, in_window, is_in_segment in *. destruct b as [b|], ce as [ce|], e as [e|]; cbn in *; auto;
    rewrite ?andb_true_iff, ?Z.leb_le, ?Z.ltb_lt in *; try (destruct (Z.leb_spec ce b); [lia|]); auto;
    apply negb_true_iff; apply Z.leb_gt; lia.
Qed.

Lemma pieces_seen : forall ws t, Forall (ready content z c0) ws -> flat_map (fun p => seen_in_window z p t) (pieces_of ws) = flat_map (part_of t) ws.
Proof.
  intros ws t R. induction R as [|[[d b] e] ws [H C] _ IH]; auto. cbn [pieces_of flat_map]. fold (pieces_of ws). rewrite flat_map_app, IH. f_equal. clear IH.
  destruct H as (Hn & Hs & Hz & Hb). unfold cuttable in C. unfold part_of. 
  destruct (t_body (st_doc (content d))) as [v|] eqn:Bv.
  - destruct Hb as (Ck & Fl & (av & V & A0) & NN & K). destruct (C _ eq_refl) as (P & Wb & We & Made).
    destruct (segment (st_doc (content d)) true b e) as [g|] eqn:S.
    + cbn [flat_map]. rewrite app_nil_r. unfold seen_in_window. cbn [p_begin p_end p_doc p_body]. destruct (in_window b e (ms_last t)); auto.
      rewrite Hs. unfold as_seen. rewrite Bv, Hz. auto.
    + cbn [flat_map]. destruct (in_window b e (ms_last t)) eqn:W; auto. rewrite (nothing_outside _ _ _ Bv); auto.
      destruct (active (ms_last t) (vb_cb v) (vb_ce v)) eqn:A; auto. destruct (Made (active_in _ _ _ _ _ A W)) as (g & X). discriminate.
  - cbn [flat_map]. unfold as_seen. rewrite Bv. destruct (in_window _ _ _); auto.
Qed.

(** ** Windows that tile *)

Lemma tiles_after : forall ws y e t, tiles (Some y) e ws -> t < y -> forall d wb we, In (d, wb, we) ws -> in_window wb we t = false.
Proof.
  induction ws as [|[[d0 wb0] we0] ws IH]; intros y e t T Ht d wb we H; [destruct H|]. cbn [tiles] in T. destruct T as (-> & B & _ & N & T).
  destruct H as [H|H].
  - inversion H; subst. unfold in_window. apply andb_false_iff. left. apply Z.leb_gt. auto.
  - destruct we0 as [y'|]; [|rewrite (N eq_refl) in H; destruct H]. cbn in B. apply (IH y' e t T ltac:(lia) _ _ _ H).
Qed.

Lemma one_window : forall ws b e t d wb we, tiles b e ws -> In (d, wb, we) ws -> in_window wb we (ms_last t) = true ->
  flat_map (part_of t) ws = part_of t (d, wb, we).
Proof.
  induction ws as [|[[d0 wb0] we0] ws IH]; intros b e t d wb we T H W; [destruct H|]. cbn [tiles] in T. destruct T as (-> & B & _ & N & T). cbn [flat_map].
  destruct H as [H|H].
  - inversion H; subst. replace (flat_map (part_of t) ws) with (@nil seen); [apply app_nil_r|]. symmetry.
    destruct we as [y|]; [|rewrite (N eq_refl); auto]. unfold in_window in W. apply andb_true_iff in W as [_ W]. apply Z.ltb_lt in W.
    assert (Q := tiles_after _ _ _ _ T W). clear - Q. induction ws as [|[[d1 b1] e1] ws IH]; auto. cbn [flat_map]. rewrite IH; [|intros; eapply Q; right; eauto].
    unfold part_of. rewrite (Q d1 b1 e1); auto. left. auto.
  - rewrite (IH _ _ _ _ _ _ T H W). unfold part_of at 1. replace (in_window b we0 (ms_last t)) with false; auto. symmetry.
    destruct (in_window b we0 (ms_last t)) eqn:W0; auto. unfold in_window in W0. apply andb_true_iff in W0 as [_ W0].
    destruct we0 as [y|]; [|rewrite (N eq_refl) in H; destruct H]. apply Z.ltb_lt in W0. rewrite (tiles_after _ _ _ _ T W0 _ _ _ H) in W. discriminate.
Qed.

End Content.

(** ** The documents asked for *)

Lemma windows_docs : forall s docs b e ws, extract_windows s docs b e = Ok ws -> map (fun w => fst (fst w)) ws = docs.
Proof.
  induction docs as [|d docs IH]; intros b e ws H; cbn [extract_windows] in H; [inversion H; auto|].
  destruct (resolved_end s d) as [de|]; [|discriminate].
  match type of H with match extract_windows s docs ?x e with _ => _ end = _ => destruct (extract_windows s docs x e) as [ws'|] eqn:E; [|discriminate] end.
  inversion H; subst. cbn [map fst]. f_equal. eauto.
Qed.

Lemma sorted_nodup : forall l, StronglySorted (fun x y => d_begin x < d_begin y) l -> NoDup l.
Proof.
  induction 1 as [|x l _ IH F]; constructor; auto. intros H. rewrite Forall_forall in F. specialize (F _ H). lia.
Qed.

Lemma nodup_map : forall (l h : list document), NoDup l -> incl l h -> NoDup (map d_num h) -> NoDup (map d_num l).
Proof.
  induction 1 as [|x l N _ IH]; intros I H; cbn [map]; constructor.
  - rewrite in_map_iff. intros (y & E & Hy). apply N. assert (x = y); [|subst; auto].
    apply (nodup_inj d_num _ H); auto; apply I; [left|right]; auto.
  - apply IH; auto. intros y Hy. apply I. right. auto.
Qed.

Lemma pieces_nums : forall content z c0 ws, Forall (ready content z c0) ws -> NoDup (map (fun w => d_num (fst (fst w))) ws) ->
  NoDup (map (fun p => t_seq (p_doc p)) (pieces_of content ws)).
Proof.
  intros content z c0 ws R. induction R as [|[[d b] e] ws [H C] R' IH]; intros N; [constructor|]. cbn [map] in N. inversion N as [|? ? N1 N2]; subst.
  cbn [pieces_of flat_map]. fold (pieces_of content ws). specialize (IH N2).
  destruct (t_body (st_doc (content d))) as [v|] eqn:Bv; [|exact IH]. destruct (segment _ _ _ _) as [g|]; [|exact IH]. cbn [app map p_doc].
  constructor; auto. intros X. apply in_map_iff in X as (p & E & Hp). destruct (piece_from _ _ _ Hp) as (d' & Hw & Ed & _).
  apply N1. rewrite Forall_forall in R'. destruct (R' _ Hw) as [(_ & H' & _) _]. destruct H as (_ & H & _).
  apply in_map_iff. exists (d', p_begin p, p_end p). split; auto. cbn [fst]. rewrite <- H, <- H', <- Ed. auto.
Qed.

Lemma newest_scheduled a h sid tb cm g s bs b e d r :
  known a h sid tb cm g s bs -> bounds_ok b e ->
  rev (lookup_range doc_eqb (q_tl s) b e) = d :: r -> scheduled h d.
Proof.
  intros Hk Hbe Hr. rewrite (known_lookup _ _ _ _ _ _ _ _ _ _ Hk Hbe) in Hr.
  assert (Hin : In d (map fst (filter (SequenceHistory.sel b e) bs))) by (rewrite in_rev, Hr; left; auto).
  apply in_map_iff in Hin as ([d' x] & E & Hin). cbn in E. subst d'. apply filter_In in Hin as [Hin Hs].
  pose proof (kn_hinv _ _ _ _ _ _ _ _ Hk) as Hi.
  split; [apply (hi_sub _ _ _ _ Hi _ Hin)|]. intros y Hy Hn.
  destruct (hi_dom _ _ _ _ Hi y Hy) as ([p w] & Hp & P1 & P2). cbn [fst] in *.
  destruct (chain_order _ _ _ (rep_chain _ _ (hi_rep _ _ _ _ Hi)) Hin Hp) as [E|[(E1 & E2 & _)|(E1 & E2 & _)]];
    cbn [fst] in *; [inversion E; subst; lia|lia|lia].
Qed.

(** ** One extraction, from a known state *)

Lemma window_props : forall b e t, in_window b e t = true <-> after_begin b t /\ before_end t e.
Proof.
  intros b e t. unfold in_window. rewrite andb_true_iff. destruct b, e; cbn; rewrite ?Z.leb_le, ?Z.ltb_lt; tauto.
Qed.

Lemma tiles_within : forall ws b e t d wb we, tiles b e ws -> In (d, wb, we) ws -> in_window wb we t = true -> in_window b e t = true.
Proof.
  induction ws as [|[[d0 wb0] we0] ws IH]; intros b e t d wb we Ti H W; [destruct H|]. cbn [tiles] in Ti. destruct Ti as (-> & B & Le & N & Ti).
  destruct H as [H|H].
  - inversion H; subst. apply window_props. apply window_props in W. split; [tauto|]. destruct e as [e|]; [|exact I]. destruct we as [we|]; [|contradiction]. cbn in *. lia.
  - specialize (IH _ _ _ _ _ _ Ti H W). apply window_props. apply window_props in IH. split; [|tauto].
    destruct we0 as [y|]; [|rewrite (N eq_refl) in H; destruct H]. cbn in *. destruct b; cbn in *; auto. lia.
Qed.

Lemma empty_looks : forall s n t z, looks_at None z (u_doc (empty_document s n)) t = [].
Proof.
  intros s n t z. unfold empty_document, looks_at. cbn [u_doc t_body].
  destruct (validate _ _) as [[[? ?] [? ? ? ? ?|]]|]; auto; destruct (validate_styles _ _ _) as [[? [? ? ? ?]]|]; auto.
  cbn. destruct (active _ _ _); auto.
Qed.

Lemma nameless_nil : forall l, map nameless l = [] -> l = [].
Proof. intros [|x l] H; [auto|discriminate]. Qed.

Lemma put_pieces : forall content z c0 s ws n, Forall (ready content z c0) ws -> NoDup (map (fun w => d_num (fst (fst w))) ws) ->
  exists u, put_together s (cuts content ws) n = XBuilt u /\ t_seq (u_doc u) = n /\ (pieces_of content ws <> [] -> u_size u = z) /\
    validates (u_size u) (u_doc u) = true /\
    forall t, map nameless (looks_at None (u_size u) (u_doc u) t) = map nameless (flat_map (part_of content t) ws).
Proof.
  intros content z c0 s ws n R N. rewrite (pieces_cuts _ _ _ _ R). destruct (pieces_ok _ _ _ _ R) as (Cut & Pr & Pos & Al).
  assert (Nd := pieces_nums _ _ _ _ R N). assert (Sn := fun t => pieces_seen _ _ _ _ t R).
  destruct (pieces_of content ws) as [|p ps] eqn:Ep.
  - exists (empty_document s n). split; [reflexivity|]. split; [reflexivity|]. split; [congruence|]. split; [reflexivity|].
    intros t. rewrite empty_looks, <- (Sn t). auto.
  - assert (Was : Forall was_cut (p :: ps)) by (eapply Forall_impl; [|exact Cut]; apply cut_at_was).
    destruct (C33_segments (p :: ps) n ltac:(discriminate) Was Pos Nd) as (x & bx & Sp & Bx & Nx & _).
    destruct (C51_segments_joined _ _ _ _ _ Sp Cut Pos Nd Al) as [Vx Lx]. specialize (Lx Pr).
    assert (Em : map snd (map (fun p => (z, p_seg p)) (p :: ps)) = map p_seg (p :: ps)) by (rewrite map_map; apply map_ext; auto).
    unfold put_together. rewrite Em, Sp. cbn [map]. rewrite (validates_ok _ _ _ Bx Nx Vx).
    exists (mkBuilt (q_sid s ++ "_resegmented") z x). cbn [u_doc u_size]. split; [reflexivity|]. split.
    { unfold splice in Sp. cbn [map] in Sp. destruct (merge_all _ _) as [m|]; [|discriminate]. cbn [pbind] in Sp. inversion Sp. auto. }
    split; [auto|]. split; [eapply validates_ok; eauto|]. intros t. rewrite Lx, (Sn t). auto.
Qed.

Theorem extract_known a h sid tb cm g s bs b e content z c0 n discard :
  known a h sid tb cm g s bs -> bounds_ok b e -> Forall (ready content z c0) (asked s b e) ->
  exists u s' ws, extract content s b e n discard = (s', XBuilt u) /\ seq_extract s b e discard = (s', Ok ws) /\
    t_seq (u_doc u) = given_number n /\ validates (u_size u) (u_doc u) = true /\ looks_like content h b e u.
Proof.
  intros Hk Hbe R. destruct (known_windows_iff _ _ _ _ _ _ _ _ _ _ Hk Hbe) as (ws & Hw & Ti & Ac).
  unfold asked in R. rewrite Hw in R.
  assert (Nn : NoDup (map (fun w => d_num (fst (fst w))) ws)).
  { rewrite <- (map_map (fun w : document * option Z * option Z => fst (fst w)) d_num), (windows_docs _ _ _ _ _ Hw).
    destruct (known_lookup_spec _ _ _ _ _ _ _ _ _ _ Hk Hbe) as [_ So]. apply nodup_map with (h := h).
    - apply sorted_nodup. auto.
    - intros d Hd. rewrite (known_lookup _ _ _ _ _ _ _ _ _ _ Hk Hbe) in Hd. apply in_map_iff in Hd as ([d' x] & E & Hd). cbn in E. subst.
      apply filter_In in Hd as [Hd _]. apply (hi_sub _ _ _ _ (kn_hinv _ _ _ _ _ _ _ _ Hk) _ Hd).
    - apply (kn_num _ _ _ _ _ _ _ _ Hk). }
  destruct (put_pieces content z c0 s ws (given_number n) R Nn) as (u & Pu & Un & _ & Vu & Lu).
  assert (Sx : exists s', seq_extract s b e discard = (s', Ok ws)).
  { unfold seq_extract. rewrite Hw. destruct discard; [|eauto].
    destruct (rev (lookup_range doc_eqb (q_tl s) b e)) as [|d r] eqn:Er; [eauto|].
    destruct (known_forget _ _ _ _ _ _ _ _ d Hk (newest_scheduled _ _ _ _ _ _ _ _ _ _ _ _ Hk Hbe Er)) as (s' & E & _). rewrite E. eauto. }
  destruct Sx as (s' & Sx). exists u, s', ws. unfold extract. rewrite Hw, Pu, Sx. split; auto. split; auto. split; auto. split; auto.
  intros t T. subst T. set (T := ms_last t) in *.
  assert (None_shown : (forall d wb we, In (d, wb, we) ws -> in_window wb we T = true -> as_seen (content d) T = []) -> looks_at None (u_size u) (u_doc u) t = []).
  { intros Q. apply nameless_nil. rewrite (Lu t). replace (flat_map (part_of content t) ws) with (@nil seen); auto. symmetry.
    clear - Q. induction ws as [|[[d b] e] ws IH]; auto. cbn [flat_map]. rewrite IH by (intros; eapply Q; [right|]; eauto).
    unfold part_of. fold T. destruct (in_window b e T) eqn:W; auto. rewrite (Q d b e); auto. left. auto. }
  assert (Seen : forall d wb we, In (d, wb, we) ws -> as_seen (content d) T <> [] -> d_begin d <= T).
  { intros d wb we Hw' Sn. rewrite Forall_forall in R. destruct (R _ Hw') as [(_ & _ & _ & Hb) _].
    destruct (t_body (st_doc (content d))) as [v|] eqn:Bv; [|unfold as_seen in Sn; rewrite Bv in Sn; congruence].
    destruct Hb as (_ & _ & (av & V & _) & _). destruct (body_times _ _ _ _ V) as [Eb _].
    destruct (Z_le_gt_dec (d_begin d) T); auto. exfalso. apply Sn. eapply nothing_outside; eauto. unfold active. apply andb_false_iff. left. apply Z.leb_gt. lia. }
  split; [|split].
  - intros Out. apply None_shown. intros d wb we Hin W. exfalso.
    rewrite (tiles_within _ _ _ _ _ _ _ Ti Hin W) in Out. discriminate.
  - intros d In' A. apply window_props in In' as [I1 I2]. apply (Ac _ _ I1 I2) in A. destruct A as (wb & we & Hin & W1 & W2 & _).
    assert (W : in_window wb we T = true) by (apply window_props; auto). rewrite (Lu t), (one_window _ _ _ _ _ _ _ _ Ti Hin W).
    unfold part_of. fold T. rewrite W. reflexivity.
  - intros No. destruct (in_window b e T) eqn:In'.
    + apply window_props in In' as [I1 I2]. apply None_shown. intros d wb we Hin W. apply window_props in W as [W1 W2].
      destruct (as_seen (content d) T) as [|x l] eqn:E; auto. exfalso. apply (No d). apply (Ac _ _ I1 I2). exists wb, we. split; auto. split; auto. split; auto.
      eapply Seen; eauto. congruence.
    + apply None_shown. intros d wb we Hin W. exfalso. rewrite (tiles_within _ _ _ _ _ _ _ Ti Hin W) in In'. discriminate.
Qed.

Theorem C52_extract : forall sid tb cm agid g ops s os b e n discard content z c0,
  (agid = None \/ agid = Some g) -> Forall (op_belongs sid tb cm g) ops -> ops_ok [] [] ops ->
  run_ops (new_sequence sid tb cm agid) ops = (s, os) -> bounds_ok b e ->
  Forall (ready content z c0) (asked s b e) ->
  exists u s' ws, extract content s b e n discard = (s', XBuilt u) /\ seq_extract s b e discard = (s', Ok ws) /\
    t_seq (u_doc u) = given_number n /\ validates (u_size u) (u_doc u) = true /\
    looks_like content (live_after [] ops) b e u.
Proof.
  intros sid tb cm agid g ops s os b e n discard content z c0 Hg Hb Hok Hrun Hbe R.
  destruct (run_ops_known sid tb cm g ops [] [] _ _ (known_new sid tb cm agid g Hg) Hb Hok) as (s' & os' & a & bs & H1 & H2 & H3).
  rewrite Hrun in H1. injection H1 as <- <-. eapply extract_known; eauto.
Qed.

(** ** The node *)

Section Node.
Variables (content : document -> stored) (out : string) (len start : Z) (discard : bool).
Variables (sid tb : string) (cm : option string) (g : string) (z : sizing) (c0 : computed).

Notation at_ l := (run (reseq_content content out len discard) (r0 start) l).
Definition sim (i : cinput) : rinput := match i with CDoc d => RDoc d | CTick => RTick true end.
Notation sim_at l := (run (reseq_step out len discard) (r0 start) (map sim l)).

Lemma rdocs_sim : forall l, rdocs (map sim l) = arrivals l.
Proof. induction l as [|[d|] l IH]; cbn; congruence. Qed.

(** What is asked for at a tick after [l]. *)
Definition tick_ready (l : list cinput) : Prop :=
  forall q, rs_seq (fst (at_ l)) = Some (Some q) ->
  Forall (ready content z c0) (asked q (Some (rs_end (fst (at_ l)))) (Some (rs_end (fst (at_ l)) + len))).

Lemma documents_app : forall A (l1 l2 : list (A + built)), documents (l1 ++ l2) = (documents l1 ++ documents l2)%list.
Proof. induction l1 as [|[a|u] l1 IH]; intros l2; cbn; auto. rewrite IH. auto. Qed.

Hypothesis Hlen : 0 <= len.
Hypothesis Hclock : clock_of tb cm <> None.

Lemma arrivals_app : forall l1 l2, arrivals (l1 ++ l2) = (arrivals l1 ++ arrivals l2)%list.
Proof. induction l1 as [|[d|] l1 IH]; intros l2; cbn; auto. rewrite IH. auto. Qed.

Definition stream (l : list cinput) : Prop :=
  Forall (ReseqProofs.fits sid tb cm g) (arrivals l) /\ in_order None (arrivals l) /\ NoDup (map d_obj (arrivals l)).

Lemma stream_app : forall l1 l2, stream (l1 ++ l2) -> stream l1.
Proof.
  intros l1 l2 (F & O & N). rewrite arrivals_app in *. split; [apply Forall_app in F; tauto|]. split.
  - clear F N. revert O. generalize (@None Z). induction (arrivals l1) as [|d r IH]; intros o O; cbn in *; auto. destruct O as [O1 O2]. split; eauto.
  - rewrite map_app in N. eapply NoDup_app_l; eauto.
Qed.

(** One tick. *)
Lemma tick_built : forall l, stream l -> fst (at_ l) = fst (sim_at l) -> tick_ready l -> arrivals l <> [] ->
  exists u q', reseq_content content out len discard (fst (at_ l)) CTick =
      (mkR (Some (Some q')) (rs_first (fst (at_ l))) (rs_end (fst (at_ l)) + len) (rs_counter (fst (at_ l)) + 1), inr (mkBuilt out (u_size u) (u_doc u))) /\
    fst (reseq_content content out len discard (fst (at_ l)) CTick) = fst (reseq_step out len discard (fst (sim_at l)) (RTick true)) /\
    t_seq (u_doc u) = given_number (Some (rs_counter (fst (at_ l)))) /\ validates (u_size u) (u_doc u) = true /\
    looks_like content (arrivals l) (Some (rs_end (fst (at_ l)))) (Some (rs_end (fst (at_ l)) + len)) u.
Proof.
  intros l (F & O & N) E R Ne. rewrite <- rdocs_sim in F, O, N, Ne. destruct (going_holds out len start discard sid tb cm g (map sim l) Hlen Hclock F O N) as [[_ Gs] _].
  destruct (Gs Ne) as (q & h & bs & Eq & _ & Kn & Inc & Hid). rewrite <- E in Eq, Hid. specialize (R _ Eq).
  set (s := fst (at_ l)) in *.
  assert (Hb : bounds_ok (Some (rs_end s)) (Some (rs_end s + len))) by (cbn; lia).
  destruct (extract_known _ _ _ _ _ _ _ _ _ _ content z c0 (Some (rs_counter s)) discard Kn Hb R) as (u & q' & ws & X & Sx & Un & Vu & Lk).
  exists u, q'. unfold reseq_content. rewrite Eq, X. split; [reflexivity|]. split.
  { cbn [fst reseq_step]. rewrite <- E. unfold tick. rewrite Eq, andb_true_r, Sx. reflexivity. }
  split; [exact Un|]. split; [exact Vu|]. intros t T. destruct (Lk t) as (L1 & L2 & L3). fold T in L1, L2, L3.
  assert (Ac : forall d, in_window (Some (rs_end s)) (Some (rs_end s + len)) T = true -> (SequenceSpec.active (arrivals l) T d <-> SequenceSpec.active h T d)).
  { intros d W. apply window_props in W. rewrite <- rdocs_sim. apply (hidden_active _ _ (rs_end s)); auto. cbn in W. tauto. }
  split; [auto|]. split.
  - intros d W A. apply L2; auto. apply Ac; auto.
  - intros No. destruct (in_window (Some (rs_end s)) (Some (rs_end s + len)) T) eqn:W; [|auto]. apply L3. intros d A. apply (No d). apply Ac; auto.
Qed.

Lemma same_state : forall l, stream l -> (forall l1 l2, l = (l1 ++ CTick :: l2)%list -> tick_ready l1) ->
  fst (at_ l) = fst (sim_at l) /\
  rs_end (fst (at_ l)) = start + Z.of_nat (List.length (documents (snd (at_ l)))) * len /\
  rs_counter (fst (at_ l)) = Z.of_nat (List.length (documents (snd (at_ l)))) + 1.
Proof.
  induction l as [|i l IH] using rev_ind; intros St R.
  - cbn. split; auto. split; lia.
  - destruct IH as (E & Ee & Ec).
    + eapply stream_app; eauto.
    + intros l1 l2 El. apply (R l1 (l2 ++ [i])%list). rewrite El, <- app_assoc. auto.
    + rewrite map_app. cbn [map]. rewrite !NodeProofs.run_state_snoc, NodeProofs.run_out_snoc, documents_app. destruct i as [d|].
      * cbn [sim reseq_content reseq_step]. rewrite <- E.
        assert (Q : rs_end (fst (consume (fst (at_ l)) d)) = rs_end (fst (at_ l)) /\ rs_counter (fst (consume (fst (at_ l)) d)) = rs_counter (fst (at_ l))).
        { unfold consume. destruct (limit_one _ _) as [f []]; cbn [negb]; auto. destruct (match rs_seq _ with Some q => q | None => _ end); auto.
          destruct (add_document _ _). auto. }
        destruct (consume (fst (at_ l)) d) as [s' r]. cbn [fst snd documents] in *. rewrite app_nil_r. destruct Q as [-> ->]. auto.
      * destruct (arrivals l) as [|d r] eqn:Al.
        -- destruct (going_holds out len start discard sid tb cm g (map sim l) Hlen Hclock) as [[Ge _] _]; [rewrite rdocs_sim, Al; constructor| rewrite rdocs_sim, Al; exact I| rewrite rdocs_sim, Al; constructor|].
           assert (Es : fst (at_ l) = r0 start) by (rewrite E; apply Ge; rewrite rdocs_sim; auto).
           rewrite Es in *. rewrite <- E. cbn [sim reseq_content reseq_step r0 rs_seq fst snd tick documents]. rewrite app_nil_r. auto.
        -- destruct (tick_built l) as (u & q' & X & Y & _); auto.
           { eapply stream_app; eauto. } { apply (R l []). auto. } { congruence. }
           split; [exact Y|]. rewrite X. cbn [fst snd rs_end rs_counter documents]. rewrite app_length, Ee, Ec. cbn [List.length].
           rewrite Nat.add_1_r. split; lia.
Qed.

End Node.

Theorem C52_resequencer : forall content out len start discard sid tb cm g z c0 l l1 l2,
  0 <= len -> clock_of tb cm <> None -> stream sid tb cm g l ->
  (forall l1 l2, l = (l1 ++ CTick :: l2)%list -> tick_ready content out len start discard z c0 l1) ->
  l = (l1 ++ CTick :: l2)%list -> arrivals l1 <> [] ->
  let r := run (reseq_content content out len discard) (r0 start) l1 in
  let k := Z.of_nat (List.length (documents (snd r))) in
  exists u, snd (reseq_content content out len discard (fst r) CTick) = inr u /\
    u_sid u = out /\ t_seq (u_doc u) = k + 1 /\ validates (u_size u) (u_doc u) = true /\
    looks_like content (arrivals l1) (Some (start + k * len)) (Some (start + (k + 1) * len)) u.
Proof.
  intros content out len start discard sid tb cm g z c0 l l1 l2 Hl Hc St R El Ne r k.
  assert (St1 : stream sid tb cm g l1) by (rewrite El in St; eapply stream_app; eauto).
  destruct (same_state content out len start discard sid tb cm g z c0 Hl Hc l1 St1) as (E & Ee & Ec).
  { intros a b E. apply (R a (b ++ CTick :: l2)%list). rewrite El, E, <- app_assoc. auto. }
  destruct (tick_built content out len start discard sid tb cm g z c0 Hl Hc l1 St1 E (R _ _ El) Ne) as (u & q' & X & _ & Un & Vu & Lk).
  fold r in Ee, Ec, X, Un, Lk. fold k in Ee, Ec. exists (mkBuilt out (u_size u) (u_doc u)). rewrite X. cbn [snd u_sid u_doc u_size]. split; auto. split; auto.
  split. { rewrite Un, Ec. unfold given_number. destruct (Z.eqb_spec (k + 1) 0); auto. unfold k in *. lia. }
  split; auto. rewrite Ee in Lk. replace (start + (k + 1) * len) with (start + k * len + len) by lia.
  intros t. apply (Lk t).
Qed.

(** ** Documents that can be cut anywhere *)

Notation wins := SequenceHistory.win.

Lemma win_in : forall l b e d wb we, In (d, wb, we) (wins l b e) ->
  (wb = b \/ exists p x, In (p, x) l /\ wb = clip x e) /\ exists x, In (d, x) l /\ we = clip x e.
Proof.
  induction l as [|[p x] l IH]; intros b e d wb we H; cbn [SequenceHistory.win] in H; [destruct H|]. destruct H as [H|H].
  - inversion H; subst. split; [auto|]. exists x. split; [left|]; auto.
  - destruct (IH _ _ _ _ _ H) as [[->|(p' & x' & Hi & ->)] (y & Hy & ->)]; split; try (exists y; split; [right|]; auto); right.
    + exists p, x. split; [left|]; auto.
    + exists p', x'. split; [right|]; auto.
Qed.

(** Only a document without duration gets an empty window. *)
Lemma win_strict : forall l b e b0, SequenceProofs.chain l -> Forall (fun k => SequenceHistory.sel b0 (Some e) k = true) l ->
  b < e -> match l with (p, Some x) :: _ => b < x \/ x = d_begin p /\ b <= x | _ => True end ->
  forall d wb we, In (d, wb, we) (wins l (Some b) (Some e)) ->
  exists lo hi, wb = Some lo /\ we = Some hi /\ b <= lo <= hi /\ hi <= e /\ (lo < hi \/ In (d, Some (d_begin d)) l).
Proof.
  induction l as [|[p x] l IH]; intros b e b0 [Ok So] Se Hbe Hd d wb we H; cbn [SequenceHistory.win] in H; [destruct H|].
  inversion Ok as [|? ? O1 Ok']; subst. inversion So as [|? ? So' Fo]; subst. inversion Se as [|? ? S1 Se']; subst.
  unfold SequenceHistory.sel in S1. cbn [fst snd] in S1. apply andb_true_iff in S1 as [S1 _]. apply Z.ltb_lt in S1. destruct H as [H|H].
  - inversion H; subst. exists b. unfold clip. destruct x as [x|].
    + cbn in O1. destruct (Z.ltb_spec e x).
      * exists e. repeat split; auto; try lia.
      * exists x. repeat split; auto; try lia. destruct Hd as [Hd|[-> Hd]]; [left; lia|]. right. left. auto.
    + exists e. repeat split; auto; lia.
  - destruct l as [|[p' x'] l]; [destruct H|]. inversion Fo as [|? ? F1 _]; subst. destruct F1 as (_ & Hbb & y & Ey & Hy). cbn [fst snd] in *. subst x.
    inversion Se' as [|? ? S2 _]; subst. unfold SequenceHistory.sel in S2. cbn [fst snd] in S2. apply andb_true_iff in S2 as [S2 _]. apply Z.ltb_lt in S2.
    assert (Cl : clip (Some y) (Some e) = Some y) by (unfold clip; destruct (Z.ltb_spec e y); auto; lia). rewrite Cl in H.
    destruct (IH y e b0) with (d := d) (wb := wb) (we := we) as (lo & hi & A & B & C & D & E); auto.
    + split; auto.
    + lia.
    + destruct x' as [x'|]; auto. inversion Ok' as [|? ? O2 _]; subst. cbn in O2. lia.
    + exists lo, hi. repeat split; auto; try lia. destruct E; [left; auto|right; right; auto].
Qed.

Lemma divide_clip : forall x e, match x with Some y => (1000 | y) | None => True end -> (1000 | e) ->
  exists y, clip x (Some e) = Some y /\ (1000 | y).
Proof. intros [y|] e Hx He; cbn; [destruct (e <? y)|]; eauto. Qed.

(** What a known sequence asks for. *)
Lemma tidy_asked a h sid tb cm g s bs b e content z c0 :
  known a h sid tb cm g s bs -> (forall d, In d h -> cut_anywhere z c0 d (content d)) ->
  (1000 | b) -> (1000 | e) -> 0 <= b < e -> e < h100 ->
  Forall (ready content z c0) (asked s (Some b) (Some e)).
Proof.
  intros Kn T Db De Hb He. unfold asked. assert (Hi := kn_hinv _ _ _ _ _ _ _ _ Kn).
  rewrite (known_lookup _ _ _ _ _ _ _ _ _ _ Kn) by (cbn; lia). rewrite extract_windows_win.
  2: { intros p x Hin. apply filter_In in Hin. eapply known_resolved; [eassumption|apply Hin]. }
  set (l := filter _ bs). assert (In_bs : forall k, In k l -> In k bs) by (intros k Hk; apply filter_In in Hk; tauto).
  assert (Ch : SequenceProofs.chain l) by (apply chain_filter; apply (hi_rep _ _ _ _ Hi)).
  assert (Se : Forall (fun k => SequenceHistory.sel (Some b) (Some e) k = true) l) by (apply Forall_forall; intros k Hk; apply filter_In in Hk; tauto).
  assert (Dx : forall p x, In (p, x) l -> match x with Some y => (1000 | y) | None => True end).
  { intros p x Hp. apply In_bs in Hp. destruct (hi_exact _ _ _ _ Hi _ _ Hp) as [->|(q & eq & Hq & _ & -> & _)].
    - apply (T p). apply (hi_sub _ _ _ _ Hi _ Hp).
    - apply (T q). apply (hi_sub _ _ _ _ Hi _ Hq). }
  apply Forall_forall. intros [[d wb] we] Hw. destruct (win_in _ _ _ _ _ _ Hw) as [Wb (x & Hx & We)].
  assert (Hd : In d h) by (apply (hi_sub _ _ _ _ Hi (d, x)); auto). destruct (T _ Hd) as (Ho & _ & _ & Tv). split; [exact Ho|].
  destruct (win_strict l b e (Some b) Ch Se) with (d := d) (wb := wb) (we := we) as (lo & hi & -> & -> & Hlo & Hhi & St); auto; [lia| |].
  { destruct l as [|[p [y|]] r]; auto. inversion Se as [|? ? S1 _]; subst. unfold SequenceHistory.sel in S1. cbn [fst snd] in S1. apply andb_true_iff in S1 as [_ S1]. apply Z.ltb_lt in S1. auto. }
  intros v Bv. destruct (Tv _ Bv) as (Nz & Cu). apply (Cu lo hi); auto; try lia.
  - destruct Wb as [Wb|(p & y & Hp & Wb)]; [inversion Wb; subst; auto|]. destruct (divide_clip y e (Dx _ _ Hp) De) as (y' & E & D). congruence.
  - destruct (divide_clip x e (Dx _ _ Hx) De) as (y' & E & D). congruence.
  - destruct St as [St|St]; [lia|]. exfalso. apply Nz. apply In_bs in St. destruct (hi_exact _ _ _ _ Hi _ _ St) as [E|(q & eq & Hq & Nq & E & _)]; auto.
    inversion E as [Eb]. destruct (chain_order _ _ _ (rep_chain _ _ (hi_rep _ _ _ _ Hi)) St Hq) as [E1|[(_ & E1 & _)|(_ & E1 & _)]]; cbn [fst] in *; try lia.
    inversion E1; subst. lia.
Qed.

Lemma documents_length : forall A (l : list (A + built)), (List.length (documents l) <= List.length l)%nat.
Proof. induction l as [|[a|u] l IH]; cbn; lia. Qed.
Lemma run_length : forall S I O (f : S -> I -> S * O) l s, List.length (snd (run f s l)) = List.length l.
Proof. induction l as [|i l IH]; intros s; cbn; auto. destruct (f s i) as [s' o]. specialize (IH s'). destruct (run f s' l). cbn in *. lia. Qed.

Lemma tidy_ready : forall content out len start discard sid tb cm g z c0 l,
  0 < len -> clock_of tb cm <> None -> stream sid tb cm g l ->
  (forall d, In d (arrivals l) -> cut_anywhere z c0 d (content d)) -> (1000 | start) -> (1000 | len) -> 0 <= start ->
  start + Z.of_nat (List.length l) * len < h100 ->
  forall l1 l2, l = (l1 ++ CTick :: l2)%list -> tick_ready content out len start discard z c0 l1.
Proof.
  intros content out len start discard sid tb cm g z c0 l Hl Hc. induction l as [|i l IH] using rev_ind; intros St T Ds Dl H0 Hh l1 l2 E.
  { destruct l1; discriminate. }
  assert (St' := stream_app _ _ _ _ _ _ St). rewrite app_length in Hh. cbn [List.length] in Hh.
  assert (R : forall a b, l = (a ++ CTick :: b)%list -> tick_ready content out len start discard z c0 a).
  { apply IH; auto; [|lia]. intros d Hd. apply T. rewrite arrivals_app. apply in_or_app. auto. }
  destruct l2 as [|j l2].
  2: { destruct (@exists_last _ (j :: l2)) as (l3 & y & E3); [discriminate|]. rewrite E3, app_comm_cons, app_assoc in E.
       apply app_inj_tail in E as [E _]. eapply R; eauto. }
  apply app_inj_tail in E as [<- ->]. intros q Eq.
  assert (Hlen : 0 <= len) by lia.
  destruct (same_state content out len start discard sid tb cm g z c0 Hlen Hc l St' R) as (Es & Ee & _).
  set (k := List.length (documents _)) in Ee.
  assert (Hk : (k <= List.length l)%nat) by (unfold k; etransitivity; [apply documents_length|rewrite run_length; auto]).
  destruct St' as (F & O & N). rewrite <- rdocs_sim in F, O, N.
  destruct (going_holds out len start discard sid tb cm g (map sim l) Hlen Hc F O N) as [[Ge Gs] _].
  assert (Ne : rdocs (map sim l) <> []).
  { intros Er. rewrite Es, (Ge Er) in Eq. discriminate. }
  destruct (Gs Ne) as (q' & h & bs & Eq' & _ & Kn & Inc & _).
  rewrite <- Es in Eq'. assert (q' = q) by congruence. subst q'.
  assert (Z.of_nat k * len <= Z.of_nat (List.length l) * len) by (apply Z.mul_le_mono_nonneg_r; lia).
  assert (0 <= Z.of_nat k * len) by (apply Z.mul_nonneg_nonneg; lia).
  eapply tidy_asked; eauto.
  - intros d Hd. apply T. rewrite arrivals_app. apply in_or_app. left. rewrite <- rdocs_sim. apply Inc. auto.
  - rewrite Ee. apply Z.divide_add_r; auto. apply Z.divide_mul_r; auto.
  - rewrite Ee. apply Z.divide_add_r; auto. apply Z.divide_add_r; auto. apply Z.divide_mul_r; auto.
  - lia.
  - lia.
Qed.

Theorem C52_stream : forall content out len start discard sid tb cm g z c0 l1 l2,
  let l := (l1 ++ CTick :: l2)%list in
  0 < len -> clock_of tb cm <> None -> stream sid tb cm g l ->
  (forall d, In d (arrivals l) -> cut_anywhere z c0 d (content d)) -> (1000 | start) -> (1000 | len) -> 0 <= start ->
  start + Z.of_nat (List.length l) * len < h100 -> arrivals l1 <> [] ->
  let r := run (reseq_content content out len discard) (r0 start) l1 in
  let k := Z.of_nat (List.length (documents (snd r))) in
  exists u, snd (reseq_content content out len discard (fst r) CTick) = inr u /\
    u_sid u = out /\ t_seq (u_doc u) = k + 1 /\ validates (u_size u) (u_doc u) = true /\
    looks_like content (arrivals l1) (Some (start + k * len)) (Some (start + (k + 1) * len)) u.
Proof.
  intros content out len start discard sid tb cm g z c0 l1 l2 l Hl Hc St T Ds Dl H0 Hh Ne.
  apply (C52_resequencer content out len start discard sid tb cm g z c0 l l1 l2); auto; [lia|].
  intros a b E. apply (tidy_ready content out len start discard sid tb cm g z c0 l) with (l2 := b); auto.
Qed.

(** What makes a document tidy. *)
Theorem C52_cuttable : forall z c0 d c v stl lay b e, holds z c0 d c ->
  t_body (st_doc c) = Some v -> t_styling (st_doc c) = Some stl -> t_layout (st_doc c) = Some lay ->
  presentable (Some b) (Some e) v -> Forall (busy (Some b) (Some e)) (vb_kids v) -> 0 <= b < h100 -> 1000 <= e < h100 ->
  cuttable c (Some b) (Some e).
Proof.
  intros z c0 d c v stl lay b e Ho Bv St La P Bz Hb He v' Bv'. assert (v' = v) by congruence. subst v'.
  split; auto. split; [exact (proj2 Hb)|]. split; [exact He|]. intros Is. destruct Ho as (_ & _ & _ & Ho). rewrite Bv in Ho.
  destruct Ho as (Ck & Fl & (avail & V & Av) & Nn & _). destruct P as (Fi & Sh & _ & To & _).
  eapply C31_made; eauto. eapply at_checked; eauto.
Qed.

(** ** Cases *)

Local Open Scope string_scope.

(** A document with one paragraph, of text and a span, all of its duration. *)
Definition line_body (b e : tattr) : vbody :=
  let lo := ta_us b in let hi := Some (ta_us e) in
  mkVbody None (Some b) (Some e) None lo hi []
   [VNode Div (Some "d1") (Some "r1") (Some ["s1"]) None None lo hi ["s1"] (Some "r1")
     [VNode P (Some "p1") None None None None lo hi ["s1"] (Some "r1")
       [VText "Hello "; VNode Span None None (Some ["s2"]) None None lo hi ["s2"; "s1"] (Some "r1") [VText "world"]]]].
Definition line (n : Z) (b e : tattr) : docu vbody := mkDocu Media n (t_styling doc_l) doc1_layout (Some (line_body b e)).
Definition line1 := line 1 (mkTattr "00:00:01.000" 1000000) (mkTattr "00:00:10.000" 10000000).
Definition line2 := line 2 (mkTattr "00:00:05.000" 5000000) (mkTattr "00:00:12.000" 12000000).
(** The third document has no body: it ends what is shown. *)
Definition blank3 : docu vbody := mkDocu Media 3 (t_styling doc_l) doc1_layout None.
Definition doc_1 := mkDoc 1 "s" "media" None None 1 1000000 (Some 10000000).
Definition doc_2 := mkDoc 2 "s" "media" None None 2 5000000 (Some 12000000).
Definition doc_3 := mkDoc 3 "s" "media" None None 3 8000000 (Some 8000000).
Definition contents (d : document) : stored :=
  mkStored (if Z.eqb (d_num d) 1 then line1 else if Z.eqb (d_num d) 2 then line2 else blank3) z0.
Definition c_none : computed := match body_computed z0 (unchecked line1) with Some k => k | None => mkC no_attrs [] false end.

Lemma line_holds : holds z0 c_none doc_1 (contents doc_1) /\ holds z0 c_none doc_2 (contents doc_2).
Proof.
  split; (split; [cbn; lia|]; split; [reflexivity|]; split; [reflexivity|]; split; [checked_at|]; split; [reflexivity|];
    split; [exists None; split; [vm_compute; reflexivity|cbn; lia]|]; split;
    [split; [|split; [|split]]; cbn; auto; try lia; ok_tree; cbn; auto|eexists; split; [vm_compute; reflexivity|]; apply as_parent_ceq; apply ceq_refl]).
Qed.

Lemma line_anywhere : forall z c0 d c n b e v, holds z c0 d c -> st_doc c = line n b e -> v = line_body b e ->
  (1000 | ta_us b) -> (1000 | ta_us e) -> 0 <= ta_us b < ta_us e -> ta_us e < h100 ->
  forall lo hi, (1000 | lo) -> (1000 | hi) -> 0 <= lo < hi -> hi < h100 -> cuttable c (Some lo) (Some hi).
Proof.
  intros z c0 d c n b e v Ho Ec -> Db De Hbe He lo hi Dl Dh Hlh Hh.
  assert (H1 : 1000 <= ta_us e) by (apply Z.divide_pos_le; auto; lia). assert (H2 : 1000 <= hi) by (apply Z.divide_pos_le; auto; lia).
  eapply C52_cuttable; eauto; try (rewrite Ec; reflexivity); try (unfold h100 in *; lia).
  - split; [|split; [|split; [|split]]]; cbn [vb_kids line_body]; ok_tree; try reflexivity; try (cbn; unfold h100 in *; lia); try discriminate.
    intros _ _ Is. split; [ok_tree|]. intros t Ht. unfold is_in_segment in Is. unfold trim_end in Ht. unfold trim_begin.
    apply Z.div_lt_upper_bound; [lia|]. assert (Dt : (1000 | t)) by (destruct (hi <? ta_us e)%Z; inversion Ht; subst; auto).
    destruct Dt as (u & ->). rewrite Z.div_mul by lia. rewrite (Z.mul_comm 1000).
    destruct (Z.leb_spec (ta_us e) lo), (Z.leb_spec hi (ta_us b)); try discriminate.
    destruct (Z.ltb_spec hi (ta_us e)); inversion Ht; destruct (Z.ltb_spec (ta_us b) lo); lia.
  - cbn [vb_kids line_body]. constructor; [|constructor]. constructor.
    + intros _ Is. eexists. split; [eapply part_below; [left; reflexivity|apply part_here]|]. split; [reflexivity|exact Is].
    + repeat (constructor; try discriminate).
Qed.

(** The hypotheses of C52_stream hold of the stream of the three documents, cut
    into segments of four seconds. *)
Definition arriving : list cinput := [CTick; CDoc doc_1; CTick; CDoc doc_2; CTick; CDoc doc_3; CTick].
Example C52_case_meets : stream "s" "media" None "g" arriving /\ clock_of "media" None <> None /\
  (forall d, In d (arrivals arriving) -> cut_anywhere z0 c_none d (contents d)).
Proof.
  split; [|split; [discriminate|]].
  { split; [|split].
    - cbn [arrivals arriving]. repeat constructor; cbn; auto; lia.
    - cbn. lia.
    - cbn. repeat (apply NoDup_cons; [cbn; intuition discriminate|]); apply NoDup_nil. }
  destruct line_holds as [H1 H2].
  intros d [<-|[<-|[<-|[]]]].
  - split; [exact H1|]. split; [exists 1000; reflexivity|]. split; [exists 10000; reflexivity|]. intros v _. split; [discriminate|].
    intros b e Db De Hb He. eapply (line_anywhere z0 c_none doc_1); eauto; try reflexivity; cbn; unfold h100; try lia; [exists 1000|exists 10000]; reflexivity.
  - split; [exact H2|]. split; [exists 5000; reflexivity|]. split; [exists 12000; reflexivity|]. intros v _. split; [discriminate|].
    intros b e Db De Hb He. eapply (line_anywhere z0 c_none doc_2); eauto; try reflexivity; cbn; unfold h100; try lia; [exists 5000|exists 12000]; reflexivity.
  - split; [|split; [exists 8000; reflexivity|split; [exists 8000; reflexivity|discriminate]]].
    split; [cbn; lia|]. split; [reflexivity|]. split; reflexivity.
Qed.

(** Those of C52_extract, for the first two documents. *)
Example C52_extract_meets : exists s os, let ops := [Deliver doc_1; Deliver doc_2] in
  run_ops (new_sequence "s" "media" None None) ops = (s, os) /\ Forall (op_belongs "s" "media" None "g") ops /\ ops_ok [] [] ops /\
  bounds_ok (Some 2000000) (Some 9000000) /\ Forall (ready contents z0 c_none) (asked s (Some 2000000) (Some 9000000)) /\
  map (fun w => (d_num (fst (fst w)), snd (fst w), snd w)) (asked s (Some 2000000) (Some 9000000)) =
    [(1%Z, Some 2000000, Some 5000000); (2%Z, Some 5000000, Some 9000000)].
Proof.
  eexists _, _. cbv zeta. set (ops := [Deliver doc_1; Deliver doc_2]). split; [vm_compute; reflexivity|].
  assert (B : Forall (op_belongs "s" "media" None "g") ops) by (repeat constructor; cbn; auto).
  assert (O : ops_ok [] [] ops) ; [cbn; split; [split; cbn; lia|]; split; [right; intros ? []|]; split; [tauto|]; split; [tauto|];
    split; [split; cbn; lia|]; split; [right; intros ? [<-|[]]; cbn; lia|]; split; [lia|]; split; [lia|exact I]|].
  split; [exact B|]. split; [exact O|]. split; [cbn; lia|]. split; [|vm_compute; reflexivity].
  destruct (run_ops_known "s" "media" None "g" ops [] [] _ _ (known_new "s" "media" None None "g" (or_introl eq_refl)) B O) as (s' & os' & a & bs & H1 & _ & H3).
  vm_compute in H1. inversion H1; subst. eapply tidy_asked; eauto; try lia; try (unfold h100; lia).
  - intros d Hd. apply C52_case_meets. vm_compute in Hd. vm_compute. tauto.
  - exists 2000. reflexivity.
  - exists 9000. reflexivity.
Qed.

Definition at_time (t : Z) (u : built) : list string := map (fun x => fst x) (flat_map glance (looks_at None (u_size u) (u_doc u) t)).
Example C52_case : map (fun u => (u_sid u, t_seq (u_doc u), map (fun s => at_time (s * 1000000) u) [0; 1; 4; 5; 7; 8; 9]))
    (documents (snd (run (reseq_content contents "out" 4000000 true) (r0 0) arriving))) =
  [("out", 1%Z, [[]; ["SEQ1.d1"; "SEQ1.p1"; ""]; []; []; []; []; []]);
   ("out", 2%Z, [[]; []; ["SEQ1.d1"; "SEQ1.p1"; ""]; ["SEQ2.d1"; "SEQ2.p1"; ""]; ["SEQ2.d1"; "SEQ2.p1"; ""]; []; []]);
   ("out", 3%Z, [[]; []; []; []; []; []; []])].
Proof. vm_compute. reflexivity. Qed.

(** ** Where it fails *)

(** A document whose head has no layout is not presented; that is logged, and an
    empty document returned. *)
Definition bare : docu vbody :=
  mkDocu Media 1 (t_styling doc_l) None
   (Some (mkVbody None None None None 1000000 (Some 10000000) []
     [VNode Div (Some "d1") None None None None 1000000 (Some 10000000) [] None
       [VNode P (Some "p1") None None (Some (mkTattr "00:00:01.000" 1000000)) (Some (mkTattr "00:00:10.000" 10000000)) 1000000 (Some 10000000) [] None [VText "Hello"]]])).
Theorem C52_layout_needed : exists content d s b e u s' t,
  fst (add_document (new_sequence "s" "media" None None) d) = s /\ holds z0 c_none d (content d) /\
  extract content s (Some b) (Some e) None false = (s', XBuilt u) /\
  SequenceSpec.active [d] t d /\ b <= t < e /\ as_seen (content d) t <> [] /\ looks_at None (u_size u) (u_doc u) t = [].
Proof.
  exists (fun _ => mkStored bare z0), doc_1. eexists. exists 0, 4000000. eexists _, _, 2000000. split; [reflexivity|]. split.
  { split; [cbn; lia|]. split; [reflexivity|]. split; [reflexivity|]. split; [checked_at|]. split; [reflexivity|].
    split; [exists None; split; [vm_compute; reflexivity|cbn; lia]|]. split;
    [split; [|split; [|split]]; cbn; auto; try lia; ok_tree; cbn; auto; lia|eexists; split; [vm_compute; reflexivity|]; apply as_parent_ceq; apply ceq_refl]. }
  split; [vm_compute; reflexivity|]. split; [|split; [lia|split; [vm_compute; discriminate|vm_compute; reflexivity]]].
  split; [left; auto|]. split; [cbn; lia|]. split; [|cbn; lia]. intros d' [<-|[]] _. lia.
Qed.

(** The joined document has the extent and cell resolution of the first segment:
    sizes in pixels of the others change, *)
Definition pixels : style_el := mkStyle None (set_fontSize no_attrs (Some (mkF Px None 10%Q))).
Definition sized (n : Z) (b e : tattr) : docu vbody :=
  mkDocu Media n (Some [("s1", pixels)]) (Some []) (Some
   (mkVbody None (Some b) (Some e) None (ta_us b) (Some (ta_us e)) []
     [VNode Div (Some "d1") None (Some ["s1"]) None None (ta_us b) (Some (ta_us e)) ["s1"] None
       [VNode P (Some "p1") None None None None (ta_us b) (Some (ta_us e)) ["s1"] None [VText "Hello"]]])).
Definition sized1 := sized 1 (mkTattr "00:00:01.000" 1000000) (mkTattr "00:00:10.000" 10000000).
Definition sized2 := sized 2 (mkTattr "00:00:05.000" 5000000) (mkTattr "00:00:12.000" 12000000).
Definition small : sizing := mkSizing (Some (320%Q, 150%Q)) (32%Q, 15%Q).
Definition large : sizing := mkSizing (Some (640%Q, 300%Q)) (32%Q, 15%Q).
Definition fonts (l : list seen) : list (option fsize) := flat_map (fun s => match s with TEl _ _ _ a _ => [fontSize a] | _ => [] end) l.
Definition both : seqstate := fst (add_document (fst (add_document (new_sequence "s" "media" None None) doc_1)) doc_2).
Definition sized_by (z1 z2 : sizing) (d : document) : stored :=
  if Z.eqb (d_num d) 1 then mkStored sized1 z1 else mkStored sized2 z2.
Lemma sized_holds : forall z c0, (z = small \/ z = large) -> body_computed z (unchecked sized1) = Some c0 ->
  holds z c0 doc_1 (mkStored sized1 z) /\ holds z c0 doc_2 (mkStored sized2 z).
Proof.
  intros z c0 Hz Hc. split; (split; [cbn; lia|]; split; [reflexivity|]; split; [reflexivity|]; split; [destruct Hz as [-> | ->]; checked_at|]; split; [reflexivity|];
    split; [exists None; split; [vm_compute; reflexivity|cbn; lia]|]; split;
    [split; [|split; [|split]]; cbn; auto; try lia; ok_tree; cbn; auto; lia|exists c0; split; [|apply as_parent_ceq; apply ceq_refl]]); auto.
Qed.
Theorem C52_sizes_change : exists content d z c0 u s', d_num d = 2 /\ holds z c0 d (content d) /\
  extract content both (Some 0) (Some 9000000) None false = (s', XBuilt u) /\
  fonts (as_seen (content d) 6000000) = [Some (mkF Cell None (150 # 300))] /\
  fonts (looks_at None (u_size u) (u_doc u) 6000000) = [Some (mkF Cell None (150 # 150))].
Proof.
  exists (sized_by small large), doc_2, large. eexists. eexists _, _. split; [reflexivity|].
  split; [apply sized_holds; [auto|vm_compute; reflexivity]|]. split; [vm_compute; reflexivity|]. split; vm_compute; reflexivity.
Qed.

(** and when it has no extent the others cannot be joined to it: the exception is
    not caught, and is raised again by every call of convert_next_segment; the
    looping call makes no other (C70_stops). *)

Definition extents (d : document) : stored := if Z.eqb (d_num d) 1 then mkStored line1 z0 else mkStored sized2 large.
Theorem C52_stuck : exists content d1 d2 z1 c1 z2 c2, holds z1 c1 d1 (content d1) /\ holds z2 c2 d2 (content d2) /\
  (forall b e, (1000 | b) -> (1000 | e) -> 0 <= b < e -> e < h100 -> cuttable (content d1) (Some b) (Some e) /\ cuttable (content d2) (Some b) (Some e)) /\
  forall n, snd (run (reseq_content content "out" 9000000 true) (r0 0) (CDoc d1 :: CDoc d2 :: repeat CTick n)) =
            (inl RNothing :: inl RNothing :: repeat (inl RRaiseSplice) n)%list.
Proof.
  exists extents, doc_1, doc_2, z0, c_none, large. eexists. destruct line_holds as [H1 _].
  assert (H2 : holds large (match body_computed large (unchecked sized1) with Some k => k | None => c_none end) doc_2 (extents doc_2)) by (apply sized_holds; [auto|vm_compute; reflexivity]).
  split; [exact H1|]. split; [exact H2|]. split.
  - intros b e Db De Hb He. assert (1000 <= e) by (apply Z.divide_pos_le; auto; lia). split.
    + eapply (line_anywhere z0 c_none doc_1); eauto; try reflexivity; cbn; unfold h100; try lia; [exists 1000|exists 10000]; reflexivity.
    + eapply C52_cuttable; [exact H2|reflexivity|reflexivity|reflexivity| | |lia|lia].
      * split; [|split; [|split; [|split]]]; cbn [vb_kids sized2 sized]; ok_tree; try reflexivity; try (cbn; unfold h100 in *; lia); try (intros Q; vm_compute in Q; discriminate); try (intros _ Q; vm_compute in Q; discriminate).
      * constructor; [|constructor]. constructor.
        -- intros _ Is. eexists. split; [eapply part_below; [left; reflexivity|apply part_here]|]. split; [reflexivity|exact Is].
        -- repeat (constructor; try discriminate).
  - intros n. set (f := reseq_content extents "out" 9000000 true).
    assert (St : forall s, f s CTick = (s, inl RRaiseSplice) -> forall n, snd (run f s (repeat CTick n)) = repeat (inl RRaiseSplice) n).
    { intros s E. induction n0 as [|n0 IH]; auto. cbn [repeat run]. rewrite E. destruct (run f s (repeat CTick n0)). cbn [snd] in *. congruence. }
    set (s1 := fst (f (r0 0) (CDoc doc_1))). set (s2 := fst (f s1 (CDoc doc_2))).
    assert (E1 : f (r0 0) (CDoc doc_1) = (s1, inl RNothing)) by (vm_compute; reflexivity).
    assert (E2 : f s1 (CDoc doc_2) = (s2, inl RNothing)) by (vm_compute; reflexivity).
    assert (E3 : f s2 CTick = (s2, inl RRaiseSplice)) by (vm_compute; reflexivity).
    specialize (St s2 E3 n). cbn [run]. rewrite E1, E2. destruct (run f s2 (repeat CTick n)). cbn [snd] in *. congruence.
Qed.

Print Assumptions C52_extract.
Print Assumptions C52_resequencer.
Print Assumptions C52_stream.
Print Assumptions C52_cuttable.
Print Assumptions C52_layout_needed.
Print Assumptions C52_sizes_change.
Print Assumptions C52_stuck.
