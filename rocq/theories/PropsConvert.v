(** C39: conversion to EBU-TT-D and times. *)

From Coq Require Import List ZArith String Bool QArith Lia.
From Verif Require Import TimingModel TimingSpec PropsTiming TimeModel TimeSpec ClockModel StyleModel SegmentModel
  ConvertModel ConvertSpec ConvertProofs.
Import ListNotations.
Open Scope Z_scope.

Lemma convert_document_inv : forall c d d', convert_document c d = COk d' ->
  match fd_body d with
  | None => dd_body d' = None /\ dd_gens d' = []
  | Some b => if existsb is_div (fb_kids b)
              then exists ks m, convert_all c (fd_base d) None (fb_kids b) [] = COk (ks, m) /\
                forallb (accepts Body) ks = true /\ dd_body d' = Some ks /\ dd_gens d' = m
              else dd_body d' = None /\ dd_gens d' = []
  end.
Proof.
  intros c d d' H. unfold convert_document in H. destruct (fd_body d) as [b|]; [|inversion H; auto].
  unfold convert_body in H. destruct (existsb is_div (fb_kids b)); [|inversion H; auto].
  destruct (convert_all c (fd_base d) None (fb_kids b) []) as [[ks m]|] eqn:E; cbn [cbind] in H; [|discriminate].
  destruct (forallb (accepts Body) ks) eqn:A; cbn [cbind] in H; [|discriminate].
  inversion H; subst. exists ks, m. auto.
Qed.

(** Without div there is nothing to present: no text in a body (as in the
    schema, where a body has only divs). *)
Definition only_divs (d : fdoc) : Prop :=
  forall b, fd_body d = Some b -> Forall (fun n => is_div n = true) (fb_kids b).

Lemma no_div_empty : forall d b, only_divs d -> fd_body d = Some b -> existsb is_div (fb_kids b) = false -> fb_kids b = [].
Proof.
  intros d b O E H. specialize (O b E). destruct (fb_kids b) as [|x l]; auto.
  inversion O; subst. cbn in H. rewrite H2 in H. discriminate.
Qed.

(** In the media time base everything is presented at the same times. *)
Theorem C39_media : forall c d d', fd_base d = Media -> only_divs d -> times_in_p_and_span d ->
  convert_document c d = COk d' -> result_display d' = source_display d.
Proof.
  intros c d d' B O T H. apply convert_document_inv in H. unfold result_display, source_display.
  destruct (fd_body d) as [b|] eqn:Eb; [|destruct H as [-> _]; auto].
  destruct (T b Eb) as (Tb & Te & Td & Tk).
  destruct (existsb is_div (fb_kids b)) eqn:Ed.
  - destruct H as (ks & m & E & _ & -> & _). rewrite B in E.
    rewrite (convert_all_map ttree ftree dtree c Media divs_untimed (fb_kids b)) with (parent := None) (m := []) (m' := m) (ds := ks); auto.
    + unfold body_end. cbn. rewrite Tb, Te, Td. auto.
    + apply Forall_forall. intros x _. apply convert_media.
  - destruct H as [-> _]. rewrite (no_div_empty d b O Eb Ed). auto.
Qed.

(** In the clock time base every begin and end is moved by the difference
    between the clocks, to the millisecond below. *)
Theorem C39_clock : forall c d d', fd_base d = Clock -> only_divs d -> times_in_p_and_span d -> one_level_doc d ->
  convert_document c d = COk d' ->
  result_display d' = map (shift (fun t => trunc_ms (t + gap c))) (source_display d).
Proof.
  intros c d d' B O T L H. apply convert_document_inv in H. unfold result_display, source_display.
  destruct (fd_body d) as [b|] eqn:Eb; [|destruct H as [-> _]; auto].
  destruct (T b Eb) as (Tb & Te & Td & Tk).
  destruct (existsb is_div (fb_kids b)) eqn:Ed.
  - destruct H as (ks & m & E & _ & -> & _). rewrite B in E.
    rewrite (convert_all_map ttree (fun n => tmap (moved c) (ftree n)) dtree c Clock divs_untimed (fb_kids b))
      with (parent := None) (m := []) (m' := m) (ds := ks); auto.
    + unfold body_end. cbn. rewrite Tb, Te, Td. cbn [eff us option_map].
      rewrite <- (map_map ftree (tmap (moved c))). apply flat_map_map_in. intros t Ht.
      apply in_map_iff in Ht. destruct Ht as (n & <- & Hn). apply single_display. apply one_level_single.
      specialize (L b Eb). rewrite Forall_forall in L. auto.
    + apply Forall_forall. intros x _. apply convert_clock.
  - destruct H as [-> _]. rewrite (no_div_empty d b O Eb Ed). auto.
Qed.

(** Hence order is kept, and with whole milliseconds so are durations. *)
Lemma trunc_mono : forall s t, s <= t -> trunc_ms s <= trunc_ms t.
Proof.
  intros s t H. unfold trunc_ms.
  assert (A := Z.div_mod s 1000 ltac:(lia)). assert (B := Z.div_mod t 1000 ltac:(lia)).
  assert (s / 1000 <= t / 1000) by (apply Z.div_le_mono; lia). lia.
Qed.

Definition ms_piece (p : piece) : Prop :=
  let '(_, b, e) := p in
  match b with Some v => v mod 1000 = 0 | None => True end /\
  match e with Some v => v mod 1000 = 0 | None => True end.

Theorem C39_clock_exact : forall c d d', fd_base d = Clock -> only_divs d -> times_in_p_and_span d -> one_level_doc d ->
  gap c mod 1000 = 0 -> Forall ms_piece (source_display d) -> convert_document c d = COk d' ->
  result_display d' = map (shift (fun t => t + gap c)) (source_display d).
Proof.
  intros c d d' B O T L G F H. rewrite (C39_clock c d d' B O T L H). apply map_ext_in.
  intros [[s b] e] Hin. rewrite Forall_forall in F. specialize (F _ Hin). cbn in F. destruct F as [F1 F2].
  assert (A : forall v, v mod 1000 = 0 -> trunc_ms (v + gap c) = v + gap c).
  { intros v Hv. unfold trunc_ms. rewrite Z.add_mod, Hv, G by lia. cbn. lia. }
  cbn. f_equal; [f_equal|]; [destruct b|destruct e]; cbn; auto; f_equal; auto.
Qed.

(** Pieces presented one after the other stay so, whatever the resolution. *)
Theorem C39_order : forall c d d' s s' b e b' e', fd_base d = Clock -> only_divs d -> times_in_p_and_span d -> one_level_doc d ->
  convert_document c d = COk d' ->
  In (s, Some b, Some e) (source_display d) -> In (s', Some b', Some e') (source_display d) -> e <= b' ->
  exists rb re rb' re', In (s, Some rb, Some re) (result_display d') /\ In (s', Some rb', Some re') (result_display d') /\
    re <= rb' /\ Z.abs ((re - rb) - (e - b)) < 1000 /\ Z.abs ((re' - rb') - (e' - b')) < 1000.
Proof.
  intros c d d' s s' b e b' e' B O T L H H1 H2 Hle. rewrite (C39_clock c d d' B O T L H).
  exists (trunc_ms (b + gap c)), (trunc_ms (e + gap c)), (trunc_ms (b' + gap c)), (trunc_ms (e' + gap c)).
  split; [exact (in_map _ _ _ H1)|]. split; [exact (in_map _ _ _ H2)|].
  split; [apply trunc_mono; lia|]. unfold trunc_ms.
  assert (A := Z.mod_pos_bound (b + gap c) 1000 ltac:(lia)). assert (A1 := Z.mod_pos_bound (e + gap c) 1000 ltac:(lia)).
  assert (A2 := Z.mod_pos_bound (b' + gap c) 1000 ltac:(lia)). assert (A3 := Z.mod_pos_bound (e' + gap c) 1000 ltac:(lia)).
  lia.
Qed.

(** Text, structure, identifiers and regions are kept, in order. *)
Theorem C39_content : forall c d d', only_divs d -> convert_document c d = COk d' ->
  map dskel (match dd_body d' with Some ks => ks | None => [] end) =
  map fskel (match fd_body d with Some b => fb_kids b | None => [] end) /\
  (dd_body d' = None <-> forall b, fd_body d = Some b -> fb_kids b = []).
Proof.
  intros c d d' O H. apply convert_document_inv in H.
  destruct (fd_body d) as [b|] eqn:Eb.
  - destruct (existsb is_div (fb_kids b)) eqn:Ed.
    + destruct H as (ks & m & E & _ & -> & _). split.
      * apply (convert_all_map skel fskel dskel c (fd_base d) (fun _ => True)) with (parent := None) (m := []) (m' := m); auto.
        -- apply Forall_forall. intros x _ _. apply convert_skel.
        -- apply Forall_forall. auto.
      * split; [discriminate|]. intros A. rewrite (A b eq_refl) in Ed. discriminate.
    + destruct H as [-> _]. assert (N := no_div_empty d b O Eb Ed). rewrite N. split; auto.
      split; auto. intros _ b0 Eq. inversion Eq; subst. auto.
  - destruct H as [-> _]. split; auto. split; auto. intros _ b Eq. discriminate.
Qed.

(** Conversion fails exactly on the nesting EBU-TT-D does not have and on times
    outside media time, provided that no font size is zero. *)
Theorem C39_succeeds : forall c d, sized_doc d ->
  (exists d', convert_document c d = COk d') <-> convertible c d.
Proof.
  intros c d S. split.
  - intros (d' & H) b Eb Ed. apply convert_document_inv in H. rewrite Eb, Ed in H.
    destruct H as (ks & m & E & A & _). split; [apply (accepts_all _ _ Body _ _ _ _ _ E); auto|].
    unfold doc_times. rewrite Eb. clear A Eb Ed S. revert E. generalize (None : option fsize) ([] : gens) ks m.
    induction (fb_kids b) as [|x l IH]; intros pa m0 ks0 m1 E; [split; constructor|].
    apply convert_all_inv in E. destruct E as (dx & ds' & m2 & H1 & H2 & _).
    destruct (convert_only _ _ _ _ _ _ _ H1) as [A1 B1]. destruct (IH _ _ _ _ H2) as [A2 B2].
    split; [constructor; auto|]. intros Eb. cbn. apply Forall_app. auto.
  - intros C. unfold convert_document. destruct (fd_body d) as [b|] eqn:Eb; [|cbn; eauto].
    unfold convert_body. destruct (existsb is_div (fb_kids b)) eqn:Ed; [|cbn; eauto].
    destruct (C b Eb Ed) as (F1 & F2 & F3). unfold doc_times in F3. rewrite Eb in F3. specialize (S b Eb).
    assert (A : forall l m, Forall (fun n => fits_d Body n = true) l -> Forall flat l -> Forall sized l ->
      (fd_base d = Clock -> Forall (expressible c) (flat_map ps_times l)) ->
      exists ks m', convert_all c (fd_base d) None l m = COk (ks, m')).
    { clear. induction l as [|x l IH]; intros m H1 H2 H3 H4; [cbn; eauto|].
      inversion H1; subst. inversion H2; subst. inversion H3; subst. cbn [convert_all].
      destruct (convert_ok c (fd_base d) x) with (parent := @None fsize) (m := m) as (dx & m1 & E1); auto.
      { intros E. specialize (H4 E). cbn in H4. apply Forall_app in H4. tauto. }
      { intros (i0 & r0 & st0 & b0 & e0 & sz0 & ln0 & kids0 & ->). discriminate. }
      rewrite E1. cbn [cbind]. destruct (IH m1) as (ks & m2 & E2); auto.
      { intros E. specialize (H4 E). cbn in H4. apply Forall_app in H4. tauto. }
      rewrite E2. cbn. eauto. }
    destruct (A (fb_kids b) [] F1 F2 S F3) as (ks & m' & E). rewrite E. cbn [cbind].
    assert (X : forallb (accepts Body) ks = true) by (apply (accepts_all _ _ Body _ _ _ _ _ E); auto).
    rewrite X. cbn. eauto.
Qed.

(** The times of [display] are the computed times of the timing pass (C12): for
    the elements without elements in them, when no end is zero (C15). *)
Theorem C39_computed : forall b cb ce b0 e0 cks, Forall no_zero_end (fb_kids b) ->
  validate None (Some (ftiming_body b)) = TOk (cb, ce, CTimed b0 e0 cb ce cks) ->
  flat_map leaf_times cks =
  flat_map (leaf_display (us (fb_begin b)) (body_end 0 (ftiming_body b))) (map ftree (fb_kids b)).
Proof.
  intros b cb ce b0 e0 cks N H. apply C12_compositional in H. destruct H as [T _].
  assert (F : Forall2 (timed 0 (at_ (us (fb_begin b))) (body_end 0 (ftiming_body b))) (map ftiming (fb_kids b)) cks).
  { assert (E : at_ (us (fb_begin b)) = offset (fb_begin b)).
    { assert (A := at_start None (fb_begin b)). destruct (fb_begin b); cbn in A |- *; lia. }
    rewrite E. inversion T; subst; auto. }
  clear T. revert cks F N. induction (fb_kids b) as [|x l IH]; intros cks F N; inversion F as [|? c0 ? cs Fx Fl]; subst; auto.
  inversion N; subst. cbn [flat_map map]. f_equal; [apply leaf_computed; auto|]. apply IH; auto.
Qed.

(** The encoding node: media time is clock time counted from media_time_zero. *)
Theorem C39_encoder : forall instant zero d d', fd_base d = Clock -> only_divs d -> times_in_p_and_span d -> one_level_doc d ->
  zero mod 1000 = 0 -> Forall ms_piece (source_display d) ->
  convert_document (encoder_clock instant zero) d = COk d' ->
  result_display d' = map (shift (fun t => t - zero)) (source_display d).
Proof.
  intros instant zero d d' B O T L G F H. assert (E : gap (encoder_clock instant zero) = - zero) by reflexivity.
  assert (G' : gap (encoder_clock instant zero) mod 1000 = 0) by (rewrite E, Z.mod_opp_l_z; lia).
  rewrite (C39_clock_exact _ d d' B O T L G' F H). rewrite E. auto.
Qed.

(** ** Cases *)

Definition tm (s : string) (v : Z) : option tattr := Some (mkTattr s v).
Definition cell (q : Q) : option fsize := Some (mkF Cell None q).
Definition el_p (i : string) (b e : option tattr) (kids : list fnode) : fnode :=
  FNode P (Some i) None None b e (cell 1) None kids.
Definition el_span (b e : option tattr) (kids : list fnode) : fnode :=
  FNode Span None None None b e (cell 1) None kids.
Definition el_div (b e : option tattr) (kids : list fnode) : fnode :=
  FNode Div None None None b e None None kids.
Definition simple (bs : base) (kids : list fnode) : fdoc :=
  mkFdoc bs None None (Some (mkFbody None None None None kids)).
Definition sec : Z := 1000000.
Definition hour : Z := 3600 * sec.

(** A clock document of two subtitles, the second with timed spans, encoded
    with ten o'clock as zero. *)
Definition two_subtitles : fdoc := simple Clock
  [el_div None None
     [el_p "a" (tm "10:00:01" (10 * hour + sec)) (tm "10:00:02.5" (10 * hour + 2500000)) [FText "one"; FBr; FText "more"];
      el_p "b" None None
        [el_span (tm "10:00:03" (10 * hour + 3 * sec)) (tm "10:00:04" (10 * hour + 4 * sec)) [FText "two"];
         FText " "]]].

Example C39_case : exists d', convert_document (encoder_clock 0 (10 * hour)) two_subtitles = COk d' /\
  only_divs two_subtitles /\ times_in_p_and_span two_subtitles /\ one_level_doc two_subtitles /\
  sized_doc two_subtitles /\ Forall ms_piece (source_display two_subtitles) /\
  source_display two_subtitles =
    [(Some "one"%string, Some (10 * hour + sec), Some (10 * hour + 2500000)); (None, Some (10 * hour + sec), Some (10 * hour + 2500000));
     (Some "more"%string, Some (10 * hour + sec), Some (10 * hour + 2500000));
     (Some "two"%string, Some (10 * hour + 3 * sec), Some (10 * hour + 4 * sec)); (Some " "%string, None, None)] /\
  result_display d' =
    [(Some "one"%string, Some sec, Some 2500000); (None, Some sec, Some 2500000);
     (Some "more"%string, Some sec, Some 2500000);
     (Some "two"%string, Some (3 * sec), Some (4 * sec)); (Some " "%string, None, None)].
Proof.
  eexists. split; [vm_compute; reflexivity|].
  split; [intros b E; inversion E; subst; repeat constructor|].
  split; [intros b E; inversion E; subst; repeat split; repeat constructor|].
  split.
  { intros b E; inversion E; subst. constructor; [|constructor]. apply ol_node. constructor.
    - apply ol_timed. repeat constructor.
    - constructor; [|constructor]. apply ol_node. constructor; [apply ol_timed; repeat constructor|].
      constructor; constructor. }
  split.
  { intros b E; inversion E; subst. constructor; [|constructor].
    assert (X : exists f, cell 1 = Some f /\ proper f) by (exists (mkF Cell None 1); repeat split).
    constructor; [intros [A|A]; discriminate|]. repeat (constructor; [intros; exact X| |] || constructor; try (intros; exact X)). }
  split.
  { assert (X : forallb (fun p : piece => let '(_, b, e) := p in
        (match b with Some v => v mod 1000 =? 0 | None => true end) && (match e with Some v => v mod 1000 =? 0 | None => true end))%bool
        (source_display two_subtitles) = true) by (vm_compute; reflexivity).
    rewrite forallb_forall in X. apply Forall_forall. intros [[s b] e] Hin. specialize (X _ Hin). cbn in X.
    apply andb_true_iff in X. destruct X as [X1 X2].
    split; [destruct b; auto; apply Z.eqb_eq; auto|destruct e; auto; apply Z.eqb_eq; auto]. }
  split; vm_compute; reflexivity.
Qed.

(** A media document: nested times stay as they are. *)
Example C39_case_media : exists d', let d := simple Media
    [el_div None None [el_p "a" (tm "1s" sec) (tm "9s" (9 * sec))
       [FText "p"; el_span (tm "2s" (2 * sec)) (tm "3s" (3 * sec)) [FText "s"]]]] in
  convert_document (encoder_clock 0 (10 * hour)) d = COk d' /\ only_divs d /\ times_in_p_and_span d /\
  result_display d' = [(Some "p"%string, Some sec, Some (9 * sec)); (Some "s"%string, Some (3 * sec), Some (4 * sec))].
Proof.
  eexists. split; [vm_compute; reflexivity|]. split; [intros b E; inversion E; subst; repeat constructor|].
  split; [intros b E; inversion E; subst; repeat split; repeat constructor|]. vm_compute. reflexivity.
Qed.

(** ** What is lost *)

(** The times of a body and of a div are dropped: what begins after five
    seconds is presented from the start. *)
Theorem C39_body_times_lost : exists d d', fd_base d = Media /\ only_divs d /\ sized_doc d /\
  convert_document (encoder_clock 0 0) d = COk d' /\
  source_display d = [(Some "x"%string, Some (6 * sec), Some (8 * sec))] /\
  result_display d' = [(Some "x"%string, Some sec, None)].
Proof.
  set (d := mkFdoc Media None None (Some (mkFbody None (tm "5s" (5 * sec)) (tm "8s" (8 * sec)) None
         [el_div None None [el_p "a" (tm "1s" sec) None [FText "x"]]]))).
  exists d. eexists. split; [auto|]. split; [intros b E; inversion E; subst; repeat constructor|].
  split.
  { intros b E; inversion E; subst. constructor; [|constructor]. constructor; [intros [A|A]; discriminate|].
    constructor; [|constructor]. constructor; [|repeat constructor]. intros _. exists (mkF Cell None 1). repeat split. }
  split; [vm_compute; reflexivity|]. split; vm_compute; reflexivity.
Qed.

Theorem C39_div_times_lost : exists d d', fd_base d = Media /\ only_divs d /\
  convert_document (encoder_clock 0 0) d = COk d' /\
  source_display d = [(Some "x"%string, Some (5 * sec), Some (8 * sec))] /\
  result_display d' = [(Some "x"%string, None, None)].
Proof.
  set (d := simple Media [el_div (tm "5s" (5 * sec)) (tm "8s" (8 * sec)) [el_p "a" None None [FText "x"]]]).
  exists d. eexists. split; [auto|]. split; [intros b E; inversion E; subst; repeat constructor|].
  split; [vm_compute; reflexivity|]. split; vm_compute; reflexivity.
Qed.

(** In the clock time base a span with times in a p with times: the offset of
    the span, one second, is converted as if it were one second past midnight.
    With media time counted from a later time of day conversion fails ... *)
Definition nested_clock : fdoc := simple Clock
  [el_div None None [el_p "a" (tm "10:00:01" (10 * hour + sec)) None
     [el_span (tm "00:00:01" sec) None [FText "x"]]]].
Theorem C39_nested_fails : times_in_p_and_span nested_clock /\ sized_doc nested_clock /\
  convert_document (encoder_clock 0 (10 * hour)) nested_clock = CErr TimeValueErr.
Proof.
  split; [intros b E; inversion E; subst; repeat split; repeat constructor|].
  split; [|vm_compute; reflexivity].
  intros b E; inversion E; subst. constructor; [|constructor]. constructor; [intros [A|A]; discriminate|].
  constructor; [|constructor]. constructor; [intros _; exists (mkF Cell None 1); repeat split|].
  constructor; [|constructor]. constructor; [intros _; exists (mkF Cell None 1); repeat split|]. repeat constructor.
Qed.

(** ... and with a clock that is ahead the difference is applied twice. *)
Theorem C39_nested_wrong : exists c d', gap c = hour /\ convert_document c nested_clock = COk d' /\
  source_display nested_clock = [(Some "x"%string, Some (10 * hour + 2 * sec), None)] /\
  result_display d' = [(Some "x"%string, Some (12 * hour + 2 * sec), None)].
Proof.
  exists (mkClock 0 hour None false). eexists. split; [reflexivity|]. split; [vm_compute; reflexivity|].
  split; vm_compute; reflexivity.
Qed.

(** A div in a div, and a span in a span, which EBU-TT Live has and EBU-TT-D has
    not. *)
Theorem C39_nested_elements : forall c bs n, sized_doc (simple bs [n]) -> is_div n = true -> ~ flat n ->
  forall d', convert_document c (simple bs [n]) <> COk d'.
Proof.
  intros c bs n S D F d' H. assert (X : convertible c (simple bs [n])) by (apply C39_succeeds; eauto).
  assert (E : existsb is_div [n] = true) by (cbn; rewrite D; auto).
  destruct (X _ eq_refl E) as (_ & A & _). inversion A; subst. auto.
Qed.
Example C39_nested_elements_case :
  convert_document (encoder_clock 0 0) (simple Media [el_div None None [el_div None None [el_p "a" None None []]]]) = CErr ContentErr /\
  convert_document (encoder_clock 0 0) (simple Media [el_div None None [el_p "a" None None [el_span None None [el_span None None []]]]]) = CErr ContentErr.
Proof. split; vm_compute; reflexivity. Qed.

(** A time of the clock before media_time_zero cannot be converted. *)
Example C39_before_zero : ~ expressible (encoder_clock 0 (10 * hour)) (9 * hour) /\
  expressible (encoder_clock 0 (10 * hour)) (11 * hour).
Proof. unfold expressible. vm_compute. split; [intros [[A _] _]; apply A; auto|]. repeat split; discriminate. Qed.

(** The computed times of the document of C39_case, by the timing pass. *)
Example C39_computed_case : exists b cb ce b0 e0 cks, fd_body two_subtitles = Some b /\
  validate None (Some (ftiming_body b)) = TOk (cb, ce, CTimed b0 e0 cb ce cks) /\
  Forall no_zero_end (fb_kids b) /\
  flat_map leaf_times cks = [(10 * hour + sec, Some (10 * hour + 2500000)); (10 * hour + 3 * sec, Some (10 * hour + 4 * sec))].
Proof.
  do 6 eexists. split; [reflexivity|]. split; [vm_compute; reflexivity|].
  split; [repeat (constructor; try discriminate)|]. vm_compute. reflexivity.
Qed.

Print Assumptions C39_media.
Print Assumptions C39_clock.
Print Assumptions C39_clock_exact.
Print Assumptions C39_order.
Print Assumptions C39_content.
Print Assumptions C39_succeeds.
Print Assumptions C39_computed.
Print Assumptions C39_encoder.
Print Assumptions C39_body_times_lost.
Print Assumptions C39_div_times_lost.
Print Assumptions C39_nested_fails.
Print Assumptions C39_nested_wrong.
Print Assumptions C39_nested_elements.
