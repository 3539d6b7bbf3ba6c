(** Proofs about validated content and the producer's documents. *)

From Coq Require Import List ZArith QArith String Bool Lia.
From Verif Require Import SequenceModel TimeSpec TimingModel TimingSpec TimingProofs PropsTiming.
From Verif Require Import StyleModel StyleTree PropsScope LookProofs.
From Verif Require Import SegmentModel SegmentSpec SegmentProofs SpliceSpec LookSpec ResegModel.
From Verif Require ResegSpec LookDressProofs.
From Verif Require Import PipeSpec PropsLook.
From Verif Require Import ProducerModel.
Import ListNotations.
Open Scope Z_scope.

(** ** The shape of the results *)

Inductive tshape : node -> ctree -> Prop :=
| ts_text s : tshape (Text s) COther
| ts_br : tshape Br COther
| ts_node k i r st b e kids cb ce cs : Forall2 tshape kids cs -> tshape (Node k i r st b e kids) (CTimed b e cb ce cs).

Inductive oshape : list node -> list sout -> Prop :=
| os_nil : oshape [] []
| os_text s ns os : oshape ns os -> oshape (Text s :: ns) os
| os_br ns os : oshape ns os -> oshape (Br :: ns) os
| os_node k i r st b e kids r' x oks ns os : oshape kids oks -> oshape ns os ->
    oshape (Node k i r st b e kids :: ns) (SOut k r' x oks :: os).

Lemma visit_shape : forall av n c c' t, visit av (timing n) c = TOk (c', t) -> tshape n t.
Proof.
  intros av. induction n as [s| |k i r st b e kids IH] using node_ind2; intros c c' t V; try (inversion V; constructor; fail).
  cbn [timing] in V. rewrite visit_Timed in V. destruct (pre_calculate_end c (delta e)) as [c1 ce], (pre_assign_begin av c1 (delta b)) as [c2 cb].
  destruct (visit_all av (map timing kids) c2) as [[c3 cs]|] eqn:A; [|discriminate]. cbn [tbind] in V.
  destruct (postprocess _ _ _ _ _ _ _) as [[[c4 cb'] ce']|]; [|discriminate]. inversion V; subst. constructor. clear V.
  revert c2 c3 cs A. induction IH as [|m ns Hm _ IHn]; intros c2 c3 cs A; cbn [map visit_all] in A.
  - inversion A. constructor.
  - destruct (visit av (timing m) c2) as [[c5 t5]|] eqn:E5; [|discriminate]. cbn [tbind] in A.
    destruct (visit_all av (map timing ns) c5) as [[c6 cs6]|] eqn:E6; [|discriminate]. inversion A; subst. constructor; eauto.
Qed.

Lemma visit_all_shape : forall av ns c c' cs, visit_all av (map timing ns) c = TOk (c', cs) -> Forall2 tshape ns cs.
Proof.
  intros av. induction ns as [|m ns IH]; intros c c' cs A; cbn [map visit_all] in A.
  - inversion A. constructor.
  - destruct (visit av (timing m) c) as [[c5 t5]|] eqn:E5; [|discriminate]. cbn [tbind] in A.
    destruct (visit_all av (map timing ns) c5) as [[c6 cs6]|] eqn:E6; [|discriminate]. inversion A; subst. constructor; eauto using visit_shape.
Qed.

Lemma pass_all_app : forall d z regions parent l1 l2 w os w', pass_all d z regions parent (l1 ++ l2) w = SOk (os, w') ->
  exists o1 w1 o2, pass_all d z regions parent l1 w = SOk (o1, w1) /\ pass_all d z regions parent l2 w1 = SOk (o2, w') /\ os = (o1 ++ o2)%list.
Proof.
  intros d z regions parent. induction l1 as [|x l1 IH]; intros l2 w os w' P.
  - exists [], w, os. auto.
  - cbn [app] in P. apply pass_all_cons in P as (o & w1 & os' & E & P & ->). destruct (IH _ _ _ _ P) as (o1 & w2 & o2 & E1 & E2 & ->).
    exists (o :: o1), w2, o2. cbn [pass_all]. rewrite E. cbn [sbind]. rewrite E1. auto.
Qed.

Lemma pass_shape : forall d z regions n, forall parent w os w' ns os', pass_all d z regions parent (styling n) w = SOk (os, w') ->
  oshape ns os' -> oshape (n :: ns) (os ++ os')%list.
Proof.
  intros d z regions. induction n as [s| |k i r st b e kids IH] using node_ind2; intros parent w os w' ns os' P O.
  - inversion P. constructor. auto.
  - inversion P. constructor. auto.
  - cbn [styling] in P. apply pass_all_cons in P as (o & w1 & os1 & E & P & ->). inversion P; subst. cbn [app].
    apply style_pass_inv in E as (w2 & x & w3 & oks & w4 & _ & _ & Pk & -> & _). constructor; auto. clear O P.
    revert Pk. generalize (Some (e_computed x)) (push w3 x). intros pa w5 Pk. revert w5 oks w4 Pk. induction IH as [|m ms Hm _ IHm]; intros w5 oks w4 Pk; cbn [flat_map] in Pk.
    + inversion Pk. constructor.
    + apply pass_all_app in Pk as (o1 & w6 & o2 & P1 & P2 & ->). eauto.
Qed.

Lemma pass_all_shape : forall d z regions parent ns w os w', pass_all d z regions parent (flat_map styling ns) w = SOk (os, w') -> oshape ns os.
Proof.
  intros d z regions parent. induction ns as [|m ns IH]; intros w os w' P; cbn [flat_map] in P.
  - inversion P. constructor.
  - apply pass_all_app in P as (o1 & w6 & o2 & P1 & P2 & ->). eapply pass_shape; eauto.
Qed.

(** ** The annotated document *)

Lemma annotate_eq : forall k i r st b e kids b' e' cb ce cs k' r' x oks os,
  annotate (Node k i r st b e kids) (CTimed b' e' cb ce cs) (SOut k' r' x oks :: os) =
  VNode k i r st b e cb ce (validated_styles x) (e_region x) (annotate_all kids cs oks).
Proof.
  reflexivity.
Qed.

Definition own (n : node) (os : list sout) : list sout := match n with Node _ _ _ _ _ _ _ => firstn 1 os | _ => [] end.

Lemma annotate_fits : forall n c ns os, tshape n c -> oshape (n :: ns) os ->
  plain (annotate n c os) = n /\ vtimes (annotate n c os) = c /\ vstyles (annotate n c os) = map ostyles (own n os) /\ oshape ns (after n os).
Proof.
  induction n as [s| |k i r st b e kids IH] using node_ind2; intros c ns os T O; inversion T; subst; inversion O; subst; auto.
  rewrite annotate_eq. cbn [plain vtimes vstyles own after firstn tl map ostyles].
  match goal with H : Forall2 tshape kids _, H' : oshape kids _ |- _ => rename H into F; rename H' into O1 end.
  assert (K : map plain (annotate_all kids cs oks) = kids /\ map vtimes (annotate_all kids cs oks) = cs /\ flat_map vstyles (annotate_all kids cs oks) = map ostyles oks).
  { clear T O. revert oks O1. induction F as [|m y ms cs Hm _ IHm]; intros oks O1.
    - inversion O1. auto.
    - inversion IH as [|? ? H1 H2]; subst. cbn [annotate_all map flat_map]. destruct (H1 _ _ _ Hm O1) as (-> & -> & -> & O2).
      destruct (IHm H2 _ O2) as (-> & -> & ->). split; auto. split; auto. rewrite <- map_app. f_equal.
      destruct m; auto. inversion O1. auto. }
  destruct K as (-> & -> & ->). auto.
Qed.

Lemma annotate_all_fits : forall ns cs os, Forall2 tshape ns cs -> oshape ns os ->
  map plain (annotate_all ns cs os) = ns /\ map vtimes (annotate_all ns cs os) = cs /\ flat_map vstyles (annotate_all ns cs os) = map ostyles os.
Proof.
  intros ns cs os F. revert os. induction F as [|m y ms cs Hm _ IH]; intros os O.
  - inversion O. auto.
  - cbn [annotate_all map flat_map]. destruct (annotate_fits _ _ _ _ Hm O) as (-> & -> & -> & O2).
    destruct (IH _ O2) as (-> & -> & ->). split; auto. split; auto. rewrite <- map_app. f_equal. destruct m; auto. inversion O. auto.
Qed.

Lemma distinct_NoDup : forall l, distinct l = true -> NoDup l.
Proof.
  induction l as [|i l IH]; intros D; constructor; cbn [distinct] in D; apply andb_true_iff in D as [D1 D2]; auto.
  intros H. apply negb_true_iff in D1. unfold mem in D1. rewrite <- not_true_iff_false, existsb_exists in D1. apply D1. exists i. split; auto. apply String.eqb_refl.
Qed.

Lemma pass_regions_none : forall d z l w es w', w_region w = None -> pass_regions d z l w = SOk (es, w') -> w_region w' = None.
Proof.
  intros d z. induction l as [|[i k] l IH]; intros w es w' W P; cbn [pass_regions] in P; [inversion P; congruence|].
  destruct k as [s|r|]; eauto.
  destruct (collect d z w (r_refs r) None false _) as [[e|er] w2] eqn:C; [|discriminate].
  destruct (pass_regions d z l w2) as [[es' w3]|] eqn:E; [|discriminate]. inversion P; subst. apply collect_fields in C as (_ & R & _). eapply IH; [|exact E]. congruence.
Qed.

Lemma checked_inv : forall z avail d b e v bd, checked z avail d = Some (b, e, v) -> t_body d = Some bd ->
  exists vb regions x os, t_body v = Some vb /\ plain_body vb = bd /\ unchecked v = d /\
    NoDup (map fst (doc_table d bd)) /\
    validate avail (Some (timing_body bd)) = TOk (b, e, vtimes_body vb) /\
    validate_styles (doc_table d bd) z (styling_body bd) = SOk (regions, SOut Body None x os) /\
    vstyles_body vb = ostyles (SOut Body None x os).
Proof.
  intros z avail d b e v bd C B. unfold checked in C. rewrite B in C.
  destruct (distinct (map fst (doc_table d bd))) eqn:D; [|discriminate].
  destruct (validate avail (Some (timing_body bd))) as [[[b1 e1] [b2 e2 cb ce cs|]]|] eqn:V; try discriminate.
  destruct (validate_styles (doc_table d bd) z (styling_body bd)) as [[regions [k r x os]]|] eqn:S; [|discriminate]. inversion C; subst. clear C.
  assert (Va : Forall2 tshape (bd_kids bd) cs /\ b2 = bd_begin bd /\ e2 = bd_end bd).
  { unfold validate in V. destruct (visit_body _ _ _) as [[c1 [b3 e3 cb3 ce3 cs3|]]|] eqn:E; try discriminate. inversion V; subst. clear V.
    unfold visit_body in E. destruct (body_pre_calculate_end _ _ _ _ _) as [c2 ce2], (pre_assign_begin _ c2 _) as [c4 cb4].
    cbn [timing_body b_kids b_begin b_end b_dur] in E.
    destruct (visit_all _ _ _) as [[c5 cs5]|] eqn:A in E; [|discriminate]. cbn [tbind] in E.
    destruct (postprocess _ _ _ _ _ _ _) as [[[c6 cb6] ce6]|]; [|discriminate]. inversion E; subst. split; auto. eapply visit_all_shape; eauto. }
  destruct Va as (Fs & -> & ->).
  assert (Sa : k = Body /\ r = None /\ e_region x = None /\ oshape (bd_kids bd) os).
  { unfold validate_styles in S. destruct (check_styles _ _); [|discriminate]. cbn [sbind] in S.
    destruct (pass_regions _ _ _ _) as [[rg w]|] eqn:P; [|discriminate]. cbn [sbind] in S.
    destruct (style_pass _ _ _ _ _ _) as [[o w1]|] eqn:Q; [|discriminate]. cbn [sbind] in S. inversion S; subst.
    apply style_pass_inv in Q as (w2 & x' & w3 & os' & w4 & R & Co & Pk & Eq & _). inversion Eq; subst. split; auto. split; auto. split.
    - apply collect_fields in Co as (_ & _ & -> & _). cbn in R. inversion R; subst. apply pass_regions_none in P; auto. rewrite P. auto.
    - eapply pass_all_shape; eauto. }
  destruct Sa as (-> & -> & Rg & O). destruct (annotate_all_fits _ _ _ Fs O) as (P1 & P2 & P3).
  eexists _, regions, x, os. split; [reflexivity|]. unfold plain_body, vtimes_body, vstyles_body. cbn [vb_style vb_begin vb_end vb_dur vb_cb vb_ce vb_styles vb_kids ostyles].
  rewrite P1, P2, P3, Rg. split; [destruct bd; auto|]. split.
  - unfold unchecked. cbn [t_base t_seq t_styling t_layout t_body option_map]. unfold plain_body. cbn. rewrite P1. destruct d; cbn in *. subst. destruct bd; auto.
  - split; [apply distinct_NoDup; auto|]. auto.
Qed.

(** A document that came through validation is one of those the theorems about
    sequences are about. *)
Theorem checked_holds : forall z avail d b e v bd c0 dd, checked z avail d = Some (b, e, v) -> t_body d = Some bd ->
  flat (styling_body bd) = true -> nn_body (timing_body bd) -> 0 <= at_avail avail ->
  d_num dd = t_seq d -> 0 <= d_num dd -> d_begin dd = b -> d_end dd = e ->
  (exists k, body_computed z d = Some k /\ as_parent c0 k) ->
  ResegSpec.holds z c0 dd (mkStored v z).
Proof.
  intros z avail d b e v bd c0 dd C B Fl Nn Av Nu N0 <- <- K. destruct (checked_inv _ _ _ _ _ _ _ C B) as (vb & regions & x & os & Bv & Pl & Un & Nd & V & S & Vs).
  assert (Et : forall q, doc_table v q = doc_table d q) by (intros q; rewrite <- Un; reflexivity).
  split; auto. split; [rewrite Nu, <- Un; reflexivity|]. split; auto. cbn [st_doc]. rewrite Bv, Pl. split.
  { unfold style_checked_at. rewrite Pl, Et. split; auto. eexists _, _. split; eauto. }
  split; auto. split; [eauto|]. split; auto. rewrite Un. auto.
Qed.

(** ** The producer's documents *)

Local Open Scope string_scope.

Fixpoint between (lines : list string) : list node :=
  match lines with
  | [] => []
  | s :: r => line_span "defaultStyle1" s :: match r with [] => [] | _ => Br :: between r end
  end.
Lemma interleave_between : forall lines, lines <> [] -> interleave "defaultStyle1" lines = Some (between lines).
Proof.
  intros [|s r]; [contradiction|intros _]. cbn [interleave]. f_equal. revert s. induction r as [|s' r IH]; intros s; auto.
  change (between (s :: s' :: r)) with (line_span "defaultStyle1" s :: Br :: between (s' :: r)). rewrite <- IH. reflexivity.
Qed.

(** Its identifiers. *)
Definition the_table : list (string * kind) :=
  [("defaultStyle1", KStyle default_style); ("bottomRegion", KRegion (mkRegion None None)); ("ID001", KOther)].
Lemma between_ids : forall lines, flat_map node_ids (between lines) = [].
Proof. induction lines as [|s [|s' r] IH]; auto. Qed.
Lemma produced_table : forall q n lines b d, doc_table (produced q n (between lines) b d) (mkBodyd None (Some b) None (Some d) [fragment (between lines)]) = the_table.
Proof. intros. unfold doc_table, body_ids. cbn. rewrite between_ids. reflexivity. Qed.

(** Its times. *)
Fixpoint spaced {A} (x y : A) (lines : list string) : list A :=
  match lines with
  | [] => []
  | _ :: r => x :: match r with [] => [] | _ => y :: spaced x y r end
  end.
Definition span_times (cb e : Z) : ctree := CTimed None None cb (Some e) [COther].
Lemma span_visit : forall av b0 e0 s, visit av (timing (line_span "defaultStyle1" s)) (mkCtx [b0] [e0] b0) =
  TOk (mkCtx [b0] [e0] b0, span_times (start_at av b0) e0).
Proof. intros. unfold start_at. cbn. destruct (Z.eqb_spec av 0), (Z.eq_dec av 0); try contradiction; reflexivity. Qed.
Lemma between_visit : forall av b0 e0 lines, visit_all av (map timing (between lines)) (mkCtx [b0] [e0] b0) =
  TOk (mkCtx [b0] [e0] b0, spaced (span_times (start_at av b0) e0) COther lines).
Proof.
  intros av b0 e0. induction lines as [|s [|s' r] IH]; auto.
  - cbn [between map visit_all]. rewrite span_visit. reflexivity.
  - change (between (s :: s' :: r)) with (line_span "defaultStyle1" s :: Br :: between (s' :: r)).
    cbn [map]. change (timing Br) with Other. cbn [visit_all]. rewrite span_visit. cbn [tbind visit]. rewrite IH. reflexivity.
Qed.
Lemma good_between : forall cb e lines, good_children (spaced (span_times cb e) COther lines) = repeat (cb, Some e) (List.length lines).
Proof. intros cb e. induction lines as [|s [|s' r] IH]; auto. cbn [spaced good_children span_times badly_timed] in *. rewrite IH. reflexivity. Qed.
Lemma zmin_same : forall x n, zmin_list x (repeat x n) = x.
Proof. intros x n. unfold zmin_list. induction n as [|n IH]; auto. cbn. rewrite Z.min_id. auto. Qed.
Lemma zmax_same : forall x n, zmax_list x (repeat x n) = x.
Proof. intros x n. unfold zmax_list. induction n as [|n IH]; auto. cbn. rewrite Z.max_id. auto. Qed.
Lemma some_same : forall (x : Z) n, all_some (repeat (Some x) n) = Some (repeat x n).
Proof. intros x. induction n as [|n IH]; auto. cbn. rewrite IH. auto. Qed.
Lemma map_repeat : forall A B (f : A -> B) x n, map f (repeat x n) = repeat (f x) n.
Proof. intros A B f x. induction n as [|n IH]; auto. cbn. rewrite IH. auto. Qed.

Lemma same_post : forall c cb e n kids, good_children kids = repeat (cb, Some e) (S n) ->
  postprocess c None false false cb None kids = TOk (c, cb, Some e).
Proof.
  intros c cb e n kids G. unfold postprocess. cbn [post_pop_begin post_pop_end tbind]. rewrite G. unfold up_end, post_calculate_begin. rewrite !map_repeat.
  cbn [repeat fst snd]. change (Some e :: repeat (Some e) n) with (repeat (Some e) (S n)). rewrite some_same. cbn [repeat]. rewrite zmax_same, zmin_same.
  rewrite Z.ltb_irrefl. reflexivity.
Qed.

Definition all_times (b : tattr) (cb e : Z) (lines : list string) : ctree :=
  CTimed (Some b) None cb (Some e) [CTimed None None cb (Some e) [CTimed None None cb (Some e) (spaced (span_times cb e) COther lines)]].
Lemma produced_times : forall av lines b d, lines <> [] -> (0 < ta_us b)%Z -> ta_us d = 1000000 ->
  validate av (Some (timing_body (mkBodyd None (Some b) None (Some d) [fragment (between lines)]))) =
  TOk (start_at (at_avail av) (ta_us b), Some (ta_us b + 1000000), all_times b (start_at (at_avail av) (ta_us b)) (ta_us b + 1000000) lines).
Proof.
  intros av lines b d Ne Hb Hd. unfold validate. cbv zeta. set (a := at_avail av). clearbody a.
  unfold visit_body. cbn [timing_body b_begin b_end b_dur b_kids bd_begin bd_end bd_dur bd_kids].
  assert (D1 : delta (Some b) = Some (ta_us b)) by (cbn; destruct (Z.eqb_spec (ta_us b) 0); [lia|auto]).
  assert (D2 : delta (Some d) = Some 1000000) by (cbn; rewrite Hd; auto). rewrite D1, D2.
  change (delta None) with (@None Z). cbn [body_pre_calculate_end pre_assign_end]. unfold pre_assign_begin at 1. cbn [c_begin_stack c_end_stack c_syncbase ctx0 Z.add].
  set (b0 := ta_us b). set (e0 := 1000000 + b0). assert (Ee : b0 + 1000000 = e0) by (unfold e0; lia). rewrite Ee.
  replace (if (a =? 0)%Z then b0 else Z.max b0 a) with (start_at a b0) by (unfold start_at; destruct (Z.eqb_spec a 0), (Z.eq_dec a 0); try contradiction; auto).
  cbn [map visit_all]. unfold fragment. cbn [timing map]. rewrite visit_Timed. change (delta None) with (@None Z).
  cbn [pre_calculate_end]. unfold pre_assign_begin at 1. cbn [c_syncbase]. replace (if (a =? 0)%Z then b0 else Z.max b0 a) with (start_at a b0) by (unfold start_at; destruct (Z.eqb_spec a 0), (Z.eq_dec a 0); try contradiction; auto).
  cbn [visit_all]. rewrite visit_Timed. change (delta None) with (@None Z).
  cbn [pre_calculate_end]. unfold pre_assign_begin at 1. cbn [c_syncbase]. replace (if (a =? 0)%Z then b0 else Z.max b0 a) with (start_at a b0) by (unfold start_at; destruct (Z.eqb_spec a 0), (Z.eq_dec a 0); try contradiction; auto).
  rewrite between_visit. cbn [tbind]. destruct lines as [|s r]; [contradiction|].
  rewrite (same_post _ _ e0 (List.length r)) by apply good_between. cbn [tbind].
  rewrite (same_post _ _ e0 0) by reflexivity. cbn [tbind].
  unfold postprocess. cbn [post_pop_begin post_pop_end tbind c_begin_stack c_end_stack c_syncbase badly_timed]. reflexivity.
Qed.

(** Its styles. *)
Definition span_sel : sel := SNode Span (Some ["defaultStyle1"]) None [].
Lemma between_styling : forall lines, flat_map styling (between lines) = repeat span_sel (List.length lines).
Proof. induction lines as [|s [|s' r] IH]; auto. cbn [between flat_map styling app List.length repeat] in *. rewrite IH. reflexivity. Qed.

Definition get_ok {A} (dflt : A) (r : sres A) : A := match r with SOk a => a | SErr _ => dflt end.
Definition no_world : world := mkW sstart [] None.
Definition no_computed : computed := mkC no_attrs [] false.
Definition no_styled : styled := mkStyled [] [] [] None no_attrs no_computed.
Definition the_regions := fst (get_ok ([], no_world) (pass_regions the_table plain_size the_table no_world)).
Definition w_regions := snd (get_ok ([], no_world) (pass_regions the_table plain_size the_table no_world)).
Definition step_el (w : world) (s : option (list string)) parent defer := get_ok no_styled (fst (collect the_table plain_size w s parent defer [])).
Definition step_w (w : world) (s : option (list string)) parent defer := snd (collect the_table plain_size w s parent defer []).
Definition el_body := step_el w_regions None None true.
Definition w_body := push (step_w w_regions None None true) el_body.
Definition w_div0 := get_ok no_world (set_region the_regions Div (Some "bottomRegion") w_body).
Definition el_div := step_el w_div0 None (Some (e_computed el_body)) true.
Definition w_div := push (step_w w_div0 None (Some (e_computed el_body)) true) el_div.
Definition el_p := step_el w_div None (Some (e_computed el_div)) false.
Definition w_p := push (step_w w_div None (Some (e_computed el_div)) false) el_p.
Definition el_span := step_el w_p (Some ["defaultStyle1"]) (Some (e_computed el_p)) false.
Definition o_span : sout := SOut Span None el_span [].
Definition w_span := snd (get_ok (o_span, no_world) (style_pass the_table plain_size the_regions (Some (e_computed el_p)) span_sel w_p)).

Lemma spans_pass : forall n, pass_all the_table plain_size the_regions (Some (e_computed el_p)) (repeat span_sel (S n)) w_p =
  SOk (repeat o_span (S n), w_span).
Proof.
  assert (K : forall n, pass_all the_table plain_size the_regions (Some (e_computed el_p)) (repeat span_sel n) w_span = SOk (repeat o_span n, w_span)).
  { induction n as [|n IH]; auto. cbn [repeat pass_all].
    replace (style_pass the_table plain_size the_regions (Some (e_computed el_p)) span_sel w_span) with (@SOk (sout * world) (o_span, w_span)) by (vm_compute; reflexivity).
    cbn [sbind]. rewrite IH. reflexivity. }
  intros n. cbn [repeat pass_all].
  replace (style_pass the_table plain_size the_regions (Some (e_computed el_p)) span_sel w_p) with (@SOk (sout * world) (o_span, w_span)) by (vm_compute; reflexivity).
  cbn [sbind]. rewrite K. reflexivity.
Qed.

Definition all_styles (lines : list string) : sout :=
  SOut Body None el_body [SOut Div (Some "bottomRegion") el_div [SOut P None el_p (repeat o_span (List.length lines))]].
Lemma produced_styles : forall lines b d, lines <> [] ->
  validate_styles the_table plain_size (styling_body (mkBodyd None (Some b) None (Some d) [fragment (between lines)])) =
  SOk (the_regions, all_styles lines).
Proof.
  intros lines b d Ne. unfold styling_body, fragment. cbn [bd_style bd_kids flat_map styling app]. rewrite between_styling.
  destruct lines as [|s r]; [contradiction|].
  unfold validate_styles. replace (check_styles plain_size the_table) with (@SOk unit tt) by (vm_compute; reflexivity). cbn [sbind].
  replace (pass_regions the_table plain_size the_table (mkW sstart [] None)) with (@SOk (list (string * styled) * world) (the_regions, w_regions)) by (vm_compute; reflexivity).
  cbn [sbind]. rewrite style_pass_eq. cbn [set_region sbind defers].
  replace (collect the_table plain_size w_regions None None true []) with (@SOk styled el_body, step_w w_regions None None true) by (vm_compute; reflexivity).
  fold w_body. cbn [pass_all]. rewrite style_pass_eq.
  replace (set_region the_regions Div (Some "bottomRegion") w_body) with (@SOk world w_div0) by (vm_compute; reflexivity). cbn [sbind defers].
  replace (collect the_table plain_size w_div0 None (Some (e_computed el_body)) true []) with (@SOk styled el_div, step_w w_div0 None (Some (e_computed el_body)) true) by (vm_compute; reflexivity).
  fold w_div. cbn [pass_all]. rewrite style_pass_eq. cbn [set_region sbind defers].
  replace (collect the_table plain_size w_div None (Some (e_computed el_div)) false []) with (@SOk styled el_p, step_w w_div None (Some (e_computed el_div)) false) by (vm_compute; reflexivity).
  fold w_p. cbn [List.length]. rewrite spans_pass. reflexivity.
Qed.

(** With both, validated. *)
Fixpoint span_nodes (cb e : Z) (l : list string) : list vnode :=
  match l with
  | [] => []
  | s :: r => VNode Span None None (Some ["defaultStyle1"]) None None cb (Some e) ["defaultStyle1"] (Some "bottomRegion") [VText s]
              :: match r with [] => [] | _ => VBr :: span_nodes cb e r end
  end.
Definition produced_body (b d : tattr) (cb e : Z) (lines : list string) : vbody :=
  mkVbody None (Some b) None (Some d) cb (Some e) []
    [VNode Div None (Some "bottomRegion") None None None cb (Some e) [] (Some "bottomRegion")
      [VNode P (Some "ID001") None None None None cb (Some e) [] (Some "bottomRegion") (span_nodes cb e lines)]].

Lemma annotate_between : forall cb e lines,
  annotate_all (between lines) (spaced (span_times cb e) COther lines) (repeat o_span (List.length lines)) = span_nodes cb e lines.
Proof.
  intros cb e. assert (V : validated_styles el_span = ["defaultStyle1"] /\ e_region el_span = Some "bottomRegion") by (split; vm_compute; reflexivity). destruct V as [V1 V2].
  induction lines as [|s [|s0 r] IH]; [reflexivity|reflexivity|]; unfold span_times, o_span in *.
  - change (between (s :: s0 :: r)) with (line_span "defaultStyle1" s :: Br :: between (s0 :: r)).
    change (spaced (CTimed None None cb (Some e) [COther]) COther (s :: s0 :: r)) with (CTimed None None cb (Some e) [COther] :: COther :: spaced (CTimed None None cb (Some e) [COther]) COther (s0 :: r)).
    change (repeat (SOut Span None el_span []) (List.length (s :: s0 :: r))) with (SOut Span None el_span [] :: repeat (SOut Span None el_span []) (List.length (s0 :: r))).
    change (annotate_all (line_span "defaultStyle1" s :: Br :: between (s0 :: r))
      (CTimed None None cb (Some e) [COther] :: COther :: spaced (CTimed None None cb (Some e) [COther]) COther (s0 :: r))
      (SOut Span None el_span [] :: repeat (SOut Span None el_span []) (List.length (s0 :: r))))
      with (VNode Span None None (Some ["defaultStyle1"]) None None cb (Some e) (validated_styles el_span) (e_region el_span) [VText s] :: VBr ::
            annotate_all (between (s0 :: r)) (spaced (CTimed None None cb (Some e) [COther]) COther (s0 :: r)) (repeat (SOut Span None el_span []) (List.length (s0 :: r)))).
    rewrite IH, V1, V2. reflexivity.
Qed.

Lemma produced_checked : forall q n av lines b d, lines <> [] -> (0 < ta_us b)%Z -> ta_us d = 1000000 ->
  let x := produced q n (between lines) b d in
  let cb := start_at (at_avail av) (ta_us b) in let e := ta_us b + 1000000 in
  checked plain_size av x =
  Some (cb, Some e, mkDocu (t_base x) n (Some produced_styling) (Some produced_layout) (Some (produced_body b d cb e lines))).
Proof.
  intros q n av lines b d Ne Hb Hd x cb e. unfold checked.
  set (bd := mkBodyd None (Some b) None (Some d) [fragment (between lines)]). change (t_body x) with (Some bd). cbv beta iota.
  rewrite (produced_table q n lines b d : doc_table x bd = the_table).
  rewrite (produced_times av lines b d Ne Hb Hd : validate av (Some (timing_body bd)) = _), (produced_styles lines b d Ne : validate_styles the_table plain_size (styling_body bd) = _).
  replace (distinct (map fst the_table)) with true by (vm_compute; reflexivity). unfold all_times, all_styles. fold cb e.
  unfold bd, produced_body. cbn [bd_style bd_begin bd_end bd_dur bd_kids]. rewrite <- annotate_between. reflexivity.
Qed.

(** What is to be read in it. *)
Lemma appear_between : forall t cb e lines, SegmentSpec.active t cb (Some e) = true -> Forall (fun s => blank s = false) lines ->
  let l := appear_all t (between lines) (spaced (span_times cb e) COther lines) (repeat o_span (List.length lines)) in
  flat_map words l = lines /\ (lines <> [] -> existsb legible l = true).
Proof.
  intros t cb e lines A. induction lines as [|s r IH]; intros F; [split; [auto|contradiction]|].
  inversion F as [|? ? B Fr]; subst. specialize (IH Fr). cbv zeta in *.
  assert (S : forall os, appear t (line_span "defaultStyle1" s) (span_times cb e) (o_span :: os) =
    [TEl Span None (e_region el_span) (c_attrs (e_computed el_span)) [TText s]]).
  { intros os. unfold line_span, span_times, o_span. cbn [appear app]. rewrite A. cbn [existsb legible]. rewrite B. reflexivity. }
  destruct r as [|s0 r].
  - cbn [between spaced List.length repeat appear_all]. rewrite S. cbn [app flat_map words]. unfold word. rewrite B. split; auto.
  - change (between (s :: s0 :: r)) with (line_span "defaultStyle1" s :: Br :: between (s0 :: r)).
    change (spaced (span_times cb e) COther (s :: s0 :: r)) with (span_times cb e :: COther :: spaced (span_times cb e) COther (s0 :: r)).
    change (repeat o_span (List.length (s :: s0 :: r))) with (o_span :: repeat o_span (List.length (s0 :: r))).
    set (rest0 := appear_all t (between (s0 :: r)) (spaced (span_times cb e) COther (s0 :: r)) (repeat o_span (List.length (s0 :: r)))) in *.
    assert (E : appear_all t (line_span "defaultStyle1" s :: Br :: between (s0 :: r)) (span_times cb e :: COther :: spaced (span_times cb e) COther (s0 :: r))
      (o_span :: repeat o_span (List.length (s0 :: r))) = (appear t (line_span "defaultStyle1" s) (span_times cb e) (o_span :: repeat o_span (List.length (s0 :: r))) ++ TBreak :: rest0)%list) by reflexivity.
    rewrite E, S. cbn [app flat_map words existsb legible]. unfold word. rewrite B, (proj1 IH). split; auto.
Qed.

Lemma span_nodes_cons : forall cb e s s0 r, span_nodes cb e (s :: s0 :: r) =
  VNode Span None None (Some ["defaultStyle1"]) None None cb (Some e) ["defaultStyle1"] (Some "bottomRegion") [VText s] :: VBr :: span_nodes cb e (s0 :: r).
Proof. reflexivity. Qed.
Lemma plain_spans : forall cb e lines, map plain (span_nodes cb e lines) = between lines.
Proof. intros cb e. induction lines as [|s [|s0 r] IH]; auto. rewrite span_nodes_cons. cbn [map]. rewrite IH. reflexivity. Qed.
Lemma times_spans : forall cb e lines, map vtimes (span_nodes cb e lines) = spaced (span_times cb e) COther lines.
Proof. intros cb e. induction lines as [|s [|s0 r] IH]; auto. rewrite span_nodes_cons. cbn [map]. rewrite IH. reflexivity. Qed.
Lemma produced_plain : forall b d cb e lines, plain_body (produced_body b d cb e lines) = mkBodyd None (Some b) None (Some d) [fragment (between lines)].
Proof. intros. unfold plain_body, produced_body. cbn. rewrite plain_spans. reflexivity. Qed.
Lemma produced_vtimes : forall b d cb e lines, vtimes_body (produced_body b d cb e lines) = all_times b cb e lines.
Proof. intros. unfold vtimes_body, produced_body. cbn. rewrite times_spans. reflexivity. Qed.

Lemma produced_words : forall b d cb e bs n lines t, lines <> [] -> Forall (fun s => blank s = false) lines ->
  flat_map words (ResegSpec.as_seen (mkStored (mkDocu bs n (Some produced_styling) (Some produced_layout) (Some (produced_body b d cb e lines))) plain_size) t) =
  if SegmentSpec.active t cb (Some e) then lines else [].
Proof.
  intros b d cb e bs n lines t Ne F. unfold ResegSpec.as_seen. cbn [st_doc st_size t_body]. unfold looks_checked. rewrite produced_plain, produced_vtimes.
  set (x := mkDocu bs n (Some produced_styling) (Some produced_layout) (Some (produced_body b d cb e lines))).
  assert (T : doc_table x (mkBodyd None (Some b) None (Some d) [fragment (between lines)]) = the_table) by (unfold doc_table, body_ids; cbn; rewrite between_ids; reflexivity).
  rewrite T, (produced_styles lines b d Ne). unfold all_times, all_styles. cbn [appear_body bd_kids].
  destruct (SegmentSpec.active t cb (Some e)) eqn:A; auto. unfold fragment. cbn [appear_all rest]. rewrite app_nil_r.
  destruct (appear_between t cb e lines A F) as [W L]. specialize (L Ne). set (l := appear_all t (between lines) _ _) in *.
  rewrite LookDressProofs.appear_eq. cbn [appear_all rest]. rewrite app_nil_r, LookDressProofs.appear_eq. fold l. rewrite A, L. cbn [andb existsb legible orb].
  cbn [flat_map words]. rewrite W, !app_nil_r. reflexivity.
Qed.

(** They can be cut and converted. *)
Lemma produced_encodable : forall q n av lines b d dd v, lines <> [] -> Forall (fun s => blank s = false) lines ->
  0 < ta_us b -> ta_us d = 1000000 -> q_tb q = "clock" -> 0 <= n -> 0 <= av < ta_us b + 1000000 -> ta_us b + 1000000 < h100 ->
  received q av (produced q n (between lines) b d) = Some (dd, v) ->
  let cb := Z.max (ta_us b) av in let e := ta_us b + 1000000 in
  encodable Clock plain_size (e_computed el_body) dd v /\ dd = mkDoc n (q_sid q) (q_tb q) (q_cm q) (q_agid q) n cb (Some e) /\
  forall t, flat_map words (ResegSpec.as_seen v t) = if SegmentSpec.active t cb (Some e) then lines else [].
Proof.
  intros q n av lines b d dd v Ne Bl Hb Hd Tb Hn Ha He R cb e. unfold received in R.
  assert (C := produced_checked q n (Some av) lines b d Ne Hb Hd). cbv beta iota zeta in C. rewrite C in R. inversion R as [[R1 R2]]. clear R. subst v.
  assert (Ec : start_at av (ta_us b) = cb) by (unfold start_at, cb; destruct (Z.eq_dec av 0); lia). rewrite Ec in C, R1 |- *.
  cbn [produced t_seq t_base] in R1. split; [|split; [auto|intros t; apply produced_words; auto]].
  assert (Hc : 0 < cb < e) by (unfold cb, e; lia).
  split; [|split].
  - eapply checked_holds; [exact C|reflexivity| | | | | | | |].
    + cbn. rewrite between_styling. clear. induction (List.length lines); auto.
    + split; [cbn; lia|]. split; [exact Logic.I|]. split; [cbn; lia|]. cbn [timing_body b_kids bd_kids map fragment timing]. repeat (constructor; try exact Logic.I).
      clear. induction lines as [|s [|s0 r] IH]; repeat (constructor; try exact Logic.I). cbn [between map] in *. inversion IH; auto.
    + lia.
    + reflexivity.
    + auto.
    + auto.
    + auto.
    + exists (e_computed el_body). split; [|apply as_parent_ceq; apply ceq_refl]. unfold body_computed. cbn [t_body produced]. rewrite produced_table, (produced_styles lines b d Ne). reflexivity.
  - split; [cbn [st_doc t_base]; rewrite Tb; reflexivity|]. split.
    + intros v Ev. inversion Ev; subst v. cbn [vb_kids produced_body]. split; [repeat constructor|].
      assert (Sp : Forall (fun v => room P v = true) (span_nodes cb e lines) /\ has_text (span_nodes cb e lines) = false /\ Forall PipeSpec.subtitle (span_nodes cb e lines)).
      { clear. induction lines as [|s [|s0 r] IH].
        - repeat constructor.
        - repeat constructor; discriminate.
        - rewrite span_nodes_cons. destruct IH as (I1 & I2 & I3). split; [repeat (constructor; auto)|]. split; [exact I2|]. constructor; [|constructor; [constructor|exact I3]].
          constructor; [repeat constructor|discriminate|repeat constructor]. }
      destruct Sp as (S1 & S2 & S3). constructor; [|constructor]. constructor; [repeat constructor|discriminate|]. constructor; [|constructor]. constructor; auto.
    + intros i st f Hi Hf. vm_compute in Hi. destruct Hi as [Hi|[]]. inversion Hi; subst. discriminate.
  - intros v Ev. inversion Ev; subst v. cbn [vb_kids produced_body d_begin d_end].
    split; [intros Q; inversion Q; unfold e in *; lia|]. split; [eexists; reflexivity|]. split; [eexists; reflexivity|].
    assert (Sp : Forall well_timed (span_nodes cb e lines) /\ Forall times_ok (span_nodes cb e lines) /\ forall lo hi, Forall (busy lo hi) (span_nodes cb e lines)).
    { assert (Eo : end_ok (Some e)) by (unfold end_ok, e; lia). assert (Bo : cb < h100) by (unfold cb, e in *; lia). clearbody cb e. clear - Eo Bo. induction lines as [|s [|s0 r] IH].
      - repeat constructor.
      - split; [repeat constructor|]. split; [repeat (constructor; auto)|]. intros lo hi. repeat constructor. discriminate.
      - rewrite span_nodes_cons. destruct IH as (I1 & I2 & I3). split; [repeat (constructor; auto)|]. split; [repeat (constructor; auto)|].
        intros lo hi. constructor; [|constructor; [constructor|apply I3]]. repeat constructor. discriminate. }
    destruct Sp as (S1 & S2 & S3).
    assert (Eo : end_ok (Some e)) by (unfold end_ok, e; lia). assert (Bo : cb < h100) by (unfold cb, e in *; lia).
    split; [repeat (constructor; auto)|]. split; [repeat (constructor; auto)|]. intros lo hi _.
    constructor; [|constructor]. constructor.
    + intros _ Is. eexists. split; [eapply part_below; [left; reflexivity|apply part_here]|]. split; [reflexivity|exact Is].
    + constructor; [|constructor]. constructor; [discriminate|apply S3].
Qed.
