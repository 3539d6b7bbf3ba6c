(** C31: a segment of a document presents what the document presents. *)

From Coq Require Import List ZArith String Bool Lia.
From Verif Require Import TimingModel TimingSpec TimingProofs PropsTiming TimeModel TimeSpec
  StyleModel TimelineModel SegmentModel SegmentSpec SegmentProofs.
Import ListNotations.
Open Scope Z_scope.

(** Inside the window the segment presents at an instant what the document
    presents at that instant, up to the identifiers; outside it presents nothing.
    Instants are those the times written into the segment can tell apart. *)
Theorem C31_same_presentation : forall d dec sb se seg v avail cb ce,
  segment d dec sb se = GOk seg -> t_body d = Some v ->
  validate avail (Some (timing_body (plain_body v))) = TOk (cb, ce, vtimes_body v) ->
  0 <= at_avail avail -> nn_body (timing_body (plain_body v)) ->
  presentable sb se v -> begin_ok sb -> end_ok se ->
  exists bd, t_body seg = Some bd /\
    forall b e ct, validate None (Some (timing_body bd)) = TOk (b, e, ct) ->
    forall t, present_body t bd ct =
      if in_window sb se (ms_last t)
      then map (rename (copy_ref dec (t_seq d))) (present_body (ms_last t) (plain_body v) (vtimes_body v))
      else [].
Proof.
  intros d dec sb se seg v avail cb ce S Bv V A0 NN (P1 & P2 & P3 & P4 & P5) Wb We.
  destruct (segment_inv _ _ _ _ _ S) as (v' & styles & regions & bd0 & orph & stl & lay & bd & H). cbv zeta in H.
  destruct H as (Bv' & _ & _ & _ & _ & CB & _ & _ & _ & _ & Bs & _ & Ks & Kn & Ke).
  rewrite Bv in Bv'. inversion Bv'; subst v'. exists bd. split; auto. intros b e ct Vs t.
  destruct (C12_compositional _ _ _ _ _ V) as [T _].
  assert (M : forall c, timed_body 0 (timing_body bd0) c -> present_body t bd0 c =
    if win (segment_ctx d v dec sb se) t
    then map (ren (segment_ctx d v dec sb se)) (present_body (ms_last t) (plain_body v) (vtimes_body v)) else []).
  { intros c Tc. eapply body_main; eauto. split; auto. }
  destruct (bd_kids bd0) as [|n ns] eqn:K.
  - destruct (C11_never_fails None (Some (timing_body bd0))) as (b0 & e0 & c0 & V0).
    destruct (C12_compositional _ _ _ _ _ V0) as [T0 _]. specialize (M _ T0).
    assert (E0 : present_body t bd0 c0 = []).
    { destruct c0 as [? ? ? ? cs|]; cbn; auto. rewrite K. destruct (active t cb0 ce0); auto. }
    assert (E1 : present_body t bd ct = []).
    { destruct ct as [? ? ? ? cs|]; cbn; auto. rewrite Ks. destruct (active t cb0 ce0); auto. }
    rewrite E0 in M. rewrite E1. exact M.
  - rewrite (Kn ltac:(discriminate)) in *. destruct (C12_compositional _ _ _ _ _ Vs) as [Ts _]. exact (M _ Ts).
Qed.

(** With all times on whole milliseconds it is so for every instant. *)
Lemma whole_active : forall t cb ce, whole cb -> owhole ce -> active (ms_last t) cb ce = active t cb ce.
Proof.
  intros t cb ce Hb He. apply eq_iff_eq_true. unfold active. rewrite !andb_true_iff, !Z.leb_le.
  rewrite <- (ms_last_ge t cb). unfold whole in Hb. unfold trunc_ms at 1. rewrite Hb, Z.sub_0_r.
  destruct ce as [e|]; [|tauto]. rewrite !Z.ltb_lt, <- (ms_last_lt t e). cbn in He. unfold whole in He.
  unfold trunc_ms. rewrite He, Z.sub_0_r. tauto.
Qed.

Lemma whole_window : forall t sb se, owhole sb -> owhole se -> in_window sb se (ms_last t) = in_window sb se t.
Proof.
  intros t [b|] [e|] Hb He; cbn in Hb, He; unfold in_window.
  - exact (whole_active t b (Some e) Hb He).
  - assert (Q := whole_active t b None Hb I). exact Q.
  - apply eq_iff_eq_true. rewrite !andb_true_l, !Z.ltb_lt. rewrite <- (ms_last_lt t e). unfold trunc_ms.
    unfold whole in He. rewrite He, Z.sub_0_r. tauto.
  - auto.
Qed.

Lemma whole_present : forall t v, whole_ms v -> present (ms_last t) (plain v) (vtimes v) = present t (plain v) (vtimes v).
Proof.
  intros t. induction v as [s| |k i r st b e cb ce vs inh kids IH] using vnode_ind'; intros W; auto.
  inversion W as [| |? ? ? ? ? ? ? ? ? ? ? Hb He Hk]; subst. cbn [plain vtimes]. rewrite !present_eq, whole_active; auto.
  assert (E : present_all (ms_last t) (map plain kids) (map vtimes kids) = present_all t (map plain kids) (map vtimes kids)).
  { clear - IH Hk. induction IH as [|v vs Hv Hr IH2]; auto. inversion Hk; subst. cbn. rewrite Hv, IH2; auto. }
  rewrite E. auto.
Qed.

Lemma whole_present_body : forall t v, whole_doc v ->
  present_body (ms_last t) (plain_body v) (vtimes_body v) = present_body t (plain_body v) (vtimes_body v).
Proof.
  intros t v (Hb & He & Hk). cbn. rewrite whole_active; auto.
  assert (E : present_all (ms_last t) (map plain (vb_kids v)) (map vtimes (vb_kids v)) = present_all t (map plain (vb_kids v)) (map vtimes (vb_kids v))).
  { clear - Hk. induction Hk as [|w ws Hw Hr IH]; auto. cbn. rewrite whole_present, IH; auto. }
  rewrite E. auto.
Qed.

Theorem C31_same_presentation_ms : forall d dec sb se seg v avail cb ce,
  segment d dec sb se = GOk seg -> t_body d = Some v ->
  validate avail (Some (timing_body (plain_body v))) = TOk (cb, ce, vtimes_body v) ->
  0 <= at_avail avail -> nn_body (timing_body (plain_body v)) ->
  presentable sb se v -> begin_ok sb -> end_ok se ->
  whole_doc v -> owhole sb -> owhole se ->
  exists bd, t_body seg = Some bd /\
    forall b e ct, validate None (Some (timing_body bd)) = TOk (b, e, ct) ->
    forall t, present_body t bd ct =
      if in_window sb se t
      then map (rename (copy_ref dec (t_seq d))) (present_body t (plain_body v) (vtimes_body v))
      else [].
Proof.
  intros d dec sb se seg v avail cb ce S Bv V A0 NN Pr Wb We Wd Wsb Wse.
  destruct (C31_same_presentation _ _ _ _ _ _ _ _ _ S Bv V A0 NN Pr Wb We) as (bd & Ebd & H).
  exists bd. split; auto. intros b e ct Vs t. rewrite (H _ _ _ Vs t), whole_window, whole_present_body; auto.
Qed.

(** ** When a segment is made *)

(** Head with styling and layout, body and window overlapping, references that
    resolve inside the segment, times that can be written: then there is a
    segment. *)
Theorem C31_succeeds : forall d dec s e v stl lay avail cb ce,
  t_body d = Some v -> t_styling d = Some stl -> t_layout d = Some lay ->
  validate avail (Some (timing_body (plain_body v))) = TOk (cb, ce, vtimes_body v) ->
  0 <= at_avail avail -> nn_body (timing_body (plain_body v)) ->
  Forall times_ok (vb_kids v) -> 0 <= s < h100 -> 1000 <= e < h100 ->
  is_in_segment (vb_cb v) (vb_ce v) (Some s) (Some e) = true ->
  let x := segment_ctx d v dec (Some s) (Some e) in
  (forall l j, vb_style v = Some l -> In j l -> In j (x_styles x)) ->
  Forall (resolves (Some s) (Some e) (x_styles x) (x_regions x)) (vb_kids v) ->
  (forall i st rs j, In (i, st) stl -> In i (x_styles x) -> s_refs st = Some rs -> In j rs -> In j (x_styles x)) ->
  (forall i r rs j, In (i, r) lay -> In i (x_regions x) -> r_refs r = Some rs -> In j rs -> In j (x_styles x)) ->
  exists seg, segment d dec (Some s) (Some e) = GOk seg.
Proof.
  intros d dec s e v stl lay avail cb ce Bv St La V A0 NN TO Hs He Is x Rb Rk Rst Rrg.
  destruct (C12_compositional _ _ _ _ _ V) as [T _].
  unfold segment. rewrite Bv. cbn zeta. fold x. rewrite St, La. cbn [els].
  destruct (styles_succeed x stl Rst) as (styles & ->). cbn [gbind].
  destruct (regions_succeed x lay Rrg) as (regions & ->). cbn [gbind].
  assert (exists bd o', copy_body x v (needed_styles v (Some s) (Some e) ++ needed_regions v (Some s) (Some e))%list = GOk (Some bd, o')) as (bd & o' & ->).
  { unfold copy_body. cbn [x x_begin x_end segment_ctx]. rewrite Is. fold x.
    destruct (map_style_succeeds x (vb_style v) Rb) as (st' & ->). cbn [gbind].
    destruct NN as (OB & _ & _ & Nk). apply offset_nn in OB.
    assert (F : Forall2 (timed (at_avail avail) (offset (b_begin (timing_body (plain_body v)))) (body_end (at_avail avail) (timing_body (plain_body v))))
                (map timing (map plain (vb_kids v))) (map vtimes (vb_kids v))) by (inversion T; auto).
    apply timed_kids in F.
    assert (S0 : 0 <= start_at (at_avail avail) (offset (b_begin (timing_body (plain_body v))))).
    { unfold start_at. destruct (Z.eq_dec (at_avail avail) 0); lia. }
    destruct (nodes_succeed x (at_avail avail) s e eq_refl Hs eq_refl He (vb_kids v) _ _ Rk TO Nk S0 F
      (needed_styles v (Some s) (Some e) ++ needed_regions v (Some s) (Some e))%list) as (ks & o1 & ->).
    cbn [gbind]. eauto. }
  cbn [gbind]. destruct (bd_kids bd); [|cbn [gbind]; eauto].
  destruct (timing_type_ok (t_base d) s Hs) as (tb & ->). cbn [gbind].
  destruct (timing_type_ok (t_base d) e ltac:(lia)) as (te & ->). cbn [gbind]. eauto.
Qed.

(** ** A document *)

Local Open Scope string_scope.
Local Definition sec : Z := 1000000.
Local Definition at_ (s : string) (v : Z) : option tattr := Some (mkTattr s v).

(** Two paragraphs, one with two timed spans, in a div with style and region. *)
Definition doc1_body : vbody :=
  mkVbody None None None None (1 * sec) (Some (10 * sec)) []
   [VNode Div (Some "d1") (Some "r1") (Some ["s1"]) None None (1 * sec) (Some (10 * sec)) ["s1"] (Some "r1")
     [VNode P (Some "p1") None None None None (1 * sec) (Some (6 * sec)) ["s1"] (Some "r1")
       [VNode Span None None (Some ["s2"]) (at_ "00:00:01.000" (1 * sec)) (at_ "00:00:03.000" (3 * sec))
          (1 * sec) (Some (3 * sec)) ["s2"; "s1"] (Some "r1") [VText "Hello"];
        VBr;
        VNode Span None None None (at_ "00:00:03.000" (3 * sec)) (at_ "00:00:06.000" (6 * sec))
          (3 * sec) (Some (6 * sec)) ["s1"] (Some "r1") [VText "world"]];
      VNode P (Some "p2") None None (at_ "00:00:08.000" (8 * sec)) (at_ "00:00:10.000" (10 * sec))
        (8 * sec) (Some (10 * sec)) ["s1"] (Some "r1") [VText "bye"]]].
Definition doc1_styling := Some [("s0", mkStyle None no_attrs); ("s1", mkStyle None no_attrs); ("s2", mkStyle None no_attrs)].
Definition doc1_layout := Some [("r1", mkRegion (Some ["s1"]) None)].
Definition doc1 : docu vbody := mkDocu Media 7 doc1_styling doc1_layout (Some doc1_body).

(** What a validated document shows, and what its segment shows. *)
Definition shows (v : vbody) (t : Z) : list shown := present_body t (plain_body v) (vtimes_body v).
Definition seg_shows (d : docu vbody) (dec : bool) (sb se : option Z) (t : Z) : option (list shown) :=
  match segment d dec sb se with
  | GOk seg => match t_body seg with
               | Some bd => match validate None (Some (timing_body bd)) with
                            | TOk (_, _, ct) => Some (present_body t bd ct)
                            | TErr _ => None
                            end
               | None => None
               end
  | GErr _ => None
  end.

Example C31_doc1_validated :
  validate None (Some (timing_body (plain_body doc1_body))) = TOk (1 * sec, Some (10 * sec), vtimes_body doc1_body).
Proof. vm_compute. reflexivity. Qed.

Example C31_doc1_shown :
  seg_shows doc1 true (Some (2 * sec)) (Some (9 * sec)) (5 * sec / 2) =
    Some [SEl Div (Some "SEQ7.d1") (Some "SEQ7.r1") (Some ["SEQ7.s1"])
            [SEl P (Some "SEQ7.p1") None None [SEl Span None None (Some ["SEQ7.s2"]) [SText "Hello"]; SBreak]]] /\
  seg_shows doc1 true (Some (2 * sec)) (Some (9 * sec)) (8 * sec) =
    Some [SEl Div (Some "SEQ7.d1") (Some "SEQ7.r1") (Some ["SEQ7.s1"]) [SEl P (Some "SEQ7.p2") None None [SText "bye"]]] /\
  seg_shows doc1 true (Some (2 * sec)) (Some (9 * sec)) (1 * sec) = Some [] /\
  seg_shows doc1 true (Some (2 * sec)) (Some (9 * sec)) (19 * sec / 2) = Some [] /\
  shows doc1_body (1 * sec) <> [] /\ shows doc1_body (19 * sec / 2) <> [].
Proof. vm_compute. repeat split; discriminate. Qed.

Ltac ok_tree :=
  repeat match goal with
  | |- Forall _ [] => constructor
  | |- Forall _ (_ :: _) => constructor
  | |- shaped _ => constructor
  | |- well_timed _ => constructor
  | |- times_ok _ => constructor
  | |- whole_ms _ => constructor
  | |- plain_mix _ _ _ => constructor
  | |- nn_elem _ => constructor
  | |- untimed _ => constructor
  end.

(** The hypotheses of the theorem hold of it. *)
Example C31_doc1_meets : presentable (Some (2 * sec)) (Some (9 * sec)) doc1_body /\
  nn_body (timing_body (plain_body doc1_body)) /\ begin_ok (Some (2 * sec)) /\ end_ok (Some (9 * sec)) /\ whole_doc doc1_body.
Proof.
  split; [|split; [|split; [|split]]].
  - split; [|split; [|split; [|split]]]; cbn [vb_kids doc1_body]; ok_tree; try reflexivity; try (cbn; unfold h100, sec; lia); discriminate.
  - split; [|split; [|split]]; cbn; auto. ok_tree; cbn; auto; unfold sec; lia.
  - cbn. unfold h100, sec. lia.
  - cbn. unfold h100, sec. lia.
  - split; [reflexivity|]. split; [reflexivity|]. cbn [vb_kids doc1_body]. ok_tree; reflexivity.
Qed.

Example C31_doc1_resolves :
  let x := segment_ctx doc1 doc1_body true (Some (2 * sec)) (Some (9 * sec)) in
  x_styles x = ["s1"; "s2"] /\ x_regions x = ["r1"].
Proof. vm_compute. auto. Qed.

(** Text beside a span without times of its own is fine. *)
Definition doc2_body : vbody :=
  mkVbody None None None None (1 * sec) (Some (10 * sec)) []
   [VNode Div None None None None None (1 * sec) (Some (10 * sec)) [] None
     [VNode P (Some "p1") None None (at_ "00:00:01.000" (1 * sec)) (at_ "00:00:10.000" (10 * sec))
        (1 * sec) (Some (10 * sec)) [] None
       [VText "Hello "; VNode Span None None None None None (1 * sec) (Some (10 * sec)) [] None [VText "world"]]]].
Definition plain_doc (v : vbody) : docu vbody := mkDocu Media 1 (Some []) (Some []) (Some v).

Example C31_doc2 :
  validate None (Some (timing_body (plain_body doc2_body))) = TOk (1 * sec, Some (10 * sec), vtimes_body doc2_body) /\
  presentable (Some (2 * sec)) (Some (9 * sec)) doc2_body /\
  seg_shows (plain_doc doc2_body) false (Some (2 * sec)) (Some (9 * sec)) (5 * sec) = Some (shows doc2_body (5 * sec)) /\
  shows doc2_body (5 * sec) <> [].
Proof.
  split; [vm_compute; reflexivity|]. split; [|split; [vm_compute; reflexivity|vm_compute; discriminate]].
  split; [|split; [|split; [|split]]]; cbn [vb_kids doc2_body]; ok_tree; try reflexivity; try (cbn; unfold h100, sec; lia);
    try discriminate.
  intros _ _ _. split; [ok_tree|]. intros t Ht. vm_compute in Ht. inversion Ht; subst. vm_compute. reflexivity.
Qed.

(** ** What the hypotheses exclude *)

(** A validated document, and an instant inside the window at which the document
    shows something but the segment nothing. *)
Definition lost (d : docu vbody) (v : vbody) (sb se : option Z) (t : Z) : Prop :=
  t_body d = Some v /\
  validate None (Some (timing_body (plain_body v))) = TOk (vb_cb v, vb_ce v, vtimes_body v) /\
  in_window sb se t = true /\ shows v t <> [] /\ seg_shows d false sb se t = Some [].

(** Text beside a span with times of its own goes with the span: the paragraph
    has no times in the segment. *)
Definition doc3_body : vbody :=
  mkVbody None None None None (1 * sec) (Some (10 * sec)) []
   [VNode Div None None None None None (1 * sec) (Some (10 * sec)) [] None
     [VNode P (Some "p1") None None (at_ "00:00:01.000" (1 * sec)) (at_ "00:00:10.000" (10 * sec))
        (1 * sec) (Some (10 * sec)) [] None
       [VText "Hello ";
        VNode Span None None None (at_ "00:00:02.000" (2 * sec)) (at_ "00:00:04.000" (4 * sec)) (3 * sec) (Some (5 * sec)) [] None [VText "world"]]]].
Theorem C31_text_beside_timed_span : exists d v sb se t, lost d v sb se t /\
  Forall well_timed (vb_kids v) /\ Forall times_ok (vb_kids v).
Proof.
  exists (plain_doc doc3_body), doc3_body, (Some (1 * sec)), (Some (9 * sec)), (2 * sec).
  split; [|split; cbn [vb_kids doc3_body]; ok_tree; try reflexivity; cbn; unfold h100, sec; lia].
  repeat split; vm_compute; auto; discriminate.
Qed.

(** A span whose times are compared as text to be the wrong way round (9s, 10s) is
    not counted by its paragraph in the document, but is in the segment, where it
    is written in another form: what was not shown is shown. *)
Definition doc4_body : vbody :=
  mkVbody None None None None (1 * sec) (Some (2 * sec)) []
   [VNode Div None None None None None (1 * sec) (Some (2 * sec)) [] None
     [VNode P (Some "p1") None None None None (1 * sec) (Some (2 * sec)) [] None
       [VNode Span None None None (at_ "1s" (1 * sec)) (at_ "2s" (2 * sec)) (1 * sec) (Some (2 * sec)) [] None [VText "Hello"]];
      VNode P (Some "p2") None None (at_ "9s" (9 * sec)) (at_ "10s" (10 * sec)) (9 * sec) (Some (10 * sec)) [] None [VText "world"]]].
Theorem C31_badly_timed_shown : exists d v sb se t,
  t_body d = Some v /\
  validate None (Some (timing_body (plain_body v))) = TOk (vb_cb v, vb_ce v, vtimes_body v) /\
  in_window sb se t = true /\ shows v t = [] /\ exists x, seg_shows d false sb se t = Some [x].
Proof.
  exists (plain_doc doc4_body), doc4_body, (Some 0), None, (9 * sec).
  repeat split; try (vm_compute; auto; discriminate). eexists. vm_compute. reflexivity.
Qed.

(** An end inside the first millisecond is written as zero, which counts as no
    end: the segment goes on after the window. *)
Definition doc5_body : vbody :=
  mkVbody None None None None 0 None []
   [VNode Div None None None None None 0 None [] None
     [VNode P (Some "p1") None None None None 0 None [] None [VText "Hello"]]].
Theorem C31_first_millisecond : exists d v sb se t,
  t_body d = Some v /\
  validate None (Some (timing_body (plain_body v))) = TOk (vb_cb v, vb_ce v, vtimes_body v) /\
  in_window sb se t = false /\ exists x, seg_shows d false sb se t = Some [x].
Proof.
  exists (plain_doc doc5_body), doc5_body, (Some 0), (Some 500), (3600 * sec).
  repeat split; try (vm_compute; auto; discriminate). eexists. vm_compute. reflexivity.
Qed.

(** From the hundredth hour the text of the times no longer sorts like the times:
    a span across it is not counted in the segment. *)
Definition doc6_body : vbody :=
  mkVbody None None None None 0 (Some (360060 * sec)) []
   [VNode Div None None None None None 0 (Some (360060 * sec)) [] None
     [VNode P (Some "p1") None None None None 0 (Some (360060 * sec)) [] None
       [VNode Span None None None None (at_ "00:00:01.000" (1 * sec)) 0 (Some (1 * sec)) [] None [VText "Hello"];
        VNode Span None None None (at_ "359940s" (359940 * sec)) (at_ "360060s" (360060 * sec)) (359940 * sec) (Some (360060 * sec)) [] None [VText "world"]]]].
Theorem C31_hundred_hours : exists d v sb se t, lost d v sb se t /\ Forall well_timed (vb_kids v).
Proof.
  exists (plain_doc doc6_body), doc6_body, None, None, (360000 * sec).
  split; [|cbn [vb_kids doc6_body]; ok_tree; reflexivity].
  repeat split; vm_compute; auto; discriminate.
Qed.

(** ** When no segment is made *)

(** A head without styling or without layout, as the toolkit's own constructor
    makes it: an AttributeError, whatever the document says. *)
Theorem C31_needs_head : forall d dec sb se, t_styling d = None \/ t_layout d = None ->
  exists e, segment d dec sb se = GErr e.
Proof.
  intros d dec sb se H. destruct (segment d dec sb se) as [seg|e] eqn:S; [|eauto]. exfalso.
  destruct (segment_inv _ _ _ _ _ S) as (v & styles & regions & bd0 & orph & stl & lay & bd & Q). cbv zeta in Q.
  destruct Q as (_ & E1 & E2 & _). destruct H; congruence.
Qed.

(** A window the body is outside of: none either (the error is logged and the
    document left out by EBUTT3DocumentSequence.extract_segment). *)
Theorem C31_needs_overlap : forall d dec sb se v, t_body d = Some v ->
  is_in_segment (vb_cb v) (vb_ce v) sb se = false -> exists e, segment d dec sb se = GErr e.
Proof.
  intros d dec sb se v Bv H. destruct (segment d dec sb se) as [seg|e] eqn:S; [|eauto]. exfalso.
  destruct (segment_inv _ _ _ _ _ S) as (v' & styles & regions & bd0 & orph & stl & lay & bd & Q). cbv zeta in Q.
  destruct Q as (Bv' & _ & _ & _ & _ & C & _). rewrite Bv in Bv'. inversion Bv'; subst v'.
  unfold copy_body in C. cbn [segment_ctx x_begin x_end] in C. rewrite H in C. discriminate.
Qed.

(** A div inside the window whose paragraphs are all outside of it: KeyError when
    it has a style (or a region), although it is going to be left out. *)
Definition doc7_body : vbody :=
  mkVbody None None None None 0 (Some (10 * sec)) []
   [VNode Div (Some "d2") None None None None 0 (Some (9 * sec)) [] None
     [VNode P (Some "p2") None None None (at_ "00:00:09.000" (9 * sec)) 0 (Some (9 * sec)) [] None [VText "world"]];
    VNode Div (Some "d1") None (Some ["s1"]) (at_ "00:00:01.000" (1 * sec)) (at_ "00:00:10.000" (10 * sec)) (1 * sec) (Some (10 * sec)) ["s1"] None
     [VNode P (Some "p1") None None (at_ "00:00:01.000" (1 * sec)) (at_ "00:00:02.000" (2 * sec)) (2 * sec) (Some (3 * sec)) ["s1"] None [VText "Hello"]]].
Ltac checked :=
  split; [vm_compute; repeat (apply NoDup_cons; [cbn; intuition discriminate|]); apply NoDup_nil
         |eexists (mkSizing None (QArith_base.Qmake 32 1, QArith_base.Qmake 15 1)), _, _; split; vm_compute; reflexivity].
Theorem C31_idle_div_fails : exists d v sb se,
  t_body d = Some v /\ style_checked d v /\
  validate None (Some (timing_body (plain_body v))) = TOk (vb_cb v, vb_ce v, vtimes_body v) /\
  t_styling d = Some [("s1", mkStyle None no_attrs)] /\ t_layout d = Some [] /\
  segment d false sb se = GErr (KeyErr "s1").
Proof.
  exists (mkDocu Media 1 (Some [("s1", mkStyle None no_attrs)]) (Some []) (Some doc7_body)), doc7_body, (Some (5 * sec)), (Some (6 * sec)).
  split; [reflexivity|]. split; [checked|]. repeat split; vm_compute; reflexivity.
Qed.

(** A region on a div whose paragraphs all have regions of their own: KeyError,
    because only the regions of paragraphs and spans are looked at. *)
Definition doc8_body : vbody :=
  mkVbody None None None None 0 (Some (9 * sec)) []
   [VNode Div (Some "d1") (Some "r1") None None None 0 (Some (9 * sec)) [] (Some "r1")
     [VNode P (Some "p1") (Some "r2") None None (at_ "00:00:09.000" (9 * sec)) 0 (Some (9 * sec)) [] (Some "r2") [VText "Hello"]]].
Theorem C31_nested_region_fails : exists d v sb se,
  t_body d = Some v /\ style_checked d v /\
  validate None (Some (timing_body (plain_body v))) = TOk (vb_cb v, vb_ce v, vtimes_body v) /\
  t_styling d = Some [("s1", mkStyle None no_attrs)] /\ t_layout d = Some [("r1", mkRegion None None); ("r2", mkRegion None None)] /\
  segment d false sb se = GErr (KeyErr "r1").
Proof.
  exists (mkDocu Media 1 (Some [("s1", mkStyle None no_attrs)]) (Some [("r1", mkRegion None None); ("r2", mkRegion None None)]) (Some doc8_body)),
    doc8_body, (Some (5 * sec)), (Some (6 * sec)).
  split; [reflexivity|]. split; [checked|]. repeat split; vm_compute; reflexivity.
Qed.

(** An endless paragraph and no end of the window: a time that cannot be
    written. *)
Theorem C31_endless_fails : exists d v sb,
  t_body d = Some v /\ vb_kids v <> [] /\
  validate None (Some (timing_body (plain_body v))) = TOk (vb_cb v, vb_ce v, vtimes_body v) /\
  segment d false sb None = GErr TimeErr.
Proof.
  exists (plain_doc doc5_body), doc5_body, (Some 0). repeat split; vm_compute; auto; discriminate.
Qed.

Print Assumptions C31_same_presentation.
Print Assumptions C31_same_presentation_ms.
Print Assumptions C31_succeeds.
Print Assumptions C31_text_beside_timed_span.
Print Assumptions C31_badly_timed_shown.
Print Assumptions C31_first_millisecond.
Print Assumptions C31_hundred_hours.
Print Assumptions C31_needs_head.
Print Assumptions C31_needs_overlap.
Print Assumptions C31_idle_div_fails.
Print Assumptions C31_nested_region_fails.
Print Assumptions C31_endless_fails.
