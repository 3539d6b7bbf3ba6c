(** C55: a re-sequencing node followed by an EBU-TT-D encoder. *)

From Verif Require Import NodeProofs SequenceModel SequenceSpec SequenceProofs SequenceHistory SequenceInv NodeModel NodeSpec ReseqProofs PropsReseq.
From Coq Require Import List ZArith String Bool QArith Lia.
From Verif Require Import IdModel TimeSpec TimingModel TimingSpec TimingProofs PropsTiming StyleModel StyleProofs StyleTree PropsStyle PropsScope
  SegmentModel SegmentSpec SegmentProofs SegmentHeadProofs PropsSegment PropsSegmentHead PropsSegmentMade SpliceModel SpliceSpec SpliceProofs PropsSplice
  LookSpec LookProofs LookDressProofs PropsLook ResegModel ResegSpec PropsReseg.
From Verif Require Import PipeModel PipeSpec PipeProofs PipeReadProofs.
From Verif Require ConvertModel ConvertSpec ConvertStyleSpec.
Import ListNotations.
Open Scope Z_scope.

(** ** Identifiers and alignment do not matter for reading *)

Lemma words_nameless : forall s, words (nameless s) = words s.
Proof.
  fix IH 1. intros [s| |k i r a kids]; [reflexivity|reflexivity|]. cbn [nameless words]. induction kids as [|x l IHl]; [reflexivity|]. cbn [map flat_map]. rewrite IH, IHl. reflexivity.
Qed.
Lemma words_relook : forall f g s, words (relook f g s) = words s.
Proof.
  intros f g. fix IH 1. intros [s| |k i r a kids]; [reflexivity|reflexivity|]. cbn [relook words]. induction kids as [|x l IHl]; [reflexivity|]. cbn [map flat_map]. rewrite IH, IHl. reflexivity.
Qed.
Lemma all_nameless : forall l, all_words (map nameless l) = all_words l.
Proof. unfold all_words. induction l as [|x l IH]; auto. cbn [map flat_map]. rewrite words_nameless, IH. auto. Qed.
Lemma all_copied : forall n l, all_words (as_copied n l) = all_words l.
Proof.
  intros n l. unfold as_copied. rewrite all_nameless. unfold all_words. induction l as [|x l IH]; auto. cbn [map flat_map]. rewrite words_relook, IH. auto.
Qed.

(** ** What an extraction gives *)

Lemma tiles_from : forall ws b e, tiles b e ws -> forall lo, b = Some lo -> forall d wb we, In (d, wb, we) ws ->
  exists s, wb = Some s /\ lo <= s /\ match we with Some x => s <= x | None => True end.
Proof.
  induction ws as [|[[d0 wb0] we0] ws IH]; intros b e T lo E d wb we H; [destruct H|]. cbn [tiles] in T. destruct T as (-> & B & _ & N & T). subst b.
  destruct H as [H|H].
  - inversion H; subst. exists lo. split; auto. split; [lia|]. destruct we; auto. 
  - destruct we0 as [y|]; [|rewrite (N eq_refl) in H; destruct H]. cbn in B.
    destruct (IH _ _ T y eq_refl _ _ _ H) as (s & -> & L & R). exists s. split; auto. split; auto. lia.
Qed.

Lemma held_from_zero : forall z c0 d c v, holds z c0 d c -> t_body (st_doc c) = Some v -> Forall from_zero (vb_kids v).
Proof.
  intros z c0 d c v (_ & _ & _ & H) Bv. rewrite Bv in H. destruct H as (_ & _ & (av & V & A0) & (Nb & Ne & Nd & Nk) & _).
  apply C12_compositional in V as [T _]. cbn [timing_body plain_body b_kids b_begin bd_kids bd_begin] in *.
  assert (exists lim, Forall2 (timed (at_avail av) (offset (vb_begin v)) lim) (map timing (map plain (vb_kids v))) (map vtimes (vb_kids v))) as (lim & F).
  { unfold vtimes_body in T. inversion T; subst; eauto. }
  apply timed_kids in F. rewrite Forall_forall in *. intros w Hw. eapply timed_from_zero; [| |apply F; auto].
  - apply Nk. apply in_map, in_map. auto.
  - assert (O := offset_nn _ Nb). unfold start_at. destruct (Z.eq_dec _ _); lia.
Qed.

Lemma extract_leafy a h sid bs cm g s ts lo b e content z c0 n discard s' u :
  known a h sid (base_name bs) cm g s ts -> bounds_ok (Some b) e -> lo mod 1000 = 0 -> lo <= b -> Forall (ready content z c0) (asked s (Some b) e) ->
  (forall d, In d h -> suited bs (content d)) -> pos_size z ->
  extract content s (Some b) e n discard = (s', XBuilt u) -> leafy_doc lo bs (u_doc u) /\ pos_size (u_size u).
Proof.
  intros Hk Hbe Dl Lb R Su Pz X. destruct (known_windows_iff _ _ _ _ _ _ _ _ _ _ Hk Hbe) as (ws & Hw & Ti & _).
  unfold asked in R. unfold extract in X. rewrite Hw in *.
  assert (Hd : forall d wb we, In (d, wb, we) ws -> In d h).
  { intros d wb we Hin. assert (Hd : In d (map (fun w => fst (fst w)) ws)) by (apply in_map_iff; exists (d, wb, we); auto).
    rewrite (windows_docs _ _ _ _ _ Hw), (known_lookup _ _ _ _ _ _ _ _ _ _ Hk Hbe) in Hd. apply in_map_iff in Hd as ([d' x] & E & Hd). cbn in E. subst.
    apply filter_In in Hd as [Hd _]. apply (hi_sub _ _ _ _ (kn_hinv _ _ _ _ _ _ _ _ Hk) _ Hd). }
  rewrite (pieces_cuts _ _ _ _ R) in X.
  assert (P : Forall (leafy_doc lo bs) (map p_seg (pieces_of content ws))).
  { apply Forall_forall. intros g0 Hg. apply in_map_iff in Hg as (p & <- & Hp). destruct (piece_from _ _ _ Hp) as (d & Hin & Ed & Bv & Sg).
    rewrite Ed in *. rewrite Forall_forall in R. destruct (R _ Hin) as [Ho C]. destruct (C _ Bv) as ((_ & _ & _ & To & _) & Wb & We & _).
    destruct (tiles_from _ _ _ Ti b eq_refl _ _ _ Hin) as (sb & Eb & L1 & L2).
    eapply segment_leafy; [apply Su; eapply Hd; eauto|exact Bv|exact To|eapply held_from_zero; eauto|exact Wb|exact We|exact Dl| | |exact Sg].
    - rewrite Eb. lia.
    - rewrite Eb. auto. }
  destruct (pieces_of content ws) as [|p ps] eqn:Ep.
  - cbn [map put_together] in X. destruct (seq_extract s (Some b) e discard) as [s2 [w|x]]; inversion X; subst.
    split; [|repeat split].
    split; [|split].
    + cbn. destruct (kn_sane _ _ _ _ _ _ _ _ Hk) as (_ & -> & _). destruct bs; reflexivity.
    + intros i st f H. destruct H.
    + intros b0 Eb. inversion Eb; subst. split; [constructor|]. split; [constructor|]. cbn. congruence.
  - unfold put_together in X. rewrite map_map in X. cbn [map snd] in X. change (map (fun x => p_seg x) ps) with (map p_seg ps) in X.
    destruct (splice (p_seg p :: map p_seg ps) (given_number n)) as [x|] eqn:Sp; [|inversion X].
    destruct (validates z x); [|inversion X]. destruct (seq_extract s (Some b) e discard) as [s2 [w|y]]; inversion X; subst. cbn [u_doc u_size].
    split; auto. eapply splice_leafy; eauto.
Qed.

(** ** The windows asked for *)

Lemma unmixed : forall b e v, subtitle v -> plain_mix b e v.
Proof.
  intros b e. induction v as [s| |k i r st b0 e0 cb ce vs inh kids IH] using vnode_ind'; intros S; try constructor; inversion S; subst.
  - intros T P. match goal with H : has_span kids = true -> _ |- _ => rewrite (H P) in T end. discriminate.
  - rewrite Forall_forall in *. auto.
Qed.
Lemma subtitle_shaped : forall v, subtitle v -> shaped v.
Proof.
  induction v as [s| |k i r st b0 e0 cb ce vs inh kids IH] using vnode_ind'; intros S; try constructor; inversion S; subst.
  - apply rooms_fit. auto.
  - rewrite Forall_forall in *. auto.
Qed.

Lemma encodable_cut : forall bs z c0 d c b e, encodable bs z c0 d c -> 0 <= b < e -> 1000 <= e < h100 -> cuttable c (Some b) (Some e).
Proof.
  intros bs z c0 d c b e (Ho & (_ & Sv & _) & V) Hb He v Bv. destruct (V _ Bv) as (_ & (stl & Es) & (lay & El) & Wt & To & Bz). destruct (Sv _ Bv) as [Ro Su].
  refine (C52_cuttable z c0 d c v stl lay b e Ho Bv Es El _ (Bz _ _ Hb) ltac:(lia) He v Bv).
  split; [apply rooms_fit; auto|]. split; [eapply Forall_impl; [|exact Su]; apply subtitle_shaped|]. split; auto. split; auto.
  eapply Forall_impl; [|exact Su]. intros a. apply unmixed.
Qed.

Lemma encodable_asked a h sid tb cm g s ts bs b e content z c0 :
  known a h sid tb cm g s ts -> (forall d, In d h -> encodable bs z c0 d (content d)) ->
  1000 <= b < e -> e < h100 -> Forall (ready content z c0) (asked s (Some b) (Some e)).
Proof.
  intros Kn T Hb He. unfold asked. assert (Hi := kn_hinv _ _ _ _ _ _ _ _ Kn).
  rewrite (known_lookup _ _ _ _ _ _ _ _ _ _ Kn) by (cbn; lia). rewrite extract_windows_win.
  2: { intros p x Hin. apply filter_In in Hin. eapply known_resolved; [eassumption|apply Hin]. }
  set (l := filter _ ts). assert (In_ts : forall k, In k l -> In k ts) by (intros k Hk; apply filter_In in Hk; tauto).
  assert (Ch : SequenceProofs.chain l) by (apply chain_filter; apply (hi_rep _ _ _ _ Hi)).
  assert (Se : Forall (fun k => SequenceHistory.sel (Some b) (Some e) k = true) l) by (apply Forall_forall; intros k Hk; apply filter_In in Hk; tauto).
  apply Forall_forall. intros [[d wb] we] Hw. destruct (win_in _ _ _ _ _ _ Hw) as [_ (x & Hx & We)].
  assert (Hd : In d h) by (apply (hi_sub _ _ _ _ Hi (d, x)); auto). assert (Td := T _ Hd). split; [apply Td|].
  destruct (win_strict l b e (Some b) Ch Se) with (d := d) (wb := wb) (we := we) as (lo & hi & -> & -> & Hlo & Hhi & St); auto; [lia| |].
  { destruct l as [|[p [y|]] r]; auto. inversion Se as [|? ? S1 _]; subst. unfold SequenceHistory.sel in S1. cbn [fst snd] in S1. apply andb_true_iff in S1 as [_ S1]. apply Z.ltb_lt in S1. auto. }
  intros v Bv. destruct Td as (_ & _ & Tv). destruct (Tv _ Bv) as (Nz & _).
  assert (lo < hi).
  { destruct St as [St|St]; auto. exfalso. apply Nz. apply In_ts in St. destruct (hi_exact _ _ _ _ Hi _ _ St) as [E|(q & eq & Hq & Nq & E & _)]; auto.
    inversion E as [Eb]. destruct (chain_order _ _ _ (rep_chain _ _ (hi_rep _ _ _ _ Hi)) St Hq) as [E1|[(_ & E1 & _)|(_ & E1 & _)]]; cbn [fst] in *; try lia.
    inversion E1; subst. lia. }
  exact (encodable_cut bs z c0 d (content d) lo hi (T _ Hd) ltac:(lia) ltac:(lia) v Bv).
Qed.

Lemma encodable_ready : forall bs content out len start discard sid tb cm g z c0 l,
  0 < len -> clock_of tb cm <> None -> stream sid tb cm g l ->
  (forall d, In d (arrivals l) -> encodable bs z c0 d (content d)) -> 1000 <= start ->
  start + Z.of_nat (List.length l) * len < h100 ->
  forall l1 l2, l = (l1 ++ CTick :: l2)%list -> tick_ready content out len start discard z c0 l1.
Proof.
  intros bs content out len start discard sid tb cm g z c0 l Hl Hc. induction l as [|i l IH] using rev_ind; intros St T H0 Hh l1 l2 E.
  { destruct l1; discriminate. }
  assert (St' := stream_app _ _ _ _ _ _ St). rewrite app_length in Hh. cbn [List.length] in Hh.
  assert (R : forall a b, l = (a ++ CTick :: b)%list -> tick_ready content out len start discard z c0 a).
  { apply IH; auto; [|lia]. intros d Hd. apply T. rewrite arrivals_app. apply in_or_app. auto. }
  destruct l2 as [|j l2].
  2: { destruct (@exists_last _ (j :: l2)) as (l3 & y & E3); [discriminate|]. rewrite E3, app_comm_cons, app_assoc in E.
       apply app_inj_tail in E as [E _]. eapply R; eauto. }
  apply app_inj_tail in E as [<- ->]. intros q Eq.
  assert (Hlen : 0 <= len) by lia.
  destruct (same_state content out len start discard sid tb cm g z c0 Hlen Hc l St' R) as (Es & Ee & _).
  set (k := List.length (documents _)) in Ee.
  assert (Hk : (k <= List.length l)%nat) by (unfold k; etransitivity; [apply documents_length|rewrite run_length; auto]).
  destruct St' as (F & O & N). rewrite <- rdocs_sim in F, O, N.
  destruct (going_holds out len start discard sid tb cm g (map sim l) Hlen Hc F O N) as [[Ge Gs] _].
  assert (Ne : rdocs (map sim l) <> []).
  { intros Er. rewrite Es, (Ge Er) in Eq. discriminate. }
  destruct (Gs Ne) as (q' & h & ts & Eq' & _ & Kn & Inc & _).
  rewrite <- Es in Eq'. assert (q' = q) by congruence. subst q'.
  assert (Z.of_nat k * len <= Z.of_nat (List.length l) * len) by (apply Z.mul_le_mono_nonneg_r; lia).
  assert (0 <= Z.of_nat k * len) by (apply Z.mul_nonneg_nonneg; lia).
  eapply encodable_asked; eauto; try lia.
  intros d Hd. apply T. rewrite arrivals_app. apply in_or_app. left. rewrite <- rdocs_sim. apply Inc. auto.
Qed.

(** ** The chain *)

Theorem C55_chain : forall content out len start discard sid bs cm g z c0 l1 l2 instant zero,
  let l := (l1 ++ CTick :: l2)%list in
  0 < len -> clock_of (base_name bs) cm <> None -> stream sid (base_name bs) cm g l ->
  (forall d, In d (arrivals l) -> encodable bs z c0 d (content d)) -> 1000 <= start ->
  start + Z.of_nat (List.length l) * len < h100 -> arrivals l1 <> [] ->
  pos_size z -> zero_ok bs zero start ->
  let r := run (reseq_content content out len discard) (r0 start) l1 in
  let k := Z.of_nat (List.length (documents (snd r))) in
  exists u dd, snd (reseq_content content out len discard (fst r) CTick) = inr u /\ encode instant zero u = ConvertModel.COk dd /\
    reads_like content (arrivals l1) bs zero (Some (start + k * len)) (Some (start + (k + 1) * len)) dd.
Proof.
  intros content out len start discard sid bs cm g z c0 l1 l2 instant zero l Hl Hc St T H0 Hh Ne Pz Zo r k.
  assert (Hlen : 0 <= len) by lia.
  assert (R : forall a b, l = (a ++ CTick :: b)%list -> tick_ready content out len start discard z c0 a).
  { intros a b E. apply (encodable_ready bs content out len start discard sid (base_name bs) cm g z c0 l) with (l2 := b); auto. }
  destruct (C52_resequencer content out len start discard sid (base_name bs) cm g z c0 l l1 l2 Hlen Hc St R eq_refl Ne) as (u & X & _ & _ & Vu & Lk).
  fold r in X, Lk. fold k in Lk.
  assert (St1 : stream sid (base_name bs) cm g l1) by (eapply stream_app; eauto).
  destruct (same_state content out len start discard sid (base_name bs) cm g z c0 Hlen Hc l1 St1) as (Es & Ee & _).
  { intros a b E. apply (R a (b ++ CTick :: l2)%list). unfold l. rewrite E, <- app_assoc. auto. }
  fold r in Es, Ee. fold k in Ee. destruct St1 as (F & O & N). rewrite <- rdocs_sim in F, O, N.
  destruct (going_holds out len start discard sid (base_name bs) cm g (map sim l1) Hlen Hc F O N) as [[_ Gs] _].
  destruct Gs as (q & h & ts & Eq & _ & Kn & Inc & _); [rewrite rdocs_sim; auto|]. rewrite <- Es in Eq.
  assert (Hk : 0 <= k * len) by (apply Z.mul_nonneg_nonneg; lia).
  assert (L : leafy_doc (trunc_ms (start + k * len)) bs (u_doc u) /\ pos_size (u_size u)).
  { assert (Rq := R l1 l2 eq_refl q Eq). fold r in Rq. unfold reseq_content in X. rewrite Eq, Ee in *.
    destruct (extract content q (Some (start + k * len)) (Some (start + k * len + len)) (Some (rs_counter (fst r))) discard) as [q' [u0|x|x|]] eqn:Ex;
      cbn [snd] in X; inversion X; subst u. cbn [u_doc u_size].
    eapply extract_leafy; [exact Kn| |apply trunc_div|apply trunc_le|exact Rq| |exact Pz|exact Ex].
    - cbn. lia.
    - intros d Hd. apply T. unfold l. rewrite arrivals_app. apply in_or_app. left. rewrite <- rdocs_sim. apply Inc. auto. }
  destruct L as [Ld Pu].
  destruct (leafy_encodes _ _ instant zero _ Ld Vu Pu) as (dd & Ed).
  { intros Eb. destruct (Zo Eb) as [Z1 Z2]. split; auto. assert (ms_up zero <= trunc_ms (start + k * len)).
    { apply trunc_ge; [|lia]. unfold ms_up. assert (D := trunc_div (- zero)). rewrite Z.mod_opp_l_z; lia. }
    assert (Q := trunc_le (- zero)). unfold ms_up in *. lia. }
  exists u, dd. split; auto. split; auto.
  intros t. cbv zeta. destruct (Lk t) as (L1 & L2 & L3).
  assert (Sh : on_screen (media bs zero t) dd = all_words (looks_at None (u_size u) (u_doc u) t)).
  { rewrite (leafy_read _ _ _ _ t Ld Vu). eapply shows_read; eauto. }
  rewrite Sh. split; [|split].
  - intros W. rewrite (L1 W). auto.
  - intros d W A. rewrite <- all_nameless, (L2 d W A), all_copied. auto.
  - intros No. rewrite (L3 No). auto.
Qed.

(** ** Cases *)

Local Open Scope string_scope.

(** Two paragraphs, one of two lines and one of two spans, on clock time. *)
Definition caption_body (b e : tattr) : vbody :=
  let lo := ta_us b in let hi := Some (ta_us e) in
  mkVbody None (Some b) (Some e) None lo hi []
   [VNode Div (Some "d1") (Some "r1") (Some ["s1"]) None None lo hi ["s1"] (Some "r1")
     [VNode P (Some "p1") None None None None lo hi ["s1"] (Some "r1") [VText "One"; VBr; VText "two"];
      VNode P (Some "p2") None None None None lo hi ["s1"] (Some "r1")
       [VNode Span None None (Some ["s2"]) None None lo hi ["s2"; "s1"] (Some "r1") [VText "three"]; VText " ";
        VNode Span None None None None None lo hi ["s1"] (Some "r1") [VText "four"]]]].
Definition caption (n : Z) (b e : tattr) : docu vbody := mkDocu Clock n (t_styling doc_l) doc1_layout (Some (caption_body b e)).
Definition caption1 := caption 1 (mkTattr "10:00:01.000" 36001000000) (mkTattr "10:00:10.000" 36010000000).
Definition caption2 := caption 2 (mkTattr "10:00:05.000" 36005000000) (mkTattr "10:00:12.000" 36012000000).
Definition off3 : docu vbody := mkDocu Clock 3 (t_styling doc_l) doc1_layout None.
Definition clock_1 := mkDoc 1 "s" "clock" (Some "local") None 1 36001000000 (Some 36010000000).
Definition clock_2 := mkDoc 2 "s" "clock" (Some "local") None 2 36005000000 (Some 36012000000).
Definition clock_3 := mkDoc 3 "s" "clock" (Some "local") None 3 36008000000 (Some 36008000000).
Definition captions (d : document) : stored :=
  mkStored (if Z.eqb (d_num d) 1 then caption1 else if Z.eqb (d_num d) 2 then caption2 else off3) z0.
Definition c_cap : computed := match body_computed z0 (unchecked caption1) with Some k => k | None => mkC no_attrs [] false end.

Lemma caption_holds : holds z0 c_cap clock_1 (captions clock_1) /\ holds z0 c_cap clock_2 (captions clock_2).
Proof.
  split; (split; [cbn; lia|]; split; [reflexivity|]; split; [reflexivity|]; split; [checked_at|]; split; [reflexivity|];
    split; [exists None; split; [vm_compute; reflexivity|cbn; lia]|]; split;
    [split; [|split; [|split]]; cbn; auto; try lia; ok_tree; cbn; auto|eexists; split; [vm_compute; reflexivity|]; apply as_parent_ceq; apply ceq_refl]).
Qed.

Lemma caption_suits : forall n b e, suited Clock (mkStored (caption n b e) z0).
Proof.
  intros n b e. split; [reflexivity|]. split.
  - intros v Ev. inversion Ev. cbn [vb_kids caption_body]. split; [repeat constructor|]. repeat (constructor; cbn; try discriminate; auto).
  - intros i s f Hi Hf. vm_compute in Hi. intuition (try match goal with H : (_, _) = (_, _) |- _ => inversion H; subst end); vm_compute in Hf; inversion Hf; subst; repeat split.
Qed.
Lemma caption_encodable : forall d n b e, holds z0 c_cap d (mkStored (caption n b e) z0) -> d_end d <> Some (d_begin d) ->
  0 <= ta_us b < ta_us e -> 1000 <= ta_us e < h100 -> encodable Clock z0 c_cap d (mkStored (caption n b e) z0).
Proof.
  intros d n b e Ho Nz Hbe He. split; auto. split; [apply caption_suits|]. intros v Ev. inversion Ev. split; auto.
  split; [eexists; reflexivity|]. split; [eexists; reflexivity|]. cbn [vb_kids caption_body].
  split; [ok_tree; try reflexivity; cbn; lia|]. split; [ok_tree; try reflexivity; cbn; unfold h100 in *; lia|]. intros lo hi _.
  constructor; [|constructor]. constructor.
  - intros _ Is. eexists. split; [eapply part_below; [left; reflexivity|apply part_here]|]. split; [reflexivity|exact Is].
  - repeat (constructor; try discriminate).
Qed.

(** Neither the begin, the length nor the reference is a whole millisecond. *)
Definition live : list cinput := [CTick; CDoc clock_1; CTick; CDoc clock_2; CTick; CDoc clock_3; CTick].
Definition from : Z := 36000000500.
Definition zero : Z := 35999999900.
Example C55_case_meets : stream "s" (base_name Clock) (Some "local") "g" live /\ clock_of (base_name Clock) (Some "local") <> None /\
  (forall d, In d (arrivals live) -> encodable Clock z0 c_cap d (captions d)) /\
  pos_size z0 /\ zero_ok Clock zero from /\
  from + Z.of_nat (List.length live) * 3999999 < h100.
Proof.
  split; [|split; [discriminate|split; [|split; [repeat split|split; [intros _; split; [unfold zero; lia|vm_compute; discriminate]|cbn; unfold h100; lia]]]]].
  { split; [|split].
    - cbn [arrivals live]. repeat constructor; cbn; auto; lia.
    - cbn. lia.
    - cbn. repeat (apply NoDup_cons; [cbn; intuition discriminate|]); apply NoDup_nil. }
  destruct caption_holds as [H1 H2].
  intros d [<-|[<-|[<-|[]]]].
  - apply caption_encodable; auto; try discriminate; cbn; unfold h100; lia.
  - apply caption_encodable; auto; try discriminate; cbn; unfold h100; lia.
  - split; [split; [cbn; lia|]; split; [reflexivity|]; split; reflexivity|]. split; [|discriminate].
    split; [reflexivity|]. split; [discriminate|]. exact (proj2 (proj2 (caption_suits 1 (mkTattr "" 0) (mkTattr "" 0)))).
Qed.

(** What the encoder makes of it, by the second of media time. *)
Definition screens (u : built) : list (list string) :=
  match encode 7 zero u with
  | ConvertModel.COk dd => map (fun s => on_screen (s * 1000000) dd) [0; 1; 3; 4; 5; 7; 8; 11]
  | _ => []
  end.
Definition all4 : list string := ["One"; "two"; "three"; "four"].
Example C55_case : map screens (documents (snd (run (reseq_content captions "out" 3999999 true) (r0 from) live))) =
  [[[]; all4; all4; []; []; []; []; []]; [[]; []; []; all4; all4; all4; []; []]; [[]; []; []; []; []; []; []; []]].
Proof. vm_compute. reflexivity. Qed.

(** ** Text beside a span *)

(** Without the clause about text beside spans: a paragraph with both is no
    element that segments give times to, so its text is shown at all times. *)
Theorem C55_mixed_text : exists content z c0 sid g l1 l2 u dd t,
  let l := (l1 ++ CTick :: l2)%list in
  stream sid (base_name Media) None g l /\ clock_of (base_name Media) None <> None /\ arrivals l1 <> [] /\
  (forall d, In d (arrivals l) -> cut_anywhere z c0 d (content d) /\ t_base (st_doc (content d)) = Media) /\
  pos_size z /\
  let r := run (reseq_content content "out" 4000000 true) (r0 0) l1 in
  snd (reseq_content content "out" 4000000 true (fst r) CTick) = inr u /\ encode 0 0 u = ConvertModel.COk dd /\
  in_window (Some (Z.of_nat (List.length (documents (snd r))) * 4000000)) (Some ((Z.of_nat (List.length (documents (snd r))) + 1) * 4000000)) (ms_last t) = false /\
  (forall d, ~ SequenceSpec.active (arrivals l1) (ms_last t) d) /\
  on_screen (media Media 0 t) dd = ["Hello "].
Proof.
  exists contents, z0, c_none, "s", "g", [CTick; CDoc doc_1], [CDoc doc_2; CTick; CDoc doc_3; CTick]. eexists _, _. exists 50000000. cbv zeta.
  destruct C52_case_meets as (S & C & T). split; [exact S|]. split; [exact C|]. split; [discriminate|]. split.
  { intros d Hd. split; [apply T; exact Hd|]. vm_compute in Hd. destruct Hd as [<-|[<-|[<-|[]]]]; reflexivity. }
  split; [repeat split|]. split; [vm_compute; reflexivity|]. split; [vm_compute; reflexivity|]. split; [vm_compute; reflexivity|]. split; [|vm_compute; reflexivity].
  intros d (Hd & H1 & _ & H2). vm_compute in Hd. destruct Hd as [<-|[]]. vm_compute in H2. discriminate.
Qed.

Print Assumptions C55_chain.
Print Assumptions C55_case_meets.
Print Assumptions C55_mixed_text.
