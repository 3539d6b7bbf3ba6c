(** Proofs for C55: re-sequenced documents have their times on p and span only,
    and are read by conversion as they are presented. *)

From Coq Require Import List ZArith String Bool QArith Lia.
From Verif Require Import TimeModel TimeSpec TimingModel TimingSpec TimingProofs PropsTiming StyleModel StyleTree SegmentModel
  SegmentSpec SegmentProofs TimelineModel SpliceModel SpliceProofs LookSpec LookProofs LookDressProofs ResegModel
  ConvertModel ConvertSpec ConvertProofs PropsConvert PipeModel PipeSpec.
From Verif Require ConvertStyleSpec ConvertPassProofs SequenceModel SequenceSpec ResegSpec.
Import ListNotations.
Open Scope Z_scope.

(** ** Documents with times on the elements without elements in them *)

Definition node_room (parent : ekind) (n : node) : bool :=
  match parent, n with
  | Body, Node Div _ _ _ _ _ _ => true
  | Div, Node P _ _ _ _ _ _ => true
  | P, Node Span _ _ _ _ _ _ => true
  | P, Text _ | P, Br | Span, Text _ | Span, Br => true
  | _, _ => false
  end.
Definition no_word (n : node) : bool := match n with Text s => blank s | _ => true end.
Definition not_node (n : node) : Prop := match n with Node _ _ _ _ _ _ _ => False | _ => True end.

Definition ms_time (lo : Z) (a : tattr) : Prop := lo <= ta_us a < h100 /\ 0 <= ta_us a /\ ta_us a mod 1000 = 0.

Inductive leafy (lo : Z) : node -> Prop :=
| lf_text s : leafy lo (Text s)
| lf_br : leafy lo Br
| lf_leaf k i r st b e kids : k = P \/ k = Span -> Forall not_node kids -> ms_time lo b -> ms_time lo e -> 0 < ta_us e ->
    (badly_timed (Some b) (Some e) = true -> ta_us e <= ta_us b) -> leafy lo (Node k i r st (Some b) (Some e) kids)
| lf_inner k i r st kids : Forall (fun n => node_room k n = true) kids -> Forall (fun n => no_word n = true) kids ->
    Forall (leafy lo) kids -> leafy lo (Node k i r st None None kids).

Lemma leafy_nn : forall lo n, leafy lo n -> nn_elem (timing n).
Proof.
  intros lo. induction n as [s| |k i r st b e kids IH] using node_ind2; intros L; try constructor.
  - inversion L as [| |? ? ? ? ? ? ? ? ? Hb|]; subst; cbn; auto. apply Hb.
  - inversion L as [| |? ? ? ? ? ? ? ? ? ? He|]; subst; cbn; auto. apply He.
  - apply Forall_forall. intros x Hx. apply in_map_iff in Hx as (n & <- & Hn). rewrite Forall_forall in IH. apply IH; auto.
    inversion L as [| |? ? ? ? ? ? ? ? Nn|? ? ? ? ? ? ? Lk]; subst.
    + rewrite Forall_forall in Nn. specialize (Nn _ Hn). destruct n; try constructor; contradiction.
    + rewrite Forall_forall in Lk. auto.
Qed.

(** ** Segments *)

Lemma trunc_div : forall v, trunc_ms v mod 1000 = 0.
Proof. intros v. unfold trunc_ms. rewrite Zminus_mod_idemp_r, Z.sub_diag. reflexivity. Qed.
Lemma trunc_ge : forall lo v, lo mod 1000 = 0 -> lo <= v -> lo <= trunc_ms v.
Proof.
  intros lo v D H. unfold trunc_ms. assert (A := Z.div_mod lo 1000 ltac:(lia)). assert (B := Z.div_mod v 1000 ltac:(lia)).
  assert (lo / 1000 <= v / 1000) by (apply Z.div_le_mono; lia). lia.
Qed.
Lemma trunc_le : forall v, trunc_ms v <= v.
Proof. intros v. unfold trunc_ms. assert (B := Z.mod_pos_bound v 1000 ltac:(lia)). lia. Qed.

(** Computed begins that are not negative. *)
Inductive from_zero : vnode -> Prop :=
| fz_text s : from_zero (VText s)
| fz_br : from_zero VBr
| fz_node k i r st b e cb ce vs inh kids : 0 <= cb -> Forall from_zero kids -> from_zero (VNode k i r st b e cb ce vs inh kids).

Lemma timed_from_zero : forall av v, nn_elem (timing (plain v)) -> forall base lim, 0 <= start_at av base ->
  timed av base lim (timing (plain v)) (vtimes v) -> from_zero v.
Proof.
  intros av. induction v as [s| |k i r st b e cb ce vs inh kids IH] using vnode_ind'; intros NN base lim S0 T; try constructor.
  - assert (GE := timed_begin_ge _ _ _ _ _ T NN _ _ _ _ _ (sub_refl _)). lia.
  - cbn [plain timing] in NN. inversion NN as [|? ? ? Nb Ne Nk]; subst.
    cbn [plain vtimes timing] in T. inversion T as [|? ? ? ? ? ? F E B]; subst. apply timed_kids in F.
    assert (OB := offset_nn _ Nb).
    assert (S1 : 0 <= start_at av (base + offset b)).
    { assert (start_at av base <= start_at av (base + offset b)) by (apply start_at_mono; lia). lia. }
    rewrite Forall_forall in *. intros v Hv. eapply IH; eauto. apply Nk. apply in_map, in_map. auto.
Qed.

Lemma kept_room : forall x k vs ns, kept x vs ns -> Forall (fun v => room k v = true) vs -> Forall (fun n => node_room k n = true) ns.
Proof.
  intros x k vs ns K R. apply Forall_forall. intros n Hn. destruct (kept_in _ _ _ K _ Hn) as (v & o & o' & Hv & C). apply copy_kind in C.
  rewrite Forall_forall in R. specialize (R _ Hv). destruct n as [s| |k0 i r st b e kids], v as [|  |k1 i1 r1 st1 b1 e1 cb ce vs1 inh kids1]; cbn in C; try contradiction; auto.
  subst k1. destruct k, k0; auto.
Qed.

Lemma kept_text : forall x vs ns, kept x vs ns -> has_text vs = false -> Forall (fun n => no_word n = true) ns.
Proof.
  intros x vs ns K H. apply Forall_forall. intros n Hn. destruct (kept_in _ _ _ K _ Hn) as (v & o & o' & Hv & C).
  destruct n as [s| |]; auto. destruct v as [s'| |]; [|discriminate|].
  - cbn in C. inversion C; subst. cbn. destruct (blank s) eqn:B; auto.
    assert (X : has_text vs = true) by (apply existsb_exists; exists (VText s); rewrite B; auto). congruence.
  - apply copy_kind in C. destruct C.
Qed.

Lemma room_fits : forall k v, room k v = true -> fits k v = true.
Proof. intros [] [| |[] ? ? ? ? ? ? ? ? ? ?]; cbn; auto. Qed.
Lemma rooms_fit : forall k vs, Forall (fun v => room k v = true) vs -> Forall (fun v => fits k v = true) vs.
Proof. intros k vs H. eapply Forall_impl; [|exact H]. intros v. apply room_fits. Qed.

(** The window begins at or after [lo] and is no shorter than nothing. *)
Definition win_from (lo : Z) (x : sctx) : Prop :=
  lo mod 1000 = 0 /\ match x_begin x with Some s => lo <= s | None => lo <= 0 end /\
  match x_begin x, x_end x with Some s, Some e => s <= e | _, _ => True end.

Lemma copy_leafy : forall x lo v, win_ok x -> win_from lo x -> subtitle v -> times_ok v -> from_zero v ->
  forall o n o', copy_node x v o = GOk (Some n, o') -> leafy lo n.
Proof.
  intros x lo v W Wf. induction v as [s| |k i r st b e cb ce vs inh kids IH] using vnode_ind'; intros Su To Fz o n o' C.
  - cbn in C. inversion C; subst. constructor.
  - cbn in C. inversion C; subst. constructor.
  - inversion Su as [| |? ? ? ? ? ? ? ? ? ? ? Ro Mx Sk]; subst. inversion To as [| |? ? ? ? ? ? ? ? ? ? ? Hcb Hce Tk]; subst.
    inversion Fz as [| |? ? ? ? ? ? ? ? ? ? ? Hz Fk]; subst.
    destruct (copy_inv _ _ _ _ _ _ _ _ _ _ _ _ _ _ _ C)
      as [(_ & Q & _)|(Is & r' & st' & ks & o1 & MR & MS & CK & [(_ & Q & _)|(NE & b' & e' & LT & Q & _)])]; try discriminate.
    inversion Q; subst n; clear Q. assert (K := copy_nodes_kept _ _ _ _ _ CK).
    destruct (is_timed_leaf k ks) eqn:L.
    + assert (Nn := kept_flat _ _ _ _ K (rooms_fit _ _ Ro) L).
      destruct (SegmentProofs.leaf_times _ _ _ _ _ _ _ W Hz Hcb Hce L LT) as (bb & ee & ba & ea & Eb & Te & Rb & Re & -> & -> & Ub & Ue & Bad).
      destruct Wf as (Dl & Wb & We).
      assert (Lb : lo <= bb).
      { subst bb. unfold trim_begin. destruct (x_begin x) as [s|]; [|lia]. destruct (Z.ltb_spec cb s); lia. }
      assert (Le : lo <= ee).
      { unfold is_in_segment in Is. unfold trim_end in Te. destruct (x_end x) as [s|], ce as [c|]; cbn in *;
          try discriminate; destruct (x_begin x) as [sb|]; try (destruct (Z.leb_spec c sb)); try discriminate;
          try (destruct (Z.ltb_spec s c)); inversion Te; subst; try lia. }
      apply lf_leaf; auto.
      * destruct k; try discriminate; auto.
      * unfold ms_time. rewrite Ub. split; [split; [apply trunc_ge; auto|]|split; [apply trunc_nn; lia|apply trunc_div]].
        assert (Z := trunc_le bb). lia.
      * unfold ms_time. rewrite Ue. split; [split; [apply trunc_ge; auto|]|split; [apply trunc_nn; lia|apply trunc_div]].
        assert (Z := trunc_le ee). lia.
      * rewrite Ue. apply trunc_pos. lia.
      * intros B. apply Bad in B. rewrite Ub, Ue. destruct (Z_lt_le_dec (trunc_ms bb) (trunc_ms ee)) as [H|H]; auto.
        apply div_trunc in H. lia.
    + unfold leaf_timing in LT. rewrite L in LT. inversion LT; subst. constructor.
      * eapply kept_room; eauto.
      * destruct (mixed k) eqn:M.
        -- assert (Sp := nonleaf_span _ _ M L). apply (kept_span _ _ _ K) in Sp. eapply kept_text; eauto.
        -- eapply kept_text; eauto. eapply fits_no_text; eauto. apply rooms_fit; auto.
      * apply Forall_forall. intros m Hm. destruct (kept_in _ _ _ K _ Hm) as (v & oo & oo' & Hv & Cv).
        rewrite Forall_forall in IH, Sk, Tk, Fk. eapply IH; eauto.
Qed.

(** ** Joined segments *)

Lemma renumber_leafy : forall lo n, leafy lo n -> forall ids n' ids', renumber n ids = (n', ids') ->
  leafy lo n' /\ no_word n' = no_word n /\ forall k, node_room k n' = node_room k n.
Proof.
  intros lo. induction n as [s| |k i r st b e kids IH] using node_ind2; intros L ids n' ids' R.
  - cbn in R. inversion R; subst. auto.
  - cbn in R. inversion R; subst. auto.
  - rewrite renumber_eq in R. destruct (renumbers kids ids) as [ks ids1] eqn:E.
    assert (A : forall kids, Forall (fun n => leafy lo n -> forall ids n' ids', renumber n ids = (n', ids') ->
        leafy lo n' /\ no_word n' = no_word n /\ forall k, node_room k n' = node_room k n) kids ->
      forall ids ks ids1, renumbers kids ids = (ks, ids1) ->
      (Forall (leafy lo) kids -> Forall (leafy lo) ks) /\ (Forall not_node kids -> Forall not_node ks) /\
      (Forall (leafy lo) kids -> Forall (fun n => no_word n = true) kids -> Forall (fun n => no_word n = true) ks) /\
      forall k, Forall (leafy lo) kids -> Forall (fun n => node_room k n = true) kids -> Forall (fun n => node_room k n = true) ks).
    { clear. induction 1 as [|n ns Hn _ IHk]; intros ids ks ids1 E; cbn [renumbers] in E.
      - inversion E; subst. auto.
      - destruct (renumber n ids) as [n' i1] eqn:En. destruct (renumbers ns i1) as [ns' i2] eqn:Es. inversion E; subst.
        destruct (IHk _ _ _ Es) as (I1 & I2 & I3 & I4). split; [|split; [|split]].
        + intros F. inversion F; subst. constructor; auto. eapply Hn; eauto.
        + intros F. inversion F as [|? ? F1 F2]; subst. constructor; auto. destruct n; cbn in En; try contradiction; inversion En; subst; exact Logic.I.
        + intros F G. inversion F; inversion G; subst. constructor; auto. destruct (Hn ltac:(auto) _ _ _ En) as (_ & -> & _). auto.
        + intros k F G. inversion F; inversion G; subst. constructor; auto. destruct (Hn ltac:(auto) _ _ _ En) as (_ & _ & ->). auto. }
    destruct (A _ IH _ _ _ E) as (A1 & A2 & A3 & A4).
    assert (Ln : forall j r', leafy lo (Node k j r' st b e ks)).
    { intros j r'. inversion L as [| |? ? ? ? ? ? ? Hk Nn Hb He Hp Hbad|? ? ? ? ? Ro Nw Lk]; subst; [apply lf_leaf|apply lf_inner]; auto. }
    destruct i as [j|]; inversion R; subst; split; auto; split; auto; destruct k; auto.
Qed.

Lemma renumbers_leafy : forall lo k ns, Forall (leafy lo) ns -> Forall (fun n => node_room k n = true) ns ->
  forall ids ns' ids', renumbers ns ids = (ns', ids') -> Forall (leafy lo) ns' /\ Forall (fun n => node_room k n = true) ns'.
Proof.
  intros lo k. induction ns as [|n ns IH]; intros L R ids ns' ids' E; cbn [renumbers] in E.
  - inversion E; subst. auto.
  - destruct (renumber n ids) as [n' i1] eqn:En. destruct (renumbers ns i1) as [ns2 i2] eqn:Es. inversion E; subst.
    inversion L; inversion R; subst. destruct (IH ltac:(auto) ltac:(auto) _ _ _ Es) as [I1 I2].
    destruct (renumber_leafy lo n ltac:(auto) _ _ _ En) as (J1 & _ & J2). split; constructor; auto. rewrite J2. auto.
Qed.

(** A body without content, or without times and with such content. *)
Definition leafy_body (lo : Z) (b : bodyd) : Prop :=
  Forall (leafy lo) (bd_kids b) /\ Forall (fun n => node_room Body n = true) (bd_kids b) /\
  (bd_kids b <> [] -> bd_begin b = None /\ bd_end b = None /\ bd_dur b = None).
Definition good_styles (l : option (list (string * style_el))) : Prop :=
  forall i s f, In (i, s) (els l) -> fontSize (s_attrs s) = Some f -> ConvertStyleSpec.fsize_pos f.
Definition leafy_doc (lo : Z) (bs : base) (d : docu bodyd) : Prop :=
  t_base d = bs /\ good_styles (t_styling d) /\ forall b, t_body d = Some b -> leafy_body lo b.

Lemma fontSize_aligned : forall a, fontSize (setattr a MultiRowAlign None) = fontSize a.
Proof. intros a. destruct a. reflexivity. Qed.

Lemma copied_styles : forall x l l', copy_styles x l = GOk l' -> forall i s, In (i, s) l' ->
  exists j u, In (j, u) l /\ fontSize (s_attrs s) = fontSize (s_attrs u).
Proof.
  intros x. induction l as [|[j u] l IH]; intros l' H i s Hi; cbn [copy_styles] in H; [inversion H; subst; destruct Hi|].
  cbn [fst snd] in H. destruct (mem j (x_styles x)).
  - destruct (map_style x (s_refs u)) as [r|]; [|discriminate]. cbn [gbind] in H. destruct (copy_styles x l) as [l2|]; [|discriminate].
    cbn [gbind] in H. inversion H; subst. destruct Hi as [E|Hi].
    + inversion E; subst. exists j, u. split; [left; auto|]. apply fontSize_aligned.
    + destruct (IH _ eq_refl _ _ Hi) as (j' & u' & A & B). exists j', u'. split; auto. right. auto.
  - destruct (IH _ H _ _ Hi) as (j' & u' & A & B). exists j', u'. split; auto. right. auto.
Qed.

Lemma segment_leafy : forall lo bs c b e g v, suited bs c -> t_body (st_doc c) = Some v ->
  Forall times_ok (vb_kids v) -> Forall from_zero (vb_kids v) -> begin_ok b -> end_ok e ->
  lo mod 1000 = 0 -> match b with Some s => lo <= s | None => lo <= 0 end ->
  match b, e with Some s, Some e => s <= e | _, _ => True end ->
  segment (st_doc c) true b e = GOk g -> leafy_doc lo bs g.
Proof.
  intros lo bs c b e g v (Sb & Sv & Ss) Bv To Fz Wb We Dl Lb Lbe H. destruct (segment_inv _ _ _ _ _ H)
    as (v' & styles & regions & bd0 & orph & stl & lay & bd & Eb & Es & El & Cs & Cr & Cb & Tb & _ & Ts & _ & Tbd & _ & Bk & Bn & _).
  assert (v' = v) by congruence. subst v'. destruct (Sv _ Bv) as [Ro Su].
  split; [congruence|]. split.
  - intros i s f Hi Hf. rewrite Ts in Hi. apply filter_In in Hi as [Hi _]. destruct (copied_styles _ _ _ Cs _ _ Hi) as (j & u & Hj & E).
    apply (Ss j u f); [rewrite Es; auto|congruence].
  - intros b0 E0. assert (b0 = bd) by congruence. subst b0.
    set (x := segment_ctx (st_doc c) v true b e) in *. unfold copy_body in Cb. destruct (is_in_segment _ _ _ _); [|discriminate].
    destruct (map_style _ _); [|discriminate]. cbn [gbind] in Cb. destruct (copy_nodes x (vb_kids v) _) as [[ks o1]|] eqn:CK; [|discriminate].
    cbn [gbind] in Cb. inversion Cb; subst bd0. cbn [bd_kids] in *. assert (K := copy_nodes_kept _ _ _ _ _ CK).
    split; [|split].
    + rewrite Bk. apply Forall_forall. intros n Hn. destruct (kept_in _ _ _ K _ Hn) as (w & oo & oo' & Hw & Cw).
      rewrite Forall_forall in *. eapply copy_leafy; [| | | | |exact Cw]; auto.
      * split; auto.
      * split; auto.
    + rewrite Bk. eapply kept_room; eauto.
    + intros Ne. rewrite Bk in Ne. rewrite (Bn Ne). auto.
Qed.

Lemma merge_styles_good : forall l o ids l' ids', merge_styling l o ids = (l', ids') -> good_styles (Some l) -> good_styles o -> good_styles (Some l').
Proof.
  intros l o ids l' ids' H G1 G2 i s f Hi Hf. unfold merge_styling in H. inversion H; subst. cbn [els] in Hi. apply in_app_or in Hi as [Hi|Hi].
  - apply (G1 i s f); auto.
  - apply in_map_iff in Hi as ([j u] & E & Hi). apply (G2 j s f); auto. destruct (mem _ _); inversion E; subst; auto.
Qed.

Lemma merge_leafy : forall lo bs ds m m', merge_all m ds = POk m' -> Forall (leafy_doc lo bs) ds ->
  good_styles (m_styling m) -> (forall b, m_body m = Some b -> leafy_body lo b) ->
  good_styles (m_styling m') /\ forall b, m_body m' = Some b -> leafy_body lo b.
Proof.
  intros lo bs. induction ds as [|d ds IH]; intros m m' H F G B; cbn [merge_all] in H.
  - inversion H; subst. auto.
  - destruct (merge_next m d) as [m1|] eqn:E; [|discriminate]. cbn [pbind] in H. inversion F as [|? ? (_ & Gd & Bd) Fr]; subst.
    apply (IH _ _ H Fr); clear IH H Fr F.
    + unfold merge_next in E. destruct (m_styling m) as [l|] eqn:Es.
      * destruct (merge_styling l (t_styling d) (m_ids m)) as [l' i1] eqn:El. assert (Q := merge_styles_good _ _ _ _ _ El G Gd).
        destruct (match m_layout m with Some l => _ | None => _ end) as [la i2]. destruct (m_body m) as [b|].
        -- destruct (merge_body b (t_body d) i2) as [[b' i3]|]; [|discriminate]. cbn in E. inversion E; subst. auto.
        -- inversion E; subst. auto.
      * destruct (match m_layout m with Some l => _ | None => _ end) as [la i2]. destruct (m_body m) as [b|].
        -- destruct (merge_body b (t_body d) i2) as [[b' i3]|]; [|discriminate]. cbn in E. inversion E; subst. auto.
        -- inversion E; subst. auto.
    + intros b1 E1. unfold merge_next in E. destruct (match m_styling m with Some l => _ | None => _ end) as [st i1].
      destruct (match m_layout m with Some l => _ | None => _ end) as [la i2]. destruct (m_body m) as [b|].
      * unfold merge_body in E. destruct (t_body d) as [c|] eqn:Ec; [|discriminate].
        destruct (renumbers (bd_kids b) i2) as [ks i3] eqn:R1. destruct (renumbers (bd_kids c) i3) as [ls i4] eqn:R2.
        cbn in E. inversion E; subst. cbn in E1. inversion E1; subst.
        destruct (B _ eq_refl) as (L1 & M1 & _). destruct (Bd _ eq_refl) as (L2 & M2 & _).
        destruct (renumbers_leafy _ _ _ L1 M1 _ _ _ R1) as [P1 Q1]. destruct (renumbers_leafy _ _ _ L2 M2 _ _ _ R2) as [P2 Q2].
        split; [|split]; cbn [bd_kids bd_begin bd_end bd_dur]; auto; apply Forall_app; auto.
      * inversion E; subst. cbn in E1. auto.
Qed.

Lemma splice_leafy : forall lo bs ds n x, splice ds n = POk x -> Forall (leafy_doc lo bs) ds -> leafy_doc lo bs x.
Proof.
  intros lo bs [|d ds] n x H F; [discriminate|]. cbn [splice] in H. inversion F as [|? ? (B & G & Bd) Fr]; subst.
  destruct (merge_all _ ds) as [m|] eqn:E; [|discriminate]. cbn [pbind] in H. inversion H; subst.
  destruct (merge_leafy _ _ _ _ _ E Fr G Bd) as [G' B']. split; [auto|]. split; auto.
Qed.

(** ** The style pass has a result for every element *)

Inductive matches : sel -> sout -> Prop :=
| ma k s r kids e os : Forall2 matches kids os -> matches (SNode k s r kids) (SOut k r e os).

Lemma pass_matches : forall d z regions t parent w o w', style_pass d z regions parent t w = SOk (o, w') -> matches t o.
Proof.
  intros d z regions. induction t as [k s r kids IH] using sel_ind'. intros parent w o w' H.
  apply style_pass_inv in H as (w1 & e & w2 & os & w3 & _ & _ & H3 & -> & _). constructor.
  revert H3. generalize (push w2 e) as w0. intros w0. revert w0 os w3. induction IH as [|x m Hx _ IHm]; intros w0 os w3 P.
  - inversion P; subst. constructor.
  - apply pass_all_cons in P as (o0 & w5 & os' & Ex & Em & ->). constructor; eauto.
Qed.

Lemma styles_match : forall d z b regions o, validate_styles d z (styling_body b) = SOk (regions, o) ->
  exists e os, o = SOut Body None e os /\ Forall2 matches (flat_map styling (bd_kids b)) os.
Proof.
  intros d z b regions o H. destruct (validate_start _ _ _ _ _ H) as (w & w' & _ & _ & _ & _ & S). apply pass_matches in S.
  inversion S; subst. eauto.
Qed.

Lemma match_rest : forall n ns os, Forall2 matches (styling n ++ flat_map styling ns) os -> Forall2 matches (flat_map styling ns) (rest n os).
Proof. intros [s| |k i r st b e kids] ns os F; cbn [styling app rest] in *; auto. inversion F; subst. auto. Qed.

Lemma with_sizes_eq : forall k i r st b e kids k' r' el oks os, with_sizes (Node k i r st b e kids) (SOut k' r' el oks :: os) =
  FNode k i r st b e (fontSize (c_attrs (e_computed el))) (lineHeight (c_attrs (e_computed el))) (all_with_sizes kids oks).
Proof.
  intros. reflexivity.
Qed.

Lemma sizes_carried : forall ns os, Forall2 matches (flat_map styling ns) os -> ConvertStyleSpec.carries os (all_with_sizes ns os).
Proof.
  assert (A : forall n ns os, (forall os, Forall2 matches (flat_map styling ns) os -> ConvertStyleSpec.carries os (all_with_sizes ns os)) ->
    Forall2 matches (styling n ++ flat_map styling ns) os -> ConvertStyleSpec.carries os (all_with_sizes (n :: ns) os)).
  { induction n as [s| |k i r st b e kids IH] using node_ind2; intros ns os N F; cbn [all_with_sizes].
    - cbn [with_sizes rest]. constructor. auto.
    - cbn [with_sizes rest]. constructor. auto.
    - cbn [styling app] in F. inversion F as [|? o ? os' Fo Fr]; subst. inversion Fo as [? ? ? ? el oks Fk]; subst.
      rewrite with_sizes_eq. cbn [rest tl]. constructor; auto.
      clear - IH Fk. revert oks Fk. induction IH as [|n ns Hn _ IHk]; intros oks Fk; cbn [flat_map] in Fk.
      + inversion Fk; subst. constructor.
      + apply Hn; auto. }
  induction ns as [|n ns IH]; intros os F; cbn [flat_map] in F.
  - inversion F; subst. constructor.
  - apply A; auto.
Qed.

(** ** What conversion sees *)

Fixpoint ntree (n : node) : ttree :=
  match n with
  | Text s => Leaf (Some s)
  | Br => Leaf None
  | Node _ _ _ _ b e kids => Tm (us b) (us e) (map ntree kids)
  end.

Lemma sized_tree : forall ns os, map ftree (all_with_sizes ns os) = map ntree ns.
Proof.
  assert (A : forall n os, ftree (with_sizes n os) = ntree n).
  { induction n as [s| |k i r st b e kids IH] using node_ind2; intros os; auto.
    assert (B : forall oks, map ftree (all_with_sizes kids oks) = map ntree kids).
    { clear os. induction IH as [|n ns Hn _ IHk]; intros oks; auto. cbn. rewrite Hn, IHk. auto. }
    destruct os as [|[k' r' el oks] os].
    - change (Tm (us b) (us e) (map ftree (all_with_sizes kids [])) = ntree (Node k i r st b e kids)). cbn [ntree]. f_equal. auto.
    - rewrite with_sizes_eq. cbn [ftree ntree]. f_equal. auto. }
  induction ns as [|n ns IH]; intros os; auto. cbn. rewrite A, IH. auto.
Qed.

Lemma sizes_in : forall ns os f, In f (all_with_sizes ns os) -> exists n os', In n ns /\ f = with_sizes n os'.
Proof.
  induction ns as [|n ns IH]; intros os f H; [destruct H|]. destruct H as [<-|H].
  - exists n, os. split; auto. left. auto.
  - destruct (IH _ _ H) as (n' & os' & A & B). exists n', os'. split; auto. right. auto.
Qed.

Lemma with_sizes_node : forall k i r st b e kids os, exists sz ln oks,
  with_sizes (Node k i r st b e kids) os = FNode k i r st b e sz ln (all_with_sizes kids oks).
Proof.
  intros k i r st b e kids [|[k' r' el oks] os].
  - exists None, None, []. reflexivity.
  - do 3 eexists. apply with_sizes_eq.
Qed.

Lemma plain_untimed : forall n os, not_node n -> untimed_f (with_sizes n os).
Proof. intros [] os H; cbn; try constructor; contradiction. Qed.

Lemma leafy_one_level : forall lo n, leafy lo n -> forall os, one_level (with_sizes n os) /\ divs_untimed (with_sizes n os).
Proof.
  intros lo. induction n as [s| |k i r st b e kids IH] using node_ind2; intros L os; try (cbn; split; constructor).
  destruct (with_sizes_node k i r st b e kids os) as (sz & ln & oks & ->).
  inversion L as [| |? ? ? ? ? ? ? Hk Nn Hb He Hp Hbad|? ? ? ? ? Ro Nw Lk]; subst.
  - split.
    + apply ol_timed. apply Forall_forall. intros f Hf. destruct (sizes_in _ _ _ Hf) as (n & os' & Hn & ->). rewrite Forall_forall in Nn. apply plain_untimed. auto.
    + constructor; [destruct Hk as [-> | ->]; auto|]. apply Forall_forall. intros f Hf. destruct (sizes_in _ _ _ Hf) as (n & os' & Hn & ->).
      rewrite Forall_forall in Nn. specialize (Nn _ Hn). destruct n; try contradiction; constructor.
  - rewrite Forall_forall in IH, Lk. split.
    + apply ol_node. apply Forall_forall. intros f Hf. destruct (sizes_in _ _ _ Hf) as (n & os' & Hn & ->). apply IH; auto.
    + constructor; [destruct k; auto|]. apply Forall_forall. intros f Hf. destruct (sizes_in _ _ _ Hf) as (n & os' & Hn & ->). apply IH; auto.
Qed.

Lemma room_fits_d : forall k n os, node_room k n = fits_d k (with_sizes n os).
Proof.
  intros k [s| |k0 i r st b e kids] os; try (destruct k; reflexivity).
  destruct (with_sizes_node k0 i r st b e kids os) as (sz & ln & oks & ->). destruct k, k0; reflexivity.
Qed.

Lemma leafy_flat : forall lo n, leafy lo n -> forall os, flat (with_sizes n os).
Proof.
  intros lo. induction n as [s| |k i r st b e kids IH] using node_ind2; intros L os; try (cbn; constructor).
  destruct (with_sizes_node k i r st b e kids os) as (sz & ln & oks & ->). constructor.
  - apply Forall_forall. intros f Hf. destruct (sizes_in _ _ _ Hf) as (n & os' & Hn & ->). rewrite <- room_fits_d.
    inversion L as [| |? ? ? ? ? ? ? Hk Nn Hb He Hp Hbad|? ? ? ? ? Ro Nw Lk]; subst.
    + rewrite Forall_forall in Nn. specialize (Nn _ Hn). destruct Hk as [-> | ->], n; try contradiction; auto.
    + rewrite Forall_forall in Ro. auto.
  - apply Forall_forall. intros f Hf. destruct (sizes_in _ _ _ Hf) as (n & os' & Hn & ->).
    inversion L as [| |? ? ? ? ? ? ? Hk Nn Hb He Hp Hbad|? ? ? ? ? Ro Nw Lk]; subst.
    + rewrite Forall_forall in Nn. specialize (Nn _ Hn). destruct n; try contradiction; constructor.
    + rewrite Forall_forall in IH, Lk. auto.
Qed.

Lemma leafy_times : forall lo n, leafy lo n -> forall os, Forall (fun t => lo <= t < h100 /\ 0 <= t) (ps_times (with_sizes n os)).
Proof.
  intros lo. induction n as [s| |k i r st b e kids IH] using node_ind2; intros L os; try (cbn; constructor).
  destruct (with_sizes_node k i r st b e kids os) as (sz & ln & oks & ->). rewrite ps_times_eq.
  inversion L as [| |? ? ? ? ? ? ? Hk Nn Hb He Hp Hbad|? ? ? ? ? Ro Nw Lk]; subst.
  - destruct Hb as (Hb & Hb0 & _), He as (He & He0 & _). apply Forall_app. split; [apply Forall_app; split|].
    + destruct Hk as [-> | ->]; cbn; auto.
    + destruct Hk as [-> | ->]; cbn; auto.
    + apply Forall_forall. intros t Ht. apply in_flat_map in Ht as (f & Hf & Ht). destruct (sizes_in _ _ _ Hf) as (n & os' & Hn & ->).
      rewrite Forall_forall in Nn. specialize (Nn _ Hn). destruct n; try contradiction; destruct Ht.
  - apply Forall_app. split; [apply Forall_app; split; destruct k; constructor|].
    apply Forall_forall. intros t Ht. apply in_flat_map in Ht as (f & Hf & Ht). destruct (sizes_in _ _ _ Hf) as (n & os' & Hn & ->).
    rewrite Forall_forall in IH, Lk. specialize (IH _ Hn (Lk _ Hn) os'). rewrite Forall_forall in IH. auto.
Qed.
