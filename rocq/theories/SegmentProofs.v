(** Proofs for C31: a segment presents what the document presents. *)

From Coq Require Import List ZArith String Ascii Bool Lia.
From Verif Require Import TimingModel TimingSpec TimingProofs TimeModel TimeSpec TimeProofs PropsTime
  StyleModel SegmentModel SegmentSpec.
Import ListNotations.
Open Scope Z_scope.

Lemma vnode_ind' : forall Pr : vnode -> Prop,
  (forall s, Pr (VText s)) -> Pr VBr ->
  (forall k i r st b e cb ce vs inh kids, Forall Pr kids -> Pr (VNode k i r st b e cb ce vs inh kids)) ->
  forall v, Pr v.
Proof.
  intros Pr H1 H2 H3. fix IH 1. intros [s| |k i r st b e cb ce vs inh kids].
  - apply H1.
  - apply H2.
  - apply H3. induction kids as [|v r' IHk]; constructor; [apply IH|exact IHk].
Qed.

Lemma node_ind2 : forall Pr : node -> Prop,
  (forall s, Pr (Text s)) -> Pr Br ->
  (forall k i r st b e kids, Forall Pr kids -> Pr (Node k i r st b e kids)) ->
  forall n, Pr n.
Proof.
  intros Pr H1 H2 H3. fix IH 1. intros [s| |k i r st b e kids].
  - apply H1.
  - apply H2.
  - apply H3. induction kids as [|v r' IHk]; constructor; [apply IH|exact IHk].
Qed.

(** ** The inner loops as functions of their own *)

Lemma copy_node_eq : forall x k i region style b e cb ce styles inherited kids orphans,
  copy_node x (VNode k i region style b e cb ce styles inherited kids) orphans =
  if is_in_segment cb ce (x_begin x) (x_end x) then
    gbind (map_region x k region) (fun region' =>
    gbind (map_style x style) (fun style' =>
    gbind (copy_nodes x kids orphans) (fun '(kids', o1) =>
    if is_empty k kids' then GOk (None, o1)
    else gbind (leaf_timing x k kids' cb ce) (fun '(b', e') =>
         GOk (Some (Node k (copy_id (x_dec x) (x_seq x) i) region' style' b' e' kids'),
              unorphan (styles ++ own_region k region)%list o1)))))
  else GOk (None, orphans).
Proof.
  intros x k i region style b e cb ce styles inherited kids orphans. cbn [copy_node].
  assert (E : forall vs o, (fix copy_kids (vs : list vnode) (o : list string) : gres (list node * list string) :=
          match vs with
          | [] => GOk ([], o)
          | w :: r => gbind (copy_node x w o) (fun '(n, o1) =>
                      gbind (copy_kids r o1) (fun '(ns, o2) =>
                      GOk (match n with Some m => m :: ns | None => ns end, o2)))
          end) vs o = copy_nodes x vs o).
  { induction vs as [|w r IH]; intros o; auto. cbn [copy_nodes].
    destruct (copy_node x w o) as [[n o1]|]; cbn [gbind]; auto. rewrite IH. auto. }
  destruct (is_in_segment cb ce (x_begin x) (x_end x)); auto.
  destruct (map_region x k region); cbn [gbind]; auto. destruct (map_style x style); cbn [gbind]; auto.
  rewrite E. auto.
Qed.

Lemma present_eq : forall t k i r st b e kids b' e' cb ce cs,
  present t (Node k i r st b e kids) (CTimed b' e' cb ce cs) =
  if active t cb ce && existsb readable (present_all t kids cs) then [SEl k i r st (present_all t kids cs)] else [].
Proof.
  intros t k i r st b e kids b' e' cb ce cs. cbn [present].
  assert (E : forall ns cs, (fix all (ns : list node) (cs : list ctree) {struct ns} : list shown :=
            match ns, cs with
            | m :: ns', x :: cs' => (present t m x ++ all ns' cs')%list
            | _, _ => []
            end) ns cs = present_all t ns cs).
  { induction ns as [|m ns IH]; intros [|c cs']; auto. cbn [present_all]. rewrite <- IH. auto. }
  rewrite E. auto.
Qed.

(** ** Times *)

Lemma ms_last_ge : forall t b, trunc_ms b <= t <-> b <= ms_last t.
Proof.
  intros t b. unfold trunc_ms, ms_last.
  assert (H1 := Z.div_mod b 1000 ltac:(lia)). assert (B1 := Z.mod_pos_bound b 1000 ltac:(lia)).
  assert (H2 := Z.div_mod t 1000 ltac:(lia)). assert (B2 := Z.mod_pos_bound t 1000 ltac:(lia)). lia.
Qed.

Lemma ms_last_lt : forall t e, t < trunc_ms e <-> ms_last t < e.
Proof.
  intros t b. unfold trunc_ms, ms_last.
  assert (H1 := Z.div_mod b 1000 ltac:(lia)). assert (B1 := Z.mod_pos_bound b 1000 ltac:(lia)).
  assert (H2 := Z.div_mod t 1000 ltac:(lia)). assert (B2 := Z.mod_pos_bound t 1000 ltac:(lia)). lia.
Qed.

Lemma h100_range : forall v, 0 <= v < h100 -> in_range v.
Proof. unfold h100, in_range. lia. Qed.

Lemma timing_type_us : forall bs v a, 0 <= v < h100 -> timing_type bs (Some v) = GOk a -> ta_us a = trunc_ms v.
Proof.
  intros bs v a Hv H. assert (R := h100_range _ Hv). unfold timing_type in H. destruct bs.
  - destruct (limited_of v) as [s|] eqn:L; [|discriminate]. destruct (C17_limited_roundtrip _ _ R L) as [E _].
    rewrite E in H. inversion H; auto.
  - rewrite (C17_full_roundtrip _ R) in H. inversion H; auto.
Qed.

Lemma badly_us : forall b e u w, badly_timed (Some (mkTattr b u)) (Some (mkTattr e w)) = str_le e b.
Proof. auto. Qed.

Lemma timing_type_order : forall bs b e a a', 0 <= b < h100 -> 0 <= e < h100 ->
  timing_type bs (Some b) = GOk a -> timing_type bs (Some e) = GOk a' ->
  (badly_timed (Some a) (Some a') = true <-> e / 1000 <= b / 1000).
Proof.
  intros bs b e a a' Hb He Ha Ha'. unfold timing_type in *. destruct bs.
  - destruct (limited_of b) as [sb|] eqn:Lb; [|discriminate]. destruct (limited_of e) as [se|] eqn:Le; [|discriminate].
    destruct (clock_td true sb); [|discriminate]. destruct (clock_td true se); [|discriminate].
    inversion Ha; inversion Ha'; subst. rewrite badly_us.
    rewrite <- (C18_limited b e sb se); auto; try lia. reflexivity.
  - destruct (clock_td false (full_of b)); [|discriminate]. destruct (clock_td false (full_of e)); [|discriminate].
    inversion Ha; inversion Ha'; subst. rewrite badly_us. rewrite <- (C18_full_below_100h b e); auto. reflexivity.
Qed.

Lemma div_trunc : forall b e, trunc_ms b < trunc_ms e -> b / 1000 < e / 1000.
Proof.
  intros b e H. unfold trunc_ms in H.
  assert (H1 := Z.div_mod b 1000 ltac:(lia)). assert (H2 := Z.div_mod e 1000 ltac:(lia)). lia.
Qed.
Lemma div_trunc' : forall b e, b / 1000 < e / 1000 -> trunc_ms b < trunc_ms e.
Proof.
  intros b e H. unfold trunc_ms.
  assert (H1 := Z.div_mod b 1000 ltac:(lia)). assert (H2 := Z.div_mod e 1000 ltac:(lia)). lia.
Qed.

Lemma trim_begin_le : forall sb cb t, trim_begin sb cb <= t <-> match sb with Some s => s <= t | None => True end /\ cb <= t.
Proof. intros [s|] cb t; cbn; [|tauto]. destruct (Z.ltb_spec cb s); lia. Qed.

Lemma trim_end_gt : forall se ce e t, trim_end se ce = Some e ->
  (t < e <-> match se with Some s => t < s | None => True end /\ match ce with Some c => t < c | None => True end).
Proof.
  intros [s|] [c|] e t H; cbn in H; try discriminate; [destruct (Z.ltb_spec s c)|..]; inversion H; subst; lia.
Qed.

Lemma trim_active : forall sb se cb ce e t, trim_end se ce = Some e ->
  active t (trim_begin sb cb) (Some e) = (in_window sb se t && active t cb ce)%bool.
Proof.
  intros sb se cb ce e t H. apply eq_iff_eq_true. unfold active, in_window. rewrite !andb_true_iff.
  rewrite Z.leb_le, Z.ltb_lt, trim_begin_le, (trim_end_gt _ _ _ _ H), Z.leb_le.
  destruct sb, se, ce; rewrite ?Z.leb_le, ?Z.ltb_lt; intuition.
Qed.

Lemma active_trunc : forall t b e, active t (trunc_ms b) (Some (trunc_ms e)) = active (ms_last t) b (Some e).
Proof.
  intros t b e. apply eq_iff_eq_true. unfold active. rewrite !andb_true_iff, !Z.leb_le, !Z.ltb_lt.
  rewrite ms_last_ge, ms_last_lt. reflexivity.
Qed.

Lemma out_inactive : forall sb se cb ce t, is_in_segment cb ce sb se = false -> in_window sb se t = true ->
  active t cb ce = false.
Proof.
  intros sb se cb ce t H W. destruct (active t cb ce) eqn:A; auto. exfalso. revert H. apply not_false_iff_true.
  unfold active, in_window, is_in_segment in *. rewrite andb_true_iff in A, W. destruct A as [A1 A2], W as [W1 W2].
  apply Z.leb_le in A1. destruct sb as [s|], se as [z|], ce as [c|]; rewrite ?Z.leb_le, ?Z.ltb_lt in *;
    try (destruct (Z.leb_spec c s); [lia|]); auto; try (destruct (Z.leb_spec z cb); [lia|]; auto).
Qed.

(** ** References *)

Lemma map_refs_ok : forall x copied l l', map_refs x copied l = GOk l' ->
  l' = map (copy_ref (x_dec x) (x_seq x)) l /\ forall i, In i l -> mem i copied = true.
Proof.
  intros x copied. induction l as [|i r IH]; intros l' H; cbn in H.
  - inversion H. split; [auto|]. intros ? [].
  - unfold map_ref in H. destruct (mem i copied) eqn:M; [|discriminate]. cbn in H.
    destruct (map_refs x copied r) as [r'|]; [|discriminate]. cbn in H. inversion H; subst.
    destruct (IH _ eq_refl) as [-> F]. split; auto. intros j [<-|Hj]; auto.
Qed.

Lemma map_style_ok : forall x st st', map_style x st = GOk st' ->
  st' = option_map (map (copy_ref (x_dec x) (x_seq x))) st /\
  forall l i, st = Some l -> In i l -> mem i (x_styles x) = true.
Proof.
  intros x [l|] st' H; cbn in H.
  - destruct (map_refs x (x_styles x) l) as [l'|] eqn:E; [|discriminate]. cbn in H. inversion H; subst.
    destruct (map_refs_ok _ _ _ _ E) as [-> F]. split; auto. intros l2 i Hl. inversion Hl; subst. auto.
  - inversion H; subst. split; auto. discriminate.
Qed.

Lemma map_region_ok : forall x k r r', map_region x k r = GOk r' ->
  r' = match k with Div | P => option_map (copy_ref (x_dec x) (x_seq x)) r | _ => None end /\
  forall i, In i (own_region k r) -> mem i (x_regions x) = true.
Proof.
  assert (M : forall x i r', gbind (map_ref x (x_regions x) i) (fun j => GOk (Some j)) = GOk r' ->
    r' = Some (copy_ref (x_dec x) (x_seq x) i) /\ mem i (x_regions x) = true).
  { intros x i r' H. unfold map_ref in H. destruct (mem i (x_regions x)); cbn in H; inversion H; auto. }
  intros x k r r' H. destruct k, r as [i|]; cbn [map_region own_region option_map] in H |- *;
    try (inversion H; subst; split; [reflexivity|intros ? []]);
    destruct (M _ _ _ H) as [-> Q]; (split; [reflexivity|]); intros j [<-|[]]; exact Q.
Qed.

Lemma copy_id_ref : forall dec seq i, copy_id dec seq i = option_map (copy_ref dec seq) i.
Proof. intros [] seq [i|]; auto. Qed.

(** ** Text *)

Lemma is_space_white : forall c, is_space c = existsb (Nat.eqb (nat_of_ascii c)) white.
Proof.
  intros c. unfold is_space. assert (H := nat_ascii_bounded c). set (n := nat_of_ascii c) in *. clearbody n.
  apply eq_iff_eq_true. rewrite existsb_exists, !orb_true_iff, !andb_true_iff, !Nat.leb_le, !Nat.eqb_eq. cbn [In white]. split.
  - intros H0. exists n. rewrite Nat.eqb_refl. split; auto. lia.
  - intros (y & Hy & E). apply Nat.eqb_eq in E. subst y. lia.
Qed.

Lemma isspace_blank : forall s, isspace s = blank s.
Proof.
  intros [|c s]; auto. unfold isspace, blank. cbn [list_ascii_of_string all_space forallb]. rewrite is_space_white. f_equal.
  induction s as [|c' s IH]; auto. cbn [list_ascii_of_string all_space forallb]. rewrite is_space_white, IH. auto.
Qed.

(** ** Kinds *)

Definition same_kind (v : vnode) (n : node) : Prop :=
  match v, n with
  | VText s, Text s' => s = s'
  | VBr, Br => True
  | VNode k _ _ _ _ _ _ _ _ _ _, Node k' _ _ _ _ _ _ => k = k'
  | _, _ => False
  end.

Lemma copy_kind : forall x v o n o', copy_node x v o = GOk (Some n, o') -> same_kind v n.
Proof.
  intros x [s| |k i r st b e cb ce vs inh kids] o n o' H.
  - cbn in H. inversion H. reflexivity.
  - cbn in H. inversion H. reflexivity.
  - rewrite copy_node_eq in H. destruct (is_in_segment _ _ _ _); [|discriminate].
    destruct (map_region x k r); [|discriminate]. cbn in H. destruct (map_style x st); [|discriminate]. cbn in H.
    destruct (copy_nodes x kids o) as [[ks o1]|]; [|discriminate]. cbn in H.
    destruct (is_empty k ks); [discriminate|]. destruct (leaf_timing x k ks cb ce) as [[b' e']|]; [|discriminate]. cbn in H.
    inversion H; subst. reflexivity.
Qed.

(** The copies of a list of children, one for each that is kept. *)
Inductive kept (x : sctx) : list vnode -> list node -> Prop :=
| kept_nil : kept x [] []
| kept_drop v vs ns o o' : copy_node x v o = GOk (None, o') -> kept x vs ns -> kept x (v :: vs) ns
| kept_keep v vs n ns o o' : copy_node x v o = GOk (Some n, o') -> kept x vs ns -> kept x (v :: vs) (n :: ns).

Lemma copy_nodes_kept : forall x vs o ns o', copy_nodes x vs o = GOk (ns, o') -> kept x vs ns.
Proof.
  intros x. induction vs as [|v vs IH]; intros o ns o' H; cbn [copy_nodes] in H.
  - inversion H. constructor.
  - destruct (copy_node x v o) as [[n o1]|] eqn:E; [|discriminate]. cbn [gbind] in H.
    destruct (copy_nodes x vs o1) as [[ns' o2]|] eqn:E2; [|discriminate]. cbn [gbind] in H.
    inversion H; subst. destruct n; [eapply kept_keep|eapply kept_drop]; eauto.
Qed.

Lemma kept_in : forall x vs ns, kept x vs ns -> forall n, In n ns ->
  exists v o o', In v vs /\ copy_node x v o = GOk (Some n, o').
Proof.
  induction 1 as [|v vs ns o o' H K IH|v vs n0 ns o o' H K IH]; intros n Hn; [destruct Hn|..].
  - destruct (IH n Hn) as (w & a & c & Hw & E). exists w, a, c. split; [right|]; auto.
  - destruct Hn as [<-|Hn]; [exists v, o, o'; split; [left|]; auto|].
    destruct (IH n Hn) as (w & a & c & Hw & E). exists w, a, c. split; [right|]; auto.
Qed.

Lemma kept_span : forall x vs ns, kept x vs ns -> existsb (is_el Span) ns = true -> has_span vs = true.
Proof.
  intros x vs ns K H. apply existsb_exists in H. destruct H as (n & Hn & E).
  destruct (kept_in _ _ _ K _ Hn) as (v & o & o' & Hv & C). apply copy_kind in C.
  unfold has_span. apply existsb_exists. exists v. split; auto.
  destruct n as [s| |k i r st b e kids]; cbn in E; try discriminate.
  destruct v; cbn in C; try contradiction. subst k. destruct k0; auto; discriminate.
Qed.

(** ** One node *)

Lemma readable_rename : forall f s, readable (rename f s) = readable s.
Proof. intros f [ | | ]; auto. Qed.

Lemma existsb_rename : forall f l, existsb readable (map (rename f) l) = existsb readable l.
Proof. induction l as [|s l IH]; cbn; auto. rewrite readable_rename, IH. auto. Qed.

Definition is_vel (v : vnode) : bool := match v with VNode _ _ _ _ _ _ _ _ _ _ _ => true | _ => false end.

Definition ren (x : sctx) : shown -> shown := rename (copy_ref (x_dec x) (x_seq x)).
Definition win (x : sctx) (t : Z) : bool := in_window (x_begin x) (x_end x) (ms_last t).

(** What has to be shown of the copy of a node. *)
Definition node_ok (x : sctx) (t : Z) (v : vnode) (r : option node) : Prop :=
  match r with
  | None => is_vel v = true /\ (win x t = true -> present (ms_last t) (plain v) (vtimes v) = [])
  | Some m =>
      nn_elem (timing m) /\
      forall c, timed 0 0 None (timing m) c ->
        (win x t = true -> present t m c = map (ren x) (present (ms_last t) (plain v) (vtimes v))) /\
        (is_vel v = true ->
         (win x t = false -> present t m c = []) /\
         (present t m c <> [] -> exists cb ce, counted c cb ce /\ active t cb ce = true))
  end.

Lemma counted_cons : forall k ks cb ce, counted k cb ce -> counted_in (k :: ks) cb ce.
Proof. intros. exists k. split; [left|]; auto. Qed.
Lemma counted_later : forall k ks cb ce, counted_in ks cb ce -> counted_in (k :: ks) cb ce.
Proof. intros k ks cb ce (q & Hq & C). exists q. split; [right|]; auto. Qed.

Lemma has_text_cons : forall v vs, has_text (v :: vs) = false ->
  match v with VText s => blank s = true | _ => True end /\ has_text vs = false.
Proof.
  intros v vs H. unfold has_text in *. cbn in H. apply orb_false_iff in H. destruct H as [H1 H2]. split; auto.
  destruct v; auto. apply negb_false_iff in H1. auto.
Qed.

Lemma kids_ok : forall x t vs ns, kept x vs ns ->
  (forall v, In v vs -> forall o m o', copy_node x v o = GOk (m, o') -> node_ok x t v m) ->
  Forall nn_elem (map timing ns) /\
  forall cks, Forall2 (timed 0 0 None) (map timing ns) cks ->
    (win x t = true ->
     present_all t ns cks = map (ren x) (present_all (ms_last t) (map plain vs) (map vtimes vs))) /\
    (has_text vs = false ->
     (win x t = false -> existsb readable (present_all t ns cks) = false) /\
     (existsb readable (present_all t ns cks) = true ->
      exists cb ce, counted_in cks cb ce /\ active t cb ce = true)).
Proof.
  intros x t vs ns K. induction K as [|v vs ns o o' H K IH|v vs n ns o o' H K IH]; intros IHv.
  - split; [constructor|]. intros cks F. inversion F; subst. cbn. repeat split; auto. discriminate.
  - destruct IH as [IN IH]; [intros w Hw; apply IHv; right; auto|].
    assert (Hv := IHv v (or_introl eq_refl) _ _ _ H). cbn in Hv. destruct Hv as [_ Hv].
    split; auto. intros cks F. destruct (IH cks F) as (A & B). split.
    + intros W. cbn [map present_all]. rewrite (Hv W). cbn [app]. apply A; auto.
    + intros T. apply has_text_cons in T. apply B, T.
  - destruct IH as [IN IH]; [intros w Hw; apply IHv; right; auto|].
    assert (Hv := IHv v (or_introl eq_refl) _ _ _ H). destruct Hv as [Nv Hv]. split; [constructor; auto|].
    intros cks F. cbn [map] in F. inversion F as [|? c ? cks' Tc F']; subst.
    destruct (IH _ F') as (A & B). destruct (Hv _ Tc) as (Va & Vb).
    assert (SK := copy_kind _ _ _ _ _ H). split.
    + intros W. cbn [map present_all]. rewrite Va, A, map_app; auto.
    + intros T. apply has_text_cons in T. destruct T as [Tv T]. destruct (B T) as [B1 B2].
      cbn [present_all]. rewrite existsb_app. split.
      * intros W. rewrite B1; auto. rewrite orb_false_r.
        destruct v as [s| |k i r st b e cb ce vs' inh kids]; cbn [same_kind] in SK.
        -- destruct n; try contradiction. subst. cbn. rewrite Tv. auto.
        -- destruct n; try contradiction. auto.
        -- destruct (Vb eq_refl) as [V1 _]. rewrite V1; auto.
      * intros R. apply orb_true_iff in R. destruct R as [R|R].
        -- destruct v as [s| |k i r st b e cb ce vs' inh kids]; cbn [same_kind] in SK.
           ++ destruct n; try contradiction. subst. cbn in R. rewrite Tv in R. discriminate.
           ++ destruct n; try contradiction. discriminate.
           ++ destruct (Vb eq_refl) as [_ V2]. destruct V2 as (kb & ke & C & Ac).
              { intros E. rewrite E in R. discriminate. }
              exists kb, ke. split; auto. apply counted_cons; auto.
        -- destruct (B2 R) as (kb & ke & C & Ac). exists kb, ke. split; auto. apply counted_later; auto.
Qed.

Lemma shown_kids : forall t vs, Forall well_timed vs -> has_text vs = false ->
  existsb readable (present_all t (map plain vs) (map vtimes vs)) = true ->
  exists cb ce, counted_in (map vtimes vs) cb ce /\ active t cb ce = true.
Proof.
  intros t. induction vs as [|v vs IH]; intros W T R; [discriminate|].
  inversion W as [|? ? Wv Wr]; subst. apply has_text_cons in T. destruct T as [Tv T].
  cbn [map present_all] in R. rewrite existsb_app in R. apply orb_true_iff in R. destruct R as [R|R].
  - destruct v as [s| |k i r st b e cb ce vs' inh kids].
    + cbn in R. rewrite Tv in R. discriminate.
    + discriminate.
    + inversion Wv as [| |? ? ? ? ? ? ? ? ? ? ? Hb Wk]; subst. exists cb, ce. split.
      * apply counted_cons. exists b, e, (map vtimes kids). auto.
      * cbn [plain vtimes] in R. rewrite present_eq in R. destruct (active t cb ce); auto.
  - destruct (IH Wr T R) as (cb & ce & C & A). exists cb, ce. split; auto. apply counted_later; auto.
Qed.

Lemma nested_active : forall t b e cb ce ks kb ke, nested (CTimed b e cb ce ks) ->
  counted_in ks kb ke -> active t kb ke = true -> active t cb ce = true.
Proof.
  intros t b e cb ce ks kb ke N C A. destruct (N _ _ _ _ _ eq_refl _ _ C) as [H1 H2].
  unfold active in *. apply andb_true_iff in A. destruct A as [A1 A2]. apply Z.leb_le in A1.
  apply andb_true_iff. split; [apply Z.leb_le; lia|].
  destruct H2 as [->|(v & w & -> & -> & H)]; auto. apply Z.ltb_lt in A2. apply Z.ltb_lt. lia.
Qed.

(** ** Leaves *)

Lemma timed_leaf_inv : forall base lim b e ns c,
  Forall (fun n => match n with Node _ _ _ _ _ _ _ => False | _ => True end) ns ->
  timed 0 base lim (Timed b e (map timing ns)) c -> is_given e = true ->
  exists cks, c = CTimed b e (base + offset b) (tighten lim base e) cks /\
    Forall2 (timed 0 0 None) (map timing ns) cks.
Proof.
  intros base lim b e ns c N H G. inversion H as [|? ? ? cb ce cks F E B]; subst.
  assert (Q : forall q, Forall2 (timed 0 (base + offset b) (tighten lim base e)) (map timing ns) q ->
    Forall2 (timed 0 0 None) (map timing ns) q /\ forall x y, ~ counted_in q x y).
  { clear F E B H. induction N as [|n ns Hn Hr IH]; intros q F; cbn in F; inversion F as [|? c ? q' Tc F']; subst.
    - split; [constructor|]. intros x y (k & [] & _).
    - destruct (IH _ F') as [I1 I2]. destruct n; try contradiction; cbn [timing] in Tc; inversion Tc; subst;
        (split; [constructor; auto; constructor|]); intros x y (k & [<-|Hk] & C);
        try (destruct C as (? & ? & ? & ? & _); discriminate); eapply I2; exists k; eauto. }
  destruct (Q _ F) as [Q1 Q2]. exists cks. split; auto. rewrite G in E.
  assert (ce = tighten lim base e).
  { unfold is_given in G. unfold tighten in *. destruct (eff e); [|discriminate]. destruct lim;
    inversion E as [v Hv|Hn Hnc|cbx Hn Hcx|m cbx Hn Hcx Hle]; subst; congruence. }
  assert (cb = base + offset b).
  { inversion B as [Hg|Hg Hn|m cex Hg Hm Hle]; subst; auto; try (unfold start_at; destruct (Z.eq_dec 0 0); congruence).
    exfalso. eapply Q2; eauto. }
  subst. auto.
Qed.

Lemma kept_flat : forall x k vs ns, kept x vs ns -> Forall (fun v => fits k v = true) vs ->
  is_timed_leaf k ns = true ->
  Forall (fun n => match n with Node _ _ _ _ _ _ _ => False | _ => True end) ns.
Proof.
  intros x k vs ns K Fi L. apply Forall_forall. intros n Hn.
  destruct (kept_in _ _ _ K _ Hn) as (v & o & o' & Hv & C). apply copy_kind in C.
  rewrite Forall_forall in Fi. specialize (Fi _ Hv).
  destruct n as [s| |k0 i r st b e kids]; auto. destruct v as [| |k1 i1 r1 st1 b1 e1 cb ce vs1 inh kids1]; cbn in C; try contradiction. subst k1.
  assert (k0 = Span /\ is_timed_leaf k ns = negb (existsb (is_el Span) ns)) as [-> E].
  { destruct k, k0; cbn in Fi; try discriminate; cbn in L; try discriminate; auto. }
  rewrite E in L. apply negb_true_iff in L.
  assert (X : existsb (is_el Span) ns = true) by (apply existsb_exists; eauto). congruence.
Qed.

Definition win_ok (x : sctx) : Prop := begin_ok (x_begin x) /\ end_ok (x_end x).

Lemma leaf_times : forall x k ns cb ce b' e', win_ok x -> 0 <= cb -> cb < h100 -> end_ok ce ->
  is_timed_leaf k ns = true -> leaf_timing x k ns cb ce = GOk (b', e') ->
  exists b e ba ea, b = trim_begin (x_begin x) cb /\ trim_end (x_end x) ce = Some e /\
    0 <= b < h100 /\ 1000 <= e < h100 /\
    b' = Some ba /\ e' = Some ea /\ ta_us ba = trunc_ms b /\ ta_us ea = trunc_ms e /\
    (badly_timed b' e' = true <-> e / 1000 <= b / 1000).
Proof.
  intros x k ns cb ce b' e' [Wb We] H0 H1 H2 L H. unfold leaf_timing in H. rewrite L in H.
  assert (Rb : 0 <= trim_begin (x_begin x) cb < h100).
  { unfold begin_ok in Wb. destruct (x_begin x) as [s|]; cbn [trim_begin]; [|lia]. destruct (Z.ltb_spec cb s); lia. }
  destruct (timing_type (x_base x) (Some (trim_begin (x_begin x) cb))) as [ba|] eqn:Eb; [|discriminate]. cbn [gbind] in H.
  destruct (trim_end (x_end x) ce) as [e|] eqn:Te; [|discriminate].
  assert (Re : 1000 <= e < h100).
  { unfold end_ok in *. destruct (x_end x) as [s|], ce as [c|]; cbn [trim_end] in Te; try discriminate;
      [destruct (Z.ltb_spec s c)|..]; inversion Te; subst; lia. }
  destruct (timing_type (x_base x) (Some e)) as [ea|] eqn:Ee; [|discriminate]. cbn [gbind] in H. inversion H; subst.
  exists (trim_begin (x_begin x) cb), e, ba, ea. repeat (split; [solve [auto]|]).
  split; [eapply timing_type_us; eauto|]. split; [eapply timing_type_us; [|eauto]; lia|].
  eapply timing_type_order; eauto; lia.
Qed.

Lemma trunc_nn : forall v, 0 <= v -> 0 <= trunc_ms v.
Proof. intros v H. unfold trunc_ms. assert (B := Z.mod_le v 1000 H ltac:(lia)). lia. Qed.
Lemma trunc_pos : forall v, 1000 <= v -> 0 < trunc_ms v.
Proof.
  intros v H. unfold trunc_ms. assert (B := Z.mod_pos_bound v 1000 ltac:(lia)). lia.
Qed.

Lemma offset_us : forall a v, ta_us a = v -> offset (Some a) = v.
Proof. intros a v <-. unfold offset, eff. destruct (Z.eq_dec (ta_us a) 0); auto. Qed.

Lemma given_us : forall a v, ta_us a = v -> 0 < v -> is_given (Some a) = true /\ tighten None 0 (Some a) = Some v.
Proof.
  intros a v E P. unfold is_given, tighten, eff. destruct (Z.eq_dec (ta_us a) 0); [lia|].
  split; auto. rewrite E, Z.add_0_l. auto.
Qed.

(** The computed times of a copied leaf. *)
Lemma leaf_interval : forall x k i r st ns cb ce b' e' c, win_ok x -> 0 <= cb -> cb < h100 -> end_ok ce ->
  Forall (fun n => match n with Node _ _ _ _ _ _ _ => False | _ => True end) ns ->
  is_timed_leaf k ns = true -> leaf_timing x k ns cb ce = GOk (b', e') ->
  timed 0 0 None (timing (Node k i r st b' e' ns)) c ->
  exists e cks, trim_end (x_end x) ce = Some e /\
    c = CTimed b' e' (trunc_ms (trim_begin (x_begin x) cb)) (Some (trunc_ms e)) cks /\
    0 <= trim_begin (x_begin x) cb /\ 1000 <= e /\
    Forall2 (timed 0 0 None) (map timing ns) cks /\
    (badly_timed b' e' = true <-> e / 1000 <= trim_begin (x_begin x) cb / 1000).
Proof.
  intros x k i r st ns cb ce b' e' c W H0 H1 H2 N L LT T.
  destruct (leaf_times _ _ _ _ _ _ _ W H0 H1 H2 L LT) as (b & e & ba & ea & -> & Te & Rb & Re & -> & -> & Ub & Ue & Bad).
  cbn [timing] in T. destruct (given_us _ _ Ue (trunc_pos e ltac:(lia))) as [G Ti].
  destruct (timed_leaf_inv _ _ _ _ _ _ N T G) as (cks & -> & F).
  exists e, cks. rewrite Ti, (offset_us _ _ Ub), Z.add_0_l. repeat (split; [solve [auto|lia]|]). auto.
Qed.

(** ** Elements without times of their own *)

Lemma timed_kids : forall av base lim vs,
  Forall2 (timed av base lim) (map timing (map plain vs)) (map vtimes vs) ->
  Forall (fun v => timed av base lim (timing (plain v)) (vtimes v)) vs.
Proof.
  intros av base lim. induction vs as [|v vs IH]; intros F; constructor; inversion F; subst; auto.
Qed.

Definition vcb_is (S : Z) (lim : option Z) (v : vnode) : Prop :=
  match v with VNode _ _ _ _ _ _ cb ce _ _ _ => cb = S /\ ce = lim | _ => True end.

Lemma counted_vtimes : forall vs cb ce, counted_in (map vtimes vs) cb ce ->
  exists k i r st b e vs' inh kids, In (VNode k i r st b e cb ce vs' inh kids) vs /\ badly_timed b e = false.
Proof.
  intros vs cb ce (c & Hc & b & e & ks & E & Hb). apply in_map_iff in Hc. destruct Hc as (v & Ev & Hv).
  rewrite E in Ev. destruct v as [| |k i r st b0 e0 cb0 ce0 vs' inh kids]; cbn in Ev; try discriminate.
  inversion Ev; subst. exists k, i, r, st, b, e, vs', inh, kids. auto.
Qed.

(** Children that are all present for the same time. *)
Lemma end_rule_same : forall own lim l ks ce, end_rule own lim ks ce ->
  (forall cb c, counted_in ks cb c -> c = l) ->
  (exists cb c, counted_in ks cb c) -> own = None -> ce = l.
Proof.
  intros own lim l ks ce E A (cb0 & c0 & C0) O.
  inversion E as [v Hv|Hn Hnc|cbx Hn Hcx|m cbx Hn Hcx Hle]; subst; try congruence.
  - exfalso. eapply Hnc; eauto.
  - eapply A; eauto.
  - eapply A; eauto.
Qed.

Lemma begin_rule_same : forall start g l ks cb, begin_rule start g ks cb ->
  (forall b c, counted_in ks b c -> b = l) ->
  (exists b c, counted_in ks b c) -> g = false -> cb = Z.max start l.
Proof.
  intros start g l ks cb B A (b0 & c0 & C0) G.
  inversion B as [Hg|Hg Hn|m ce Hg Hm Hle]; subst; try congruence.
  - exfalso. eapply Hn; eauto.
  - rewrite (A _ _ Hm). auto.
Qed.

Lemma untimed_orig : forall av v, untimed v -> forall base lim,
  timed av base lim (timing (plain v)) (vtimes v) -> vcb_is (start_at av base) lim v.
Proof.
  intros av. induction v as [s| |k i r st b e cb ce vs inh kids IH] using vnode_ind'; intros U base lim T; cbn; auto.
  inversion U as [| |? ? ? ? ? ? ? ? ? Uk]; subst. cbn [plain vtimes timing] in T.
  inversion T as [|? ? ? ? ? ? F E B]; subst. cbn [offset eff is_given tighten] in F, E, B.
  change (offset None) with 0 in F, B. rewrite Z.add_0_r in F, B.
  apply timed_kids in F. rewrite Forall_forall in F, IH, Uk.
  assert (A : forall x y, counted_in (map vtimes kids) x y -> x = start_at av base /\ y = lim).
  { intros x y C. apply counted_vtimes in C. destruct C as (k' & i' & r' & st' & b' & e' & vs' & inh' & ks' & Hin & _).
    assert (Q := IH _ Hin (Uk _ Hin) _ _ (F _ Hin)). exact Q. }
  destruct (good_children (map vtimes kids)) as [|[x y] g] eqn:G.
  - assert (N : forall x y, ~ counted_in (map vtimes kids) x y).
    { intros x y C. apply good_children_in in C. rewrite G in C. destruct C. }
    split.
    + inversion B as [Hg|Hg Hn|m cex Hg Hm Hle]; subst; auto. exfalso. eapply N; eauto.
    + inversion E as [v Hv|Hn Hnc|cbx Hn Hcx|m cbx Hn Hcx Hle]; subst; auto; try discriminate; exfalso; eapply N; eauto.
  - assert (C : counted_in (map vtimes kids) x y) by (apply good_children_in; rewrite G; left; auto).
    split.
    + rewrite (begin_rule_same _ _ (start_at av base) _ _ B); [lia|intros; eapply A; eauto|eauto|auto].
    + eapply end_rule_same; [exact E|intros; eapply A; eauto|eauto|auto].
Qed.

(** The parts of a successful copy. *)
Lemma copy_inv : forall x k i r st b e cb ce vs inh kids o m o',
  copy_node x (VNode k i r st b e cb ce vs inh kids) o = GOk (m, o') ->
  (is_in_segment cb ce (x_begin x) (x_end x) = false /\ m = None /\ o' = o) \/
  (is_in_segment cb ce (x_begin x) (x_end x) = true /\
   exists r' st' ks o1, map_region x k r = GOk r' /\ map_style x st = GOk st' /\
     copy_nodes x kids o = GOk (ks, o1) /\
     ((is_empty k ks = true /\ m = None /\ o' = o1) \/
      (is_empty k ks = false /\ exists b' e', leaf_timing x k ks cb ce = GOk (b', e') /\
        m = Some (Node k (copy_id (x_dec x) (x_seq x) i) r' st' b' e' ks) /\
        o' = unorphan (vs ++ own_region k r)%list o1))).
Proof.
  intros x k i r st b e cb ce vs inh kids o m o' H. rewrite copy_node_eq in H.
  destruct (is_in_segment _ _ _ _) eqn:S; [right|left; inversion H; auto]. split; auto.
  destruct (map_region x k r) as [r'|]; [|discriminate]. cbn [gbind] in H.
  destruct (map_style x st) as [st'|]; [|discriminate]. cbn [gbind] in H.
  destruct (copy_nodes x kids o) as [[ks o1]|]; [|discriminate]. cbn [gbind] in H.
  exists r', st', ks, o1. repeat (split; [reflexivity|]).
  destruct (is_empty k ks) eqn:Em; [left; inversion H; auto|right]. split; auto.
  destruct (leaf_timing x k ks cb ce) as [[b' e']|]; [|discriminate]. cbn [gbind] in H.
  exists b', e'. inversion H; auto.
Qed.

Definition mixed (k : ekind) : bool := match k with P | Span => true | _ => false end.

Lemma nonleaf_span : forall k ks, mixed k = true -> is_timed_leaf k ks = false -> existsb (is_el Span) ks = true.
Proof. intros [] ks M L; try discriminate; cbn in L; apply negb_false_iff in L; auto. Qed.

Lemma kept_forall2 : forall x vs ns cks, kept x vs ns -> Forall2 (timed 0 0 None) (map timing ns) cks ->
  forall c, In c cks -> exists v n o o', In v vs /\ In n ns /\ copy_node x v o = GOk (Some n, o') /\ timed 0 0 None (timing n) c.
Proof.
  intros x vs ns cks K F c Hc. destruct (Forall2_in_r _ _ _ _ _ _ F Hc) as (t & Ht & Tt).
  apply in_map_iff in Ht. destruct Ht as (n & <- & Hn). destruct (kept_in _ _ _ K _ Hn) as (v & o & o' & Hv & C).
  exists v, n, o, o'. auto.
Qed.

Lemma Forall2_in_l : forall (A B : Type) (R : A -> B -> Prop) l1 l2 y,
  Forall2 R l1 l2 -> In y l1 -> exists z, In z l2 /\ R y z.
Proof.
  induction 1; intros Hin; [destruct Hin|]. destruct Hin as [<-|Hin].
  - eexists. split; [left; reflexivity|auto].
  - destruct (IHForall2 Hin) as (z & Hz & Hr). exists z. split; [right|]; auto.
Qed.

(** The computed times of what is copied from an element without times. *)
Definition cut (x : sctx) (S : Z) (e : Z) (c : ctree) : Prop :=
  exists b' e' cks, c = CTimed b' e' (trunc_ms (trim_begin (x_begin x) S)) (Some (trunc_ms e)) cks /\ badly_timed b' e' = false.

Lemma untimed_kids : forall x S lim vs ns cks e, 
  kept x vs ns -> Forall2 (timed 0 0 None) (map timing ns) cks -> 
  existsb (is_el Span) ns = true -> Forall (fun v => fits P v = true) vs -> 0 <= trim_begin (x_begin x) S ->
  trim_end (x_end x) lim = Some e ->
  (forall v, In v vs -> is_vel v = true -> forall o n o', copy_node x v o = GOk (Some n, o') ->
     forall c, timed 0 0 None (timing n) c -> cut x S e c) ->
  begin_rule 0 false cks (trunc_ms (trim_begin (x_begin x) S)) /\
  forall l, end_rule None l cks (Some (trunc_ms e)).
Proof.
  intros x S lim vs ns cks e K F X Fi H0 Te IH.
  assert (A : forall cb c, counted_in cks cb c -> cb = trunc_ms (trim_begin (x_begin x) S) /\ c = Some (trunc_ms e)).
  { intros cb c (q & Hq & b & e' & qs & -> & _). destruct (kept_forall2 _ _ _ _ K F _ Hq) as (v & n & o & o' & Hv & Hn & C & T).
    assert (V : is_vel v = true).
    { apply copy_kind in C. destruct v, n; cbn in C; try contradiction; auto; inversion T. }
    destruct (IH _ Hv V _ _ _ C _ T) as (b1 & e1 & ks & E & _). inversion E; auto. }
  assert (C : counted_in cks (trunc_ms (trim_begin (x_begin x) S)) (Some (trunc_ms e))).
  { apply existsb_exists in X. destruct X as (n & Hn & En). destruct (kept_in _ _ _ K _ Hn) as (v & o & o' & Hv & C).
    destruct (Forall2_in_l _ _ _ _ _ _ F (in_map timing _ _ Hn)) as (c & Hc & T).
    assert (V : is_vel v = true).
    { assert (C' := C). apply copy_kind in C'. destruct n; cbn in En; try discriminate. destruct v; cbn in C'; try contradiction. auto. }
    destruct (IH _ Hv V _ _ _ C _ T) as (b1 & e1 & ks & -> & Hb).
    exists (CTimed b1 e1 (trunc_ms (trim_begin (x_begin x) S)) (Some (trunc_ms e)) ks). split; auto.
    exists b1, e1, ks. auto. }
  assert (N := trunc_nn _ H0). split.
  - replace (trunc_ms (trim_begin (x_begin x) S)) with (Z.max 0 (trunc_ms (trim_begin (x_begin x) S))) by lia.
    eapply begin_earliest; eauto. intros cb' ce' C'. destruct (A _ _ C'). lia.
  - intros l. eapply end_latest; eauto. intros cb' ce' C'. destruct (A _ _ C') as [_ ->]. exists (trunc_ms e). split; auto; lia.
Qed.

Lemma fits_mixed : forall k v, mixed k = true -> fits k v = true -> fits P v = true.
Proof. intros [] [| |[]]; cbn; auto; discriminate. Qed.
Lemma fits_span : forall k i r st b e cb ce vs inh kids, fits P (VNode k i r st b e cb ce vs inh kids) = true -> k = Span.
Proof. intros []; cbn; auto; discriminate. Qed.

Lemma vcb_node : forall S lim k i r st b e cb ce vs inh kids,
  vcb_is S lim (VNode k i r st b e cb ce vs inh kids) -> cb = S /\ ce = lim.
Proof. auto. Qed.

Lemma untimed_copy : forall x av S lim, win_ok x -> 0 <= S ->
  (forall e, trim_end (x_end x) lim = Some e -> trim_begin (x_begin x) S / 1000 < e / 1000) ->
  forall v, untimed v -> shaped v -> times_ok v -> fits P v = true -> is_vel v = true ->
  forall base, S = start_at av base -> timed av base lim (timing (plain v)) (vtimes v) ->
  forall o m o', copy_node x v o = GOk (Some m, o') ->
  exists e, trim_end (x_end x) lim = Some e /\ nn_elem (timing m) /\
    forall c, timed 0 0 None (timing m) c -> cut x S e c.
Proof.
  intros x av S lim W S0 Q. induction v as [s| |k i r st b e cb ce vs inh kids IH] using vnode_ind';
    intros U Sh TO Fi V base HS T o m o' C; try discriminate.
  assert (k = Span) by (eapply fits_span; eauto). subst k.
  destruct (vcb_node _ _ _ _ _ _ _ _ _ _ _ _ _ (untimed_orig _ _ U _ _ T)) as [-> ->].
  rewrite <- HS in *.
  inversion U as [| |? ? ? ? ? ? ? ? ? Uk]; subst b e. subst.
  inversion Sh as [| |? ? ? ? ? ? ? ? ? ? ? Fk Sk]; subst.
  inversion TO as [| |? ? ? ? ? ? ? ? ? ? ? Hcb Hce TOk']; subst.
  cbn [plain vtimes timing] in T. inversion T as [|? ? ? ? ? ? F E B]; subst.
  change (offset None) with 0 in F. rewrite Z.add_0_r in F. cbn [tighten eff] in F. apply timed_kids in F.
  destruct (copy_inv _ _ _ _ _ _ _ _ _ _ _ _ _ _ _ C) as [(_ & X & _)|(Is & r' & st' & ks & o1 & _ & _ & CK & [(_ & X & _)|(NE & b' & e' & LT & M & _)])];
    try discriminate. inversion M; subst m; clear M.
  assert (K := copy_nodes_kept _ _ _ _ _ CK).
  assert (Rb : 0 <= trim_begin (x_begin x) (start_at av base)).
  { destruct (x_begin x); cbn [trim_begin]; [|lia]. destruct (Z.ltb_spec (start_at av base) z); lia. }
  destruct (is_timed_leaf Span ks) eqn:L.
  - assert (Fl := kept_flat _ _ _ _ K Fk L).
    destruct (leaf_times _ _ _ _ _ _ _ W S0 Hcb Hce L LT) as (bb & ee & ba & ea & -> & Te & Rbb & Re & -> & -> & Ub & Ue & Bad).
    exists ee. split; auto. split.
    + cbn [timing]. constructor; cbn [nn]; [rewrite Ub; apply trunc_nn; lia|rewrite Ue; apply trunc_nn; lia|].
      apply Forall_forall. intros z Hz. apply in_map_iff in Hz. destruct Hz as (n & <- & Hn).
      rewrite Forall_forall in Fl. specialize (Fl _ Hn). destruct n; try contradiction; constructor.
    + intros c Tc. destruct (leaf_interval _ _ _ _ _ _ _ _ _ _ _ W S0 Hcb Hce Fl L LT Tc) as (e2 & cks & Te2 & -> & _ & _ & _ & Bad2).
      rewrite Te in Te2. inversion Te2; subst e2. exists (Some ba), (Some ea), cks. split; auto.
      destruct (badly_timed (Some ba) (Some ea)) eqn:Bd; auto. exfalso. destruct Bad as [Bad _]. specialize (Bad eq_refl).
      specialize (Q _ Te). lia.
  - assert (X := nonleaf_span Span _ eq_refl L). unfold leaf_timing in LT. rewrite L in LT. inversion LT; subst b' e'.
    rewrite Forall_forall in IH, Uk, Sk, TOk', F. rewrite Forall_forall in Fk.
    assert (KI : forall v, In v kids -> is_vel v = true -> forall o n o', copy_node x v o = GOk (Some n, o') ->
      exists e, trim_end (x_end x) lim = Some e /\ nn_elem (timing n) /\
        forall c, timed 0 0 None (timing n) c -> cut x (start_at av base) e c).
    { intros v Hv Vv oo n oo' Cv. eapply IH; eauto; try (eapply fits_mixed; [|apply Fk; auto]; auto); reflexivity. }
    assert (exists e, trim_end (x_end x) lim = Some e) as (e & Te).
    { apply existsb_exists in X. destruct X as (n & Hn & En). destruct (kept_in _ _ _ K _ Hn) as (v & oo & oo' & Hv & Cv).
      assert (Vv : is_vel v = true).
      { assert (C' := Cv). apply copy_kind in C'. destruct n; cbn in En; try discriminate. destruct v; cbn in C'; try contradiction. auto. }
      destruct (KI _ Hv Vv _ _ _ Cv) as (e & Te & _). eauto. }
    exists e. split; auto. split.
    + cbn [timing]. constructor; cbn [nn]; auto. apply Forall_forall. intros z Hz. apply in_map_iff in Hz. destruct Hz as (n & <- & Hn).
      destruct (kept_in _ _ _ K _ Hn) as (v & oo & oo' & Hv & Cv).
      destruct (is_vel v) eqn:Vv; [destruct (KI _ Hv Vv _ _ _ Cv) as (? & _ & ? & _); auto|].
      apply copy_kind in Cv. destruct v, n; cbn in Cv, Vv; try contradiction; try discriminate; constructor.
    + intros c Tc. cbn [timing] in Tc. inversion Tc as [|? ? ? cb2 ce2 cks F2 E2 B2]; subst.
      change (offset None) with 0 in F2, B2. rewrite Z.add_0_r in F2, B2. cbn [tighten eff is_given] in F2, E2, B2.
      destruct (untimed_kids x (start_at av base) lim kids ks cks e K F2 X) as [B3 E3]; auto.
      { apply Forall_forall. intros v Hv. eapply fits_mixed; [|apply Fk; auto]. auto. }
      { intros v Hv Vv oo n oo' Cv cc Tcc. destruct (KI _ Hv Vv _ _ _ Cv) as (e9 & Te9 & _ & Z9). rewrite Te in Te9. inversion Te9; subst e9. auto. }
      unfold start_at in B2. destruct (Z.eq_dec 0 0); [|congruence].
      rewrite (begin_rule_det _ _ _ _ _ B2 B3), (end_rule_det _ _ _ _ _ E2 (E3 None)).
      exists None, None, cks. split; auto.
Qed.

(** ** The main induction *)

(** No text directly in a body or div. *)
Lemma fits_no_text : forall k vs, mixed k = false -> Forall (fun v => fits k v = true) vs -> has_text vs = false.
Proof.
  intros k vs M F. unfold has_text. induction F as [|v vs Hv F IH]; auto. cbn. rewrite IH, orb_false_r.
  destruct k, v; cbn in *; try discriminate; auto.
Qed.

(** Nothing readable in what is discarded as empty. *)
Lemma empty_unreadable : forall x t k vs ns cks, kept x vs ns -> k <> Body ->
  Forall (fun v => fits k v = true) vs -> is_empty k ns = true ->
  existsb readable (present_all t ns cks) = false.
Proof.
  intros x t k vs ns cks K NB Fi E.
  assert (A : forall n, In n ns -> match n with Text s => blank s = true | _ => False end).
  { intros n Hn. destruct (kept_in _ _ _ K _ Hn) as (v & o & o' & Hv & C). apply copy_kind in C.
    rewrite Forall_forall in Fi. specialize (Fi _ Hv).
    assert (G : forall (p : node -> bool), negb (existsb p ns) = true -> p n = false).
    { intros p Hp. apply negb_true_iff in Hp. destruct (p n) eqn:Pn; auto.
      assert (existsb p ns = true) by (apply existsb_exists; eauto). congruence. }
    destruct k; try congruence; unfold is_empty, contains_subtitles in E; apply G in E;
      destruct n as [s| |k0 i r st b e kids]; cbn in E; try discriminate;
      try (apply negb_false_iff in E; rewrite isspace_blank in E; auto);
      destruct v as [s'| |k1 i1 r1 st1 b1 e1 cb ce vs1 inh kids1]; cbn in C; try contradiction; try subst k1;
      cbn in Fi; try destruct k0; try discriminate; auto. }
  clear K Fi E. revert cks. induction ns as [|n ns IH]; intros [|c cks]; auto.
  cbn [present_all]. rewrite existsb_app, IH by (intros; apply A; right; auto).
  specialize (A n (or_introl eq_refl)). destruct n; try contradiction. cbn. rewrite A. auto.
Qed.

Lemma timed_exists : forall avail base lim t, exists c, timed avail base lim t c.
Proof.
  intros avail base lim t. revert base lim. induction t as [|b e ks IH] using elem_ind'; intros base lim.
  - exists COther. constructor.
  - destruct (visit_correct avail (Timed b e ks) (mkCtx [] (match lim with Some l => [l] | None => [] end) base)) as (c & _ & T).
    exists c. cbn in T. destruct lim; exact T.
Qed.

Lemma timed_all_exists : forall avail base lim ts, exists cs, Forall2 (timed avail base lim) ts cs.
Proof.
  intros avail base lim. induction ts as [|t ts (cs & IH)]; [exists []; constructor|].
  destruct (timed_exists avail base lim t) as (c & T). exists (c :: cs). constructor; auto.
Qed.

Lemma node_main : forall x av t v, win_ok x ->
  shaped v -> well_timed v -> times_ok v -> plain_mix (x_begin x) (x_end x) v ->
  (exists k, fits k v = true) -> nn_elem (timing (plain v)) ->
  forall base lim, 0 <= start_at av base -> timed av base lim (timing (plain v)) (vtimes v) ->
  forall o m o', copy_node x v o = GOk (m, o') -> node_ok x t v m.
Proof.
  intros x av t v W. induction v as [s| |k i r st b e cb ce vs inh kids IH] using vnode_ind';
    intros Sh WT TO PM Fi NN base lim S0 T o m o' C.
  - cbn in C. inversion C; subst. split; [constructor|]. intros c Tc. split; [auto|discriminate].
  - cbn in C. inversion C; subst. split; [constructor|]. intros c Tc. split; [auto|discriminate].
  - assert (NB : k <> Body). { destruct Fi as (p & Fi). intros ->. destruct p; discriminate. }
    inversion Sh as [| |? ? ? ? ? ? ? ? ? ? ? Fk Sk]; subst.
    inversion WT as [| |? ? ? ? ? ? ? ? ? ? ? Wbe Wk]; subst.
    inversion TO as [| |? ? ? ? ? ? ? ? ? ? ? Hcb Hce TOk']; subst.
    inversion PM as [| |? ? ? ? ? ? ? ? ? ? ? Pm Pk]; subst.
    assert (NS := timed_nested _ _ _ _ _ T NN _ (sub_refl _)).
    assert (GE := timed_begin_ge _ _ _ _ _ T NN _ _ _ _ _ (sub_refl _)).
    assert (C0 : 0 <= cb) by lia.
    cbn [plain timing] in NN. inversion NN as [|? ? ? Nb Ne Nk]; subst.
    cbn [plain vtimes timing] in T. inversion T as [|? ? ? ? ? ? F E B]; subst.
    apply timed_kids in F.
    assert (OB := offset_nn _ Nb).
    assert (S1 : 0 <= start_at av (base + offset b)).
    { assert (start_at av base <= start_at av (base + offset b)) by (apply start_at_mono; lia). lia. }
    assert (KI : forall v, In v kids -> forall o m o', copy_node x v o = GOk (m, o') -> node_ok x t v m).
    { rewrite Forall_forall in *. intros v Hv oo mm oo' Cv. eapply IH; eauto.
      apply Nk. apply in_map, in_map. auto. }
    destruct (copy_inv _ _ _ _ _ _ _ _ _ _ _ _ _ _ _ C)
      as [(Is & -> & _)|(Is & r' & st' & ks & o1 & MR & MS & CK & [(Em & -> & _)|(NE & b' & e' & LT & -> & _)])].
    + split; auto. intros Wi. cbn [plain vtimes]. rewrite present_eq.
      rewrite (out_inactive _ _ _ _ _ Is Wi). auto.
    + split; auto. intros Wi. cbn [plain vtimes]. rewrite present_eq.
      assert (K := copy_nodes_kept _ _ _ _ _ CK). destruct (kids_ok _ t _ _ K KI) as [_ KO].
      destruct (timed_all_exists 0 0 None (map timing ks)) as (cks & Fc). destruct (KO _ Fc) as [KO1 _].
      assert (U := empty_unreadable _ t _ _ _ cks K NB Fk Em). rewrite (KO1 Wi) in U.
      unfold ren in U. rewrite existsb_rename in U. rewrite U, andb_false_r. auto.
    + assert (K := copy_nodes_kept _ _ _ _ _ CK). destruct (kids_ok _ t _ _ K KI) as [KN KO].
      destruct (map_region_ok _ _ _ _ MR) as [-> _]. destruct (map_style_ok _ _ _ MS) as [-> _].
      rewrite copy_id_ref.
      (* once the activity of original and copy agree, so does what they present *)
      assert (Fin : forall b1 e1 cb1 ce1 cks, Forall2 (timed 0 0 None) (map timing ks) cks ->
        (win x t = true ->
         existsb readable (present_all t ks cks) = true -> active t cb1 ce1 = active (ms_last t) cb ce) ->
        win x t = true ->
        present t (Node k (option_map (copy_ref (x_dec x) (x_seq x)) i)
                     match k with Div | P => option_map (copy_ref (x_dec x) (x_seq x)) r | _ => None end
                     (option_map (map (copy_ref (x_dec x) (x_seq x))) st) b' e' ks) (CTimed b1 e1 cb1 ce1 cks)
        = map (ren x) (present (ms_last t) (plain (VNode k i r st b e cb ce vs inh kids))
                               (vtimes (VNode k i r st b e cb ce vs inh kids)))).
      { intros b1 e1 cb1 ce1 cks Fc Ag Wi. specialize (Ag Wi). cbn [plain vtimes]. rewrite !present_eq.
        destruct (KO _ Fc) as [KO1 _]. rewrite (KO1 Wi) in *. unfold ren in *. rewrite existsb_rename in *.
        destruct (existsb readable (present_all (ms_last t) (map plain kids) (map vtimes kids))).
        - rewrite Ag by auto. destruct (active (ms_last t) cb ce); auto.
        - rewrite !andb_false_r. auto. }
      destruct (is_timed_leaf k ks) eqn:L.
      * (* a leaf *)
        assert (Fl := kept_flat _ _ _ _ K Fk L).
        destruct (leaf_times _ _ _ _ _ _ _ W C0 Hcb Hce L LT) as (bb & ee & ba & ea & -> & Te & Rbb & Re & -> & -> & Ub & Ue & Bad).
        split.
        { cbn [timing]. constructor; cbn [nn]; [rewrite Ub; apply trunc_nn; lia|rewrite Ue; apply trunc_nn; lia|auto]. }
        intros c Tc.
        destruct (leaf_interval _ _ _ _ _ _ _ _ _ _ _ W C0 Hcb Hce Fl L LT Tc) as (e2 & cks & Te2 & -> & _ & _ & Fc & Bad2).
        rewrite Te in Te2. inversion Te2; subst e2.
        assert (AC : active t (trunc_ms (trim_begin (x_begin x) cb)) (Some (trunc_ms ee))
                     = (win x t && active (ms_last t) cb ce)%bool).
        { rewrite active_trunc. apply trim_active. auto. }
        split; [|intros _; split].
        -- intros Wi. apply Fin; auto. intros _ _. rewrite AC, Wi. auto.
        -- intros Wi. rewrite present_eq, AC, Wi. auto.
        -- intros P. rewrite present_eq in P.
           destruct (active t (trunc_ms (trim_begin (x_begin x) cb)) (Some (trunc_ms ee))) eqn:A; [|exfalso; apply P; auto].
           exists (trunc_ms (trim_begin (x_begin x) cb)), (Some (trunc_ms ee)). split; auto.
           exists (Some ba), (Some ea), cks. split; auto.
           destruct (badly_timed (Some ba) (Some ea)) eqn:Bd; auto. exfalso. destruct Bad as [Bad _]. specialize (Bad eq_refl).
           unfold active in A. apply andb_true_iff in A. destruct A as [A1 A2]. apply Z.leb_le in A1. apply Z.ltb_lt in A2.
           assert (D := div_trunc (trim_begin (x_begin x) cb) ee ltac:(lia)). lia.
      * (* a container *)
        assert (b' = None /\ e' = None) as [-> ->].
        { unfold leaf_timing in LT. rewrite L in LT. inversion LT; auto. }
        split; [constructor; cbn; auto|].
        intros c Tc. assert (NS' := timed_nested _ _ _ _ _ Tc ltac:(constructor; cbn; auto) _ (sub_refl _)).
        cbn [timing] in Tc. inversion Tc as [|? ? ? cb2 ce2 cks Fc E2 B2]; subst.
        change (offset None) with 0 in Fc, B2. rewrite Z.add_0_r in Fc, B2. cbn [tighten eff is_given] in Fc, E2, B2.
        destruct (KO _ Fc) as [KO1 KO2].
        assert (Cn : forall c d, counted (CTimed None None c d cks) c d) by (intros; exists None, None, cks; auto).
        destruct (has_text kids) eqn:HT.
        -- (* text beside spans *)
           assert (Mx : mixed k = true).
           { destruct (mixed k) eqn:Mx; auto. rewrite (fits_no_text _ _ Mx Fk) in HT. discriminate. }
           assert (X := nonleaf_span _ _ Mx L).
           destruct (Pm eq_refl (kept_span _ _ _ K X) Is) as [Un Q].
           assert (S2 : vcb_is (start_at av (base + offset b)) (tighten lim base e) (VNode k i r st b e cb ce vs inh kids)).
           { rewrite Forall_forall in *.
             assert (A : forall y z, counted_in (map vtimes kids) y z -> y = start_at av (base + offset b) /\ z = tighten lim base e).
             { intros y z Cc. apply counted_vtimes in Cc. destruct Cc as (k' & i' & r2 & st2 & b2 & e2 & vs' & inh' & ks' & Hin & _).
               exact (untimed_orig _ _ (Un _ Hin) _ _ (F _ Hin)). }
             assert (exists y z, counted_in (map vtimes kids) y z) as Ex.
             { assert (HS := kept_span _ _ _ K X). unfold has_span in HS. apply existsb_exists in HS.
               destruct HS as (v & Hv & Ev). destruct v as [| |k' i' r2 st2 b2 e2 cb' ce' vs' inh' ks']; try discriminate.
               exists cb', ce'. exists (CTimed b2 e2 cb' ce' (map vtimes ks')). split.
               - apply in_map_iff. eexists. split; [|exact Hv]. auto.
               - exists b2, e2, (map vtimes ks'). split; auto. assert (Wv := Wk _ Hv). inversion Wv; auto. }
             split.
             - destruct (is_given b) eqn:Gb.
               + inversion B; subst; auto; discriminate.
               + rewrite (begin_rule_same _ _ _ _ _ B (fun y z Cc => proj1 (A y z Cc)) Ex eq_refl). lia.
             - destruct (is_given e) eqn:Ge.
               + unfold is_given in Ge. unfold tighten in *. destruct (eff e); [|discriminate].
                 destruct lim; inversion E; subst; auto; discriminate.
               + eapply end_rule_same; [exact E|intros y z Cc; apply (A y z Cc)|exact Ex|auto]. }
           destruct S2 as [Ecb Ece]. 
           assert (KU : forall v, In v kids -> is_vel v = true -> forall o n o', copy_node x v o = GOk (Some n, o') ->
             exists e, trim_end (x_end x) ce = Some e /\ nn_elem (timing n) /\
               forall c, timed 0 0 None (timing n) c -> cut x cb e c).
           { rewrite Forall_forall in *. intros v Hv Vv oo n oo' Cv.
             eapply (untimed_copy x av cb ce W C0 Q v); eauto; [eapply fits_mixed; eauto|]. rewrite Ece. eauto. }
           assert (exists ee, trim_end (x_end x) ce = Some ee) as (ee & Te).
           { assert (X' := X). apply existsb_exists in X'. destruct X' as (n & Hn & En). destruct (kept_in _ _ _ K _ Hn) as (v & oo & oo' & Hv & Cv).
             assert (Vv : is_vel v = true).
             { assert (C' := Cv). apply copy_kind in C'. destruct n; cbn in En; try discriminate. destruct v; cbn in C'; try contradiction. auto. }
             destruct (KU _ Hv Vv _ _ _ Cv) as (ee & Te & _). eauto. }
           assert (Rb : 0 <= trim_begin (x_begin x) cb).
           { destruct (x_begin x); cbn [trim_begin]; [|lia]. destruct (Z.ltb_spec cb z); lia. }
           destruct (untimed_kids x cb ce kids ks cks ee K Fc X) as [B3 E3]; auto.
           { rewrite Forall_forall in *. intros v Hv. eapply fits_mixed; eauto. }
           { intros v Hv Vv oo n oo' Cv cc Tcc. destruct (KU _ Hv Vv _ _ _ Cv) as (e9 & Te9 & _ & Z9). rewrite Te in Te9. inversion Te9; subst e9. auto. }
           unfold start_at in B2. destruct (Z.eq_dec 0 0); [|congruence].
           rewrite (begin_rule_det _ _ _ _ _ B2 B3), (end_rule_det _ _ _ _ _ E2 (E3 None)).
           assert (AC : active t (trunc_ms (trim_begin (x_begin x) cb)) (Some (trunc_ms ee))
                     = (win x t && active (ms_last t) cb ce)%bool).
           { rewrite active_trunc. apply trim_active. auto. }
           split; [|intros _; split].
           ++ intros Wi. apply Fin; auto. intros _ _. rewrite AC, Wi. auto.
           ++ intros Wi. rewrite present_eq, AC, Wi. auto.
           ++ intros P. rewrite present_eq in P.
              destruct (active t (trunc_ms (trim_begin (x_begin x) cb)) (Some (trunc_ms ee))) eqn:A; [|exfalso; apply P; auto].
              eexists _, _. split; [apply Cn|auto].
        -- (* no text of its own *)
           destruct (KO2 eq_refl) as [KO3 KO4].
           assert (Act : existsb readable (present_all t ks cks) = true -> active t cb2 ce2 = true).
           { intros R. destruct (KO4 R) as (kb & ke & Cc & Ac). eapply nested_active; eauto. }
           split; [|intros _; split].
           ++ intros Wi. apply Fin; auto. intros _ R. rewrite (Act R).
              rewrite (KO1 Wi) in R. unfold ren in R. rewrite existsb_rename in R.
              destruct (shown_kids _ _ Wk HT R) as (kb & ke & Cc & Ac). symmetry. eapply nested_active; eauto.
           ++ intros Wi. rewrite present_eq, (KO3 Wi), andb_false_r. auto.
           ++ intros P. rewrite present_eq in P.
              destruct (existsb readable (present_all t ks cks)); [|exfalso; apply P; rewrite andb_false_r; auto].
              exists cb2, ce2. split; auto.
Qed.

(** ** The body *)

Definition is_node (n : node) : Prop := match n with Node _ _ _ _ _ _ _ => True | _ => False end.

Lemma present_kids_readable : forall t ns cs, Forall is_node ns ->
  existsb readable (present_all t ns cs) = false -> present_all t ns cs = [].
Proof.
  intros t ns cs F. revert cs. induction F as [|n ns Hn F IH]; intros [|c cs] H; cbn [map present_all] in *; auto.
  rewrite existsb_app in H. apply orb_false_iff in H. destruct H as [H1 H2]. rewrite (IH _ H2), app_nil_r.
  destruct n as [| |k i r st b e kids]; try contradiction. destruct c as [b' e' cb' ce' ks|]; auto.
  rewrite present_eq in *. destruct (active t cb' ce' && existsb readable (present_all t kids ks)); auto. discriminate.
Qed.

Lemma fits_body_node : forall vs, Forall (fun v => fits Body v = true) vs -> Forall is_node (map plain vs).
Proof. intros vs F. induction F as [|v vs H F IH]; constructor; auto. destruct v; cbn in *; auto; discriminate. Qed.
Lemma kept_body_node : forall x vs ns, kept x vs ns -> Forall (fun v => fits Body v = true) vs -> Forall is_node ns.
Proof.
  intros x vs ns K F. apply Forall_forall. intros n Hn. destruct (kept_in _ _ _ K _ Hn) as (v & o & o' & Hv & C).
  apply copy_kind in C. rewrite Forall_forall in F. specialize (F _ Hv). destruct v, n; cbn in *; auto; discriminate.
Qed.

(** The body of a segment, before its times are filled in when it is empty. *)
Lemma body_main : forall x av t v, win_ok x -> 0 <= av ->
  Forall (fun w => fits Body w = true) (vb_kids v) -> Forall shaped (vb_kids v) ->
  Forall well_timed (vb_kids v) -> Forall times_ok (vb_kids v) ->
  Forall (plain_mix (x_begin x) (x_end x)) (vb_kids v) ->
  nn_body (timing_body (plain_body v)) ->
  timed_body av (timing_body (plain_body v)) (vtimes_body v) ->
  forall o bd o', copy_body x v o = GOk (Some bd, o') ->
  forall c, timed_body 0 (timing_body bd) c ->
  present_body t bd c =
  if win x t then map (ren x) (present_body (ms_last t) (plain_body v) (vtimes_body v)) else [].
Proof.
  intros x av t v W A0 Fk Sk Wk TOk' Pk NN T o bd o' C c Tc.
  unfold copy_body in C. destruct (is_in_segment _ _ _ _) eqn:Is; [|discriminate].
  destruct (map_style x (vb_style v)) as [st'|]; [|discriminate]. cbn [gbind] in C.
  destruct (copy_nodes x (vb_kids v) o) as [[ks o1]|] eqn:CK; [|discriminate]. cbn [gbind] in C.
  inversion C; subst bd o'; clear C.
  assert (K := copy_nodes_kept _ _ _ _ _ CK).
  assert (NS := body_nested _ _ _ A0 NN T _ (sub_refl _)).
  assert (OB := NN). destruct OB as (OB & _ & _ & Nk). apply offset_nn in OB.
  assert (S1 : 0 <= start_at av (offset (b_begin (timing_body (plain_body v))))) by (unfold start_at; destruct (Z.eq_dec av 0); lia).
  assert (F : Forall2 (timed av (offset (b_begin (timing_body (plain_body v)))) (body_end av (timing_body (plain_body v))))
                (map timing (map plain (vb_kids v))) (map vtimes (vb_kids v))) by (inversion T; auto).
  apply timed_kids in F.
  assert (KI : forall w, In w (vb_kids v) -> forall o m o', copy_node x w o = GOk (m, o') -> node_ok x t w m).
  { rewrite Forall_forall in *. intros w Hw oo mm oo' Cv. eapply node_main; eauto.
    apply Nk. cbn. apply in_map, in_map. auto. }
  destruct (kids_ok _ t _ _ K KI) as [KN KO].
  assert (HT := fits_no_text Body _ eq_refl Fk).
  assert (NN2 : nn_body (timing_body (mkBodyd st' None None None ks))) by (repeat split; cbn; auto).
  assert (NS2 := body_nested _ _ _ (Z.le_refl 0) NN2 Tc _ (sub_refl _)).
  assert (exists cb2 ce2 cks, c = CTimed None None cb2 ce2 cks /\ Forall2 (timed 0 0 None) (map timing ks) cks) as (cb2 & ce2 & cks & -> & Fc).
  { inversion Tc as [cb2 ce2 cks N2 F2 E2 B2|cb2 cks N2 F2 B2]; subst; [|discriminate]. eauto 6. }
  destruct (KO _ Fc) as [KO1 KO2]. destruct (KO2 HT) as [KO3 KO4].
  unfold vtimes_body in *. cbn [present_body plain_body bd_kids bd_begin bd_end] in *.
  assert (Nd := kept_body_node _ _ _ K Fk). assert (Nv := fits_body_node _ Fk).
  destruct (win x t) eqn:Wi.
  - rewrite (KO1 eq_refl) in *. unfold ren in *. rewrite existsb_rename in *.
    destruct (existsb readable (present_all (ms_last t) (map plain (vb_kids v)) (map vtimes (vb_kids v)))) eqn:R.
    + destruct (KO4 eq_refl) as (kb & ke & Cc & Ac). rewrite (nested_active _ _ _ _ _ _ _ _ NS2 Cc Ac).
      destruct (shown_kids _ _ Wk HT R) as (kb' & ke' & Cc' & Ac'). rewrite (nested_active _ _ _ _ _ _ _ _ NS Cc' Ac'). auto.
    + rewrite (present_kids_readable _ _ _ Nv R). destruct (active t cb2 ce2), (active (ms_last t) (vb_cb v) (vb_ce v)); auto.
  - rewrite (present_kids_readable _ _ _ Nd (KO3 eq_refl)). destruct (active t cb2 ce2); auto.
Qed.

(** ** Taking a successful segment apart *)

Lemma segment_inv : forall d dec sb se seg, segment d dec sb se = GOk seg ->
  exists v styles regions bd0 orph stl lay bd,
    let x := segment_ctx d v dec sb se in
    t_body d = Some v /\ t_styling d = Some stl /\ t_layout d = Some lay /\
    copy_styles x stl = GOk styles /\ copy_regions x lay = GOk regions /\
    copy_body x v (needed_styles v sb se ++ needed_regions v sb se)%list = GOk (Some bd0, orph) /\
    t_base seg = t_base d /\ t_seq seg = t_seq d /\
    els (t_styling seg) = drop_orphans x orph styles /\ t_layout seg = Some (drop_orphans x orph regions) /\
    t_body seg = Some bd /\ bd_style bd = bd_style bd0 /\ bd_kids bd = bd_kids bd0 /\
    (bd_kids bd0 <> [] -> bd = bd0) /\
    (bd_kids bd0 = [] -> exists b e, timing_type (t_base d) sb = GOk b /\ timing_type (t_base d) se = GOk e /\
       bd = mkBodyd (bd_style bd0) (Some b) (Some e) (bd_dur bd0) []).
Proof.
  intros d dec sb se seg H. unfold segment in H. destruct (t_body d) as [v|] eqn:Eb; [|discriminate]. cbn zeta in H.
  destruct (copy_styles _ (els (t_styling d))) as [styles|] eqn:Es; [|discriminate]. cbn [gbind] in H.
  destruct (copy_regions _ (els (t_layout d))) as [regions|] eqn:Er; [|discriminate]. cbn [gbind] in H.
  destruct (copy_body _ v _) as [[bd0 orph]|] eqn:Ec; [|discriminate]. cbn [gbind] in H.
  destruct (t_styling d) as [stl|] eqn:Est; [|discriminate]. destruct (t_layout d) as [lay|] eqn:Ely; [|discriminate].
  destruct bd0 as [bd0|]; [|discriminate].
  destruct (match bd_kids bd0 with [] => _ | _ => _ end) as [bd|] eqn:Ebd; [|discriminate]. cbn [gbind] in H.
  exists v, styles, regions, bd0, orph, stl, lay, bd. cbv zeta. cbn [els] in *. inversion H; subst seg; clear H.
  cbn [t_base t_seq t_styling t_layout t_body].
  repeat (split; [solve [auto]|]).
  split. { destruct (drop_orphans _ orph styles); auto. }
  split; [auto|]. split; [auto|].
  destruct (bd_kids bd0) eqn:Ek.
  - destruct (timing_type (t_base d) sb) as [b|]; [|discriminate]. cbn [gbind] in Ebd.
    destruct (timing_type (t_base d) se) as [e|]; [|discriminate]. cbn [gbind] in Ebd. inversion Ebd; subst.
    split; [auto|]. split; [auto|]. split; [congruence|]. intros _. exists b, e. auto.
  - inversion Ebd; subst. split; [auto|]. split; [auto|]. split; [auto|]. discriminate.
Qed.

(** ** Nothing empty is copied *)

Lemma not_empty_worth : forall k ns, k <> Body -> is_empty k ns = false -> exists n, In n ns /\ worth k n.
Proof.
  intros k ns NB E.
  assert (G : forall (p : node -> bool), negb (existsb p ns) = false -> exists n, In n ns /\ p n = true).
  { intros p H. apply negb_false_iff in H. apply existsb_exists in H. exact H. }
  destruct k; try congruence; unfold is_empty, contains_subtitles in E; apply G in E as (n & Hn & E); exists n; (split; [exact Hn|]);
    destruct n as [s| |[] i r st b e kids]; cbn in *; try discriminate; auto;
    rewrite isspace_blank in E; apply negb_true_iff in E; exact E.
Qed.

Lemma copy_filled : forall x v o n o', shaped v -> match v with VNode Body _ _ _ _ _ _ _ _ _ _ => False | _ => True end ->
  copy_node x v o = GOk (Some n, o') -> filled n.
Proof.
  intros x v. induction v as [s| |k i r st b e cb ce vs inh kids IH] using vnode_ind'; intros o n o' Sh NB C.
  - inversion C. constructor.
  - inversion C. constructor.
  - destruct (copy_inv _ _ _ _ _ _ _ _ _ _ _ _ _ _ _ C) as [(_ & X & _)|(_ & r' & st' & ks & o1 & _ & _ & CK & [(_ & X & _)|(NE & b' & e' & _ & M & _)])];
      try discriminate X. inversion M; subst n. clear M C. inversion Sh as [| |? ? ? ? ? ? ? ? ? ? ? Fi Sk]; subst.
    constructor. { apply not_empty_worth; auto. destruct k; congruence. }
    apply copy_nodes_kept in CK. rewrite Forall_forall in *. intros n Hn.
    destruct (kept_in _ _ _ CK _ Hn) as (v & o2 & o3 & Hv & C). apply (IH _ Hv o2 n o3); auto.
    specialize (Fi _ Hv). destruct v as [| |[]]; auto. destruct k; discriminate Fi.
Qed.

(** ** When a segment is made *)

Lemma mem_In : forall i l, In i l -> mem i l = true.
Proof. intros i l H. unfold mem. apply existsb_exists. exists i. split; auto. apply String.eqb_refl. Qed.

Lemma timing_type_ok : forall bs v, 0 <= v < h100 -> exists a, timing_type bs (Some v) = GOk a.
Proof.
  intros bs v H. assert (R := h100_range _ H). unfold timing_type. destruct bs.
  - destruct (limited_of v) as [s|] eqn:L.
    + destruct (C17_limited_roundtrip _ _ R L) as [E _]. rewrite E. eauto.
    + apply C17_limited_overflow in L. lia.
  - rewrite (C17_full_roundtrip _ R). eauto.
Qed.

Lemma map_refs_succeeds : forall x copied l, (forall i, In i l -> In i copied) -> exists l', map_refs x copied l = GOk l'.
Proof.
  induction l as [|i r IH]; intros H; cbn; [eauto|]. unfold map_ref. rewrite mem_In by (apply H; left; auto). cbn.
  destruct IH as (l' & ->); [intros; apply H; right; auto|]. cbn. eauto.
Qed.

Lemma map_style_succeeds : forall x st, (forall l j, st = Some l -> In j l -> In j (x_styles x)) -> exists st', map_style x st = GOk st'.
Proof.
  intros x [l|] H; cbn; [|eauto]. destruct (map_refs_succeeds x (x_styles x) l) as (l' & ->); [eauto|]. cbn. eauto.
Qed.

Lemma map_region_succeeds : forall x k r, (forall j, r = Some j -> k = Div \/ k = P -> In j (x_regions x)) -> exists r', map_region x k r = GOk r'.
Proof.
  intros x k r H. destruct k, r as [i|]; cbn; eauto; unfold map_ref; rewrite mem_In by (eapply H; eauto); cbn; eauto.
Qed.

Lemma node_succeeds : forall x av s e, x_begin x = Some s -> 0 <= s < h100 -> x_end x = Some e -> 1000 <= e < h100 ->
  forall v, resolves (x_begin x) (x_end x) (x_styles x) (x_regions x) v -> times_ok v -> nn_elem (timing (plain v)) ->
  forall base lim, 0 <= start_at av base -> timed av base lim (timing (plain v)) (vtimes v) ->
  forall o, exists m o', copy_node x v o = GOk (m, o').
Proof.
  intros x av s e Xb Hs Xe He. induction v as [t| |k i r st b e0 cb ce vs inh kids IH] using vnode_ind';
    intros Rs TO NN base lim S0 T o; [cbn; eauto|cbn; eauto|].
  rewrite copy_node_eq. destruct (is_in_segment cb ce (x_begin x) (x_end x)) eqn:Is; [|eauto].
  inversion Rs as [| |? ? ? ? ? ? ? ? ? ? ? Hout|? ? ? ? ? ? ? ? ? ? ? R1 R2 R3]; subst; [congruence|].
  inversion TO as [| |? ? ? ? ? ? ? ? ? ? ? Hcb Hce TOk']; subst.
  assert (GE := timed_begin_ge _ _ _ _ _ T NN _ _ _ _ _ (sub_refl _)).
  cbn [plain timing] in NN. inversion NN as [|? ? ? Nb Ne Nk]; subst.
  cbn [plain vtimes timing] in T. inversion T as [|? ? ? ? ? ? F E B]; subst. apply timed_kids in F.
  assert (OB := offset_nn _ Nb).
  assert (S1 : 0 <= start_at av (base + offset b)).
  { assert (start_at av base <= start_at av (base + offset b)) by (apply start_at_mono; lia). lia. }
  destruct (map_region_succeeds x k r R2) as (r' & ->). cbn [gbind].
  destruct (map_style_succeeds x st R1) as (st' & ->). cbn [gbind].
  assert (KS : forall o, exists ks o1, copy_nodes x kids o = GOk (ks, o1)).
  { assert (Q : forall v, In v kids -> forall o, exists m o', copy_node x v o = GOk (m, o')).
    { rewrite Forall_forall in *. intros v Hv oo. eapply IH; eauto. apply Nk. apply in_map, in_map. auto. }
    clear - Q. induction kids as [|v vs IHk]; intros o; cbn [copy_nodes]; [eauto|].
    destruct (Q v (or_introl eq_refl) o) as (m & o' & ->). cbn [gbind].
    destruct (IHk (fun w Hw => Q w (or_intror Hw)) o') as (ks & o1 & ->). cbn [gbind]. eauto. }
  destruct (KS o) as (ks & o1 & ->). cbn [gbind]. destruct (is_empty k ks); [eauto|].
  unfold leaf_timing. destruct (is_timed_leaf k ks); [|cbn; eauto].
  assert (Rb : 0 <= trim_begin (x_begin x) cb < h100).
  { rewrite Xb. cbn [trim_begin]. destruct (Z.ltb_spec cb s); lia. }
  destruct (timing_type_ok (x_base x) _ Rb) as (b' & ->). cbn [gbind].
  assert (exists e', trim_end (x_end x) ce = Some e' /\ 0 <= e' < h100) as (e' & -> & Re).
  { rewrite Xe. unfold end_ok in Hce. destruct ce as [c|]; cbn [trim_end]; [destruct (Z.ltb_spec e c)|]; eexists; (split; [reflexivity|lia]). }
  destruct (timing_type_ok (x_base x) _ Re) as (ea & ->). cbn [gbind]. eauto.
Qed.

Lemma nodes_succeed : forall x av s e, x_begin x = Some s -> 0 <= s < h100 -> x_end x = Some e -> 1000 <= e < h100 ->
  forall vs base lim, Forall (resolves (x_begin x) (x_end x) (x_styles x) (x_regions x)) vs -> Forall times_ok vs ->
  Forall nn_elem (map timing (map plain vs)) -> 0 <= start_at av base ->
  Forall (fun v => timed av base lim (timing (plain v)) (vtimes v)) vs ->
  forall o, exists ks o1, copy_nodes x vs o = GOk (ks, o1).
Proof.
  intros x av s e Xb Hs Xe He. induction vs as [|v vs IH]; intros base lim R T N S0 F o; cbn [copy_nodes]; [eauto|].
  inversion R; inversion T; inversion N; inversion F; subst.
  destruct (node_succeeds x av s e Xb Hs Xe He v H1 H5 H9 base lim S0 H13 o) as (m & o' & ->). cbn [gbind].
  destruct (IH base lim H2 H6 H10 S0 H14 o') as (ks & o1 & ->). cbn [gbind]. eauto.
Qed.

Lemma styles_succeed : forall x l,
  (forall i s rs j, In (i, s) l -> In i (x_styles x) -> s_refs s = Some rs -> In j rs -> In j (x_styles x)) ->
  exists l', copy_styles x l = GOk l'.
Proof.
  induction l as [|[i s] l IH]; intros H; cbn [copy_styles]; [eauto|].
  destruct IH as (l' & E); [intros; eapply (H i0 s0); eauto; right; auto|].
  cbn [fst snd]. destruct (mem i (x_styles x)) eqn:M; [|eauto].
  assert (Hi : In i (x_styles x)). { unfold mem in M. apply existsb_exists in M. destruct M as (y & Hy & Ey). apply String.eqb_eq in Ey. congruence. }
  destruct (map_style_succeeds x (s_refs s)) as (r' & ->). { intros rs j Hr Hj. eapply (H i s); eauto. left; auto. }
  cbn [gbind]. rewrite E. cbn [gbind]. eauto.
Qed.

Lemma regions_succeed : forall x l,
  (forall i s rs j, In (i, s) l -> In i (x_regions x) -> r_refs s = Some rs -> In j rs -> In j (x_styles x)) ->
  exists l', copy_regions x l = GOk l'.
Proof.
  induction l as [|[i s] l IH]; intros H; cbn [copy_regions]; [eauto|].
  destruct IH as (l' & E); [intros; eapply (H i0 s0); eauto; right; auto|].
  cbn [fst snd]. destruct (mem i (x_regions x)) eqn:M; [|eauto].
  assert (Hi : In i (x_regions x)). { unfold mem in M. apply existsb_exists in M. destruct M as (y & Hy & Ey). apply String.eqb_eq in Ey. congruence. }
  destruct (map_style_succeeds x (r_refs s)) as (r' & ->). { intros rs j Hr Hj. eapply (H i s); eauto. left; auto. }
  cbn [gbind]. rewrite E. cbn [gbind]. eauto.
Qed.
