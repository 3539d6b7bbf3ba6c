(** Proofs for C39. *)

From Coq Require Import List ZArith String Ascii Bool QArith Lia Lqa.
From Verif Require Import Digits TimingModel TimingSpec TimingProofs TimeModel TimeSpec TimeProofs PropsTime
  ClockModel StyleModel SegmentModel ConvertModel ConvertSpec.
Import ListNotations.
Open Scope Z_scope.

Lemma fnode_ind' : forall Pr : fnode -> Prop,
  (forall s, Pr (FText s)) -> Pr FBr ->
  (forall k i r st b e sz ln kids, Forall Pr kids -> Pr (FNode k i r st b e sz ln kids)) ->
  forall n, Pr n.
Proof.
  intros Pr H1 H2 H3. fix IH 1. intros [s| |k i r st b e sz ln kids].
  - apply H1.
  - apply H2.
  - apply H3. induction kids as [|v r' IHk]; constructor; [apply IH|exact IHk].
Qed.

Lemma ttree_ind' : forall Pr : ttree -> Prop,
  (forall s, Pr (Leaf s)) -> (forall b e kids, Forall Pr kids -> Pr (Tm b e kids)) -> forall t, Pr t.
Proof.
  intros Pr H1 H2. fix IH 1. intros [s|b e kids].
  - apply H1.
  - apply H2. induction kids as [|v r' IHk]; constructor; [apply IH|exact IHk].
Qed.

(** ** One element *)

Definition out_time (c : clock) (bs : base) (k : ekind) (t : option tattr) : cres (option tattr) :=
  match k with P | Span => process_timing c bs t | _ => COk None end.

Lemma convert_eq : forall c bs parent k i r st b e sz ln kids m,
  convert c bs parent (FNode k i r st b e sz ln kids) m =
  cbind (convert_all c bs sz kids m) (fun '(ks, m1) =>
  cbind (out_time c bs k b) (fun b' =>
  cbind (out_time c bs k e) (fun e' =>
  if forallb (accepts k) ks then
    cbind (fix_font k sz ln parent (option_map (map Own) st) m1) (fun '(st', m2) =>
    COk (DNode k i (match k with Div | P => r | _ => None end) st' b' e' ks, m2))
  else CErr ContentErr))).
Proof.
  intros. cbn [convert].
  match goal with |- cbind (?f kids m) _ = _ => assert (E : forall l m, f l m = convert_all c bs sz l m) end.
  { induction l as [|x l IH]; intros m'; auto. cbn [convert_all].
    destruct (convert c bs sz x m') as [[d m1]|]; cbn [cbind]; auto. rewrite IH. auto. }
  rewrite E. auto.
Qed.

Lemma convert_inv : forall c bs parent k i r st b e sz ln kids m d m',
  convert c bs parent (FNode k i r st b e sz ln kids) m = COk (d, m') ->
  exists ks m1 b' e' st',
    convert_all c bs sz kids m = COk (ks, m1) /\ out_time c bs k b = COk b' /\ out_time c bs k e = COk e' /\
    forallb (accepts k) ks = true /\
    fix_font k sz ln parent (option_map (map Own) st) m1 = COk (st', m') /\
    d = DNode k i (match k with Div | P => r | _ => None end) st' b' e' ks.
Proof.
  intros c bs parent k i r st b e sz ln kids m d m' H. rewrite convert_eq in H.
  destruct (convert_all c bs sz kids m) as [[ks m1]|] eqn:E1; cbn [cbind] in H; [|discriminate].
  destruct (out_time c bs k b) as [b'|] eqn:E2; cbn [cbind] in H; [|discriminate].
  destruct (out_time c bs k e) as [e'|] eqn:E3; cbn [cbind] in H; [|discriminate].
  destruct (forallb (accepts k) ks) eqn:E4; [|discriminate].
  destruct (fix_font k sz ln parent (option_map (map Own) st) m1) as [[st' m2]|] eqn:E5; cbn [cbind] in H; [|discriminate].
  inversion H; subst. exists ks, m1, b', e', st'. repeat split; auto.
Qed.

Lemma convert_all_inv : forall c bs parent x l m ds m', convert_all c bs parent (x :: l) m = COk (ds, m') ->
  exists d ds' m1, convert c bs parent x m = COk (d, m1) /\ convert_all c bs parent l m1 = COk (ds', m') /\ ds = d :: ds'.
Proof.
  intros c bs parent x l m ds m' H. cbn [convert_all] in H.
  destruct (convert c bs parent x m) as [[d m1]|] eqn:E1; cbn [cbind] in H; [|discriminate].
  destruct (convert_all c bs parent l m1) as [[ds' m2]|] eqn:E2; cbn [cbind] in H; [|discriminate].
  inversion H; subst. eauto 6.
Qed.

(** From elements to lists. *)
Lemma convert_all_map : forall (A : Type) (f : fnode -> A) (g : dnode -> A) c bs (Q : fnode -> Prop) l,
  Forall (fun n => Q n -> forall parent m d m', convert c bs parent n m = COk (d, m') -> g d = f n) l ->
  Forall Q l ->
  forall parent m ds m', convert_all c bs parent l m = COk (ds, m') -> map g ds = map f l.
Proof.
  intros A f g c bs Q. induction l as [|x l IH]; intros F FQ parent m ds m' H.
  - inversion H; subst. auto.
  - apply convert_all_inv in H. destruct H as (d & ds' & m1 & E1 & E2 & ->).
    inversion F; subst. inversion FQ; subst. cbn. f_equal; [|eapply IH; eauto].
    eauto.
Qed.

(** ** Content *)

Lemma convert_skel : forall c bs n parent m d m', convert c bs parent n m = COk (d, m') -> dskel d = fskel n.
Proof.
  intros c bs. induction n as [s| |k i r st b e sz ln kids IH] using fnode_ind'; intros parent m d m' H.
  - inversion H; auto.
  - inversion H; auto.
  - apply convert_inv in H. destruct H as (ks & m1 & b' & e' & st' & E1 & _ & _ & _ & _ & ->).
    cbn [dskel fskel]. f_equal.
    apply (convert_all_map skel fskel dskel c bs (fun _ => True)) with (parent := sz) (m := m) (m' := m1); auto.
    + eapply Forall_impl; [|exact IH]. cbn. intros a Ha _. exact Ha.
    + apply Forall_forall. auto.
Qed.

(** ** Times *)

Fixpoint tmap (g : Z -> Z) (t : ttree) : ttree :=
  match t with
  | Leaf s => Leaf s
  | Tm b e ks => Tm (option_map g b) (option_map g e) (map (tmap g) ks)
  end.

Lemma convert_media : forall c n, divs_untimed n -> forall parent m d m',
  convert c Media parent n m = COk (d, m') -> dtree d = ftree n.
Proof.
  intros c. induction n as [s| |k i r st b e sz ln kids IH] using fnode_ind'; intros U parent m d m' H.
  - inversion H; auto.
  - inversion H; auto.
  - inversion U as [| |? ? ? ? ? ? ? ? ? Hk Uk]; subst.
    apply convert_inv in H. destruct H as (ks & m1 & b' & e' & st' & E1 & E2 & E3 & _ & _ & ->).
    cbn [dtree ftree].
    rewrite (convert_all_map ttree ftree dtree c Media divs_untimed kids IH Uk _ _ _ _ E1).
    destruct k; cbn in E2, E3.
    + destruct Hk as [-> ->]. inversion E2; inversion E3; auto.
    + destruct Hk as [-> ->]. inversion E2; inversion E3; auto.
    + destruct b, e; inversion E2; inversion E3; auto.
    + destruct b, e; inversion E2; inversion E3; auto.
Qed.

(** No negative time can be written. *)
Lemma full_negative : forall t, t < 0 -> clock_td false (full_of t) = None.
Proof.
  intros t Ht. unfold full_of. destruct (members t) as [[[h m] s] ms] eqn:Hm.
  apply members_spec in Hm. destruct Hm as (_ & _ & _ & _ & _ & Hh). specialize (Hh Ht).
  unfold clock_td, clock_text.
  assert (E : forall r, clock_parts false (showpad 2 h ++ r)%string = None).
  { intros r. unfold showpad. destruct (Z.ltb_spec h 0); [|lia]. cbn. reflexivity. }
  destruct (ms =? 0); rewrite E; auto.
Qed.

Definition moved (c : clock) (t : Z) : Z := trunc_ms (t + gap c).

Lemma media_time_some : forall c t u, get_media_time c t = Some u -> u = t + gap c.
Proof.
  unfold get_media_time, mk_td, gap. intros c t u H.
  destruct ((min_td <=? t - k_local c) && (t - k_local c <? max_td)); [|discriminate].
  destruct ((min_td <=? k_remote c + (t - k_local c)) && (k_remote c + (t - k_local c) <? max_td)); inversion H. lia.
Qed.

Lemma media_time_iff : forall c t, get_media_time c t = Some (t + gap c) <->
  min_td <= t - k_local c < max_td /\ min_td <= t + gap c < max_td.
Proof.
  unfold get_media_time, mk_td, gap. intros c t. split.
  - destruct ((min_td <=? t - k_local c) && (t - k_local c <? max_td)) eqn:E1; [|discriminate].
    destruct ((min_td <=? k_remote c + (t - k_local c)) && (k_remote c + (t - k_local c) <? max_td)) eqn:E2; [|discriminate].
    intros _. apply andb_true_iff in E1, E2. rewrite Z.leb_le, Z.ltb_lt in E1, E2. lia.
  - intros (H1 & H2).
    assert (E1 : (min_td <=? t - k_local c) && (t - k_local c <? max_td) = true)
      by (apply andb_true_iff; rewrite Z.leb_le, Z.ltb_lt; lia).
    assert (E2 : (min_td <=? k_remote c + (t - k_local c)) && (k_remote c + (t - k_local c) <? max_td) = true)
      by (apply andb_true_iff; rewrite Z.leb_le, Z.ltb_lt; lia).
    rewrite E1, E2. f_equal. lia.
Qed.

Lemma process_clock : forall c a r, process_timing c Clock (Some a) = COk r ->
  exists a', r = Some a' /\ ta_us a' = moved c (ta_us a).
Proof.
  intros c a r H. cbn [process_timing] in H. destruct (get_media_time c (ta_us a)) as [u|] eqn:E; [|discriminate].
  assert (Hu := media_time_some _ _ _ E).
  destruct (Z_lt_le_dec u 0).
  - rewrite full_negative in H; [discriminate|auto].
  - assert (in_range u).
    { split; auto. rewrite Hu in E. rewrite media_time_iff in E. change max_td with (1000000000 * 86400 * 1000000) in E. lia. }
    rewrite C17_full_roundtrip in H; auto. inversion H; subst. eexists. split; [reflexivity|]. reflexivity.
Qed.

Lemma process_iff : forall c a, (exists r, process_timing c Clock (Some a) = COk r) <-> expressible c (ta_us a).
Proof.
  intros c a. unfold expressible. cbn [process_timing]. split.
  - intros (r & H). destruct (get_media_time c (ta_us a)) as [u|] eqn:E; [|discriminate].
    assert (Hu := media_time_some _ _ _ E). subst u.
    destruct (Z_lt_le_dec (ta_us a + gap c) 0); [rewrite full_negative in H; [discriminate|auto]|].
    rewrite media_time_iff in E. unfold min_td, max_td, us_per_day, us_per_s in *. lia.
  - intros (H1 & H2).
    assert (E : get_media_time c (ta_us a) = Some (ta_us a + gap c))
      by (apply media_time_iff; unfold min_td, max_td, us_per_day, us_per_s in *; lia).
    rewrite E. rewrite C17_full_roundtrip; [eauto|]. split; [lia|]. unfold max_td, us_per_day, us_per_s in H1. lia.
Qed.

Lemma process_us : forall c t r, process_timing c Clock t = COk r -> us r = option_map (moved c) (us t).
Proof.
  intros c [a|] r H; [|inversion H; auto]. apply process_clock in H. destruct H as (a' & -> & H). cbn. f_equal. auto.
Qed.

Lemma convert_clock : forall c n, divs_untimed n -> forall parent m d m',
  convert c Clock parent n m = COk (d, m') -> dtree d = tmap (moved c) (ftree n).
Proof.
  intros c. induction n as [s| |k i r st b e sz ln kids IH] using fnode_ind'; intros U parent m d m' H.
  - inversion H; auto.
  - inversion H; auto.
  - inversion U as [| |? ? ? ? ? ? ? ? ? Hk Uk]; subst.
    apply convert_inv in H. destruct H as (ks & m1 & b' & e' & st' & E1 & E2 & E3 & _ & _ & ->).
    cbn [dtree ftree tmap]. rewrite map_map.
    rewrite (convert_all_map ttree (fun n => tmap (moved c) (ftree n)) dtree c Clock divs_untimed kids IH Uk _ _ _ _ E1).
    destruct k; cbn in E2, E3.
    + destruct Hk as [-> ->]. inversion E2; inversion E3; auto.
    + destruct Hk as [-> ->]. inversion E2; inversion E3; auto.
    + rewrite (process_us _ _ _ E2), (process_us _ _ _ E3). auto.
    + rewrite (process_us _ _ _ E2), (process_us _ _ _ E3). auto.
Qed.

(** ** Displays *)

Inductive bare : ttree -> Prop :=
| ba_leaf s : bare (Leaf s)
| ba_tm kids : Forall bare kids -> bare (Tm None None kids).
Inductive single : ttree -> Prop :=
| si_leaf s : single (Leaf s)
| si_timed b e kids : Forall bare kids -> single (Tm b e kids)
| si_tm kids : Forall single kids -> single (Tm None None kids).

Lemma untimed_bare : forall n, untimed_f n -> bare (ftree n).
Proof.
  induction n as [s| |k i r st b e sz ln kids IH] using fnode_ind'; intros U; [constructor|constructor|].
  inversion U as [| |? ? ? ? ? ? ? Uk]; subst. cbn. constructor. apply Forall_map.
  rewrite Forall_forall in *. auto.
Qed.

Lemma one_level_single : forall n, one_level n -> single (ftree n).
Proof.
  induction n as [s| |k i r st b e sz ln kids IH] using fnode_ind'; intros U; [constructor|constructor|].
  inversion U as [| |? ? ? ? ? ? ? ? ? Uk|? ? ? ? ? ? ? Uk]; subst; cbn.
  - apply si_timed. apply Forall_map. rewrite Forall_forall in *. intros x Hx. apply untimed_bare. auto.
  - apply si_tm. apply Forall_map. rewrite Forall_forall in *. auto.
Qed.

Lemma flat_map_map_in : forall (A B C D : Type) (f : B -> list C) (g : A -> B) (h : D -> C) (k : A -> list D) l,
  (forall x, In x l -> f (g x) = map h (k x)) -> flat_map f (map g l) = map h (flat_map k l).
Proof.
  intros A B C D f g h k. induction l as [|x l IH]; intros H; auto. cbn. rewrite map_app, H, IH; cbn; auto.
  intros y Hy. apply H. cbn. auto.
Qed.

Lemma bare_display : forall g t, bare t -> forall from lim,
  display (option_map g from) (option_map g lim) (tmap g t) = map (shift g) (display from lim t).
Proof.
  intros g. induction t as [s|b e kids IH] using ttree_ind'; intros B from lim; auto.
  inversion B; subst. cbn [tmap display start stop option_map].
  apply flat_map_map_in. rewrite Forall_forall in *. intros x Hx. apply IH; auto.
Qed.

Lemma single_display : forall g t, single t -> display None None (tmap g t) = map (shift g) (display None None t).
Proof.
  intros g. induction t as [s|b e kids IH] using ttree_ind'; intros B; auto.
  inversion B as [|? ? ? F|? F]; subst.
  - cbn [tmap display].
    assert (E1 : start None (option_map g b) = option_map g (start None b)) by (destruct b; auto).
    assert (E2 : stop None None (option_map g e) = option_map g (stop None None e)) by (destruct e; auto).
    rewrite E1, E2.
    apply flat_map_map_in. rewrite Forall_forall in F. intros x Hx. apply bare_display; auto.
  - cbn [tmap display option_map start stop]. apply flat_map_map_in. rewrite Forall_forall in *. auto.
Qed.

(** ** When it succeeds *)

Lemma accepts_fits : forall c bs k n parent m d m', convert c bs parent n m = COk (d, m') -> accepts k d = fits_d k n.
Proof.
  intros c bs k n parent m d m' H. apply convert_skel in H.
  destruct n as [| |k' ? ? ? ? ? ? ? ?], d as [| |k'' ? ? ? ? ? ?]; cbn in H; try discriminate.
  - destruct k; auto.
  - destruct k; auto.
  - inversion H; subst. destruct k, k'; auto.
Qed.

Lemma accepts_all : forall c bs k l parent m ds m', convert_all c bs parent l m = COk (ds, m') ->
  forallb (accepts k) ds = true <-> Forall (fun n => fits_d k n = true) l.
Proof.
  intros c bs k. induction l as [|x l IH]; intros parent m ds m' H.
  - inversion H; subst. split; auto.
  - apply convert_all_inv in H. destruct H as (d & ds' & m1 & E1 & E2 & ->). cbn [forallb].
    rewrite andb_true_iff, (IH _ _ _ _ E2), (accepts_fits _ _ k _ _ _ _ _ E1), Forall_cons_iff. tauto.
Qed.

Definition attr_times (k : ekind) (b : option tattr) : list Z :=
  match k with P | Span => match b with Some a => [ta_us a] | None => [] end | _ => [] end.

Lemma out_time_iff : forall c k b, (exists r, out_time c Clock k b = COk r) <-> Forall (expressible c) (attr_times k b).
Proof.
  intros c k b. destruct k; cbn [out_time attr_times]; try (split; eauto; fail).
  - destruct b as [a|]; [rewrite process_iff|cbn; split; eauto]. rewrite Forall_cons_iff. split; [split; auto|tauto].
  - destruct b as [a|]; [rewrite process_iff|cbn; split; eauto]. rewrite Forall_cons_iff. split; [split; auto|tauto].
Qed.

Lemma ps_times_eq : forall k i r st b e sz ln kids,
  ps_times (FNode k i r st b e sz ln kids) = ((attr_times k b ++ attr_times k e) ++ flat_map ps_times kids)%list.
Proof. intros. cbn. destruct k; auto. Qed.

Lemma convert_only : forall c bs n parent m d m', convert c bs parent n m = COk (d, m') ->
  flat n /\ (bs = Clock -> Forall (expressible c) (ps_times n)).
Proof.
  intros c bs. induction n as [s| |k i r st b e sz ln kids IH] using fnode_ind'; intros parent m d m' H.
  - split; [constructor|constructor].
  - split; [constructor|constructor].
  - apply convert_inv in H. destruct H as (ks & m1 & b' & e' & st' & E1 & E2 & E3 & E4 & _ & _).
    assert (A : forall l parent m ds m', Forall (fun n => forall parent m d m', convert c bs parent n m = COk (d, m') ->
         flat n /\ (bs = Clock -> Forall (expressible c) (ps_times n))) l ->
       convert_all c bs parent l m = COk (ds, m') ->
       Forall flat l /\ (bs = Clock -> Forall (expressible c) (flat_map ps_times l))).
    { clear. induction l as [|x l IHl]; intros parent m ds m' F H; [split; constructor|].
      apply convert_all_inv in H. destruct H as (d & ds' & m1 & H1 & H2 & _). inversion F as [|? ? Fx Fl]; subst.
      destruct (Fx _ _ _ _ H1) as [A1 B1]. destruct (IHl _ _ _ _ Fl H2) as [A2 B2].
      split; [constructor; auto|]. intros E. cbn. apply Forall_app. auto. }
    destruct (A _ _ _ _ _ IH E1) as [A1 A2]. split.
    + constructor; auto. rewrite (accepts_all _ _ k _ _ _ _ _ E1) in E4. auto.
    + intros ->. rewrite ps_times_eq. apply Forall_app. split; auto.
      apply Forall_app. split; apply out_time_iff; eauto.
Qed.

Lemma qdiv_some : forall a b, (0 < b)%Q -> exists v, qdiv a b = Some v.
Proof.
  intros a b H. unfold qdiv. destruct (Qeq_bool b 0) eqn:E; [|eauto].
  apply Qeq_bool_eq in E. rewrite E in H. discriminate.
Qed.

Lemma cells_div_some : forall f p, proper f -> proper p -> exists v, cells_div f p = Some v.
Proof.
  intros f p (U1 & V1 & H1) (U2 & V2 & H2). unfold cells_div. rewrite U1, U2.
  destruct (qdiv_some (f_v f) (f_v p) V2) as (v & Ev).
  destruct (f_h f) as [x|], (f_h p) as [h|]; eauto.
  - destruct (qdiv_some x h H2) as (w & ->). eauto.
  - destruct (qdiv_some x (f_v p) V2) as (w & ->). eauto.
  - destruct (qdiv_some (f_v f) h H2) as (w & ->). eauto.
Qed.

Lemma one_cell_proper : proper one_cell.
Proof. repeat split. Qed.

Lemma fix_font_ok : forall k sz ln parent st m,
  (k = P \/ k = Span -> exists f, sz = Some f /\ proper f) ->
  (k = Span -> exists f, parent = Some f /\ proper f) ->
  exists st' m', fix_font k sz ln parent st m = COk (st', m').
Proof.
  intros k sz ln parent st m H1 H2.
  assert (W : forall f p, proper f -> proper p ->
    exists st' m', fix_font Span (Some f) ln (Some p) st m = COk (st', m')).
  { intros f p Hf Hp. unfold fix_font. destruct (cells_eq p f); [eauto|].
    destruct (cells_div_some f p Hf Hp) as (v & ->). destruct ln as [[|[] h]|]; eauto.
    destruct Hf as (_ & Vf & _). destruct (qdiv_some h (f_v f) Vf) as (q & ->). eauto. }
  destruct k; [unfold fix_font; eauto|unfold fix_font; eauto| |].
  - destruct (H1 (or_introl eq_refl)) as (f & -> & Hf). exact (W f one_cell Hf one_cell_proper).
  - destruct (H1 (or_intror eq_refl)) as (f & -> & Hf). destruct (H2 eq_refl) as (p & -> & Hp). exact (W f p Hf Hp).
Qed.

Lemma convert_ok : forall c bs n, sized n -> flat n -> (bs = Clock -> Forall (expressible c) (ps_times n)) ->
  forall parent m, ((exists i r st b e sz ln kids, n = FNode Span i r st b e sz ln kids) ->
                    exists f, parent = Some f /\ proper f) ->
  exists d m', convert c bs parent n m = COk (d, m').
Proof.
  intros c bs. induction n as [s| |k i r st b e sz ln kids IH] using fnode_ind'; intros S F T parent m Hp.
  - cbn. eauto.
  - cbn. eauto.
  - inversion S as [| |? ? ? ? ? ? ? ? ? Hz Sk]; subst. inversion F as [| |? ? ? ? ? ? ? ? ? Hf Fk]; subst.
    rewrite convert_eq.
    assert (A : exists ks m1, convert_all c bs sz kids m = COk (ks, m1)).
    { assert (Tk : bs = Clock -> Forall (expressible c) (flat_map ps_times kids)).
      { intros E. specialize (T E). rewrite ps_times_eq in T. apply Forall_app in T. tauto. }
      clear T Hp S F. revert m. induction kids as [|x l IHl]; intros m; [cbn; eauto|].
      inversion IH as [|? ? IHx IHl']; subst. inversion Sk; subst. inversion Hf as [|? ? Hfx Hfl]; subst. inversion Fk; subst.
      cbn [convert_all].
      destruct (IHx ltac:(assumption) ltac:(assumption)) with (parent := sz) (m := m) as (d & m1 & E1).
      { intros E. specialize (Tk E). cbn in Tk. apply Forall_app in Tk. tauto. }
      { intros (i0 & r0 & st0 & b0 & e0 & sz0 & ln0 & kids0 & ->). apply Hz. destruct k; cbn in Hfx; try discriminate. auto. }
      rewrite E1. cbn [cbind].
      destruct (IHl IHl' ltac:(assumption) ltac:(assumption) ltac:(assumption)) with (m := m1) as (ks & m2 & E2).
      { intros E. specialize (Tk E). cbn in Tk. apply Forall_app in Tk. tauto. }
      rewrite E2. cbn. eauto. }
    destruct A as (ks & m1 & E1). rewrite E1. cbn [cbind].
    assert (O : (exists b', out_time c bs k b = COk b') /\ exists e', out_time c bs k e = COk e').
    { destruct bs.
      - specialize (T eq_refl). rewrite ps_times_eq in T. apply Forall_app in T. destruct T as [T _].
        apply Forall_app in T. rewrite !out_time_iff. auto.
      - destruct k, b, e; cbn; eauto. }
    destruct O as ((b' & ->) & (e' & ->)). cbn [cbind].
    assert (E4 : forallb (accepts k) ks = true) by (apply (accepts_all _ _ k _ _ _ _ _ E1); auto).
    rewrite E4.
    destruct (fix_font_ok k sz ln parent (option_map (map Own) st) m1 Hz) as (st' & m' & ->).
    { intros ->. apply Hp. eauto 12. }
    cbn. eauto.
Qed.

(** ** Computed times *)

Lemma at_start : forall from b, at_ (start from (us b)) = at_ from + offset b.
Proof.
  intros from [a|]; unfold offset, eff; cbn; [|lia]. destruct (Z.eq_dec (ta_us a) 0); lia.
Qed.

Lemma stop_tighten : forall from lim e, us e <> Some 0 -> tighten lim (at_ from) e = stop from lim (us e).
Proof.
  intros from lim [a|] H; unfold tighten, eff; cbn; auto. cbn in H.
  destruct (Z.eq_dec (ta_us a) 0) as [E|E]; [rewrite E in H; congruence|]. destruct lim; auto.
Qed.

Lemma timed_kinds : forall av base lim l cks, Forall2 (timed av base lim) (map ftiming l) cks ->
  existsb is_timed cks = existsb is_tm (map ftree l).
Proof.
  intros av base lim. induction l as [|x l IH]; intros cks H; inversion H as [|? c ? cs Hx Hl]; subst; auto.
  cbn. rewrite (IH _ Hl). f_equal. destruct x; cbn in Hx; inversion Hx; subst; auto.
Qed.

Lemma leaf_no_counted : forall cks, existsb is_timed cks = false -> forall cb ce, ~ counted_in cks cb ce.
Proof.
  intros cks H cb ce (k & Hk & b & e & ks & -> & _).
  assert (existsb is_timed cks = true) by (apply existsb_exists; exists (CTimed b e cb ce ks); auto). congruence.
Qed.

Lemma leaf_computed : forall n, no_zero_end n -> forall from lim ct,
  timed 0 (at_ from) lim (ftiming n) ct -> leaf_times ct = leaf_display from lim (ftree n).
Proof.
  induction n as [s| |k i r st b e sz ln kids IH] using fnode_ind'; intros Z0 from lim ct T.
  - inversion T; subst. auto.
  - inversion T; subst. auto.
  - inversion Z0 as [| |? ? ? ? ? ? ? ? ? He Zk]; subst. cbn [ftiming] in T.
    inversion T as [|? ? ? cb ce cks F Er Br]; subst. cbn [leaf_times leaf_display ftree].
    rewrite (timed_kinds _ _ _ _ _ F). rewrite <- at_start in F. rewrite (stop_tighten from lim e He) in *.
    destruct (existsb is_tm (map ftree kids)) eqn:Ek.
    + clear Er Br T Ek. revert cks F. induction kids as [|x l IHl]; intros cks F; inversion F as [|? c ? cs Fx Fl]; subst; auto.
      inversion IH as [|? ? IHx IHl']; subst. inversion Zk; subst. cbn [flat_map map]. f_equal; auto.
      apply IHl; auto. constructor; auto.
    + rewrite <- (timed_kinds _ _ _ _ _ F) in Ek. assert (N := leaf_no_counted _ Ek). f_equal. f_equal.
      * rewrite at_start. inversion Br; subst; unfold start_at; cbn; auto.
        exfalso. eapply N; eauto.
      * inversion Er as [v Hv|Hn Hnc|cbx Hn Hcx|m cbx Hn Hcx Hle]; subst.
        -- destruct (is_given e); congruence.
        -- unfold is_given, eff in Hn. destruct e as [a|]; auto. cbn in He, Hn |- *.
           destruct (Z.eq_dec (ta_us a) 0) as [E|E]; [rewrite E in He; congruence|].
           destruct ce; discriminate.
        -- exfalso. eapply N; eauto.
        -- exfalso. eapply N; eauto.
Qed.
