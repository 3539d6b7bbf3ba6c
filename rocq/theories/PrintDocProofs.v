(** Proofs about what is shown of a document after it has been carried. *)

From Coq Require Import List String Ascii Bool Arith Lia.
From Verif Require Import PrintModel PrintSpec PrintProofs PrintShowProofs.
Import ListNotations.
Open Scope string_scope.

(** ** The paragraphs of what is read *)

Definition laid (p p' : bool * list node) : Prop :=
  exists d, p' = (fst p, lay_in d (snd p)) /\ forallb (legal_in P) (snd p) = true.

Lemma paras_kids : forall d t m kids, mixed t = false ->
  Forall (fun k => forall m d t, mixed t = false -> legal_in t k = true ->
     Forall2 laid (paras m k) (paras m (lay d k))) kids ->
  forallb (legal_in t) kids = true ->
  Forall2 laid (flat_map (paras m) kids) (flat_map (paras m) (map (lay d) kids)).
Proof.
  intros d t m kids M F. induction F as [|k ks Hk F IH]; intros L; [constructor|].
  cbn [forallb] in L. apply andb_true_iff in L. destruct L as [Lk L].
  cbn [flat_map map]. apply Forall2_app; [exact (Hk _ _ t M Lk)|exact (IH L)].
Qed.

Lemma paras_lay : forall n m d t, mixed t = false -> legal_in t n = true ->
  Forall2 laid (paras m n) (paras m (lay d n)).
Proof.
  induction n as [s| |x|t0 a kids F] using node_ind'; intros m d t M L; [constructor|constructor|constructor|].
  cbn [legal_in] in L. apply andb_true_iff in L. destruct L as [A L].
  destruct t0; try (rewrite lay_other by (reflexivity || exact L); cbn [paras];
    apply paras_kids with (2 := F) (3 := L); reflexivity).
  - rewrite lay_mixed by reflexivity. cbn [paras]. constructor; [|constructor].
    exists d. split; [reflexivity|exact L].
  - destruct t; discriminate A || discriminate M.
Qed.

Lemma paras_doc : forall n m d, legal n = true -> Forall2 laid (paras m n) (paras m (lay d n)).
Proof.
  intros [s| |x|[| | | |] a kids] m d L; try discriminate L. cbn [legal] in L.
  rewrite lay_other by (reflexivity || exact L). cbn [paras].
  apply paras_kids with (t := Tt); [reflexivity| |exact L].
  apply Forall_forall. intros k _ m' d' t' M' L'. exact (paras_lay k m' d' t' M' L').
Qed.

(** ** The same shown *)

Lemma shown_laid : forall ps ps', Forall2 laid ps ps' ->
  (map shown_para ps' = map shown_para ps <-> forallb robust ps = true).
Proof.
  intros ps ps' F. induction F as [|[m kids] p' ps ps' [d [-> L]] F IH]; [split; reflexivity|].
  cbn [fst snd map forallb] in *. rewrite andb_true_iff, <- IH.
  rewrite <- (para_same d m kids P eq_refl L). split.
  - intros E. inversion E. split; reflexivity || assumption.
  - intros [-> ->]. reflexivity.
Qed.

Theorem carried_shown : forall d, legal d = true ->
  exists d', carried d = Some d' /\ legal d' = true /\
    (shown d' = shown d <-> forallb robust (paras false d) = true).
Proof.
  intros d L. exists (lay 0 d). split; [exact (carried_lay d L)|]. split; [exact (legal_lay_doc d L)|].
  unfold shown. apply shown_laid, paras_doc, L.
Qed.

(** ** Nothing lost *)

Lemma visible_norm : forall l st, filter visible (norm st l) = filter visible l.
Proof.
  induction l as [|[c| |] r IH]; intros st; cbn [norm filter visible]; [reflexivity| |apply IH|rewrite IH; reflexivity].
  rewrite filter_app. cbn [filter visible]. rewrite IH. destruct st; reflexivity.
Qed.
Lemma visible_mode : forall m s, filter visible (items_of m s) = filter visible (items_of false s).
Proof.
  intros [|] s; [|reflexivity]. induction s as [|c r IH]; [reflexivity|].
  cbn [items_of item_of filter]. rewrite IH. cbn [visible]. destruct (white c) eqn:W; cbn [visible negb]; [reflexivity|].
  rewrite W. reflexivity.
Qed.
Lemma visible_alike : forall l l', alike l l' -> filter visible l = filter visible l'.
Proof. intros l l' H. rewrite <- (visible_norm l Start), <- (visible_norm l' Start). destruct (H Start) as [-> _]. reflexivity. Qed.
Lemma visible_eol : forall m s, filter visible (items_of m (eol s)) = filter visible (items_of m s).
Proof.
  intros m s. rewrite (visible_mode m (eol s)), (visible_mode m s).
  apply visible_alike. apply (items_eol_m false). reflexivity.
Qed.
Lemma visible_white : forall m w, all_white w = true -> filter visible (items_of m w) = [].
Proof.
  intros m w. rewrite visible_mode. induction w as [|c r IH]; intros H; [reflexivity|].
  cbn [all_white] in H. apply andb_true_iff in H. destruct H as [Hc Hr].
  cbn [items_of item_of filter]. rewrite Hc. exact (IH Hr).
Qed.

Lemma visible_lay : forall n m d t, mixed t = true -> legal_in t n = true ->
  filter visible (items m (lay d n)) = filter visible (items m n).
Proof.
  induction n as [s| |x|t0 a kids F] using node_ind'; intros m d t M L; try reflexivity.
  cbn [legal_in] in L. apply andb_true_iff in L. destruct L as [A L].
  pose proof (in_mixed t t0 M A) as M0. rewrite lay_mixed by exact M0. cbn [items].
  set (m' := mode a m).
  assert (forall p, filter visible (flat_map (items m') (lay_kids d p kids)) =
    filter visible (items_of m' p ++ flat_map (items m') kids)%list) as G.
  { clear A. induction F as [|k ks Hk F IH]; intros p.
    - cbn [lay_kids flat_map]. rewrite items_put, filter_app, visible_eol, items_of_app, !filter_app.
      rewrite (visible_white m' (indent d)) by apply indent_white. cbn [filter flat_map app]. rewrite !app_nil_r. reflexivity.
    - cbn [forallb] in L. apply andb_true_iff in L. destruct L as [Lk L]. specialize (IH L).
      specialize (Hk m' (S d) t0 M0 Lk).
      assert (filter visible (flat_map (items m') (put (p ++ indent (S d)) (lay (S d) k :: lay_kids d nl ks))) =
        filter visible (items_of m' p ++ flat_map (items m') (k :: ks))%list) as G.
      { rewrite items_put, filter_app, visible_eol, items_of_app, !filter_app.
        rewrite (visible_white m' (indent (S d))) by apply indent_white. rewrite app_nil_r. cbn [flat_map].
        rewrite !filter_app, Hk, IH, filter_app, (visible_white m' nl) by reflexivity. reflexivity. }
      destruct k as [s| |x|t1 a1 kk]; try exact G.
      cbn [lay_kids flat_map items]. rewrite IH, !items_of_app, !filter_app.
      rewrite (visible_white m' (indent (S d))) by apply indent_white.
      rewrite (visible_white m' nl) by reflexivity. cbn [app]. rewrite app_nil_r, <- !app_assoc. reflexivity. }
  assert (filter visible (flat_map (items m') (lay_kids d nl kids)) = filter visible (flat_map (items m') kids)) as G'.
  { rewrite G, filter_app, visible_white by reflexivity. reflexivity. }
  unfold lay_in. destruct kids as [|[s| |x|t' a' ks] [|k2 r2]]; try exact G'; try reflexivity.
  rewrite items_put, filter_app, visible_eol. cbn [flat_map items]. rewrite filter_app. reflexivity.
Qed.

Theorem carried_visible : forall d d', legal d = true -> carried d = Some d' ->
  map (filter visible) (shown d') = map (filter visible) (shown d).
Proof.
  intros d d' L C. rewrite (carried_lay d L) in C. injection C as <-. unfold shown.
  pose proof (paras_doc d false 0 L) as F.
  induction F as [|[m kids] p' ps ps' [i [-> Lk]] F IH]; [reflexivity|].
  cbn [map fst snd]. f_equal; [|exact IH].
  unfold shown_para. cbn [fst snd] in *. rewrite !visible_norm.
  apply (legal_as_el P kids eq_refl) in Lk.
  rewrite <- (items_as_el m (lay_in i kids)), <- lay_as_el.
  exact (visible_lay (as_el kids) m i Span eq_refl Lk).
Qed.

(** ** Settling *)

Lemma last_cons : forall {A} (l : list A) a d, last (a :: l) d = last l a.
Proof. intros A l. induction l as [|b r IH]; intros a d; [reflexivity|]. change (last (a :: b :: r) d) with (last (b :: r) d). rewrite !IH. reflexivity. Qed.

Lemma last_eol : forall s i, last (items_of false (eol s)) i = last (items_of false s) i.
Proof.
  intros s. induction s as [|r IH|r NL IH|c r NC IH] using eol_ind; intros i.
  - reflexivity.
  - rewrite eol_crlf. cbn [items_of item_of]. rewrite !last_cons. apply IH.
  - rewrite eol_cr by exact NL. cbn [items_of item_of]. rewrite !last_cons. apply IH.
  - rewrite eol_other by exact NC. cbn [items_of]. rewrite !last_cons. apply IH.
Qed.

Lemma last_sps : forall l, Forall (eq Sp) l -> last l Sp = Sp.
Proof. intros l F. induction F as [|a l <- F IH]; [reflexivity|]. rewrite last_cons. exact IH. Qed.
Lemma last_white : forall s w i, all_white w = true -> w <> "" -> last (items_of false (s ++ w)) i = Sp.
Proof.
  intros s w. induction s as [|c r IH]; intros i W N.
  - pose proof (white_sps w W) as F. destruct w as [|c r]; [contradiction N; reflexivity|].
    change ("" ++ String c r) with (String c r). cbn [items_of] in *.
    rewrite last_cons, <- (Forall_inv F). apply last_sps, (Forall_inv_tail F).
  - change (String c r ++ w) with (String c (r ++ w)). cbn [items_of]. rewrite last_cons. apply IH; assumption.
Qed.

(** A text with white space at both of its ends. *)
Definition wide (q : string) : Prop :=
  (exists r, q = String LF r) /\ forall i, last (items_of false q) i = Sp.
Lemma wide_nl : wide nl.
Proof. split; [exists ""; reflexivity|]. reflexivity. Qed.
Lemma wide_app : forall p w, wide p -> all_white w = true -> wide (p ++ w).
Proof.
  intros p w [[r ->] Z] W. split; [exists (r ++ w); reflexivity|]. intros i.
  destruct w as [|c w]; [rewrite app_nil_r_s; apply Z|]. apply last_white; [exact W|discriminate].
Qed.
Lemma wide_nl_app : forall p s, wide p -> wide (p ++ s ++ nl).
Proof.
  intros p s [[r ->] Z]. split; [exists (r ++ s ++ nl); reflexivity|]. intros i.
  rewrite <- app_assoc_s. apply last_white; [reflexivity|discriminate].
Qed.
Lemma apart_wide : forall q b rs, wide q -> apart b (items_of false (eol q) :: rs) = apart Sp rs.
Proof.
  intros q b rs [[r ->] Z]. specialize (Z Sp). rewrite <- last_eol in Z.
  rewrite eol_other in * by discriminate. cbn [items_of] in *. change (item_of false LF) with Sp in *.
  cbn [apart is_x]. rewrite andb_false_r. cbn [negb andb]. rewrite last_cons in Z. rewrite Z. reflexivity.
Qed.

Lemma runs_put : forall m p l, p <> "" ->
  flat_map (runs m) (put p l) = items_of m (eol p) :: flat_map (runs m) l.
Proof. intros m [|c p] l N; [contradiction N; reflexivity|]. reflexivity. Qed.

(** Between texts that are wide nothing touches. *)
Definition loose (d : nat) (m : bool) (n : node) : Prop :=
  forall b rs, is_x b = false -> (forall b', apart b' rs = true) -> apart b (runs m (lay d n) ++ rs) = true.

Lemma loose_kids : forall d t kids,
  Forall (fun k => element k = true -> legal_in t k = true -> swells false k = false -> loose (S d) false k) kids ->
  forallb (legal_in t) kids = true -> existsb (swells false) kids = false ->
  forall p b rs, wide p -> apart Sp rs = true ->
  apart b (flat_map (runs false) (lay_kids d p kids) ++ rs) = true.
Proof.
  intros d t kids F. induction F as [|k ks Hk F IH]; intros L Q p b rs W A.
  - cbn [lay_kids]. pose proof (wide_app p (indent d) W (indent_white d)) as W'.
    rewrite runs_put by (destruct W' as [[r ->] _]; discriminate). cbn [flat_map app].
    rewrite apart_wide by exact W'. exact A.
  - cbn [forallb existsb] in L, Q. apply andb_true_iff in L. apply orb_false_iff in Q.
    destruct L as [Lk L], Q as [Qk Q]. specialize (IH L Q).
    assert (element k = true ->
      apart b (flat_map (runs false) (put (p ++ indent (S d)) (lay (S d) k :: lay_kids d nl ks)) ++ rs) = true) as G.
    { intros Ek. pose proof (wide_app p (indent (S d)) W (indent_white (S d))) as W'.
      rewrite runs_put by (destruct W' as [[r ->] _]; discriminate). cbn [flat_map app].
      rewrite apart_wide by exact W'. rewrite <- app_assoc. apply (Hk Ek Lk Qk Sp); [reflexivity|].
      intros b'. apply IH; [exact wide_nl|exact A]. }
    destruct k as [s| |x|t' a' kk]; try exact (G eq_refl).
    cbn [lay_kids]. apply IH; [|exact A]. rewrite <- app_assoc_s. apply wide_nl_app.
    apply wide_app; [exact W|apply indent_white].
Qed.

Lemma lay_kids_texts : forall d kids p, existsb element kids = false ->
  exists q, lay_kids d p kids = put q [].
Proof.
  intros d kids. induction kids as [|k ks IH]; intros p E; [exists (p ++ indent d); reflexivity|].
  cbn [existsb] in E. apply orb_false_iff in E. destruct E as [Ek E].
  destruct k; try discriminate Ek. cbn [lay_kids]. apply IH, E.
Qed.
Lemma lay_in_texts : forall d kids, existsb element kids = false ->
  exists q, lay_in d kids = put q [].
Proof.
  intros d kids E. unfold lay_in. destruct kids as [|[s| |x|t' a' ks] [|k2 r2]]; try apply lay_kids_texts, E.
  - exists "". reflexivity.
  - exists s. reflexivity.
Qed.
Lemma loose_put : forall m q b rs, is_x b = false -> (forall b', apart b' rs = true) ->
  apart b (flat_map (runs m) (put q []) ++ rs) = true.
Proof.
  intros m q b rs B A. destruct q as [|c q]; [apply A|]. cbn [put flat_map runs app].
  destruct (items_of m (eol (String c q))) as [|i r]; cbn [apart]; [apply A|]. rewrite B. cbn [andb negb]. apply A.
Qed.

Lemma loose_lay : forall n m d t, mixed t = true -> element n = true -> legal_in t n = true ->
  swells m n = false -> loose d m n.
Proof.
  induction n as [s| |x|t0 a kids F] using node_ind'; intros m d t M E L Q b rs B A.
  - discriminate E.
  - cbn. rewrite B. apply A.
  - apply A.
  - cbn [legal_in] in L. apply andb_true_iff in L. destruct L as [Al L].
    pose proof (in_mixed t t0 M Al) as M0. rewrite lay_mixed by exact M0. cbn [runs swells] in *.
    apply orb_false_iff in Q. destruct Q as [Q1 Q2].
    destruct (existsb element kids) eqn:EK.
    + rewrite andb_true_r in Q1. rewrite Q1 in *.
      assert (apart b (flat_map (runs false) (lay_kids d nl kids) ++ rs) = true) as G.
      { apply (loose_kids d t0 kids); [|exact L|exact Q2|exact wide_nl|apply A].
        eapply Forall_impl; [|exact F]. cbv beta. intros k Hk Ek Lk Qk. exact (Hk false (S d) t0 M0 Ek Lk Qk). }
      unfold lay_in. destruct kids as [|[s| |x|t' a' ks] [|k2 r2]]; try exact G; discriminate EK.
    + destruct (lay_in_texts d kids EK) as [q ->]. apply loose_put; assumption.
Qed.

Lemma kept_lay : forall n m d t, mixed t = true -> element n = true -> legal_in t n = true ->
  swells m n = false -> kept true m (lay d n) = true.
Proof.
  induction n as [s| |x|t0 a kids F] using node_ind'; intros m d t M E L Q; try reflexivity; [discriminate E|].
  cbn [legal_in] in L. apply andb_true_iff in L. destruct L as [Al L].
  pose proof (in_mixed t t0 M Al) as M0. rewrite lay_mixed by exact M0. cbn [kept swells] in *.
  apply orb_false_iff in Q. destruct Q as [Q1 Q2].
  destruct (existsb element kids) eqn:EK.
  - rewrite andb_true_r in Q1. rewrite Q1 in *. cbn [negb orb andb].
    assert (forall p, forallb (kept true false) (lay_kids d p kids) = true) as G.
    { clear EK Al E. induction F as [|k ks Hk F IH]; intros p.
      - cbn [lay_kids]. destruct (p ++ indent d); reflexivity.
      - cbn [forallb existsb] in L, Q2. apply andb_true_iff in L. apply orb_false_iff in Q2.
        destruct L as [Lk L], Q2 as [Qk Q2]. specialize (IH L Q2).
        assert (element k = true ->
          forallb (kept true false) (put (p ++ indent (S d)) (lay (S d) k :: lay_kids d nl ks)) = true) as G.
        { intros Ek. destruct (p ++ indent (S d)); cbn [put forallb]; rewrite (Hk false (S d) t0 M0 Ek Lk Qk), IH; reflexivity. }
        destruct k as [s| |x|t' a' kk]; try exact (G eq_refl). cbn [lay_kids]. apply IH. }
    unfold lay_in. destruct kids as [|[s| |x|t' a' ks] [|k2 r2]]; try apply G; discriminate EK.
  - destruct (lay_in_texts d kids EK) as [[|c q] ->]; cbn [put simple forallb kept].
    + rewrite orb_true_r. reflexivity.
    + rewrite eol_no_cr, orb_true_r, andb_false_r. reflexivity.
Qed.

Lemma swells_lay : forall n m d t, mixed t = true -> legal_in t n = true ->
  swells m (lay d n) = swells m n.
Proof.
  induction n as [s| |x|t0 a kids F] using node_ind'; intros m d t M L; try reflexivity.
  cbn [legal_in] in L. apply andb_true_iff in L. destruct L as [Al L].
  pose proof (in_mixed t t0 M Al) as M0. rewrite lay_mixed by exact M0. cbn [swells].
  set (m' := mode a m).
  assert (forall q l, existsb element (put q l) = existsb element l) as PE by (intros [|c q] l; reflexivity).
  assert (forall q l, existsb (swells m') (put q l) = existsb (swells m') l) as PS by (intros [|c q] l; reflexivity).
  assert (forall k, element (lay (S d) k) = element k) as EL by (intros [s| |x|t1 a1 k1]; reflexivity).
  assert (forall p, existsb element (lay_kids d p kids) = existsb element kids /\
    existsb (swells m') (lay_kids d p kids) = existsb (swells m') kids) as G.
  { clear Al. induction F as [|k ks Hk F IH]; intros p.
    - cbn [lay_kids]. rewrite PE, PS. split; reflexivity.
    - cbn [forallb] in L. apply andb_true_iff in L. destruct L as [Lk L]. specialize (IH L).
      specialize (Hk m' (S d) t0 M0 Lk). destruct (IH nl) as [I1 I2].
      destruct k as [s| |x|t1 a1 k1]; cbn [lay_kids].
      1: { cbn [existsb element swells orb]. apply IH. }
      all: rewrite PE, PS; cbn [existsb]; rewrite I1, I2, EL, Hk; split; reflexivity. }
  unfold lay_in. destruct kids as [|[s| |x|t1 a1 k1] [|k2 r2]];
    try (destruct (G nl) as [-> ->]; reflexivity); [reflexivity|].
  rewrite PE, PS. reflexivity.
Qed.

(** *** Paragraphs *)

Lemma robust_laid : forall p p', laid p p' -> swells_para p = false -> robust p' = true.
Proof.
  intros [m kids] p' [d [-> L]] Q. cbn [fst snd] in *. apply (legal_as_el P kids eq_refl) in L.
  change (swells m (as_el kids) = false) in Q.
  unfold robust. apply andb_true_iff. split.
  - change (kept true m (as_el (lay_in d kids)) = true). rewrite <- lay_as_el.
    exact (kept_lay (as_el kids) m d Span eq_refl eq_refl L Q).
  - pose proof (loose_lay (as_el kids) m d Span eq_refl eq_refl L Q Bk [] eq_refl (fun _ => eq_refl)) as G.
    rewrite app_nil_r, lay_as_el in G. exact G.
Qed.
Lemma swells_laid : forall p p', laid p p' -> swells_para p' = swells_para p.
Proof.
  intros [m kids] p' [d [-> L]]. cbn [fst snd] in *. apply (legal_as_el P kids eq_refl) in L.
  change (swells m (as_el (lay_in d kids)) = swells m (as_el kids)). rewrite <- lay_as_el.
  exact (swells_lay (as_el kids) m d Span eq_refl L).
Qed.

Definition swollen (d : node) : bool := existsb swells_para (paras false d).

Lemma swollen_lay : forall d, legal d = true -> swollen (lay 0 d) = swollen d.
Proof.
  intros d L. unfold swollen. pose proof (paras_doc d false 0 L) as F.
  induction F as [|p p' ps ps' H F IH]; [reflexivity|]. cbn [existsb].
  rewrite (swells_laid p p' H), IH. reflexivity.
Qed.
Lemma robust_lay : forall d, legal d = true -> swollen d = false ->
  forallb robust (paras false (lay 0 d)) = true.
Proof.
  intros d L. unfold swollen. pose proof (paras_doc d false 0 L) as F.
  induction F as [|p p' ps ps' H F IH]; intros Q; [reflexivity|]. cbn [existsb forallb] in *.
  apply orb_false_iff in Q. destruct Q as [Qp Q]. rewrite (robust_laid p p' H Qp). exact (IH Q).
Qed.

(** *** Hop by hop *)

Fixpoint lays (k : nat) (d : node) : node := match k with O => d | S k' => lay 0 (lays k' d) end.
Lemma lays_ok : forall k d, legal d = true ->
  hops k d = Some (lays k d) /\ legal (lays k d) = true /\ swollen (lays k d) = swollen d.
Proof.
  induction k as [|k IH]; intros d L; [repeat split; assumption || reflexivity|].
  destruct (IH d L) as [H [L' Q]]. cbn [hops lays]. rewrite H. repeat split.
  - apply carried_lay, L'.
  - apply legal_lay_doc, L'.
  - rewrite swollen_lay by exact L'. exact Q.
Qed.

Theorem settles : forall d k, legal d = true -> swollen d = false ->
  exists d1 dk, hops 1 d = Some d1 /\ hops (S k) d = Some dk /\ shown dk = shown d1.
Proof.
  intros d k L Q. exists (lays 1 d), (lays (S k) d).
  split; [apply (lays_ok 1 d L)|]. split; [apply (lays_ok (S k) d L)|].
  induction k as [|k IH]; [reflexivity|]. rewrite <- IH.
  destruct (lays_ok k d L) as [_ [L' Q']]. destruct (lays_ok (S k) d L) as [_ [L1 _]].
  change (lays (S (S k)) d) with (lay 0 (lays (S k) d)).
  unfold shown at 1 2. apply shown_laid; [apply paras_doc, L1|].
  cbn [lays]. apply robust_lay; [exact L'|congruence].
Qed.

(** ** Growing *)

Lemma swells_kept : forall n m, swells m n = true -> kept false m n = false.
Proof.
  induction n as [s| |x|t a kids F] using node_ind'; intros m Q; try discriminate Q.
  cbn [swells kept] in *. apply orb_true_iff in Q. destruct Q as [Q|Q].
  - apply andb_true_iff in Q. destruct Q as [-> E]. cbn [negb orb].
    destruct kids as [|[s| |x|t' a' ks] [|k2 r2]]; try reflexivity; discriminate E.
  - apply andb_false_iff. right. induction F as [|k ks Hk F IH]; [discriminate Q|].
    cbn [existsb forallb] in *. apply orb_true_iff in Q. destruct Q as [Q|Q].
    + rewrite (Hk _ Q). reflexivity.
    + rewrite (IH Q). apply andb_false_r.
Qed.

Definition plain (p : bool * list node) : Prop := existsb xcr (flat_map (items (fst p)) (snd p)) = false.
Definition count (p : bool * list node) : nat := nx (flat_map (items (fst p)) (snd p)).

Lemma plain_laid : forall p p', laid p p' -> plain p'.
Proof.
  intros [m kids] p' [d [-> L]]. unfold plain. cbn [fst snd] in *. apply (legal_as_el P kids eq_refl) in L.
  change (existsb xcr (items m (as_el (lay_in d kids))) = false). rewrite <- lay_as_el.
  exact (no_xcr (as_el kids) m d Span eq_refl L eq_refl).
Qed.
Lemma count_laid : forall p p', laid p p' -> plain p -> count p + b2n (swells_para p) <= count p'.
Proof.
  intros [m kids] p' [d [-> L]] N. unfold count, plain in *. cbn [fst snd] in *.
  apply (legal_as_el P kids eq_refl) in L.
  change (nx (items m (as_el kids)) + b2n (swells m (as_el kids)) <= nx (items m (as_el (lay_in d kids)))).
  rewrite <- lay_as_el. pose proof (gains_lay (as_el kids) m d Span eq_refl L N) as G. unfold gains in G.
  destruct (swells m (as_el kids)) eqn:Q; cbn [b2n].
  - rewrite (swells_kept _ _ Q) in G. exact G.
  - lia.
Qed.

Lemma chars_count : forall d, chars d = fold_right plus 0 (map count (paras false d)).
Proof.
  intros d. unfold chars, shown. rewrite map_map. f_equal. apply map_ext. intros p.
  unfold shown_para, count, nx. rewrite filter_norm. reflexivity.
Qed.

Theorem grows : forall d k, legal d = true -> swollen d = true ->
  exists a b, hops (S k) d = Some a /\ hops (S (S k)) d = Some b /\ chars a < chars b.
Proof.
  intros d k L Q. exists (lays (S k) d), (lays (S (S k)) d).
  split; [apply (lays_ok (S k) d L)|]. split; [apply (lays_ok (S (S k)) d L)|].
  destruct (lays_ok k d L) as [_ [L' _]]. destruct (lays_ok (S k) d L) as [_ [L1 Q1]]. rewrite Q in Q1.
  change (lays (S (S k)) d) with (lay 0 (lays (S k) d)).
  assert (Forall plain (paras false (lays (S k) d))) as N.
  { cbn [lays]. pose proof (paras_doc (lays k d) false 0 L') as F.
    induction F as [|p p' ps ps' H F IH]; constructor; [exact (plain_laid p p' H)|exact IH]. }
  rewrite !chars_count. pose proof (paras_doc (lays (S k) d) false 0 L1) as F.
  unfold swollen in Q1. revert N Q1. generalize dependent (paras false (lay 0 (lays (S k) d))).
  generalize (paras false (lays (S k) d)). intros ps ps' F.
  assert (Forall plain ps ->
    fold_right plus 0 (map count ps) + b2n (existsb swells_para ps) <= fold_right plus 0 (map count ps')) as G.
  { induction F as [|p p' ps ps' H F IH]; intros N; [apply le_n|]. inversion N as [|? ? Np N']; subst.
    specialize (IH N'). pose proof (count_laid p p' H Np) as C. cbn [map fold_right existsb].
    destruct (swells_para p), (existsb swells_para ps); cbn [orb b2n] in *; lia. }
  intros N Q1. specialize (G N). rewrite Q1 in G. cbn [b2n] in G. lia.
Qed.
