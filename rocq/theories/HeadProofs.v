(** Proofs about the attributes of the tt element. *)
From Coq Require Import List ZArith String Bool Lia.
From Verif Require Import SequenceModel SequenceSpec SequenceProofs SequenceHistory SequenceInv
  NodeModel NodeSpec NodeProofs HandoverProofs HeadModel HeadSpec.
Import ListNotations.
Open Scope string_scope.
Open Scope Z_scope.

(** ** The checks *)

Lemma check_proper : forall k, check_head k = None <-> proper k.
Proof.
  intros [sid num tb cm ag [la fr dr ma to se mo]]. unfold check_head, check_smpte, check_clock, proper.
  cbn [k_tb k_cm k_rest r_frame r_drop r_marker].
  destruct (String.eqb_spec tb "smpte") as [->|N1].
  - destruct fr, dr, ma, cm; cbn; split; intros H; try discriminate;
      try (destruct H as (H & _); destruct (H eq_refl) as (A & B & C); congruence);
      try (repeat split; intros; congruence).
    destruct H as (_ & _ & H). exfalso. assert ("smpte" = "clock") by (apply H; discriminate). discriminate.
  - destruct (String.eqb_spec tb "clock") as [->|N2]; destruct dr, ma, cm; cbn; split; intros H; try discriminate;
      try (destruct H as (_ & H & _); destruct (H N1) as (A & B); congruence);
      try (repeat split; intros; congruence).
    + destruct H as (_ & _ & H). exfalso. apply (proj1 H eq_refl). reflexivity.
    + destruct H as (_ & _ & H). exfalso. apply N2. apply H. discriminate.
Qed.

Lemma legal_spec : forall k, legal_head k = true <-> legal k.
Proof.
  intros [sid num tb cm ag re]. unfold legal_head, legal, legal_tb, legal_cm, nonempty.
  cbn [k_tb k_cm k_sid k_num k_agid]. rewrite !andb_true_iff, !orb_true_iff, !String.eqb_eq, Z.ltb_lt.
  rewrite negb_true_iff, String.eqb_neq. cbn [In].
  assert (C : (match cm with None => true | Some c => (c =? "local") || (c =? "utc") || (c =? "gps") end)%string = true
              <-> (forall c, cm = Some c -> "local" = c \/ "utc" = c \/ "gps" = c \/ False)).
  { destruct cm as [c|].
    - rewrite !orb_true_iff, !String.eqb_eq. split.
      + intros H c' E. injection E as <-. intuition congruence.
      + intros H. specialize (H c eq_refl). intuition congruence.
    - split; auto; intros; discriminate. }
  assert (G : match ag with Some a => negb (a =? "")%string | None => true end = true <-> ag <> Some "").
  { destruct ag as [a|]; [|split; auto; discriminate].
    rewrite negb_true_iff, String.eqb_neq. split; congruence. }
  rewrite C, G. intuition congruence.
Qed.

(** ** Errors of add_document beyond the check *)

Lemma insert_error : forall s d e, insert_or_discard s d = IError e -> e = EInconsistent \/ e = ETypeError.
Proof.
  intros s d e. unfold insert_or_discard. destruct (scan_back _ _ _); try discriminate.
  - destruct (scan_fwd _ _ _ _ _); try discriminate; intros E; injection E as <-; auto.
  - intros E; injection E as <-; auto.
Qed.

Lemma discard_all_error : forall ds t s s' e, discard_all s ds t = (s', Err e) -> e = EDiscardValue.
Proof.
  induction ds as [|d ds IH]; intros t s s' e; cbn [discard_all]; [discriminate|].
  unfold discard_document. destruct (t >? d_begin d); [intros E; injection E as _ <-; auto|]. apply IH.
Qed.

Lemma add_error : forall s d s' e, add_document s d = (s', OError e) ->
  e <> EIncompatible -> e <> EAuthorsGroup -> e <> ECollision -> snd (check_compat s d) = Ok tt.
Proof.
  intros s d s' e. unfold add_document. destruct (check_compat s d) as [s1 [[]|x]] eqn:C; [auto|].
  intros E. injection E as <- <-. intros A B D. exfalso.
  unfold check_compat in C.
  repeat match type of C with context [if ?b then _ else _] => destruct b
    | context [match ?o with _ => _ end] => destruct o end; inversion C; subst; congruence.
Qed.

Lemma add_checked : forall s d, snd (check_compat s d) = Ok tt ->
  match snd (add_document s d) with
  | OError e => e <> EIncompatible /\ e <> EAuthorsGroup /\ e <> ECollision
  | _ => True
  end.
Proof.
  intros s d. unfold add_document. destruct (check_compat s d) as [s1 [[]|x]]; cbn [snd]; [|discriminate]. intros _.
  destruct (insert_or_discard s1 d) as [s2|o| |e] eqn:I; cbn [snd]; auto.
  - destruct (resolved_begin s1 o) as [rb|e] eqn:R.
    + unfold discard_document. destruct (rb >? d_begin d); cbn; auto. repeat split; discriminate.
    + cbn. unfold resolved_begin, seq_resolved_begin in R. destruct (disc_lookup s1 o) as [[]|]; [discriminate|].
      destruct (stored s1 o); [destruct (locate KBegin s1 o); [discriminate|]|]; injection R as <-; repeat split; discriminate.
  - destruct (override_sequence s1 d) as [s2 [u|e]] eqn:O.
    + destruct (insert_or_discard s2 d) as [s3|o| |e] eqn:I2; cbn [snd]; auto; try (repeat split; discriminate).
      apply insert_error in I2. destruct I2 as [-> | ->]; repeat split; discriminate.
    + unfold override_sequence in O. destruct (collect _ _ _ _) as [ds is].
      destruct (discard_all s1 ds (d_begin d)) as [s3 [u|x]] eqn:D; [discriminate|].
      injection O as _ <-. apply discard_all_error in D. subst. cbn. repeat split; discriminate.
  - apply insert_error in I. destruct I as [-> | ->]; repeat split; discriminate.
Qed.

Lemma add_unchecked : forall s d e, snd (check_compat s d) = Err e -> add_document s d = (s, OError e).
Proof.
  intros s d e. unfold add_document. destruct (check_compat s d) as [s1 [u|x]] eqn:C; cbn [snd]; [discriminate|].
  intros E. injection E as ->. destruct (check_compat_shape _ _ _ _ C) as (_ & _ & _ & _ & _ & _ & _ & _ & H & _).
  rewrite (H e eq_refl). reflexivity.
Qed.

(** ** What a timeline is made of *)

Definition elems (s : seqstate) : list document := map ev_elem (q_tl s).

Lemma in_tl_add : forall (e : event document) l x, In x (map ev_elem (tl_add e l)) -> x = ev_elem e \/ In x (map ev_elem l).
Proof.
  intros e l x H. apply in_map_iff in H as (y & <- & H). apply tl_add_in in H as [->|H]; auto.
  right. apply in_map. exact H.
Qed.

Lemma in_remove_at : forall A n (l : list A) x, In x (remove_at n l) -> In x l.
Proof. induction n as [|n IH]; intros [|y l] x; cbn; auto. intros [H|H]; auto. Qed.

Lemma in_remove_positions : forall A is (l : list A) x, In x (remove_positions is l) -> In x l.
Proof.
  intros A is l x H. unfold remove_positions in H. apply in_map_iff in H as (p & <- & H).
  apply filter_In in H as [H _]. rewrite <- (enum_from_snd 0 l). apply in_map. exact H.
Qed.

Lemma scan_back_in : forall d evs ef b, scan_back d ef evs = SOk (Some b) -> In b evs.
Proof.
  induction evs as [|it r IH]; intros ef b; cbn [scan_back]; [discriminate|].
  destruct (d_num (ev_elem it) >? d_num d); [discriminate|].
  destruct (ev_kind it).
  - destruct ef as [f|]; [destruct (doc_eqb _ _); [discriminate|]|]; intros E; injection E as ->; left; auto.
  - destruct ef; [discriminate|]. intros E. right. eapply IH. exact E.
Qed.

Lemma scan_fwd_in : forall d te bb evs ea i it tr, scan_fwd d te bb evs ea = FOk (Some (i, it)) tr ->
  ea = Some (i, it) \/ In (i, it) evs.
Proof.
  induction evs as [|[j jt] r IH]; intros ea i it tr; cbn [scan_fwd].
  - intros E. injection E as -> _. auto.
  - destruct (ev_kind jt).
    + destruct (d_num d >? d_num (ev_elem jt)); [discriminate|].
      destruct (d_num (ev_elem jt) >? d_num d).
      * destruct te; [|discriminate]. intros E. injection E as -> _. auto.
      * intros E. apply IH in E as [E|E]; auto. right. right. exact E.
    + assert (S : scan_fwd d te bb r (Some (j, jt)) = FOk (Some (i, it)) tr ->
                  ea = Some (i, it) \/ In (i, it) ((j, jt) :: r)).
      { intros E. apply IH in E as [E|E]; right; [left; congruence|right; exact E]. }
      destruct bb as [b|]; [|exact S]. destruct (negb _ && negb _); [discriminate|exact S].
Qed.

Lemma irange_in : forall A m (l : list (event A)) p, In p (irange_from m l) -> In (snd p) l.
Proof.
  intros A m l p H. unfold irange_from in H. apply filter_In in H as [H _].
  rewrite <- (enum_from_snd 0 l). apply in_map. exact H.
Qed.

Lemma upto_in : forall A m (l : list (event A)) e, In e (irange_upto m l) -> In e l.
Proof. intros A [m|] l e H; [|exact H]. apply filter_In in H as [H _]. exact H. Qed.

Lemma insert_elems : forall s d s', insert_or_discard s d = IInserted s' ->
  forall x, In x (elems s') -> x = d \/ In x (elems s).
Proof.
  intros s d s'. unfold insert_or_discard.
  destruct (scan_back _ _ _) as [bb| |] eqn:B; try discriminate.
  destruct (scan_fwd _ _ _ _ _) as [ea tr| | |] eqn:F; try discriminate.
  intros E x H. injection E as <-. unfold elems in *. cbn in H.
  set (tl1 := match bb with None => q_tl s | _ => _ end) in H.
  assert (T : forall y, In y (map ev_elem tl1) -> In y (map ev_elem (q_tl s))).
  { intros y Hy. subst tl1. destruct bb as [b|]; [|exact Hy].
    assert (Hb : In (ev_elem b) (map ev_elem (q_tl s))).
    { apply in_map. apply scan_back_in in B. apply in_rev in B. apply upto_in in B. exact B. }
    destruct ea as [[i it]|]; apply in_tl_add in Hy as [-> | Hy]; cbn [ev_elem]; auto.
    - apply scan_fwd_in in F as [F|F]; [discriminate|]. apply irange_in in F. apply in_map. exact F.
    - apply in_map_iff in Hy as (z & <- & Hz). apply in_remove_at in Hz. apply in_map. exact Hz. }
  assert (U : In x (map ev_elem (tl_add (ev_begin d) tl1)) -> x = d \/ In x (map ev_elem (q_tl s))).
  { intros Hx. apply in_tl_add in Hx as [-> | Hx]; auto. }
  destruct (match tr with Some w => Some w | None => d_end d end) as [w|]; [|auto].
  apply in_tl_add in H as [-> | H]; auto.
Qed.

Lemma discard_all_elems : forall ds t s s' r, discard_all s ds t = (s', r) -> q_tl s' = q_tl s.
Proof.
  induction ds as [|d ds IH]; intros t s s' r; cbn [discard_all]; [intros E; injection E as <- _; auto|].
  unfold discard_document. destruct (t >? d_begin d); [intros E; injection E as <- _; auto|].
  intros E. apply IH in E. exact E.
Qed.

Lemma override_elems : forall s d x, In x (elems (fst (override_sequence s d))) -> In x (elems s).
Proof.
  intros s d x. unfold override_sequence, elems. destruct (collect _ _ _ _) as [ds is].
  destruct (discard_all s ds (d_begin d)) as [s' [u|e]] eqn:D; apply discard_all_elems in D; cbn [fst q_tl set_store];
    rewrite D; auto. intros H. apply in_map_iff in H as (z & <- & H). apply in_remove_positions in H. apply in_map. exact H.
Qed.

Lemma discard_before_elems : forall s d x, In x (elems (fst (discard_before s d))) -> In x (elems s).
Proof.
  intros s d x. unfold discard_before, elems. destruct (collect _ _ _ _) as [ds is].
  destruct (discard_all s ds 0) as [s' [u|e]] eqn:D; apply discard_all_elems in D; cbn [fst q_tl set_store];
    rewrite D; auto. intros H. apply in_map_iff in H as (z & <- & H). apply in_remove_positions in H. apply in_map. exact H.
Qed.

Lemma extract_elems : forall s b e disc x, In x (elems (fst (seq_extract s b e disc))) -> In x (elems s).
Proof.
  intros s b e disc x. unfold seq_extract. destruct (extract_windows _ _ _ _); auto. destruct disc; auto.
  destruct (rev _) as [|d l]; auto. intros H. apply (discard_before_elems s d).
  destruct (discard_before s d) as [s' [u|y]]; exact H.
Qed.

Lemma bump_elems : forall s d, elems (bump_last s d) = elems s.
Proof. intros s d. unfold bump_last. destruct (_ >? _); reflexivity. Qed.

(** Whatever the call: new in the timeline is at most the document, and only
    when it passed the check. *)
Lemma add_elems : forall s d x, In x (elems (fst (add_document s d))) ->
  In x (elems s) \/ (x = d /\ snd (check_compat s d) = Ok tt).
Proof.
  intros s d x. unfold add_document. destruct (check_compat s d) as [s1 [[]|e]] eqn:C.
  2:{ cbn [fst snd]. destruct (check_compat_shape _ _ _ _ C) as (_ & T & _). unfold elems. rewrite T. auto. }
  destruct (check_compat_shape _ _ _ _ C) as (_ & T & _).
  assert (S1 : elems s1 = elems s) by (unfold elems; rewrite T; auto).
  cbn [snd]. rewrite <- S1. destruct (insert_or_discard s1 d) as [s2|o| |e] eqn:I; cbn [fst]; auto.
  - rewrite bump_elems. intros H. apply (insert_elems _ _ _ I) in H as [->|H]; auto.
  - destruct (resolved_begin s1 o); cbn [fst]; auto. unfold discard_document. destruct (_ >? _); cbn [fst]; auto.
    rewrite bump_elems. auto.
  - pose proof (override_elems s1 d) as V. destruct (override_sequence s1 d) as [s2 [u|e]]; cbn [fst] in *; [|auto].
    destruct (insert_or_discard s2 d) as [s3|o| |e] eqn:I2; cbn [fst]; auto.
    rewrite bump_elems. intros H. apply (insert_elems _ _ _ I2) in H as [->|H]; auto.
Qed.

Lemma docs_in_add : forall d l x, In x (docs_add d l) -> x = d \/ In x l.
Proof.
  induction l as [|y l IH]; intros x; cbn [docs_add]; [intros [H|[]]; auto|].
  destruct (d_num y <=? d_num d).
  - intros [H|H]; [right; left; auto|]. apply IH in H as [H|H]; auto. right. right. exact H.
  - intros [H|H]; auto.
Qed.

(** The same for the stored documents. *)
Lemma add_docs : forall s d x, In x (q_docs (fst (add_document s d))) -> x = d \/ In x (q_docs s).
Proof.
  intros s d x. unfold add_document. destruct (check_compat s d) as [s1 [[]|e]] eqn:C;
    destruct (check_compat_shape _ _ _ _ C) as (T & _); rewrite <- T; cbn [fst]; auto.
  destruct (insert_or_discard s1 d) as [s2|o| |e] eqn:I; cbn [fst]; auto.
  - destruct (bump_last_fields s2 d) as (_ & B & _). apply insert_or_discard_shape in I as [_ D].
    rewrite B, D. apply docs_in_add.
  - destruct (resolved_begin s1 o); cbn [fst]; auto. unfold discard_document. destruct (_ >? _); cbn [fst]; auto.
    destruct (bump_last_fields (set_disc s1 ((d_obj d, a, d_begin d) :: q_disc s1)) d) as (_ & B & _). rewrite B. auto.
  - destruct (override_sequence s1 d) as [s2 r] eqn:O. apply override_shape in O as [_ (f & O)].
    assert (Hs2 : forall y, In y (q_docs s2) -> In y (q_docs s1)) by (intros y; rewrite O; intros H; apply filter_In in H; tauto).
    destruct r as [u|e]; cbn [fst]; [|auto].
    destruct (insert_or_discard s2 d) as [s3|o| |e] eqn:I2; cbn [fst]; auto.
    destruct (bump_last_fields s3 d) as (_ & B & _). apply insert_or_discard_shape in I2 as [_ D].
    rewrite B, D. intros H. apply docs_in_add in H as [H|H]; auto.
Qed.

(** The authors group after a call is the one before it or the one of the
    document; the check sets it. *)
Lemma add_agid_check : forall s d, q_agid (fst (add_document s d)) = q_agid (fst (check_compat s d)).
Proof.
  intros s d. unfold add_document. destruct (check_compat s d) as [s1 [[]|e]]; [|reflexivity]. cbn [fst].
  assert (B : forall z, q_agid (bump_last z d) = q_agid z) by (intros z; unfold bump_last; destruct (_ >? _); reflexivity).
  assert (I : forall z z', insert_or_discard z d = IInserted z' -> q_agid z' = q_agid z).
  { intros z z' H. apply insert_or_discard_shape in H as [H _]. unfold ident in H. congruence. }
  destruct (insert_or_discard s1 d) as [s2|o| |e] eqn:I1; cbn [fst]; auto.
  - rewrite B. auto.
  - destruct (resolved_begin s1 o); cbn [fst]; auto. unfold discard_document. destruct (_ >? _); cbn [fst]; auto.
    rewrite B. reflexivity.
  - destruct (override_sequence s1 d) as [s2 r] eqn:O. apply override_shape in O as [O _].
    assert (O' : q_agid s2 = q_agid s1) by (unfold ident in O; congruence).
    destruct r as [u|e]; cbn [fst]; auto.
    destruct (insert_or_discard s2 d) as [s3|o| |e] eqn:I2; cbn [fst]; auto. rewrite B, (I _ _ I2). auto.
Qed.

Lemma add_agid : forall s d, q_agid (fst (add_document s d)) = q_agid s \/
  (q_agid s = None /\ q_agid (fst (add_document s d)) = d_agid d).
Proof.
  intros s d. rewrite add_agid_check. unfold check_compat.
  destruct (negb _ || negb _); [left; reflexivity|]. destruct (_ && _); [left; reflexivity|].
  destruct (existsb _ _); [left; reflexivity|]. destruct (d_agid d) as [a|] eqn:A; [|left; reflexivity].
  destruct (String.eqb a ""); [left; reflexivity|]. destruct (q_agid s) as [g|] eqn:G; [destruct (String.eqb a g); left; exact G|].
  right. split; auto.
Qed.

(** After a document that passed the check, its group is that of the sequence. *)
Lemma add_joined : forall s d, snd (check_compat s d) = Ok tt -> d_agid d <> Some "" ->
  d_agid d = None \/ d_agid d = q_agid (fst (add_document s d)).
Proof.
  intros s d H N. rewrite add_agid_check. destruct (check_compat s d) as [s1 r] eqn:C. cbn [fst snd] in *. subst r.
  destruct (check_compat_shape _ _ _ _ C) as (_ & _ & _ & _ & _ & _ & _ & _ & _ & K).
  destruct (K eq_refl) as (_ & _ & _ & _ & [G|[G|G]]); auto. contradiction.
Qed.

Lemma clock_of_again : forall tb cm tb' cm', clock_of tb cm = Some (tb', cm') ->
  forall c, (tb' = "clock" -> c = cm') -> clock_of tb' c = Some (tb', cm').
Proof.
  intros tb cm tb' cm' H c Hc. destruct (clock_of_some _ _ _ _ H) as [-> E].
  destruct (String.eqb_spec tb "clock") as [->|N].
  - rewrite (Hc eq_refl), (E eq_refl) in *. exact H.
  - unfold clock_of in *. destruct (String.eqb_spec tb "clock"); [congruence|]. exact H.
Qed.

(** ** The consumer *)

(** Whether the check has nothing against identifier and clock. *)
Definition matching (q : seqstate) (d : document) : Prop :=
  q_sid q = d_sid d /\ q_tb q = d_tb d /\ (q_tb q = "clock" -> q_cm q = d_cm d).

Lemma check_cases : forall q d,
  match snd (check_compat q d) with
  | Err EIncompatible => ~ matching q d
  | Err ECollision => matching q d /\ In (d_num d) (map d_num (q_docs q))
  | Err EAuthorsGroup => matching q d /\ exists a g, d_agid d = Some a /\ a <> "" /\ q_agid q = Some g /\ a <> g
  | Ok _ => matching q d /\ (d_agid d = None \/ d_agid d = Some "" \/ d_agid d = q_agid q \/ q_agid q = None)
  | Err _ => False
  end.
Proof.
  intros q d. unfold check_compat, matching.
  destruct (String.eqb_spec (q_sid q) (d_sid d)) as [E1|N1]; cbn [negb orb snd]; [|tauto].
  destruct (String.eqb_spec (q_tb q) (d_tb d)) as [E2|N2]; cbn [negb snd]; [|tauto].
  destruct (String.eqb_spec (q_tb q) "clock") as [E3|N3]; cbn [andb].
  - destruct (ostr_eqb_spec (q_cm q) (d_cm d)) as [E4|N4]; cbn [negb snd]; [|tauto].
    destruct (existsb _ _) eqn:X; cbn [snd].
    + split; [tauto|]. apply existsb_exists in X as (y & Hy & X). apply Z.eqb_eq in X. rewrite <- X. apply in_map. exact Hy.
    + destruct (d_agid d) as [a|]; [|cbn; tauto]. destruct (String.eqb_spec a ""); [subst; cbn; tauto|].
      destruct (q_agid q) as [g|]; [|cbn; tauto]. destruct (String.eqb_spec a g); [subst; cbn; tauto|].
      cbn [snd]. split; [tauto|]. eauto 10.
  - destruct (existsb _ _) eqn:X; cbn [snd].
    + split; [tauto|]. apply existsb_exists in X as (y & Hy & X). apply Z.eqb_eq in X. rewrite <- X. apply in_map. exact Hy.
    + destruct (d_agid d) as [a|]; [|cbn; tauto]. destruct (String.eqb_spec a ""); [subst; cbn; tauto|].
      destruct (q_agid q) as [g|]; [|cbn; tauto]. destruct (String.eqb_spec a g); [subst; cbn; tauto|].
      cbn [snd]. split; [tauto|]. eauto 10.
Qed.

(** When a node that has a sequence does not turn the document away. *)
Lemma welcome_iff : forall s q d, rs_seq s = Some (Some q) -> rs_first s = Some (q_sid q) ->
  (~ turned_away (snd (consume s d)) <->
   snd (check_compat q d) = Ok tt \/ snd (check_compat q d) = Err ECollision).
Proof.
  intros s q d Hq Hf. unfold consume. rewrite Hf, Hq. cbn [limit_one].
  destruct (String.eqb_spec (q_sid q) (d_sid d)) as [E|N]; cbn [negb snd].
  - pose proof (add_checked q d) as A. pose proof (add_unchecked q d) as B. pose proof (check_cases q d) as C.
    destruct (snd (check_compat q d)) as [[]|e] eqn:K.
    + specialize (A eq_refl). destruct (add_document q d) as [q1 o]. cbn [snd] in *.
      split; [left; reflexivity|]. intros _ [H|[H|[H|H]]]; destruct o as [| |x]; try discriminate;
        destruct x; try discriminate; try (injection H as ->); intuition congruence.
    + rewrite (B e eq_refl). cbn [snd]. destruct e; try contradiction; cbn; split; intros H;
        try (destruct H as [H|H]; discriminate); try (exfalso; apply H; unfold turned_away; tauto); auto.
      intros [X|[X|[X|X]]]; discriminate.
  - split; [intros H; exfalso; apply H; left; reflexivity|].
    intros H. exfalso. apply N. pose proof (check_cases q d) as C.
    destruct H as [H|H]; rewrite H in C; apply C.
Qed.

(** The state of a consumer that has been fed [p], the first document of which
    had a clock. *)
Definition fed_state (p : list document) (s : rstate) : Prop :=
  match p with
  | [] => rs_seq s = None /\ rs_first s = None
  | x0 :: _ =>
      exists q, rs_seq s = Some (Some q) /\ rs_first s = Some (q_sid q) /\
        q_sid q = d_sid x0 /\ clock_of (d_tb x0) (d_cm x0) = Some (q_tb q, q_cm q) /\
        (forall x, In x (q_docs q) -> In x p) /\
        (q_agid q = None \/ exists y, In y p /\ d_agid y = q_agid q)
  end.

Lemma consume_kept : forall s q d, rs_seq s = Some (Some q) -> rs_first s = Some (q_sid q) ->
  exists q', rs_seq (fst (consume s d)) = Some (Some q') /\ rs_first (fst (consume s d)) = Some (q_sid q') /\
    (q' = q \/ (q_sid q = d_sid d /\ q' = fst (add_document q d))).
Proof.
  intros s q d Hq Hf. unfold consume. rewrite Hf, Hq. cbn [limit_one].
  destruct (String.eqb_spec (q_sid q) (d_sid d)) as [E|N]; cbn [negb fst].
  - destruct (add_document q d) as [q1 o] eqn:A. exists q1. cbn [fst rs_seq rs_first].
    destruct (add_shape _ _ _ _ A) as (_ & _ & S & _). rewrite S. auto.
  - exists q. auto.
Qed.

Lemma fed_state_snoc : forall p s x, fed_state p s -> (p = [] -> clocked x) ->
  fed_state (p ++ [x]) (fst (consume s x)).
Proof.
  intros [|x0 p] s x H Hc.
  - destruct H as [H1 H2]. specialize (Hc eq_refl). cbn [app fed_state].
    unfold clocked in Hc. destruct (clock_of (d_tb x) (d_cm x)) as [[tb cm]|] eqn:K; [|congruence].
    unfold consume. rewrite H1, H2. cbn [limit_one negb]. unfold sequence_of. rewrite K.
    destruct (add_document (new_sequence (d_sid x) tb cm (d_agid x)) x) as [q o] eqn:A.
    destruct (add_shape _ _ _ _ A) as (_ & _ & S1 & S2 & S3 & _). cbn in S1, S2, S3.
    exists q. cbn [fst rs_seq rs_first]. rewrite S1, S2, S3. repeat split; auto.
    + intros y Hy. pose proof (add_docs (new_sequence (d_sid x) tb cm (d_agid x)) x y) as D. rewrite A in D.
      destruct (D Hy) as [->|[]]. left. reflexivity.
    + right. exists x. split; [left; reflexivity|].
      pose proof (add_agid (new_sequence (d_sid x) tb cm (d_agid x)) x) as D. rewrite A in D. cbn in D. intuition congruence.
  - destruct H as (q & H1 & H2 & H3 & H4 & H5 & H6). cbn [app fed_state].
    destruct (consume_kept s q x H1 H2) as (q' & A & B & [->|(C & ->)]).
    + exists q. repeat split; auto.
      * intros y Hy. change (In y ((x0 :: p) ++ [x])). apply in_or_app. left. auto.
      * destruct H6 as [H6|(y & Hy & H6)]; auto. right. exists y. split; auto.
        change (In y ((x0 :: p) ++ [x])). apply in_or_app. auto.
    + destruct (add_document q x) as [q' o] eqn:D. cbn [fst] in *.
      destruct (add_shape _ _ _ _ D) as (_ & _ & S1 & S2 & S3 & _). exists q'. rewrite S1, S2, S3 in *. repeat split; auto.
      * intros y Hy. pose proof (add_docs q x y) as E. rewrite D in E.
        change (In y ((x0 :: p) ++ [x])). apply in_or_app. destruct (E Hy) as [->|E']; [right; left; auto|left; auto].
      * pose proof (add_agid q x) as E. rewrite D in E. cbn [fst] in E.
        change (q_agid q' = None \/ (exists y, In y ((x0 :: p) ++ [x]) /\ d_agid y = q_agid q')).
        destruct E as [E|[_ E]].
        -- rewrite E. destruct H6 as [H6|(y & Hy & H6)]; auto. right. exists y. split; auto. apply in_or_app. auto.
        -- right. exists x. split; auto. apply in_or_app. right. left. reflexivity.
Qed.

Definition after (start : Z) (p : list document) : rstate := fst (run consume (r0 start) p).

Lemma after_state : forall start p, (forall x r, p = x :: r -> clocked x) -> fed_state p (after start p).
Proof.
  intros start p. induction p as [|x p IH] using rev_ind; intros H.
  - cbn. auto.
  - unfold after. rewrite run_state_snoc. apply fed_state_snoc.
    + apply IH. intros y r ->. apply (H y (r ++ [x])%list). reflexivity.
    + intros ->. apply (H x []). reflexivity.
Qed.

Lemma fed_snoc : forall start p x, fed start (p ++ [x]) = (fed start p ++ [snd (consume (after start p) x)])%list.
Proof. intros. unfold fed, after. apply run_out_snoc. Qed.

Lemma first_unclocked : forall s x, rs_seq s = None -> rs_first s = None -> ~ clocked x ->
  snd (consume s x) = RAttribute.
Proof.
  intros s x H1 H2 Hc. unfold consume. rewrite H1, H2. cbn [limit_one negb]. unfold sequence_of, clocked in *.
  destruct (clock_of (d_tb x) (d_cm x)) as [p|]; [exfalso; apply Hc; discriminate|reflexivity].
Qed.

Lemma first_check : forall x tb cm, clock_of (d_tb x) (d_cm x) = Some (tb, cm) ->
  snd (check_compat (new_sequence (d_sid x) tb cm (d_agid x)) x) = Ok tt.
Proof.
  intros x tb cm K. pose proof (check_cases (new_sequence (d_sid x) tb cm (d_agid x)) x) as C.
  destruct (clock_of_some _ _ _ _ K) as [T M].
  destruct (snd _) as [[]|e]; auto. destruct e; try contradiction.
  - exfalso. apply C. unfold matching. cbn. split; auto. split; auto. intros E. apply M. congruence.
  - destruct C as [_ []].
  - destruct C as (_ & a & g & A & _ & B & N). cbn in B. congruence.
Qed.

Lemma first_welcome : forall s x, rs_seq s = None -> rs_first s = None -> clocked x ->
  ~ turned_away (snd (consume s x)).
Proof.
  intros s x H1 H2 Hc. unfold consume. rewrite H1, H2. cbn [limit_one negb]. unfold sequence_of, clocked in *.
  destruct (clock_of (d_tb x) (d_cm x)) as [[tb cm]|] eqn:K; [|congruence].
  pose proof (add_checked _ _ (first_check _ _ _ K)) as A.
  destruct (add_document _ _) as [q1 o]. cbn [snd] in *.
  intros [H|[H|[H|H]]]; destruct o as [| |e]; try discriminate;
    destruct e; try discriminate; try (injection H as ->); intuition congruence.
Qed.

Lemma same_clock_iff : forall x y, same_clock x y = true <-> d_tb x = d_tb y /\ (d_tb x = "clock" -> d_cm x = d_cm y).
Proof.
  intros x y. unfold same_clock. rewrite andb_true_iff, orb_true_iff, negb_true_iff, String.eqb_eq, String.eqb_neq.
  destruct (ostr_eqb_spec (d_cm x) (d_cm y)) as [E|N].
  - split; intros [A B]; split; auto.
  - split; intros [A B]; split; auto.
    intros C. destruct B as [B|B]; [congruence|discriminate].
Qed.

Theorem one_sequence_welcome : forall start ds, one_sequence ds -> Forall (fun r => ~ turned_away r) (fed start ds).
Proof.
  intros start ds. induction ds as [|x p IH] using rev_ind; intros [Hc Hs]; [constructor|].
  assert (Hp : one_sequence p).
  { split; [|intros y z Hy Hz; apply Hs]; intros; try apply Hc; apply in_or_app; auto. }
  rewrite fed_snoc. apply Forall_app. split; [auto|]. constructor; [|constructor].
  assert (A : fed_state p (after start p)).
  { apply after_state. intros y r ->. apply Hc. left. reflexivity. }
  destruct p as [|x0 p].
  - destruct A as [A1 A2]. apply first_welcome; auto. apply Hc. left. reflexivity.
  - destruct A as (q & A1 & A2 & A3 & A4 & A5 & A6). apply (welcome_iff _ q); auto.
    destruct (Hs x0 x) as (S1 & S2 & S3); [left; reflexivity|apply in_or_app; right; left; reflexivity|].
    apply same_clock_iff in S2 as [S2 S2']. destruct (clock_of_some _ _ _ _ A4) as [T M].
    pose proof (check_cases q x) as C. destruct (snd (check_compat q x)) as [[]|e]; auto. destruct e; try contradiction; auto.
    + exfalso. apply C. split; [congruence|]. split; [congruence|]. intros E. rewrite M by congruence. apply S2'. congruence.
    + destruct C as (_ & a & g & C1 & C2 & C3 & C4). destruct A6 as [A6|(y & Hy & A6)]; [congruence|].
      exfalso. apply C4. destruct (Hs x y) as (_ & _ & H); [apply in_or_app; right; left; auto|apply in_or_app; left; auto|].
      apply H; congruence.
Qed.

Lemma fed_clocked : forall start x r, Forall (fun r => ~ turned_away r) (fed start (x :: r)) -> clocked x.
Proof.
  intros start x r H K. unfold fed in H. cbn [run] in H.
  destruct (consume (r0 start) x) as [s1 o1] eqn:Y. destruct (run consume s1 r) as [s2 os]. cbn [snd] in H.
  apply Forall_inv in H. apply H. right. left.
  pose proof (first_unclocked (r0 start) x eq_refl eq_refl) as F. rewrite Y in F. apply F. unfold clocked. congruence.
Qed.

(** All documents of [p] agree with [q]. *)
Definition agreeing (q : seqstate) (p : list document) : Prop :=
  forall x, In x p -> matching q x /\ (d_agid x = None \/ d_agid x = q_agid q).

Lemma welcome_agreeing : forall start p, NoDup (map d_num p) -> (forall x, In x p -> d_agid x <> Some "") ->
  Forall (fun r => ~ turned_away r) (fed start p) ->
  p = [] \/ exists q, rs_seq (after start p) = Some (Some q) /\ agreeing q p.
Proof.
  intros start p. induction p as [|x p IH] using rev_ind; [auto|]. intros Hn Hg Hw. right.
  rewrite map_app in Hn. cbn [map] in Hn.
  rewrite fed_snoc in Hw. apply Forall_app in Hw as [Hw1 Hw2]. apply Forall_inv in Hw2.
  assert (Hn1 : NoDup (map d_num p) /\ ~ In (d_num x) (map d_num p)).
  { apply NoDup_remove in Hn. rewrite app_nil_r in Hn. exact Hn. }
  assert (Hg1 : forall y, In y p -> d_agid y <> Some "") by (intros; apply Hg; apply in_or_app; auto).
  assert (Hgx : d_agid x <> Some "") by (apply Hg; apply in_or_app; right; left; auto).
  unfold after. rewrite run_state_snoc. fold (after start p).
  destruct (IH (proj1 Hn1) Hg1 Hw1) as [->|(q & Q1 & Q2)].
  - assert (Hc : clocked x).
    { unfold clocked. intros K. apply Hw2. right. left. apply first_unclocked; auto. }
    pose proof (after_state start [] ltac:(intros; discriminate)) as A.
    destruct (fed_state_snoc [] _ x A (fun _ => Hc)) as (q & B1 & _ & B3 & B4 & _ & _).
    exists q. split; auto. destruct (clock_of_some _ _ _ _ B4) as [T M].
    intros y [<-|[]]. split; [split; auto; split; [auto|intros E; apply M; congruence]|].
    unfold consume in B1. destruct A as [A1 A2]. rewrite A1, A2 in B1. cbn [limit_one negb] in B1.
    unfold sequence_of in B1. rewrite B4 in B1.
    pose proof (add_agid (new_sequence (d_sid x) (q_tb q) (q_cm q) (d_agid x)) x) as D.
    destruct (add_document _ x) as [q1 o]. cbn [fst rs_seq] in B1. injection B1 as ->. cbn in D. intuition congruence.
  - assert (Hx0 : forall y r, p = y :: r -> clocked y).
    { intros y r ->. exact (fed_clocked _ _ _ Hw1). }
    pose proof (after_state start p Hx0) as A. destruct p as [|x0 p].
    { cbn in Q1. discriminate. }
    destruct A as (q0 & A1 & A2 & A3 & A4 & A5 & A6). rewrite Q1 in A1. injection A1 as <-.
    apply (welcome_iff _ q) in Hw2; auto.
    assert (Hk : snd (check_compat q x) = Ok tt).
    { destruct Hw2 as [H|H]; auto. pose proof (check_cases q x) as C. rewrite H in C. destruct C as [_ C].
      exfalso. apply (proj2 Hn1). apply in_map_iff in C as (y & E & Hy). rewrite <- E. apply in_map. auto. }
    assert (Hm : matching q x) by (pose proof (check_cases q x) as C; rewrite Hk in C; apply C).
    destruct (consume_kept _ q x Q1 A2) as (q' & B1 & B2 & B3). exists q'. split; auto.
    assert (Q' : q' = fst (add_document q x)).
    { clear B3. unfold consume in B1. rewrite A2, Q1 in B1. cbn [limit_one] in B1. rewrite (proj1 Hm), String.eqb_refl in B1.
      cbn [negb] in B1. destruct (add_document q x). cbn in B1. injection B1 as ->. reflexivity. }
    subst q'. clear B3. destruct (add_document q x) as [q' o] eqn:D. cbn [fst] in *.
    destruct (add_shape _ _ _ _ D) as (_ & _ & S1 & S2 & S3 & _).
    assert (MM : forall y, matching q y -> matching q' y) by (unfold matching; rewrite S1, S2, S3; auto).
    pose proof (add_agid q x) as E. rewrite D in E. cbn [fst] in E.
    intros y Hy. apply in_app_or in Hy as [Hy|[<-|[]]].
    + destruct (Q2 y Hy) as [Y1 Y2]. split; [apply MM; exact Y1|].
      destruct Y2 as [Y2|Y2]; auto. destruct E as [E|[E1 E2]]; [right; congruence|left; congruence].
    + split; [apply MM; exact Hm|].
      pose proof (add_joined q x Hk Hgx) as J. rewrite D in J. exact J.
Qed.

Theorem welcome_one_sequence : forall start ds, NoDup (map d_num ds) -> (forall x, In x ds -> d_agid x <> Some "") ->
  Forall (fun r => ~ turned_away r) (fed start ds) -> one_sequence ds.
Proof.
  intros start ds Hn Hg Hw. destruct (welcome_agreeing start ds Hn Hg Hw) as [->|(q & Q1 & Q2)].
  { split; intros; contradiction. }
  assert (Hx0 : forall y r, ds = y :: r -> clocked y).
  { intros y r ->. exact (fed_clocked _ _ _ Hw). }
  pose proof (after_state start ds Hx0) as A. destruct ds as [|x0 p]; [split; intros; contradiction|].
  destruct A as (q0 & A1 & _ & A3 & A4 & _). rewrite Q1 in A1. injection A1 as <-.
  destruct (clock_of_some _ _ _ _ A4) as [T M]. split.
  - intros x Hx. destruct (Q2 x Hx) as [(_ & B & C) _]. unfold clocked. rewrite <- B.
    rewrite (clock_of_again _ _ _ _ A4); [discriminate|]. intros E. symmetry. auto.
  - intros x y Hx Hy. destruct (Q2 x Hx) as [(X1 & X2 & X3) X4]. destruct (Q2 y Hy) as [(Y1 & Y2 & Y3) Y4].
    split; [congruence|]. split.
    + apply same_clock_iff. split; [congruence|]. intros E. rewrite <- X3, <- Y3; congruence.
    + intros a b Ha Hb. destruct X4 as [X4|X4], Y4 as [Y4|Y4]; congruence.
Qed.
