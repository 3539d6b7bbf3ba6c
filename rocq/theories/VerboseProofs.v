(** Proofs about the log of a verbose sequence. *)

From Coq Require Import List ZArith String Bool Lia.
From Verif Require Import SequenceModel SequenceSpec SequenceProofs SequenceHistory TimelineModel PropsTimeline VerboseModel VerboseSpec.
Import ListNotations.
Open Scope Z_scope.

(** ** Lines of a paragraph *)

Lemma to_lines_cont b e cls lb le cb ce l :
  to_lines b e (PCont cls lb le cb ce l) =
  match all_lines b e l with
  | Some ls => Some (joined (header cls lb le cb ce b e ++ ls))
  | None => None
  end.
Proof.
  cbn [to_lines]. match goal with |- match ?f l with _ => _ end = _ => assert (E : forall m, f m = all_lines b e m) end.
  { induction m as [|y m IH]; [reflexivity|]. cbn [all_lines]. rewrite <- IH. reflexivity. }
  rewrite E. reflexivity.
Qed.

(** Induction over pieces. *)
Lemma piece_ind' (P : piece -> Prop) :
  (forall s, P (PText s)) -> P PBr -> P PMeta ->
  (forall cls b e cb ce l, Forall P l -> P (PCont cls b e cb ce l)) -> forall x, P x.
Proof.
  intros H1 H2 H3 H4. fix IH 1. intros [s| | |cls b e cb ce l]; [apply H1|apply H2|apply H3|apply H4].
  induction l as [|y l IHl]; constructor; [apply IH|exact IHl].
Qed.

Lemma all_none b e l : all_lines b e l = None <-> exists x, In x l /\ to_lines b e x = None.
Proof.
  induction l as [|y l IH]; cbn [all_lines].
  - split; [discriminate|intros (x & [] & _)].
  - destruct (to_lines b e y) eqn:E.
    + destruct (all_lines b e l) eqn:A.
      * split; [discriminate|]. intros (x & [<-|Hx] & Hn); [congruence|].
        assert (Some l1 = None) by (apply IH; eauto). discriminate.
      * split; [|reflexivity]. intros _. destruct (proj1 IH eq_refl) as (x & Hx & Hn). exists x. split; [right|]; assumption.
    + split; [|reflexivity]. intros _. exists y. split; [left; reflexivity|assumption].
Qed.

Lemma to_lines_none b e x : to_lines b e x = None <-> meta_in x.
Proof.
  induction x as [s| | |cls lb le cb ce l IH] using piece_ind'.
  - split; [discriminate|intros H; inversion H].
  - split; [discriminate|intros H; inversion H].
  - split; [constructor|reflexivity].
  - rewrite to_lines_cont. rewrite Forall_forall in IH. split.
    + intros H. destruct (all_lines b e l) eqn:A; [discriminate|].
      apply all_none in A. destruct A as (x & Hx & Hn). eapply MetaDeeper; [eassumption|]. apply (IH x Hx). assumption.
    + intros H. inversion H as [|? ? ? ? ? ? x Hx Hm]; subst.
      replace (all_lines b e l) with (@None (list line)); [reflexivity|]. symmetry. apply all_none. exists x.
      split; [assumption|]. apply (IH x Hx). assumption.
Qed.

Lemma all_lines_none b e l : all_lines b e l = None <-> exists x, In x l /\ meta_in x.
Proof. rewrite all_none. split; intros (x & Hx & H); exists x; (split; [assumption|]); now apply to_lines_none in H || apply to_lines_none. Qed.

Lemma line_texts_joined l : line_texts (joined l) = line_texts l.
Proof. destruct l; reflexivity. Qed.
Lemma line_times_joined l : line_times (joined l) = line_times l.
Proof. destruct l; reflexivity. Qed.
Lemma line_texts_app l m : line_texts (l ++ m) = line_texts l ++ line_texts m.
Proof. apply flat_map_app. Qed.
Lemma line_times_app l m : line_times (l ++ m) = line_times l ++ line_times m.
Proof. apply flat_map_app. Qed.

Lemma header_texts cls lb le cb ce b e : line_texts (header cls lb le cb ce b e) = [].
Proof. unfold header. destruct e as [z|]; [|reflexivity]. destruct (z <=? cb); reflexivity. Qed.

Lemma all_lines_texts b e : forall l ls,
  Forall (fun x => forall ls, to_lines b e x = Some ls -> line_texts ls = texts x) l ->
  all_lines b e l = Some ls -> line_texts ls = flat_map texts l.
Proof.
  induction l as [|y l IH]; intros ls F H; cbn [all_lines] in H.
  - injection H as <-. reflexivity.
  - inversion F as [|? ? F1 F2]; subst. destruct (to_lines b e y) eqn:E; [|discriminate].
    destruct (all_lines b e l) eqn:A; [|discriminate]. injection H as <-.
    rewrite line_texts_app, (F1 _ eq_refl), (IH _ F2 eq_refl). reflexivity.
Qed.

Lemma to_lines_texts b e x : forall ls, to_lines b e x = Some ls -> line_texts ls = texts x.
Proof.
  induction x as [s| | |cls lb le cb ce l IH] using piece_ind'; intros ls H; try (injection H as <-; reflexivity); [discriminate|].
  rewrite to_lines_cont in H. destruct (all_lines b e l) eqn:A; [|discriminate]. injection H as <-.
  rewrite line_texts_joined, line_texts_app, header_texts. cbn [texts]. exact (all_lines_texts _ _ _ _ IH A).
Qed.

(** A line tells the part of an element that is in the range. *)
Definition told (b : option Z) (z : Z) (w : who) (x : who * option (Z * Z)) : Prop :=
  fst x = w /\ (snd x = None <-> z <= (let '(_, _, _, cb, _) := w in cb))
  /\ forall t, within (snd x) t <-> after_begin b t /\ t < z /\ on_screen w t.

Lemma header_told cls lb le cb ce b z :
  exists x, line_times (header cls lb le cb ce b (Some z)) = [x] /\ told b z (cls, lb, le, cb, ce) x.
Proof.
  unfold header. destruct (Z.leb_spec z cb) as [Hle|Hgt].
  - eexists. split; [reflexivity|]. split; [reflexivity|]. split; [cbn; tauto|].
    intros t. cbn. split; [tauto|]. lia.
  - eexists. split; [reflexivity|]. split; [reflexivity|]. split; [cbn; split; [discriminate|lia]|].
    intros t. cbn. unfold after_begin, before_end.
    destruct b as [x|]; [destruct (Z.ltb_spec cb x)|]; (destruct ce as [y|]; [destruct (Z.ltb_spec z y)|]); lia.
Qed.

Lemma all_lines_times b z : forall l ls,
  Forall (fun x => forall ls, to_lines b (Some z) x = Some ls -> Forall2 (told b z) (timed x) (line_times ls)) l ->
  all_lines b (Some z) l = Some ls -> Forall2 (told b z) (flat_map timed l) (line_times ls).
Proof.
  induction l as [|y l IH]; intros ls F H; cbn [all_lines] in H.
  - injection H as <-. constructor.
  - inversion F as [|? ? F1 F2]; subst. destruct (to_lines b (Some z) y) eqn:E; [|discriminate].
    destruct (all_lines b (Some z) l) eqn:A; [|discriminate]. injection H as <-.
    rewrite line_times_app. cbn [flat_map]. apply Forall2_app; [apply F1; reflexivity|apply IH; auto].
Qed.

Lemma to_lines_times b z x : forall ls, to_lines b (Some z) x = Some ls -> Forall2 (told b z) (timed x) (line_times ls).
Proof.
  induction x as [s| | |cls lb le cb ce l IH] using piece_ind'; intros ls H; try (injection H as <-; constructor); [discriminate|].
  rewrite to_lines_cont in H. destruct (all_lines b (Some z) l) eqn:A; [|discriminate].
  assert (E : ls = joined (header cls lb le cb ce b (Some z) ++ l0)) by congruence. rewrite E.
  rewrite line_times_joined, line_times_app. cbn [timed].
  destruct (header_told cls lb le cb ce b z) as (y & Hy & T). rewrite Hy. constructor; [assumption|].
  exact (all_lines_times _ _ _ _ IH A).
Qed.

Lemma all_lines_no_times b : forall l ls,
  Forall (fun x => forall ls, to_lines b None x = Some ls -> line_times ls = []) l ->
  all_lines b None l = Some ls -> line_times ls = [].
Proof.
  induction l as [|y l IH]; intros ls F H; cbn [all_lines] in H.
  - injection H as <-. reflexivity.
  - inversion F as [|? ? F1 F2]; subst. destruct (to_lines b None y) eqn:E; [|discriminate].
    destruct (all_lines b None l) eqn:A; [|discriminate]. injection H as <-.
    rewrite line_times_app, (F1 _ eq_refl), (IH _ F2 eq_refl). reflexivity.
Qed.

Lemma to_lines_no_times b x : forall ls, to_lines b None x = Some ls -> line_times ls = [].
Proof.
  induction x as [s| | |cls lb le cb ce l IH] using piece_ind'; intros ls H; try (injection H as <-; reflexivity); [discriminate|].
  rewrite to_lines_cont in H. destruct (all_lines b None l) eqn:A; [|discriminate]. injection H as <-.
  rewrite line_times_joined. cbn [header app]. exact (all_lines_no_times _ _ _ IH A).
Qed.

(** ** Lines of a document *)

Lemma in_paragraphs els ns p :
  In p (paragraphs els ns) <-> exists n x, In n ns /\ nth_error els n = Some x /\ para x = Some p.
Proof.
  induction ns as [|n ns IH]; cbn [paragraphs].
  - split; [intros []|intros (? & ? & [] & _)].
  - destruct (nth_error els n) as [x|] eqn:E.
    + destruct (para x) as [q|] eqn:P.
      * cbn [In]. rewrite IH. split.
        -- intros [<-|(m & y & H1 & H2 & H3)]; [exists n, x|exists m, y]; auto.
        -- intros (m & y & [<-|H1] & H2 & H3); [left; congruence|right; exists m, y; auto].
      * rewrite IH. split; intros (m & y & H1 & H2 & H3); exists m, y; cbn [In] in *; [auto|].
        destruct H1 as [<-|H1]; [congruence|auto].
    + rewrite IH. split; intros (m & y & H1 & H2 & H3); exists m, y; cbn [In] in *; [auto|].
      destruct H1 as [<-|H1]; [congruence|auto].
Qed.

Lemma affected_all l n : In n (affected l None None) <-> exists x, nth_error l n = Some x.
Proof.
  rewrite C48_lookup. split.
  - intros (cb & ce & H & _). eauto.
  - intros ([cb ce] & H). exists cb, ce. split; [assumption|]. split; [exact Logic.I|].
    intros x -> (_ & [] & _).
Qed.

Lemma doc_lines_none els rb re :
  doc_lines els rb re None None = None <-> exists x p, In x els /\ para x = Some p /\ meta_in p.
Proof.
  unfold doc_lines. rewrite all_lines_none. split.
  - intros (p & Hp & Hm). apply in_paragraphs in Hp. destruct Hp as (n & x & _ & Hx & Hq). exists x, p.
    split; [eapply nth_error_In; eassumption|auto].
  - intros (x & p & Hx & Hp & Hm). exists p. split; [|assumption]. apply in_paragraphs.
    apply In_nth_error in Hx. destruct Hx as (n & Hn). exists n, x. split; [|auto].
    apply affected_all. exists (el_times x). apply map_nth_error. assumption.
Qed.

Lemma doc_lines_plain V d rb re b e : plain_doc V d -> exists ls, doc_lines (V (d_obj d)) rb re b e = Some ls.
Proof.
  intros H. destruct (doc_lines (V (d_obj d)) rb re b e) eqn:E; [eauto|exfalso].
  unfold doc_lines in E. apply all_lines_none in E. destruct E as (p & Hp & Hm). apply in_paragraphs in Hp.
  destruct Hp as (n & x & _ & Hx & Hq). eapply H; try eassumption. eapply nth_error_In; eassumption.
Qed.

Lemma affected_before l z : (forall x, In x l -> z <= fst x) -> affected l None (Some z) = [].
Proof.
  intros H. destruct (affected l None (Some z)) as [|n r] eqn:E; [reflexivity|exfalso].
  assert (Hn : In n (affected l None (Some z))) by (rewrite E; left; reflexivity).
  apply C48_lookup in Hn. destruct Hn as (cb & ce & Hx & Hlt & _). apply nth_error_In in Hx. specialize (H _ Hx). cbn in H. lia.
Qed.

Lemma doc_lines_discarded V d rb re z :
  timed_inside V d -> z <= d_begin d -> doc_lines (V (d_obj d)) rb re None (Some z) = Some [].
Proof.
  intros H Hz. unfold doc_lines. rewrite affected_before; [reflexivity|].
  intros x Hx. apply in_map_iff in Hx. destruct Hx as (y & <- & Hy). specialize (H y Hy). lia.
Qed.

(** ** The sequence *)

Lemma print_ok V s d b e rb re :
  resolved_begin s d = Ok rb -> resolved_end s d = Ok re -> plain_doc V d -> exists ls, print V s d b e = inl ls.
Proof.
  intros H1 H2 H3. unfold print. rewrite H1, H2. destruct (doc_lines_plain V d rb re b e H3) as (ls & E). rewrite E. eauto.
Qed.

Lemma print_meta V s d rb re :
  resolved_begin s d = Ok rb -> resolved_end s d = Ok re -> meta_doc V d -> print V s d None None = inr VAttribute.
Proof.
  intros H1 H2 H3. unfold print. rewrite H1, H2.
  replace (doc_lines (V (d_obj d)) rb re None None) with (@None (list line)); [reflexivity|].
  symmetry. apply doc_lines_none. exact H3.
Qed.

Lemma disc_lookup_new s d e b l : q_disc s = (d_obj d, e, b) :: l -> disc_lookup s d = Some (b, e).
Proof. intros H. unfold disc_lookup. rewrite H. cbn. rewrite Z.eqb_refl. reflexivity. Qed.

Lemma discard_print V s d z s' b e :
  discard_document s d z = Ok s' ->
  print V s' d b e = match doc_lines (V (d_obj d)) (d_begin d) (Some z) b e with Some ls => inl ls | None => inr VAttribute end.
Proof.
  intros H. unfold discard_document in H. destruct (z >? d_begin d); [discriminate|]. injection H as <-.
  unfold print, resolved_begin, resolved_end.
  erewrite disc_lookup_new by reflexivity. reflexivity.
Qed.

Lemma sim_discard V s d z s' :
  discard_document s d z = Ok s' -> plain_doc V d -> exists lg, v_discard_document V s d z = (s', inl lg).
Proof.
  intros H P. unfold v_discard_document. rewrite H, (discard_print V _ _ _ _ None (Some z) H).
  destruct (doc_lines_plain V d (d_begin d) (Some z) None (Some z) P) as (ls & ->). eauto.
Qed.

Lemma sim_discard_inside V s d z s' :
  discard_document s d z = Ok s' -> timed_inside V d -> v_discard_document V s d z = (s', inl [Discarded (d_num d) []]).
Proof.
  intros H P. unfold v_discard_document. rewrite H, (discard_print V _ _ _ _ None (Some z) H).
  rewrite doc_lines_discarded; [reflexivity|assumption|].
  unfold discard_document in H. destruct (Z.gtb_spec z (d_begin d)); [discriminate|lia].
Qed.

Lemma sim_discard_all V z ds : forall s s',
  discard_all s ds z = (s', Ok tt) -> (forall x, In x ds -> plain_doc V x) -> exists lg, v_discard_all V s ds z = (s', inl lg).
Proof.
  induction ds as [|d ds IH]; intros s s' H P; cbn [discard_all v_discard_all] in *.
  - injection H as <-. eauto.
  - destruct (discard_document s d z) as [s1|] eqn:E; [|discriminate].
    destruct (sim_discard V _ _ _ _ E (P d (or_introl eq_refl))) as (lg & ->).
    destruct (IH _ _ H) as (lg' & ->); [intros x Hx; apply P; right; assumption|]. eauto.
Qed.

Lemma collect_from skip : forall evs ds is x,
  In x (fst (collect skip evs ds is)) -> In x ds \/ exists p, In p evs /\ ev_elem (snd p) = x.
Proof.
  induction evs as [|[i it] r IH]; intros ds is x H; cbn [collect] in H; [auto|].
  destruct (skip it ds).
  - destruct (IH _ _ _ H) as [H1|(p & Hp & E)]; [auto|]. right. exists p. split; [right|]; assumption.
  - destruct (IH _ _ _ H) as [H1|(p & Hp & E)].
    + destruct (existsb (doc_same (ev_elem it)) ds); [auto|]. apply in_app_iff in H1. destruct H1 as [H1|[<-|[]]]; [auto|].
      right. exists (i, it). split; [left|]; reflexivity.
    + right. exists p. split; [right|]; assumption.
Qed.

Lemma enum_from_in {A} (l : list A) : forall n p, In p (enum_from n l) -> In (snd p) l.
Proof. induction l as [|x l IH]; intros n p H; [destruct H|]. destruct H as [<-|H]; [left; reflexivity|right; eapply IH; eassumption]. Qed.

Lemma sim_override V s d s' :
  override_sequence s d = (s', Ok tt) -> (forall ev, In ev (q_tl s) -> plain_doc V (ev_elem ev)) ->
  exists lg, v_override_sequence V s d = (s', inl lg).
Proof.
  intros H P. unfold override_sequence in H. unfold v_override_sequence.
  set (skip := fun (it : event document) (ds : list document) => _) in *.
  pose proof (collect_from skip (irange_from (d_begin d) (q_tl s)) [] []) as C.
  destruct (collect skip (irange_from (d_begin d) (q_tl s)) [] []) as [ds is].
  destruct (discard_all s ds (d_begin d)) as [s1 [[]|]] eqn:E; [|discriminate].
  destruct (sim_discard_all V _ _ _ _ E) as (lg & ->).
  - intros x Hx. destruct (C x Hx) as [[]|(p & Hp & <-)]. apply P. unfold irange_from in Hp.
    apply filter_In in Hp. destruct Hp as [Hp _]. eapply enum_from_in; eassumption.
  - injection H as <-. eauto.
Qed.

Lemma sim_before V s d s' :
  discard_before s d = (s', Ok tt) -> (forall ev, In ev (q_tl s) -> plain_doc V (ev_elem ev)) ->
  exists lg, v_discard_before V s d = (s', inl lg).
Proof.
  intros H P. unfold discard_before in H. unfold v_discard_before.
  set (skip := fun (it : event document) (_ : list document) => _) in *.
  pose proof (collect_from skip (filter (fun p => ev_when (snd p) <=? d_begin d) (enum_from 0 (q_tl s))) [] []) as C.
  destruct (collect skip (filter (fun p => ev_when (snd p) <=? d_begin d) (enum_from 0 (q_tl s))) [] []) as [ds is].
  destruct (discard_all s ds 0) as [s1 [[]|]] eqn:E; [|discriminate].
  destruct (sim_discard_all V _ _ _ _ E) as (lg & ->).
  - intros x Hx. destruct (C x Hx) as [[]|(p & Hp & <-)]. apply P.
    apply filter_In in Hp. destruct Hp as [Hp _]. eapply enum_from_in; eassumption.
  - injection H as <-. eauto.
Qed.

(** Events of other documents have no influence on where a document is. *)
Lemma irange_snd {A} m (l : list (event A)) : map snd (irange_from m l) = filter (fun e => m <=? ev_when e) l.
Proof.
  unfold irange_from. generalize 0%nat. induction l as [|x l IH]; intros n; [reflexivity|]. cbn.
  destruct (m <=? ev_when x); cbn; rewrite IH; reflexivity.
Qed.

Lemma filter_snd {A B} (f : B -> bool) (l : list (A * B)) : map snd (filter (fun p => f (snd p)) l) = filter f (map snd l).
Proof. induction l as [|x l IH]; [reflexivity|]. cbn. destruct (f (snd x)); cbn; rewrite IH; reflexivity. Qed.

Definition is_kind (k : ekind) (e : event document) : bool :=
  match k, ev_kind e with KBegin, KBegin => true | KEnd, KEnd => true | _, _ => false end.

Lemma locate_list k s d :
  locate k s d = hd_error (filter (fun e => doc_eqb (ev_elem e) d && is_kind k e) (filter (fun e => d_begin d <=? ev_when e) (q_tl s))).
Proof.
  unfold locate. rewrite <- irange_snd, <- filter_snd. unfold is_kind.
  destruct (filter _ (irange_from (d_begin d) (q_tl s))); reflexivity.
Qed.

Lemma filter_tl_add (f : event document -> bool) e l : f e = false -> filter f (tl_add e l) = filter f l.
Proof.
  intros H. induction l as [|x l IH]; cbn.
  - rewrite H. reflexivity.
  - destruct (ev_when x <=? ev_when e); cbn; [rewrite IH; reflexivity|]. rewrite H. reflexivity.
Qed.

Lemma filter_filter {A} (f g : A -> bool) l : filter f (filter g l) = filter (fun x => g x && f x) l.
Proof. induction l as [|x l IH]; [reflexivity|]. cbn. destruct (g x); cbn; rewrite IH; reflexivity. Qed.

Lemma locate_inserted k s d e p :
  d_num d <> d_num p -> locate k (insert_document s d e) p = locate k s p.
Proof.
  intros H. rewrite !locate_list, !filter_filter. f_equal. unfold insert_document. cbn [q_tl set_store].
  set (f := fun x : event document => _ && _).
  assert (F : forall kk w, f (mkEvent kk w d) = false).
  { intros kk w. unfold f. cbn. unfold doc_eqb. destruct (Z.eqb_spec (d_num d) (d_num p)); [contradiction|].
    rewrite andb_false_r. reflexivity. }
  destruct e; rewrite ?filter_tl_add; unfold ev_begin; rewrite ?filter_tl_add; auto.
Qed.

Lemma docs_add_in d l x : In x (docs_add d l) <-> x = d \/ In x l.
Proof.
  induction l as [|y l IH]; cbn; [split; intros [->|[]]; auto|].
  destruct (d_num y <=? d_num d); cbn; [rewrite IH|]; intuition.
Qed.

Lemma stored_of s x : In x (q_docs s) -> stored s x = true.
Proof. intros H. apply existsb_exists. exists x. split; [assumption|apply doc_same_refl]. Qed.

Lemma resolved_inserted s d e p :
  In p (q_docs s) -> d_num d <> d_num p ->
  resolved_begin (insert_document s d e) p = resolved_begin s p /\ resolved_end (insert_document s d e) p = resolved_end s p.
Proof.
  intros Hp Hn. assert (D : disc_lookup (insert_document s d e) p = disc_lookup s p) by reflexivity.
  assert (S1 : stored s p = true) by (apply stored_of; assumption).
  assert (S2 : stored (insert_document s d e) p = true) by (apply stored_of; cbn; apply docs_add_in; auto).
  unfold resolved_begin, resolved_end, seq_resolved_begin, seq_resolved_end. rewrite D, S1, S2, !locate_inserted by assumption. auto.
Qed.

(** The insertion with the log, split up. *)
Definition mid_state (s : seqstate) (d : document) (b : event document) (ea : option (nat * event document)) : seqstate :=
  set_store s (q_docs s)
    (match ea with
     | Some (i, it) => tl_add (mkEvent KEnd (d_begin d) (ev_elem it)) (remove_at i (q_tl s))
     | None => tl_add (mkEvent KEnd (d_begin d) (ev_elem b)) (q_tl s)
     end).

Lemma scan_back_in d : forall evs ef b, scan_back d ef evs = SOk (Some b) -> In b evs.
Proof.
  induction evs as [|it r IH]; intros ef b H; cbn [scan_back] in H; [discriminate|].
  destruct (d_num (ev_elem it) >? d_num d); [discriminate|]. destruct (ev_kind it).
  - destruct ef as [f|]; [destruct (doc_eqb _ _); [discriminate|]|]; injection H as <-; left; reflexivity.
  - destruct ef; [discriminate|]. right. eapply IH; eassumption.
Qed.

Lemma sim_insert V s d s' :
  insert_or_discard s d = IInserted s' ->
  (forall ev, In ev (q_tl s) -> In (ev_elem ev) (q_docs s)) ->
  (forall x, In x (q_docs s) -> d_num x <> d_num d) ->
  (forall x, In x (q_docs s') -> exists ls, print V s' x None None = inl ls) ->
  exists lg, v_insert_or_discard V s d = VDone s' (inl lg).
Proof.
  intros H Hev Hnum Hp. unfold insert_or_discard in H. unfold v_insert_or_discard.
  destruct (scan_back d None (rev (irange_upto (Some (d_begin d)) (q_tl s)))) as [bb| |] eqn:B; try discriminate.
  destruct (scan_fwd _ _ _ _ _) as [ea tr| | |]; try discriminate. injection H as H.
  set (te := match tr with Some w => Some w | None => d_end d end) in *.
  assert (Hd : In d (q_docs s')) by (rewrite <- H; cbn; apply docs_add_in; auto).
  destruct bb as [b|].
  - cbv zeta. fold (mid_state s d b ea) in *.
    assert (Hb : In (ev_elem b) (q_docs s)).
    { apply Hev. apply scan_back_in in B. apply in_rev in B. cbn in B. apply filter_In in B. tauto. }
    assert (Hb' : In (ev_elem b) (q_docs s')) by (rewrite <- H; cbn; apply docs_add_in; auto).
    destruct (Hp _ Hb') as (ls & E).
    assert (E1 : print V (mid_state s d b ea) (ev_elem b) None None = inl ls).
    { rewrite <- E. unfold print. rewrite <- H.
      destruct (resolved_inserted (mid_state s d b ea) d te (ev_elem b)) as [-> ->]; [assumption| |reflexivity].
      intros N. apply (Hnum _ Hb). auto. }
    change (set_store s (q_docs s) match ea with
       | Some (i, it) => tl_add (mkEvent KEnd (d_begin d) (ev_elem it)) (remove_at i (q_tl s))
       | None => tl_add (mkEvent KEnd (d_begin d) (ev_elem b)) (q_tl s) end) with (mid_state s d b ea) in *.
    rewrite E1. unfold v_insert_document. destruct (Hp _ Hd) as (ls' & E'). rewrite H, E'. eauto.
  - unfold v_insert_document. cbv zeta. replace (set_store s (q_docs s) (q_tl s)) with s in H by (destruct s; reflexivity).
    rewrite H. destruct (Hp _ Hd) as (ls' & ->). eauto.
Qed.

Lemma flat_elem bs ev : In ev (flat bs) -> In (ev_elem ev) (map fst bs).
Proof.
  induction bs as [|b bs IH]; [intros []|]. rewrite flat_cons, in_app_iff. intros [H|H]; [left|right; auto].
  unfold blk_events in H. destruct (snd b); cbn in H; [destruct H as [<-|[<-|[]]]|destruct H as [<-|[]]]; reflexivity.
Qed.

Lemma bump_resolved s d x :
  resolved_begin (bump_last s d) x = resolved_begin s x /\ resolved_end (bump_last s d) x = resolved_end s x.
Proof. unfold bump_last. destruct (d_num d >? q_last s); split; reflexivity. Qed.

Lemma bump_docs s d : q_docs (bump_last s d) = q_docs s.
Proof. unfold bump_last. destruct (d_num d >? q_last s); reflexivity. Qed.

Lemma known_print V a h sid tb cm g s bs : known a h sid tb cm g s bs ->
  (forall x, In x h -> plain_doc V x) -> forall x, In x (q_docs s) -> exists ls, print V s x None None = inl ls.
Proof.
  intros K P x Hx. pose proof (kn_hinv _ _ _ _ _ _ _ _ K) as Hi. rewrite (rep_docs _ _ (hi_rep _ _ _ _ Hi)) in Hx.
  apply in_map_iff in Hx. destruct Hx as ([p e] & E & Hin). cbn in E. subst p.
  destruct (known_resolved _ _ _ _ _ _ _ _ _ _ K Hin) as [H1 H2].
  eapply print_ok; try eassumption. apply P. apply (hi_sub _ _ _ _ Hi _ Hin).
Qed.

Lemma bump_print V s d x b e : print V (bump_last s d) x b e = print V s x b e.
Proof. unfold print. destruct (bump_resolved s d x) as [-> ->]. reflexivity. Qed.

Lemma known_add sid tb cm g a h s bs d :
  known a h sid tb cm g s bs -> belongs sid tb cm g d -> doc_wf d -> late_ok h d ->
  ~ In (d_num d) (map d_num h) -> ~ In (d_obj d) (map d_obj a) ->
  exists s' o bs', add_document s d = (s', o) /\ known (a ++ [d]) (h ++ [d]) sid tb cm g s' bs' /\
    ((o = ODiscarded /\ dominated h d) \/ (o = OInserted /\ ~ dominated h d)).
Proof.
  intros [Hi Hs Hw Hn Ho] Hb Hwd Hl Hnd Hod.
  destruct (add_step sid tb cm g a h s bs d Hi Hs Hb Hwd Ho Hod Hnd Hl) as (s1 & o & bs1 & Hadd & Hi1 & Hs1 & Hoc).
  exists s1, o, bs1. split; [assumption|]. split; [|assumption]. constructor; try assumption.
  - apply Forall_app. auto.
  - rewrite map_app. apply NoDup_snoc; assumption.
  - rewrite map_app. apply NoDup_snoc; assumption.
Qed.

Lemma known_compat sid tb cm g a h s bs d :
  known a h sid tb cm g s bs -> belongs sid tb cm g d -> ~ In (d_num d) (map d_num h) ->
  exists ag, check_compat s d = (set_agid s ag, Ok tt) /\ (ag = None \/ ag = Some g).
Proof.
  intros K Hb Hnd. apply (check_compat_ok sid tb cm g); [apply (kn_sane _ _ _ _ _ _ _ _ K)|assumption|].
  pose proof (kn_hinv _ _ _ _ _ _ _ _ K) as Hi. rewrite (rep_docs _ _ (hi_rep _ _ _ _ Hi)).
  intros Hin. apply Hnd. apply in_map_iff in Hin. destruct Hin as (x & E & Hx). apply in_map_iff in Hx.
  destruct Hx as (b & <- & Hb'). rewrite <- E. apply in_map. apply (hi_sub _ _ _ _ Hi _ Hb').
Qed.

Lemma sim_add V sid tb cm g a h s bs d :
  known a h sid tb cm g s bs -> belongs sid tb cm g d -> doc_wf d -> late_ok h d ->
  ~ In (d_num d) (map d_num h) -> ~ In (d_obj d) (map d_obj a) ->
  (forall x, In x (h ++ [d]) -> plain_doc V x) ->
  exists s' o bs' lg, add_document s d = (s', o) /\ known (a ++ [d]) (h ++ [d]) sid tb cm g s' bs' /\ not_error o /\
    v_add_document V s d = (s', VOut o, lg).
Proof.
  intros K Hb Hwd Hl Hnd Hod P.
  destruct (known_add _ _ _ _ _ _ _ _ _ K Hb Hwd Hl Hnd Hod) as (s' & o & bs' & Hadd & K' & Hoc).
  exists s', o, bs'. cut (exists lg, v_add_document V s d = (s', VOut o, lg)).
  { intros (lg & E). exists lg. split; [assumption|]. split; [assumption|]. split; [|assumption].
    destruct Hoc as [[-> _]|[-> _]]; exact Logic.I. }
  assert (Hprint : forall x, In x (q_docs s') -> exists ls, print V s' x None None = inl ls)
    by (intros; eapply known_print; eassumption).
  pose proof (kn_hinv _ _ _ _ _ _ _ _ K) as Hi. pose proof (hi_rep _ _ _ _ Hi) as [R1 R2 R3 R4].
  assert (Hsub : forall b, In b bs -> In (fst b) h) by apply (hi_sub _ _ _ _ Hi).
  assert (Hfr : forall x, In x (map fst bs) -> d_num x <> d_num d).
  { intros x Hx E. apply in_map_iff in Hx. destruct Hx as (b & <- & Hbb). apply Hnd. rewrite <- E. apply in_map. auto. }
  assert (Hpl : forall ev, In ev (flat bs) -> plain_doc V (ev_elem ev)).
  { intros ev Hev. apply flat_elem in Hev. apply in_map_iff in Hev. destruct Hev as (b & <- & Hbb).
    apply P. apply in_app_iff. auto. }
  destruct (known_compat _ _ _ _ _ _ _ _ _ K Hb Hnd) as (ag & Hcc & _).
  unfold add_document in Hadd. unfold v_add_document. rewrite Hcc in *.
  set (s1 := set_agid s ag) in *.
  assert (Ht1 : q_tl s1 = flat bs) by exact R1. assert (Hd1 : q_docs s1 = map fst bs) by exact R2.
  destruct (insert_or_discard s1 d) as [s2|off| |e] eqn:E1.
  - assert (Hs' : bump_last s2 d = s') by congruence. assert (Ho : o = OInserted) by congruence. subst o.
    destruct (sim_insert V s1 d s2 E1) as (lg & ->).
    + intros ev. rewrite Ht1, Hd1. apply flat_elem.
    + intros x. rewrite Hd1. apply Hfr.
    + intros x Hx. destruct (Hprint x) as (ls & Els); [rewrite <- Hs', bump_docs; assumption|].
      exists ls. rewrite <- Els, <- Hs'. symmetry. apply bump_print.
    + rewrite Hs'. eauto.
  - destruct (resolved_begin s1 off) as [rb|] eqn:Er.
    2:{ destruct Hoc as [[-> _]|[-> _]]; congruence. }
    destruct (discard_document s1 d rb) as [s2|] eqn:Ed.
    2:{ destruct Hoc as [[-> _]|[-> _]]; congruence. }
    assert (Hs' : bump_last s2 d = s') by congruence. assert (Ho : o = ODiscarded) by congruence. subst o.
    assert (Hv : v_insert_or_discard V s1 d = VDiscarded off).
    { unfold insert_or_discard in E1. unfold v_insert_or_discard.
      destruct (scan_back _ _ _) as [bb|of|]; try discriminate; [|congruence].
      destruct (scan_fwd _ _ _ _ _); discriminate. }
    rewrite Hv, Er. destruct (sim_discard V _ _ _ _ Ed) as (lg & ->); [apply P, in_app_iff; right; left; reflexivity|].
    rewrite Hs'. eauto.
  - assert (Hv : v_insert_or_discard V s1 d = VOverridden).
    { unfold insert_or_discard in E1. unfold v_insert_or_discard.
      destruct (scan_back _ _ _) as [bb|of|]; try discriminate.
      destruct (scan_fwd _ _ _ _ _); try discriminate. reflexivity. }
    rewrite Hv. pose proof (override_blocks s1 d bs Ht1 Hd1 R3) as Hov.
    rewrite Hov in Hadd by exact R4. specialize (Hov R4).
    destruct (sim_override V s1 d _ Hov) as (lg & ->); [rewrite Ht1; assumption|].
    match type of Hov with _ = (?x, _) => set (s2 := x) in * end.
    destruct (insert_or_discard s2 d) as [s3|off| |e] eqn:E2; try (destruct Hoc as [[-> _]|[-> _]]; congruence).
    assert (Hs' : bump_last s3 d = s') by congruence. assert (Ho : o = OInserted) by congruence. subst o.
    assert (Hin : forall x, In x (map fst (filter (fun b => negb (okill d b)) bs)) -> In x (map fst bs)).
    { intros x Hx. apply in_map_iff in Hx. destruct Hx as (b & <- & Hx). apply filter_In in Hx. apply in_map. tauto. }
    destruct (sim_insert V s2 d s3 E2) as (lg' & ->).
    + intros ev Hev. exact (flat_elem _ _ Hev).
    + intros x Hx. apply Hfr. apply Hin. exact Hx.
    + intros x Hx. destruct (Hprint x) as (ls & Els); [rewrite <- Hs', bump_docs; assumption|].
      exists ls. rewrite <- Els, <- Hs'. symmetry. apply bump_print.
    + rewrite Hs'. eauto.
  - destruct Hoc as [[-> _]|[-> _]]; congruence.
Qed.

Lemma sim_ops V sid tb cm g ops : forall a h s bs,
  known a h sid tb cm g s bs -> Forall (op_belongs sid tb cm g) ops -> ops_ok a h ops -> Forall (op_plain V) ops ->
  (forall x, In x h -> plain_doc V x) ->
  exists s' os a' bs' lg, run_ops s ops = (s', os) /\ Forall not_error os /\
    known a' (live_after h ops) sid tb cm g s' bs' /\ v_run_ops V s ops = (s', map VOut os, lg).
Proof.
  induction ops as [|op ops IH]; intros a h s bs Hk Hb Hok Hp P.
  - exists s, [], a, bs, []. auto.
  - inversion Hb as [|? ? Hb1 Hb2]; subst. inversion Hp as [|? ? Hp1 Hp2]; subst.
    destruct op as [d|d]; cbn [ops_ok] in Hok.
    + destruct Hok as (Hwd & Hl & Hnd & Hod & Hok). cbn in Hb1, Hp1.
      destruct (sim_add V sid tb cm g a h s bs d Hk Hb1 Hwd Hl Hnd Hod) as (s1 & o & bs1 & lg & Hadd & K1 & No & Hv).
      { intros x Hx. apply in_app_iff in Hx. destruct Hx as [Hx|[<-|[]]]; auto. }
      destruct (IH (a ++ [d]) (h ++ [d]) s1 bs1 K1 Hb2 Hok Hp2) as (s2 & os & a2 & bs2 & lg2 & Hrun & Hne & Hk2 & Hv2).
      { intros x Hx. apply in_app_iff in Hx. destruct Hx as [Hx|[<-|[]]]; auto. }
      exists s2, (o :: os), a2, bs2, (lg ++ lg2). cbn [run_ops v_run_ops run_op v_run_op map]. rewrite Hadd, Hrun, Hv, Hv2. auto.
    + destruct Hok as (Hsch & Hok). pose proof Hk as [Hi Hs Hw Hn Ho].
      destruct (forget_step a h s bs d sid tb cm g Hi Hs Hw Hn Ho Hsch) as (s1 & bs1 & Hrun1 & Hi1 & Hs1 & _).
      destruct (sim_before V s d s1 Hrun1) as (lg & Hv).
      { intros ev Hev. rewrite (rep_tl _ _ (hi_rep _ _ _ _ Hi)) in Hev. apply flat_elem in Hev. apply in_map_iff in Hev.
        destruct Hev as (b & <- & Hbb). apply P. apply (hi_sub _ _ _ _ Hi _ Hbb). }
      destruct (IH a (live h (Forget d)) s1 bs1) as (s2 & os & a2 & bs2 & lg2 & Hrun & Hne & Hk2 & Hv2); try assumption.
      * constructor; try assumption.
        -- unfold live. apply Forall_forall. intros x Hx. apply filter_In in Hx. rewrite Forall_forall in Hw. apply Hw. tauto.
        -- unfold live. apply nodup_map_filter_num. assumption.
      * intros x Hx. apply filter_In in Hx. apply P. tauto.
      * exists s2, (ODiscarded :: os), a2, bs2, (lg ++ lg2). cbn [run_ops v_run_ops run_op v_run_op map]. rewrite Hrun1, Hrun, Hv, Hv2.
        split; [reflexivity|]. split; [constructor; [exact Logic.I|assumption]|]. auto.
Qed.

(** ** The document that is next *)

(** The last document if the next one ends it. *)
Definition cut (bs : list block) (t : Z) : option document :=
  match rev bs with
  | [] => None
  | (p, e) :: _ => if end_le e t then None else Some p
  end.

Lemma set_ends_same s bs : q_tl s = flat bs -> q_docs s = map fst bs -> set_ends s bs = s.
Proof. intros H1 H2. unfold set_ends. rewrite <- H1, <- H2. destruct s; reflexivity. Qed.

Lemma next_insert V s d bs :
  q_tl s = flat bs -> q_docs s = map fst bs -> chain bs ->
  Forall (fun b => d_begin (fst b) < d_begin d /\ d_num (fst b) < d_num d) bs ->
  v_insert_or_discard V s d =
  let s1 := set_ends s (trim_last (d_begin d) bs) in
  match cut bs (d_begin d) with
  | None => let (s2, r) := v_insert_document V s1 d (d_end d) in VDone s2 r
  | Some p =>
    match print V s1 p None None with
    | inr x => VDone s1 (inr x)
    | inl ls => match v_insert_document V s1 d (d_end d) with
                | (s2, inl lg) => VDone s2 (inl (TrimmedByNext (d_num p) ls :: lg))
                | (s2, inr x) => VDone s2 (inr x)
                end
    end
  end.
Proof.
  intros Htl Hdocs Hc Hpre. cbv zeta. unfold v_insert_or_discard. rewrite Htl.
  assert (Hpre1 : Forall (fun b => d_begin (fst b) <= d_begin d) bs)
    by (eapply Forall_impl; [|exact Hpre]; intros ? [H _]; cbn; lia).
  pose proof (scan_back_blocks d bs []) as SB. rewrite app_nil_r in SB. rewrite SB by (try assumption; constructor). clear SB.
  change (irange_from (d_begin d) (flat bs)) with (irf (d_begin d) 0 (flat bs)).
  unfold cut.
  destruct (list_snoc_cases bs) as [->|(pre' & [p e] & ->)].
  - cbn [rev]. cbn [flat flat_map irf enum_from filter scan_fwd]. rewrite trim_last_nil, set_ends_same by assumption. reflexivity.
  - rewrite rev_app_distr. cbn [rev app]. rewrite trim_last_snoc.
    rewrite Forall_app in Hpre. destruct Hpre as [Hpre' Hp]. inversion Hp as [|? ? [Hpb Hpn] _]; subst. cbn [fst] in Hpb, Hpn.
    destruct (Z.gtb_spec (d_num p) (d_num d)); [lia|].
    assert (Hlt : forall x, In x (flat pre') -> ev_when x < d_begin d).
    { intros x Hx. eapply chain_pre_lt; [exact Hc| |exact Hx]. exact Hpb. }
    rewrite flat_app, irf_app, (irf_none _ 0) by assumption. rewrite app_nil_l, flat_one.
    assert (Hblk : forall n, irf (d_begin d) n (blk_events (p, e)) =
              match e with Some x => if d_begin d <=? x then [(S n, mkEvent KEnd x p)] else [] | None => [] end).
    { intros n. unfold irf, blk_events. simpl. destruct (Z.leb_spec (d_begin d) (d_begin p)); [lia|].
      destruct e as [x|]; [|reflexivity]. simpl. reflexivity. }
    rewrite Hblk.
    assert (Hmap : forall e', map fst (pre' ++ [(p, e')]) = q_docs s) by (intros; rewrite Hdocs, !map_app; reflexivity).
    destruct (end_le e (d_begin d)) eqn:He.
    + replace (set_ends s (pre' ++ [(p, e)])) with s by (symmetry; apply set_ends_same; assumption).
      destruct e as [x|]; [|discriminate]. destruct (d_begin d <=? x); cbn [scan_fwd ev_kind]; reflexivity.
    + assert (Hmid : forall l, l = flat pre' ++ [ev_begin p] ++ [mkEvent KEnd (d_begin d) p] ->
         set_store s (q_docs s) l = set_ends s (pre' ++ [(p, Some (d_begin d))])).
      { intros l ->. unfold set_ends. rewrite Hmap, flat_app, flat_one. reflexivity. }
      assert (Hadd : tl_add (mkEvent KEnd (d_begin d) p) (flat pre' ++ [ev_begin p]) = flat pre' ++ [ev_begin p] ++ [mkEvent KEnd (d_begin d) p]).
      { pose proof (tl_add_mid (mkEvent KEnd (d_begin d) p) (flat pre' ++ [ev_begin p]) []) as M. rewrite app_nil_r in M. rewrite M.
        - rewrite <- app_assoc. reflexivity.
        - intros y Hy. apply in_app_iff in Hy. cbn. destruct Hy as [Hy|[<-|[]]]; [specialize (Hlt _ Hy)|cbn]; lia.
        - intros ? []. }
      destruct e as [x|]; cbn [end_le] in He.
      * apply Z.leb_gt in He. destruct (Z.leb_spec (d_begin d) x); [|lia].
        cbn [scan_fwd ev_kind ev_elem]. unfold ev_begin at 1. cbn [ev_elem]. unfold doc_eqb at 1. rewrite Z.eqb_refl. cbn [negb andb].
        change (ev_elem (ev_begin p)) with p.
        assert (Hrem : remove_at (S (0 + List.length (flat pre'))) (flat pre' ++ blk_events (p, Some x)) = flat pre' ++ [ev_begin p])
          by exact (remove_at_S (flat pre') _ _ []).
        rewrite Hrem. cbn [ev_elem]. rewrite Hadd, (Hmid _ eq_refl). reflexivity.
      * cbn [scan_fwd]. change (ev_elem (ev_begin p)) with p. change (blk_events (p, None)) with [ev_begin p].
        rewrite Hadd, (Hmid _ eq_refl). reflexivity.
Qed.

Lemma next_insert_document s d bs :
  q_tl s = flat bs -> q_docs s = map fst bs -> chain bs ->
  Forall (fun b => d_begin (fst b) < d_begin d /\ d_num (fst b) < d_num d) bs ->
  (match d_end d with Some x => d_begin d <= x | None => True end) ->
  insert_document (set_ends s (trim_last (d_begin d) bs)) d (d_end d) = set_ends s (trim_last (d_begin d) bs ++ [(d, d_end d)]).
Proof.
  intros Htl Hdocs Hc Hpre Hwf.
  assert (Hpre1 : Forall (fun b => d_begin (fst b) < d_begin d) bs) by (eapply Forall_impl; [|exact Hpre]; intros ? [? _]; assumption).
  destruct (trim_last_chain (d_begin d) bs Hc Hpre1) as [Ht1 Ht2].
  assert (Hdocs' : docs_add d (map fst (trim_last (d_begin d) bs)) = map fst (trim_last (d_begin d) bs ++ [(d, d_end d)])).
  { pose proof (docs_add_mid d (trim_last (d_begin d) bs) []) as M. rewrite app_nil_r in M. rewrite M.
    - rewrite map_app. reflexivity.
    - intros b Hb. apply (in_map fst) in Hb. rewrite trim_last_fst in Hb. apply in_map_iff in Hb. destruct Hb as (c & <- & Hc').
      rewrite Forall_forall in Hpre. apply Hpre. assumption.
    - intros ? []. }
  unfold insert_document, set_ends. cbn [q_tl q_docs set_store]. rewrite Hdocs'. unfold set_store. f_equal. cbn [q_tl].
  assert (Hle : forall e, In e (flat (trim_last (d_begin d) bs)) -> ev_when e <= d_begin d).
  { intros e He. clear - He Ht2 Hpre1. rewrite Forall_forall in Hpre1.
    assert (Hb : forall b, In b (trim_last (d_begin d) bs) -> d_begin (fst b) < d_begin d).
    { intros b Hb. apply (in_map fst) in Hb. rewrite trim_last_fst in Hb. apply in_map_iff in Hb. destruct Hb as (c & <- & Hc'). auto. }
    induction (trim_last (d_begin d) bs) as [|b l IH]; [destruct He|].
    rewrite flat_cons, in_app_iff in He. destruct He as [He|He].
    - destruct (Ht2 b (or_introl eq_refl)) as (x & Hx & Hxl). specialize (Hb b (or_introl eq_refl)). unfold blk_events in He. rewrite Hx in He.
      destruct He as [<-|[<-|[]]]; cbn; lia.
    - apply IH; try assumption; intros; first [apply Ht2|apply Hb]; right; assumption. }
  pose proof (tl_add_mid (ev_begin d) (flat (trim_last (d_begin d) bs)) []) as M. rewrite app_nil_r in M.
  rewrite M; [|exact Hle|intros ? []]. rewrite flat_app, flat_one. unfold blk_events. cbn [fst snd].
  destruct (d_end d) as [x|]; [|reflexivity].
  pose proof (tl_add_mid (mkEvent KEnd x d) (flat (trim_last (d_begin d) bs) ++ [ev_begin d]) []) as N. rewrite app_nil_r in N. rewrite N.
  - rewrite <- app_assoc. reflexivity.
  - intros y Hy. apply in_app_iff in Hy. cbn. destruct Hy as [Hy|[<-|[]]]; [specialize (Hle _ Hy)|cbn]; lia.
  - intros ? [].
Qed.

(** What is known of the state in the middle. *)
Lemma mid_resolved sid tb cm g a h s bs d p e :
  known a h sid tb cm g s bs -> Forall (fun b => d_begin (fst b) < d_begin d) bs ->
  In (p, e) (trim_last (d_begin d) bs) ->
  resolved_begin (set_ends s (trim_last (d_begin d) bs)) p = Ok (d_begin p) /\
  resolved_end (set_ends s (trim_last (d_begin d) bs)) p = Ok e.
Proof.
  intros K Hpre Hin. pose proof (kn_hinv _ _ _ _ _ _ _ _ K) as Hi. pose proof (hi_rep _ _ _ _ Hi) as [R1 R2 R3 R4].
  destruct (trim_last_chain (d_begin d) bs R3 Hpre) as [Ht1 Ht2].
  set (s1 := set_ends s (trim_last (d_begin d) bs)).
  assert (Hp : In p (map fst bs)) by (rewrite <- (trim_last_fst (d_begin d)); exact (in_map fst _ _ Hin)).
  assert (Hst : stored s1 p = true) by (apply stored_of; cbn; rewrite trim_last_fst; assumption).
  assert (Hdl : disc_lookup s1 p = None).
  { apply disc_lookup_none. intros o x b Hl Ho. apply (hi_log _ _ _ _ Hi) in Hl. destruct Hl as (y & _ & _ & _ & _ & Hn).
    apply Hn. rewrite Ho, bobj_fst. apply in_map. assumption. }
  assert (Hl : forall k, locate k s1 p = match k with KBegin => Some (ev_begin p) | KEnd => match e with Some x => Some (mkEvent KEnd x p) | None => None end end).
  { intros k. apply (locate_blocks k s1 (trim_last (d_begin d) bs)); [reflexivity|assumption|assumption]. }
  unfold resolved_begin, resolved_end, seq_resolved_begin, seq_resolved_end. rewrite Hdl, Hst, !Hl. split; [reflexivity|].
  destruct (Ht2 _ Hin) as (x & Hx & _). cbn in Hx. subst e. cbn.
  destruct (Z.eqb_spec x 0) as [->|]; [exfalso|reflexivity].
  (* an end at the origin *)
  assert (Hpos : forall b, In b bs -> 0 <= d_begin (fst b)).
  { intros b Hb. pose proof (kn_wf _ _ _ _ _ _ _ _ K) as W. rewrite Forall_forall in W. apply (W (fst b)). apply (hi_sub _ _ _ _ Hi _ Hb). }
  destruct (list_snoc_cases bs) as [->|(pre' & [q eq] & ->)]; [destruct Hin|].
  rewrite trim_last_snoc in Hin. apply in_app_iff in Hin. destruct Hin as [Hin|[E|[]]].
  - apply (known_ends _ _ _ _ _ _ _ _ p (Some 0) K) with (x := 0); auto. apply in_app_iff. auto.
  - injection E as -> E. destruct (end_le eq (d_begin d)) eqn:El.
    + subst eq. apply (known_ends _ _ _ _ _ _ _ _ p (Some 0) K) with (x := 0); auto. apply in_app_iff. right. left. reflexivity.
    + injection E as E. rewrite Forall_app in Hpre. destruct Hpre as [_ Hq]. inversion Hq as [|? ? Hq1 _]; subst. cbn in Hq1.
      specialize (Hpos (p, eq)). rewrite in_app_iff in Hpos. cbn in Hpos. specialize (Hpos (or_intror (or_introl eq_refl))). lia.
Qed.

Lemma next_blocks sid tb cm g a h s bs d :
  known a h sid tb cm g s bs -> next h d ->
  Forall (fun b => d_begin (fst b) < d_begin d /\ d_num (fst b) < d_num d) bs.
Proof.
  intros K N. apply Forall_forall. intros b Hb. destruct (N (fst b)); [|auto].
  apply (hi_sub _ _ _ _ (kn_hinv _ _ _ _ _ _ _ _ K) _ Hb).
Qed.

(** The document on screen when the next one begins is the one that is ended by
    it. *)
Lemma next_cut sid tb cm g a h s bs d x :
  known a h sid tb cm g s bs -> next h d -> (cut bs (d_begin d) = Some x <-> active h (d_begin d) x).
Proof.
  intros K N. pose proof (kn_hinv _ _ _ _ _ _ _ _ K) as Hi. pose proof (hi_rep _ _ _ _ Hi) as [R1 R2 R3 R4].
  pose proof (kn_num _ _ _ _ _ _ _ _ K) as Hnn. unfold cut.
  destruct (list_snoc_cases bs) as [->|(pre' & [p e] & ->)].
  - cbn. split; [discriminate|]. intros (Hx & _). destruct (hi_dom _ _ _ _ Hi x Hx) as (b & [] & _).
  - rewrite rev_app_distr. cbn [rev app].
    assert (Hpin : In (p, e) (pre' ++ [(p, e)])) by (apply in_app_iff; right; left; reflexivity).
    assert (Hph : In p h) by exact (hi_sub _ _ _ _ Hi _ Hpin).
    assert (Htop : forall b, In b (pre' ++ [(p, e)]) -> d_num (fst b) <= d_num p).
    { intros b Hb. apply in_app_iff in Hb. destruct Hb as [Hb|[<-|[]]]; [|cbn; lia].
      apply chain_app in R3. destruct R3 as (_ & _ & Hr). specialize (Hr b (p, e) Hb (or_introl eq_refl)). destruct Hr as (Hr & _). cbn in Hr. lia. }
    assert (Hall : forall y, In y h -> d_num y <= d_num p).
    { intros y Hy. destruct (hi_dom _ _ _ _ Hi y Hy) as (b & Hb & H1 & _). specialize (Htop b Hb). lia. }
    assert (He : e = d_end p).
    { destruct (hi_exact _ _ _ _ Hi _ _ Hpin) as [E|(q & eq & Hq & Hqn & _)]; [assumption|]. specialize (Htop _ Hq). cbn in Htop. lia. }
    destruct (N p Hph) as [_ Hpb].
    split.
    + destruct (end_le e (d_begin d)) eqn:El; [discriminate|]. intros E. injection E as <-.
      split; [assumption|]. split; [lia|]. split; [intros; auto|]. rewrite <- He. destruct e as [z|]; [|exact Logic.I]. cbn in El. lia.
    + intros (Hx & Hxb & Htopx & Hxe). assert (x = p).
      { apply (nodup_inj d_num _ Hnn); try assumption. specialize (Hall x Hx). assert (d_num p <= d_num x) by (apply Htopx; [assumption|lia]). lia. }
      subst x. rewrite <- He in Hxe. destruct e as [z|]; cbn [end_le]; [|reflexivity].
      destruct (Z.leb_spec z (d_begin d)); [lia|reflexivity].
Qed.

Lemma doc_lines_parts V d rb re : doc_lines (V (d_obj d)) rb re None None = all_lines (Some rb) re (parts V d).
Proof. reflexivity. Qed.

Lemma known_agid sid tb cm g a h s bs ag :
  known a h sid tb cm g s bs -> ag = None \/ ag = Some g -> known a h sid tb cm g (set_agid s ag) bs.
Proof.
  intros [Hi Hs Hw Hn Ho] Ha. constructor; try assumption.
  - eapply hinv_state; [exact Hi| | |]; reflexivity.
  - destruct Hs as (H1 & H2 & H3 & H4). repeat split; assumption.
Qed.

Lemma in_trim t bs p e : In (p, e) bs -> exists e', In (p, e') (trim_last t bs).
Proof.
  intros H. apply (in_map fst) in H. rewrite <- (trim_last_fst t) in H. apply in_map_iff in H. destruct H as ([q e'] & E & H).
  cbn in E. subst q. eauto.
Qed.

Lemma cut_in bs t x : cut bs t = Some x -> In (x, Some t) (trim_last t bs).
Proof.
  unfold cut, trim_last. destruct (rev bs) as [|[p e] r]; [discriminate|].
  destruct (end_le e t); [discriminate|]. intros E. injection E as <-. apply in_app_iff. right. left. reflexivity.
Qed.

Section Next.
  Variables (V : contents) (sid tb : string) (cm : option string) (g : string) (a h : list document) (s : seqstate) (bs : list block) (d : document).
  Hypotheses (K : known a h sid tb cm g s bs) (B : belongs sid tb cm g d) (W : doc_wf d) (N : next h d) (O : ~ In (d_obj d) (map d_obj a)).

  Definition before_it (ag : option string) : seqstate := set_ends (set_agid s ag) (trim_last (d_begin d) bs).
  Definition after_it (ag : option string) : seqstate := set_ends (set_agid s ag) (trim_last (d_begin d) bs ++ [(d, d_end d)]).

  Lemma next_fresh : ~ In (d_num d) (map d_num h).
  Proof. intros H. apply in_map_iff in H. destruct H as (x & E & Hx). destruct (N x Hx). lia. Qed.

  Lemma next_late : late_ok h d.
  Proof. right. intros x Hx Hlt. destruct (N x Hx). lia. Qed.

  Lemma next_end : match d_end d with Some x => d_begin d <= x | None => True end.
  Proof. destruct W as [_ We]. destruct (d_end d); [tauto|exact Logic.I]. Qed.

  Lemma next_add ag : check_compat s d = (set_agid s ag, Ok tt) -> add_document s d = (bump_last (after_it ag) d, OInserted).
  Proof.
    intros Hcc. pose proof (hi_rep _ _ _ _ (kn_hinv _ _ _ _ _ _ _ _ K)) as [R1 R2 R3 R4].
    unfold add_document. rewrite Hcc.
    pose proof (insert_blocks (set_agid s ag) d bs []) as I. rewrite app_nil_r in I. rewrite I; [reflexivity|exact R1|exact R2|exact R3|exact next_end|exact (next_blocks _ _ _ _ _ _ _ _ _ K N)|constructor|exact Logic.I].
  Qed.

  Lemma next_print ag (C : check_compat s d = (set_agid s ag, Ok tt)) : print V (after_it ag) d None None =
    match all_lines (Some (d_begin d)) (d_end d) (parts V d) with Some ls => inl ls | None => inr VAttribute end.
  Proof.
    destruct (known_add _ _ _ _ _ _ _ _ _ K B W next_late next_fresh O) as (s' & o & bs' & Hadd & K' & _).
    rewrite (next_add ag C) in Hadd. assert (Es : bump_last (after_it ag) d = s') by congruence.
    assert (Hd : exists e, In (d, e) bs').
    { assert (In d (q_docs s')).
      { rewrite <- Es, bump_docs. cbn. rewrite map_app, in_app_iff. right. left. reflexivity. }
      rewrite (rep_docs _ _ (hi_rep _ _ _ _ (kn_hinv _ _ _ _ _ _ _ _ K'))) in H. apply in_map_iff in H.
      destruct H as ([q e] & E & H). cbn in E. subst q. eauto. }
    destruct Hd as (e & Hd).
    destruct (known_resolved _ _ _ _ _ _ _ _ _ _ K' Hd) as [H1 H2].
    assert (E : e = d_end d).
    { destruct (hi_exact _ _ _ _ (kn_hinv _ _ _ _ _ _ _ _ K') _ _ Hd) as [E|(q & eq & Hq & Hqn & _)]; [assumption|exfalso].
      apply (hi_sub _ _ _ _ (kn_hinv _ _ _ _ _ _ _ _ K')) in Hq. cbn in Hq. apply in_app_iff in Hq.
      destruct Hq as [Hq|[<-|[]]]; [|lia]. destruct (N q Hq). lia. }
    subst e. rewrite <- (bump_print V (after_it ag) d), Es. unfold print. rewrite H1, H2, doc_lines_parts. reflexivity.
  Qed.

  Lemma next_v_add ag : check_compat s d = (set_agid s ag, Ok tt) -> ag = None \/ ag = Some g ->
    v_add_document V s d =
    match cut bs (d_begin d) with
    | None =>
      match all_lines (Some (d_begin d)) (d_end d) (parts V d) with
      | None => (after_it ag, VRaised, [])
      | Some ln => (bump_last (after_it ag) d, VOut OInserted, [NewDocument (d_num d) ln])
      end
    | Some x =>
      match all_lines (Some (d_begin x)) (Some (d_begin d)) (parts V x) with
      | None => (before_it ag, VRaised, [])
      | Some lx =>
        match all_lines (Some (d_begin d)) (d_end d) (parts V d) with
        | None => (after_it ag, VRaised, [])
        | Some ln => (bump_last (after_it ag) d, VOut OInserted, [TrimmedByNext (d_num x) lx; NewDocument (d_num d) ln])
        end
      end
    end.
  Proof.
    intros C Ha. pose proof (known_agid _ _ _ _ _ _ _ _ ag K Ha) as K1.
    pose proof (hi_rep _ _ _ _ (kn_hinv _ _ _ _ _ _ _ _ K1)) as [R1 R2 R3 R4].
    pose proof (next_blocks _ _ _ _ _ _ _ _ _ K1 N) as F.
    unfold v_add_document. rewrite C. rewrite (next_insert V _ d bs R1 R2 R3 F). cbv zeta. fold (before_it ag).
    assert (Hi : v_insert_document V (before_it ag) d (d_end d) =
      match all_lines (Some (d_begin d)) (d_end d) (parts V d) with
      | Some ln => (after_it ag, inl [NewDocument (d_num d) ln]) | None => (after_it ag, inr VAttribute) end).
    { unfold v_insert_document. unfold before_it at 1 2 3.
      rewrite (next_insert_document _ d bs R1 R2 R3 F next_end). fold (after_it ag). rewrite (next_print ag C).
      destruct (all_lines _ _ _); reflexivity. }
    rewrite Hi. destruct (cut bs (d_begin d)) as [x|] eqn:Ec.
    - apply cut_in in Ec. assert (F1 : Forall (fun b => d_begin (fst b) < d_begin d) bs) by (eapply Forall_impl; [|exact F]; intros b [H _]; exact H).
      destruct (mid_resolved _ _ _ _ _ _ _ _ d x _ K1 F1 Ec) as [H1 H2].
      unfold print. fold (before_it ag) in H1, H2. rewrite H1, H2, doc_lines_parts.
      destruct (all_lines (Some (d_begin x)) (Some (d_begin d)) (parts V x)) as [lx|]; [|reflexivity].
      destruct (all_lines (Some (d_begin d)) (d_end d) (parts V d)); reflexivity.
    - destruct (all_lines (Some (d_begin d)) (d_end d) (parts V d)); reflexivity.
  Qed.

  (** The same document again. *)
  Lemma compat_again ag : check_compat s d = (set_agid s ag, Ok tt) -> check_compat (before_it ag) d = (before_it ag, Ok tt).
  Proof.
    pose proof (hi_rep _ _ _ _ (kn_hinv _ _ _ _ _ _ _ _ K)) as [R1 R2 R3 R4].
    intros C. unfold check_compat in *. unfold before_it. cbn [q_sid q_tb q_cm q_docs q_agid set_ends set_store set_agid].
    rewrite trim_last_fst, <- R2.
    destruct (negb (q_sid s =? d_sid d)%string || negb (q_tb s =? d_tb d)%string); [discriminate|].
    destruct ((q_tb s =? "clock")%string && negb (ostr_eqb (q_cm s) (d_cm d))); [discriminate|].
    destruct (existsb (fun x => d_num x =? d_num d) (q_docs s)); [discriminate|].
    destruct (d_agid d) as [x|]; [|reflexivity]. destruct (x =? "")%string; [reflexivity|].
    destruct (q_agid s) as [y|] eqn:Ey.
    - destruct (String.eqb_spec x y); [|discriminate]. assert (Ea : ag = Some y).
      { assert (E : s = set_agid s ag) by congruence. rewrite E in Ey. exact Ey. }
      subst. rewrite String.eqb_refl. reflexivity.
    - assert (Ea : ag = Some x).
      { assert (E : set_agid s (Some x) = set_agid s ag) by congruence. apply (f_equal q_agid) in E. cbn in E. auto. }
      subst ag. rewrite String.eqb_refl. reflexivity.
  Qed.

  Lemma again ag : check_compat s d = (set_agid s ag, Ok tt) -> ag = None \/ ag = Some g ->
    v_add_document V (before_it ag) d =
      match all_lines (Some (d_begin d)) (d_end d) (parts V d) with
      | None => (after_it ag, VRaised, [])
      | Some ln => (bump_last (after_it ag) d, VOut OInserted, [NewDocument (d_num d) ln])
      end.
  Proof.
    intros C Ha. pose proof (known_agid _ _ _ _ _ _ _ _ ag K Ha) as K1.
    pose proof (hi_rep _ _ _ _ (kn_hinv _ _ _ _ _ _ _ _ K1)) as [R1 R2 R3 R4].
    pose proof (next_blocks _ _ _ _ _ _ _ _ _ K1 N) as F.
    assert (F1 : Forall (fun b => d_begin (fst b) < d_begin d) bs) by (eapply Forall_impl; [|exact F]; intros b [H _]; exact H).
    destruct (trim_last_chain (d_begin d) bs R3 F1) as [Ht1 Ht2].
    assert (F2 : Forall (fun b => d_begin (fst b) < d_begin d /\ d_num (fst b) < d_num d) (trim_last (d_begin d) bs)).
    { apply Forall_forall. intros b Hb. apply (in_map fst) in Hb. rewrite trim_last_fst in Hb. apply in_map_iff in Hb.
      destruct Hb as (c & <- & Hc'). rewrite Forall_forall in F. apply F. assumption. }
    unfold v_add_document. rewrite (compat_again ag C).
    rewrite (next_insert V (before_it ag) d (trim_last (d_begin d) bs) eq_refl eq_refl Ht1 F2). cbv zeta.
    assert (Ecut : cut (trim_last (d_begin d) bs) (d_begin d) = None /\ trim_last (d_begin d) (trim_last (d_begin d) bs) = trim_last (d_begin d) bs).
    { destruct (list_snoc_cases (trim_last (d_begin d) bs)) as [E|(pre' & [p e] & E)]; rewrite E in *; [split; reflexivity|].
      destruct (Ht2 (p, e)) as (x & Hx & Hxl); [apply in_app_iff; right; left; reflexivity|]. cbn in Hx. subst e.
      unfold cut. rewrite rev_app_distr, trim_last_snoc. cbn. destruct (Z.leb_spec x (d_begin d)); [auto|lia]. }
    destruct Ecut as [-> Etr]. rewrite Etr.
    replace (set_ends (before_it ag) (trim_last (d_begin d) bs)) with (before_it ag) by reflexivity.
    unfold v_insert_document. unfold before_it at 1 2 3.
    rewrite (next_insert_document _ d bs R1 R2 R3 F next_end). fold (after_it ag). rewrite (next_print ag C).
    destruct (all_lines (Some (d_begin d)) (d_end d) (parts V d)); reflexivity.
  Qed.

  (** What is on screen after the exception. *)
  Lemma before_it_stored ag : q_docs (before_it ag) = q_docs s.
  Proof. pose proof (hi_rep _ _ _ _ (kn_hinv _ _ _ _ _ _ _ _ K)) as [R1 R2 R3 R4]. cbn. rewrite trim_last_fst. auto. Qed.

  Lemma before_it_dark ag : ag = None \/ ag = Some g -> forall t y, d_begin d <= t -> In y (h ++ [d]) -> ~ presented (before_it ag) t y.
  Proof.
    intros Ha t y Ht Hy (rb & re & H1 & H2 & H3 & H4). pose proof (known_agid _ _ _ _ _ _ _ _ ag K Ha) as K1.
    pose proof (kn_hinv _ _ _ _ _ _ _ _ K1) as Hi. pose proof (hi_rep _ _ _ _ Hi) as [R1 R2 R3 R4].
    pose proof (next_blocks _ _ _ _ _ _ _ _ _ K1 N) as F.
    assert (F1 : Forall (fun b => d_begin (fst b) < d_begin d) bs) by (eapply Forall_impl; [|exact F]; intros b [H _]; exact H).
    destruct (trim_last_chain (d_begin d) bs R3 F1) as [Ht1 Ht2].
    unfold resolved_begin in H1. unfold resolved_end in H2.
    destruct (disc_lookup (before_it ag) y) as [[bb ee]|] eqn:D.
    - injection H1 as <-. injection H2 as <-. unfold disc_lookup in D.
      destruct (filter _ _) as [|[[o e1] b1] l] eqn:E; [discriminate|]. injection D as <- <-.
      assert (Hin : In (o, e1, b1) (filter (fun p => fst (fst p) =? d_obj y) (q_disc (before_it ag)))) by (rewrite E; left; reflexivity).
      apply filter_In in Hin. destruct Hin as [Hin _]. apply (hi_log _ _ _ _ Hi) in Hin. destruct Hin as (z & _ & _ & _ & Hle & _). lia.
    - unfold seq_resolved_begin in H1. destruct (stored (before_it ag) y) eqn:Hs; [|discriminate].
      assert (Hyb : exists e, In (y, e) bs).
      { unfold stored in Hs. apply existsb_exists in Hs. destruct Hs as (z & Hz & E). rewrite (before_it_stored ag) in Hz.
        rewrite (rep_docs _ _ (hi_rep _ _ _ _ (kn_hinv _ _ _ _ _ _ _ _ K))) in Hz.
        apply in_map_iff in Hz. destruct Hz as ([q e] & Eq & Hz). cbn in Eq. subst q.
        unfold doc_same in E. apply Z.eqb_eq in E.
        assert (Hza : In z a) by (apply (hi_incl _ _ _ _ Hi); apply (hi_sub _ _ _ _ Hi _ Hz)).
        apply in_app_iff in Hy. destruct Hy as [Hy|[<-|[]]].
        - assert (y = z); [|subst; eauto]. apply (nodup_inj d_obj _ (kn_obj _ _ _ _ _ _ _ _ K)); try assumption.
          apply (hi_incl _ _ _ _ Hi). assumption.
        - exfalso. apply O. rewrite E. apply in_map. assumption. }
      destruct Hyb as (e0 & Hyb). destruct (in_trim (d_begin d) _ _ _ Hyb) as (e & Hye).
      destruct (mid_resolved _ _ _ _ _ _ _ _ d y e K1 F1 Hye) as [_ H5]. fold (before_it ag) in H5.
      unfold resolved_end in H5. rewrite D in H5. rewrite H2 in H5. injection H5 as <-.
      destruct (Ht2 _ Hye) as (x & Hx & Hxl). cbn in Hx. subst re. cbn in H4. lia.
  Qed.
End Next.

Lemma known_unbump a h sid tb cm g s d bs :
  known a h sid tb cm g (bump_last s d) bs -> known a h sid tb cm g s bs.
Proof.
  intros [Hi Hs Hw Hn Ho].
  assert (E : q_tl (bump_last s d) = q_tl s /\ q_docs (bump_last s d) = q_docs s /\ q_disc (bump_last s d) = q_disc s
     /\ q_sid (bump_last s d) = q_sid s /\ q_tb (bump_last s d) = q_tb s /\ q_cm (bump_last s d) = q_cm s /\ q_agid (bump_last s d) = q_agid s).
  { unfold bump_last. destruct (d_num d >? q_last s); repeat split. }
  destruct E as (E1 & E2 & E3 & E4 & E5 & E6 & E7). constructor; try assumption.
  - eapply hinv_state; [exact Hi| | |]; congruence.
  - destruct Hs as (H1 & H2 & H3 & H4). unfold sane. rewrite <- E4, <- E5, <- E6, <- E7. auto.
Qed.

(** States reached without an exception, with a further document in sight. *)
Lemma reach V sid tb cm g rest ops : forall a h s bs,
  known a h sid tb cm g s bs -> Forall (op_belongs sid tb cm g) ops -> ops_ok a h (ops ++ rest) -> Forall (op_plain V) ops ->
  (forall x, In x h -> plain_doc V x) ->
  exists s' os a' bs' lg, run_ops s ops = (s', os) /\ known a' (live_after h ops) sid tb cm g s' bs' /\
    v_run_ops V s ops = (s', map VOut os, lg) /\ ops_ok a' (live_after h ops) rest /\ (forall x, In x (live_after h ops) -> plain_doc V x).
Proof.
  induction ops as [|op ops IH]; intros a h s bs Hk Hb Hok Hp P.
  - exists s, [], a, bs, []. auto.
  - inversion Hb as [|? ? Hb1 Hb2]; subst. inversion Hp as [|? ? Hp1 Hp2]; subst.
    destruct op as [d|d]; cbn [ops_ok app] in Hok.
    + destruct Hok as (Hwd & Hl & Hnd & Hod & Hok). cbn in Hb1, Hp1.
      assert (P1 : forall x, In x (h ++ [d]) -> plain_doc V x).
      { intros x Hx. apply in_app_iff in Hx. destruct Hx as [Hx|[<-|[]]]; auto. }
      destruct (sim_add V sid tb cm g a h s bs d Hk Hb1 Hwd Hl Hnd Hod P1) as (s1 & o & bs1 & lg & Hadd & K1 & No & Hv).
      destruct (IH (a ++ [d]) (h ++ [d]) s1 bs1 K1 Hb2 Hok Hp2 P1) as (s2 & os & a2 & bs2 & lg2 & Hrun & Hk2 & Hv2 & Hrest & P2).
      exists s2, (o :: os), a2, bs2, (lg ++ lg2). cbn [run_ops v_run_ops run_op v_run_op map]. rewrite Hadd, Hrun, Hv, Hv2. auto.
    + destruct Hok as (Hsch & Hok). pose proof Hk as [Hi Hs Hw Hn Ho].
      destruct (forget_step a h s bs d sid tb cm g Hi Hs Hw Hn Ho Hsch) as (s1 & bs1 & Hrun1 & Hi1 & Hs1 & _).
      destruct (sim_before V s d s1 Hrun1) as (lg & Hv).
      { intros ev Hev. rewrite (rep_tl _ _ (hi_rep _ _ _ _ Hi)) in Hev. apply flat_elem in Hev. apply in_map_iff in Hev.
        destruct Hev as (b & <- & Hbb). apply P. apply (hi_sub _ _ _ _ Hi _ Hbb). }
      destruct (IH a (live h (Forget d)) s1 bs1) as (s2 & os & a2 & bs2 & lg2 & Hrun & Hk2 & Hv2 & Hrest & P2); try assumption.
      * constructor; try assumption.
        -- unfold live. apply Forall_forall. intros x Hx. apply filter_In in Hx. rewrite Forall_forall in Hw. apply Hw. tauto.
        -- unfold live. apply nodup_map_filter_num. assumption.
      * intros x Hx. apply filter_In in Hx. apply P. tauto.
      * exists s2, (ODiscarded :: os), a2, bs2, (lg ++ lg2). cbn [run_ops v_run_ops run_op v_run_op map]. rewrite Hrun1, Hrun, Hv, Hv2. auto.
Qed.

Lemma in_parts V d p : In p (parts V d) <-> exists x, In x (V (d_obj d)) /\ para x = Some p.
Proof.
  unfold parts. rewrite in_paragraphs. split.
  - intros (n & x & _ & Hx & Hp). exists x. split; [eapply nth_error_In; eassumption|assumption].
  - intros (x & Hx & Hp). apply In_nth_error in Hx. destruct Hx as (n & Hn). exists n, x. split; [|auto].
    apply affected_all. exists (el_times x). apply map_nth_error. assumption.
Qed.

Lemma in_parts_el V d p : In p (parts V d) <-> exists x lb le l, In x (V (d_obj d)) /\
  el_para x = Some (lb, le, l) /\ p = PCont "p_type" lb le (fst (el_times x)) (snd (el_times x)) l.
Proof.
  rewrite in_parts. split.
  - intros (x & Hx & Hp). unfold para in Hp. destruct (el_para x) as [[[lb le] l]|] eqn:E; [|discriminate].
    injection Hp as <-. exists x, lb, le, l. auto.
  - intros (x & lb & le & l & Hx & E & ->). exists x. split; [assumption|]. unfold para. rewrite E. reflexivity.
Qed.

Lemma parts_plain V d b e : plain_doc V d -> exists ls, all_lines b e (parts V d) = Some ls.
Proof.
  intros P. destruct (all_lines b e (parts V d)) eqn:E; [eauto|exfalso]. apply all_lines_none in E.
  destruct E as (p & Hp & Hm). apply in_parts in Hp. destruct Hp as (x & Hx & Hq). exact (P x p Hx Hq Hm).
Qed.

Lemma parts_meta V d b e : meta_doc V d -> all_lines b e (parts V d) = None.
Proof. intros (x & p & Hx & Hp & Hm). apply all_lines_none. exists p. split; [apply in_parts; eauto|assumption]. Qed.
