(** Invariants of a sequence under arbitrary use. *)
From Verif Require Import SequenceModel SequenceSpec SequenceProofs SequenceHistory.
From Coq Require Import ZifyBool.
Open Scope Z_scope.

(** The identity part of a state. *)
Definition ident (s : seqstate) := (q_sid s, q_tb s, q_cm s, q_agid s, q_last s).

Lemma filter_filter {A} (f g : A -> bool) l : filter f (filter g l) = filter (fun x => g x && f x) l.
Proof.
  induction l as [|x l IH]; [reflexivity|]. simpl. destruct (g x); simpl; [|assumption].
  destruct (f x); rewrite IH; reflexivity.
Qed.

Lemma discard_all_shape ds t : forall s s' r, discard_all s ds t = (s', r) ->
  ident s' = ident s /\ exists f, q_docs s' = filter f (q_docs s).
Proof.
  induction ds as [|d ds IH]; intros s s' r H; simpl in H.
  - injection H as <- _. split; [reflexivity|]. exists (fun _ => true). symmetry. apply filter_all. reflexivity.
  - unfold discard_document in H. destruct (t >? d_begin d).
    + injection H as <- _. split; [reflexivity|]. exists (fun _ => true). symmetry. apply filter_all. reflexivity.
    + apply IH in H. destruct H as [H1 (f & H2)]. split; [exact H1|]. simpl in H2.
      exists (fun x => negb (doc_same d x) && f x). rewrite H2.
      rewrite filter_filter. reflexivity.
Qed.

Lemma override_shape s d s' r : override_sequence s d = (s', r) ->
  ident s' = ident s /\ exists f, q_docs s' = filter f (q_docs s).
Proof.
  unfold override_sequence. destruct (collect _ _ _ _) as [ds is].
  destruct (discard_all s ds (d_begin d)) as [s1 [u|e]] eqn:H; intros E; injection E as <- _; apply discard_all_shape in H; exact H.
Qed.

Lemma discard_before_shape s d : ident (fst (discard_before s d)) = ident s /\ exists f, q_docs (fst (discard_before s d)) = filter f (q_docs s).
Proof.
  unfold discard_before. destruct (collect _ _ _ _) as [ds is].
  destruct (discard_all s ds 0) as [s1 [u|e]] eqn:H; apply discard_all_shape in H; exact H.
Qed.

Lemma extract_shape s b e disc : ident (fst (seq_extract s b e disc)) = ident s /\ exists f, q_docs (fst (seq_extract s b e disc)) = filter f (q_docs s).
Proof.
  assert (Hid : ident s = ident s /\ exists f, q_docs s = filter f (q_docs s)).
  { split; [reflexivity|]. exists (fun _ => true). symmetry. apply filter_all. reflexivity. }
  unfold seq_extract. destruct (extract_windows _ _ _ _); [|exact Hid]. destruct disc; [|exact Hid].
  destruct (rev _) as [|d l]; [exact Hid|]. pose proof (discard_before_shape s d) as H.
  destruct (discard_before s d) as [s' [u|x]]; exact H.
Qed.

Lemma insert_or_discard_shape s d s' : insert_or_discard s d = IInserted s' ->
  ident s' = ident s /\ q_docs s' = docs_add d (q_docs s).
Proof.
  unfold insert_or_discard. destruct (scan_back _ _ _); try discriminate.
  destruct (scan_fwd _ _ _ _ _); try discriminate. intros H. injection H as <-. split; reflexivity.
Qed.

Lemma check_compat_shape s d s' r : check_compat s d = (s', r) ->
  q_docs s' = q_docs s /\ q_tl s' = q_tl s /\ q_disc s' = q_disc s /\ q_last s' = q_last s
  /\ q_sid s' = q_sid s /\ q_tb s' = q_tb s /\ q_cm s' = q_cm s
  /\ (q_agid s' = q_agid s \/ q_agid s = None)
  /\ (forall e, r = Err e -> s' = s)
  /\ (r = Ok tt -> q_sid s = d_sid d /\ q_tb s = d_tb d /\ (q_tb s = "clock"%string -> q_cm s = d_cm d)
       /\ ~ In (d_num d) (map d_num (q_docs s))
       /\ (d_agid d = None \/ d_agid d = Some ""%string \/ d_agid d = q_agid s')).
Proof.
  unfold check_compat.
  destruct (String.eqb_spec (q_sid s) (d_sid d)) as [E1|]; simpl; [|intros H; injection H as <- <-; repeat split; auto; discriminate].
  destruct (String.eqb_spec (q_tb s) (d_tb d)) as [E2|]; simpl; [|intros H; injection H as <- <-; repeat split; auto; discriminate].
  destruct ((q_tb s =? "clock")%string && negb (ostr_eqb (q_cm s) (d_cm d))) eqn:E3; [intros H; injection H as <- <-; repeat split; auto; discriminate|].
  destruct (existsb _ _) eqn:E4; [intros H; injection H as <- <-; repeat split; auto; discriminate|].
  assert (Hcm : q_tb s = "clock"%string -> q_cm s = d_cm d).
  { intros Hc. rewrite Hc in E3. simpl in E3. apply negb_false_iff in E3. unfold ostr_eqb in E3.
    destruct (q_cm s), (d_cm d); try discriminate; [|reflexivity]. apply String.eqb_eq in E3. congruence. }
  assert (Hnum : ~ In (d_num d) (map d_num (q_docs s))).
  { intros Hin. apply in_map_iff in Hin. destruct Hin as (x & Hx & Hin).
    assert (existsb (fun x => d_num x =? d_num d) (q_docs s) = true); [|congruence].
    apply existsb_exists. exists x. split; [assumption|]. lia. }
  destruct (d_agid d) as [a|] eqn:Ea.
  - destruct (String.eqb_spec a ""); [subst a|].
    + intros H; injection H as <- <-. repeat split; auto; discriminate.
    + destruct (q_agid s) as [g|] eqn:Eg.
      * destruct (String.eqb_spec a g); [subst a|]; intros H; injection H as <- <-; repeat split; auto; try discriminate.
      * intros H; injection H as <- <-. repeat split; auto; try discriminate.
  - intros H; injection H as <- <-. repeat split; auto; discriminate.
Qed.

Ltac errcase Hd :=
  split; [lia|]; split; [intros []|]; split; [congruence|]; split; [congruence|]; split; [congruence|];
  split; [solve [left; congruence | right; congruence | intuition congruence]|]; split; [solve [Hd]|intros []].

(** add_document: what can happen to the document set. *)
Lemma add_shape s d s' o : add_document s d = (s', o) ->
  q_last s <= q_last s' /\ (not_error o -> d_num d <= q_last s')
  /\ q_sid s' = q_sid s /\ q_tb s' = q_tb s /\ q_cm s' = q_cm s
  /\ (q_agid s' = q_agid s \/ q_agid s = None)
  /\ (NoDup (map d_num (q_docs s)) -> NoDup (map d_num (q_docs s')))
  /\ (not_error o -> q_sid s = d_sid d /\ q_tb s = d_tb d /\ (q_tb s = "clock"%string -> q_cm s = d_cm d)
       /\ ~ In (d_num d) (map d_num (q_docs s))
       /\ (d_agid d = None \/ d_agid d = Some ""%string \/ d_agid d = q_agid s')).
Proof.
  unfold add_document. destruct (check_compat s d) as [s1 [[]|e]] eqn:Hc.
  2:{ intros H. injection H as <- <-. apply check_compat_shape in Hc. destruct Hc as (H1 & H2 & H3 & H4 & H5 & H6 & H7 & H8 & H9 & _).
      errcase ltac:(rewrite H1; auto). }
  apply check_compat_shape in Hc. destruct Hc as (H1 & H2 & H3 & H4 & H5 & H6 & H7 & H8 & H9 & H10).
  specialize (H10 eq_refl).
  assert (Hb : forall s2, q_last s2 = q_last s -> q_last s <= q_last (bump_last s2 d) /\ d_num d <= q_last (bump_last s2 d)).
  { intros s2 E. unfold bump_last. destruct (Z.gtb_spec (d_num d) (q_last s2)); simpl; lia. }
  assert (Hdn : forall l, NoDup (map d_num l) -> incl l (q_docs s) -> NoDup (map d_num (docs_add d l))).
  { intros l Hl Hi. destruct H10 as (_ & _ & _ & Hn & _).
    assert (Hn' : ~ In (d_num d) (map d_num l)).
    { intros Hin. apply Hn. apply in_map_iff in Hin. destruct Hin as (x & Hx & Hin). rewrite <- Hx. apply in_map. auto. }
    clear - Hl Hn'. induction l as [|x l IH]; simpl; [repeat constructor; auto|].
    simpl in Hl, Hn'. inversion Hl as [|? ? Hx Hl']; subst. destruct (d_num x <=? d_num d); simpl.
    - constructor; [|apply IH; auto]. intros Hin.
      assert (Hda : forall l0 z, In z (map d_num (docs_add d l0)) -> z = d_num d \/ In z (map d_num l0)).
      { clear. induction l0 as [|w l0 IH]; simpl; intros z Hz; [intuition|].
        destruct (d_num w <=? d_num d); simpl in Hz; [|intuition]. destruct Hz as [Hz|Hz]; [auto|]. apply IH in Hz. intuition. }
      apply Hda in Hin. destruct Hin as [Hin|Hin]; [apply Hn'; auto|contradiction].
    - constructor; [simpl; tauto|]. constructor; assumption. }
  assert (Hfl : forall f, NoDup (map d_num (q_docs s)) -> NoDup (map d_num (filter f (q_docs s))) /\ incl (filter f (q_docs s)) (q_docs s)).
  { intros f Hl. split; [apply NoDup_map_filter; assumption|]. intros x Hx. apply filter_In in Hx. tauto. }
  destruct (insert_or_discard s1 d) as [s2|o2| |e2] eqn:Hio.
  - intros H. injection H as <- <-. apply insert_or_discard_shape in Hio. destruct Hio as [Hid Hdocs]. unfold ident in Hid. injection Hid as I1 I2 I3 I4 I5.
    destruct (bump_last_fields s2 d) as (B1 & B2 & B3 & B4 & B5 & B6 & B7). rewrite B2, B4, B5, B6, B7, Hdocs, I1, I2, I3, I4, H1.
    destruct (Hb s2) as [Hb1 Hb2]; [congruence|]. split; [assumption|]. split; [auto|]. repeat (split; [assumption|]). split; [|intros _; tauto].
    intros Hnd. apply Hdn; [assumption|apply incl_refl].
  - destruct (resolved_begin s1 o2) as [rb|e3]; [|intros H; injection H as <- <-; errcase ltac:(rewrite H1; auto)].
    unfold discard_document. destruct (rb >? d_begin d); [intros H; injection H as <- <-; errcase ltac:(rewrite H1; auto)|].
    intros H. injection H as <- <-.
    destruct (bump_last_fields (set_disc s1 ((d_obj d, rb, d_begin d) :: q_disc s1)) d) as (B1 & B2 & B3 & B4 & B5 & B6 & B7).
    rewrite B2, B4, B5, B6, B7. simpl. rewrite H1.
    destruct (Hb (set_disc s1 ((d_obj d, rb, d_begin d) :: q_disc s1))) as [Hb1 Hb2]; [exact H4|].
    split; [assumption|]. split; [auto|]. repeat (split; [assumption|]). split; [auto|intros _; tauto].
  - destruct (override_sequence s1 d) as [s2 [[]|e2]] eqn:Hov; pose proof Hov as Hov'; apply override_shape in Hov; destruct Hov as [Hid (f & Hf)];
      unfold ident in Hid; injection Hid as I1 I2 I3 I4 I5.
    + destruct (insert_or_discard s2 d) as [s3|o2| |e2] eqn:Hio2.
      * intros H. injection H as <- <-. apply insert_or_discard_shape in Hio2. destruct Hio2 as [Hid2 Hdocs2]. unfold ident in Hid2. injection Hid2 as J1 J2 J3 J4 J5.
        destruct (bump_last_fields s3 d) as (B1 & B2 & B3 & B4 & B5 & B6 & B7). rewrite B2, B4, B5, B6, B7, Hdocs2, J1, J2, J3, J4, I1, I2, I3, I4, Hf, H1.
        destruct (Hb s3) as [Hb1 Hb2]; [congruence|]. split; [assumption|]. split; [auto|]. repeat (split; [assumption|]). split; [|intros _; tauto].
        intros Hnd. apply Hdn; apply Hfl; assumption.
      * intros H. injection H as <- <-. errcase ltac:(rewrite Hf, H1; intros; apply Hfl; assumption).
      * intros H. injection H as <- <-. errcase ltac:(rewrite Hf, H1; intros; apply Hfl; assumption).
      * intros H. injection H as <- <-. errcase ltac:(rewrite Hf, H1; intros; apply Hfl; assumption).
    + intros H. injection H as <- <-. errcase ltac:(rewrite Hf, H1; intros; apply Hfl; assumption).
  - intros H. injection H as <- <-. errcase ltac:(rewrite H1; auto).
Qed.

Lemma call_step_shape s c s' o : call_step s c = (s', o) ->
  q_last s <= q_last s' /\ (forall n, o = Some n -> n <= q_last s')
  /\ q_sid s' = q_sid s /\ q_tb s' = q_tb s /\ q_cm s' = q_cm s
  /\ (q_agid s' = q_agid s \/ q_agid s = None)
  /\ (NoDup (map d_num (q_docs s)) -> NoDup (map d_num (q_docs s'))).
Proof.
  destruct c as [d| |d|b e disc]; simpl.
  - destruct (add_document s d) as [s1 o1] eqn:H. pose proof (add_shape _ _ _ _ H) as (A1 & A2 & A3 & A4 & A5 & A6 & A7 & _).
    intros E. assert (E' : s' = s1 /\ (o = None \/ (not_error o1 /\ o = Some (d_num d)))).
    { destruct o1; injection E as <- <-; split; auto; right; split; simpl; auto. }
    destruct E' as [-> E']. repeat (split; [assumption || tauto|]).
    split; [|auto]. intros n Hn. destruct E' as [->|[Hne ->]]; [discriminate|]. injection Hn as <-. auto.
  - intros H. injection H as <- <-. simpl. split; [lia|]. split; [intros n E; injection E as <-; lia|].
    repeat split; auto.
  - intros H. injection H as <- <-. destruct (discard_before_shape s d) as [Hi (f & Hf)]. unfold ident in Hi. injection Hi as I1 I2 I3 I4 I5.
    split; [lia|]. split; [discriminate|]. repeat (split; [assumption|]). split; [auto|]. intros Hn. rewrite Hf. apply NoDup_map_filter. assumption.
  - intros H. injection H as <- <-. destruct (extract_shape s b e disc) as [Hi (f & Hf)]. unfold ident in Hi. injection Hi as I1 I2 I3 I4 I5.
    split; [lia|]. split; [discriminate|]. repeat (split; [assumption|]). split; [auto|]. intros Hn. rewrite Hf. apply NoDup_map_filter. assumption.
Qed.

Lemma calls_shape cs : forall s,
  q_last s <= q_last (calls s cs)
  /\ Forall (fun n => n <= q_last (calls s cs)) (numbers s cs)
  /\ (forall g, q_agid s = Some g -> q_agid (calls s cs) = Some g)
  /\ q_sid (calls s cs) = q_sid s /\ q_tb (calls s cs) = q_tb s /\ q_cm (calls s cs) = q_cm s
  /\ (NoDup (map d_num (q_docs s)) -> NoDup (map d_num (q_docs (calls s cs)))).
Proof.
  induction cs as [|c cs IH]; intros s; simpl.
  - repeat split; auto; try lia.
  - destruct (call_step s c) as [s1 o] eqn:H. simpl.
    destruct (call_step_shape _ _ _ _ H) as (A1 & A2 & A3 & A4 & A5 & A6 & A7).
    destruct (IH s1) as (B1 & B2 & B3 & B4 & B5 & B6 & B7).
    split; [lia|]. split; [|split; [|repeat split; try congruence; auto]].
    + destruct o as [n|]; [|assumption]. constructor; [|assumption]. specialize (A2 n eq_refl). lia.
    + intros g Hg. apply B3. destruct A6 as [A6|A6]; congruence.
Qed.

Lemma calls_app cs1 cs2 : forall s, calls s (cs1 ++ cs2) = calls (calls s cs1) cs2.
Proof. induction cs1 as [|c cs1 IH]; intros s; simpl; [reflexivity|apply IH]. Qed.

Lemma fresh_number sid tb cm agid cs :
  let s := calls (new_sequence sid tb cm agid) cs in
  Forall (fun n => n < snd (new_document s)) (numbers (new_sequence sid tb cm agid) cs).
Proof.
  cbv zeta. destruct (calls_shape cs (new_sequence sid tb cm agid)) as (_ & H & _).
  eapply Forall_impl; [|exact H]. intros n Hn. cbv beta in Hn. simpl. lia.
Qed.

Lemma unique_numbers sid tb cm agid cs : NoDup (map d_num (q_docs (calls (new_sequence sid tb cm agid) cs))).
Proof. destruct (calls_shape cs (new_sequence sid tb cm agid)) as (_ & _ & _ & _ & _ & _ & H). apply H. constructor. Qed.

Lemma collision_unchanged s d :
  In (d_num d) (map d_num (q_docs s)) ->
  exists e, add_document s d = (s, OError e) /\ (e = EIncompatible \/ e = ECollision).
Proof.
  intros Hin. unfold add_document. destruct (check_compat s d) as [s1 r] eqn:Hc.
  assert (Hr : (r = Err EIncompatible \/ r = Err ECollision) /\ s1 = s).
  { unfold check_compat in Hc. destruct (_ || _); [injection Hc as <- <-; auto|].
    destruct (_ && _); [injection Hc as <- <-; auto|].
    destruct (existsb _ _) eqn:E; [injection Hc as <- <-; auto|]. exfalso.
    apply in_map_iff in Hin. destruct Hin as (x & Hx & Hin).
    assert (existsb (fun x => d_num x =? d_num d) (q_docs s) = true); [|congruence].
    apply existsb_exists. exists x. split; [assumption|]. lia. }
  destruct Hr as [[-> | ->] ->]; eauto.
Qed.

(** A superseded late document. *)
Lemma superseded_untouched s d s' : add_document s d = (s', ODiscarded) ->
  q_docs s' = q_docs s /\ q_tl s' = q_tl s
  /\ (forall x, d_obj x <> d_obj d -> resolved_begin s' x = resolved_begin s x /\ resolved_end s' x = resolved_end s x)
  /\ resolved_begin s' d = Ok (d_begin d)
  /\ exists e, resolved_end s' d = Ok (Some e) /\ e <= d_begin d.
Proof.
  unfold add_document. destruct (check_compat s d) as [s1 [[]|e]] eqn:Hc; [|discriminate].
  apply check_compat_shape in Hc. destruct Hc as (H1 & H2 & H3 & H4 & H5 & H6 & H7 & H8 & H9 & H10).
  destruct (insert_or_discard s1 d) as [s2|o2| |e2]; try discriminate.
  - destruct (resolved_begin s1 o2) as [rb|]; [|discriminate]. unfold discard_document.
    destruct (Z.gtb_spec rb (d_begin d)); [discriminate|]. intros E. injection E as <-.
    destruct (bump_last_fields (set_disc s1 ((d_obj d, rb, d_begin d) :: q_disc s1)) d) as (B1 & B2 & B3 & _).
    simpl in B1, B2, B3.
    split; [congruence|]. split; [congruence|]. split; [|split].
    + intros x Hx. unfold resolved_begin, resolved_end, seq_resolved_begin, seq_resolved_end, disc_lookup, stored, locate.
      rewrite B1, B2, B3, H1, H2, H3. simpl. destruct (Z.eqb_spec (d_obj d) (d_obj x)); [congruence|]. auto.
    + unfold resolved_begin, disc_lookup. rewrite B3. simpl. rewrite Z.eqb_refl. reflexivity.
    + unfold resolved_end, disc_lookup. rewrite B3. simpl. rewrite Z.eqb_refl. eauto.
  - destruct (override_sequence s1 d) as [s2 [[]|e2]]; [|discriminate]. destruct (insert_or_discard s2 d); discriminate.
Qed.

Lemma accepted_compatible s d s' o : add_document s d = (s', o) -> not_error o ->
  q_sid s = d_sid d /\ q_tb s = d_tb d /\ (q_tb s = "clock"%string -> q_cm s = d_cm d)
  /\ (d_agid d = None \/ d_agid d = Some ""%string \/ d_agid d = q_agid s').
Proof. intros H Hne. apply add_shape in H. destruct H as (_ & _ & _ & _ & _ & _ & _ & H). specialize (H Hne). tauto. Qed.

(** In-order delivery is disciplined. *)
Lemma in_order_disciplined rest : forall h last,
  (forall d, In d h -> match last with Some n => d_num d <= n | None => False end) ->
  in_order last rest -> disciplined h rest.
Proof.
  induction rest as [|d rest IH]; intros h last Hh Ho; [exact I|]. destruct Ho as [Ho1 Ho2]. split.
  - right. intros d' Hd' Hlt. specialize (Hh d' Hd'). destruct last; [lia|contradiction].
  - apply (IH _ (Some (d_num d))); [|assumption]. intros x Hx. apply in_app_iff in Hx. destruct Hx as [Hx|[<-|[]]]; [|lia].
    specialize (Hh x Hx). destruct last; [lia|contradiction].
Qed.

Lemma in_order_nodup rest : forall last, in_order last rest -> NoDup (map d_num rest)
  /\ (forall d, In d rest -> match last with Some n => n < d_num d | None => True end).
Proof.
  induction rest as [|d rest IH]; intros last Ho; [split; [constructor|intros ? []]|].
  destruct Ho as [Ho1 Ho2]. destruct (IH _ Ho2) as [H1 H2]. simpl in H2. split.
  - simpl. constructor; [|assumption]. intros Hin. apply in_map_iff in Hin. destruct Hin as (x & Hx & Hin). specialize (H2 x Hin). lia.
  - intros x [<-|Hx]; [assumption|]. specialize (H2 x Hx). destruct last; [lia|exact I].
Qed.

(** Plain deliveries as a special case of interleaved histories. *)
Lemma ops_ok_deliver rest : forall a h,
  Forall doc_wf rest -> NoDup (map d_obj (a ++ rest)) -> NoDup (map d_num (h ++ rest)) -> disciplined h rest ->
  ops_ok a h (map Deliver rest).
Proof.
  induction rest as [|d rest IH]; intros a h Hw Ho Hn Hd; [exact I|].
  inversion Hw as [|? ? Hw1 Hw2]; subst. destruct Hd as [Hd1 Hd2].
  assert (Hsplit : forall (f : document -> Z) l, NoDup (map f (l ++ d :: rest)) -> ~ In (f d) (map f l)).
  { intros f l Hf. rewrite map_app in Hf. simpl in Hf. apply NoDup_remove_2 in Hf. intros HI. apply Hf. apply in_app_iff. auto. }
  simpl. split; [assumption|]. split; [assumption|]. split; [apply Hsplit; assumption|]. split; [apply Hsplit; assumption|].
  apply IH; try assumption; rewrite <- app_assoc; assumption.
Qed.

Lemma live_after_deliver rest : forall h, live_after h (map Deliver rest) = h ++ rest.
Proof. induction rest as [|d rest IH]; intros h; simpl; [rewrite app_nil_r; reflexivity|]. rewrite IH, <- app_assoc. reflexivity. Qed.

Lemma run_ops_deliver rest : forall s, run_ops s (map Deliver rest) = deliver s rest.
Proof.
  induction rest as [|d rest IH]; intros s; [reflexivity|]. simpl. destruct (add_document s d). rewrite IH. reflexivity.
Qed.

Lemma deliver_known sid tb cm agid g h :
  (agid = None \/ agid = Some g) ->
  Forall (belongs sid tb cm g) h -> Forall doc_wf h ->
  NoDup (map d_obj h) -> NoDup (map d_num h) -> disciplined [] h ->
  exists s os a bs, deliver (new_sequence sid tb cm agid) h = (s, os) /\ Forall not_error os
                    /\ known a h sid tb cm g s bs.
Proof.
  intros Hg Hb Hw Ho Hn Hd.
  destruct (run_ops_known sid tb cm g (map Deliver h) [] [] _ _ (known_new sid tb cm agid g Hg)) as (s & os & a & bs & H1 & H2 & H3).
  - apply Forall_forall. intros op Hop. apply in_map_iff in Hop. destruct Hop as (d & <- & Hin). simpl. rewrite Forall_forall in Hb. auto.
  - apply ops_ok_deliver; assumption.
  - rewrite run_ops_deliver in H1. rewrite live_after_deliver in H3. exists s, os, a, bs. auto.
Qed.

Lemma active_unique h t d1 d2 : NoDup (map d_num h) -> active h t d1 -> active h t d2 -> d1 = d2.
Proof.
  intros Hn (H1 & H2 & H3 & _) (G1 & G2 & G3 & _). apply (nodup_inj d_num h Hn); try assumption.
  specialize (H3 d2 G1 G2). specialize (G3 d1 H1 H2). lia.
Qed.

(** Forgetting does not disturb the present. *)
Lemma forget_active h d t x : NoDup (map d_num h) -> scheduled h d -> d_begin d <= t -> 
  (active (live h (Forget d)) t x <-> active h t x).
Proof.
  intros Hnd [Hd Hs] Ht. unfold active, live. split.
  - intros (H1 & H2 & H3 & H4). apply filter_In in H1. destruct H1 as [H1 H1']. repeat split; try assumption.
    intros y Hy Hyt. destruct (Z.leb_spec (d_begin d) (d_begin y)) as [Hle|Hgt].
    + apply H3; [apply filter_In; split; [assumption|lia]|assumption].
    + assert (Hdx : d_num d <= d_num x) by (apply H3; [apply filter_In; split; [assumption|lia]|assumption]).
      destruct (Z.lt_ge_cases (d_num d) (d_num y)) as [Hlt|]; [specialize (Hs y Hy Hlt)|]; lia.
  - intros (H1 & H2 & H3 & H4). repeat split; try assumption.
    + apply filter_In. split; [assumption|]. apply Z.leb_le. specialize (H3 d Hd Ht).
      destruct (Z.lt_ge_cases (d_num d) (d_num x)) as [Hlt|Hge]; [specialize (Hs x H1 Hlt); lia|].
      assert (x = d) by (apply (nodup_inj d_num h Hnd); try assumption; lia). subst x. lia.
    + intros y Hy Hyt. apply filter_In in Hy. apply H3; tauto.
Qed.

Lemma known_forget a h sid tb cm g s bs d :
  known a h sid tb cm g s bs -> scheduled h d ->
  exists s', discard_before s d = (s', Ok tt)
    /\ (forall x, In x (q_docs s') <-> In x (q_docs s) /\ d_begin d <= d_begin x)
    /\ (forall x, In x (q_docs s') -> resolved_begin s' x = resolved_begin s x /\ resolved_end s' x = resolved_end s x)
    /\ (forall t x, d_begin d <= t -> In x h -> d_begin d <= d_begin x -> (presented s' t x <-> presented s t x)).
Proof.
  intros Hk Hsch. pose proof Hk as [Hi Hs Hw Hn Ho].
  destruct (forget_step a h s bs d sid tb cm g Hi Hs Hw Hn Ho Hsch) as (s' & bs' & Hrun & Hi' & Hs' & Hmem).
  assert (Hk' : known a (live h (Forget d)) sid tb cm g s' bs').
  { constructor; try assumption.
    - unfold live. apply Forall_forall. intros x Hx. apply filter_In in Hx. rewrite Forall_forall in Hw. apply Hw. tauto.
    - unfold live. apply nodup_map_filter_num. assumption. }
  exists s'. split; [assumption|]. split; [|split].
  - intros x. rewrite (rep_docs _ _ (hi_rep _ _ _ _ Hi)), (rep_docs _ _ (hi_rep _ _ _ _ Hi')). rewrite !in_map_iff. split.
    + intros (b & <- & Hb). apply Hmem in Hb. split; [exists b; tauto|tauto].
    + intros [(b & <- & Hb) Hle]. exists b. split; [reflexivity|]. apply Hmem. auto.
  - intros x Hx. rewrite (rep_docs _ _ (hi_rep _ _ _ _ Hi')) in Hx. apply in_map_iff in Hx. destruct Hx as ([p e] & <- & Hb).
    destruct (known_resolved _ _ _ _ _ _ _ _ _ _ Hk' Hb) as [E1 E2]. apply Hmem in Hb. destruct Hb as [Hb _].
    destruct (known_resolved _ _ _ _ _ _ _ _ _ _ Hk Hb) as [E3 E4]. simpl. split; congruence.
  - intros t x Ht Hx Hle. rewrite (known_presented _ _ _ _ _ _ _ _ _ _ Hk Hx).
    rewrite (known_presented _ _ _ _ _ _ _ _ _ _ Hk'); [|apply filter_In; split; [assumption|lia]].
    apply forget_active; assumption.
Qed.

(** For pure delivery histories the all-time list is the history itself. *)
Lemma deliver_hinv sid tb cm agid g h :
  (agid = None \/ agid = Some g) ->
  Forall (belongs sid tb cm g) h -> Forall doc_wf h ->
  NoDup (map d_obj h) -> NoDup (map d_num h) -> disciplined [] h ->
  exists s os bs, deliver (new_sequence sid tb cm agid) h = (s, os) /\ hinv h h s bs /\ sane sid tb cm g s.
Proof.
  intros Hg Hb Hw Ho Hn Hd.
  assert (Hgen : forall rest pre s bs, hinv pre pre s bs -> sane sid tb cm g s ->
     Forall (belongs sid tb cm g) rest -> Forall doc_wf rest ->
     NoDup (map d_obj (pre ++ rest)) -> NoDup (map d_num (pre ++ rest)) -> disciplined pre rest ->
     exists s' os bs', deliver s rest = (s', os) /\ hinv (pre ++ rest) (pre ++ rest) s' bs' /\ sane sid tb cm g s').
  { clear. induction rest as [|d rest IH]; intros pre s bs Hi Hs Hb Hw Ho Hn Hd.
    - exists s, [], bs. rewrite app_nil_r. auto.
    - inversion Hb as [|? ? Hb1 Hb2]; subst. inversion Hw as [|? ? Hw1 Hw2]; subst. destruct Hd as [Hd1 Hd2].
      assert (Hsplit : forall f : document -> Z, NoDup (map f (pre ++ d :: rest)) -> NoDup (map f pre) /\ ~ In (f d) (map f pre)).
      { intros f Hf. rewrite map_app in Hf. simpl in Hf. split; [apply NoDup_app_l in Hf; assumption|].
        apply NoDup_remove_2 in Hf. intros HI. apply Hf. apply in_app_iff. auto. }
      destruct (Hsplit _ Ho) as [Ho1 Ho2]. destruct (Hsplit _ Hn) as [_ Hn2].
      destruct (add_step sid tb cm g pre pre s bs d Hi Hs Hb1 Hw1 Ho1 Ho2 Hn2 Hd1) as (s1 & o & bs1 & Hadd & Hi1 & Hs1 & Hoc).
      destruct (IH (pre ++ [d]) s1 bs1 Hi1 Hs1 Hb2 Hw2) as (s2 & os & bs2 & Hrun & Hi2 & Hs2).
      + rewrite <- app_assoc. exact Ho.
      + rewrite <- app_assoc. exact Hn.
      + exact Hd2.
      + exists s2, (o :: os), bs2. simpl. rewrite Hadd, Hrun. rewrite <- app_assoc in Hi2. auto. }
  exact (Hgen h [] _ [] (hinv_new sid tb cm agid) (sane_new sid tb cm agid g Hg) Hb Hw Ho Hn Hd).
Qed.
