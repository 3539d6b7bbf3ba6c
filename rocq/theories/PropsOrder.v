(** C66: documents delivered in any order. *)
From Verif Require Import SequenceModel SequenceSpec SequenceProofs SequenceHistory SequenceInv OrderSpec OrderProofs OrderRunProofs PropsSequence.
Open Scope Z_scope.

(** Whatever the order of delivery: as long as no call that raised has cost the
    sequence a document, it presents at every time the highest-numbered document
    taken that has begun and not ended. Nothing is asked of the documents but
    that each is an object of its own, does not end before it begins, and does
    not end at the time origin. *)
Theorem C66_any_order : forall sid tb cm agid h,
  Forall doc_wf h -> NoDup (map d_obj h) ->
  harmless (new_sequence sid tb cm agid) h ->
  forall t d, In d h ->
  (presented (fst (deliver (new_sequence sid tb cm agid) h)) t d
   <-> active (taken (new_sequence sid tb cm agid) h) t d).
Proof.
  intros sid tb cm agid h Hw Ho Hh t d Hd.
  destruct (deliver_any h [] [] _ _ (oinv_new sid tb cm agid) Hw Ho Hh) as (bs & Hi). rewrite !app_nil_l in Hi.
  eapply oinv_presented; [exact Hi| |exact Ho|exact Hd].
  apply Forall_forall. intros x Hx. rewrite Forall_forall in Hw. apply Hw. apply (o_incl _ _ _ _ Hi). assumption.
Qed.

Lemma all_taken h : forall s, Forall not_error (snd (deliver s h)) -> taken s h = h /\ harmless s h.
Proof.
  induction h as [|d h IH]; intros s H; [simpl; auto|]. simpl in H |- *. destruct (add_document s d) as [s1 o].
  destruct (deliver s1 h) as [s2 os] eqn:E. simpl in H. inversion H as [|? ? H1 H2]; subst.
  specialize (IH s1). rewrite E in IH. destruct (IH H2) as [-> Hh]. destruct o; [auto|auto|destruct H1].
Qed.

(** In particular when no call raises. *)
Theorem C66_no_error : forall sid tb cm agid h,
  Forall doc_wf h -> NoDup (map d_obj h) ->
  Forall not_error (snd (deliver (new_sequence sid tb cm agid) h)) ->
  forall t d, In d h -> (presented (fst (deliver (new_sequence sid tb cm agid) h)) t d <-> active h t d).
Proof.
  intros sid tb cm agid h Hw Ho He t d Hd. destruct (all_taken h _ He) as [Et Hh].
  rewrite <- Et at 2. apply C66_any_order; assumption.
Qed.

(** A call that raises costs the sequence nothing, unless it holds a document
    with a lower number that begins at or after the new one. *)
Theorem C66_harmless : forall sid tb cm agid h d s s' e,
  Forall doc_wf (h ++ [d]) -> NoDup (map d_obj (h ++ [d])) ->
  harmless (new_sequence sid tb cm agid) h ->
  s = fst (deliver (new_sequence sid tb cm agid) h) ->
  add_document s d = (s', OError e) ->
  (forall x, In x (q_docs s) -> d_begin d <= d_begin x -> d_num d <= d_num x) ->
  q_docs s' = q_docs s /\ q_tl s' = q_tl s /\ forall x, resolved_begin s' x = resolved_begin s x /\ resolved_end s' x = resolved_end s x.
Proof.
  intros sid tb cm agid h d s s' e Hw Ho Hh -> Hadd Hno.
  apply Forall_app in Hw. destruct Hw as [Hw Hwd]. inversion Hwd as [|? ? Hwd1 _]; subst.
  rewrite map_app in Ho. pose proof (NoDup_app_l _ _ Ho) as Ho1.
  assert (Ho2 : ~ In (d_obj d) (map d_obj h)) by (apply NoDup_remove_2 in Ho; rewrite app_nil_r in Ho; exact Ho).
  destruct (deliver_any h [] [] _ _ (oinv_new sid tb cm agid) Hw Ho1 Hh) as (bs & Hi). rewrite !app_nil_l in Hi.
  pose proof (add_any _ _ _ _ d Hi Hwd1 Ho1 Ho2) as A. rewrite Hadd in A.
  inversion A as [? bs' o Hoc|? ? H1 H2 H3|? ? b Hb Hk Hd]; subst.
  - destruct Hoc as [X|[X _]]; discriminate.
  - split; [assumption|]. split; [assumption|]. intros x.
    unfold resolved_begin, resolved_end, disc_lookup, seq_resolved_begin, seq_resolved_end, stored, locate. rewrite H1, H2, H3. auto.
  - exfalso. specialize (Hno (fst b)). rewrite (o_docs _ _ _ _ Hi) in Hno. specialize (Hno (in_map fst _ _ Hb)).
    unfold okill in Hk. lia.
Qed.

Lemma deliver_snoc h d : forall s, deliver s (h ++ [d]) =
  let '(s1, os) := deliver s h in let '(s2, o) := add_document s1 d in (s2, os ++ [o]).
Proof.
  induction h as [|x h IH]; intros s; simpl.
  - destruct (add_document s d). reflexivity.
  - destruct (add_document s x) as [s1 o]. rewrite IH. destruct (deliver s1 h) as [s2 os]. destruct (add_document s2 d). reflexivity.
Qed.

(** After a disciplined history a document with an end is always taken, however
    late it is and whatever it overlaps, and what is presented is right. *)
Theorem C66_late : forall sid tb cm agid g h d,
  (agid = None \/ agid = Some g) ->
  Forall (belongs sid tb cm g) (h ++ [d]) -> Forall doc_wf (h ++ [d]) ->
  NoDup (map d_obj (h ++ [d])) -> NoDup (map d_num (h ++ [d])) -> disciplined [] h ->
  d_end d <> None ->
  Forall not_error (snd (deliver (new_sequence sid tb cm agid) (h ++ [d])))
  /\ forall t x, In x (h ++ [d]) ->
     (presented (fst (deliver (new_sequence sid tb cm agid) (h ++ [d]))) t x <-> active (h ++ [d]) t x).
Proof.
  intros sid tb cm agid g h d Hg Hb Hw Ho Hn Hd He.
  assert (NE : Forall not_error (snd (deliver (new_sequence sid tb cm agid) (h ++ [d])))).
  { apply Forall_app in Hb. destruct Hb as [Hb Hbd]. apply Forall_app in Hw. destruct Hw as [Hw Hwd].
    rewrite map_app in Ho, Hn. simpl in Ho, Hn.
    destruct (deliver_known sid tb cm agid g h Hg Hb Hw (NoDup_app_l _ _ Ho) (NoDup_app_l _ _ Hn) Hd) as (s0 & os0 & a & bs & H1 & H2 & _).
    destruct (deliver_hinv sid tb cm agid g h Hg Hb Hw (NoDup_app_l _ _ Ho) (NoDup_app_l _ _ Hn) Hd) as (s1 & os1 & bs1 & G1 & G2 & G3).
    rewrite H1 in G1. injection G1 as <- <-.
    inversion Hbd as [|? ? Hbd1 _]; subst. inversion Hwd as [|? ? Hwd1 _]; subst.
    apply NoDup_remove_2 in Ho as Ho2. apply NoDup_remove_2 in Hn as Hn2. rewrite app_nil_r in Ho2, Hn2.
    rewrite deliver_snoc, H1.
    pose proof (add_closed sid tb cm g h h s0 bs1 d G2 G3 Hbd1 Hwd1 Ho2 Hn2 He) as X.
    destruct (add_document s0 d) as [s2 o]. simpl in *. apply Forall_app. auto. }
  split; [exact NE|]. apply C66_no_error; assumption.
Qed.

(** A document without an end that is followed by a newer one is never taken,
    and the documents it would have replaced are lost. *)
Theorem C66_open : forall sid tb cm agid g h d,
  (agid = None \/ agid = Some g) ->
  Forall (belongs sid tb cm g) (h ++ [d]) -> Forall doc_wf (h ++ [d]) ->
  NoDup (map d_obj (h ++ [d])) -> NoDup (map d_num (h ++ [d])) -> disciplined [] h ->
  d_end d = None -> ~ superseded h d -> followed h d ->
  let s := fst (deliver (new_sequence sid tb cm agid) h) in
  snd (add_document s d) = OError ETypeError
  /\ q_docs (fst (add_document s d)) = filter (fun x => negb ((d_num x <? d_num d) && (d_begin d <=? d_begin x))) (q_docs s).
Proof.
  intros sid tb cm agid g h d Hg Hb Hw Ho Hn Hd He Hs (d' & Hd' & Hn' & _) s.
  apply Forall_app in Hb. destruct Hb as [Hb Hbd]. apply Forall_app in Hw. destruct Hw as [Hw Hwd].
  rewrite map_app in Ho, Hn. simpl in Ho, Hn.
  destruct (deliver_hinv sid tb cm agid g h Hg Hb Hw (NoDup_app_l _ _ Ho) (NoDup_app_l _ _ Hn) Hd) as (s1 & os1 & bs & G1 & G2 & G3).
  subst s. rewrite G1. simpl.
  inversion Hbd as [|? ? Hbd1 _]; subst. inversion Hwd as [|? ? Hwd1 _]; subst.
  apply NoDup_remove_2 in Ho as Ho2. apply NoDup_remove_2 in Hn as Hn2. rewrite app_nil_r in Ho2, Hn2.
  destruct (add_open sid tb cm g h h s1 bs d G2 G3 Hbd1 Hwd1 Ho2 Hn2 He) as [R1 R2].
  - intros (b & Hin & H1 & H2). apply Hs. exists (fst b). split; [apply (hi_sub _ _ _ _ G2); assumption|auto].
  - destruct (hi_dom _ _ _ _ G2 d' Hd') as (b & Hin & H1 & H2). exists b. split; [assumption|lia].
  - split; [exact R1|]. rewrite R2, (rep_docs _ _ (hi_rep _ _ _ _ G2)), map_filter_comm. reflexivity.
Qed.

(** Documents are lost even when all have ends: the document that gave way is
    gone although the one that replaced it was refused. *)
Theorem C66_lost : exists h d x,
  Forall (belongs "seq" "media" None "ag") (h ++ [d]) /\ Forall doc_wf (h ++ [d]) /\
  Forall (fun y => d_end y <> None) (h ++ [d]) /\
  NoDup (map d_obj (h ++ [d])) /\ NoDup (map d_num (h ++ [d])) /\
  let s := fst (deliver (new_sequence "seq" "media" None None) h) in
  Forall not_error (snd (deliver (new_sequence "seq" "media" None None) h)) /\
  (forall t, 50 <= t < 80 -> presented s t x) /\
  snd (add_document s d) = OError EInconsistent /\
  (forall t, ~ presented (fst (add_document s d)) t x) /\ (forall t, ~ presented (fst (add_document s d)) t d).
Proof.
  exists [ex_doc 5 50 (Some 80); ex_doc 1 0 (Some 100); ex_doc 3 20 (Some 30)], (ex_doc 7 25 (Some 60)), (ex_doc 5 50 (Some 80)).
  split; [repeat constructor; simpl; auto; discriminate|]. split; [repeat constructor; simpl; lia|].
  split; [repeat constructor; simpl; discriminate|]. split; [nodup_z|]. split; [nodup_z|].
  cbv zeta. split; [vm_compute; repeat constructor|]. split; [|split; [vm_compute; reflexivity|split]].
  - intros t Ht. exists 50, (Some 80). split; [vm_compute; reflexivity|]. split; [vm_compute; reflexivity|]. lia.
  - intros t (rb & re & E1 & E2 & H1 & H2). vm_compute in E1, E2. injection E1 as <-. injection E2 as <-. lia.
  - intros t (rb & re & E1 & _). vm_compute in E1. discriminate.
Qed.

(** An end at the time origin is reported as no end: the document is presented
    for ever (doc_wf excludes it). *)
Theorem C66_zero_end : exists d,
  d_begin d = 0 /\ d_end d = Some 0 /\
  (forall t, 0 <= t -> presented (fst (deliver (new_sequence "seq" "media" None None) [d])) t d) /\ (forall t, ~ active [d] t d).
Proof.
  exists (ex_doc 1 0 (Some 0)). split; [reflexivity|]. split; [reflexivity|]. split.
  - intros t Ht. exists 0, None. split; [vm_compute; reflexivity|]. split; [vm_compute; reflexivity|]. auto.
  - intros t (_ & H1 & _ & H2). simpl in *. lia.
Qed.

(** ** Cases *)

Definition om_new := new_sequence "seq" "media" None None.

(** Late and overlapping documents, one raising call that costs nothing (document
    6, refused as document 3 is in C03), and a collision. *)
Definition om_history : list document :=
  [ex_doc 5 50 (Some 80); ex_doc 1 0 (Some 100); ex_doc 3 20 (Some 30); ex_doc 6 80 (Some 90);
   mkDoc 40 "seq" "media" None None 5 90 None; ex_doc 2 10 (Some 70)].

Example C66_case_any_order :
  Forall doc_wf om_history /\ NoDup (map d_obj om_history) /\ harmless om_new om_history /\
  snd (deliver om_new om_history) = [OInserted; OInserted; OInserted; OError EInconsistent; OError ECollision; OInserted] /\
  taken om_new om_history = [ex_doc 5 50 (Some 80); ex_doc 1 0 (Some 100); ex_doc 3 20 (Some 30); ex_doc 2 10 (Some 70)] /\
  resolved_end (fst (deliver om_new om_history)) (ex_doc 1 0 (Some 100)) = Ok (Some 10) /\
  resolved_end (fst (deliver om_new om_history)) (ex_doc 2 10 (Some 70)) = Ok (Some 20).
Proof.
  split; [repeat constructor; simpl; lia|]. split; [nodup_z|]. split; [vm_compute; tauto|]. repeat apply conj; vm_compute; reflexivity.
Qed.

Example C66_case_trimmed :
  let h := [ex_doc 1 0 (Some 9); ex_doc 5 50 (Some 80)] in
  snd (deliver om_new (h ++ [ex_doc 3 20 (Some 60)])) = [OInserted; OInserted; OInserted] /\
  resolved_end (fst (deliver om_new (h ++ [ex_doc 3 20 (Some 60)]))) (ex_doc 3 20 (Some 60)) = Ok (Some 50) /\
  disciplined [] h /\ ~ late_ok h (ex_doc 3 20 (Some 60)).
Proof.
  cbv zeta. split; [vm_compute; reflexivity|]. split; [vm_compute; reflexivity|]. split.
  - simpl. split; [right; intros ? []|]. split; [|exact I]. right. intros d' [<-|[]] H. simpl in H. lia.
  - intros [(d' & [<-|[<-|[]]] & H1 & H2)|H]; simpl in *; try lia.
    destruct (H (ex_doc 5 50 (Some 80))) as (x & E & Hx); [auto|simpl; lia|]. injection E as <-. simpl in Hx. lia.
Qed.

Example C66_case_open :
  let h := [ex_doc 1 20 (Some 25); ex_doc 3 30 (Some 40)] in
  let d := ex_doc 2 10 None in
  disciplined [] h /\ ~ superseded h d /\ followed h d /\
  q_docs (fst (deliver om_new h)) = h /\
  snd (add_document (fst (deliver om_new h)) d) = OError ETypeError /\
  q_docs (fst (add_document (fst (deliver om_new h)) d)) = [ex_doc 3 30 (Some 40)].
Proof.
  cbv zeta. split; [|split; [|split; [|vm_compute; auto]]].
  - simpl. split; [right; intros ? []|]. split; [|exact I]. right. intros d' [<-|[]] H. simpl in H. lia.
  - intros (d' & [<-|[<-|[]]] & H1 & H2); simpl in *; lia.
  - exists (ex_doc 3 30 (Some 40)). split; [right; left; reflexivity|]. split; reflexivity.
Qed.

Print Assumptions C66_any_order.
Print Assumptions C66_no_error.
Print Assumptions C66_harmless.
Print Assumptions C66_late.
Print Assumptions C66_open.
Print Assumptions C66_lost.
Print Assumptions C66_zero_end.
