(** C01-C10: the document sequence. *)
From Verif Require Import SequenceModel SequenceSpec SequenceProofs SequenceHistory SequenceInv.
From Coq Require Import Sorting.Sorted.
Open Scope Z_scope.

(** ** C01 *)
Theorem C01_active_document : forall sid tb cm agid g h,
  (agid = None \/ agid = Some g) ->
  Forall (belongs sid tb cm g) h -> Forall doc_wf h ->
  NoDup (map d_obj h) -> NoDup (map d_num h) -> disciplined [] h ->
  exists s os, deliver (new_sequence sid tb cm agid) h = (s, os)
    /\ Forall not_error os
    /\ (forall t d, In d h -> (presented s t d <-> active h t d))
    /\ (forall t d1 d2, In d1 h -> In d2 h -> presented s t d1 -> presented s t d2 -> d1 = d2).
Proof.
  intros sid tb cm agid g h Hg Hb Hw Ho Hn Hd.
  destruct (deliver_known sid tb cm agid g h Hg Hb Hw Ho Hn Hd) as (s & os & a & bs & H1 & H2 & H3).
  exists s, os. split; [exact H1|]. split; [exact H2|].
  assert (Hiff : forall t d, In d h -> (presented s t d <-> active h t d))
    by (intros t d Hin; exact (known_presented _ _ _ _ _ _ _ _ t d H3 Hin)).
  split; [exact Hiff|]. intros t d1 d2 I1 I2 P1 P2.
  apply (active_unique h t); [exact Hn|apply Hiff; assumption|apply Hiff; assumption].
Qed.

(** The same for histories in which documents are also forgotten with
    discard_before: what is presented depends on the live documents only. *)
Theorem C01_active_document_with_discard : forall sid tb cm agid g ops,
  (agid = None \/ agid = Some g) ->
  Forall (op_belongs sid tb cm g) ops -> ops_ok [] [] ops ->
  exists s os, run_ops (new_sequence sid tb cm agid) ops = (s, os)
    /\ Forall not_error os
    /\ (forall t d, In d (live_after [] ops) -> (presented s t d <-> active (live_after [] ops) t d)).
Proof.
  intros sid tb cm agid g ops Hg Hb Hok.
  destruct (run_ops_known sid tb cm g ops [] [] _ _ (known_new sid tb cm agid g Hg) Hb Hok) as (s & os & a & bs & H1 & H2 & H3).
  exists s, os. split; [exact H1|]. split; [exact H2|].
  intros t d Hin. exact (known_presented _ _ _ _ _ _ _ _ t d H3 Hin).
Qed.

Definition ex_doc (n b : Z) (e : option Z) : document :=
  mkDoc n "seq" "media" None (Some "ag"%string) n b e.

(** A non-trivial disciplined history: a late document in a gap, an overriding
    document, and a superseded one. *)
Definition ex_history : list document :=
  [ex_doc 2 10 (Some 20); ex_doc 1 0 (Some 9); ex_doc 5 12 (Some 40); ex_doc 4 12 None; ex_doc 3 11 (Some 11); ex_doc 6 30 None].

Ltac nodup_z := repeat (constructor; [simpl; intuition discriminate|]); constructor.

Example C01_hypotheses_met :
  Forall (belongs "seq" "media" None "ag") ex_history /\ Forall doc_wf ex_history
  /\ NoDup (map d_obj ex_history) /\ NoDup (map d_num ex_history) /\ disciplined [] ex_history
  /\ snd (deliver (new_sequence "seq" "media" None None) ex_history)
     = [OInserted; OInserted; OInserted; ODiscarded; OInserted; OInserted].
Proof.
  split; [|split; [|split; [|split; [|split]]]].
  - repeat constructor; simpl; auto; discriminate.
  - repeat constructor; simpl; lia.
  - nodup_z.
  - nodup_z.
  - simpl. split; [right; intros ? []|].
    split; [right; intros d' [<-|[]] H; exists 9; split; [reflexivity|simpl; lia]|].
    split; [right; intros d' [<-|[<-|[]]] H; simpl in H; lia|].
    split; [left; exists (ex_doc 5 12 (Some 40)); simpl; intuition lia|].
    split; [right; intros d' [<-|[<-|[<-|[<-|[]]]]] H; simpl in H; try lia; exists 11; split; try reflexivity; simpl; lia|].
    split; [|exact I]. right. intros d' Hin H. simpl in Hin. intuition; subst; simpl in H; lia.
  - vm_compute. reflexivity.
Qed.

Example C01_with_discard_met :
  ops_ok [] [] [Deliver (ex_doc 1 0 (Some 9)); Deliver (ex_doc 2 10 (Some 20)); Forget (ex_doc 2 10 (Some 20)); Deliver (ex_doc 3 30 None)]
  /\ live_after [] [Deliver (ex_doc 1 0 (Some 9)); Deliver (ex_doc 2 10 (Some 20)); Forget (ex_doc 2 10 (Some 20)); Deliver (ex_doc 3 30 None)]
     = [ex_doc 2 10 (Some 20); ex_doc 3 30 None].
Proof.
  split; [|reflexivity]. simpl. unfold doc_wf, late_ok, scheduled. simpl.
  repeat split; try lia; try (right; intros; intuition; subst; simpl in *; lia); try (intuition lia); auto.
  intros x [<-|[<-|[]]]; simpl; lia.
Qed.

(** ** C02 *)
Theorem C02_in_order_never_fails : forall sid tb cm agid g h,
  (agid = None \/ agid = Some g) ->
  Forall (belongs sid tb cm g) h -> Forall doc_wf h -> NoDup (map d_obj h) -> in_order None h ->
  Forall not_error (snd (deliver (new_sequence sid tb cm agid) h)).
Proof.
  intros sid tb cm agid g h Hg Hb Hw Ho Hin.
  destruct (deliver_known sid tb cm agid g h Hg Hb Hw Ho) as (s & os & a & bs & H1 & H2 & H3).
  - apply (in_order_nodup h None Hin).
  - apply (in_order_disciplined h [] None); [intros ? []|exact Hin].
  - rewrite H1. exact H2.
Qed.

Example C02_hypotheses_met :
  in_order None [ex_doc 1 0 None; ex_doc 4 50 (Some 60); ex_doc 7 20 (Some 55); ex_doc 9 20 (Some 20)]
  /\ snd (deliver (new_sequence "seq" "media" None None) [ex_doc 1 0 None; ex_doc 4 50 (Some 60); ex_doc 7 20 (Some 55); ex_doc 9 20 (Some 20)])
     = [OInserted; OInserted; OInserted; OInserted].
Proof. split; [simpl; lia|vm_compute; reflexivity]. Qed.

(** ** C03: without the discipline the sequence can be poisoned. *)
Theorem C03_out_of_order_poison : exists h,
  Forall (belongs "seq" "media" None "ag") h /\ Forall doc_wf h
  /\ NoDup (map d_obj h) /\ NoDup (map d_num h) /\ List.length h = 3%nat
  /\ snd (deliver (new_sequence "seq" "media" None None) h) = [OInserted; OInserted; OError EInconsistent].
Proof.
  exists [ex_doc 2 10 (Some 20); ex_doc 1 0 (Some 10); ex_doc 3 20 (Some 30)].
  split; [repeat constructor; simpl; auto; discriminate|]. split; [repeat constructor; simpl; lia|].
  split; [nodup_z|]. split; [nodup_z|]. split; [reflexivity|]. vm_compute. reflexivity.
Qed.

(** An open-ended late document even raises TypeError at once. *)
Theorem C03_open_ended_late_document : exists h,
  Forall (belongs "seq" "media" None "ag") h /\ Forall doc_wf h
  /\ NoDup (map d_obj h) /\ NoDup (map d_num h)
  /\ snd (deliver (new_sequence "seq" "media" None None) h) = [OInserted; OError ETypeError].
Proof.
  exists [ex_doc 2 10 (Some 20); ex_doc 1 0 None].
  split; [repeat constructor; simpl; auto; discriminate|]. split; [repeat constructor; simpl; lia|].
  split; [nodup_z|]. split; [nodup_z|]. vm_compute. reflexivity.
Qed.

(** ** C04 *)
Theorem C04_superseded_untouched : forall s d s',
  add_document s d = (s', ODiscarded) ->
  q_docs s' = q_docs s /\ q_tl s' = q_tl s
  /\ (forall x, d_obj x <> d_obj d -> resolved_begin s' x = resolved_begin s x /\ resolved_end s' x = resolved_end s x)
  /\ resolved_begin s' d = Ok (d_begin d)
  /\ exists e, resolved_end s' d = Ok (Some e) /\ e <= d_begin d.
Proof. exact superseded_untouched. Qed.

(** When that happens: exactly for documents superseded by the history. *)
Theorem C04_superseded_iff : forall sid tb cm agid g h d,
  (agid = None \/ agid = Some g) ->
  Forall (belongs sid tb cm g) (h ++ [d]) -> Forall doc_wf (h ++ [d]) ->
  NoDup (map d_obj (h ++ [d])) -> NoDup (map d_num (h ++ [d])) -> disciplined [] h -> late_ok h d ->
  forall s os, deliver (new_sequence sid tb cm agid) h = (s, os) ->
  (snd (add_document s d) = ODiscarded
   <-> exists d', In d' h /\ d_num d < d_num d' /\ d_begin d' <= d_begin d).
Proof.
  intros sid tb cm agid g h d Hg Hb Hw Ho Hn Hd Hl s os Hrun.
  apply Forall_app in Hb. destruct Hb as [Hb Hbd]. apply Forall_app in Hw. destruct Hw as [Hw Hwd].
  rewrite map_app in Ho, Hn. simpl in Ho, Hn.
  destruct (deliver_known sid tb cm agid g h Hg Hb Hw (NoDup_app_l _ _ Ho) (NoDup_app_l _ _ Hn) Hd) as (s0 & os0 & a & bs & H1 & H2 & [K1 K2 K3 K4 K5]).
  rewrite Hrun in H1. injection H1 as <- <-.
  (* the all-time list of a pure delivery history is h itself *)
  destruct (deliver_hinv sid tb cm agid g h Hg Hb Hw (NoDup_app_l _ _ Ho) (NoDup_app_l _ _ Hn) Hd) as (s1 & os1 & bs1 & G1 & G2 & G3).
  rewrite Hrun in G1. injection G1 as <- <-.
  inversion Hbd as [|? ? Hbd1 _]; subst. inversion Hwd as [|? ? Hwd1 _]; subst.
  apply NoDup_remove_2 in Ho as Ho2. apply NoDup_remove_2 in Hn as Hn2. rewrite app_nil_r in Ho2, Hn2.
  destruct (add_step sid tb cm g h h s bs1 d G2 G3 Hbd1 Hwd1 (NoDup_app_l _ _ Ho) Ho2 Hn2 Hl) as (s2 & o & bs2 & Hadd & _ & _ & Hoc).
  rewrite Hadd. simpl. fold (dominated h d). destruct Hoc as [[-> Hdm]|[-> Hdm]]; split; auto; try discriminate. intros Hx; contradiction.
Qed.

Example C04_met :
  let s := fst (deliver (new_sequence "seq" "media" None None) [ex_doc 2 10 (Some 20)]) in
  snd (add_document s (ex_doc 1 15 None)) = ODiscarded
  /\ resolved_end (fst (add_document s (ex_doc 1 15 None))) (ex_doc 1 15 None) = Ok (Some 10)
  /\ resolved_end (fst (add_document s (ex_doc 1 15 None))) (ex_doc 2 10 (Some 20)) = Ok (Some 20).
Proof. vm_compute. auto. Qed.

(** ** C05 *)
Theorem C05_numbers_unique : forall sid tb cm agid cs,
  NoDup (map d_num (q_docs (calls (new_sequence sid tb cm agid) cs))).
Proof. exact unique_numbers. Qed.

Theorem C05_collision_rejected : forall s d,
  In (d_num d) (map d_num (q_docs s)) ->
  exists e, add_document s d = (s, OError e) /\ (e = EIncompatible \/ e = ECollision).
Proof. exact collision_unchanged. Qed.

Example C05_met :
  q_docs (calls (new_sequence "seq" "media" None None)
    [CallAdd (ex_doc 1 0 (Some 5)); CallAdd (ex_doc 1 7 None); CallNew; CallAdd (ex_doc 3 10 None); CallExtract (Some 1) (Some 20) true])
  = [ex_doc 3 10 None].
Proof. vm_compute. reflexivity. Qed.

(** ** C06 *)
Theorem C06_authors_group_fixed : forall s cs g,
  q_agid s = Some g -> q_agid (calls s cs) = Some g.
Proof. intros s cs g H. destruct (calls_shape cs s) as (_ & _ & H3 & _). exact (H3 g H). Qed.

Theorem C06_accepted_compatible : forall s d s' o,
  add_document s d = (s', o) -> not_error o ->
  q_sid s = d_sid d /\ q_tb s = d_tb d /\ (q_tb s = "clock"%string -> q_cm s = d_cm d)
  /\ (d_agid d = None \/ d_agid d = Some ""%string \/ d_agid d = q_agid s').
Proof. exact accepted_compatible. Qed.

Theorem C06_identity_fixed : forall s cs,
  q_sid (calls s cs) = q_sid s /\ q_tb (calls s cs) = q_tb s /\ q_cm (calls s cs) = q_cm s.
Proof. intros s cs. destruct (calls_shape cs s) as (_ & _ & _ & H4 & H5 & H6 & _). auto. Qed.

Example C06_met :
  let s := calls (new_sequence "seq" "media" None None) [CallAdd (ex_doc 1 0 (Some 5))] in
  q_agid s = Some "ag"%string
  /\ snd (add_document s (mkDoc 9 "seq" "media" None (Some "other"%string) 9 7 None)) = OError EAuthorsGroup
  /\ snd (add_document s (mkDoc 9 "seq" "media" None (Some ""%string) 9 7 None)) = OInserted.
Proof. vm_compute. auto. Qed.

(** ** C07 *)
Theorem C07_fresh_numbers : forall sid tb cm agid cs,
  let s := calls (new_sequence sid tb cm agid) cs in
  Forall (fun n => n < snd (new_document s)) (numbers (new_sequence sid tb cm agid) cs).
Proof. exact fresh_number. Qed.

Theorem C07_counter_monotone : forall s cs,
  q_last s <= q_last (calls s cs) /\ Forall (fun n => n <= q_last (calls s cs)) (numbers s cs).
Proof. intros s cs. destruct (calls_shape cs s) as (H1 & H2 & _). auto. Qed.

Example C07_met :
  numbers (new_sequence "seq" "media" None None)
    [CallNew; CallAdd (ex_doc 7 0 (Some 5)); CallNew; CallAdd (ex_doc 3 10 (Some 2)); CallAdd (ex_doc 7 1 None); CallNew]
  = [1; 7; 8; 3; 9].
Proof. vm_compute. reflexivity. Qed.

(** ** C08 *)
Theorem C08_lookup_exact : forall sid tb cm agid g ops s os b e,
  (agid = None \/ agid = Some g) ->
  Forall (op_belongs sid tb cm g) ops -> ops_ok [] [] ops ->
  run_ops (new_sequence sid tb cm agid) ops = (s, os) -> bounds_ok b e ->
  (forall d, In d (lookup_range doc_eqb (q_tl s) b e) <-> In d (q_docs s) /\ overlaps s b e d)
  /\ StronglySorted (fun x y => d_begin x < d_begin y) (lookup_range doc_eqb (q_tl s) b e).
Proof.
  intros sid tb cm agid g ops s os b e Hg Hb Hok Hrun Hbe.
  destruct (run_ops_known sid tb cm g ops [] [] _ _ (known_new sid tb cm agid g Hg) Hb Hok) as (s' & os' & a & bs & H1 & H2 & H3).
  rewrite Hrun in H1. injection H1 as <- <-. exact (known_lookup_spec _ _ _ _ _ _ _ _ b e H3 Hbe).
Qed.

Example C08_met :
  let s := fst (deliver (new_sequence "seq" "media" None None) ex_history) in
  map d_num (lookup_range doc_eqb (q_tl s) (Some 9) (Some 12)) = [2; 3]
  /\ map d_num (lookup_range doc_eqb (q_tl s) (Some 9) (Some 13)) = [2; 3; 5]
  /\ map d_num (lookup_range doc_eqb (q_tl s) (Some 12) None) = [5; 6].
Proof. vm_compute. auto. Qed.

(** ** C09 *)
Theorem C09_discard_before : forall sid tb cm agid g ops s os d,
  (agid = None \/ agid = Some g) ->
  Forall (op_belongs sid tb cm g) ops -> ops_ok [] [] ops ->
  run_ops (new_sequence sid tb cm agid) ops = (s, os) -> scheduled (live_after [] ops) d ->
  exists s', discard_before s d = (s', Ok tt)
    /\ (forall x, In x (q_docs s') <-> In x (q_docs s) /\ d_begin d <= d_begin x)
    /\ (forall x, In x (q_docs s') -> resolved_begin s' x = resolved_begin s x /\ resolved_end s' x = resolved_end s x)
    /\ (forall t x, d_begin d <= t -> In x (live_after [] ops) -> d_begin d <= d_begin x ->
          (presented s' t x <-> presented s t x)).
Proof.
  intros sid tb cm agid g ops s os d Hg Hb Hok Hrun Hsch.
  destruct (run_ops_known sid tb cm g ops [] [] _ _ (known_new sid tb cm agid g Hg) Hb Hok) as (s' & os' & a & bs & H1 & H2 & H3).
  rewrite Hrun in H1. injection H1 as <- <-. exact (known_forget _ _ _ _ _ _ _ _ d H3 Hsch).
Qed.

Example C09_met :
  let s := fst (deliver (new_sequence "seq" "media" None None) ex_history) in
  scheduled ex_history (ex_doc 5 12 (Some 40))
  /\ map d_num (q_docs s) = [1; 2; 3; 5; 6]
  /\ map d_num (q_docs (fst (discard_before s (ex_doc 5 12 (Some 40))))) = [5; 6].
Proof.
  split; [|vm_compute; auto]. split; [simpl; auto|]. intros x Hin H. simpl in Hin. intuition; subst; simpl in *; lia.
Qed.

(** ** C10 *)
Theorem C10_windows_tile : forall sid tb cm agid g ops s os b e,
  (agid = None \/ agid = Some g) ->
  Forall (op_belongs sid tb cm g) ops -> ops_ok [] [] ops ->
  run_ops (new_sequence sid tb cm agid) ops = (s, os) -> bounds_ok b e ->
  exists ws, snd (seq_extract s b e false) = Ok ws
    /\ tiles b e ws
    /\ forall t d, In d (live_after [] ops) -> after_begin b t -> before_end t e -> presented s t d ->
         exists wb we, In (d, wb, we) ws /\ after_begin wb t /\ before_end t we.
Proof.
  intros sid tb cm agid g ops s os b e Hg Hb Hok Hrun Hbe.
  destruct (run_ops_known sid tb cm g ops [] [] _ _ (known_new sid tb cm agid g Hg) Hb Hok) as (s' & os' & a & bs & H1 & H2 & H3).
  rewrite Hrun in H1. injection H1 as <- <-.
  destruct (known_windows _ _ _ _ _ _ _ _ b e H3 Hbe) as (ws & W1 & W2 & W3).
  exists ws. split; [unfold seq_extract; rewrite W1; reflexivity|]. split; assumption.
Qed.

Example C10_met :
  let s := fst (deliver (new_sequence "seq" "media" None None) ex_history) in
  match snd (seq_extract s (Some 5) (Some 35) false) with
  | Ok ws => map (fun w => (d_num (fst (fst w)), snd (fst w), snd w)) ws
             = [(1, Some 5, Some 9); (2, Some 9, Some 11); (3, Some 11, Some 11); (5, Some 11, Some 30); (6, Some 30, Some 35)]
  | Err _ => False
  end.
Proof. vm_compute. reflexivity. Qed.

Print Assumptions C01_active_document.
Print Assumptions C01_active_document_with_discard.
Print Assumptions C02_in_order_never_fails.
Print Assumptions C03_out_of_order_poison.
Print Assumptions C04_superseded_untouched.
Print Assumptions C04_superseded_iff.
Print Assumptions C05_numbers_unique.
Print Assumptions C05_collision_rejected.
Print Assumptions C06_authors_group_fixed.
Print Assumptions C06_accepted_compatible.
Print Assumptions C07_fresh_numbers.
Print Assumptions C08_lookup_exact.
Print Assumptions C09_discard_before.
Print Assumptions C10_windows_tile.
