(** Property C24: the re-sequencing node. *)

From Coq Require Import List ZArith String Bool Lia.
From Verif Require Import SequenceModel SequenceSpec NodeModel NodeSpec NodeProofs ReseqProofs.
Import ListNotations.
Open Scope string_scope.
Open Scope Z_scope.

Notation run_reseq out len discard start l := (run (reseq_step out len discard) (r0 start) l).

(** Any interleaving of documents and ticks, whatever the documents are and
    whichever ticks fail: the segments that leave are numbered 1, 2, 3, ...; the
    k-th covers [len] from start + (k-1) len on. *)
Theorem C24_tiling : forall out len discard start l,
  let gs := segments (snd (run_reseq out len discard start l)) in
  map (fun g => (sg_num g, sg_begin g, sg_end g)) gs =
    map (fun k => (Z.of_nat k + 1, start + Z.of_nat k * len, start + (Z.of_nat k + 1) * len))
        (seq 0 (List.length gs)) /\
  Forall (fun g => sg_sid g = out) gs.
Proof. intros out len discard start l gs. apply (reseq_state out len discard start l). Qed.

(** Ticks before the first document do nothing at all. *)
Theorem C24_before : forall out len discard start bs,
  run_reseq out len discard start (map RTick bs) = (r0 start, map (fun _ => RNothing) bs).
Proof.
  intros out len discard start bs. induction bs as [|b bs IH]; auto.
  cbn [map run]. change (reseq_step out len discard (r0 start) (RTick b)) with (r0 start, RNothing).
  cbv iota beta. rewrite IH. auto.
Qed.

(** A tick that fails leaves the window where it was. *)
Theorem C24_failed : forall out len discard start l built,
  let s := fst (run_reseq out len discard start l) in
  (forall g, snd (reseq_step out len discard s (RTick built)) <> RSegment g) ->
  rs_end (fst (reseq_step out len discard s (RTick built))) = rs_end s /\
  rs_counter (fst (reseq_step out len discard s (RTick built))) = rs_counter s.
Proof.
  intros out len discard start l built s H.
  destruct (reseq_step out len discard s (RTick built)) as [s' o] eqn:E.
  destruct (reseq_step_cases _ _ _ _ _ _ _ E) as [(_ & A & B)|(q & ws & _ & _ & -> & _)]; auto.
  exfalso. eapply H. reflexivity.
Qed.

(** The node settles for the sequence of its first document; a document of
    another one is refused and changes nothing. *)
Theorem C24_foreign : forall out len discard start l d0 ds d,
  rdocs l = d0 :: ds -> d_sid d <> d_sid d0 ->
  let s := fst (run_reseq out len discard start l) in
  reseq_step out len discard s (RDoc d) = (s, RRaiseSequence).
Proof.
  intros out len discard start l d0 ds d Hl Hd s.
  assert (F : rs_first s = Some (d_sid d0)).
  { subst s. revert d0 ds Hl Hd. induction l as [|i l IH] using rev_ind; intros d0 ds Hl Hd; [discriminate|].
    rewrite run_state_snoc. rewrite rdocs_app in Hl.
    destruct (rdocs l) as [|d1 ds1] eqn:E1.
    - destruct i as [x|b]; [|discriminate]. cbn [rdocs app] in Hl. inversion Hl; subst x.
      assert (E : forall l, rdocs l = [] -> fst (run_reseq out len discard start l) = r0 start).
      { clear. induction l as [|[x|b] l IH] using rev_ind; intros H; auto.
        - rewrite rdocs_app in H. destruct (rdocs l); discriminate.
        - rewrite run_state_snoc. rewrite rdocs_app in H. cbn [rdocs] in H. rewrite app_nil_r in H.
          rewrite IH by auto. reflexivity. }
      rewrite (E l E1). cbn [reseq_step]. unfold consume. cbn [r0 rs_first limit_one negb rs_seq].
      destruct (sequence_of d0); [destruct (add_document s d0)|]; auto.
    - cbn [app] in Hl. inversion Hl; subst d1. specialize (IH d0 ds1 eq_refl Hd).
      destruct i as [x|b]; cbn [reseq_step].
      + unfold consume. rewrite IH. cbn [limit_one]. destruct (String.eqb (d_sid d0) (d_sid x)); cbn [negb]; auto.
        destruct (match rs_seq _ with Some q => q | None => sequence_of x end); auto. destruct (add_document _ x); auto.
      + unfold tick. destruct (rs_seq _) as [[q|]|]; auto.
        destruct (seq_extract _ _ _ _) as [q' [ws|x]]; auto. destruct b; auto. }
  cbn [reseq_step]. unfold consume. rewrite F. cbn [limit_one].
  destruct (String.eqb_spec (d_sid d0) (d_sid d)); [congruence|]. cbn [negb].
  destruct s; cbn in *. subst. auto.
Qed.

(** A document whose number the sequence already holds is dropped silently. *)
Theorem C24_duplicate : forall out len discard s q d x,
  rs_seq s = Some (Some q) -> rs_first s = Some (d_sid d) ->
  q_sid q = d_sid d -> q_tb q = d_tb d -> (q_tb q = "clock" -> q_cm q = d_cm d) ->
  In x (q_docs q) -> d_num x = d_num d ->
  reseq_step out len discard s (RDoc d) = (s, RNothing).
Proof.
  intros out len discard s q d x Hq Hf H1 H2 H3 Hin Hn.
  cbn [reseq_step]. unfold consume. rewrite Hf, Hq. cbn [limit_one]. rewrite String.eqb_refl. cbn [negb].
  unfold add_document, check_compat. rewrite H1, H2, !String.eqb_refl. cbn [negb orb].
  assert (Hc : (d_tb d =? "clock")%string && negb (ostr_eqb (q_cm q) (d_cm d)) = false).
  { destruct (String.eqb_spec (d_tb d) "clock") as [E|E]; auto. rewrite H3 by congruence.
    destruct (d_cm d) as [c|]; cbn; auto. rewrite String.eqb_refl. auto. }
  rewrite Hc.
  assert (He : existsb (fun y => d_num y =? d_num d) (q_docs q) = true).
  { apply existsb_exists. exists x. split; auto. apply Z.eqb_eq. auto. }
  rewrite He. destruct s; cbn in *; subst. auto.
Qed.

Example C24_duplicate_case :
  let a := mkDoc 1 "s" "media" None None 1 0 (Some 15) in
  let b := mkDoc 2 "s" "media" None None 1 3 None in
  let c := mkDoc 3 "t" "media" None None 2 3 None in
  snd (run_reseq "out" 10 false 0 [RDoc a; RDoc b; RDoc c; RTick true]) =
  [RNothing; RNothing; RRaiseSequence; RSegment (mkSegment 1 "out" 0 10 [(a, Some 0, Some 10)])].
Proof. reflexivity. Qed.

(** A well-behaved stream (one sequence, numbers increasing, every document its
    own object, ends not before begins) is never refused, and every tick after
    its first document yields a segment, unless splicing fails; with or without
    discarding old documents. *)
Theorem C24_live : forall out len start discard sid tb cm g l,
  0 <= len -> clock_of tb cm <> None ->
  Forall (fits sid tb cm g) (rdocs l) -> in_order None (rdocs l) -> NoDup (map d_obj (rdocs l)) ->
  forall l1 i l2, l = (l1 ++ i :: l2)%list ->
  match i with
  | RDoc d => snd (reseq_step out len discard (fst (run_reseq out len discard start l1)) i) = RNothing
  | RTick false => rdocs l1 <> [] ->
      snd (reseq_step out len discard (fst (run_reseq out len discard start l1)) i) = RRaiseSplice
  | RTick true => rdocs l1 <> [] ->
      exists gg, snd (reseq_step out len discard (fst (run_reseq out len discard start l1)) i) = RSegment gg
  end.
Proof.
  intros out len start discard sid tb cm g l Hl Hc Hf Ho Hn l1 i l2 E.
  destruct (going_holds out len start discard sid tb cm g l Hl Hc Hf Ho Hn) as [_ Hacc].
  destruct i as [d|built]; [eapply Hacc; eauto|].
  assert (G : rdocs l1 <> [] -> exists q a h c bs, rs_seq (fst (run_reseq out len discard start l1)) = Some (Some q) /\
             SequenceHistory.known a h sid tb c g q bs).
  { intros H1. subst l. rewrite rdocs_app in Hf, Ho, Hn.
    destruct (going_holds out len start discard sid tb cm g l1 Hl Hc) as [[_ Gs] _].
    - apply Forall_app in Hf. tauto.
    - clear -Ho. revert Ho. generalize (@None Z) as o. induction (rdocs l1) as [|x r IH]; intros o H; [exact I|].
      destruct H as [H1 H2]. split; auto.
    - rewrite map_app in Hn. eapply SequenceHistory.NoDup_app_l; eauto.
    - destruct (Gs H1) as (q & h & bs & A & _ & B & _). eauto 10. }
  cbn [reseq_step]. destruct built; intros H1; destruct (G H1) as (q & a & h & c & bs & A & B);
    destruct (tick_known out len start discard sid tb g _ _ _ _ _ _ true A B Hl) as (_ & _ & _ & _ & _ & _ & _ & _ & _ & T);
    destruct (tick_known out len start discard sid tb g _ _ _ _ _ _ false A B Hl) as (_ & _ & _ & _ & _ & _ & _ & _ & F & _).
  - destruct (T eq_refl) as (ws & E1 & _). eauto.
  - auto.
Qed.

(** What is in such a segment: its pieces follow each other without gap from the
    beginning of the window, and at every instant of the window the piece in
    force holds a document that has begun exactly when that document is the one
    the whole stream so far calls for (C01's [active]) -- although documents
    were thrown away after earlier segments. *)
Theorem C24_content : forall out len start discard sid tb cm g l gg,
  0 <= len -> clock_of tb cm <> None ->
  Forall (fits sid tb cm g) (rdocs l) -> in_order None (rdocs l) -> NoDup (map d_obj (rdocs l)) ->
  snd (reseq_step out len discard (fst (run_reseq out len discard start l)) (RTick true)) = RSegment gg ->
  tiles (Some (sg_begin gg)) (Some (sg_end gg)) (sg_windows gg) /\
  forall t d, sg_begin gg <= t < sg_end gg ->
    (active (rdocs l) t d <->
     exists wb we, In (d, wb, we) (sg_windows gg) /\ after_begin wb t /\ before_end t we /\ d_begin d <= t).
Proof.
  intros out len start discard sid tb cm g l gg Hl Hc Hf Ho Hn Hg.
  destruct (going_holds out len start discard sid tb cm g l Hl Hc Hf Ho Hn) as [[Ge Gs] _].
  destruct (list_eq_dec (fun x y : unit => match x, y with tt, tt => left eq_refl end)
              (map (fun _ => tt) (rdocs l)) []) as [He|He].
  { assert (E : rdocs l = []) by (destruct (rdocs l); [auto|discriminate]).
    rewrite (Ge E) in Hg. discriminate. }
  destruct Gs as (q & h & bs & A & B & C & D & F); [intros E; rewrite E in He; auto|].
  cbn [reseq_step] in Hg.
  destruct (tick_known out len start discard sid tb g _ _ _ _ _ _ true A C Hl) as (_ & _ & _ & _ & _ & _ & _ & _ & _ & T).
  destruct (T eq_refl) as (ws & E1 & T1 & T2). rewrite E1 in Hg. inversion Hg; subst gg. cbn [sg_begin sg_end sg_windows].
  split; auto. intros t d Ht. rewrite <- T2 by auto.
  apply (hidden_active _ _ (rs_end (fst (run_reseq out len discard start l)))); auto. lia.
Qed.

(** ** Cases *)

Definition rdoc (obj num b : Z) (e : option Z) : document := mkDoc obj "s" "media" None None num b e.

Example C24_case :
  let l := [RTick true; RDoc (rdoc 1 1 0 (Some 15)); RTick true; RDoc (rdoc 2 2 12 None);
            RTick false; RTick true; RDoc (rdoc 3 5 18 (Some 22)); RTick true; RTick true] in
  (Forall (fits "s" "media" None "g") (rdocs l) /\ in_order None (rdocs l) /\ NoDup (map d_obj (rdocs l))) /\
  map (fun g => (sg_num g, sg_begin g, sg_end g, map (fun w => match w with (d, b, e) => (d_num d, b, e) end) (sg_windows g)))
      (segments (snd (run_reseq "out" 10 true 0 l))) =
  [(1, 0, 10, [(1, Some 0, Some 10)]);
   (2, 10, 20, [(1, Some 10, Some 12); (2, Some 12, Some 20)]);
   (3, 20, 30, [(5, Some 20, Some 22)]);
   (4, 30, 40, [])].
Proof.
  split; [|vm_compute; reflexivity]. cbn. split; [|split].
  - repeat constructor; cbn; lia.
  - lia.
  - repeat constructor; cbn; lia.
Qed.

Print Assumptions C24_tiling.
Print Assumptions C24_before.
Print Assumptions C24_failed.
Print Assumptions C24_live.
Print Assumptions C24_content.
Print Assumptions C24_foreign.
Print Assumptions C24_duplicate.
