(** Property C64: what one node sends, the next accepts - the attributes of the
    tt element on the way from node to node. *)
From Coq Require Import List ZArith String Bool Lia.
From Verif Require Import SequenceModel SequenceSpec SequenceProofs SequenceHistory SequenceInv
  NodeModel NodeSpec NodeProofs HandoverProofs HeadModel HeadSpec HeadProofs HeadFlowProofs.
Import ListNotations.
Open Scope string_scope.
Open Scope Z_scope.

Arguments outs {M} out group h.

(** The checks are the rules of EBU-TT Part 3, no more and no less. *)
Theorem C64_rules : forall k, (check_head k = None <-> proper k) /\ (legal_head k = true <-> legal k).
Proof. intros k. split; [apply check_proper|apply legal_spec]. Qed.

(** Which message, for every combination. *)
Theorem C64_message : forall k,
  match check_head k with
  | None => True
  | Some (HMissing l) => l <> [] /\
      (l = ["clockMode"] \/ (k_tb k = "smpte" /\ forall a, In a l -> In a ["frameRate"; "dropMode"; "markerMode"]))
  | Some (HInvalid l) => l <> [] /\ k_tb k <> "smpte" /\ forall a, In a l -> In a ["dropMode"; "markerMode"]
  | Some HFacet => False
  end.
Proof.
  intros [sid num tb cm ag [la fr dr ma to se mo]]. unfold check_head, check_smpte, check_clock.
  cbn [k_tb k_cm k_rest r_frame r_drop r_marker].
  destruct (String.eqb_spec tb "smpte") as [E|N1];
    destruct (String.eqb_spec tb "clock") as [E'|N2]; try congruence;
    destruct fr, dr, ma, cm; cbn; repeat split; auto; try discriminate;
    try (right; split; [congruence|]); intros a H; cbn in *; tauto.
Qed.

(** ** Documents a sequence makes itself *)

(** Whatever happened to the sequence: except on time base smpte the document
    new_document gives is valid, carries the attributes of the sequence and a
    number above all others, and the sequence takes it.  On time base smpte there
    is no such document. *)
Theorem C64_own : forall more d q0 cs lang,
  good (head_of more d) -> sequence_of d = Some q0 ->
  let q := calls q0 cs in
  let q' := fst (fresh_head q lang) in
  let r := snd (fresh_head q lang) in
  (d_tb d <> "smpte" ->
     exists k, r = inr k /\ good k /\ k_sid k = d_sid d /\ k_tb k = d_tb d /\ k_agid k = q_agid q /\
       Forall (fun n => n < k_num k) (numbers q0 cs) /\
       forall x, with_head k x -> snd (check_compat q' x) = Ok tt) /\
  (d_tb d = "smpte" -> r = inl (HMissing ["frameRate"; "dropMode"; "markerMode"])).
Proof.
  intros more d q0 cs lang G S q q' r. unfold q', r, fresh_head. cbn [new_document].
  pose proof (good_sound _ _ _ G S) as S0. unfold sequence_of in S.
  destruct (clock_of (d_tb d) (d_cm d)) as [[tb cm]|] eqn:K; [|discriminate]. injection S as <-.
  destruct (calls_shape cs (new_sequence (d_sid d) tb cm (d_agid d))) as (C1 & C2 & C3 & C4 & C5 & C6 & _).
  fold q in C1, C2, C3, C4, C5, C6. cbn in C1, C4, C5, C6. cbn [fst snd].
  assert (B : below q) by (apply below_calls; intros x []).
  assert (A : q_agid q <> Some "") by (apply agid_calls; apply S0).
  set (q1 := set_last q (q_last q + 1)).
  assert (S1 : sound q1).
  { unfold sound, q1. cbn. rewrite C4, C5, C6. split; [apply S0|]. split; [exact A|]. eauto. }
  destruct (clock_of_some _ _ _ _ K) as [T M].
  destruct (compatible_cases q1 lang (q_last q + 1) S1 ltac:(lia)) as [(N & H)|(N & H)];
    change (q_last q1) with (q_last q + 1); rewrite H; unfold q1 in N; cbn in N; rewrite C5, T in N.
  - split; [intros _|congruence]. eexists. split; [reflexivity|]. split; [eapply new_head_good; exact H|].
    unfold q1. cbn. split; [exact C4|]. split; [congruence|]. split; [reflexivity|]. split.
    + eapply Forall_impl; [|exact C2]. cbn. intros; lia.
    + intros x (W1 & W2 & W3 & W4 & W5). cbn in *.
      apply (own_accepted q _ (q_last q + 1) B eq_refl A x); auto.
  - split; [congruence|auto].
Qed.

(** ** A consumer *)

(** Documents with numbers of their own are all let in exactly when they belong
    together. *)
Theorem C64_welcome : forall start ds,
  NoDup (map d_num ds) -> (forall x, In x ds -> d_agid x <> Some "") ->
  (Forall (fun r => ~ turned_away r) (fed start ds) <-> one_sequence ds).
Proof. intros start ds N G. split; [apply welcome_one_sequence; auto|apply one_sequence_welcome]. Qed.

(** When they belong together, numbers do not matter. *)
Theorem C64_together : forall start ds, one_sequence ds -> Forall (fun r => ~ turned_away r) (fed start ds).
Proof. exact one_sequence_welcome. Qed.

(** Without a clock (clock mode gps) the node is of no use from its first
    document on: nothing but errors, whatever arrives and however often a segment
    is asked for. *)
Theorem C64_gps : forall more out len discard start d l,
  ~ clocked d ->
  snd (run (s_step more out len discard) (s0 start) (SDoc d :: l)) =
  SOther RAttribute ::
    map (fun i => SOther (match i with
                          | SDoc x => if String.eqb (d_sid d) (d_sid x) then RAttribute else RRaiseSequence
                          | STick _ _ => RAttribute
                          end)) l.
Proof.
  intros more out len discard start d l Hc. cbn [run].
  destruct (s_step more out len discard (s0 start) (SDoc d)) as [s1 o] eqn:E.
  assert (K : sequence_of d = None).
  { unfold sequence_of, clocked in *. destruct (clock_of _ _); [exfalso; apply Hc; discriminate|reflexivity]. }
  cbn [s_step] in E. unfold s_consume, s0, r0, consume in E. cbn [ss_node rs_first rs_seq limit_one negb] in E.
  rewrite K in E. injection E as <- <-.
  assert (I : forall l s, rs_seq (ss_node s) = Some None -> rs_first (ss_node s) = Some (d_sid d) ->
    snd (run (s_step more out len discard) s l) =
    map (fun i => SOther (match i with
                          | SDoc x => if String.eqb (d_sid d) (d_sid x) then RAttribute else RRaiseSequence
                          | STick _ _ => RAttribute
                          end)) l).
  { clear. induction l as [|i l IH]; intros s A B; [reflexivity|]. cbn [run map].
    destruct (gps_step more out len discard s _ i A B) as [C D].
    destruct (s_step more out len discard s i) as [s1 o]. cbn [fst snd] in C, D.
    specialize (IH s1 ltac:(congruence) ltac:(congruence)).
    destruct (run (s_step more out len discard) s1 l) as [s2 os]. cbn [snd] in *. congruence. }
  specialize (I l (mkS (mkR (Some None) (Some (d_sid d)) start 1) (r_lang (more d))) eq_refl eq_refl).
  destruct (run _ _ l) as [s2 os]. cbn [snd] in *. congruence.
Qed.

(** ** The re-sequencer *)

(** Fed with valid documents, whatever the order, the calls, the pieces that
    could not be made: what it sends is valid; any node takes documents with these
    attributes, in any order and number; and for the next re-sequencer they are
    again valid documents. *)
Theorem C64_resequenced : forall more out len discard start l,
  out <> "" -> all_good more (sdocs l) ->
  let sent := heads (snd (run (s_step more out len discard) (s0 start) l)) in
  Forall good sent /\
  (forall start' ds, (forall x, In x ds -> exists k, In k sent /\ with_head k x) ->
     Forall (fun r => ~ turned_away r) (fed start' ds)) /\
  (forall more' l', (forall x, In x (sdocs l') -> exists k, In k sent /\ with_head k x /\ more' x = k_rest k) ->
     all_good more' (sdocs l')).
Proof.
  intros more out len discard start l Ho G sent.
  pose proof (running_run more out len discard start l Ho G) as (_ & R). cbv zeta in R. fold sent in R.
  assert (Gs : Forall good sent).
  { destruct (rs_seq _) as [[q|]|]; [|rewrite R; constructor..]. destruct R as [_ F].
    eapply Forall_impl; [|exact F]. intros k Hk. apply Hk. }
  split; [exact Gs|]. split.
  - intros start' ds W. apply one_sequence_welcome. destruct (rs_seq _) as [[q|]|].
    + destruct R as [[S _] F]. eapply sent_one_sequence; eauto.
    + rewrite R in W. split; intros x; [intros Hx|intros y Hx]; destruct (W x Hx) as (k & [] & _).
    + rewrite R in W. split; intros x; [intros Hx|intros y Hx]; destruct (W x Hx) as (k & [] & _).
  - intros more' l' W x Hx. destruct (W x Hx) as (k & Hk & (W1 & W2 & W3 & W4 & W5) & E).
    rewrite Forall_forall in Gs. specialize (Gs k Hk). unfold head_of. rewrite W1, W2, W3, W4, W5, E.
    destruct k; exact Gs.
Qed.

(** It refuses to make a document for an empty window only on time base smpte, and
    then stays where it is. *)
Theorem C64_refusal : forall more out len discard start l made built e,
  out <> "" -> all_good more (sdocs l) ->
  let s := fst (run (s_step more out len discard) (s0 start) l) in
  snd (s_step more out len discard s (STick made built)) = SInvalid e ->
  fst (s_step more out len discard s (STick made built)) = s /\
  e = HMissing ["frameRate"; "dropMode"; "markerMode"] /\
  exists q, rs_seq (ss_node s) = Some (Some q) /\ q_tb q = "smpte".
Proof.
  intros more out len discard start l made built e Ho G s H. cbn [s_step] in *.
  pose proof (running_run more out len discard start l Ho G) as R. cbv zeta in R. fold s in R.
  apply (running_tick more out len discard made built s _ Ho R). exact H.
Qed.

(** So a window without documents on that time base stops the node until a
    document comes: asked any number of times it refuses each time. *)
Theorem C64_stall : forall more out len discard start l q ticks,
  out <> "" -> all_good more (sdocs l) ->
  let s := fst (run (s_step more out len discard) (s0 start) l) in
  rs_seq (ss_node s) = Some (Some q) -> q_tb q = "smpte" ->
  snd (seq_extract q (Some (rs_end (ss_node s))) (Some (rs_end (ss_node s) + len)) false) = Ok [] ->
  run (s_step more out len discard) s (map (fun t => STick (fst t) (snd t)) ticks) =
  (s, repeat (SInvalid (HMissing ["frameRate"; "dropMode"; "markerMode"])) (List.length ticks)).
Proof.
  intros more out len discard start l q ticks Ho G s Q T X.
  pose proof (running_run more out len discard start l Ho G) as (C & R). cbv zeta in C, R. fold s in C, R.
  rewrite Q in R. destruct R as [[S _] _].
  induction ticks as [|[m b] ticks IH]; [reflexivity|]. cbn [map run repeat List.length fst snd s_step].
  assert (E : s_tick more out len discard m b s = (s, SInvalid (HMissing ["frameRate"; "dropMode"; "markerMode"]))).
  { unfold s_tick. rewrite Q, X. cbn [map filter].
    destruct (compatible_cases q (ss_lang s) (rs_counter (ss_node s)) S ltac:(lia)) as [(N & _)|(_ & ->)]; [contradiction|reflexivity]. }
  rewrite E, IH. reflexivity.
Qed.

(** ** Nodes that rewrite *)

(** Retiming and de-duplicating: the documents still belong together, whatever
    the node left out, and have valid attributes if they had. *)
Theorem C64_rewritten : forall M more out messages rewrite (l : list (input document M)) ds start,
  (forall a b, rewrite a = Some b -> d_tb b = d_tb a /\ d_cm b = d_cm a /\ d_agid b = d_agid a) ->
  (forall arrived, (forall x, In x arrived <-> exists d, In (IDoc d) l /\ p_body d = x) -> one_sequence arrived) ->
  (forall x, In x ds -> exists e, In (Emit e) (snd (run (rewriting_step out messages rewrite) t0 l)) /\
     with_head (renamed more (p_sid e) (p_body e)) x) ->
  Forall (fun r => ~ turned_away r) (fed start ds) /\
  (forall d, out <> "" -> good (head_of more d) -> good (renamed more out d)).
Proof.
  intros M more out messages rewrite l ds start Hr Hone Hds.
  split; [|intros d Ho ((L1 & L2 & L3 & L4 & L5) & P); split; [unfold legal; cbn; auto|exact P]].
  apply one_sequence_welcome.
  set (arrived := fold_right (fun i acc => match i with IDoc d => p_body d :: acc | IMsg _ => acc end) [] l).
  assert (Ha : forall x, In x arrived <-> exists d, In (IDoc (M := M) d) l /\ p_body d = x).
  { intros x. unfold arrived. clear. induction l as [|[d|m] l IH]; cbn [fold_right In].
    - split; [intros []|intros (d & [] & _)].
    - rewrite IH. split.
      + intros [<-|(e & H & E)]; [exists d; auto|exists e; auto].
      + intros (e & [H|H] & E); [left; congruence|right; eauto].
    - rewrite IH. split; [intros (e & H & E); eauto|intros (e & [H|H] & E); [discriminate|eauto]]. }
  destruct (Hone arrived Ha) as [Hc Hs].
  assert (Src : forall e, In (Emit e) (snd (run (rewriting_step out messages rewrite) t0 l)) ->
            p_sid e = out /\ exists d, In (IDoc d) l /\ rewrite (p_body d) = Some (p_body e)).
  { generalize t0. clear. induction l as [|i l IH]; intros s e; cbn [run]; [intros []|].
    destruct (rewriting_step out messages rewrite s i) as [s1 o] eqn:E.
    specialize (IH s1 e). destruct (run (rewriting_step out messages rewrite) s1 l) as [s2 os]. cbn [snd] in *. intros [->|H].
    - destruct i as [d|m]; cbn [rewriting_step] in E; [|destruct messages; discriminate].
      destruct (String.eqb (p_sid d) out); [discriminate|]. destruct (check_seen _ _ _) as [m new].
      destruct (negb new); [discriminate|]. destruct (limit_one _ _) as [f fine]. destruct (negb fine); [discriminate|].
      destruct (rewrite (p_body d)) as [b|] eqn:R; [|discriminate]. injection E as <- <-. cbn. split; auto.
      exists d. split; [left; auto|exact R].
    - destruct (IH H) as (A & d & B & C). split; auto. exists d. split; [right; exact B|exact C]. }
  assert (P : forall x, In x ds -> d_sid x = out /\ exists a, In a arrived /\ d_tb x = d_tb a /\ d_cm x = d_cm a /\ d_agid x = d_agid a).
  { intros x Hx. destruct (Hds x Hx) as (e & He & X1 & _ & X3 & X4 & X5). cbn in X1, X3, X4, X5. destruct (Src e He) as (S1 & d & Hd & R).
    destruct (Hr _ _ R) as (R1 & R2 & R3). split; [congruence|]. exists (p_body d). split; [apply Ha; eauto|].
    repeat split; congruence. }
  split.
  - intros x Hx. destruct (P x Hx) as (_ & a & A1 & A2 & A3 & _). unfold clocked. rewrite A2, A3. apply Hc. exact A1.
  - intros x y Hx Hy. destruct (P x Hx) as (X0 & a & A1 & A2 & A3 & A4). destruct (P y Hy) as (Y0 & b & B1 & B2 & B3 & B4).
    destruct (Hs a b A1 B1) as (_ & S2 & S3). split; [congruence|]. split.
    + apply same_clock_iff in S2 as [S2 S2']. apply same_clock_iff. split; [congruence|]. intros E. rewrite A3, B3. apply S2'. congruence.
    + intros u v. rewrite A4, B4. apply S3.
Qed.

(** ** The handover node *)

(** What it sends is let in downstream exactly when the authors it switched
    between use one clock; nothing in the node sees to that. *)
Theorem C64_handover : forall M more out group (h : list (hinput M)) ds start,
  group <> Some "" ->
  Forall2 with_head (handed_heads more (outs out group h)) ds ->
  let em := emitted (outs out group h) in
  (Forall (fun r => ~ turned_away r) (fed start ds) <->
   forall e f, In e em -> In f em -> same_clock (h_doc (snd e)) (h_doc (snd f)) = true).
Proof.
  intros M more out group h ds start Hg W em.
  pose proof (handed_clocked M out group h) as Hc. fold em in Hc.
  assert (Nums : map d_num ds = one_to (List.length em)).
  { destruct (inv_holds M out group h) as [_ _ _ _ _ _ N]. fold em in N. rewrite <- N.
    unfold handed_heads in W. fold em in W. clear - W. revert ds W.
    induction em as [|[[[n o] s] x] em IH]; intros ds W; cbn [map] in *; inversion W; subst; auto.
    cbn [map fst]. f_equal; [|apply IH; assumption]. destruct H1 as (_ & H1 & _). exact H1. }
  assert (ND : NoDup (map d_num ds)).
  { rewrite Nums. unfold one_to. generalize (List.length em) 1%nat. clear. induction n as [|n IH]; intros i; cbn [seq map]; constructor.
    - intros H. apply in_map_iff in H as (j & E & H). apply in_seq in H. lia.
    - apply IH. }
  assert (P : forall x, In x ds -> exists e, In e em /\ d_sid x = out /\ d_tb x = d_tb (h_doc (snd e)) /\
             d_cm x = d_cm (h_doc (snd e)) /\ d_agid x = group).
  { unfold handed_heads in W. fold em in W. clear - W Hc. revert ds W Hc.
    induction em as [|[[[n o] s] y] em IH]; intros ds W Hc x Hx; cbn [map] in *; inversion W; subst; [destruct Hx|].
    destruct Hx as [->|Hx].
    - exists (n, o, s, y). split; [left; auto|]. destruct H1 as (W1 & _ & W3 & W4 & W5). cbn in *.
      destruct (Hc (n, o, s, y) (or_introl eq_refl)) as (_ & C2 & C3). cbn in *. repeat split; congruence.
    - destruct (IH l' H3 (fun e He => Hc e (or_intror He)) x Hx) as (e & E1 & E2). exists e. split; [right; auto|auto]. }
  assert (Q : forall e, In e em -> exists x, In x ds /\ d_tb x = d_tb (h_doc (snd e)) /\ d_cm x = d_cm (h_doc (snd e))).
  { unfold handed_heads in W. fold em in W. clear - W. revert ds W.
    induction em as [|[[[n o] s] y] em IH]; intros ds W e He; [destruct He|]. cbn [map] in W. inversion W; subst.
    destruct He as [<-|He].
    - destruct H1 as (_ & _ & W3 & W4 & _). cbn in *. exists y0. split; [left; auto|auto].
    - destruct (IH l' H3 e He) as (x & A & B). exists x. split; [right; auto|auto]. }
  assert (Ag : forall x, In x ds -> d_agid x <> Some "").
  { intros x Hx. destruct (P x Hx) as (e & _ & _ & _ & _ & ->). exact Hg. }
  rewrite (C64_welcome start ds ND Ag). split.
  - intros [_ Hs] e f He Hf. destruct (Q e He) as (x & X1 & X2 & X3). destruct (Q f Hf) as (y & Y1 & Y2 & Y3).
    destruct (Hs x y X1 Y1) as (_ & S & _). apply same_clock_iff in S. apply same_clock_iff. rewrite <- X2, <- X3, <- Y2, <- Y3. exact S.
  - intros S. split.
    + intros x Hx. destruct (P x Hx) as (e & He & _ & A & B & _). unfold clocked. rewrite A, B. apply (Hc e He).
    + intros x y Hx Hy. destruct (P x Hx) as (e & He & A0 & A1 & A2 & A3). destruct (P y Hy) as (f & Hf & B0 & B1 & B2 & B3).
      split; [congruence|]. split; [|congruence]. specialize (S e f He Hf). apply same_clock_iff in S. apply same_clock_iff.
      rewrite A1, A2, B1, B2. exact S.
Qed.

(** Valid documents of authors come out valid. *)
Theorem C64_handed : forall M more out group (h : list (hinput M)),
  out <> "" -> (forall x, In (HDoc x) h -> good (head_of more (h_doc x))) ->
  Forall good (handed_heads more (outs out group h)).
Proof.
  intros M more out group h Ho G. unfold handed_heads. apply Forall_forall. intros k Hk.
  apply in_map_iff in Hk as ([[[n o] s] x] & <- & He).
  destruct (inv_holds M out group h) as [_ _ _ _ _ _ N].
  assert (Hn : 0 < n).
  { assert (In n (map (fun e => fst (fst (fst e))) (emitted (outs out group h)))) by
      (apply in_map_iff; exists (n, o, s, x); auto).
    rewrite N in H. unfold one_to in H. apply in_map_iff in H as (i & <- & Hi). apply in_seq in Hi. lia. }
  pose proof (handed_clocked M out group h (n, o, s, x) He) as (_ & _ & Eo). cbn in Eo. subst o.
  assert (Hx : In (HDoc x) h).
  { clear - He. induction h as [|i h IH] using rev_ind; [destruct He|]. rewrite outs_snoc, emitted_app in He.
    apply in_or_app. apply in_app_or in He as [He|He]; [left; auto|]. right. left.
    rewrite reacts_expected in He. unfold expected in He. destruct i as [y|m]; [|destruct He].
    destruct (verdict _ _) as [[e|]|]; try destruct He. destruct (h_token y); [|destruct He].
    destruct (_ && _); [|destruct He]. destruct He as [He|[]]. congruence. }
  destruct (G x Hx) as ((L1 & L2 & L3 & L4 & L5) & P). split; [|exact P]. unfold legal, handed. cbn. auto.
Qed.

(** ** Cases *)

Definition plain (lang : string) : rest := mkRest lang None None None None None [].
Definition framed (lang : string) : rest :=
  mkRest lang (Some "25") (Some "nonDrop") (Some "continuous") None None [].
Definition a_doc (tb : string) (cm ag : option string) (sid : string) (num b e : Z) : document :=
  mkDoc num sid tb cm ag num b (Some e).

Example C64_case_rules :
  check_head (mkHead "s" 1 "smpte" None None (framed "en")) = None /\
  check_head (mkHead "s" 1 "smpte" None None (plain "en")) = Some (HMissing ["frameRate"; "dropMode"; "markerMode"]) /\
  check_head (mkHead "s" 1 "smpte" (Some "utc") None (framed "en")) = Some (HMissing ["clockMode"]) /\
  check_head (mkHead "s" 1 "media" None None (framed "en")) = Some (HInvalid ["dropMode"; "markerMode"]) /\
  check_head (mkHead "s" 1 "media" (Some "local") None (plain "en")) = Some (HMissing ["clockMode"]) /\
  check_head (mkHead "s" 1 "media" None None (mkRest "en" (Some "25") None None None None [])) = None /\
  check_head (mkHead "s" 1 "clock" None None (plain "en")) = Some (HMissing ["clockMode"]) /\
  check_head (mkHead "s" 1 "clock" (Some "gps") None (plain "en")) = None.
Proof. repeat split. Qed.

(** The constructor fills the clock mode in for the very object TimeBase.CLOCK
    only. *)
Example C64_case_constructor :
  new_head true "clock" None "s" 1 None "en" = inr (mkHead "s" 1 "clock" (Some "local") None (plain "en")) /\
  new_head false "clock" None "s" 1 None "en" = inl (HMissing ["clockMode"]) /\
  new_head true "clock" (Some "utc") "s" 1 None "en" = inr (mkHead "s" 1 "clock" (Some "utc") None (plain "en")) /\
  new_head true "media" (Some "utc") "s" 1 None "en" = inl (HMissing ["clockMode"]) /\
  new_head true "media" None "s" 0 None "en" = inl HFacet /\
  new_head true "media" None "" 1 None "en" = inl HFacet /\
  new_head true "clock" (Some "tai") "s" 1 None "en" = inl HFacet /\
  new_head true "media" None "s" 1 (Some "") "en" = inl HFacet.
Proof. repeat split. Qed.

Example C64_case_own :
  let d := a_doc "clock" (Some "utc") None "s" 4 0 10 in
  let x := a_doc "clock" (Some "utc") (Some "g") "s" 9 10 20 in
  let more := fun _ => plain "en" in
  good (head_of more d) /\
  exists q0, sequence_of d = Some q0 /\
    snd (fresh_head (calls q0 [CallAdd d; CallNew; CallAdd x]) "en") =
      inr (mkHead "s" 10 "clock" (Some "utc") (Some "g") (plain "en")).
Proof.
  cbv zeta. split.
  - split; [apply legal_spec|apply check_proper]; reflexivity.
  - eexists. split; reflexivity.
Qed.

Example C64_case_own_smpte :
  let d := a_doc "smpte" None None "s" 4 0 10 in
  good (head_of (fun _ => framed "en") d) /\
  exists q0, sequence_of d = Some q0 /\
    snd (fresh_head (calls q0 [CallAdd d]) "en") = inl (HMissing ["frameRate"; "dropMode"; "markerMode"]).
Proof.
  cbv zeta. split.
  - split; [apply legal_spec|apply check_proper]; reflexivity.
  - eexists. split; reflexivity.
Qed.

Example C64_case_welcome :
  let m := a_doc "media" None in
  fed 0 [m None "s" 1 0 5; m (Some "g") "s" 3 8 10; m None "s" 2 5 7; m (Some "g") "s" 4 20 25] =
    [RNothing; RNothing; RNothing; RNothing] /\
  fed 0 [m None "s" 2 5 10; m (Some "g") "s" 1 0 5; m (Some "h") "s" 3 10 12; m None "t" 4 10 12;
         a_doc "smpte" None None "s" 5 10 12] =
    [RNothing; RNothing; RRaise EAuthorsGroup; RRaiseSequence; RRaise EIncompatible] /\
  fed 0 [a_doc "clock" (Some "local") None "s" 1 0 5; a_doc "clock" (Some "utc") None "s" 2 5 6] =
    [RNothing; RRaise EIncompatible].
Proof. repeat split. Qed.

(** Why numbers have to differ: a repeated number is passed over before the group
    is looked at.  And an empty group is no group. *)
Example C64_case_numbers :
  let m := a_doc "media" None in
  let ds := [m (Some "g") "s" 1 0 5; m (Some "h") "s" 1 5 10] in
  fed 0 ds = [RNothing; RNothing] /\ ~ one_sequence ds.
Proof.
  cbv zeta. split; [reflexivity|]. intros [_ H].
  destruct (H _ _ (or_introl eq_refl) (or_intror (or_introl eq_refl))) as (_ & _ & K).
  specialize (K "g" "h" eq_refl eq_refl). discriminate.
Qed.

Example C64_case_empty_group :
  let m := a_doc "media" None in
  let ds := [m (Some "g") "s" 1 0 5; m (Some "") "s" 2 5 10] in
  fed 0 ds = [RNothing; RNothing] /\ ~ one_sequence ds.
Proof.
  cbv zeta. split; [reflexivity|]. intros [_ H].
  destruct (H _ _ (or_introl eq_refl) (or_intror (or_introl eq_refl))) as (_ & _ & K).
  specialize (K "g" "" eq_refl eq_refl). discriminate.
Qed.

Example C64_case_gps :
  let d := a_doc "clock" (Some "gps") None "s" 1 0 5 in
  ~ clocked d /\ good (head_of (fun _ => plain "en") d) /\
  snd (run (s_step (fun _ => plain "en") "out" 10 false) (s0 0)
         [SDoc d; STick (fun _ => true) true; SDoc (a_doc "clock" (Some "utc") None "s" 2 0 5)]) =
  [SOther RAttribute; SOther RAttribute; SOther RAttribute].
Proof.
  cbv zeta. split; [intros H; apply H; reflexivity|]. split; [|reflexivity].
  split; [apply legal_spec|apply check_proper]; reflexivity.
Qed.

(** Windows of 10: pieces of two documents, of one, a piece that cannot be made,
    and a window with nothing. *)
Definition by_number (d : document) : rest :=
  if d_num d =? 2 then mkRest "fr" (Some "50") None None (Some 7) None [("extent", "2px 2px")] else plain "en".

Example C64_case_resequenced :
  let m := a_doc "media" None in
  let all := fun _ : document => true in
  let l := [SDoc (m None "s" 1 0 5); SDoc (m (Some "g") "s" 2 5 18); STick all true; STick all true;
            SDoc (m None "s" 3 30 35); STick all true; STick (fun _ => false) false; STick all true] in
  all_good by_number (sdocs l) /\
  heads (snd (run (s_step by_number "out" 10 true) (s0 0) l)) =
  [mkHead "out" 1 "media" None None (plain "en");
   mkHead "out" 2 "media" None (Some "g") (by_number (m (Some "g") "s" 2 5 18));
   mkHead "out" 3 "media" None (Some "g") (plain "en");
   mkHead "out" 4 "media" None (Some "g") (plain "en");
   mkHead "out" 5 "media" None (Some "g") (plain "en")].
Proof.
  cbv zeta. split; [|reflexivity].
  intros d [<-|[<-|[<-|[]]]]; (split; [apply legal_spec|apply check_proper]; reflexivity).
Qed.

(** The language of a document for an empty window is that of the first document
    of the sequence. *)
Example C64_case_language :
  let d := a_doc "media" None None "s" 2 0 5 in
  heads (snd (run (s_step by_number "out" 10 true) (s0 20) [SDoc d; STick (fun _ => true) true])) =
  [mkHead "out" 1 "media" None None (plain "fr")].
Proof. reflexivity. Qed.

(** The numbers of the documents sent are not those of the documents received,
    and a later document does not change the language. *)
Example C64_case_counted :
  let m := a_doc "media" None None "s" in
  let all := fun _ : document => true in
  heads (snd (run (s_step by_number "out" 10 true) (s0 0)
    [SDoc (m 2 0 5); SDoc (m 7 12 15); STick all true; STick all true; STick all true])) =
  [mkHead "out" 1 "media" None None (by_number (m 2 0 5)); mkHead "out" 2 "media" None None (plain "en");
   mkHead "out" 3 "media" None None (plain "fr")].
Proof. reflexivity. Qed.

Example C64_case_stall :
  let d := a_doc "smpte" None None "s" 1 0 5 in
  let more := fun _ : document => framed "en" in
  let l := [SDoc d; STick (fun _ => true) true] in
  let s := fst (run (s_step more "out" 10 true) (s0 0) l) in
  good (head_of more d) /\
  snd (run (s_step more "out" 10 true) (s0 0) l) =
    [SOther RNothing; SSend (mkSegment 1 "out" 0 10 [(d, Some 0, Some 5)]) (mkHead "out" 1 "smpte" None None (framed "en"))] /\
  (exists q, rs_seq (ss_node s) = Some (Some q) /\ q_tb q = "smpte" /\
     snd (seq_extract q (Some 10) (Some 20) false) = Ok []) /\
  snd (run (s_step more "out" 10 true) s [STick (fun _ => true) true; STick (fun _ => true) true]) =
    [SInvalid (HMissing ["frameRate"; "dropMode"; "markerMode"]); SInvalid (HMissing ["frameRate"; "dropMode"; "markerMode"])].
Proof.
  cbv zeta. split; [split; [apply legal_spec|apply check_proper]; reflexivity|].
  split; [reflexivity|]. split; [|reflexivity]. eexists. split; [reflexivity|]. split; reflexivity.
Qed.

Example C64_case_rewritten :
  let m := a_doc "media" None in
  let p d := mkPdoc (d_sid d) (d_num d) d in
  let a := m None "s" 1 0 5 in
  let b := m (Some "g") "s" 2 5 10 in
  snd (run (rewriting_step (M := unit) "out" true (fun d => Some d)) t0 [IDoc (p a); IDoc (p a); IDoc (p b)]) =
    [Emit (mkPdoc "out" 1 a); Ignore; Emit (mkPdoc "out" 2 b)] /\
  fed 0 [m None "out" 1 0 5; m (Some "g") "out" 2 5 10] = [RNothing; RNothing].
Proof. split; reflexivity. Qed.

(** Two authors on different clocks: the handover node takes both, the next node
    only the first. *)
Example C64_case_handover :
  let a := mkHdoc (a_doc "clock" (Some "local") (Some "g") "a" 1 0 5) (Some 1) in
  let b := mkHdoc (a_doc "media" None (Some "g") "b" 1 5 10) (Some 2) in
  let h := [HDoc (M := unit) a; HDoc b] in
  handed_heads (fun _ => plain "en") (outs "out" (Some "g") h) =
    [mkHead "out" 1 "clock" (Some "local") (Some "g") (mkRest "en" None None None None (Some "a") []);
     mkHead "out" 2 "media" None (Some "g") (mkRest "en" None None None None (Some "b") [])] /\
  fed 0 [a_doc "clock" (Some "local") (Some "g") "out" 1 0 5; a_doc "media" None (Some "g") "out" 2 5 10] =
    [RNothing; RRaise EIncompatible].
Proof. split; reflexivity. Qed.

Print Assumptions C64_rules.
Print Assumptions C64_message.
Print Assumptions C64_own.
Print Assumptions C64_welcome.
Print Assumptions C64_together.
Print Assumptions C64_gps.
Print Assumptions C64_resequenced.
Print Assumptions C64_refusal.
Print Assumptions C64_stall.
Print Assumptions C64_rewritten.
Print Assumptions C64_handover.
Print Assumptions C64_handed.
