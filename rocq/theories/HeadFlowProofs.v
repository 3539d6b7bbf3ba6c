(** Proofs about the documents nodes send: their attributes, and what the next
    node makes of them. *)
From Coq Require Import List ZArith String Bool Lia.
From Verif Require Import SequenceModel SequenceSpec SequenceProofs SequenceHistory SequenceInv
  NodeModel NodeSpec NodeProofs HandoverProofs HeadModel HeadSpec HeadProofs.
Import ListNotations.
Open Scope string_scope.
Open Scope Z_scope.

(** ** Documents a sequence makes *)

Lemma new_head_good : forall i tb cm sid num ag lang k, new_head i tb cm sid num ag lang = inr k ->
  good k /\ k_sid k = sid /\ k_num k = num /\ k_tb k = tb /\ k_agid k = ag /\ r_lang (k_rest k) = lang.
Proof.
  intros i tb cm sid num ag lang k. unfold new_head. cbv zeta.
  destruct (legal_head _) eqn:L; [|discriminate]. destruct (check_head _) eqn:C; [discriminate|].
  intros E. injection E as <-. split; [split; [apply legal_spec; exact L|apply check_proper; exact C]|]. auto.
Qed.

(** The attributes of a sequence that came from a good document. *)
Definition sound (q : seqstate) : Prop :=
  q_sid q <> "" /\ q_agid q <> Some "" /\ exists tb cm, clock_of tb cm = Some (q_tb q, q_cm q).

Lemma clock_result : forall tb cm tb' cm', clock_of tb cm = Some (tb', cm') ->
  (tb' = "clock" /\ (cm' = Some "local" \/ cm' = Some "utc")) \/ (tb' = "media" /\ cm' = None) \/ (tb' = "smpte" /\ cm' = None).
Proof.
  intros tb cm tb' cm'. unfold clock_of. destruct (String.eqb tb "clock").
  - destruct cm as [c|]; [|discriminate]. destruct (String.eqb c "local"); [intros E; injection E as <- <-; auto|].
    destruct (String.eqb c "utc"); [|discriminate]. intros E; injection E as <- <-; auto.
  - destruct (String.eqb tb "media"); [intros E; injection E as <- <-; auto|].
    destruct (String.eqb tb "smpte"); [|discriminate]. intros E; injection E as <- <-; auto.
Qed.

Lemma compatible_cases : forall q lang n, sound q -> 0 < n ->
  (q_tb q <> "smpte" /\ compatible_head q lang n =
     inr (mkHead (q_sid q) n (q_tb q) (q_cm q) (q_agid q) (mkRest lang None None None None None []))) \/
  (q_tb q = "smpte" /\ compatible_head q lang n = inl (HMissing ["frameRate"; "dropMode"; "markerMode"])).
Proof.
  intros q lang n (Hs & Hg & tb & cm & K) Hn. apply clock_result in K. unfold compatible_head, new_head. cbv zeta.
  assert (L : forall re, legal_head (mkHead (q_sid q) n (q_tb q) (q_cm q) (q_agid q) re) = true).
  { intros re. apply legal_spec. unfold legal. cbn [k_tb k_cm k_sid k_num k_agid In].
    destruct K as [(-> & [-> | ->])|[(-> & ->)|(-> & ->)]]; repeat split; auto; intros c E; try discriminate;
      injection E as <-; auto. }
  destruct K as [(E & E')|[(E & E')|(E & E')]].
  - left. split; [rewrite E; discriminate|].
    assert (N : match q_cm q with None => true | Some c => String.eqb c "" end = false)
      by (destruct E' as [-> | ->]; reflexivity).
    rewrite N. cbn [andb]. rewrite L. unfold check_head, check_smpte, check_clock. cbn [k_tb k_cm k_rest r_drop r_marker given].
    rewrite E. destruct E' as [-> | ->]; reflexivity.
  - left. split; [rewrite E; discriminate|].
    rewrite E' in *. cbn [andb]. rewrite E in *. cbn [String.eqb andb] in *.
    change (if true && (true && ("media" =? "clock")%string) then Some "local" else None) with (@None string).
    rewrite L. reflexivity.
  - right. split; [exact E|]. rewrite E' in *. rewrite E in *.
    change (if true && (true && ("smpte" =? "clock")%string) then Some "local" else None) with (@None string).
    rewrite L. reflexivity.
Qed.

Lemma good_sound : forall more d q, good (head_of more d) -> sequence_of d = Some q -> sound q.
Proof.
  intros more d q ((_ & _ & L3 & _ & L5) & _) H. unfold sequence_of in H.
  destruct (clock_of (d_tb d) (d_cm d)) as [[tb cm]|] eqn:K; [|discriminate]. injection H as <-.
  split; [exact L3|]. split; [exact L5|]. exists (d_tb d), (d_cm d). exact K.
Qed.

(** ** What a timeline gives *)

Lemma in_remove_first : forall A p (l : list A) x, In x (remove_first p l) -> In x l.
Proof.
  induction l as [|y l IH]; intros x; cbn [remove_first]; auto. destruct (p y); [intros H; right; exact H|].
  intros [H|H]; [left; exact H|right; auto].
Qed.

Lemma lookup_loop_in : forall A eqb b e (l : list (event A)) acc x,
  In x (lookup_loop eqb b e l acc) -> In x acc \/ In x (map ev_elem l).
Proof.
  induction l as [|ev l IH]; intros acc x; cbn [lookup_loop map]; [auto|].
  destruct (ev_kind ev); intros H; apply IH in H as [H|H]; try (right; right; exact H).
  - destruct (match e with None => true | Some y => negb (ev_when ev =? y) end); [|auto].
    apply in_app_or in H as [H|[->|[]]]; [auto|right; left; auto].
  - destruct (match b with None => false | Some y => ev_when ev <=? y end); [|auto].
    destruct (existsb _ acc); [|auto]. left. eapply in_remove_first. exact H.
Qed.

Lemma windows_docs : forall s ds b e ws, extract_windows s ds b e = Ok ws -> map (fun w => fst (fst w)) ws = ds.
Proof.
  induction ds as [|d ds IH]; intros b e ws; cbn [extract_windows]; [intros H; injection H as <-; auto|].
  destruct (resolved_end s d) as [de|x]; [|discriminate]. cbv zeta.
  destruct (extract_windows s ds _ e) as [w|x] eqn:E; [|discriminate]. intros H. injection H as <-.
  cbn [map fst]. f_equal. eapply IH. exact E.
Qed.

Lemma extract_in : forall q b e disc ws d, snd (seq_extract q b e disc) = Ok ws ->
  In d (map (fun w => fst (fst w)) ws) -> In d (elems q).
Proof.
  intros q b e disc ws d H Hd.
  assert (E : extract_windows q (lookup_range doc_eqb (q_tl q) b e) b e = Ok ws).
  { unfold seq_extract in H. destruct (extract_windows _ _ _ _) as [w|x]; [|discriminate].
    destruct disc; [|exact H]. destruct (rev _); [exact H|]. destruct (discard_before q d0) as [s' [u|x]]; [exact H|discriminate]. }
  apply windows_docs in E. rewrite E in Hd. unfold lookup_range in Hd.
  apply lookup_loop_in in Hd as [[]|Hd]. apply in_map_iff in Hd as (ev & <- & Hd). apply in_map.
  destruct e as [e|]; [|exact Hd]. apply filter_In in Hd. apply Hd.
Qed.

(** ** The re-sequencer *)

Definition fits (q : seqstate) (x : document) : Prop :=
  d_tb x = q_tb q /\ (q_tb q = "clock" -> d_cm x = q_cm q) /\ (d_agid x = None \/ d_agid x = q_agid q).

(** What has been sent so far. *)
Definition sent (out : string) (q : seqstate) (k : head) : Prop :=
  good k /\ k_sid k = out /\ k_tb k = q_tb q /\ (q_tb q = "clock" -> k_cm k = q_cm q) /\
  (k_agid k = None \/ k_agid k = q_agid q).

(** What becomes of a sequence. *)
Definition later (q q' : seqstate) : Prop :=
  q_sid q' = q_sid q /\ q_tb q' = q_tb q /\ q_cm q' = q_cm q /\ (q_agid q' = q_agid q \/ q_agid q = None).

Lemma later_refl : forall q, later q q.
Proof. intros q. unfold later. auto. Qed.

Lemma fits_later : forall q q' x, later q q' -> fits q x -> fits q' x.
Proof.
  intros q q' x (_ & L2 & L3 & L4) (F1 & F2 & F3). unfold fits. rewrite L2, L3. split; [exact F1|]. split; [exact F2|].
  destruct F3 as [F3|F3]; auto. destruct L4 as [L4|L4]; [right; congruence|left; congruence].
Qed.

Lemma sent_later : forall out q q' k, later q q' -> sent out q k -> sent out q' k.
Proof.
  intros out q q' k (_ & L2 & L3 & L4) (F0 & F1 & F2 & F3 & F4). unfold sent. rewrite L2, L3. repeat (split; [assumption|]).
  destruct F4 as [F4|F4]; auto. destruct L4 as [L4|L4]; [right; congruence|left; congruence].
Qed.

(** A sequence all of whose documents have good attributes. *)
Definition healthy (more : document -> rest) (q : seqstate) : Prop :=
  sound q /\ forall x, In x (elems q) -> good (head_of more x) /\ fits q x.

Lemma healthy_add : forall more q d, healthy more q -> good (head_of more d) ->
  healthy more (fst (add_document q d)) /\ later q (fst (add_document q d)).
Proof.
  intros more q d ((S1 & S2 & S3) & H) G. destruct (add_document q d) as [q' o] eqn:A. cbn [fst].
  destruct (add_shape _ _ _ _ A) as (_ & _ & A1 & A2 & A3 & A4 & _).
  assert (L : later q q') by (unfold later; auto).
  assert (Gd : d_agid d <> Some "") by apply G.
  pose proof (add_agid q d) as B. rewrite A in B. cbn [fst] in B.
  split; [|exact L]. split.
  - unfold sound. rewrite A1, A2, A3. split; auto. split; auto. destruct B as [B|[B1 B2]]; congruence.
  - intros x Hx. pose proof (add_elems q d x) as E. rewrite A in E. destruct (E Hx) as [Hq|[-> K]].
    + destruct (H x Hq) as [H1 H2]. split; auto. eapply fits_later; eauto.
    + split; auto. pose proof (check_cases q d) as C. rewrite K in C. destruct C as [(M1 & M2 & M3) _].
      pose proof (add_joined q d K Gd) as J. rewrite A in J. unfold fits. rewrite A2, A3.
      split; auto. split; auto. intros E'. symmetry. auto.
Qed.

Lemma healthy_extract : forall more q b e disc, healthy more q ->
  healthy more (fst (seq_extract q b e disc)) /\ later q (fst (seq_extract q b e disc)).
Proof.
  intros more q b e disc (S & H). pose proof (extract_shape q b e disc) as [I _].
  destruct (seq_extract q b e disc) as [q' r] eqn:E. cbn [fst] in I. unfold ident in I. injection I as I1 I2 I3 I4 I5. cbn [fst].
  assert (L : later q q') by (unfold later; auto). split; [|exact L]. split.
  - unfold sound in *. rewrite I1, I2, I3, I4. exact S.
  - intros x Hx. pose proof (extract_elems q b e disc x) as X. rewrite E in X. destruct (H x (X Hx)). split; auto.
    eapply fits_later; eauto.
Qed.

(** The state of the node with what it has sent. *)
Definition running (more : document -> rest) (out : string) (s : sstate) (hs : list head) : Prop :=
  1 <= rs_counter (ss_node s) /\
  match rs_seq (ss_node s) with
  | Some (Some q) => healthy more q /\ Forall (sent out q) hs
  | _ => hs = []
  end.

Lemma joined_sent : forall more out n q d, out <> "" -> 0 < n -> good (head_of more d) -> fits q d ->
  sent out q (joined_head more out n d).
Proof.
  intros more out n q d Ho Hn ((L1 & L2 & L3 & L4 & L5) & P) (F1 & F2 & F3). unfold sent, joined_head. cbn.
  split; [|auto]. split; [|exact P]. unfold legal. cbn. auto.
Qed.

Lemma made_sent : forall out q lang n k, out <> "" -> sound q -> 0 < n -> compatible_head q lang n = inr k ->
  sent out q (mkHead out (k_num k) (k_tb k) (k_cm k) (k_agid k) (k_rest k)).
Proof.
  intros out q lang n k Ho S Hn E. destruct (compatible_cases q lang n S Hn) as [(N & H)|(N & H)]; [|congruence].
  pose proof E as G. apply new_head_good in G as (((L1 & L2 & L3 & L4 & L5) & P) & _).
  rewrite H in E. injection E as <-. unfold sent. cbn in *. split; [|auto]. split; [|exact P]. unfold legal. cbn. auto.
Qed.

Lemma heads_app : forall a b, heads (a ++ b) = (heads a ++ heads b)%list.
Proof. intros a b. induction a as [|[] a IH]; cbn [app heads]; auto. rewrite IH. auto. Qed.

Lemma sdocs_app : forall a b, sdocs (a ++ b) = (sdocs a ++ sdocs b)%list.
Proof. intros a b. induction a as [|[] a IH]; cbn [app sdocs]; auto. rewrite IH. auto. Qed.

Lemma running_consume : forall more out s hs d, running more out s hs -> good (head_of more d) ->
  running more out (fst (s_consume more s d)) hs /\ heads [snd (s_consume more s d)] = [].
Proof.
  intros more out [n lang] hs d (C & R) G. unfold s_consume. cbn [ss_node ss_lang] in *.
  destruct (limit_one (rs_first n) (d_sid d)) as [f fine] eqn:L.
  destruct (consume n d) as [n' r] eqn:K. cbn [fst snd]. split; [|reflexivity].
  unfold consume in K. rewrite L in K. destruct fine; cbn [negb] in K.
  2:{ injection K as <- <-. split; [exact C|]. exact R. }
  destruct (rs_seq n) as [[q|]|] eqn:Q.
  - destruct (add_document q d) as [q1 o] eqn:A. injection K as <- <-. split; [exact C|]. cbn [ss_node rs_seq].
    destruct R as [H F]. destruct (healthy_add more q d H G) as [H' L']. rewrite A in *. cbn [fst] in *. split; auto.
    eapply Forall_impl; [|exact F]. intros k. apply sent_later. exact L'.
  - injection K as <- <-. split; [exact C|]. cbn [ss_node rs_seq]. exact R.
  - subst hs. destruct (sequence_of d) as [q|] eqn:S; [|injection K as <- <-; split; [exact C|]; reflexivity].
    destruct (add_document q d) as [q1 o] eqn:A. injection K as <- <-. split; [exact C|]. cbn [ss_node rs_seq].
    assert (H : healthy more q).
    { split; [eapply good_sound; eauto|]. unfold sequence_of in S. destruct (clock_of _ _) as [[tb cm]|]; [|discriminate].
      injection S as <-. intros x []. }
    destruct (healthy_add more q d H G) as [H' _]. rewrite A in H'. split; auto.
Qed.

(** Where the node tries to take a piece and cannot make a document either: time
    base smpte. *)
Lemma running_tick : forall more out len discard made built s hs, out <> "" -> running more out s hs ->
  let r := s_tick more out len discard made built s in
  running more out (fst r) (hs ++ heads [snd r]) /\
  (forall e, snd r = SInvalid e -> fst r = s /\ e = HMissing ["frameRate"; "dropMode"; "markerMode"] /\
     exists q, rs_seq (ss_node s) = Some (Some q) /\ q_tb q = "smpte").
Proof.
  intros more out len discard made built [n lang] hs Ho (C & R). cbv zeta. unfold s_tick. cbn [ss_node ss_lang] in *.
  destruct (rs_seq n) as [[q|]|] eqn:Q.
  - destruct R as [H F].
    assert (T : forall b k, sent out q k ->
       running more out (fst (let '(n', r) := tick out len discard b n in
                    (mkS n' lang, match r with RSegment g => SSend g k | _ => SOther r end)))
         (hs ++ heads [snd (let '(n', r) := tick out len discard b n in
                    (mkS n' lang, match r with RSegment g => SSend g k | _ => SOther r end))]) /\
       (forall e, snd (let '(n', r) := tick out len discard b n in
                    (mkS n' lang, match r with RSegment g => SSend g k | _ => SOther r end)) <> SInvalid e)).
    { intros b k Hk. unfold tick. rewrite Q. destruct (healthy_extract more q (Some (rs_end n)) (Some (rs_end n + len)) (discard && b) H) as [H' L'].
      destruct (seq_extract q _ _ _) as [q' [ws|x]]; cbn [fst] in H', L'.
      - assert (F' : Forall (sent out q') (hs ++ [k])).
        { apply Forall_app. split; [eapply Forall_impl; [|exact F]; intros; eapply sent_later; eauto|].
          constructor; [eapply sent_later; eauto|constructor]. }
        destruct b; cbn [fst snd heads].
        + split; [|discriminate]. unfold running. cbn. split; [lia|]. split; auto.
        + split; [|discriminate]. unfold running. cbn. split; [lia|]. split; auto. rewrite app_nil_r.
          apply Forall_app in F'. apply F'.
      - cbn [fst snd heads]. split; [|discriminate]. unfold running. cbn. split; [lia|]. split; auto. rewrite app_nil_r.
        eapply Forall_impl; [|exact F]; intros; eapply sent_later; eauto. }
    destruct (snd (seq_extract q (Some (rs_end n)) (Some (rs_end n + len)) false)) as [ws|x] eqn:X.
    + destruct (filter made (map (fun w => fst (fst w)) ws)) as [|d ds] eqn:Fl.
      * destruct (compatible_head q lang (rs_counter n)) as [e|k] eqn:K.
        -- cbn [fst snd heads]. rewrite app_nil_r. split; [split; [exact C|]; cbn [ss_node]; rewrite Q; auto|].
           intros e' E. injection E as <-. split; auto. destruct (compatible_cases q lang (rs_counter n) (proj1 H)) as [(_ & N)|(N & N')]; [lia|congruence|].
           split; [congruence|]. eauto.
        -- destruct (T true _ (made_sent out q lang (rs_counter n) k Ho (proj1 H) ltac:(lia) K)) as [T1 T2].
           split; [exact T1|]. intros e E. exfalso. exact (T2 e E).
      * assert (Hd : In d (elems q)).
        { eapply extract_in; [exact X|]. assert (In d (filter made (map (fun w => fst (fst w)) ws))) by (rewrite Fl; left; auto).
          apply filter_In in H0. apply H0. }
        destruct (proj2 H d Hd) as [G1 G2].
        destruct (T built _ (joined_sent more out (rs_counter n) q d Ho ltac:(lia) G1 G2)) as [T1 T2].
        split; [exact T1|]. intros e E. exfalso. exact (T2 e E).
    + cbn [fst snd heads]. rewrite app_nil_r. split; [split; [exact C|]; cbn [ss_node]; rewrite Q; auto|]. discriminate.
  - subst hs. unfold tick. rewrite Q. cbn. split; [split; [exact C|]; cbn; rewrite Q; auto|discriminate].
  - subst hs. unfold tick. rewrite Q. cbn. split; [split; [exact C|]; cbn; rewrite Q; auto|discriminate].
Qed.

Lemma running_run : forall more out len discard start l, out <> "" -> all_good more (sdocs l) ->
  let r := run (s_step more out len discard) (s0 start) l in running more out (fst r) (heads (snd r)).
Proof.
  intros more out len discard start l Ho. induction l as [|i l IH] using rev_ind; intros G.
  - cbn. split; [cbn; lia|reflexivity].
  - cbv zeta in *. rewrite run_state_snoc, run_out_snoc, heads_app.
    assert (G1 : all_good more (sdocs l)).
    { intros d Hd. apply G. rewrite sdocs_app. apply in_or_app. auto. }
    specialize (IH G1). destruct i as [d|made built]; cbn [s_step].
    + destruct (running_consume _ _ _ _ d IH) as [A B].
      { apply G. rewrite sdocs_app. apply in_or_app. right. left. reflexivity. }
      rewrite B, app_nil_r. exact A.
    + apply (running_tick more out len discard made built _ _ Ho IH).
Qed.

(** Documents with attributes a re-sequencer sent belong together. *)
Lemma sent_one_sequence : forall out q hs ds, sound q -> Forall (sent out q) hs ->
  (forall x, In x ds -> exists k, In k hs /\ with_head k x) -> one_sequence ds.
Proof.
  intros out q hs ds (_ & _ & tb & cm & K) F W. rewrite Forall_forall in F.
  assert (P : forall x, In x ds -> d_sid x = out /\ d_tb x = q_tb q /\ (q_tb q = "clock" -> d_cm x = q_cm q) /\
                                   (d_agid x = None \/ d_agid x = q_agid q)).
  { intros x Hx. destruct (W x Hx) as (k & Hk & W1 & _ & W3 & W4 & W5). destruct (F k Hk) as (_ & F1 & F2 & F3 & F4).
    rewrite W1, W3, W4, W5. auto. }
  split.
  - intros x Hx. destruct (P x Hx) as (_ & B & C & _). unfold clocked. rewrite B.
    rewrite (clock_of_again _ _ _ _ K _ C). discriminate.
  - intros x y Hx Hy. destruct (P x Hx) as (X1 & X2 & X3 & X4). destruct (P y Hy) as (Y1 & Y2 & Y3 & Y4).
    split; [congruence|]. split.
    + apply same_clock_iff. split; [congruence|]. intros E. rewrite X3, Y3; congruence.
    + intros a b Ha Hb. destruct X4 as [X4|X4], Y4 as [Y4|Y4]; congruence.
Qed.

(** ** No clock *)

Lemma gps_step : forall more out len discard s x i, rs_seq (ss_node s) = Some None -> rs_first (ss_node s) = Some x ->
  ss_node (fst (s_step more out len discard s i)) = ss_node s /\
  snd (s_step more out len discard s i) =
    SOther (match i with SDoc d => if String.eqb x (d_sid d) then RAttribute else RRaiseSequence | STick _ _ => RAttribute end).
Proof.
  intros more out len discard [[q f e c] lang] x i Q F. cbn [ss_node rs_seq rs_first] in *. subst q f.
  destruct i as [d|made built]; cbn [s_step].
  - unfold s_consume. cbn [ss_node rs_first rs_seq limit_one consume].
    unfold consume. cbn [rs_first rs_seq limit_one]. destruct (String.eqb x (d_sid d)); cbn; auto.
  - unfold s_tick, tick. cbn. auto.
Qed.

(** ** The handover node *)

Lemma handed_clocked : forall M out group (h : list (hinput M)) e, In e (emitted (outs M out group h)) ->
  clocked (h_doc (snd e)) /\ d_agid (h_doc (snd e)) = group /\ snd (fst (fst e)) = out.
Proof.
  intros M out group h. induction h as [|i h IH] using rev_ind; intros e He; [destruct He|].
  destruct (inv_holds M out group (h ++ [i])) as [_ _ _ _ _ E _]. rewrite Forall_forall in E.
  pose proof (E e He) as Ee. destruct e as [[[n o] s] x]. cbn [fst snd] in *. destruct Ee as (E1 & _ & E2 & _).
  split; [|auto]. rewrite outs_snoc, emitted_app in He. apply in_app_or in He as [He|He].
  { apply (IH (n, o, s, x) He). }
  rewrite reacts_expected in He. unfold expected in He. destruct i as [y|m]; [|destruct He].
  set (docs := received (d_sid (h_doc y)) h) in *. unfold verdict in He.
  destruct (clock_of (d_tb (hd (h_doc y) docs)) (d_cm (hd (h_doc y) docs))) as [[tb cm]|] eqn:K; [|destruct He].
  destruct (same_clock (hd (h_doc y) docs) (h_doc y)) eqn:S; cbn [negb] in He; [|destruct He].
  destruct (_ && _) in He; [destruct He|]. destruct (h_token y); [|destruct He].
  destruct (_ && _) in He; [|destruct He]. destruct He as [He|[]]. injection He as _ _ _ <-.
  apply same_clock_iff in S as [S1 S2]. destruct (clock_of_some _ _ _ _ K) as [T U].
  unfold clocked. rewrite <- S1, <- T. rewrite (clock_of_again _ _ _ _ K); [discriminate|].
  intros C. rewrite <- S2, U; congruence.
Qed.

(** ** The number of a new document is free *)

Definition below (q : seqstate) : Prop := forall x, In x (q_docs q) -> d_num x <= q_last q.

Lemma below_add : forall q d, below q -> below (fst (add_document q d)).
Proof.
  intros q d H x Hx. destruct (add_document q d) as [q' o] eqn:A. cbn [fst] in *.
  destruct (add_shape _ _ _ _ A) as (L & N & _). destruct o as [| |e].
  1,2: pose proof (add_docs q d x) as D; rewrite A in D; destruct (D Hx) as [->|D']; [apply N; exact I|specialize (H x D'); lia].
  assert (D : In x (q_docs q)); [|specialize (H x D); lia].
  unfold add_document in A. destruct (check_compat q d) as [s1 [[]|y]] eqn:C;
    destruct (check_compat_shape _ _ _ _ C) as (T & _); rewrite <- T.
  2:{ injection A as <- _. exact Hx. }
  destruct (insert_or_discard s1 d) as [s2|o| |y] eqn:I1; [discriminate| | |injection A as <- _; exact Hx].
  - destruct (resolved_begin s1 o); [|injection A as <- _; exact Hx].
    unfold discard_document in A. destruct (_ >? _); [injection A as <- _; exact Hx|discriminate].
  - destruct (override_sequence s1 d) as [s2 r] eqn:O. apply override_shape in O as [_ (f & O)].
    assert (Hs2 : forall y, In y (q_docs s2) -> In y (q_docs s1)) by (intros y; rewrite O; intros Hy; apply filter_In in Hy; tauto).
    destruct r as [u|y]; [|injection A as <- _; auto].
    destruct (insert_or_discard s2 d); [discriminate|injection A as <- _; auto..].
Qed.

Lemma below_calls : forall cs q, below q -> below (calls q cs).
Proof.
  induction cs as [|c cs IH]; intros q H; cbn [calls]; auto. apply IH. destruct c as [d| |d|b e disc]; cbn [call_step].
  - pose proof (below_add q d H) as B. destruct (add_document q d) as [q' []]; exact B.
  - intros x Hx. cbn in Hx. specialize (H x Hx). cbn. lia.
  - pose proof (discard_before_shape q d) as [I (f & D)]. cbn [fst]. intros x Hx. rewrite D in Hx.
    apply filter_In in Hx as [Hx _]. specialize (H x Hx). unfold ident in I. injection I as _ _ _ _ ->. exact H.
  - pose proof (extract_shape q b e disc) as [I (f & D)]. cbn [fst]. intros x Hx. rewrite D in Hx.
    apply filter_In in Hx as [Hx _]. specialize (H x Hx). unfold ident in I. injection I as _ _ _ _ ->. exact H.
Qed.

Lemma agid_calls : forall cs q, q_agid q <> Some "" -> q_agid (calls q cs) <> Some "".
Proof.
  induction cs as [|c cs IH]; intros q H; cbn [calls]; auto. apply IH. destruct c as [d| |d|b e disc]; cbn [call_step].
  - assert (B : q_agid (fst (add_document q d)) <> Some "").
    { rewrite add_agid_check. unfold check_compat. destruct (negb _ || negb _); [exact H|]. destruct (_ && _); [exact H|].
      destruct (existsb _ _); [exact H|]. destruct (d_agid d) as [a|]; [|exact H].
      destruct (String.eqb_spec a ""); [exact H|]. destruct (q_agid q) as [g|] eqn:G; [destruct (String.eqb a g); cbn [fst]; congruence|].
      cbn. congruence. }
    destruct (add_document q d) as [q' []]; exact B.
  - exact H.
  - pose proof (discard_before_shape q d) as [I _]. cbn [fst]. unfold ident in I. injection I as _ _ _ -> _. exact H.
  - pose proof (extract_shape q b e disc) as [I _]. cbn [fst]. unfold ident in I. injection I as _ _ _ -> _. exact H.
Qed.

Lemma own_accepted : forall q k n, below q -> n = q_last q + 1 -> q_agid q <> Some "" ->
  forall x, d_sid x = q_sid q -> d_tb x = q_tb q -> d_cm x = q_cm q -> d_agid x = q_agid q -> d_num x = n ->
  k = set_last q n -> snd (check_compat k x) = Ok tt.
Proof.
  intros q k n B Hn G x X1 X2 X3 X4 X5 ->. pose proof (check_cases (set_last q n) x) as C.
  destruct (snd (check_compat (set_last q n) x)) as [[]|e]; auto. destruct e; try contradiction; exfalso.
  - apply C. unfold matching. cbn. auto.
  - destruct C as [_ C]. cbn in C. apply in_map_iff in C as (y & E & Hy). specialize (B y Hy). lia.
  - destruct C as (_ & a & g & C1 & _ & C3 & C4). cbn in C3. congruence.
Qed.
