(** C61: nodes put together in a configuration. *)

From Coq Require Import List ZArith String Bool Lia.
From Verif Require Import AdapterModel PropsAdapter WiringModel WiringSpec WiringProofs.
Import ListNotations.
Open Scope string_scope.
Open Scope list_scope.

(** ** Starting *)

(** Whatever nodes are put together, in whatever order and by whatever
    carriages: without configured adapters the start raises nothing. *)
Theorem C61_starts : forall x from c, from = TText \/ from = TDoc3 \/ from = TDocD ->
  (forall l n, In (l, n) c -> l_out l = [] /\ l_in l = []) -> starts x from c = true.
Proof. exact unconfigured_starts. Qed.

(** ** Configurations that do what their nodes are for *)

(** If a configuration passes the check, it starts, and what comes out of a
    document is what the nodes make of it one after another. *)
Theorem C61_checked : forall x h b from s d k c, faithful x -> source x h b from s d k ->
  checked from c s = true ->
  starts x from c = true /\
  exists g, works (map snd c) (Live (h, b)) = Some g /\ comes_to x (send x from c d k) g.
Proof.
  intros x h b from s d k c F S H. destruct (source_told x h b from s d k S) as [P T].
  exact (checked_right x from c s d k (Live (h, b)) F P T H).
Qed.

(** If it does not pass, there are nodes of the same kinds for which something
    else comes out, or nothing: the check is exact. *)
Theorem C61_exact : forall x h b from s d k c, faithful x -> separate x -> h_sid h <> "default" ->
  source x h b from s d k ->
  (checked from c s = true <->
   forall c', same_config c c' ->
     exists g, works (map snd c') (Live (h, b)) = Some g /\ comes_to x (send x from c' d k) g).
Proof.
  intros x h b from s d k c F D N S. split.
  - intros H c' C. rewrite (same_checked from c c' s C) in H.
    exact (proj2 (C61_checked x h b from s d k c' F S H)).
  - intros H. destruct (checked from c s) eqn:E; [reflexivity|exfalso].
    destruct (H _ (marked_same c)) as (g & W & O). rewrite map_map in W.
    destruct (source_told x h b from s d k S) as [P _].
    exact (unchecked_wrong x from c s d k (Live (h, b)) g F D P (source_exact x h b from s d k N S) E W O).
Qed.

(** ** Rewriting undone *)

(** Text is read for nodes that rewrite documents and are joined directly to each
    other and to a distributor: it sends the text that was read, under the
    identifier of the rewritten document. *)
Theorem C61_undone : forall x from t k h b n l, source x h b from from_file (PText t) k \/
  source x h b from from_websocket (PText t) k ->
  Forall (fun m => rewriting m <> None) (n :: l) ->
  exists k', kw_get k' "sequence_identifier" = Some (VText (h_sid (fst (rewrite_all (n :: l) (h, b))))) /\
  send x from ((read_in, n) :: directly (l ++ [Distribute])) (PText t) k = Emits (PText t) k'.
Proof.
  intros x from t k h b n l S R. unfold directly. rewrite map_app.
  assert (plain from /\ x_parse x t = Some (ParsedTT h b) /\
    match kw_arg k "sequence_identifier" with VNone => true | VText u => u =? h_sid h | VInt _ => false end = true) as (P & E & I).
  { unfold plain. destruct S as [S|S]; inversion S; subst; cbn; rewrite ?String.eqb_refl; auto. }
  exact (stale_send x from n l [] t k h b P E I R).
Qed.

(** Sent on by websocket to a node that reads documents, this is an exception if
    the identifier has been changed; through the filesystem the document arrives
    as if nothing had been done to it. *)
Theorem C61_undone_far : forall x from t k h b n l av, source x h b from from_file (PText t) k \/
  source x h b from from_websocket (PText t) k ->
  Forall (fun m => rewriting m <> None) (n :: l) ->
  (forall m, expects m = TDoc3 -> h_sid (fst (rewrite_all (n :: l) (h, b))) <> h_sid h ->
   send x from ((read_in, n) :: directly (l ++ [Distribute]) ++ [(mkLink [] Websocket [], m)]) (PText t) k = Raises) /\
  send x from ((read_in, n) :: directly (l ++ [Distribute]) ++ [(mkLink [] (Filesystem av) [], Consume)]) (PText t) k
    = Consumed (h, b).
Proof.
  intros x from t k h b n l av S R. unfold directly. rewrite map_app.
  assert (plain from /\ x_parse x t = Some (ParsedTT h b) /\
    match kw_arg k "sequence_identifier" with VNone => true | VText u => u =? h_sid h | VInt _ => false end = true) as (P & E & I).
  { unfold plain. destruct S as [S|S]; inversion S; subst; cbn; rewrite ?String.eqb_refl; auto. }
  split.
  - intros m M N. destruct (stale_send x from n l [(mkLink [] Websocket [], m)] t k h b P E I R) as (k' & K & H).
    rewrite <- app_assoc. cbn [map app]. unfold directly in H. rewrite H.
    cbn [send]. rewrite (start_link_used x TText _ m (or_introl eq_refl)).
    assert (used_in (mkLink [] Websocket []) m = Some [XmlToDoc]) as -> by (destruct m; try discriminate; reflexivity).
    cbn [used_out l_out writing l_carriage map]. unfold deliver. cbn [convert carry]. rewrite K.
    cbn [adapter_of xml3 a_convert]. unfold xml_to_doc3. rewrite E. cbv zeta. unfold kw_arg.
    cbn [kw_get String.eqb Ascii.eqb Bool.eqb].
    assert (h_sid (fst (rewrite_all (n :: l) (h, b))) =? h_sid h = false) as -> by (apply String.eqb_neq; exact N).
    reflexivity.
  - destruct (stale_send x from n l [(mkLink [] (Filesystem av) [], Consume)] t k h b P E I R) as (k' & K & H).
    rewrite <- app_assoc. cbn [map app]. unfold directly in H. rewrite H.
    cbn [send]. rewrite (start_link_used x TText _ Consume (or_introl eq_refl)).
    cbn [used_out used_in l_out l_in writing reading l_carriage map]. unfold deliver.
    cbn [convert carry adapter_of xml3 a_convert]. unfold xml_to_doc3. rewrite E. reflexivity.
Qed.

(** ** Text where documents are expected *)

(** Joined directly to a node that sends text, a retiming node hands the text on
    as it is, a de-duplicator, an encoder and a consumer do nothing without a
    word, and a handover node and a distributor raise. *)
Theorem C61_text : forall x from t k n, from = TText \/ from = TDoc3 \/ from = TDocD ->
  send x from (directly [n]) (PText t) k =
  match n with
  | Retime _ => Emits (PText t) k
  | Dedup _ | Encode _ | Consume => Dropped
  | Handover _ _ | Distribute => Raises
  | Buffer z => match kw_get k "delay" with Some _ => Raises | None => Emits (PText t) (kw_put k "delay" (VInt z)) end
  end.
Proof.
  intros x from t k n P. unfold directly. cbn [map]. rewrite (send_direct x from n [] _ _ P).
  destruct n; cbn; try reflexivity. unfold has. destruct (kw_get k "delay"); reflexivity.
Qed.

(** ** Keyword arguments given twice *)

(** Two buffers joined directly, also with nodes in between that hand on their
    keyword arguments, raise at every document. *)
Theorem C61_buffers : forall x from z z' d k l, from = TText \/ from = TDoc3 \/ from = TDocD ->
  Forall (fun m => rewriting m <> None) l ->
  (exists h av b, d = PDoc h av b) \/ l = [] ->
  send x from (directly (Buffer z :: l ++ [Buffer z'])) d k = Raises.
Proof.
  intros x from z z' d k l P R D. unfold directly. cbn [map]. rewrite (send_direct x from (Buffer z) _ _ _ P).
  assert (Hp : process x (Buffer z) d k = if has k "delay" then Raises else Emits d (kw_put k "delay" (VInt z)))
    by (destruct d; reflexivity).
  rewrite Hp. destruct (has k "delay"); [reflexivity|]. rewrite map_app.
  assert (L : forall f d', plain f -> send x f (map (fun n => (joined_directly, n)) [Buffer z']) d' (kw_put k "delay" (VInt z)) = Raises).
  { intros f d' Pf. cbn [map]. rewrite (send_direct x f (Buffer z') [] _ _ Pf).
    assert (has (kw_put k "delay" (VInt z)) "delay" = true) as Hh by (unfold has; rewrite kw_get_put; reflexivity).
    destruct d'; cbn [process]; rewrite Hh; reflexivity. }
  destruct D as [(h & av & b & ->) | ->].
  - destruct (send_rewriting x (provides (Buffer z)) l (map (fun n => (joined_directly, n)) [Buffer z']) h av b
      (kw_put k "delay" (VInt z)) (plain_provides _) R) as (f & Pf & H).
    unfold directly in H. rewrite H. apply L. exact Pf.
  - apply L. apply plain_provides.
Qed.

(** A distributor, its text read again for an encoder joined directly: every
    document raises, because its time base is a keyword argument already. *)
Theorem C61_encoder : forall x from h av b k f, faithful x -> from = TText \/ from = TDoc3 \/ from = TDocD ->
  kw_get k "raw_xml" = None ->
  send x from [(joined_directly, Distribute); (read_in, Encode f)] (PDoc h av b) k = Raises.
Proof.
  intros x from h av b k f [F _] P R. rewrite (send_direct x from Distribute _ _ _ P). cbn [process].
  unfold kw_arg at 1. rewrite R.
  rewrite (send_read x (provides Distribute) (Encode f) [] _ _ h b (plain_provides _) eq_refl (F h b)).
  - cbn [process]. unfold has. kw. rewrite orb_true_r. reflexivity.
  - unfold kw_arg. kw. apply String.eqb_refl.
Qed.

(** ** A buffer between the filesystem and a websocket *)

(** It knows no sequence identifier, so the document is sent as 'default', and
    nodes that read it raise. *)
Theorem C61_default : forall x t h b av z n, x_parse x t = Some (ParsedTT h b) -> expects n = TDoc3 ->
  h_sid h <> "default" ->
  send x TText [(joined_directly, Buffer z); (mkLink [] Websocket [], n)] (PText t) [("availability_time", av)] = Raises.
Proof.
  intros x t h b av z n E M N. rewrite (send_direct x TText (Buffer z) _ _ _ (or_introl eq_refl)).
  cbn [process has kw_get String.eqb Ascii.eqb Bool.eqb provides]. cbn [send].
  rewrite (start_link_used x TText _ n (or_introl eq_refl)).
  assert (used_in (mkLink [] Websocket []) n = Some [XmlToDoc]) as -> by (destruct n; try discriminate; reflexivity).
  cbn [used_out l_out writing l_carriage map]. unfold deliver.
  cbn [convert carry adapter_of xml3 a_convert]. unfold xml_to_doc3. rewrite E. cbv zeta. unfold kw_arg.
  assert ("default" =? h_sid h = false) as Hq by (apply String.eqb_neq; congruence).
  cbn in Hq |- *. rewrite Hq. reflexivity.
Qed.

(** ** Cases *)

Definition late (c : content) : content :=
  (mkHeader "retimed" (h_num (fst c)) (h_tb (fst c)) (h_cm (fst c)), snd c ++ " later")%string.
Definition once (c : content) : content :=
  (mkHeader "deduplicated" (h_num (fst c)) (h_tb (fst c)) (h_cm (fst c)), snd c ++ " once")%string.
Definition a_header : header := mkHeader "seq" 3 (VText "clock") (VText "local").
Definition by_ws : link := mkLink [] Websocket [].
Definition by_fs : link := mkLink [] (Filesystem (VInt 5)) [].

(** Retimed and de-duplicated, joined directly, then sent by websocket, through a
    buffer and the filesystem, and encoded. *)
Definition a_chain : chain :=
  [(read_in, Retime late); (joined_directly, Dedup once); (by_ws, Buffer 2); (by_ws, Distribute); (by_fs, Encode snd)].
Definition a_text : string := enc_doc a_header "Hello".

Example C61_case_source : source an_xml a_header "Hello" TText from_websocket (PText a_text)
  [("sequence_identifier", VText "seq")].
Proof. apply source_websocket. reflexivity. Qed.
Example C61_case_right : faithful an_xml /\ separate an_xml /\ checked TText a_chain from_websocket = true /\
  works (map snd a_chain) (Live (a_header, "Hello")) = Some (Deliverable "Hello later once") /\
  exists k, send an_xml TText a_chain (PText a_text) [("sequence_identifier", VText "seq")]
    = Emits (PDocD (Some "Hello later once")) k.
Proof.
  split; [exact an_xml_faithful|]. split; [exact an_xml_separate|].
  split; [reflexivity|]. split; [reflexivity|]. eexists. vm_compute. reflexivity.
Qed.

(** The same nodes with the distributor joined directly: it starts but is not
    accepted by the check. *)
Definition bad_chain : chain := (read_in, Retime late) :: directly ([Dedup once] ++ [Distribute]).
Example C61_case_undone : starts an_xml TText bad_chain = true /\ checked TText bad_chain from_websocket = false /\
  works (map snd bad_chain) (Live (a_header, "Hello")) =
    Some (Live (mkHeader "deduplicated" 3 (VText "clock") (VText "local"), "Hello later once")) /\
  (exists k, send an_xml TText bad_chain (PText a_text) [("sequence_identifier", VText "seq")] = Emits (PText a_text) k) /\
  send an_xml TText (bad_chain ++ [(by_ws, Consume)]) (PText a_text) [("sequence_identifier", VText "seq")] = Raises /\
  send an_xml TText (bad_chain ++ [(by_fs, Consume)]) (PText a_text) [("sequence_identifier", VText "seq")]
    = Consumed (a_header, "Hello").
Proof.
  split; [reflexivity|]. split; [reflexivity|]. split; [reflexivity|].
  split; [eexists; vm_compute; reflexivity|]. split; vm_compute; reflexivity.
Qed.

(** With a pair of adapters between them the rewritten document is read again and
    sent. *)
Example C61_case_mended :
  let c := [(read_in, Retime late); (mkLink [DocToXml] Direct [XmlToDoc], Distribute)] in
  checked TText c from_websocket = true /\
  exists k, send an_xml TText c (PText a_text) [("sequence_identifier", VText "seq")] =
    Emits (PText (enc_doc (mkHeader "retimed" 3 (VText "clock") (VText "local")) "Hello later")) k.
Proof. split; [reflexivity|]. eexists. vm_compute. reflexivity. Qed.

(** Configured adapters that do not fit keep a chain from starting. *)
Example C61_case_start : starts an_xml TDoc3 [(mkLink [DocDToXml] Websocket [], Consume)] = false /\
  starts an_xml TDoc3 [(joined_directly, Encode snd); (joined_directly, Retime late); (by_ws, Buffer 1)] = true /\
  send an_xml TDoc3 [(joined_directly, Encode snd); (joined_directly, Retime late)] (PDoc a_header VNone "Hello") [] = Raises.
Proof. repeat (split; [reflexivity|]). vm_compute. reflexivity. Qed.

Example C61_case_twice :
  send an_xml TText (directly [Buffer 1; Buffer 2]) (PText a_text) [] = Raises /\
  send an_xml TDoc3 [(joined_directly, Distribute); (read_in, Encode snd)] (PDoc a_header VNone "Hello") [] = Raises /\
  send an_xml TText [(joined_directly, Buffer 1); (by_ws, Consume)] (PText a_text) [("availability_time", VInt 5)] = Raises /\
  send an_xml TText [(joined_directly, Buffer 1); (by_fs, Consume)] (PText a_text) [("availability_time", VInt 5)]
    = Consumed (a_header, "Hello").
Proof. repeat split; vm_compute; reflexivity. Qed.

(** What an encoder makes is written as EBU-TT-D; a document read from a file is
    available at the time the manifest says. *)
Example C61_case_files :
  send an_xml TDoc3 [(joined_directly, Encode snd); (by_fs, Buffer 1)] (PDoc a_header VNone "Hello") []
    = Emits (PText "DHello") [("delay", VInt 1); ("availability_time", VInt 5)] /\
  exists h k, send an_xml TText [(by_fs, Retime late)] (PText a_text) [] = Emits (PDoc h (VInt 5) "Hello later") k.
Proof. split; [vm_compute; reflexivity|]. eexists _, _. vm_compute. reflexivity. Qed.

(** The chains between the nodes of the examples in examples/config pass the
    check, whatever their nodes make of documents; what a re-sequencer emits
    counts as produced. *)
Example C61_case_project : forall w w' f z o,
  Forall (fun p => checked (fst (fst p)) (snd p) (snd (fst p)) = true)
    [ (TText, from_websocket, [(read_in, Retime w); (joined_directly, Retime w')]);
      (TDoc3, produced, [(by_ws, Distribute); (by_ws, Consume)]);
      (TDoc3, produced, [(by_ws, Consume)]);
      (TDoc3, produced, [(by_fs, Consume)]);
      (TDoc3, produced, [(joined_directly, Consume)]);
      (TDoc3, produced, [(joined_directly, Encode f)]);
      (TDoc3, produced, [(joined_directly, Dedup w); (joined_directly, Encode f)]);
      (TDoc3, produced, [(joined_directly, Retime w)]);
      (TText, from_websocket, [(joined_directly, Buffer z); (by_ws, Consume)]);
      (TText, from_websocket, [(read_in, Distribute); (by_ws, Consume)]);
      (TText, from_websocket, [(read_in, Retime w); (by_ws, Consume)]);
      (TText, from_websocket, [(read_in, Handover o w)]);
      (TText, from_file, [(read_in, Dedup w)]) ].
Proof. intros. repeat (constructor; [reflexivity|]). constructor. Qed.

Print Assumptions C61_starts.
Print Assumptions C61_checked.
Print Assumptions C61_exact.
Print Assumptions C61_undone.
Print Assumptions C61_undone_far.
Print Assumptions C61_text.
Print Assumptions C61_buffers.
Print Assumptions C61_encoder.
Print Assumptions C61_default.
