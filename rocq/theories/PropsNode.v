(** Properties C20, C21 and C40: memory of seen documents, single input
    sequence, distribution. *)

From Coq Require Import List ZArith String Bool Lia.
From Verif Require Import RingModel RingProofs SequenceModel SequenceSpec NodeModel NodeSpec NodeProofs.
Import ListNotations.
Open Scope string_scope.
Open Scope Z_scope.

(** * C20 *)

(** An answer is "new" exactly when the number is not among the last 100 numbers
    of that sequence answered "new" before. *)
Theorem C20_exact : forall h before sid num b after,
  seen_trace h = (before ++ ((sid, num), b) :: after)%list ->
  (b = true <-> ~ In num (newest (Some 100%nat) (accepted sid before))).
Proof. exact answer_spec. Qed.

(** Every query is answered. *)
Theorem C20_total : forall h, map fst (seen_trace h) = h.
Proof. exact seen_trace_fst. Qed.

(** The same document is answered "new" twice only after 100 others of its
    sequence. *)
Theorem C20_once : forall h t1 sid num t2 t3,
  seen_trace h = (t1 ++ ((sid, num), true) :: t2 ++ ((sid, num), true) :: t3)%list ->
  (100 <= List.length (accepted sid t2))%nat.
Proof.
  intros h t1 sid num t2 t3 H.
  change (t1 ++ ((sid, num), true) :: t2 ++ ((sid, num), true) :: t3)%list
    with (t1 ++ (((sid, num), true) :: t2) ++ ((sid, num), true) :: t3)%list in H.
  rewrite app_assoc in H. apply C20_exact in H. destruct H as [H _]. specialize (H eq_refl).
  destruct (Nat.le_gt_cases 100 (List.length (accepted sid t2))) as [Hl|Hl]; auto.
  exfalso. apply H. rewrite accepted_app. cbn [accepted andb]. rewrite String.eqb_refl.
  apply newest_app_r; [cbn [List.length]; lia|left; auto].
Qed.

(** What is remembered for a sequence are distinct numbers, at most 100. *)
Theorem C20_memory : forall h sid,
  NoDup (newest (Some 100%nat) (accepted sid (seen_trace h))) /\
  (List.length (newest (Some 100%nat) (accepted sid (seen_trace h))) <= 100)%nat.
Proof. intros h sid. split; [apply memory_NoDup|]. rewrite newest_len. lia. Qed.

(** As long as a sequence uses no more than 100 numbers, exactly the first copy
    of each document is new. *)
Theorem C20_first : forall h sid num b before after ns,
  seen_trace h = (before ++ ((sid, num), b) :: after)%list ->
  (List.length ns <= 100)%nat -> (forall n, In (sid, n) h -> In n ns) ->
  (b = true <-> ~ In (sid, num) (map fst before)).
Proof.
  intros h sid num b before after ns H Hl Hin. rewrite (C20_exact _ _ _ _ _ _ H).
  destruct (seen_trace_prefix _ _ _ _ _ H) as (h1 & h2 & -> & -> & _).
  destruct (all_remembered h1 sid ns Hl) as (_ & Q & L); [intros; apply Hin, in_or_app; auto|].
  rewrite newest_short by auto. rewrite Q, seen_trace_fst. tauto.
Qed.

(** The answers for a sequence are those of a node that sees nothing else. *)
Theorem C20_independent : forall sid h,
  filter (fun e => of_sequence sid (fst e)) (seen_trace h) = seen_trace (filter (of_sequence sid) h).
Proof. exact filter_trace. Qed.

Example C20_case :
  map snd (seen_trace [("a", 1); ("b", 1); ("a", 1); ("a", 2); ("b", 1); ("a", 1)]) =
  [true; true; false; true; false; false].
Proof. reflexivity. Qed.

(** The number 0 is forgotten after 100 others and new again. *)
Example C20_forgets :
  let h := (("a", 0) :: map (fun k => ("a", Z.of_nat k)) (seq 1 100) ++ [("a", 0); ("a", 100)])%list in
  map snd (skipn 101 (seen_trace h)) = [true; false].
Proof. vm_compute. reflexivity. Qed.

(** * C21 *)

(** limit_sequence_to_one by itself: a call returns exactly when the identifier
    is that of the first call; the node keeps that identifier. *)
Theorem C21_limit : forall sid0 l,
  run limit_one None (sid0 :: l) = (Some sid0, map (String.eqb sid0) (sid0 :: l)).
Proof.
  intros sid0 l. cbn [run limit_one map]. rewrite String.eqb_refl.
  enough (H : run limit_one (Some sid0) l = (Some sid0, map (String.eqb sid0) l)) by (rewrite H; auto).
  induction l as [|s l IH]; cbn [run limit_one map]; auto. rewrite IH. auto.
Qed.

(** The retiming and the de-duplicating node: the reaction to a document after
    any history [h].  [home] is the first identifier that is not the node's own
    output; [recent] is the memory of C20. *)
Theorem C21_reaction : forall P M out msgs (rewrite : P -> option P) (h : list (input P M)) d,
  let r := reaction_to out msgs rewrite h (IDoc d) in
  (p_sid d = out -> r = RaiseSequence) /\
  (p_sid d <> out -> recent out h d -> r = Ignore) /\
  (p_sid d <> out -> ~ recent out h d ->
     (exists f, home out h = Some f /\ f <> p_sid d) -> r = RaiseSequence) /\
  (p_sid d <> out -> ~ recent out h d ->
     home out (h ++ [IDoc d]) = Some (p_sid d) ->
     r = match rewrite (p_body d) with Some b => Emit (mkPdoc out (p_num d) b) | None => RaiseOther end).
Proof. exact rewriting_reaction. Qed.

(** Documents of the home sequence are never refused as foreign. *)
Theorem C21_home : forall P M out msgs (rewrite : P -> option P) (h : list (input P M)) d,
  home out (h ++ [IDoc d]) = Some (p_sid d) ->
  reaction_to out msgs rewrite h (IDoc d) <> RaiseSequence.
Proof.
  intros P M out msgs rewrite h d H.
  assert (Hn : p_sid d <> out) by (apply (home_not_out _ _ _ _ _ H)).
  destruct (C21_reaction P M out msgs rewrite h d) as (_ & B & _ & D). cbv zeta in *.
  unfold recent in *.
  destruct (in_dec Z.eq_dec (p_num d) (newest (Some 100%nat) (accepted (p_sid d) (seen_trace (asked out h))))) as [Hr|Hr].
  - rewrite (B Hn Hr). discriminate.
  - rewrite (D Hn Hr H). destruct (rewrite (p_body d)); discriminate.
Qed.

(** Whatever is emitted comes from the home sequence and goes out under the
    output identifier with its number. *)
Theorem C21_emitted : forall P M out msgs (rewrite : P -> option P) (h : list (input P M)) d x,
  reaction_to out msgs rewrite h (IDoc d) = Emit x ->
  home out (h ++ [IDoc d]) = Some (p_sid d) /\ p_sid x = out /\ p_num x = p_num d /\
  rewrite (p_body d) = Some (p_body x).
Proof.
  intros P M out msgs rewrite h d x H.
  destruct (C21_reaction P M out msgs rewrite h d) as (A & B & C & D). cbv zeta in *.
  destruct (string_dec (p_sid d) out) as [He|Hn]; [rewrite (A He) in H; discriminate|].
  unfold recent in *.
  destruct (in_dec Z.eq_dec (p_num d) (newest (Some 100%nat) (accepted (p_sid d) (seen_trace (asked out h))))) as [Hr|Hr].
  { rewrite (B Hn Hr) in H. discriminate. }
  assert (Hh : home out (h ++ [IDoc d]) = Some (p_sid d)).
  { rewrite home_app. destruct (home out h) as [f|] eqn:Eh.
    - destruct (string_dec f (p_sid d)) as [->|Hf]; auto.
      rewrite (C Hn Hr) in H by eauto. discriminate.
    - cbn [home]. destruct (String.eqb_spec (p_sid d) out); congruence. }
  split; auto. rewrite (D Hn Hr Hh) in H. destruct (rewrite (p_body d)) as [b|]; [|discriminate].
  inversion H; subst. auto.
Qed.

(** Foreign documents make no difference to what the node sends, then or later. *)
Theorem C21_harmless : forall P M out msgs (rewrite : P -> option P) (h : list (input P M)) f,
  home out h = Some f ->
  sent (snd (run (rewriting_step out msgs rewrite) t0 h)) =
  sent (snd (run (rewriting_step out msgs rewrite) t0 (filter (at_home f) h))).
Proof. exact foreign_harmless. Qed.

(** But they do change the node: a foreign document that comes a second time is
    dropped without the exception.  So the property holds for what is sent, not
    for the rejection itself. *)
Theorem C21_foreign_twice : forall out f g num P (b : P) (rewrite : P -> option P) msgs,
  f <> out -> g <> out -> f <> g ->
  let home_doc := IDoc (mkPdoc f 1 b) in
  let foreign := IDoc (mkPdoc g num b) in
  reaction_to (M := unit) out msgs rewrite [home_doc] foreign = RaiseSequence /\
  reaction_to (M := unit) out msgs rewrite [home_doc; foreign] foreign = Ignore.
Proof.
  intros out f g num P b rewrite msgs Hf Hg Hfg home_doc foreign.
  assert (R1 : ~ recent (M := unit) out [home_doc] (mkPdoc g num b)).
  { unfold recent, asked, seen_trace. cbn. destruct (String.eqb_spec f out); [contradiction|]. cbn.
    destruct (String.eqb_spec g f); [congruence|]. intros []. }
  split.
  - destruct (C21_reaction P unit out msgs rewrite [home_doc] (mkPdoc g num b)) as (_ & _ & C & _).
    apply C; auto. exists f. split; auto. cbn. destruct (String.eqb_spec f out); [contradiction|auto].
  - destruct (C21_reaction P unit out msgs rewrite [home_doc; foreign] (mkPdoc g num b)) as (_ & B & _ & _).
    apply B; auto. apply (just_seen _ _ out [home_doc] (mkPdoc g num b)). auto.
Qed.

(** Messages pass the retiming node whatever has happened; the de-duplicating
    node drops them. *)
Theorem C21_messages : forall P M out (rewrite : P -> option P) (h : list (input P M)) m,
  reaction_to out true rewrite h (IMsg m) = EmitMsg m /\
  reaction_to out false rewrite h (IMsg m) = Ignore.
Proof. intros. split; reflexivity. Qed.

(** The encoder: it settles for the first document's sequence; every document of
    it is converted, everything else refused. *)
Theorem C21_encoder : forall P Q M (convert : P -> option Q) (h : list (input P M)) d f,
  first_of (h ++ [IDoc d]) = Some f ->
  snd (encoding_step (M := M) convert (fst (run (encoding_step convert) None h)) (IDoc d)) =
  if String.eqb f (p_sid d)
  then match convert (p_body d) with Some b => Emit (mkPdoc "default" (p_num d) b) | None => RaiseOther end
  else RaiseSequence.
Proof.
  intros P Q M convert h d f H. rewrite encoding_state.
  assert (E : first_of (h ++ [IDoc d]) = match first_of h with Some g => Some g | None => Some (p_sid d) end).
  { clear H. induction h as [|[x|m] h IH]; cbn [app first_of]; auto. }
  rewrite E in H. cbn [encoding_step]. destruct (first_of h) as [g|]; inversion H; subst; cbn [limit_one].
  - destruct (String.eqb f (p_sid d)); cbn [negb snd]; auto. destruct (convert (p_body d)); auto.
  - rewrite String.eqb_refl. cbn [negb]. destruct (convert (p_body d)); auto.
Qed.

Example C21_case :
  let doc s n := IDoc (mkPdoc s n tt) in
  snd (run (rewriting_step (M := string) "out" true (fun x => Some x)) t0
         [doc "out" 1; doc "a" 1; doc "b" 1; IMsg "hello"; doc "a" 1; doc "a" 2; doc "b" 1]) =
  [RaiseSequence; Emit (mkPdoc "out" 1 tt); RaiseSequence; EmitMsg "hello"; Ignore;
   Emit (mkPdoc "out" 2 tt); Ignore].
Proof. reflexivity. Qed.

Example C21_encoder_case :
  let doc s n := IDoc (mkPdoc s n n) in
  snd (run (encoding_step (M := string) (fun x => if x =? 3 then None else Some (x * 10))) None
         [IMsg "x"; doc "a" 1; doc "a" 1; doc "b" 2; doc "a" 3]) =
  [Ignore; Emit (mkPdoc "default" 1 10); Emit (mkPdoc "default" 1 10); RaiseSequence; RaiseOther].
Proof. reflexivity. Qed.

(** * C40 *)

Definition distributed (h : list xinput) : list (list emission) := snd (run distribute_step [] h).

Lemma distributed_snoc : forall h i,
  distributed (h ++ [i]) = (distributed h ++
    [match i with
     | XDoc d =>
         let '(_, new) := check_seen (fst (run seen_step [] (xdocs h))) (x_sid d) (x_num d) in
         if new then [mkEmission (match x_raw d with Some r => r | None => x_xml d end)
                        (x_sid d) (Some (x_num d)) (Some (x_tb d)) (x_avail d) (x_cm d)] else []
     | XMsg g => [mkEmission (xm_xml g) (xm_sid g) None None (xm_avail g) None]
     end])%list.
Proof.
  intros h i. unfold distributed. rewrite run_out_snoc, distribute_state.
  destruct i as [d|m]; cbn [distribute_step]; auto.
  destruct (check_seen (fst (run seen_step [] (xdocs h))) (x_sid d) (x_num d)); auto.
Qed.

(** Every input leads to at most one emission, which carries it; a message is
    always forwarded; a document exactly when C20 calls it new. *)
Theorem C40_each : forall h i,
  exists es, distributed (h ++ [i]) = (distributed h ++ [es])%list /\
    (es = [] \/ exists e, es = [e] /\ carries i e) /\
    match i with
    | XMsg _ => es <> []
    | XDoc d => es <> [] <->
                ~ In (x_num d) (newest (Some 100%nat) (accepted (x_sid d) (seen_trace (xdocs h))))
    end.
Proof.
  intros h i. rewrite distributed_snoc. eexists. split; [reflexivity|]. destruct i as [d|m].
  - destruct (check_seen (fst (run seen_step [] (xdocs h))) (x_sid d) (x_num d)) as [m b] eqn:Ec.
    apply next_answer in Ec as [_ Eb]. destruct b.
    + split; [right; eexists; split; [reflexivity|repeat split]|]. split; [tauto|discriminate].
    + split; [left; auto|]. split; [congruence|]. intros H. apply Eb in H. discriminate.
  - split; [right; eexists; split; [reflexivity|repeat split]|discriminate].
Qed.

(** As long as no sequence uses more than 100 numbers, what is sent is exactly the
    first copy of every document and all messages, in order of arrival. *)
Lemma first_copies_snoc : forall h before i,
  first_copies before (h ++ [i]) = (first_copies before h ++
    match i with
    | XMsg _ => [i]
    | XDoc d => if existsb (fun q => String.eqb (fst q) (x_sid d) && Z.eqb (snd q) (x_num d)) (before ++ xdocs h)
                then [] else [i]
    end)%list.
Proof.
  induction h as [|[x|m] h IH]; intros before i.
  - cbn [app first_copies xdocs flat_map]. rewrite app_nil_r. destruct i; auto.
  - cbn [app first_copies].
    destruct (existsb (fun q => String.eqb (fst q) (x_sid x) && Z.eqb (snd q) (x_num x)) before) eqn:Ex.
    + rewrite IH. f_equal. destruct i as [d|]; auto.
      cbn [xdocs flat_map app]. fold (xdocs h). rewrite !existsb_app. cbn [existsb fst snd].
      destruct (String.eqb_spec (x_sid x) (x_sid d)) as [E1|]; cbn [andb orb]; auto.
      destruct (Z.eqb_spec (x_num x) (x_num d)) as [E2|]; cbn [andb orb]; auto.
      rewrite E1, E2 in Ex. rewrite Ex. auto.
    + rewrite IH. cbn [app]. f_equal. f_equal. destruct i as [d|]; auto.
      cbn [xdocs flat_map app]. fold (xdocs h). rewrite !existsb_app. cbn [existsb fst snd].
      rewrite ?existsb_app. clear Ex.
      set (p := fun q : query => String.eqb (fst q) (x_sid d) && Z.eqb (snd q) (x_num d)).
      destruct (existsb p before), (String.eqb (x_sid x) (x_sid d) && Z.eqb (x_num x) (x_num d)), (existsb p (xdocs h));
        reflexivity.
  - cbn [app first_copies]. rewrite IH. reflexivity.
Qed.

Theorem C40_once : forall h,
  (forall sid, exists ns, (List.length ns <= 100)%nat /\ forall n, In (sid, n) (xdocs h) -> In n ns) ->
  Forall2 carries (first_copies [] h) (List.concat (distributed h)).
Proof.
  intros h. induction h as [|i h IH] using rev_ind; intros H; [constructor|].
  assert (Hh : forall sid, exists ns, (List.length ns <= 100)%nat /\ forall n, In (sid, n) (xdocs h) -> In n ns).
  { intros sid. destruct (H sid) as (ns & A & B). exists ns. split; auto. intros n Hn. apply B.
    unfold xdocs. rewrite flat_map_app. apply in_or_app. auto. }
  specialize (IH Hh). rewrite first_copies_snoc, distributed_snoc, concat_app. apply Forall2_app; auto.
  cbn [List.concat]. rewrite app_nil_r. cbn [app]. destruct i as [d|m].
  - destruct (check_seen (fst (run seen_step [] (xdocs h))) (x_sid d) (x_num d)) as [m b] eqn:Ec.
    apply next_answer in Ec as [_ Eb]. destruct (Hh (x_sid d)) as (ns & A & B).
    destruct (all_remembered _ _ _ A B) as (_ & Q & L).
    rewrite newest_short in Eb by auto. rewrite Q in Eb.
    destruct (existsb _ (xdocs h)) eqn:Ee.
    + apply existsb_exists in Ee as ([s n] & Hi & E). cbn [fst snd] in E.
      apply andb_true_iff in E as [E1 E2]. apply String.eqb_eq in E1. apply Z.eqb_eq in E2. subst.
      destruct b; [exfalso; apply (proj1 Eb eq_refl Hi)|constructor].
    + assert (b = true).
      { apply Eb. intros Hi. apply Bool.not_true_iff_false in Ee. apply Ee. apply existsb_exists.
        eexists. split; [exact Hi|]. cbn [fst snd]. rewrite String.eqb_refl, Z.eqb_refl. auto. }
      subst b. constructor; [repeat split|constructor].
  - constructor; [repeat split|constructor].
Qed.

(** The text that leaves is the text that came. *)
Theorem C40_verbatim : forall h,
  (forall sid, exists ns, (List.length ns <= 100)%nat /\ forall n, In (sid, n) (xdocs h) -> In n ns) ->
  map e_data (List.concat (distributed h)) = map payload (first_copies [] h).
Proof.
  intros h H. induction (C40_once h H) as [|i e l l' Hc _ IH]; auto.
  cbn [map]. rewrite IH. destruct Hc as [-> _]. auto.
Qed.

(** The buffer delay node forwards every text once, with its delay. *)
Theorem C40_buffer : forall delay l,
  List.concat (snd (run (buffer_step delay) tt l)) = map (fun text => (text, delay)) l.
Proof.
  intros delay l. induction l as [|t l IH]; auto.
  cbn [run buffer_step map]. destruct (run (buffer_step delay) tt l) as [s os]. cbn [snd] in *.
  cbn [List.concat app]. rewrite IH. auto.
Qed.

Example C40_case :
  let d s n raw := XDoc (mkXdoc s n raw "<made/>" "media" (Some 3) None) in
  let m := XMsg (mkXmsg "a" None "<m/>") in
  let h := [d "a" 1 (Some "<a1/>"); m; d "b" 1 None; d "a" 1 (Some "<other/>"); m; d "a" 2 (Some "")] in
  map e_data (List.concat (distributed h)) = ["<a1/>"; "<m/>"; "<made/>"; "<m/>"; ""] /\
  forall sid n, In (sid, n) (xdocs h) -> In n [1; 2].
Proof. split; [reflexivity|]. intros sid n H. cbn in *. intuition congruence. Qed.

Print Assumptions C20_exact.
Print Assumptions C20_total.
Print Assumptions C20_once.
Print Assumptions C20_memory.
Print Assumptions C20_first.
Print Assumptions C20_independent.
Print Assumptions C21_limit.
Print Assumptions C21_reaction.
Print Assumptions C21_home.
Print Assumptions C21_emitted.
Print Assumptions C21_harmless.
Print Assumptions C21_foreign_twice.
Print Assumptions C21_messages.
Print Assumptions C21_encoder.
Print Assumptions C40_each.
Print Assumptions C40_once.
Print Assumptions C40_verbatim.
Print Assumptions C40_buffer.
