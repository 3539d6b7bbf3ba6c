(** Property C35: adapter chains. *)

From Coq Require Import List ZArith String Bool Lia.
From Verif Require Import AdapterModel.
Import ListNotations.
Open Scope string_scope.

(** Each adapter provides what the next expects. *)
Fixpoint linked {D} (l : list (adapter D)) : Prop :=
  match l with
  | a :: (b :: _) as r => teq (a_provides a) (a_expects b) = true /\ linked r
  | _ => True
  end.

(** The whole requirement of the property. *)
Definition type_correct {D} (l : list (adapter D)) (provides expects : dtype) : Prop :=
  linked l /\
  match l with
  | [] => teq expects provides = true
  | a :: _ => teq (a_expects a) provides = true /\ teq (last_provides l) expects = true
  end.

Lemma teq_sym : forall a b, teq a b = teq b a.
Proof. intros [] []; cbn; auto using Nat.eqb_sym. Qed.
Lemma teq_refl : forall a, teq a a = true.
Proof. intros []; cbn; auto using Nat.eqb_refl. Qed.
Lemma dkey_teq : forall a b, dkey_eqb a b = true -> a = b.
Proof. intros [] []; cbn; intros H; try discriminate; auto. apply Nat.eqb_eq in H. congruence. Qed.

(** A given list is accepted exactly when its two ends fit. *)
Theorem C35_given : forall D reg (l : list (adapter D)) expects provides,
  set_data_adapters reg (Some l) expects provides =
  match l with
  | [] => if teq expects provides then Some [] else None
  | a :: _ => if teq (a_expects a) provides && teq (last_provides l) expects then Some l else None
  end.
Proof.
  intros D reg l expects provides. unfold set_data_adapters. destruct l as [|a l]; auto.
  destruct (teq (a_expects a) provides), (teq (last_provides (a :: l)) expects); auto.
Qed.

(** So every type-correct list is accepted, unchanged. *)
Theorem C35_accepts : forall D reg (l : list (adapter D)) expects provides,
  type_correct l provides expects -> set_data_adapters reg (Some l) expects provides = Some l.
Proof.
  intros D reg l expects provides [_ H]. rewrite C35_given. destruct l as [|a l].
  - rewrite H. auto.
  - destruct H as [-> ->]. auto.
Qed.

(** And what is accepted is type-correct provided it is linked inside, which
    for lists of at most one adapter it always is. *)
Theorem C35_rejects : forall D reg (l l' : list (adapter D)) expects provides,
  set_data_adapters reg (Some l) expects provides = Some l' ->
  l' = l /\ (linked l -> type_correct l provides expects) /\ (List.length l <= 1 -> type_correct l provides expects)%nat.
Proof.
  intros D reg l l' expects provides H. rewrite C35_given in H.
  assert (E : l' = l /\ match l with
    | [] => teq expects provides = true
    | a :: _ => teq (a_expects a) provides = true /\ teq (last_provides l) expects = true end).
  { destruct l as [|a l].
    - destruct (teq expects provides); inversion H; auto.
    - destruct (teq (a_expects a) provides); [|discriminate].
      destruct (teq (last_provides (a :: l)) expects); inversion H; auto. }
  destruct E as [-> E]. split; auto. split.
  - intros L. split; auto.
  - intros L. split; auto. destruct l as [|a [|b l]]; cbn in *; auto. lia.
Qed.

(** The links inside are not looked at: a list whose middle does not fit is
    accepted, and its conversion fails on every input. *)
Theorem C35_middle_unchecked : forall x, exists l,
  set_data_adapters (registry x) (Some l) TText TText = Some l /\ ~ linked l /\
  forall s k, convert l (PText s) k = None.
Proof.
  intros x. exists [xml3 x; dxml x]. split; [reflexivity|]. split; [cbn; intros [H _]; discriminate|].
  intros s k. cbn. unfold xml_to_doc3. destruct (x_parse x s) as [p|]; auto.
  destruct (match kw_arg k "sequence_identifier" with VNone => false | VText t => _ | VInt _ => true end); auto.
  destruct p; reflexivity.
Qed.

(** Without a list one registered adapter is chosen, when the types differ. *)
Theorem C35_automatic : forall D reg expects provides (l : list (adapter D)),
  set_data_adapters reg None expects provides = Some l ->
  type_correct l provides expects /\ (List.length l <= 1)%nat /\ (forall a, In a l -> In a reg) /\
  (l = [] <-> teq expects provides = true).
Proof.
  intros D reg expects provides l H. unfold set_data_adapters in H.
  destruct (teq expects provides) eqn:E; cbn [negb] in H.
  - inversion H; subst. split; [split; cbn; auto|]. cbn. split; [lia|]. split; [tauto|]. tauto.
  - unfold registered in H.
    destruct (find (fun a => dkey_eqb (a_expects a) provides && dkey_eqb (a_provides a) expects) reg) as [a|] eqn:F;
      [|discriminate].
    apply find_some in F as [Hin F]. apply andb_true_iff in F as [F1 F2].
    apply dkey_teq in F1, F2. cbn [last_provides rev app] in H.
    change (last_provides [a]) with (a_provides a) in H. rewrite F1, F2, !teq_refl in H. cbn in H.
    inversion H; subst l. split.
    + split; [cbn; auto|]. change (last_provides [a]) with (a_provides a). rewrite F1, F2, !teq_refl. auto.
    + split; [cbn; lia|]. split; [intros b [<-|[]]; auto|]. split; discriminate.
Qed.

Theorem C35_no_adapter : forall D reg expects provides,
  teq expects provides = false ->
  (set_data_adapters (D := D) reg None expects provides = None <->
   forall a, In a reg -> a_expects a = provides -> a_provides a <> expects).
Proof.
  intros D reg expects provides E. unfold set_data_adapters. rewrite E. cbn [negb]. unfold registered.
  assert (K : forall a b, a <> TAny -> dkey_eqb a b = true <-> a = b).
  { intros a b Ha. split; [apply dkey_teq|]. intros ->. destruct b; try congruence; cbn; auto using Nat.eqb_refl. }
  assert (P : provides <> TAny /\ expects <> TAny).
  { split; intros X; rewrite X in E; [destruct expects|destruct provides]; cbn in E; discriminate. }
  destruct (find (fun a => dkey_eqb (a_expects a) provides && dkey_eqb (a_provides a) expects) reg) as [a|] eqn:F.
  - apply find_some in F as [Hin F]. apply andb_true_iff in F as [F1 F2]. apply dkey_teq in F1, F2.
    change (last_provides [a]) with (a_provides a). rewrite F1, F2, !teq_refl. cbn. split; [discriminate|].
    intros H. exfalso. apply (H a); auto.
  - split; auto. intros _ a Hin H1 H2. assert (X := find_none _ _ F a Hin). cbn in X.
    rewrite H1, H2 in X. destruct P as [P1 P2].
    assert (dkey_eqb provides provides = true) by (apply K; auto).
    assert (dkey_eqb expects expects = true) by (apply K; auto). rewrite H, H0 in X. discriminate.
Qed.

(** The registered conversions: every pair of different document types is
    served except EBU-TT-D to Part 3; Part 3 and text both ways. *)
Theorem C35_registry : forall x expects provides,
  match set_data_adapters (registry x) None expects provides with
  | Some _ => True
  | None => False
  end <->
  teq expects provides = true \/
  In (provides, expects) [(TText, TDoc3); (TText, TDocD); (TDocD, TText); (TDoc3, TText); (TDoc3, TDocD)].
Proof.
  intros x expects provides.
  destruct expects as [| | | |n], provides as [| | | |m]; cbn; try (intuition congruence).
  unfold set_data_adapters. cbn [teq]. destruct (Nat.eqb n m) eqn:E; cbn; intuition congruence.
Qed.

(** Converting applies every adapter once, in order, each on what the one
    before gave; an exception ends it. *)
Theorem C35_convert : forall D (l1 l2 : list (adapter D)) d k,
  convert (l1 ++ l2) d k =
  match convert l1 d k with Some (d', k') => convert l2 d' k' | None => None end.
Proof.
  induction l1 as [|a l1 IH]; intros l2 d k; cbn [app convert]; auto.
  destruct (a_convert a d k) as [[d' k']|]; auto.
Qed.

Theorem C35_one : forall D (a : adapter D) d k, convert [a] d k = a_convert a d k.
Proof. intros. cbn. destruct (a_convert a d k) as [[]|]; auto. Qed.

(** A type-correct list of adapters that keep their word keeps its word; no
    adapter is registered with ANY, the far end may want ANY. *)
Lemma teq_concrete : forall t u, t <> TAny -> teq t u = true -> u = TAny \/ t = u.
Proof. intros [] [] N H; cbn in H; try discriminate; auto; try congruence. apply Nat.eqb_eq in H. subst; auto. Qed.

Theorem C35_typed : forall D (has : dtype -> D -> Prop) (l : list (adapter D)),
  (forall d, has TAny d) ->
  Forall (fun a => a_expects a <> TAny /\ a_provides a <> TAny /\
    forall d k d' k', has (a_expects a) d -> a_convert a d k = Some (d', k') -> has (a_provides a) d') l ->
  forall provides expects d k d' k', type_correct l provides expects -> provides <> TAny ->
  has provides d -> convert l d k = Some (d', k') -> has expects d'.
Proof.
  intros D has l Hany. induction l as [|a l IH]; intros Hf provides expects d k d' k' [Hl He] Hn Hd Hc.
  - cbn in Hc. inversion Hc; subst. rewrite teq_sym in He.
    destruct (teq_concrete _ _ Hn He) as [-> | <-]; auto.
  - inversion Hf as [|? ? (Ha1 & Ha2 & Ha) Hf']; subst. cbn [convert] in Hc.
    destruct (a_convert a d k) as [[d1 k1]|] eqn:E1; [|discriminate].
    destruct He as [He1 He2].
    assert (H1 : has (a_provides a) d1).
    { eapply Ha; eauto. destruct (teq_concrete _ _ Ha1 He1) as [->|E]; [congruence|]. rewrite E. auto. }
    destruct l as [|b l].
    + cbn in Hc. inversion Hc; subst. change (last_provides [a]) with (a_provides a) in He2.
      destruct (teq_concrete _ _ Ha2 He2) as [-> | <-]; auto.
    + cbn [linked] in Hl. destruct Hl as [Hl1 Hl2].
      apply (IH Hf' (a_provides a) expects d1 k1 d' k'); auto. split; auto. split.
      * rewrite teq_sym. auto.
      * assert (L : last_provides (a :: b :: l) = last_provides (b :: l)).
        { unfold last_provides. cbn [rev]. destruct (rev l ++ [b])%list eqn:R; [destruct (rev l); discriminate|]. auto. }
        rewrite <- L. auto.
Qed.

(** The five adapters keep their word; messages count as Part 3 documents. *)
Definition has_type (t : dtype) (d : payload) : Prop :=
  match t, d with
  | TAny, _ | TText, PText _ | TDoc3, PDoc _ _ _ | TDoc3, PMessage _ _ _ | TDocD, PDocD _ => True
  | _, _ => False
  end.

Theorem C35_registry_typed : forall x, Forall (fun a => a_expects a <> TAny /\ a_provides a <> TAny /\
    forall d k d' k', has_type (a_expects a) d -> a_convert a d k = Some (d', k') -> has_type (a_provides a) d')
  (registry x).
Proof.
  intros x. unfold registry. repeat (constructor; [split; [discriminate|split; [discriminate|]]; intros d k d' k' Hd Hc|]);
    [..|constructor]; cbn in Hd, Hc |- *; destruct d as [s|h av b|sid av b|[c|]]; cbn in Hd; try contradiction; cbn in Hc.
  - destruct (x_parse x s) as [[]|]; try discriminate;
      destruct (match kw_arg k "sequence_identifier" with VNone => false | VText t => _ | VInt _ => true end);
      inversion Hc; exact I.
  - destruct (x_parse_d x s); inversion Hc; exact I.
  - inversion Hc; exact I.
  - discriminate.
  - inversion Hc; exact I.
  - inversion Hc; exact I.
  - inversion Hc; exact I.
  - inversion Hc; exact I.
Qed.

(** ** Keyword arguments *)

Lemma kw_get_del : forall k n m, kw_get (kw_del k n) m = if n =? m then None else kw_get k m.
Proof.
  intros k n m. induction k as [|[p v] k IH]; cbn.
  - destruct (n =? m); auto.
  - destruct (String.eqb_spec n p) as [->|Hn]; cbn.
    + fold (kw_del k p). rewrite IH. destruct (String.eqb_spec p m) as [->|]; auto.
      destruct (String.eqb_spec m p); congruence.
    + fold (kw_del k n). rewrite IH. destruct (String.eqb_spec m p) as [->|]; auto.
      destruct (String.eqb_spec n p); congruence.
Qed.

Lemma kw_get_put : forall k n v m, kw_get (kw_put k n v) m = if m =? n then Some v else kw_get k m.
Proof.
  intros. unfold kw_put. cbn. rewrite kw_get_del. destruct (String.eqb_spec m n) as [->|]; auto.
  destruct (String.eqb_spec n m); congruence.
Qed.

(** Every adapter of the registry hands on every keyword argument, except that
    reading Part 3 text takes the availability time and the sequence identifier
    out and adds the text, and writing it sets the five of the document. *)
Definition touched : list string :=
  ["availability_time"; "sequence_identifier"; "sequence_number"; "time_base"; "clock_mode"; "raw_xml"].

Theorem C35_kwargs : forall x l d k d' k' n, (forall a, In a l -> In a (registry x)) ->
  convert l d k = Some (d', k') -> ~ In n touched -> kw_get k' n = kw_get k n.
Proof.
  intros x l. induction l as [|a l IH]; intros d k d' k' n Hr Hc Hn; cbn [convert] in Hc.
  - inversion Hc; auto.
  - destruct (a_convert a d k) as [[d1 k1]|] eqn:E; [|discriminate].
    rewrite (IH d1 k1 d' k' n); auto; [|intros; apply Hr; right; auto].
    assert (N : forall m, In m touched -> (n =? m) = false /\ (m =? n) = false).
    { intros m Hm. split; apply String.eqb_neq; congruence. }
    assert (Ha := Hr a (or_introl eq_refl)). cbn in Ha.
    destruct Ha as [<-|[<-|[<-|[<-|[<-|[]]]]]]; cbn [a_convert xml3 xmld dxml xml3' conv3d] in E.
    + unfold xml_to_doc3 in E. destruct d; try discriminate. destruct (x_parse x s) as [p|]; [|discriminate].
      destruct (match kw_arg k "sequence_identifier" with VNone => false | VText t => _ | VInt _ => true end); [discriminate|].
      inversion E; subst. rewrite kw_get_put, !kw_get_del.
      rewrite (proj1 (N "raw_xml" ltac:(cbn; tauto))), (proj2 (N "sequence_identifier" ltac:(cbn; tauto))),
        (proj2 (N "availability_time" ltac:(cbn; tauto))). auto.
    + unfold xml_to_docd in E. destruct d; try discriminate. destruct (x_parse_d x s); inversion E; auto.
    + unfold docd_to_xml in E. destruct d as [| | |[]]; inversion E; auto.
    + unfold doc3_to_xml in E. destruct d; try discriminate; inversion E; subst;
        rewrite !kw_get_put, ?(proj1 (N "sequence_identifier" ltac:(cbn; tauto))), ?(proj1 (N "availability_time" ltac:(cbn; tauto))),
          ?(proj1 (N "sequence_number" ltac:(cbn; tauto))), ?(proj1 (N "time_base" ltac:(cbn; tauto))),
          ?(proj1 (N "clock_mode" ltac:(cbn; tauto))); auto.
    + inversion E; auto.
Qed.

(** Reading text: the document gets the availability time, a sequence
    identifier that does not match raises, and the two are not handed on. *)
Theorem C35_reading : forall x s k h b, x_parse x s = Some (ParsedTT h b) ->
  (forall t, kw_get k "sequence_identifier" = Some (VText t) -> t <> h_sid h -> convert [xml3 x] (PText s) k = None) /\
  ((kw_get k "sequence_identifier" = None \/ kw_get k "sequence_identifier" = Some (VText (h_sid h))) ->
   exists k', convert [xml3 x] (PText s) k = Some (PDoc h (kw_arg k "availability_time") b, k') /\
     kw_get k' "availability_time" = None /\ kw_get k' "sequence_identifier" = None /\
     kw_get k' "raw_xml" = Some (VText s)).
Proof.
  intros x s k h b Hp. split.
  - intros t Ht Hn. cbn. unfold xml_to_doc3. rewrite Hp. unfold kw_arg. rewrite Ht.
    apply String.eqb_neq in Hn. rewrite Hn. auto.
  - intros Hs. eexists. split.
    + cbn. unfold xml_to_doc3. rewrite Hp.
      assert (E : (match kw_arg k "sequence_identifier" with VNone => false | VText t => negb (t =? h_sid h) | VInt _ => true end) = false).
      { unfold kw_arg. destruct Hs as [-> | ->]; auto. rewrite String.eqb_refl. auto. }
      rewrite E. reflexivity.
    + rewrite !kw_get_put, !kw_get_del. cbn. auto.
Qed.

(** Writing and reading back gives the document with its availability time,
    when parsing inverts serialising; a message comes back without it. *)
Theorem C35_there_and_back : forall x h av b k,
  x_parse x (x_doc x h b) = Some (ParsedTT h b) ->
  exists k', convert [xml3' x; xml3 x] (PDoc h av b) k = Some (PDoc h av b, k').
Proof.
  intros x h av b k Hp. cbn [convert a_convert xml3' xml3 doc3_to_xml].
  eexists. unfold xml_to_doc3. rewrite Hp. unfold kw_arg. rewrite !kw_get_put. cbn [String.eqb Ascii.eqb Bool.eqb].
  rewrite String.eqb_refl. cbn [negb]. reflexivity.
Qed.

Theorem C35_message_time_lost : forall x sid av b k,
  x_parse x (x_message x sid b) = Some (ParsedMessage sid b) ->
  exists k', convert [xml3' x; xml3 x] (PMessage sid av b) k = Some (PMessage sid VNone b, k').
Proof.
  intros x sid av b k Hp. cbn [convert a_convert xml3' xml3 doc3_to_xml].
  eexists. unfold xml_to_doc3. rewrite Hp. unfold kw_arg. rewrite !kw_get_put. cbn [String.eqb Ascii.eqb Bool.eqb].
  rewrite String.eqb_refl. cbn [negb]. reflexivity.
Qed.

(** The automatic chain from Part 3 to EBU-TT-D loses the content: whatever
    the document, writing the result raises. *)
Theorem C35_empty_ebuttd : forall x d k, exists a,
  set_data_adapters (registry x) None TDocD TDoc3 = Some [a] /\
  convert [a] d k = Some (PDocD None, k) /\ convert [a; dxml x] d k = None.
Proof. intros x d k. exists (conv3d x). repeat split. Qed.

(** Concrete. *)
Definition toy : xml_lib := mkXml
  (fun s => if s =? "<tt/>" then Some (ParsedTT (mkHeader "S" 1 (VText "media") VNone) "body") else None)
  (fun s => Some s) (fun h b => "<tt/>") (fun s b => "<m/>") (fun s => s).

Example C35_case :
  convert [xml3 toy; xml3' toy] (PText "<tt/>")
    [("availability_time", VInt 5); ("delay", VInt 7); ("sequence_identifier", VText "S")] =
  Some (PText "<tt/>",
    [("clock_mode", VNone); ("time_base", VText "media"); ("availability_time", VInt 5);
     ("sequence_number", VInt 1); ("sequence_identifier", VText "S"); ("raw_xml", VText "<tt/>"); ("delay", VInt 7)]) /\
  type_correct [xml3 toy; xml3' toy] TText TAny /\
  set_data_adapters (registry toy) (Some [xml3 toy; xml3' toy]) TAny TText = Some [xml3 toy; xml3' toy] /\
  set_data_adapters (registry toy) (Some [xml3 toy]) TText TText = None /\
  set_data_adapters (registry toy) None TDoc3 TDocD = None.
Proof. vm_compute. repeat split. Qed.

Print Assumptions C35_given.
Print Assumptions C35_accepts.
Print Assumptions C35_rejects.
Print Assumptions C35_middle_unchecked.
Print Assumptions C35_automatic.
Print Assumptions C35_no_adapter.
Print Assumptions C35_registry.
Print Assumptions C35_convert.
Print Assumptions C35_one.
Print Assumptions C35_typed.
Print Assumptions C35_registry_typed.
Print Assumptions C35_kwargs.
Print Assumptions C35_reading.
Print Assumptions C35_there_and_back.
Print Assumptions C35_message_time_lost.
Print Assumptions C35_empty_ebuttd.
