(** Which classes of components can be defined, used, registered and connected. *)

From Coq Require Import List Arith String Bool Lia.
From Verif Require Import ClassModel ClassSpec ClassProofs ClassCheckProofs ClassRunProofs.
Import ListNotations.
Open Scope string_scope.

(** ** The classes of the toolkit

    node/interface.py, node/base.py, carriage/interface.py, carriage/base.py,
    adapters/base.py and the classes derived from them.  0 is text, 1 an
    EBUTT3Document, 2 an EBUTTDDocument.  Of the bodies only those names are
    given that somebody asks for. *)
Definition does (n : name) : name * value := (n, VItem (IThing 0)).
Definition owes (n : name) : name * value := (n, VAbstract).
Definition asks (n : name) : name * value := (n, VStatic TypesOnly).
Definition is_ (n : name) (t : nat) : name * value := (n, VItem (IType t)).
Definition any_ (n : name) : name * value := (n, VItem IAny).
Definition top := mkStatement [] true false.
Definition under (bases : list nat) := mkStatement bases false false.

Definition INode := 0.
Definition IProducerNode := 1.
Definition IConsumerNode := 2.
Definition ICarriageMechanism := 3.
Definition IProducerCarriage := 4.
Definition IConsumerCarriage := 5.
Definition IDocumentDataAdapter := 6.
Definition INodeCarriageAdapter := 7.
Definition AbstractNode := 8.
Definition AbstractProducerNode := 9.
Definition AbstractConsumerNode := 10.
Definition AbstractCombinedNode := 11.
Definition AbstractCarriage := 12.
Definition AbstractProducerCarriage := 13.
Definition AbstractConsumerCarriage := 14.
Definition AbstractCombinedCarriage := 15.
Definition SimpleProducer := 16.
Definition SimpleConsumer := 17.
Definition ReSequencer := 18.
Definition DeDuplicatorNode := 19.
Definition RetimingDelayNode := 20.
Definition BufferDelayNode := 21.
Definition DistributingNode := 22.
Definition EBUTTDEncoder := 23.
Definition SwitcherNode := 24.
Definition HandoverNode := 25.
Definition DirectCarriageImpl := 26.
Definition WebsocketProducerCarriage := 27.
Definition WebsocketConsumerCarriage := 28.
Definition FilesystemProducerImpl := 29.
Definition FilesystemConsumerImpl := 30.
Definition XMLtoEBUTT3Adapter := 31.
Definition XMLtoEBUTTDAdapter := 32.
Definition EBUTTDtoXMLAdapter := 33.
Definition EBUTT3toXMLAdapter := 34.
Definition EBUTT3toEBUTTDAdapter := 35.
Definition AbstractNodeCarriageAdapter := 36.
Definition ProducerNodeCarriageAdapter := 37.
Definition ConsumerNodeCarriageAdapter := 38.

Definition combined (expects provides : nat) : statement :=
  under [AbstractCombinedNode] [is_ "_expects" expects; is_ "_provides" provides; does "process_document"].
Definition adapter (expects provides : nat) : statement :=
  under [IDocumentDataAdapter] [is_ "_expects" expects; is_ "_provides" provides; does "convert_data"].

Definition toolkit : list statement := [
  top [owes "process_document"];
  under [INode] [asks "_provides"; owes "resume_producing"; does "provides"; owes "producer_carriage";
                 owes "register_producer_carriage"];
  under [INode] [asks "_expects"; does "expects"; owes "consumer_carriage"; owes "register_consumer_carriage"];
  top [];
  under [ICarriageMechanism] [asks "_expects"; does "expects"; owes "register_producer_node"; owes "producer_node";
                              owes "emit_data"; owes "resume_producing"];
  under [ICarriageMechanism] [asks "_provides"; does "provides"; owes "register_consumer_node"; owes "consumer_node";
                              owes "on_new_data"];
  mkStatement [] true true [asks "_expects"; asks "_provides"; does "get_registered_impl"; does "expects";
                            does "provides"; owes "convert_data"];
  top [owes "data_adapters"; owes "convert_data"];
  under [INode] [does "node_id"];
  under [IProducerNode; AbstractNode] [does "register_producer_carriage"; does "producer_carriage"; does "resume_producing"];
  under [IConsumerNode; AbstractNode] [does "is_document"; does "limit_sequence_to_one"; does "check_if_document_seen";
                                       does "register_consumer_carriage"; does "consumer_carriage"];
  under [AbstractConsumerNode; AbstractProducerNode] [];
  under [] [does "is_document"];
  under [IProducerCarriage; AbstractCarriage] [does "register_producer_node"; does "producer_node"; does "resume_producing"];
  under [IConsumerCarriage; AbstractCarriage] [does "register_consumer_node"; does "consumer_node"];
  under [AbstractConsumerCarriage; AbstractProducerCarriage] [];
  under [AbstractProducerNode] [is_ "_provides" 1; does "process_document"];
  under [AbstractConsumerNode] [is_ "_expects" 1; does "process_document"];
  under [AbstractProducerNode; SimpleConsumer] [is_ "_expects" 1; is_ "_provides" 1; does "process_document"];
  combined 1 1;
  combined 1 1;
  combined 0 0;
  combined 1 0;
  combined 1 2;
  under [AbstractCombinedNode] [];
  under [SwitcherNode] [is_ "_expects" 1; is_ "_provides" 1; does "process_document"];
  under [AbstractCombinedCarriage] [any_ "_expects"; any_ "_provides"; does "on_new_data"; does "resume_producing";
                                    does "emit_data"];
  under [AbstractProducerCarriage] [is_ "_expects" 0; does "resume_producing"; does "emit_data"];
  under [AbstractConsumerCarriage] [is_ "_provides" 0; does "on_new_data"];
  under [AbstractProducerCarriage] [is_ "_expects" 0; does "resume_producing"; does "emit_data"];
  under [AbstractConsumerCarriage] [is_ "_provides" 0; does "on_new_data"];
  adapter 0 1; adapter 0 2; adapter 2 0; adapter 1 0; adapter 1 2;
  under [INodeCarriageAdapter] [does "data_adapters"; owes "convert_data"];
  under [IProducerCarriage; IProducerNode; AbstractNodeCarriageAdapter]
    [any_ "_expects"; any_ "_provides"; does "register_producer_carriage"; does "register_producer_node"; does "expects";
     does "provides"; does "producer_carriage"; does "producer_node"; does "resume_producing"; does "emit_data";
     does "process_document"; does "convert_data"];
  under [IConsumerNode; IConsumerCarriage; AbstractNodeCarriageAdapter]
    [any_ "_expects"; any_ "_provides"; does "register_consumer_carriage"; does "register_consumer_node"; does "expects";
     does "provides"; does "consumer_carriage"; does "consumer_node"; does "on_new_data"; does "process_document";
     does "convert_data"] ].

Definition base : list event := map Define toolkit.
Definition after (l : list statement) : state := run (base ++ map Define l).
Definition usable (w : world) : list nat :=
  filter (fun i => match instantiate w i with None => true | Some _ => false end) (seq 0 (List.length w)).


(** ** C65: the order in which ancestors are asked

    Every class looks through itself and its ancestors, each once, itself
    first, its bases in the order given, and the ancestors of a base in the
    order in which the base looks through them. *)
Theorem C65_order : forall es i k, get (classes (run es)) i = Some k ->
  (exists r, k_mro k = i :: r /\ Sub (k_bases k) r) /\ NoDup (k_mro k) /\
  (forall j, In j (k_mro k) <-> Ancestor (classes (run es)) i j) /\
  (forall b, In b (k_bases k) -> exists kb, get (classes (run es)) b = Some kb /\ Sub (k_mro kb) (k_mro k)).
Proof.
  intros es i k G. destruct (run_wf es i k G) as (A1 & A2 & _ & A4 & _).
  split; [exact A1|]. split; [exact A2|]. split.
  - intro j. apply in_order_ancestor; auto. apply run_wf.
  - intros b Hb. destruct (A4 _ Hb) as (_ & X). exact X.
Qed.
Print Assumptions C65_order.

Example C65_case_order :
  option_map k_mro (get (classes (run base)) HandoverNode) =
  Some [HandoverNode; SwitcherNode; AbstractCombinedNode; AbstractConsumerNode; IConsumerNode;
        AbstractProducerNode; IProducerNode; AbstractNode; INode] /\
  option_map k_mro (get (classes (run base)) ReSequencer) =
  Some [ReSequencer; AbstractProducerNode; IProducerNode; SimpleConsumer; AbstractConsumerNode; IConsumerNode;
        AbstractNode; INode] /\
  (* an interface before the class that implements it cannot be put in order *)
  snd (define (run base) (under [INode; AbstractNode] [])) = Some EType.
Proof. repeat split; vm_compute; reflexivity. Qed.

(** ** Objects

    An object of a class can be made exactly when the class is not the root of
    a hierarchy (its body does not set __metaclass__) and no name it sees is
    marked abstract. *)
Theorem C65_instances : forall es i k,
  unmarked_plain (classes (run es)) -> get (classes (run es)) i = Some k ->
  (instantiate (classes (run es)) i = None <->
   k_interface k = false /\ forall n, attr (classes (run es)) i n <> Some VAbstract).
Proof.
  intros es i k U G. set (w := classes (run es)) in *. unfold instantiate. rewrite G.
  destruct (run_wf es i k G) as (A1 & _ & A3 & A4 & A5 & A6 & _ & A8 & A9 & _). fold w in A3, A4, A5, A6, A9.
  pose proof (run_collected es U i k) as C. fold w in C.
  destruct (k_meta k) eqn:M; cbn [andb].
  - destruct (k_interface k) eqn:I; cbn [orb].
    + split; [discriminate|]. intros (X & _). discriminate.
    + destruct (k_abstracts k) as [|a l] eqn:AB; cbn.
      * split; auto. intros _. split; auto. intros n X. specialize (C n G eq_refl X). contradiction.
      * split; [discriminate|]. intros (_ & X). exfalso. apply (X a). apply A9; cbn; auto.
  - split; auto. intros _. destruct (A8 eq_refl) as (I & _). split; auto.
    intros n X. unfold attr in X. rewrite G in X.
    destruct (seen_owner _ _ _ _ X) as (pre & j & post & E & O & _).
    assert (Hj : In j (k_mro k)) by (rewrite E; apply in_or_app; right; cbn; auto).
    (* the ancestors of a class without the metaclass are without it *)
    assert (PL : forall m j', j' <= m -> forall k', get w m = Some k' -> k_meta k' = false ->
                   In j' (k_mro k') -> forall kj, get w j' = Some kj -> k_meta kj = false).
    { induction m as [m IHm] using lt_wf_ind. intros j' Hle k' Ek Hm Hin kj Ej.
      destruct (Nat.eq_dec j' m) as [->|Hne]; [congruence|].
      destruct (run_wf es m k' Ek) as (_ & _ & _ & B4 & B5 & B6 & _).
      destruct (B5 _ Hin Hne) as (b & kb & Hb & Eb & Hjb).
      destruct (B4 _ Hb) as (Hlt & _).
      assert (NM : k_meta kb = false).
      { destruct (k_meta kb) eqn:Y; auto. rewrite (B6 _ _ Hb Eb Y) in Hm. discriminate. }
      destruct (run_wf es b kb Eb) as (_ & _ & B3 & _).
      exact (IHm b Hlt j' (proj1 (B3 _ Hjb)) kb Eb NM Hjb kj Ej). }
    destruct (A3 _ Hj) as (Hle & kj & Ej).
    exact (U j kj n Ej (PL i j Hle k G M Hj kj Ej) O).
Qed.
Print Assumptions C65_instances.

(** All classes of the toolkit can be defined, and objects be made of those
    that are meant for it (12 is the mixin AbstractCarriage, which has no
    metaclass). *)
Example C65_case_toolkit :
  List.length (classes (run base)) = 39 /\
  existsb (fun o => match o with None => true | Some _ => false end) (classes (run base)) = false /\
  usable (classes (run base)) =
    [AbstractCarriage; SimpleProducer; SimpleConsumer; ReSequencer; DeDuplicatorNode; RetimingDelayNode; BufferDelayNode;
     DistributingNode; EBUTTDEncoder; HandoverNode; DirectCarriageImpl; WebsocketProducerCarriage;
     WebsocketConsumerCarriage; FilesystemProducerImpl; FilesystemConsumerImpl; XMLtoEBUTT3Adapter;
     XMLtoEBUTTDAdapter; EBUTTDtoXMLAdapter; EBUTT3toXMLAdapter; EBUTT3toEBUTTDAdapter;
     ProducerNodeCarriageAdapter; ConsumerNodeCarriageAdapter] /\
  (* a root without abstract methods is no class for objects either *)
  option_map k_abstracts (get (classes (run base)) ICarriageMechanism) = Some [] /\
  instantiate (classes (run base)) ICarriageMechanism = Some EType /\
  instantiate (classes (run base)) SwitcherNode = Some EType.
Proof. repeat split; vm_compute; reflexivity. Qed.

Fixpoint plain_marks (w : world) : bool :=
  match w with
  | [] => false
  | Some k :: r => (negb (k_meta k) && negb (is_nil (marked (k_body k)))) || plain_marks r
  | None :: r => plain_marks r
  end.
Lemma plain_marks_ok w : plain_marks w = false -> unmarked_plain w.
Proof.
  intros H i k n G M O. unfold own in O. rewrite G in O. apply marked_in in O.
  unfold get in G. revert i G. induction w as [|[k'|] r IH]; intros [|i] G; cbn in *; try discriminate; eauto.
  - injection G as ->. rewrite M in H. cbn in H. destruct (marked (k_body k)); [contradiction|discriminate].
  - apply orb_false_iff in H as (_ & H). eauto.
Qed.
Example C65_case_unmarked : unmarked_plain (classes (run base)).
Proof. apply plain_marks_ok. vm_compute. reflexivity. Qed.

(** ** Refusals

    A class of which nothing is abstract any more is refused exactly when
    something is wrong with it: its own body asks for a member, a member that
    one of its direct bases asks for has not been given, the first direct base
    to ask for a member does not like the value, or it has to be registered and
    has no types, or clashes. *)
Theorem C65_refusal : forall es s w,
  drafted (run es) s w -> (forall n, attr w (List.length (classes (run es))) n <> Some VAbstract) ->
  (snd (define (run es) s) <> None <-> Wrong (run es) s w).
Proof.
  intros es s w (bs & order & HB & HT & HL & HM & ->) NA.
  pose proof (run_wf es) as W.
  assert (EA : abstracts (the_draft (run es) s order true) (List.length (classes (run es))) (s_body s) bs = []).
  { apply nil_iff. intros n Hn. apply (NA n).
    apply (abstracts_sound (run es) s bs order W HB HL (draft s order (List.length (classes (run es))) true)); auto. }
  destruct (define_concrete (run es) s bs order W HB HT HL HM EA) as (D1 & D2 & D3).
  pose proof (all_well_wrong (run es) s order) as AW.
  split.
  - intro X. apply D3. exact X.
  - intros X E. apply D1 in E. apply AW in E. exact (E X).
Qed.
Print Assumptions C65_refusal.

(** A class of which something is still abstract is accepted, whatever it lacks. *)
Theorem C65_unchecked : forall es s w n,
  drafted (run es) s w -> unmarked_plain (classes (run es)) ->
  attr w (List.length (classes (run es))) n = Some VAbstract ->
  snd (define (run es) s) = None /\ registry (fst (define (run es) s)) = registry (run es).
Proof.
  intros es s w n (bs & order & HB & HT & HL & HM & ->) U A.
  pose proof (run_wf es) as W.
  assert (X : In n (abstracts (the_draft (run es) s order true) (List.length (classes (run es))) (s_body s) bs)).
  { apply (abstracts_complete (run es) s bs order W HB HL (draft s order (List.length (classes (run es))) true)); auto.
    intros b kb Hb G M Ab. apply (run_collected es U b kb n); auto. }
  rewrite (define_abstract (run es) s bs order HB HT HL HM); [auto|].
  intro Y. unfold the_draft in X. rewrite Y in X. contradiction.
Qed.
Print Assumptions C65_unchecked.

Example C65_case_refusal :
  (* adapters without a type, with a type that is none, with a tuple of types *)
  map (fun s => snd (define (run base) s))
    [under [IDocumentDataAdapter] [is_ "_expects" 7; does "convert_data"];
     under [IDocumentDataAdapter] [is_ "_expects" 7; does "_provides"; does "convert_data"];
     under [IDocumentDataAdapter] [is_ "_expects" 7; ("_provides", VTuple [IType 7; IThing 3]); does "convert_data"];
     under [IDocumentDataAdapter] [is_ "_expects" 7; ("_provides", VTuple [IType 7; IType 8]); does "convert_data"];
     under [IDocumentDataAdapter] [is_ "_expects" 7];
     top [asks "_expects"];
     top [asks "_expects"; owes "work"]] =
  [Some EType; Some EType; Some EType; None; None; Some EType; None] /\
  (* ANY equals None: the validator that is there by default does not like it *)
  validate Defined (VItem IAny) = false /\ validate Defined (VItem (IType 1)) = true /\
  validate TypesOnly (VItem IAny) = true.
Proof. repeat split; vm_compute; reflexivity. Qed.

(** The values the validators accept: anything but None, NotImplemented and ANY
    (which equals both); and types, ANY and tuples of these. *)
Theorem C65_validators : forall v,
  (validate Defined v = false <-> In v [VNone; VNotImplemented; VItem IAny]) /\
  (validate TypesOnly v = true <->
     (exists i, v = VItem i /\ forall n, i <> IThing n) \/
     (exists l, v = VTuple l /\ forall n, ~ In (IThing n) l)).
Proof.
  intros v. split.
  - destruct v as [f| | | |[n| |n]|l]; cbn; split; intros H; try discriminate; auto; intuition discriminate.
  - split.
    + destruct v as [f| | | |[n| |n]|l]; cbn; intros H; try discriminate.
      * left. eexists. split; [reflexivity|discriminate].
      * left. eexists. split; [reflexivity|discriminate].
      * right. exists l. split; auto. intros n Hn. apply (proj1 (forallb_forall _ _) H) in Hn. discriminate.
    + intros [(i & -> & H)|(l & -> & H)]; cbn.
      * destruct i as [n| |n]; auto. destruct (H n). auto.
      * apply forallb_forall. intros [n| |n] Hn; auto. destruct (H n Hn).
Qed.
Print Assumptions C65_validators.

(** A class may also have no such member at all. *)
Example C65_case_no_member :
  let w := classes (fst (define (run base) (top [does "work"]))) in
  accessor w (List.length (classes (run base))) "_expects" = inr EAttribute.
Proof. vm_compute. reflexivity. Qed.

(** ** What is asked for and not given

    If nothing is abstract in a class and it yet sees a member nobody has given
    a value, this member is asked for by an ancestor that is neither the class
    itself nor one of its direct bases (or has not got the metaclass). *)
Theorem C65_leftover : forall es i k n f,
  get (classes (run es)) i = Some k -> k_meta k = true -> k_abstracts k = [] ->
  attr (classes (run es)) i n = Some (VStatic f) ->
  exists j kj, Ancestor (classes (run es)) i j /\ get (classes (run es)) j = Some kj /\
    own (classes (run es)) j n = Some (VStatic f) /\ j <> i /\
    (k_meta kj = true -> ~ In j (k_bases k)).
Proof.
  intros es i k n f G M AB A. pose proof (run_wf es) as W.
  destruct (W i k G) as (_ & _ & A3 & _ & _ & _ & _ & _ & _ & A10).
  pose proof A as X. unfold attr in X. rewrite G in X.
  destruct (seen_owner _ _ _ _ X) as (pre & j & post & E & O & _).
  assert (Hj : In j (k_mro k)) by (rewrite E; apply in_or_app; right; cbn; auto).
  destruct (A3 _ Hj) as (_ & kj & Ej). exists j, kj.
  split; [apply (in_order_ancestor _ W i j k G); exact Hj|]. split; auto. split; auto. split.
  - intros ->. assert (Q : Asks (classes (run es)) i n f) by (exists k; auto).
    destruct (A10 M AB n f i Q (or_introl eq_refl)). congruence.
  - intros Mj Hb. assert (Q : Asks (classes (run es)) j n f) by (exists kj; auto).
    destruct (A10 M AB n f j Q (or_intror Hb)) as (_ & v & Ev & Gv).
    rewrite Ev in A. injection A as ->. destruct Gv as (_ & Gv). apply (Gv f). reflexivity.
Qed.
Print Assumptions C65_leftover.

(** And this happens: a node derived from AbstractCombinedNode that has no
    types of data is accepted, objects of it can be made, and only asking for
    its types is an error.  (None of the nodes and carriages of the toolkit is
    checked for its types: they all derive from abstract classes that derive
    from the interfaces.) *)
Theorem C65_gap : exists es s i,
  snd (define (run es) s) = None /\ i = List.length (classes (run es)) /\
  let w := classes (fst (define (run es) s)) in
  instantiate w i = None /\ is_a w i IProducerNode = true /\ is_a w i IConsumerNode = true /\
  accessor w i "_expects" = inr EType /\ accessor w i "_provides" = inr EType.
Proof.
  exists base, (under [AbstractCombinedNode] [does "process_document"]), 39.
  repeat split; vm_compute; reflexivity.
Qed.
Print Assumptions C65_gap.

(** The members the direct bases of the classes of the toolkit ask for. *)
Definition checked (w : world) (i : nat) : list name :=
  match get w i with
  | Some k => flat_map (fun b => match get w b with Some kb => k_statics kb | None => [] end) (k_bases k)
  | None => []
  end.
Example C65_case_checked :
  filter (fun i => negb (is_nil (checked (classes (run base)) i))) (usable (classes (run base))) =
    [XMLtoEBUTT3Adapter; XMLtoEBUTTDAdapter; EBUTTDtoXMLAdapter; EBUTT3toXMLAdapter; EBUTT3toEBUTTDAdapter;
     ProducerNodeCarriageAdapter; ConsumerNodeCarriageAdapter] /\
  (* but they all have given what their ancestors ask for *)
  forallb (fun i => negb (is_static (attr (classes (run base)) i "_expects")) &&
                    negb (is_static (attr (classes (run base)) i "_provides")))%bool
    (usable (classes (run base))) = true.
Proof. split; vm_compute; reflexivity. Qed.

(** ** Connecting

    What the definition lets pass the connection does not: a node and a
    carriage are connected exactly when they are what they ought to be, both
    have types of data, and these are equal. *)
Theorem C65_connected : forall w node carriage inode icarriage of_node of_carriage,
  connect w node carriage inode icarriage of_node of_carriage = Connected <->
  is_a w node inode = true /\ is_a w carriage icarriage = true /\
  exists a b, attr w node of_node = Some a /\ attr w carriage of_carriage = Some b /\
    (forall f, a <> VStatic f) /\ (forall f, b <> VStatic f) /\ py_eq a b = true.
Proof.
  intros w node carriage inode icarriage of_node of_carriage. unfold connect, ask.
  destruct (is_a w carriage icarriage); cbn [negb].
  2: { split; [discriminate|]. intros (_ & X & _). discriminate. }
  destruct (accessor w node of_node) as [a|e] eqn:E1.
  2: { split; [discriminate|]. intros (_ & _ & a & b & A & _ & F & _). exfalso.
       destruct (accessor_bad _ _ _ _ E1 _ A) as (f & X). exact (F f X). }
  destruct (accessor w carriage of_carriage) as [b|e] eqn:E2.
  2: { split; [discriminate|]. intros (_ & _ & a' & b & _ & B & _ & F & _). exfalso.
       destruct (accessor_bad _ _ _ _ E2 _ B) as (f & X). exact (F f X). }
  apply accessor_ok in E1 as (A & FA). apply accessor_ok in E2 as (B & FB).
  rewrite (py_eq_sym b a). destruct (py_eq a b) eqn:P.
  - destruct (is_a w node inode); cbn [negb].
    + split; auto. intros _. split; auto. split; auto. exists a, b. auto 10.
    + split; [discriminate|]. intros (X & _). discriminate.
  - split; [discriminate|]. intros (_ & _ & a' & b' & A' & B' & _ & _ & P'). congruence.
Qed.
Print Assumptions C65_connected.

Example C65_case_connect :
  let st := after [under [AbstractCombinedNode] [does "process_document"];
                   under [AbstractProducerCarriage] [does "emit_data"]] in
  let w := classes st in
  connect_producer w SimpleProducer DirectCarriageImpl IProducerNode IProducerCarriage = Connected /\
  connect_consumer w HandoverNode DirectCarriageImpl IConsumerNode IConsumerCarriage = Connected /\
  connect_producer w DistributingNode WebsocketProducerCarriage IProducerNode IProducerCarriage = Connected /\
  connect_producer w SimpleProducer WebsocketProducerCarriage IProducerNode IProducerCarriage = BadData /\
  connect_producer w SimpleProducer WebsocketConsumerCarriage IProducerNode IProducerCarriage = BadComponent /\
  connect_consumer w BufferDelayNode FilesystemConsumerImpl IConsumerNode IConsumerCarriage = Connected /\
  connect_producer w 39 DirectCarriageImpl IProducerNode IProducerCarriage = Raised EType /\
  connect_producer w SimpleProducer 40 IProducerNode IProducerCarriage = Raised EType.
Proof. repeat split; vm_compute; reflexivity. Qed.

(** ** The registry of adapters

    If every class that has registered has been accepted too, and none of them
    provides ANY, then the adapter found for a pair of types is the first class
    with these types of which nothing is abstract and that derives directly
    from IDocumentDataAdapter. *)
Theorem C65_registry : forall es ex pr i, calm es ->
  (get_registered_impl (registry (run es)) ex pr = Some i <->
   Adapter (classes (run es)) i ex pr /\ forall j, j < i -> ~ Adapter (classes (run es)) j ex pr).
Proof.
  intros es ex pr i C. destruct (run_registry_ok es C) as (R1 & R2 & R3).
  rewrite registered_iff by (intros; eapply R3; eauto). split.
  - intro H. destruct (R1 _ _ _ H) as (A & _). split; auto. intros j L B.
    destruct (R2 _ _ _ B) as (j' & L' & H'). pose proof (R3 _ _ _ _ H H'). lia.
  - intros (A & F). destruct (R2 _ _ _ A) as (j & L & H). destruct (R1 _ _ _ H) as (B & _).
    destruct (Nat.eq_dec j i) as [->|Hne]; auto. exfalso. apply (F j); auto. lia.
Qed.
Print Assumptions C65_registry.

(** Only direct heirs register: a class none of whose bases has the registering
    method, such as a class derived from an adapter, is not in the registry. *)
Theorem C65_unregistered : forall es s,
  (forall b, In b (s_bases s) -> ~ hooked (classes (run es)) b) ->
  registry (fst (define (run es) s)) = registry (run es).
Proof.
  intros es s NH. pose proof (run_wf es) as W.
  destruct (outcome (run es) s) as [e E _|bs order HB HT HL HM HN E|bs order HB HT HL HM _].
  - rewrite E. reflexivity.
  - rewrite E. reflexivity.
  - assert (NA : ~ any_hook (the_draft (run es) s order true) (s_bases s)).
    { intros (b & Hb & Hh). apply (NH b Hb). destruct (base_known _ _ _ HB _ Hb) as (kb & E & _ & L).
      unfold hooked, the_draft in *. rewrite get_app in Hh by auto. exact Hh. }
    destruct (define_meta_state (run es) s bs order W HB HT HL HM)
      as [(_ & abs & sts & reg & E & _ & _ & N1 & N2)|(_ & E & _ & _ & [R|(X & _)])]; auto.
    + rewrite E. cbn [registry]. destruct abs as [|a abs].
      * destruct (N2 eq_refl) as [(X & _)|(_ & X)]; [contradiction|exact X].
      * apply N1. congruence.
    + contradiction.
Qed.
Print Assumptions C65_unregistered.

(** What is needed for [calm]: a class that derives from nothing but a class
    that registers its heirs and asks them for no more than the two types, that
    asks for nothing itself, says NotImplemented nowhere and provides no ANY,
    is in the registry only if it is accepted. *)
Theorem C65_orderly : forall es s b kb,
  s_bases s = [b] -> get (classes (run es)) b = Some kb ->
  (forall n, In n (k_statics kb) -> n = "_expects" \/ n = "_provides") ->
  (forall n f, body_get (s_body s) n <> Some (VStatic f)) ->
  (forall w n, drafted (run es) s w -> attr w (List.length (classes (run es))) n <> Some VNotImplemented) ->
  (forall w v, drafted (run es) s w -> attr w (List.length (classes (run es))) "_provides" = Some v -> any_free v = true) ->
  calm_step (run es) s.
Proof.
  intros es s b kb SB G ST NS NN NP. pose proof (run_wf es) as W. intro CH.
  destruct (outcome (run es) s) as [e E _|bs order HB HT HL HM HN E|bs order HB HT HL HM DR].
  - rewrite E in CH. cbn in CH. congruence.
  - rewrite E in CH. cbn in CH. congruence.
  - assert (NEW : forall ex pr j, In (ex, pr, j) (fst (register (registry (run es)) (the_draft (run es) s order true) (List.length (classes (run es))))) ->
              In (ex, pr, j) (registry (run es)) \/ any_free pr = true).
    { intros ex pr j H. pose proof (register_spec (registry (run es)) (the_draft (run es) s order true) (List.length (classes (run es)))) as RS.
      inversion RS as [n e Hn Hv X1 X2|ex' pr' E1 E2 F1 F2 CL X1 X2|ex' pr' j' E1 E2 F1 F2 Hin X1 X2|ex' pr' E1 E2 F1 F2 NO X1 X2];
        rewrite <- X1 in H; auto.
      apply in_app_or in H as [H|[H|[]]]; auto. injection H as <- <- <-. right. eapply NP; eauto. }
    destruct (define_meta_state (run es) s bs order W HB HT HL HM)
      as [(SN & abs & sts & reg & E & _ & _ & N1 & N2)|(SN & E & EA & _ & RG)].
    + split; auto. intros ex pr j H. rewrite E in H, CH. cbn [registry] in H, CH.
      destruct abs as [|a abs]; [|exfalso; apply CH, N1; congruence].
      destruct (N2 eq_refl) as [(_ & X)|(_ & X)]; [|congruence].
      apply NEW with (j := j). rewrite X. exact H.
    + exfalso. destruct RG as [RG|(AH & RG)]; [congruence|].
      (* it has registered, so its types are there, and it must have been accepted *)
      pose proof (register_spec (registry (run es)) (the_draft (run es) s order true) (List.length (classes (run es)))) as RS.
      rewrite <- RG in RS.
      set (i := List.length (classes (run es))) in *. set (w := the_draft (run es) s order true) in *.
      assert (TY : forall n, n = "_expects" \/ n = "_provides" -> exists v, attr w i n = Some v /\ given v).
      { inversion RS as [n e Hn Hv X1 X2|ex' pr' E1 E2 F1 F2 CL X1 X2|ex' pr' j' E1 E2 F1 F2 Hin X1 X2|ex' pr' E1 E2 F1 F2 NO X1 X2];
          try congruence.
        intros n [-> | ->]; [exists ex'|exists pr']; split; auto; split; auto; intros ->; eapply NN; eauto. }
      assert (RN : snd (register (registry (run es)) w i) = None).
      { inversion RS; congruence. }
      (* the one base has been looked at without complaint *)
      assert (GB : get w b = Some kb).
      { unfold w, the_draft. rewrite get_app; auto. eapply get_lt; eauto. }
      apply SN. unfold define. rewrite HB, HT. cbn [negb]. rewrite HL, HM. fold i.
      change (classes (run es) ++ [Some (draft s order i true)])%list with w.
      rewrite EA. rewrite SB. cbn [check_bases]. rewrite GB.
      assert (MB : k_meta kb = true /\ k_hook kb = true).
      { destruct AH as (b' & Hb' & (k' & G' & M' & H')). rewrite SB in Hb'. destruct Hb' as [<-|[]].
        fold w in G'. rewrite GB in G'. injection G' as <-. auto. }
      destruct MB as (-> & ->).
      destruct (W _ _ G) as ((r & R & _) & _ & _ & _ & _ & _ & A7 & _).
      assert (ASK : forall m, In m (k_statics kb) -> exists f, attr w b m = Some (VStatic f)).
      { intros m Hm. assert (KM : k_meta kb = true).
        { destruct AH as (b' & Hb' & (k' & G' & M' & H')). rewrite SB in Hb'. destruct Hb' as [<-|[]].
          fold w in G'. rewrite GB in G'. injection G' as <-. auto. }
        rewrite (A7 KM) in Hm. apply statics_in in Hm as (f & Hm). exists f.
        unfold attr. rewrite GB, R. cbn. unfold own. rewrite GB, Hm. reflexivity. }
      assert (SEE : forall m, In m (k_statics kb) -> exists v, attr w i m = Some v).
      { intros m Hm. destruct (TY m (ST m Hm)) as (v & Ev & _). eauto. }
      pose proof (check_members_spec w i b (k_statics kb) [] [] ASK SEE ltac:(intros m [])) as CM.
      assert (SD : statics (s_body s) = []).
      { apply nil_iff. intros n Hn. apply statics_in in Hn as (f & Hn). eapply NS; eauto. }
      destruct (check_members w i b (k_statics kb) [] []) as [[vs miss]|] eqn:CK.
      * destruct (register (registry (run es)) w i) as [rg [e|]] eqn:RE; [discriminate|].
        destruct CM as (_ & I2 & _).
        assert (ME : miss = []).
        { apply nil_iff. intros m Hm. apply I2 in Hm as [[]|(Hm & v & Ev & NG)].
          destruct (TY m (ST m Hm)) as (v' & Ev' & Gv'). congruence. }
        subst miss. cbn [check_bases]. rewrite SD. reflexivity.
      * exfalso. apply CH. unfold define. rewrite HB, HT. cbn [negb]. rewrite HL, HM. fold i.
        change (classes (run es) ++ [Some (draft s order i true)])%list with w.
        rewrite EA, SB. cbn [check_bases]. rewrite GB.
        destruct AH as (b' & Hb' & (k' & G' & M' & H')). rewrite SB in Hb'. destruct Hb' as [<-|[]].
        fold w in G'. rewrite GB in G'. injection G' as <-. rewrite M', CK. reflexivity.
Qed.
Print Assumptions C65_orderly.

(** [calm] can be decided by running the program. *)
Definition entry_same (x y : value * value * nat) : bool :=
  (same (fst (fst x)) (fst (fst y)) && same (snd (fst x)) (snd (fst y)) && Nat.eqb (snd x) (snd y))%bool.
Fixpoint reg_same (l m : list (value * value * nat)) : bool :=
  match l, m with
  | [], [] => true
  | x :: l, y :: m => (entry_same x y && reg_same l m)%bool
  | _, _ => false
  end.
Definition calm_stepb (st : state) (s : statement) : bool :=
  let d := define st s in
  (reg_same (registry (fst d)) (registry st) ||
   (match snd d with None => true | Some _ => false end &&
    forallb (fun x => existsb (entry_same x) (registry st) || any_free (snd (fst x))) (registry (fst d))))%bool.
Fixpoint calmb (st : state) (es : list event) : bool :=
  match es with
  | [] => true
  | e :: r => ((match e with Define s => calm_stepb st s | Collect => true end) && calmb (step st e) r)%bool
  end.

Lemma entry_same_eq x y : entry_same x y = true -> x = y.
Proof.
  destruct x as [[a b] c], y as [[a' b'] c']. unfold entry_same. cbn. intro H.
  apply andb_true_iff in H as (H & H3). apply andb_true_iff in H as (H1 & H2).
  apply same_eq in H1. apply same_eq in H2. apply Nat.eqb_eq in H3. congruence.
Qed.
Lemma reg_same_eq l : forall m, reg_same l m = true -> l = m.
Proof.
  induction l as [|x l IH]; intros [|y m]; cbn; intro H; try discriminate; auto.
  apply andb_true_iff in H as (H1 & H2). apply entry_same_eq in H1. apply IH in H2. congruence.
Qed.
Lemma calm_stepb_ok st s : calm_stepb st s = true -> calm_step st s.
Proof.
  unfold calm_stepb, calm_step. intros H CH. apply orb_true_iff in H as [H|H].
  - apply reg_same_eq in H. contradiction.
  - apply andb_true_iff in H as (H1 & H2). split; [destruct (snd (define st s)); congruence|].
    intros ex pr i Hin. rewrite forallb_forall in H2. specialize (H2 _ Hin). apply orb_true_iff in H2 as [H2|H2]; auto.
    left. apply existsb_exists in H2 as (y & Hy & E). apply entry_same_eq in E. congruence.
Qed.
Lemma calmb_ok es : calmb start es = true -> calm es.
Proof.
  assert (G : forall es0 es1, calmb (run es0) es1 = true -> forall pre s post, es1 = (pre ++ Define s :: post)%list ->
            calm_step (run (es0 ++ pre)) s).
  { intros es0 es1 H pre. revert es0 es1 H. induction pre as [|e pre IH]; intros es0 es1 H s post ->; cbn in H.
    - rewrite app_nil_r. apply andb_true_iff in H as (H & _). apply calm_stepb_ok; auto.
    - apply andb_true_iff in H as (_ & H).
      replace (es0 ++ e :: pre)%list with ((es0 ++ [e]) ++ pre)%list by (rewrite <- app_assoc; reflexivity).
      eapply IH; [|reflexivity]. rewrite run_snoc. exact H. }
  intros H pre s post E. exact (G [] es H pre s post E).
Qed.

(** The classes of the toolkit are calm, and so they are with a further
    adapter, a second one for the same types, and a class derived from an
    adapter. *)
Example C65_case_registry :
  let more := [adapter 7 8; adapter 7 8; under [XMLtoEBUTT3Adapter] [is_ "_expects" 8; is_ "_provides" 7];
               under [IDocumentDataAdapter] [is_ "_expects" 8; is_ "_provides" 9]] in
  calm (base ++ map Define more) /\
  let reg := registry (after more) in
  get_registered_impl reg (VItem (IType 0)) (VItem (IType 1)) = Some XMLtoEBUTT3Adapter /\
  get_registered_impl reg (VItem (IType 0)) (VItem (IType 2)) = Some XMLtoEBUTTDAdapter /\
  get_registered_impl reg (VItem (IType 2)) (VItem (IType 0)) = Some EBUTTDtoXMLAdapter /\
  get_registered_impl reg (VItem (IType 1)) (VItem (IType 0)) = Some EBUTT3toXMLAdapter /\
  get_registered_impl reg (VItem (IType 1)) (VItem (IType 2)) = Some EBUTT3toEBUTTDAdapter /\
  get_registered_impl reg (VItem (IType 2)) (VItem (IType 1)) = None /\
  get_registered_impl reg (VItem (IType 7)) (VItem (IType 8)) = Some 39 /\
  (* accepted, usable, and not registered *)
  instantiate (classes (after more)) 41 = None /\
  get_registered_impl reg (VItem (IType 8)) (VItem (IType 7)) = None /\
  (* abstract, and not registered *)
  get_registered_impl reg (VItem (IType 8)) (VItem (IType 9)) = None.
Proof. cbv zeta. split; [apply calmb_ok; vm_compute; reflexivity|]. repeat split; vm_compute; reflexivity. Qed.

Example C65_case_orderly : calm_step (run base) (adapter 7 8).
Proof.
  apply (C65_orderly base (adapter 7 8) IDocumentDataAdapter
           (mkClass [asks "_expects"; asks "_provides"; does "get_registered_impl"; does "expects"; does "provides";
                     owes "convert_data"] [] [IDocumentDataAdapter] true ["convert_data"] ["_expects"; "_provides"] true true)).
  - reflexivity.
  - vm_compute. reflexivity.
  - cbn. intros n [<-|[<-|[]]]; auto.
  - cbn. intros n f. repeat (destruct (_ =? _)%string; [discriminate|]). discriminate.
  - intros w n (bs & order & HB & HT & HL & HM & ->). vm_compute in HB. injection HB as <-.
    vm_compute in HL. injection HL as <-. vm_compute classes. unfold attr.
    match goal with |- context [get ?w ?i] => let x := eval vm_compute in (get w i) in change (get w i) with x end.
    cbn [k_mro seen]. unfold own.
    repeat match goal with |- context [get ?w ?i] => let x := eval vm_compute in (get w i) in change (get w i) with x end.
    cbn [k_body body_get]. unfold asks, does, owes, is_. repeat (destruct (_ =? _)%string; [discriminate|]). discriminate.
  - intros w v (bs & order & HB & HT & HL & HM & ->). vm_compute in HB. injection HB as <-.
    vm_compute in HL. injection HL as <-. intro H. vm_compute in H. injection H as <-. reflexivity.
Qed.

(** ** What [calm] leaves out

    A class registers before all its bases have been looked at.  So a class
    that is refused can be in the registry: it is found for its types, keeps the
    class that comes after it from being registered, and when it is gone there
    is no adapter for these types any more, though there is a class. *)
Definition extra : statement := top [("_colour", VStatic Defined); owes "work"].
Definition ghost : statement :=
  under [IDocumentDataAdapter; 39] [is_ "_expects" 7; is_ "_provides" 8; does "convert_data"; does "work"].
Theorem C65_ghost : exists es s ex pr,
  (* the statement is refused and the class found *)
  snd (define (run es) s) = Some EType /\
  get_registered_impl (registry (run (es ++ [Define s]))) ex pr = Some (List.length (classes (run es))) /\
  get (classes (run (es ++ [Define s]))) (List.length (classes (run es))) = None /\
  (* the next one is accepted and not found *)
  exists s' i, snd (define (run (es ++ [Define s])) s') = None /\
    Adapter (classes (run (es ++ [Define s; Define s'; Collect]))) i ex pr /\
    get_registered_impl (registry (run (es ++ [Define s; Define s'; Collect]))) ex pr = None.
Proof.
  exists (base ++ [Define extra])%list, ghost, (VItem (IType 7)), (VItem (IType 8)).
  split; [vm_compute; reflexivity|]. split; [vm_compute; reflexivity|]. split; [vm_compute; reflexivity|].
  exists (adapter 7 8), 41. split; [vm_compute; reflexivity|]. split; [|vm_compute; reflexivity].
  eexists; exists IDocumentDataAdapter.
  split; [vm_compute; reflexivity|]. split; [reflexivity|]. split; [reflexivity|].
  split; [cbn; auto|]. split; [|split; vm_compute; reflexivity].
  eexists. split; [vm_compute; reflexivity|]. split; reflexivity.
Qed.
Print Assumptions C65_ghost.

(** Likewise when the member is there and the second base does not like it. *)
Example C65_case_ghost :
  let s := under [IDocumentDataAdapter; 39]
             [is_ "_expects" 7; is_ "_provides" 8; does "convert_data"; does "work"; ("_colour", VNone)] in
  let '(st, e) := define (run (base ++ [Define extra])) s in
  e = Some EType /\ get_registered_impl (registry st) (VItem (IType 7)) (VItem (IType 8)) = Some 40.
Proof. vm_compute. auto. Qed.

(** An adapter that provides ANY is accepted, but any further adapter for what
    it expects is a KeyError, and it is found for ANY only. *)
Theorem C65_any : exists es s,
  snd (define (run es) s) = None /\
  let st := fst (define (run es) s) in
  (forall pr, get_registered_impl (registry st) (VItem (IType 7)) (VItem (IType pr)) = None) /\
  get_registered_impl (registry st) (VItem (IType 7)) (VItem IAny) = Some (List.length (classes (run es))) /\
  snd (define st (adapter 7 8)) = Some EKey /\
  (* and the other way round *)
  snd (define (run (es ++ [Define (adapter 7 8)])) s) = Some EKey.
Proof.
  exists base, (under [IDocumentDataAdapter] [is_ "_expects" 7; any_ "_provides"; does "convert_data"]).
  split; [vm_compute; reflexivity|]. cbv zeta. split; [|repeat split; vm_compute; reflexivity].
  intro pr. vm_compute. reflexivity.
Qed.
Print Assumptions C65_any.
