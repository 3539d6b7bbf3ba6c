(** Lemmas for C73. *)

From Coq Require Import List Arith String Bool Lia Permutation.
From Verif Require Import TimeModel AppModel AppSpec.
Import ListNotations.
Open Scope string_scope.

(** ** Names *)

Ltac names := repeat match goal with
  | |- context [(?a =? ?b)%string] => destruct (String.eqb_spec a b); subst; cbn
  | H : context [(?a =? ?b)%string] |- _ => destruct (String.eqb_spec a b); subst; cbn in H
  end.

Lemma clock_known t : get_clock t <> None <-> In t clock_names.
Proof. unfold get_clock, clock_names. names; cbn; intuition congruence. Qed.
Lemma carriage_known t : get_carriage t <> None <-> In t carriage_names.
Proof. unfold get_carriage, carriage_names. names; cbn; intuition congruence. Qed.
Lemma carriage_is t k : get_carriage t = Some k -> k = carriage_named t.
Proof. unfold get_carriage, carriage_named. names; intros H; try discriminate; injection H as <-; reflexivity. Qed.
Lemma backend_known t : get_backend t <> None <-> In t backend_names.
Proof. unfold get_backend, backend_names. names; cbn; intuition congruence. Qed.
Lemma adapter_known t : known_adapter t = true <-> In t adapter_names.
Proof. unfold known_adapter, adapter_names. names; cbn; intuition congruence. Qed.

Lemma node_known t : get_node t <> None <-> In t node_names.
Proof. unfold get_node, node_names. names; cbn; intuition congruence. Qed.

(** A kind by its name. *)
Definition name_of (k : kind) : string :=
  match k with
  | Consumer => "simple-consumer" | Producer => "simple-producer" | ReSequencer => "resequencer"
  | DeDuplicator => "deduplicator" | Encoder => "ebuttd-encoder" | BufferDelay => "buffer-delay"
  | RetimingDelay => "retiming-delay" | Distributor => "distributor" | Handover => "handover"
  end.
Lemma node_name t k : get_node t = Some k <-> t = name_of k.
Proof.
  split; [|intros ->; destruct k; reflexivity].
  unfold get_node. names; intros H; try discriminate; injection H as <-; reflexivity.
Qed.
Lemma clock_auto t k : get_clock t = Some k -> (k = Auto <-> t = "auto").
Proof. unfold get_clock. names; intros H; try discriminate; injection H as <-; split; congruence. Qed.

(** ** Reading *)

Lemma read_conf c n : read_node c = Some n -> r_conf n = c /\ n_type c = name_of (r_kind n) /\
  (has_clock (r_kind n) = true -> get_clock (n_clock c) = Some (r_clock n)) /\
  (has_in (r_kind n) = true -> r_in n = carriage_named (s_carriage (n_in c))) /\
  (has_out (r_kind n) = true -> r_out n = carriage_named (s_carriage (n_out c))).
Proof.
  unfold read_node. destruct (get_node (n_type c)) as [k|] eqn:K; [|discriminate]. apply node_name in K.
  unfold if_has. destruct (has_clock k) eqn:C, (has_in k) eqn:I, (has_out k) eqn:O;
    repeat match goal with |- context [get_clock ?t] => destruct (get_clock t) eqn:?
                         | |- context [get_carriage ?t] => destruct (get_carriage t) eqn:? end;
    intros H; try discriminate; injection H as <-; cbn; rewrite ?C, ?I, ?O; repeat split; auto; intros; try discriminate;
    try (apply carriage_is; assumption).
Qed.

Lemma read_node_known c : read_node c <> None <-> names_known c.
Proof.
  unfold read_node, names_known. rewrite <- node_known, <- clock_known, <- !carriage_known.
  destruct (get_node (n_type c)) as [k|] eqn:K.
  - apply node_name in K. rewrite K. clear K. unfold if_has, with_clock.
    assert (C : has_clock k = true <-> In (name_of k) ["simple-consumer"; "simple-producer"; "resequencer"; "ebuttd-encoder"])
      by (destruct k; cbn; split; intros H; try discriminate; auto; repeat (destruct H as [H|H]; [discriminate|]); destruct H).
    assert (I : has_in k = true <-> name_of k <> "simple-producer") by (destruct k; cbn; split; congruence).
    assert (O : has_out k = true <-> name_of k <> "simple-consumer") by (destruct k; cbn; split; congruence).
    rewrite <- C, <- I, <- O.
    destruct (has_clock k), (has_in k), (has_out k), (get_clock (n_clock c)), (get_carriage (s_carriage (n_in c))),
      (get_carriage (s_carriage (n_out c)));
      (split; [intros H; split; [discriminate|split; [|split]]; congruence
              |intros (_ & X & Y & Z); try discriminate; specialize (X eq_refl) || specialize (Y eq_refl) || specialize (Z eq_refl);
               try congruence; try (specialize (Y eq_refl)); try (specialize (Z eq_refl)); congruence]).
  - split; [congruence|]. intros (A & _). congruence.
Qed.

Lemma read_slots_known l : read_slots l <> None <-> forall n, In (Some n) l -> names_known n.
Proof.
  induction l as [|[c|] l IH]; cbn.
  - split; [intros _ n []|discriminate].
  - pose proof (read_node_known c) as R. destruct (read_node c), (read_slots l); split; intros H; try congruence.
    + intros m [Q|Q]; [injection Q as <-; apply R; discriminate|apply IH; [discriminate|exact Q]].
    + exfalso. apply (proj2 IH); [intros m M; apply H; auto|reflexivity].
    + exfalso. apply (proj2 R); [apply H; auto|reflexivity].
    + exfalso. apply (proj2 R); [apply H; auto|reflexivity].
  - destruct (read_slots l); split; intros H; try congruence.
    + intros m [Q|Q]; [discriminate|apply IH; [discriminate|exact Q]].
    + exfalso. apply (proj2 IH); [intros m M; apply H; auto|reflexivity].
Qed.

(** The slots that were read are those of the configuration. *)
Lemma read_slots_nth l r : read_slots l = Some r -> forall i,
  match nth_error l i with
  | None => nth_error r i = None
  | Some None => nth_error r i = Some None
  | Some (Some c) => exists n, nth_error r i = Some (Some n) /\ read_node c = Some n
  end.
Proof.
  revert r. induction l as [|[c|] l IH]; cbn; intros r H i.
  - injection H as <-. destruct i; reflexivity.
  - destruct (read_node c) as [n|] eqn:R; [|discriminate]. destruct (read_slots l) as [x|]; [|discriminate]. injection H as <-.
    destruct i as [|i]; cbn; [eauto|apply IH; reflexivity].
  - destruct (read_slots l) as [x|]; [|discriminate]. injection H as <-. destruct i as [|i]; cbn; [auto|apply IH; reflexivity].
Qed.

(** ** Making *)

(** What becomes of a node does not depend on what was made before. *)
Definition node_error (n : node) : option exn :=
  match component n with
  | Some e => Some e
  | None => match (if has_in (r_kind n) then adapt (n_in (r_conf n)) else None) with
            | Some e => Some e
            | None => if has_out (r_kind n) then adapt (n_out (r_conf n)) else None
            end
  end.
Definition node_all (i : nat) (n : node) : list comp :=
  (Comp i PNode :: (if has_clock (r_kind n) then [Comp i PClock] else []) ++
   (if has_in (r_kind n) then [Comp i (PIn (r_in n)); Comp i PInAdapters] else []) ++
   (if has_out (r_kind n) then [Comp i (POut (r_out n)); Comp i POutAdapters] else []))%list.
Definition node_start (i : nat) (n : node) : list comp :=
  ((if has_in (r_kind n) then [Comp i (PIn (r_in n))] else []) ++
   (if has_out (r_kind n) then match r_out n with Filesystem => [] | _ => [Comp i (POut (r_out n))] end else []) ++
   (if starts (r_kind n) then [Comp i PNode] else []))%list.

Lemma make_node_is i n p p1 e : make_node i n p = (p1, e) ->
  e = node_error n /\ p_backend p1 = p_backend p /\ p_app p1 = p_app p /\
  (e = None -> p_all p1 = (p_all p ++ node_all i n)%list /\ p_start p1 = (p_start p ++ node_start i n)%list).
Proof.
  unfold make_node, node_error, node_all, node_start.
  destruct (component n) as [x|]; [intros H; injection H as <- <-; destruct (has_clock _); repeat split; auto; discriminate|].
  unfold make_in, make_out.
  destruct (has_in (r_kind n)), (has_out (r_kind n)), (has_clock (r_kind n)), (starts (r_kind n)), (r_out n),
    (adapt (n_in (r_conf n))), (adapt (n_out (r_conf n))); intros H; injection H as <- <-; cbn;
    repeat split; intros; try discriminate; rewrite <- ?app_assoc; cbn; rewrite ?app_nil_r; reflexivity.
Qed.

Fixpoint slots_all (i : nat) (l : list (option node)) : list comp :=
  match l with [] => [] | None :: r => slots_all (S i) r | Some n :: r => (node_all i n ++ slots_all (S i) r)%list end.
Fixpoint slots_start (i : nat) (l : list (option node)) : list comp :=
  match l with [] => [] | None :: r => slots_start (S i) r | Some n :: r => (node_start i n ++ slots_start (S i) r)%list end.
Fixpoint first_error (l : list (option node)) : option exn :=
  match l with
  | [] => None
  | None :: r => first_error r
  | Some n :: r => match node_error n with Some e => Some e | None => first_error r end
  end.

Lemma make_nodes_is l : forall i p p1 e, make_nodes i l p = (p1, e) ->
  e = first_error l /\ p_backend p1 = p_backend p /\ p_app p1 = p_app p /\
  (e = None -> p_all p1 = (p_all p ++ slots_all i l)%list /\ p_start p1 = (p_start p ++ slots_start i l)%list).
Proof.
  induction l as [|[n|] l IH]; intros i p p1 e H; cbn [make_nodes first_error slots_all slots_start] in *.
  - injection H as <- <-. rewrite !app_nil_r. auto.
  - destruct (make_node i n p) as [p2 e2] eqn:M. apply make_node_is in M as (E & B & A & K). destruct e2 as [x|].
    + injection H as <- <-. rewrite <- E. repeat split; auto; discriminate.
    + apply IH in H as (E1 & B1 & A1 & K1). rewrite <- E. split; [auto|]. split; [congruence|]. split; [congruence|].
      intros N. destruct (K eq_refl) as [U V], (K1 N) as [W X]. rewrite W, X, U, V, <- !app_assoc. auto.
  - apply IH in H. exact H.
Qed.

Lemma create_is p c p1 e : create_app p c = (p1, e) ->
  match read_slots (c_slots c) with
  | None => p1 = p /\ e = Some ConfigurationError
  | Some l => match get_backend (c_backend c) with
              | None => p1 = p /\ e = Some AttributeError
              | Some b => match p_backend p with
                          | Some _ => p1 = p /\ e = Some ConfigurationError
                          | None => p_backend p1 = Some b /\ e = first_error l /\
                              (e = None -> p_all p1 = NodeList :: slots_all 0 l /\ p_start p1 = slots_start 0 l /\
                                 p_app p1 = Some (kinds l)) /\
                              (e <> None -> p_app p1 = p_app p)
                          end
              end
  end.
Proof.
  unfold create_app. destruct (read_slots (c_slots c)) as [l|]; [|intros H; injection H as <- <-; auto].
  destruct (get_backend (c_backend c)) as [b|]; [|intros H; injection H as <- <-; auto].
  destruct (p_backend p); [intros H; injection H as <- <-; auto|].
  destruct (make_nodes 0 l _) as [p2 e2] eqn:M. apply make_nodes_is in M as (E & B & A & K). cbn in *.
  destruct e2; intros H; injection H as <- <-; cbn.
  - split; [auto|]. split; [auto|]. split; [discriminate|]. auto.
  - split; [auto|]. split; [auto|]. split; [|congruence]. intros _. destruct (K eq_refl). auto.
Qed.

(** ** What can be made *)

Lemma adapt_ok s : adapt s = None <-> side_ok s.
Proof.
  unfold adapt, side_ok.
  assert (P : parse_adapters (s_adapters s) = None <-> forall a, In a (s_adapters s) -> exists t, a = Some t /\ In t adapter_names).
  { induction (s_adapters s) as [|[t|] l IH]; cbn.
    - split; [intros _ a []|auto].
    - destruct (known_adapter t) eqn:K.
      + rewrite IH. split.
        * intros H a [<-|I]; [exists t; split; [reflexivity|apply adapter_known; exact K]|auto].
        * intros H a I. apply H. auto.
      + split; [discriminate|]. intros H. destruct (H (Some t) (or_introl eq_refl)) as (t' & Q & I). injection Q as <-.
        apply adapter_known in I. congruence.
    - split; [discriminate|]. intros H. destruct (H None (or_introl eq_refl)) as (t & Q & _). discriminate. }
  rewrite <- P. destruct (parse_adapters (s_adapters s)); [split; [discriminate|intros [Q _]; discriminate]|].
  destruct (s_fits s); split; auto; [discriminate|intros [_ Q]; discriminate].
Qed.

Lemma component_ok n t : (has_clock (r_kind n) = true -> (r_clock n = Auto <-> t = "auto")) ->
  (component n = None <->
   (name_of (r_kind n) = "resequencer" -> t <> "auto" /\ forall x, n_when (r_conf n) = At x -> clock_td true x <> None) /\
   (name_of (r_kind n) = "ebuttd-encoder" ->
      (n_when (r_conf n) = Now -> t <> "auto") /\ forall x, n_when (r_conf n) = At x -> clock_td true x <> None)).
Proof.
  intros C. unfold component. destruct (r_kind n); cbn [has_clock name_of] in *;
    try (split; [intros _; split; intros Q; discriminate Q|reflexivity]); specialize (C eq_refl).
  - destruct (n_when (r_conf n)) as [|x]; [|destruct (clock_td true x) eqn:T].
    + destruct (r_clock n); (split; [intros H; try discriminate; (split; [|discriminate]; intros _; split; [|discriminate];
        intros Q; apply C in Q; discriminate)|intros [H _]; try reflexivity; destruct (H eq_refl) as [Q _]; tauto]).
    + destruct (r_clock n); (split; [intros H; try discriminate; (split; [|discriminate]; intros _; split;
        [intros Q; apply C in Q; discriminate|intros y Y; injection Y as <-; congruence])
        |intros [H _]; try reflexivity; destruct (H eq_refl) as [Q _]; tauto]).
    + split; [discriminate|]. intros [H _]. destruct (H eq_refl) as [_ Q]. destruct (Q x eq_refl T).
  - destruct (n_when (r_conf n)) as [|x]; [|destruct (clock_td true x) eqn:T].
    + destruct (r_clock n); (split; [intros H; try discriminate; (split; [discriminate|]; intros _; split; [|discriminate];
        intros _ Q; apply C in Q; discriminate)|intros [_ H]; try reflexivity; destruct (H eq_refl) as [Q _]; tauto]).
    + split; [|reflexivity]. intros _. split; [discriminate|]. intros _. split; [discriminate|]. intros y Y. injection Y as <-. congruence.
    + split; [discriminate|]. intros [_ H]. destruct (H eq_refl) as [_ Q]. destruct (Q x eq_refl T).
Qed.

Lemma if_adapt (b : bool) (P : Prop) s : (b = true <-> P) -> ((if b then adapt s else None) = None <-> (P -> side_ok s)).
Proof.
  intros H. rewrite <- H, <- adapt_ok. destruct b; split; intros Q; auto; discriminate.
Qed.

Lemma node_ok c n : read_node c = Some n -> (node_error n = None <-> can_be_made c).
Proof.
  intros R. apply read_conf in R as (C & T & K & _). unfold node_error, can_be_made.
  pose proof (component_ok n (n_clock c) (fun Q => clock_auto _ _ (K Q))) as Co. rewrite C in Co. rewrite T, C.
  assert (I : has_in (r_kind n) = true <-> name_of (r_kind n) <> "simple-producer") by (destruct (r_kind n); cbn; split; congruence).
  assert (O : has_out (r_kind n) = true <-> name_of (r_kind n) <> "simple-consumer") by (destruct (r_kind n); cbn; split; congruence).
  pose proof (if_adapt _ _ (n_in c) I) as Ai. pose proof (if_adapt _ _ (n_out c) O) as Ao.
  rewrite <- Ai, <- Ao. rewrite and_assoc in Co || idtac.
  destruct (component n); [split; [discriminate|]; intros (A & B & _); apply Co; auto|].
  destruct (if has_in (r_kind n) then _ else _); [split; [discriminate|]; intros (_ & _ & Q & _); discriminate|].
  split; [|intros (_ & _ & _ & Q); exact Q]. intros Q. destruct (proj1 Co eq_refl) as [X Y]. auto.
Qed.

Lemma first_error_none l r : read_slots l = Some r -> (first_error r = None <-> forall c, In (Some c) l -> can_be_made c).
Proof.
  revert r. induction l as [|[c|] l IH]; cbn; intros r H.
  - injection H as <-. cbn. split; [intros _ c []|auto].
  - destruct (read_node c) as [n|] eqn:R; [|discriminate]. destruct (read_slots l) as [x|]; [|discriminate]. injection H as <-. cbn.
    pose proof (node_ok _ _ R) as N. specialize (IH x eq_refl). destruct (node_error n).
    + split; [discriminate|]. intros Q. discriminate (proj2 N (Q c (or_introl eq_refl))).
    + rewrite IH. split.
      * intros Q d [D|D]; [injection D as <-; apply N; reflexivity|auto].
      * intros Q d D. apply Q. auto.
  - destruct (read_slots l) as [x|]; [|discriminate]. injection H as <-. cbn. rewrite (IH x eq_refl). split.
    + intros Q d [D|D]; [discriminate|auto].
    + intros Q d D. apply Q. auto.
Qed.

(** ** Starting *)

Lemma comp_eqb_eq a b : comp_eqb a b = true <-> a = b.
Proof.
  destruct a as [|i p], b as [|j q]; cbn; try (split; congruence).
  rewrite andb_true_iff, Nat.eqb_eq.
  assert (P : part_eqb p q = true <-> p = q) by (destruct p as [| |k| |k|], q as [| |k'| |k'|]; cbn; try (split; congruence); destruct k, k'; split; congruence).
  rewrite P. split; [intros [-> ->]; reflexivity|intros H; injection H; auto].
Qed.

Lemma in_start p x : existsb (comp_eqb x) (p_start p) = true <-> In x (p_start p).
Proof.
  rewrite existsb_exists. split.
  - intros (y & I & E). apply comp_eqb_eq in E. subst. exact I.
  - intros I. exists x. split; [exact I|apply comp_eqb_eq; reflexivity].
Qed.

Lemma node_all_slot i n x : In x (node_all i n) -> exists q, x = Comp i q.
Proof.
  unfold node_all. destruct (has_clock _), (has_in _), (has_out _); cbn; intros H;
    repeat (destruct H as [<-|H]; [eauto|]); destruct H.
Qed.
Lemma slots_all_slot l : forall i x, In x (slots_all i l) -> exists j q, x = Comp j q /\ (i <= j)%nat.
Proof.
  induction l as [|[n|] l IH]; cbn [slots_all slots_start In]; intros i x H; [destruct H| |].
  - apply in_app_or in H as [H|H].
    + apply node_all_slot in H as [q ->]. eauto.
    + apply IH in H as (j & q & -> & J). exists j, q. split; [reflexivity|lia].
  - apply IH in H as (j & q & -> & J). exists j, q. split; [reflexivity|lia].
Qed.

Lemma NoDup_app' {A} (l1 l2 : list A) : NoDup l1 -> NoDup l2 -> (forall x, In x l1 -> ~ In x l2) -> NoDup (l1 ++ l2).
Proof.
  induction 1 as [|x l1 N _ IH]; intros H2 D; cbn; [exact H2|].
  constructor; [|apply IH; auto; intros y Y; apply D; right; exact Y].
  intros Q. apply in_app_or in Q as [Q|Q]; [contradiction|]. apply (D x (or_introl eq_refl) Q).
Qed.

Lemma slots_all_nodup l : forall i, NoDup (slots_all i l).
Proof.
  induction l as [|[n|] l IH]; cbn [slots_all slots_start In]; intros i; [constructor| |apply IH].
  apply NoDup_app'; [| apply IH|].
  - unfold node_all. destruct (has_clock _), (has_in _), (has_out _); cbn;
      repeat (constructor; [cbn; intuition discriminate|]); constructor.
  - intros x A B. apply node_all_slot in A as [q ->]. apply slots_all_slot in B as (j & q' & Q & J). injection Q as <- _. lia.
Qed.

Lemma start_all l : forall i x, In x (slots_start i l) -> In x (slots_all i l).
Proof.
  induction l as [|[n|] l IH]; cbn [slots_all slots_start In]; intros i x H; [exact H| |auto].
  apply in_app_or in H as [H|H]; apply in_or_app; [left|auto].
  unfold node_start, node_all in *. destruct (has_in _), (has_out _), (starts _), (r_out n), (has_clock _); cbn in *; intuition.
Qed.

Lemma slots_start_nodup l : forall i, NoDup (slots_start i l).
Proof.
  induction l as [|[n|] l IH]; cbn [slots_all slots_start In]; intros i; [constructor| |apply IH].
  apply NoDup_app'; [|apply IH|].
  - unfold node_start. destruct (has_in _), (has_out _), (starts _), (r_out n); cbn;
      repeat (constructor; [cbn; intuition discriminate|]); constructor.
  - intros x A B. apply start_all, slots_all_slot in B as (j & q' & -> & J).
    assert (Q : In (Comp j q') (slots_all i [Some n])) by (apply start_all; cbn [slots_start]; rewrite app_nil_r; exact A).
    cbn [slots_all] in Q. rewrite app_nil_r in Q. apply node_all_slot in Q as [q Q]. injection Q as -> _. lia.
Qed.

Lemma started_perm p order l : p_all p = NodeList :: slots_all 0 l -> p_start p = slots_start 0 l ->
  Permutation order (p_all p) -> Permutation (started p order) (slots_start 0 l).
Proof.
  intros A S P. apply NoDup_Permutation.
  - unfold started. apply NoDup_filter. eapply Permutation_NoDup; [apply Permutation_sym; exact P|]. rewrite A.
    constructor; [|apply slots_all_nodup]. intros Q. apply slots_all_slot in Q as (j & q & Q & _). discriminate.
  - apply slots_start_nodup.
  - intros x. unfold started. rewrite filter_In, in_start, S. split; [tauto|]. intros H. split; [|exact H].
    eapply Permutation_in; [apply Permutation_sym; exact P|]. rewrite A. right. apply start_all, H.
Qed.

Lemma slots_start_in l : forall i x, In x (slots_start i l) <-> exists j n, nth_error l j = Some (Some n) /\ In x (node_start (i + j) n).
Proof.
  induction l as [|[n|] l IH]; cbn [slots_start nth_error]; intros i x.
  - split; [intros []|]. intros ([|j] & n & H & _); discriminate.
  - rewrite in_app_iff, IH. split.
    + intros [H|(j & m & H & I)]; [exists 0%nat, n; rewrite Nat.add_0_r; auto|].
      exists (S j), m. rewrite Nat.add_succ_r. auto.
    + intros ([|j] & m & H & I); cbn in H.
      * injection H as <-. rewrite Nat.add_0_r in I. auto.
      * right. exists j, m. rewrite Nat.add_succ_r in I. auto.
  - rewrite IH. split.
    + intros (j & m & H & I). exists (S j), m. rewrite Nat.add_succ_r. auto.
    + intros ([|j] & m & H & I); cbn in H; [discriminate|]. exists j, m. rewrite Nat.add_succ_r in I. auto.
Qed.

Lemma node_start_in c n i x : read_node c = Some n -> (In x (node_start i n) <-> one_starts i c x).
Proof.
  intros R. pose proof R as R0. apply read_conf in R as (C & T & K & I & O). unfold node_start, one_starts. rewrite T.
  assert (F : has_out (r_kind n) = true -> (r_out n = Filesystem <-> s_carriage (n_out c) = "filesystem")).
  { intros Q. rewrite (O Q). unfold read_node in R0. destruct (get_node (n_type c)) as [k|] eqn:G; [|discriminate].
    apply node_name in G. rewrite T in G.
    assert (k = r_kind n) by (destruct k, (r_kind n); cbn in G; congruence). subst k. rewrite Q in R0. unfold if_has in R0.
    destruct (if has_clock (r_kind n) then _ else _); [|discriminate]. destruct (if has_in (r_kind n) then _ else _); [|discriminate].
    destruct (get_carriage (s_carriage (n_out c))) eqn:Gc; [|discriminate]. clear R0.
    unfold get_carriage, carriage_named in *. names; try discriminate; split; congruence. }
  assert (Ih : has_in (r_kind n) = true <-> name_of (r_kind n) <> "simple-producer") by (destruct (r_kind n); cbn; split; congruence).
  assert (Oh : has_out (r_kind n) = true <-> name_of (r_kind n) <> "simple-consumer") by (destruct (r_kind n); cbn; split; congruence).
  assert (Sh : starts (r_kind n) = true <-> In (name_of (r_kind n)) ["simple-producer"; "resequencer"; "handover"])
    by (destruct (r_kind n); cbn; split; intros H; try discriminate; auto; repeat (destruct H as [H|H]; [discriminate|]); destruct H).
  rewrite <- Ih, <- Oh, <- Sh, !in_app_iff. clear Ih Oh Sh.
  assert (A : In x (if has_in (r_kind n) then [Comp i (PIn (r_in n))] else []) <->
              x = Comp i (PIn (carriage_named (s_carriage (n_in c)))) /\ has_in (r_kind n) = true).
  { destruct (has_in (r_kind n)); cbn; [rewrite <- (I eq_refl)|]; intuition congruence. }
  assert (B : In x (if has_out (r_kind n) then match r_out n with Filesystem => [] | _ => [Comp i (POut (r_out n))] end else []) <->
              x = Comp i (POut (carriage_named (s_carriage (n_out c)))) /\ has_out (r_kind n) = true /\ s_carriage (n_out c) <> "filesystem").
  { destruct (has_out (r_kind n)); cbn; [|intuition congruence]. specialize (F eq_refl). rewrite <- (O eq_refl), <- F.
    destruct (r_out n); cbn; intuition congruence. }
  assert (D : In x (if starts (r_kind n) then [Comp i PNode] else []) <-> x = Comp i PNode /\ starts (r_kind n) = true).
  { destruct (starts (r_kind n)); cbn; intuition congruence. }
  rewrite A, B, D. tauto.
Qed.

(** ** Several attempts *)

Lemma attempts_later l : forall p, p_backend p <> None -> Forall (fun e => e = Some ConfigurationError \/ e = Some AttributeError) (attempts p l)
  /\ fold_left (fun p c => fst (create_app p c)) l p = p.
Proof.
  induction l as [|c l IH]; intros p B; cbn; [auto|].
  destruct (create_app p c) as [p1 e] eqn:H. apply create_is in H.
  assert (Q : p1 = p /\ (e = Some ConfigurationError \/ e = Some AttributeError)).
  { destruct (read_slots (c_slots c)); [|destruct H; auto]. destruct (get_backend (c_backend c)); [|destruct H; auto].
    destruct (p_backend p); [destruct H; auto|congruence]. }
  destruct Q as [-> Q]. cbn. destruct (IH p B). auto.
Qed.
