(** Property C41: node lookup by name. *)

From Coq Require Import List ZArith String Ascii Bool Lia.
From Verif Require Import Digits TimeModel TimeProofs ConfigModel.
Import ListNotations.
Open Scope Z_scope.

(** The name of slot [k], counted from one. *)
Definition slot_name (k : nat) : string := ("node" ++ show (Z.of_nat k))%string.

Lemma strip_digits : forall fuel s, all_digits s = true -> strip_node fuel s = s.
Proof.
  induction fuel as [|f IH]; intros s H; cbn [strip_node]; auto.
  destruct s as [|c s]; auto. cbn [all_digits] in H. apply andb_true_iff in H as [Hc H].
  assert (E : String.prefix "node" (String c s) = false).
  { change (String.prefix "node" (String c s)) with (if ascii_dec "n" c then String.prefix "ode" s else false).
    destruct (ascii_dec "n" c) as [<-|]; [cbv in Hc; discriminate|auto]. }
  rewrite E, IH; auto.
Qed.

Lemma substring_all : forall s, substring 0 (String.length s) s = s.
Proof. induction s; cbn; congruence. Qed.

Lemma strip_node_head : forall f s, strip_node (S f) ("node" ++ s) = strip_node f s.
Proof.
  intros f s. cbn [strip_node append String.length].
  change (String.prefix "node" (String "n" (String "o" (String "d" (String "e" s)))))
    with (String.prefix "" s).
  replace (String.prefix "" s) with true by (destruct s; reflexivity).
  change (substring 4 (S (S (S (S (String.length s)))) - 4) (String "n" (String "o" (String "d" (String "e" s)))))
    with (substring 0 (String.length s - 0) s).
  rewrite Nat.sub_0_r, substring_all. auto.
Qed.

Lemma replace_slot_name : forall k, replace_node (slot_name k) = show_nat (Z.of_nat k).
Proof.
  intros k. unfold slot_name, replace_node, show.
  destruct (Z.ltb_spec (Z.of_nat k) 0) as [H|H]; [lia|].
  rewrite strip_node_head. apply strip_digits, show_nat_digits.
Qed.

Lemma get_slot_name : forall A (nodes : list A) k, get_node nodes (slot_name k) =
  match py_index nodes (Z.of_nat k - 1) with Some x => LFound x | None => LIndexError end.
Proof.
  intros A nodes k. unfold get_node. rewrite replace_slot_name, int_of_digits by apply show_nat_digits.
  rewrite read_show_nat by lia. auto.
Qed.

Lemma py_index_nat : forall A (l : list A) k, py_index l (Z.of_nat k) = nth_error l k.
Proof.
  intros. unfold py_index. destruct (Z.leb_spec 0 (Z.of_nat k)); [|lia]. rewrite Nat2Z.id. auto.
Qed.

Lemma configure_prefix : forall A (slots : list (option A)) k,
  (forall j, (j < k)%nat -> exists x, nth_error slots j = Some (Some x)) ->
  forall j x, (j < k)%nat -> nth_error slots j = Some (Some x) -> nth_error (configure slots) j = Some x.
Proof.
  induction slots as [|o slots IH]; intros k Hall j x Hj Hx; [destruct j; discriminate|].
  destruct k as [|k]; [lia|]. destruct (Hall 0%nat ltac:(lia)) as [y Hy]. cbn in Hy. inversion Hy; subst o.
  cbn [configure]. destruct j as [|j]; cbn in *; [congruence|].
  apply (IH k); auto; [|lia]. intros i Hi. apply (Hall (S i)). lia.
Qed.

(** Slots 1..k all configured: the name finds the node of slot k. *)
Theorem C41_found : forall A (slots : list (option A)) k x, (0 < k)%nat ->
  (forall j, (j < k)%nat -> exists y, nth_error slots j = Some (Some y)) ->
  nth_error slots (k - 1) = Some (Some x) ->
  get_node (configure slots) (slot_name k) = LFound x.
Proof.
  intros A slots k x Hk Hall Hx. rewrite get_slot_name.
  replace (Z.of_nat k - 1) with (Z.of_nat (k - 1)) by lia. rewrite py_index_nat.
  rewrite (configure_prefix _ _ k Hall (k - 1) x); auto. lia.
Qed.

(** How many configured slots come before position [p]. *)
Fixpoint configured_before {A} (slots : list (option A)) (p : nat) : nat :=
  match p, slots with
  | S q, Some _ :: r => S (configured_before r q)
  | S q, None :: r => configured_before r q
  | _, _ => O
  end.

Lemma configure_position : forall A (slots : list (option A)) p x,
  nth_error slots p = Some (Some x) ->
  nth_error (configure slots) (configured_before slots p) = Some x.
Proof.
  induction slots as [|[y|] slots IH]; intros [|p] x H; cbn in *; try discriminate; auto. congruence.
Qed.

Lemma configured_before_le : forall A (slots : list (option A)) p, (configured_before slots p <= p)%nat.
Proof.
  induction slots as [|o slots IH]; intros p; destruct p as [|p]; cbn; try lia.
  specialize (IH p). destruct o; lia.
Qed.

Lemma configured_before_gap : forall A (slots : list (option A)) p j, (j < p)%nat ->
  nth_error slots j = Some None -> (configured_before slots p < p)%nat.
Proof.
  induction slots as [|o slots IH]; intros p j Hj H; [destruct j; discriminate|].
  destruct p as [|p]; [lia|]. destruct j as [|j]; cbn [nth_error] in H.
  - inversion H; subst. cbn [configured_before]. specialize (configured_before_le _ slots p). lia.
  - specialize (IH p j ltac:(lia) H). destruct o; cbn [configured_before]; lia.
Qed.

(** In general the node of slot k answers to the name counted over the
    configured slots only. *)
Theorem C41_shifted : forall A (slots : list (option A)) k x, (0 < k)%nat ->
  nth_error slots (k - 1) = Some (Some x) ->
  get_node (configure slots) (slot_name (S (configured_before slots (k - 1)))) = LFound x.
Proof.
  intros A slots k x Hk Hx. rewrite get_slot_name.
  replace (Z.of_nat (S (configured_before slots (k - 1))) - 1)
    with (Z.of_nat (configured_before slots (k - 1))) by lia.
  rewrite py_index_nat, (configure_position _ _ _ _ Hx). auto.
Qed.

(** With a gap before slot k and no node configured twice, the name of slot k
    finds another node or raises IndexError. *)
Theorem C41_gap : forall A (slots : list (option A)) k j x, (0 < k)%nat ->
  NoDup (configure slots) ->
  nth_error slots (k - 1) = Some (Some x) -> (j < k - 1)%nat -> nth_error slots j = Some None ->
  get_node (configure slots) (slot_name k) = LIndexError \/
  exists y, get_node (configure slots) (slot_name k) = LFound y /\ y <> x.
Proof.
  intros A slots k j x Hk Hn Hx Hj Hg. rewrite get_slot_name.
  replace (Z.of_nat k - 1) with (Z.of_nat (k - 1)) by lia. rewrite py_index_nat.
  destruct (nth_error (configure slots) (k - 1)) as [y|] eqn:Ey; auto.
  right. exists y. split; auto. intros ->.
  assert (Hp := configure_position _ _ _ _ Hx). assert (Hlt := configured_before_gap _ _ _ _ Hj Hg).
  rewrite NoDup_nth_error in Hn.
  assert (configured_before slots (k - 1) = (k - 1)%nat); [|lia].
  apply Hn; [|congruence]. apply nth_error_Some. congruence.
Qed.

(** A name beyond the configured nodes raises IndexError; node0 is the last node. *)
Theorem C41_bounds : forall A (slots : list (option A)) k,
  ((List.length (configure slots) < k)%nat -> get_node (configure slots) (slot_name k) = LIndexError) /\
  (forall x rest, configure slots = (rest ++ [x])%list -> get_node (configure slots) (slot_name 0) = LFound x).
Proof.
  intros A slots k. split.
  - intros H. rewrite get_slot_name. replace (Z.of_nat k - 1) with (Z.of_nat (k - 1)) by lia.
    rewrite py_index_nat. replace (nth_error (configure slots) (k - 1)) with (@None A); auto.
    symmetry. apply nth_error_None. lia.
  - intros x rest E. rewrite get_slot_name, E. unfold py_index. rewrite app_length. cbn [List.length].
    cbn [Z.leb Z.compare Z.of_nat Z.sub Z.add Z.opp Z.pos_sub].
    destruct (Z.leb_spec 0 (Z.of_nat (List.length rest + 1) + -1)); [|lia].
    replace (Z.to_nat (Z.of_nat (List.length rest + 1) + -1)) with (List.length rest) by lia.
    rewrite nth_error_app2, Nat.sub_diag by lia. auto.
Qed.

(** The nine type names configure a slot, and nothing else does. *)
Theorem C41_types : forall t,
  (get_node_type t = Some t <->
   In t ["simple-consumer"; "simple-producer"; "resequencer"; "deduplicator"; "ebuttd-encoder";
         "buffer-delay"; "retiming-delay"; "distributor"; "handover"]%string) /\
  (get_node_type t = Some t \/ get_node_type t = None).
Proof.
  intros t. unfold get_node_type. destruct (find (String.eqb t) node_types) eqn:E.
  - apply find_some in E as [Hin E]. apply String.eqb_eq in E. subst s. split; [|auto].
    split; [intros _; exact Hin|auto].
  - split; [|auto]. split; [discriminate|]. intros H. assert (X := find_none _ _ E t H).
    rewrite String.eqb_refl in X. discriminate.
Qed.

(** Concrete: node2 missing. *)
Definition gap_slots : list (option Z) := [Some 11; None; Some 33; Some 44; None; None; None].

Example C41_case :
  get_node (configure gap_slots) "node1" = LFound 11 /\
  get_node (configure gap_slots) "node2" = LFound 33 /\
  get_node (configure gap_slots) "node3" = LFound 44 /\
  get_node (configure gap_slots) "node4" = LIndexError /\
  get_node (configure gap_slots) "node0" = LFound 44 /\
  get_node (configure gap_slots) "nodeX" = LValueError /\
  slot_name 3 = "node3"%string /\ NoDup (configure gap_slots).
Proof.
  repeat (split; [vm_compute; reflexivity|]).
  cbn. repeat (constructor; [intro H; cbn in H; intuition discriminate|]). constructor.
Qed.

Print Assumptions C41_found.
Print Assumptions C41_shifted.
Print Assumptions C41_gap.
Print Assumptions C41_bounds.
Print Assumptions C41_types.
