(** C72: comparing documents, and asking a sequence for one. *)

From Coq Require Import List Arith ZArith String Bool Lia.
From Verif Require Import SequenceModel SequenceSpec FindModel FindSpec FindProofs SequenceInv.
Import ListNotations.
Open Scope Z_scope.

(** ** Operators *)

(** Two documents of one sequence compare as their numbers do. *)
Theorem C72_order : forall s n m,
  (operator Lt (Doc s n) (Doc s m) = Says true <-> n < m) /\
  (operator Le (Doc s n) (Doc s m) = Says true <-> n <= m) /\
  (operator Eq (Doc s n) (Doc s m) = Says true <-> n = m) /\
  (operator Ge (Doc s n) (Doc s m) = Says true <-> n >= m) /\
  (operator Gt (Doc s n) (Doc s m) = Says true <-> n > m) /\
  (operator Ne (Doc s n) (Doc s m) = Says true <-> n <> m) /\
  (forall o, exists b, operator o (Doc s n) (Doc s m) = Says b).
Proof.
  intros s n m. rewrite !operator_docs, String.eqb_refl. cbn [compare].
  assert (T : forall b, Says b = Says true <-> b = true) by (intros b; split; congruence).
  rewrite !T.
  split; [apply Z.ltb_lt|]. split; [apply Z.leb_le|]. split; [apply Z.eqb_eq|].
  split; [rewrite Z.geb_le; lia|]. split; [rewrite Z.gtb_lt; lia|].
  split; [rewrite negb_true_iff; apply Z.eqb_neq|]. intros o. rewrite operator_docs, String.eqb_refl. eauto.
Qed.

(** What comes of any comparison that a document of Part 3 takes part in.  Which of
    the six operators it is makes no difference to that: even [==] and [!=] raise. *)
Theorem C72_defined : forall o a b, is_doc a \/ is_doc b ->
  ((exists v, operator o a b = Says v) <-> exists s, says_sequence a = Some s /\ says_sequence b = Some s) /\
  (operator o a b = ValueError <-> exists s s', says_sequence a = Some s /\ says_sequence b = Some s' /\ s <> s') /\
  (operator o a b = AttributeError <-> says_sequence b = None \/ a = Thing) /\
  (operator o a b = NotImplementedError <-> a = DocD).
Proof.
  intros o a b D.
  assert (X : forall s s' : string, (exists s0, Some s = Some s0 /\ Some s' = Some s0) <-> s = s').
  { intros s s'. split; [intros (s0 & A & B); congruence|intros ->; eauto]. }
  assert (Y : forall s s' : string, (exists s0 s1, Some s = Some s0 /\ Some s' = Some s1 /\ s0 <> s1) <-> s <> s').
  { intros s s'. split; [intros (s0 & s1 & A & B & N); congruence|intros N; eauto 6]. }
  assert (X1 : forall s : string, (exists s0, Some s = Some s0 /\ None = Some s0) <-> False) by (intros; split; [intros (? & ? & ?); discriminate|tauto]).
  assert (X2 : forall s : string, (exists s0, None = Some s0 /\ Some s = Some s0) <-> False) by (intros; split; [intros (? & ? & ?); discriminate|tauto]).
  assert (Y1 : forall s : string, (exists s0 s1, Some s = Some s0 /\ None = Some s1 /\ s0 <> s1) <-> False) by (intros; split; [intros (? & ? & ? & ? & ?); discriminate|tauto]).
  assert (Y2 : forall s : string, (exists s0 s1, None = Some s0 /\ Some s = Some s1 /\ s0 <> s1) <-> False) by (intros; split; [intros (? & ? & ? & ? & ?); discriminate|tauto]).
  assert (V : forall v, (exists w, Says v = Says w) <-> True) by (intros; split; eauto).
  destruct a as [s n| |s|], b as [s' m| |s'|]; cbn in D; try tauto; unfold operator; cbn [method checks mirrored says_sequence];
    rewrite ?X, ?Y, ?X1, ?X2, ?Y1, ?Y2;
    try (destruct (String.eqb_spec s s') as [E|E]); try (destruct (String.eqb_spec s' s) as [E'|E']); cbn [by_type];
    repeat split; intros; subst; try congruence; try tauto; eauto;
    repeat match goal with
           | H : exists _, _ |- _ => destruct H
           | H : _ \/ _ |- _ => destruct H
           end; try congruence; try tauto; eauto.
Qed.

(** So no document can be compared with None, in either order. *)
Theorem C72_none : forall o s n,
  operator o (Doc s n) Thing = AttributeError /\ operator o Thing (Doc s n) = AttributeError.
Proof. intros. split; reflexivity. Qed.

(** EBU-TT-D documents cannot be compared at all, not with themselves either. *)
Theorem C72_ttd : forall o x, operator o DocD x = NotImplementedError /\
  operator o x DocD = (match x with Doc _ _ => AttributeError | _ => NotImplementedError end).
Proof. intros o []; split; reflexivity. Qed.

(** A document comes before every message of its sequence. *)
Theorem C72_message : forall s n,
  operator Lt (Doc s n) (Message s) = Says true /\ operator Gt (Message s) (Doc s n) = Says true /\
  operator Eq (Doc s n) (Message s) = Says false /\ operator Eq (Message s) (Doc s n) = Says false /\
  operator Gt (Doc s n) (Message s) = Says false /\ operator Lt (Message s) (Doc s n) = Says false.
Proof. intros s n. unfold operator. cbn. rewrite String.eqb_refl. cbn. auto 10. Qed.

(** ** max, in, sorting *)

(** max of documents of one sequence is the first of those with the highest number. *)
Theorem C72_max : forall x l, one_sequence (x :: l) ->
  exists l1 y l2, x :: l = (l1 ++ y :: l2)%list /\ max_from (doc_of x) (docs l) = inl (doc_of y) /\
    (forall a, In a l1 -> snd a < snd y) /\ (forall a, In a l2 -> snd a <= snd y).
Proof. intros x l H. apply max_one. apply one_cons, H. Qed.

(** Of documents of several sequences, wherever they stand, there is none. *)
Theorem C72_max_mixed : forall x l, ~ one_sequence (x :: l) -> max_from (doc_of x) (docs l) = inr ValueError.
Proof. intros x l H. apply max_two. intros Q. apply H, one_cons, Q. Qed.

(** A document is looked for up to the first one with its number or of another
    sequence, and that one decides. *)
Theorem C72_in : forall s n l,
  (contains (Doc s n) (docs l) = Says true <->
     exists l1 l2, l = (l1 ++ (s, n) :: l2)%list /\ forall a, In a l1 -> fst a = s) /\
  (contains (Doc s n) (docs l) = Says false <-> forall a, In a l -> fst a = s /\ snd a <> n) /\
  (contains (Doc s n) (docs l) = ValueError <->
     exists l1 a l2, l = (l1 ++ a :: l2)%list /\ fst a <> s /\ forall b, In b l1 -> fst b = s /\ snd b <> n).
Proof.
  intros s n l.
  set (P := fun a : string * Z => negb (fst a =? s)%string || (snd a =? n)).
  assert (F : forall a, P a = false <-> fst a = s /\ snd a <> n).
  { intros a. unfold P. rewrite orb_false_iff, negb_false_iff, String.eqb_eq, Z.eqb_neq. tauto. }
  destruct (first_of P l) as [H|(l1 & a & l2 & -> & A & B)].
  - assert (H' : forall a, In a l -> fst a = s /\ snd a <> n) by (intros a I; apply F; auto).
    assert (C : contains (Doc s n) (docs l) = Says false).
    { pose proof (contains_app s n l [] H') as Q. rewrite app_nil_r in Q. exact Q. }
    rewrite C. split; [|split].
    + split; [discriminate|]. intros (l1 & l2 & -> & _). destruct (H' (s, n)) as [_ Q]; [apply in_elt|]. cbn in Q. congruence.
    + tauto.
    + split; [discriminate|]. intros (l1 & a & l2 & -> & Q & _). destruct (H' a) as [R _]; [apply in_elt|]. congruence.
  - assert (B' : forall b, In b l1 -> fst b = s /\ snd b <> n) by (intros b I; apply F; auto).
    rewrite (contains_app s n l1 (a :: l2) B'). cbn [docs map contains]. change (Doc s n) with (doc_of (s, n)). rewrite operator_of.
    cbn [fst snd compare]. destruct (String.eqb_spec s (fst a)) as [E|E].
    + assert (N : snd a = n).
      { unfold P in A. apply orb_true_iff in A as [A|A]; [|apply Z.eqb_eq; exact A].
        apply negb_true_iff, String.eqb_neq in A. congruence. }
      rewrite N, Z.eqb_refl. split; [|split].
      * split; [|reflexivity]. intros _. exists l1, l2. split; [|intros b I; apply B'; exact I].
        destruct a as [sa na]. cbn in E, N. subst. reflexivity.
      * split; [discriminate|]. intros Q. destruct (Q a) as [_ R]; [apply in_elt|]. congruence.
      * split; [discriminate|]. intros (k1 & c & k2 & Q & R & T). exfalso.
        assert (G : forall (u1 u2 v1 v2 : list (string * Z)) x y, (u1 ++ x :: u2 = v1 ++ y :: v2)%list -> In x v1 \/ x = y \/ In y u1).
        { induction u1 as [|u u1 IH]; intros u2 [|v v1] v2 x y Z0; cbn in Z0; injection Z0 as Z1 Z2; subst; auto.
          - left; left; reflexivity.
          - right; right; left; reflexivity.
          - destruct (IH _ _ _ _ _ Z2) as [?|[?|?]]; auto; [left; right; assumption|right; right; right; assumption]. }
        destruct (G _ _ _ _ _ _ Q) as [I|[<-|I]]; [apply T in I; tauto|congruence|apply B' in I; tauto].
    + split; [|split].
      * split; [discriminate|]. intros (k1 & k2 & Q & R). exfalso.
        assert (G : forall (u1 u2 v1 v2 : list (string * Z)) x y, (u1 ++ x :: u2 = v1 ++ y :: v2)%list -> In x v1 \/ x = y \/ In y u1).
        { induction u1 as [|u u1 IH]; intros u2 [|v v1] v2 x y Z0; cbn in Z0; injection Z0 as Z1 Z2; subst; auto.
          - left; left; reflexivity.
          - right; right; left; reflexivity.
          - destruct (IH _ _ _ _ _ Z2) as [?|[?|?]]; auto; [left; right; assumption|right; right; right; assumption]. }
        destruct (G _ _ _ _ _ _ Q) as [I|[->|I]]; [apply R in I; congruence|apply E; reflexivity|apply B' in I; cbn in I; tauto].
      * split; [discriminate|]. intros Q. destruct (Q a) as [R _]; [apply in_elt|]. congruence.
      * split; [|reflexivity]. intros _. exists l1, a, l2. repeat split; auto; try congruence; apply B'; assumption.
Qed.

(** However sorting goes about it: documents of one sequence end up in the order of
    their numbers, *)
Theorem C72_sort : forall l p, sorts (List.length l) p -> one_sequence l ->
  exists order, sorted (docs l) p = inl order /\ NoDup order /\ (forall i, In i order <-> (i < List.length l)%nat) /\
    in_order_of (fun i => snd (nth i l (EmptyString, 0))) order.
Proof. exact sort_one. Qed.

(** and documents of several are refused, in whatever order they are given. *)
Theorem C72_sort_mixed : forall l p, sorts (List.length l) p -> ~ one_sequence l -> sorted (docs l) p = inr ValueError.
Proof.
  intros l p S N.
  destruct l as [|x l]; [exfalso; apply N; intros a b []|].
  destruct (first_of (fun a => negb (fst a =? fst x)%string) l) as [H|(l1 & a & l2 & E & A & _)].
  - exfalso. apply N, one_cons. intros b I. specialize (H b I). apply negb_false_iff, String.eqb_eq in H. exact H.
  - apply (sort_two (x :: l) p 0 (Datatypes.S (List.length l1)) S); [cbn; lia|cbn; subst l; rewrite app_length; cbn; lia|].
    cbn. subst l. rewrite app_nth2, Nat.sub_diag by lia. cbn. apply negb_true_iff, String.eqb_neq in A. congruence.
Qed.

(** ** get_document *)

(** After any use of a sequence: get_document(n) is the document that has exactly n
    documents with lower numbers, or for a negative n, with -n - 1 higher ones. *)
Theorem C72_get : forall sid tb cm agid cs n d,
  let s := calls (new_sequence sid tb cm agid) cs in
  get_document s n = Some d <-> In d (q_docs s) /\
    ((0 <= n /\ Z.of_nat (List.length (lower s (d_num d))) = n) \/
     (n < 0 /\ Z.of_nat (List.length (higher s (d_num d))) = - n - 1)).
Proof.
  intros sid tb cm agid cs n d s.
  pose proof (held_strictly sid tb cm agid cs) as S. pose proof (unique_numbers sid tb cm agid cs) as N. fold s in S, N.
  unfold get_document, lower, higher. set (len := Z.of_nat (List.length (q_docs s))).
  assert (P := position _ S).
  assert (LH : In d (q_docs s) -> _) by exact (lower_higher _ N d).
  set (lo := List.length (filter (fun x => d_num x <? d_num d) (q_docs s))) in *.
  set (hi := List.length (filter (fun x => d_num d <? d_num x) (q_docs s))) in *.
  destruct (Z.ltb_spec n 0) as [Hn|Hn].
  - destruct (Z.ltb_spec (n + len) 0) as [A|A]; cbn [orb].
    + split; [discriminate|]. intros [I [[Q _]|[_ Q]]]; specialize (LH I); unfold len in *; lia.
    + destruct (Z.leb_spec len (n + len)) as [B|B]; [lia|]. rewrite P. unfold len in *. split.
      * intros [I Q]. specialize (LH I). split; [exact I|]. fold lo in Q. right. lia.
      * intros [I [[Q _]|[_ Q]]]; [lia|]. specialize (LH I). split; [exact I|]. fold lo. lia.
  - destruct (Z.leb_spec len n) as [B|B]; cbn [orb]; (destruct (Z.ltb_spec n 0) as [C|C]; [lia|]); cbn [orb].
    + split; [discriminate|]. intros [I [[_ Q]|[Q _]]]; specialize (LH I); unfold len in *; lia.
    + rewrite P. fold lo. split.
      * intros [I Q]. split; [exact I|]. left. lia.
      * intros [I [[_ Q]|[Q _]]]; [|lia]. split; [exact I|]. lia.
Qed.

(** IndexError exactly when there are not that many. *)
Theorem C72_get_none : forall s n,
  get_document s n = None <->
  Z.of_nat (List.length (q_docs s)) <= n \/ n < - Z.of_nat (List.length (q_docs s)).
Proof.
  intros s n. unfold get_document. set (len := Z.of_nat (List.length (q_docs s))).
  destruct (Z.ltb_spec n 0).
  - destruct (Z.ltb_spec (n + len) 0); cbn [orb]; [split; [right; lia|reflexivity]|].
    destruct (Z.leb_spec len (n + len)); [lia|]. rewrite nth_error_None. unfold len in *. lia.
  - destruct (Z.ltb_spec n 0); [lia|]. cbn [orb].
    destruct (Z.leb_spec len n); [split; [left; lia|reflexivity]|]. rewrite nth_error_None. unfold len in *. lia.
Qed.

(** Sequence numbers start at 1.  So get_document(n), meant to give the document
    with the number n, never does, in any sequence and for any n. *)
Theorem C72_get_never : forall sid tb cm agid cs n d,
  (forall x, In (CallAdd x) cs -> 1 <= d_num x) ->
  get_document (calls (new_sequence sid tb cm agid) cs) n = Some d -> d_num d <> n.
Proof.
  intros sid tb cm agid cs n d H G E. apply C72_get in G as [I Q].
  set (s := calls (new_sequence sid tb cm agid) cs) in *.
  assert (P : forall x, In x (q_docs s) -> 1 <= d_num x).
  { intros x X. apply calls_held in X as [[]|X]. auto. }
  pose proof (P d I). destruct Q as [[_ Q]|[Q _]]; [|lia].
  pose proof (few_lower (q_docs s) (d_num d) (unique_numbers sid tb cm agid cs) P ltac:(lia)) as L. fold (lower s (d_num d)) in L. lia.
Qed.

(** With the documents 1 to k held, it gives the one after. *)
Theorem C72_get_next : forall sid tb cm agid cs n d,
  let s := calls (new_sequence sid tb cm agid) cs in
  0 <= n -> (forall k, 1 <= k <= n -> In k (map d_num (q_docs s))) ->
  (forall x, In (CallAdd x) cs -> 1 <= d_num x) ->
  In d (q_docs s) -> d_num d = n + 1 -> get_document s n = Some d.
Proof.
  intros sid tb cm agid cs n d s Hn A H I E. apply C72_get. split; [exact I|]. left. split; [exact Hn|].
  assert (P : forall x, In x (q_docs s) -> 1 <= d_num x).
  { intros x X. apply calls_held in X as [[]|X]. auto. }
  pose proof (few_lower (q_docs s) (d_num d) (unique_numbers sid tb cm agid cs) P ltac:(lia)) as L. fold s in L |- *. unfold lower.
  set (f := filter (fun x => d_num x <? d_num d) (q_docs s)) in *.
  assert (M : incl (map Z.of_nat (seq 1 (Z.to_nat n))) (map d_num f)).
  { intros z Z0. apply in_map_iff in Z0 as (k & <- & K). apply in_seq in K.
    destruct (proj1 (in_map_iff _ _ _) (A (Z.of_nat k) ltac:(lia))) as (x & X & Y).
    rewrite <- X. apply in_map. apply filter_In. split; [exact Y|]. apply Z.ltb_lt. lia. }
  apply NoDup_incl_length in M.
  - rewrite !map_length, seq_length in M. lia.
  - apply FinFun.Injective_map_NoDup; [intros x y; apply Nat2Z.inj|apply seq_NoDup].
Qed.

(** ** Cases *)

Open Scope string_scope.

Example C72_case_order : operator Lt (Doc "a" 2) (Doc "a" 10) = Says true /\ operator Ne (Doc "a" 2) (Doc "a" 2) = Says false.
Proof. split; reflexivity. Qed.

(** Equal numbers in different sequences are not unequal, they cannot be compared. *)
Example C72_case_differ : operator Ne (Doc "a" 2) (Doc "b" 2) = ValueError /\ operator Eq (Message "b") (Doc "a" 2) = ValueError.
Proof. split; reflexivity. Qed.

Example C72_case_ttd : operator Eq DocD DocD = NotImplementedError /\ operator Eq (Doc "a" 1) DocD = AttributeError.
Proof. split; reflexivity. Qed.

(** Of two with the number 3, the first. *)
Example C72_case_max : max_from (Doc "a" 1) (docs [("a", 3); ("a", 2); ("a", 3)]) = inl (Doc "a" 3)
  /\ max_from (Doc "a" 1) (docs [("a", 3); ("a", 2); ("b", 1)]) = inr ValueError.
Proof. split; reflexivity. Qed.

(** The number found before the other sequence, and after it. *)
Example C72_case_in : contains (Doc "a" 2) (docs [("a", 1); ("a", 2); ("b", 1)]) = Says true
  /\ contains (Doc "a" 2) (docs [("a", 1); ("b", 1); ("a", 2)]) = ValueError
  /\ contains (Doc "a" 2) (docs [("a", 1)]) = Says false.
Proof. repeat split. Qed.

(** A way to sort three. *)
Definition three : plan :=
  Ask 1 0 (Ask 2 1 (Ready [2; 1; 0]%nat) (Ask 2 0 (Ready [1; 2; 0]%nat) (Ready [1; 0; 2]%nat)))
          (Ask 2 1 (Ask 2 0 (Ready [2; 0; 1]%nat) (Ready [0; 2; 1]%nat)) (Ready [0; 1; 2]%nat)).

Lemma three_order (key : nat -> Z) a b c : key a <= key b -> key b <= key c -> in_order_of key [a; b; c].
Proof.
  intros A B l1 i l2 j l3 E.
  destruct l1 as [|x1 [|x2 [|x3 l1]]]; destruct l2 as [|y1 [|y2 l2]]; cbn in E; inversion E; subst; try lia;
    repeat match goal with
           | H : [] = (?l ++ _ :: _)%list |- _ => destruct l; discriminate H
           end.
Qed.

Example C72_case_sorts : sorts 3 three.
Proof.
  split; [cbn; lia|]. intros key. cbn.
  assert (N : forall a b c : nat, a <> b -> b <> c -> a <> c -> NoDup [a; b; c]).
  { intros. repeat constructor; cbn; intuition congruence. }
  destruct (Z.ltb_spec (key 1%nat) (key 0%nat)), (Z.ltb_spec (key 2%nat) (key 1%nat)), (Z.ltb_spec (key 2%nat) (key 0%nat));
    eexists; (split; [reflexivity|]); (split; [apply N; discriminate|]); (split; [intros i; cbn; lia|]); apply three_order; lia.
Qed.

Example C72_case_sort : sorted (docs [("a", 5); ("a", 1); ("a", 3)]) three = inl [1; 2; 0]%nat
  /\ sorted (docs [("a", 5); ("a", 1); ("b", 3)]) three = inr ValueError
  /\ sorted (docs [("a", 1); ("b", 2); ("a", 3)]) three = inr ValueError.
Proof. repeat split. Qed.

(** Two documents, 1 and 2. *)
Definition one : document := mkDoc 1 "a" "media" None None 1 0 (Some 5).
Definition two : document := mkDoc 2 "a" "media" None None 2 5 (Some 9).
Definition held : seqstate := calls (new_sequence "a" "media" None None) [CallAdd two; CallNew; CallAdd one].

Example C72_case_get : q_docs held = [one; two]
  /\ get_document held 0 = Some one /\ get_document held 1 = Some two /\ get_document held 2 = None
  /\ get_document held (-1) = Some two /\ get_document held (-2) = Some one /\ get_document held (-3) = None.
Proof. repeat split. Qed.

Example C72_case_never : (forall x, In (CallAdd x) [CallAdd two; CallNew; CallAdd one] -> 1 <= d_num x)%Z
  /\ List.length (lower held 2) = 1%nat /\ List.length (higher held 2) = 0%nat.
Proof.
  split; [|split; reflexivity].
  intros x [H|[H|[H|[]]]]; try discriminate; injection H as <-; cbn; lia.
Qed.

Example C72_case_next : get_document held 1 = Some two /\ d_num two = (1 + 1)%Z /\ map d_num (q_docs held) = [1; 2]%Z.
Proof. repeat split. Qed.

Print Assumptions C72_order.
Print Assumptions C72_defined.
Print Assumptions C72_none.
Print Assumptions C72_ttd.
Print Assumptions C72_message.
Print Assumptions C72_max.
Print Assumptions C72_max_mixed.
Print Assumptions C72_in.
Print Assumptions C72_sort.
Print Assumptions C72_sort_mixed.
Print Assumptions C72_get.
Print Assumptions C72_get_none.
Print Assumptions C72_get_never.
Print Assumptions C72_get_next.
