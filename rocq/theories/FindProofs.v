(** Lemmas for C72. *)

From Coq Require Import List Arith ZArith String Bool Lia Sorted Permutation.
From Verif Require Import SequenceModel SequenceSpec SequenceProofs SequenceHistory SequenceInv FindModel FindSpec.
Import ListNotations.
Open Scope Z_scope.

(** ** Operators *)

Lemma operator_docs o s n s' m :
  operator o (Doc s n) (Doc s' m) = if (s =? s')%string then Says (compare o n m) else ValueError.
Proof. unfold operator. cbn. destruct (s =? s')%string; reflexivity. Qed.

Lemma operator_of o a b :
  operator o (doc_of a) (doc_of b) = if (fst a =? fst b)%string then Says (compare o (snd a) (snd b)) else ValueError.
Proof. apply operator_docs. Qed.

(** ** max *)

Lemma one_cons a l : one_sequence (a :: l) <-> forall b, In b l -> fst b = fst a.
Proof.
  split.
  - intros H b I. apply H; [right; exact I|left; reflexivity].
  - intros H x y [<-|X] [<-|Y]; auto; [symmetry|rewrite (H x X), (H y Y)]; auto.
Qed.

Lemma max_one l : forall x, (forall b, In b l -> fst b = fst x) ->
  exists l1 y l2, x :: l = l1 ++ y :: l2 /\ max_from (doc_of x) (docs l) = inl (doc_of y) /\
    (forall a, In a l1 -> snd a < snd y) /\ (forall a, In a l2 -> snd a <= snd y).
Proof.
  induction l as [|z l IH]; intros x H.
  - exists [], x, []. cbn. repeat split; auto; intros a [].
  - cbn [docs map max_from]. rewrite operator_of, (H z (or_introl eq_refl)), String.eqb_refl.
    cbn [compare]. destruct (Z.gtb_spec (snd z) (snd x)) as [G|G].
    + destruct (IH z) as (l1 & y & l2 & E & M & A & B).
      { intros b Hb. rewrite (H b (or_intror Hb)), (H z (or_introl eq_refl)). reflexivity. }
      exists (x :: l1), y, l2. rewrite E. split; [reflexivity|].
      split; [exact M|]. split; [|exact B].
      intros a [<-|I]; [|auto]. destruct l1 as [|q l1]; injection E as -> E; [lia|].
      specialize (A q (or_introl eq_refl)). lia.
    + destruct (IH x) as (l1 & y & l2 & E & M & A & B).
      { intros b Hb. apply H. right; exact Hb. }
      destruct l1 as [|q l1]; injection E as -> ->.
      * exists [], y, (z :: l2). split; [reflexivity|]. split; [exact M|]. split; [intros a []|]. intros a [<-|I]; [lia|auto].
      * exists (q :: z :: l1), y, l2. split; [reflexivity|]. split; [exact M|]. split; [|exact B].
        pose proof (A q (or_introl eq_refl)). intros a [<-|[<-|I]]; [lia|lia|]. apply A. right; exact I.
Qed.

Lemma max_two l : forall x, ~ (forall b, In b l -> fst b = fst x) -> max_from (doc_of x) (docs l) = inr ValueError.
Proof.
  induction l as [|z l IH]; intros x H.
  - exfalso. apply H. intros b [].
  - cbn [docs map max_from]. rewrite operator_of.
    destruct (String.eqb_spec (fst z) (fst x)) as [E|E]; [|reflexivity].
    assert (N : ~ forall b, In b l -> fst b = fst x).
    { intros Q. apply H. intros b [<-|I]; auto. }
    cbn [compare]. destruct (snd z >? snd x).
    + apply (IH z). rewrite E. exact N.
    + apply (IH x N).
Qed.

(** ** in *)

Lemma contains_app s n l1 : forall l2, (forall a, In a l1 -> fst a = s /\ snd a <> n) ->
  contains (Doc s n) (docs (l1 ++ l2)) = contains (Doc s n) (docs l2).
Proof.
  induction l1 as [|a l1 IH]; intros l2 H; [reflexivity|].
  cbn [docs List.app map contains]. unfold doc_of at 1. rewrite operator_docs.
  destruct (H a (or_introl eq_refl)) as [E N]. rewrite E, String.eqb_refl. cbn [compare].
  destruct (Z.eqb_spec n (snd a)); [congruence|]. apply IH. intros b I. apply H. right; exact I.
Qed.

Lemma first_of (P : string * Z -> bool) l :
  (forall a, In a l -> P a = false) \/ exists l1 a l2, l = (l1 ++ a :: l2)%list /\ P a = true /\ forall b, In b l1 -> P b = false.
Proof.
  induction l as [|x l IH]; [left; intros a []|].
  destruct (P x) eqn:E; [right; exists [], x, l; repeat split; auto; intros b []|].
  destruct IH as [IH|(l1 & a & l2 & -> & A & B)].
  - left. intros a [<-|I]; auto.
  - right. exists (x :: l1), a, l2. repeat split; auto. intros b [<-|I]; auto.
Qed.

(** ** Sorting *)

Lemma carry_ext (f g : nat -> nat -> answer) p n :
  within n p -> (forall i j, (i < n)%nat -> (j < n)%nat -> f i j = g i j) -> carry_out f p = carry_out g p.
Proof.
  intros W H. induction p as [|i j yes IHy no IHn]; [reflexivity|].
  destruct W as (I & J & Y & N). cbn [carry_out]. rewrite (H i j I J), (IHy Y), (IHn N). reflexivity.
Qed.

(** Where the answers agree, so does the outcome. *)
Lemma carry_agrees (f g : nat -> nat -> answer) p n :
  within n p -> (forall i j b, (i < n)%nat -> (j < n)%nat -> f i j = Says b -> g i j = Says b) ->
  forall o, carry_out f p = inl o -> carry_out g p = inl o.
Proof.
  intros W H. induction p as [|i j yes IHy no IHn]; intros o E; [exact E|].
  destruct W as (I & J & Y & N). cbn [carry_out] in *. destruct (f i j) as [[]| | | |] eqn:F; try discriminate.
  - rewrite (H i j true I J F). auto.
  - rewrite (H i j false I J F). auto.
Qed.

Lemma carry_raises (f : nat -> nat -> answer) p n e :
  within n p -> (forall i j, (i < n)%nat -> (j < n)%nat -> f i j = e \/ exists b, f i j = Says b) ->
  forall x, carry_out f p = inr x -> x = e.
Proof.
  intros W H. induction p as [|i j yes IHy no IHn]; intros x E; [discriminate|].
  destruct W as (I & J & Y & N). cbn [carry_out] in E. destruct (H i j I J) as [F|[b F]]; rewrite F in E.
  - destruct e as [[]| | | |]; auto; injection E as <-; reflexivity.
  - destruct b; auto.
Qed.

Lemma two_in (l : list nat) i j : In i l -> In j l -> i <> j ->
  (exists l1 l2 l3, l = l1 ++ i :: l2 ++ j :: l3)%list \/ (exists l1 l2 l3, l = l1 ++ j :: l2 ++ i :: l3)%list.
Proof.
  intros I J D. apply in_split in I as (a & b & ->). apply in_app_or in J as [J|[J|J]]; [|congruence|].
  - right. apply in_split in J as (c & d & ->). exists c, d, b. rewrite <- app_assoc. reflexivity.
  - left. apply in_split in J as (c & d & ->). exists a, c, d. reflexivity.
Qed.

(** The numbers with those of one sequence moved. *)
Definition moved (l : list (string * Z)) (s : string) (by_ : Z) (i : nat) : Z :=
  let x := nth i l (EmptyString, 0) in snd x + (if (fst x =? s)%string then by_ else 0).

Lemma nth_docs l i : (i < List.length l)%nat -> nth i (docs l) Thing = doc_of (nth i l (EmptyString, 0)).
Proof.
  intros H. unfold docs. rewrite (nth_indep _ Thing (doc_of (EmptyString, 0))); [apply map_nth|]. rewrite map_length. exact H.
Qed.

Lemma sort_two l p i j : sorts (List.length l) p -> (i < List.length l)%nat -> (j < List.length l)%nat ->
  fst (nth i l (EmptyString, 0)) <> fst (nth j l (EmptyString, 0)) -> sorted (docs l) p = inr ValueError.
Proof.
  intros [W S] I J D. unfold sorted.
  set (less := fun i j : nat => operator Lt (nth i (docs l) Thing) (nth j (docs l) Thing)).
  assert (L : forall a b, (a < List.length l)%nat -> (b < List.length l)%nat -> less a b =
     if (fst (nth a l (EmptyString, 0)) =? fst (nth b l (EmptyString, 0)))%string
     then Says (snd (nth a l (EmptyString, 0)) <? snd (nth b l (EmptyString, 0))) else ValueError).
  { intros a b A B. unfold less. rewrite !nth_docs by assumption. unfold doc_of. rewrite operator_docs. reflexivity. }
  destruct (carry_out less p) as [o|e] eqn:E.
  - exfalso. set (s := fst (nth i l (EmptyString, 0))) in *.
    assert (M : forall by_, carry_out (fun a b => Says (moved l s by_ a <? moved l s by_ b)) p = inl o).
    { intros by_. refine (carry_agrees _ _ _ _ W _ o E). intros a b v A B Q. rewrite (L a b A B) in Q. unfold moved.
      destruct (String.eqb_spec (fst (nth a l (EmptyString, 0))) (fst (nth b l (EmptyString, 0)))) as [X|]; [|discriminate].
      rewrite <- X. injection Q as <-. f_equal.
      destruct (fst (nth a l (EmptyString, 0)) =? s)%string;
        destruct (Z.ltb_spec (snd (nth a l (EmptyString, 0))) (snd (nth b l (EmptyString, 0))));
        first [apply Z.ltb_lt|apply Z.ltb_ge]; lia. }
    assert (K : forall by_, In i o /\ In j o /\ in_order_of (moved l s by_) o).
    { intros by_. destruct (S (moved l s by_)) as (o' & Q & _ & P & R). rewrite M in Q. injection Q as <-.
      split; [apply P; exact I|]. split; [apply P; exact J|exact R]. }
    assert (Ki : forall by_, moved l s by_ i = snd (nth i l (EmptyString, 0)) + by_).
    { intros. unfold moved. fold s. rewrite String.eqb_refl. reflexivity. }
    assert (Kj : forall by_, moved l s by_ j = snd (nth j l (EmptyString, 0))).
    { intros. unfold moved. destruct (String.eqb_spec (fst (nth j l (EmptyString, 0))) s); [congruence|lia]. }
    set (far := 1 + Z.abs (snd (nth i l (EmptyString, 0))) + Z.abs (snd (nth j l (EmptyString, 0)))) in *.
    destruct (K far) as (Io & Jo & Up). destruct (K (- far)) as (_ & _ & Down).
    assert (ij : i <> j) by (intros ->; apply D; reflexivity).
    destruct (two_in o i j Io Jo ij) as [(l1 & l2 & l3 & Q)|(l1 & l2 & l3 & Q)].
    + specialize (Up _ _ _ _ _ Q). rewrite Ki, Kj in Up. lia.
    + specialize (Down _ _ _ _ _ Q). rewrite Ki, Kj in Down. lia.
  - f_equal. refine (carry_raises less p _ ValueError W _ e E). intros a b A B. rewrite (L a b A B).
    destruct (_ =? _)%string; eauto.
Qed.

Lemma sort_one l p : sorts (List.length l) p -> one_sequence l ->
  exists order, sorted (docs l) p = inl order /\ NoDup order /\ (forall i, In i order <-> (i < List.length l)%nat) /\
    in_order_of (fun i => snd (nth i l (EmptyString, 0))) order.
Proof.
  intros [W S] O. destruct (S (fun i => snd (nth i l (EmptyString, 0)))) as (o & E & N & P & R).
  exists o. split; [|auto]. rewrite <- E. unfold sorted. apply (carry_ext _ _ _ _ W). intros a b A B.
  rewrite !nth_docs by assumption. unfold doc_of. rewrite operator_docs.
  rewrite (O _ _ (nth_In l (EmptyString, 0) A) (nth_In l (EmptyString, 0) B)), String.eqb_refl. reflexivity.
Qed.

(** ** What a sequence holds *)

(** A call keeps some of the documents and may put one among them. *)
Lemma add_docs s d s' o : add_document s d = (s', o) ->
  exists f, q_docs s' = filter f (q_docs s) \/ q_docs s' = docs_add d (filter f (q_docs s)).
Proof.
  assert (All : forall l : list document, l = filter (fun _ => true) l).
  { intros l. symmetry. apply filter_all. reflexivity. }
  unfold add_document. destruct (check_compat s d) as [s1 [[]|e]] eqn:Hc.
  2:{ intros H. injection H as <- _. apply check_compat_shape in Hc. destruct Hc as (H1 & _). rewrite H1. exists (fun _ => true). left. apply All. }
  apply check_compat_shape in Hc. destruct Hc as (H1 & _).
  destruct (insert_or_discard s1 d) as [s2|o2| |e2] eqn:Hio.
  - intros H. injection H as <- _. apply insert_or_discard_shape in Hio as [_ Hdocs].
    destruct (bump_last_fields s2 d) as (_ & B2 & _). exists (fun _ => true). right. rewrite B2, Hdocs, H1, <- All. reflexivity.
  - destruct (resolved_begin s1 o2) as [rb|e3]; [|intros H; injection H as <- _; exists (fun _ => true); left; rewrite H1; apply All].
    unfold discard_document. destruct (rb >? d_begin d); [intros H; injection H as <- _; exists (fun _ => true); left; rewrite H1; apply All|].
    intros H. injection H as <- _.
    destruct (bump_last_fields (set_disc s1 ((d_obj d, rb, d_begin d) :: q_disc s1)) d) as (_ & B2 & _).
    exists (fun _ => true). left. rewrite B2. cbn. rewrite H1. apply All.
  - destruct (override_sequence s1 d) as [s2 [[]|e2]] eqn:Hov; apply override_shape in Hov as [_ (f & Hf)]; rewrite H1 in Hf.
    + destruct (insert_or_discard s2 d) as [s3|o2| |e2] eqn:Hio2; intros H; injection H as <- _; exists f; auto.
      right. apply insert_or_discard_shape in Hio2 as [_ Hdocs2].
      destruct (bump_last_fields s3 d) as (_ & B2 & _). rewrite B2, Hdocs2, Hf. reflexivity.
    + intros H; injection H as <- _; exists f; auto.
  - intros H; injection H as <- _; exists (fun _ => true); left; rewrite H1; apply All.
Qed.

Lemma step_docs s c :
  exists f, q_docs (fst (call_step s c)) = filter f (q_docs s) \/
    exists d, c = CallAdd d /\ q_docs (fst (call_step s c)) = docs_add d (filter f (q_docs s)).
Proof.
  destruct c as [d| |d|b e disc]; cbn [call_step].
  - destruct (add_document s d) as [s1 o1] eqn:H. destruct (add_docs _ _ _ _ H) as (f & E).
    exists f. replace (fst (match o1 with OError _ => (s1, None) | _ => (s1, Some (d_num d)) end)) with s1 by (destruct o1; reflexivity).
    destruct E as [E|E]; [left|right]; eauto.
  - exists (fun _ => true). left. cbn. symmetry. apply filter_all. reflexivity.
  - destruct (discard_before_shape s d) as [_ (f & Hf)]. exists f. left. exact Hf.
  - destruct (extract_shape s b e disc) as [_ (f & Hf)]. exists f. left. exact Hf.
Qed.

Definition by_number (x y : document) : Prop := d_num x <= d_num y.

Lemma docs_add_in d l : forall x, In x (docs_add d l) -> x = d \/ In x l.
Proof.
  induction l as [|y l IH]; cbn; intros x H; [intuition|].
  destruct (d_num y <=? d_num d); cbn in H; [|intuition]. destruct H as [H|H]; [auto|]. apply IH in H. intuition.
Qed.

Lemma docs_add_sorted d l : StronglySorted by_number l -> StronglySorted by_number (docs_add d l).
Proof.
  induction 1 as [|y l S IH F]; cbn; [repeat constructor|].
  destruct (Z.leb_spec (d_num y) (d_num d)).
  - constructor; [exact IH|]. apply Forall_forall. intros x I. apply docs_add_in in I as [->|I]; [exact H|].
    apply (proj1 (Forall_forall _ _) F x I).
  - constructor; [constructor; assumption|]. constructor; [unfold by_number; lia|].
    apply Forall_forall. intros x I. pose proof (proj1 (Forall_forall _ _) F x I) as Q. unfold by_number in *. lia.
Qed.

Lemma calls_sorted cs : forall s, StronglySorted by_number (q_docs s) -> StronglySorted by_number (q_docs (calls s cs)).
Proof.
  induction cs as [|c cs IH]; intros s H; [exact H|]. cbn [calls]. apply IH.
  destruct (step_docs s c) as (f & [E|(d & _ & E)]); rewrite E.
  - apply StronglySorted_filter; exact H.
  - apply docs_add_sorted, StronglySorted_filter; exact H.
Qed.

Lemma calls_held cs : forall s x, In x (q_docs (calls s cs)) -> In x (q_docs s) \/ In (CallAdd x) cs.
Proof.
  induction cs as [|c cs IH]; intros s x H; [auto|]. cbn [calls] in H. apply IH in H as [H|H]; [|right; right; exact H].
  destruct (step_docs s c) as (f & [E|(d & -> & E)]); rewrite E in H.
  - apply filter_In in H. tauto.
  - apply docs_add_in in H as [->|H]; [right; left; reflexivity|]. apply filter_In in H. tauto.
Qed.

(** Strictly, as no two documents held have the same number. *)
Lemma strictly l : StronglySorted by_number l -> NoDup (map d_num l) -> StronglySorted (fun x y => d_num x < d_num y) l.
Proof.
  induction 1 as [|y l S IH F]; intros N; constructor; cbn in N; inversion N as [|? ? A B]; subst; [auto|].
  apply Forall_forall. intros x I. pose proof (proj1 (Forall_forall _ _) F x I) as Q. unfold by_number in Q.
  assert (d_num x <> d_num y) by (intros X; apply A; rewrite <- X; apply in_map; exact I). lia.
Qed.

Lemma filter_none' {A} (f : A -> bool) l : (forall x, In x l -> f x = false) -> filter f l = [].
Proof.
  induction l as [|x l IH]; intros H; [reflexivity|]. cbn. rewrite (H x (or_introl eq_refl)). apply IH. intros y I. apply H. right; exact I.
Qed.

Lemma filter_every {A} (f : A -> bool) l : (forall x, In x l -> f x = true) -> filter f l = l.
Proof.
  induction l as [|x l IH]; intros H; [reflexivity|]. cbn. rewrite (H x (or_introl eq_refl)). f_equal. apply IH. intros y I. apply H. right; exact I.
Qed.

(** In such a list the position of a document is the number of lower ones. *)
Lemma position l : StronglySorted (fun x y => d_num x < d_num y) l -> forall k d,
  nth_error l k = Some d <-> In d l /\ List.length (filter (fun x => d_num x <? d_num d) l) = k.
Proof.
  intros S.
  assert (P : forall l1 d l2, l = (l1 ++ d :: l2)%list -> filter (fun x => d_num x <? d_num d) l = l1).
  { intros l1 d l2 ->. apply StronglySorted_app in S as (_ & S2 & X). inversion S2 as [|? ? _ F]; subst.
    rewrite filter_app. cbn. rewrite Z.ltb_irrefl.
    rewrite (filter_none' _ l2), filter_every; [apply app_nil_r| |].
    - intros x I. apply Z.ltb_lt. apply X; [exact I|left; reflexivity].
    - intros x I. apply Z.ltb_ge. pose proof (proj1 (Forall_forall _ _) F x I) as Q. cbv beta in Q. lia. }
  intros k d. split.
  - intros H. split; [eapply nth_error_In; exact H|]. apply nth_error_split in H as (l1 & l2 & E & <-).
    rewrite (P _ _ _ E). reflexivity.
  - intros [I <-]. apply in_split in I as (l1 & l2 & E). rewrite (P _ _ _ E), E, nth_error_app2, Nat.sub_diag; [reflexivity|lia].
Qed.

Lemma lower_higher l : NoDup (map d_num l) -> forall d, In d l ->
  (List.length (filter (fun x => (d_num x <? d_num d)%Z) l) + 1 + List.length (filter (fun x => (d_num d <? d_num x)%Z) l) = List.length l)%nat.
Proof.
  intros N d I. apply in_split in I as (l1 & l2 & ->). rewrite map_app in N. cbn in N. apply NoDup_remove_2 in N.
  assert (Q : forall k : list document, ~ In (d_num d) (map d_num k) ->
    (List.length (filter (fun x => (d_num x <? d_num d)%Z) k) + List.length (filter (fun x => (d_num d <? d_num x)%Z) k) = List.length k)%nat).
  { induction k as [|x k IH]; intros A; [reflexivity|]. cbn in A.
    assert (IH' := IH (fun B => A (or_intror B))). cbn.
    destruct (Z.ltb_spec (d_num x) (d_num d)), (Z.ltb_spec (d_num d) (d_num x)); cbn; try lia.
  }
  rewrite !filter_app, !app_length. cbn. rewrite Z.ltb_irrefl.
  assert (A := Q l1 ltac:(intros X; apply N, in_or_app; auto)). assert (B := Q l2 ltac:(intros X; apply N, in_or_app; auto)). lia.
Qed.

Lemma held_strictly sid tb cm agid cs : StronglySorted (fun x y => d_num x < d_num y) (q_docs (calls (new_sequence sid tb cm agid) cs)).
Proof. apply strictly; [apply calls_sorted; constructor|apply unique_numbers]. Qed.

(** Positive numbers below n: fewer than n. *)
Lemma few_lower l n : NoDup (map d_num l) -> (forall x, In x l -> 1 <= d_num x) -> 1 <= n ->
  Z.of_nat (List.length (filter (fun x => d_num x <? n) l)) < n.
Proof.
  intros N P L.
  assert (I : incl (map d_num (filter (fun x => d_num x <? n) l)) (map Z.of_nat (seq 1 (Z.to_nat n - 1)))).
  { intros z H. apply in_map_iff in H as (x & <- & H). apply filter_In in H as [H Q]. apply Z.ltb_lt in Q. pose proof (P x H).
    apply in_map_iff. exists (Z.to_nat (d_num x)). split; [lia|]. apply in_seq. lia. }
  apply NoDup_incl_length in I; [|apply NoDup_map_filter; exact N]. rewrite !map_length, seq_length in I. lia.
Qed.
