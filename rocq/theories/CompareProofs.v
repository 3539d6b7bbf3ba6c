(** Proofs about the comparison of XML texts. *)

From Coq Require Import List String Ascii Bool Arith Permutation Relations Lia.
From Verif Require Import CompareModel CompareSpec.
Import ListNotations.
Open Scope string_scope.

(** ** White space *)

Lemma white_iff : forall c, white c = true <-> is_white c.
Proof.
  intros c. unfold white, is_white. cbn [In]. rewrite !orb_true_iff, !Ascii.eqb_eq.
  intuition congruence.
Qed.

Lemma many_one : forall v, norm_from RMany v = norm_from (ROne " ") v.
Proof. intros [|c v]; cbn [norm_from flush push]; [reflexivity|]. destruct (white c); reflexivity. Qed.

Lemma squeeze_from : forall u r c d v, white c = true -> white d = true ->
  norm_from r (u ++ String c (String d v)) = norm_from r (u ++ String " " v).
Proof.
  induction u as [|x u IH]; intros r c d v C D; cbn [append norm_from].
  - rewrite C, D. change (white " ") with true. cbn iota. destruct r; cbn [push]; try reflexivity. apply many_one.
  - destruct (white x); rewrite IH by assumption; reflexivity.
Qed.

Lemma append_assoc : forall a b c : string, (a ++ b) ++ c = a ++ b ++ c.
Proof. induction a as [|x a IH]; intros b c; cbn [append]; [reflexivity|]. now rewrite IH. Qed.
Lemma append_nil : forall a : string, a ++ "" = a.
Proof. induction a as [|x a IH]; cbn [append]; [reflexivity|]. now rewrite IH. Qed.

Lemma same_text_context : forall w s t, same_text s t -> same_text (w ++ s) (w ++ t).
Proof.
  intros w s t H. induction H as [s t (u & c & d & v & C & D & E & F)|s|s t _ IH|s t r _ IH1 _ IH2].
  - apply rst_step. exists (w ++ u), c, d, v. rewrite !append_assoc, E, F. auto.
  - apply rst_refl.
  - now apply rst_sym.
  - now apply rst_trans with (w ++ t).
Qed.

Definition run_ok (r : run) : Prop := match r with ROne c => white c = true | _ => True end.
Lemma norm_reached : forall s r, run_ok r -> same_text (flush r ++ s) (norm_from r s).
Proof.
  induction s as [|c s IH]; intros r R; cbn [norm_from].
  - rewrite append_nil. apply rst_refl.
  - destruct (white c) eqn:W.
    + apply rst_trans with (flush (push r c) ++ s); [|apply IH; destruct r; cbn; auto].
      destruct r as [|x|]; cbn [flush push append run_ok] in *.
      * apply rst_refl.
      * apply rst_step. exists "", x, c, s. rewrite <- !white_iff. auto.
      * apply rst_step. exists "", " "%char, c, s. rewrite <- !white_iff. auto.
    + apply same_text_context. exact (same_text_context (String c "") _ _ (IH RNone Logic.I)).
Qed.

Lemma norm_iff : forall s t, norm_whitespace s = norm_whitespace t <-> same_text s t.
Proof.
  intros s t. split.
  - intros H. apply rst_trans with (norm_whitespace s); [exact (norm_reached s RNone Logic.I)|].
    rewrite H. apply rst_sym. exact (norm_reached t RNone Logic.I).
  - intros H. induction H as [s t (u & c & d & v & C & D & E & F)|s|s t _ IH|s t r _ IH1 _ IH2]; try congruence.
    subst. unfold norm_whitespace. apply squeeze_from; now apply white_iff.
Qed.

Lemma norm_tight_from : forall s, tight s ->
  norm_from RNone s = s /\
  forall c, white c = true -> match s with String d _ => white d = false | _ => True end -> norm_from (ROne c) s = String c s.
Proof.
  induction s as [|c s IH]; intros T; [split; [reflexivity|intros; reflexivity]|].
  destruct T as [T1 T2]. destruct (IH T2) as [I1 I2]. split.
  - cbn [norm_from]. destruct (white c) eqn:W; cbn [push flush append]; [|now rewrite I1].
    apply I2; [assumption|]. destruct s as [|d s]; [exact Logic.I|].
    destruct (white d) eqn:D; [|reflexivity]. exfalso. apply T1. now rewrite <- !white_iff.
  - intros x X F. cbn [norm_from]. rewrite F. cbn [flush append]. now rewrite I1.
Qed.
Lemma norm_tight : forall s, tight s -> norm_whitespace s = s.
Proof. intros s T. apply (norm_tight_from s T). Qed.

(** ** Content *)

Lemma child_text_spec : forall l, child_text l = text_of l.
Proof.
  unfold text_of. induction l as [|x l IH]; [reflexivity|]. cbn [map child_text]. rewrite IH.
  destruct (map _ l) eqn:M; cbn [String.concat]; destruct x; cbn [append]; rewrite ?append_nil; reflexivity.
Qed.
Lemma children_spec : forall l, children l = elements l.
Proof. induction l as [|[] l IH]; cbn; unfold children, elements in *; cbn; congruence. Qed.

(** ** Attributes *)

Lemma lookup_in : forall k v l, lookup k l = Some v -> In (k, v) l.
Proof.
  induction l as [|[k' v'] l IH]; cbn [lookup]; [discriminate|].
  destruct (String.eqb_spec k k') as [->|]; intros H; [injection H as ->; now left|right; auto].
Qed.
Lemma in_lookup : forall k v l, NoDup (map fst l) -> In (k, v) l -> lookup k l = Some v.
Proof.
  induction l as [|[k' v'] l IH]; intros N H; [destruct H|]. cbn [map fst] in N. inversion N as [|x y N1 N2]; subst.
  cbn [lookup]. destruct H as [H|H].
  - injection H as -> ->. now rewrite String.eqb_refl.
  - destruct (String.eqb_spec k k') as [->|]; [|auto]. exfalso. apply N1. apply in_map_iff. exists (k', v). auto.
Qed.
Lemma lookup_perm : forall k a b, NoDup (map fst a) -> Permutation a b -> lookup k a = lookup k b.
Proof.
  intros k a b N P.
  assert (N' : NoDup (map fst b)) by (apply (Permutation_NoDup (Permutation_map fst P) N)).
  destruct (lookup k a) as [v|] eqn:A; symmetry.
  - apply in_lookup; [assumption|]. apply (Permutation_in _ P). now apply lookup_in.
  - destruct (lookup k b) as [v|] eqn:B; [|reflexivity].
    apply lookup_in in B. apply (Permutation_in _ (Permutation_sym P)) in B. apply in_lookup in B; congruence.
Qed.

Lemma dict_iff : forall a b, NoDup (map fst a) -> NoDup (map fst b) -> (dict_eqb a b = true <-> Permutation a b).
Proof.
  intros a b N N'. unfold dict_eqb. rewrite andb_true_iff, Nat.eqb_eq, forallb_forall. split.
  - intros [L F]. apply NoDup_Permutation_bis; [now apply NoDup_map_inv in N|lia|].
    intros [k v] H. specialize (F _ H). cbn [fst snd] in F. destruct (lookup k b) as [v'|] eqn:B; [|discriminate].
    apply String.eqb_eq in F. subst. now apply lookup_in.
  - intros P. split; [now apply Permutation_length|]. intros [k v] H. cbn [fst snd].
    rewrite (in_lookup k v b N' (Permutation_in _ P H)). apply String.eqb_refl.
Qed.

(** ** Elements *)

Fixpoint node_rect' (P : node -> Prop)
  (HE : forall t a ks, Forall P ks -> P (Elem t a ks))
  (HT : forall s, P (Text s)) (HD : forall s, P (Cdata s)) (HC : forall s, P (Comment s)) (HI : forall s, P (Instr s))
  (x : node) {struct x} : P x :=
  match x with
  | Elem t a ks => HE t a ks ((fix go (l : list node) : Forall P l :=
      match l with
      | [] => Forall_nil P
      | y :: r => Forall_cons y (node_rect' P HE HT HD HC HI y) (go r)
      end) ks)
  | Text s => HT s
  | Cdata s => HD s
  | Comment s => HC s
  | Instr s => HI s
  end.

Fixpoint check_all (l gs : list node) : bool :=
  match l, gs with
  | [], [] => true
  | x :: l', g :: gs' => check_element x g && check_all l' gs'
  | _, _ => false
  end.

Lemma check_elem : forall t a ks t' a' ks',
  check_element (Elem t a ks) (Elem t' a' ks') =
  String.eqb t t' && String.eqb (norm_whitespace (text_of ks)) (norm_whitespace (text_of ks')) &&
  dict_eqb a a' && check_all (elements ks) (elements ks').
Proof.
  intros. cbn [check_element]. rewrite !child_text_spec, children_spec. f_equal.
  generalize (elements ks'). clear. induction ks as [|x ks IH]; intros gs; [destruct gs; reflexivity|].
  destruct x; cbn [is_elem elements flat_map app]; try apply IH.
  cbn [check_all]. destruct gs as [|g gs]; [reflexivity|]. now rewrite IH.
Qed.

Lemma elements_forall : forall P l, Forall P l -> Forall P (elements l).
Proof.
  intros P l H. induction H as [|x l Hx _ IH]; [constructor|]. destruct x; cbn [elements flat_map app]; auto.
Qed.

Lemma check_iff : forall w g, wf w -> wf g -> (check_element w g = true <-> same w g).
Proof.
  induction w as [t a ks IH|s|s|s|s] using node_rect'; intros g W G;
    try (split; [discriminate|intros H; inversion H]).
  destruct g as [t' a' ks'| | | |]; try (split; [discriminate|intros H; inversion H]).
  inversion W as [? ? ? Na Wk| | | |]; subst. inversion G as [? ? ? Na' Gk| | | |]; subst.
  rewrite check_elem, !andb_true_iff, !String.eqb_eq, norm_iff, (dict_iff a a' Na Na').
  assert (A : check_all (elements ks) (elements ks') = true <-> Forall2 same (elements ks) (elements ks')).
  { apply elements_forall in IH, Wk, Gk. revert IH Wk Gk. generalize (elements ks) as l, (elements ks') as gs. clear.
    induction l as [|x l IHl]; intros [|g gs] H W G; cbn [check_all];
      try (split; [discriminate|intros F; inversion F]); [split; auto|].
    inversion H; inversion W; inversion G; subst. rewrite andb_true_iff, IHl by assumption.
    match goal with K : forall g, wf x -> _ |- _ => rewrite (K g) by assumption end.
    split; [intros []; now constructor|intros F; inversion F; auto]. }
  rewrite A. split.
  - intros [[[-> T] P] F]. now constructor.
  - intros H. inversion H; subst. auto.
Qed.

(** ** Equivalence *)

Lemma same_refl : forall t a ks, same (Elem t a ks) (Elem t a ks).
Proof.
  assert (R : forall x, is_elem x = true -> same x x).
  { induction x as [t a ks IH|s|s|s|s] using node_rect'; intros E; try discriminate.
    constructor; [apply Permutation_refl|apply rst_refl|].
    clear E. induction IH as [|x l Hx _ IHl]; [constructor|].
    destruct x; cbn [elements flat_map app]; try exact IHl. constructor; [now apply Hx|exact IHl]. }
  intros. now apply R.
Qed.

Lemma same_sym : forall w g, same w g -> same g w.
Proof.
  fix IH 3. intros w g [t a a' ks ks' P T F]. constructor; [now apply Permutation_sym|now apply rst_sym|].
  revert F. generalize (elements ks) (elements ks').
  fix IHl 3. intros l l' [|x y l1 l1' H R]; [constructor|]. constructor; [now apply IH|now apply IHl].
Qed.

Lemma elements_elements : forall l, Forall (fun x => is_elem x = true) (elements l).
Proof. induction l as [|[] l IH]; cbn [elements flat_map app]; try exact IH; constructor; auto. Qed.

Lemma same_trans : forall w g h, same w g -> same g h -> same w h.
Proof.
  fix IH 4. intros w g h H1 H2. destruct H1 as [t a a' ks ks' P T F]. inversion H2 as [t2 b b' ls ls' P2 T2 F2]; subst.
  constructor; [now apply Permutation_trans with a'|now apply rst_trans with (text_of ks')|].
  clear - IH F F2. revert F2. generalize (elements ls'). revert F. generalize (elements ks) (elements ks').
  fix IHl 3. intros l l' [|x y l1 l1' H R] k K; [exact K|].
  inversion K as [|? z ? k1 H' R']; subst. constructor; [exact (IH _ _ _ H H')|exact (IHl _ _ R _ R')].
Qed.

(** ** Namespaces *)

Lemma attributes_ext : forall e e' a, (forall p, e p = e' p) -> attributes e a = attributes e' a.
Proof.
  intros e e' a H. unfold attributes. apply map_ext. intros x. unfold attribute.
  destruct (split_name (fst x)) as [[p|] l]; [now rewrite H|reflexivity].
Qed.

Lemma filter_perm : forall {A} (f : A -> bool) l l', Permutation l l' -> Permutation (filter f l) (filter f l').
Proof.
  intros A f l l' P. induction P as [|x l l' P IH|x y l|]; cbn [filter]; auto.
  - destruct (f x); auto.
  - destruct (f x), (f y); auto. apply perm_swap.
  - now apply perm_trans with (filter f l').
Qed.

Lemma same_namespaces : forall w g, wf w -> same w g -> forall e e', (forall p, e p = e' p) -> same_ns e e' w g.
Proof.
  induction w as [t a ks IH|s|s|s|s] using node_rect'; intros g W H e e' E; inversion H as [? ? a' ? ks' P T F]; subst.
  inversion W as [? ? ? N Wk| | | |]; subst.
  assert (X : forall p, inner e a p = inner e' a' p).
  { intros p. unfold inner. rewrite (lookup_perm _ a a' N P), E. reflexivity. }
  constructor.
  - unfold element_name. destruct (split_name t) as [[p|] l]; now rewrite X.
  - rewrite (attributes_ext _ _ a X). apply Permutation_map, filter_perm, P.
  - exact T.
  - apply elements_forall in IH, Wk. clear - IH Wk F X. induction F as [|x y l l' H _ IHF]; [constructor|].
    inversion IH; inversion Wk; subst. constructor; auto.
Qed.

(** ** Exactness *)

Lemma elements_plain : forall ks, Forall plain ks -> elements ks = ks /\ text_of ks = "".
Proof.
  intros ks H. rewrite <- child_text_spec. induction H as [|x l Hx _ [I1 I2]]; [auto|].
  inversion Hx; subst; cbn [elements flat_map app child_text]; fold (elements l); rewrite I1; auto.
Qed.
Lemma plain_wf : forall w, plain w -> wf w.
Proof.
  induction w as [t a ks IH|s|s|s|s] using node_rect'; intros H; inversion H; subst.
  - constructor; [assumption|]. repeat constructor.
  - constructor; [assumption|]. rewrite Forall_forall in *. auto.
Qed.

Lemma exact : forall w, plain w -> forall g, plain g -> same w g -> equal w g.
Proof.
  induction w as [t a ks IH|s|s|s|s] using node_rect'; intros W g G H; inversion H as [? ? a' ? ks' P T F]; subst.
  apply norm_iff in T. constructor; [assumption|].
  assert (O : forall u, text_of [Text u] = u) by reflexivity.
  inversion W as [? ? s N0 S Ts|? ? ? N0 Wk]; subst; inversion G as [? ? s' N1 S' Ts'|? ? ? N1 Gk]; subst.
  - rewrite !O, !norm_tight in T by assumption. subst. repeat constructor.
  - destruct (elements_plain _ Gk) as [_ K]. rewrite K, O, norm_tight in T by assumption. now cbn in T.
  - destruct (elements_plain _ Wk) as [_ K]. rewrite K, O, (norm_tight s') in T by assumption. cbn in T. congruence.
  - destruct (elements_plain _ Wk) as [K _], (elements_plain _ Gk) as [K' _]. rewrite K, K' in F.
    clear - IH Wk Gk F. induction F as [|x y l l' H _ IHF]; [constructor|].
    inversion IH; inversion Wk; inversion Gk; subst. constructor; auto.
Qed.

Lemma equal_same : forall w, plain w -> forall g, equal w g -> same w g.
Proof.
  induction w as [t a ks IH|s|s|s|s] using node_rect'; intros W g H; inversion W; subst; inversion H as [|? ? a' ? ks' P F]; subst.
  - inversion F as [|? y ? ? H1 H2]; subst. inversion H1; subst. inversion H2; subst. constructor; [assumption|apply rst_refl|constructor].
  - assert (Q : Forall2 same (elements ks) (elements ks') /\ text_of ks' = text_of ks).
    { rewrite <- !child_text_spec. clear W H P.
      match goal with K : Forall plain ks |- _ => revert K end. clear - IH F.
      induction F as [|x y l l' H _ IHF]; intros K; [split; [constructor|reflexivity]|].
      inversion IH; inversion K; subst. destruct IHF as [I1 I2]; [assumption|assumption|].
      assert (Sxy : same x y) by auto. inversion Sxy; subst. cbn [elements flat_map app child_text].
      split; [now constructor|exact I2]. }
    destruct Q as [Q1 Q2]. constructor; [assumption|rewrite Q2; apply rst_refl|assumption].
Qed.
