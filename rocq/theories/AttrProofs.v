(** Proofs about what is said of texts. *)

From Coq Require Import List String Bool Arith.
From Verif Require Import AttrModel AttrSpec.
Import ListNotations.
Open Scope string_scope.

Lemma node_ind' : forall Q : node -> Prop,
  (forall s, Q (Text s)) -> (forall r, Q (Br r)) ->
  (forall i k a kids, Forall Q kids -> Q (El i k a kids)) -> forall n, Q n.
Proof.
  intros Q HT HB HE. fix IH 1. intros [s|r|i k a kids]; [apply HT|apply HB|].
  apply HE. induction kids as [|x xs IHr]; constructor; [apply IH|exact IHr].
Qed.

(** ** Roots *)

Definition over (c : attrs) (f : fact) : fact := mkFact (f_in f) (f_text f) (below c (f_said f)).

Lemma below_assoc : forall c b a, below c (below b a) = below (below c b) a.
Proof.
  intros [c1 c2 c3 c4] [b1 b2 b3 b4] [a1 a2 a3 a4]. unfold below. cbn.
  destruct a1, a2, a3, a4; reflexivity.
Qed.
Lemma below_none_r : forall c, below c none = c.
Proof. intros []. reflexivity. Qed.
Lemma below_none_l : forall a, below none a = a.
Proof. intros [[] [] [] []]; reflexivity. Qed.

Lemma flat_map_map : forall {A B C} (f : B -> C) (g : A -> list B) l,
  map f (flat_map g l) = flat_map (fun a => map f (g a)) l.
Proof. intros A B C f g l. induction l as [|a r IH]; [reflexivity|]. cbn [flat_map]. rewrite map_app, IH. reflexivity. Qed.
Lemma flat_map_ext_Forall : forall {A B} (f g : A -> list B) l,
  Forall (fun a => f a = g a) l -> flat_map f l = flat_map g l.
Proof. intros A B f g l F. induction F as [|a r E F IH]; [reflexivity|]. cbn [flat_map]. rewrite E, IH. reflexivity. Qed.

Lemma facts_over : forall n p c b, facts_in p (below c b) n = map (over c) (facts_in p b n).
Proof.
  induction n as [s|r|i k a kids F] using node_ind'; intros p c b; [reflexivity|reflexivity|].
  cbn [facts_in]. rewrite flat_map_map. apply flat_map_ext_Forall.
  eapply Forall_impl; [|exact F]. cbv beta. intros x H. rewrite <- below_assoc. apply H.
Qed.
Lemma facts_inside : forall d, facts d = map (over (root d)) (inside d).
Proof.
  intros d. unfold facts, inside. rewrite flat_map_map. apply flat_map_ext. intros n.
  rewrite <- facts_over, below_none_r. reflexivity.
Qed.

Lemma over_same : forall x y f, over x f = over y f <-> agree x y f.
Proof.
  intros [x1 x2 x3 x4] [y1 y2 y3 y4] [p t [a1 a2 a3 a4]]. unfold over, agree, agree1, below. cbn.
  split.
  - intros E. injection E as E1 E2 E3 E4.
    repeat split; [destruct a1|destruct a2|destruct a3|destruct a4]; cbn in *;
      solve [left; discriminate | right; assumption].
  - intros [H1 [H2 [H3 H4]]].
    assert (forall a x y : option string, a <> None \/ x = y -> nearer a x = nearer a y) as N.
    { intros [v|] x y [H| ->]; try reflexivity. contradiction H; reflexivity. }
    rewrite (N _ _ _ H1), (N _ _ _ H2), (N _ _ _ H3), (N _ _ _ H4). reflexivity.
Qed.
Lemma map_over_same : forall x y l, map (over x) l = map (over y) l <-> Forall (agree x y) l.
Proof.
  intros x y l. induction l as [|f r IH]; [split; constructor|]. cbn [map]. split.
  - intros E. constructor; [apply over_same; exact (f_equal (hd (over x f)) E)|].
    apply IH. exact (f_equal (@tl fact) E).
  - intros F. inversion F as [|? ? H F']; subst. apply over_same in H. apply IH in F'. congruence.
Qed.
Lemma filter_over : forall keep c l, filter (kept keep) (map (over c) l) = map (over c) (filter (kept keep) l).
Proof.
  intros keep c l. induction l as [|f r IH]; [reflexivity|]. cbn [map filter].
  change (kept keep (over c f)) with (kept keep f). destruct (kept keep f); cbn [map]; rewrite IH; reflexivity.
Qed.

(** ** Copies *)

Lemma copy_attrs_same : forall i k a kids, legal_node (El i k a kids) = true -> copy_attrs k a = a.
Proof.
  intros i k [s l g r] kids L. cbn in L. destruct k; unfold copy_attrs; cbn; [|reflexivity|reflexivity].
  destruct s, l; try discriminate L. reflexivity.
Qed.

Lemma facts_copy : forall keep n p c, legal_node n = true -> forallb keep p = true ->
  flat_map (facts_in p c) (copy keep n) = filter (kept keep) (facts_in p c n).
Proof.
  intros keep. induction n as [s|r|i k a kids F] using node_ind'; intros p c L K.
  - cbn [copy facts_in flat_map app filter]. unfold kept. cbn [f_in]. rewrite K. reflexivity.
  - cbn [copy facts_in flat_map app filter]. unfold kept. cbn [f_in]. rewrite K. reflexivity.
  - cbn [copy]. destruct (keep i) eqn:Ki.
    + rewrite (copy_attrs_same i k a kids L). cbn [flat_map facts_in]. rewrite app_nil_r.
      cbn [legal_node] in L. apply andb_true_iff in L. destruct L as [_ L].
      induction F as [|x xs H F IH]; [reflexivity|]. cbn [forallb] in L. apply andb_true_iff in L. destruct L as [Lx L].
      cbn [flat_map]. rewrite flat_map_app, filter_app, IH by exact L. f_equal.
      apply H; [exact Lx|]. cbn [forallb]. rewrite Ki. exact K.
    + assert (forall m q, In i q -> filter (kept keep) (facts_in q (below c a) m) = [] /\
        forall c', filter (kept keep) (facts_in q c' m) = []) as G.
      { induction m as [s|r|j kk b ks Fm] using node_ind'; intros q Hq.
        - assert (forallb keep q = false) as E.
          { apply not_true_iff_false. intros E. rewrite forallb_forall in E. rewrite (E i Hq) in Ki. discriminate Ki. }
          cbn [facts_in filter]. unfold kept. cbn [f_in]. rewrite E. split; reflexivity.
        - assert (forallb keep q = false) as E.
          { apply not_true_iff_false. intros E. rewrite forallb_forall in E. rewrite (E i Hq) in Ki. discriminate Ki. }
          cbn [facts_in filter]. unfold kept. cbn [f_in]. rewrite E. split; reflexivity.
        - assert (forall c', filter (kept keep) (facts_in q c' (El j kk b ks)) = []) as E.
          { intros c'. cbn [facts_in]. induction Fm as [|x xs H Fm IH]; [reflexivity|].
            cbn [flat_map]. rewrite filter_app, IH.
            destruct (H (j :: q) (or_intror Hq)) as [_ ->]. reflexivity. }
          split; [apply E|exact E]. }
      cbn [flat_map facts_in]. clear - G.
      induction kids as [|x xs IH]; [reflexivity|]. cbn [flat_map]. rewrite filter_app, <- IH.
      destruct (G x (i :: p) (or_introl eq_refl)) as [-> _]. reflexivity.
Qed.

Lemma legal_copy : forall keep n, legal_node n = true -> forallb legal_node (copy keep n) = true.
Proof.
  intros keep. induction n as [s|r|i k a kids F] using node_ind'; intros L; try reflexivity.
  cbn [copy]. destruct (keep i); [|reflexivity]. rewrite (copy_attrs_same i k a kids L).
  cbn [forallb legal_node] in *. apply andb_true_iff in L. destruct L as [-> L]. cbn [andb]. rewrite andb_true_r.
  induction F as [|x xs H F IH]; [reflexivity|]. cbn [forallb flat_map] in *. apply andb_true_iff in L. destruct L as [Lx L].
  rewrite forallb_app, (H Lx), (IH L). reflexivity.
Qed.

Lemma inside_segment : forall keep d, legal d = true ->
  inside (segment keep d) = filter (kept keep) (inside d).
Proof.
  intros keep d L. unfold inside, segment. cbn [b_kids]. unfold legal in L. apply andb_true_iff in L. destruct L as [_ L].
  induction (b_kids d) as [|x xs IH]; [reflexivity|]. cbn [flat_map forallb] in *. apply andb_true_iff in L. destruct L as [Lx L].
  rewrite flat_map_app, filter_app, (IH L), (facts_copy keep x [] none Lx eq_refl). reflexivity.
Qed.
Lemma legal_segment : forall keep d, legal d = true -> legal (segment keep d) = true.
Proof.
  intros keep d L. unfold legal in *. cbn [segment b_kids]. apply andb_true_iff in L. destruct L as [D L].
  induction (b_kids d) as [|x xs IH]; [reflexivity|]. cbn [flat_map forallb] in *.
  apply andb_true_iff in D, L. destruct D as [Dx D], L as [Lx L]. rewrite !forallb_app.
  specialize (IH D L). apply andb_true_iff in IH. destruct IH as [-> ->].
  rewrite (legal_copy keep x Lx), !andb_true_r. destruct x as [s|r|i [| |] a kids]; try discriminate Dx.
  cbn [copy]. destruct (keep i); reflexivity.
Qed.
Lemma root_segment : forall keep d, root (segment keep d) = unspaced (root d).
Proof. reflexivity. Qed.

Theorem segment_same : forall keep d, legal d = true ->
  facts (segment keep d) = filter (kept keep) (facts d) <->
  (d_space d = None \/ Forall (fun f => a_space (f_said f) <> None) (filter (kept keep) (inside d))).
Proof.
  intros keep d L. rewrite !facts_inside, inside_segment, filter_over, map_over_same by exact L.
  rewrite root_segment. generalize (filter (kept keep) (inside d)). intros l.
  unfold agree, agree1. cbn [unspaced root a_space a_lang a_agent a_role].
  split.
  - destruct (d_space d) as [v|]; [|left; reflexivity]. intros F. right.
    eapply Forall_impl; [|exact F]. cbv beta. intros f [[H|H] _]; [exact H|discriminate H].
  - intros [->|F]; [apply Forall_forall; intros; repeat split; right; reflexivity|].
    eapply Forall_impl; [|exact F]. cbv beta. intros f H. repeat split; try (right; reflexivity). left. exact H.
Qed.
Theorem segment_besides : forall keep d, legal d = true ->
  map besides_space (facts (segment keep d)) = map besides_space (filter (kept keep) (facts d)).
Proof.
  intros keep d L. rewrite !facts_inside, inside_segment, filter_over by exact L. rewrite !map_map.
  apply map_ext. intros f. reflexivity.
Qed.

(** ** Joining *)

Lemma facts_recopy : forall n p c, legal_node n = true -> facts_in p c (recopy n) = facts_in p c n.
Proof.
  induction n as [s|r|i k a kids F] using node_ind'; intros p c L; try reflexivity.
  cbn [recopy]. rewrite (copy_attrs_same i k a kids L). cbn [facts_in].
  cbn [legal_node] in L. apply andb_true_iff in L. destruct L as [_ L].
  induction F as [|x xs H F IH]; [reflexivity|]. cbn [forallb map flat_map] in *. apply andb_true_iff in L. destruct L as [Lx L].
  rewrite (H _ _ Lx), (IH L). reflexivity.
Qed.
Lemma legal_recopy : forall n, legal_node n = true -> legal_node (recopy n) = true.
Proof.
  induction n as [s|r|i k a kids F] using node_ind'; intros L; try reflexivity.
  cbn [recopy]. rewrite (copy_attrs_same i k a kids L). cbn [legal_node] in *.
  apply andb_true_iff in L. destruct L as [-> L]. cbn [andb].
  induction F as [|x xs H F IH]; [reflexivity|]. cbn [forallb map] in *. apply andb_true_iff in L. destruct L as [Lx L].
  rewrite (H Lx), (IH L). reflexivity.
Qed.
Lemma inside_recopy : forall l, forallb legal_node l = true ->
  flat_map (facts_in [] none) (map recopy l) = flat_map (facts_in [] none) l.
Proof.
  induction l as [|x xs IH]; intros L; [reflexivity|]. cbn [map flat_map forallb] in *. apply andb_true_iff in L.
  destruct L as [Lx L]. rewrite facts_recopy, IH by assumption. reflexivity.
Qed.
Lemma inside_merge : forall d e, legal d = true -> legal e = true -> inside (merge d e) = (inside d ++ inside e)%list.
Proof.
  intros d e Ld Le. unfold legal in *. apply andb_true_iff in Ld, Le. destruct Ld as [_ Ld], Le as [_ Le].
  unfold inside, merge. cbn [b_kids]. rewrite flat_map_app, !inside_recopy by assumption. reflexivity.
Qed.
Lemma legal_merge : forall d e, legal d = true -> legal e = true -> legal (merge d e) = true.
Proof.
  intros d e Ld Le. unfold legal in *. apply andb_true_iff in Ld, Le. destruct Ld as [Dd Ld], Le as [De Le].
  cbn [merge b_kids]. rewrite !forallb_app.
  assert (forall l, forallb is_div l = true -> forallb is_div (map recopy l) = true) as D.
  { induction l as [|x xs IH]; intros H; [reflexivity|]. cbn [map forallb] in *. apply andb_true_iff in H.
    destruct H as [Hx H]. rewrite (IH H). destruct x as [s|r|i [| |] a kids]; try discriminate Hx. reflexivity. }
  assert (forall l, forallb legal_node l = true -> forallb legal_node (map recopy l) = true) as R.
  { induction l as [|x xs IH]; intros H; [reflexivity|]. cbn [map forallb] in *. apply andb_true_iff in H.
    destruct H as [Hx H]. rewrite (IH H), (legal_recopy x Hx). reflexivity. }
  rewrite !D, !R by assumption. reflexivity.
Qed.

Lemma splice_inside : forall r d, legal d = true -> forallb legal r = true ->
  inside (splice d r) = flat_map inside (d :: r) /\ root (splice d r) = root d /\
  legal (splice d r) = true /\ d_agents (splice d r) = d_agents d.
Proof.
  induction r as [|e r IH]; intros d Ld L.
  - cbn [splice fold_left flat_map]. rewrite app_nil_r. repeat split. exact Ld.
  - cbn [forallb] in L. apply andb_true_iff in L. destruct L as [Le L].
    change (splice d (e :: r)) with (splice (merge d e) r).
    destruct (IH (merge d e) (legal_merge d e Ld Le) L) as [I [R [G A]]].
    rewrite I, R, G, A. cbn [flat_map]. rewrite inside_merge by assumption. rewrite app_assoc. repeat split.
Qed.

Lemma app_same : forall {A} (a b c d : list A), List.length a = List.length c ->
  (a ++ b = c ++ d <-> a = c /\ b = d)%list.
Proof.
  intros A a. induction a as [|x a IH]; intros b [|y c] d L; try discriminate L.
  - cbn. split; [intros ->; split; reflexivity|intros [_ ->]; reflexivity].
  - cbn. injection L as L. split.
    + intros E. injection E as -> E. apply IH in E; [|exact L]. destruct E as [-> ->]. split; reflexivity.
    + intros [E ->]. injection E as -> ->. reflexivity.
Qed.
Lemma flat_map_same : forall (x : attrs) (r : list doc),
  map (over x) (flat_map inside r) = flat_map facts r <->
  Forall (fun e => Forall (agree x (root e)) (inside e)) r.
Proof.
  intros x r. induction r as [|e r IH]; [split; constructor|]. cbn [flat_map].
  rewrite map_app, facts_inside, app_same by (rewrite !map_length; reflexivity).
  rewrite map_over_same, IH. split.
  - intros [H F]. constructor; assumption.
  - intros F. inversion F; subst. split; assumption.
Qed.

Theorem splice_same : forall d r, legal d = true -> forallb legal r = true ->
  facts (splice d r) = flat_map facts (d :: r) <->
  Forall (fun e => Forall (agree (root d) (root e)) (inside e)) r.
Proof.
  intros d r Ld L. destruct (splice_inside r d Ld L) as [I [R _]]. rewrite facts_inside, I, R.
  cbn [flat_map]. rewrite map_app, (facts_inside d), app_same by (rewrite !map_length; reflexivity).
  rewrite flat_map_same. split; [intros [_ H]; exact H|intros H; split; [reflexivity|exact H]].
Qed.

(** ** Whole segments of sequences *)

Definition wanted (p : (nat -> bool) * doc) : list fact := filter (kept (fst p)) (facts (snd p)).

Theorem resegment_same : forall lang p l, forallb (fun q => legal (snd q)) (p :: l) = true ->
  facts (resegment lang (p :: l)) = flat_map wanted (p :: l) <->
  Forall (fun q => Forall (agree (unspaced (root (snd p))) (root (snd q)))
                          (filter (kept (fst q)) (inside (snd q)))) (p :: l).
Proof.
  intros lang p l L. unfold resegment. cbn [map].
  set (seg := fun q : (nat -> bool) * doc => segment (fst q) (snd q)).
  assert (forallb legal (map seg (p :: l)) = true) as LS.
  { clear - L. induction (p :: l) as [|q r IH]; [reflexivity|]. cbn [forallb map] in *. apply andb_true_iff in L.
    destruct L as [Lq L]. rewrite (IH L). unfold seg. rewrite legal_segment by exact Lq. reflexivity. }
  cbn [map forallb] in LS. apply andb_true_iff in LS. destruct LS as [LP LS].
  change (segment (fst p) (snd p)) with (seg p). change (fun p0 => segment (fst p0) (snd p0)) with seg.
  destruct (splice_inside (map seg l) (seg p) LP LS) as [I [R _]]. rewrite facts_inside, I, R.
  change (root (seg p)) with (unspaced (root (snd p))).
  change (seg p :: map seg l) with (map seg (p :: l)). generalize (unspaced (root (snd p))). intros x. clear - L.
  induction (p :: l) as [|q r IH]; [split; constructor|]. cbn [map flat_map forallb] in *.
  apply andb_true_iff in L. destruct L as [Lq L]. specialize (IH L).
  unfold seg at 1. rewrite map_app, inside_segment by exact Lq. unfold wanted at 1.
  rewrite facts_inside, filter_over, app_same by (rewrite !map_length; reflexivity).
  rewrite map_over_same, IH. split.
  - intros [H F]. constructor; assumption.
  - intros F. inversion F; subst. split; assumption.
Qed.

(** ** EBU-TT-D *)

Lemma facts_convert : forall n p c, legal_node n = true ->
  facts_in p c (convert_node n) = facts_in p c (unroled n).
Proof.
  induction n as [s|r|i k a kids F] using node_ind'; intros p c L; try reflexivity.
  cbn [legal_node] in L. apply andb_true_iff in L. destruct L as [La L].
  assert (forall q b, flat_map (facts_in q b) (map convert_node kids) = flat_map (facts_in q b) (map unroled kids)) as G.
  { intros q b. induction F as [|x xs H F IH]; [reflexivity|]. cbn [forallb map flat_map] in *.
    apply andb_true_iff in L. destruct L as [Lx L]. rewrite (H _ _ Lx), (IH L). reflexivity. }
  destruct k; cbn [convert_node unroled facts_in convert_attrs]; rewrite G; try reflexivity.
  destruct a as [s l g r]. cbn in *. destruct s, l; try discriminate La. reflexivity.
Qed.
Theorem convert_facts : forall d, legal d = true -> facts (convert d) = facts (unroled_doc d).
Proof.
  intros d L. unfold legal in L. apply andb_true_iff in L. destruct L as [D L]. unfold convert, facts.
  destruct (b_kids d) as [|x xs] eqn:E.
  - cbn [existsb]. unfold unroled_doc. cbn. rewrite E. reflexivity.
  - assert (existsb is_div (x :: xs) = true) as -> by (cbn [forallb existsb] in *; apply andb_true_iff in D; destruct D as [-> _]; reflexivity).
    unfold unroled_doc. cbn [b_kids root d_space d_lang b_agent b_role]. rewrite E.
    change (root (mkDoc (d_space d) (d_lang d) [] (b_agent d) (b_role d) (map convert_node (x :: xs)))) with (root d).
    change (root (mkDoc (d_space d) (d_lang d) (d_agents d) (b_agent d) (b_role d) (map unroled (x :: xs)))) with (root d).
    clear E D. induction (x :: xs) as [|y ys IH]; [reflexivity|]. cbn [forallb map flat_map] in *.
    apply andb_true_iff in L. destruct L as [Ly L]. rewrite (facts_convert y _ _ Ly), (IH L). reflexivity.
Qed.
Lemma unroled_same : forall n, div_roles n = false -> unroled n = n.
Proof.
  induction n as [s|r|i k a kids F] using node_ind'; intros D; try reflexivity.
  cbn [div_roles] in D. apply orb_false_iff in D. destruct D as [Da D].
  assert (map unroled kids = kids) as G.
  { induction F as [|x xs H F IH]; [reflexivity|]. cbn [existsb map] in *. apply orb_false_iff in D. destruct D as [Dx D].
    rewrite (H Dx), (IH D). reflexivity. }
  destruct k; cbn [unroled]; rewrite G; try reflexivity.
  destruct a as [s l g [r|]]; [discriminate Da|reflexivity].
Qed.

Lemma roles_copy : forall keep n, div_roles n = false -> existsb div_roles (copy keep n) = false.
Proof.
  intros keep. induction n as [s|r|i k a kids F] using node_ind'; intros D; try reflexivity.
  cbn [copy]. destruct (keep i); [|reflexivity]. cbn [existsb div_roles] in *. rewrite orb_false_r.
  apply orb_false_iff in D. destruct D as [Da D]. apply orb_false_iff. split; [exact Da|].
  induction F as [|x xs H F IH]; [reflexivity|]. cbn [existsb flat_map] in *. apply orb_false_iff in D. destruct D as [Dx D].
  rewrite existsb_app, (H Dx), (IH D). reflexivity.
Qed.
Lemma roles_recopy : forall n, div_roles n = false -> div_roles (recopy n) = false.
Proof.
  induction n as [s|r|i k a kids F] using node_ind'; intros D; try reflexivity.
  cbn [recopy div_roles] in *. apply orb_false_iff in D. destruct D as [Da D]. apply orb_false_iff. split; [exact Da|].
  induction F as [|x xs H F IH]; [reflexivity|]. cbn [existsb map] in *. apply orb_false_iff in D. destruct D as [Dx D].
  rewrite (H Dx), (IH D). reflexivity.
Qed.
Definition no_div_roles (d : doc) : bool := negb (existsb div_roles (b_kids d)).
Lemma roles_segment : forall keep d, no_div_roles d = true -> no_div_roles (segment keep d) = true.
Proof.
  intros keep d D. unfold no_div_roles in *. apply negb_true_iff in D. apply negb_true_iff. cbn [segment b_kids].
  induction (b_kids d) as [|x xs IH]; [reflexivity|]. cbn [existsb flat_map] in *. apply orb_false_iff in D. destruct D as [Dx D].
  rewrite existsb_app, (roles_copy keep x Dx), (IH D). reflexivity.
Qed.
Lemma roles_merge : forall d e, no_div_roles d = true -> no_div_roles e = true -> no_div_roles (merge d e) = true.
Proof.
  intros d e Dd De. unfold no_div_roles in *. apply negb_true_iff in Dd, De. apply negb_true_iff. cbn [merge b_kids].
  assert (forall l, existsb div_roles l = false -> existsb div_roles (map recopy l) = false) as G.
  { induction l as [|x xs IH]; intros D; [reflexivity|]. cbn [existsb map] in *. apply orb_false_iff in D. destruct D as [Dx D].
    rewrite (roles_recopy x Dx), (IH D). reflexivity. }
  rewrite existsb_app, !G by assumption. reflexivity.
Qed.
Lemma roles_splice : forall r d, no_div_roles d = true -> forallb no_div_roles r = true -> no_div_roles (splice d r) = true.
Proof.
  induction r as [|e r IH]; intros d D L; [exact D|]. cbn [forallb] in L. apply andb_true_iff in L. destruct L as [Le L].
  change (splice d (e :: r)) with (splice (merge d e) r). apply IH; [apply roles_merge; assumption|exact L].
Qed.
Lemma roles_resegment : forall lang l, forallb (fun q => no_div_roles (snd q)) l = true ->
  no_div_roles (resegment lang l) = true.
Proof.
  intros lang l L. unfold resegment.
  assert (forallb no_div_roles (map (fun p : (nat -> bool) * doc => segment (fst p) (snd p)) l) = true) as G.
  { induction l as [|q r IH]; [reflexivity|]. cbn [forallb map] in *. apply andb_true_iff in L. destruct L as [Lq L].
    rewrite (IH L), roles_segment by exact Lq. reflexivity. }
  destruct (map _ l) as [|d r]; [reflexivity|]. cbn [forallb] in G. apply andb_true_iff in G. destruct G as [Gd G].
  apply roles_splice; assumption.
Qed.
Lemma legal_resegment : forall lang l, forallb (fun q => legal (snd q)) l = true -> legal (resegment lang l) = true.
Proof.
  intros lang l L. unfold resegment.
  assert (forallb legal (map (fun p : (nat -> bool) * doc => segment (fst p) (snd p)) l) = true) as G.
  { induction l as [|q r IH]; [reflexivity|]. cbn [forallb map] in *. apply andb_true_iff in L. destruct L as [Lq L].
    rewrite (IH L), legal_segment by exact Lq. reflexivity. }
  destruct (map _ l) as [|d r]; [reflexivity|]. cbn [forallb] in G. apply andb_true_iff in G. destruct G as [Gd G].
  apply (splice_inside r d Gd G).
Qed.

Lemma convert_same : forall d, legal d = true -> no_div_roles d = true -> facts (convert d) = facts d.
Proof.
  intros d L D. rewrite (convert_facts d L). unfold facts, unroled_doc. cbn [b_kids].
  unfold no_div_roles in D. apply negb_true_iff in D.
  assert (map unroled (b_kids d) = b_kids d) as ->; [|reflexivity].
  induction (b_kids d) as [|x xs IH]; [reflexivity|]. cbn [existsb map] in *. apply orb_false_iff in D. destruct D as [Dx D].
  apply andb_true_iff in L. destruct L as [L1 L2].
  rewrite (unroled_same x Dx). f_equal. clear - D.
  induction xs as [|y ys IH]; [reflexivity|]. cbn [existsb map] in *. apply orb_false_iff in D. destruct D as [Dy D].
  rewrite (unroled_same y Dy), (IH D). reflexivity.
Qed.

Lemma agents_splice : forall r d, d_agents (splice d r) = d_agents d.
Proof. induction r as [|e r IH]; intros d; [reflexivity|]. change (splice d (e :: r)) with (splice (merge d e) r). rewrite IH. reflexivity. Qed.
Lemma agents_resegment : forall lang l, d_agents (resegment lang l) = [].
Proof. intros lang [|q r]; [reflexivity|]. unfold resegment. cbn [map]. apply agents_splice. Qed.

(** ** Line breaks *)

Lemma breaks_copy : forall keep n, Forall (eq None) (flat_map br_roles (copy keep n)).
Proof.
  intros keep. induction n as [s|r|i k a kids F] using node_ind'; [constructor|repeat constructor|].
  cbn [copy]. destruct (keep i); [|constructor]. cbn [flat_map br_roles]. rewrite app_nil_r.
  induction F as [|x xs H F IH]; [constructor|]. cbn [flat_map]. rewrite flat_map_app. apply Forall_app. split; assumption.
Qed.
Lemma breaks_recopy : forall n, Forall (eq None) (br_roles (recopy n)).
Proof.
  induction n as [s|r|i k a kids F] using node_ind'; [constructor|repeat constructor|].
  cbn [recopy br_roles]. induction F as [|x xs H F IH]; [constructor|]. cbn [map flat_map]. apply Forall_app. split; assumption.
Qed.
Lemma breaks_convert : forall n, Forall (eq None) (br_roles (convert_node n)).
Proof.
  induction n as [s|r|i k a kids F] using node_ind'; [constructor|repeat constructor|].
  cbn [convert_node br_roles]. induction F as [|x xs H F IH]; [constructor|]. cbn [map flat_map]. apply Forall_app. split; assumption.
Qed.
Lemma breaks_list : forall (f : node -> node) l, (forall n, Forall (eq None) (br_roles (f n))) ->
  Forall (eq None) (flat_map br_roles (map f l)).
Proof. intros f l H. induction l as [|x xs IH]; [constructor|]. cbn [map flat_map]. apply Forall_app. split; [apply H|exact IH]. Qed.
Lemma breaks_resegment : forall lang l, Forall (eq None) (flat_map br_roles (b_kids (resegment lang l))).
Proof.
  intros lang l. unfold resegment.
  assert (Forall (fun d => Forall (eq None) (flat_map br_roles (b_kids d)))
    (map (fun p : (nat -> bool) * doc => segment (fst p) (snd p)) l)) as G.
  { induction l as [|q r IH]; constructor; [|exact IH]. cbn [segment b_kids].
    induction (b_kids (snd q)) as [|x xs IHx]; [constructor|]. cbn [flat_map]. rewrite flat_map_app.
    apply Forall_app. split; [apply breaks_copy|exact IHx]. }
  destruct (map _ l) as [|d r]; [constructor|]. inversion G as [|? ? Gd Gr]; subst. clear - Gd Gr.
  revert d Gd. induction r as [|e r IH]; intros d Gd; [exact Gd|].
  change (splice d (e :: r)) with (splice (merge d e) r). inversion Gr; subst. apply IH; [assumption|].
  cbn [merge b_kids]. rewrite flat_map_app. apply Forall_app. split; apply breaks_list, breaks_recopy.
Qed.
