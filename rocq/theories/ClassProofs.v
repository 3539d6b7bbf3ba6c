(** Proofs about the classes of components. *)

From Coq Require Import List Arith String Bool Lia.
From Verif Require Import ClassModel ClassSpec.
Import ListNotations.
Open Scope string_scope.

(** ** Equality of values *)

Lemma item_same_eq a b : item_same a b = true <-> a = b.
Proof.
  destruct a, b; cbn; split; intro H; try congruence;
    try (apply Nat.eqb_eq in H; congruence); try (injection H as ->; apply Nat.eqb_refl).
Qed.

Lemma both_same_eq l : forall m, both item_same l m = true <-> l = m.
Proof.
  induction l as [|a l IH]; intros [|b m]; cbn; split; intro H; try congruence.
  - apply andb_true_iff in H as [H1 H2]. apply item_same_eq in H1. apply IH in H2. congruence.
  - injection H as -> ->. apply andb_true_iff. split; [apply item_same_eq; auto|apply IH; auto].
Qed.

Lemma same_eq a b : same a b = true <-> a = b.
Proof.
  destruct a, b; cbn; split; intro H; try congruence;
    try (apply item_same_eq in H; congruence); try (apply both_same_eq in H; congruence).
  - destruct v, v0; cbn in H; congruence.
  - injection H as ->. destruct v0; reflexivity.
  - injection H as ->. apply item_same_eq; auto.
  - injection H as ->. apply both_same_eq; auto.
Qed.

Lemma both_item_eq_free l : forall m, forallb item_any_free l = true -> forallb item_any_free m = true ->
  both item_eq l m = true -> l = m.
Proof.
  induction l as [|a l IH]; intros [|b m]; cbn; intros Hl Hm H; try congruence.
  apply andb_true_iff in Hl as [Ha Hl]. apply andb_true_iff in Hm as [Hb Hm].
  apply andb_true_iff in H as [H1 H2]. f_equal; [|apply IH; auto].
  destruct a, b; cbn in *; try congruence; apply Nat.eqb_eq in H1; congruence.
Qed.

Lemma py_eq_free a b : any_free a = true -> any_free b = true -> py_eq a b = true -> a = b.
Proof.
  destruct a as [f| | | |[n| |n]|l], b as [g| | | |[m| |m]|r]; cbn; intros Ha Hb H; try congruence.
  - destruct f, g; cbn in H; congruence.
  - apply Nat.eqb_eq in H; congruence.
  - apply Nat.eqb_eq in H; congruence.
  - f_equal. apply both_item_eq_free; auto.
Qed.

Lemma item_eq_sym a b : item_eq a b = item_eq b a.
Proof. destruct a, b; cbn; auto using Nat.eqb_sym. Qed.

Lemma both_sym l : forall m, both item_eq l m = both item_eq m l.
Proof. induction l as [|a l IH]; intros [|b m]; cbn; auto. rewrite item_eq_sym, IH. reflexivity. Qed.

Lemma py_eq_sym a b : py_eq a b = py_eq b a.
Proof.
  destruct a as [f| | | |[n| |n]|l], b as [g| | | |[m| |m]|r]; cbn; auto using Nat.eqb_sym, both_sym.
  destruct f, g; reflexivity.
Qed.

Lemma item_eq_refl a : item_eq a a = true.
Proof. destruct a; cbn; auto using Nat.eqb_refl. Qed.
Lemma both_refl l : both item_eq l l = true.
Proof. induction l; cbn; auto. rewrite item_eq_refl; auto. Qed.
Lemma py_eq_refl a : py_eq a a = true.
Proof.
  destruct a as [f| | | |[n| |n]|l]; cbn; auto using Nat.eqb_refl, both_refl.
  destruct f; reflexivity.
Qed.

(** ** Lists *)

Lemma mem_in n l : mem n l = true <-> In n l.
Proof.
  unfold mem. rewrite existsb_exists. split.
  - intros (x & Hx & E). apply String.eqb_eq in E. congruence.
  - intro H. exists n. split; auto. apply String.eqb_refl.
Qed.

Lemma nmem_in n l : nmem n l = true <-> In n l.
Proof.
  unfold nmem. rewrite existsb_exists. split.
  - intros (x & Hx & E). apply Nat.eqb_eq in E. congruence.
  - intro H. exists n. split; auto. apply Nat.eqb_refl.
Qed.

Lemma no_twice_NoDup l : no_twice l = true -> NoDup l.
Proof.
  induction l as [|x l IH]; cbn; intro H; constructor; apply andb_true_iff in H as [H1 H2]; auto.
  intro Hin. apply nmem_in in Hin. rewrite Hin in H1. discriminate.
Qed.

Lemma Sub_in {A} (l m : list A) : Sub l m -> forall x, In x l -> In x m.
Proof. induction 1; cbn; intros y Hy; [contradiction|auto|destruct Hy; auto]. Qed.

Lemma Sub_refl {A} (l : list A) : Sub l l.
Proof. induction l; [constructor|constructor 3; auto]. Qed.

Lemma pick_ok all : forall heads h, pick heads all = Some h ->
  forallb (fun l => negb (in_tail h l)) all = true /\ exists l, In (h :: l) heads.
Proof.
  induction heads as [|[|x l] r IH]; cbn; intros h H; try discriminate.
  - destruct (IH _ H) as (H1 & l' & H2). eauto.
  - destruct (existsb (in_tail x) all) eqn:E.
    + destruct (IH _ H) as (H1 & l' & H2). eauto.
    + injection H as ->. split; eauto. apply forallb_forall. intros l' Hl'.
      destruct (in_tail h l') eqn:T; auto.
      assert (existsb (in_tail h) all = true) by (apply existsb_exists; eauto). congruence.
Qed.

Lemma drop_not_in h l : in_tail h l = false -> ~ In h (drop h l).
Proof.
  destruct l as [|x t]; cbn; auto. intros H Hin.
  assert (Hn : ~ In h t) by (intro Hx; apply nmem_in in Hx; congruence).
  destruct (Nat.eqb x h) eqn:E; auto.
  destruct Hin as [->|Hin]; auto. rewrite Nat.eqb_refl in E. discriminate.
Qed.

Lemma merge_in f : forall ls r, merge f ls = Some r -> forall x, In x r -> In x (List.concat ls).
Proof.
  induction f as [|f IH]; cbn; intros ls r H x Hx; try discriminate.
  destruct (forallb is_nil ls); [injection H as <-; contradiction|].
  destruct (pick ls ls) as [h|] eqn:P; try discriminate.
  destruct (merge f (map (drop h) ls)) as [r'|] eqn:M; try discriminate.
  injection H as <-. destruct (pick_ok _ _ _ P) as (_ & l & Hl). destruct Hx as [<-|Hx].
  - apply in_concat. exists (h :: l). cbn; auto.
  - apply (IH _ _ M) in Hx. apply in_concat in Hx as (d & Hd & Hx).
    apply in_map_iff in Hd as (l' & <- & Hl'). apply in_concat. exists l'. split; auto.
    destruct l' as [|y t]; cbn in *; auto. destruct (Nat.eqb y h); cbn; auto.
Qed.

Lemma merge_nodup f : forall ls r, merge f ls = Some r -> NoDup r.
Proof.
  induction f as [|f IH]; cbn; intros ls r H; try discriminate.
  destruct (forallb is_nil ls); [injection H as <-; constructor|].
  destruct (pick ls ls) as [h|] eqn:P; try discriminate.
  destruct (merge f (map (drop h) ls)) as [r'|] eqn:M; try discriminate.
  injection H as <-. constructor; eauto.
  intro Hin. apply (merge_in _ _ _ M) in Hin. apply in_concat in Hin as (d & Hd & Hx).
  apply in_map_iff in Hd as (l' & <- & Hl').
  destruct (pick_ok _ _ _ P) as (T & _). rewrite forallb_forall in T. specialize (T _ Hl').
  apply negb_true_iff in T. exact (drop_not_in _ _ T Hx).
Qed.

Lemma merge_sub f : forall ls r, merge f ls = Some r -> forall l, In l ls -> Sub l r.
Proof.
  induction f as [|f IH]; cbn; intros ls r H l Hl; try discriminate.
  destruct (forallb is_nil ls) eqn:E.
  - rewrite forallb_forall in E. specialize (E _ Hl). destruct l; [constructor|discriminate].
  - destruct (pick ls ls) as [h|] eqn:P; try discriminate.
    destruct (merge f (map (drop h) ls)) as [r'|] eqn:M; try discriminate.
    injection H as <-.
    assert (S : Sub (drop h l) r') by (apply (IH _ _ M); apply in_map; auto).
    destruct l as [|x t]; [constructor|]. cbn in S. destruct (Nat.eqb x h) eqn:X.
    + apply Nat.eqb_eq in X as ->. constructor 3; auto.
    + constructor 2; auto.
Qed.

(** The order is always found if there is one: the fuel is enough. *)
Lemma drop_length h l : List.length (drop h l) <= List.length l.
Proof. destruct l as [|x t]; cbn; auto. destruct (Nat.eqb x h); cbn; lia. Qed.

Lemma concat_drop_le h ls : List.length (List.concat (map (drop h) ls)) <= List.length (List.concat ls).
Proof.
  induction ls as [|l ls IH]; cbn; auto. rewrite !app_length. pose proof (drop_length h l). lia.
Qed.

Lemma concat_drop_lt h ls l : In (h :: l) ls ->
  List.length (List.concat (map (drop h) ls)) < List.length (List.concat ls).
Proof.
  induction ls as [|m ls IH]; [contradiction|]. intro H. cbn. rewrite !app_length.
  destruct H as [->|H].
  - cbn. rewrite Nat.eqb_refl. pose proof (concat_drop_le h ls). lia.
  - specialize (IH H). pose proof (drop_length h m). lia.
Qed.

Lemma merge_fuel f : forall g ls, List.length (List.concat ls) < f -> f <= g -> merge g ls = merge f ls.
Proof.
  induction f as [|f IH]; intros g ls Hl Hg; [lia|].
  destruct g as [|g]; [lia|]. cbn. destruct (forallb is_nil ls); auto.
  destruct (pick ls ls) as [h|] eqn:P; auto.
  destruct (pick_ok _ _ _ P) as (_ & l & Hin). pose proof (concat_drop_lt h ls l Hin).
  rewrite (IH g); auto; lia.
Qed.

(** ** Worlds *)

Lemma get_app w x i : i < List.length w -> get (w ++ [x])%list i = get w i.
Proof. intro H. unfold get. rewrite nth_error_app1; auto. Qed.

Lemma get_new w k : get (w ++ [Some k])%list (List.length w) = Some k.
Proof. unfold get. rewrite nth_error_app2, Nat.sub_diag; auto. Qed.

Lemma get_none w i : List.length w <= i -> get w i = None.
Proof. intro H. unfold get. apply nth_error_None in H. rewrite H. reflexivity. Qed.

Lemma get_lt w i k : get w i = Some k -> i < List.length w.
Proof.
  intro H. destruct (le_lt_dec (List.length w) i) as [L|L]; auto. rewrite get_none in H; auto. discriminate.
Qed.

Lemma get_refused w i : get (w ++ [None])%list i = get w i.
Proof.
  destruct (le_lt_dec (List.length w) i) as [L|L]; [|apply get_app; auto].
  rewrite (get_none w) by auto. unfold get. rewrite nth_error_app2 by auto.
  destruct (i - List.length w) as [|[|n]]; reflexivity.
Qed.

Lemma get_all_in w l : forall ks, get_all w l = Some ks -> forall i, In i l -> exists k, get w i = Some k /\ In k ks.
Proof.
  induction l as [|j l IH]; cbn; intros ks H i Hi; [contradiction|].
  destruct (get w j) as [k|] eqn:E; try discriminate.
  destruct (get_all w l) as [ks'|]; try discriminate. injection H as <-.
  destruct Hi as [->|Hi]; [exists k; cbn; auto|].
  destruct (IH _ eq_refl _ Hi) as (k' & E' & Hk). exists k'. cbn; auto.
Qed.

Lemma get_all_back w l : forall ks, get_all w l = Some ks -> forall k, In k ks -> exists i, In i l /\ get w i = Some k.
Proof.
  induction l as [|j l IH]; cbn; intros ks H k Hk.
  - injection H as <-. contradiction.
  - destruct (get w j) as [k0|] eqn:E; try discriminate.
    destruct (get_all w l) as [ks'|]; try discriminate. injection H as <-.
    destruct Hk as [->|Hk]; [exists j; auto|].
    destruct (IH _ eq_refl _ Hk) as (i & Hi & Ei). exists i. auto.
Qed.

Lemma own_app w x i n : i < List.length w -> own (w ++ [x])%list i n = own w i n.
Proof. intro H. unfold own. rewrite get_app; auto. Qed.

Lemma seen_ext w w' order n : (forall i, In i order -> own w' i n = own w i n) -> seen w' order n = seen w order n.
Proof.
  induction order as [|i r IH]; cbn; intro H; auto. rewrite (H i) by auto.
  destruct (own w i n); auto.
Qed.

(** Well formed: what every class of a reachable state is like. *)
Definition wf_class (w : world) (i : nat) (k : class) : Prop :=
  (exists r, k_mro k = i :: r /\ Sub (k_bases k) r) /\
  NoDup (k_mro k) /\
  (forall j, In j (k_mro k) -> j <= i /\ exists kj, get w j = Some kj) /\
  (forall b, In b (k_bases k) -> b < i /\ exists kb, get w b = Some kb /\ Sub (k_mro kb) (k_mro k)) /\
  (forall j, In j (k_mro k) -> j <> i -> exists b kb, In b (k_bases k) /\ get w b = Some kb /\ In j (k_mro kb)) /\
  (forall b kb, In b (k_bases k) -> get w b = Some kb -> k_meta kb = true -> k_meta k = true) /\
  (k_meta k = true -> k_statics k = statics (k_body k)) /\
  (k_meta k = false -> k_interface k = false /\ k_abstracts k = []) /\
  (k_meta k = true -> forall n, In n (k_abstracts k) -> attr w i n = Some VAbstract) /\
  (k_meta k = true -> k_abstracts k = [] -> forall n f b, Asks w b n f ->
     (i = b \/ In b (k_bases k)) -> i <> b /\ exists v, attr w i n = Some v /\ given v).

Definition wf (w : world) : Prop := forall i k, get w i = Some k -> wf_class w i k.

Lemma attr_in_order w x i k n : wf w -> get w i = Some k -> attr (w ++ [x])%list i n = attr w i n.
Proof.
  intros W G. pose proof (get_lt _ _ _ G) as L. unfold attr. rewrite get_app, G by auto.
  apply seen_ext. intros j Hj. destruct (W _ _ G) as (_ & _ & M & _).
  destruct (M _ Hj) as (Hle & _). apply own_app. lia.
Qed.

Lemma attr_none_app w x i n : get w i = None -> i < List.length w -> attr (w ++ [x])%list i n = attr w i n.
Proof. intros G L. unfold attr. rewrite get_app by auto. rewrite G. reflexivity. Qed.

Lemma attr_app w x i n : wf w -> i < List.length w -> attr (w ++ [x])%list i n = attr w i n.
Proof.
  intros W L. destruct (get w i) as [k|] eqn:G; [eapply attr_in_order; eauto|apply attr_none_app; auto].
Qed.

Lemma Asks_app w x b n f : b < List.length w -> Asks (w ++ [x])%list b n f <-> Asks w b n f.
Proof.
  intro L. unfold Asks. rewrite get_app, own_app by auto. tauto.
Qed.

Lemma wf_class_app w x i k : wf w -> get w i = Some k -> wf_class w i k -> wf_class (w ++ [x])%list i k.
Proof.
  intros W G (A1 & A2 & A3 & A4 & A5 & A6 & A7 & A8 & A9 & A10).
  pose proof (get_lt _ _ _ G) as L.
  assert (GE : forall j, j < i -> get (w ++ [x])%list j = get w j) by (intros; apply get_app; lia).
  unfold wf_class. split; [exact A1|]. split; [exact A2|]. split; [|split; [|split; [|split; [|split; [|split; [|split]]]]]].
  - intros j Hj. destruct (A3 _ Hj) as (Hle & kj & E). split; auto. exists kj. rewrite get_app; auto. lia.
  - intros b Hb. destruct (A4 _ Hb) as (Hlt & kb & E & S). split; auto. exists kb. rewrite GE; auto.
  - intros j Hj Hne. destruct (A5 _ Hj Hne) as (b & kb & Hb & E & Hin). exists b, kb.
    destruct (A4 _ Hb). rewrite GE; auto.
  - intros b kb Hb E. destruct (A4 _ Hb). rewrite GE in E by auto. eauto.
  - exact A7.
  - exact A8.
  - intros Hm n Hn. erewrite attr_in_order; eauto.
  - intros H H0 n f b H1 H2. assert (Lb : b < List.length w).
    { destruct H2 as [<-|Hb]; auto. destruct (A4 _ Hb). lia. }
    pose proof (proj1 (Asks_app w x b n f Lb) H1) as H3. destruct (A10 H H0 _ _ _ H3 H2) as (Hne & v & E & Gv).
    split; auto. exists v. erewrite attr_in_order; eauto.
Qed.

(** ** Looking through an order *)

Lemma seen_owner w order n v : seen w order n = Some v ->
  exists pre j post, order = (pre ++ j :: post)%list /\ own w j n = Some v /\ forall x, In x pre -> own w x n = None.
Proof.
  induction order as [|i r IH]; cbn; intro H; try discriminate.
  destruct (own w i n) as [v'|] eqn:E.
  - injection H as ->. exists [], i, r. cbn. repeat split; auto. contradiction.
  - destruct (IH H) as (pre & j & post & -> & O & P). exists (i :: pre), j, post. cbn.
    repeat split; auto. intros x [<-|Hx]; auto.
Qed.

Lemma seen_some w order n j v : In j order -> own w j n = Some v -> exists v', seen w order n = Some v'.
Proof.
  induction order as [|i r IH]; cbn; [contradiction|]. intros [->|H] O.
  - rewrite O. eauto.
  - destruct (own w i n); eauto.
Qed.

(** What a class sees through an ancestor, the ancestor sees. *)
Lemma seen_sub w n j v : forall m l, Sub l m -> NoDup m ->
  forall pre post, m = (pre ++ j :: post)%list -> own w j n = Some v ->
  (forall x, In x pre -> own w x n = None) -> In j l -> seen w l n = Some v.
Proof.
  intros m l S. induction S as [m|x l m S IH|x l m S IH]; intros ND pre post E O P Hin.
  - contradiction.
  - inversion ND; subst. destruct pre as [|y pre]; cbn in E; injection E as -> E.
    + exfalso. apply H1. eapply Sub_in; eauto.
    + eapply IH; eauto. intros; apply P; cbn; auto.
  - inversion ND; subst. destruct pre as [|y pre]; cbn in E; injection E as -> E; cbn.
    + rewrite O. reflexivity.
    + rewrite (P y) by (cbn; auto). destruct Hin as [<-|Hin].
      * rewrite (P y) in O by (cbn; auto). discriminate.
      * eapply IH; eauto. intros; apply P; cbn; auto.
Qed.

Lemma body_in b n v : body_get b n = Some v -> In n (map fst b).
Proof.
  induction b as [|[m v'] r IH]; cbn; intro H; try discriminate.
  destruct (n =? m) eqn:E; auto. apply String.eqb_eq in E. auto.
Qed.

Lemma marked_in b n : In n (marked b) <-> body_get b n = Some VAbstract.
Proof.
  unfold marked. rewrite filter_In. split.
  - intros (_ & H). destruct (body_get b n) as [[]|]; cbn in H; congruence.
  - intro H. split; [eapply body_in; eauto|]. rewrite H. reflexivity.
Qed.

Lemma statics_in b n : In n (statics b) <-> exists f, body_get b n = Some (VStatic f).
Proof.
  unfold statics. rewrite filter_In. split.
  - intros (_ & H). destruct (body_get b n) as [[]|]; cbn in H; try congruence. eauto.
  - intros (f & H). split; [eapply body_in; eauto|]. rewrite H. reflexivity.
Qed.

Lemma nil_iff {A} (l : list A) : l = [] <-> forall x, ~ In x l.
Proof.
  split; [intros -> x []|]. destruct l as [|a l]; auto. intro H. exfalso. apply (H a). cbn; auto.
Qed.

Lemma is_abstract_iff o : is_abstract o = true <-> o = Some VAbstract.
Proof. destruct o as [[]|]; cbn; split; congruence. Qed.

(** ** A new class *)

Section NewClass.
  Variable st : state.
  Variable s : statement.
  Variable bs : list class.
  Variable order : list nat.
  Hypothesis W : wf (classes st).
  Hypothesis HB : get_all (classes st) (s_bases s) = Some bs.
  Hypothesis HL : linearise (map k_mro bs) (s_bases s) = Some order.
  Let i := List.length (classes st).
  Variable k : class.
  Hypothesis HK : k_mro k = i :: order /\ k_bases k = s_bases s /\ k_body k = s_body s.
  Let w := (classes st ++ [Some k])%list.

  Lemma new_get : get w i = Some k.
  Proof. apply get_new. Qed.

  Lemma base_known b : In b (s_bases s) -> exists kb, get (classes st) b = Some kb /\ In kb bs /\ b < i.
  Proof.
    intro H. destruct (get_all_in _ _ _ HB _ H) as (kb & E & Hin). exists kb. repeat split; auto.
    eapply get_lt; eauto.
  Qed.

  Lemma base_get b : In b (s_bases s) -> get w b = get (classes st) b.
  Proof. intro H. destruct (base_known _ H) as (kb & E & _ & L). apply get_app. exact L. Qed.

  Lemma order_base b kb : In b (s_bases s) -> get (classes st) b = Some kb -> Sub (k_mro kb) order.
  Proof.
    intros H E. unfold linearise in HL. eapply merge_sub; [exact HL|].
    apply in_or_app. left. destruct (get_all_in _ _ _ HB _ H) as (kb' & E' & Hin).
    rewrite E in E'. injection E' as <-. apply in_map; auto.
  Qed.

  Lemma order_bases : Sub (s_bases s) order.
  Proof.
    unfold linearise in HL. eapply merge_sub; [exact HL|]. apply in_or_app. right. cbn; auto.
  Qed.

  Lemma order_from j : In j order -> exists b kb, In b (s_bases s) /\ get (classes st) b = Some kb /\ In j (k_mro kb).
  Proof.
    intro H. unfold linearise in HL. apply (merge_in _ _ _ HL) in H.
    apply in_concat in H as (l & Hl & Hj). apply in_app_or in Hl as [Hl|[<-|[]]].
    - apply in_map_iff in Hl as (kb & <- & Hk). destruct (get_all_back _ _ _ HB _ Hk) as (b & Hb & E).
      exists b, kb. auto.
    - destruct (base_known _ Hj) as (kb & E & _ & _). exists j, kb. repeat split; auto.
      destruct (W _ _ E) as ((r & -> & _) & _). cbn; auto.
  Qed.

  Lemma order_old j : In j order -> j < i /\ exists kj, get (classes st) j = Some kj.
  Proof.
    intro H. destruct (order_from _ H) as (b & kb & Hb & E & Hj).
    destruct (W _ _ E) as (_ & _ & M & _). destruct (M _ Hj) as (Hle & kj & Ej).
    split; eauto. eapply get_lt; eauto.
  Qed.

  Lemma order_nodup : NoDup (i :: order).
  Proof.
    constructor.
    - intro H. destruct (order_old _ H). lia.
    - unfold linearise in HL. eapply merge_nodup; eauto.
  Qed.

  Lemma new_own n : own w i n = body_get (s_body s) n.
  Proof. unfold own. rewrite new_get. destruct HK as (_ & _ & ->). reflexivity. Qed.

  Lemma old_own j n : j < i -> own w j n = own (classes st) j n.
  Proof. intro H. apply own_app. exact H. Qed.

  Lemma new_attr n : attr w i n = match body_get (s_body s) n with
                                  | Some v => Some v
                                  | None => seen (classes st) order n
                                  end.
  Proof.
    unfold attr. rewrite new_get. destruct HK as (-> & _). cbn [seen]. rewrite new_own.
    destruct (body_get (s_body s) n); auto. apply seen_ext. intros j Hj.
    apply old_own. destruct (order_old _ Hj). auto.
  Qed.

  (** What the new class sees and does not say itself, one of its bases sees. *)
  Lemma attr_through n v : attr w i n = Some v -> body_get (s_body s) n = None ->
    exists j b kb, In b (s_bases s) /\ get (classes st) b = Some kb /\ In j (k_mro kb) /\
      own (classes st) j n = Some v /\ attr (classes st) b n = Some v.
  Proof.
    rewrite new_attr. intros H E. rewrite E in H.
    destruct (seen_owner _ _ _ _ H) as (pre & j & post & EO & O & P).
    assert (Hj : In j order) by (rewrite EO; apply in_or_app; right; cbn; auto).
    destruct (order_from _ Hj) as (b & kb & Hb & Eb & Hjb).
    exists j, b, kb. repeat split; auto. unfold attr. rewrite Eb.
    eapply seen_sub with (m := order); eauto.
    - eapply order_base; eauto.
    - pose proof order_nodup as ND. inversion ND; auto.
  Qed.

  (** What a base has can be seen. *)
  Lemma attr_base_some b n v : In b (s_bases s) -> attr (classes st) b n = Some v -> exists v', attr w i n = Some v'.
  Proof.
    intros Hb E. rewrite new_attr. destruct (body_get (s_body s) n); eauto.
    unfold attr in E. destruct (get (classes st) b) as [kb|] eqn:G; try discriminate.
    destruct (seen_owner _ _ _ _ E) as (pre & j & post & EO & O & _).
    eapply seen_some; eauto. eapply Sub_in; [eapply order_base; eauto|]. rewrite EO.
    apply in_or_app; right; cbn; auto.
  Qed.

  (** What ABCMeta collects is what can be seen marked. *)
  Lemma abstracts_sound n : In n (abstracts w i (s_body s) bs) -> attr w i n = Some VAbstract.
  Proof.
    unfold abstracts. rewrite in_app_iff, in_flat_map. intros [H|(kb & Hk & H)].
    - apply marked_in in H. rewrite new_attr, H. reflexivity.
    - apply filter_In in H as (_ & H). apply is_abstract_iff in H. exact H.
  Qed.

  Lemma abstracts_complete n :
    unmarked_plain (classes st) ->
    (forall b kb, In b (s_bases s) -> get (classes st) b = Some kb -> k_meta kb = true ->
       attr (classes st) b n = Some VAbstract -> In n (k_abstracts kb)) ->
    attr w i n = Some VAbstract -> In n (abstracts w i (s_body s) bs).
  Proof.
    intros U IH H. unfold abstracts. rewrite in_app_iff, in_flat_map.
    destruct (body_get (s_body s) n) as [v|] eqn:E.
    - left. apply marked_in. rewrite new_attr, E in H. congruence.
    - right. destruct (attr_through _ _ H E) as (j & b & kb & Hb & Eb & Hj & O & A).
      exists kb. destruct (get_all_in _ _ _ HB _ Hb) as (kb' & E' & Hin).
      rewrite Eb in E'. injection E' as <-. split; auto. apply filter_In. split.
      + apply (IH b); auto. destruct (k_meta kb) eqn:Em; auto. exfalso.
        assert (PL : forall m j', j' <= m -> forall k', get (classes st) m = Some k' -> k_meta k' = false ->
                       In j' (k_mro k') -> forall kj, get (classes st) j' = Some kj -> k_meta kj = false).
        { clear - W. induction m as [m IHm] using lt_wf_ind. intros j' Hle k' Ek Hm Hin kj Ej.
          destruct (Nat.eq_dec j' m) as [->|Hne]; [congruence|].
          destruct (W _ _ Ek) as (_ & _ & _ & A4 & A5 & A6 & _).
          destruct (A5 _ Hin Hne) as (b & kb & Hb & Eb & Hjb).
          destruct (A4 _ Hb) as (Hlt & _).
          assert (k_meta kb = false).
          { destruct (k_meta kb) eqn:X; auto. rewrite (A6 _ _ Hb Eb X) in Hm. discriminate. }
          destruct (W _ _ Eb) as (_ & _ & M & _).
          exact (IHm b Hlt j' (proj1 (M _ Hjb)) kb Eb H Hjb kj Ej). }
        destruct (W _ _ Eb) as (_ & _ & M & _). destruct (M _ Hj) as (Hle & kj & Ej).
        eapply (U j kj n Ej); eauto.
      + apply is_abstract_iff. exact H.
  Qed.

End NewClass.
