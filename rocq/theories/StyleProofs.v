(** The order of style references: specification and proofs. *)

From Coq Require Import List String Bool Arith Lia Relations.
From Verif Require Import IdModel StyleModel.
Import ListNotations.
Open Scope string_scope.

(** ** Specification *)

(** The first occurrences of a list. *)
Fixpoint keep_first (l : list string) : list string :=
  match l with
  | [] => []
  | x :: r => x :: filter (fun y => negb (y =? x)) (keep_first r)
  end.

(** [edge d x y]: style [x] names [y] in its style attribute. *)
Definition edge (d : list (string * kind)) (x y : string) : Prop :=
  exists s l, get_style d x = Some s /\ s_refs s = Some l /\ In y l.
Definition reach (d : list (string * kind)) : string -> string -> Prop := clos_refl_trans _ (edge d).
Definition path (d : list (string * kind)) : string -> string -> Prop := clos_trans _ (edge d).

(** Everything reachable is a style, and nothing reachable reaches itself. *)
Definition sound (d : list (string * kind)) (i : string) : Prop :=
  forall x, reach d i x -> get_style d x <> None /\ ~ path d x x.

(** The styles in the order in which one meets them following references
    depth first, repetitions included: the unfolding of the graph. *)
Inductive unfolds (d : list (string * kind)) : string -> list string -> Prop :=
| U_style : forall i s l, get_style d i = Some s ->
    unfolds_all d (match s_refs s with Some r => r | None => [] end) l -> unfolds d i (i :: l)
with unfolds_all (d : list (string * kind)) : list string -> list string -> Prop :=
| U_nil : unfolds_all d [] []
| U_cons : forall i r l l', unfolds d i l -> unfolds_all d r l' -> unfolds_all d (i :: r) (l ++ l')%list.

Scheme unfolds_mind := Induction for unfolds Sort Prop
  with unfolds_all_mind := Induction for unfolds_all Sort Prop.
Combined Scheme unfolds_mutind from unfolds_mind, unfolds_all_mind.

(** ** First occurrences *)

Lemma mem_In : forall x l, mem x l = true <-> In x l.
Proof.
  intros x l. unfold mem. rewrite existsb_exists. split.
  - intros (y & H & E). apply String.eqb_eq in E. subst; auto.
  - intros H. exists x. split; auto. apply String.eqb_refl.
Qed.

Lemma mem_out : forall x l, mem x l = false <-> ~ In x l.
Proof. intros x l. rewrite <- mem_In. destruct (mem x l); split; congruence. Qed.

Lemma mem_app : forall x a b, mem x (a ++ b) = (mem x a || mem x b)%bool.
Proof. intros. unfold mem. apply existsb_app. Qed.

Lemma keep_first_In : forall l x, In x (keep_first l) <-> In x l.
Proof.
  induction l as [|y r IH]; intros x; cbn; [tauto|]. rewrite filter_In, IH.
  destruct (String.eqb_spec x y); cbn; intuition congruence.
Qed.

Lemma keep_first_mem : forall l x, mem x (keep_first l) = mem x l.
Proof.
  intros l x. assert (H := keep_first_In l x). rewrite <- !mem_In in H.
  destruct (mem x (keep_first l)), (mem x l); auto; [symmetry|]; apply H; auto.
Qed.

Lemma NoDup_filter' : forall (f : string -> bool) l, NoDup l -> NoDup (filter f l).
Proof.
  induction 1; cbn; [constructor|]. destruct (f x); auto. constructor; auto. rewrite filter_In. tauto.
Qed.

Lemma keep_first_NoDup : forall l, NoDup (keep_first l).
Proof.
  induction l as [|x r IH]; cbn; constructor; auto using NoDup_filter'.
  rewrite filter_In, String.eqb_refl. intros [_ H]; discriminate.
Qed.

Lemma filter_filter : forall (f g : string -> bool) l, filter f (filter g l) = filter (fun x => g x && f x)%bool l.
Proof.
  induction l as [|x r IH]; cbn; auto. destruct (g x) eqn:E; cbn; [destruct (f x)|]; rewrite ?IH; auto.
Qed.

Lemma filter_ext' : forall (f g : string -> bool) l, (forall x, f x = g x) -> filter f l = filter g l.
Proof. intros f g l H. apply filter_ext. auto. Qed.

Lemma keep_first_app : forall a b,
  keep_first (a ++ b) = (keep_first a ++ filter (fun x => negb (mem x a)) (keep_first b))%list.
Proof.
  induction a as [|x r IH]; intros b; cbn [app keep_first].
  - cbn. symmetry. rewrite <- (app_nil_r (keep_first b)) at 2. rewrite app_nil_r.
    induction (keep_first b); cbn; auto. f_equal; auto.
  - rewrite IH, filter_app, filter_filter. cbn [app]. f_equal. f_equal. apply filter_ext'. intros y.
    unfold mem. cbn [existsb]. destruct (y =? x), (existsb (String.eqb y) r); auto.
Qed.

Lemma keep_first_id : forall l, NoDup l -> keep_first l = l.
Proof.
  induction 1 as [|x l N D IH]; auto. cbn. rewrite IH. f_equal.
  assert (G : forall l', ~ In x l' -> filter (fun y => negb (y =? x)) l' = l').
  { induction l' as [|y r IH']; intros H; auto. cbn. destruct (String.eqb_spec y x) as [->|Hn]; [exfalso; apply H; left; auto|].
    cbn. f_equal. apply IH'. intros Hi; apply H; right; auto. }
  auto.
Qed.

Lemma append_new_spec : forall l acc,
  append_new acc l = (acc ++ filter (fun x => negb (mem x acc)) (keep_first l))%list.
Proof.
  induction l as [|x r IH]; intros acc; cbn [append_new keep_first filter]; [rewrite app_nil_r; auto|].
  destruct (mem x acc) eqn:E; cbn [negb].
  - rewrite IH, filter_filter. f_equal. apply filter_ext'. intros y.
    destruct (String.eqb_spec y x) as [->|]; cbn; auto. rewrite E. auto.
  - rewrite IH, <- app_assoc. cbn [app]. f_equal. f_equal. rewrite filter_filter. apply filter_ext'. intros y.
    rewrite mem_app. unfold mem at 2. cbn [existsb]. destruct (y =? x), (mem y acc); auto.
Qed.

Lemma append_new_first : forall a b, append_new (keep_first a) (keep_first b) = keep_first (a ++ b).
Proof.
  intros a b. rewrite append_new_spec, keep_first_app. f_equal.
  rewrite (keep_first_id (keep_first b)) by apply keep_first_NoDup. apply filter_ext'. intros x.
  rewrite keep_first_mem. auto.
Qed.

(** ** The unfolding *)

Lemma refs_of_some : forall d i s, get_style d i = Some s ->
  refs_of d i = match s_refs s with Some r => r | None => [] end.
Proof. intros d i s H. unfold refs_of. rewrite H. auto. Qed.

Lemma edge_refs : forall d x y, edge d x y <-> get_style d x <> None /\ In y (refs_of d x).
Proof.
  intros d x y. unfold edge, refs_of. destruct (get_style d x) as [s|].
  - split.
    + intros (s' & l & E & F & G). inversion E; subst s'. rewrite F. split; auto. discriminate.
    + intros [_ H]. destruct (s_refs s) as [l|] eqn:F; [|destruct H]. exists s, l. auto.
  - split; [intros (s & l & E & _); discriminate|intros [H _]; congruence].
Qed.

Lemma unfolds_inv : forall d i l, unfolds d i l ->
  get_style d i <> None /\ exists l', l = i :: l' /\ unfolds_all d (refs_of d i) l'.
Proof.
  intros d i l H. inversion H as [i' s l' G U]; subst. split; [congruence|]. exists l'. split; auto.
  rewrite (refs_of_some _ _ _ G). auto.
Qed.

Lemma unfolds_intro : forall d i l, get_style d i <> None -> unfolds_all d (refs_of d i) l -> unfolds d i (i :: l).
Proof.
  intros d i l G U. destruct (get_style d i) as [s|] eqn:E; [|congruence].
  rewrite (refs_of_some _ _ _ E) in U. econstructor; eauto.
Qed.

Lemma unfolds_all_app : forall d a l b l', unfolds_all d a l -> unfolds_all d b l' -> unfolds_all d (a ++ b) (l ++ l').
Proof.
  intros d a l b l' H. induction H as [|i r l0 l1 H1 H2 IH]; intros Hb; cbn; auto.
  rewrite <- app_assoc. constructor; auto.
Qed.

Lemma unfolds_fun : forall d,
  (forall i l, unfolds d i l -> forall l', unfolds d i l' -> l = l') /\
  (forall r l, unfolds_all d r l -> forall l', unfolds_all d r l' -> l = l').
Proof.
  intros d. apply unfolds_mutind.
  - intros i s l G U IH l' H. inversion H as [i' s' l0 G' U']; subst. rewrite G in G'. inversion G'; subst. f_equal. auto.
  - intros l' H. inversion H. auto.
  - intros i r l l0 U IH U0 IH0 l' H. inversion H as [|? ? l1 l2 V V0]; subst. f_equal; auto.
Qed.

Lemma unfolds_all_in : forall d r l x, unfolds_all d r l -> In x r -> exists l0 a b, unfolds d x l0 /\ l = (a ++ l0 ++ b)%list.
Proof.
  intros d r l x H. induction H as [|i r l0 l1 H1 H2 IH]; intros Hin; [destruct Hin|].
  destruct Hin as [->|Hin].
  - exists l0, [], l1. auto.
  - destruct (IH Hin) as (m & a & b & Hm & ->). exists m, (l0 ++ a)%list, b. split; auto. rewrite <- app_assoc. auto.
Qed.

(** A step along a reference leads to a strictly shorter unfolding. *)
Lemma unfolds_edge : forall d x y l, unfolds d x l -> edge d x y ->
  exists l', unfolds d y l' /\ List.length l' < List.length l.
Proof.
  intros d x y l U E. apply unfolds_inv in U as (_ & l0 & -> & U). apply edge_refs in E as [_ E].
  destruct (unfolds_all_in _ _ _ _ U E) as (l' & a & b & U' & ->). exists l'. split; auto.
  cbn. rewrite !app_length. lia.
Qed.

Lemma unfolds_path : forall d x y, path d x y -> forall l, unfolds d x l ->
  exists l', unfolds d y l' /\ List.length l' < List.length l.
Proof.
  intros d x y P. induction P as [x y E|x y z P1 IH1 P2 IH2]; intros l U.
  - eapply unfolds_edge; eauto.
  - destruct (IH1 l U) as (l1 & U1 & L1). destruct (IH2 l1 U1) as (l2 & U2 & L2). exists l2. split; auto. lia.
Qed.

Lemma reach_cases : forall d x y, reach d x y -> x = y \/ path d x y.
Proof.
  intros d x y H. induction H as [x y E|x|x y z H1 IH1 H2 IH2]; auto.
  - right. constructor. auto.
  - destruct IH1 as [<-|P1]; auto. destruct IH2 as [<-|P2]; auto. right. eapply t_trans; eauto.
Qed.

Lemma path_reach : forall d x y, path d x y -> reach d x y.
Proof. intros d x y P. induction P; [apply rt_step; auto|eapply rt_trans; eauto]. Qed.

Lemma reach_path : forall d x y z, reach d x y -> path d y z -> path d x z.
Proof. intros d x y z R P. destruct (reach_cases _ _ _ R) as [->|Q]; auto. eapply t_trans; eauto. Qed.

Lemma path_first : forall d x y, path d x y -> exists z, edge d x z /\ reach d z y.
Proof.
  intros d x y P. induction P as [x y E|x y z P1 IH1 P2 IH2].
  - exists y. split; auto. apply rt_refl.
  - destruct IH1 as (w & E & R). exists w. split; auto. eapply rt_trans; [exact R|apply path_reach; auto].
Qed.

(** An unfolding exists only where everything is sound, and lists exactly
    what is reachable. *)
Lemma unfolds_sound : forall d i l, unfolds d i l -> sound d i.
Proof.
  intros d i l U x R.
  assert (exists l', unfolds d x l') as [l' U'].
  { destruct (reach_cases _ _ _ R) as [<-|P]; eauto. destruct (unfolds_path _ _ _ P l U) as (l' & U' & _). eauto. }
  split; [apply unfolds_inv in U'; tauto|]. intros P.
  destruct (unfolds_path _ _ _ P l' U') as (l2 & U2 & L). rewrite (proj1 (unfolds_fun d) _ _ U' _ U2) in L. lia.
Qed.

Lemma unfolds_reach : forall d,
  (forall i l, unfolds d i l -> forall x, In x l <-> reach d i x) /\
  (forall r l, unfolds_all d r l -> forall x, In x l <-> exists i, In i r /\ reach d i x).
Proof.
  intros d. apply unfolds_mutind.
  - intros i s l G U IH x. cbn [In]. rewrite IH. split.
    + intros [<-|(j & Hj & R)]; [apply rt_refl|]. eapply rt_trans; [apply rt_step|apply R].
      apply edge_refs. split; [congruence|]. rewrite (refs_of_some _ _ _ G). auto.
    + intros R. destruct (reach_cases _ _ _ R) as [->|P]; auto. right.
      destruct (path_first _ _ _ P) as (z & E & Rz). exists z. split; auto.
      apply edge_refs in E as [_ E]. rewrite (refs_of_some _ _ _ G) in E. auto.
  - intros x. split; [intros []|intros (i & [] & _)].
  - intros i r l l' U IH U' IH' x. rewrite in_app_iff, IH, IH'. split.
    + intros [R|(j & Hj & R)]; [exists i|exists j]; split; auto; [left|right]; auto.
    + intros (j & [<-|Hj] & R); eauto.
Qed.

(** ** ordered_styles *)

Definition cache_ok (d : list (string * kind)) (c : list (string * list string)) : Prop :=
  forall i l, dict_get c i = Some l -> exists u, unfolds d i u /\ l = keep_first u.

Lemma dict_get_cons : forall A (j : string) (x : A) c i,
  dict_get ((j, x) :: c) i = if i =? j then Some x else dict_get c i.
Proof. auto. Qed.

Lemma get_style_in : forall d i, get_style d i <> None -> In i (map fst d).
Proof.
  intros d i. unfold get_style. induction d as [|[j k] d IH]; cbn; [congruence|].
  destruct (String.eqb_spec i j); auto.
Qed.

Definition outcome (d : list (string * kind)) (i : string) (r : sres (list string)) : Prop :=
  match r with
  | SOk l => exists u, unfolds d i u /\ l = keep_first u
  | SErr (Circle x) => reach d i x /\ path d x x
  | SErr (Missing x) => (exists y, reach d i y /\ edge d y x) /\ get_style d x = None
  | SErr _ => False
  end.

Lemma ordered_spec : forall n d i st,
  cache_ok d (st_cache st) -> NoDup (st_locked st) -> incl (st_locked st) (map fst d) ->
  (forall x, In x (st_locked st) -> path d x i) -> get_style d i <> None ->
  List.length d < n + List.length (st_locked st) ->
  let '(r, st') := ordered_styles n d st i in
  outcome d i r /\ cache_ok d (st_cache st') /\ st_locked st' = st_locked st.
Proof.
  induction n as [|n IH]; intros d i st C N I P G F; cbn [ordered_styles].
  - exfalso. assert (L := NoDup_incl_length N I). rewrite map_length in L. cbn in F. lia.
  - destruct (mem i (st_locked st)) eqn:Em.
    { apply mem_In in Em. split; [|split; auto]. cbn. split; [apply rt_refl|auto]. }
    apply mem_out in Em. destruct (dict_get (st_cache st) i) as [l|] eqn:Ec.
    { split; [|split; auto]. cbn. auto. }
    set (lk := i :: st_locked st).
    assert (Loop : forall refs done u st0,
      refs_of d i = (done ++ refs)%list -> unfolds_all d done u -> cache_ok d (st_cache st0) -> st_locked st0 = lk ->
      let '(r, st') := each_ref (ordered_styles n d) d refs (keep_first (i :: u)) st0 in
      outcome d i r /\ cache_ok d (st_cache st') /\ st_locked st' = lk).
    { induction refs as [|r rest IHr]; intros done u st0 Er U C0 L0; cbn [each_ref].
      - split; [|auto]. exists (i :: u). split; auto. apply unfolds_intro; auto. rewrite Er, app_nil_r. auto.
      - assert (Edge : edge d i r) by (apply edge_refs; split; auto; rewrite Er; apply in_or_app; right; left; auto).
        destruct (get_style d r) as [s|] eqn:Gr.
        + assert (Y := IH d r st0 C0).
          assert (A1 : NoDup (st_locked st0)) by (rewrite L0; constructor; auto).
          assert (A2 : incl (st_locked st0) (map fst d)).
          { rewrite L0. intros x [<-|Hx]; auto. apply get_style_in; auto. }
          assert (A3 : forall x, In x (st_locked st0) -> path d x r).
          { rewrite L0. intros x [<-|Hx]; [constructor; auto|]. eapply t_trans; [apply P; auto|constructor; auto]. }
          assert (A4 : List.length d < n + List.length (st_locked st0)) by (rewrite L0; unfold lk; cbn in *; lia).
          assert (A5 : get_style d r <> None) by congruence.
          specialize (Y A1 A2 A3 A5 A4). destruct (ordered_styles n d st0 r) as [[l|e] st1].
          * destruct Y as ((v & V & ->) & C1 & L1). rewrite append_new_first.
            change ((i :: u) ++ v)%list with (i :: (u ++ v))%list.
            apply (IHr (done ++ [r])%list); auto; [rewrite <- app_assoc; auto| |congruence].
            apply unfolds_all_app; auto. rewrite <- (app_nil_r v). repeat constructor; auto.
          * destruct Y as (O & C1 & L1). split; [|split; auto; congruence]. destruct e; cbn in O |- *; try tauto.
            -- destruct O as [R Q]. split; auto. eapply rt_trans; [apply rt_step; eauto|auto].
            -- destruct O as [(y & R & Q) M]. split; auto. exists y. split; auto. eapply rt_trans; [apply rt_step; eauto|auto].
        + split; [|auto]. cbn. split; auto. exists i. split; auto. apply rt_refl. }
    assert (Y := Loop (refs_of d i) [] [] (mkS lk (st_cache st)) eq_refl (U_nil d) C eq_refl).
    change (keep_first [i]) with [i] in Y. fold lk.
    destruct (each_ref (ordered_styles n d) d (refs_of d i) [i] (mkS lk (st_cache st))) as [[l|e] st'].
    + destruct Y as (O & C' & L'). split; auto. split; [|unfold unlock; cbn; rewrite L'; auto].
      unfold unlock. cbn. intros j l0. cbn. destruct (String.eqb_spec j i) as [->|]; auto. intros Ej. inversion Ej; subst. auto.
    + destruct Y as (O & C' & L'). split; auto. split; [|unfold unlock; cbn; rewrite L'; auto]. auto.
Qed.

(** Between calls no lock is held. *)
Definition settled (d : list (string * kind)) (st : sstate) : Prop := st_locked st = [] /\ cache_ok d (st_cache st).

Lemma settled_start : forall d, settled d sstart.
Proof. intros d. split; auto. intros i l H. discriminate. Qed.

Lemma ordered_settled : forall d i st n, settled d st -> get_style d i <> None -> List.length d < n ->
  outcome d i (fst (ordered_styles n d st i)) /\ settled d (snd (ordered_styles n d st i)).
Proof.
  intros d i st n [L C] G F. assert (Y := ordered_spec n d i st C).
  rewrite L in Y. specialize (Y (NoDup_nil _) (fun x H => match H with end) (fun x H => match H with end) G).
  cbn [List.length] in Y. rewrite Nat.add_0_r in Y. specialize (Y F).
  destruct (ordered_styles n d st i) as [r st']. destruct Y as (O & C' & L'). split; auto. split; auto.
Qed.

(** The outcome determines soundness, both ways. *)
Lemma outcome_sound : forall d i r, outcome d i r ->
  ((exists l, r = SOk l) <-> sound d i) /\
  (sound d i -> exists u, unfolds d i u /\ r = SOk (keep_first u)).
Proof.
  intros d i [l|e] O; cbn in O.
  - destruct O as (u & U & ->). split; [split; eauto|]; intros; [eapply unfolds_sound; eauto|eauto].
  - assert (N : ~ sound d i).
    { intros S. destruct e; try tauto.
      - destruct O as [R P]. destruct (S _ R) as [_ Q]. auto.
      - destruct O as [(y & R & E) M]. destruct (S i0) as [Q _]; auto. eapply rt_trans; [apply R|apply rt_step; auto]. }
    split; [split; [intros [l H]; discriminate|tauto]|tauto].
Qed.

(** Two calls, whatever was called before, agree. *)
Lemma ordered_same : forall d i st st' n n', settled d st -> settled d st' -> get_style d i <> None ->
  List.length d < n -> List.length d < n' -> sound d i ->
  fst (ordered_styles n d st i) = fst (ordered_styles n' d st' i).
Proof.
  intros d i st st' n n' S S' G F F' So.
  destruct (ordered_settled d i st n S G F) as [O _]. destruct (ordered_settled d i st' n' S' G F') as [O' _].
  destruct (proj2 (outcome_sound _ _ _ O) So) as (u & U & ->).
  destruct (proj2 (outcome_sound _ _ _ O') So) as (u' & U' & ->).
  rewrite (proj1 (unfolds_fun d) _ _ U _ U'). auto.
Qed.

(** The references of an element. *)
Lemma collect_refs_spec : forall d refs done u st, settled d st -> unfolds_all d done u ->
  let '(r, st') := each_ref (ordered_styles (enough d) d) d refs (keep_first u) st in
  settled d st' /\
  match r with
  | SOk l => exists v, unfolds_all d refs v /\ l = keep_first (u ++ v)
  | SErr (Circle x) => exists i, In i refs /\ reach d i x /\ path d x x
  | SErr (Missing x) => get_style d x = None /\ (In x refs \/ exists i y, In i refs /\ reach d i y /\ edge d y x)
  | SErr _ => False
  end.
Proof.
  intros d. induction refs as [|r rest IH]; intros done u st S U; cbn [each_ref].
  - split; auto. exists []. split; [constructor|]. rewrite app_nil_r. auto.
  - destruct (get_style d r) as [s|] eqn:G.
    + assert (Gr : get_style d r <> None) by congruence.
      destruct (ordered_settled d r st (enough d) S Gr) as [O S1]; [unfold enough; lia|].
      destruct (ordered_styles (enough d) d st r) as [[l|e] st1]; cbn [fst snd] in O, S1.
      * destruct O as (v & V & ->). rewrite append_new_first.
        assert (U' : unfolds_all d (done ++ [r]) (u ++ v)).
        { apply unfolds_all_app; auto. rewrite <- (app_nil_r v). repeat constructor; auto. }
        assert (Y := IH (done ++ [r])%list (u ++ v)%list st1 S1 U').
        destruct (each_ref (ordered_styles (enough d) d) d rest (keep_first (u ++ v)) st1) as [r0 st'].
        destruct Y as [S' Y]. split; auto. destruct r0 as [l|[x|x|x| | |]]; auto.
        -- destruct Y as (w & W & ->). exists (v ++ w)%list. split; [constructor; auto|]. rewrite app_assoc. auto.
        -- destruct Y as (i & Hi & Y). exists i. split; auto. right; auto.
        -- destruct Y as [M [Hx|(i & y & Hi & Y)]]; split; auto; [left; right; auto|right; exists i, y; split; auto; right; auto].
      * split; auto. destruct e; cbn in O; try tauto.
        -- exists r. split; auto. left; auto.
        -- destruct O as [(y & R & E) M]. split; auto. right. exists r, y. split; auto. left; auto.
    + split; auto. split; auto. left. left. auto.
Qed.
