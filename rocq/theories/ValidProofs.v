(** The validation of a document accepts exactly the valid ones. *)

From Coq Require Import List String Bool QArith Relations Permutation.
From Verif Require Import IdModel StyleModel StyleProofs StyleTree ReadModel ReadSpec PropsId PropsRead ValidModel ValidSpec ValidPruneProofs.
From Verif Require HeadModel HeadSpec HeadProofs PropsFont.
Import ListNotations.
Open Scope string_scope.

(** ** Tables with the same styles *)

Definition same_styles (a b : list (string * kind)) : Prop := forall i, get_style a i = get_style b i.

Lemma unfolds_ext : forall a b, same_styles a b ->
  (forall i u, unfolds a i u -> unfolds b i u) /\ (forall r u, unfolds_all a r u -> unfolds_all b r u).
Proof.
  intros a b E. apply (unfolds_mutind a (fun i u _ => unfolds b i u) (fun r u _ => unfolds_all b r u)).
  - intros i s l G _ H. apply (U_style b i s l); auto. rewrite <- E. auto.
  - constructor.
  - intros i r l l' _ H _ H'. constructor; auto.
Qed.

Lemma edge_ext : forall a b, same_styles a b -> forall x y, edge a x y -> edge b x y.
Proof. intros a b E x y (s & l & G & R & I). exists s, l. rewrite <- E. auto. Qed.

Lemma reach_ext : forall a b, same_styles a b -> forall x y, reach a x y -> reach b x y.
Proof.
  intros a b E x y R. induction R; [apply rt_step; eapply edge_ext; eauto|apply rt_refl|eapply rt_trans; eauto].
Qed.

Lemma path_ext : forall a b, same_styles a b -> forall x y, path a x y -> path b x y.
Proof. intros a b E x y R. induction R; [apply t_step; eapply edge_ext; eauto|eapply t_trans; eauto]. Qed.

Lemma same_sym : forall a b, same_styles a b -> same_styles b a.
Proof. intros a b E i. auto. Qed.

Lemma settled_ext : forall a b st, same_styles a b -> settled a st -> settled b st.
Proof.
  intros a b st E [L C]. split; auto. intros i l H. destruct (C i l H) as (u & U & ->). exists u. split; auto.
  apply (unfolds_ext a b E). auto.
Qed.

Lemma attrs_ext : forall a b i, same_styles a b -> attrs_of a i = attrs_of b i.
Proof. intros a b i E. unfold attrs_of. rewrite E. auto. Qed.

(** ** Computed styles *)

(** Computed sizes are never in pixels. *)
Definition ok_c (c : computed) : Prop :=
  (forall f, fontSize (c_attrs c) = Some f -> f_unit f <> Px) /\ (forall q, lineHeight (c_attrs c) <> Some (LSize Px q)).
Definition ok_o (o : option computed) : Prop := forall c, o = Some c -> ok_c c.

Definition px_font (a : sattrs) : Prop := exists f, fontSize a = Some f /\ f_unit f = Px.

Lemma times_unit : forall a b, is_pct b = true -> f_unit a <> Px -> f_unit (times a b) <> Px.
Proof.
  intros a b B A. apply PropsFont.pct_unit in B. unfold times. destruct (f_unit a) eqn:U; [congruence| |]; rewrite PropsFont.unit_mul; congruence.
Qed.
Lemma times_unit_l : forall a b, is_pct a = true -> f_unit b <> Px -> f_unit (times a b) <> Px.
Proof. intros a b A B. rewrite PropsFont.times_pct_l; auto. rewrite PropsFont.unit_mul. auto. Qed.
Lemma pct_not_px : forall a, is_pct a = true -> f_unit a <> Px.
Proof. intros a A. apply PropsFont.pct_unit in A. congruence. Qed.

Lemma font_ok : forall z spec parent region defer, ok_o parent -> ok_o region ->
  match compute_font_size z spec parent region defer with
  | SOk o => (forall f, o = Some f -> f_unit f <> Px) /\ (z_extent z = None -> ~ px_font spec)
  | SErr e => e = PlainException /\ z_extent z = None /\ px_font spec
  end.
Proof.
  intros z spec parent region defer OP OR. unfold compute_font_size.
  assert (Fp : forall f, opt_font parent = Some f -> f_unit f <> Px).
  { destruct parent as [c|]; cbn [opt_font]; [|discriminate]. intros f. apply (OP c eq_refl). }
  assert (Fr : forall f, opt_font region = Some f -> f_unit f <> Px).
  { destruct region as [c|]; cbn [opt_font]; [|discriminate]. intros f. apply (OR c eq_refl). }
  assert (One : f_unit one_cell <> Px) by discriminate.
  set (result := match fontSize spec with Some s => _ | None => _ end).
  assert (Res : forall r, result = Some r -> f_unit r = Px -> px_font spec).
  { intros r E U. subst result. destruct (fontSize spec) as [s|] eqn:Es.
    - destruct (is_pct s) eqn:Ps; [|inversion E; subst; exists r; auto]. exfalso. revert U.
      injection E as <-.
      set (r0 := match opt_font parent with Some p => _ | None => _ end).
      assert (U0 : f_unit r0 <> Px).
      { subst r0. destruct (opt_font parent) as [p0|]; [apply times_unit; auto|].
        destruct (opt_font region) as [g0|]; [apply times_unit; auto|].
        destruct region; [apply times_unit; auto|]. destruct defer; [apply pct_not_px; auto|apply times_unit; auto]. }
      destruct (is_pct r0) eqn:P0; cbn [andb]; [|auto]. destruct defer; cbn [negb]; auto. apply times_unit_l; auto.
    - exfalso. revert U. destruct (opt_font parent) as [p0|]; [|apply Fr; auto].
      assert (K : forall x, f_unit x <> Px -> f_unit (if (negb defer && is_pct x)%bool then times x one_cell else x) <> Px).
      { intros x X. destruct (is_pct x) eqn:Px0; destruct defer; cbn [negb andb]; auto. apply times_unit_l; auto. }
      destruct (is_pct p0) eqn:Pp.
      + destruct (opt_font region) as [g0|]; injection E as <-; apply K; [apply times_unit; auto|auto].
      + injection E as <-. apply K. auto. }
  destruct result as [r|] eqn:Er.
  - specialize (Res r eq_refl).
    assert (Ps : z_extent z = None -> f_unit r <> Px -> ~ px_font spec).
    { intros _ U (f & F & U'). subst result. rewrite F in Er.
      replace (is_pct f) with false in Er by (unfold is_pct; rewrite U'; auto). injection Er as <-. auto. }
    destruct (f_unit r) eqn:U.
    + unfold pixels_to_cells. destruct (z_extent z) as [[ew eh]|]; cbn [sbind]; [|auto].
      destruct (f_h r); cbn [sbind]; (split; [intros f E; injection E as <-; discriminate|discriminate]).
    + split; [intros f E; injection E as <-; congruence|intros Z; apply Ps; auto; discriminate].
    + split; [intros f E; injection E as <-; congruence|intros Z; apply Ps; auto; discriminate].
  - split; [destruct defer; intros f E; inversion E; auto|]. intros _ (f & F & U). subst result. rewrite F in Er.
    destruct (is_pct f); discriminate.
Qed.

Lemma height_ok : forall z spec parent region fs, ok_o parent -> ok_o region ->
  match compute_line_height z spec parent region fs with
  | SOk o => (forall q, o <> Some (LSize Px q)) /\ (z_extent z = None -> forall q, lineHeight spec <> Some (LSize Px q))
  | SErr e => e = PlainException /\ z_extent z = None /\ exists q, lineHeight spec = Some (LSize Px q)
  end.
Proof.
  intros z spec parent region fs OP OR. unfold compute_line_height.
  set (pick := fun c : option computed => match c with Some x => if c_default_lh x then None else lineHeight (c_attrs x) | None => None end).
  assert (K : forall o, ok_o o -> forall q, pick o <> Some (LSize Px q)).
  { intros [c|] O q; cbn [pick]; [|discriminate]. destruct (c_default_lh c); [discriminate|]. apply (O c eq_refl). }
  change (match parent with Some x => if c_default_lh x then None else lineHeight (c_attrs x) | None => None end) with (pick parent).
  change (match region with Some x => if c_default_lh x then None else lineHeight (c_attrs x) | None => None end) with (pick region).
  assert (S : forall q, or_else (lineHeight spec) (or_else (pick parent) (pick region)) = Some (LSize Px q) <-> lineHeight spec = Some (LSize Px q)).
  { intros q. destruct (lineHeight spec); cbn [or_else]; [tauto|]. split; [|discriminate]. intros H. exfalso.
    destruct (pick parent) eqn:E; cbn [or_else] in H; [apply (K parent OP q); congruence|apply (K region OR q); congruence]. }
  destruct (or_else (lineHeight spec) (or_else (pick parent) (pick region))) as [[|[] q]|].
  - split; [discriminate|]. intros _ q E. apply S in E. discriminate.
  - unfold pixels_to_cells. cbn [f_h f_v]. destruct (z_extent z) as [[ew eh]|]; cbn [sbind].
    + split; discriminate.
    + split; auto. split; auto. exists q. apply S. auto.
  - split; [discriminate|]. intros _ q' E. apply S in E. discriminate.
  - assert (N : forall q', lineHeight spec <> Some (LSize Px q')) by (intros q' E; apply S in E; discriminate).
    destruct fs as [f|]; [destruct (f_unit f)|]; (split; [discriminate|auto]).
  - split; [discriminate|]. intros _ q' E. apply S in E. discriminate.
Qed.

Lemma compute_ok : forall z spec parent region defer, ok_o parent -> ok_o region ->
  match compute_style z spec parent region defer with
  | SOk c => ok_c c /\ (z_extent z = None -> ~ px_font spec /\ forall q, lineHeight spec <> Some (LSize Px q))
  | SErr e => e = PlainException /\ z_extent z = None /\ (px_font spec \/ exists q, lineHeight spec = Some (LSize Px q))
  end.
Proof.
  intros z spec parent region defer OP OR.
  assert (F := font_ok z spec parent region defer OP OR).
  destruct (compute_style z spec parent region defer) as [c|e] eqn:C.
  - destruct (compute_style_spec _ _ _ _ _ _ C) as (fs & lh & Ef & El & Cf & Cl & _).
    rewrite Ef in F. assert (H := height_ok z spec parent region fs OP OR). rewrite El in H. split.
    + split; [rewrite Cf; apply F|]. intros q. rewrite Cl. destruct lh as [x|]; cbn [or_else]; [apply H|discriminate].
    + intros Z. split; [apply F; auto|apply H; auto].
  - unfold compute_style in C. destruct (compute_font_size z spec parent region defer) as [fs|e0]; cbn [sbind] in C.
    + assert (H := height_ok z spec parent region fs OP OR).
      destruct (compute_line_height z spec parent region fs) as [lh|e0]; cbn [sbind] in C; [discriminate|].
      injection C as <-. destruct H as (-> & Z & Q). auto.
    + injection C as <-. destruct F as (-> & Z & Q). auto.
Qed.

(** ** The styles of an element *)

Lemma nearest_in : forall A (l : list (option A)) x, nearest l = Some x -> In (Some x) l.
Proof.
  intros A. induction l as [|[y|] l IH]; intros x H; cbn in *; [discriminate|left; congruence|right; auto].
Qed.

Lemma nearest_filter : forall A (f : string -> option A) x l, f x = None ->
  nearest (map f (filter (fun y => negb (y =? x)) l)) = nearest (map f l).
Proof.
  intros A f x l N. induction l as [|y l IH]; cbn [filter map]; auto.
  destruct (String.eqb_spec y x) as [->|]; cbn [negb map]; rewrite !nearest_cons, ?IH; auto.
  rewrite N. auto.
Qed.

Lemma nearest_first : forall A (f : string -> option A) l, nearest (map f (keep_first l)) = nearest (map f l).
Proof.
  intros A f. induction l as [|x l IH]; cbn [keep_first map]; auto. rewrite !nearest_cons.
  destruct (f x) eqn:E; auto. cbn [or_else]. rewrite nearest_filter; auto.
Qed.

Definition bare (a : sattrs) : Prop := fontSize a = None /\ lineHeight a = None.

Lemma nearest_bare : forall A (get : sattrs -> option A) extra l, (forall a, In a extra -> get a = None) ->
  nearest (map get (extra ++ l)) = nearest (map get l).
Proof.
  intros A get. induction extra as [|a extra IH]; intros l H; auto. cbn [app map]. rewrite nearest_cons.
  rewrite (H a (or_introl eq_refl)). cbn [or_else]. apply IH. intros b B. apply H. right. auto.
Qed.

Lemma unfolds_all_fun : forall T r u v, unfolds_all T r u -> unfolds_all T r v -> u = v.
Proof. intros T r u v U V. apply (proj2 (unfolds_fun T) _ _ U _ V). Qed.

Definition no_px_font (T : list (string * kind)) : Prop := forall i, ~ px_font (attrs_of T i).

Lemma collect_ok : forall T l z w style parent defer extra, same_styles l T -> settled T (w_styles w) ->
  ok_o parent -> (forall i e, w_region w = Some (i, e) -> ok_c (e_computed e)) ->
  (forall a, In a extra -> bare a) -> (z_extent z = None -> no_px_font T) ->
  let '(r, w') := collect l z w style parent defer extra in
  settled T (w_styles w') /\ w_region w' = w_region w /\
  match r with
  | SOk e => ok_c (e_computed e) /\ (forall i, In i (refs style) -> sound T i) /\
             (z_extent z = None -> forall q, ~ line_height T (refs style) (LSize Px q))
  | SErr (Circle x) => path T x x /\ exists i, In i (refs style) /\ reach T i x
  | SErr (Missing x) => get_style T x = None /\
      (In x (refs style) \/ exists i y, In i (refs style) /\ reach T i y /\ edge T y x)
  | SErr PlainException => z_extent z = None /\ exists q, line_height T (refs style) (LSize Px q)
  | SErr _ => False
  end.
Proof.
  intros T l z w style parent defer extra E S OP OR B NF. unfold collect. fold (refs style).
  assert (Y := collect_refs_spec l (refs style) [] [] (w_styles w) (settled_ext _ _ _ (same_sym _ _ E) S) (U_nil l)).
  cbn [keep_first app] in Y. unfold collect_refs.
  destruct (each_ref (ordered_styles (enough l) l) l (refs style) [] (w_styles w)) as [[rs|x] st].
  - destruct Y as [S' (u & U & ->)]. apply (settled_ext _ _ _ E) in S'. apply (proj2 (unfolds_ext _ _ E)) in U.
    set (spec := resolve_styles _).
    assert (G : forall A (get : sattrs -> option A), get no_attrs = None ->
      (forall a b, get (add a b) = or_else (get a) (get b)) -> (forall a, In a extra -> get a = None) ->
      get spec = nearest (map (fun i => get (attrs_of T i)) u)).
    { intros A get G0 Ga Gb. subst spec. unfold resolve_styles. rewrite (fold_add A get Ga), G0. cbn [or_else].
      rewrite nearest_bare; auto. rewrite map_map, <- (nearest_first A (fun i => get (attrs_of T i)) u). f_equal. apply map_ext. intros i. f_equal. apply attrs_ext. auto. }
    assert (Gf : fontSize spec = nearest (map (fun i => fontSize (attrs_of T i)) u)).
    { apply G; auto. intros a Ha. apply (B a Ha). }
    assert (Gl : lineHeight spec = nearest (map (fun i => lineHeight (attrs_of T i)) u)).
    { apply G; auto. intros a Ha. apply (B a Ha). }
    assert (C := compute_ok z spec parent (match w_region w with Some (_, g) => Some (e_computed g) | None => None end) defer OP).
    assert (OR' : ok_o (match w_region w with Some (_, g) => Some (e_computed g) | None => None end)).
    { destruct (w_region w) as [[i g]|]; intros c Ec; [injection Ec as <-; eapply OR; eauto|discriminate]. }
    specialize (C OR').
    destruct (compute_style _ _ _ _ _) as [c|e]; cbn [w_styles w_region e_computed]; split; auto; split; auto.
    + destruct C as [C1 C2]. split; auto. split.
      * intros i Hi. destruct (unfolds_all_in _ _ _ _ U Hi) as (l0 & _ & _ & U0 & _). eapply unfolds_sound; eauto.
      * intros Z q (v & V & Nq). rewrite (unfolds_all_fun _ _ _ _ V U) in Nq. rewrite <- Gl in Nq. apply (proj2 (C2 Z) q). auto.
    + destruct C as (-> & Z & [P|(q & Q)]).
      * exfalso. destruct P as (f & F & Uf). rewrite Gf in F. apply nearest_in in F. apply in_map_iff in F as (i & F & _).
        apply (NF Z i). exists f. auto.
      * split; auto. exists q, u. rewrite <- Gl. auto.
  - cbn [w_styles w_region]. destruct Y as [S' Y]. apply (settled_ext _ _ _ E) in S'. split; auto. split; auto.
    destruct x as [x|x|x| | |]; try tauto.
    + destruct Y as (i & Hi & R & P). split; [eapply path_ext; eauto|]. exists i. split; auto. eapply reach_ext; eauto.
    + destruct Y as [M Y]. rewrite E in M. split; auto. destruct Y as [Y|(i & y & Hi & R & D)]; auto. right. exists i, y.
      split; auto. split; [eapply reach_ext; eauto|eapply edge_ext; eauto].
Qed.
