(** C45: the region an element is in.  C46: the styles that apply to it. *)

From Coq Require Import List String Bool QArith Lia.
From Verif Require Import IdModel StyleModel StyleProofs PropsStyle StyleTree.
Import ListNotations.
Open Scope string_scope.

(** ** C45 *)

Definition takes_region (k : ekind) : bool := match k with Div | P => true | _ => false end.

(** The region named nearest: by the element or an ancestor. *)
Definition names (i : item) : option string := if takes_region (i_kind i) then i_region i else None.
Definition named (chain : list item) : option string := nearest (map names chain).

(** No region is named below another. *)
Definition here (k : ekind) (r : option string) : option string := if takes_region k then r else None.
Fixpoint bare (t : sel) : bool :=
  match t with SNode k _ r kids => match here k r with Some _ => false | None => forallb bare kids end end.
Fixpoint flat (t : sel) : bool :=
  match t with SNode k _ r kids => match here k r with Some _ => forallb bare kids | None => forallb flat kids end end.

Lemma set_region_here : forall regions k r w w', set_region regions k r w = SOk w' ->
  match here k r with
  | None => w' = w
  | Some i => exists e, dict_get regions i = Some e /\ w' = mkW (w_styles w) (w_stack w) (Some (i, e))
  end.
Proof.
  intros regions k r w w' H. unfold set_region, here in *. destruct k, r; cbn in *; try congruence;
    destruct (dict_get regions s); try discriminate; inversion H; eauto.
Qed.

Lemma unset_region_here : forall k r w, unset_region k r w =
  match here k r with None => w | Some _ => mkW (w_styles w) (w_stack w) None end.
Proof. intros [] []; auto. Qed.

Definition in_effect (w : world) : option string := match w_region w with Some (i, _) => Some i | None => None end.

Lemma in_effect_pop : forall w, in_effect (pop w) = in_effect w.
Proof. auto. Qed.

(** Within elements that name no region the one in effect stays. *)
Lemma bare_pass : forall d z regions t parent w o w', bare t = true -> style_pass d z regions parent t w = SOk (o, w') ->
  w_region w' = w_region w /\ forall anc i, within t o anc i -> e_region (i_el i) = in_effect w /\ named (i :: anc) = None.
Proof.
  intros d z regions. induction t as [k s r kids IH] using sel_ind'. intros parent w o w' B H.
  apply style_pass_inv in H as (w1 & e & w2 & os & w3 & H1 & H2 & H3 & -> & ->).
  apply set_region_here in H1. cbn [bare] in B. destruct (here k r) eqn:Hh; [discriminate|]. subst w1.
  apply collect_fields in H2 as (_ & Wr & Er & _). fold (in_effect w) in Er.
  assert (K : forall ks w0 os0 w4, Forall (fun t => forall parent w o w', bare t = true ->
        style_pass d z regions parent t w = SOk (o, w') -> w_region w' = w_region w /\
        forall anc i, within t o anc i -> e_region (i_el i) = in_effect w /\ named (i :: anc) = None) ks ->
      forallb bare ks = true -> pass_all d z regions (Some (e_computed e)) ks w0 = SOk (os0, w4) ->
      w_region w4 = w_region w0 /\ forall n t' o' anc i, nth_error ks n = Some t' -> nth_error os0 n = Some o' -> within t' o' anc i ->
        e_region (i_el i) = in_effect w0 /\ named (i :: anc) = None).
  { induction ks as [|x m IHm]; intros w0 os0 w4 F Bs P0.
    - inversion P0; subst. split; auto. intros [|n] ? ? ? ? N; discriminate.
    - inversion F as [|? ? Fx Fm]; subst. cbn in Bs. apply andb_true_iff in Bs as [Bx Bm].
      apply pass_all_cons in P0 as (o0 & w5 & os' & Ex & Em & ->).
      destruct (Fx _ _ _ _ Bx Ex) as [Rx Wx]. destruct (IHm _ _ _ Fm Bm Em) as [Rm Wm]. split; [congruence|].
      intros [|n] t' o' anc i N N' W; cbn in N, N'; [inversion N; inversion N'; subst; auto|].
      destruct (Wm _ _ _ _ _ N N' W) as [E1 E2]. split; auto. rewrite E1. unfold in_effect. rewrite Rx. auto. }
  destruct (K kids (push w2 e) os w3 IH B H3) as [R3 W3]. cbn [push w_region] in R3. split.
  - rewrite unset_region_here, Hh. destruct k; cbn [pop w_region]; congruence.
  - intros anc i W. inversion W as [|? ? ? ? ? ? n kid o anc' i' N N' W']; subst.
    + cbn [i_el]. split; auto. unfold named, names. cbn. unfold here in Hh. rewrite Hh. auto.
    + destruct (W3 _ _ _ _ _ N N' W') as [E1 E2]. split.
      * rewrite E1. unfold in_effect, push. cbn. rewrite Wr. auto.
      * change (i :: anc' ++ [mkI k s r e])%list with ((i :: anc') ++ [mkI k s r e])%list. unfold named in *.
        rewrite map_app, nearest_app, E2. cbn. unfold names. cbn. unfold here in Hh. rewrite Hh. auto.
Qed.

Lemma flat_pass : forall d z regions t parent w o w', flat t = true -> w_region w = None ->
  style_pass d z regions parent t w = SOk (o, w') ->
  w_region w' = None /\ forall anc i, within t o anc i -> e_region (i_el i) = named (i :: anc).
Proof.
  intros d z regions. induction t as [k s r kids IH] using sel_ind'. intros parent w o w' B Wn H.
  apply style_pass_inv in H as (w1 & e & w2 & os & w3 & H1 & H2 & H3 & -> & ->).
  apply set_region_here in H1. cbn [flat] in B. unfold here in *. destruct (if takes_region k then r else None) as [j|] eqn:Hh.
  - destruct H1 as (g & Eg & ->). apply collect_fields in H2 as (_ & Wr & Er & _). cbn [w_region] in *.
    assert (K : forall ks w0 os0 w4, w_region w0 = Some (j, g) -> forallb bare ks = true -> pass_all d z regions (Some (e_computed e)) ks w0 = SOk (os0, w4) ->
      forall n t' o' anc i, nth_error ks n = Some t' -> nth_error os0 n = Some o' -> within t' o' anc i ->
        e_region (i_el i) = Some j /\ named (i :: anc) = None).
    { induction ks as [|x m IHm]; intros w0 os0 w4 W0 Bs P0.
      - intros [|n] ? ? ? ? N; discriminate.
      - cbn in Bs. apply andb_true_iff in Bs as [Bx Bm]. apply pass_all_cons in P0 as (o0 & w5 & os' & Ex & Em & ->).
        destruct (bare_pass _ _ _ _ _ _ _ _ Bx Ex) as [Rx Wx].
        intros [|n] t' o' anc i N N' W; cbn in N, N'.
        + inversion N; inversion N'; subst. destruct (Wx _ _ W) as [E1 E2]. split; auto. rewrite E1. unfold in_effect. rewrite W0. auto.
        + refine (IHm w5 os' w4 _ Bm Em _ _ _ _ _ N N' W). rewrite Rx. exact W0. }
    split; [rewrite unset_region_here; unfold here; rewrite Hh; destruct k; auto|].
    intros anc i W. inversion W as [|? ? ? ? ? ? n kid o anc' i' N N' W']; subst.
    + cbn [i_el]. rewrite Er. unfold named, names. cbn. rewrite Hh. auto.
    + destruct (K kids (push w2 e) os w3 Wr B H3 _ _ _ _ _ N N' W') as [E1 E2]. rewrite E1.
      change (i :: anc' ++ [mkI k s r e])%list with ((i :: anc') ++ [mkI k s r e])%list. unfold named in *.
      rewrite map_app, nearest_app, E2. cbn. unfold names. cbn. rewrite Hh. auto.
  - subst w1. apply collect_fields in H2 as (_ & Wr & Er & _). rewrite Wn in *.
    assert (K : forall ks w0 os0 w4, Forall (fun t => forall parent w o w', flat t = true -> w_region w = None ->
          style_pass d z regions parent t w = SOk (o, w') -> w_region w' = None /\
          forall anc i, within t o anc i -> e_region (i_el i) = named (i :: anc)) ks ->
        forallb flat ks = true -> w_region w0 = None -> pass_all d z regions (Some (e_computed e)) ks w0 = SOk (os0, w4) ->
        w_region w4 = None /\ forall n t' o' anc i, nth_error ks n = Some t' -> nth_error os0 n = Some o' -> within t' o' anc i ->
          e_region (i_el i) = named (i :: anc)).
    { induction ks as [|x m IHm]; intros w0 os0 w4 F Bs W0 P0.
      - inversion P0; subst. split; auto. intros [|n] ? ? ? ? N; discriminate.
      - inversion F as [|? ? Fx Fm]; subst. cbn in Bs. apply andb_true_iff in Bs as [Bx Bm].
        apply pass_all_cons in P0 as (o0 & w5 & os' & Ex & Em & ->).
        destruct (Fx _ _ _ _ Bx W0 Ex) as [Rx Wx]. destruct (IHm _ _ _ Fm Bm Rx Em) as [Rm Wm]. split; auto.
        intros [|n] t' o' anc i N N' W; cbn in N, N'; [inversion N; inversion N'; subst; auto|eauto]. }
    destruct (K kids (push w2 e) os w3 IH B Wr H3) as [R3 W3]. split.
    + rewrite unset_region_here. unfold here. rewrite Hh. destruct k; auto.
    + intros anc i W. inversion W as [|? ? ? ? ? ? n kid o anc' i' N N' W']; subst.
      * cbn [i_el]. rewrite Er. unfold named, names. cbn. rewrite Hh. auto.
      * rewrite (W3 _ _ _ _ _ N N' W').
        change (i :: anc' ++ [mkI k s r e])%list with ((i :: anc') ++ [mkI k s r e])%list. unfold named.
        rewrite map_app, nearest_app. cbn [map]. change (names (mkI k s r e)) with (if takes_region k then r else None). rewrite Hh. cbn [nearest]. rewrite or_else_none. auto.
Qed.

Lemma validate_pass : forall d z body regions o, validate_styles d z body = SOk (regions, o) ->
  exists w w', w_region w = None /\ w_stack w = [] /\ style_pass d z regions None body w = SOk (o, w').
Proof.
  intros d z body regions o H. unfold validate_styles in H.
  destruct (check_styles z d); [|discriminate]. cbn [sbind] in H.
  destruct (pass_regions d z d (mkW sstart [] None)) as [[rs w]|] eqn:Pr; [|discriminate]. cbn [sbind] in H.
  destruct (style_pass d z rs None body w) as [[o' w']|] eqn:S; [|discriminate]. cbn [sbind] in H. inversion H; subst rs o'.
  destruct (pass_regions_linked d z d (mkW sstart [] None) _ _ (settled_start d) eq_refl eq_refl Pr) as (_ & B & C & _). eauto.
Qed.

(** Where regions are not nested, every element is in the region named nearest. *)
Theorem C45_nearest : forall d z body regions o anc i, validate_styles d z body = SOk (regions, o) -> flat body = true ->
  within body o anc i -> e_region (i_el i) = named (i :: anc).
Proof.
  intros d z body regions o anc i H F W. apply validate_pass in H as (w & w' & Wn & _ & S).
  apply (proj2 (flat_pass _ _ _ _ _ _ _ _ F Wn S)). auto.
Qed.

(** An element that names a region is in it, nested or not. *)
Theorem C45_own : forall d z body regions o anc i r, validate_styles d z body = SOk (regions, o) ->
  within body o anc i -> names i = Some r -> e_region (i_el i) = Some r /\ dict_get regions r <> None.
Proof.
  intros d z body regions o anc i r H W Nm. apply validate_pass in H as (w & w' & _ & _ & S).
  revert w w' o S anc W. generalize (@None computed) as parent. revert body.
  induction body as [k s r' kids IH] using sel_ind'. intros parent w w' o H anc W.
  apply style_pass_inv in H as (w1 & e & w2 & os & w3 & H1 & H2 & H3 & -> & ->).
  inversion W as [|? ? ? ? ? ? n kid o anc' i' N N' W']; subst.
  - apply set_region_here in H1. unfold names, here in *. cbn in Nm. rewrite Nm in H1. destruct H1 as (g & Eg & ->).
    apply collect_fields in H2 as (_ & _ & Er & _). cbn in *. split; congruence.
  - clear W H1 H2. revert n kids IH H3 N N'. generalize (push w2 e) as w0. induction os as [|o1 os IHo]; intros w0 n kids IH H3 N N'.
    + destruct n; discriminate.
    + destruct kids as [|x m]; [destruct n; discriminate|]. apply pass_all_cons in H3 as (o0 & w5 & os' & Ex & Em & E). inversion E; subst.
      inversion IH as [|? ? Ix Im]; subst. destruct n as [|n]; cbn in N, N'.
      * inversion N; inversion N'; subst. eauto.
      * eapply IHo; eauto.
Qed.

(** Nested it fails: after an element with a region of its own, what is left
    of the enclosing element is in no region. *)
Definition reg (i : string) : string * kind := (i, KRegion (mkRegion None None)).
Theorem C45_nested : exists d z body regions o anc i, validate_styles d z body = SOk (regions, o) /\
  within body o anc i /\ named (i :: anc) = Some "R1" /\ e_region (i_el i) = None.
Proof.
  set (body := SNode Body None None [SNode Div None (Some "R1") [SNode P None (Some "R2") []; SNode P None None []]]).
  set (d := [reg "R1"; reg "R2"]). set (z := mkSizing None (32, 15)).
  destruct (validate_styles d z body) as [[regions o]|] eqn:E; [|vm_compute in E; discriminate].
  assert (E' := E). vm_compute in E'. inversion E'; subst o regions; clear E'.
  eexists _, _, _, _, _, _, _. split; [exact E|]. split.
  - eapply W_below with (n := 0%nat); [reflexivity|reflexivity|]. eapply W_below with (n := 1%nat); [reflexivity|reflexivity|]. apply W_here.
  - auto.
Qed.

Example C45_case : let body := SNode Body None None [SNode Div None None [SNode P None (Some "R2") [SNode Span None None []]; SNode P None None []];
    SNode Div None (Some "R1") [SNode P None None []]] in
  flat body = true /\
  match validate_styles [reg "R1"; reg "R2"] (mkSizing None (32, 15)) body with
  | SOk (_, SOut _ _ _ [SOut _ _ d1 [SOut _ _ p1 [SOut _ _ s1 _]; SOut _ _ p2 _]; SOut _ _ d2 [SOut _ _ p3 _]]) =>
      map e_region [d1; p1; s1; p2; d2; p3] = [None; Some "R2"; Some "R2"; None; Some "R1"; Some "R1"]
  | _ => False
  end.
Proof. vm_compute. auto. Qed.

(** ** C46 *)

(** Bodies hold divs, divs hold divs and ps, ps and spans hold spans. *)
Definition is_span (t : sel) : bool := match t with SNode Span _ _ _ => true | _ => false end.
Definition is_div_p (t : sel) : bool := match t with SNode Div _ _ _ | SNode P _ _ _ => true | _ => false end.
Fixpoint shaped (t : sel) : bool :=
  match t with
  | SNode k _ _ kids => (match k with Body | Div => forallb is_div_p kids | P | Span => forallb is_span kids end && forallb shaped kids)%bool
  end.

(** The styles of the divs of a tree, in document order. *)
Fixpoint divs (o : sout) : list (list string) :=
  match o with
  | SOut k _ e os => ((match k with Div => [e_referenced e] | _ => [] end) ++ List.concat (map divs os))%list
  end.

(** [held t o i l]: [l] are the styles of the ancestors of [i] and of the divs
    before it, in document order. *)
Inductive held : sel -> sout -> item -> list (list string) -> Prop :=
| H_here : forall k s r e kids os, held (SNode k s r kids) (SOut k r e os) (mkI k s r e) []
| H_below : forall k s r e kids os n kid o i l, nth_error kids n = Some kid -> nth_error os n = Some o ->
    held kid o i l ->
    held (SNode k s r kids) (SOut k r e os) i (e_referenced e :: List.concat (map divs (firstn n os)) ++ l)%list.

Lemma shaped_pass : forall d z regions t parent w o w', shaped t = true ->
  style_pass d z regions parent t w = SOk (o, w') ->
  (match t with SNode Body _ _ _ => True | _ => w_stack w' = (w_stack w ++ divs o)%list end) /\
  (match t with SNode (P | Span) _ _ _ => divs o = [] | _ => True end) /\
  forall i l, held t o i l -> e_inherited (i_el i) = fold_left (fresh (e_referenced (i_el i))) (w_stack w ++ l)%list [].
Proof.
  intros d z regions. induction t as [k s r kids IH] using sel_ind'. intros parent w o w' B H.
  apply style_pass_inv in H as (w1 & e & w2 & os & w3 & H1 & H2 & H3 & -> & ->).
  assert (S1 : w_stack w1 = w_stack w) by (apply set_region_here in H1; destruct (here k r); [destruct H1 as (? & _ & ->)|subst]; auto).
  apply collect_fields in H2 as (S2 & _ & _ & _ & _ & _ & Inh & _). cbn [shaped] in B. apply andb_true_iff in B as [Bk Bs].
  assert (K : forall ks w0 os0 w4, Forall (fun t => forall parent w o w', shaped t = true ->
        style_pass d z regions parent t w = SOk (o, w') ->
        (match t with SNode Body _ _ _ => True | _ => w_stack w' = (w_stack w ++ divs o)%list end) /\
        (match t with SNode (P | Span) _ _ _ => divs o = [] | _ => True end) /\
        forall i l, held t o i l -> e_inherited (i_el i) = fold_left (fresh (e_referenced (i_el i))) (w_stack w ++ l)%list []) ks ->
      forallb shaped ks = true -> (match k with Body | Div => forallb is_div_p ks | P | Span => forallb is_span ks end) = true ->
      pass_all d z regions (Some (e_computed e)) ks w0 = SOk (os0, w4) ->
      w_stack w4 = (w_stack w0 ++ List.concat (map divs os0))%list /\
      (match k with P | Span => List.concat (map divs os0) = [] | _ => True end) /\
      forall n t' o' i l, nth_error ks n = Some t' -> nth_error os0 n = Some o' -> held t' o' i l ->
        e_inherited (i_el i) = fold_left (fresh (e_referenced (i_el i))) (w_stack w0 ++ List.concat (map divs (firstn n os0)) ++ l)%list []).
  { induction ks as [|x m IHm]; intros w0 os0 w4 F Bs0 Bk0 P0.
    - inversion P0; subst. rewrite app_nil_r. split; auto. split; [destruct k; auto|]. intros [|n] ? ? ? ? N; discriminate.
    - inversion F as [|? ? Fx Fm]; subst. cbn in Bs0. apply andb_true_iff in Bs0 as [Bx Bm].
      apply pass_all_cons in P0 as (o0 & w5 & os' & Ex & Em & ->).
      destruct (Fx _ _ _ _ Bx Ex) as (Rx & Dx & Wx).
      assert (Bk1 : (match k with Body | Div => forallb is_div_p m | P | Span => forallb is_span m end) = true)
        by (destruct k; cbn in Bk0; apply andb_true_iff in Bk0; tauto).
      assert (Rx' : w_stack w5 = (w_stack w0 ++ divs o0)%list)
        by (destruct x as [[] ? ? ?]; auto; destruct k; cbn in Bk0; discriminate).
      assert (Dx' : match k with P | Span => divs o0 = [] | _ => True end)
        by (destruct k; auto; destruct x as [[] ? ? ?]; auto; cbn in Bk0; discriminate).
      destruct (IHm _ _ _ Fm Bm Bk1 Em) as (Rm & Dm & Wm). cbn [map List.concat]. split; [rewrite Rm, Rx', app_assoc; auto|].
      split; [destruct k; auto; rewrite Dx', Dm; auto|].
      intros [|n] t' o' i l N N' W; cbn in N, N'.
      + inversion N; inversion N'; subst. cbn. auto.
      + rewrite (Wm _ _ _ _ _ N N' W), Rx'. cbn [firstn map List.concat]. rewrite <- !app_assoc. auto. }
  destruct (K kids (push w2 e) os w3 IH Bs Bk H3) as (R3 & D3 & W3). cbn [push w_stack] in R3. rewrite S2, S1 in R3.
  assert (Su : w_stack (unset_region k r w3) = w_stack w3) by (rewrite unset_region_here; destruct (here k r); auto).
  split; [|split].
  - destruct k; auto; cbn [divs].
    + rewrite Su, R3, <- app_assoc. auto.
    + unfold pop. cbn [w_stack]. rewrite Su, R3, D3, !app_nil_r. apply removelast_last.
    + unfold pop. cbn [w_stack]. rewrite Su, R3, D3, !app_nil_r. apply removelast_last.
  - destruct k; auto.
  - intros i l W. inversion W as [|? ? ? ? ? ? n kid o i' l' N N' W']; subst.
    + cbn [i_el]. rewrite Inh, S1, app_nil_r. auto.
    + rewrite (W3 _ _ _ _ _ N N' W'). cbn [push w_stack]. rewrite S2, S1. rewrite <- !app_assoc. auto.
Qed.

Lemma fresh_spec : forall old l acc, exists r, fresh old acc l = (acc ++ r)%list /\ NoDup r /\
  forall x, In x r <-> In x l /\ ~ In x old /\ ~ In x acc.
Proof.
  induction l as [|x l IH]; intros acc; cbn [fresh].
  - exists []. rewrite app_nil_r. split; auto. split; [constructor|]. intros x. cbn. tauto.
  - destruct (mem x old || mem x acc)%bool eqn:M.
    + destruct (IH acc) as (r & -> & N & S). exists r. split; auto. split; auto. intros y. rewrite S. cbn.
      apply orb_true_iff in M as [M|M]; apply mem_In in M; intuition (subst; tauto).
    + apply orb_false_iff in M as [M1 M2]. apply mem_out in M1. apply mem_out in M2.
      destruct (IH (acc ++ [x])%list) as (r & -> & N & S). exists (x :: r). rewrite <- app_assoc. split; auto. split.
      * constructor; auto. intros H. apply S in H as (_ & _ & H). apply H. apply in_app_iff. right. left. auto.
      * intros y. cbn. rewrite S, in_app_iff. cbn. destruct (string_dec x y) as [->|Ne]; [tauto|]. intuition congruence.
Qed.

Lemma NoDup_app_intro : forall A (a b : list A), NoDup a -> NoDup b -> (forall x, In x a -> ~ In x b) -> NoDup (a ++ b).
Proof.
  induction a as [|x a IH]; intros b Na Nb D; auto. inversion Na; subst. cbn. constructor.
  - rewrite in_app_iff. intros [H|H]; auto. apply (D x); auto. left. auto.
  - apply IH; auto. intros y Hy. apply D. right. auto.
Qed.

Lemma fresh_all : forall old l acc, exists r, fold_left (fresh old) l acc = (acc ++ r)%list /\ NoDup r /\
  forall x, In x r <-> In x (List.concat l) /\ ~ In x old /\ ~ In x acc.
Proof.
  induction l as [|x l IH]; intros acc; cbn [fold_left].
  - exists []. rewrite app_nil_r. split; auto. split; [constructor|]. intros x. cbn. tauto.
  - destruct (fresh_spec old x acc) as (r1 & -> & N1 & S1). destruct (IH (acc ++ r1)%list) as (r2 & -> & N2 & S2).
    exists (r1 ++ r2)%list. rewrite <- app_assoc. split; auto. split.
    + apply NoDup_app_intro; auto. intros y H1 H2. apply S2 in H2 as (_ & _ & H2). apply H2. apply in_app_iff. auto.
    + intros y. rewrite in_app_iff, S1, S2. cbn. rewrite !in_app_iff. rewrite S1.
      destruct (in_dec string_dec y x), (in_dec string_dec y old), (in_dec string_dec y acc); tauto.
Qed.

Lemma held_within : forall t o i l, held t o i l -> exists anc, within t o anc i /\
  forall j, In j anc -> In (e_referenced (i_el j)) l.
Proof.
  induction 1 as [k s r e kids os|k s r e kids os n kid o i l N N' H (anc & W & A)].
  - exists []. split; [constructor|]. intros j [].
  - exists (anc ++ [mkI k s r e])%list. split; [econstructor; eauto|]. intros j Hj. apply in_app_iff in Hj as [Hj|[<-|[]]].
    + right. apply in_app_iff. right. auto.
    + left. auto.
Qed.

Lemma within_held : forall t o anc i, within t o anc i -> exists l, held t o i l.
Proof. induction 1 as [|? ? ? ? ? ? ? ? ? ? ? N N' W (l & H)]; eexists; econstructor; eauto. Qed.

(** The applicable styles of an element: its own in the order of C28, then
    those of its ancestors and of the divs before it, then its region's; each
    once. *)
Theorem C46_applicable : forall d z body regions o i l, validate_styles d z body = SOk (regions, o) -> shaped body = true ->
  held body o i l ->
  (exists u, unfolds_all d (refs (i_style i)) u /\ e_referenced (i_el i) = keep_first u) /\
  (forall x, In x (e_inherited (i_el i)) <-> In x (List.concat l) /\ ~ In x (e_referenced (i_el i))) /\
  (forall x, In x (e_region_styles (i_el i)) <->
     (exists g, region_of regions (i_el i) = Some g /\ In x (e_referenced g)) /\
     ~ In x (e_referenced (i_el i)) /\ ~ In x (e_inherited (i_el i))) /\
  NoDup (validated_styles (i_el i)).
Proof.
  intros d z body regions o i l H B Hd. destruct (held_within _ _ _ _ Hd) as (anc & W & _).
  destruct (validate_pass _ _ _ _ _ H) as (w & w' & _ & Sk & S).
  destruct (shaped_pass _ _ _ _ _ _ _ _ B S) as (_ & _ & Ih). specialize (Ih _ _ Hd). rewrite Sk in Ih. cbn [app] in Ih.
  destruct (validate_linked _ _ _ _ _ H) as [Lk RL]. specialize (Lk _ _ W). inversion Lk as [|? ? _ _ (st & St & R) _ Rs _]; subst.
  assert (Refd : forall st l r, settled d st -> fst (collect_refs d st l) = SOk r ->
            exists u, unfolds_all d l u /\ r = keep_first u).
  { intros st0 l0 r0 S0 E0. assert (Y := collect_refs_spec d l0 [] [] st0 S0 (U_nil d)). cbn [keep_first app] in Y. unfold collect_refs in E0.
    destruct (each_ref (ordered_styles (enough d) d) d l0 [] st0) as [[q|e] st']; cbn [fst] in E0; [|discriminate].
    inversion E0; subst. destruct Y as [_ (v & V & E)]. exists v. auto. }
  destruct (fresh_all (e_referenced (i_el i)) l []) as (r & Er & Nr & Ir). rewrite Er in Ih. cbn [app] in Ih. clear Er.
  assert (Ur := Refd _ _ _ St R).
  assert (Nd : NoDup (e_referenced (i_el i))) by (destruct Ur as (u & _ & ->); apply keep_first_NoDup).
  split; [exact Ur|].
  assert (I1 : forall x, In x (e_inherited (i_el i)) <-> In x (List.concat l) /\ ~ In x (e_referenced (i_el i))).
  { intros x. rewrite Ih, Ir. cbn. tauto. }
  assert (I2 : forall x, In x (e_region_styles (i_el i)) <->
     (exists g, region_of regions (i_el i) = Some g /\ In x (e_referenced g)) /\
     ~ In x (e_referenced (i_el i)) /\ ~ In x (e_inherited (i_el i))).
  { intros x. rewrite Rs. destruct (region_of regions (i_el i)) as [g|] eqn:Eg.
    - assert (V : validated_styles g = e_referenced g).
      { unfold region_of in Eg. destruct (e_region (i_el i)); [|discriminate]. destruct (RL _ _ Eg) as (ge & _ & L). apply L. }
      rewrite V. unfold fresh_region. rewrite filter_In, negb_true_iff, orb_false_iff, !mem_out. split.
      + intros (Hx & H1 & H2). split; eauto.
      + intros ((g' & Eg' & Hx) & H1 & H2). inversion Eg'; subst. auto.
    - cbn. split; [tauto|]. intros ((g & Eg' & _) & _). discriminate. }
  split; [exact I1|]. split; [exact I2|].
  unfold validated_styles. apply NoDup_app_intro; auto.
  - apply NoDup_app_intro; [rewrite Ih; auto| |].
    + rewrite Rs. destruct (region_of regions (i_el i)) as [g|] eqn:Eg; [|constructor].
      unfold fresh_region. apply NoDup_filter'. unfold region_of in Eg. destruct (e_region (i_el i)); [|discriminate].
      destruct (RL _ _ Eg) as (ge & _ & (_ & (st1 & S1 & R1) & _ & V & _)). rewrite V.
      destruct (Refd _ _ _ S1 R1) as (u1 & _ & ->). apply keep_first_NoDup.
    + intros x Hx Hy. apply I2 in Hy. tauto.
  - intros x Hx Hy. apply in_app_iff in Hy as [Hy|Hy]; [apply I1 in Hy|apply I2 in Hy]; tauto.
Qed.

(** The styles of every ancestor apply. *)
Theorem C46_ancestors : forall d z body regions o anc i j x, validate_styles d z body = SOk (regions, o) -> shaped body = true ->
  within body o anc i -> In j anc -> In x (e_referenced (i_el j)) -> In x (validated_styles (i_el i)).
Proof.
  intros d z body regions o anc i j x H B W Hj Hx.
  assert (X : exists l, held body o i l /\ In (e_referenced (i_el j)) l).
  { clear H B Hx. revert j Hj. induction W as [|k s r e kids os n kid o anc i N N' W IH]; intros j Hj; [destruct Hj|].
    apply in_app_iff in Hj as [Hj|[<-|[]]].
    - destruct (IH _ Hj) as (l & Hl & Il). eexists. split; [econstructor; eauto|]. right. apply in_app_iff. auto.
    - destruct (within_held _ _ _ _ W) as (l & Hl). eexists. split; [econstructor; eauto|]. left. auto. }
  destruct X as (l & Hl & Il). destruct (C46_applicable _ _ _ _ _ _ _ H B Hl) as (_ & I1 & _).
  unfold validated_styles. rewrite !in_app_iff. destruct (in_dec string_dec x (e_referenced (i_el i))); auto.
  right. left. apply I1. split; auto. apply in_concat. eauto.
Qed.

(** More than that applies: the styles of the divs before. *)
Theorem C46_leak : exists d z body regions o anc i x, validate_styles d z body = SOk (regions, o) /\ shaped body = true /\
  within body o anc i /\ In x (validated_styles (i_el i)) /\
  ~ In x (e_referenced (i_el i)) /\ e_region (i_el i) = None /\ forall j, In j anc -> ~ In x (e_referenced (i_el j)).
Proof.
  set (body := SNode Body None None [SNode Div (Some ["s"]) None []; SNode Div None None []]).
  set (d := [("s", KStyle (mkStyle None no_attrs))]). set (z := mkSizing None (32, 15)).
  destruct (validate_styles d z body) as [[regions o]|] eqn:E; [|vm_compute in E; discriminate].
  assert (E' := E). vm_compute in E'. inversion E'; subst o regions; clear E'.
  eexists _, _, _, _, _, _, _, "s". split; [exact E|]. split; [reflexivity|]. split.
  - eapply W_below with (n := 1%nat); [reflexivity|reflexivity|]. apply W_here.
  - cbn. split; auto. split; auto. split; auto. intros j [<-|[]]. cbn. auto.
Qed.

(** Names of styles in order: own, inherited, the region's. *)
Example C46_case : let body := SNode Body (Some ["b"]) None [SNode Div (Some ["c"]) None [SNode P (Some ["a"; "b"]) (Some "R") []]] in
  let e := KStyle (mkStyle None no_attrs) in
  match validate_styles [("a", e); ("b", e); ("c", e); ("r", KStyle (mkStyle (Some ["c"]) no_attrs));
                         ("R", KRegion (mkRegion (Some ["r"]) None))] (mkSizing None (32, 15)) body with
  | SOk (_, SOut _ _ _ [SOut _ _ _ [SOut _ _ p _]]) => shaped body = true /\ validated_styles p = ["a"; "b"; "c"; "r"]
  | _ => False
  end.
Proof. vm_compute. auto. Qed.

Print Assumptions C45_nearest.
Print Assumptions C45_own.
Print Assumptions C45_nested.
Print Assumptions C46_applicable.
Print Assumptions C46_ancestors.
Print Assumptions C46_leak.
