(** What an accepted validation leaves on regions and elements is what the pass of
    StyleModel computes. *)

From Coq Require Import List String Bool QArith.
From Verif Require Import IdModel StyleModel StyleProofs StyleTree ReadModel PropsId ValidModel ValidSpec
  ValidPruneProofs ValidProofs ValidPassProofs ValidVerdictProofs.
From Verif Require HeadModel.
Import ListNotations.
Open Scope string_scope.

(** The elements with their styles and regions only. *)
Fixpoint shape (t : vel) : sel :=
  match t with VNode k _ _ style region kids => SNode k style region (map shape kids) end.

(** What is on the elements, parents before their children. *)
Fixpoint spread (o : sout) : list styled := match o with SOut _ _ e kids => e :: flat_map spread kids end.

Section Doc.
Context (T E : list (string * kind)) (TE : same_styles E T) (z : sizing).

(** The pass over the document and that of StyleModel side by side. *)
Definition beside (s : vstate) (w : world) : Prop :=
  same_styles (vs_ids s) T /\ settled T (w_styles (vs_world s)) /\ settled T (w_styles w) /\
  w_stack (vs_world s) = w_stack w /\ w_region (vs_world s) = w_region w.

Lemma collect_beside : forall l u w style parent defer extra e u', same_styles l T ->
  settled T (w_styles u) -> settled T (w_styles w) -> w_stack u = w_stack w -> w_region u = w_region w ->
  collect l z u style parent defer extra = (SOk e, u') ->
  exists w', collect E z w style parent defer extra = (SOk e, w') /\
    settled T (w_styles u') /\ settled T (w_styles w') /\ w_stack u' = w_stack u /\ w_region u' = w_region u /\
    w_stack w' = w_stack w /\ w_region w' = w_region w.
Proof.
  intros l u w style parent defer extra e u' L Su Sw K R H. unfold collect in *. fold (refs style) in *. rewrite <- K, <- R.
  assert (Y := collect_refs_spec l (refs style) [] [] (w_styles u) (settled_ext _ _ _ (same_sym _ _ L) Su) (U_nil l)).
  assert (X := collect_refs_spec E (refs style) [] [] (w_styles w) (settled_ext _ _ _ (same_sym _ _ TE) Sw) (U_nil E)).
  cbn [keep_first app] in X, Y. unfold collect_refs in *.
  destruct (each_ref (ordered_styles (enough l) l) l (refs style) [] (w_styles u)) as [[rs|x] st]; [|discriminate].
  destruct Y as [S1 (v & V & ->)]. apply (settled_ext _ _ _ L) in S1. apply (proj2 (unfolds_ext _ _ L)) in V.
  assert (X' : exists st', each_ref (ordered_styles (enough E) E) E (refs style) [] (w_styles w) = (SOk (keep_first v), st') /\ settled T st').
  { destruct (each_ref (ordered_styles (enough E) E) E (refs style) [] (w_styles w)) as [[rs|x] st'].
    - destruct X as [S2 (v' & V' & ->)]. apply (settled_ext _ _ _ TE) in S2. apply (proj2 (unfolds_ext _ _ TE)) in V'.
      exists st'. rewrite (unfolds_all_fun _ _ _ _ V' V). auto.
    - exfalso. destruct X as [_ X].
      assert (So : forall i, In i (refs style) -> sound T i).
      { intros i Hi. destruct (unfolds_all_in _ _ _ _ V Hi) as (l0 & _ & _ & U0 & _). eapply unfolds_sound; eauto. }
      destruct x as [x|x|x| | |]; try tauto.
      + destruct X as (i & Hi & Rx & Px). destruct (So i Hi x) as [_ N]; [apply (reach_ext E T TE); auto|]. apply N. apply (path_ext E T TE). auto.
      + destruct X as [M [Hx|(i & y & Hi & Rx & Ex)]]; rewrite TE in M.
        * destruct (So x Hx x (Relation_Operators.rt_refl _ _ _)). auto.
        * destruct (So i Hi x); auto. eapply Relation_Operators.rt_trans; [apply (reach_ext E T TE); eauto|].
          apply Relation_Operators.rt_step. apply (edge_ext E T TE). auto. }
  destruct X' as (st' & -> & S2).
  assert (M : map (attrs_of E) (keep_first v) = map (attrs_of l) (keep_first v)).
  { apply map_ext. intros i. rewrite (attrs_ext l T i L). apply attrs_ext. auto. }
  rewrite M. destruct (compute_style _ _ _ _ _) as [c|x]; [|discriminate].
  assert (H1 := f_equal fst H). assert (H2 := f_equal snd H). cbn [fst snd] in H1, H2. subst u'. rewrite H1.
  eexists. split; [reflexivity|]. cbn [w_styles w_stack w_region]. auto 10.
Qed.

Lemma register_keeps : forall l o x l', same_styles l T -> (forall s, x <> KStyle s) -> register_id l (o, x) = Some l' -> same_styles l' T.
Proof.
  intros l o x l' L N R. unfold register_id in R. cbn [fst snd] in R. destruct o as [j|]; [|injection R as <-; auto].
  destruct (dict_get l j) eqn:G; [discriminate|]. injection R as <-. intros i. unfold get_style. cbn [dict_get].
  destruct (String.eqb_spec i j) as [->|]; [|apply L]. assert (H := L j). unfold get_style in H. rewrite G in H. rewrite <- H.
  destruct x as [s| |]; auto. destruct (N s); auto.
Qed.

Lemma region_beside : forall r s s' w, beside s w -> visit_region z r s = (None, s') ->
  exists e w', collect E z w (r_refs (vr_el r)) None false [own_padding (vr_el r)] = (SOk e, w') /\ beside s' w' /\
    vs_regions s' = (vr_id r, e) :: vs_regions s /\ vs_left s' = vs_left s.
Proof.
  intros r s s' w (B1 & B2 & B3 & B4 & B5) H. unfold visit_region in H.
  destruct (register_id (vs_ids s) (Some (vr_id r), KRegion (vr_el r))) as [l|] eqn:R; [|discriminate].
  apply register_keeps in R; auto; [|discriminate].
  destruct (first_error _ _); [discriminate|]. unfold with_ids in H. cbn [vs_world vs_regions vs_left] in H.
  destruct (collect l z (vs_world s) (r_refs (vr_el r)) None false [own_padding (vr_el r)]) as [[e|x] u] eqn:C; [|discriminate].
  apply (f_equal snd) in H. cbn [snd] in H. subst s'.
  destruct (collect_beside _ _ w _ _ _ _ _ _ R B2 B3 B4 B5 C) as (w' & C' & D1 & D2 & D3 & D4 & D5 & D6).
  exists e, w'. split; auto. split; [|split; auto].
  unfold beside. cbn [vs_ids vs_world]. split; auto. split; auto. split; auto. split; congruence.
Qed.

Lemma regions_beside : forall l s s' w, beside s w -> visit_list (visit_region z) l s = (None, s') ->
  exists es w', (forall more, pass_regions E z (map (fun r => (vr_id r, KRegion (vr_el r))) l ++ more) w =
      sbind (pass_regions E z more w') (fun '(rs, w2) => SOk ((es ++ rs)%list, w2))) /\
    beside s' w' /\ vs_regions s' = (rev es ++ vs_regions s)%list /\ vs_left s' = vs_left s /\ map fst es = map vr_id l.
Proof.
  induction l as [|r l IH]; intros s s' w B H; cbn [visit_list map app] in *.
  - apply (f_equal snd) in H. cbn [snd] in H. subst s'. exists [], w. split; [|cbn; auto].
    intros more. destruct (pass_regions E z more w) as [[rs w2]|]; auto.
  - destruct (visit_region z r s) as [[x|] s1] eqn:V; [discriminate|].
    destruct (region_beside r s s1 w B V) as (e & w1 & C & B1 & R1 & L1).
    destruct (IH s1 s' w1 B1 H) as (es & w' & P & B2 & R2 & L2 & M). exists ((vr_id r, e) :: es), w'.
    split; [|split; auto; split; [|split; [congruence|cbn [map fst]; congruence]]].
    + intros more. cbn [pass_regions]. fold (own_padding (vr_el r)). rewrite C. cbn [sbind]. rewrite P.
      destruct (pass_regions E z more w') as [[rs w2]|]; auto.
    + rewrite R2, R1. cbn [rev]. rewrite <- app_assoc. auto.
Qed.

Lemma style_pass_forward : forall regions k st r kids parent w w1 e w2 os w3,
  set_region regions k r w = SOk w1 -> collect E z w1 st parent (defers k) [] = (SOk e, w2) ->
  pass_all E z regions (Some (e_computed e)) kids (push w2 e) = SOk (os, w3) ->
  style_pass E z regions parent (SNode k st r kids) w =
  SOk (SOut k r e os, match k with Div => unset_region k r w3 | _ => pop (unset_region k r w3) end).
Proof.
  intros regions k st r kids parent w w1 e w2 os w3 H1 H2 H3. cbn [style_pass]. rewrite H1. cbn [sbind]. rewrite H2.
  match goal with |- sbind (?f kids (push w2 e)) _ = _ =>
    assert (X : forall ks w0, f ks w0 = pass_all E z regions (Some (e_computed e)) ks w0) end.
  { induction ks as [|x m IH]; intros w0; auto. cbn [pass_all].
    destruct (style_pass E z regions (Some (e_computed e)) x w0) as [[o0 w0']|]; cbn [sbind]; auto. rewrite IH. auto. }
  rewrite X, H3. reflexivity.
Qed.

Context (tb : string) (regions : list (string * styled)) (NR : NoDup (map fst regions)).

Lemma visit_beside : forall t parent s s' w, beside s w -> vs_regions s = rev regions -> visit tb z parent t s = (None, s') ->
  exists o w', style_pass E z regions parent (shape t) w = SOk (o, w') /\ beside s' w' /\ vs_regions s' = rev regions /\
    vs_left s' = (vs_left s ++ spread o)%list.
Proof.
  induction t as [k id tm style region kids IH] using vel_ind'. intros parent s s' w (B1 & B2 & B3 & B4 & B5) Rg H. cbn [visit shape] in *.
  destruct (enter tb z parent k id tm style region s) as [[x|e] s1] eqn:En; [discriminate|].
  unfold enter in En. destruct (register s k id) as [l|] eqn:R; [|discriminate].
  assert (Ll : same_styles l T).
  { destruct k; cbn [register] in R; [injection R as <-; auto| | |]; eapply register_keeps; eauto; discriminate. }
  destruct (check_times tb k tm); [discriminate|].
  destruct (enter_region (with_ids s l) k region) as [u1|x] eqn:Er; [|discriminate].
  assert (Sr : exists w1, set_region regions k region w = SOk w1 /\ w_styles w1 = w_styles w /\ w_stack w1 = w_stack w /\
     w_styles u1 = w_styles (vs_world s) /\ w_stack u1 = w_stack (vs_world s) /\ w_region u1 = w_region w1).
  { unfold enter_region, with_ids in Er. cbn [vs_ids vs_regions vs_world] in Er. unfold set_region.
    assert (Out : SOk (vs_world s) = SOk u1 -> exists w1, SOk w = SOk w1 /\ w_styles w1 = w_styles w /\ w_stack w1 = w_stack w /\
       w_styles u1 = w_styles (vs_world s) /\ w_stack u1 = w_stack (vs_world s) /\ w_region u1 = w_region w1).
    { intros X. injection X as <-. exists w. auto 10. }
    destruct k, region as [i|]; try (apply Out; exact Er);
      (rewrite Rg, dict_get_rev in Er by auto; destruct (get_region l i); [|discriminate];
       destruct (dict_get regions i) as [g|]; [|discriminate]; injection Er as <-; eexists; split; [reflexivity|cbn; auto 10]). }
  destruct Sr as (w1 & S1 & W1 & W2 & U1 & U2 & U3).
  destruct (collect l z u1 style parent (defers k) []) as [[e'|x] u2] eqn:C; [|discriminate].
  assert (e' = e) by (apply (f_equal fst) in En; cbn in En; congruence). subst e'.
  apply (f_equal snd) in En. cbn [snd] in En.
  destruct (collect_beside l u1 w1 style parent (defers k) [] e u2) as (w2 & C' & D1 & D2 & D3 & D4 & D5 & D6); auto; try congruence.
  assert (Bs : beside s1 (push w2 e)).
  { subst s1. unfold beside, push. cbn [vs_ids vs_world w_styles w_stack w_region]. repeat split; auto; try apply D1; try apply D2; congruence. }
  assert (Rs : vs_regions s1 = rev regions) by (subst s1; exact Rg).
  assert (Ls : vs_left s1 = (vs_left s ++ [e])%list) by (subst s1; reflexivity).
  clear En.
  assert (Kids : forall m s1 s2 v, Forall (fun t => forall parent s s' w, beside s w -> vs_regions s = rev regions ->
       visit tb z parent t s = (None, s') -> exists o w', style_pass E z regions parent (shape t) w = SOk (o, w') /\ beside s' w' /\
       vs_regions s' = rev regions /\ vs_left s' = (vs_left s ++ spread o)%list) m ->
     beside s1 v -> vs_regions s1 = rev regions -> visit_list (visit tb z (Some (e_computed e))) m s1 = (None, s2) ->
     exists os v', pass_all E z regions (Some (e_computed e)) (map shape m) v = SOk (os, v') /\ beside s2 v' /\
       vs_regions s2 = rev regions /\ vs_left s2 = (vs_left s1 ++ flat_map spread os)%list).
  { clear. induction m as [|t m IHm]; intros s1 s2 v F B Rg H; cbn [visit_list map pass_all] in *.
    - apply (f_equal snd) in H. cbn [snd] in H. subst s2. exists [], v. cbn [flat_map]. rewrite app_nil_r. auto.
    - apply Forall_cons_iff in F as [Ft F]. destruct (visit tb z (Some (e_computed e)) t s1) as [[x|] s3] eqn:V; [discriminate|].
      destruct (Ft _ _ _ v B Rg V) as (o & v1 & P & B1 & R1 & L1). rewrite P. cbn [sbind].
      destruct (IHm s3 s2 v1 F B1 R1 H) as (os & v2 & P2 & B2 & R2 & L2). rewrite P2. cbn [sbind].
      exists (o :: os), v2. split; auto. split; auto. split; auto. rewrite L2, L1. cbn [flat_map]. rewrite <- app_assoc. auto. }
  destruct (visit_list (visit tb z (Some (e_computed e))) kids s1) as [[x|] s2] eqn:V; [discriminate|].
  destruct (Kids kids s1 s2 (push w2 e) IH Bs Rs V) as (os & v & P & B' & R' & L'). apply (f_equal snd) in H. cbn [snd] in H. subst s'.
  eexists. eexists. split; [eapply style_pass_forward; eauto|].
  destruct B' as (G1 & G2 & G3 & G4 & G5).
  split; [|split; [exact R'|]].
  - unfold beside, leave, with_world. cbn [vs_ids vs_world].
    destruct k, region; unfold pop, unset_region; cbn [w_styles w_stack w_region]; rewrite ?G4, ?G5; auto.
  - unfold leave, with_world. cbn [vs_left spread]. rewrite L', Ls, <- app_assoc. auto.
Qed.
End Doc.

Lemma nodup_both : forall (a b : list string), NoDup (a ++ b) -> NoDup a /\ NoDup b.
Proof.
  induction a as [|x a IH]; intros b N; cbn [app] in N; [split; [constructor|auto]|].
  apply NoDup_cons_iff in N as [Nx N]. apply IH in N as [Na Nb]. split; auto. constructor; auto.
  intros H. apply Nx. apply in_or_app. auto.
Qed.

Lemma skip_styles : forall E z l more w, pass_regions E z (map (fun e => (fst e, KStyle (snd e))) l ++ more) w = pass_regions E z more w.
Proof. intros E z l more w. induction l as [|e l IH]; auto. Qed.

Lemma skip_others : forall E z l w, pass_regions E z (flat_map node_entry l) w = SOk ([], w).
Proof.
  intros E z l w. induction l as [|[k id tm st r] l IH]; auto. cbn [flat_map]. unfold node_entry at 1. cbn [n_kind n_id].
  destruct k, id; auto.
Qed.

Lemma checked : forall z l, (forall i s, In (i, KStyle s) l -> check_style z s = SOk tt) -> check_styles z l = SOk tt.
Proof.
  intros z. induction l as [|[i x] l IH]; intros H; cbn [check_styles]; auto.
  assert (Hl : check_styles z l = SOk tt) by (apply IH; intros j s Hj; apply (H j s); right; auto).
  destruct x as [s| |]; auto. rewrite (H i s (or_introl eq_refl)). auto.
Qed.

Lemma others_only : forall l i s, ~ In (i, KStyle s) (flat_map node_entry l).
Proof.
  intros l i s H. apply in_flat_map in H as ([k id tm st r] & _ & H). unfold node_entry in H. cbn [n_kind n_id] in H.
  destruct k, id; cbn in H; intuition congruence.
Qed.

Lemma traverse_styles : forall d b, NoDup (map fst (entries d)) -> fst (traverse d start) = None -> vd_body d = Some b ->
  Forall (style_good d) (vd_styles d) ->
  exists regions o, validate_styles (entries d) (sizing_of d) (shape b) = SOk (regions, o) /\
    rev (vs_regions (snd (traverse d start))) = regions /\ vs_left (snd (traverse d start)) = spread o.
Proof.
  intros d b N F Eb G. unfold traverse in *.
  assert (I0 : style_inv [] start) by (repeat split; constructor).
  assert (P := list_post d _ (visit_style (sizing_of d)) style_inv (fun e => [(fst e, KStyle (snd e))]) (style_good d) (vd_styles d)
    (style_post d) start [] (region_entries d ++ flat_map node_entry (body_nodes d))%list I0).
  rewrite flat_map_one in P. specialize (P eq_refl). unfold post in P. cbn [app] in P. fold (style_entries d) in P.
  assert (L0 : vs_left (snd (visit_list (visit_style (sizing_of d)) (vd_styles d) start)) = []).
  { clear. assert (K : forall l s, vs_left (snd (visit_list (visit_style (sizing_of d)) l s)) = vs_left s).
    { induction l as [|x l IH]; intros s; cbn [visit_list]; auto.
      assert (V : vs_left (snd (visit_style (sizing_of d) x s)) = vs_left s).
      { unfold visit_style. destruct (register_id _ _); auto. destruct (match fontSize _ with Some _ => _ | None => _ end); auto. }
      destruct (visit_style (sizing_of d) x s) as [[e|] s1]; cbn [snd] in *; auto. rewrite IH. auto. }
    apply K. }
  destruct (visit_list (visit_style (sizing_of d)) (vd_styles d) start) as [[e|] s1]; cbn [fst snd] in *; [discriminate|].
  destruct P as [(J1 & J2 & J3 & J4) _].
  assert (N1 : NoDup (map fst (style_entries d))) by (unfold entries in N; rewrite map_app in N; apply nodup_both in N as [N _]; auto).
  assert (Sm : same_styles (vs_ids s1) (style_entries d)).
  { intros i. unfold get_style. rewrite J1, dict_get_rev; auto. }
  assert (TE : same_styles (entries d) (style_entries d)).
  { intros i. unfold get_style. assert (D := fun x => dict_get_iff _ (entries d) i x N). assert (D1 := fun x => dict_get_iff _ (style_entries d) i x N1).
    destruct (dict_get (style_entries d) i) as [y|].
    - assert (In (i, y) (entries d)) by (unfold entries; apply in_or_app; left; apply D1; auto).
      apply D in H. rewrite H. auto.
    - destruct (dict_get (entries d) i) as [[s| |]|]; auto. exfalso. assert (H := proj1 (D _) eq_refl). unfold entries in H.
      apply in_app_or in H as [H|H]; [apply D1 in H; discriminate|]. apply in_app_or in H as [H|H].
      + unfold region_entries in H. apply in_map_iff in H as (r & X & _). discriminate.
      + eapply others_only; eauto. }
  assert (B1 : beside (style_entries d) s1 (mkW sstart [] None)).
  { unfold beside. rewrite J4. cbn [w_styles w_stack w_region]. split; auto. split; [apply settled_start|]. split; [apply settled_start|auto]. }
  destruct (visit_list (visit_region (sizing_of d)) (vd_regions d) s1) as [[e|] s2] eqn:V2; cbn [fst snd] in *; [discriminate|].
  destruct (regions_beside (style_entries d) (entries d) TE (sizing_of d) _ _ _ _ B1 V2) as (es & w2 & P2 & B2 & R2 & L2 & M2).
  rewrite Eb in *.
  assert (NR : NoDup (map fst es)).
  { rewrite M2. unfold entries in N. rewrite !map_app in N. apply nodup_both in N as [_ N]. apply nodup_both in N as [N _].
    unfold region_entries in N. rewrite map_map in N. exact N. }
  rewrite J3, app_nil_r in R2.
  destruct (visit (HeadModel.k_tb (vd_head d)) (sizing_of d) None b s2) as [[e|] s3] eqn:V3; cbn [fst snd] in *; [discriminate|].
  destruct (visit_beside (style_entries d) (entries d) TE (sizing_of d) (HeadModel.k_tb (vd_head d)) es NR b None s2 s3 w2 B2 R2 V3)
    as (o & w3 & P3 & B3 & R3 & L3).
  exists es, o. split; [|split; [rewrite R3, rev_involutive; auto|rewrite L3, L2, L0; auto]].
  unfold validate_styles. rewrite checked.
  2: { intros i s H. unfold entries in H. apply in_app_or in H as [H|H].
       - unfold style_entries in H. apply in_map_iff in H as ([j t] & X & H). cbn [fst snd] in X. injection X as -> ->.
         apply (proj1 (Forall_forall _ _) G) in H. unfold style_good in H. cbn [snd] in H. unfold check_style.
         destruct (fontSize (s_attrs s)) as [f|] eqn:Ef; auto. destruct (z_extent (sizing_of d)) eqn:Ez; auto.
         apply extent_none in Ez. specialize (H Ez). destruct (f_unit f) eqn:Eu; auto. destruct H. exists f. auto.
       - apply in_app_or in H as [H|H].
         + unfold region_entries in H. apply in_map_iff in H as (r & X & _). discriminate.
         + destruct (others_only _ _ _ H). }
  cbn [sbind]. unfold entries at 2. unfold style_entries, region_entries. rewrite skip_styles, P2, skip_others. cbn [sbind].
  rewrite app_nil_r, P3. reflexivity.
Qed.
