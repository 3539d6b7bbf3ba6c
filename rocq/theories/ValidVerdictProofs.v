(** The verdict of the whole validation. *)

From Coq Require Import List String Bool QArith Relations.
From Verif Require Import IdModel StyleModel StyleProofs StyleTree ReadModel ReadSpec PropsId PropsRead ValidModel ValidSpec
  ValidPruneProofs ValidProofs ValidPassProofs.
From Verif Require HeadModel HeadSpec HeadProofs.
Import ListNotations.
Open Scope string_scope.

Lemma flat_map_one : forall A B (f : A -> B) l, flat_map (fun x => [f x]) l = map f l.
Proof. induction l as [|x l IH]; cbn; congruence. Qed.

Lemma get_style_T : forall d i s, NoDup (map fst (style_entries d)) -> (get_style (style_entries d) i = Some s <-> In (i, s) (vd_styles d)).
Proof.
  intros d i s N. unfold get_style.
  assert (G := dict_get_iff _ (style_entries d) i (KStyle s) N).
  assert (I : In (i, KStyle s) (style_entries d) <-> In (i, s) (vd_styles d)).
  { unfold style_entries. rewrite in_map_iff. split; [intros ([j t] & E & H); cbn in E; injection E as -> ->; auto|].
    intros H. exists (i, s). auto. }
  rewrite <- I, <- G. destruct (dict_get (style_entries d) i) as [[t| |]|]; split; intros H; try discriminate; congruence.
Qed.

Definition start : vstate := mkVS [] [] (mkW sstart [] None) [].

Lemma traverse_post : forall d,
  match fst (traverse d start) with
  | None => NoDup (map fst (entries d)) /\ vs_ids (snd (traverse d start)) = rev (entries d) /\
      Forall (style_good d) (vd_styles d) /\ Forall (region_good d) (vd_regions d) /\ Forall (node_good d) (body_nodes d)
  | Some e => fault d e /\ halted [] (entries d) e (snd (traverse d start))
  end.
Proof.
  intros d. unfold traverse.
  assert (I0 : style_inv [] start) by (repeat split; constructor).
  assert (P := list_post d _ (visit_style (sizing_of d)) style_inv (fun e => [(fst e, KStyle (snd e))]) (style_good d) (vd_styles d)
    (style_post d) start [] (region_entries d ++ flat_map node_entry (body_nodes d))%list I0).
  rewrite flat_map_one in P. specialize (P eq_refl). unfold post in P. cbn [app] in P.
  destruct (visit_list (visit_style (sizing_of d)) (vd_styles d) start) as [[e|] s1]; cbn [fst snd] in *.
  { destruct P as [F P]. split; auto. unfold entries. apply halted_app. auto. }
  destruct P as [(J1 & J2 & J3 & J4) G1]. fold (style_entries d) in J1. rewrite J1 in J2. rewrite map_rev in J2.
  assert (N : NoDup (map fst (style_entries d))) by (rewrite <- rev_involutive; apply NoDup_rev; auto).
  assert (NF : vd_extent d = None -> no_px_font (style_entries d)).
  { intros Z i (f & H & U). unfold attrs_of in H. destruct (get_style (style_entries d) i) as [s|] eqn:Gs; [|discriminate].
    apply get_style_T in Gs; auto. apply (proj1 (Forall_forall _ _) G1) in Gs. apply Gs; auto. exists f. auto. }
  assert (Sm : same_styles (vs_ids s1) (style_entries d)).
  { intros i. unfold get_style. rewrite J1, dict_get_rev; auto. }
  assert (No : forall i, get_region (vs_ids s1) i = None).
  { intros i. unfold get_region. rewrite J1, dict_get_rev; auto.
    destruct (dict_get (style_entries d) i) as [x|] eqn:Gx; auto. apply dict_get_iff in Gx; auto.
    unfold style_entries in Gx. apply in_map_iff in Gx as (y & E & _). injection E as _ <-. auto. }
  assert (I1 : inv d (style_entries d) s1).
  { constructor; auto.
    - rewrite J1, map_rev. auto.
    - rewrite J4. apply settled_start.
    - rewrite J4. cbn. discriminate.
    - rewrite J3. cbn. discriminate. }
  assert (P := list_post d _ (visit_region (sizing_of d)) (inv d) (fun r => [(vr_id r, KRegion (vr_el r))]) (region_good d) (vd_regions d)
    (region_post d NF) s1 (style_entries d) (flat_map node_entry (body_nodes d))%list I1).
  rewrite flat_map_one in P. fold (region_entries d) in P. specialize (P eq_refl). unfold post in P.
  destruct (visit_list (visit_region (sizing_of d)) (vd_regions d) s1) as [[e|] s2]; cbn [fst snd] in *.
  { destruct P as [F P]. split; auto. unfold entries. rewrite app_assoc. apply halted_app. apply halted_after. auto. }
  destruct P as [I2 G2].
  assert (N2 : NoDup (map fst (style_entries d ++ region_entries d))).
  { assert (H := inv_nodup _ _ _ I2). rewrite (inv_ids _ _ _ I2), map_rev in H. rewrite <- rev_involutive. apply NoDup_rev. auto. }
  assert (B2 : binv d (style_entries d ++ region_entries d) s2).
  { split; auto. intros i. unfold get_region. rewrite (inv_ids _ _ _ I2), dict_get_rev; auto. split.
    - intros H. destruct (dict_get (style_entries d ++ region_entries d) i) as [x|] eqn:Gx; [|congruence].
      apply dict_get_iff in Gx; auto. apply in_app_or in Gx as [Gx|Gx].
      + unfold style_entries in Gx. apply in_map_iff in Gx as (y & E & _). injection E as _ <-. congruence.
      + unfold region_entries in Gx. apply in_map_iff in Gx as (y & E & Hy). injection E as <- _. apply in_map. auto.
    - intros H. apply in_map_iff in H as (r & <- & Hr).
      assert (Gr : dict_get (style_entries d ++ region_entries d) (vr_id r) = Some (KRegion (vr_el r))).
      { apply dict_get_iff; auto. apply in_or_app. right. unfold region_entries. apply in_map_iff. exists r. auto. }
      rewrite Gr. discriminate. }
  unfold entries, body_nodes. destruct (vd_body d) as [b|] eqn:Eb.
  - assert (P := visit_post d NF b None s2 (style_entries d ++ region_entries d)%list [] ltac:(unfold body_nodes; rewrite Eb; apply incl_refl)
      ltac:(intros c; discriminate) B2).
    unfold entries, body_nodes in P. rewrite Eb, app_nil_r, <- app_assoc in P. specialize (P eq_refl). unfold post in P.
    destruct (visit (HeadModel.k_tb (vd_head d)) (sizing_of d) None b s2) as [[e|] s3]; cbn [fst snd] in *.
    + destruct P as [F P]. split; auto. rewrite app_assoc. apply halted_after. auto.
    + destruct P as [[I3 _] G3]. rewrite <- app_assoc in I3. split.
      * assert (H := inv_nodup _ _ _ I3). rewrite (inv_ids _ _ _ I3), map_rev in H. rewrite <- rev_involutive. apply NoDup_rev. auto.
      * split; [apply (inv_ids _ _ _ I3)|auto].
  - cbn [flat_map fst snd]. rewrite app_nil_r. split; auto. split; [apply (inv_ids _ _ _ I2)|auto].
Qed.

Lemma fault_invalid : forall d e, fault d e -> ~ valid d.
Proof.
  intros d e F (V1 & V2 & V3 & V4 & V5 & V6 & V7 & V8). destruct e as [| |i|a ty|[x|x|i| | |]]; cbn [fault] in F.
  - destruct F as (u & p & E & N). eapply N, V1; eauto.
  - auto.
  - destruct F as (a & b & c & E). rewrite E in V3. apply NoDup_remove_2 in V3. apply V3. apply in_or_app. right. apply in_or_app. right. left. auto.
  - destruct F as (n & Hn & Ht & N). eauto.
  - destruct F as (Pp & l & i & Hl & Hi & R). destruct (V6 l i Hl Hi x R) as [_ H]. auto.
  - destruct F as (G & l & Hl & [Hx|(i & y & Hi & R & E)]).
    + destruct (V6 l x Hl Hx x (rt_refl _ _ _)) as [H _]. auto.
    + destruct (V6 l i Hl Hi x) as [H _]; auto. eapply rt_trans; [exact R|]. apply rt_step. auto.
  - destruct F as ((n & Hn & Hr) & N). eauto.
  - destruct F as (Z & H). apply V4; auto.
  - destruct F as (Z & l & q & Hl & H). eapply V8; eauto.
  - auto.
Qed.
