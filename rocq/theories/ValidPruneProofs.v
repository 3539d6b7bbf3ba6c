(** Validating again: what earlier validations have left on the styles makes no
    difference. *)

From Coq Require Import List String Bool QArith.
From Verif Require Import IdModel StyleModel StyleProofs StyleTree ReadModel PropsId ValidModel ValidSpec.
From Verif Require HeadModel.
Import ListNotations.
Open Scope string_scope.

Definition isstyle (d : list (string * kind)) (i : string) : bool :=
  match get_style d i with Some _ => true | None => false end.

(** The part of the styles' fields that concerns the styles of [p]. *)
Definition prune (p : string -> bool) (st : sstate) : sstate :=
  mkS (filter p (st_locked st)) (filter (fun e => p (fst e)) (st_cache st)).

Lemma dict_get_filter : forall A (p : string -> bool) (c : list (string * A)) i,
  dict_get (filter (fun e => p (fst e)) c) i = if p i then dict_get c i else None.
Proof.
  intros A p. induction c as [|[j x] c IH]; intros i; cbn [filter dict_get fst]; [destruct (p i); auto|].
  destruct (p j) eqn:Pj; cbn [dict_get]; destruct (String.eqb_spec i j) as [->|N]; rewrite ?IH, ?Pj; auto.
Qed.

Lemma mem_filter : forall p l i, mem i (filter p l) = (p i && mem i l)%bool.
Proof.
  intros p. induction l as [|j l IH]; intros i; cbn [filter mem existsb]; [rewrite andb_false_r; auto|].
  destruct (p j) eqn:Pj; cbn [mem existsb]; unfold mem in *; rewrite IH; destruct (String.eqb_spec i j) as [->|N];
    rewrite ?Pj; cbn [orb andb]; auto.
Qed.

(** Locks taken are released. *)
Lemma ordered_locked : forall n d st i, st_locked (snd (ordered_styles n d st i)) = st_locked st.
Proof.
  induction n as [|n IH]; intros d st i; cbn [ordered_styles]; auto.
  destruct (mem i (st_locked st)); auto. destruct (dict_get (st_cache st) i); auto.
  assert (L : forall refs acc st0, st_locked (snd (each_ref (ordered_styles n d) d refs acc st0)) = st_locked st0).
  { induction refs as [|r rest IHr]; intros acc st0; cbn [each_ref]; auto.
    destruct (get_style d r); auto. specialize (IH d st0 r).
    destruct (ordered_styles n d st0 r) as [[l|e] st1]; cbn [snd] in *; auto. rewrite IHr. auto. }
  specialize (L (refs_of d i) [i] (mkS (i :: st_locked st) (st_cache st))).
  destruct (each_ref _ d (refs_of d i) [i] _) as [[l|e] st']; cbn [snd st_locked unlock] in *; rewrite L; auto.
Qed.

Lemma each_locked : forall n d refs acc st, st_locked (snd (each_ref (ordered_styles n d) d refs acc st)) = st_locked st.
Proof.
  intros n d. induction refs as [|r rest IHr]; intros acc st0; cbn [each_ref]; auto.
  destruct (get_style d r); auto. assert (IH := ordered_locked n d st0 r).
  destruct (ordered_styles n d st0 r) as [[l|e] st1]; cbn [snd] in *; auto. rewrite IHr. auto.
Qed.

Section Agree.
Context (p : string -> bool) (d : list (string * kind)) (A : forall i, p i = isstyle d i).

Lemma prune_each : forall n,
  (forall st i, p i = true -> ordered_styles n d (prune p st) i =
     (fst (ordered_styles n d st i), prune p (snd (ordered_styles n d st i)))) ->
  forall refs acc st, each_ref (ordered_styles n d) d refs acc (prune p st) =
    (fst (each_ref (ordered_styles n d) d refs acc st), prune p (snd (each_ref (ordered_styles n d) d refs acc st))).
Proof.
  intros n H. induction refs as [|r rest IH]; intros acc st; cbn [each_ref fst snd]; auto.
  destruct (get_style d r) eqn:G; auto.
  assert (Pr : p r = true) by (rewrite A; unfold isstyle; rewrite G; auto).
  rewrite (H st r Pr). destruct (ordered_styles n d st r) as [[l|e] st1]; cbn [fst snd]; auto.
Qed.

Lemma prune_ordered : forall n st i, p i = true -> ordered_styles n d (prune p st) i =
  (fst (ordered_styles n d st i), prune p (snd (ordered_styles n d st i))).
Proof.
  induction n as [|n IH]; intros st i Pi; cbn [ordered_styles]; auto.
  change (st_locked (prune p st)) with (filter p (st_locked st)).
  change (st_cache (prune p st)) with (filter (fun e => p (fst e)) (st_cache st)).
  rewrite mem_filter, Pi, dict_get_filter, Pi. cbn [andb].
  destruct (mem i (st_locked st)); auto. destruct (dict_get (st_cache st) i); auto.
  assert (E := prune_each n IH (refs_of d i) [i] (mkS (i :: st_locked st) (st_cache st))).
  assert (L := each_locked n d (refs_of d i) [i] (mkS (i :: st_locked st) (st_cache st))).
  unfold prune at 1 in E. cbn [st_locked st_cache filter] in E. rewrite Pi in E.
  rewrite E. clear E. cbn [st_locked] in L.
  destruct (each_ref _ d (refs_of d i) [i] {| st_locked := i :: st_locked st; st_cache := st_cache st |}) as [[l|e] st'];
    cbn [fst snd] in *; unfold unlock, prune; cbn [st_locked st_cache filter fst]; rewrite L; cbn [filter]; rewrite Pi; auto.
Qed.

Definition prune_w (w : world) : world := mkW (prune p (w_styles w)) (w_stack w) (w_region w).

Lemma prune_collect : forall z w style parent defer extra, collect d z (prune_w w) style parent defer extra =
  (fst (collect d z w style parent defer extra), prune_w (snd (collect d z w style parent defer extra))).
Proof.
  intros z w style parent defer extra. unfold collect, collect_refs, prune_w. cbn [w_styles w_stack w_region].
  rewrite (prune_each (enough d) (prune_ordered (enough d))).
  destruct (each_ref _ d _ [] (w_styles w)) as [[l|e] st]; cbn [fst snd]; auto.
  destruct (compute_style _ _ _ _ _); auto.
Qed.
End Agree.

Definition prune_s (p : string -> bool) (s : vstate) : vstate := mkVS (vs_ids s) (vs_regions s) (prune_w p (vs_world s)) (vs_left s).
Definition pruned (p : string -> bool) {A} (r : A * vstate) : A * vstate := (fst r, prune_s p (snd r)).

(** Registering something that is no style does not change what the styles are. *)
Lemma register_agrees : forall p l o x l', (forall i, p i = isstyle l i) ->
  (forall s, x <> KStyle s) -> register_id l (o, x) = Some l' -> forall i, p i = isstyle l' i.
Proof.
  intros p l o x l' A N R i. unfold register_id in R. cbn [fst snd] in R. destruct o as [j|]; [|inversion R; subst; auto].
  destruct (dict_get l j) eqn:G; [discriminate|]. inversion R; subst. rewrite A. unfold isstyle, get_style.
  cbn [dict_get]. destruct (String.eqb_spec i j) as [->|]; auto. rewrite G. destruct x as [s| |]; auto. destruct (N s); auto.
Qed.

Lemma prune_list : forall {A} p (f : A -> vstate -> option verr * vstate) (Q : vstate -> Prop) l,
  (forall x s, In x l -> Q s -> f x (prune_s p s) = pruned p (f x s) /\ (fst (f x s) = None -> Q (snd (f x s)))) ->
  forall s, Q s -> visit_list f l (prune_s p s) = pruned p (visit_list f l s) /\
    (fst (visit_list f l s) = None -> Q (snd (visit_list f l s))).
Proof.
  intros A p f Q. induction l as [|x l IH]; intros H s S; cbn [visit_list]; [split; auto|].
  destruct (H x s (or_introl eq_refl) S) as [E N]. rewrite E. unfold pruned at 1.
  destruct (f x s) as [[e|] s']; cbn [fst snd] in *; [split; auto; discriminate|].
  apply IH; auto. intros y s0 Y. apply H. right. auto.
Qed.

Lemma prune_region : forall p z r s, (forall i, p i = isstyle (vs_ids s) i) ->
  visit_region z r (prune_s p s) = pruned p (visit_region z r s) /\
  (fst (visit_region z r s) = None -> forall i, p i = isstyle (vs_ids (snd (visit_region z r s))) i).
Proof.
  intros p z r s A. unfold visit_region. cbn [vs_ids prune_s].
  destruct (register_id (vs_ids s) (Some (vr_id r), KRegion (vr_el r))) as [l|] eqn:R; [|split; auto; discriminate].
  assert (Al : forall i, p i = isstyle l i) by (eapply register_agrees; eauto; discriminate).
  destruct (first_error _ _); [split; auto; discriminate|].
  unfold with_ids, prune_s at 1 2 3. cbn [vs_world vs_regions vs_ids]. rewrite (prune_collect p l Al).
  destruct (collect l z (vs_world s) _ _ _ _) as [[e|x] w]; cbn [fst snd]; split; auto; discriminate.
Qed.

Fixpoint vel_ind' (Pr : vel -> Prop)
  (step : forall k id t s r kids, Forall Pr kids -> Pr (VNode k id t s r kids)) (t : vel) : Pr t :=
  match t with
  | VNode k id tm s r kids =>
      step k id tm s r kids ((fix all (l : list vel) : Forall Pr l :=
        match l with [] => Forall_nil _ | x :: m => Forall_cons _ (vel_ind' Pr step x) (all m) end) kids)
  end.

Lemma prune_enter : forall p tb z parent k id tm style region s, (forall i, p i = isstyle (vs_ids s) i) ->
  enter tb z parent k id tm style region (prune_s p s) = pruned p (enter tb z parent k id tm style region s) /\
  (forall e, fst (enter tb z parent k id tm style region s) = inr e ->
     forall i, p i = isstyle (vs_ids (snd (enter tb z parent k id tm style region s))) i).
Proof.
  intros p tb z parent k id tm style region s A. unfold enter.
  assert (Er : register (prune_s p s) k id = register s k id) by (destruct k; auto). rewrite Er.
  destruct (register s k id) as [l|] eqn:R; [|split; auto; discriminate].
  assert (Al : forall i, p i = isstyle l i).
  { destruct k; cbn [register] in R; [inversion R; subst; auto| | |]; eapply register_agrees; eauto; discriminate. }
  destruct (check_times tb k tm); [split; auto; discriminate|].
  assert (En : enter_region (with_ids (prune_s p s) l) k region =
    match enter_region (with_ids s l) k region with SOk w => SOk (prune_w p w) | SErr x => SErr x end).
  { unfold enter_region, with_ids. cbn [vs_world vs_ids vs_regions prune_s].
    destruct k, region; auto; destruct (get_region l s0), (dict_get (vs_regions s) s0); auto. }
  rewrite En. destruct (enter_region (with_ids s l) k region) as [w1|x]; [|split; auto; discriminate].
  rewrite (prune_collect p l Al).
  destruct (collect l z w1 style parent (defers k) []) as [[e|x] w2]; cbn [fst snd]; split; auto; discriminate.
Qed.

Lemma prune_leave : forall p k region s, leave k region (prune_s p s) = prune_s p (leave k region s).
Proof. intros p k region s. unfold leave. destruct k, region; reflexivity. Qed.

Lemma prune_visit : forall p tb z t parent s, (forall i, p i = isstyle (vs_ids s) i) ->
  visit tb z parent t (prune_s p s) = pruned p (visit tb z parent t s) /\
  (fst (visit tb z parent t s) = None -> forall i, p i = isstyle (vs_ids (snd (visit tb z parent t s))) i).
Proof.
  intros p tb z. induction t as [k id tm style region kids IH] using vel_ind'. intros parent s A. cbn [visit].
  destruct (prune_enter p tb z parent k id tm style region s A) as [E N]. rewrite E. unfold pruned at 1.
  destruct (enter tb z parent k id tm style region s) as [[x|e] s1]; cbn [fst snd] in *; [split; auto; discriminate|].
  assert (A1 := N e eq_refl).
  destruct (prune_list p (visit tb z (Some (e_computed e))) (fun s => forall i, p i = isstyle (vs_ids s) i) kids) with (s := s1)
    as [L NL]; auto.
  { intros x s0 Hx S0. apply (proj1 (Forall_forall _ _) IH x Hx). auto. }
  rewrite L. unfold pruned at 1.
  destruct (visit_list (visit tb z (Some (e_computed e))) kids s1) as [[x|] s2]; cbn [fst snd] in *; [split; auto; discriminate|].
  rewrite prune_leave. split; auto.
Qed.

(** ** The styles are renewed *)

Definition clean (l : list (string * kind)) (st : sstate) : Prop :=
  forall i, isstyle l i = true -> mem i (st_locked st) = false /\ dict_get (st_cache st) i = None.

(** Two states that differ only in what is left on the styles. *)
Definition same_but (s s' : vstate) : Prop :=
  vs_ids s = vs_ids s' /\ vs_regions s = vs_regions s' /\
  w_stack (vs_world s) = w_stack (vs_world s') /\ w_region (vs_world s) = w_region (vs_world s') /\ vs_left s = vs_left s'.

Lemma filter_negb_mem : forall i j l, mem j (filter (fun k => negb (i =? k)) l) = (negb (i =? j) && mem j l)%bool.
Proof. intros i j l. apply (mem_filter (fun k => negb (i =? k))). Qed.

Lemma clean_grow : forall l st i x, clean l st -> dict_get l i = None ->
  clean ((i, x) :: l) (renew st i).
Proof.
  intros l st i x C G j J. unfold renew. cbn [st_locked st_cache].
  rewrite filter_negb_mem, (dict_get_filter _ (fun k => negb (i =? k))).
  destruct (String.eqb_spec i j) as [->|N]; cbn [negb andb]; auto. apply C.
  unfold isstyle, get_style in *. cbn [dict_get] in J. destruct (String.eqb_spec j i); [congruence|auto].
Qed.

Lemma styles_same : forall z l s s', same_but s s' -> clean (vs_ids s) (w_styles (vs_world s)) ->
  clean (vs_ids s') (w_styles (vs_world s')) ->
  let r := visit_list (visit_style z) l s in let r' := visit_list (visit_style z) l s' in
  fst r = fst r' /\ same_but (snd r) (snd r') /\
  (fst r = None -> clean (vs_ids (snd r)) (w_styles (vs_world (snd r))) /\
                   clean (vs_ids (snd r')) (w_styles (vs_world (snd r')))).
Proof.
  intros z. induction l as [|[i e] l IH]; intros s s' S C C'; cbn [visit_list]; [split; auto|].
  destruct S as (S1 & S2 & S3 & S4 & S5). unfold visit_style. cbn [fst snd]. rewrite <- S1.
  unfold register_id. cbn [fst snd]. destruct (dict_get (vs_ids s) i) eqn:G.
  { cbn [fst snd]. split; auto. split; [unfold same_but; auto|discriminate]. }
  destruct (match fontSize (s_attrs e) with Some f => check_size z (f_unit f) | None => None end).
  { cbn [fst snd]. split; auto. split; [unfold same_but; auto|discriminate]. }
  apply IH.
  - unfold same_but, with_world, with_ids. cbn [vs_ids vs_regions vs_world w_stack w_region vs_left]. auto.
  - unfold with_world, with_ids. cbn [vs_ids vs_world w_styles]. apply clean_grow; auto.
  - unfold with_world, with_ids. cbn [vs_ids vs_world w_styles]. apply clean_grow; auto. rewrite S1. auto.
Qed.

Lemma prune_clean : forall l st, clean l st -> prune (isstyle l) st = sstart.
Proof.
  intros l st C. unfold prune, sstart. f_equal.
  - assert (H : forall x, mem x (filter (isstyle l) (st_locked st)) = false).
    { intros x. rewrite mem_filter. destruct (isstyle l x) eqn:E; auto. apply C in E. apply E. }
    destruct (filter (isstyle l) (st_locked st)) as [|x r]; auto. specialize (H x). cbn in H. rewrite String.eqb_refl in H. discriminate.
  - assert (H : forall x, dict_get (filter (fun e => isstyle l (fst e)) (st_cache st)) x = None).
    { intros x. rewrite dict_get_filter. destruct (isstyle l x) eqn:E; auto. apply C in E. apply E. }
    destruct (filter (fun e => isstyle l (fst e)) (st_cache st)) as [|[x y] r]; auto. specialize (H x). cbn in H. rewrite String.eqb_refl in H. discriminate.
Qed.

Lemma prune_same : forall s s', same_but s s' -> clean (vs_ids s) (w_styles (vs_world s)) ->
  clean (vs_ids s') (w_styles (vs_world s')) ->
  prune_s (isstyle (vs_ids s)) s = prune_s (isstyle (vs_ids s)) s'.
Proof.
  intros [l r [st k g] o] [l' r' [st' k' g'] o'] (S1 & S2 & S3 & S4 & S5) C C'. cbn [vs_ids vs_regions vs_world w_styles w_stack w_region vs_left] in *.
  subst. unfold prune_s, prune_w. cbn [vs_ids vs_regions vs_world w_styles w_stack w_region vs_left].
  rewrite (prune_clean _ _ C), (prune_clean _ _ C'). auto.
Qed.

Definition blank (st : sstate) : vstate := mkVS [] [] (mkW st [] None) [].

Lemma traverse_same : forall d st st',
  fst (traverse d (blank st)) = fst (traverse d (blank st')) /\
  vs_ids (snd (traverse d (blank st))) = vs_ids (snd (traverse d (blank st'))) /\
  vs_regions (snd (traverse d (blank st))) = vs_regions (snd (traverse d (blank st'))) /\
  vs_left (snd (traverse d (blank st))) = vs_left (snd (traverse d (blank st'))).
Proof.
  intros d st st'. unfold traverse.
  destruct (styles_same (sizing_of d) (vd_styles d) (blank st) (blank st')) as (F & S & C);
    [unfold same_but, blank; auto|intros i; discriminate|intros i; discriminate|].
  destruct (visit_list (visit_style (sizing_of d)) (vd_styles d) (blank st)) as [r s1].
  destruct (visit_list (visit_style (sizing_of d)) (vd_styles d) (blank st')) as [r' s1'].
  cbn [fst snd] in *. subst r'. destruct r as [x|]; [split; auto; split; [apply S|split; apply S]|].
  destruct (C eq_refl) as [C1 C2]. assert (E := prune_same _ _ S C1 C2).
  set (p := isstyle (vs_ids s1)) in *.
  assert (A : forall i, p i = isstyle (vs_ids s1) i) by auto.
  assert (A' : forall i, p i = isstyle (vs_ids s1') i) by (rewrite <- (proj1 S); auto).
  set (Q := fun s => forall i, p i = isstyle (vs_ids s) i).
  assert (H : forall x s, In x (vd_regions d) -> Q s -> visit_region (sizing_of d) x (prune_s p s) = pruned p (visit_region (sizing_of d) x s) /\
    (fst (visit_region (sizing_of d) x s) = None -> Q (snd (visit_region (sizing_of d) x s)))).
  { intros x s _ Hs. apply prune_region; auto. }
  destruct (prune_list p _ Q (vd_regions d) H s1 A) as [L N].
  destruct (prune_list p _ Q (vd_regions d) H s1' A') as [L' N'].
  rewrite E in L. rewrite L in L'. clear L.
  destruct (visit_list (visit_region (sizing_of d)) (vd_regions d) s1) as [r s2].
  destruct (visit_list (visit_region (sizing_of d)) (vd_regions d) s1') as [r' s2'].
  unfold pruned in L'. cbn [fst snd] in *. assert (E2 := f_equal snd L'). apply (f_equal fst) in L'. cbn [fst snd] in *. subst r'.
  assert (I2 := f_equal vs_ids E2). assert (R2 := f_equal vs_regions E2). assert (L2 := f_equal vs_left E2).
  cbn [vs_ids vs_regions vs_left prune_s] in I2, R2, L2.
  destruct r as [x|]; [split; auto|]. destruct (vd_body d) as [b|]; [|split; auto].
  specialize (N eq_refl). specialize (N' eq_refl).
  destruct (prune_visit p (HeadModel.k_tb (vd_head d)) (sizing_of d) b None s2 N) as [V _].
  destruct (prune_visit p (HeadModel.k_tb (vd_head d)) (sizing_of d) b None s2' N') as [V' _].
  rewrite E2 in V. rewrite V in V'. unfold pruned in V'.
  split; [exact (f_equal fst V')|]. split; [exact (f_equal (fun x => vs_ids (snd x)) V')|].
  split; [exact (f_equal (fun x => vs_regions (snd x)) V')|exact (f_equal (fun x => vs_left (snd x)) V')].
Qed.

(** A validation tells the same whatever came before, and leaves the same table
    unless the extent stops it before it starts. *)
Lemma validate_same : forall t t' d, fst (validate t d) = fst (validate t' d) /\
  (fst (validate t d) <> Some VExtentType ->
     tr_table (snd (validate t d)) = tr_table (snd (validate t' d)) /\
     tr_regions (snd (validate t d)) = tr_regions (snd (validate t' d)) /\
     tr_body (snd (validate t d)) = tr_body (snd (validate t' d))).
Proof.
  intros t t' d. unfold validate. destruct (traverse_same d (tr_styles t) (tr_styles t')) as (E1 & E2 & E3 & E4).
  unfold blank in *.
  destruct (traverse d (mkVS [] [] (mkW (tr_styles t) [] None) [])) as [r s].
  destruct (traverse d (mkVS [] [] (mkW (tr_styles t') [] None) [])) as [r' s']. cbn [fst snd] in *. subst.
  destruct (vd_extent d) as [[[] ?]|]; cbn [fst snd]; try (split; [auto|congruence]);
  destruct (HeadModel.check_head (vd_head d)); cbn [fst snd tr_table tr_regions tr_body]; split; auto; intros _; (split; [|split]); congruence.
Qed.
