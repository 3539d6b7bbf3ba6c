(** C30: font sizes through nested elements. *)

From Coq Require Import List String Bool QArith.
From Verif Require Import IdModel StyleModel StyleProofs PropsStyle StyleTree.
Import ListNotations.
Open Scope string_scope.

(** ** Sizes on both axes *)

(** Horizontal and vertical; one number stands for both. *)
Definition axes (f : fsize) : Q * Q := (match f_h f with Some h => h | None => f_v f end, f_v f).
Definition scale (a b : Q * Q) : Q * Q := (fst a * fst b, snd a * snd b).
Definition same (a b : Q * Q) : Prop := fst a == fst b /\ snd a == snd b.
Definition percent (f : fsize) : Q * Q := (fst (axes f) / 100, snd (axes f) / 100).

(** A size that is no percentage, in cells. *)
Definition cells (z : sizing) (f : fsize) : Q * Q :=
  match f_unit f, z_extent z with
  | Px, Some (width, height) =>
      let v := f_v f * (snd (z_res z) / height) in
      (match f_h f with Some h => h * (fst (z_res z) / width) | None => v end, v)
  | _, _ => axes f
  end.

Definition own_size (i : item) : option fsize := fontSize (e_specified (i_el i)).

(** The percentages from an element up to the next absolute size, multiplied. *)
Fixpoint ratio (chain : list item) : Q * Q :=
  match chain with
  | [] => (1, 1)
  | i :: up => match own_size i with
               | None => ratio up
               | Some f => if is_pct f then scale (percent f) (ratio up) else (1, 1)
               end
  end.

(** The absolute size nearest above. *)
Definition absolute (chain : list item) : option fsize :=
  nearest (map (fun i => match own_size i with
                         | Some f => if is_pct f then None else Some f
                         | None => None
                         end) chain).

(** A region's size. *)
Definition region_size (g : styled) : Q * Q :=
  match fontSize (c_attrs (e_computed g)) with Some f => axes f | None => (1, 1) end.

(** Where there is no absolute size: the outermost element that has a region or
    is p or span settles it, with the region's size or one cell. *)
Fixpoint ground (regions : list (string * styled)) (chain : list item) : option (Q * Q) :=
  match chain with
  | [] => None
  | i :: up => match ground regions up with
               | Some b => Some b
               | None => match region_of regions (i_el i) with
                         | Some g => Some (region_size g)
                         | None => if defers (i_kind i) then None else Some (1, 1)
                         end
               end
  end.

(** No element that has a region and a percentage is below percentages that are
    not yet settled. *)
Fixpoint settled_sizes (regions : list (string * styled)) (chain : list item) : Prop :=
  match chain with
  | [] => True
  | i :: up =>
      settled_sizes regions up /\
      (region_of regions (i_el i) <> None -> (exists f, own_size i = Some f /\ is_pct f = true) ->
       absolute up = None -> ground regions up = None -> forall j, In j up -> own_size j = None)
  end.

(** ** Proofs *)

Lemma same_refl : forall a, same a a.
Proof. split; apply Qeq_refl. Qed.
Lemma same_trans : forall a b c, same a b -> same b c -> same a c.
Proof. intros a b c [] []. split; eapply Qeq_trans; eauto. Qed.

Lemma scale_same : forall a b b', same b b' -> same (scale a b) (scale a b').
Proof. intros a b b' [H1 H2]. split; cbn; [rewrite H1|rewrite H2]; apply Qeq_refl. Qed.

Lemma axes_mul : forall p o, same (axes (do_mul p o)) (scale (percent p) (axes o)).
Proof.
  intros [up hp vp] [uo ho vo]. unfold do_mul, axes, percent, scale. cbn [f_h f_v f_unit axes fst snd].
  destruct hp, ho; split; cbn; unfold Qdiv; ring.
Qed.

Lemma unit_mul : forall p o, f_unit (do_mul p o) = f_unit o.
Proof. intros p o. unfold do_mul. destruct (f_h p), (f_h o); auto. Qed.

Lemma times_pct_l : forall a b, is_pct a = true -> times a b = do_mul a b.
Proof. intros [u h v] b H. destruct u; try discriminate. auto. Qed.
Lemma times_abs_l : forall a b, is_pct a = false -> times a b = do_mul b a.
Proof. intros [u h v] b H. destruct u; try discriminate; auto. Qed.

Lemma cell_not_pct : forall f, f_unit f = Cell -> is_pct f = false.
Proof. intros f H. unfold is_pct. rewrite H. auto. Qed.
Lemma pct_unit : forall f, is_pct f = true <-> f_unit f = Pct.
Proof. intros f. unfold is_pct. destruct (f_unit f); split; congruence. Qed.

Lemma settle_cells : forall z r c, sbind (pixels_to_cells z r) (fun c => SOk (Some c)) = SOk c -> f_unit r = Px ->
  exists x, c = Some x /\ f_unit x = Cell /\ same (axes x) (cells z r).
Proof.
  intros z r c H U. unfold pixels_to_cells in H. unfold cells. rewrite U. destruct (z_extent z) as [[w h]|]; [|discriminate].
  destruct (f_h r) as [q|] eqn:E; cbn in H; inversion H; subst; eexists; (split; [reflexivity|split; [reflexivity|]]);
    unfold axes, same; cbn; split; unfold Qdiv; ring.
Qed.

(** One step: what a font size is computed to. *)
Lemma font_step : forall z spec parent region defer fs, compute_font_size z spec parent region defer = SOk fs ->
  (forall g, opt_font region = Some g -> f_unit g = Cell) ->
  (region <> None -> opt_font region <> None) ->
  (forall p, opt_font parent = Some p -> f_unit p = Cell \/ f_unit p = Pct) ->
  match fontSize spec with
  | Some s =>
      if is_pct s then
        match opt_font parent with
        | Some p => exists x, fs = Some x /\
            (if is_pct p then if defer then f_unit x = Pct /\ same (axes x) (scale (percent p) (axes s))
                              else f_unit x = Cell /\ same (axes x) (scale (percent p) (percent s))
             else f_unit x = Cell /\ same (axes x) (scale (percent s) (axes p)))
        | None => exists x, fs = Some x /\
            match opt_font region with
            | Some g => f_unit x = Cell /\ same (axes x) (scale (percent s) (axes g))
            | None => if defer then x = s else f_unit x = Cell /\ same (axes x) (percent s)
            end
        end
      else exists x, fs = Some x /\ f_unit x = Cell /\ same (axes x) (cells z s)
  | None =>
      match opt_font parent, opt_font region with
      | None, None => fs = if defer then None else Some one_cell
      | None, Some g => fs = Some g
      | Some p, Some g => exists x, fs = Some x /\ f_unit x = Cell /\
                          same (axes x) (if is_pct p then scale (percent p) (axes g) else axes p)
      | Some p, None => exists x, fs = Some x /\
                          (if is_pct p then if defer then x = p else f_unit x = Cell /\ same (axes x) (percent p)
                           else x = p)
      end
  end.
Proof.
  intros z spec parent region defer fs H RC RS PC. unfold compute_font_size in H.
  assert (One : forall s, is_pct s = true -> f_unit (times one_cell s) = Cell /\ same (axes (times one_cell s)) (percent s)).
  { intros s Hs. rewrite (times_abs_l one_cell) by auto. rewrite unit_mul. split; auto.
    eapply same_trans; [apply axes_mul|]. split; cbn; ring. }
  assert (One' : forall s, is_pct s = true -> f_unit (times s one_cell) = Cell /\ same (axes (times s one_cell)) (percent s)).
  { intros s Hs. rewrite times_pct_l by auto. rewrite unit_mul. split; auto.
    eapply same_trans; [apply axes_mul|]. split; cbn; ring. }
  destruct (fontSize spec) as [s|].
  - destruct (is_pct s) eqn:Ps.
    + destruct (opt_font parent) as [p|] eqn:Ep.
      * destruct (PC _ eq_refl) as [Up|Up].
        -- rewrite (cell_not_pct _ Up). rewrite times_abs_l in H by (apply cell_not_pct; auto).
           assert (Um : f_unit (do_mul s p) = Cell) by (rewrite unit_mul; auto). rewrite (cell_not_pct _ Um) in H. cbn [andb] in H. rewrite Um in H.
           inversion H; subst. eexists. split; [reflexivity|]. split; auto. apply axes_mul.
        -- assert (Pp : is_pct p = true) by (apply pct_unit; auto). rewrite Pp. rewrite times_pct_l in H by auto.
           assert (Um : f_unit (do_mul p s) = Pct) by (rewrite unit_mul; apply pct_unit; auto).
           assert (Pm : is_pct (do_mul p s) = true) by (apply pct_unit; auto). rewrite Pm in H. cbn [andb] in H.
           destruct defer; cbn [negb] in H.
           ++ rewrite Um in H. inversion H; subst. eexists. split; [reflexivity|]. split; auto. apply axes_mul.
           ++ destruct (One' _ Pm) as [U1 A1]. rewrite U1 in H. inversion H; subst. eexists. split; [reflexivity|]. split; auto.
              eapply same_trans; [apply A1|]. destruct (axes_mul p s) as [X Y]. unfold percent at 1.
              split; cbn in *; [rewrite X|rewrite Y]; unfold Qdiv; ring.
      * destruct (opt_font region) as [g|] eqn:Eg.
        -- specialize (RC _ eq_refl). rewrite times_abs_l in H by (apply cell_not_pct; auto).
           assert (Um : f_unit (do_mul s g) = Cell) by (rewrite unit_mul; auto). rewrite (cell_not_pct _ Um) in H. cbn [andb] in H. rewrite Um in H.
           inversion H; subst. eexists. split; [reflexivity|]. split; auto. apply axes_mul.
        -- destruct region as [c|]; [exfalso; apply RS; congruence|]. destruct defer.
           ++ rewrite Ps in H. cbn [andb negb] in H. apply pct_unit in Ps. rewrite Ps in H. inversion H; subst. eauto.
           ++ destruct (One _ Ps) as [U1 A1]. rewrite (cell_not_pct _ U1) in H. cbn [andb] in H. rewrite U1 in H.
              inversion H; subst. eauto.
    + destruct (f_unit s) eqn:Us; [|inversion H; subst; eexists; split; [reflexivity|split; auto]|apply pct_unit in Us; congruence].
      * apply settle_cells in H; auto.
      * unfold cells. rewrite Us. apply same_refl.
  - destruct (opt_font parent) as [p|] eqn:Ep.
    + destruct (PC _ eq_refl) as [Up|Up].
      * rewrite (cell_not_pct _ Up) in H. cbv beta iota zeta in H. rewrite (cell_not_pct _ Up), andb_false_r in H. cbv beta iota in H. rewrite Up in H. rewrite ?(cell_not_pct _ Up). inversion H; subst.
        destruct (opt_font region); eexists; split; eauto. split; auto. apply same_refl.
      * assert (Pp : is_pct p = true) by (apply pct_unit; auto). rewrite Pp in H |- *. cbv beta iota zeta in H.
        destruct (opt_font region) as [g|] eqn:Eg; cbv beta iota in H.
        -- specialize (RC _ eq_refl). rewrite (times_abs_l g) in H by (apply cell_not_pct; auto).
           assert (Um : f_unit (do_mul p g) = Cell) by (rewrite unit_mul; auto). rewrite (cell_not_pct _ Um), andb_false_r, Um in H.
           inversion H; subst. eexists. split; [reflexivity|]. split; auto. apply axes_mul.
        -- rewrite Pp, andb_true_r in H. destruct defer; cbn [negb] in H.
           ++ rewrite Up in H. inversion H; subst. eauto.
           ++ destruct (One' _ Pp) as [U1 A1]. rewrite U1 in H. inversion H; subst. eauto.
    + destruct (opt_font region) as [g|] eqn:Eg; inversion H; subst; auto.
      specialize (RC _ eq_refl). rewrite RC in H. inversion H. auto.
Qed.

Lemma region_font : forall d z g e, region_linked d z g e ->
  exists f, fontSize (c_attrs (e_computed e)) = Some f /\ f_unit f = Cell /\
    same (axes f) (match fontSize (e_specified e) with
                   | Some s => if is_pct s then percent s else cells z s
                   | None => (1, 1)
                   end).
Proof.
  intros d z g e (_ & _ & _ & _ & C). apply compute_style_spec in C as (fs & lh & F & _ & -> & _).
  apply font_step in F; try (cbn; congruence). cbn [opt_font] in F. destruct (fontSize (e_specified e)) as [s|].
  - destruct (is_pct s); destruct F as (x & -> & F); eauto.
  - subst fs. exists one_cell. split; auto. split; auto. apply same_refl.
Qed.

(** What holds of the font size computed for the first of a chain. *)
Definition sized (z : sizing) (regions : list (string * styled)) (chain : list item) (fs : option fsize) : Prop :=
  match (match absolute chain with Some f => Some (cells z f) | None => ground regions chain end) with
  | Some b => exists x, fs = Some x /\ f_unit x = Cell /\ same (axes x) (scale (ratio chain) b)
  | None => ((forall j, In j chain -> own_size j = None) /\ fs = None) \/
            ((exists j, In j chain /\ own_size j <> None) /\
             exists x, fs = Some x /\ f_unit x = Pct /\ same (percent x) (ratio chain))
  end.

Lemma scale_pct : forall s b r x, same (axes x) (scale r b) -> same (scale (percent s) (axes x)) (scale (scale (percent s) r) b).
Proof. intros s b r x [H1 H2]. split; cbn in *; [rewrite H1|rewrite H2]; ring. Qed.

Lemma pct_scale : forall x y s r, same (axes y) (scale (percent x) (axes s)) -> same (percent x) r ->
  same (percent y) (scale (percent s) r).
Proof.
  intros x y s [r1 r2] [Y1 Y2] [A1 A2]. unfold percent at 1 in A1. unfold percent at 1 in A2. unfold scale, percent in *.
  cbn [fst snd] in *. split; cbn [fst snd]; [rewrite Y1, A1|rewrite Y2, A2]; unfold Qdiv; ring.
Qed.

Lemma pct_done : forall x r b, same (percent x) r -> same (scale (percent x) b) (scale r b).
Proof. intros x r b [A1 A2]. split; unfold scale; cbn [fst snd]; [rewrite A1|rewrite A2]; apply Qeq_refl. Qed.

Lemma ratio_none : forall chain, (forall j, In j chain -> own_size j = None) -> ratio chain = (1, 1).
Proof. induction chain as [|i up IH]; intros H; auto. cbn [ratio]. rewrite (H i) by (left; auto). apply IH. intros j Hj. apply H. right. auto. Qed.

Lemma absolute_cons : forall i up, absolute (i :: up) =
  or_else (match own_size i with Some f => if is_pct f then None else Some f | None => None end) (absolute up).
Proof. intros. unfold absolute. cbn [map]. apply nearest_cons. Qed.

Lemma linked_sized : forall d z regions chain,
  (forall j e, dict_get regions j = Some e -> exists g, In (j, KRegion g) d /\ region_linked d z g e) ->
  linked d z regions chain -> settled_sizes regions chain ->
  match chain with [] => True | i :: _ => sized z regions chain (fontSize (c_attrs (e_computed (i_el i)))) end.
Proof.
  intros d z regions chain RL. induction 1 as [|i up L IH Rg St Sp Rs C]; intros SS; auto. cbn [settled_sizes] in SS. destruct SS as [SS G].
  specialize (IH SS). apply compute_style_spec in C as (fs & lh & F & _ & -> & _).
  assert (PS : up <> [] -> sized z regions up (opt_font (comp (parent_of up)))) by (destruct up; [congruence|auto]).
  assert (PN : up = [] -> opt_font (comp (parent_of up)) = None) by (intros ->; auto). clear IH.
  assert (RF : forall g, region_of regions (i_el i) = Some g -> exists f, opt_font (comp (Some g)) = Some f /\ f_unit f = Cell /\ region_size g = axes f).
  { intros g Eg. unfold region_of in Eg. destruct (e_region (i_el i)) as [j|]; [|discriminate]. destruct (RL _ _ Eg) as (ge & _ & Lg).
    destruct (region_font _ _ _ _ Lg) as (f & Ef & Uf & _). exists f. split; auto. split; auto. unfold region_size. rewrite Ef. auto. }
  assert (S0 : sized z regions up (opt_font (comp (parent_of up)))).
  { destruct up as [|p up']; [|apply PS; congruence]. unfold sized. cbn. left. split; auto. intros j []. }
  clear PS PN. apply font_step in F.
  - unfold sized in *. rewrite absolute_cons. cbn [ratio ground]. change (fontSize (e_specified (i_el i))) with (own_size i) in F.
    destruct (own_size i) as [s|] eqn:Es.
    + destruct (is_pct s) eqn:Ps; cbn [or_else].
      * destruct (absolute up) as [f|] eqn:Ea.
        -- destruct S0 as (x & E & U & A). rewrite E in F. rewrite (cell_not_pct _ U) in F. destruct F as (y & -> & Uy & Ay).
           exists y. split; auto. split; auto. eapply same_trans; [apply Ay|]. apply scale_pct. auto.
        -- destruct (ground regions up) as [b|] eqn:Eb.
           ++ destruct S0 as (x & E & U & A). rewrite E in F. rewrite (cell_not_pct _ U) in F. destruct F as (y & -> & Uy & Ay).
              exists y. split; auto. split; auto. eapply same_trans; [apply Ay|]. apply scale_pct. auto.
           ++ destruct (region_of regions (i_el i)) as [g|] eqn:Eg.
              ** assert (No : forall j, In j up -> own_size j = None).
                 { apply G; auto; try congruence. exists s. auto. }
                 rewrite (ratio_none _ No). destruct S0 as [[_ E]|[(j & Hj & Nj) _]]; [|exfalso; auto]. rewrite E in F.
                 destruct (RF _ eq_refl) as (f & Ef & Uf & Rf). rewrite Ef in F. rewrite Rf. destruct F as (y & -> & Uy & Ay).
                 exists y. split; auto. split; auto. eapply same_trans; [apply Ay|]. split; cbn; ring.
              ** cbn [comp opt_font] in F. destruct S0 as [[No E]|[(j & Hj & Nj) (x & E & U & A)]]; rewrite E in F.
                 --- rewrite (ratio_none _ No). destruct F as (y & -> & F). destruct (defers (i_kind i)).
                     +++ subst y. right. split; [exists i; split; [left; auto|rewrite Es; congruence]|].
                         exists s. split; auto. split; [apply pct_unit; auto|]. split; cbn; ring.
                     +++ destruct F as [Uy Ay]. exists y. split; auto. split; auto. eapply same_trans; [apply Ay|]. split; cbn; ring.
                 --- assert (Px : is_pct x = true) by (apply pct_unit; auto). rewrite Px in F. destruct F as (y & -> & F). destruct (defers (i_kind i)).
                     +++ destruct F as [Uy Ay]. right. split; [exists j; split; [right|]; auto|]. exists y. split; auto. split; auto.
                         eapply pct_scale; eauto.
                     +++ destruct F as [Uy Ay]. exists y. split; auto. split; auto. eapply same_trans; [apply Ay|].
                         destruct A as [A1 A2]. split; unfold scale; cbn [fst snd]; [rewrite A1|rewrite A2]; ring.
      * destruct F as (x & -> & Ux & Ax). exists x. split; auto. split; auto. eapply same_trans; [apply Ax|]. split; cbn; ring.
    + cbn [or_else]. destruct (absolute up) as [f|] eqn:Ea.
      * destruct S0 as (x & E & U & A). rewrite E in F. destruct (opt_font (comp (region_of regions (i_el i)))).
        -- rewrite (cell_not_pct _ U) in F. destruct F as (y & -> & Uy & Ay). exists y. split; auto. split; auto. eapply same_trans; eauto.
        -- rewrite (cell_not_pct _ U) in F. destruct F as (y & -> & ->). exists x. auto.
      * destruct (ground regions up) as [b|] eqn:Eb.
        -- destruct S0 as (x & E & U & A). rewrite E in F. destruct (opt_font (comp (region_of regions (i_el i)))).
           ++ rewrite (cell_not_pct _ U) in F. destruct F as (y & -> & Uy & Ay). exists y. split; auto. split; auto. eapply same_trans; eauto.
           ++ rewrite (cell_not_pct _ U) in F. destruct F as (y & -> & ->). exists x. auto.
        -- destruct (region_of regions (i_el i)) as [g|] eqn:Eg.
           ++ destruct (RF _ eq_refl) as (f & Ef & Uf & Rf). rewrite Ef in F. rewrite Rf.
              destruct S0 as [[No E]|[(j & Hj & Nj) (x & E & U & A)]]; rewrite E in F.
              ** subst fs. exists f. split; auto. split; auto. rewrite (ratio_none _ No). split; cbn; ring.
              ** assert (Px : is_pct x = true) by (apply pct_unit; auto). rewrite Px in F. destruct F as (y & -> & Uy & Ay).
                 exists y. split; auto. split; auto. eapply same_trans; [apply Ay|].
                 eapply pct_done; eauto.
           ++ cbn [comp opt_font] in F. destruct S0 as [[No E]|[(j & Hj & Nj) (x & E & U & A)]]; rewrite E in F.
              ** subst fs. destruct (defers (i_kind i)).
                 --- left. split; auto. intros j [<-|Hj]; auto.
                 --- exists one_cell. split; auto. split; auto. rewrite (ratio_none _ No). split; cbn; ring.
              ** assert (Px : is_pct x = true) by (apply pct_unit; auto). rewrite Px in F. destruct F as (y & -> & F). destruct (defers (i_kind i)).
                 --- subst y. right. split; [exists j; split; [right|]; auto|]. exists x. auto.
                 --- destruct F as [Uy Ay]. exists y. split; auto. split; auto. eapply same_trans; [apply Ay|]. 
                     destruct A as [A1 A2]. split; unfold scale; cbn [fst snd]; [rewrite A1|rewrite A2]; ring.
  - intros g Hg. destruct (region_of regions (i_el i)) as [e|]; [|discriminate]. destruct (RF _ eq_refl) as (f & Ef & Uf & _). congruence.
  - intros N. destruct (region_of regions (i_el i)) as [e|]; [|exfalso; apply N; auto]. destruct (RF _ eq_refl) as (f & Ef & Uf & _). congruence.
  - intros p Hp. unfold sized in S0. rewrite Hp in S0.
    destruct (match absolute up with Some f => Some (cells z f) | None => ground regions up end).
    + destruct S0 as (x & E & U & _). inversion E; subst. auto.
    + destruct S0 as [[_ E]|[_ (x & E & U & _)]]; inversion E; subst; auto.
Qed.

(** Every element of a document that validates. *)
Theorem C30_sizes : forall d z body regions o anc i, validate_styles d z body = SOk (regions, o) ->
  within body o anc i -> settled_sizes regions (i :: anc) ->
  sized z regions (i :: anc) (fontSize (c_attrs (e_computed (i_el i)))).
Proof.
  intros d z body regions o anc i H W S. apply validate_linked in H as [H RL].
  exact (linked_sized d z regions (i :: anc) RL (H _ _ W) S).
Qed.

Lemma ground_leaf : forall regions i anc, defers (i_kind i) = false -> ground regions (i :: anc) <> None.
Proof.
  intros regions i anc D. cbn [ground]. destruct (ground regions anc); [congruence|].
  destruct (region_of regions (i_el i)); [congruence|]. rewrite D. congruence.
Qed.

(** A p or span: in cells, the product of the percentages above it times the
    absolute size they start from. *)
Theorem C30_product : forall d z body regions o anc i, validate_styles d z body = SOk (regions, o) ->
  within body o anc i -> settled_sizes regions (i :: anc) -> (i_kind i = P \/ i_kind i = Span) ->
  exists b x, (match absolute (i :: anc) with Some f => Some (cells z f) | None => ground regions (i :: anc) end) = Some b /\
    fontSize (c_attrs (e_computed (i_el i))) = Some x /\ f_unit x = Cell /\
    same (axes x) (scale (ratio (i :: anc)) b).
Proof.
  intros d z body regions o anc i H W S K. assert (X := C30_sizes _ _ _ _ _ _ _ H W S). unfold sized in X.
  assert (D : defers (i_kind i) = false) by (destruct K as [-> | ->]; auto). assert (N := ground_leaf regions i anc D).
  destruct (absolute (i :: anc)) as [f|].
  - destruct X as (x & E & U & A). eauto 8.
  - destruct (ground regions (i :: anc)) as [b|]; [|congruence]. destruct X as (x & E & U & A). eauto 8.
Qed.

(** A region's size: its own, percentages being of one cell. *)
Theorem C30_region : forall d z body regions o j e, validate_styles d z body = SOk (regions, o) ->
  dict_get regions j = Some e ->
  same (region_size e) (match fontSize (e_specified e) with
                        | Some s => if is_pct s then percent s else cells z s
                        | None => (1, 1)
                        end).
Proof.
  intros d z body regions o j e H E. apply validate_linked in H as [_ RL]. destruct (RL _ _ E) as (g & _ & L).
  destruct (region_font _ _ _ _ L) as (f & Ef & _ & A). unfold region_size. rewrite Ef. exact A.
Qed.

(** Nothing is needed of the regions where no region is named with a percentage
    below percentages; in particular without regions. *)
Theorem C30_no_regions : forall d z body regions o anc i, validate_styles d z body = SOk (regions, o) ->
  within body o anc i -> (forall j, In j (i :: anc) -> e_region (i_el j) = None) -> settled_sizes regions (i :: anc).
Proof.
  intros d z body regions o anc i _ _ N. revert N. generalize (i :: anc) as chain. induction chain as [|j up IH]; intros N; cbn [settled_sizes]; auto.
  split; [apply IH; intros k Hk; apply N; right; auto|]. intros R. exfalso. apply R. unfold region_of. rewrite (N j) by (left; auto). auto.
Qed.

(** Pixel sizes need the extent, and only they do. *)
Definition pixel_style (d : list (string * kind)) : Prop :=
  exists i s f, In (i, KStyle s) d /\ fontSize (s_attrs s) = Some f /\ f_unit f = Px.

Lemma check_styles_spec : forall z d, (check_styles z d = SOk tt /\ ~ (z_extent z = None /\ pixel_style d)) \/
  (check_styles z d = SErr ExtentMissing /\ z_extent z = None /\ pixel_style d).
Proof.
  intros z. induction d as [|[i k] r IH]; cbn [check_styles].
  - left. split; auto. intros (_ & ? & ? & ? & [] & _).
  - assert (Skip : (forall s f, k = KStyle s -> fontSize (s_attrs s) = Some f -> f_unit f = Px -> z_extent z <> None) ->
      forall c, (c = SOk tt /\ ~ (z_extent z = None /\ pixel_style r)) \/ (c = SErr ExtentMissing /\ z_extent z = None /\ pixel_style r) ->
      (c = SOk tt /\ ~ (z_extent z = None /\ pixel_style ((i, k) :: r))) \/
      (c = SErr ExtentMissing /\ z_extent z = None /\ pixel_style ((i, k) :: r))).
    { intros Nk c [[-> N]|(-> & E & i' & s' & f' & Hin & F & U)].
      - left. split; auto. intros (E & i' & s' & f' & [Hin|Hin] & F & U).
        + inversion Hin; subst. apply (Nk _ _ eq_refl F U E).
        + apply N. split; auto. exists i', s', f'. auto.
      - right. split; auto. split; auto. exists i', s', f'. split; [right|]; auto. }
    destruct k as [s|g|]; [|apply Skip; auto; discriminate|apply Skip; auto; discriminate].
    unfold check_style. destruct (fontSize (s_attrs s)) as [f|] eqn:F.
    + destruct (z_extent z) as [x|] eqn:E.
      * cbn [sbind]. apply Skip; auto. intros. congruence.
      * destruct (f_unit f) eqn:U.
        -- right. split; auto. split; auto. exists i, s, f. split; [left|]; auto.
        -- cbn [sbind]. apply Skip; auto. intros s0 f0 Ek F0 U0. inversion Ek; subst. congruence.
        -- cbn [sbind]. apply Skip; auto. intros s0 f0 Ek F0 U0. inversion Ek; subst. congruence.
    + cbn [sbind]. apply Skip; auto. intros s0 f0 Ek F0 U0. inversion Ek; subst. congruence.
Qed.

Lemma font_no_extent : forall z spec parent region defer, compute_font_size z spec parent region defer <> SErr ExtentMissing.
Proof.
  intros z spec parent region defer. unfold compute_font_size.
  match goal with |- (match ?r with Some _ => _ | None => _ end) <> _ => destruct r as [x|]; [|congruence] end.
  destruct (f_unit x); try congruence. unfold pixels_to_cells. destruct (z_extent z) as [[w h]|]; cbn; [|congruence].
  destruct (f_h x); cbn; congruence.
Qed.

Lemma height_no_extent : forall z spec parent region f, compute_line_height z spec parent region f <> SErr ExtentMissing.
Proof.
  intros z spec parent region f. unfold compute_line_height.
  match goal with |- (match ?r with Some _ => _ | None => _ end) <> _ => destruct r as [[|[] q]|] end; try congruence.
  - unfold pixels_to_cells. destruct (z_extent z) as [[w h]|]; cbn; congruence.
  - destruct f as [[[] h v]|]; cbn; congruence.
Qed.

Lemma collect_no_extent : forall d z regions w s parent defer extra w', tidy d regions w ->
  collect d z w s parent defer extra <> (SErr ExtentMissing, w').
Proof.
  intros d z regions w s parent defer extra w' [S _] H. unfold collect in H.
  assert (Y := collect_refs_spec d (refs s) [] [] (w_styles w) S (U_nil d)). cbn [keep_first app] in Y. unfold refs in Y. unfold collect_refs in H.
  destruct (each_ref (ordered_styles (enough d) d) d (match s with Some l => l | None => [] end) [] (w_styles w)) as [[r|e] st].
  - unfold compute_style in H.
    match type of H with context [compute_font_size z ?a ?b ?c ?e] => assert (F := font_no_extent z a b c e);
      destruct (compute_font_size z a b c e) as [fs|er] end; cbn [sbind] in H; [|congruence].
    match type of H with context [compute_line_height z ?a ?b ?c ?e] => assert (L := height_no_extent z a b c e);
      destruct (compute_line_height z a b c e) as [lh|er] end; cbn [sbind] in H; congruence.
  - destruct Y as [_ Y]. inversion H; subst. exact Y.
Qed.

Lemma regions_no_extent : forall d z regions l w, tidy d regions w -> pass_regions d z l w <> SErr ExtentMissing.
Proof.
  intros d z regions. induction l as [|[i k] r IH]; intros w T; cbn [pass_regions]; [congruence|]. destruct k as [s|g|]; auto.
  destruct (collect d z w (r_refs g) None false _) as [[e|er] w1] eqn:C.
  - specialize (IH w1 (collect_tidy _ _ _ _ _ _ _ _ _ _ T C)). destruct (pass_regions d z r w1) as [[es w2]|]; cbn [sbind]; congruence.
  - intros E. inversion E; subst. eapply collect_no_extent; eauto.
Qed.

Lemma pass_no_extent : forall d z regions t up w, tidy d regions w -> linked d z regions up ->
  style_pass d z regions (comp (parent_of up)) t w <> SErr ExtentMissing.
Proof.
  intros d z regions. induction t as [k s r kids IH] using sel_ind'. intros up w T L. cbn [style_pass].
  destruct (set_region regions k r w) as [w1|e0] eqn:E1; cbn [sbind].
  2:{ unfold set_region in E1. destruct k, r; try congruence; destruct (dict_get regions s0); congruence. }
  assert (T1 := set_region_tidy _ _ _ _ _ _ T E1).
  destruct (collect d z w1 s (comp (parent_of up)) (defers k) []) as [[e|er] w2] eqn:C.
  2:{ intros E. inversion E; subst. eapply collect_no_extent; eauto. }
  assert (L' : linked d z regions (mkI k s r e :: up)).
  { assert (S1 : style_pass d z regions (comp (parent_of up)) (SNode k s r []) w = SOk (SOut k r e [],
       match k with Div => unset_region k r (push w2 e) | _ => pop (unset_region k r (push w2 e)) end)).
    { cbn [style_pass]. rewrite E1. cbn [sbind]. rewrite C. auto. }
    destruct (style_pass_linked _ _ _ _ _ _ _ _ T L S1) as [_ H]. apply (H [] (mkI k s r e)). constructor. }
  assert (T2 : tidy d regions (push w2 e)) by exact (collect_tidy _ _ _ _ _ _ _ _ _ _ T1 C).
  match goal with |- sbind (?f kids (push w2 e)) _ <> _ =>
    assert (K : forall ks w0, Forall (fun t => forall up w, tidy d regions w -> linked d z regions up ->
      style_pass d z regions (comp (parent_of up)) t w <> SErr ExtentMissing) ks -> tidy d regions w0 -> f ks w0 <> SErr ExtentMissing) end.
  { induction ks as [|x m IHm]; intros w0 F T0; [congruence|]. inversion F as [|? ? Fx Fm]; subst.
    specialize (Fx (mkI k s r e :: up) w0 T0 L'). cbn [parent_of comp i_el] in Fx.
    destruct (style_pass d z regions (Some (e_computed e)) x w0) as [[o w4]|er] eqn:Ex; cbn [sbind]; [|congruence].
    destruct (style_pass_linked d z regions x (mkI k s r e :: up) w0 o w4 T0 L' Ex) as [T4 _]. specialize (IHm w4 Fm T4).
    match goal with |- sbind ?g _ <> _ => destruct g as [[os w5]|er] end; cbn [sbind]; congruence. }
  specialize (K kids (push w2 e) IH T2).
  match goal with |- sbind ?g _ <> _ => destruct g as [[os w5]|er] end; cbn [sbind]; [destruct k|]; congruence.
Qed.

Theorem C30_extent : forall d z body, validate_styles d z body = SErr ExtentMissing <-> z_extent z = None /\ pixel_style d.
Proof.
  intros d z body. unfold validate_styles. destruct (check_styles_spec z d) as [[-> N]|(-> & E & Px)]; cbn [sbind]; [|tauto].
  split; [|tauto]. intros H. exfalso.
  assert (T : forall regions, tidy d regions (mkW sstart [] None)) by (intros; split; [apply settled_start|exact I]).
  destruct (pass_regions d z d (mkW sstart [] None)) as [[rs w]|er] eqn:P; cbn [sbind] in H.
  - destruct (pass_regions_linked d z d (mkW sstart [] None) _ _ (settled_start d) eq_refl eq_refl P) as (A & B & _).
    assert (Tw : tidy d rs w) by (split; auto; rewrite B; exact I).
    assert (X := pass_no_extent d z rs body [] w Tw (L_nil _ _ _)). cbn [parent_of comp] in X.
    destruct (style_pass d z rs None body w) as [[o w']|]; cbn [sbind] in H; congruence.
  - apply (regions_no_extent d z [] d (mkW sstart [] None) (T [])). rewrite P. congruence.
Qed.

(** Percentages through body, div, p and span, below a region, and on both
    axes; pixels. *)
Definition fs_style (f : fsize) (i : string) : string * kind := (i, KStyle (mkStyle None (set_fontSize no_attrs (Some f)))).
Definition doc30 : list (string * kind) :=
  [fs_style (mkF Pct None 50) "half"; fs_style (mkF Pct (Some 50) 200) "wide"; fs_style (mkF Px (Some 20) 72) "px";
   fs_style (mkF Cell None 2) "two"; ("R", KRegion (mkRegion (Some ["two"]) None))].
Definition size30 : sizing := mkSizing (Some (640, 360)) (32, 15).

Fixpoint leaf (o : sout) : option fsize :=
  match o with
  | SOut _ _ e (x :: _) => leaf x
  | SOut _ _ e [] => fontSize (c_attrs (e_computed e))
  end.
Definition leaf_size (t : sel) : option (unit3 * (Q * Q)) :=
  match validate_styles doc30 size30 t with
  | SOk (_, o) => match leaf o with
                  | Some f => Some (f_unit f, (Qred (fst (axes f)), Qred (snd (axes f))))
                  | None => None
                  end
  | SErr _ => None
  end.
Definition nest (b d p s : option (list string)) (rd rp : option string) : sel :=
  SNode Body b None [SNode Div d rd [SNode P p rp [SNode Span s None []]]].
Definition half := Some ["half"].

Example C30_case : leaf_size (nest half half half half None None) = Some (Cell, (1#16, 1#16)) /\
  leaf_size (nest None None half (Some ["wide"]) None (Some "R")) = Some (Cell, (1#2, 2#1)) /\
  leaf_size (nest half (Some ["px"]) half None None None) = Some (Cell, (1#2, 3#2)) /\
  leaf_size (nest None half None half (Some "R") None) = Some (Cell, (1#2, 1#2)).
Proof. vm_compute. auto. Qed.

(** Without the condition on regions it is false: the region's size is lost. *)
Theorem C30_region_lost : exists d z body regions o anc i b x,
  validate_styles d z body = SOk (regions, o) /\ within body o anc i /\ i_kind i = P /\
  absolute (i :: anc) = None /\ ground regions (i :: anc) = Some b /\ fontSize (c_attrs (e_computed (i_el i))) = Some x /\
  f_unit x = Cell /\ ~ same (axes x) (scale (ratio (i :: anc)) b).
Proof.
  destruct (validate_styles doc30 size30 (SNode Body None None [SNode Div half None [SNode P half (Some "R") []]])) as [[regions o]|] eqn:E;
    [|vm_compute in E; discriminate].
  assert (E' := E). vm_compute in E'. inversion E'; subst o regions; clear E'.
  eexists _, _, _, _, _, _, _, _, _. split; [exact E|]. split.
  - eapply W_below with (n := 0%nat); [reflexivity|reflexivity|]. eapply W_below with (n := 0%nat); [reflexivity|reflexivity|]. apply W_here.
  - split; [reflexivity|]. split; [reflexivity|]. split; [reflexivity|]. split; [reflexivity|]. split; [reflexivity|].
    intros [H _]. vm_compute in H. discriminate.
Qed.

Print Assumptions C30_sizes.
Print Assumptions C30_product.
Print Assumptions C30_region.
Print Assumptions C30_extent.
Print Assumptions C30_no_regions.
Print Assumptions C30_region_lost.
