(** Proofs for C49 and C50: the style pass of the source and the style of the
    result. *)

From Coq Require Import List ZArith String Ascii Bool QArith Lia Lqa Setoid.
From Verif Require Import IdModel PropsId TimingModel StyleModel StyleProofs StyleTree PropsFont SegmentModel ConvertModel
  ConvertSpec ConvertProofs ConvertStyleSpec ConvertStyleProofs.
Import ListNotations.
Open Scope string_scope.
Open Scope Q_scope.

(** ** Positive sizes *)

Definition pos2 (a : Q * Q) : Prop := 0 < fst a /\ 0 < snd a.

Lemma pos_axes : forall f, fsize_pos f <-> pos2 (axes f).
Proof. intros [u [h|] v]; unfold fsize_pos, pos2, axes; cbn; tauto. Qed.
Lemma pos_same : forall a b, same a b -> pos2 b -> pos2 a.
Proof. intros a b [E F] [P R]. split; [rewrite E|rewrite F]; auto. Qed.
Lemma pos_scale : forall a b, pos2 a -> pos2 b -> pos2 (scale a b).
Proof. intros a b [P R] [P' R']. split; cbn; apply Qmult_lt_0_compat; auto. Qed.
Lemma pos_percent : forall f, pos2 (axes f) -> pos2 (percent f).
Proof.
  intros f [P R]. unfold percent. assert (H : 0 < / 100) by reflexivity. split; cbn [fst snd]; apply Qmult_lt_0_compat; auto.
Qed.

Definition pos_sizing (z : sizing) : Prop :=
  0 < fst (z_res z) /\ 0 < snd (z_res z) /\ match z_extent z with Some (w, h) => 0 < w /\ 0 < h | None => True end.

Lemma pos_div : forall a b, 0 < a -> 0 < b -> 0 < a / b.
Proof. intros a b A B. unfold Qdiv. apply Qmult_lt_0_compat; auto. apply Qinv_lt_0_compat. auto. Qed.

Lemma pos_cells : forall z f, pos_sizing z -> fsize_pos f -> pos2 (cells z f).
Proof.
  intros z f (R1 & R2 & E) F. unfold cells. destruct (f_unit f); try (apply pos_axes; auto).
  destruct (z_extent z) as [[w h]|]; [|apply pos_axes; auto]. destruct E as [W H]. destruct F as [V Hh].
  assert (X : 0 < f_v f * (snd (z_res z) / h)) by (apply Qmult_lt_0_compat; auto using pos_div).
  split; cbn [fst snd]; auto. destruct (f_h f); auto. apply Qmult_lt_0_compat; auto using pos_div.
Qed.

Definition font_good (f : option fsize) : Prop := forall x, f = Some x -> fsize_pos x /\ (f_unit x = Cell \/ f_unit x = Pct).

Lemma font_pos : forall z spec parent region defer fs, compute_font_size z spec parent region defer = SOk fs ->
  pos_sizing z -> (forall f, fontSize spec = Some f -> fsize_pos f) ->
  (forall c, region = Some c -> exists g, fontSize (c_attrs c) = Some g /\ f_unit g = Cell /\ fsize_pos g) ->
  font_good (opt_font parent) ->
  font_good fs /\ (defer = false -> exists x, fs = Some x /\ f_unit x = Cell).
Proof.
  intros z spec parent region defer fs H Z Sp Rg Pg.
  assert (RC : forall g, opt_font region = Some g -> f_unit g = Cell).
  { intros g E. destruct region as [c|]; [|discriminate]. destruct (Rg c eq_refl) as (g' & E' & U & _). cbn in E. congruence. }
  assert (RP : forall g, opt_font region = Some g -> pos2 (axes g)).
  { intros g E. destruct region as [c|]; [|discriminate]. destruct (Rg c eq_refl) as (g' & E' & _ & U). cbn in E.
    apply pos_axes. congruence. }
  assert (RS : region <> None -> opt_font region <> None).
  { intros N. destruct region as [c|]; [|congruence]. destruct (Rg c eq_refl) as (g' & E' & _ & _). cbn. congruence. }
  assert (PC : forall p, opt_font parent = Some p -> f_unit p = Cell \/ f_unit p = Pct) by (intros p E; apply (Pg p E)).
  assert (PP : forall p, opt_font parent = Some p -> pos2 (axes p)) by (intros p E; apply pos_axes; apply (Pg p E)).
  assert (St := font_step _ _ _ _ _ _ H RC RS PC). clear H.
  assert (G1 : forall x, f_unit x = Cell -> pos2 (axes x) -> font_good (Some x) /\ (defer = false -> exists y, Some x = Some y /\ f_unit y = Cell)).
  { intros x U P. split; [|eauto]. intros y E. inversion E; subst. split; [apply pos_axes|]; auto. }
  assert (G2 : defer = true -> forall x, f_unit x = Pct -> pos2 (axes x) -> font_good (Some x) /\ (defer = false -> exists y, Some x = Some y /\ f_unit y = Cell)).
  { intros -> x U P. split; [|discriminate]. intros y E. inversion E; subst. split; [apply pos_axes|]; auto. }
  destruct (fontSize spec) as [s|] eqn:Es.
  - assert (Ps := proj1 (pos_axes _) (Sp _ eq_refl)). destruct (is_pct s) eqn:Pp.
    + destruct (opt_font parent) as [p|] eqn:Ep.
      * destruct St as (x & -> & St). specialize (PP _ eq_refl). destruct (is_pct p) eqn:Pq.
        -- destruct defer; destruct St as [U A].
           ++ apply G2; auto. eapply pos_same; [exact A|]. apply pos_scale; auto using pos_percent.
           ++ apply G1; auto. eapply pos_same; [exact A|]. apply pos_scale; auto using pos_percent.
        -- destruct St as [U A]. apply G1; auto. eapply pos_same; [exact A|]. apply pos_scale; auto using pos_percent.
      * destruct St as (x & -> & St). destruct (opt_font region) as [g|] eqn:Eg.
        -- destruct St as [U A]. apply G1; auto. eapply pos_same; [exact A|]. apply pos_scale; auto using pos_percent.
        -- destruct defer.
           ++ subst x. apply G2; auto. apply pct_unit. auto.
           ++ destruct St as [U A]. apply G1; auto. eapply pos_same; [exact A|]. auto using pos_percent.
    + destruct St as (x & -> & U & A). apply G1; auto. eapply pos_same; [exact A|]. apply pos_cells; auto.
  - destruct (opt_font parent) as [p|] eqn:Ep.
    + specialize (PP _ eq_refl). specialize (PC _ eq_refl). destruct (opt_font region) as [g|] eqn:Eg.
      * destruct St as (x & -> & U & A). apply G1; auto. eapply pos_same; [exact A|].
        destruct (is_pct p); auto. apply pos_scale; auto using pos_percent.
      * destruct St as (x & -> & St). destruct (is_pct p) eqn:Pq.
        -- destruct defer.
           ++ subst x. apply G2; auto. apply pct_unit. auto.
           ++ destruct St as [U A]. apply G1; auto. eapply pos_same; [exact A|]. auto using pos_percent.
        -- subst x. apply G1; auto. destruct PC as [U|U]; auto. apply pct_unit in U. congruence.
    + destruct (opt_font region) as [g|] eqn:Eg; subst fs.
      * apply G1; auto.
      * destruct defer.
        -- split; [intros x E; discriminate|discriminate].
        -- apply G1; auto. split; reflexivity.
Qed.

(** ** Every element of the pass *)

Inductive out_all (Pr : ekind -> styled -> Prop) : sout -> Prop :=
| oa : forall k r e os, Pr k e -> Forall (out_all Pr) os -> out_all Pr (SOut k r e os).

Definition good (k : ekind) (e : styled) : Prop :=
  font_good (fontSize (c_attrs (e_computed e))) /\
  (defers k = false -> exists x, fontSize (c_attrs (e_computed e)) = Some x /\ f_unit x = Cell).

Definition spec_pos (d : list (string * kind)) : Prop := forall i f, fontSize (attrs_of d i) = Some f -> fsize_pos f.

Lemma resolve_pos : forall d l f, spec_pos d -> fontSize (resolve_styles (map (attrs_of d) l)) = Some f -> fsize_pos f.
Proof.
  intros d l f S H. unfold resolve_styles in H. rewrite (fold_add _ fontSize) in H by auto. cbn [fontSize no_attrs or_else] in H.
  rewrite map_map in H. induction l as [|x l IH]; cbn in H; [discriminate|].
  destruct (fontSize (attrs_of d x)) eqn:E; auto. inversion H; subst. eapply S; eauto.
Qed.

Definition regions_good (regions : list (string * styled)) : Prop :=
  forall j e, dict_get regions j = Some e -> exists g, fontSize (c_attrs (e_computed e)) = Some g /\ f_unit g = Cell /\ fsize_pos g.

Lemma regions_are_good : forall d z regions, pos_sizing z -> spec_pos d ->
  (forall j e, dict_get regions j = Some e -> exists g, In (j, KRegion g) d /\ region_linked d z g e) -> regions_good regions.
Proof.
  intros d z regions Z S RL j e E. destruct (RL _ _ E) as (g & _ & (_ & _ & Sp & _ & C)).
  apply compute_style_spec in C as (fs & lh & F & _ & Ef & _). rewrite Ef.
  assert (X : font_good fs /\ (false = false -> exists x, fs = Some x /\ f_unit x = Cell)).
  { eapply font_pos; eauto.
    - intros f Hf. rewrite Sp in Hf.
      assert (Hf' : fontSize (resolve_styles (map (attrs_of d) (e_referenced e))) = Some f).
      { unfold resolve_styles in Hf |- *. rewrite (fold_add _ fontSize) in Hf by auto. rewrite (fold_add _ fontSize) by auto.
        cbn in Hf |- *. exact Hf. }
      eapply resolve_pos; eauto.
    - intros c Hc. discriminate.
    - intros x Hx. discriminate. }
  destruct X as [G X]. destruct (X eq_refl) as (x & -> & U). exists x. split; auto. split; auto. apply (G x eq_refl).
Qed.

Lemma pass_good : forall d z regions, pos_sizing z -> spec_pos d -> regions_good regions ->
  forall t parent w o w', tidy d regions w -> font_good (opt_font parent) ->
  style_pass d z regions parent t w = SOk (o, w') -> tidy d regions w' /\ out_all good o.
Proof.
  intros d z regions Z S RG. induction t as [k s r kids IH] using sel_ind'. intros parent w o w' T Fp H.
  apply style_pass_inv in H as (w1 & e & w2 & os & w3 & H1 & H2 & H3 & -> & ->).
  assert (T1 := set_region_tidy _ _ _ _ _ _ T H1). assert (T2 := collect_tidy _ _ _ _ _ _ _ _ _ _ T1 H2).
  assert (Ge : good k e).
  { apply collect_fields in H2 as (_ & _ & _ & Sp & _ & _ & _ & _ & C). cbn [app] in Sp.
    apply compute_style_spec in C as (fs & lh & F & _ & Ef & _). unfold good. rewrite Ef.
    eapply font_pos; eauto.
    - intros f Hf. rewrite Sp in Hf. eapply resolve_pos; eauto.
    - intros c Hc. destruct T1 as [_ R1]. destruct (w_region w1) as [[i g]|]; [|discriminate]. inversion Hc; subst.
      eapply RG; eauto. }
  assert (K : forall ks w0 os0 w4, Forall (fun t => forall parent w o w', tidy d regions w -> font_good (opt_font parent) ->
        style_pass d z regions parent t w = SOk (o, w') -> tidy d regions w' /\ out_all good o) ks ->
      tidy d regions w0 -> pass_all d z regions (Some (e_computed e)) ks w0 = SOk (os0, w4) ->
      tidy d regions w4 /\ Forall (out_all good) os0).
  { induction ks as [|x m IHm]; intros w0 os0 w4 F T0 P.
    - inversion P; subst. auto.
    - inversion F as [|? ? Fx Fm]; subst. apply pass_all_cons in P as (o0 & w5 & os' & Ex & Em & ->).
      destruct (Fx (Some (e_computed e)) _ _ _ T0 (proj1 Ge) Ex) as [Tx Ox]. destruct (IHm _ _ _ Fm Tx Em) as [Tm Om]. auto. }
  destruct (K kids (push w2 e) os w3 IH T2 H3) as [T3 O3]. split.
  - assert (Tu := unset_region_tidy d regions k r w3 T3). destruct k; auto.
  - constructor; auto.
Qed.

Lemma carries_sized : forall os l, carries os l -> Forall (out_all good) os -> Forall sized l.
Proof.
  induction 1 as [|os s l C IH|os l C IH|os l k i r st b e el ks kids C1 IH1 C2 IH2]; intros F; auto.
  - constructor; auto. constructor.
  - constructor; auto. constructor.
  - inversion F as [|? ? Fx Fl]; subst. inversion Fx as [? ? ? ? G Fk]; subst. constructor; auto. constructor; auto.
    intros K. destruct G as [G1 G2]. destruct G2 as (x & E & U); [destruct K as [-> | ->]; auto|].
    exists x. split; auto. split; auto. apply (G1 x E).
Qed.

(** ** The head *)

Lemma dict_get_app : forall A (a b : list (string * A)) i, dict_get (a ++ b)%list i = match dict_get a i with Some x => Some x | None => dict_get b i end.
Proof. induction a as [|[j x] a IH]; intros b i; auto. cbn. destruct (i =? j); auto. Qed.

Lemma dict_get_map : forall A B (f : A -> B) (l : list (string * A)) i, dict_get (map (fun p => (fst p, f (snd p))) l) i = option_map f (dict_get l i).
Proof. induction l as [|[j x] l IH]; intros i; auto. cbn. destruct (i =? j); auto. Qed.

Lemma dict_get_In : forall A (l : list (string * A)) i x, dict_get l i = Some x -> In (i, x) l.
Proof.
  induction l as [|[j y] l IH]; intros i x H; cbn in H; [discriminate|]. destruct (String.eqb_spec i j).
  - inversion H; subst. left. auto.
  - right. auto.
Qed.

Lemma heads_style : forall d i, get_style (heads d) i = dict_get (styles_in d) i.
Proof.
  intros d i. unfold get_style, heads. rewrite dict_get_app, (dict_get_map _ _ KStyle), (dict_get_map _ _ KRegion).
  destruct (dict_get (styles_in d) i); auto. cbn. destruct (dict_get (regions_in d) i); auto.
Qed.

Lemma NoDup_app_r : forall A (a b : list A), NoDup (a ++ b) -> NoDup b.
Proof. induction a as [|x a IH]; intros b N; auto. inversion N; subst. auto. Qed.

Lemma nodup_get : forall A (l : list (string * A)) i x, NoDup (map fst l) -> In (i, x) l -> dict_get l i = Some x.
Proof.
  induction l as [|[j y] l IH]; intros i x N H; [destruct H|]. inversion N as [|? ? Nj N']; subst. cbn.
  destruct H as [E|H].
  - inversion E; subst. rewrite String.eqb_refl. auto.
  - destruct (String.eqb_spec i j); auto. subst. exfalso. apply Nj. apply (in_map fst) in H. auto.
Qed.

Lemma heads_region : forall d i g, NoDup (map fst (heads d)) -> In (i, KRegion g) (heads d) -> dict_get (regions_in d) i = Some g.
Proof.
  intros d i g N H. unfold heads in *. rewrite map_app, !map_map in N. cbn in N. apply in_app_or in H. destruct H as [H|H].
  - apply in_map_iff in H. destruct H as (x & E & _). inversion E.
  - apply in_map_iff in H. destruct H as ([j x] & E & Hin). inversion E; subst. apply nodup_get; auto.
    apply NoDup_app_r in N. auto.
Qed.

Lemma heads_pos : forall d z, positive_sizes d z -> spec_pos (heads d) /\ pos_sizing z.
Proof.
  intros d z (S & R1 & R2 & E). split; [|split; auto]. intros i f H. unfold attrs_of in H. rewrite heads_style in H.
  destruct (dict_get (styles_in d) i) as [s|] eqn:G; [|discriminate]. eapply S; eauto using dict_get_In.
Qed.

(** The pass, from the outside. *)
Lemma validated_pass : forall d b z os, validated d b z os ->
  exists regions el e w w3, fd_body d = Some b /\ NoDup (map fst (heads d)) /\ carries os (fb_kids b) /\
    tidy (heads d) regions w /\ w_region w = None /\
    (forall j e, dict_get regions j = Some e -> exists g, In (j, KRegion g) (heads d) /\ region_linked (heads d) z g e) /\
    map fst regions = map fst (regions_in d) /\
    collect (heads d) z w (fb_style b) None true [] = (SOk e, el) /\
    pass_all (heads d) z regions (Some (e_computed e)) (flat_map elements (fb_kids b)) (push el e) = SOk (os, w3).
Proof.
  intros d b z os (Eb & N & regions & el & H & C). unfold validate_styles in H.
  destruct (check_styles z (heads d)); [|discriminate]. cbn [sbind] in H.
  destruct (pass_regions (heads d) z (heads d) (mkW sstart [] None)) as [[rs w]|] eqn:P; [|discriminate]. cbn [sbind] in H.
  destruct (style_pass (heads d) z rs None _ w) as [[o' w']|] eqn:S; [|discriminate]. cbn [sbind] in H. inversion H; subst rs o'. clear H.
  destruct (pass_regions_linked _ z _ (mkW sstart [] None) _ _ (settled_start _) eq_refl eq_refl P) as (A & B & _ & Mr & E).
  apply style_pass_inv in S as (w1 & e & w2 & os' & w3 & S1 & S2 & S3 & So & _). inversion So; subst os' e. cbn in S1. inversion S1; subst w1.
  exists regions, w2, el, w, w3. repeat (split; [auto; fail|]).
  split; [split; auto; rewrite B; exact I|]. split; auto. split; auto. split; auto.
  rewrite Mr. unfold heads. clear.
  assert (X : forall l : list (string * style_el), filter (fun x : string * kind => match snd x with KRegion _ => true | _ => false end) (map (fun p => (fst p, KStyle (snd p))) l) = [])
    by (induction l; auto).
  assert (Y : forall l : list (string * region_el), map fst (filter (fun x : string * kind => match snd x with KRegion _ => true | _ => false end) (map (fun p => (fst p, KRegion (snd p))) l)) = map fst l)
    by (induction l as [|x l IH]; cbn; auto; f_equal; auto).
  rewrite filter_app, map_app, X, Y. auto.
Qed.

Lemma validated_sized : forall d b z os, validated d b z os -> positive_sizes d z -> sized_doc d.
Proof.
  intros d b z os V Ps b' Eb'. apply validated_pass in V as (regions & el & e & w & w3 & Eb & N & C & T & Wr & RL & _ & Cl & Pa).
  assert (b' = b) by congruence. subst b'. destruct (heads_pos _ _ Ps) as [Sp Z].
  assert (RG := regions_are_good _ _ _ Z Sp RL). apply (carries_sized _ _ C).
  assert (T2 := collect_tidy _ _ _ _ _ _ _ _ _ _ T Cl).
  assert (Ge : font_good (fontSize (c_attrs (e_computed e)))).
  { apply collect_fields in Cl as (_ & _ & _ & Se & _ & _ & _ & _ & Cs). cbn [app] in Se. rewrite Wr in Cs.
    apply compute_style_spec in Cs as (fs & lh & F & _ & Ef & _). rewrite Ef.
    eapply font_pos with (defer := true); eauto.
    - intros f Hf. rewrite Se in Hf. eapply resolve_pos; eauto.
    - intros c Hc. discriminate.
    - intros x Hx. discriminate. }
  clear - Pa T2 Ge Z Sp RG. revert Pa T2. generalize (flat_map elements (fb_kids b)) as ks. intros ks. revert os w3.
  assert (T0 : tidy (heads d) regions el -> tidy (heads d) regions (push el e)) by auto.
  generalize dependent (push el e). intros w0 T0 os w3 Pa T2. specialize (T0 T2). clear T2.
  revert w0 T0 os w3 Pa. induction ks as [|x m IHm]; intros w0 T0 os w3 P.
  - inversion P; subst. auto.
  - apply pass_all_cons in P as (o0 & w5 & os' & Ex & Em & ->).
    destruct (pass_good _ _ _ Z Sp RG x (Some (e_computed e)) w0 o0 w5 T0 Ge Ex) as [Tx Ox]. constructor; auto. eapply IHm; eauto.
Qed.

(** ** Values *)

Lemma nearest_keep_first : forall A (f : string -> option A) l, nearest (map f (keep_first l)) = nearest (map f l).
Proof.
  intros A f. induction l as [|x l IH]; auto. cbn [keep_first map nearest]. destruct (f x) as [y|] eqn:E; auto. rewrite <- IH.
  clear IH. induction (keep_first l) as [|z m IHm]; auto. cbn. destruct (String.eqb_spec z x); cbn.
  - subst. rewrite E. auto.
  - rewrite IHm. auto.
Qed.

Lemma unchained_all : forall d l u, (forall i s, get_style d i = Some s -> refs (s_refs s) = []) -> unfolds_all d l u -> u = l.
Proof.
  intros d. induction l as [|x l IH]; intros u N H; inversion H as [|? ? a b U A]; subst; auto.
  inversion U as [? s l' G Ul]; subst. assert (Ng := N _ _ G). unfold refs in Ng. rewrite Ng in Ul. inversion Ul; subst. cbn. f_equal. auto.
Qed.

Lemma unfolds_all_resolve : forall d l u, unfolds_all d l u -> forall i, In i l -> get_style d i <> None.
Proof.
  induction 1 as [|i r l l' U A IH]; intros j [].
  - subst. apply unfolds_inv in U. tauto.
  - auto.
Qed.

(** What an element specifies. *)
Definition spec_attr (d : list (string * kind)) (a : aname) (s : option (list string)) : option string :=
  nearest (map (fun i => getattr (attrs_of d i) a) (refs s)).

Definition unchained (d : list (string * kind)) : Prop := forall i s, get_style d i = Some s -> refs (s_refs s) = [].

Lemma collect_refs_value : forall d st l r, settled d st -> fst (collect_refs d st l) = SOk r ->
  exists u, unfolds_all d l u /\ r = keep_first u.
Proof.
  intros d st l r S R. assert (Y := collect_refs_spec d l [] [] st S (U_nil d)). cbn [keep_first app] in Y. unfold collect_refs in R.
  destruct (each_ref (ordered_styles (enough d) d) d l [] st) as [[x|e] st']; cbn [fst] in R; [|discriminate].
  inversion R; subst. destruct Y as [_ (v & V & E)]. exists v. auto.
Qed.

Lemma specified_value : forall d st s r a, unchained d -> settled d st -> fst (collect_refs d st (refs s)) = SOk r ->
  getattr (resolve_styles (map (attrs_of d) r)) a = spec_attr d a s.
Proof.
  intros d st s r a U S R. apply collect_refs_value in R as (u & Hu & ->); auto. apply unchained_all in Hu; auto. subst u.
  unfold resolve_styles. rewrite (fold_add _ (fun s => getattr s a)) by (intros x y; destruct a; auto).
  rewrite map_map, nearest_keep_first. destruct a; auto.
Qed.

(** The style pass as a function of what is specified. *)
Definition own_region (k : ekind) (r : option string) : option string := match k with Div | P => r | _ => None end.

Fixpoint tvalues (own : option (list string) -> option string) (reg : string -> option string) (a : aname)
  (above : option string) (t : sel) : list (option string) :=
  match t with
  | SNode k s r kids =>
      let here := nearest [own s; above; match own_region k r with Some i => reg i | None => None end] in
      nearest [here; initial inherited_defaults a] :: flat_map (tvalues own reg a here) kids
  end.

Definition realp (c : option computed) (a : aname) : option string := match c with Some x => real x a | None => None end.

(** Nothing more comes from the region in effect than from the parent. *)
Definition covers (a : aname) (parent : option computed) (w : world) : Prop :=
  match w_region w with
  | Some (_, g) => realp parent a = None -> real (e_computed g) a = None
  | None => True
  end.

Lemma inherited_in : forall a, In a (map fst inherited_defaults) -> in_defaults inherited_defaults a = true /\ initial simple_defaults a = None.
Proof. intros a H. cbn in H. repeat (destruct H as [<-|H]; [split; reflexivity|]). destruct H. Qed.

Lemma pass_values : forall d z regions a, unchained d -> In a (map fst inherited_defaults) ->
  forall t parent w o w', tidy d regions w -> covers a parent w ->
  style_pass d z regions parent t w = SOk (o, w') ->
  tidy d regions w' /\ (w_region w' = w_region w \/ w_region w' = None) /\
  svalues a o = tvalues (spec_attr d a) (fun i => match dict_get regions i with Some g => real (e_computed g) a | None => None end)
                        a (realp parent a) t.
Proof.
  intros d z regions a U Ha. destruct (inherited_in a Ha) as [Hi Hs].
  induction t as [k s r kids IH] using sel_ind'. intros parent w o w' T Cv H.
  apply style_pass_inv in H as (w1 & e & w2 & os & w3 & H1 & H2 & H3 & -> & ->).
  assert (T1 := set_region_tidy _ _ _ _ _ _ T H1). assert (T2 := collect_tidy _ _ _ _ _ _ _ _ _ _ T1 H2).
  assert (E := H2). apply collect_fields in E as (_ & Er & _ & Sp & Rf & _ & _ & _ & C). cbn [app] in Sp.
  apply compute_style_spec in C as (fs & lh & _ & _ & _ & _ & _ & C). destruct (C a) as [Rl Gl]. rewrite Hi in Rl. rewrite Hs, or_else_none in Gl.
  set (reg := fun i => match dict_get regions i with Some g => real (e_computed g) a | None => None end).
  assert (Rw : w_region w1 = match own_region k r with Some i => match dict_get regions i with Some g => Some (i, g) | None => None end | None => w_region w end).
  { unfold set_region in H1. destruct k, r as [i|]; cbn [own_region]; try (inversion H1; subst; auto; fail);
      destruct (dict_get regions i); inversion H1; auto. }
  assert (Rl' : real (e_computed e) a = nearest [spec_attr d a s; realp parent a; match own_region k r with Some i => reg i | None => None end]).
  { rewrite Rl. unfold compute_inherited. rewrite Sp, (specified_value _ _ _ _ _ U (proj1 T1) Rf). rewrite !nearest_cons. cbn [nearest].
    rewrite or_else_none. f_equal.
    assert (Pp : forall c, pick_attr a c = realp c a) by (intros [c|]; auto). rewrite !Pp.
    unfold reg. rewrite Rw. destruct (own_region k r) as [i|].
    - destruct (dict_get regions i); cbn [realp]; auto.
    - unfold covers in Cv. destruct (w_region w) as [[i g]|]; auto. destruct (realp parent a); auto. }
  assert (Cv' : covers a (Some (e_computed e)) (push w2 e)).
  { unfold covers. cbn [push w_region realp]. rewrite Er. destruct (w_region w1) as [[i g]|] eqn:Ew; auto. intros R0.
    rewrite Rl in R0. unfold compute_inherited in R0. destruct (getattr (e_specified e) a); [discriminate|].
    destruct (pick_attr a parent); [discriminate|]. exact R0. }
  assert (K : forall ks w0 os0 w4, Forall (fun t => forall parent w o w', tidy d regions w -> covers a parent w ->
        style_pass d z regions parent t w = SOk (o, w') ->
        tidy d regions w' /\ (w_region w' = w_region w \/ w_region w' = None) /\ svalues a o = tvalues (spec_attr d a) reg a (realp parent a) t) ks ->
      tidy d regions w0 -> covers a (Some (e_computed e)) w0 -> pass_all d z regions (Some (e_computed e)) ks w0 = SOk (os0, w4) ->
      tidy d regions w4 /\ (w_region w4 = w_region w0 \/ w_region w4 = None) /\
      flat_map (svalues a) os0 = flat_map (tvalues (spec_attr d a) reg a (real (e_computed e) a)) ks).
  { induction ks as [|x m IHm]; intros w0 os0 w4 F T0 C0 P.
    - inversion P; subst. auto.
    - inversion F as [|? ? Fx Fm]; subst. apply pass_all_cons in P as (o0 & w5 & os' & Ex & Em & ->).
      destruct (Fx _ _ _ _ T0 C0 Ex) as (Tx & Wx & Vx).
      assert (C5 : covers a (Some (e_computed e)) w5) by (unfold covers in *; destruct Wx as [-> | ->]; auto).
      destruct (IHm _ _ _ Fm Tx C5 Em) as (Tm & Wm & Vm). split; [auto|]. split.
      + destruct Wm as [Wm|Wm]; rewrite Wm; auto.
      + cbn [flat_map]. rewrite Vx, Vm. auto. }
  destruct (K kids (push w2 e) os w3 IH T2 Cv' H3) as (T3 & W3 & V3). split; [|split].
  - assert (Tu := unset_region_tidy d regions k r w3 T3). destruct k; auto.
  - assert (Wu : w_region (match k with Div => unset_region k r w3 | _ => pop (unset_region k r w3) end) = w_region (unset_region k r w3)) by (destruct k; auto).
    rewrite Wu. cbn [push w_region] in W3. rewrite Er, Rw in W3. unfold unset_region.
    destruct k, r as [i|]; cbn [own_region w_region] in *; auto.
  - cbn [svalues tvalues]. rewrite V3, <- Rl'. f_equal. rewrite Gl, nearest_cons. cbn. destruct (initial inherited_defaults a); auto.
Qed.

Lemma pass_all_values : forall d z regions a, unchained d -> In a (map fst inherited_defaults) ->
  forall ks parent w os w', tidy d regions w -> covers a parent w -> pass_all d z regions parent ks w = SOk (os, w') ->
  flat_map (svalues a) os =
  flat_map (tvalues (spec_attr d a) (fun i => match dict_get regions i with Some g => real (e_computed g) a | None => None end) a (realp parent a)) ks.
Proof.
  intros d z regions a U Ha. induction ks as [|x m IHm]; intros parent w0 os0 w4 T0 C0 P.
  - inversion P; subst. auto.
  - apply pass_all_cons in P as (o0 & w5 & os' & Ex & Em & ->).
    destruct (pass_values _ _ _ _ U Ha x _ _ _ _ T0 C0 Ex) as (Tx & Wx & Vx).
    assert (C5 : covers a parent w5) by (unfold covers in *; destruct Wx as [-> | ->]; auto).
    cbn [flat_map]. rewrite Vx. f_equal. eauto.
Qed.

(** The attributes that are not inherited. *)
Fixpoint tplain (own : option (list string) -> option string) (a : aname) (t : sel) : list (option string) :=
  match t with
  | SNode k s r kids => nearest [own s; initial simple_defaults a] :: flat_map (tplain own a) kids
  end.

Lemma pass_plain : forall d z regions a, unchained d -> In a (map fst simple_defaults) ->
  forall t parent w o w', tidy d regions w -> style_pass d z regions parent t w = SOk (o, w') ->
  tidy d regions w' /\ svalues a o = tplain (spec_attr d a) a t.
Proof.
  intros d z regions a U Ha.
  assert (Hd : in_defaults inherited_defaults a = false /\ in_defaults simple_defaults a = true /\ initial inherited_defaults a = None).
  { cbn in Ha. repeat (destruct Ha as [<-|Ha]; [split; [|split]; reflexivity|]). destruct Ha. }
  destruct Hd as (Hd1 & Hd2 & Hd3).
  induction t as [k s r kids IH] using sel_ind'. intros parent w o w' T H.
  apply style_pass_inv in H as (w1 & e & w2 & os & w3 & H1 & H2 & H3 & -> & ->).
  assert (T1 := set_region_tidy _ _ _ _ _ _ T H1). assert (T2 := collect_tidy _ _ _ _ _ _ _ _ _ _ T1 H2).
  apply collect_fields in H2 as (_ & Er & _ & Sp & Rf & _ & _ & _ & C). cbn [app] in Sp.
  apply compute_style_spec in C as (fs & lh & _ & _ & _ & _ & _ & C). destruct (C a) as [Rl Gl]. rewrite Hd1, Hd2 in Rl. rewrite Hd3 in Gl.
  assert (K : forall ks w0 os0 w4, Forall (fun t => forall parent w o w', tidy d regions w ->
        style_pass d z regions parent t w = SOk (o, w') -> tidy d regions w' /\ svalues a o = tplain (spec_attr d a) a t) ks ->
      tidy d regions w0 -> pass_all d z regions (Some (e_computed e)) ks w0 = SOk (os0, w4) ->
      tidy d regions w4 /\ flat_map (svalues a) os0 = flat_map (tplain (spec_attr d a) a) ks).
  { induction ks as [|x m IHm]; intros w0 os0 w4 F T0 P.
    - inversion P; subst. auto.
    - inversion F as [|? ? Fx Fm]; subst. apply pass_all_cons in P as (o0 & w5 & os' & Ex & Em & ->).
      destruct (Fx _ _ _ _ T0 Ex) as (Tx & Vx). destruct (IHm _ _ _ Fm Tx Em) as (Tm & Vm). split; [auto|].
      cbn [flat_map]. rewrite Vx, Vm. auto. }
  destruct (K kids (push w2 e) os w3 IH T2 H3) as (T3 & V3). split.
  - assert (Tu := unset_region_tidy d regions k r w3 T3). destruct k; auto.
  - cbn [svalues tplain]. rewrite V3. f_equal. rewrite Gl, Rl, Sp, (specified_value _ _ _ _ _ U (proj1 T1) Rf). cbn.
    destruct (spec_attr d a s); auto. cbn. destruct (initial simple_defaults a); auto.
Qed.

Lemma pass_all_plain : forall d z regions a, unchained d -> In a (map fst simple_defaults) ->
  forall ks parent w os w', tidy d regions w -> pass_all d z regions parent ks w = SOk (os, w') ->
  flat_map (svalues a) os = flat_map (tplain (spec_attr d a) a) ks.
Proof.
  intros d z regions a U Ha. induction ks as [|x m IHm]; intros parent w0 os0 w4 T0 P.
  - inversion P; subst. auto.
  - apply pass_all_cons in P as (o0 & w5 & os' & Ex & Em & ->).
    destruct (pass_plain _ _ _ _ U Ha x _ _ _ _ T0 Ex) as (Tx & Vx). cbn [flat_map]. rewrite Vx. f_equal. eauto.
Qed.

(** ** Values of the result *)

Lemma alike_refl : forall a x, alike a x x.
Proof. destruct a; cbn; auto. Qed.

Lemma alike_none : forall a x y, alike a x y -> (x = None <-> y = None).
Proof. intros a [x|] [y|]; destruct a; cbn; split; congruence. Qed.

Lemma alike_or : forall a x y x' y', alike a x x' -> alike a y y' -> alike a (or_else x y) (or_else x' y').
Proof.
  intros a x y x' y' A B. assert (N := alike_none _ _ _ A). destruct x, x'; cbn; auto.
  - destruct N as [_ N]. specialize (N eq_refl). discriminate.
  - destruct N as [N _]. specialize (N eq_refl). discriminate.
Qed.

Lemma alike_nearest : forall a l l', Forall2 (alike a) l l' -> alike a (nearest l) (nearest l').
Proof. induction 1; [apply alike_refl|]. rewrite !nearest_cons. apply alike_or; auto. Qed.

Lemma convert_colour_shade : forall s, shade_of (convert_colour s) = shade_of s.
Proof.
  intros s. unfold convert_colour, colour_table. cbn [look_colour].
  repeat match goal with
  | |- shade_of (if String.eqb ?n s then _ else _) = _ => destruct (String.eqb_spec n s); [subst s; vm_compute; reflexivity|]
  end.
  reflexivity.
Qed.

Definition kept (a : aname) : Prop := a <> Padding /\ a <> MultiRowAlign.

Lemma convert_style_alike : forall s a, kept a -> alike a (getattr (convert_style s) a) (getattr (s_attrs s) a).
Proof.
  intros s a [N1 N2]. unfold convert_style. destruct a; cbn -[convert_colour shade_of]; auto; try congruence.
  - destruct (color (s_attrs s)); cbn -[convert_colour shade_of]; auto. rewrite convert_colour_shade. auto.
  - destruct (backgroundColor (s_attrs s)); cbn -[convert_colour shade_of]; auto. rewrite convert_colour_shade. auto.
Qed.

Lemma ref_attr_alike : forall d dd a i, dd_styles dd = convert_styling (fd_styling d) -> kept a ->
  alike a (ref_attr dd a (Own i)) (getattr (attrs_of (heads d) i) a).
Proof.
  intros d dd a i E K. unfold ref_attr, attrs_of. rewrite heads_style, E. unfold styles_in.
  assert (Dflt : forall r : option sattrs, r = (if i =? "style.default" then Some no_attrs else None) ->
     alike a (match r with Some s => getattr s a | None => None end) (getattr no_attrs a)).
  { intros r ->. destruct (i =? "style.default"); destruct a; cbn; auto. }
  destruct (fd_styling d) as [[|x l]|].
  - apply (Dflt _ eq_refl).
  - unfold convert_styling. rewrite dict_get_map. destruct (dict_get (x :: l) i); cbn [option_map].
    + apply convert_style_alike. auto.
    + destruct a; cbn; auto.
  - apply (Dflt _ eq_refl).
Qed.

Lemma own_alike : forall d dd a l, dd_styles dd = convert_styling (fd_styling d) -> kept a ->
  alike a (nearest (map (ref_attr dd a) (map Own l))) (nearest (map (fun i => getattr (attrs_of (heads d) i) a) l)).
Proof.
  intros d dd a l E K. apply alike_nearest. induction l as [|i l IH]; cbn [map]; constructor; auto.
  apply ref_attr_alike; auto.
Qed.

Lemma refs_after : forall dd a k size line parent st m st' m',
  fix_font k size line parent (option_map (map Own) st) m = COk (st', m') ->
  nearest (map (ref_attr dd a) (style_refs st')) = nearest (map (ref_attr dd a) (map Own (refs st))).
Proof.
  intros dd a k size line parent st m st' m' H. apply fix_font_inv in H as [_ [(_ & _ & -> & _)|H]].
  - rewrite own_refs. auto.
  - destruct H as (f & p & v & l & _ & _ & _ & _ & _ & _ & _ & _ & Sr & _). rewrite Sr, own_refs. auto.
Qed.

Lemma region_alike : forall d dd z regions a i, dd_styles dd = convert_styling (fd_styling d) ->
  dd_layout dd = convert_layout (fd_layout d) -> kept a -> In a (map fst inherited_defaults) ->
  unchained (heads d) -> NoDup (map fst (heads d)) ->
  (forall j e, dict_get regions j = Some e -> exists g, In (j, KRegion g) (heads d) /\ region_linked (heads d) z g e) ->
  map fst regions = map fst (regions_in d) ->
  alike a (region_attr dd a (Some i)) (match dict_get regions i with Some g => real (e_computed g) a | None => None end).
Proof.
  intros d dd z regions a i Es El K Ha U N RL Mf. unfold region_attr. rewrite El.
  destruct (dict_get regions i) as [e|] eqn:Er.
  - destruct (RL _ _ Er) as (g & Hin & (_ & (st & St & Rf) & Sp & _ & C)).
    assert (Hr := heads_region _ _ _ N Hin). unfold regions_in in Hr.
    assert (Hl : dict_get (convert_layout (fd_layout d)) i = Some g).
    { destruct (fd_layout d) as [[|x l]|]; cbn in Hr |- *; try discriminate. exact Hr. }
    rewrite Hl. apply compute_style_spec in C as (fs & lh & _ & _ & _ & _ & _ & C). destruct (C a) as [R _].
    rewrite R. rewrite (proj1 (inherited_in a Ha)). unfold compute_inherited. cbn [pick_attr or_else]. rewrite or_else_none.
    assert (Sv : getattr (e_specified e) a = spec_attr (heads d) a (r_refs g)).
    { rewrite <- (specified_value _ _ _ _ a U St Rf). rewrite Sp. unfold resolve_styles. cbn [fold_left].
      rewrite !(fold_add _ (fun s => getattr s a)) by (intros x y; destruct a; auto).
      cbn in Ha. repeat (destruct Ha as [<-|Ha]; [reflexivity|]). destruct Ha. }
    rewrite Sv. apply own_alike; auto.
  - assert (Hn : ~ In i (map fst (regions_in d))).
    { rewrite <- Mf. intros Hin. apply dict_get_in in Hin. congruence. }
    assert (Hl : match dict_get (convert_layout (fd_layout d)) i with Some g => refs (r_refs g) = [] | None => True end).
    { unfold regions_in in Hn. destruct (fd_layout d) as [[|x l]|]; cbn [convert_layout].
      - cbn. destruct (i =? "region.default"); cbn; auto.
      - destruct (dict_get (x :: l) i) eqn:G; auto. exfalso. apply Hn. apply dict_get_in. congruence.
      - cbn. destruct (i =? "region.default"); cbn; auto. }
    destruct (dict_get (convert_layout (fd_layout d)) i) as [g|]; [rewrite Hl|]; apply alike_refl.
Qed.

Lemma convert_values : forall c bs dd a own reg,
  (forall st, alike a (nearest (map (ref_attr dd a) (map Own (refs st)))) (own st)) ->
  (forall i, alike a (region_attr dd a (Some i)) (reg i)) ->
  forall n parent m d m' above above', convert c bs parent n m = COk (d, m') -> alike a above above' ->
  Forall2 (alike a) (dvalues dd a above d) (flat_map (tvalues own reg a above') (elements n)).
Proof.
  intros c bs dd a own reg Ho Hr. induction n as [s| |k i r st b e sz ln kids IH] using fnode_ind'; intros parent m d m' above above' H A.
  - inversion H; subst. constructor.
  - inversion H; subst. constructor.
  - apply convert_inv in H. destruct H as (ks & m1 & b' & e' & st' & E1 & _ & _ & _ & E5 & ->).
    cbn [elements flat_map dvalues tvalues]. rewrite app_nil_r, (refs_after _ a _ _ _ _ _ _ _ _ E5).
    change (match k with Div | P => r | _ => None end) with (own_region k r).
    set (here := nearest [nearest (map (ref_attr dd a) (map Own (refs st))); above; region_attr dd a (own_region k r)]).
    set (here' := nearest [own st; above'; match own_region k r with Some i => reg i | None => None end]).
    assert (Hh : alike a here here').
    { apply alike_nearest. constructor; [apply Ho|]. constructor; auto. constructor; [|constructor].
      destruct (own_region k r); [apply Hr|apply alike_refl]. }
    constructor.
    + apply alike_nearest. constructor; auto. constructor; [apply alike_refl|constructor].
    + clear E5. revert m ks m1 E1. induction IH as [|x l Hx Hl IHl]; intros m ks m1 E1.
      * inversion E1; subst. constructor.
      * apply convert_all_inv in E1. destruct E1 as (d1 & ds & m2 & X1 & X2 & ->). cbn [flat_map].
        rewrite flat_map_app. apply Forall2_app; eauto.
Qed.

Lemma convert_all_values : forall c bs dd a own reg,
  (forall st, alike a (nearest (map (ref_attr dd a) (map Own (refs st)))) (own st)) ->
  (forall i, alike a (region_attr dd a (Some i)) (reg i)) ->
  forall l parent m ds m', convert_all c bs parent l m = COk (ds, m') ->
  Forall2 (alike a) (flat_map (dvalues dd a None) ds) (flat_map (tvalues own reg a None) (flat_map elements l)).
Proof.
  intros c bs dd a own reg Ho Hr. induction l as [|x l IH]; intros parent m ds m' H.
  - inversion H; subst. constructor.
  - apply convert_all_inv in H. destruct H as (d1 & ds' & m2 & X1 & X2 & ->). cbn [flat_map].
    rewrite flat_map_app. apply Forall2_app; eauto. eapply convert_values; eauto. apply alike_refl.
Qed.

Lemma convert_plain : forall c bs dd a own,
  (forall st, alike a (nearest (map (ref_attr dd a) (map Own (refs st)))) (own st)) ->
  forall n parent m d m', convert c bs parent n m = COk (d, m') ->
  Forall2 (alike a) (dplain dd a d) (flat_map (tplain own a) (elements n)).
Proof.
  intros c bs dd a own Ho. induction n as [s| |k i r st b e sz ln kids IH] using fnode_ind'; intros parent m d m' H.
  - inversion H; subst. constructor.
  - inversion H; subst. constructor.
  - apply convert_inv in H. destruct H as (ks & m1 & b' & e' & st' & E1 & _ & _ & _ & E5 & ->).
    cbn [elements flat_map dplain tplain]. rewrite app_nil_r, (refs_after _ a _ _ _ _ _ _ _ _ E5).
    constructor.
    + apply alike_nearest. constructor; [apply Ho|]. constructor; [apply alike_refl|constructor].
    + clear E5. revert m ks m1 E1. induction IH as [|x l Hx Hl IHl]; intros m ks m1 E1.
      * inversion E1; subst. constructor.
      * apply convert_all_inv in E1. destruct E1 as (d1 & ds & m2 & X1 & X2 & ->). cbn [flat_map].
        rewrite flat_map_app. apply Forall2_app; eauto.
Qed.

Lemma convert_all_plain : forall c bs dd a own,
  (forall st, alike a (nearest (map (ref_attr dd a) (map Own (refs st)))) (own st)) ->
  forall l parent m ds m', convert_all c bs parent l m = COk (ds, m') ->
  Forall2 (alike a) (flat_map (dplain dd a) ds) (flat_map (tplain own a) (flat_map elements l)).
Proof.
  intros c bs dd a own Ho. induction l as [|x l IH]; intros parent m ds m' H.
  - inversion H; subst. constructor.
  - apply convert_all_inv in H. destruct H as (d1 & ds' & m2 & X1 & X2 & ->). cbn [flat_map].
    rewrite flat_map_app. apply Forall2_app; eauto. eapply convert_plain; eauto.
Qed.

Lemma unchained_heads : forall d, no_chains d -> unchained (heads d).
Proof. intros d N i s G. rewrite heads_style in G. eapply N. apply dict_get_In. eauto. Qed.

(** ** References *)

Fixpoint trefs (t : sel) : list string :=
  match t with SNode _ s _ kids => (refs s ++ flat_map trefs kids)%list end.
Fixpoint tregions (t : sel) : list string :=
  match t with SNode k _ r kids => ((match own_region k r with Some i => [i] | None => [] end) ++ flat_map tregions kids)%list end.

Lemma pass_refs : forall d z regions t parent w o w', tidy d regions w -> style_pass d z regions parent t w = SOk (o, w') ->
  tidy d regions w' /\ (forall i, In i (trefs t) -> get_style d i <> None) /\ (forall i, In i (tregions t) -> dict_get regions i <> None).
Proof.
  intros d z regions. induction t as [k s r kids IH] using sel_ind'. intros parent w o w' T H.
  apply style_pass_inv in H as (w1 & e & w2 & os & w3 & H1 & H2 & H3 & -> & ->).
  assert (T1 := set_region_tidy _ _ _ _ _ _ T H1). assert (T2 := collect_tidy _ _ _ _ _ _ _ _ _ _ T1 H2).
  apply collect_fields in H2 as (_ & _ & _ & _ & Rf & _).
  apply collect_refs_value in Rf as (u & Hu & _); [|apply T1].
  assert (K : forall ks w0 os0 w4, Forall (fun t => forall parent w o w', tidy d regions w ->
        style_pass d z regions parent t w = SOk (o, w') ->
        tidy d regions w' /\ (forall i, In i (trefs t) -> get_style d i <> None) /\ (forall i, In i (tregions t) -> dict_get regions i <> None)) ks ->
      tidy d regions w0 -> pass_all d z regions (Some (e_computed e)) ks w0 = SOk (os0, w4) ->
      tidy d regions w4 /\ (forall i, In i (flat_map trefs ks) -> get_style d i <> None) /\
      (forall i, In i (flat_map tregions ks) -> dict_get regions i <> None)).
  { induction ks as [|x m IHm]; intros w0 os0 w4 F T0 P.
    - inversion P; subst. split; [auto|]. split; intros i [].
    - inversion F as [|? ? Fx Fm]; subst. apply pass_all_cons in P as (o0 & w5 & os' & Ex & Em & ->).
      destruct (Fx _ _ _ _ T0 Ex) as (Tx & Rx & Gx). destruct (IHm _ _ _ Fm Tx Em) as (Tm & Rm & Gm).
      split; [auto|]. cbn [flat_map]. split; intros i Hi; apply in_app_or in Hi; destruct Hi; auto. }
  destruct (K kids (push w2 e) os w3 IH T2 H3) as (T3 & R3 & G3). split; [|split].
  - assert (Tu := unset_region_tidy d regions k r w3 T3). destruct k; auto.
  - intros i Hi. cbn [trefs] in Hi. apply in_app_or in Hi. destruct Hi as [Hi|Hi]; auto. eapply unfolds_all_resolve; eauto.
  - intros i Hi. cbn [tregions] in Hi. apply in_app_or in Hi. destruct Hi as [Hi|Hi]; auto.
    destruct k, r as [j|]; cbn in Hi; try (destruct Hi; fail).
    + destruct Hi as [<-|[]]. cbn in H1. intros N. rewrite N in H1. discriminate.
    + destruct Hi as [<-|[]]. cbn in H1. intros N. rewrite N in H1. discriminate.
Qed.

Lemma pass_all_refs : forall d z regions ks parent w os w', tidy d regions w -> pass_all d z regions parent ks w = SOk (os, w') ->
  (forall i, In i (flat_map trefs ks) -> get_style d i <> None) /\ (forall i, In i (flat_map tregions ks) -> dict_get regions i <> None).
Proof.
  intros d z regions. induction ks as [|x m IHm]; intros parent w0 os0 w4 T0 P.
  - split; intros i [].
  - apply pass_all_cons in P as (o0 & w5 & os' & Ex & Em & ->).
    destruct (pass_refs _ _ _ _ _ _ _ _ T0 Ex) as (Tx & Rx & Gx). destruct (IHm _ _ _ _ Tx Em) as (Rm & Gm).
    cbn [flat_map]. split; intros i Hi; apply in_app_or in Hi; destruct Hi; auto.
Qed.

Lemma convert_refs : forall c bs n parent m d m', convert c bs parent n m = COk (d, m') ->
  (forall i, In (Own i) (drefs d) -> In i (flat_map trefs (elements n))) /\
  (forall v, In (Gen v) (drefs d) -> exists l, In (v, l) (changes parent n)) /\
  (forall i, In i (dregions d) -> In i (flat_map tregions (elements n))).
Proof.
  intros c bs. induction n as [s| |k i r st b e sz ln kids IH] using fnode_ind'; intros parent m d m' H.
  - inversion H; subst. cbn. tauto.
  - inversion H; subst. cbn. tauto.
  - apply convert_inv in H. destruct H as (ks & m1 & b' & e' & st' & E1 & _ & _ & _ & E5 & ->).
    assert (A : (forall i, In (Own i) (flat_map drefs ks) -> In i (flat_map trefs (flat_map elements kids))) /\
      (forall v, In (Gen v) (flat_map drefs ks) -> exists l, In (v, l) (flat_map (changes sz) kids)) /\
      (forall i, In i (flat_map dregions ks) -> In i (flat_map tregions (flat_map elements kids)))).
    { clear E5. revert m ks m1 E1. induction IH as [|x l Hx Hl IHl]; intros m ks m1 E1.
      - inversion E1; subst. cbn. split; [auto|]. split; auto. intros v [].
      - apply convert_all_inv in E1. destruct E1 as (d1 & ds & m2 & X1 & X2 & ->). cbn [flat_map].
        destruct (Hx _ _ _ _ X1) as (Hx1 & Hx2 & Hx3). destruct (IHl _ _ _ X2) as (Hl1 & Hl2 & Hl3).
        rewrite !flat_map_app. split; [|split].
        + intros j Hj. rewrite in_app_iff in *. destruct Hj; auto.
        + intros v Hv. rewrite in_app_iff in Hv. destruct Hv as [Hv|Hv].
          * destruct (Hx2 _ Hv) as (y & Hy). exists y. rewrite in_app_iff. auto.
          * destruct (Hl2 _ Hv) as (y & Hy). exists y. rewrite in_app_iff. auto.
        + intros j Hj. rewrite in_app_iff in *. destruct Hj; auto. }
    destruct A as (A1 & A2 & A3). cbn [elements flat_map drefs dregions trefs tregions]. rewrite !app_nil_r, changes_eq.
    assert (Sr : (forall j, In (Own j) (style_refs st') -> In j (refs st)) /\
                 (forall v, In (Gen v) (style_refs st') -> exists l, In (v, l) (change_of k sz ln parent))).
    { assert (O1 : forall j l, In (Own j) (map Own l) -> In j l) by (intros j l Hj; apply in_map_iff in Hj; destruct Hj as (x & E & Hx); congruence).
      assert (O2 : forall v l, ~ In (Gen v) (map Own l)) by (intros v l Hj; apply in_map_iff in Hj; destruct Hj as (x & E & Hx); congruence).
      apply fix_font_inv in E5 as [_ [(_ & _ & -> & _)|X]].
      - rewrite own_refs. split; auto. intros v Hv. exfalso. eapply O2; eauto.
      - destruct X as (f & p & v & l & _ & _ & C & _ & _ & _ & _ & _ & Sr & _). rewrite Sr, own_refs, C. split.
        + intros j [E|Hj]; [discriminate|auto].
        + intros u [E|Hu]; [inversion E; subst; exists l; left; auto|exfalso; eapply O2; eauto]. }
    destruct Sr as [Sr1 Sr2]. split; [|split].
    + intros j Hj. rewrite in_app_iff in *. destruct Hj; auto.
    + intros v Hv. rewrite in_app_iff in Hv. destruct Hv as [Hv|Hv].
      * destruct (Sr2 _ Hv) as (y & Hy). exists y. rewrite in_app_iff. auto.
      * destruct (A2 _ Hv) as (y & Hy). exists y. rewrite in_app_iff. auto.
    + intros j Hj. rewrite in_app_iff in *. destruct Hj; auto.
Qed.

Lemma convert_all_refs : forall c bs l parent m ds m', convert_all c bs parent l m = COk (ds, m') ->
  (forall i, In (Own i) (flat_map drefs ds) -> In i (flat_map trefs (flat_map elements l))) /\
  (forall v, In (Gen v) (flat_map drefs ds) -> exists x, In (v, x) (flat_map (changes parent) l)) /\
  (forall i, In i (flat_map dregions ds) -> In i (flat_map tregions (flat_map elements l))).
Proof.
  intros c bs. induction l as [|x l IH]; intros parent m ds m' H.
  - inversion H; subst. cbn. split; [auto|]. split; auto. intros v [].
  - apply convert_all_inv in H. destruct H as (d1 & ds' & m2 & X1 & X2 & ->). cbn [flat_map].
    destruct (convert_refs _ _ _ _ _ _ _ X1) as (Hx1 & Hx2 & Hx3). destruct (IH _ _ _ _ X2) as (Hl1 & Hl2 & Hl3).
    rewrite !flat_map_app. split; [|split].
    + intros j Hj. rewrite in_app_iff in *. destruct Hj; auto.
    + intros v Hv. rewrite in_app_iff in Hv. destruct Hv as [Hv|Hv].
      * destruct (Hx2 _ Hv) as (y & Hy). exists y. rewrite in_app_iff. auto.
      * destruct (Hl2 _ Hv) as (y & Hy). exists y. rewrite in_app_iff. auto.
    + intros j Hj. rewrite in_app_iff in *. destruct Hj; auto.
Qed.
