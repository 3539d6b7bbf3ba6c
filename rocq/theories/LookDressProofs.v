(** Presented content with computed styles is the presented content of
    SegmentSpec, dressed; for C51. *)

From Coq Require Import List ZArith String Bool QArith Lia.
From Verif Require Import IdModel TimingModel StyleModel StyleProofs StyleTree PropsScope SegmentModel SegmentSpec SegmentProofs
  SegmentHeadProofs SpliceSpec LookSpec LookProofs.
Import ListNotations.
Open Scope Z_scope.

Lemma appear_eq : forall t k i r st b e kids b' e' cb ce cs k' r' el oks os,
  appear t (Node k i r st b e kids) (CTimed b' e' cb ce cs) (SOut k' r' el oks :: os) =
  if active t cb ce && existsb legible (appear_all t kids cs oks)
  then [TEl k i (e_region el) (c_attrs (e_computed el)) (appear_all t kids cs oks)] else [].
Proof.
  intros. cbn [appear].
  match goal with |- context [?f kids cs oks] => assert (E : forall ns cs os, f ns cs os = appear_all t ns cs os) end.
  { induction ns as [|m ns IH]; intros [|c cs'] os'; auto. cbn [appear_all]. rewrite <- IH. auto. }
  rewrite E. auto.
Qed.

Lemma two_length : forall A B (R : A -> B -> Prop) l l', Forall2 R l l' -> List.length l = List.length l'.
Proof. induction 1; cbn; auto. Qed.

(** The styles of presented content, from references. *)
Inductive dressed (d : list (string * kind)) (z : sizing) (regions : list (string * styled))
  : option string -> option computed -> shown -> seen -> Prop :=
| dr_text above parent s : dressed d z regions above parent (SText s) (TText s)
| dr_break above parent : dressed d z regions above parent SBreak TBreak
| dr_el above parent k i r st kids u c ls :
    unfolds_all d (refs st) u ->
    (forall j, or_else (here k r) above = Some j -> dict_get regions j <> None) ->
    compute_style z (resolve_styles (map (attrs_of d) (keep_first u))) parent
      (comp (match or_else (here k r) above with Some j => dict_get regions j | None => None end)) (defers k) = SOk c ->
    Forall2 (dressed d z regions (or_else (here k r) above) (Some c)) kids ls ->
    dressed d z regions above parent (SEl k i r st kids) (TEl k i (or_else (here k r) above) (c_attrs c) ls).

Lemma shown_ind' : forall Pr : shown -> Prop,
  (forall s, Pr (SText s)) -> Pr SBreak ->
  (forall k i r st kids, Forall Pr kids -> Pr (SEl k i r st kids)) -> forall s, Pr s.
Proof.
  intros Pr H1 H2 H3. fix IH 1. intros [s| |k i r st kids].
  - apply H1.
  - apply H2.
  - apply H3. induction kids as [|v r' IHk]; constructor; [apply IH|exact IHk].
Qed.

Lemma dressed_fun : forall d z regions s above parent l l',
  dressed d z regions above parent s l -> dressed d z regions above parent s l' -> l = l'.
Proof.
  intros d z regions. induction s as [s| |k i r st kids IH] using shown_ind'; intros above parent l l' H H'.
  - inversion H; inversion H'; subst; auto.
  - inversion H; inversion H'; subst; auto.
  - inversion H as [| |? ? ? ? ? ? ? u c ls U _ C F]; subst. inversion H' as [| |? ? ? ? ? ? ? u' c' ls' U' _ C' F']; subst.
    rewrite (proj2 (unfolds_fun d) _ _ U _ U') in C. rewrite C in C'. inversion C'; subst c'. f_equal.
    clear - IH F F'. revert ls ls' F F'. induction IH as [|s kids Hs _ IHk]; intros ls ls' F F'; inversion F; inversion F'; subst; auto.
    f_equal; eauto.
Qed.
Lemma dressed_all_fun : forall d z regions above parent ss ls ls',
  Forall2 (dressed d z regions above parent) ss ls -> Forall2 (dressed d z regions above parent) ss ls' -> ls = ls'.
Proof.
  intros d z regions above parent. induction ss as [|s ss IH]; intros ls ls' F F'; inversion F; inversion F'; subst; auto.
  f_equal; [eapply dressed_fun; eauto|auto].
Qed.

Lemma dressed_legible : forall d z regions above parent s l, dressed d z regions above parent s l -> legible l = readable s.
Proof. intros d z regions above parent s l H. inversion H; auto. Qed.

(** ** What is presented *)

Lemma rest_app : forall d z regions above parent n ns os,
  Forall2 (passes d z regions above parent) (styling n ++ flat_map styling ns) os ->
  Forall2 (passes d z regions above parent) (flat_map styling ns) (rest n os).
Proof.
  intros d z regions above parent [s| |k i r st b e kids] ns os F; cbn [styling app rest] in *; auto. inversion F; subst. auto.
Qed.

Lemma appear_dressed : forall d z regions t ns above parent cs os,
  Forall2 (passes d z regions above parent) (flat_map styling ns) os ->
  Forall2 (dressed d z regions above parent) (present_all t ns cs) (appear_all t ns cs os).
Proof.
  intros d z regions t ns.
  assert (Al : forall ns, Forall (fun n => forall above parent c os, Forall2 (passes d z regions above parent) (styling n) (firstn (List.length (styling n)) os) ->
      Forall2 (dressed d z regions above parent) (present t n c) (appear t n c os)) ns ->
    forall above parent cs os, Forall2 (passes d z regions above parent) (flat_map styling ns) os ->
    Forall2 (dressed d z regions above parent) (present_all t ns cs) (appear_all t ns cs os)).
  { induction 1 as [|n ms Hn _ IH]; intros above parent cs os F; [destruct cs; constructor|].
    destruct cs as [|c cs]; [constructor|]. cbn [present_all appear_all]. cbn [flat_map] in F. apply Forall2_app.
    - apply Hn. apply Forall2_app_inv_l in F as (o1 & o2 & F1 & _ & ->). rewrite (two_length _ _ _ _ _ F1), firstn_app, firstn_all, Nat.sub_diag.
      cbn [firstn]. rewrite app_nil_r. auto.
    - apply IH. apply rest_app. auto. }
  apply Al. apply Forall_forall. intros n _. clear ns.
  induction n as [s| |k i r st b e kids IH] using node_ind2; intros above parent c os F.
  - cbn. repeat constructor.
  - cbn. repeat constructor.
  - cbn [styling List.length] in F. destruct os as [|o os]; [inversion F|]. cbn [firstn] in F. inversion F as [|? ? ? ? Fo _]; subst.
    inversion Fo as [ab pa k0 s0 r0 kids0 el oks u U Er Kn Cs Fk]; subst. destruct c as [b' e' cb ce cs|]; [|constructor].
    rewrite present_eq, appear_eq. assert (I := Al _ IH _ _ cs _ Fk).
    assert (E : existsb legible (appear_all t kids cs oks) = existsb readable (present_all t kids cs)).
    { clear - I. induction I as [|s l ss ls H _ IH]; auto. cbn. rewrite IH, (dressed_legible _ _ _ _ _ _ _ H). auto. }
    rewrite E. destruct (active t cb ce && existsb readable (present_all t kids cs)); [|constructor]. constructor; [|constructor].
    rewrite Er in *. apply dr_el with u; auto. unfold region_of in Cs. rewrite Er in Cs. auto.
Qed.

(** ** Under another table *)

Fixpoint shown_styles (s : shown) : list string :=
  match s with SEl _ _ _ st kids => (refs st ++ flat_map shown_styles kids)%list | _ => [] end.
Fixpoint shown_regions (s : shown) : list string :=
  match s with SEl k _ r _ kids => (opt_one (here k r) ++ flat_map shown_regions kids)%list | _ => [] end.

Lemma dressed_carried : forall m f d d' z regions regions' ok okr, carries m f d d' ok -> rcarries m f regions regions' okr ->
  forall s above parent parent' l, (forall j, In j (shown_styles s) -> ok j) -> (forall j, In j (shown_regions s) -> okr j) ->
  (forall j, above = Some j -> okr j) -> oceq m parent parent' ->
  dressed d z regions above parent s l ->
  dressed d' z regions' (option_map f above) parent' (rename f s) (relook f (redress m) l).
Proof.
  intros m f d d' z regions regions' ok okr Ca Rc.
  induction s as [s| |k i r st kids IH] using shown_ind'; intros above parent parent' l Os Or Oa Hp H.
  - inversion H; subst. constructor.
  - inversion H; subst. constructor.
  - inversion H as [| |? ? ? ? ? ? ? u c ls U Kn C F]; subst. cbn [shown_styles shown_regions] in Os, Or.
    assert (O1 : forall j, In j (refs st) -> ok j) by (intros j Hj; apply Os; apply in_app_iff; auto).
    assert (O2 : forall j, or_else (here k r) above = Some j -> okr j).
    { intros j Hj. destruct (here k r) as [q|]; cbn in Hj; [|auto]. inversion Hj; subst. apply Or. cbn. auto. }
    destruct (specified_carried _ _ _ _ _ _ _ Ca U O1) as [U' At].
    assert (Hg : oceq m (comp (match or_else (here k r) above with Some j => dict_get regions j | None => None end))
                        (comp (match option_map f (or_else (here k r) above) with Some j => dict_get regions' j | None => None end)) /\
                 forall j, option_map f (or_else (here k r) above) = Some j -> dict_get regions' j <> None).
    { destruct (or_else (here k r) above) as [j|]; cbn [option_map]; [|split; [exact I|discriminate]].
      assert (G := Kn _ eq_refl). destruct (dict_get regions j) as [e|] eqn:Ge; [|congruence].
      destruct (Rc _ _ (O2 _ eq_refl) Ge) as (e' & Ge' & Ce). rewrite Ge'. split; [exact Ce|]. intros q E. inversion E; subst. congruence. }
    destruct Hg as [Hg Kn']. destruct (compute_compat m _ _ _ _ _ _ _ _ Hp Hg C) as (c' & C' & Ce & Ca').
    rewrite <- resolve_strip, <- At in C'.
    assert (Eh : here k (match k with Div | P => option_map f r | _ => None end) = option_map f (here k r)) by (unfold here; destruct k; auto).
    assert (Eo : or_else (option_map f (here k r)) (option_map f above) = option_map f (or_else (here k r) above)) by (destruct (here k r); auto).
    cbn [rename relook]. rewrite <- Ca', <- Eo, <- Eh. apply dr_el with (map f u).
    + destruct st; exact U'.
    + rewrite Eh, Eo. auto.
    + rewrite Eh, Eo. auto.
    + rewrite Eh, Eo. clear - IH F Os Or O2 Ce. revert ls F. induction IH as [|s kids Hs _ IHk]; intros ls F; inversion F; subst; constructor.
      * refine (Hs _ (Some c) (Some c') _ _ _ _ Ce H1); auto.
        -- intros j Hj. apply Os. cbn [flat_map]. rewrite !in_app_iff. auto.
        -- intros j Hj. apply Or. cbn [flat_map]. rewrite !in_app_iff. auto.
      * apply IHk; auto; [intros j Hj; apply Os|intros j Hj; apply Or]; cbn [flat_map] in *; rewrite !in_app_iff in *; tauto.
Qed.

Lemma dressed_all_carried : forall m f d d' z regions regions' ok okr, carries m f d d' ok -> rcarries m f regions regions' okr ->
  forall ss above parent parent' ls, (forall j, In j (flat_map shown_styles ss) -> ok j) -> (forall j, In j (flat_map shown_regions ss) -> okr j) ->
  (forall j, above = Some j -> okr j) -> oceq m parent parent' ->
  Forall2 (dressed d z regions above parent) ss ls ->
  Forall2 (dressed d' z regions' (option_map f above) parent') (map (rename f) ss) (map (relook f (redress m)) ls).
Proof.
  intros m f d d' z regions regions' ok okr Ca Rc ss above parent parent' ls Os Or Oa Hp F.
  induction F as [|s l ss ls H _ IH]; constructor.
  - eapply dressed_carried; eauto; intros j Hj; [apply Os|apply Or]; cbn [flat_map]; apply in_app_iff; auto.
  - apply IH; intros j Hj; [apply Os|apply Or]; cbn [flat_map]; apply in_app_iff; auto.
Qed.

Lemma dressed_anonymous : forall d z regions s above parent l, dressed d z regions above parent s l ->
  dressed d z regions above parent (anonymous s) (nameless l).
Proof.
  intros d z regions. induction s as [s| |k i r st kids IH] using shown_ind'; intros above parent l H.
  - inversion H; subst. constructor.
  - inversion H; subst. constructor.
  - inversion H as [| |? ? ? ? ? ? ? u c ls U Kn C F]; subst. cbn [anonymous nameless].
    assert (Eh : here k (match k with Div | P => r | _ => None end) = here k r) by (unfold here; destruct k; auto).
    rewrite <- Eh. apply dr_el with u; rewrite ?Eh; auto.
    clear - IH F. revert ls F. induction IH as [|s kids Hs _ IHk]; intros ls F; inversion F; subst; constructor; auto.
Qed.

(** ** References of what is presented *)

Lemma present_refs : forall t ns cs, (forall j, In j (flat_map shown_styles (present_all t ns cs)) -> In j (flat_map style_refs ns)) /\
  (forall j, In j (flat_map shown_regions (present_all t ns cs)) -> In j (flat_map region_refs ns)).
Proof.
  intros t ns.
  assert (Al : forall ns, Forall (fun n => forall c, (forall j, In j (flat_map shown_styles (present t n c)) -> In j (style_refs n)) /\
      (forall j, In j (flat_map shown_regions (present t n c)) -> In j (region_refs n))) ns ->
    forall cs, (forall j, In j (flat_map shown_styles (present_all t ns cs)) -> In j (flat_map style_refs ns)) /\
      (forall j, In j (flat_map shown_regions (present_all t ns cs)) -> In j (flat_map region_refs ns))).
  { induction 1 as [|n ms Hn _ IH]; intros cs; [destruct cs; cbn; auto|]. destruct cs as [|c cs]; [cbn; split; intros j []|].
    cbn [present_all flat_map]. rewrite !flat_map_app. destruct (Hn c) as [A B]. destruct (IH cs) as [A' B'].
    split; intros j; rewrite !in_app_iff; intros [Hj|Hj]; auto. }
  apply Al. apply Forall_forall. intros n _. clear ns.
  induction n as [s| |k i r st b e kids IH] using node_ind2; intros c; try (cbn; auto; fail).
  destruct c as [b' e' cb ce cs|]; [|cbn; split; intros j []]. rewrite present_eq. destruct (Al _ IH cs) as [A B].
  destruct (_ && _)%bool; [|cbn; split; intros j []]. cbn [flat_map shown_styles shown_regions style_refs region_refs]. rewrite !app_nil_r.
  split; intros j; rewrite !in_app_iff; intros [Hj|Hj]; auto; left.
  unfold here in Hj. destruct (takes_region k); auto. destruct Hj.
Qed.

(** ** Whole documents *)

Lemma validated_passes : forall d z st kids regions o, validate_styles d z (SNode Body st None kids) = SOk (regions, o) ->
  forallb flat kids = true -> exists e os u, o = SOut Body None e os /\ unfolds_all d (refs st) u /\
    compute_style z (resolve_styles (map (attrs_of d) (keep_first u))) None None (defers Body) = SOk (e_computed e) /\
    Forall2 (passes d z regions None (Some (e_computed e))) kids os /\
    check_styles z d = SOk tt /\
    (forall j e, dict_get regions j = Some e -> exists g, In (j, KRegion g) d /\ region_good d z g (e_computed e)) /\
    (forall i g, In (i, KRegion g) d -> exists c, region_good d z g c).
Proof.
  intros d z st kids regions o H F. destruct (validate_start _ _ _ _ _ H) as (w & w' & T & R & Pr & Cs & S).
  assert (Ew : in_effect w = None) by (unfold in_effect; rewrite R; auto).
  assert (Cm : calm (in_effect w) (SNode Body st None kids)) by (right; split; auto).
  destruct (pass_forward _ _ _ _ _ _ _ _ T Cm S) as (_ & _ & P). rewrite Ew in P.
  inversion P as [ab pa k0 s0 r0 kids0 e os u U Er Kn C Fk]; subst. cbn in Er. unfold region_of in C. rewrite Er in *.
  exists e, os, u. do 5 (split; [auto|]).
  destruct (pass_regions_linked d z d (mkW sstart [] None) _ _ (settled_start d) eq_refl eq_refl Pr) as (_ & _ & _ & M & L).
  split.
  - intros j e0 Hj. destruct (L _ _ Hj) as (g & Hg & Lg). exists g. split; auto. apply linked_good. auto.
  - clear - Pr. remember (mkW sstart [] None) as w0 eqn:E0.
    assert (S0 : settled d (w_styles w0)) by (subst; apply settled_start). assert (R0 : w_region w0 = None) by (subst; auto). clear E0.
    assert (G : forall l w0 es w, settled d (w_styles w0) -> w_region w0 = None -> pass_regions d z l w0 = SOk (es, w) ->
              forall i g, In (i, KRegion g) l -> exists c, region_good d z g c); [|eauto].
    clear. induction l as [|[i k] l IH]; intros w0 es w S R H i0 g0 Hi; [destruct Hi|]. cbn [pass_regions] in H.
    destruct k as [s|g|]; try (destruct Hi as [E|Hi]; [discriminate|eauto]).
    match type of H with context [collect d z w0 ?a ?b ?c ?x] => destruct (collect d z w0 a b c x) as [[e|] w1] eqn:E end; [|discriminate].
    assert (Cf := collect_fields _ _ _ _ _ _ _ _ _ E). destruct Cf as (_ & Wr & _ & Sp & Rf & St & _ & _ & C).
    destruct (pass_regions d z l w1) as [[es' w2]|] eqn:E2; [|discriminate].
    destruct Hi as [Ei|Hi].
    + inversion Ei; subst. destruct (collect_finds _ _ _ _ S Rf) as (u & U & Eu). exists (e_computed e), u. split; auto.
      rewrite <- Eu. unfold own_padding. cbn [app] in Sp. rewrite <- Sp. rewrite R in C. exact C.
    + eapply IH; [| |exact E2|exact Hi]; [|congruence]. rewrite St. apply collect_refs_settled. auto.
Qed.

(** A list of elements that can be gone through. *)
Definition goes (d : list (string * kind)) (z : sizing) (regions : list (string * styled)) (c : computed) (ts : list sel) : Prop :=
  forall c' w, ceq false c c' -> tidy d regions w -> w_region w = None ->
    exists os w', pass_all d z regions (Some c') ts w = SOk (os, w') /\ tidy d regions w' /\ w_region w' = None.

Definition table_made (d : list (string * kind)) (z : sizing) (regions : list (string * styled)) : Prop :=
  forall j g c, In (j, KRegion g) d -> region_good d z g c -> exists e, dict_get regions j = Some e /\ e_computed e = c.

Lemma validates_from : forall d z st kids u c, check_styles z d = SOk tt -> NoDup (map fst d) ->
  (forall i g, In (i, KRegion g) d -> exists c, region_good d z g c) -> unfolds_all d (refs st) u ->
  compute_style z (resolve_styles (map (attrs_of d) (keep_first u))) None None (defers Body) = SOk c ->
  (forall regions, table_made d z regions -> goes d z regions c kids) ->
  exists regions o, validate_styles d z (SNode Body st None kids) = SOk (regions, o) /\ table_made d z regions.
Proof.
  intros d z st kids u c Cs N G U C Go. destruct (regions_made d z N G) as (regions & w & Pr & T & R & M).
  destruct (collect_ok d z w st None (defers Body) [] u c (proj1 T) U) as (e & w1 & E1 & Ec).
  { rewrite R. exact C. }
  assert (Cf := collect_fields _ _ _ _ _ _ _ _ _ E1). destruct Cf as (_ & Wr & _).
  destruct (Go regions M (e_computed e) (push w1 e)) as (os & w2 & P2 & _ & _).
  - rewrite Ec. apply ceq_refl.
  - exact (collect_tidy _ _ _ _ _ _ _ _ _ _ T E1).
  - cbn. congruence.
  - exists regions. eexists. split; [|exact M]. eapply validate_end; eauto. rewrite style_pass_eq.
    cbn [set_region sbind]. rewrite E1, P2. cbn [sbind]. reflexivity.
Qed.

Lemma goes_app : forall d z regions c a b, goes d z regions c a -> goes d z regions c b -> goes d z regions c (a ++ b).
Proof.
  intros d z regions c a b Ha Hb c' w Hc T R. destruct (Ha c' w Hc T R) as (os & w1 & E1 & T1 & R1).
  destruct (Hb c' w1 Hc T1 R1) as (os2 & w2 & E2 & T2 & R2). exists (os ++ os2)%list, w2. split; [|auto].
  clear - E1 E2. revert w os E1. induction a as [|x a IH]; intros w os E1.
  - inversion E1; subst. exact E2.
  - apply pass_all_cons in E1 as (o & w3 & os' & Ex & Em & ->). cbn [app pass_all]. rewrite Ex. cbn [sbind]. rewrite (IH _ _ Em). auto.
Qed.

Lemma ceq_trans : forall m a b c, ceq m a b -> ceq false b c -> ceq m a c.
Proof.
  intros m a b c (F & L & D & R) (F' & L' & D' & R'). split; [congruence|]. split; [congruence|]. split; [congruence|].
  intros x. rewrite R'. cbn. apply R.
Qed.

Lemma goes_carried : forall m f d d' z regions regions' ok okr c c' ts ts' os, carries m f d d' ok -> rcarries m f regions regions' okr ->
  thin f ok okr ts ts' -> forallb flat ts = true -> Forall2 (passes d z regions None (Some c)) ts os -> ceq m c c' ->
  goes d' z regions' c' ts'.
Proof.
  intros m f d d' z regions regions' ok okr c c' ts ts' os Ca Rc Th Fl F Hc c2 w Hc2 T R.
  destruct (pass_back m f d d' z regions regions' ok okr Ca Rc ts ts' Th None (Some c) os (Some c2) w) as (os' & w' & P & T' & R'); auto.
  - intros t Ht. right. split; auto. rewrite forallb_forall in Fl. auto.
  - cbn. eapply ceq_trans; eauto.
  - discriminate.
  - unfold in_effect. rewrite R. auto.
  - exists os', w'. split; auto. split; auto. congruence.
Qed.

Lemma made_carries : forall m f d d' z regions regions' (ok okr : string -> Prop), carries m f d d' ok ->
  (forall j e, dict_get regions j = Some e -> exists g, In (j, KRegion g) d /\ region_good d z g (e_computed e)) ->
  (forall j g, okr j -> In (j, KRegion g) d ->
     In (f j, KRegion (mkRegion (option_map (map f) (r_refs g)) (r_padding g))) d' /\ forall i, In i (refs (r_refs g)) -> ok i) ->
  table_made d' z regions' -> rcarries m f regions regions' okr.
Proof.
  intros m f d d' z regions regions' ok okr Ca H Hr M j e Ok G. destruct (H _ _ G) as (g & Hg & Gd). destruct (Hr _ _ Ok Hg) as [H' Or].
  destruct (good_carried m f d d' ok z g _ Ca Gd Or) as (c' & Gc & Ce). destruct (M _ _ _ H' Gc) as (e' & E1 & E2).
  exists e'. split; auto. rewrite E2. auto.
Qed.

(** What a document that validates looks like. *)
Lemma looks_dressed : forall avail z d b regions e os t cb ce c, t_body d = Some b ->
  validate avail (Some (timing_body b)) = TOk (cb, ce, c) ->
  validate_styles (doc_table d b) z (styling_body b) = SOk (regions, SOut Body None e os) ->
  Forall2 (passes (doc_table d b) z regions None (Some (e_computed e))) (flat_map styling (bd_kids b)) os ->
  Forall2 (dressed (doc_table d b) z regions None (Some (e_computed e))) (present_body t b c) (looks_at avail z d t).
Proof.
  intros avail z d b regions e os t cb ce c Hb Vt Vs F. unfold looks_at. rewrite Hb, Vt, Vs. unfold present_body, appear_body.
  destruct c as [b' e' cb' ce' cs|]; [|constructor]. destruct (active t cb' ce'); [|constructor]. apply appear_dressed. auto.
Qed.

(** ** Segments *)

Lemma copy_thin : forall x (okS okR : string -> Prop), let f := copy_ref (x_dec x) (x_seq x) in
  forall v o m o', copy_node x v o = GOk (m, o') ->
  (forall j, In j (flat_map style_refs (opt_one m)) -> okS j) -> (forall j, In j (flat_map region_refs (opt_one m)) -> okR j) ->
  thin f (fun j => okS (f j)) (fun j => okR (f j)) (styling (plain v)) (flat_map styling (opt_one m)).
Proof.
  intros x okS okR f.
  assert (App : forall ok okr a a' b b', thin f ok okr a a' -> thin f ok okr b b' -> thin f ok okr (a ++ b) (a' ++ b')).
  { intros ok okr a a' b b' Ta Tb. induction Ta; cbn [app]; auto; [apply thin_drop|apply thin_keep]; auto. }
  assert (Al : forall vs, Forall (fun v => forall o m o', copy_node x v o = GOk (m, o') ->
      (forall j, In j (flat_map style_refs (opt_one m)) -> okS j) -> (forall j, In j (flat_map region_refs (opt_one m)) -> okR j) ->
      thin f (fun j => okS (f j)) (fun j => okR (f j)) (styling (plain v)) (flat_map styling (opt_one m))) vs ->
    forall o ns o', copy_nodes x vs o = GOk (ns, o') ->
    (forall j, In j (flat_map style_refs ns) -> okS j) -> (forall j, In j (flat_map region_refs ns) -> okR j) ->
    thin f (fun j => okS (f j)) (fun j => okR (f j)) (flat_map styling (map plain vs)) (flat_map styling ns)).
  { induction 1 as [|v vs Fv _ IH]; intros o ns o' H Os Or; cbn [copy_nodes] in H.
    - inversion H. constructor.
    - destruct (copy_node x v o) as [[n o1]|] eqn:E; [|discriminate]. cbn [gbind] in H.
      destruct (copy_nodes x vs o1) as [[ns' o2]|] eqn:E2; [|discriminate]. cbn [gbind] in H.
      assert (En : ns = (opt_one n ++ ns')%list) by (inversion H; destruct n; auto). subst ns.
      rewrite flat_map_app in *. cbn [map flat_map]. apply App.
      + eapply Fv; eauto; intros j Hj; [apply Os|apply Or]; rewrite ?flat_map_app; apply in_app_iff; auto.
      + eapply IH; eauto; intros j Hj; [apply Os|apply Or]; rewrite ?flat_map_app; apply in_app_iff; auto. }
  induction v as [s| |k i r st b e cb ce vs inh kids IH] using vnode_ind'; intros o m o' H Os Or.
  - inversion H; subst. constructor.
  - inversion H; subst. constructor.
  - apply copy_inv in H as [(_ & -> & _)|(_ & r' & st' & ks & o1 & Hr & Hs & Ek & D)]; [repeat constructor|].
    destruct D as [(_ & -> & _)|(_ & b' & e' & _ & -> & _)]; [repeat constructor|].
    cbn [opt_one flat_map styling plain] in *. rewrite app_nil_r. cbn [flat_map style_refs region_refs] in Os, Or. rewrite app_nil_r in Os, Or.
    destruct (map_style_ok _ _ _ Hs) as [-> _]. destruct (map_region_ok _ _ _ _ Hr) as [-> _]. fold f in Os, Or |- *.
    apply thin_keep.
    + intros j Hj. apply Os. apply in_app_iff. left. destruct st; [|destruct Hj]. cbn. apply in_map. auto.
    + intros j Hj. apply Or. apply in_app_iff. left. unfold here in Hj. destruct k; cbn in Hj; try discriminate; subst r; cbn; auto.
    + unfold here. destruct k; auto.
    + eapply Al; eauto; intros j Hj; [apply Os|apply Or]; apply in_app_iff; auto.
    + constructor.
Qed.

Lemma copies_thin : forall x (okS okR : string -> Prop), let f := copy_ref (x_dec x) (x_seq x) in
  forall vs o ns o', copy_nodes x vs o = GOk (ns, o') ->
  (forall j, In j (flat_map style_refs ns) -> okS j) -> (forall j, In j (flat_map region_refs ns) -> okR j) ->
  thin f (fun j => okS (f j)) (fun j => okR (f j)) (flat_map styling (map plain vs)) (flat_map styling ns).
Proof.
  intros x okS okR f. assert (App : forall ok okr a a' b b', thin f ok okr a a' -> thin f ok okr b b' -> thin f ok okr (a ++ b) (a' ++ b')).
  { intros ok okr a a' b b' Ta Tb. induction Ta; cbn [app]; auto; [apply thin_drop|apply thin_keep]; auto. }
  induction vs as [|v vs IH]; intros o ns o' H Os Or; cbn [copy_nodes] in H.
  - inversion H. constructor.
  - destruct (copy_node x v o) as [[n o1]|] eqn:E; [|discriminate]. cbn [gbind] in H.
    destruct (copy_nodes x vs o1) as [[ns' o2]|] eqn:E2; [|discriminate]. cbn [gbind] in H.
    assert (En : ns = (opt_one n ++ ns')%list) by (inversion H; destruct n; auto). subst ns.
    rewrite flat_map_app. cbn [map flat_map]. rewrite flat_map_app in Os, Or. apply App.
    + eapply copy_thin; eauto; intros j Hj; [apply Os|apply Or]; apply in_app_iff; auto.
    + eapply IH; eauto; intros j Hj; [apply Os|apply Or]; apply in_app_iff; auto.
Qed.
