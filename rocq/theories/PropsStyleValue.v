(** C29: which value of a style attribute applies. *)

From Coq Require Import List String Bool QArith.
From Verif Require Import IdModel StyleModel StyleProofs PropsStyle StyleTree.
Import ListNotations.
Open Scope string_scope.

(** ** The specified style *)

(** Every attribute of the resolved style has its first value. *)
Theorem C29_resolve : forall l,
  (forall a, getattr (resolve_styles l) a = nearest (map (fun s => getattr s a) l)) /\
  fontSize (resolve_styles l) = nearest (map fontSize l) /\
  lineHeight (resolve_styles l) = nearest (map lineHeight l).
Proof.
  intros l. unfold resolve_styles. split; [|split].
  - intros a. rewrite (fold_add _ (fun s => getattr s a)); [destruct a; auto|]. intros s o. destruct a; auto.
  - rewrite (fold_add _ fontSize); auto.
  - rewrite (fold_add _ lineHeight); auto.
Qed.

(** One element: an inherited attribute is the element's own, else the
    parent's, else the region's, else initial; the other three are the
    element's own or initial. *)
Theorem C29_step : forall z spec parent region defer c a, compute_style z spec parent region defer = SOk c ->
  let up o := match o with Some x => real x a | None => None end in
  (In a (map fst inherited_defaults) ->
     getattr (c_attrs c) a = nearest [getattr spec a; up parent; up region; initial inherited_defaults a]) /\
  (In a (map fst simple_defaults) ->
     getattr (c_attrs c) a = nearest [getattr spec a; initial simple_defaults a]).
Proof.
  intros z spec parent region defer c a H. apply compute_style_spec in H as (fs & lh & _ & _ & _ & _ & _ & H).
  destruct (H a) as [R G]. cbn zeta. rewrite G, R. rewrite !nearest_cons. cbn [nearest].
  assert (U : compute_inherited a spec parent region =
     or_else (getattr spec a) (or_else (match parent with Some x => real x a | None => None end)
                                       (match region with Some x => real x a | None => None end))).
  { unfold compute_inherited, real. destruct parent, region; auto. }
  split; intros Hin; cbn in Hin.
  - assert (I : in_defaults inherited_defaults a = true /\ initial simple_defaults a = None)
      by (repeat (destruct Hin as [<-|Hin]; [split; reflexivity|]); destruct Hin).
    destruct I as [-> ->]. rewrite U, !or_else_none, !or_else_assoc. auto.
  - assert (I : in_defaults inherited_defaults a = false /\ in_defaults simple_defaults a = true /\
                initial inherited_defaults a = None)
      by (repeat (destruct Hin as [<-|Hin]; [split; [|split]; reflexivity|]); destruct Hin).
    destruct I as (-> & -> & ->). rewrite or_else_none. auto.
Qed.

(** ** Whole documents *)

(** The value given nearest: by the element itself, else nearest to its
    parent, else by the element's region. *)
Fixpoint given (regions : list (string * styled)) (a : aname) (chain : list item) : option string :=
  match chain with
  | [] => None
  | i :: up =>
      nearest [getattr (e_specified (i_el i)) a; given regions a up;
               match region_of regions (i_el i) with
               | Some g => getattr (e_specified g) a
               | None => None
               end]
  end.

Lemma inherited_in : forall a, In a (map fst inherited_defaults) -> in_defaults inherited_defaults a = true.
Proof. intros a H. cbn in H. repeat (destruct H as [<-|H]; [reflexivity|]). destruct H. Qed.

Lemma region_real : forall d z g e a, region_linked d z g e -> In a (map fst inherited_defaults) ->
  real (e_computed e) a = getattr (e_specified e) a.
Proof.
  intros d z g e a (_ & _ & _ & _ & C) Ha. apply compute_style_spec in C as (fs & lh & _ & _ & _ & _ & _ & C).
  destruct (C a) as [R _]. rewrite R, inherited_in by auto. unfold compute_inherited. cbn. rewrite or_else_none. auto.
Qed.

Lemma linked_real : forall d z regions chain a,
  (forall j e, dict_get regions j = Some e -> exists g, In (j, KRegion g) d /\ region_linked d z g e) ->
  In a (map fst inherited_defaults) -> linked d z regions chain ->
  (match parent_of chain with Some e => real (e_computed e) a | None => None end) = given regions a chain.
Proof.
  intros d z regions chain a RL Ha. induction 1 as [|i up L IH Rg St Sp Rs C]; auto. cbn [parent_of given].
  apply compute_style_spec in C as (fs & lh & _ & _ & _ & _ & _ & C). destruct (C a) as [R _]. rewrite R, inherited_in by auto.
  unfold compute_inherited. rewrite <- IH, !nearest_cons. cbn [nearest]. rewrite or_else_none. f_equal. f_equal.
  - destruct (parent_of up); auto.
  - unfold region_of. destruct (e_region (i_el i)) as [j|]; auto. destruct (dict_get regions j) as [e|] eqn:E; auto.
    destruct (RL _ _ E) as (g & _ & G). cbn [comp]. apply (region_real _ _ _ _ _ G Ha).
Qed.

(** The computed value of an inherited attribute of any element of any
    document that validates. *)
Theorem C29_computed : forall d z body regions o a anc i, validate_styles d z body = SOk (regions, o) ->
  In a (map fst inherited_defaults) -> within body o anc i ->
  getattr (c_attrs (e_computed (i_el i))) a = nearest [given regions a (i :: anc); initial inherited_defaults a].
Proof.
  intros d z body regions o a anc i H Ha W. apply validate_linked in H as [H RL]. specialize (H _ _ W).
  assert (G := linked_real _ _ _ _ _ RL Ha H). cbn [parent_of] in G. rewrite !nearest_cons, <- G. cbn [nearest]. rewrite or_else_none.
  inversion H as [|? ? _ _ _ _ _ C]; subst. apply compute_style_spec in C as (fs & lh & _ & _ & _ & _ & _ & C).
  destruct (C a) as [_ Gc]. rewrite Gc. f_equal.
  cbn in Ha. repeat (destruct Ha as [<-|Ha]; [reflexivity|]). destruct Ha.
Qed.

(** The others are not inherited. *)
Theorem C29_not_inherited : forall d z body regions o a anc i, validate_styles d z body = SOk (regions, o) ->
  In a (map fst simple_defaults) -> within body o anc i ->
  getattr (c_attrs (e_computed (i_el i))) a = nearest [getattr (e_specified (i_el i)) a; initial simple_defaults a].
Proof.
  intros d z body regions o a anc i H Ha W. apply validate_linked in H as [H _]. specialize (H _ _ W).
  inversion H as [|? ? _ _ _ _ _ C]; subst. apply (C29_step _ _ _ _ _ _ a C). auto.
Qed.

(** What an element specifies: the first value in the styles it refers to,
    themselves in the order of C28. *)
Theorem C29_specified : forall d z body regions o anc i, validate_styles d z body = SOk (regions, o) ->
  within body o anc i ->
  (forall a, getattr (e_specified (i_el i)) a = nearest (map (fun x => getattr (attrs_of d x) a) (e_referenced (i_el i)))) /\
  fontSize (e_specified (i_el i)) = nearest (map (fun x => fontSize (attrs_of d x)) (e_referenced (i_el i))) /\
  lineHeight (e_specified (i_el i)) = nearest (map (fun x => lineHeight (attrs_of d x)) (e_referenced (i_el i))) /\
  exists u, unfolds_all d (refs (i_style i)) u /\ e_referenced (i_el i) = keep_first u.
Proof.
  intros d z body regions o anc i H W. apply validate_linked in H as [H _]. specialize (H _ _ W).
  inversion H as [|? ? _ _ (st & S & R) Sp _ _]; subst. rewrite Sp.
  destruct (C29_resolve (map (attrs_of d) (e_referenced (i_el i)))) as (A & B & C). rewrite B, C, !map_map.
  split; [intros a; rewrite A, map_map; auto|]. split; auto. split; auto.
  assert (Y := collect_refs_spec d (refs (i_style i)) [] [] st S (U_nil d)). cbn [keep_first app] in Y. unfold collect_refs in R.
  destruct (each_ref (ordered_styles (enough d) d) d (refs (i_style i)) [] st) as [[l|e] st']; cbn [fst] in R; [|discriminate].
  inversion R; subst. destruct Y as [_ (v & V & E)]. exists v. auto.
Qed.

(** No element of the body is left out. *)
Theorem C29_every : forall d z body regions o k s r kids, validate_styles d z body = SOk (regions, o) ->
  inside body (SNode k s r kids) -> exists anc e, within body o anc (mkI k s r e).
Proof.
  intros d z body regions o k s r kids H I. unfold validate_styles in H.
  destruct (check_styles z d); [|discriminate]. cbn [sbind] in H.
  destruct (pass_regions d z d (mkW sstart [] None)) as [[rs w]|] eqn:P; [|discriminate]. cbn [sbind] in H.
  destruct (style_pass d z rs None body w) as [[o' w']|] eqn:S; [|discriminate]. cbn [sbind] in H. inversion H; subst rs o'.
  eapply style_pass_complete; eauto.
Qed.

(** ** Line heights *)

(** A line height as the element uses it: pixels become cells, a percentage is
    of the element's font size once that is in cells. *)
Definition used_height (z : sizing) (font : option fsize) (h : lheight) : lheight :=
  match h with
  | LSize Px q => match z_extent z with
                  | Some (_, height) => LSize Cell (q * snd (z_res z) / height)
                  | None => h
                  end
  | LSize Pct q => match font with
                   | Some (mkF Cell _ v) => LSize Cell (q * v / 100)
                   | _ => h
                   end
  | _ => h
  end.

Definition font_of (e : styled) : option fsize := fontSize (c_attrs (e_computed e)).
Definition used (z : sizing) (e : styled) (h : option lheight) : option lheight :=
  match h with Some x => Some (used_height z (font_of e) x) | None => None end.

(** As [given]; what is inherited is the height the parent uses. *)
Fixpoint given_height (z : sizing) (regions : list (string * styled)) (chain : list item) : option lheight :=
  match chain with
  | [] => None
  | i :: up =>
      used z (i_el i)
        (nearest [lineHeight (e_specified (i_el i)); given_height z regions up;
                  match region_of regions (i_el i) with
                  | Some g => used z g (lineHeight (e_specified g))
                  | None => None
                  end])
  end.

Definition real_height (c : computed) : option lheight := if c_default_lh c then None else lineHeight (c_attrs c).
Definition up_height (c : option computed) : option lheight := match c with Some x => real_height x | None => None end.

Lemma line_height_step : forall z spec parent region defer c, compute_style z spec parent region defer = SOk c ->
  real_height c = (match nearest [lineHeight spec; up_height parent; up_height region] with
                   | Some x => Some (used_height z (fontSize (c_attrs c)) x) | None => None end) /\
  lineHeight (c_attrs c) = or_else (real_height c) (Some LNormal).
Proof.
  intros z spec parent region defer c H. apply compute_style_spec in H as (fs & lh & _ & L & -> & E & Dl & _).
  assert (R : real_height c = lh) by (unfold real_height; rewrite Dl, E; destruct lh; auto). rewrite R, E. split; auto. clear R E Dl.
  unfold compute_line_height in L. fold (up_height parent) (up_height region) in L.
  rewrite !nearest_cons. cbn [nearest]. rewrite or_else_none.
  change (match parent with Some x => if c_default_lh x then None else lineHeight (c_attrs x) | None => None end) with (up_height parent) in L.
  change (match region with Some x => if c_default_lh x then None else lineHeight (c_attrs x) | None => None end) with (up_height region) in L.
  destruct (or_else (lineHeight spec) (or_else (up_height parent) (up_height region))) as [[|[] q]|]; try (inversion L; reflexivity).
  - unfold pixels_to_cells in L. cbn [used_height]. destruct (z_extent z) as [[w h]|]; inversion L; reflexivity.
  - cbn [used_height]. destruct fs as [[[] h v]|]; inversion L; reflexivity.
Qed.

Lemma linked_height : forall d z regions chain,
  (forall j e, dict_get regions j = Some e -> exists g, In (j, KRegion g) d /\ region_linked d z g e) ->
  linked d z regions chain -> up_height (comp (parent_of chain)) = given_height z regions chain.
Proof.
  intros d z regions chain RL. induction 1 as [|i up L IH Rg St Sp Rs C]; auto. cbn [parent_of comp up_height given_height].
  destruct (line_height_step _ _ _ _ _ _ C) as [R _]. rewrite R, IH. fold (font_of (i_el i)). unfold used at 1.
  replace (up_height (comp (region_of regions (i_el i)))) with
    (match region_of regions (i_el i) with Some g => used z g (lineHeight (e_specified g)) | None => None end); auto.
  unfold region_of. destruct (e_region (i_el i)) as [j|]; auto. destruct (dict_get regions j) as [e|] eqn:E; auto.
  destruct (RL _ _ E) as (g & _ & (_ & _ & _ & _ & Cg)). destruct (line_height_step _ _ _ _ _ _ Cg) as [Rr _]. cbn [comp up_height].
  rewrite Rr. cbn [up_height]. rewrite !nearest_cons. cbn [nearest or_else]. rewrite or_else_none. auto.
Qed.

Theorem C29_line_height : forall d z body regions o anc i, validate_styles d z body = SOk (regions, o) ->
  within body o anc i ->
  lineHeight (c_attrs (e_computed (i_el i))) = nearest [given_height z regions (i :: anc); Some LNormal].
Proof.
  intros d z body regions o anc i H W. apply validate_linked in H as [H RL]. specialize (H _ _ W).
  assert (G := linked_height _ _ _ _ RL H). cbn [parent_of comp up_height] in G.
  inversion H as [|? ? _ _ _ _ _ C]; subst. destruct (line_height_step _ _ _ _ _ _ C) as [_ E]. rewrite E, G. rewrite nearest_cons. auto.
Qed.

(** A document: a body in red, a div in region R1 and with a style chain, and
    in it a p with a region of its own.  The div's region comes before the p's
    for what neither specifies. *)
Definition sty (refs : list string) (a : sattrs) : string -> string * kind := fun i => (i, KStyle (mkStyle (Some refs) a)).
Definition a_color c : sattrs := setattr no_attrs Color (Some c).
Definition doc29 : list (string * kind) :=
  [sty [] (a_color "red") "red";
   sty ["left"] (setattr no_attrs Color (Some "blue")) "blue";
   sty [] (setattr (setattr no_attrs TextAlign (Some "left")) Color (Some "green")) "left";
   sty [] (setattr (setattr no_attrs Direction (Some "rtl")) TextAlign (Some "end")) "r1s";
   sty [] (setattr (setattr no_attrs Direction (Some "ltr")) FontStyle (Some "italic")) "r2s";
   ("R1", KRegion (mkRegion (Some ["r1s"]) None)); ("R2", KRegion (mkRegion (Some ["r2s"]) (Some "1px")))].
Definition body29 : sel :=
  SNode Body (Some ["red"]) None
    [SNode Div None (Some "R1") [SNode P (Some ["blue"]) (Some "R2") [SNode Span None None []]]].

Definition show29 (o : sout) : list (option string) :=
  match o with SOut _ _ _ [SOut _ _ dv [SOut _ _ p [SOut _ _ s _]]] =>
    let g e a := getattr (c_attrs (e_computed e)) a in
    [g dv Color; g dv TextAlign; g p Color; g p TextAlign; g p Direction; g p FontStyle; g s Color; g s WrapOption; g s BackgroundColor]
  | _ => [] end.

Example C29_case : exists regions o, validate_styles doc29 (mkSizing None (32, 15)) body29 = SOk (regions, o) /\
  show29 o = [Some "red"; Some "end"; Some "blue"; Some "left"; Some "rtl"; Some "italic"; Some "blue"; Some "wrap"; Some "transparent"].
Proof. eexists. eexists. split; [vm_compute; reflexivity|vm_compute; reflexivity]. Qed.

Print Assumptions C29_resolve.
Print Assumptions C29_step.
Print Assumptions C29_computed.
Print Assumptions C29_not_inherited.
Print Assumptions C29_specified.
Print Assumptions C29_every.
Print Assumptions C29_line_height.
