(** C68: which documents validation accepts, what it says of the others, and what
    get_element_by_id answers afterwards. *)

From Coq Require Import List String Bool QArith.
From Verif Require Import IdModel StyleModel StyleProofs StyleTree ReadModel ReadSpec ValidModel ValidSpec
  ValidPruneProofs ValidPassProofs ValidVerdictProofs ValidStyleProofs.
From Verif Require HeadModel HeadSpec HeadProofs.
Import ListNotations.
Open Scope string_scope.

Lemma verdict_fresh : forall d,
  match fst (validate untouched d) with
  | None => valid d /\ tr_table (snd (validate untouched d)) = Some (rev (entries d))
  | Some e => fault d e /\
      (e <> VExtentType -> exists pre rest, entries d = (pre ++ rest)%list /\ NoDup (map fst pre) /\ next e pre rest /\
         tr_table (snd (validate untouched d)) = Some (rev pre))
  end.
Proof.
  intros d. unfold validate.
  assert (X : match vd_extent d with Some (Cell, _) | Some (Pct, _) => fault d VExtentType
              | _ => forall u p, vd_extent d = Some (u, p) -> u = Px end).
  { destruct (vd_extent d) as [[[] p]|] eqn:E; try (cbn; rewrite E; do 2 eexists; split; [reflexivity|discriminate]);
      intros u q H; congruence. }
  assert (Rest : (forall u p, vd_extent d = Some (u, p) -> u = Px) ->
    let r := match HeadModel.check_head (vd_head d) with
      | Some e => (Some (VHead e), mkTrace (Some []) (tr_styles untouched) [] [])
      | None =>
          let '(r, s) := traverse d (mkVS [] [] (mkW (tr_styles untouched) [] None) []) in
          (r, mkTrace (Some (vs_ids s)) (w_styles (vs_world s)) (rev (vs_regions s)) (vs_left s))
      end in
    match fst r with
    | None => valid d /\ tr_table (snd r) = Some (rev (entries d))
    | Some e => fault d e /\
        (e <> VExtentType -> exists pre rest, entries d = (pre ++ rest)%list /\ NoDup (map fst pre) /\ next e pre rest /\
           tr_table (snd r) = Some (rev pre))
    end).
  { clear X. intros X. assert (H := HeadProofs.check_proper (vd_head d)).
    destruct (HeadModel.check_head (vd_head d)) as [e|]; cbn [fst snd].
    { split; [intros Hp; apply H in Hp; discriminate|]. intros _. exists [], (entries d). split; auto.
      split; [constructor|]. split; [intros i Hi; discriminate|auto]. }
    assert (Hp := proj1 H eq_refl). assert (P := traverse_post d). change (mkVS [] [] (mkW (tr_styles untouched) [] None) []) with start.
    destruct (traverse d start) as [[e|] s]; cbn [fst snd tr_table] in *.
    - destruct P as [F (pre & rest & E & V & N & Nx)]. split; auto. intros _. exists pre, rest. cbn [app] in V. rewrite V in *.
      split; auto. split; auto. rewrite <- rev_involutive, <- map_rev. apply NoDup_rev. auto.
    - destruct P as (N & V & G1 & G2 & G3). rewrite V. split; auto.
      rewrite Forall_forall in G1, G2, G3.
      split; [exact X|]. split; [exact Hp|]. split; [exact N|]. split; [|split; [|split; [|split]]].
      + intros Z [(i & st & f & Hs & Hf & U)|(r & Hr & U)].
        * apply (G1 _ Hs Z). exists f. auto.
        * destruct (proj1 (G2 _ Hr) Z) as [A B]. destruct U; auto.
      + intros n a ty Hn Ht. eapply (proj1 (G3 _ Hn)); eauto.
      + intros l i Hl Hi. unfold users in Hl. apply in_app_or in Hl as [Hl|Hl]; apply in_map_iff in Hl as (n & <- & Hn).
        * apply (proj1 (proj2 (G2 _ Hn))); auto.
        * apply (proj1 (proj2 (G3 _ Hn))); auto.
      + intros n i Hn Hr. eapply (proj1 (proj2 (proj2 (G3 _ Hn)))); eauto.
      + intros Z l q Hl. unfold users in Hl. apply in_app_or in Hl as [Hl|Hl]; apply in_map_iff in Hl as (n & <- & Hn).
        * apply (proj2 (proj2 (G2 _ Hn))); auto.
        * apply (proj2 (proj2 (proj2 (G3 _ Hn)))); auto. }
  destruct (vd_extent d) as [[[] p]|]; try (apply Rest; exact X); (cbn [fst snd]; split; [exact X|congruence]).
Qed.

(** Validation accepts exactly the valid documents, whatever earlier validations
    have left behind. *)
Theorem C68_verdict : forall t d, fst (validate t d) = None <-> valid d.
Proof.
  intros t d. rewrite (proj1 (validate_same t untouched d)). assert (V := verdict_fresh d).
  destruct (fst (validate untouched d)) as [e|]; [|tauto]. split; [discriminate|]. intros H.
  destruct (fault_invalid d e); tauto.
Qed.

(** A refusal names something that is wrong with the document. *)
Theorem C68_reason : forall t d e, fst (validate t d) = Some e -> fault d e.
Proof.
  intros t d e. rewrite (proj1 (validate_same t untouched d)). assert (V := verdict_fresh d).
  destruct (fst (validate untouched d)) as [e'|]; [|discriminate]. intros H. injection H as <-. tauto.
Qed.

(** Validating again gives the same verdict and the same answers and
    styles, except where
    the extent is of the wrong type. *)
Theorem C68_again : forall t t' d, fst (validate t d) = fst (validate t' d) /\
  (fst (validate t d) <> Some VExtentType ->
     (forall i ty, get_element (snd (validate t d)) i ty = get_element (snd (validate t' d)) i ty) /\
     tr_regions (snd (validate t d)) = tr_regions (snd (validate t' d)) /\
     tr_body (snd (validate t d)) = tr_body (snd (validate t' d))).
Proof.
  intros t t' d. destruct (validate_same t t' d) as [A B]. split; auto. intros N. destruct (B N) as (B1 & B2 & B3).
  split; auto. intros i ty. unfold get_element. rewrite B1; auto.
Qed.

(** The class asked for. *)
Definition fits (ty : want) (x : kind) : Prop :=
  match ty with
  | WAny => True
  | WStyle => exists s, x = KStyle s
  | WRegion => exists r, x = KRegion r
  end.

Lemma get_from : forall t l i ty, tr_table t = Some (rev l) -> NoDup (map fst l) ->
  (forall x, get_element t i ty = AFound x <-> In (i, x) l /\ fits ty x) /\
  (get_element t i ty = ALookupError <-> forall x, In (i, x) l -> ~ fits ty x).
Proof.
  intros t l i ty E N. unfold get_element. rewrite E, dict_get_rev; auto.
  assert (D := fun x => dict_get_iff _ l i x N). destruct (dict_get l i) as [y|].
  - assert (Y := proj1 (D y) eq_refl).
    assert (U : forall x, In (i, x) l -> x = y) by (intros x H; apply D in H; congruence).
    split.
    + intros x. split.
      * intros H. assert (x = y) by (destruct y, ty; congruence). subst x. split; auto. destruct y, ty; cbn; eauto; discriminate.
      * intros [H F]. apply U in H. subst x. destruct y, ty; auto; cbn in F; destruct F; discriminate.
    + split.
      * intros H x Hx F. apply U in Hx. subst x. destruct y, ty; try discriminate; cbn in F; destruct F; discriminate.
      * intros H. specialize (H y Y). destruct y, ty; auto; destruct H; cbn; eauto.
  - assert (No : forall x, ~ In (i, x) l) by (intros x H; apply D in H; discriminate).
    split.
    + intros x. split; [destruct ty; discriminate|]. intros [H _]. destruct (No _ H).
    + split; auto. intros H x Hx. destruct (No _ Hx).
Qed.

(** On an accepted document, get_element_by_id finds the elements of the class
    asked for that have the identifier, and raises LookupError for the others. *)
Theorem C68_lookup : forall t d i ty, valid d ->
  (forall x, get_element (snd (validate t d)) i ty = AFound x <-> In (i, x) (entries d) /\ fits ty x) /\
  (get_element (snd (validate t d)) i ty = ALookupError <-> forall x, In (i, x) (entries d) -> ~ fits ty x).
Proof.
  intros t d i ty V. assert (A := proj2 (C68_verdict t d) V). apply get_from; [|apply V].
  rewrite (proj1 (proj2 (validate_same t untouched d) ltac:(congruence))).
  assert (F := verdict_fresh d). rewrite <- (proj1 (validate_same t untouched d)), A in F. tauto.
Qed.

(** On a refused document it answers from the elements up to the one refused.
    For an identifier met again these are all the elements before the second use.
    Where the extent of tt is refused it answers as before. *)
Theorem C68_refused : forall t d e, fst (validate t d) = Some e ->
  (e = VExtentType -> snd (validate t d) = t) /\
  (e <> VExtentType -> exists pre rest, entries d = (pre ++ rest)%list /\
     (forall i, e = VDuplicate i -> In i (map fst pre) /\ exists x r, rest = (i, x) :: r) /\
     forall i ty,
     (forall x, get_element (snd (validate t d)) i ty = AFound x <-> In (i, x) pre /\ fits ty x) /\
     (get_element (snd (validate t d)) i ty = ALookupError <-> forall x, In (i, x) pre -> ~ fits ty x)).
Proof.
  intros t d e H. split.
  - intros ->. destruct (C68_reason _ _ _ H) as (u & p & E & N). unfold validate. rewrite E. destruct u; auto. congruence.
  - intros Ne. assert (F := verdict_fresh d). destruct (validate_same t untouched d) as [A B].
    rewrite <- A, H in F. destruct F as [F G]. destruct (G Ne) as (pre & rest & E & N & Nx & Tb). exists pre, rest.
    split; auto. split; auto. intros i ty. apply get_from; auto. rewrite (proj1 (B ltac:(congruence))). auto.
Qed.

(** On an accepted document the styles left on regions and elements are those of
    the pass of StyleModel over all the document's identifiers, so that what C28,
    C29, C30, C45 and C46 say about it holds for whole documents. *)
Theorem C68_styles : forall t d b, valid d -> vd_body d = Some b ->
  exists regions o, validate_styles (entries d) (sizing_of d) (shape b) = SOk (regions, o) /\
    tr_regions (snd (validate t d)) = regions /\ tr_body (snd (validate t d)) = spread o.
Proof.
  intros t d b V Eb. assert (A := proj2 (C68_verdict t d) V). destruct (validate_same t untouched d) as [S1 S2].
  destruct (S2 ltac:(congruence)) as (_ & S3 & S4). rewrite S3, S4. rewrite S1 in A. clear S1 S2 S3 S4.
  unfold validate in *. change (mkVS [] [] (mkW (tr_styles untouched) [] None) []) with start in *.
  assert (P := traverse_post d). assert (Y := traverse_styles d b (proj1 (proj2 (proj2 V)))).
  destruct (HeadModel.check_head (vd_head d)); [destruct (vd_extent d) as [[[] p]|]; discriminate|].
  destruct (traverse d start) as [r s]. cbn [fst snd] in *.
  assert (r = None) by (destruct (vd_extent d) as [[[] p]|]; cbn [fst] in A; congruence). subst r.
  destruct (Y eq_refl Eb (proj1 (proj2 (proj2 P)))) as (regions & o & H1 & H2 & H3).
  exists regions, o. split; auto. destruct (vd_extent d) as [[[] p]|]; try discriminate; cbn [snd tr_regions tr_body]; auto.
Qed.

(** ** Cases *)

Definition no_times : timing := mkTimes None None None.
Definition st (refs : list string) (a : sattrs) : style_el := mkStyle (match refs with [] => None | _ => Some refs end) a.
Definition sized (u : unit3) (q : Q) : sattrs :=
  mkAttrs None None (Some (mkF u None q)) None None None None None None None None None None None None.
Definition spaced (u : unit3) (q : Q) : sattrs :=
  mkAttrs None None None (Some (LSize u q)) None None None None None None None None None None None.
Definition media : HeadModel.head := HeadModel.mkHead "seq" 1 "media" None None (HeadModel.mkRest "en" None None None None None []).
Definition smpte : HeadModel.head := HeadModel.mkHead "seq" 1 "smpte" None None (HeadModel.mkRest "en" None None None None None []).

(** Two styles one of which refers to the other, a region, and a body with a
    division and two paragraphs; [ext] is the extent of tt, [sp] the identifier
    of the span and [style] its styles, [r] the region of the second paragraph and
    [ty] the type of the end of the first. *)
Definition page (ext : option (unit3 * (Q * Q))) (styles : list (string * style_el)) (sp r : string)
  (ty : ttype) (style : option (list string)) : vdoc :=
  mkVD media ext (32#1, 15#1)%Q styles [mkVR "r1" Pct Pct (mkRegion (Some ["s1"]) None)]
    (Some (VNode Body None (mkTimes (Some Timecount) None (Some Timecount)) None None
      [VNode Div (Some "d1") no_times None (Some "r1")
        [VNode P (Some "p1") (mkTimes (Some FullClock) (Some ty) None) (Some ["s2"; "s1"]) None
           [VNode Span (Some sp) no_times style None []];
         VNode P (Some "p2") no_times None (Some r) []]])).
Definition two : list (string * style_el) := [("s1", st [] (sized Cell 1)); ("s2", st ["s1"] (spaced Pct 125))].

Definition sample : vdoc := page None two "x1" "r1" FullClock (Some ["s1"]).

Example C68_case_accepted : fst (validate untouched sample) = None.
Proof. vm_compute. reflexivity. Qed.
Example C68_case_valid : valid sample.
Proof. apply (C68_verdict untouched). apply C68_case_accepted. Qed.
Example C68_case_lookup :
  get_element (snd (validate untouched sample)) "s2" WStyle = AFound (KStyle (st ["s1"] (spaced Pct 125))) /\
  get_element (snd (validate untouched sample)) "s2" WRegion = ALookupError /\
  get_element (snd (validate untouched sample)) "x1" WAny = AFound KOther /\
  get_element (snd (validate untouched sample)) "x2" WAny = ALookupError.
Proof. vm_compute. auto. Qed.

Example C68_case_styles : exists r1 o1 o2 o3 o4 o5,
  tr_regions (snd (validate untouched sample)) = [("r1", r1)] /\ e_referenced r1 = ["s1"] /\
  tr_body (snd (validate untouched sample)) = [o1; o2; o3; o4; o5] /\
  e_referenced o3 = ["s2"; "s1"] /\ e_region o1 = None /\ e_region o3 = Some "r1" /\
  lineHeight (c_attrs (e_computed o3)) = Some (LSize Cell (125 # 100)).
Proof. vm_compute. do 6 eexists. repeat split; reflexivity. Qed.

Example C68_case_extent : fst (validate untouched (page (Some (Pct, (1, 1)%Q)) two "x1" "r1" FullClock None)) = Some VExtentType.
Proof. reflexivity. Qed.
Example C68_case_head : exists e, fst (validate untouched (mkVD smpte None (32#1, 15#1)%Q [] [] None)) = Some (VHead e).
Proof. eexists. reflexivity. Qed.
Example C68_case_duplicate : fst (validate untouched (page None two "s2" "r1" FullClock None)) = Some (VDuplicate "s2").
Proof. vm_compute. reflexivity. Qed.
Example C68_case_time : fst (validate untouched (page None two "x1" "r1" Smpte None)) = Some (VTime NEnd Smpte).
Proof. vm_compute. reflexivity. Qed.
Example C68_case_region : fst (validate untouched (page None two "x1" "d1" FullClock None)) = Some (VStyle (RegionMissing "d1")).
Proof. vm_compute. reflexivity. Qed.
Example C68_case_style : fst (validate untouched (page None two "x1" "r1" FullClock (Some ["s1"; "r1"]))) = Some (VStyle (Missing "r1")).
Proof. vm_compute. reflexivity. Qed.
Example C68_case_pixels : fst (validate untouched (page None [("s1", st [] (sized Px 20)); ("s2", st [] no_attrs)] "x1" "r1" FullClock None))
  = Some (VStyle ExtentMissing).
Proof. vm_compute. reflexivity. Qed.
Example C68_case_pixels_extent :
  fst (validate untouched (page (Some (Px, (800, 600)%Q)) [("s1", st [] (sized Px 20)); ("s2", st [] (spaced Px 25))] "x1" "r1" FullClock None)) = None.
Proof. vm_compute. reflexivity. Qed.

(** ** What validation does not look at *)

(** A style that nothing uses may refer to nothing, or to itself. *)
Theorem C68_unused_style : exists d d',
  fst (validate untouched d) = None /\ ~ sound (style_entries d) "s3" /\ edge (style_entries d) "s3" "s4" /\
  get_style (style_entries d) "s4" = None /\
  fst (validate untouched d') = None /\ path (style_entries d') "s3" "s3".
Proof.
  exists (page None (two ++ [("s3", st ["s4"] no_attrs)])%list "x1" "r1" FullClock None),
         (page None (two ++ [("s3", st ["s3"] no_attrs)])%list "x1" "r1" FullClock None).
  assert (E : forall x, edge (style_entries (page None (two ++ [("s3", st [x] no_attrs)])%list "x1" "r1" FullClock None)) "s3" x).
  { intros x. exists (st [x] no_attrs), [x]. cbn. auto. }
  split; [vm_compute; reflexivity|]. split; [|split; [apply E|split; [reflexivity|split; [vm_compute; reflexivity|]]]].
  - intros H. destruct (H "s4") as [G _]; [apply Relation_Operators.rt_step, E|]. apply G. reflexivity.
  - apply Relation_Operators.t_step, E.
Qed.

(** A pixel line height without an extent on tt is not refused as a pixel font
    size is: only where an element uses it, and then with a plain Exception. *)
Theorem C68_pixel_line_height : exists styles,
  In ("s3", st [] (spaced Px 25)) styles /\
  fst (validate untouched (page None styles "x1" "r1" FullClock None)) = None /\
  fst (validate untouched (page None styles "x1" "r1" FullClock (Some ["s3"]))) = Some (VStyle PlainException).
Proof.
  exists (two ++ [("s3", st [] (spaced Px 25))])%list. split; [cbn; auto|]. split; vm_compute; reflexivity.
Qed.

(** After a refusal, get_element_by_id does not say that the document has not
    been validated: it has the elements before the fault and not those after it. *)
Theorem C68_half_way : exists d i, fst (validate untouched d) = Some (VDuplicate i) /\
  get_element untouched "p1" WAny = ANotValidated /\
  get_element (snd (validate untouched d)) "p1" WAny = AFound KOther /\
  In ("p2", KOther) (entries d) /\ get_element (snd (validate untouched d)) "p2" WAny = ALookupError.
Proof.
  exists (page None two "s2" "r1" FullClock None), "s2". split; [vm_compute; reflexivity|]. split; auto.
  split; [vm_compute; reflexivity|]. split; [cbn; tauto|]. vm_compute. reflexivity.
Qed.

(** A document whose extent is wrong keeps the answers of the validation before. *)
Theorem C68_stale : exists d d', fst (validate untouched d) = None /\
  fst (validate (snd (validate untouched d)) d') = Some VExtentType /\
  ~ In ("x1", KOther) (entries d') /\
  get_element (snd (validate (snd (validate untouched d)) d')) "x1" WAny = AFound KOther.
Proof.
  exists sample, (page (Some (Pct, (1, 1)%Q)) two "x2" "r1" FullClock None).
  split; [vm_compute; reflexivity|]. split; [vm_compute; reflexivity|].
  split; [cbn; intuition congruence|]. vm_compute. reflexivity.
Qed.

(** A refusal leaves the order of references found so far on the styles, here that
    of s3 before the missing s4; the next validation forgets it before it looks
    (C68_again). *)
Theorem C68_cached : exists d d', fst (validate untouched d) = Some (VStyle (Missing "s4")) /\
  dict_get (st_cache (tr_styles (snd (validate untouched d)))) "s3" = Some ["s3"] /\
  fst (validate (snd (validate untouched d)) d') = None /\
  dict_get (st_cache (tr_styles (snd (validate (snd (validate untouched d)) d')))) "s3" = Some ["s3"; "s1"].
Proof.
  exists (page None (two ++ [("s3", st [] no_attrs)])%list "x1" "r1" FullClock (Some ["s3"; "s4"])),
         (page None (two ++ [("s3", st ["s1"] no_attrs)])%list "x1" "r1" FullClock (Some ["s3"])).
  repeat split; vm_compute; reflexivity.
Qed.

Print Assumptions C68_verdict.
Print Assumptions C68_reason.
Print Assumptions C68_again.
Print Assumptions C68_lookup.
Print Assumptions C68_refused.
Print Assumptions C68_styles.
Print Assumptions C68_unused_style.
Print Assumptions C68_pixel_line_height.
Print Assumptions C68_half_way.
Print Assumptions C68_stale.
Print Assumptions C68_cached.
