(** C49, C50: the style of a document converted to EBU-TT-D. *)

From Coq Require Import List ZArith String Bool QArith.
From Verif Require Import IdModel PropsId TimingModel TimeModel ClockModel StyleModel StyleTree PropsFont SegmentModel ConvertModel
  ConvertSpec ConvertProofs PropsConvert ConvertStyleSpec ConvertStyleProofs ConvertPassProofs.
Import ListNotations.
Open Scope string_scope.
Open Scope Q_scope.

(** ** Font sizes *)

Lemma kids_none : forall d dd c, convert_document c d = COk dd -> only_divs d -> dd_body dd = None -> fkids d = [].
Proof.
  intros d dd c H O N. apply convert_document_inv in H as (_ & _ & [(ks & E & _)|(_ & _ & E)]); [congruence|].
  unfold fkids in *. destruct (fd_body d) as [b|] eqn:Eb; auto. apply (no_div_empty d b O Eb E).
Qed.

Lemma document_sizeless : forall c d dd, convert_document c d = COk dd -> sizeless dd.
Proof.
  intros c d dd H. apply convert_document_inv in H as (Es & _ & _). intros i s G. rewrite Es in G.
  eapply convert_styling_sizeless; eauto.
Qed.

(** Every p and span of the result has the height of font computed for it in
    the source: the generated percentages, multiplied from one cell down. *)
Theorem C49_sizes : forall c d dd, convert_document c d = COk dd -> only_divs d ->
  Forall2 sizes_agree (flat_map (dsizes dd 1) (body_of dd)) (flat_map fsizes (fkids d)).
Proof.
  intros c d dd H O. assert (S := document_sizeless _ _ _ H). assert (H' := H).
  apply ConvertStyleProofs.convert_document_inv in H' as (_ & _ & [(ks & E & Ca & Ac)|(E & _ & _)]).
  - unfold body_of. rewrite E. eapply convert_all_sizes; eauto. apply (convert_all_present _ _ _ _ _ _ _ Ca).
  - unfold body_of. rewrite E, (kids_none _ _ _ H O E). constructor.
Qed.

Lemma carries_sizes : forall os l, carries os l -> flat_map fsizes l = flat_map ssizes os.
Proof.
  induction 1 as [|os s l C IH|os l C IH|os l k i r st b e el ks kids C1 IH1 C2 IH2]; auto.
  cbn [flat_map fsizes ssizes]. rewrite IH1, IH2. auto.
Qed.

(** With the sizes that the style pass computed (for which see C30). *)
Theorem C49_pass : forall c d b z os dd, validated d b z os -> only_divs d -> convert_document c d = COk dd ->
  Forall2 sizes_agree (flat_map (dsizes dd 1) (body_of dd)) (flat_map ssizes os).
Proof.
  intros c d b z os dd (Eb & _ & regions & el & _ & Ca) O H. rewrite <- (carries_sizes _ _ Ca).
  assert (X := C49_sizes _ _ _ H O). unfold fkids in X. rewrite Eb in X. auto.
Qed.

(** In a validated document with positive sizes, no size makes conversion fail. *)
Theorem C49_succeeds : forall c d b z os, validated d b z os -> positive_sizes d z ->
  (exists dd, convert_document c d = COk dd) <-> convertible c d.
Proof. intros c d b z os V Ps. apply C39_succeeds. eapply validated_sized; eauto. Qed.

(** ** Line heights *)

(** The line height in cells of an element whose size differs from the one
    around it, if the document is coherent. *)
Theorem C49_lines : forall c d dd, convert_document c d = COk dd -> only_divs d ->
  coherent (flat_map (changes None) (fkids d)) ->
  Forall2 same_line (flat_map (dlines dd 1) (body_of dd)) (flat_map (flines None) (fkids d)).
Proof.
  intros c d dd H O Co. assert (S := document_sizeless _ _ _ H). assert (H' := H).
  apply ConvertStyleProofs.convert_document_inv in H' as (_ & _ & [(ks & E & Ca & Ac)|(E & _ & _)]).
  - unfold body_of. rewrite E.
    assert (Pr := proj2 (convert_all_present _ _ _ _ _ _ _ Ca)).
    apply (proj2 (convert_all_sizes _ _ dd S _ _ _ _ Ca Ac Pr)). intros v x Hin.
    assert (M : matches (flat_map (changes None) (fkids d) ++ []) (dd_gens dd)).
    { eapply convert_all_matches; eauto.
      - rewrite app_nil_r. intros y Hy. auto.
      - intros u. cbn. intros w l []. }
    rewrite app_nil_r in M. specialize (M v). destruct (gen_lookup v (dd_gens dd)) as [y|] eqn:G.
    + exists y. split; auto. destruct M as (w & l & Hw & Ev & Sl). eapply same_line_trans; eauto.
      apply same_line_sym. eapply Co; eauto.
    + exfalso. apply (M _ _ Hin). reflexivity.
  - unfold body_of. rewrite E, (kids_none _ _ _ H O E). constructor.
Qed.

(** ** A document *)

Definition no_extent : sizing := mkSizing None (32, 15).
Definition st (i : string) (a : sattrs) : string * style_el := (i, mkStyle None a).
Definition n_p style size line kids : fnode := FNode P (Some "p") None style None None (Some size) (Some line) kids.
Definition n_span style size line kids : fnode := FNode Span None None style None None (Some size) (Some line) kids.
Definition n_div style region kids : fnode := FNode Div None region style None None None (Some LNormal) kids.
Definition doc_of styles regions kids : fdoc := mkFdoc Media (Some styles) (Some regions) (Some (mkFbody None None None None kids)).
Definition cl (v : Q) : fsize := mkF Cell None v.

(** Region at 2c in red; a paragraph at 50 % on blue with a span at 3c, and another. *)
Definition styles49 : list (string * style_el) :=
  [st "reg" (mkAttrs None None (Some (cl 2)) None None (Some "red") None None None None None None None None None);
   st "half" (mkAttrs None None (Some (mkF Pct None 50)) None (Some "center") None (Some "blue") None None None None None None None None);
   st "three" (mkAttrs None None (Some (cl 3)) (Some (LSize Pct 125)) None None None None (Some "bold") None None None None None None)].
Definition half : fsize := cl (100 # 100).
Definition source49 : fdoc := doc_of styles49 [("R", mkRegion (Some ["reg"]) None)]
  [FNode Div None (Some "R") None None None (Some (cl 2)) (Some LNormal)
     [FNode P (Some "a") None (Some ["half"]) None None (Some half) (Some LNormal)
        [FText "one"; n_span (Some ["three"; "half"]) (cl 3) (LSize Cell (375 # 100)) [FText "two"]; FBr];
      FNode P (Some "b") None None None None (Some (cl 2)) (Some LNormal) [FText "three"]]].

Ltac carry := repeat first [apply ca_nil | apply ca_text | apply ca_br | apply ca_node].
Ltac nodup := vm_compute; repeat (apply NoDup_cons; [cbn; intuition discriminate|]); apply NoDup_nil.
Ltac valid := split; [reflexivity|split; [nodup|eexists; eexists; split; [vm_compute; reflexivity|carry]]].

Example C49_case : exists b os dd, validated source49 b no_extent os /\ only_divs source49 /\ positive_sizes source49 no_extent /\
  convert_document (encoder_clock 0 0) source49 = COk dd /\ coherent (flat_map (changes None) (fkids source49)) /\
  flat_map fsizes (fkids source49) = [Some (100 # 100); Some 3; Some 2] /\
  map Qred (flat_map (dsizes dd 1) (body_of dd)) = [1; 3; 2] /\
  map (option_map Qred) (flat_map (dlines dd 1) (body_of dd)) = [None; Some (15 # 4); None].
Proof.
  do 3 eexists. split.
  { valid. }
  split; [intros b E; inversion E; subst; repeat constructor|]. split.
  { split.
    - intros i s f Hin E. cbn in Hin. repeat (destruct Hin as [Hin|Hin]; [inversion Hin; subst; cbn in E; inversion E; split; cbn; auto; reflexivity|]). destruct Hin.
    - split; [reflexivity|]. split; [reflexivity|]. exact I. }
  split; [vm_compute; reflexivity|]. split.
  { intros v w x y H1 H2 E. vm_compute in H1, H2.
    repeat (destruct H1 as [H1|H1]; [inversion H1; subst; clear H1|]); try destruct H1;
    repeat (destruct H2 as [H2|H2]; [inversion H2; subst; clear H2|]); try destruct H2; cbn; auto; try reflexivity; vm_compute in E; discriminate. }
  split; [reflexivity|]. split; vm_compute; reflexivity.
Qed.

(** ** What is lost of sizes *)

(** The width of the font: 2c by 3c and 3c give the same result. *)
Definition wide (f : fsize) : fdoc := doc_of [st "s" (set_fontSize no_attrs (Some f))] [] [n_div None None [n_p (Some ["s"]) f LNormal [FText "one"]]].
Theorem C49_width_lost : exists b b' os os' dd,
  validated (wide (mkF Cell (Some 2) 3)) b no_extent os /\ validated (wide (cl 3)) b' no_extent os' /\
  convert_document (encoder_clock 0 0) (wide (mkF Cell (Some 2) 3)) = COk dd /\
  convert_document (encoder_clock 0 0) (wide (cl 3)) = COk dd.
Proof.
  do 5 eexists. split; [|split; [|split; vm_compute; reflexivity]].
  - valid.
  - valid.
Qed.

Definition with_line (f : fsize) (h : lheight) : sattrs := set_lineHeight (set_fontSize no_attrs (Some f)) (Some h).

(** The line height where the font size does not change: two cells, and nothing
    in the result. *)
Definition plain_line : fdoc :=
  doc_of [st "s" (with_line (cl 1) (LSize Cell 2))] [] [n_div None None [n_p (Some ["s"]) (cl 1) (LSize Cell 2) [FText "one"]]].
Theorem C49_line_lost : exists b os dd, validated plain_line b no_extent os /\
  convert_document (encoder_clock 0 0) plain_line = COk dd /\
  flat_map slines os = [Some (LSize Cell 2)] /\ dd_gens dd = [] /\ flat_map (dlines dd 1) (body_of dd) = [None].
Proof.
  do 3 eexists. split; [valid|]. split; [vm_compute; reflexivity|]. split; [vm_compute; reflexivity|]. split; reflexivity.
Qed.

(** Two paragraphs of the same size and different line heights: both get that of
    the last.  One without a line height gets it too. *)
Definition shared (h h' : lheight) : fdoc :=
  doc_of [st "s" (with_line (cl 2) h); st "t" (with_line (cl 2) h')] []
    [n_div None None [n_p (Some ["s"]) (cl 2) h [FText "one"]; FNode P (Some "q") None (Some ["t"]) None None (Some (cl 2)) (Some h') [FText "two"]]].
Theorem C49_line_taken : exists b os dd b' os' dd',
  validated (shared (LSize Cell 2) (LSize Cell 4)) b no_extent os /\
  convert_document (encoder_clock 0 0) (shared (LSize Cell 2) (LSize Cell 4)) = COk dd /\
  map (option_map Qred) (flat_map (dlines dd 1) (body_of dd)) = [Some 4; Some 4] /\
  validated (shared LNormal (LSize Cell 4)) b' no_extent os' /\
  convert_document (encoder_clock 0 0) (shared LNormal (LSize Cell 4)) = COk dd' /\
  map (option_map Qred) (flat_map (dlines dd' 1) (body_of dd')) = [Some 4; Some 4].
Proof.
  do 6 eexists. split; [valid|]. split; [vm_compute; reflexivity|]. split; [vm_compute; reflexivity|].
  split; [valid|]. split; [vm_compute; reflexivity|]. vm_compute. reflexivity.
Qed.

(** ** Other attributes *)

(** Named colours become the colours they name. *)
Theorem C50_colours : forall s, shade_of (convert_colour s) = shade_of s.
Proof. apply convert_colour_shade. Qed.

(** The value of an inherited attribute of every element of the body. *)
Theorem C50_inherited : forall c d b z os dd a, validated d b z os -> convert_document c d = COk dd -> only_divs d ->
  no_chains d -> plain_body b -> In a (map fst inherited_defaults) -> a <> MultiRowAlign ->
  Forall2 (alike a) (flat_map (dvalues dd a None) (body_of dd)) (flat_map (svalues a) os).
Proof.
  intros c d b z os dd a V H O N Pb Ha Nm.
  assert (K : kept a) by (split; auto; intros ->; cbn in Ha; intuition discriminate).
  apply validated_pass in V as (regions & el & e & w & w3 & Eb & Nd & Ca & T & Wr & RL & Mf & Cl & Pa).
  assert (U := unchained_heads _ N). assert (T2 := collect_tidy _ _ _ _ _ _ _ _ _ _ T Cl).
  apply collect_fields in Cl as (_ & Er & _ & Sp & Rf & _ & _ & _ & C). cbn [app] in Sp. rewrite Wr in Er, C.
  apply compute_style_spec in C as (fs & lh & _ & _ & _ & _ & _ & C). destruct (C a) as [Rl _].
  rewrite (proj1 (inherited_in a Ha)) in Rl.
  assert (Rn : real (e_computed e) a = None).
  { rewrite Rl. unfold compute_inherited. rewrite Sp, (specified_value _ _ _ _ _ U (proj1 T) Rf). unfold spec_attr. rewrite Pb. reflexivity. }
  assert (Cv : covers a (Some (e_computed e)) (push el e)) by (unfold covers; cbn; rewrite Er; exact I).
  rewrite (pass_all_values _ _ _ _ U Ha _ _ _ _ _ (T2 : tidy (heads d) regions (push el e)) Cv Pa). cbn [realp]. rewrite Rn.
  assert (H' := H). apply ConvertStyleProofs.convert_document_inv in H' as (Es & El & [(ks & E & Cv' & Ac)|(E & _ & _)]).
  - unfold body_of. rewrite E. unfold fkids in Cv'. rewrite Eb in Cv'.
    eapply convert_all_values; eauto.
    + intros s. apply own_alike; auto.
    + intros i. apply (region_alike d dd z regions a i); auto.
  - assert (X := kids_none _ _ _ H O E). unfold fkids in X. rewrite Eb in X. unfold body_of. rewrite E, X. constructor.
Qed.

(** Of those that are not inherited. *)
Theorem C50_plain : forall c d b z os dd a, validated d b z os -> convert_document c d = COk dd -> only_divs d ->
  no_chains d -> a = BackgroundColor \/ a = UnicodeBidi ->
  Forall2 (alike a) (flat_map (dplain dd a) (body_of dd)) (flat_map (svalues a) os).
Proof.
  intros c d b z os dd a V H O N Ha.
  assert (K : kept a) by (split; destruct Ha; subst; discriminate).
  assert (Hs : In a (map fst simple_defaults)) by (destruct Ha; subst; cbn; auto).
  apply validated_pass in V as (regions & el & e & w & w3 & Eb & Nd & Ca & T & Wr & RL & Mf & Cl & Pa).
  assert (U := unchained_heads _ N). assert (T2 := collect_tidy _ _ _ _ _ _ _ _ _ _ T Cl).
  rewrite (pass_all_plain _ _ _ _ U Hs _ _ _ _ _ (T2 : tidy (heads d) regions (push el e)) Pa).
  assert (H' := H). apply ConvertStyleProofs.convert_document_inv in H' as (Es & El & [(ks & E & Cv' & Ac)|(E & _ & _)]).
  - unfold body_of. rewrite E. unfold fkids in Cv'. rewrite Eb in Cv'.
    eapply convert_all_plain; eauto. intros s. apply own_alike; auto.
  - assert (X := kids_none _ _ _ H O E). unfold fkids in X. rewrite Eb in X. unfold body_of. rewrite E, X. constructor.
Qed.

(** Every reference of the result is to something that is there. *)
Theorem C50_references : forall c d b z os dd, validated d b z os -> convert_document c d = COk dd ->
  Forall (resolves dd) (flat_map drefs (body_of dd)) /\
  Forall (fun i => dict_get (dd_layout dd) i <> None) (flat_map dregions (body_of dd)) /\
  forall i g, In (i, g) (dd_layout dd) -> Forall (resolves dd) (map Own (refs (r_refs g))).
Proof.
  intros c d b z os dd V H.
  apply validated_pass in V as (regions & el & e & w & w3 & Eb & Nd & Ca & T & Wr & RL & Mf & Cl & Pa).
  assert (T2 := collect_tidy _ _ _ _ _ _ _ _ _ _ T Cl).
  destruct (pass_all_refs _ _ _ _ _ _ _ _ (T2 : tidy (heads d) regions (push el e)) Pa) as [R1 R2].
  apply ConvertStyleProofs.convert_document_inv in H as (Es & El & Hb).
  assert (St : forall i, get_style (heads d) i <> None -> resolves dd (Own i)).
  { intros i Hi. rewrite heads_style in Hi. unfold resolves. rewrite Es. unfold styles_in in Hi.
    destruct (fd_styling d) as [[|x l]|]; try (cbn in Hi; congruence). unfold convert_styling. rewrite dict_get_map.
    destruct (dict_get (x :: l) i); cbn; congruence. }
  assert (Rg : forall i, dict_get regions i <> None -> dict_get (dd_layout dd) i <> None).
  { intros i Hi. rewrite dict_get_in, Mf in Hi. rewrite El. unfold regions_in in Hi.
    destruct (fd_layout d) as [[|x l]|]; try (cbn in Hi; destruct Hi; fail). apply dict_get_in. auto. }
  split; [|split].
  - destruct Hb as [(ks & E & Cv & _)|(E & _ & _)]; unfold body_of; rewrite E; [|constructor].
    unfold fkids in Cv. rewrite Eb in Cv. assert (Pr := proj2 (convert_all_present _ _ _ _ _ _ _ Cv)).
    destruct (convert_all_refs _ _ _ _ _ _ _ Cv) as (A1 & A2 & _). apply Forall_forall. intros [i|v] Hr.
    + auto.
    + destruct (A2 _ Hr) as (x & Hx). exact (Pr _ _ Hx).
  - destruct Hb as [(ks & E & Cv & _)|(E & _ & _)]; unfold body_of; rewrite E; [|constructor].
    unfold fkids in Cv. rewrite Eb in Cv.
    destruct (convert_all_refs _ _ _ _ _ _ _ Cv) as (_ & _ & A3). apply Forall_forall. auto.
  - intros i g Hin. rewrite El in Hin.
    assert (Hin' : In (i, g) (regions_in d) \/ refs (r_refs g) = []).
    { unfold regions_in. destruct (fd_layout d) as [[|x l]|]; auto; cbn in Hin; destruct Hin as [Hin|[]]; inversion Hin; auto. }
    destruct Hin' as [Hin'|E]; [|rewrite E; constructor].
    assert (Hi : dict_get regions i <> None) by (rewrite dict_get_in, Mf; apply (in_map fst) in Hin'; auto).
    destruct (dict_get regions i) as [x|] eqn:Ex; [|congruence].
    destruct (RL _ _ Ex) as (g' & Hg & (_ & (s0 & S0 & Rf0) & _)).
    assert (g' = g).
    { assert (G1 := heads_region _ _ _ Nd Hg).
      assert (Hh : In (i, KRegion g) (heads d)) by (unfold heads; apply in_or_app; right; apply in_map_iff; exists (i, g); auto).
      assert (G2 := heads_region _ _ _ Nd Hh). congruence. }
    subst g'. apply collect_refs_value in Rf0 as (u & Hu & _); auto.
    apply Forall_forall. intros y Hy. apply in_map_iff in Hy. destruct Hy as (j & <- & Hj). apply St. eapply unfolds_all_resolve; eauto.
Qed.

(** No identifier is given to two styles, and every generated style is used. *)
Theorem C50_unique : forall c d dd, convert_document c d = COk dd -> NoDup (map fst (styles_in d)) ->
  NoDup (map fst (dd_styles dd)) /\ distinct (dd_gens dd) /\
  forall v l, In (v, l) (dd_gens dd) -> In (Gen v) (flat_map drefs (body_of dd)).
Proof.
  intros c d dd H N. apply ConvertStyleProofs.convert_document_inv in H as (Es & _ & Hb). split.
  - rewrite Es. unfold styles_in in N. unfold convert_styling. destruct (fd_styling d) as [[|x l]|].
    + repeat constructor. intros [].
    + rewrite map_map. cbn. exact N.
    + repeat constructor. intros [].
  - destruct Hb as [(ks & E & Ca & _)|(_ & -> & _)].
    + destruct (convert_all_tidy _ _ _ _ _ _ _ Ca) as [D P]; [constructor|]. split; auto. unfold body_of. rewrite E.
      intros v l Hv. destruct (P v) as [[]|Q]; auto. apply (in_map fst) in Hv. auto.
    + split; [constructor|]. intros v l [].
Qed.

Example C50_case : exists b os dd, validated source49 b no_extent os /\ only_divs source49 /\ no_chains source49 /\ plain_body b /\
  convert_document (encoder_clock 0 0) source49 = COk dd /\
  flat_map (svalues Color) os = [Some "red"; Some "red"; Some "red"; Some "red"] /\
  flat_map (dvalues dd Color None) (body_of dd) = [Some "#ff0000ff"; Some "#ff0000ff"; Some "#ff0000ff"; Some "#ff0000ff"] /\
  flat_map (dvalues dd TextAlign None) (body_of dd) = [Some "start"; Some "center"; Some "center"; Some "start"] /\
  flat_map (dplain dd BackgroundColor) (body_of dd) = [Some "transparent"; Some "#0000ffff"; Some "#0000ffff"; Some "transparent"].
Proof.
  do 3 eexists. split.
  { valid. }
  split; [intros b E; inversion E; subst; repeat constructor|].
  split; [intros i s Hin; cbn in Hin; repeat (destruct Hin as [Hin|Hin]; [inversion Hin; subst; reflexivity|]); destruct Hin|].
  split; [reflexivity|]. split; [vm_compute; reflexivity|]. repeat split; vm_compute; reflexivity.
Qed.

(** Two paragraphs of one size share a style. *)
Definition two_big : fdoc := doc_of [st "big" (setattr no_attrs Color (Some "red"))] []
  [n_div None None [n_p (Some ["big"]) (cl 2) LNormal [FText "one"]; n_p None one_cell LNormal [FText "two"];
                    n_p None (cl 2) LNormal [FText "three"]]].
Example C50_shared : exists dd, convert_document (encoder_clock 0 0) two_big = COk dd /\ NoDup (map fst (styles_in two_big)) /\
  map (fun p => Qred (fst p)) (dd_gens dd) = [200] /\
  flat_map drefs (body_of dd) = [Gen (200 # 1); Own "big"; Gen (200 # 1)].
Proof.
  eexists. split; [vm_compute; reflexivity|]. split; [nodup|]. split; vm_compute; reflexivity.
Qed.

(** ** What is lost of styles *)

(** A style a style refers to. *)
Definition chained : fdoc := doc_of [("s", mkStyle (Some ["t"]) no_attrs); st "t" (setattr no_attrs Color (Some "red"))] []
  [n_div None None [n_p (Some ["s"]) one_cell LNormal [FText "one"]]].
Theorem C50_chain_lost : exists b os dd, validated chained b no_extent os /\ plain_body b /\
  convert_document (encoder_clock 0 0) chained = COk dd /\
  flat_map (svalues Color) os = [None; Some "red"] /\ flat_map (dvalues dd Color None) (body_of dd) = [None; None].
Proof.
  do 3 eexists. split.
  { valid. }
  split; [reflexivity|]. split; [vm_compute; reflexivity|]. split; vm_compute; reflexivity.
Qed.

(** The style of the body. *)
Definition styled_body : fdoc :=
  mkFdoc Media (Some [st "t" (setattr no_attrs Color (Some "red"))]) None
    (Some (mkFbody (Some ["t"]) None None None [n_div None None [n_p None one_cell LNormal [FText "one"]]])).
Theorem C50_body_lost : exists b os dd, validated styled_body b no_extent os /\ no_chains styled_body /\
  convert_document (encoder_clock 0 0) styled_body = COk dd /\
  flat_map (svalues Color) os = [Some "red"; Some "red"] /\ flat_map (dvalues dd Color None) (body_of dd) = [None; None].
Proof.
  do 3 eexists. split.
  { valid. }
  split; [intros i s [Hin|[]]; inversion Hin; reflexivity|]. split; [vm_compute; reflexivity|]. split; vm_compute; reflexivity.
Qed.

(** multiRowAlign, which EBU-TT-D has (ebutts:multiRowAlign). *)
Definition rows : fdoc := doc_of [st "t" (setattr no_attrs MultiRowAlign (Some "start"))] []
  [n_div None None [n_p (Some ["t"]) one_cell LNormal [FText "one"]]].
Theorem C50_rows_lost : exists b os dd, validated rows b no_extent os /\ no_chains rows /\ plain_body b /\
  convert_document (encoder_clock 0 0) rows = COk dd /\
  flat_map (svalues MultiRowAlign) os = [Some "auto"; Some "start"] /\
  flat_map (dvalues dd MultiRowAlign None) (body_of dd) = [Some "auto"; Some "auto"].
Proof.
  do 3 eexists. split.
  { valid. }
  split; [intros i s [Hin|[]]; inversion Hin; reflexivity|]. split; [reflexivity|].
  split; [vm_compute; reflexivity|]. split; vm_compute; reflexivity.
Qed.

Print Assumptions C49_sizes.
Print Assumptions C49_pass.
Print Assumptions C49_succeeds.
Print Assumptions C49_lines.
Print Assumptions C49_width_lost.
Print Assumptions C49_line_lost.
Print Assumptions C49_line_taken.
Print Assumptions C50_colours.
Print Assumptions C50_inherited.
Print Assumptions C50_plain.
Print Assumptions C50_references.
Print Assumptions C50_unique.
Print Assumptions C50_chain_lost.
Print Assumptions C50_body_lost.
Print Assumptions C50_rows_lost.
