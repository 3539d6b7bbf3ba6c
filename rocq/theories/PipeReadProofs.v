(** Proofs for C55: what is to be read in a document with its times on the
    elements without elements in them, and in its conversion. *)

From Coq Require Import List ZArith String Bool QArith Lia.
From Verif Require Import ClockModel IdModel StyleModel StyleProofs PropsFont TimeModel TimeSpec TimingModel TimingSpec TimingProofs PropsTiming StyleModel StyleTree SegmentModel
  SegmentSpec SegmentProofs TimelineModel LookSpec LookProofs LookDressProofs ResegModel
  ConvertModel ConvertSpec ConvertProofs PropsConvert PipeModel PipeSpec PipeProofs.
From Verif Require ConvertStyleSpec ConvertStyleProofs ConvertPassProofs.
Import ListNotations.
Open Scope Z_scope.

Definition read_in (t : Z) (n : node) : list string := flat_map (lit t) (display None None (ntree n)).
Definition all_words (l : list seen) : list string := flat_map words l.

Lemma words_legible : forall l, all_words l <> [] -> existsb legible l = true.
Proof.
  induction l as [|[s| |k i r a kids] l IH]; intros H; cbn [existsb legible orb]; auto.
  - unfold all_words in H. cbn in H. unfold word in H. destruct (blank s); cbn; auto.
Qed.

Lemma words_app : forall a b, all_words (a ++ b) = (all_words a ++ all_words b)%list.
Proof. intros. apply flat_map_app. Qed.

Lemma read_all : forall t ns, flat_map (lit t) (flat_map (display None None) (map ntree ns)) = flat_map (read_in t) ns.
Proof. intros t. induction ns as [|n ns IH]; auto. cbn. rewrite flat_map_app, IH. auto. Qed.

(** Text and line breaks under one pair of times. *)
Lemma plain_read : forall t from lim kids, Forall not_node kids ->
  flat_map (lit t) (flat_map (display from lim) (map ntree kids)) =
  if match from with Some v => v <=? t | None => true end && match lim with Some v => t <? v | None => true end
  then flat_map (fun n => match n with Text s => word s | _ => [] end) kids else [].
Proof.
  intros t from lim kids F. set (c := _ && _). induction F as [|n ns Hn _ IH]; [destruct c; auto|].
  cbn [map flat_map]. rewrite flat_map_app, IH. destruct n as [s| |]; try contradiction; cbn [ntree display flat_map lit app]; rewrite ?app_nil_r.
  - fold c. destruct c; auto.
  - destruct c; auto.
Qed.
Lemma plain_words : forall t kids cs os, Forall not_node kids -> List.length cs = List.length kids ->
  all_words (appear_all t kids cs os) = flat_map (fun n => match n with Text s => word s | _ => [] end) kids.
Proof.
  intros t kids cs os F. revert cs os. induction F as [|n ns Hn _ IH]; intros cs os L; destruct cs as [|c cs]; cbn in L; try discriminate; auto.
  cbn [appear_all flat_map]. rewrite words_app, IH; [|lia]. destruct n as [s| |]; try contradiction; cbn; rewrite ?app_nil_r; auto.
Qed.

Definition fine (t : Z) (n : node) : Prop := forall c os, timed 0 0 None (timing n) c ->
  Forall2 matches (styling n) (firstn (List.length (styling n)) os) ->
  all_words (appear t n c os) = read_in t n /\
  (is_node n -> read_in t n <> [] -> exists cb ce, counted c cb ce /\ active t cb ce = true).

Lemma first_match : forall n ns os, Forall2 matches (styling n ++ flat_map styling ns) os ->
  Forall2 matches (styling n) (firstn (List.length (styling n)) os).
Proof.
  intros n ns os F. apply Forall2_app_inv_l in F as (o1 & o2 & F1 & _ & ->).
  rewrite (two_length _ _ _ _ _ F1), firstn_app, firstn_all, Nat.sub_diag. cbn [firstn]. rewrite app_nil_r. auto.
Qed.

Lemma fine_all : forall t ns, Forall (fine t) ns -> forall cs os, Forall2 (timed 0 0 None) (map timing ns) cs ->
  Forall2 matches (flat_map styling ns) os ->
  all_words (appear_all t ns cs os) = flat_map (read_in t) ns /\
  (Forall (fun n => no_word n = true) ns -> flat_map (read_in t) ns <> [] -> exists cb ce, counted_in cs cb ce /\ active t cb ce = true).
Proof.
  intros t ns F. induction F as [|n ns Hn _ IH]; intros cs os T M; inversion T as [|? c ? cs' Tc Tr]; subst.
  - split; auto. cbn. congruence.
  - cbn [flat_map] in M. destruct (Hn c os Tc (first_match _ _ _ M)) as [W A]. destruct (IH _ _ Tr (match_rest _ _ _ M)) as [W' A'].
    cbn [appear_all flat_map]. rewrite words_app, W, W'. split; auto. intros Nw R. inversion Nw as [|? ? N1 N2]; subst.
    destruct (read_in t n) as [|s l] eqn:E.
    + destruct (A' N2 R) as (cb & ce & C & Ac). exists cb, ce. split; auto. apply counted_later. auto.
    + destruct n as [s0| |k i r st b e kids].
      * cbn in E. unfold word in E. cbn in N1. rewrite N1 in E. discriminate.
      * discriminate.
      * destruct A as (cb & ce & C & Ac); [exact Logic.I|discriminate|]. exists cb, ce. split; auto. apply counted_cons. auto.
Qed.

Lemma leafy_fine : forall t lo n, leafy lo n -> fine t n.
Proof.
  intros t lo. induction n as [s| |k i r st b e kids IH] using node_ind2; intros L c os T M.
  - split; [|intros []]. cbn. rewrite !app_nil_r. auto.
  - split; [|intros []]. auto.
  - cbn [styling List.length] in M. destruct os as [|o os]; [inversion M|]. cbn [firstn] in M. inversion M as [|? ? ? ? Mo _]; subst.
    inversion Mo as [? ? ? ? el oks Mk]; subst. assert (NN := leafy_nn _ _ L).
    inversion L as [| |? ? ? ? b0 e0 ? Hk Nn Hb He Hp Hbad|? ? ? ? ? Ro Nw Lk]; subst.
    + destruct (given_us e0 _ eq_refl Hp) as [G Ti]. cbn [timing] in T.
      destruct (timed_leaf_inv _ _ _ _ _ _ Nn T G) as (cks & -> & F). rewrite Ti, (offset_us _ _ eq_refl), Z.add_0_l in *.
      assert (Ln : List.length cks = List.length kids) by (apply two_length in F; rewrite map_length in F; auto).
      rewrite appear_eq. unfold read_in. cbn [ntree us option_map display start stop at_].
      rewrite plain_read; auto. rewrite !Z.add_0_l.
      change ((ta_us b0 <=? t) && (t <? ta_us e0)) with (active t (ta_us b0) (Some (ta_us e0))).
      assert (Pw := plain_words t kids cks oks Nn Ln).
      destruct (active t (ta_us b0) (Some (ta_us e0))) eqn:Ac; cbn [andb].
      * split.
        -- destruct (existsb legible (appear_all t kids cks oks)) eqn:Le.
           ++ unfold all_words at 1. cbn [flat_map words]. rewrite app_nil_r. exact Pw.
           ++ rewrite <- Pw. destruct (all_words (appear_all t kids cks oks)) eqn:E; auto. rewrite words_legible in Le; [discriminate|]. rewrite E. discriminate.
        -- intros _ _. exists (ta_us b0), (Some (ta_us e0)). split; auto. exists (Some b0), (Some e0), cks. split; auto.
           destruct (badly_timed (Some b0) (Some e0)) eqn:B; auto. specialize (Hbad eq_refl). unfold active in Ac.
           apply andb_true_iff in Ac as [A1 A2]. apply Z.leb_le in A1. apply Z.ltb_lt in A2. lia.
      * split; auto. congruence.
    + assert (NS := timed_nested _ _ _ _ _ T NN _ (sub_refl _)). cbn [timing] in T. inversion T as [|? ? ? cb ce cks F E B]; subst.
      cbn [tighten eff] in F. change (offset None) with 0 in F. cbn [Z.add] in F.
      assert (Fk : Forall (fine t) kids) by (rewrite Forall_forall in *; auto).
      destruct (fine_all t kids Fk cks oks F Mk) as [W A]. rewrite appear_eq.
      assert (Er : read_in t (Node k i r st None None kids) = flat_map (read_in t) kids).
      { unfold read_in at 1. cbn [ntree us option_map display start stop at_]. apply read_all. }
      rewrite Er. destruct (flat_map (read_in t) kids) as [|s l] eqn:Es.
      * split; [|congruence]. destruct (active t cb ce && existsb legible (appear_all t kids cks oks)); auto.
        unfold all_words at 1. cbn [flat_map words]. rewrite app_nil_r. exact W.
      * destruct (A Nw) as (kb & ke & C & Ac); [discriminate|]. assert (An := nested_active _ _ _ _ _ _ _ _ NS C Ac). rewrite An.
        rewrite words_legible; [|congruence]. cbn [andb]. split.
        -- unfold all_words at 1. cbn [flat_map words]. rewrite app_nil_r. exact W.
        -- intros _ _. exists cb, ce. split; auto. exists None, None, cks. auto.
Qed.

(** ** Documents *)

Lemma leafy_read : forall lo bs z d t, leafy_doc lo bs d -> validates z d = true ->
  all_words (looks_at None z d t) = match t_body d with Some b => flat_map (read_in t) (bd_kids b) | None => [] end.
Proof.
  intros lo bs z d t (_ & _ & Ld) V. unfold looks_at, validates in *. destruct (t_body d) as [b|] eqn:Bd; auto.
  destruct (Ld _ eq_refl) as (Lk & Ro & Un).
  apply andb_true_iff in V as [V V3]. apply andb_true_iff in V as [_ V2].
  destruct (validate None (Some (timing_body b))) as [[[cb ce] c]|] eqn:Vt; [|discriminate].
  destruct (validate_styles (doc_table d b) z (styling_body b)) as [[regions o]|] eqn:Vs; [|discriminate].
  destruct (styles_match _ _ _ _ _ Vs) as (el & os & -> & M).
  apply C12_compositional in Vt. destruct Vt as [T _].
  destruct (bd_kids b) as [|n0 ns0] eqn:Ek.
  { cbn [flat_map]. unfold appear_body. destruct c as [? ? ? ? cs|]; auto. rewrite Ek. destruct (active _ _ _); auto. }
  rewrite <- Ek in *. destruct Un as (U1 & U2 & U3); [congruence|].
  assert (NN : nn_body (timing_body b)).
  { unfold timing_body. rewrite U1, U2, U3. split; [exact Logic.I|]. split; [exact Logic.I|]. split; [exact Logic.I|]. cbn [b_kids].
    apply Forall_forall. intros x Hx. apply in_map_iff in Hx as (n & <- & Hn). rewrite Forall_forall in Lk. eapply leafy_nn; eauto. }
  assert (NS := body_nested _ _ _ (Z.le_refl 0) NN T _ (sub_refl _)).
  assert (exists cb2 ce2 cks, c = CTimed None None cb2 ce2 cks /\ Forall2 (timed 0 0 None) (map timing (bd_kids b)) cks) as (cb2 & ce2 & cks & -> & Fc).
  { unfold timing_body in T. rewrite U1, U2, U3 in T. inversion T as [cb2 ce2 cks N2 F2 E2 B2|cb2 cks N2 F2 B2]; subst; [|discriminate]. eauto 6. }
  assert (Fk : Forall (fine t) (bd_kids b)) by (eapply Forall_impl; [|exact Lk]; intros n; apply leafy_fine).
  destruct (fine_all t _ Fk cks os Fc M) as [W A]. cbn [appear_body].
  destruct (flat_map (read_in t) (bd_kids b)) as [|s l] eqn:Es.
  - destruct (active t cb2 ce2); auto.
  - destruct A as (kb & ke & C & Ac); [|discriminate|].
    + apply Forall_forall. intros n Hn. rewrite Forall_forall in Ro. specialize (Ro _ Hn). destruct n; auto. discriminate.
    + rewrite (nested_active _ _ _ _ _ _ _ _ NS C Ac). auto.
Qed.

Lemma leafy_display : forall lo n, leafy lo n -> Forall ms_piece (display None None (ntree n)).
Proof.
  intros lo. induction n as [s| |k i r st b e kids IH] using node_ind2; intros L.
  - cbn. repeat constructor.
  - cbn. repeat constructor.
  - apply Forall_forall. intros p Hp. cbn [ntree display] in Hp. apply in_flat_map in Hp as (x & Hx & Hp). apply in_map_iff in Hx as (n & <- & Hn).
    inversion L as [| |? ? ? ? b0 e0 ? Hk Nn Hb He Hps Hbad|? ? ? ? ? Ro Nw Lk]; subst.
    + rewrite Forall_forall in Nn. specialize (Nn _ Hn). destruct Hb as (_ & _ & Db), He as (_ & _ & De).
      destruct n as [s| |]; try contradiction; destruct Hp as [<-|[]]; cbn; rewrite ?Z.add_0_l; auto.
    + rewrite Forall_forall in IH, Lk. specialize (IH _ Hn (Lk _ Hn)). rewrite Forall_forall in IH. apply IH. exact Hp.
Qed.

Lemma lit_shift : forall zero t p, lit (t - zero) (shift (fun v => v - zero) p) = lit t p.
Proof.
  intros zero t [[[s|] b] e]; auto. cbn [shift lit].
  replace (match option_map (fun v => v - zero) b with Some v => v <=? t - zero | None => true end) with (match b with Some v => v <=? t | None => true end).
  2: { destruct b; cbn; auto. apply eq_iff_eq_true. rewrite !Z.leb_le. lia. }
  replace (match option_map (fun v => v - zero) e with Some v => t - zero <? v | None => true end) with (match e with Some v => t <? v | None => true end); auto.
  destruct e; cbn; auto. apply eq_iff_eq_true. rewrite !Z.ltb_lt. lia.
Qed.

Lemma node_room_div : forall n os, node_room Body n = true -> is_div (with_sizes n os) = true.
Proof.
  intros [s| |k i r st b e kids] os H; try discriminate. destruct (with_sizes_node k i r st b e kids os) as (sz & ln & oks & ->). destruct k; try discriminate; auto.
Qed.

(** The document as conversion sees it. *)
Lemma binding_parts : forall u b, t_body (u_doc u) = Some b -> exists os,
  fd_body (binding u) = Some (mkFbody (bd_style b) (bd_begin b) (bd_end b) (bd_dur b) (all_with_sizes (bd_kids b) os)) /\
  forall regions el os', validate_styles (doc_table (u_doc u) b) (u_size u) (styling_body b) = SOk (regions, SOut Body None el os') -> os = os'.
Proof.
  intros u b E. eexists. unfold binding. cbn [fd_body]. rewrite E. cbn [option_map]. split; [reflexivity|]. intros regions el os' V. rewrite V. auto.
Qed.

Lemma shows_read : forall lo bs instant zero u dd t, leafy_doc lo bs (u_doc u) ->
  encode instant zero u = COk dd ->
  on_screen (media bs zero t) dd = match t_body (u_doc u) with Some b => flat_map (read_in t) (bd_kids b) | None => [] end.
Proof.
  intros lo bs instant zero u dd t (Eb & _ & Ld) H. unfold encode in H.
  destruct (t_body (u_doc u)) as [b|] eqn:Bd.
  2: { apply convert_document_inv in H. unfold binding in H. cbn [fd_body] in H. rewrite Bd in H. cbn in H. destruct H as [H _].
       unfold on_screen, result_display. rewrite H. auto. }
  destruct (Ld _ eq_refl) as (Lk & Ro & Un). destruct (binding_parts _ _ Bd) as (os & Fb & _).
  destruct (bd_kids b) as [|n0 ns0] eqn:Ek.
  { apply convert_document_inv in H. rewrite Fb in H. cbn in H. destruct H as [H _]. unfold on_screen, result_display. rewrite H. auto. }
  rewrite <- Ek in *. destruct Un as (U1 & U2 & U3); [congruence|]. rewrite U1, U2, U3 in Fb.
  assert (O : only_divs (binding u)).
  { intros b' E'. rewrite Fb in E'. inversion E'; subst. cbn [fb_kids]. apply Forall_forall. intros f Hf. destruct (sizes_in _ _ _ Hf) as (n & os' & Hn & ->).
    rewrite Forall_forall in Ro. apply node_room_div. auto. }
  assert (Ti : times_in_p_and_span (binding u)).
  { intros b' E'. rewrite Fb in E'. inversion E'; subst. cbn. split; auto. split; auto. split; auto. apply Forall_forall. intros f Hf.
    destruct (sizes_in _ _ _ Hf) as (n & os' & Hn & ->). rewrite Forall_forall in Lk. eapply leafy_one_level; eauto. }
  assert (Ol : one_level_doc (binding u)).
  { intros b' E'. rewrite Fb in E'. inversion E'; subst. cbn [fb_kids]. apply Forall_forall. intros f Hf.
    destruct (sizes_in _ _ _ Hf) as (n & os' & Hn & ->). rewrite Forall_forall in Lk. eapply leafy_one_level; eauto. }
  assert (Sd : source_display (binding u) = flat_map (display None None) (map ntree (bd_kids b))).
  { unfold source_display. rewrite Fb. cbn [fb_begin fb_kids us option_map]. rewrite sized_tree. unfold body_end. cbn. auto. }
  assert (Bs : fd_base (binding u) = bs) by exact Eb.
  unfold on_screen. destruct bs.
  - rewrite (C39_clock _ _ _ Bs O Ti Ol H), Sd. cbn [media]. rewrite <- read_all.
    assert (Q : Forall ms_piece (flat_map (display None None) (map ntree (bd_kids b)))).
    { apply Forall_forall. intros p Hp. apply in_flat_map in Hp as (x & Hx & Hp). apply in_map_iff in Hx as (n & <- & Hn).
      rewrite Forall_forall in Lk. assert (Q := leafy_display _ _ (Lk _ Hn)). rewrite Forall_forall in Q. auto. }
    clear Sd. induction Q as [|p l Hp _ IH]; auto. cbn [map flat_map]. rewrite IH. f_equal.
    rewrite <- (lit_shift (ms_up zero) t p). f_equal. destruct p as [[s b0] e0]. destruct Hp as [P1 P2].
    assert (Mv : forall v, v mod 1000 = 0 -> trunc_ms (v + gap (encoder_clock instant zero)) = v - ms_up zero).
    { intros v Hv. replace (gap (encoder_clock instant zero)) with (- zero) by reflexivity. unfold ms_up, trunc_ms.
      rewrite Z.add_mod, Hv by lia. rewrite Z.add_0_l, Z.mod_mod by lia. lia. }
    cbn [shift]. destruct b0, e0; cbn [option_map] in *; rewrite ?Mv; auto.
  - rewrite (C39_media _ _ _ Bs O Ti H), Sd. cbn [media]. apply read_all.
Qed.

(** ** Conversion succeeds *)

Lemma head_attrs : forall {B} (d : docu B) b i f, fontSize (attrs_of (doc_table d b) i) = Some f ->
  exists j s, In (j, s) (els (t_styling d)) /\ fontSize (s_attrs s) = Some f.
Proof.
  intros B d b i f H. unfold attrs_of in H. destruct (get_style (doc_table d b) i) as [s|] eqn:G; [|discriminate].
  unfold get_style in G. destruct (dict_get (doc_table d b) i) as [k|] eqn:D; [|discriminate]. destruct k as [s'| |]; inversion G; subst.
  apply ConvertPassProofs.dict_get_In in D. unfold doc_table, head_table in D. apply in_app_or in D as [D|D].
  - apply in_app_or in D as [D|D]; apply in_map_iff in D as ([j x] & E & Hin); inversion E; subst. eauto.
  - apply in_map_iff in D as (x & E & _). discriminate.
Qed.

Lemma leafy_sized : forall lo bs u, leafy_doc lo bs (u_doc u) -> validates (u_size u) (u_doc u) = true -> pos_size (u_size u) ->
  sized_doc (binding u).
Proof.
  intros lo bs u (_ & Gs & _) V Ps b' Eb'. unfold validates in V. destruct (t_body (u_doc u)) as [b|] eqn:Bd.
  2: { unfold binding in Eb'. cbn in Eb'. rewrite Bd in Eb'. discriminate. }
  apply andb_true_iff in V as [V V3]. destruct (validate_styles (doc_table (u_doc u) b) (u_size u) (styling_body b)) as [[regions o]|] eqn:Vs; [|discriminate].
  destruct (styles_match _ _ _ _ _ Vs) as (el & os & -> & M). destruct (binding_parts _ _ Bd) as (os' & Fb & Eo).
  rewrite (Eo _ _ _ Vs) in Fb. rewrite Fb in Eb'. inversion Eb'; subst b'. cbn [fb_kids].
  apply (ConvertPassProofs.carries_sized _ _ (sizes_carried _ _ M)).
  assert (Sp : ConvertPassProofs.spec_pos (doc_table (u_doc u) b)).
  { intros i f Hf. destruct (head_attrs _ _ _ _ Hf) as (j & s & Hj & E). eapply Gs; eauto. }
  unfold validate_styles in Vs. destruct (check_styles _ _) as [[]|]; [|discriminate]. cbn [sbind] in Vs.
  destruct (pass_regions _ _ _ (mkW sstart [] None)) as [[rs w]|] eqn:Pr; [|discriminate]. cbn [sbind] in Vs.
  destruct (style_pass _ _ rs None _ w) as [[o' w']|] eqn:S; [|discriminate]. cbn [sbind] in Vs. inversion Vs; subst rs o'.
  destruct (pass_regions_linked _ _ _ (mkW sstart [] None) _ _ (settled_start _) eq_refl eq_refl Pr) as (A & Bw & _ & _ & Li).
  assert (RG := ConvertPassProofs.regions_are_good _ _ _ Ps Sp Li).
  assert (T : tidy (doc_table (u_doc u) b) regions w) by (split; auto; rewrite Bw; exact Logic.I).
  destruct (ConvertPassProofs.pass_good _ _ _ Ps Sp RG _ None _ _ _ T ltac:(intros x Hx; discriminate) S) as [_ G].
  inversion G; subst. auto.
Qed.

Lemma leafy_encodes : forall lo bs instant zero u, leafy_doc lo bs (u_doc u) -> validates (u_size u) (u_doc u) = true -> pos_size (u_size u) ->
  (bs = Clock -> 0 <= zero <= lo) -> exists dd, encode instant zero u = COk dd.
Proof.
  intros lo bs instant zero u Ld V Ps Hz. unfold encode. apply C39_succeeds; [eapply leafy_sized; eauto|].
  destruct Ld as (Eb & _ & Ld). intros b' E' _. destruct (t_body (u_doc u)) as [b|] eqn:Bd.
  2: { unfold binding in E'. cbn in E'. rewrite Bd in E'. discriminate. }
  destruct (Ld _ eq_refl) as (Lk & Ro & _). destruct (binding_parts _ _ Bd) as (os & Fb & _).
  unfold doc_times. rewrite Fb in *. inversion E'; subst b'. cbn [fb_kids]. rewrite Forall_forall in Lk, Ro. split; [|split].
  - apply Forall_forall. intros f Hf. destruct (sizes_in _ _ _ Hf) as (n & os' & Hn & ->). rewrite <- room_fits_d. auto.
  - apply Forall_forall. intros f Hf. destruct (sizes_in _ _ _ Hf) as (n & os' & Hn & ->). eapply leafy_flat; eauto.
  - intros Bc. assert (bs = Clock) by (rewrite <- Eb; exact Bc). destruct (Hz H) as [Z1 Z2].
    apply Forall_forall. intros t Ht. apply in_flat_map in Ht as (f & Hf & Ht). destruct (sizes_in _ _ _ Hf) as (n & os' & Hn & ->).
    assert (Q := leafy_times _ _ (Lk _ Hn) os'). rewrite Forall_forall in Q. destruct (Q _ Ht) as [Q1 Q2].
    unfold expressible. replace (gap (encoder_clock instant zero)) with (- zero) by reflexivity.
    replace (k_local (encoder_clock instant zero)) with zero by reflexivity.
    unfold min_td, max_td, us_per_day, us_per_s, h100 in *. lia.
Qed.
