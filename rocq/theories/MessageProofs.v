(** Proofs about live messages. *)

From Coq Require Import List String Ascii Bool Arith Lia ZArith.
From Verif Require Import MessageModel MessageSpec.
Import ListNotations.
Open Scope string_scope.
Open Scope list_scope.

Lemma eqb_CR : forall a, Ascii.eqb a CR = false -> a <> CR.
Proof. intros a H E. subst. rewrite Ascii.eqb_refl in H. discriminate. Qed.

Lemma legal_printable : forall a, legal a = true <-> printable a.
Proof.
  intros a. unfold legal, printable. rewrite !orb_true_iff, !Ascii.eqb_eq, Nat.leb_le. tauto.
Qed.

Lemma legal_all : forall l, forallb legal l = true <-> Forall printable l.
Proof.
  intros l. rewrite forallb_forall, Forall_forall.
  split; intros H a Ha; apply legal_printable; auto.
Qed.

Definition wr (a : ascii) : wchar := if escaped a then Ref a else Lit a.
Lemma write_text_map : forall s, write_text s = map wr (chars s).
Proof. reflexivity. Qed.
Lemma char_wr : forall a, char_of (wr a) = a.
Proof. intros a. unfold wr. destruct (escaped a); reflexivity. Qed.
Lemma wr_CR : wr CR = Lit CR. Proof. reflexivity. Qed.
Lemma wr_LF : wr LF = Lit LF. Proof. reflexivity. Qed.

Lemma eol_other : forall a r, a <> CR -> eol (wr a :: r) = wr a :: eol r.
Proof.
  intros a r H. unfold wr. destruct (escaped a); cbn [eol]; auto.
  destruct (Ascii.eqb a CR) eqn:E; auto. apply Ascii.eqb_eq in E. contradiction.
Qed.

Lemma eol_CR : forall r, eol (Lit CR :: r) =
  Lit LF :: match r with
            | Lit b :: r' => if Ascii.eqb b LF then eol r' else eol r
            | _ => eol r
            end.
Proof. reflexivity. Qed.

(** What [eol] makes of written characters. *)
Lemma newlines_eol : forall l t, newlines l t -> eol (map wr l) = map wr t.
Proof.
  intros l t H. induction H.
  - reflexivity.
  - cbn [map]. rewrite wr_CR, wr_LF, eol_CR, Ascii.eqb_refl, IHnewlines. reflexivity.
  - cbn [map]. rewrite wr_CR, wr_LF, eol_CR. f_equal.
    destruct r as [|b r]; [exact IHnewlines|]. cbn [map] in *.
    assert (Hb : b <> LF) by (intro; subst; apply H0; reflexivity).
    remember (wr b) as wb. destruct wb as [c|c]; [|exact IHnewlines].
    assert (c = b) by (unfold wr in Heqwb; destruct (escaped b); inversion Heqwb; auto). subst c.
    destruct (Ascii.eqb b LF) eqn:E; [apply Ascii.eqb_eq in E; contradiction|exact IHnewlines].
  - cbn [map]. rewrite eol_other by auto. rewrite IHnewlines. reflexivity.
Qed.

Lemma newlines_total_aux : forall n l, List.length l <= n -> exists t, newlines l t.
Proof.
  induction n as [|n IH]; intros l H.
  - destruct l; [|cbn in H; lia]. exists []. constructor.
  - destruct l as [|a r]; [exists []; constructor|]. cbn in H.
    destruct (Ascii.eqb a CR) eqn:E.
    + apply Ascii.eqb_eq in E. subst a.
      destruct r as [|b r].
      * exists [LF]. apply nl_cr; [constructor|discriminate].
      * destruct (Ascii.eqb b LF) eqn:Eb.
        -- apply Ascii.eqb_eq in Eb. subst b. cbn in H.
           destruct (IH r ltac:(lia)) as (t & Ht). exists (LF :: t). constructor. auto.
        -- destruct (IH (b :: r) ltac:(lia)) as (t & Ht). exists (LF :: t). apply nl_cr; auto.
           cbn. intro X. inversion X. subst. rewrite Ascii.eqb_refl in Eb. discriminate.
    + destruct (IH r ltac:(lia)) as (t & Ht). exists (a :: t). apply nl_other; auto. apply eqb_CR. auto.
Qed.
Lemma newlines_total : forall l, exists t, newlines l t.
Proof. intros l. apply (newlines_total_aux (List.length l)). lia. Qed.

Lemma newlines_fun : forall l t, newlines l t -> forall t', newlines l t' -> t = t'.
Proof.
  induction 1; intros t' H'; inversion H'; subst; try congruence; try (f_equal; auto).
  - cbn in *. congruence.
  - cbn in *. congruence.
Qed.

Lemma newlines_id : forall l, ~ In CR l -> newlines l l.
Proof.
  induction l as [|a r IH]; intros H; constructor.
  - apply IH. intro. apply H. right. auto.
  - intro. apply H. left. auto.
Qed.

Lemma newlines_noCR : forall l t, newlines l t -> ~ In CR t.
Proof.
  induction 1; intros I; cbn in *; try tauto; destruct I as [I|I]; try discriminate; auto.
Qed.

Lemma newlines_printable : forall l t, newlines l t -> (Forall printable l <-> Forall printable t).
Proof.
  assert (L : printable LF) by (right; left; auto).
  assert (C : printable CR) by (right; right; left; auto).
  induction 1.
  - tauto.
  - rewrite !Forall_cons_iff. tauto.
  - rewrite !Forall_cons_iff. tauto.
  - rewrite !Forall_cons_iff. tauto.
Qed.

Lemma newlines_nil : forall l t, newlines l t -> (l = [] <-> t = []).
Proof. induction 1; split; intros; try discriminate; auto. Qed.

Lemma map_char_wr : forall l, map char_of (map wr l) = l.
Proof. induction l as [|a l IH]; cbn; [reflexivity|]. rewrite char_wr, IH. reflexivity. Qed.

Lemma chars_of : forall l, chars (string_of_list_ascii l) = l.
Proof. apply list_ascii_of_string_of_list_ascii. Qed.
Lemma of_chars : forall s, string_of_list_ascii (chars s) = s.
Proof. apply string_of_list_ascii_of_string. Qed.
Lemma chars_nil : forall s, chars s = [] <-> s = "".
Proof. intros []; cbn; split; congruence. Qed.

(** ** Text *)

Lemma read_written : forall s, xml_text s -> exists t, read_text (write_text s) = Some t /\ lines_of s t.
Proof.
  intros s H. destruct (newlines_total (chars s)) as (l & Hl).
  exists (string_of_list_ascii l). unfold lines_of. rewrite chars_of. split; auto.
  unfold read_text, read_chars. rewrite write_text_map, (newlines_eol _ _ Hl), map_char_wr.
  assert (P : Forall printable l) by (apply (newlines_printable _ _ Hl); auto).
  apply legal_all in P. rewrite P. reflexivity.
Qed.

Lemma read_written_bad : forall s, ~ xml_text s -> read_text (write_text s) = None.
Proof.
  intros s H. destruct (newlines_total (chars s)) as (l & Hl).
  unfold read_text, read_chars. rewrite write_text_map, (newlines_eol _ _ Hl), map_char_wr.
  destruct (forallb legal l) eqn:E; auto.
  apply legal_all in E. exfalso. apply H. apply (newlines_printable _ _ Hl). auto.
Qed.

Lemma read_written_clean : forall s, clean s -> read_text (write_text s) = Some s.
Proof.
  intros s [H C]. destruct (read_written s H) as (t & E & L). rewrite E. f_equal.
  unfold lines_of in L.
  rewrite <- (of_chars t), <- (of_chars s).
  assert (X : chars t = chars s) by (apply eq_sym, (newlines_fun _ _ (newlines_id _ C)); auto).
  rewrite X. reflexivity.
Qed.

Lemma xml_text_dec : forall s, xml_text s \/ ~ xml_text s.
Proof.
  intros s. destruct (forallb legal (chars s)) eqn:E.
  - left. apply legal_all. auto.
  - right. intro H. apply legal_all in H. congruence.
Qed.

(** ** Attributes *)

Definition sp (a : ascii) : ascii := if Ascii.eqb a TAB || Ascii.eqb a LF then SP else a.

Lemma attr_wr : forall a, char_of (attr_char (wr a)) = sp a.
Proof.
  intros a. unfold wr, sp. destruct (escaped a) eqn:E; cbn [attr_char char_of].
  - destruct (Ascii.eqb a TAB) eqn:T; [apply Ascii.eqb_eq in T; subst; discriminate|].
    destruct (Ascii.eqb a LF) eqn:L; [apply Ascii.eqb_eq in L; subst; discriminate|]. reflexivity.
  - destruct (Ascii.eqb a TAB || Ascii.eqb a LF)%bool; reflexivity.
Qed.

Lemma map_attr_wr : forall l, map char_of (map attr_char (map wr l)) = map sp l.
Proof. induction l as [|a l IH]; [reflexivity|]. cbn [map]. rewrite attr_wr, IH. reflexivity. Qed.

Lemma printable_sp : forall a, printable a <-> printable (sp a).
Proof.
  intros a. unfold sp. destruct (Ascii.eqb a TAB) eqn:T; [apply Ascii.eqb_eq in T; subst|].
  - cbn. split; intros _; [right; right; right; cbn; lia|left; auto].
  - destruct (Ascii.eqb a LF) eqn:L; [apply Ascii.eqb_eq in L; subst|]; cbn; [|tauto].
    split; intros _; [right; right; right; cbn; lia|right; left; auto].
Qed.

Lemma printable_map_sp : forall l, Forall printable l <-> Forall printable (map sp l).
Proof.
  intros l. rewrite !Forall_forall. split; intros H a Ha.
  - apply in_map_iff in Ha. destruct Ha as (b & <- & Hb). apply (proj1 (printable_sp b)), H, Hb.
  - apply (proj2 (printable_sp a)), H, in_map, Ha.
Qed.

Lemma spaced_sp : forall l,
  Forall2 (fun a b => (a = TAB \/ a = LF) /\ b = SP \/ a <> TAB /\ a <> LF /\ b = a) l (map sp l).
Proof.
  induction l as [|a l IH]; cbn [map]; constructor; auto. unfold sp.
  destruct (Ascii.eqb a TAB) eqn:T; [apply Ascii.eqb_eq in T; left; auto|].
  destruct (Ascii.eqb a LF) eqn:L; [apply Ascii.eqb_eq in L; left; auto|].
  right. cbn. repeat split; auto; intro; subst; rewrite Ascii.eqb_refl in *; discriminate.
Qed.

Lemma attr_written : forall s, xml_text s -> exists t, read_attr (write_text s) = Some t /\ spaced s t.
Proof.
  intros s H. destruct (newlines_total (chars s)) as (l & Hl).
  exists (string_of_list_ascii (map sp l)). split.
  - unfold read_attr, read_chars. rewrite write_text_map, (newlines_eol _ _ Hl), map_attr_wr.
    assert (P : Forall printable (map sp l)) by (apply (proj1 (printable_map_sp l)), (newlines_printable _ _ Hl); auto).
    apply legal_all in P. rewrite P. reflexivity.
  - exists l. split; auto. rewrite chars_of. apply spaced_sp.
Qed.

Lemma attr_written_bad : forall s, ~ xml_text s -> read_attr (write_text s) = None.
Proof.
  intros s H. destruct (newlines_total (chars s)) as (l & Hl).
  unfold read_attr, read_chars. rewrite write_text_map, (newlines_eol _ _ Hl), map_attr_wr.
  destruct (forallb legal (map sp l)) eqn:E; auto.
  apply legal_all in E. apply (proj2 (printable_map_sp l)) in E.
  exfalso. apply H. apply (newlines_printable _ _ Hl). auto.
Qed.

Lemma big_not : forall a, (32 <= nat_of_ascii a)%nat -> a <> CR /\ a <> LF /\ a <> TAB.
Proof. intros a H. repeat split; intro; subst; cbn in H; lia. Qed.

Lemma clean_sid_xml : forall s, clean_sid s -> xml_text s /\ ~ In CR (chars s).
Proof.
  intros s [_ F]. split.
  - eapply Forall_impl; [|exact F]. intros a H. right. right. right. exact H.
  - intro I. rewrite Forall_forall in F. apply F in I. cbn in I. lia.
Qed.

Lemma attr_written_clean : forall s, clean_sid s -> read_attr (write_text s) = Some s.
Proof.
  intros s H. destruct (clean_sid_xml s H) as [X C].
  unfold read_attr, read_chars. rewrite write_text_map, (newlines_eol _ _ (newlines_id _ C)), map_attr_wr.
  assert (E : map sp (chars s) = chars s).
  { destruct H as [_ F]. induction F as [|a l Ha F IH]; auto. cbn [map].
    destruct (big_not a Ha) as (_ & L & T). unfold sp at 1.
    destruct (Ascii.eqb a TAB) eqn:E1; [apply Ascii.eqb_eq in E1; contradiction|].
    destruct (Ascii.eqb a LF) eqn:E2; [apply Ascii.eqb_eq in E2; contradiction|]. cbn. f_equal. exact (IH (fun i => C (or_intror i))). }
  rewrite E. assert (P : forallb legal (chars s) = true) by (apply legal_all; exact X).
  rewrite P, of_chars. reflexivity.
Qed.

(** ** Messages *)

Lemma eqb_empty : forall s, s <> "" -> String.eqb s "" = false.
Proof. intros s H. apply String.eqb_neq. auto. Qed.

Lemma all_some_map : forall {A B} (f : A -> option B) (g : A -> B) l,
  (forall a, In a l -> f a = Some (g a)) -> all_some (map f l) = Some (map g l).
Proof.
  intros A B f g. induction l as [|a l IH]; intros H; [reflexivity|].
  cbn [map all_some]. rewrite (H a (or_introl eq_refl)), IH; [reflexivity|].
  intros b Hb. apply H. right. auto.
Qed.

Lemma all_some_none : forall {A B} (f : A -> option B) l a, In a l -> f a = None -> all_some (map f l) = None.
Proof.
  intros A B f. induction l as [|b l IH]; intros a Ha E; [destruct Ha|].
  cbn [map all_some]. destruct Ha as [->|Ha]; [rewrite E; reflexivity|].
  rewrite (IH a Ha E). destruct (f b); reflexivity.
Qed.

Lemma all_some_rel : forall {A B} (f : A -> option B) (R : A -> B -> Prop) l,
  (forall a, In a l -> exists b, f a = Some b /\ R a b) ->
  exists t, all_some (map f l) = Some t /\ Forall2 R l t.
Proof.
  intros A B f R. induction l as [|a l IH]; intros H; [exists []; split; constructor|].
  destruct (H a (or_introl eq_refl)) as (b & E & Rb).
  destruct IH as (t & Et & F); [intros; apply H; right; auto|].
  exists (b :: t). cbn [map all_some]. rewrite E, Et. split; [reflexivity|constructor; auto].
Qed.

Lemma write_nil : forall s, write_text s = [] <-> s = "".
Proof. intros []; cbn; split; congruence. Qed.

Lemma merge_text : forall s, s <> "" -> merge [] [WText (write_text s)] = [inl (write_text s)].
Proof.
  intros s H. cbn [merge List.app]. unfold flush. destruct (write_text s) eqn:E; auto.
  exfalso. apply H, write_nil, E.
Qed.

Definition recips (m : message) : list string := match m_recipient m with Some l => l | None => [] end.

(** Writing never fails for a message that says something. *)
Lemma written : forall elem m s, m_sid m <> "" -> m_payload m = PText s ->
  get_xml elem m = Ok (mkWire (write_text (m_sid m)) (option_map write_text (truthy_text (m_sender m)))
                              (map write_text (recips m)) type_id [WText (write_text s)]).
Proof. intros elem m s Hs Hp. unfold get_xml. rewrite (eqb_empty _ Hs), Hp. reflexivity. Qed.

Lemma map_map_texts : forall l, map read_text (map write_text l) = map (fun s => read_text (write_text s)) l.
Proof. intros. apply map_map. Qed.

Lemma parse_clean : forall m s, clean_message m -> m_payload m = PText s ->
  parse (mkWire (write_text (m_sid m)) (option_map write_text (truthy_text (m_sender m)))
                (map write_text (recips m)) type_id [WText (write_text s)]) =
  Ok (mkBinding (m_sid m) (m_sender m) (recips m) type_id [IText s]).
Proof.
  intros m s [Hi Hs Hr (s' & Hp & Hne & Hc)] E. rewrite E in Hp. injection Hp as <-.
  unfold parse. cbn [w_sid w_sender w_recipients w_type w_payload].
  rewrite (attr_written_clean _ Hi), (merge_text s Hne).
  assert (ES : match option_map write_text (truthy_text (m_sender m)) with
               | Some t => option_map Some (read_text t) | None => Some None end = Some (m_sender m)).
  { destruct (m_sender m) as [x|]; [|reflexivity]. destruct (Hs x eq_refl) as [N C].
    cbn [truthy_text]. rewrite (eqb_empty _ N). cbn [option_map]. rewrite (read_written_clean _ C). reflexivity. }
  rewrite ES, map_map_texts.
  rewrite (all_some_map (fun s => read_text (write_text s)) (fun s => s)).
  2:{ intros a Ha. apply read_written_clean. unfold recips in Ha. destruct (m_recipient m) as [l|] eqn:R; [|destruct Ha].
      apply (Hr l); auto. }
  cbn [map read_item all_some]. rewrite (read_written_clean _ Hc). cbn [option_map].
  rewrite (eqb_empty _ (proj1 Hi)), map_id. reflexivity.
Qed.

Lemma read_back : forall elem m w av kw, clean_message m -> get_xml elem m = Ok w ->
  (kw = None \/ kw = Some (m_sid m)) -> adapter_read w av kw = Ok (as_read (m_sid m) m).
Proof.
  intros elem m w av kw H E K. destruct (cm_payload m H) as (s & Hp & _ & _).
  rewrite (written elem m s (proj1 (cm_sid m H)) Hp) in E. injection E as <-.
  unfold adapter_read. rewrite (parse_clean m s H Hp). cbn [create_from_raw_binding b_payload b_sid b_sender b_recipients m_sid].
  unfold as_read. rewrite Hp. destruct K as [-> | ->]; [reflexivity|]. rewrite String.eqb_refl. reflexivity.
Qed.

Lemma read_plain : forall w av kw m, adapter_read w av kw = Ok m ->
  (kw = None \/ kw = Some (m_sid m)) /\ forall av' kw', kw' = None \/ kw' = Some (m_sid m) -> adapter_read w av' kw' = Ok m.
Proof.
  intros w av kw m H. unfold adapter_read in *. destruct (parse w) as [b|]; [|discriminate].
  unfold create_from_raw_binding in *. destruct (b_payload b) as [|i r]; [discriminate|].
  destruct kw as [s|].
  - match type of H with (if ?c then _ else _) = _ => destruct c eqn:E end; [|discriminate].
    injection H as <-. apply String.eqb_eq in E. split; [right; f_equal; exact E|].
    intros av' kw' [-> | ->]; [reflexivity|]. rewrite String.eqb_refl. reflexivity.
  - injection H as <-. split; [left; reflexivity|].
    intros av' kw' [-> | ->]; [reflexivity|]. rewrite String.eqb_refl. reflexivity.
Qed.

Lemma read_shape : forall w av kw m, adapter_read w av kw = Ok m -> m_avail m = None /\ exists l, m_recipient m = Some l.
Proof.
  intros w av kw m H. unfold adapter_read in *. destruct (parse w) as [b|]; [|discriminate].
  unfold create_from_raw_binding in *. destruct (b_payload b) as [|i r]; [discriminate|].
  destruct kw as [s|].
  - match type of H with (if ?c then _ else _) = _ => destruct c eqn:E end; [|discriminate].
    injection H as <-. cbn. eauto.
  - injection H as <-. cbn. eauto.
Qed.

Lemma as_read_self : forall w av kw m, adapter_read w av kw = Ok m -> as_read (m_sid m) m = m.
Proof.
  intros w av kw m H. destruct (read_shape _ _ _ _ H) as (A & l & R). destruct m as [i s r p v].
  cbn in *. subst. reflexivity.
Qed.

Definition rename (n : node) (sid : string) : string := match n with NHandover out => out | _ => sid end.

Lemma clean_rename : forall sid m, clean_sid sid -> clean_message m -> clean_message (as_read sid m).
Proof.
  intros sid m Hs [Hi H1 H2 H3]. constructor; cbn; auto.
  intros l s E. injection E as <-. destruct (m_recipient m) as [l|]; [|intros []]. apply (H2 l s eq_refl).
Qed.

Lemma step_forward : forall elem h p m av,
  adapter_read (p_wire p) av (p_sid p) = Ok m -> clean_message m -> forwards (h_node h) ->
  (forall out, h_node h = NHandover out -> clean_sid out) ->
  exists p', step elem h p = Ok (Some p') /\
    adapter_read (p_wire p') av (p_sid p') = Ok (as_read (rename (h_node h) (m_sid m)) m) /\
    (h_node h = NBuffer -> p_wire p' = p_wire p) /\
    (h_node h <> NBuffer -> w_type (p_wire p') = type_id).
Proof.
  intros elem h p m av R C F O. destruct (read_plain _ _ _ _ R) as [K A].
  assert (K' : keep (h_sid h) (p_sid p) = None \/ keep (h_sid h) (p_sid p) = Some (m_sid m))
    by (unfold keep; destruct (h_sid h); auto).
  unfold step.
  assert (Gen : forall m', react (h_node h) m = Some m' -> h_node h <> NBuffer ->
     m' = as_read (rename (h_node h) (m_sid m)) m -> clean_sid (rename (h_node h) (m_sid m)) ->
     exists p', match adapter_read (p_wire (arrive h p)) (p_avail (arrive h p)) (p_sid (arrive h p)) with
      | Ok m => match react (h_node h) m with
                | Some m' => match get_xml elem m' with
                             | Ok w => Ok (Some (mkParcel w (Some (m_sid m')) (m_avail m')))
                             | Err e => Err e end
                | None => Ok None end
      | Err e => Err e end = Ok (Some p') /\
      adapter_read (p_wire p') av (p_sid p') = Ok (as_read (rename (h_node h) (m_sid m)) m) /\
      (h_node h = NBuffer -> p_wire p' = p_wire p) /\
      (h_node h <> NBuffer -> w_type (p_wire p') = type_id)).
  { intros m' E N Em Cs. cbn [arrive p_wire p_sid p_avail]. rewrite (A _ _ K'), E.
    assert (Cm : clean_message m') by (subst m'; apply clean_rename; auto).
    destruct (cm_payload m' Cm) as (s & Ep & _ & _).
    pose proof (written elem m' s (proj1 (cm_sid m' Cm)) Ep) as W.
    rewrite W. eexists. split; [reflexivity|]. cbn [p_wire p_sid]. split; [|split; [contradiction|reflexivity]].
    rewrite (read_back elem m' _ av (Some (m_sid m')) Cm W (or_intror eq_refl)).
    subst m'. reflexivity. }
  assert (Self : m = as_read (m_sid m) m) by (symmetry; eapply as_read_self; eauto).
  destruct (h_node h) as [out| | | | | |] eqn:N; try destruct F.
  - apply (Gen _ eq_refl); [discriminate| |apply O; reflexivity].
    cbn [rename]. destruct (read_shape _ _ _ _ R) as (Av & l & Rl). unfold as_read. rewrite Rl, Av. reflexivity.
  - apply (Gen _ eq_refl); [discriminate|exact Self|apply C].
  - apply (Gen _ eq_refl); [discriminate|exact Self|apply C].
  - exists (arrive h p). split; [reflexivity|]. cbn [arrive p_wire p_sid rename].
    rewrite <- Self. split; [apply A; auto|]. split; [reflexivity|intros X; contradiction X; reflexivity].
Qed.

Lemma as_read_twice : forall a b m, as_read a (as_read b m) = as_read a m.
Proof. intros. unfold as_read. cbn. reflexivity. Qed.

Lemma identifier_cons : forall sid h l, identifier sid (h :: l) = identifier (rename (h_node h) sid) l.
Proof. reflexivity. Qed.

Lemma travel_forward : forall elem l p m av,
  adapter_read (p_wire p) av (p_sid p) = Ok m -> clean_message m -> clean_way l ->
  (forall h, In h l -> forwards (h_node h)) ->
  exists p', travel elem l p = Ok (Some p') /\
    adapter_read (p_wire p') av (p_sid p') = Ok (as_read (identifier (m_sid m) l) m) /\
    ((forall h, In h l -> h_node h = NBuffer) -> p_wire p' = p_wire p) /\
    ((exists h, In h l /\ h_node h <> NBuffer) \/ w_type (p_wire p) = type_id -> w_type (p_wire p') = type_id).
Proof.
  intros elem. induction l as [|h l IH]; intros p m av R C W F.
  - exists p. split; [reflexivity|]. split; [cbn; rewrite (as_read_self _ _ _ _ R); exact R|].
    split; [auto|]. intros [(h & [] & _)|E]; exact E.
  - destruct (step_forward elem h p m av R C (F h (or_introl eq_refl)) (fun out => W h out (or_introl eq_refl)))
      as (p1 & S & R1 & B1 & T1).
    assert (C1 : clean_message (as_read (rename (h_node h) (m_sid m)) m)).
    { apply clean_rename; auto. destruct (h_node h) eqn:N; try apply C. apply (W h out (or_introl eq_refl) N). }
    destruct (IH p1 _ av R1 C1) as (p2 & S2 & R2 & B2 & T2).
    { intros h' out I. apply W. right. auto. }
    { intros h' I. apply F. right. auto. }
    exists p2. cbn [travel]. rewrite S. split; [exact S2|]. rewrite identifier_cons.
    rewrite R2. cbn [m_sid as_read]. split; [rewrite as_read_twice; reflexivity|]. split.
    + intros B. rewrite B2 by (intros; apply B; right; auto). apply B1, B. left. auto.
    + intros [(h' & [<-|I] & N)|E].
      * apply T2. right. auto.
      * apply T2. left. eauto.
      * apply T2. right. destruct (h_node h) eqn:N; try (apply T1; discriminate). rewrite B1; auto.
Qed.

Lemma travel_lost : forall elem l p m av,
  adapter_read (p_wire p) av (p_sid p) = Ok m -> clean_message m -> clean_way l ->
  (exists h, In h l /\ ~ forwards (h_node h)) -> travel elem l p = Ok None.
Proof.
  intros elem. induction l as [|h l IH]; intros p m av R C W (h' & I & N); [destruct I|].
  assert (D : forwards (h_node h) \/ ~ forwards (h_node h)) by (destruct (h_node h); cbn; tauto).
  destruct D as [D|D].
  - destruct (step_forward elem h p m av R C D (fun out => W h out (or_introl eq_refl))) as (p1 & S & R1 & _).
    cbn [travel]. rewrite S. apply (IH p1 _ av R1).
    + apply clean_rename; auto. destruct (h_node h) eqn:E; try apply C. apply (W h out (or_introl eq_refl) E).
    + intros x out Ix. apply W. right. auto.
    + destruct I as [<-|I]; [contradiction|]. eauto.
  - destruct (read_plain _ _ _ _ R) as [K A]. cbn [travel]. unfold step. cbn [arrive p_wire p_sid p_avail].
    assert (K' : keep (h_sid h) (p_sid p) = None \/ keep (h_sid h) (p_sid p) = Some (m_sid m))
      by (unfold keep; destruct (h_sid h); auto).
    destruct (h_node h); try (exfalso; apply D; exact Logic.I); rewrite (A _ _ K'); reflexivity.
Qed.

(** ** Any message that has been read *)

Lemma read_text_xml : forall w s, read_text w = Some s -> xml_text s.
Proof.
  intros w s H. unfold read_text, read_chars in H.
  destruct (forallb legal (map char_of (eol w))) eqn:E; [|discriminate]. injection H as <-.
  unfold xml_text. rewrite chars_of. apply legal_all. auto.
Qed.
Lemma read_attr_xml : forall w s, read_attr w = Some s -> xml_text s.
Proof.
  intros w s H. unfold read_attr, read_chars in H.
  destruct (forallb legal (map char_of (map attr_char (eol w)))) eqn:E; [|discriminate]. injection H as <-.
  unfold xml_text. rewrite chars_of. apply legal_all. auto.
Qed.

Lemma eol_nil : forall w, eol w = [] -> w = [].
Proof.
  intros [|[a|a] r] H; auto; cbn [eol] in H; [|discriminate].
  destruct (Ascii.eqb a CR); discriminate.
Qed.
Lemma read_text_nonempty : forall w s, read_text w = Some s -> w <> [] -> s <> "".
Proof.
  intros w s H N. unfold read_text, read_chars in H.
  destruct (forallb legal (map char_of (eol w))) eqn:E; [|discriminate]. injection H as <-.
  intro X. apply N, eol_nil. apply chars_nil in X. rewrite chars_of in X. apply map_eq_nil in X. exact X.
Qed.

Lemma merge_nonempty : forall l p w, In (inl w) (merge p l) -> w <> [].
Proof.
  assert (Fl : forall p w, In (inl w) (flush p) -> w <> []).
  { intros [|c p] w; cbn; [intros []|]. intros [E|[]]. inversion E. subst. discriminate. }
  induction l as [|[t|n] l IH]; intros p w H; cbn [merge] in H.
  - eapply Fl; eauto.
  - eapply IH; eauto.
  - apply in_app_or in H. destruct H as [H|[H|H]]; [eapply Fl; eauto|discriminate|eapply IH; eauto].
Qed.

Lemma all_some_in : forall {A B} (f : A -> option B) l t, all_some (map f l) = Some t ->
  Forall2 (fun a b => f a = Some b) l t.
Proof.
  intros A B f. induction l as [|a l IH]; intros t H; cbn [map all_some] in H.
  - injection H as <-. constructor.
  - destruct (f a) eqn:E; [|discriminate]. destruct (all_some (map f l)) eqn:Er; [|discriminate].
    injection H as <-. constructor; auto.
Qed.

Lemma Forall2_In_r : forall {A B} (R : A -> B -> Prop) l t b, Forall2 R l t -> In b t -> exists a, In a l /\ R a b.
Proof.
  intros A B R l t b F. induction F; intros I; [destruct I|].
  destruct I as [<-|I]; [eexists; split; [left|]; eauto|]. destruct (IHF I) as (a & Ia & Ra). exists a. split; [right|]; auto.
Qed.

(** What is in a message that has been read. *)
Lemma read_chars_of : forall w av kw m, adapter_read w av kw = Ok m ->
  m_sid m <> "" /\ xml_text (m_sid m) /\ (forall s, m_sender m = Some s -> xml_text s) /\
  (forall s, In s (recips m) -> xml_text s) /\
  (forall s, m_payload m = PText s -> s <> "" /\ xml_text s).
Proof.
  intros w av kw m H. apply read_plain in H. destruct H as [_ H]. specialize (H None None (or_introl eq_refl)).
  unfold adapter_read, parse in H.
  destruct (read_attr (w_sid w)) as [i|] eqn:Ei; [|discriminate].
  destruct (match w_sender w with None => Some None | Some t => option_map Some (read_text t) end) as [sd|] eqn:Es; [|discriminate].
  destruct (all_some (map read_text (w_recipients w))) as [rc|] eqn:Er; [|discriminate].
  destruct (all_some (map read_item (merge [] (w_payload w)))) as [py|] eqn:Ep; [|discriminate].
  destruct (String.eqb i "") eqn:Ne; [discriminate|].
  unfold create_from_raw_binding in H. cbn [b_payload b_sid b_sender b_recipients] in H.
  destruct py as [|it py]; [discriminate|]. injection H as <-. cbn [m_sid m_sender m_payload recips m_recipient].
  apply String.eqb_neq in Ne. split; [exact Ne|]. split; [eapply read_attr_xml; eauto|]. split; [|split].
  - intros s ->. destruct (w_sender w) as [t|]; [|discriminate].
    destruct (read_text t) eqn:Et; [|discriminate]. cbn in Es. injection Es as ->. eapply read_text_xml; eauto.
  - intros s I. apply all_some_in in Er. destruct (Forall2_In_r _ _ _ _ Er I) as (a & _ & Ra). eapply read_text_xml; eauto.
  - intros s E. apply all_some_in in Ep. inversion Ep as [|x y xs ys Hx Hxs E1 E2]. subst.
    destruct it as [t|n]; [|discriminate]. injection E as ->.
    destruct x as [wx|nx]; cbn [read_item] in Hx; [|discriminate].
    destruct (read_text wx) eqn:Ex; [|discriminate]. cbn in Hx. injection Hx as ->.
    split; [|eapply read_text_xml; eauto]. eapply read_text_nonempty; eauto.
    apply (merge_nonempty (w_payload w) []). rewrite <- E1. left. reflexivity.
Qed.

Lemma lines_clean : forall s t, lines_of s t -> xml_text s -> clean t.
Proof.
  intros s t L X. split; [apply (newlines_printable _ _ L); auto|eapply newlines_noCR; eauto].
Qed.
Lemma lines_empty : forall s t, lines_of s t -> s <> "" -> t <> "".
Proof. intros s t L N E. apply N, chars_nil, (newlines_nil _ _ L), chars_nil, E. Qed.

Lemma spaced_clean : forall s t, spaced s t -> xml_text s -> s <> "" -> clean_sid t.
Proof.
  intros s t (l & L & F) X N. split.
  - intro E. apply chars_nil in E. rewrite E in F. inversion F. subst.
    apply N, chars_nil, (newlines_nil _ _ L). reflexivity.
  - assert (P : Forall printable l) by (apply (newlines_printable _ _ L); auto).
    pose proof (newlines_noCR _ _ L) as C. clear L.
    induction F as [|a b l' t' H F IH]; constructor.
    + destruct H as [[_ ->]|(H1 & H2 & ->)]; [cbn; lia|].
      inversion P as [|? ? Pa _]; subst. destruct Pa as [Pa|[Pa|[Pa|Pa]]]; auto; try contradiction.
      subst. exfalso. apply C. left. reflexivity.
    + apply IH; [inversion P; auto|]. intro I. apply C. right. auto.
Qed.

(** Written and read again. *)
Lemma written_read : forall elem m s, m_sid m <> "" -> xml_text (m_sid m) ->
  (forall s, m_sender m = Some s -> xml_text s) -> (forall s, In s (recips m) -> xml_text s) ->
  m_payload m = PText s -> s <> "" -> xml_text s ->
  exists w sid sender rc t, get_xml elem m = Ok w /\
    (forall av kw, adapter_read w av kw =
       match kw with
       | Some k => if String.eqb k sid then Ok (mkMessage sid sender (Some rc) (PText t) None) else Err ESequence
       | None => Ok (mkMessage sid sender (Some rc) (PText t) None)
       end) /\
    spaced (m_sid m) sid /\
    match m_sender m, sender with
    | Some a, Some b => a <> "" /\ lines_of a b
    | Some a, None => a = ""
    | None, None => True
    | None, Some _ => False
    end /\
    Forall2 lines_of (recips m) rc /\ lines_of s t.
Proof.
  intros elem m s Ni Xi Xs Xr Ep Np Xp. exists (mkWire (write_text (m_sid m)) (option_map write_text (truthy_text (m_sender m)))
                              (map write_text (recips m)) type_id [WText (write_text s)]).
  destruct (attr_written _ Xi) as (sid & Ri & Si).
  destruct (read_written _ Xp) as (t & Rt & Lt).
  destruct (all_some_rel (fun s => read_text (write_text s)) lines_of (recips m)) as (rc & Rr & Lr).
  { intros a Ha. apply read_written. auto. }
  assert (S : exists sender,
    match option_map write_text (truthy_text (m_sender m)) with
    | Some t => option_map Some (read_text t) | None => Some None end = Some sender /\
    match m_sender m, sender with
    | Some a, Some b => a <> "" /\ lines_of a b
    | Some a, None => a = ""
    | None, None => True
    | None, Some _ => False
    end).
  { destruct (m_sender m) as [a|]; cbn [truthy_text].
    - destruct (String.eqb a "") eqn:E; cbn [option_map].
      + exists None. split; [reflexivity|]. apply String.eqb_eq. auto.
      + destruct (read_written a) as (b & Rb & Lb); [apply Xs; auto|]. rewrite Rb. exists (Some b).
        split; [reflexivity|]. split; [apply String.eqb_neq; auto|auto].
    - exists None. split; reflexivity. }
  destruct S as (sender & Rs & Ls).
  exists sid, sender, rc, t. split; [apply written; auto|]. split; [|auto].
  intros av kw. unfold adapter_read, parse. cbn [w_sid w_sender w_recipients w_type w_payload].
  rewrite Ri, Rs, map_map_texts, Rr, (merge_text s Np). cbn [map read_item all_some]. rewrite Rt. cbn [option_map].
  rewrite (eqb_empty sid) by (apply (spaced_clean _ _ Si); auto).
  reflexivity.
Qed.

Lemma settled : forall elem w av kw m s, adapter_read w av kw = Ok m -> m_payload m = PText s ->
  exists w1 sid sender rc t, get_xml elem m = Ok w1 /\
    let m1 := mkMessage sid sender (Some rc) (PText t) None in
    (forall av1 kw1, adapter_read w1 av1 kw1 =
       match kw1 with
       | Some k => if String.eqb k sid then Ok m1 else Err ESequence
       | None => Ok m1
       end) /\
    spaced (m_sid m) sid /\
    match m_sender m, sender with
    | Some a, Some b => a <> "" /\ lines_of a b
    | Some a, None => a = ""
    | None, None => True
    | None, Some _ => False
    end /\
    Forall2 lines_of (recips m) rc /\ lines_of s t /\ clean_message m1.
Proof.
  intros elem w av kw m s R Ep. destruct (read_chars_of _ _ _ _ R) as (Ni & Xi & Xs & Xr & Xp).
  destruct (Xp s Ep) as [Np Xt].
  destruct (written_read elem m s Ni Xi Xs Xr Ep Np Xt) as (w1 & sid & sender & rc & t & W & A & Si & Ls & Lr & Lt).
  exists w1, sid, sender, rc, t. split; [exact W|]. cbn zeta. split; [exact A|].
  split; [auto|]. split; [auto|]. split; [auto|]. split; [auto|].
  constructor; cbn.
  - eapply spaced_clean; eauto.
  - intros b ->. destruct (m_sender m) as [a|] eqn:E; [|contradiction]. destruct Ls as [Na La].
    split; [eapply lines_empty; eauto|]. eapply lines_clean; eauto.
  - intros l x E I. injection E as <-. destruct (Forall2_In_r _ _ _ _ Lr I) as (a & Ia & La).
    eapply lines_clean; eauto.
  - exists t. split; [reflexivity|]. split; [eapply lines_empty; eauto|eapply lines_clean; eauto].
Qed.

(** A character that XML does not have. *)
Lemma illegal : forall elem m s, m_sid m <> "" -> m_payload m = PText s ->
  ~ xml_text (m_sid m) \/ (exists a, m_sender m = Some a /\ ~ xml_text a) \/
  (exists a, In a (recips m) /\ ~ xml_text a) \/ ~ xml_text s ->
  exists w, get_xml elem m = Ok w /\ parse w = Err EParse.
Proof.
  intros elem m s N E B. eexists. split; [apply written; eauto|].
  unfold parse. cbn [w_sid w_sender w_recipients w_type w_payload]. rewrite map_map_texts.
  destruct B as [B|[(a & Ea & B)|[(a & Ia & B)|B]]].
  - rewrite (attr_written_bad _ B). reflexivity.
  - rewrite Ea. cbn [truthy_text]. destruct (String.eqb a "") eqn:Ne.
    + apply String.eqb_eq in Ne. subst. exfalso. apply B. constructor.
    + cbn [option_map]. rewrite (read_written_bad _ B). cbn [option_map]. destruct (read_attr _); reflexivity.
  - rewrite (all_some_none (fun s => read_text (write_text s)) _ a Ia (read_written_bad _ B)).
    destruct (read_attr _); [|reflexivity]. destruct (match option_map _ _ with Some _ => _ | None => _ end); reflexivity.
  - assert (Ns : s <> "") by (intro; subst; apply B; constructor).
    rewrite (merge_text s Ns). cbn [map read_item all_some]. rewrite (read_written_bad _ B). cbn [option_map].
    destruct (read_attr _); [|reflexivity]. destruct (match option_map _ _ with Some _ => _ | None => _ end); [|reflexivity].
    destruct (all_some _); reflexivity.
Qed.

(** The type is of no importance to the adapter. *)
Definition with_type (ty : string) (w : wire) : wire :=
  mkWire (w_sid w) (w_sender w) (w_recipients w) ty (w_payload w).
Lemma any_type : forall w ty av kw, adapter_read (with_type ty w) av kw = adapter_read w av kw.
Proof.
  intros w ty av kw. unfold adapter_read, parse, with_type. cbn [w_sid w_sender w_recipients w_type w_payload].
  destruct (read_attr (w_sid w)); [|reflexivity].
  destruct (match w_sender w with None => Some None | Some t => option_map Some (read_text t) end); [|reflexivity].
  destruct (all_some (map read_text (w_recipients w))); [|reflexivity].
  destruct (all_some (map read_item (merge [] (w_payload w)))); [|reflexivity].
  destruct (String.eqb s ""); reflexivity.
Qed.

Lemma parse_type : forall w b, parse w = Ok b -> b_type b = w_type w.
Proof.
  intros w b H. unfold parse in H.
  destruct (read_attr (w_sid w)); [|discriminate].
  destruct (match w_sender w with None => Some None | Some t => option_map Some (read_text t) end); [|discriminate].
  destruct (all_some (map read_text (w_recipients w))); [|discriminate].
  destruct (all_some (map read_item (merge [] (w_payload w)))); [|discriminate].
  destruct (String.eqb s ""); [discriminate|]. injection H as <-. reflexivity.
Qed.

(** Payloads. *)
Lemma merge_empty : forall l, (forall x, In x l -> x = WText []) -> merge [] l = [].
Proof.
  induction l as [|x l IH]; intros H; [reflexivity|].
  rewrite (H x (or_introl eq_refl)). cbn [merge List.app]. apply IH. intros; apply H; right; auto.
Qed.
