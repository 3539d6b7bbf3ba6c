(** C60: what becomes of control requests on their way through nodes. *)

From Coq Require Import List String Ascii Bool Arith Lia ZArith.
From Verif Require NodeModel.
From Verif Require Import MessageModel MessageSpec MessageProofs.
Import ListNotations.
Open Scope string_scope.
Open Scope list_scope.

(** ** Clean messages *)

(** Written and read, a message is the same, without its availability time. *)
Theorem C60_roundtrip : forall elem m av kw, clean_message m -> kw = None \/ kw = Some (m_sid m) ->
  exists w, get_xml elem m = Ok w /\ adapter_read w av kw = Ok (as_read (m_sid m) m) /\
            create_from_xml (XMessage w) = Ok (Some (as_read (m_sid m) m)).
Proof.
  intros elem m av kw C K. destruct (cm_payload m C) as (s & Ep & _ & _).
  eexists. split; [apply written; [apply C|exact Ep]|]. split.
  - eapply (read_back elem); eauto. apply written; [apply C|exact Ep].
  - unfold create_from_xml. rewrite (parse_clean m s C Ep). cbn [b_type]. rewrite String.eqb_refl.
    cbn. unfold as_read. rewrite Ep. reflexivity.
Qed.

(** Through any nodes that hand messages on, whatever keyword arguments the
    carriages between them keep, it arrives; with its sender, recipients and
    text, under the identifier of the last handover node. *)
Theorem C60_way : forall elem l p m av,
  adapter_read (p_wire p) av (p_sid p) = Ok m -> clean_message m -> clean_way l ->
  (forall h, In h l -> forwards (h_node h)) ->
  exists p', travel elem l p = Ok (Some p') /\
    forall av', adapter_read (p_wire p') av' (p_sid p') = Ok (as_read (identifier (m_sid m) l) m).
Proof.
  intros elem l p m av R C W F. destruct (travel_forward elem l p m av R C W F) as (p' & T & R' & _).
  exists p'. split; [exact T|]. intros av'. destruct (read_plain _ _ _ _ R') as [K A]. apply A. exact K.
Qed.

(** One node that does not hand them on is enough for it to get lost, without
    an error. *)
Theorem C60_lost : forall elem l p m av,
  adapter_read (p_wire p) av (p_sid p) = Ok m -> clean_message m -> clean_way l ->
  (exists h, In h l /\ ~ forwards (h_node h)) -> travel elem l p = Ok None.
Proof. apply travel_lost. Qed.

(** The reactions are those of the nodes in any state. *)
Theorem C60_nodes : forall (m : message),
  (forall out group s, exists m', react (NHandover out) m = Some m' /\ m_sid m' = out /\
     NodeModel.handover_step out group s (NodeModel.HMsg m) = (s, NodeModel.HEmitMsg out m)) /\
  (forall P out (rw : P -> option P) s, exists m', react NRetime m = Some m' /\
     NodeModel.rewriting_step out true rw s (NodeModel.IMsg m) = (s, NodeModel.EmitMsg m')) /\
  (forall P out (rw : P -> option P) s, react NDedup m = None /\
     NodeModel.rewriting_step out false rw s (NodeModel.IMsg m) = (s, NodeModel.Ignore)) /\
  (forall P Q (cv : P -> option Q) s, react NEncode m = None /\
     NodeModel.encoding_step cv s (NodeModel.IMsg m) = (s, NodeModel.Ignore)) /\
  (forall s xml, exists m', react NDistribute m = Some m' /\
     NodeModel.distribute_step s (NodeModel.XMsg (NodeModel.mkXmsg (m_sid m) (m_avail m) xml)) =
     (s, [NodeModel.mkEmission xml (m_sid m') None None (m_avail m') None])).
Proof.
  intros m. split; [|split; [|split; [|split]]]; intros; cbn; eauto.
Qed.

(** ** Any message *)

(** A message that could be read, and has text, can be written; then the ends of
    its lines are line feeds, its identifier has spaces for white space, an
    empty sender is none, and from then on it stays as it is.  A carriage that
    tells the identifier finds out if it has changed. *)
Theorem C60_settled : forall elem w av kw m s, adapter_read w av kw = Ok m -> m_payload m = PText s ->
  exists w1 sid sender rc t, get_xml elem m = Ok w1 /\
    let m1 := mkMessage sid sender (Some rc) (PText t) None in
    (forall av1, adapter_read w1 av1 None = Ok m1) /\
    (forall av1, adapter_read w1 av1 (Some (m_sid m)) = Ok m1 <-> sid = m_sid m) /\
    (forall av1, adapter_read w1 av1 (Some (m_sid m)) = Err ESequence <-> sid <> m_sid m) /\
    spaced (m_sid m) sid /\
    match m_sender m, sender with
    | Some a, Some b => a <> "" /\ lines_of a b
    | Some a, None => a = ""
    | None, None => True
    | None, Some _ => False
    end /\
    (exists l, m_recipient m = Some l /\ Forall2 lines_of l rc) /\ lines_of s t /\ clean_message m1.
Proof.
  intros elem w av kw m s R E.
  destruct (settled elem w av kw m s R E) as (w1 & sid & sender & rc & t & W & A & Si & Ls & Lr & Lt & C).
  exists w1, sid, sender, rc, t. split; [exact W|]. cbn zeta in *.
  split; [intros; apply (A av1 None)|].
  split; [|split; [|split; [|split; [|split; [|split]]]]]; auto.
  - intros av1. rewrite (A av1 (Some (m_sid m))). destruct (String.eqb (m_sid m) sid) eqn:Q.
    + apply String.eqb_eq in Q. split; auto.
    + apply String.eqb_neq in Q. split; [discriminate|intro X; symmetry in X; contradiction].
  - intros av1. rewrite (A av1 (Some (m_sid m))). destruct (String.eqb (m_sid m) sid) eqn:Q.
    + apply String.eqb_eq in Q. split; [discriminate|intro X; exfalso; apply X; auto].
    + apply String.eqb_neq in Q. split; auto.
  - destruct (read_shape _ _ _ _ R) as (_ & l & Rl). exists l. split; [exact Rl|].
    unfold recips in Lr. rewrite Rl in Lr. exact Lr.
Qed.

(** Line feeds for the ends of lines: there is one way, and text without
    carriage returns is left alone. *)
Theorem C60_lines : forall s, exists t, lines_of s t /\ (forall t', lines_of s t' -> t' = t) /\
  (~ In CR (chars s) -> t = s).
Proof.
  intros s. destruct (newlines_total (chars s)) as (l & L).
  assert (U : forall t', lines_of s t' -> t' = string_of_list_ascii l).
  { intros t' H. rewrite <- (of_chars t'). f_equal. symmetry. eapply newlines_fun; eauto. }
  exists (string_of_list_ascii l). split; [unfold lines_of; rewrite chars_of; exact L|]. split; [exact U|].
  intros N. symmetry. apply U. apply newlines_id. exact N.
Qed.

(** A character that XML does not have is written, and nobody can read the
    message. *)
Theorem C60_unreadable : forall elem m s, m_sid m <> "" -> m_payload m = PText s ->
  ~ xml_text (m_sid m) \/ (exists a, m_sender m = Some a /\ ~ xml_text a) \/
  (exists l a, m_recipient m = Some l /\ In a l /\ ~ xml_text a) \/ ~ xml_text s ->
  exists w, get_xml elem m = Ok w /\ forall av kw, adapter_read w av kw = Err EParse.
Proof.
  intros elem m s N E B. destruct (illegal elem m s N E) as (w & W & P).
  { destruct B as [B|[B|[(l & a & El & I & B)|B]]]; auto.
    right. right. left. exists a. unfold recips. rewrite El. auto. }
  exists w. split; [exact W|]. intros. unfold adapter_read. rewrite P. reflexivity.
Qed.

(** ** What gets lost *)

(** The adapter does not look at the type, and what is written again is a
    control request; reading through the base class is refused instead. *)
Theorem C60_type : forall elem w ty av kw m, adapter_read w av kw = Ok m -> ty <> type_id ->
  adapter_read (with_type ty w) av kw = Ok m /\
  create_from_xml (XMessage (with_type ty w)) = Err EKey /\
  (forall l, clean_message m -> clean_way l -> (forall h, In h l -> forwards (h_node h)) ->
     (exists h, In h l /\ h_node h <> NBuffer) ->
     exists p', travel elem l (mkParcel (with_type ty w) kw av) = Ok (Some p') /\ w_type (p_wire p') = type_id).
Proof.
  intros elem w ty av kw m R N.
  assert (R1 : adapter_read (with_type ty w) av kw = Ok m) by (rewrite any_type; exact R).
  split; [exact R1|]. split.
  - unfold create_from_xml. unfold adapter_read in R1.
    destruct (parse (with_type ty w)) as [b|] eqn:P; [|discriminate].
    rewrite (parse_type _ _ P). cbn [with_type w_type]. apply String.eqb_neq in N. rewrite N. reflexivity.
  - intros l C W F X. destruct (travel_forward elem l (mkParcel (with_type ty w) kw av) m av R1 C W F) as (p' & T & _ & _ & Ty).
    exists p'. split; [exact T|]. apply Ty. left. exact X.
Qed.

(** Only nodes that do not read the text leave it, and with it the type, as it
    is. *)
Theorem C60_buffers : forall elem l p, (forall h, In h l -> h_node h = NBuffer) ->
  exists p', travel elem l p = Ok (Some p') /\ p_wire p' = p_wire p.
Proof.
  intros elem. induction l as [|h l IH]; intros p B; [exists p; auto|].
  cbn [travel]. unfold step. rewrite (B h (or_introl eq_refl)).
  destruct (IH (arrive h p)) as (p' & T & E); [intros; apply B; right; auto|].
  exists p'. split; [exact T|]. rewrite E. reflexivity.
Qed.

(** Of a payload with text and elements, only the text before the first element
    is read, be it nothing but the white space of the layout. *)
Theorem C60_first : forall sid sender rc ty t n rest av kw m, t <> [] ->
  adapter_read (mkWire sid sender rc ty (WText t :: WElem n :: rest)) av kw = Ok m ->
  adapter_read (mkWire sid sender rc ty [WText t]) av kw = Ok m /\
  exists s, read_text t = Some s /\ m_payload m = PText s.
Proof.
  intros sid sender rc ty t n rest av kw m N H. unfold adapter_read, parse in *.
  cbn [w_sid w_sender w_recipients w_type w_payload merge List.app] in *.
  assert (Fl : flush t = [inl t]) by (destruct t; [contradiction|reflexivity]). rewrite Fl in *.
  cbn [List.app map read_item all_some] in *.
  destruct (read_attr sid) as [i|]; [|discriminate].
  destruct (match sender with None => Some None | Some t => option_map Some (read_text t) end); [|discriminate].
  destruct (all_some (map read_text rc)); [|discriminate].
  destruct (read_text t) as [s|]; cbn [option_map] in *; [|discriminate].
  destruct (all_some (map read_item (merge [] rest))); cbn [option_map] in *; [|discriminate].
  destruct (String.eqb i ""); [discriminate|].
  unfold create_from_raw_binding in *. cbn [b_payload b_sid b_sender b_recipients] in *. split; [exact H|].
  exists s. split; [reflexivity|]. destruct kw as [k|]; [|injection H as <-; reflexivity].
  cbn [m_sid] in H. destruct (String.eqb k i); [injection H as <-; reflexivity|discriminate].
Qed.

(** A message that says nothing can be written, but every node that reads it
    raises. *)
Theorem C60_empty : forall elem,
  (forall w b, parse w = Ok b -> (forall x, In x (w_payload w) -> x = WText []) ->
     forall av kw, adapter_read w av kw = Err EIndex) /\
  (forall m, clean_sid (m_sid m) -> (forall s, m_sender m = Some s -> clean s) ->
     (forall l s, m_recipient m = Some l -> In s l -> clean s) -> m_payload m = PText "" ->
     exists w, get_xml elem m = Ok w /\ forall av kw, adapter_read w av kw = Err EIndex).
Proof.
  intros elem.
  assert (G : forall w b, parse w = Ok b -> (forall x, In x (w_payload w) -> x = WText []) ->
     forall av kw, adapter_read w av kw = Err EIndex).
  { intros w b P E av kw. unfold adapter_read. rewrite P. unfold parse in P.
    rewrite (merge_empty _ E) in P. cbn [map all_some] in P.
    destruct (read_attr (w_sid w)); [|discriminate].
    destruct (match w_sender w with None => Some None | Some t => option_map Some (read_text t) end); [|discriminate].
    destruct (all_some (map read_text (w_recipients w))); [|discriminate].
    destruct (String.eqb s ""); [discriminate|]. injection P as <-. reflexivity. }
  split; [exact G|].
  intros m Ci Cs Cr Ep. eexists. split; [apply written; [apply Ci|exact Ep]|].
  set (m1 := mkMessage (m_sid m) (truthy_text (m_sender m)) (m_recipient m) (PText "x") None).
  assert (C1 : clean_message m1).
  { constructor; cbn; auto.
    - intros s E. unfold truthy_text in E. destruct (m_sender m) as [a|]; [|discriminate].
      destruct (String.eqb a "") eqn:Q; [discriminate|]. injection E as <-. split; [apply String.eqb_neq; auto|auto].
    - exists "x". split; [reflexivity|]. split; [discriminate|]. split.
      + constructor; [|constructor]. right. right. right. cbn. lia.
      + cbn. intros [X|[]]. discriminate. }
  pose proof (parse_clean m1 "x" C1 eq_refl) as P. cbn [m1 m_sid m_sender] in P.
  assert (T2 : truthy_text (truthy_text (m_sender m)) = truthy_text (m_sender m)).
  { destruct (m_sender m) as [a|]; [|reflexivity]. cbn. destruct (String.eqb a "") eqn:Q; [reflexivity|]. cbn. rewrite Q. reflexivity. }
  rewrite T2 in P. change (recips m1) with (recips m) in P.
  unfold parse in P. cbn [w_sid w_sender w_recipients w_type w_payload] in P.
  match goal with |- forall av kw, adapter_read ?w _ _ = _ => enough (X : exists b, parse w = Ok b) end.
  { destruct X as (b & X). apply (G _ b X). cbn [w_payload]. intros x [<-|[]]. reflexivity. }
  unfold parse. cbn [w_sid w_sender w_recipients w_type w_payload].
  destruct (read_attr (write_text (m_sid m))) as [i|]; [|discriminate].
  destruct (match option_map write_text (truthy_text (m_sender m)) with None => Some None | Some t => option_map Some (read_text t) end); [|discriminate].
  destruct (all_some (map read_text (map write_text (recips m)))); [|discriminate].
  cbn [merge List.app write_text map list_ascii_of_string flush all_some].
  destruct (String.eqb i ""); [discriminate|]. eexists. reflexivity.
Qed.

(** ** Cases *)

Definition no_elem (n : string) : res (list wnode) := Err EIncomplete.

Definition request : message :=
  mkMessage "authors" (Some "editor <1>") (Some ["desk"; "gallery & van"]) (PText "may I take over?") (Some 5000000%Z).

Example C60_case_clean : clean_message request.
Proof.
  assert (D : forall s, forallb (fun a => Nat.leb 32 (nat_of_ascii a)) (chars s) = true -> clean s).
  { intros s H. rewrite forallb_forall in H. split.
    - apply Forall_forall. intros a Ha. right. right. right. apply Nat.leb_le, H, Ha.
    - intro I. apply H in I. discriminate. }
  constructor.
  - split; [discriminate|]. cbn. repeat constructor; cbn; lia.
  - intros s E. injection E as <-. split; [discriminate|]. apply D. reflexivity.
  - intros l s E I. injection E as <-. destruct I as [<-|[<-|[]]]; apply D; reflexivity.
  - exists "may I take over?". split; [reflexivity|]. split; [discriminate|]. apply D. reflexivity.
Qed.

Definition all_kept (n : node) : hop := mkHop true true n.
Definition a_way : list hop :=
  [all_kept NDistribute; mkHop false true NBuffer; all_kept (NHandover "programme"); mkHop true false NRetime].

Example C60_case_way : exists w p, get_xml no_elem request = Ok w /\
  travel no_elem a_way (mkParcel w (Some "authors") (Some 5000000%Z)) = Ok (Some p) /\
  p_sid p = Some "programme" /\
  adapter_read (p_wire p) None (p_sid p) =
    Ok (mkMessage "programme" (Some "editor <1>") (Some ["desk"; "gallery & van"]) (PText "may I take over?") None).
Proof. eexists. eexists. split; [reflexivity|]. split; [vm_compute; reflexivity|]. split; reflexivity. Qed.

(** The same way with a de-duplicating node in it. *)
Example C60_case_lost : exists w, get_xml no_elem request = Ok w /\
  travel no_elem (a_way ++ [all_kept NDedup; all_kept NRetime]) (mkParcel w (Some "authors") None) = Ok None.
Proof. eexists. split; reflexivity. Qed.

(** Another type of message, with its text before an element, comes out of a
    distributing node as a control request with the layout for a text. *)
Definition lay : list wchar := [Lit LF; Lit SP; Lit SP].
Definition notice : wire :=
  mkWire (write_text "authors") None [] "tallyNotice" [WText lay; WElem "tally"; WText [Lit LF]].
Example C60_case_type : exists p,
  travel no_elem [all_kept NDistribute] (mkParcel notice (Some "authors") None) = Ok (Some p) /\
  w_type (p_wire p) = "authorsGroupControlRequest" /\ w_payload (p_wire p) = [WText lay] /\
  create_from_xml (XMessage notice) = Err EKey.
Proof. eexists. split; [vm_compute; reflexivity|]. repeat split. Qed.

(** An identifier with a tab, given as a reference, and text with carriage
    returns: the second node that is told the identifier refuses. *)
Definition tabbed : wire :=
  mkWire [Lit "a"%char; Ref TAB] (Some []) [] type_id [WText [Lit "x"%char; Ref CR; Ref LF; Lit "y"%char]].
Definition s_tab : string := String "a"%char (String TAB "").
Definition s_space : string := "a ".
Definition s_lines : string := String "x"%char (String LF "y").
Example C60_case_settled :
  travel no_elem [all_kept NRetime; all_kept NRetime] (mkParcel tabbed (Some s_tab) None) = Err ESequence /\
  exists p, travel no_elem [all_kept NRetime] (mkParcel tabbed (Some s_tab) None) = Ok (Some p) /\
    adapter_read (p_wire p) None None = Ok (mkMessage s_space None (Some []) (PText s_lines) None).
Proof. split; [reflexivity|]. eexists. split; [vm_compute; reflexivity|]. reflexivity. Qed.

(** A bell in the text; and no text. *)
Example C60_case_unreadable : exists w1 w2,
  get_xml no_elem (mkMessage "a" None None (PText (String "007"%char "")) None) = Ok w1 /\
  adapter_read w1 None None = Err EParse /\
  get_xml no_elem (mkMessage "a" None None (PText "") None) = Ok w2 /\
  adapter_read w2 None None = Err EIndex.
Proof. eexists. eexists. repeat split. Qed.

Print Assumptions C60_roundtrip.
Print Assumptions C60_way.
Print Assumptions C60_lost.
Print Assumptions C60_nodes.
Print Assumptions C60_settled.
Print Assumptions C60_lines.
Print Assumptions C60_unreadable.
Print Assumptions C60_type.
Print Assumptions C60_buffers.
Print Assumptions C60_first.
Print Assumptions C60_empty.
