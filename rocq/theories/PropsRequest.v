(** C77: which requests for control the page of the user input producer sends, and what the
    toolkit reads. *)

From Coq Require Import List Ascii String Bool Arith Lia.
From Verif Require Import PageModel PageSpec RequestModel RequestSpec.
From Verif Require Import MessageModel.
Import ListNotations.
Open Scope string_scope.

Lemma eol_lit l : (forall c, In c l -> c <> CR) -> eol (map Lit l) = map Lit l.
Proof.
  induction l as [|c l IH]; intros H; [reflexivity|]. cbn [map eol]. destruct (Ascii.eqb_spec c CR) as [->|N]; [destruct (H CR); [left|]; reflexivity|].
  rewrite IH; [reflexivity|]. intros d D. apply H. right. exact D.
Qed.
Lemma line_char s c : line s -> In c (list_ascii_of_string s) -> c <> CR /\ c <> LF /\ legal c = true.
Proof.
  intros L I. destruct (L c I) as [-> |G]; [repeat split; discriminate|].
  assert (N : forall d, nat_of_ascii d < 32 -> c <> d) by (intros d D ->; lia).
  split; [apply N; vm_compute; lia|]. split; [apply N; vm_compute; lia|]. unfold legal. rewrite !orb_true_iff. right. apply Nat.leb_le, G.
Qed.
Lemma read_chars_lit l : (forall c, In c l -> legal c = true) -> read_chars (map Lit l) = Some (string_of_list_ascii l).
Proof.
  intros H. unfold read_chars. rewrite map_map. cbn [char_of]. rewrite map_id. rewrite (proj2 (forallb_forall legal l) H). reflexivity.
Qed.
Lemma read_text_lit s : line s -> read_text (lit s) = Some s.
Proof.
  intros L. unfold read_text, lit. rewrite eol_lit by (intros c C; apply (line_char s c L C)).
  rewrite read_chars_lit by (intros c C; apply (line_char s c L C)). rewrite string_of_list_ascii_of_string. reflexivity.
Qed.
Lemma read_attr_lit s : line s -> no_tab s -> read_attr (lit s) = Some s.
Proof.
  intros L N. unfold read_attr, lit. rewrite eol_lit by (intros c C; apply (line_char s c L C)).
  assert (E : map attr_char (map Lit (list_ascii_of_string s)) = map Lit (list_ascii_of_string s)).
  { rewrite map_map. apply map_ext_in. intros c C. cbn. destruct (line_char s c L C) as (_ & B & _).
    destruct (Ascii.eqb_spec c TAB) as [-> |]; [destruct (N C)|]. destruct (Ascii.eqb_spec c LF); [congruence|reflexivity]. }
  rewrite E, read_chars_lit by (intros c C; apply (line_char s c L C)). rewrite string_of_list_ascii_of_string. reflexivity.
Qed.

Lemma in_element_plain s : in_element s = true <-> plain s.
Proof.
  induction s as [|c s IH]; [split; auto; reflexivity|]. cbn [in_element plain]. unfold is_markup.
  rewrite andb_true_iff, negb_true_iff, !orb_false_iff, IH, !Ascii.eqb_neq. tauto.
Qed.
Lemma in_quotes_plain s : plain s -> (in_quotes s = true <-> no_quote s).
Proof.
  unfold in_quotes, no_quote, is_markup. induction s as [|c s IH]; intros P; [split; auto; intros _ []|].
  destruct P as (A & B & _ & D). cbn [list_ascii_of_string forallb In]. rewrite andb_true_iff, (IH D), negb_true_iff, !orb_false_iff, !Ascii.eqb_neq. tauto.
Qed.

(** A request is written as it was typed exactly if neither the identifier nor the text has
    markup. *)
Theorem C77_written : forall id text, render (Some id) text <> None <-> plain id /\ no_quote id /\ plain text.
Proof.
  intros id text. unfold render. destruct (in_element id) eqn:E.
  - apply in_element_plain in E as P. rewrite andb_true_r.
    destruct (in_quotes id) eqn:Q, (in_element text) eqn:T; cbn [andb]; rewrite <- (in_element_plain text), <- (in_quotes_plain id), Q, T by exact P; split; intuition congruence.
  - rewrite andb_false_r. cbn [andb]. split; [congruence|]. intros (P & _). apply in_element_plain in P. congruence.
Qed.

(** The toolkit then reads a request of the selected sequence, which is its sender, with the
    text... *)
Theorem C77_read : forall id text w, render (Some id) text = Some w -> line id -> line text -> no_tab id -> id <> "" -> text <> "" ->
  create_from_xml (XMessage w) = Ok (Some (mkMessage id (Some id) (Some []) (PText text) None)).
Proof.
  intros id text w R L1 L2 N I T. unfold render in R. destruct (in_quotes id && in_element id && in_element text); [|discriminate].
  apply String.eqb_neq in I. rewrite I in R. injection R as <-. unfold create_from_xml, parse. cbn [w_sid w_sender w_recipients w_payload w_type].
  rewrite read_attr_lit, read_text_lit by assumption. cbn [option_map map all_some merge app].
  assert (F : flush (lit text) = [inl (lit text)]) by (destruct text; [congruence|reflexivity]).
  rewrite F. cbn [map read_item]. rewrite read_text_lit by assumption. cbn [option_map all_some]. rewrite I. reflexivity.
Qed.

(** ... but without a text, or without a sequence, it raises. *)
Theorem C77_refused : forall id text w, line id -> no_tab id ->
  (id <> "" -> render (Some id) "" = Some w -> create_from_xml (XMessage w) = Err EIndex) /\
  (render None text = Some w -> create_from_xml (XMessage w) = Err EParse).
Proof.
  intros id text w L1 N. split.
  - intros I R. unfold render in R. destruct (in_quotes id && in_element id && in_element ""); [|discriminate].
    apply String.eqb_neq in I. rewrite I in R. injection R as <-. unfold create_from_xml, parse. cbn [w_sid w_sender w_recipients w_payload w_type].
    rewrite read_attr_lit, read_text_lit by assumption. cbn [option_map map all_some merge app lit list_ascii_of_string flush]. rewrite I. reflexivity.
  - intros R. unfold render in R. destruct (in_quotes "" && in_element "" && in_element text); [|discriminate]. injection R as <-.
    unfold create_from_xml, parse. cbn [w_sid w_sender w_recipients w_payload w_type]. cbn [merge app]. unfold flush.
    change (read_attr (lit "")) with (Some ""). cbn [map all_some].
    destruct (all_some _); reflexivity.
Qed.

(** With a tab in the identifier sender and sequence differ. *)
Theorem C77_tab : exists id w m, line id /\ render (Some id) "x" = Some w /\ create_from_xml (XMessage w) = Ok (Some m) /\ m_sender m = Some id /\ m_sid m <> id.
Proof.
  eexists (String "009" "A"), _, _. split; [intros c [<-|[<-|[]]]; [left; reflexivity|right; vm_compute; lia]|].
  split; [reflexivity|]. split; [reflexivity|]. split; [reflexivity|discriminate].
Qed.

(** A request is sent exactly while the connection is open; only then, and while it is being
    closed, the input is emptied. *)
Theorem C77_sent : forall p input, (snd (request p input) <> None <-> exists to, p_sock p = Opened to) /\
  (input <> "" -> (fst (request p input) = "" <-> exists to, p_sock p = Opened to \/ p_sock p = Closing to)).
Proof.
  intros p input. unfold request. destruct (p_sock p); cbn; split; intros; split; try congruence; eauto; try (intros (t & K); intuition congruence).
Qed.

(** So a request can be lost, the input being empty as if it had been sent... *)
Theorem C77_lost : exists es input, input <> "" /\ request (after page0 es) input = ("", None).
Proof. exists [Create "A"; Connect; Open; Leave], "please". split; [discriminate|reflexivity]. Qed.

(** ... and it may be sent for another sequence than the connection is for, or for none. *)
Theorem C77_misdirected : exists es es' w w', request (after page0 es) "x" = ("", Some (Some "A", Some w)) /\ w_sid w = lit "B" /\
  request (after page0 es') "x" = ("", Some (None, Some w')) /\ create_from_xml (XMessage w') = Err EParse.
Proof.
  eexists [Create "A"; Create "B"; Connect; Open; Select "B"], [Connect; Open], _, _. repeat split.
Qed.

(** ** Cases *)

Example C77_case_read : exists w, request (after page0 [Create "A"; Connect; Open]) "I'd like to" = ("", Some (Some "A", Some w)) /\
  create_from_xml (XMessage w) = Ok (Some (mkMessage "A" (Some "A") (Some []) (PText "I'd like to") None)).
Proof. eexists. split; reflexivity. Qed.
Example C77_case_line : line "A" /\ no_tab "A" /\ plain "I'd like to" /\ no_quote "A".
Proof.
  split; [intros c [<-|[]]; right; vm_compute; lia|]. split; [intros [|[]]; discriminate|]. split; [cbn; repeat split; discriminate|intros [|[]]; discriminate].
Qed.
Example C77_case_markup : render (Some "A") "a & b" = None /\ render (Some "say ""A""") "x" = None /\ render (Some "A") "a > ""b""" <> None /\
  render (Some "A") "]]>" = None.
Proof. repeat split; vm_compute; congruence. Qed.
Example C77_case_empty : exists w, render (Some "A") "" = Some w /\ create_from_xml (XMessage w) = Err EIndex.
Proof. eexists. split; reflexivity. Qed.
Example C77_case_none : render None "x" = Some (mkWire [] None [] "authorsGroupControlRequest" [WText [Lit "x"]]).
Proof. reflexivity. Qed.
Example C77_case_kept : request (after page0 [Create "A"; Connect]) "x" = ("x", None) /\ request (after page0 [Create "A"; Connect; Open; Closed]) "x" = ("x", None).
Proof. split; reflexivity. Qed.

Print Assumptions C77_written.
Print Assumptions C77_read.
Print Assumptions C77_refused.
Print Assumptions C77_tab.
Print Assumptions C77_sent.
Print Assumptions C77_lost.
Print Assumptions C77_misdirected.
