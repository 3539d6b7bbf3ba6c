(** C58: what the comparison of XML texts in the project's tests establishes. *)

From Coq Require Import List String Ascii Bool Permutation Relations.
From Verif Require Import CompareModel CompareSpec CompareProofs.
Import ListNotations.
Open Scope string_scope.

(** Two elements compare equal exactly if they are the same: in tag, attributes
    without their order, text as a whole up to runs of white space, and child
    elements. *)
Theorem C58_same : forall w g, wf w -> wf g -> (check_element w g = true <-> same w g).
Proof. exact check_iff. Qed.

(** It is an equivalence of elements. *)
Theorem C58_equivalence :
  (forall t a ks, wf (Elem t a ks) -> check_element (Elem t a ks) (Elem t a ks) = true) /\
  (forall w g, wf w -> wf g -> check_element w g = check_element g w) /\
  (forall w g h, wf w -> wf g -> wf h -> check_element w g = true -> check_element g h = true -> check_element w h = true).
Proof.
  split; [|split].
  - intros t a ks W. apply check_iff; auto using same_refl.
  - intros w g W G. destruct (check_element w g) eqn:A, (check_element g w) eqn:B; auto.
    + apply check_iff, same_sym, check_iff in A; auto; congruence.
    + apply check_iff, same_sym, check_iff in B; auto; congruence.
  - intros w g h W G H A B. apply check_iff in A, B; auto. apply check_iff; auto. now apply same_trans with g.
Qed.

(** White space: the normal forms agree exactly for texts that differ in
    replacing two white characters by a blank. *)
Theorem C58_white : forall s t, norm_whitespace s = norm_whitespace t <-> same_text s t.
Proof. exact norm_iff. Qed.

(** Elements that compare equal are the same with regard to namespaces, in
    whatever scope they are. *)
Theorem C58_namespaces : forall w g, wf w -> wf g -> check_element w g = true -> forall e, same_ns e e w g.
Proof. intros w g W G H e. apply same_namespaces; auto. now apply check_iff. Qed.

(** The place of text between child elements is not compared, nor is there any
    regard of comments, processing instructions and CDATA sections. *)
Theorem C58_blind : forall t a ks ks', wf (Elem t a ks) -> wf (Elem t a ks') ->
  elements ks = elements ks' -> text_of ks = text_of ks' ->
  check_element (Elem t a ks) (Elem t a ks') = true.
Proof.
  intros t a ks ks' W G E T. rewrite check_elem, <- E, <- T, !String.eqb_refl.
  assert (R := proj1 C58_equivalence t a ks W). now rewrite check_elem, !String.eqb_refl in R.
Qed.

(** Between elements without mixed content, and without white characters in a
    row, only the order of attributes is overlooked. *)
Theorem C58_exact : forall w g, plain w -> plain g -> (check_element w g = true <-> equal w g).
Proof.
  intros w g W G. rewrite check_iff by now apply plain_wf.
  split; [now apply exact|now apply equal_same].
Qed.

(** ** Texts *)

(** Of documents that both begin with a declaration the roots are compared,
    provided the parser accepts them and nothing but comments is before. *)
Definition declared (s : string) : Prop :=
  String.prefix "<?xml" (newlines (strip s)) = true /\ quoted_string s = None /\ quoted_unicode s = None.
Theorem C58_documents : forall parse want got dw dg w g,
  declared want -> parse (newlines (strip want)) = Some dw -> parse (newlines (strip got)) = Some dg ->
  first_node dw = Some w -> first_node dg = Some g -> is_elem w = true -> is_elem g = true ->
  compare_xml parse want got = Some (check_element w g).
Proof.
  intros parse want got dw dg w g (D & Q & U) PW PG FW FG EW EG.
  unfold compare_xml, prepare, strip_quotes. rewrite Q, U, D, PW, PG, FW, FG.
  destruct w; try discriminate. destruct g; try discriminate. reflexivity.
Qed.

(** When the first text has no declaration and the second has, a parser that
    accepts declarations only at the start refuses. *)
Theorem C58_undeclared : forall parse want got,
  (forall s, parse ("<root><?xml" ++ s) = None) ->
  quoted_string want = None -> quoted_unicode want = None ->
  String.prefix "<?xml" (newlines (strip want)) = false ->
  String.prefix "<?xml" (newlines (strip got)) = true ->
  compare_xml parse want got = None.
Proof.
  intros parse want got P Q U W G. unfold compare_xml, prepare, strip_quotes. rewrite Q, U, W.
  assert (E : exists s, wrap (newlines (strip got)) = "<root><?xml" ++ s).
  { revert G. generalize (newlines (strip got)). intros g G.
    do 5 (destruct g as [|? g]; [discriminate|]; cbn [String.prefix] in G;
          match type of G with (if ascii_dec ?x ?y then _ else _) = true => destruct (ascii_dec x y); [subst|discriminate] end).
    exists (g ++ "</root>"). reflexivity. }
  destruct E as [s ->]. rewrite P. destruct (parse (wrap _)); reflexivity.
Qed.

(** Something other than a comment before the root raises an exception. *)
Theorem C58_prolog : forall parse want got dw s,
  parse (fst (prepare want got)) = Some dw -> first_node dw = Some (Instr s) -> compare_xml parse want got = None.
Proof.
  intros parse want got dw s P F. unfold compare_xml. destruct (prepare want got) as [w g]. cbn [fst] in P.
  rewrite P, F. destruct (parse g); reflexivity.
Qed.

(** Quotes are taken off texts that both have them: the same at both ends, for
    the second kind with u before. *)
Lemma last_drop : forall t c, last_char (t ++ String c "") = Some c /\ drop_last (t ++ String c "") = t.
Proof.
  induction t as [|x t IH]; intros c; [auto|]. destruct (IH c) as [L D]. cbn [append last_char drop_last]. rewrite L, D.
  destruct t; auto.
Qed.
Lemma last_split : forall s c, last_char s = Some c -> s = drop_last s ++ String c "".
Proof.
  induction s as [|x s IH]; intros c H; [discriminate|]. destruct s as [|y s]; [injection H as ->; reflexivity|].
  change (String x (String y s) = String x (drop_last (String y s) ++ String c "")). f_equal. now apply IH.
Qed.
Theorem C58_quotes : forall s t,
  (quoted_string s = Some t <-> exists c, In c ["""";"'"]%char /\ strip s = String c (t ++ String c "")) /\
  (quoted_unicode s = Some t <-> exists c, In c ["""";"'"]%char /\ strip s = String "u" (String c (t ++ String c ""))).
Proof.
  assert (Q : forall c, quote c = true <-> In c ["""";"'"]%char).
  { intros c. unfold quote. rewrite orb_true_iff, !Ascii.eqb_eq. cbn. intuition congruence. }
  assert (N : forall t c, exists d r, t ++ String c "" = String d r) by (intros [|d t] c; cbn; eauto).
  intros s t. unfold quoted_string, quoted_unicode. generalize (strip s). clear s. intros s. split; split.
  - destruct s as [|c [|d r]]; try discriminate. destruct (last_char (String d r)) as [e|] eqn:L; [|discriminate].
    destruct (Ascii.eqb_spec c e) as [->|]; [|discriminate]. destruct (quote e) eqn:E; [|discriminate].
    cbn [andb]. intros H. assert (H' : drop_last (String d r) = t) by congruence. exists e. split; [now apply Q|].
    rewrite <- H'. f_equal. now apply last_split.
  - intros (c & C & ->). apply Q in C. destruct (last_drop t c) as [L D]. destruct (N t c) as (d & r & E).
    rewrite E in *. rewrite L, Ascii.eqb_refl, C, D. reflexivity.
  - destruct s as [|u [|c [|d r]]]; try discriminate. destruct (last_char (String d r)) as [e|] eqn:L; [|discriminate].
    destruct (Ascii.eqb_spec u "u") as [->|]; [|discriminate].
    destruct (Ascii.eqb_spec c e) as [->|]; [|discriminate]. destruct (quote e) eqn:E; [|discriminate].
    cbn [andb]. intros H. assert (H' : drop_last (String d r) = t) by congruence. exists e. split; [now apply Q|].
    rewrite <- H'. do 2 f_equal. now apply last_split.
  - intros (c & C & ->). apply Q in C. destruct (last_drop t c) as [L D]. destruct (N t c) as (d & r & E).
    rewrite E in *. rewrite L, !Ascii.eqb_refl, C, D. reflexivity.
Qed.

(** ** Cases *)

Definition doc (attrs : list (string * string)) (kids : list node) : node := Elem "tt:tt" attrs kids.
Definition ns : list (string * string) := [("xmlns:tt", "http://www.w3.org/ns/ttml"); ("xml:lang", "en")].
Definition para (kids : list node) : node := Elem "tt:p" [("xml:id", "p1"); ("begin", "1s")] kids.

Example C58_case_order : check_element (doc ns [para [Text "Hello"]]) (doc (rev ns) [para [Text "Hel"; Comment "x"; Text "lo"]]) = true /\
  wf (doc ns [para [Text "Hello"]]) /\ wf (doc (rev ns) [para [Text "Hel"; Comment "x"; Text "lo"]]).
Proof.
  split; [reflexivity|]. split; repeat constructor; cbn; intuition discriminate.
Qed.
Example C58_case_differs :
  map (check_element (doc ns [para [Text "Hello you"]]))
    [doc ns [para [Text "Hello  you"]]; doc ns [para [Text "Helloyou"]]; doc ns [para []; para [Text "Hello you"]];
     Elem "tt" ns [para [Text "Hello you"]]; doc [] [para [Text "Hello you"]]; doc ns [Elem "tt:p" [("xml:id", "p1"); ("begin", "2s")] [Text "Hello you"]]] =
  [true; false; false; false; false; false].
Proof. reflexivity. Qed.
(** Text moved over a line break of the subtitle; text in a CDATA section. *)
Example C58_case_blind :
  check_element (para [Text "a"; Elem "tt:br" [] []; Text "c"]) (para [Elem "tt:br" [] []; Text "ac"]) = true /\
  check_element (para [Cdata "Hello"]) (para []) = true.
Proof. split; reflexivity. Qed.
(** The depth of an indentation does not count; a single newline does. *)
Example C58_case_white : let nl := String "010" "" in
  check_element (doc ns [Text (nl ++ "  "); para []; Text nl]) (doc ns [Text (nl ++ "    "); para []; Text nl]) = true /\
  check_element (doc ns [Text nl; para []]) (doc ns [para []]) = false /\
  check_element (doc ns [Text nl; para []]) (doc ns [Text " "; para []]) = false.
Proof. repeat split. Qed.
(** The false positive that the comment of the function gives does not occur;
    documents that differ in a prefix only are told apart. *)
Example C58_case_docstring :
  check_element (Elem "elem" [("ns1:myattr", "1")] []) (Elem "elem" [("ns2:myattr", "1")] []) = false.
Proof. reflexivity. Qed.
Example C58_case_prefix : let w := Elem "a:x" [("xmlns:a", "u")] [] in let g := Elem "b:x" [("xmlns:b", "u")] [] in
  check_element w g = false /\ forall e, same_ns e e w g.
Proof.
  split; [reflexivity|]. intros e. constructor; [reflexivity|apply Permutation_refl|apply rst_refl|constructor].
Qed.
Example C58_case_plain : plain (doc ns [para [Text "Hello you"]; para []]).
Proof.
  apply PlainElems; [repeat constructor; cbn; intuition discriminate|].
  constructor; [|constructor; [|constructor]].
  - apply PlainText; [repeat constructor; cbn; intuition discriminate|discriminate|].
    cbn. unfold is_white. cbn. intuition discriminate.
  - apply PlainElems; [repeat constructor; cbn; intuition discriminate|constructor].
Qed.
Example C58_case_prepare :
  prepare "<a/> " " <b/>" = ("<root><a/></root>", "<root><b/></root>") /\
  prepare "'<a/>'" """<b/>""" = ("<root><a/></root>", "<root><b/></root>") /\
  prepare "u'<a/>'" "u'<b/>'" = ("<root><a/></root>", "<root><b/></root>") /\
  prepare "<?xml version='1.0'?>\n<a/>" "<a/>" = ("<?xml version='1.0'?>" ++ String "010" "<a/>", "<a/>") /\
  declared "<?xml version='1.0'?><a/>".
Proof. repeat split; vm_compute; reflexivity. Qed.

(** With a parser of three texts: a document, the same after a comment, and one
    with a style sheet; others it refuses, as it should texts in <root>. *)
Definition decl : string := "<?xml version='1.0'?>".
Definition few (s : string) : option (list node) :=
  if String.eqb s (decl ++ "<a/>") then Some [Elem "a" [] []]
  else if String.eqb s (decl ++ "<!--x--><a />") then Some [Comment "x"; Elem "a" [] []]
  else if String.eqb s (decl ++ "<?xml-stylesheet href='s'?><a/>") then Some [Instr "xml-stylesheet"; Elem "a" [] []]
  else None.
Example C58_case_texts :
  compare_xml few (decl ++ "<a/>") (" " ++ decl ++ "<!--x--><a />") = Some true /\
  compare_xml few (decl ++ "<?xml-stylesheet href='s'?><a/>") (decl ++ "<a/>") = None /\
  compare_xml few "<a/>" (decl ++ "<a/>") = None /\
  forall s, few ("<root><?xml" ++ s) = None.
Proof. repeat split. Qed.

Print Assumptions C58_same.
Print Assumptions C58_equivalence.
Print Assumptions C58_white.
Print Assumptions C58_namespaces.
Print Assumptions C58_blind.
Print Assumptions C58_exact.
Print Assumptions C58_documents.
Print Assumptions C58_undeclared.
Print Assumptions C58_prolog.
Print Assumptions C58_quotes.
