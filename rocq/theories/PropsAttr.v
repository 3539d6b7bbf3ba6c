(** * Property C63: spacing, language, agent and role of texts *)

From Coq Require Import List String Ascii Bool Arith.
From Verif Require Import AttrModel AttrSpec AttrProofs.
From Verif Require PrintModel PrintSpec.
Import ListNotations.
Open Scope string_scope.

(** In a segment every text keeps language, agent and role. *)
Theorem C63_segment : forall keep d, legal d = true ->
  map besides_space (facts (segment keep d)) = map besides_space (filter (kept keep) (facts d)).
Proof. exact segment_besides. Qed.

(** It keeps all, exactly if the document has no xml:space on tt, or all texts of
    the segment have one nearer to them. *)
Theorem C63_spaced : forall keep d, legal d = true ->
  facts (segment keep d) = filter (kept keep) (facts d) <->
  (d_space d = None \/ Forall (fun f => a_space (f_said f) <> None) (filter (kept keep) (inside d))).
Proof. exact segment_same. Qed.

(** The document that a sequence makes for a window says of every text what the
    document it comes from says, exactly if the first document (without xml:space)
    says the same as its own for whatever is not said nearer to the text. *)
Theorem C63_resegmented : forall lang p l, forallb (fun q => legal (snd q)) (p :: l) = true ->
  facts (resegment lang (p :: l)) = flat_map wanted (p :: l) <->
  Forall (fun q => Forall (agree (unspaced (root (snd p))) (root (snd q)))
                          (filter (kept (fst q)) (inside (snd q)))) (p :: l).
Proof. exact resegment_same. Qed.

(** In an EBU-TT-D document all is kept but the roles of divs. *)
Theorem C63_converted : forall d, legal d = true -> facts (convert d) = facts (unroled_doc d).
Proof. exact convert_facts. Qed.

(** Re-sequencing and encoding keep all that is said of all texts if the documents
    have no xml:space on tt, one language, one agent and role on body, and no role
    on a div. *)
Theorem C63_encoded : forall lang r l,
  a_space r = None ->
  forallb (fun q => legal (snd q)) l = true ->
  forallb (fun q => no_div_roles (snd q)) l = true ->
  Forall (fun q => root (snd q) = r) l ->
  facts (convert (resegment lang l)) = flat_map wanted l.
Proof.
  intros lang r l S L D R. rewrite convert_same;
    [|apply legal_resegment; exact L|apply roles_resegment; exact D].
  destruct l as [|p l]; [reflexivity|].
  apply resegment_same; [exact L|].
  assert (root (snd p) = r) as Rp by (inversion R; assumption).
  rewrite Rp. eapply Forall_impl; [|exact R]. cbv beta. intros q ->.
  apply Forall_forall. intros f _. unfold agree, agree1. destruct r as [s g a o]. cbn in *. subst s.
  repeat split; right; reflexivity.
Qed.

(** No agent named in these documents is declared in them. *)
Theorem C63_agents : forall lang l f,
  (known (resegment lang l) f <-> a_agent (f_said f) = None) /\
  (forall d, known (convert d) f <-> a_agent (f_said f) = None).
Proof.
  intros lang l f. unfold known. rewrite agents_resegment. split.
  - destruct (a_agent (f_said f)); split; intros H; try reflexivity; [destruct H|discriminate H].
  - intros d. assert (d_agents (convert d) = []) as -> by (unfold convert; destruct (existsb _ _); reflexivity).
    destruct (a_agent (f_said f)); split; intros H; try reflexivity; [destruct H|discriminate H].
Qed.

(** Line breaks have no role in them. *)
Theorem C63_breaks : forall lang l d,
  Forall (eq None) (flat_map br_roles (b_kids (resegment lang l))) /\
  Forall (eq None) (flat_map br_roles (b_kids (convert d))).
Proof.
  intros lang l d. split; [apply breaks_resegment|].
  unfold convert. destruct (existsb _ _); [|constructor]. cbn [b_kids]. apply breaks_list, breaks_convert.
Qed.

(** ** Cases *)

Definition quiet : attrs := none.
Definition spoken (lang agent : string) : attrs := mkAttrs None (Some lang) (Some agent) None.
Definition all (_ : nat) : bool := true.

(** Two documents: the second in another language, its body with a role. *)
Definition english : doc :=
  mkDoc None "en" ["anna"] None None
    [El 1 Div quiet [El 2 P (spoken "cy" "anna") [Text "bore"; Br (Some "x-turn"); El 3 Span quiet [Text "da"]];
                     El 4 P quiet [Text "hello"]]].
Definition german : doc :=
  mkDoc None "de" [] None (Some "narration")
    [El 5 Div quiet [El 6 P quiet [Text "hallo"]; El 7 P (spoken "fr" "bert") [Text "salut"]]].

Example C63_case_segment :
  legal english = true /\
  facts (segment (fun i => negb (Nat.eqb i 3)) english) =
  [ mkFact [2; 1] (Some "bore") (mkAttrs None (Some "cy") (Some "anna") None);
    mkFact [2; 1] None (mkAttrs None (Some "cy") (Some "anna") None);
    mkFact [4; 1] (Some "hello") (mkAttrs None (Some "en") None None) ].
Proof. vm_compute. repeat split. Qed.

(** Joined, the German text is English and nobody's narration. *)
Example C63_case_joined :
  legal german = true /\
  map (fun f => (f_text f, a_lang (f_said f), a_role (f_said f))) (wanted (all, german)) =
    [(Some "hallo", Some "de", Some "narration"); (Some "salut", Some "fr", Some "narration")] /\
  map (fun f => (f_text f, a_lang (f_said f), a_role (f_said f)))
    (skipn 4 (facts (resegment "en" [(all, english); (all, german)]))) =
    [(Some "hallo", Some "en", None); (Some "salut", Some "fr", None)].
Proof. vm_compute. repeat split. Qed.

(** The other way round, the English text is narration. *)
Example C63_case_other :
  map (fun f => (f_text f, a_lang (f_said f), a_role (f_said f)))
    (skipn 2 (facts (resegment "en" [(all, german); (fun i => negb (Nat.eqb i 2), english)]))) =
    [(Some "hello", Some "de", Some "narration")].
Proof. vm_compute. reflexivity. Qed.

(** Documents that keep to C63_encoded. *)
Definition second : doc :=
  mkDoc None "en" [] None None [El 8 Div quiet [El 9 P (mkAttrs (Some "preserve") None None (Some "dialog")) [Text "a  b"]]].
Example C63_case_encoded :
  legal second = true /\ no_div_roles second = true /\ root second = root english /\ no_div_roles english = true /\
  facts (convert (resegment "en" [(all, english); (fun i => negb (Nat.eqb i 0), second)])) =
    (facts english ++ [mkFact [9; 8] (Some "a  b") (mkAttrs (Some "preserve") (Some "en") None (Some "dialog"))])%list.
Proof. vm_compute. repeat split. Qed.

(** The agent is named in the segment but not declared. *)
Example C63_case_agents :
  map (fun f => a_agent (f_said f)) (firstn 1 (facts english)) = [Some "anna"] /\ d_agents english = ["anna"] /\
  map (fun f => a_agent (f_said f)) (firstn 1 (facts (segment all english))) = [Some "anna"] /\
  d_agents (segment all english) = [].
Proof. vm_compute. repeat split. Qed.

(** A div's role is lost in EBU-TT-D, a segment's is not. *)
Definition described : doc :=
  mkDoc None "en" [] None None [El 1 Div (mkAttrs None None None (Some "description")) [El 2 P quiet [Text "door shuts"]]].
Example C63_case_role :
  map (fun f => a_role (f_said f)) (facts described) = [Some "description"] /\
  map (fun f => a_role (f_said f)) (facts (segment all described)) = [Some "description"] /\
  map (fun f => a_role (f_said f)) (facts (convert described)) = [None].
Proof. vm_compute. repeat split. Qed.

(** xml:space on tt: kept by the conversion, lost in segments, where white space
    is then shown collapsed.  The documents as PrintSpec shows them. *)
Fixpoint printed (n : node) : PrintModel.node :=
  match n with
  | Text s => PrintModel.Text s
  | Br _ => PrintModel.Br
  | El _ k a kids =>
      PrintModel.El (match k with Div => PrintModel.Div | P => PrintModel.P | Span => PrintModel.Span end)
        (match a_space a with Some v => [("xml:space", v)] | None => [] end) (map printed kids)
  end.
Definition printed_doc (d : doc) : PrintModel.node :=
  PrintModel.El PrintModel.Tt (match d_space d with Some v => [("xml:space", v)] | None => [] end)
    [PrintModel.El PrintModel.Body [] (map printed (b_kids d))].
Definition song : doc :=
  mkDoc (Some "preserve") "en" [] None None [El 1 Div quiet [El 2 P quiet [Text "a  b"]]].
Example C63_case_space :
  legal song = true /\
  PrintSpec.shown (printed_doc song) =
    [[PrintSpec.X "a"; PrintSpec.X " "; PrintSpec.X " "; PrintSpec.X "b"]]%char /\
  PrintSpec.shown (printed_doc (convert song)) = PrintSpec.shown (printed_doc song) /\
  PrintSpec.shown (printed_doc (segment all song)) = [[PrintSpec.X "a"; PrintSpec.Sp; PrintSpec.X "b"]]%char.
Proof. vm_compute. repeat split. Qed.

(** No text, no document: the language of the sequence. *)
Example C63_case_empty : resegment "en" [] = mkDoc None "en" [] None None [] /\ convert (resegment "en" []) = resegment "en" [].
Proof. vm_compute. repeat split. Qed.

(** The copy of a div asks for neither xml:space nor xml:lang, which no legal div
    has. *)
Example C63_case_div :
  facts (segment all (mkDoc None "en" [] None None
    [El 1 Div (mkAttrs (Some "preserve") (Some "fr") (Some "anna") (Some "dialog")) [El 2 P quiet [Text "a"]]])) =
  [mkFact [2; 1] (Some "a") (mkAttrs None (Some "en") (Some "anna") (Some "dialog"))].
Proof. vm_compute. reflexivity. Qed.

Print Assumptions C63_segment.
Print Assumptions C63_spaced.
Print Assumptions C63_resegmented.
Print Assumptions C63_converted.
Print Assumptions C63_encoded.
Print Assumptions C63_agents.
Print Assumptions C63_breaks.
