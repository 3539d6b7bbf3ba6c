(** C74: identifiers outside ASCII. *)

From Coq Require Import List Arith String Ascii Bool Lia.
From Verif Require Import IdentModel IdentSpec IdentProofs.
Import ListNotations.
Open Scope string_scope.

(** ** Messages *)

Theorem C74_format : forall s args t, format s args = Text t <-> renders args s t.
Proof. intros s args t. split; [apply (format_renders args (String.length s)); lia|apply renders_format]. Qed.

(** It raises UnicodeEncodeError exactly for a field outside ASCII with nothing wrong before it. *)
Theorem C74_format_error : forall s args, format s args = EncodeError <-> spoils args s.
Proof. intros s args. split; [apply (format_spoils args (String.length s)); lia|apply spoils_format]. Qed.

(** A unicode template, as one of a configuration, never does: every field is as if it were bytes. *)
Theorem C74_format_unicode : forall s args t,
  (render true (parse s None) args = Text t <-> renders (map (fun p => (fst p, Str (chars (snd p)))) args) s t) /\
  render true (parse s None) args <> EncodeError.
Proof.
  intros s args t. rewrite render_unicode. fold (format s (plainly args)). split; [apply C74_format|].
  intros E. apply C74_format_error in E as (a & n & r & t' & v & _ & _ & _ & L & P). rewrite lookup_plainly in L.
  destruct (lookup n args); [|discriminate]. injection L as <-. apply P. exact I.
Qed.

(** ** Documents *)

Theorem C74_create : forall d,
  (create d = inl d <-> i_fine d = true /\ ~ outside (i_id d)) /\
  (create d = inr UnicodeEncodeError <-> i_fine d = true /\ outside (i_id d)).
Proof.
  intros d. unfold create. rewrite validate_is. unfold if_ascii. rewrite <- ascii_inside, <- ascii_outside.
  destruct (i_fine d), (is_ascii (i_id d)); (split; split; [|intros [A B]|  |intros [A B]]); try discriminate; auto.
Qed.

(** ** Nodes that are given an identifier outside ASCII *)

Definition sent (r : reaction) : Prop := match r with Sent _ => True | _ => False end.

Lemma run_in {S} (step : S -> oracle * idoc -> S * reaction) r : forall l s, In r (run step s l) -> exists s0 x, In x l /\ r = snd (step s0 x).
Proof.
  induction l as [|x l IH]; cbn; intros s H; [destruct H|].
  destruct (step s x) as [s1 e] eqn:E. destruct H as [<-|H]; [exists s, x; rewrite E; auto|].
  destruct (IH _ H) as (s0 & y & Y & Q). eauto.
Qed.

(** Retiming and de-duplicating nodes send nothing at all. *)
Theorem C74_rename : forall retime out, outside out -> forall first l r, In r (run (rename retime out) first l) -> ~ sent r.
Proof.
  intros retime out O first l r H. apply run_in in H as (s & [o d] & _ & ->). apply ascii_outside in O. unfold rename.
  destruct (text_eqb (i_id d) out); [intros []|]. destruct (o_new o).
  - destruct (limit s d) as [f [e|]]; [intros []|]. cbn [snd]. rewrite validate_is. unfold if_ascii. cbn [i_fine i_id]. rewrite O. destruct (o_fine o); intros [].
  - destruct retime; [|intros []]. cbn. destruct (said _); intros [].
Qed.

(** Nor does a producer. *)
Theorem C74_produce : forall out o, sent (produce out o) <-> ~ outside out /\ o_fine o = true.
Proof.
  intros out o. unfold produce, create. rewrite !validate_is. unfold if_ascii. cbn [i_fine i_id]. rewrite <- ascii_inside.
  destruct (is_ascii out); [destruct (o_fine o)|]; cbn; intuition congruence.
Qed.

(** A handover node and a re-sequencing node send their documents whatever it is. *)
Theorem C74_hand_over : forall out known o d g, group_check (match known with Some k => k | None => i_group d end) d = (g, None) ->
  o_emit o = true -> snd (hand_over out known (o, d)) = Sent (mkId out (o_num o) (i_group d) (i_fine d)).
Proof. intros out known o d g G E. unfold hand_over. rewrite G, E. reflexivity. Qed.

Theorem C74_segment : forall sid out o, ~ outside sid -> o_fine o = true ->
  exists d, segment sid out o = Sent d /\ i_id d = out.
Proof.
  intros sid out o S F. apply ascii_inside in S. unfold segment, format. cbn. rewrite S. unfold create. rewrite validate_is. cbn. rewrite F.
  unfold if_ascii. unfold is_ascii in S |- *. rewrite forallb_app, S. cbn. eexists. split; reflexivity.
Qed.

(** ** What becomes of them *)

(** As text they are refused, by any receiver. *)
Theorem C74_carried : forall d, i_fine d = true -> (carry false d = inl d <-> ~ outside (i_id d)) /\
  (outside (i_id d) -> carry false d = inr UnicodeEncodeError).
Proof.
  intros d F. unfold carry. destruct (C74_create d) as [A B]. split; [rewrite A; tauto|]. intros O. apply B. auto.
Qed.

(** In files nothing is left of them but, with a pattern of the configuration, an empty file; a
    pattern with other fields raises besides.
    The XML contains the identifier. *)
Theorem C74_file : forall pattern manifest data d, outside (i_id d) -> (forall c, In c (i_id d) -> In c data) ->
  exists e, snd (emit_file pattern manifest data d) = Some e /\ (e = UnicodeEncodeError \/ e = Other /\ pattern <> None) /\
  (pattern = None -> fst (emit_file pattern manifest data d) = []) /\
  (forall f, In f (fst (emit_file pattern manifest data d)) -> snd f = []).
Proof.
  intros pattern manifest data d O I.
  assert (D : is_ascii data = false) by (apply ascii_outside; destruct O as (c & C & L); exists c; auto).
  unfold emit_file. destruct pattern as [p|].
  - destruct (render true _ _).
    + rewrite D. exists UnicodeEncodeError. cbn. repeat split; auto; [discriminate|]. intros f [<-|[]]. reflexivity.
    + exists UnicodeEncodeError. cbn. repeat split; auto. intros f [].
    + exists Other. cbn. repeat split; auto; [right; split; [reflexivity|discriminate]|]. intros f [].
  - apply ascii_outside in O. unfold format. cbn -[is_ascii]. rewrite O. exists UnicodeEncodeError. cbn. repeat split; auto. intros f [].
Qed.

(** An ASCII document is written. *)
Theorem C74_file_inside : forall manifest data d, ~ outside (i_id d) -> ~ outside data ->
  emit_file None manifest data d = ([(i_id d ++ of_string "_" ++ i_num d ++ of_string ".xml", data)%list], None).
Proof.
  intros manifest data d I D. apply ascii_inside in I. apply ascii_inside in D. unfold emit_file. rewrite msg_manifest. unfold if_ascii, format.
  cbn -[is_ascii]. rewrite I, D. destruct manifest; reflexivity.
Qed.

(** Handed on as objects, a consumer and a re-sequencing node refuse every one. *)
Theorem C74_direct : forall first o d, outside (i_id d) -> snd (consume first (o, d)) = Raised UnicodeEncodeError.
Proof.
  intros first o d O. apply ascii_outside in O. unfold consume, limit. rewrite msg_limited, msg_received. unfold if_ascii.
  destruct (text_eqb _ (i_id d)) eqn:E; [cbn; rewrite O; reflexivity|].
  unfold is_ascii. rewrite forallb_app. fold (is_ascii (i_id d)). rewrite O, andb_false_r. reflexivity.
Qed.

(** So does another handover node, but for those of a wrong authors group, which it refuses anyway. *)
Theorem C74_direct_handover : forall out known o d, outside (i_id d) -> exists e,
  snd (hand_over out known (o, d)) = Raised e /\ (e = UnicodeEncodeError \/ e = UnexpectedAuthorsGroup).
Proof.
  intros out known o d O. apply ascii_outside in O. unfold hand_over, group_check. rewrite msg_insertable. unfold if_ascii. rewrite O.
  destruct (i_group d) as [[|c g]|]; [destruct known; cbn; eexists; (split; [reflexivity|auto])| |destruct known; cbn; eexists; (split; [reflexivity|auto])].
  assert (M : forall k, exists e, snd (let '(g0, e0) := (if text_eqb (c :: g) k then (Some k, Some UnicodeEncodeError)
      else (Some k, match said (format ERR_AUTHORS_GROUP_MISMATCH [("agid_doc", Uni (c :: g)); ("agid_seq", Uni k)]) with
                    | Some e => Some e | None => Some UnexpectedAuthorsGroup end)) in
      (Some g0, match e0 with Some e => Raised e | None => if o_emit o then Sent (mkId out (o_num o) (Some (c :: g)) (i_fine d)) else Ignored end)) =
      Raised e /\ (e = UnicodeEncodeError \/ e = UnexpectedAuthorsGroup)).
  { intros k. rewrite msg_group. unfold if_ascii. destruct (text_eqb _ _); [|destruct (is_ascii ((c :: g) ++ k)%list)]; cbn; eexists; (split; [reflexivity|auto]). }
  destruct known as [[k|]|]; [apply M|cbn; eexists; (split; [reflexivity|auto])|apply M].
Qed.

(** A retiming or de-duplicating node with an identifier of its own takes them. *)
Theorem C74_direct_rename : forall retime out o d, ~ outside out -> outside (i_id d) -> o_new o = true -> o_fine o = true ->
  snd (rename retime out None (o, d)) = Sent (mkId out (i_num d) (i_group d) true).
Proof.
  intros retime out o d N O W F. unfold rename. destruct (text_eqb (i_id d) out) eqn:E; [apply text_eqb_eq in E; congruence|].
  rewrite W. unfold limit. replace (text_eqb (i_id d) (i_id d)) with true by (symmetry; apply text_eqb_eq; reflexivity).
  rewrite validate_is. apply ascii_inside in N. unfold if_ascii. cbn [snd i_fine i_id]. rewrite F, N. reflexivity.
Qed.

(** A consumer takes what has the identifier of the first document it had, whatever comes between. *)
Theorem C74_consumer : forall o d l, Forall2 (judged (i_id d)) (d :: map snd l) (run consume None ((o, d) :: l)).
Proof.
  assert (S : forall f o d, judged f d (snd (consume (Some f) (o, d))) /\ fst (consume (Some f) (o, d)) = Some f).
  { intros f o d. unfold consume, limit. rewrite msg_limited, msg_received. unfold if_ascii. split; [|reflexivity].
    destruct (text_eqb f (i_id d)) eqn:E.
    - apply text_eqb_eq in E. subst f. cbn [snd]. destruct (is_ascii (i_id d)) eqn:A; constructor.
      + reflexivity.
      + apply ascii_inside, A.
      + left. apply ascii_outside, A.
    - assert (N : i_id d <> f) by (intros <-; rewrite (proj2 (text_eqb_eq _ _) eq_refl) in E; discriminate).
      unfold is_ascii. rewrite forallb_app. fold (is_ascii f) (is_ascii (i_id d)). cbn [snd].
      destruct (is_ascii f) eqn:A; [destruct (is_ascii (i_id d)) eqn:B|]; cbn [andb]; constructor; auto.
      + apply ascii_inside, A.
      + apply ascii_inside, B.
      + right. apply ascii_outside, B.
      + left. apply ascii_outside, A. }
  assert (R : forall l f, Forall2 (judged f) (map snd l) (run consume (Some f) l)).
  { induction l as [|[o d] l IH]; intros f; cbn [run map]; [constructor|]. destruct (S f o d) as [A B].
    destruct (consume (Some f) (o, d)) as [s1 e]. cbn in A, B. subst s1. constructor; auto. }
  intros o d l. replace (run consume None ((o, d) :: l)) with (run consume (Some (i_id d)) ((o, d) :: l)) by reflexivity.
  apply (R ((o, d) :: l)).
Qed.

(** ** Within ASCII *)

(** No node raises UnicodeEncodeError. *)
Theorem C74_inside : forall out o d, ~ outside out -> ~ outside (i_id d) ->
  (forall retime first, (forall f, first = Some f -> ~ outside f) -> snd (rename retime out first (o, d)) <> Raised UnicodeEncodeError) /\
  (forall first, (forall f, first = Some f -> ~ outside f) -> snd (consume first (o, d)) <> Raised UnicodeEncodeError) /\
  segment (i_id d) out o <> Raised UnicodeEncodeError /\ produce out o <> Raised UnicodeEncodeError.
Proof.
  intros out o d N I. apply ascii_inside in N. apply ascii_inside in I.
  assert (L : forall first, (forall f, first = Some f -> ~ outside f) -> snd (limit first d) <> Some UnicodeEncodeError).
  { intros first H. unfold limit. cbn -[text_eqb said format]. rewrite msg_limited. unfold if_ascii, is_ascii. rewrite forallb_app.
    fold (is_ascii (i_id d)). rewrite I. destruct first as [f|].
    - specialize (H f eq_refl). apply ascii_inside in H. unfold is_ascii in H. rewrite H. cbn. destruct (text_eqb _ _); discriminate.
    - fold (is_ascii (i_id d)). rewrite I. cbn. destruct (text_eqb _ _); discriminate. }
  split; [|split; [|split]].
  - intros retime first H. specialize (L first H). unfold rename. destruct (text_eqb (i_id d) out); [discriminate|]. destruct (o_new o).
    + destruct (limit first d) as [f [e|]]; cbn -[validate] in *; [congruence|]. rewrite validate_is. unfold if_ascii. cbn [i_fine i_id]. rewrite N.
      destruct (o_fine o); discriminate.
    + destruct retime; cbn -[said format]; [|discriminate]. rewrite msg_duplicate. unfold if_ascii. rewrite I. discriminate.
  - intros first H. specialize (L first H). unfold consume. destruct (limit first d) as [f [e|]]; cbn -[said format] in *; [congruence|].
    rewrite msg_received. unfold if_ascii. rewrite I. discriminate.
  - unfold segment, format. cbn -[create is_ascii]. rewrite I. cbn -[create]. unfold create. rewrite validate_is. unfold if_ascii, is_ascii.
    cbn [i_fine i_id]. unfold is_ascii in I. rewrite forallb_app, I. cbn. destruct (o_fine o); discriminate.
  - unfold produce, create. rewrite !validate_is. unfold if_ascii. cbn [i_fine i_id]. rewrite N. destruct (o_fine o); discriminate.
Qed.

Theorem C74_inside_handover : forall out known o d, ~ outside (i_id d) ->
  (forall g, i_group d = Some g -> ~ outside g) -> (forall k, known = Some (Some k) -> ~ outside k) ->
  snd (hand_over out known (o, d)) <> Raised UnicodeEncodeError.
Proof.
  intros out known o d I G K. apply ascii_inside in I. unfold hand_over, group_check. rewrite msg_insertable. unfold if_ascii. rewrite I.
  assert (E : snd (Some (i_group d), if o_emit o then Sent (mkId out (o_num o) (i_group d) (i_fine d)) else Ignored) <> Raised UnicodeEncodeError)
    by (destruct (o_emit o); discriminate).
  destruct (i_group d) as [[|c g]|]; [destruct known; exact E| |destruct known; exact E].
  specialize (G _ eq_refl). apply ascii_inside in G.
  assert (M : forall k, ~ outside k -> said (format ERR_AUTHORS_GROUP_MISMATCH [("agid_doc", Uni (c :: g)); ("agid_seq", Uni k)]) = None).
  { intros k N. apply ascii_inside in N. rewrite msg_group. unfold if_ascii, is_ascii in *. rewrite forallb_app, G, N. reflexivity. }
  destruct known as [[k|]|]; [|exact E|].
  - rewrite (M k (K k eq_refl)). destruct (text_eqb _ _); [exact E|discriminate].
  - rewrite M by (apply ascii_inside; exact G). destruct (text_eqb _ _); [exact E|discriminate].
Qed.

(** ** Authors groups *)

(** A document of another group is refused, with another exception when a group is outside. *)
Theorem C74_group : forall known d g k, mismatch known d g k ->
  group_check known d = (known, Some (if is_ascii (g ++ k)%list then UnexpectedAuthorsGroup else UnicodeEncodeError)).
Proof.
  intros known d g k (G & N & -> & D). unfold group_check. rewrite G. destruct g as [|c g]; [congruence|].
  destruct (text_eqb (c :: g) k) eqn:E; [apply text_eqb_eq in E; congruence|]. rewrite msg_group. unfold if_ascii.
  destruct (is_ascii _); reflexivity.
Qed.

(** ** Cases *)

(** Untertitel für, and its ASCII. *)
Definition fuer : text := (of_string "Untertitel f" ++ [252] ++ of_string "r")%list.
Definition one := of_string "1".
Definition doc1 := mkId (of_string "Test") one (Some (of_string "Group")) true.
Definition plain := mkOracle true true one true.

Example C74_case_format : format "{x}_{n}.xml" [("n", Str one); ("x", Uni (of_string "Test"))] = Text (of_string "Test_1.xml") /\
  format "{x}_{n}.xml" [("n", Str one); ("x", Uni fuer)] = EncodeError /\ format "{x}" [("x", Str [195; 188])] = Text [195; 188].
Proof. vm_compute. auto. Qed.
Example C74_case_format_error : format "{x}_{y}" [("x", Uni fuer)] = EncodeError /\ format "{y}_{x}" [("x", Uni fuer)] = OtherError /\
  render true (parse "{y}_{x}" None) [("x", Uni fuer); ("y", Str one)] = Text (one ++ of_string "_" ++ fuer)%list.
Proof. vm_compute. auto. Qed.
Example C74_case_consumer : let other := mkId (of_string "Other") one None true in
  run consume None [(plain, doc1); (plain, other); (plain, other); (plain, mkId fuer one None true); (plain, doc1)] =
  [Kept; Raised UnexpectedSequenceIdentifier; Raised UnexpectedSequenceIdentifier; Raised UnicodeEncodeError; Kept] /\
  carry true (mkId fuer one None true) = inl (mkId fuer one None true).
Proof. vm_compute. auto. Qed.
Example C74_case_create : create (mkId fuer one None true) = inr UnicodeEncodeError /\ create doc1 = inl doc1 /\
  create (mkId fuer one None false) = inr Invalid.
Proof. vm_compute. auto. Qed.
Example C74_case_outside : outside fuer.
Proof. apply ascii_outside. reflexivity. Qed.
Example C74_case_rename : run (rename true fuer) None [(plain, doc1); (mkOracle false true one true, doc1)] = [Raised UnicodeEncodeError; Ignored] /\
  run (rename false (of_string "Out")) None [(plain, doc1); (plain, mkId (of_string "Other") one None true); (plain, mkId (of_string "Out") one None true)] =
    [Sent (mkId (of_string "Out") one (Some (of_string "Group")) true); Raised UnexpectedSequenceIdentifier; Raised UnexpectedSequenceIdentifier].
Proof. vm_compute. auto. Qed.
Example C74_case_hand_over : run (hand_over fuer) None [(plain, doc1)] = [Sent (mkId fuer one (Some (of_string "Group")) true)] /\
  carry false (mkId fuer one (Some (of_string "Group")) true) = inr UnicodeEncodeError /\
  segment (of_string "Test") fuer plain = Sent (mkId fuer one None true) /\ produce fuer plain = Raised UnicodeEncodeError /\
  produce (of_string "Out") plain = Sent (mkId (of_string "Out") one None true).
Proof. vm_compute. auto. Qed.
Example C74_case_file : emit_file None true (of_string "<tt>") (mkId (of_string "Test") one None true) = ([(of_string "Test_1.xml", of_string "<tt>")], None) /\
  emit_file None false fuer (mkId fuer one None true) = ([], Some UnicodeEncodeError) /\
  emit_file (Some "{counter}.xml") true fuer (mkId fuer one None true) = ([(of_string "1.xml", [])], Some UnicodeEncodeError).
Proof. vm_compute. auto. Qed.
Example C74_case_direct : run consume None [(plain, mkId fuer one None true)] = [Raised UnicodeEncodeError] /\
  run consume None [(plain, doc1)] = [Kept] /\
  snd (rename true (of_string "Out") None (plain, mkId fuer one None true)) = Sent (mkId (of_string "Out") one None true).
Proof. vm_compute. auto. Qed.
Example C74_case_group : mismatch (Some (of_string "Group")) (mkId (of_string "Test") one (Some fuer) true) fuer (of_string "Group") /\
  group_check (Some (of_string "Group")) (mkId (of_string "Test") one (Some fuer) true) = (Some (of_string "Group"), Some UnicodeEncodeError) /\
  group_check (Some (of_string "Group")) (mkId (of_string "Test") one (Some (of_string "B")) true) = (Some (of_string "Group"), Some UnexpectedAuthorsGroup) /\
  group_check None (mkId (of_string "Test") one (Some fuer) true) = (Some fuer, None).
Proof. vm_compute. repeat split; discriminate. Qed.

Print Assumptions C74_format.
Print Assumptions C74_format_error.
Print Assumptions C74_format_unicode.
Print Assumptions C74_create.
Print Assumptions C74_rename.
Print Assumptions C74_produce.
Print Assumptions C74_hand_over.
Print Assumptions C74_segment.
Print Assumptions C74_carried.
Print Assumptions C74_file.
Print Assumptions C74_file_inside.
Print Assumptions C74_consumer.
Print Assumptions C74_direct.
Print Assumptions C74_direct_handover.
Print Assumptions C74_direct_rename.
Print Assumptions C74_inside.
Print Assumptions C74_inside_handover.
Print Assumptions C74_group.
