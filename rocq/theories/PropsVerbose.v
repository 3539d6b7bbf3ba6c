(** C59: what a verbose sequence logs, and whether logging is without effect. *)

From Coq Require Import List ZArith String Bool Lia.
From Verif Require Import SequenceModel SequenceSpec SequenceProofs SequenceHistory TimelineModel VerboseModel VerboseSpec VerboseProofs.
Import ListNotations.
Open Scope string_scope.
Open Scope list_scope.
Open Scope Z_scope.

(** ** Paragraphs *)

(** The texts of a paragraph are all logged, in order and whatever the range. *)
Theorem C59_text : forall b e x ls, to_lines b e x = Some ls -> line_texts ls = texts x.
Proof. intros b e x ls. apply to_lines_texts. Qed.

(** Given an end, each paragraph or span has one line with its times, outer ones
    first.  The range in it is the part of the element on screen within the
    range asked for; it is missing if the element begins after the end.  Without
    an end there are no times at all. *)
Theorem C59_range : forall b x ls,
  (forall z, to_lines b (Some z) x = Some ls ->
     Forall2 (fun w l => fst l = w /\ (snd l = None <-> z <= (let '(_, _, _, cb, _) := w in cb)) /\
                         forall t, within (snd l) t <-> after_begin b t /\ t < z /\ on_screen w t)
             (timed x) (line_times ls)) /\
  (to_lines b None x = Some ls -> line_times ls = []).
Proof. intros b x ls. split; [intros z H; exact (to_lines_times b z x ls H)|apply to_lines_no_times]. Qed.

(** The exception comes with metadata, wherever it is, and with nothing else. *)
Theorem C59_fails : forall b e x, to_lines b e x = None <-> meta_in x.
Proof. exact to_lines_none. Qed.

(** ** Documents *)

(** A document is logged with all its paragraphs, and fails if any of them has
    metadata, also if it is in a paragraph that is not going to be shown. *)
Theorem C59_document : forall V d rb re,
  (forall p, In p (parts V d) <-> exists x lb le l, In x (V (d_obj d)) /\ el_para x = Some (lb, le, l) /\
     p = PCont "p_type" lb le (fst (el_times x)) (snd (el_times x)) l) /\
  doc_lines (V (d_obj d)) rb re None None = all_lines (Some rb) re (parts V d) /\
  (doc_lines (V (d_obj d)) rb re None None = None <-> meta_doc V d).
Proof. intros V d rb re. split; [intros; apply in_parts_el|]. split; [reflexivity|]. apply doc_lines_none. Qed.

(** Of a document that is discarded nothing is logged, provided its elements
    begin no earlier than it does. *)
Theorem C59_discarded : forall V s d z s', discard_document s d z = Ok s' -> timed_inside V d ->
  v_discard_document V s d z = (s', inl [Discarded (d_num d) []]).
Proof. exact sim_discard_inside. Qed.

(** ** Sequences *)

(** Without metadata in paragraphs a verbose sequence is in the same states as
    one that is not, with the same outcomes. *)
Theorem C59_quiet : forall V sid tb cm agid g ops,
  agid = None \/ agid = Some g -> Forall (op_belongs sid tb cm g) ops -> ops_ok [] [] ops -> Forall (op_plain V) ops ->
  exists s os lg, run_ops (new_sequence sid tb cm agid) ops = (s, os) /\ Forall not_error os /\
    v_run_ops V (new_sequence sid tb cm agid) ops = (s, map VOut os, lg).
Proof.
  intros V sid tb cm agid g ops Ha Hb Hok Hp.
  destruct (sim_ops V sid tb cm g ops [] [] _ [] (known_new sid tb cm agid g Ha) Hb Hok Hp) as (s & os & a' & bs' & lg & H1 & H2 & _ & H3);
    [intros ? []|]. exists s, os, lg. auto.
Qed.

(** A document that is next is logged with its own times; before it the document
    on screen, up to the begin of the new one. *)
Theorem C59_next : forall V sid tb cm agid g ops d,
  agid = None \/ agid = Some g -> Forall (op_belongs sid tb cm g) (ops ++ [Deliver d]) -> ops_ok [] [] (ops ++ [Deliver d]) ->
  Forall (op_plain V) (ops ++ [Deliver d]) -> next (live_after [] ops) d ->
  exists s os lg s' ld,
    v_run_ops V (new_sequence sid tb cm agid) ops = (s, map VOut os, lg) /\
    all_lines (Some (d_begin d)) (d_end d) (parts V d) = Some ld /\
    (forall x, active (live_after [] ops) (d_begin d) x ->
       exists lx, all_lines (Some (d_begin x)) (Some (d_begin d)) (parts V x) = Some lx /\
         v_add_document V s d = (s', VOut OInserted, [TrimmedByNext (d_num x) lx; NewDocument (d_num d) ld])) /\
    ((forall x, ~ active (live_after [] ops) (d_begin d) x) ->
       v_add_document V s d = (s', VOut OInserted, [NewDocument (d_num d) ld])).
Proof.
  intros V sid tb cm agid g ops d Ha Hb Hok Hp N. apply Forall_app in Hb as [Hb Hbd]. apply Forall_app in Hp as [Hp Hpd].
  inversion Hbd as [|? ? Bd _]; subst. inversion Hpd as [|? ? Pd _]; subst. cbn in Bd, Pd.
  destruct (reach V sid tb cm g [Deliver d] ops [] [] _ [] (known_new sid tb cm agid g Ha) Hb Hok Hp) as
    (s & os & a' & bs' & lg & H1 & K & H3 & (Wd & _ & Fn & Fo & _) & P); [intros ? []|].
  destruct (known_compat _ _ _ _ _ _ _ _ _ K Bd Fn) as (ag & C & Hag).
  destruct (parts_plain V d (Some (d_begin d)) (d_end d) Pd) as (ld & Ed).
  pose proof (next_v_add V _ _ _ _ _ _ _ _ _ K Bd Wd N Fo ag C Hag) as A. rewrite Ed in A.
  exists s, os, lg, (bump_last (after_it s bs' d ag) d), ld. split; [assumption|]. split; [assumption|]. split.
  - intros x Hx. destruct (parts_plain V x (Some (d_begin x)) (Some (d_begin d))) as (lx & Ex); [apply P; apply Hx|].
    exists lx. split; [assumption|]. apply (next_cut _ _ _ _ _ _ _ _ _ x K N) in Hx. rewrite Hx, Ex in A. exact A.
  - intros Hn. destruct (cut bs' (d_begin d)) as [x|] eqn:Ec; [|exact A].
    apply (next_cut _ _ _ _ _ _ _ _ _ x K N) in Ec. exfalso. exact (Hn x Ec).
Qed.

(** With metadata in a paragraph the document [x] is stored, but add_document
    ends in an exception.  The next document [d] that comes while it is on screen
    is then lost in another exception, after [x] was ended for its sake: from
    its begin nothing is on screen.  Sent once more, [d] is stored. *)
Theorem C59_lost : forall V sid tb cm agid g ops x d,
  agid = None \/ agid = Some g -> Forall (op_belongs sid tb cm g) (ops ++ [Deliver x; Deliver d]) ->
  ops_ok [] [] (ops ++ [Deliver x; Deliver d]) -> Forall (op_plain V) ops ->
  let h := live_after [] ops in
  next h x -> meta_doc V x -> next (h ++ [x]) d -> before_end (d_begin d) (d_end x) ->
  exists s os lg s1 s2,
    v_run_ops V (new_sequence sid tb cm agid) ops = (s, map VOut os, lg) /\
    v_add_document V s x = (s1, VRaised, []) /\
    (forall t y, In y (h ++ [x]) -> (presented s1 t y <-> active (h ++ [x]) t y)) /\
    v_add_document V s1 d = (s2, VRaised, []) /\
    ~ In d (q_docs s2) /\
    (forall t y, d_begin d <= t -> In y (h ++ [x; d]) -> ~ presented s2 t y) /\
    (plain_doc V d -> exists s3 lg3, v_add_document V s2 d = (s3, VOut OInserted, lg3) /\
       forall t y, In y (h ++ [x; d]) -> (presented s3 t y <-> active (h ++ [x; d]) t y)).
Proof.
  intros V sid tb cm agid g ops x d Ha Hb Hok Hp h Nx Mx Nd Ex. apply Forall_app in Hb as [Hb Hb'].
  inversion Hb' as [|? ? Bx Hb'']; subst. inversion Hb'' as [|? ? Bd _]; subst. cbn in Bx, Bd.
  destruct (reach V sid tb cm g [Deliver x; Deliver d] ops [] [] _ [] (known_new sid tb cm agid g Ha) Hb Hok Hp) as
    (s & os & a' & bs' & lg & H1 & K & H3 & (Wx & _ & Fn & Fo & Wd & _ & Fn' & Fo' & _) & P); [intros ? []|].
  fold h in K, Fn, P. change (live h (Deliver x)) with (h ++ [x]) in Fn'.
  destruct (known_compat _ _ _ _ _ _ _ _ _ K Bx Fn) as (ag & C & Hag).
  (* the first *)
  assert (A : v_add_document V s x = (after_it s bs' x ag, VRaised, [])).
  { rewrite (next_v_add V _ _ _ _ _ _ _ _ _ K Bx Wx Nx Fo ag C Hag), (parts_meta V x _ _ Mx).
    destruct (cut bs' (d_begin x)) as [y|] eqn:Ec; [|reflexivity].
    apply (next_cut _ _ _ _ _ _ _ _ _ y K Nx) in Ec.
    destruct (parts_plain V y (Some (d_begin y)) (Some (d_begin x))) as (ly & ->); [apply P; apply Ec|reflexivity]. }
  destruct (known_add _ _ _ _ _ _ _ _ _ K Bx Wx (next_late _ _ Nx) Fn Fo) as (s' & o & bs1 & Hadd & K' & _).
  rewrite (next_add _ _ _ _ _ _ _ _ _ K Wx Nx ag C) in Hadd.
  assert (Es : bump_last (after_it s bs' x ag) x = s') by congruence. rewrite <- Es in K'.
  apply known_unbump in K'. clear Hadd Es s' o.
  set (s1 := after_it s bs' x ag) in *.
  (* the second *)
  destruct (known_compat _ _ _ _ _ _ _ _ _ K' Bd Fn') as (ag' & C' & Hag').
  assert (Act : active (h ++ [x]) (d_begin d) x).
  { split; [apply in_app_iff; right; left; reflexivity|]. split; [destruct (Nd x); [apply in_app_iff; right; left; reflexivity|lia]|].
    split; [|destruct (d_end x); exact Ex]. intros y Hy _. apply in_app_iff in Hy. destruct Hy as [Hy|[<-|[]]]; [destruct (Nx y Hy)|]; lia. }
  assert (A' : v_add_document V s1 d = (before_it s1 bs1 d ag', VRaised, [])).
  { rewrite (next_v_add V _ _ _ _ _ _ _ _ _ K' Bd Wd Nd Fo' ag' C' Hag').
    apply (next_cut _ _ _ _ _ _ _ _ _ x K' Nd) in Act. rewrite Act, (parts_meta V x _ _ Mx). reflexivity. }
  exists s, os, lg, s1, (before_it s1 bs1 d ag'). split; [assumption|]. split; [assumption|].
  split; [intros t y Hy; exact (known_presented _ _ _ _ _ _ _ _ t y K' Hy)|]. split; [assumption|]. split.
  { rewrite (before_it_stored _ _ _ _ _ _ _ _ d K' ag'). intros Hin.
    rewrite (rep_docs _ _ (hi_rep _ _ _ _ (kn_hinv _ _ _ _ _ _ _ _ K'))) in Hin. apply in_map_iff in Hin. destruct Hin as (b & E & Hin).
    apply (hi_sub _ _ _ _ (kn_hinv _ _ _ _ _ _ _ _ K')) in Hin. rewrite E in Hin. destruct (Nd d Hin). lia. }
  assert (Ehd : forall y, In y (h ++ [x; d]) <-> In y ((h ++ [x]) ++ [d])) by (intros y; rewrite <- app_assoc; reflexivity).
  split.
  { intros t y Ht Hy. apply Ehd in Hy. exact (before_it_dark _ _ _ _ _ _ _ _ _ K' Nd Fo' ag' Hag' t y Ht Hy). }
  intros Pd. destruct (parts_plain V d (Some (d_begin d)) (d_end d) Pd) as (ld & Ed).
  eexists. eexists. split; [rewrite (again V _ _ _ _ _ _ _ _ _ K' Bd Wd Nd Fo' ag' C' Hag'), Ed; reflexivity|].
  destruct (known_add _ _ _ _ _ _ _ _ _ K' Bd Wd (next_late _ _ Nd) Fn' Fo') as (s' & o & bs2 & Hadd & K'' & _).
  rewrite (next_add _ _ _ _ _ _ _ _ _ K' Wd Nd ag' C') in Hadd.
  assert (Es : bump_last (after_it s1 bs1 d ag') d = s') by congruence. rewrite Es. clear Hadd.
  intros t y Hy. replace (h ++ [x; d]) with ((h ++ [x]) ++ [d]) in * by (rewrite <- app_assoc; reflexivity).
  exact (known_presented _ _ _ _ _ _ _ _ t y K'' Hy).
Qed.

(** ** Cases *)

(** A paragraph from 2 s to 9 s with a span from 4 s on. *)
Definition sec (n : Z) : Z := n * 1000000.
Definition a_paragraph : piece :=
  PCont "p_type" (Some "2s") (Some "9s") (sec 2) (Some (sec 9))
    [PText "Hello"; PBr; PCont "span_type" (Some "2s") None (sec 4) (Some (sec 9)) [PText "there"]].

Example C59_case_lines :
  to_lines (Some (sec 3)) (Some (sec 6)) a_paragraph =
    Some [LTimes "p_type" (Some "2s") (Some "9s") (sec 2) (Some (sec 9)) (Some (sec 3, sec 6)); LText "Hello"; LBr;
          LTimes "span_type" (Some "2s") None (sec 4) (Some (sec 9)) (Some (sec 4, sec 6)); LText "there"] /\
  to_lines (Some (sec 3)) (Some (sec 4)) a_paragraph =
    Some [LTimes "p_type" (Some "2s") (Some "9s") (sec 2) (Some (sec 9)) (Some (sec 3, sec 4)); LText "Hello"; LBr;
          LTimes "span_type" (Some "2s") None (sec 4) (Some (sec 9)) None; LText "there"].
Proof. split; reflexivity. Qed.

(** A range that begins after the end of an element is shown upside down. *)
Example C59_case_over :
  to_lines (Some (sec 20)) (Some (sec 30)) (PCont "p_type" None None (sec 2) (Some (sec 9)) []) =
    Some [LTimes "p_type" None None (sec 2) (Some (sec 9)) (Some (sec 20, sec 9))].
Proof. reflexivity. Qed.

Definition doc_at (o n b : Z) (e : option Z) : document := mkDoc o "seq" "media" None None n b e.
Definition one := doc_at 1 1 (sec 0) (Some (sec 10)).
Definition two := doc_at 2 2 (sec 5) (Some (sec 12)).
Definition three := doc_at 3 3 (sec 8) None.
Definition el (b e : Z) (l : list piece) : element := mkEl (sec b, Some (sec e)) (Some (None, None, l)).

(** The second document has metadata in a paragraph that is over before the third
    one comes. *)
Definition texts_of : contents := fun o =>
  if o =? 1 then [el 0 10 [PText "one"]]
  else if o =? 2 then [el 5 6 [PMeta; PText "two"]; el 6 12 [PText "deux"]]
  else [el 8 20 [PText "three"]].

Ltac admissible :=
  first [ solve [cbn; unfold sec; lia]
        | solve [cbn; tauto]
        | solve [right; intros ? H; repeat (destruct H as [<-|H]; [cbn; unfold sec; lia|]); destruct H]
        | solve [intros H; repeat (destruct H as [H|H]; [discriminate|]); destruct H]
        | solve [intros ? H; repeat (destruct H as [<-|H]; [cbn; unfold sec; lia|]); destruct H] ].

Definition at_start := new_sequence "seq" "media" None None.

Example C59_case_quiet :
  ops_ok [] [] [Deliver one; Deliver three; Forget three] /\ Forall (op_plain texts_of) [Deliver one; Deliver three; Forget three] /\
  snd (v_run_ops texts_of at_start [Deliver one; Deliver three; Forget three]) =
    [NewDocument 1 [LTimes "p_type" None None (sec 0) (Some (sec 10)) (Some (sec 0, sec 10)); LText "one"];
     TrimmedByNext 1 [LTimes "p_type" None None (sec 0) (Some (sec 10)) (Some (sec 0, sec 8)); LText "one"];
     NewDocument 3 [LText "three"];
     Discarded 1 []].
Proof.
  split; [|split; [|vm_compute; reflexivity]].
  - cbn [app ops_ok live map]. unfold doc_wf, late_ok, scheduled. repeat match goal with |- _ /\ _ => split end; admissible.
  - repeat constructor; intros y p [<-|[]] Hp Hm; injection Hp as <-; inversion Hm as [|? ? ? ? ? ? z Hz Hm']; subst;
      destruct Hz as [<-|[]]; inversion Hm'.
Qed.

Example C59_case_lost :
  ops_ok [] [] ([Deliver one] ++ [Deliver two; Deliver three]) /\
  next [one] two /\ next ([one] ++ [two]) three /\ meta_doc texts_of two /\ before_end (d_begin three) (d_end two) /\
  let '(s, _, _) := v_run_ops texts_of at_start [Deliver one] in
  let '(s1, o1, _) := v_add_document texts_of s two in
  let '(s2, o2, _) := v_add_document texts_of s1 three in
  let '(s3, o3, _) := v_add_document texts_of s2 three in
  (o1, o2, o3) = (VRaised, VRaised, VOut OInserted) /\
  map d_num (q_docs s2) = [1; 2] /\ resolved_end s2 two = Ok (Some (sec 8)) /\
  map d_num (q_docs s3) = [1; 2; 3] /\ q_last s2 = 1.
Proof.
  split; [|split; [|split; [|split; [|split]]]].
  - cbn [app ops_ok live map]. unfold doc_wf, late_ok, scheduled. repeat match goal with |- _ /\ _ => split end; admissible.
  - intros y [<-|[]]. cbn. unfold sec. lia.
  - intros y [<-|[<-|[]]]; cbn; unfold sec; lia.
  - eexists. eexists. split; [left; reflexivity|]. split; [reflexivity|]. econstructor; [left; reflexivity|constructor].
  - cbn. unfold sec. lia.
  - vm_compute. repeat split; reflexivity.
Qed.

(** An element that begins before its document, as one with a faulty time may:
    then it is logged when the document is discarded. *)
Example C59_case_discarded :
  doc_lines [mkEl (sec 1, Some (sec 4)) (Some (None, None, [PText "early"]))] (sec 5) (Some (sec 3)) None (Some (sec 3)) =
    Some [LTimes "p_type" None None (sec 1) (Some (sec 4)) (Some (sec 5, sec 3)); LText "early"].
Proof. reflexivity. Qed.

Print Assumptions C59_text.
Print Assumptions C59_range.
Print Assumptions C59_fails.
Print Assumptions C59_document.
Print Assumptions C59_discarded.
Print Assumptions C59_quiet.
Print Assumptions C59_next.
Print Assumptions C59_lost.
