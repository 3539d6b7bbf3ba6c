(** * Property C62: what is shown of a document that is carried as XML *)

From Coq Require Import List String Ascii Bool Arith Lia.
From Verif Require Import PrintModel PrintSpec PrintProofs PrintShowProofs PrintDocProofs.
Import ListNotations.
Open Scope string_scope.

(** Every document can be read back.  Its text is shown as before exactly if no
    element that preserves white space has more in it than one text without
    carriage return, and no two texts touch that are shown without a blank
    between them. *)
Theorem C62_carried : forall d, legal d = true ->
  exists d', carried d = Some d' /\ legal d' = true /\
    (shown d' = shown d <-> forallb robust (paras false d) = true).
Proof. exact carried_shown. Qed.

(** What one can see and the line breaks are always the same, in the same order. *)
Theorem C62_nothing_lost : forall k d, legal d = true ->
  exists d', hops k d = Some d' /\ map (filter visible) (shown d') = map (filter visible) (shown d).
Proof.
  intros k d L. exists (lays k d). split; [apply (lays_ok k d L)|].
  induction k as [|k IH]; [reflexivity|]. rewrite <- IH.
  destruct (lays_ok k d L) as [_ [L' _]]. apply carried_visible; [exact L'|]. apply carried_lay, L'.
Qed.

(** Carriages after the first change no more, unless an element that preserves
    white space has another in it. *)
Theorem C62_settles : forall d k, legal d = true -> existsb swells_para (paras false d) = false ->
  exists d1 dk, hops 1 d = Some d1 /\ hops (S k) d = Some dk /\ shown dk = shown d1.
Proof. exact settles. Qed.

(** Then each carriage puts in more. *)
Theorem C62_grows : forall d k, legal d = true -> existsb swells_para (paras false d) = true ->
  exists a b, hops (S k) d = Some a /\ hops (S (S k)) d = Some b /\ chars a < chars b.
Proof. exact grows. Qed.

(** ** What the simple producer makes *)

(** node/producer.py 35-49, _interleave_line_breaks. *)
Fixpoint interleave (a : list (string * string)) (lines : list string) : list node :=
  match lines with
  | [] => []
  | [l] => [El Span a [Text l]]
  | l :: r => El Span a [Text l] :: Br :: interleave a r
  end.
(** node/producer.py 51-59, _create_fragment, in a document. *)
Definition fragment (a b c : list (string * string)) (lines : list string) : node :=
  El Div a [El P b (interleave c lines)].

Lemma runs_lines : forall a lines b, mode a false = false -> is_x b = false ->
  apart b (flat_map (runs false) (interleave a lines)) = true.
Proof.
  intros a lines b M. revert b. induction lines as [|l r IH]; intros b B; [reflexivity|].
  assert (forall rs, (forall b', is_x b' = false -> apart b' rs = true) ->
    apart b (items_of false l :: [Bk] :: rs) = true) as G.
  { intros rs A. cbn [apart]. destruct (items_of false l) as [|i q]; cbn [apart is_x last].
    - rewrite B. cbn [andb negb]. apply A. reflexivity.
    - rewrite B, andb_false_r. cbn [andb negb]. apply A. reflexivity. }
  destruct r as [|l2 r].
  - cbn [interleave flat_map runs app]. rewrite M. cbn [apart].
    destruct (items_of false l) as [|i q]; [reflexivity|]. rewrite B. reflexivity.
  - change (interleave a (l :: l2 :: r)) with (El Span a [Text l] :: Br :: interleave a (l2 :: r)).
    cbn [flat_map runs app]. rewrite M. cbn [app]. apply G. exact IH.
Qed.
Lemma kept_lines : forall a lines, mode a false = false ->
  forallb (kept true false) (interleave a lines) = true.
Proof.
  intros a lines M. induction lines as [|l r IH]; [reflexivity|].
  assert (kept true false (El Span a [Text l]) = true) as K by (cbn [kept]; rewrite M; reflexivity).
  destruct r as [|l2 r].
  - cbn [interleave forallb]. rewrite K. reflexivity.
  - change (interleave a (l :: l2 :: r)) with (El Span a [Text l] :: Br :: interleave a (l2 :: r)).
    cbn [forallb]. rewrite K, IH. reflexivity.
Qed.
Lemma legal_lines : forall a lines, forallb (legal_in P) (interleave a lines) = true.
Proof.
  intros a lines. induction lines as [|l r IH]; [reflexivity|]. destruct r as [|l2 r]; [reflexivity|].
  change (interleave a (l :: l2 :: r)) with (El Span a [Text l] :: Br :: interleave a (l2 :: r)).
  cbn [forallb legal_in allowed mixed andb]. exact IH.
Qed.

(** It is shown as before, after any number of carriages, whatever its lines. *)
Theorem C62_producer : forall at_ ab ad ap asp h texts k,
  mode at_ false = false -> mode ab false = false -> mode ad false = false ->
  mode ap false = false -> mode asp false = false ->
  exists d', hops k (El Tt at_ [Leaf h; El Body ab (map (fragment ad ap asp) texts)]) = Some d' /\
    shown d' = shown (El Tt at_ [Leaf h; El Body ab (map (fragment ad ap asp) texts)]).
Proof.
  intros at_ ab ad ap asp h texts k Mt Mb Md Mp Ms.
  set (d := El Tt at_ [Leaf h; El Body ab (map (fragment ad ap asp) texts)]).
  assert (legal d = true) as L.
  { unfold d. cbn [legal forallb legal_in allowed andb]. rewrite andb_true_r.
    apply forallb_forall. intros n H. apply in_map_iff in H. destruct H as [l [<- _]].
    cbn [fragment legal_in allowed forallb andb]. rewrite legal_lines. reflexivity. }
  assert (paras false d = map (fun l => (false, interleave asp l)) texts) as PA.
  { unfold d. cbn [paras flat_map app]. rewrite Mt, Mb, app_nil_r.
    induction texts as [|l r IH]; [reflexivity|]. cbn [map flat_map fragment paras app].
    rewrite Md, Mp. cbn [app]. f_equal. apply IH. clear; cbn [legal forallb legal_in allowed andb]. rewrite andb_true_r.
    apply forallb_forall. intros n H. apply in_map_iff in H. destruct H as [l0 [<- _]].
    cbn [fragment legal_in allowed forallb andb]. rewrite legal_lines. reflexivity. }
  assert (forallb robust (paras false d) = true) as R.
  { rewrite PA. apply forallb_forall. intros p H. apply in_map_iff in H. destruct H as [l [<- _]].
    unfold robust, kept_para, apart_para. cbn [fst snd negb orb andb].
    rewrite kept_lines, runs_lines by (exact Ms || reflexivity). reflexivity. }
  assert (existsb swells_para (paras false d) = false) as Q.
  { rewrite PA. apply not_true_iff_false. intros E. apply existsb_exists in E. destruct E as [p [H E]].
    apply in_map_iff in H. destruct H as [l [<- _]]. unfold swells_para in E. cbn [fst snd andb orb] in E.
    apply existsb_exists in E. destruct E as [n [H E]].
    assert (forall l, Forall (fun n => swells false n = false) (interleave asp l)) as F.
    { clear - Ms. induction l as [|x r IH]; [constructor|].
      assert (swells false (El Span asp [Text x]) = false) as G by (cbn [swells]; rewrite Ms; reflexivity).
      destruct r as [|x2 r]; [constructor; [exact G|constructor]|].
      constructor; [exact G|]. constructor; [reflexivity|exact IH]. }
    specialize (F l). rewrite Forall_forall in F. rewrite (F n H) in E. discriminate E. }
  destruct k as [|k]; [exists d; split; reflexivity|].
  destruct (settles d k L Q) as [d1 [dk [H1 [Hk E]]]]. exists dk. split; [exact Hk|]. rewrite E.
  destruct (carried_shown d L) as [d' [C [_ I]]]. cbn [hops] in H1. rewrite C in H1. injection H1 as <-.
  apply I, R.
Qed.

(** ** Cases *)

Definition doc (a : list (string * string)) (kids : list node) : node :=
  El Tt [] [Leaf "head"; El Body [] [El Div [] [El P a kids]]].
Fixpoint chs (s : string) : list item :=
  match s with "" => [] | String c r => (if Ascii.eqb c " " then Sp else X c) :: chs r end.
Definition after_hops (k : nat) (d : node) : option (list (list item)) :=
  option_map shown (hops k d).

(** A word of which a part is set apart by a span becomes two. *)
Definition half : node := doc [] [Text "foo"; El Span [("style", "red")] [Text "bar"]].
Example C62_case_half :
  legal half = true /\ forallb robust (paras false half) = false /\
  shown half = [chs "foobar"] /\ after_hops 1 half = Some [chs "foo bar"] /\
  after_hops 5 half = Some [chs "foo bar"].
Proof. vm_compute. repeat split. Qed.

(** Two spans side by side. *)
Example C62_case_spans :
  shown (doc [] [El Span [] [Text "foo"]; El Span [] [Text "bar"]]) = [chs "foobar"] /\
  after_hops 1 (doc [] [El Span [] [Text "foo"]; El Span [] [Text "bar"]]) = Some [chs "foo bar"].
Proof. vm_compute. repeat split. Qed.

(** A mark of punctuation after a span. *)
Example C62_case_stop :
  after_hops 1 (doc [] [Text "Come "; El Span [] [Text "here"]; Text "!"]) = Some [chs "Come here !"].
Proof. vm_compute. reflexivity. Qed.

(** Blanks around the spans, and line breaks: nothing changes. *)
Definition spaced : node :=
  doc [] [Text "Come "; El Span [] [Text "here"]; Text " now,"; Br; El Span [] [El Span [] [Text "please"]]].
Example C62_case_spaced :
  legal spaced = true /\ forallb robust (paras false spaced) = true /\
  shown spaced = [(chs "Come here now," ++ Bk :: chs "please")%list] /\
  after_hops 3 spaced = Some (shown spaced).
Proof. vm_compute. repeat split. Qed.

(** What is written and read for it. *)
Example C62_case_read :
  carried half =
  Some (doc [] [Text (nl ++ "        foo" ++ nl ++ "        "); El Span [("style", "red")] [Text "bar"];
                Text (nl ++ "      ")]).
Proof. vm_compute. reflexivity. Qed.

(** White space that is preserved: one text is kept, more grow with each hop. *)
Definition keep : list (string * string) := [("xml:space", "preserve")].
Example C62_case_keep :
  forallb robust (paras false (doc keep [Text "a  b "])) = true /\
  after_hops 4 (doc keep [Text "a  b "]) = Some [[X "a"; X " "; X " "; X "b"; X " "]]%char.
Proof. vm_compute. repeat split. Qed.
Definition song : node := doc keep [Text "la"; Br; Text "la"].
Example C62_case_song :
  legal song = true /\ existsb swells_para (paras false song) = true /\
  map (fun k => option_map chars (hops k song)) [0; 1; 2; 3] = [Some 4; Some 38; Some 72; Some 106].
Proof. vm_compute. repeat split. Qed.

(** A carriage return in preserved text. *)
Example C62_case_cr :
  forallb robust (paras false (doc keep [Text (String CR "a")])) = false /\
  after_hops 1 (doc keep [Text (String CR "a")]) = Some [[X LF; X "a"]]%char.
Proof. vm_compute. repeat split. Qed.

(** Two texts side by side in an element that preserves: once only. *)
Example C62_case_texts :
  existsb swells_para (paras false (doc keep [Text "a"; Text "b"])) = false /\
  map (fun k => option_map chars (hops k (doc keep [Text "a"; Text "b"]))) [0; 1; 2] =
    [Some 2; Some 27; Some 27].
Proof. vm_compute. repeat split. Qed.

(** Text where there may be none is refused. *)
Example C62_case_refused :
  carried (El Tt [] [El Body [] [Text "lost"]]) = None.
Proof. vm_compute. reflexivity. Qed.

(** Divs in divs and metadata in text are legal and come through. *)
Definition nested : node :=
  El Tt [] [El Body [] [El Div [] [El Div [] [El P [] [Leaf "who"; Text "one two"]; Leaf "why"]]]].
Example C62_case_nested :
  legal nested = true /\ forallb robust (paras false nested) = true /\ shown nested = [chs "one two"] /\
  after_hops 3 nested = Some (shown nested).
Proof. vm_compute. repeat split. Qed.

(** What counts as white space: a tab does, the byte of a no-break space in
    Latin-1 does not. *)
Example C62_case_white :
  carried (El Tt [] [El Body [] [Text (String "009" "")]]) = Some (El Tt [] [El Body [] []]) /\
  carried (El Tt [] [El Body [] [Text (String "160" "")]]) = None /\
  after_hops 1 (doc [] [Text (String "a" (String "009" "b"))]) = Some [chs "a b"].
Proof. vm_compute. repeat split. Qed.

Print Assumptions C62_carried.
Print Assumptions C62_nothing_lost.
Print Assumptions C62_settles.
Print Assumptions C62_grows.
Print Assumptions C62_producer.
