(** For C52: what a document extracted from a sequence is to look like, and for
    which documents. *)

From Coq Require Import List ZArith String Bool.
From Verif Require Import SequenceModel SequenceSpec.
From Verif Require Import TimeSpec TimingModel TimingSpec PropsTiming StyleModel PropsScope SegmentModel SegmentSpec SpliceSpec LookSpec ResegModel.
Import ListNotations.
Open Scope Z_scope.

(** What is to be seen of a document at an instant. *)
Definition as_seen (c : stored) (t : Z) : list seen :=
  match t_body (st_doc c) with Some v => looks_checked (st_size c) (st_doc c) v t | None => [] end.

(** Under the identifiers of a segment, those of content left out. *)
Definition as_copied (n : Z) (l : list seen) : list seen :=
  map nameless (map (relook (copy_ref true n) no_align) l).

(** The content belongs to the document the sequence knows: same number, and the
    times computed for it are those of its body (or of a document without
    body). It is validated, all documents are of the same size and their bodies
    pass on the same as [c0]; no region is below another. *)
Definition holds (z : sizing) (c0 : computed) (d : document) (c : stored) : Prop :=
  0 <= d_num d /\ t_seq (st_doc c) = d_num d /\ st_size c = z /\
  match t_body (st_doc c) with
  | None => d_end d = Some (d_begin d)
  | Some v =>
      style_checked_at z (st_doc c) v /\ flat (styling_body (plain_body v)) = true /\
      (exists avail, validate avail (Some (timing_body (plain_body v))) = TOk (d_begin d, d_end d, vtimes_body v) /\ 0 <= at_avail avail) /\
      nn_body (timing_body (plain_body v)) /\
      exists k, body_computed z (unchecked (st_doc c)) = Some k /\ as_parent c0 k
  end.

(** It can be cut for the window (C31). *)
Definition cuttable (c : stored) (b e : option Z) : Prop :=
  forall v, t_body (st_doc c) = Some v -> presentable b e v /\ begin_ok b /\ end_ok e /\
    (is_in_segment (vb_cb v) (vb_ce v) b e = true -> exists g, segment (st_doc c) true b e = GOk g).

(** The windows a sequence asks for. *)
Definition asked (s : seqstate) (b e : option Z) : list (document * option Z * option Z) :=
  match extract_windows s (lookup_range doc_eqb (q_tl s) b e) b e with Ok ws => ws | Err _ => [] end.

(** At every instant (cut to milliseconds) there is to be seen in [u] what there
    is to be seen of the document active among [h] (C01), inside the window;
    nothing when there is none, and nothing outside the window. *)
Definition looks_like (content : document -> stored) (h : list document) (b e : option Z) (u : built) : Prop :=
  forall t, let T := ms_last t in
    (in_window b e T = false -> looks_at None (u_size u) (u_doc u) t = []) /\
    (forall d, in_window b e T = true -> SequenceSpec.active h T d ->
       map nameless (looks_at None (u_size u) (u_doc u) t) = as_copied (d_num d) (as_seen (content d) T)) /\
    ((forall d, ~ SequenceSpec.active h T d) -> looks_at None (u_size u) (u_doc u) t = []).

(** A use of a document for a window, as in the theorems. *)
Definition ready (content : document -> stored) (z : sizing) (c0 : computed) (w : document * option Z * option Z) : Prop :=
  let '(d, b, e) := w in holds z c0 d (content d) /\ cuttable (content d) b e.

(** ** The node *)

Fixpoint arrivals (l : list cinput) : list document :=
  match l with [] => [] | CDoc d :: r => d :: arrivals r | CTick :: r => arrivals r end.
Fixpoint documents {A} (l : list (A + built)) : list built :=
  match l with [] => [] | inr u :: r => u :: documents r | inl _ :: r => documents r end.

(** Documents that can be cut anywhere: timed in whole milliseconds and either
    without body, or of some duration and able to be cut for every window of
    whole milliseconds before 100 hours. *)
Definition cut_anywhere (z : sizing) (c0 : computed) (d : document) (c : stored) : Prop :=
  holds z c0 d c /\ (1000 | d_begin d) /\ match d_end d with Some e => (1000 | e) | None => True end /\
  forall v, t_body (st_doc c) = Some v -> d_end d <> Some (d_begin d) /\
    forall b e, (1000 | b) -> (1000 | e) -> 0 <= b < e -> e < h100 -> cuttable c (Some b) (Some e).
