(** For C55: the texts to be read at an instant in an EBU-TT Live document and in
    an EBU-TT-D document, and the documents for which they are kept. *)

From Coq Require Import List ZArith String Bool QArith.
From Verif Require Import TimeSpec TimingModel StyleModel SegmentModel SegmentSpec LookSpec ResegModel ConvertModel ConvertSpec.
From Verif Require ConvertStyleSpec SequenceModel SequenceSpec ResegSpec.
Import ListNotations.
Open Scope Z_scope.

(** The texts that are not blank, in document order. *)
Definition word (s : string) : list string := if blank s then [] else [s].
Fixpoint words (s : seen) : list string :=
  match s with
  | TText s => word s
  | TBreak => []
  | TEl _ _ _ _ kids => flat_map words kids
  end.

(** An EBU-TT-D document at a time of media time. *)
Definition lit (t : Z) (p : piece) : list string :=
  match p with
  | (Some s, b, e) =>
      if match b with Some v => v <=? t | None => true end && match e with Some v => t <? v | None => true end
      then word s else []
  | (None, _, _) => []
  end.
Definition on_screen (t : Z) (d : ddoc) : list string := flat_map (lit t) (result_display d).

(** The name of the time base of a sequence. *)
Definition base_name (bs : base) : string := match bs with Clock => "clock" | Media => "media" end.

(** The instant [t] of the document as media time counted from [zero], which
    counts as the next whole millisecond: documents have no finer times. *)
Definition ms_up (t : Z) : Z := - trunc_ms (- t).
Definition media (bs : base) (zero t : Z) : Z := match bs with Clock => t - ms_up zero | Media => t end.

(** The elements EBU-TT-D has room for, and no text beside spans. *)
Definition room (parent : ekind) (v : vnode) : bool :=
  match parent, v with
  | Body, VNode Div _ _ _ _ _ _ _ _ _ _ => true
  | Div, VNode P _ _ _ _ _ _ _ _ _ _ => true
  | P, VNode Span _ _ _ _ _ _ _ _ _ _ => true
  | P, VText _ | P, VBr | Span, VText _ | Span, VBr => true
  | _, _ => false
  end.
Inductive subtitle : vnode -> Prop :=
| su_text s : subtitle (VText s)
| su_br : subtitle VBr
| su_node k i r st b e cb ce vs inh kids :
    Forall (fun v => room k v = true) kids -> (has_span kids = true -> has_text kids = false) ->
    Forall subtitle kids ->
    subtitle (VNode k i r st b e cb ce vs inh kids).

(** The documents of the theorem: all on the same time base, no font size zero
    or negative. *)
Definition suited (bs : base) (c : stored) : Prop :=
  t_base (st_doc c) = bs /\
  (forall v, t_body (st_doc c) = Some v -> Forall (fun w => room Body w = true) (vb_kids v) /\ Forall subtitle (vb_kids v)) /\
  (forall i s f, In (i, s) (els (t_styling (st_doc c))) -> fontSize (s_attrs s) = Some f -> ConvertStyleSpec.fsize_pos f).

Definition pos_size (z : sizing) : Prop :=
  (0 < fst (z_res z))%Q /\ (0 < snd (z_res z))%Q /\
  match z_extent z with Some (w, h) => (0 < w)%Q /\ (0 < h)%Q | None => True end.

(** A document that can be cut for every window and converted: it is valid and
    suited, has a head with styling and layout, its times can be written, no end
    is at or before its begin, and a div is only active together with a
    paragraph of it. *)
Definition encodable (bs : base) (z : sizing) (c0 : computed) (d : SequenceModel.document) (c : stored) : Prop :=
  ResegSpec.holds z c0 d c /\ suited bs c /\
  forall v, t_body (st_doc c) = Some v ->
    SequenceModel.d_end d <> Some (SequenceModel.d_begin d) /\
    (exists l, t_styling (st_doc c) = Some l) /\ (exists l, t_layout (st_doc c) = Some l) /\
    Forall well_timed (vb_kids v) /\ Forall times_ok (vb_kids v) /\
    forall b e, 0 <= b < e -> Forall (busy (Some b) (Some e)) (vb_kids v).

(** The encoder's media_time_zero: for documents on clock time, not after the
    first window. *)
Definition zero_ok (bs : base) (zero first : Z) : Prop := bs = Clock -> 0 <= zero /\ ms_up zero <= first.

(** At every instant (cut to milliseconds) there is to be read in [d] what there
    is to be read in the document active among [h] (C01), inside the window;
    nothing when there is none, and nothing outside the window. *)
Definition reads_like (content : SequenceModel.document -> stored) (h : list SequenceModel.document) (bs : base) (zero : Z)
  (b e : option Z) (dd : ddoc) : Prop :=
  forall t, let T := ms_last t in
    (in_window b e T = false -> on_screen (media bs zero t) dd = []) /\
    (forall d, in_window b e T = true -> SequenceSpec.active h T d ->
       on_screen (media bs zero t) dd = flat_map words (ResegSpec.as_seen (content d) T)) /\
    ((forall d, ~ SequenceSpec.active h T d) -> on_screen (media bs zero t) dd = []).
