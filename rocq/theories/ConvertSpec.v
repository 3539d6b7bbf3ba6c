(** What conversion to EBU-TT-D is to preserve, for C39. *)

From Coq Require Import List ZArith String Bool QArith.
From Verif Require Import TimingModel TimeModel TimeSpec TimingSpec ClockModel StyleModel SegmentModel ConvertModel.
Import ListNotations.
Open Scope Z_scope.

(** ** Presentation times *)

(** Timed content, of the one format or the other: a leaf is a piece of text
    (or, None, a line break). *)
Inductive ttree := Leaf (s : option string) | Tm (b e : option Z) (kids : list ttree).

(** When the leaves are presented, in document order: begins add up on the way
    down, ends count from the begin of the parent and cut each other short.  A
    begin of None: no element around the leaf has one. *)
Definition at_ (from : option Z) : Z := match from with Some v => v | None => 0 end.
Definition start (from b : option Z) : option Z :=
  match b with Some v => Some (at_ from + v) | None => from end.
Definition stop (from lim e : option Z) : option Z :=
  match e, lim with
  | None, _ => lim
  | Some v, None => Some (at_ from + v)
  | Some v, Some l => Some (Z.min (at_ from + v) l)
  end.
Definition piece : Type := option string * option Z * option Z.
Fixpoint display (from lim : option Z) (t : ttree) : list piece :=
  match t with
  | Leaf s => [(s, from, lim)]
  | Tm b e kids => flat_map (display (start from b) (stop from lim e)) kids
  end.

Definition us (a : option tattr) : option Z := option_map ta_us a.

Fixpoint ftree (n : fnode) : ttree :=
  match n with
  | FText s => Leaf (Some s)
  | FBr => Leaf None
  | FNode _ _ _ _ b e _ _ kids => Tm (us b) (us e) (map ftree kids)
  end.
Fixpoint dtree (n : dnode) : ttree :=
  match n with
  | DText s => Leaf (Some s)
  | DBr => Leaf None
  | DNode _ _ _ _ b e kids => Tm (us b) (us e) (map dtree kids)
  end.

(** The body as the timing pass sees it, for its end (TimingSpec.body_end). *)
Fixpoint ftiming (n : fnode) : elem :=
  match n with
  | FNode _ _ _ _ b e _ _ kids => Timed b e (map ftiming kids)
  | _ => Other
  end.
Definition ftiming_body (b : fbody) : body :=
  mkBody (fb_begin b) (fb_end b) (fb_dur b) (map ftiming (fb_kids b)).

Definition source_display (d : fdoc) : list piece :=
  match fd_body d with
  | None => []
  | Some b => flat_map (display (us (fb_begin b)) (body_end 0 (ftiming_body b))) (map ftree (fb_kids b))
  end.
Definition result_display (d : ddoc) : list piece :=
  match dd_body d with
  | None => []
  | Some ks => flat_map (display None None) (map dtree ks)
  end.

Definition shift (f : Z -> Z) (p : piece) : piece :=
  let '(s, b, e) := p in (s, option_map f b, option_map f e).

(** The difference between media time and the time of the clock. *)
Definition gap (c : clock) : Z := k_remote c - k_local c.

(** ** The documents of the theorems *)

(** No times on divs. *)
Inductive divs_untimed : fnode -> Prop :=
| du_text s : divs_untimed (FText s)
| du_br : divs_untimed FBr
| du_node k i r st b e sz ln kids :
    match k with P | Span => True | _ => b = None /\ e = None end -> Forall divs_untimed kids ->
    divs_untimed (FNode k i r st b e sz ln kids).

(** No times at all, and no timed element within a timed element. *)
Inductive untimed_f : fnode -> Prop :=
| uf_text s : untimed_f (FText s)
| uf_br : untimed_f FBr
| uf_node k i r st sz ln kids :
    Forall untimed_f kids -> untimed_f (FNode k i r st None None sz ln kids).
Inductive one_level : fnode -> Prop :=
| ol_text s : one_level (FText s)
| ol_br : one_level FBr
| ol_timed k i r st b e sz ln kids :
    Forall untimed_f kids -> one_level (FNode k i r st b e sz ln kids)
| ol_node k i r st sz ln kids :
    Forall one_level kids -> one_level (FNode k i r st None None sz ln kids).

Definition times_in_p_and_span (d : fdoc) : Prop :=
  forall b, fd_body d = Some b ->
    fb_begin b = None /\ fb_end b = None /\ fb_dur b = None /\ Forall divs_untimed (fb_kids b).
Definition one_level_doc (d : fdoc) : Prop :=
  forall b, fd_body d = Some b -> Forall one_level (fb_kids b).

(** The content model of EBU-TT-D, on the source. *)
Definition fits_d (k : ekind) (n : fnode) : bool :=
  match k, n with
  | Body, FNode Div _ _ _ _ _ _ _ _ => true
  | Div, FNode P _ _ _ _ _ _ _ _ => true
  | P, FNode Span _ _ _ _ _ _ _ _ | P, FText _ | P, FBr | Span, FText _ | Span, FBr => true
  | _, _ => false
  end.
Inductive flat : fnode -> Prop :=
| fl_text s : flat (FText s)
| fl_br : flat FBr
| fl_node k i r st b e sz ln kids :
    Forall (fun n => fits_d k n = true) kids -> Forall flat kids ->
    flat (FNode k i r st b e sz ln kids).

(** All times below, of p and span. *)
Fixpoint ps_times (n : fnode) : list Z :=
  match n with
  | FNode k _ _ _ b e _ _ kids =>
      (match k with
       | P | Span => (match b with Some a => [ta_us a] | None => [] end) ++
                     (match e with Some a => [ta_us a] | None => [] end)
       | _ => []
       end) ++ flat_map ps_times kids
  | _ => []
  end%list.
Definition doc_times (d : fdoc) : list Z :=
  match fd_body d with Some b => flat_map ps_times (fb_kids b) | None => [] end.

(** A time that can be expressed in the media time of the clock. *)
Definition expressible (c : clock) (t : Z) : Prop :=
  0 <= t + gap c < max_td /\ min_td <= t - k_local c < max_td.

(** Sizes as the style pass leaves them on p and span when none is zero. *)
Definition proper (f : fsize) : Prop :=
  f_unit f = Cell /\ (0 < f_v f)%Q /\ match f_h f with Some h => (0 < h)%Q | None => True end.
Inductive sized : fnode -> Prop :=
| sz_text s : sized (FText s)
| sz_br : sized FBr
| sz_node k i r st b e sz ln kids :
    (k = P \/ k = Span -> exists f, sz = Some f /\ proper f) -> Forall sized kids ->
    sized (FNode k i r st b e sz ln kids).

(** ** Content *)

(** Structure, identifiers, regions and text. *)
Inductive skel := KText (s : string) | KBr | KEl (k : ekind) (i r : option string) (kids : list skel).
Fixpoint fskel (n : fnode) : skel :=
  match n with
  | FText s => KText s
  | FBr => KBr
  | FNode k i r _ _ _ _ _ kids =>
      KEl k i (match k with Div | P => r | _ => None end) (map fskel kids)
  end.
Fixpoint dskel (n : dnode) : skel :=
  match n with
  | DText s => KText s
  | DBr => KBr
  | DNode k i r _ _ _ kids => KEl k i r (map dskel kids)
  end.

(** ** Computed times *)

(** The computed times of the elements without elements in them, and what
    [display] has for them. *)
Definition is_timed (c : ctree) : bool := match c with CTimed _ _ _ _ _ => true | COther => false end.
Fixpoint leaf_times (c : ctree) : list (Z * option Z) :=
  match c with
  | COther => []
  | CTimed _ _ cb ce ks => if existsb is_timed ks then flat_map leaf_times ks else [(cb, ce)]
  end.
Definition is_tm (t : ttree) : bool := match t with Tm _ _ _ => true | Leaf _ => false end.
Fixpoint leaf_display (from lim : option Z) (t : ttree) : list (Z * option Z) :=
  match t with
  | Leaf _ => []
  | Tm b e ks => if existsb is_tm ks then flat_map (leaf_display (start from b) (stop from lim e)) ks
                 else [(at_ (start from b), stop from lim e)]
  end.
Inductive no_zero_end : fnode -> Prop :=
| nz_text s : no_zero_end (FText s)
| nz_br : no_zero_end FBr
| nz_node k i r st b e sz ln kids :
    us e <> Some 0 -> Forall no_zero_end kids -> no_zero_end (FNode k i r st b e sz ln kids).

(** The documents that conversion accepts, sizes aside: nothing is looked at in
    a body without div. *)
Definition convertible (c : clock) (d : fdoc) : Prop :=
  forall b, fd_body d = Some b -> existsb is_div (fb_kids b) = true ->
    Forall (fun n => fits_d Body n = true) (fb_kids b) /\ Forall flat (fb_kids b) /\
    (fd_base d = Clock -> Forall (expressible c) (doc_times d)).
Definition sized_doc (d : fdoc) : Prop :=
  forall b, fd_body d = Some b -> Forall sized (fb_kids b).
