(** Cutting the segment between two times out of a document.

    Sources: ebu_tt_live/documents/ebutt3_segmentation.py (EBUTT3Segmenter),
    ebu_tt_live/bindings/pyxb_utils.py 94-142 (traversal),
    ebu_tt_live/bindings/validation/timing.py 272-312,
    ebu_tt_live/bindings/validation/content.py 8-43,
    ebu_tt_live/bindings/validation/base.py 47-56, 131-155,
    ebu_tt_live/bindings/validation/presentation.py 162-166, 191-195,
    ebu_tt_live/bindings/__init__.py: the copy hooks of style (109-129,
    427-429), tt (648-654), p, span, br, div, body, styling and region
    (686-699, 730-744, 757-769, 797-810, 815-818, 834-845, 874-891, 905-915,
    990-996, 1021-1035, 1043-1057, 1075-1077).

    Left out: metadata elements (they are not carried into the segment), the
    attributes space, lang, agent and role, the sizes of a region, and the smpte
    time base. *)

From Coq Require Import List ZArith String Ascii Bool.
From Verif Require Import TimingModel TimeModel IdModel StyleModel TimelineModel.
Import ListNotations.
Open Scope Z_scope.

(** ** Documents *)

(** The content of body, div, p and span. *)
Inductive node :=
| Text (s : string)
| Br
| Node (k : ekind) (i : option string) (region : option string) (style : option (list string))
       (b e : option tattr) (kids : list node).

(** The same after validation: an element also carries computed_begin_time,
    computed_end_time, validated_styles and inherited_region.  Its
    _validated_region is the element its region attribute names. *)
Inductive vnode :=
| VText (s : string)
| VBr
| VNode (k : ekind) (i : option string) (region : option string) (style : option (list string))
        (b e : option tattr)
        (cb : Z) (ce : option Z) (styles : list string) (inherited : option string)
        (kids : list vnode).

Record bodyd := mkBodyd {
  bd_style : option (list string); bd_begin : option tattr; bd_end : option tattr;
  bd_dur : option tattr; bd_kids : list node }.

(** A body has no inherited region: none is set when it is visited. *)
Record vbody := mkVbody {
  vb_style : option (list string); vb_begin : option tattr; vb_end : option tattr;
  vb_dur : option tattr; vb_cb : Z; vb_ce : option Z; vb_styles : list string;
  vb_kids : list vnode }.

Inductive base := Clock | Media.

(** A document: time base, sequence number, head/styling, head/layout, body.
    The head is required by the schema, the rest is optional. *)
Record docu (B : Type) := mkDocu {
  t_base : base; t_seq : Z;
  t_styling : option (list (string * style_el));
  t_layout : option (list (string * region_el));
  t_body : option B }.
Arguments mkDocu {B}. Arguments t_base {B}. Arguments t_seq {B}. Arguments t_styling {B}.
Arguments t_layout {B}. Arguments t_body {B}.

(** ** Exceptions *)

(** KeyError of the instance mapping, AttributeError on None, and the failures
    to make a time value. *)
Inductive gerr := KeyErr (i : string) | AttributeErr | TimeErr.
Inductive gres (A : Type) := GOk (a : A) | GErr (e : gerr).
Arguments GOk {A} a.
Arguments GErr {A} e.
Definition gbind {A B} (r : gres A) (f : A -> gres B) : gres B :=
  match r with GOk a => f a | GErr e => GErr e end.

(** ** Times *)

(** bindings/__init__.py 648-654, get_timing_type, and ebutt3_segmentation.py
    137-143, _convert_time: the text made from a timedelta has to be legal for
    the type.  TimeErr is TimeFormatOverflowError or the facet error; None is
    turned into the text 'None', which is not legal. *)
Definition timing_type (bs : base) (t : option Z) : gres tattr :=
  match t with
  | None => GErr TimeErr
  | Some v =>
      match bs with
      | Clock => match limited_of v with
                 | Some s => match clock_td true s with
                             | Some u => GOk (mkTattr s u)
                             | None => GErr TimeErr
                             end
                 | None => GErr TimeErr
                 end
      | Media => match clock_td false (full_of v) with
                 | Some u => GOk (mkTattr (full_of v) u)
                 | None => GErr TimeErr
                 end
      end
  end.

(** timing.py 299-308: the times of a leaf, cut to the segment. *)
Definition trim_begin (sb : option Z) (cb : Z) : Z :=
  match sb with Some s => if cb <? s then s else cb | None => cb end.
Definition trim_end (se ce : option Z) : option Z :=
  match se, ce with
  | None, _ => ce
  | Some s, None => Some s
  | Some s, Some c => if s <? c then Some s else Some c
  end.

(** ** Content *)

(** unicode.isspace() for texts of the first 256 characters. *)
Definition is_space (c : ascii) : bool :=
  let n := nat_of_ascii c in
  ((9 <=? n) && (n <=? 13) || (28 <=? n) && (n <=? 32) || (n =? 133) || (n =? 160))%nat.
Fixpoint all_space (s : string) : bool :=
  match s with
  | EmptyString => true
  | String c r => (is_space c && all_space r)%bool
  end.
Definition isspace (s : string) : bool :=
  match s with EmptyString => false | _ => all_space s end.

Definition is_el (k : ekind) (n : node) : bool :=
  match n, k with
  | Node Div _ _ _ _ _ _, Div | Node P _ _ _ _ _ _, P | Node Span _ _ _ _ _ _, Span
  | Node Body _ _ _ _ _ _, Body => true
  | _, _ => false
  end.

(** content.py 27-40, contains_subtitles, on the children of a p or span. *)
Definition contains_subtitles (kids : list node) : bool :=
  existsb (fun n => match n with
                    | Br => true
                    | Text s => negb (isspace s)
                    | _ => is_el Span n
                    end) kids.

(** content.py 42-43, and bindings/__init__.py 877-884 for div.  A body is never
    asked. *)
Definition is_empty (k : ekind) (kids : list node) : bool :=
  match k with
  | Div => negb (existsb (fun n => is_el Div n || is_el P n) kids)
  | _ => negb (contains_subtitles kids)
  end.

(** timing.py 288-289; bindings/__init__.py 733-737, 800-804. *)
Definition is_timed_leaf (k : ekind) (kids : list node) : bool :=
  match k with
  | P | Span => negb (existsb (is_el Span) kids)
  | _ => false
  end.

(** ** The segmenter *)

(** What the traversal reads: the document's time base and sequence number, the
    flag, the window, and the styles and regions in the instance mapping. *)
Record sctx := mkSctx {
  x_base : base; x_seq : Z; x_dec : bool; x_begin : option Z; x_end : option Z;
  x_styles : list string; x_regions : list string }.

(** ebutt3_segmentation.py 65-67, 76-77: the identifier of a copy. *)
Definition copy_id (dec : bool) (seq : Z) (i : option string) : option string :=
  if dec then deconflict seq i else i.
Definition copy_ref (dec : bool) (seq : Z) (i : string) : string :=
  match copy_id dec seq (Some i) with Some j => j | None => i end.

(** base.py 131-155, _semantic_deconflicted_ids for a reference, looked up
    among the elements already copied. *)
Definition map_ref (x : sctx) (copied : list string) (i : string) : gres string :=
  if mem i copied then GOk (copy_ref (x_dec x) (x_seq x) i) else GErr (KeyErr i).
Fixpoint map_refs (x : sctx) (copied : list string) (l : list string) : gres (list string) :=
  match l with
  | [] => GOk []
  | i :: r => gbind (map_ref x copied i) (fun j => gbind (map_refs x copied r) (fun l' => GOk (j :: l')))
  end.
Definition map_style (x : sctx) (st : option (list string)) : gres (option (list string)) :=
  match st with
  | None => GOk None
  | Some l => gbind (map_refs x (x_styles x) l) (fun l' => GOk (Some l'))
  end.
(** Only div and p have a region attribute. *)
Definition map_region (x : sctx) (k : ekind) (r : option string) : gres (option string) :=
  match k, r with
  | Div, Some i | P, Some i => gbind (map_ref x (x_regions x) i) (fun j => GOk (Some j))
  | _, _ => GOk None
  end.

(** presentation.py 162-166 and 191-195: no longer orphans. *)
Definition unorphan (used orphans : list string) : list string :=
  filter (fun i => negb (mem i used)) orphans.
Definition own_region (k : ekind) (r : option string) : list string :=
  match k, r with Div, Some i | P, Some i => [i] | _, _ => [] end.

(** timing.py 291-312, _semantic_copy_apply_leaf_timing. *)
Definition leaf_timing (x : sctx) (k : ekind) (kids : list node) (cb : Z) (ce : option Z)
  : gres (option tattr * option tattr) :=
  if is_timed_leaf k kids then
    gbind (timing_type (x_base x) (Some (trim_begin (x_begin x) cb))) (fun b =>
    gbind (timing_type (x_base x) (trim_end (x_end x) ce)) (fun e => GOk (Some b, Some e)))
  else GOk (None, None).

(** pyxb_utils.py 94-142 with the hooks of ebutt3_segmentation.py 85-127: the
    copy of an element, None when it is outside the segment
    (OutsideSegmentError) or empty (DiscardElement).  Text and br are always
    copied. *)
Fixpoint copy_node (x : sctx) (v : vnode) (orphans : list string) {struct v}
  : gres (option node * list string) :=
  match v with
  | VText s => GOk (Some (Text s), orphans)
  | VBr => GOk (Some Br, orphans)
  | VNode k i region style b e cb ce styles inherited kids =>
      if is_in_segment cb ce (x_begin x) (x_end x) then
        gbind (map_region x k region) (fun region' =>
        gbind (map_style x style) (fun style' =>
        let fix copy_kids (vs : list vnode) (o : list string) : gres (list node * list string) :=
          match vs with
          | [] => GOk ([], o)
          | w :: r => gbind (copy_node x w o) (fun '(n, o1) =>
                      gbind (copy_kids r o1) (fun '(ns, o2) =>
                      GOk (match n with Some m => m :: ns | None => ns end, o2)))
          end in
        gbind (copy_kids kids orphans) (fun '(kids', o1) =>
        if is_empty k kids' then GOk (None, o1)
        else gbind (leaf_timing x k kids' cb ce) (fun '(b', e') =>
             GOk (Some (Node k (copy_id (x_dec x) (x_seq x) i) region' style' b' e' kids'),
                  unorphan (styles ++ own_region k region) o1)))))
      else GOk (None, orphans)
  end.

Fixpoint copy_nodes (x : sctx) (vs : list vnode) (o : list string) : gres (list node * list string) :=
  match vs with
  | [] => GOk ([], o)
  | w :: r => gbind (copy_node x w o) (fun '(n, o1) =>
              gbind (copy_nodes x r o1) (fun '(ns, o2) =>
              GOk (match n with Some m => m :: ns | None => ns end, o2)))
  end.

(** The body, bindings/__init__.py 905-915, 990-996; it is not checked for being
    empty and never is a leaf. *)
Definition copy_body (x : sctx) (v : vbody) (orphans : list string)
  : gres (option bodyd * list string) :=
  if is_in_segment (vb_cb v) (vb_ce v) (x_begin x) (x_end x) then
    gbind (map_style x (vb_style v)) (fun style' =>
    gbind (copy_nodes x (vb_kids v) orphans) (fun '(kids', o1) =>
    GOk (Some (mkBodyd style' None None None kids'), unorphan (vb_styles v) o1)))
  else GOk (None, orphans).

(** p and span in the order they are put on the timeline (after their
    children), with what the segmenter asks of them. *)
Record entry := mkEntry { en_begin : Z; en_end : option Z; en_styles : list string; en_region : option string }.
Fixpoint entries (v : vnode) : list entry :=
  match v with
  | VNode k _ _ _ _ _ cb ce styles inherited kids =>
      (flat_map entries kids ++
       match k with P | Span => [mkEntry cb ce styles inherited] | _ => [] end)%list
  | _ => []
  end.

Definition touched (vs : list vnode) (sb se : option Z) : list entry :=
  let l := flat_map entries vs in
  flat_map (fun n => match nth_error l n with Some a => [a] | None => [] end)
           (affected (map (fun a => (en_begin a, en_end a)) l) sb se).

(** ebutt3_segmentation.py 167-186: the styles and regions that go into
    affected_elements and orphaned_elements. *)
Definition needed_styles (v : vbody) (sb se : option Z) : list string :=
  (vb_styles v ++ flat_map en_styles (touched (vb_kids v) sb se))%list.
Definition needed_regions (v : vbody) (sb se : option Z) : list string :=
  flat_map (fun a => match en_region a with Some i => [i] | None => [] end) (touched (vb_kids v) sb se).

(** bindings/__init__.py 109-129 and 427-429: the copy of a style; multiRowAlign
    is not among the attributes copied.  References are settled afterwards. *)
Definition copy_style (x : sctx) (s : string * style_el) : string * style_el :=
  (copy_ref (x_dec x) (x_seq x) (fst s),
   mkStyle (s_refs (snd s)) (setattr (s_attrs (snd s)) MultiRowAlign None)).

(** bindings/__init__.py 1021-1035: the copies get their references once all
    styles are copied. *)
Fixpoint copy_styles (x : sctx) (l : list (string * style_el)) : gres (list (string * style_el)) :=
  match l with
  | [] => GOk []
  | s :: r =>
      if mem (fst s) (x_styles x) then
        gbind (map_style x (s_refs (snd s))) (fun refs =>
        gbind (copy_styles x r) (fun r' =>
        GOk ((fst (copy_style x s), mkStyle refs (s_attrs (snd (copy_style x s)))) :: r')))
      else copy_styles x r
  end.

(** bindings/__init__.py 1043-1057, 1075-1077. *)
Fixpoint copy_regions (x : sctx) (l : list (string * region_el)) : gres (list (string * region_el)) :=
  match l with
  | [] => GOk []
  | s :: r =>
      if mem (fst s) (x_regions x) then
        gbind (map_style x (r_refs (snd s))) (fun refs =>
        gbind (copy_regions x r) (fun r' =>
        GOk ((copy_ref (x_dec x) (x_seq x) (fst s), mkRegion refs (r_padding (snd s))) :: r')))
      else copy_regions x r
  end.

(** ebutt3_segmentation.py 151-155: the copies of the orphans are taken out. *)
Definition drop_orphans {A} (x : sctx) (orphans : list string) (l : list (string * A)) : list (string * A) :=
  filter (fun s => negb (mem (fst s) (map (copy_ref (x_dec x) (x_seq x)) orphans))) l.

Definition ids {A} (l : option (list (string * A))) : list string :=
  match l with Some x => map fst x | None => [] end.
Definition els {A} (l : option (list (string * A))) : list (string * A) :=
  match l with Some x => x | None => [] end.

(** The context of the traversal: a style or region is in the mapping when it is
    needed and part of the head. *)
Definition segment_ctx (d : docu vbody) (v : vbody) (dec : bool) (sb se : option Z) : sctx :=
  mkSctx (t_base d) (t_seq d) dec sb se
         (filter (fun i => mem i (needed_styles v sb se)) (ids (t_styling d)))
         (filter (fun i => mem i (needed_regions v sb se)) (ids (t_layout d))).

(** ebutt3_segmentation.py 162-209, compute_document_segment, for a validated
    document.  A document without body fails when its body is asked for its
    styles: affected_elements then contains None, which is no styled element,
    and the failure is the one of line 207 (or 157, 159). *)
Definition segment (d : docu vbody) (dec : bool) (sb se : option Z) : gres (docu bodyd) :=
  match t_body d with
  | None => GErr AttributeErr
  | Some v =>
      let x := segment_ctx d v dec sb se in
      let orphans := (needed_styles v sb se ++ needed_regions v sb se)%list in
      gbind (copy_styles x (els (t_styling d))) (fun styles =>
      gbind (copy_regions x (els (t_layout d))) (fun regions =>
      gbind (copy_body x v orphans) (fun '(bd0, orph) =>
      match t_styling d, t_layout d, bd0 with
      | Some _, Some _, Some bd =>
          let styles' := drop_orphans x orph styles in
          let regions' := drop_orphans x orph regions in
          gbind (match bd_kids bd with
                 | [] => gbind (timing_type (t_base d) sb) (fun b =>
                         gbind (timing_type (t_base d) se) (fun e =>
                         GOk (mkBodyd (bd_style bd) (Some b) (Some e) (bd_dur bd) [])))
                 | _ => GOk bd
                 end) (fun bd' =>
          GOk (mkDocu (t_base d) (t_seq d)
                      (match styles' with [] => None | _ => Some styles' end)
                      (Some regions') (Some bd')))
      | _, _, _ => GErr AttributeErr
      end)))
  end.

(** ** What validation is given and leaves behind *)

(** The document before validation. *)
Fixpoint plain (v : vnode) : node :=
  match v with
  | VText s => Text s
  | VBr => Br
  | VNode k i r st b e _ _ _ _ kids => Node k i r st b e (map plain kids)
  end.
Definition plain_body (v : vbody) : bodyd :=
  mkBodyd (vb_style v) (vb_begin v) (vb_end v) (vb_dur v) (map plain (vb_kids v)).

(** The side of it the timing pass sees (TimingModel), and its result. *)
Fixpoint timing (n : node) : elem :=
  match n with
  | Node _ _ _ _ b e kids => Timed b e (map timing kids)
  | _ => Other
  end.
Definition timing_body (b : bodyd) : body :=
  mkBody (bd_begin b) (bd_end b) (bd_dur b) (map timing (bd_kids b)).
Fixpoint vtimes (v : vnode) : ctree :=
  match v with
  | VNode _ _ _ _ b e cb ce _ _ kids => CTimed b e cb ce (map vtimes kids)
  | _ => COther
  end.
Definition vtimes_body (v : vbody) : ctree :=
  CTimed (vb_begin v) (vb_end v) (vb_cb v) (vb_ce v) (map vtimes (vb_kids v)).

(** The side the style pass sees (StyleModel). *)
Fixpoint styling (n : node) : list sel :=
  match n with
  | Node k _ r st _ _ kids => [SNode k st r (flat_map styling kids)]
  | _ => []
  end.
Definition styling_body (b : bodyd) : sel := SNode Body (bd_style b) None (flat_map styling (bd_kids b)).
