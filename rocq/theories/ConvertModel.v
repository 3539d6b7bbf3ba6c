(** Conversion of an EBU-TT Live document to EBU-TT-D.

    Sources: ebu_tt_live/bindings/converters/ebutt3_ebuttd.py
    (EBUTT3EBUTTDConverter), ebu_tt_live/node/encoder.py 17-33,
    ebu_tt_live/bindings/_ebuttdt.py 118-140 (named colours), 545-581 (division
    and comparison of sizes in cells), the content models of
    ebu_tt_live/xsd/ebutt_d.xsd 129-289.

    Left out: metadata elements (convert_unknown drops them), the attributes
    space, lang, agent and role, origin, extent and the other plain attributes
    of regions, the smpte time base (NotImplementedError), required attributes
    and minimum numbers of children (they are checked when the result is
    serialised, not while it is made).  Sizes are exact rationals; the code
    computes in floats and writes 12 digits. *)

From Coq Require Import List ZArith String Bool QArith.
From Verif Require Import TimingModel TimeModel ClockModel StyleModel SegmentModel.
Import ListNotations.
Open Scope Z_scope.

(** ** The source *)

(** The content of a validated document: an element with its times, its style
    and region attributes, and computed_style.fontSize and .lineHeight as the
    style pass left them (ebutt3_ebuttd.py 83-84, 100).  Text and line breaks
    as in SegmentModel. *)
Inductive fnode :=
| FText (s : string)
| FBr
| FNode (k : ekind) (i region : option string) (style : option (list string))
        (b e : option tattr) (size : option fsize) (line : option lheight)
        (kids : list fnode).

Record fbody := mkFbody {
  fb_style : option (list string); fb_begin : option tattr; fb_end : option tattr;
  fb_dur : option tattr; fb_kids : list fnode }.

(** Time base, head/styling, head/layout, body.  (The head itself is required.) *)
Record fdoc := mkFdoc {
  fd_base : base;
  fd_styling : option (list (string * style_el));
  fd_layout : option (list (string * region_el));
  fd_body : option fbody }.

(** ** The result *)

(** An identifier in a style attribute: one of the source, or
    'autogenFontStyle_None_v' (line 17 and 50; horizontal is always None, lines
    94-97 and 105-108).  The author's identifiers are taken to be different
    from the generated ones. *)
Inductive ref := Own (s : string) | Gen (v : Q).

Inductive dnode :=
| DText (s : string)
| DBr
| DNode (k : ekind) (i region : option string) (style : option (list ref))
        (b e : option tattr) (kids : list dnode).

(** A generated style: fontSize is the percentage in its identifier, and
    lineHeight a percentage or not set (lines 56-59 and 111-113). *)
Definition gens := list (Q * option Q).

(** Lines 52-54 and 66: the styles made so far, by identifier. *)
Fixpoint gen_find (v : Q) (m : gens) : bool :=
  match m with
  | [] => false
  | (w, _) :: r => if Qeq_bool v w then true else gen_find v r
  end.
Definition gen_get (v : Q) (m : gens) : gens := if gen_find v m then m else (m ++ [(v, None)])%list.

(** Lines 110-113: the style just looked up is changed in place. *)
Fixpoint gen_line (v h : Q) (m : gens) : gens :=
  match m with
  | [] => []
  | (w, l) :: r => if Qeq_bool v w then (w, Some h) :: r else (w, l) :: gen_line v h r
  end.

(** ** Exceptions *)

(** A child the type does not allow (raised by the constructor of the parent),
    a time that cannot be written, and TypeError or ZeroDivisionError. *)
Inductive cerr := ContentErr | TimeValueErr | SizeErr.
Inductive cres (A : Type) := COk (a : A) | CErr (e : cerr).
Arguments COk {A} a.
Arguments CErr {A} e.
Definition cbind {A B} (r : cres A) (f : A -> cres B) : cres B :=
  match r with COk a => f a | CErr e => CErr e end.

(** ** Times *)

(** ebutt3_ebuttd.py 28-36, _process_timing_type.  A negative time makes a text
    the type rejects, times outside the range of timedelta overflow. *)
Definition process_timing (c : clock) (bs : base) (t : option tattr) : cres (option tattr) :=
  match t, bs with
  | None, _ => COk None
  | Some a, Media => COk (Some a)
  | Some a, Clock =>
      match get_media_time c (ta_us a) with
      | None => CErr TimeValueErr
      | Some u => match clock_td false (full_of u) with
                  | Some v => COk (Some (mkTattr (full_of u) v))
                  | None => CErr TimeValueErr
                  end
      end
  end.

(** ** Sizes *)

(** _ebuttdt.py 566-581, CellFontSizeType.__eq__; a size in other units is a
    text that differs. *)
Definition cells_eq (a b : fsize) : bool :=
  match f_unit a, f_unit b with
  | Cell, Cell =>
      match f_h a, f_h b with
      | None, None => Qeq_bool (f_v a) (f_v b)
      | None, Some h => Qeq_bool (f_v a) (f_v b) && Qeq_bool (f_v a) h
      | Some h, None => Qeq_bool (f_v a) (f_v b) && Qeq_bool h (f_v b)
      | Some h, Some h' => Qeq_bool (f_v a) (f_v b) && Qeq_bool h h'
      end
  | _, _ => false
  end.

Definition qdiv (a b : Q) : option Q := if Qeq_bool b 0 then None else Some (a / b * 100)%Q.

(** _ebuttdt.py 545-564, CellFontSizeType.__div__, of which the converter uses
    the vertical part; the horizontal one is computed first and may raise. *)
Definition cells_div (a b : fsize) : option Q :=
  match f_unit a, f_unit b with
  | Cell, Cell =>
      match f_h a, f_h b with
      | None, None => qdiv (f_v a) (f_v b)
      | None, Some h => match qdiv (f_v a) h with Some _ => qdiv (f_v a) (f_v b) | None => None end
      | Some x, None => match qdiv x (f_v b) with Some _ => qdiv (f_v a) (f_v b) | None => None end
      | Some x, Some h => match qdiv x h with Some _ => qdiv (f_v a) (f_v b) | None => None end
      end
  | _, _ => None
  end.

(** ebutt3_ebuttd.py 70-119, _fix_fontsize: the style attribute of the converted
    element and the generated styles.  [parent] is the computed size of the
    element around it.  A size that is missing compares unequal and cannot be
    divided. *)
Definition fix_font (k : ekind) (size : option fsize) (line : option lheight)
  (parent : option fsize) (st : option (list ref)) (m : gens) : cres (option (list ref) * gens) :=
  let work (against : option fsize) :=
    match size, against with
    | Some f, Some p =>
        if cells_eq p f then COk (st, m)
        else match cells_div f p with
             | None => CErr SizeErr
             | Some v =>
                 let m1 := gen_get v m in
                 let st1 := match st with None => Some [Gen v] | Some l => Some (Gen v :: l) end in
                 match line with
                 | Some (LSize Cell h) =>
                     match qdiv h (f_v f) with
                     | Some r => COk (st1, gen_line v r m1)
                     | None => CErr SizeErr
                     end
                 | _ => COk (st1, m1)
                 end
             end
    | _, _ => CErr SizeErr
    end in
  match k with
  | P => work (Some one_cell)
  | Span => work parent
  | _ => COk (st, m)
  end.

(** ** Content *)

(** ebutt_d.xsd 129-289: div in body, p in div, text, br and span in p, text and
    br in span. *)
Definition accepts (k : ekind) (d : dnode) : bool :=
  match k, d with
  | Body, DNode Div _ _ _ _ _ _ => true
  | Div, DNode P _ _ _ _ _ _ => true
  | P, DNode Span _ _ _ _ _ _ | P, DText _ | P, DBr | Span, DText _ | Span, DBr => true
  | _, _ => false
  end.

(** ebutt3_ebuttd.py 251-291 and 322-350: the children first, one after the
    other, then the times, then the constructor, and then, in the loop of the
    parent, the font size.  div loses its times, span has no region. *)
Fixpoint convert (c : clock) (bs : base) (parent : option fsize) (n : fnode) (m : gens) {struct n}
  : cres (dnode * gens) :=
  match n with
  | FText s => COk (DText s, m)
  | FBr => COk (DBr, m)
  | FNode k i r st b e size line kids =>
      let fix all (l : list fnode) (m : gens) : cres (list dnode * gens) :=
        match l with
        | [] => COk ([], m)
        | x :: l' => cbind (convert c bs size x m) (fun '(d, m') =>
                     cbind (all l' m') (fun '(ds, m'') => COk (d :: ds, m'')))
        end in
      cbind (all kids m) (fun '(ks, m1) =>
      cbind (match k with P | Span => process_timing c bs b | _ => COk None end) (fun b' =>
      cbind (match k with P | Span => process_timing c bs e | _ => COk None end) (fun e' =>
      if forallb (accepts k) ks then
        cbind (fix_font k size line parent (option_map (map Own) st) m1) (fun '(st', m2) =>
        COk (DNode k i (match k with Div | P => r | _ => None end) st' b' e' ks, m2))
      else CErr ContentErr)))
  end.

(** Lines 322-350 as a function of its own. *)
Fixpoint convert_all (c : clock) (bs : base) (parent : option fsize) (l : list fnode) (m : gens)
  : cres (list dnode * gens) :=
  match l with
  | [] => COk ([], m)
  | x :: l' => cbind (convert c bs parent x m) (fun '(d, m') =>
               cbind (convert_all c bs parent l' m') (fun '(ds, m'') => COk (d :: ds, m'')))
  end.

Definition is_div (n : fnode) : bool :=
  match n with FNode Div _ _ _ _ _ _ _ _ => true | _ => false end.

(** Lines 241-249, convert_body: nothing is left of a body without div; times
    and style are not carried over. *)
Definition convert_body (c : clock) (bs : base) (b : fbody) : cres (option (list dnode) * gens) :=
  if existsb is_div (fb_kids b) then
    cbind (convert_all c bs None (fb_kids b) []) (fun '(ks, m) =>
    if forallb (accepts Body) ks then COk (Some ks, m) else CErr ContentErr)
  else COk (None, []).

(** ** Head *)

(** _ebuttdt.py 118-140; other colours are left as they are (lines 211-218). *)
Definition colour_table : list (string * string) :=
  [("transparent", "00000000"); ("black", "000000ff"); ("silver", "c0c0c0ff"); ("gray", "808080ff");
   ("white", "ffffffff"); ("maroon", "800000ff"); ("red", "ff0000ff"); ("purple", "800080ff");
   ("fuchsia", "ff00ffff"); ("magenta", "ff00ffff"); ("green", "008000ff"); ("lime", "00ff00ff");
   ("olive", "808000ff"); ("yellow", "ffff00ff"); ("navy", "000080ff"); ("blue", "0000ffff");
   ("teal", "008080ff"); ("aqua", "00ffffff"); ("cyan", "00ffffff")]%string.
Fixpoint look_colour (l : list (string * string)) (s : string) : string :=
  match l with
  | [] => s
  | (n, v) :: r => if String.eqb n s then ("#" ++ v)%string else look_colour r s
  end.
Definition convert_colour (s : string) : string := look_colour colour_table s.

(** Lines 210-239, convert_style.  fontSize and lineHeight are dropped on
    purpose; the EBU-TT-D style type has no attributes style and padding, which
    _strict_keywords=False makes the constructor ignore; multiRowAlign is not
    passed. *)
Definition convert_style (s : style_el) : sattrs :=
  let a := s_attrs s in
  mkAttrs (direction a) (fontFamily a) None None (textAlign a)
          (option_map convert_colour (color a)) (option_map convert_colour (backgroundColor a))
          (fontStyle a) (fontWeight a) (textDecoration a) (unicodeBidi a) (wrapOption a)
          None (linePadding a) None.

(** Lines 201-208 and 158-160 with bindings/__init__.py 1179-1198: at least the
    style 'style.default'. *)
Definition convert_styling (l : option (list (string * style_el))) : list (string * sattrs) :=
  match l with
  | None | Some [] => [("style.default"%string, no_attrs)]
  | Some l => map (fun p => (fst p, convert_style (snd p))) l
  end.

(** Lines 168-199 and 161-164 with bindings/__init__.py 1153-1174: at least the
    region 'region.default'; style and padding of a region are kept. *)
Definition convert_layout (l : option (list (string * region_el))) : list (string * region_el) :=
  match l with
  | None | Some [] => [("region.default"%string, mkRegion None None)]
  | Some l => l
  end.

(** ** The document *)

(** The generated styles are appended to head/styling (lines 121-128, 142); the
    model keeps them apart.  The time base is 'media'. *)
Record ddoc := mkDdoc {
  dd_styles : list (string * sattrs); dd_gens : gens;
  dd_layout : list (string * region_el); dd_body : option (list dnode) }.

(** Lines 130-144, convert_tt, and 356-363, convert_document. *)
Definition convert_document (c : clock) (d : fdoc) : cres ddoc :=
  cbind (match fd_body d with
         | Some b => convert_body c (fd_base d) b
         | None => COk (None, [])
         end) (fun '(b, m) =>
  COk (mkDdoc (convert_styling (fd_styling d)) m (convert_layout (fd_layout d)) b)).

(** encoder.py 26-30: the clock of an encoding node made at [instant]. *)
Definition encoder_clock (instant zero : Z) : clock :=
  adjust_time (new_clock instant) 0 (Some zero) instant.
