(** Styles: the order of references, the resolved and computed style of every
    styled element, and the semantic pass that computes them.

    Sources: ebu_tt_live/bindings/__init__.py 76-425 (style_type), the styling
    parts of the hooks of body, div, p, span and region (716-728, 785-795,
    860-872, 978-988, 1059-1073), ebu_tt_live/bindings/validation/presentation.py,
    ebu_tt_live/bindings/_ebuttdt.py 108-115, 150-218, 523-685 (sizes).

    Styles are told apart by identity in the code; here by their identifier,
    which the schema requires and registration keeps unique (IdModel).
    Sizes are exact rationals; the code uses floats and writes every computed
    size to text with 12 significant digits and reads it back. *)

From Coq Require Import List String Bool QArith.
From Verif Require Import IdModel.
Import ListNotations.
Open Scope string_scope.

(** ** Values *)

Inductive unit3 := Px | Cell | Pct.

(** TwoDimSizingMixin, _ebuttdt.py 150-218: horizontal is None for a value
    with one number, and vertical is then that number. *)
Record fsize := mkF { f_unit : unit3; f_h : option Q; f_v : Q }.

(** lineHeight: 'normal' or a number with a unit (_ebuttdt.py 649-685). *)
Inductive lheight := LNormal | LSize (u : unit3) (q : Q).

(** The attributes of a style element (bindings/__init__.py 109-129, 171-202). *)
Record sattrs := mkAttrs {
  direction : option string; fontFamily : option string; fontSize : option fsize;
  lineHeight : option lheight; textAlign : option string; color : option string;
  backgroundColor : option string; fontStyle : option string; fontWeight : option string;
  textDecoration : option string; unicodeBidi : option string; wrapOption : option string;
  padding : option string; linePadding : option string; multiRowAlign : option string }.

(** style_type() without arguments: nothing specified. *)
Definition no_attrs : sattrs :=
  mkAttrs None None None None None None None None None None None None None None None.

(** The text attributes, for getattr and setattr. *)
Inductive aname := Direction | FontFamily | TextAlign | Color | BackgroundColor | FontStyle
  | FontWeight | TextDecoration | UnicodeBidi | WrapOption | Padding | LinePadding | MultiRowAlign.

Definition getattr (s : sattrs) (a : aname) : option string :=
  match a with
  | Direction => direction s | FontFamily => fontFamily s | TextAlign => textAlign s
  | Color => color s | BackgroundColor => backgroundColor s | FontStyle => fontStyle s
  | FontWeight => fontWeight s | TextDecoration => textDecoration s | UnicodeBidi => unicodeBidi s
  | WrapOption => wrapOption s | Padding => padding s | LinePadding => linePadding s
  | MultiRowAlign => multiRowAlign s
  end.

Definition setattr (s : sattrs) (a : aname) (v : option string) : sattrs :=
  let '(mkAttrs d ff fs lh ta c bg fst fw td ub wo pd lp mr) := s in
  match a with
  | Direction => mkAttrs v ff fs lh ta c bg fst fw td ub wo pd lp mr
  | FontFamily => mkAttrs d v fs lh ta c bg fst fw td ub wo pd lp mr
  | TextAlign => mkAttrs d ff fs lh v c bg fst fw td ub wo pd lp mr
  | Color => mkAttrs d ff fs lh ta v bg fst fw td ub wo pd lp mr
  | BackgroundColor => mkAttrs d ff fs lh ta c v fst fw td ub wo pd lp mr
  | FontStyle => mkAttrs d ff fs lh ta c bg v fw td ub wo pd lp mr
  | FontWeight => mkAttrs d ff fs lh ta c bg fst v td ub wo pd lp mr
  | TextDecoration => mkAttrs d ff fs lh ta c bg fst fw v ub wo pd lp mr
  | UnicodeBidi => mkAttrs d ff fs lh ta c bg fst fw td v wo pd lp mr
  | WrapOption => mkAttrs d ff fs lh ta c bg fst fw td ub v pd lp mr
  | Padding => mkAttrs d ff fs lh ta c bg fst fw td ub wo v lp mr
  | LinePadding => mkAttrs d ff fs lh ta c bg fst fw td ub wo pd v mr
  | MultiRowAlign => mkAttrs d ff fs lh ta c bg fst fw td ub wo pd lp v
  end.

Definition set_fontSize (s : sattrs) (v : option fsize) : sattrs :=
  let '(mkAttrs d ff _ lh ta c bg fst fw td ub wo pd lp mr) := s in
  mkAttrs d ff v lh ta c bg fst fw td ub wo pd lp mr.

Definition set_lineHeight (s : sattrs) (v : option lheight) : sattrs :=
  let '(mkAttrs d ff fs _ ta c bg fst fw td ub wo pd lp mr) := s in
  mkAttrs d ff fs v ta c bg fst fw td ub wo pd lp mr.

Definition aname_eqb (a b : aname) : bool :=
  match a, b with
  | Direction, Direction | FontFamily, FontFamily | TextAlign, TextAlign | Color, Color
  | BackgroundColor, BackgroundColor | FontStyle, FontStyle | FontWeight, FontWeight
  | TextDecoration, TextDecoration | UnicodeBidi, UnicodeBidi | WrapOption, WrapOption
  | Padding, Padding | LinePadding, LinePadding | MultiRowAlign, MultiRowAlign => true
  | _, _ => false
  end.

(** ** The elements of the head *)

(** A style element: its style attribute (identifiers in order) and its
    other attributes. *)
Record style_el := mkStyle { s_refs : option (list string); s_attrs : sattrs }.

(** A region element; of its attributes only style and padding matter here. *)
Record region_el := mkRegion { r_refs : option (list string); r_padding : option string }.

(** What an identifier may stand for (elements_by_id); regions and the
    elements of the body are no styles. *)
Inductive kind := KStyle (s : style_el) | KRegion (r : region_el) | KOther.

(** bindings/__init__.py 634-646, get_element_by_id with elem_type=style_type;
    None is LookupError. *)
Definition get_style (d : list (string * kind)) (i : string) : option style_el :=
  match dict_get d i with Some (KStyle s) => Some s | _ => None end.

(** The same with elem_type=region_type. *)
Definition get_region (d : list (string * kind)) (i : string) : option region_el :=
  match dict_get d i with Some (KRegion r) => Some r | _ => None end.

(** Exceptions: SemanticValidationError for a circle, for a missing style and for
    a missing region, ExtentMissingError, and the plain Exception of
    pixels_to_cells. *)
Inductive serr := Circle (i : string) | Missing (i : string) | RegionMissing (i : string)
  | ExtentMissing | PlainException | OutOfFuel.
Inductive sres (A : Type) := SOk (a : A) | SErr (e : serr).
Arguments SOk {A} a.
Arguments SErr {A} e.
Definition sbind {A B} (r : sres A) (f : A -> sres B) : sres B :=
  match r with SOk a => f a | SErr e => SErr e end.

(** ** The order of references *)

(** The fields _styling_lock (locked or not) and _ordered_styles of all the
    styles. *)
Record sstate := mkS { st_locked : list string; st_cache : list (string * list string) }.
Definition sstart : sstate := mkS [] [].

Definition mem (i : string) (l : list string) : bool := existsb (String.eqb i) l.

(** bindings/__init__.py 159-162: append what is not in the list yet. *)
Fixpoint append_new (acc l : list string) : list string :=
  match l with
  | [] => acc
  | x :: r => if mem x acc then append_new acc r else append_new (acc ++ [x])%list r
  end.

Definition unlock (st : sstate) : sstate :=
  mkS (match st_locked st with [] => [] | _ :: r => r end) (st_cache st).

(** The loop of bindings/__init__.py 155-166 and, with the same body, of
    presentation.py 68-75; [call] is ordered_styles of the style found. *)
Fixpoint each_ref (call : sstate -> string -> sres (list string) * sstate) (d : list (string * kind))
  (refs acc : list string) (st : sstate) : sres (list string) * sstate :=
  match refs with
  | [] => (SOk acc, st)
  | r :: rest =>
      match get_style d r with
      | None => (SErr (Missing r), st)
      | Some _ =>
          match call st r with
          | (SErr e, st') => (SErr e, st')
          | (SOk l, st') => each_ref call d rest (append_new acc l) st'
          end
      end
  end.

Definition refs_of (d : list (string * kind)) (i : string) : list string :=
  match get_style d i with
  | Some s => match s_refs s with Some l => l | None => [] end
  | None => []
  end.

(** bindings/__init__.py 136-169, ordered_styles.  [locked] is a stack; the
    lock taken is the one released, whatever happens in between (with). *)
Fixpoint ordered_styles (fuel : nat) (d : list (string * kind)) (st : sstate) (i : string)
  : sres (list string) * sstate :=
  match fuel with
  | O => (SErr OutOfFuel, st)
  | S n =>
      if mem i (st_locked st) then (SErr (Circle i), st)
      else
        match dict_get (st_cache st) i with
        | Some l => (SOk l, st)
        | None =>
            match each_ref (ordered_styles n d) d (refs_of d i) [i]
                           (mkS (i :: st_locked st) (st_cache st)) with
            | (SErr e, st') => (SErr e, unlock st')
            | (SOk l, st') => (SOk l, unlock (mkS (st_locked st') ((i, l) :: st_cache st')))
            end
        end
  end.

(** Fuel that always suffices (StyleProofs). *)
Definition enough (d : list (string * kind)) : nat := S (List.length d).

(** presentation.py 66-75: the styles an element refers to, in order. *)
Definition collect_refs (d : list (string * kind)) (st : sstate) (refs : list string)
  : sres (list string) * sstate :=
  each_ref (ordered_styles (enough d) d) d refs [] st.

(** ** Specified styles *)

Definition or_else {A} (a b : option A) : option A := match a with Some _ => a | None => b end.

(** bindings/__init__.py 171-202, add. *)
Definition add (self other : sattrs) : sattrs :=
  mkAttrs (or_else (direction self) (direction other))
          (or_else (fontFamily self) (fontFamily other))
          (or_else (fontSize self) (fontSize other))
          (or_else (lineHeight self) (lineHeight other))
          (or_else (textAlign self) (textAlign other))
          (or_else (color self) (color other))
          (or_else (backgroundColor self) (backgroundColor other))
          (or_else (fontStyle self) (fontStyle other))
          (or_else (fontWeight self) (fontWeight other))
          (or_else (textDecoration self) (textDecoration other))
          (or_else (unicodeBidi self) (unicodeBidi other))
          (or_else (wrapOption self) (wrapOption other))
          (or_else (padding self) (padding other))
          (or_else (linePadding self) (linePadding other))
          (or_else (multiRowAlign self) (multiRowAlign other)).

(** bindings/__init__.py 204-214, resolve_styles. *)
Definition resolve_styles (l : list sattrs) : sattrs := fold_left add l no_attrs.

(** ** Sizes *)

(** The document's extent in pixels (None when not given) and cell
    resolution. *)
Record sizing := mkSizing { z_extent : option (Q * Q); z_res : Q * Q }.

(** _ebuttdt.py 598-629, PercentageFontSizeType.do_mul: the percentage [p] of
    [other]; the result has the unit of [other]. *)
Definition do_mul (p other : fsize) : fsize :=
  match f_h p, f_h other with
  | Some ph, Some oh => mkF (f_unit other) (Some (oh * ph / 100)) (f_v other * f_v p / 100)
  | Some ph, None => mkF (f_unit other) (Some (f_v other * ph / 100)) (f_v other * f_v p / 100)
  | None, Some oh => mkF (f_unit other) (Some (oh * f_v p / 100)) (f_v other * f_v p / 100)
  | None, None => mkF (f_unit other) None (f_v other * f_v p / 100)
  end.

(** [a * b] in compute_font_size, where one of the two is a percentage: Python
    calls __mul__ of the left operand if that is a percentage, else __rmul__ of
    the right one. *)
Definition times (a b : fsize) : fsize :=
  match f_unit a with Pct => do_mul a b | _ => do_mul b a end.

Definition is_pct (a : fsize) : bool := match f_unit a with Pct => true | _ => false end.

(** _ebuttdt.py 108-115, pixels_to_cells, with the CellFontSizeType made of it. *)
Definition pixels_to_cells (z : sizing) (a : fsize) : sres fsize :=
  match z_extent z with
  | None => SErr PlainException
  | Some (ew, eh) =>
      match f_h a with
      | Some h => SOk (mkF Cell (Some (h * fst (z_res z) / ew)) (f_v a * snd (z_res z) / eh))
      | None => SOk (mkF Cell None (f_v a * snd (z_res z) / eh))
      end
  end.

Definition one_cell : fsize := mkF Cell None 1.

(** A computed style: the attributes and the set default_attrs
    (bindings/__init__.py 274-286); only text attributes and lineHeight are
    entered there. *)
Record computed := mkC { c_attrs : sattrs; c_default : list aname; c_default_lh : bool }.

Definition opt_font (c : option computed) : option fsize :=
  match c with Some x => fontSize (c_attrs x) | None => None end.

(** bindings/__init__.py 216-272, compute_font_size. *)
Definition compute_font_size (z : sizing) (spec : sattrs) (parent region : option computed) (defer : bool)
  : sres (option fsize) :=
  let result :=
    match fontSize spec with
    | Some s =>
        if is_pct s then
          let r := match opt_font parent with
                   | Some p => times p s
                   | None => match opt_font region with
                             | Some g => times g s
                             | None => match region, defer with
                                       | None, true => s
                                       | _, _ => times one_cell s
                                       end
                             end
                   end in
          Some (if (is_pct r && negb defer)%bool then times r one_cell else r)
        else Some s
    | None =>
        let r := opt_font region in
        match opt_font parent with
        | None => r
        | Some p =>
            let r := if is_pct p then match r with Some g => Some (times g p) | None => Some p end
                     else Some p in
            match r with
            | Some x => Some (if (negb defer && is_pct x)%bool then times x one_cell else x)
            | None => None
            end
        end
    end in
  match result with
  | Some r => match f_unit r with
              | Px => sbind (pixels_to_cells z r) (fun c => SOk (Some c))
              | _ => SOk (Some r)
              end
  | None => SOk (if defer then None else Some one_cell)
  end.

(** bindings/__init__.py 326-346, compute_line_height.  The pixel value has one
    dimension; CellLineHeightType is made of its conversion. *)
Definition compute_line_height (z : sizing) (spec : sattrs) (parent region : option computed)
  (font_size : option fsize) : sres (option lheight) :=
  let pick (c : option computed) :=
    match c with
    | Some x => if c_default_lh x then None else lineHeight (c_attrs x)
    | None => None
    end in
  match or_else (lineHeight spec) (or_else (pick parent) (pick region)) with
  | None => SOk None
  | Some LNormal => SOk (Some LNormal)
  | Some (LSize Px q) =>
      sbind (pixels_to_cells z (mkF Px None q)) (fun c => SOk (Some (LSize Cell (f_v c))))
  | Some (LSize Pct q) =>
      match font_size with
      | Some f => match f_unit f with
                  | Cell => SOk (Some (LSize Cell (q * f_v f / 100)))
                  | _ => SOk (Some (LSize Pct q))
                  end
      | None => SOk (Some (LSize Pct q))
      end
  | Some (LSize Cell q) => SOk (Some (LSize Cell q))
  end.

(** ** Computed styles *)

(** bindings/__init__.py 84-88 and 89-100; the dictionaries' order does not
    matter, every attribute is computed on its own. *)
Definition simple_defaults : list (aname * option string) :=
  [(BackgroundColor, Some "transparent"); (Padding, Some "0px"); (UnicodeBidi, Some "normal")].
Definition inherited_defaults : list (aname * option string) :=
  [(Color, None); (Direction, Some "ltr"); (FontFamily, Some "default"); (FontStyle, Some "normal");
   (FontWeight, Some "normal"); (LinePadding, Some "0c"); (MultiRowAlign, Some "auto");
   (TextAlign, Some "start"); (TextDecoration, Some "none"); (WrapOption, Some "wrap")].

(** bindings/__init__.py 308-316, compute_inherited_attribute.  The specified
    style has an empty default_attrs. *)
Definition pick_attr (a : aname) (c : option computed) : option string :=
  match c with
  | Some x => if existsb (aname_eqb a) (c_default x) then None else getattr (c_attrs x) a
  | None => None
  end.
Definition compute_inherited (a : aname) (spec : sattrs) (parent region : option computed) : option string :=
  or_else (getattr spec a) (or_else (pick_attr a parent) (pick_attr a region)).

(** bindings/__init__.py 288-306 set_default_value or 395-399, 411-415 setattr. *)
Definition put_attr (c : computed) (a : aname) (dflt v : option string) : computed :=
  match v with
  | None => mkC (setattr (c_attrs c) a dflt) (a :: c_default c) (c_default_lh c)
  | Some _ => mkC (setattr (c_attrs c) a v) (c_default c) (c_default_lh c)
  end.

(** bindings/__init__.py 348-417, compute_style (318-324 compute_simple_attribute
    inlined: the specified style is always given). *)
Definition compute_style (z : sizing) (spec : sattrs) (parent region : option computed) (defer : bool)
  : sres computed :=
  sbind (compute_font_size z spec parent region defer) (fun fs =>
  sbind (compute_line_height z spec parent region fs) (fun lh =>
  let c0 := mkC (set_fontSize no_attrs fs) [] false in
  let c1 := match lh with
            | None => mkC (set_lineHeight (c_attrs c0) (Some LNormal)) [] true
            | Some _ => mkC (set_lineHeight (c_attrs c0) lh) [] false
            end in
  let c2 := fold_left (fun c e => put_attr c (fst e) (snd e) (getattr spec (fst e))) simple_defaults c1 in
  SOk (fold_left (fun c e => put_attr c (fst e) (snd e) (compute_inherited (fst e) spec parent region))
                 inherited_defaults c2))).

(** ** The pass over regions and body *)

(** What _semantic_collect_applicable_styles leaves on an element. *)
Record styled := mkStyled {
  e_referenced : list string; e_inherited : list string; e_region_styles : list string;
  e_region : option string; e_specified : sattrs; e_computed : computed }.
Definition validated_styles (e : styled) : list string :=
  (e_referenced e ++ e_inherited e ++ e_region_styles e)%list.

(** presentation.py 79-83: those of a list that are not in [old], once each. *)
Fixpoint fresh (old acc l : list string) : list string :=
  match l with
  | [] => acc
  | x :: r => if (mem x old || mem x acc)%bool then fresh old acc r else fresh old (acc ++ [x])%list r
  end.

(** presentation.py 88-92: region styles are not compared with each other. *)
Definition fresh_region (old1 old2 l : list string) : list string :=
  filter (fun x => negb (mem x old1 || mem x old2)) l.

(** The part of the dataset the pass reads and writes. *)
Record world := mkW {
  w_styles : sstate;
  w_stack : list (list string);   (* oldest first, as in Python *)
  w_region : option (string * styled) }.

Definition attrs_of (d : list (string * kind)) (i : string) : sattrs :=
  match get_style d i with Some s => s_attrs s | None => no_attrs end.

(** presentation.py 43-120, _semantic_collect_applicable_styles. *)
Definition collect (d : list (string * kind)) (z : sizing) (w : world) (style : option (list string))
  (parent : option computed) (defer : bool) (extra : list sattrs) : sres styled * world :=
  match collect_refs d (w_styles w) (match style with Some l => l | None => [] end) with
  | (SErr e, st) => (SErr e, mkW st (w_stack w) (w_region w))
  | (SOk referenced, st) =>
      let inherited := fold_left (fresh referenced) (w_stack w) [] in
      let region_styles := match w_region w with
                           | Some (_, g) => fresh_region referenced inherited (validated_styles g)
                           | None => []
                           end in
      let specified := resolve_styles (extra ++ map (attrs_of d) referenced)%list in
      let region := match w_region w with Some (_, g) => Some (e_computed g) | None => None end in
      let w' := mkW st (w_stack w) (w_region w) in
      match compute_style z specified parent region defer with
      | SErr e => (SErr e, w')
      | SOk c => (SOk (mkStyled referenced inherited region_styles
                                (match w_region w with Some (i, _) => Some i | None => None end)
                                specified c), w')
      end
  end.

(** presentation.py 122-126. *)
Definition push (w : world) (e : styled) : world :=
  mkW (w_styles w) (w_stack w ++ [e_referenced e])%list (w_region w).
Definition pop (w : world) : world := mkW (w_styles w) (removelast (w_stack w)) (w_region w).

(** The elements of the body.  Text, br and metadata do not take part. *)
Inductive ekind := Body | Div | P | Span.
Inductive sel := SNode (k : ekind) (style : option (list string)) (region : option string) (kids : list sel).
Inductive sout := SOut (k : ekind) (region : option string) (e : styled) (kids : list sout).

(** presentation.py 176-185, _semantic_set_region; div and p only.  [regions]
    are the regions of the layout, already validated. *)
Definition set_region (regions : list (string * styled)) (k : ekind)
  (r : option string) (w : world) : sres world :=
  match k, r with
  | Div, Some i | P, Some i =>
      match dict_get regions i with
      | Some e => SOk (mkW (w_styles w) (w_stack w) (Some (i, e)))
      | None => SErr (RegionMissing i)
      end
  | _, _ => SOk w
  end.

(** presentation.py 187-189. *)
Definition unset_region (k : ekind) (r : option string) (w : world) : world :=
  match k, r with
  | Div, Some _ | P, Some _ => mkW (w_styles w) (w_stack w) None
  | _, _ => w
  end.

Definition defers (k : ekind) : bool := match k with Body | Div => true | _ => false end.

(** Hooks of body, div, p and span: 978-988, 860-872, 716-728, 785-795.  A div
    pushes but does not pop. *)
Fixpoint style_pass (d : list (string * kind)) (z : sizing) (regions : list (string * styled))
  (parent : option computed) (t : sel) (w : world) : sres (sout * world) :=
  match t with
  | SNode k style region kids =>
      sbind (set_region regions k region w) (fun w1 =>
      match collect d z w1 style parent (defers k) [] with
      | (SErr e, _) => SErr e
      | (SOk e, w2) =>
          let fix pass_kids (ks : list sel) (w : world) : sres (list sout * world) :=
            match ks with
            | [] => SOk ([], w)
            | x :: r => sbind (style_pass d z regions (Some (e_computed e)) x w) (fun '(o, w') =>
                        sbind (pass_kids r w') (fun '(os, w'') => SOk (o :: os, w'')))
            end in
          sbind (pass_kids kids (push w2 e)) (fun '(os, w3) =>
          let w4 := unset_region k region w3 in
          SOk (SOut k region e os, match k with Div => w4 | _ => pop w4 end))
      end)
  end.

(** presentation.py 12-19 for a style, bindings/__init__.py 421-422; only pixel font sizes are
    checked, a pixel line height is not a SizingValidationMixin. *)
Definition check_style (z : sizing) (s : style_el) : sres unit :=
  match fontSize (s_attrs s), z_extent z with
  | Some f, None => match f_unit f with Px => SErr ExtentMissing | _ => SOk tt end
  | _, _ => SOk tt
  end.

Fixpoint check_styles (z : sizing) (l : list (string * kind)) : sres unit :=
  match l with
  | [] => SOk tt
  | (_, KStyle s) :: r => sbind (check_style z s) (fun _ => check_styles z r)
  | _ :: r => check_styles z r
  end.

(** Regions, bindings/__init__.py 1059-1073: no parent, no region, empty stack; the region's own
    padding comes before its styles. *)
Fixpoint pass_regions (d : list (string * kind)) (z : sizing) (l : list (string * kind)) (w : world)
  : sres (list (string * styled) * world) :=
  match l with
  | [] => SOk ([], w)
  | (i, KRegion r) :: rest =>
      match collect d z w (r_refs r) None false
              [mkAttrs None None None None None None None None None None None None (r_padding r) None None] with
      | (SErr e, _) => SErr e
      | (SOk e, w') => sbind (pass_regions d z rest w') (fun '(es, w'') => SOk ((i, e) :: es, w''))
      end
  | _ :: rest => pass_regions d z rest w
  end.

(** The styling side of the validation of a document: styles, regions, body
    (validator.py; tt's hook 611-619). *)
Definition validate_styles (d : list (string * kind)) (z : sizing) (body : sel)
  : sres (list (string * styled) * sout) :=
  sbind (check_styles z d) (fun _ =>
  sbind (pass_regions d z d (mkW sstart [] None)) (fun '(regions, w) =>
  sbind (style_pass d z regions None body w) (fun '(o, _) => SOk (regions, o)))).
