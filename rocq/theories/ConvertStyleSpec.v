(** How an EBU-TT-D document is styled, and what conversion is to keep of the
    style of the source, for C49 and C50. *)

From Coq Require Import List ZArith String Ascii Bool QArith.
From Verif Require Import IdModel TimingModel StyleModel StyleTree SegmentModel ConvertModel.
Import ListNotations.
Open Scope string_scope.

(** ** The result *)

(** A generated style in the document. *)
Fixpoint gen_lookup (v : Q) (m : gens) : option (option Q) :=
  match m with
  | [] => None
  | (w, l) :: r => if Qeq_bool v w then Some l else gen_lookup v r
  end.

Definition style_refs (st : option (list ref)) : list ref := match st with Some l => l | None => [] end.

(** What the styles an element refers to say: a percentage, a line height in
    percent of the font size, the text of another attribute. *)
Definition ref_size (dd : ddoc) (r : ref) : option Q :=
  match r with
  | Own i => match dict_get (dd_styles dd) i with Some s => option_map f_v (fontSize s) | None => None end
  | Gen v => match gen_lookup v (dd_gens dd) with Some _ => Some v | None => None end
  end.
Definition ref_line (dd : ddoc) (r : ref) : option Q :=
  match r with
  | Own i => match dict_get (dd_styles dd) i with
             | Some s => match lineHeight s with Some (LSize _ q) => Some q | _ => None end
             | None => None
             end
  | Gen v => match gen_lookup v (dd_gens dd) with Some l => l | None => None end
  end.
Definition ref_attr (dd : ddoc) (a : aname) (r : ref) : option string :=
  match r with
  | Own i => match dict_get (dd_styles dd) i with Some s => getattr s a | None => None end
  | Gen _ => None
  end.

Definition d_size (dd : ddoc) (around : Q) (st : option (list ref)) : Q :=
  match nearest (map (ref_size dd) (style_refs st)) with Some v => around * v / 100 | None => around end.

(** Font sizes of the p and span elements, in cells; nothing above is other
    than one cell. *)
Fixpoint dsizes (dd : ddoc) (around : Q) (n : dnode) : list Q :=
  match n with
  | DNode k _ _ st _ _ kids =>
      let here := d_size dd around st in
      ((match k with P | Span => [here] | _ => [] end) ++ flat_map (dsizes dd here) kids)%list
  | _ => []
  end.

(** Their own line heights, in cells. *)
Fixpoint dlines (dd : ddoc) (around : Q) (n : dnode) : list (option Q) :=
  match n with
  | DNode k _ _ st _ _ kids =>
      let here := d_size dd around st in
      ((match k with
        | P | Span => [option_map (fun r => (here * r / 100)%Q) (nearest (map (ref_line dd) (style_refs st)))]
        | _ => []
        end) ++ flat_map (dlines dd here) kids)%list
  | _ => []
  end.

(** The other attributes: those that are inherited, of all the elements, from
    the element, from around it, from its region. *)
Definition region_attr (dd : ddoc) (a : aname) (r : option string) : option string :=
  match r with
  | Some i => match dict_get (dd_layout dd) i with
              | Some g => nearest (map (ref_attr dd a) (map Own (refs (r_refs g))))
              | None => None
              end
  | None => None
  end.
Fixpoint dvalues (dd : ddoc) (a : aname) (above : option string) (n : dnode) : list (option string) :=
  match n with
  | DNode k _ r st _ _ kids =>
      let here := nearest [nearest (map (ref_attr dd a) (style_refs st)); above; region_attr dd a r] in
      nearest [here; initial inherited_defaults a] :: flat_map (dvalues dd a here) kids
  | _ => []
  end.

(** And those that are not. *)
Fixpoint dplain (dd : ddoc) (a : aname) (n : dnode) : list (option string) :=
  match n with
  | DNode k _ r st _ _ kids =>
      nearest [nearest (map (ref_attr dd a) (style_refs st)); initial simple_defaults a] :: flat_map (dplain dd a) kids
  | _ => []
  end.

Definition body_of (dd : ddoc) : list dnode := match dd_body dd with Some l => l | None => [] end.

(** ** The source *)

Fixpoint fsizes (n : fnode) : list (option Q) :=
  match n with
  | FNode k _ _ _ _ _ size _ kids =>
      ((match k with P | Span => [option_map f_v size] | _ => [] end) ++ flat_map fsizes kids)%list
  | _ => []
  end.

(** Two sizes the same on both axes. *)
Definition both (f : fsize) : Q * Q := (match f_h f with Some h => h | None => f_v f end, f_v f).
Definition size_eqb (f g : fsize) : bool :=
  Qeq_bool (fst (both f)) (fst (both g)) && Qeq_bool (snd (both f)) (snd (both g)).

(** Line heights in cells, of the p elements not one cell high and the span
    elements that differ from the element around them. *)
Definition cell_line (l : option lheight) : option Q := match l with Some (LSize Cell h) => Some h | _ => None end.
Definition against (k : ekind) (around : option fsize) : option fsize :=
  match k with P => Some one_cell | Span => around | _ => None end.
Definition changed (k : ekind) (around size : option fsize) : bool :=
  match against k around, size with Some p, Some f => negb (size_eqb p f) | _, _ => false end.
Fixpoint flines (around : option fsize) (n : fnode) : list (option Q) :=
  match n with
  | FNode k _ _ _ _ _ size line kids =>
      ((match k with P | Span => [if changed k around size then cell_line line else None] | _ => [] end) ++
       flat_map (flines size) kids)%list
  | _ => []
  end.

(** The changes of size in a document, each in percent, with the line height in
    percent of the font size. *)
Fixpoint changes (around : option fsize) (n : fnode) : list (Q * option Q) :=
  match n with
  | FNode k _ _ _ _ _ size line kids =>
      ((match against k around, size with
        | Some p, Some f => if size_eqb p f then []
                            else [((f_v f / f_v p * 100)%Q, option_map (fun h => (h / f_v f * 100)%Q) (cell_line line))]
        | _, _ => []
        end) ++ flat_map (changes size) kids)%list
  | _ => []
  end.

Definition same_line (a b : option Q) : Prop :=
  match a, b with Some x, Some y => (x == y)%Q | None, None => True | _, _ => False end.

(** Elements that change the size by the same factor have the same line height,
    relative to their font size. *)
Definition coherent (l : list (Q * option Q)) : Prop :=
  forall v w x y, In (v, x) l -> In (w, y) l -> (v == w)%Q -> same_line x y.

Definition fkids (d : fdoc) : list fnode := match fd_body d with Some b => fb_kids b | None => [] end.

(** ** The source as the style pass sees it *)

(** The identifiers of the head; those of the body stand for no style and no
    region. *)
Definition styles_in (d : fdoc) : list (string * style_el) := match fd_styling d with Some l => l | None => [] end.
Definition regions_in (d : fdoc) : list (string * region_el) := match fd_layout d with Some l => l | None => [] end.
Definition heads (d : fdoc) : list (string * kind) :=
  (map (fun p => (fst p, KStyle (snd p))) (styles_in d) ++ map (fun p => (fst p, KRegion (snd p))) (regions_in d))%list.

Fixpoint elements (n : fnode) : list sel :=
  match n with
  | FNode k _ r st _ _ _ _ kids => [SNode k st r (flat_map elements kids)]
  | _ => []
  end.

(** The sizes of the elements are those of the pass. *)
Inductive carries : list sout -> list fnode -> Prop :=
| ca_nil : carries [] []
| ca_text os s l : carries os l -> carries os (FText s :: l)
| ca_br os l : carries os l -> carries os (FBr :: l)
| ca_node os l k i r st b e el ks kids : carries ks kids -> carries os l ->
    carries (SOut k r el ks :: os)
            (FNode k i r st b e (fontSize (c_attrs (e_computed el))) (lineHeight (c_attrs (e_computed el))) kids :: l).

(** The document [d] with body [b] has been validated; [os] are the elements in
    the body. *)
Definition validated (d : fdoc) (b : fbody) (z : sizing) (os : list sout) : Prop :=
  fd_body d = Some b /\
  NoDup (map fst (heads d)) /\
  exists regions el,
    validate_styles (heads d) z (SNode Body (fb_style b) None (flat_map elements (fb_kids b)))
      = SOk (regions, SOut Body None el os) /\
    carries os (fb_kids b).

(** No size is zero or negative. *)
Definition fsize_pos (f : fsize) : Prop := (0 < f_v f)%Q /\ match f_h f with Some h => (0 < h)%Q | None => True end.
Definition positive_sizes (d : fdoc) (z : sizing) : Prop :=
  (forall i s f, In (i, s) (styles_in d) -> fontSize (s_attrs s) = Some f -> fsize_pos f) /\
  (0 < fst (z_res z))%Q /\ (0 < snd (z_res z))%Q /\
  match z_extent z with Some (w, h) => (0 < w)%Q /\ (0 < h)%Q | None => True end.

(** Computed font sizes, line heights and values, in the same order as [dsizes],
    [dlines] and [dvalues]. *)
Fixpoint ssizes (o : sout) : list (option Q) :=
  match o with
  | SOut k _ e ks =>
      ((match k with P | Span => [option_map f_v (fontSize (c_attrs (e_computed e)))] | _ => [] end) ++
       flat_map ssizes ks)%list
  end.
Fixpoint slines (o : sout) : list (option lheight) :=
  match o with
  | SOut k _ e ks =>
      ((match k with P | Span => [lineHeight (c_attrs (e_computed e))] | _ => [] end) ++ flat_map slines ks)%list
  end.
Fixpoint svalues (a : aname) (o : sout) : list (option string) :=
  match o with
  | SOut _ _ e ks => getattr (c_attrs (e_computed e)) a :: flat_map (svalues a) ks
  end.

(** ** Colours *)

(** A colour as four numbers (TTML1 8.3.2), or any other text. *)
Inductive shade := Rgba (r g b a : Z) | Raw (s : string).
Definition hex (c : ascii) : option Z :=
  let n := Z.of_nat (nat_of_ascii c) in
  if (48 <=? n)%Z && (n <=? 57)%Z then Some (n - 48)%Z
  else if (97 <=? n)%Z && (n <=? 102)%Z then Some (n - 87)%Z
  else if (65 <=? n)%Z && (n <=? 70)%Z then Some (n - 55)%Z else None.
Fixpoint hex_bytes (s : string) : option (list Z) :=
  match s with
  | EmptyString => Some []
  | String c (String d r) =>
      match hex c, hex d, hex_bytes r with Some x, Some y, Some l => Some ((16 * x + y)%Z :: l) | _, _, _ => None end
  | _ => None
  end.
Definition ttml_colours : list (string * shade) :=
  [("transparent", Rgba 0 0 0 0); ("black", Rgba 0 0 0 255); ("silver", Rgba 192 192 192 255);
   ("gray", Rgba 128 128 128 255); ("white", Rgba 255 255 255 255); ("maroon", Rgba 128 0 0 255);
   ("red", Rgba 255 0 0 255); ("purple", Rgba 128 0 128 255); ("fuchsia", Rgba 255 0 255 255);
   ("magenta", Rgba 255 0 255 255); ("green", Rgba 0 128 0 255); ("lime", Rgba 0 255 0 255);
   ("olive", Rgba 128 128 0 255); ("yellow", Rgba 255 255 0 255); ("navy", Rgba 0 0 128 255);
   ("blue", Rgba 0 0 255 255); ("teal", Rgba 0 128 128 255); ("aqua", Rgba 0 255 255 255);
   ("cyan", Rgba 0 255 255 255)].
Definition shade_of (s : string) : shade :=
  match s with
  | String "#" r => match hex_bytes r with
                    | Some [x; y; z] => Rgba x y z 255
                    | Some [x; y; z; t] => Rgba x y z t
                    | _ => Raw s
                    end
  | _ => match dict_get ttml_colours s with Some c => c | None => Raw s end
  end.

(** Two texts of an attribute that mean the same. *)
Definition alike (a : aname) (x y : option string) : Prop :=
  match a with
  | Color | BackgroundColor => option_map shade_of x = option_map shade_of y
  | _ => x = y
  end.

(** ** The documents of C50 *)

(** No style refers to another, and the body to none. *)
Definition no_chains (d : fdoc) : Prop := forall i s, In (i, s) (styles_in d) -> refs (s_refs s) = [].
Definition plain_body (b : fbody) : Prop := refs (fb_style b) = [].

(** References of the result. *)
Fixpoint drefs (n : dnode) : list ref :=
  match n with
  | DNode _ _ _ st _ _ kids => (style_refs st ++ flat_map drefs kids)%list
  | _ => []
  end.
Fixpoint dregions (n : dnode) : list string :=
  match n with
  | DNode _ _ r _ _ _ kids => ((match r with Some i => [i] | None => [] end) ++ flat_map dregions kids)%list
  | _ => []
  end.
Definition resolves (dd : ddoc) (r : ref) : Prop :=
  match r with
  | Own i => dict_get (dd_styles dd) i <> None
  | Gen v => gen_lookup v (dd_gens dd) <> None
  end.

(** No two generated styles have the same identifier. *)
Definition distinct (m : gens) : Prop := ForallOrdPairs (fun a b => ~ fst a == fst b) m.
