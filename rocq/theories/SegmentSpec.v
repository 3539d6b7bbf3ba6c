(** What a document presents at an instant, for C31: stated for any tree with
    times on it, without reference to segments. *)

From Coq Require Import List ZArith String Ascii Bool.
From Verif Require Import TimingModel TimeSpec StyleModel SegmentModel.
Import ListNotations.
Open Scope Z_scope.

(** Presented content. *)
Inductive shown :=
| SText (s : string)
| SBreak
| SEl (k : ekind) (i : option string) (region : option string) (style : option (list string))
      (kids : list shown).

(** An element is active from its computed begin up to but not including its
    computed end. *)
Definition active (t cb : Z) (ce : option Z) : bool :=
  (cb <=? t) && match ce with Some e => t <? e | None => true end.

(** Blank text: one or more characters, all of them white space (tab, line feed,
    vertical tab, form feed, carriage return, the four separators, space, next
    line, no-break space). *)
Definition white : list nat := [9; 10; 11; 12; 13; 28; 29; 30; 31; 32; 133; 160]%nat.
Definition blank (s : string) : bool :=
  match list_ascii_of_string s with
  | [] => false
  | l => forallb (fun c => existsb (Nat.eqb (nat_of_ascii c)) white) l
  end.

(** Something to read: text that is not blank, or an element. *)
Definition readable (s : shown) : bool :=
  match s with
  | SText s => negb (blank s)
  | SBreak => false
  | SEl _ _ _ _ _ => true
  end.

(** [present t n c]: what the element [n], whose times are [c], contributes at
    instant [t].  An element that is not active, or in which there is nothing to
    read, contributes nothing. *)
Fixpoint present (t : Z) (n : node) (c : ctree) {struct n} : list shown :=
  match n with
  | Text s => [SText s]
  | Br => [SBreak]
  | Node k i r st _ _ kids =>
      match c with
      | CTimed _ _ cb ce cs =>
          let fix all (ns : list node) (cs : list ctree) {struct ns} : list shown :=
            match ns, cs with
            | m :: ns', x :: cs' => (present t m x ++ all ns' cs')%list
            | _, _ => []
            end in
          let inner := all kids cs in
          if active t cb ce && existsb readable inner then [SEl k i r st inner] else []
      | COther => []
      end
  end.

Fixpoint present_all (t : Z) (ns : list node) (cs : list ctree) : list shown :=
  match ns, cs with
  | m :: ns', x :: cs' => (present t m x ++ present_all t ns' cs')%list
  | _, _ => []
  end.

(** The document: what is in its body while that is active. *)
Definition present_body (t : Z) (b : bodyd) (c : ctree) : list shown :=
  match c with
  | CTimed _ _ cb ce cs => if active t cb ce then present_all t (bd_kids b) cs else []
  | COther => []
  end.

(** The window. *)
Definition in_window (sb se : option Z) (t : Z) : bool :=
  match sb with Some s => s <=? t | None => true end &&
  match se with Some e => t <? e | None => true end.

(** Times are written with milliseconds; the last microsecond of the
    millisecond [t] is in. *)
Definition ms_last (t : Z) : Z := t / 1000 * 1000 + 999.

(** Content with other identifiers. *)
Fixpoint rename (f : string -> string) (s : shown) : shown :=
  match s with
  | SEl k i r st kids =>
      SEl k (option_map f i) (match k with Div | P => option_map f r | _ => None end)
          (option_map (map f) st) (map (rename f) kids)
  | _ => s
  end.

(** ** The documents of the theorem *)

(** The content model of the schema: div in body, div and p in div, text, br
    and span in p and span. *)
Definition fits (parent : ekind) (v : vnode) : bool :=
  match parent, v with
  | Body, VNode Div _ _ _ _ _ _ _ _ _ _ => true
  | Div, VNode Div _ _ _ _ _ _ _ _ _ _ => true
  | Div, VNode P _ _ _ _ _ _ _ _ _ _ => true
  | P, VNode Span _ _ _ _ _ _ _ _ _ _ => true
  | Span, VNode Span _ _ _ _ _ _ _ _ _ _ => true
  | P, VText _ | P, VBr | Span, VText _ | Span, VBr => true
  | _, _ => false
  end.
Inductive shaped : vnode -> Prop :=
| sh_text s : shaped (VText s)
| sh_br : shaped VBr
| sh_node k i r st b e cb ce vs inh kids :
    Forall (fun v => fits k v = true) kids -> Forall shaped kids ->
    shaped (VNode k i r st b e cb ce vs inh kids).

(** No element whose end does not follow its begin (as the code compares them). *)
Inductive well_timed : vnode -> Prop :=
| wt_text s : well_timed (VText s)
| wt_br : well_timed VBr
| wt_node k i r st b e cb ce vs inh kids :
    badly_timed b e = false -> Forall well_timed kids ->
    well_timed (VNode k i r st b e cb ce vs inh kids).

(** Times that can be written: all before the hundredth hour, ends not within
    the first millisecond. *)
Definition end_ok (e : option Z) : Prop :=
  match e with Some v => 1000 <= v < h100 | None => True end.
Definition begin_ok (b : option Z) : Prop :=
  match b with Some v => v < h100 | None => True end.
Inductive times_ok : vnode -> Prop :=
| to_text s : times_ok (VText s)
| to_br : times_ok VBr
| to_node k i r st b e cb ce vs inh kids :
    cb < h100 -> end_ok ce -> Forall times_ok kids ->
    times_ok (VNode k i r st b e cb ce vs inh kids).

(** Text of an element itself, spans in an element, and elements without times
    of their own all the way down. *)
Definition has_text (kids : list vnode) : bool :=
  existsb (fun v => match v with VText s => negb (blank s) | _ => false end) kids.
Definition has_span (kids : list vnode) : bool :=
  existsb (fun v => match v with VNode Span _ _ _ _ _ _ _ _ _ _ => true | _ => false end) kids.
Inductive untimed : vnode -> Prop :=
| un_text s : untimed (VText s)
| un_br : untimed VBr
| un_node k i r st cb ce vs inh kids :
    Forall untimed kids -> untimed (VNode k i r st None None cb ce vs inh kids).

(** Text beside spans is allowed where the spans have no times of their own and
    the part of the element inside the window is not shorter than what can be
    written. *)
Inductive plain_mix (sb se : option Z) : vnode -> Prop :=
| pm_text s : plain_mix sb se (VText s)
| pm_br : plain_mix sb se VBr
| pm_node k i r st b e cb ce vs inh kids :
    (has_text kids = true -> has_span kids = true -> is_in_segment cb ce sb se = true ->
     Forall untimed kids /\
     (forall t, trim_end se ce = Some t -> trim_begin sb cb / 1000 < t / 1000)) ->
    Forall (plain_mix sb se) kids ->
    plain_mix sb se (VNode k i r st b e cb ce vs inh kids).


(** The documents of the theorem, for a window. *)
Definition presentable (sb se : option Z) (v : vbody) : Prop :=
  Forall (fun w => fits Body w = true) (vb_kids v) /\ Forall shaped (vb_kids v) /\
  Forall well_timed (vb_kids v) /\ Forall times_ok (vb_kids v) /\
  Forall (plain_mix sb se) (vb_kids v).

(** No empty element: every div has a div or p in it, every p and span has text
    that is not blank, a line break or a span. *)
Definition worth (k : ekind) (n : node) : Prop :=
  match k, n with
  | Div, Node Div _ _ _ _ _ _ | Div, Node P _ _ _ _ _ _ => True
  | P, Br | Span, Br => True
  | P, Text s | Span, Text s => blank s = false
  | P, Node Span _ _ _ _ _ _ | Span, Node Span _ _ _ _ _ _ => True
  | _, _ => False
  end.
Inductive filled : node -> Prop :=
| fd_text s : filled (Text s)
| fd_br : filled Br
| fd_node k i r st b e kids :
    (exists n, In n kids /\ worth k n) -> Forall filled kids -> filled (Node k i r st b e kids).

(** All times on whole milliseconds. *)
Definition whole (v : Z) : Prop := v mod 1000 = 0.
Definition owhole (e : option Z) : Prop := match e with Some v => whole v | None => True end.
Inductive whole_ms : vnode -> Prop :=
| wm_text s : whole_ms (VText s)
| wm_br : whole_ms VBr
| wm_node k i r st b e cb ce vs inh kids :
    whole cb -> owhole ce -> Forall whole_ms kids ->
    whole_ms (VNode k i r st b e cb ce vs inh kids).
Definition whole_doc (v : vbody) : Prop :=
  whole (vb_cb v) /\ owhole (vb_ce v) /\ Forall whole_ms (vb_kids v).

(** Every reference made by an element inside the window is to one of the styles
    and regions given. *)
Inductive resolves (sb se : option Z) (styles regions : list string) : vnode -> Prop :=
| rs_text s : resolves sb se styles regions (VText s)
| rs_br : resolves sb se styles regions VBr
| rs_out k i r st b e cb ce vs inh kids :
    is_in_segment cb ce sb se = false ->
    resolves sb se styles regions (VNode k i r st b e cb ce vs inh kids)
| rs_in k i r st b e cb ce vs inh kids :
    (forall l j, st = Some l -> In j l -> In j styles) ->
    (forall j, r = Some j -> k = Div \/ k = P -> In j regions) ->
    Forall (resolves sb se styles regions) kids ->
    resolves sb se styles regions (VNode k i r st b e cb ce vs inh kids).

(** ** For C47: the head of a document *)

(** Everything an identifier of the head stands for. *)
Definition head_table {B} (d : docu B) : list (string * kind) :=
  (map (fun s => (fst s, KStyle (snd s))) (els (t_styling d)) ++
   map (fun r => (fst r, KRegion (snd r))) (els (t_layout d)))%list.

(** The references of the content, and its identifiers, in document order. *)
Definition opt_list {A} (o : option (list A)) : list A := match o with Some l => l | None => [] end.
Definition opt_one {A} (o : option A) : list A := match o with Some x => [x] | None => [] end.
Fixpoint style_refs (n : node) : list string :=
  match n with
  | Node _ _ _ st _ _ kids => (opt_list st ++ flat_map style_refs kids)%list
  | _ => []
  end.
Fixpoint region_refs (n : node) : list string :=
  match n with
  | Node _ _ r _ _ _ kids => (opt_one r ++ flat_map region_refs kids)%list
  | _ => []
  end.
Fixpoint node_ids (n : node) : list string :=
  match n with
  | Node _ i _ _ _ _ kids => (opt_one i ++ flat_map node_ids kids)%list
  | _ => []
  end.
Definition body_style_refs (b : bodyd) : list string := (opt_list (bd_style b) ++ flat_map style_refs (bd_kids b))%list.
Definition body_region_refs (b : bodyd) : list string := flat_map region_refs (bd_kids b).
Definition body_ids (b : bodyd) : list string := flat_map node_ids (bd_kids b).

(** What the style pass leaves on the elements: applicable styles and region. *)
Inductive stree := STree (k : ekind) (styles : list string) (region : option string) (kids : list stree).
Fixpoint ostyles (o : sout) : stree :=
  match o with SOut k _ e os => STree k (validated_styles e) (e_region e) (map ostyles os) end.
Fixpoint vstyles (v : vnode) : list stree :=
  match v with
  | VNode k _ _ _ _ _ _ _ styles inh kids => [STree k styles inh (flat_map vstyles kids)]
  | _ => []
  end.
Definition vstyles_body (v : vbody) : stree := STree Body (vb_styles v) None (flat_map vstyles (vb_kids v)).

(** [part v w]: the element [w] is [v] or below it. *)
Inductive part : vnode -> vnode -> Prop :=
| part_here v : part v v
| part_below k i r st b e cb ce vs inh kids v w : In v kids -> part v w ->
    part (VNode k i r st b e cb ce vs inh kids) w.

(** All identifiers of a document. *)
Definition doc_table {B} (d : docu B) (b : bodyd) : list (string * kind) :=
  (head_table d ++ map (fun i => (i, KOther)) (body_ids b))%list.

(** A validated document: its identifiers (those of the content included) are
    unique, and the styles and regions recorded on its elements are the ones the
    style pass finds. *)
Definition style_checked (d : docu vbody) (v : vbody) : Prop :=
  NoDup (map fst (doc_table d (plain_body v))) /\
  exists z regions o, validate_styles (doc_table d (plain_body v)) z (styling_body (plain_body v)) = SOk (regions, o) /\ vstyles_body v = ostyles o.

(** The copy of a style and of a region under new identifiers. *)
Definition renamed_style (f : string -> string) (s : string * style_el) : string * style_el :=
  (f (fst s), mkStyle (option_map (map f) (s_refs (snd s))) (setattr (s_attrs (snd s)) MultiRowAlign None)).
Definition renamed_region (f : string -> string) (r : string * region_el) : string * region_el :=
  (f (fst r), mkRegion (option_map (map f) (r_refs (snd r))) (r_padding (snd r))).

(** Every div inside the window has a paragraph inside the window. *)
Definition in_play (sb se : option Z) (v : vnode) : bool :=
  match v with VNode _ _ _ _ _ _ cb ce _ _ _ => is_in_segment cb ce sb se | _ => false end.
Definition is_par (v : vnode) : bool := match v with VNode P _ _ _ _ _ _ _ _ _ _ => true | _ => false end.
Inductive busy (sb se : option Z) : vnode -> Prop :=
| bz_text s : busy sb se (VText s)
| bz_br : busy sb se VBr
| bz_node k i r st b e cb ce vs inh kids :
    (k = Div -> is_in_segment cb ce sb se = true ->
     exists w, part (VNode k i r st b e cb ce vs inh kids) w /\ is_par w = true /\ in_play sb se w = true) ->
    Forall (busy sb se) kids ->
    busy sb se (VNode k i r st b e cb ce vs inh kids).
