(** The semantic validation of a whole document in one pass: the checks of tt,
    the identifiers, the sizes, the time bases, the regions and the styles, in
    the order in which the hooks of the elements make them, and what
    get_element_by_id finds afterwards, also when the pass has stopped half way.

    Sources: ebu_tt_live/bindings/validation/base.py 176-195 (validateBinding)
    and 213-222 (_semantic_register_id);
    ebu_tt_live/bindings/validation/validator.py;
    ebu_tt_live/bindings/pyxb_utils.py 94-145 (the traversal);
    ebu_tt_live/bindings/validation/presentation.py;
    ebu_tt_live/bindings/validation/timing.py 234-261, 363-380;
    ebu_tt_live/bindings/__init__.py 419-425, 595-646, 716-728, 785-795,
    860-872, 978-988 and 1059-1073 (the hooks).

    Left out: the syntactic validation by PyXB (base.py 187), which comes after
    the check of the extent and before everything else; the computation of
    times, which never fails (TimingModel, C12), and the timeline.  Elements of
    metadata and br have empty hooks.  Styles are told apart by identifier, as in
    StyleModel. *)

From Coq Require Import List String Bool QArith.
From Verif Require Import IdModel StyleModel ReadModel.
From Verif Require HeadModel.
Import ListNotations.
Open Scope string_scope.

(** ** Documents *)

(** The types of the values of begin, end and dur; dur only counts on body. *)
Record timing := mkTimes { t_begin : option ttype; t_end : option ttype; t_dur : option ttype }.

(** Elements of the body: body, div, p and span with their identifier, times,
    style and region.  A body has neither identifier nor region, a span no region
    (ebutt_live.xsd 143-330); what is given there is not looked at. *)
Inductive vel := VNode (k : ekind) (id : option string) (t : timing) (style : option (list string))
  (region : option string) (kids : list vel).

(** A region with the units of its origin and extent. *)
Record vregion := mkVR { vr_id : string; vr_origin : unit3; vr_extent : unit3; vr_el : region_el }.

(** The attributes of tt, its extent with the unit it is in, its cellResolution,
    the elements of styling and of layout, and the body. *)
Record vdoc := mkVD {
  vd_head : HeadModel.head; vd_extent : option (unit3 * (Q * Q)); vd_res : Q * Q;
  vd_styles : list (string * style_el); vd_regions : list vregion; vd_body : option vel }.

Definition sizing_of (d : vdoc) : sizing := mkSizing (option_map snd (vd_extent d)) (vd_res d).

(** ** Exceptions and state *)

(** SimpleTypeValueError for the extent of tt; SemanticValidationError for the
    attributes of tt, for an identifier there already and for a time of the wrong
    type; and those of StyleModel. *)
Inductive verr := VExtentType | VHead (e : HeadModel.herr) | VDuplicate (i : string)
  | VTime (n : tname) (ty : ttype) | VStyle (e : serr).

(** The dictionary elements_by_id, newest entry first; what the pass has left on
    the regions, newest first; the part of the dataset that StyleModel has, with
    the fields _styling_lock and _ordered_styles of the styles; and what the pass
    has left on the elements of the body, in the order of entering them. *)
Record vstate := mkVS {
  vs_ids : list (string * kind); vs_regions : list (string * styled); vs_world : world; vs_left : list styled }.

Definition with_ids (s : vstate) (l : list (string * kind)) : vstate := mkVS l (vs_regions s) (vs_world s) (vs_left s).
Definition with_world (s : vstate) (w : world) : vstate := mkVS (vs_ids s) (vs_regions s) w (vs_left s).

(** ** Checks *)

(** presentation.py 12-19 on a value of the given unit; the pixel types raise
    without an extent on tt (_ebuttdt.py 444-447, 473-476, 530-533), other types
    are no SizingValidationMixin. *)
Definition check_size (z : sizing) (u : unit3) : option verr :=
  match u, z_extent z with
  | Px, None => Some (VStyle ExtentMissing)
  | _, _ => None
  end.

(** timing.py 234-261 and 363-380. *)
Definition check_time (tb : string) (n : tname) (o : option ttype) : option verr :=
  match o with
  | Some ty => if timebase_ok tb n ty then None else Some (VTime n ty)
  | None => None
  end.
Definition first_error (a b : option verr) : option verr := match a with Some _ => a | None => b end.
Definition check_times (tb : string) (k : ekind) (t : timing) : option verr :=
  first_error (check_time tb NBegin (t_begin t))
    (first_error (check_time tb NEnd (t_end t))
       (match k with Body => check_time tb NDur (t_dur t) | _ => None end)).

(** ** Styling *)

(** bindings/__init__.py 423-425: a new lock and no cached order for the style. *)
Definition renew (st : sstate) (i : string) : sstate :=
  mkS (filter (fun j => negb (i =? j)) (st_locked st)) (filter (fun e => negb (i =? fst e)) (st_cache st)).

(** bindings/__init__.py 419-425, the hook of style. *)
Definition visit_style (z : sizing) (e : string * style_el) (s : vstate) : option verr * vstate :=
  match register_id (vs_ids s) (Some (fst e), KStyle (snd e)) with
  | None => (Some (VDuplicate (fst e)), s)
  | Some l =>
      let s1 := with_ids s l in
      match match fontSize (s_attrs (snd e)) with Some f => check_size z (f_unit f) | None => None end with
      | Some x => (Some x, s1)
      | None =>
          let w := vs_world s1 in
          (None, with_world s1 (mkW (renew (w_styles w) (fst e)) (w_stack w) (w_region w)))
      end
  end.

(** pyxb_utils.py 109-116, over children: the first exception ends it. *)
Definition visit_list {A} (f : A -> vstate -> option verr * vstate) : list A -> vstate -> option verr * vstate :=
  fix go (l : list A) (s : vstate) : option verr * vstate :=
  match l with
  | [] => (None, s)
  | x :: r => match f x s with
              | (None, s') => go r s'
              | (Some e, s') => (Some e, s')
              end
  end.

(** ** Layout *)

(** The style made of the padding of a region, bindings/__init__.py 1067-1072. *)
Definition own_padding (r : region_el) : sattrs :=
  mkAttrs None None None None None None None None None None None None (r_padding r) None None.

(** bindings/__init__.py 1059-1073, the hook of region: its parent, layout, has
    no computed style. *)
Definition visit_region (z : sizing) (r : vregion) (s : vstate) : option verr * vstate :=
  match register_id (vs_ids s) (Some (vr_id r), KRegion (vr_el r)) with
  | None => (Some (VDuplicate (vr_id r)), s)
  | Some l =>
      let s1 := with_ids s l in
      match first_error (check_size z (vr_origin r)) (check_size z (vr_extent r)) with
      | Some x => (Some x, s1)
      | None =>
          match collect l z (vs_world s1) (r_refs (vr_el r)) None false [own_padding (vr_el r)] with
          | (SErr x, w) => (Some (VStyle x), with_world s1 w)
          | (SOk e, w) => (None, mkVS l ((vr_id r, e) :: vs_regions s1) w (vs_left s1))
          end
      end
  end.

(** ** Body *)

(** base.py 213-222; a body is no IDMixin. *)
Definition register (s : vstate) (k : ekind) (id : option string) : option (list (string * kind)) :=
  match k with Body => Some (vs_ids s) | _ => register_id (vs_ids s) (id, KOther) end.

(** presentation.py 176-185 with get_element_by_id, bindings/__init__.py 634-646. *)
Definition enter_region (s : vstate) (k : ekind) (r : option string) : sres world :=
  let w := vs_world s in
  match k, r with
  | Div, Some i | P, Some i =>
      match get_region (vs_ids s) i, dict_get (vs_regions s) i with
      | Some _, Some e => SOk (mkW (w_styles w) (w_stack w) (Some (i, e)))
      | _, _ => SErr (RegionMissing i)
      end
  | _, _ => SOk w
  end.

Definition the_id (id : option string) : string := match id with Some i => i | None => "" end.

(** The hooks on the way down: 978-984, 860-868, 716-722 and 785-790. *)
Definition enter (tb : string) (z : sizing) (parent : option computed) (k : ekind) (id : option string) (t : timing)
  (style : option (list string)) (region : option string) (s : vstate) : (verr + styled) * vstate :=
  match register s k id with
  | None => (inl (VDuplicate (the_id id)), s)
  | Some l =>
      let s1 := with_ids s l in
      match check_times tb k t with
      | Some x => (inl x, s1)
      | None =>
          match enter_region s1 k region with
          | SErr x => (inl (VStyle x), s1)
          | SOk w1 =>
              match collect l z w1 style parent (defers k) [] with
              | (SErr x, w2) => (inl (VStyle x), with_world s1 w2)
              | (SOk e, w2) => (inr e, mkVS l (vs_regions s1) (push w2 e) (vs_left s1 ++ [e])%list)
              end
          end
      end
  end.

(** The hooks on the way up: 986-988, 870-872, 724-728 and 792-795; a div does
    not pop. *)
Definition leave (k : ekind) (region : option string) (s : vstate) : vstate :=
  let w := unset_region k region (vs_world s) in
  with_world s (match k with Div => w | _ => pop w end).

(** pyxb_utils.py 120-142: one element and what is in it. *)
Fixpoint visit (tb : string) (z : sizing) (parent : option computed) (t : vel) (s : vstate) : option verr * vstate :=
  match t with
  | VNode k id tm style region kids =>
      match enter tb z parent k id tm style region s with
      | (inl x, s1) => (Some x, s1)
      | (inr e, s1) =>
          match visit_list (visit tb z (Some (e_computed e))) kids s1 with
          | (Some x, s2) => (Some x, s2)
          | (None, s2) => (None, leave k region s2)
          end
      end
  end.

(** ** The whole document *)

(** The head before the body (pyxb_utils.py 104-116). *)
Definition traverse (d : vdoc) (s : vstate) : option verr * vstate :=
  let z := sizing_of d in
  match visit_list (visit_style z) (vd_styles d) s with
  | (Some x, s1) => (Some x, s1)
  | (None, s1) =>
      match visit_list (visit_region z) (vd_regions d) s1 with
      | (Some x, s2) => (Some x, s2)
      | (None, s2) =>
          match vd_body d with
          | None => (None, s2)
          | Some b => visit (HeadModel.k_tb (vd_head d)) z None b s2
          end
      end
  end.

(** What remains on a document from one validation to the next: the table tt has
    (None before the first), the fields of the styles, and what the last pass has
    left on the regions and the elements of the body that it came to. *)
Record trace := mkTrace {
  tr_table : option (list (string * kind)); tr_styles : sstate; tr_regions : list (string * styled); tr_body : list styled }.
Definition untouched : trace := mkTrace None sstart [] [].

(** base.py 176-195 with the hooks of tt, bindings/__init__.py 595-602 and
    611-632.  tt has the new table from the start; an exception leaves what has
    been entered so far. *)
Definition validate (before : trace) (d : vdoc) : option verr * trace :=
  match vd_extent d with
  | Some (Cell, _) | Some (Pct, _) => (Some VExtentType, before)
  | _ =>
      match HeadModel.check_head (vd_head d) with
      | Some e => (Some (VHead e), mkTrace (Some []) (tr_styles before) [] [])
      | None =>
          let '(r, s) := traverse d (mkVS [] [] (mkW (tr_styles before) [] None) []) in
          (r, mkTrace (Some (vs_ids s)) (w_styles (vs_world s)) (rev (vs_regions s)) (vs_left s))
      end
  end.

(** bindings/__init__.py 634-646, get_element_by_id; [want] is the class asked
    for.  SemanticValidationError before any validation, or LookupError. *)
Inductive want := WAny | WStyle | WRegion.
Inductive answer := ANotValidated | ALookupError | AFound (x : kind).
Definition get_element (t : trace) (i : string) (ty : want) : answer :=
  match tr_table t with
  | None => ANotValidated
  | Some l =>
      match dict_get l i, ty with
      | Some x, WAny => AFound x
      | Some (KStyle s), WStyle => AFound (KStyle s)
      | Some (KRegion r), WRegion => AFound (KRegion r)
      | _, _ => ALookupError
      end
  end.
