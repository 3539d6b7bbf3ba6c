(** Timing validation of an EBU-TT Live document: the depth-first pass that
    gives every timed element its computed begin and end time.

    Sources: ebu_tt_live/bindings/validation/timing.py (all of
    TimingValidationMixin and BodyTimingValidationMixin up to line 229 and
    lines 315-361), ebu_tt_live/bindings/pyxb_utils.py 94-142 (traversal),
    ebu_tt_live/bindings/__init__.py 611-617 (initial context),
    ebu_tt_live/documents/ebutt3.py 484-513 (EBUTT3Document.validate).

    Conventions.  A timedelta is an integer number of microseconds.  Exceptions
    are values of [terr].  The traversal is a function on trees, the shared
    dictionary [dataset] is threaded through it as a [ctx]. *)

From Coq Require Import List ZArith String Bool.
Import ListNotations.
Open Scope Z_scope.

(** A begin/end/dur attribute value.  The binding classes of
    bindings/_ebuttdt.py (223-436) extend the string type: the value is a
    string with a [timedelta] property (lines 92-94).  The model keeps both
    sides, [ta_lex] and [ta_us], and relates them nowhere in this file: every
    theorem about this model holds whatever the conversion is.  TimeModel
    gives the conversion itself. *)
Record tattr : Type := mkTattr { ta_lex : string; ta_us : Z }.

(** Timed elements (div, p, span, and body at the root) carry optional begin
    and end; [el_dur] is only meaningful on body (BodyTimingValidationMixin
    reads it, lines 322-349; the other classes never look at it).
    [Other] stands for every child that is not a TimingValidationMixin
    instance: br, metadata, character content.  The schema allows no timed
    element below them and the validator does not descend into non-timed
    children in a way that touches timing (validator.py 19-23). *)
Inductive elem : Type :=
| Timed (el_begin el_end : option tattr) (el_kids : list elem)
| Other.

(** The body element: bindings/__init__.py 897-902. *)
Record body : Type := mkBody {
  b_begin : option tattr;
  b_end : option tattr;
  b_dur : option tattr;
  b_kids : list elem }.

(** The part of the semantic dataset the timing pass reads and writes,
    bindings/__init__.py 614-616.  Stack tops are list heads (Python appends
    and pops at the right end). *)
Record ctx : Type := mkCtx {
  c_begin_stack : list Z;
  c_end_stack : list Z;
  c_syncbase : Z }.

(** The context set up by tt_type._semantic_before_traversal,
    bindings/__init__.py 614-616. *)
Definition ctx0 : ctx := mkCtx [] [] 0.

(** Exceptions of the pass: the sanity check of timing.py 172-176 and popping
    an empty list (135, 145, 359). *)
Inductive terr : Type := LogicError | PopEmpty.
Inductive tres (A : Type) : Type := TOk (a : A) | TErr (e : terr).
Arguments TOk {A} a.
Arguments TErr {A} e.

(** Sequencing of steps that may raise. *)
Definition tbind {A B} (r : tres A) (f : A -> tres B) : tres B :=
  match r with TOk a => f a | TErr e => TErr e end.

(** Result tree: the input with the attributes _computed_begin_time and
    _computed_end_time the pass leaves on every timed element. *)
Inductive ctree : Type :=
| CTimed (ct_begin ct_end : option tattr) (cb : Z) (ce : option Z)
         (ct_kids : list ctree)
| COther.

(** timing.py 39-40 and 324: [x and x.timedelta or None].  A zero timedelta is
    false in Python, so it becomes None.  (The attribute string itself is
    never empty: the schema types require digits.) *)
Definition delta (a : option tattr) : option Z :=
  match a with
  | Some x => if ta_us x =? 0 then None else Some (ta_us x)
  | None => None
  end.

(** Python's [<=] on the attribute values.  The classes define no ordering, so
    this is unicode string comparison, code point by code point. *)
Definition str_le (a b : string) : bool :=
  match String.compare a b with Gt => false | _ => true end.

(** timing.py 46-49, _element_badly_timed. *)
Definition badly_timed (b e : option tattr) : bool :=
  match b, e with
  | Some x, Some y => str_le (ta_lex y) (ta_lex x)
  | _, _ => false
  end.

(** timing.py 56-58, _pre_assign_end: returns the context and the computed
    end. *)
Definition pre_assign_end (c : ctx) (proposed : Z) : ctx * option Z :=
  (mkCtx (c_begin_stack c) (proposed :: c_end_stack c) (c_syncbase c),
   Some proposed).

(** timing.py 60-70, _pre_calculate_end. *)
Definition pre_calculate_end (c : ctx) (e : option Z) : ctx * option Z :=
  match e with
  | None => (c, None)
  | Some d =>
      let proposed :=
        match c_end_stack c with
        | top :: _ => Z.min (c_syncbase c + d) top
        | [] => c_syncbase c + d
        end in
      pre_assign_end c proposed
  end.

(** timing.py 330-349, BodyTimingValidationMixin._pre_calculate_end. *)
Definition body_pre_calculate_end (avail : Z) (c : ctx) (b e d : option Z)
  : ctx * option Z :=
  match d with
  | None => pre_calculate_end c e
  | Some dur =>
      let proposed :=
        match b, e with
        | Some bg, Some en => Z.min (dur + bg) en
        | Some bg, None => dur + bg
        | None, None => avail + dur
        | None, Some en => Z.min (avail + dur) en
        end in
      pre_assign_end c proposed
  end.

(** timing.py 72-87, _pre_assign_begin and _pre_calculate_begin: returns the
    context and the computed begin. *)
Definition pre_assign_begin (avail : Z) (c : ctx) (b : option Z) : ctx * Z :=
  let c' := match b with
            | Some d => mkCtx (d :: c_begin_stack c) (c_end_stack c)
                              (c_syncbase c + d)
            | None => c
            end in
  (c', if avail =? 0 then c_syncbase c' else Z.max (c_syncbase c') avail).

(** timing.py 129-138, _post_pop_begin. *)
Definition post_pop_begin (c : ctx) (b : option Z) : tres (ctx * option Z) :=
  match b with
  | None => TOk (c, None)
  | Some _ =>
      match c_begin_stack c with
      | [] => TErr PopEmpty
      | d :: rest => TOk (mkCtx rest (c_end_stack c) (c_syncbase c - d), Some d)
      end
  end.

(** timing.py 140-147 and 354-361, _post_pop_end; [pushed] tells whether the
    down-going step pushed (end given, or on body end or dur given). *)
Definition post_pop_end (c : ctx) (pushed : bool) : tres (ctx * option Z) :=
  if pushed then
    match c_end_stack c with
    | [] => TErr PopEmpty
    | d :: rest => TOk (mkCtx (c_begin_stack c) rest (c_syncbase c), Some d)
    end
  else TOk (c, None).

(** timing.py 186-188 and 223-225: the timed children that are not badly
    timed, as pairs of their computed times. *)
Fixpoint good_children (ks : list ctree) : list (Z * option Z) :=
  match ks with
  | [] => []
  | CTimed b e cb ce _ :: r =>
      if badly_timed b e then good_children r else (cb, ce) :: good_children r
  | COther :: r => good_children r
  end.

(** Python's min and max of a non-empty list. *)
Definition zmin_list (x : Z) (l : list Z) : Z := fold_left Z.min l x.
Definition zmax_list (x : Z) (l : list Z) : Z := fold_left Z.max l x.

(** timing.py 200-207: None if some child is endless, else the latest. *)
Fixpoint all_some (l : list (option Z)) : option (list Z) :=
  match l with
  | [] => Some []
  | None :: _ => None
  | Some x :: r => match all_some r with
                   | Some r' => Some (x :: r')
                   | None => None
                   end
  end.

(** timing.py 190-207: computed end when the way down assigned none. *)
Definition up_end (c : ctx) (good : list (Z * option Z)) : option Z :=
  match good with
  | [] => match c_end_stack c with [] => None | top :: _ => Some top end
  | _ => match all_some (map snd good) with
         | Some (x :: r) => Some (zmax_list x r)
         | _ => None
         end
  end.

(** timing.py 89-106, _post_calculate_begin. *)
Definition post_calculate_begin (cb : Z) (good : list (Z * option Z)) : Z :=
  match map fst good with
  | [] => cb
  | x :: r => let m := zmin_list x r in if cb <? m then m else cb
  end.

(** timing.py 149-229, _semantic_postprocess_timing.  [b] is _begin_timedelta,
    [pushed] as above, [cb]/[ce] the times assigned on the way down, [bad_body]
    the condition of lines 215-216 (false for everything but body). *)
Definition postprocess (c : ctx) (b : option Z) (pushed bad_body : bool)
    (cb : Z) (ce : option Z) (kids : list ctree)
  : tres (ctx * Z * option Z) :=
  tbind (post_pop_begin c b) (fun '(c1, begin_td) =>
  tbind (post_pop_end c1 pushed) (fun '(c2, end_td) =>
  match end_td, ce with
  | Some _, None | None, Some _ => TErr LogicError
  | _, _ =>
      let good := good_children kids in
      let ce1 := match ce with Some e => Some e | None => up_end c2 good end in
      let '(cb2, ce2) := if bad_body then (0, None) else (cb, ce1) in
      let cb3 := match begin_td with
                 | None => post_calculate_begin cb2 good
                 | Some _ => cb2
                 end in
      TOk (c2, cb3, ce2)
  end)).

(** The traversal over a timed element and its children:
    pyxb_utils.py 94-142 with the hooks of div, p and span
    (bindings/__init__.py 716-728, 785-795, 860-872), timing part only. *)
Fixpoint visit (avail : Z) (t : elem) (c : ctx) {struct t}
  : tres (ctx * ctree) :=
  match t with
  | Other => TOk (c, COther)
  | Timed b e kids =>
      let bd := delta b in
      let ed := delta e in
      let '(c1, ce) := pre_calculate_end c ed in
      let '(c2, cb) := pre_assign_begin avail c1 bd in
      let fix visit_kids (ks : list elem) (c : ctx) : tres (ctx * list ctree) :=
        match ks with
        | [] => TOk (c, [])
        | k :: r => tbind (visit avail k c) (fun '(c', k') =>
                    tbind (visit_kids r c') (fun '(c'', r') =>
                    TOk (c'', k' :: r')))
        end in
      tbind (visit_kids kids c2) (fun '(c3, kids') =>
      tbind (postprocess c3 bd (match ed with Some _ => true | None => false end)
                         false cb ce kids') (fun '(c4, cb', ce') =>
      TOk (c4, CTimed b e cb' ce' kids')))
  end.

(** pyxb_utils.py 94-118 as a function of its own, for the body. *)
Fixpoint visit_all (avail : Z) (ks : list elem) (c : ctx)
  : tres (ctx * list ctree) :=
  match ks with
  | [] => TOk (c, [])
  | k :: r => tbind (visit avail k c) (fun '(c', k') =>
              tbind (visit_all avail r c') (fun '(c'', r') =>
              TOk (c'', k' :: r')))
  end.

(** Body: bindings/__init__.py 978-988 with timing.py 315-361. *)
Definition visit_body (avail : Z) (x : body) (c : ctx) : tres (ctx * ctree) :=
  let bd := delta (b_begin x) in
  let ed := delta (b_end x) in
  let dd := delta (b_dur x) in
  let '(c1, ce) := body_pre_calculate_end avail c bd ed dd in
  let '(c2, cb) := pre_assign_begin avail c1 bd in
  tbind (visit_all avail (b_kids x) c2) (fun '(c3, kids') =>
  tbind (postprocess c3 bd
           (match ed, dd with None, None => false | _, _ => true end)
           (badly_timed (b_begin x) (b_end x)) cb ce kids')
        (fun '(c4, cb', ce') =>
  TOk (c4, CTimed (b_begin x) (b_end x) cb' ce' kids'))).

(** EBUTT3Document.validate, ebutt3.py 484-513: the computed times of the
    document, and the annotated body. *)
Definition validate (avail : option Z) (x : option body)
  : tres (Z * option Z * ctree) :=
  let av := match avail with Some a => a | None => 0 end in
  match x with
  | None => TOk (av, Some av, COther)
  | Some bd =>
      tbind (visit_body av bd ctx0) (fun '(_, t) =>
      match t with
      | CTimed _ _ cb ce _ => TOk (cb, ce, t)
      | COther => TOk (av, Some av, COther)
      end)
  end.

(** timing.py 272-279, is_in_segment. *)
Definition is_in_segment (cb : Z) (ce : option Z) (sb se : option Z) : bool :=
  match sb, ce with
  | Some s, Some e => if e <=? s then false
                      else match se with Some z => negb (z <=? cb) | None => true end
  | _, _ => match se with Some z => negb (z <=? cb) | None => true end
  end.
