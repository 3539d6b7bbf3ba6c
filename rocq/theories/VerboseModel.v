(** What a sequence writes to its log about documents when it is verbose, and
    what that does to the sequence.

    Sources: ebu_tt_live/bindings/validation/content.py 45-82
    (SubtitleContentContainer.content_to_string), bindings/__init__.py 815-821
    (br_type), 679, 726, 750, 794 (paragraphs and spans are on the timeline),
    documents/ebutt3.py 411-430 (discard_document), 447-482 (content_to_string),
    800-837, 841-917 (the calls of them), xsd/ebutt_live.xsd 228-234, 284-290
    (metadata is allowed in p and span).

    Lines of text are kept as values; how a time is printed is not modelled. *)

From Coq Require Import List ZArith String Bool.
From Verif Require Import SequenceModel TimelineModel.
Import ListNotations.
Open Scope Z_scope.

(** The content of paragraphs and spans in order: text, line breaks, the
    metadata element, and paragraphs or spans with begin and end as written and
    the computed times, of which the begin is never None. *)
Inductive piece :=
| PText (s : string)
| PBr
| PMeta
| PCont (cls : string) (b e : option string) (cb : Z) (ce : option Z) (l : list piece).

(** A line with the times of an element has the part of them that is in the
    range asked for, or none for "(discarded)". *)
Inductive line :=
| LText (s : string)
| LBr
| LEmpty
| LTimes (cls : string) (b e : option string) (cb : Z) (ce : option Z) (shown : option (Z * Z)).

(** content.py 46-75. *)
Definition header (cls : string) (lb le : option string) (cb : Z) (ce : option Z) (b e : option Z) : list line :=
  match e with
  | None => []
  | Some z =>
      if z <=? cb then [LTimes cls lb le cb ce None]
      else
        let res_end := match ce with
                       | Some y => if z <? y then z else y
                       | None => z
                       end in
        let res_begin := match b with
                         | Some x => if cb <? x then x else cb
                         | None => cb
                         end in
        [LTimes cls lb le cb ce (Some (res_begin, res_end))]
  end.

(** content.py 45-82.  None: the metadata element has no content_to_string, so
    that AttributeError is raised.  Joining no lines at all makes an empty one. *)
Definition joined (l : list line) : list line := match l with [] => [LEmpty] | _ => l end.
Fixpoint to_lines (b e : option Z) (x : piece) : option (list line) :=
  match x with
  | PText s => Some [LText s]
  | PBr => Some [LBr]
  | PMeta => None
  | PCont cls lb le cb ce l =>
      match (fix all (l : list piece) : option (list line) :=
               match l with
               | [] => Some []
               | y :: r => match to_lines b e y, all r with
                           | Some p, Some q => Some (p ++ q)
                           | _, _ => None
                           end
               end) l with
      | Some ls => Some (joined (header cls lb le cb ce b e ++ ls))
      | None => None
      end
  end.

(** An element on the timeline of a document: a paragraph, with begin and end as
    written and its content, or a span. *)
Record element := mkEl { el_times : Z * option Z; el_para : option (option string * option string * list piece) }.

Definition para (x : element) : option piece :=
  match el_para x with
  | Some (lb, le, l) => Some (PCont "p_type" lb le (fst (el_times x)) (snd (el_times x)) l)
  | None => None
  end.

Fixpoint paragraphs (els : list element) (ns : list nat) : list piece :=
  match ns with
  | [] => []
  | n :: r => match nth_error els n with
              | Some x => match para x with Some p => p :: paragraphs els r | None => paragraphs els r end
              | None => paragraphs els r
              end
  end.

Fixpoint all_lines (b e : option Z) (l : list piece) : option (list line) :=
  match l with
  | [] => Some []
  | y :: r => match to_lines b e y, all_lines b e r with
              | Some p, Some q => Some (p ++ q)
              | _, _ => None
              end
  end.

(** ebutt3.py 447-482, content_to_string of a document with these resolved
    times. *)
Definition doc_lines (els : list element) (rb : Z) (re : option Z) (b e : option Z) : option (list line) :=
  let ps := paragraphs els (affected (map el_times els) b e) in
  let begin := match b with Some x => if rb <? x then x else rb | None => rb end in
  let ending := match e, re with
                | Some z, Some y => if z <? y then Some z else Some y
                | Some z, None => Some z
                | None, r => r
                end in
  all_lines (Some begin) ending ps.

(** ** The sequence *)

(** What is logged, with the number of the document. *)
Inductive entry :=
| NewDocument (n : Z) (l : list line)
| TrimmedByNext (n : Z) (l : list line)
| Discarded (n : Z) (l : list line).

(** The exceptions of the sequence, and AttributeError. *)
Inductive verror := VSeq (e : error) | VAttribute.
Definition logged := (list entry + verror)%type.

(** The elements of the documents, by the identity of the object. *)
Definition contents := Z -> list element.

(** content_to_string(begin, end) of a document of the sequence. *)
Definition print (V : contents) (s : seqstate) (d : document) (b e : option Z) : list line + verror :=
  match resolved_begin s d, resolved_end s d with
  | Ok rb, Ok re => match doc_lines (V (d_obj d)) rb re b e with
                    | Some ls => inl ls
                    | None => inr VAttribute
                    end
  | Err x, _ => inr (VSeq x)
  | _, Err x => inr (VSeq x)
  end.

(** _insert_document, ebutt3.py 813-839. *)
Definition v_insert_document (V : contents) (s : seqstate) (d : document) (e : option Z) : seqstate * logged :=
  let s' := insert_document s d e in
  match print V s' d None None with
  | inl ls => (s', inl [NewDocument (d_num d) ls])
  | inr x => (s', inr x)
  end.

Inductive viores :=
| VDone (s : seqstate) (r : logged)
| VDiscarded (offending : document)
| VOverridden
| VError (e : error).

(** _insert_or_discard, ebutt3.py 717-811; compare insert_or_discard. *)
Definition v_insert_or_discard (V : contents) (s : seqstate) (d : document) : viores :=
  match scan_back d None (rev (irange_upto (Some (d_begin d)) (q_tl s))) with
  | SDiscarded o => VDiscarded o
  | SInconsistent => VError EInconsistent
  | SOk bb =>
    match scan_fwd d (d_end d) bb (irange_from (d_begin d) (q_tl s)) None with
    | FOverridden => VOverridden
    | FInconsistent => VError EInconsistent
    | FTypeError => VError ETypeError
    | FOk ea trims =>
      let this_end := match trims with Some w => Some w | None => d_end d end in
      match bb with
      | None =>
        let (s2, r) := v_insert_document V s d this_end in VDone s2 r
      | Some b =>
        let tl1 := match ea with
                   | Some (i, it) => tl_add (mkEvent KEnd (d_begin d) (ev_elem it)) (remove_at i (q_tl s))
                   | None => tl_add (mkEvent KEnd (d_begin d) (ev_elem b)) (q_tl s)
                   end in
        let s1 := set_store s (q_docs s) tl1 in
        match print V s1 (ev_elem b) None None with
        | inr x => VDone s1 (inr x)
        | inl ls =>
          match v_insert_document V s1 d this_end with
          | (s2, inl lg) => VDone s2 (inl (TrimmedByNext (d_num (ev_elem b)) ls :: lg))
          | (s2, inr x) => VDone s2 (inr x)
          end
        end
      end
    end
  end.

(** discard_document, ebutt3.py 411-430. *)
Definition v_discard_document (V : contents) (s : seqstate) (d : document) (resolved_end : Z) : seqstate * logged :=
  match discard_document s d resolved_end with
  | Err e => (s, inr (VSeq e))
  | Ok s' => match print V s' d None (Some resolved_end) with
             | inl ls => (s', inl [Discarded (d_num d) ls])
             | inr x => (s', inr x)
             end
  end.

(** The loop of 864-871 and 887-895. *)
Fixpoint v_discard_all (V : contents) (s : seqstate) (ds : list document) (resolved_end : Z) : seqstate * logged :=
  match ds with
  | [] => (s, inl [])
  | d :: r =>
    match v_discard_document V s d resolved_end with
    | (s', inr x) => (s', inr x)
    | (s', inl lg) =>
      match v_discard_all V (set_store s' (filter (fun x => negb (doc_same d x)) (q_docs s')) (q_tl s')) r resolved_end with
      | (s2, inl lg') => (s2, inl (lg ++ lg'))
      | (s2, inr x) => (s2, inr x)
      end
    end
  end.

(** _override_sequence, ebutt3.py 841-871.  When a discard raises, the events of
    the documents discarded before it are removed in the program but not here. *)
Definition v_override_sequence (V : contents) (s : seqstate) (d : document) : seqstate * logged :=
  let skip it ds :=
      negb (d_num (ev_elem it) <? d_num d)
      || (negb (is_begin it) && negb (existsb (doc_same (ev_elem it)) ds)) in
  let '(ds, is) := collect skip (irange_from (d_begin d) (q_tl s)) [] [] in
  match v_discard_all V s ds (d_begin d) with
  | (s', inl lg) => (set_store s' (q_docs s') (remove_positions is (q_tl s')), inl lg)
  | (s', inr x) => (s', inr x)
  end.

(** discard_before, ebutt3.py 873-896, likewise. *)
Definition v_discard_before (V : contents) (s : seqstate) (d : document) : seqstate * logged :=
  let skip it (_ : list document) := doc_eqb (ev_elem it) d in
  let evs := filter (fun p => ev_when (snd p) <=? d_begin d) (enum_from 0 (q_tl s)) in
  let '(ds, is) := collect skip evs [] [] in
  match v_discard_all V s ds 0 with
  | (s', inl lg) => (set_store s' (q_docs s') (remove_positions is (q_tl s')), inl lg)
  | (s', inr x) => (s', inr x)
  end.

(** What a call of add_document ends in. *)
Inductive voutcome := VOut (o : outcome) | VRaised.
Definition raised (x : verror) : voutcome := match x with VSeq e => VOut (OError e) | VAttribute => VRaised end.

(** add_document, ebutt3.py 898-917.  The log is that of calls that end well. *)
Definition v_add_document (V : contents) (s : seqstate) (d : document) : seqstate * voutcome * list entry :=
  match check_compat s d with
  | (s1, Err e) => (s1, VOut (OError e), [])
  | (s1, Ok _) =>
    match v_insert_or_discard V s1 d with
    | VDone s2 (inl lg) => (bump_last s2 d, VOut OInserted, lg)
    | VDone s2 (inr x) => (s2, raised x, [])
    | VError e => (s1, VOut (OError e), [])
    | VOverridden =>
      match v_override_sequence V s1 d with
      | (s2, inr x) => (s2, raised x, [])
      | (s2, inl lg) =>
        match v_insert_or_discard V s2 d with
        | VDone s3 (inl lg') => (bump_last s3 d, VOut OInserted, lg ++ lg')
        | VDone s3 (inr x) => (s3, raised x, [])
        | VError e => (s2, VOut (OError e), [])
        | VOverridden => (s2, VOut (OError EOverridden), [])
        | VDiscarded _ => (s2, VOut (OError EOverridden), [])
        end
      end
    | VDiscarded o =>
      match resolved_begin s1 o with
      | Err e => (s1, VOut (OError e), [])
      | Ok rb =>
        match v_discard_document V s1 d rb with
        | (s2, inl lg) => (bump_last s2 d, VOut ODiscarded, lg)
        | (s2, inr x) => (s2, raised x, [])
        end
      end
    end
  end.
