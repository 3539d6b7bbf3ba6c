(** Model of the document sequence and its timeline.
    Source: /repo/ebu_tt_live/documents/ebutt3.py (pinned commit).
    Times are integer microseconds ([Z]); see DESIGN.md for conventions. *)
From Coq Require Export List ZArith String Bool Lia.
Export ListNotations.
Open Scope Z_scope.

(** ** Timing events (ebutt3.py 26-84) *)

(** TimingEventBegin / TimingEventEnd are subclasses of TimingEvent; the class
    is modelled by a tag. *)
Inductive ekind := KBegin | KEnd.

(** TimingEvent(element, when), ebutt3.py 26-51. *)
Record event (A : Type) := mkEvent { ev_kind : ekind; ev_when : Z; ev_elem : A }.
Arguments mkEvent {A}. Arguments ev_kind {A}. Arguments ev_when {A}. Arguments ev_elem {A}.

Definition is_begin {A} (e : event A) : bool := match ev_kind e with KBegin => true | KEnd => false end.

(** ** SortedListWithKey(key=when) (ebutt3.py 96-100; third-party sortedcontainers) *)

(** [add]: insertion to the right of equal keys. *)
Fixpoint tl_add {A} (e : event A) (l : list (event A)) : list (event A) :=
  match l with
  | [] => [e]
  | x :: r => if ev_when x <=? ev_when e then x :: tl_add e r else e :: x :: r
  end.

(** Positions are used as event identities (TimingEvent has no __eq__, so
    [remove] is by identity). *)
Fixpoint enum_from {A} (n : nat) (l : list A) : list (nat * A) :=
  match l with [] => [] | x :: r => (n, x) :: enum_from (S n) r end.

(** [irange(minimum)] with the positions of the events: all events not earlier. *)
Definition irange_from {A} (m : Z) (l : list (event A)) : list (nat * event A) :=
  filter (fun p => m <=? ev_when (snd p)) (enum_from 0 l).

(** [irange(maximum=...)]; [None] means no bound. *)
Definition irange_upto {A} (m : option Z) (l : list (event A)) : list (event A) :=
  match m with
  | None => l
  | Some b => filter (fun e => ev_when e <=? b) l
  end.

(** [timeline.remove(event)] by identity, i.e. position. *)
Fixpoint remove_at {A} (n : nat) (l : list A) : list A :=
  match n, l with
  | _, [] => []
  | O, _ :: r => r
  | S k, x :: r => x :: remove_at k r
  end.

(** Python [list.remove]: first equal element. *)
Fixpoint remove_first {A} (p : A -> bool) (l : list A) : list A :=
  match l with [] => [] | x :: r => if p x then r else x :: remove_first p r end.

(** lookup_range_on_timeline, ebutt3.py 128-150. [eqb] is the elements' [==]. *)
Fixpoint lookup_loop {A} (eqb : A -> A -> bool) (b e : option Z) (evs : list (event A))
         (acc : list A) : list A :=
  match evs with
  | [] => acc
  | ev :: r =>
    match ev_kind ev with
    | KBegin =>
      let differs := match e with None => true | Some x => negb (ev_when ev =? x) end in
      lookup_loop eqb b e r (if differs then acc ++ [ev_elem ev] else acc)
    | KEnd =>
      let ended := match b with None => false | Some x => ev_when ev <=? x end in
      lookup_loop eqb b e r
        (if ended then
           (if existsb (fun y => eqb (ev_elem ev) y) acc
            then remove_first (fun y => eqb (ev_elem ev) y) acc else acc)
         else acc)
    end
  end.
Definition lookup_range {A} (eqb : A -> A -> bool) (tl : list (event A)) (b e : option Z) : list A :=
  lookup_loop eqb b e (irange_upto e tl) [].

(** ** Documents (ebutt3.py 262-569), the part the sequence looks at *)

(** [d_obj] is the Python object identity; the remaining fields are the
    properties sequence_identifier, time_base, clock_mode,
    authors_group_identifier, sequence_number, computed_begin_time and
    computed_end_time.  Simplification: computed_begin_time is never None (true
    for a validated document: ebutt3.py 508-513, timing.py 72-84). *)
Record document := mkDoc {
  d_obj : Z; d_sid : string; d_tb : string; d_cm : option string; d_agid : option string;
  d_num : Z; d_begin : Z; d_end : option Z }.

(** Document [==]: comparison of sequence numbers (ebutt3.py 325-330 via
    ComparableMixin, utils.py).  The ValueError for differing sequence
    identifiers cannot occur inside one sequence (checked at 642-646). *)
Definition doc_eqb (a b : document) : bool := d_num a =? d_num b.
(** Hash-based containers (dict, set, SortedSet membership): Python 2 default
    hash, i.e. object identity. *)
Definition doc_same (a b : document) : bool := d_obj a =? d_obj b.

(** Exceptions. *)
Inductive error :=
| EIncompatible        (* IncompatibleSequenceError *)
| ECollision           (* SequenceNumberCollisionError *)
| EAuthorsGroup        (* UnexpectedAuthorsGroupError *)
| EInconsistent        (* ValueError(ERR_DOCUMENT_SEQUENCE_INCONSISTENCY) *)
| EDiscardValue        (* ValueError raised by discard_document *)
| ETypeError           (* TypeError: timedelta compared with None (Python 2) *)
| ELookup              (* LookupError / KeyError *)
| EOverridden.         (* SequenceOverridden escaping the retry *)

Inductive res (A : Type) := Ok (a : A) | Err (e : error).
Arguments Ok {A}. Arguments Err {A}.

(** ** Sequence state (ebutt3.py 572-604)

    [q_tb], [q_cm]: time base and clock mode of the reference clock.
    [q_docs]: SortedSet of documents by sequence number.
    [q_disc]: log of [discard_document] calls, newest first: object identity,
    resolved end (the document's _resolved_end_time) and resolved begin; this
    records the mutable fields _resolved_begin_time/_resolved_end_time of the
    document objects (276-278). *)
Record seqstate := mkSeq {
  q_sid : string; q_tb : string; q_cm : option string; q_agid : option string;
  q_last : Z; q_docs : list document; q_tl : list (event document);
  q_disc : list (Z * Z * Z) }.

Definition set_agid s a := mkSeq (q_sid s) (q_tb s) (q_cm s) a (q_last s) (q_docs s) (q_tl s) (q_disc s).
Definition set_last s n := mkSeq (q_sid s) (q_tb s) (q_cm s) (q_agid s) n (q_docs s) (q_tl s) (q_disc s).
Definition set_store s d t := mkSeq (q_sid s) (q_tb s) (q_cm s) (q_agid s) (q_last s) d t (q_disc s).
Definition set_disc s l := mkSeq (q_sid s) (q_tb s) (q_cm s) (q_agid s) (q_last s) (q_docs s) (q_tl s) l.

(** EBUTT3DocumentSequence.__init__, ebutt3.py 595-603. *)
Definition new_sequence (sid tb : string) (cm agid : option string) : seqstate :=
  mkSeq sid tb cm agid 0 [] [] [].

Definition ostr_eqb (a b : option string) : bool :=
  match a, b with
  | None, None => true
  | Some x, Some y => String.eqb x y
  | _, _ => false
  end.

(** _check_document_compatibility, ebutt3.py 641-691.  The bisect lookup of the
    sequence number in the SortedSet is modelled as a search. On success the
    state carries the picked up authors group. *)
Definition check_compat (s : seqstate) (d : document) : seqstate * res unit :=
  if negb (String.eqb (q_sid s) (d_sid d)) || negb (String.eqb (q_tb s) (d_tb d)) then
    (s, Err EIncompatible)
  else if String.eqb (q_tb s) "clock" && negb (ostr_eqb (q_cm s) (d_cm d)) then
    (s, Err EIncompatible)
  else if existsb (fun x => d_num x =? d_num d) (q_docs s) then
    (s, Err ECollision)
  else match d_agid d with
       | None => (s, Ok tt)
       | Some a =>
         if String.eqb a "" then (s, Ok tt)
         else match q_agid s with
              | Some g => if String.eqb a g then (s, Ok tt) else (s, Err EAuthorsGroup)
              | None => (set_agid s (Some a), Ok tt)
              end
       end.

(** Outcome of one run of _insert_or_discard. *)
Inductive scan :=
| SOk (begins_before : option (event document))
| SDiscarded (offending : document)
| SInconsistent.

(** Backward loop, ebutt3.py 740-763, over the events not later than the
    document's begin, latest first. [ef] is _end_found. *)
Fixpoint scan_back (d : document) (ef : option (event document)) (evs : list (event document)) : scan :=
  match evs with
  | [] => SOk None
  | it :: r =>
    if d_num (ev_elem it) >? d_num d then SDiscarded (ev_elem it)
    else match ev_kind it with
         | KBegin =>
           match ef with
           | Some f => if doc_eqb (ev_elem f) (ev_elem it) then SOk None else SOk (Some it)
           | None => SOk (Some it)
           end
         | KEnd =>
           match ef with
           | Some _ => SInconsistent
           | None => scan_back d (Some it) r
           end
         end
  end.

Inductive fscan :=
| FOk (ends_after : option (nat * event document)) (trims_this : option Z)
| FOverridden
| FInconsistent
| FTypeError.

(** Forward loop, ebutt3.py 765-779, over the events not earlier than the
    document's begin.  [thisend] is this_ends.when (None if undefined): the
    comparison [this_ends.when > item.when] raises TypeError for None. *)
Fixpoint scan_fwd (d : document) (thisend : option Z) (bb : option (event document))
         (evs : list (nat * event document)) (ea : option (nat * event document)) : fscan :=
  match evs with
  | [] => FOk ea None
  | (i, it) :: r =>
    match ev_kind it with
    | KEnd =>
      match bb with
      | Some b =>
        if negb (doc_eqb (ev_elem it) (ev_elem b)) && negb (ev_when it =? ev_when b)
        then FInconsistent
        else scan_fwd d thisend bb r (Some (i, it))
      | None => scan_fwd d thisend bb r (Some (i, it))
      end
    | KBegin =>
      if d_num d >? d_num (ev_elem it) then FOverridden
      else if d_num (ev_elem it) >? d_num d then
        match thisend with
        | None => FTypeError
        | Some e => FOk ea (if e >? ev_when it then Some (ev_when it) else None)
        end
      else scan_fwd d thisend bb r ea
    end
  end.

Definition ev_begin (d : document) : event document := mkEvent KBegin (d_begin d) d.

(** SortedSet.add, ordered by sequence number. *)
Fixpoint docs_add (d : document) (l : list document) : list document :=
  match l with
  | [] => [d]
  | x :: r => if d_num x <=? d_num d then x :: docs_add d r else d :: x :: r
  end.

(** _insert_document, ebutt3.py 813-839; [e] is the [when] of the end event. *)
Definition insert_document (s : seqstate) (d : document) (e : option Z) : seqstate :=
  let tl1 := tl_add (ev_begin d) (q_tl s) in
  let tl2 := match e with None => tl1 | Some x => tl_add (mkEvent KEnd x d) tl1 end in
  set_store s (docs_add d (q_docs s)) tl2.

Inductive iores :=
| IInserted (s : seqstate)
| IDiscarded (offending : document)
| IOverridden
| IError (e : error).

(** _insert_or_discard, ebutt3.py 717-811. All exceptions are raised before any
    mutation. *)
Definition insert_or_discard (s : seqstate) (d : document) : iores :=
  match scan_back d None (rev (irange_upto (Some (d_begin d)) (q_tl s))) with
  | SDiscarded o => IDiscarded o
  | SInconsistent => IError EInconsistent
  | SOk bb =>
    match scan_fwd d (d_end d) bb (irange_from (d_begin d) (q_tl s)) None with
    | FOverridden => IOverridden
    | FInconsistent => IError EInconsistent
    | FTypeError => IError ETypeError
    | FOk ea trims =>
      let this_end := match trims with Some w => Some w | None => d_end d end in
      let tl1 :=
          match bb with
          | None => q_tl s
          | Some b =>
            match ea with
            | Some (i, it) =>
              tl_add (mkEvent KEnd (d_begin d) (ev_elem it)) (remove_at i (q_tl s))
            | None => tl_add (mkEvent KEnd (d_begin d) (ev_elem b)) (q_tl s)
            end
          end in
      IInserted (insert_document (set_store s (q_docs s) tl1) d this_end)
    end
  end.

(** discard_document, ebutt3.py 411-424. *)
Definition discard_document (s : seqstate) (d : document) (resolved_end : Z) : res seqstate :=
  if resolved_end >? d_begin d then Err EDiscardValue
  else Ok (set_disc s ((d_obj d, resolved_end, d_begin d) :: q_disc s)).

(** Collection loops of _override_sequence (855-862) and discard_before
    (883-885): walk over the events, grouping by document object. Result: the
    documents to discard in order of first occurrence (Python: dict order;
    simplification) and the positions of the events to remove. *)
Fixpoint collect (skip : event document -> list document -> bool)
         (evs : list (nat * event document)) (ds : list document) (is : list nat)
  : list document * list nat :=
  match evs with
  | [] => (ds, is)
  | (i, it) :: r =>
    if skip it ds then collect skip r ds is
    else collect skip r
           (if existsb (doc_same (ev_elem it)) ds then ds else ds ++ [ev_elem it]) (is ++ [i])
  end.

(** Removal of several events by identity. *)
Definition remove_positions {A} (is : list nat) (l : list A) : list A :=
  map snd (filter (fun p => negb (existsb (Nat.eqb (fst p)) is)) (enum_from 0 l)).

(** The discard loop shared by 864-871 and 887-895; removal of the documents
    from the SortedSet is by identity. *)
Fixpoint discard_all (s : seqstate) (ds : list document) (resolved_end : Z) : seqstate * res unit :=
  match ds with
  | [] => (s, Ok tt)
  | d :: r =>
    match discard_document s d resolved_end with
    | Err e => (s, Err e)
    | Ok s' =>
      discard_all (set_store s' (filter (fun x => negb (doc_same d x)) (q_docs s')) (q_tl s')) r resolved_end
    end
  end.

(** _override_sequence, ebutt3.py 841-871. If discard_document raised half way
    the removal of events would also be partial; the theorems show that it does
    not raise. *)
Definition override_sequence (s : seqstate) (d : document) : seqstate * res unit :=
  let skip it ds :=
      negb (d_num (ev_elem it) <? d_num d)
      || (negb (is_begin it) && negb (existsb (doc_same (ev_elem it)) ds)) in
  let '(ds, is) := collect skip (irange_from (d_begin d) (q_tl s)) [] [] in
  match discard_all s ds (d_begin d) with
  | (s', Ok _) => (set_store s' (q_docs s') (remove_positions is (q_tl s')), Ok tt)
  | (s', Err e) => (s', Err e)
  end.

(** locate_element_begin / locate_element_end, ebutt3.py 116-126: both start at
    the element's computed begin. *)
Definition locate (k : ekind) (s : seqstate) (d : document) : option (event document) :=
  match filter (fun p => doc_eqb (ev_elem (snd p)) d &&
                         match k, ev_kind (snd p) with
                         | KBegin, KBegin => true | KEnd, KEnd => true | _, _ => false end)
               (irange_from (d_begin d) (q_tl s)) with
  | [] => None
  | p :: _ => Some (snd p)
  end.

(** [document not in self._documents]: identity. *)
Definition stored (s : seqstate) (d : document) : bool := existsb (doc_same d) (q_docs s).

(** EBUTT3DocumentSequence.resolved_begin_time, ebutt3.py 922-933. *)
Definition seq_resolved_begin (s : seqstate) (d : document) : res Z :=
  if stored s d then
    match locate KBegin s d with Some e => Ok (ev_when e) | None => Err ELookup end
  else Err ELookup.

(** EBUTT3DocumentSequence.resolved_end_time, ebutt3.py 935-951: note
    [item and item.when or None] (951): a zero end time is reported as None. *)
Definition seq_resolved_end (s : seqstate) (d : document) : res (option Z) :=
  if stored s d then
    match locate KEnd s d with
    | Some e => Ok (if ev_when e =? 0 then None else Some (ev_when e))
    | None => match d_end d with Some _ => Err ELookup | None => Ok None end
    end
  else Err ELookup.

(** EBUTT3Document.resolved_begin_time / resolved_end_time, ebutt3.py 404-409,
    432-437: the values stored at discard take precedence. *)
Definition disc_lookup (s : seqstate) (d : document) : option (Z * Z) :=
  match filter (fun p => fst (fst p) =? d_obj d) (q_disc s) with
  | (_, e, b) :: _ => Some (b, e)
  | [] => None
  end.
Definition resolved_begin (s : seqstate) (d : document) : res Z :=
  match disc_lookup s d with Some (b, _) => Ok b | None => seq_resolved_begin s d end.
Definition resolved_end (s : seqstate) (d : document) : res (option Z) :=
  match disc_lookup s d with Some (_, e) => Ok (Some e) | None => seq_resolved_end s d end.

Inductive outcome := OInserted | ODiscarded | OError (e : error).

Definition bump_last (s : seqstate) (d : document) : seqstate :=
  if d_num d >? q_last s then set_last s (d_num d) else s.

(** add_document, ebutt3.py 898-917. A SequenceOverridden or
    DocumentDiscardedError raised by the retry at 909 is not caught. *)
Definition add_document (s : seqstate) (d : document) : seqstate * outcome :=
  match check_compat s d with
  | (s1, Err e) => (s1, OError e)
  | (s1, Ok _) =>
    match insert_or_discard s1 d with
    | IInserted s2 => (bump_last s2 d, OInserted)
    | IError e => (s1, OError e)
    | IOverridden =>
      match override_sequence s1 d with
      | (s2, Err e) => (s2, OError e)
      | (s2, Ok _) =>
        match insert_or_discard s2 d with
        | IInserted s3 => (bump_last s3 d, OInserted)
        | IError e => (s2, OError e)
        | IOverridden => (s2, OError EOverridden)
        | IDiscarded _ => (s2, OError EOverridden)
        end
      end
    | IDiscarded o =>
      match resolved_begin s1 o with
      | Err e => (s1, OError e)
      | Ok rb =>
        match discard_document s1 d rb with
        | Err e => (s1, OError e)
        | Ok s2 => (bump_last s2 d, ODiscarded)
        end
      end
    end
  end.

(** new_document, ebutt3.py 713-715: returns the number given to the document. *)
Definition new_document (s : seqstate) : seqstate * Z :=
  let s' := set_last s (q_last s + 1) in (s', q_last s').

(** discard_before, ebutt3.py 873-896. *)
Definition discard_before (s : seqstate) (d : document) : seqstate * res unit :=
  let skip it (_ : list document) := doc_eqb (ev_elem it) d in
  let evs := filter (fun p => ev_when (snd p) <=? d_begin d) (enum_from 0 (q_tl s)) in
  let '(ds, is) := collect skip evs [] [] in
  match discard_all s ds 0 with
  | (s', Ok _) => (set_store s' (q_docs s') (remove_positions is (q_tl s')), Ok tt)
  | (s', Err e) => (s', Err e)
  end.

(** Windows requested by extract_segment, ebutt3.py 972-993: for each affected
    document the [begin] and [end] handed to the document's extract_segment.
    Exceptions of the extraction itself are swallowed (985) and do not change
    the windows. *)
Fixpoint extract_windows (s : seqstate) (docs : list document) (b e : option Z)
  : res (list (document * option Z * option Z)) :=
  match docs with
  | [] => Ok []
  | d :: r =>
    match resolved_end s d with
    | Err x => Err x
    | Ok de =>
      let ending :=
          match e with
          | None => de
          | Some x => match de with
                      | None => Some x
                      | Some y => if x <? y then Some x else Some y
                      end
          end in
      match extract_windows s r ending e with
      | Err x => Err x
      | Ok ws => Ok ((d, b, ending) :: ws)
      end
    end
  end.

(** The observable part of extract_segment that concerns the sequence,
    ebutt3.py 956-1012: the windows and the state after the optional discard. *)
Definition seq_extract (s : seqstate) (b e : option Z) (discard : bool)
  : seqstate * res (list (document * option Z * option Z)) :=
  let docs := lookup_range doc_eqb (q_tl s) b e in
  match extract_windows s docs b e with
  | Err x => (s, Err x)
  | Ok ws =>
    if discard then
      match rev docs with
      | [] => (s, Ok ws)
      | d :: _ =>
        match discard_before s d with
        | (s', Ok _) => (s', Ok ws)
        | (s', Err x) => (s', Err x)
        end
      end
    else (s, Ok ws)
  end.
