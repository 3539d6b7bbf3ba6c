(** Splicing documents together.

    Sources: ebu_tt_live/documents/ebutt3_splicer.py (EBUTT3Splicer),
    ebu_tt_live/bindings/__init__.py 482-503 and 669-670 (merge of tt and head:
    the first one is returned), 929-976 (body), 1008-1019 (styling), 1089-1100
    (layout).  Called by EBUTT3DocumentSequence.extract_segment, ebutt3.py
    996-1001, with the segments of SegmentModel.

    Left out: metadata elements, as in SegmentModel.  Bindings of PyXB are never
    false, so the tests "if merged_styling" and the like ask for None only. *)

From Coq Require Import List ZArith String Bool.
From Verif Require Import TimingModel StyleModel SegmentModel.
Import ListNotations.
Open Scope string_scope.

(** ebutt3_splicer.py 21-22 (an Exception without text), and the AttributeError
    of bindings/__init__.py 937 when a later document has no body. *)
Inductive perr := NoSegments | NoBody.
Inductive pres (A : Type) := POk (a : A) | PErr (e : perr).
Arguments POk {A} a.
Arguments PErr {A} e.
Definition pbind {A B} (r : pres A) (f : A -> pres B) : pres B :=
  match r with POk a => f a | PErr e => PErr e end.

(** bindings/__init__.py 950-955: .1 is added until the identifier is free.  The
    set has n elements, so n + 1 tries are enough (SpliceProofs.free_id_free). *)
Fixpoint next_free (fuel : nat) (ids : list string) (i : string) : string :=
  match fuel with
  | O => i
  | S f => if mem i ids then next_free f ids (i ++ ".1") else i
  end.
Definition free_id (ids : list string) (i : string) : string := next_free (S (List.length ids)) ids i.

(** bindings/__init__.py 929-962, _merge_deconflict_ids: copies of the children,
    with new identifiers where they are taken; an element comes after its own
    children.  The set of identifiers is handed on.  Elements without identifier
    put None into the set, which is never asked for.  The copies (__copy__ of p,
    span, br and div, 701-714, 771-783, 817-818, 847-858) have all attributes; a
    span has no region. *)
Fixpoint renumber (n : node) (ids : list string) {struct n} : node * list string :=
  match n with
  | Text s => (Text s, ids)
  | Br => (Br, ids)
  | Node k i reg st b e kids =>
      let r := match k with Div | P => reg | _ => None end in
      let fix all (ns : list node) (ids : list string) : list node * list string :=
        match ns with
        | [] => ([], ids)
        | m :: rest => let '(m', ids1) := renumber m ids in
                       let '(rest', ids2) := all rest ids1 in (m' :: rest', ids2)
        end in
      let '(kids', ids1) := all kids ids in
      match i with
      | None => (Node k None r st b e kids', ids1)
      | Some j => let j' := free_id ids1 j in (Node k (Some j') r st b e kids', j' :: ids1)
      end
  end.
Fixpoint renumbers (ns : list node) (ids : list string) : list node * list string :=
  match ns with
  | [] => ([], ids)
  | m :: rest => let '(m', ids1) := renumber m ids in
                 let '(rest', ids2) := renumbers rest ids1 in (m' :: rest', ids2)
  end.

(** bindings/__init__.py 964-976: the attributes of the first, without times,
    and the content of both. *)
Definition merge_body (b : bodyd) (o : option bodyd) (ids : list string) : pres (bodyd * list string) :=
  match o with
  | None => PErr NoBody
  | Some c =>
      let '(ks, ids1) := renumbers (bd_kids b) ids in
      let '(ls, ids2) := renumbers (bd_kids c) ids1 in
      POk (mkBodyd (bd_style b) None None None (ks ++ ls)%list, ids2)
  end.

(** bindings/__init__.py 1008-1019: identifiers taken get .1, once; the set is
    not told. *)
Definition merge_styling (l : list (string * style_el)) (o : option (list (string * style_el)))
  (ids : list string) : list (string * style_el) * list string :=
  let ids1 := (map fst l ++ ids)%list in
  (l ++ map (fun s => if mem (fst s) ids1 then ((fst s ++ ".1")%string, snd s) else s) (els o), ids1)%list.

(** bindings/__init__.py 1089-1100: the same, and the new identifiers are put
    into the set. *)
Fixpoint add_regions (l : list (string * region_el)) (ids : list string)
  : list (string * region_el) * list string :=
  match l with
  | [] => ([], ids)
  | r :: rest =>
      if mem (fst r) ids
      then let '(rest', ids') := add_regions rest ((fst r ++ ".1") :: ids) in ((fst r ++ ".1", snd r) :: rest', ids')
      else let '(rest', ids') := add_regions rest ids in (r :: rest', ids')
  end.
Definition merge_layout (l : list (string * region_el)) (o : option (list (string * region_el)))
  (ids : list string) : list (string * region_el) * list string :=
  let '(l', ids') := add_regions (els o) (map fst l ++ ids)%list in ((l ++ l')%list, ids').

(** ebutt3_splicer.py 51-76: what is merged so far, and dataset['ids']. *)
Record merged := mkMerged {
  m_styling : option (list (string * style_el)); m_layout : option (list (string * region_el));
  m_body : option bodyd; m_ids : list string }.

Definition merge_next (m : merged) (d : docu bodyd) : pres merged :=
  let '(st, ids1) := match m_styling m with
                     | Some l => let '(l', i) := merge_styling l (t_styling d) (m_ids m) in (Some l', i)
                     | None => (t_styling d, m_ids m)
                     end in
  let '(la, ids2) := match m_layout m with
                     | Some l => let '(l', i) := merge_layout l (t_layout d) ids1 in (Some l', i)
                     | None => (t_layout d, ids1)
                     end in
  match m_body m with
  | Some b => pbind (merge_body b (t_body d) ids2) (fun '(b', ids3) => POk (mkMerged st la (Some b') ids3))
  | None => POk (mkMerged st la (t_body d) ids2)
  end.
Fixpoint merge_all (m : merged) (ds : list (docu bodyd)) : pres merged :=
  match ds with
  | [] => POk m
  | d :: r => pbind (merge_next m d) (fun m' => merge_all m' r)
  end.

(** ebutt3_splicer.py 20-81: the list is turned round and taken from its end, so
    in order; the first tt and head are kept, with the sequence number given. *)
Definition splice (ds : list (docu bodyd)) (number : Z) : pres (docu bodyd) :=
  match ds with
  | [] => PErr NoSegments
  | d :: r =>
      pbind (merge_all (mkMerged (t_styling d) (t_layout d) (t_body d) []) r) (fun m =>
      POk (mkDocu (t_base d) number (m_styling m) (m_layout m) (m_body m)))
  end.
