(** The timeline of one document: which of its elements a range of time touches.

    Sources: ebu_tt_live/documents/ebutt3.py 96-150 (TimelineUtilMixin),
    ebu_tt_live/bindings/validation/timing.py 263-268
    (_semantic_manage_timeline).  The events, the sorted list and the loop of
    the lookup are those of SequenceModel; a document's elements are compared
    by identity, here by their number in the order they are added. *)

From Coq Require Import List ZArith Bool Arith.
From Verif Require Import SequenceModel.
Import ListNotations.
Open Scope Z_scope.

(** ebutt3.py 105-114, add_to_timeline: the begin event and, unless the element
    is endless, the end event.  computed_begin_time is never None. *)
Definition add_element (tl : list (event nat)) (n : nat) (times : Z * option Z) : list (event nat) :=
  let tl1 := tl_add (mkEvent KBegin (fst times) n) tl in
  match snd times with
  | Some e => tl_add (mkEvent KEnd e n) tl1
  | None => tl1
  end.

(** The calls of one validation: elements in the order their traversal ends. *)
Fixpoint add_elements (tl : list (event nat)) (n : nat) (l : list (Z * option Z)) : list (event nat) :=
  match l with
  | [] => tl
  | x :: r => add_elements (add_element tl n x) (S n) r
  end.

Definition doc_timeline (l : list (Z * option Z)) : list (event nat) := add_elements [] 0 l.

(** ebutt3.py 128-150, lookup_range_on_timeline of a document. *)
Definition affected (l : list (Z * option Z)) (b e : option Z) : list nat :=
  lookup_range Nat.eqb (doc_timeline l) b e.
