(** What is expected of the log of a verbose sequence, and of the sequence that
    writes it: stated on the content of paragraphs and on histories of
    deliveries. *)

From Coq Require Import List ZArith String Bool.
From Verif Require Import SequenceModel SequenceSpec TimelineModel VerboseModel.
Import ListNotations.
Open Scope Z_scope.

(** Metadata anywhere in a paragraph. *)
Inductive meta_in : piece -> Prop :=
| MetaHere : meta_in PMeta
| MetaDeeper : forall cls b e cb ce l x, In x l -> meta_in x -> meta_in (PCont cls b e cb ce l).

(** The texts of a paragraph in the order of the document, and those of lines. *)
Fixpoint texts (x : piece) : list string :=
  match x with
  | PText s => [s]
  | PBr | PMeta => []
  | PCont _ _ _ _ _ l => flat_map texts l
  end.
Definition line_texts (l : list line) : list string :=
  flat_map (fun x => match x with LText s => [s] | _ => [] end) l.

(** The paragraphs and spans of a paragraph, outer ones first, with their times;
    the same of lines, with the part shown. *)
Definition who := (string * option string * option string * Z * option Z)%type.
Fixpoint timed (x : piece) : list who :=
  match x with
  | PCont cls b e cb ce l => (cls, b, e, cb, ce) :: flat_map timed l
  | _ => []
  end.
Definition line_times (l : list line) : list (who * option (Z * Z)) :=
  flat_map (fun x => match x with LTimes cls b e cb ce sh => [((cls, b, e, cb, ce), sh)] | _ => [] end) l.

Definition within (sh : option (Z * Z)) (t : Z) : Prop :=
  match sh with Some (x, y) => x <= t < y | None => False end.
Definition on_screen (w : who) (t : Z) : Prop :=
  let '(_, _, _, cb, ce) := w in cb <= t /\ before_end t ce.

(** The elements of a document as written to the log: all its paragraphs.  The
    document has no metadata in any of them. *)
Definition plain_doc (V : contents) (d : document) : Prop :=
  forall x p, In x (V (d_obj d)) -> para x = Some p -> ~ meta_in p.
Definition meta_doc (V : contents) (d : document) : Prop :=
  exists x p, In x (V (d_obj d)) /\ para x = Some p /\ meta_in p.

(** The paragraphs of a document in the order of its timeline. *)
Definition parts (V : contents) (d : document) : list piece :=
  let els := V (d_obj d) in paragraphs els (affected (map el_times els) None None).

(** No element begins before the document. *)
Definition timed_inside (V : contents) (d : document) : Prop :=
  forall x, In x (V (d_obj d)) -> d_begin d <= fst (el_times x).

(** Histories of a verbose sequence. *)
Definition v_run_op (V : contents) (s : seqstate) (op : seqop) : seqstate * voutcome * list entry :=
  match op with
  | Deliver d => v_add_document V s d
  | Forget d => match v_discard_before V s d with
                | (s', inl lg) => (s', VOut ODiscarded, lg)
                | (s', inr x) => (s', raised x, [])
                end
  end.
Fixpoint v_run_ops (V : contents) (s : seqstate) (ops : list seqop) : seqstate * list voutcome * list entry :=
  match ops with
  | [] => (s, [], [])
  | op :: r => let '(s1, o, lg) := v_run_op V s op in
               let '(s2, os, lg') := v_run_ops V s1 r in (s2, o :: os, lg ++ lg')
  end.

Definition op_plain (V : contents) (op : seqop) : Prop :=
  match op with Deliver d => plain_doc V d | Forget _ => True end.

(** A document that is next: newer than all documents and later in the timeline. *)
Definition next (h : list document) (d : document) : Prop :=
  forall x, In x h -> d_num x < d_num d /\ d_begin x < d_begin d.
