(** Comparing documents, and asking a sequence for one.

    Sources: ebu_tt_live/utils.py 14-63 (ComparableMixin), documents/ebutt3.py
    325-330 (_cmp_key, _cmp_checks), 919-920 (get_document), documents/base.py
    12-18, 57-58, documents/ebuttd.py 12 (EBU-TT-D documents have no key),
    documents/ebutt3.py 176-260 (messages have a sequence identifier but no
    comparison).

    Python 2.7: for [a op b] the method of a, then the mirrored one of b, then
    for objects of different types the names of their types are compared. *)

From Coq Require Import List ZArith String Bool.
From Verif Require Import SequenceModel.
Import ListNotations.
Open Scope Z_scope.

(** ** The operators *)

Inductive op := Lt | Le | Eq | Ge | Gt | Ne.

(** What can stand at either side of an operator: an EBU-TT Part 3 document, an
    EBU-TT-D document, a message, and anything else without sequence_identifier and
    without an opinion on documents: None, a number, a text. *)
Inductive thing :=
| Doc (sid : string) (num : Z)
| DocD
| Message (sid : string)
| Thing.

Inductive answer :=
| Says (b : bool)
| ValueError            (* the sequences differ, ERR_DOCUMENT_SEQUENCE_MISMATCH *)
| AttributeError        (* no sequence_identifier *)
| NotImplementedError
| Unmodelled.           (* neither side is a document *)

(** utils.py 31-47: the lambdas. *)
Definition compare (o : op) (x y : Z) : bool :=
  match o with
  | Lt => x <? y
  | Le => x <=? y
  | Eq => x =? y
  | Ge => x >=? y
  | Gt => x >? y
  | Ne => negb (x =? y)
  end.

(** ebutt3.py 328-330, before the try of utils.py 24; None when it raises nothing. *)
Definition checks (sid : string) (other : thing) : option answer :=
  match other with
  | Doc s _ | Message s => if (sid =? s)%string then None else Some ValueError
  | DocD | Thing => Some AttributeError
  end.

(** utils.py 22-29: a method of [self]; None is NotImplemented, or that there is no
    such method.  Only AttributeError and TypeError are caught. *)
Definition method (o : op) (self other : thing) : option answer :=
  match self with
  | Doc sid n =>
      match checks sid other with
      | Some e => Some e
      | None => match other with
                | Doc _ m => Some (Says (compare o n m))
                | _ => None                      (* other has no _cmp_key *)
                end
      end
  | DocD => Some NotImplementedError             (* utils.py 49-54, not caught *)
  | Message _ | Thing => None
  end.

Definition mirrored (o : op) : op :=
  match o with Lt => Gt | Le => Ge | Eq => Eq | Ge => Le | Gt => Lt | Ne => Ne end.

(** 'EBUTT3Document' comes before 'EBUTTAuthorsGroupControlRequest'. *)
Definition by_type (o : op) (a b : thing) : answer :=
  match a, b with
  | Doc _ _, Message _ => Says (compare o 0 1)
  | Message _, Doc _ _ => Says (compare o 1 0)
  | _, _ => Unmodelled
  end.

Definition operator (o : op) (a b : thing) : answer :=
  match method o a b with
  | Some r => r
  | None => match method (mirrored o) b a with
            | Some r => r
            | None => by_type o a b
            end
  end.

(** ** What Python's builtins do with it *)

(** max(l): the first is kept unless a later one is greater. *)
Fixpoint max_from (best : thing) (l : list thing) : thing + answer :=
  match l with
  | [] => inl best
  | x :: r => match operator Gt x best with
              | Says true => max_from x r
              | Says false => max_from best r
              | e => inr e
              end
  end.

(** x in l, for an x that is not one of the objects in l: objects are compared one
    after the other. *)
Fixpoint contains (x : thing) (l : list thing) : answer :=
  match l with
  | [] => Says false
  | y :: r => match operator Eq x y with
              | Says true => Says true
              | Says false => contains x r
              | e => e
              end
  end.

(** A way of sorting by comparisons: which positions to compare next, and at the end
    the order of the positions.  list.sort is one for every length; it asks [<]. *)
Inductive plan :=
| Ready (order : list nat)
| Ask (i j : nat) (yes no : plan).

(** The plan at work on objects; inr is an exception. *)
Fixpoint carry_out (less : nat -> nat -> answer) (p : plan) : list nat + answer :=
  match p with
  | Ready order => inl order
  | Ask i j yes no =>
      match less i j with
      | Says true => carry_out less yes
      | Says false => carry_out less no
      | e => inr e
      end
  end.

Definition sorted (l : list thing) (p : plan) : list nat + answer :=
  carry_out (fun i j => operator Lt (nth i l Thing) (nth j l Thing)) p.

(** ** get_document *)

(** ebutt3.py 919-920, base.py 57-58: the index operator of a SortedSet is that of
    its sorted list, by position and from the end for negative numbers; None is
    IndexError. *)
Definition get_document (s : seqstate) (seq_id : Z) : option document :=
  let len := Z.of_nat (List.length (q_docs s)) in
  let i := if seq_id <? 0 then seq_id + len else seq_id in
  if (i <? 0) || (len <=? i) then None else nth_error (q_docs s) (Z.to_nat i).
