(** Documents delivered in any order: which of them were taken. *)
From Verif Require Import SequenceModel SequenceSpec.
Open Scope Z_scope.

(** The documents for which add_document did not raise. *)
Fixpoint taken (s : seqstate) (h : list document) : list document :=
  match h with
  | [] => []
  | d :: r => let '(s1, o) := add_document s d in
              match o with OError _ => taken s1 r | _ => d :: taken s1 r end
  end.

(** Every call that raised left the documents and their times as they were. *)
Fixpoint harmless (s : seqstate) (h : list document) : Prop :=
  match h with
  | [] => True
  | d :: r => let '(s1, o) := add_document s d in
              match o with OError _ => q_docs s1 = q_docs s /\ q_tl s1 = q_tl s | _ => True end
              /\ harmless s1 r
  end.

(** A newer document begins no later. *)
Definition superseded (h : list document) (d : document) : Prop :=
  exists d', In d' h /\ d_num d < d_num d' /\ d_begin d' <= d_begin d.

(** A document with a higher number begins later. *)
Definition followed (h : list document) (d : document) : Prop :=
  exists d', In d' h /\ d_num d < d_num d' /\ d_begin d < d_begin d'.
