(** For C72. *)

From Coq Require Import List ZArith String Bool.
From Verif Require Import SequenceModel FindModel.
Import ListNotations.
Open Scope Z_scope.

(** A list of documents of Part 3. *)
Definition doc_of (x : string * Z) : thing := Doc (fst x) (snd x).
Definition docs (l : list (string * Z)) : list thing := map doc_of l.

(** All of one sequence. *)
Definition one_sequence (l : list (string * Z)) : Prop := forall a b, In a l -> In b l -> fst a = fst b.

(** Every position asked about is below [n]. *)
Fixpoint within (n : nat) (p : plan) : Prop :=
  match p with
  | Ready _ => True
  | Ask i j yes no => (i < n)%nat /\ (j < n)%nat /\ within n yes /\ within n no
  end.

(** A plan that sorts [n] objects whatever numbers they have: all positions, in
    an order with no lower number after a higher one. *)
Definition in_order_of (key : nat -> Z) (order : list nat) : Prop :=
  forall l1 i l2 j l3, order = (l1 ++ i :: l2 ++ j :: l3)%list -> key i <= key j.
Definition sorts (n : nat) (p : plan) : Prop :=
  within n p /\ forall key : nat -> Z, exists order,
    carry_out (fun i j => Says (key i <? key j)) p = inl order /\
    NoDup order /\ (forall i, In i order <-> (i < n)%nat) /\ in_order_of key order.

(** The documents a sequence holds with a lower and with a higher number. *)
Definition lower (s : seqstate) (n : Z) : list document := filter (fun x => d_num x <? n) (q_docs s).
Definition higher (s : seqstate) (n : Z) : list document := filter (fun x => n <? d_num x) (q_docs s).

(** The sequence a thing says it belongs to. *)
Definition says_sequence (t : thing) : option string :=
  match t with Doc s _ | Message s => Some s | DocD | Thing => None end.
Definition is_doc (t : thing) : Prop := match t with Doc _ _ => True | _ => False end.
