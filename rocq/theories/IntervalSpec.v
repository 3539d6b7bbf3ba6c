(** For C78. *)

From Coq Require Import List QArith.
From Verif Require Import IntervalModel.
Import ListNotations.

(** Whether the mode is "asynchronously" after a history. *)
Fixpoint asynchronous (now : bool) (l : list event) : bool :=
  match l with
  | [] => now
  | Enter :: r => asynchronous true r
  | Leave :: r | Load :: r => asynchronous false r
  | _ :: r => asynchronous now r
  end.
(** A positive number. *)
Definition positive (e : entry) (p : Q) : Prop := e = Some p /\ (0 < p)%Q.
