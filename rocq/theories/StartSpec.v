(** For C71: what the nodes send, by themselves. *)

From Coq Require Import List String Bool.
From Verif Require Import StartModel.
Import ListNotations.

Section Spec.
Context {N I : Type}.
Variable net : N -> I -> N * list emission * bool.

Fixpoint after (n : N) (l : list I) : N :=
  match l with [] => n | i :: r => after (fst (fst (net n i))) r end.
Fixpoint emitted (n : N) (l : list I) : list emission :=
  match l with
  | [] => []
  | i :: r => snd (fst (net n i)) ++ emitted (fst (fst (net n i))) r
  end.
End Spec.

(** All lines that are read when the components are started in this order and
    nothing goes wrong. *)
Definition read {I} (order : list (component I)) : list I :=
  flat_map (fun c => match c with FileIn l tail => map snd (lines l tail) | _ => [] end) order.
Definition outputs {I} (order : list (component I)) : list nat :=
  flat_map (fun c => match c with SocketOut o => [o] | _ => [] end) order.

(** What comes in while the reactor runs, and how much time passes. *)
Definition coming {I} (l : list (event I)) : list I :=
  flat_map (fun v => match v with Comes i => [i] | _ => [] end) l.
Fixpoint waited {I} (l : list (event I)) : nat :=
  match l with [] => 0 | Wait d :: r => d + waited r | _ :: r => waited r end.

Definition to_files (l : list emission) : list (nat * string) :=
  flat_map (fun e => match e_to e with ToFile f => [(f, e_text e)] | ToSocket _ => [] end) l.

Definition state_of {N} (s : started N) : app N := match s with Running a | Reading a | Failed a => a end.

(** Connected after [l]: has connected and not left since. *)
Definition connected {I} (before : list conn) (l : list (event I)) (c : conn) : Prop :=
  (In c before /\ ~ In (Disconnect (c_who c)) l) \/
  exists l1 l2, l = (l1 ++ Connect c :: l2)%list /\ ~ In (Disconnect (c_who c)) l2.
