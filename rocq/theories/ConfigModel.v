(** Looking up configured nodes.

    Source: ebu_tt_live/config/__init__.py 68-71 and
    ebu_tt_live/config/node.py 340-398.  Python 2. *)

From Coq Require Import List ZArith String Ascii Bool.
From Verif Require Import Digits TimeModel.
Import ListNotations.
Open Scope Z_scope.

(** config/node.py 381-398: the seven slots node1..node7, of which the ones
    with a type are configured; the list of instances has no gaps. *)
Fixpoint configure {A} (slots : list (option A)) : list A :=
  match slots with
  | [] => []
  | Some x :: r => x :: configure r
  | None :: r => configure r
  end.

(** config/node.py 340-361: the node types by name; None is ConfigurationError. *)
Definition node_types : list string :=
  ["simple-consumer"; "simple-producer"; "resequencer"; "deduplicator"; "ebuttd-encoder";
   "buffer-delay"; "retiming-delay"; "distributor"; "handover"]%string.
Definition get_node_type (t : string) : option string :=
  find (String.eqb t) node_types.

(** str.replace('node', ''): every occurrence, from the left. *)
Fixpoint strip_node (fuel : nat) (s : string) : string :=
  match fuel with
  | O => s
  | S f =>
      if String.prefix "node" s then strip_node f (substring 4 (String.length s - 4) s)
      else match s with
           | EmptyString => EmptyString
           | String c r => String c (strip_node f r)
           end
  end.
Definition replace_node (s : string) : string := strip_node (S (String.length s)) s.

(** l[i] of Python: negative indexes count from the end; None is IndexError. *)
Definition py_index {A} (l : list A) (i : Z) : option A :=
  let n := Z.of_nat (List.length l) in
  if 0 <=? i then nth_error l (Z.to_nat i)
  else if 0 <=? n + i then nth_error l (Z.to_nat (n + i)) else None.

Inductive lookup_res (A : Type) : Type := LFound (x : A) | LIndexError | LValueError.
Arguments LFound {A} x.
Arguments LIndexError {A}.
Arguments LValueError {A}.

(** config/__init__.py 68-71.  int() is [int_of] of TimeModel.v: it knows
    optional minus and digits, not blanks or plus. *)
Definition get_node {A} (nodes : list A) (name : string) : lookup_res A :=
  match int_of (replace_node name) with
  | None => LValueError
  | Some k => match py_index nodes (k - 1) with Some x => LFound x | None => LIndexError end
  end.
