(** For C75. *)

From Coq Require Import List Arith ZArith String Ascii Bool.
From Verif Require Import PageModel.
Import ListNotations.
Open Scope string_scope.

(** The documents that were made for a sequence, and those that were sent, in order. *)
Definition made (l : list outcome) : list doc :=
  flat_map (fun o => match o with Made d _ | Planned d => [d] | _ => [] end) l.
Definition sent (l : list outcome) : list doc :=
  flat_map (fun o => match o with Made d (SentTo _) | Later d (SentTo _) => [d] | _ => [] end) l.
Definition numbers (id : string) (l : list doc) : list nat := map d_num (filter (fun d => d_id d =? id) l).

Fixpoint created (id : string) (l : list event) : nat :=
  match l with [] => 0 | Create i :: r => (if i =? id then 1 else 0) + created id r | _ :: r => created id r end.

(** Text that XML reads as it is. *)
Fixpoint plain (s : string) : Prop :=
  match s with
  | "" => True
  | String c r => c <> "<"%char /\ c <> "&"%char /\ prefix "]]>" s = false /\ plain r
  end.
(** Reading of the text of a span with breaks; None: other markup, or not well-formed.
    [skip]: characters of a break still to be passed. *)
Fixpoint lines (s : string) (skip : nat) : option (list string) :=
  match s with
  | "" => match skip with 0 => Some [""] | S _ => None end
  | String c r =>
      match skip with
      | S k => lines r k
      | 0 =>
          if prefix BR s then match lines r 7 with Some l => Some ("" :: l) | None => None end
          else if (c =? "<")%char || (c =? "&")%char || prefix "]]>" s then None
          else match lines r 0 with
               | Some (l :: t) => Some (String c l :: t)
               | _ => None
               end
      end
  end.

(** The selection does not change. *)
Definition steady (v : event) : Prop := match v with Select _ | Create _ | Reset => False | _ => True end.
Definition to_of (s : socket) : option (option string) :=
  match s with NoSocket => None | Connecting t | Opened t | Closing t => Some t end.

(** The limit does not change. *)
Definition same_limit (v : event) : Prop := match v with Max _ | Reload => False | _ => True end.

(** What the list of received items may show. *)
Definition showable (i : item) : bool := match i with AMessage false => false | _ => true end.
Definition message (i : item) : Prop := match i with AMessage _ => True | ADoc _ => False end.
Definition last_ten (l : list item) : list item := skipn (List.length l - 10) l.
