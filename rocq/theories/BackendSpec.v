(** What a configuration asks for, said without the backend: which parts are to be
    started, where they listen and connect, and when that can work. *)

From Coq Require Import List String Bool Arith.
From Verif Require Import BackendModel.
Import ListNotations.

(** The parts that asked to be started. *)
Definition wanted (asked : list nat) (ps : list part) : list part :=
  filter (fun p => existsb (Nat.eqb (part_id p)) asked) ps.

Definition of_option {A} (o : option A) : list A := match o with Some a => [a] | None => [] end.

(** Listening addresses of outputs and of inputs. *)
Definition out_listens (ps : list part) : list url :=
  flat_map (fun p => match p with WsOut _ l _ => of_option l | _ => [] end) ps.
Definition in_listens (ps : list part) : list url :=
  flat_map (fun p => match p with WsIn _ l _ => of_option l | _ => [] end) ps.

(** A configuration that can work: no output with the older protocol, no two
    outputs and no two inputs on one address, and different addresses are at
    different ports unless any port will do. *)
Definition workable (port : url -> nat) (ps : list part) : Prop :=
  (forall id u, ~ In (WslOut id u) ps) /\
  NoDup (out_listens ps) /\ NoDup (in_listens ps) /\
  (forall a b, In a (out_listens ps ++ in_listens ps) -> In b (out_listens ps ++ in_listens ps) ->
     port a = port b -> port a <> 0 -> a = b).

(** The factories of a world, and the addresses served by those for which a
    carriage is the consumer. *)
Definition factories (w : world) : list factory := map snd (w_servers w) ++ w_clients w.
Definition has_consumer (id : nat) (f : factory) : bool :=
  match f_consumer f with Some i => Nat.eqb i id | None => false end.
Definition heard_on (w : world) (id : nat) : list url := map f_url (filter (has_consumer id) (factories w)).
Definition sent_on (w : world) (id : nat) : list url := map f_url (reaches w id).

(** The nodes registered at the ends of a direct carriage. *)
Definition inputs (k : string) (es : list end_) : list nat :=
  flat_map (fun e => match e with DirectInput j n => if String.eqb k j then [n] else [] | _ => [] end) es.
Definition outputs (k : string) (es : list end_) : list nat :=
  flat_map (fun e => match e with DirectOutput j n => if String.eqb k j then [n] else [] | _ => [] end) es.
Fixpoint final {A} (l : list A) : option A :=
  match l with [] => None | [a] => Some a | _ :: r => final r end.
