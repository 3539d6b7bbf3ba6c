(** For C70: lateness, and documents that arrive live. *)

From Coq Require Import List ZArith String Bool.
From Verif Require Import SequenceModel NodeModel NodeSpec ResegModel ResegSpec ScheduleModel.
Import ListNotations.
Open Scope Z_scope.

(** The calls of convert_next_segment in a history, and the documents sent. *)
Fixpoint ticks {X} (is_tick : X -> bool) (l : list (timed X)) : nat :=
  match l with [] => 0 | e :: r => (if is_tick (what e) then 1 else 0) + ticks is_tick r end.
Definition sent (rs : list rreaction) : nat := List.length (segments rs).
Definition sent_c (rs : list (rreaction + built)) : nat := List.length (documents rs).

(** Midnight does not fall between the two instants. *)
Definition same_day (off a b : Z) : Prop := (a + off) / (24 * 3600 * 1000000) = (b + off) / (24 * 3600 * 1000000).

(** A start that worked: configured at [tc], the node made at [t0], the reactor
    started at [r], and the looping call started at [start]. *)
Definition launched (off : Z) (begin_output : option Z) (tc t0 r start : Z) : Prop :=
  tc <= t0 /\ t0 <= r /\
  exists from, loop_from (begin_delay off begin_output tc) r = Some from /\ from <= start.

(** Each call is over before the next is due. *)
Fixpoint keeps_up {S X R} (step : S -> X -> S * R) is_tick raised start len (s : sched) (l : list (timed X)) : Prop :=
  match l with
  | [] => True
  | e :: r =>
      (is_tick (what e) = true -> match sc_due s with Some u => done e < u + len | None => True end) /\
      match sched_step step is_tick raised start len s e with
      | Some (s1, _) => keeps_up step is_tick raised start len s1 r
      | None => True
      end
  end.

(** The documents of [l] begin when they arrive or later: what C14 says of
    documents that arrive without availability time and are not badly timed
    (consumer.py 39-40). *)
Definition live (off : Z) (l : list (timed rinput)) : Prop :=
  forall x d, In x l -> what x = RDoc d -> clock off (at_ x) <= d_begin d.
Definition live_c (off : Z) (l : list (timed cinput)) : Prop :=
  forall x d, In x l -> what x = CDoc d -> clock off (at_ x) <= d_begin d.
