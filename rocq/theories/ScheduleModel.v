(** When the re-sequencing node sends its segments.

    Sources: ebu_tt_live/config/node.py 97-156 (the configurator of the
    re-sequencing node), ebu_tt_live/config/backend.py 255-268 (call_once and
    call_periodically of the twisted backend), ebu_tt_live/node/consumer.py 82-106
    (constructor), ebu_tt_live/clocks/local.py 5-12 and utc.py 5-12,
    ebu_tt_live/clocks/base.py 18-24.  The node itself is NodeModel, or ResegModel
    with the content of the documents.

    An instant is a number of microseconds on the clock of twisted's reactor, which
    is taken to run as the machine's does: it is not set, and the local time zone
    does not change.  The delay is exact, though the code passes a float of
    seconds.

    Twisted (third-party): callLater refuses a negative delay with an
    AssertionError, and otherwise calls when the delay is over or later.
    LoopingCall.start with now=False calls one interval after its start; when
    the call is over it is to be called at the next multiple of the interval,
    counted from the start; when the call raises, it is never called again.
    Everything runs in one thread. *)

From Coq Require Import List ZArith String Bool.
From Verif Require Import SequenceModel NodeModel ResegModel.
Import ListNotations.
Open Scope Z_scope.

Definition day : Z := 86400000000.

(** local.py 10-12, utc.py 10-12: the time of the day; [off] is that of instant 0. *)
Definition clock (off now : Z) : Z := (now + off) mod day.

(** ** Starting *)

(** config/node.py 120-127: 'immediate' is None; otherwise the time of begin_output,
    read by LimitedClockTimingType (TimeModel). *)
Definition begin_delay (off : Z) (begin_output : option Z) (now : Z) : Z :=
  match begin_output with
  | None => 0
  | Some b => b - clock off now
  end.

(** config/node.py 155-156, backend.py 255-256: the first instant at which the looping
    call can be started when the reactor is started at [now]; None is an
    AssertionError. *)
Definition loop_from (delay now : Z) : option Z :=
  if delay <? 0 then None else Some (now + delay).

(** The constructor, consumer.py 91: the first segment begins now. *)
Definition new_node (off now : Z) : rstate := r0 (clock off now).

(** ** Running *)

(** An input to the node that is handled from [at_] to [done]. *)
Record timed (X : Type) := mkTimed { at_ : Z; done : Z; what : X }.
Arguments mkTimed {X}.
Arguments at_ {X}.
Arguments done {X}.
Arguments what {X}.

(** backend.py 262-268, LoopingCall. *)
Definition next_due (start len now : Z) : Z := start + ((now - start) / len + 1) * len.

Section Loop.
Context {S X R : Type}.
Variable step : S -> X -> S * R.
Variable is_tick : X -> bool.      (* a call of convert_next_segment *)
Variable raised : R -> bool.
Variables start len : Z.           (* of the looping call *)

(** The node, when the looping call is due (if it still runs), and until when
    the thread is occupied. *)
Record sched := mkSched { sc_node : S; sc_due : option Z; sc_now : Z }.

(** None: this cannot happen then. *)
Definition sched_step (s : sched) (e : timed X) : option (sched * R) :=
  if (at_ e <? sc_now s) || (done e <? at_ e) then None
  else if is_tick (what e) then
    match sc_due s with
    | None => None
    | Some u =>
        if at_ e <? u then None
        else let '(n, r) := step (sc_node s) (what e) in
             Some (mkSched n (if raised r then None else Some (next_due start len (done e))) (done e), r)
    end
  else let '(n, r) := step (sc_node s) (what e) in Some (mkSched n (sc_due s) (done e), r).

Fixpoint sched_run (s : sched) (l : list (timed X)) : option (sched * list R) :=
  match l with
  | [] => Some (s, [])
  | e :: l' =>
      match sched_step s e with
      | None => None
      | Some (s1, r) =>
          match sched_run s1 l' with
          | None => None
          | Some (s2, rs) => Some (s2, r :: rs)
          end
      end
  end.

(** call_periodically at [start]: the first call is due an interval later. *)
Definition sched0 (n : S) (now : Z) : sched := mkSched n (Some (start + len)) now.
End Loop.

Arguments mkSched {S}.
Arguments sc_node {S}.
Arguments sc_due {S}.
Arguments sc_now {S}.

(** ** The two models of the node *)

Definition rtick (i : rinput) : bool := match i with RTick _ => true | RDoc _ => false end.
Definition rraised (r : rreaction) : bool :=
  match r with RNothing | RSegment _ => false | _ => true end.
Definition reseq_run (out : string) (discard : bool) (start len : Z) :=
  sched_run (reseq_step out len discard) rtick rraised start len.

Definition ctick (i : cinput) : bool := match i with CTick => true | CDoc _ => false end.
Definition craised (r : rreaction + built) : bool :=
  match r with inl x => rraised x | inr _ => false end.
Definition content_run (content : document -> stored) (out : string) (discard : bool) (start len : Z) :=
  sched_run (reseq_content content out len discard) ctick craised start len.
