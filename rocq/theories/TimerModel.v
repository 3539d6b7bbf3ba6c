(** The running clocks of the page of the user input producer.

    Sources: ebu_tt_live/ui/user_input_producer/uip.js. *)

From Coq Require Import List Arith ZArith.
Import ListNotations.

(** ** Timers *)

(** updateRunningClockLocal and updateRunningClockMedia (121-134). *)
Inductive clock := LocalClock | MediaClock.
(** The radio inputs, as in PageModel. *)
Inductive sending := OnKeys | OnTime | Asynchronously.

(** interval_running_clock (7) with what it calls, and how many timeouts wait to call each
    function (126, 133).  A browser fires timers of 500 ms once in half a second. *)
Record timers := mkTimers { t_interval : option clock; t_local : nat; t_media : nat }.

(** 29-35: timeouts are not cleared. *)
Definition stop (t : timers) : timers := mkTimers None (t_local t) (t_media t).
(** 113, 445. *)
Definition start (c : clock) (t : timers) : timers := mkTimers (Some c) (t_local t) (t_media t).

(** 77-101. *)
Definition sending_type (s : sending) (t : timers) : timers :=
  match s with OnTime => t | OnKeys | Asynchronously => stop t end.
(** 106-117. *)
Definition clock_type (c : clock) (t : timers) : timers :=
  match c with LocalClock => start LocalClock (stop t) | MediaClock => stop t end.
(** 440-447. *)
Definition synchronize (t : timers) : timers := start MediaClock (stop t).

(** Half a second: every timeout calls and waits again, and the interval calls, whose call
    leaves a timeout (121-134). *)
Definition half (t : timers) : timers :=
  match t_interval t with
  | None => t
  | Some LocalClock => mkTimers (Some LocalClock) (S (t_local t)) (t_media t)
  | Some MediaClock => mkTimers (Some MediaClock) (t_local t) (S (t_media t))
  end.
(** The calls in it. *)
Definition calls (t : timers) : nat :=
  t_local t + t_media t + match t_interval t with None => 0 | Some _ => 1 end.

Inductive event := Half | Sending (s : sending) | ClockType (c : clock) | Synchronize.
Definition step (t : timers) (v : event) : timers :=
  match v with
  | Half => half t
  | Sending s => sending_type s t
  | ClockType c => clock_type c t
  | Synchronize => synchronize t
  end.
Definition after (t : timers) (l : list event) : timers := fold_left step l t.
(** All calls while the events happen. *)
Fixpoint work (t : timers) (l : list event) : nat :=
  match l with [] => 0 | v :: r => match v with Half => calls t | _ => 0 end + work (step t v) r end.

(** 103 and 119, with the first options of index.html 95 and 103. *)
Definition opened : timers := clock_type LocalClock (sending_type OnKeys (mkTimers None 0 0)).

(** ** The media clock *)

(** format('HH:mm:ss') of an instant in milliseconds, with the offset of the time zone. *)
Definition hms (x : Z) : Z * Z * Z :=
  let s := (x / 1000 mod 86400)%Z in (s / 3600, s / 60 mod 60, s mod 60)%Z.
(** 122-125: the time since Synchronize, taken as an instant.  [zone] gives the offset of the
    local time at an instant, in milliseconds. *)
Definition media_clock (zone : Z -> Z) (sync now : Z) : Z * Z * Z :=
  let diff := (now - sync)%Z in hms (diff + zone diff).
