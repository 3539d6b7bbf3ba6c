(** The clocks.

    Source: ebu_tt_live/clocks/base.py, media.py, local.py, utc.py and
    __init__.py.  Times are timedeltas in microseconds. *)

From Coq Require Import List ZArith Bool String.
From Verif Require Import TimeModel.
Import ListNotations.
Open Scope Z_scope.

(** media.py 8: the reference pair; base.py 15-16: the fixed time. *)
Record clock : Type := mkClock {
  k_local : Z;
  k_remote : Z;
  k_fixed : option Z;
  k_use_fixed : bool }.

Definition day : Z := 86400 * 1000000.

(** media.py 22-25, local.py 10-12, utc.py 10-12: the time of day of the
    machine, here of an instant counted in microseconds since some midnight
    (no leap seconds, no changes to daylight saving time). *)
Definition machine_time (instant : Z) : Z := instant mod day.

(** media.py 19-20 *)
Definition new_clock (instant : Z) : clock := mkClock (machine_time instant) 0 None false.

(** media.py 27-28; the two timedelta operations may overflow (None). *)
Definition get_media_time (c : clock) (t : Z) : option Z :=
  match mk_td (t - k_local c) with
  | Some d => mk_td (k_remote c + d)
  | None => None
  end.

(** media.py 33-44, with arguments that are timedeltas. *)
Definition adjust_time (c : clock) (current : Z) (local : option Z) (instant : Z) : clock :=
  mkClock (match local with Some l => l | None => machine_time instant end) current
          (k_fixed c) (k_use_fixed c).

(** media.py 30-31 *)
Definition get_real_clock_time (c : clock) (instant : Z) : option Z :=
  get_media_time c (machine_time instant).

(** base.py 18-25: what get_time returns; the outer None is an exception, the
    inner None the Python value. *)
Definition get_time (c : clock) (instant : Z) : option (option Z) :=
  if k_use_fixed c then Some (k_fixed c)
  else match get_real_clock_time c instant with Some t => Some (Some t) | None => None end.

(** base.py 46-56 and 58-69 *)
Definition set_fixed_time (c : clock) (t : Z) : clock :=
  mkClock (k_local c) (k_remote c) (Some t) (k_use_fixed c).
Definition set_fixed_time_mode (c : clock) (b : bool) : clock :=
  mkClock (k_local c) (k_remote c) (k_fixed c) b.

(** The operations on a clock, each at an instant. *)
Inductive kop : Type :=
| KAdjust (current : Z) (local : option Z)
| KFix (t : Z)
| KMode (b : bool).

Definition kstep (c : clock) (p : Z * kop) : clock :=
  match snd p with
  | KAdjust cur loc => adjust_time c cur loc (fst p)
  | KFix t => set_fixed_time c t
  | KMode b => set_fixed_time_mode c b
  end.

Definition kruns (c : clock) (l : list (Z * kop)) : clock := fold_left kstep l c.

(** clocks/__init__.py 10-22: the class of clock, None as in the code (there
    is none for an unknown time base, nor for time base "clock" with a clock
    mode other than local and utc).  The KeyError of a call without clock_mode
    is not modelled: all callers pass it. *)
Inductive kclass : Type := KLocal | KUtc | KMedia | KSmpte.
Definition get_clock (time_base clock_mode : string) : option kclass :=
  if String.eqb time_base "clock" then
    if String.eqb clock_mode "local" then Some KLocal
    else if String.eqb clock_mode "utc" then Some KUtc else None
  else if String.eqb time_base "media" then Some KMedia
  else if String.eqb time_base "smpte" then Some KSmpte else None.
