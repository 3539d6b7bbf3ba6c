(** Time expressions: conversion between timedelta values and the text of
    begin/end/dur attributes, and the text of manifest lines.

    Sources: ebu_tt_live/bindings/_ebuttdt.py 19-24, 223-406;
    ebu_tt_live/xsd/ebutt_datatypes.xsd 163-182;
    ebu_tt_live/carriage/filesystem.py 17-28.

    A timedelta is an integer number of microseconds.  Floating point is
    modelled exactly: [rnd] is IEEE double rounding (53 bits, ties to even) on
    rationals, and [accum_float], [round_us] follow delta_new, accum and
    round_to_long of CPython 2.7's datetimemodule.c, which is what timedelta()
    runs.  Not modelled: subnormal numbers and infinity.  Values that small
    contribute no microsecond either way, values that large are rejected by
    the range check of timedelta either way. *)

From Coq Require Import List ZArith String Ascii Bool.
From Verif Require Import Digits.
Import ListNotations.
Open Scope Z_scope.

(** ** Doubles as rationals *)

(** Nearest double to n/d for n >= 0, d > 0, as numerator and denominator. *)
Definition rnd (n d : Z) : Z * Z :=
  if n =? 0 then (0, 1)
  else
    let scale e := if 0 <=? e then (n, d * 2 ^ e) else (n * 2 ^ (- e), d) in
    let e0 := Z.log2 n - Z.log2 d - 52 in
    let '(a0, b0) := scale e0 in
    let e := if a0 / b0 <? 2 ^ 52 then e0 - 1 else e0 in
    let '(a, b) := scale e in
    let q := a / b in
    let r := a mod b in
    let q' := if (b <? 2 * r) || ((2 * r =? b) && Z.odd q) then q + 1 else q in
    if 0 <=? e then (q' * 2 ^ e, 1) else (q', 2 ^ (- e)).

(** C modf on a non-negative double n/d: integer part, fraction numerator. *)
Definition modf (x : Z * Z) : Z * Z := (fst x / snd x, fst x mod snd x).

(** round_to_long(x) = floor(x + 0.5) for x = n/d >= 0; the addition rounds. *)
Definition round_us (n d : Z) : Z :=
  let '(a, b) := rnd (2 * n + d) (2 * d) in a / b.

(** timedelta(unit = x) for one float argument x: accum() with the float and
    the number of microseconds per unit, then the rounding of the leftover. *)
Definition float_us (x : Z * Z) (factor : Z) : Z :=
  let '(ip, fr) := modf x in
  if fr =? 0 then ip * factor
  else
    let '(ip2, fr2) := modf (rnd (factor * fr) (snd x)) in
    ip * factor + ip2 + round_us fr2 (snd (rnd (factor * fr) (snd x))).

(** timedelta holds -999999999 days up to less than 1000000000 days;
    delta_new raises OverflowError beyond. *)
Definition us_per_s : Z := 1000000.
Definition us_per_day : Z := 86400 * us_per_s.
Definition max_td : Z := 1000000000 * us_per_day.

Definition min_td : Z := - 999999999 * us_per_day.

Definition mk_td (us : Z) : option Z :=
  if (min_td <=? us) && (us <? max_td) then Some us else None.

(** ** Members of a timedelta *)

(** _ebuttdt.py 19-24, _get_time_members; also filesystem.py 18-21.
    timedelta normalises to 0 <= seconds < 86400, 0 <= microseconds < 10^6. *)
Definition members (t : Z) : Z * Z * Z * Z :=
  let days := t / us_per_day in
  let secs := (t mod us_per_day) / us_per_s in
  let micro := t mod us_per_s in
  let hours := secs / 3600 + days * 24 in
  let secs' := secs mod 3600 in
  (hours, secs' / 60, secs' mod 60, micro / 1000).

(** ** Timecount *)

Inductive unit_t : Type := UH | UM | US | UMS.

Definition unit_text (u : unit_t) : string :=
  match u with UH => "h" | UM => "m" | US => "s" | UMS => "ms" end.

Definition unit_us (u : unit_t) : Z :=
  match u with
  | UH => 3600 * us_per_s | UM => 60 * us_per_s | US => us_per_s | UMS => 1000
  end.

(** _ebuttdt.py 257-291, TimecountTimingType.from_timedelta.  When no unit was
    chosen Python formats None. *)
Definition timecount_of (t : Z) : string :=
  if t =? 0 then "0s"
  else
    let '(hours, minutes, seconds, ms) := members t in
    let '(u, num, mult) :=
      if ms =? 0 then (None, 0, 1) else (Some UMS, ms, 1000) in
    let '(u, num, mult) :=
      match u with
      | Some v => (Some v, num + seconds * mult, mult * 60)
      | None => if seconds =? 0 then (None, num, mult)
                else (Some US, num + seconds * mult, mult * 60)
      end in
    let '(u, num, mult) :=
      match u with
      | Some v => (Some v, num + minutes * mult, mult * 60)
      | None => if minutes =? 0 then (None, num, mult)
                else (Some UM, num + minutes * mult, mult * 60)
      end in
    let '(u, num) :=
      match u with
      | Some v => (Some v, num + hours * mult)
      | None => if hours =? 0 then (None, num)
                else (Some UH, num + hours * mult)
      end in
    show num ++ match u with Some v => unit_text v | None => "None" end.

(** Digits, optional fraction: [0-9]+(\.[0-9]+)? and the rest. *)
Definition scan_number (s : string) : option (string * string * string) :=
  let '(d, r) := span s in
  match d with
  | EmptyString => None
  | _ =>
      match r with
      | String "." r' =>
          let '(f, q) := span r' in
          match f with EmptyString => None | _ => Some (d, f, q) end
      | _ => Some (d, EmptyString, r)
      end
  end.

Definition scan_unit (s : string) : option unit_t :=
  if String.eqb s "h" then Some UH
  else if String.eqb s "ms" then Some UMS
  else if String.eqb s "s" then Some US
  else if String.eqb s "m" then Some UM
  else None.

(** xsd 163-167 and _ebuttdt.py 229: the legal text, split into its groups. *)
Definition timecount_parts (s : string) : option (string * string * unit_t) :=
  match scan_number s with
  | Some (d, f, q) => match scan_unit q with
                      | Some u => Some (d, f, u)
                      | None => None
                      end
  | None => None
  end.

(** float(s) for digits [d] and fraction digits [f]. *)
Definition float_of (d f : string) : Z * Z :=
  match horner 0 (d ++ f) with
  | Some v => rnd v (10 ^ Z.of_nat (String.length f))
  | None => (0, 1)
  end.

(** _ebuttdt.py 238-255, TimecountTimingType.as_timedelta, on legal text.
    None stands for text that is not legal or OverflowError. *)
Definition timecount_td (s : string) : option Z :=
  match timecount_parts s with
  | Some (d, f, u) => mk_td (float_us (float_of d f) (unit_us u))
  | None => None
  end.

(** ** Clock values *)

(** _ebuttdt.py 334-347 and 391-403. *)
Definition clock_text (h m s ms : Z) : string :=
  if ms =? 0 then
    showpad 2 h ++ ":" ++ showpad 2 m ++ ":" ++ showpad 2 s
  else
    showpad 2 h ++ ":" ++ showpad 2 m ++ ":" ++ showpad 2 s ++ "." ++ showpad 3 ms.

(** _ebuttdt.py 328-347, FullClockTimingType.from_timedelta. *)
Definition full_of (t : Z) : string :=
  let '(h, m, s, ms) := members t in clock_text h m s ms.

(** _ebuttdt.py 381-403, LimitedClockTimingType.from_timedelta; None is
    TimeFormatOverflowError. *)
Definition limited_of (t : Z) : option string :=
  let '(h, m, s, ms) := members t in
  if 99 <? h then None else Some (clock_text h m s ms).

(** Two digits with the first one at most 5, or "60" where allowed. *)
Definition two_digits (s : string) : option (Z * string) :=
  match s with
  | String a (String b r) =>
      match dval a, dval b with
      | Some x, Some y => Some (10 * x + y, r)
      | _, _ => None
      end
  | _ => None
  end.

Definition scan_sexa (limit : Z) (s : string) : option (Z * string) :=
  match two_digits s with
  | Some (v, r) => if v <=? limit then Some (v, r) else None
  | None => None
  end.

Definition scan_char (c : ascii) (s : string) : option string :=
  match s with
  | String a r => if Ascii.eqb a c then Some r else None
  | EmptyString => None
  end.

(** xsd 173-182, _ebuttdt.py 307 and 363: hours (exactly two digits when
    [limited], at least two otherwise), minutes 00-59, seconds 00-60, optional
    fraction digits.  The whole string has to match. *)
Definition clock_parts (limited : bool) (s : string)
  : option (string * Z * Z * string) :=
  let '(h, r) := span s in
  let n := String.length h in
  if (if limited then Nat.eqb n 2 else Nat.leb 2 n) then
    match scan_char ":" r with
    | None => None
    | Some r1 =>
    match scan_sexa 59 r1 with
    | None => None
    | Some (m, r2) =>
    match scan_char ":" r2 with
    | None => None
    | Some r3 =>
    match scan_sexa 60 r3 with
    | None => None
    | Some (sec, r4) =>
        match r4 with
        | EmptyString => Some (h, m, sec, EmptyString)
        | String "." r5 =>
            let '(f, q) := span r5 in
            match f, q with
            | EmptyString, _ => None
            | _, EmptyString => Some (h, m, sec, f)
            | _, _ => None
            end
        | _ => None
        end
    end end end end
  else None.

(** _ebuttdt.py 321 / 373: float('0.' + fraction) * 1000, or 0. *)
Definition frac_ms (f : string) : Z * Z :=
  match f with
  | EmptyString => (0, 1)
  | _ => let '(n, d) := float_of "0" f in rnd (1000 * n) d
  end.

(** _ebuttdt.py 314-325 and 366-377: as_timedelta of both clock types.  The
    integer arguments are exact; the milliseconds go through accum(). *)
Definition clock_td (limited : bool) (s : string) : option Z :=
  match clock_parts limited s with
  | Some (h, m, sec, f) =>
      match horner 0 h with
      | Some hv =>
          mk_td (hv * 3600 * us_per_s + m * 60 * us_per_s + sec * us_per_s
                 + float_us (frac_ms f) 1000)
      | None => None
      end
  | None => None
  end.

(** ** Manifest times *)

(** filesystem.py 17-22. *)
Definition manifest_of (t : Z) : string :=
  let '(h, m, s, ms) := members t in
  showpad 2 h ++ ":" ++ showpad 2 m ++ ":" ++ showpad 2 s ++ "." ++ showpad 3 ms.

(** str.split(sep) for a one-character separator. *)
Fixpoint split_on (c : ascii) (s : string) : list string :=
  match s with
  | EmptyString => [EmptyString]
  | String a r =>
      if Ascii.eqb a c then EmptyString :: split_on c r
      else match split_on c r with
           | x :: l => String a x :: l
           | [] => [String a EmptyString]
           end
  end.

(** int(text): optional sign and digits.  Python also strips blanks and
    accepts more; None stands for ValueError and for those texts. *)
Definition int_of (s : string) : option Z :=
  match s with
  | String "-" r => match read r with Some v => Some (- v) | None => None end
  | _ => read s
  end.

(** filesystem.py 25-28; None is ValueError (or OverflowError). *)
Definition manifest_td (s : string) : option Z :=
  match split_on ":" s with
  | [h; m; rest] =>
      match split_on "." rest with
      | [sec; ms] =>
          match int_of h, int_of m, int_of sec, int_of ms with
          | Some h', Some m', Some s', Some ms' =>
              mk_td (h' * 3600 * us_per_s + m' * 60 * us_per_s
                     + s' * us_per_s + ms' * 1000)
          | _, _, _, _ => None
          end
      | _ => None
      end
  | _ => None
  end.
