(** What the texts of times should be, stated as grammar and arithmetic. *)

From Coq Require Import List ZArith String Ascii Bool.
From Verif Require Import Digits TimeModel.
Import ListNotations.
Open Scope Z_scope.

(** A duration cut to whole milliseconds. *)
Definition trunc_ms (t : Z) : Z := t - t mod 1000.

(** The range of timedelta values from zero up. *)
Definition in_range (t : Z) : Prop := 0 <= t < 1000000000 * 86400 * 1000000.

(** Non-empty text of digits. *)
Definition digits (s : string) : Prop := s <> ""%string /\ all_digits s = true.

(** ebutt_datatypes.xsd 163-167: [0-9]+(\.[0-9]+)?(h|ms|s|m) *)
Definition legal_timecount (s : string) : Prop :=
  exists d u, digits d /\ In u ["h"; "ms"; "s"; "m"]%string /\
    (s = d ++ u \/ exists f, digits f /\ s = d ++ "." ++ f ++ u)%string.

(** ebutt_datatypes.xsd 173-182: hours:[0-5][0-9]:([0-5][0-9]|60)(\.[0-9]+)?
    [s] consists of the hour digits [h], the minutes [m], the seconds [c] and the
    fraction digits [f] (empty without fraction). *)
Definition is_clock (hours_ok : nat -> Prop) (s h : string) (m c : Z) (f : string) : Prop :=
  digits h /\ hours_ok (String.length h) /\
  exists mt ct, String.length mt = 2%nat /\ read mt = Some m /\ m < 60 /\
    String.length ct = 2%nat /\ read ct = Some c /\ c <= 60 /\
    ((f = "" /\ s = h ++ ":" ++ mt ++ ":" ++ ct) \/
     (digits f /\ s = h ++ ":" ++ mt ++ ":" ++ ct ++ "." ++ f))%string.

(** Exactly two digits (limited clock), at least two (full clock). *)
Definition hours_len (limited : bool) (n : nat) : Prop :=
  if limited then n = 2%nat else (2 <= n)%nat.

Definition legal_clock (limited : bool) (s : string) : Prop :=
  exists h m c f, is_clock (hours_len limited) s h m c f.

(** The exact value of a clock text is n/d microseconds. *)
Definition clock_value (limited : bool) (s : string) (n d : Z) : Prop :=
  exists h m c f hv fv, is_clock (hours_len limited) s h m c f /\
    read h = Some hv /\ horner 0 f = Some fv /\
    d = 10 ^ Z.of_nat (String.length f) /\
    n = ((hv * 3600 + m * 60 + c) * d + fv) * 1000000.

(** As above, and not a leap second. *)
Definition clock_value60 (limited : bool) (s : string) (n d : Z) : Prop :=
  exists h m c f hv fv, is_clock (hours_len limited) s h m c f /\ c < 60 /\
    read h = Some hv /\ horner 0 f = Some fv /\
    d = 10 ^ Z.of_nat (String.length f) /\
    n = ((hv * 3600 + m * 60 + c) * d + fv) * 1000000.

(** The exact value of a timecount text, n/d microseconds. *)
Definition timecount_value (s : string) (n d : Z) : Prop :=
  exists dg f u v, digits dg /\ horner 0 (dg ++ f) = Some v /\
    In u [("h", 3600000000); ("m", 60000000); ("s", 1000000); ("ms", 1000)]%string /\
    d = 10 ^ Z.of_nat (String.length f) /\ n = v * snd u /\
    ((f = "" /\ s = dg ++ fst u) \/ (digits f /\ s = dg ++ "." ++ f ++ fst u))%string.

(** One hundred hours. *)
Definition h100 : Z := 100 * 3600 * 1000000.
