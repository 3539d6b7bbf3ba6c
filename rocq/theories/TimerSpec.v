(** For C76. *)

From Coq Require Import List Arith ZArith.
From Verif Require Import TimerModel.
Import ListNotations.

Definition halves (l : list event) : nat := List.length (filter (fun v => match v with Half => true | _ => false end) l).

(** What a stopwatch shows, over and over after a day: hours, minutes and seconds. *)
Definition stopwatch (e : Z) (t : Z * Z * Z) : Prop :=
  let '(h, m, s) := t in
  (0 <= h < 24 /\ 0 <= m < 60 /\ 0 <= s < 60 /\
  exists day, 0 <= e - 1000 * (s + 60 * (m + 60 * (h + 24 * day))) < 1000)%Z.

(** Events that change which clock runs. *)
Definition controls (v : event) : Prop := match v with Half | Sending OnTime => False | _ => True end.
