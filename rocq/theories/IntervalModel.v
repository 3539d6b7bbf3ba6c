(** Sending at intervals from the page of the user input producer.

    Sources: ebu_tt_live/ui/user_input_producer/uip.js 5, 77-101, 449-467, 594-600. *)

From Coq Require Import List ZArith QArith Qround.
Import ListNotations.

(** The number that parseFloat finds in the input, in seconds; None: NaN.  Infinity is left
    out. *)
Definition entry := option Q.

Inductive event :=
| Start (e : entry)      (* 449-459 *)
| Stop                   (* 461-467 *)
| Leave                  (* another mode is chosen, 432-436: hides the buttons (82, 96) *)
| Enter                  (* the mode "asynchronously" is chosen: shows them (89) *)
| Load.                  (* the page is loaded again, with the mode of index.html 95 *)

(** interval_send (5), with its period, and whether the buttons can be seen. *)
Record state := mkState { i_period : option Q; i_visible : bool }.

(** 452: refused with a message. *)
Definition valid (e : entry) : option Q :=
  match e with Some q => if Qle_bool q 0 then None else Some q | None => None end.

Definition step (s : state) (v : event) : state :=
  match v with
  | Start e =>
      if i_visible s then
        match i_period s with
        | Some _ => s
        | None => mkState (valid e) (i_visible s)
        end
      else s
  | Stop => if i_visible s then mkState None (i_visible s) else s
  | Leave => mkState (i_period s) false
  | Enter => mkState (i_period s) true
  | Load => mkState None false
  end.
Definition loaded : state := mkState None false.
Definition after (l : list event) : state := fold_left step l loaded.

(** setInterval calls asyncSubmit after each period: how often in a time, in seconds.
    Browsers take whole milliseconds and have a shortest period, which is not modelled. *)
Definition ticks (s : state) (time : Q) : Z :=
  match i_period s with None => 0%Z | Some p => Z.max 0 (Qfloor (time / p)) end.
