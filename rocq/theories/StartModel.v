(** Starting an application that reads documents from files, and who receives what
    it sends.

    Sources: ebu_tt_live/config/backend.py 11-33 (the configurators and their
    start), 100-102 (the reactor runs when all are started), 152-188 (the producer
    of a websocket output), config/carriage.py 51-86 (file output), 90-111 (file
    input), 204-223 (websocket output), carriage/filesystem.py 132-202, 205-218,
    242-263 (writing a file, handing on and reading the lines of a manifest),
    carriage/websocket.py 10-25, twisted/websocket.py 142-178 (the producer),
    113-118 (only connections of the sequence get a message), node/delay.py 96-98.

    The nodes and the carriages between them are any machine that reacts to
    something coming in by sending to outputs: C61 has the nodes themselves.
    Websocket outputs have addresses of their own, so starting them does not fail
    (C53).  Delays are not negative.  What twisted does when a message cannot be
    sent is left out. *)

From Coq Require Import List Arith String Bool.
Import ListNotations.

(** Where an output goes: to files, or to the connections of a websocket output. *)
Inductive sink : Type := ToFile (f : nat) | ToSocket (o : nat).

(** emit_data(data, sequence_identifier, delay) of an output carriage. *)
Record emission := mkEm { e_to : sink; e_delay : option nat; e_sid : string; e_text : string }.

(** A connection that is open: of an output, for the messages of a sequence. *)
Record conn := mkConn { c_who : nat; c_out : nat; c_sid : string }.

(** A call of _do_write that waits (twisted/websocket.py 159-160). *)
Record timer := mkTimer { t_due : nat; t_out : nat; t_sid : string; t_text : string }.

Section Start.
Context {N I : Type}.
(** The nodes: their state, what comes in; then their next state, what they send,
    and whether an exception came out of the call. *)
Variable net : N -> I -> N * list emission * bool.

(** [a_ready]: the websocket outputs that have a producer (_backend_producer is
    None before, carriage/websocket.py 12); [a_got]: what was sent to whom. *)
Record app := mkApp {
  a_net : N; a_now : nat; a_ready : list nat; a_conns : list conn;
  a_timers : list timer; a_got : list (nat * string); a_files : list (nat * string) }.

Definition app0 (n : N) : app := mkApp n 0 [] [] [] [] [].

(** twisted/websocket.py 172-178, 113-118. *)
Definition hears (o : nat) (sid : string) (c : conn) : bool :=
  Nat.eqb (c_out c) o && String.eqb (c_sid c) sid.
Definition write (a : app) (o : nat) (sid text : string) : app :=
  mkApp (a_net a) (a_now a) (a_ready a) (a_conns a) (a_timers a)
    (a_got a ++ map (fun c => (c_who c, text)) (filter (hears o sid) (a_conns a))) (a_files a).

(** filesystem.py 132-160: the file is written at once, whatever the delay;
    carriage/websocket.py 23-25: nothing happens without a producer;
    twisted/websocket.py 158-164. *)
Definition emit (a : app) (e : emission) : app :=
  match e_to e with
  | ToFile f =>
      mkApp (a_net a) (a_now a) (a_ready a) (a_conns a) (a_timers a) (a_got a) (a_files a ++ [(f, e_text e)])
  | ToSocket o =>
      if existsb (Nat.eqb o) (a_ready a) then
        match e_delay e with
        | None => write a o (e_sid e) (e_text e)
        | Some d =>
            mkApp (a_net a) (a_now a) (a_ready a) (a_conns a)
              (a_timers a ++ [mkTimer (a_now a + d) o (e_sid e) (e_text e)]) (a_got a) (a_files a)
        end
      else a
  end.

Definition react (a : app) (i : I) : app * bool :=
  let '(n, es, raised) := net (a_net a) i in
  (fold_left emit es
     (mkApp n (a_now a) (a_ready a) (a_conns a) (a_timers a) (a_got a) (a_files a)), raised).

Definition pass (a : app) (d : nat) : app :=
  mkApp (a_net a) (a_now a + d) (a_ready a) (a_conns a) (a_timers a) (a_got a) (a_files a).

(** filesystem.py 242-263: each line of the manifest, with the time it took to get
    it.  An exception is not caught. *)
Fixpoint feed (a : app) (l : list (nat * I)) : app * bool :=
  match l with
  | [] => (a, false)
  | (d, i) :: r =>
      let '(a1, raised) := react (pass a d) i in
      if raised then (a1, true) else feed a1 r
  end.

(** ** Starting *)

(** A configurator with something to start.  A file input has the lines of the
    manifest and, with the tail option, those that are added later and whether
    there is an end to it: Ctrl-C while waiting (filesystem.py 248-251).  [Other]:
    what only makes itself known to the reactor or does nothing. *)
Inductive component : Type :=
| FileIn (l : list (nat * I)) (tail : option (list (nat * I) * bool))
| SocketOut (o : nat)
| Other.

Inductive started : Type :=
| Running (a : app)      (* the reactor runs *)
| Reading (a : app)      (* waits for more lines of a manifest *)
| Failed (a : app).      (* an exception *)

Definition lines (l : list (nat * I)) (tail : option (list (nat * I) * bool)) : list (nat * I) :=
  match tail with None => l | Some (more, _) => l ++ more end.
Definition endless (tail : option (list (nat * I) * bool)) : bool :=
  match tail with Some (_, false) => true | _ => false end.

(** backend.py 24-29, 100-102; the configurators are a set, in whichever order. *)
Fixpoint start (a : app) (order : list component) : started :=
  match order with
  | [] => Running a
  | FileIn l tail :: r =>
      let '(a1, raised) := feed a (lines l tail) in
      if raised then Failed a1
      else if endless tail then Reading a1
      else start a1 r
  | SocketOut o :: r =>
      start (mkApp (a_net a) (a_now a) (a_ready a ++ [o]) (a_conns a) (a_timers a) (a_got a) (a_files a)) r
  | Other :: r => start a r
  end.

(** ** Running *)

(** While the reactor runs: something comes in (a websocket input, a looping
    call), connections open and close, time passes. *)
Inductive event : Type :=
| Comes (i : I)
| Connect (c : conn)
| Disconnect (who : nat)
| Wait (d : nat).

Definition due (now : nat) (t : timer) : bool := Nat.leb (t_due t) now.

(** twisted calls what is due; the order among these is not modelled. *)
Definition fire (a : app) : app :=
  fold_left (fun b t => write b (t_out t) (t_sid t) (t_text t)) (filter (due (a_now a)) (a_timers a))
    (mkApp (a_net a) (a_now a) (a_ready a) (a_conns a)
       (filter (fun t => negb (due (a_now a) t)) (a_timers a)) (a_got a) (a_files a)).

Definition happen (a : app) (v : event) : app :=
  match v with
  | Comes i => fst (react a i)
  | Connect c =>
      mkApp (a_net a) (a_now a) (a_ready a) (a_conns a ++ [c]) (a_timers a) (a_got a) (a_files a)
  | Disconnect w =>
      mkApp (a_net a) (a_now a) (a_ready a) (filter (fun c => negb (Nat.eqb (c_who c) w)) (a_conns a))
        (a_timers a) (a_got a) (a_files a)
  | Wait d => fire (pass a d)
  end.

Definition happens (a : app) (l : list event) : app := fold_left happen l a.
End Start.

Arguments app : clear implicits.
Arguments component : clear implicits.
Arguments started : clear implicits.
Arguments event : clear implicits.
