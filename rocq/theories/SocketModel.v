(** The websocket carriage: who receives what.

    Source: ebu_tt_live/twisted/websocket.py 76-414 (the protocol with
    publish and subscribe paths) and 423-619 (the older one with channels).

    Autobahn and Twisted are modelled by what they guarantee: a protocol object
    serves one connection; onOpen comes at most once, messages come while the
    connection is open and has not been dropped by this side, connectionLost
    comes at most once and last; sendMessage on a connection that was dropped
    does nothing (autobahn 17.10.1, as pinned in requirements.txt).  A callback
    runs to its end before the next one.  Events against these rules have no
    effect in the model.  URL parsing is not modelled here: a path is the list of its
    decoded segments (for those of a page see AddressModel). *)

From Coq Require Import List String Bool Arith.
Import ListNotations.
Open Scope string_scope.

Inductive action : Type := Publish | Subscribe.
Definition action_eqb (a b : action) : bool :=
  match a, b with Publish, Publish | Subscribe, Subscribe => true | _, _ => false end.

(** BroadcastServerProtocol/Factory or BroadcastClientProtocol/Factory. *)
Inductive role : Type := Server | Client.

(** What the connections do that the producer sends to: 244-258 and 368-382. *)
Definition sending (r : role) : action := match r with Server => Subscribe | Client => Publish end.

(** A connection to the outside. *)
Inductive phase : Type := Open | Dropped | Gone.
Record conn : Type := mkConn {
  n_phase : phase;
  n_sid : option string;
  n_action : option action;
  n_consumer : bool }.       (* self.consumer is not None *)

(** What happens. [m_raises]: the consumer raises UnexpectedSequenceIdentifierError. *)
Inductive event : Type :=
| EOpen (k : nat) (path : list string)
| ELost (k : nat)
| EMessage (k : nat) (payload : string) (m_raises : bool)
| EEmit (sid payload : string)              (* emit_data without delay *)
| EEmitLater (sid payload : string)         (* emit_data with a delay *)
| EFire (i : nat).                          (* the delay of the i-th of them is over *)

(** What comes of it. *)
Inductive effect : Type :=
| Sent (k : nat) (payload : string)
| Written (sid : option string) (payload : string)   (* on_new_data of the carriage *)
| AttributeError (k : nat)
| ValueError (k : nat).

(** The factory; [s_conns] holds the protocol objects seen so far, [s_regs] is
    _connections of the producer, [s_later] the delayed calls, None once run. *)
Record state : Type := mkState {
  s_conns : list (nat * conn);
  s_regs : list nat;
  s_later : list (option (string * string)) }.

Definition start : state := mkState [] [] [].

Fixpoint get (l : list (nat * conn)) (k : nat) : option conn :=
  match l with
  | [] => None
  | (j, c) :: r => if Nat.eqb k j then Some c else get r k
  end.
Definition put (l : list (nat * conn)) (k : nat) (c : conn) : list (nat * conn) := (k, c) :: l.

(** 101-106 and 130-138 within onOpen (219-230, 347-355): the tuple is assigned
    from the left, so a wrong action leaves the sequence identifier set. *)
Definition parse_action (a : string) : option action :=
  if a =? "publish" then Some Publish else if a =? "subscribe" then Some Subscribe else None.
Definition parse_path (path : list string) : option string * option action :=
  match path with
  | [s; a] => (Some s, parse_action a)
  | _ => (None, None)
  end.

(** What a factory was made with. *)
Record config : Type := mkConfig { f_role : role; f_producer : bool; f_consumer : bool }.

(** 232 and 357 with 312-325 and 396-408: the factory registers the connection,
    or drops it; after an unreadable path it is dropped already. *)
Definition on_open (f : config) (s : state) (k : nat) (path : list string) : state :=
  let '(sid, act) := parse_path path in
  match act with
  | None => mkState (put (s_conns s) k (mkConn Dropped sid None false)) (s_regs s) (s_later s)
  | Some a =>
      if action_eqb a (sending (f_role f)) then
        if f_producer f
        then mkState (put (s_conns s) k (mkConn Open sid act false)) (s_regs s ++ [k])%list (s_later s)
        else mkState (put (s_conns s) k (mkConn Dropped sid act false)) (s_regs s) (s_later s)
      else
        if f_consumer f
        then mkState (put (s_conns s) k (mkConn Open sid act true)) (s_regs s) (s_later s)
        else mkState (put (s_conns s) k (mkConn Dropped sid act false)) (s_regs s) (s_later s)
  end.

(** list.remove: the first occurrence, None is ValueError. *)
Fixpoint remove_first (l : list nat) (k : nat) : option (list nat) :=
  match l with
  | [] => None
  | j :: r => if Nat.eqb k j then Some r
              else match remove_first r k with Some r' => Some (j :: r') | None => None end
  end.

(** 260-262 and 384-386 with 327-331 and 410-414: the server factory asks its
    producer or consumer without looking whether there is one. *)
Definition on_lost (f : config) (s : state) (k : nat) (c : conn) : state * list effect :=
  let gone b := put (s_conns s) k (mkConn Gone (n_sid c) (n_action c) b) in
  match n_action c with
  | None => (mkState (gone (n_consumer c)) (s_regs s) (s_later s), [])
  | Some a =>
      if action_eqb a (sending (f_role f)) then
        if f_producer f then
          match remove_first (s_regs s) k with
          | Some r => (mkState (gone (n_consumer c)) r (s_later s), [])
          | None => (mkState (gone (n_consumer c)) (s_regs s) (s_later s), [ValueError k])
          end
        else (mkState (gone (n_consumer c)) (s_regs s) (s_later s),
              match f_role f with Server => [AttributeError k] | Client => [] end)
      else
        if f_consumer f then (mkState (gone false) (s_regs s) (s_later s), [])
        else (mkState (gone (n_consumer c)) (s_regs s) (s_later s),
              match f_role f with Server => [AttributeError k] | Client => [] end)
  end.

(** 234-242 and 359-366, with 108-111: a message on a connection the other way
    round makes the server drop it; the client goes on. *)
Definition on_message (f : config) (s : state) (k : nat) (c : conn) (payload : string) (raises : bool)
  : state * list effect :=
  let drop := mkState (put (s_conns s) k (mkConn Dropped (n_sid c) (n_action c) (n_consumer c))) (s_regs s) (s_later s) in
  let receiving := match n_action c with
                   | Some a => negb (action_eqb a (sending (f_role f)))
                   | None => false
                   end in
  if receiving then
    if n_consumer c
    then (if raises then drop else s, [Written (n_sid c) payload])
    else (s, [AttributeError k])
  else (match f_role f with Server => drop | Client => s end, []).

(** 172-178 with 113-124 and 244-258, 368-382: to each registered connection in
    turn; one with the wrong action would be dropped. *)
Fixpoint do_write (f : config) (conns : list (nat * conn)) (regs : list nat) (sid payload : string)
  : list (nat * conn) * list effect :=
  match regs with
  | [] => (conns, [])
  | k :: r =>
      match get conns k with
      | None => do_write f conns r sid payload
      | Some c =>
          let sends := match n_action c with Some a => action_eqb a (sending (f_role f)) | None => false end in
          if sends then
            let '(conns', e) := do_write f conns r sid payload in
            match n_phase c, n_sid c with
            | Open, Some t => (conns', if sid =? t then Sent k payload :: e else e)
            | _, _ => (conns', e)
            end
          else do_write f (put conns k (mkConn Dropped (n_sid c) (n_action c) (n_consumer c))) r sid payload
      end
  end.

Fixpoint set_none {A} (l : list (option A)) (i : nat) : list (option A) :=
  match l, i with
  | [], _ => []
  | _ :: r, O => None :: r
  | x :: r, S j => x :: set_none r j
  end.

(** One event; 158-164 for the emitting ones. *)
Definition step (f : config) (s : state) (e : event) : state * list effect :=
  match e with
  | EOpen k path => match get (s_conns s) k with
                    | None => (on_open f s k path, [])
                    | Some _ => (s, [])
                    end
  | ELost k => match get (s_conns s) k with
               | Some c => match n_phase c with Gone => (s, []) | _ => on_lost f s k c end
               | None => (s, [])
               end
  | EMessage k p raises => match get (s_conns s) k with
                           | Some c => match n_phase c with Open => on_message f s k c p raises | _ => (s, []) end
                           | None => (s, [])
                           end
  | EEmit sid p =>
      if f_producer f then
        let '(conns, out) := do_write f (s_conns s) (s_regs s) sid p in (mkState conns (s_regs s) (s_later s), out)
      else (s, [])
  | EEmitLater sid p =>
      if f_producer f then (mkState (s_conns s) (s_regs s) (s_later s ++ [Some (sid, p)])%list, []) else (s, [])
  | EFire i =>
      match nth_error (s_later s) i with
      | Some (Some (sid, p)) =>
          let '(conns, out) := do_write f (s_conns s) (s_regs s) sid p in
          (mkState conns (s_regs s) (set_none (s_later s) i), out)
      | _ => (s, [])
      end
  end.

Fixpoint runs (f : config) (s : state) (l : list event) : state * list effect :=
  match l with
  | [] => (s, [])
  | e :: r => let '(s1, o1) := step f s e in
              let '(s2, o2) := runs f s1 r in (s2, o1 ++ o2)%list
  end.

(** ** The older protocol, 423-619 *)

(** A client message may ask for a channel, give one up, or both; anything else
    is ignored. *)
Inductive levent : Type :=
| LOpen (k : nat)
| LLost (k : nat)
| LMessage (k : nat) (subscribe unsubscribe : option string)
| LBroadcast (channel payload : string).

Record lclient : Type := mkLclient { l_id : nat; l_channels : list string }.

(** 478-489: a set; removing a channel that is not there raises KeyError,
    which is swallowed. *)
Definition set_add (l : list string) (c : string) : list string :=
  if existsb (String.eqb c) l then l else (l ++ [c])%list.
Definition set_remove (l : list string) (c : string) : list string := filter (fun d => negb (c =? d)) l.
Definition l_message (chs : list string) (sub unsub : option string) : list string :=
  let chs := match sub with Some c => set_add chs c | None => chs end in
  match unsub with Some c => set_remove chs c | None => chs end.

(** 474-476, 491-493 with 529-537; 495-505 with 543-547.  The state is _clients. *)
Definition lstep (s : list lclient) (e : levent) : list lclient * list (nat * string) :=
  match e with
  | LOpen k => if existsb (fun c => Nat.eqb k (l_id c)) s then (s, []) else ((s ++ [mkLclient k []])%list, [])
  | LLost k => (filter (fun c => negb (Nat.eqb k (l_id c))) s, [])
  | LMessage k sub unsub =>
      (map (fun c => if Nat.eqb k (l_id c) then mkLclient k (l_message (l_channels c) sub unsub) else c) s, [])
  | LBroadcast ch p =>
      (s, flat_map (fun c => if existsb (String.eqb ch) (l_channels c) then [(l_id c, p)] else []) s)
  end.

Fixpoint lruns (s : list lclient) (l : list levent) : list lclient * list (nat * string) :=
  match l with
  | [] => (s, [])
  | e :: r => let '(s1, o1) := lstep s e in
              let '(s2, o2) := lruns s1 r in (s2, o1 ++ o2)%list
  end.
