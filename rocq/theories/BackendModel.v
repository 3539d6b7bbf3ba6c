(** Starting an application: which carriage is wired to which websocket, and the
    direct carriages.

    Sources: ebu_tt_live/config/backend.py 11-258 (BackendBase, TwistedBackend),
    ebu_tt_live/config/carriage.py 13-46 (direct), 147-243 (websockets),
    ebu_tt_live/twisted/websocket.py 142-215, 265-343, 389-432 and 509-560 as far as
    factories are made, given their producer and consumer, and listen,
    ebu_tt_live/carriage/direct.py, ebu_tt_live/carriage/websocket.py 10-25.

    An object of the configuration is a number.  A twisted producer or consumer
    is named after the carriage it was made for.  The proxy, the parsing of urls
    and the operating system's reasons to refuse a port other than its being in
    use by this application are left out. *)

From Coq Require Import List String Bool Arith.
Import ListNotations.
Open Scope string_scope.

(** A parsed url is what geturl() gives. *)
Definition url := string.

(** carriage.py 147-243 and everything else that is started. *)
Inductive part :=
| WsOut (id : nat) (listen : option url) (connect : list url)
| WsIn (id : nat) (listen : option url) (connect : list url)
| WslOut (id : nat) (uri : url)
| WslIn (id : nat) (uri : url)
| Other (id : nat).
Definition part_id (p : part) : nat :=
  match p with WsOut i _ _ | WsIn i _ _ | WslOut i _ | WslIn i _ | Other i => i end.

(** BroadcastServerFactory and BroadcastClientFactory: the producer and the
    consumer assigned to it. *)
Record factory := mkFactory { f_url : url; f_producer : option nat; f_consumer : option nat }.

Inductive failure :=
| ConfigurationError       (* the address is used with the other protocol *)
| ValueError               (* the factory has a producer or consumer already *)
| TypeError                (* wrong arguments to a constructor *)
| MissingAttribute
| CannotListen.            (* the port is bound already *)

(** _ws_twisted_servers and _wsl_twisted_servers, both by geturl(); the client
    factories; the older client factories with their channels; the carriages
    that were told their backend producer. *)
Record world := mkWorld {
  w_servers : list (string * factory);
  w_legacy : list (string * factory);
  w_clients : list factory;
  w_legacy_clients : list (url * nat * list string);
  w_told : list nat }.
Definition nothing : world := mkWorld [] [] [] [] [].

Fixpoint find_server (l : list (string * factory)) (k : string) : option factory :=
  match l with
  | [] => None
  | (j, f) :: r => if k =? j then Some f else find_server r k
  end.
Fixpoint set_server (l : list (string * factory)) (k : string) (f : factory) : list (string * factory) :=
  match l with
  | [] => [(k, f)]
  | (j, g) :: r => if k =? j then (k, f) :: r else (j, g) :: set_server r k f
  end.

(** backend.py 104-125: both dictionaries are looked at. *)
Inductive found := Mismatch | Server (f : factory) | Free.
Definition crosscheck (w : world) (k : string) (legacy : bool) : found :=
  match find_server (w_servers w) k, find_server (w_legacy w) k with
  | Some f, o => if legacy then Mismatch else match o with Some _ => Mismatch | None => Server f end
  | None, Some f => if legacy then Server f else Mismatch
  | None, None => Free
  end.

Section Ports.

(** The TCP port in a url. *)
Variable port : url -> nat.

(** backend.py 127-136 with listen (websocket.py 336-342): listenWS binds the port
    on all interfaces; port 0 stands for any free port. *)
Definition bound (w : world) (p : nat) : bool :=
  negb (Nat.eqb p 0) && existsb (fun s => Nat.eqb (port (f_url (snd s))) p) (w_servers w ++ w_legacy w)%list.
Definition create_server (w : world) (u : url) (producer consumer : option nat) : world + failure :=
  if bound w (port u) then inr CannotListen
  else inl (mkWorld (set_server (w_servers w) u (mkFactory u producer consumer)) (w_legacy w) (w_clients w) (w_legacy_clients w) (w_told w)).

(** backend.py 138-150. *)
Definition create_clients (w : world) (us : list url) (producer consumer : option nat) : world :=
  mkWorld (w_servers w) (w_legacy w) (w_clients w ++ map (fun u => mkFactory u producer consumer) us)%list (w_legacy_clients w) (w_told w).

(** websocket.py 153-156: making a producer tells the carriage. *)
Definition tell (w : world) (id : nat) : world :=
  mkWorld (w_servers w) (w_legacy w) (w_clients w) (w_legacy_clients w) (w_told w ++ [id])%list.

Definition assign (w : world) (k : string) (f : factory) : world :=
  mkWorld (set_server (w_servers w) k f) (w_legacy w) (w_clients w) (w_legacy_clients w) (w_told w).

(** backend.py 152-193, ws_backend_producer.  The producer of the server is
    taken when there is one; assigning it again then raises (websocket.py
    273-282). *)
Definition ws_producer (w : world) (id : nat) (listen : option url) (connect : list url) : world + failure :=
  let clients w' := inl (create_clients w' connect (Some id) None) in
  match listen with
  | None => clients (tell w id)
  | Some u =>
      match crosscheck w u false with
      | Mismatch => inr ConfigurationError
      | Server f =>
          match f_producer f with
          | Some _ => inr ValueError
          | None => clients (assign (tell w id) u (mkFactory (f_url f) (Some id) (f_consumer f)))
          end
      | Free => match create_server (tell w id) u (Some id) None with
                | inl w' => clients w'
                | inr e => inr e
                end
      end
  end.

(** backend.py 195-220, ws_backend_consumer. *)
Definition ws_consumer (w : world) (id : nat) (listen : option url) (connect : list url) : world + failure :=
  let clients w' := inl (create_clients w' connect None (Some id)) in
  match listen with
  | None => clients w
  | Some u =>
      match crosscheck w u false with
      | Mismatch => inr ConfigurationError
      | Server f =>
          match f_consumer f with
          | Some _ => inr ValueError
          | None => clients (assign w u (mkFactory (f_url f) (f_producer f) (Some id)))
          end
      | Free => match create_server w u None (Some id) with
                | inl w' => clients w'
                | inr e => inr e
                end
      end
  end.

(** backend.py 222-236, wsl_backend_producer: TwistedPullProducer takes a
    consumer, which is not given (websocket.py 429); the factory has no attribute
    producer (websocket.py 509-560). *)
Definition wsl_producer (w : world) (id : nat) (u : url) : world + failure :=
  match crosscheck w u true with
  | Mismatch => inr ConfigurationError
  | Server _ => inr MissingAttribute
  | Free => inr TypeError
  end.

(** backend.py 238-253, wsl_backend_consumer, as called by carriage.py 183: without
    proxy; no channels are given. *)
Definition wsl_consumer (w : world) (id : nat) (u : url) : world + failure :=
  inl (mkWorld (w_servers w) (w_legacy w) (w_clients w) (w_legacy_clients w ++ [(u, id, [])])%list (w_told w)).

(** start() of the configurator, carriage.py 162-163, 182-183, 216-222, 237-243. *)
Definition start_part (w : world) (p : part) : world + failure :=
  match p with
  | WsOut id l c => ws_producer w id l c
  | WsIn id l c => ws_consumer w id l c
  | WslOut id u => wsl_producer w id u
  | WslIn id u => wsl_consumer w id u
  | Other _ => inl w
  end.

(** backend.py 21-33: the configurators in the order of a set, those that asked
    for it are started; an exception ends it. *)
Fixpoint start_all (w : world) (asked : list nat) (ps : list part) : world + failure :=
  match ps with
  | [] => inl w
  | p :: r =>
      if existsb (Nat.eqb (part_id p)) asked
      then match start_part w p with inl w' => start_all w' asked r | inr e => inr e end
      else start_all w asked r
  end.

End Ports.

(** carriage/websocket.py 21-23 with websocket.py 158-178: what a carriage emits
    goes to the connections of these factories; nowhere if it was not told of a
    producer. *)
Definition has_producer (id : nat) (f : factory) : bool :=
  match f_producer f with Some i => Nat.eqb i id | None => false end.
Definition reaches (w : world) (id : nat) : list factory :=
  if existsb (Nat.eqb id) (w_told w)
  then (filter (has_producer id) (map snd (w_servers w)) ++ filter (has_producer id) (w_clients w))%list
  else [].

(** websocket.py 190-208: what comes in over a factory goes to this carriage. *)
Definition received_by (f : factory) : option nat := f_consumer f.

(** ** Direct carriages *)

(** carriage.py 13-46: one carriage for each id, whichever end asks first;
    carriage/base.py 22-40, 50-72: registering a node replaces the one before. *)
Record direct := mkDirect { c_producer : option nat; c_consumer : option nat }.
Inductive end_ := DirectInput (carriage : string) (node : nat) | DirectOutput (carriage : string) (node : nat).
Fixpoint find_direct (l : list (string * direct)) (k : string) : option direct :=
  match l with
  | [] => None
  | (j, d) :: r => if k =? j then Some d else find_direct r k
  end.
Fixpoint set_direct (l : list (string * direct)) (k : string) (d : direct) : list (string * direct) :=
  match l with
  | [] => [(k, d)]
  | (j, e) :: r => if k =? j then (k, d) :: r else (j, e) :: set_direct r k d
  end.
Definition component_of (l : list (string * direct)) (k : string) : direct :=
  match find_direct l k with Some d => d | None => mkDirect None None end.
Definition configure_direct (l : list (string * direct)) (e : end_) : list (string * direct) :=
  match e with
  | DirectInput k n => set_direct l k (mkDirect (c_producer (component_of l k)) (Some n))
  | DirectOutput k n => set_direct l k (mkDirect (Some n) (c_consumer (component_of l k)))
  end.
Definition configure_all (es : list end_) : list (string * direct) := fold_left configure_direct es [].

(** carriage/direct.py 16-17: emit_data; None is AttributeError. *)
Definition direct_emit (l : list (string * direct)) (k : string) : option nat := c_consumer (component_of l k).
(** carriage/direct.py 13-14: resume_producing. *)
Definition direct_resume (l : list (string * direct)) (k : string) : option nat := c_producer (component_of l k).
