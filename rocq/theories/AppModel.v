(** Making an application from a configuration.

    Sources: ebu_tt_live/config/__init__.py 32-75, config/common.py 15-53, 84-91,
    config/backend.py 11-33, 42-102, 271-291, config/node.py 15-404, config/clocks.py,
    config/carriage.py 13-46, 51-111, 157-184, 204-281, config/adapters.py,
    node/consumer.py 82-106, node/producer.py 61-63, node/encoder.py 17-33.

    configman (third-party) reads the configuration; all that is taken from it is
    that the texts naming nodes, clocks, carriages and backends are converted by the
    functions given for them before anything is made, and that options a node does
    not have are not looked at.  The options that are not here are as they should
    be: the proxies (C69), the keys of an adapter besides its type, the folders of
    file outputs, the manifests of file inputs and the initial documents.  Whether a
    carriage fits its node is C35. *)

From Coq Require Import List Arith ZArith String Bool.
From Verif Require Import TimeModel.
Import ListNotations.
Open Scope string_scope.

(** ** Configurations *)

(** adapters.py 14-22: None is an item without type. *)
Record side := mkSide { s_carriage : string; s_adapters : list (option string); s_fits : bool }.

(** begin_output of a re-sequencer, media_time_zero of an encoder. *)
Inductive when := Now | At (t : string).

Record node_conf := mkNode {
  n_type : string; n_clock : string; n_when : when; n_in : side; n_out : side }.

(** The slots node1, node2 and so on, of which the code has seven (C41). *)
Record app_conf := mkConf { c_backend : string; c_slots : list (option node_conf) }.

Inductive exn := ConfigurationError | AttributeError | TypeError | KeyError | InvalidTime | Incompatible.

(** ** Reading *)

(** node.py 340-361. *)
Inductive kind := Consumer | Producer | ReSequencer | DeDuplicator | Encoder | BufferDelay | RetimingDelay | Distributor | Handover.
Definition get_node (t : string) : option kind :=
  if t =? "simple-consumer" then Some Consumer
  else if t =? "simple-producer" then Some Producer
  else if t =? "resequencer" then Some ReSequencer
  else if t =? "deduplicator" then Some DeDuplicator
  else if t =? "ebuttd-encoder" then Some Encoder
  else if t =? "buffer-delay" then Some BufferDelay
  else if t =? "retiming-delay" then Some RetimingDelay
  else if t =? "distributor" then Some Distributor
  else if t =? "handover" then Some Handover
  else None.

(** clocks.py 29-44. *)
Inductive clock_kind := UTC | Local | Auto.
Definition get_clock (t : string) : option clock_kind :=
  if t =? "utc" then Some UTC else if t =? "local" then Some Local else if t =? "auto" then Some Auto else None.

(** carriage.py 246-281: the same names for outputs and inputs. *)
Inductive carriage := Websocket | Legacy | Filesystem | Direct.
Definition get_carriage (t : string) : option carriage :=
  if t =? "websocket" then Some Websocket
  else if t =? "websocket-legacy" then Some Legacy
  else if t =? "filesystem" then Some Filesystem
  else if t =? "direct" then Some Direct
  else None.

(** backend.py 271-285: dict.get raises no KeyError. *)
Definition get_backend (t : string) : option string :=
  if (t =? "twisted") || (t =? "dummy") then Some t else None.

Definition has_clock (k : kind) : bool :=
  match k with Consumer | Producer | ReSequencer | Encoder => true | _ => false end.
Definition has_in (k : kind) : bool := match k with Producer => false | _ => true end.
Definition has_out (k : kind) : bool := match k with Consumer => false | _ => true end.

(** What is read for a node; for what it does not have, a value that is not used. *)
Record node := mkRead { r_kind : kind; r_clock : clock_kind; r_in : carriage; r_out : carriage; r_conf : node_conf }.

Definition if_has {A} (b : bool) (x : option A) (d : A) : option A := if b then x else Some d.

Definition read_node (c : node_conf) : option node :=
  match get_node (n_type c) with
  | None => None
  | Some k =>
      match if_has (has_clock k) (get_clock (n_clock c)) Auto,
            if_has (has_in k) (get_carriage (s_carriage (n_in c))) Direct,
            if_has (has_out k) (get_carriage (s_carriage (n_out c))) Direct with
      | Some t, Some i, Some o => Some (mkRead k t i o c)
      | _, _, _ => None
      end
  end.

Fixpoint read_slots (l : list (option node_conf)) : option (list (option node)) :=
  match l with
  | [] => Some []
  | None :: r => match read_slots r with Some x => Some (None :: x) | None => None end
  | Some c :: r => match read_node c, read_slots r with Some n, Some x => Some (Some n :: x) | _, _ => None end
  end.

(** ** Making *)

(** The configurators made for slot i (from 0). *)
Inductive part := PNode | PClock | PIn (k : carriage) | PInAdapters | POut (k : carriage) | POutAdapters.
Inductive comp := NodeList | Comp (slot : nat) (p : part).

(** What is common to a Python process: the backend (common.py 21), with what was
    registered to it, and the application (common.py 85). *)
Record proc := mkProc { p_backend : option string; p_all : list comp; p_start : list comp; p_app : option (list kind) }.
Definition fresh : proc := mkProc None [] [] None.

(** backend.py 21-22, 31-33. *)
Definition register (x : comp) (p : proc) : proc := mkProc (p_backend p) (p_all p ++ [x])%list (p_start p) (p_app p).
Definition register_start (x : comp) (p : proc) : proc := mkProc (p_backend p) (p_all p) (p_start p ++ [x])%list (p_app p).

(** adapters.py 14-22, 6-11. *)
Definition known_adapter (t : string) : bool :=
  (t =? "xml->ebutt3") || (t =? "xml->ebuttd") || (t =? "ebutt3->xml") || (t =? "ebuttd->xml").
Fixpoint parse_adapters (l : list (option string)) : option exn :=
  match l with
  | [] => None
  | None :: _ => Some KeyError
  | Some t :: r => if known_adapter t then parse_adapters r else Some TypeError
  end.

Definition adapt (s : side) : option exn :=
  match parse_adapters (s_adapters s) with
  | Some e => Some e
  | None => if s_fits s then None else Some Incompatible
  end.

(** node.py 57-67, carriage.py 18-24, 100-108, 177-180, 230-235. *)
Definition make_in (i : nat) (n : node) (p : proc) : proc * option exn :=
  let p1 := register_start (Comp i (PIn (r_in n))) (register (Comp i (PIn (r_in n))) p) in
  (register (Comp i PInAdapters) p1, adapt (n_in (r_conf n))).

(** node.py 32-42, carriage.py 18-24, 79-86, 157-160, 209-214: a file output does not
    ask to be started. *)
Definition make_out (i : nat) (n : node) (p : proc) : proc * option exn :=
  let p0 := register (Comp i (POut (r_out n))) p in
  let p1 := match r_out n with Filesystem => p0 | _ => register_start (Comp i (POut (r_out n))) p0 end in
  (register (Comp i POutAdapters) p1, adapt (n_out (r_conf n))).

(** The constructors, node.py 79-85, 117-136, 210-234, 262-272 and the others;
    DummyClock has no clock. *)
Definition component (n : node) : option exn :=
  match r_kind n with
  | ReSequencer =>
      match n_when (r_conf n) with
      | At t => match clock_td true t with
                | None => Some InvalidTime
                | Some _ => match r_clock n with Auto => Some AttributeError | _ => None end
                end
      | Now => match r_clock n with Auto => Some AttributeError | _ => None end   (* consumer.py 91 *)
      end
  | Encoder =>
      match n_when (r_conf n) with
      | At t => match clock_td true t with None => Some InvalidTime | Some _ => None end
      | Now => match r_clock n with Auto => Some AttributeError | _ => None end
      end
  | _ => None
  end.

(** node.py 147, 245, 314. *)
Definition starts (k : kind) : bool := match k with ReSequencer | Producer | Handover => true | _ => false end.

Definition make_node (i : nat) (n : node) (p : proc) : proc * option exn :=
  let k := r_kind n in
  let p1 := register (Comp i PNode) p in
  let p2 := if has_clock k then register (Comp i PClock) p1 else p1 in
  match component n with
  | Some e => (p2, Some e)
  | None =>
      let '(p3, e3) := if has_in k then make_in i n p2 else (p2, None) in
      match e3 with
      | Some e => (p3, Some e)
      | None =>
          let '(p4, e4) := if has_out k then make_out i n p3 else (p3, None) in
          match e4 with
          | Some e => (p4, Some e)
          | None => (if starts k then register_start (Comp i PNode) p4 else p4, None)
          end
      end
  end.

(** node.py 381-398. *)
Fixpoint make_nodes (i : nat) (l : list (option node)) (p : proc) : proc * option exn :=
  match l with
  | [] => (p, None)
  | None :: r => make_nodes (S i) r p
  | Some n :: r =>
      match make_node i n p with
      | (p1, Some e) => (p1, Some e)
      | (p1, None) => make_nodes (S i) r p1
      end
  end.

Fixpoint kinds (l : list (option node)) : list kind :=
  match l with [] => [] | None :: r => kinds r | Some n :: r => r_kind n :: kinds r end.

(** __init__.py 32-66, common.py 23-38, backend.py 16-19. *)
Definition create_app (p : proc) (c : app_conf) : proc * option exn :=
  match read_slots (c_slots c) with
  | None => (p, Some ConfigurationError)
  | Some l =>
      match get_backend (c_backend c) with
      | None => (p, Some AttributeError)             (* None has no configure_component *)
      | Some b =>
          match p_backend p with
          | Some _ => (p, Some ConfigurationError)
          | None =>
              match make_nodes 0 l (mkProc (Some b) [NodeList] [] (p_app p)) with
              | (p1, Some e) => (p1, Some e)
              | (p1, None) => (mkProc (p_backend p1) (p_all p1) (p_start p1) (Some (kinds l)), None)
              end
          end
      end
  end.

(** ** Starting *)

Definition part_eqb (a b : part) : bool :=
  match a, b with
  | PNode, PNode | PClock, PClock | PInAdapters, PInAdapters | POutAdapters, POutAdapters => true
  | PIn j, PIn k | POut j, POut k =>
      match j, k with
      | Websocket, Websocket | Legacy, Legacy | Filesystem, Filesystem | Direct, Direct => true
      | _, _ => false
      end
  | _, _ => false
  end.
Definition comp_eqb (a b : comp) : bool :=
  match a, b with
  | NodeList, NodeList => true
  | Comp i p, Comp j q => Nat.eqb i j && part_eqb p q
  | _, _ => false
  end.

(** backend.py 24-29: the set of all configurators in some order. *)
Definition started (p : proc) (order : list comp) : list comp :=
  filter (fun x => existsb (comp_eqb x) (p_start p)) order.

(** The dummy backend has no ws_backend_producer and the like (backend.py 42-66):
    AttributeError at the first websocket carriage; what was started until then. *)
Definition socket (x : comp) : bool :=
  match x with Comp _ (PIn Websocket) | Comp _ (PIn Legacy) | Comp _ (POut Websocket) | Comp _ (POut Legacy) => true | _ => false end.
Fixpoint dummy_start (l : list comp) : list comp * option exn :=
  match l with
  | [] => ([], None)
  | x :: r => if socket x then ([], Some AttributeError) else let '(a, e) := dummy_start r in (x :: a, e)
  end.

(** ** The producer at work *)

(** producer.py 61-63: the time is asked for first; true when a document was emitted. *)
Definition produce (c : clock_kind) (n : nat) (_ : unit) : nat * bool :=
  match c with Auto => (n, false) | _ => (S n, true) end.
