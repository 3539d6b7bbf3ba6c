(** For C73. *)

From Coq Require Import List Arith String Bool.
From Verif Require Import TimeModel AppModel.
Import ListNotations.
Open Scope string_scope.

Definition node_names := ["simple-consumer"; "simple-producer"; "resequencer"; "deduplicator"; "ebuttd-encoder";
  "buffer-delay"; "retiming-delay"; "distributor"; "handover"].
Definition clock_names := ["auto"; "local"; "utc"].
Definition carriage_names := ["direct"; "filesystem"; "websocket"; "websocket-legacy"].
Definition backend_names := ["twisted"; "dummy"].
Definition adapter_names := ["xml->ebutt3"; "xml->ebuttd"; "ebutt3->xml"; "ebuttd->xml"].

Definition with_clock := ["simple-consumer"; "simple-producer"; "resequencer"; "ebuttd-encoder"].

(** Every name of a node, a clock and a carriage is known. *)
Definition names_known (c : node_conf) : Prop :=
  In (n_type c) node_names /\
  (In (n_type c) with_clock -> In (n_clock c) clock_names) /\
  (n_type c <> "simple-producer" -> In (s_carriage (n_in c)) carriage_names) /\
  (n_type c <> "simple-consumer" -> In (s_carriage (n_out c)) carriage_names).

Definition side_ok (s : side) : Prop :=
  (forall a, In a (s_adapters s) -> exists t, a = Some t /\ In t adapter_names) /\ s_fits s = true.

(** It can do without a clock, or there is one; its time is one. *)
Definition can_be_made (c : node_conf) : Prop :=
  (n_type c = "resequencer" -> n_clock c <> "auto" /\ forall t, n_when c = At t -> clock_td true t <> None) /\
  (n_type c = "ebuttd-encoder" ->
     (n_when c = Now -> n_clock c <> "auto") /\ forall t, n_when c = At t -> clock_td true t <> None) /\
  (n_type c <> "simple-producer" -> side_ok (n_in c)) /\
  (n_type c <> "simple-consumer" -> side_ok (n_out c)).

Definition all_known (c : app_conf) : Prop := forall n, In (Some n) (c_slots c) -> names_known n.
Definition all_made (c : app_conf) : Prop := forall n, In (Some n) (c_slots c) -> can_be_made n.

(** What an application starts, by the texts of its configuration: the node of these
    types, its input, and its output unless it is to files. *)
Definition carriage_named (t : string) : carriage :=
  if t =? "websocket" then Websocket else if t =? "websocket-legacy" then Legacy
  else if t =? "filesystem" then Filesystem else Direct.
Definition one_starts (i : nat) (c : node_conf) (x : comp) : Prop :=
  (x = Comp i PNode /\ In (n_type c) ["simple-producer"; "resequencer"; "handover"]) \/
  (x = Comp i (PIn (carriage_named (s_carriage (n_in c)))) /\ n_type c <> "simple-producer") \/
  (x = Comp i (POut (carriage_named (s_carriage (n_out c)))) /\ n_type c <> "simple-consumer" /\ s_carriage (n_out c) <> "filesystem").
Definition is_started (c : app_conf) (x : comp) : Prop :=
  exists i n, nth_error (c_slots c) i = Some (Some n) /\ one_starts i n x.

(** A node with a websocket carriage. *)
Definition uses_websocket (c : node_conf) : Prop :=
  (n_type c <> "simple-producer" /\ In (s_carriage (n_in c)) ["websocket"; "websocket-legacy"]) \/
  (n_type c <> "simple-consumer" /\ In (s_carriage (n_out c)) ["websocket"; "websocket-legacy"]).

(** Several attempts in one process. *)
Fixpoint attempts (p : proc) (l : list app_conf) : list (option exn) :=
  match l with
  | [] => []
  | c :: r => let '(p1, e) := create_app p c in e :: attempts p1 r
  end.
Definition process_after (l : list app_conf) : proc := fold_left (fun p c => fst (create_app p c)) l fresh.

(** What may be wrong with a node when an exception is raised. *)
Definition used (c : node_conf) (s : side) : Prop :=
  (s = n_in c /\ n_type c <> "simple-producer") \/ (s = n_out c /\ n_type c <> "simple-consumer").
Definition reason (e : exn) (c : node_conf) : Prop :=
  match e with
  | ConfigurationError => ~ names_known c
  | AttributeError => In (n_type c) ["resequencer"; "ebuttd-encoder"] /\ n_clock c = "auto"
  | InvalidTime => In (n_type c) ["resequencer"; "ebuttd-encoder"] /\ exists t, n_when c = At t /\ clock_td true t = None
  | TypeError => exists s t, used c s /\ In (Some t) (s_adapters s) /\ ~ In t adapter_names
  | KeyError => exists s, used c s /\ In None (s_adapters s)
  | Incompatible => exists s, used c s /\ s_fits s = false
  end.
