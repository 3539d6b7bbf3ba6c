(** What the attributes of the tt element should be, and when a consumer should
    have nothing against a document. *)

From Coq Require Import List ZArith String Bool.
From Verif Require Import SequenceModel NodeModel NodeSpec HeadModel.
Import ListNotations.
Open Scope string_scope.
Open Scope Z_scope.

(** EBU-TT Part 3: on time base smpte frame rate, drop mode and marker mode are
    required, on the others the two modes are forbidden; a clock mode is there
    exactly on time base clock. *)
Definition proper (k : head) : Prop :=
  (k_tb k = "smpte" -> r_frame (k_rest k) <> None /\ r_drop (k_rest k) <> None /\ r_marker (k_rest k) <> None) /\
  (k_tb k <> "smpte" -> r_drop (k_rest k) = None /\ r_marker (k_rest k) = None) /\
  (k_tb k = "clock" <-> k_cm k <> None).

(** The values the schema allows. *)
Definition legal (k : head) : Prop :=
  In (k_tb k) ["smpte"; "media"; "clock"] /\
  (forall c, k_cm k = Some c -> In c ["local"; "utc"; "gps"]) /\
  k_sid k <> "" /\ 0 < k_num k /\ k_agid k <> Some "".

Definition good (k : head) : Prop := legal k /\ proper k.

(** There is a clock for the document: any time base, but not clock mode gps. *)
Definition clocked (d : document) : Prop := clock_of (d_tb d) (d_cm d) <> None.

(** [d] is a document with the attributes [k], whatever its content. *)
Definition with_head (k : head) (d : document) : Prop :=
  d_sid d = k_sid k /\ d_num d = k_num k /\ d_tb d = k_tb k /\ d_cm d = k_cm k /\ d_agid d = k_agid k.

(** Any two documents have the same sequence identifier, the same clock and,
    where both name one, the same authors group. *)
Definition one_sequence (ds : list document) : Prop :=
  (forall x, In x ds -> clocked x) /\
  (forall x y, In x ds -> In y ds ->
     d_sid x = d_sid y /\ same_clock x y = true /\
     (forall a b, d_agid x = Some a -> d_agid y = Some b -> a = b)).

(** The consumer turns the document away for its attributes: another sequence,
    another clock, another authors group, or no clock at all. *)
Definition turned_away (r : rreaction) : Prop :=
  r = RRaiseSequence \/ r = RAttribute \/ r = RRaise EIncompatible \/ r = RRaise EAuthorsGroup.

(** A consumer is fed documents one after the other. *)
Definition fed (start : Z) (ds : list document) : list rreaction :=
  snd (run consume (r0 start) ds).

(** The attributes of what a re-sequencer sends. *)
Fixpoint heads (l : list sreaction) : list head :=
  match l with
  | [] => []
  | SSend _ k :: r => k :: heads r
  | _ :: r => heads r
  end.

Fixpoint sdocs (l : list sinput) : list document :=
  match l with
  | [] => []
  | SDoc d :: r => d :: sdocs r
  | STick _ _ :: r => sdocs r
  end.

(** The attributes of what a handover node sends. *)
Definition handed_heads {M} (more : document -> rest) (l : list (hreaction M)) : list head :=
  map (fun e => let '(n, o, s, x) := e in handed more n o s (h_doc x)) (emitted l).

(** The documents a re-sequencer may be told of: attributes valid for
    themselves. *)
Definition all_good (more : document -> rest) (ds : list document) : Prop :=
  forall d, In d ds -> good (head_of more d).
