(** The processing nodes: what they do with the documents and messages that
    arrive, one call of process_document at a time.

    Source: ebu_tt_live/node/*.py.  A call either emits something, or does
    nothing, or raises; in each case the state after it is part of the model,
    because a node keeps living after an exception. *)

From Coq Require Import List ZArith String Bool.
From Verif Require Import RingModel SequenceModel.
Import ListNotations.
Open Scope string_scope.
Open Scope Z_scope.

(** ** Memory of seen documents, node/base.py 99-113 *)

(** The dictionary _seen_docs. *)
Definition seen : Type := list (string * ring Z).

Fixpoint dict_get {V} (m : list (string * V)) (k : string) : option V :=
  match m with
  | [] => None
  | (k', v) :: r => if String.eqb k k' then Some v else dict_get r k
  end.

Fixpoint dict_put {V} (m : list (string * V)) (k : string) (v : V) : list (string * V) :=
  match m with
  | [] => [(k, v)]
  | (k', v') :: r => if String.eqb k k' then (k', v) :: r else (k', v') :: dict_put r k v
  end.

(** check_if_document_seen for a document (whose identifier and number are
    mandatory attributes, so line 105 does not raise). *)
Definition check_seen (m : seen) (sid : string) (num : Z) : seen * bool :=
  let hit := match dict_get m sid with
             | Some r => existsb (Z.eqb num) (r_items r)
             | None => false
             end in
  if hit then (m, false)
  else
    let r := match dict_get m sid with
             | Some r => r
             | None => ring_new [] (Some 100%nat) false
             end in
    match ring_append r num with
    | RAppended r' _ => (dict_put m sid r', true)
    | RIndexError => (dict_put m sid r, true)
    end.

(** ** limit_sequence_to_one, node/base.py 89-97 *)

(** The attribute _first_input_document_sequence after the call and whether the
    call returned (false: UnexpectedSequenceIdentifierError). *)
Definition limit_one (first : option string) (sid : string) : option string * bool :=
  match first with
  | None => (Some sid, true)
  | Some f => (Some f, String.eqb f sid)
  end.

(** ** Nodes with one input sequence that rewrite documents *)

(** A document as such a node sees it, and a live message; [P] is whatever else
    there is in a document. *)
Record pdoc (P : Type) : Type := mkPdoc { p_sid : string; p_num : Z; p_body : P }.
Arguments mkPdoc {P} p_sid p_num p_body.
Arguments p_sid {P} p.
Arguments p_num {P} p.
Arguments p_body {P} p.

Inductive input (P M : Type) : Type := IDoc (d : pdoc P) | IMsg (m : M).
Arguments IDoc {P M} d.
Arguments IMsg {P M} m.

Inductive reaction (P M : Type) : Type :=
| Emit (d : pdoc P)
| EmitMsg (m : M)
| Ignore
| RaiseSequence      (* UnexpectedSequenceIdentifierError *)
| RaiseOther.        (* whatever the rewriting raised *)
Arguments Emit {P M} d.
Arguments EmitMsg {P M} m.
Arguments Ignore {P M}.
Arguments RaiseSequence {P M}.
Arguments RaiseOther {P M}.

Record tstate : Type := mkT { t_seen : seen; t_first : option string }.
Definition t0 : tstate := mkT [] None.

(** RetimingDelayNode.process_document (delay.py 33-79, [messages] = true) and
    DeDuplicatorNode.process_document (deduplicator.py 34-48, [messages] =
    false: a message falls through the if).  [out] is the configured output
    sequence, [rewrite] the work on the document, None when it raises. *)
Definition rewriting_step {P M} (out : string) (messages : bool) (rewrite : P -> option P)
    (s : tstate) (i : input P M) : tstate * reaction P M :=
  match i with
  | IMsg m => (s, if messages then EmitMsg m else Ignore)
  | IDoc d =>
      if String.eqb (p_sid d) out then (s, RaiseSequence)
      else
        let '(m, new) := check_seen (t_seen s) (p_sid d) (p_num d) in
        if negb new then (mkT m (t_first s), Ignore)
        else
          let '(f, fine) := limit_one (t_first s) (p_sid d) in
          if negb fine then (mkT m f, RaiseSequence)
          else match rewrite (p_body d) with
               | Some b => (mkT m f, Emit (mkPdoc out (p_num d) b))
               | None => (mkT m f, RaiseOther)
               end
  end.

(** EBUTTDEncoder.process_document, encoder.py 35-48: no memory of seen
    documents; the output goes under the identifier "default"; messages fall
    through. *)
Definition encoding_step {P Q M} (convert : P -> option Q) (s : option string) (i : input P M)
  : option string * reaction Q M :=
  match i with
  | IMsg m => (s, Ignore)
  | IDoc d =>
      let '(f, fine) := limit_one s (p_sid d) in
      if negb fine then (f, RaiseSequence)
      else match convert (p_body d) with
           | Some b => (f, Emit (mkPdoc "default" (p_num d) b))
           | None => (f, RaiseOther)
           end
  end.

(** A run: the reactions to a list of inputs. *)
Fixpoint run {S I O} (step : S -> I -> S * O) (s : S) (l : list I) : S * list O :=
  match l with
  | [] => (s, [])
  | i :: r => let '(s1, o) := step s i in
              let '(s2, os) := run step s1 r in
              (s2, o :: os)
  end.

(** ** DistributingNode, distributing.py 23-56, and BufferDelayNode, delay.py
    96-98 *)

(** A document arriving there: [x_raw] is the keyword raw_xml, [x_xml] what
    get_xml would give; then time base, availability time and clock mode. *)
Record xdoc : Type := mkXdoc {
  x_sid : string; x_num : Z; x_raw : option string; x_xml : string;
  x_tb : string; x_avail : option Z; x_cm : option string }.
Record xmsg : Type := mkXmsg { xm_sid : string; xm_avail : option Z; xm_xml : string }.
Inductive xinput : Type := XDoc (d : xdoc) | XMsg (m : xmsg).

(** What is handed to the producer carriage: the data and the keyword
    arguments set by the node. *)
Record emission : Type := mkEmission {
  e_data : string; e_sid : string; e_num : option Z; e_tb : option string;
  e_avail : option Z; e_cm : option string }.

Definition distribute_step (m : seen) (i : xinput) : seen * list emission :=
  match i with
  | XDoc d =>
      let '(m', new) := check_seen m (x_sid d) (x_num d) in
      (m', if new then
             [mkEmission (match x_raw d with Some r => r | None => x_xml d end)
                         (x_sid d) (Some (x_num d)) (Some (x_tb d)) (x_avail d) (x_cm d)]
           else [])
  | XMsg g => (m, [mkEmission (xm_xml g) (xm_sid g) None None (xm_avail g) None])
  end.

(** The buffer delay node hands on the text with the delay. *)
Definition buffer_step (delay : Z) (s : unit) (text : string) : unit * list (string * Z) :=
  (s, [(text, delay)]).

(** ** HandoverNode, handover.py 35-97 *)

(** A document of an author: the part the sequence code looks at (sequence
    model) and the control token. *)
Record hdoc : Type := mkHdoc { h_doc : document; h_token : option Z }.
Inductive hinput (M : Type) : Type := HDoc (d : hdoc) | HMsg (m : M).
Arguments HDoc {M} d.
Arguments HMsg {M} m.

(** get_clock, clocks/__init__.py 10-22: time base and clock mode of the clock
    made for a document; None when there is no clock (clock mode gps, unknown
    time base). *)
Definition clock_of (tb : string) (cm : option string) : option (string * option string) :=
  if String.eqb tb "clock" then
    match cm with
    | Some c => if String.eqb c "local" then Some ("clock", Some "local")
                else if String.eqb c "utc" then Some ("clock", Some "utc") else None
    | None => None
    end
  else if String.eqb tb "media" then Some ("media", None)
  else if String.eqb tb "smpte" then Some ("smpte", None)
  else None.

(** create_from_document, ebutt3.py 625-639; None: its clock is None. *)
Definition sequence_of (d : document) : option seqstate :=
  match clock_of (d_tb d) (d_cm d) with
  | Some (tb, cm) => Some (new_sequence (d_sid d) tb cm (d_agid d))
  | None => None
  end.

(** What the node emits: the number and identifier it assigns, the sequence it
    records as selected, the document it came from; or a message, to which it
    assigns the identifier. *)
Inductive hreaction (M : Type) : Type :=
| HEmit (num : Z) (sid selected : string) (d : hdoc)
| HEmitMsg (sid : string) (m : M)
| HIgnore
| HRaise (e : error)
| HAttribute.        (* AttributeError: the clock is None *)
Arguments HEmit {M} num sid selected d.
Arguments HEmitMsg {M} sid m.
Arguments HIgnore {M}.
Arguments HRaise {M} e.
Arguments HAttribute {M}.

Record hstate : Type := mkH {
  hs_seen : seen;
  hs_known : list (string * option seqstate);
  hs_token : option Z;
  hs_selected : option string;
  hs_last : Z }.
Definition h0 : hstate := mkH [] [] None None 0.

(** [out] and [group]: the configured sequence_identifier and
    authors_group_identifier. *)
Definition handover_step {M} (out : string) (group : option string) (s : hstate) (i : hinput M)
  : hstate * hreaction M :=
  match i with
  | HMsg m => (s, HEmitMsg out m)
  | HDoc x =>
      let d := h_doc x in
      let q := match dict_get (hs_known s) (d_sid d) with
               | Some q => q
               | None => sequence_of d
               end in
      let keep q := mkH (hs_seen s) (dict_put (hs_known s) (d_sid d) q)
                        (hs_token s) (hs_selected s) (hs_last s) in
      match q with
      | None => (keep None, HAttribute)
      | Some q0 =>
          match check_compat q0 d with
          | (q1, Err e) => (keep (Some q1), HRaise e)
          | (q1, Ok _) =>
              let '(m, new) := check_seen (hs_seen s) (d_sid d) (d_num d) in
              let known := dict_put (hs_known s) (d_sid d) (Some q1) in
              let idle := (mkH m known (hs_token s) (hs_selected s) (hs_last s), HIgnore) in
              let emit sel t :=
                (mkH m known (Some t) sel (hs_last s + 1),
                 HEmit (hs_last s + 1) out (d_sid d) x) in
              if new && ostr_eqb (d_agid d) group then
                match h_token x with
                | None => idle
                | Some t =>
                    let higher := match hs_token s with
                                  | None => true
                                  | Some c => c <? t
                                  end in
                    if higher then emit (Some (d_sid d)) t
                    else if ostr_eqb (hs_selected s) (Some (d_sid d)) then emit (hs_selected s) t
                    else idle
                end
              else idle
          end
      end
  end.

(** ** SimpleConsumer and ReSequencer, consumer.py *)

(** The node's sequence (None inside: its clock is None), the first sequence
    identifier, the end of the last segment, the segment counter. *)
Record rstate : Type := mkR {
  rs_seq : option (option seqstate);
  rs_first : option string;
  rs_end : Z;
  rs_counter : Z }.

(** Documents arrive with their computed times: an availability time is set
    from the clock before they are added (consumer.py 39-40), which is part of
    what the timing model computes. *)
Inductive rinput : Type :=
| RDoc (d : document)
| RTick (built : bool).
  (* convert_next_segment; [built]: whether splicing the extracted pieces
     together went through without an exception *)

(** A segment handed to the producer carriage: number, identifier, window and
    the pieces asked for (sequence model). *)
Record segment : Type := mkSegment {
  sg_num : Z; sg_sid : string; sg_begin : Z; sg_end : Z;
  sg_windows : list (document * option Z * option Z) }.

Inductive rreaction : Type :=
| RNothing
| RSegment (g : segment)
| RRaiseSequence
| RRaise (e : error)
| RRaiseSplice
| RAttribute.

Definition r0 (start : Z) : rstate := mkR None None start 1.

(** consumer.py 29-55 with the overridden process_document 120-127. *)
Definition consume (s : rstate) (d : document) : rstate * rreaction :=
  let '(f, fine) := limit_one (rs_first s) (d_sid d) in
  if negb fine then (mkR (rs_seq s) f (rs_end s) (rs_counter s), RRaiseSequence)
  else
    let q := match rs_seq s with Some q => q | None => sequence_of d end in
    match q with
    | None => (mkR (Some None) f (rs_end s) (rs_counter s), RAttribute)
    | Some q0 =>
        let '(q1, o) := add_document q0 d in
        (mkR (Some (Some q1)) f (rs_end s) (rs_counter s),
         match o with
         | OError ECollision => RNothing      (* line 50 *)
         | OError e => RRaise e
         | _ => RNothing
         end)
    end.

(** convert_next_segment and get_segment, consumer.py 129-151. *)
Definition tick (out : string) (len : Z) (discard built : bool) (s : rstate) : rstate * rreaction :=
  match rs_seq s with
  | None => (s, RNothing)
  | Some None => (s, RAttribute)   (* create_compatible_document needs the clock *)
  | Some (Some q) =>
      let e := rs_end s + len in
      match seq_extract q (Some (rs_end s)) (Some e) (discard && built) with
      | (q', Err x) => (mkR (Some (Some q')) (rs_first s) (rs_end s) (rs_counter s), RRaise x)
      | (q', Ok ws) =>
          if built then
            (mkR (Some (Some q')) (rs_first s) e (rs_counter s + 1),
             RSegment (mkSegment (rs_counter s) out (rs_end s) e ws))
          else (mkR (Some (Some q')) (rs_first s) (rs_end s) (rs_counter s), RRaiseSplice)
      end
  end.

Definition reseq_step (out : string) (len : Z) (discard : bool) (s : rstate) (i : rinput)
  : rstate * rreaction :=
  match i with
  | RDoc d => consume s d
  | RTick built => tick out len discard built s
  end.
