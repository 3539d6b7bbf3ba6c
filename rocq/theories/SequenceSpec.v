(** Independent specification of the document sequence: what a user of
    add_document relies on, stated on delivery histories only. *)
From Verif Require Import SequenceModel.
Open Scope Z_scope.

(** A document as produced by a sane author: its end is not before its begin and
    is not the time origin (an end there is reported as none: C66_zero_end). *)
Definition doc_wf (d : document) : Prop :=
  0 <= d_begin d /\ match d_end d with Some e => d_begin d <= e /\ 0 < e | None => True end.

(** Documents belonging to the sequence [sid] on time base [tb]/[cm] of authors
    group [g]. *)
Definition belongs (sid tb : string) (cm : option string) (g : string) (d : document) : Prop :=
  d_sid d = sid /\ d_tb d = tb /\ (tb = "clock"%string -> d_cm d = cm)
  /\ (d_agid d = None \/ d_agid d = Some ""%string \/ d_agid d = Some g).

(** Delivery discipline for a document [d] arriving after [h]: either it is
    already superseded by a higher-numbered document that begins no later, or it
    ends strictly before every higher-numbered document already delivered. *)
Definition late_ok (h : list document) (d : document) : Prop :=
  (exists d', In d' h /\ d_num d < d_num d' /\ d_begin d' <= d_begin d)
  \/ (forall d', In d' h -> d_num d < d_num d' -> exists x, d_end d = Some x /\ x < d_begin d').

Fixpoint disciplined (h rest : list document) : Prop :=
  match rest with
  | [] => True
  | d :: r => late_ok h d /\ disciplined (h ++ [d]) r
  end.

(** In-order delivery: strictly increasing numbers. *)
Fixpoint in_order (last : option Z) (rest : list document) : Prop :=
  match rest with
  | [] => True
  | d :: r => match last with Some n => n < d_num d | None => True end /\ in_order (Some (d_num d)) r
  end.

(** The document that should be presented at [t]: the highest-numbered one that
    has begun, unless it has ended. *)
Definition active (h : list document) (t : Z) (d : document) : Prop :=
  In d h /\ d_begin d <= t
  /\ (forall d', In d' h -> d_begin d' <= t -> d_num d' <= d_num d)
  /\ match d_end d with Some e => t < e | None => True end.

(** Deliveries in order, with the outcome of each. *)
Fixpoint deliver (s : seqstate) (h : list document) : seqstate * list outcome :=
  match h with
  | [] => (s, [])
  | d :: r => let '(s1, o) := add_document s d in
              let '(s2, os) := deliver s1 r in (s2, o :: os)
  end.

Definition not_error (o : outcome) : Prop := match o with OError _ => False | _ => True end.

(** What the sequence says through resolved_begin_time / resolved_end_time. *)
Definition presented (s : seqstate) (t : Z) (d : document) : Prop :=
  exists rb re, resolved_begin s d = Ok rb /\ resolved_end s d = Ok re
                /\ rb <= t /\ match re with Some e => t < e | None => True end.

(** ** Histories with garbage collection: deliveries interleaved with
    discard_before of a scheduled document. *)
Inductive seqop := Deliver (d : document) | Forget (d : document).

(** The documents that matter after an operation. *)
Definition live (h : list document) (op : seqop) : list document :=
  match op with
  | Deliver d => h ++ [d]
  | Forget d => filter (fun x => d_begin d <=? d_begin x) h
  end.

(** [d] is scheduled: nothing newer begins no later. *)
Definition scheduled (h : list document) (d : document) : Prop :=
  In d h /\ forall x, In x h -> d_num d < d_num x -> d_begin d < d_begin x.

(** Side conditions of a history: [a] all documents ever delivered (each one a
    new object), [h] the live ones. *)
Fixpoint ops_ok (a h : list document) (ops : list seqop) : Prop :=
  match ops with
  | [] => True
  | op :: r =>
    match op with
    | Deliver d => doc_wf d /\ late_ok h d /\ ~ In (d_num d) (map d_num h) /\ ~ In (d_obj d) (map d_obj a)
                   /\ ops_ok (a ++ [d]) (live h op) r
    | Forget d => scheduled h d /\ ops_ok a (live h op) r
    end
  end.

Fixpoint live_after (h : list document) (ops : list seqop) : list document :=
  match ops with [] => h | op :: r => live_after (live h op) r end.

Definition run_op (s : seqstate) (op : seqop) : seqstate * outcome :=
  match op with
  | Deliver d => add_document s d
  | Forget d => match discard_before s d with
                | (s', Ok _) => (s', ODiscarded)
                | (s', Err e) => (s', OError e)
                end
  end.

Fixpoint run_ops (s : seqstate) (ops : list seqop) : seqstate * list outcome :=
  match ops with
  | [] => (s, [])
  | op :: r => let '(s1, o) := run_op s op in
               let '(s2, os) := run_ops s1 r in (s2, o :: os)
  end.

Definition op_belongs sid tb cm g (op : seqop) : Prop :=
  match op with Deliver d => belongs sid tb cm g d | Forget _ => True end.

(** Interval order on optional bounds ([None] is unbounded). *)
Definition before_end (t : Z) (e : option Z) : Prop := match e with Some x => t < x | None => True end.
Definition after_begin (b : option Z) (t : Z) : Prop := match b with Some x => x <= t | None => True end.
Definition bounds_ok (b e : option Z) : Prop :=
  match b, e with Some x, Some y => x <= y | _, _ => True end.

(** A document whose resolved interval starts before [e] and ends after [b]. *)
Definition overlaps (s : seqstate) (b e : option Z) (d : document) : Prop :=
  exists rb re, resolved_begin s d = Ok rb /\ resolved_end s d = Ok re
    /\ before_end rb e /\ match re, b with Some y, Some x => x < y | _, _ => True end.

(** Sub-windows that tile a window from [b] on: each starts where the previous
    one ended, none ends after [e], and only the last may be unbounded. *)
Fixpoint tiles (b e : option Z) (ws : list (document * option Z * option Z)) : Prop :=
  match ws with
  | [] => True
  | (_, wb, we) :: r =>
    wb = b /\ bounds_ok wb we
    /\ match we, e with Some x, Some y => x <= y | None, Some _ => False | _, None => True end
    /\ (we = None -> r = []) /\ tiles we e r
  end.

(** ** Arbitrary use of a sequence: every public operation, failing or not. *)
Inductive call :=
| CallAdd (d : document)
| CallNew
| CallDiscardBefore (d : document)
| CallExtract (b e : option Z) (discard : bool).

(** State after a call, and the sequence number it accepted or handed out. *)
Definition call_step (s : seqstate) (c : call) : seqstate * option Z :=
  match c with
  | CallAdd d => match add_document s d with
                 | (s', OError _) => (s', None)
                 | (s', _) => (s', Some (d_num d))
                 end
  | CallNew => let '(s', n) := new_document s in (s', Some n)
  | CallDiscardBefore d => (fst (discard_before s d), None)
  | CallExtract b e disc => (fst (seq_extract s b e disc), None)
  end.

Fixpoint calls (s : seqstate) (cs : list call) : seqstate :=
  match cs with [] => s | c :: r => calls (fst (call_step s c)) r end.

(** All numbers accepted or handed out, in order. *)
Fixpoint numbers (s : seqstate) (cs : list call) : list Z :=
  match cs with
  | [] => []
  | c :: r => let '(s', o) := call_step s c in
              match o with Some n => n :: numbers s' r | None => numbers s' r end
  end.
