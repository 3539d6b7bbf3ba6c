(** The attributes of the tt element: which combinations a document is
    refused for, what a sequence and the nodes put there, and what the next
    node makes of it.

    Sources: ebu_tt_live/bindings/__init__.py 460-480 (tt_type.__copy__),
    482-503 (merge), 534-589 and 611-628 (the checks);
    ebu_tt_live/bindings/validation/base.py 91-107;
    ebu_tt_live/documents/ebutt3.py 283-304 (EBUTT3Document.__init__),
    625-639, 696-715 and 972-1012 (the sequence);
    ebu_tt_live/documents/ebutt3_splicer.py 35-81;
    ebu_tt_live/node/consumer.py 129-151;
    ebu_tt_live/xsd/parameter.xsd 15-81, ebutt_parameters.xsd 17-51. *)

From Coq Require Import List ZArith String Bool.
From Verif Require Import SequenceModel NodeModel.
Import ListNotations.
Open Scope string_scope.
Open Scope Z_scope.

(** ** The attributes *)

(** Those the sequence code does not look at: xml:lang, frameRate, dropMode,
    markerMode, authorsGroupControlToken,
    authorsGroupSelectedSequenceIdentifier; [r_more] the remaining ones that
    __copy__ takes along (extent, frameRateMultiplier, cellResolution,
    authoringDelay, referenceClockIdentifier), by name.  Values are texts.
    xml:space, which __copy__ leaves behind, is the matter of AttrModel. *)
Record rest : Type := mkRest {
  r_lang : string; r_frame : option string; r_drop : option string;
  r_marker : option string; r_token : option Z; r_selected : option string;
  r_more : list (string * string) }.

(** All attributes: sequenceIdentifier, sequenceNumber, timeBase, clockMode,
    authorsGroupIdentifier, and the rest. *)
Record head : Type := mkHead {
  k_sid : string; k_num : Z; k_tb : string; k_cm : option string;
  k_agid : option string; k_rest : rest }.

(** The attributes of a document of the sequence model; [more] gives the
    attributes that model leaves out. *)
Definition head_of (more : document -> rest) (d : document) : head :=
  mkHead (d_sid d) (d_num d) (d_tb d) (d_cm d) (d_agid d) (more d).

(** ** Validation *)

(** SemanticValidationError with the text for missing attributes, the same with
    the text for invalid attributes, each with the attributes it names; and
    SimpleFacetValueError for a value outside the schema. *)
Inductive herr : Type := HMissing (l : list string) | HInvalid (l : list string) | HFacet.

Definition given {A} (x : option A) : bool := match x with Some _ => true | None => false end.

(** validation/base.py 91-98 and 100-107, on attribute names with whether they
    are given. *)
Definition missing (l : list (string * bool)) : list string :=
  map fst (filter (fun p => negb (snd p)) l).
Definition present (l : list (string * bool)) : list string :=
  map fst (filter snd l).

(** bindings/__init__.py 534-562: the attributes of time base smpte. *)
Definition check_smpte (k : head) : option herr :=
  let r := k_rest k in
  if String.eqb (k_tb k) "smpte" then
    match missing [("frameRate", given (r_frame r)); ("dropMode", given (r_drop r));
                   ("markerMode", given (r_marker r))] with
    | [] => None
    | l => Some (HMissing l)
    end
  else
    match present [("dropMode", given (r_drop r)); ("markerMode", given (r_marker r))] with
    | [] => None
    | l => Some (HInvalid l)
    end.

(** 564-589: the clock mode.  Line 585: one too many is reported with the text
    for missing attributes. *)
Definition check_clock (k : head) : option herr :=
  if String.eqb (k_tb k) "clock" then
    match missing [("clockMode", given (k_cm k))] with
    | [] => None
    | l => Some (HMissing l)
    end
  else
    match present [("clockMode", given (k_cm k))] with
    | [] => None
    | l => Some (HMissing l)
    end.

(** 621-628; None: the document is valid as far as its tt element goes. *)
Definition check_head (k : head) : option herr :=
  match check_smpte k with
  | Some e => Some e
  | None => check_clock k
  end.

(** parameter.xsd 20-24 and 45-49, ebutt_parameters.xsd 22-51. *)
Definition legal_tb (tb : string) : bool :=
  String.eqb tb "smpte" || String.eqb tb "media" || String.eqb tb "clock".
Definition legal_cm (cm : option string) : bool :=
  match cm with
  | None => true
  | Some c => String.eqb c "local" || String.eqb c "utc" || String.eqb c "gps"
  end.
Definition nonempty (s : string) : bool := negb (String.eqb s "").
Definition legal_head (k : head) : bool :=
  legal_tb (k_tb k) && legal_cm (k_cm k) && nonempty (k_sid k) && (0 <? k_num k)
  && match k_agid k with Some a => nonempty a | None => true end.

(** ** Documents made by the toolkit *)

(** EBUTT3Document.__init__, ebutt3.py 283-304.  [interned]: whether the text
    passed as time_base is the very object of TimeBase.CLOCK when it is
    "clock" (line 285 compares with [is]); it is for a literal and for the
    time base of a clock, and it is not for the time base of a document that
    was read.  The body of the new document is empty.  cellResolution, which
    validation fills in with its default (603-609), is not listed. *)
Definition new_head (interned : bool) (tb : string) (cm : option string)
    (sid : string) (num : Z) (agid : option string) (lang : string) : herr + head :=
  let none := match cm with None => true | Some c => String.eqb c "" end in
  let cm' := if none && (interned && String.eqb tb "clock") then Some "local" else cm in
  let k := mkHead sid num tb cm' agid (mkRest lang None None None None None []) in
  if legal_head k then
    match check_head k with
    | Some e => inl e
    | None => inr k
    end
  else inl HFacet.

(** create_compatible_document, ebutt3.py 696-711; [lang] is the language of
    the sequence. *)
Definition compatible_head (q : seqstate) (lang : string) (num : Z) : herr + head :=
  new_head true (q_tb q) (q_cm q) (q_sid q) num (q_agid q) lang.

(** new_document, ebutt3.py 713-715. *)
Definition fresh_head (q : seqstate) (lang : string) : seqstate * (herr + head) :=
  let '(q', n) := new_document q in (q', compatible_head q' lang n).

(** ** The re-sequencer *)

(** A segment keeps all attributes of its document (bindings/__init__.py
    460-480); the joined document has those of the first piece (482-503,
    ebutt3_splicer.py 37-74), with the identifier and the number of the node
    (76-77, consumer.py 138). *)
Definition joined_head (more : document -> rest) (out : string) (num : Z) (d : document) : head :=
  mkHead out num (d_tb d) (d_cm d) (d_agid d) (more d).

(** Inputs as in NodeModel.  A call of convert_next_segment also says which of
    the documents a piece could be made of (the others are logged and left out,
    ebutt3.py 982-991) and whether joining the pieces went through. *)
Inductive sinput : Type :=
| SDoc (d : document)
| STick (made : document -> bool) (built : bool).

Inductive sreaction : Type :=
| SOther (r : rreaction)           (* as in NodeModel, nothing sent *)
| SSend (g : segment) (k : head)   (* a document with these attributes *)
| SInvalid (e : herr).             (* the document for an empty window is refused *)

(** The node with the language of its sequence, which is that of the first
    document (ebutt3.py 637). *)
Record sstate : Type := mkS { ss_node : rstate; ss_lang : string }.

(** consumer.py 29-61. *)
Definition s_consume (more : document -> rest) (s : sstate) (d : document) : sstate * sreaction :=
  let '(f, fine) := limit_one (rs_first (ss_node s)) (d_sid d) in
  let lang := match rs_seq (ss_node s) with
              | Some _ => ss_lang s
              | None => if fine then r_lang (more d) else ss_lang s
              end in
  let '(n, r) := consume (ss_node s) d in
  (mkS n lang, SOther r).

(** consumer.py 129-151 with ebutt3.py 995-1012: without pieces the document
    comes from create_compatible_document, under the identifier of the sequence
    until consumer.py 138 puts the configured one. *)
Definition s_tick (more : document -> rest) (out : string) (len : Z) (discard : bool)
    (made : document -> bool) (built : bool) (s : sstate) : sstate * sreaction :=
  let n := ss_node s in
  let answer b k := let '(n', r) := tick out len discard b n in
                    (mkS n' (ss_lang s), match r with RSegment g => SSend g k | _ => SOther r end) in
  match rs_seq n with
  | Some (Some q) =>
      match snd (seq_extract q (Some (rs_end n)) (Some (rs_end n + len)) false) with
      | Err x => (s, SOther (RRaise x))
      | Ok ws =>
          match filter made (map (fun w => fst (fst w)) ws) with
          | d :: _ => answer built (joined_head more out (rs_counter n) d)
          | [] =>
              match compatible_head q (ss_lang s) (rs_counter n) with
              | inl e => (s, SInvalid e)
              | inr k => answer true (mkHead out (k_num k) (k_tb k) (k_cm k) (k_agid k) (k_rest k))
              end
          end
      end
  | _ => let '(n', r) := tick out len discard built n in (mkS n' (ss_lang s), SOther r)
  end.

Definition s_step (more : document -> rest) (out : string) (len : Z) (discard : bool)
    (s : sstate) (i : sinput) : sstate * sreaction :=
  match i with
  | SDoc d => s_consume more s d
  | STick made built => s_tick more out len discard made built s
  end.

Definition s0 (start : Z) : sstate := mkS (r0 start) "".

(** ** The other nodes *)

(** What a retiming or de-duplicating node sends: the identifier replaced
    (delay.py 44, deduplicator.py 44), all other attributes as they were.  In
    NodeModel's rewriting_step the payload is then the document itself. *)
Definition renamed (more : document -> rest) (out : string) (d : document) : head :=
  mkHead out (d_num d) (d_tb d) (d_cm d) (d_agid d) (more d).

(** What the handover node sends, handover.py 85-87. *)
Definition handed (more : document -> rest) (num : Z) (out selected : string) (d : document) : head :=
  let r := more d in
  mkHead out num (d_tb d) (d_cm d) (d_agid d)
         (mkRest (r_lang r) (r_frame r) (r_drop r) (r_marker r) (r_token r) (Some selected) (r_more r)).
