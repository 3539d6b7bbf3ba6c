(** Extracting one document from a sequence, with the content of its documents:
    EBUTT3DocumentSequence.extract_segment and the re-sequencing node.

    Sources: ebu_tt_live/documents/ebutt3.py 542-561 (extract_segment of a
    document), 696-711 (create_compatible_document), 956-1012 (extract_segment
    of a sequence), 283-313 (constructor, create_from_raw_binding, both of which
    validate); ebu_tt_live/node/consumer.py 129-151 (get_segment,
    convert_next_segment).  The selection of documents and windows is
    SequenceModel, cutting SegmentModel, joining SpliceModel, validation
    TimingModel and StyleModel, the node's state NodeModel. *)

From Coq Require Import List ZArith QArith String Bool.
From Verif Require Import SequenceModel NodeModel.
From Verif Require Import TimingModel StyleModel SegmentModel SegmentSpec SpliceModel.
Import ListNotations.
Open Scope Z_scope.

(** What is in a document of the sequence: its validated content, and the extent
    and cell resolution of its tt element. *)
Record stored := mkStored { st_doc : docu vbody; st_size : sizing }.

(** base.py 211-222: an identifier registered twice raises. *)
Fixpoint distinct (l : list string) : bool :=
  match l with [] => true | i :: r => negb (mem i r) && distinct r end.

(** ebutt3.py 306-313 with 484-513, create_from_raw_binding without availability
    time: whether validation goes through.  doc_table is the content of
    elements_by_id.  PyXB's own validation is left out. *)
Definition validates (z : sizing) (d : docu bodyd) : bool :=
  match t_body d with
  | Some b =>
      distinct (map fst (doc_table d b)) &&
      match validate None (Some (timing_body b)) with TOk _ => true | TErr _ => false end &&
      match validate_styles (doc_table d b) z (styling_body b) with SOk _ => true | SErr _ => false end
  | None => true
  end.

(** ebutt3.py 980-991: the segment of one document; whatever is raised is
    logged, and the document left out.  542-561 with deconflict_ids: the segment
    is validated; the copy of tt has the extent and cell resolution of the
    original (bindings/__init__.py 463-480). *)
Definition cut (c : stored) (b e : option Z) : option (docu bodyd) :=
  match segment (st_doc c) true b e with
  | GOk g => if validates (st_size c) g then Some g else None
  | GErr _ => None
  end.
Fixpoint cuts (content : document -> stored) (ws : list (document * option Z * option Z))
  : list (sizing * docu bodyd) :=
  match ws with
  | [] => []
  | (d, b, e) :: r =>
      match cut (content d) b e with
      | Some g => (st_size (content d), g) :: cuts content r
      | None => cuts content r
      end
  end.

(** ebutt3.py 995: None and 0 become 1. *)
Definition given_number (n : option Z) : Z :=
  match n with Some k => if k =? 0 then 1 else k | None => 1 end.

(** The document returned: its sequence identifier, its extent and cell
    resolution, its content. *)
Record built := mkBuilt { u_sid : string; u_size : sizing; u_doc : docu bodyd }.

(** ebutt3.py 696-711 and 283-304: the document made when there are no segments,
    with a head that has metadata only, and an empty body.  The cell resolution
    is the default of the schema, parameter.xsd 82.  Documents on smpte time are
    not told from those on media time, which nothing here looks at. *)
Definition base_of (tb : string) : base := if String.eqb tb "clock" then Clock else Media.
Definition empty_document (s : seqstate) (n : Z) : built :=
  mkBuilt (q_sid s) (mkSizing None (32%Q, 15%Q))
          (mkDocu (base_of (q_tb s)) n None None (Some (mkBodyd None None None None []))).

(** ebutt3.py 996-1007: XSplice and XInvalid are not caught.  The first tt is
    kept (SpliceModel), with its extent and cell resolution. *)
Inductive xres := XBuilt (u : built) | XSequence (e : error) | XSplice (e : perr) | XInvalid.
Definition put_together (s : seqstate) (segs : list (sizing * docu bodyd)) (n : Z) : xres :=
  match segs with
  | [] => XBuilt (empty_document s n)
  | (z, _) :: _ =>
      match splice (map snd segs) n with
      | PErr e => XSplice e
      | POk x => if validates z x then XBuilt (mkBuilt (q_sid s ++ "_resegmented") z x) else XInvalid
      end
  end.

(** ebutt3.py 956-1012.  Documents are forgotten only after the new one is
    made. *)
Definition extract (content : document -> stored) (s : seqstate) (b e : option Z) (n : option Z) (discard : bool)
  : seqstate * xres :=
  match extract_windows s (lookup_range doc_eqb (q_tl s) b e) b e with
  | Err x => (s, XSequence x)
  | Ok ws =>
      match put_together s (cuts content ws) (given_number n) with
      | XBuilt u =>
          match seq_extract s b e discard with
          | (s', Ok _) => (s', XBuilt u)
          | (s', Err x) => (s', XSequence x)
          end
      | r => (s, r)
      end
  end.

(** ** The re-sequencing node *)

Inductive cinput := CDoc (d : document) | CTick.

(** consumer.py 129-151: the document is given the identifier of the node's own
    sequence. *)
Definition reseq_content (content : document -> stored) (out : string) (len : Z) (discard : bool)
  (s : rstate) (i : cinput) : rstate * (rreaction + built) :=
  match i with
  | CDoc d => let '(s', r) := consume s d in (s', inl r)
  | CTick =>
      match rs_seq s with
      | None => (s, inl RNothing)
      | Some None => (s, inl RAttribute)
      | Some (Some q) =>
          match extract content q (Some (rs_end s)) (Some (rs_end s + len)) (Some (rs_counter s)) discard with
          | (q', XBuilt u) =>
              (mkR (Some (Some q')) (rs_first s) (rs_end s + len) (rs_counter s + 1),
               inr (mkBuilt out (u_size u) (u_doc u)))
          | (q', XSequence x) => (mkR (Some (Some q')) (rs_first s) (rs_end s) (rs_counter s), inl (RRaise x))
          | (q', _) => (mkR (Some (Some q')) (rs_first s) (rs_end s) (rs_counter s), inl RRaiseSplice)
          end
      end
  end.
