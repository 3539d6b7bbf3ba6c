(** The producer of subtitles, and what a consumer makes of its documents.

    Sources: ebu_tt_live/node/producer.py 14-113 (SimpleProducer),
    ebu_tt_live/node/consumer.py 29-54 (process_document of SimpleConsumer, which
    the re-sequencing node inherits), ebu_tt_live/documents/ebutt3.py 283-304
    (constructor), 389-394 (availability_time), 484-513 (validate), 515-529
    (add_div, set_begin, set_dur), 698-715 (new_document);
    ebu_tt_live/bindings/validation/presentation.py and timing.py (what the
    passes leave on the elements).

    The text of a line is taken to be allowed in XML.  Left out of the region are
    its sizes and display attributes, as in SegmentModel. *)

From Coq Require Import List ZArith QArith String Bool.
From Verif Require Import SequenceModel TimingModel StyleModel SegmentModel SegmentSpec ResegModel.
Import ListNotations.
Open Scope Z_scope.

(** ** Validated content *)

(** The style results for what follows [n]: the pass has one for every element,
    none for text and br. *)
Definition after (n : node) (os : list sout) : list sout :=
  match n with Node _ _ _ _ _ _ _ => tl os | _ => os end.

(** timing.py 56-87, 149-229 and presentation.py 84-97: an element with the computed
    times, validated styles and inherited region that validation leaves on it;
    [c] is its timing result, the first of [os] its style result. *)
Fixpoint annotate (n : node) (c : ctree) (os : list sout) {struct n} : vnode :=
  match n with
  | Text s => VText s
  | Br => VBr
  | Node k i r st b e kids =>
      let fix all (ns : list node) (cs : list ctree) (os : list sout) {struct ns} : list vnode :=
        match ns, cs with
        | m :: ns', x :: cs' => annotate m x os :: all ns' cs' (after m os)
        | _, _ => []
        end in
      match c, os with
      | CTimed _ _ cb ce cs, SOut _ _ x oks :: _ =>
          VNode k i r st b e cb ce (validated_styles x) (e_region x) (all kids cs oks)
      | _, _ => VBr
      end
  end.
Fixpoint annotate_all (ns : list node) (cs : list ctree) (os : list sout) : list vnode :=
  match ns, cs with
  | m :: ns', x :: cs' => annotate m x os :: annotate_all ns' cs' (after m os)
  | _, _ => []
  end.

(** ebutt3.py 389-394 and 484-513: the computed begin and end of the document,
    and the document with the results on its elements; None when validation
    raises. *)
Definition checked (z : sizing) (avail : option Z) (d : docu bodyd) : option (Z * option Z * docu vbody) :=
  match t_body d with
  | None =>
      match validate avail None with
      | TOk (b, e, _) => Some (b, e, mkDocu (t_base d) (t_seq d) (t_styling d) (t_layout d) None)
      | TErr _ => None
      end
  | Some bd =>
      if distinct (map fst (doc_table d bd)) then
        match validate avail (Some (timing_body bd)), validate_styles (doc_table d bd) z (styling_body bd) with
        | TOk (b, e, CTimed _ _ cb ce cs), SOk (_, SOut _ _ x os) =>
            Some (b, e, mkDocu (t_base d) (t_seq d) (t_styling d) (t_layout d)
                          (Some (mkVbody (bd_style bd) (bd_begin bd) (bd_end bd) (bd_dur bd) cb ce
                                         (validated_styles x) (annotate_all (bd_kids bd) cs os))))
        | _, _ => None
        end
      else None
  end.

(** ** The producer *)

(** producer.py 76-84. *)
Definition default_style : style_el :=
  mkStyle None
    (mkAttrs None (Some "sansSerif") None None None (Some "rgb(255, 255, 255)") (Some "rgb(0, 0, 0)")
             None None None None None None (Some "0.5c") None)%string.
Definition produced_styling : list (string * style_el) := [("defaultStyle1"%string, default_style)].

(** producer.py 85-94. *)
Definition produced_layout : list (string * region_el) := [("bottomRegion"%string, mkRegion None None)].

(** producer.py 36-49, _interleave_line_breaks: popping from the list raises
    IndexError when there are no lines. *)
Definition line_span (style : string) (s : string) : node := Node Span None None (Some [style]) None None [Text s].
Definition interleave (style : string) (lines : list string) : option (list node) :=
  match lines with
  | [] => None
  | _ => Some (removelast (flat_map (fun s => [line_span style s; Br]) lines))
  end.

(** producer.py 51-59, _create_fragment. *)
Definition fragment (kids : list node) : node :=
  Node Div None (Some "bottomRegion"%string) None None None [Node P (Some "ID001"%string) None None None None kids].

(** The state: the sequence that numbers the documents, and what is left of
    input_blocks; None when there are none and the time is shown. *)
Record pstate := mkPs { ps_seq : seqstate; ps_blocks : option (list (list string)) }.

Inductive perr := PEndOfData | PIndexError | PTimeError | PInvalid.

(** The sizes of tt: no extent, and the default cell resolution of the schema
    (parameter.xsd 82). *)
Definition plain_size : sizing := mkSizing None (32%Q, 15%Q).

(** The document of producer.py 76-103 for the lines of one subtitle. *)
Definition produced (q : seqstate) (n : Z) (kids : list node) (b d : tattr) : docu bodyd :=
  mkDocu (base_of (q_tb q)) n (Some produced_styling) (Some produced_layout)
         (Some (mkBodyd None (Some b) None (Some d) [fragment kids])).

(** producer.py 73-105: the number is taken first (ebutt3.py 713-715). *)
Definition write (s : pstate) (lines : list string) (activation : Z) : pstate * (perr + docu bodyd) :=
  let '(q, n) := new_document (ps_seq s) in
  let s' := mkPs q (ps_blocks s) in
  match interleave "defaultStyle1" lines with
  | None => (s', inl PIndexError)
  | Some kids =>
      match timing_type Clock (Some 1000000), timing_type Clock (Some activation) with
      | GOk d, GOk b =>
          let x := produced q n kids b d in
          if validates plain_size x then (s', inr x) else (s', inl PInvalid)
      | _, _ => (s', inl PTimeError)
      end
  end.

(** producer.py 61-113, process_document, when the clock shows [now].  An
    iterator that is used up raises StopIteration. *)
Definition produce (s : pstate) (now : Z) : pstate * (perr + docu bodyd) :=
  let activation := now + 1000000 in
  match ps_blocks s with
  | Some [] => (s, inl PEndOfData)
  | Some (lines :: rest) => write (mkPs (ps_seq s) (Some rest)) lines activation
  | None =>
      match timing_type Clock (Some activation) with
      | GOk a => write s [ta_lex a] activation
      | GErr _ => (s, inl PTimeError)
      end
  end.

(** The producer is started at each of these times. *)
Fixpoint produce_all (s : pstate) (nows : list Z) : list (perr + docu bodyd) :=
  match nows with
  | [] => []
  | now :: r => let '(s', x) := produce s now in x :: produce_all s' r
  end.

(** ** The documents on their way *)

(** consumer.py 40-41: the document becomes available at [avail].  An object is
    known by the number it was given, each document being made once. *)
Definition received (q : seqstate) (avail : Z) (x : docu bodyd) : option (document * stored) :=
  match checked plain_size (Some avail) x with
  | Some (b, e, v) => Some (mkDoc (t_seq x) (q_sid q) (q_tb q) (q_cm q) (q_agid q) (t_seq x) b e, mkStored v plain_size)
  | None => None
  end.

(** The producer is started at [now] and what it makes arrives at [avail]
    (producer.py 113); or the next segment is asked for (consumer.py 143-151). *)
Inductive pevent := Produce (now avail : Z) | Cut.

(** What the re-sequencing node is given, and the content of the documents. *)
Fixpoint feed (s : pstate) (l : list pevent) : list (cinput * option stored) :=
  match l with
  | [] => []
  | Cut :: r => (CTick, None) :: feed s r
  | Produce now avail :: r =>
      match produce s now with
      | (s', inr x) =>
          match received (ps_seq s') avail x with
          | Some (d, c) => (CDoc d, Some c) :: feed s' r
          | None => feed s' r
          end
      | (s', inl _) => feed s' r
      end
  end.
Definition given (l : list (cinput * option stored)) : list cinput := map fst l.
Fixpoint content_in (l : list (cinput * option stored)) (d : document) : stored :=
  match l with
  | (CDoc d', Some c) :: r => if d_obj d' =? d_obj d then c else content_in r d
  | _ :: r => content_in r d
  | [] => mkStored (mkDocu Clock 0 None None None) plain_size
  end.
