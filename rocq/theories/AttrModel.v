(** What is said of the texts of a document: xml:space, xml:lang, ttm:agent and
    ttm:role, in the segments, the joined documents and the EBU-TT-D documents
    that are made of it.

    Sources: ebu_tt_live/bindings/__init__.py 460-480, 500 (tt_type), 686-714
    (p_type), 757-783 (span_type), 815-818 (br_type), 834-858 (div_type), 905-976
    (body_type); documents/ebutt3_segmentation.py 69-129; documents/ebutt3_splicer.py
    37-81; documents/ebutt3.py 696-707, 956-1012; bindings/converters/ebutt3_ebuttd.py
    130-143, 241-291, 319-349.

    Which elements are in a segment is a parameter (it is SegmentModel's matter).
    Left out: all other attributes, styles and regions (SegmentModel, SpliceModel,
    ConvertModel), and metadata other than the agents declared in the head. *)

From Coq Require Import List String Bool Arith.
Import ListNotations.
Open Scope string_scope.

Record attrs := mkAttrs {
  a_space : option string; a_lang : option string;
  a_agent : option string; a_role : option string }.

Inductive kind := Div | P | Span.

(** The content of a body; elements have an identity. *)
Inductive node :=
| Text (s : string)
| Br (role : option string)
| El (i : nat) (k : kind) (a : attrs) (kids : list node).

(** A document: tt with xml:space and xml:lang (ebutt_live.xsd 348, 375, the latter
    required), the agents declared in the metadata of its head (ebutt_metadata.xsd
    576), and its body with agent and role (ebutt_live.xsd 151-152). *)
Record doc := mkDoc {
  d_space : option string; d_lang : string; d_agents : list string;
  b_agent : option string; b_role : option string; b_kids : list node }.

(** ebutt_live.xsd 179-215 (div), 224-277 (p), 279-329 (span): a div has no
    xml:space and no xml:lang. *)
Definition has_space (k : kind) : bool := match k with Div => false | _ => true end.
Definition only (b : bool) (o : option string) : option string := if b then o else None.

(** ** Segments *)

(** 836-842, 688-696, 759-766. *)
Definition copy_attrs (k : kind) (a : attrs) : attrs :=
  mkAttrs (only (has_space k) (a_space a)) (only (has_space k) (a_lang a)) (a_agent a) (a_role a).

(** ebutt3_segmentation.py 85-129: texts go to the copy of their element; a copy of
    br has no attributes (bindings/__init__.py 817-818). *)
Fixpoint copy (keep : nat -> bool) (n : node) : list node :=
  match n with
  | Text s => [Text s]
  | Br _ => [Br None]
  | El i k a kids => if keep i then [El i k (copy_attrs k a) (flat_map (copy keep) kids)] else []
  end.

(** tt is copied without xml:space (460-480), its head as an empty one (665-667);
    metadata is copied but linked to nothing (ebutt3_segmentation.py 99-103). *)
Definition segment (keep : nat -> bool) (d : doc) : doc :=
  mkDoc None (d_lang d) [] (b_agent d) (b_role d) (flat_map (copy keep) (b_kids d)).

(** ** Joined documents *)

(** 930-962: the elements are copied once more, all of them. *)
Fixpoint recopy (n : node) : node :=
  match n with
  | Text s => Text s
  | Br _ => Br None
  | El i k a kids => El i k (copy_attrs k a) (map recopy kids)
  end.

(** 482-501 and 669-670: tt and head of the first document; 964-976: a copy of the
    first body, with the content of both. *)
Definition merge (d e : doc) : doc :=
  mkDoc (d_space d) (d_lang d) (d_agents d) (b_agent d) (b_role d)
        (map recopy (b_kids d) ++ map recopy (b_kids e)).

(** ebutt3_splicer.py 37-66. *)
Definition splice (d : doc) (rest : list doc) : doc := fold_left merge rest d.

(** ebutt3.py 956-1012: the document made of the segments; without any, a new one
    in the language of the sequence (696-707). *)
Definition resegment (lang : string) (l : list ((nat -> bool) * doc)) : doc :=
  match map (fun p => segment (fst p) (snd p)) l with
  | [] => mkDoc None lang [] None None []
  | d :: r => splice d r
  end.

(** ** EBU-TT-D *)

(** ebutt3_ebuttd.py 251-288: div without role. *)
Definition convert_attrs (k : kind) (a : attrs) : attrs :=
  match k with
  | Div => mkAttrs None None (a_agent a) None
  | _ => a
  end.
Fixpoint convert_node (n : node) : node :=
  match n with
  | Text s => Text s
  | Br _ => Br None
  | El i k a kids => El i k (convert_attrs k a) (map convert_node kids)
  end.
Definition is_div (n : node) : bool := match n with El _ Div _ _ => true | _ => false end.

(** 130-143, 241-249: no body without a div, so that its attributes are lost. *)
Definition convert (d : doc) : doc :=
  if existsb is_div (b_kids d) then
    mkDoc (d_space d) (d_lang d) [] (b_agent d) (b_role d) (map convert_node (b_kids d))
  else mkDoc (d_space d) (d_lang d) [] None None [].
