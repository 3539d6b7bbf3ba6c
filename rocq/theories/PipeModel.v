(** The chain of a re-sequencing node and an EBU-TT-D encoder.

    Sources: ebu_tt_live/node/encoder.py 35-48 (process_document): the document
    received is converted as it stands, with what validation left on its
    elements.  The re-sequencing node is ResegModel, conversion ConvertModel.
    limit_sequence_to_one (encoder.py 38) is left out: all documents of the
    re-sequencing node have one sequence identifier. *)

From Coq Require Import List ZArith String Bool.
From Verif Require Import TimingModel StyleModel SegmentModel SegmentSpec LookSpec ResegModel ConvertModel.
Import ListNotations.
Open Scope Z_scope.

(** ebutt3_ebuttd.py 83-84, 100: an element with the computed_style the style
    pass left on it.  [os] are the results for the elements from [n] on. *)
Fixpoint with_sizes (n : node) (os : list sout) {struct n} : fnode :=
  match n with
  | Text s => FText s
  | Br => FBr
  | Node k i r st b e kids =>
      let fix all (ns : list node) (os : list sout) {struct ns} : list fnode :=
        match ns with
        | [] => []
        | m :: ns' => with_sizes m os :: all ns' (rest m os)
        end in
      match os with
      | SOut _ _ el oks :: _ =>
          FNode k i r st b e (fontSize (c_attrs (e_computed el))) (lineHeight (c_attrs (e_computed el))) (all kids oks)
      | [] => FNode k i r st b e None None (all kids [])
      end
  end.
Fixpoint all_with_sizes (ns : list node) (os : list sout) : list fnode :=
  match ns with
  | [] => []
  | m :: ns' => with_sizes m os :: all_with_sizes ns' (rest m os)
  end.

(** encoder.py 42, document.binding: the document is valid (ebutt3.py 306-313),
    so there are computed styles. *)
Definition binding (u : built) : fdoc :=
  let d := u_doc u in
  mkFdoc (t_base d) (t_styling d) (t_layout d)
    (option_map (fun b =>
       mkFbody (bd_style b) (bd_begin b) (bd_end b) (bd_dur b)
         (all_with_sizes (bd_kids b)
           (match validate_styles (doc_table d b) (u_size u) (styling_body b) with
            | SOk (_, SOut _ _ _ os) => os
            | SErr _ => []
            end))) (t_body d)).

(** encoder.py 41-43, by an encoder made at [instant]. *)
Definition encode (instant zero : Z) (u : built) : cres ddoc :=
  convert_document (encoder_clock instant zero) (binding u).
