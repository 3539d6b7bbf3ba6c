(** What splicing is to do, for C33. *)

From Coq Require Import List ZArith String Bool.
From Verif Require Import IdModel TimingModel TimingSpec StyleModel SegmentModel SegmentSpec.
Import ListNotations.
Open Scope Z_scope.

(** Content without identifiers. *)
Fixpoint unnamed (n : node) : node :=
  match n with
  | Node k _ r st b e kids =>
      Node k None (match k with Div | P => r | _ => None end) st b e (map unnamed kids)
  | _ => n
  end.
Fixpoint anonymous (s : shown) : shown :=
  match s with
  | SEl k _ r st kids => SEl k None (match k with Div | P => r | _ => None end) st (map anonymous kids)
  | _ => s
  end.

(** The content of a document, and all its identifiers. *)
Definition content (d : docu bodyd) : list node :=
  match t_body d with Some b => bd_kids b | None => [] end.
Definition content_ids (d : docu bodyd) : list string := flat_map node_ids (content d).
Definition all_ids (d : docu bodyd) : list string :=
  (map fst (els (t_styling d)) ++ map fst (els (t_layout d)) ++ content_ids d)%list.

(** What a document presents at an instant. *)
Definition shows_at (avail : option Z) (d : docu bodyd) (t : Z) : list shown :=
  match t_body d with
  | Some b => match validate avail (Some (timing_body b)) with
              | TOk (_, _, c) => present_body t b c
              | TErr _ => []
              end
  | None => []
  end.

(** The documents of the theorem on presentation: no times on a body with
    content; no negative times; in the body only elements, whose end follows
    their begin (as the code compares them). *)
Definition no_times (b : bodyd) : Prop := bd_begin b = None /\ bd_end b = None /\ bd_dur b = None.
Definition top_ok (n : node) : Prop :=
  match n with Node _ _ _ _ b e _ => badly_timed b e = false | _ => False end.
Definition joinable (d : docu bodyd) : Prop :=
  forall b, t_body d = Some b -> (bd_kids b = [] \/ no_times b) /\
    Forall top_ok (bd_kids b) /\ Forall nn_elem (map timing (bd_kids b)).

(** The identifiers given out for a document of number [n]. *)
Definition owned (n : Z) (i : string) : Prop := exists j, deconflict n (Some j) = Some i.
