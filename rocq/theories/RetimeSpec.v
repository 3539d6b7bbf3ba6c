(** What retiming should do, stated on the computed times of leaves. *)

From Coq Require Import List ZArith String Bool.
From Verif Require Import TimeModel TimeSpec TimingModel TimingSpec RetimeModel.
Import ListNotations.
Open Scope Z_scope.

(** The computed times of the content leaves (p or span without span) in
    document order: [n] says what is a leaf, [c] holds the times. *)
Fixpoint leaves (n : node) (c : ctree) {struct n} : list (Z * option Z) :=
  match n, c with
  | NTimed k _ _ ks, CTimed _ _ cb ce cks =>
      if is_timed_leaf k ks then [(cb, ce)]
      else (fix go (l : list node) (m : list ctree) : list (Z * option Z) :=
              match l, m with
              | x :: r, y :: q => leaves x y ++ go r q
              | _, _ => []
              end) ks cks
  | _, _ => []
  end.

Fixpoint leaves_all (l : list node) (m : list ctree) : list (Z * option Z) :=
  match l, m with
  | x :: r, y :: q => leaves x y ++ leaves_all r q
  | _, _ => []
  end.

(** The same for a document: the kids of the body. *)
Definition body_leaves (x : nbody) (c : ctree) : list (Z * option Z) :=
  match c with
  | CTimed _ _ _ _ cks => leaves_all (nb_kids x) cks
  | COther => []
  end.

(** Leaf times of a document available from [avail]. *)
Definition document_leaves (avail : Z) (x : nbody) : list (Z * option Z) :=
  match validate (Some avail) (Some (to_body x)) with
  | TOk (_, _, c) => body_leaves x c
  | TErr _ => []
  end.

(** Moving an interval. *)
Definition shift (d : Z) (i : Z * option Z) : Z * option Z :=
  (fst i + d, match snd i with Some e => Some (e + d) | None => None end).

(** The schema: a p or span contains spans and untimed things only. *)
Inductive wf : node -> Prop :=
| wf_other : wf NOther
| wf_block b e ks : Forall wf ks -> wf (NTimed KBlock b e ks)
| wf_inline b e ks : Forall wf ks -> Forall (fun k => k = NOther \/ is_inline k = true) ks ->
    wf (NTimed KInline b e ks).

(** Every leaf has a begin on itself or above. *)
Inductive all_timed : node -> Prop :=
| at_other : all_timed NOther
| at_begin k b e ks : all_timed (NTimed k (Some b) e ks)
| at_inner k e ks : is_timed_leaf k ks = false -> Forall all_timed ks ->
    all_timed (NTimed k None e ks).

Definition all_timed_body (x : nbody) : Prop :=
  nb_begin x <> None \/ Forall all_timed (nb_kids x).

(** Times the theorems are about: begins not negative, ends at least a
    millisecond; [s] bounds the part below a millisecond. *)
Definition fine_begin (s : Z) (a : option tattr) : Prop :=
  match a with Some x => 0 <= ta_us x /\ ta_us x mod 1000 <= s | None => True end.
Definition fine_end (s : Z) (a : option tattr) : Prop :=
  match a with Some x => 1000 <= ta_us x /\ ta_us x mod 1000 <= s | None => True end.

Inductive fine (s : Z) : node -> Prop :=
| fine_other : fine s NOther
| fine_timed k b e ks : fine_begin s b -> fine_end s e -> Forall (fine s) ks ->
    fine s (NTimed k b e ks).

Definition fine_body (s : Z) (x : nbody) : Prop :=
  fine_begin s (nb_begin x) /\ fine_end s (nb_end x) /\ Forall (fine s) (nb_kids x).

(** [x'] is [x + d], possibly less by up to [s]. *)
Definition near (d s x x' : Z) : Prop := 0 <= x + d - x' <= s.

Definition onear (d s : Z) (x x' : option Z) : Prop :=
  match x, x' with
  | Some v, Some v' => near d s v v'
  | None, None => True
  | _, _ => False
  end.

(** Two leaf intervals, before and after: the places on the time line differ
    by [d] (up to [s]), and the begin is held back until the document is
    available in both. *)
Definition moved (avail d s : Z) (i j : Z * option Z) : Prop :=
  (exists r r', fst i = start_at avail r /\ fst j = start_at avail r' /\ near d s r r') /\
  onear d s (snd i) (snd j).

(** The tree without its times. *)
Inductive outline : Type := Out (k : kind) (l : list outline) | OutOther.
Fixpoint shape_of (n : node) : outline :=
  match n with
  | NTimed k _ _ ks => Out k (map shape_of ks)
  | NOther => OutOther
  end.
