(** What the computed times of a document mean, stated without the traversal:
    a relation between an element tree and the same tree with times on it.
    Nothing here refers to stacks, to the order of visits, or to exceptions. *)

From Coq Require Import List ZArith String Bool.
From Verif Require Import TimingModel.
Import ListNotations.
Open Scope Z_scope.

(** The amount an attribute contributes: nothing when absent, and (the
    deviation characterised by C15) nothing when it denotes zero. *)
Definition eff (a : option tattr) : option Z :=
  match a with
  | None => None
  | Some x => if Z.eq_dec (ta_us x) 0 then None else Some (ta_us x)
  end.

Definition offset (a : option tattr) : Z :=
  match eff a with Some v => v | None => 0 end.

(** The end that applies inside an element: its own end, measured from the
    sync base it is placed on, but never beyond the one already in force. *)
Definition tighten (lim : option Z) (base : Z) (e : option tattr) : option Z :=
  match eff e, lim with
  | None, _ => lim
  | Some v, None => Some (base + v)
  | Some v, Some l => Some (Z.min (base + v) l)
  end.

(** The computed times of the children an element takes into account. *)
Definition counted (k : ctree) (cb : Z) (ce : option Z) : Prop :=
  exists b e ks, k = CTimed b e cb ce ks /\ badly_timed b e = false.

Definition counted_in (ks : list ctree) (cb : Z) (ce : option Z) : Prop :=
  exists k, In k ks /\ counted k cb ce.

(** [end_rule own lim ks ce]: the computed end of an element whose explicit
    end evaluates to [own], in a context ending at [lim], with children [ks]. *)
Inductive end_rule (own lim : option Z) (ks : list ctree) : option Z -> Prop :=
| end_own v : own = Some v -> end_rule own lim ks (Some v)
| end_leaf : own = None -> (forall cb ce, ~ counted_in ks cb ce) ->
    end_rule own lim ks lim
| end_endless cb : own = None -> counted_in ks cb None ->
    end_rule own lim ks None
| end_latest m cb : own = None -> counted_in ks cb (Some m) ->
    (forall cb' ce', counted_in ks cb' ce' -> exists m', ce' = Some m' /\ m' <= m) ->
    end_rule own lim ks (Some m).

(** [begin_rule start given ks cb]: the computed begin of an element that could
    start at [start]; [given] says whether it declares a begin itself. *)
Inductive begin_rule (start : Z) (given : bool) (ks : list ctree) : Z -> Prop :=
| begin_given : given = true -> begin_rule start given ks start
| begin_leaf : given = false -> (forall cb ce, ~ counted_in ks cb ce) ->
    begin_rule start given ks start
| begin_earliest m ce : given = false -> counted_in ks m ce ->
    (forall cb' ce', counted_in ks cb' ce' -> m <= cb') ->
    begin_rule start given ks (Z.max start m).

Definition is_given (a : option tattr) : bool :=
  match eff a with Some _ => true | None => false end.

(** When an element on sync base [base] could start: not before the document
    is available. *)
Definition start_at (avail base : Z) : Z :=
  if Z.eq_dec avail 0 then base else Z.max base avail.

(** The compositional semantics of div, p and span. *)
Inductive timed (avail base : Z) (lim : option Z) : elem -> ctree -> Prop :=
| timed_other : timed avail base lim Other COther
| timed_elem b e ks cb ce cks :
    Forall2 (timed avail (base + offset b) (tighten lim base e)) ks cks ->
    end_rule (if is_given e then tighten lim base e else None) lim cks ce ->
    begin_rule (start_at avail (base + offset b)) (is_given b) cks cb ->
    timed avail base lim (Timed b e ks) (CTimed b e cb ce cks).

(** The explicit end of a body: the earlier of end and begin+dur, where a
    missing begin means that dur runs from the availability time. *)
Definition body_end (avail : Z) (x : body) : option Z :=
  match eff (b_dur x), eff (b_end x) with
  | None, None => None
  | None, Some e => Some e
  | Some d, None => Some (match eff (b_begin x) with Some b => b | None => avail end + d)
  | Some d, Some e =>
      Some (Z.min (match eff (b_begin x) with Some b => b | None => avail end + d) e)
  end.

(** Is the body's end not after its begin (as the code decides it)? *)
Definition bad_body (x : body) : bool := badly_timed (b_begin x) (b_end x).

(** The semantics of the body, and so of the document. *)
Inductive timed_body (avail : Z) (x : body) : ctree -> Prop :=
| timed_body_ok cb ce cks :
    bad_body x = false ->
    Forall2 (timed avail (offset (b_begin x)) (body_end avail x)) (b_kids x) cks ->
    end_rule (body_end avail x) None cks ce ->
    begin_rule (start_at avail (offset (b_begin x))) (is_given (b_begin x)) cks cb ->
    timed_body avail x (CTimed (b_begin x) (b_end x) cb ce cks)
| timed_body_bad cb cks :
    bad_body x = true ->
    Forall2 (timed avail (offset (b_begin x)) (body_end avail x)) (b_kids x) cks ->
    begin_rule 0 (is_given (b_begin x)) cks cb ->
    timed_body avail x (CTimed (b_begin x) (b_end x) cb None cks).

(** Subtrees of a result. *)
Inductive sub (m : ctree) : ctree -> Prop :=
| sub_refl : sub m m
| sub_kid b e cb ce ks k : In k ks -> sub m k -> sub m (CTimed b e cb ce ks).

(** Attribute values that come from parsing are never negative. *)
Definition nn (a : option tattr) : Prop :=
  match a with Some x => 0 <= ta_us x | None => True end.

Inductive nn_elem : elem -> Prop :=
| nn_other : nn_elem Other
| nn_timed b e ks : nn b -> nn e -> Forall nn_elem ks -> nn_elem (Timed b e ks).

Definition nn_body (x : body) : Prop :=
  nn (b_begin x) /\ nn (b_end x) /\ nn (b_dur x) /\ Forall nn_elem (b_kids x).

(** Dropping attributes that denote zero. *)
Definition erase_attr (a : option tattr) : option tattr :=
  match a with
  | Some x => if ta_us x =? 0 then None else Some x
  | None => None
  end.

Fixpoint erase (t : elem) : elem :=
  match t with
  | Other => Other
  | Timed b e ks => Timed (erase_attr b) (erase_attr e) (map erase ks)
  end.

Definition erase_body (x : body) : body :=
  mkBody (erase_attr (b_begin x)) (erase_attr (b_end x)) (erase_attr (b_dur x))
         (map erase (b_kids x)).

(** No element on which the erasure would change whether it is badly timed. *)
Definition erase_safe (b e : option tattr) : Prop :=
  badly_timed b e = true ->
  erase_attr b = b /\ erase_attr e = e.

Inductive zero_safe : elem -> Prop :=
| zs_other : zero_safe Other
| zs_timed b e ks : erase_safe b e -> Forall zero_safe ks -> zero_safe (Timed b e ks).

Definition zero_safe_body (x : body) : Prop :=
  erase_safe (b_begin x) (b_end x) /\ Forall zero_safe (b_kids x).

(** Just the times of a result. *)
Inductive shape : Type := Sh (cb : Z) (ce : option Z) (ks : list shape) | ShO.
Fixpoint times (t : ctree) : shape :=
  match t with
  | COther => ShO
  | CTimed _ _ cb ce ks => Sh cb ce (map times ks)
  end.

(** Removing the badly timed elements (below the root). *)
Definition is_bad (t : elem) : bool :=
  match t with Timed b e _ => badly_timed b e | Other => false end.
Definition is_bad_c (t : ctree) : bool :=
  match t with CTimed b e _ _ _ => badly_timed b e | COther => false end.

Fixpoint prune (t : elem) : elem :=
  match t with
  | Other => Other
  | Timed b e ks =>
      Timed b e (flat_map (fun k => if is_bad k then [] else [prune k]) ks)
  end.

Fixpoint prune_c (t : ctree) : ctree :=
  match t with
  | COther => COther
  | CTimed b e cb ce ks =>
      CTimed b e cb ce (flat_map (fun k => if is_bad_c k then [] else [prune_c k]) ks)
  end.

Definition prune_body (x : body) : body :=
  mkBody (b_begin x) (b_end x) (b_dur x)
         (flat_map (fun k => if is_bad k then [] else [prune k]) (b_kids x)).
