(** When a document is valid, element by element, and what each refusal says is
    wrong; without any order of checks and without any state. *)

From Coq Require Import List String Bool QArith.
From Verif Require Import IdModel StyleModel StyleProofs StyleTree ReadModel ReadSpec ValidModel.
From Verif Require HeadModel HeadSpec.
Import ListNotations.
Open Scope string_scope.

(** An element of the body on its own. *)
Record vnode := mkN { n_kind : ekind; n_id : option string; n_times : timing; n_style : list string; n_region : option string }.

(** The elements of a tree, parents before their children. *)
Fixpoint nodes (t : vel) : list vnode :=
  match t with
  | VNode k id tm style region kids => mkN k id tm (refs style) region :: flat_map nodes kids
  end.
Definition body_nodes (d : vdoc) : list vnode := match vd_body d with Some b => nodes b | None => [] end.

(** The identifiers of a document, in document order, with what they stand for. *)
Definition node_entry (n : vnode) : list (string * kind) :=
  match n_kind n, n_id n with
  | Body, _ | _, None => []
  | _, Some i => [(i, KOther)]
  end.
Definition style_entries (d : vdoc) : list (string * kind) := map (fun e => (fst e, KStyle (snd e))) (vd_styles d).
Definition region_entries (d : vdoc) : list (string * kind) := map (fun r => (vr_id r, KRegion (vr_el r))) (vd_regions d).
Definition entries (d : vdoc) : list (string * kind) :=
  (style_entries d ++ region_entries d ++ flat_map node_entry (body_nodes d))%list.

(** The lists of styles that regions and elements of the body name. *)
Definition users (d : vdoc) : list (list string) :=
  (map (fun r => refs (r_refs (vr_el r))) (vd_regions d) ++ map n_style (body_nodes d))%list.

(** The time an element has for an attribute; only body has a dur. *)
Definition time_of (n : vnode) (a : tname) : option ttype :=
  match a with
  | NBegin => t_begin (n_times n)
  | NEnd => t_end (n_times n)
  | NDur => match n_kind n with Body => t_dur (n_times n) | _ => None end
  end.

(** The region an element names; body and span name none. *)
Definition region_named (n : vnode) : option string :=
  match n_kind n with Div | P => n_region n | _ => None end.

(** A size in pixels among those that are checked. *)
Definition has_pixels (d : vdoc) : Prop :=
  (exists i s f, In (i, s) (vd_styles d) /\ fontSize (s_attrs s) = Some f /\ f_unit f = Px) \/
  (exists r, In r (vd_regions d) /\ (vr_origin r = Px \/ vr_extent r = Px)).

(** The line height that a list of style references amounts to: the first one
    among the styles met following the references. *)
Definition line_height (T : list (string * kind)) (l : list string) (h : lheight) : Prop :=
  exists u, unfolds_all T l u /\ nearest (map (fun i => lineHeight (attrs_of T i)) u) = Some h.

Definition valid (d : vdoc) : Prop :=
  let T := style_entries d in
  (forall u p, vd_extent d = Some (u, p) -> u = Px) /\
  HeadSpec.proper (vd_head d) /\
  NoDup (map fst (entries d)) /\
  (vd_extent d = None -> ~ has_pixels d) /\
  (forall n a ty, In n (body_nodes d) -> time_of n a = Some ty -> In ty (kinds (HeadModel.k_tb (vd_head d)))) /\
  (forall l i, In l (users d) -> In i l -> sound T i) /\
  (forall n i, In n (body_nodes d) -> region_named n = Some i -> In i (map vr_id (vd_regions d))) /\
  (vd_extent d = None -> forall l q, In l (users d) -> ~ line_height T l (LSize Px q)).

(** What a refusal says is wrong. *)
Definition fault (d : vdoc) (e : verr) : Prop :=
  let T := style_entries d in
  match e with
  | VExtentType => exists u p, vd_extent d = Some (u, p) /\ u <> Px
  | VHead _ => ~ HeadSpec.proper (vd_head d)
  | VDuplicate i => exists a b c, map fst (entries d) = (a ++ i :: b ++ i :: c)%list
  | VTime a ty => exists n, In n (body_nodes d) /\ time_of n a = Some ty /\
                            ~ In ty (kinds (HeadModel.k_tb (vd_head d)))
  | VStyle (Missing x) => get_style T x = None /\
      exists l, In l (users d) /\ (In x l \/ exists i y, In i l /\ reach T i y /\ edge T y x)
  | VStyle (Circle x) => path T x x /\ exists l i, In l (users d) /\ In i l /\ reach T i x
  | VStyle (RegionMissing i) => (exists n, In n (body_nodes d) /\ region_named n = Some i) /\
                                ~ In i (map vr_id (vd_regions d))
  | VStyle ExtentMissing => vd_extent d = None /\ has_pixels d
  | VStyle PlainException => vd_extent d = None /\ exists l q, In l (users d) /\ line_height T l (LSize Px q)
  | VStyle OutOfFuel => False
  end.
