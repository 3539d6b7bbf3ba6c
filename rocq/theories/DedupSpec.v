(** What de-duplication should do, stated without its code. *)

From Coq Require Import List ZArith String Ascii Bool Permutation.
From Verif Require Import Digits TimingModel StyleModel StyleProofs SegmentModel DedupModel.
Import ListNotations.
Local Open Scope string_scope.

Definition styles (d : ddoc) : list el := match dd_styles d with Some l => l | None => [] end.
Definition regions (d : ddoc) : list el := match dd_regions d with Some l => l | None => [] end.

(** Equal in every attribute but xml:id. *)
Definition alike (a b : el) : Prop := x_refs a = x_refs b /\ x_vals a = x_vals b /\ x_wild a = x_wild b.

(** The attribute values of the style a reference denotes. *)
Definition named (l : list el) (i : string) : option el := find (fun e => String.eqb (x_id e) i) l.
Definition meaning (l : list el) (i : string) : option (list (option string) * list (string * string * string)) :=
  option_map (fun e => (x_vals e, x_wild e)) (named l i).

(** The references of the body, element by element. *)
Fixpoint ref_lists (n : node) : list (option (list string)) :=
  match n with
  | Node _ _ _ style _ _ kids => style :: flat_map ref_lists kids
  | _ => []
  end.
Fixpoint region_list (n : node) : list (option string) :=
  match n with
  | Node _ _ r _ _ _ kids => r :: flat_map region_list kids
  | _ => []
  end.
Definition body_refs (d : ddoc) : list (option (list string)) :=
  match dd_body d with Some b => bd_style b :: flat_map ref_lists (bd_kids b) | None => [] end.
Definition body_regions (d : ddoc) : list (option string) :=
  match dd_body d with Some b => flat_map region_list (bd_kids b) | None => [] end.

(** References renamed, the first of equal ones kept. *)
Definition renamed_refs (f : string -> string) (s : option (list string)) : option (list string) :=
  option_map (fun l => keep_first (map f l)) s.
Fixpoint renamed_node (f : string -> string) (n : node) : node :=
  match n with
  | Node k i r s b e kids => Node k i (option_map f r) (renamed_refs f s) b e (map (renamed_node f) kids)
  | n => n
  end.
Definition renamed_body (f : string -> string) (b : bodyd) : bodyd :=
  mkBodyd (renamed_refs f (bd_style b)) (bd_begin b) (bd_end b) (bd_dur b) (map (renamed_node f) (bd_kids b)).

(** An element with its references renamed one by one. *)
Definition rerefer (f : string -> string) (e : el) : el :=
  mkEl (x_id e) (option_map (map f) (x_refs e)) (x_vals e) (x_wild e).

(** [y .. x .. x .. y] with no [y] between the two [x]. *)
Definition nested {A} (l : list A) : Prop :=
  exists x y a b c d e, x <> y /\ l = (a ++ y :: b ++ x :: c ++ x :: d ++ y :: e)%list /\ ~ In y c.

(** ** Attribute values that cannot be confused *)

(** A percent sign in a value is its last character or comes before a space. *)
Fixpoint marks_ok (s : string) : bool :=
  match s with
  | EmptyString => true
  | String c r =>
      (if Ascii.eqb c "%" then match r with EmptyString => true | String c' _ => Ascii.eqb c' " " end else true)
      && marks_ok r
  end.
Definition starts_ok (s : string) : bool :=
  match s with EmptyString => false | String c _ => negb (Ascii.eqb c "%") && negb (Ascii.eqb c " ") end.
Definition tidy (s : string) : bool := starts_ok s && marks_ok s.

(** At most one attribute of another namespace. *)
Definition wild_ok (w : list (string * string * string)) : bool :=
  match w with
  | [] => true
  | [(n, l, v)] => tidy n && tidy l && tidy v
  | _ => false
  end.
Definition vals_ok (e : el) : bool :=
  forallb (fun v => match v with Some s => tidy s && is_ascii s && negb (String.eqb s "|") | None => true end) (x_vals e)
  && wild_ok (x_wild e).

(** The style lists that de-duplication may write for [l]. *)
Definition variant (d : ddoc) (l l' : list string) : Prop :=
  Forall2 (fun i j => exists a b, In a (styles d) /\ In b (styles d) /\ x_id a = i /\ x_id b = j /\ alike a b) l l'.
(** The elements that may be hashed. *)
Inductive hashed (d : ddoc) : el -> Prop :=
| HStyle e : In e (styles d) -> hashed d e
| HRegion e : In e (regions d) -> x_refs e = None -> hashed d e
| HRefs e l l' : In e (regions d) -> x_refs e = Some l -> variant d l l' ->
                 hashed d (mkEl (x_id e) (Some l') (x_vals e) (x_wild e)).

(** What is needed of Python for [d]: lists of references print as distinct,
    tidy strings; strings that are hashed do not collide; dictionaries are
    iterated in some order. *)
Record fair (py : python) (d : ddoc) : Prop := mkFair {
  fair_show : forall e l, hashed d e -> x_refs e = Some l ->
    tidy (py_show py l) = true /\ is_ascii (py_show py l) = true /\ py_show py l <> "|";
  fair_show_inj : forall e e' l l', hashed d e -> hashed d e' -> x_refs e = Some l -> x_refs e' = Some l' ->
    py_show py l = py_show py l' -> l = l';
  fair_hash : forall e e', hashed d e -> hashed d e' ->
    py_hash py (code py e) = py_hash py (code py e') -> code py e = code py e';
  fair_order : forall l, Permutation (py_order py l) l }.

(** A valid document with flat styles. *)
Record sound (d : ddoc) : Prop := mkSound {
  sound_ids : NoDup (map x_id (styles d ++ regions d));
  sound_styles : forall e, In e (styles d) -> x_refs e = None /\ List.length (x_vals e) = 15%nat /\ vals_ok e = true;
  sound_regions : forall e, In e (regions d) -> List.length (x_vals e) = 7%nat /\ vals_ok e = true;
  sound_refs : forall l i, (In (Some l) (body_refs d) \/ In (Some l) (map x_refs (regions d))) -> In i l ->
    In i (map x_id (styles d));
  sound_region : forall i, In (Some i) (body_regions d) -> In i (map x_id (regions d)) }.

(** No list of references repeats a style inside a repetition of another. *)
Definition unnested (d : ddoc) : Prop :=
  forall l, (In (Some l) (body_refs d) \/ In (Some l) (map x_refs (regions d))) -> ~ nested (map (meaning (styles d)) l).

(** The style specified by a list of references, [read] being how the attribute
    values of a style are read (StyleModel: the first style that has an attribute
    gives its value). *)
Definition specified (read : list (option string) -> sattrs) (l : list el) (refs : option (list string)) : sattrs :=
  resolve_styles (map (fun i => match named l i with Some e => read (x_vals e) | None => no_attrs end)
                      (match refs with Some r => r | None => [] end)).
