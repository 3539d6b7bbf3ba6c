(** What a document looks like at an instant: the content presented (SegmentSpec)
    with the region each element is in and its computed style.  For C51. *)

From Coq Require Import List ZArith String Bool.
From Verif Require Import TimingModel StyleModel PropsScope SegmentModel SegmentSpec SpliceSpec.
Import ListNotations.
Open Scope Z_scope.

(** Presented content with the region in effect and the attributes of the
    computed style in place of references. *)
Inductive seen :=
| TText (s : string)
| TBreak
| TEl (k : ekind) (i : option string) (region : option string) (a : sattrs) (kids : list seen).

(** As for [readable]. *)
Definition legible (s : seen) : bool :=
  match s with TText s => negb (blank s) | TBreak => false | TEl _ _ _ _ _ => true end.

(** The style pass has one result for every element, none for text and br. *)
Definition rest (n : node) (os : list sout) : list sout := match n with Node _ _ _ _ _ _ _ => tl os | _ => os end.

(** [appear t n c os]: what [n] contributes at [t] when its times are [c] and its
    style result is the first of [os].  Which elements do is as for [present]. *)
Fixpoint appear (t : Z) (n : node) (c : ctree) (os : list sout) {struct n} : list seen :=
  match n with
  | Text s => [TText s]
  | Br => [TBreak]
  | Node k i _ _ _ _ kids =>
      match c, os with
      | CTimed _ _ cb ce cs, SOut _ _ e oks :: _ =>
          let fix all (ns : list node) (cs : list ctree) (os : list sout) {struct ns} : list seen :=
            match ns, cs with
            | m :: ns', x :: cs' => (appear t m x os ++ all ns' cs' (rest m os))%list
            | _, _ => []
            end in
          let inner := all kids cs oks in
          if active t cb ce && existsb legible inner
          then [TEl k i (e_region e) (c_attrs (e_computed e)) inner] else []
      | _, _ => []
      end
  end.

Fixpoint appear_all (t : Z) (ns : list node) (cs : list ctree) (os : list sout) : list seen :=
  match ns, cs with
  | m :: ns', x :: cs' => (appear t m x os ++ appear_all t ns' cs' (rest m os))%list
  | _, _ => []
  end.

Definition appear_body (t : Z) (b : bodyd) (c : ctree) (o : sout) : list seen :=
  match c, o with
  | CTimed _ _ cb ce cs, SOut _ _ _ os => if active t cb ce then appear_all t (bd_kids b) cs os else []
  | _, _ => []
  end.

(** The document, validated with the sizes [z]; nothing when validation fails. *)
Definition looks_at (avail : option Z) (z : sizing) (d : docu bodyd) (t : Z) : list seen :=
  match t_body d with
  | Some b =>
      match validate avail (Some (timing_body b)), validate_styles (doc_table d b) z (styling_body b) with
      | TOk (_, _, c), SOk (_, o) => appear_body t b c o
      | _, _ => []
      end
  | None => []
  end.

(** Its styles and regions validate. *)
Definition style_valid (z : sizing) (d : docu bodyd) : Prop :=
  match t_body d with
  | Some b => exists r, validate_styles (doc_table d b) z (styling_body b) = SOk r
  | None => True
  end.

(** A validated document as it was before. *)
Definition unchecked (d : docu vbody) : docu bodyd :=
  mkDocu (t_base d) (t_seq d) (t_styling d) (t_layout d) (option_map plain_body (t_body d)).

(** As style_checked, for given sizes. *)
Definition style_checked_at (z : sizing) (d : docu vbody) (v : vbody) : Prop :=
  NoDup (map fst (doc_table d (plain_body v))) /\
  exists regions o, validate_styles (doc_table d (plain_body v)) z (styling_body (plain_body v)) = SOk (regions, o) /\ vstyles_body v = ostyles o.

(** The same content under other identifiers and with other attributes. *)
Fixpoint relook (f : string -> string) (g : sattrs -> sattrs) (s : seen) : seen :=
  match s with
  | TEl k i r a kids => TEl k (option_map f i) (option_map f r) (g a) (map (relook f g) kids)
  | _ => s
  end.
Fixpoint nameless (s : seen) : seen :=
  match s with
  | TEl k _ r a kids => TEl k None r a (map nameless kids)
  | _ => s
  end.

(** multiRowAlign as if no style had it. *)
Definition no_align (a : sattrs) : sattrs := setattr a MultiRowAlign (Some "auto"%string).

(** ** For joining *)

(** The computed style of the body. *)
Definition body_computed (z : sizing) (d : docu bodyd) : option computed :=
  match t_body d with
  | Some b => match validate_styles (doc_table d b) z (styling_body b) with
              | SOk (_, SOut _ _ e _) => Some (e_computed e)
              | SErr _ => None
              end
  | None => None
  end.

(** The same sizes, and the same attributes set: what children can inherit. *)
Definition as_parent (c c' : computed) : Prop :=
  fontSize (c_attrs c') = fontSize (c_attrs c) /\ lineHeight (c_attrs c') = lineHeight (c_attrs c) /\
  c_default_lh c' = c_default_lh c /\ forall a, pick_attr a (Some c') = pick_attr a (Some c).

Definition flat_doc (d : docu bodyd) : Prop := forall b, t_body d = Some b -> flat (styling_body b) = true.

(** What a validated document looks like. *)
Definition looks_checked (z : sizing) (d : docu vbody) (v : vbody) (t : Z) : list seen :=
  match validate_styles (doc_table d (plain_body v)) z (styling_body (plain_body v)) with
  | SOk (_, o) => appear_body t (plain_body v) (vtimes_body v) o
  | SErr _ => []
  end.
