(** What is shown of the paragraphs of a document, and where white space put
    around its parts makes a difference.

    Independent of how documents are written: TTML 1.0, 7.2.3 (xml:space) with
    the properties of XSL 1.1 it refers to.  With xml:space="preserve" every
    character is shown; else runs of white space are shown as one blank, and none
    at the ends of a line. *)

From Coq Require Import List String Ascii Bool Arith.
From Verif Require Import PrintModel.
Import ListNotations.
Open Scope string_scope.

(** A character that is shown, white space that may be collapsed, a line break. *)
Inductive item := X (c : ascii) | Sp | Bk.

Definition item_of (preserve : bool) (c : ascii) : item :=
  if preserve then X c else if white c then Sp else X c.
Fixpoint items_of (preserve : bool) (s : string) : list item :=
  match s with
  | "" => []
  | String c r => item_of preserve c :: items_of preserve r
  end.

(** xml:space, or that of the element around it. *)
Fixpoint lookup (k : string) (l : list (string * string)) : option string :=
  match l with
  | [] => None
  | (k', v) :: r => if String.eqb k k' then Some v else lookup k r
  end.
Definition mode (a : list (string * string)) (outer : bool) : bool :=
  match lookup "xml:space" a with
  | Some v => String.eqb v "preserve"
  | None => outer
  end.

Fixpoint items (pr : bool) (n : node) : list item :=
  match n with
  | Text s => items_of pr s
  | Br => [Bk]
  | Leaf _ => []
  | El _ a kids => flat_map (items (mode a pr)) kids
  end.

(** The lines of a paragraph: white space is left only between two characters. *)
Inductive state := Start | Mid | Pend.
Fixpoint norm (st : state) (l : list item) : list item :=
  match l with
  | [] => []
  | Sp :: r => norm (match st with Start => Start | _ => Pend end) r
  | Bk :: r => Bk :: norm Start r
  | X c :: r => (match st with Pend => [Sp] | _ => [] end ++ X c :: norm Mid r)%list
  end.

(** The paragraphs: whether they preserve white space, and their content. *)
Fixpoint paras (pr : bool) (n : node) : list (bool * list node) :=
  match n with
  | El P a kids => [(mode a pr, kids)]
  | El _ a kids => flat_map (paras (mode a pr)) kids
  | _ => []
  end.
Definition shown_para (p : bool * list node) : list item :=
  norm Start (flat_map (items (fst p)) (snd p)).
Definition shown (n : node) : list (list item) := map shown_para (paras false n).

(** The characters one can see, and the line breaks. *)
Definition visible (i : item) : bool :=
  match i with X c => negb (white c) | Sp => false | Bk => true end.

(** The number of characters shown, collapsed white space left out. *)
Definition is_x (i : item) : bool := match i with X _ => true | _ => false end.
Definition chars (n : node) : nat :=
  fold_right plus 0 (map (fun l => List.length (filter is_x l)) (shown n)).

(** ** Places where white space matters *)

(** The texts of a paragraph one by one, and the line breaks. *)
Fixpoint runs (pr : bool) (n : node) : list (list item) :=
  match n with
  | Text s => [items_of pr s]
  | Br => [[Bk]]
  | Leaf _ => []
  | El _ a kids => flat_map (runs (mode a pr)) kids
  end.

(** No text ends in a character that is shown where the next begins with one. *)
Fixpoint apart (before : item) (l : list (list item)) : bool :=
  match l with
  | [] => true
  | [] :: rs => apart before rs
  | (i :: r) :: rs => negb (is_x before && is_x i) && apart (last r i) rs
  end.

(** An element with nothing in it, or with one text. *)
Definition simple (kids : list node) : bool :=
  match kids with
  | [] | [Text _] => true
  | _ => false
  end.
Fixpoint has_cr (s : string) : bool :=
  match s with
  | "" => false
  | String c r => Ascii.eqb c CR || has_cr r
  end.

(** Every element that preserves white space is simple; cr: and has no carriage
    return in its text. *)
Fixpoint kept (cr pr : bool) (n : node) : bool :=
  match n with
  | Text s => negb (cr && pr && has_cr s)
  | El _ a kids =>
      (negb (mode a pr) || simple kids) && forallb (kept cr (mode a pr)) kids
  | _ => true
  end.
Definition kept_para (cr : bool) (p : bool * list node) : bool :=
  (negb (fst p) || simple (snd p)) && forallb (kept cr (fst p)) (snd p).
Definition apart_para (p : bool * list node) : bool :=
  apart Bk (flat_map (runs (fst p)) (snd p)).
Definition robust (p : bool * list node) : bool := kept_para true p && apart_para p.

(** An element that preserves white space and has another one in it, or a line
    break, or metadata. *)
Definition element (n : node) : bool := match n with Text _ => false | _ => true end.
Fixpoint swells (pr : bool) (n : node) : bool :=
  match n with
  | El _ a kids => (mode a pr && existsb element kids) || existsb (swells (mode a pr)) kids
  | _ => false
  end.
Definition swells_para (p : bool * list node) : bool :=
  (fst p && existsb element (snd p)) || existsb (swells (fst p)) (snd p).
