(** When two XML documents are the same, for the comparison of the tests. *)

From Coq Require Import List String Ascii Bool Permutation Relations.
From Verif Require Import CompareModel.
Import ListNotations.
Open Scope string_scope.

(** Two white characters in a row are as good as a blank. *)
Definition is_white (c : ascii) : Prop := In c [" "%char; "009"%char; "010"%char].
Definition squeeze (s t : string) : Prop :=
  exists u c d v, is_white c /\ is_white d /\ s = u ++ String c (String d v) /\ t = u ++ String " " v.
Definition same_text : string -> string -> Prop := clos_refl_sym_trans string squeeze.

(** Of the content of an element only its text as a whole and its child
    elements matter. *)
Definition text_of (l : list node) : string :=
  String.concat "" (map (fun x => match x with Text s => s | _ => "" end) l).
Definition elements (l : list node) : list node :=
  flat_map (fun x => match x with Elem t a k => [Elem t a k] | _ => [] end) l.

Inductive same : node -> node -> Prop :=
| Same : forall t a a' ks ks',
    Permutation a a' -> same_text (text_of ks) (text_of ks') ->
    Forall2 same (elements ks) (elements ks') ->
    same (Elem t a ks) (Elem t a' ks').

(** No element has two attributes of a name. *)
Inductive wf : node -> Prop :=
| WfElem : forall t a ks, NoDup (map fst a) -> Forall wf ks -> wf (Elem t a ks)
| WfText : forall s, wf (Text s)
| WfCdata : forall s, wf (Cdata s)
| WfComment : forall s, wf (Comment s)
| WfInstr : forall s, wf (Instr s).

(** ** Namespaces *)

(** The part before the colon, if there is one, and the part after it. *)
Fixpoint split_name (s : string) : option string * string :=
  match s with
  | EmptyString => (None, "")
  | String c r =>
      if Ascii.eqb c ":" then (Some "", r)
      else match split_name r with
           | (Some p, l) => (Some (String c p), l)
           | (None, l) => (None, String c l)
           end
  end.

(** The namespaces in scope: of prefixes, "" being that of names without. *)
Definition scope := string -> option string.
Definition inner (e : scope) (a : list (string * string)) : scope := fun p =>
  match lookup (if String.eqb p "" then "xmlns" else "xmlns:" ++ p) a with
  | Some u => Some u
  | None => e p
  end.
Definition element_name (e : scope) (n : string) : option string * string :=
  match split_name n with
  | (Some p, l) => (e p, l)
  | (None, l) => (e "", l)
  end.
(** Attributes without a prefix are in no namespace. *)
Definition attribute (e : scope) (x : string * string) : (option string * string) * string :=
  (match split_name (fst x) with
   | (Some p, l) => (e p, l)
   | (None, l) => (None, l)
   end, snd x).
Definition declaration (x : string * string) : bool :=
  String.eqb (fst x) "xmlns" || String.prefix "xmlns:" (fst x).
Definition attributes (e : scope) (a : list (string * string)) : list ((option string * string) * string) :=
  map (attribute e) (filter (fun x => negb (declaration x)) a).

(** The same as documents with namespaces. *)
Inductive same_ns : scope -> scope -> node -> node -> Prop :=
| SameNs : forall e e' t t' a a' ks ks',
    element_name (inner e a) t = element_name (inner e' a') t' ->
    Permutation (attributes (inner e a) a) (attributes (inner e' a') a') ->
    same_text (text_of ks) (text_of ks') ->
    Forall2 (same_ns (inner e a) (inner e' a')) (elements ks) (elements ks') ->
    same_ns e e' (Elem t a ks) (Elem t' a' ks').

(** ** Documents for which the comparison is exact *)

Fixpoint tight (s : string) : Prop :=
  match s with
  | String c r => match r with String d _ => ~ (is_white c /\ is_white d) | EmptyString => True end /\ tight r
  | EmptyString => True
  end.

(** Elements have text without two white characters in a row, or elements. *)
Inductive plain : node -> Prop :=
| PlainText : forall t a s, NoDup (map fst a) -> s <> "" -> tight s -> plain (Elem t a [Text s])
| PlainElems : forall t a ks, NoDup (map fst a) -> Forall plain ks -> plain (Elem t a ks).

(** Equal but for the order of attributes. *)
Inductive equal : node -> node -> Prop :=
| EqText : forall s, equal (Text s) (Text s)
| EqElem : forall t a a' ks ks', Permutation a a' -> Forall2 equal ks ks' -> equal (Elem t a ks) (Elem t a' ks').
