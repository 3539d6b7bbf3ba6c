(** The comparison of XML texts that the project's tests rely on.

    Source: ebu_tt_live/utils.py 372-468 (strip_quotes, compare_xml).

    Nodes are those of xml.dom.minidom.  Its parser is not modelled; compare
    takes one as an argument.  Texts are strings of bytes. *)

From Coq Require Import List String Ascii Bool Arith.
Import ListNotations.
Open Scope string_scope.

(** A CDATA section is no TEXT_NODE of minidom.  Instr stands for processing
    instructions and document types, neither of which has a tagName.  The
    attributes are the items of the NamedNodeMap: the names with their prefixes,
    declarations of namespaces included. *)
Inductive node :=
| Elem (tag : string) (attrs : list (string * string)) (kids : list node)
| Text (s : string)
| Cdata (s : string)
| Comment (s : string)
| Instr (s : string).

(** ** White space *)

(** utils.py 413: blank, tab and newline. *)
Definition white (c : ascii) : bool :=
  (Ascii.eqb c " " || Ascii.eqb c "009" || Ascii.eqb c "010")%char.

(** What was seen of a run of white space so far. *)
Inductive run := RNone | ROne (c : ascii) | RMany.
Definition push (r : run) (c : ascii) : run := match r with RNone => ROne c | _ => RMany end.
Definition flush (r : run) : string :=
  match r with RNone => "" | ROne c => String c "" | RMany => " " end.

(** norm_whitespace, 415-416: each run of two or more becomes a blank. *)
Fixpoint norm_from (r : run) (s : string) : string :=
  match s with
  | EmptyString => flush r
  | String c s' => if white c then norm_from (push r c) s' else flush r ++ String c (norm_from RNone s')
  end.
Definition norm_whitespace (s : string) : string := norm_from RNone s.

(** ** Elements *)

(** child_text, 418-420. *)
Fixpoint child_text (l : list node) : string :=
  match l with
  | [] => ""
  | Text s :: r => s ++ child_text r
  | _ :: r => child_text r
  end.

(** children, 422-424. *)
Definition is_elem (x : node) : bool := match x with Elem _ _ _ => true | _ => false end.
Definition children (l : list node) : list node := filter is_elem l.

(** attrs_dict, 429-430, and the comparison of dictionaries: as many entries,
    and those of one are in the other.  Names occur once in a NamedNodeMap. *)
Fixpoint lookup (k : string) (l : list (string * string)) : option string :=
  match l with
  | [] => None
  | (k', v) :: r => if String.eqb k k' then Some v else lookup k r
  end.
Definition dict_eqb (a b : list (string * string)) : bool :=
  Nat.eqb (List.length a) (List.length b) &&
  forallb (fun p => match lookup (fst p) b with Some v => String.eqb v (snd p) | None => false end) a.

(** check_element, 432-446.  The children of the first element are picked while
    going through them, and different numbers of children are noticed at the end
    of the shorter list. *)
Fixpoint check_element (want got : node) {struct want} : bool :=
  match want, got with
  | Elem t a ks, Elem t' a' ks' =>
      String.eqb t t' &&
      String.eqb (norm_whitespace (child_text ks)) (norm_whitespace (child_text ks')) &&
      dict_eqb a a' &&
      (fix all (l gs : list node) {struct l} : bool :=
         match l with
         | [] => match gs with [] => true | _ => false end
         | x :: l' =>
             if is_elem x then
               match gs with
               | [] => false
               | g :: gs' => check_element x g && all l' gs'
               end
             else all l' gs
         end) ks (children ks')
  | _, _ => false
  end.

(** ** Texts *)

(** str.strip removes these. *)
Definition space (c : ascii) : bool :=
  let n := nat_of_ascii c in (9 <=? n)%nat && (n <=? 13)%nat || (n =? 32)%nat.
Fixpoint lstrip (s : string) : string :=
  match s with
  | String c s' => if space c then lstrip s' else s
  | EmptyString => ""
  end.
Fixpoint rstrip (s : string) : string :=
  match s with
  | EmptyString => ""
  | String c s' => match rstrip s' with
                   | EmptyString => if space c then "" else String c ""
                   | r => String c r
                   end
  end.
Definition strip (s : string) : string := rstrip (lstrip s).

Fixpoint last_char (s : string) : option ascii :=
  match s with
  | EmptyString => None
  | String c EmptyString => Some c
  | String _ s' => last_char s'
  end.
Fixpoint drop_last (s : string) : string :=
  match s with
  | EmptyString => ""
  | String _ EmptyString => ""
  | String c s' => String c (drop_last s')
  end.
Definition quote (c : ascii) : bool := (Ascii.eqb c """" || Ascii.eqb c "'")%char.

(** is_quoted_string and is_quoted_unicode, 381-387: the text between the
    quotes, if there are some. *)
Definition quoted_string (s : string) : option string :=
  match strip s with
  | String c (String d r) =>
      match last_char (String d r) with
      | Some e => if Ascii.eqb c e && quote c then Some (drop_last (String d r)) else None
      | None => None
      end
  | _ => None
  end.
Definition quoted_unicode (s : string) : option string :=
  match strip s with
  | String u (String c (String d r)) =>
      match last_char (String d r) with
      | Some e => if Ascii.eqb u "u" && (Ascii.eqb c e && quote c) then Some (drop_last (String d r)) else None
      | None => None
      end
  | _ => None
  end.

(** strip_quotes, 372-395. *)
Definition strip_quotes (want got : string) : string * string :=
  match quoted_string want, quoted_string got with
  | Some w, Some g => (w, g)
  | _, _ => match quoted_unicode want, quoted_unicode got with
            | Some w, Some g => (w, g)
            | _, _ => (want, got)
            end
  end.

(** replace('\\n', '\n'), 454-455. *)
Fixpoint newlines (s : string) : string :=
  match s with
  | String c s' =>
      match s' with
      | String d r => if (Ascii.eqb c "\" && Ascii.eqb d "n")%char then String "010" (newlines r) else String c (newlines s')
      | EmptyString => s
      end
  | EmptyString => ""
  end.

(** 453-462. *)
Definition wrap (s : string) : string := "<root>" ++ s ++ "</root>".
Definition prepare (want got : string) : string * string :=
  let (w, g) := strip_quotes want got in
  let w := newlines (strip w) in
  let g := newlines (strip g) in
  if String.prefix "<?xml" w then (w, g) else (wrap w, wrap g).

(** first_node, 448-451, of the nodes of a document; a declaration of XML is
    none of them. *)
Definition first_node (l : list node) : option node :=
  find (fun x => match x with Comment _ => false | _ => true end) l.

(** compare_xml, 398-468.  None stands for an exception: the parser's, or that
    the first node has no tagName. *)
Definition compare_xml (parse : string -> option (list node)) (want got : string) : option bool :=
  let (w, g) := prepare want got in
  match parse w, parse g with
  | Some dw, Some dg =>
      match first_node dw, first_node dg with
      | Some (Elem t a ks), Some (Elem t' a' ks') => Some (check_element (Elem t a ks) (Elem t' a' ks'))
      | _, _ => None
      end
  | _, _ => None
  end.
