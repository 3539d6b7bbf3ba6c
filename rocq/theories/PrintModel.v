(** Writing a document as XML and reading it back.

    Sources: ebu_tt_live/bindings/__init__.py 521-528 (tt_type.toxml) and
    1134-1141 (d_tt_type.toxml), which print the DOM with
    toprettyxml(indent='  '); 52-59 (CreateFromDocument); the content models of
    xsd/ebutt_live.xsd 24-40, 142-151, 179-189, 224-234, 279-290, 331-337, 340-347.

    Of the libraries there are modelled: Element.writexml and Text.writexml of
    Python 2.7's xml.dom.minidom as far as white space goes, the line ends of XML
    (XML 1.0, 2.11), and the texts PyXB keeps when it reads: those of mixed
    content, put together up to the next tag, while white space between elements
    that hold no text is dropped.

    Left out: the characters written as entities, which are read back as they
    were; the declaration of XML; white space in the values of attributes; the
    inside of head and metadata. *)

From Coq Require Import List String Ascii Bool Arith.
Import ListNotations.
Open Scope string_scope.

(** ** Documents *)

Inductive tag := Tt | Body | Div | P | Span.

(** The elements with their attributes.  Leaf is a head or metadata element. *)
Inductive node :=
| Text (s : string)
| Br
| Leaf (m : string)
| El (t : tag) (a : list (string * string)) (kids : list node).

(** ebutt_live.xsd 224 and 279, mixed="true". *)
Definition mixed (t : tag) : bool := match t with P | Span => true | _ => false end.

(** The content models of ebutt_live.xsd: which elements may stand in which. *)
Definition allowed (parent t : tag) : bool :=
  match parent, t with
  | Tt, Body | Body, Div | Div, Div | Div, P | P, Span | Span, Span => true
  | _, _ => false
  end.
Fixpoint legal_in (parent : tag) (n : node) : bool :=
  match n with
  | Text _ | Br => mixed parent
  | Leaf _ => true
  | El t _ kids => allowed parent t && forallb (legal_in t) kids
  end.
Definition legal (n : node) : bool :=
  match n with
  | El Tt _ kids => forallb (legal_in Tt) kids
  | _ => false
  end.

(** ** Writing *)

(** What is written: characters, tags, and elements taken as a whole. *)
Inductive piece :=
| Ch (s : string)
| Open (t : tag) (a : list (string * string))
| Close
| OBr
| OLeaf (m : string).

(** bindings/__init__.py 525-528: two blanks for each level, and the newline
    that is the default of toprettyxml. *)
Fixpoint indent (d : nat) : string :=
  match d with O => "" | S k => "  " ++ indent k end.
Definition nl : string := String "010" "".

(** minidom: Element.writexml puts each child on a line of its own, indented,
    unless there is one only and it is a text; Text.writexml puts the indentation
    before the text and the newline after it. *)
Fixpoint write (d : nat) (n : node) : list piece :=
  match n with
  | Text s => [Ch (indent d ++ s ++ nl)]
  | Br => [Ch (indent d); OBr; Ch nl]
  | Leaf m => [Ch (indent d); OLeaf m; Ch nl]
  | El t a kids =>
      (Ch (indent d) :: Open t a ::
       match kids with
       | [] => []
       | [Text s] => [Ch s]
       | _ => Ch nl :: flat_map (write (S d)) kids ++ [Ch (indent d)]
       end ++ [Close; Ch nl])%list
  end.

(** documents/ebutt3.py 533-534, get_xml. *)
Definition get_xml (n : node) : list piece := write 0 n.

(** ** Reading *)

(** XML 1.0, 2.11: a carriage return, with or without a newline after it, is read
    as a newline. *)
Definition CR : ascii := "013".
Definition LF : ascii := "010".
Fixpoint eol (s : string) : string :=
  match s with
  | EmptyString => ""
  | String c r =>
      if Ascii.eqb c CR then
        match r with
        | String c' r' => if Ascii.eqb c' LF then String LF (eol r') else String LF (eol r)
        | EmptyString => String LF ""
        end
      else String c (eol r)
  end.

(** XML 1.0, 2.3: white space. *)
Definition white (c : ascii) : bool :=
  (Ascii.eqb c " " || Ascii.eqb c "009" || Ascii.eqb c LF || Ascii.eqb c CR)%char.
Fixpoint all_white (s : string) : bool :=
  match s with "" => true | String c r => white c && all_white r end.

(** An element being read; its children so far, the last one first. *)
Record frame := mkFrame { f_tag : tag; f_attrs : list (string * string); f_kids : list node }.
Definition add (f : frame) (n : node) : frame := mkFrame (f_tag f) (f_attrs f) (n :: f_kids f).

(** PyXB at a tag: the text read since the last one.  It raises for text in an
    element that holds none. *)
Definition flush (f : frame) (p : string) : option frame :=
  match p with
  | EmptyString => Some f
  | _ => if mixed (f_tag f) then Some (add f (Text (eol p)))
         else if all_white p then Some f else None
  end.

(** The children of the elements being read, the innermost first. *)
Fixpoint read (l : list piece) (p : string) (top : frame) (rest : list frame) : option node :=
  match l with
  | [] => None
  | Ch s :: r => read r (p ++ s) top rest
  | OBr :: r =>
      match flush top p with Some f => read r "" (add f Br) rest | None => None end
  | OLeaf m :: r =>
      match flush top p with Some f => read r "" (add f (Leaf m)) rest | None => None end
  | Open t a :: r =>
      match flush top p with Some f => read r "" (mkFrame t a []) (f :: rest) | None => None end
  | Close :: r =>
      match flush top p with
      | None => None
      | Some f =>
          let n := El (f_tag f) (f_attrs f) (rev (f_kids f)) in
          match rest with
          | [] => Some n
          | g :: rest' => read r "" (add g n) rest'
          end
      end
  end.

(** documents/ebutt3.py 315-323, create_from_xml, without the validation. *)
Definition create_from_xml (l : list piece) : option node :=
  match l with
  | Ch _ :: Open t a :: r => read r "" (mkFrame t a []) []
  | _ => None
  end.

(** One carriage that takes XML: adapters/document_data.py 76-91 at its
    beginning and 21-28 at its end. *)
Definition carried (n : node) : option node := create_from_xml (get_xml n).

(** A number of them, one after the other. *)
Fixpoint hops (k : nat) (n : node) : option node :=
  match k with
  | O => Some n
  | S k' => match hops k' n with Some m => carried m | None => None end
  end.
