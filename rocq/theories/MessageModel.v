(** Live messages (authors group control requests): how they are written as XML
    and read from it, and what becomes of them on their way through nodes.

    Sources: ebu_tt_live/documents/ebutt3.py 153-259 (EBUTT3ObjectBase,
    EBUTTLiveMessage, EBUTTAuthorsGroupControlRequest), bindings/_ebuttlm.py
    14-42, xsd/ebutt_livemessage.xsd, xsd/ebutt_parameters.xsd 17-27,
    adapters/document_data.py 14-43, 67-91, and the branches for messages in
    node/*.py.

    Characters are bytes of UTF-8.  Of PyXB, the SAX parser and minidom of
    Python 2.7 the behaviour written at the definitions is assumed. *)

From Coq Require Import List String Ascii Bool Arith.
Import ListNotations.
Open Scope string_scope.
Open Scope list_scope.

Inductive error : Type :=
| EParse       (* the parser or the schema refuses the text *)
| EIncomplete  (* IncompleteElementContentError: no payload to be written *)
| EIndex       (* IndexError on the payload *)
| EKey         (* KeyError on the type *)
| ESequence.   (* UnexpectedSequenceIdentifierError *)

Inductive res (A : Type) : Type := Ok (a : A) | Err (e : error).
Arguments Ok {A} a.
Arguments Err {A} e.

(** ** Text in XML *)

(** A character between tags or quotes: as it is, or as a reference. *)
Inductive wchar : Type := Lit (a : ascii) | Ref (a : ascii).

Definition TAB : ascii := "009"%char.
Definition LF : ascii := "010"%char.
Definition CR : ascii := "013"%char.
Definition SP : ascii := " "%char.

(** minidom's _write_data: four characters become references, all others are
    written as they are, whether XML has them or not. *)
Definition escaped (a : ascii) : bool :=
  existsb (Ascii.eqb a) ["&"; "<"; """"; ">"]%char.
Definition write_text (s : string) : list wchar :=
  map (fun a => if escaped a then Ref a else Lit a) (list_ascii_of_string s).

(** XML 1.0, 2.11: ends of lines.  A reference stays what it is. *)
Fixpoint eol (w : list wchar) : list wchar :=
  match w with
  | [] => []
  | Lit a :: r =>
      if Ascii.eqb a CR then
        Lit LF :: match r with
                  | Lit b :: r' => if Ascii.eqb b LF then eol r' else eol r
                  | _ => eol r
                  end
      else Lit a :: eol r
  | Ref a :: r => Ref a :: eol r
  end.

Definition char_of (c : wchar) : ascii := match c with Lit a | Ref a => a end.

(** XML 1.0, 2.2, up to the few characters above U+D7FF that it leaves out. *)
Definition legal (a : ascii) : bool :=
  Ascii.eqb a TAB || Ascii.eqb a LF || Ascii.eqb a CR || (32 <=? nat_of_ascii a)%nat.

(** XML 1.0, 3.3.3: white space written as it is in an attribute. *)
Definition attr_char (c : wchar) : wchar :=
  match c with
  | Lit a => if Ascii.eqb a TAB || Ascii.eqb a LF then Lit SP else c
  | Ref _ => c
  end.

Definition read_chars (w : list wchar) : option string :=
  if forallb legal (map char_of w) then Some (string_of_list_ascii (map char_of w)) else None.
(** Content of elements of type xs:string and of attributes of type xs:string:
    white space is preserved by the schema. *)
Definition read_text (w : list wchar) : option string := read_chars (eol w).
Definition read_attr (w : list wchar) : option string := read_chars (map attr_char (eol w)).

(** ** Messages in XML *)

(** What is inside payload, which is of type anyType. *)
Inductive wnode : Type := WText (w : list wchar) | WElem (name : string).

(** A message element that fits the schema except perhaps for the values of
    its text and its attribute; the type is an NCName already. *)
Record wire : Type := mkWire {
  w_sid : list wchar;
  w_sender : option (list wchar);
  w_recipients : list (list wchar);
  w_type : string;
  w_payload : list wnode }.

(** Its binding; the payload is its orderedContent(). *)
Inductive item : Type := IText (s : string) | IElem (name : string).
Record binding : Type := mkBinding {
  b_sid : string;
  b_sender : option string;
  b_recipients : list string;
  b_type : string;
  b_payload : list item }.

Fixpoint all_some {A} (l : list (option A)) : option (list A) :=
  match l with
  | [] => Some []
  | None :: _ => None
  | Some a :: r => option_map (cons a) (all_some r)
  end.

(** Text of a mixed content is put together up to the next element (PyXB's SAX
    handler), and no text is no item. *)
Definition flush (w : list wchar) : list (list wchar + string) :=
  match w with [] => [] | _ => [inl w] end.
Fixpoint merge (pending : list wchar) (l : list wnode) : list (list wchar + string) :=
  match l with
  | [] => flush pending
  | WText w :: r => merge (pending ++ w) r
  | WElem n :: r => flush pending ++ inr n :: merge [] r
  end.
Definition read_item (i : list wchar + string) : option item :=
  match i with
  | inl w => option_map IText (read_text w)
  | inr n => Some (IElem n)
  end.

(** bindings.CreateFromDocument on a message.  The sequence identifier has at
    least one character (ebutt_parameters.xsd 22-26). *)
Definition parse (w : wire) : res binding :=
  match read_attr (w_sid w),
        match w_sender w with None => Some None | Some t => option_map Some (read_text t) end,
        all_some (map read_text (w_recipients w)),
        all_some (map read_item (merge [] (w_payload w))) with
  | Some sid, Some sender, Some recipients, Some payload =>
      if String.eqb sid "" then Err EParse
      else Ok (mkBinding sid sender recipients (w_type w) payload)
  | _, _, _, _ => Err EParse
  end.

(** ** Messages in Python *)

Inductive payload : Type := PNone | PText (s : string) | PElem (name : string).

(** ebutt3.py 176-182, 219-225; availability time in microseconds as in the
    other models. *)
Record message : Type := mkMessage {
  m_sid : string;
  m_sender : option string;
  m_recipient : option (list string);
  m_payload : payload;
  m_avail : option BinInt.Z }.

Definition type_id : string := "authorsGroupControlRequest".

(** 249-256: the availability time given is not used; nor is the type. *)
Definition create_from_raw_binding (b : binding) (avail : option BinInt.Z) : res message :=
  match b_payload b with
  | [] => Err EIndex
  | i :: _ =>
      Ok (mkMessage (b_sid b) (b_sender b) (Some (b_recipients b))
                    (match i with IText s => PText s | IElem n => PElem n end) None)
  end.

(** 227-240 with _ebuttlm.py 32-39 (pretty printing leaves an element with
    nothing but text on one line): empty strings and lists count as false.
    [elem] is what PyXB makes of an element given as payload, which is not
    modelled. *)
Definition truthy_text (o : option string) : option string :=
  match o with Some s => if String.eqb s "" then None else Some s | None => None end.
Definition get_xml (elem : string -> res (list wnode)) (m : message) : res wire :=
  if String.eqb (m_sid m) "" then Err EParse
  else
    match match m_payload m with
          | PNone => Err EIncomplete
          | PText s => Ok [WText (write_text s)]
          | PElem n => elem n
          end with
    | Err e => Err e
    | Ok p =>
        Ok (mkWire (write_text (m_sid m))
                   (option_map write_text (truthy_text (m_sender m)))
                   (map write_text (match m_recipient m with Some l => l | None => [] end))
                   type_id p)
    end.

(** EBUTT3ObjectBase.create_from_xml, 164-169, with the one entry made at 259.
    Anything but a message gives None. *)
Inductive text : Type := XOther | XMessage (w : wire).
Definition create_from_xml (x : text) : res (option message) :=
  match x with
  | XOther => Ok None
  | XMessage w =>
      match parse w with
      | Err e => Err e
      | Ok b => if String.eqb (b_type b) type_id then
                  match create_from_raw_binding b None with
                  | Ok m => Ok (Some m)
                  | Err e => Err e
                  end
                else Err EKey
      end
  end.

(** XMLtoEBUTT3Adapter.convert_data on a message, document_data.py 21-43:
    [avail] and [sid] are its keyword arguments. *)
Definition adapter_read (w : wire) (avail : option BinInt.Z) (sid : option string) : res message :=
  match parse w with
  | Err e => Err e
  | Ok b =>
      match create_from_raw_binding b avail with
      | Err e => Err e
      | Ok m => match sid with
                | Some s => if String.eqb s (m_sid m) then Ok m else Err ESequence
                | None => Ok m
                end
      end
  end.

(** ** Nodes *)

(** With the sequence identifier a handover node is configured with. *)
Inductive node : Type :=
| NHandover (out : string)   (* handover.py 92-97 *)
| NRetime                    (* delay.py 78-79 *)
| NDistribute                (* distributing.py 49-57 *)
| NDedup                     (* deduplicator.py 34-49 *)
| NEncode                    (* encoder.py 35-48 *)
| NConsume                   (* consumer.py 29-55, also of the re-sequencer *)
| NBuffer.                   (* delay.py 96-98: takes and gives text *)

(** What a node that takes documents hands on for a message, if anything. *)
Definition react (n : node) (m : message) : option message :=
  match n with
  | NHandover out => Some (mkMessage out (m_sender m) (m_recipient m) (m_payload m) (m_avail m))
  | NRetime | NDistribute | NBuffer => Some m
  | NDedup | NEncode | NConsume => None
  end.

(** A message on its way: the text with the keyword argument
    sequence_identifier and availability_time. *)
Record parcel : Type := mkParcel { p_wire : wire; p_sid : option string; p_avail : option BinInt.Z }.

(** A carriage may hand on the keyword arguments or drop them; they reach the
    adapter of the node, the node, and the adapter that writes text again
    (document_data.py 76-91) or, in a distributing node, the node itself. *)
Record hop : Type := mkHop { h_sid : bool; h_avail : bool; h_node : node }.
Definition keep {A} (b : bool) (o : option A) : option A := if b then o else None.
Definition arrive (h : hop) (p : parcel) : parcel :=
  mkParcel (p_wire p) (keep (h_sid h) (p_sid p)) (keep (h_avail h) (p_avail p)).

Definition step (elem : string -> res (list wnode)) (h : hop) (p : parcel) : res (option parcel) :=
  let p := arrive h p in
  match h_node h with
  | NBuffer => Ok (Some p)
  | n =>
      match adapter_read (p_wire p) (p_avail p) (p_sid p) with
      | Err e => Err e
      | Ok m =>
          match react n m with
          | None => Ok None
          | Some m' =>
              match get_xml elem m' with
              | Err e => Err e
              | Ok w => Ok (Some (mkParcel w (Some (m_sid m')) (m_avail m')))
              end
          end
      end
  end.

Fixpoint travel (elem : string -> res (list wnode)) (l : list hop) (p : parcel) : res (option parcel) :=
  match l with
  | [] => Ok (Some p)
  | h :: r =>
      match step elem h p with
      | Ok (Some p') => travel elem r p'
      | o => o
      end
  end.
