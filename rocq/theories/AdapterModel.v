(** Data adapters between nodes and carriages.

    Source: ebu_tt_live/adapters/base.py 12-83, node_carriage.py,
    document_data.py, the ANY object of utils.py 278-290, and
    config/adapters.py 6-22.  Python 2. *)

From Coq Require Import List ZArith String Bool.
Import ListNotations.
Open Scope string_scope.

(** ** Types of data

    The classes named by expects() and provides(); ANY compares equal to
    everything, from both sides (utils.py 278-290). *)
Inductive dtype : Type := TAny | TText | TDoc3 | TDocD | TOther (n : nat).

Definition teq (a b : dtype) : bool :=
  match a, b with
  | TAny, _ | _, TAny => true
  | TText, TText | TDoc3, TDoc3 | TDocD, TDocD => true
  | TOther n, TOther m => Nat.eqb n m
  | _, _ => false
  end.

(** ** Keyword arguments *)
Inductive kval : Type := VNone | VText (s : string) | VInt (z : Z).
Notation kwargs := (list (string * kval)).

Fixpoint kw_get (k : kwargs) (n : string) : option kval :=
  match k with
  | [] => None
  | (m, v) :: r => if n =? m then Some v else kw_get r n
  end.
Definition kw_del (k : kwargs) (n : string) : kwargs := filter (fun p => negb (n =? fst p)) k.
Definition kw_put (k : kwargs) (n : string) (v : kval) : kwargs := (n, v) :: kw_del k n.

(** A keyword parameter with default None. *)
Definition kw_arg (k : kwargs) (n : string) : kval :=
  match kw_get k n with Some v => v | None => VNone end.

(** ** Adapters in general

    An adapter has what it expects and provides, and converts data and keyword
    arguments (None: an exception). *)
Record adapter (D : Type) : Type := mkAdapter {
  a_expects : dtype;
  a_provides : dtype;
  a_convert : D -> kwargs -> option (D * kwargs) }.
Arguments mkAdapter {D} a_expects a_provides a_convert.
Arguments a_expects {D} a.
Arguments a_provides {D} a.
Arguments a_convert {D} a.

(** base.py 46-53 with 22-44: the registry, filled in the order of the class
    definitions; for one pair of types the first class stays.  The registry is
    a dictionary of dictionaries: keys are compared exactly (ANY is a key of
    its own and no adapter registers it). *)
Definition dkey_eqb (a b : dtype) : bool :=
  match a, b with
  | TAny, TAny => true
  | TAny, _ | _, TAny => false
  | _, _ => teq a b
  end.
Definition registered {D} (reg : list (adapter D)) (expects provides : dtype) : option (adapter D) :=
  find (fun a => dkey_eqb (a_expects a) expects && dkey_eqb (a_provides a) provides) reg.

(** node_carriage.py 20-56: the list of adapters, None is DataCompatError.  The
    parameters are the ones of the method: [expects] is what the far end wants,
    [provides] what comes in. *)
Definition last_provides {D} (l : list (adapter D)) : dtype :=
  match rev l with a :: _ => a_provides a | [] => TAny end.

Definition set_data_adapters {D} (reg : list (adapter D)) (value : option (list (adapter D)))
  (expects provides : dtype) : option (list (adapter D)) :=
  let '(success, data_adapters) :=
    match value with
    | Some l => (true, l)
    | None =>
        if negb (teq expects provides) then
          match registered reg provides expects with
          | Some a => (true, [a])
          | None => (false, [])
          end
        else (true, [])
    end in
  let success :=
    match data_adapters with
    | a :: _ =>
        if negb (teq (a_expects a) provides) || negb (teq (last_provides data_adapters) expects)
        then false else success
    | [] => teq expects provides
    end in
  if success then Some data_adapters else None.

(** node_carriage.py 58-65 *)
Fixpoint convert {D} (l : list (adapter D)) (data : D) (k : kwargs) : option (D * kwargs) :=
  match l with
  | [] => Some (data, k)
  | a :: r => match a_convert a data k with
              | Some (data', k') => convert r data' k'
              | None => None
              end
  end.

(** node_carriage.py 75-86 and 113-116: from a producer node to its carriage. *)
Definition producer_adapter {D} reg (node_provides carriage_expects : dtype) (l : option (list (adapter D))) :=
  set_data_adapters reg l carriage_expects node_provides.
(** 133-144 and 171-174: from a consumer carriage to its node. *)
Definition consumer_adapter {D} reg (carriage_provides node_expects : dtype) (l : option (list (adapter D))) :=
  set_data_adapters reg l node_expects carriage_provides.

(** ** The five adapters, document_data.py *)

(** What the adapters look at: text, documents with their header, messages,
    EBU-TT-D documents with their binding (None if there is none). *)
Record header : Type := mkHeader {
  h_sid : string; h_num : Z; h_tb : kval; h_cm : kval }.
Inductive payload : Type :=
| PText (s : string)
| PDoc (h : header) (avail : kval) (body : string)
| PMessage (sid : string) (avail : kval) (body : string)
| PDocD (content : option string).

(** The XML library: parsing a Part 3 document or message, and an EBU-TT-D
    document; None is an exception. *)
Inductive parsed : Type := ParsedTT (h : header) (body : string) | ParsedMessage (sid body : string).
Record xml_lib : Type := mkXml {
  x_parse : string -> option parsed;
  x_parse_d : string -> option string;
  x_doc : header -> string -> string;       (* serialising *)
  x_message : string -> string -> string;
  x_docd : string -> string }.

(** 21-43.  A message does not get the availability time: its
    create_from_raw_binding ignores it (documents/ebutt3.py 249-256). *)
Definition xml_to_doc3 (x : xml_lib) (data : payload) (k : kwargs) : option (payload * kwargs) :=
  match data with
  | PText s =>
      match x_parse x s with
      | None => None
      | Some p =>
          let doc := match p with
                     | ParsedTT h b => PDoc h (kw_arg k "availability_time") b
                     | ParsedMessage sid b => PMessage sid VNone b
                     end in
          let sid := match p with ParsedTT h _ => h_sid h | ParsedMessage sid _ => sid end in
          let bad := match kw_arg k "sequence_identifier" with
                     | VNone => false
                     | VText t => negb (t =? sid)
                     | VInt _ => true
                     end in
          if bad then None          (* UnexpectedSequenceIdentifierError *)
          else Some (doc, kw_put (kw_del (kw_del k "availability_time") "sequence_identifier")
                                 "raw_xml" (VText s))
      end
  | _ => None
  end.

(** 53-54; 64-65; 76-91; 108-109 *)
Definition xml_to_docd (x : xml_lib) (data : payload) (k : kwargs) : option (payload * kwargs) :=
  match data with
  | PText s => match x_parse_d x s with Some c => Some (PDocD (Some c), k) | None => None end
  | _ => None
  end.

Definition docd_to_xml (x : xml_lib) (data : payload) (k : kwargs) : option (payload * kwargs) :=
  match data with
  | PDocD (Some c) => Some (PText (x_docd x c), k)
  | _ => None                       (* AttributeError on the missing binding *)
  end.

Definition doc3_to_xml (x : xml_lib) (data : payload) (k : kwargs) : option (payload * kwargs) :=
  match data with
  | PDoc h av b =>
      Some (PText (x_doc x h b),
            kw_put (kw_put (kw_put (kw_put (kw_put k "sequence_identifier" (VText (h_sid h)))
              "sequence_number" (VInt (h_num h))) "availability_time" av) "time_base" (h_tb h))
              "clock_mode" (h_cm h))
  | PMessage sid av b =>
      Some (PText (x_message x sid b),
            kw_put (kw_put k "sequence_identifier" (VText sid)) "availability_time" av)
  | _ => None
  end.

(** The converter is given the document, not its binding, and so takes it for
    an unknown element and returns None (ebutt3_ebuttd.py 293-320). *)
Definition doc3_to_docd (x : xml_lib) (data : payload) (k : kwargs) : option (payload * kwargs) :=
  Some (PDocD None, k).

Definition xml3 x := mkAdapter TText TDoc3 (xml_to_doc3 x).
Definition xmld x := mkAdapter TText TDocD (xml_to_docd x).
Definition dxml x := mkAdapter TDocD TText (docd_to_xml x).
Definition xml3' x := mkAdapter TDoc3 TText (doc3_to_xml x).
Definition conv3d x := mkAdapter TDoc3 TDocD (doc3_to_docd x).

Definition registry (x : xml_lib) : list (adapter payload) := [xml3 x; xmld x; dxml x; xml3' x; conv3d x].
