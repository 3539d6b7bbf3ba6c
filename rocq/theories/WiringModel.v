(** Nodes put together by carriages and adapters in one configuration: what
    starts, and what becomes of a document with its keyword arguments on the way
    from node to node.

    Sources: ebu_tt_live/node/*.py (process_document, _expects, _provides),
    carriage/direct.py 5-17, carriage/websocket.py 10-32, twisted/websocket.py
    108-125, 158-178, 234-239, 359-364, carriage/filesystem.py 132-133, 205-218,
    adapters/node_carriage.py (through AdapterModel), config/node.py 20-67 (input
    and output of a node), config/adapters.py 6-22.

    The nodes are modelled for a document they accept: seen documents, foreign
    sequences and exceptions of the work itself are in NodeModel.  What the work
    makes of a document is a parameter. *)

From Coq Require Import List ZArith String Bool.
From Verif Require Import AdapterModel.
Import ListNotations.
Open Scope string_scope.
Open Scope list_scope.

(** The content of a document: its header and the rest. *)
Definition content : Type := (header * string)%type.

Inductive node : Type :=
| Retime (work : content -> content)                  (* delay.py 16-79 *)
| Dedup (work : content -> content)                   (* deduplicator.py 16-49 *)
| Handover (out : string) (work : content -> content) (* handover.py 5-97 *)
| Distribute                                          (* distributing.py 9-57 *)
| Encode (convert : content -> string)                (* encoder.py 9-48 *)
| Consume                                             (* consumer.py 14-55, 71-127 *)
| Buffer (delay : Z).                                 (* delay.py 82-98 *)

(** _expects and _provides.  A simple consumer provides nothing; as the
    re-sequencer it provides documents (consumer.py 80). *)
Definition expects (n : node) : dtype := match n with Buffer _ => TText | _ => TDoc3 end.
Definition provides (n : node) : dtype :=
  match n with
  | Distribute | Buffer _ => TText
  | Encode _ => TDocD
  | _ => TDoc3
  end.

(** What a call of process_document comes to. *)
Inductive outcome : Type :=
| Emits (d : payload) (k : kwargs)     (* to the producer carriage *)
| Consumed (c : content)               (* put into the sequence of the node *)
| Dropped                              (* nothing happens *)
| Raises.

Definition has (k : kwargs) (n : string) : bool := match kw_get k n with Some _ => true | None => false end.

(** process_document(document, **kwargs).  EBU-TT-D documents are documents to
    is_document (node/base.py 83-87) but have no sequence identifier.  Text is
    taken for a message: it has no attributes that could be read or set.  A
    keyword given twice in a call is a TypeError. *)
Definition process (x : xml_lib) (n : node) (d : payload) (k : kwargs) : outcome :=
  match d with
  | PDocD _ => match n with Buffer z => if has k "delay" then Raises else Emits d (kw_put k "delay" (VInt z)) | _ => Raises end
  | PDoc h av b =>
      match n with
      | Retime w | Dedup w | Handover _ w => let '(h', b') := w (h, b) in Emits (PDoc h' av b') k
      | Distribute =>
          let data := match kw_arg k "raw_xml" with VText s => s | _ => x_doc x h b end in
          Emits (PText data)
            (kw_put (kw_put (kw_put (kw_put (kw_put (kw_del k "raw_xml")
              "sequence_identifier" (VText (h_sid h))) "sequence_number" (VInt (h_num h)))
              "time_base" (h_tb h)) "availability_time" av) "clock_mode" (h_cm h))
      | Encode c =>
          if has k "sequence_identifier" || has k "time_base" then Raises
          else Emits (PDocD (Some (c (h, b))))
                 (kw_put (kw_put k "sequence_identifier" (VText "default")) "time_base" (VText "media"))
      | Consume => Consumed (h, b)
      | Buffer z => if has k "delay" then Raises else Emits d (kw_put k "delay" (VInt z))
      end
  | PMessage sid av b =>
      match n with
      | Retime _ => Emits d k
      | Handover out _ => Emits (PMessage out av b) k
      | Distribute =>
          Emits (PText (x_message x sid b))
            (kw_put (kw_put (kw_del k "raw_xml") "sequence_identifier" (VText sid)) "availability_time" av)
      | Dedup _ | Encode _ | Consume => Dropped
      | Buffer z => if has k "delay" then Raises else Emits d (kw_put k "delay" (VInt z))
      end
  | PText _ =>
      match n with
      | Retime _ => Emits d k
      | Handover _ _ | Distribute => Raises
      | Dedup _ | Encode _ | Consume => Dropped
      | Buffer z => if has k "delay" then Raises else Emits d (kw_put k "delay" (VInt z))
      end
  end.

(** ** Links *)

(** A direct carriage hands on what it gets (direct.py 16-17).  The others carry
    text and no keyword arguments; anything else cannot be written or encoded.
    Filesystem: the receiving end gives the availability time of the manifest
    (filesystem.py 213-218).  Websocket: it gives the identifier in the path of
    the connection, and the text goes to connections with the identifier it is
    emitted with, by default 'default' (websocket.py 23-25; twisted/websocket.py
    113-118, 237, 362).  A chain is followed to such a connection.  Files without
    content are not handed on; this is left out. *)
Inductive carriage : Type := Direct | Filesystem (avail : kval) | Websocket.
Definition carriage_type (c : carriage) : dtype := match c with Direct => TAny | _ => TText end.

Definition carry (c : carriage) (d : payload) (k : kwargs) : option (payload * kwargs) :=
  match c, d with
  | Direct, _ => Some (d, k)
  | Filesystem av, PText _ => Some (d, [("availability_time", av)])
  | Websocket, PText _ =>
      Some (d, [("sequence_identifier", match kw_get k "sequence_identifier" with
                                        | Some v => v
                                        | None => VText "default"
                                        end)])
  | _, _ => None
  end.

(** The conversions that can be configured, config/adapters.py 6-11. *)
Inductive conversion : Type := XmlToDoc | XmlToDocD | DocToXml | DocDToXml.
Definition adapter_of (x : xml_lib) (c : conversion) : adapter payload :=
  match c with
  | XmlToDoc => xml3 x
  | XmlToDocD => xmld x
  | DocToXml => xml3' x
  | DocDToXml => dxml x
  end.

(** The carriage between two nodes, with the adapters configured for the output
    of the first and the input of the second (config/node.py 30-42, 55-67); no
    conversion is the same as none configured (config/adapters.py 22). *)
Record link : Type := mkLink {
  l_out : list conversion;
  l_carriage : carriage;
  l_in : list conversion }.
Definition configured (x : xml_lib) (l : list conversion) : option (list (adapter payload)) :=
  match l with [] => None | _ => Some (map (adapter_of x) l) end.

(** The adapters set up at the start; None is DataCompatError. *)
Definition start_link (x : xml_lib) (from : dtype) (l : link) (n : node)
  : option (list (adapter payload) * list (adapter payload)) :=
  match producer_adapter (registry x) from (carriage_type (l_carriage l)) (configured x (l_out l)),
        consumer_adapter (registry x) (carriage_type (l_carriage l)) (expects n) (configured x (l_in l)) with
  | Some a, Some b => Some (a, b)
  | _, _ => None
  end.

(** node_carriage.py 113-116, the carriage, 171-174. *)
Definition deliver (a : list (adapter payload)) (c : carriage) (b : list (adapter payload))
  (d : payload) (k : kwargs) : option (payload * kwargs) :=
  match convert a d k with
  | None => None
  | Some (d1, k1) =>
      match carry c d1 k1 with
      | None => None
      | Some (d2, k2) => convert b d2 k2
      end
  end.

(** A chain of nodes after a node that provides [from]. *)
Notation chain := (list (link * node)).
Fixpoint starts (x : xml_lib) (from : dtype) (c : chain) : bool :=
  match c with
  | [] => true
  | (l, n) :: r =>
      match start_link x from l n with
      | Some _ => starts x (provides n) r
      | None => false
      end
  end.

(** What becomes of something sent into a chain that has been started. *)
Fixpoint send (x : xml_lib) (from : dtype) (c : chain) (d : payload) (k : kwargs) : outcome :=
  match c with
  | [] => Emits d k
  | (l, n) :: r =>
      match start_link x from l n with
      | None => Raises
      | Some (a, b) =>
          match deliver a (l_carriage l) b d k with
          | None => Raises
          | Some (d1, k1) =>
              match process x n d1 k1 with
              | Emits d2 k2 => send x (provides n) r d2 k2
              | o => o
              end
          end
      end
  end.
