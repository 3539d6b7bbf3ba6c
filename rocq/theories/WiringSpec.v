(** What a chain of nodes is for, and a check of a configuration that is enough
    for it: stated on the content of documents and on the configuration alone. *)

From Coq Require Import List ZArith String Bool.
From Verif Require Import AdapterModel WiringModel.
Import ListNotations.
Open Scope string_scope.
Open Scope list_scope.

(** What is in hand: subtitles, EBU-TT-D, or subtitles that have been taken in. *)
Inductive goods : Type := Live (c : content) | Deliverable (s : string) | Taken (c : content).

(** The work of a node; None: not for this node. *)
Definition work (n : node) (g : goods) : option goods :=
  match g, n with
  | Live c, (Retime w | Dedup w | Handover _ w) => Some (Live (w c))
  | Live c, Encode f => Some (Deliverable (f c))
  | Live c, Consume => Some (Taken c)
  | Live _, (Distribute | Buffer _) | Deliverable _, Buffer _ => Some g
  | _, _ => None
  end.

(** The nodes one after another. *)
Fixpoint works (c : list node) (g : goods) : option goods :=
  match c with
  | [] => Some g
  | n :: r => match work n g with Some g' => works r g' | None => None end
  end.

(** What holds the goods. *)
Definition holds (x : xml_lib) (d : payload) (g : goods) : Prop :=
  match g, d with
  | Live (h, b), PDoc h' _ b' => h' = h /\ b' = b
  | Live (h, b), PText s => x_parse x s = Some (ParsedTT h b)
  | Deliverable c, PDocD c' => c' = Some c
  | Deliverable c, PText s => x_parse_d x s = Some c
  | _, _ => False
  end.
Definition comes_to (x : xml_lib) (o : outcome) (g : goods) : Prop :=
  match o with
  | Emits d _ => holds x d g
  | Consumed c => g = Taken c
  | _ => False
  end.

(** Reading gives back what was written. *)
Definition faithful (x : xml_lib) : Prop :=
  (forall h b, x_parse x (x_doc x h b) = Some (ParsedTT h b)) /\
  (forall s, x_parse_d x (x_docd x s) = Some s).

(** ** The check *)

(** What is known of the data at some point: its form, the XML that comes along,
    the sequence identifier that comes along, and whether a time base and a delay
    do. *)
Inductive form : Type := FDoc | FXml | FDocD | FXmlD.
Inductive along : Type := No | Right | Wrong.
Record known : Type := mkKnown {
  k_form : form; k_raw : along; k_sid : along; k_base : bool; k_delay : bool }.

Definition wrong (a : along) : along := match a with No => No | _ => Wrong end.

Definition conv_known (c : conversion) (s : known) : option known :=
  match c, k_form s with
  | XmlToDoc, FXml => match k_sid s with
                      | Wrong => None
                      | _ => Some (mkKnown FDoc Right No (k_base s) (k_delay s))
                      end
  | DocToXml, FDoc => Some (mkKnown FXml (k_raw s) Right true (k_delay s))
  | XmlToDocD, FXmlD => Some (mkKnown FDocD (k_raw s) (k_sid s) (k_base s) (k_delay s))
  | DocDToXml, FDocD => Some (mkKnown FXmlD (k_raw s) (k_sid s) (k_base s) (k_delay s))
  | _, _ => None
  end.
Fixpoint convs_known (l : list conversion) (s : known) : option known :=
  match l with
  | [] => Some s
  | c :: r => match conv_known c s with Some s' => convs_known r s' | None => None end
  end.

Definition carry_known (c : carriage) (s : known) : option known :=
  match c, k_form s with
  | Direct, _ => Some s
  | Filesystem _, (FXml | FXmlD) => Some (mkKnown (k_form s) No No false false)
  | Websocket, (FXml | FXmlD) =>
      Some (mkKnown (k_form s) No (match k_sid s with Right => Right | _ => Wrong end) false false)
  | _, _ => None
  end.

Definition node_known (n : node) (s : known) : option known :=
  match n, k_form s with
  | Buffer _, f => if k_delay s then None else Some (mkKnown f (k_raw s) (k_sid s) (k_base s) true)
  | (Retime _ | Dedup _ | Handover _ _), FDoc =>
      Some (mkKnown FDoc (wrong (k_raw s)) (wrong (k_sid s)) (k_base s) (k_delay s))
  | Distribute, FDoc => match k_raw s with
                        | Wrong => None
                        | _ => Some (mkKnown FXml No Right true (k_delay s))
                        end
  | Encode _, FDoc => match k_sid s, k_base s with
                      | No, false => Some (mkKnown FDocD (wrong (k_raw s)) Wrong true (k_delay s))
                      | _, _ => None
                      end
  | Consume, FDoc => Some s
  | _, _ => None
  end.

(** The conversion used where none is configured: to XML or from XML, as the
    other end of the carriage needs.  Configured ones have to fit the ends. *)
Definition writing (from : dtype) (c : carriage) : option (list conversion) :=
  match c, from with
  | Direct, _ => Some []
  | _, TText => Some []
  | _, TDoc3 => Some [DocToXml]
  | _, TDocD => Some [DocDToXml]
  | _, _ => None
  end.
Definition reading (c : carriage) (n : node) : list conversion :=
  match c, n with
  | Direct, _ | _, Buffer _ => []
  | _, _ => [XmlToDoc]
  end.
Definition takes (c : conversion) : dtype :=
  match c with DocToXml => TDoc3 | DocDToXml => TDocD | _ => TText end.
Definition gives (c : conversion) : dtype :=
  match c with XmlToDoc => TDoc3 | XmlToDocD => TDocD | _ => TText end.
Definition fits (l : list conversion) (from to : dtype) : bool :=
  match l with
  | [] => true
  | c :: _ => teq (takes c) from && teq (gives (last l c)) to
  end.
Definition used_out (from : dtype) (l : link) : option (list conversion) :=
  match l_out l with
  | [] => writing from (l_carriage l)
  | cs => if fits cs from (carriage_type (l_carriage l)) then Some cs else None
  end.
Definition used_in (l : link) (n : node) : option (list conversion) :=
  match l_in l with
  | [] => Some (reading (l_carriage l) n)
  | cs => if fits cs (carriage_type (l_carriage l)) (expects n) then Some cs else None
  end.

Definition link_known (from : dtype) (l : link) (n : node) (s : known) : option known :=
  match used_out from l, used_in l n with
  | Some a, Some b =>
      match convs_known a s with
      | Some s1 => match carry_known (l_carriage l) s1 with
                   | Some s2 => match convs_known b s2 with
                                | Some s3 => node_known n s3
                                | None => None
                                end
                   | None => None
                   end
      | None => None
      end
  | _, _ => None
  end.

(** Nothing may follow a node that takes documents in. *)
Fixpoint checked (from : dtype) (c : chain) (s : known) : bool :=
  match c with
  | [] => true
  | (l, n) :: r =>
      match link_known from l n s with
      | None => false
      | Some s' => match n, r with
                   | Consume, _ :: _ => false
                   | _, _ => checked (provides n) r s'
                   end
      end
  end.

(** ** What is known, as a statement about data *)
Definition form_of (x : xml_lib) (f : form) (d : payload) (g : goods) : Prop :=
  match f, d, g with
  | FDoc, PDoc _ _ _, Live _ | FXml, PText _, Live _
  | FDocD, PDocD _, Deliverable _ | FXmlD, PText _, Deliverable _ => holds x d g
  | _, _, _ => False
  end.
Definition raw_of (x : xml_lib) (a : along) (k : kwargs) (g : goods) : Prop :=
  match a with
  | No => kw_get k "raw_xml" = None
  | Right => exists s h b, kw_get k "raw_xml" = Some (VText s) /\ g = Live (h, b) /\ x_parse x s = Some (ParsedTT h b)
  | Wrong => True
  end.
Definition sid_of (a : along) (k : kwargs) (g : goods) : Prop :=
  match a with
  | No => kw_get k "sequence_identifier" = None
  | Right => exists h b, kw_get k "sequence_identifier" = Some (VText (h_sid h)) /\ g = Live (h, b)
  | Wrong => True
  end.
Definition told (x : xml_lib) (s : known) (d : payload) (k : kwargs) (g : goods) : Prop :=
  form_of x (k_form s) d g /\ raw_of x (k_raw s) k g /\ sid_of (k_sid s) k g /\
  (k_base s = false -> kw_get k "time_base" = None) /\
  (k_delay s = false -> kw_get k "delay" = None).

(** Nodes that make another document of a document. *)
Definition rewriting (n : node) : option (content -> content) :=
  match n with Retime w | Dedup w | Handover _ w => Some w | _ => None end.
Fixpoint rewrite_all (l : list node) (c : content) : content :=
  match l with
  | [] => c
  | n :: r => rewrite_all r (match rewriting n with Some w => w c | None => c end)
  end.

(** A direct link without adapters. *)
Definition joined_directly : link := mkLink [] Direct [].

(** ** Chains of the same configuration *)

(** The same nodes, links and adapters; what the nodes make of documents is
    another matter. *)
Inductive same_kind : node -> node -> Prop :=
| same_retime w w' : same_kind (Retime w) (Retime w')
| same_dedup w w' : same_kind (Dedup w) (Dedup w')
| same_handover o w w' : same_kind (Handover o w) (Handover o w')
| same_distribute : same_kind Distribute Distribute
| same_encode f f' : same_kind (Encode f) (Encode f')
| same_consume : same_kind Consume Consume
| same_buffer z : same_kind (Buffer z) (Buffer z).
Definition same_config (c c' : chain) : Prop :=
  Forall2 (fun p q => fst p = fst q /\ same_kind (snd p) (snd q)) c c'.

(** No text is both a Part 3 document and an EBU-TT-D document. *)
Definition separate (x : xml_lib) : Prop :=
  forall s c, x_parse_d x s = Some c -> x_parse x s = None.

(** A document as it comes from a producer, and the text of a document as it
    comes from a file and from a websocket. *)
Definition produced : known := mkKnown FDoc No No false false.
Definition from_file : known := mkKnown FXml No No false false.
Definition from_websocket : known := mkKnown FXml No Right false false.
Inductive source (x : xml_lib) (h : header) (b : string) : dtype -> known -> payload -> kwargs -> Prop :=
| source_producer av : source x h b TDoc3 produced (PDoc h av b) []
| source_file t av : x_parse x t = Some (ParsedTT h b) ->
    source x h b TText from_file (PText t) [("availability_time", av)]
| source_websocket t : x_parse x t = Some (ParsedTT h b) ->
    source x h b TText from_websocket (PText t) [("sequence_identifier", VText (h_sid h))].
