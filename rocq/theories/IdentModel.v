(** Identifiers outside ASCII.

    Sources: ebu_tt_live/strings.py (texts of messages, gettext of Python 2 returns
    bytes), documents/ebutt3.py 283-323, 486-500 (making and validating), 641-691
    (messages of compatibility), 696-715, 959-1009; node/base.py 89-97, node/delay.py
    33-79, node/deduplicator.py 34-49, node/handover.py 63-98, node/consumer.py 29-55,
    129-151, node/producer.py 61-113, carriage/filesystem.py 132-202.

    Python 2.7: the format method of a str makes a str of each field, and for a
    unicode this encodes it in ASCII or raises UnicodeEncodeError, whatever becomes
    of the message.  The identifiers of a document and, from a JSON file, of a
    configuration are unicode.  The other models have identifiers in ASCII only. *)

From Coq Require Import List Arith String Ascii Bool.
Import ListNotations.
Open Scope string_scope.

(** ** Texts *)

(** Code points; for a str, bytes. *)
Definition text := list nat.
Definition is_ascii (t : text) : bool := forallb (fun c => Nat.ltb c 128) t.

Fixpoint of_string (s : string) : text :=
  match s with EmptyString => [] | String c r => nat_of_ascii c :: of_string r end.

Inductive value := Uni (t : text) | Str (t : text).

(** A template: literal text and named fields, without {{, }} and format specifications
    as in the templates below; Bad: a brace without the other. *)
Inductive piece := Lit (c : ascii) | Field (name : string) | Bad.
Fixpoint parse (s : string) (field : option string) : list piece :=
  match s, field with
  | EmptyString, None => []
  | EmptyString, Some _ => [Bad]
  | String c r, None =>
      if (c =? "{")%char then parse r (Some "") else if (c =? "}")%char then [Bad] else Lit c :: parse r None
  | String c r, Some f => if (c =? "}")%char then Field f :: parse r None else parse r (Some (f ++ String c ""))
  end.

Fixpoint lookup (n : string) (args : list (string * value)) : option value :=
  match args with [] => None | (m, v) :: r => if n =? m then Some v else lookup n r end.

Inductive formatted := Text (t : text) | EncodeError | OtherError.  (* KeyError, ValueError *)

(** The method format; [u]: whether the template is unicode. *)
Fixpoint render (u : bool) (l : list piece) (args : list (string * value)) : formatted :=
  match l with
  | [] => Text []
  | Bad :: _ => OtherError
  | Lit c :: r => match render u r args with Text t => Text (nat_of_ascii c :: t) | e => e end
  | Field n :: r =>
      match lookup n args with
      | None => OtherError
      | Some v =>
          match v with
          | Uni t => if u || is_ascii t then match render u r args with Text t' => Text (t ++ t')%list | e => e end
                     else EncodeError
          | Str t => match render u r args with Text t' => Text (t ++ t')%list | e => e end
          end
      end
  end.
Definition format (s : string) (args : list (string * value)) : formatted := render false (parse s None) args.

(** Positional fields {} are named here. *)
Definition DOC_SEMANTIC_VALIDATION_SUCCESSFUL := "Document {sequence_identifier}__{sequence_number} semantic validation successful".
Definition DOC_RECEIVED := "Document {sequence_identifier}__{sequence_number} received. Calculated activation: [{computed_begin_time}; {computed_end_time}]".
Definition ERR_AUTHORS_GROUP_MISMATCH := "authorsGroupIdentifier in document: [{agid_doc}] does not match sequence: [{agid_seq}]".
Definition LIMITED := "Sequences limited to one: expecting: {0}, received: {1}".
Definition DUPLICATE := "Ignoring duplicate document: {0}__{1}".
Definition INSERTABLE := "Sequence number: {0} can be safely inserted into sequence: {1}".
Definition CFG_FILENAME_PATTERN := "{sequence_identifier}_{counter}.xml".
Definition CFG_MANIFEST_FILENAME_PATTERN := "manifest_{sequence_identifier}.txt".

(** ** Documents *)

(** [i_fine]: validateBinding goes through; [i_num]: the number as text. *)
Record idoc := mkId { i_id : text; i_num : text; i_group : option text; i_fine : bool }.
Inductive exn := UnicodeEncodeError | Invalid | UnexpectedSequenceIdentifier | UnexpectedAuthorsGroup | Other.

Definition text_eqb (a b : text) : bool := if list_eq_dec Nat.eq_dec a b then true else false.

(** Making a message. *)
Definition said (f : formatted) : option exn :=
  match f with Text _ => None | EncodeError => Some UnicodeEncodeError | OtherError => Some Other end.

(** ebutt3.py 486-500. *)
Definition validate (d : idoc) : option exn :=
  if i_fine d then said (format DOC_SEMANTIC_VALIDATION_SUCCESSFUL [("sequence_identifier", Uni (i_id d)); ("sequence_number", Str (i_num d))])
  else Some Invalid.

(** Either way of making a document ends with validate, 304 and 312. *)
Definition create (d : idoc) : idoc + exn := match validate d with None => inl d | Some e => inr e end.

Definition with_id (d : idoc) (t : text) : idoc := mkId t (i_num d) (i_group d) (i_fine d).

(** ** Nodes *)

Inductive reaction := Sent (d : idoc) | Ignored | Kept | Raised (e : exn).

(** base.py 89-97. *)
Definition limit (first : option text) (d : idoc) : option text * option exn :=
  let f := match first with None => i_id d | Some f => f end in
  (Some f,
   if text_eqb f (i_id d) then None
   else match said (format LIMITED [("0", Uni f); ("1", Uni (i_id d))]) with
        | Some e => Some e
        | None => Some UnexpectedSequenceIdentifier
        end).

(** What the nodes do besides (NodeModel and others): whether a document was not
    seen before, whether a handover node emits it, the number given to what is sent
    and whether validateBinding accepts that. *)
Record oracle := mkOracle { o_new : bool; o_emit : bool; o_num : text; o_fine : bool }.

(** delay.py 33-79 and deduplicator.py 34-49: [retime] tells which. *)
Definition rename (retime : bool) (out : text) (first : option text) (x : oracle * idoc) : option text * reaction :=
  let '(o, d) := x in
  if text_eqb (i_id d) out then (first, Raised UnexpectedSequenceIdentifier)
  else if o_new o then
    let '(f, e) := limit first d in
    match e with
    | Some e => (f, Raised e)
    | None =>
        let d' := mkId out (i_num d) (i_group d) (o_fine o) in
        (f, match validate d' with None => Sent d' | Some e => Raised e end)
    end
  else (first, if retime then match said (format DUPLICATE [("0", Uni (i_id d)); ("1", Str (i_num d))]) with
                              | None => Ignored
                              | Some e => Raised e
                              end
               else Ignored).

(** ebutt3.py 672-690: the group of the sequence is [known]. *)
Definition group_check (known : option text) (d : idoc) : option text * option exn :=
  let ok g := (g, said (format INSERTABLE [("0", Str (i_num d)); ("1", Uni (i_id d))])) in
  match i_group d with
  | None | Some [] => ok known
  | Some g =>
      match known with
      | None => ok (Some g)
      | Some k =>
          if text_eqb g k then ok known
          else (known, match said (format ERR_AUTHORS_GROUP_MISMATCH [("agid_doc", Uni g); ("agid_seq", Uni k)]) with
                       | Some e => Some e
                       | None => Some UnexpectedAuthorsGroup
                       end)
      end
  end.

(** handover.py 63-98 for the documents of one sequence: not validated after it was
    given another identifier and number.  A new sequence has the group of the
    document (ebutt3.py 635). *)
Definition hand_over (out : text) (known : option (option text)) (x : oracle * idoc) : option (option text) * reaction :=
  let '(o, d) := x in
  let '(g, e) := group_check (match known with Some k => k | None => i_group d end) d in
  (Some g, match e with
           | Some e => Raised e
           | None => if o_emit o then Sent (mkId out (o_num o) (i_group d) (i_fine d)) else Ignored
           end).

(** consumer.py 29-55, as far as adding to the sequence. *)
Definition consume (first : option text) (x : oracle * idoc) : option text * reaction :=
  let '(o, d) := x in
  let '(f, e) := limit first d in
  (f, match e with
      | Some e => Raised e
      | None =>
          match said (format DOC_RECEIVED [("sequence_number", Str (i_num d)); ("sequence_identifier", Uni (i_id d));
                                           ("computed_begin_time", Str []); ("computed_end_time", Str [])]) with
          | Some e => Raised e
          | None => Kept
          end
      end).

(** consumer.py 129-151, ebutt3.py 1001-1007: a segment of a sequence with identifier
    [sid]; not validated after it was given another.  Without any document in it the
    segment is made with [sid] itself (996-998), which makes no difference here. *)
Definition segment (sid out : text) (o : oracle) : reaction :=
  match format "{0}_resegmented" [("0", Uni sid)] with
  | Text t => match create (mkId t (o_num o) None (o_fine o)) with
              | inl d => Sent (with_id d out)
              | inr e => Raised e
              end
  | EncodeError => Raised UnicodeEncodeError
  | OtherError => Raised Other
  end.

(** producer.py 61-113, ebutt3.py 696-715. *)
Definition produce (out : text) (o : oracle) : reaction :=
  match create (mkId out (o_num o) None true) with
  | inr e => Raised e
  | inl d =>
      let d' := mkId out (o_num o) None (o_fine o) in
      match validate d' with Some e => Raised e | None => Sent d' end
  end.

(** Documents in turn. *)
Fixpoint run {S} (step : S -> oracle * idoc -> S * reaction) (s : S) (l : list (oracle * idoc)) : list reaction :=
  match l with [] => [] | x :: r => let '(s1, e) := step s x in e :: run step s1 r end.

(** ** Carriage *)

(** A direct carriage hands on the object; any other its XML, of which the receiver makes a
    document (XMLtoEBUTT3Adapter). *)
Definition carry (direct : bool) (d : idoc) : idoc + exn := if direct then inl d else create d.

(** filesystem.py 132-202 for a document: the files written, then what was raised.
    [pattern]: that of the configuration (unicode) or none; [data] is unicode; a
    write of what is not ASCII raises when the file has been opened.  This is the first
    document: later the name of the manifest is not made again. *)
Definition emit_file (pattern : option string) (manifest : bool) (data : text) (d : idoc) : list (text * text) * option exn :=
  let args := [("counter", Str (i_num d)); ("sequence_identifier", Uni (i_id d))] in
  match (match pattern with Some p => render true (parse p None) args | None => format CFG_FILENAME_PATTERN args end) with
  | Text name =>
      if is_ascii data then
        ([(name, data)],
         if manifest then said (format CFG_MANIFEST_FILENAME_PATTERN [("sequence_identifier", Uni (i_id d))]) else None)
      else ([(name, [])], Some UnicodeEncodeError)
  | e => ([], said e)
  end.
