(** Requests for control that the page of the user input producer sends, and what the toolkit
    reads.

    Sources: ebu_tt_live/ui/user_input_producer/uip.js 507-534, 685-704,
    template/live_message_template.xml.  Reading is that of MessageModel. *)

From Coq Require Import List Ascii String Bool.
From Verif Require Import PageModel.
From Verif Require MessageModel.
Import ListNotations.
Open Scope string_scope.

(** live_message_template.xml with 507-516.  Nothing is escaped (uip.js 469-471), so a value
    with markup is not what was typed: None.  nunjucks writes nothing for null.  An empty
    identifier leaves out the sender; there are no recipients.  White space between elements does not
    matter, the payload has none around it. *)
Definition is_markup (c : ascii) : bool := (c =? "<")%char || (c =? "&")%char.
Definition in_quotes (s : string) : bool :=
  forallb (fun c => negb (is_markup c || (c =? """")%char)) (list_ascii_of_string s).
Fixpoint in_element (s : string) : bool :=
  match s with "" => true | String c r => negb (is_markup c || prefix "]]>" s) && in_element r end.
Definition lit (s : string) : list MessageModel.wchar := map MessageModel.Lit (list_ascii_of_string s).
Definition render (sel : option string) (payload : string) : option MessageModel.wire :=
  let id := match sel with Some i => i | None => "" end in
  if in_quotes id && in_element id && in_element payload then
    Some (MessageModel.mkWire (lit id) (if id =? "" then None else Some (lit id)) [] "authorsGroupControlRequest"
            [MessageModel.WText (lit payload)])
  else None.

(** socket.connected (246-248, 252, 260, 268): set until the connection is closed. *)
Definition connected (s : socket) : bool := match s with Opened _ | Closing _ => true | _ => false end.

(** 526-534 and 685-697 (or Enter, 699-704): what is left in the input, and where what goes.
    A socket that is closing discards it without a word.  For a page that does not hang. *)
Definition request (p : page) (input : string) : string * option (option string * option MessageModel.wire) :=
  if connected (p_sock p) then
    ("", match p_sock p with Opened to => Some (to, render (p_sel p) input) | _ => None end)
  else (input, None).
