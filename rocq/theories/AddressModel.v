(** The addresses that the page of the user input producer connects to, and what the server
    takes them for.

    Sources: ebu_tt_live/ui/user_input_producer/uip.js 306-307, 391-400,
    ebu_tt_live/twisted/websocket.py 101-106, 219-230.

    Characters are bytes of UTF-8.  The host is left out: an address is its path. *)

From Coq Require Import List Ascii String Bool Arith.
From Verif Require Import SocketModel.
Import ListNotations.
Open Scope string_scope.

(** ** The page *)

Definition digit (lower : bool) (n : nat) : ascii :=
  match String.get n (if lower then "0123456789abcdef" else "0123456789ABCDEF") with Some c => c | None => "0"%char end.
Definition percent (lower : bool) (c : ascii) : string :=
  String "%" (String (digit lower (nat_of_ascii c / 16)) (String (digit lower (nat_of_ascii c mod 16)) "")).

Definition between (a b : ascii) (c : ascii) : bool :=
  (nat_of_ascii a <=? nat_of_ascii c)%nat && (nat_of_ascii c <=? nat_of_ascii b)%nat.
Definition one_of (s : string) (c : ascii) : bool := existsb (Ascii.eqb c) (list_ascii_of_string s).
Definition alphanumeric (c : ascii) : bool := between "a" "z" c || between "A" "Z" c || between "0" "9" c.

(** encodeURIComponent leaves letters, digits and -_.!~*'() as they
    are; of these 392-394 encode some. *)
Definition encode_char (c : ascii) : string :=
  if one_of "!'()*" c then percent true c
  else if alphanumeric c || one_of "-_.~" c then String c ""
  else percent false c.
Fixpoint encode (s : string) : string := match s with "" => "" | String c r => encode_char c ++ encode r end.

(** 400, and 307, where there is always a text; encodeURIComponent(null) is "null". *)
Definition address (id : option string) (verb : string) : string :=
  "/" ++ encode (match id with Some i => i | None => "null" end) ++ "/" ++ verb.

(** ** On the way *)

(** Segments of a path, what follows its first slash. *)
Fixpoint split (s : string) : list string :=
  match s with
  | "" => [""]
  | String c r => if (c =? "/")%char then "" :: split r
                  else match split r with [] => [String c ""] | x :: l => String c x :: l end
  end.
(** The browser removes dots (WHATWG URL, path state; RFC 3986, 5.2.4) before it connects.  It
    takes %2e for a dot too, which an encoded identifier never has; a dot at the end, which
    leaves an empty segment, is not needed here. *)
Fixpoint dots (before : list string) (l : list string) : list string :=
  match l with
  | [] => rev before
  | x :: r => if x =? "." then dots before r else if x =? ".." then dots (tl before) r else dots (x :: before) r
  end.

(** ** The server *)

(** Of hyperlink (URL.fromText(...).to_iri().path, websocket.py 104-105) it is assumed that it
    splits at slashes and decodes each segment; its source was not at hand.  A path that starts
    with two slashes may be read otherwise, so empty identifiers are left out. *)
Definition value (c : ascii) : option nat :=
  let n := nat_of_ascii c in
  if between "0" "9" c then Some (n - 48) else if between "a" "f" c then Some (n - 87) else if between "A" "F" c then Some (n - 55) else None.
Fixpoint decode (s : string) : string :=
  match s with
  | "" => ""
  | String c r =>
      match (c =? "%")%char, r with
      | true, String a (String b t) =>
          match value a, value b with
          | Some x, Some y => String (ascii_of_nat (16 * x + y)) (decode t)
          | _, _ => String c (decode r)
          end
      | _, _ => String c (decode r)
      end
  end.
Definition received (path : string) : list string :=
  match path with String "/" r => map decode (dots [] (split r)) | _ => [] end.
(** onOpen: the identifier and the action, or none and the connection is dropped. *)
Definition understood (path : string) : option string * option action := parse_path (received path).
