(** Reading the address of a proxy, and which connections are made through it.

    Sources: ebu_tt_live/config/carriage.py 128-144 (parse_proxy_address), 167-184
    (WebsocketLegacyInput), 187-243 (WebsocketOutput, WebsocketInput),
    ebu_tt_live/config/backend.py 138-150 (_ws_create_client_factories), 187-191
    and 214-218 (its calls), 238-254 (wsl_backend_consumer),
    ebu_tt_live/scripts/ebu_simple_consumer.py 70-86 and
    ebu_tt_live/scripts/ebu_ebuttd_encoder.py 135-149.

    Texts are strings of bytes.  What is left out: configman, which calls the
    converter with the value of the option if that is a text, and autobahn's
    connectWS, which is given the factory and its proxy. *)

From Coq Require Import List ZArith String Ascii Bool.
From Verif Require Import Digits.
Import ListNotations.
Open Scope string_scope.

Definition newline : ascii := "010"%char.
Definition colon : ascii := ":"%char.

(** The dictionary of host and port that autobahn wants. *)
Record proxy := mkProxy { host : string; port : Z }.

Inductive failure :=
| ConfigurationError (message : string)
| ValueError.

Inductive outcome (A : Type) := Ok (a : A) | Fail (e : failure).
Arguments Ok {A} a.
Arguments Fail {A} e.

(** ** The regular expression of carriage.py 128 *)

(** $, without MULTILINE: at the end, and before a newline that ends the text. *)
Definition at_end (s : string) : bool :=
  match s with
  | "" => true
  | String c "" => Ascii.eqb c newline
  | _ => false
  end.

(** (?P<port>[0-9]+)$ : fewer digits than there are would leave a digit before
    the end, so that giving some back is of no use. *)
Definition match_port (s : string) : option string :=
  let '(d, r) := span s in
  match d with
  | "" => None
  | _ => if at_end r then Some d else None
  end.

(** (?P<host>[^:]+?):(?P<port>[0-9]+)$ with [seen] taken by the host already:
    the shortest host first. *)
Fixpoint match_host (seen s : string) : option (string * string) :=
  match s with
  | "" => None
  | String c r =>
      let go := if Ascii.eqb c colon then None else match_host (seen ++ String c "") r in
      match seen with
      | "" => go
      | _ => if Ascii.eqb c colon
             then match match_port r with Some d => Some (seen, d) | None => go end
             else go
      end
  end.

(** (?P<protocol>.+?):// and the rest, with something taken by the protocol or
    not: the shortest protocol first.  A dot is no newline. *)
Fixpoint match_protocol (started : bool) (s : string) : option (string * string) :=
  match s with
  | "" => None
  | String c r =>
      let go := if Ascii.eqb c newline then None else match_protocol true r in
      if started then
        match s with
        | String ":" (String "/" (String "/" q)) =>
            match match_host "" q with Some x => Some x | None => go end
        | _ => go
        end
      else go
  end.

(** proxy_regex.match(value): with a protocol if that is possible. *)
Definition match_proxy (s : string) : option (string * string) :=
  match match_protocol false s with
  | Some x => Some x
  | None => match_host "" s
  end.

(** carriage.py 131-144; strings.py 44.  int() of the digits never fails: the
    other branch is not reached. *)
Definition parse_proxy_address (s : string) : outcome (option proxy) :=
  match match_proxy s with
  | Some (h, d) => match read d with Some n => Ok (Some (mkProxy h n)) | None => Fail ValueError end
  | None => if (s =? "")%string then Ok None
            else Fail (ConfigurationError ("Failed to parse proxy config: " ++ s))
  end.

(** ** The other reading: backend.py 239-242, and the scripts' *)

(** s.split(':') *)
Fixpoint split (s : string) : list string :=
  match s with
  | "" => [""]
  | String c r =>
      if Ascii.eqb c colon then "" :: split r
      else match split r with
           | f :: fs => String c f :: fs
           | [] => [String c ""]
           end
  end.

(** Python's int() of a text is given: it takes signs and white space too. *)
Definition split_proxy (int : string -> option Z) (s : string) : outcome (option proxy) :=
  if (s =? "")%string then Ok None
  else match split s with
       | [h; p] => match int p with Some n => Ok (Some (mkProxy h n)) | None => Fail ValueError end
       | _ => Fail ValueError
       end.

(** ** Connections *)

(** The carriages that make connections, with the urls they are to connect to;
    the script has the one url of its argument. *)
Inductive client :=
| Websocket (connect : list string)      (* carriage.py 204-243 *)
| Legacy (uri : string)                  (* carriage.py 167-184 *)
| Script (url : string).                 (* ebu_simple_consumer.py, ebu_ebuttd_encoder.py *)

(** Each connection with the proxy it goes through; None for an option or an
    argument that is not given.  The carriages' options are converted when the
    configuration is read.  carriage.py 184 gives wsl_backend_consumer no proxy. *)
Definition connections (int : string -> option Z) (c : client) (value : option string)
  : outcome (list (string * option proxy)) :=
  let converted := match value with None => Ok None | Some s => parse_proxy_address s end in
  match c with
  | Websocket l => match converted with
                   | Ok p => Ok (map (fun u => (u, p)) l)
                   | Fail e => Fail e
                   end
  | Legacy u => match converted with
                | Ok _ => Ok [(u, None)]
                | Fail e => Fail e
                end
  | Script u => match match value with None => Ok None | Some s => split_proxy int s end with
                | Ok p => Ok [(u, p)]
                | Fail e => Fail e
                end
  end.
