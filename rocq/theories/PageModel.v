(** The page of the user input producer.

    Sources: ebu_tt_live/ui/user_input_producer/uip.js, index.html and
    template/user_input_producer_template.xml.

    The page is a state and the user, the browser and the server act on it one event
    after the other, as in a browser.  An exception ends the handler it occurs in. *)

From Coq Require Import List Arith ZArith String Ascii Bool.
Import ListNotations.
Open Scope string_scope.

(** ** Texts *)

(** The text area: its lines, at least one.  The value of a textarea has its line ends
    normalised; the hook of 668-672 writes them as CR LF, which 500 and 651 take as one. *)
Definition area := list string.
Definition empty_area : area := [""].

(** Typing at the end; where the cursor is otherwise is not modelled, nor is pasting. *)
Fixpoint type_char (a : area) (c : ascii) : area :=
  match a with [] => [String c ""] | [l] => [l ++ String c ""] | l :: r => l :: type_char r c end.
Definition type_line (a : area) : area := (a ++ [""])%list.

(** 500 and the template: what is between the tags of the span, not escaped (469-471). *)
Definition BR := "<tt:br/>".
Fixpoint content (a : area) : string :=
  match a with [] => "" | [l] => l | l :: r => l ++ BR ++ content r end.

(** 648-655: the first lines are removed while there are as many as max-lines; the
    text of a number input is empty unless it is a number, and compares as 0.  Of an
    empty array shift removes nothing, so the loop does not end: None. *)
Definition limit_of (max : option Z) : Z := match max with Some m => m | None => 0%Z end.
Fixpoint shift_lines (m : Z) (l : list string) : option (list string) :=
  if (m <=? Z.of_nat (List.length l))%Z then match l with [] => None | _ :: r => shift_lines m r end
  else Some l.
(** join, and the area shows it. *)
Definition shown (l : list string) : area := match l with [] => empty_area | _ => l end.

(** ** The page *)

Record doc := mkDoc { d_id : string; d_num : nat; d_area : area }.

(** socket.websocket (246-272): none, or with its state and the sequence of its address
    (400), of which encodeURIComponent makes "null" when there is none. *)
Inductive socket := NoSocket | Connecting (to : option string) | Opened (to : option string) | Closing (to : option string).
(** The radio inputs of index.html 95-99. *)
Inductive mode := Live | Scheduled | Asynchronous.

(** The identifier __proto__, which a JavaScript object does not take as a key, is left
    out, and numbers have no greatest one.
    all_sequences and sequence_numbers (3-4) have the same keys: both are set in 367-368 and
    cleared in 385-386; what else all_sequences has does not matter here.  So is what
    local storage has of them. *)
Record page := mkPage {
  p_nums : list (string * nat);
  p_opts : list string;       (* the options of the sequence selector *)
  p_sel : option string;      (* its value *)
  p_store : option (list string * list (string * nat));
  p_sock : socket;
  p_mode : mode;
  p_area : area;
  p_max : option Z;
  p_waiting : list doc;       (* given to setTimeout in 584 *)
  p_hung : bool }.

Fixpoint find (id : string) (l : list (string * nat)) : option nat :=
  match l with [] => None | (i, n) :: r => if i =? id then Some n else find id r end.
Fixpoint put (id : string) (n : nat) (l : list (string * nat)) : list (string * nat) :=
  match l with [] => [(id, n)] | (i, k) :: r => if i =? id then (id, n) :: r else (i, k) :: put id n r end.

(** 55-73: an option that is no sequence empties the selector. *)
Definition selected (p : page) : page :=
  match p_sel p with
  | None => p
  | Some id =>
      match find id (p_nums p) with
      | Some _ => p
      | None => mkPage (p_nums p) [] None (p_store p) (p_sock p) (p_mode p) (p_area p) (p_max p) (p_waiting p) (p_hung p)
      end
  end.

(** 3-24, 75, 103; the selector has its first option selected, index.html 95, 140. *)
Definition load (store : option (list string * list (string * nat))) : page :=
  let '(opts, nums) := match store with Some s => s | None => ([], []) end in
  selected (mkPage nums opts (hd_error opts) store NoSocket Live empty_area (Some 2%Z) [] false).

(** 338-377; a selector without a value takes the first option that is added. *)
Definition create (p : page) (id : string) : page :=
  if id =? "" then p
  else
    let opts := (p_opts p ++ [id])%list in
    let nums := put id 1 (p_nums p) in
    mkPage nums opts (match p_sel p with None => Some id | s => s end) (Some (opts, nums)) (p_sock p) (p_mode p) (p_area p)
      (p_max p) (p_waiting p) (p_hung p).

Definition select (p : page) (id : string) : page :=
  if existsb (String.eqb id) (p_opts p) then
    selected (mkPage (p_nums p) (p_opts p) (Some id) (p_store p) (p_sock p) (p_mode p) (p_area p) (p_max p) (p_waiting p) (p_hung p))
  else p.

(** 379-388. *)
Definition reset (p : page) : page :=
  mkPage [] [] None None (p_sock p) (p_mode p) (p_area p) (p_max p) (p_waiting p) (p_hung p).

Definition with_sock (p : page) (s : socket) : page :=
  mkPage (p_nums p) (p_opts p) (p_sel p) (p_store p) s (p_mode p) (p_area p) (p_max p) (p_waiting p) (p_hung p).
Definition with_area (p : page) (a : area) : page :=
  mkPage (p_nums p) (p_opts p) (p_sel p) (p_store p) (p_sock p) (p_mode p) a (p_max p) (p_waiting p) (p_hung p).

(** ** Documents *)

(** 473-505: raises TypeError unless the selected sequence exists. *)
Definition make (p : page) : option doc :=
  match p_sel p with
  | None => None
  | Some id => match find id (p_nums p) with Some n => Some (mkDoc id n (p_area p)) | None => None end
  end.

(** What becomes of a document that was made (613-617).  While the socket connects, send
    raises InvalidStateError: None. *)
Inductive fate := SentTo (to : option string) | NoConnection | Discarded.
Definition send (s : socket) : option fate :=
  match s with
  | NoSocket => Some NoConnection
  | Connecting _ => None
  | Opened to => Some (SentTo to)
  | Closing _ => Some Discarded
  end.

Inductive outcome := Quiet | Made (d : doc) (f : fate) | Planned (d : doc) | Later (d : doc) (f : fate) | NoSequence | Raised | Endless.

(** 586, 589, 598, then 591, 599. *)
Definition bump (p : page) (d : doc) : page :=
  let nums := put (d_id d) (S (d_num d)) (p_nums p) in
  mkPage nums (p_opts p) (p_sel p) (match p_store p with Some (o, _) => Some (o, nums) | None => Some ([], nums) end)
    (p_sock p) (p_mode p) (p_area p) (p_max p) (p_waiting p) (p_hung p).

(** 588-591 with 602-618, and 594-600. *)
Definition submit_now (p : page) : page * outcome :=
  match make p with
  | None => (p, Raised)
  | Some d => match send (p_sock p) with None => (p, Raised) | Some f => (bump p d, Made d f) end
  end.

(** 567-586; the time (536-562) is not modelled, see [fire]. *)
Definition submit_later (p : page) : page * outcome :=
  match make p with
  | None => (p, Raised)
  | Some d =>
      let q := bump p d in
      (mkPage (p_nums q) (p_opts q) (p_sel q) (p_store q) (p_sock q) (p_mode q) (p_area q) (p_max q) (p_waiting q ++ [d]) (p_hung q),
       Planned d)
  end.

(** 620-627. *)
Definition send_document (p : page) : page * outcome :=
  match p_sel p with
  | None => (p, NoSequence)
  | Some _ => match p_mode p with Scheduled => submit_later p | _ => submit_now p end
  end.

(** 602-618 when a timeout is over: createTemplateDict is called first. *)
Definition fire (p : page) : page * outcome :=
  match p_waiting p with
  | [] => (p, Quiet)
  | d :: r =>
      (mkPage (p_nums p) (p_opts p) (p_sel p) (p_store p) (p_sock p) (p_mode p) (p_area p) (p_max p) r (p_hung p),
       match make p with None => Raised | Some _ => match send (p_sock p) with None => Raised | Some f => Later d f end end)
  end.

(** ** Keys *)

Inductive key := Enter | Space | Escape | Char (c : ascii).

(** What the browser does after keydown, and keyup (661-665); keys are pressed one after the
    other. *)
Definition typed (p : page) (k : key) : page :=
  match k with
  | Enter =>
      let q := with_area p (type_line (p_area p)) in
      if (limit_of (p_max p) =? 1)%Z then with_area q empty_area else q
  | Space => with_area p (type_char (p_area p) " ")
  | Escape => p
  | Char c => with_area p (type_char (p_area p) c)
  end.

(** 636-657. *)
Definition press (p : page) (k : key) : page * outcome :=
  let '(q, o) :=
    match p_mode p, k with
    | Live, (Enter | Space | Escape) => send_document p
    | _, _ => (p, Quiet)
    end in
  match o with
  | Raised => (typed q k, o)
  | _ =>
      match k with
      | Escape => (typed (with_area q empty_area) k, o)
      | Enter =>
          match shift_lines (limit_of (p_max q)) (p_area q) with
          | None => (mkPage (p_nums q) (p_opts q) (p_sel q) (p_store q) (p_sock q) (p_mode q) (p_area q) (p_max q) (p_waiting q) true,
                     match o with Quiet | NoSequence => Endless | _ => o end)
          | Some l => (typed (with_area q (shown l)) k, o)
          end
      | _ => (typed q k, o)
      end
  end.

(** ** Events *)

Inductive event :=
| Create (id : string) | Select (id : string) | Reset | Reload
| Connect              (* 398-410; not pressed again while it connects *)
| Open                 (* 258-264 *)
| Fail                 (* 250-256 *)
| Leave                (* 413-417, or a message from the server, 274-279 *)
| Closed               (* 266-272 *)
| Mode (m : mode)      (* 432-436 *)
| Max (m : option Z)
| Now                  (* 629; the button can be seen in the mode Live only, 77-101 *)
| Schedule             (* index.html 115; nothing is registered for this button *)
| Tick                 (* 449-459, 594-600; the interval may still run in another mode *)
| Timeout
| Press (k : key).

Definition step (p : page) (v : event) : page * outcome :=
  match v with
  | Reload => (load (p_store p), Quiet)
  | _ =>
    if p_hung p then (p, Quiet)
    else
    match v with
    | Create id => (create p id, Quiet)
    | Select id => (select p id, Quiet)
    | Reset => (reset p, Quiet)
    | Reload => (p, Quiet)
    | Connect => (match p_sock p with NoSocket => with_sock p (Connecting (p_sel p)) | _ => p end, Quiet)
    | Open => (match p_sock p with Connecting to => with_sock p (Opened to) | _ => p end, Quiet)
    | Fail => (match p_sock p with NoSocket => p | _ => with_sock p NoSocket end, Quiet)
    | Leave => (match p_sock p with Opened to => with_sock p (Closing to) | _ => p end, Quiet)
    | Closed => (match p_sock p with Opened _ | Closing _ => with_sock p NoSocket | _ => p end, Quiet)
    | Mode m => (mkPage (p_nums p) (p_opts p) (p_sel p) (p_store p) (p_sock p) m (p_area p) (p_max p) (p_waiting p) (p_hung p), Quiet)
    | Max m => (mkPage (p_nums p) (p_opts p) (p_sel p) (p_store p) (p_sock p) (p_mode p) (p_area p) m (p_waiting p) (p_hung p), Quiet)
    | Now => match p_mode p with Live => send_document p | _ => (p, Quiet) end
    | Schedule => (p, Quiet)
    | Tick => submit_now p
    | Timeout => fire p
    | Press k => press p k
    end
  end.

Fixpoint run (p : page) (l : list event) : list outcome :=
  match l with [] => [] | v :: r => let '(q, o) := step p v in o :: run q r end.
Definition after (p : page) (l : list event) : page := fold_left (fun q v => fst (step q v)) l p.

(** The page as it is opened for the first time. *)
Definition page0 : page := load None.

(** ** What is received *)

(** 172-242: a document with its authorsGroupSelectedSequenceIdentifier (getAttributeNS is
    null when there is none, and null == null), or a message, and whether it has a sender and
    a payload with text: if not, 174-185 raise. *)
Inductive item := ADoc (selected : option string) | AMessage (full : bool).
Record feed := mkFeed { f_items : list item; f_air : bool }.
Definition on_air (sel s : option string) : bool :=
  match sel, s with Some a, Some b => a =? b | None, None => true | _, _ => false end.
Definition receive (sel : option string) (f : feed) (i : item) : feed :=
  let all := (f_items f ++ [i])%list in
  let last := skipn (List.length all - 10) all in
  match i with
  | ADoc s => mkFeed last (on_air sel s)
  | AMessage true => mkFeed last (f_air f)
  | AMessage false => f
  end.
