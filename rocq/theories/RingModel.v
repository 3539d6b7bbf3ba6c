(** The ring buffer and the rotating file buffer.

    Source: ebu_tt_live/utils.py 66-84 and 108-196.  Python 2. *)

From Coq Require Import List String Bool Arith.
Import ListNotations.

(** ** RingBufferWithCallback, utils.py 66-84 *)

(** A deque with its maxlen, and whether a callback was given. *)
Record ring (A : Type) : Type := mkRing {
  r_max : option nat;
  r_callback : bool;
  r_items : list A }.
Arguments mkRing {A} r_max r_callback r_items.
Arguments r_max {A} r.
Arguments r_callback {A} r.
Arguments r_items {A} r.

(** collections.deque(iterable, maxlen): the newest maxlen items stay. *)
Definition newest {A} (max : option nat) (l : list A) : list A :=
  match max with
  | None => l
  | Some n => skipn (List.length l - n) l
  end.

(** utils.py 74-78: the items of the iterable go straight into the deque. *)
Definition ring_new {A} (iterable : list A) (max : option nat) (callback : bool) : ring A :=
  mkRing max callback (newest max iterable).

(** What append does: the new buffer and the calls of the callback, or the
    IndexError of popleft on an empty deque. *)
Inductive ring_res (A : Type) : Type :=
| RAppended (r : ring A) (called : list A)
| RIndexError.
Arguments RAppended {A} r called.
Arguments RIndexError {A}.

(** utils.py 80-84.  [len(self) >= None] is true in Python 2.  A callback that
    raises is treated with the rotating file buffer below. *)
Definition ring_append {A} (r : ring A) (x : A) : ring_res A :=
  let full := match r_max r with
              | None => true
              | Some n => n <=? List.length (r_items r)
              end in
  if full && r_callback r then
    match r_items r with
    | [] => RIndexError
    | y :: rest => RAppended (mkRing (r_max r) true (newest (r_max r) (rest ++ [x]))) [y]
    end
  else RAppended (mkRing (r_max r) (r_callback r) (newest (r_max r) (r_items r ++ [x]))) [].

(** Several appends; stops at the first exception. *)
Fixpoint ring_appends {A} (r : ring A) (xs : list A) : ring_res A :=
  match xs with
  | [] => RAppended r []
  | x :: rest =>
      match ring_append r x with
      | RIndexError => RIndexError
      | RAppended r1 c1 =>
          match ring_appends r1 rest with
          | RIndexError => RIndexError
          | RAppended r2 c2 => RAppended r2 (c1 ++ c2)
          end
      end
  end.

(** ** RotatingFileBuffer, utils.py 108-196 *)

(** The files that exist, by name; [ok f] says whether os.remove may succeed on
    [f] (permissions, directories and so on). *)
Definition exists_file (fs : list string) (f : string) : bool := existsb (String.eqb f) fs.
Definition remove_file (fs : list string) (f : string) : list string :=
  filter (fun g => negb (String.eqb f g)) fs.

(** _do_delete, utils.py 131-147.  The names are taken from the end.  In Python
    2 os.remove raises OSError, which is not an IOError, so line 143 never
    catches it: [false] is that OSError, with the files removed so far.  (The
    list of failed files is therefore always empty.) *)
Fixpoint delete_each (ok : string -> bool) (waiting : list string) (fs : list string)
  : list string * bool :=
  match waiting with
  | [] => (fs, true)
  | f :: r =>
      if exists_file fs f then
        if ok f then delete_each ok r (remove_file fs f) else (fs, false)
      else delete_each ok r fs
  end.
Definition do_delete (ok : string -> bool) (waiting : list string) (fs : list string)
  : list string * bool := delete_each ok (rev waiting) fs.

(** The buffer, the deletion queue, whether stop was called on the thread, and
    what the thread is doing (the names it holds between rounds are the failed
    ones, of which there are none). *)
Inductive phase : Type := PRunning | PDone | PDead.

Record rfb : Type := mkRfb {
  b_ring : ring string;
  b_queue : list string;
  b_stopped : bool;
  b_phase : phase;
  b_fs : list string;
  b_evicted : list string }.   (* ghost: every name handed to delete_file *)

Definition rfb_new (max : nat) (fs : list string) : rfb :=
  mkRfb (ring_new [] (Some max) true) [] false PRunning fs [].

(** ** async=False, utils.py 170-185: the queue is emptied in the call. *)
Inductive sync_res : Type := SyOk (s : rfb) | SyIndexError | SyOSError (s : rfb).

Definition sync_append (ok : string -> bool) (s : rfb) (x : string) : sync_res :=
  let r := b_ring s in
  let full := match r_max r with
              | None => true
              | Some n => n <=? List.length (r_items r)
              end in
  if full then
    match r_items r with
    | [] => SyIndexError
    | y :: rest =>
        let '(fs, fine) := do_delete ok [y] (b_fs s) in
        if fine then
          SyOk (mkRfb (mkRing (r_max r) true (newest (r_max r) (rest ++ [x]))) (b_queue s) (b_stopped s)
                      (b_phase s) fs (b_evicted s ++ [y]))
        else (* raised after popleft, before the append *)
          SyOSError (mkRfb (mkRing (r_max r) true rest) (b_queue s) (b_stopped s)
                           (b_phase s) fs (b_evicted s ++ [y]))
    end
  else SyOk (mkRfb (mkRing (r_max r) true (newest (r_max r) (r_items r ++ [x]))) (b_queue s) (b_stopped s)
                   (b_phase s) (b_fs s) (b_evicted s)).

(** ** async=True *)

(** What can happen, in any order: an append by the owner; one round of the
    thread (_do_consume, 149-157: take at most one name, delete); stop; the end
    of the thread loop (159-168); a file written by someone.  A round is taken
    as one step: the two threads share only the queue and the file system. *)
Inductive act : Type :=
| AAppend (x : string)
| ARound
| AStop
| AExit
| AWrite (f : string).

Definition rfb_step (ok : string -> bool) (s : rfb) (a : act) : rfb :=
  match a with
  | AAppend x =>
      if b_stopped s then s      (* RotatingFileBufferStopped, 193-195 *)
      else match ring_append (b_ring s) x with
           | RIndexError => s
           | RAppended r called =>
               mkRfb r (b_queue s ++ called) false (b_phase s) (b_fs s) (b_evicted s ++ called)
           end
  | ARound =>
      match b_phase s, b_queue s with
      | PRunning, f :: q =>
          let '(fs, fine) := do_delete ok [f] (b_fs s) in
          mkRfb (b_ring s) q (b_stopped s) (if fine then PRunning else PDead) fs (b_evicted s)
      | _, _ => s
      end
  | AStop => mkRfb (b_ring s) (b_queue s) true (b_phase s) (b_fs s) (b_evicted s)
  | AExit =>
      match b_phase s, b_queue s with
      | PRunning, [] =>
          if b_stopped s then
            mkRfb (b_ring s) [] true PDone (b_fs s) (b_evicted s)
          else s
      | _, _ => s
      end
  | AWrite f => mkRfb (b_ring s) (b_queue s) (b_stopped s) (b_phase s) (f :: b_fs s) (b_evicted s)
  end.

Definition rfb_run (ok : string -> bool) (s : rfb) (l : list act) : rfb :=
  fold_left (rfb_step ok) l s.
