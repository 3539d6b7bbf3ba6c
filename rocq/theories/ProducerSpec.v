(** For C56: what viewers of the producer's subtitles are to read. *)

From Coq Require Import List ZArith String Bool.
From Verif Require Import TimeModel TimeSpec TimingModel SegmentModel SegmentSpec ProducerModel.
Import ListNotations.
Open Scope Z_scope.

(** A subtitle: from when and until when it is to be read, and its lines. *)
Record cue := mkCue { cu_from : Z; cu_until : Z; cu_lines : list string }.

(** Subtitles are shown for one second, from one second after the producer was
    started (cut to milliseconds), but not before they arrive. *)
Definition second : Z := 1000000.
Definition slot (now avail : Z) (lines : list string) : cue :=
  mkCue (Z.max (trunc_ms (now + second)) avail) (trunc_ms (now + second) + second) lines.

(** The subtitles of a run: one for every start, with the next lines; nothing
    for no lines, and nothing when there are none left.  Without texts, the time
    shown is the one from which it is shown, written as hh:mm:ss.mmm (C17). *)
Definition time_text (us : Z) : string := match limited_of us with Some s => s | None => ""%string end.
Fixpoint subtitles (blocks : option (list (list string))) (l : list pevent) : list cue :=
  match l, blocks with
  | [], _ => []
  | Cut :: r, _ => subtitles blocks r
  | Produce now avail :: r, None => slot now avail [time_text (now + second)] :: subtitles None r
  | Produce _ _ :: r, Some [] => subtitles (Some []) r
  | Produce _ _ :: r, Some ([] :: more) => subtitles (Some more) r
  | Produce now avail :: r, Some (lines :: more) => slot now avail lines :: subtitles (Some more) r
  end.

(** At [t] the last subtitle that has begun counts, and is read unless it is
    over. *)
Definition begun (t : Z) (cur : list string) (s : cue) : list string :=
  if cu_from s <=? t then (if t <? cu_until s then cu_lines s else []) else cur.
Definition to_read (l : list cue) (t : Z) : list string := fold_left (begun t) l [].

(** Runs in which the clock is before the hundredth hour and documents arrive
    before they are over. *)
Definition in_time (e : pevent) : Prop :=
  match e with
  | Produce now avail => 0 <= now /\ now + 2 * second < h100 /\ 0 <= avail < trunc_ms (now + second) + second
  | Cut => True
  end.
Definition no_blanks (blocks : option (list (list string))) : Prop :=
  match blocks with Some l => Forall (Forall (fun s => blank s = false)) l | None => True end.

(** The texts of a document, one after the other. *)
Fixpoint texts (n : node) : list string :=
  match n with
  | Text s => [s]
  | Br => []
  | Node _ _ _ _ _ _ kids => flat_map texts kids
  end.

(** A document with number [n] and these lines, begun a second after [now] and
    over after another. *)
Definition says (x : docu bodyd) (n now : Z) (lines : list string) : Prop :=
  t_seq x = n /\
  exists bd b d, t_body x = Some bd /\ bd_begin bd = Some b /\ ta_us b = trunc_ms (now + second) /\
    bd_dur bd = Some d /\ ta_us d = second /\ bd_end bd = None /\ flat_map texts (bd_kids bd) = lines.

(** The outcome of the start at [now] that is the [i]th: a document with the [i]th
    lines and the [i]th number; no lines are an error, and after the last ones
    there are no data. *)
Definition outcome_ok (last : Z) (blocks : option (list (list string))) (i : nat) (now : Z) (o : perr + docu bodyd) : Prop :=
  let n := last + 1 + Z.of_nat i in
  match blocks with
  | None => exists x, o = inr x /\ says x n now [time_text (now + second)]
  | Some l =>
      match nth_error l i with
      | None => o = inl PEndOfData
      | Some [] => o = inl PIndexError
      | Some lines => exists x, o = inr x /\ says x n now lines
      end
  end.
