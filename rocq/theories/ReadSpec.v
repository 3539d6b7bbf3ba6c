(** For C57: the times that documents of a time base may have. *)

From Coq Require Import List ZArith String Bool.
From Verif Require Import Digits TimeModel TimeSpec ReadModel.
Import ListNotations.
Open Scope Z_scope.

(** hh:mm:ss:ff *)
Definition legal_smpte (s : string) : Prop :=
  exists ht mt ct ft h m c f,
    s = (ht ++ ":" ++ mt ++ ":" ++ ct ++ ":" ++ ft)%string /\
    String.length ht = 2%nat /\ read ht = Some h /\ h <= 23 /\
    String.length mt = 2%nat /\ read mt = Some m /\ m <= 59 /\
    String.length ct = 2%nat /\ read ct = Some c /\ c <= 59 /\
    String.length ft = 2%nat /\ read ft = Some f.

Definition legal (ty : ttype) (s : string) : Prop :=
  match ty with
  | Smpte => legal_smpte s
  | Timecount => legal_timecount s
  | FullClock => legal_clock false s
  | LimitedClock => legal_clock true s
  end.

(** The kinds of time of a time base. *)
Definition kinds (tb : string) : list ttype :=
  if String.eqb tb "clock" then [LimitedClock; Timecount]
  else if String.eqb tb "media" then [FullClock; Timecount]
  else if String.eqb tb "smpte" then [Smpte]
  else [].

(** [s] is a time of the kind [ty] for the attribute [n]; durations are no
    time codes. *)
Definition time_in (tb : string) (n : tname) (s : string) (ty : ttype) : Prop :=
  In ty (kinds tb) /\ legal ty s /\ (n = NDur -> ty <> Smpte).

(** Times in the metadata do not depend on the time base. *)
Definition item_in (tb : string) (x : item) (ty : ttype) : Prop :=
  match x with
  | ITime n s => time_in tb n s ty
  | IProgramme s => In ty [LimitedClock; Timecount; Smpte] /\ legal ty s
  | IMedia s => In ty [FullClock; Timecount] /\ legal ty s
  end.

Definition in_body (x : item) : Prop := match x with ITime _ _ => True | _ => False end.
