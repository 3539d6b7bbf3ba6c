(** Which type a time in a document is given.

    Sources: ebu_tt_live/bindings/_ebuttdt.py 27-95 (_TimedeltaBindingMixin), 223-434
    (the four types and the time bases they are for), bindings/pyxb_utils.py 18-54
    (the context of parsing), bindings/__init__.py 53-69, 447-456, 681-684, 752-755,
    829-832, 899-903 (the hooks on attributes), bindings/validation/base.py 29-36,
    bindings/validation/timing.py 25-36, 234-261, 363-380,
    xsd/ebutt_datatypes.xsd 140-182.

    PyXB tries the types of a union in their order, those of a union inside it
    included, and takes the first that can be made of the text; when there is
    none, or making one raises something else, reading fails, which is None here.
    A value that already has one of the types is kept. *)

From Coq Require Import List ZArith String Ascii Bool.
From Verif Require Import Digits TimeModel.
Import ListNotations.
Open Scope Z_scope.

Inductive ttype := Smpte | Timecount | FullClock | LimitedClock.
Inductive tname := NBegin | NEnd | NDur.

(** ebutt_datatypes.xsd 148-152: two digits each, up to 23, 59, 59 and 99. *)
Definition smpte_ok (s : string) : bool :=
  match scan_sexa 23 s with
  | Some (_, r1) =>
      match scan_char ":" r1 with
      | Some r2 =>
          match scan_sexa 59 r2 with
          | Some (_, r3) =>
              match scan_char ":" r3 with
              | Some r4 =>
                  match scan_sexa 59 r4 with
                  | Some (_, r5) =>
                      match scan_char ":" r5 with
                      | Some r6 => match two_digits r6 with Some (_, EmptyString) => true | _ => false end
                      | None => false
                      end
                  | None => false
                  end
              | None => false
              end
          | None => false
          end
      | None => false
      end
  | None => false
  end.

(** The patterns of ebutt_datatypes.xsd 148-152 and 163-182. *)
Definition matches (ty : ttype) (s : string) : bool :=
  match ty with
  | Smpte => smpte_ok s
  | Timecount => match timecount_parts s with Some _ => true | None => false end
  | FullClock => match clock_parts false s with Some _ => true | None => false end
  | LimitedClock => match clock_parts true s with Some _ => true | None => false end
  end.

(** _compatible_timebases, _ebuttdt.py 231-235, 302-306, 358-362, 418-422: the
    same for begin, dur and end. *)
Definition bases (ty : ttype) (n : tname) : list string :=
  match ty, n with
  | Timecount, _ => ["clock"; "media"]
  | FullClock, _ => ["media"]
  | LimitedClock, _ => ["clock"]
  | Smpte, _ => ["smpte"]
  end%string.

(** The context dictionary of a parser: its entries timeBase and
    timing_attribute_name. *)
Record context := mkCx { cx_base : option string; cx_name : option tname }.

(** _ConvertArguments_vx, _ebuttdt.py 45-90, and the pattern: does making the
    type of the text succeed?  Outside parsing there is no context; without a
    timeBase, looking it up raises KeyError. *)
Definition made (cx : option context) (ty : ttype) (s : string) : bool :=
  match cx with
  | None => matches ty s
  | Some c =>
      match cx_base c with
      | None => false
      | Some tb =>
          match cx_name c with
          | Some n => existsb (String.eqb tb) (bases ty n) && matches ty s
          | None => matches ty s
          end
      end
  end.
Definition union (cx : option context) (members : list ttype) (s : string) : option ttype :=
  find (fun ty => made cx ty s) members.

(** ebutt_datatypes.xsd 140-162. *)
Definition clock_members : list ttype := [LimitedClock; Timecount].
Definition media_members : list ttype := [Timecount; FullClock].
Definition timing_members : list ttype := Smpte :: media_members ++ clock_members.
Definition duration_members : list ttype := clock_members ++ media_members.
Definition programme_members : list ttype := clock_members ++ [Smpte].

(** The types of the attributes, ebutt_live.xsd 153-165, 210-216, 264-270, 315-321. *)
Definition members (n : tname) : list ttype :=
  match n with NDur => duration_members | _ => timing_members end.

(** ** Reading *)

(** What a document has of times, in the order it is read: the elements
    documentStartOfProgramme and relatedMediaDuration of its metadata
    (ebutt_metadata.xsd 256, 345), times of elements of EBU-TT-D (ebutt_d.xsd
    216-222, 267-273), which are of the same type as the latter and have no
    hook, and times of elements. *)
Inductive item := IProgramme (s : string) | IMedia (s : string) | ITime (n : tname) (s : string).

(** base.py 29-36 and timing.py 25-30: the name of the attribute goes into the
    context first.  Nothing takes it out again: _post_timing_set_attribute is not
    among the hooks of any element. *)
Fixpoint read_items (cx : context) (l : list item) : option (list (item * ttype)) :=
  match l with
  | [] => Some []
  | x :: r =>
      let cx' := match x with ITime n _ => mkCx (cx_base cx) (Some n) | _ => cx end in
      let t := match x with
               | IProgramme s => union (Some cx') programme_members s
               | IMedia s => union (Some cx') media_members s
               | ITime n s => union (Some cx') (members n) s
               end in
      match t, read_items cx' r with
      | Some ty, Some q => Some ((x, ty) :: q)
      | _, _ => None
      end
  end.

(** CreateFromDocument: a fresh context, pyxb_utils.py 36-54, which gets the
    timeBase when tt has its attributes (__init__.py 447-456); the tt of EBU-TT-D
    has no such hook. *)
Definition parse (timeBase : option string) (l : list item) : option (list (item * ttype)) :=
  read_items (mkCx timeBase None) l.

(** _semantic_timebase_validation, timing.py 234-261 and 363-380. *)
Definition timebase_ok (tb : string) (n : tname) (ty : ttype) : bool := existsb (String.eqb tb) (bases ty n).

(** The time, _ebuttdt.py 238-255, 314-325, 366-377, 425-427. *)
Definition value (ty : ttype) (s : string) : option Z :=
  match ty with
  | Smpte => Some 0
  | Timecount => timecount_td s
  | FullClock => clock_td false s
  | LimitedClock => clock_td true s
  end.

(** ** Setting attributes by program *)

(** A text. *)
Definition assign (n : tname) (s : string) : option ttype := union None (members n) s.

(** A timedelta: each type converts it first (_ebuttdt.py 85-90).  None stands
    for TimeFormatOverflowError, if PyXB passes it on. *)
Definition from_delta (ty : ttype) (t : Z) : option string :=
  match ty with
  | Smpte => Some "00:00:00:00"%string
  | Timecount => Some (timecount_of t)
  | FullClock => Some (full_of t)
  | LimitedClock => limited_of t
  end.
Definition assign_delta (n : tname) (t : Z) : option (ttype * string) :=
  match members n with
  | ty :: _ => match from_delta ty t with
               | Some s => if matches ty s then Some (ty, s) else None
               | None => None
               end
  | [] => None
  end.
