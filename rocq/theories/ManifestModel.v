(** The file system carriage: document files, the manifest, and its reader.

    Source: ebu_tt_live/carriage/filesystem.py and the name patterns of
    ebu_tt_live/strings.py 61-64.  Python 2.

    One output folder is modelled, as a table from file names to contents; a
    sequence identifier with a '/' in it (another folder) is not covered. *)

From Coq Require Import List ZArith String Ascii Bool.
From Verif Require Import Digits TimeModel RingModel.
Import ListNotations.
Open Scope Z_scope.
Open Scope string_scope.

Notation folder := (list (string * string)).

Fixpoint fs_get (fs : folder) (f : string) : option string :=
  match fs with
  | [] => None
  | (g, c) :: r => if (f =? g)%string then Some c else fs_get r f
  end.

(** os.remove of an existing file. *)
Definition fs_del (fs : folder) (f : string) : folder :=
  filter (fun p => negb (f =? fst p)%string) fs.

(** open(f, 'w') and write. *)
Definition fs_put (fs : folder) (f c : string) : folder := (f, c) :: fs_del fs f.

(** open(f, 'a') and write. *)
Definition fs_append (fs : folder) (f c : string) : folder :=
  fs_put fs f (match fs_get fs f with Some old => old ++ c | None => c end).

(** strings.py 61-63: the default patterns. *)
Definition doc_name (sid : string) (n : Z) : string := sid ++ "_" ++ show n ++ ".xml".
Definition msg_name (sid : string) (n : Z) : string := sid ++ "_msg_" ++ show n ++ ".xml".
Definition manifest_name (sid : string) : string := "manifest_" ++ sid ++ ".txt".

Definition newline : ascii := ascii_of_nat 10.

(** strings.py 64. *)
Definition manifest_line (t : Z) (name : string) : string :=
  manifest_of t ++ "," ++ name ++ String newline "".

(** The constructor arguments, filesystem.py 70-88.  The two patterns are any
    functions of identifier and counter. *)
Record fcfg : Type := mkFcfg {
  c_doc : string -> Z -> string;
  c_msg : string -> Z -> string;
  c_ring : nat;                  (* circular_buf_size; 0 is no buffer *)
  c_quiet : bool }.              (* suppress_manifest *)

Definition default_cfg : fcfg := mkFcfg doc_name msg_name 0 false.

(** One call of emit_data, 132-133.  [e_clock] says whether get_clock has a
    clock for this call's time_base and clock_mode (clocks/__init__.py 10-22),
    [e_now] is what the default clock reads at this moment; [e_avail] is None
    when the argument is not a timedelta; [e_delay] is in microseconds. *)
Record emission : Type := mkEmission {
  e_data : string;
  e_sid : string;
  e_num : option Z;
  e_avail : option Z;
  e_delay : option Z;
  e_clock : bool;
  e_now : Z }.

Record fstate : Type := mkFstate {
  f_files : folder;
  f_msgs : Z;                    (* _msg_counter *)
  f_clocks : list string;        (* the keys of _default_clocks *)
  f_manifest : option string;    (* _manifest_path *)
  f_ring : list string;          (* _circular_buf *)
  f_evicted : list string }.     (* handed to the deletion thread *)

Definition f_init (fs : folder) : fstate := mkFstate fs 0 [] None [] [].

(** data is unicode text; writing it to a file opened with 'w' encodes it as
    ASCII in Python 2.  (Characters above 255 behave like the ones from 128.) *)
Definition ascii_text (s : string) : bool :=
  forallb (fun c => Nat.ltb (nat_of_ascii c) 128) (list_ascii_of_string s).

(** How a call ends. *)
Inductive fres : Type :=
| FLine (name : string) (t : Z)     (* written, and listed under time t *)
| FUnlisted (name : string)         (* written, no line (164 or 175-186) *)
| FUnicodeError (name : string)     (* 157: an empty file is left *)
| FOverflow (name : string).        (* 189: timedelta overflow *)

(** 137-149 *)
Definition file_name (c : fcfg) (s : fstate) (e : emission) : Z * string :=
  match e_num e with
  | None => let n := f_msgs s + 1 in (n, c_msg c (e_sid e) n)
  | Some k => (f_msgs s, c_doc c (e_sid e) k)
  end.

(** 161-162: RotatingFileBuffer.append with maxlen > 0, see RingModel.v. *)
Definition ring_add (c : fcfg) (s : fstate) (name : string) : list string * list string :=
  if (0 <? c_ring c)%nat then
    match ring_append (mkRing (Some (c_ring c)) true (f_ring s)) name with
    | RAppended r called => (r_items r, called)
    | RIndexError => (f_ring s, [])
    end
  else (f_ring s, []).

(** 99-123 with 90-97: the availability time and the default clocks. *)
Definition availability (s : fstate) (e : emission) : option Z * list string :=
  match e_avail e with
  | Some t => (Some t, f_clocks s)
  | None =>
      if existsb (String.eqb (e_sid e)) (f_clocks s) then (Some (e_now e), f_clocks s)
      else if e_clock e then (Some (e_now e), e_sid e :: f_clocks s)
      else (None, f_clocks s)
  end.

(** emit_data, 132-202. *)
Definition emit (c : fcfg) (s : fstate) (e : emission) : fstate * fres :=
  let '(msgs, name) := file_name c s e in
  if negb (ascii_text (e_data e)) then
    (mkFstate (fs_put (f_files s) name "") msgs (f_clocks s) (f_manifest s) (f_ring s) (f_evicted s),
     FUnicodeError name)
  else
  let files := fs_put (f_files s) name (e_data e) in
  let '(ring, called) := ring_add c s name in
  let evicted := (f_evicted s ++ called)%list in
  if c_quiet c then
    (mkFstate files msgs (f_clocks s) (f_manifest s) ring evicted, FUnlisted name)
  else
  let '(avail, clocks) := availability s e in
  match avail with
  | None => (mkFstate files msgs clocks (f_manifest s) ring evicted, FUnlisted name)
  | Some a =>
      match (match e_delay e with None => Some a | Some d => mk_td (a + d) end) with
      | None => (mkFstate files msgs clocks (f_manifest s) ring evicted, FOverflow name)
      | Some t =>
          let m := match f_manifest s with
                   | Some m => m
                   | None => manifest_name (e_sid e)
                   end in
          (mkFstate (fs_append files m (manifest_line t name)) msgs clocks (Some m) ring evicted,
           FLine name t)
      end
  end.

(** What can happen to the folder: a call of emit_data, and the deletion
    thread removing a file it was given. *)
Inductive fev : Type := FEmit (e : emission) | FDelete (name : string).

Definition fstep (c : fcfg) (s : fstate) (v : fev) : fstate * list fres :=
  match v with
  | FEmit e => let '(s', r) := emit c s e in (s', [r])
  | FDelete f =>
      (if existsb (String.eqb f) (f_evicted s)
       then mkFstate (fs_del (f_files s) f) (f_msgs s) (f_clocks s) (f_manifest s) (f_ring s) (f_evicted s)
       else s, [])
  end.

(** Any history; the results in order. *)
Fixpoint fruns (c : fcfg) (s : fstate) (l : list fev) : fstate * list fres :=
  match l with
  | [] => (s, [])
  | v :: r => let '(s1, o1) := fstep c s v in
              let '(s2, o2) := fruns c s1 r in (s2, (o1 ++ o2)%list)
  end.

(** ** The reader, filesystem.py 205-262 *)

(** str.rstrip() on the byte strings of a file: the blank and characters 9-13. *)
Definition is_blank (a : ascii) : bool :=
  let n := nat_of_ascii a in (Nat.eqb n 32 || (Nat.leb 9 n && Nat.leb n 13))%bool.

Fixpoint rstrip (s : string) : string :=
  match s with
  | "" => ""
  | String a r =>
      match rstrip r with
      | "" => if is_blank a then "" else String a ""
      | t => String a t
      end
  end.

(** The lines of a text as readline gives them, each with its line end. *)
Fixpoint lines (s : string) : list string :=
  match s with
  | "" => []
  | String a r =>
      if Ascii.eqb a newline then String a "" :: lines r
      else match lines r with
           | [] => [String a ""]
           | x :: l => String a x :: l
           end
  end.

(** What one line leads to. *)
Inductive rres : Type :=
| RDeliver (t : Z) (content : string)   (* process_document, 218 *)
| REmpty                                (* an empty file, 216 *)
| RValueError                           (* the unpacking of 256, or 217 *)
| RIOError.                             (* no such file, 259 *)

(** 256: split into exactly two parts. *)
Definition line_parts (l : string) : option (string * string) :=
  match split_on "," (rstrip l) with
  | [t; f] => Some (t, f)
  | _ => None
  end.

(** 256-262 with 213-218. *)
Definition read_line (fs : folder) (l : string) : rres :=
  match line_parts l with
  | None => RValueError
  | Some (t, f) =>
      match fs_get fs f with
      | None => RIOError
      | Some "" => REmpty
      | Some content =>
          match manifest_td t with
          | Some v => RDeliver v content
          | None => RValueError
          end
      end
  end.

Definition r_fails (r : rres) : bool :=
  match r with RValueError | RIOError => true | _ => false end.

(** resume_reading without tail, 242-262: stops at the first exception. *)
Fixpoint read_lines (fs : folder) (ls : list string) : list rres :=
  match ls with
  | [] => []
  | l :: r => let x := read_line fs l in
              if r_fails x then [x] else x :: read_lines fs r
  end.

(** The reader on a manifest file; None is the IOError of a missing one. *)
Definition read_manifest (fs : folder) (m : string) : option (list rres) :=
  match fs_get fs m with
  | None => None
  | Some text => Some (read_lines fs (lines text))
  end.

(** ** A reader that follows the manifest while it is being written (tail)

    The reader has consumed some number of lines; it stops at its first
    exception.  A line is taken to appear at once. *)
Inductive tev : Type := TWrite (v : fev) | TRead.

Record tstate : Type := mkTstate { t_fs : fstate; t_pos : nat; t_dead : bool }.

Definition tstep (c : fcfg) (m : string) (s : tstate) (v : tev) : tstate * (list fres * list rres) :=
  match v with
  | TWrite w => let '(fs', o) := fstep c (t_fs s) w in
                (mkTstate fs' (t_pos s) (t_dead s), (o, []))
  | TRead =>
      if t_dead s then (s, ([], [])) else
      match fs_get (f_files (t_fs s)) m with
      | None => (s, ([], []))
      | Some text =>
          match nth_error (lines text) (t_pos s) with
          | None => (s, ([], []))            (* nothing new, 246-251 *)
          | Some l =>
              let x := read_line (f_files (t_fs s)) l in
              (mkTstate (t_fs s) (if r_fails x then t_pos s else S (t_pos s)) (r_fails x), ([], [x]))
          end
      end
  end.

Fixpoint truns (c : fcfg) (m : string) (s : tstate) (l : list tev)
  : tstate * (list fres * list rres) :=
  match l with
  | [] => (s, ([], []))
  | v :: r => let '(s1, (w1, r1)) := tstep c m s v in
              let '(s2, (w2, r2)) := truns c m s1 r in
              (s2, ((w1 ++ w2)%list, (r1 ++ r2)%list))
  end.
