(** What the nodes should do, stated on histories of calls and reactions. *)

From Coq Require Import List ZArith String Bool.
From Verif Require Import RingModel SequenceModel SequenceSpec NodeModel.
Import ListNotations.
Open Scope string_scope.
Open Scope Z_scope.

(** ** Seen documents *)

Notation query := (string * Z)%type.
Definition seen_step (m : seen) (q : query) : seen * bool := check_seen m (fst q) (snd q).

(** Queries with their answers, from a fresh node. *)
Definition seen_trace (h : list query) : list (query * bool) :=
  combine h (snd (run seen_step [] h)).

(** The numbers of sequence [sid] that were answered "new", in order. *)
Fixpoint accepted (sid : string) (tr : list (query * bool)) : list Z :=
  match tr with
  | [] => []
  | ((s, n), b) :: r => if b && String.eqb sid s then n :: accepted sid r else accepted sid r
  end.

Definition of_sequence (sid : string) (q : query) : bool := String.eqb sid (fst q).

(** ** One input sequence *)

(** The sequence the node will settle for: that of the first document that does
    not carry the node's own output identifier. *)
Fixpoint home {P M} (out : string) (h : list (input P M)) : option string :=
  match h with
  | [] => None
  | IDoc d :: r => if String.eqb (p_sid d) out then home out r else Some (p_sid d)
  | IMsg _ :: r => home out r
  end.

Definition at_home {P M} (f : string) (i : input P M) : bool :=
  match i with IDoc d => String.eqb (p_sid d) f | IMsg _ => true end.

(** The documents such a node looks up in its memory. *)
Definition asked {P M} (out : string) (h : list (input P M)) : list query :=
  flat_map (fun i => match i with
                     | IDoc d => if String.eqb (p_sid d) out then [] else [(p_sid d, p_num d)]
                     | IMsg _ => []
                     end) h.

(** The document was among the last 100 the node looked up and did not know. *)
Definition recent {P M} (out : string) (h : list (input P M)) (d : pdoc P) : Prop :=
  In (p_num d) (newest (Some 100%nat) (accepted (p_sid d) (seen_trace (asked out h)))).

(** The sequence of the first document. *)
Fixpoint first_of {P M} (h : list (input P M)) : option string :=
  match h with
  | [] => None
  | IDoc d :: _ => Some (p_sid d)
  | IMsg _ :: r => first_of r
  end.

(** Everything a run sends out. *)
Fixpoint sent {P M} (l : list (reaction P M)) : list (reaction P M) :=
  match l with
  | [] => []
  | Emit d :: r => Emit d :: sent r
  | EmitMsg m :: r => EmitMsg m :: sent r
  | _ :: r => sent r
  end.

(** ** Distribution *)

(** The first occurrence of every document, and every message. *)
Fixpoint first_copies (before : list query) (h : list xinput) : list xinput :=
  match h with
  | [] => []
  | XMsg m :: r => XMsg m :: first_copies before r
  | XDoc d :: r =>
      if existsb (fun q => String.eqb (fst q) (x_sid d) && Z.eqb (snd q) (x_num d)) before
      then first_copies before r
      else XDoc d :: first_copies ((x_sid d, x_num d) :: before) r
  end.

Definition payload (i : xinput) : string :=
  match i with
  | XDoc d => match x_raw d with Some r => r | None => x_xml d end
  | XMsg m => xm_xml m
  end.

Definition xdocs (h : list xinput) : list query :=
  flat_map (fun i => match i with XDoc d => [(x_sid d, x_num d)] | XMsg _ => [] end) h.

(** The emission [e] carries the input [i]: text and labels. *)
Definition carries (i : xinput) (e : emission) : Prop :=
  e_data e = payload i /\
  match i with
  | XDoc d => e_sid e = x_sid d /\ e_num e = Some (x_num d) /\ e_tb e = Some (x_tb d) /\
              e_avail e = x_avail d /\ e_cm e = x_cm d
  | XMsg m => e_sid e = xm_sid m /\ e_num e = None /\ e_avail e = xm_avail m
  end.

(** ** Handover *)

Fixpoint emitted {M} (l : list (hreaction M)) : list (Z * string * string * hdoc) :=
  match l with
  | [] => []
  | HEmit n o s d :: r => (n, o, s, d) :: emitted r
  | _ :: r => emitted r
  end.

Definition last_of {A} (l : list A) : option A := last (map Some l) None.

(** 1, 2, ..., n *)
Definition one_to (n : nat) : list Z := map Z.of_nat (seq 1 n).

(** Inputs with reactions. *)
Definition htrace (M : Type) : Type := list (hinput M * hreaction M).

(** The documents that were let in (no exception), as queries to the memory of
    seen documents. *)
Fixpoint let_in {M} (tr : htrace M) : list query :=
  match tr with
  | [] => []
  | (HDoc x, HRaise _) :: r => let_in r
  | (HDoc x, HAttribute) :: r => let_in r
  | (HDoc x, _) :: r => (d_sid (h_doc x), d_num (h_doc x)) :: let_in r
  | (HMsg _, _) :: r => let_in r
  end.

(** All documents of a sequence received so far. *)
Fixpoint received {M} (sid : string) (h : list (hinput M)) : list document :=
  match h with
  | [] => []
  | HDoc x :: r => if String.eqb sid (d_sid (h_doc x)) then h_doc x :: received sid r else received sid r
  | HMsg _ :: r => received sid r
  end.

(** Same time base, and on time base clock the same clock mode. *)
Definition same_clock (x y : document) : bool :=
  String.eqb (d_tb x) (d_tb y) && (negb (String.eqb (d_tb x) "clock") || ostr_eqb (d_cm x) (d_cm y)).

Definition proper_group (x : document) : bool :=
  match d_agid x with Some a => negb (String.eqb a "") | None => false end.

(** The authors group of a sequence: the one of its first document if that has
    the attribute at all, otherwise the first non-empty one of a document on the
    same clock. *)
Definition group_of (docs : list document) : option string :=
  match docs with
  | [] => None
  | x0 :: r =>
      match d_agid x0 with
      | Some g => Some g
      | None => match find (fun x => same_clock x0 x && proper_group x) r with
                | Some x => d_agid x
                | None => None
                end
      end
  end.

(** ** Re-sequencing *)

Fixpoint segments (l : list rreaction) : list segment :=
  match l with
  | [] => []
  | RSegment g :: r => g :: segments r
  | _ :: r => segments r
  end.

(** Documents delivered in a history. *)
Fixpoint rdocs (l : list rinput) : list document :=
  match l with
  | [] => []
  | RDoc d :: r => d :: rdocs r
  | RTick _ :: r => rdocs r
  end.
