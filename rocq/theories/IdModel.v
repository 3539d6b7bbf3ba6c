(** Identifiers of elements.

    Source: ebu_tt_live/bindings/validation/base.py 198-222, IDMixin.
    deconflict_id is called by the segmenter (ebutt3_segmentation.py 65-67,
    76-77) on every copied element when a sequence extracts a segment
    (ebutt3.py 983). *)

From Coq Require Import List ZArith String Ascii Bool.
From Verif Require Import Digits.
Import ListNotations.
Open Scope string_scope.

(** base.py 204, 206-211; the sequence number is an integer. *)
Definition deconflict (n : Z) (id : option string) : option string :=
  match id with
  | Some i => Some ("SEQ" ++ show n ++ "." ++ i)
  | None => None
  end.

(** base.py 203: the two groups of the match of _re_ebu_id_deconflict, the digits
    after SEQ and the text after the dot, for identifiers without line ends. *)
Fixpoint after (p s : string) : option string :=
  match p, s with
  | EmptyString, _ => Some s
  | String a p', String b s' => if Ascii.eqb a b then after p' s' else None
  | _, _ => None
  end.
Definition match_deconflict (s : string) : option (Z * string) :=
  match after "SEQ" s with
  | None => None
  | Some r =>
      let '(d, t) := span r in
      match read d, after "." t with
      | Some n, Some i => Some (n, i)
      | _, _ => None
      end
  end.

(** base.py 213-222: the elements of a document in the order they are visited,
    each with its identifier; None is SemanticValidationError. *)
Fixpoint dict_get {A} (d : list (string * A)) (i : string) : option A :=
  match d with
  | [] => None
  | (j, x) :: r => if i =? j then Some x else dict_get r i
  end.

Definition register_id {A} (d : list (string * A)) (e : option string * A) : option (list (string * A)) :=
  match fst e with
  | None => Some d
  | Some i => match dict_get d i with
              | Some _ => None
              | None => Some ((i, snd e) :: d)
              end
  end.

Fixpoint register_all {A} (d : list (string * A)) (l : list (option string * A)) : option (list (string * A)) :=
  match l with
  | [] => Some d
  | e :: r => match register_id d e with Some d' => register_all d' r | None => None end
  end.

(** A document with its identifiers prefixed. *)
Definition deconflict_all {A} (n : Z) (l : list (option string * A)) : list (option string * A) :=
  map (fun e => (deconflict n (fst e), snd e)) l.
