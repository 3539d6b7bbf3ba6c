(** What sizes are: how they may be written and what a text stands for. *)

From Coq Require Import List ZArith String Ascii Bool.
From Verif Require Import Digits TimeModel SizeModel.
Import ListNotations.
Open Scope Z_scope.
Open Scope string_scope.

(** A decimal: digits before and after the point, not both empty; without digits
    after it there is no point. *)
Definition is_decimal (d f : string) : Prop :=
  all_digits d = true /\ all_digits f = true /\ (d <> "" \/ f <> "").
Definition plain (d f : string) : string :=
  d ++ match f with EmptyString => "" | _ => "." ++ f end.

(** Its value, as numerator and denominator. *)
Definition value (d f : string) : Z * Z :=
  (match horner 0 (d ++ f) with Some v => v | None => 0 end, 10 ^ Z.of_nat (String.length f)).

(** Only origins may be negative, and line heights have no sign at all. *)
Definition sign_ok (sh : shape) (sg : string) : Prop :=
  sg = "" \/ (sg = "+" /\ sh <> LineHeight) \/ (sg = "-" /\ sh = Origin).

Definition spelled (sh : shape) (m : measure) (s d f : string) : Prop :=
  exists sg, sign_ok sh sg /\ is_decimal d f /\ s = sg ++ plain d f ++ unit_of m.

(** The legal texts of a type, with the decimals in them. *)
Inductive legal : stype -> string -> string * string -> option (string * string) -> Prop :=
| legal_one sh m s d f :
    sh = FontSize \/ sh = LineHeight -> spelled sh m s d f ->
    legal (Sized sh m) s (d, f) None
| legal_two sh m s s' d f d' f' :
    sh <> LineHeight -> spelled sh m s d f -> spelled sh m s' d' f' ->
    legal (Sized sh m) (s ++ " " ++ s') (d, f) (Some (d', f'))
| legal_resolution d d' v v' :
    read d = Some v -> 0 < v -> read d' = Some v' -> 0 < v' ->
    legal Resolution (d ++ " " ++ d') (d, "") (Some (d', "")).

(** The double [x] stands for the number n/d up to one part in 2^53. *)
Definition close (x : dbl) (n d : Z) : Prop :=
  0 <= fst x /\ 0 < snd x /\ Z.abs (fst x * d - n * snd x) * 2 ^ 53 <= n * snd x.

(** A positive double that twelve digits without an exponent can show: rounded
    to twelve digits it is at least 0.0001 and less than 10^12. *)
Definition showable (x : dbl) : Prop :=
  fst x = 0 \/ (2 * 10 ^ 12 - 1) * snd x <= 2 * 10 ^ 16 * fst x
               /\ 2 * fst x < (2 * 10 ^ 12 - 1) * snd x.

(** A number that may be written for a shape. *)
Definition writable (sh : shape) (x : num) : Prop :=
  match x with
  | NInt z => 0 <= z \/ sh = Origin
  | NFloat neg x => (neg = false \/ sh = Origin) /\ showable x
  end.

(** What a number is, without its sign. *)
Definition magnitude (x : num) : Z * Z :=
  match x with NInt z => (Z.abs z, 1) | NFloat _ x => x end.

Definition num_wf (x : num) : Prop :=
  match x with NInt _ => True | NFloat _ x => 0 <= fst x /\ 0 < snd x end.

(** How many numbers a type takes. *)
Definition counts (t : stype) (n : nat) : Prop :=
  match t with
  | Resolution | Sized (Origin | Extent) _ => n = 2%nat
  | Sized FontSize _ => n = 1%nat \/ n = 2%nat
  | Sized LineHeight _ => n = 1%nat
  end.

(** Numbers that make a legal text of a type. *)
Definition good (t : stype) (xs : list num) : Prop :=
  counts t (List.length xs) /\
  match t with
  | Resolution => Forall (fun x => exists z, x = NInt z /\ 0 < z) xs
  | Sized sh _ => Forall (writable sh) xs
  end.

(** The double [y] is the double [x] up to 6 parts in 10^12. *)
Definition nearly (y x : dbl) : Prop :=
  0 <= fst y /\ 0 < snd y /\
  Z.abs (fst y * snd x - fst x * snd y) * 10 ^ 12 <= 6 * fst x * snd y.

(** The doubles of a size, horizontal first. *)
Definition both (p : option dbl * dbl) : list dbl :=
  match fst p with Some h => [h; snd p] | None => [snd p] end.

(** The double nearest to a decimal number of at most twelve significant
    digits. *)
Definition twelve_digits (x : dbl) : Prop :=
  exists v i k, 0 <= v < 10 ^ 12 /\ 0 <= i /\ 0 <= k /\ x = rnd (v * 10 ^ i) (10 ^ k).

(** The share n/d of v, in percent. *)
Definition percent (q : string * string) (v : Z) : Z * Z :=
  (100 * fst (value (fst q) (snd q)), snd (value (fst q) (snd q)) * v).

(** The double [y] is the number [x] up to 7 parts in 10^12. *)
Definition roughly (y : dbl) (x : Z * Z) : Prop :=
  0 <= fst y /\ 0 < snd y /\
  Z.abs (fst y * snd x - fst x * snd y) * 10 ^ 12 <= 7 * fst x * snd y.

(** The same number. *)
Definition same (x y : dbl) : Prop := fst x * snd y = fst y * snd x.

(** Sizes of the same type are the same: a font size in cells of one number is
    as wide as high; in other units it has no width of its own. *)
Definition width (t : stype) (p : option dbl * dbl) : option dbl :=
  match t with
  | Sized FontSize Cells => match fst p with None => Some (snd p) | h => h end
  | _ => fst p
  end.
Definition same_size (t : stype) (p q : option dbl * dbl) : Prop :=
  same (snd p) (snd q) /\
  match width t p, width t q with
  | Some x, Some y => same x y
  | None, None => True
  | _, _ => False
  end.
