(** The text of positions and sizes: reading it, writing it, comparing it, and
    the conversion of cells to percentages for EBU-TT-D regions.

    Sources: ebu_tt_live/bindings/_ebuttdt.py 143-220 and 439-685;
    ebu_tt_live/xsd/ebutt_datatypes.xsd 13-131;
    ebu_tt_live/bindings/converters/ebutt3_ebuttd.py 178-192.

    Simplifications: text is ASCII (the schema also lets digits of other scripts
    through), white space has been collapsed as xs:token asks, so that the white
    space inside is one blank; doubles are as in TimeModel, not subnormal and
    not infinite. *)

From Coq Require Import List ZArith String Ascii Bool.
From Verif Require Import Digits TimeModel.
Import ListNotations.
Open Scope Z_scope.

(** ** The types *)

Inductive measure := Pixels | Cells | Percent.
Inductive shape := Origin | Extent | FontSize | LineHeight.

(** _ebuttdt.py 439-492 (Origin, Extent), 523-638 (FontSize), 640-646
    (Resolution), 649-685 (LineHeight). *)
Inductive stype := Sized (sh : shape) (m : measure) | Resolution.

Definition unit_of (m : measure) : string :=
  match m with Pixels => "px" | Cells => "c" | Percent => "%" end.

(** ** Reading *)

(** What remains after a given text. *)
Fixpoint after (p s : string) : option string :=
  match p, s with
  | EmptyString, _ => Some s
  | String a p', String b s' => if Ascii.eqb a b then after p' s' else None
  | String _ _, EmptyString => None
  end.

(** [+-]? for origins, [+]? for extents and font sizes, nothing for line
    heights; it is outside the groups of the expressions. *)
Definition drop_sign (sh : shape) (s : string) : string :=
  match s with
  | String c r =>
      match sh with
      | Origin => if Ascii.eqb c "+" || Ascii.eqb c "-" then r else s
      | Extent | FontSize => if Ascii.eqb c "+" then r else s
      | LineHeight => s
      end
  | EmptyString => s
  end.

(** \d*\.?\d+ : digits before and after the point, and the rest. *)
Definition number (s : string) : option (string * string * string) :=
  let '(d, r) := span s in
  let whole := match d with EmptyString => None | _ => Some (d, EmptyString, r) end in
  match r with
  | String c r' =>
      if Ascii.eqb c "." then
        let '(f, q) := span r' in
        match f with EmptyString => whole | _ => Some (d, f, q) end
      else whole
  | EmptyString => whole
  end.

Definition quantity (sh : shape) (m : measure) (s : string) : option (string * string * string) :=
  match number (drop_sign sh s) with
  | Some (d, f, r) => match after (unit_of m) r with Some r' => Some (d, f, r') | None => None end
  | None => None
  end.

(** [0]*[1-9][0-9]* *)
Definition positive (s : string) : option (string * string) :=
  let '(d, r) := span s in
  match read d with
  | Some v => if 0 <? v then Some (d, r) else None
  | None => None
  end.

(** The expressions _groups_regex of the types, tried at the beginning of the
    text (re.match): the first number, the second if there is one, and the part
    of the text that was not looked at. *)
Definition groups (t : stype) (s : string) : option ((string * string) * option (string * string) * string) :=
  match t with
  | Resolution =>
      match positive s with
      | Some (d, r) =>
          match after " " r with
          | Some r' => match positive r' with
                       | Some (d', r'') => Some ((d, EmptyString), Some (d', EmptyString), r'')
                       | None => None
                       end
          | None => None
          end
      | None => None
      end
  | Sized sh m =>
      match quantity sh m s with
      | None => None
      | Some (d, f, r) =>
          let second :=
            match after " " r with
            | Some r' => quantity sh m r'
            | None => None
            end in
          match sh with
          | LineHeight => Some ((d, f), None, r)
          | FontSize => match second with
                        | Some (d', f', r') => Some ((d, f), Some (d', f'), r')
                        | None => Some ((d, f), None, r)
                        end
          | Origin | Extent => match second with
                               | Some (d', f', r') => Some ((d, f), Some (d', f'), r')
                               | None => None
                               end
          end
      end
  end.

(** The patterns of the schema are the same expressions, for the whole text. *)
Definition valid (t : stype) (s : string) : bool :=
  match groups t s with Some (_, _, EmptyString) => true | _ => false end.

Notation dbl := (Z * Z)%type.

(** _ebuttdt.py 156-165, as_tuple, with horizontal and vertical of 181-196.
    None is the AttributeError of a text the expression does not match. *)
Definition sizes (t : stype) (s : string) : option (option dbl * dbl) :=
  match groups t s with
  | Some ((d, f), None, _) => Some (None, float_of d f)
  | Some ((d, f), Some (d', f'), _) => Some (Some (float_of d f), float_of d' f')
  | None => None
  end.

(** ** Writing *)

(** An int, or a float: its sign and its absolute value.  Simplification: bool
    is an int in Python and is not given here, and a long is not an int. *)
Inductive num := NInt (z : Z) | NFloat (neg : bool) (x : dbl).

(** The decimal exponent: n/d scaled so that it is at least 1 and less than 10. *)
Fixpoint scale_down (fuel : nat) (n d e : Z) : Z * Z * Z :=
  match fuel with
  | O => (n, d, e)
  | S k => if n <? 10 * d then (n, d, e) else scale_down k n (10 * d) (e + 1)
  end.

Fixpoint scale_up (fuel : nat) (n d e : Z) : Z * Z * Z :=
  match fuel with
  | O => (n, d, e)
  | S k => if d <=? n then (n, d, e) else scale_up k (10 * n) d (e - 1)
  end.

Definition scaled (n d : Z) : Z * Z * Z :=
  if d <=? n then scale_down (S (Z.to_nat (Z.log2 n))) n d 0
  else scale_up (S (Z.to_nat (Z.log2 d))) n d 0.

(** Nearest integer, ties to even. *)
Definition near_int (n d : Z) : Z :=
  let q := n / d in
  let r := n mod d in
  if (d <? 2 * r) || ((2 * r =? d) && Z.odd q) then q + 1 else q.

(** The twelve significant digits of n/d > 0 as an integer, and the exponent. *)
Definition digits12 (n d : Z) : Z * Z :=
  let '(a, b, e) := scaled n d in
  let m := near_int (a * 10 ^ 11) b in
  if m =? 10 ^ 12 then (10 ^ 11, e + 1) else (m, e).

(** A fraction of [k] digits without the zeros at its end, but with one digit at
    least. *)
Fixpoint trim (k : nat) (f : Z) : nat * Z :=
  match k with
  | S (S _ as k') => if f mod 10 =? 0 then trim k' (f / 10) else (k, f)
  | _ => (k, f)
  end.

(** str(x), which '{}' gives for a float in Python 2.7: '%.12g', with '.0' where
    there is neither point nor exponent.  Here for x >= 0. *)
Definition str12 (x : dbl) : string :=
  let '(n, d) := x in
  if n =? 0 then "0.0"
  else
    let '(m, e) := digits12 n d in
    if (-4 <=? e) && (e <? 12) then
      let k := Z.to_nat (11 - e) in
      let p := 10 ^ Z.of_nat k in
      let '(k', f') := trim (Nat.max 1 k) (match k with O => 0 | _ => m mod p end) in
      show_nat (m / p) ++ "." ++ showpad k' f'
    else
      let '(k', f') := trim 11 (m mod 10 ^ 11) in
      show_nat (m / 10 ^ 11) ++ (if f' =? 0 then "" else "." ++ showpad k' f')
      ++ "e" ++ (if e <? 0 then "-" else "+") ++ showpad 2 (Z.abs e).

Definition num_text (x : num) : string :=
  match x with
  | NInt z => show z
  | NFloat neg x => (if neg then "-" else "") ++ str12 x
  end.

(** _ebuttdt.py 167-179, from_tuple, with the formats of the types; None is the
    SimpleTypeValueError.  [xs] has one or two numbers. *)
Definition from_tuple (t : stype) (xs : list num) : option string :=
  match t, xs with
  | Resolution, [x; y] => Some (num_text x ++ " " ++ num_text y)%string
  | Sized (Origin | Extent | FontSize) m, [x; y] =>
      Some (num_text x ++ unit_of m ++ " " ++ num_text y ++ unit_of m)%string
  | Sized (FontSize | LineHeight) m, [x] => Some (num_text x ++ unit_of m)%string
  | _, _ => None
  end.

(** _ebuttdt.py 198-212: what the constructor is given is numbers and texts. *)
Inductive arg := ANum (x : num) | AText (s : string).

Fixpoint convert_args (t : stype) (pair : list num) (args : list arg) : option (list string) :=
  match args with
  | [] => match pair with
          | [] => Some []
          | _ => option_map (fun s => [s]) (from_tuple t pair)
          end
  | ANum x :: r =>
      match pair with
      | [] => convert_args t [x] r
      | y :: _ =>
          match from_tuple t [y; x] with
          | None => None
          | Some s => option_map (cons s) (convert_args t [] r)
          end
      end
  | AText s :: r => option_map (cons s) (convert_args t pair r)
  end.

(** The constructor: PyXB then makes a text of the one value it is given, of
    nothing the empty text, refuses more than one value, and checks the pattern.
    None is any of its errors. *)
Definition construct (t : stype) (args : list arg) : option string :=
  match convert_args t [] args with
  | Some [s] => if valid t s then Some s else None
  | _ => None
  end.

(** ** Comparing *)

Definition measure_eqb (a b : measure) : bool :=
  match a, b with Pixels, Pixels | Cells, Cells | Percent, Percent => true | _, _ => false end.
Definition shape_eqb (a b : shape) : bool :=
  match a, b with
  | Origin, Origin | Extent, Extent | FontSize, FontSize | LineHeight, LineHeight => true
  | _, _ => false
  end.
Definition stype_eqb (a b : stype) : bool :=
  match a, b with
  | Resolution, Resolution => true
  | Sized s m, Sized s' m' => shape_eqb s s' && measure_eqb m m'
  | _, _ => false
  end.

Definition feq (x y : dbl) : bool := fst x * snd y =? fst y * snd x.
Definition feq_opt (x y : option dbl) : bool :=
  match x, y with
  | None, None => true
  | Some a, Some b => feq a b
  | _, _ => false
  end.

(** _ebuttdt.py 214-220 and, for font sizes in cells, 566-585.  All of these
    types are texts, so values of different types are compared as texts. *)
Definition size_eq (t : stype) (s : string) (t' : stype) (s' : string) : bool :=
  match t, stype_eqb t t', sizes t s, sizes t' s' with
  | Sized FontSize Cells, true, Some (h, v), Some (h', v') =>
      match h, h' with
      | None, None => feq v v'
      | None, Some y => feq v v' && feq v y
      | Some x, None => feq v v' && feq x v'
      | Some x, Some y => feq v v' && feq x y
      end
  | _, true, Some (h, v), Some (h', v') => feq_opt h h' && feq v v' || String.eqb s s'
  | _, _, _, _ => String.eqb s s'
  end.

(** ** Regions of EBU-TT-D *)

Definition fdiv (x y : dbl) : dbl := rnd (fst x * snd y) (snd x * fst y).
Definition fmul100 (x : dbl) : dbl := rnd (fst x * 100) (snd x).

(** _ebuttdt.py 143-147; [res] is the cell resolution. *)
Definition cells_to_percent (h v : dbl) (res : dbl * dbl) : string :=
  str12 (fmul100 (fdiv h (fst res))) ++ "% " ++ str12 (fmul100 (fdiv v (snd res))) ++ "%".

(** ebutt3_ebuttd.py 179-191: origin or extent of a region; the region made of
    it checks it against the schema again.  None is an error. *)
Definition convert_region (sh : shape) (m : measure) (s res : string) : option string :=
  match m with
  | Cells =>
      match sizes (Sized sh Cells) s, sizes Resolution res with
      | Some (Some h, v), Some (Some rh, rv) =>
          let r := cells_to_percent h v (rh, rv) in
          if valid (Sized sh Percent) r then Some r else None
      | _, _ => None
      end
  | _ => Some s
  end.
