(** What addresses of proxies are: texts ADDR:PORT, with a protocol before them
    or not. *)

From Coq Require Import List ZArith String Ascii Bool.
From Verif Require Import Digits ProxyModel.
Import ListNotations.
Open Scope string_scope.

(** No character of [s] is [c]. *)
Definition free (c : ascii) (s : string) : Prop := ~ In c (list_ascii_of_string s).

(** Nothing, or the newline a line of a file ends with. *)
Definition ending (e : string) : Prop := e = "" \/ e = String newline "".

(** Digits, at least one. *)
Definition numeral (d : string) : Prop := d <> "" /\ all_digits d = true.

(** [s] is the address of port [d] of [h]. *)
Inductive address (s h d : string) : Prop :=
| Bare (e : string) :
    s = h ++ ":" ++ d ++ e -> h <> "" -> free colon h -> numeral d -> ending e -> address s h d
| Protocol (p e : string) :
    s = p ++ "://" ++ h ++ ":" ++ d ++ e -> p <> "" -> free newline p ->
    h <> "" -> free colon h -> numeral d -> ending e -> address s h d.

(** How many there are of a character. *)
Fixpoint count (c : ascii) (s : string) : nat :=
  match s with "" => 0 | String a r => (if Ascii.eqb a c then 1 else 0) + count c r end.

(** An int() that reads numerals as Python's does; of other texts nothing is
    said. *)
Definition reads_numerals (int : string -> option Z) : Prop :=
  forall d, numeral d -> int d = read d.
