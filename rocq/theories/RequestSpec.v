(** For C77. *)

From Coq Require Import List Ascii String Bool Arith.
From Verif Require Import PageModel PageSpec.
Import ListNotations.
Open Scope string_scope.

(** What an input of one line holds that XML has: no control characters but tabs. *)
Definition line (s : string) : Prop := forall c, In c (list_ascii_of_string s) -> c = "009"%char \/ 32 <= nat_of_ascii c.
Definition no_tab (s : string) : Prop := ~ In "009"%char (list_ascii_of_string s).
Definition no_quote (s : string) : Prop := ~ In """"%char (list_ascii_of_string s).
