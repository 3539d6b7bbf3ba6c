(** For C74. *)

From Coq Require Import List Arith String Ascii Bool.
From Verif Require Import IdentModel.
Import ListNotations.
Open Scope string_scope.

Definition outside (t : text) : Prop := exists c, In c t /\ 128 <= c.

(** What a template gives in which every unicode is in ASCII. *)
Definition chars (v : value) : text := match v with Uni t => t | Str t => t end.
Definition fits (v : value) : Prop := match v with Uni t => ~ outside t | Str _ => True end.
Fixpoint free (c : ascii) (s : string) : Prop := match s with EmptyString => True | String x r => x <> c /\ free c r end.

Inductive renders (args : list (string * value)) : string -> text -> Prop :=
| R_end : renders args "" []
| R_lit c r t : c <> "{"%char -> c <> "}"%char -> renders args r t -> renders args (String c r) (nat_of_ascii c :: t)
| R_field n r v t : free "}" n -> lookup n args = Some v -> fits v -> renders args r t ->
    renders args ("{" ++ n ++ "}" ++ r) (chars v ++ t)%list.

(** The mismatch of two groups. *)
Definition mismatch (known : option text) (d : idoc) (g k : text) : Prop :=
  i_group d = Some g /\ g <> [] /\ known = Some k /\ g <> k.

(** The first field that fails is a unicode outside ASCII. *)
Definition spoils (args : list (string * value)) (s : string) : Prop :=
  exists a n r t v, s = a ++ "{" ++ n ++ "}" ++ r /\ renders args a t /\ free "}" n /\ lookup n args = Some v /\ ~ fits v.

(** What a consumer of the sequence [f] makes of a document. *)
Inductive judged (f : text) (d : idoc) : reaction -> Prop :=
| J_kept : i_id d = f -> ~ outside f -> judged f d Kept
| J_other : i_id d <> f -> ~ outside f -> ~ outside (i_id d) -> judged f d (Raised UnexpectedSequenceIdentifier)
| J_outside : outside f \/ outside (i_id d) -> judged f d (Raised UnicodeEncodeError).
