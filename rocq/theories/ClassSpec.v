(** What is meant by ancestors, by abstract, declared and registered classes. *)

From Coq Require Import List Arith String Bool.
From Verif Require Import ClassModel.
Import ListNotations.
Open Scope string_scope.

(** The class itself, the classes it derives from, those they derive from... *)
Inductive Ancestor (w : world) : nat -> nat -> Prop :=
| anc_self i k : get w i = Some k -> Ancestor w i i
| anc_base i k b j : get w i = Some k -> In b (k_bases k) -> Ancestor w b j -> Ancestor w i j.

(** The items of the first list are in the second, in the same order. *)
Inductive Sub {A} : list A -> list A -> Prop :=
| sub_nil l : Sub [] l
| sub_skip x l m : Sub l m -> Sub l (x :: m)
| sub_take x l m : Sub l m -> Sub (x :: l) (x :: m).

(** Nothing is marked abstract in a class that is not made by the metaclass
    (nobody would collect it). *)
Definition unmarked_plain (w : world) : Prop :=
  forall i k n, get w i = Some k -> k_meta k = false -> own w i n <> Some VAbstract.

(** A class made by the metaclass whose body asks its heirs for a member. *)
Definition Asks (w : world) (b : nat) (n : name) (f : validator) : Prop :=
  exists k, get w b = Some k /\ k_meta k = true /\ own w b n = Some (VStatic f).

(** A member that has been given a value. *)
Definition given (v : value) : Prop :=
  v <> VNotImplemented /\ forall f, v <> VStatic f.

(** The new class is [i] in [w] before anything has been checked. *)
Definition drafted (st : state) (s : statement) (w : world) : Prop :=
  exists bs order,
    get_all (classes st) (s_bases s) = Some bs /\
    no_twice (s_bases s) = true /\
    linearise (map k_mro bs) (s_bases s) = Some order /\
    (s_metaclass s || existsb k_meta bs) = true /\
    w = (classes st ++ [Some (draft s order (List.length (classes st)) true)])%list.

Definition hooked (w : world) (b : nat) : Prop :=
  exists k, get w b = Some k /\ k_meta k = true /\ k_hook k = true.

(** A registered class has the same expectation and something equal, but
    nothing the same, to offer. *)
Definition Clash (reg : list (value * value * nat)) (ex pr : value) : Prop :=
  (exists pr' j, In (ex, pr', j) reg /\ py_eq pr pr' = true) /\
  (forall j, ~ In (ex, pr, j) reg).

(** What can be wrong with a class of which nothing is abstract any more. *)
Inductive Wrong (st : state) (s : statement) (w : world) : Prop :=
| wrong_own n f : body_get (s_body s) n = Some (VStatic f) -> Wrong st s w
| wrong_missing b n f o : In b (s_bases s) -> Asks w b n f ->
    attr w (List.length (classes st)) n = Some o -> ~ given o -> Wrong st s w
| wrong_value pre b post n f v : s_bases s = (pre ++ b :: post)%list -> Asks w b n f ->
    (forall b' f', In b' pre -> ~ Asks w b' n f') ->
    attr w (List.length (classes st)) n = Some v -> given v -> validate f v = false -> Wrong st s w
| wrong_nothing b n : In b (s_bases s) -> hooked w b -> n = "_expects" \/ n = "_provides" ->
    (forall v, attr w (List.length (classes st)) n = Some v -> exists f, v = VStatic f) -> Wrong st s w
| wrong_clash b ex pr : In b (s_bases s) -> hooked w b ->
    attr w (List.length (classes st)) "_expects" = Some ex ->
    attr w (List.length (classes st)) "_provides" = Some pr ->
    Clash (registry st) ex pr -> Wrong st s w.

(** An adapter between two types of data: a class of which nothing is abstract,
    directly derived from a class that registers its heirs. *)
Definition Adapter (w : world) (i : nat) (ex pr : value) : Prop :=
  exists k b,
    get w i = Some k /\ k_meta k = true /\ k_abstracts k = [] /\
    In b (k_bases k) /\ hooked w b /\
    attr w i "_expects" = Some ex /\ attr w i "_provides" = Some pr.

Definition item_any_free (i : item) : bool := match i with IAny => false | _ => true end.
Definition any_free (v : value) : bool :=
  match v with VItem i => item_any_free i | VTuple l => forallb item_any_free l | _ => true end.

(** Every class that registers is also accepted, and what it provides is not
    ANY. *)
Definition calm_step (st : state) (s : statement) : Prop :=
  registry (fst (define st s)) <> registry st ->
  snd (define st s) = None /\
  forall ex pr i, In (ex, pr, i) (registry (fst (define st s))) ->
                  In (ex, pr, i) (registry st) \/ any_free pr = true.
Definition calm (es : list event) : Prop :=
  forall pre s post, es = (pre ++ Define s :: post)%list -> calm_step (run pre) s.
