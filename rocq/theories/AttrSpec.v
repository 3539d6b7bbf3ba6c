(** What holds for a text: the nearest value of each of xml:space, xml:lang,
    ttm:agent and ttm:role, of the elements it stands in. *)

From Coq Require Import List String Bool Arith.
From Verif Require Import AttrModel.
Import ListNotations.
Open Scope string_scope.

Definition nearer (inner outer : option string) : option string :=
  match inner with Some v => Some v | None => outer end.
Definition below (c a : attrs) : attrs :=
  mkAttrs (nearer (a_space a) (a_space c)) (nearer (a_lang a) (a_lang c))
          (nearer (a_agent a) (a_agent c)) (nearer (a_role a) (a_role c)).
Definition none : attrs := mkAttrs None None None None.

(** A text, or a line break, the elements around it, and what holds for it. *)
Record fact := mkFact { f_in : list nat; f_text : option string; f_said : attrs }.

Fixpoint facts_in (path : list nat) (c : attrs) (n : node) : list fact :=
  match n with
  | Text s => [mkFact path (Some s) c]
  | Br _ => [mkFact path None c]
  | El i _ a kids => flat_map (facts_in (i :: path) (below c a)) kids
  end.
Definition root (d : doc) : attrs := mkAttrs (d_space d) (Some (d_lang d)) (b_agent d) (b_role d).
Definition facts (d : doc) : list fact := flat_map (facts_in [] (root d)) (b_kids d).

(** What the elements inside the body say, whatever tt and body do. *)
Definition inside (d : doc) : list fact := flat_map (facts_in [] none) (b_kids d).

(** In a segment if all elements around it are. *)
Definition kept (keep : nat -> bool) (f : fact) : bool := forallb keep (f_in f).

(** The language, the agent and the role. *)
Definition besides_space (f : fact) : list nat * option string * list (option string) :=
  (f_in f, f_text f, [a_lang (f_said f); a_agent (f_said f); a_role (f_said f)]).

(** Whether two roots say the same for a text that has this said nearer to it. *)
Definition agree1 (near x y : option string) : Prop := near <> None \/ x = y.
Definition agree (x y : attrs) (f : fact) : Prop :=
  agree1 (a_space (f_said f)) (a_space x) (a_space y) /\
  agree1 (a_lang (f_said f)) (a_lang x) (a_lang y) /\
  agree1 (a_agent (f_said f)) (a_agent x) (a_agent y) /\
  agree1 (a_role (f_said f)) (a_role x) (a_role y).

(** A root without xml:space. *)
Definition unspaced (a : attrs) : attrs := mkAttrs None (a_lang a) (a_agent a) (a_role a).

(** The schema: a div has neither xml:space nor xml:lang, in a body are divs only. *)
Fixpoint legal_node (n : node) : bool :=
  match n with
  | El _ k a kids =>
      match k with
      | Div => match a_space a, a_lang a with None, None => true | _, _ => false end
      | _ => true
      end && forallb legal_node kids
  | _ => true
  end.
Definition legal (d : doc) : bool := forallb is_div (b_kids d) && forallb legal_node (b_kids d).

(** The document without the roles of its divs. *)
Fixpoint unroled (n : node) : node :=
  match n with
  | El i Div a kids => El i Div (mkAttrs (a_space a) (a_lang a) (a_agent a) None) (map unroled kids)
  | El i k a kids => El i k a (map unroled kids)
  | _ => n
  end.
Definition unroled_doc (d : doc) : doc :=
  mkDoc (d_space d) (d_lang d) (d_agents d) (b_agent d) (b_role d) (map unroled (b_kids d)).
Fixpoint div_roles (n : node) : bool :=
  match n with
  | El _ k a kids =>
      match k, a_role a with Div, Some _ => true | _, _ => false end || existsb div_roles kids
  | _ => false
  end.

(** The roles of line breaks. *)
Fixpoint br_roles (n : node) : list (option string) :=
  match n with
  | Br r => [r]
  | El _ _ _ kids => flat_map br_roles kids
  | _ => []
  end.

(** The agent named for a text is declared. *)
Definition known (d : doc) (f : fact) : Prop :=
  match a_agent (f_said f) with None => True | Some a => In a (d_agents d) end.
