(** Classes of components: what is checked when they are defined.

    Source: ebu_tt_live/utils.py 255-359 (AbstractStaticMember, the validators,
    ANY and AutoRegisteringABCMeta), adapters/base.py 12-83 (the registry of
    adapters and the accessors expects and provides), node/interface.py 8-91,
    carriage/interface.py 8-111, and for connecting node/base.py 44-61 and
    115-132, carriage/base.py 25-41 and 55-71.

    Python 2: what abc.ABCMeta collects, how attributes are looked up and in
    which order the ancestors of a class are (type.mro, the C3 linearisation)
    is modelled as the Python 2.7 reference describes it. *)

From Coq Require Import List Arith String Bool.
Import ListNotations.
Open Scope string_scope.

(** ** Values in the body of a class *)

(** What can stand for a type of data, alone or in a tuple: a type or class,
    ANY (utils.py 278-290), or anything else. *)
Inductive item : Type := IType (n : nat) | IAny | IThing (n : nat).

(** utils.py 255-275: the two functions an AbstractStaticMember can have. *)
Inductive validator : Type := Defined | TypesOnly.

(** [VStatic] is an AbstractStaticMember (293-309), [VAbstract] what
    abstractmethod or abstractproperty has marked, [VItem (IThing n)] any other
    method, property or object.  Simplification: things can be hashed and are
    equal only to themselves, and marked methods are not told apart. *)
Inductive value : Type :=
| VStatic (v : validator)
| VAbstract
| VNone
| VNotImplemented
| VItem (i : item)
| VTuple (l : list item).

Notation name := string.

(** Being the same object, or for tuples having the same items: what the keys
    of a dictionary go by (simplification: no two keys have the same hash by
    accident). *)
Definition item_same (a b : item) : bool :=
  match a, b with
  | IType n, IType m | IThing n, IThing m => Nat.eqb n m
  | IAny, IAny => true
  | _, _ => false
  end.

Fixpoint both (f : item -> item -> bool) (l m : list item) : bool :=
  match l, m with
  | [], [] => true
  | a :: l, b :: m => f a b && both f l m
  | _, _ => false
  end.

Definition validator_same (a b : validator) : bool :=
  match a, b with Defined, Defined | TypesOnly, TypesOnly => true | _, _ => false end.

Definition same (a b : value) : bool :=
  match a, b with
  | VStatic v, VStatic w => validator_same v w
  | VAbstract, VAbstract | VNone, VNone | VNotImplemented, VNotImplemented => true
  | VItem i, VItem j => item_same i j
  | VTuple l, VTuple m => both item_same l m
  | _, _ => false
  end.

(** The operator ==, with ANY equal to everything from both sides (utils.py
    281-285). *)
Definition item_eq (a b : item) : bool :=
  match a, b with
  | IAny, _ | _, IAny => true
  | _, _ => item_same a b
  end.

Definition py_eq (a b : value) : bool :=
  match a, b with
  | VItem IAny, _ | _, VItem IAny => true
  | VItem i, VItem j => item_eq i j
  | VTuple l, VTuple m => both item_eq l m
  | _, _ => same a b
  end.

(** utils.py 255-275.  The first asks [value in (None, NotImplemented)], which
    goes by ==. *)
Definition is_type (i : item) : bool :=
  match i with IType _ | IAny => true | IThing _ => false end.

Definition validate (f : validator) (v : value) : bool :=
  match f with
  | Defined => negb (py_eq v VNone || py_eq v VNotImplemented)
  | TypesOnly => match v with
                 | VItem i => is_type i
                 | VTuple l => forallb is_type l
                 | _ => false
                 end
  end.

(** ** Classes *)

(** A class is known by its number, the position of its class statement.
    [k_mro] is type.mro without object.  [k_meta]: the class is an instance of
    AutoRegisteringABCMeta; for such a class [k_abstracts] is
    __abstractmethods__, [k_statics] is _abc_static_members, [k_interface] is
    _abc_interface, and [k_hook] says that auto_register_impl is the method of
    adapters/base.py 22-44 and not the one that does nothing (utils.py
    349-350). *)
Record class : Type := mkClass {
  k_body : list (name * value);
  k_bases : list nat;
  k_mro : list nat;
  k_meta : bool;
  k_abstracts : list name;
  k_statics : list name;
  k_interface : bool;
  k_hook : bool }.

(** A class statement: the classes it derives from (without object), whether
    its body sets __metaclass__ to AutoRegisteringABCMeta, whether its body has
    the registering auto_register_impl, and the rest of its body.
    Simplification: expects and provides are the inherited class methods, in
    every class. *)
Record statement : Type := mkStatement {
  s_bases : list nat;
  s_metaclass : bool;
  s_hook : bool;
  s_body : list (name * value) }.

(** The classes defined so far (None: the statement raised an error and there
    is no such class), and the registry __impl_registry of adapters/base.py 18:
    what is expected, what is provided, and the class. *)
Notation world := (list (option class)).
Record state : Type := mkState {
  classes : world;
  registry : list (value * value * nat) }.
Definition start : state := mkState [] [].

Inductive error : Type := ENoSuchClass | EType | EKey | EAttribute.

Definition mem (n : name) (l : list name) : bool := existsb (String.eqb n) l.
Definition nmem (n : nat) (l : list nat) : bool := existsb (Nat.eqb n) l.

Fixpoint body_get (b : list (name * value)) (n : name) : option value :=
  match b with
  | [] => None
  | (m, v) :: r => if n =? m then Some v else body_get r n
  end.

Definition get (w : world) (i : nat) : option class :=
  match nth_error w i with Some (Some k) => Some k | _ => None end.

(** What the body of one class says of a name. *)
Definition own (w : world) (i : nat) (n : name) : option value :=
  match get w i with Some k => body_get (k_body k) n | None => None end.

(** Looking an attribute up: the first class of the order that has it. *)
Fixpoint seen (w : world) (order : list nat) (n : name) : option value :=
  match order with
  | [] => None
  | i :: r => match own w i n with Some v => Some v | None => seen w r n end
  end.

Definition attr (w : world) (i : nat) (n : name) : option value :=
  match get w i with Some k => seen w (k_mro k) n | None => None end.

(** ** The order of the ancestors (C3) *)

Definition in_tail (h : nat) (l : list nat) : bool :=
  match l with [] => false | _ :: t => nmem h t end.

Fixpoint pick (heads all : list (list nat)) : option nat :=
  match heads with
  | [] => None
  | [] :: r => pick r all
  | (h :: _) :: r => if existsb (in_tail h) all then pick r all else Some h
  end.

Definition drop (h : nat) (l : list nat) : list nat :=
  match l with x :: t => if Nat.eqb x h then t else l | [] => [] end.

Definition is_nil {A} (l : list A) : bool := match l with [] => true | _ => false end.

Fixpoint merge (fuel : nat) (ls : list (list nat)) : option (list nat) :=
  match fuel with
  | 0 => None
  | S f =>
      if forallb is_nil ls then Some []
      else match pick ls ls with
           | None => None
           | Some h => option_map (cons h) (merge f (map (drop h) ls))
           end
  end.

Definition linearise (mros : list (list nat)) (bases : list nat) : option (list nat) :=
  let ls := (mros ++ [bases])%list in
  merge (S (List.length (List.concat ls))) ls.

Fixpoint no_twice (l : list nat) : bool :=
  match l with [] => true | x :: r => negb (nmem x r) && no_twice r end.

Fixpoint get_all (w : world) (l : list nat) : option (list class) :=
  match l with
  | [] => Some []
  | i :: r => match get w i, get_all w r with
              | Some k, Some ks => Some (k :: ks)
              | _, _ => None
              end
  end.

(** ** What abc.ABCMeta collects *)

Definition is_abstract (o : option value) : bool :=
  match o with Some VAbstract => true | _ => false end.
Definition is_static (o : option value) : bool :=
  match o with Some (VStatic _) => true | _ => false end.

Definition marked (b : list (name * value)) : list name :=
  filter (fun n => is_abstract (body_get b n)) (map fst b).

(** utils.py 321-323 *)
Definition statics (b : list (name * value)) : list name :=
  filter (fun n => is_static (body_get b n)) (map fst b).

(** The marked names of the body, and those of the direct bases that the class
    itself still sees marked. *)
Definition abstracts (w : world) (i : nat) (body : list (name * value)) (bases : list class) : list name :=
  (marked body ++
   flat_map (fun b => filter (fun n => is_abstract (attr w i n)) (k_abstracts b)) bases)%list.

(** ** Registration, adapters/base.py 22-44

    expects and provides raise a TypeError for a member that is still an
    AbstractStaticMember (55-73), and an AttributeError if there is none.  The
    question [impl_provides in provides_map.keys()] goes by ==; if it is
    answered yes the warning looks the key up in the dictionary, which is a
    KeyError if the key is only equal. *)
Definition accessor (w : world) (i : nat) (n : name) : value + error :=
  match attr w i n with
  | None => inr EAttribute
  | Some (VStatic _) => inr EType
  | Some v => inl v
  end.

Definition register (reg : list (value * value * nat)) (w : world) (i : nat)
  : list (value * value * nat) * option error :=
  match accessor w i "_expects" with
  | inr e => (reg, Some e)
  | inl ex =>
      match accessor w i "_provides" with
      | inr e => (reg, Some e)
      | inl pr =>
          let there := filter (fun x => same ex (fst (fst x))) reg in
          if existsb (fun x => py_eq pr (snd (fst x))) there then
            if existsb (fun x => same pr (snd (fst x))) there then (reg, None) else (reg, Some EKey)
          else ((reg ++ [(ex, pr, i)])%list, None)
      end
  end.

(** 46-53; None is the ValueError. *)
Definition get_registered_impl (reg : list (value * value * nat)) (ex pr : value) : option nat :=
  match find (fun x => same ex (fst (fst x)) && same pr (snd (fst x))) reg with
  | Some x => Some (snd x)
  | None => None
  end.

(** ** AutoRegisteringABCMeta.__new__, utils.py 319-353 *)

(** 332-340: the static members of one base; what is carried on is the
    validated and the missing members, None is the TypeError of a validator. *)
Fixpoint check_members (w : world) (i b : nat) (ms : list name) (vs miss : list name)
  : option (list name * list name) :=
  match ms with
  | [] => Some (vs, miss)
  | m :: r =>
      if mem m vs then check_members w i b r vs miss
      else match attr w i m with
           | None | Some VNotImplemented | Some (VStatic _) => check_members w i b r vs (m :: miss)
           | Some v =>
               match attr w b m with
               | Some (VStatic f) =>
                   if validate f v then check_members w i b r (m :: vs) miss else None
               | _ => None
               end
           end
  end.

(** 330-342: the bases in turn; a base is asked to register the class after its
    own members have been looked at. *)
Fixpoint check_bases (w : world) (i : nat) (bases : list nat) (reg : list (value * value * nat))
  (vs miss : list name) : list (value * value * nat) * (list name + error) :=
  match bases with
  | [] => (reg, inl miss)
  | b :: r =>
      match get w b with
      | Some k =>
          if k_meta k then
            match check_members w i b (k_statics k) vs miss with
            | None => (reg, inr EType)
            | Some (vs', miss') =>
                if k_hook k then
                  match register reg w i with
                  | (reg', None) => check_bases w i r reg' vs' miss'
                  | (reg', Some e) => (reg', inr e)
                  end
                else check_bases w i r reg vs' miss'
            end
          else check_bases w i r reg vs miss
      | None => (reg, inr ENoSuchClass)
      end
  end.

(** The class as it is looked at while it is being made (320), and as it is
    left (349-352). *)
Definition draft (s : statement) (order : list nat) (i : nat) (meta : bool) : class :=
  mkClass (s_body s) (s_bases s) (i :: order) meta [] [] (s_metaclass s) (s_hook s).

Definition finish (k : class) (abs sts : list name) : class :=
  mkClass (k_body k) (k_bases k) (k_mro k) (k_meta k) abs sts (k_interface k) (k_hook k).

(** A class statement.  Bases given twice or without an order are a TypeError.
    A class is an instance of the metaclass if its body says so or one of its
    bases is one; other classes are made by type, unchecked.  utils.py
    319-353. *)
Definition define (st : state) (s : statement) : state * option error :=
  let i := List.length (classes st) in
  let refuse reg e := (mkState (classes st ++ [None])%list reg, Some e) in
  let accept reg k := (mkState (classes st ++ [Some k])%list reg, None) in
  match get_all (classes st) (s_bases s) with
  | None => refuse (registry st) ENoSuchClass
  | Some bs =>
      if negb (no_twice (s_bases s)) then refuse (registry st) EType
      else match linearise (map k_mro bs) (s_bases s) with
           | None => refuse (registry st) EType
           | Some order =>
               let meta := s_metaclass s || existsb k_meta bs in
               let k := draft s order i meta in
               let w := (classes st ++ [Some k])%list in
               if meta then
                 let abs := abstracts w i (s_body s) bs in
                 match abs with
                 | [] =>
                     match check_bases w i (s_bases s) (registry st) [] [] with
                     | (reg, inr e) => refuse reg e
                     | (reg, inl miss) =>
                         match (statics (s_body s) ++ miss)%list with
                         | [] => accept reg (finish k [] [])
                         | _ => refuse reg EType
                         end
                     end
                 | _ => accept (registry st) (finish k abs (statics (s_body s)))
                 end
               else accept (registry st) k
           end
  end.

(** The registry holds its classes weakly: a class whose statement raised an
    error is known to nobody, and goes with the next garbage collection
    (adapters/base.py 25).  Simplification: the other classes are all kept. *)
Definition collect (st : state) : state :=
  mkState (classes st)
    (filter (fun x => match get (classes st) (snd x) with Some _ => true | None => false end) (registry st)).

Inductive event : Type := Define (s : statement) | Collect.
Definition step (st : state) (e : event) : state :=
  match e with Define s => fst (define st s) | Collect => collect st end.
Definition run (es : list event) : state := fold_left step es start.

(** ** Making objects

    utils.py 355-359, and the refusal of object.__new__ to make an object of a
    class with abstract methods. *)
Definition instantiate (w : world) (i : nat) : option error :=
  match get w i with
  | None => Some ENoSuchClass
  | Some k => if k_meta k && (k_interface k || negb (is_nil (k_abstracts k))) then Some EType else None
  end.

(** ** Connecting a node and a carriage

    node/base.py 44-61 with carriage/base.py 25-41, and node/base.py 115-132
    with carriage/base.py 55-71.  [in] and [ic] are the interfaces of the two.
    The node asks the carriage and then the carriage the node.  ComponentCompatError and
    DataCompatError are the two answers that are no exception of Python. *)
Inductive answer : Type := Connected | BadComponent | BadData | Raised (e : error).

Definition is_a (w : world) (i interface : nat) : bool :=
  match get w i with Some k => nmem interface (k_mro k) | None => false end.

(** One side: the other has to be of the interface, and what [me] says under
    [mine] to equal what the other says under [theirs]. *)
Definition ask (w : world) (me other interface : nat) (mine theirs : name) : answer :=
  if negb (is_a w other interface) then BadComponent
  else match accessor w me mine with
       | inr e => Raised e
       | inl a => match accessor w other theirs with
                  | inr e => Raised e
                  | inl b => if py_eq a b then Connected else BadData
                  end
       end.

Definition connect (w : world) (node carriage inode icarriage : nat) (of_node of_carriage : name) : answer :=
  match ask w node carriage icarriage of_node of_carriage with
  | Connected => ask w carriage node inode of_carriage of_node
  | a => a
  end.

Definition connect_producer (w : world) (node carriage iproducer_node iproducer_carriage : nat) : answer :=
  connect w node carriage iproducer_node iproducer_carriage "_provides" "_expects".
Definition connect_consumer (w : world) (node carriage iconsumer_node iconsumer_carriage : nat) : answer :=
  connect w node carriage iconsumer_node iconsumer_carriage "_expects" "_provides".
