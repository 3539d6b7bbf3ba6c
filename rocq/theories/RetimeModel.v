(** The retiming delay node: what it does to the times of a document.

    Source: ebu_tt_live/node/delay.py 63-67, 101-228.

    The document tree is that of TimingModel with one bit more: the code asks
    elements whether they are leaves (is_timed_leaf, bindings/__init__.py
    733-737 and 800-804, validation/timing.py 288-289), and the answer depends
    on the class.  [to_elem] forgets that bit. *)

From Coq Require Import List ZArith String Bool.
From Verif Require Import TimeModel TimingModel.
Import ListNotations.
Open Scope Z_scope.

(** div ([KBlock]), p and span ([KInline]). *)
Inductive kind : Type := KBlock | KInline.

Inductive node : Type :=
| NTimed (k : kind) (n_begin n_end : option tattr) (n_kids : list node)
| NOther.

(** The body; b_dur as in TimingModel. *)
Record nbody : Type := mkNBody {
  nb_begin : option tattr;
  nb_end : option tattr;
  nb_dur : option tattr;
  nb_kids : list node }.

Fixpoint to_elem (n : node) : elem :=
  match n with
  | NTimed _ b e ks => Timed b e (map to_elem ks)
  | NOther => Other
  end.

Definition to_body (x : nbody) : body :=
  mkBody (nb_begin x) (nb_end x) (nb_dur x) (map to_elem (nb_kids x)).

(** bindings/__init__.py 733-737, 800-804: a p or span without span children;
    timing.py 288-289: everything else is no leaf. *)
Definition is_inline (n : node) : bool :=
  match n with NTimed KInline _ _ _ => true | _ => false end.

Definition is_timed_leaf (k : kind) (ks : list node) : bool :=
  match k with
  | KInline => negb (existsb is_inline ks)
  | KBlock => false
  end.

(** ** UntimedPathFinder, delay.py 177-215 over pyxb_utils.py 94-142 *)

(** _path_found and the length of _timed_element_stack. *)
Record finder : Type := mkFinder { f_found : bool; f_stack : nat }.

Definition begin_timed (b : option tattr) : bool :=
  match b with Some _ => true | None => false end.

(** One recursive step.  StopBranchIteration ends the step (it is caught one
    level up, where the loop goes on with the next child), so it is an early
    return here. *)
Fixpoint find (n : node) (s : finder) {struct n} : finder :=
  match n with
  | NOther => s
  | NTimed k b _ ks =>
      if f_found s then s
      else
        let s1 := if begin_timed b then mkFinder false (S (f_stack s)) else s in
        if is_timed_leaf k ks && Nat.eqb (f_stack s1) 0 then mkFinder true (f_stack s1)
        else
          let s2 := fold_left (fun s k => find k s) ks s1 in
          if begin_timed b then mkFinder (f_found s2) (pred (f_stack s2)) else s2
  end.

(** has_a_leaf_with_no_timing_path, delay.py 218-228, on the body (which is
    never a leaf itself). *)
Definition has_untimed_leaf (x : nbody) : bool :=
  let s1 := if begin_timed (nb_begin x) then mkFinder false 1 else mkFinder false 0 in
  f_found (fold_left (fun s k => find k s) (nb_kids x) s1).

(** ** Writing times *)

Inductive timebase : Type := TBClock | TBMedia | TBOther.

(** What can go wrong: TimeFormatOverflowError or OverflowError (or text that
    cannot be read back), and the assertion of delay.py 135. *)
Inductive rerr : Type := RFormat | RAssert.
Inductive rres (A : Type) : Type := ROk (a : A) | RErr (e : rerr).
Arguments ROk {A} a.
Arguments RErr {A} e.

Definition rbind {A B} (r : rres A) (f : A -> rres B) : rres B :=
  match r with ROk a => f a | RErr e => RErr e end.

(** LimitedClockTimingType(t) / FullClockTimingType(t): the text, and the
    timedelta property that parses the text (_ebuttdt.py 92-94). *)
Definition make_time (tb : timebase) (t : Z) : rres tattr :=
  match tb with
  | TBClock =>
      match limited_of t with
      | Some s => match clock_td true s with
                  | Some v => ROk (mkTattr s v)
                  | None => RErr RFormat
                  end
      | None => RErr RFormat
      end
  | _ =>
      match clock_td false (full_of t) with
      | Some v => ROk (mkTattr (full_of t) v)
      | None => RErr RFormat
      end
  end.

(** delay.py 112-117 and the like: the attribute plus the delay.  [d] is
    timedelta(seconds=delay_int); the delay goes through text as well.  In a
    time base that is neither clock nor media nothing is done. *)
Definition delayed (tb : timebase) (d : Z) (a : tattr) : rres tattr :=
  match tb with
  | TBOther => ROk a
  | _ => rbind (make_time tb d) (fun da =>
         match mk_td (ta_us a + ta_us da) with
         | Some t => make_time tb t
         | None => RErr RFormat
         end)
  end.

Definition delayed_opt (tb : timebase) (d : Z) (a : option tattr) : rres (option tattr) :=
  match a with
  | None => ROk None
  | Some x => rbind (delayed tb d x) (fun y => ROk (Some y))
  end.

(** ** update_children_timing, delay.py 101-129 *)

(** One child: end first, then begin; without begin the children. *)
Fixpoint update_child (tb : timebase) (d : Z) (n : node) {struct n} : rres node :=
  match n with
  | NOther => ROk NOther
  | NTimed k b e ks =>
      rbind (delayed_opt tb d e) (fun e' =>
      match b with
      | Some x => rbind (delayed tb d x) (fun x' => ROk (NTimed k (Some x') e' ks))
      | None =>
          let fix update_all (l : list node) : rres (list node) :=
            match l with
            | [] => ROk []
            | c :: r => rbind (update_child tb d c) (fun c' =>
                        rbind (update_all r) (fun r' => ROk (c' :: r')))
            end in
          rbind (update_all ks) (fun ks' => ROk (NTimed k None e' ks'))
      end)
  end.

Fixpoint update_all (tb : timebase) (d : Z) (l : list node) : rres (list node) :=
  match l with
  | [] => ROk []
  | c :: r => rbind (update_child tb d c) (fun c' =>
              rbind (update_all tb d r) (fun r' => ROk (c' :: r')))
  end.

(** The same for the body, reached from the tt element (the head has no timed
    content). *)
Definition update_children (tb : timebase) (d : Z) (x : nbody) : rres nbody :=
  rbind (delayed_opt tb d (nb_end x)) (fun e' =>
  match nb_begin x with
  | Some b => rbind (delayed tb d b) (fun b' =>
              ROk (mkNBody (Some b') e' (nb_dur x) (nb_kids x)))
  | None => rbind (update_all tb d (nb_kids x)) (fun ks' =>
            ROk (mkNBody None e' (nb_dur x) ks'))
  end).

(** ** update_body_timing, delay.py 132-155 *)
Definition update_body (tb : timebase) (d : Z) (x : nbody) : rres nbody :=
  match nb_begin x with
  | Some _ => RErr RAssert
  | None =>
      rbind (match tb with
             | TBOther => ROk None
             | _ => rbind (make_time tb d) (fun da =>
                    rbind (make_time tb (ta_us da)) (fun b => ROk (Some b)))
             end) (fun b' =>
      rbind (delayed_opt tb d (nb_end x)) (fun e' =>
      ROk (mkNBody b' e' (nb_dur x) (nb_kids x))))
  end.

(** ** delay.py 63-67 *)
Definition retime (tb : timebase) (d : Z) (x : nbody) : rres nbody :=
  if has_untimed_leaf x then update_body tb d x else update_children tb d x.
