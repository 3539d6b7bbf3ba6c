(** C28: style references. *)

From Coq Require Import List String Bool Arith Lia Relations.
From Verif Require Import IdModel StyleModel StyleProofs.
Import ListNotations.
Open Scope string_scope.

(** The locks and cached lists after any calls of ordered_styles, successful or
    not, on styles of the table. *)
Definition after_calls (d : list (string * kind)) (l : list string) : sstate :=
  fold_left (fun st i => match get_style d i with
                         | Some _ => snd (ordered_styles (enough d) d st i)
                         | None => st
                         end) l sstart.

Lemma after_calls_settled : forall d l, settled d (after_calls d l).
Proof.
  intros d l. unfold after_calls. assert (S := settled_start d). revert S. generalize sstart as st.
  induction l as [|i r IH]; intros st S; cbn [fold_left]; auto. apply IH. destruct (get_style d i) eqn:G; auto.
  refine (proj2 (ordered_settled d i st (enough d) S _ _)); [congruence|unfold enough; lia].
Qed.

Lemma each_ref_fuel : forall d n,
  (forall st i, fst (ordered_styles n d st i) <> SErr OutOfFuel -> ordered_styles (S n) d st i = ordered_styles n d st i) ->
  forall refs acc st, fst (each_ref (ordered_styles n d) d refs acc st) <> SErr OutOfFuel ->
    each_ref (ordered_styles (S n) d) d refs acc st = each_ref (ordered_styles n d) d refs acc st.
Proof.
  intros d n H. induction refs as [|r rest IH]; intros acc st F; auto. cbn [each_ref] in *.
  destruct (get_style d r); auto. rewrite H.
  - destruct (ordered_styles n d st r) as [[l|e] st']; auto.
  - intros E. destruct (ordered_styles n d st r) as [[l|e] st']; cbn in *; congruence.
Qed.

Lemma ordered_fuel : forall n d st i, fst (ordered_styles n d st i) <> SErr OutOfFuel ->
  ordered_styles (S n) d st i = ordered_styles n d st i.
Proof.
  induction n as [|n IH]; intros d st i F; [cbn in F; congruence|].
  cbn [ordered_styles] in F. change (ordered_styles (S (S n)) d st i) with
    (if mem i (st_locked st) then (SErr (Circle i), st)
     else match dict_get (st_cache st) i with
          | Some l => (SOk l, st)
          | None => match each_ref (ordered_styles (S n) d) d (refs_of d i) [i] (mkS (i :: st_locked st) (st_cache st)) with
                    | (SErr e, st') => (SErr e, unlock st')
                    | (SOk l, st') => (SOk l, unlock (mkS (st_locked st') ((i, l) :: st_cache st')))
                    end
          end).
  cbn [ordered_styles]. destruct (mem i (st_locked st)); auto. destruct (dict_get (st_cache st) i); auto.
  rewrite (each_ref_fuel d n (IH d)); auto.
  intros E. destruct (each_ref (ordered_styles n d) d (refs_of d i) [i] (mkS (i :: st_locked st) (st_cache st))) as [[l|e] st'];
    cbn in *; congruence.
Qed.

(** It terminates: one step more than there are identifiers suffices, and more
    changes nothing. *)
Theorem C28_terminates : forall d calls i n, get_style d i <> None -> enough d <= n ->
  ordered_styles n d (after_calls d calls) i = ordered_styles (enough d) d (after_calls d calls) i /\
  fst (ordered_styles n d (after_calls d calls) i) <> SErr OutOfFuel.
Proof.
  intros d calls i n G L. assert (S := after_calls_settled d calls).
  assert (Ne : forall m, enough d <= m -> fst (ordered_styles m d (after_calls d calls) i) <> SErr OutOfFuel).
  { intros m Hm E. destruct (ordered_settled d i _ m S G) as [O _]; [unfold enough in Hm; lia|]. rewrite E in O. exact O. }
  split; [|auto]. induction L as [|m L IH]; auto. rewrite ordered_fuel; auto.
Qed.

(** It succeeds exactly if no circle and no unknown identifier is reachable,
    whatever was called before. *)
Theorem C28_succeeds : forall d calls i, get_style d i <> None ->
  ((exists l, fst (ordered_styles (enough d) d (after_calls d calls) i) = SOk l) <-> sound d i).
Proof.
  intros d calls i G. destruct (ordered_settled d i (after_calls d calls) (enough d)) as [O _]; auto using after_calls_settled.
  apply (outcome_sound _ _ _ O).
Qed.

(** The list: every reachable style once, in the order of the first
    occurrences in the depth-first unfolding, itself first. *)
Theorem C28_list : forall d calls i l, get_style d i <> None ->
  fst (ordered_styles (enough d) d (after_calls d calls) i) = SOk l ->
  NoDup l /\ (forall x, In x l <-> reach d i x) /\ (exists r, l = i :: r) /\
  exists u, unfolds d i u /\ l = keep_first u.
Proof.
  intros d calls i l G E. destruct (ordered_settled d i (after_calls d calls) (enough d)) as [O _]; auto using after_calls_settled.
  rewrite E in O. cbn in O. destruct O as (u & U & ->). split; [apply keep_first_NoDup|]. split; [|split; [|eauto]].
  - intros x. rewrite keep_first_In. apply (proj1 (unfolds_reach d)). auto.
  - apply unfolds_inv in U as (_ & l' & -> & _). cbn. eauto.
Qed.

(** The two failures say what they say. *)
Theorem C28_errors : forall d calls i e, get_style d i <> None ->
  fst (ordered_styles (enough d) d (after_calls d calls) i) = SErr e ->
  (exists x, e = Circle x /\ reach d i x /\ path d x x) \/
  (exists x y, e = Missing x /\ get_style d x = None /\ reach d i y /\ edge d y x).
Proof.
  intros d calls i e G E. destruct (ordered_settled d i (after_calls d calls) (enough d)) as [O _]; auto using after_calls_settled.
  rewrite E in O. destruct e; cbn in O; try tauto.
  - left. eauto.
  - right. destruct O as [(y & R & F) M]. exists i0, y. auto.
Qed.

(** The calls before make no difference to a successful answer, and no lock is
    left held. *)
Theorem C28_history : forall d calls calls' i, get_style d i <> None -> sound d i ->
  fst (ordered_styles (enough d) d (after_calls d calls) i) = fst (ordered_styles (enough d) d (after_calls d calls') i) /\
  st_locked (after_calls d calls) = [].
Proof.
  intros d calls calls' i G S. split; [|apply after_calls_settled].
  apply ordered_same; auto using after_calls_settled.
Qed.

(** The styles an element names: the same for the whole list. *)
Theorem C28_element : forall d calls refs,
  match fst (collect_refs d (after_calls d calls) refs) with
  | SOk l => (forall i, In i refs -> get_style d i <> None /\ sound d i) /\
             (forall x, In x l <-> exists i, In i refs /\ reach d i x) /\
             NoDup l /\ exists u, unfolds_all d refs u /\ l = keep_first u
  | SErr e => exists i, In i refs /\ (get_style d i = None \/ ~ sound d i)
  end.
Proof.
  intros d calls refs. assert (Y := collect_refs_spec d refs [] [] (after_calls d calls) (after_calls_settled d calls) (U_nil d)).
  unfold collect_refs. cbn [keep_first app] in Y.
  destruct (each_ref (ordered_styles (enough d) d) d refs [] (after_calls d calls)) as [[l|e] st]; cbn [fst]; destruct Y as [_ Y].
  - destruct Y as (v & V & ->). split; [|split; [|split; [apply keep_first_NoDup|eauto]]].
    + intros i Hi. destruct (unfolds_all_in _ _ _ _ V Hi) as (l0 & a & b & U & _). split; [|eapply unfolds_sound; eauto].
      apply unfolds_inv in U. tauto.
    + intros x. rewrite keep_first_In. apply (proj2 (unfolds_reach d)). auto.
  - destruct e; try tauto.
    + destruct Y as (j & Hj & R & P). exists j. split; auto. right. intros S. destruct (S _ R). auto.
    + destruct Y as [M [Hx|(j & y & Hj & R & E)]].
      * exists i. auto.
      * exists j. split; auto. right. intros S. destruct (S i) as [Q _]; auto. eapply rt_trans; [apply R|apply rt_step; auto].
Qed.

(** A diamond, a circle behind it, a dangling reference and a region used as a
    style. *)
Definition st (l : list string) : kind := KStyle (mkStyle (Some l) no_attrs).
Definition diamond : list (string * kind) :=
  [("a", st ["b"; "c"]); ("b", st ["d"]); ("c", st ["d"; "b"]); ("d", KStyle (mkStyle None no_attrs));
   ("x", st ["y"]); ("y", st ["a"; "x"]); ("z", st ["a"; "nowhere"]); ("w", st ["r"]); ("r", KRegion (mkRegion None None))].

Example C28_case : fst (ordered_styles (enough diamond) diamond (after_calls diamond ["x"; "c"; "z"]) "a") = SOk ["a"; "b"; "d"; "c"] /\
  fst (ordered_styles (enough diamond) diamond (after_calls diamond ["a"]) "x") = SErr (Circle "x") /\
  fst (ordered_styles (enough diamond) diamond sstart "z") = SErr (Missing "nowhere") /\
  fst (ordered_styles (enough diamond) diamond sstart "w") = SErr (Missing "r") /\
  fst (collect_refs diamond sstart ["c"; "a"]) = SOk ["c"; "d"; "b"; "a"].
Proof. vm_compute. auto. Qed.

Print Assumptions C28_terminates.
Print Assumptions C28_succeeds.
Print Assumptions C28_list.
Print Assumptions C28_errors.
Print Assumptions C28_history.
Print Assumptions C28_element.
