(** Property C37: the media clock. *)

From Coq Require Import List ZArith Bool String Lia.
From Verif Require Import TimeModel TimeProofs ClockModel.
Import ListNotations.
Open Scope Z_scope.

Lemma mk_td_some : forall x y, mk_td x = Some y -> y = x.
Proof. unfold mk_td. intros x y. destruct (_ && _); congruence. Qed.

(** Media time is the given time plus a fixed offset. *)
Theorem C37_offset : forall c t m, get_media_time c t = Some m -> m = t + (k_remote c - k_local c).
Proof.
  intros c t m H. unfold get_media_time in H. destruct (mk_td (t - k_local c)) eqn:E; [|discriminate].
  apply mk_td_some in E. apply mk_td_some in H. lia.
Qed.

(** Differences and order are kept. *)
Theorem C37_differences : forall c t u m n, get_media_time c t = Some m -> get_media_time c u = Some n ->
  n - m = u - t /\ (m < n <-> t < u) /\ (m = n <-> t = u).
Proof.
  intros c t u m n Ht Hu. apply C37_offset in Ht, Hu. lia.
Qed.

(** The inverse is the clock with the pair swapped. *)
Theorem C37_inverse : forall c t m, min_td <= t < max_td ->
  min_td <= m - k_remote c < max_td ->
  get_media_time c t = Some m ->
  get_media_time (mkClock (k_remote c) (k_local c) (k_fixed c) (k_use_fixed c)) m = Some t.
Proof.
  intros c t m Ht Hm H. apply C37_offset in H. unfold get_media_time. cbn [k_local k_remote].
  rewrite mk_td_ok by lia. rewrite mk_td_ok by lia. f_equal. lia.
Qed.

(** Every media time is reached, from exactly one reference time (leaving
    overflow aside: within 300000 years of the reference points). *)
Theorem C37_bijection : forall c m, Z.abs (k_local c) <= max_td / 9 -> Z.abs (k_remote c) <= max_td / 9 ->
  Z.abs m <= max_td / 9 ->
  exists t, get_media_time c t = Some m /\ forall u, get_media_time c u = Some m -> u = t.
Proof.
  intros c m H1 H2 H3. exists (m - (k_remote c - k_local c)).
  assert (max_td / 9 = 9600000000000000000) by reflexivity.
  assert (min_td = -86399999913600000000) by reflexivity. assert (max_td = 86400000000000000000) by reflexivity.
  split.
  - unfold get_media_time. rewrite mk_td_ok by lia. rewrite mk_td_ok by lia. f_equal. lia.
  - intros u Hu. apply C37_offset in Hu. lia.
Qed.

(** After adjusting at a local time, that time reads as the given one. *)
Theorem C37_synchronised : forall c cur loc instant, min_td <= cur < max_td ->
  get_media_time (adjust_time c cur (Some loc) instant) loc = Some cur.
Proof.
  intros. unfold get_media_time, adjust_time. cbn [k_local k_remote].
  rewrite Z.sub_diag, mk_td_ok by (cbv; split; [discriminate|reflexivity]).
  rewrite Z.add_0_r. apply mk_td_ok. auto.
Qed.

(** Only the last adjustment matters. *)
Definition is_adjust (p : Z * kop) : bool := match snd p with KAdjust _ _ => true | _ => false end.

Theorem C37_last_adjustment : forall c l1 l2 instant cur loc t,
  forallb (fun p => negb (is_adjust p)) l2 = true ->
  get_media_time (kruns c (l1 ++ (instant, KAdjust cur loc) :: l2)%list) t =
  get_media_time (mkClock (match loc with Some x => x | None => machine_time instant end) cur None false) t.
Proof.
  intros c l1 l2 instant cur loc t H. unfold kruns. rewrite fold_left_app. cbn [fold_left].
  assert (G : forall l k, forallb (fun p => negb (is_adjust p)) l = true ->
    k_local (fold_left kstep l k) = k_local k /\ k_remote (fold_left kstep l k) = k_remote k).
  { clear. induction l as [|[i o] l IH]; intros k H; [auto|].
    cbn [forallb] in H. apply andb_true_iff in H as [Ho H]. cbn [fold_left].
    destruct (IH (kstep k (i, o)) H) as [-> ->]. destruct o; [discriminate| |]; auto. }
  destruct (G l2 (kstep (fold_left kstep l1 c) (instant, KAdjust cur loc)) H) as [G1 G2].
  unfold get_media_time. rewrite G1, G2. reflexivity.
Qed.

(** In fixed mode the clock reads the last fixed time, whatever the instant and
    the adjustments; before the first one it reads None. *)
Fixpoint last_fix (l : list (Z * kop)) : option Z :=
  match l with
  | [] => None
  | (_, KFix t) :: r => match last_fix r with Some u => Some u | None => Some t end
  | _ :: r => last_fix r
  end.
Fixpoint last_mode (l : list (Z * kop)) : option bool :=
  match l with
  | [] => None
  | (_, KMode b) :: r => match last_mode r with Some c => Some c | None => Some b end
  | _ :: r => last_mode r
  end.

Theorem C37_fixed : forall start l now,
  let c := kruns (new_clock start) l in
  (last_mode l = Some true -> get_time c now = Some (last_fix l)) /\
  (last_mode l <> Some true -> get_time c now =
     match get_real_clock_time c now with Some t => Some (Some t) | None => None end).
Proof.
  intros start l now c.
  assert (G : forall l k, k_fixed (kruns k l) = match last_fix l with Some t => Some t | None => k_fixed k end /\
    k_use_fixed (kruns k l) = match last_mode l with Some b => b | None => k_use_fixed k end).
  { clear. induction l as [|[i o] l IH]; intros k; [auto|].
    change (kruns k ((i, o) :: l)) with (kruns (kstep k (i, o)) l).
    destruct (IH (kstep k (i, o))) as [-> ->]. destruct o; cbn; auto.
    - destruct (last_fix l); auto.
    - destruct (last_mode l); auto. }
  destruct (G l (new_clock start)) as [G1 G2]. fold c in G1, G2. unfold get_time. rewrite G1, G2.
  cbn [new_clock k_fixed k_use_fixed]. split.
  - intros ->. destruct (last_fix l); auto.
  - intros H. destruct (last_mode l) as [[]|]; auto. congruence.
Qed.

(** Readings at instants of one day advance like the instants; over midnight
    the reading falls back by a day. *)
Theorem C37_same_day : forall c i j m n, i / day = j / day ->
  get_real_clock_time c i = Some m -> get_real_clock_time c j = Some n -> n - m = j - i.
Proof.
  intros c i j m n Hd Hm Hn. apply C37_offset in Hm, Hn. unfold machine_time in *.
  assert (day <> 0) by discriminate.
  assert (Ei := Z.div_mod i day ltac:(auto)). assert (Ej := Z.div_mod j day ltac:(auto)).
  rewrite Hd in Ei. lia.
Qed.

Theorem C37_midnight : forall c i j m n, j / day = i / day + 1 ->
  get_real_clock_time c i = Some m -> get_real_clock_time c j = Some n -> n - m = j - i - day.
Proof.
  intros c i j m n Hd Hm Hn. apply C37_offset in Hm, Hn. unfold machine_time in *.
  assert (day <> 0) by discriminate.
  assert (Ei := Z.div_mod i day ltac:(auto)). assert (Ej := Z.div_mod j day ltac:(auto)).
  rewrite Hd in Ej. nia.
Qed.

(** A new clock reads zero, and until midnight the time since it was made. *)
Theorem C37_new : forall start now, start / day = now / day -> start <= now ->
  get_time (new_clock start) now = Some (Some (now - start)).
Proof.
  intros start now Hd Hle. unfold get_time. cbn [new_clock k_use_fixed].
  assert (D : 0 <= machine_time now - machine_time start < day /\
              machine_time now - machine_time start = now - start).
  { unfold machine_time. assert (N : day <> 0) by discriminate.
    assert (Es := Z.div_mod start day N). assert (En := Z.div_mod now day N). rewrite Hd in Es.
    assert (B1 := Z.mod_pos_bound start day ltac:(reflexivity)).
    assert (B2 := Z.mod_pos_bound now day ltac:(reflexivity)). lia. }
  unfold get_real_clock_time, get_media_time. cbn [new_clock k_local k_remote].
  destruct D as [D1 D2]. rewrite D2 in D1 |- *.
  assert (M : mk_td (now - start) = Some (now - start)).
  { apply mk_td_ok. unfold day in D1. unfold min_td, max_td, us_per_day, us_per_s in *. lia. }
  rewrite M. rewrite Z.add_0_l, M. reflexivity.
Qed.

(** Which clock serves which document. *)
Theorem C37_get_clock : forall tb cm,
  (get_clock tb cm = Some KLocal <-> tb = "clock"%string /\ cm = "local"%string) /\
  (get_clock tb cm = Some KUtc <-> tb = "clock"%string /\ cm = "utc"%string) /\
  (get_clock tb cm = Some KMedia <-> tb = "media"%string) /\
  (get_clock tb cm = Some KSmpte <-> tb = "smpte"%string) /\
  (get_clock tb cm = None <->
    (tb = "clock"%string /\ cm <> "local"%string /\ cm <> "utc"%string) \/
    (tb <> "clock"%string /\ tb <> "media"%string /\ tb <> "smpte"%string)).
Proof.
  intros tb cm. unfold get_clock.
  destruct (String.eqb_spec tb "clock").
  - destruct (String.eqb_spec cm "local"); [|destruct (String.eqb_spec cm "utc")]; subst;
      intuition (try discriminate); congruence.
  - destruct (String.eqb_spec tb "media"); [|destruct (String.eqb_spec tb "smpte")]; subst;
      intuition (try discriminate); congruence.
Qed.

Example C37_case :
  let c := adjust_time (new_clock 5) 1000000 (Some 3600000000) 0 in
  get_media_time c 3601500000 = Some 2500000 /\
  get_media_time (mkClock (k_remote c) (k_local c) None false) 2500000 = Some 3601500000 /\
  get_time (set_fixed_time_mode (set_fixed_time c 42) true) 99 = Some (Some 42) /\
  get_time (set_fixed_time_mode c true) 99 = Some None /\
  get_real_clock_time (new_clock 0) (day - 1) = Some (day - 1) /\
  get_real_clock_time (new_clock 0) day = Some 0.
Proof. vm_compute. repeat split. Qed.

Print Assumptions C37_offset.
Print Assumptions C37_differences.
Print Assumptions C37_inverse.
Print Assumptions C37_bijection.
Print Assumptions C37_synchronised.
Print Assumptions C37_last_adjustment.
Print Assumptions C37_fixed.
Print Assumptions C37_same_day.
Print Assumptions C37_midnight.
Print Assumptions C37_get_clock.
Print Assumptions C37_new.
