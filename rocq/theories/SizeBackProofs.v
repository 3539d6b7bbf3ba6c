(** Facts on what comes back: of numbers written, of regions in cells, and of
    comparisons. *)

From Coq Require Import List ZArith String Ascii Bool Lia.
From Verif Require Import Digits TimeModel TimeSpec TimeProofs TimeFloat SizeModel SizeSpec SizeProofs SizeNumProofs SizeTextProofs SizeWriteProofs.
Import ListNotations.
Open Scope Z_scope.

(** ** Nearly the same *)

Lemma shown_nearly x sh : num_wf x -> writable sh x -> nearly (shown x) (magnitude x).
Proof.
  intros Hw W. destruct x as [z|neg [n d]]; cbn [shown magnitude num_wf writable] in *.
  - destruct (rnd_error (Z.abs z) 1) as (A & B & C); [lia|lia|]. split; [assumption|]. split; [assumption|]. cbn [fst snd]. lia.
  - destruct W as [_ W]. cbn [fst snd] in Hw. destruct (Z.eqb_spec n 0) as [->|Hz].
    + split; [vm_compute; discriminate|]. split; [reflexivity|]. cbn [fst snd]. change (rnd 0 10) with (0, 1). cbn [fst snd]. lia.
    + destruct (digits12_spec n d) as (m & e & E & T); [lia|lia|]. rewrite E.
      assert (He := proj1 (showable_iff n d m e ltac:(lia) ltac:(lia) T) W). destruct T as [Hm T].
      specialize (T (11 - e) ltac:(lia) ltac:(lia)). cbv zeta in T. replace (e - 11 + (11 - e)) with 0 in T by lia.
      change (10 ^ 0) with 1 in T. rewrite Z.mul_1_r in T. destruct T as (T1 & _ & _).
      assert (P := pow10_pos (11 - e) ltac:(lia)). set (p := 10 ^ (11 - e)) in *.
      destruct (rnd_error m p) as (A & B & C); [lia|assumption|]. split; [assumption|]. split; [assumption|]. cbn [fst snd].
      set (yn := fst (rnd m p)) in *. set (yd := snd (rnd m p)) in *.
      apply (Z.mul_le_mono_pos_r _ _ p); [assumption|].
      assert (X1 : 2 * Z.abs (n * p * yd - m * d * yd) <= d * yd).
      { replace (n * p * yd - m * d * yd) with ((n * p - m * d) * yd) by ring. rewrite Z.abs_mul, (Z.abs_eq yd), Z.mul_assoc by lia.
        apply Z.mul_le_mono_nonneg_r; lia. }
      assert (X2 : 10 ^ 11 * (d * yd) <= m * d * yd).
      { rewrite <- Z.mul_assoc. apply Z.mul_le_mono_nonneg_r; [apply Z.mul_nonneg_nonneg|]; lia. }
      assert (X3 : Z.abs (yn * d * p - m * d * yd) * 2 ^ 53 <= m * d * yd).
      { replace (yn * d * p - m * d * yd) with ((yn * p - m * yd) * d) by ring. rewrite Z.abs_mul, (Z.abs_eq d) by lia.
        replace (Z.abs (yn * p - m * yd) * d * 2 ^ 53) with (Z.abs (yn * p - m * yd) * 2 ^ 53 * d) by ring.
        replace (m * d * yd) with (m * yd * d) by ring. apply Z.mul_le_mono_nonneg_r; lia. }
      replace (Z.abs (yn * d - n * yd) * 10 ^ 12 * p) with (Z.abs (yn * d * p - n * p * yd) * 10 ^ 12).
      2: { replace (yn * d * p - n * p * yd) with ((yn * d - n * yd) * p) by ring. rewrite Z.abs_mul, (Z.abs_eq p) by lia. ring. }
      replace (6 * n * yd * p) with (6 * (n * p * yd)) by ring.
      assert (0 < d * yd) by (apply Z.mul_pos_pos; lia).
      set (Q1 := n * p * yd) in *. set (Q2 := m * d * yd) in *. set (Q3 := d * yd) in *. set (Q4 := yn * d * p) in *. lia.
Qed.

(** ** Exactly the same *)

Lemma digits12_rnd v i k : 0 < v < 10 ^ 12 -> 0 <= i -> 0 <= k ->
  exists m j, 0 <= j /\ m = v * 10 ^ j /\ 10 ^ 11 <= m < 10 ^ 12 /\
    let x := rnd (v * 10 ^ i) (10 ^ k) in
    0 < fst x /\ 0 < snd x /\ digits12 (fst x) (snd x) = (m, 11 - j + i - k).
Proof.
  intros Hv Hi Hk.
  assert (N : forall c v, 0 < v < 10 ^ 12 -> 10 ^ 11 <= v * 10 ^ Z.of_nat c -> exists j, 0 <= j /\ 10 ^ 11 <= v * 10 ^ j < 10 ^ 12).
  { induction c as [|c IH]; intros w Hw Hc.
    - exists 0. change (10 ^ Z.of_nat 0) with 1 in Hc. change (10 ^ 0) with 1. lia.
    - destruct (Z_le_dec (10 ^ 11) w) as [G|G]; [exists 0; change (10 ^ 0) with 1; lia|].
      destruct (IH (10 * w)) as (j & J1 & J2); [lia| |].
      + rewrite Nat2Z.inj_succ, Z.pow_succ_r in Hc by lia. lia.
      + exists (1 + j). split; [lia|]. rewrite pow10_split by lia. change (10 ^ 1) with 10. lia. }
  destruct (N 11%nat v Hv) as (j & J1 & J2); [change (10 ^ Z.of_nat 11) with (10 ^ 11); lia|].
  exists (v * 10 ^ j), j. split; [assumption|]. split; [reflexivity|]. split; [assumption|].
  assert (Pi := pow10_pos i Hi). assert (Pk := pow10_pos k Hk). assert (Pj := pow10_pos j J1).
  assert (V : 0 < v * 10 ^ i) by (apply Z.mul_pos_pos; lia).
  destruct (rnd_error (v * 10 ^ i) (10 ^ k)) as (A & B & C); [lia|assumption|]. cbv zeta.
  set (x := fst (rnd (v * 10 ^ i) (10 ^ k))) in *. set (y := snd (rnd (v * 10 ^ i) (10 ^ k))) in *.
  assert (VY : 0 < v * 10 ^ i * y) by (apply Z.mul_pos_pos; lia).
  assert (X : 0 < x).
  { destruct (Z.eq_dec x 0) as [E|]; [|lia]. rewrite E in C. rewrite Z.mul_0_l in C. lia. }
  split; [assumption|]. split; [assumption|].
  apply (twelve_close _ _ _ _ (k + j)); try assumption; try lia.
  replace (11 - j + i - k - 11 + (k + j)) with i by lia. rewrite pow10_split by lia.
  replace (v * 10 ^ j * (y * 10 ^ i)) with (v * 10 ^ i * y * 10 ^ j) by ring.
  replace (x * (10 ^ k * 10 ^ j) - v * 10 ^ i * y * 10 ^ j) with ((x * 10 ^ k - v * 10 ^ i * y) * 10 ^ j) by ring.
  rewrite Z.abs_mul, (Z.abs_eq (10 ^ j)) by lia.
  replace (Z.abs (x * 10 ^ k - v * 10 ^ i * y) * 10 ^ j * 2 ^ 53) with (Z.abs (x * 10 ^ k - v * 10 ^ i * y) * 2 ^ 53 * 10 ^ j) by ring.
  apply Z.mul_le_mono_nonneg_r; lia.
Qed.

Lemma rnd_zero d : rnd 0 d = (0, 1).
Proof. reflexivity. Qed.

Lemma shown_exact neg x : showable x -> twelve_digits x -> shown (NFloat neg x) = x.
Proof.
  intros S (v & i & k & Hv & Hi & Hk & E). assert (Pk := pow10_pos k Hk).
  destruct (Z.eq_dec v 0) as [->|Hz].
  - rewrite Z.mul_0_l, rnd_zero in E. subst x. reflexivity.
  - destruct (digits12_rnd v i k ltac:(lia) Hi Hk) as (m & j & J1 & J2 & J3 & X & Y & D). cbv zeta in *.
    rewrite <- E in *. destruct x as [n d]. cbn [fst snd shown] in *. destruct (Z.eqb_spec n 0); [lia|].
    rewrite D. destruct (digits12_spec n d X Y) as (m' & e' & D' & T). rewrite D in D'.
    assert (m' = m) by congruence. assert (e' = 11 - j + i - k) by congruence. clear D'. subst m' e'.
    assert (He := proj1 (showable_iff _ _ _ _ X Y T) S). rewrite E.
    assert (Pq := pow10_pos (11 - (11 - j + i - k)) ltac:(lia)). assert (Pi := pow10_pos i Hi).
    assert (0 <= v * 10 ^ i) by (apply Z.mul_nonneg_nonneg; lia). symmetry. apply rnd_ratio; [assumption|assumption|lia|assumption|].
    replace (10 ^ k * m) with (m * 10 ^ k) by ring. rewrite J2.
    replace (v * 10 ^ i * 10 ^ (11 - (11 - j + i - k))) with (v * (10 ^ i * 10 ^ (11 - (11 - j + i - k)))) by ring.
    rewrite <- pow10_split by lia. replace (i + (11 - (11 - j + i - k))) with (j + k) by lia. rewrite pow10_split by lia. ring.
Qed.

(** What was shown has the same text again. *)
Lemma shown_again neg x : 0 <= fst x -> 0 < snd x -> showable x ->
  let y := shown (NFloat neg x) in
  0 <= fst y /\ 0 < snd y /\ showable y /\ str12 y = str12 x /\ twelve_digits y.
Proof.
  destruct x as [n d]. cbn [fst snd shown]. intros Hn Hd S. cbv zeta. destruct (Z.eqb_spec n 0) as [->|Hz].
  - rewrite rnd_zero. cbn [fst snd]. repeat (split; [lia || reflexivity|]). split; [left; reflexivity|]. split; [reflexivity|].
    exists 0, 0, 0. repeat split; lia.
  - destruct (digits12_spec n d) as (m & e & E & T); [lia|assumption|]. rewrite E.
    assert (He := proj1 (showable_iff n d m e ltac:(lia) Hd T) S). assert (Hm := proj1 T).
    destruct (digits12_rnd m 0 (11 - e) ltac:(lia) ltac:(lia) ltac:(lia)) as (m' & j & J1 & J2 & J3 & X & Y & D). cbv zeta in *.
    change (10 ^ 0) with 1 in *. rewrite Z.mul_1_r in *.
    assert (j = 0).
    { destruct (Z.eq_dec j 0); [assumption|exfalso]. assert (Q : 10 ^ 1 <= 10 ^ j) by (apply Z.pow_le_mono_r; lia).
      change (10 ^ 1) with 10 in Q. assert (m * 10 <= m * 10 ^ j) by (apply Z.mul_le_mono_nonneg_l; lia). lia. }
    subst j. change (10 ^ 0) with 1 in *. rewrite Z.mul_1_r in *. subst m'.
    replace (11 - 0 + 0 - (11 - e)) with e in D by lia.
    split; [lia|]. split; [assumption|].
    destruct (digits12_spec _ _ X Y) as (m' & e' & D' & T'). rewrite D in D'. injection D' as <- <-.
    assert (S' : showable (fst (rnd m (10 ^ (11 - e))), snd (rnd m (10 ^ (11 - e))))) by (apply (showable_iff _ _ _ _ X Y T'); assumption).
    rewrite <- surjective_pairing in S'. split; [assumption|]. split.
    + destruct (rnd m (10 ^ (11 - e))) as [a b]. cbn [fst snd] in *. unfold str12.
      destruct (Z.eqb_spec a 0); [lia|]. destruct (Z.eqb_spec n 0); [lia|]. rewrite D, E. reflexivity.
    + exists m, 0, (11 - e). change (10 ^ 0) with 1. rewrite Z.mul_1_r. repeat split; lia.
Qed.
