(** Facts on doubles with twelve digits. *)

From Coq Require Import List ZArith String Ascii Bool Lia.
From Verif Require Import Digits TimeModel TimeSpec TimeProofs TimeFloat SizeModel SizeSpec SizeProofs.
Import ListNotations.
Open Scope Z_scope.

(** ** Rounding depends on the ratio only *)

Definition sc (n d e : Z) : Z * Z := if 0 <=? e then (n, d * 2 ^ e) else (n * 2 ^ (- e), d).
Definition rnd_at (n d e : Z) : Z * Z :=
  let '(a, b) := sc n d e in
  let q' := near_int a b in
  if 0 <=? e then (q' * 2 ^ e, 1) else (q', 2 ^ (- e)).
Definition fits (n d e : Z) : Prop := let '(a, b) := sc n d e in 2 ^ 52 * b <= a < 2 ^ 53 * b.

Lemma sc_pos n d e : 0 < n -> 0 < d -> 0 < fst (sc n d e) /\ 0 < snd (sc n d e).
Proof.
  intros Hn Hd. unfold sc. destruct (Z.leb_spec 0 e); simpl; split; try lia;
    apply Z.mul_pos_pos; try lia; apply Z.pow_pos_nonneg; lia.
Qed.

Lemma sc_mono n d e k : 0 < n -> 0 < d -> 0 <= k ->
  fst (sc n d e) * snd (sc n d (e + k)) = 2 ^ k * fst (sc n d (e + k)) * snd (sc n d e).
Proof.
  intros Hn Hd Hk. unfold sc. destruct (Z.leb_spec 0 e); destruct (Z.leb_spec 0 (e + k)); cbn [fst snd]; try lia.
  - rewrite Z.pow_add_r by lia. ring.
  - replace (2 ^ k) with (2 ^ (e + k) * 2 ^ (- e)) by (rewrite <- Z.pow_add_r by lia; f_equal; lia). ring.
  - replace (2 ^ (- e)) with (2 ^ (- (e + k)) * 2 ^ k) by (rewrite <- Z.pow_add_r by lia; f_equal; lia). ring.
Qed.

(** Raising the exponent by one halves the ratio. *)
Lemma sc_succ n d e : 0 < n -> 0 < d ->
  fst (sc n d e) * snd (sc n d (e + 1)) = 2 * fst (sc n d (e + 1)) * snd (sc n d e).
Proof. intros Hn Hd. apply (sc_mono n d e 1); lia. Qed.

Lemma fits_le n d e e' : 0 < n -> 0 < d -> fits n d e -> fits n d e' -> e <= e'.
Proof.
  intros Hn Hd F F'. destruct (Z_le_gt_dec e e') as [|G]; [assumption|exfalso].
  pose proof (sc_mono n d e' (e - e') Hn Hd ltac:(lia)) as M. replace (e' + (e - e')) with e in M by lia.
  pose proof (sc_pos n d e Hn Hd) as P. pose proof (sc_pos n d e' Hn Hd) as P'.
  unfold fits in F, F'. destruct (sc n d e) as [a b]. destruct (sc n d e') as [a' b']. cbn [fst snd] in *.
  assert (2 <= 2 ^ (e - e')). { replace (e - e') with (1 + (e - e' - 1)) by lia. rewrite Z.pow_add_r by lia.
    assert (0 < 2 ^ (e - e' - 1)) by (apply Z.pow_pos_nonneg; lia). lia. }
  destruct P as [P1 P2]. destruct P' as [P3 P4].
  assert (A1 : a' * b < 2 ^ 53 * b' * b) by (apply Z.mul_lt_mono_pos_r; [exact P2|apply F']).
  assert (A2 : 2 ^ 52 * b * b' <= a * b') by (apply Z.mul_le_mono_nonneg_r; [lia|apply F]).
  assert (0 < a * b') by nia.
  assert (A3 : 2 * (a * b') <= 2 ^ (e - e') * (a * b')) by (apply Z.mul_le_mono_nonneg_r; lia).
  change (2 ^ 53) with (2 * 2 ^ 52) in A1. lia.
Qed.

Lemma fits_unique n d e e' : 0 < n -> 0 < d -> fits n d e -> fits n d e' -> e = e'.
Proof. intros. apply Z.le_antisymm; eauto using fits_le. Qed.

Lemma rnd_fits n d : 0 < n -> 0 < d -> exists e, fits n d e /\ rnd n d = rnd_at n d e.
Proof.
  intros Hn Hd. set (e0 := Z.log2 n - Z.log2 d - 52).
  assert (R : rnd n d = let '(a0, b0) := sc n d e0 in rnd_at n d (if a0 / b0 <? 2 ^ 52 then e0 - 1 else e0)).
  { unfold rnd. destruct (Z.eqb_spec n 0); [lia|]. reflexivity. }
  assert (HW : 2 ^ 51 * snd (sc n d e0) < fst (sc n d e0) < 2 ^ 53 * snd (sc n d e0)).
  { assert (Hln := Z.log2_spec n ltac:(lia)). assert (Hld := Z.log2_spec d ltac:(lia)).
    assert (Hn0 := Z.log2_nonneg n). assert (Hd0 := Z.log2_nonneg d).
    remember (Z.log2 n) as ln. remember (Z.log2 d) as ld.
    rewrite Z.pow_succ_r in Hln, Hld by lia.
    unfold sc. destruct (Z.leb_spec 0 e0); simpl fst; simpl snd.
    - assert (E : 2 ^ ln = 2 ^ 52 * 2 ^ ld * 2 ^ e0) by (rewrite <- !Z.pow_add_r by lia; f_equal; unfold e0; lia).
      assert (0 < 2 ^ e0) by (apply Z.pow_pos_nonneg; lia).
      assert (2 ^ ld * 2 ^ e0 <= d * 2 ^ e0) by (apply Z.mul_le_mono_nonneg_r; lia).
      assert (d * 2 ^ e0 < 2 * 2 ^ ld * 2 ^ e0) by (apply Z.mul_lt_mono_pos_r; lia). lia.
    - assert (E : 2 ^ ln * 2 ^ (- e0) = 2 ^ 52 * 2 ^ ld) by (rewrite <- !Z.pow_add_r by (unfold e0 in *; lia); f_equal; unfold e0; lia).
      assert (0 < 2 ^ (- e0)) by (apply Z.pow_pos_nonneg; lia).
      assert (2 ^ ln * 2 ^ (- e0) <= n * 2 ^ (- e0)) by (apply Z.mul_le_mono_nonneg_r; lia).
      assert (n * 2 ^ (- e0) < 2 * 2 ^ ln * 2 ^ (- e0)) by (apply Z.mul_lt_mono_pos_r; lia). lia. }
  pose proof (sc_pos n d e0 Hn Hd) as P.
  destruct (sc n d e0) as [a0 b0] eqn:E0. cbn [fst snd] in HW, P.
  set (e := if a0 / b0 <? 2 ^ 52 then e0 - 1 else e0).
  assert (F : fits n d e).
  { unfold e. destruct (Z.ltb_spec (a0 / b0) (2 ^ 52)) as [L|L].
    - assert (a0 < 2 ^ 52 * b0). { pose proof (Z.div_mod a0 b0 ltac:(lia)) as D. pose proof (Z.mod_pos_bound a0 b0 ltac:(lia)). nia. }
      pose proof (sc_succ n d (e0 - 1) Hn Hd) as S. replace (e0 - 1 + 1) with e0 in S by lia. rewrite E0 in S. cbn [fst snd] in S.
      pose proof (sc_pos n d (e0 - 1) Hn Hd) as P1. unfold fits. destruct (sc n d (e0 - 1)) as [a b]. cbn [fst snd] in *.
      assert (a * b0 = 2 * a0 * b) by assumption.
      assert (B1 : 2 ^ 51 * b0 * b < a0 * b) by (apply Z.mul_lt_mono_pos_r; [lia|apply HW]).
      assert (B2 : a0 * b < 2 ^ 52 * b0 * b) by (apply Z.mul_lt_mono_pos_r; [lia|assumption]).
      change (2 ^ 52) with (2 * 2 ^ 51). change (2 ^ 53) with (2 * 2 ^ 52).
      split; [apply (Z.mul_le_mono_pos_r _ _ b0)|apply (Z.mul_lt_mono_pos_r b0)]; lia.
    - unfold fits. rewrite E0. split; [|lia].
      pose proof (Z.div_mod a0 b0 ltac:(lia)) as D. pose proof (Z.mod_pos_bound a0 b0 ltac:(lia)). nia. }
  exists e. split; [exact F|]. exact R.
Qed.

Lemma near_int_scale c n d : 0 < c -> 0 < d -> near_int (c * n) (c * d) = near_int n d.
Proof.
  intros Hc Hd. unfold near_int. rewrite Z.div_mul_cancel_l by lia. rewrite Z.mul_mod_distr_l by lia.
  set (r := n mod d). replace (2 * (c * r)) with (c * (2 * r)) by ring.
  replace (c * d <? c * (2 * r)) with (d <? 2 * r).
  - replace (c * (2 * r) =? c * d) with (2 * r =? d); [reflexivity|].
    destruct (Z.eqb_spec (2 * r) d) as [E|E]; symmetry; [rewrite E; apply Z.eqb_refl|]. apply Z.eqb_neq. intros X. apply E. apply (Z.mul_reg_l _ _ c); lia.
  - destruct (Z.ltb_spec d (2 * r)) as [E|E]; symmetry; [apply Z.ltb_lt; apply Z.mul_lt_mono_pos_l; lia|].
    apply Z.ltb_ge. apply Z.mul_le_mono_nonneg_l; lia.
Qed.

Lemma rnd_scale c n d : 0 < c -> 0 <= n -> 0 < d -> rnd (c * n) (c * d) = rnd n d.
Proof.
  intros Hc Hn Hd. destruct (Z.eq_dec n 0) as [->|Hz]; [rewrite Z.mul_0_r; reflexivity|].
  destruct (rnd_fits n d) as (e & F & ->); [lia|lia|].
  destruct (rnd_fits (c * n) (c * d)) as (e' & F' & ->); [nia|nia|].
  assert (S : sc (c * n) (c * d) e = (c * fst (sc n d e), c * snd (sc n d e))).
  { unfold sc. destruct (0 <=? e); simpl; f_equal; ring. }
  assert (F2 : fits (c * n) (c * d) e).
  { unfold fits in F |- *. rewrite S. destruct (sc n d e) as [a b]. cbn [fst snd].
    replace (2 ^ 52 * (c * b)) with (c * (2 ^ 52 * b)) by ring. replace (2 ^ 53 * (c * b)) with (c * (2 ^ 53 * b)) by ring.
    split; [apply Z.mul_le_mono_nonneg_l; lia|apply Z.mul_lt_mono_pos_l; lia]. }
  rewrite (fits_unique (c * n) (c * d) e' e) by (auto; nia).
  unfold rnd_at. rewrite S. pose proof (sc_pos n d e ltac:(lia) Hd) as P. destruct (sc n d e) as [a b]. cbn [fst snd] in *.
  rewrite near_int_scale by lia. reflexivity.
Qed.

(** Equal ratios. *)
Lemma rnd_ratio n d n' d' : 0 <= n -> 0 < d -> 0 <= n' -> 0 < d' -> n * d' = n' * d -> rnd n d = rnd n' d'.
Proof.
  intros Hn Hd Hn' Hd' E. rewrite <- (rnd_scale d' n d), <- (rnd_scale d n' d') by assumption.
  f_equal; lia.
Qed.

(** ** The decimal exponent *)

Lemma near_int_spec n d : 0 < d ->
  2 * Z.abs (n - near_int n d * d) <= d /\ (2 * Z.abs (n - near_int n d * d) = d -> Z.even (near_int n d) = true).
Proof.
  intros Hd. unfold near_int. pose proof (Z.div_mod n d ltac:(lia)) as D. pose proof (Z.mod_pos_bound n d Hd) as B.
  assert (Q1 : n - (n / d + 1) * d = n mod d - d) by lia. assert (Q0 : n - n / d * d = n mod d) by lia.
  destruct (Z.ltb_spec d (2 * (n mod d))); cbn [orb].
  - rewrite Q1. split; [lia|]. intros E. exfalso. lia.
  - destruct (Z.eqb_spec (2 * (n mod d)) d); cbn [andb].
    + destruct (Z.odd (n / d)) eqn:O.
      * rewrite Q1. split; [lia|]. intros _. rewrite Z.even_add, <- Z.negb_odd, O. reflexivity.
      * rewrite Q0. split; [lia|]. intros _. rewrite <- Z.negb_odd, O. reflexivity.
    + rewrite Q0. split; [lia|]. intros E. exfalso. lia.
Qed.

Ltac peq := apply f_equal2; [apply f_equal2; ring|ring].

Lemma scale_down_spec fuel : forall n d e, 0 < d -> d <= n -> n < d * 10 ^ (1 + Z.of_nat fuel) ->
  exists k, 0 <= k /\ scale_down fuel n d e = (n, d * 10 ^ k, e + k) /\ d * 10 ^ k <= n < 10 * (d * 10 ^ k).
Proof.
  induction fuel as [|f IH]; intros n d e Hd H1 H2; cbn [scale_down].
  - exists 0. cbn [fst snd] in *. split; [lia|]. split; [peq|lia].
  - destruct (Z.ltb_spec n (10 * d)).
    + exists 0. rewrite Z.pow_0_r. split; [lia|]. split; [peq|lia].
    + destruct (IH n (10 * d) (e + 1)) as (k & Hk & E & B); [lia|lia| |].
      * rewrite Nat2Z.inj_succ in H2. replace (1 + Z.succ (Z.of_nat f)) with (1 + (1 + Z.of_nat f)) in H2 by lia.
        rewrite Z.pow_add_r in H2 by lia. lia.
      * exists (k + 1). split; [lia|]. rewrite E. rewrite Z.pow_add_r by lia. change (10 ^ 1) with 10. split; [peq|lia].
Qed.

Lemma scale_up_spec fuel : forall n d e, 0 < n -> 0 < d -> n < 10 * d -> d <= n * 10 ^ Z.of_nat fuel ->
  exists k, 0 <= k /\ scale_up fuel n d e = (n * 10 ^ k, d, e - k) /\ d <= n * 10 ^ k < 10 * d.
Proof.
  induction fuel as [|f IH]; intros n d e Hn Hd H1 H2; cbn [scale_up].
  - exists 0. cbn [fst snd] in *. split; [lia|]. split; [peq|lia].
  - destruct (Z.leb_spec d n).
    + exists 0. rewrite Z.pow_0_r. split; [lia|]. split; [peq|lia].
    + destruct (IH (10 * n) d (e - 1)) as (k & Hk & E & B); [lia|lia|lia| |].
      * rewrite Nat2Z.inj_succ, Z.pow_succ_r in H2 by lia. lia.
      * exists (k + 1). split; [lia|]. rewrite E. rewrite Z.pow_add_r by lia. change (10 ^ 1) with 10. split; [peq|lia].
Qed.

Lemma pow_2_10 k : 0 <= k -> 2 ^ k <= 10 ^ k.
Proof. intros. apply Z.pow_le_mono_l. lia. Qed.

Lemma scaled_spec n d : 0 < n -> 0 < d ->
  exists a b e, scaled n d = (a, b, e) /\ 0 < b /\ b <= a < 10 * b /\
  (forall K, 0 <= K -> 0 <= e + K -> a * (d * 10 ^ (e + K)) = n * 10 ^ K * b).
Proof.
  intros Hn Hd. unfold scaled. destruct (Z.leb_spec d n).
  - destruct (scale_down_spec (S (Z.to_nat (Z.log2 n))) n d 0) as (k & Hk & E & B); [lia|lia| |].
    + pose proof (log2_fuel n ltac:(lia)) as L. set (f := S (Z.to_nat (Z.log2 n))) in *.
      pose proof (pow_2_10 (Z.of_nat f) ltac:(lia)). rewrite Z.pow_add_r by lia. change (10 ^ 1) with 10.
      assert (P : 1 * 10 ^ Z.of_nat f <= d * 10 ^ Z.of_nat f) by (apply Z.mul_le_mono_nonneg_r; lia). lia.
    + rewrite E. exists n, (d * 10 ^ k), (0 + k). split; [reflexivity|].
      assert (0 < 10 ^ k) by (apply Z.pow_pos_nonneg; lia). split; [nia|]. split; [lia|].
      intros K HK1 HK2. rewrite Z.add_0_l, Z.pow_add_r by lia. ring.
  - destruct (scale_up_spec (S (Z.to_nat (Z.log2 d))) n d 0) as (k & Hk & E & B); [lia|lia|lia| |].
    + pose proof (log2_fuel d ltac:(lia)) as L. set (f := S (Z.to_nat (Z.log2 d))) in *.
      pose proof (pow_2_10 (Z.of_nat f) ltac:(lia)).
      assert (P : 1 * 10 ^ Z.of_nat f <= n * 10 ^ Z.of_nat f) by (apply Z.mul_le_mono_nonneg_r; lia). lia.
    + rewrite E. exists (n * 10 ^ k), d, (0 - k). split; [reflexivity|]. split; [lia|]. split; [lia|].
      intros K HK1 HK2. assert (Ep : 10 ^ K = 10 ^ (0 - k + K) * 10 ^ k) by (rewrite <- Z.pow_add_r by lia; f_equal; lia). rewrite Ep. ring.
Qed.

(** ** The twelve digits *)

(** m, with unit 10^(e-11), is n/d to twelve digits. *)
Definition twelve (n d m e : Z) : Prop :=
  10 ^ 11 <= m < 10 ^ 12 /\
  forall K, 0 <= K -> 0 <= e - 11 + K ->
  let X := n * 10 ^ K in let U := d * 10 ^ (e - 11 + K) in
  2 * Z.abs (X - m * U) <= U /\ (2 * 10 ^ 12 - 1) * U <= 20 * X /\ 2 * X < (2 * 10 ^ 12 - 1) * U.

Lemma digits12_spec n d : 0 < n -> 0 < d -> exists m e, digits12 n d = (m, e) /\ twelve n d m e.
Proof.
  intros Hn Hd. unfold digits12. destruct (scaled_spec n d Hn Hd) as (a & b & e & -> & Hb & Hab & HK).
  destruct (near_int_spec (a * 10 ^ 11) b Hb) as [N1 N2]. set (m := near_int (a * 10 ^ 11) b) in *.
  assert (Hm : 10 ^ 11 <= m <= 10 ^ 12) by nia.
  assert (HU : forall c, 0 <= c -> 0 < d * 10 ^ c) by (intros c Hc; apply Z.mul_pos_pos; [lia|apply Z.pow_pos_nonneg; lia]).
  destruct (Z.eqb_spec m (10 ^ 12)) as [Em|Em].
  - exists (10 ^ 11), (e + 1). split; [reflexivity|]. split; [lia|]. intros K HK1 HK2 X U.
    assert (HK3 := HK (K + 0)). rewrite Z.add_0_r in HK3.
    destruct (Z_le_gt_dec 0 (e - 11 + K)) as [G|G].
    + specialize (HK3 HK1 ltac:(lia)). set (W := d * 10 ^ (e - 11 + K)).
      assert (EU : U = 10 * W). { unfold U, W. replace (e + 1 - 11 + K) with ((e - 11 + K) + 1) by lia. rewrite Z.pow_add_r by lia. change (10 ^ 1) with 10. ring. }
      assert (EW : d * 10 ^ (e + K) = W * 10 ^ 11). { unfold W. replace (e + K) with ((e - 11 + K) + 11) by lia. rewrite Z.pow_add_r by lia. ring. }
      rewrite EW in HK3. fold X in HK3. assert (HW : 0 < W) by (apply HU; lia).
      rewrite Em in N1.
      (* a 10^11 / b = X / W *)
      assert (E : (a * 10 ^ 11) * W = X * b) by lia.
      assert (L : (2 * 10 ^ 12 - 1) * W <= 2 * X).
      { apply (Z.mul_le_mono_pos_r _ _ b); [lia|]. replace (2 * X * b) with (2 * (X * b)) by ring. rewrite <- E. nia. }
      assert (L2 : X < 10 ^ 12 * W). { apply (Z.mul_lt_mono_pos_r b); [lia|]. rewrite <- E. nia. }
      rewrite EU. repeat split; lia.
    + (* one more power of ten than needed *)
      assert (Eq : e + 1 - 11 + K = 0) by lia. unfold U. rewrite Eq. rewrite Z.pow_0_r, Z.mul_1_r.
      specialize (HK (K + 1) ltac:(lia) ltac:(lia)). replace (e + (K + 1)) with 11 in HK by lia.
      rewrite (Z.pow_add_r 10 K 1) in HK by lia. change (10 ^ 1) with 10 in HK. unfold X.
      rewrite Em in N1. set (Y := n * 10 ^ K) in *.
      assert (E : (a * 10 ^ 11) * d = 10 * Y * b) by lia.
      assert (L : (2 * 10 ^ 12 - 1) * d <= 20 * Y).
      { apply (Z.mul_le_mono_pos_r _ _ b); [lia|]. replace (20 * Y * b) with (2 * (10 * Y * b)) by ring. rewrite <- E. nia. }
      assert (L2 : 10 * Y < 10 ^ 12 * d). { apply (Z.mul_lt_mono_pos_r b); [lia|]. rewrite <- E. nia. }
      repeat split; lia.
  - exists m, e. split; [reflexivity|]. split; [lia|]. intros K HK1 HK2 X U.
    specialize (HK K HK1 ltac:(lia)).
    assert (EW : d * 10 ^ (e + K) = U * 10 ^ 11). { unfold U. replace (e + K) with ((e - 11 + K) + 11) by lia. rewrite Z.pow_add_r by lia. ring. }
    rewrite EW in HK. fold X in HK. assert (HW : 0 < U) by (apply HU; lia).
    assert (E : (a * 10 ^ 11) * U = X * b) by lia.
    assert (A : 2 * Z.abs (X - m * U) <= U).
    { apply (Z.mul_le_mono_pos_r _ _ b); [lia|].
      replace (2 * Z.abs (X - m * U) * b) with (2 * Z.abs (a * 10 ^ 11 - m * b) * U); [nia|].
      rewrite <- (Z.abs_eq b) at 2 by lia. rewrite <- (Z.abs_eq U) at 1 by lia.
      rewrite <- !Z.mul_assoc, <- !Z.abs_mul. f_equal. f_equal. lia. }
    assert (A2 : 2 * Z.abs (X - m * U) = U -> Z.even m = true).
    { intros Q. apply N2. apply (Z.mul_cancel_r _ _ U); [lia|].
      replace (2 * Z.abs (a * 10 ^ 11 - m * b) * U) with (2 * Z.abs (X - m * U) * b); [rewrite Q; ring|].
      rewrite <- (Z.abs_eq b) at 1 by lia. rewrite <- (Z.abs_eq U) at 2 by lia.
      rewrite <- !Z.mul_assoc, <- !Z.abs_mul. f_equal. f_equal. lia. }
    assert (L : 10 ^ 11 * U <= X). { apply (Z.mul_le_mono_pos_r _ _ b); [lia|]. rewrite <- E. nia. }
    repeat split; [exact A|nia|].
    assert (m <= 10 ^ 12 - 1) by lia. destruct (Z.eq_dec m (10 ^ 12 - 1)) as [Q|Q]; [|nia].
    destruct (Z_lt_ge_dec (2 * X) ((2 * 10 ^ 12 - 1) * U)) as [|G]; [assumption|exfalso].
    rewrite Q in A, A2. assert (V : 2 * Z.abs (X - (10 ^ 12 - 1) * U) = U) by lia. apply A2 in V. discriminate.
Qed.
