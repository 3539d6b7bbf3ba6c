(** Error bounds for the floating point steps of time parsing. *)

From Coq Require Import List ZArith String Ascii Bool Lia.
From Verif Require Import Digits TimeModel TimeSpec TimeProofs.
Import ListNotations.
Open Scope Z_scope.

(** Rounding a ratio to 53 bits moves it by at most one part in 2^53. *)
Lemma rnd_error : forall n d, 0 <= n -> 0 < d ->
  0 <= fst (rnd n d) /\ 0 < snd (rnd n d) /\
  Z.abs (fst (rnd n d) * d - n * snd (rnd n d)) * 2 ^ 53 <= n * snd (rnd n d).
Proof.
  intros n d Hn Hd. unfold rnd. destruct (Z.eqb_spec n 0) as [->|Hnz].
  { cbn [fst snd]. change (0 * d - 0 * 1) with 0. cbn. lia. }
  assert (Hln := Z.log2_spec n ltac:(lia)).
  assert (Hld := Z.log2_spec d Hd).
  assert (Hn0 := Z.log2_nonneg n). assert (Hd0 := Z.log2_nonneg d).
  remember (Z.log2 n) as ln. remember (Z.log2 d) as ld.
  set (scale := fun e => if 0 <=? e then (n, d * 2 ^ e) else (n * 2 ^ (- e), d)).
  set (e0 := ln - ld - 52).
  assert (Hlow : let '(a, b) := scale e0 in 0 < a /\ 0 < b /\ 2 ^ 51 * b < a).
  { unfold scale. destruct (Z.leb_spec 0 e0) as [He|He].
    - split; [lia|]. split; [assert (0 < 2 ^ e0) by (apply Z.pow_pos_nonneg; lia); nia|].
      assert (Hp : 2 ^ ln = 2 ^ 51 * 2 ^ (Z.succ ld) * 2 ^ e0).
      { rewrite <- !Z.pow_add_r by lia. f_equal. unfold e0. lia. }
      assert (0 < 2 ^ e0) by (apply Z.pow_pos_nonneg; lia). nia.
    - assert (0 < 2 ^ (- e0)) by (apply Z.pow_pos_nonneg; lia).
      split; [nia|]. split; [lia|].
      assert (Hp : 2 ^ ln * 2 ^ (- e0) = 2 ^ 51 * 2 ^ (Z.succ ld)).
      { rewrite <- !Z.pow_add_r by lia. f_equal. unfold e0. lia. }
      nia. }
  fold (scale e0). destruct (scale e0) as [a0 b0] eqn:Es0.
  destruct Hlow as (Ha0 & Hb0 & Hlow).
  cbv beta iota zeta.
  set (e := if a0 / b0 <? 2 ^ 52 then e0 - 1 else e0).
  fold (scale e).
  assert (Hsc : let '(a, b) := scale e in 0 < a /\ 0 < b /\ 2 ^ 52 * b <= a).
  { unfold e. destruct (Z.ltb_spec (a0 / b0) (2 ^ 52)) as [Hlt|Hge].
    - unfold scale in *.
      destruct (Z.leb_spec 0 e0) as [He|He]; inversion Es0; subst a0 b0; clear Es0.
      + destruct (Z.leb_spec 0 (e0 - 1)) as [He1|He1].
        * assert (Hp : 2 ^ e0 = 2 * 2 ^ (e0 - 1)).
          { rewrite <- Z.pow_succ_r by lia. f_equal. lia. }
          assert (0 < 2 ^ (e0 - 1)) by (apply Z.pow_pos_nonneg; lia).
          split; [lia|]. split; [nia|].
          change (2 ^ 52) with (2 * 2 ^ 51). nia.
        * assert (E : e0 = 0) by lia. rewrite E in *.
          change (- (0 - 1)) with 1. change (2 ^ 1) with 2. change (2 ^ 0) with 1 in *.
          change (2 ^ 52) with (2 * 2 ^ 51). lia.
      + destruct (Z.leb_spec 0 (e0 - 1)) as [He1|He1]; [lia|].
        assert (Hp : 2 ^ (- (e0 - 1)) = 2 * 2 ^ (- e0)).
        { rewrite <- Z.pow_succ_r by lia. f_equal. lia. }
        rewrite Hp. change (2 ^ 52) with (2 * 2 ^ 51). nia.
    - rewrite Es0. split; [auto|]. split; [auto|].
      assert (Hm := Z.mul_div_le a0 b0 Hb0). nia. }
  destruct (scale e) as [a b] eqn:Es. destruct Hsc as (Ha & Hb & Hge).
  cbv beta iota zeta.
  set (q' := if (b <? 2 * (a mod b)) || (2 * (a mod b) =? b) && Z.odd (a / b)
             then a / b + 1 else a / b).
  assert (Hdm := Z.div_mod a b ltac:(lia)).
  assert (Hmb := Z.mod_pos_bound a b Hb).
  assert (Hq0 : 0 <= a / b) by (apply Z.div_pos; lia).
  assert (Hq : 0 <= q' /\ 2 * Z.abs (q' * b - a) <= b).
  { unfold q'. destruct (Z.ltb_spec b (2 * (a mod b))) as [H1|H1]; cbn [orb].
    - split; [lia|]. rewrite Z.abs_eq; lia.
    - destruct (Z.eqb_spec (2 * (a mod b)) b) as [H2|H2]; cbn [andb].
      + destruct (Z.odd (a / b)).
        * split; [lia|]. rewrite Z.abs_eq; lia.
        * split; [lia|]. rewrite Z.abs_neq; lia.
      + split; [lia|]. rewrite Z.abs_neq; lia. }
  destruct Hq as [Hq1 Hq2]. clearbody q'.
  assert (Herr : Z.abs (q' * b - a) * 2 ^ 53 <= a).
  { change (2 ^ 53) with (2 * 2 ^ 52). lia. }
  unfold scale in Es. destruct (Z.leb_spec 0 e) as [He|He]; inversion Es; subst a b; cbn [fst snd].
  - assert (0 < 2 ^ e) by (apply Z.pow_pos_nonneg; lia).
    split; [nia|]. split; [lia|]. rewrite Z.mul_1_r.
    replace (q' * 2 ^ e * d) with (q' * (d * 2 ^ e)) by lia. exact Herr.
  - assert (0 < 2 ^ (- e)) by (apply Z.pow_pos_nonneg; lia).
    split; [auto|]. split; [auto|]. exact Herr.
Qed.

(** round_to_long is within 9/16 of its argument in [0,1). *)
Lemma round_us_near : forall f c, 0 < c -> 0 <= f < c ->
  16 * Z.abs (round_us f c * c - f) <= 9 * c.
Proof.
  intros f c Hc Hf. unfold round_us.
  destruct (rnd_error (2 * f + c) (2 * c)) as (Hg & Hk & He); [lia|lia|].
  destruct (rnd (2 * f + c) (2 * c)) as [g k]. cbn [fst snd] in *.
  assert (Hdm := Z.div_mod g k ltac:(lia)). assert (Hmb := Z.mod_pos_bound g k Hk).
  remember (g / k) as R. remember (g mod k) as r.
  remember (Z.abs (g * (2 * c) - (2 * f + c) * k)) as E.
  assert (HE : 0 <= E) by (subst E; apply Z.abs_nonneg).
  assert (H16 : 16 * E <= c * k).
  { assert (48 * E <= E * 2 ^ 53) by lia.
    assert ((2 * f + c) * k <= 3 * (c * k)) by nia. lia. }
  assert (Hup : g * (2 * c) <= (2 * f + c) * k + E) by lia.
  assert (Hlo : (2 * f + c) * k - E <= g * (2 * c)) by lia.
  clear HeqE He.
  assert (H1 : R * k * (2 * c) <= g * (2 * c)) by nia.
  assert (H2 : g * (2 * c) <= (R + 1) * k * (2 * c)) by nia.
  destruct (Z.abs_spec (R * c - f)) as [[_ ->]|[_ ->]].
  - assert (32 * (R * c - f) * k <= 17 * c * k) by lia.
    assert (32 * (R * c - f) <= 17 * c) by nia. lia.
  - assert (32 * (f - R * c) * k <= 17 * c * k) by lia.
    assert (32 * (f - R * c) <= 17 * c) by nia. lia.
Qed.

(** timedelta(unit=x) is within 5/8 microsecond of the double x. *)
Lemma float_us_near : forall a b F, 0 <= a -> 0 < b -> 0 < F -> 64 * F <= 2 ^ 53 ->
  8 * Z.abs (float_us (a, b) F * b - a * F) <= 5 * b.
Proof.
  intros a b F Ha Hb HF HF2. unfold float_us, modf. cbn [fst snd].
  assert (Hdm := Z.div_mod a b ltac:(lia)). assert (Hmb := Z.mod_pos_bound a b Hb).
  remember (a / b) as ip. remember (a mod b) as fr.
  destruct (Z.eqb_spec fr 0) as [E|E].
  - replace (ip * F * b - a * F) with 0 by (rewrite Hdm, E; ring). cbn [Z.abs]. lia.
  - destruct (rnd_error (F * fr) b) as (Hy & Hc & He); [nia|auto|].
    destruct (rnd (F * fr) b) as [y c]. cbn [fst snd] in *.
    assert (Hd2 := Z.div_mod y c ltac:(lia)). assert (Hm2 := Z.mod_pos_bound y c Hc).
    assert (Hr := round_us_near (y mod c) c Hc Hm2).
    remember (round_us (y mod c) c) as R2. remember (y / c) as ip2. remember (y mod c) as fr2.
    remember (Z.abs (y * b - F * fr * c)) as D.
    assert (H64 : 64 * D <= b * c).
    { assert (F * fr * c <= F * (b * c)).
      { rewrite <- Z.mul_assoc. apply Z.mul_le_mono_nonneg_l; [lia|].
        apply Z.mul_le_mono_nonneg_r; lia. }
      assert (HD : 0 <= D) by (subst D; apply Z.abs_nonneg).
      assert (H1 : 64 * F * D <= 2 ^ 53 * D) by (apply Z.mul_le_mono_nonneg_r; lia).
      assert (H2 : F * (64 * D) <= F * (b * c)) by lia.
      apply Z.mul_le_mono_pos_l in H2; auto. }
    assert (Hid : ((ip * F + ip2 + R2) * b - a * F) * c = (y * b - F * fr * c) + (R2 * c - fr2) * b).
    { rewrite Hdm, Hd2. ring. }
    remember (ip * F + ip2 + R2) as T.
    assert (Hfin : 64 * (Z.abs (T * b - a * F) * c) <= 37 * b * c).
    { rewrite <- (Z.abs_eq c) at 1 by lia. rewrite <- Z.abs_mul, Hid.
      assert (Htri := Z.abs_triangle (y * b - F * fr * c) ((R2 * c - fr2) * b)).
      rewrite Z.abs_mul, (Z.abs_eq b) in Htri by lia.
      rewrite <- HeqD in Htri. nia. }
    assert (64 * Z.abs (T * b - a * F) <= 37 * b) by nia. lia.
Qed.

(** If the double is within 1/8 microsecond of a whole number of microseconds
    the result is that number. *)
Lemma float_us_exact : forall a b F N, 0 <= a -> 0 < b -> 0 < F -> 64 * F <= 2 ^ 53 ->
  8 * Z.abs (a * F - N * b) <= b -> float_us (a, b) F = N.
Proof.
  intros a b F N Ha Hb HF HF2 HN.
  assert (H := float_us_near a b F Ha Hb HF HF2).
  remember (float_us (a, b) F) as R.
  assert (Htri := Z.abs_triangle (R * b - a * F) (a * F - N * b)).
  replace (R * b - a * F + (a * F - N * b)) with ((R - N) * b) in Htri by ring.
  rewrite Z.abs_mul, (Z.abs_eq b) in Htri by lia.
  assert (8 * (Z.abs (R - N) * b) <= 6 * b) by lia.
  assert (Z.abs (R - N) < 1) by nia. lia.
Qed.

(** The exact value of a decimal in microseconds is N / 10^(length of the fraction). *)
Lemma pow10_pos : forall k, 0 < 10 ^ Z.of_nat k.
Proof. intros. apply Z.pow_pos_nonneg; lia. Qed.

Lemma horner_nonneg : forall s v, horner 0 s = Some v -> 0 <= v.
Proof. intros s v H. apply horner_value in H. lia. Qed.

Lemma timecount_float : forall d f v F N, horner 0 (d ++ f) = Some v -> 0 < F ->
  64 * F <= 2 ^ 53 -> v * F = N * 10 ^ Z.of_nat (String.length f) -> 8 * N <= 2 ^ 53 ->
  float_us (float_of d f) F = N.
Proof.
  intros d f v F N Hv HF HF2 HN Hb. unfold float_of. rewrite Hv.
  assert (Hp := pow10_pos (String.length f)).
  assert (Hv0 := horner_nonneg _ _ Hv).
  remember (10 ^ Z.of_nat (String.length f)) as p.
  destruct (rnd_error v p Hv0 Hp) as (Ha & Hbp & He).
  destruct (rnd v p) as [a b]. cbn [fst snd] in *.
  apply float_us_exact; auto.
  (* |a F - N b| p = |a p - v b| F *)
  assert (Hid : Z.abs (a * F - N * b) * p = Z.abs (a * p - v * b) * F).
  { rewrite <- (Z.abs_eq p) at 1 by lia. rewrite <- (Z.abs_eq F) at 2 by lia.
    rewrite <- !Z.abs_mul. f_equal.
    replace ((a * F - N * b) * p) with (a * p * F - (N * p) * b) by ring.
    rewrite <- HN. ring. }
  remember (Z.abs (a * p - v * b)) as D.
  assert (HD : 0 <= D) by (subst D; apply Z.abs_nonneg).
  assert (HN0 : 0 <= N) by nia.
  assert (H1 : D * F * 2 ^ 53 <= v * F * b) by nia.
  rewrite HN in H1.
  assert (H2 : 8 * N * (D * F) <= N * p * b).
  { apply Z.le_trans with (D * F * 2 ^ 53); [|lia].
    rewrite (Z.mul_comm (8 * N)). apply Z.mul_le_mono_nonneg_l; [nia|lia]. }
  destruct (Z.eq_dec N 0) as [E0|E0].
  - assert (D * F = 0) by nia. rewrite H in Hid.
    assert (Z.abs (a * F - N * b) = 0) by nia. lia.
  - assert (H3 : 8 * (D * F) <= p * b) by nia.
    rewrite <- Hid in H3. nia.
Qed.

Lemma clock_float_near : forall f v, horner 0 f = Some v ->
  4 * Z.abs (float_us (frac_ms f) 1000 * 10 ^ Z.of_nat (String.length f) - v * 1000000)
  <= 3 * 10 ^ Z.of_nat (String.length f).
Proof.
  intros f v Hv. unfold frac_ms. destruct f as [|ch f'].
  { cbn in Hv. inversion Hv; subst. cbn. lia. }
  remember (String ch f') as f. unfold float_of.
  assert (E : horner 0 ("0" ++ f) = Some v) by (cbn [append horner]; exact Hv). rewrite E.
  assert (Hp := pow10_pos (String.length f)).
  assert (Hv0 := horner_nonneg _ _ Hv).
  assert (Hvp : v < 10 ^ Z.of_nat (String.length f)) by (apply horner_value in Hv; lia).
  remember (10 ^ Z.of_nat (String.length f)) as p. clear Heqp E Heqf Hv.
  destruct (rnd_error v p Hv0 Hp) as (Ha & Hb & He).
  destruct (rnd v p) as [a b]. cbn [fst snd] in *.
  destruct (rnd_error (1000 * a) b) as (Hg & Hk & He2); [lia|auto|].
  destruct (rnd (1000 * a) b) as [g k]. cbn [fst snd] in *.
  assert (Hnear := float_us_near g k 1000 Hg Hk ltac:(lia) ltac:(lia)).
  remember (float_us (g, k) 1000) as R. clear HeqR.
  remember (Z.abs (a * p - v * b)) as D1. remember (Z.abs (g * b - 1000 * a * k)) as D2.
  assert (HD1 : 0 <= D1) by (subst; apply Z.abs_nonneg).
  assert (HD2 : 0 <= D2) by (subst; apply Z.abs_nonneg).
  assert (Htri : Z.abs ((g * 1000 * p - v * 1000000 * k) * b) <= D2 * 1000 * p + D1 * 1000000 * k).
  { replace ((g * 1000 * p - v * 1000000 * k) * b)
      with ((g * b - 1000 * a * k) * (1000 * p) + (a * p - v * b) * (1000000 * k)) by ring.
    eapply Z.le_trans; [apply Z.abs_triangle|].
    rewrite !Z.abs_mul, <- HeqD1, <- HeqD2, (Z.abs_eq p), (Z.abs_eq k) by lia.
    cbn [Z.abs]. lia. }
  rewrite Z.abs_mul, (Z.abs_eq b) in Htri by lia.
  assert (Hvb : v * b < p * b) by nia.
  assert (Hap : a * p <= 2 * (b * p)).
  { assert (a * p <= v * b + D1) by lia.
    assert (D1 <= D1 * 2 ^ 53) by lia. lia. }
  assert (Hab : a <= 2 * b) by nia.
  assert (Hd2 : D2 * 2 ^ 53 <= 2000 * (b * k)) by nia.
  assert (Hd1 : D1 * 2 ^ 53 <= b * p) by lia.
  assert (Hx2 : D2 * 1000 * p * 2 ^ 53 <= 2000000 * (b * k) * p) by nia.
  assert (Hx1 : D1 * 1000000 * k * 2 ^ 53 <= 1000000 * (b * k) * p) by nia.
  remember (Z.abs (g * 1000 * p - v * 1000000 * k)) as M.
  assert (Hs : 2 ^ 53 * (M * b) <= 3000000 * (b * (k * p))) by lia.
  assert (HM : 0 <= M) by (subst; apply Z.abs_nonneg).
  assert (Hs2 : b * (8 * M) <= b * (k * p)).
  { assert (24000000 * (M * b) <= 2 ^ 53 * (M * b)) by (apply Z.mul_le_mono_nonneg_r; nia). lia. }
  apply Z.mul_le_mono_pos_l in Hs2; auto.
  assert (Hfin : 8 * (Z.abs (R * p - v * 1000000) * k) <= 6 * p * k).
  { rewrite <- (Z.abs_eq k) at 1 by lia. rewrite <- Z.abs_mul.
    replace ((R * p - v * 1000000) * k)
      with ((R * k - g * 1000) * p + (g * 1000 * p - v * 1000000 * k)) by ring.
    assert (Ht := Z.abs_triangle ((R * k - g * 1000) * p) (g * 1000 * p - v * 1000000 * k)).
    rewrite Z.abs_mul, (Z.abs_eq p), <- HeqM in Ht by lia.
    assert (Hn2 : 8 * Z.abs (R * k - g * 1000) * p <= 5 * k * p)
      by (apply Z.mul_le_mono_nonneg_r; lia). lia. }
  assert (Hf2 : 8 * Z.abs (R * p - v * 1000000) * k <= 6 * p * k) by lia.
  apply Z.mul_le_mono_pos_r in Hf2; lia.
Qed.

Lemma clock_float : forall f v N, horner 0 f = Some v ->
  v * 1000000 = N * 10 ^ Z.of_nat (String.length f) ->
  float_us (frac_ms f) 1000 = N.
Proof.
  intros f v N Hv HN. assert (H := clock_float_near f v Hv). rewrite HN in H.
  assert (Hp := pow10_pos (String.length f)).
  remember (10 ^ Z.of_nat (String.length f)) as p.
  remember (float_us (frac_ms f) 1000) as R.
  replace (R * p - N * p) with ((R - N) * p) in H by ring.
  rewrite Z.abs_mul, (Z.abs_eq p) in H by lia.
  assert (Z.abs (R - N) < 1) by nia. lia.
Qed.

Lemma float_us_nonneg : forall f v, horner 0 f = Some v -> 0 <= float_us (frac_ms f) 1000.
Proof.
  intros f v Hv. assert (H := clock_float_near f v Hv). assert (H0 := horner_nonneg f v Hv).
  assert (Hp := pow10_pos (String.length f)).
  remember (10 ^ Z.of_nat (String.length f)) as p.
  remember (float_us (frac_ms f) 1000) as R. nia.
Qed.
