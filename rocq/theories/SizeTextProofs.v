(** Facts on the text of numbers. *)

From Coq Require Import List ZArith String Ascii Bool Lia.
From Verif Require Import Digits TimeModel TimeSpec TimeProofs TimeFloat SizeModel SizeSpec SizeProofs SizeNumProofs.
Import ListNotations.
Open Scope Z_scope.

Lemma pow10_pos k : 0 <= k -> 0 < 10 ^ k.
Proof. intros. apply Z.pow_pos_nonneg; lia. Qed.

Lemma pow10_split a b : 0 <= a -> 0 <= b -> 10 ^ (a + b) = 10 ^ a * 10 ^ b.
Proof. intros. apply Z.pow_add_r; lia. Qed.

(** A number this close to twelve digits has these digits. *)
Lemma twelve_close n d m e K : 0 < n -> 0 < d -> 10 ^ 11 <= m < 10 ^ 12 -> 0 <= K -> 0 <= e - 11 + K ->
  Z.abs (n * 10 ^ K - m * (d * 10 ^ (e - 11 + K))) * 2 ^ 53 <= m * (d * 10 ^ (e - 11 + K)) ->
  digits12 n d = (m, e).
Proof.
  intros Hn Hd Hm HK HeK Hc. destruct (digits12_spec n d Hn Hd) as (m' & e' & -> & Hm' & T).
  set (L := Z.abs e' + 11). assert (HL : 0 <= L) by lia.
  specialize (T (K + L) ltac:(lia) ltac:(lia)). cbv zeta in T.
  assert (Hc2 : Z.abs (n * 10 ^ (K + L) - m * (d * 10 ^ (e - 11 + (K + L)))) * 2 ^ 53 <= m * (d * 10 ^ (e - 11 + (K + L)))).
  { replace (e - 11 + (K + L)) with ((e - 11 + K) + L) by lia. rewrite !pow10_split by lia.
    pose proof (pow10_pos L HL) as P. set (p := 10 ^ L) in *. set (u := 10 ^ (e - 11 + K)) in *. set (y := 10 ^ K) in *.
    replace (n * (y * p) - m * (d * (u * p))) with ((n * y - m * (d * u)) * p) by ring.
    rewrite Z.abs_mul, (Z.abs_eq p) by lia. replace (m * (d * (u * p))) with (m * (d * u) * p) by ring.
    replace (Z.abs (n * y - m * (d * u)) * p * 2 ^ 53) with (Z.abs (n * y - m * (d * u)) * 2 ^ 53 * p) by ring.
    apply Z.mul_le_mono_nonneg_r; lia. }
  set (X := n * 10 ^ (K + L)) in *.
  assert (HU : forall c, 0 <= c -> 0 < d * 10 ^ c) by (intros c Hcc; apply Z.mul_pos_pos; [lia|apply pow10_pos; lia]).
  assert (U1 := HU (e - 11 + (K + L)) ltac:(lia)). assert (U2 := HU (e' - 11 + (K + L)) ltac:(lia)).
  set (U := d * 10 ^ (e - 11 + (K + L))) in *. set (U' := d * 10 ^ (e' - 11 + (K + L))) in *.
  assert (MU : 10 ^ 11 * U <= m * U) by (apply Z.mul_le_mono_nonneg_r; lia).
  assert (MU2 : m * U <= (10 ^ 12 - 1) * U) by (apply Z.mul_le_mono_nonneg_r; lia).
  assert (Step : forall a b, 0 <= a - 11 + (K + L) -> a < b -> 10 * (d * 10 ^ (a - 11 + (K + L))) <= d * 10 ^ (b - 11 + (K + L))).
  { intros a b Ha Hab. replace (b - 11 + (K + L)) with ((a - 11 + (K + L)) + (1 + (b - a - 1))) by lia.
    rewrite (pow10_split (a - 11 + (K + L))), (pow10_split 1) by lia. change (10 ^ 1) with 10.
    assert (Q := HU (a - 11 + (K + L)) Ha). set (w := d * 10 ^ (a - 11 + (K + L))) in *.
    assert (P := pow10_pos (b - a - 1) ltac:(lia)).
    replace (d * (10 ^ (a - 11 + (K + L)) * (10 * 10 ^ (b - a - 1)))) with (10 * w * 10 ^ (b - a - 1)) by (unfold w; ring).
    assert (10 * w * 1 <= 10 * w * 10 ^ (b - a - 1)) by (apply Z.mul_le_mono_nonneg_l; lia). lia. }
  destruct T as (T1 & T2 & T3).
  destruct (Z.lt_trichotomy e e') as [G|[G|G]].
  - exfalso. assert (S := Step e e' ltac:(lia) G). fold U U' in S. lia.
  - subst e'. fold U in U'. subst U'. fold U in T1. f_equal.
    assert (A : Z.abs (m' * U - m * U) < U) by lia.
    replace (m' * U - m * U) with ((m' - m) * U) in A by ring. rewrite Z.abs_mul, (Z.abs_eq U) in A by lia.
    assert (Z.abs (m' - m) < 1). { apply (Z.mul_lt_mono_pos_r U); lia. } lia.
  - exfalso. assert (S := Step e' e ltac:(lia) G). fold U U' in S. lia.
Qed.

Lemma showable_iff n d m e : 0 < n -> 0 < d -> twelve n d m e -> (showable (n, d) <-> -4 <= e < 12).
Proof.
  intros Hn Hd [Hm T]. set (L := Z.abs e). specialize (T (27 + L) ltac:(lia) ltac:(lia)). cbv zeta in T. destruct T as (_ & T2 & T3).
  assert (P := pow10_pos (11 + L) ltac:(lia)). assert (P0 := pow10_pos L ltac:(lia)).
  assert (EX : n * 10 ^ (27 + L) = 10 ^ 16 * (n * 10 ^ (11 + L))).
  { replace (27 + L) with (16 + (11 + L)) by lia. rewrite (pow10_split 16) by lia. ring. }
  assert (Mono : forall a b, 0 <= a <= b -> d * 10 ^ a <= d * 10 ^ b).
  { intros a b Hab. apply Z.mul_le_mono_nonneg_l; [lia|]. apply Z.pow_le_mono_r; lia. }
  assert (E12 : d * 10 ^ (12 + L) = 10 * (d * 10 ^ (11 + L))).
  { replace (12 + L) with (1 + (11 + L)) by lia. rewrite (pow10_split 1) by lia. ring. }
  assert (E27 : d * 10 ^ (27 + L) = 10 ^ 16 * (d * 10 ^ (11 + L))).
  { replace (27 + L) with (16 + (11 + L)) by lia. rewrite (pow10_split 16) by lia. ring. }
  assert (E28 : d * 10 ^ (28 + L) = 10 ^ 17 * (d * 10 ^ (11 + L))).
  { replace (28 + L) with (17 + (11 + L)) by lia. rewrite (pow10_split 17) by lia. ring. }
  set (U := d * 10 ^ (e - 11 + (27 + L))) in *. rewrite EX in *.
  set (N := n * 10 ^ (11 + L)) in *. set (D := d * 10 ^ (11 + L)) in *.
  assert (S : showable (n, d) <-> (2 * 10 ^ 12 - 1) * D <= 2 * 10 ^ 16 * N /\ 2 * N < (2 * 10 ^ 12 - 1) * D).
  { unfold showable, N, D. cbn [fst snd]. set (p := 10 ^ (11 + L)) in *.
    replace ((2 * 10 ^ 12 - 1) * (d * p)) with ((2 * 10 ^ 12 - 1) * d * p) by ring.
    replace (2 * 10 ^ 16 * (n * p)) with (2 * 10 ^ 16 * n * p) by ring. replace (2 * (n * p)) with (2 * n * p) by ring.
    rewrite <- (Z.mul_le_mono_pos_r _ _ p) by lia. rewrite <- (Z.mul_lt_mono_pos_r p) by lia. split; [intros [X|X]; [lia|exact X]|auto]. }
  rewrite S. split.
  - intros [S1 S2]. split.
    + destruct (Z_le_gt_dec (-4) e) as [|G]; [assumption|exfalso].
      assert (Q := Mono (e - 11 + (27 + L)) (11 + L) ltac:(lia)). fold U D in Q. lia.
    + destruct (Z_lt_ge_dec e 12) as [|G]; [assumption|exfalso].
      assert (Q := Mono (28 + L) (e - 11 + (27 + L)) ltac:(lia)). rewrite E28 in Q. fold U in Q. lia.
  - intros [S1 S2]. split.
    + assert (Q := Mono (12 + L) (e - 11 + (27 + L)) ltac:(lia)). rewrite E12 in Q. fold U in Q. lia.
    + assert (Q := Mono (e - 11 + (27 + L)) (27 + L) ltac:(lia)). rewrite E27 in Q. fold U in Q. lia.
Qed.

(** ** Digits *)

Lemma trim_spec k : forall f, (1 <= k)%nat -> 0 <= f < 10 ^ Z.of_nat k ->
  let '(k', f') := trim k f in
  (1 <= k' <= k)%nat /\ 0 <= f' < 10 ^ Z.of_nat k' /\ f' * 10 ^ Z.of_nat (k - k') = f.
Proof.
  induction k as [|k IH]; intros f Hk Hf; [lia|]. cbn [trim]. destruct k as [|k'].
  - split; [lia|]. split; [assumption|]. cbn. lia.
  - destruct (Z.eqb_spec (f mod 10) 0) as [E|E].
    + assert (Ef : f = 10 * (f / 10)) by (pose proof (Z.div_mod f 10 ltac:(lia)); lia).
      specialize (IH (f / 10) ltac:(lia)). rewrite Nat2Z.inj_succ, Z.pow_succ_r in Hf by lia.
      specialize (IH ltac:(lia)). destruct (trim (S k') (f / 10)) as [k2 f2]. destruct IH as (I1 & I2 & I3).
      split; [lia|]. split; [assumption|]. replace (S (S k') - k2)%nat with (S (S k' - k2)) by lia.
      rewrite Nat2Z.inj_succ, Z.pow_succ_r by lia. lia.
    + split; [lia|]. split; [assumption|]. rewrite Nat.sub_diag. cbn. lia.
Qed.

Lemma show_aux_length f : forall n k, 0 <= n < 10 ^ Z.of_nat k -> (1 <= k)%nat ->
  (String.length (show_aux f n "") <= k)%nat.
Proof.
  induction f as [|f IH]; intros n k Hn Hk; cbn [show_aux String.length]; [lia|].
  destruct (Z.eqb_spec (n / 10) 0) as [E|E]; [cbn; lia|].
  rewrite show_aux_acc, length_app_s. cbn [String.length].
  destruct k as [|[|k]]; [lia| |].
  - exfalso. apply E. apply Z.div_small. cbn in Hn. lia.
  - assert (String.length (show_aux f (n / 10) "") <= S k)%nat; [|lia]. apply IH; [|lia].
    rewrite Nat2Z.inj_succ, Z.pow_succ_r in Hn by lia. split; [apply Z.div_pos; lia|]. apply Z.div_lt_upper_bound; lia.
Qed.

Lemma zeros_length k : String.length (zeros k) = k.
Proof. induction k; cbn; auto. Qed.

Lemma showpad_length_eq k n : 0 <= n < 10 ^ Z.of_nat k -> (1 <= k)%nat -> String.length (showpad k n) = k.
Proof.
  intros Hn Hk. unfold showpad. destruct (Z.ltb_spec n 0); [lia|]. rewrite length_app_s, zeros_length.
  pose proof (show_aux_length (S (Z.to_nat (Z.log2 n))) n k Hn Hk) as L. fold (show_nat n) in L. lia.
Qed.

Lemma horner_acc s : forall acc v, horner 0 s = Some v -> horner acc s = Some (acc * 10 ^ Z.of_nat (String.length s) + v).
Proof.
  assert (G : forall s acc c v, horner acc s = Some v -> horner (acc + c) s = Some (c * 10 ^ Z.of_nat (String.length s) + v)).
  { induction s0 as [|ch s0 IH]; intros acc c v H; cbn [horner String.length] in *.
    - injection H as <-. cbn. f_equal. lia.
    - destruct (dval ch) as [x|]; [|discriminate]. replace (10 * (acc + c) + x) with ((10 * acc + x) + 10 * c) by lia.
      rewrite (IH _ _ _ H). f_equal. rewrite Nat2Z.inj_succ, Z.pow_succ_r by lia. ring. }
  intros acc v H. rewrite <- (Z.add_0_l acc) at 1. apply G. assumption.
Qed.

(** The value of digits with a fraction of [k] digits. *)
Lemma float_of_parts i k f : 0 <= i -> (1 <= k)%nat -> 0 <= f < 10 ^ Z.of_nat k ->
  float_of (show_nat i) (showpad k f) = rnd (i * 10 ^ Z.of_nat k + f) (10 ^ Z.of_nat k).
Proof.
  intros Hi Hk Hf. unfold float_of. rewrite horner_app, horner_show_nat by assumption.
  rewrite (horner_acc _ i f) by (apply horner_showpad; lia). rewrite showpad_length_eq by assumption. reflexivity.
Qed.

Lemma parts_decimal i k f : 0 <= f -> is_decimal (show_nat i) (showpad k f).
Proof.
  intros Hf. split; [apply show_nat_digits|]. split; [apply showpad_digits; assumption|]. left. apply show_nat_nonempty.
Qed.

Lemma plain_frac d f : f <> ""%string -> plain d f = (d ++ "." ++ f)%string.
Proof. unfold plain. destruct f; [congruence|reflexivity]. Qed.

(** ** The text of a double *)

(** Without exponent. *)
Lemma str12_fixed n d m e : 0 < n -> digits12 n d = (m, e) -> 10 ^ 11 <= m < 10 ^ 12 -> -4 <= e < 12 ->
  exists a f, is_decimal a f /\ str12 (n, d) = plain a f /\ float_of a f = rnd m (10 ^ (11 - e)) /\ a <> ""%string /\ f <> ""%string.
Proof.
  intros Hn Hdg Hm He. unfold str12. destruct (Z.eqb_spec n 0); [lia|]. rewrite Hdg.
  replace ((-4 <=? e) && (e <? 12)) with true by (symmetry; apply andb_true_intro; split; [apply Z.leb_le|apply Z.ltb_lt]; lia).
  cbv zeta. set (k := Z.to_nat (11 - e)). assert (Ek : Z.of_nat k = 11 - e) by (unfold k; lia).
  assert (Pk := pow10_pos (Z.of_nat k) ltac:(lia)). set (p := 10 ^ Z.of_nat k) in *.
  set (f0 := match k with O => 0 | _ => m mod p end). set (k0 := Nat.max 1 k).
  assert (Hf0 : 0 <= f0 < 10 ^ Z.of_nat k0).
  { unfold f0, k0. destruct k as [|k']; [cbn; lia|]. replace (Nat.max 1 (S k')) with (S k') by lia. fold p. apply Z.mod_pos_bound. assumption. }
  assert (V : (m / p * 10 ^ Z.of_nat k0 + f0) * p = m * 10 ^ Z.of_nat k0).
  { unfold f0, k0. destruct k as [|k'].
    - change p with 1. cbn [Nat.max]. rewrite Z.div_1_r. ring.
    - replace (Nat.max 1 (S k')) with (S k') by lia. fold p. pose proof (Z.div_mod m p ltac:(lia)). lia. }
  pose proof (trim_spec k0 f0 ltac:(unfold k0; lia) Hf0) as T. destruct (trim k0 f0) as [k' f']. destruct T as (T1 & T2 & T3).
  assert (Hi : 0 <= m / p) by (apply Z.div_pos; lia).
  exists (show_nat (m / p)), (showpad k' f').
  assert (Hne : showpad k' f' <> ""%string) by (apply showpad_nonempty; lia).
  split; [apply parts_decimal; lia|]. split; [rewrite plain_frac by assumption; reflexivity|].
  split; [|split; [apply show_nat_nonempty|assumption]].
  rewrite float_of_parts by (try assumption; lia). rewrite <- Ek. fold p.
  assert (Pk' := pow10_pos (Z.of_nat k') ltac:(lia)). assert (Pd := pow10_pos (Z.of_nat (k0 - k')) ltac:(lia)).
  apply rnd_ratio; try lia.
  assert (E0 : 10 ^ Z.of_nat k0 = 10 ^ Z.of_nat k' * 10 ^ Z.of_nat (k0 - k')).
  { rewrite <- Z.pow_add_r by lia. f_equal. lia. }
  rewrite E0 in V. rewrite <- T3 in V. apply (Z.mul_reg_r _ _ (10 ^ Z.of_nat (k0 - k'))); [lia|]. lia.
Qed.

(** With exponent. *)
Lemma str12_exponent n d m e : 0 < n -> digits12 n d = (m, e) -> 10 ^ 11 <= m < 10 ^ 12 -> ~ (-4 <= e < 12) ->
  exists a f q, is_decimal a f /\ str12 (n, d) = (plain a f ++ String "e" q)%string /\ a <> ""%string.
Proof.
  intros Hn Hdg Hm He. unfold str12. destruct (Z.eqb_spec n 0); [lia|]. rewrite Hdg.
  replace ((-4 <=? e) && (e <? 12)) with false.
  2: { symmetry. apply andb_false_iff. destruct (Z_le_gt_dec (-4) e); [right; apply Z.ltb_ge; lia|left; apply Z.leb_gt; lia]. }
  assert (Hf : 0 <= m mod 10 ^ 11 < 10 ^ Z.of_nat 11) by (apply Z.mod_pos_bound; reflexivity).
  pose proof (trim_spec 11 (m mod 10 ^ 11) ltac:(lia) Hf) as T. destruct (trim 11 (m mod 10 ^ 11)) as [k' f']. destruct T as (T1 & T2 & _).
  destruct (Z.eqb_spec f' 0) as [E|E].
  - exists (show_nat (m / 10 ^ 11)), ""%string. eexists. split; [|split; [unfold plain; rewrite app_empty_r; reflexivity|apply show_nat_nonempty]].
    split; [apply show_nat_digits|]. split; [reflexivity|]. left. apply show_nat_nonempty.
  - exists (show_nat (m / 10 ^ 11)), (showpad k' f'). eexists. split; [apply parts_decimal; lia|].
    split; [|apply show_nat_nonempty]. rewrite plain_frac by (apply showpad_nonempty; lia). rewrite !app_assoc_s. reflexivity.
Qed.
