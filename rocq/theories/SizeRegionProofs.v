(** Facts on regions given in cells, and on comparisons of sizes. *)

From Coq Require Import List ZArith String Ascii Bool Lia.
From Verif Require Import Digits TimeModel TimeSpec TimeProofs TimeFloat SizeModel SizeSpec SizeProofs SizeNumProofs SizeTextProofs SizeWriteProofs SizeBackProofs.
Import ListNotations.
Open Scope Z_scope.

(** ** Relative errors, in units of 10^-16 *)

Definition off (N : Z) (a b : Z * Z) : Prop :=
  Z.abs (fst a * snd b - fst b * snd a) * 10 ^ 16 <= N * (fst b * snd a).

Lemma off_trans N M a b c : 0 <= N <= 10 ^ 6 -> 0 <= M <= 10 ^ 6 ->
  0 <= fst b -> 0 <= fst c -> 0 < snd a -> 0 < snd b -> 0 < snd c ->
  off N a b -> off M b c -> off (N + M + 1) a c.
Proof.
  unfold off. destruct a as [an ad], b as [bn bd], c as [cn cd]. cbn [fst snd]. intros HN HM Hb Hc Ha' Hb' Hc' H1 H2.
  apply (Z.mul_le_mono_pos_r _ _ bd); [assumption|].
  set (P := cn * ad * bd). set (Q := bn * ad * cd). set (R := an * cd * bd).
  assert (HP : 0 <= P) by (unfold P; repeat apply Z.mul_nonneg_nonneg; lia).
  assert (HQ : 0 <= Q) by (unfold Q; repeat apply Z.mul_nonneg_nonneg; lia).
  assert (X1 : Z.abs (R - Q) * 10 ^ 16 <= N * Q).
  { unfold R, Q. replace (an * cd * bd - bn * ad * cd) with ((an * bd - bn * ad) * cd) by ring. rewrite Z.abs_mul, (Z.abs_eq cd) by lia.
    replace (Z.abs (an * bd - bn * ad) * cd * 10 ^ 16) with (Z.abs (an * bd - bn * ad) * 10 ^ 16 * cd) by ring.
    replace (N * (bn * ad * cd)) with (N * (bn * ad) * cd) by ring. apply Z.mul_le_mono_nonneg_r; lia. }
  assert (X2 : Z.abs (Q - P) * 10 ^ 16 <= M * P).
  { unfold P, Q. replace (bn * ad * cd - cn * ad * bd) with ((bn * cd - cn * bd) * ad) by ring. rewrite Z.abs_mul, (Z.abs_eq ad) by lia.
    replace (Z.abs (bn * cd - cn * bd) * ad * 10 ^ 16) with (Z.abs (bn * cd - cn * bd) * 10 ^ 16 * ad) by ring.
    replace (M * (cn * ad * bd)) with (M * (cn * bd) * ad) by ring. apply Z.mul_le_mono_nonneg_r; lia. }
  replace (Z.abs (an * cd - cn * ad) * 10 ^ 16 * bd) with (Z.abs (R - P) * 10 ^ 16).
  2: { unfold R, P. replace (an * cd * bd - cn * ad * bd) with ((an * cd - cn * ad) * bd) by ring. rewrite Z.abs_mul, (Z.abs_eq bd) by lia. ring. }
  replace ((N + M + 1) * (cn * ad) * bd) with (N * P + M * P + P) by (unfold P; ring).
  assert (X3 : N * Q <= N * P + P).
  { apply (Z.mul_le_mono_pos_r _ _ (10 ^ 16)); [lia|].
    assert (A : M * P <= 10 ^ 6 * P) by (apply Z.mul_le_mono_nonneg_r; lia).
    assert (B : Q * 10 ^ 16 <= P * 10 ^ 16 + 10 ^ 6 * P) by lia.
    assert (C : N * (Q * 10 ^ 16) <= N * (P * 10 ^ 16 + 10 ^ 6 * P)) by (apply Z.mul_le_mono_nonneg_l; lia).
    assert (D : N * (10 ^ 6 * P) <= 10 ^ 6 * (10 ^ 6 * P)) by (apply Z.mul_le_mono_nonneg_r; lia). lia. }
  lia.
Qed.

Lemma off_times N a b x y : 0 <= x -> 0 <= y -> off N a b -> off N (fst a * x, snd a * y) (fst b * x, snd b * y).
Proof.
  unfold off. destruct a as [an ad], b as [bn bd]. cbn [fst snd]. intros Hx Hy H.
  replace (an * x * (bd * y) - bn * x * (ad * y)) with ((an * bd - bn * ad) * (x * y)) by ring.
  assert (0 <= x * y) by (apply Z.mul_nonneg_nonneg; lia). rewrite Z.abs_mul, (Z.abs_eq (x * y)) by lia.
  replace (Z.abs (an * bd - bn * ad) * (x * y) * 10 ^ 16) with (Z.abs (an * bd - bn * ad) * 10 ^ 16 * (x * y)) by ring.
  replace (N * (bn * x * (ad * y))) with (N * (bn * ad) * (x * y)) by ring. apply Z.mul_le_mono_nonneg_r; lia.
Qed.

Lemma off_inverse a b : 0 <= fst a -> 0 <= fst b -> 0 < snd a -> 0 < snd b -> off 2 a b -> off 3 (snd a, fst a) (snd b, fst b).
Proof.
  unfold off. destruct a as [an ad], b as [bn bd]. cbn [fst snd]. intros Ha Hb Ha' Hb' H.
  assert (0 <= an * bd) by (apply Z.mul_nonneg_nonneg; lia). assert (0 <= bn * ad) by (apply Z.mul_nonneg_nonneg; lia).
  replace (ad * bn) with (bn * ad) by ring. replace (bd * an) with (an * bd) by ring. lia.
Qed.

Lemma off_rnd n d : 0 <= n -> 0 < d -> off 2 (rnd n d) (n, d).
Proof.
  intros Hn Hd. destruct (rnd_error n d Hn Hd) as (A & B & C). unfold off. cbn [fst snd].
  assert (0 <= n * snd (rnd n d)) by (apply Z.mul_nonneg_nonneg; lia). lia.
Qed.

(** The percentage computed is the percentage. *)
Lemma percentage_off n dn v : 0 <= n -> 0 < dn -> 0 < v ->
  let p := fmul100 (fdiv (rnd n dn) (rnd v 1)) in
  0 <= fst p /\ 0 < snd p /\ off 16 p (100 * n, dn * v).
Proof.
  intros Hn Hd Hv. cbv zeta. unfold fmul100, fdiv.
  destruct (rnd_error n dn Hn Hd) as (H1 & H2 & _). destruct (rnd_error v 1) as (R1 & R2 & R3); [lia|lia|].
  pose proof (off_rnd n dn Hn Hd) as OH. pose proof (off_rnd v 1 ltac:(lia) ltac:(lia)) as OR.
  assert (R4 : 0 < fst (rnd v 1)).
  { destruct (Z.eq_dec (fst (rnd v 1)) 0) as [E|]; [|lia]. rewrite E in R3.
    assert (0 < v * snd (rnd v 1)) by (apply Z.mul_pos_pos; lia). lia. }
  apply off_inverse in OR; try (cbn [fst snd]; lia). cbn [fst snd] in OR.
  destruct (rnd n dn) as [hn hd]. destruct (rnd v 1) as [rn rd]. cbn [fst snd] in *.
  assert (Q1 : 0 <= hn * rd) by (apply Z.mul_nonneg_nonneg; lia). assert (Q2 : 0 < hd * rn) by (apply Z.mul_pos_pos; lia).
  destruct (rnd_error (hn * rd) (hd * rn) Q1 Q2) as (H3 & H4 & _). pose proof (off_rnd (hn * rd) (hd * rn) Q1 Q2) as OQ.
  destruct (rnd (hn * rd) (hd * rn)) as [qn qd]. cbn [fst snd] in *.
  destruct (rnd_error (qn * 100) qd ltac:(lia) H4) as (H5 & H6 & _). pose proof (off_rnd (qn * 100) qd ltac:(lia) H4) as OP.
  destruct (rnd (qn * 100) qd) as [pn pd]. cbn [fst snd] in *. split; [assumption|]. split; [assumption|].
  assert (S1 : off 3 (n * rd, dn * rn) (n * 1, dn * v)).
  { pose proof (off_times 3 (rd, rn) (1, v) n dn ltac:(lia) ltac:(lia) OR) as X. cbn [fst snd] in X.
    rewrite (Z.mul_comm n rd), (Z.mul_comm dn rn), (Z.mul_comm n 1), (Z.mul_comm dn v). exact X. }
  assert (S2 : off 2 (hn * rd, hd * rn) (n * rd, dn * rn)) by exact (off_times 2 (hn, hd) (n, dn) rd rn ltac:(lia) ltac:(lia) OH).
  assert (Q3 : 0 <= n * rd) by (apply Z.mul_nonneg_nonneg; lia). assert (Q4 : 0 < dn * rn) by (apply Z.mul_pos_pos; lia).
  assert (Q5 : 0 < dn * v) by (apply Z.mul_pos_pos; lia).
  pose proof (off_trans 2 3 (hn * rd, hd * rn) (n * rd, dn * rn) (n * 1, dn * v) ltac:(lia) ltac:(lia) ltac:(cbn [fst snd]; lia) ltac:(cbn [fst snd]; lia) ltac:(cbn [fst snd]; lia) ltac:(cbn [fst snd]; lia) ltac:(cbn [fst snd]; lia) S2 S1) as S3.
  pose proof (off_trans 2 6 (qn, qd) (hn * rd, hd * rn) (n * 1, dn * v) ltac:(lia) ltac:(lia) ltac:(cbn [fst snd]; lia) ltac:(cbn [fst snd]; lia) ltac:(cbn [fst snd]; lia) ltac:(cbn [fst snd]; lia) ltac:(cbn [fst snd]; lia) OQ S3) as S4.
  pose proof (off_times 9 (qn, qd) (n * 1, dn * v) 100 1 ltac:(lia) ltac:(lia) S4) as S5. cbn [fst snd] in S5.
  rewrite !Z.mul_1_r in S5.
  pose proof (off_trans 2 9 (pn, pd) (qn * 100, qd) (n * 100, dn * v) ltac:(lia) ltac:(lia) ltac:(cbn [fst snd]; lia) ltac:(cbn [fst snd]; lia) ltac:(cbn [fst snd]; lia) ltac:(cbn [fst snd]; lia) ltac:(cbn [fst snd]; lia) OP S5) as S6.
  clear - Hn H6 S6. unfold off in *. cbn [fst snd] in *. replace (100 * n) with (n * 100) by ring.
  assert (0 <= n * 100 * pd) by (apply Z.mul_nonneg_nonneg; lia). lia.
Qed.

(** Whether it can be shown. *)
Lemma percentage_showable n dn v : 0 <= n -> 0 < dn -> 0 < v ->
  let p := fmul100 (fdiv (rnd n dn) (rnd v 1)) in
  (n = 0 \/ (dn * v <= 10 ^ 6 * n /\ 100 * n <= 99 * 10 ^ 10 * (dn * v)) -> showable p) /\
  (0 < n -> 10 ^ 10 * n < 9999 * (dn * v) -> ~ showable p).
Proof.
  intros Hn Hd Hv. cbv zeta. destruct (percentage_off n dn v Hn Hd Hv) as (A & B & C). cbv zeta in *.
  set (p := fmul100 (fdiv (rnd n dn) (rnd v 1))) in *. destruct p as [a b]. unfold off, showable in *. cbn [fst snd] in *.
  assert (W : 0 < dn * v) by (apply Z.mul_pos_pos; lia). set (w := dn * v) in *.
  assert (NB : 0 <= n * b) by (apply Z.mul_nonneg_nonneg; lia).
  split.
  - intros [->|[L U]].
    + left. rewrite Z.mul_0_r, !Z.mul_0_l, Z.mul_0_r, Z.sub_0_r in C.
      assert (E : a * w = 0) by lia. apply Z.eq_mul_0 in E. lia.
    + right. assert (L' : w * b <= 10 ^ 6 * (n * b)).
      { replace (10 ^ 6 * (n * b)) with (10 ^ 6 * n * b) by ring. apply Z.mul_le_mono_nonneg_r; lia. }
      assert (U' : 100 * (n * b) <= 99 * 10 ^ 10 * (w * b)).
      { replace (100 * (n * b)) with (100 * n * b) by ring. replace (99 * 10 ^ 10 * (w * b)) with (99 * 10 ^ 10 * w * b) by ring. apply Z.mul_le_mono_nonneg_r; lia. }
      replace (100 * n * b) with (100 * (n * b)) in C by ring. split.
      * apply (Z.mul_le_mono_pos_r _ _ w); [assumption|].
        replace ((2 * 10 ^ 12 - 1) * b * w) with ((2 * 10 ^ 12 - 1) * (w * b)) by ring. replace (2 * 10 ^ 16 * a * w) with (2 * 10 ^ 16 * (a * w)) by ring.
        set (x := a * w) in *. set (y := n * b) in *. set (z := w * b) in *. lia.
      * apply (Z.mul_lt_mono_pos_r w); [assumption|].
        replace ((2 * 10 ^ 12 - 1) * b * w) with ((2 * 10 ^ 12 - 1) * (w * b)) by ring. replace (2 * a * w) with (2 * (a * w)) by ring.
        assert (0 < w * b) by (apply Z.mul_pos_pos; lia).
        set (x := a * w) in *. set (y := n * b) in *. set (z := w * b) in *. lia.
  - intros Pn T. assert (NB' : 0 < n * b) by (apply Z.mul_pos_pos; lia).
    assert (T' : 10 ^ 10 * (n * b) < 9999 * (w * b)).
    { replace (10 ^ 10 * (n * b)) with (10 ^ 10 * n * b) by ring. replace (9999 * (w * b)) with (9999 * w * b) by ring. apply Z.mul_lt_mono_pos_r; lia. }
    replace (100 * n * b) with (100 * (n * b)) in C by ring. intros [Z0|[S1 S2]].
    + subst a. rewrite Z.mul_0_l in C. lia.
    + assert (S3 : (2 * 10 ^ 12 - 1) * (w * b) <= 2 * 10 ^ 16 * (a * w)).
      { replace ((2 * 10 ^ 12 - 1) * (w * b)) with ((2 * 10 ^ 12 - 1) * b * w) by ring. replace (2 * 10 ^ 16 * (a * w)) with (2 * 10 ^ 16 * a * w) by ring. apply Z.mul_le_mono_nonneg_r; lia. }
      set (x := a * w) in *. set (y := n * b) in *. set (z := w * b) in *. lia.
Qed.

(** What is shown of it. *)
Lemma percentage_roughly n dn v : 0 <= n -> 0 < dn -> 0 < v ->
  let p := fmul100 (fdiv (rnd n dn) (rnd v 1)) in
  showable p -> roughly (shown (NFloat false p)) (100 * n, dn * v).
Proof.
  intros Hn Hd Hv. cbv zeta. intros S. destruct (percentage_off n dn v Hn Hd Hv) as (A & B & C). cbv zeta in *.
  set (p := fmul100 (fdiv (rnd n dn) (rnd v 1))) in *.
  destruct (shown_nearly (NFloat false p) Extent) as (X & Y & Z).
  { split; assumption. } { split; [left; reflexivity|assumption]. }
  cbn [magnitude] in *. set (y := shown (NFloat false p)) in *.
  split; [assumption|]. split; [assumption|]. cbn [fst snd].
  assert (O : off 60000 y p).
  { unfold off. replace (fst p * snd y) with (fst p * snd y) by ring. lia. }
  assert (W : 0 < dn * v) by (apply Z.mul_pos_pos; lia).
  pose proof (off_trans 60000 16 y p (100 * n, dn * v) ltac:(lia) ltac:(lia) A ltac:(cbn [fst snd]; lia) Y B ltac:(cbn [fst snd]; lia) O C) as Q.
  unfold off in Q. cbn [fst snd] in Q. assert (0 <= 100 * n * snd y) by (apply Z.mul_nonneg_nonneg; lia). lia.
Qed.

(** ** Regions *)

Lemma float_of_value d f : all_digits d = true -> all_digits f = true ->
  float_of d f = rnd (fst (value d f)) (snd (value d f)) /\ 0 <= fst (value d f) /\ 0 < snd (value d f).
Proof.
  intros Hd Hf. unfold float_of, value. destruct (all_digits_horner (d ++ f) 0) as [v E]; [rewrite all_digits_app, Hd, Hf; reflexivity|].
  rewrite E. cbn [fst snd]. apply horner_value in E as B. rewrite Z.mul_0_l in B. split; [reflexivity|]. split; [lia|]. apply pow10_pos. lia.
Qed.

Lemma float_of_read d v : read d = Some v -> float_of d "" = rnd v 1.
Proof.
  intros H. unfold float_of. rewrite app_empty_r. destruct d as [|c d]; [discriminate|]. cbn [read] in H. rewrite H. reflexivity.
Qed.

Definition share (q : string * string) (v : Z) : dbl := fmul100 (fdiv (float_of (fst q) (snd q)) (rnd v 1)).

Lemma convert_region_eq sh s rd rd' rv rv' q1 q2 : legal (Sized sh Cells) s q1 (Some q2) ->
  read rd = Some rv -> 0 < rv -> read rd' = Some rv' -> 0 < rv' ->
  convert_region sh Cells s (rd ++ " " ++ rd') =
    construct (Sized sh Percent) [ANum (NFloat false (share q1 rv)); ANum (NFloat false (share q2 rv'))].
Proof.
  intros L R P R' P'. unfold convert_region. rewrite (sizes_legal _ _ _ _ L).
  rewrite (sizes_legal _ _ _ _ (legal_resolution rd rd' rv rv' R P R' P')). cbn [fst snd].
  rewrite (float_of_read _ _ R), (float_of_read _ _ R'). rewrite construct_two.
  assert (sh <> LineHeight) by (inversion L; assumption).
  unfold cells_to_percent. cbn [fst snd]. fold (share q1 rv) (share q2 rv').
  assert (E : from_tuple (Sized sh Percent) [NFloat false (share q1 rv); NFloat false (share q2 rv')]
    = Some (str12 (share q1 rv) ++ "% " ++ str12 (share q2 rv') ++ "%")%string).
  { destruct sh; try congruence; reflexivity. }
  rewrite E. reflexivity.
Qed.

Lemma share_ok q v : all_digits (fst q) = true -> all_digits (snd q) = true -> 0 < v ->
  0 <= fst (share q v) /\ 0 < snd (share q v) /\
  (let '(n, d) := percent q v in
   (n = 0 \/ (d <= 10 ^ 4 * n /\ n <= 99 * 10 ^ 10 * d) -> showable (share q v)) /\
   (0 < n -> 10 ^ 8 * n < 9999 * d -> ~ showable (share q v))) /\
  (showable (share q v) -> roughly (shown (NFloat false (share q v))) (percent q v)).
Proof.
  intros Hd Hf Hv. destruct (float_of_value _ _ Hd Hf) as (E & A & B). unfold share, percent. rewrite E.
  set (n := fst (value (fst q) (snd q))) in *. set (d := snd (value (fst q) (snd q))) in *.
  destruct (percentage_off n d v A B Hv) as (P1 & P2 & _). destruct (percentage_showable n d v A B Hv) as (P3 & P4).
  split; [assumption|]. split; [assumption|]. split.
  - split; [|intros; apply P4; lia]. intros H. apply P3. destruct H as [H|H]; [left|right]; lia.
  - apply percentage_roughly; assumption.
Qed.

(** ** Comparing *)

Lemma feq_same x y : feq x y = true <-> same x y.
Proof. unfold feq, same. apply Z.eqb_eq. Qed.

Lemma stype_eqb_refl t : stype_eqb t t = true.
Proof. destruct t as [[] []|]; reflexivity. Qed.

Lemma size_eq_same t s s' p q : sizes t s = Some p -> sizes t s' = Some q ->
  (size_eq t s t s' = true <-> same_size t p q).
Proof.
  intros H H'. destruct p as [h v], q as [h' v'].
  assert (G : forall b, b = feq_opt h h' && feq v v' || String.eqb s s' ->
     width t (h, v) = h -> width t (h', v') = h' -> (b = true <-> same_size t (h, v) (h', v'))).
  { intros b -> W W'. unfold same_size. rewrite W, W'. cbn [snd]. rewrite orb_true_iff, andb_true_iff, feq_same, String.eqb_eq.
    assert (X : feq_opt h h' = true <-> match h with Some x => match h' with Some y => same x y | None => False end | None => match h' with Some _ => False | None => True end end).
    { destruct h, h'; cbn [feq_opt]; rewrite ?feq_same; split; auto; discriminate || tauto. }
    rewrite <- X. split; [|tauto]. intros [Y|Y]; [tauto|]. subst s'. rewrite H in H'. injection H' as <- <-.
    split; [reflexivity|]. destruct h; cbn [feq_opt]; [apply feq_same|]; reflexivity. }
  unfold size_eq. destruct t as [[] []|]; cbn [stype_eqb shape_eqb measure_eqb andb]; rewrite H, H'; try (apply G; reflexivity).
  unfold same_size. cbn [width fst snd]. destruct h, h'; rewrite ?andb_true_iff, !feq_same; tauto.
Qed.

Lemma size_eq_other t s t' s' : t <> t' -> size_eq t s t' s' = String.eqb s s'.
Proof.
  intros H. assert (E : stype_eqb t t' = false).
  { destruct t as [sh m|], t' as [sh' m'|]; try reflexivity; [|congruence].
    cbn [stype_eqb]. destruct sh, sh'; try reflexivity; destruct m, m'; try reflexivity; congruence. }
  unfold size_eq. destruct t as [[] []|]; rewrite E; reflexivity.
Qed.
