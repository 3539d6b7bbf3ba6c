(** Decimal text: what Python's str.format and int() do with non-negative
    integers, as functions on strings.  Shared by the codec models. *)

From Coq Require Import List ZArith String Ascii Bool Lia.
Import ListNotations.
Open Scope Z_scope.

(** The character of a digit 0-9. *)
Definition dchar (d : Z) : ascii := ascii_of_N (Z.to_N (48 + d)).

(** The value of a digit character. *)
Definition dval (c : ascii) : option Z :=
  let n := Z.of_N (N_of_ascii c) in
  if (48 <=? n) && (n <=? 57) then Some (n - 48) else None.

Definition is_digit (c : ascii) : bool :=
  match dval c with Some _ => true | None => false end.

(** Decimal text of a natural number, most significant digit first. *)
Fixpoint show_aux (fuel : nat) (n : Z) (acc : string) : string :=
  match fuel with
  | O => acc
  | S f =>
      let acc' := String (dchar (n mod 10)) acc in
      if n / 10 =? 0 then acc' else show_aux f (n / 10) acc'
  end.

Definition show_nat (n : Z) : string := show_aux (S (Z.to_nat (Z.log2 n))) n EmptyString.

(** '{}'.format(n) for an int or long. *)
Definition show (n : Z) : string :=
  if n <? 0 then String "-"%char (show_nat (- n)) else show_nat n.

Fixpoint zeros (k : nat) : string :=
  match k with O => EmptyString | S k' => String "0"%char (zeros k') end.

(** '{:0kd}'.format(n): zero padding to width k, after the sign. *)
Definition showpad (k : nat) (n : Z) : string :=
  if n <? 0 then
    let s := show_nat (- n) in
    String "-"%char (zeros (k - 1 - String.length s) ++ s)
  else
    let s := show_nat n in zeros (k - String.length s) ++ s.

(** int(s) for a string of digits, Horner scheme from [acc]. *)
Fixpoint horner (acc : Z) (s : string) : option Z :=
  match s with
  | EmptyString => Some acc
  | String c r => match dval c with
                  | Some d => horner (10 * acc + d) r
                  | None => None
                  end
  end.

Definition read (s : string) : option Z :=
  match s with EmptyString => None | _ => horner 0 s end.

(** Longest prefix of digits and the rest: a greedy [0-9]* of the regular
    expressions. *)
Fixpoint span (s : string) : string * string :=
  match s with
  | String c r => if is_digit c then let '(d, q) := span r in (String c d, q)
                  else (EmptyString, s)
  | EmptyString => (EmptyString, EmptyString)
  end.

Fixpoint all_digits (s : string) : bool :=
  match s with
  | EmptyString => true
  | String c r => is_digit c && all_digits r
  end.

(** ** Facts *)

Lemma app_empty_r : forall s, (s ++ "")%string = s.
Proof. induction s; cbn; congruence. Qed.

Lemma app_assoc_s : forall a b c, ((a ++ b) ++ c = a ++ (b ++ c))%string.
Proof. induction a; cbn; intros; congruence. Qed.

Lemma length_app_s : forall a b,
  String.length (a ++ b) = (String.length a + String.length b)%nat.
Proof. induction a; cbn; intros; auto. Qed.

Lemma dval_dchar : forall d, 0 <= d < 10 -> dval (dchar d) = Some d.
Proof.
  intros d H.
  assert (E : d = 0 \/ d = 1 \/ d = 2 \/ d = 3 \/ d = 4 \/ d = 5 \/ d = 6 \/ d = 7 \/ d = 8 \/ d = 9) by lia.
  repeat (destruct E as [E|E]; [subst; reflexivity|]). subst; reflexivity.
Qed.

Lemma dval_range : forall c d, dval c = Some d -> 0 <= d < 10.
Proof.
  intros c d. unfold dval.
  destruct (48 <=? Z.of_N (N_of_ascii c)) eqn:E1; cbn; [|discriminate].
  destruct (Z.of_N (N_of_ascii c) <=? 57) eqn:E2; [|discriminate].
  intros H; inversion H; subst. apply Z.leb_le in E1, E2. lia.
Qed.

Lemma is_digit_dchar : forall d, 0 <= d < 10 -> is_digit (dchar d) = true.
Proof. intros. unfold is_digit. rewrite dval_dchar; auto. Qed.

Lemma show_aux_acc : forall f n acc,
  show_aux f n acc = (show_aux f n "" ++ acc)%string.
Proof.
  induction f as [|f IH]; intros n acc; cbn [show_aux]; auto.
  destruct (n / 10 =? 0); auto.
  rewrite (IH _ (String _ acc)), (IH _ (String _ "")), app_assoc_s. reflexivity.
Qed.

Lemma all_digits_app : forall a b, all_digits (a ++ b) = all_digits a && all_digits b.
Proof. induction a; cbn; intros; auto. rewrite IHa, andb_assoc. auto. Qed.

Lemma show_aux_digits : forall f n, all_digits (show_aux f n "") = true.
Proof.
  induction f as [|f IH]; intros n; cbn [show_aux]; auto.
  assert (Hd : is_digit (dchar (n mod 10)) = true)
    by (apply is_digit_dchar, Z.mod_pos_bound; lia).
  destruct (n / 10 =? 0).
  - cbn. rewrite Hd. auto.
  - rewrite show_aux_acc, all_digits_app, IH. cbn. rewrite Hd. auto.
Qed.

Lemma show_nat_digits : forall n, all_digits (show_nat n) = true.
Proof. intros. apply show_aux_digits. Qed.

Lemma horner_app : forall a acc b,
  horner acc (a ++ b) = match horner acc a with Some v => horner v b | None => None end.
Proof.
  induction a as [|c a IH]; intros acc b; cbn; auto.
  destruct (dval c); auto.
Qed.

Lemma show_aux_horner : forall f n acc, 0 <= n < 2 ^ Z.of_nat f ->
  horner 0 (show_aux f n acc) = horner n acc.
Proof.
  induction f as [|f IH]; intros n acc Hn; cbn [show_aux].
  - cbn in Hn. replace n with 0 by lia. reflexivity.
  - rewrite Nat2Z.inj_succ, Z.pow_succ_r in Hn by lia.
    assert (Hm : 0 <= n mod 10 < 10) by (apply Z.mod_pos_bound; lia).
    assert (Hdm := Z.div_mod n 10 ltac:(lia)).
    assert (0 <= n / 10) by (apply Z.div_pos; lia).
    destruct (Z.eqb_spec (n / 10) 0) as [E|E].
    + cbn [horner]. rewrite dval_dchar by auto. f_equal. lia.
    + rewrite IH by (split; [lia|apply Z.div_lt_upper_bound; lia]). cbn [horner]. rewrite dval_dchar by auto. f_equal. lia.
Qed.

Lemma log2_fuel : forall n, 0 <= n -> n < 2 ^ Z.of_nat (S (Z.to_nat (Z.log2 n))).
Proof.
  intros n H. rewrite Nat2Z.inj_succ, Z2Nat.id by apply Z.log2_nonneg.
  destruct (Z.eq_dec n 0) as [->|]; [cbn; lia|]. apply Z.log2_spec. lia.
Qed.

Lemma show_nat_nonempty : forall n, show_nat n <> ""%string.
Proof.
  intros n. unfold show_nat. cbn [show_aux].
  destruct (n / 10 =? 0); [discriminate|]. rewrite show_aux_acc.
  destruct (show_aux _ _ ""); discriminate.
Qed.

Lemma horner_show_nat : forall n, 0 <= n -> horner 0 (show_nat n) = Some n.
Proof.
  intros n H. unfold show_nat. rewrite show_aux_horner; auto.
  split; auto. apply log2_fuel; auto.
Qed.

Lemma read_show_nat : forall n, 0 <= n -> read (show_nat n) = Some n.
Proof.
  intros n H. unfold read. destruct (show_nat n) eqn:E.
  - exfalso. eapply show_nat_nonempty; eauto.
  - rewrite <- E. apply horner_show_nat; auto.
Qed.

Lemma horner_zeros : forall k s, horner 0 (zeros k ++ s) = horner 0 s.
Proof. induction k; intros s; cbn; auto. Qed.

Lemma zeros_digits : forall k, all_digits (zeros k) = true.
Proof. induction k; cbn; auto. Qed.

Lemma showpad_digits : forall k n, 0 <= n -> all_digits (showpad k n) = true.
Proof.
  intros. unfold showpad. destruct (Z.ltb_spec n 0); [lia|].
  rewrite all_digits_app, zeros_digits, show_nat_digits. auto.
Qed.

Lemma horner_showpad : forall k n, 0 <= n -> horner 0 (showpad k n) = Some n.
Proof.
  intros. unfold showpad. destruct (Z.ltb_spec n 0); [lia|].
  rewrite horner_zeros. apply horner_show_nat; auto.
Qed.

Lemma showpad_nonempty : forall k n, 0 <= n -> showpad k n <> ""%string.
Proof.
  intros k n H E. assert (L : String.length (showpad k n) = O) by (rewrite E; auto).
  unfold showpad in L. destruct (Z.ltb_spec n 0); [lia|].
  rewrite length_app_s in L. assert (Hn := show_nat_nonempty n).
  destruct (show_nat n); [congruence|]. cbn in L. lia.
Qed.

Lemma read_showpad : forall k n, 0 <= n -> read (showpad k n) = Some n.
Proof.
  intros k n H. unfold read. destruct (showpad k n) eqn:E.
  - exfalso. eapply showpad_nonempty; eauto.
  - rewrite <- E. apply horner_showpad; auto.
Qed.

Lemma showpad_length : forall k n, 0 <= n -> (k <= String.length (showpad k n))%nat.
Proof.
  intros k n H. unfold showpad. destruct (Z.ltb_spec n 0); [lia|].
  rewrite length_app_s.
  assert (String.length (zeros (k - String.length (show_nat n))) =
          k - String.length (show_nat n))%nat.
  { generalize (k - String.length (show_nat n))%nat. induction n0; cbn; auto. }
  lia.
Qed.

(** Does the string start with something that is not a digit (or end)? *)
Definition no_digit_first (s : string) : bool :=
  match s with String c _ => negb (is_digit c) | EmptyString => true end.

Lemma span_app : forall d r, all_digits d = true -> no_digit_first r = true ->
  span (d ++ r) = (d, r).
Proof.
  induction d as [|c d IH]; cbn; intros r Hd Hr.
  - destruct r as [|c r]; cbn in *; auto. destruct (is_digit c); cbn in Hr; [discriminate|auto].
  - apply andb_true_iff in Hd as [Hc Hd]. rewrite Hc, IH; auto.
Qed.

Lemma span_spec : forall s d r, span s = (d, r) ->
  s = (d ++ r)%string /\ all_digits d = true /\ no_digit_first r = true.
Proof.
  induction s as [|c s IH]; cbn; intros d r H.
  - inversion H; subst. auto.
  - destruct (is_digit c) eqn:Hc.
    + destruct (span s) as [d' q]. destruct (IH _ _ eq_refl) as (E & Hd & Hr).
      inversion H; subst. cbn. rewrite Hc. auto.
    + inversion H; subst. cbn. rewrite Hc. auto.
Qed.

Lemma all_digits_horner : forall s acc, all_digits s = true ->
  exists v, horner acc s = Some v.
Proof.
  induction s as [|c s IH]; cbn; intros acc H; eauto.
  apply andb_true_iff in H as [Hc H]. unfold is_digit in Hc.
  destruct (dval c); [|discriminate]. auto.
Qed.

Lemma horner_value : forall s acc v, horner acc s = Some v ->
  acc * 10 ^ Z.of_nat (String.length s) <= v < (acc + 1) * 10 ^ Z.of_nat (String.length s).
Proof.
  induction s as [|c s IH]; cbn [horner String.length]; intros acc v H.
  - inversion H; subst. cbn. lia.
  - destruct (dval c) eqn:Hd; [|discriminate]. apply dval_range in Hd.
    apply IH in H. rewrite Nat2Z.inj_succ, Z.pow_succ_r by lia.
    assert (0 < 10 ^ Z.of_nat (String.length s)) by (apply Z.pow_pos_nonneg; lia). nia.
Qed.
