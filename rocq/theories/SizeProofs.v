(** Facts on the text of sizes: the grammar. *)

From Coq Require Import List ZArith String Ascii Bool Lia.
From Verif Require Import Digits TimeModel TimeSpec TimeProofs TimeFloat SizeModel SizeSpec.
Import ListNotations.
Open Scope Z_scope.
Open Scope string_scope.

Lemma after_app p r : after p (p ++ r) = Some r.
Proof. induction p as [|c p IH]; [reflexivity|]. simpl. rewrite Ascii.eqb_refl. exact IH. Qed.

Lemma after_spec p : forall s r, after p s = Some r -> s = p ++ r.
Proof.
  induction p as [|c p IH]; intros s r H; [injection H as ->; reflexivity|].
  destruct s as [|b s]; [discriminate|]. simpl in H. destruct (Ascii.eqb_spec c b); [|discriminate]. subst. simpl. f_equal. auto.
Qed.

(** What follows a number. *)
Definition ends_number (r : string) : Prop :=
  match r with EmptyString => True | String c _ => is_digit c = false /\ c <> "."%char end.

Lemma ends_no_digit r : ends_number r -> no_digit_first r = true.
Proof. destruct r as [|c r]; [reflexivity|]. intros [H _]. simpl. rewrite H. reflexivity. Qed.

Lemma number_app d f r : is_decimal d f -> ends_number r -> number (plain d f ++ r) = Some (d, f, r).
Proof.
  intros (Hd & Hf & Hne) Hr. unfold plain, number. rewrite app_assoc_s.
  destruct f as [|c f'].
  - simpl. rewrite span_app by (auto using ends_no_digit).
    assert (d <> "") by (destruct Hne; congruence).
    destruct r as [|c r]; [destruct d; [congruence|reflexivity]|].
    destruct Hr as [_ Hc]. destruct (Ascii.eqb_spec c "."); [congruence|]. destruct d; [congruence|reflexivity].
  - set (f := String c f') in *. rewrite span_app; [|assumption|reflexivity].
    cbn [append Ascii.eqb Bool.eqb]. simpl (Ascii.eqb "." "."). cbv iota.
    rewrite span_app by (auto using ends_no_digit). unfold f. reflexivity.
Qed.

Lemma number_spec s d f r : number s = Some (d, f, r) -> is_decimal d f /\ s = plain d f ++ r.
Proof.
  unfold number. destruct (span s) as [d0 r0] eqn:E. destruct (span_spec _ _ _ E) as (-> & Hd & Hr).
  assert (W : (match d0 with EmptyString => None | _ => Some (d0, EmptyString, r0) end) = Some (d, f, r) ->
     is_decimal d f /\ d0 ++ r0 = plain d f ++ r).
  { destruct d0 eqn:Ed; [discriminate|]. intros H. injection H as <- <- <-. split.
    - split; [assumption|]. split; [reflexivity|]. left. discriminate.
    - unfold plain. rewrite app_empty_r. reflexivity. }
  destruct r0 as [|c r']; [exact W|]. destruct (Ascii.eqb_spec c "."); [|exact W]. subst c.
  destruct (span r') as [f0 q] eqn:E2. destruct (span_spec _ _ _ E2) as (-> & Hf & Hq).
  destruct f0 as [|c f0']; [exact W|]. intros H. injection H as <- <- <-. split.
  - split; [assumption|]. split; [assumption|]. right. discriminate.
  - unfold plain. rewrite app_assoc_s. reflexivity.
Qed.

Lemma unit_ends m r : ends_number (unit_of m ++ r).
Proof. destruct m; split; try reflexivity; discriminate. Qed.

Lemma plain_first d f r sh : is_decimal d f -> drop_sign sh (plain d f ++ r) = plain d f ++ r.
Proof.
  intros (Hd & Hf & Hne).
  assert (X : exists c q, plain d f ++ r = String c q /\ (is_digit c = true \/ c = "."%char)).
  { destruct d as [|c d].
    - destruct f as [|c f]; [destruct Hne; congruence|]. exists "."%char. eexists. split; [reflexivity|auto].
    - simpl in Hd. apply andb_prop in Hd. exists c. eexists. split; [reflexivity|tauto]. }
  destruct X as (c & q & -> & Hc). unfold drop_sign.
  assert (Hp : Ascii.eqb c "+" = false) by (destruct (Ascii.eqb_spec c "+"); [subst; destruct Hc as [H|H]; discriminate|reflexivity]).
  assert (Hm : Ascii.eqb c "-" = false) by (destruct (Ascii.eqb_spec c "-"); [subst; destruct Hc as [H|H]; discriminate|reflexivity]).
  destruct sh; rewrite ?Hp, ?Hm; reflexivity.
Qed.

Lemma quantity_app sh m s d f r : spelled sh m s d f -> quantity sh m (s ++ r) = Some (d, f, r).
Proof.
  intros (sg & Hs & Hd & ->). unfold quantity. rewrite !app_assoc_s.
  assert (E : drop_sign sh (sg ++ plain d f ++ unit_of m ++ r) = plain d f ++ unit_of m ++ r).
  { destruct Hs as [->|[[-> Hn]|[-> ->]]].
    - apply plain_first. assumption.
    - simpl. destruct sh; try reflexivity. congruence.
    - reflexivity. }
  rewrite E, number_app by (auto using unit_ends). rewrite after_app. reflexivity.
Qed.

Lemma quantity_spec sh m s d f r : quantity sh m s = Some (d, f, r) -> exists s1, s = s1 ++ r /\ spelled sh m s1 d f.
Proof.
  unfold quantity. destruct (number (drop_sign sh s)) as [[[d0 f0] r0]|] eqn:E; [|discriminate].
  destruct (after (unit_of m) r0) as [r1|] eqn:E1; [|discriminate]. intros H. injection H as <- <- <-.
  apply after_spec in E1. subst r0. apply number_spec in E. destruct E as [Hd E].
  assert (X : exists sg, sign_ok sh sg /\ s = sg ++ drop_sign sh s).
  { destruct s as [|c s]; [exists ""; split; [left|]; reflexivity|]. unfold drop_sign.
    destruct sh.
    - destruct (Ascii.eqb_spec c "+"); [subst; exists "+"; split; [right; left; split; [reflexivity|discriminate]|reflexivity]|].
      destruct (Ascii.eqb_spec c "-"); [subst; exists "-"; split; [right; right; auto|reflexivity]|].
      exists "". split; [left|]; reflexivity.
    - destruct (Ascii.eqb_spec c "+"); [subst; exists "+"; split; [right; left; split; [reflexivity|discriminate]|reflexivity]|].
      exists "". split; [left|]; reflexivity.
    - destruct (Ascii.eqb_spec c "+"); [subst; exists "+"; split; [right; left; split; [reflexivity|discriminate]|reflexivity]|].
      exists "". split; [left|]; reflexivity.
    - exists "". split; [left|]; reflexivity. }
  destruct X as (sg & Hsg & Es). exists (sg ++ plain d0 f0 ++ unit_of m). split.
  - rewrite Es at 1. rewrite E, !app_assoc_s. reflexivity.
  - exists sg. auto.
Qed.

Lemma read_digits d v : read d = Some v -> all_digits d = true.
Proof. destruct d as [|c d]; [discriminate|]. apply horner_digits. Qed.

Lemma positive_app d v r : read d = Some v -> 0 < v -> no_digit_first r = true -> positive (d ++ r) = Some (d, r).
Proof.
  intros H Hv Hr. unfold positive. rewrite span_app by eauto using read_digits. rewrite H.
  destruct (Z.ltb_spec 0 v); [reflexivity|lia].
Qed.

Lemma positive_spec s d r : positive s = Some (d, r) -> s = d ++ r /\ exists v, read d = Some v /\ 0 < v.
Proof.
  unfold positive. destruct (span s) as [d0 r0] eqn:E. destruct (span_spec _ _ _ E) as (-> & _ & _).
  destruct (read d0) as [v|] eqn:Ev; [|discriminate]. destruct (Z.ltb_spec 0 v); [|discriminate].
  intros X. injection X as <- <-. eauto.
Qed.

Lemma groups_legal t s q1 q2 : legal t s q1 q2 -> groups t s = Some (q1, q2, "").
Proof.
  intros H. destruct H as [sh m s d f Hsh H1|sh m s s' d f d' f' Hsh H1 H2|d d' v v' H1 H2 H3 H4]; unfold groups.
  - rewrite <- (app_empty_r s), (quantity_app _ _ _ _ _ _ H1). simpl. destruct Hsh; subst; reflexivity.
  - rewrite (quantity_app _ _ _ _ _ _ H1). rewrite after_app. rewrite <- (app_empty_r s'), (quantity_app _ _ _ _ _ _ H2).
    destruct sh; try reflexivity. congruence.
  - rewrite (positive_app d v) by auto. rewrite after_app.
    rewrite <- (app_empty_r d') at 1. rewrite (positive_app d' v') by auto. reflexivity.
Qed.

Lemma groups_spec t s q1 q2 : groups t s = Some (q1, q2, "") -> legal t s q1 q2.
Proof.
  unfold groups. destruct t as [sh m|].
  - destruct (quantity sh m s) as [[[d f] r]|] eqn:E1; [|discriminate].
    destruct (quantity_spec _ _ _ _ _ _ E1) as (s1 & -> & H1).
    assert (T : forall d' f' r', match after " " r with Some r'0 => quantity sh m r'0 | None => None end = Some (d', f', r') ->
      sh <> LineHeight -> Some (d, f, Some (d', f'), r') = Some (q1, q2, "") -> legal (Sized sh m) (s1 ++ r) q1 q2).
    { intros d' f' r' X Hsh Y. injection Y as <- <- ->. destruct (after " " r) as [r0|] eqn:Ea; [|discriminate].
      apply after_spec in Ea. subst r. destruct (quantity_spec _ _ _ _ _ _ X) as (s2 & E & H2). rewrite app_empty_r in E. subst r0.
      apply legal_two; assumption. }
    destruct sh.
    + destruct (match after " " r with Some r' => quantity Origin m r' | None => None end) as [[[d' f'] r']|]; [|discriminate].
      apply (T d' f' r'); [reflexivity|discriminate].
    + destruct (match after " " r with Some r' => quantity Extent m r' | None => None end) as [[[d' f'] r']|]; [|discriminate].
      apply (T d' f' r'); [reflexivity|discriminate].
    + destruct (match after " " r with Some r' => quantity FontSize m r' | None => None end) as [[[d' f'] r']|].
      * apply (T d' f' r'); [reflexivity|discriminate].
      * intros X. injection X as <- <- ->. rewrite app_empty_r. apply legal_one; auto.
    + intros X. injection X as <- <- ->. rewrite app_empty_r. apply legal_one; auto.
  - destruct (positive s) as [[d r]|] eqn:E1; [|discriminate]. destruct (positive_spec _ _ _ E1) as (-> & v & Hv1 & Hv2).
    destruct (after " " r) as [r'|] eqn:E2; [|discriminate]. apply after_spec in E2. subst r.
    destruct (positive r') as [[d' r'']|] eqn:E3; [|discriminate]. destruct (positive_spec _ _ _ E3) as (-> & v' & Hv3 & Hv4).
    intros X. injection X as <- <- ->. rewrite app_empty_r. eapply legal_resolution; eauto.
Qed.

Lemma valid_iff t s : valid t s = true <-> exists q1 q2, legal t s q1 q2.
Proof.
  unfold valid. split.
  - destruct (groups t s) as [[[q1 q2] [|c r]]|] eqn:E; try discriminate. intros _. exists q1, q2. apply groups_spec. assumption.
  - intros (q1 & q2 & H). rewrite (groups_legal _ _ _ _ H). reflexivity.
Qed.

Lemma sizes_legal t s q1 q2 : legal t s q1 q2 ->
  sizes t s = Some (match q2 with
                    | None => (None, float_of (fst q1) (snd q1))
                    | Some q => (Some (float_of (fst q1) (snd q1)), float_of (fst q) (snd q))
                    end).
Proof.
  intros H. unfold sizes. rewrite (groups_legal _ _ _ _ H). destruct q1 as [d f]. destruct q2 as [[d' f']|]; reflexivity.
Qed.

Lemma float_close d f : all_digits d = true -> all_digits f = true -> close (float_of d f) (fst (value d f)) (snd (value d f)).
Proof.
  intros Hd Hf. unfold float_of, value, close. destruct (all_digits_horner (d ++ f) 0) as [v E]; [rewrite all_digits_app, Hd, Hf; reflexivity|].
  rewrite E. simpl fst. simpl snd.
  apply horner_value in E as B. rewrite Z.mul_0_l in B.
  apply rnd_error; [lia|]. apply Z.pow_pos_nonneg; lia.
Qed.

Lemma legal_digits t s q1 q2 : legal t s q1 q2 ->
  (all_digits (fst q1) = true /\ all_digits (snd q1) = true) /\
  match q2 with Some q => all_digits (fst q) = true /\ all_digits (snd q) = true | None => True end.
Proof.
  intros H. destruct H as [sh m s d f Hsh (sg & _ & (A & B & _) & _)|sh m s s' d f d' f' Hsh (sg & _ & (A & B & _) & _) (sg' & _ & (A' & B' & _) & _)|d d' v v' H1 H2 H3 H4]; simpl; repeat apply conj; eauto using read_digits; exact I.
Qed.
