(** Facts on writing sizes and reading them back. *)

From Coq Require Import List ZArith String Ascii Bool Lia.
From Verif Require Import Digits TimeModel TimeSpec TimeProofs TimeFloat SizeModel SizeSpec SizeProofs SizeNumProofs SizeTextProofs.
Import ListNotations.
Open Scope Z_scope.
Open Scope string_scope.

(** What is read from the text of a number. *)
Definition shown (x : num) : dbl :=
  match x with
  | NInt z => rnd (Z.abs z) 1
  | NFloat _ (n, d) =>
      if (n =? 0)%Z then rnd 0 10
      else let '(m, e) := digits12 n d in rnd m (10 ^ (11 - e))
  end.

Lemma show_nat_plain z : plain (show_nat z) "" = show_nat z.
Proof. unfold plain. apply app_empty_r. Qed.

Lemma show_nat_decimal z : is_decimal (show_nat z) "".
Proof. split; [apply show_nat_digits|]. split; [reflexivity|]. left. apply show_nat_nonempty. Qed.

Lemma float_of_nat z : 0 <= z -> float_of (show_nat z) "" = rnd z 1.
Proof. intros H. unfold float_of. rewrite app_empty_r, horner_show_nat by assumption. reflexivity. Qed.

Lemma str12_ok x : 0 <= fst x -> 0 < snd x -> showable x ->
  exists a f, is_decimal a f /\ str12 x = plain a f /\ a <> "" /\ f <> "" /\
    forall neg, float_of a f = shown (NFloat neg x).
Proof.
  destruct x as [n d]. cbn [fst snd]. intros Hn Hd Hs. destruct (Z.eqb_spec n 0) as [->|Hz].
  - exists "0", "0". repeat split; try reflexivity; try discriminate. left. discriminate.
  - destruct (digits12_spec n d ltac:(lia) Hd) as (m & e & E & T).
    destruct (proj1 (showable_iff n d m e ltac:(lia) Hd T) Hs) as [He1 He2].
    destruct (str12_fixed n d m e ltac:(lia) E (proj1 T) (conj He1 He2)) as (a & f & A1 & A2 & A3 & A4 & A5).
    exists a, f. repeat (split; [assumption|]). intros neg. cbn [shown]. destruct (Z.eqb_spec n 0); [lia|]. rewrite E. assumption.
Qed.

Lemma str12_bad x : 0 <= fst x -> 0 < snd x -> ~ showable x ->
  exists a f q, is_decimal a f /\ str12 x = plain a f ++ String "e" q /\ a <> "".
Proof.
  destruct x as [n d]. cbn [fst snd]. intros Hn Hd Hs. destruct (Z.eqb_spec n 0) as [->|Hz].
  - exfalso. apply Hs. left. reflexivity.
  - destruct (digits12_spec n d ltac:(lia) Hd) as (m & e & E & T).
    apply (str12_exponent n d m e); [lia|assumption|exact (proj1 T)|].
    intros He. apply Hs. apply (showable_iff n d m e); [lia|assumption..].
Qed.

Lemma showable_dec x : {showable x} + {~ showable x}.
Proof.
  unfold showable. destruct (Z.eq_dec (fst x) 0); [left; auto|].
  destruct (Z_le_dec ((2 * 10 ^ 12 - 1) * snd x) (2 * 10 ^ 16 * fst x)); [|right; intros [H|H]; tauto].
  destruct (Z_lt_dec (2 * fst x) ((2 * 10 ^ 12 - 1) * snd x)); [left; auto|right; intros [H|H]; tauto].
Qed.

Lemma shape_dec (a b : shape) : {a = b} + {a <> b}.
Proof. decide equality. Qed.

Lemma writable_dec sh x : {writable sh x} + {~ writable sh x}.
Proof.
  destruct x as [z|neg x]; cbn [writable].
  - destruct (Z_le_dec 0 z); [left; auto|]. destruct (shape_dec sh Origin); [left; auto|right; intros [H|H]; tauto].
  - destruct (showable_dec x); [|right; tauto]. destruct neg; [|left; auto].
    destruct (shape_dec sh Origin); [left; auto|right; intros [[H|H] _]; [discriminate|tauto]].
Qed.

(** A number that may be written is spelled. *)
Lemma written_spelled sh m x : num_wf x -> writable sh x ->
  exists d f, spelled sh m (num_text x ++ unit_of m) d f /\ float_of d f = shown x.
Proof.
  intros Hw W. destruct x as [z|neg x]; cbn [num_text writable num_wf] in *.
  - unfold show. destruct (Z.ltb_spec z 0) as [Hz|Hz].
    + destruct W as [W| ->]; [lia|]. exists (show_nat (- z)), "". split.
      * exists "-". split; [right; right; auto|]. split; [apply show_nat_decimal|]. rewrite show_nat_plain. reflexivity.
      * rewrite float_of_nat by lia. cbn [shown]. f_equal. lia.
    + exists (show_nat z), "". split.
      * exists "". split; [left; auto|]. split; [apply show_nat_decimal|]. rewrite show_nat_plain. reflexivity.
      * rewrite float_of_nat by lia. cbn [shown]. f_equal. lia.
  - destruct W as [W1 W2]. destruct (str12_ok x (proj1 Hw) (proj2 Hw) W2) as (a & f & A1 & A2 & _ & _ & A5).
    exists a, f. split; [|apply A5]. exists (if neg then "-" else ""). split.
    + destruct neg; [|left; auto]. destruct W1 as [W1|W1]; [discriminate|right; right; auto].
    + split; [assumption|]. rewrite A2, app_assoc_s. reflexivity.
Qed.

Lemma after_e m q r : after (unit_of m) (String "e" q ++ r) = None.
Proof. destruct m; reflexivity. Qed.

Lemma e_ends q : ends_number (String "e" q).
Proof. split; [reflexivity|discriminate]. Qed.

Lemma minus_no_number s : number (String "-" s) = None.
Proof. reflexivity. Qed.

(** A number that may not be written is not recognised. *)
Lemma unwritable_none sh m x r : num_wf x -> ~ writable sh x -> quantity sh m (num_text x ++ r) = None.
Proof.
  intros Hw W. destruct x as [z|neg x]; cbn [num_text writable num_wf] in *.
  - unfold show. destruct (Z.ltb_spec z 0) as [Hz|Hz]; [|exfalso; apply W; auto].
    unfold quantity. cbn [append drop_sign]. destruct sh; try (exfalso; apply W; auto; fail); cbn [Ascii.eqb Bool.eqb]; rewrite minus_no_number; reflexivity.
  - destruct (showable_dec x) as [S|S].
    + destruct neg; [|exfalso; apply W; auto]. unfold quantity. cbn [append drop_sign].
      destruct sh; try (exfalso; apply W; auto; fail); cbn [Ascii.eqb Bool.eqb]; rewrite minus_no_number; reflexivity.
    + destruct (str12_bad x (proj1 Hw) (proj2 Hw) S) as (a & f & q & A1 & A2 & _).
      assert (X : number (str12 x ++ r) = Some (a, f, String "e" q ++ r)).
      { rewrite A2, app_assoc_s. apply number_app; [assumption|apply e_ends]. }
      unfold quantity. destruct neg; cbn [append].
      * cbn [drop_sign]. destruct sh; cbn [Ascii.eqb Bool.eqb orb]; try (rewrite minus_no_number; reflexivity).
        rewrite X, after_e. reflexivity.
      * rewrite A2, app_assoc_s, plain_first by assumption. rewrite <- app_assoc_s, <- A2, X, after_e. reflexivity.
Qed.

(** ** Resolutions *)

Lemma float_not_positive neg x : num_wf (NFloat neg x) ->
  (forall r, positive (num_text (NFloat neg x) ++ r) = None) \/
  (exists d c q, forall r, positive (num_text (NFloat neg x) ++ r) = Some (d, String c (q ++ r)) /\ c <> " "%char) \/ False.
Proof.
  intros Hw. cbn [num_wf] in Hw. destruct neg; [left; reflexivity|]. cbn [num_text append].
  assert (X : exists a c q, str12 x = a ++ String c q /\ all_digits a = true /\ a <> "" /\ (c = "." \/ c = "e")%char).
  { destruct (showable_dec x) as [S|S].
    - destruct (str12_ok x (proj1 Hw) (proj2 Hw) S) as (a & f & (A1 & _) & A2 & A3 & A4 & _).
      exists a, "."%char, f. rewrite plain_frac in A2 by assumption. auto.
    - destruct (str12_bad x (proj1 Hw) (proj2 Hw) S) as (a & f & q & (A1 & _) & A2 & A3). destruct f as [|c f].
      + exists a, "e"%char, q. unfold plain in A2. rewrite app_empty_r in A2. auto.
      + exists a, "."%char, (String c f ++ String "e" q). rewrite plain_frac, !app_assoc_s in A2 by discriminate. auto. }
  destruct X as (a & c & q & -> & Ha & Hne & Hc).
  destruct (read a) as [v|] eqn:E.
  2: { left. intros r. unfold positive. rewrite app_assoc_s, span_app; [rewrite E; reflexivity|assumption|]. destruct Hc; subst; reflexivity. }
  destruct (Z.ltb_spec 0 v) as [P|P].
  - right. left. exists a, c, q. intros r. split; [|destruct Hc; subst; discriminate].
    rewrite app_assoc_s. cbn [append]. apply (positive_app a v); [assumption|assumption|]. destruct Hc; subst; reflexivity.
  - left. intros r. unfold positive. rewrite app_assoc_s, span_app; [|assumption|destruct Hc; subst; reflexivity].
    rewrite E. destruct (Z.ltb_spec 0 v); [lia|reflexivity].
Qed.

Lemma int_positive z r : 0 < z -> no_digit_first r = true -> positive (num_text (NInt z) ++ r) = Some (show_nat z, r).
Proof.
  intros Hz Hr. cbn [num_text]. unfold show. destruct (Z.ltb_spec z 0); [lia|]. apply (positive_app _ z); [apply read_show_nat; lia|assumption..].
Qed.

Lemma int_not_positive z r : z <= 0 -> no_digit_first r = true -> positive (num_text (NInt z) ++ r) = None.
Proof.
  intros Hz Hr. cbn [num_text]. unfold show. destruct (Z.ltb_spec z 0) as [N|N]; [reflexivity|].
  assert (z = 0) by lia. subst z. unfold positive. rewrite span_app by (try apply show_nat_digits; assumption). reflexivity.
Qed.

Definition pos_int (x : num) : Prop := exists z, x = NInt z /\ 0 < z.

Lemma pos_int_dec x : {pos_int x} + {~ pos_int x}.
Proof.
  destruct x as [z|neg x]; [|right; intros (z & H & _); discriminate].
  destruct (Z_lt_dec 0 z); [left; exists z; auto|right; intros (z' & H & P); injection H as <-; lia].
Qed.

Lemma resolution_first x r : num_wf x -> ~ pos_int x -> groups Resolution (num_text x ++ " " ++ r) = None.
Proof.
  intros Hw Hn. unfold groups. destruct x as [z|neg x].
  - rewrite int_not_positive; [reflexivity| |reflexivity]. destruct (Z_lt_dec 0 z); [|lia]. exfalso. apply Hn. exists z. auto.
  - destruct (float_not_positive neg x Hw) as [P|[(d & c & q & P)|[]]]; [rewrite P; reflexivity|].
    destruct (P (" " ++ r)) as [-> Hc]. cbn [after]. destruct (Ascii.eqb_spec " " c); [congruence|reflexivity].
Qed.

Lemma resolution_second x : num_wf x -> ~ pos_int x ->
  positive (num_text x) = None \/ exists d c q, positive (num_text x) = Some (d, String c q).
Proof.
  intros Hw Hn. rewrite <- (app_empty_r (num_text x)). destruct x as [z|neg x].
  - left. apply int_not_positive; [|reflexivity]. destruct (Z_lt_dec 0 z); [|lia]. exfalso. apply Hn. exists z. auto.
  - destruct (float_not_positive neg x Hw) as [P|[(d & c & q & P)|[]]]; [left; apply P|].
    right. destruct (P "") as [E _]. eauto.
Qed.

(** ** The constructor *)

Lemma construct_one t x : construct t [ANum x] = match from_tuple t [x] with Some s => if valid t s then Some s else None | None => None end.
Proof. unfold construct. cbn [convert_args]. destruct (from_tuple t [x]); reflexivity. Qed.

Lemma construct_two t x y : construct t [ANum x; ANum y] = match from_tuple t [x; y] with Some s => if valid t s then Some s else None | None => None end.
Proof. unfold construct. cbn [convert_args]. destruct (from_tuple t [x; y]); reflexivity. Qed.

Definition as_shown (xs : list num) : option (option dbl * dbl) :=
  match xs with
  | [x] => Some (None, shown x)
  | [x; y] => Some (Some (shown x), shown y)
  | _ => None
  end.

Lemma two_legal sh m x y : sh <> LineHeight -> num_wf x -> num_wf y -> writable sh x -> writable sh y ->
  exists q1 q2, legal (Sized sh m) (num_text x ++ unit_of m ++ " " ++ num_text y ++ unit_of m) q1 (Some q2)
    /\ float_of (fst q1) (snd q1) = shown x /\ float_of (fst q2) (snd q2) = shown y.
Proof.
  intros Hs Hx Hy Wx Wy. destruct (written_spelled sh m x Hx Wx) as (d & f & S1 & F1).
  destruct (written_spelled sh m y Hy Wy) as (d' & f' & S2 & F2).
  exists (d, f), (d', f'). split; [|split; assumption].
  replace (num_text x ++ unit_of m ++ " " ++ num_text y ++ unit_of m) with ((num_text x ++ unit_of m) ++ " " ++ (num_text y ++ unit_of m)) by (rewrite app_assoc_s; reflexivity).
  apply legal_two; assumption.
Qed.

Lemma two_illegal sh m x y : num_wf x -> num_wf y -> ~ (writable sh x /\ writable sh y) ->
  valid (Sized sh m) (num_text x ++ unit_of m ++ " " ++ num_text y ++ unit_of m) = false.
Proof.
  intros Hx Hy W. unfold valid, groups. destruct (writable_dec sh x) as [Wx|Wx].
  - destruct (written_spelled sh m x Hx Wx) as (d & f & S1 & _).
    replace (num_text x ++ unit_of m ++ " " ++ num_text y ++ unit_of m) with ((num_text x ++ unit_of m) ++ " " ++ (num_text y ++ unit_of m)) by (rewrite app_assoc_s; reflexivity).
    rewrite (quantity_app _ _ _ _ _ _ S1), after_app. rewrite unwritable_none by tauto. destruct sh; reflexivity.
  - rewrite unwritable_none by assumption. reflexivity.
Qed.

Lemma good_written t xs : Forall num_wf xs -> good t xs ->
  exists s, construct t (map ANum xs) = Some s /\ sizes t s = as_shown xs.
Proof.
  intros Hw [Hc Hg]. destruct xs as [|x [|y [|z xs]]].
  - destruct t as [[]|]; cbn in Hc; lia.
  - inversion Hw; subst. cbn [map]. rewrite construct_one. destruct t as [sh m|]; [|cbn in Hc; lia].
    inversion Hg; subst. destruct (written_spelled sh m x ltac:(assumption) ltac:(assumption)) as (d & f & S1 & F1).
    assert (Hsh : sh = FontSize \/ sh = LineHeight) by (destruct sh; cbn in Hc; auto; lia).
    pose proof (legal_one sh m _ d f Hsh S1) as L.
    assert (V : valid (Sized sh m) (num_text x ++ unit_of m) = true) by (apply valid_iff; eauto).
    assert (E : from_tuple (Sized sh m) [x] = Some (num_text x ++ unit_of m)) by (destruct Hsh; subst; reflexivity).
    rewrite E, V. eexists. split; [reflexivity|]. rewrite (sizes_legal _ _ _ _ L). cbn [fst snd as_shown]. rewrite F1. reflexivity.
  - inversion Hw as [|? ? Hx Hw']; subst. inversion Hw' as [|? ? Hy _]; subst. cbn [map]. rewrite construct_two.
    destruct t as [sh m|].
    + inversion Hg as [|? ? Wx Hg']; subst. inversion Hg' as [|? ? Wy _]; subst.
      assert (Hsh : sh <> LineHeight) by (intros ->; cbn in Hc; lia).
      destruct (two_legal sh m x y Hsh Hx Hy Wx Wy) as (q1 & q2 & L & F1 & F2).
      assert (E : from_tuple (Sized sh m) [x; y] = Some (num_text x ++ unit_of m ++ " " ++ num_text y ++ unit_of m)) by (destruct sh; try reflexivity; congruence).
      assert (V : valid (Sized sh m) (num_text x ++ unit_of m ++ " " ++ num_text y ++ unit_of m) = true) by (apply valid_iff; eauto).
      rewrite E, V. eexists. split; [reflexivity|]. rewrite (sizes_legal _ _ _ _ L). cbn [as_shown]. rewrite F1, F2. reflexivity.
    + inversion Hg as [|? ? (z & -> & Pz) Hg']; subst. inversion Hg' as [|? ? (z' & -> & Pz') _]; subst.
      cbn [from_tuple num_text]. unfold show. destruct (Z.ltb_spec z 0); [lia|]. destruct (Z.ltb_spec z' 0); [lia|].
      pose proof (legal_resolution (show_nat z) (show_nat z') z z' (read_show_nat z ltac:(lia)) Pz (read_show_nat z' ltac:(lia)) Pz') as L.
      assert (V : valid Resolution (show_nat z ++ " " ++ show_nat z') = true) by (apply valid_iff; eauto).
      rewrite V. eexists. split; [reflexivity|]. rewrite (sizes_legal _ _ _ _ L). cbn [fst snd as_shown shown].
      rewrite !float_of_nat by lia. rewrite !Z.abs_eq by lia. reflexivity.
  - destruct t as [[]|]; cbn in Hc; lia.
Qed.

Lemma written_good t xs s : Forall num_wf xs -> (List.length xs <= 2)%nat -> construct t (map ANum xs) = Some s -> good t xs.
Proof.
  intros Hw Hl. destruct xs as [|x [|y [|z xs]]]; [discriminate| | |cbn in Hl; lia].
  - inversion Hw; subst. cbn [map]. rewrite construct_one. destruct t as [sh m|]; [|discriminate].
    destruct (writable_dec sh x) as [W|W].
    + intros E. split; [|auto]. destruct sh; try discriminate; cbn; lia.
    + destruct (from_tuple (Sized sh m) [x]) as [s'|] eqn:E; [|discriminate].
      assert (s' = num_text x ++ unit_of m) by (destruct sh; cbn in E; congruence). subst s'.
      unfold valid, groups. rewrite unwritable_none by assumption. discriminate.
  - inversion Hw as [|? ? Hx Hw']; subst. inversion Hw' as [|? ? Hy _]; subst. cbn [map]. rewrite construct_two.
    destruct t as [sh m|].
    + destruct (from_tuple (Sized sh m) [x; y]) as [s'|] eqn:E; [|discriminate].
      assert (s' = num_text x ++ unit_of m ++ " " ++ num_text y ++ unit_of m) by (destruct sh; first [discriminate|injection E as <-; reflexivity]). subst s'.
      destruct (writable_dec sh x) as [Wx|Wx]; [|rewrite two_illegal by tauto; discriminate].
      destruct (writable_dec sh y) as [Wy|Wy]; [|rewrite two_illegal by tauto; discriminate].
      intros _. split; [|auto]. destruct sh; try discriminate; cbn; lia.
    + cbn [from_tuple]. unfold valid.
      destruct (pos_int_dec x) as [Px|Px]; [|rewrite resolution_first by assumption; discriminate].
      destruct (pos_int_dec y) as [Py|Py]; [intros _; split; [reflexivity|auto]|].
      destruct Px as (z & -> & Pz). unfold groups. rewrite int_positive by (try assumption; reflexivity). rewrite after_app.
      destruct (resolution_second y Hy Py) as [-> |(d & c & q & ->)]; discriminate.
Qed.

(** Two numbers make one value, so that no more than two arguments do. *)
Lemma convert_args_count t args : forall pair l, (List.length pair <= 1)%nat -> convert_args t pair args = Some l ->
  (List.length args + List.length pair <= 2 * List.length l)%nat.
Proof.
  induction args as [|[x|s] args IH]; intros pair l Hp H; cbn [convert_args] in H.
  - destruct pair as [|y [|z p]]; [injection H as <-; cbn; lia| |cbn in Hp; lia].
    destruct (from_tuple t [y]); [|discriminate]. injection H as <-. cbn. lia.
  - destruct pair as [|y [|z p]]; [|clear Hp|cbn in Hp; lia].
    + apply IH in H; [|cbn; lia]. cbn in *. lia.
    + destruct (from_tuple t [y; x]); [|discriminate]. destruct (convert_args t [] args) as [l'|] eqn:E; [|discriminate].
      injection H as <-. apply IH in E; [|cbn; lia]. cbn in *. lia.
  - destruct (convert_args t pair args) as [l'|] eqn:E; [|discriminate]. injection H as <-. apply IH in E; [|assumption]. cbn in *. lia.
Qed.

Lemma construct_count t args s : construct t args = Some s -> (List.length args <= 2)%nat.
Proof.
  unfold construct. destruct (convert_args t [] args) as [l|] eqn:E; [|discriminate].
  apply convert_args_count in E; [|cbn; lia]. destruct l as [|a [|b l]]; try discriminate. cbn in E. lia.
Qed.

Lemma construct_forms t args s : construct t args = Some s ->
  valid t s = true /\ (args = [AText s] \/ exists xs, args = map ANum xs).
Proof.
  intros H. pose proof (construct_count _ _ _ H) as C. unfold construct in H.
  destruct args as [|a [|b [|c args]]]; try (cbn in C; lia); [discriminate| |].
  - destruct a as [x|u]; cbn [convert_args] in H.
    + destruct (from_tuple t [x]) as [u|]; cbn [option_map] in H; [|discriminate].
      destruct (valid t u) eqn:V; [|discriminate]. injection H as <-. split; [assumption|]. right. exists [x]. reflexivity.
    + cbn [option_map] in H. destruct (valid t u) eqn:V; [|discriminate]. injection H as <-. auto.
  - destruct a as [x|u], b as [y|w]; cbn [convert_args] in H.
    + destruct (from_tuple t [x; y]) as [u|]; cbn [option_map] in H; [|discriminate].
      destruct (valid t u) eqn:V; [|discriminate]. injection H as <-. split; [assumption|]. right. exists [x; y]. reflexivity.
    + destruct (from_tuple t [x]) as [u|]; discriminate.
    + destruct (from_tuple t [y]) as [w|]; discriminate.
    + discriminate.
Qed.
