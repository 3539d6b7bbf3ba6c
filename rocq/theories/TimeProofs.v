(** Proofs about time texts. *)

From Coq Require Import List ZArith String Ascii Bool Lia.
From Verif Require Import Digits TimeModel TimeSpec TimingModel.
Import ListNotations.
Open Scope Z_scope.

Lemma members_spec : forall t h m s ms, members t = (h, m, s, ms) ->
  t = (((h * 60 + m) * 60 + s) * 1000 + ms) * 1000 + t mod 1000 /\
  0 <= m < 60 /\ 0 <= s < 60 /\ 0 <= ms < 1000 /\ (0 <= t -> 0 <= h) /\ (t < 0 -> h < 0).
Proof.
  intros t h m s ms H. unfold members, us_per_day, us_per_s in H.
  inversion H; subst; clear H.
  change (86400 * 1000000) with 86400000000 in *.
  remember (t / 86400000000) as D. remember (t mod 86400000000) as R.
  assert (HR : 0 <= R < 86400000000) by (subst; apply Z.mod_pos_bound; lia).
  assert (Ht : t = 86400000000 * D + R) by (subst; apply Z.div_mod; lia).
  clear HeqD HeqR.
  assert (HM : t mod 1000000 = R mod 1000000).
  { rewrite Ht. replace (86400000000 * D + R) with (R + (86400 * D) * 1000000) by lia.
    apply Z_mod_plus_full. }
  assert (HM3 : t mod 1000 = R mod 1000).
  { rewrite Ht. replace (86400000000 * D + R) with (R + (86400000 * D) * 1000) by lia.
    apply Z_mod_plus_full. }
  rewrite HM, HM3.
  remember (R / 1000000) as S.
  assert (HS := Z.div_mod R 1000000 ltac:(lia)). rewrite <- HeqS in HS.
  assert (HU : 0 <= R mod 1000000 < 1000000) by (apply Z.mod_pos_bound; lia).
  remember (R mod 1000000) as U.
  assert (HU3 : R mod 1000 = U mod 1000).
  { rewrite HS. replace (1000000 * S + U) with (U + (1000 * S) * 1000) by lia.
    apply Z_mod_plus_full. }
  rewrite HU3.
  assert (H1 := Z.div_mod U 1000 ltac:(lia)).
  assert (H1b : 0 <= U mod 1000 < 1000) by (apply Z.mod_pos_bound; lia).
  assert (H2 := Z.div_mod S 3600 ltac:(lia)).
  assert (H2b : 0 <= S mod 3600 < 3600) by (apply Z.mod_pos_bound; lia).
  assert (H3 := Z.div_mod (S mod 3600) 60 ltac:(lia)).
  assert (H3b : 0 <= (S mod 3600) mod 60 < 60) by (apply Z.mod_pos_bound; lia).
  repeat split; lia.
Qed.

Lemma trunc_members : forall t h m s ms, members t = (h, m, s, ms) ->
  trunc_ms t = (((h * 60 + m) * 60 + s) * 1000 + ms) * 1000.
Proof.
  intros t h m s ms H. apply members_spec in H. unfold trunc_ms. lia.
Qed.

(** ** Doubles: integers up to 2^53 are exact *)

Lemma rnd_int : forall n, 0 <= n <= 2 ^ 53 ->
  exists k, 0 < k /\ rnd n 1 = (n * k, k).
Proof.
  intros n [H0 H1]. unfold rnd. destruct (Z.eqb_spec n 0) as [->|Hn].
  - exists 1. split; [lia|reflexivity].
  - assert (Hl := Z.log2_spec n ltac:(lia)).
    assert (Hl0 := Z.log2_nonneg n).
    change (Z.log2 1) with 0. rewrite Z.sub_0_r.
    remember (Z.log2 n) as l.
    assert (l <= 53).
    { destruct (Z_le_gt_dec l 53); auto.
      assert (2 ^ 54 <= 2 ^ l) by (apply Z.pow_le_mono_r; lia).
      assert (2 ^ 53 < 2 ^ 54) by (apply Z.pow_lt_mono_r; lia). lia. }
    destruct (Z.leb_spec 0 (l - 52)) as [Hle|Hgt].
    + assert (El : l = 52 \/ l = 53) by lia. destruct El as [El|El].
      * rewrite El in *. change (52 - 52) with 0. change (1 * 2 ^ 0) with 1.
        rewrite !Z.div_1_r.
        destruct (Z.ltb_spec n (2 ^ 52)); [lia|].
        change (0 <=? 0) with true. cbn iota beta. change (1 * 2 ^ 0) with 1.
        rewrite Z.div_1_r, Z.mod_1_r. cbn [Z.mul Z.ltb Z.compare Z.eqb orb andb].
        exists 1. split; [lia|]. change (2 ^ 0) with 1. reflexivity.
      * assert (n = 2 ^ 53) by (rewrite El in Hl; lia). subst n.
        rewrite El. exists 1. split; [lia|]. vm_compute. reflexivity.
    + assert (Hp : 2 ^ 52 <= n * 2 ^ (- (l - 52))).
      { replace 52 with (l + - (l - 52)) at 1 by lia. rewrite Z.pow_add_r by lia.
        apply Z.mul_le_mono_nonneg_r; [apply Z.pow_nonneg; lia|lia]. }
      rewrite !Z.div_1_r.
      destruct (Z.ltb_spec (n * 2 ^ (- (l - 52))) (2 ^ 52)); [lia|].
      destruct (Z.leb_spec 0 (l - 52)); [lia|].
      rewrite Z.div_1_r, Z.mod_1_r. cbn [Z.mul Z.ltb Z.compare Z.eqb orb andb].
      exists (2 ^ (- (l - 52))). split; [apply Z.pow_pos_nonneg; lia|reflexivity].
Qed.

Lemma float_us_int : forall n k F, 0 < k -> float_us (n * k, k) F = n * F.
Proof.
  intros n k F Hk. unfold float_us, modf. cbn [fst snd].
  rewrite Z.div_mul, Z.mod_mul by lia. reflexivity.
Qed.

Lemma mk_td_ok : forall us, min_td <= us < max_td -> mk_td us = Some us.
Proof.
  intros us [H1 H2]. unfold mk_td. apply Z.leb_le in H1. apply Z.ltb_lt in H2.
  rewrite H1, H2. reflexivity.
Qed.

(** ** Timecount *)

Lemma scan_unit_text : forall u, scan_unit (unit_text u) = Some u.
Proof. destruct u; reflexivity. Qed.

Lemma unit_first : forall u, no_digit_first (unit_text u) = true.
Proof. destruct u; reflexivity. Qed.

Lemma timecount_parts_show : forall n u, 0 <= n ->
  timecount_parts (show n ++ unit_text u) = Some (show n, ""%string, u).
Proof.
  intros n u Hn. unfold timecount_parts, scan_number, show.
  destruct (Z.ltb_spec n 0); [lia|].
  rewrite (span_app (show_nat n) (unit_text u) (show_nat_digits n) (unit_first u)).
  assert (Hne := show_nat_nonempty n).
  destruct (show_nat n) eqn:E; [congruence|].
  destruct u; reflexivity.
Qed.

Lemma timecount_td_show : forall n u, 0 <= n <= 2 ^ 53 -> n * unit_us u < max_td ->
  timecount_td (show n ++ unit_text u) = Some (n * unit_us u).
Proof.
  intros n u Hn Hm. unfold timecount_td.
  rewrite timecount_parts_show by lia.
  unfold float_of. rewrite app_empty_r.
  assert (Hs : horner 0 (show n) = Some n).
  { unfold show. destruct (Z.ltb_spec n 0); [lia|]. apply horner_show_nat; lia. }
  rewrite Hs. change (10 ^ Z.of_nat (String.length "")) with 1.
  destruct (rnd_int n Hn) as (k & Hk & ->).
  rewrite float_us_int by auto. apply mk_td_ok. split; auto.
  apply Z.le_trans with 0; [unfold min_td, us_per_day, us_per_s; lia|].
  apply Z.mul_nonneg_nonneg; [lia|destruct u; unfold unit_us, us_per_s; lia].
Qed.

(** The text of a duration of at least a millisecond: a count of the unit it
    divides into. *)
Lemma timecount_of_spec : forall t, t <> 0 -> trunc_ms t <> 0 ->
  exists n u, timecount_of t = (show n ++ unit_text u)%string /\
    n * unit_us u = trunc_ms t /\
    (u = UMS <-> t / 1000 mod 1000 <> 0).
Proof.
  intros t Ht Htr. unfold timecount_of.
  destruct (Z.eqb_spec t 0); [congruence|].
  destruct (members t) as [[[h m] s] ms] eqn:Hm.
  assert (Htm := trunc_members _ _ _ _ _ Hm).
  apply members_spec in Hm. destruct Hm as (Et & Hm & Hs & Hms & _ & _).
  assert (Hq : t / 1000 mod 1000 = ms).
  { rewrite Et. remember (t mod 1000) as r.
    assert (0 <= r < 1000) by (subst; apply Z.mod_pos_bound; lia).
    rewrite Z.div_add_l, (Z.div_small r), Z.add_0_r by lia.
    rewrite Z.add_comm, Z.mod_add, Z.mod_small by lia. auto. }
  rewrite Hq.
  destruct (Z.eqb_spec ms 0) as [E0|E0].
  - destruct (Z.eqb_spec s 0) as [E1|E1].
    + destruct (Z.eqb_spec m 0) as [E2|E2].
      * destruct (Z.eqb_spec h 0) as [E3|E3].
        -- exfalso. apply Htr. rewrite Htm. lia.
        -- exists (h * 1), UH. split; [reflexivity|]. split.
           ++ rewrite Htm. unfold unit_us, us_per_s. lia.
           ++ split; [discriminate|lia].
      * exists (m * 1 + h * 60), UM. split; [reflexivity|]. split.
        -- rewrite Htm. unfold unit_us, us_per_s. lia.
        -- split; [discriminate|lia].
    + exists (s * 1 + m * 60 + h * 3600), US. split; [reflexivity|]. split.
      * rewrite Htm. unfold unit_us, us_per_s. lia.
      * split; [discriminate|lia].
  - exists (ms + s * 1000 + m * 60000 + h * 3600000), UMS. split; [reflexivity|]. split.
    + rewrite Htm. unfold unit_us. lia.
    + split; [lia|auto].
Qed.

Lemma timecount_sub_ms : forall t, 0 < t < 1000 -> timecount_of t = "0None"%string.
Proof.
  intros t H. unfold timecount_of. destruct (Z.eqb_spec t 0); [lia|].
  destruct (members t) as [[[h m] s] ms] eqn:Hm.
  apply members_spec in Hm. destruct Hm as (Et & Hm & Hs & Hms & Hh & _).
  rewrite Z.mod_small in Et by lia.
  assert (h = 0 /\ m = 0 /\ s = 0 /\ ms = 0) as (-> & -> & -> & ->) by lia.
  reflexivity.
Qed.

Lemma digits_show : forall n, 0 <= n -> digits (show n).
Proof.
  intros n H. unfold show. destruct (Z.ltb_spec n 0); [lia|].
  split; [apply show_nat_nonempty|apply show_nat_digits].
Qed.

Lemma legal_timecount_first : forall s, legal_timecount s ->
  exists c r, s = String c r /\ is_digit c = true.
Proof.
  intros s (d & u & (Hne & Hd) & _ & Hs).
  destruct d as [|c d]; [congruence|]. cbn in Hd. apply andb_true_iff in Hd as [Hc _].
  destruct Hs as [->|(f & _ & ->)]; cbn; eauto.
Qed.

Lemma legal_timecount_last : forall s, legal_timecount s ->
  exists r c, s = (r ++ String c "")%string /\ In c ["h"; "s"; "m"]%char.
Proof.
  intros s (d & u & _ & Hu & Hs).
  assert (exists r c, u = (r ++ String c "")%string /\ In c ["h"; "s"; "m"]%char) as (r & c & Eu & Hc).
  { cbn in Hu. destruct Hu as [E|[E|[E|[E|[]]]]]; subst u.
    - exists ""%string, "h"%char; cbn; auto.
    - exists "m"%string, "s"%char; cbn; auto.
    - exists ""%string, "s"%char; cbn; auto.
    - exists ""%string, "m"%char; cbn; auto. }
  destruct Hs as [->|(f & _ & ->)]; subst u.
  - exists (d ++ r)%string, c. rewrite app_assoc_s. auto.
  - exists (d ++ "." ++ f ++ r)%string, c. rewrite !app_assoc_s. auto.
Qed.

(** ** Clock values *)

Lemma showpad2 : forall n, 0 <= n < 100 ->
  exists a b, showpad 2 n = String a (String b "") /\ dval a = Some (n / 10) /\ dval b = Some (n mod 10).
Proof.
  intros n H.
  assert (Hall : forallb (fun k => let n := Z.of_nat k in
    match showpad 2 n with
    | String a (String b EmptyString) =>
        match dval a, dval b with
        | Some x, Some y => (x =? n / 10) && (y =? n mod 10)
        | _, _ => false
        end
    | _ => false
    end) (seq 0 100) = true) by (vm_compute; reflexivity).
  rewrite forallb_forall in Hall. specialize (Hall (Z.to_nat n)).
  rewrite in_seq, Z2Nat.id in Hall by lia. specialize (Hall ltac:(lia)). cbv zeta in Hall.
  destruct (showpad 2 n) as [|a [|b [|]]]; try discriminate.
  destruct (dval a) as [x|] eqn:Ea; [|discriminate].
  destruct (dval b) as [y|] eqn:Eb; [|discriminate].
  apply andb_true_iff in Hall as [Hx Hy]. apply Z.eqb_eq in Hx, Hy. subst.
  exists a, b. auto.
Qed.

Lemma two_digits_showpad : forall n r, 0 <= n < 100 ->
  two_digits (showpad 2 n ++ r) = Some (n, r).
Proof.
  intros n r H. destruct (showpad2 n H) as (a & b & -> & Ha & Hb). cbn [two_digits append]. rewrite Ha, Hb.
  rewrite <- Z.div_mod by lia. reflexivity.
Qed.

Lemma scan_sexa_showpad : forall l n r, 0 <= n <= l -> l < 100 ->
  scan_sexa l (showpad 2 n ++ r) = Some (n, r).
Proof.
  intros. unfold scan_sexa. rewrite two_digits_showpad by lia.
  destruct (Z.leb_spec n l); [auto|lia].
Qed.

Lemma scan_char_app : forall c r, scan_char c (String c r) = Some r.
Proof. intros. cbn. rewrite Ascii.eqb_refl. auto. Qed.

Lemma frac_ms_exact : forall ms, 0 < ms < 1000 ->
  float_us (frac_ms (showpad 3 ms)) 1000 = ms * 1000.
Proof.
  intros ms H.
  assert (Hall : forallb (fun k => let n := Z.of_nat k in
    float_us (frac_ms (showpad 3 n)) 1000 =? n * 1000) (seq 0 1000) = true)
    by (vm_compute; reflexivity).
  rewrite forallb_forall in Hall. specialize (Hall (Z.to_nat ms)).
  rewrite in_seq, Z2Nat.id in Hall by lia. specialize (Hall ltac:(lia)). cbv zeta in Hall.
  apply Z.eqb_eq in Hall. auto.
Qed.

Lemma clock_parts_text : forall lim h m s ms,
  0 <= h -> (lim = true -> h < 100) -> 0 <= m < 60 -> 0 <= s < 60 -> 0 <= ms < 1000 ->
  clock_parts lim (clock_text h m s ms) =
  Some (showpad 2 h, m, s, if ms =? 0 then ""%string else showpad 3 ms).
Proof.
  intros lim h m s ms Hh Hl Hm Hs Hms. unfold clock_parts, clock_text.
  assert (Hlen : (if lim then Nat.eqb (String.length (showpad 2 h)) 2
                  else Nat.leb 2 (String.length (showpad 2 h))) = true).
  { destruct lim.
    - destruct (showpad2 h ltac:(specialize (Hl eq_refl); lia)) as (a & b & -> & _). reflexivity.
    - apply Nat.leb_le, showpad_length; auto. }
  destruct (Z.eqb_spec ms 0) as [E|E].
  - rewrite span_app by (try apply showpad_digits; auto). rewrite Hlen.
    change (":" ++ showpad 2 m ++ ":" ++ showpad 2 s)%string
      with (String ":" (showpad 2 m ++ String ":" (showpad 2 s))).
    rewrite scan_char_app, scan_sexa_showpad by lia. rewrite scan_char_app.
    rewrite <- (app_empty_r (showpad 2 s)), scan_sexa_showpad by lia. reflexivity.
  - rewrite span_app by (try apply showpad_digits; auto). rewrite Hlen.
    change (":" ++ showpad 2 m ++ ":" ++ showpad 2 s ++ "." ++ showpad 3 ms)%string
      with (String ":" (showpad 2 m ++ String ":" (showpad 2 s ++ String "." (showpad 3 ms)))).
    rewrite scan_char_app, scan_sexa_showpad by lia. rewrite scan_char_app.
    rewrite scan_sexa_showpad by lia.
    rewrite <- (app_empty_r (showpad 3 ms)) at 1.
    rewrite span_app by (try apply showpad_digits; auto; lia).
    assert (Hne := showpad_nonempty 3 ms ltac:(lia)).
    destruct (showpad 3 ms); [congruence|reflexivity].
Qed.

Lemma clock_td_text : forall lim t h m s ms, members t = (h, m, s, ms) ->
  in_range t -> (lim = true -> h < 100) ->
  clock_td lim (clock_text h m s ms) = Some (trunc_ms t).
Proof.
  intros lim t h m s ms Hm Hr Hl. unfold in_range in Hr.
  assert (Ht := trunc_members _ _ _ _ _ Hm).
  apply members_spec in Hm. destruct Hm as (Et & Hm & Hs & Hms & Hh & _).
  unfold clock_td. rewrite clock_parts_text by (auto; lia).
  rewrite horner_showpad by lia.
  assert (Hf : float_us (frac_ms (if ms =? 0 then ""%string else showpad 3 ms)) 1000 = ms * 1000).
  { destruct (Z.eqb_spec ms 0) as [->|E]; [reflexivity|]. apply frac_ms_exact. lia. }
  rewrite Hf.
  assert (Hb : 0 <= t mod 1000 < 1000) by (apply Z.mod_pos_bound; lia).
  unfold trunc_ms in *. rewrite mk_td_ok.
  - unfold us_per_s. f_equal. lia.
  - unfold min_td, max_td, us_per_day, us_per_s. lia.
Qed.

Lemma hours_100 : forall t h m s ms, members t = (h, m, s, ms) -> (99 < h <-> h100 <= t).
Proof.
  intros t h m s ms H. apply members_spec in H. unfold h100.
  destruct H as (Et & Hm & Hs & Hms & _ & _).
  assert (Hb : 0 <= t mod 1000 < 1000) by (apply Z.mod_pos_bound; lia). lia.
Qed.

Lemma showpad2_length : forall n, 0 <= n < 100 -> String.length (showpad 2 n) = 2%nat.
Proof. intros n Hn. destruct (showpad2 n Hn) as (a & b & -> & _). reflexivity. Qed.

Lemma digits_showpad : forall k n, 0 <= n -> digits (showpad k n).
Proof. intros. split; [apply showpad_nonempty|apply showpad_digits]; auto. Qed.

Lemma clock_text_is : forall (P : nat -> Prop) h m s ms,
  0 <= h -> P (String.length (showpad 2 h)) -> 0 <= m < 60 -> 0 <= s < 60 -> 0 <= ms < 1000 ->
  is_clock P (clock_text h m s ms) (showpad 2 h) m s (if ms =? 0 then ""%string else showpad 3 ms).
Proof.
  intros P h m s ms Hh HP Hm Hs Hms. unfold clock_text.
  split; [apply digits_showpad; auto|]. split; [auto|].
  exists (showpad 2 m), (showpad 2 s).
  rewrite !showpad2_length by lia. rewrite !read_showpad by lia.
  repeat match goal with |- _ /\ _ => split end; auto; try lia.
  destruct (ms =? 0); [left|right]; auto. split; auto. apply digits_showpad; lia.
Qed.

Lemma hours_len_showpad : forall lim h, 0 <= h -> (lim = true -> h < 100) ->
  hours_len lim (String.length (showpad 2 h)).
Proof.
  intros [|] h Hh Hl; cbn.
  - apply showpad2_length. specialize (Hl eq_refl). lia.
  - apply showpad_length; auto.
Qed.

(** The parser accepts the grammar and nothing else. *)
Lemma read_two : forall mt m, String.length mt = 2%nat -> read mt = Some m ->
  forall r, two_digits (mt ++ r) = Some (m, r).
Proof.
  intros [|a [|b [|]]] m Hl Hr r; cbn in Hl; try discriminate.
  unfold read in Hr. cbn [horner] in Hr. cbn [append two_digits].
  destruct (dval a); [|discriminate]. destruct (dval b); [|discriminate].
  inversion Hr. reflexivity.
Qed.

Lemma two_read : forall s m r, two_digits s = Some (m, r) ->
  exists mt, s = (mt ++ r)%string /\ String.length mt = 2%nat /\ read mt = Some m.
Proof.
  intros [|a [|b s]] m r H; cbn in H; try discriminate.
  destruct (dval a) eqn:Ea; [|discriminate]. destruct (dval b) eqn:Eb; [|discriminate].
  inversion H; subst. exists (String a (String b "")). split; auto. split; auto.
  unfold read. cbn [horner]. rewrite Ea, Eb. reflexivity.
Qed.

Lemma horner_digits : forall s acc v, horner acc s = Some v -> all_digits s = true.
Proof.
  induction s as [|c s IH]; cbn; intros acc v H; auto.
  unfold is_digit. destruct (dval c); [|discriminate]. cbn. eauto.
Qed.

Lemma clock_parts_iff : forall lim s h m c f,
  clock_parts lim s = Some (h, m, c, f) <-> is_clock (hours_len lim) s h m c f.
Proof.
  intros lim s h m c f.
  assert (Hlen : forall n, (if lim then Nat.eqb n 2 else Nat.leb 2 n) = true <-> hours_len lim n).
  { intros n. destruct lim; cbn [hours_len]; [apply Nat.eqb_eq|apply Nat.leb_le]. }
  split.
  - unfold clock_parts. destruct (span s) as [h' r] eqn:Es.
    apply span_spec in Es. destruct Es as (-> & Hd & _).
    destruct (if lim then Nat.eqb (String.length h') 2 else Nat.leb 2 (String.length h')) eqn:El;
      [|discriminate].
    apply Hlen in El.
    assert (Hne : digits h').
    { split; auto. intros ->. destruct lim; cbn in El; lia. }
    destruct r as [|c1 r1]; cbn [scan_char]; [discriminate|].
    destruct (Ascii.eqb_spec c1 ":"%char) as [->|]; [|discriminate].
    unfold scan_sexa. destruct (two_digits r1) as [[m' r2]|] eqn:E2; [|discriminate].
    destruct (Z.leb_spec m' 59); [|discriminate].
    destruct r2 as [|c2 r3]; cbn [scan_char]; [discriminate|].
    destruct (Ascii.eqb_spec c2 ":"%char) as [->|]; [|discriminate].
    destruct (two_digits r3) as [[c' r4]|] eqn:E3; [|discriminate].
    destruct (Z.leb_spec c' 60); [|discriminate].
    apply two_read in E2. destruct E2 as (mt & -> & Lm & Rm).
    apply two_read in E3. destruct E3 as (ct & -> & Lc & Rc).
    destruct r4 as [|c5 r5].
    + intros E. inversion E; subst. split; [auto|]. split; [auto|].
      exists mt, ct. repeat (split; [auto; lia|]). left. rewrite app_empty_r. auto.
    + destruct (Ascii.eqb_spec c5 "."%char) as [->|Hn].
      * destruct (span r5) as [f' q] eqn:E5. apply span_spec in E5. destruct E5 as (-> & Hf & _).
        destruct f' as [|x f']; [discriminate|]. destruct q; [|discriminate].
        intros E. inversion E; subst. split; [auto|]. split; [auto|].
        exists mt, ct. repeat (split; [auto; lia|]). right. rewrite app_empty_r.
        split; [split; [discriminate|auto]|reflexivity].
      * destruct c5 as [[] [] [] [] [] [] [] []]; try discriminate. exfalso; apply Hn; reflexivity.
  - intros ((Hne & Hd) & Hl & mt & ct & Lm & Rm & Hm & Lc & Rc & Hc & Hs).
    apply Hlen in Hl. unfold clock_parts.
    assert (Es : exists r, s = (h ++ String ":" (mt ++ String ":" (ct ++ r)))%string /\
      (r = "" /\ f = "" \/ r = String "." f /\ digits f)%string).
    { destruct Hs as [[-> ->]|[Hf ->]].
      - exists ""%string. rewrite app_empty_r. auto.
      - exists (String "." f). auto. }
    destruct Es as (r & -> & Hr).
    rewrite span_app by auto. rewrite Hl. rewrite scan_char_app.
    unfold scan_sexa. rewrite (read_two _ _ Lm Rm).
    destruct (Z.leb_spec m 59); [|lia]. rewrite scan_char_app.
    rewrite (read_two _ _ Lc Rc). destruct (Z.leb_spec c 60); [|lia].
    destruct Hr as [[-> ->]|[-> [Hf1 Hf2]]]; auto.
    rewrite <- (app_empty_r f) at 1. rewrite span_app by auto.
    destruct f; [congruence|auto].
Qed.

(** The same for timecount values. *)
Lemma timecount_parts_iff : forall s d f u,
  timecount_parts s = Some (d, f, u) <->
  digits d /\ ((f = "" /\ s = d ++ unit_text u) \/
               (digits f /\ s = d ++ "." ++ f ++ unit_text u))%string.
Proof.
  intros s d f u. split.
  - unfold timecount_parts, scan_number. destruct (span s) as [d' r] eqn:Es.
    apply span_spec in Es. destruct Es as (-> & Hd & _).
    destruct d' as [|x d']; [discriminate|]. remember (String x d') as D.
    assert (HD : digits D) by (split; [subst; discriminate|auto]).
    assert (Hu : forall q u', scan_unit q = Some u' -> q = unit_text u').
    { intros q u' H. unfold scan_unit in H.
      repeat match type of H with (if String.eqb ?a ?b then _ else _) = _ =>
        destruct (String.eqb_spec a b); [inversion H; subst; reflexivity|] end. discriminate. }
    intros H.
    assert (Hcase : (exists r', r = String "." r' /\ exists f' q, span r' = (f', q) /\ f' <> ""%string /\
        match scan_unit q with Some u' => Some (D, f', u') | None => None end = Some (d, f, u)) \/
      match scan_unit r with Some u' => Some (D, ""%string, u') | None => None end = Some (d, f, u)).
    { destruct r as [|c r]; [right; exact H|].
      destruct (Ascii.eqb_spec c "."%char) as [->|Hn].
      - left. exists r. split; auto. destruct (span r) as [f' q]. exists f', q. split; auto.
        destruct f'; [discriminate|]. split; [discriminate|exact H].
      - right. destruct c as [[] [] [] [] [] [] [] []]; try exact H. exfalso; apply Hn; reflexivity. }
    destruct Hcase as [(r' & -> & f' & q & Eq & Hf & H2)|H2].
    + apply span_spec in Eq. destruct Eq as (-> & Hfd & _).
      destruct (scan_unit q) as [u'|] eqn:Eu; [|discriminate]. apply Hu in Eu.
      inversion H2; subst. split; auto. right. split; [split; auto|reflexivity].
    + destruct (scan_unit r) as [u'|] eqn:Eu; [|discriminate]. apply Hu in Eu.
      inversion H2; subst. split; auto.
  - intros [[Hne Hd] Hs]. unfold timecount_parts, scan_number.
    destruct Hs as [[-> ->]|[[Hf1 Hf2] ->]].
    + rewrite (span_app d (unit_text u) Hd (unit_first u)).
      destruct d; [congruence|]. destruct u; reflexivity.
    + rewrite span_app by auto. destruct d as [|x d]; [congruence|].
      cbn [append]. rewrite (span_app f (unit_text u) Hf2 (unit_first u)).
      destruct f; [congruence|]. rewrite scan_unit_text. reflexivity.
Qed.

(** ** Text order *)

Lemma compare_refl_s : forall s, String.compare s s = Eq.
Proof.
  induction s as [|c s IH]; cbn; auto.
  unfold Ascii.compare. rewrite N.compare_refl. auto.
Qed.

Lemma compare_app : forall a b r q, String.length a = String.length b ->
  String.compare (a ++ r) (b ++ q) =
  match String.compare a b with Eq => String.compare r q | c => c end.
Proof.
  induction a as [|x a IH]; intros [|y b] r q H; cbn in H; try discriminate; cbn; auto.
  destruct (Ascii.compare x y); auto.
Qed.

Lemma dval_compare : forall a b x y, dval a = Some x -> dval b = Some y ->
  Ascii.compare a b = (x ?= y).
Proof.
  intros a b x y Ha Hb. unfold dval in Ha, Hb.
  destruct ((48 <=? Z.of_N (N_of_ascii a)) && (Z.of_N (N_of_ascii a) <=? 57)); [|discriminate].
  destruct ((48 <=? Z.of_N (N_of_ascii b)) && (Z.of_N (N_of_ascii b) <=? 57)); [|discriminate].
  inversion Ha; inversion Hb; subst. unfold Ascii.compare.
  rewrite <- N2Z.inj_compare.
  destruct (Z.compare_spec (Z.of_N (N_of_ascii a) - 48) (Z.of_N (N_of_ascii b) - 48));
    destruct (Z.compare_spec (Z.of_N (N_of_ascii a)) (Z.of_N (N_of_ascii b))); auto; lia.
Qed.

Lemma digits_compare : forall a b va vb accA accB, String.length a = String.length b ->
  horner accA a = Some va -> horner accB b = Some vb -> accA = accB ->
  String.compare a b = (va ?= vb).
Proof.
  induction a as [|x a IH]; intros [|y b] va vb accA accB Hl Ha Hb E; cbn in Hl; try discriminate.
  - cbn in Ha, Hb. inversion Ha; inversion Hb; subst. rewrite Z.compare_refl. reflexivity.
  - cbn [horner] in Ha, Hb. cbn [String.compare].
    destruct (dval x) as [dx|] eqn:Hx; [|discriminate].
    destruct (dval y) as [dy|] eqn:Hy; [|discriminate].
    rewrite (dval_compare _ _ _ _ Hx Hy).
    assert (Ba := horner_value _ _ _ Ha). assert (Bb := horner_value _ _ _ Hb).
    inversion Hl as [Hl'].
    assert (Hp : 0 < 10 ^ Z.of_nat (String.length a)) by (apply Z.pow_pos_nonneg; lia).
    rewrite <- Hl' in Bb.
    destruct (Z.compare_spec dx dy) as [Ed|Ed|Ed].
    + eapply IH; eauto. lia.
    + symmetry. apply Z.compare_lt_iff. nia.
    + symmetry. apply Z.compare_gt_iff. nia.
Qed.

Lemma showpad_compare : forall k a b, 0 <= a -> 0 <= b ->
  String.length (showpad k a) = String.length (showpad k b) ->
  String.compare (showpad k a) (showpad k b) = (a ?= b).
Proof.
  intros k a b Ha Hb Hl.
  eapply digits_compare with (accA := 0) (accB := 0); auto; apply horner_showpad; auto.
Qed.

Lemma showpad3_length : forall n, 0 <= n < 1000 -> String.length (showpad 3 n) = 3%nat.
Proof.
  intros n H.
  assert (Hall : forallb (fun k => Nat.eqb (String.length (showpad 3 (Z.of_nat k))) 3) (seq 0 1000) = true)
    by (vm_compute; reflexivity).
  rewrite forallb_forall in Hall. specialize (Hall (Z.to_nat n)).
  rewrite in_seq, Z2Nat.id in Hall by lia. specialize (Hall ltac:(lia)).
  apply Nat.eqb_eq in Hall. auto.
Qed.

(** Lexicographic order of the members is the order of the times. *)
Definition lexico (c1 c2 : comparison) : comparison := match c1 with Eq => c2 | c => c end.

Lemma clock_text_compare : forall h1 m1 s1 ms1 h2 m2 s2 ms2,
  0 <= h1 -> 0 <= h2 -> String.length (showpad 2 h1) = String.length (showpad 2 h2) ->
  0 <= m1 < 60 -> 0 <= m2 < 60 -> 0 <= s1 < 60 -> 0 <= s2 < 60 ->
  0 <= ms1 < 1000 -> 0 <= ms2 < 1000 ->
  String.compare (clock_text h1 m1 s1 ms1) (clock_text h2 m2 s2 ms2) =
  ((((h1 * 60 + m1) * 60 + s1) * 1000 + ms1) ?= (((h2 * 60 + m2) * 60 + s2) * 1000 + ms2)).
Proof.
  intros h1 m1 s1 ms1 h2 m2 s2 ms2 Hh1 Hh2 Hl Hm1 Hm2 Hs1 Hs2 Hx1 Hx2.
  transitivity (lexico (h1 ?= h2) (lexico (m1 ?= m2) (lexico (s1 ?= s2) (ms1 ?= ms2)))).
  - assert (Et : forall h m s ms, clock_text h m s ms =
      (showpad 2 h ++ (":" ++ (showpad 2 m ++ (":" ++ (showpad 2 s ++
        (if (ms =? 0)%Z then "" else "." ++ showpad 3 ms))))))%string).
    { intros. unfold clock_text. destruct (ms =? 0); [rewrite app_empty_r|]; reflexivity. }
    rewrite !Et. rewrite compare_app by auto. rewrite showpad_compare by auto.
    destruct (h1 ?= h2); cbn [lexico]; auto.
    rewrite (compare_app ":" ":") by auto. rewrite compare_refl_s.
    rewrite compare_app by (rewrite !showpad2_length by lia; reflexivity).
    rewrite showpad_compare by (try lia; rewrite !showpad2_length by lia; reflexivity).
    destruct (m1 ?= m2); cbn [lexico]; auto.
    rewrite (compare_app ":" ":") by auto. rewrite compare_refl_s.
    rewrite compare_app by (rewrite !showpad2_length by lia; reflexivity).
    rewrite showpad_compare by (try lia; rewrite !showpad2_length by lia; reflexivity).
    destruct (s1 ?= s2); cbn [lexico]; auto.
    destruct (Z.eqb_spec ms1 0) as [E1|E1], (Z.eqb_spec ms2 0) as [E2|E2]; subst.
    + reflexivity.
    + cbn [String.compare]. symmetry. apply Z.compare_lt_iff. lia.
    + cbn [String.compare append]. symmetry. apply Z.compare_gt_iff. lia.
    + rewrite (compare_app "." ".") by auto. rewrite compare_refl_s.
      apply showpad_compare; try lia. rewrite !showpad3_length; auto; lia.
  - unfold lexico.
    destruct (Z.compare_spec h1 h2), (Z.compare_spec m1 m2), (Z.compare_spec s1 s2),
      (Z.compare_spec ms1 ms2); symmetry;
    first [apply Z.compare_eq_iff; lia | apply Z.compare_lt_iff; lia | apply Z.compare_gt_iff; lia].
Qed.

(** Fraction digits compare as fractions. *)
Lemma frac_compare : forall f1 f2 v1 v2,
  horner 0 f1 = Some v1 -> horner 0 f2 = Some v2 ->
  v1 * 10 ^ Z.of_nat (String.length f2) < v2 * 10 ^ Z.of_nat (String.length f1) ->
  String.compare f1 f2 = Lt.
Proof.
  assert (Hgen : forall s a v, horner a s = Some v ->
    exists w, horner 0 s = Some w /\ v = a * 10 ^ Z.of_nat (String.length s) + w).
  { induction s as [|c s IH]; intros a v H.
    - cbn in *. inversion H. exists 0. split; auto. lia.
    - cbn [horner String.length] in *. destruct (dval c) as [d|]; [|discriminate].
      destruct (IH _ _ H) as (w & Hw & ->).
      destruct (all_digits_horner s (10 * 0 + d) (horner_digits _ _ _ H)) as (w2 & Hw2).
      destruct (IH _ _ Hw2) as (w3 & Hw3 & E). exists w2. split; auto.
      rewrite Hw in Hw3. inversion Hw3; subst w3.
      rewrite Nat2Z.inj_succ, Z.pow_succ_r by lia. lia. }
  induction f1 as [|x f1 IH]; intros [|y f2] v1 v2 H1 H2 Hlt.
  - cbn in *. inversion H1; inversion H2; subst. lia.
  - reflexivity.
  - cbn [horner] in H2. inversion H2; subst.
    assert (0 <= v1) by (apply horner_value in H1; lia). cbn in Hlt. lia.
  - cbn [horner] in H1, H2. cbn [String.compare].
    destruct (dval x) as [dx|] eqn:Hx; [|discriminate].
    destruct (dval y) as [dy|] eqn:Hy; [|discriminate].
    rewrite (dval_compare _ _ _ _ Hx Hy).
    destruct (Hgen _ _ _ H1) as (w1 & Hw1 & E1). destruct (Hgen _ _ _ H2) as (w2 & Hw2 & E2).
    assert (B1 := horner_value _ _ _ Hw1). assert (B2 := horner_value _ _ _ Hw2).
    cbn [String.length] in Hlt. rewrite !Nat2Z.inj_succ, !Z.pow_succ_r in Hlt by lia.
    assert (P1 : 0 < 10 ^ Z.of_nat (String.length f1)) by (apply Z.pow_pos_nonneg; lia).
    assert (P2 : 0 < 10 ^ Z.of_nat (String.length f2)) by (apply Z.pow_pos_nonneg; lia).
    remember (10 ^ Z.of_nat (String.length f1)) as p1. remember (10 ^ Z.of_nat (String.length f2)) as p2.
    destruct (Z.compare_spec dx dy) as [E|E|E]; auto.
    + subst dy. apply (IH f2 w1 w2); auto. rewrite <- Heqp2. subst v1 v2. nia.
    + exfalso. subst v1 v2.
      assert (dy * p1 * p2 + p1 * p2 <= dx * p1 * p2) by nia. nia.
Qed.

Lemma tail_compare : forall f1 f2 v1 v2,
  horner 0 f1 = Some v1 -> horner 0 f2 = Some v2 ->
  v1 * 10 ^ Z.of_nat (String.length f2) < v2 * 10 ^ Z.of_nat (String.length f1) ->
  forall r1 r2,
  ((f1 = "" /\ r1 = "") \/ r1 = "." ++ f1)%string ->
  ((f2 = "" /\ r2 = "") \/ r2 = "." ++ f2)%string ->
  String.compare r1 r2 = Lt.
Proof.
  intros f1 f2 v1 v2 H1 H2 Hlt r1 r2 C1 C2.
  assert (0 <= v1) by (apply horner_value in H1; lia).
  assert (0 < 10 ^ Z.of_nat (String.length f1)) by (apply Z.pow_pos_nonneg; lia).
  assert (0 < 10 ^ Z.of_nat (String.length f2)) by (apply Z.pow_pos_nonneg; lia).
  destruct C2 as [[-> ->]| ->].
  { cbn in H2. inversion H2; subst. nia. }
  destruct C1 as [[-> ->]| ->]; [reflexivity|].
  cbn [append String.compare].
  change (Ascii.compare "." ".") with Eq. cbn iota. eapply frac_compare; eauto.
Qed.

Lemma clock_value_compare : forall s1 s2 n1 d1 n2 d2,
  clock_value60 true s1 n1 d1 -> clock_value60 true s2 n2 d2 ->
  n1 * d2 < n2 * d1 -> String.compare s1 s2 = Lt.
Proof.
  intros s1 s2 n1 d1 n2 d2
    (h1 & m1 & c1 & f1 & hv1 & fv1 & I1 & L1 & R1 & F1 & -> & ->)
    (h2 & m2 & c2 & f2 & hv2 & fv2 & I2 & L2 & R2 & F2 & -> & ->) Hlt.
  destruct I1 as ((Hn1 & Hd1) & Hl1 & mt1 & ct1 & Lm1 & Rm1 & Bm1 & Lc1 & Rc1 & Bc1 & S1).
  destruct I2 as ((Hn2 & Hd2) & Hl2 & mt2 & ct2 & Lm2 & Rm2 & Bm2 & Lc2 & Rc2 & Bc2 & S2).
  cbn in Hl1, Hl2.
  assert (T1 : exists r, s1 = (h1 ++ (":" ++ (mt1 ++ (":" ++ (ct1 ++ r)))))%string /\
    ((f1 = "" /\ r = "") \/ r = "." ++ f1)%string).
  { destruct S1 as [[-> ->]|[_ ->]]; [exists ""%string; rewrite app_empty_r; auto|eauto]. }
  assert (T2 : exists r, s2 = (h2 ++ (":" ++ (mt2 ++ (":" ++ (ct2 ++ r)))))%string /\
    ((f2 = "" /\ r = "") \/ r = "." ++ f2)%string).
  { destruct S2 as [[-> ->]|[_ ->]]; [exists ""%string; rewrite app_empty_r; auto|eauto]. }
  destruct T1 as (r1 & -> & C1). destruct T2 as (r2 & -> & C2).
  assert (Hread : forall s v, read s = Some v -> horner 0 s = Some v).
  { intros [|? ?] v H; [discriminate|exact H]. }
  apply Hread in R1, R2, Rm1, Rm2, Rc1, Rc2.
  assert (Bh1 := horner_value _ _ _ R1). assert (Bh2 := horner_value _ _ _ R2).
  assert (Bm1' := horner_value _ _ _ Rm1). assert (Bm2' := horner_value _ _ _ Rm2).
  assert (Bc1' := horner_value _ _ _ Rc1). assert (Bc2' := horner_value _ _ _ Rc2).
  assert (Bf1 := horner_value _ _ _ F1). assert (Bf2 := horner_value _ _ _ F2).
  assert (P1 : 0 < 10 ^ Z.of_nat (String.length f1)) by (apply Z.pow_pos_nonneg; lia).
  assert (P2 : 0 < 10 ^ Z.of_nat (String.length f2)) by (apply Z.pow_pos_nonneg; lia).
  assert (TC := tail_compare f1 f2 fv1 fv2 F1 F2).
  remember (10 ^ Z.of_nat (String.length f1)) as p1. remember (10 ^ Z.of_nat (String.length f2)) as p2.
  remember (hv1 * 3600 + m1 * 60 + c1) as q1. remember (hv2 * 3600 + m2 * 60 + c2) as q2.
  assert (Hq : q1 < q2 \/ q1 = q2 /\ fv1 * p2 < fv2 * p1).
  { destruct (Z.lt_trichotomy q1 q2) as [H|[H|H]]; auto.
    - right. split; auto. subst q2. nia.
    - exfalso. assert (q2 * p1 * p2 + p1 * p2 <= q1 * p1 * p2) by nia. nia. }
  assert (M1 : 0 <= m1) by lia. assert (M2 : 0 <= m2) by lia.
  assert (K1 : 0 <= c1) by lia. assert (K2 : 0 <= c2) by lia.
  rewrite compare_app by congruence.
  rewrite (digits_compare h1 h2 hv1 hv2 0 0) by (auto; congruence).
  destruct (Z.compare_spec hv1 hv2) as [E|E|E]; auto; [|exfalso; lia].
  rewrite (compare_app ":" ":"), compare_refl_s by auto.
  rewrite compare_app by congruence.
  rewrite (digits_compare mt1 mt2 m1 m2 0 0) by (auto; congruence).
  destruct (Z.compare_spec m1 m2) as [E2|E2|E2]; auto; [|exfalso; lia].
  rewrite (compare_app ":" ":"), compare_refl_s by auto.
  rewrite compare_app by congruence.
  rewrite (digits_compare ct1 ct2 c1 c2 0 0) by (auto; congruence).
  destruct (Z.compare_spec c1 c2) as [E3|E3|E3]; auto; [|exfalso; lia].
  destruct Hq as [Hq|[_ Hq]]; [lia|]. eauto.
Qed.

(** ** Manifest times *)

Lemma split_on_none : forall c s, all_digits s = true -> is_digit c = false ->
  split_on c s = [s].
Proof.
  induction s as [|a s IH]; cbn; intros H Hc; auto.
  apply andb_true_iff in H as [Ha H]. rewrite IH by auto.
  destruct (Ascii.eqb_spec a c); [subst; congruence|auto].
Qed.

Lemma split_on_app : forall c a r, forallb (fun x => negb (Ascii.eqb x c)) (list_ascii_of_string a) = true ->
  split_on c (a ++ String c r) = a :: split_on c r.
Proof.
  induction a as [|x a IH]; cbn; intros r H.
  - rewrite Ascii.eqb_refl. auto.
  - apply andb_true_iff in H as [Hx H]. rewrite IH by auto.
    destruct (Ascii.eqb x c); [discriminate|auto].
Qed.

Lemma digits_no_char : forall c s, all_digits s = true -> is_digit c = false ->
  forallb (fun x => negb (Ascii.eqb x c)) (list_ascii_of_string s) = true.
Proof.
  induction s as [|a s IH]; cbn; intros H Hc; auto.
  apply andb_true_iff in H as [Ha H]. rewrite IH by auto.
  destruct (Ascii.eqb_spec a c); [subst; congruence|auto].
Qed.

Lemma showpad_no_char : forall c k n, is_digit c = false -> c <> "-"%char ->
  forallb (fun x => negb (Ascii.eqb x c)) (list_ascii_of_string (showpad k n)) = true.
Proof.
  intros c k n Hc Hm. unfold showpad. destruct (n <? 0); cbv zeta.
  - cbn [list_ascii_of_string forallb]. rewrite digits_no_char; auto.
    + destruct (Ascii.eqb_spec "-"%char c); [subst; congruence|auto].
    + rewrite all_digits_app, zeros_digits, show_nat_digits. auto.
  - apply digits_no_char; auto.
    rewrite all_digits_app, zeros_digits, show_nat_digits. auto.
Qed.

Lemma int_of_digits : forall s, all_digits s = true -> int_of s = read s.
Proof.
  intros [|c s] H; auto. cbn [all_digits] in H. apply andb_true_iff in H as [Hc _].
  unfold int_of. destruct (Ascii.eqb_spec c "-"%char) as [E|E].
  - subst. cbv in Hc. discriminate.
  - destruct c as [[] [] [] [] [] [] [] []]; try reflexivity; exfalso; apply E; reflexivity.
Qed.

Lemma int_of_showpad : forall k n, int_of (showpad k n) = Some n.
Proof.
  intros k n. destruct (Z.ltb_spec n 0) as [H|H].
  - unfold showpad. apply Z.ltb_lt in H as Hb. rewrite Hb. cbv zeta. unfold int_of.
    assert (Hne : (zeros (k - 1 - String.length (show_nat (- n))) ++ show_nat (- n))%string <> ""%string).
    { destruct (zeros _); [apply show_nat_nonempty|discriminate]. }
    assert (Hr : read (zeros (k - 1 - String.length (show_nat (- n))) ++ show_nat (- n)) = Some (- n)).
    { unfold read. destruct (zeros _ ++ show_nat (- n))%string eqn:E; [congruence|].
      rewrite <- E, horner_zeros. apply horner_show_nat. lia. }
    rewrite Hr. f_equal. lia.
  - rewrite int_of_digits by (apply showpad_digits; auto). apply read_showpad; auto.
Qed.

Lemma manifest_roundtrip : forall t, min_td <= t < max_td ->
  manifest_td (manifest_of t) = Some (trunc_ms t).
Proof.
  intros t Hr. unfold manifest_of. destruct (members t) as [[[h m] s] ms] eqn:Hm.
  assert (Ht := trunc_members _ _ _ _ _ Hm).
  unfold manifest_td.
  change (showpad 2 h ++ ":" ++ showpad 2 m ++ ":" ++ showpad 2 s ++ "." ++ showpad 3 ms)%string
    with (showpad 2 h ++ String ":" (showpad 2 m ++ String ":" (showpad 2 s ++ String "." (showpad 3 ms))))%string.
  apply members_spec in Hm. destruct Hm as (Et & Hm & Hs & Hms & _ & _).
  rewrite split_on_app by (apply showpad_no_char; [reflexivity|discriminate]).
  rewrite split_on_app by (apply showpad_no_char; [reflexivity|discriminate]).
  assert (Hrest : split_on ":" (showpad 2 s ++ String "." (showpad 3 ms)) =
    [(showpad 2 s ++ String "." (showpad 3 ms))%string]).
  { assert (Hg : forall a b, all_digits a = true -> all_digits b = true ->
      split_on ":" (a ++ String "." b) = [(a ++ String "." b)%string]).
    { induction a as [|x a IH]; intros b Ha Hb; cbn [append split_on].
      - rewrite split_on_none by auto. reflexivity.
      - cbn in Ha. apply andb_true_iff in Ha as [Hx Ha]. rewrite IH by auto.
        destruct (Ascii.eqb_spec x ":"%char); [subst; cbv in Hx; discriminate|auto]. }
    apply Hg; apply showpad_digits; lia. }
  rewrite Hrest.
  rewrite split_on_app by (apply showpad_no_char; [reflexivity|discriminate]).
  rewrite split_on_none by (try apply showpad_digits; auto; lia).
  rewrite !int_of_showpad.
  assert (Hb : 0 <= t mod 1000 < 1000) by (apply Z.mod_pos_bound; lia).
  unfold trunc_ms in *.
  assert (Hmin : min_td <= t - t mod 1000).
  { assert (Hq := Z.div_mod t 1000 ltac:(lia)).
    assert (min_td = 1000 * (min_td / 1000)) by reflexivity.
    assert (min_td / 1000 <= t / 1000) by (apply Z.div_le_mono; lia). lia. }
  rewrite mk_td_ok.
  - unfold us_per_s. f_equal. lia.
  - unfold us_per_s. lia.
Qed.
