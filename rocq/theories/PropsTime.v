(** Properties C16, C17, C18, C26 and C44: texts of times. *)

From Coq Require Import List ZArith String Ascii Bool Lia.
From Verif Require Import Digits TimeModel TimeSpec TimeProofs TimeFloat TimingModel.
Import ListNotations.
Open Scope Z_scope.

(** ** C16: timecount *)

(** A timecount text read back gives the duration cut to milliseconds.  Below
    one millisecond the text is illegal (see C16_submillisecond); counts of
    milliseconds above 2^53 go through a double and lose digits (see
    C16_large_inexact). *)
Theorem C16_roundtrip : forall t, in_range t -> t = 0 \/ 1000 <= t ->
  (t / 1000 mod 1000 <> 0 -> t / 1000 <= 2 ^ 53) ->
  timecount_td (timecount_of t) = Some (trunc_ms t).
Proof.
  intros t Hr Ht Hb. unfold in_range in Hr.
  destruct (Z.eq_dec t 0) as [->|Hnz]; [reflexivity|].
  assert (Hdm := Z.div_mod t 1000 ltac:(lia)).
  assert (Hmb := Z.mod_pos_bound t 1000 ltac:(lia)).
  assert (Htr : trunc_ms t <> 0) by (unfold trunc_ms; lia).
  destruct (timecount_of_spec t Hnz Htr) as (n & u & -> & Hn & Hu).
  assert (Htm : trunc_ms t = 1000 * (t / 1000)) by (unfold trunc_ms; lia).
  rewrite <- Hn. apply timecount_td_show.
  - destruct u; unfold unit_us, us_per_s in Hn.
    + assert (n < 2 ^ 53); [|lia].
      apply Z.lt_trans with 1000000000000; [lia|reflexivity].
    + assert (n < 2 ^ 53); [|lia].
      apply Z.lt_trans with 10000000000000; [lia|reflexivity].
    + assert (n < 2 ^ 53); [|lia].
      apply Z.lt_trans with 100000000000000; [lia|reflexivity].
    + assert (t / 1000 mod 1000 <> 0) by (apply Hu; auto). specialize (Hb H). lia.
  - rewrite Hn. unfold max_td, us_per_day, us_per_s. lia.
Qed.

(** Whole milliseconds come back unchanged. *)
Theorem C16_exact : forall t, in_range t -> t mod 1000 = 0 ->
  (t / 1000 mod 1000 <> 0 -> t / 1000 <= 2 ^ 53) ->
  timecount_td (timecount_of t) = Some t.
Proof.
  intros t Hr Hm Hb.
  assert (Hdm := Z.div_mod t 1000 ltac:(lia)). unfold in_range in Hr.
  rewrite C16_roundtrip; auto; [f_equal; unfold trunc_ms|..]; lia.
Qed.

Theorem C16_legal : forall t, in_range t -> t = 0 \/ 1000 <= t ->
  legal_timecount (timecount_of t).
Proof.
  intros t Hr Ht. unfold in_range in Hr.
  destruct (Z.eq_dec t 0) as [->|Hnz].
  { exists "0"%string, "s"%string. split; [split; [discriminate|reflexivity]|].
    split; [cbn; auto|]. left. reflexivity. }
  assert (Hdm := Z.div_mod t 1000 ltac:(lia)).
  assert (Hmb := Z.mod_pos_bound t 1000 ltac:(lia)).
  assert (Htr : trunc_ms t <> 0) by (unfold trunc_ms; lia).
  destruct (timecount_of_spec t Hnz Htr) as (n & u & -> & Hn & Hu).
  exists (show n), (unit_text u). split.
  - apply digits_show. unfold trunc_ms in Hn. destruct u; unfold unit_us, us_per_s in Hn; lia.
  - split; [destruct u; cbn; auto|]. left. reflexivity.
Qed.

(** The texts accepted by the parser are those of the schema. *)
Theorem C16_accepts : forall s, legal_timecount s <-> timecount_parts s <> None.
Proof.
  intros s. split.
  - intros (d & u & Hd & Hu & Hs).
    assert (exists u', u = unit_text u') as (u' & ->).
    { cbn in Hu. destruct Hu as [<-|[<-|[<-|[<-|[]]]]];
        [exists UH|exists UMS|exists US|exists UM]; reflexivity. }
    destruct Hs as [->|(f & Hf & ->)].
    + assert (E : timecount_parts (d ++ unit_text u') = Some (d, ""%string, u'))
        by (apply timecount_parts_iff; auto).
      rewrite E. discriminate.
    + assert (E : timecount_parts (d ++ "." ++ f ++ unit_text u') = Some (d, f, u'))
        by (apply timecount_parts_iff; auto).
      rewrite E. discriminate.
  - destruct (timecount_parts s) as [[[d f] u]|] eqn:E; [intros _|congruence].
    apply timecount_parts_iff in E. destruct E as (Hd & Hs).
    exists d, (unit_text u). split; [auto|]. split; [destruct u; cbn; auto|].
    destruct Hs as [[_ ->]|[Hf ->]]; eauto.
Qed.

(** Durations of less than a millisecond, and negative ones, become text that
    no timecount parser accepts. *)
Theorem C16_submillisecond : forall t, t <> 0 -> t < 1000 ->
  ~ legal_timecount (timecount_of t).
Proof.
  intros t Hnz Hlt HL. destruct (Z_lt_le_dec t 0) as [Hneg|Hpos].
  - assert (Hdm := Z.div_mod t 1000 ltac:(lia)).
    assert (Hmb := Z.mod_pos_bound t 1000 ltac:(lia)).
    assert (Htr : trunc_ms t <> 0) by (unfold trunc_ms; lia).
    destruct (timecount_of_spec t Hnz Htr) as (n & u & E & Hn & _). rewrite E in HL.
    apply legal_timecount_first in HL. destruct HL as (c & r & Ec & Hc).
    assert (n < 0).
    { unfold trunc_ms in Hn. destruct u; unfold unit_us, us_per_s in Hn; lia. }
    unfold show in Ec. destruct (Z.ltb_spec n 0); [|lia].
    cbn [append] in Ec. inversion Ec; subst c. cbv in Hc. discriminate.
  - rewrite timecount_sub_ms in HL by lia.
    apply legal_timecount_last in HL. destruct HL as (r & c & E & Hc).
    assert (Hr : forall r, "0None"%string = (r ++ String c "")%string -> c = "e"%char).
    { intros q Eq. repeat (destruct q as [|? q]; cbn in Eq; [inversion Eq|]; inversion Eq; auto; subst; clear Eq;
        match goal with H : _ = (q ++ _)%string |- _ => rename H into Eq end). }
    apply Hr in E. subst c. cbn in Hc. destruct Hc as [H|[H|[H|[]]]]; discriminate.
Qed.

(** A whole number of milliseconds that does not survive the round trip. *)
Theorem C16_large_inexact : exists t, in_range t /\ t mod 1000 = 0 /\
  exists t', timecount_td (timecount_of t) = Some t' /\ t' <> t.
Proof.
  exists ((2 ^ 53 + 1) * 1000). split; [split; [discriminate|reflexivity]|].
  split; [reflexivity|]. exists (2 ^ 53 * 1000). split; [vm_compute; reflexivity|discriminate].
Qed.

Example C16_ex : timecount_of 5025678999 = "5025678ms"%string /\
  timecount_td "5025678ms" = Some 5025678000 /\ timecount_of 7200000000 = "2h"%string.
Proof. vm_compute. auto. Qed.

(** ** C17: clock values *)

Theorem C17_full_roundtrip : forall t, in_range t ->
  clock_td false (full_of t) = Some (trunc_ms t).
Proof.
  intros t Hr. unfold full_of. destruct (members t) as [[[h m] s] ms] eqn:Hm.
  apply clock_td_text; auto. discriminate.
Qed.

Theorem C17_full_legal : forall t, 0 <= t -> legal_clock false (full_of t).
Proof.
  intros t Ht. unfold full_of. destruct (members t) as [[[h m] s] ms] eqn:Hm.
  apply members_spec in Hm. destruct Hm as (_ & Hm & Hs & Hms & Hh & _).
  exists (showpad 2 h), m, s, (if ms =? 0 then ""%string else showpad 3 ms).
  apply clock_text_is; auto. apply hours_len_showpad; auto. discriminate.
Qed.

Theorem C17_limited_roundtrip : forall t s, in_range t -> limited_of t = Some s ->
  clock_td true s = Some (trunc_ms t) /\ legal_clock true s.
Proof.
  intros t x Hr. unfold limited_of. destruct (members t) as [[[h m] s] ms] eqn:Hm.
  destruct (Z.ltb_spec 99 h) as [|Hlt]; [discriminate|]. intros E; inversion E; subst; clear E.
  split; [apply clock_td_text; auto; lia|].
  unfold in_range in Hr.
  apply members_spec in Hm. destruct Hm as (_ & Hm & Hs & Hms & Hh & _).
  exists (showpad 2 h), m, s, (if ms =? 0 then ""%string else showpad 3 ms).
  apply clock_text_is; try (auto; lia). apply hours_len_showpad; [apply Hh; lia|lia].
Qed.

(** One hundred hours or more is refused, everything less is formatted. *)
Theorem C17_limited_overflow : forall t, limited_of t = None <-> h100 <= t.
Proof.
  intros t. unfold limited_of. destruct (members t) as [[[h m] s] ms] eqn:Hm.
  apply hours_100 in Hm. destruct (Z.ltb_spec 99 h) as [H|H]; split; intros E; auto; try discriminate.
  - apply Hm; auto.
  - exfalso. apply Hm in E. lia.
Qed.

(** The texts the parser accepts are those of the schema. *)
Theorem C17_accepts : forall lim s, legal_clock lim s <-> clock_parts lim s <> None.
Proof.
  intros lim s. split.
  - intros (h & m & c & f & H). apply clock_parts_iff in H. rewrite H. discriminate.
  - destruct (clock_parts lim s) as [[[[h m] c] f]|] eqn:E; [intros _|congruence].
    apply clock_parts_iff in E. exists h, m, c, f. exact E.
Qed.

(** A limited-clock text means the same as a full-clock text. *)
Theorem C17_limited_is_full : forall s v, clock_td true s = Some v -> clock_td false s = Some v.
Proof.
  intros s v. unfold clock_td.
  destruct (clock_parts true s) as [[[[h m] c] f]|] eqn:E; [|discriminate].
  apply clock_parts_iff in E.
  assert (E2 : clock_parts false s = Some (h, m, c, f)).
  { apply clock_parts_iff. destruct E as (H1 & H2 & H3). split; [auto|]. split; [|auto].
    cbn in *. lia. }
  rewrite E2. auto.
Qed.

Example C17_ex : full_of 445506007999 = "123:45:06.007"%string /\
  clock_td false "123:45:06.007" = Some 445506007000 /\ limited_of 445506007999 = None /\
  limited_of (h100 - 1) = Some "99:59:59.999"%string.
Proof. vm_compute. auto. Qed.

(** ** C18: comparing texts *)

(** On limited-clock texts made by the toolkit the string comparison of
    _element_badly_timed is comparison of the times in milliseconds. *)
Theorem C18_limited : forall b e sb se, 0 <= b -> 0 <= e ->
  limited_of b = Some sb -> limited_of e = Some se ->
  badly_timed (Some (mkTattr sb b)) (Some (mkTattr se e)) = true <-> e / 1000 <= b / 1000.
Proof.
  intros b e sb se Hb He. unfold limited_of.
  destruct (members b) as [[[hb mb] cb] xb] eqn:Mb. destruct (members e) as [[[he me] ce] xe] eqn:Me.
  destruct (Z.ltb_spec 99 hb); [discriminate|]. destruct (Z.ltb_spec 99 he); [discriminate|].
  intros E1 E2. inversion E1; inversion E2; subst; clear E1 E2.
  assert (Tb := trunc_members _ _ _ _ _ Mb). assert (Te := trunc_members _ _ _ _ _ Me).
  apply members_spec in Mb, Me.
  destruct Mb as (_ & B1 & B2 & B3 & B4 & _). destruct Me as (_ & D1 & D2 & D3 & D4 & _).
  specialize (B4 Hb). specialize (D4 He).
  cbn [badly_timed ta_lex]. unfold str_le.
  rewrite clock_text_compare by (try lia; rewrite !showpad2_length by lia; reflexivity).
  assert (Db := Z.div_mod b 1000 ltac:(lia)). assert (De := Z.div_mod e 1000 ltac:(lia)).
  unfold trunc_ms in *.
  match goal with |- context[?x ?= ?y] => destruct (Z.compare_spec x y) end;
    split; intros; try lia; auto; discriminate.
Qed.

(** The same for full-clock texts as long as both stay below 100 hours. *)
Theorem C18_full_below_100h : forall b e, 0 <= b < h100 -> 0 <= e < h100 ->
  badly_timed (Some (mkTattr (full_of b) b)) (Some (mkTattr (full_of e) e)) = true
  <-> e / 1000 <= b / 1000.
Proof.
  intros b e Hb He.
  assert (Hl : forall t, t < h100 -> limited_of t = Some (full_of t)).
  { intros t Ht. unfold limited_of, full_of. destruct (members t) as [[[h m] s] ms] eqn:Hm.
    apply hours_100 in Hm. destruct (Z.ltb_spec 99 h) as [Hx|Hx]; auto. apply Hm in Hx. lia. }
  apply C18_limited; try lia; apply Hl; lia.
Qed.

(** For limited-clock texts written by others (any number of fraction digits,
    no leap second): ending strictly after the begin is never taken for badly
    timed, ending strictly before always is. *)
Theorem C18_author_values : forall sb se ub ue nb db ne de,
  clock_value60 true sb nb db -> clock_value60 true se ne de ->
  (nb * de < ne * db -> badly_timed (Some (mkTattr sb ub)) (Some (mkTattr se ue)) = false) /\
  (ne * db < nb * de -> badly_timed (Some (mkTattr sb ub)) (Some (mkTattr se ue)) = true).
Proof.
  intros sb se ub ue nb db ne de Hb He. cbn [badly_timed ta_lex]. unfold str_le. split; intros H.
  - assert (C := clock_value_compare _ _ _ _ _ _ Hb He H).
    rewrite (String.compare_antisym se sb), C. reflexivity.
  - assert (C := clock_value_compare _ _ _ _ _ _ He Hb H). rewrite C. reflexivity.
Qed.

Example C18_author_ex : clock_value60 true "01:02:03.45" 372345000000 100.
Proof.
  exists "01"%string, 2, 3, "45"%string, 1, 45.
  split; [|vm_compute; auto 8].
  apply clock_parts_iff. reflexivity.
Qed.

(** Timecount and full-clock texts compare wrongly: properly timed elements
    count as badly timed, and the other way round.  [validate] then drops the
    subtitle from its parent's span: the body below has no content end, and
    a computed begin of zero. *)
Definition agrees (parse : string -> option Z) (a : tattr) : Prop :=
  parse (ta_lex a) = Some (ta_us a).

Theorem C18_timecount_wrong :
  exists b e b' e',
    agrees timecount_td b /\ agrees timecount_td e /\ ta_us b < ta_us e /\
    badly_timed (Some b) (Some e) = true /\
    agrees timecount_td b' /\ agrees timecount_td e' /\ ta_us e' < ta_us b' /\
    badly_timed (Some b') (Some e') = false.
Proof.
  exists (mkTattr "9s" 9000000), (mkTattr "10s" 10000000),
         (mkTattr "10s" 10000000), (mkTattr "9s" 9000000).
  vm_compute. repeat split; reflexivity.
Qed.

Theorem C18_full_wrong :
  exists b e, 0 <= b < e /\
    badly_timed (Some (mkTattr (full_of b) b)) (Some (mkTattr (full_of e) e)) = true.
Proof.
  exists (h100 - 1000), (h100 + 1000). split; [unfold h100; lia|]. vm_compute. reflexivity.
Qed.

(** A leap second: 00:00:60.5 is after 00:01:00 but compares before it. *)
Theorem C18_leap_second_wrong :
  exists b e, agrees (clock_td true) b /\ agrees (clock_td true) e /\ ta_us b < ta_us e /\
    badly_timed (Some b) (Some e) = true.
Proof.
  exists (mkTattr "00:01:00" 60000000), (mkTattr "00:00:60.5" 60500000).
  vm_compute. repeat split; reflexivity.
Qed.

(** What that does to a document: a subtitle from 9s to 10s in a document with
    nothing else leaves the document endless. *)
Theorem C18_timecount_document :
  exists b e, agrees timecount_td b /\ agrees timecount_td e /\ ta_us b < ta_us e /\
    exists ct, validate None (Some (mkBody None None None
      [Timed None None [Timed (Some b) (Some e) [Other]]])) = TOk (0, None, ct).
Proof.
  exists (mkTattr "9s" 9000000), (mkTattr "10s" 10000000).
  split; [reflexivity|]. split; [reflexivity|]. split; [reflexivity|].
  eexists. vm_compute. reflexivity.
Qed.

Example C18_ex : limited_of 9000000 = Some "00:00:09"%string /\
  limited_of 10000000 = Some "00:00:10"%string.
Proof. vm_compute. auto. Qed.

(** ** C26: manifest times *)

Theorem C26_roundtrip : forall t, min_td <= t < max_td ->
  manifest_td (manifest_of t) = Some (trunc_ms t).
Proof. exact manifest_roundtrip. Qed.

Theorem C26_exact : forall t, min_td <= t < max_td -> t mod 1000 = 0 ->
  manifest_td (manifest_of t) = Some t.
Proof. intros t Hr Hm. rewrite C26_roundtrip by auto. unfold trunc_ms. f_equal. lia. Qed.

(** Lines of different milliseconds differ. *)
Theorem C26_injective : forall t u, min_td <= t < max_td -> min_td <= u < max_td ->
  manifest_of t = manifest_of u -> t / 1000 = u / 1000.
Proof.
  intros t u Ht Hu E. assert (H : Some (trunc_ms t) = Some (trunc_ms u)).
  { rewrite <- !C26_roundtrip by auto. rewrite E. auto. }
  inversion H as [H']. unfold trunc_ms in H'.
  assert (Dt := Z.div_mod t 1000 ltac:(lia)). assert (Du := Z.div_mod u 1000 ltac:(lia)). lia.
Qed.

Example C26_ex : manifest_of (-1) = "-1:59:59.999"%string /\
  manifest_td "-1:59:59.999" = Some (-1000) /\ manifest_of 445506007999 = "123:45:06.007"%string.
Proof. vm_compute. auto. Qed.

(** ** C44: reading times written by others *)

(** A clock text whose exact value is a whole number of microseconds is read
    as exactly that, in spite of the floating point arithmetic on the way. *)
Theorem C44_clock_exact : forall lim s n d N, clock_value lim s n d -> n = N * d -> in_range N ->
  clock_td lim s = Some N.
Proof.
  intros lim s n d N (h & m & c & f & hv & fv & I & R & F & -> & ->) HN Hr.
  unfold clock_td. apply clock_parts_iff in I. rewrite I.
  assert (horner 0 h = Some hv) as -> by (destruct h; [discriminate|exact R]).
  assert (Hp := pow10_pos (String.length f)).
  remember (10 ^ Z.of_nat (String.length f)) as p.
  rewrite (clock_float f fv (N - (hv * 3600 + m * 60 + c) * 1000000) F).
  - unfold in_range in Hr. rewrite mk_td_ok.
    + f_equal. unfold us_per_s. lia.
    + unfold min_td, max_td, us_per_day, us_per_s. lia.
  - rewrite <- Heqp. lia.
Qed.

(** Whatever the number of digits, the error is less than a microsecond. *)
Theorem C44_clock_near : forall lim s n d v, clock_value lim s n d -> clock_td lim s = Some v ->
  Z.abs (v * d - n) < d.
Proof.
  intros lim s n d v (h & m & c & f & hv & fv & I & R & F & -> & ->).
  unfold clock_td. apply clock_parts_iff in I. rewrite I.
  assert (horner 0 h = Some hv) as -> by (destruct h; [discriminate|exact R]).
  assert (Hn := clock_float_near f fv F). assert (Hp := pow10_pos (String.length f)).
  unfold mk_td. match goal with |- (if ?c then _ else _) = _ -> _ => destruct c end; [|discriminate].
  intros E. inversion E; subst v; clear E. unfold us_per_s.
  remember (10 ^ Z.of_nat (String.length f)) as p.
  remember (float_us (frac_ms f) 1000) as X.
  replace ((hv * 3600 * 1000000 + m * 60 * 1000000 + c * 1000000 + X) * p -
    ((hv * 3600 + m * 60 + c) * p + fv) * 1000000) with (X * p - fv * 1000000) by ring.
  lia.
Qed.

Theorem C44_timecount_exact : forall s n d N, timecount_value s n d -> n = N * d -> 0 <= N <= 2 ^ 50 ->
  timecount_td s = Some N.
Proof.
  intros s n d N (dg & f & u & v & Hd & Hv & Hu & -> & -> & Hs) HN HN50.
  assert (exists u', fst u = unit_text u' /\ snd u = unit_us u') as (u' & E1 & E2).
  { cbn in Hu. destruct Hu as [<-|[<-|[<-|[<-|[]]]]];
      [exists UH|exists UM|exists US|exists UMS]; split; reflexivity. }
  rewrite E1 in Hs. rewrite E2 in HN.
  unfold timecount_td.
  assert (E : timecount_parts s = Some (dg, f, u')) by (apply timecount_parts_iff; auto).
  rewrite E.
  rewrite (timecount_float dg f v (unit_us u') N Hv); auto.
  - apply mk_td_ok. split.
    + apply Z.le_trans with 0; [unfold min_td, us_per_day, us_per_s; lia|lia].
    + apply Z.le_lt_trans with (2 ^ 50); [lia|reflexivity].
  - destruct u'; unfold unit_us, us_per_s; lia.
  - destruct u'; vm_compute; discriminate.
  - change (2 ^ 53) with (8 * 2 ^ 50). lia.
Qed.

Example C44_ex : clock_td true "01:02:03.45" = Some 3723450000 /\
  timecount_td "1.000001s" = Some 1000001 /\ timecount_td "0.1ms" = Some 100 /\
  clock_td true "00:00:00.0000005" = Some 1 /\
  timecount_value "1.000001s" (1000001 * 1000000) 1000000.
Proof.
  repeat (split; [vm_compute; reflexivity|]).
  exists "1"%string, "000001"%string, ("s"%string, 1000000), 1000001.
  split; [split; [discriminate|reflexivity]|]. split; [reflexivity|]. split; [cbn; auto|].
  split; [reflexivity|]. split; [reflexivity|]. right.
  split; [split; [discriminate|reflexivity]|reflexivity].
Qed.

Print Assumptions C16_roundtrip.
Print Assumptions C16_exact.
Print Assumptions C16_legal.
Print Assumptions C16_accepts.
Print Assumptions C16_submillisecond.
Print Assumptions C16_large_inexact.
Print Assumptions C17_full_roundtrip.
Print Assumptions C17_full_legal.
Print Assumptions C17_limited_roundtrip.
Print Assumptions C17_limited_overflow.
Print Assumptions C17_accepts.
Print Assumptions C17_limited_is_full.
Print Assumptions C18_limited.
Print Assumptions C18_full_below_100h.
Print Assumptions C18_author_values.
Print Assumptions C18_timecount_wrong.
Print Assumptions C18_full_wrong.
Print Assumptions C18_leap_second_wrong.
Print Assumptions C18_timecount_document.
Print Assumptions C26_roundtrip.
Print Assumptions C26_exact.
Print Assumptions C26_injective.
Print Assumptions C44_clock_exact.
Print Assumptions C44_clock_near.
Print Assumptions C44_timecount_exact.
