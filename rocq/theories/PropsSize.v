(** Property C67: the text of positions and sizes - what is read from it, what is
    written, what comes back, and what becomes of cells in EBU-TT-D. *)
From Coq Require Import List ZArith String Ascii Bool Lia.
From Verif Require Import Digits TimeModel TimeSpec TimeProofs TimeFloat SizeModel SizeSpec SizeProofs
  SizeNumProofs SizeTextProofs SizeWriteProofs SizeBackProofs SizeRegionProofs.
Import ListNotations.
Open Scope Z_scope.
Open Scope string_scope.

(** ** Reading *)

(** A text is accepted exactly if it is legal; then there is one way to read it,
    and the sizes are the doubles next to the decimals in it. *)
Theorem C67_reading : forall t s,
  (valid t s = true <-> exists q1 q2, legal t s q1 q2) /\
  (forall q1 q2, legal t s q1 q2 ->
     exists p, sizes t s = Some p /\
     (let '(n, d) := value (fst (match q2 with Some q => q | None => q1 end)) (snd (match q2 with Some q => q | None => q1 end)) in
      close (snd p) n d) /\
     match q2, fst p with
     | Some _, Some x => let '(n, d) := value (fst q1) (snd q1) in close x n d
     | None, None => True
     | _, _ => False
     end) /\
  (forall q1 q2 q1' q2', legal t s q1 q2 -> legal t s q1' q2' -> q1 = q1' /\ q2 = q2').
Proof.
  intros t s. split; [apply valid_iff|]. split.
  - intros q1 q2 L. eexists. split; [apply (sizes_legal _ _ _ _ L)|].
    destruct (legal_digits _ _ _ _ L) as [[A B] C]. pose proof (float_close _ _ A B) as F.
    destruct q2 as [q|]; cbn [fst snd].
    + destruct C as [C D]. pose proof (float_close _ _ C D) as G.
      destruct (value (fst q) (snd q)), (value (fst q1) (snd q1)). auto.
    + destruct (value (fst q1) (snd q1)). auto.
  - intros q1 q2 q1' q2' L L'. apply groups_legal in L. apply groups_legal in L'. rewrite L in L'. split; congruence.
Qed.

(** A sign is not looked at: an origin left of or above the screen is read as the
    one as far on the other side. *)
Theorem C67_sign : forall m s s' d f d' f',
  spelled Origin m s d f -> spelled Origin m s' d' f' ->
  sizes (Sized Origin m) (s ++ " " ++ s') =
  sizes (Sized Origin m) (plain d f ++ unit_of m ++ " " ++ plain d' f' ++ unit_of m).
Proof.
  intros m s s' d f d' f' S S'. rewrite (sizes_legal _ _ _ _ (legal_two Origin m s s' d f d' f' ltac:(discriminate) S S')).
  destruct S as (_ & _ & D & _). destruct S' as (_ & _ & D' & _).
  assert (T : spelled Origin m (plain d f ++ unit_of m) d f) by (exists ""; split; [left; reflexivity|auto]).
  assert (T' : spelled Origin m (plain d' f' ++ unit_of m) d' f') by (exists ""; split; [left; reflexivity|auto]).
  pose proof (sizes_legal _ _ _ _ (legal_two Origin m _ _ d f d' f' ltac:(discriminate) T T')) as E.
  rewrite app_assoc_s in E. rewrite E. reflexivity.
Qed.

(** ** Writing *)

(** Which numbers are accepted, and that what is read back is what was written up
    to 6 parts in 10^12 - without the sign. *)
Theorem C67_writing : forall t xs, Forall num_wf xs ->
  (good t xs <-> exists s, construct t (map ANum xs) = Some s) /\
  (forall s, construct t (map ANum xs) = Some s ->
     exists p, sizes t s = Some p /\ Forall2 nearly (both p) (map magnitude xs)).
Proof.
  intros t xs Hw. split.
  - split; [intros G; destruct (good_written t xs Hw G) as (s & E & _); eauto|].
    intros (s & E). pose proof (construct_count _ _ _ E) as Hl. rewrite map_length in Hl. exact (written_good t xs s Hw Hl E).
  - intros s E. pose proof (construct_count _ _ _ E) as Hl. rewrite map_length in Hl. pose proof (written_good t xs s Hw Hl E) as G. destruct (good_written t xs Hw G) as (s' & E' & R).
    rewrite E in E'. injection E' as <-. rewrite R.
    assert (W : exists sh, Forall (writable sh) xs).
    { destruct G as [_ G]. destruct t as [sh m|]; [eauto|]. exists Extent. eapply Forall_impl; [|exact G].
      intros x (z & -> & P). left. lia. }
    destruct W as [sh W]. destruct xs as [|x [|y [|z xs]]]; try (cbn in Hl; lia).
    + destruct G as [G _]. destruct t as [[]|]; cbn in G; lia.
    + eexists. split; [reflexivity|]. inversion Hw; inversion W; subst. unfold both. cbn [fst snd map].
      repeat constructor; eapply shown_nearly; eassumption.
    + eexists. split; [reflexivity|]. inversion Hw as [|? ? Hx Hw']; inversion W as [|? ? Wx W']; subst.
      inversion Hw'; inversion W'; subst. unfold both. cbn [fst snd map].
      constructor; [eapply shown_nearly; eassumption|]. constructor; [eapply shown_nearly; eassumption|constructor].
Qed.

(** The constructor takes a legal text or numbers, not both, and not two texts. *)
Theorem C67_arguments : forall t args,
  (forall s, construct t [AText s] = Some s <-> exists q1 q2, legal t s q1 q2) /\
  (forall s, construct t args = Some s ->
     (exists q1 q2, legal t s q1 q2) /\ (args = [AText s] \/ exists xs, args = map ANum xs /\ (List.length xs <= 2)%nat)).
Proof.
  intros t args. split.
  - intros s. rewrite <- valid_iff. unfold construct. cbn. destruct (valid t s); split; auto; discriminate.
  - intros s H. destruct (construct_forms _ _ _ H) as [V [->|(xs & ->)]]; (split; [apply valid_iff; assumption|]); [left; reflexivity|].
    right. exists xs. apply construct_count in H. rewrite map_length in H. auto.
Qed.

(** The doubles of decimals of up to twelve digits come back as they were. *)
Theorem C67_exact : forall sh m xs s,
  Forall (fun x => num_wf (NFloat false x) /\ twelve_digits x) xs ->
  construct (Sized sh m) (map (fun x => ANum (NFloat false x)) xs) = Some s ->
  exists p, sizes (Sized sh m) s = Some p /\ both p = xs.
Proof.
  intros sh m xs s Hw E. rewrite <- map_map in E. pose proof (construct_count _ _ _ E) as Hl. rewrite !map_length in Hl.
  assert (Hw' : Forall num_wf (map (NFloat false) xs)).
  { apply Forall_map. eapply Forall_impl; [|exact Hw]. intros x [A _]. exact A. }
  pose proof (written_good _ _ _ Hw' ltac:(rewrite map_length; assumption) E) as G.
  destruct (good_written _ _ Hw' G) as (s' & E' & R). rewrite E in E'. injection E' as <-. rewrite R.
  destruct G as [C G]. apply (proj1 (Forall_map (NFloat false) (writable sh) xs)) in G.
  assert (K : forall x, In x xs -> shown (NFloat false x) = x).
  { intros x I. apply shown_exact; [|exact (proj2 (proj1 (Forall_forall _ _) Hw x I))].
    exact (proj2 (proj1 (Forall_forall _ _) G x I)). }
  destruct xs as [|x [|y [|z xs]]]; try (cbn in Hl; lia).
  - destruct sh; cbn in C; lia.
  - eexists. split; [reflexivity|]. unfold both. cbn [fst snd]. rewrite K by (left; reflexivity). reflexivity.
  - eexists. split; [reflexivity|]. unfold both. cbn [fst snd]. rewrite !K by (cbn; auto). reflexivity.
Qed.

(** Writing what was read gives the text again that was written before, so the
    small error is made only once. *)
Theorem C67_stable : forall sh m xs s,
  Forall (fun x => num_wf (NFloat false x)) xs ->
  construct (Sized sh m) (map (fun x => ANum (NFloat false x)) xs) = Some s ->
  exists p, sizes (Sized sh m) s = Some p /\
    construct (Sized sh m) (map (fun x => ANum (NFloat false x)) (both p)) = Some s.
Proof.
  intros sh m xs s Hw E. rewrite <- map_map in E. pose proof (construct_count _ _ _ E) as Hl. rewrite !map_length in Hl.
  assert (Hw' : Forall num_wf (map (NFloat false) xs)) by (apply Forall_map; exact Hw).
  pose proof (written_good _ _ _ Hw' ltac:(rewrite map_length; assumption) E) as G.
  destruct (good_written _ _ Hw' G) as (s' & E' & R). rewrite E in E'. injection E' as <-. rewrite R.
  destruct G as [C G]. apply (proj1 (Forall_map (NFloat false) (writable sh) xs)) in G.
  assert (K : forall x, In x xs -> str12 (shown (NFloat false x)) = str12 x).
  { intros x I. pose proof (proj1 (Forall_forall _ _) Hw x I) as [A B].
    pose proof (proj1 (Forall_forall _ _) G x I) as [_ S]. destruct (shown_again false x A B S) as (_ & _ & _ & Q & _). exact Q. }
  rewrite map_map in E.
  destruct xs as [|x [|y [|z xs]]]; try (cbn in Hl; lia).
  - destruct sh; cbn in C; lia.
  - eexists. split; [reflexivity|]. unfold both. cbn [fst snd map] in *. rewrite construct_one in *.
    rewrite <- E. destruct sh; cbn [from_tuple num_text]; rewrite ?K by (left; reflexivity); reflexivity.
  - eexists. split; [reflexivity|]. unfold both. cbn [fst snd map] in *. rewrite construct_two in *.
    rewrite <- E. destruct sh; cbn [from_tuple num_text]; rewrite ?K by (cbn; auto); reflexivity.
Qed.

(** Numbers below 0.0001 or from 10^12 on raise an error, though the schema has
    texts for them; negative ones are accepted for origins, to be read as
    positive. *)
Theorem C67_refused :
  (exists x, num_wf (NFloat false x) /\ construct (Sized Extent Percent) [ANum (NFloat false x); ANum (NInt 1)] = None /\
     sizes (Sized Extent Percent) "0.00005% 1%" = Some (Some x, (1 * 2 ^ 52, 2 ^ 52))) /\
  construct (Sized Origin Percent) [ANum (NInt (-5)); ANum (NInt 0)] = Some "-5% 0%" /\
  sizes (Sized Origin Percent) "-5% 0%" = sizes (Sized Origin Percent) "5% 0%" /\
  construct Resolution [ANum (NFloat false (32, 1)); ANum (NFloat false (15, 1))] = None.
Proof.
  split; [|repeat split; vm_compute; reflexivity].
  exists (float_of "0" "00005"). split; [split; vm_compute; [discriminate|reflexivity]|]. split; vm_compute; reflexivity.
Qed.

(** ** Regions in cells *)

(** The position or size becomes the percentage of the cell resolution, up to 7
    parts in 10^12; there is an error exactly for percentages that cannot be
    shown, so none from 0.0001% to 990000000000% and one for all that are smaller
    than 0.00009999%, except zero. *)
Theorem C67_region : forall sh s q1 q2 rd rd' rv rv',
  legal (Sized sh Cells) s q1 (Some q2) ->
  read rd = Some rv -> 0 < rv -> read rd' = Some rv' -> 0 < rv' ->
  let fine q v := let '(n, d) := percent q v in n = 0 \/ (d <= 10 ^ 4 * n /\ n <= 99 * 10 ^ 10 * d) in
  let tiny q v := let '(n, d) := percent q v in 0 < n /\ 10 ^ 8 * n < 9999 * d in
  let r := convert_region sh Cells s (rd ++ " " ++ rd') in
  (fine q1 rv -> fine q2 rv' -> r <> None) /\
  (tiny q1 rv \/ tiny q2 rv' -> r = None) /\
  (forall u, r = Some u -> exists x y,
     sizes (Sized sh Percent) u = Some (Some x, y) /\ roughly x (percent q1 rv) /\ roughly y (percent q2 rv')).
Proof.
  intros sh s q1 q2 rd rd' rv rv' L R P R' P'. cbv zeta. rewrite (convert_region_eq sh s rd rd' rv rv' q1 q2 L R P R' P').
  destruct (legal_digits _ _ _ _ L) as [[A B] [C D]].
  destruct (share_ok q1 rv A B P) as (S1 & S2 & S3 & S4). destruct (share_ok q2 rv' C D P') as (T1 & T2 & T3 & T4).
  assert (Hsh : sh <> LineHeight) by (inversion L; assumption).
  set (xs := [NFloat false (share q1 rv); NFloat false (share q2 rv')]).
  change [ANum (NFloat false (share q1 rv)); ANum (NFloat false (share q2 rv'))] with (map ANum xs).
  assert (Hw : Forall num_wf xs) by (repeat constructor; assumption).
  assert (G : showable (share q1 rv) -> showable (share q2 rv') -> good (Sized sh Percent) xs).
  { intros X Y. split; [destruct sh; cbn; auto; congruence|]. constructor; [split; auto|]. constructor; [split; auto|constructor]. }
  assert (G' : forall u, construct (Sized sh Percent) (map ANum xs) = Some u -> showable (share q1 rv) /\ showable (share q2 rv')).
  { intros u E. destruct (written_good _ _ _ Hw ltac:(cbn; lia) E) as [_ H]. change (Forall (writable sh) xs) in H.
    pose proof (Forall_inv H) as [_ H1]. pose proof (Forall_inv (Forall_inv_tail H)) as [_ H2]. auto. }
  destruct (percent q1 rv) as [n d]. destruct (percent q2 rv') as [n' d'].
  destruct S3 as [S3 S5], T3 as [T3 T5]. split; [|split].
  - intros X Y. destruct (good_written _ _ Hw (G (S3 X) (T3 Y))) as (u & E & _). congruence.
  - intros X. destruct (construct (Sized sh Percent) (map ANum xs)) as [u|]; [exfalso|reflexivity].
    destruct (G' u eq_refl) as [Y Z]. destruct X as [[X1 X2]|[X1 X2]]; [exact (S5 X1 X2 Y)|exact (T5 X1 X2 Z)].
  - intros u E. destruct (G' u E) as [Y Z]. destruct (good_written _ _ Hw (G Y Z)) as (u' & E' & Q).
    rewrite E in E'. injection E' as <-. rewrite Q. exists (shown (NFloat false (share q1 rv))), (shown (NFloat false (share q2 rv'))).
    split; [reflexivity|]. split; [apply S4|apply T4]; assumption.
Qed.

(** Other units are left as they are; so converting what was converted changes
    nothing. *)
Theorem C67_region_again :
  (forall sh m s res, m <> Cells -> convert_region sh m s res = Some s) /\
  (forall sh m s res u res', convert_region sh m s res = Some u ->
     convert_region sh (match m with Cells => Percent | _ => m end) u res' = Some u).
Proof.
  split.
  - intros sh m s res N. destruct m; [reflexivity|congruence|reflexivity].
  - intros sh m s res u res' H. destruct m; reflexivity.
Qed.

(** A region that begins left of the screen begins inside it in EBU-TT-D, and a
    very flat one stops the conversion. *)
Theorem C67_region_sign :
  valid (Sized Origin Cells) "-1c 2c" = true /\
  convert_region Origin Cells "-1c 2c" "32 15" = Some "3.125% 13.3333333333%" /\
  convert_region Origin Cells "1c 2c" "32 15" = Some "3.125% 13.3333333333%" /\
  valid (Sized Extent Cells) "1c .00001c" = true /\
  convert_region Extent Cells "1c .00001c" "32 15" = None.
Proof. repeat split; vm_compute; reflexivity. Qed.

(** ** Comparing *)

(** Values of one type are equal exactly if their sizes are - signs, leading and
    trailing zeros do not matter; values of different types are equal exactly if
    their texts are. *)
Theorem C67_equal :
  (forall t s s' p q, sizes t s = Some p -> sizes t s' = Some q ->
     (size_eq t s t s' = true <-> same_size t p q)) /\
  (forall t s t' s', t <> t' -> (size_eq t s t' s' = true <-> s = s')).
Proof.
  split; [apply size_eq_same|]. intros t s t' s' N. rewrite size_eq_other by assumption. apply String.eqb_eq.
Qed.

(** So among legal texts of one type it is an equivalence ... *)
Theorem C67_equivalence : forall t a b c, valid t a = true -> valid t b = true -> valid t c = true ->
  size_eq t a t a = true /\ size_eq t a t b = size_eq t b t a /\
  (size_eq t a t b = true -> size_eq t b t c = true -> size_eq t a t c = true).
Proof.
  intros t a b c Va Vb Vc.
  assert (S : forall s, valid t s = true -> exists h v, sizes t s = Some (h, v) /\ 0 < snd v /\ match h with Some x => 0 < snd x | None => True end).
  { intros s V. apply valid_iff in V. destruct V as (q1 & q2 & L). rewrite (sizes_legal _ _ _ _ L).
    destruct (legal_digits _ _ _ _ L) as [[A B] C]. pose proof (float_close _ _ A B) as (_ & F & _). destruct q2 as [q|].
    - destruct C as [C D]. pose proof (float_close _ _ C D) as (_ & H & _). eauto 6.
    - eauto 6. }
  assert (T : forall x y z : dbl, 0 < snd y -> same x y -> same y z -> same x z).
  { unfold same. intros x y z Hy H1 H2. apply (Z.mul_reg_r _ _ (snd y)); [lia|].
    replace (fst x * snd z * snd y)%Z with (fst x * snd y * snd z)%Z by ring. rewrite H1.
    replace (fst y * snd x * snd z)%Z with (fst y * snd z * snd x)%Z by ring. rewrite H2. ring. }
  destruct (S a Va) as (ha & va & Ea & Pa & Pa'). destruct (S b Vb) as (hb & vb & Eb & Pb & Pb'). destruct (S c Vc) as (hc & vc & Ec & Pc & Pc').
  pose proof (size_eq_same t a a _ _ Ea Ea) as Iaa. pose proof (size_eq_same t a b _ _ Ea Eb) as Iab.
  pose proof (size_eq_same t b a _ _ Eb Ea) as Iba. pose proof (size_eq_same t b c _ _ Eb Ec) as Ibc. pose proof (size_eq_same t a c _ _ Ea Ec) as Iac.
  assert (Rf : forall x : dbl, same x x) by reflexivity. assert (Sy : forall x y : dbl, same x y -> same y x) by (unfold same; intros; lia).
  assert (Wb : match width t (hb, vb) with Some x => 0 < snd x | None => True end).
  { unfold width. cbn [fst snd]. destruct t as [[] []|]; destruct hb; assumption. }
  split; [|split].
  - apply Iaa. split; [apply Rf|]. destruct (width t (ha, va)); auto.
  - apply eq_true_iff_eq. rewrite Iab, Iba. unfold same_size. destruct (width t (ha, va)), (width t (hb, vb)); split; intros [X Y]; split; auto; tauto.
  - intros X Y. apply Iac. apply Iab in X. apply Ibc in Y. destruct X as [X1 X2], Y as [Y1 Y2]. split; [exact (T _ _ _ Pb X1 Y1)|].
    destruct (width t (ha, va)), (width t (hb, vb)), (width t (hc, vc)); try tauto. exact (T _ _ _ Wb X2 Y2).
Qed.

(** ... but not among all: a first equals a second, that a third, and the first
    does not equal the third. *)
Theorem C67_not_transitive : exists t t' a b c,
  valid t a = true /\ valid t b = true /\ valid t' c = true /\
  size_eq t a t b = true /\ size_eq t b t' c = true /\ size_eq t a t' c = false.
Proof. exists (Sized Origin Percent), (Sized Extent Percent), "-5% 0%", "5% 0%", "5% 0%". repeat split; vm_compute; reflexivity. Qed.

(** ** Cases *)

Example C67_case_reading :
  valid (Sized Extent Pixels) "+640px .5px" = true /\
  sizes (Sized Extent Pixels) "+640px .5px" = Some (Some (float_of "640" ""), (2 ^ 52, 2 ^ 53))%Z /\
  valid (Sized Extent Pixels) "-640px .5px" = false /\ valid (Sized Extent Pixels) "640px 5.px" = false /\
  valid (Sized LineHeight Cells) "1c 1c" = false /\ valid (Sized FontSize Cells) "1c 2c" = true /\
  valid Resolution "032 15" = true /\ valid Resolution "0 15" = false.
Proof. repeat split; vm_compute; reflexivity. Qed.

Example C67_case_sign : spelled Origin Cells "-1c" "1" "" /\ spelled Origin Cells "+2.50c" "2" "50".
Proof.
  split; [exists "-"|exists "+"]; (split; [right|split; [repeat split; left; discriminate|reflexivity]]); [right; auto|left; split; [reflexivity|discriminate]].
Qed.

Example C67_case_writing :
  construct (Sized Origin Percent) [ANum (NFloat true (1, 3)); ANum (NInt 20)] = Some "-0.333333333333% 20%" /\
  construct (Sized FontSize Cells) [ANum (NFloat false (5, 2))] = Some "2.5c" /\
  construct (Sized FontSize Cells) [ANum (NFloat true (5, 2))] = None /\
  construct Resolution [ANum (NInt 32); ANum (NInt 15)] = Some "32 15" /\
  construct Resolution [ANum (NInt 32); ANum (NInt 0)] = None.
Proof. repeat split; vm_compute; reflexivity. Qed.

Example C67_case_good : good (Sized Origin Percent) [NFloat true (1, 3); NInt 20] /\ good Resolution [NInt 32; NInt 15].
Proof.
  split; split; try reflexivity.
  - constructor; [split; [right; reflexivity|right; split; vm_compute; [discriminate|reflexivity]]|].
    constructor; [left; vm_compute; discriminate|constructor].
  - constructor; [exists 32%Z; split; reflexivity|]. constructor; [exists 15%Z; split; reflexivity|constructor].
Qed.

Example C67_case_exact :
  twelve_digits (rnd 123456789012 (10 ^ 10)) /\
  construct (Sized LineHeight Percent) [ANum (NFloat false (rnd 123456789012 (10 ^ 10)))] = Some "12.3456789012%" /\
  sizes (Sized LineHeight Percent) "12.3456789012%" = Some (None, rnd 123456789012 (10 ^ 10)) /\
  construct (Sized LineHeight Percent) [ANum (NFloat false (rnd 1 3))] = Some "0.333333333333%" /\
  sizes (Sized LineHeight Percent) "0.333333333333%" <> Some (None, rnd 1 3) /\
  sizes (Sized LineHeight Percent) "0.333333333333%" = Some (None, rnd 333333333333 (10 ^ 12)) /\
  construct (Sized LineHeight Percent) [ANum (NFloat false (rnd 333333333333 (10 ^ 12)))] = Some "0.333333333333%".
Proof.
  split; [exists 123456789012%Z, 0%Z, 10%Z; repeat split; lia|].
  repeat split; try (vm_compute; reflexivity). vm_compute. discriminate.
Qed.

Example C67_case_region :
  legal (Sized Extent Cells) "20c 3.5c" ("20", "") (Some ("3", "5")) /\
  percent ("20", "") 32 = (2000, 32)%Z /\ percent ("3", "5") 15 = (3500, 150)%Z /\
  convert_region Extent Cells "20c 3.5c" "32 15" = Some "62.5% 23.3333333333%".
Proof. split; [apply groups_spec; vm_compute; reflexivity|]. repeat split; vm_compute; reflexivity. Qed.

Example C67_case_equal :
  size_eq (Sized FontSize Cells) "10c" (Sized FontSize Cells) "10c 10.0c" = true /\
  size_eq (Sized FontSize Pixels) "10px" (Sized FontSize Pixels) "10px 10px" = false /\
  size_eq (Sized Extent Pixels) "010px 5px" (Sized Extent Pixels) "+10.0px 5px" = true /\
  size_eq (Sized Extent Pixels) "10px 5px" (Sized Extent Pixels) "10px 5.5px" = false /\
  size_eq (Sized Origin Percent) "5% 5%" (Sized Extent Percent) "5% 5%" = true /\
  size_eq (Sized Origin Percent) "5% 5%" (Sized Extent Percent) "5.0% 5%" = false.
Proof. repeat split; vm_compute; reflexivity. Qed.

Print Assumptions C67_reading.
Print Assumptions C67_sign.
Print Assumptions C67_writing.
Print Assumptions C67_arguments.
Print Assumptions C67_exact.
Print Assumptions C67_stable.
Print Assumptions C67_refused.
Print Assumptions C67_region.
Print Assumptions C67_region_again.
Print Assumptions C67_region_sign.
Print Assumptions C67_equal.
Print Assumptions C67_equivalence.
Print Assumptions C67_not_transitive.
