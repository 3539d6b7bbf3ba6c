(** C57: times are read in the time base of their document. *)

From Coq Require Import List ZArith String Ascii Bool Lia Sorting.Permutation.
From Verif Require Import Digits TimeModel TimeSpec TimeProofs PropsTime ReadModel ReadSpec.
Import ListNotations.
Open Scope Z_scope.

(** ** The patterns *)

Lemma scan_char_inv : forall c s r, scan_char c s = Some r -> s = String c r.
Proof. intros c [|a s] r H; cbn in H; [discriminate|]. destruct (Ascii.eqb_spec a c); [|discriminate]. inversion H; subst; auto. Qed.

Lemma smpte_iff : forall s, smpte_ok s = true <-> legal_smpte s.
Proof.
  intros s. unfold smpte_ok, scan_sexa. split.
  - destruct (two_digits s) as [[h r1]|] eqn:E1; [|discriminate]. destruct (Z.leb_spec h 23); [|discriminate].
    destruct (scan_char ":" r1) as [r2|] eqn:C1; [|discriminate].
    destruct (two_digits r2) as [[m r3]|] eqn:E2; [|discriminate]. destruct (Z.leb_spec m 59); [|discriminate].
    destruct (scan_char ":" r3) as [r4|] eqn:C2; [|discriminate].
    destruct (two_digits r4) as [[c r5]|] eqn:E3; [|discriminate]. destruct (Z.leb_spec c 59); [|discriminate].
    destruct (scan_char ":" r5) as [r6|] eqn:C3; [|discriminate].
    destruct (two_digits r6) as [[f [|? ?]]|] eqn:E4; try discriminate. intros _.
    apply scan_char_inv in C1, C2, C3. subst.
    apply two_read in E1, E2, E3, E4. destruct E1 as (ht & -> & ? & ?), E2 as (mt & -> & ? & ?), E3 as (ct & -> & ? & ?), E4 as (ft & -> & ? & ?).
    exists ht, mt, ct, ft, h, m, c, f. rewrite app_empty_r. repeat (split; [auto|]). auto.
  - intros (ht & mt & ct & ft & h & m & c & f & -> & Lh & Rh & Hh & Lm & Rm & Hm & Lc & Rc & Hc & Lf & Rf).
    rewrite (read_two _ _ Lh Rh). rewrite (proj2 (Z.leb_le _ _) Hh). cbn [append]. rewrite scan_char_app.
    rewrite (read_two _ _ Lm Rm), (proj2 (Z.leb_le _ _) Hm), scan_char_app.
    rewrite (read_two _ _ Lc Rc), (proj2 (Z.leb_le _ _) Hc), scan_char_app.
    rewrite <- (app_empty_r ft), (read_two _ _ Lf Rf). reflexivity.
Qed.

Lemma matches_iff : forall ty s, matches ty s = true <-> legal ty s.
Proof.
  intros [] s; cbn [matches legal].
  - apply smpte_iff.
  - rewrite C16_accepts. destruct (timecount_parts s); intuition (congruence || discriminate).
  - rewrite C17_accepts. destruct (clock_parts false s); intuition (congruence || discriminate).
  - rewrite C17_accepts. destruct (clock_parts true s); intuition (congruence || discriminate).
Qed.

(** Only the two clock times overlap. *)
Lemma smpte_span : forall s, smpte_ok s = true -> exists h m c r, span s = (h, String ":" m) /\ String.length h = 2%nat /\
  exists mt, scan_sexa 59 m = Some (mt, String ":" c) /\ exists ct, scan_sexa 59 c = Some (ct, String ":" r).
Proof.
  intros s H. unfold smpte_ok in H. destruct (scan_sexa 23 s) as [[h r1]|] eqn:E1; [|discriminate].
  destruct (scan_char ":" r1) as [r2|] eqn:C1; [|discriminate].
  destruct (scan_sexa 59 r2) as [[m r3]|] eqn:E2; [|discriminate].
  destruct (scan_char ":" r3) as [r4|] eqn:C2; [|discriminate].
  destruct (scan_sexa 59 r4) as [[c r5]|] eqn:E3; [|discriminate].
  destruct (scan_char ":" r5) as [r6|] eqn:C3; [|discriminate]. apply scan_char_inv in C1, C2, C3. subst.
  unfold scan_sexa in E1. destruct (two_digits s) as [[h' r']|] eqn:T; [|discriminate]. destruct (h' <=? 23); inversion E1; subst.
  apply two_read in T. destruct T as (ht & -> & L & R). exists ht, r2, r4, r6. split; [|split; [auto|eauto]].
  apply span_app; [|reflexivity]. unfold read in R. destruct ht; [discriminate|]. eapply horner_digits; eauto.
Qed.

Lemma smpte_clock : forall lim s, smpte_ok s = true -> clock_parts lim s = None.
Proof.
  intros lim s H. destruct (smpte_span s H) as (h & m & c & r & S & L & mt & M & ct & C). unfold clock_parts. rewrite S, L.
  assert (X : (if lim then Nat.eqb 2 2 else Nat.leb 2 2) = true) by (destruct lim; auto). rewrite X. cbn [scan_char]. change (Ascii.eqb ":" ":") with true. cbv iota.
  rewrite M. cbn [scan_char]. change (Ascii.eqb ":" ":") with true. cbv iota. unfold scan_sexa in *.
  destruct (two_digits c) as [[v q]|]; [|discriminate]. destruct (Z.leb_spec v 59); inversion C; subst. destruct (Z.leb_spec ct 60); [|lia]. reflexivity.
Qed.
Lemma colon_timecount : forall s h r, span s = (h, String ":" r) -> timecount_parts s = None.
Proof. intros s h r S. unfold timecount_parts, scan_number. rewrite S. destruct h; [auto|]. reflexivity. Qed.
Lemma clock_colon : forall lim s p, clock_parts lim s = Some p -> exists h r, span s = (h, String ":" r).
Proof.
  intros lim s p H. unfold clock_parts in H. destruct (span s) as [h r]. destruct (if lim then _ else _); [|discriminate].
  destruct (scan_char ":" r) eqn:E; [|discriminate]. apply scan_char_inv in E. subst. eauto.
Qed.

Definition is_clock_type (ty : ttype) : bool := match ty with FullClock | LimitedClock => true | _ => false end.
Lemma disjoint : forall a b s, matches a s = true -> matches b s = true -> a = b \/ (is_clock_type a = true /\ is_clock_type b = true).
Proof.
  assert (TS : forall s, smpte_ok s = true -> timecount_parts s = None) by (intros s H; destruct (smpte_span s H) as (h & m & _ & _ & S & _); eapply colon_timecount; eauto).
  assert (TC : forall lim s p, clock_parts lim s = Some p -> timecount_parts s = None) by (intros lim s p H; destruct (clock_colon _ _ _ H) as (h & r & S); eapply colon_timecount; eauto).
  intros a b s. destruct a, b; cbn [matches is_clock_type]; intros A B; auto; exfalso.
  - rewrite (TS s A) in B. discriminate.
  - rewrite (smpte_clock false s A) in B. discriminate.
  - rewrite (smpte_clock true s A) in B. discriminate.
  - rewrite (TS s B) in A. discriminate.
  - destruct (clock_parts false s) eqn:E; [|discriminate]. rewrite (TC _ _ _ E) in A. discriminate.
  - destruct (clock_parts true s) eqn:E; [|discriminate]. rewrite (TC _ _ _ E) in A. discriminate.
  - rewrite (smpte_clock false s B) in A. discriminate.
  - destruct (clock_parts false s) eqn:E; [|discriminate]. rewrite (TC _ _ _ E) in B. discriminate.
  - rewrite (smpte_clock true s B) in A. discriminate.
  - destruct (clock_parts true s) eqn:E; [|discriminate]. rewrite (TC _ _ _ E) in B. discriminate.
Qed.

Lemma limited_full : forall s, matches LimitedClock s = true -> matches FullClock s = true.
Proof.
  intros s H. apply matches_iff in H. apply matches_iff. destruct H as (h & m & c & f & D & L & R). exists h, m, c, f. split; [auto|]. split; [cbn in *; lia|auto].
Qed.

(** ** The order of the types does not matter *)

Lemma bases_kinds : forall tb ty n, existsb (String.eqb tb) (bases ty n) = true <-> In ty (kinds tb).
Proof.
  intros tb ty n. unfold kinds. rewrite existsb_exists. destruct (String.eqb_spec tb "clock") as [->|N1]; [|destruct (String.eqb_spec tb "media") as [->|N2]; [|destruct (String.eqb_spec tb "smpte") as [->|N3]]].
  all: split; [intros (x & I & E); apply String.eqb_eq in E; subst x; destruct ty, n; cbn in *; intuition congruence|].
  all: intros I; destruct ty; cbn in I; intuition try discriminate; match goal with |- exists x, In x _ /\ String.eqb ?tb x = true => exists tb; split; [destruct n; cbn; auto|apply String.eqb_refl] end.
Qed.

Lemma made_unique : forall tb n a b s, made (Some (mkCx (Some tb) (Some n))) a s = true -> made (Some (mkCx (Some tb) (Some n))) b s = true -> a = b.
Proof.
  intros tb n a b s A B. cbn [made cx_base cx_name] in A, B. apply andb_prop in A as [A1 A2]. apply andb_prop in B as [B1 B2].
  apply bases_kinds in A1. apply bases_kinds in B1. destruct (disjoint a b s A2 B2) as [E|[E1 E2]]; auto.
  unfold kinds in *. destruct (String.eqb tb "clock"), (String.eqb tb "media"), (String.eqb tb "smpte"); destruct a, b; cbn in *; intuition discriminate.
Qed.

Lemma find_unique : forall {A} (p : A -> bool) l x, (forall a b, p a = true -> p b = true -> a = b) -> (find p l = Some x <-> In x l /\ p x = true).
Proof.
  intros A p l x U. split; [apply find_some|]. intros [I P]. induction l as [|y l IH]; [destruct I|]. cbn [find]. destruct (p y) eqn:E; [f_equal; auto|].
  destruct I as [->|I]; [congruence|auto].
Qed.

Theorem C57_order : forall tb n s ms ms', Permutation ms ms' ->
  union (Some (mkCx (Some tb) (Some n))) ms s = union (Some (mkCx (Some tb) (Some n))) ms' s.
Proof.
  intros tb n s ms ms' P. unfold union. set (p := fun ty => made _ ty s).
  assert (U : forall a b, p a = true -> p b = true -> a = b) by (intros a b; apply made_unique).
  destruct (find p ms) as [x|] eqn:E.
  - symmetry. apply find_unique; auto. apply find_unique in E; auto. destruct E as [I X]. split; auto. eapply Permutation_in; eauto.
  - destruct (find p ms') as [y|] eqn:E'; auto. apply find_some in E'. destruct E' as [I Y].
    apply find_none with (x := y) in E; [congruence|]. eapply Permutation_in; [apply Permutation_sym; eauto|auto].
Qed.

(** ** Reading *)

Lemma union_time : forall tb n s ty, union (Some (mkCx (Some tb) (Some n))) (members n) s = Some ty <-> time_in tb n s ty.
Proof.
  intros tb n s ty. unfold union, time_in. rewrite find_unique by (intros a b; apply made_unique). cbn [made cx_base cx_name].
  rewrite andb_true_iff, bases_kinds, matches_iff.
  assert (M : In ty (members n) <-> (n = NDur -> ty <> Smpte)).
  { destruct n, ty; cbn; intuition (try congruence; discriminate). }
  tauto.
Qed.

Lemma union_meta : forall tb ms s, In ms [programme_members; media_members] ->
  forall ty, union (Some (mkCx (Some tb) None)) ms s = Some ty <-> In ty ms /\ legal ty s.
Proof.
  intros tb ms s I ty. unfold union. cbn [made cx_base cx_name]. rewrite <- matches_iff. split; [apply find_some|]. intros [J M].
  assert (U : forall x, In x ms -> matches x s = true -> x = ty).
  { intros x X Y. destruct (disjoint x ty s Y M) as [E|[E1 E2]]; auto. destruct I as [<-|[<-|[]]], x, ty; cbn in *; intuition discriminate. }
  clear I. induction ms as [|y ms IH]; [destruct J|]. cbn [find]. destruct (matches y s) eqn:E; [f_equal; apply U; [left; auto|auto]|].
  destruct J as [->|J]; [congruence|]. apply IH; auto. intros x X. apply U. right; auto.
Qed.

Definition reads (tb : string) (l : list item) (r : list (item * ttype)) : Prop := map fst r = l /\ Forall (fun p => item_in tb (fst p) (snd p)) r.

Lemma reads_nil : forall tb r, reads tb [] r <-> r = [].
Proof. intros tb r. unfold reads. split; [intros [H _]; destruct r; [auto|discriminate]|intros ->; auto]. Qed.
Lemma reads_cons : forall tb x l r, reads tb (x :: l) r <-> exists ty q, r = (x, ty) :: q /\ item_in tb x ty /\ reads tb l q.
Proof.
  intros tb x l r. unfold reads. split.
  - intros [H F]. destruct r as [|[y ty] q]; [discriminate|]. cbn in H. inversion H; subst. inversion F; subst. exists ty, q. auto.
  - intros (ty & q & -> & I & H & F). cbn. split; [f_equal; auto|constructor; auto].
Qed.

Lemma read_body : forall tb l o r, Forall in_body l -> (read_items (mkCx (Some tb) o) l = Some r <-> reads tb l r).
Proof.
  intros tb. induction l as [|x l IH]; intros o r F; [cbn; rewrite reads_nil; split; [intros H; inversion H; auto|intros ->; auto]|].
  inversion F as [|? ? B F']; subst. destruct x as [s|s|n s]; try contradiction. rewrite reads_cons. cbn [read_items cx_base]. split.
  - destruct (union _ (members n) s) as [ty|] eqn:U; [|discriminate]. destruct (read_items _ l) as [q|] eqn:Q; [|discriminate]. intros E. inversion E; subst.
    exists ty, q. split; [auto|]. split; [apply union_time; auto|]. eapply IH; eauto.
  - intros (ty & q & -> & I & R). apply union_time in I. rewrite I. apply (IH (Some n)) in R; auto. rewrite R. auto.
Qed.

(** Reading succeeds exactly on documents with times of their time base, and
    gives each its kind. *)
Theorem C57_parse : forall tb head body r, Forall (fun x => ~ in_body x) head -> Forall in_body body ->
  (parse (Some tb) (head ++ body) = Some r <->
   map fst r = head ++ body /\ Forall (fun p => item_in tb (fst p) (snd p)) r)%list.
Proof.
  intros tb head body r Fh Fb. change (parse (Some tb) (head ++ body) = Some r <-> reads tb (head ++ body) r). unfold parse.
  revert r. induction head as [|x h IH]; intros r; [apply read_body; auto|]. inversion Fh as [|? ? B F']; subst.
  cbn [app]. rewrite reads_cons. specialize (IH F').
  destruct x as [s|s|n s]; [| |cbn in B; tauto]; cbn [read_items].
  - split.
    + destruct (union _ programme_members s) as [ty|] eqn:U; [|discriminate]. destruct (read_items _ (h ++ body)) as [q|] eqn:Q; [|discriminate]. intros E. inversion E; subst.
      exists ty, q. split; [auto|]. split; [|apply IH; auto]. apply union_meta in U; [|cbn; auto]. exact U.
    + intros (ty & q & -> & I & R). apply IH in R. rewrite R. rewrite (proj2 (union_meta tb programme_members s ltac:(cbn; auto) ty) I). auto.
  - split.
    + destruct (union _ media_members s) as [ty|] eqn:U; [|discriminate]. destruct (read_items _ (h ++ body)) as [q|] eqn:Q; [|discriminate]. intros E. inversion E; subst.
      exists ty, q. split; [auto|]. split; [|apply IH; auto]. apply union_meta in U; [|cbn; auto]. cbn in *. tauto.
    + intros (ty & q & -> & I & R). apply IH in R. rewrite R. rewrite (proj2 (union_meta tb media_members s ltac:(cbn; auto) ty) ltac:(cbn in *; tauto)). auto.
Qed.

(** There is at most one reading, and one exists when all times are legal. *)
Theorem C57_legal : forall tb head body, Forall (fun x => ~ in_body x) head -> Forall in_body body ->
  (parse (Some tb) (head ++ body) <> None <-> Forall (fun x => exists ty, item_in tb x ty) (head ++ body))%list.
Proof.
  intros tb head body Fh Fb. split.
  - intros H. destruct (parse _ _) as [r|] eqn:P; [|congruence]. apply C57_parse in P; auto. destruct P as [<- F].
    apply Forall_map. eapply Forall_impl; [|exact F]. intros p I. exists (snd p). exact I.
  - intros F. assert (R : exists r, reads tb (head ++ body) r).
    { clear Fh Fb. induction F as [|x l (ty & I) F (q & IH)]; [exists []; split; auto|]. exists ((x, ty) :: q). apply reads_cons. eauto. }
    destruct R as (r & R). apply (C57_parse tb head body r Fh Fb) in R. congruence.
Qed.

(** Documents that could be read pass the check of time bases. *)
Theorem C57_checked : forall tb head body r n s ty, Forall (fun x => ~ in_body x) head -> Forall in_body body ->
  parse (Some tb) (head ++ body)%list = Some r -> In (ITime n s, ty) r -> timebase_ok tb n ty = true.
Proof.
  intros tb head body r n s ty Fh Fb P I. apply C57_parse in P; auto. destruct P as [_ F]. rewrite Forall_forall in F. specialize (F _ I).
  destruct F as [K _]. unfold timebase_ok. apply bases_kinds. exact K.
Qed.

(** The time does not depend on which of two types a text is given (unless one of
    them is the time code, which is worth nothing). *)
Theorem C57_value : forall a b s v, a <> Smpte -> legal a s -> legal b s -> value a s = Some v -> value b s = Some v.
Proof.
  intros a b s v Na La Lb V. apply matches_iff in La. apply matches_iff in Lb. destruct (disjoint a b s La Lb) as [<-|[A B]]; auto.
  destruct a, b; try discriminate; auto; cbn [value] in *.
  - unfold clock_td in *. cbn [matches] in La, Lb. destruct (clock_parts true s) as [[[[h m] c] f]|] eqn:E; [|discriminate].
    assert (E' : clock_parts false s = Some (h, m, c, f)).
    { apply clock_parts_iff in E. apply clock_parts_iff. destruct E as (D & L & R). split; [auto|]. split; [cbn in *; lia|auto]. }
    rewrite E' in V. exact V.
  - apply C17_limited_is_full. auto.
Qed.

(** ** Setting attributes by program *)

(** A text that is set to an attribute by program gets the first type it fits:
    with this type it passes the check of time bases only in these cases. *)
Definition settable (tb : string) (n : tname) (s : string) : Prop :=
  exists ty, assign n s = Some ty /\ timebase_ok tb n ty = true.

Theorem C57_set : forall n s,
  (settable "clock" n s <-> legal_timecount s \/ n = NDur /\ legal_clock true s) /\
  (settable "media" n s <-> legal_timecount s \/ legal_clock false s /\ (n = NDur -> ~ legal_clock true s)).
Proof.
  intros n s.
  change (legal_timecount s) with (legal Timecount s). change (legal_clock true s) with (legal LimitedClock s). change (legal_clock false s) with (legal FullClock s).
  rewrite <- !matches_iff. unfold settable, assign, union. cbn [made].
  assert (D1 := disjoint Smpte Timecount s). assert (D2 := disjoint Smpte FullClock s). assert (D3 := disjoint Smpte LimitedClock s).
  assert (D4 := disjoint Timecount FullClock s). assert (D5 := disjoint Timecount LimitedClock s). assert (L := limited_full s). cbn [is_clock_type] in *.
  destruct n; cbn [members timing_members duration_members clock_members media_members app find timebase_ok].
  all: destruct (matches Smpte s), (matches Timecount s), (matches FullClock s), (matches LimitedClock s);
    try (exfalso; intuition discriminate); split; split;
    try (intros (ty & E & B); inversion E; subst; try discriminate; cbn in B; try discriminate; intuition discriminate);
    try (intros H; eexists; split; [reflexivity|]; intuition discriminate).
  all: intros H; exfalso; intuition (try discriminate; congruence).
Qed.

(** A timedelta that is set as begin or end is a time code of zero. *)
Theorem C57_delta : forall n t, n <> NDur ->
  assign_delta n t = Some (Smpte, "00:00:00:00"%string) /\ value Smpte "00:00:00:00" = Some 0 /\
  timebase_ok "clock" n Smpte = false /\ timebase_ok "media" n Smpte = false.
Proof. intros n t H. destruct n; [| |congruence]; repeat split. Qed.

(** Set as dur it is a limited clock time, to the millisecond: right in a clock
    document, refused in a media document. *)
Theorem C57_delta_dur : forall t, 0 <= t < h100 -> exists s,
  assign_delta NDur t = Some (LimitedClock, s) /\ value LimitedClock s = Some (trunc_ms t) /\
  timebase_ok "clock" NDur LimitedClock = true /\ timebase_ok "media" NDur LimitedClock = false.
Proof.
  intros t H. destruct (limited_of t) as [s|] eqn:L; [|apply C17_limited_overflow in L; lia].
  destruct (C17_limited_roundtrip t s) as [R G]; [unfold in_range; unfold h100 in H; lia|assumption|].
  exists s. split; [|split; [exact R|split; reflexivity]].
  change (assign_delta NDur t) with (match from_delta LimitedClock t with Some s => if matches LimitedClock s then Some (LimitedClock, s) else None | None => None end).
  cbn [from_delta]. rewrite L, (proj2 (matches_iff LimitedClock s)); auto.
Qed.
Example C57_case_delta_dur : assign_delta NDur 5500000 = Some (LimitedClock, "00:00:05.500"%string).
Proof. reflexivity. Qed.

(** ** EBU-TT-D *)

(** No document with a time can be read when the time base is not noted, as
    happens with EBU-TT-D. *)
Theorem C57_ebuttd : forall x l, parse None (x :: l) = None.
Proof.
  intros x l. unfold parse. cbn [read_items cx_base].
  destruct x as [s|s|n s]; cbn [cx_base]; unfold union; [| |destruct n]; cbn [programme_members media_members clock_members members timing_members duration_members app find made cx_base]; reflexivity.
Qed.

(** ** Cases *)

Definition clock_doc : list item := [ITime NBegin "10:00:00"; ITime NDur "5s"; ITime NBegin "10:00:01.5"; ITime NEnd "2500ms"]%string.
Example C57_case : parse (Some "clock"%string) (IProgramme "10:00:00:00"%string :: clock_doc) =
  Some [(IProgramme "10:00:00:00", Smpte); (ITime NBegin "10:00:00", LimitedClock); (ITime NDur "5s", Timecount);
        (ITime NBegin "10:00:01.5", LimitedClock); (ITime NEnd "2500ms", Timecount)]%string.
Proof. vm_compute. reflexivity. Qed.
Example C57_case_media : parse (Some "media"%string) (clock_doc ++ [ITime NEnd "100:00:00"%string]) =
  Some [(ITime NBegin "10:00:00", FullClock); (ITime NDur "5s", Timecount);
        (ITime NBegin "10:00:01.5", FullClock); (ITime NEnd "2500ms", Timecount); (ITime NEnd "100:00:00", FullClock)]%string.
Proof. vm_compute. reflexivity. Qed.
Example C57_case_refused : map (fun p => parse (Some (fst p)) [ITime NEnd (snd p)])
  [("clock", "100:00:00"); ("media", "10:00:00:00"); ("smpte", "10:00:00"); ("smpte", "24:00:00:00"); ("clock", "")]%string = [None; None; None; None; None] /\
  parse (Some "smpte"%string) [ITime NDur "10:00:00:00"%string] = None.
Proof. vm_compute. auto. Qed.
(** Outside parsing, 10:00:00 is refused as begin of a clock document and as
    duration of a media document. *)
Example C57_case_set : assign NBegin "10:00:00" = Some FullClock /\ timebase_ok "clock" NBegin FullClock = false /\
  assign NDur "10:00:00" = Some LimitedClock /\ timebase_ok "media" NDur LimitedClock = false.
Proof. vm_compute. auto. Qed.

(** The examples of the project's own tests,
    testing/bdd/features/validation/timeBase_timeformat_constraints.feature
    9-208, each once. *)
Definition given_valid : list (string * list item) :=
  [("clock", [ITime NBegin "15.58m"; ITime NEnd "1.5h"]);
   ("clock", [ITime NBegin "42:05:60.8"; ITime NEnd "45:00:47"; ITime NDur "1400h"]);
   ("clock", [ITime NDur "67ms"]);
   ("clock", [ITime NDur "00:00:60.4"]);
   ("media", [ITime NBegin "42:05:60.8"; ITime NEnd "45:00:47.0"]);
   ("media", [ITime NBegin "67.945s"; ITime NEnd "125.0s"]);
   ("media", [ITime NBegin "999:09:60.8"; ITime NEnd "1999:00:60.999"]);
   ("media", [ITime NDur "99.9s"]);
   ("media", [ITime NDur "2225:59:60.9"]);
   ("smpte", [ITime NBegin "00:00:00:00"]);
   ("smpte", [ITime NBegin "11:11:11:11"; ITime NEnd "11:11:11:12"]);
   ("clock", [ITime NBegin "42:05:60.8"; ITime NEnd "45:00:47"]);
   ("clock", [ITime NBegin "45:00:47"; ITime NEnd "1400h"]);
   ("clock", [ITime NBegin "1400h"]);
   ("clock", [ITime NBegin "00:00:60.4"]);
   ("media", [ITime NBegin "99.9s"]);
   ("media", [ITime NBegin "2225:59:60.9"]);
   ("clock", [ITime NBegin "999.99m"; ITime NEnd "99999999.99s"]);
   ("media", [ITime NBegin "00.945ms"; ITime NEnd "125.0h"]);
   ("media", [ITime NBegin "999:09:60.8"; ITime NEnd "001000:00:60.999"]);
   ("clock", [ITime NBegin "15.00m"; ITime NEnd "99h"]);
   ("clock", [ITime NBegin "00:05:60.8"; ITime NEnd "45:00:47"]);
   ("media", [ITime NBegin "199.45ms"; ITime NEnd "15s"]);
   ("media", [ITime NBegin "009900:09:60.8"; ITime NEnd "1999:00:60.999"]);
   ("media", [IProgramme "00:00:00.000"]);
   ("clock", [IProgramme "00:00:00.000"]);
   ("smpte", [IProgramme "10:00:00:00"])]%string.
Definition given_invalid : list (string * list item) :=
  [("clock", [ITime NBegin "15.58a"; ITime NEnd "1.5d"]);
   ("media", [ITime NBegin "67.945q"; ITime NEnd "-125.0x"]);
   ("media", [ITime NDur "99.9l"]);
   ("media", [ITime NBegin "42:05:08:60.8"; ITime NEnd "45:00:47.0"]);
   ("media", [ITime NBegin "140:09:60.8.1"; ITime NEnd "141:00:60.999"]);
   ("media", [ITime NDur "225:59:60.9.3"]);
   ("clock", [ITime NBegin "0142:05:60.8"; ITime NEnd "145:00:47"]);
   ("clock", [ITime NDur "199:00:60.4"]);
   ("smpte", [ITime NBegin "00:00:00"]);
   ("smpte", [ITime NBegin "11"]);
   ("smpte", [ITime NBegin "11:11.11"]);
   ("smpte", [ITime NBegin "11.11.11"]);
   ("smpte", [ITime NBegin "11.11:11"]);
   ("smpte", [ITime NBegin "11.11"]);
   ("smpte", [ITime NBegin "11:11:11:111"]);
   ("media", [ITime NBegin "99.9l"]);
   ("media", [ITime NBegin "225:59:60.9.3"]);
   ("clock", [ITime NBegin "199:00:60.4"]);
   ("clock", [ITime NBegin "099:50:05.4"]);
   ("clock", [ITime NEnd "245:45:24.54"]);
   ("clock", [ITime NBegin "205:20:19"]);
   ("clock", [ITime NEnd "045:49:00"])]%string.
Example C57_project_examples :
  forallb (fun p => match parse (Some (fst p)) (snd p) with Some _ => true | None => false end) given_valid = true /\
  forallb (fun p => match parse (Some (fst p)) (snd p) with Some _ => false | None => true end) given_invalid = true.
Proof. vm_compute. auto. Qed.

(** The scenario that the project skips (lines 211-222) wants these refused;
    they are accepted. *)
Example C57_project_skipped :
  map (fun p => match parse (Some (fst p)) [IProgramme (snd p)] with Some _ => true | None => false end)
    [("media", "00:00:00:00"); ("clock", "00:00:60"); ("smpte", "10:00:00.00")]%string = [true; true; true].
Proof. vm_compute. reflexivity. Qed.

Print Assumptions C57_order.
Print Assumptions C57_parse.
Print Assumptions C57_legal.
Print Assumptions C57_checked.
Print Assumptions C57_value.
Print Assumptions C57_set.
Print Assumptions C57_delta.
Print Assumptions C57_delta_dur.
Print Assumptions C57_ebuttd.
