(** C56: from the producer of subtitles to the screen. *)

From Verif Require Import NodeProofs SequenceModel SequenceSpec SequenceProofs SequenceHistory SequenceInv NodeModel NodeSpec ReseqProofs PropsReseq.
From Coq Require Import List ZArith String Bool QArith Lia Sorting.Permutation.
From Verif Require Import IdModel TimeModel TimeSpec PropsTime TimingModel TimingSpec TimingProofs PropsTiming StyleModel StyleProofs StyleTree PropsStyle PropsScope
  SegmentModel SegmentSpec SegmentProofs SegmentHeadProofs PropsSegment PropsSegmentHead PropsSegmentMade SpliceModel SpliceSpec SpliceProofs PropsSplice
  LookSpec LookProofs LookDressProofs PropsLook ResegModel ResegSpec PropsReseg.
From Verif Require Import PipeModel PipeSpec PipeProofs PipeReadProofs PropsPipe.
From Verif Require Import ProducerModel ProducerSpec ProducerProofs.
From Verif Require ConvertModel ConvertSpec ConvertStyleSpec TokenModel PropsToken.
Import ListNotations.
Open Scope Z_scope.

(** ** One document *)

Lemma white_colon : forall a b, blank (a ++ ":" ++ b)%string = false.
Proof.
  intros a b. unfold blank. destruct (list_ascii_of_string (a ++ ":" ++ b)%string) eqn:E; [auto|]. rewrite <- E.
  assert (A : list_ascii_of_string (a ++ ":" ++ b)%string = (list_ascii_of_string a ++ list_ascii_of_string (":" ++ b)%string)%list)
    by (clear; induction a as [|c a IH]; cbn [append list_ascii_of_string app]; [reflexivity|f_equal; auto]).
  rewrite A, forallb_app. apply andb_false_intro2. reflexivity.
Qed.
Lemma blank_time : forall v s, limited_of v = Some s -> blank s = false.
Proof.
  intros v s H. unfold limited_of in H. destruct (members v) as [[[h m] x] ms]. destruct (99 <? h); inversion H. unfold clock_text.
  destruct (ms =? 0); apply white_colon.
Qed.

Lemma clock_lex : forall v a, timing_type Clock (Some v) = GOk a -> ta_lex a = time_text v /\ blank (ta_lex a) = false.
Proof.
  intros v a H. unfold timing_type in H. unfold time_text. destruct (limited_of v) as [s|] eqn:L; [|discriminate].
  destruct (clock_td true s); inversion H. cbn [ta_lex]. split; [auto|eapply blank_time; eauto].
Qed.

Lemma produced_validates : forall q n lines b d, lines <> [] -> 0 < ta_us b -> ta_us d = 1000000 ->
  validates plain_size (produced q n (between lines) b d) = true.
Proof.
  intros q n lines b d Ne Hb Hd. unfold validates. set (bd := mkBodyd None (Some b) None (Some d) [fragment (between lines)]).
  change (t_body (produced q n (between lines) b d)) with (Some bd). cbv beta iota.
  rewrite (produced_table q n lines b d : doc_table _ bd = the_table).
  rewrite (produced_times None lines b d Ne Hb Hd : validate None (Some (timing_body bd)) = _).
  rewrite (produced_styles lines b d Ne : validate_styles the_table plain_size (styling_body bd) = _). reflexivity.
Qed.

Lemma write_ok : forall q bl lines activation, lines <> [] -> 1000000 <= activation -> activation < h100 ->
  exists b d, ta_us b = trunc_ms activation /\ ta_us d = 1000000 /\
    write (mkPs q bl) lines activation =
    (mkPs (set_last q (q_last q + 1)) bl, inr (produced (set_last q (q_last q + 1)) (q_last q + 1) (between lines) b d)).
Proof.
  intros q bl lines act Ne H1 H2.
  destruct (timing_type_ok Clock act) as [b B]; [lia|]. destruct (timing_type_ok Clock 1000000) as [d D]; [unfold h100; lia|].
  assert (Ub := timing_type_us Clock act b ltac:(lia) B). assert (Ud := timing_type_us Clock 1000000 d ltac:(unfold h100; lia) D).
  exists b, d. split; [auto|]. split; [rewrite Ud; reflexivity|].
  unfold write. cbn [new_document ps_seq ps_blocks set_last q_last]. rewrite interleave_between by auto. rewrite D, B.
  rewrite produced_validates; [reflexivity|auto| |rewrite Ud; reflexivity].
  rewrite Ub. assert (X := trunc_ge 1000000 act eq_refl H1). lia.
Qed.

(** ** What the node is given *)

Definition good (q : seqstate) (p : document * stored * cue) : Prop :=
  let '(d, v, c) := p in
  d = mkDoc (d_num d) (q_sid q) (q_tb q) (q_cm q) (q_agid q) (d_num d) (cu_from c) (Some (cu_until c)) /\
  encodable Clock plain_size (e_computed el_body) d v /\ 0 <= cu_from c < cu_until c /\
  forall t, flat_map words (as_seen v t) = if SegmentSpec.active t (cu_from c) (Some (cu_until c)) then cu_lines c else [].

(** [fed q n f cs]: [f] is a run whose subtitles are [cs], with numbers above [n]. *)
Inductive fed (q : seqstate) : Z -> list (cinput * option stored) -> list (document * stored * cue) -> Prop :=
| fed_nil n : fed q n [] []
| fed_tick n f ps : fed q n f ps -> fed q n ((CTick, None) :: f) ps
| fed_doc n d v c f ps : n < d_num d -> good q (d, v, c) -> fed q (d_num d) f ps -> fed q n ((CDoc d, Some v) :: f) ((d, v, c) :: ps).

Lemma fed_lower : forall q f ps n m, fed q n f ps -> m <= n -> fed q m f ps.
Proof. intros q f ps n m H. induction H; intros L; constructor; auto; lia. Qed.

Definition same_as (q q' : seqstate) : Prop := q_sid q' = q_sid q /\ q_tb q' = q_tb q /\ q_cm q' = q_cm q /\ q_agid q' = q_agid q.

Lemma good_same : forall q q' p, same_as q q' -> good q' p -> good q p.
Proof. intros q q' [[d v] c] (A & B & C & D). unfold good. rewrite A, B, C, D. auto. Qed.

Lemma produced_fed : forall q lines now avail b d, lines <> [] -> Forall (fun s => blank s = false) lines ->
  q_tb q = "clock"%string -> 0 <= q_last q -> in_time (Produce now avail) ->
  ta_us b = trunc_ms (now + second) -> ta_us d = 1000000 ->
  exists dd v, received q avail (produced q (q_last q) (between lines) b d) = Some (dd, v) /\ d_num dd = q_last q /\
    good q (dd, v, slot now avail lines).
Proof.
  intros q lines now avail b d Ne Bl Tb Hn (I1 & I2 & I3) Ub Ud. unfold second in *.
  assert (X := trunc_ge 1000000 (now + 1000000) eq_refl ltac:(lia)). assert (Y := trunc_le (now + 1000000)).
  assert (C := produced_checked q (q_last q) (Some avail) lines b d Ne ltac:(lia) Ud). cbv beta iota zeta in C.
  assert (R : exists dd v, received q avail (produced q (q_last q) (between lines) b d) = Some (dd, v)) by (unfold received; rewrite C; eauto).
  destruct R as (dd & v & R). exists dd, v. split; [auto|].
  destruct (produced_encodable q (q_last q) avail lines b d dd v Ne Bl ltac:(lia) Ud Tb Hn ltac:(lia) ltac:(lia) R) as (E & D & W).
  split; [rewrite D; reflexivity|]. unfold good, slot. cbn [cu_from cu_until cu_lines]. unfold second. rewrite Ub in *.
  split; [rewrite D; reflexivity|]. split; [auto|]. split; [lia|auto].
Qed.

Lemma feed_fed : forall l q bl, q_tb q = "clock"%string -> 0 <= q_last q -> no_blanks bl -> Forall in_time l ->
  exists ps, fed q (q_last q) (feed (mkPs q bl) l) ps /\ map snd ps = subtitles bl l.
Proof.
  assert (step : forall q bl lines now avail r, lines <> [] -> Forall (fun s => blank s = false) lines -> q_tb q = "clock"%string -> 0 <= q_last q ->
    in_time (Produce now avail) -> no_blanks bl ->
    (forall q, q_tb q = "clock"%string -> 0 <= q_last q -> exists ps, fed q (q_last q) (feed (mkPs q bl) r) ps /\ map snd ps = subtitles bl r) ->
    exists ps, fed q (q_last q)
      match write (mkPs q bl) lines (now + 1000000) with
      | (s', inr x) => match received (ps_seq s') avail x with Some (d, c) => (CDoc d, Some c) :: feed s' r | None => feed s' r end
      | (s', inl _) => feed s' r
      end ps /\ map snd ps = slot now avail lines :: subtitles bl r).
  { intros q bl lines now avail r Ne Bl Tb Hn It Nb IH. assert (It' := It). destruct It' as (I1 & I2 & I3). unfold second in I2, I3.
    destruct (write_ok q bl lines (now + 1000000) Ne ltac:(lia) ltac:(lia)) as (b & d & Ub & Ud & ->). cbn [ps_seq].
    set (q' := set_last q (q_last q + 1)).
    destruct (produced_fed q' lines now avail b d Ne Bl Tb ltac:(cbn; lia) It Ub Ud) as (dd & v & R & N & G).
    change (q_last q + 1) with (q_last q') at 1. rewrite R. destruct (IH q' Tb ltac:(cbn; lia)) as (ps & F & M).
    exists ((dd, v, slot now avail lines) :: ps). split; [|cbn [map snd]; f_equal; auto].
    assert (Sm : same_as q q') by (repeat split). constructor; [rewrite N; cbn; lia|eapply good_same; eauto|]. rewrite N.
    clear - F Sm. induction F; constructor; auto. }
  induction l as [|e r IH]; intros q bl Tb Hn Nb F; [exists []; split; [constructor|destruct bl; auto]|].
  inversion F as [|? ? I0 F']; subst. destruct e as [now avail|].
  - cbn [feed]. unfold produce. cbn [ps_blocks ps_seq]. destruct bl as [[|lines more]|].
    + apply IH; auto.
    + cbn [no_blanks] in Nb. inversion Nb as [|? ? B0 Nb']; subst.
      destruct lines as [|s ls].
      * change (write (mkPs q (Some more)) [] (now + 1000000)) with (mkPs (set_last q (q_last q + 1)) (Some more), @inl perr (docu bodyd) PIndexError).
        cbv beta iota. destruct (IH (set_last q (q_last q + 1)) (Some more)) as (ps & P & M); auto; [cbn; lia|]. exists ps. split; [|exact M].
        eapply fed_lower with (n := q_last (set_last q (q_last q + 1))); [|cbn; lia]. clear - P. induction P; constructor; auto.
      * apply (step q (Some more) (s :: ls) now avail r); auto. discriminate.
    + assert (It := I0). destruct It as (I1 & I2 & I3). unfold second in I2, I3.
      destruct (timing_type_ok Clock (now + 1000000)) as [a A]; [lia|]. rewrite A. destruct (clock_lex _ _ A) as [E1 E2].
      rewrite E1 in *. apply (step q None [time_text (now + 1000000)] now avail r); auto. discriminate.
  - destruct (IH q bl) as (ps & P & M); auto. exists ps. split; [cbn [feed]; constructor; auto|]. destruct bl; auto.
Qed.

(** ** The run as a stream of documents *)

Definition doc_of (p : document * stored * cue) : document := fst (fst p).
Definition content_of (p : document * stored * cue) : stored := snd (fst p).

Lemma fed_arrivals : forall q n f ps, fed q n f ps -> arrivals (given f) = map doc_of ps.
Proof. intros q n f ps H. induction H; cbn; auto. unfold given in *. f_equal; auto. Qed.
Lemma fed_order : forall q n f ps, fed q n f ps -> in_order (Some n) (map doc_of ps).
Proof. intros q n f ps H. induction H; cbn [map doc_of in_order fst]; auto. Qed.
Lemma fed_good : forall q n f ps, fed q n f ps -> Forall (good q) ps.
Proof. intros q n f ps H. induction H; auto. Qed.
Lemma in_order_none : forall n l, in_order (Some n) l -> in_order None l.
Proof. intros n [|d l]; cbn; tauto. Qed.
Lemma good_obj : forall q p, good q p -> d_obj (doc_of p) = d_num (doc_of p).
Proof. intros q [[d v] c] (D & _). unfold doc_of. cbn [fst]. rewrite D at 1. reflexivity. Qed.
Lemma order_above : forall l n d, in_order (Some n) l -> In d l -> n < d_num d.
Proof. induction l as [|x l IH]; intros n d H I; [destruct I|]. destruct H as [H H0], I as [->|I]; auto. specialize (IH _ _ H0 I). lia. Qed.
Lemma fed_above : forall q n f ps p, fed q n f ps -> In p ps -> n < d_obj (doc_of p).
Proof.
  intros q n f ps p H I. assert (G := fed_good _ _ _ _ H). rewrite Forall_forall in G. rewrite (good_obj q) by auto.
  eapply order_above; [eapply fed_order; eauto|]. apply in_map; auto.
Qed.
Lemma fed_nodup : forall q n f ps, fed q n f ps -> NoDup (map d_obj (map doc_of ps)).
Proof.
  intros q n f ps H. induction H; cbn [map]; auto; [constructor|]. constructor; auto. intros I.
  apply in_map_iff in I. destruct I as (x & E & I). apply in_map_iff in I. destruct I as (p & <- & I).
  assert (A := fed_above _ _ _ _ _ H1 I). rewrite E in A. apply good_obj in H0. rewrite H0 in A. unfold doc_of in A. cbn in A. lia.
Qed.
Lemma fed_content : forall q n f ps p, fed q n f ps -> In p ps -> content_in f (doc_of p) = content_of p.
Proof.
  intros q n f ps p H. induction H; intros I; cbn [content_in]; auto; [destruct I|]. destruct I as [<-|I].
  - cbn [doc_of fst content_of snd]. rewrite Z.eqb_refl. auto.
  - assert (A := fed_above _ _ _ _ _ H1 I). apply good_obj in H0. unfold doc_of at 1 2 in H0. cbn [fst] in H0.
    rewrite (proj2 (Z.eqb_neq (d_obj d) (d_obj (doc_of p)))) by lia. auto.
Qed.

Lemma fed_stream : forall q n f ps, fed q n f ps -> 0 <= n -> exists g, stream (q_sid q) (q_tb q) (q_cm q) g (given f).
Proof.
  intros q n f ps H Hn. exists (match q_agid q with Some g => g | None => ""%string end).
  unfold stream. rewrite (fed_arrivals _ _ _ _ H). split; [|split; [eapply in_order_none, fed_order; eauto|eapply fed_nodup; eauto]].
  apply Forall_map. eapply Forall_impl; [|eapply fed_good; eauto]. intros [[d v] c] (D & _ & B & _). unfold doc_of. cbn [fst]. rewrite D.
  unfold fits. cbn [d_sid d_tb d_cm d_agid]. repeat split; auto; [destruct (q_agid q); auto|cbn; lia|cbn; lia|cbn; lia].
Qed.

(** ** Which subtitle counts *)

Lemma in_order_app : forall l n x, in_order (Some n) (l ++ [x]) -> in_order (Some n) l /\ forall d, In d l -> d_num d < d_num x.
Proof.
  induction l as [|y l IH]; intros n x H; [split; [exact Logic.I|intros d []]|]. destruct H as [H H']. destruct (IH _ _ H') as [A B].
  split; [split; auto|]. intros d [<-|I]; auto. eapply (order_above (l ++ [x])); [exact H'|]. apply in_or_app. right. left. auto.
Qed.

Lemma which : forall q ps n T, Forall (good q) ps -> in_order (Some n) (map doc_of ps) ->
  (exists p, In p ps /\ SequenceSpec.active (map doc_of ps) T (doc_of p) /\ to_read (map snd ps) T = cu_lines (snd p)) \/
  ((forall d, ~ SequenceSpec.active (map doc_of ps) T d) /\ to_read (map snd ps) T = []).
Proof.
  intros q ps n T. induction ps as [|x ps IH] using rev_ind; intros F O; [right; split; [intros d ([] & _)|reflexivity]|].
  apply Forall_app in F. destruct F as [F Fx]. inversion Fx as [|? ? Gx _]; subst. rewrite map_app in O. cbn [map] in O. destruct (in_order_app _ _ _ O) as [O' Lt].
  assert (Gd : d_begin (doc_of x) = cu_from (snd x) /\ d_end (doc_of x) = Some (cu_until (snd x))).
  { destruct x as [[d v] c]. destruct Gx as (D & _). unfold doc_of. cbn [fst snd]. rewrite D. auto. }
  destruct Gd as [Eb Ee]. assert (Tr : to_read (map snd (ps ++ [x])) T = begun T (to_read (map snd ps) T) (snd x)).
  { unfold to_read. rewrite map_app, fold_left_app. reflexivity. }
  rewrite Tr, !map_app. cbn [map]. unfold begun. destruct (Z.leb_spec (cu_from (snd x)) T) as [Hb|Hb].
  - destruct (Z.ltb_spec T (cu_until (snd x))) as [He|He].
    + left. exists x. split; [apply in_or_app; right; left; auto|]. split; [|auto]. unfold SequenceSpec.active. rewrite Eb, Ee.
      split; [apply in_or_app; right; left; auto|]. split; [auto|]. split; [|auto]. intros d' I _. apply in_app_or in I.
      destruct I as [I|[<-|[]]]; [|lia]. specialize (Lt _ I). lia.
    + right. split; [|auto]. intros d (I & B & Mx & E). assert (M := Mx (doc_of x) ltac:(apply in_or_app; right; left; auto) ltac:(lia)).
      apply in_app_or in I. destruct I as [I|[<-|[]]]; [specialize (Lt _ I); lia|]. rewrite Ee in E. lia.
  - assert (Q : forall d, SequenceSpec.active (map doc_of ps ++ [doc_of x]) T d <-> SequenceSpec.active (map doc_of ps) T d).
    { intros d. unfold SequenceSpec.active. split; intros (I & B & Mx & E).
      - apply in_app_or in I. destruct I as [I|[<-|[]]]; [|lia]. split; [auto|]. split; [auto|]. split; [|auto]. intros d' I' B'. apply Mx; auto. apply in_or_app; auto.
      - split; [apply in_or_app; auto|]. split; [auto|]. split; [|auto]. intros d' I' B'. apply in_app_or in I'. destruct I' as [I'|[<-|[]]]; [auto|lia]. }
    destruct (IH F O') as [(p & I & A & R)|[N R]].
    + left. exists p. split; [apply in_or_app; auto|]. split; [apply Q; auto|auto].
    + right. split; [intros d A; apply (N d), Q; auto|auto].
Qed.

(** ** The theorem *)


Lemma given_length : forall l s, (List.length (given (feed s l)) <= List.length l)%nat.
Proof.
  induction l as [|e l IH]; intros s; [auto|]. destruct e as [now avail|]; cbn [feed].
  - destruct (produce s now) as [s' [x|x]]; [specialize (IH s'); cbn [List.length]; lia|].
    destruct (received (ps_seq s') avail x) as [[d c]|]; specialize (IH s'); unfold given in *; cbn [map List.length]; lia.
  - specialize (IH s). unfold given in *; cbn [map List.length]; lia.
Qed.

Theorem C56_screen : forall q blocks l out len start discard instant zero,
  q_tb q = "clock"%string -> clock_of (q_tb q) (q_cm q) <> None -> 0 <= q_last q -> no_blanks blocks -> Forall in_time l ->
  subtitles blocks l <> [] -> 0 < len -> 1000 <= start -> start + (Z.of_nat (List.length l) + 1) * len < h100 ->
  0 <= zero -> ms_up zero <= start ->
  let f := feed (mkPs q blocks) l in
  let node := reseq_content (content_in f) out len discard in
  let r := run node (r0 start) (given f) in
  let k := Z.of_nat (List.length (documents (snd r))) in
  exists u dd, snd (node (fst r) CTick) = inr u /\ encode instant zero u = ConvertModel.COk dd /\
    forall t, on_screen (t - ms_up zero) dd =
      if in_window (Some (start + k * len)) (Some (start + (k + 1) * len)) (ms_last t) then to_read (subtitles blocks l) (ms_last t) else [].
Proof.
  intros q blocks l out len start discard instant zero Tb Ck Hn Nb It Ne Hl Hs Hh Z0 Z1 f node r k.
  destruct (feed_fed l q blocks Tb Hn Nb It) as (ps & Fd & Ms). fold f in Fd.
  destruct (fed_stream _ _ _ _ Fd Hn) as (g & St). assert (Ar := fed_arrivals _ _ _ _ Fd). assert (Gd := fed_good _ _ _ _ Fd).
  assert (Aa : arrivals (given f ++ [CTick]) = arrivals (given f)) by (rewrite arrivals_app; cbn; apply app_nil_r).
  assert (Len := given_length l (mkPs q blocks)). fold f in Len. rewrite Tb in Ck, St.
  destruct (C55_chain (content_in f) out len start discard (q_sid q) Clock (q_cm q) g plain_size (e_computed el_body) (given f) [] instant zero) as (u & dd & U & E & R); auto.
  - destruct St as (S1 & S2 & S3). unfold stream. rewrite Aa. auto.
  - intros d I. rewrite Aa, Ar in I. apply in_map_iff in I. destruct I as (p & <- & I). rewrite (fed_content _ _ _ _ _ Fd I).
    rewrite Forall_forall in Gd. specialize (Gd _ I). destruct p as [[d v] c]. apply Gd.
  - rewrite app_length. cbn [List.length]. nia.
  - rewrite Ar. intros X. apply Ne. rewrite <- Ms. destruct ps; [auto|discriminate].
  - repeat split.
  - intros _. auto.
  - exists u, dd. split; [exact U|]. split; [exact E|]. intros t. destruct (R t) as (R1 & R2 & R3). cbn [media] in R1, R2, R3. fold node r k in R1, R2, R3.
    destruct (in_window _ _ (ms_last t)) eqn:W; [|auto]. rewrite Ar in R2, R3.
    destruct (which q ps (q_last q) (ms_last t) Gd (fed_order _ _ _ _ Fd)) as [(p & I & A & T)|[N T]]; rewrite Ms in T; rewrite T; [|auto].
    rewrite (R2 _ eq_refl A), (fed_content _ _ _ _ _ Fd I). rewrite Forall_forall in Gd. specialize (Gd _ I). destruct p as [[d v] c].
    destruct Gd as (D & _ & _ & Wd). unfold content_of. cbn [fst snd]. rewrite Wd. destruct A as (_ & A1 & _ & A2). unfold doc_of in A1, A2. cbn [fst] in A1, A2.
    rewrite D in A1, A2. cbn [d_begin d_end] in A1, A2. unfold SegmentSpec.active. rewrite (proj2 (Z.leb_le _ _) A1), (proj2 (Z.ltb_lt _ _) A2). reflexivity.
Qed.

(** ** The producer by itself *)

Lemma texts_between : forall lines, flat_map texts (between lines) = lines.
Proof.
  induction lines as [|s r IH]; auto. destruct r as [|s0 r]; [reflexivity|].
  change (flat_map texts (between (s :: s0 :: r))) with (s :: flat_map texts (between (s0 :: r))). rewrite IH. reflexivity.
Qed.

Lemma produced_says : forall q n lines b d now, ta_us b = trunc_ms (now + second) -> ta_us d = 1000000 ->
  says (produced q n (between lines) b d) n now lines.
Proof.
  intros q n lines b d now B D. split; [reflexivity|]. exists (mkBodyd None (Some b) None (Some d) [fragment (between lines)]), b, d.
  repeat split; auto. cbn. rewrite !app_nil_r. apply texts_between.
Qed.

Theorem C56_outcomes : forall nows q blocks i now, Forall (fun now => 0 <= now /\ now + second < h100) nows ->
  nth_error nows i = Some now ->
  exists o, nth_error (produce_all (mkPs q blocks) nows) i = Some o /\ outcome_ok (q_last q) blocks i now o.
Proof.
  induction nows as [|w r IH]; intros q blocks i now F N; [destruct i; discriminate|]. inversion F as [|? ? [I1 I2] F']; subst. unfold second in I2.
  assert (St : exists o q' bl', produce (mkPs q blocks) w = (mkPs q' bl', o) /\ outcome_ok (q_last q) blocks 0 w o /\
    (forall j o', outcome_ok (q_last q') bl' j now o' -> outcome_ok (q_last q) blocks (S j) now o')).
  { unfold produce. cbn [ps_blocks ps_seq]. destruct blocks as [[|lines more]|].
    - exists (inl PEndOfData), q, (Some []). split; [auto|]. split; [reflexivity|]. intros j o' H. unfold outcome_ok in *. destruct j; exact H.
    - destruct lines as [|s ls].
      + exists (inl PIndexError), (set_last q (q_last q + 1)), (Some more). split; [reflexivity|]. split; [reflexivity|].
        intros j o' H. unfold outcome_ok in *. cbn [nth_error]. cbn [set_last q_last] in H. replace (q_last q + 1 + Z.of_nat (S j)) with (q_last q + 1 + 1 + Z.of_nat j) by lia. exact H.
      + destruct (write_ok q (Some more) (s :: ls) (w + 1000000) ltac:(discriminate) ltac:(lia) ltac:(lia)) as (b & d & Ub & Ud & ->).
        eexists _, _, _. split; [reflexivity|]. split.
        * unfold outcome_ok. cbn [nth_error]. eexists. split; [reflexivity|]. change (Z.of_nat 0) with 0. rewrite Z.add_0_r. apply produced_says; auto.
        * intros j o' H. unfold outcome_ok in *. cbn [nth_error]. cbn [set_last q_last] in H. replace (q_last q + 1 + Z.of_nat (S j)) with (q_last q + 1 + 1 + Z.of_nat j) by lia. exact H.
    - destruct (timing_type_ok Clock (w + 1000000)) as [a A]; [lia|]. rewrite A. destruct (clock_lex _ _ A) as [E1 _]. rewrite E1.
      destruct (write_ok q None [time_text (w + 1000000)] (w + 1000000) ltac:(discriminate) ltac:(lia) ltac:(lia)) as (b & d & Ub & Ud & ->).
      eexists _, _, _. split; [reflexivity|]. split.
      + unfold outcome_ok. eexists. split; [reflexivity|]. change (Z.of_nat 0) with 0. rewrite Z.add_0_r. apply produced_says; auto.
      + intros j o' H. unfold outcome_ok in *. cbn [set_last q_last] in H. replace (q_last q + 1 + Z.of_nat (S j)) with (q_last q + 1 + 1 + Z.of_nat j) by lia. exact H. }
  destruct St as (o & q' & bl' & P & O & Nx). cbn [produce_all]. rewrite P. destruct i as [|j].
  - cbn [nth_error] in *. inversion N; subst. eauto.
  - cbn [nth_error] in *. destruct (IH q' bl' j now F' N) as (o' & E & H). exists o'. split; auto.
Qed.

(** Lines offered from the hundredth hour on are lost, and so is the number. *)
Theorem C56_lost : forall q lines more now, lines <> [] -> h100 <= now + second ->
  produce (mkPs q (Some (lines :: more))) now = (mkPs (set_last q (q_last q + 1)) (Some more), inl PTimeError).
Proof.
  intros q lines more now Ne H. unfold produce. cbn [ps_blocks ps_seq]. unfold write. cbn [new_document ps_seq ps_blocks].
  rewrite interleave_between by auto. destruct (timing_type_ok Clock 1000000) as [d D]; [unfold h100; lia|]. rewrite D.
  unfold timing_type. fold second. rewrite (proj2 (C17_limited_overflow _) H). reflexivity.
Qed.

(** ** From a text *)

(** The lines cut from a text are used over and over (ebu_simple_producer.py 61,
    config/node.py 227); [m] times is enough for the starts looked at. *)
Definition cycled (subs : list (list string)) (m : nat) : list (list string) := List.concat (repeat subs m).

Lemma nth_cycled : forall subs m i, subs <> [] -> (i < m * List.length subs)%nat ->
  nth_error (cycled subs m) i = nth_error subs (i mod List.length subs).
Proof.
  intros subs. induction m as [|m IH]; intros i Ne Hi; [lia|]. unfold cycled in *. cbn [repeat List.concat].
  assert (L : (List.length subs <> 0)%nat) by (destruct subs; [contradiction|discriminate]).
  destruct (Nat.lt_ge_cases i (List.length subs)) as [H|H].
  - rewrite nth_error_app1 by auto. rewrite Nat.mod_small by auto. auto.
  - rewrite nth_error_app2 by auto. rewrite IH by (auto; lia). f_equal.
    replace i with (i - List.length subs + 1 * List.length subs)%nat at 2 by lia. rewrite Nat.mod_add; auto.
Qed.

Lemma blank_app : forall w x, w <> ""%string -> blank w = false -> blank (w ++ x) = false.
Proof.
  intros w x N B. unfold blank in *. destruct w as [|c w]; [contradiction|]. cbn [append list_ascii_of_string forallb] in *.
  assert (A : list_ascii_of_string (w ++ x) = (list_ascii_of_string w ++ list_ascii_of_string x)%list)
    by (clear; induction w as [|c w IH]; cbn [append list_ascii_of_string app]; [reflexivity|f_equal; auto]).
  rewrite A, forallb_app, andb_assoc, B. reflexivity.
Qed.

(** A word to read: not made of characters that XML Schema and Python take for
    white space only (a word as C38 has it can consist of no-break spaces). *)
Definition legible_word (w : string) : Prop := PropsToken.word w /\ blank w = false.

Lemma in_twos : forall {A} (l : list A) sub x, In sub (PropsToken.twos l) -> In x sub -> In x l.
Proof.
  intros A. fix IH 1. intros [|a [|b r]] sub x; cbn [PropsToken.twos].
  - intros [].
  - intros [<-|[]] I; exact I.
  - intros [<-|I] J; [destruct J as [<-|[<-|[]]]; [left|right; left]; reflexivity|right; right; exact (IH r sub x I J)].
Qed.

Lemma cut_legible : forall ss subs, Forall (Forall legible_word) ss -> TokenModel.tokenize_english_document ss = Some subs ->
  Forall (fun sub => sub <> [] /\ (List.length sub <= 2)%nat /\ Forall (fun s => blank s = false) sub) subs.
Proof.
  intros ss subs H E. assert (W : Forall (Forall PropsToken.word) ss).
  { eapply Forall_impl; [|exact H]. intros l Hl. eapply Forall_impl; [|exact Hl]. intros w [A _]. exact A. }
  destruct (PropsToken.C38_cut ss W) as (cs & E' & F). destruct (PropsToken.C38_words ss W) as (subs' & E2 & _ & Sz & _).
  rewrite E in E', E2. inversion E'. inversion E2. subst subs'. clear E E' E2 W. subst subs.
  apply Forall_forall. intros sub I. rewrite Forall_forall in Sz. destruct (Sz _ I) as [S1 S2]. split; [auto|]. split; [auto|]. clear Sz S1 S2.
  apply in_concat in I. destruct I as (c & Ic & I).
  assert (X : exists ws, Forall legible_word ws /\ PropsToken.cut_well ws c).
  { clear - F H Ic. induction F as [|ws c' ss cs Hc F IH]; [destruct Ic|]. inversion H; subst. destruct Ic as [->|Ic]; eauto. }
  destruct X as (ws & Lw & ls & A & B & _ & ->). apply Forall_forall. intros s Is. assert (J := in_twos _ _ _ I Is).
  apply in_map_iff in J. destruct J as (ln & <- & J). rewrite Forall_forall in B. destruct (B _ J) as [Nn _].
  destruct ln as [|w r]; [contradiction|]. assert (Lg : legible_word w).
  { rewrite Forall_forall in Lw. apply Lw. rewrite <- A. apply in_concat. exists (w :: r). split; [auto|left; auto]. }
  destruct Lg as [[Nw _] Bw]. destruct r as [|w' r]; [auto|].
  change (PropsToken.unwords (w :: w' :: r)) with (w ++ " " ++ PropsToken.unwords (w' :: r))%string. apply blank_app; auto.
Qed.

Lemma cycled_no_blanks : forall ss subs m, Forall (Forall legible_word) ss -> TokenModel.tokenize_english_document ss = Some subs ->
  no_blanks (Some (cycled subs m)).
Proof.
  intros ss subs m H E. assert (C := cut_legible ss subs H E). cbn. unfold cycled. apply Forall_forall. intros sub I.
  apply in_concat in I. destruct I as (x & Ix & I). apply repeat_spec in Ix. subst x. rewrite Forall_forall in C. apply C; auto.
Qed.

(** Every start makes a document: the [i]th has the next lines of the text, which
    begins again after its end, and the next number. *)
Theorem C56_text : forall ss subs m nows q i now, Forall (Forall legible_word) ss -> TokenModel.tokenize_english_document ss = Some subs ->
  subs <> [] -> Forall (fun now => 0 <= now /\ now + second < h100) nows -> (List.length nows <= m * List.length subs)%nat ->
  nth_error nows i = Some now ->
  exists x lines, nth_error (produce_all (mkPs q (Some (cycled subs m))) nows) i = Some (inr x) /\
    nth_error subs (i mod List.length subs) = Some lines /\ says x (q_last q + 1 + Z.of_nat i) now lines.
Proof.
  intros ss subs m nows q i now H E Ne F L N. assert (C := cut_legible ss subs H E).
  assert (Hi : (i < List.length nows)%nat) by (apply nth_error_Some; congruence).
  destruct (C56_outcomes nows q (Some (cycled subs m)) i now F N) as (o & O & K). unfold outcome_ok in K.
  rewrite nth_cycled in K by (auto; lia).
  assert (Lt : (i mod List.length subs < List.length subs)%nat) by (apply Nat.mod_upper_bound; destruct subs; [contradiction|discriminate]).
  destruct (nth_error subs (i mod List.length subs)) as [lines|] eqn:Nl; [|apply nth_error_None in Nl; lia].
  assert (Nn : lines <> []) by (rewrite Forall_forall in C; apply (C lines); eapply nth_error_In; eauto).
  destruct lines as [|s ls]; [contradiction|]. destruct K as (x & -> & K). eauto 6.
Qed.

(** And its lines can be read on the screen. *)
Theorem C56_text_screen : forall ss subs m q l out len start discard instant zero,
  Forall (Forall legible_word) ss -> TokenModel.tokenize_english_document ss = Some subs ->
  q_tb q = "clock"%string -> clock_of (q_tb q) (q_cm q) <> None -> 0 <= q_last q -> Forall in_time l ->
  let blocks := Some (cycled subs m) in
  subtitles blocks l <> [] -> 0 < len -> 1000 <= start -> start + (Z.of_nat (List.length l) + 1) * len < h100 ->
  0 <= zero -> ms_up zero <= start ->
  let f := feed (mkPs q blocks) l in
  let node := reseq_content (content_in f) out len discard in
  let r := run node (r0 start) (given f) in
  let k := Z.of_nat (List.length (documents (snd r))) in
  exists u dd, snd (node (fst r) CTick) = inr u /\ encode instant zero u = ConvertModel.COk dd /\
    forall t, on_screen (t - ms_up zero) dd =
      if in_window (Some (start + k * len)) (Some (start + (k + 1) * len)) (ms_last t) then to_read (subtitles blocks l) (ms_last t) else [].
Proof. intros. eapply C56_screen; eauto. eapply cycled_no_blanks; eauto. Qed.

(** ** A case *)

Definition talk : list (list string) := [["Good"; "evening."]; ["Here"; "is"; "the"; "news"; "and"; "the"; "weather"; "forecast."]].
Definition talk_lines : list (list string) := [["Good evening."]; ["Here is the news and the weather"; "forecast."]]%string.
Definition q_news : seqstate := new_sequence "news" "clock" (Some "local"%string) None.
Definition ten : Z := 36000000000.
(** Documents made at 10:00:00.2, 10:00:01.1 (late, so it is shown less long) and
    10:00:03.7; segments of two seconds from 10:00:01. *)
Definition news : list pevent :=
  [Cut; Produce (ten + 200000) (ten + 210000); Cut; Produce (ten + 1100000) (ten + 2600500); Cut; Produce (ten + 3700000) (ten + 3700100); Cut].
Example C56_case_meets : Forall (Forall legible_word) talk /\ TokenModel.tokenize_english_document talk = Some talk_lines /\
  q_tb q_news = "clock"%string /\ clock_of (q_tb q_news) (q_cm q_news) <> None /\ 0 <= q_last q_news /\ Forall in_time news /\
  subtitles (Some (cycled talk_lines 2)) news <> [] /\ (3 <= 2 * List.length talk_lines)%nat /\
  ten + 1000000 + (Z.of_nat (List.length news) + 1) * 2000000 < h100 /\ ms_up ten <= ten + 1000000.
Proof.
  split; [|split; [vm_compute; reflexivity|split; [reflexivity|split; [discriminate|split; [cbn; lia|split; [|split; [discriminate|split; [cbn; lia|split]]]]]]]].
  - assert (B : forallb (forallb (fun w => negb (w =? "")%string && forallb (fun c => negb (TokenModel.blank c)) (list_ascii_of_string w) && negb (blank w))) talk = true) by (vm_compute; reflexivity).
    rewrite forallb_forall in B. apply Forall_forall. intros l Hl. specialize (B l Hl).
    rewrite forallb_forall in B. apply Forall_forall. intros w Hw. specialize (B w Hw).
    apply andb_prop in B as [B B3]. apply andb_prop in B as [B1 B2]. split; [split|].
    + apply negb_true_iff, String.eqb_neq in B1. auto.
    + intros c Hc. rewrite forallb_forall in B2. specialize (B2 c Hc). apply negb_true_iff in B2. auto.
    + apply negb_true_iff in B3. auto.
  - repeat constructor; vm_compute; intuition discriminate.
  - unfold ten, h100. cbn [news List.length]. lia.
  - vm_compute. discriminate.
Qed.

(** What is on the screens, from half second to half second after 10:00. *)
Definition fed_news := feed (mkPs q_news (Some (cycled talk_lines 2))) news.
Definition news_screens (u : built) : list (list string) :=
  match encode 7 ten u with
  | ConvertModel.COk dd => map (fun s => on_screen (s * 500000) dd) [2; 3; 4; 5; 6; 7; 8; 9; 10; 11; 12]
  | _ => []
  end.
Example C56_case : map news_screens (documents (snd (run (reseq_content (content_in fed_news) "out" 2000000 true) (r0 (ten + 1000000)) (given fed_news)))) =
  [[[]; ["Good evening."]; ["Good evening."]; []; []; []; []; []; []; []; []];
   [[]; []; []; []; ["Here is the news and the weather"; "forecast."]; []; []; []; []; []; []];
   [[]; []; []; []; []; []; []; []; ["Good evening."]; ["Good evening."]; []]]%string.
Proof. vm_compute. reflexivity. Qed.

(** No lines between others leave a gap in the numbers. *)
Example C56_gap : map (fun o => match o with inr x => inr (t_seq x) | inl e => inl e end)
  (produce_all (mkPs q_news (Some [["a"]; []; ["b"; "c"]]%string)) [0; 1000; 2000; 3000; 4000]) =
  [inr 1; inl PIndexError; inr 3; inl PEndOfData; inl PEndOfData].
Proof. vm_compute. reflexivity. Qed.
(** Without texts, the time is shown. *)
Example C56_time : exists x, produce_all (mkPs q_news None) [ten + 123456] = [inr x] /\ says x 1 (ten + 123456) ["10:00:01.123"%string].
Proof.
  destruct (C56_outcomes [ten + 123456] q_news None 0 (ten + 123456)) as (o & E & x & -> & S); [constructor; [vm_compute; intuition discriminate|constructor]|reflexivity|].
  exists x. split; [|exact S]. destruct (produce_all (mkPs q_news None) [ten + 123456]) as [|o l] eqn:P; [discriminate|].
  assert (L : l = []) by (cbn [produce_all] in P; destruct (produce (mkPs q_news None) (ten + 123456)); inversion P; auto). subst. inversion E. auto.
Qed.

Print Assumptions C56_screen.
Print Assumptions C56_outcomes.
Print Assumptions C56_lost.
Print Assumptions C56_text.
Print Assumptions C56_text_screen.
Print Assumptions C56_case_meets.
