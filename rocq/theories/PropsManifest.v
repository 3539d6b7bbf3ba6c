(** Property C27: the manifest replays what was written, in order. *)

From Coq Require Import List ZArith String Ascii Bool Lia.
From Verif Require Import Digits TimeModel TimeSpec TimeProofs RingModel RingProofs ManifestModel ManifestProofs.
Import ListNotations.
Open Scope Z_scope.
Open Scope string_scope.

(** An entry the reader can take back. *)
Definition readable (p : string * Z) : Prop := clean (fst p) /\ min_td <= snd p < max_td.

Lemma read_lines_entries : forall fs (ws : list (emission * fres)) ls,
  Forall readable ls ->
  (forall name t, In (name, t) ls -> exists d, fs_get fs name = Some d /\ last_written ws name = Some d) ->
  Forall2 (fun p r => entry_result (last_written ws (fst p)) (snd p) r) ls
          (read_lines fs (map (fun p => manifest_line (snd p) (fst p)) ls)).
Proof.
  intros fs ws ls. induction ls as [|[name t] ls IH]; intros Hr Hg; cbn [map read_lines fst snd]; [constructor|].
  inversion Hr as [|? ? [Hc Ht] Hr']; subst. cbn [fst snd] in *.
  destruct (Hg name t (or_introl eq_refl)) as (d & Hd & Hl).
  rewrite (read_entry _ _ _ _ Hc Ht Hd). cbv zeta. rewrite entry_fine. constructor.
  - cbn [fst snd]. exists d. auto.
  - apply IH; auto. intros n u Hi. apply (Hg n u). right. auto.
Qed.

(** ** Replay

    Documents and messages written one after the other into a folder that has
    no manifest yet: the reader meets the listed files in the order they were
    written, with the times cut to milliseconds, and delivers the newest content
    written under each name; it raises nothing. *)
Theorem C27_replay : forall c fs0 es s res m, apart c ->
  fruns c (f_init fs0) (map FEmit es) = (s, res) ->
  f_manifest s = Some m -> fs_get fs0 m = None ->
  Forall readable (listed res) ->
  exists out, read_manifest (f_files s) m = Some out /\
    Forall2 (fun p r => entry_result (last_written (combine es res) (fst p)) (snd p) r) (listed res) out.
Proof.
  intros c fs0 es s res m Ha Hrun Hm H0 Hr.
  assert (Hi := finv_emits _ _ _ _ [] _ _ Ha (finv_init fs0) Hrun). cbn [app] in Hi.
  assert (Hl := emits_length _ _ _ _ _ Hrun).
  assert (Es : map snd (combine es res) = res) by (apply map_snd_combine; auto).
  assert (Hi' := Hi). destruct Hi as (_ & H2 & H3 & _). rewrite Es in H3.
  destruct (H2 _ Hm) as [sid Em]. specialize (H3 sid). rewrite Hm, Em, String.eqb_refl in H3.
  rewrite <- Em, H0 in H3. cbn [opt_text append] in H3.
  unfold read_manifest. rewrite H3. eexists; split; [reflexivity|].
  rewrite lines_text_of.
  - apply read_lines_entries; auto. intros name t Hin.
    rewrite <- Es in Hin. destruct (listed_written _ _ _ Hin) as [d Hd]. exists d. split; auto.
    eapply finv_file; eauto.
  - eapply Forall_impl; [|exact Hr]. intros p ((_ & _ & _ & Hnl) & _). auto.
Qed.

(** The default patterns keep documents, messages and manifests apart, except
    that a sequence identifier ending in _msg collides with the messages of
    another sequence. *)
Theorem C27_names : forall a n b m,
  (doc_name a n = doc_name b m <-> a = b /\ n = m) /\
  (msg_name a n = msg_name b m <-> a = b /\ n = m) /\
  (doc_name a n = msg_name b m <-> a = b ++ "_msg" /\ n = m) /\
  doc_name a n <> manifest_name b /\ msg_name a n <> manifest_name b.
Proof.
  intros a n b m.
  split; [split; [apply doc_name_inj|intros [-> ->]; auto]|].
  split; [split; [apply msg_name_inj|intros [-> ->]; auto]|].
  split; [apply doc_msg_clash|]. apply (default_apart a n b).
Qed.

(** Default names are clean when the identifier has no comma and no line end. *)
Theorem C27_clean : forall sid n, has "," sid = false -> has newline sid = false ->
  clean (doc_name sid n) /\ clean (msg_name sid n).
Proof.
  assert (Hx : forall a, rstrip (a ++ ".xml") = a ++ ".xml").
  { intros. rewrite rstrip_app; [reflexivity|discriminate]. }
  assert (Hs : forall c n, c = ","%char \/ c = newline -> has c (show n) = false).
  { intros c n [->| ->]; apply has_show; try reflexivity; discriminate. }
  intros sid n H1 H2. unfold clean. rewrite doc_name_shape, msg_name_shape, !Hx.
  split; (split; [|split; [auto|split]]).
  - intro E. apply (f_equal String.length) in E. rewrite !length_app_s in E. cbn in E. lia.
  - rewrite !has_app, !has_cons, H1, Hs by auto. reflexivity.
  - rewrite !has_app, !has_cons, H2, Hs by auto. reflexivity.
  - intro E. apply (f_equal String.length) in E. rewrite !length_app_s in E. cbn in E. lia.
  - rewrite !has_app, !has_cons, H1, Hs by auto. reflexivity.
  - rewrite !has_app, !has_cons, H2, Hs by auto. reflexivity.
Qed.

(** A comma in the sequence identifier: the reader raises ValueError at that
    line, whatever comes after it is not read. *)
Lemma read_lines_comma : forall fs ls name t rest,
  (forall n u, In (n, u) ls -> readable (n, u) /\ exists d, fs_get fs n = Some d) ->
  has "," name = true ->
  exists out, read_lines fs (map (fun p => manifest_line (snd p) (fst p)) (ls ++ (name, t) :: rest)%list)
    = (out ++ [RValueError])%list /\ List.length out = List.length ls /\ forallb (fun r => negb (r_fails r)) out = true.
Proof.
  intros fs ls. induction ls as [|[n u] ls IH]; intros name t rest Hg Hc; cbn [map app read_lines fst snd].
  - exists []. unfold read_line. rewrite line_parts_comma by auto. auto.
  - destruct (Hg n u (or_introl eq_refl)) as [[Hcl Hu] [d Hd]]. cbn [fst snd] in *.
    rewrite (read_entry _ _ _ _ Hcl Hu Hd). cbv zeta. rewrite entry_fine.
    destruct (IH name t rest) as (out & E & L & F); auto.
    { intros; apply Hg; right; auto. }
    rewrite E. eexists (_ :: out). split; [reflexivity|]. cbn [List.length forallb].
    rewrite L, F, entry_fine. auto.
Qed.

Theorem C27_comma : forall c fs0 es s res m before name t after, apart c ->
  fruns c (f_init fs0) (map FEmit es) = (s, res) ->
  f_manifest s = Some m -> fs_get fs0 m = None ->
  listed res = (before ++ (name, t) :: after)%list ->
  Forall readable before -> has "," name = true ->
  Forall (fun p => has newline (fst p) = false) (listed res) ->
  exists out, read_manifest (f_files s) m = Some (out ++ [RValueError])%list /\
    List.length out = List.length before /\ forallb (fun r => negb (r_fails r)) out = true.
Proof.
  intros c fs0 es s res m before name t after Ha Hrun Hm H0 El Hr Hc Hnl.
  assert (Hi := finv_emits _ _ _ _ [] _ _ Ha (finv_init fs0) Hrun). cbn [app] in Hi.
  assert (Hl := emits_length _ _ _ _ _ Hrun).
  assert (Es : map snd (combine es res) = res) by (apply map_snd_combine; auto).
  assert (Hi' := Hi). destruct Hi as (_ & H2 & H3 & _). rewrite Es in H3.
  destruct (H2 _ Hm) as [sid Em]. specialize (H3 sid). rewrite Hm, Em, String.eqb_refl in H3.
  rewrite <- Em, H0 in H3. cbn [opt_text append] in H3.
  unfold read_manifest. rewrite H3, lines_text_of by auto. rewrite El.
  destruct (read_lines_comma (f_files s) before name t after) as (out & E & L & F); auto.
  - intros n u Hin. split; [rewrite Forall_forall in Hr; apply Hr; auto|].
    assert (Hin' : In (n, u) (listed (map snd (combine es res)))).
    { rewrite Es, El. apply in_or_app. auto. }
    destruct (listed_written _ _ _ Hin') as [d Hd]. exists d.
    eapply finv_file; eauto.
  - exists out. rewrite E. auto.
Qed.

(** One manifest: the file is chosen at the first listed call and holds the
    lines of every sequence, after whatever it held before. *)
Theorem C27_one_manifest : forall c fs0 es s res m, apart c ->
  fruns c (f_init fs0) (map FEmit es) = (s, res) -> f_manifest s = Some m ->
  fs_get (f_files s) m = Some (opt_text (fs_get fs0 m) ++ text_of (listed res)) /\
  forall sid, manifest_name sid <> m -> fs_get (f_files s) (manifest_name sid) = fs_get fs0 (manifest_name sid).
Proof.
  intros c fs0 es s res m Ha Hrun Hm.
  assert (Hi := finv_emits _ _ _ _ [] _ _ Ha (finv_init fs0) Hrun). cbn [app] in Hi.
  assert (Hl := emits_length _ _ _ _ _ Hrun).
  assert (Es : map snd (combine es res) = res) by (apply map_snd_combine; auto).
  destruct Hi as (_ & H2 & H3 & _ & _). rewrite Es in H3. split.
  - destruct (H2 _ Hm) as [sid Em]. specialize (H3 sid). rewrite Hm, Em, String.eqb_refl in H3.
    rewrite <- Em in H3. auto.
  - intros sid Hn. rewrite H3, Hm. destruct (String.eqb_spec m (manifest_name sid)); congruence.
Qed.

(** Every file holds the newest text written under its name. *)
Theorem C27_files : forall c fs0 es s res f d, apart c ->
  fruns c (f_init fs0) (map FEmit es) = (s, res) ->
  last_written (combine es res) f = Some d ->
  fs_get (f_files s) f = Some d.
Proof.
  intros c fs0 es s res f d Ha Hrun Hd.
  assert (Hi := finv_emits _ _ _ _ [] _ _ Ha (finv_init fs0) Hrun). cbn [app] in Hi.
  eapply finv_file; eauto.
Qed.

(** Which calls are listed, and under which time: the given availability time,
    or the reading of the default clock, plus the delay; a call without either
    is written but not listed. *)
Theorem C27_listed : forall c s e, c_quiet c = false -> ascii_text (e_data e) = true ->
  let name := snd (file_name c s e) in
  let known := existsb (String.eqb (e_sid e)) (f_clocks s) in
  snd (emit c s e) =
    match (match e_avail e with
           | Some t => Some t
           | None => if (known || e_clock e)%bool then Some (e_now e) else None
           end) with
    | None => FUnlisted name
    | Some a => match e_delay e with
                | None => FLine name a
                | Some d => if (min_td <=? a + d)%Z && (a + d <? max_td)%Z
                            then FLine name (a + d) else FOverflow name
                end
    end.
Proof.
  intros c s e Hq Ha name known. unfold emit. subst name known.
  destruct (file_name c s e) as [msgs nm]. rewrite Ha. cbn [negb snd].
  destruct (ring_add c s nm) as [ring called]. rewrite Hq. unfold availability.
  destruct (e_avail e) as [a|]; [|destruct (existsb _ _); [|destruct (e_clock e)]; cbn [orb]; [| |reflexivity]];
    destruct (e_delay e) as [d|]; try reflexivity;
    unfold mk_td; destruct ((min_td <=? _)%Z && (_ <? max_td)%Z); reflexivity.
Qed.

(** A default clock, once used for a sequence, serves all its later calls. *)
Theorem C27_clock_kept : forall c s v sid, In sid (f_clocks s) -> In sid (f_clocks (fst (fstep c s v))).
Proof.
  intros c s [e|f] sid H; cbn [fstep].
  - unfold emit. destruct (file_name c s e) as [msgs nm].
    destruct (negb (ascii_text (e_data e))); [auto|]. destruct (ring_add c s nm) as [ring called].
    destruct (c_quiet c); [auto|].
    assert (Hc : In sid (snd (availability s e))).
    { unfold availability. destruct (e_avail e); auto. destruct (existsb _ _); auto.
      destruct (e_clock e); cbn; auto. }
    destruct (availability s e) as [[a|] cl]; cbn [snd] in Hc; [|auto].
    destruct (match e_delay e with None => Some a | Some d => mk_td (a + d) end); auto.
  - destruct (existsb _ _); auto.
Qed.

Theorem C27_clock_remembered : forall c s e, c_quiet c = false -> ascii_text (e_data e) = true ->
  e_avail e = None -> e_clock e = true -> In (e_sid e) (f_clocks (fst (emit c s e))).
Proof.
  intros c s e Hq Ha Hn Hc. unfold emit. destruct (file_name c s e) as [msgs nm].
  rewrite Ha, Hq. cbn [negb]. destruct (ring_add c s nm) as [ring called].
  assert (H : In (e_sid e) (snd (availability s e))).
  { unfold availability. rewrite Hn, Hc. destruct (existsb (String.eqb (e_sid e)) (f_clocks s)) eqn:E.
    - apply existsb_exists in E as (x & Hx & E). apply String.eqb_eq in E. subst. auto.
    - left. auto. }
  destruct (availability s e) as [[a|] cl]; [|auto].
  destruct (match e_delay e with None => Some a | Some d => mk_td (a + d) end); auto.
Qed.

(** Documents are named by their number, messages by their count. *)
Theorem C27_numbering : forall c fs0 es s res i e r,
  fruns c (f_init fs0) (map FEmit es) = (s, res) ->
  nth_error es i = Some e -> nth_error res i = Some r ->
  res_name r = match e_num e with
               | Some k => c_doc c (e_sid e) k
               | None => c_msg c (e_sid e)
                   (1 + Z.of_nat (List.length (filter (fun x => match e_num x with None => true | _ => false end)
                                                      (firstn i es))))
               end.
Proof.
  intros c fs0 es s res i e r H.
  assert (G : forall es s0 s res i, fruns c s0 (map FEmit es) = (s, res) ->
    nth_error es i = Some e -> nth_error res i = Some r ->
    res_name r = match e_num e with
               | Some k => c_doc c (e_sid e) k
               | None => c_msg c (e_sid e)
                   (f_msgs s0 + 1 + Z.of_nat (List.length (filter (fun x => match e_num x with None => true | _ => false end)
                                                      (firstn i es))))
               end).
  { clear es s res i H. induction es as [|x es IH]; intros s0 s res i H He Hr; [destruct i; discriminate|].
    cbn [map fruns fstep] in H. destruct (emit c s0 x) as [s1 y] eqn:Ee.
    destruct (fruns c s1 (map FEmit es)) as [s2 o2] eqn:E2. inversion H; subst; clear H.
    assert (K : res_name y = snd (file_name c s0 x) /\ f_msgs s1 = fst (file_name c s0 x)).
    { unfold emit in Ee. destruct (file_name c s0 x) as [msgs nm]. cbn [fst snd].
      destruct (negb (ascii_text (e_data x))); [inversion Ee; auto|].
      destruct (ring_add c s0 nm). destruct (c_quiet c); [inversion Ee; auto|].
      destruct (availability s0 x) as [[a|] cl]; [|inversion Ee; auto].
      destruct (match e_delay x with None => Some a | Some d => mk_td (a + d) end); inversion Ee; auto. }
    destruct K as [K1 K2]. destruct i as [|i]; cbn [nth_error app] in He, Hr.
    - inversion He; inversion Hr; subst. rewrite K1. unfold file_name. destruct (e_num e); cbn [snd firstn filter]; auto.
      f_equal. cbn. lia.
    - rewrite (IH _ _ _ _ E2 He Hr), K2. unfold file_name. cbn [firstn filter].
      destruct (e_num e); auto. destruct (e_num x); cbn [fst List.length]; auto. f_equal. lia. }
  intros He Hr. rewrite (G es (f_init fs0) s res i H He Hr). destruct (e_num e); auto.
Qed.

(** ** Following the manifest while it is written *)

Fixpoint emissions (l : list tev) : list emission :=
  match l with
  | [] => []
  | TWrite (FEmit e) :: r => e :: emissions r
  | _ :: r => emissions r
  end.

Definition no_delete (v : tev) : Prop := match v with TWrite (FDelete _) => False | _ => True end.

(** What a listed call should give its reader. *)
Definition expected (ws : list (emission * fres)) : list rres :=
  flat_map (fun p => match snd p with
                     | FLine _ t => [if (e_data (fst p) =? "")%string then REmpty
                                     else RDeliver (trunc_ms t) (e_data (fst p))]
                     | _ => []
                     end) ws.

Lemma expected_listed : forall ws k name t, NoDup (map (fun p => res_name (snd p)) ws) ->
  nth_error (listed (map snd ws)) k = Some (name, t) ->
  exists d, last_written ws name = Some d /\
    nth_error (expected ws) k = Some (if (d =? "")%string then REmpty else RDeliver (trunc_ms t) d).
Proof.
  induction ws as [|[e r] ws IH]; intros k name t Hn Hk; [destruct k; discriminate|].
  cbn [map snd] in *. inversion Hn as [|? ? Hni Hn']; subst.
  assert (Hnot : forall n d, last_written ws n = Some d -> In n (map (fun p => res_name (snd p)) ws)).
  { clear. induction ws as [|q ws IH]; intros n d H; cbn in *; [discriminate|].
    destruct (last_written ws n) eqn:E; eauto. destruct (String.eqb_spec n (res_name (snd q))); auto. discriminate. }
  change (listed (r :: map snd ws)) with
    ((match r with FLine n t => [(n, t)] | _ => [] end) ++ listed (map snd ws))%list in Hk.
  change (expected ((e, r) :: ws)) with
    ((match r with FLine _ t => [if (e_data e =? "")%string then REmpty else RDeliver (trunc_ms t) (e_data e)]
      | _ => [] end) ++ expected ws)%list.
  assert (Hlater : forall j, nth_error (listed (map snd ws)) j = Some (name, t) ->
    exists d, last_written ((e, r) :: ws) name = Some d /\
      nth_error (expected ws) j = Some (if (d =? "")%string then REmpty else RDeliver (trunc_ms t) d)).
  { intros j Hj. destruct (IH _ _ _ Hn' Hj) as (d & E & X). exists d. cbn [last_written]. rewrite E. auto. }
  destruct r; cbn [app] in *; auto.
  destruct k as [|k]; cbn [nth_error] in *; auto.
  inversion Hk; subst. cbn [last_written snd res_name wrote fst].
  destruct (last_written ws name) eqn:E; [exfalso; apply Hni; eauto|].
  rewrite String.eqb_refl. exists (e_data e). auto.
Qed.

Definition tinv (m : string) (fs0 : folder) (s : tstate) (ws : list (emission * fres)) (rr : list rres) : Prop :=
  finv fs0 (t_fs s) ws /\ t_dead s = false /\ rr = firstn (t_pos s) (expected ws) /\
  (t_pos s <= List.length (expected ws))%nat.

Lemma expected_app : forall a b, expected (a ++ b)%list = (expected a ++ expected b)%list.
Proof. intros. unfold expected. apply flat_map_app. Qed.

Lemma combine_snoc_emit : forall (ws : list (emission * fres)) e r w,
  ((ws ++ [(e, r)]) ++ w)%list = (ws ++ (e, r) :: w)%list.
Proof. intros. rewrite <- app_assoc. auto. Qed.

Lemma NoDup_app_left : forall A (a b : list A), NoDup (a ++ b)%list -> NoDup a.
Proof.
  induction a as [|x a IH]; intros b H; [constructor|]. inversion H; subst. constructor; eauto.
  intro. apply H2. apply in_or_app. auto.
Qed.

Lemma nth_firstn_snoc : forall A (l : list A) k x, nth_error l k = Some x ->
  firstn (S k) l = (firstn k l ++ [x])%list.
Proof.
  induction l as [|a l IH]; intros [|k] x H; cbn in *; try discriminate.
  - inversion H; auto.
  - f_equal. apply IH. auto.
Qed.

Lemma tail_gen : forall c m sid fs0, apart c -> m = manifest_name sid -> fs_get fs0 m = None ->
  forall l s ws rr s' w r,
  Forall no_delete l -> tinv m fs0 s ws rr ->
  truns c m s l = (s', (w, r)) ->
  NoDup (map (fun p => res_name (snd p)) (ws ++ combine (emissions l) w)%list) ->
  Forall readable (listed (map snd (ws ++ combine (emissions l) w)%list)) ->
  tinv m fs0 s' (ws ++ combine (emissions l) w)%list (rr ++ r)%list.
Proof.
  intros c m sid fs0 Ha Em H0. induction l as [|v l IH]; intros s ws rr s' w r Hd Ht Hrun Hn Hr.
  - cbn in Hrun. inversion Hrun; subst. cbn. rewrite !app_nil_r. auto.
  - inversion Hd as [|? ? Hv Hd']; subst x l0.
    cbn [truns] in Hrun. destruct (tstep c m s v) as [s1 [w1 r1]] eqn:E1.
    destruct (truns c m s1 l) as [s2 [w2 r2]] eqn:E2. inversion Hrun; subst s2 w r; clear Hrun.
    destruct v as [[e|f]|]; [|destruct Hv|].
    + cbn [tstep fstep] in E1. destruct (emit c (t_fs s) e) as [fs1 x] eqn:Ee.
      inversion E1; subst s1 w1 r1; clear E1. cbn [emissions app combine] in *.
      rewrite <- combine_snoc_emit in *.
      eapply IH; eauto. destruct Ht as (T1 & T2 & T3 & T4).
      split; [eapply finv_emit; eauto|]. cbn [t_fs t_dead t_pos]. split; auto.
      rewrite expected_app, app_length. split; [|lia].
      rewrite firstn_app, T3. replace (t_pos s - List.length (expected ws))%nat with O by lia.
      cbn. rewrite app_nil_r. auto.
    + cbn [emissions] in *. destruct Ht as (T1 & T2 & T3 & T4).
      assert (Hns : NoDup (map (fun p => res_name (snd p)) ws)).
      { rewrite map_app in Hn. eapply NoDup_app_left; eauto. }
      assert (Hrs : Forall readable (listed (map snd ws))).
      { rewrite map_app in Hr. unfold listed in *. rewrite flat_map_app in Hr.
        apply Forall_app in Hr. tauto. }
      assert (Stay : s1 = s -> w1 = [] -> r1 = [] ->
        tinv m fs0 s' (ws ++ combine (emissions l) (w1 ++ w2))%list (rr ++ (r1 ++ r2))%list).
      { intros -> -> ->. cbn [app] in *. eapply IH; eauto. split; [auto|]. split; auto. }
      cbn [tstep] in E1. rewrite T2 in E1.
      assert (F := T1). destruct T1 as (F1 & F2 & F3 & F4). assert (F3m := F3 sid). rewrite <- Em in F3m.
      destruct (fs_get (f_files (t_fs s)) m) as [text|] eqn:Eg; [|inversion E1; subst; apply Stay; auto].
      destruct (nth_error (lines text) (t_pos s)) as [line|] eqn:El; [|inversion E1; subst; apply Stay; auto].
      assert (Etext : text = text_of (listed (map snd ws))).
      { destruct (f_manifest (t_fs s)) as [m'|].
        - destruct (String.eqb_spec m' m) as [->|]; [|congruence]. rewrite H0 in F3m. inversion F3m. auto.
        - congruence. }
      subst text. rewrite lines_text_of in El
        by (eapply Forall_impl; [|exact Hrs]; intros p ((_ & _ & _ & Hnl) & _); auto).
      rewrite nth_error_map in El.
      destruct (nth_error (listed (map snd ws)) (t_pos s)) as [[name t]|] eqn:En; [|discriminate].
      cbn [option_map fst snd] in El. inversion El; subst line; clear El.
      destruct (expected_listed _ _ _ _ Hns En) as (d & Hw & Hx).
      assert (Hrd : readable (name, t)).
      { rewrite Forall_forall in Hrs. apply Hrs. eapply nth_error_In; eauto. }
      destruct Hrd as [Hc Htm]. cbn [fst snd] in *.
      assert (Hfile : fs_get (f_files (t_fs s)) name = Some d).
      { eapply finv_file; eauto. }
      cbv zeta in E1. rewrite (read_entry _ _ _ _ Hc Htm Hfile), entry_fine in E1.
      inversion E1; subst s1 w1 r1; clear E1. cbn [app] in *.
      replace (rr ++ (if (d =? "")%string then REmpty else RDeliver (trunc_ms t) d) :: r2)%list
        with ((rr ++ [if (d =? "")%string then REmpty else RDeliver (trunc_ms t) d]) ++ r2)%list
        by (rewrite <- app_assoc; auto).
      eapply IH; eauto. split; [auto|]. cbn [t_dead t_pos]. split; [auto|]. split.
      * rewrite T3. symmetry. apply nth_firstn_snoc. auto.
      * assert (t_pos s < List.length (expected ws))%nat; [|lia]. apply nth_error_Some. congruence.
Qed.

(** For any interleaving of calls and reads, when no name is used twice: the
    reader raises nothing and has received a prefix of the listed calls, in
    order, each with its own content. *)
Theorem C27_tail : forall c sid fs0 l s w r, apart c -> fs_get fs0 (manifest_name sid) = None ->
  Forall no_delete l ->
  truns c (manifest_name sid) (mkTstate (f_init fs0) 0 false) l = (s, (w, r)) ->
  NoDup (map res_name w) -> Forall readable (listed w) ->
  t_dead s = false /\ r = firstn (t_pos s) (expected (combine (emissions l) w)).
Proof.
  intros c sid fs0 l s w r Ha H0 Hd Hrun Hn Hr.
  assert (Hlen : forall l s0 s1 w r, Forall no_delete l ->
    truns c (manifest_name sid) s0 l = (s1, (w, r)) -> List.length (emissions l) = List.length w).
  { clear. induction l as [|v l IH]; intros s0 s1 w r Hd H; cbn [truns] in H.
    - inversion H; auto.
    - destruct (tstep c (manifest_name sid) s0 v) as [s2 [w1 r1]] eqn:E1.
      destruct (truns c (manifest_name sid) s2 l) as [s3 [w2 r2]] eqn:E2.
      inversion H; subst; clear H. inversion Hd; subst. rewrite app_length, <- (IH _ _ _ _ H2 E2).
      destruct v as [[e|f]|]; [|destruct H1|]; cbn [tstep fstep] in E1.
      + destruct (emit c (t_fs s0) e). inversion E1; subst. reflexivity.
      + destruct (t_dead s0); [inversion E1; auto|].
        destruct (fs_get _ _); [|inversion E1; auto]. destruct (nth_error _ _); inversion E1; auto. }
  specialize (Hlen _ _ _ _ _ Hd Hrun).
  assert (Es : map snd (combine (emissions l) w) = w) by (apply map_snd_combine; auto).
  destruct (tail_gen c (manifest_name sid) sid fs0 Ha eq_refl H0 l (mkTstate (f_init fs0) 0 false) [] [] s w r) as (_ & T2 & T3 & _); auto.
  - split; [apply finv_init|]. cbn. auto.
  - cbn [app]. rewrite <- map_map, Es. auto.
  - cbn [app]. rewrite Es. auto.
Qed.

(** ** Where replay fails *)

(** Text that is not ASCII raises before anything is listed and leaves an
    empty file (Python 2: unicode text, file opened with 'w'). *)
Theorem C27_unicode : forall c s e, ascii_text (e_data e) = false ->
  let name := snd (file_name c s e) in
  snd (emit c s e) = FUnicodeError name /\
  fs_get (f_files (fst (emit c s e))) name = Some "" /\
  f_manifest (fst (emit c s e)) = f_manifest s /\
  forall f, f <> name -> fs_get (f_files (fst (emit c s e))) f = fs_get (f_files s) f.
Proof.
  intros c s e H name. unfold emit. subst name. destruct (file_name c s e) as [msgs nm].
  rewrite H. cbn [negb fst snd f_files f_manifest]. split; [auto|]. split.
  - rewrite fs_get_put, String.eqb_refl. auto.
  - split; auto. intros f Hf. rewrite fs_get_put. destruct (String.eqb_spec f nm); congruence.
Qed.

(** With the rotating buffer: the names it handed over and the names it holds
    are the written names in order, and it holds the newest. *)
Lemma ring_add_inv : forall c s name ring called, (0 < c_ring c)%nat ->
  (List.length (f_ring s) <= c_ring c)%nat -> ring_add c s name = (ring, called) ->
  (called ++ ring = f_ring s ++ [name])%list /\ List.length ring = Nat.min (c_ring c) (S (List.length (f_ring s))).
Proof.
  intros c s name ring called Hn Hl H. unfold ring_add in H.
  apply Nat.ltb_lt in Hn as Hb. rewrite Hb in H. unfold ring_append in H. cbn [r_max r_items r_callback] in H.
  destruct (Nat.leb_spec (c_ring c) (List.length (f_ring s))) as [E|E].
  - cbn [andb] in H. destruct (f_ring s) as [|y rest] eqn:Er; [cbn in E; lia|].
    cbn [r_items] in H. cbn [List.length] in *.
    rewrite newest_short in H by (rewrite app_length; cbn; lia).
    inversion H; subst. split; [reflexivity|]. rewrite app_length. cbn [List.length]. lia.
  - cbn [andb r_items] in H. rewrite newest_short in H by (rewrite app_length; cbn; lia).
    inversion H; subst. split; [reflexivity|]. rewrite app_length. cbn [List.length]. lia.
Qed.

Definition stored (rs : list fres) : list string :=
  flat_map (fun r => match r with FUnicodeError _ => [] | _ => [res_name r] end) rs.

Theorem C27_rotation : forall c fs0 es s res, (0 < c_ring c)%nat ->
  fruns c (f_init fs0) (map FEmit es) = (s, res) ->
  (f_evicted s ++ f_ring s)%list = stored res /\
  List.length (f_ring s) = Nat.min (c_ring c) (List.length (stored res)).
Proof.
  intros c fs0 es s res Hn.
  assert (G : forall es s0 s res, (List.length (f_ring s0) <= c_ring c)%nat ->
    fruns c s0 (map FEmit es) = (s, res) ->
    (f_evicted s ++ f_ring s)%list = ((f_evicted s0 ++ f_ring s0) ++ stored res)%list /\
    List.length (f_ring s) = Nat.min (c_ring c) (List.length (f_ring s0) + List.length (stored res))).
  { clear es s res. induction es as [|e es IH]; intros s0 s res Hl H; cbn [map fruns fstep] in H.
    - inversion H; subst. cbn. rewrite app_nil_r. split; auto. lia.
    - destruct (emit c s0 e) as [s1 r] eqn:Ee. destruct (fruns c s1 (map FEmit es)) as [s2 o2] eqn:E2.
      inversion H; subst; clear H. cbn [app].
      assert (St : stored (r :: o2) = ((match r with FUnicodeError _ => [] | _ => [res_name r] end) ++ stored o2)%list)
        by reflexivity.
      unfold emit in Ee. destruct (file_name c s0 e) as [msgs nm].
      destruct (negb (ascii_text (e_data e))).
      { inversion Ee; subst. cbn [app] in St. rewrite St. apply IH in E2; auto. }
      destruct (ring_add c s0 nm) as [ring called] eqn:Er.
      destruct (ring_add_inv _ _ _ _ _ Hn Hl Er) as [R1 R2].
      assert (K : f_ring s1 = ring /\ f_evicted s1 = (f_evicted s0 ++ called)%list /\
        (match r with FUnicodeError _ => [] | _ => [res_name r] end) = [nm]).
      { destruct (c_quiet c); [inversion Ee; subst; auto|].
        destruct (availability s0 e) as [[a|] cl]; [|inversion Ee; subst; auto].
        destruct (match e_delay e with None => Some a | Some d => mk_td (a + d) end);
          inversion Ee; subst; auto. }
      destruct K as (K1 & K2 & K3). rewrite K3 in St. rewrite St.
      destruct (IH _ _ _ ltac:(rewrite K1, R2; lia) E2) as [I1 I2]. rewrite I1, I2, K1, K2, R2. split.
      + rewrite <- !app_assoc. f_equal. rewrite app_assoc, R1, <- app_assoc. reflexivity.
      + cbn [app List.length]. lia. }
  intros H. destruct (G es (f_init fs0) s res) as [G1 G2]; auto; cbn; lia.
Qed.

(** Once a listed file was rotated out and deleted, the reader fails on it: a
    folder with a rotating buffer cannot be replayed from its beginning. *)
Theorem C27_rotated : forall c fs0 es s res m name t rest, apart c ->
  fruns c (f_init fs0) (map FEmit es) = (s, res) ->
  f_manifest s = Some m -> fs_get fs0 m = None ->
  listed res = (name, t) :: rest -> Forall readable (listed res) ->
  In name (f_evicted s) ->
  read_manifest (f_files (fst (fstep c s (FDelete name)))) m = Some [RIOError].
Proof.
  intros c fs0 es s res m name t rest Ha Hrun Hm H0 El Hr He.
  destruct (C27_one_manifest _ _ _ _ _ _ Ha Hrun Hm) as [Ht _].
  rewrite H0 in Ht. cbn [opt_text append] in Ht.
  assert (Hi := finv_emits _ _ _ _ [] _ _ Ha (finv_init fs0) Hrun). cbn [app] in Hi.
  assert (Hl := emits_length _ _ _ _ _ Hrun).
  assert (Es : map snd (combine es res) = res) by (apply map_snd_combine; auto).
  assert (Hnm : name <> m).
  { destruct Hi as (_ & H2 & _ & _ & H5). destruct (H2 _ Hm) as [sid ->].
    assert (Hin : In (name, t) (listed (map snd (combine es res)))) by (rewrite Es, El; left; auto).
    destruct (listed_written _ _ _ Hin) as [d Hd].
    destruct (last_written_in _ _ _ Hd) as (p & Hp & <-). rewrite Forall_forall in H5. apply (H5 _ Hp). }
  cbn [fstep fst].
  assert (Hx : existsb (String.eqb name) (f_evicted s) = true).
  { apply existsb_exists. exists name. split; auto. apply String.eqb_refl. }
  rewrite Hx. cbn [f_files]. unfold read_manifest. rewrite fs_get_del.
  destruct (String.eqb_spec name m); [congruence|]. rewrite Ht, lines_text_of
    by (eapply Forall_impl; [|exact Hr]; intros p ((_ & _ & _ & Hnl) & _); auto).
  rewrite El in *. inversion Hr as [|? ? [Hc Hu] _]; subst. cbn [map fst snd read_lines] in *.
  assert (Ex : read_line (fs_del (f_files s) name) (manifest_line t name) = RIOError).
  { unfold read_line. rewrite line_parts_clean by auto. rewrite fs_get_del, String.eqb_refl. reflexivity. }
  rewrite Ex. reflexivity.
Qed.

(** Nothing else is deleted. *)
Theorem C27_only_rotated : forall c s f g, (In f (f_evicted s) -> g <> f) ->
  fs_get (f_files (fst (fstep c s (FDelete f)))) g = fs_get (f_files s) g.
Proof.
  intros c s f g H. cbn [fstep fst]. destruct (existsb (String.eqb f) (f_evicted s)) eqn:E; auto.
  apply existsb_exists in E as (x & Hx & E). apply String.eqb_eq in E. subst x.
  cbn [f_files]. rewrite fs_get_del. destruct (String.eqb_spec f g); auto. exfalso. apply H; auto.
Qed.

(** Concrete cases. *)

Definition call (d sid : string) (n : option Z) (t : option Z) : emission := mkEmission d sid n t None false 0.

(** Two documents and a message between them. *)
Definition case_calls : list emission :=
  [call "<a/>" "S" (Some 1) (Some 1000999);
   call "<m/>" "S" None (Some 2000000);
   call "<b/>" "S" (Some 2) (Some (-1))].

Definition case_result := fruns default_cfg (f_init []) (map FEmit case_calls).

Example C27_case :
  listed (snd case_result) = [("S_1.xml", 1000999); ("S_msg_1.xml", 2000000); ("S_2.xml", -1)] /\
  f_manifest (fst case_result) = Some "manifest_S.txt" /\
  read_manifest (f_files (fst case_result)) "manifest_S.txt" =
    Some [RDeliver 1000000 "<a/>"; RDeliver 2000000 "<m/>"; RDeliver (-1000) "<b/>"].
Proof. split; [|split]; vm_compute; reflexivity. Qed.

Example C27_case_readable : Forall readable (listed (snd case_result)).
Proof.
  assert (E : listed (snd case_result) = [(doc_name "S" 1, 1000999); (msg_name "S" 1, 2000000); (doc_name "S" 2, -1)])
    by (vm_compute; reflexivity).
  rewrite E. assert (C := fun n => C27_clean "S" n eq_refl eq_refl).
  repeat (constructor; [split; [apply C|split; [intro; discriminate|reflexivity]]|]). constructor.
Qed.

(** A comma in the identifier. *)
Example C27_comma_case :
  let '(s, res) := fruns default_cfg (f_init [])
     (map FEmit [call "<a/>" "S" (Some 1) (Some 0); call "<b/>" "A,B" (Some 1) (Some 0)]) in
  listed res = ([("S_1.xml", 0)] ++ ("A,B_1.xml", 0) :: [])%list /\ has "," "A,B_1.xml" = true /\
  read_manifest (f_files s) "manifest_S.txt" = Some ([RDeliver 0 "<a/>"] ++ [RValueError])%list.
Proof. vm_compute. auto. Qed.

(** A document of sequence A_msg takes the file of the first message of A: both
    lines then lead to the same content. *)
Theorem C27_clash : exists es s res,
  fruns default_cfg (f_init []) (map FEmit es) = (s, res) /\
  read_manifest (f_files s) "manifest_A.txt" = Some [RDeliver 0 "<doc/>"; RDeliver 5000000 "<doc/>"] /\
  map e_data es = ["<message/>"; "<doc/>"].
Proof.
  exists [call "<message/>" "A" None (Some 0); call "<doc/>" "A_msg" (Some 1) (Some 5000000)].
  eexists _, _. split; [vm_compute; reflexivity|]. split; reflexivity.
Qed.

(** A producer started again on the same folder counts messages from one: it
    replaces the first message of the earlier run, whose line stays.  (The class
    comment, 52-54, promises to continue from the last line.) *)
Theorem C27_restart : exists e1 e2,
  let s1 := fst (emit default_cfg (f_init []) e1) in
  let s2 := fst (emit default_cfg (f_init (f_files s1)) e2) in
  e_data e1 <> e_data e2 /\
  read_manifest (f_files s1) "manifest_A.txt" = Some [RDeliver 0 (e_data e1)] /\
  read_manifest (f_files s2) "manifest_A.txt" = Some [RDeliver 0 (e_data e2); RDeliver 5000000 (e_data e2)].
Proof.
  exists (call "<one/>" "A" None (Some 0)), (call "<two/>" "A" None (Some 5000000)).
  vm_compute. split; [discriminate|auto].
Qed.

(** Tail: reads between the writes. *)
Example C27_tail_case :
  truns default_cfg "manifest_S.txt" (mkTstate (f_init []) 0 false)
    [TRead; TWrite (FEmit (nth 0 case_calls (call "" "" None None))); TRead; TRead;
     TWrite (FEmit (nth 1 case_calls (call "" "" None None)));
     TWrite (FEmit (nth 2 case_calls (call "" "" None None))); TRead] =
  (mkTstate (fst (fruns default_cfg (f_init []) (map FEmit case_calls))) 2 false,
   (snd (fruns default_cfg (f_init []) (map FEmit case_calls)),
    [RDeliver 1000000 "<a/>"; RDeliver 2000000 "<m/>"])).
Proof. vm_compute. reflexivity. Qed.

(** Rotation: a buffer of one. *)
Example C27_rotated_case :
  let c := mkFcfg doc_name msg_name 1 false in
  let '(s, res) := fruns c (f_init []) (map FEmit case_calls) in
  f_evicted s = ["S_1.xml"; "S_msg_1.xml"] /\ f_ring s = ["S_2.xml"] /\
  read_manifest (f_files (fst (fstep c s (FDelete "S_1.xml")))) "manifest_S.txt" = Some [RIOError].
Proof. vm_compute. auto. Qed.

Example C27_unicode_case :
  ascii_text (String (ascii_of_nat 233) "") = false /\
  snd (emit default_cfg (f_init []) (call (String (ascii_of_nat 233) "") "S" (Some 1) (Some 0))) = FUnicodeError "S_1.xml".
Proof. vm_compute. auto. Qed.

(** A message before any document of its sequence is written but not listed;
    with a default clock it is, and with a delay the delay is added. *)
Example C27_listed_case :
  snd (emit default_cfg (f_init []) (call "<m/>" "S" None None)) = FUnlisted "S_msg_1.xml" /\
  snd (emit default_cfg (f_init []) (mkEmission "<m/>" "S" None None (Some 500) true 7)) = FLine "S_msg_1.xml" 507.
Proof. vm_compute. auto. Qed.

Print Assumptions C27_replay.
Print Assumptions C27_names.
Print Assumptions C27_clean.
Print Assumptions C27_comma.
Print Assumptions C27_one_manifest.
Print Assumptions C27_files.
Print Assumptions C27_listed.
Print Assumptions C27_clock_kept.
Print Assumptions C27_clock_remembered.
Print Assumptions C27_numbering.
Print Assumptions C27_only_rotated.
Print Assumptions C27_tail.
Print Assumptions C27_unicode.
Print Assumptions C27_rotation.
Print Assumptions C27_rotated.
Print Assumptions C27_clash.
Print Assumptions C27_restart.
