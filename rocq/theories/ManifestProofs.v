(** Lemmas about the file system carriage. *)

From Coq Require Import List ZArith String Ascii Bool Lia.
From Verif Require Import Digits TimeModel TimeSpec TimeProofs RingModel RingProofs ManifestModel.
Import ListNotations.
Open Scope Z_scope.
Open Scope string_scope.

(** ** The folder *)

Lemma fs_get_del : forall fs f g, fs_get (fs_del fs f) g = if (f =? g)%string then None else fs_get fs g.
Proof.
  intros fs f g. induction fs as [|[h c] fs IH]; cbn.
  - destruct (f =? g); auto.
  - destruct (String.eqb_spec f h) as [->|Hn]; cbn.
    + fold (fs_del fs h). rewrite IH. destruct (String.eqb_spec h g) as [->|]; auto.
      destruct (String.eqb_spec g h); congruence.
    + fold (fs_del fs f). rewrite IH. destruct (String.eqb_spec g h) as [->|]; auto.
      destruct (String.eqb_spec f h); congruence.
Qed.

Lemma fs_get_put : forall fs f c g, fs_get (fs_put fs f c) g = if (g =? f)%string then Some c else fs_get fs g.
Proof.
  intros. unfold fs_put. cbn. rewrite fs_get_del. destruct (String.eqb_spec g f) as [->|]; auto.
  destruct (String.eqb_spec f g); congruence.
Qed.

Lemma fs_get_append : forall fs f c g, fs_get (fs_append fs f c) g =
  if (g =? f)%string then Some (match fs_get fs f with Some old => old ++ c | None => c end)
  else fs_get fs g.
Proof. intros. unfold fs_append. apply fs_get_put. Qed.

(** ** Names *)

Definition has (c : ascii) (s : string) : bool := existsb (Ascii.eqb c) (list_ascii_of_string s).

Lemma has_app : forall c a b, has c (a ++ b) = (has c a || has c b)%bool.
Proof.
  intros c a b. unfold has. induction a as [|x a IH]; cbn; auto.
  rewrite IH, orb_assoc. auto.
Qed.

Lemma has_cons : forall c x s, has c (String x s) = (Ascii.eqb c x || has c s)%bool.
Proof. reflexivity. Qed.

Lemma has_forallb : forall c s, has c s = false <->
  forallb (fun x => negb (Ascii.eqb x c)) (list_ascii_of_string s) = true.
Proof.
  intros c s. unfold has. induction s as [|x s IH]; cbn; [tauto|].
  rewrite Ascii.eqb_sym. destruct (Ascii.eqb x c); cbn; [split; discriminate|auto].
Qed.

Lemma has_digits : forall c s, all_digits s = true -> is_digit c = false -> has c s = false.
Proof. intros. apply has_forallb, digits_no_char; auto. Qed.

Lemma has_showpad : forall c k n, is_digit c = false -> c <> "-"%char -> has c (showpad k n) = false.
Proof. intros. apply has_forallb, showpad_no_char; auto. Qed.

Lemma has_show : forall c n, is_digit c = false -> c <> "-"%char -> has c (show n) = false.
Proof.
  intros c n Hc Hm. unfold show. destruct (n <? 0)%Z.
  - rewrite has_cons, has_digits; auto using show_nat_digits.
    destruct (Ascii.eqb_spec c "-"); [congruence|auto].
  - apply has_digits; auto using show_nat_digits.
Qed.

Lemma has_manifest_of : forall c t, is_digit c = false -> c <> "-"%char -> c <> ":"%char -> c <> "."%char ->
  has c (manifest_of t) = false.
Proof.
  intros c t H1 H2 H3 H4. unfold manifest_of. destruct (members t) as [[[h m] s] ms].
  rewrite !has_app, !has_showpad by auto. cbn. rewrite !orb_false_r.
  destruct (Ascii.eqb_spec c ":"); [congruence|]. destruct (Ascii.eqb_spec c "."); [congruence|].
  reflexivity.
Qed.

Lemma app_inj_r_s : forall a b s, a ++ s = b ++ s -> a = b.
Proof.
  induction a as [|x a IH]; intros [|y b] s H; cbn in *; auto.
  - assert (L := f_equal String.length H). cbn in L. rewrite length_app_s in L. lia.
  - assert (L := f_equal String.length H). cbn in L. rewrite length_app_s in L. lia.
  - inversion H; subst. f_equal. eauto.
Qed.

(** Two texts with the same part after their last [c]. *)
Lemma last_sep : forall c a b x y, has c x = false -> has c y = false ->
  a ++ String c x = b ++ String c y -> a = b /\ x = y.
Proof.
  intros c. induction a as [|u a IH]; intros [|v b] x y Hx Hy H; cbn in H.
  - inversion H; auto.
  - inversion H; subst. rewrite has_app, has_cons, Ascii.eqb_refl, orb_true_r in Hx. discriminate.
  - inversion H; subst. rewrite has_app, has_cons, Ascii.eqb_refl, orb_true_r in Hy. discriminate.
  - inversion H; subst. apply IH in H2; auto. destruct H2; subst. auto.
Qed.

Lemma show_inj : forall n m, show n = show m -> n = m.
Proof.
  assert (P : forall n, 0 <= n -> exists c r, show_nat n = String c r /\ c <> "-"%char).
  { intros n H. assert (D := show_nat_digits n). assert (E := show_nat_nonempty n).
    destruct (show_nat n) as [|c r]; [congruence|]. exists c, r. split; auto.
    cbn in D. apply andb_true_iff in D as [D _]. intro; subst. cbv in D. discriminate. }
  intros n m H. unfold show in H.
  destruct (Z.ltb_spec n 0), (Z.ltb_spec m 0).
  - inversion H as [H2]. apply (f_equal read) in H2. rewrite !read_show_nat in H2 by lia. inversion H2. lia.
  - destruct (P m) as (c & r & E & Hc); auto. rewrite E in H. inversion H. congruence.
  - destruct (P n) as (c & r & E & Hc); auto. rewrite E in H. inversion H. congruence.
  - apply (f_equal read) in H. rewrite !read_show_nat in H by lia. inversion H. auto.
Qed.

(** The last character of a non-empty text. *)
Lemma doc_name_shape : forall sid n, doc_name sid n = (sid ++ String "_" (show n)) ++ ".xml".
Proof. intros. unfold doc_name. rewrite app_assoc_s. reflexivity. Qed.

Lemma msg_name_shape : forall sid n, msg_name sid n = ((sid ++ "_msg") ++ String "_" (show n)) ++ ".xml".
Proof. intros. unfold msg_name. rewrite !app_assoc_s. reflexivity. Qed.

Lemma has_underscore_show : forall n, has "_" (show n) = false.
Proof. intros. apply has_show; [reflexivity|discriminate]. Qed.

Lemma doc_name_inj : forall a n b m, doc_name a n = doc_name b m -> a = b /\ n = m.
Proof.
  intros a n b m H. rewrite !doc_name_shape in H. apply app_inj_r_s in H.
  apply last_sep in H; auto using has_underscore_show. destruct H as [H1 H2]. auto using show_inj.
Qed.

Lemma msg_name_inj : forall a n b m, msg_name a n = msg_name b m -> a = b /\ n = m.
Proof.
  intros a n b m H. rewrite !msg_name_shape in H. apply app_inj_r_s in H.
  apply last_sep in H; auto using has_underscore_show. destruct H as [H1 H2].
  apply app_inj_r_s in H1. auto using show_inj.
Qed.

Lemma doc_msg_clash : forall a n b m, doc_name a n = msg_name b m <-> a = b ++ "_msg" /\ n = m.
Proof.
  intros a n b m. split.
  - intros H. rewrite doc_name_shape, msg_name_shape in H. apply app_inj_r_s in H.
    apply last_sep in H; auto using has_underscore_show. destruct H as [H1 H2]. auto using show_inj.
  - intros [-> ->]. rewrite doc_name_shape, msg_name_shape. auto.
Qed.

Lemma xml_not_txt : forall a b, a ++ ".xml" <> b ++ ".txt".
Proof.
  assert (L4 : forall b, String.length (b ++ ".txt") = (String.length b + 4)%nat)
    by (intros; apply length_app_s).
  assert (L4' : forall b, String.length (b ++ ".xml") = (String.length b + 4)%nat)
    by (intros; apply length_app_s).
  induction a as [|x a IH]; intros [|y b] H.
  - discriminate.
  - apply (f_equal String.length) in H. rewrite L4, L4' in H. cbn [String.length] in H. lia.
  - apply (f_equal String.length) in H. rewrite L4, L4' in H. cbn [String.length] in H. lia.
  - inversion H. eapply IH; eauto.
Qed.

(** ** Lines *)

Lemma rstrip_blank : forall s a, is_blank a = true -> rstrip (s ++ String a "") = rstrip s.
Proof.
  induction s as [|x s IH]; intros a H; cbn [append rstrip].
  - rewrite H. reflexivity.
  - rewrite IH by auto. reflexivity.
Qed.

Lemma rstrip_app : forall a s, rstrip s <> "" -> rstrip (a ++ s) = a ++ rstrip s.
Proof.
  induction a as [|x a IH]; intros s H; cbn [append rstrip]; auto.
  rewrite IH by auto. destruct (a ++ rstrip s) eqn:E; auto.
  destruct a; cbn in E; [|discriminate]. congruence.
Qed.

(** A file name that survives the trip through a manifest line. *)
Definition clean (name : string) : Prop :=
  name <> "" /\ rstrip name = name /\ has "," name = false /\ has newline name = false.

Lemma line_shape : forall t name, manifest_line t name = (manifest_of t ++ String "," name) ++ String newline "".
Proof. intros. unfold manifest_line. rewrite !app_assoc_s. reflexivity. Qed.

Lemma comma_manifest_of : forall t, has "," (manifest_of t) = false.
Proof. intros. apply has_manifest_of; try reflexivity; discriminate. Qed.

Lemma newline_manifest_of : forall t, has newline (manifest_of t) = false.
Proof. intros. apply has_manifest_of; try reflexivity; discriminate. Qed.

Lemma split_on_clean : forall c s, has c s = false -> split_on c s = [s].
Proof.
  induction s as [|a s IH]; intros H; auto.
  rewrite has_cons in H. apply orb_false_iff in H as [Ha H]. cbn.
  rewrite Ascii.eqb_sym, Ha, IH; auto.
Qed.

Lemma line_parts_clean : forall t name, clean name ->
  line_parts (manifest_line t name) = Some (manifest_of t, name).
Proof.
  intros t name (Hne & Hr & Hc & _). unfold line_parts.
  rewrite line_shape, rstrip_blank by reflexivity.
  assert (E : rstrip (String "," name) = String "," name).
  { cbn. rewrite Hr. destruct name; reflexivity. }
  rewrite rstrip_app by (rewrite E; discriminate). rewrite E.
  rewrite split_on_app by (apply has_forallb, comma_manifest_of).
  rewrite split_on_clean by auto. reflexivity.
Qed.

Lemma split_on_length : forall c s, List.length (split_on c s) =
  S (List.length (filter (fun x => Ascii.eqb x c) (list_ascii_of_string s))).
Proof.
  induction s as [|a s IH]; cbn; auto.
  destruct (Ascii.eqb a c); cbn; rewrite <- ?IH; auto.
  destruct (split_on c s); cbn in *; [discriminate|auto].
Qed.

Lemma filter_has : forall c s, has c s = true ->
  (1 <= List.length (filter (fun x => Ascii.eqb x c) (list_ascii_of_string s)))%nat.
Proof.
  intros c s. unfold has. induction s as [|a s IH]; cbn; [discriminate|].
  rewrite Ascii.eqb_sym. destruct (Ascii.eqb a c); cbn; [lia|auto].
Qed.

Lemma list_ascii_app : forall a b, list_ascii_of_string (a ++ b) =
  (list_ascii_of_string a ++ list_ascii_of_string b)%list.
Proof. induction a; cbn; intros; congruence. Qed.

Lemma has_rstrip : forall c s, is_blank c = false -> has c s = true -> has c (rstrip s) = true.
Proof.
  intros c s Hb. induction s as [|a s IH]; intros H; [discriminate|].
  rewrite has_cons in H. cbn [rstrip].
  destruct (Ascii.eqb_spec c a) as [->|Hn].
  - rewrite Hb. destruct (rstrip s); rewrite has_cons, Ascii.eqb_refl; auto.
  - cbn in H. specialize (IH H). destruct (rstrip s); [discriminate|].
    rewrite has_cons, IH, orb_true_r. auto.
Qed.

(** A comma in the name: three parts or more. *)
Lemma line_parts_comma : forall t name, has "," name = true ->
  line_parts (manifest_line t name) = None.
Proof.
  intros t name H. unfold line_parts.
  rewrite line_shape, rstrip_blank by reflexivity.
  assert (Hr := has_rstrip "," name eq_refl H).
  assert (E : rstrip (String "," name) = String "," (rstrip name)).
  { cbn. destruct (rstrip name); auto. }
  rewrite rstrip_app by (rewrite E; discriminate). rewrite E.
  rewrite split_on_app by (apply has_forallb, comma_manifest_of).
  assert (L := split_on_length "," (rstrip name)). assert (F := filter_has "," _ Hr).
  destruct (split_on "," (rstrip name)) as [|x [|y l]]; cbn in *; auto; lia.
Qed.

Lemma lines_line : forall l rest, has newline l = false ->
  lines (l ++ String newline rest) = (l ++ String newline "") :: lines rest.
Proof.
  induction l as [|a l IH]; intros rest H.
  - reflexivity.
  - rewrite has_cons in H. apply orb_false_iff in H as [Ha H]. cbn [append lines].
    rewrite Ascii.eqb_sym, Ha, IH by auto. reflexivity.
Qed.

(** ** The manifest of a list of entries *)

Fixpoint text_of (ls : list (string * Z)) : string :=
  match ls with
  | [] => ""
  | (name, t) :: r => manifest_line t name ++ text_of r
  end.

Lemma text_of_app : forall a b, text_of (a ++ b)%list = text_of a ++ text_of b.
Proof.
  induction a as [|[n t] a IH]; intros b; cbn [text_of app]; auto.
  rewrite IH, app_assoc_s. auto.
Qed.

Lemma lines_text_of : forall ls, Forall (fun p => has newline (fst p) = false) ls ->
  lines (text_of ls) = map (fun p => manifest_line (snd p) (fst p)) ls.
Proof.
  induction ls as [|[n t] ls IH]; intros H; cbn [text_of map fst snd]; auto.
  inversion H; subst. rewrite line_shape, app_assoc_s. cbn [append].
  rewrite lines_line.
  - rewrite IH by auto. reflexivity.
  - rewrite has_app, newline_manifest_of, has_cons. cbn [fst] in H2. rewrite H2. reflexivity.
Qed.

(** ** What was written *)

Definition listed (rs : list fres) : list (string * Z) :=
  flat_map (fun r => match r with FLine n t => [(n, t)] | _ => [] end) rs.

Definition res_name (r : fres) : string :=
  match r with FLine n _ | FUnlisted n | FUnicodeError n | FOverflow n => n end.

(** The bytes a call leaves in its file. *)
Definition wrote (p : emission * fres) : string :=
  match snd p with FUnicodeError _ => "" | _ => e_data (fst p) end.

(** The newest write under a name. *)
Fixpoint last_written (ws : list (emission * fres)) (f : string) : option string :=
  match ws with
  | [] => None
  | p :: r => match last_written r f with
              | Some d => Some d
              | None => if (f =? res_name (snd p))%string then Some (wrote p) else None
              end
  end.

Lemma last_written_snoc : forall ws p f, last_written (ws ++ [p])%list f =
  if (f =? res_name (snd p))%string then Some (wrote p) else last_written ws f.
Proof.
  induction ws as [|q ws IH]; intros p f; cbn [last_written app]; auto.
  rewrite IH. destruct (f =? res_name (snd p)); auto.
Qed.

(** No document file is called like a manifest. *)
Definition apart (c : fcfg) : Prop := forall sid n sid',
  c_doc c sid n <> manifest_name sid' /\ c_msg c sid n <> manifest_name sid'.

Lemma default_apart : apart default_cfg.
Proof.
  intros sid n sid'. unfold manifest_name. cbn [default_cfg c_doc c_msg].
  rewrite doc_name_shape, msg_name_shape. split; intro H;
    change ("manifest_" ++ sid' ++ ".txt") with (("manifest_" ++ sid') ++ ".txt") in H;
    eapply xml_not_txt; eauto.
Qed.

Definition opt_text (o : option string) : string := match o with Some s => s | None => "" end.

Definition finv (fs0 : folder) (s : fstate) (ws : list (emission * fres)) : Prop :=
  (f_manifest s = None -> listed (map snd ws) = []) /\
  (forall m, f_manifest s = Some m -> exists sid, m = manifest_name sid) /\
  (forall sid, fs_get (f_files s) (manifest_name sid) =
     match f_manifest s with
     | Some m => if (m =? manifest_name sid)%string
                 then Some (opt_text (fs_get fs0 m) ++ text_of (listed (map snd ws)))
                 else fs_get fs0 (manifest_name sid)
     | None => fs_get fs0 (manifest_name sid)
     end) /\
  (forall f, (forall sid, f <> manifest_name sid) ->
     fs_get (f_files s) f = match last_written ws f with Some d => Some d | None => fs_get fs0 f end) /\
  Forall (fun p => forall sid, res_name (snd p) <> manifest_name sid) ws.

Lemma finv_init : forall fs0, finv fs0 (f_init fs0) [].
Proof. intros. split; [auto|]. split; [discriminate|]. split; [auto|]. split; auto. Qed.

Lemma file_name_apart : forall c s e msgs name, apart c -> file_name c s e = (msgs, name) ->
  forall sid, name <> manifest_name sid.
Proof.
  intros c s e msgs name Ha H sid. unfold file_name in H.
  destruct (e_num e); inversion H; subst; apply Ha.
Qed.

Lemma listed_snoc : forall (ws : list (emission * fres)) e r, listed (map snd (ws ++ [(e, r)])%list) =
  (listed (map snd ws) ++ match r with FLine n t => [(n, t)] | _ => [] end)%list.
Proof.
  intros. unfold listed. rewrite map_app, flat_map_app. cbn. rewrite app_nil_r. auto.
Qed.

(** A call that adds no line. *)
Lemma finv_unlisted : forall fs0 s ws e name r d msgs clocks ring ev,
  finv fs0 s ws -> (forall sid, name <> manifest_name sid) ->
  res_name r = name -> wrote (e, r) = d -> (forall n t, r <> FLine n t) ->
  finv fs0 (mkFstate (fs_put (f_files s) name d) msgs clocks (f_manifest s) ring ev) (ws ++ [(e, r)])%list.
Proof.
  intros fs0 s ws e name r d msgs clocks ring ev (H1 & H2 & H3 & H4 & H5) Hn Er Ew Hl.
  assert (El : listed (map snd (ws ++ [(e, r)])%list) = listed (map snd ws)).
  { rewrite listed_snoc. destruct r; try apply app_nil_r. exfalso; eapply Hl; eauto. }
  unfold finv. rewrite El. cbn [f_manifest f_files].
  split; [auto|]. split; [auto|]. split; [|split].
  - intros sid. rewrite fs_get_put. destruct (String.eqb_spec (manifest_name sid) name); [|auto].
    exfalso. eapply Hn; eauto.
  - intros f Hf. rewrite fs_get_put, last_written_snoc. cbn [snd]. rewrite Er, Ew.
    destruct (f =? name); auto.
  - apply Forall_app. split; auto. constructor; [|constructor]. cbn [snd]. rewrite Er. auto.
Qed.

Lemma finv_emit : forall c fs0 s ws e s' r, apart c -> finv fs0 s ws -> emit c s e = (s', r) ->
  finv fs0 s' (ws ++ [(e, r)])%list.
Proof.
  intros c fs0 s ws e s' r Ha Hi H. unfold emit in H.
  destruct (file_name c s e) as [msgs name] eqn:En.
  assert (Hn := file_name_apart _ _ _ _ _ Ha En).
  destruct (negb (ascii_text (e_data e))).
  { inversion H; subst. eapply finv_unlisted; eauto; try reflexivity. discriminate. }
  destruct (ring_add c s name) as [ring called].
  destruct (c_quiet c).
  { inversion H; subst. eapply finv_unlisted; eauto; try reflexivity. discriminate. }
  destruct (availability s e) as [[a|] clocks].
  2:{ inversion H; subst. eapply finv_unlisted; eauto; try reflexivity. discriminate. }
  destruct (match e_delay e with None => Some a | Some d => mk_td (a + d) end) as [t|].
  2:{ inversion H; subst. eapply finv_unlisted; eauto; try reflexivity. discriminate. }
  inversion H; subst; clear H. destruct Hi as (H1 & H2 & H3 & H4 & H5).
  set (m := match f_manifest s with Some m => m | None => manifest_name (e_sid e) end).
  assert (Hm : exists sid, m = manifest_name sid).
  { subst m. destruct (f_manifest s) as [m|] eqn:E; eauto. }
  unfold finv. cbn [f_manifest f_files]. rewrite listed_snoc, text_of_app. cbn [text_of].
  split; [discriminate|]. split. { intros ? E; inversion E; subst; auto. } split; [|split].
  - intros sid. rewrite fs_get_append, !fs_get_put.
    destruct Hm as [sm Hm].
    destruct (String.eqb_spec m name) as [E|_]; [exfalso; eapply Hn; rewrite <- E; eauto|].
    rewrite String.eqb_sym. destruct (String.eqb_spec m (manifest_name sid)) as [E|E].
    + f_equal. rewrite app_empty_r. rewrite Hm, H3.
      assert (Em : f_manifest s = Some m \/ f_manifest s = None).
      { subst m. destruct (f_manifest s); auto. }
      destruct Em as [Em|Em]; rewrite Em.
      * rewrite Hm, String.eqb_refl. rewrite app_assoc_s. reflexivity.
      * rewrite (H1 Em). destruct (fs_get fs0 (manifest_name sm)); cbn; auto.
    + destruct (String.eqb_spec (manifest_name sid) name) as [E2|_]; [exfalso; eapply Hn; eauto|].
      rewrite H3. subst m. destruct (f_manifest s); auto.
      destruct (String.eqb_spec s0 (manifest_name sid)); congruence.
  - intros f Hf. rewrite fs_get_append, !fs_get_put, last_written_snoc. cbn [snd res_name wrote].
    destruct Hm as [sm Hm].
    destruct (String.eqb_spec f m) as [E|_]; [exfalso; eapply Hf; rewrite E; eauto|].
    destruct (f =? name); auto.
  - apply Forall_app. split; auto.
Qed.

Lemma last_written_in : forall ws f d, last_written ws f = Some d ->
  exists p, In p ws /\ res_name (snd p) = f.
Proof.
  induction ws as [|q ws IH]; intros f d H; cbn in H; [discriminate|].
  destruct (last_written ws f) eqn:E.
  - destruct (IH _ _ E) as (p & Hp & Hf). exists p. cbn. auto.
  - destruct (String.eqb_spec f (res_name (snd q))); [|discriminate]. exists q. cbn. auto.
Qed.

(** So a file that was written is the newest write. *)
Lemma finv_file : forall fs0 s ws f d, finv fs0 s ws -> last_written ws f = Some d ->
  fs_get (f_files s) f = Some d.
Proof.
  intros fs0 s ws f d (_ & _ & _ & H4 & H5) H. rewrite H4, H; auto.
  intros sid. destruct (last_written_in _ _ _ H) as (p & Hp & <-).
  rewrite Forall_forall in H5. apply (H5 _ Hp).
Qed.

Lemma fruns_app : forall c l1 l2 s, fruns c s (l1 ++ l2)%list =
  let '(s1, o1) := fruns c s l1 in let '(s2, o2) := fruns c s1 l2 in (s2, (o1 ++ o2)%list).
Proof.
  induction l1 as [|v l1 IH]; intros l2 s; cbn [fruns app].
  - destruct (fruns c s l2); auto.
  - destruct (fstep c s v) as [s1 o1]. rewrite IH. destruct (fruns c s1 l1) as [s2 o2].
    destruct (fruns c s2 l2) as [s3 o3]. rewrite app_assoc. auto.
Qed.

Lemma emits_length : forall c es s s' res, fruns c s (map FEmit es) = (s', res) ->
  List.length res = List.length es.
Proof.
  induction es as [|e es IH]; intros s s' res H; cbn [map fruns fstep] in H.
  - inversion H; auto.
  - destruct (emit c s e) as [s1 r]. destruct (fruns c s1 (map FEmit es)) as [s2 o2] eqn:E.
    inversion H; subst. cbn. f_equal. eauto.
Qed.

Lemma finv_emits : forall c fs0 es s0 ws s res, apart c -> finv fs0 s0 ws ->
  fruns c s0 (map FEmit es) = (s, res) -> finv fs0 s (ws ++ combine es res)%list.
Proof.
  intros c fs0. induction es as [|e es IH]; intros s0 ws s res Ha Hi H; cbn [map fruns fstep] in H.
  - inversion H; subst. cbn. rewrite app_nil_r. auto.
  - destruct (emit c s0 e) as [s1 r] eqn:Ee. destruct (fruns c s1 (map FEmit es)) as [s2 o2] eqn:E.
    inversion H; subst. cbn [app combine].
    replace (ws ++ (e, r) :: combine es o2)%list with ((ws ++ [(e, r)]) ++ combine es o2)%list
      by (rewrite <- app_assoc; auto).
    eapply IH; eauto. eapply finv_emit; eauto.
Qed.

Lemma map_snd_combine : forall A B (a : list A) (b : list B), List.length a = List.length b ->
  map snd (combine a b) = b.
Proof.
  induction a; intros [|y b] H; cbn in *; try discriminate; auto. f_equal. auto.
Qed.

Lemma listed_written : forall (ws : list (emission * fres)) name t, In (name, t) (listed (map snd ws)) ->
  exists d, last_written ws name = Some d.
Proof.
  induction ws as [|[e r] ws IH]; intros name t H; cbn in H; [destruct H|].
  apply in_app_or in H as [H|H].
  - destruct r; cbn in H; try (destruct H; fail); destruct H as [H|[]]. inversion H; subst. cbn.
    destruct (last_written ws name); eauto. rewrite String.eqb_refl. eauto.
  - destruct (IH _ _ H) as [d E]. cbn. rewrite E. eauto.
Qed.


(** What reading one entry gives. *)
Definition entry_result (d : option string) (t : Z) (r : rres) : Prop :=
  exists x, d = Some x /\ r = if (x =? "")%string then REmpty else RDeliver (trunc_ms t) x.

Lemma read_entry : forall fs name t d, clean name -> min_td <= t < max_td ->
  fs_get fs name = Some d ->
  read_line fs (manifest_line t name) = if (d =? "")%string then REmpty else RDeliver (trunc_ms t) d.
Proof.
  intros fs name t d Hc Ht Hd. unfold read_line. rewrite line_parts_clean, Hd by auto.
  destruct d as [|a d]; auto. rewrite manifest_roundtrip by auto. reflexivity.
Qed.

Lemma entry_fine : forall (d : string) t, r_fails (if (d =? "")%string then REmpty else RDeliver t d) = false.
Proof. intros d t. destruct (d =? ""); auto. Qed.
