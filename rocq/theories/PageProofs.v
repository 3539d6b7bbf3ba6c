(** Lemmas for C75. *)

From Coq Require Import List Arith ZArith String Ascii Bool Lia Sorted.
From Verif Require Import PageModel PageSpec.
Import ListNotations.
Open Scope string_scope.

Lemma find_put_same id n l : find id (put id n l) = Some n.
Proof.
  induction l as [|[i k] l IH]; cbn; [rewrite String.eqb_refl; reflexivity|].
  destruct (i =? id) eqn:E; cbn; [rewrite String.eqb_refl; reflexivity|]. rewrite E. exact IH.
Qed.
Lemma find_put_other id i n l : i <> id -> find id (put i n l) = find id l.
Proof.
  intros N. apply String.eqb_neq in N. induction l as [|[j k] l IH]; cbn; [rewrite N; reflexivity|].
  destruct (j =? i) eqn:E; cbn.
  - apply String.eqb_eq in E. subst j. rewrite N. reflexivity.
  - rewrite IH. reflexivity.
Qed.

(** ** The page keeps together *)

Definition synced (p : page) : Prop :=
  match p_store p with Some (o, n) => o = p_opts p /\ n = p_nums p | None => p_opts p = [] /\ p_nums p = [] end.
Record good (p : page) : Prop := mkGood {
  g_sync : synced p;
  g_known : forall id, In id (p_opts p) -> find id (p_nums p) <> None;
  g_sel : forall id, p_sel p = Some id -> In id (p_opts p) }.

(** All but the area and whether the page hangs. *)
Definition frame (p : page) := (p_nums p, p_opts p, p_sel p, p_store p, p_sock p, p_mode p, p_max p, p_waiting p).
Lemma good_frame p q : frame p = frame q -> good p -> good q.
Proof.
  unfold frame. intros H [S K L]. injection H as A B C D E F G I. constructor.
  - unfold synced in *. rewrite <- A, <- B, <- D. exact S.
  - rewrite <- A, <- B. exact K.
  - rewrite <- B, <- C. exact L.
Qed.

Lemma selected_good p : (forall id, In id (p_opts p) -> find id (p_nums p) <> None) -> (forall id, p_sel p = Some id -> In id (p_opts p)) ->
  selected p = p.
Proof.
  intros K S. unfold selected. destruct (p_sel p) as [id|]; [|reflexivity]. specialize (K id (S id eq_refl)).
  destruct (find id (p_nums p)); [reflexivity|congruence].
Qed.

Lemma load_good p : good p -> good (load (p_store p)) /\ p_nums (load (p_store p)) = p_nums p /\ p_opts (load (p_store p)) = p_opts p.
Proof.
  intros [S K L]. unfold synced in S.
  assert (E : match p_store p with Some s => s | None => ([], []) end = (p_opts p, p_nums p)).
  { destruct (p_store p) as [[o n]|]; destruct S as [-> ->]; reflexivity. }
  unfold load. rewrite E.
  assert (H : forall id, hd_error (p_opts p) = Some id -> In id (p_opts p)) by (intros id; destruct (p_opts p); [discriminate|intros X; injection X as ->; left; reflexivity]).
  rewrite selected_good; [|exact K|exact H]. split; [|split; reflexivity]. constructor; [exact S|exact K|exact H].
Qed.

Lemma make_find p d : make p = Some d -> find (d_id d) (p_nums p) = Some (d_num d) /\ d_area d = p_area p /\ p_sel p = Some (d_id d).
Proof.
  unfold make. destruct (p_sel p) as [id|] eqn:S; [|discriminate]. destruct (find id (p_nums p)) as [n|] eqn:F; [|discriminate].
  intros H. injection H as <-. cbn. auto.
Qed.

Lemma bump_good p d : good p -> find (d_id d) (p_nums p) = Some (d_num d) -> good (bump p d).
Proof.
  intros [S K L] F. constructor.
  - unfold synced in *. cbn. destruct (p_store p) as [[o n]|]; [destruct S as [-> _]; auto|]. destruct S as [_ S]. rewrite S in F. discriminate.
  - cbn. intros id I. destruct (String.eqb_spec (d_id d) id) as [<-|N]; [rewrite find_put_same; discriminate|].
    rewrite find_put_other by exact N. apply K, I.
  - exact L.
Qed.

(** ** What an event does *)

Definition effect (p q : page) (o : outcome) : Prop :=
  (p_nums q = p_nums p /\ made [o] = []) \/
  exists d, find (d_id d) (p_nums p) = Some (d_num d) /\ d_area d = p_area p /\ p_sel p = Some (d_id d) /\
    p_nums q = put (d_id d) (S (d_num d)) (p_nums p) /\ made [o] = [d].

Lemma submit_now_effect p : effect p (fst (submit_now p)) (snd (submit_now p)) /\ (good p -> good (fst (submit_now p))).
Proof.
  unfold submit_now. destruct (make p) as [d|] eqn:M; [|split; [left; auto|auto]].
  destruct (make_find p d M) as (F & A & S). destruct (send (p_sock p)); [|split; [left; auto|auto]].
  split; [right; exists d; repeat split; auto|]. intros G. apply bump_good; auto.
Qed.

Lemma submit_later_effect p : effect p (fst (submit_later p)) (snd (submit_later p)) /\ (good p -> good (fst (submit_later p))).
Proof.
  unfold submit_later. destruct (make p) as [d|] eqn:M; [|split; [left; auto|auto]].
  destruct (make_find p d M) as (F & A & S).
  split; [right; exists d; repeat split; auto|]. intros G. destruct (bump_good p d G F) as [X Y Z]. constructor; auto.
Qed.

Lemma send_document_effect p : effect p (fst (send_document p)) (snd (send_document p)) /\ (good p -> good (fst (send_document p))).
Proof.
  unfold send_document. destruct (p_sel p); [|split; [left; auto|auto]].
  destruct (p_mode p); [apply submit_now_effect|apply submit_later_effect|apply submit_now_effect].
Qed.

Lemma typed_frame p k : frame (typed p k) = frame p.
Proof. destruct k; try reflexivity. cbn. destruct (limit_of (p_max p) =? 1)%Z; reflexivity. Qed.

(** A key sends as the button does, or nothing. *)
Lemma press_is p k : exists q o, ((q, o) = (p, Quiet) \/ (p_mode p = Live /\ (q, o) = send_document p)) /\
  frame (fst (press p k)) = frame q /\ (snd (press p k) = o \/ (snd (press p k) = Endless /\ (o = Quiet \/ o = NoSequence))).
Proof.
  unfold press.
  destruct (match p_mode p, k with Live, (Enter | Space | Escape) => send_document p | _, _ => (p, Quiet) end) as [q o] eqn:E.
  exists q, o. split.
  { destruct (p_mode p); [destruct k|..]; auto. }
  assert (T : forall q k, frame (typed q k) = frame q) by (intros; apply typed_frame).
  destruct o, k; cbn [fst snd]; rewrite ?T; auto; destruct (shift_lines (limit_of (p_max q)) (p_area q)); cbn [fst snd]; rewrite ?T; auto 6.
Qed.

Lemma step_good p v : good p -> good (fst (step p v)).
Proof.
  intros G. destruct v; cbn [step]; try (apply load_good, G);
    (destruct (p_hung p); [exact G|]); cbn [fst]; try exact G.
  - unfold create. destruct (id =? ""); [exact G|]. destruct G as [S K L]. constructor; cbn.
    + unfold synced. cbn. auto.
    + intros i I. destruct (String.eqb_spec id i) as [<-|N]; [rewrite find_put_same; discriminate|].
      rewrite find_put_other by exact N. apply in_app_iff in I as [I|[I|[]]]; [apply K, I|contradiction].
    + intros i H. apply in_app_iff. destruct (p_sel p) as [s|]; injection H as <-; [left; apply L; reflexivity|right; left; reflexivity].
  - unfold select. destruct (existsb (String.eqb id) (p_opts p)) eqn:E; [|exact G].
    apply existsb_exists in E as (i & I & E). apply String.eqb_eq in E. subst i. destruct G as [S K L].
    assert (T : forall i, Some id = Some i -> In i (p_opts p)) by (intros i H; injection H as <-; exact I).
    rewrite selected_good; [constructor; auto|exact K|exact T].
  - constructor; cbn; [split; reflexivity|intros ? []|discriminate].
  - destruct (p_sock p); try exact G; destruct G; constructor; auto.
  - destruct (p_sock p); try exact G; destruct G; constructor; auto.
  - destruct (p_sock p); try exact G; destruct G; constructor; auto.
  - destruct (p_sock p); try exact G; destruct G; constructor; auto.
  - destruct (p_sock p); try exact G; destruct G; constructor; auto.
  - destruct G; constructor; auto.
  - destruct G; constructor; auto.
  - destruct (p_mode p); try exact G. apply send_document_effect, G.
  - apply submit_now_effect, G.
  - unfold fire. destruct (p_waiting p); [exact G|]. destruct G; constructor; auto.
  - destruct (press_is p k) as (q & o & E & F & _). apply (good_frame q); [symmetry; exact F|].
    destruct E as [E|[_ E]]; [injection E as -> _; exact G|]. replace q with (fst (send_document p)) by (rewrite <- E; reflexivity).
    apply send_document_effect, G.
Qed.

Lemma good_page0 : good page0.
Proof. constructor; cbn; [split; reflexivity|intros ? []|discriminate]. Qed.
Lemma after_good l : forall p, good p -> good (after p l).
Proof. induction l as [|v l IH]; intros p G; cbn; [exact G|]. apply IH, step_good, G. Qed.

Lemma step_effect p v : good p -> (forall i, v <> Create i) -> v <> Reset -> effect p (fst (step p v)) (snd (step p v)).
Proof.
  intros G NC NR. destruct v; cbn [step]; try (left; split; [apply load_good, G|reflexivity]);
    (destruct (p_hung p); [left; auto|]); cbn [fst snd]; try (left; split; reflexivity).
  - destruct (NC id eq_refl).
  - left. split; [|reflexivity]. unfold select, selected. destruct (existsb _ _); [|reflexivity]. cbn. destruct (find id (p_nums p)); reflexivity.
  - congruence.
  - left. split; [destruct (p_sock p); reflexivity|reflexivity].
  - left. split; [destruct (p_sock p); reflexivity|reflexivity].
  - left. split; [destruct (p_sock p); reflexivity|reflexivity].
  - left. split; [destruct (p_sock p); reflexivity|reflexivity].
  - left. split; [destruct (p_sock p); reflexivity|reflexivity].
  - destruct (p_mode p); try (left; auto; fail). apply send_document_effect.
  - apply submit_now_effect.
  - left. unfold fire. destruct (p_waiting p); [auto|]. split; [reflexivity|]. destruct (make p); [|reflexivity].
    destruct (send (p_sock p)); reflexivity.
  - destruct (press_is p k) as (q & o & E & F & O).
    assert (M : made [snd (press p k)] = made [o]) by (destruct O as [->|[-> [->| ->]]]; reflexivity).
    assert (N : p_nums (fst (press p k)) = p_nums q) by (unfold frame in F; congruence).
    unfold effect. rewrite M, N. destruct E as [E|[_ E]]; [injection E as -> ->; left; auto|].
    destruct (send_document_effect p) as [X _]. rewrite <- E in X. exact X.
Qed.

(** ** Numbers *)

Lemma numbers_app id a b : numbers id (a ++ b) = (numbers id a ++ numbers id b)%list.
Proof. unfold numbers. rewrite filter_app, map_app. reflexivity. Qed.
Lemma made_cons o l : made (o :: l) = (made [o] ++ made l)%list.
Proof. unfold made. cbn. rewrite app_nil_r. reflexivity. Qed.

Lemma step_find id p v : good p -> created id [v] = 0 ->
  (numbers id (made [snd (step p v)]) = [] /\ (find id (p_nums (fst (step p v))) = find id (p_nums p) \/ find id (p_nums (fst (step p v))) = None)) \/
  exists n, find id (p_nums p) = Some n /\ numbers id (made [snd (step p v)]) = [n] /\ find id (p_nums (fst (step p v))) = Some (S n).
Proof.
  intros G C.
  assert (X : (exists i, v = Create i) \/ v = Reset \/ ((forall i, v <> Create i) /\ v <> Reset)).
  { destruct v; eauto; right; right; split; discriminate. }
  destruct X as [(i & ->)|[->|[NC NR]]].
  - left. cbn in *. destruct (String.eqb_spec i id) as [|N]; [discriminate|]. destruct (p_hung p); cbn; [auto|]. split; [reflexivity|]. left.
    unfold create. destruct (i =? ""); [reflexivity|]. cbn. apply find_put_other, N.
  - left. cbn. destruct (p_hung p); cbn; auto.
  - destruct (step_effect p v G NC NR) as [[E M]|(d & F & _ & _ & E & M)]; rewrite M, E.
    + left. auto.
    + unfold numbers. cbn. destruct (String.eqb_spec (d_id d) id) as [<-|N].
      * right. exists (d_num d). cbn. rewrite find_put_same. auto.
      * left. rewrite find_put_other by exact N. auto.
Qed.

Lemma created_cons id v l : created id (v :: l) = created id [v] + created id l.
Proof. destruct v; cbn; lia. Qed.

Lemma run_cons p v l : run p (v :: l) = snd (step p v) :: run (fst (step p v)) l.
Proof. cbn. destruct (step p v). reflexivity. Qed.

Lemma uncreated id l : forall p, good p -> created id l = 0 -> find id (p_nums p) = None -> numbers id (made (run p l)) = [].
Proof.
  induction l as [|v l IH]; intros p G C F; [reflexivity|]. rewrite created_cons in C.
  rewrite run_cons, made_cons, numbers_app. destruct (step_find id p v G ltac:(lia)) as [[N E]|(n & E & _)]; [|congruence].
  rewrite N. apply IH; [apply step_good, G|lia|]. destruct E; congruence.
Qed.

Lemma counted id l : forall p n, good p -> created id l = 0 -> find id (p_nums p) = Some n ->
  exists k, numbers id (made (run p l)) = seq n k.
Proof.
  induction l as [|v l IH]; intros p n G C F; [exists 0; reflexivity|]. rewrite created_cons in C.
  rewrite run_cons, made_cons, numbers_app. pose proof (step_good p v G) as G'.
  destruct (step_find id p v G ltac:(lia)) as [[N [E|E]]|(m & E & N & E')]; rewrite N.
  - apply IH; [exact G'|lia|congruence].
  - exists 0. cbn. apply uncreated; [exact G'|lia|exact E].
  - rewrite F in E. injection E as <-. destruct (IH _ (S n) G' ltac:(lia) E') as (k & K). exists (S k). cbn. rewrite K. reflexivity.
Qed.

Lemma numbered id l : forall p, good p -> find id (p_nums p) = None -> created id l <= 1 ->
  exists k, numbers id (made (run p l)) = seq 1 k.
Proof.
  induction l as [|v l IH]; intros p G F C; [exists 0; reflexivity|]. rewrite created_cons in C.
  destruct (created id [v]) as [|[|]] eqn:E; [| |lia].
  - rewrite run_cons, made_cons, numbers_app. destruct (step_find id p v G E) as [[N Q]|(n & Q & _)]; [|congruence].
    rewrite N. apply IH; [apply step_good, G|destruct Q; congruence|lia].
  - destruct v; try discriminate. cbn in E. destruct (String.eqb_spec id0 id) as [->|]; [|discriminate].
    rewrite run_cons, made_cons, numbers_app. pose proof (step_good p (Create id) G) as G'. cbn [step] in *.
    destruct (p_hung p); cbn [fst snd] in *.
    + exists 0. cbn. apply uncreated; [exact G|lia|exact F].
    + unfold create in *. destruct (id =? "").
      * exists 0. cbn. apply uncreated; [exact G|lia|exact F].
      * apply counted; [exact G'|lia|]. cbn. apply find_put_same.
Qed.

(** ** Nothing waits *)

Definition immediate (o : outcome) : Prop := match o with Planned _ | Later _ _ => False | _ => True end.

Lemma submit_now_waiting p : p_waiting (fst (submit_now p)) = p_waiting p /\ immediate (snd (submit_now p)).
Proof. unfold submit_now. destruct (make p); [|split; [reflexivity|exact I]]. destruct (send (p_sock p)); split; try reflexivity; exact I. Qed.

Lemma step_waiting p v : p_waiting p = [] -> p_waiting (fst (step p v)) = [] /\ immediate (snd (step p v)).
Proof.
  intros W.
  assert (L : forall s, p_waiting (load s) = []).
  { intros s. unfold load. destruct (match s with Some x => x | None => ([], []) end) as [o n]. unfold selected. cbn.
    destruct (hd_error o); [|reflexivity]. destruct (find _ _); reflexivity. }
  assert (S : p_mode p = Live -> p_waiting (fst (send_document p)) = [] /\ immediate (snd (send_document p))).
  { intros M. unfold send_document. destruct (p_sel p); [|split; [exact W|exact I]]. rewrite M.
    destruct (submit_now_waiting p) as [A B]. rewrite A. auto. }
  destruct v; cbn [step]; try (cbn [fst snd]; split; [apply L|exact I]);
    (destruct (p_hung p); [split; [exact W|exact I]|]); cbn [fst snd]; try (split; [exact W|exact I]).
  - split; [|exact I]. unfold create. destruct (id =? ""); exact W.
  - split; [|exact I]. unfold select, selected. destruct (existsb _ _); [|exact W]. cbn. destruct (find id (p_nums p)); exact W.
  - split; [|exact I]. destruct (p_sock p); exact W.
  - split; [|exact I]. destruct (p_sock p); exact W.
  - split; [|exact I]. destruct (p_sock p); exact W.
  - split; [|exact I]. destruct (p_sock p); exact W.
  - split; [|exact I]. destruct (p_sock p); exact W.
  - destruct (p_mode p) eqn:M; try (split; [exact W|exact I]). apply S. reflexivity.
  - destruct (submit_now_waiting p) as [A B]. rewrite A. auto.
  - unfold fire. rewrite W. split; [exact W|exact I].
  - destruct (press_is p k) as (q & o & E & F & O).
    assert (N : p_waiting (fst (press p k)) = p_waiting q) by (unfold frame in F; congruence). rewrite N.
    assert (X : p_waiting q = [] /\ immediate o).
    { destruct E as [E|[M E]]; [injection E as -> ->; split; [exact W|exact I]|]. specialize (S M). rewrite <- E in S. exact S. }
    destruct X as [X Y]. split; [exact X|]. destruct O as [->|[-> _]]; [exact Y|exact I].
Qed.

Lemma run_waiting l : forall p, p_waiting p = [] -> p_waiting (after p l) = [] /\ Forall immediate (run p l).
Proof.
  induction l as [|v l IH]; intros p W; [split; [exact W|constructor]|]. rewrite run_cons. destruct (step_waiting p v W) as [A B].
  destruct (IH _ A) as [C D]. cbn [after fold_left]. split; [exact C|constructor; auto].
Qed.

(** ** Lines *)

Lemma shift_is m : forall l, (1 <= m)%Z -> shift_lines m l = Some (skipn (List.length l - Z.to_nat (m - 1)) l).
Proof.
  induction l as [|x l IH]; intros M; cbn [shift_lines].
  - replace (m <=? Z.of_nat (List.length (@nil string)))%Z with false by (symmetry; cbn; apply Z.leb_gt; lia).
    rewrite skipn_nil. reflexivity.
  - cbn [List.length]. destruct (Z.leb_spec m (Z.of_nat (S (List.length l)))) as [L|L].
    + rewrite IH by exact M. replace (S (List.length l) - Z.to_nat (m - 1)) with (S (List.length l - Z.to_nat (m - 1))) by lia. reflexivity.
    + replace (S (List.length l) - Z.to_nat (m - 1)) with 0 by lia. reflexivity.
Qed.
Lemma shift_endless m : forall l, (m < 1)%Z -> shift_lines m l = None.
Proof.
  induction l as [|x l IH]; intros M; cbn [shift_lines].
  - destruct (Z.leb_spec m (Z.of_nat (List.length (@nil string)))) as [L|L]; [reflexivity|cbn in L; lia].
  - destruct (Z.leb_spec m (Z.of_nat (List.length (x :: l)))) as [L|L]; [apply IH, M|lia].
Qed.

Lemma type_char_length a c : List.length (type_char a c) = Nat.max 1 (List.length a).
Proof.
  induction a as [|l a IH]; [reflexivity|]. destruct a as [|k a]; [reflexivity|].
  change (S (List.length (type_char (k :: a) c)) = Nat.max 1 (S (List.length (k :: a)))). rewrite IH. cbn [List.length]. lia.
Qed.

(** ** Reading *)

Lemma prefix_cons a x b y : prefix (String a x) (String b y) = if ascii_dec a b then prefix x y else false.
Proof. reflexivity. Qed.
Lemma prefix_nil y : prefix "" y = true.
Proof. destruct y; reflexivity. Qed.
Lemma prefix_break s r : prefix "]]>" (s ++ String "<" r) = prefix "]]>" s.
Proof.
  destruct s as [|a s]; [reflexivity|]. cbn [append]. rewrite !prefix_cons. destruct (ascii_dec "]" a); [|reflexivity].
  destruct s as [|b s]; [reflexivity|]. cbn [append]. rewrite !prefix_cons. destruct (ascii_dec "]" b); [|reflexivity].
  destruct s as [|d s]; [reflexivity|]. cbn [append]. rewrite !prefix_cons. destruct (ascii_dec ">" d); [|reflexivity].
  rewrite !prefix_nil. reflexivity.
Qed.
Lemma prefix_BR c r : c <> "<"%char -> prefix BR (String c r) = false.
Proof. intros N. unfold BR. rewrite prefix_cons. destruct (ascii_dec "<" c); [congruence|reflexivity]. Qed.

Lemma lines_plain s : plain s -> lines s 0 = Some [s].
Proof.
  induction s as [|c s IH]; intros P; [reflexivity|]. destruct P as (A & B & C & D).
  cbn [lines]. rewrite prefix_BR by exact A. apply Ascii.eqb_neq in A, B. rewrite A, B, C. cbn [orb]. rewrite (IH D). reflexivity.
Qed.
Lemma lines_break s : plain s -> forall r t, lines (String "<" r) 0 = Some ("" :: t) -> lines (s ++ String "<" r) 0 = Some (s :: t).
Proof.
  induction s as [|c s IH]; intros P r t H; [exact H|]. destruct P as (A & B & C & D).
  cbn [append lines]. rewrite prefix_BR by exact A. change (String c (s ++ String "<" r)) with (String c s ++ String "<" r). rewrite prefix_break, C.
  apply Ascii.eqb_neq in A, B. rewrite A, B. cbn [orb]. rewrite (IH D r t H). reflexivity.
Qed.

Lemma lines_text s k l : lines s k = Some l -> l <> [] /\ Forall plain l.
Proof.
  revert k l. induction s as [|c s IH]; intros k l; cbn [lines].
  - destruct k; [|discriminate]. intros H. injection H as <-. split; [discriminate|repeat constructor].
  - destruct k as [|k]; [|apply IH]. destruct (prefix BR (String c s)).
    + destruct (lines s 7) as [l'|] eqn:E; [|discriminate]. intros H. injection H as <-. destruct (IH _ _ E) as [_ F].
      split; [discriminate|]. constructor; [exact I|exact F].
    + destruct (Ascii.eqb_spec c "<"); [discriminate|]. destruct (Ascii.eqb_spec c "&"); [discriminate|]. cbn [orb].
      destruct (prefix "]]>" (String c s)) eqn:P; [discriminate|]. destruct (lines s 0) as [[|x t]|] eqn:E; try discriminate.
      intros H. injection H as <-. destruct (IH _ _ E) as [_ F]. inversion F as [|? ? X Y]; subst. split; [discriminate|].
      constructor; [|exact Y]. cbn [plain]. repeat split; auto.
      clear - P E IH. revert P.
      assert (Z : forall s x t, lines s 0 = Some (x :: t) -> forall a, prefix a x = true -> prefix a s = true).
      { clear. induction s as [|c s IH]; intros x t; cbn [lines].
        - intros H. injection H as <- <-. auto.
        - destruct (prefix BR (String c s)) eqn:B.
          + destruct (lines s 7); [|discriminate]. intros H. injection H as <- <-. intros [|]; [reflexivity|discriminate].
          + destruct ((c =? "<")%char || (c =? "&")%char || prefix "]]>" (String c s)); [discriminate|].
            destruct (lines s 0) as [[|y u]|] eqn:E; try discriminate. intros H. injection H as <- <-.
            intros [|b a]; [reflexivity|]. rewrite !prefix_cons. destruct (ascii_dec b c); [|discriminate]. apply (IH y u eq_refl). }
      intros P. destruct (prefix "]]>" (String c x)) eqn:Q; [|reflexivity]. rewrite <- P. rewrite prefix_cons in Q |- *.
      destruct (ascii_dec "]" c); [|discriminate]. symmetry. apply (Z s x t E "]>" Q).
Qed.

Lemma lines_content a : a <> [] -> Forall plain a -> lines (content a) 0 = Some a.
Proof.
  induction a as [|l a IH]; [congruence|]. intros _ F. inversion F as [|? ? P Q]; subst. 
  destruct a as [|k a]; [apply lines_plain, P|]. specialize (IH ltac:(discriminate) Q).
  change (content (l :: k :: a)) with (l ++ String "<" ("tt:br/>" ++ content (k :: a))).
  assert (H : lines (String "<" ("tt:br/>" ++ content (k :: a))) 0 = Some ("" :: k :: a)).
  { change (lines (String "<" ("tt:br/>" ++ content (k :: a))) 0)
      with (if prefix BR (BR ++ content (k :: a)) then match lines (content (k :: a)) 0 with Some l => Some ("" :: l) | None => None end
            else None).
    rewrite IH. replace (prefix BR (BR ++ content (k :: a))) with true; [reflexivity|]. unfold BR. cbn [append]. rewrite !prefix_cons.
    repeat match goal with |- context [ascii_dec ?x ?x] => destruct (ascii_dec x x); [|congruence] end. rewrite prefix_nil. reflexivity. }
  apply lines_break; assumption.
Qed.

(** ** More about events *)

Lemma run_made l : forall p d, In d (made (run p l)) -> exists a v, (exists b, l = (a ++ v :: b)%list) /\ In d (made [snd (step (after p a) v)]).
Proof.
  induction l as [|v l IH]; intros p d I; [destruct I|]. rewrite run_cons, made_cons in I. apply in_app_iff in I as [I|I].
  - exists [], v. split; [exists l; reflexivity|exact I].
  - destruct (IH _ _ I) as (a & w & (b & ->) & J). exists (v :: a), w. split; [exists b; reflexivity|exact J].
Qed.

Lemma step_made p v d : good p -> In d (made [snd (step p v)]) ->
  d_area d = p_area p /\ p_sel p = Some (d_id d) /\ find (d_id d) (p_nums p) = Some (d_num d).
Proof.
  intros G I.
  assert (X : (exists i, v = Create i) \/ v = Reset \/ ((forall i, v <> Create i) /\ v <> Reset)).
  { destruct v; eauto; right; right; split; discriminate. }
  destruct X as [(i & ->)|[->|[NC NR]]].
  - cbn in I. destruct (p_hung p); destruct I.
  - cbn in I. destruct (p_hung p); destruct I.
  - destruct (step_effect p v G NC NR) as [[_ M]|(e & F & A & S & _ & M)]; rewrite M in I; [destruct I|].
    destruct I as [<-|[]]. auto.
Qed.

(** The area and the rest of sending. *)
Definition kept (p q : page) : Prop :=
  p_area q = p_area p /\ p_max q = p_max p /\ p_sel q = p_sel p /\ p_sock q = p_sock p /\ p_mode q = p_mode p /\ p_hung q = p_hung p.
Lemma submit_now_kept p : kept p (fst (submit_now p)).
Proof. unfold kept, submit_now. destruct (make p); [|auto 7]. destruct (send (p_sock p)); cbn; auto 7. Qed.
Lemma send_document_kept p : kept p (fst (send_document p)).
Proof.
  unfold send_document. destruct (p_sel p) eqn:S; [|unfold kept; auto 7].
  destruct (p_mode p) eqn:M; try apply submit_now_kept. unfold kept, submit_later. destruct (make p); cbn; auto 7.
Qed.

Lemma selected_area p : p_area (selected p) = p_area p /\ p_max (selected p) = p_max p /\ p_sock (selected p) = p_sock p.
Proof. unfold selected. destruct (p_sel p); [|auto]. destruct (find _ _); auto. Qed.

(** ** What a page may show *)

Section Areas.
  Variable ok : option Z -> area -> Prop.
  Variable allowed : event -> Prop.
  Hypothesis ok_load : forall p s, ok (p_max p) (p_area p) -> allowed Reload -> ok (p_max (load s)) (p_area (load s)).
  Hypothesis ok_max : forall a m n, ok m a -> allowed (Max n) -> ok n a.
  Hypothesis ok_empty : forall m a, ok m a -> ok m empty_area.
  Hypothesis ok_char : forall m a c, ok m a -> ok m (type_char a c).
  Hypothesis ok_shift : forall m a l, ok m a -> shift_lines (limit_of m) a = Some l ->
    (limit_of m =? 1)%Z = false -> ok m (type_line (shown l)).

  (** What happens to the area in an Enter with an exception is left open. *)
  Lemma press_area p k : ok (p_max p) (p_area p) ->
    (k = Enter -> snd (press p k) = Raised -> (limit_of (p_max p) =? 1)%Z = false -> ok (p_max p) (type_line (p_area p))) -> ok (p_max (fst (press p k))) (p_area (fst (press p k))).
  Proof.
    intros O. unfold press.
    destruct (match p_mode p, k with Live, (Enter | Space | Escape) => send_document p | _, _ => (p, Quiet) end) as [q o] eqn:E.
    assert (K : p_area q = p_area p /\ p_max q = p_max p).
    { destruct (send_document_kept p) as (X & Y & _).
      destruct (p_mode p); [destruct k|..]; try (injection E as <- <-; auto); rewrite E in X, Y; auto. }
    destruct K as [K1 K2]. rewrite K1, K2.
    destruct k; destruct o; intros R; cbn [typed fst snd] in *;
      try (destruct (shift_lines (limit_of (p_max p)) (p_area p)) as [l|] eqn:S; cbn [typed fst snd with_area p_area p_max]; rewrite ?K1, ?K2; [|exact O];
           (destruct (limit_of (p_max p) =? 1)%Z eqn:Z; cbn [with_area p_area p_max]; rewrite ?K1, ?K2; [eapply ok_empty, O|eapply ok_shift; eassumption]));
      try (cbn [with_area p_area p_max]; rewrite ?K1, ?K2; first [exact O|eapply ok_empty, O|apply ok_char, O]).
    rewrite ?K2. destruct (limit_of (p_max p) =? 1)%Z eqn:Z; cbn [with_area p_area p_max]; rewrite ?K1, ?K2; [eapply ok_empty, O|auto].
  Qed.

  Lemma step_area p v : ok (p_max p) (p_area p) -> allowed v ->
    (snd (step p v) = Raised -> (limit_of (p_max p) =? 1)%Z = false -> ok (p_max p) (type_line (p_area p))) -> ok (p_max (fst (step p v))) (p_area (fst (step p v))).
  Proof.
    intros O A R. destruct v; cbn [step] in *; try (cbn [fst]; eapply ok_load; eassumption);
      (destruct (p_hung p); [exact O|]); cbn [fst]; try exact O.
    - unfold create. destruct (id =? ""); exact O.
    - unfold select. destruct (existsb _ _); [|exact O]. match goal with |- ok (p_max (selected ?q)) _ => destruct (selected_area q) as (-> & -> & _) end. exact O.
    - destruct (p_sock p); exact O.
    - destruct (p_sock p); exact O.
    - destruct (p_sock p); exact O.
    - destruct (p_sock p); exact O.
    - destruct (p_sock p); exact O.
    - cbn. eapply ok_max; eassumption.
    - destruct (p_mode p); try exact O. destruct (send_document_kept p) as (-> & -> & _). exact O.
    - destruct (submit_now_kept p) as (-> & -> & _). exact O.
    - unfold fire. destruct (p_waiting p); exact O.
    - apply press_area; [exact O|]. intros _. exact R.
  Qed.
End Areas.

Lemma load_area s : p_area (load s) = empty_area.
Proof.
  unfold load. destruct (match s with Some x => x | None => ([], []) end) as [o n].
  match goal with |- p_area (selected ?q) = _ => destruct (selected_area q) as (-> & _) end. reflexivity.
Qed.

Lemma area_full l : forall p, p_area p <> [] -> p_area (after p l) <> [].
Proof.
  assert (T : forall a, type_line a <> []) by (intros a E; apply app_eq_nil in E as [_ E]; discriminate).
  induction l as [|v l IH]; intros p N; [exact N|]. cbn [after fold_left]. apply IH.
  apply (step_area (fun _ a => a <> []) (fun _ => True)); auto.
  - intros q s _ _. rewrite load_area. discriminate.
  - intros. discriminate.
  - intros m a c _ E. pose proof (type_char_length a c) as H. rewrite E in H. change (@List.length string nil) with 0 in H. lia.
Qed.

Lemma step_bound m p v : (1 <= m)%Z -> p_max p = Some m -> (Z.of_nat (List.length (p_area p)) <= m)%Z -> same_limit v ->
  snd (step p v) <> Raised -> p_max (fst (step p v)) = Some m /\ (Z.of_nat (List.length (p_area (fst (step p v)))) <= m)%Z.
Proof.
  intros M X L V R.
  apply (step_area (fun x a => x = Some m /\ (Z.of_nat (List.length a) <= m)%Z) same_limit); auto; try contradiction.
  - intros x a [-> _]. split; [reflexivity|]. cbn. lia.
  - intros x a c [-> B]. split; [reflexivity|]. rewrite type_char_length. lia.
  - intros x a l [-> B] S Z. cbn in S, Z. apply Z.eqb_neq in Z. split; [reflexivity|]. rewrite shift_is in S by exact M. injection S as <-.
    unfold type_line. rewrite app_length. change (List.length [""]) with 1.
    assert (K : forall r, List.length (shown r) = Nat.max 1 (List.length r)) by (intros [|]; reflexivity).
    rewrite K, skipn_length. lia.
Qed.

Lemma run_bound m l : forall p, good p -> (1 <= m)%Z -> p_max p = Some m -> (Z.of_nat (List.length (p_area p)) <= m)%Z -> Forall same_limit l ->
  ~ In Raised (run p l) -> forall d, In d (made (run p l)) -> (Z.of_nat (List.length (d_area d)) <= m)%Z.
Proof.
  induction l as [|v l IH]; intros p G M X L V R d I; [destruct I|]. inversion V as [|? ? V1 V2]; subst.
  rewrite run_cons in R, I. cbn [In] in R. rewrite made_cons in I. apply in_app_iff in I as [I|I].
  - destruct (step_made p v d G I) as (-> & _). exact L.
  - destruct (step_bound m p v M X L V1) as [A B]; [tauto|]. refine (IH _ _ M A B V2 _ d I); [apply step_good, G|tauto].
Qed.

(** ** Where documents go *)

Definition aimed (p : page) : Prop := match to_of (p_sock p) with None => True | Some t => t = p_sel p end.
Definition arrives (o : outcome) : Prop := match o with Made d (SentTo t) => t = Some (d_id d) | _ => True end.

Lemma submit_now_arrives p : aimed p -> arrives (snd (submit_now p)).
Proof.
  unfold aimed, submit_now. destruct (make p) as [d|] eqn:M; [|exact (fun _ => I)]. destruct (make_find p d M) as (_ & _ & S).
  destruct (p_sock p); cbn; auto. congruence.
Qed.
Lemma aimed_same p q : p_sock q = p_sock p -> p_sel q = p_sel p -> aimed p -> aimed q.
Proof. unfold aimed. intros -> ->. auto. Qed.

Lemma load_sock s : p_sock (load s) = NoSocket.
Proof.
  unfold load. destruct (match s with Some x => x | None => ([], []) end) as [o n].
  match goal with |- p_sock (selected ?q) = _ => destruct (selected_area q) as (_ & _ & ->) end. reflexivity.
Qed.

Lemma step_aimed p v : aimed p -> steady v -> aimed (fst (step p v)) /\ arrives (snd (step p v)).
Proof.
  intros A V.
  assert (D : aimed (fst (send_document p)) /\ (p_mode p = Live -> arrives (snd (send_document p)))).
  { destruct (send_document_kept p) as (_ & _ & S & K & _). split; [apply (aimed_same p); assumption|].
    intros M. unfold send_document. destruct (p_sel p); [|exact I]. rewrite M. apply submit_now_arrives, A. }
  destruct v; try (destruct V); cbn [step]; try (split; [unfold aimed; cbn [fst]; rewrite load_sock; exact I|exact I]);
    (destruct (p_hung p); [split; [exact A|exact I]|]); cbn [fst snd]; try (split; [exact A|exact I]).
  - split; [|exact I]. destruct (p_sock p) eqn:K; try exact A. reflexivity.
  - split; [|exact I]. destruct (p_sock p) eqn:K; try exact A. unfold aimed in *. rewrite K in A. exact A.
  - split; [|exact I]. destruct (p_sock p) eqn:K; try exact A; exact I.
  - split; [|exact I]. destruct (p_sock p) eqn:K; try exact A. unfold aimed in *. rewrite K in A. exact A.
  - split; [|exact I]. destruct (p_sock p) eqn:K; try exact A; exact I.
  - destruct (p_mode p); try (split; [exact A|exact I]). destruct D as [D E]. split; [exact D|apply E; reflexivity].
  - split; [|apply submit_now_arrives, A]. destruct (submit_now_kept p) as (_ & _ & S & K & _). apply (aimed_same p); assumption.
  - unfold fire. destruct (p_waiting p); [split; [exact A|exact I]|]. split; [exact A|]. cbn [snd]. destruct (make p); [|exact I].
    destruct (send (p_sock p)); exact I.
  - destruct (press_is p k) as (q & o & E & F & O).
    assert (X : aimed q /\ arrives o).
    { destruct E as [E|[M E]]; [injection E as -> ->; split; [exact A|exact I]|]. rewrite <- E in D. destruct D as [D1 D2].
      split; [exact D1|exact (D2 M)]. }
    destruct X as [X Y]. split.
    + apply (aimed_same q); [unfold frame in F; congruence|unfold frame in F; congruence|exact X].
    + destruct O as [->|[-> _]]; [exact Y|exact I].
Qed.

Lemma run_aimed l : forall p, aimed p -> Forall steady l -> Forall arrives (run p l).
Proof.
  induction l as [|v l IH]; intros p A V; [constructor|]. inversion V; subst. rewrite run_cons. destruct (step_aimed p v A) as [B C]; [assumption|].
  constructor; [exact C|apply IH; assumption].
Qed.

(** ** Order *)

Lemma sent_in l : Forall immediate l -> forall d, In d (sent l) -> In d (made l).
Proof.
  intros F d I. unfold sent, made in *. apply in_flat_map in I as (o & O & I). apply in_flat_map. exists o. split; [exact O|].
  rewrite Forall_forall in F. specialize (F o O). destruct o as [|e [| |]| |e [| |]| | |]; cbn in *; try contradiction; auto.
Qed.
Lemma numbers_in id l n : In n (numbers id l) <-> exists d, In d l /\ d_id d = id /\ d_num d = n.
Proof.
  unfold numbers. rewrite in_map_iff. split.
  - intros (d & <- & I). apply filter_In in I as [I E]. apply String.eqb_eq in E. eauto.
  - intros (d & I & E & <-). exists d. split; [reflexivity|]. apply filter_In. rewrite E, String.eqb_refl. auto.
Qed.

Lemma sent_sorted id l : Forall immediate l -> StronglySorted lt (numbers id (made l)) -> StronglySorted lt (numbers id (sent l)).
Proof.
  induction l as [|o l IH]; intros F S; [constructor|]. inversion F as [|? ? F1 F2]; subst.
  assert (C : numbers id (sent (o :: l)) = (numbers id (sent [o]) ++ numbers id (sent l))%list)
    by (unfold sent; cbn [flat_map]; rewrite app_nil_r, numbers_app; reflexivity).
  rewrite made_cons, numbers_app in S. rewrite C. clear C.
  assert (K : numbers id (sent [o]) = numbers id (made [o]) \/ numbers id (sent [o]) = []).
  { destruct o as [|e [| |]| |e [| |]| | |]; cbn in F1; try contradiction; auto. }
  assert (T : StronglySorted lt (numbers id (made l))).
  { clear - S. induction (numbers id (made [o])) as [|a x IHx]; [exact S|]. inversion S; subst. auto. }
  specialize (IH F2 T). destruct K as [K|K]; rewrite K; [|exact IH].
  assert (L : List.length (numbers id (made [o])) <= 1).
  { destruct o; cbn in F1; try contradiction; cbn; try lia. unfold numbers. cbn. destruct (_ =? _); cbn; lia. }
  destruct (numbers id (made [o])) as [|n [|]]; [exact IH| |cbn in L; lia]. cbn [app] in *. inversion S as [|? ? _ Q]; subst. constructor; [exact IH|].
  rewrite Forall_forall in Q |- *. intros x X. apply Q. apply numbers_in in X as (d & D & E). apply numbers_in. exists d. split; [|exact E].
  apply sent_in; assumption.
Qed.
Lemma seq_sorted n k : StronglySorted lt (seq n k).
Proof.
  revert n. induction k as [|k IH]; intros n; cbn; [constructor|]. constructor; [apply IH|]. apply Forall_forall. intros x X. apply in_seq in X. lia.
Qed.

(** ** The list of received items *)

Lemma last_ten_snoc l i : last_ten (last_ten l ++ [i]) = last_ten (l ++ [i]).
Proof.
  unfold last_ten. set (k := List.length l - 10).
  transitivity (skipn (List.length (l ++ [i]) - 10) (firstn k l ++ (skipn k l ++ [i]))); [|rewrite app_assoc, firstn_skipn; reflexivity].
  rewrite (skipn_app (List.length (l ++ [i]) - 10) (firstn k l)).
  rewrite (skipn_all2 (firstn k l)) by (rewrite firstn_length, app_length; subst k; cbn [List.length]; lia). cbn [app]. f_equal.
  rewrite firstn_length, !app_length, skipn_length. subst k. cbn [List.length]. lia.
Qed.
Lemma feed_is sel l : forall f, f_items f = last_ten (f_items f) ->
  f_items (fold_left (receive sel) l f) = last_ten (f_items f ++ filter showable l).
Proof.
  induction l as [|i l IH]; intros f H; cbn [fold_left filter]; [rewrite app_nil_r; exact H|].
  assert (N : forall x, last_ten (last_ten x) = last_ten x).
  { intros x. unfold last_ten. rewrite skipn_length. replace (_ - _ - 10) with 0 by lia. reflexivity. }
  assert (A : forall x y, last_ten (last_ten x ++ y) = last_ten (x ++ y)).
  { intros x y. revert x. induction y as [|z y IHy]; intros x; [rewrite !app_nil_r; apply N|].
    change (z :: y) with ([z] ++ y)%list. rewrite !app_assoc, <- (IHy (x ++ [z])%list), <- last_ten_snoc, IHy. reflexivity. }
  destruct i as [s|[|]]; cbn [showable].
  - rewrite IH; cbn [receive f_items]; fold (last_ten (f_items f ++ [ADoc s])); [|symmetry; apply N]. rewrite A, <- app_assoc. reflexivity.
  - rewrite IH; cbn [receive f_items]; fold (last_ten (f_items f ++ [AMessage true])); [|symmetry; apply N]. rewrite A, <- app_assoc. reflexivity.
  - cbn [receive]. apply IH, H.
Qed.
