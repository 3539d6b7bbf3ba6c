(** Proofs for C49 and C50. *)

From Coq Require Import List ZArith String Ascii Bool QArith Lia Lqa Setoid.
From Verif Require Import IdModel TimingModel StyleModel StyleProofs StyleTree SegmentModel ConvertModel ConvertSpec
  ConvertProofs ConvertStyleSpec.
Import ListNotations.
Open Scope string_scope.
Open Scope Q_scope.

(** ** Generated styles *)

Lemma gen_lookup_eq : forall m v w, v == w -> gen_lookup v m = gen_lookup w m.
Proof.
  induction m as [|[u l] m IH]; intros v w E; auto. cbn.
  assert (B : Qeq_bool v u = Qeq_bool w u).
  { destruct (Qeq_bool v u) eqn:A, (Qeq_bool w u) eqn:B; auto.
    - apply Qeq_bool_eq in A. apply Qeq_bool_neq in B. exfalso. apply B. rewrite <- E. auto.
    - apply Qeq_bool_eq in B. apply Qeq_bool_neq in A. exfalso. apply A. rewrite E. auto. }
  rewrite B. destruct (Qeq_bool w u); auto.
Qed.

Lemma gen_find_lookup : forall v m, gen_find v m = match gen_lookup v m with Some _ => true | None => false end.
Proof. induction m as [|[w l] m IH]; auto. cbn. destruct (Qeq_bool v w); auto. Qed.

Lemma gen_lookup_app : forall v m m', gen_lookup v (m ++ m')%list = match gen_lookup v m with Some l => Some l | None => gen_lookup v m' end.
Proof. induction m as [|[w l] m IH]; intros m'; auto. cbn. destruct (Qeq_bool v w); auto. Qed.

Lemma gen_lookup_get : forall u v m, gen_lookup u (gen_get v m) =
  match gen_lookup u m with Some l => Some l | None => if Qeq_bool u v then Some None else None end.
Proof.
  intros u v m. unfold gen_get. rewrite gen_find_lookup. destruct (gen_lookup v m) as [l|] eqn:E.
  - destruct (gen_lookup u m) eqn:F; auto. destruct (Qeq_bool u v) eqn:B; auto. apply Qeq_bool_eq in B.
    rewrite (gen_lookup_eq m u v B) in F. congruence.
  - rewrite gen_lookup_app. cbn. auto.
Qed.

Lemma gen_lookup_line : forall u v h m, gen_lookup u (gen_line v h m) =
  match gen_lookup u m with Some l => if Qeq_bool u v then Some (Some h) else Some l | None => None end.
Proof.
  intros u v h. induction m as [|[w l] m IH]; auto. cbn. destruct (Qeq_bool v w) eqn:A; cbn.
  - destruct (Qeq_bool u w) eqn:B.
    + apply Qeq_bool_eq in A, B. assert (C : Qeq_bool u v = true) by (apply Qeq_bool_iff; rewrite B, A; reflexivity).
      rewrite C. auto.
    + destruct (gen_lookup u m) eqn:F; auto. destruct (Qeq_bool u v) eqn:C; auto. exfalso.
      apply Qeq_bool_eq in A, C. apply Qeq_bool_neq in B. apply B. rewrite C. auto.
  - destruct (Qeq_bool u w) eqn:B.
    + destruct (Qeq_bool u v) eqn:C; auto. exfalso. apply Qeq_bool_eq in B, C. apply Qeq_bool_neq in A. apply A.
      rewrite <- C. auto.
    + apply IH.
Qed.

(** ** One element *)

Lemma Qeq_bool_swap : forall a b, Qeq_bool a b = Qeq_bool b a.
Proof. intros a b. destruct (Qeq_bool a b) eqn:A, (Qeq_bool b a) eqn:B; auto.
  - apply Qeq_bool_eq in A. apply Qeq_bool_neq in B. exfalso. apply B. symmetry. auto.
  - apply Qeq_bool_eq in B. apply Qeq_bool_neq in A. exfalso. apply A. symmetry. auto.
Qed.

Lemma cells_eq_size : forall p f, f_unit p = Cell -> f_unit f = Cell -> cells_eq p f = size_eqb p f.
Proof.
  intros p f Up Uf. unfold cells_eq, size_eqb, both. rewrite Up, Uf.
  destruct (f_h p) as [x|], (f_h f) as [y|]; cbn [fst snd]; auto using andb_comm.
  all: destruct (Qeq_bool (f_v p) (f_v f)); auto.
Qed.

Lemma cells_div_units : forall f p v, cells_div f p = Some v -> f_unit f = Cell /\ f_unit p = Cell /\
  v = f_v f / f_v p * 100 /\ ~ f_v p == 0.
Proof.
  intros f p v H. unfold cells_div in H. destruct (f_unit f); try discriminate. destruct (f_unit p); try discriminate.
  assert (E : qdiv (f_v f) (f_v p) = Some v).
  { destruct (f_h f) as [x|], (f_h p) as [y|]; auto.
    all: match type of H with match ?q with _ => _ end = _ => destruct q; [exact H|discriminate] end. }
  unfold qdiv in E. destruct (Qeq_bool (f_v p) 0) eqn:B; [discriminate|]. inversion E. apply Qeq_bool_neq in B. auto.
Qed.

Lemma cells_eq_units : forall p f, cells_eq p f = true -> f_unit f = Cell /\ f_unit p = Cell.
Proof. intros p f H. unfold cells_eq in H. destruct (f_unit p), (f_unit f); try discriminate; auto. Qed.

(** What becomes of the style attribute and of the generated styles. *)
Definition change_of (k : ekind) (size : option fsize) (line : option lheight) (parent : option fsize) : list (Q * option Q) :=
  match against k parent, size with
  | Some p, Some f => if size_eqb p f then []
                      else [(f_v f / f_v p * 100, option_map (fun h => h / f_v f * 100) (cell_line line))]
  | _, _ => []
  end%Q.

Lemma changes_eq : forall around k i r st b e size line kids, changes around (FNode k i r st b e size line kids) =
  (change_of k size line around ++ flat_map (changes size) kids)%list.
Proof. reflexivity. Qed.

Lemma fix_font_inv : forall k size line parent st m st' m', fix_font k size line parent st m = COk (st', m') ->
  (k = P \/ k = Span -> exists f p, size = Some f /\ against k parent = Some p /\ f_unit f = Cell /\ f_unit p = Cell) /\
  ((change_of k size line parent = [] /\ changed k parent size = false /\ st' = st /\ m' = m) \/
   (exists f p v l, size = Some f /\ against k parent = Some p /\ change_of k size line parent = [(v, l)] /\
      changed k parent size = true /\ v = (f_v f / f_v p * 100)%Q /\ ~ f_v p == 0 /\
      l = option_map (fun h => (h / f_v f * 100)%Q) (cell_line line) /\
      (cell_line line <> None -> ~ f_v f == 0) /\
      style_refs st' = Gen v :: style_refs st /\
      m' = match l with Some h => gen_line v h (gen_get v m) | None => gen_get v m end)).
Proof.
  intros k size line parent st m st' m' H.
  assert (W : forall ag, against k parent = ag -> (k = P \/ k = Span) ->
    match size, ag with
    | Some f, Some p =>
        if cells_eq p f then COk (st, m)
        else match cells_div f p with
             | None => CErr SizeErr
             | Some v =>
                 let m1 := gen_get v m in
                 let st1 := match st with None => Some [Gen v] | Some l => Some (Gen v :: l) end in
                 match line with
                 | Some (LSize Cell h) =>
                     match qdiv h (f_v f) with
                     | Some r => COk (st1, gen_line v r m1)
                     | None => CErr SizeErr
                     end
                 | _ => COk (st1, m1)
                 end
             end
    | _, _ => CErr SizeErr
    end = COk (st', m') ->
  (k = P \/ k = Span -> exists f p, size = Some f /\ against k parent = Some p /\ f_unit f = Cell /\ f_unit p = Cell) /\
  ((change_of k size line parent = [] /\ changed k parent size = false /\ st' = st /\ m' = m) \/
   (exists f p v l, size = Some f /\ against k parent = Some p /\ change_of k size line parent = [(v, l)] /\
      changed k parent size = true /\ v = (f_v f / f_v p * 100)%Q /\ ~ f_v p == 0 /\
      l = option_map (fun h => (h / f_v f * 100)%Q) (cell_line line) /\
      (cell_line line <> None -> ~ f_v f == 0) /\
      style_refs st' = Gen v :: style_refs st /\
      m' = match l with Some h => gen_line v h (gen_get v m) | None => gen_get v m end))).
  { clear H. intros ag A K H. unfold change_of, changed. rewrite A.
    destruct size as [f|]; [|discriminate]. destruct ag as [p|]; [|discriminate].
    destruct (cells_eq p f) eqn:E.
    - destruct (cells_eq_units _ _ E) as [Uf Up]. inversion H; subst. rewrite (cells_eq_size _ _ Up Uf) in E. rewrite E.
      split; [intros _; exists f, p; auto|]. left. auto.
    - destruct (cells_div f p) as [v|] eqn:D; [|discriminate]. apply cells_div_units in D. destruct D as (Uf & Up & Ev & Nz).
      rewrite (cells_eq_size _ _ Up Uf) in E. rewrite E. split; [intros _; exists f, p; auto|]. right.
      exists f, p, v, (option_map (fun h => (h / f_v f * 100)%Q) (cell_line line)).
      split; [auto|]. split; [auto|]. split; [rewrite Ev; auto|]. split; [auto|]. split; [auto|]. split; [auto|]. split; [auto|].
      destruct line as [[|[| |] h]|]; cbn [cell_line option_map] in *;
        try (inversion H; subst; split; [congruence|]; split; [destruct st; auto|auto]; fail).
      unfold qdiv in H. destruct (Qeq_bool (f_v f) 0) eqn:B; [discriminate|]. apply Qeq_bool_neq in B.
      inversion H; subst. split; [auto|]. split; [destruct st; auto|auto]. }
  destruct k; cbn [fix_font] in H.
  - inversion H; subst. split; [intros [|]; discriminate|]. left. auto.
  - inversion H; subst. split; [intros [|]; discriminate|]. left. auto.
  - apply (W (Some one_cell)); auto.
  - apply (W parent); auto.
Qed.

(** ** The generated styles at the end *)

Definition matches (all : list (Q * option Q)) (m : gens) : Prop :=
  forall v, match gen_lookup v m with
            | None => forall w l, In (w, l) all -> ~ v == w
            | Some l => exists w l', In (w, l') all /\ v == w /\ same_line l l'
            end.

(** Without coherence: every change has its style. *)
Definition present (all : list (Q * option Q)) (m : gens) : Prop :=
  forall v l, In (v, l) all -> gen_lookup v m <> None.

Lemma present_nil : forall m, present [] m.
Proof. intros m v l []. Qed.

Lemma present_app : forall a b m, present a m -> present b m -> present (a ++ b)%list m.
Proof. intros a b m A B v l H. apply in_app_or in H. destruct H; eauto. Qed.

Definition grows (m m' : gens) : Prop := forall v, gen_lookup v m <> None -> gen_lookup v m' <> None.

Lemma grows_present : forall a m m', grows m m' -> present a m -> present a m'.
Proof. intros a m m' G P v l H. apply G. eapply P. eauto. Qed.

Lemma fix_font_grows : forall k size line parent st m st' m', fix_font k size line parent st m = COk (st', m') ->
  grows m m' /\ present (change_of k size line parent) m'.
Proof.
  intros k size line parent st m st' m' H. apply fix_font_inv in H as [_ [(C & _ & _ & ->)|H]].
  - rewrite C. split; [intros v; auto|apply present_nil].
  - destruct H as (f & p & v & l & _ & _ & C & _ & _ & _ & _ & _ & _ & ->). rewrite C. split.
    + intros u U. destruct l; rewrite ?gen_lookup_line, gen_lookup_get; destruct (gen_lookup u m); try congruence.
      destruct (Qeq_bool u v); discriminate.
    + intros u x [E|[]]. inversion E; subst u x.
      assert (B : Qeq_bool v v = true) by (apply Qeq_bool_iff; reflexivity).
      destruct l; rewrite ?gen_lookup_line, gen_lookup_get, ?B; destruct (gen_lookup v m); discriminate.
Qed.

Lemma convert_present : forall c bs n parent m d m', convert c bs parent n m = COk (d, m') ->
  grows m m' /\ present (changes parent n) m'.
Proof.
  intros c bs. induction n as [s| |k i r st b e sz ln kids IH] using fnode_ind'; intros parent m d m' H.
  - inversion H; subst. split; [intros v; auto|apply present_nil].
  - inversion H; subst. split; [intros v; auto|apply present_nil].
  - apply convert_inv in H. destruct H as (ks & m1 & b' & e' & st' & E1 & _ & _ & _ & E5 & _).
    assert (A : grows m m1 /\ present (flat_map (changes sz) kids) m1).
    { clear E5. revert m ks m1 E1. induction IH as [|x l Hx Hl IHl]; intros m ks m1 E1.
      - inversion E1; subst. split; [intros v; auto|apply present_nil].
      - apply convert_all_inv in E1. destruct E1 as (d1 & ds & m2 & X1 & X2 & _).
        destruct (Hx _ _ _ _ X1) as [G1 P1]. destruct (IHl _ _ _ X2) as [G2 P2]. split; [intros v; auto|].
        cbn [flat_map]. apply present_app; auto. eapply grows_present; eauto. }
    destruct A as [G1 P1]. destruct (fix_font_grows _ _ _ _ _ _ _ _ E5) as [G2 P2]. split; [intros v; auto|].
    rewrite changes_eq. apply present_app; auto. eapply grows_present; eauto.
Qed.

Lemma convert_all_present : forall c bs l parent m ds m', convert_all c bs parent l m = COk (ds, m') ->
  grows m m' /\ present (flat_map (changes parent) l) m'.
Proof.
  intros c bs. induction l as [|x l IH]; intros parent m ds m' H.
  - inversion H; subst. split; [intros v; auto|apply present_nil].
  - apply convert_all_inv in H. destruct H as (d & ds' & m1 & E1 & E2 & _).
    apply convert_present in E1. destruct E1 as [G1 P1]. apply IH in E2. destruct E2 as [G2 P2].
    split; [intros v; auto|]. cbn [flat_map]. apply present_app; auto. eapply grows_present; eauto.
Qed.

(** With coherence: the style has the line height of every change. *)
Lemma same_line_sym : forall a b, same_line a b -> same_line b a.
Proof. intros [x|] [y|]; cbn; auto. intros E. symmetry. auto. Qed.
Lemma same_line_trans : forall a b c, same_line a b -> same_line b c -> same_line a c.
Proof. intros [x|] [y|] [z|]; cbn; try tauto. intros E F. rewrite E. auto. Qed.
Lemma same_line_refl : forall a, same_line a a.
Proof. intros [x|]; cbn; auto. reflexivity. Qed.

Lemma matches_step : forall all done m v l, coherent all -> incl ((v, l) :: done) all -> matches done m ->
  matches ((v, l) :: done) (match l with Some h => gen_line v h (gen_get v m) | None => gen_get v m end).
Proof.
  intros all done m v l C I M u. specialize (M u).
  assert (Hd : forall w x, In (w, x) ((v, l) :: done) -> v == w -> same_line l x)
    by (intros w x Hin E; apply (C v w l x); auto; apply I; cbn; auto).
  destruct (Qeq_bool u v) eqn:B.
  - apply Qeq_bool_eq in B.
    destruct l as [h|].
    + rewrite gen_lookup_line, gen_lookup_get. assert (B' : Qeq_bool u v = true) by (apply Qeq_bool_iff; auto). rewrite B'.
      destruct (gen_lookup u m); exists v, (Some h); (split; [left; auto|split; [auto|apply same_line_refl]]).
    + rewrite gen_lookup_get. assert (B' : Qeq_bool u v = true) by (apply Qeq_bool_iff; auto). rewrite B'.
      destruct (gen_lookup u m) as [x|].
      * destruct M as (w & y & Hin & E & S). exists w, y. split; [right; auto|]. auto.
      * exists v, None. split; [left; auto|]. split; [auto|exact Logic.I].
  - assert (N : ~ u == v) by (apply Qeq_bool_neq; auto).
    assert (G : gen_lookup u (match l with Some h => gen_line v h (gen_get v m) | None => gen_get v m end) = gen_lookup u m).
    { destruct l; rewrite ?gen_lookup_line, gen_lookup_get, ?B; destruct (gen_lookup u m); auto. }
    rewrite G. destruct (gen_lookup u m) as [x|].
    + destruct M as (w & y & Hin & E & S). exists w, y. split; [right; auto|]. auto.
    + intros w x [E|Hin]; [inversion E; subst; auto|eauto].
Qed.

Lemma matches_incl : forall a b m, matches a m -> (forall x, In x a <-> In x b) -> matches b m.
Proof.
  intros a b m M E v. specialize (M v). destruct (gen_lookup v m).
  - destruct M as (w & l & Hin & R). exists w, l. rewrite <- E. auto.
  - intros w l Hin. apply M with l. apply E. auto.
Qed.

Lemma fix_font_matches : forall all done k size line parent st m st' m', coherent all ->
  incl (change_of k size line parent ++ done) all -> matches done m ->
  fix_font k size line parent st m = COk (st', m') -> matches (change_of k size line parent ++ done) m'.
Proof.
  intros all done k size line parent st m st' m' C I M H. apply fix_font_inv in H as [_ [(Ch & _ & _ & ->)|H]].
  - rewrite Ch. auto.
  - destruct H as (f & p & v & l & _ & _ & Ch & _ & _ & _ & _ & _ & _ & ->). rewrite Ch in *. cbn [app] in *.
    eapply matches_step; eauto.
Qed.

Lemma incl_mid : forall (A : Type) (a b c all : list A), incl ((a ++ b) ++ c) all -> incl (b ++ c) all /\ incl (a ++ b ++ c) all.
Proof. intros A a b c all I. rewrite app_assoc. split; auto. intros x Hx. apply I. rewrite !in_app_iff in *. tauto. Qed.

Lemma convert_matches : forall c bs all, coherent all -> forall n parent done m d m',
  convert c bs parent n m = COk (d, m') -> incl (changes parent n ++ done) all -> matches done m ->
  matches (changes parent n ++ done) m'.
Proof.
  intros c bs all C. induction n as [s| |k i r st b e sz ln kids IH] using fnode_ind'; intros parent done m d m' H I M.
  - inversion H; subst. auto.
  - inversion H; subst. auto.
  - apply convert_inv in H. destruct H as (ks & m1 & b' & e' & st' & E1 & _ & _ & _ & E5 & _).
    rewrite changes_eq in *. apply incl_mid in I. destruct I as [I1 I2].
    assert (A : matches (flat_map (changes sz) kids ++ done) m1).
    { clear E5 I2. revert done m ks m1 E1 I1 M. induction IH as [|x l Hx Hl IHl]; intros done m ks m1 E1 I1 M.
      - inversion E1; subst. auto.
      - apply convert_all_inv in E1. destruct E1 as (d1 & ds & m2 & X1 & X2 & _). cbn [flat_map] in *.
        assert (M2 : matches (changes sz x ++ done) m2).
        { eapply Hx; eauto. intros y Hy. apply I1. rewrite !in_app_iff in *. tauto. }
        apply (matches_incl (flat_map (changes sz) l ++ changes sz x ++ done)).
        + eapply IHl; eauto. intros y Hy. apply I1. rewrite !in_app_iff in *. tauto.
        + intros y. rewrite !in_app_iff. tauto. }
    rewrite <- app_assoc. eapply fix_font_matches; eauto.
Qed.

Lemma convert_all_matches : forall c bs all, coherent all -> forall l parent done m ds m',
  convert_all c bs parent l m = COk (ds, m') -> incl (flat_map (changes parent) l ++ done) all -> matches done m ->
  matches (flat_map (changes parent) l ++ done) m'.
Proof.
  intros c bs all C. induction l as [|x l IHl]; intros parent done m ds m' E1 I1 M.
  - inversion E1; subst. auto.
  - apply convert_all_inv in E1. destruct E1 as (d1 & ds' & m2 & X1 & X2 & _). cbn [flat_map] in *.
    assert (M2 : matches (changes parent x ++ done) m2).
    { eapply convert_matches; eauto. intros y Hy. apply I1. rewrite !in_app_iff in *. tauto. }
    apply (matches_incl (flat_map (changes parent) l ++ changes parent x ++ done)).
    + eapply IHl; eauto. intros y Hy. apply I1. rewrite !in_app_iff in *. tauto.
    + intros y. rewrite !in_app_iff. tauto.
Qed.

(** ** Sizes and line heights of the result *)

Definition sizeless (dd : ddoc) : Prop :=
  forall i s, dict_get (dd_styles dd) i = Some s -> fontSize s = None /\ lineHeight s = None.

Lemma own_size_none : forall dd st, sizeless dd -> nearest (map (ref_size dd) (map Own st)) = None.
Proof.
  intros dd st S. induction st as [|i st IH]; auto. cbn. destruct (dict_get (dd_styles dd) i) as [s|] eqn:E; auto.
  rewrite (proj1 (S _ _ E)). auto.
Qed.
Lemma own_line_none : forall dd st, sizeless dd -> nearest (map (ref_line dd) (map Own st)) = None.
Proof.
  intros dd st S. induction st as [|i st IH]; auto. cbn. destruct (dict_get (dd_styles dd) i) as [s|] eqn:E; auto.
  rewrite (proj2 (S _ _ E)). auto.
Qed.
Lemma own_refs : forall st, style_refs (option_map (map Own) st) = map Own (refs st).
Proof. destruct st; auto. Qed.

Definition sizes_agree (x : Q) (y : option Q) : Prop := exists v, y = Some v /\ x == v.

(** [around] is the size the result gives to the element around, where the
    source has [parent]. *)
Definition fits_around (around : Q) (k : ekind) (parent : option fsize) : Prop :=
  match k with
  | Span => exists p, parent = Some p /\ around == f_v p
  | _ => around == 1
  end.

(** With the generated styles as they are at the end. *)
Lemma d_size_here : forall dd k size line parent st m st' m' around,
  fix_font k size line parent (option_map (map Own) st) m = COk (st', m') -> sizeless dd ->
  present (change_of k size line parent) (dd_gens dd) ->
  (forall f p, size = Some f -> against k parent = Some p -> around == f_v p) ->
  match k with
  | P | Span => exists f, size = Some f /\ d_size dd around st' == f_v f
  | _ => d_size dd around st' = around
  end.
Proof.
  intros dd k size line parent st m st' m' around H S Pr A. apply fix_font_inv in H as [K [(C & Cd & -> & ->)|H]].
  - unfold d_size. rewrite own_refs, own_size_none by auto. destruct k; auto.
    + destruct K as (f & p & -> & E & Uf & Up); auto. exists f. split; auto.
      unfold change_of in C. rewrite E in C. destruct (size_eqb p f) eqn:B; [|discriminate].
      rewrite (A f p) by auto. unfold size_eqb in B. apply andb_true_iff in B. destruct B as [_ B]. apply Qeq_bool_eq in B. exact B.
    + destruct K as (f & p & -> & E & Uf & Up); auto. exists f. split; auto.
      unfold change_of in C. rewrite E in C. destruct (size_eqb p f) eqn:B; [|discriminate].
      rewrite (A f p) by auto. unfold size_eqb in B. apply andb_true_iff in B. destruct B as [_ B]. apply Qeq_bool_eq in B. exact B.
  - destruct H as (f & p & v & l & Ef & Ep & C & _ & Ev & Nz & _ & _ & Sr & _).
    assert (L : gen_lookup v (dd_gens dd) <> None) by (eapply Pr; rewrite C; left; eauto).
    assert (D : d_size dd around st' == f_v f).
    { unfold d_size. rewrite Sr. cbn [map nearest ref_size]. destruct (gen_lookup v (dd_gens dd)); [|congruence].
      rewrite Ev, (A f p) by auto. field. auto. }
    destruct k; [discriminate|discriminate|exists f; auto|exists f; auto].
Qed.

Lemma kid_kind : forall c bs parent x m d m' k, convert c bs parent x m = COk (d, m') -> accepts k d = true -> fits_d k x = true.
Proof. intros c bs parent x m d m' k H A. rewrite <- (accepts_fits _ _ _ _ _ _ _ _ H). auto. Qed.

Lemma fits_p : forall k n, fits_d k n = true -> (k = Body \/ k = Div) ->
  exists k' i r st b e sz ln kids, n = FNode k' i r st b e sz ln kids /\ k' <> Span.
Proof.
  intros k n F [-> | ->]; destruct n as [| |[| | |]]; cbn in F; try discriminate.
  all: repeat eexists; discriminate.
Qed.

(** Induction over the tree, for both. *)
Lemma convert_sizes : forall c bs dd, sizeless dd -> forall n parent m d m' around,
  convert c bs parent n m = COk (d, m') -> present (changes parent n) (dd_gens dd) ->
  match n with FNode k _ _ _ _ _ _ _ _ => fits_around around k parent | _ => True end ->
  Forall2 sizes_agree (dsizes dd around d) (fsizes n) /\
  ((forall v l, In (v, l) (changes parent n) -> exists x, gen_lookup v (dd_gens dd) = Some x /\ same_line x l) ->
   Forall2 same_line (dlines dd around d) (flines parent n)).
Proof.
  intros c bs dd S. induction n as [s| |k i r st b e sz ln kids IH] using fnode_ind'; intros parent m d m' around H Pr Fa.
  - inversion H; subst. cbn. split; auto.
  - inversion H; subst. cbn. split; auto.
  - apply convert_inv in H. destruct H as (ks & m1 & b' & e' & st' & E1 & _ & _ & E4 & E5 & ->).
    rewrite changes_eq in Pr.
    assert (Pr1 : present (change_of k sz ln parent) (dd_gens dd)) by (intros v l Hin; eapply Pr; apply in_or_app; left; eauto).
    assert (Pr2 : present (flat_map (changes sz) kids) (dd_gens dd)) by (intros v l Hin; eapply Pr; apply in_or_app; right; eauto).
    assert (Ag : forall f p, sz = Some f -> against k parent = Some p -> around == f_v p).
    { intros f p _ Ep. destruct k; cbn in Ep, Fa; try discriminate.
      - inversion Ep; subst. auto.
      - destruct Fa as (q & Eq & Eq'). congruence. }
    assert (D := d_size_here dd k sz ln parent st m1 st' m' around E5 S Pr1 Ag).
    set (here := d_size dd around st') in *.
    assert (Kf : forall x, In x kids -> match x with FNode k' _ _ _ _ _ _ _ _ => fits_around here k' sz | _ => True end).
    { intros x Hx. rewrite (accepts_all _ _ k _ _ _ _ _ E1) in E4. rewrite Forall_forall in E4. specialize (E4 _ Hx).
      destruct x as [| |k' ? ? ? ? ? ? ? ?]; auto. destruct k, k'; cbn in E4; try discriminate; cbn [fits_around] in *.
      - rewrite D. auto.
      - rewrite D. auto.
      - destruct D as (f & -> & D). eauto. }
    assert (A : Forall2 sizes_agree (flat_map (dsizes dd here) ks) (flat_map fsizes kids) /\
      ((forall v l, In (v, l) (flat_map (changes sz) kids) -> exists x, gen_lookup v (dd_gens dd) = Some x /\ same_line x l) ->
       Forall2 same_line (flat_map (dlines dd here) ks) (flat_map (flines sz) kids))).
    { clear E4 E5 Pr Pr1 D Fa. revert m ks m1 E1 Kf Pr2. induction IH as [|x l Hx Hl IHl]; intros m ks m1 E1 Kf Pr2.
      - inversion E1; subst. cbn. split; auto.
      - apply convert_all_inv in E1. destruct E1 as (d1 & ds & m2 & X1 & X2 & ->). cbn [flat_map] in *.
        assert (Px : present (changes sz x) (dd_gens dd)) by (intros v y Hin; eapply Pr2; apply in_or_app; left; eauto).
        assert (Pl : present (flat_map (changes sz) l) (dd_gens dd)) by (intros v y Hin; eapply Pr2; apply in_or_app; right; eauto).
        destruct (Hx _ _ _ _ here X1 Px (Kf x (or_introl eq_refl))) as [S1 L1].
        destruct (IHl _ _ _ X2 (fun y Hy => Kf y (or_intror Hy)) Pl) as [S2 L2].
        split; [apply Forall2_app; auto|]. intros G. apply Forall2_app.
        + apply L1. intros v y Hin. apply G. apply in_or_app. auto.
        + apply L2. intros v y Hin. apply G. apply in_or_app. auto. }
    destruct A as [A1 A2]. cbn [dsizes fsizes dlines flines]. fold here. split.
    + apply Forall2_app; auto. destruct k; auto.
      all: destruct D as (f & -> & D); constructor; auto; exists (f_v f); auto.
    + intros G. rewrite changes_eq in G. apply Forall2_app.
      2:{ apply A2. intros v y Hin. apply G. apply in_or_app. auto. }
      assert (Ln : k = P \/ k = Span -> same_line (option_map (fun r : Q => (here * r / 100)%Q) (nearest (map (ref_line dd) (style_refs st'))))
                     (if changed k parent sz then cell_line ln else None)).
      { intros Kk. assert (E5' := E5). apply fix_font_inv in E5' as [_ [(C & Cd & -> & _)|X]].
        - rewrite own_refs, own_line_none, Cd by auto. exact I.
        - destruct X as (f & p & v & l & Ef & Ep & C & Cd & Ev & Nz & El & Nf & Sr & _). rewrite Cd, Sr.
          destruct (G v l) as (x & Gx & Sx); [apply in_or_app; left; rewrite C; left; auto|].
          cbn [map ref_line]. rewrite Gx. rewrite nearest_cons, own_refs, own_line_none, or_else_none by auto.
          assert (Dh : here == f_v f) by (destruct Kk as [-> | ->]; destruct D as (f' & Ef' & D); congruence).
          rewrite El in Sx. destruct (cell_line ln) as [h|]; destruct x as [q|]; cbn in Sx |- *; try tauto.
          rewrite Sx, Dh. field. apply Nf. discriminate. }
      destruct k; auto.
Qed.

Lemma convert_all_sizes : forall c bs dd, sizeless dd -> forall l m ds m',
  convert_all c bs None l m = COk (ds, m') -> forallb (accepts Body) ds = true ->
  present (flat_map (changes None) l) (dd_gens dd) ->
  Forall2 sizes_agree (flat_map (dsizes dd 1) ds) (flat_map fsizes l) /\
  ((forall v x, In (v, x) (flat_map (changes None) l) -> exists y, gen_lookup v (dd_gens dd) = Some y /\ same_line y x) ->
   Forall2 same_line (flat_map (dlines dd 1) ds) (flat_map (flines None) l)).
Proof.
  intros c bs dd S. induction l as [|x l IH]; intros m ds m' H Ac Pr.
  - inversion H; subst. cbn. split; auto.
  - apply convert_all_inv in H. destruct H as (d1 & ds' & m2 & X1 & X2 & ->). cbn [flat_map forallb] in *.
    apply andb_true_iff in Ac. destruct Ac as [Ac1 Ac2].
    assert (Px : present (changes None x) (dd_gens dd)) by (intros v y Hin; eapply Pr; apply in_or_app; left; eauto).
    assert (Pl : present (flat_map (changes None) l) (dd_gens dd)) by (intros v y Hin; eapply Pr; apply in_or_app; right; eauto).
    assert (Fx := kid_kind _ _ _ _ _ _ _ _ X1 Ac1).
    assert (Fa : match x with FNode k _ _ _ _ _ _ _ _ => fits_around 1 k None | _ => True end).
    { destruct x as [| |[| | |] ? ? ? ? ? ? ? ?]; cbn in Fx |- *; try discriminate. reflexivity. }
    destruct (convert_sizes c bs dd S x None m d1 m2 1 X1 Px Fa) as [S1 L1]. destruct (IH _ _ _ X2 Ac2 Pl) as [S2 L2].
    split; [apply Forall2_app; auto|]. intros G. apply Forall2_app.
    + apply L1. intros v y Hin. apply G. apply in_or_app. auto.
    + apply L2. intros v y Hin. apply G. apply in_or_app. auto.
Qed.

Lemma convert_styling_sizeless : forall l i s, dict_get (convert_styling l) i = Some s -> fontSize s = None /\ lineHeight s = None.
Proof.
  assert (A : forall l i s, dict_get (map (fun p : string * style_el => (fst p, convert_style (snd p))) l) i = Some s ->
                fontSize s = None /\ lineHeight s = None).
  { induction l as [|[j x] l IH]; intros i s H; cbn in H; [discriminate|]. destruct (String.eqb i j); eauto.
    inversion H; subst. cbn. auto. }
  intros [[|x l]|] i s H; unfold convert_styling in H; eauto.
  - cbn in H. destruct (String.eqb i "style.default"); inversion H; subst; auto.
  - cbn in H. destruct (String.eqb i "style.default"); inversion H; subst; auto.
Qed.

Lemma convert_document_inv : forall c d dd, convert_document c d = COk dd ->
  dd_styles dd = convert_styling (fd_styling d) /\ dd_layout dd = convert_layout (fd_layout d) /\
  ((exists ks, dd_body dd = Some ks /\ convert_all c (fd_base d) None (fkids d) [] = COk (ks, dd_gens dd) /\
      forallb (accepts Body) ks = true) \/
   (dd_body dd = None /\ dd_gens dd = [] /\ existsb is_div (fkids d) = false)).
Proof.
  intros c d dd H. unfold convert_document in H. unfold fkids. destruct (fd_body d) as [b|].
  - unfold convert_body in H. destruct (existsb is_div (fb_kids b)) eqn:E.
    + destruct (convert_all c (fd_base d) None (fb_kids b) []) as [[ks m]|] eqn:E1; cbn [cbind] in H; [|discriminate].
      destruct (forallb (accepts Body) ks) eqn:E2; cbn [cbind] in H; [|discriminate]. inversion H; subst. cbn.
      split; auto. split; auto. left. exists ks. auto.
    + cbn [cbind] in H. inversion H; subst. cbn. auto 10.
  - cbn [cbind] in H. inversion H; subst. cbn. auto 10.
Qed.

(** ** No style is made twice, none without use *)

Lemma gen_find_keys : forall v m, gen_find v m = true -> exists w l, In (w, l) m /\ v == w.
Proof.
  intros v. induction m as [|[w l] m IH]; intros H; [discriminate|]. cbn in H. destruct (Qeq_bool v w) eqn:B.
  - apply Qeq_bool_eq in B. exists w, l. split; [left|]; auto.
  - destruct (IH H) as (x & y & Hi & E). exists x, y. split; [right|]; auto.
Qed.

Lemma gen_find_none : forall v m, gen_find v m = false -> Forall (fun p => ~ v == fst p) m.
Proof.
  intros v. induction m as [|[w l] m IH]; intros H; constructor; cbn in H; destruct (Qeq_bool v w) eqn:B; try discriminate; auto.
  apply Qeq_bool_neq in B. auto.
Qed.

Lemma distinct_app : forall m v l, distinct m -> Forall (fun p => ~ v == fst p) m -> distinct (m ++ [(v, l)])%list.
Proof.
  intros m v l D. induction D as [|x m Hx D IH]; intros F; cbn.
  - repeat constructor.
  - inversion F as [|? ? Fx Fm]; subst. constructor; [|apply IH; auto]. apply Forall_app. split; auto. repeat constructor. cbn. intros E. apply Fx.
    symmetry. auto.
Qed.

Lemma gen_line_keys : forall v h m, map fst (gen_line v h m) = map fst m.
Proof. intros v h. induction m as [|[w l] m IH]; auto. cbn. destruct (Qeq_bool v w); cbn; f_equal; auto. Qed.

Lemma distinct_keys : forall m m', map fst m = map fst m' -> distinct m -> distinct m'.
Proof.
  intros m m' E D. revert m' E. induction D as [|x m Hx D IH]; intros [|y m'] E; try discriminate; [constructor|].
  inversion E as [[E1 E2]]. constructor; [|apply IH; auto]. rewrite Forall_forall in *. intros z Hz.
  apply (in_map fst) in Hz. rewrite <- E2 in Hz. apply in_map_iff in Hz. destruct Hz as (z' & <- & Hz). rewrite <- E1. auto.
Qed.

Lemma gen_get_tidy : forall v m, distinct m -> distinct (gen_get v m) /\
  (forall x, In x (map fst (gen_get v m)) -> In x (map fst m) \/ x = v).
Proof.
  intros v m D. unfold gen_get. destruct (gen_find v m) eqn:F; [split; auto|]. apply gen_find_none in F. split.
  - apply distinct_app; auto.
  - intros x Hx. rewrite map_app in Hx. apply in_app_or in Hx. destruct Hx as [Hx|[Hx|[]]]; auto.
Qed.

Lemma convert_tidy : forall c bs n parent m d m', convert c bs parent n m = COk (d, m') -> distinct m ->
  distinct m' /\ forall x, In x (map fst m') -> In x (map fst m) \/ In (Gen x) (drefs d).
Proof.
  intros c bs. induction n as [s| |k i r st b e sz ln kids IH] using fnode_ind'; intros parent m d m' H D.
  1, 2: inversion H; subst; auto.
  apply convert_inv in H. destruct H as (ks & m1 & b' & e' & st' & E1 & _ & _ & _ & E5 & ->).
  assert (A : distinct m1 /\ forall x, In x (map fst m1) -> In x (map fst m) \/ In (Gen x) (flat_map drefs ks)).
  { clear E5. revert m ks m1 E1 D. induction IH as [|x l Hx Hl IHl]; intros m ks m1 E1 D.
    - inversion E1; subst. auto.
    - apply convert_all_inv in E1. destruct E1 as (d1 & ds & m2 & X1 & X2 & ->).
      destruct (Hx _ _ _ _ X1 D) as [G1 P1]. destruct (IHl _ _ _ X2 G1) as [G2 P2]. split; auto.
      intros y Hy. cbn [flat_map]. rewrite in_app_iff. destruct (P2 _ Hy) as [Q|Q]; auto. destruct (P1 _ Q); auto. }
  destruct A as [D1 P1]. apply fix_font_inv in E5 as [_ [(_ & _ & -> & ->)|E5]].
  - split; auto. intros x Hx. cbn [drefs]. rewrite in_app_iff. destruct (P1 _ Hx); auto.
  - destruct E5 as (f & p & v & l & _ & _ & _ & _ & _ & _ & _ & _ & S & ->).
    destruct (gen_get_tidy v m1 D1) as [D2 P2].
    assert (K : map fst (match l with Some h => gen_line v h (gen_get v m1) | None => gen_get v m1 end) = map fst (gen_get v m1))
      by (destruct l; auto using gen_line_keys).
    split; [eapply distinct_keys; [symmetry; exact K|exact D2]|]. intros x Hx.
    assert (Hx' : In x (map fst (gen_get v m1))) by (rewrite <- K; exact Hx). clear Hx. rename Hx' into Hx. cbn [drefs]. rewrite in_app_iff, S.
    destruct (P2 _ Hx) as [Q|Q]; [|subst; right; left; left; reflexivity]. destruct (P1 _ Q); auto.
Qed.

Lemma convert_all_tidy : forall c bs l parent m ds m', convert_all c bs parent l m = COk (ds, m') -> distinct m ->
  distinct m' /\ forall x, In x (map fst m') -> In x (map fst m) \/ In (Gen x) (flat_map drefs ds).
Proof.
  intros c bs. induction l as [|x l IH]; intros parent m ds m' H D.
  - inversion H; subst. auto.
  - apply convert_all_inv in H. destruct H as (d & ds' & m1 & E1 & E2 & ->).
    destruct (convert_tidy _ _ _ _ _ _ _ E1 D) as [D1 P1]. destruct (IH _ _ _ _ E2 D1) as [D2 P2]. split; auto.
    intros y Hy. cbn [flat_map]. rewrite in_app_iff. destruct (P2 _ Hy) as [Q|Q]; auto. destruct (P1 _ Q); auto.
Qed.
