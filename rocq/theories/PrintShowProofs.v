(** Proofs about what is shown of documents written and read. *)

From Coq Require Import List String Ascii Bool Arith Lia.
From Verif Require Import PrintModel PrintSpec PrintProofs.
Import ListNotations.
Open Scope string_scope.

(** ** Lines *)

Definition after (st : state) (i : item) : state :=
  match i with
  | X _ => Mid
  | Bk => Start
  | Sp => match st with Start => Start | _ => Pend end
  end.
Definition final (st : state) (l : list item) : state := fold_left after l st.

Lemma norm_app : forall l l' st, norm st (l ++ l') = (norm st l ++ norm (final st l) l')%list.
Proof.
  induction l as [|[c| |] r IH]; intros l' st; cbn [app norm final fold_left after].
  - reflexivity.
  - rewrite IH, <- app_assoc. reflexivity.
  - apply IH.
  - rewrite IH. reflexivity.
Qed.
Lemma final_app : forall l l' st, final st (l ++ l') = final (final st l) l'.
Proof. intros. apply fold_left_app. Qed.

(** Lists of items that are shown alike wherever they stand. *)
Definition alike (l l' : list item) : Prop :=
  forall st, norm st l = norm st l' /\ final st l = final st l'.
Lemma alike_refl : forall l, alike l l.
Proof. intros l st. split; reflexivity. Qed.
Lemma alike_sym : forall a b, alike a b -> alike b a.
Proof. intros a b H st. destruct (H st) as [A B]. split; symmetry; assumption. Qed.
Lemma alike_trans : forall a b c, alike a b -> alike b c -> alike a c.
Proof.
  intros a b c H K st. destruct (H st) as [A B]. destruct (K st) as [C D].
  split; [rewrite A; exact C|rewrite B; exact D].
Qed.
Lemma alike_app : forall a a' b b', alike a a' -> alike b b' -> alike (a ++ b) (a' ++ b').
Proof.
  intros a a' b b' H K st. destruct (H st) as [A B]. rewrite !norm_app, !final_app, A, B.
  destruct (K (final st a')) as [C D]. rewrite C, D. split; reflexivity.
Qed.
Lemma alike_cons : forall i a b, alike a b -> alike (i :: a) (i :: b).
Proof. intros i a b H. apply (alike_app [i] [i] a b (alike_refl _) H). Qed.
Lemma alike_sp2 : alike [Sp; Sp] [Sp].
Proof. intros [| |]; split; reflexivity. Qed.
Lemma alike_sps : forall l, Forall (eq Sp) l -> alike (Sp :: l) [Sp].
Proof.
  intros l F. induction F as [|i r <- F IH]; [apply alike_refl|].
  apply (alike_trans _ (Sp :: [Sp])); [apply alike_cons; exact IH|exact alike_sp2].
Qed.

(** ** Texts *)

Lemma items_of_app : forall m a b, items_of m (a ++ b) = (items_of m a ++ items_of m b)%list.
Proof. intros m a b. induction a as [|c r IH]; cbn; [reflexivity|rewrite IH; reflexivity]. Qed.

Lemma white_sps : forall s, all_white s = true -> Forall (eq Sp) (items_of false s).
Proof.
  induction s as [|c r IH]; cbn; intros W; [constructor|].
  apply andb_true_iff in W. destruct W as [Wc W]. unfold item_of. rewrite Wc. constructor; [reflexivity|apply IH; exact W].
Qed.

(** Induction along eol. *)
Lemma eol_ind : forall Q : string -> Prop,
  Q "" -> (forall r, Q r -> Q (String CR (String LF r))) ->
  (forall r, (forall r', r <> String LF r') -> Q r -> Q (String CR r)) ->
  (forall c r, c <> CR -> Q r -> Q (String c r)) -> forall s, Q s.
Proof.
  intros Q H0 H1 H2 H3.
  assert (forall n s, (String.length s <= n)%nat -> Q s) as G.
  { induction n as [|n IH]; intros s Hn.
    - destruct s; [exact H0|cbn in Hn; lia].
    - destruct s as [|c r]; [exact H0|]. cbn in Hn.
      destruct (ascii_dec c CR) as [->|Nc]; [|apply H3; [exact Nc|apply IH; lia]].
      destruct r as [|c' r']; [apply H2; [discriminate|exact H0]|].
      destruct (ascii_dec c' LF) as [->|Nl].
      + apply H1. apply IH. cbn in Hn. lia.
      + apply H2; [intros r0 E; injection E; intros; contradiction|apply IH; lia]. }
  intros s. apply (G (String.length s)). lia.
Qed.
Lemma eol_crlf : forall r, eol (String CR (String LF r)) = String LF (eol r).
Proof. reflexivity. Qed.
Lemma eol_cr : forall r, (forall r', r <> String LF r') -> eol (String CR r) = String LF (eol r).
Proof.
  intros [|c r] H; [reflexivity|]. cbn [eol].
  destruct (Ascii.eqb c LF) eqn:E; [|reflexivity].
  apply Ascii.eqb_eq in E. subst c. exfalso. exact (H r eq_refl).
Qed.
Lemma eol_other : forall c r, c <> CR -> eol (String c r) = String c (eol r).
Proof. intros c r N. cbn [eol]. apply Ascii.eqb_neq in N. rewrite N. reflexivity. Qed.

Lemma items_eol : forall s, alike (items_of false (eol s)) (items_of false s).
Proof.
  induction s as [|r IH|r N IH|c r N IH] using eol_ind.
  - apply alike_refl.
  - rewrite eol_crlf. cbn [items_of]. change (item_of false LF) with Sp. change (item_of false CR) with Sp.
    apply (alike_trans _ (Sp :: items_of false r)); [apply alike_cons; exact IH|].
    apply (alike_app [Sp] [Sp; Sp] _ _ (alike_sym _ _ alike_sp2) (alike_refl _)).
  - rewrite eol_cr by exact N. cbn [items_of]. change (item_of false LF) with Sp. change (item_of false CR) with Sp.
    apply alike_cons. exact IH.
  - rewrite eol_other by exact N. cbn [items_of]. apply alike_cons. exact IH.
Qed.

Lemma eol_id : forall s, has_cr s = false -> eol s = s.
Proof.
  induction s as [|c r IH]; cbn [has_cr]; intros H; [reflexivity|].
  apply orb_false_iff in H. destruct H as [Hc H]. apply Ascii.eqb_neq in Hc.
  rewrite eol_other by exact Hc. rewrite IH by exact H. reflexivity.
Qed.
Lemma eol_no_cr : forall s, has_cr (eol s) = false.
Proof.
  induction s as [|r IH|r N IH|c r N IH] using eol_ind.
  - reflexivity.
  - rewrite eol_crlf. cbn [has_cr]. rewrite IH. reflexivity.
  - rewrite eol_cr by exact N. cbn [has_cr]. rewrite IH. reflexivity.
  - rewrite eol_other by exact N. cbn [has_cr]. apply Ascii.eqb_neq in N. rewrite N, IH. reflexivity.
Qed.

Lemma items_eol_m : forall m s, m && has_cr s = false -> alike (items_of m (eol s)) (items_of m s).
Proof.
  intros [|] s H; [|apply items_eol]. cbn [andb] in H. rewrite (eol_id s H). apply alike_refl.
Qed.

(** ** Marks *)

(** The items of a paragraph with marks where white space is put. *)
Inductive mark := It (i : item) | Mk.
Fixpoint deco (m : bool) (n : node) : list mark :=
  match n with
  | Text s => map It (items_of m s)
  | Br => [It Bk]
  | Leaf _ => []
  | El _ a kids =>
      match kids with
      | [] => []
      | [Text s] => map It (items_of (mode a m) s)
      | _ => Mk :: flat_map (fun k => deco (mode a m) k ++ [Mk])%list kids
      end
  end.
Definition render (l : list mark) : list item := map (fun x => match x with It i => i | Mk => Sp end) l.
Definition erase (l : list mark) : list item := flat_map (fun x => match x with It i => [i] | Mk => [] end) l.

Lemma render_it : forall l, render (map It l) = l.
Proof. intros l. unfold render. rewrite map_map. apply map_id. Qed.
Lemma erase_it : forall l, erase (map It l) = l.
Proof. induction l as [|i r IH]; [reflexivity|]. cbn. f_equal. exact IH. Qed.
Lemma render_app : forall a b, render (a ++ b) = (render a ++ render b)%list.
Proof. intros. apply map_app. Qed.
Lemma erase_app : forall a b, erase (a ++ b) = (erase a ++ erase b)%list.
Proof. intros. apply flat_map_app. Qed.

Lemma erase_deco : forall n m, erase (deco m n) = items m n.
Proof.
  induction n as [s| |x|t a kids F] using node_ind'; intros m; [apply erase_it|reflexivity|reflexivity|].
  cbn [items].
  assert (erase (flat_map (fun k => deco (mode a m) k ++ [Mk])%list kids) = flat_map (items (mode a m)) kids) as G.
  { induction F as [|k ks Hk F IH]; [reflexivity|].
    cbn [flat_map]. rewrite !erase_app, Hk, IH. cbn [erase flat_map app]. rewrite app_nil_r. reflexivity. }
  cbn [deco]. destruct kids as [|[s| |x|t' a' ks] [|k2 r2]]; try exact G.
  rewrite erase_it. cbn [flat_map items]. rewrite app_nil_r. reflexivity.
Qed.

(** The content of a paragraph is treated as that of an element. *)
Definition as_el (kids : list node) : node := El Span [] kids.
Lemma items_as_el : forall m kids, items m (as_el kids) = flat_map (items m) kids.
Proof. reflexivity. Qed.

(** *** What is read is shown as the marks say *)

Lemma items_put : forall m p l, flat_map (items m) (put p l) = (items_of m (eol p) ++ flat_map (items m) l)%list.
Proof. intros m [|c p] l; reflexivity. Qed.

Lemma items_lay_kids : forall d t kids,
  Forall (fun k => kept true false k = true -> legal_in t k = true ->
                   alike (items false (lay (S d) k)) (render (deco false k))) kids ->
  forallb (legal_in t) kids = true -> forallb (kept true false) kids = true -> forall p,
  alike (flat_map (items false) (lay_kids d (p ++ nl) kids))
        (items_of false p ++ Sp :: render (flat_map (fun k => deco false k ++ [Mk])%list kids)).
Proof.
  intros d t kids F. induction F as [|k ks Hk F IH]; intros L K p.
  - cbn [lay_kids flat_map render map]. rewrite items_put. cbn [flat_map]. rewrite app_nil_r.
    eapply alike_trans; [apply items_eol|]. rewrite app_assoc_s, items_of_app.
    apply alike_app; [apply alike_refl|]. cbn [append nl items_of].
    change (item_of false "010") with Sp. apply alike_sps, white_sps, indent_white.
  - cbn [forallb] in L, K. apply andb_true_iff in L, K. destruct L as [Lk L], K as [Kk K]. specialize (IH L K).
    assert (is_text k = false ->
      alike (flat_map (items false) (put ((p ++ nl) ++ indent (S d)) (lay (S d) k :: lay_kids d nl ks)))
        (items_of false p ++ Sp :: render (flat_map (fun k => deco false k ++ [Mk])%list (k :: ks)))) as G.
    { intros _. rewrite items_put. cbn [flat_map]. rewrite !render_app.
      replace (items_of false p ++ Sp :: ((render (deco false k) ++ render [Mk]) ++
                 render (flat_map (fun k0 => deco false k0 ++ [Mk]) ks)))%list
        with ((items_of false p ++ [Sp]) ++ render (deco false k) ++
              (Sp :: render (flat_map (fun k0 => deco false k0 ++ [Mk]) ks)))%list
        by (rewrite <- !app_assoc; reflexivity).
      apply alike_app; [|apply alike_app; [exact (Hk Kk Lk)|exact (IH "")]].
      eapply alike_trans; [apply items_eol|]. rewrite app_assoc_s, items_of_app.
      apply alike_app; [apply alike_refl|]. cbn [append nl items_of].
      change (item_of false "010") with Sp. apply alike_sps, white_sps, indent_white. }
    destruct k as [s| |x|t' a' kk]; try (apply G; reflexivity).
    cbn [lay_kids]. replace ((p ++ nl) ++ indent (S d) ++ s ++ nl) with ((p ++ nl ++ indent (S d) ++ s) ++ nl)
      by (rewrite !app_assoc_s; reflexivity).
    eapply alike_trans; [apply IH|]. rewrite !items_of_app. cbn [flat_map deco].
    rewrite !render_app, render_it, <- !app_assoc. apply alike_app; [apply alike_refl|].
    cbn [render map app]. rewrite (app_assoc (items_of false nl)).
    apply (alike_app _ [Sp] _ (items_of false s ++ _)%list); [|apply alike_refl].
    cbn [nl items_of app]. change (item_of false "010") with Sp.
    apply alike_sps, white_sps, indent_white.
Qed.

Lemma in_mixed : forall t t0, mixed t = true -> allowed t t0 = true -> mixed t0 = true.
Proof. intros [| | | |] [| | | |]; cbn; congruence. Qed.

Lemma items_lay : forall n, forall m d t, mixed t = true -> legal_in t n = true -> kept true m n = true ->
  alike (items m (lay d n)) (render (deco m n)).
Proof.
  induction n as [s| |x|t0 a kids F] using node_ind'; intros m d t M L K.
  - cbn [lay items deco]. rewrite render_it. apply alike_refl.
  - apply alike_refl.
  - apply alike_refl.
  - cbn [legal_in] in L. apply andb_true_iff in L. destruct L as [A L].
    pose proof (in_mixed t t0 M A) as M0.
    cbn [kept] in K. apply andb_true_iff in K. destruct K as [S K].
    rewrite lay_mixed by exact M0. cbn [items].
    assert (simple kids = false ->
      alike (flat_map (items (mode a m)) (lay_kids d nl kids))
            (render (Mk :: flat_map (fun k => deco (mode a m) k ++ [Mk])%list kids))) as G.
    { intros NS. rewrite NS, orb_false_r in S. apply negb_true_iff in S. rewrite S in *.
      apply (items_lay_kids d t0 kids) with (p := ""); [|exact L|exact K].
      eapply Forall_impl; [|exact F]. cbv beta. intros k Hk Kk Lk.
      exact (Hk false (Datatypes.S d) t0 M0 Lk Kk). }
    unfold lay_in. cbn [deco]. destruct kids as [|[s| |x|t' a' ks] [|k2 r2]]; try (apply G; reflexivity).
    + apply alike_refl.
    + rewrite items_put, render_it. cbn [flat_map]. rewrite app_nil_r.
      apply items_eol_m. cbn [forallb kept] in K. rewrite andb_true_r in K.
      apply negb_true_iff in K. exact K.
Qed.

(** *** Marks make a difference where texts are not apart *)

Fixpoint sep (before : item) (mk : bool) (l : list mark) : bool :=
  match l with
  | [] => true
  | Mk :: r => sep before true r
  | It i :: r => negb (mk && (is_x before && is_x i)) && sep i false r
  end.

Definition agrees (before : item) (st : state) : Prop :=
  match before with
  | X _ => st = Mid
  | Bk => st = Start
  | Sp => st = Start \/ st = Pend
  end.

Lemma sep_norm : forall l before (mk : bool) st, agrees before st ->
  norm (if mk then after st Sp else st) (render l) = norm st (erase l) <-> sep before mk l = true.
Proof.
  induction l as [|[i|] r IH]; intros before mk st A.
  - split; reflexivity.
  - cbn [render map erase flat_map app sep]. destruct i as [c| |].
    + cbn [norm is_x]. rewrite andb_true_r.
      pose proof (IH (X c) false Mid eq_refl) as H. cbn [render erase] in H. unfold render, erase in H.
      destruct before as [c0| |]; cbn [agrees] in A; cbn [is_x].
      * subst st. destruct mk; cbn [after app andb negb].
        -- split; [intros E; discriminate E|discriminate].
        -- rewrite <- H; split; [intros E; injection E; auto|intros ->; reflexivity].
      * assert ((if mk then after st Sp else st) = st) as -> by (destruct A as [-> | ->]; destruct mk; reflexivity).
        rewrite andb_false_r. cbn [negb andb]. rewrite <- H.
        split; [intros E; apply app_inv_head in E; injection E; auto|intros ->; reflexivity].
      * subst st. assert ((if mk then after Start Sp else Start) = Start) as -> by (destruct mk; reflexivity).
        rewrite andb_false_r. cbn [negb andb app]. rewrite <- H.
        split; [intros E; injection E; auto|intros ->; reflexivity].
    + cbn [norm is_x]. rewrite !andb_false_r. cbn [negb andb].
      fold (after (if mk then after st Sp else st) Sp). fold (after st Sp).
      assert (after (if mk then after st Sp else st) Sp = after st Sp) as -> by (destruct mk, st; reflexivity).
      apply (IH Sp false (after st Sp)). destruct st; cbn; auto.
    + cbn [norm is_x]. rewrite !andb_false_r. cbn [negb andb].
      pose proof (IH Bk false Start eq_refl) as H. unfold render, erase in H. rewrite <- H.
      split; [intros E; injection E; auto|intros ->; reflexivity].
  - cbn [render map erase flat_map app sep norm].
    fold (after (if mk then after st Sp else st) Sp).
    assert (after (if mk then after st Sp else st) Sp = after st Sp) as -> by (destruct mk, st; reflexivity).
    exact (IH before true st A).
Qed.

Lemma sep_it : forall l i r, sep i false (map It l ++ r) = sep (last l i) false r.
Proof.
  induction l as [|j l IH]; intros i r; [reflexivity|]. cbn [map app sep andb negb].
  rewrite IH. destruct l as [|k l]; [reflexivity|]. f_equal.
  change (last (j :: k :: l) i) with (last (k :: l) i). clear. revert k.
  induction l as [|x l IH]; intros k; [reflexivity|]. exact (IH x).
Qed.

Lemma sep_run : forall l before D rs, (forall b, sep b true D = apart b rs) ->
  sep before true (map It l ++ Mk :: D) = apart before (l :: rs).
Proof.
  intros [|i l] before D rs H; cbn [map app sep apart]; [apply H|].
  rewrite andb_true_l, sep_it. cbn [sep]. rewrite H. reflexivity.
Qed.

Lemma sep_kids : forall m kids,
  Forall (fun k => forall before D rs, (forall b, sep b true D = apart b rs) ->
            sep before true (deco m k ++ Mk :: D) = apart before (runs m k ++ rs)) kids ->
  forall before D rs, (forall b, sep b true D = apart b rs) ->
  sep before true (flat_map (fun k => deco m k ++ [Mk])%list kids ++ D) = apart before (flat_map (runs m) kids ++ rs).
Proof.
  intros m kids F. induction F as [|k ks Hk F IH]; intros before D rs H; [apply H|].
  cbn [flat_map]. rewrite <- !app_assoc. cbn [app]. apply Hk. intros b. apply IH. exact H.
Qed.

Lemma sep_deco : forall n m before D rs, (forall b, sep b true D = apart b rs) ->
  sep before true (deco m n ++ Mk :: D) = apart before (runs m n ++ rs).
Proof.
  induction n as [s| |x|t a kids F] using node_ind'; intros m before D rs H.
  - apply (sep_run _ _ _ _ H).
  - apply (sep_run [Bk] _ _ _ H).
  - apply H.
  - cbn [runs].
    assert (simple kids = false ->
      sep before true ((Mk :: flat_map (fun k => deco (mode a m) k ++ [Mk])%list kids) ++ Mk :: D) =
      apart before (flat_map (runs (mode a m)) kids ++ rs)) as G.
    { intros _. cbn [app sep]. apply sep_kids; [|exact H].
      eapply Forall_impl; [|exact F]. cbv beta. intros k Hk. apply Hk. }
    cbn [deco]. destruct kids as [|[s| |x|t' a' ks] [|k2 r2]]; try (apply G; reflexivity).
    + apply H.
    + cbn [flat_map runs app]. apply (sep_run _ _ _ _ H).
Qed.

Lemma sep_para : forall m kids,
  sep Bk false (deco m (as_el kids)) = apart Bk (flat_map (runs m) kids).
Proof.
  intros m kids. cbn [deco as_el]. change (mode [] m) with m.
  assert (sep Bk false (Mk :: flat_map (fun k => deco m k ++ [Mk])%list kids) = apart Bk (flat_map (runs m) kids)) as G.
  { cbn [sep]. rewrite <- (app_nil_r (flat_map _ kids)), <- (app_nil_r (flat_map (runs m) kids)).
    apply sep_kids; [|reflexivity]. apply Forall_forall. intros k _. apply sep_deco. }
  destruct kids as [|[s| |x|t' a' ks] [|k2 r2]]; try exact G.
  cbn [flat_map runs app apart]. destruct (items_of m s) as [|i l]; [reflexivity|].
  cbn [map sep andb negb is_x]. rewrite <- (app_nil_r (map It l)), sep_it. reflexivity.
Qed.

(** ** Characters put in *)

Lemma filter_norm : forall l st, filter is_x (norm st l) = filter is_x l.
Proof.
  induction l as [|[c| |] r IH]; intros st; cbn [norm filter is_x]; [reflexivity| |apply IH|apply IH].
  rewrite filter_app. cbn [filter is_x]. rewrite IH. destruct st; reflexivity.
Qed.
Lemma alike_x : forall l l', alike l l' -> filter is_x l = filter is_x l'.
Proof. intros l l' H. rewrite <- (filter_norm l Start), <- (filter_norm l' Start). destruct (H Start) as [-> _]. reflexivity. Qed.

Definition nx (l : list item) : nat := List.length (filter is_x l).
Lemma nx_app : forall a b, nx (a ++ b) = nx a + nx b.
Proof. intros a b. unfold nx. rewrite filter_app, app_length. reflexivity. Qed.

Definition xcr (i : item) : bool := match i with X c => Ascii.eqb c CR | _ => false end.
Lemma xcr_items : forall m s, existsb xcr (items_of m s) = m && has_cr s.
Proof.
  intros m s. induction s as [|c r IH]; cbn [items_of existsb has_cr]; [rewrite andb_false_r; reflexivity|].
  rewrite IH. unfold item_of. destruct m; [reflexivity|]. cbn [andb].
  destruct (white c) eqn:W; [reflexivity|]. cbn [xcr]. rewrite orb_false_r.
  apply Ascii.eqb_neq. intros ->. discriminate W.
Qed.
Lemma xcr_norm : forall l st, existsb xcr (norm st l) = existsb xcr l.
Proof.
  induction l as [|[c| |] r IH]; intros st; cbn [norm existsb xcr]; [reflexivity| |apply IH|apply IH].
  rewrite existsb_app. cbn [existsb xcr]. rewrite IH. destruct st; reflexivity.
Qed.

Lemma nx_eol : forall m s, m && has_cr s = false -> nx (items_of m (eol s)) = nx (items_of m s).
Proof. intros m s H. unfold nx. rewrite (alike_x _ _ (items_eol_m m s H)). reflexivity. Qed.

Lemma existsb_flat_map : forall {A B} (f : A -> list B) g l,
  existsb g (flat_map f l) = existsb (fun a => existsb g (f a)) l.
Proof.
  intros A B f g l. induction l as [|a r IH]; [reflexivity|]. cbn [flat_map existsb].
  rewrite existsb_app, IH. reflexivity.
Qed.

Lemma kept_split : forall n m, kept true m n = kept false m n && negb (existsb xcr (items m n)).
Proof.
  induction n as [s| |x|t a kids F] using node_ind'; intros m; try reflexivity.
  - cbn [kept items]. rewrite xcr_items. reflexivity.
  - cbn [kept items]. rewrite <- andb_assoc. f_equal. rewrite existsb_flat_map.
    induction F as [|k ks Hk F IH]; [reflexivity|]. cbn [forallb existsb].
    rewrite IH, Hk, negb_orb. destruct (kept false (mode a m) k), (forallb (kept false (mode a m)) ks);
      cbn [andb]; rewrite ?andb_false_r; reflexivity.
Qed.

Definition b2n (b : bool) : nat := if b then 1 else 0.
Definition gains (d : nat) (m : bool) (n : node) : Prop :=
  nx (items m n) + b2n (negb (kept false m n)) <= nx (items m (lay d n)).

Lemma gains_kids : forall d t m kids,
  Forall (fun k => legal_in t k = true -> existsb xcr (items m k) = false -> gains (S d) m k) kids ->
  forallb (legal_in t) kids = true -> existsb xcr (flat_map (items m) kids) = false ->
  forall p, m && has_cr p = false ->
  nx (items_of m p) + nx (flat_map (items m) kids) + b2n (negb (forallb (kept false m) kids)) <=
  nx (flat_map (items m) (lay_kids d p kids)).
Proof.
  intros d t m kids F.
  assert (forall a b, m && has_cr (a ++ b) = (m && has_cr a) || (m && has_cr b)) as CA.
  { intros a b. destruct m; [|reflexivity]. cbn [andb]. induction a as [|c r IH]; [reflexivity|].
    cbn. rewrite IH, orb_assoc. reflexivity. }
  assert (forall k, m && has_cr (indent k) = false) as CI.
  { intros k. destruct m; [|reflexivity]. cbn [andb]. induction k as [|k IH]; [reflexivity|exact IH]. }
  assert (m && has_cr nl = false) as CN by (destruct m; reflexivity).
  induction F as [|k ks Hk F IH]; intros L C p Cp.
  - cbn [flat_map forallb lay_kids b2n negb]. rewrite items_put, nx_app, nx_eol by (rewrite CA, Cp, CI; reflexivity).
    rewrite items_of_app, nx_app. cbn [flat_map nx filter List.length]. lia.
  - cbn [forallb] in L. apply andb_true_iff in L. destruct L as [Lk L].
    cbn [flat_map] in C. rewrite existsb_app in C. apply orb_false_iff in C. destruct C as [Ck C].
    specialize (IH L C). specialize (Hk Lk Ck).
    assert (nx (items_of m p) + nx (flat_map (items m) (k :: ks)) + b2n (negb (forallb (kept false m) (k :: ks))) <=
      nx (flat_map (items m) (put (p ++ indent (S d)) (lay (S d) k :: lay_kids d nl ks)))) as G.
    { rewrite items_put, nx_app, nx_eol by (rewrite CA, Cp, CI; reflexivity).
      rewrite items_of_app. cbn [flat_map forallb]. rewrite !nx_app. unfold gains in Hk.
      specialize (IH nl CN). rewrite negb_andb.
      destruct (kept false m k), (forallb (kept false m) ks); cbn [negb orb b2n] in *; lia. }
    destruct k as [s| |x|t' a' kk]; try exact G.
    cbn [lay_kids flat_map items forallb kept andb].
    cbn [items] in Ck. rewrite xcr_items in Ck.
    specialize (IH (p ++ indent (S d) ++ s ++ nl)).
    rewrite !CA, Cp, CI, Ck, CN in IH. specialize (IH eq_refl).
    rewrite !items_of_app, !nx_app in IH. rewrite nx_app.
    rewrite ?andb_false_l. cbn [negb andb]. lia.
Qed.

Lemma gains_lay : forall n m d t, mixed t = true -> legal_in t n = true -> existsb xcr (items m n) = false ->
  gains d m n.
Proof.
  induction n as [s| |x|t0 a kids F] using node_ind'; intros m d t M L C; unfold gains.
  - cbn [items lay kept andb negb b2n]. lia.
  - cbn. lia.
  - cbn. lia.
  - cbn [legal_in] in L. apply andb_true_iff in L. destruct L as [A L].
    pose proof (in_mixed t t0 M A) as M0. rewrite lay_mixed by exact M0.
    cbn [items kept] in *.
    assert (nx (items_of (mode a m) nl) + nx (flat_map (items (mode a m)) kids) +
      b2n (negb (forallb (kept false (mode a m)) kids)) <= nx (flat_map (items (mode a m)) (lay_kids d nl kids))) as G.
    { apply gains_kids with (t := t0); [|exact L|exact C|destruct (mode a m); reflexivity].
      eapply Forall_impl; [|exact F]. cbv beta. intros k Hk Lk Ck. exact (Hk _ _ t0 M0 Lk Ck). }
    assert (simple kids = false ->
      nx (flat_map (items (mode a m)) kids) +
      b2n (negb ((negb (mode a m) || simple kids) && forallb (kept false (mode a m)) kids)) <=
      nx (flat_map (items (mode a m)) (lay_kids d nl kids))) as G'.
    { intros ->. rewrite orb_false_r. destruct (mode a m) eqn:Em.
      - cbn [negb andb b2n]. change (nx (items_of true nl)) with 1 in G. lia.
      - cbn [negb andb]. lia. }
    unfold lay_in. destruct kids as [|[s| |x|t' a' ks] [|k2 r2]]; try (apply G'; reflexivity).
    + cbn. destruct (mode a m); cbn; lia.
    + cbn [flat_map items simple forallb kept andb]. rewrite orb_true_r. cbn [negb andb b2n].
      rewrite items_put. cbn [flat_map items] in *. rewrite !app_nil_r in *. rewrite xcr_items in C.
      rewrite nx_eol by exact C. lia.
Qed.

(** Nothing that is read has a carriage return in it. *)
Lemma no_xcr_put : forall m p l, existsb xcr (flat_map (items m) l) = false ->
  existsb xcr (flat_map (items m) (put p l)) = false.
Proof.
  intros m p l H. rewrite items_put, existsb_app, xcr_items, eol_no_cr, H, andb_false_r. reflexivity.
Qed.
Lemma no_xcr : forall n m d t, mixed t = true -> legal_in t n = true -> is_text n = false ->
  existsb xcr (items m (lay d n)) = false.
Proof.
  induction n as [s| |x|t0 a kids F] using node_ind'; intros m d t M L NT; try reflexivity; [discriminate NT|].
  cbn [legal_in] in L. apply andb_true_iff in L. destruct L as [A L].
  pose proof (in_mixed t t0 M A) as M0. rewrite lay_mixed by exact M0. cbn [items].
  assert (forall p, existsb xcr (flat_map (items (mode a m)) (lay_kids d p kids)) = false) as G.
  { clear A NT. induction F as [|k ks Hk F IH]; intros p.
    - cbn [lay_kids]. apply no_xcr_put. reflexivity.
    - cbn [forallb] in L. apply andb_true_iff in L. destruct L as [Lk L]. specialize (IH L).
      destruct k; cbn [lay_kids]; [apply IH| | |]; apply no_xcr_put;
        cbn [flat_map]; rewrite existsb_app, IH, orb_false_r; apply (Hk _ _ t0 M0 Lk eq_refl). }
  unfold lay_in. destruct kids as [|[s| |x|t' a' ks] [|k2 r2]]; try apply G; try reflexivity.
  apply no_xcr_put. reflexivity.
Qed.

(** ** Paragraphs *)

Lemma legal_p_span : forall k, legal_in P k = legal_in Span k.
Proof. intros [s| |x|t a kids]; reflexivity. Qed.
Lemma legal_as_el : forall t kids, mixed t = true -> forallb (legal_in t) kids = true -> legal_in Span (as_el kids) = true.
Proof.
  intros [| | | |] kids M L; try discriminate M; cbn [as_el legal_in allowed andb]; [|exact L].
  rewrite forallb_forall in *. intros k Hk. rewrite <- legal_p_span. apply L, Hk.
Qed.
Lemma lay_as_el : forall d kids, lay d (as_el kids) = as_el (lay_in d kids).
Proof. intros. apply lay_mixed. reflexivity. Qed.

Theorem para_same : forall d m kids t, mixed t = true -> forallb (legal_in t) kids = true ->
  shown_para (m, lay_in d kids) = shown_para (m, kids) <-> robust (m, kids) = true.
Proof.
  intros d m kids t M L. apply (legal_as_el t kids M) in L.
  unfold shown_para, robust, apart_para. cbn [fst snd].
  rewrite <- (items_as_el m (lay_in d kids)), <- (items_as_el m kids), <- lay_as_el.
  change (kept_para true (m, kids)) with (kept true m (as_el kids)).
  rewrite andb_true_iff, <- sep_para.
  destruct (kept true m (as_el kids)) eqn:K.
  - destruct (items_lay (as_el kids) m d Span eq_refl L K Start) as [-> _].
    rewrite <- (erase_deco (as_el kids) m).
    rewrite (sep_norm (deco m (as_el kids)) Bk false Start eq_refl). tauto.
  - split; [|intros [H _]; discriminate H]. intros E. exfalso.
    rewrite kept_split in K. destruct (existsb xcr (items m (as_el kids))) eqn:C.
    + rewrite <- (xcr_norm _ Start), <- E, xcr_norm in C.
      rewrite (no_xcr (as_el kids) m d Span eq_refl L eq_refl) in C. discriminate C.
    + rewrite andb_true_r in K. pose proof (gains_lay (as_el kids) m d Span eq_refl L C) as G.
      unfold gains in G. rewrite K in G. cbn [negb b2n] in G. unfold nx in G.
      rewrite <- (filter_norm _ Start) in G. rewrite <- E, filter_norm in G. lia.
Qed.
