(** Lemmas on de-duplication. *)

From Coq Require Import List ZArith String Ascii Bool Lia Permutation.
From Verif Require Import Digits IdModel TimingModel StyleModel StyleProofs SegmentModel DedupModel DedupSpec.
Import ListNotations.
Local Open Scope string_scope.

(** ** The hashed string determines the values *)

Definition fresh_tail (r : string) : bool :=
  match r with EmptyString => true | String c _ => negb (Ascii.eqb c "%") && negb (Ascii.eqb c " ") end.

Lemma split_mark : forall v w r s, marks_ok v = true -> marks_ok w = true -> fresh_tail r = true -> fresh_tail s = true ->
  v ++ "%" ++ r = w ++ "%" ++ s -> v = w /\ r = s.
Proof.
  assert (K : forall w r s, marks_ok w = true -> fresh_tail r = true -> "%" ++ r = w ++ "%" ++ s -> w = "" /\ r = s).
  { intros [|c w] r s M F E; cbn in E; inversion E; subst; auto. exfalso. cbn in M. destruct w as [|c w].
    - cbn in F. discriminate.
    - apply andb_true_iff in M as [M _]. apply Ascii.eqb_eq in M. subst c. cbn in F. discriminate. }
  induction v as [|a v IH]; intros w r s Mv Mw Fr Fs E.
  - destruct (K w r s Mw Fr E) as [-> ->]. auto.
  - destruct w as [|b w].
    + symmetry in E. destruct (K _ _ _ Mv Fs E) as [D _]. discriminate.
    + cbn in E. inversion E; subst b. cbn in Mv, Mw. apply andb_true_iff in Mv as [_ Mv]. apply andb_true_iff in Mw as [_ Mw].
      destruct (IH w r s Mv Mw Fr Fs H1) as [-> ->]. auto.
Qed.

Lemma tidy_marks : forall v, tidy v = true -> marks_ok v = true.
Proof. intros v H. apply andb_true_iff in H as [_ H]. auto. Qed.
Lemma tidy_fresh : forall v r, tidy v = true -> fresh_tail (v ++ r) = true.
Proof. intros [|c v] r H; [discriminate|]. apply andb_true_iff in H as [H _]. exact H. Qed.

Lemma with_marks_fresh : forall l t, Forall (fun v => tidy v = true) l -> fresh_tail t = true -> fresh_tail (with_marks l ++ t) = true.
Proof.
  intros [|v l] t F T; auto. inversion F; subst. cbn [with_marks]. rewrite app_assoc_s. apply tidy_fresh. auto.
Qed.

Lemma no_mark_inside : forall v c r, marks_ok (v ++ "%" ++ String c r) = true -> c = " "%char.
Proof.
  induction v as [|a v IH]; intros c r H.
  - cbn in H. apply andb_true_iff in H as [H _]. apply Ascii.eqb_eq in H. auto.
  - cbn in H. apply andb_true_iff in H as [_ H]. exact (IH c r H).
Qed.

Lemma with_marks_inj : forall l m t u,
  Forall (fun v => tidy v = true) l -> Forall (fun v => tidy v = true) m -> fresh_tail t = true -> fresh_tail u = true ->
  List.length l = List.length m -> with_marks l ++ t = with_marks m ++ u -> l = m /\ t = u.
Proof.
  induction l as [|v l IH]; intros [|w m] t u Fl Fm T U L E; try discriminate; auto.
  inversion Fl; inversion Fm; subst. cbn [with_marks] in E. rewrite !app_assoc_s in E.
  apply split_mark in E; auto using tidy_marks, with_marks_fresh.
  destruct E as [-> E]. cbn in L. destruct (IH m t u) as [-> ->]; auto.
Qed.

(** What follows the values. *)
Lemma wild_fresh : forall w, wild_ok w = true -> fresh_tail (wild_code w) = true.
Proof.
  intros [|[[n l] v] [|? ?]] H; auto; [|discriminate]. cbn in H. apply andb_true_iff in H as [H _]. apply andb_true_iff in H as [H _].
  cbn [wild_code]. apply tidy_fresh. auto.
Qed.

Lemma wild_inj : forall w u, wild_ok w = true -> wild_ok u = true -> wild_code w = wild_code u -> w = u.
Proof.
  assert (N : forall n r, tidy n = true -> n ++ r <> "").
  { intros [|? ?] r H; discriminate. }
  intros [|[[n l] v] [|? ?]] [|[[n' l'] v'] [|? ?]] H K E; try discriminate; auto.
  - cbn in K. apply andb_true_iff in K as [K _]. apply andb_true_iff in K as [K _]. symmetry in E. elim (N _ _ K E).
  - cbn in H. apply andb_true_iff in H as [H _]. apply andb_true_iff in H as [H _]. elim (N _ _ H E).
  - cbn in H, K. apply andb_true_iff in H as [H Hv]. apply andb_true_iff in H as [Hn Hl].
    apply andb_true_iff in K as [K Kv]. apply andb_true_iff in K as [Kn Kl].
    cbn [wild_code] in E.
    apply split_mark in E; auto using tidy_marks, tidy_fresh. destruct E as [-> E].
    apply split_mark in E; auto using tidy_marks, tidy_fresh. destruct E as [-> E].
    assert (A : forall s, s ++ "" = s) by (induction s; cbn; congruence). rewrite !A in E. subst. auto.
Qed.

(** Values cannot be read as attributes of another namespace. *)
Lemma wild_not_values : forall l t w, Forall (fun v => tidy v = true) l -> fresh_tail t = true -> (List.length l >= 4)%nat ->
  wild_ok w = true -> with_marks l ++ t = wild_code w -> False.
Proof.
  intros l t w F T L W E.
  destruct l as [|a [|b [|c [|d l]]]]; cbn in L; try lia. clear L.
  inversion F as [|? ? Ta F1]; inversion F1 as [|? ? Tb F2]; inversion F2 as [|? ? Tc F3]; inversion F3 as [|? ? Td F4]; subst.
  destruct w as [|[[n x] v] [|? ?]]; cbn in W; try discriminate.
  - destruct a; [discriminate Ta|discriminate E].
  - apply andb_true_iff in W as [W Wv]. apply andb_true_iff in W as [Wn Wx]. cbn [wild_code with_marks] in E.
    assert (A : forall s, s ++ "" = s) by (induction s; cbn; congruence). rewrite !app_assoc_s in E.
    apply split_mark in E; auto using tidy_marks, tidy_fresh. destruct E as [-> E].
    apply split_mark in E; auto using tidy_marks, tidy_fresh. destruct E as [-> E].
    apply tidy_marks in Wv. rewrite A in E. rewrite <- E in Wv. destruct d as [|ch d]; [discriminate Td|]. cbn [append] in Wv.
    apply no_mark_inside in Wv. subst ch. discriminate Td.
Qed.

(** ** Deleting repeated references *)

Lemma del_app : forall p k s, (k < List.length s)%nat ->
  del (List.length p + k) (p ++ s)%list = dbind (del k s) (fun s' => DOk (p ++ s')%list).
Proof.
  induction p as [|a p IH]; intros k s L; cbn.
  - destruct (del k s); auto.
  - rewrite IH; auto. destruct (del k s); auto.
Qed.
Lemma del_mid : forall a x b, del (List.length a) (a ++ x :: b)%list = DOk (a ++ b)%list.
Proof. induction a as [|y a IH]; intros x b; cbn; auto. rewrite IH. auto. Qed.
Lemma put_mid : forall a x n b, put (List.length a) n (a ++ x :: b)%list = DOk (a ++ n :: b)%list.
Proof. induction a as [|y a IH]; intros x n b; cbn; auto. rewrite IH. auto. Qed.

Lemma filter_out : forall x l, ~ In x l -> filter (fun y => negb (y =? x)) l = l.
Proof.
  induction l as [|a l IH]; intros H; cbn; auto. destruct (String.eqb_spec a x); cbn; [subst; elim H; cbn; auto|].
  rewrite IH; auto. intros I. apply H. cbn. auto.
Qed.

(** The order of first occurrences. *)
Lemma keep_first_split : forall l a y b, keep_first l = (a ++ y :: b)%list ->
  exists m n, l = (m ++ y :: n)%list /\ (forall z, In z m <-> In z a) /\ (forall z, In z b -> In z n).
Proof.
  assert (K : forall y a l b, NoDup (keep_first l) -> keep_first l = (a ++ y :: b)%list ->
            exists m n, l = (m ++ y :: n)%list /\ (forall z, In z m <-> In z a)).
  { intros y a l b _ E. assert (I : In y l) by (apply keep_first_In; rewrite E; apply in_or_app; cbn; auto).
    assert (N := keep_first_NoDup l). rewrite E in N.
    assert (S : exists m n, l = (m ++ y :: n)%list /\ ~ In y m).
    { clear E N. induction l as [|h l IH]; [contradiction|]. destruct (string_dec h y) as [->|D].
      - exists [], l. split; auto.
      - destruct I as [I|I]; [contradiction|]. destruct (IH I) as (m & n & -> & Nm). exists (h :: m), n. split; auto. cbn. intuition. }
    destruct S as (m & n & -> & Nm). exists m, n. split; auto.
    rewrite keep_first_app in E. cbn [keep_first] in E.
    cbn [filter] in E. replace (negb (mem y m)) with true in E.
    2:{ symmetry. apply negb_true_iff. destruct (mem y m) eqn:Em; auto. apply mem_In in Em. contradiction. }
    cbn [app] in E.
    assert (Ya : ~ In y a). { intros Ha. apply NoDup_remove_2 in N. apply N. apply in_or_app. auto. }
    assert (Yk : ~ In y (keep_first m)) by (rewrite keep_first_In; auto).
    assert (Q : keep_first m = a).
    { clear - E Ya Yk. revert a E Ya Yk. generalize (keep_first m) as k. induction k as [|h k IH]; intros [|g a] E Ya Yk; cbn in E; inversion E; subst; auto.
      - elim Ya. cbn. auto.
      - elim Yk. cbn. auto.
      - f_equal. apply IH; auto; intros I; [apply Ya|apply Yk]; cbn; auto. }
    intros z. rewrite <- Q. symmetry. apply keep_first_In. }
  intros l a y b E. assert (N := keep_first_NoDup l). destruct (K y a l b N E) as (m & n & -> & Hm).
  exists m, n. split; auto. split; auto. intros z Hz.
  assert (I : In z (m ++ y :: n)%list) by (apply keep_first_In; rewrite E; apply in_or_app; cbn; auto).
  rewrite E in N. apply in_app_or in I as [I|[I|I]]; auto; exfalso.
  - apply Hm in I. clear - N I Hz. induction a as [|g a IH]; [contradiction|]. inversion N; subst. destruct I as [->|I].
    + apply H1. apply in_or_app. cbn. auto.
    + auto.
  - subst z. apply NoDup_remove_2 in N. apply N. apply in_or_app. auto.
Qed.

(** [pos y l k]: [y] is first found at index [k] of [l]. *)
Definition pos (y : string) (l : list string) (k : nat) : Prop :=
  exists a b, l = (a ++ y :: b)%list /\ ~ In y a /\ k = List.length a.

Lemma pos_exists : forall y l, In y l -> exists k, pos y l k.
Proof.
  induction l as [|h l IH]; intros I; [contradiction|]. destruct (string_dec h y) as [->|D].
  - exists 0%nat, [], l. auto.
  - destruct I as [I|I]; [contradiction|]. destruct (IH I) as (k & a & b & -> & Na & ->).
    exists (S (List.length a)), (h :: a), b. split; [reflexivity|]. split; auto. cbn. intuition.
Qed.

Section Replace.
Variables (f : string -> option string) (g : string -> string).

Lemma replace_ok : forall pre post seen,
  (forall r, In r pre -> f r = Some (g r)) -> ~ nested (map g (pre ++ post)%list) ->
  (forall y, In y (map g pre) -> match dict_get seen y with
      | Some k => exists q, pos y (keep_first (map g post)) q /\ k = (List.length pre + q)%nat
      | None => ~ In y (keep_first (map g post)) end) ->
  replace f (List.length pre) (pre ++ keep_first (map g post))%list seen = DOk (keep_first (map g (pre ++ post)%list)).
Proof.
  induction pre as [|r pre IH] using rev_ind; intros post seen Hf Hn Hs; [reflexivity|].
  rewrite app_length. cbn [List.length]. rewrite Nat.add_1_r. cbn [replace]. rewrite <- app_assoc. cbn [app].
  rewrite nth_error_app2, Nat.sub_diag; [|lia]. cbn [nth_error]. rewrite (Hf r) by (apply in_or_app; cbn; auto).
  set (x := g r) in *. set (suf := keep_first (map g post)) in *.
  assert (Nd : NoDup suf) by apply keep_first_NoDup.
  assert (Ix : In x (map g (pre ++ [r])%list)) by (rewrite map_app; apply in_or_app; cbn; auto).
  assert (Step : forall seen', (forall y, dict_get seen' y = if y =? x then Some (List.length pre) else dict_get seen y) ->
            (forall y a b, In y (map g pre) -> y <> x -> suf = (a ++ x :: b)%list -> ~ In y b) ->
            replace f (List.length pre) (pre ++ x :: filter (fun y => negb (y =? x)) suf)%list seen' =
            DOk (keep_first (map g (pre ++ r :: post)%list))).
  { intros seen' Hs' Hb. change (x :: filter (fun y => negb (y =? x)) suf) with (keep_first (map g (r :: post))).
    apply IH.
    - intros r0 I. apply Hf. apply in_or_app. auto.
    - rewrite <- app_assoc in Hn. exact Hn.
    - intros y Hy. rewrite Hs'. destruct (String.eqb_spec y x) as [->|D].
      + exists 0%nat. split; [|lia]. exists [], (filter (fun y => negb (y =? x)) suf). auto.
      + specialize (Hs y). rewrite map_app in Hs. specialize (Hs (in_or_app _ _ _ (or_introl Hy))).
        cbn [map keep_first]. fold x. fold suf. destruct (dict_get seen y) as [k|] eqn:Ek.
        * destruct Hs as (q & (a & b & Es & Na & ->) & ->). exists (S (List.length a)). split; [|rewrite app_length; cbn; lia].
          exists (x :: filter (fun y => negb (y =? x)) a), (filter (fun y => negb (y =? x)) b).
          rewrite Es, filter_app. cbn [filter]. destruct (String.eqb_spec y x); [contradiction|]. cbn [negb].
          split; [reflexivity|]. split.
          -- cbn. intros [E|I]; [auto|]. apply filter_In in I as [I _]. contradiction.
          -- cbn [List.length]. f_equal. f_equal. symmetry. apply filter_out. intros Ia.
             apply in_split in Ia as (a1 & a2 & ->). apply (Hb y a1 (a2 ++ y :: b)%list Hy D).
             ++ rewrite Es, <- app_assoc. reflexivity.
             ++ apply in_or_app. cbn. auto.
        * intros [E|I]; [congruence|]. apply filter_In in I as [I _]. contradiction. }
  assert (Inside : forall y a b, In y (map g pre) -> y <> x -> suf = (a ++ x :: b)%list -> ~ In y b).
  { intros y a b Hy D Es Ib. apply Hn. destruct (keep_first_split _ _ _ _ Es) as (m & n & Em & Hm & Hb).
    assert (Ya : ~ In y a).
    { intros Ia. rewrite Es in Nd. clear - Nd Ia Ib. induction a as [|h a IHa]; [contradiction|]. inversion Nd; subst. destruct Ia as [->|Ia]; auto.
      apply H1. apply in_or_app. cbn. auto. }
    apply Hb in Ib. apply in_split in Ib as (n1 & n2 & ->). apply in_split in Hy as (p1 & p2 & Ep).
    exists x, y, p1, p2, m, n1, n2. split; [congruence|]. split; [|rewrite Hm; exact Ya].
    rewrite map_app, map_app, Ep, Em. cbn [map]. fold x. rewrite <- !app_assoc. cbn [app]. rewrite <- ?app_assoc. reflexivity. }
  rewrite <- app_assoc. cbn [app].
  assert (Hx := Hs x Ix). destruct (dict_get seen x) as [k|] eqn:Ek.
  - destruct Hx as (q & (a & b & Es & Na & ->) & ->). rewrite Es.
    replace (List.length (pre ++ [r]) + List.length a)%nat with (List.length (pre ++ r :: a)%list) by (rewrite !app_length; cbn; lia).
    replace (pre ++ r :: a ++ x :: b)%list with ((pre ++ r :: a) ++ x :: b)%list by (rewrite <- app_assoc; reflexivity).
    rewrite del_mid. cbn [dbind]. rewrite <- app_assoc. cbn [app]. rewrite put_mid. cbn [dbind].
    assert (Ef : (a ++ b)%list = filter (fun y => negb (y =? x)) suf).
    { rewrite Es, filter_app. cbn [filter]. rewrite String.eqb_refl. cbn [negb].
      rewrite !filter_out; auto. intros I. rewrite Es in Nd. apply NoDup_remove_2 in Nd. apply Nd. apply in_or_app. auto. }
    rewrite Ef. apply Step; auto.
  - cbn [dbind]. rewrite put_mid. cbn [dbind]. rewrite <- (filter_out x suf Hx) at 1. apply Step; auto.
Qed.

Lemma replace_all : forall l, (forall r, In r l -> f r = Some (g r)) -> ~ nested (map g l) ->
  replace f (List.length l) l [] = DOk (keep_first (map g l)).
Proof.
  intros l Hf Hn. assert (E := replace_ok l [] []). cbn [map keep_first] in E. rewrite !app_nil_r in E. apply E; auto. intros y _. cbn. auto.
Qed.
End Replace.

(** ** Nesting does not depend on how things are named *)

Lemma nested_map : forall A B (a : string -> A) (g : string -> B) l,
  (forall i j, In i l -> In j l -> (g i = g j <-> a i = a j)) -> nested (map g l) -> nested (map a l).
Proof.
  intros A B a g l K (x & y & p & q & c & d & e & D & E & N).
  symmetry in E. symmetry in E.
  apply map_eq_app in E as (l1 & l1' & El & <- & E). apply map_eq_cons in E as (y1 & l2 & -> & <- & E).
  apply map_eq_app in E as (l3 & l3' & -> & <- & E). apply map_eq_cons in E as (x1 & l4 & -> & <- & E).
  apply map_eq_app in E as (l5 & l5' & -> & <- & E). apply map_eq_cons in E as (x2 & l6 & -> & Ex & E).
  apply map_eq_app in E as (l7 & l7' & -> & <- & E). apply map_eq_cons in E as (y2 & l8 & -> & Ey & <-).
  assert (I : forall i, In i [y1; x1; x2; y2] \/ In i l5 -> In i l).
  { intros i H. rewrite El. repeat (apply in_or_app; right; cbn; destruct H as [H|H]; [|auto]; cbn in H). 
    all: repeat rewrite ?in_app_iff; cbn; repeat rewrite ?in_app_iff; cbn; repeat rewrite ?in_app_iff; cbn; repeat rewrite ?in_app_iff; cbn in H; cbn; tauto. }
  exists (a x1), (a y1), (map a l1), (map a l3), (map a l5), (map a l7), (map a l8). split; [|split].
  - intros H. apply D. apply K; auto; apply I; cbn; auto.
  - rewrite El, map_app. cbn [map]. rewrite map_app. cbn [map]. rewrite map_app. cbn [map]. rewrite map_app. cbn [map].
    replace (a x2) with (a x1). 2:{ symmetry. apply K; auto; apply I; cbn; auto. }
    replace (a y2) with (a y1). 2:{ symmetry. apply K; auto; apply I; cbn; auto 6. }
    reflexivity.
  - intros H. apply in_map_iff in H as (i & Ei & Hi). apply N. apply in_map_iff. exists i. split; auto.
    apply K; auto; apply I; cbn; auto.
Qed.

Lemma nested_dup : forall A (l : list A), NoDup l -> ~ nested l.
Proof.
  intros A l N (x & y & a & b & c & d & e & D & -> & _). apply NoDup_remove_2 in N. apply N.
  repeat (rewrite ?in_app_iff; cbn). tauto.
Qed.

(** ** The dictionaries *)

Lemma zset_In : forall A (d : list (Z * A)) k v h x,
  In (h, x) (zset d k v) <-> (h = k /\ x = v) \/ (h <> k /\ In (h, x) d).
Proof.
  intros. unfold zset. cbn [In]. rewrite filter_In. cbn [fst]. rewrite negb_true_iff, Z.eqb_neq. split.
  - intros [E|[I D]]; [inversion E; auto|auto].
  - intros [[-> ->]|[D I]]; auto.
Qed.
Lemma zset_NoDup : forall A (d : list (Z * A)) k v, NoDup (map fst d) -> NoDup (map fst (zset d k v)).
Proof.
  intros A d k v N. cbn. constructor.
  - intros I. apply in_map_iff in I as ([h x] & E & I). apply filter_In in I as [_ I]. cbn in *. subst.
    rewrite Z.eqb_refl in I. discriminate.
  - induction d as [|[h x] d IH]; cbn; [constructor|]. inversion N; subst. destruct (h =? k)%Z; cbn; auto.
    constructor; auto. intros I. apply H1. apply in_map_iff in I as (p & E & I). apply filter_In in I as [I _].
    apply in_map_iff. eauto.
Qed.
Lemma zget_In : forall A (d : list (Z * A)) h x, NoDup (map fst d) -> In (h, x) d -> zget d h = Some x.
Proof.
  induction d as [|[k y] d IH]; intros h x N I; [contradiction|]. cbn. inversion N; subst. destruct I as [E|I].
  - inversion E; subst. rewrite Z.eqb_refl. auto.
  - destruct (Z.eqb_spec h k) as [->|D]; auto. elim H1. apply in_map_iff. exists (k, x). auto.
Qed.
Lemma zget_zset : forall A (d : list (Z * A)) k v h, zget (zset d k v) h = if (h =? k)%Z then Some v else zget d h.
Proof.
  intros. unfold zset. cbn [zget]. destruct (Z.eqb_spec h k) as [->|D]; auto.
  induction d as [|[j y] d IH]; cbn; auto. destruct (Z.eqb_spec j k) as [->|Dj]; cbn.
  - rewrite IH. destruct (Z.eqb_spec h k); [contradiction|auto].
  - rewrite IH. auto.
Qed.

Lemma new_ids : forall (items : list (Z * el)) new h e, NoDup (map fst items) -> In (h, e) items ->
  zget (fold_left (fun n p => zset n (fst p) (x_id (snd p))) items new) h = Some (x_id e).
Proof.
  assert (K : forall (items : list (Z * el)) new h, ~ In h (map fst items) ->
            zget (fold_left (fun n p => zset n (fst p) (x_id (snd p))) items new) h = zget new h).
  { induction items as [|[k y] items IH]; intros new h N; auto. cbn [fold_left]. rewrite IH.
    - rewrite zget_zset. cbn [fst]. destruct (Z.eqb_spec h k); auto. subst. elim N. cbn. auto.
    - intros I. apply N. cbn. auto. }
  induction items as [|[k y] items IH]; intros new h e N I; [contradiction|]. inversion N; subst. cbn [fold_left].
  destruct I as [E|I]; [|auto]. inversion E; subst. rewrite K; auto. rewrite zget_zset. cbn. rewrite Z.eqb_refl. auto.
Qed.

Section Collate.
Variables (py : python).
Let H (e : el) : Z := py_hash py (code py e).

Record collected (L : list el) (old : list (string * Z)) (hd : list (Z * el)) : Prop := mkCollected {
  co_old : forall e, In e L -> dict_get old (x_id e) = Some (H e);
  co_from : forall h e, In (h, e) hd -> In e L /\ H e = h;
  co_all : forall e, In e L -> exists e', In (H e, e') hd;
  co_keys : NoDup (map fst hd) }.

Lemma collected_nil : collected [] [] [].
Proof. constructor; try contradiction. constructor. Qed.

Lemma collected_add : forall L old hd e, collected L old hd -> ~ In (x_id e) (map x_id L) ->
  collected (L ++ [e]) ((x_id e, H e) :: old) (zset hd (H e) e).
Proof.
  intros L old hd e [C1 C2 C3 C4] N. constructor.
  - intros x I. cbn. apply in_app_or in I as [I|[<-|[]]].
    + destruct (String.eqb_spec (x_id x) (x_id e)) as [E|_]; auto. elim N. rewrite <- E. apply in_map. auto.
    + rewrite String.eqb_refl. auto.
  - intros h x I. apply zset_In in I as [[-> ->]|[D I]].
    + split; auto. apply in_or_app. cbn. auto.
    + apply C2 in I as [I E]. split; auto. apply in_or_app. auto.
  - intros x I. destruct (Z.eq_dec (H x) (H e)) as [E|D].
    + exists e. rewrite E. apply zset_In. auto.
    + apply in_app_or in I as [I|[->|[]]]; [|contradiction]. destruct (C3 x I) as (x' & I'). exists x'. apply zset_In. auto.
  - apply zset_NoDup. auto.
Qed.

Lemma collate_ok : forall (mo : el -> el) new l L old hd,
  collected L old hd -> NoDup (map x_id (L ++ l)) -> (forall e, In e l -> x_id (mo e) = x_id e) ->
  (forall e, In e l -> forallb is_ascii (values py (mo e)) = true) ->
  (forall e old', In e l ->
     (forall i h, dict_get old i = Some h -> ~ In i (map x_id l) -> dict_get old' i = Some h) ->
     map_own (new_id old' new) e = DOk (mo e)) ->
  exists old' hd', collate py new l old hd = DOk (old', hd') /\ collected (L ++ map mo l) old' hd' /\
    (forall h e, In (h, e) hd -> (forall x, In x l -> H (mo x) <> h) -> In (h, e) hd').
Proof.
  intros mo new. induction l as [|e l IH]; intros L old hd C N Hi Ha Ho.
  - exists old, hd. cbn [collate map]. rewrite app_nil_r. auto.
  - cbn [collate]. rewrite (Ho e old); cbn; auto.
    unfold my_hash. rewrite Ha by (cbn; auto). cbn [dbind]. fold (H (mo e)). 
    assert (Ne : ~ In (x_id (mo e)) (map x_id L)).
    { rewrite Hi by (cbn; auto). rewrite map_app in N. cbn in N. apply NoDup_remove_2 in N. intros I. apply N. apply in_or_app. auto. }
    assert (C' := collected_add L old hd (mo e) C Ne).
    destruct (IH (L ++ [mo e])%list _ _ C') as (old' & hd' & E & C2 & K).
    + rewrite map_app, map_app. cbn. rewrite Hi by (cbn; auto). rewrite <- app_assoc. cbn. rewrite map_app in N. exact N.
    + intros x I. apply Hi. cbn. auto.
    + intros x I. apply Ha. cbn. auto.
    + intros x o I Ko. apply Ho; [cbn; auto|]. intros i h Ei Ni. apply Ko.
      * cbn. destruct (String.eqb_spec i (x_id (mo e))) as [->|]; auto. elim Ni. rewrite Hi by (cbn; auto). cbn. auto.
      * intros I'. apply Ni. cbn. auto.
    + exists old', hd'. split; [exact E|]. split.
      * rewrite <- app_assoc in C2. exact C2.
      * intros h x I Dx. apply K; [|intros y Iy; apply Dx; cbn; auto]. apply zset_In. right. split; auto.
        intros ->. apply (Dx e); cbn; auto.
Qed.

(** The elements appended. *)
Lemma appended : forall l hd new, (forall l, Permutation (py_order py l) l) -> NoDup (map x_id l) ->
  fst (append_new_elements py l hd new) =
  filter (fun e => existsb (fun o => String.eqb (x_id o) (x_id e)) l) (map snd (py_order py hd)).
Proof.
  intros l hd new Po N. cbn [append_new_elements fst].
  induction (py_order py hd) as [|[h e] items IH]; auto. cbn [flat_map map filter snd].
  rewrite IH. clear IH.
  assert (K : map (fun _ => e) (filter (fun o => String.eqb (x_id o) (x_id e)) l) =
              if existsb (fun o => String.eqb (x_id o) (x_id e)) l then [e] else []).
  { induction l as [|o l IH]; auto. inversion N; subst. cbn. destruct (String.eqb_spec (x_id o) (x_id e)) as [E|D]; cbn; auto.
    replace (filter (fun o0 => String.eqb (x_id o0) (x_id e)) l) with (@nil el); auto. symmetry.
    clear - E H2. induction l as [|p l IH]; auto. cbn. destruct (String.eqb_spec (x_id p) (x_id e)) as [E'|].
    - elim H2. cbn. left. congruence.
    - apply IH. intros I. apply H2. cbn. auto. }
  rewrite K. destruct (existsb _ l); auto.
Qed.

Lemma section_ok : forall (mo : el -> el) new o L old hd, let l := match o with Some l => l | None => [] end in
  (forall l, Permutation (py_order py l) l) ->
  collected L old hd -> (forall h e, In (h, e) hd -> zget new h = Some (x_id e)) ->
  NoDup (map x_id (L ++ l)) -> (forall e, In e l -> x_id (mo e) = x_id e) ->
  (forall e, In e l -> forallb is_ascii (values py (mo e)) = true) ->
  (forall e old', In e l ->
     (forall i h, dict_get old i = Some h -> ~ In i (map x_id l) -> dict_get old' i = Some h) ->
     map_own (new_id old' new) e = DOk (mo e)) ->
  exists out old' new' hd', section py o old new hd = DOk (out, (old', new', hd')) /\ collected (L ++ map mo l) old' hd' /\
    (forall h e, In (h, e) hd -> (forall x, In x l -> H (mo x) <> h) -> In (h, e) hd') /\
    (forall h e, In (h, e) hd' -> zget new' h = Some (x_id e)) /\
    match out with
    | None => o = None
    | Some out => o <> None /\ NoDup (map x_id out) /\
        forall e, In e out <-> In (x_id e) (map x_id l) /\ In (H e, e) hd'
    end.
Proof.
  intros mo new o L old hd l Po C Hn N Hi Ha Ho. destruct o as [lo|]; subst l.
  2:{ exists None, old, new, hd. cbn. rewrite app_nil_r. split; [reflexivity|]. split; [exact C|]. auto. }
  destruct (collate_ok mo new lo L old hd C N Hi Ha Ho) as (old' & hd' & E & C' & K).
  cbn [section]. rewrite E. cbn [dbind].
  destruct (append_new_elements py lo hd' new) as [out new'] eqn:Ea.
  assert (Nl : NoDup (map x_id lo)). { rewrite map_app in N. clear - N. induction (map x_id L) as [|a m IH]; auto. inversion N; auto. }
  assert (Eo : out = fst (append_new_elements py lo hd' new)) by (rewrite Ea; auto).
  assert (En : new' = snd (append_new_elements py lo hd' new)) by (rewrite Ea; auto).
  rewrite appended in Eo; auto. cbn [append_new_elements snd] in En.
  assert (P := Po hd'). destruct C' as [C1 C2 C3 C4].
  assert (Ni : NoDup (map fst (py_order py hd'))). { apply (Permutation_NoDup (l := map fst hd')); auto. apply Permutation_map. apply Permutation_sym. auto. }
  assert (NL : NoDup (map x_id (L ++ map mo lo))).
  { rewrite map_app, map_map. replace (map (fun x => x_id (mo x)) lo) with (map x_id lo) by (apply map_ext_in; intros; symmetry; auto).
    rewrite map_app in N. auto. }
  assert (Nx : NoDup (map x_id (map snd (py_order py hd')))).
  { assert (Hx : forall h e, In (h, e) (py_order py hd') -> In e (L ++ map mo lo)%list /\ H e = h).
    { intros h e I. apply C2. apply (Permutation_in _ P). auto. }
    clear - Ni Hx NL. induction (py_order py hd') as [|[h e] items IH]; cbn; [constructor|]. inversion Ni; subst. constructor.
    - intros I. apply in_map_iff in I as (e' & Ei & I). apply in_map_iff in I as ([h' e''] & Ee & I). cbn in Ee. subst e''.
      destruct (Hx h e) as [I1 E1]; [cbn; auto|]. destruct (Hx h' e') as [I2 E2]; [cbn; auto|].
      assert (e = e').
      { clear - NL I1 I2 Ei. induction (L ++ map mo lo)%list as [|a m IH]; [contradiction|]. inversion NL; subst.
        destruct I1 as [->|I1], I2 as [->|I2]; auto; elim H1; [rewrite <- Ei|rewrite Ei]; apply in_map; auto. }
      subst e'. apply H2. apply in_map_iff. exists (h', e). split; auto. cbn. congruence.
    - apply IH; auto. intros h' e' I. apply Hx. cbn. auto. }
  exists (Some out), old', new', hd'. split; [reflexivity|]. split; [constructor; auto|]. split; [exact K|]. split.
  - intros h e I. rewrite En. apply new_ids; auto. apply (Permutation_in _ (Permutation_sym P)). auto.
  - split; [discriminate|]. split.
    + rewrite Eo. clear - Nx. induction (map snd (py_order py hd')) as [|e m IH]; cbn; auto. inversion Nx; subst.
      destruct (existsb _ lo); cbn; auto. constructor; auto. intros I. apply H1. apply in_map_iff in I as (e' & E' & I).
      apply filter_In in I as [I _]. apply in_map_iff. eauto.
    + intros e. rewrite Eo, filter_In, existsb_exists, in_map_iff. split.
      * intros (([h e'] & Ee & I) & (o & Io & Eo')). cbn in Ee. subst e'. apply String.eqb_eq in Eo'.
        assert (I' : In (h, e) hd') by (apply (Permutation_in _ P); auto). split.
        -- apply in_map_iff. eauto.
        -- destruct (C2 _ _ I') as [_ E']. rewrite E'. auto.
      * intros [Il Ih]. split.
        -- exists (H e, e). split; auto. apply (Permutation_in _ (Permutation_sym P)). auto.
        -- apply in_map_iff in Il as (o & Eo' & Io). exists o. split; auto. apply String.eqb_eq. auto.
Qed.
End Collate.

(** ** Different attributes are hashed differently *)

Lemma with_marks_app : forall a b, with_marks (a ++ b)%list = with_marks a ++ with_marks b.
Proof. induction a as [|v a IH]; intros b; cbn [app with_marks]; auto. rewrite IH, !app_assoc_s. auto. Qed.

Lemma replace_none_inj : forall v w, v <> Some "|" -> w <> Some "|" -> replace_none v = replace_none w -> v = w.
Proof. intros [v|] [w|] Hv Hw E; cbn in E; subst; auto; congruence. Qed.

Lemma vals_inj : forall l m, ~ In (Some "|") l -> ~ In (Some "|") m -> map replace_none l = map replace_none m -> l = m.
Proof.
  induction l as [|v l IH]; intros [|w m] Hl Hm E; try discriminate; auto. cbn in E. inversion E.
  f_equal; [apply replace_none_inj; auto; intros ->; [apply Hl|apply Hm]; cbn; auto|].
  apply IH; auto; intros I; [apply Hl|apply Hm]; cbn; auto.
Qed.

Section Hashed.
Variables (py : python) (d : ddoc).
Hypotheses (Sd : sound d) (Fd : fair py d).

Lemma hashed_vals : forall e, hashed d e -> vals_ok e = true /\
  ((x_refs e = None /\ In e (styles d) /\ List.length (x_vals e) = 15%nat) \/
   (List.length (x_vals e) = 7%nat /\ exists r, In r (regions d) /\ x_id r = x_id e)).
Proof.
  intros e [e' I|e' I N|e' l l' I E V].
  - destruct (sound_styles d Sd e' I) as (A & B & C). auto.
  - destruct (sound_regions d Sd e' I) as (A & B). split; auto. right. split; auto. exists e'. auto.
  - destruct (sound_regions d Sd e' I) as (A & B). split; auto. right. split; auto. exists e'. auto.
Qed.

Lemma hashed_values : forall e, hashed d e ->
  Forall (fun v => tidy v = true) (values py e) /\ forallb is_ascii (values py e) = true /\ ~ In (Some "|") (x_vals e) /\ wild_ok (x_wild e) = true.
Proof.
  intros e He. destruct (hashed_vals e He) as [V _]. apply andb_true_iff in V as [V W].
  assert (Vs : forall s, In (Some s) (x_vals e) -> tidy s = true /\ is_ascii s = true /\ s <> "|").
  { intros s I. rewrite forallb_forall in V. apply V in I. apply andb_true_iff in I as [I N]. apply andb_true_iff in I as [T A].
    apply negb_true_iff in N. apply String.eqb_neq in N. auto. }
  assert (Vn : forall v, In v (map replace_none (x_vals e)) -> tidy v = true /\ is_ascii v = true).
  { intros v I. apply in_map_iff in I as ([s|] & <- & I); [destruct (Vs s I) as (A & B & _); auto|cbn; auto]. }
  assert (R : let r := match x_refs e with Some l => py_show py l | None => "|" end in tidy r = true /\ is_ascii r = true).
  { destruct (x_refs e) as [l|] eqn:E; [|auto]. destruct (fair_show py d Fd e l He E) as (A & B & _). auto. }
  unfold values. split; [|split; [|split; [|exact W]]].
  - constructor; [apply R|]. apply Forall_forall. intros v I. apply Vn. auto.
  - cbn [forallb]. apply andb_true_iff. split; [apply R|]. apply forallb_forall. intros v I. apply Vn. auto.
  - intros I. apply Vs in I as (_ & _ & N). auto.
Qed.

Lemma code_alike : forall e e', alike e e' -> code py e = code py e'.
Proof. intros e e' (A & B & C). unfold code, values. rewrite A, B, C. auto. Qed.

Lemma hash_alike : forall e e', hashed d e -> hashed d e' ->
  py_hash py (code py e) = py_hash py (code py e') -> alike e e'.
Proof.
  assert (Len : forall e e', hashed d e -> hashed d e' -> List.length (x_vals e) = 15%nat -> List.length (x_vals e') = 7%nat ->
            code py e = code py e' -> False).
  { intros e e' He He' L L' E. destruct (hashed_values e He) as (T & _ & _ & W). destruct (hashed_values e' He') as (T' & _ & _ & W').
    unfold code in E. rewrite <- (firstn_skipn 8 (values py e)) in E, T. rewrite with_marks_app, app_assoc_s in E.
    apply Forall_app in T as [T1 T2].
    apply with_marks_inj in E; auto using wild_fresh, with_marks_fresh.
    - destruct E as [_ E]. apply (wild_not_values (skipn 8 (values py e)) (wild_code (x_wild e)) (x_wild e')); auto using wild_fresh.
      rewrite skipn_length. unfold values. cbn [List.length]. rewrite map_length. lia.
    - rewrite firstn_length. unfold values. cbn [List.length]. rewrite !map_length. lia. }
  intros e e' He He' Eh. apply (fair_hash py d Fd) in Eh; auto.
  assert (Ln : List.length (x_vals e) = List.length (x_vals e')).
  { destruct (hashed_vals e He) as [_ [(_ & _ & L)|(L & _)]]; destruct (hashed_vals e' He') as [_ [(_ & _ & L')|(L' & _)]]; try congruence; exfalso.
    - apply (Len e e'); auto.
    - apply (Len e' e); auto. }
  destruct (hashed_values e He) as (T & _ & V & W). destruct (hashed_values e' He') as (T' & _ & V' & W').
  unfold code in Eh. apply with_marks_inj in Eh; auto using wild_fresh.
  2:{ unfold values. cbn [List.length]. rewrite !map_length. lia. }
  destruct Eh as [Ev Ew]. apply wild_inj in Ew; auto. unfold values in Ev. inversion Ev as [[Er Ex]]. apply vals_inj in Ex; auto.
  split; [|auto]. destruct (x_refs e) as [l|] eqn:R, (x_refs e') as [l'|] eqn:R'; auto.
  - f_equal. apply (fair_show_inj py d Fd e e'); auto.
  - elim (proj2 (proj2 (fair_show py d Fd e l He R))). auto.
  - elim (proj2 (proj2 (fair_show py d Fd e' l' He' R'))). auto.
Qed.

End Hashed.

(** ** Replacing the references of the body *)

Section Body.
Variables (f : string -> option string) (g : string -> string).

Definition refs_fine (o : option (list string)) : Prop :=
  match o with Some l => (forall r, In r l -> f r = Some (g r)) /\ ~ nested (map g l) | None => True end.
Definition region_fine (o : option string) : Prop := match o with Some r => f r = Some (g r) | None => True end.

Lemma replace_style_ok : forall o, refs_fine o -> replace_style f o = DOk (renamed_refs g o).
Proof. intros [l|] H; auto. destruct H as [H N]. cbn. rewrite (replace_all f g l H N). auto. Qed.

Lemma replace_nodes_go : forall f' l, (fix go (l : list node) : dres (list node) :=
                match l with
                | [] => DOk []
                | x :: r => dbind (replace_node f' x) (fun x' => dbind (go r) (fun r' => DOk (x' :: r')))
                end) l = replace_nodes f' l.
Proof. intros f'. induction l as [|x l IH]; cbn; auto. destruct (replace_node f' x); cbn; auto. rewrite IH. auto. Qed.

Lemma replace_node_ok : forall n, (forall o, In o (ref_lists n) -> refs_fine o) -> (forall o, In o (region_list n) -> region_fine o) ->
  replace_node f n = DOk (renamed_node g n).
Proof.
  fix IH 1. intros [s| |k i r st b e kids] Hs Hr; try reflexivity.
  cbn [replace_node renamed_node]. rewrite replace_style_ok by (apply Hs; cbn; auto). cbn [dbind]. rewrite replace_nodes_go.
  assert (K : replace_nodes f kids = DOk (map (renamed_node g) kids)).
  { assert (Hs' : forall o, In o (flat_map ref_lists kids) -> refs_fine o) by (intros o I; apply Hs; cbn; auto).
    assert (Hr' : forall o, In o (flat_map region_list kids) -> region_fine o) by (intros o I; apply Hr; cbn; auto).
    clear Hs Hr. induction kids as [|x kids IHk]; auto. cbn [replace_nodes map].
    rewrite IH; [|intros o I; apply Hs'; cbn; apply in_or_app; auto|intros o I; apply Hr'; cbn; apply in_or_app; auto].
    cbn [dbind]. rewrite IHk; auto; intros o I; [apply Hs'|apply Hr']; cbn; apply in_or_app; auto. }
  rewrite K. cbn [dbind]. f_equal. f_equal. assert (R := Hr r (or_introl eq_refl)). destruct r as [j|]; auto.
Qed.

Lemma replace_nodes_ok : forall l, (forall o, In o (flat_map ref_lists l) -> refs_fine o) ->
  (forall o, In o (flat_map region_list l) -> region_fine o) -> replace_nodes f l = DOk (map (renamed_node g) l).
Proof.
  induction l as [|x l IH]; intros Hs Hr; auto. cbn [replace_nodes map].
  rewrite replace_node_ok; [|intros o I; apply Hs; cbn; apply in_or_app; auto|intros o I; apply Hr; cbn; apply in_or_app; auto].
  cbn [dbind]. rewrite IH; auto; intros o I; [apply Hs|apply Hr]; cbn; apply in_or_app; auto.
Qed.

Lemma replace_els_ok : forall l, (forall o, In o (map x_refs l) -> refs_fine o) ->
  replace_els f l = DOk (map (fun e => mkEl (x_id e) (renamed_refs g (x_refs e)) (x_vals e) (x_wild e)) l).
Proof.
  induction l as [|x l IH]; intros Hs; auto. cbn [replace_els map]. rewrite replace_style_ok by (apply Hs; cbn; auto).
  cbn [dbind]. rewrite IH; auto. intros o I. apply Hs. cbn. auto.
Qed.
End Body.

Lemma map_ids_ok : forall f g l, (forall i, In i l -> f i = Some (g i)) -> map_ids f l = DOk (map g l).
Proof.
  intros f g. induction l as [|i l IH]; intros H; auto. cbn. rewrite H by (cbn; auto). rewrite IH; auto. intros j I. apply H. cbn. auto.
Qed.

Lemma named_In : forall l e, NoDup (map x_id l) -> In e l -> named l (x_id e) = Some e.
Proof.
  induction l as [|a l IH]; intros e N I; [contradiction|]. inversion N; subst. unfold named. cbn [find]. destruct I as [->|I].
  - rewrite String.eqb_refl. auto.
  - destruct (String.eqb_spec (x_id a) (x_id e)) as [E|_]; [elim H1; rewrite E; apply in_map; auto|]. apply IH; auto.
Qed.
