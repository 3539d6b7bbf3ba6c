(** Property C25: the ring buffer and the rotating file buffer. *)

From Coq Require Import List String Bool Arith Lia.
From Verif Require Import RingModel RingProofs.
Import ListNotations.

(** ** The ring buffer *)

(** The buffer holds the newest [n] items; the callback got the others, oldest
    first, each once. *)
Theorem C25_ring : forall A (n : nat) (xs : list A), 0 < n ->
  exists items called,
    ring_appends (ring_new [] (Some n) true) xs = RAppended (mkRing (Some n) true items) called /\
    called ++ items = xs /\ List.length items = min n (List.length xs).
Proof.
  intros A n xs Hn. eexists _, _. split.
  - unfold ring_new, newest. cbn [List.length skipn Nat.sub].
    apply appends_general; auto. cbn. lia.
  - cbn [app]. unfold newest. split; [apply firstn_skipn|]. rewrite skipn_length. lia.
Qed.

(** The same when the buffer starts from an iterable; what does not fit of
    that is dropped without a call. *)
Theorem C25_ring_from : forall A (n : nat) (init xs : list A), 0 < n ->
  exists items called,
    ring_appends (ring_new init (Some n) true) xs = RAppended (mkRing (Some n) true items) called /\
    called ++ items = newest (Some n) init ++ xs /\
    List.length items = min n (List.length init + List.length xs).
Proof.
  intros A n init xs Hn. eexists _, _. split.
  - unfold ring_new. apply appends_general; auto. rewrite newest_len. lia.
  - split; [apply firstn_skipn|]. rewrite newest_len, app_length, newest_len. lia.
Qed.

(** Without callback the contents are the same. *)
Theorem C25_ring_silent : forall A (n : nat) (init xs : list A),
  ring_appends (ring_new init (Some n) false) xs =
  RAppended (mkRing (Some n) false (newest (Some n) (newest (Some n) init ++ xs))) [].
Proof.
  intros A n init xs. unfold ring_new. apply appends_no_callback. rewrite newest_len. lia.
Qed.

(** A buffer with a callback and no maxlen, or maxlen 0, cannot be used. *)
Theorem C25_unbounded_wrong : forall A (x : A),
  ring_append (ring_new [] None true) x = RIndexError /\
  ring_append (ring_new [] (Some 0) true) x = RIndexError /\
  exists r, ring_append (ring_new [] None false) x = RAppended r [].
Proof. intros. repeat split. eexists. reflexivity. Qed.

(** And with maxlen None and some initial items it loses one per append. *)
Theorem C25_unbounded_loses : forall A (l : list A) x y,
  ring_append (ring_new (y :: l) None true) x = RAppended (mkRing None true (l ++ [x])) [y].
Proof. reflexivity. Qed.

Example C25_ring_case :
  ring_appends (ring_new [] (Some 3) true) [1; 2; 3; 4; 5] =
  RAppended (mkRing (Some 3) true [3; 4; 5]) [1; 2].
Proof. reflexivity. Qed.

(** ** The rotating file buffer without thread *)

Fixpoint sync_appends (ok : string -> bool) (s : rfb) (xs : list string) : sync_res :=
  match xs with
  | [] => SyOk s
  | x :: r => match sync_append ok s x with
              | SyOk s' => sync_appends ok s' r
              | other => other
              end
  end.

Lemma sync_general : forall ok n xs s l, 0 < n -> List.length l <= n ->
  b_ring s = mkRing (Some n) true l -> (forall f, ok f = true) ->
  exists s' items, sync_appends ok s xs = SyOk s' /\
    b_ring s' = mkRing (Some n) true items /\
    exists gone, gone ++ items = l ++ xs /\ List.length items = min n (List.length (l ++ xs)) /\
    b_evicted s' = b_evicted s ++ gone /\
    forall f, exists_file (b_fs s') f = true <-> exists_file (b_fs s) f = true /\ ~ In f gone.
Proof.
  intros ok n. induction xs as [|x r IH]; intros s l Hn Hl Hr Hok; cbn [sync_appends].
  - exists s, l. split; auto. split; auto. exists []. rewrite !app_nil_r. cbn.
    split; auto. split; [lia|]. split; [reflexivity|]. intros f; tauto.
  - unfold sync_append. rewrite Hr. cbn [r_max r_items].
    destruct (Nat.leb_spec n (List.length l)) as [H|H].
    + destruct l as [|y rest]; [cbn in H; lia|]. cbn [List.length] in H, Hl.
      destruct (do_delete ok [y] (b_fs s)) as [fs fine] eqn:Ed.
      destruct (do_delete_one _ _ _ _ _ Ed) as [Ht Hf].
      destruct fine; [|destruct (Hf eq_refl) as (_ & Ho & _); rewrite Hok in Ho; discriminate].
      specialize (Ht eq_refl).
      destruct (IH (mkRfb (mkRing (Some n) true (newest (Some n) (rest ++ [x]))) (b_queue s) (b_stopped s)
                      (b_phase s) fs (b_evicted s ++ [y])) (rest ++ [x]))
        as (s' & items & E1 & E2 & gone & E3 & E4 & E5 & E6); auto.
      { rewrite app_length. cbn. lia. }
      { cbn [b_ring]. rewrite newest_short; auto. rewrite app_length. cbn. lia. }
      exists s', items. split; auto. split; auto. exists (y :: gone).
      cbn [b_evicted b_fs] in *. rewrite <- app_assoc in E3, E4. cbn [app] in *.
      split; [cbn [app]; f_equal; auto|]. split; [rewrite E4; cbn [List.length]; rewrite app_length; cbn [List.length]; lia|].
      split; [rewrite E5, <- app_assoc; reflexivity|].
      intros f. rewrite E6, Ht, andb_true_iff, negb_true_iff, String.eqb_neq. cbn [In]. intuition congruence.
    + destruct (IH (mkRfb (mkRing (Some n) true (newest (Some n) (l ++ [x]))) (b_queue s) (b_stopped s)
                      (b_phase s) (b_fs s) (b_evicted s)) (l ++ [x]))
        as (s' & items & E1 & E2 & gone & E3 & E4 & E5 & E6); auto.
      { rewrite app_length. cbn. lia. }
      { cbn [b_ring]. rewrite newest_short; auto. rewrite app_length. cbn. lia. }
      exists s', items. split; auto. split; auto. exists gone.
      cbn [b_evicted b_fs] in *. rewrite <- app_assoc in E3, E4. cbn [app] in *. auto.
Qed.

(** Exactly the files whose names have left the buffer are removed. *)
Theorem C25_files : forall ok n fs xs, 0 < n -> (forall f, ok f = true) ->
  exists s items gone, sync_appends ok (rfb_new n fs) xs = SyOk s /\
    b_ring s = mkRing (Some n) true items /\ gone ++ items = xs /\
    List.length items = min n (List.length xs) /\
    forall f, exists_file (b_fs s) f = true <-> exists_file fs f = true /\ ~ In f gone.
Proof.
  intros ok n fs xs Hn Hok.
  destruct (sync_general ok n xs (rfb_new n fs) [] Hn) as (s & items & E1 & E2 & gone & E3 & E4 & _ & E6); auto.
  { cbn. lia. }
  exists s, items, gone. auto.
Qed.

Example C25_files_case : exists s,
  sync_appends (fun _ => true) (rfb_new 2 ["a"; "b"; "c"; "other"]%string) ["a"; "b"; "c"]%string = SyOk s /\
  r_items (b_ring s) = ["b"; "c"]%string /\ b_fs s = ["b"; "c"; "other"]%string.
Proof. eexists. split; [reflexivity|]. split; reflexivity. Qed.

(** Deleting a list of names: all go, whichever are there, unless the removal of
    one fails; then the names after it in the list are gone and those before it
    are untouched. *)
Theorem C25_delete_all : forall ok waiting fs, (forall f, In f waiting -> ok f = true) ->
  snd (do_delete ok waiting fs) = true /\
  forall f, exists_file (fst (do_delete ok waiting fs)) f = true <->
            exists_file fs f = true /\ ~ In f waiting.
Proof.
  intros ok waiting fs H. unfold do_delete.
  assert (H' : forall f, In f (rev waiting) -> ok f = true) by (intros f Hf; apply H, in_rev, Hf).
  assert (E : forall f, ~ In f waiting <-> ~ In f (rev waiting)) by (intros f; rewrite <- in_rev; tauto).
  setoid_rewrite E. clear H E. revert fs. induction (rev waiting) as [|g l IH]; intros fs.
  - cbn. split; auto. intros f. tauto.
  - cbn [delete_each]. assert (Hl : forall f, In f l -> ok f = true) by (intros; apply H'; right; auto).
    destruct (exists_file fs g) eqn:Eg.
    + rewrite (H' g) by (left; auto). destruct (IH Hl (remove_file fs g)) as [A B]. split; auto.
      intros f. rewrite B, exists_remove. cbn [In]. rewrite andb_true_iff, negb_true_iff.
      destruct (String.eqb_spec g f); split; intros; intuition congruence.
    + destruct (IH Hl fs) as [A B]. split; auto. intros f. rewrite B. cbn [In].
      split; intros [X Y]; split; auto; intros Z; intuition congruence.
Qed.

Theorem C25_delete_fails : forall ok before f after fs,
  (forall g, In g after -> ok g = true) -> ok f = false -> exists_file fs f = true -> ~ In f after ->
  snd (do_delete ok (before ++ f :: after) fs) = false /\
  fst (do_delete ok (before ++ f :: after) fs) = fst (do_delete ok after fs).
Proof.
  intros ok before f after fs Ha Hf He Hn. unfold do_delete. rewrite rev_app_distr. cbn [rev].
  rewrite <- app_assoc. cbn [app].
  assert (Ha' : forall g, In g (rev after) -> ok g = true) by (intros; apply Ha, in_rev; auto).
  assert (Hn' : ~ In f (rev after)) by (rewrite <- in_rev; auto). clear Ha Hn.
  revert fs He. induction (rev after) as [|g l IH]; intros fs He; cbn [app delete_each].
  - rewrite He, Hf. auto.
  - assert (Hg : ok g = true) by (apply Ha'; left; auto).
    assert (f <> g) by (intros ->; apply Hn'; left; auto).
    destruct (exists_file fs g) eqn:Eg.
    + rewrite Hg. apply IH; [intros; apply Ha'; right; auto|intros X; apply Hn'; right; auto|].
      rewrite exists_remove, He. destruct (String.eqb_spec g f); congruence || auto.
    + apply IH; auto; [intros; apply Ha'; right; auto|intros X; apply Hn'; right; auto].
Qed.

Example C25_delete_case :
  do_delete (fun f => negb (String.eqb f "b"%string)) ["a"; "b"; "c"; "d"]%string ["a"; "b"; "c"]%string
  = (["a"; "b"]%string, false).
Proof. reflexivity. Qed.

(** A file that cannot be removed: the OSError escapes from append, the new
    name is not in the buffer and the old one is no longer. *)
Theorem C25_oserror : forall ok n s l x y, b_ring s = mkRing (Some n) true (y :: l) ->
  n <= S (List.length l) -> exists_file (b_fs s) y = true -> ok y = false ->
  exists s', sync_append ok s x = SyOSError s' /\ r_items (b_ring s') = l /\ b_fs s' = b_fs s.
Proof.
  intros ok n s l x y Hr Hn He Ho. unfold sync_append. rewrite Hr. cbn [r_max r_items List.length].
  destruct (Nat.leb_spec n (S (List.length l))) as [H|H]; [|lia].
  unfold do_delete. cbn [rev app delete_each]. rewrite He, Ho. eexists. split; [reflexivity|]. auto.
Qed.

Example C25_oserror_case : exists s',
  sync_append (fun _ => false)
    (mkRfb (mkRing (Some 2) true ["a"; "b"]) [] false PRunning ["a"; "b"; "c"] [])%string "c" = SyOSError s' /\
  r_items (b_ring s') = ["b"]%string.
Proof. eexists. split; reflexivity. Qed.

(** ** The rotating file buffer with its thread *)

(** The names accepted by append: those before stop. *)
Fixpoint accepted_names (stopped : bool) (l : list act) : list string :=
  match l with
  | [] => []
  | AAppend x :: r => if stopped then accepted_names stopped r else x :: accepted_names stopped r
  | AStop :: r => accepted_names true r
  | _ :: r => accepted_names stopped r
  end.

Definition was_stopped (l : list act) : bool :=
  existsb (fun a => match a with AStop => true | _ => false end) l.

Lemma accepted_snoc : forall l b a, accepted_names b (l ++ [a]) =
  accepted_names b l ++ match a with
                        | AAppend x => if b || was_stopped l then [] else [x]
                        | _ => []
                        end.
Proof.
  induction l as [|c l IH]; intros b a; cbn [app accepted_names was_stopped existsb].
  - rewrite orb_false_r. destruct a; auto.
  - destruct c; cbn [accepted_names]; rewrite ?IH; cbn [orb]; rewrite ?orb_true_r; auto.
    destruct b; cbn [orb]; auto.
Qed.

(** Nothing is written under a name that has been given to append before. *)
Definition write_once (l : list act) : Prop :=
  forall l1 f l2, l = l1 ++ AWrite f :: l2 -> ~ In f (accepted_names false l1).

Lemma write_once_snoc : forall l a, write_once (l ++ [a]) -> write_once l.
Proof.
  intros l a H l1 f l2 E. apply (H l1 f (l2 ++ [a])). rewrite E, <- app_assoc. reflexivity.
Qed.

Definition shape_inv (n : nat) (l : list act) (s : rfb) : Prop :=
  exists items, b_ring s = mkRing (Some n) true items /\ List.length items <= n /\
    (b_evicted s = [] \/ List.length items = n) /\
    b_evicted s ++ items = accepted_names false l /\
    b_stopped s = was_stopped l /\ (exists taken, b_evicted s = taken ++ b_queue s).

Lemma shape_holds : forall ok n fs l, 0 < n -> shape_inv n l (rfb_run ok (rfb_new n fs) l).
Proof.
  intros ok n fs l Hn. unfold rfb_run. induction l as [|a l IH] using rev_ind.
  - exists []. cbn. repeat split; auto; try lia. exists []. reflexivity.
  - rewrite fold_left_app. cbn [fold_left].
    set (s := fold_left (rfb_step ok) l (rfb_new n fs)) in *.
    destruct IH as (items & I1 & I2 & I3 & I4 & I5 & taken & I6).
    assert (Hst : was_stopped (l ++ [a]) = was_stopped l || match a with AStop => true | _ => false end).
    { unfold was_stopped. rewrite existsb_app. cbn. rewrite orb_false_r. reflexivity. }
    unfold shape_inv. rewrite accepted_snoc, Hst. cbn [orb].
    destruct a as [x| | | |f]; cbn [rfb_step].
    + rewrite I5, orb_false_r. destruct (was_stopped l) eqn:Ew.
      * exists items. rewrite app_nil_r. repeat split; auto. exists taken. auto.
      * rewrite I1. unfold ring_append. cbn [r_max r_callback r_items]. rewrite andb_true_r.
        destruct (Nat.leb_spec n (List.length items)) as [H|H].
        -- destruct items as [|y rest]; [cbn in H; lia|]. cbn [List.length] in H, I2.
           exists (rest ++ [x]). cbn [b_ring b_evicted b_stopped b_queue].
           assert (Hlen : List.length (rest ++ [x]) = n) by (rewrite app_length; cbn; lia).
           rewrite newest_short by lia.
           split; auto. split; [lia|]. split; [auto|].
           split; [rewrite <- I4, <- !app_assoc; reflexivity|]. split; auto.
           exists taken. rewrite I6, app_assoc. reflexivity.
        -- exists (items ++ [x]). cbn [b_ring b_evicted b_stopped b_queue]. rewrite !app_nil_r.
           assert (Hlen : List.length (items ++ [x]) <= n) by (rewrite app_length; cbn; lia).
           rewrite newest_short by lia.
           split; auto. split; [lia|]. split.
           { destruct I3 as [I3|I3]; [auto|lia]. }
           split; [rewrite <- I4, <- !app_assoc; reflexivity|]. split; auto. exists taken. auto.
    + rewrite app_nil_r, orb_false_r. destruct (b_phase s); try (exists items; repeat split; auto; exists taken; auto).
      destruct (b_queue s) as [|f q] eqn:Eq; [exists items; repeat split; auto; exists taken; rewrite Eq; auto|].
      destruct (do_delete ok [f] (b_fs s)) as [fs' fine].
      exists items. cbn [b_ring b_evicted b_stopped b_queue]. repeat split; auto.
      exists (taken ++ [f]). rewrite I6, <- app_assoc. reflexivity.
    + rewrite app_nil_r, orb_true_r. exists items. cbn [b_ring b_evicted b_stopped b_queue].
      repeat split; auto. exists taken; auto.
    + rewrite app_nil_r, orb_false_r. destruct (b_phase s); try (exists items; repeat split; auto; exists taken; auto).
      destruct (b_queue s) as [|f q] eqn:Eq; [|exists items; repeat split; auto; exists taken; rewrite Eq; auto].
      destruct (b_stopped s) eqn:Es.
      * exists items. cbn [b_ring b_evicted b_stopped b_queue]. repeat split; auto. exists taken. auto.
      * exists items. repeat split; auto; try congruence. exists taken. rewrite Eq. auto.
    + rewrite app_nil_r, orb_false_r. exists items. cbn [b_ring b_evicted b_stopped b_queue].
      repeat split; auto. exists taken; auto.
Qed.

(** At any time the buffer holds the newest names, and the rest have been
    handed over for deletion in order. *)
Theorem C25_async_buffer : forall ok n fs l, 0 < n ->
  let s := rfb_run ok (rfb_new n fs) l in
  b_evicted s ++ r_items (b_ring s) = accepted_names false l /\
  List.length (r_items (b_ring s)) = min n (List.length (accepted_names false l)).
Proof.
  intros ok n fs l Hn s. destruct (shape_holds ok n fs l Hn) as (items & I1 & I2 & I3 & I4 & I5 & I6).
  fold s in I1, I3, I4. rewrite I1. cbn [r_items]. split; auto.
  rewrite <- I4, app_length. destruct I3 as [I3|I3]; [rewrite I3; cbn; lia|lia].
Qed.

(** Safety: a file disappears only when the thread works, and only after its
    name left the buffer; if no name is used twice, no file whose name is in the
    buffer is ever removed. *)
Theorem C25_async_safe : forall ok n fs l a f, 0 < n ->
  let s := rfb_run ok (rfb_new n fs) l in
  exists_file (b_fs s) f = true -> exists_file (b_fs (rfb_step ok s a)) f = false ->
  a = ARound /\ In f (b_evicted s) /\
  (NoDup (accepted_names false l) -> ~ In f (r_items (b_ring s))).
Proof.
  intros ok n fs l a f Hn s H1 H2.
  destruct (shape_holds ok n fs l Hn) as (items & I1 & I2 & I3 & I4 & I5 & taken & I6).
  fold s in I1, I3, I4, I5, I6.
  destruct a as [x| | | |g]; cbn [rfb_step] in H2.
  - destruct (b_stopped s); [congruence|]. destruct (ring_append (b_ring s) x); cbn [b_fs] in H2; congruence.
  - destruct (b_phase s); try congruence. destruct (b_queue s) as [|h q] eqn:Eq; [congruence|].
    destruct (do_delete ok [h] (b_fs s)) as [fs' fine] eqn:Ed. cbn [b_fs] in H2.
    destruct (do_delete_one _ _ _ _ _ Ed) as [Ht Hf]. destruct fine.
    + rewrite (Ht eq_refl), H1 in H2. cbn in H2. apply negb_false_iff, String.eqb_eq in H2. subst h.
      assert (Hin : In f (b_evicted s)) by (rewrite I6; apply in_or_app; right; left; reflexivity).
      split; auto. split; auto. rewrite <- I4, I1. cbn [r_items]. intros Hd Hi.
      apply in_split in Hin as (l1 & l2 & E). rewrite E in Hd. rewrite <- app_assoc in Hd. cbn [app] in Hd.
      apply NoDup_remove_2 in Hd. apply Hd. apply in_or_app; right. apply in_or_app; right; auto.
    + destruct (Hf eq_refl) as (E & _). subst. congruence.
  - cbn [b_fs] in H2. congruence.
  - destruct (b_phase s); try congruence. destruct (b_queue s); try congruence.
    destruct (b_stopped s); cbn [b_fs] in H2; congruence.
  - cbn [b_fs] in H2. unfold exists_file in *. cbn [existsb] in H2. rewrite H1, orb_true_r in H2. discriminate.
Qed.

(** Completeness: while the thread lives, a handed over file that still exists
    is waiting in the queue. *)
Theorem C25_async_pending : forall ok n fs l f, 0 < n -> write_once l ->
  let s := rfb_run ok (rfb_new n fs) l in
  b_phase s <> PDead -> In f (b_evicted s) ->
  In f (b_queue s) \/ exists_file (b_fs s) f = false.
Proof.
  intros ok n fs l. induction l as [|a l IH] using rev_ind; intros f Hn Hw s Hp Hin.
  - cbn in Hin. destruct Hin.
  - destruct (shape_holds ok n fs l Hn) as (items & I1 & I2 & I3 & I4 & I5 & taken & I6).
    unfold rfb_run in *. unfold s in *. clear s. rewrite fold_left_app in *. cbn [fold_left] in *.
    set (s := fold_left (rfb_step ok) l (rfb_new n fs)) in *.
    assert (IH' : forall f, b_phase s <> PDead -> In f (b_evicted s) ->
                  In f (b_queue s) \/ exists_file (b_fs s) f = false)
      by (intros; apply IH; auto; eapply write_once_snoc; eauto).
    clear IH. revert Hp Hin. destruct a as [x| | | |g]; cbn [rfb_step].
    + destruct (b_stopped s); [auto|]. destruct (ring_append (b_ring s) x); [|auto].
      cbn [b_phase b_evicted b_queue b_fs]. intros Hp Hin. apply in_app_or in Hin as [Hin|Hin].
      * destruct (IH' f Hp Hin); [left; apply in_or_app; auto|auto].
      * left. apply in_or_app; auto.
    + destruct (b_phase s) eqn:Ep; try (intros; apply IH'; auto; congruence).
      destruct (b_queue s) as [|h q] eqn:Eq; [intros; rewrite Eq; apply IH'; auto; congruence|].
      destruct (do_delete ok [h] (b_fs s)) as [fs' fine] eqn:Ed.
      cbn [b_phase b_evicted b_queue b_fs]. intros Hp Hin. destruct fine; [|congruence].
      destruct (do_delete_one _ _ _ _ _ Ed) as [Ht _]. specialize (Ht eq_refl).
      destruct (IH' f ltac:(congruence) Hin) as [[E|Hq]|He]; [subst; right|left; auto|right].
      * rewrite Ht, String.eqb_refl. apply andb_false_r.
      * rewrite Ht, He. reflexivity.
    + cbn [b_phase b_evicted b_queue b_fs]. auto.
    + destruct (b_phase s) eqn:Ep; try (intros; apply IH'; auto; congruence).
      destruct (b_queue s) as [|h q] eqn:Eq; [|intros; rewrite Eq; apply IH'; auto; congruence].
      destruct (b_stopped s); cbn [b_phase b_evicted b_queue b_fs]; intros Hp Hin;
        [destruct (IH' f ltac:(congruence) Hin); auto|rewrite Eq; apply IH'; auto; congruence].
    + cbn [b_phase b_evicted b_queue b_fs]. intros Hp Hin. destruct (IH' f Hp Hin) as [H|H]; [auto|].
      right. unfold exists_file in *. cbn [existsb]. rewrite H, orb_false_r.
      apply String.eqb_neq. intros ->. apply (Hw l g [] eq_refl). rewrite <- I4. apply in_or_app; auto.
Qed.

(** So when the thread has ended after stop, every file handed over is gone. *)
Lemma done_empty : forall ok l n fs, b_phase (rfb_run ok (rfb_new n fs) l) = PDone ->
  b_queue (rfb_run ok (rfb_new n fs) l) = [] /\ b_stopped (rfb_run ok (rfb_new n fs) l) = true.
Proof.
  intros ok l n fs. unfold rfb_run. induction l as [|a l IH] using rev_ind; [discriminate|].
  rewrite fold_left_app. cbn [fold_left]. set (s := fold_left (rfb_step ok) l (rfb_new n fs)) in *.
  destruct a as [x| | | |g]; cbn [rfb_step].
  - destruct (b_stopped s) eqn:Es; [intros H; destruct (IH H); auto|]. destruct (ring_append (b_ring s) x); [|intros H; destruct (IH H); congruence].
    cbn [b_phase]. intros H. destruct (IH H). congruence.
  - destruct (b_phase s) eqn:Ep; [|auto|congruence].
    destruct (b_queue s) eqn:Eq; [congruence|].
    destruct (do_delete ok [s0] (b_fs s)) as [fs' fine]. cbn [b_phase]. destruct fine; discriminate.
  - cbn [b_phase b_queue b_stopped]. intros H. destruct (IH H). auto.
  - destruct (b_phase s) eqn:Ep; [|auto|congruence].
    destruct (b_queue s) eqn:Eq; [|congruence]. destruct (b_stopped s) eqn:Es; [|congruence].
    cbn. auto.
  - cbn [b_phase b_queue b_stopped]. auto.
Qed.

Theorem C25_async_done : forall ok n fs l f, 0 < n -> write_once l ->
  let s := rfb_run ok (rfb_new n fs) l in
  b_phase s = PDone -> In f (b_evicted s) -> exists_file (b_fs s) f = false.
Proof.
  intros ok n fs l f Hn Hw s Hp Hin.
  destruct (C25_async_pending ok n fs l f Hn Hw) as [H|H]; auto.
  - fold s. congruence.
  - destruct (done_empty ok l n fs Hp) as [E _]. rewrite E in H. destruct H.
Qed.

(** And it does end: stop, as many rounds as there are names, exit. *)
Lemma rounds_drain : forall ok k s, (forall f, ok f = true) -> b_phase s = PRunning ->
  List.length (b_queue s) = k ->
  let s' := rfb_run ok s (repeat ARound k) in
  b_phase s' = PRunning /\ b_queue s' = [] /\ b_stopped s' = b_stopped s.
Proof.
  intros ok. induction k as [|k IH]; intros s Hok Hp Hl s'; unfold s', rfb_run; cbn [repeat fold_left].
  - split; auto. split; auto. destruct (b_queue s); auto; discriminate.
  - cbn [rfb_step]. rewrite Hp. destruct (b_queue s) as [|f q] eqn:Eq; [discriminate|].
    destruct (do_delete ok [f] (b_fs s)) as [fs' fine] eqn:Ed.
    destruct (do_delete_one _ _ _ _ _ Ed) as [_ Hf]. destruct fine;
      [|destruct (Hf eq_refl) as (_ & Ho & _); rewrite Hok in Ho; discriminate].
    destruct (IH (mkRfb (b_ring s) q (b_stopped s) PRunning fs' (b_evicted s)) Hok eq_refl) as (A & B & C).
    { cbn in *. lia. }
    unfold rfb_run in *. auto.
Qed.

Theorem C25_async_ends : forall ok s, (forall f, ok f = true) -> b_phase s = PRunning ->
  b_phase (rfb_run ok s (AStop :: repeat ARound (List.length (b_queue s)) ++ [AExit])) = PDone.
Proof.
  intros ok s Hok Hp. unfold rfb_run. cbn [fold_left]. rewrite fold_left_app.
  destruct (rounds_drain ok (List.length (b_queue s)) (rfb_step ok s AStop) Hok) as (A & B & C); auto.
  unfold rfb_run in *. cbn [fold_left rfb_step]. cbn [rfb_step] in A, B, C. rewrite A, B, C. reflexivity.
Qed.

Definition sample_run : list act :=
  [AWrite "a"; AAppend "a"; AWrite "b"; AAppend "b"; AWrite "c"; AAppend "c"; ARound;
   AWrite "d"; AAppend "d"; AStop; AAppend "e"; ARound; AExit]%string.

Example C25_async_case :
  let s := rfb_run (fun _ => true) (rfb_new 2 []) sample_run in
  b_phase s = PDone /\ b_evicted s = ["a"; "b"]%string /\ r_items (b_ring s) = ["c"; "d"]%string /\
  b_fs s = ["d"; "c"]%string.
Proof. repeat split. Qed.

Example sample_run_write_once : write_once sample_run.
Proof.
  intros l1 f l2 E. unfold sample_run in E.
  repeat (destruct l1 as [|? l1]; cbn [app] in E;
    [try discriminate E; injection E as <- <-; cbn; intuition discriminate
    |injection E as <- E]). destruct l1; discriminate E.
Qed.

(** One file that cannot be removed ends the thread: files handed over later
    stay for ever, and nobody notices, since append goes on working. *)
Theorem C25_thread_dies : forall l, exists ok,
  let s := rfb_run ok (rfb_new 1 ["a"; "b"; "c"]%string)
             ([AAppend "a"; AAppend "b"; ARound; AAppend "c"]%string ++ repeat ARound l) in
  b_evicted s = ["a"; "b"]%string /\ exists_file (b_fs s) "b" = true /\
  r_items (b_ring s) = ["c"]%string.
Proof.
  intros l. exists (fun f => negb (String.eqb f "a")). unfold rfb_run. rewrite fold_left_app.
  match goal with |- context [fold_left _ (repeat ARound l) ?x] => set (s0 := x) end.
  assert (H : fold_left (rfb_step (fun f => negb (String.eqb f "a"))) (repeat ARound l) s0 = s0).
  { induction l; cbn [repeat fold_left]; auto. }
  rewrite H. repeat split.
Qed.

Print Assumptions C25_ring.
Print Assumptions C25_ring_from.
Print Assumptions C25_ring_silent.
Print Assumptions C25_unbounded_wrong.
Print Assumptions C25_unbounded_loses.
Print Assumptions C25_files.
Print Assumptions C25_oserror.
Print Assumptions C25_async_buffer.
Print Assumptions C25_async_safe.
Print Assumptions C25_async_pending.
Print Assumptions C25_async_done.
Print Assumptions C25_async_ends.
Print Assumptions C25_thread_dies.
Print Assumptions C25_delete_all.
Print Assumptions C25_delete_fails.
