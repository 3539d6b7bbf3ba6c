(** Proofs about the ring buffer and the rotating file buffer. *)

From Coq Require Import List String Bool Arith Lia.
From Verif Require Import RingModel.
Import ListNotations.

Lemma skipn_app_exact : forall A (l m : list A) k, k = List.length l -> skipn k (l ++ m) = m.
Proof. intros A l m k ->. rewrite skipn_app, skipn_all, Nat.sub_diag. reflexivity. Qed.

Lemma newest_short : forall A n (l : list A), List.length l <= n -> newest (Some n) l = l.
Proof. intros A n l H. unfold newest. replace (List.length l - n) with 0 by lia. reflexivity. Qed.

Lemma newest_len : forall A n (l : list A), List.length (newest (Some n) l) = min n (List.length l).
Proof. intros. unfold newest. rewrite skipn_length. lia. Qed.

(** Appending to the newest is the newest of the appended. *)
Lemma newest_app : forall A n (l : list A) x,
  newest (Some n) (newest (Some n) l ++ [x]) = newest (Some n) (l ++ [x]).
Proof.
  intros A n l x. unfold newest. rewrite !app_length, !skipn_length. cbn [List.length].
  destruct (le_lt_dec (List.length l) n) as [H|H].
  - replace (List.length l - n) with 0 by lia. cbn [skipn]. f_equal. lia.
  - assert (Ha : List.length (firstn (List.length l - n) l) = List.length l - n)
      by (rewrite firstn_length; lia).
    assert (Hb : List.length (skipn (List.length l - n) l) = n) by (rewrite skipn_length; lia).
    transitivity (skipn (List.length l + 1 - n) ((firstn (List.length l - n) l ++ skipn (List.length l - n) l) ++ [x]));
      [|rewrite firstn_skipn; reflexivity].
    replace (List.length l - (List.length l - n) + 1 - n) with 1 by lia.
    remember (firstn (List.length l - n) l) as a. remember (skipn (List.length l - n) l) as b.
    rewrite <- app_assoc. replace (List.length l + 1 - n) with (List.length a + 1) by lia.
    rewrite (skipn_app (List.length a + 1) a). rewrite (skipn_all2 a) by lia. cbn [app]. f_equal. lia.
Qed.

Lemma appends_general : forall A (n : nat) (xs l : list A), 0 < n -> List.length l <= n ->
  ring_appends (mkRing (Some n) true l) xs =
  RAppended (mkRing (Some n) true (newest (Some n) (l ++ xs)))
            (firstn (List.length (l ++ xs) - n) (l ++ xs)).
Proof.
  intros A n. induction xs as [|x r IH]; intros l Hn Hl; cbn [ring_appends].
  - rewrite app_nil_r, newest_short by auto. replace (List.length l - n) with 0 by lia. reflexivity.
  - unfold ring_append. cbn [r_max r_callback r_items]. rewrite andb_true_r.
    destruct (Nat.leb_spec n (List.length l)) as [H|H].
    + destruct l as [|y rest]; [cbn in H; lia|]. cbn [List.length] in H, Hl.
      rewrite newest_short by (rewrite app_length; cbn; lia).
      rewrite IH by (try rewrite app_length; cbn; lia).
      rewrite <- app_assoc. cbn [app]. f_equal.
      * f_equal. unfold newest. rewrite !app_length. cbn [List.length].
        rewrite !app_length. cbn [List.length].
        replace (S (List.length rest + S (List.length r)) - n)
          with (S (List.length rest + S (List.length r) - n)) by lia. reflexivity.
      * rewrite !app_length. cbn [List.length]. rewrite ?app_length. cbn [List.length].
        replace (S (List.length rest + S (List.length r)) - n)
          with (S (List.length rest + S (List.length r) - n)) by lia. reflexivity.
    + rewrite newest_short by (rewrite app_length; cbn; lia).
      rewrite IH by (try rewrite app_length; cbn; lia).
      rewrite <- app_assoc. cbn [app]. reflexivity.
Qed.

Lemma appends_no_callback : forall A (n : nat) (xs l : list A), List.length l <= n ->
  ring_appends (mkRing (Some n) false l) xs =
  RAppended (mkRing (Some n) false (newest (Some n) (l ++ xs))) [].
Proof.
  intros A n. induction xs as [|x r IH]; intros l Hl; cbn [ring_appends].
  - rewrite app_nil_r, newest_short by auto. reflexivity.
  - unfold ring_append. cbn [r_max r_callback r_items]. rewrite andb_false_r.
    rewrite IH by (rewrite newest_len; lia). f_equal. f_equal.
    clear IH. revert l x Hl.
    induction r as [|y r IH] using rev_ind; intros l x Hl.
    + rewrite app_nil_r. apply newest_short. rewrite newest_len. lia.
    + rewrite app_assoc. rewrite <- newest_app. rewrite (IH l x Hl).
      rewrite newest_app. rewrite <- app_assoc. reflexivity.
Qed.

(** ** Files *)

Lemma exists_remove : forall fs f g, exists_file (remove_file fs f) g = exists_file fs g && negb (String.eqb f g).
Proof.
  intros fs f g. unfold exists_file, remove_file. induction fs as [|h r IH]; cbn; auto.
  destruct (String.eqb_spec f h) as [->|Hn]; cbn.
  - rewrite IH. destruct (String.eqb_spec g h) as [->|]; cbn; auto.
    rewrite String.eqb_refl. cbn. apply andb_false_r.
  - rewrite IH. destruct (String.eqb_spec g h) as [->|]; cbn; auto.
    apply String.eqb_neq in Hn. rewrite Hn. reflexivity.
Qed.

Lemma do_delete_one : forall ok f fs fs' b, do_delete ok [f] fs = (fs', b) ->
  (b = true -> forall g, exists_file fs' g = exists_file fs g && negb (String.eqb f g)) /\
  (b = false -> fs' = fs /\ ok f = false /\ exists_file fs f = true).
Proof.
  intros ok f fs fs' b H. unfold do_delete in H. cbn in H.
  destruct (exists_file fs f) eqn:E.
  - destruct (ok f) eqn:Eo; inversion H; subst; split; intros Hb; try discriminate; auto.
    intros g. apply exists_remove.
  - inversion H; subst. split; [|discriminate]. intros _ g.
    destruct (String.eqb_spec f g) as [->|]; cbn; rewrite ?andb_true_r, ?andb_false_r; auto.
Qed.
