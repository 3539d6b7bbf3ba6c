(** Property C32: identifiers. *)

From Coq Require Import List ZArith String Ascii Bool Lia FinFun.
From Verif Require Import Digits IdModel.
Import ListNotations.
Open Scope string_scope.

Lemma after_app : forall p s r, after p s = Some r <-> s = p ++ r.
Proof.
  induction p as [|a p IH]; intros s r; cbn.
  - split; congruence.
  - destruct s as [|b s]; [split; discriminate|]. destruct (Ascii.eqb_spec a b) as [->|H].
    + rewrite IH. split; congruence.
    + split; [discriminate|congruence].
Qed.

(** The prefix can be taken off again, for the sequence numbers of documents. *)
Theorem C32_match : forall n i, (0 <= n)%Z ->
  match deconflict n (Some i) with Some s => match_deconflict s | None => None end = Some (n, i).
Proof.
  intros n i H. unfold deconflict, match_deconflict.
  assert (E : forall p r, after p (p ++ r) = Some r) by (intros; apply after_app; auto). rewrite E.
  unfold show. destruct (Z.ltb_spec n 0); [lia|].
  rewrite span_app by (auto using show_nat_digits). rewrite read_show_nat, E by auto. auto.
Qed.

(** Different pairs give different identifiers. *)
Theorem C32_injective : forall n m i j, (0 <= n)%Z -> (0 <= m)%Z ->
  deconflict n (Some i) = deconflict m (Some j) -> n = m /\ i = j.
Proof.
  intros n m i j Hn Hm E. assert (A := C32_match n i Hn). assert (B := C32_match m j Hm).
  rewrite E in A. rewrite A in B. inversion B. auto.
Qed.

(** Only prefixed identifiers look prefixed; the shape is exact. *)
Theorem C32_shape : forall s n i, match_deconflict s = Some (n, i) ->
  exists d, all_digits d = true /\ read d = Some n /\ s = "SEQ" ++ d ++ "." ++ i.
Proof.
  intros s n i H. unfold match_deconflict in H.
  destruct (after "SEQ" s) as [r|] eqn:E1; [|discriminate]. apply after_app in E1. subst s.
  destruct (span r) as [d t] eqn:Es. destruct (read d) as [v|] eqn:Er; [|discriminate].
  destruct (after "." t) as [u|] eqn:E2; [|discriminate]. apply after_app in E2. subst t. inversion H; subst.
  apply span_spec in Es as (-> & Hd & _). exists d. auto.
Qed.

(** ** Registering *)

Definition ids {A} (l : list (option string * A)) : list string :=
  flat_map (fun e => match fst e with Some i => [i] | None => [] end) l.

Lemma dict_get_in : forall A (d : list (string * A)) i, dict_get d i <> None <-> In i (map fst d).
Proof.
  induction d as [|[j x] d IH]; intros i; cbn; [split; [congruence|tauto]|].
  destruct (String.eqb_spec i j) as [->|H].
  - split; [auto|discriminate].
  - rewrite IH. split; auto. intros [E|E]; auto. congruence.
Qed.

Lemma register_all_spec : forall A (l : list (option string * A)) d, NoDup (map fst d) ->
  match register_all d l with
  | Some d' => NoDup (map fst d ++ ids l)%list /\ NoDup (map fst d') /\
      (forall i x, dict_get d' i = Some x <-> dict_get d i = Some x \/ In (Some i, x) l)
  | None => ~ NoDup (map fst d ++ ids l)%list
  end.
Proof.
  induction l as [|[o y] l IH]; intros d N; cbn [register_all ids flat_map].
  - rewrite app_nil_r. split; auto. split; auto. intros i x. cbn. tauto.
  - unfold register_id. cbn [fst snd]. destruct o as [j|].
    + destruct (dict_get d j) eqn:G.
      * intros H. assert (Hin : In j (map fst d)) by (apply dict_get_in; congruence).
        cbn [app] in H. apply NoDup_remove_2 in H. apply H. apply in_or_app. auto.
      * assert (Nj : ~ In j (map fst d)) by (rewrite <- dict_get_in; congruence).
        specialize (IH ((j, y) :: d)). cbn [map fst] in IH. specialize (IH (NoDup_cons j Nj N)).
        assert (P : NoDup (j :: (map fst d ++ ids l))%list <-> NoDup (map fst d ++ [j] ++ ids l)%list).
        { cbn [app]. split; intros H.
          - apply NoDup_cons_iff in H as [H1 H2]. apply NoDup_Add with (a := j) (l := (map fst d ++ ids l)%list); auto.
            apply Add_app.
          - assert (H2 := NoDup_remove_2 _ _ _ H). apply NoDup_remove_1 in H. constructor; auto. }
        destruct (register_all ((j, y) :: d) l) as [d'|].
        -- destruct IH as (I1 & I2 & I3). split; [apply P; auto|]. split; auto.
           intros i x. rewrite I3. cbn [dict_get]. split.
           ++ intros [H|H]; [|right; right; auto]. destruct (String.eqb_spec i j) as [->|Hij]; auto.
              inversion H; subst. right. left. auto.
           ++ intros [H|[H|H]]; [| |right; auto].
              ** left. destruct (String.eqb_spec i j) as [->|]; auto. congruence.
              ** inversion H; subst. left. rewrite String.eqb_refl. auto.
        -- rewrite <- P. auto.
    + cbn [app]. specialize (IH d N). destruct (register_all d l) as [d'|]; auto.
      destruct IH as (I1 & I2 & I3). split; auto. split; auto. intros i x. rewrite I3. cbn. intuition. discriminate.
Qed.

(** Registering fails exactly when an identifier occurs twice; otherwise every
    identifier leads to its element. *)
Theorem C32_register : forall A (l : list (option string * A)),
  (register_all [] l <> None <-> NoDup (ids l)) /\
  forall d i x, register_all [] l = Some d -> (dict_get d i = Some x <-> In (Some i, x) l).
Proof.
  intros A l. assert (R := register_all_spec A l [] ltac:(constructor)). cbn [map app] in R. split.
  - destruct (register_all [] l); [split; [tauto|discriminate]|split; tauto].
  - intros d i x E. rewrite E in R. destruct R as (_ & _ & R). rewrite R. cbn. intuition. discriminate.
Qed.

(** Documents with different sequence numbers, each without repeated
    identifiers, can be put together once their identifiers are prefixed. *)
Lemma ids_deconflict : forall A n (l : list (option string * A)),
  ids (deconflict_all n l) = map (fun i => "SEQ" ++ show n ++ "." ++ i) (ids l).
Proof.
  intros A n l. induction l as [|[[i|] x] l IH]; cbn; auto. f_equal. auto.
Qed.

Lemma ids_app : forall A (a b : list (option string * A)), ids (a ++ b) = (ids a ++ ids b)%list.
Proof. intros. apply flat_map_app. Qed.

Theorem C32_join : forall A (docs : list (Z * list (option string * A))),
  NoDup (map fst docs) -> Forall (fun d => (0 <= fst d)%Z /\ NoDup (ids (snd d))) docs ->
  register_all [] (List.concat (map (fun d => deconflict_all (fst d) (snd d)) docs)) <> None.
Proof.
  intros A docs N F. apply C32_register.
  assert (G : forall docs, Forall (fun d : Z * list (option string * A) => (0 <= fst d)%Z /\ NoDup (ids (snd d))) docs ->
    NoDup (map fst docs) ->
    NoDup (ids (List.concat (map (fun d => deconflict_all (fst d) (snd d)) docs))) /\
    forall s, In s (ids (List.concat (map (fun d => deconflict_all (fst d) (snd d)) docs))) ->
      exists n i, In n (map fst docs) /\ (0 <= n)%Z /\ deconflict n (Some i) = Some s).
  { clear. induction docs as [|[n l] docs IH]; intros F N; cbn [map List.concat fst snd].
    - split; [constructor|intros s []].
    - inversion F as [|? ? [Hn Nl] F']; inversion N as [|? ? Nn N']; subst. cbn [fst snd] in *.
      destruct (IH F' N') as [I1 I2]. rewrite ids_app, ids_deconflict. split.
      + assert (Hd : forall s, In s (map (fun i => "SEQ" ++ show n ++ "." ++ i) (ids l)) ->
                 ~ In s (ids (List.concat (map (fun d => deconflict_all (fst d) (snd d)) docs)))).
        { intros s Hs Hs'. apply in_map_iff in Hs as (i & <- & _). apply I2 in Hs' as (m & j & Hm & Hm0 & E).
          change (Some ("SEQ" ++ show n ++ "." ++ i)) with (deconflict n (Some i)) in E.
          apply C32_injective in E as [-> _]; auto. }
        assert (Nm : NoDup (map (fun i => "SEQ" ++ show n ++ "." ++ i) (ids l))).
        { apply Injective_map_NoDup; auto. intros i j E.
          assert (X : deconflict n (Some i) = deconflict n (Some j)) by (unfold deconflict; f_equal; exact E).
          apply C32_injective in X as [_ X]; auto. }
        clear -Nm I1 Hd. induction (map (fun i => "SEQ" ++ show n ++ "." ++ i) (ids l)) as [|s l0 IH]; cbn; auto.
        inversion Nm; subst. constructor.
        * intros H. apply in_app_or in H as [H|H]; auto. apply (Hd s); cbn; auto.
        * apply IH; auto. intros t Ht. apply Hd. cbn. auto.
      + intros s Hs. apply in_app_or in Hs as [Hs|Hs].
        * apply in_map_iff in Hs as (i & <- & _). exists n, i. split; [left; auto|]. split; auto.
        * destruct (I2 s Hs) as (m & j & Hm & R). exists m, j. split; [right; auto|auto]. }
  apply G; auto.
Qed.

(** Without the prefix the same documents may clash. *)
Example C32_case :
  let a := [(Some "p1", 1%Z); (None, 2%Z)] in
  let b := [(Some "p1", 3%Z); (Some "SEQ1.p1", 4%Z)] in
  register_all [] (a ++ b)%list = None /\
  register_all [] (deconflict_all 1 a ++ deconflict_all 12 b)%list =
    Some [("SEQ12.SEQ1.p1", 4%Z); ("SEQ12.p1", 3%Z); ("SEQ1.p1", 1%Z)] /\
  match_deconflict "SEQ12.SEQ1.p1" = Some (12%Z, "SEQ1.p1") /\ match_deconflict "SEQ.p" = None.
Proof. vm_compute. auto. Qed.

Print Assumptions C32_match.
Print Assumptions C32_injective.
Print Assumptions C32_shape.
Print Assumptions C32_register.
Print Assumptions C32_join.
