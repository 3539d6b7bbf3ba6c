(** C53: a configuration of websocket carriages starts exactly when its listening
    addresses are compatible, in whatever order its parts are started, and then
    every carriage is wired to its own addresses and to no others.
    C54: a direct carriage delivers to the input configured last. *)

From Coq Require Import List String Bool Arith Permutation Lia.
From Verif Require SocketModel PropsSocket.
From Verif Require Import BackendModel BackendSpec.
Import ListNotations.

(** ** Dictionaries *)

Lemma find_set : forall l k f j, find_server (set_server l k f) j = if String.eqb j k then Some f else find_server l j.
Proof.
  induction l as [|[i g] r IH]; intros k f j; cbn; [reflexivity|].
  destruct (String.eqb_spec k i) as [E|E]; cbn.
  - subst i. destruct (String.eqb j k); reflexivity.
  - rewrite IH. destruct (String.eqb_spec j i) as [E2|E2]; [|reflexivity].
    subst j. destruct (String.eqb_spec i k); [congruence|reflexivity].
Qed.

Lemma set_keys : forall l k f, In k (map fst l) -> map fst (set_server l k f) = map fst l.
Proof.
  induction l as [|[i g] r IH]; intros k f H; cbn in *; [tauto|].
  destruct (String.eqb_spec k i) as [E|E]; cbn; [subst; reflexivity|]. rewrite IH; [reflexivity|]. intuition congruence.
Qed.

Lemma set_new : forall l k f, find_server l k = None -> set_server l k f = (l ++ [(k, f)])%list.
Proof.
  induction l as [|[i g] r IH]; intros k f H; cbn in *; [reflexivity|].
  destruct (String.eqb_spec k i) as [E|E]; [discriminate|]. rewrite IH; auto.
Qed.

Lemma find_key : forall l k, find_server l k <> None <-> In k (map fst l).
Proof.
  induction l as [|[i g] r IH]; intros k; cbn; [tauto|].
  destruct (String.eqb_spec k i) as [E|E]; [subst; split; [auto|discriminate]|].
  rewrite IH. intuition congruence.
Qed.

Lemma find_in : forall l k f, NoDup (map fst l) -> (find_server l k = Some f <-> In (k, f) l).
Proof.
  induction l as [|[i g] r IH]; intros k f N; cbn in *; [split; [discriminate|tauto]|].
  inversion N as [|x y N1 N2]; subst. destruct (String.eqb_spec k i) as [E|E].
  - subst i. split; [intros H; injection H as <-; auto|]. intros [H|H]; [congruence|].
    exfalso. apply N1. change k with (fst (k, f)). apply in_map, H.
  - rewrite IH by auto. split; [auto|]. intros [H|H]; [congruence|auto].
Qed.

Lemma nodup_snoc : forall {A} (l : list A) x, NoDup (l ++ [x]) <-> NoDup l /\ ~ In x l.
Proof.
  intros A l x. split.
  - intros H. split; [|apply NoDup_remove_2 in H; rewrite app_nil_r in H; exact H].
    apply NoDup_remove_1 in H. rewrite app_nil_r in H. exact H.
  - intros [H1 H2]. induction l as [|a l IH]; cbn; [apply NoDup_cons; [intros []|apply NoDup_nil]|].
    inversion H1; subst. apply NoDup_cons; [|apply IH; auto; intros H; apply H2; right; exact H].
    intros H. apply in_app_or in H as [H|[H|[]]]; [auto|]. subst. apply H2. left; reflexivity.
Qed.

(** ** The state after some parts were started *)

Definition at_out (ps : list part) (k : url) (id : nat) : Prop := exists c, In (WsOut id (Some k) c) ps.
Definition at_in (ps : list part) (k : url) (id : nat) : Prop := exists c, In (WsIn id (Some k) c) ps.
Definition clients_of (p : part) : list factory :=
  match p with
  | WsOut id _ c => map (fun u => mkFactory u (Some id) None) c
  | WsIn id _ c => map (fun u => mkFactory u None (Some id)) c
  | _ => []
  end.
Definition told_of (p : part) : list nat := match p with WsOut id _ _ => [id] | _ => [] end.

Section Ports.
Variable port : url -> nat.

Record inv (ps : list part) (w : world) : Prop := mkInv {
  i_legacy : w_legacy w = [];
  i_keys : NoDup (map fst (w_servers w));
  i_url : forall k f, find_server (w_servers w) k = Some f -> f_url f = k;
  i_out : forall k f id, find_server (w_servers w) k = Some f -> (f_producer f = Some id <-> at_out ps k id);
  i_in : forall k f id, find_server (w_servers w) k = Some f -> (f_consumer f = Some id <-> at_in ps k id);
  i_some : forall k, find_server (w_servers w) k <> None <-> In k (out_listens ps ++ in_listens ps);
  i_clients : w_clients w = flat_map clients_of ps;
  i_told : w_told w = flat_map told_of ps }.

Lemma out_listens_in : forall ps k, In k (out_listens ps) <-> exists id, at_out ps k id.
Proof.
  intros ps k. unfold out_listens. rewrite in_flat_map. split.
  - intros (p & Hp & H). destruct p as [id l c|id l c|id u|id u|id]; cbn in H; try tauto.
    destruct l as [u|]; cbn in H; [|tauto]. destruct H as [->|[]]. exists id, c. exact Hp.
  - intros (id & c & H). exists (WsOut id (Some k) c). split; [exact H|left; reflexivity].
Qed.
Lemma in_listens_in : forall ps k, In k (in_listens ps) <-> exists id, at_in ps k id.
Proof.
  intros ps k. unfold in_listens. rewrite in_flat_map. split.
  - intros (p & Hp & H). destruct p as [id l c|id l c|id u|id u|id]; cbn in H; try tauto.
    destruct l as [u|]; cbn in H; [|tauto]. destruct H as [->|[]]. exists id, c. exact Hp.
  - intros (id & c & H). exists (WsIn id (Some k) c). split; [exact H|left; reflexivity].
Qed.

Lemma out_snoc : forall ps p, out_listens (ps ++ [p]) = (out_listens ps ++ match p with WsOut _ l _ => of_option l | _ => [] end)%list.
Proof. intros. unfold out_listens. rewrite flat_map_app. cbn. rewrite app_nil_r. reflexivity. Qed.
Lemma in_snoc : forall ps p, in_listens (ps ++ [p]) = (in_listens ps ++ match p with WsIn _ l _ => of_option l | _ => [] end)%list.
Proof. intros. unfold in_listens. rewrite flat_map_app. cbn. rewrite app_nil_r. reflexivity. Qed.

Lemma at_out_snoc : forall ps p k id, at_out (ps ++ [p]) k id <-> at_out ps k id \/ exists c, p = WsOut id (Some k) c.
Proof.
  intros. unfold at_out. split.
  - intros (c & H). apply in_app_or in H as [H|[H|[]]]; eauto.
  - intros [(c & H)|(c & H)]; exists c; apply in_or_app; [auto|right; left; auto].
Qed.
Lemma at_in_snoc : forall ps p k id, at_in (ps ++ [p]) k id <-> at_in ps k id \/ exists c, p = WsIn id (Some k) c.
Proof.
  intros. unfold at_in. split.
  - intros (c & H). apply in_app_or in H as [H|[H|[]]]; eauto.
  - intros [(c & H)|(c & H)]; exists c; apply in_or_app; [auto|right; left; auto].
Qed.

Lemma inv_nothing : inv [] nothing.
Proof.
  constructor; cbn; try reflexivity; try discriminate; [apply NoDup_nil|]. intros k. tauto.
Qed.

(** Whether starting one more part works. *)
Definition fits (ps : list part) (p : part) : Prop :=
  let new u := forall a, In a (out_listens ps ++ in_listens ps) -> port a = port u -> port u <> 0 -> a = u in
  match p with
  | WsOut _ (Some u) _ => ~ In u (out_listens ps) /\ new u
  | WsIn _ (Some u) _ => ~ In u (in_listens ps) /\ new u
  | WslOut _ _ => False
  | _ => True
  end.

Lemma workable_snoc : forall ps p, workable port (ps ++ [p]) <-> workable port ps /\ fits ps p.
Proof.
  intros ps p. unfold workable, fits. rewrite out_snoc, in_snoc.
  assert (L : (forall id u, ~ In (WslOut id u) (ps ++ [p])) <-> (forall id u, ~ In (WslOut id u) ps) /\ (forall id u, p <> WslOut id u)).
  { split.
    - intros H. split; intros id u X; apply (H id u), in_or_app; [auto|right; left; auto].
    - intros [H1 H2] id u X. apply in_app_or in X as [X|[X|[]]]; [exact (H1 id u X)|exact (H2 id u X)]. }
  rewrite L.
  destruct p as [id l c|id l c|id u|id u|id]; try (rewrite !app_nil_r; split;
    [intros ((H1 & H2) & H3 & H4 & H5); (split; [repeat split; auto|exact I]) || (exfalso; exact (H2 _ _ eq_refl))
    |intros ((H1 & H3 & H4 & H5) & X); (destruct X; fail) || (repeat split; auto; discriminate)]).
  - destruct l as [u|]; cbn [of_option]; rewrite ?app_nil_r.
    + rewrite nodup_snoc. split.
      * intros ((H1 & H2) & (H3 & H3') & H4 & H5). split; [repeat split; auto|split; auto].
        -- intros a b A B. apply H5; apply in_app_or in A, B; rewrite <- app_assoc; apply in_or_app; destruct A, B; auto; right; right; auto.
        -- intros a A E Z. apply H5; [| |exact E|congruence].
           ++ apply in_app_or in A. rewrite <- app_assoc. apply in_or_app. destruct A; auto. right. right. auto.
           ++ apply in_or_app. left. apply in_or_app. right. left. reflexivity.
      * intros ((H1 & H3 & H4 & H5) & H6 & H7). split; [split; [auto|discriminate]|]. split; [auto|]. split; [auto|].
        intros a b A B E Z.
        assert (S : forall x, In x ((out_listens ps ++ [u]) ++ in_listens ps) -> x = u \/ In x (out_listens ps ++ in_listens ps)).
        { intros x X. apply in_app_or in X as [X|X]; [apply in_app_or in X as [X|[X|[]]]|]; auto; right; apply in_or_app; auto. }
        apply S in A, B. destruct A as [A|A], B as [B|B]; subst; auto; try congruence; [symmetry|]; apply H7; auto; congruence.
    + split.
      * intros ((H1 & H2) & H3 & H4 & H5). repeat split; auto.
      * intros ((H1 & H3 & H4 & H5) & X). repeat split; auto. discriminate.
  - destruct l as [u|]; cbn [of_option]; rewrite ?app_nil_r.
    + rewrite nodup_snoc. split.
      * intros ((H1 & H2) & H3 & (H4 & H4') & H5). split; [repeat split; auto|split; auto].
        -- intros a b A B. apply H5; rewrite app_assoc; apply in_or_app; auto.
        -- intros a A E Z. apply H5; [| |exact E|congruence].
           ++ rewrite app_assoc. apply in_or_app. auto.
           ++ rewrite app_assoc. apply in_or_app. right. left. reflexivity.
      * intros ((H1 & H3 & H4 & H5) & H6 & H7). split; [split; [auto|discriminate]|]. split; [auto|]. split; [auto|].
        intros a b A B E Z.
        assert (S : forall x, In x (out_listens ps ++ in_listens ps ++ [u]) -> x = u \/ In x (out_listens ps ++ in_listens ps)).
        { intros x X. rewrite app_assoc in X. apply in_app_or in X as [X|[X|[]]]; auto. }
        apply S in A, B. destruct A as [A|A], B as [B|B]; subst; auto; try congruence; [symmetry|]; apply H7; auto; congruence.
    + split.
      * intros ((H1 & H2) & H3 & H4 & H5). repeat split; auto.
      * intros ((H1 & H3 & H4 & H5) & X). repeat split; auto. discriminate.
Qed.

(** A port is bound exactly when another address holds it. *)
Lemma bound_true : forall ps w u, inv ps w ->
  bound port w (port u) = true <-> port u <> 0 /\ exists a, In a (out_listens ps ++ in_listens ps) /\ port a = port u.
Proof.
  intros ps w u I. unfold bound. rewrite (i_legacy _ _ I), app_nil_r, andb_true_iff, negb_true_iff, Nat.eqb_neq, existsb_exists.
  split; intros (Z & H); (split; [exact Z|]).
  - destruct H as ((k, f) & H & E). apply Nat.eqb_eq in E. cbn in E.
    apply (find_in _ _ _ (i_keys _ _ I)) in H. exists k. split.
    + apply (i_some _ _ I). congruence.
    + rewrite <- (i_url _ _ I _ _ H). exact E.
  - destruct H as (a & A & E). apply (i_some _ _ I) in A.
    destruct (find_server (w_servers w) a) as [f|] eqn:F; [|tauto].
    exists (a, f). split; [apply find_in; [apply I|exact F]|]. cbn. rewrite (i_url _ _ I _ _ F). apply Nat.eqb_eq, E.
Qed.

Lemma cross : forall ps w k, inv ps w ->
  crosscheck w k false = match find_server (w_servers w) k with Some f => Server f | None => Free end.
Proof. intros ps w k I. unfold crosscheck. rewrite (i_legacy _ _ I). cbn. destruct (find_server _ k); reflexivity. Qed.

(** What one more part does to the addresses in the dictionary. *)
Lemma some_snoc : forall ps p k, In k (out_listens (ps ++ [p]) ++ in_listens (ps ++ [p])) <->
  In k (out_listens ps ++ in_listens ps) \/
  In k (match p with WsOut _ l _ | WsIn _ l _ => of_option l | _ => [] end).
Proof.
  intros ps p k. rewrite out_snoc, in_snoc, !in_app_iff. destruct p; cbn; tauto.
Qed.

Lemma inv_out : forall ps w id u c f, inv ps w ->
  (forall g, find_server (w_servers w) u = Some g -> f_producer g = None /\ f_consumer f = f_consumer g) ->
  (find_server (w_servers w) u = None -> f_consumer f = None) ->
  f_url f = u -> f_producer f = Some id ->
  inv (ps ++ [WsOut id (Some u) c]) (create_clients (assign (tell w id) u f) c (Some id) None).
Proof.
  intros ps w id u c f I H1 H2 U P.
  constructor; cbn [create_clients assign tell w_servers w_legacy w_clients w_told].
  - apply I.
  - destruct (find_server (w_servers w) u) as [g|] eqn:F.
    + rewrite set_keys; [apply I|]. apply find_key. congruence.
    + rewrite set_new by exact F. rewrite map_app. apply nodup_snoc. split; [apply I|]. cbn. rewrite <- find_key. tauto.
  - intros k g. rewrite find_set. destruct (String.eqb_spec k u) as [E|E]; [intros X; injection X as <-; congruence|apply (i_url _ _ I)].
  - intros k g j. rewrite find_set, at_out_snoc. destruct (String.eqb_spec k u) as [E|E].
    + intros X; injection X as <-. subst k. rewrite P. split; [intros X; injection X as <-; eauto|].
      intros [X|(c' & X)]; [|congruence].
      destruct (find_server (w_servers w) u) as [g|] eqn:F.
      * destruct (H1 g eq_refl) as (N & _). apply (i_out _ _ I _ _ _ F) in X. congruence.
      * exfalso. apply (proj2 (i_some _ _ I u)); [|exact F]. apply in_or_app. left. apply out_listens_in. eauto.
    + intros X. rewrite (i_out _ _ I _ _ _ X). split; [auto|]. intros [Y|(c' & Y)]; [auto|congruence].
  - intros k g j. rewrite find_set, at_in_snoc. destruct (String.eqb_spec k u) as [E|E].
    + intros X; injection X as <-. subst k. destruct (find_server (w_servers w) u) as [g|] eqn:F.
      * destruct (H1 g eq_refl) as (_ & C). rewrite C, (i_in _ _ I _ _ _ F). split; [auto|]. intros [Y|(c' & Y)]; [auto|discriminate].
      * rewrite (H2 eq_refl). split; [discriminate|]. intros [Y|(c' & Y)]; [|discriminate].
        exfalso. apply (proj2 (i_some _ _ I u)); [|exact F]. apply in_or_app. right. apply in_listens_in. eauto.
    + intros X. rewrite (i_in _ _ I _ _ _ X). split; [auto|]. intros [Y|(c' & Y)]; [auto|discriminate].
  - intros k. rewrite find_set, some_snoc, <- (i_some _ _ I). cbn [of_option In].
    destruct (String.eqb_spec k u) as [E|E]; [subst; split; [auto|discriminate]|]. intuition congruence.
  - rewrite flat_map_app, (i_clients _ _ I). cbn. rewrite app_nil_r. reflexivity.
  - rewrite flat_map_app, (i_told _ _ I). reflexivity.
Qed.

Lemma inv_in : forall ps w id u c f, inv ps w ->
  (forall g, find_server (w_servers w) u = Some g -> f_consumer g = None /\ f_producer f = f_producer g) ->
  (find_server (w_servers w) u = None -> f_producer f = None) ->
  f_url f = u -> f_consumer f = Some id ->
  inv (ps ++ [WsIn id (Some u) c]) (create_clients (assign w u f) c None (Some id)).
Proof.
  intros ps w id u c f I H1 H2 U P.
  constructor; cbn [create_clients assign w_servers w_legacy w_clients w_told].
  - apply I.
  - destruct (find_server (w_servers w) u) as [g|] eqn:F.
    + rewrite set_keys; [apply I|]. apply find_key. congruence.
    + rewrite set_new by exact F. rewrite map_app. apply nodup_snoc. split; [apply I|]. cbn. rewrite <- find_key. tauto.
  - intros k g. rewrite find_set. destruct (String.eqb_spec k u) as [E|E]; [intros X; injection X as <-; congruence|apply (i_url _ _ I)].
  - intros k g j. rewrite find_set, at_out_snoc. destruct (String.eqb_spec k u) as [E|E].
    + intros X; injection X as <-. subst k. destruct (find_server (w_servers w) u) as [g|] eqn:F.
      * destruct (H1 g eq_refl) as (_ & C). rewrite C, (i_out _ _ I _ _ _ F). split; [auto|]. intros [Y|(c' & Y)]; [auto|discriminate].
      * rewrite (H2 eq_refl). split; [discriminate|]. intros [Y|(c' & Y)]; [|discriminate].
        exfalso. apply (proj2 (i_some _ _ I u)); [|exact F]. apply in_or_app. left. apply out_listens_in. eauto.
    + intros X. rewrite (i_out _ _ I _ _ _ X). split; [auto|]. intros [Y|(c' & Y)]; [auto|discriminate].
  - intros k g j. rewrite find_set, at_in_snoc. destruct (String.eqb_spec k u) as [E|E].
    + intros X; injection X as <-. subst k. rewrite P. split; [intros X; injection X as <-; eauto|].
      intros [X|(c' & X)]; [|congruence].
      destruct (find_server (w_servers w) u) as [g|] eqn:F.
      * destruct (H1 g eq_refl) as (N & _). apply (i_in _ _ I _ _ _ F) in X. congruence.
      * exfalso. apply (proj2 (i_some _ _ I u)); [|exact F]. apply in_or_app. right. apply in_listens_in. eauto.
    + intros X. rewrite (i_in _ _ I _ _ _ X). split; [auto|]. intros [Y|(c' & Y)]; [auto|congruence].
  - intros k. rewrite find_set, some_snoc, <- (i_some _ _ I). cbn [of_option In].
    destruct (String.eqb_spec k u) as [E|E]; [subst; split; [auto|discriminate]|]. intuition congruence.
  - rewrite flat_map_app, (i_clients _ _ I). cbn. rewrite app_nil_r. reflexivity.
  - rewrite flat_map_app, (i_told _ _ I). cbn. rewrite app_nil_r. reflexivity.
Qed.

(** A part that listens nowhere changes no server. *)
Lemma inv_quiet : forall ps w p w', inv ps w ->
  match p with WsOut _ (Some _) _ | WsIn _ (Some _) _ => False | _ => True end ->
  w_servers w' = w_servers w -> w_legacy w' = w_legacy w ->
  w_clients w' = (w_clients w ++ clients_of p)%list -> w_told w' = (w_told w ++ told_of p)%list ->
  inv (ps ++ [p]) w'.
Proof.
  intros ps w p w' I Q S L C T. constructor; rewrite ?S, ?L; try apply I.
  - intros k f j F. rewrite at_out_snoc, (i_out _ _ I _ _ _ F). split; [auto|]. intros [Y|(c' & Y)]; [auto|subst; destruct Q].
  - intros k f j F. rewrite at_in_snoc, (i_in _ _ I _ _ _ F). split; [auto|]. intros [Y|(c' & Y)]; [auto|subst; destruct Q].
  - intros k. rewrite some_snoc, (i_some _ _ I). destruct p as [? [|] ?|? [|] ?| | |]; cbn; try tauto.
  - rewrite C, flat_map_app, (i_clients _ _ I). cbn. rewrite app_nil_r. reflexivity.
  - rewrite T, flat_map_app, (i_told _ _ I). cbn. rewrite app_nil_r. reflexivity.
Qed.

Lemma step : forall ps w p, inv ps w -> workable port ps ->
  match start_part port w p with
  | inl w' => fits ps p /\ inv (ps ++ [p]) w'
  | inr _ => ~ fits ps p
  end.
Proof.
  intros ps w p I (_ & _ & _ & K).
  assert (old : forall u f, find_server (w_servers w) u = Some f ->
            forall a, In a (out_listens ps ++ in_listens ps) -> port a = port u -> port u <> 0 -> a = u).
  { intros u f F a A E Z. apply K; auto; [|congruence]. apply (i_some _ _ I). congruence. }
  assert (fresh : forall u, find_server (w_servers w) u = None -> bound port w (port u) = false ->
            forall a, In a (out_listens ps ++ in_listens ps) -> port a = port u -> port u <> 0 -> a = u).
  { intros u F B a A E Z. assert (X : bound port w (port u) = true) by (apply (bound_true _ _ _ I); eauto). congruence. }
  assert (taken : forall u, find_server (w_servers w) u = None -> bound port w (port u) = true ->
            ~ forall a, In a (out_listens ps ++ in_listens ps) -> port a = port u -> port u <> 0 -> a = u).
  { intros u F B X. apply (bound_true _ _ _ I) in B as (Z & a & A & E).
    rewrite (X a A E Z) in A. apply (i_some _ _ I) in A. congruence. }
  destruct p as [id l c|id l c|id u|id u|id]; cbn [start_part].
  - destruct l as [u|]; unfold ws_producer.
    + rewrite (cross _ _ _ I). destruct (find_server (w_servers w) u) as [f|] eqn:F.
      * destruct (f_producer f) as [j|] eqn:P.
        -- intros (N & _). apply N, out_listens_in. exists j. apply (i_out _ _ I _ _ _ F), P.
        -- split.
           ++ split; [|apply (old _ _ F)].
              intros X. apply out_listens_in in X as (j & X). apply (i_out _ _ I _ _ _ F) in X. congruence.
           ++ apply inv_out; [exact I|intros g G; rewrite F in G; injection G as <-; auto|intros G; congruence|apply (i_url _ _ I _ _ F)|reflexivity].
      * unfold create_server. change (bound port (tell w id) (port u)) with (bound port w (port u)).
        destruct (bound port w (port u)) eqn:B.
        -- intros (_ & X). exact (taken _ F B X).
        -- split.
           ++ split; [|exact (fresh _ F B)]. intros X. apply (proj2 (i_some _ _ I u)); [apply in_or_app; auto|exact F].
           ++ apply (inv_out ps w id u c (mkFactory u (Some id) None)); auto. congruence.
    + split; [exact Logic.I|]. apply (inv_quiet ps w); auto; reflexivity.
  - destruct l as [u|]; unfold ws_consumer.
    + rewrite (cross _ _ _ I). destruct (find_server (w_servers w) u) as [f|] eqn:F.
      * destruct (f_consumer f) as [j|] eqn:P.
        -- intros (N & _). apply N, in_listens_in. exists j. apply (i_in _ _ I _ _ _ F), P.
        -- split.
           ++ split; [|apply (old _ _ F)].
              intros X. apply in_listens_in in X as (j & X). apply (i_in _ _ I _ _ _ F) in X. congruence.
           ++ apply inv_in; [exact I|intros g G; rewrite F in G; injection G as <-; auto|intros G; congruence|apply (i_url _ _ I _ _ F)|reflexivity].
      * unfold create_server. destruct (bound port w (port u)) eqn:B.
        -- intros (_ & X). exact (taken _ F B X).
        -- split.
           ++ split; [|exact (fresh _ F B)]. intros X. apply (proj2 (i_some _ _ I u)); [apply in_or_app; auto|exact F].
           ++ apply (inv_in ps w id u c (mkFactory u None (Some id))); auto. congruence.
    + split; [exact Logic.I|]. apply (inv_quiet ps w); auto; cbn; rewrite ?app_nil_r; reflexivity.
  - unfold wsl_producer. destruct (crosscheck w u true); intros [].
  - split; [exact Logic.I|]. apply (inv_quiet ps w); auto; cbn; rewrite app_nil_r; reflexivity.
  - split; [exact Logic.I|]. apply (inv_quiet ps w); auto; cbn; rewrite app_nil_r; reflexivity.
Qed.

Lemma workable_prefix : forall ps qs, workable port (ps ++ qs) -> workable port ps.
Proof.
  intros ps qs. revert ps. induction qs as [|q qs IH]; intros ps H; [rewrite app_nil_r in H; exact H|].
  apply (workable_snoc ps q), IH. rewrite <- app_assoc. exact H.
Qed.

Lemma start_main : forall asked qs ps w, inv ps w -> workable port ps ->
  match start_all port w asked qs with
  | inl w' => workable port (ps ++ wanted asked qs) /\ inv (ps ++ wanted asked qs) w'
  | inr _ => ~ workable port (ps ++ wanted asked qs)
  end.
Proof.
  intros asked. induction qs as [|q qs IH]; intros ps w I W; cbn [start_all wanted filter].
  - rewrite app_nil_r. auto.
  - destruct (existsb (Nat.eqb (part_id q)) asked); [|apply IH; auto].
    pose proof (step ps w q I W) as S. change (q :: filter _ qs)%list with ([q] ++ wanted asked qs)%list. rewrite app_assoc.
    destruct (start_part port w q) as [w'|e].
    + destruct S as (F & I'). apply IH; [exact I'|]. apply workable_snoc. auto.
    + intros X. apply S. apply workable_prefix in X. apply workable_snoc in X. tauto.
Qed.

Lemma workable_nil : workable port [].
Proof. split; [intros id u []|]. split; [apply NoDup_nil|]. split; [apply NoDup_nil|]. intros a b []. Qed.

(** ** C53 *)

(** Starting works exactly for the workable configurations. *)
Theorem C53_starts : forall asked ps,
  (exists w, start_all port nothing asked ps = inl w) <-> workable port (wanted asked ps).
Proof.
  intros asked ps. pose proof (start_main asked ps [] nothing inv_nothing workable_nil) as H. cbn [app] in H.
  destruct (start_all port nothing asked ps) as [w|e].
  - split; [tauto|eauto].
  - split; [intros (w & X); discriminate|tauto].
Qed.

Lemma started_inv : forall asked ps w, start_all port nothing asked ps = inl w -> inv (wanted asked ps) w.
Proof.
  intros asked ps w E. pose proof (start_main asked ps [] nothing inv_nothing workable_nil) as H. rewrite E in H. apply H.
Qed.

(** Filtering a list without repetition for one possible key. *)
Lemma filter_one : forall (l : list (string * factory)) (t : factory -> bool) (o : option string),
  NoDup (map fst l) -> (forall k f, In (k, f) l -> f_url f = k) ->
  (forall k f, In (k, f) l -> (t f = true <-> o = Some k)) ->
  (forall k, o = Some k -> In k (map fst l)) ->
  map f_url (filter t (map snd l)) = of_option o.
Proof.
  intros l t o N U T X. destruct o as [u|].
  - cbn. specialize (X u eq_refl). clear - N U T X. induction l as [|[k f] l IH]; [destruct X|].
    cbn in N. inversion N as [|x y N1 N2]; subst. cbn [map snd filter].
    destruct (t f) eqn:E.
    + apply (T k f) in E; [|left; reflexivity]. injection E as ->. cbn. rewrite (U k f) by (left; reflexivity). f_equal.
      assert (Z : filter t (map snd l) = []).
      { clear - N1 T. assert (Y : forall j g, In (j, g) l -> t g = false).
        { intros j g G. destruct (t g) eqn:E; [|reflexivity]. exfalso. apply (T j g) in E; [|right; exact G]. injection E as ->.
          apply N1. change j with (fst (j, g)). apply in_map, G. }
        clear - Y. induction l as [|[j g] l IH]; [reflexivity|]. cbn. rewrite (Y j g) by (left; reflexivity).
        apply IH. intros. apply (Y j0). right; auto. }
      rewrite Z. reflexivity.
    + apply IH; auto; [intros; apply U; right; auto|intros; apply T; right; auto|].
      destruct X as [X|X]; [|exact X]. cbn in X. subst k. exfalso.
      assert (t f = true) by (apply (T u f); [left; reflexivity|reflexivity]). congruence.
  - cbn. assert (Y : forall k f, In (k, f) l -> t f = false).
    { intros k f F. destruct (t f) eqn:E; [|reflexivity]. apply (T k f F) in E. discriminate. }
    clear - Y. induction l as [|[k f] l IH]; [reflexivity|]. cbn. rewrite (Y k f) by (left; reflexivity).
    apply IH. intros k0 f0 F. apply (Y k0). right; auto.
Qed.

Lemma id_unique : forall ps p q, NoDup (map part_id ps) -> In p ps -> In q ps -> part_id p = part_id q -> p = q.
Proof.
  induction ps as [|r ps IH]; intros p q N P Q E; [destruct P|]. cbn in N. inversion N as [|x y N1 N2]; subst.
  destruct P as [->|P], Q as [->|Q]; auto.
  - exfalso. apply N1. rewrite E. apply in_map, Q.
  - exfalso. apply N1. rewrite <- E. apply in_map, P.
Qed.

Lemma clients_filter : forall (t : factory -> bool) (g : part -> list url) (p : part) ps,
  NoDup (map part_id ps) -> In p ps ->
  (forall q, In q ps -> q <> p -> filter t (clients_of q) = []) ->
  map f_url (filter t (clients_of p)) = g p ->
  map f_url (filter t (flat_map clients_of ps)) = g p.
Proof.
  intros t g p ps. induction ps as [|q ps IH]; intros N P H E; [destruct P|].
  cbn in N. inversion N as [|x y N1 N2]; subst. cbn [flat_map]. rewrite filter_app, map_app.
  assert (rest : (forall r, In r ps -> filter t (clients_of r) = []) -> filter t (flat_map clients_of ps) = []).
  { clear. induction ps as [|r ps IH]; intros H; [reflexivity|]. cbn. rewrite filter_app, (H r) by (left; auto). apply IH. intros; apply H; right; auto. }
  destruct P as [->|P].
  - rewrite E, rest; [apply app_nil_r|]. intros r R. apply H; [right; exact R|]. intros ->. apply N1, in_map, R.
  - assert (D : q <> p) by (intros ->; apply N1, in_map, P).
    rewrite (H q (or_introl eq_refl) D). cbn. apply IH; auto. intros r R. apply H. right; exact R.
Qed.

Lemma wanted_nodup : forall asked ps, NoDup (map part_id ps) -> NoDup (map part_id (wanted asked ps)).
Proof.
  intros asked. induction ps as [|p ps IH]; intros N; [exact N|]. cbn in *. inversion N; subst.
  destruct (existsb _ asked); [|auto]. cbn. apply NoDup_cons; auto. intros X. apply H1.
  apply in_map_iff in X as (q & E & Q). rewrite <- E. apply in_map. apply filter_In in Q. tauto.
Qed.

Lemma filter_map_const : forall (t : factory -> bool) (h : url -> factory) c,
  (forall u, t (h u) = true) -> (forall u, f_url (h u) = u) -> map f_url (filter t (map h c)) = c.
Proof. intros t h c T U. induction c as [|u c IH]; [reflexivity|]. cbn. rewrite T. cbn. rewrite U, IH. reflexivity. Qed.
Lemma filter_map_none : forall (t : factory -> bool) (h : url -> factory) c,
  (forall u, t (h u) = false) -> filter t (map h c) = [].
Proof. intros t h c T. induction c as [|u c IH]; [reflexivity|]. cbn. rewrite T. exact IH. Qed.

(** What an output emits goes out at the address it listens on and over the
    connections it makes, and nowhere else. *)
Theorem C53_sends : forall asked ps w id l c,
  NoDup (map part_id ps) -> start_all port nothing asked ps = inl w ->
  In (WsOut id l c) (wanted asked ps) ->
  sent_on w id = (of_option l ++ c)%list.
Proof.
  intros asked ps w id l c N0 E P. pose proof (started_inv _ _ _ E) as I. apply (wanted_nodup asked) in N0.
  set (qs := wanted asked ps) in *. clearbody qs. unfold sent_on, reaches.
  assert (T : existsb (Nat.eqb id) (w_told w) = true).
  { apply existsb_exists. exists id. split; [|apply Nat.eqb_refl]. rewrite (i_told _ _ I). apply in_flat_map. exists (WsOut id l c). split; [exact P|left; auto]. }
  rewrite T, map_app. f_equal.
  - apply filter_one.
    + apply I.
    + intros k f F. apply (i_url _ _ I). apply find_in; [apply I|exact F].
    + intros k f F. apply find_in in F; [|apply I]. pose proof (i_out _ _ I _ _ id F) as O. unfold has_producer. split.
      * intros X. destruct (f_producer f) as [j|]; [|discriminate]. apply Nat.eqb_eq in X. subst j.
        destruct (proj1 O eq_refl) as (c' & Y). pose proof (id_unique _ _ _ N0 P Y eq_refl) as Z. injection Z as Z _. exact Z.
      * intros X. subst l. rewrite (proj2 O); [apply Nat.eqb_refl|exists c; exact P].
    + intros k X. subst l. apply find_key. apply (i_some _ _ I). apply in_or_app. left. apply out_listens_in. exists id, c. exact P.
  - rewrite (i_clients _ _ I).
    apply (clients_filter _ (fun p => match p with WsOut _ _ c => c | _ => [] end) (WsOut id l c) qs N0 P).
    + intros q Q D. assert (X : part_id q <> id).
      { intros X. apply D. apply (id_unique _ _ _ N0 Q P X). }
      destruct q as [j m d|j m d|j u|j u|j]; cbn in *; try reflexivity; apply filter_map_none; intros u; cbn; [apply Nat.eqb_neq; exact X|reflexivity].
    + cbn. apply filter_map_const; [intros; apply Nat.eqb_refl|reflexivity].
Qed.

(** What comes in at the address of an input and over its connections goes to
    that input, and nothing else does. *)
Theorem C53_hears : forall asked ps w id l c,
  NoDup (map part_id ps) -> start_all port nothing asked ps = inl w ->
  In (WsIn id l c) (wanted asked ps) ->
  heard_on w id = (of_option l ++ c)%list.
Proof.
  intros asked ps w id l c N0 E P. pose proof (started_inv _ _ _ E) as I. apply (wanted_nodup asked) in N0.
  set (qs := wanted asked ps) in *. clearbody qs. unfold heard_on, factories.
  rewrite filter_app, map_app. f_equal.
  - apply filter_one.
    + apply I.
    + intros k f F. apply (i_url _ _ I). apply find_in; [apply I|exact F].
    + intros k f F. apply find_in in F; [|apply I]. pose proof (i_in _ _ I _ _ id F) as O. unfold has_consumer. split.
      * intros X. destruct (f_consumer f) as [j|]; [|discriminate]. apply Nat.eqb_eq in X. subst j.
        destruct (proj1 O eq_refl) as (c' & Y). pose proof (id_unique _ _ _ N0 P Y eq_refl) as Z. injection Z as Z _. exact Z.
      * intros X. subst l. rewrite (proj2 O); [apply Nat.eqb_refl|exists c; exact P].
    + intros k X. subst l. apply find_key. apply (i_some _ _ I). apply in_or_app. right. apply in_listens_in. exists id, c. exact P.
  - rewrite (i_clients _ _ I).
    apply (clients_filter _ (fun p => match p with WsIn _ _ c => c | _ => [] end) (WsIn id l c) qs N0 P).
    + intros q Q D. assert (X : part_id q <> id).
      { intros X. apply D. apply (id_unique _ _ _ N0 Q P X). }
      destruct q as [j m d|j m d|j u|j u|j]; cbn in *; try reflexivity; apply filter_map_none; intros u; cbn; [reflexivity|apply Nat.eqb_neq; exact X].
    + cbn. apply filter_map_const; [intros; apply Nat.eqb_refl|reflexivity].
Qed.

(** There is one server for an address that is listened on and none for others,
    and every factory has the carriages of parts that named its address. *)
Theorem C53_servers : forall asked ps w,
  start_all port nothing asked ps = inl w ->
  NoDup (map fst (w_servers w)) /\
  (forall k, In k (map fst (w_servers w)) <-> exists id c, In (WsOut id (Some k) c) (wanted asked ps) \/ In (WsIn id (Some k) c) (wanted asked ps)) /\
  (forall f, In f (factories w) ->
     (f_producer f <> None \/ f_consumer f <> None) /\
     (forall id, f_producer f = Some id -> exists l c, In (WsOut id l c) (wanted asked ps) /\ In (f_url f) (of_option l ++ c)) /\
     (forall id, f_consumer f = Some id -> exists l c, In (WsIn id l c) (wanted asked ps) /\ In (f_url f) (of_option l ++ c))).
Proof.
  intros asked ps w E. pose proof (started_inv _ _ _ E) as I. split; [apply I|].
  assert (S : forall k, In k (out_listens (wanted asked ps) ++ in_listens (wanted asked ps)) <->
     exists id c, In (WsOut id (Some k) c) (wanted asked ps) \/ In (WsIn id (Some k) c) (wanted asked ps)).
  { intros k. rewrite in_app_iff, out_listens_in, in_listens_in. unfold at_out, at_in. firstorder eauto. }
  split.
  - intros k. rewrite <- find_key, (i_some _ _ I). apply S.
  - intros f F. apply in_app_or in F as [F|F].
    + apply in_map_iff in F as ((k, g) & <- & F). cbn [snd]. apply find_in in F; [|apply I].
      rewrite (i_url _ _ I _ _ F). split; [|split].
      * assert (X : find_server (w_servers w) k <> None) by congruence. apply (i_some _ _ I), S in X as (id & c & [X|X]).
        -- left. assert (Y : f_producer g = Some id) by (apply (i_out _ _ I _ _ _ F); exists c; exact X). congruence.
        -- right. assert (Y : f_consumer g = Some id) by (apply (i_in _ _ I _ _ _ F); exists c; exact X). congruence.
      * intros id X. apply (i_out _ _ I _ _ _ F) in X as (c & X). exists (Some k), c. split; [exact X|left; reflexivity].
      * intros id X. apply (i_in _ _ I _ _ _ F) in X as (c & X). exists (Some k), c. split; [exact X|left; reflexivity].
    + rewrite (i_clients _ _ I) in F. apply in_flat_map in F as (p & P & F).
      destruct p as [j m d|j m d|j u|j u|j]; cbn in F; try tauto; apply in_map_iff in F as (u & <- & U); cbn.
      * split; [left; discriminate|]. split; [|discriminate]. intros id X. injection X as <-. exists m, d. split; [exact P|apply in_or_app; auto].
      * split; [right; discriminate|]. split; [discriminate|]. intros id X. injection X as <-. exists m, d. split; [exact P|apply in_or_app; auto].
Qed.

Lemma workable_perm : forall ps qs, Permutation ps qs -> workable port ps -> workable port qs.
Proof.
  intros ps qs P (H1 & H2 & H3 & H4).
  assert (O : Permutation (out_listens ps) (out_listens qs)) by (apply Permutation_flat_map, P).
  assert (J : Permutation (in_listens ps) (in_listens qs)) by (apply Permutation_flat_map, P).
  split; [intros id u X; apply (H1 id u); apply (Permutation_in _ (Permutation_sym P)), X|].
  split; [apply (Permutation_NoDup O), H2|]. split; [apply (Permutation_NoDup J), H3|].
  intros a b A B. apply H4; apply (Permutation_in _ (Permutation_sym (Permutation_app O J))); auto.
Qed.

Lemma wanted_perm : forall asked ps qs, Permutation ps qs -> Permutation (wanted asked ps) (wanted asked qs).
Proof.
  intros asked ps qs P. unfold wanted. induction P; cbn; [constructor|destruct (existsb _ asked); auto|..|eapply perm_trans; eauto].
  destruct (existsb (Nat.eqb (part_id y)) asked), (existsb (Nat.eqb (part_id x)) asked); auto. apply perm_swap.
Qed.

(** The configurators are kept in a set: in whatever order they are started the
    outcome is the same, and so are the wires. *)
Theorem C53_order : forall asked ps qs w,
  Permutation ps qs -> NoDup (map part_id ps) -> start_all port nothing asked ps = inl w ->
  exists v, start_all port nothing asked qs = inl v /\
    (forall id l c, In (WsOut id l c) (wanted asked ps) -> sent_on v id = sent_on w id) /\
    (forall id l c, In (WsIn id l c) (wanted asked ps) -> heard_on v id = heard_on w id).
Proof.
  intros asked ps qs w P N E.
  assert (W : workable port (wanted asked qs)).
  { apply (workable_perm (wanted asked ps)); [apply wanted_perm, P|]. apply C53_starts. eauto. }
  apply C53_starts in W as (v & V). exists v. split; [exact V|].
  assert (N' : NoDup (map part_id qs)) by (apply (Permutation_NoDup (Permutation_map part_id P)), N).
  assert (M : forall p, In p (wanted asked ps) -> In p (wanted asked qs)) by (intros p; apply Permutation_in, wanted_perm, P).
  split; intros id l c X.
  - rewrite (C53_sends _ _ _ _ _ _ N E X), (C53_sends _ _ _ _ _ _ N' V (M _ X)). reflexivity.
  - rewrite (C53_hears _ _ _ _ _ _ N E X), (C53_hears _ _ _ _ _ _ N' V (M _ X)). reflexivity.
Qed.

(** Starting a carriage a second time adds nothing new to a set; a second output
    on an address that has one is refused with ValueError, whatever else was
    started, and nothing of it is wired. *)
Theorem C53_second : forall asked ps w id u c,
  start_all port nothing asked ps = inl w ->
  (In u (out_listens (wanted asked ps)) -> start_part port w (WsOut id (Some u) c) = inr ValueError) /\
  (In u (in_listens (wanted asked ps)) -> start_part port w (WsIn id (Some u) c) = inr ValueError).
Proof.
  intros asked ps w id u c E. pose proof (started_inv _ _ _ E) as I. split; intros X.
  - apply out_listens_in in X as Y. destruct Y as (j & Y). cbn. unfold ws_producer. rewrite (cross _ _ _ I).
    destruct (find_server (w_servers w) u) as [f|] eqn:F.
    + rewrite (proj2 (i_out _ _ I _ _ j F) Y). reflexivity.
    + exfalso. apply (proj2 (i_some _ _ I u)); [apply in_or_app; auto|exact F].
  - apply in_listens_in in X as Y. destruct Y as (j & Y). cbn. unfold ws_consumer. rewrite (cross _ _ _ I).
    destruct (find_server (w_servers w) u) as [f|] eqn:F.
    + rewrite (proj2 (i_in _ _ I _ _ j F) Y). reflexivity.
    + exfalso. apply (proj2 (i_some _ _ I u)); [apply in_or_app; auto|exact F].
Qed.

(** An output with the older protocol never starts: ConfigurationError on the
    address of another server, TypeError anywhere else. *)
Theorem C53_legacy_output : forall asked ps w id u,
  start_all port nothing asked ps = inl w ->
  start_part port w (WslOut id u) =
  inr (if existsb (String.eqb u) (map fst (w_servers w)) then ConfigurationError else TypeError).
Proof.
  intros asked ps w id u E. pose proof (started_inv _ _ _ E) as I. cbn. unfold wsl_producer, crosscheck. rewrite (i_legacy _ _ I). cbn [find_server].
  destruct (find_server (w_servers w) u) as [f|] eqn:F.
  - assert (X : existsb (String.eqb u) (map fst (w_servers w)) = true).
    { apply existsb_exists. exists u. split; [apply find_key; congruence|apply String.eqb_refl]. }
    rewrite X. reflexivity.
  - destruct (existsb (String.eqb u) (map fst (w_servers w))) eqn:X; [|reflexivity].
    apply existsb_exists in X as (k & K & X). apply String.eqb_eq in X. subst k. apply find_key in K. congruence.
Qed.

(** An input with the older protocol starts, but it asks for no channel: whatever
    the server it connects to broadcasts and whatever other clients do, nothing
    reaches it. *)
Lemma legacy_channels : forall asked ps w v,
  start_all port w asked ps = inl v ->
  (forall u id chs, In (u, id, chs) (w_legacy_clients w) -> chs = []) ->
  (forall u id chs, In (u, id, chs) (w_legacy_clients v) -> chs = []).
Proof.
  intros asked. induction ps as [|p ps IH]; intros w v E H; cbn in E; [injection E as <-; exact H|].
  destruct (existsb _ asked); [|apply (IH w v E H)].
  destruct (start_part port w p) as [w'|e] eqn:S; [|discriminate]. apply (IH w' v E). clear - S H.
  assert (X : w_legacy_clients w' = w_legacy_clients w \/ exists u id, w_legacy_clients w' = (w_legacy_clients w ++ [(u, id, [])])%list).
  { destruct p as [id l c|id l c|id u|id u|id]; cbn in S; unfold ws_producer, ws_consumer, wsl_producer, wsl_consumer, create_server in S;
      repeat match goal with H : context [match ?x with _ => _ end] |- _ => destruct x eqn:?; try discriminate end;
      try (injection S as <-); try (injection Heqs as <-); cbn; auto; eauto. }
  destruct X as [X|(u0 & id0 & X)]; rewrite X; [exact H|]. intros u id chs Y. apply in_app_or in Y as [Y|[Y|[]]]; [eauto|congruence].
Qed.

Theorem C53_legacy_input : forall asked ps w id u,
  start_all port nothing asked ps = inl w -> In (WslIn id u) (wanted asked ps) ->
  (exists chs, In (u, id, chs) (w_legacy_clients w)) /\
  (forall chs, In (u, id, chs) (w_legacy_clients w) -> chs = []) /\
  (forall h k e, (forall ch un, ~ In (SocketModel.LMessage k (Some ch) un) h) ->
     PropsSocket.lreceived k (snd (SocketModel.lstep (PropsSocket.lstate h) e)) = []).
Proof.
  intros asked ps w id u E P. split; [|split].
  - assert (G : forall qs w0 v, start_all port w0 asked qs = inl v ->
        (In (WslIn id u) (wanted asked qs) \/ In (u, id, []) (w_legacy_clients w0)) -> In (u, id, []) (w_legacy_clients v)).
    { clear. induction qs as [|p qs IH]; intros w0 v E H; cbn in *; [injection E as <-; tauto|].
      destruct (existsb _ asked); [|apply (IH w0 v E H)].
      destruct (start_part port w0 p) as [w'|e] eqn:S; [|discriminate]. apply (IH w' v E).
      destruct H as [[H|H]|H]; [| tauto |].
      - subst p. cbn in S. unfold wsl_consumer in S. injection S as <-. right. cbn. apply in_or_app. right. left. reflexivity.
      - right. destruct p as [i l c|i l c|i x|i x|i]; cbn in S; unfold ws_producer, ws_consumer, wsl_producer, wsl_consumer, create_server in S;
          repeat match goal with H : context [match ?x with _ => _ end] |- _ => destruct x eqn:?; try discriminate end;
          try (injection S as <-); try (injection Heqs as <-); cbn; auto. apply in_or_app. auto. }
    exists []. apply (G ps nothing w E). left. exact P.
  - intros chs. apply (legacy_channels asked ps nothing w E). intros ? ? ? [].
  - intros h k e H. pose proof (PropsSocket.C36_channels h k e) as C. destruct e; try (rewrite C; reflexivity).
    destruct C as [((pre & un & mid & -> & _) & _)|(_ & C)]; [|exact C].
    exfalso. apply (H channel un), in_or_app. right. left. reflexivity.
Qed.

(** Why starting fails: an address that has its output or input already, a port
    in use, or an output with the older protocol; the check for a server of the
    other protocol is never what stops the newer one. *)
Theorem C53_refusals : forall asked ps e,
  start_all port nothing asked ps = inr e ->
  e = ValueError \/ e = CannotListen \/
  ((e = ConfigurationError \/ e = TypeError) /\ exists id u, In (WslOut id u) (wanted asked ps)).
Proof.
  intros asked ps e.
  assert (G : forall qs ps0 w, inv ps0 w -> workable port ps0 -> start_all port w asked qs = inr e ->
     e = ValueError \/ e = CannotListen \/ ((e = ConfigurationError \/ e = TypeError) /\ exists id u, In (WslOut id u) (wanted asked qs))).
  { clear. induction qs as [|p qs IH]; intros ps0 w I W E; cbn in *; [discriminate|].
    destruct (existsb _ asked); [|apply (IH ps0 w I W E)].
    pose proof (step ps0 w p I W) as S. destruct (start_part port w p) as [w'|e'] eqn:P.
    - destruct S as (F & I'). destruct (IH (ps0 ++ [p])%list w' I') as [X|[X|(X & id & u & Y)]]; auto.
      + apply workable_snoc. auto.
      + right. right. split; [exact X|]. exists id, u. right. exact Y.
    - injection E as ->. destruct p as [i l c|i l c|i u|i u|i]; cbn in P.
      + unfold ws_producer, create_server in P. destruct l as [u|]; [|discriminate]. rewrite (cross _ _ _ I) in P.
        destruct (find_server (w_servers w) u) as [f|]; [destruct (f_producer f); [injection P as <-; auto|discriminate]|].
        destruct (bound _ _ _); [injection P as <-; auto|discriminate].
      + unfold ws_consumer, create_server in P. destruct l as [u|]; [|discriminate]. rewrite (cross _ _ _ I) in P.
        destruct (find_server (w_servers w) u) as [f|]; [destruct (f_consumer f); [injection P as <-; auto|discriminate]|].
        destruct (bound _ _ _); [injection P as <-; auto|discriminate].
      + right. right. split; [|exists i, u; left; reflexivity].
        unfold wsl_producer, crosscheck in P. rewrite (i_legacy _ _ I) in P. cbn in P.
        destruct (find_server (w_servers w) u); injection P as <-; auto.
      + discriminate.
      + discriminate. }
  intros E. exact (G ps [] nothing inv_nothing workable_nil E).
Qed.

End Ports.

(** A gateway that listens with an input and an output on one address, publishes
    to two others, and has an output that only connects, an older input and a
    part that is not started. *)
Open Scope string_scope.
Definition here_a := "ws://0.0.0.0:9000".
Definition here_b := "ws://there:9001/s/publish".
Definition here_c := "ws://there:9002/s/publish".
Definition here_d := "ws://0.0.0.0:9003".
Definition ports (u : url) : nat := if u =? here_a then 90 else if u =? here_d then 93 else if u =? here_b then 91 else 90.
Definition gateway : list part :=
  [WsIn 1 (Some here_a) [here_c]; WsOut 2 (Some here_a) [here_b; here_c]; WsOut 3 None [here_b]; WslIn 4 here_d; Other 5; WsOut 6 (Some here_d) []; WsOut 7 (Some here_a) []].
Example C53_gateway_workable : workable ports (wanted [1; 2; 3; 4; 6] gateway) /\ NoDup (map part_id gateway).
Proof.
  split; [|vm_compute; repeat (apply NoDup_cons; [cbn; intuition discriminate|]); apply NoDup_nil].
  split; [intros id u H; cbn in H; intuition discriminate|].
  split; [vm_compute; repeat (apply NoDup_cons; [cbn; intuition discriminate|]); apply NoDup_nil|].
  split; [vm_compute; repeat (apply NoDup_cons; [cbn; intuition discriminate|]); apply NoDup_nil|].
  intros x y X Y. cbn in X, Y. destruct X as [<-|[<-|[<-|[]]]], Y as [<-|[<-|[<-|[]]]]; cbn; intros; (reflexivity || discriminate).
Qed.
Example C53_gateway :
  match start_all ports nothing [1; 2; 3; 4; 6] gateway with
  | inl w => sent_on w 2 = [here_a; here_b; here_c] /\ sent_on w 3 = [here_b] /\ sent_on w 6 = [here_d] /\ heard_on w 1 = [here_a; here_c] /\
             map fst (w_servers w) = [here_a; here_d] /\ w_legacy_clients w = [(here_d, 4, [])]
  | inr _ => False
  end /\
  match start_all ports nothing [6; 3; 2; 1] (rev gateway) with
  | inl w => sent_on w 2 = [here_a; here_b; here_c] /\ heard_on w 1 = [here_a; here_c] /\ map fst (w_servers w) = [here_d; here_a]
  | inr _ => False
  end /\
  (* the seventh part listens where the second does *)
  start_all ports nothing [2; 7] gateway = inr ValueError /\
  (* two spellings of one address *)
  start_all ports nothing [1; 2] [WsIn 1 (Some here_a) []; WsOut 2 (Some "ws://localhost:9000") []] = inr CannotListen /\
  (* an older output *)
  start_all ports nothing [1; 2] [WsIn 1 (Some here_a) []; WslOut 2 here_a] = inr ConfigurationError /\
  start_all ports nothing [1; 2] [WsIn 1 (Some here_a) []; WslOut 2 here_d] = inr TypeError.
Proof. vm_compute. repeat split; reflexivity. Qed.

(** ** C54 *)

Lemma find_direct_set : forall l k d j, find_direct (set_direct l k d) j = if String.eqb j k then Some d else find_direct l j.
Proof.
  induction l as [|[i g] r IH]; intros k d j; cbn; [reflexivity|].
  destruct (String.eqb_spec k i) as [E|E]; cbn.
  - subst i. destruct (String.eqb j k); reflexivity.
  - rewrite IH. destruct (String.eqb_spec j i) as [E2|E2]; [|reflexivity].
    subst j. destruct (String.eqb_spec i k); [congruence|reflexivity].
Qed.

Lemma final_snoc : forall {A} (l : list A) x, final (l ++ [x]) = Some x.
Proof. intros A. induction l as [|a l IH]; intros x; [reflexivity|]. cbn. specialize (IH x). destruct (l ++ [x])%list eqn:E; [destruct l; discriminate|exact IH]. Qed.

(** The document goes to the input configured last under that name; to none if
    there is none, which raises. *)
Theorem C54_direct : forall es k,
  direct_emit (configure_all es) k = final (inputs k es) /\
  direct_resume (configure_all es) k = final (outputs k es).
Proof.
  intros es k. unfold direct_emit, direct_resume, configure_all.
  induction es as [|e es IH] using rev_ind; [split; reflexivity|].
  rewrite fold_left_app. cbn [fold_left]. unfold inputs, outputs in *. rewrite !flat_map_app.
  set (l := fold_left configure_direct es []) in *. clearbody l. destruct IH as (I1 & I2). unfold component_of in *.
  destruct e as [j n|j n]; cbn [configure_direct flat_map]; rewrite find_direct_set; destruct (String.eqb_spec k j) as [E|E].
  - subst j. cbn. rewrite final_snoc, app_nil_r. split; [reflexivity|exact I2].
  - rewrite !app_nil_r. auto.
  - subst j. cbn. rewrite final_snoc, app_nil_r. split; [exact I1|reflexivity].
  - rewrite !app_nil_r. auto.
Qed.

(** The names do not interfere: ends under other names change nothing. *)
Theorem C54_separate : forall es fs k,
  (forall e, In e fs -> match e with DirectInput j _ | DirectOutput j _ => j <> k end) ->
  direct_emit (configure_all (es ++ fs)) k = direct_emit (configure_all es) k /\
  direct_resume (configure_all (es ++ fs)) k = direct_resume (configure_all es) k.
Proof.
  intros es fs k H. rewrite !(proj1 (C54_direct _ k)), !(proj2 (C54_direct _ k)).
  unfold inputs, outputs. rewrite !flat_map_app.
  assert (X : inputs k fs = [] /\ outputs k fs = []).
  { clear es. induction fs as [|e fs IH]; [split; reflexivity|]. destruct IH as (I1 & I2); [intros x X; apply H; right; exact X|].
    specialize (H e (or_introl eq_refl)). unfold inputs, outputs in *. cbn. rewrite I1, I2.
    destruct e as [j n|j n]; (destruct (String.eqb_spec k j); [congruence|auto]). }
  destruct X as (X1 & X2). unfold inputs, outputs in X1, X2. rewrite X1, X2, !app_nil_r. split; reflexivity.
Qed.

(** Only one node is served: of several inputs under one name all but the last
    get nothing, and nothing says so. *)
Theorem C54_fan_out_lost : exists es k m n,
  m <> n /\ In (DirectInput k m) es /\ In (DirectInput k n) es /\ direct_emit (configure_all es) k = Some n.
Proof.
  exists [DirectOutput "x" 1; DirectInput "x" 2; DirectInput "x" 3], "x", 2, 3. cbn. repeat split; auto; discriminate.
Qed.

Example C54_case :
  let es := [DirectInput "x" 2; DirectOutput "x" 1; DirectOutput "y" 2; DirectInput "z" 4; DirectInput "y" 3; DirectOutput "x" 5] in
  direct_emit (configure_all es) "x" = Some 2 /\ direct_emit (configure_all es) "y" = Some 3 /\
  direct_resume (configure_all es) "x" = Some 5 /\ direct_resume (configure_all es) "z" = None /\
  direct_emit (configure_all es) "w" = None.
Proof. vm_compute. repeat split; reflexivity. Qed.

Print Assumptions C53_starts.
Print Assumptions C53_sends.
Print Assumptions C53_hears.
Print Assumptions C53_servers.
Print Assumptions C53_order.
Print Assumptions C53_second.
Print Assumptions C53_legacy_output.
Print Assumptions C53_legacy_input.
Print Assumptions C53_refusals.
Print Assumptions C54_direct.
Print Assumptions C54_separate.
Print Assumptions C54_fan_out_lost.
