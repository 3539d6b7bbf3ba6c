(** C73: making an application from a configuration. *)

From Coq Require Import List Arith ZArith String Bool Lia Permutation.
From Verif Require Import TimeModel AppModel AppSpec AppProofs ScheduleModel ScheduleProofs.
Import ListNotations.
Open Scope string_scope.

(** ** Which configurations make an application *)

Theorem C73_accepts : forall c,
  snd (create_app fresh c) = None <-> In (c_backend c) backend_names /\ all_known c /\ all_made c.
Proof.
  intros c. destruct (create_app fresh c) as [p e] eqn:H. apply create_is in H. cbn [snd].
  pose proof (read_slots_known (c_slots c)) as K. pose proof (backend_known (c_backend c)) as B.
  pose proof (first_error_none (c_slots c)) as F. fold (all_known c) in K.
  destruct (read_slots (c_slots c)) as [l|].
  - assert (Kn : all_known c) by (apply K; discriminate).
    destruct (get_backend (c_backend c)) as [b|].
    + assert (Bn : In (c_backend c) backend_names) by (apply B; discriminate). cbn in H. destruct H as (_ & -> & _).
      rewrite (F l eq_refl). unfold all_made. tauto.
    + destruct H as [_ ->]. split; [discriminate|]. intros (Q & _). apply B in Q. congruence.
  - destruct H as [_ ->]. split; [discriminate|]. intros (_ & Q & _). apply K in Q. congruence.
Qed.

(** Its nodes are those configured, in the order of the slots. *)
Definition configured (c : app_conf) : list string :=
  flat_map (fun s => match s with Some n => [n_type n] | None => [] end) (c_slots c).

Theorem C73_nodes : forall p c p1, create_app p c = (p1, None) ->
  exists ks, p_app p1 = Some ks /\ map name_of ks = configured c.
Proof.
  intros p c p1 H. apply create_is in H. unfold configured.
  destruct (read_slots (c_slots c)) as [l|] eqn:R; [|destruct H; discriminate].
  destruct (get_backend (c_backend c)); [|destruct H; discriminate].
  destruct (p_backend p); [destruct H; discriminate|]. destruct H as (_ & _ & Q & _). destruct (Q eq_refl) as (_ & _ & A).
  exists (kinds l). split; [exact A|]. clear - R. revert l R. induction (c_slots c) as [|[n|] s IH]; cbn; intros l R.
  - injection R as <-. reflexivity.
  - destruct (read_node n) as [m|] eqn:N; [|discriminate]. destruct (read_slots s) as [x|]; [|discriminate]. injection R as <-.
    cbn. apply read_conf in N as (_ & T & _). rewrite <- T, (IH x eq_refl). reflexivity.
  - destruct (read_slots s) as [x|]; [|discriminate]. injection R as <-. cbn. apply IH. reflexivity.
Qed.

(** ** What is raised *)

(** The names of nodes, clocks and carriages are looked up before anything else. *)
Theorem C73_names : forall p c, ~ all_known c -> create_app p c = (p, Some ConfigurationError).
Proof.
  intros p c K. destruct (create_app p c) as [p1 e] eqn:H. apply create_is in H.
  pose proof (read_slots_known (c_slots c)) as R. fold (all_known c) in R.
  destruct (read_slots (c_slots c)); [exfalso; apply K, R; discriminate|]. destruct H as [-> ->]. reflexivity.
Qed.

Theorem C73_names_only : forall c, snd (create_app fresh c) = Some ConfigurationError -> ~ all_known c.
Proof.
  intros c H. destruct (create_app fresh c) as [p1 e] eqn:C. apply create_is in C. cbn in H. subst e.
  pose proof (read_slots_known (c_slots c)) as R. fold (all_known c) in R.
  destruct (read_slots (c_slots c)) as [l|]; [|intros Q; apply R in Q; congruence].
  destruct (get_backend (c_backend c)); [|destruct C; discriminate]. cbn in C. destruct C as (_ & C & _). exfalso. clear R.
  induction l as [|[n|] l IH]; cbn in C; [discriminate| |auto]. destruct (node_error n) as [x|] eqn:E; [|auto]. injection C as <-.
  revert E. unfold node_error, component, adapt. destruct (r_kind n); cbn;
    repeat match goal with
    | |- context [match n_when ?a with _ => _ end] => destruct (n_when a)
    | |- context [match clock_td ?a ?b with _ => _ end] => destruct (clock_td a b)
    | |- context [match r_clock ?a with _ => _ end] => destruct (r_clock a)
    | |- context [parse_adapters ?a] =>
        let Q := fresh "Q" in assert (Q : parse_adapters a <> Some ConfigurationError)
          by (clear; induction a as [|[t|] l IH]; cbn; try discriminate; destruct (known_adapter t); [exact IH|discriminate]);
        destruct (parse_adapters a)
    | |- context [if s_fits ?a then _ else _] => destruct (s_fits a)
    end; congruence.
Qed.

Lemma adapt_why c s e : used c s -> adapt s = Some e -> reason e c.
Proof.
  intros U. unfold adapt. destruct (parse_adapters (s_adapters s)) as [x|] eqn:P.
  - intros H. injection H as <-.
    assert (G : (x = KeyError /\ In None (s_adapters s)) \/ (x = TypeError /\ exists t, In (Some t) (s_adapters s) /\ ~ In t adapter_names)).
    { revert P. induction (s_adapters s) as [|[t|] l IH]; cbn [parse_adapters]; [discriminate| |].
      - destruct (known_adapter t) eqn:K; intros H.
        + destruct (IH H) as [[A B]|[A (t' & B & C)]]; [left|right; split; [exact A|]; exists t']; cbn; auto.
        + injection H as <-. right. split; [reflexivity|]. exists t. split; [left; reflexivity|]. intros I. apply adapter_known in I. congruence.
      - intros H. injection H as <-. left. cbn. auto. }
    destruct G as [[-> I]|[-> (t & I & N)]]; cbn [reason]; [exists s|exists s, t]; auto.
  - destruct (s_fits s) eqn:F; [discriminate|]. intros H. injection H as <-. exists s. auto.
Qed.

Lemma node_why c n e : read_node c = Some n -> node_error n = Some e -> reason e c.
Proof.
  intros R. apply read_conf in R as (C & T & K & _). unfold node_error. rewrite C.
  assert (I : has_in (r_kind n) = true -> used c (n_in c)).
  { intros Q. left. split; [reflexivity|]. rewrite T. intros N. destruct (r_kind n); discriminate. }
  assert (O : has_out (r_kind n) = true -> used c (n_out c)).
  { intros Q. right. split; [reflexivity|]. rewrite T. intros N. destruct (r_kind n); discriminate. }
  destruct (component n) as [x|] eqn:Co.
  - intros H. injection H as <-. clear I O. unfold component in Co. rewrite C in Co.
    assert (A : r_clock n = Auto -> has_clock (r_kind n) = true -> n_clock c = "auto").
    { intros Q Hc. apply (clock_auto _ _ (K Hc)), Q. }
    destruct (r_kind n); try discriminate; cbn [name_of has_clock] in *;
      (destruct (n_when c) as [|t] eqn:W; [|destruct (clock_td true t) eqn:Td]); try (destruct (r_clock n)); try discriminate;
      injection Co as <-; cbn [reason]; rewrite T; (split; [cbn; auto|eauto]).
  - destruct (has_in (r_kind n)).
    + destruct (adapt (n_in c)) as [x|] eqn:Ai; [intros H; injection H as <-; eapply adapt_why; [apply I; reflexivity|exact Ai]|].
      destruct (has_out (r_kind n)); [|discriminate]. apply adapt_why, O. reflexivity.
    + destruct (has_out (r_kind n)); [|discriminate]. apply adapt_why, O. reflexivity.
Qed.

(** Each exception tells what is wrong with some node, or with the backend. *)
Theorem C73_why : forall c e, snd (create_app fresh c) = Some e ->
  (exists n, In (Some n) (c_slots c) /\ reason e n) \/ (e = AttributeError /\ ~ In (c_backend c) backend_names).
Proof.
  intros c e H. destruct (create_app fresh c) as [p1 e1] eqn:C. cbn in H. subst e1. apply create_is in C.
  destruct (read_slots (c_slots c)) as [l|] eqn:R.
  - destruct (get_backend (c_backend c)) as [s|] eqn:B.
    + left. cbn in C. destruct C as (_ & C & _). clear B s. revert l R C. induction (c_slots c) as [|[n|] s IH]; cbn; intros l R C.
      * injection R as <-. discriminate.
      * destruct (read_node n) as [m|] eqn:N; [|discriminate]. destruct (read_slots s) as [x|]; [|discriminate]. injection R as <-.
        cbn in C. destruct (node_error m) eqn:E.
        -- injection C as <-. exists n. split; [auto|]. eapply node_why; eauto.
        -- destruct (IH x eq_refl C) as (d & D & Q). eauto.
      * destruct (read_slots s) as [x|]; [|discriminate]. injection R as <-. destruct (IH x eq_refl C) as (d & D & Q). eauto.
    + right. destruct C as [_ C]. injection C as <-. split; [reflexivity|]. intros I. apply backend_known in I. congruence.
  - left. destruct C as [_ C]. injection C as ->. clear p1. revert R. induction (c_slots c) as [|[n|] s IH]; cbn; [discriminate| |].
    + destruct (read_node n) eqn:N.
      * destruct (read_slots s); [discriminate|]. intros _. destruct (IH eq_refl) as (d & D & Q). eauto.
      * intros _. exists n. split; [auto|]. cbn. intros K. apply read_node_known in K. congruence.
    + destruct (read_slots s); [discriminate|]. intros _. destruct (IH eq_refl) as (d & D & Q). eauto.
Qed.

(** No ConfigurationError for the name of the backend. *)
Theorem C73_backend : forall p c, all_known c -> ~ In (c_backend c) backend_names ->
  create_app p c = (p, Some AttributeError).
Proof.
  intros p c K B. destruct (create_app p c) as [p1 e] eqn:H. apply create_is in H.
  destruct (read_slots (c_slots c)) eqn:R; [|exfalso; apply (proj2 (read_slots_known _) K R)].
  destruct (get_backend (c_backend c)) eqn:G; [exfalso; apply B, backend_known; congruence|]. destruct H as [-> ->]. reflexivity.
Qed.

(** ** One application in a process *)

Lemma create_none p c p1 e : create_app p c = (p1, e) -> p_backend p1 = None -> p1 = p.
Proof.
  intros H N. apply create_is in H. destruct (read_slots (c_slots c)); [|apply H]. destruct (get_backend (c_backend c)); [|apply H].
  destruct (p_backend p); [apply H|]. destruct H as (Q & _). congruence.
Qed.

(** At most one of several attempts succeeds. *)
Theorem C73_once : forall l i j, nth_error (attempts fresh l) i = Some None -> nth_error (attempts fresh l) j = Some None -> i = j.
Proof.
  assert (G : forall l p i j, nth_error (attempts p l) i = Some None -> nth_error (attempts p l) j = Some None -> i = j).
  { induction l as [|c l IH]; intros p i j; cbn; [destruct i; discriminate|].
    destruct (create_app p c) as [p1 e] eqn:C.
    assert (L : p_backend p1 <> None -> forall k, nth_error (attempts p1 l) k <> Some None).
    { intros B k Q. destruct (attempts_later l p1 B) as [F _]. apply nth_error_In in Q. rewrite Forall_forall in F.
      destruct (F _ Q); discriminate. }
    assert (D : e = None -> p_backend p1 <> None).
    { intros ->. apply create_is in C. destruct (read_slots (c_slots c)); [|destruct C; discriminate].
      destruct (get_backend (c_backend c)); [|destruct C; discriminate]. destruct (p_backend p); [destruct C; discriminate|].
      destruct C as (Q & _). congruence. }
    destruct i as [|i], j as [|j]; cbn; intros H1 H2; [reflexivity| | |f_equal; eapply IH; eauto].
    - injection H1 as H1. destruct (L (D H1) j H2).
    - injection H2 as H2. destruct (L (D H2) i H1). }
  intros l. apply G.
Qed.

(** An attempt that failed when nodes were made leaves its backend behind: nothing can
    be made any more in this process. *)
Theorem C73_spoilt : forall l c l', all_known c -> In (c_backend c) backend_names ->
  forall i, (List.length l < i)%nat -> nth_error (attempts fresh (l ++ c :: l')) i <> Some None.
Proof.
  assert (G : forall l p c l', all_known c -> In (c_backend c) backend_names ->
    forall i, (List.length l < i)%nat -> nth_error (attempts p (l ++ c :: l')) i <> Some None).
  { induction l as [|d l IH]; intros p c l' K B i I; cbn in *.
    - destruct (create_app p c) as [p1 e] eqn:C. destruct i as [|i]; [lia|]. cbn.
      assert (Q : p_backend p1 <> None).
      { apply create_is in C. destruct (read_slots (c_slots c)) eqn:R; [|exfalso; apply (proj2 (read_slots_known _) K R)].
        destruct (get_backend (c_backend c)) eqn:Gb; [|exfalso; apply (proj2 (backend_known _) B Gb)].
        destruct (p_backend p) eqn:P; [destruct C as [-> _]; congruence|]. destruct C as (Q & _). congruence. }
      destruct (attempts_later l' p1 Q) as [F _]. intros N. apply nth_error_In in N. rewrite Forall_forall in F.
      destruct (F _ N); discriminate.
    - destruct (create_app p d) as [p1 e]. destruct i as [|i]; [lia|]. cbn. apply IH; auto; lia. }
  intros l. apply G.
Qed.

(** Attempts refused for a name do no harm. *)
Theorem C73_harmless : forall l, (forall c, In c l -> ~ (all_known c /\ In (c_backend c) backend_names)) ->
  process_after l = fresh.
Proof.
  unfold process_after. intros l. generalize fresh. induction l as [|c l IH]; intros p H; cbn [fold_left]; [reflexivity|].
  replace (fst (create_app p c)) with p; [apply IH; intros d D; apply H; right; exact D|].
  specialize (H c (or_introl eq_refl)). destruct (create_app p c) as [p1 e] eqn:C. apply create_is in C. cbn.
  pose proof (read_slots_known (c_slots c)) as R. fold (all_known c) in R. pose proof (backend_known (c_backend c)) as B.
  destruct (read_slots (c_slots c)); [|destruct C; auto]. destruct (get_backend (c_backend c)); [|destruct C; auto].
  exfalso. apply H. split; [apply R|apply B]; discriminate.
Qed.

(** ** Starting *)

Theorem C73_started : forall p c p1 order, create_app p c = (p1, None) -> Permutation order (p_all p1) ->
  NoDup (started p1 order) /\ forall x, In x (started p1 order) <-> is_started c x.
Proof.
  intros p c p1 order H P. apply create_is in H.
  destruct (read_slots (c_slots c)) as [l|] eqn:R; [|destruct H; discriminate].
  destruct (get_backend (c_backend c)); [|destruct H; discriminate].
  destruct (p_backend p); [destruct H; discriminate|]. destruct H as (_ & _ & Q & _). destruct (Q eq_refl) as (A & S & _).
  pose proof (started_perm _ _ _ A S P) as Pm. split.
  - eapply Permutation_NoDup; [apply Permutation_sym; exact Pm|apply slots_start_nodup].
  - intros x. transitivity (In x (slots_start 0 l)).
    { split; apply Permutation_in; [exact Pm|apply Permutation_sym; exact Pm]. }
    rewrite slots_start_in. unfold is_started. split.
    + intros (j & n & N & I). pose proof (read_slots_nth _ _ R j) as Z. destruct (nth_error (c_slots c) j) as [[d|]|] eqn:E; [|congruence|congruence].
      destruct Z as (m & Z & D). rewrite N in Z. injection Z as <-. exists j, d. split; [exact E|]. apply (node_start_in _ _ _ _ D), I.
    + intros (j & d & N & I). pose proof (read_slots_nth _ _ R j) as Z. rewrite N in Z. destruct Z as (m & Z & D).
      exists j, m. split; [exact Z|]. apply (node_start_in _ _ _ _ D), I.
Qed.

Lemma dummy_start_is l : snd (dummy_start l) = if existsb socket l then Some AttributeError else None.
Proof.
  induction l as [|x l IH]; cbn; [reflexivity|]. destruct (socket x); [reflexivity|]. destruct (dummy_start l). exact IH.
Qed.

(** The dummy backend starts nothing that uses websockets. *)
Theorem C73_dummy : forall p c p1 order, create_app p c = (p1, None) -> Permutation order (p_all p1) ->
  (snd (dummy_start (started p1 order)) = Some AttributeError <-> exists n, In (Some n) (c_slots c) /\ uses_websocket n) /\
  (snd (dummy_start (started p1 order)) = None -> fst (dummy_start (started p1 order)) = started p1 order).
Proof.
  intros p c p1 order H P. destruct (C73_started _ _ _ _ H P) as [_ S]. split.
  - rewrite dummy_start_is. transitivity (existsb socket (started p1 order) = true); [destruct (existsb _ _); split; congruence|].
    rewrite existsb_exists. split.
    + intros (x & I & X). apply S in I as (i & n & N & O). exists n. split; [eapply nth_error_In; exact N|].
      unfold uses_websocket. destruct O as [[-> _]|[[-> T]|[-> [T F]]]]; cbn in X; [discriminate| |];
        revert X; unfold carriage_named; [left|right]; (split; [exact T|]); revert X; names; intros; try discriminate; cbn; auto.
    + intros (n & I & U). apply In_nth_error in I as [i N].
      destruct U as [[T C]|[T C]].
      * exists (Comp i (PIn (carriage_named (s_carriage (n_in n))))). split; [apply S; exists i, n; split; [exact N|right; left; auto]|].
        destruct C as [<-|[<-|[]]]; reflexivity.
      * exists (Comp i (POut (carriage_named (s_carriage (n_out n))))).
        split; [apply S; exists i, n; split; [exact N|right; right; split; [reflexivity|split; [exact T|]]]|].
        -- destruct C as [<-|[<-|[]]]; discriminate.
        -- destruct C as [<-|[<-|[]]]; reflexivity.
  - generalize (started p1 order) as l. clear. induction l as [|x l IH]; cbn; [reflexivity|].
    destruct (socket x); cbn; [discriminate|]. destruct (dummy_start l) as [a e]. cbn in *. intros Q. rewrite IH; auto.
Qed.

(** ** A producer without a clock *)

(** It is called at most once, and sends nothing. *)
Theorem C73_auto : forall start len now l s rs,
  sched_run (produce Auto) (fun _ => true) negb start len (sched0 start len 0%nat now) l = Some (s, rs) ->
  sc_node s = 0%nat /\ (List.length l <= 1)%nat.
Proof.
  intros start len now [|e [|e2 l]] s rs; cbn.
  - intros H. injection H as <- _. auto.
  - unfold sched_step. cbn. destruct (_ || _)%bool; [discriminate|]. destruct (_ <? _)%Z; [discriminate|]. intros H. injection H as <- _. auto.
  - unfold sched_step. cbn. destruct (_ || _)%bool; [discriminate|]. destruct (_ <? _)%Z; [discriminate|]. cbn.
    destruct (_ || _)%bool; discriminate.
Qed.

(** With one it sends a document at each call. *)
Theorem C73_clock : forall c start len now l s rs, c <> Auto ->
  sched_run (produce c) (fun _ => true) negb start len (sched0 start len 0%nat now) l = Some (s, rs) ->
  sc_node s = List.length l /\ sc_due s <> None.
Proof.
  intros c start len now l s rs C H.
  assert (G : forall l s0 s rs, sc_due s0 <> None -> sched_run (produce c) (fun _ => true) negb start len s0 l = Some (s, rs) ->
    sc_node s = (sc_node s0 + List.length l)%nat /\ sc_due s <> None).
  { clear - C. induction l as [|e l IH]; intros s0 s rs D; cbn.
    - intros H. injection H as <- _. rewrite Nat.add_0_r. auto.
    - destruct (sched_step _ _ _ _ _ s0 e) as [[s1 r]|] eqn:E; [|discriminate].
      destruct (sched_run _ _ _ _ _ s1 l) as [[s2 rs2]|] eqn:R; [|discriminate]. intros H. injection H as <- _.
      assert (Q : sc_node s1 = S (sc_node s0) /\ sc_due s1 <> None).
      { revert E. unfold sched_step. destruct (_ || _)%bool; [discriminate|]. destruct (sc_due s0); [|discriminate].
        destruct (_ <? _)%Z; [discriminate|]. destruct c; [| |congruence]; cbn; intros E; injection E as <- _; cbn; split; congruence. }
      destruct Q as [Q1 Q2]. destruct (IH _ _ _ Q2 R) as [X Y]. rewrite X, Q1. split; [lia|exact Y]. }
  apply G in H; [exact H|discriminate].
Qed.

(** ** Cases *)

Definition via (t : string) (a : list (option string)) : side := mkSide t a true.

(** A producer, a re-sequencing node and an encoder; node3 is not used. *)
Definition example : app_conf :=
  mkConf "twisted"
    [Some (mkNode "simple-producer" "utc" Now (via "" []) (via "direct" []));
     Some (mkNode "resequencer" "local" (At "13:30:00") (via "direct" []) (via "direct" []));
     None;
     Some (mkNode "ebuttd-encoder" "auto" (At "00:00:10") (via "direct" []) (via "filesystem" [Some "ebuttd->xml"]))].

Example C73_case_example : p_app (fst (create_app fresh example)) = Some [Producer; ReSequencer; Encoder] /\
  snd (create_app fresh example) = None.
Proof. vm_compute. auto. Qed.

Example C73_case_started : let p := fst (create_app fresh example) in started p (rev (p_all p)) =
  [Comp 3 (PIn Direct); Comp 1 (POut Direct); Comp 1 (PIn Direct); Comp 1 PNode; Comp 0 (POut Direct); Comp 0 PNode].
Proof. reflexivity. Qed.

(** Everything else left as it is, the documented clock of the re-sequencing node and of
    the encoder. *)
Definition one (n : node_conf) : app_conf := mkConf "twisted" [Some n].
Example C73_case_documented :
  snd (create_app fresh (one (mkNode "resequencer" "auto" Now (via "direct" []) (via "direct" [])))) = Some AttributeError /\
  snd (create_app fresh (one (mkNode "ebuttd-encoder" "auto" Now (via "direct" []) (via "direct" [])))) = Some AttributeError /\
  snd (create_app fresh (one (mkNode "simple-producer" "clock" Now (via "" []) (via "direct" [])))) = Some ConfigurationError /\
  snd (create_app fresh (one (mkNode "simple-producer" "auto" Now (via "" []) (via "direct" [])))) = None.
Proof. vm_compute. auto. Qed.

Definition with_adapters (a : list (option string)) : app_conf :=
  one (mkNode "deduplicator" "" Now (via "direct" a) (via "direct" [])).
Example C73_case_raised :
  snd (create_app fresh (with_adapters [Some "xml->ebutt"])) = Some TypeError /\
  snd (create_app fresh (with_adapters [None])) = Some KeyError /\
  snd (create_app fresh (one (mkNode "deduplicator" "" Now (mkSide "direct" [Some "ebuttd->xml"] false) (via "direct" [])))) = Some Incompatible /\
  snd (create_app fresh (one (mkNode "resequencer" "utc" (At "1 pm") (via "direct" []) (via "direct" [])))) = Some InvalidTime /\
  snd (create_app fresh (mkConf "Twisted" (c_slots example))) = Some AttributeError /\
  snd (create_app fresh (one (mkNode "reseqencer" "utc" Now (via "direct" []) (via "direct" [])))) = Some ConfigurationError.
Proof. vm_compute. repeat split. Qed.

(** A name is looked up even where the backend is unknown as well. *)
Example C73_case_names : snd (create_app fresh (mkConf "Twisted" [Some (mkNode "handover" "" Now (via "file" []) (via "direct" []))])) = Some ConfigurationError.
Proof. reflexivity. Qed.

(** Corrected at once, yet too late; after a wrong name it is not. *)
Example C73_case_attempts :
  attempts fresh [with_adapters [Some "xml->ebutt"]; with_adapters [Some "xml->ebutt3"]] = [Some TypeError; Some ConfigurationError] /\
  attempts fresh [mkConf "none" []; one (mkNode "distributer" "" Now (via "direct" []) (via "direct" [])); example; example]
    = [Some AttributeError; Some ConfigurationError; None; Some ConfigurationError].
Proof. vm_compute. auto. Qed.

Definition dummy (t : string) : app_conf :=
  mkConf "dummy" [Some (mkNode "distributor" "" Now (via "direct" []) (via t []))].
Example C73_case_dummy :
  (let p := fst (create_app fresh (dummy "filesystem")) in dummy_start (started p (p_all p)) = ([Comp 0 (PIn Direct)], None)) /\
  (let p := fst (create_app fresh (dummy "websocket")) in snd (dummy_start (started p (p_all p))) = Some AttributeError).
Proof. vm_compute. auto. Qed.

Example C73_case_auto : sched_run (produce Auto) (fun _ => true) negb 0 2 (sched0 0 2 0%nat 0) [mkTimed 2 2 tt] = Some (mkSched 0%nat None 2%Z, [false]).
Proof. reflexivity. Qed.
Example C73_case_clock : sched_run (produce UTC) (fun _ => true) negb 0 2 (sched0 0 2 0%nat 0) [mkTimed 2 2 tt; mkTimed 4 4 tt] =
  Some (mkSched 2%nat (Some 6%Z) 4%Z, [true; true]).
Proof. reflexivity. Qed.

Print Assumptions C73_accepts.
Print Assumptions C73_nodes.
Print Assumptions C73_names.
Print Assumptions C73_names_only.
Print Assumptions C73_why.
Print Assumptions C73_backend.
Print Assumptions C73_once.
Print Assumptions C73_spoilt.
Print Assumptions C73_harmless.
Print Assumptions C73_started.
Print Assumptions C73_dummy.
Print Assumptions C73_auto.
Print Assumptions C73_clock.
