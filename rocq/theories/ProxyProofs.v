(** Facts about the reading of proxy addresses. *)

From Coq Require Import List ZArith String Ascii Bool Lia.
From Verif Require Import Digits ProxyModel ProxySpec.
Import ListNotations.
Open Scope string_scope.

Lemma free_nil : forall c, free c "".
Proof. intros c []. Qed.

Lemma free_cons : forall c a s, free c (String a s) <-> a <> c /\ free c s.
Proof.
  intros. unfold free. cbn. split.
  - intros H. split; intros ?; apply H; auto.
  - intros [A B] [?|?]; auto.
Qed.

Lemma free_app : forall c a b, free c (a ++ b) <-> free c a /\ free c b.
Proof.
  induction a as [|x a IH]; intros b; cbn.
  - split; [intros; split; [apply free_nil|auto]|tauto].
  - rewrite !free_cons, IH. tauto.
Qed.

Lemma digits_free : forall c d, is_digit c = false -> all_digits d = true -> free c d.
Proof.
  induction d as [|x d IH]; cbn; intros Hc H; [apply free_nil|].
  apply andb_true_iff in H as [Hx H]. apply free_cons. split; auto. congruence.
Qed.

Lemma ending_free : forall e, ending e -> free colon e.
Proof. intros e [-> | ->]; [apply free_nil|]. apply free_cons. split; [discriminate|apply free_nil]. Qed.

Lemma ending_at_end : forall e, at_end e = true <-> ending e.
Proof.
  intros e. split.
  - destruct e as [|c [|]]; cbn; intros H; try discriminate; [left; auto|].
    apply Ascii.eqb_eq in H. subst. right. auto.
  - intros [-> | ->]; auto.
Qed.

Lemma ending_no_digit : forall e, ending e -> no_digit_first e = true.
Proof. intros e [-> | ->]; auto. Qed.

Lemma numeral_free : forall d e, numeral d -> ending e -> free colon (d ++ e).
Proof.
  intros d e [_ D] E. apply free_app. split; [apply digits_free; auto|apply ending_free; auto].
Qed.

(** ** The parts *)

Lemma match_port_spec : forall s d,
  match_port s = Some d <-> exists e, s = d ++ e /\ numeral d /\ ending e.
Proof.
  intros s d. unfold match_port. split.
  - destruct (span s) as [d' r] eqn:E. apply span_spec in E as (-> & D & R).
    destruct d' as [|c d']; [discriminate|]. destruct (at_end r) eqn:A; [|discriminate].
    intros H. injection H as <-. exists r. split; [auto|]. split; [split; [discriminate|auto]|].
    apply ending_at_end. auto.
  - intros (e & -> & [N D] & E). rewrite span_app; auto using ending_no_digit.
    destruct d; [congruence|]. apply ending_at_end in E. rewrite E. auto.
Qed.

Lemma match_host_sound : forall s seen h d, match_host seen s = Some (h, d) ->
  exists h' r, h = seen ++ h' /\ h <> "" /\ free colon h' /\ s = h' ++ ":" ++ r /\ match_port r = Some d.
Proof.
  induction s as [|c s IH]; cbn [match_host]; intros seen h d H; [discriminate|].
  destruct (Ascii.eqb c colon) eqn:C.
  - apply Ascii.eqb_eq in C. subst c. destruct seen as [|x seen]; [discriminate|].
    destruct (match_port s) as [d'|] eqn:P; [|discriminate]. injection H as <- <-.
    exists "", s. rewrite app_empty_r. repeat split; auto using free_nil; discriminate.
  - assert (G : match_host (seen ++ String c "") s = Some (h, d)) by (destruct seen; auto).
    apply IH in G as (h' & r & -> & N & F & -> & P).
    exists (String c h'), r. rewrite app_assoc_s. split; [reflexivity|].
    split; [rewrite app_assoc_s in N; exact N|]. split; [|auto].
    apply free_cons. split; auto. intros ->. rewrite Ascii.eqb_refl in C. discriminate.
Qed.

Lemma match_host_complete : forall h' seen r d, seen ++ h' <> "" -> free colon h' ->
  match_port r = Some d -> match_host seen (h' ++ ":" ++ r) = Some (seen ++ h', d).
Proof.
  induction h' as [|c h' IH]; intros seen r d N F P.
  - rewrite app_empty_r in *. cbn. destruct seen; [congruence|]. rewrite P. auto.
  - apply free_cons in F as [C F]. cbn.
    assert (E : Ascii.eqb c colon = false) by (apply Ascii.eqb_neq; auto).
    rewrite E. replace (seen ++ String c h') with ((seen ++ String c "") ++ h') by (rewrite app_assoc_s; auto).
    rewrite <- (IH (seen ++ String c "") r d); auto.
    + destruct seen; auto.
    + rewrite app_assoc_s. cbn. destruct seen; discriminate.
Qed.

Lemma match_host_spec : forall s h d, match_host "" s = Some (h, d) <->
  exists e, s = h ++ ":" ++ d ++ e /\ h <> "" /\ free colon h /\ numeral d /\ ending e.
Proof.
  intros s h d. split.
  - intros H. apply match_host_sound in H as (h' & r & E & N & F & -> & P). cbn in E. subst h'.
    apply match_port_spec in P as (e & -> & D & X). eauto 10.
  - intros (e & -> & N & F & D & X). apply (match_host_complete h "" (d ++ e) d); auto.
    apply match_port_spec. eauto.
Qed.

Lemma slashes : forall c s (A : Type) (f : string -> A) (g : A),
  match String c s with String ":" (String "/" (String "/" q)) => f q | _ => g end
  = match s with
    | String a (String b q) =>
        if (Ascii.eqb c ":" && (Ascii.eqb a "/" && Ascii.eqb b "/"))%char then f q else g
    | _ => g
    end.
Proof.
  intros. destruct s as [|a [|b q]]; [| |].
  - destruct c as [[] [] [] [] [] [] [] []]; reflexivity.
  - destruct c as [[] [] [] [] [] [] [] []]; try reflexivity.
    destruct a as [[] [] [] [] [] [] [] []]; reflexivity.
  - destruct c as [[] [] [] [] [] [] [] []]; try reflexivity.
    destruct a as [[] [] [] [] [] [] [] []]; try reflexivity.
    destruct b as [[] [] [] [] [] [] [] []]; reflexivity.
Qed.

Lemma match_protocol_sound : forall s st x, match_protocol st s = Some x ->
  exists p q, s = p ++ "://" ++ q /\ (st = true \/ p <> "") /\ free newline p /\ match_host "" q = Some x.
Proof.
  induction s as [|c s IH]; cbn [match_protocol]; intros st x H; [discriminate|].
  set (go := if Ascii.eqb c newline then None else match_protocol true s) in H.
  assert (G : go = Some x -> exists p q, String c s = p ++ "://" ++ q /\ (st = true \/ p <> "") /\
                free newline p /\ match_host "" q = Some x).
  { unfold go. destruct (Ascii.eqb c newline) eqn:C; [discriminate|]. intros K.
    apply IH in K as (p & q & -> & _ & F & M). exists (String c p), q.
    split; [reflexivity|]. split; [right; discriminate|]. split; auto.
    apply free_cons. split; auto. intros ->. rewrite Ascii.eqb_refl in C. discriminate. }
  destruct st; auto.
  rewrite (slashes c s _ (fun q => match match_host "" q with Some x => Some x | None => go end) go) in H.
  destruct s as [|a [|b q]]; auto.
  destruct (Ascii.eqb c ":" && (Ascii.eqb a "/" && Ascii.eqb b "/"))%char eqn:E; auto.
  apply andb_true_iff in E as [E1 E]. apply andb_true_iff in E as [E2 E3].
  apply Ascii.eqb_eq in E1, E2, E3. subst.
  destruct (match_host "" q) as [y|] eqn:M; auto.
  injection H as ->. exists "", q. repeat split; auto using free_nil.
Qed.

Lemma match_protocol_complete : forall p st q x, (st = true \/ p <> "") -> free newline p ->
  match_host "" q = Some x -> exists y, match_protocol st (p ++ "://" ++ q) = Some y.
Proof.
  induction p as [|c p IH]; intros st q x N F M.
  - destruct N as [-> | N]; [|congruence]. cbn. rewrite M. eauto.
  - apply free_cons in F as [C F].
    assert (E : Ascii.eqb c newline = false) by (apply Ascii.eqb_neq; auto).
    cbn [String.append match_protocol]. rewrite E.
    destruct (IH true q x (or_introl eq_refl) F M) as (y & Y). cbn [String.append] in Y. rewrite Y.
    destruct st; eauto.
    rewrite (slashes c (p ++ String ":" (String "/" (String "/" q))) _
      (fun q => match match_host "" q with Some x => Some x | None => Some y end) (Some y)).
    destruct (p ++ String ":" (String "/" (String "/" q))) as [|a [|b z]]; eauto.
    destruct (_ && _)%bool; eauto. destruct (match_host "" z); eauto.
Qed.

(** ** An address is read in one way only *)

Lemma last_colon : forall a a' b b', free colon b -> free colon b' ->
  a ++ ":" ++ b = a' ++ ":" ++ b' -> a = a' /\ b = b'.
Proof.
  induction a as [|c a IH]; intros a' b b' F F' E; destruct a' as [|c' a']; cbn in E.
  - injection E as ->. auto.
  - injection E as E1 E2. subst. exfalso. apply free_app in F as [_ F]. apply free_cons in F. tauto.
  - injection E as E1 E2. subst. exfalso. apply free_app in F' as [_ G]. apply free_cons in G. tauto.
  - injection E as -> E. apply IH in E as [-> ->]; auto.
Qed.

Lemma numeral_ending : forall d d' e e', numeral d -> numeral d' -> ending e -> ending e' ->
  d ++ e = d' ++ e' -> d = d'.
Proof.
  intros d d' e e' [_ D] [_ D'] E E' H.
  assert (S : span (d ++ e) = (d, e)) by (apply span_app; auto using ending_no_digit).
  assert (S' : span (d' ++ e') = (d', e')) by (apply span_app; auto using ending_no_digit).
  rewrite H in S. congruence.
Qed.

Lemma address_front : forall s h d, address s h d ->
  exists a e, s = a ++ ":" ++ d ++ e /\ numeral d /\ ending e /\ free colon h /\
    (a = h \/ exists p, a = p ++ ":" ++ "//" ++ h).
Proof.
  intros s h d [e -> N F D E|p e -> P Q N F D E].
  - exists h, e. repeat split; auto; apply D.
  - exists (p ++ "://" ++ h), e. rewrite !app_assoc_s.
    repeat split; try apply D; auto. right. exists p. reflexivity.
Qed.

Lemma address_unique : forall s h d h' d', address s h d -> address s h' d' -> h = h' /\ d = d'.
Proof.
  intros s h d h' d' A B.
  apply address_front in A as (a & e & -> & D & E & F & X).
  apply address_front in B as (a' & e' & Eq & D' & E' & F' & X').
  apply last_colon in Eq as [-> Eq]; auto using numeral_free.
  split; [|apply (numeral_ending d d' e e'); auto].
  assert (SF : forall q, free colon q -> free colon ("//" ++ q)).
  { intros q Q. apply free_app. split; auto. intros [K|[K|[]]]; discriminate. }
  assert (NF : forall p q, ~ free colon (p ++ ":" ++ q)).
  { intros p q K. apply free_app in K as [_ K]. apply free_cons in K. tauto. }
  destruct X as [-> | (p & ->)], X' as [X' | (p' & X')].
  - congruence.
  - subst. destruct (NF _ _ F).
  - subst. destruct (NF _ _ F').
  - apply last_colon in X' as [_ X']; auto.
    injection X' as ->. auto.
Qed.

(** ** The whole *)

Lemma match_proxy_sound : forall s h d, match_proxy s = Some (h, d) -> address s h d.
Proof.
  intros s h d. unfold match_proxy. destruct (match_protocol false s) as [x|] eqn:P; intros H.
  - injection H as ->. apply match_protocol_sound in P as (p & q & -> & N & F & M).
    apply match_host_spec in M as (e & -> & N' & F' & D & E).
    eapply Protocol; eauto. destruct N; [discriminate|auto].
  - apply match_host_spec in H as (e & -> & N & F & D & E). eapply Bare; eauto.
Qed.

Lemma match_proxy_complete : forall s h d, address s h d -> match_proxy s = Some (h, d).
Proof.
  intros s h d A.
  assert (X : exists y, match_proxy s = Some y).
  { unfold match_proxy. destruct (match_protocol false s) as [y|] eqn:P; [eauto|].
    destruct A as [e S N F D E|p e S N' F' N F D E].
    - exists (h, d). apply match_host_spec. eauto 10.
    - assert (M : match_host "" (h ++ ":" ++ d ++ e) = Some (h, d)) by (apply match_host_spec; eauto 10).
      destruct (match_protocol_complete p false _ _ (or_intror N') F' M) as (y & Y).
      rewrite <- S in Y. congruence. }
  destruct X as ([h' d'] & X). rewrite X. apply match_proxy_sound in X.
  destruct (address_unique _ _ _ _ _ A X) as [-> ->]. auto.
Qed.

Lemma match_proxy_spec : forall s h d, match_proxy s = Some (h, d) <-> address s h d.
Proof. split; [apply match_proxy_sound|apply match_proxy_complete]. Qed.

Lemma address_numeral : forall s h d, address s h d -> numeral d.
Proof. intros s h d []; auto. Qed.

Lemma numeral_read : forall d, numeral d -> exists n, read d = Some n.
Proof.
  intros d [N D]. unfold read. destruct d; [congruence|]. apply all_digits_horner. auto.
Qed.

Lemma address_not_empty : forall h d, ~ address "" h d.
Proof.
  intros h d [e S N|p e S N]; [destruct h|destruct p]; try congruence; discriminate.
Qed.

(** ** The other reading *)

Lemma split_some : forall s, exists f fs, split s = f :: fs.
Proof.
  induction s as [|c s (f & fs & IH)]; cbn; eauto.
  destruct (Ascii.eqb c colon); eauto. rewrite IH. eauto.
Qed.

Lemma split_one : forall s f, split s = [f] <-> f = s /\ free colon s.
Proof.
  induction s as [|c s IH]; intros f; cbn.
  - split; [intros H; injection H as <-; split; auto using free_nil|intros [-> _]; auto].
  - rewrite free_cons. destruct (Ascii.eqb c colon) eqn:C.
    + apply Ascii.eqb_eq in C. destruct (split_some s) as (g & gs & E). rewrite E.
      split; [discriminate|intros (_ & K & _); congruence].
    + apply Ascii.eqb_neq in C. destruct (split_some s) as (g & gs & E). rewrite E in *.
      split.
      * intros H. injection H as <- ->. destruct (proj1 (IH g) eq_refl) as [-> F]. auto.
      * intros (-> & _ & F). pose proof (proj2 (IH s) (conj eq_refl F)) as K. injection K as -> ->. auto.
Qed.

Lemma split_two : forall s f g, split s = [f; g] <-> s = f ++ ":" ++ g /\ free colon f /\ free colon g.
Proof.
  induction s as [|c s IH]; intros f g; cbn.
  - split; [discriminate|]. intros (H & _). destruct f; discriminate.
  - destruct (Ascii.eqb c colon) eqn:C.
    + apply Ascii.eqb_eq in C. subst c. split.
      * intros H. injection H as <- H. apply split_one in H as [-> F]. auto using free_nil.
      * intros (H & F & G). destruct f as [|x f]; cbn in H.
        -- injection H as ->. f_equal. apply split_one. auto.
        -- injection H as <- _. apply free_cons in F. tauto.
    + apply Ascii.eqb_neq in C. destruct (split_some s) as (k & ks & E). rewrite E. split.
      * intros H. injection H as <- ->. destruct (proj1 (IH k g) E) as (-> & F & G).
        repeat split; auto. apply free_cons. auto.
      * intros (H & F & G). destruct f as [|x f]; cbn in H.
        -- injection H as H _. exfalso; apply C; exact H.
        -- injection H as <- ->. apply free_cons in F as [_ F].
           assert (K : split (f ++ ":" ++ g) = [f; g]) by (apply IH; auto).
           cbn in K. rewrite E in K. injection K as -> ->. auto.
Qed.

Lemma count_app : forall c a b, count c (a ++ b) = (count c a + count c b)%nat.
Proof. induction a as [|x a IH]; cbn; intros; auto. rewrite IH. lia. Qed.

Lemma count_free : forall c s, count c s = 0%nat <-> free c s.
Proof.
  induction s as [|x s IH]; cbn; [split; auto using free_nil|].
  rewrite free_cons, <- IH. destruct (Ascii.eqb x c) eqn:E.
  - apply Ascii.eqb_eq in E. split; [lia|tauto].
  - apply Ascii.eqb_neq in E. cbn. tauto.
Qed.

Lemma count_one : forall c s, count c s = 1%nat ->
  exists a b, s = a ++ String c b /\ free c a /\ free c b.
Proof.
  induction s as [|x s IH]; cbn; [discriminate|].
  destruct (Ascii.eqb x c) eqn:E; intros H.
  - apply Ascii.eqb_eq in E. subst. exists "", s. repeat split; auto using free_nil.
    apply count_free. lia.
  - apply Ascii.eqb_neq in E. destruct (IH H) as (a & b & -> & A & B).
    exists (String x a), b. repeat split; auto. apply free_cons. auto.
Qed.
