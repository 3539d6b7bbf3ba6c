(** C69: which proxies are used. *)

From Coq Require Import List ZArith String Ascii Bool Lia.
From Verif Require Import Digits ProxyModel ProxySpec ProxyProofs.
Import ListNotations.
Open Scope string_scope.

(** What the option is read as. *)
Theorem C69_address : forall s x,
  parse_proxy_address s = Ok (Some x) <-> exists d, address s (host x) d /\ read d = Some (port x).
Proof.
  intros s [h n]. unfold parse_proxy_address. cbn. split.
  - destruct (match_proxy s) as [[h' d]|] eqn:M.
    + apply match_proxy_spec in M. destruct (read d) eqn:R; [|discriminate].
      intros H. injection H as <- <-. eauto.
    + destruct (s =? "")%string; discriminate.
  - intros (d & A & R). apply match_proxy_spec in A. rewrite A, R. auto.
Qed.

(** And what it is not. *)
Theorem C69_otherwise : forall s, (forall h d, ~ address s h d) ->
  parse_proxy_address s =
    if (s =? "")%string then Ok None
    else Fail (ConfigurationError ("Failed to parse proxy config: " ++ s)).
Proof.
  intros s H. unfold parse_proxy_address. destruct (match_proxy s) as [[h d]|] eqn:M; auto.
  apply match_proxy_spec in M. destruct (H _ _ M).
Qed.

Theorem C69_no_other_failure : forall s,
  parse_proxy_address s = Ok None /\ s = "" \/
  (exists x, parse_proxy_address s = Ok (Some x)) \/
  parse_proxy_address s = Fail (ConfigurationError ("Failed to parse proxy config: " ++ s)) /\ s <> "".
Proof.
  intros s. unfold parse_proxy_address. destruct (match_proxy s) as [[h d]|] eqn:M.
  - apply match_proxy_spec, address_numeral, numeral_read in M as (n & ->). eauto.
  - destruct (s =? "")%string eqn:E; [apply String.eqb_eq in E|apply String.eqb_neq in E]; auto.
Qed.

(** A text is the address of one port of one host at most. *)
Theorem C69_unique : forall s h d h' d', address s h d -> address s h' d' -> h = h' /\ d = d'.
Proof. exact address_unique. Qed.

(** An address that is written is read, whatever the protocol before it. *)
Theorem C69_written : forall h n, h <> "" -> free colon h -> (0 <= n)%Z ->
  parse_proxy_address (h ++ ":" ++ show n) = Ok (Some (mkProxy h n)) /\
  forall p, p <> "" -> free newline p ->
    parse_proxy_address (p ++ "://" ++ h ++ ":" ++ show n) = Ok (Some (mkProxy h n)).
Proof.
  intros h n N F P.
  assert (E : show n = show_nat n) by (unfold show; destruct (n <? 0)%Z eqn:K; auto; apply Z.ltb_lt in K; lia).
  assert (R : read (show n) = Some n) by (rewrite E; apply read_show_nat; auto).
  assert (D : numeral (show n)).
  { rewrite E. split; [|apply show_nat_digits]. intros Z. rewrite E, Z in R. discriminate. }
  split; [|intros p Hp Fp]; apply C69_address; exists (show n); (split; [|auto]); cbn [host port].
  - apply Bare with ""; auto; [rewrite app_empty_r; auto|left; auto].
  - apply Protocol with p ""; auto; [rewrite app_empty_r; auto|left; auto].
Qed.

(** The scripts' reading. *)
Theorem C69_split : forall int s,
  (forall x, split_proxy int s = Ok (Some x) <->
     exists p, s = host x ++ ":" ++ p /\ free colon (host x) /\ free colon p /\ int p = Some (port x)) /\
  (split_proxy int s = Ok None <-> s = "") /\
  (forall e, split_proxy int s = Fail e -> e = ValueError).
Proof.
  intros int s. unfold split_proxy. destruct (s =? "")%string eqn:E.
  - apply String.eqb_eq in E. subst. split; [|split; [tauto|discriminate]].
    intros x. split; [discriminate|]. intros (p & H & _). destruct (host x); discriminate.
  - apply String.eqb_neq in E. split; [|split].
    + intros [h n]. cbn. split.
      * destruct (split s) as [|f [|g [|]]] eqn:S; try discriminate.
        destruct (int g) eqn:I; [|discriminate]. intros H. injection H as <- <-.
        apply (proj1 (split_two _ _ _)) in S as (-> & F & G). exists g. auto.
      * intros (p & S & F & G & I). rewrite (proj2 (split_two s h p)); auto. rewrite I. auto.
    + split; [|congruence]. destruct (split s) as [|f [|g [|]]]; try discriminate. destruct (int g); discriminate.
    + intros e. destruct (split s) as [|f [|g [|]]]; try congruence. destruct (int g); congruence.
Qed.

(** Where the two readings agree, and that a protocol is what the scripts do not
    take. *)
Theorem C69_agree : forall int s h d, reads_numerals int ->
  (s = h ++ ":" ++ d -> h <> "" -> free colon h -> numeral d ->
     split_proxy int s = parse_proxy_address s) /\
  (address s h d -> count colon s <> 1%nat -> split_proxy int s = Fail ValueError).
Proof.
  intros int s h d I. split.
  - intros S N F D. destruct (numeral_read d D) as (n & R).
    transitivity (Ok (Some (mkProxy h n))).
    + apply C69_split. cbn. exists d. rewrite (I d D). repeat split; auto.
      apply digits_free; auto. apply D.
    + symmetry. apply C69_address. exists d. split; auto. cbn. apply Bare with ""; auto; [rewrite app_empty_r; auto|left; auto].
  - intros A C. destruct (split_proxy int s) as [[x|]|e] eqn:S.
    + apply C69_split in S as (p & E & F & G & _). exfalso. apply C. rewrite E, !count_app.
      apply count_free in F, G. rewrite F, G. reflexivity.
    + apply C69_split in S. subst. destruct (address_not_empty _ _ A).
    + f_equal. eapply C69_split; eauto.
Qed.

(** A text with more colons than one is read only with a protocol before the last
    but one: no IPv6 address and no password. *)
Theorem C69_colons : forall a b d e, free colon b -> numeral d -> ending e ->
  (forall q, b <> "//" ++ q) ->
  parse_proxy_address (a ++ ":" ++ b ++ ":" ++ d ++ e)
  = Fail (ConfigurationError ("Failed to parse proxy config: " ++ a ++ ":" ++ b ++ ":" ++ d ++ e)).
Proof.
  intros a b d e F D E Q. rewrite C69_otherwise.
  - destruct a; reflexivity.
  - intros h d' A. apply address_front in A as (a' & e' & Eq & D' & E' & F' & X).
    replace (a ++ ":" ++ b ++ ":" ++ d ++ e) with ((a ++ ":" ++ b) ++ ":" ++ d ++ e) in Eq
      by (rewrite !app_assoc_s; auto).
    apply last_colon in Eq as [Eq _]; auto using numeral_free.
    destruct X as [X | (p & X)]; rewrite X in Eq.
    + rewrite <- Eq in F'. apply free_app in F' as [_ K]. apply free_cons in K as [K _]. apply K. reflexivity.
    + apply last_colon in Eq as [_ Eq]; auto; [apply (Q _ Eq)|].
      apply free_app. split; auto. intros [K|[K|[]]]; discriminate.
Qed.

(** Connections: every one of a websocket carriage goes through the proxy that
    was given, none of an older one does, whatever was given. *)
Theorem C69_connections : forall int s x, parse_proxy_address s = Ok x ->
  (forall l, connections int (Websocket l) (Some s) = Ok (map (fun u => (u, x)) l)) /\
  (forall u, connections int (Legacy u) (Some s) = Ok [(u, None)]) /\
  (forall l, connections int (Websocket l) None = Ok (map (fun u => (u, None)) l)) /\
  (forall u, connections int (Legacy u) None = Ok [(u, None)]).
Proof. intros int s x H. unfold connections. rewrite H. auto. Qed.

Theorem C69_bad_option : forall int s e, parse_proxy_address s = Fail e ->
  (forall l, connections int (Websocket l) (Some s) = Fail e) /\
  (forall u, connections int (Legacy u) (Some s) = Fail e).
Proof. intros int s e H. unfold connections. rewrite H. auto. Qed.

Theorem C69_script : forall int u,
  connections int (Script u) None = Ok [(u, None)] /\
  forall s p, connections int (Script u) (Some s) = Ok [(u, p)] <-> split_proxy int s = Ok p.
Proof.
  intros int u. split; auto. intros s p. unfold connections.
  destruct (split_proxy int s) as [q|e]; split; intros H; congruence.
Qed.

(** ** Cases *)

Example C69_case_bare : address "proxy.example:3128" "proxy.example" "3128".
Proof.
  apply Bare with ""; auto; try discriminate.
  - unfold free. cbn. intros H. repeat destruct H as [H|H]; try discriminate; auto.
  - split; [discriminate|auto].
  - left; auto.
Qed.

Example C69_case_read :
  parse_proxy_address "proxy.example:3128" = Ok (Some (mkProxy "proxy.example" 3128)) /\
  parse_proxy_address "http://proxy.example:3128" = Ok (Some (mkProxy "proxy.example" 3128)) /\
  parse_proxy_address "a://b://c:1" = Ok (Some (mkProxy "c" 1)) /\
  parse_proxy_address "a:///c:1" = Ok (Some (mkProxy "/c" 1)) /\
  parse_proxy_address "://c:1" = Fail (ConfigurationError "Failed to parse proxy config: ://c:1") /\
  parse_proxy_address ("c:0080" ++ String newline "") = Ok (Some (mkProxy "c" 80)) /\
  parse_proxy_address "" = Ok None.
Proof. repeat split; vm_compute; reflexivity. Qed.

(** No port is too high; and what is no address at all. *)
Example C69_case_high : parse_proxy_address "localhost:99999" = Ok (Some (mkProxy "localhost" 99999)).
Proof. vm_compute. reflexivity. Qed.
Example C69_case_refused :
  parse_proxy_address "localhost" = Fail (ConfigurationError "Failed to parse proxy config: localhost") /\
  parse_proxy_address ":80" = Fail (ConfigurationError "Failed to parse proxy config: :80") /\
  parse_proxy_address "c:80 " = Fail (ConfigurationError "Failed to parse proxy config: c:80 ") /\
  parse_proxy_address "c:-1" = Fail (ConfigurationError "Failed to parse proxy config: c:-1").
Proof. repeat split; vm_compute; reflexivity. Qed.

(** "[::1]:80" and "user:secret@host:80" are instances of C69_colons. *)
Example C69_case_colons :
  parse_proxy_address "[::1]:80" = Fail (ConfigurationError "Failed to parse proxy config: [::1]:80") /\
  parse_proxy_address "user:secret@host:80" = Fail (ConfigurationError "Failed to parse proxy config: user:secret@host:80").
Proof. repeat split; vm_compute; reflexivity. Qed.

Lemma read_reads : reads_numerals read.
Proof. intros d _. auto. Qed.

(** The protocol is refused by the scripts; an empty host is not. *)
Example C69_case_scripts :
  split_proxy read "proxy.example:3128" = Ok (Some (mkProxy "proxy.example" 3128)) /\
  split_proxy read "http://proxy.example:3128" = Fail ValueError /\
  split_proxy read ":3128" = Ok (Some (mkProxy "" 3128)) /\
  split_proxy read "proxy" = Fail ValueError /\
  split_proxy read "" = Ok None.
Proof. repeat split; vm_compute; reflexivity. Qed.

Example C69_case_connections :
  connections read (Websocket ["ws://a:1"; "ws://b:2"]) (Some "http://p:8") =
    Ok [("ws://a:1", Some (mkProxy "p" 8)); ("ws://b:2", Some (mkProxy "p" 8))] /\
  connections read (Legacy "ws://a:1") (Some "http://p:8") = Ok [("ws://a:1", None)] /\
  connections read (Script "ws://a:1") (Some "p:8") = Ok [("ws://a:1", Some (mkProxy "p" 8))].
Proof. repeat split; vm_compute; reflexivity. Qed.

Print Assumptions C69_address.
Print Assumptions C69_otherwise.
Print Assumptions C69_no_other_failure.
Print Assumptions C69_unique.
Print Assumptions C69_written.
Print Assumptions C69_split.
Print Assumptions C69_agree.
Print Assumptions C69_colons.
Print Assumptions C69_connections.
Print Assumptions C69_bad_option.
Print Assumptions C69_script.
