(** C79: the server takes the address that the page of the user input producer connects to for
    the selected sequence. *)

From Coq Require Import List Ascii String Bool Arith Lia.
From Verif Require Import SocketModel AddressModel.
Import ListNotations.
Open Scope string_scope.

(** All characters one by one. *)
Definition all_chars : list ascii := map ascii_of_nat (seq 0 256).
Lemma all_chars_in c : In c all_chars.
Proof.
  apply in_map_iff. exists (nat_of_ascii c). split; [apply ascii_nat_embedding|]. apply in_seq.
  pose proof (nat_ascii_bounded c). lia.
Qed.
Lemma every (P : ascii -> bool) : forallb P all_chars = true -> forall c, P c = true.
Proof. intros H c. exact (proj1 (forallb_forall P all_chars) H c (all_chars_in c)). Qed.

Lemma encode_char_form c :
  (encode_char c = String c "" /\ c <> "%"%char /\ c <> "/"%char) \/
  (exists a b x y, encode_char c = String "%" (String a (String b "")) /\ value a = Some x /\ value b = Some y /\ ascii_of_nat (16 * x + y) = c /\
     a <> "/"%char /\ b <> "/"%char).
Proof.
  assert (H : (match encode_char c with
     | String d "" => (d =? c)%char && negb (c =? "%")%char && negb (c =? "/")%char
     | String p (String a (String b "")) => (p =? "%")%char && negb (a =? "/")%char && negb (b =? "/")%char &&
         match value a, value b with Some x, Some y => (ascii_of_nat (16 * x + y) =? c)%char | _, _ => false end
     | _ => false end) = true).
  { revert c. apply every. vm_compute. reflexivity. }
  destruct (encode_char c) as [|p [|a [|b [|]]]]; try discriminate.
  - left. rewrite !andb_true_iff, !negb_true_iff, !Ascii.eqb_neq, Ascii.eqb_eq in H. destruct H as ((-> & A) & B). auto.
  - right. rewrite !andb_true_iff, !negb_true_iff, !Ascii.eqb_neq, Ascii.eqb_eq in H. destruct H as (((-> & A) & B) & C).
    destruct (value a) as [x|] eqn:X; [|discriminate]. destruct (value b) as [y|] eqn:Y; [|discriminate]. apply Ascii.eqb_eq in C.
    exists a, b, x, y. auto 8.
Qed.

Lemma decode_encode s : decode (encode s) = s.
Proof.
  induction s as [|c s IH]; [reflexivity|]. cbn [encode].
  destruct (encode_char_form c) as [(-> & A & _)|(a & b & x & y & -> & X & Y & E & _)]; cbn [append decode].
  - apply Ascii.eqb_neq in A. rewrite A, IH. reflexivity.
  - change (("%" =? "%")%char) with true. cbn iota beta. rewrite X, Y, E, IH. reflexivity.
Qed.

Definition no_slash (s : string) : Prop := ~ In "/"%char (list_ascii_of_string s).
Lemma no_slash_encode s : no_slash (encode s).
Proof.
  unfold no_slash. induction s as [|c s IH]; [intros []|]. cbn [encode].
  destruct (encode_char_form c) as [(-> & _ & A)|(a & b & x & y & -> & _ & _ & _ & A & B)]; cbn [append list_ascii_of_string In]; intuition congruence.
Qed.
Lemma split_plain s : no_slash s -> split s = [s].
Proof.
  unfold no_slash. induction s as [|c s IH]; intros N; [reflexivity|]. cbn [list_ascii_of_string In] in N. cbn [split].
  destruct (Ascii.eqb_spec c "/"); [tauto|]. rewrite IH by tauto. reflexivity.
Qed.
Lemma split_slash s r : no_slash s -> split (s ++ String "/" r) = s :: split r.
Proof.
  unfold no_slash. induction s as [|c s IH]; intros N; [reflexivity|]. cbn [list_ascii_of_string In] in N. cbn [append split].
  destruct (Ascii.eqb_spec c "/"); [tauto|]. rewrite IH by tauto. reflexivity.
Qed.
Lemma encode_is s t : encode s = t -> decode t = s.
Proof. intros <-. apply decode_encode. Qed.

Definition verb (a : action) : string := match a with Publish => "publish" | Subscribe => "subscribe" end.

Lemma received_is id v : no_slash v -> received (address (Some id) v) = map decode (dots [] [encode id; v]).
Proof.
  intros N. unfold received, address. cbn [append].
  change ("/" ++ v) with (String "/" v). rewrite split_slash by apply no_slash_encode. rewrite split_plain by exact N. reflexivity.
Qed.
Lemma verb_plain a : no_slash (verb a).
Proof. unfold no_slash. destruct a; cbn; intuition discriminate. Qed.

(** Every identifier but dots arrives as it is, with any characters. *)
Theorem C79_arrives : forall id a, id <> "" -> id <> "." -> id <> ".." -> understood (address (Some id) (verb a)) = (Some id, Some a).
Proof.
  intros id a _ D1 D2. unfold understood. rewrite received_is by apply verb_plain.
  assert (E : forall t, decode t = t -> id <> t -> encode id =? t = false).
  { intros t T N. apply String.eqb_neq. intros X. apply encode_is in X. congruence. }
  cbn [dots]. rewrite (E ".") by (reflexivity || assumption). rewrite (E "..") by (reflexivity || assumption).
  replace (verb a =? ".") with false by (destruct a; reflexivity). replace (verb a =? "..") with false by (destruct a; reflexivity).
  cbn [rev app map]. rewrite decode_encode. destruct a; reflexivity.
Qed.

(** With dots the connection is dropped. *)
Theorem C79_dots : forall id a, id = "." \/ id = ".." -> understood (address (Some id) (verb a)) = (None, None).
Proof. intros id a [-> | ->]; destruct a; reflexivity. Qed.

(** Different identifiers have different addresses, but for no selection and "null". *)
Theorem C79_distinct : forall i j v, no_slash v -> (address (Some i) v = address (Some j) v <-> i = j) /\ (address None v = address (Some j) v <-> j = "null").
Proof.
  intros i j v N.
  assert (K : forall x y, address (Some x) v = address (Some y) v -> x = y).
  { intros x y H. unfold address in H. cbn [append] in H. injection H as H.
    assert (S : split (encode x ++ String "/" v) = split (encode y ++ String "/" v)) by (change ("/" ++ v) with (String "/" v) in H; rewrite H; reflexivity).
    rewrite !split_slash in S by apply no_slash_encode. injection S as S. rewrite <- (decode_encode x), S. apply decode_encode. }
  split; split.
  - apply K.
  - intros ->. reflexivity.
  - intros H. change (address None v) with (address (Some "null") v) in H. symmetry. apply K, H.
  - intros ->. reflexivity.
Qed.

(** The unreserved characters of RFC 3986 and the percent sign. *)
Definition plain : string := "ABCDEFGHIJKLMNOPQRSTUVWXYZabcdefghijklmnopqrstuvwxyz0123456789-._~%".

Lemma in_append c s t : In c (list_ascii_of_string (s ++ t)) -> In c (list_ascii_of_string s) \/ In c (list_ascii_of_string t).
Proof. induction s as [|d s IH]; cbn [append list_ascii_of_string In]; tauto. Qed.

(** Nothing in an encoded identifier has a meaning in an address: no slash, question mark, hash
    sign, space or byte outside ASCII, whatever the identifier has. *)
Theorem C79_plain : forall id c, In c (list_ascii_of_string (encode id)) -> In c (list_ascii_of_string plain).
Proof.
  induction id as [|d s IH]; intros c H; [destruct H|]. cbn [encode] in H. apply in_append in H. destruct H as [H|H]; [|exact (IH c H)].
  assert (K : forallb (fun x => existsb (Ascii.eqb x) (list_ascii_of_string plain)) (list_ascii_of_string (encode_char d)) = true).
  { clear. revert d. apply every. vm_compute. reflexivity. }
  rewrite forallb_forall in K. apply K, existsb_exists in H. destruct H as (x & X & E). apply Ascii.eqb_eq in E. subst. exact X.
Qed.

(** ** What comes of it at the server *)

Lemma on_open_parsed f s k p sid act : parse_path p = (sid, act) -> on_open f s k p =
  match act with
  | None => mkState (put (s_conns s) k (mkConn Dropped sid None false)) (s_regs s) (s_later s)
  | Some a =>
      if action_eqb a (sending (f_role f)) then
        if f_producer f
        then mkState (put (s_conns s) k (mkConn Open sid act false)) (s_regs s ++ [k])%list (s_later s)
        else mkState (put (s_conns s) k (mkConn Dropped sid act false)) (s_regs s) (s_later s)
      else
        if f_consumer f
        then mkState (put (s_conns s) k (mkConn Open sid act true)) (s_regs s) (s_later s)
        else mkState (put (s_conns s) k (mkConn Dropped sid act false)) (s_regs s) (s_later s)
  end.
Proof. intros H. unfold on_open. rewrite H. reflexivity. Qed.

Definition messages (k : nat) (ps : list string) : list event := map (fun p => EMessage k p false) ps.

Lemma step_to f s s1 o e r : step f s e = (s1, o) -> snd (runs f s (e :: r)) = (o ++ snd (runs f s1 r))%list.
Proof. intros H. cbn [runs]. rewrite H. destruct (runs f s1 r). reflexivity. Qed.

(** What the page sends is handed on with the identifier that was selected, all of it and in
    order, whatever the server did before. *)
Theorem C79_published : forall prod s k id ps, get (s_conns s) k = None -> id <> "" -> id <> "." -> id <> ".." ->
  snd (runs (mkConfig Server prod true) s (EOpen k (received (address (Some id) "publish")) :: messages k ps)) = map (Written (Some id)) ps.
Proof.
  intros prod s k id ps G A B C. pose proof (C79_arrives id Publish A B C) as H. unfold understood in H. cbn [verb] in H.
  rewrite (step_to _ _ (mkState (put (s_conns s) k (mkConn Open (Some id) (Some Publish) true)) (s_regs s) (s_later s)) []).
  2: { cbn [step]. rewrite G, (on_open_parsed _ _ _ _ _ _ H). reflexivity. }
  cbn [app]. induction ps as [|p ps IH]; [reflexivity|]. cbn [messages map].
  erewrite step_to; [|cbn [step s_conns put get]; rewrite Nat.eqb_refl; reflexivity]. cbn [app]. f_equal. exact IH.
Qed.

(** With dots nothing is. *)
Theorem C79_dropped : forall prod cons s k id ps, get (s_conns s) k = None -> id = "." \/ id = ".." ->
  snd (runs (mkConfig Server prod cons) s (EOpen k (received (address (Some id) "publish")) :: messages k ps)) = [].
Proof.
  intros prod cons s k id ps G D. pose proof (C79_dots id Publish D) as H. unfold understood in H. cbn [verb] in H.
  rewrite (step_to _ _ (mkState (put (s_conns s) k (mkConn Dropped None None false)) (s_regs s) (s_later s)) []).
  2: { cbn [step]. rewrite G, (on_open_parsed _ _ _ _ _ _ H). reflexivity. }
  cbn [app]. induction ps as [|p ps IH]; [reflexivity|]. cbn [messages map].
  erewrite step_to; [|cbn [step s_conns put get]; rewrite Nat.eqb_refl; reflexivity]. exact IH.
Qed.

(** The result feed shows what is emitted for the identifier entered, and nothing else. *)
Theorem C79_subscribed : forall cons k id (l : list (string * string)), id <> "" -> id <> "." -> id <> ".." ->
  snd (runs (mkConfig Server true cons) start
         (EOpen k (received (address (Some id) "subscribe")) :: map (fun m => EEmit (fst m) (snd m)) l)) =
  map (fun m => Sent k (snd m)) (filter (fun m => fst m =? id) l).
Proof.
  intros cons k id l A B C. pose proof (C79_arrives id Subscribe A B C) as H. unfold understood in H. cbn [verb] in H.
  rewrite (step_to _ _ (mkState [(k, mkConn Open (Some id) (Some Subscribe) false)] [k] []) []).
  2: { cbn [step get start s_conns]. rewrite (on_open_parsed _ _ _ _ _ _ H). reflexivity. }
  cbn [app]. induction l as [|(i, p) l IH]; [reflexivity|]. cbn [map fst snd filter].
  erewrite step_to; [|cbn [step f_producer s_conns s_regs s_later do_write get]; rewrite Nat.eqb_refl; reflexivity].
  rewrite IH. destruct (i =? id); reflexivity.
Qed.

(** ** Cases *)

Example C79_case : address (Some "A/b? (100%)") "publish" = "/A%2Fb%3F%20%28100%25%29/publish" /\
  understood "/A%2Fb%3F%20%28100%25%29/publish" = (Some "A/b? (100%)", Some Publish) /\ encode "*~" = "%2a~".
Proof. vm_compute. auto. Qed.
Example C79_case_null : understood (address None "subscribe") = (Some "null", Some Subscribe) /\ address (Some "..") "publish" = "/../publish".
Proof. vm_compute. auto. Qed.
Example C79_case_raw : understood "/A/b/publish" = (None, None) /\ understood "/A/listen" = (Some "A", None) /\ no_slash "publish".
Proof. repeat split; try reflexivity. unfold no_slash. cbn. intuition discriminate. Qed.

Example C79_case_plain : encode (String "195" (String "169" "#")) = "%C3%A9%23".
Proof. reflexivity. Qed.
Example C79_case_up : received "/A/B/../publish" = ["A"; "publish"].
Proof. reflexivity. Qed.
Example C79_case_published :
  snd (runs (mkConfig Server false true) start (EOpen 0 (received (address (Some "a/b") "publish")) :: messages 0 ["x"; "y"])) =
    [Written (Some "a/b") "x"; Written (Some "a/b") "y"] /\
  snd (runs (mkConfig Server false true) start (EOpen 0 ["a"; "b"; "publish"] :: messages 0 ["x"])) = [] /\
  snd (runs (mkConfig Server true false) start (EOpen 0 (received (address (Some "a/b") "subscribe")) :: [EEmit "a" "x"; EEmit "a/b" "y"])) = [Sent 0 "y"].
Proof. vm_compute. auto. Qed.

Print Assumptions C79_arrives.
Print Assumptions C79_dots.
Print Assumptions C79_distinct.
Print Assumptions C79_plain.
Print Assumptions C79_published.
Print Assumptions C79_dropped.
Print Assumptions C79_subscribed.
