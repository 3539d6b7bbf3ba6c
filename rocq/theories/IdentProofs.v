(** Lemmas for C74. *)

From Coq Require Import List Arith String Ascii Bool Lia.
From Verif Require Import IdentModel IdentSpec.
Import ListNotations.
Open Scope string_scope.

Lemma ascii_outside t : is_ascii t = false <-> outside t.
Proof.
  unfold outside. induction t as [|c t IH]; [split; [discriminate|intros (c & [] & _)]|].
  change (is_ascii (c :: t)) with (Nat.ltb c 128 && is_ascii t)%bool. cbn [In].
  destruct (Nat.ltb_spec c 128) as [L|L]; cbn [andb].
  - rewrite IH. split; [intros (x & I & X); eauto|]. intros (x & [<-|I] & X); [lia|eauto].
  - split; [|reflexivity]. intros _. exists c. auto.
Qed.
Lemma ascii_inside t : is_ascii t = true <-> ~ outside t.
Proof. rewrite <- ascii_outside. destruct (is_ascii t); split; congruence. Qed.

Lemma text_eqb_eq a b : text_eqb a b = true <-> a = b.
Proof. unfold text_eqb. destruct (list_eq_dec Nat.eq_dec a b); split; congruence. Qed.

(** ** Templates *)

Lemma app_assoc_s (a b c : string) : (a ++ b) ++ c = a ++ b ++ c.
Proof. induction a as [|x a IH]; cbn; [reflexivity|]. rewrite IH. reflexivity. Qed.
Lemma app_nil_s (a : string) : a ++ "" = a.
Proof. induction a as [|x a IH]; cbn; [reflexivity|]. rewrite IH. reflexivity. Qed.

Lemma parse_field n : forall r f, free "}" n -> parse (n ++ String "}" r) (Some f) = Field (f ++ n) :: parse r None.
Proof.
  induction n as [|c n IH]; intros r f; cbn.
  - intros _. rewrite app_nil_s. reflexivity.
  - intros [C F]. destruct (Ascii.eqb_spec c "}"); [contradiction|]. rewrite IH by exact F. rewrite app_assoc_s. reflexivity.
Qed.

Lemma parse_open s : forall f, parse s (Some f) = [Bad] \/ exists n r, s = n ++ String "}" r /\ free "}" n.
Proof.
  induction s as [|c s IH]; intros f; cbn; [auto|].
  destruct (Ascii.eqb_spec c "}") as [->|N].
  - right. exists "", s. cbn. auto.
  - destruct (IH (f ++ String c "")) as [E|(n & r & -> & F)]; [auto|]. right. exists (String c n), r. cbn. auto.
Qed.

Lemma renders_format args s t : renders args s t -> format s args = Text t.
Proof.
  unfold format. induction 1 as [|c r t C C' _ IH|n r v t F L P _ IH]; [reflexivity| |].
  - cbn [parse]. destruct (Ascii.eqb_spec c "{"); [contradiction|]. destruct (Ascii.eqb_spec c "}"); [contradiction|].
    cbn [render]. rewrite IH. reflexivity.
  - change ("{" ++ n ++ "}" ++ r) with (String "{" (n ++ String "}" r)). cbn [parse Ascii.eqb]. cbn. rewrite parse_field by exact F. cbn. rewrite L.
    destruct v as [u|u]; cbn in P; [apply ascii_inside in P; rewrite P|]; rewrite IH; reflexivity.
Qed.

Lemma format_renders args : forall k s t, (String.length s <= k)%nat -> format s args = Text t -> renders args s t.
Proof.
  unfold format. induction k as [|k IH]; intros s t K.
  - destruct s; [|cbn in K; lia]. cbn. intros H. injection H as <-. constructor.
  - destruct s as [|c s]; cbn [parse].
    + cbn. intros H. injection H as <-. constructor.
    + cbn in K. destruct (Ascii.eqb_spec c "{") as [->|N].
      * destruct (parse_open s "") as [E|(n & r & -> & F)]; [rewrite E; discriminate|].
        rewrite parse_field by exact F. cbn. destruct (lookup n args) as [v|] eqn:L; [|discriminate].
        assert (Kr : (String.length r <= k)%nat).
        { clear - K. revert K. induction n as [|x n IHn]; cbn; intros; [lia|]. apply IHn. lia. }
        destruct v as [u|u]; cbn.
        -- destruct (is_ascii u) eqn:A; [|discriminate]. destruct (render false (parse r None) args) as [t'| |] eqn:R; try discriminate.
           intros H. injection H as <-. apply (R_field args n r (Uni u) t'); auto. cbn. apply ascii_inside, A.
        -- destruct (render false (parse r None) args) as [t'| |] eqn:R; try discriminate.
           intros H. injection H as <-. apply (R_field args n r (Str u) t'); auto. exact I.
      * destruct (Ascii.eqb_spec c "}") as [->|N']; [discriminate|]. cbn.
        destruct (render false (parse s None) args) as [t'| |] eqn:R; try discriminate.
        intros H. injection H as <-. constructor; auto. apply IH; [lia|exact R].
Qed.

Lemma renders_before args a t : renders args a t -> forall s,
  format (a ++ s) args = match format s args with Text t' => Text (t ++ t')%list | e => e end.
Proof.
  unfold format. induction 1 as [|c r t C C' _ IH|n r v t F L P _ IH]; intros s.
  - cbn. destruct (render _ _ _); reflexivity.
  - cbn [append parse]. destruct (Ascii.eqb_spec c "{"); [contradiction|]. destruct (Ascii.eqb_spec c "}"); [contradiction|].
    cbn [render]. rewrite IH. destruct (render false (parse s None) args); reflexivity.
  - replace (("{" ++ n ++ "}" ++ r) ++ s) with (String "{" (n ++ String "}" (r ++ s)))
      by (cbn [append]; rewrite app_assoc_s; reflexivity).
    cbn [parse Ascii.eqb]. cbn. rewrite parse_field by exact F. cbn. rewrite L.
    destruct v as [u|u]; cbn in P; [apply ascii_inside in P; rewrite P|]; rewrite IH;
      destruct (render false (parse s None) args); cbn; rewrite ?app_assoc; reflexivity.
Qed.

Lemma spoils_format args s : spoils args s -> format s args = EncodeError.
Proof.
  intros (a & n & r & t & v & -> & R & F & L & P). rewrite (renders_before args a t R).
  unfold format. change ("{" ++ n ++ "}" ++ r) with (String "{" (n ++ String "}" r)). cbn [parse Ascii.eqb]. cbn.
  rewrite parse_field by exact F. cbn. rewrite L. destruct v as [u|u]; cbn in P; [|tauto].
  destruct (is_ascii u) eqn:A; [apply ascii_inside in A; contradiction|]. reflexivity.
Qed.

Lemma format_spoils args : forall k s, (String.length s <= k)%nat -> format s args = EncodeError -> spoils args s.
Proof.
  unfold format. induction k as [|k IH]; intros s K.
  - destruct s; [discriminate|cbn in K; lia].
  - destruct s as [|c s]; cbn [parse]; [discriminate|].
    cbn in K. destruct (Ascii.eqb_spec c "{") as [->|N].
    + destruct (parse_open s "") as [E|(n & r & -> & F)]; [rewrite E; discriminate|].
      rewrite parse_field by exact F. cbn. destruct (lookup n args) as [v|] eqn:L; [|discriminate].
      assert (Kr : (String.length r <= k)%nat).
      { clear - K. revert K. induction n as [|x n IHn]; cbn; intros; [lia|]. apply IHn. lia. }
      assert (T : fits v -> render false (parse r None) args = EncodeError -> spoils args (String "{" (n ++ String "}" r))).
      { intros P E. destruct (IH r Kr E) as (a & m & q & t & w & -> & R & G & M & Q).
        exists ("{" ++ n ++ "}" ++ a), m, q, (chars v ++ t)%list, w. repeat split; auto.
        - cbn. rewrite app_assoc_s. reflexivity.
        - constructor; auto. }
      destruct v as [u|u]; cbn.
      * destruct (is_ascii u) eqn:A.
        -- destruct (render false (parse r None) args) eqn:R; try discriminate. intros _. apply T; [apply ascii_inside, A|reflexivity].
        -- intros _. exists "", n, r, [], (Uni u). repeat split; auto; [constructor|]. cbn. rewrite <- ascii_inside. congruence.
      * destruct (render false (parse r None) args) eqn:R; try discriminate. intros _. apply T; [exact I|reflexivity].
    + destruct (Ascii.eqb_spec c "}") as [->|N']; [discriminate|]. cbn.
      destruct (render false (parse s None) args) eqn:R; try discriminate. intros _.
      destruct (IH s ltac:(lia) R) as (a & m & q & t & w & -> & Ra & G & M & Q).
      exists (String c a), m, q, (nat_of_ascii c :: t), w. repeat split; auto. constructor; auto.
Qed.

(** A unicode template takes every field as it is. *)
Definition plainly (args : list (string * value)) : list (string * value) := map (fun p => (fst p, Str (chars (snd p)))) args.
Lemma lookup_plainly n args : lookup n (plainly args) = match lookup n args with Some v => Some (Str (chars v)) | None => None end.
Proof. induction args as [|[m v] r IH]; cbn; [reflexivity|]. destruct (n =? m); auto. Qed.
Lemma render_unicode l args : render true l args = render false l (plainly args).
Proof.
  induction l as [|[c|n|] l IH]; cbn; try reflexivity; rewrite IH; [reflexivity|]. rewrite lookup_plainly.
  destruct (lookup n args) as [[t|t]|]; reflexivity.
Qed.

(** ** The messages *)

Ltac msg := unfold said, format; cbn; repeat match goal with
  | |- context [is_ascii ?t] => destruct (is_ascii t); cbn
  end; reflexivity.

Definition if_ascii (t : text) : option exn := if is_ascii t then None else Some UnicodeEncodeError.

Lemma msg_valid i n : said (format DOC_SEMANTIC_VALIDATION_SUCCESSFUL [("sequence_identifier", Uni i); ("sequence_number", Str n)]) = if_ascii i.
Proof. unfold if_ascii. msg. Qed.
Lemma msg_received n i : said (format DOC_RECEIVED [("sequence_number", Str n); ("sequence_identifier", Uni i);
  ("computed_begin_time", Str []); ("computed_end_time", Str [])]) = if_ascii i.
Proof. unfold if_ascii. msg. Qed.
Lemma msg_limited f i : said (format LIMITED [("0", Uni f); ("1", Uni i)]) = if_ascii (f ++ i)%list.
Proof. unfold if_ascii, is_ascii. rewrite forallb_app. fold (is_ascii f) (is_ascii i). msg. Qed.
Lemma msg_duplicate i n : said (format DUPLICATE [("0", Uni i); ("1", Str n)]) = if_ascii i.
Proof. unfold if_ascii. msg. Qed.
Lemma msg_insertable n i : said (format INSERTABLE [("0", Str n); ("1", Uni i)]) = if_ascii i.
Proof. unfold if_ascii. msg. Qed.
Lemma msg_group g k : said (format ERR_AUTHORS_GROUP_MISMATCH [("agid_doc", Uni g); ("agid_seq", Uni k)]) = if_ascii (g ++ k)%list.
Proof. unfold if_ascii, is_ascii. rewrite forallb_app. fold (is_ascii g) (is_ascii k). msg. Qed.
Lemma msg_manifest i : said (format CFG_MANIFEST_FILENAME_PATTERN [("sequence_identifier", Uni i)]) = if_ascii i.
Proof. unfold if_ascii. msg. Qed.

Lemma validate_is d : validate d = if i_fine d then if_ascii (i_id d) else Some Invalid.
Proof. unfold validate. rewrite msg_valid. reflexivity. Qed.
