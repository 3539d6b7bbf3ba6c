(** Property C38: text cut into subtitles. *)

From Coq Require Import List String Ascii Bool Arith Lia.
From Verif Require Import Digits TokenModel.
Import ListNotations.
Open Scope string_scope.

(** ** What the result should look like *)

(** A word: at least one character and no blanks. *)
Definition word (w : string) : Prop := w <> "" /\ forall c, In c (list_ascii_of_string w) -> blank c = false.

(** Words on a line, with single spaces between. *)
Fixpoint unwords (l : list string) : string :=
  match l with
  | [] => ""
  | [w] => w
  | w :: r => w ++ " " ++ unwords r
  end.

(** A line is fine if it has a word and fits or is a single word. *)
Definition good_line (l : list string) : Prop :=
  l <> [] /\ (len (unwords l) <= 38 \/ exists w, l = [w]).

(** No line could have taken the first word of the next one. *)
Fixpoint no_room (ls : list (list string)) : Prop :=
  match ls with
  | l :: ((w :: _) :: _) as r => (38 < len (unwords (l ++ [w])%list)) /\ no_room r
  | _ => True
  end.

(** Subtitles of two lines, the last one of one or two. *)
Fixpoint twos {A} (l : list A) : list (list A) :=
  match l with
  | [] => []
  | [a] => [[a]]
  | a :: b :: r => [a; b] :: twos r
  end.

(** The subtitles [subs] of a sentence [ws]. *)
Definition cut_well (ws : list string) (subs : list (list string)) : Prop :=
  exists ls, List.concat ls = ws /\ Forall good_line ls /\ no_room ls /\ subs = twos (map unwords ls).

(** ** Strings *)

Lemma rstrip_word : forall w, (forall c, In c (list_ascii_of_string w) -> blank c = false) -> rstrip w = w.
Proof.
  induction w as [|c w IH]; intros H; cbn; auto.
  rewrite IH by (intros; apply H; cbn; auto).
  destruct w; auto. rewrite H; cbn; auto.
Qed.

Lemma rstrip_app : forall s w, rstrip w = w -> w <> "" -> rstrip (s ++ w) = s ++ w.
Proof.
  intros s w H N. induction s as [|c s IH]; cbn; auto. rewrite IH.
  destruct (s ++ w) eqn:E; auto. destruct s; cbn in E; congruence.
Qed.

Lemma blank_space : blank " " = true. Proof. reflexivity. Qed.

(** A line as it grows: its first character is not a blank. *)
Definition solid (s : string) : Prop := match s with String c _ => blank c = false | _ => False end.

Lemma word_solid : forall w, word w -> solid w.
Proof. intros [|c w] [N H]; [congruence|]. cbn. apply H. cbn. auto. Qed.

Lemma strip_first : forall w, word w -> strip ("" ++ " " ++ w) = w.
Proof.
  intros w H. unfold strip. cbn [append]. cbn [lstrip]. rewrite blank_space.
  assert (S := word_solid w H). destruct w as [|c w]; [destruct S|]. cbn in S.
  cbn [lstrip]. rewrite S. apply rstrip_word. apply H.
Qed.

Lemma strip_more : forall cur w, solid cur -> word w -> strip (cur ++ " " ++ w) = cur ++ " " ++ w.
Proof.
  intros cur w S H. unfold strip. destruct cur as [|c cur]; [destruct S|]. cbn in S.
  cbn [append lstrip]. rewrite S.
  change (String c (cur ++ " " ++ w)) with ((String c cur ++ " ") ++ w) || idtac.
  replace (String c (cur ++ String " " w)) with ((String c cur ++ " ") ++ w)
    by (rewrite app_assoc_s; reflexivity).
  apply rstrip_app; [apply rstrip_word; apply H|apply H].
Qed.

Lemma solid_app : forall s t, solid s -> solid (s ++ t).
Proof. intros [|c s] t; cbn; tauto. Qed.

Lemma len_app : forall a b, len (a ++ b) = len a + len b.
Proof. intros. apply length_app_s. Qed.

Lemma unwords_snoc : forall l w, l <> [] -> unwords (l ++ [w])%list = unwords l ++ " " ++ w.
Proof.
  induction l as [|a l IH]; intros w N; [congruence|].
  destruct l as [|b l]; auto. cbn [app]. change (unwords (a :: b :: (l ++ [w])%list)) with (a ++ " " ++ unwords ((b :: l) ++ [w])%list).
  rewrite IH by discriminate. change (unwords (a :: b :: l)) with (a ++ " " ++ unwords (b :: l)).
  rewrite !app_assoc_s. reflexivity.
Qed.

Lemma unwords_solid : forall l, Forall word l -> l <> [] -> solid (unwords l).
Proof.
  intros [|w l] H N; [congruence|]. inversion H; subst.
  destruct l; cbn; [|apply solid_app]; apply word_solid; auto.
Qed.

(** ** The greedy lines *)

(** The lines of [ws] when the line [cur] (words) is being filled. *)
Fixpoint fill (cur : list string) (ws : list string) : list (list string) :=
  match ws with
  | [] => match cur with [] => [] | _ => [cur] end
  | w :: r =>
      let fresh := if Nat.leb 38 (len w) then [w] :: fill [] r else fill [w] r in
      match cur with
      | [] => fresh
      | _ => if Nat.ltb 38 (len (unwords (cur ++ [w])%list)) then cur :: fresh
             else fill (cur ++ [w])%list r
      end
  end.

Lemma eqb_nil : forall s, solid s -> (s =? "") = false.
Proof. intros [|]; cbn; tauto. Qed.

Lemma while_fill : forall fuel ws cur lines out,
  Forall word ws -> Forall word cur -> (List.length lines < 2) ->
  (2 * List.length ws + (match cur with [] => 0 | _ => 1 end) < fuel) ->
  while_words fuel ws (unwords cur) lines out =
  Some (out ++ twos (lines ++ map unwords (fill cur ws)))%list.
Proof.
  induction fuel as [|fuel IH]; intros ws cur lines out Hws Hcur Hl Hf; [lia|].
  destruct ws as [|w r]; cbn [while_words].
  - destruct cur as [|c cur].
    + cbn [unwords fill map]. rewrite String.eqb_refl. rewrite app_nil_r.
      destruct lines as [|a [|b lines]]; cbn in *; try lia; rewrite ?app_nil_r; auto.
    + rewrite eqb_nil by (apply unwords_solid; [auto|discriminate]). cbn [fill map].
      destruct lines as [|a [|b lines]]; cbn [app twos List.length] in *; try lia; auto.
  - inversion Hws as [|? ? Hw Hr]; subst.
    destruct cur as [|c cur].
    + change (unwords []) with "". rewrite strip_first by auto. rewrite String.eqb_refl.
      rewrite andb_false_r. cbn [fill]. cbn [List.length] in Hf.
      change characters_per_line with 38. change lines_per_subtitle with 2.
      destruct (Nat.leb 38 (len w)).
      * destruct lines as [|a [|b lines]]; cbn [app List.length Nat.leb] in *; try lia.
        -- assert (I := IH r [] [w] out). cbn [unwords] in I. rewrite I; auto; cbn [List.length]; lia.
        -- assert (I := IH r [] [] (out ++ [[a; w]])%list). cbn [unwords] in I.
           rewrite I; auto; cbn [List.length]; try lia. cbn [map app twos unwords].
           rewrite <- app_assoc. reflexivity.
      * assert (E : Nat.leb 2 (List.length lines) = false) by (apply Nat.leb_gt; auto). rewrite E.
        assert (I := IH r [w] lines out). cbn [unwords] in I. rewrite I; auto. lia.
    + assert (S := unwords_solid (c :: cur) Hcur ltac:(discriminate)).
      rewrite strip_more by auto. rewrite eqb_nil by auto. cbn [negb]. rewrite andb_true_r.
      cbn [fill]. change characters_per_line with 38. change lines_per_subtitle with 2.
      rewrite <- unwords_snoc by discriminate. cbn [List.length] in Hf.
      destruct (Nat.ltb 38 (len (unwords ((c :: cur) ++ [w])%list))) eqn:E.
      * assert (F : forall ls o, (List.length ls < 2) ->
          while_words fuel (w :: r) "" ls o =
          Some (o ++ twos (ls ++ map unwords (if Nat.leb 38 (len w) then [w] :: fill [] r else fill [w] r)))%list).
        { intros ls o Hls. assert (I := IH (w :: r) [] ls o). cbn [unwords] in I. rewrite I; auto. cbn [List.length]. lia. }
        destruct lines as [|a [|b lines]]; cbn [app List.length Nat.leb] in *; try lia.
        -- rewrite F by (cbn; lia). cbn [map app]. reflexivity.
        -- rewrite F by (cbn; lia). cbn [map app twos]. rewrite <- app_assoc. reflexivity.
      * apply Nat.ltb_ge in E.
        destruct (Nat.leb_spec 38 (len w)) as [X|X].
        { rewrite unwords_snoc, !len_app in E by discriminate.
          assert (1 <= len (unwords (c :: cur))).
          { destruct (unwords (c :: cur)); [destruct S|]. cbn. lia. }
          change (len " ") with 1 in E. lia. }
        assert (Q : Nat.leb 2 (List.length lines) = false) by (apply Nat.leb_gt; auto). rewrite Q.
        rewrite (IH r ((c :: cur) ++ [w])%list lines out); auto.
        -- apply Forall_app; auto.
        -- destruct ((c :: cur) ++ [w])%list; lia.
Qed.

Lemma fill_words : forall ws cur, List.concat (fill cur ws) = (cur ++ ws)%list.
Proof.
  induction ws as [|w r IH]; intros cur; cbn [fill].
  - destruct cur; cbn; rewrite ?app_nil_r; auto.
  - assert (F : List.concat (if Nat.leb 38 (len w) then [w] :: fill [] r else fill [w] r) = w :: r).
    { destruct (Nat.leb 38 (len w)); cbn [List.concat]; rewrite IH; auto. }
    destruct cur as [|c cur]; auto.
    destruct (Nat.ltb 38 (len (unwords ((c :: cur) ++ [w])%list))); cbn [List.concat].
    + rewrite F. auto.
    + rewrite IH. rewrite <- app_assoc. auto.
Qed.

Lemma fill_good : forall ws cur, Forall word ws -> (cur = [] \/ good_line cur) -> Forall good_line (fill cur ws).
Proof.
  induction ws as [|w r IH]; intros cur Hws Hc; cbn [fill].
  - destruct cur; constructor; auto. destruct Hc; [discriminate|auto].
  - inversion Hws; subst.
    assert (G : good_line [w]) by (split; [discriminate|right; eauto]).
    assert (F : Forall good_line (if Nat.leb 38 (len w) then [w] :: fill [] r else fill [w] r)).
    { destruct (Nat.leb 38 (len w)); [constructor; auto|]; apply IH; auto. }
    destruct cur as [|c cur]; auto.
    destruct (Nat.ltb_spec 38 (len (unwords ((c :: cur) ++ [w])%list))).
    + constructor; auto. destruct Hc; [discriminate|auto].
    + apply IH; auto. right. split; [discriminate|left; lia].
Qed.

(** The first line of [fill cur ws] starts with [cur]. *)
Lemma fill_head : forall ws cur, cur <> [] -> exists l ls, fill cur ws = (cur ++ l)%list :: ls.
Proof.
  induction ws as [|w r IH]; intros cur N; cbn [fill].
  - destruct cur; [congruence|]. exists [], []. rewrite app_nil_r. auto.
  - destruct cur as [|c cur]; [congruence|].
    destruct (Nat.ltb 38 (len (unwords ((c :: cur) ++ [w])%list))).
    + eexists [], _. rewrite app_nil_r. reflexivity.
    + destruct (IH ((c :: cur) ++ [w])%list) as (l & ls & E); [discriminate|].
      exists (w :: l), ls. rewrite E. rewrite <- app_assoc. auto.
Qed.

Lemma fill_nil_head : forall w r, exists l ls, fill [] (w :: r) = (w :: l) :: ls.
Proof.
  intros. cbn [fill]. destruct (Nat.leb 38 (len w)); [eauto|].
  destruct (fill_head r [w]) as (l & ls & E); [discriminate|]. exists l, ls. rewrite E. auto.
Qed.

Lemma no_room_cons : forall l w l' ls, no_room ((w :: l') :: ls) -> 38 < len (unwords (l ++ [w])%list) ->
  no_room (l :: (w :: l') :: ls).
Proof. intros. split; auto. Qed.

Lemma fill_full : forall ws cur, Forall word ws -> Forall word cur -> no_room (fill cur ws).
Proof.
  induction ws as [|w r IH]; intros cur Hws Hc.
  - cbn. destruct cur; cbn; auto.
  - inversion Hws as [|? ? Hw Hr]; subst.
    assert (F : no_room (fill [] (w :: r))).
    { cbn [fill]. destruct (Nat.leb_spec 38 (len w)); [|apply IH; auto].
      destruct r as [|w' r]; [cbn; auto|].
      destruct (fill_nil_head w' r) as (l & ls & E). assert (N := IH [] Hr ltac:(constructor)).
      rewrite E in N |- *. apply no_room_cons; auto. cbn [app unwords]. rewrite !len_app.
      inversion Hr as [|? ? Hw' _]; subst. assert (S := word_solid _ Hw'). destruct w'; [destruct S|]. cbn. lia. }
    destruct cur as [|c cur]; auto.
    change (fill (c :: cur) (w :: r)) with
      (if Nat.ltb 38 (len (unwords ((c :: cur) ++ [w])%list)) then (c :: cur) :: fill [] (w :: r)
       else fill ((c :: cur) ++ [w])%list r).
    destruct (Nat.ltb_spec 38 (len (unwords ((c :: cur) ++ [w])%list))).
    + destruct (fill_nil_head w r) as (l & ls & E). rewrite E in F |- *. apply no_room_cons; auto.
    + apply IH; auto. apply Forall_app; auto.
Qed.

(** ** The property *)

Lemma sentence_cut : forall ws out, Forall word ws ->
  tokenize_sentence out ws = Some (out ++ twos (map unwords (fill [] ws)))%list.
Proof.
  intros ws out H. unfold tokenize_sentence.
  assert (I := while_fill (2 * List.length ws + 2) ws [] [] out). cbn [unwords] in I. rewrite I; auto; cbn [List.length]; lia.
Qed.

(** Every document is cut, sentence by sentence, and every sentence well. *)
Theorem C38_cut : forall ss, Forall (Forall word) ss ->
  exists subs, tokenize_english_document ss = Some (List.concat subs) /\ Forall2 cut_well ss subs.
Proof.
  intros ss H. unfold tokenize_english_document.
  assert (G : forall out, exists subs, tokenize_sentences out ss = Some (out ++ List.concat subs)%list /\ Forall2 cut_well ss subs).
  { induction H as [|ws ss Hw Hs IH]; intros out.
    - exists []. cbn. rewrite app_nil_r. split; auto.
    - cbn [tokenize_sentences]. rewrite sentence_cut by auto.
      destruct (IH (out ++ twos (map unwords (fill [] ws)))%list) as (subs & E & F).
      exists (twos (map unwords (fill [] ws)) :: subs). rewrite E. cbn [List.concat]. rewrite app_assoc. split; auto.
      constructor; auto. exists (fill [] ws). rewrite fill_words. split; auto. split; [apply fill_good; auto|].
      split; auto. apply fill_full; auto. }
  destruct (G []) as (subs & E & F). exists subs. auto.
Qed.

(** The requirement on a sentence leaves no choice. *)
Lemma cut_unique_lines : forall ls ls', List.concat ls = List.concat ls' ->
  Forall good_line ls -> Forall good_line ls' -> no_room ls -> no_room ls' ->
  Forall word (List.concat ls) -> ls = ls'.
Proof.
  assert (P : forall (l m r : list string), l <> [] -> Forall word (l ++ m)%list -> len (unwords l) <= len (unwords (l ++ m)%list)).
  { intros l m r N _. destruct m as [|x m] using rev_ind; [rewrite app_nil_r; lia|].
    rewrite app_assoc, unwords_snoc by (destruct l; [congruence|discriminate]). rewrite !len_app.
    assert (len (unwords l) <= len (unwords (l ++ m)%list)); [|lia].
    clear x IHm. revert l N. induction m as [|y m IH]; intros l N; [rewrite app_nil_r; lia|].
    specialize (IH (l ++ [y])%list ltac:(destruct l; discriminate)). rewrite <- app_assoc in IH. cbn [app] in IH.
    rewrite unwords_snoc in IH by auto. rewrite !len_app in IH. lia. }
  assert (Q : forall l y m, l <> [] -> good_line (l ++ y :: m)%list -> 38 < len (unwords (l ++ [y])%list) ->
              Forall word (l ++ y :: m)%list -> False).
  { intros l y m N G X W.
    destruct G as [_ [G|[w G]]].
    - assert (A := P (l ++ [y])%list m [] ltac:(destruct l; discriminate)). rewrite <- app_assoc in A. cbn [app] in A.
      specialize (A W). lia.
    - destruct l as [|a [|b l]]; cbn in G; congruence. }
  assert (T : forall l ls, Forall good_line ls -> no_room (l :: ls) -> no_room ls).
  { intros l [|[|w0 l0] ls] G R; [exact I| |apply R]. inversion G as [|? ? [N _] _]; congruence. }
  induction ls as [|l ls IH]; intros ls' E G G' R R' W.
  - destruct ls' as [|l' ls']; auto. inversion G' as [|? ? [N _] _]; subst. cbn in E.
    destruct l'; [congruence|discriminate].
  - destruct ls' as [|l' ls'].
    { inversion G as [|? ? [N _] _]; subst. cbn in E. destruct l; [congruence|discriminate]. }
    inversion G as [|? ? Gl Gs]; inversion G' as [|? ? Gl' Gs']; subst. cbn [List.concat] in E, W.
    assert (X : exists u, (l = l' ++ u /\ u ++ List.concat ls = List.concat ls' \/
                           l' = l ++ u /\ List.concat ls = u ++ List.concat ls')%list).
    { clear -E. revert l' E. induction l as [|a l IHl]; intros l' E.
      - exists l'. right. auto.
      - destruct l' as [|b l'].
        + exists (a :: l). left. auto.
        + cbn in E. inversion E; subst. destruct (IHl l' ltac:(auto)) as [u [[-> H]|[-> H]]]; exists u; auto. }
    destruct X as [[|y u] [[A B]|[A B]]].
    + rewrite app_nil_r in A. subst l'. f_equal. apply IH; auto.
      * apply (T l); auto.
      * apply (T l); auto.
      * apply Forall_app in W. apply W.
    + rewrite app_nil_r in A. subst l'. f_equal. apply IH; auto.
      * apply (T l); auto.
      * apply (T l); auto.
      * apply Forall_app in W. apply W.
    + exfalso. subst l. destruct ls' as [|[|z l1] ls']; cbn in B; try discriminate.
      { inversion Gs' as [|? ? [N _] _]; congruence. }
      inversion B; subst z. cbn [no_room] in R'. destruct R' as [R' _].
      apply (Q l' y u); auto; [apply Gl'|]. apply Forall_app in W. apply W.
    + exfalso. subst l'. destruct ls as [|[|z l1] ls]; cbn in B; try discriminate.
      { inversion Gs as [|? ? [N _] _]; congruence. }
      inversion B; subst z. cbn [no_room] in R. destruct R as [R _].
      apply (Q l y u); auto; [apply Gl|].
      rewrite E in W. rewrite <- app_assoc in W. cbn in W. apply Forall_app in W as [W1 W2].
      apply Forall_app. split; auto. inversion W2; subst. constructor; auto.
      match goal with H : Forall word (u ++ _)%list |- _ => apply Forall_app in H; apply H end.
Qed.

Theorem C38_unique : forall ws subs subs', Forall word ws -> cut_well ws subs -> cut_well ws subs' -> subs = subs'.
Proof.
  intros ws subs subs' W (ls & A & B & C & ->) (ls' & A' & B' & C' & ->). f_equal. f_equal.
  apply cut_unique_lines; auto; [congruence|]. rewrite A. auto.
Qed.

(** *** Read off the output alone *)

Fixpoint split_space (s : string) : list string :=
  match s with
  | EmptyString => [""]
  | String c r => if Ascii.eqb c " " then "" :: split_space r
                  else match split_space r with
                       | x :: l => String c x :: l
                       | [] => [String c ""]
                       end
  end.

Lemma split_space_word : forall w t, (forall c, In c (list_ascii_of_string w) -> blank c = false) ->
  split_space (w ++ " " ++ t) = w :: split_space t.
Proof.
  induction w as [|c w IH]; intros t H; [reflexivity|]. cbn [append split_space].
  assert (X : Ascii.eqb c " " = false).
  { destruct (Ascii.eqb_spec c " "); auto. subst. specialize (H " "%char). cbn in H. discriminate H. auto. }
  rewrite X. change (w ++ String " " t) with (w ++ " " ++ t). rewrite IH; auto. intros; apply H; cbn; auto.
Qed.

Lemma split_space_one : forall w, (forall c, In c (list_ascii_of_string w) -> blank c = false) -> split_space w = [w].
Proof.
  induction w as [|c w IH]; intros H; [reflexivity|]. cbn [split_space].
  assert (X : Ascii.eqb c " " = false).
  { destruct (Ascii.eqb_spec c " "); auto. subst. specialize (H " "%char). cbn in H. discriminate H. auto. }
  rewrite X, IH; auto. intros; apply H; cbn; auto.
Qed.

Lemma split_unwords : forall l, Forall word l -> l <> [] -> split_space (unwords l) = l.
Proof.
  induction l as [|w l IH]; intros H N; [congruence|]. inversion H as [|? ? [_ Hw] Hl]; subst.
  destruct l as [|w' l].
  - apply split_space_one; auto.
  - change (unwords (w :: w' :: l)) with (w ++ " " ++ unwords (w' :: l)). rewrite split_space_word by auto.
    rewrite IH; auto. discriminate.
Qed.

Lemma concat_twos : forall A (l : list A), List.concat (twos l) = l.
Proof.
  intros A l. assert (G : forall n l, List.length l <= n -> List.concat (twos (A := A) l) = l).
  { induction n as [|n IH]; intros [|a [|b r]] H; cbn in *; auto; try lia. rewrite IH; auto. lia. }
  apply (G (List.length l)). lia.
Qed.

Lemma twos_sizes : forall A (l : list A), Forall (fun s => s <> [] /\ List.length s <= 2) (twos l).
Proof.
  intros A l. assert (G : forall n l, List.length l <= n -> Forall (fun s => s <> [] /\ List.length s <= 2) (twos (A := A) l)).
  { induction n as [|n IH]; intros [|a [|b r]] H; cbn in *; auto; try lia;
      constructor; try (split; [discriminate|cbn; lia]); auto. apply IH. lia. }
  apply (G (List.length l)). lia.
Qed.

(** All words, in order; one or two lines in a subtitle; no line longer than 38
    characters unless it is one word. *)
Theorem C38_words : forall ss, Forall (Forall word) ss ->
  exists subs, tokenize_english_document ss = Some subs /\
    List.concat (map split_space (List.concat subs)) = List.concat ss /\
    Forall (fun sub => sub <> [] /\ List.length sub <= 2) subs /\
    Forall (fun line => len line <= 38 \/ word line) (List.concat subs).
Proof.
  intros ss H. destruct (C38_cut ss H) as (subs & E & F). exists (List.concat subs). split; auto.
  clear E. induction F as [|ws sub ss subs (ls & A & B & C & D) F IH].
  - cbn. auto.
  - inversion H as [|? ? Hw Hs]. destruct (IH Hs) as (I1 & I2 & I3).
    assert (W : Forall (Forall word) ls).
    { rewrite <- A in Hw. clear -Hw. induction ls as [|l ls IH]; auto. cbn in Hw. apply Forall_app in Hw as [? ?]. constructor; auto. }
    cbn [List.concat]. rewrite !concat_app, D, concat_twos. split; [|split].
    + rewrite map_app, concat_app, I1. f_equal. rewrite <- A. f_equal.
      rewrite map_map. transitivity (map (fun l : list string => l) ls); [|apply map_id].
      apply map_ext_in. intros ln Hl. apply split_unwords.
      * rewrite Forall_forall in W. auto.
      * rewrite Forall_forall in B. apply B. auto.
    + apply Forall_app. split; auto. apply twos_sizes.
    + apply Forall_app. split; auto. clear -B W. induction ls as [|l ls IH]; cbn; constructor.
      * inversion B as [|? ? [_ [G|[w G]]] _]; subst; auto. right. inversion W; subst. cbn.
        inversion H1; auto.
      * inversion B; inversion W; subst. auto.
Qed.

Definition sample : list (list string) :=
  [["This"; "is"; "a"; "sentence"; "that"; "does"; "not"; "fit"; "on"; "one"; "line"; "or"; "two"; "lines"; "of"; "38"; "characters."];
   ["Donaudampfschifffahrtselektrizitaetenhauptbetriebswerk"; "is"; "long."]].

Example C38_case : Forall (Forall word) sample /\
  tokenize_english_document sample = Some
    [["This is a sentence that does not fit"; "on one line or two lines of 38"]; ["characters."];
     ["Donaudampfschifffahrtselektrizitaetenhauptbetriebswerk"; "is long."]].
Proof.
  split; [|vm_compute; reflexivity].
  assert (B : forallb (forallb (fun w => negb (w =? "") && forallb (fun c => negb (blank c)) (list_ascii_of_string w))) sample = true)
    by (vm_compute; reflexivity).
  rewrite forallb_forall in B. apply Forall_forall. intros l Hl. specialize (B l Hl).
  rewrite forallb_forall in B. apply Forall_forall. intros w Hw. specialize (B w Hw).
  apply andb_true_iff in B as [B1 B2]. split.
  - intros ->. discriminate B1.
  - intros c Hc. rewrite forallb_forall in B2. specialize (B2 c Hc). destruct (blank c); [discriminate|auto].
Qed.

Print Assumptions C38_cut.
Print Assumptions C38_unique.
Print Assumptions C38_words.
