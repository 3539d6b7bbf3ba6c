(** C34: de-duplication preserves what every reference means. *)

From Coq Require Import List ZArith String Ascii Bool Lia Permutation.
From Verif Require Import Digits IdModel TimingModel StyleModel StyleProofs SegmentModel DedupModel DedupSpec DedupProofs.
Import ListNotations.
Local Open Scope string_scope.

(** [f] names, for every style and region, the one kept for it. *)
Record renaming (f : string -> string) (d d' : ddoc) : Prop := mkRenaming {
  rn_style : forall s, In s (styles d) ->
    exists s', In s' (styles d') /\ x_id s' = f (x_id s) /\ alike s s';
  rn_region : forall r, In r (regions d) ->
    exists r', In r' (regions d') /\ x_id r' = f (x_id r) /\ x_refs r' = renamed_refs f (x_refs r) /\
               x_vals r' = x_vals r /\ x_wild r' = x_wild r;
  rn_kept : forall r', In r' (regions d') ->
    exists r, In r (regions d) /\ x_id r' = x_id r /\ x_refs r' = renamed_refs f (x_refs r) /\
              x_vals r' = x_vals r /\ x_wild r' = x_wild r;
  rn_body : dd_body d' = option_map (renamed_body f) (dd_body d) }.

Record deduplicated (d d' : ddoc) : Prop := mkDeduplicated {
  de_styles : incl (styles d') (styles d);
  de_regions : incl (map x_id (regions d')) (map x_id (regions d));
  de_ids : NoDup (map x_id (styles d' ++ regions d'));
  de_twins : forall a b, In a (styles d') -> In b (styles d') -> alike a b -> a = b }.

Lemma NoDup_parts : forall A (a b : list A), NoDup (a ++ b) -> NoDup a /\ NoDup b.
Proof.
  induction a as [|x a IH]; intros b N; cbn in N; [split; [constructor|auto]|]. inversion N; subst.
  destruct (IH b H2) as [Na Nb]. split; auto. constructor; auto. intros I. apply H1. apply in_or_app. auto.
Qed.

Section Main.
Variables (py : python) (d : ddoc).
Hypotheses (Sd : sound d) (Fd : fair py d) (Ud : unnested d).
Let S := styles d.
Let R := regions d.
Let H (e : el) : Z := py_hash py (code py e).

Lemma ids_S : NoDup (map x_id S).
Proof. assert (N := sound_ids d Sd). rewrite map_app in N. apply NoDup_parts in N as [N _]. exact N. Qed.
Lemma ids_R : NoDup (map x_id R).
Proof. assert (N := sound_ids d Sd). rewrite map_app in N. apply NoDup_parts in N as [_ N]. exact N. Qed.
Lemma ids_apart : forall i, In i (map x_id S) -> In i (map x_id R) -> False.
Proof.
  intros i Is Ir. assert (N := sound_ids d Sd). rewrite map_app in N. fold S R in N.
  induction (map x_id S) as [|a m IH]; [contradiction|]. inversion N; subst. destruct Is as [->|Is]; auto.
  apply H2. apply in_or_app. auto.
Qed.

Lemma first_phase : exists out old new hd, section py (dd_styles d) [] [] [] = DOk (out, (old, new, hd)) /\
  collected py S old hd /\ (forall h e, In (h, e) hd -> zget new h = Some (x_id e)) /\
  match out with
  | None => dd_styles d = None
  | Some out => dd_styles d <> None /\ NoDup (map x_id out) /\ forall e, In e out <-> In (H e, e) hd
  end.
Proof.
  destruct (section_ok py (fun e => e) [] (dd_styles d) [] [] []) as (out & old & new & hd & E & C & _ & N & O).
  - apply (fair_order py d Fd).
  - apply collected_nil.
  - contradiction.
  - exact ids_S.
  - auto.
  - intros e I. apply (hashed_values py d Sd Fd). apply HStyle. exact I.
  - intros e old' I _. destruct (sound_styles d Sd e I) as (A & _). unfold map_own. rewrite A. auto.
  - exists out, old, new, hd. split; [exact E|]. change (match dd_styles d with Some l => l | None => [] end) with S in *.
    rewrite map_id in C. cbn [app] in C. split; [exact C|]. split; [exact N|]. destruct out as [out|]; auto.
    destruct O as (A & B & O). split; auto. split; auto. intros e. rewrite O. split; [tauto|]. intros I. split; auto.
    apply in_map. apply (co_from py S old hd C (H e)). auto.
Qed.

Section Phase2.
Variables (old : list (string * Z)) (new : list (Z * string)) (hd : list (Z * el)).
Hypotheses (C : collected py S old hd) (N : forall h e, In (h, e) hd -> zget new h = Some (x_id e)).
Let f1 (i : string) : string := match new_id old new i with Some j => j | None => i end.

Lemma hashed_S : forall s, In s S -> hashed d s.
Proof. intros s I. apply HStyle. exact I. Qed.

(** The style kept for a style. *)
Lemma kept_style : forall s, In s S -> exists s', In (H s, s') hd /\ In s' S /\ alike s s' /\ H s' = H s /\
  new_id old new (x_id s) = Some (x_id s') /\ f1 (x_id s) = x_id s'.
Proof.
  intros s I. destruct (co_all py _ _ _ C s I) as (s' & I'). exists s'. destruct (co_from py _ _ _ C _ _ I') as [Is' E'].
  assert (En : new_id old new (x_id s) = Some (x_id s')).
  { unfold new_id. rewrite (co_old py _ _ _ C s I). apply N. exact I'. }
  split; [exact I'|]. split; auto. split; [apply (hash_alike py d Sd Fd); auto using hashed_S|]. split; auto. split; auto.
  unfold f1. rewrite En. auto.
Qed.

Lemma style_of : forall i, In i (map x_id S) -> exists s, In s S /\ x_id s = i.
Proof. intros i I. apply in_map_iff in I as (s & E & I). eauto. Qed.

Lemma f1_idem : forall i, In i (map x_id S) -> In (f1 i) (map x_id S) /\ new_id old new (f1 i) = Some (f1 i).
Proof.
  intros i I. destruct (style_of i I) as (s & Is & <-). destruct (kept_style s Is) as (s' & I1 & I2 & _ & E1 & _ & Ef).
  rewrite Ef. split; [apply in_map; auto|]. unfold new_id. rewrite (co_old py _ _ _ C s' I2). 
  change (py_hash py (code py s')) with (H s'). rewrite E1. apply N. exact I1.
Qed.

Lemma f1_meaning : forall i j, In i (map x_id S) -> In j (map x_id S) -> (f1 i = f1 j <-> meaning S i = meaning S j).
Proof.
  intros i j Ii Ij. destruct (style_of i Ii) as (s & Is & <-). destruct (style_of j Ij) as (t & It & <-).
  destruct (kept_style s Is) as (s' & I1 & I2 & A1 & E1 & _ & Ef). destruct (kept_style t It) as (t' & J1 & J2 & B1 & F1 & _ & Eg).
  rewrite Ef, Eg. unfold meaning. rewrite !named_In; auto using ids_S. cbn. split.
  - intros E. assert (s' = t').
    { assert (X := named_In S s' ids_S I2). assert (Y := named_In S t' ids_S J2). rewrite E in X. congruence. }
    subst t'. destruct A1 as (_ & A2 & A3), B1 as (_ & B2 & B3). congruence.
  - intros E. inversion E. 
    assert (Es : H s = H t).
    { unfold H. rewrite (code_alike py s t); auto. split; [|auto].
      destruct (sound_styles d Sd s Is) as (-> & _). destruct (sound_styles d Sd t It) as (-> & _). auto. }
    rewrite Es in I1. assert (X := zget_In _ _ _ _ (co_keys py _ _ _ C) I1). assert (Y := zget_In _ _ _ _ (co_keys py _ _ _ C) J1). congruence.
Qed.

Lemma f1_variant : forall l, (forall i, In i l -> In i (map x_id S)) -> variant d l (map f1 l).
Proof.
  induction l as [|i l IH]; intros Hl; cbn; constructor.
  - destruct (style_of i (Hl i (or_introl eq_refl))) as (s & Is & <-). destruct (kept_style s Is) as (s' & _ & I2 & A & _ & _ & Ef).
    exists s, s'. auto.
  - apply IH. intros j I. apply Hl. cbn. auto.
Qed.

Lemma hashed_R : forall r, In r R -> hashed d (rerefer f1 r).
Proof.
  intros r I. unfold rerefer. destruct (x_refs r) as [l|] eqn:E; cbn [option_map].
  - apply (HRefs d r l); auto. apply f1_variant. intros i Ii. apply (sound_refs d Sd l); auto. right. rewrite <- E. apply in_map. exact I.
  - destruct r as [a b c w]. cbn in *. subst b. apply HRegion; auto.
Qed.

Lemma own_ok : forall r old', In r R ->
  (forall i h, dict_get old i = Some h -> ~ In i (map x_id R) -> dict_get old' i = Some h) ->
  map_own (new_id old' new) r = DOk (rerefer f1 r).
Proof.
  intros r old' I K. unfold map_own, rerefer. destruct (x_refs r) as [l|] eqn:E; cbn [option_map].
  - rewrite (map_ids_ok _ f1 l); auto. intros i Ii.
    assert (Is : In i (map x_id S)) by (apply (sound_refs d Sd l); auto; right; rewrite <- E; apply in_map; exact I).
    destruct (style_of i Is) as (s & Hs & <-). destruct (kept_style s Hs) as (s' & _ & _ & _ & _ & En & Ef). rewrite Ef, <- En.
    unfold new_id. rewrite (K (x_id s) (H s)); [rewrite (co_old py _ _ _ C s Hs); auto|apply (co_old py _ _ _ C s Hs)|].
    intros Ir. apply (ids_apart (x_id s)); auto.
  - destruct r as [a b c w]. cbn in *. subst b. auto.
Qed.

(** A style and a region are never hashed alike. *)
Lemma hash_apart : forall s r, In s S -> In r R -> H (rerefer f1 r) <> H s.
Proof.
  intros s r Is Ir E. assert (A := hash_alike py d Sd Fd _ _ (hashed_R r Ir) (hashed_S s Is) E). destruct A as (_ & A & _). cbn in A.
  destruct (sound_styles d Sd s Is) as (_ & L & _). destruct (sound_regions d Sd r Ir) as (L' & _). rewrite A in L'. congruence.
Qed.

Lemma second_phase : exists out old2 new2 hd2, section py (dd_regions d) old new hd = DOk (out, (old2, new2, hd2)) /\
  collected py (S ++ map (rerefer f1) R) old2 hd2 /\
  (forall h e, In (h, e) hd -> In (h, e) hd2) /\
  (forall h e, In (h, e) hd2 -> zget new2 h = Some (x_id e)) /\
  match out with
  | None => dd_regions d = None
  | Some out => dd_regions d <> None /\ NoDup (map x_id out) /\ forall e, In e out <-> In (x_id e) (map x_id R) /\ In (H e, e) hd2
  end.
Proof.
  destruct (section_ok py (rerefer f1) new (dd_regions d) S old hd) as (out & old2 & new2 & hd2 & E & C2 & K & N2 & O).
  - apply (fair_order py d Fd).
  - exact C.
  - exact N.
  - exact (sound_ids d Sd).
  - auto.
  - intros e I. apply (hashed_values py d Sd Fd). apply hashed_R. exact I.
  - exact own_ok.
  - exists out, old2, new2, hd2. split; [exact E|]. split; [exact C2|]. split; [|split; [exact N2|exact O]].
    intros h e I. apply K; auto. intros x Ix. destruct (co_from py _ _ _ C _ _ I) as [Ie <-]. apply hash_apart; auto.
Qed.

Section Phase3.
Variables (old2 : list (string * Z)) (new2 : list (Z * string)) (hd2 : list (Z * el)).
Hypotheses (C2 : collected py (S ++ map (rerefer f1) R) old2 hd2) (K2 : forall h e, In (h, e) hd -> In (h, e) hd2)
  (N2 : forall h e, In (h, e) hd2 -> zget new2 h = Some (x_id e)).
Let f2 (i : string) : string := match new_id old2 new2 i with Some j => j | None => i end.

Lemma f2_style : forall i, In i (map x_id S) -> new_id old2 new2 i = Some (f1 i) /\ f2 i = f1 i.
Proof.
  intros i Ii. destruct (style_of i Ii) as (s & Is & <-). destruct (kept_style s Is) as (s' & I1 & _ & _ & _ & _ & Ef). rewrite Ef.
  assert (En : new_id old2 new2 (x_id s) = Some (x_id s')).
  { unfold new_id. rewrite (co_old py _ _ _ C2 s); [|apply in_or_app; auto]. apply N2. apply K2. exact I1. }
  split; auto. unfold f2. rewrite En. auto.
Qed.

Lemma kept_region : forall r, In r R -> exists r0, In r0 R /\ In (H (rerefer f1 r0), rerefer f1 r0) hd2 /\
  alike (rerefer f1 r) (rerefer f1 r0) /\ new_id old2 new2 (x_id r) = Some (x_id r0) /\ f2 (x_id r) = x_id r0.
Proof.
  intros r Ir. assert (I : In (rerefer f1 r) (S ++ map (rerefer f1) R)) by (apply in_or_app; right; apply in_map; auto).
  destruct (co_all py _ _ _ C2 _ I) as (e & Ie). destruct (co_from py _ _ _ C2 _ _ Ie) as [Me Ee].
  apply in_app_or in Me as [Me|Me].
  { symmetry in Ee. elim (hash_apart e r Me Ir Ee). }
  apply in_map_iff in Me as (r0 & <- & I0). exists r0. split; auto. 
  assert (En : new_id old2 new2 (x_id r) = Some (x_id r0)).
  { unfold new_id. assert (O := co_old py _ _ _ C2 _ I). change (x_id (rerefer f1 r)) with (x_id r) in O. rewrite O.
    rewrite (N2 _ _ Ie). auto. }
  split; [rewrite <- Ee in Ie; exact Ie|]. split; [|split; auto; unfold f2; rewrite En; auto].
  apply (hash_alike py d Sd Fd); auto using hashed_R.
Qed.

Lemma fine_refs : forall l, (In (Some l) (body_refs d) \/ In (Some l) (map x_refs R)) ->
  refs_fine (new_id old2 new2) f2 (Some l) /\ map f2 l = map f1 l /\ ~ nested (map f1 l).
Proof.
  intros l Hl. assert (Il : forall i, In i l -> In i (map x_id S)) by (intros i Ii; apply (sound_refs d Sd l); auto).
  assert (E : map f2 l = map f1 l) by (apply map_ext_in; intros i Ii; apply f2_style; auto).
  assert (Nn : ~ nested (map f1 l)).
  { intros Nn. apply (Ud l Hl). revert Nn. apply nested_map. intros i j Ii Ij. apply f1_meaning; auto. }
  split; [|auto]. cbn. split; [|rewrite E; auto]. intros i Ii. destruct (f2_style i (Il i Ii)) as [A B]. rewrite B. exact A.
Qed.

Lemma fine_region : forall i, In (Some i) (body_regions d) -> new_id old2 new2 i = Some (f2 i).
Proof.
  intros i Ii. apply (sound_region d Sd) in Ii. apply in_map_iff in Ii as (r & <- & Ir). destruct (kept_region r Ir) as (r0 & _ & _ & _ & En & Ef).
  rewrite Ef. exact En.
Qed.

Lemma body_done : opt_map (replace_body (new_id old2 new2)) (dd_body d) = DOk (option_map (renamed_body f2) (dd_body d)).
Proof.
  assert (Hr := fun o => fine_refs o). assert (Hg := fine_region). unfold body_refs, body_regions in *.
  destruct (dd_body d) as [b|]; auto. cbn [opt_map option_map]. unfold replace_body.
  assert (Q : forall o, In o (bd_style b :: flat_map ref_lists (bd_kids b)) -> refs_fine (new_id old2 new2) f2 o).
  { intros [l|] I; [|exact Logic.I]. apply Hr. auto. }
  rewrite (replace_style_ok _ f2) by (apply Q; cbn; auto). cbn [dbind].
  rewrite (replace_nodes_ok _ f2); auto.
  - intros o I. apply Q. cbn. auto.
  - intros [i|] I; [|exact Logic.I]. apply Hg. exact I.
Qed.

Lemma regions_done : forall out, (forall e, In e out <-> In (x_id e) (map x_id R) /\ In (H e, e) hd2) ->
  replace_els (new_id old2 new2) out = DOk (map (fun e => mkEl (x_id e) (option_map keep_first (x_refs e)) (x_vals e) (x_wild e)) out).
Proof.
  intros out Ho. rewrite (replace_els_ok _ f2).
  - f_equal. apply map_ext_in. intros e Ie. f_equal. apply Ho in Ie as [Ir Ih]. destruct (co_from py _ _ _ C2 _ _ Ih) as [Ie _].
    apply in_app_or in Ie as [Ie|Ie].
    + destruct (sound_styles d Sd e Ie) as (-> & _). auto.
    + apply in_map_iff in Ie as (r & <- & I). cbn. destruct (x_refs r) as [l|] eqn:E; auto. cbn. f_equal. f_equal. rewrite map_map.
      apply map_ext_in. intros i Ii. assert (Is : In i (map x_id S)) by (apply (sound_refs d Sd l); auto; right; rewrite <- E; apply in_map; exact I).
      destruct (f1_idem i Is) as [A B]. destruct (f2_style (f1 i) A) as [_ ->]. unfold f1 at 1. rewrite B. auto.
  - intros o Io. apply in_map_iff in Io as (e & <- & Ie). apply Ho in Ie as [_ Ih]. destruct (co_from py _ _ _ C2 _ _ Ih) as [Ie _].
    apply in_app_or in Ie as [Ie|Ie].
    + destruct (sound_styles d Sd e Ie) as (-> & _). exact Logic.I.
    + apply in_map_iff in Ie as (r & <- & I). cbn. destruct (x_refs r) as [l|] eqn:E; [|exact Logic.I]. cbn.
      assert (Hl : In (Some l) (map x_refs R)) by (rewrite <- E; apply in_map; exact I).
      destruct (fine_refs l (or_intror Hl)) as (_ & _ & Nn).
      assert (Q : forall i, In i (map f1 l) -> new_id old2 new2 i = Some i /\ f2 i = i).
      { intros j Ij. apply in_map_iff in Ij as (i & <- & Ii). assert (Is : In i (map x_id S)) by (apply (sound_refs d Sd l); auto).
        destruct (f1_idem i Is) as [A B]. destruct (f2_style (f1 i) A) as [E1 E2]. rewrite E1, E2. assert (Q1 : f1 (f1 i) = f1 i) by (unfold f1 at 1; rewrite B; auto). rewrite Q1. auto. }
      split.
      * intros i Ii. destruct (Q i Ii) as [-> ->]. auto.
      * rewrite (map_ext_in f2 (fun i => i)); [rewrite map_id; exact Nn|]. intros i Ii. apply Q. auto.
Qed.

Lemma styles_done : forall out, (forall e, In e out <-> In (H e, e) hd) -> replace_els (new_id old2 new2) out = DOk out.
Proof.
  intros out Ho. rewrite (replace_els_ok _ f2).
  - f_equal. rewrite <- (map_id out) at 2. apply map_ext_in. intros e Ie. apply Ho in Ie. destruct (co_from py _ _ _ C _ _ Ie) as [Is _].
    destruct (sound_styles d Sd e Is) as (A & _). destruct e as [a b c w]. cbn in *. subst b. auto.
  - intros o Io. apply in_map_iff in Io as (e & <- & Ie). apply Ho in Ie. destruct (co_from py _ _ _ C _ _ Ie) as [Is _].
    destruct (sound_styles d Sd e Is) as (-> & _). exact Logic.I.
Qed.
End Phase3.
End Phase2.

Lemma dedup_main : exists d' f, remove_duplication py d = DOk d' /\ renaming f d d' /\ deduplicated d d' /\
  (dd_styles d' = None <-> dd_styles d = None) /\ (dd_regions d' = None <-> dd_regions d = None).
Proof.
  destruct first_phase as (out & old & new & hd & E & C & N & O).
  destruct (second_phase old new hd C N) as (out2 & old2 & new2 & hd2 & E2 & C2 & K2 & N2 & O2).
  set (f1 := fun i => match new_id old new i with Some j => j | None => i end) in *.
  set (f2 := fun i => match new_id old2 new2 i with Some j => j | None => i end).
  assert (B := body_done old new hd C N old2 new2 hd2 C2 K2 N2). fold f2 in B.
  set (fin := fun e => mkEl (x_id e) (option_map keep_first (x_refs e)) (x_vals e) (x_wild e)).
  assert (Es : opt_map (replace_els (new_id old2 new2)) out = DOk out).
  { destruct out as [out|]; auto. cbn. destruct O as (_ & _ & O). erewrite styles_done; eauto. }
  assert (Er : opt_map (replace_els (new_id old2 new2)) out2 = DOk (option_map (map fin) out2)).
  { destruct out2 as [out2|]; auto. cbn. destruct O2 as (_ & _ & O2). erewrite regions_done; eauto. }
  exists (mkDdoc out (option_map (map fin) out2) (option_map (renamed_body f2) (dd_body d))), f2.
  split; [unfold remove_duplication; rewrite E; cbn [dbind]; rewrite E2; cbn [dbind]; rewrite Es; cbn [dbind]; rewrite Er; cbn [dbind]; rewrite B; reflexivity|].
  assert (So : forall e, In (H e, e) hd <-> In e (match out with Some l => l | None => [] end)).
  { intros e. destruct out as [out|]; [symmetry; apply O|]. split; [|contradiction]. intros I. destruct (co_from py _ _ _ C _ _ I) as [Is _].
    unfold S, styles in Is. rewrite O in Is. contradiction. }
  assert (Ro : forall e, In (x_id e) (map x_id R) /\ In (H e, e) hd2 <-> In e (match out2 with Some l => l | None => [] end)).
  { intros e. destruct out2 as [out2|]; [symmetry; apply O2|]. split; [|contradiction]. intros [I _]. unfold R, regions in I. rewrite O2 in I. contradiction. }
  split; [|split].
  - constructor.
    + intros s Is. destruct (kept_style old new hd C N s Is) as (s' & I1 & I2 & A & Eh & _ & Ef). exists s'.
      split; [apply So; rewrite Eh; exact I1|]. split; auto. symmetry.
      destruct (f2_style old new hd C N old2 new2 hd2 C2 K2 N2 (x_id s)) as [_ Q]; [apply in_map; exact Is|].
      etransitivity; [exact Q|exact Ef].
    + intros r Ir. destruct (kept_region old new hd C N old2 new2 hd2 C2 N2 r Ir) as (r0 & I0 & Ih & (A1 & A2 & A3) & _ & Ef).
      exists (fin (rerefer f1 r0)). split; [|split; [symmetry; exact Ef|]].
      * unfold regions. cbn [dd_regions]. assert (X : In (rerefer f1 r0) (match out2 with Some l => l | None => [] end)).
        { apply Ro. split; [change (x_id (rerefer f1 r0)) with (x_id r0); apply in_map; exact I0|exact Ih]. }
        destruct out2 as [out2|]; [|contradiction]. cbn. apply in_map. exact X.
      * cbn in A1, A2, A3 |- *. split; [|auto].
        transitivity (option_map keep_first (option_map (map f1) (x_refs r))); [f_equal; symmetry; exact A1|].
        destruct (x_refs r) as [l|] eqn:El; auto. cbn. f_equal. f_equal.
        symmetry. apply (fine_refs old new hd C N old2 new2 hd2 C2 K2 N2 l). right. rewrite <- El. apply in_map. exact Ir.
    + intros r' Ir'. unfold regions in Ir'. cbn [dd_regions] in Ir'.
      assert (X : exists e, In e (match out2 with Some l => l | None => [] end) /\ r' = fin e).
      { destruct out2 as [out2|]; [|contradiction]. cbn in Ir'. apply in_map_iff in Ir' as (e & <- & Ie). eauto. }
      destruct X as (e & Ie & ->). apply Ro in Ie as [Ii Ih]. destruct (co_from py _ _ _ C2 _ _ Ih) as [Ie _].
      apply in_app_or in Ie as [Ie|Ie]; [elim (ids_apart (x_id e)); auto; apply in_map; exact Ie|].
      apply in_map_iff in Ie as (r & <- & Ir). exists r. split; [exact Ir|]. split; [reflexivity|]. split; [|auto]. cbn.
      destruct (x_refs r) as [l|] eqn:El; auto. cbn. f_equal. f_equal.
      symmetry. apply (fine_refs old new hd C N old2 new2 hd2 C2 K2 N2 l). right. rewrite <- El. apply in_map. exact Ir.
    + reflexivity.
  - assert (Inc : incl (match out with Some l => l | None => [] end) S).
    { intros e Ie. apply So in Ie. apply (co_from py _ _ _ C _ _ Ie). }
    assert (Ids : map x_id (match option_map (map fin) out2 with Some l => l | None => [] end) =
                  map x_id (match out2 with Some l => l | None => [] end)).
    { destruct out2; auto. cbn. rewrite map_map. auto. }
    constructor.
    + exact Inc.
    + unfold regions at 1. cbn [dd_regions]. rewrite Ids. intros i Ii. apply in_map_iff in Ii as (e & <- & Ie). apply Ro in Ie. apply Ie.
    + unfold styles at 1, regions at 1. cbn [dd_styles dd_regions]. rewrite map_app, Ids.
      assert (Na : NoDup (map x_id (match out with Some l => l | None => [] end))) by (destruct out; [apply O|constructor]).
      assert (Nb : NoDup (map x_id (match out2 with Some l => l | None => [] end))) by (destruct out2; [apply O2|constructor]).
      assert (Ap : forall i, In i (map x_id (match out with Some l => l | None => [] end)) ->
                 ~ In i (map x_id (match out2 with Some l => l | None => [] end))).
      { intros i Ia Ib. apply in_map_iff in Ia as (s & <- & Is). apply Inc in Is. apply in_map_iff in Ib as (r & Ei & Ir). apply Ro in Ir as [Ir _].
        apply (ids_apart (x_id s)); [apply in_map; auto|rewrite <- Ei; auto]. }
      clear - Na Nb Ap. induction (map x_id (match out with Some l => l | None => [] end)) as [|a m IH]; auto. cbn. inversion Na; subst. constructor.
      * intros I. apply in_app_or in I as [I|I]; auto. apply (Ap a); cbn; auto.
      * apply IH; auto. intros i I. apply Ap. cbn. auto.
    + intros a b Ia Ib Al. apply So in Ia, Ib. assert (Eh : H a = H b) by (unfold H; rewrite (code_alike py a b Al); auto).
      rewrite Eh in Ia. assert (X := zget_In _ _ _ _ (co_keys py _ _ _ C) Ia). assert (Y := zget_In _ _ _ _ (co_keys py _ _ _ C) Ib). congruence.
  - cbn [dd_styles dd_regions]. destruct out as [out|], out2 as [out2|]; cbn; split; split; intros X; try discriminate; auto;
      try (elim (proj1 O X)); try (elim (proj1 O2 X)).
Qed.
End Main.

(** ** C34 *)

(** De-duplication succeeds, and every style and region of the document has one
    in the result with the same attribute values that takes its place in every
    reference.  A list of references keeps the first of those that name the same
    style; nothing else in the body changes. *)
Theorem C34_meaning : forall py d, sound d -> fair py d -> unnested d ->
  exists d' f, remove_duplication py d = DOk d' /\ renaming f d d'.
Proof.
  intros py d Sd Fd Ud. destruct (dedup_main py d Sd Fd Ud) as (d' & f & E & R & _). exists d', f. auto.
Qed.
Print Assumptions C34_meaning.

(** The styles of the result are styles of the document, unchanged, and no two
    have the same attributes; identifiers stay unique. *)
Theorem C34_no_twins : forall py d d', sound d -> fair py d -> unnested d -> remove_duplication py d = DOk d' ->
  deduplicated d d'.
Proof.
  intros py d d' Sd Fd Ud E. destruct (dedup_main py d Sd Fd Ud) as (d1 & f & E1 & _ & D & _). rewrite E in E1. inversion E1; subst. auto.
Qed.
Print Assumptions C34_no_twins.

Lemma ref_lists_renamed : forall f n, ref_lists (renamed_node f n) = map (renamed_refs f) (ref_lists n).
Proof.
  intros f. fix IH 1. intros [s| |k i r st b e kids]; [reflexivity|reflexivity|]. cbn [renamed_node ref_lists map]. f_equal.
  induction kids as [|x kids IHk]; [reflexivity|]. cbn [map flat_map]. rewrite map_app, IH, IHk. reflexivity.
Qed.
Lemma region_list_renamed : forall f n, region_list (renamed_node f n) = map (option_map f) (region_list n).
Proof.
  intros f. fix IH 1. intros [s| |k i r st b e kids]; [reflexivity|reflexivity|]. cbn [renamed_node region_list map]. f_equal.
  induction kids as [|x kids IHk]; [reflexivity|]. cbn [map flat_map]. rewrite map_app, IH, IHk. reflexivity.
Qed.

Lemma body_refs_renamed : forall f d d', dd_body d' = option_map (renamed_body f) (dd_body d) ->
  body_refs d' = map (renamed_refs f) (body_refs d) /\ body_regions d' = map (option_map f) (body_regions d).
Proof.
  intros f d d' E. unfold body_refs, body_regions. rewrite E. destruct (dd_body d) as [b|]; auto. cbn. split.
  - f_equal. induction (bd_kids b) as [|x l IH]; auto. cbn [map flat_map]. rewrite map_app, ref_lists_renamed, IH. auto.
  - induction (bd_kids b) as [|x l IH]; auto. cbn [map flat_map]. rewrite map_app, region_list_renamed, IH. auto.
Qed.


(** No reference dangles. *)
Theorem C34_no_dangling : forall py d d', sound d -> fair py d -> unnested d -> remove_duplication py d = DOk d' ->
  (forall l i, In (Some l) (body_refs d') \/ In (Some l) (map x_refs (regions d')) -> In i l -> In i (map x_id (styles d'))) /\
  (forall i, In (Some i) (body_regions d') -> In i (map x_id (regions d'))).
Proof.
  intros py d d' Sd Fd Ud E. destruct (dedup_main py d Sd Fd Ud) as (d1 & f & E1 & Rn & _). rewrite E in E1. inversion E1; subst d1. clear E1.
  destruct (body_refs_renamed f d d' (rn_body _ _ _ Rn)) as [Eb Er].
  assert (K : forall o l i, In o (body_refs d) \/ In o (map x_refs (regions d)) -> renamed_refs f o = Some l -> In i l -> In i (map x_id (styles d'))).
  { intros [m|] l i Ho Em Ii; [|discriminate]. cbn in Em. inversion Em; subst l. rewrite keep_first_In in Ii. apply in_map_iff in Ii as (j & <- & Ij).
    assert (Is := sound_refs d Sd m j Ho Ij). apply in_map_iff in Is as (s & <- & Is). destruct (rn_style _ _ _ Rn s Is) as (s' & I' & <- & _).
    apply in_map. exact I'. }
  split.
  - intros l i [I|I] Ii.
    + rewrite Eb in I. apply in_map_iff in I as (o & Eo & I). eapply K; eauto.
    + apply in_map_iff in I as (r' & Eo & I). destruct (rn_kept _ _ _ Rn r' I) as (r & Ir & _ & Ef & _). rewrite Eo in Ef. symmetry in Ef.
      eapply K; eauto. right. apply in_map. exact Ir.
  - intros i I. rewrite Er in I. apply in_map_iff in I as ([j|] & Eo & I); [|discriminate]. cbn in Eo. inversion Eo; subst i.
    apply (sound_region d Sd) in I. apply in_map_iff in I as (r & <- & Ir). destruct (rn_region _ _ _ Rn r Ir) as (r' & I' & <- & _). apply in_map. exact I'.
Qed.
Print Assumptions C34_no_dangling.

(** *** Specified styles *)

Lemma or_else_absorb : forall A (a b c : option A), or_else a b = a -> or_else (or_else a c) b = or_else a c.
Proof. intros A [a|] b c H; auto. cbn in H. subst b. cbn. destruct c; auto. Qed.
Lemma add_absorb : forall a b c, add a b = a -> add (add a c) b = add a c.
Proof.
  intros a b c E. assert (K : forall p, add p b = p <-> (or_else (direction p) (direction b) = direction p /\
    or_else (fontFamily p) (fontFamily b) = fontFamily p /\ or_else (fontSize p) (fontSize b) = fontSize p /\
    or_else (lineHeight p) (lineHeight b) = lineHeight p /\ or_else (textAlign p) (textAlign b) = textAlign p /\
    or_else (color p) (color b) = color p /\ or_else (backgroundColor p) (backgroundColor b) = backgroundColor p /\
    or_else (fontStyle p) (fontStyle b) = fontStyle p /\ or_else (fontWeight p) (fontWeight b) = fontWeight p /\
    or_else (textDecoration p) (textDecoration b) = textDecoration p /\ or_else (unicodeBidi p) (unicodeBidi b) = unicodeBidi p /\
    or_else (wrapOption p) (wrapOption b) = wrapOption p /\ or_else (padding p) (padding b) = padding p /\
    or_else (linePadding p) (linePadding b) = linePadding p /\ or_else (multiRowAlign p) (multiRowAlign b) = multiRowAlign p)).
  { intros p. destruct p as [a1 a2 a3 a4 a5 a6 a7 a8 a9 a10 a11 a12 a13 a14 a15], b as [b1 b2 b3 b4 b5 b6 b7 b8 b9 b10 b11 b12 b13 b14 b15]. unfold add. cbn [direction fontFamily fontSize lineHeight textAlign color backgroundColor fontStyle fontWeight
      textDecoration unicodeBidi wrapOption padding linePadding multiRowAlign]. split.
    - intros X. injection X. intros. repeat split; assumption.
    - intros X. decompose [and] X. f_equal; assumption. }
  apply K in E. apply K. decompose [and] E. unfold add. cbn [direction fontFamily fontSize lineHeight textAlign color backgroundColor fontStyle fontWeight
      textDecoration unicodeBidi wrapOption padding linePadding multiRowAlign]. repeat split; apply or_else_absorb; assumption.
Qed.
Lemma add_self : forall a b, add (add a b) b = add a b.
Proof.
  assert (K : forall A (a b : option A), or_else (or_else a b) b = or_else a b) by (intros A [a|] [b|]; auto).
  intros a b. unfold add. cbn [direction fontFamily fontSize lineHeight textAlign color backgroundColor fontStyle fontWeight
      textDecoration unicodeBidi wrapOption padding linePadding multiRowAlign]. rewrite !K. auto.
Qed.

Lemma resolve_keep_first : forall (b : string -> sattrs) l acc,
  fold_left add (map b (keep_first l)) acc = fold_left add (map b l) acc.
Proof.
  intros b. assert (F : forall x l acc, add acc (b x) = acc ->
    fold_left add (map b (filter (fun y => negb (y =? x)) l)) acc = fold_left add (map b l) acc).
  { intros x. induction l as [|y l IH]; intros acc A; auto. cbn [filter map fold_left]. destruct (String.eqb_spec y x) as [->|D]; cbn [negb].
    - rewrite A. auto.
    - cbn [map fold_left]. apply IH. apply add_absorb. auto. }
  induction l as [|x l IH]; intros acc; auto. cbn [keep_first map fold_left]. rewrite F by apply add_self. apply IH.
Qed.

Lemma specified_renamed : forall read d d' f o, NoDup (map x_id (styles d)) -> NoDup (map x_id (styles d')) -> renaming f d d' ->
  (forall l i, o = Some l -> In i l -> In i (map x_id (styles d))) ->
  specified read (styles d') (renamed_refs f o) = specified read (styles d) o.
Proof.
  intros read d d' f [l|] N N' Rn Hl; auto. unfold specified, resolve_styles. cbn. rewrite resolve_keep_first, map_map. f_equal.
  apply map_ext_in. intros i Ii. assert (Is := Hl l i eq_refl Ii). apply in_map_iff in Is as (s & <- & Is).
  destruct (rn_style _ _ _ Rn s Is) as (s' & I' & E & (_ & V & _)). rewrite <- E, !named_In; auto. rewrite V. auto.
Qed.

(** The style specified for every element of the body is the same as before,
    and so are the attributes of the region it names and the style specified
    for that region. *)
Theorem C34_specified : forall py d d' read, sound d -> fair py d -> unnested d -> remove_duplication py d = DOk d' ->
  Forall2 (fun o o' => specified read (styles d') o' = specified read (styles d) o) (body_refs d) (body_refs d') /\
  Forall2 (fun o o' => match o, o' with
                       | Some i, Some j => exists r r', named (regions d) i = Some r /\ named (regions d') j = Some r' /\
                           x_vals r' = x_vals r /\ x_wild r' = x_wild r /\
                           specified read (styles d') (x_refs r') = specified read (styles d) (x_refs r)
                       | None, None => True
                       | _, _ => False
                       end) (body_regions d) (body_regions d').
Proof.
  intros py d d' read Sd Fd Ud E. destruct (dedup_main py d Sd Fd Ud) as (d1 & f & E1 & Rn & De & _). rewrite E in E1. inversion E1; subst d1. clear E1.
  destruct (body_refs_renamed f d d' (rn_body _ _ _ Rn)) as [Eb Er].
  assert (Ns := sound_ids d Sd). rewrite map_app in Ns. apply NoDup_parts in Ns as [Ns Nr].
  assert (Ns' := de_ids _ _ De). rewrite map_app in Ns'. apply NoDup_parts in Ns' as [Ns' Nr'].
  split.
  - rewrite Eb. assert (K : forall o, In o (body_refs d) -> specified read (styles d') (renamed_refs f o) = specified read (styles d) o).
    { intros o Io. apply specified_renamed; auto. intros l i -> Ii. apply (sound_refs d Sd l); auto. }
    revert K. generalize (body_refs d). induction l as [|o l IH]; intros K; cbn; constructor; [apply K; cbn; auto|]. apply IH. intros x I. apply K. cbn. auto.
  - rewrite Er. assert (K := sound_region d Sd). revert K. generalize (body_regions d) as l. induction l as [|o l IH]; intros K; cbn; constructor.
    + destruct o as [i|]; cbn; auto. assert (Ii := K i (or_introl eq_refl)). apply in_map_iff in Ii as (r & <- & Ir).
      destruct (rn_region _ _ _ Rn r Ir) as (r' & I' & <- & Ef & V & W). exists r, r'. rewrite !named_In; auto.
      split; auto. split; auto. split; auto. split; auto. rewrite Ef. apply specified_renamed; auto.
      intros m i Em Ii. apply (sound_refs d Sd m); auto. right. rewrite <- Em. apply in_map. exact Ir.
    + apply IH. intros i I. apply K. cbn. auto.
Qed.
Print Assumptions C34_specified.

(** ** A Python in which every document is fair *)

(** Hashes and printed lists that never collide.  CPython's hash of a string
    does collide; [fair] asks only that the strings of one document do not. *)
Fixpoint pair_hash (s : string) : Z :=
  match s with
  | EmptyString => 0
  | String c r => pair_hash r * 257 + (Z.of_N (N_of_ascii c) + 1)
  end%Z.
Definition bit (b : bool) : ascii := if b then "1"%char else "0"%char.
Fixpoint spell (s r : string) : string :=
  match s with
  | EmptyString => String "," r
  | String (Ascii a b c d e f g h) t =>
      String (bit a) (String (bit b) (String (bit c) (String (bit d)
     (String (bit e) (String (bit f) (String (bit g) (String (bit h) (spell t r))))))))
  end.
Fixpoint spell_all (l : list string) : string :=
  match l with [] => "" | s :: r => spell s (spell_all r) end.
Definition plain_python : python := mkPython pair_hash (fun l => String "[" (spell_all l)) (fun l => l).

Lemma pair_hash_pos : forall s, (0 <= pair_hash s)%Z.
Proof. induction s as [|c s IH]; cbn [pair_hash]; [lia|]. assert (X := N2Z.is_nonneg (N_of_ascii c)). nia. Qed.
Lemma pair_hash_inj : forall s t, pair_hash s = pair_hash t -> s = t.
Proof.
  assert (B : forall c, (0 <= Z.of_N (N_of_ascii c) < 256)%Z).
  { intros c. assert (X := N_ascii_bounded c). lia. }
  induction s as [|c s IH]; intros [|k t] E; auto; cbn [pair_hash] in E.
  - assert (X := pair_hash_pos t). specialize (B k). lia.
  - assert (X := pair_hash_pos s). specialize (B c). lia.
  - assert (X := B c). assert (Y := B k). assert (Es : pair_hash s = pair_hash t) by lia. assert (Ec : N_of_ascii c = N_of_ascii k) by lia.
    rewrite (IH t Es). f_equal. rewrite <- (ascii_N_embedding c), Ec, ascii_N_embedding. auto.
Qed.
Lemma bit_inj : forall a b, bit a = bit b -> a = b.
Proof. intros [|] [|]; auto; discriminate. Qed.
Lemma spell_inj : forall s t r u, spell s r = spell t u -> s = t /\ r = u.
Proof.
  induction s as [|[a b c d e f g h] s IH]; intros [|[a' b' c' d' e' f' g' h'] t] r u E; cbn [spell] in E.
  - inversion E; auto.
  - destruct a'; discriminate E.
  - destruct a; discriminate E.
  - injection E. intros Et H8 H7 H6 H5 H4 H3 H2 H1. apply bit_inj in H1, H2, H3, H4, H5, H6, H7, H8. apply IH in Et as [-> ->]. subst. auto.
Qed.
Lemma spell_all_inj : forall l m, spell_all l = spell_all m -> l = m.
Proof.
  induction l as [|s l IH]; intros [|t m] E; auto; cbn [spell_all] in E.
  - destruct t as [|[[] ? ? ? ? ? ? ?] t]; discriminate E.
  - destruct s as [|[[] ? ? ? ? ? ? ?] s]; discriminate E.
  - apply spell_inj in E as [-> E]. rewrite (IH m E). auto.
Qed.
Lemma spell_marks : forall s r, marks_ok r = true -> marks_ok (spell s r) = true.
Proof.
  induction s as [|[a b c d e f g h] s IH]; intros r M; cbn [spell].
  - exact M.
  - assert (K : forall x t, marks_ok t = true -> marks_ok (String (bit x) t) = true) by (intros [|] t Mt; exact Mt).
    do 8 apply K. apply IH. exact M.
Qed.
Lemma spell_ascii : forall s r, is_ascii r = true -> is_ascii (spell s r) = true.
Proof.
  induction s as [|[a b c d e f g h] s IH]; intros r M; cbn [spell].
  - exact M.
  - assert (K : forall x t, is_ascii t = true -> is_ascii (String (bit x) t) = true) by (intros [|] t Mt; exact Mt).
    do 8 apply K. apply IH. exact M.
Qed.

Theorem C34_fair_exists : forall d, fair plain_python d.
Proof.
  intros d. constructor.
  - intros e l _ _. split; [|split; [|discriminate]].
    + change (marks_ok (spell_all l) = true). induction l as [|s l IH]; cbn [spell_all]; auto using spell_marks.
    + change (is_ascii (spell_all l) = true). induction l as [|s l IH]; cbn [spell_all]; auto using spell_ascii.
  - intros e e' l l' _ _ _ _ E. cbn in E. injection E. apply spell_all_inj.
  - intros e e' _ _ E. apply pair_hash_inj. exact E.
  - intros l. apply Permutation_refl.
Qed.
Print Assumptions C34_fair_exists.

(** ** Cases *)

(** A style with a font family, and a region with an origin and an extent. *)
Definition family (i : string) (f : option string) (refs : option (list string)) (w : list (string * string * string)) : el :=
  mkEl i refs (None :: f :: repeat None 13) w.
Definition area (i o : string) (refs : option (list string)) : el :=
  mkEl i refs [Some o; Some "80% 20%"; None; None; None; None; None] [].
Definition line (i : string) (r : option string) (s : option (list string)) (t : string) : node :=
  Node P (Some i) r s None None [Text t].
Definition shown_as (l : list node) : option bodyd := Some (mkBodyd (Some ["a"; "b"]) None None None [Node Div None None None None None l]).

Definition resequenced : ddoc :=
  mkDdoc (Some [family "a" (Some "Serif") None []; family "b" (Some "Serif") None []; family "c" None None [("urn:x", "k", "v")]; family "e" None None []])
         (Some [area "q" "10% 60%" (Some ["a"]); area "r" "10% 60%" (Some ["b"]); area "s" "10% 70%" None])
         (shown_as [line "p1" (Some "q") (Some ["b"; "c"; "a"]) "one"; line "p2" (Some "r") None "two"; line "p3" (Some "s") (Some ["e"]) "three"]).

Lemma resequenced_sound : sound resequenced /\ unnested resequenced.
Proof.
  split; [constructor|].
  - vm_compute. repeat (apply NoDup_cons; [cbn; intuition discriminate|]). apply NoDup_nil.
  - intros e I. cbn in I. repeat (destruct I as [<-|I]; [repeat split; vm_compute; reflexivity|]). contradiction.
  - intros e I. cbn in I. repeat (destruct I as [<-|I]; [repeat split; vm_compute; reflexivity|]). contradiction.
  - intros l i [I|I] J; cbn in I; repeat (destruct I as [I|I]; [try discriminate I; injection I as <-; cbn in J |- *; intuition|]); contradiction.
  - intros i I. cbn in I. repeat (destruct I as [I|I]; [try discriminate I; injection I as <-; cbn; auto|]). contradiction.
  - intros l Hl (x & y & a & b & c & d & e & D & E & _).
    assert (L : (List.length (map (meaning (styles resequenced)) l) <= 3)%nat).
    { rewrite map_length. destruct Hl as [I|I]; cbn in I; repeat (destruct I as [I|I]; [try discriminate I; injection I as <-; cbn; lia|]); contradiction. }
    rewrite E in L. repeat (rewrite app_length in L; cbn [List.length] in L). lia.
Qed.

(** Both pairs of duplicates go; the last of each pair stays, the newest first. *)
Example C34_case : remove_duplication plain_python resequenced = DOk
  (mkDdoc (Some [family "e" None None []; family "c" None None [("urn:x", "k", "v")]; family "b" (Some "Serif") None []])
          (Some [area "s" "10% 70%" None; area "r" "10% 60%" (Some ["b"])])
          (Some (mkBodyd (Some ["b"]) None None None [Node Div None None None None None
             [line "p1" (Some "r") (Some ["b"; "c"]) "one"; line "p2" (Some "r") None "two"; line "p3" (Some "s") (Some ["e"]) "three"]]))).
Proof. vm_compute. reflexivity. Qed.

Example C34_case_hypotheses : sound resequenced /\ fair plain_python resequenced /\ unnested resequenced.
Proof. split; [apply resequenced_sound|]. split; [apply C34_fair_exists|apply resequenced_sound]. Qed.

(** A document without styling and layout. *)
Example C34_case_bare : remove_duplication plain_python (mkDdoc None None None) = DOk (mkDdoc None None None).
Proof. reflexivity. Qed.
Example C34_case_empty : remove_duplication plain_python (mkDdoc (Some []) (Some []) None) = DOk (mkDdoc (Some []) (Some []) None).
Proof. reflexivity. Qed.

(** ** What goes wrong outside these conditions *)

(** Whatever the hashes: a reference repeated inside the repetition of another
    makes the removal of the outer one use an index that is no longer right. *)
Section Stale.
Variables (f : string -> option string).
Hypothesis (Id : forall i, f i = Some i).

(** A reference that repeats nothing is lost ... *)
Theorem C34_reference_lost : forall x y z, x <> y -> z <> x -> z <> y ->
  replace f 5 [y; x; x; y; z] [] = DOk [y; x; y].
Proof.
  intros x y z Dxy Dzx Dzy.
  assert (Exy : (x =? y) = false) by (apply String.eqb_neq; auto).
  assert (Eyx : (y =? x) = false) by (apply String.eqb_neq; auto).
  assert (Ezx : (x =? z) = false) by (apply String.eqb_neq; auto).
  assert (Ezy : (y =? z) = false) by (apply String.eqb_neq; auto).
  repeat (cbn [replace nth_error dbind put del dict_get]; rewrite ?Id, ?String.eqb_refl, ?Exy, ?Eyx, ?Ezx, ?Ezy). reflexivity.
Qed.
(** ... or the removal raises. *)
Theorem C34_index_error : forall x y, x <> y -> replace f 4 [y; x; x; y] [] = DErr IndexErr.
Proof.
  intros x y Dxy.
  assert (Exy : (x =? y) = false) by (apply String.eqb_neq; auto).
  assert (Eyx : (y =? x) = false) by (apply String.eqb_neq; auto).
  repeat (cbn [replace nth_error dbind put del dict_get]; rewrite ?Id, ?String.eqb_refl, ?Exy, ?Eyx). reflexivity.
Qed.
End Stale.
Print Assumptions C34_reference_lost.
Print Assumptions C34_index_error.

(** So the full statement is wrong: a sound document may fail as a whole. *)
Theorem C34_nested_fails : exists d, sound d /\ fair plain_python d /\ remove_duplication plain_python d = DErr IndexErr.
Proof.
  exists (mkDdoc (Some [family "x" None None []; family "y" (Some "Serif") None []]) None
                 (Some (mkBodyd (Some ["y"; "x"; "x"; "y"]) None None None []))).
  split; [constructor|split; [apply C34_fair_exists|vm_compute; reflexivity]].
  - vm_compute. repeat (apply NoDup_cons; [cbn; intuition discriminate|]). apply NoDup_nil.
  - intros e I. cbn in I. repeat (destruct I as [<-|I]; [repeat split; vm_compute; reflexivity|]). contradiction.
  - contradiction.
  - intros l i [[I|[]]|[]] J. injection I as <-. cbn in J |- *. intuition.
  - contradiction.
Qed.
Print Assumptions C34_nested_fails.
Theorem C34_nested_loses : exists d d', sound d /\ fair plain_python d /\ remove_duplication plain_python d = DOk d' /\
  exists read, Forall2 (fun o o' => specified read (styles d') o' <> specified read (styles d) o) (body_refs d) (body_refs d').
Proof.
  exists (mkDdoc (Some [family "x" None None []; family "y" None None [("urn:x", "k", "v")]; family "z" (Some "Serif") None []]) None
                 (Some (mkBodyd (Some ["y"; "x"; "x"; "y"; "z"]) None None None []))). eexists.
  split; [constructor|split; [apply C34_fair_exists|split; [vm_compute; reflexivity|]]].
  - vm_compute. repeat (apply NoDup_cons; [cbn; intuition discriminate|]). apply NoDup_nil.
  - intros e I. cbn in I. repeat (destruct I as [<-|I]; [repeat split; vm_compute; reflexivity|]). contradiction.
  - contradiction.
  - intros l i [[I|[]]|[]] J. injection I as <-. cbn in J |- *. intuition.
  - contradiction.
  - exists (fun l => setattr no_attrs FontFamily (nth 1 l None)). constructor; [|constructor]. vm_compute. discriminate.
Qed.
Print Assumptions C34_nested_loses.

(** A style that refers to a style: nothing is known about any style yet, so
    whatever it names is replaced by None. *)
Theorem C34_style_reference : forall py s i l rest r b, x_refs s = Some (i :: l) ->
  remove_duplication py (mkDdoc (Some (s :: rest)) r b) = DErr (NoneRef i).
Proof.
  intros py s i l rest r b E. unfold remove_duplication. cbn [dd_styles section collate]. unfold map_own. rewrite E. reflexivity.
Qed.
Print Assumptions C34_style_reference.

(** A value that is not ASCII, such as a font family, cannot be hashed. *)
Theorem C34_non_ascii : forall py s v rest r b, x_refs s = None -> In (Some v) (x_vals s) -> is_ascii v = false ->
  remove_duplication py (mkDdoc (Some (s :: rest)) r b) = DErr NonAscii.
Proof.
  intros py s v rest r b E I A. unfold remove_duplication. cbn [dd_styles section collate]. unfold map_own. rewrite E. cbn [dbind].
  unfold my_hash. replace (forallb is_ascii (values py s)) with false; auto. symmetry. apply not_true_is_false. intros F.
  rewrite forallb_forall in F. rewrite F in A; [discriminate|]. right. change v with (replace_none (Some v)). apply in_map. exact I.
Qed.
Print Assumptions C34_non_ascii.
Definition non_ascii : string := String (ascii_of_nat 195) (String (ascii_of_nat 169) "").
Example C34_case_non_ascii : is_ascii non_ascii = false /\
  remove_duplication plain_python (mkDdoc (Some [family "a" (Some non_ascii) None []]) None None) = DErr NonAscii.
Proof. split; reflexivity. Qed.

(** Attributes of other namespaces are joined without anything in between, so
    different styles can be taken for one, whatever the hash. *)
Theorem C34_foreign_confused : forall py, (forall l, Permutation (py_order py l) l) -> exists d d' a b, styles d = [a; b] /\ ~ alike a b /\
  x_refs a = None /\ x_refs b = None /\ remove_duplication py d = DOk d' /\ styles d' = [b].
Proof.
  intros py Po. set (a := family "a" None None [("urn:a", "k", ""); ("xurn:b", "m", "v")]). set (b := family "b" None None [("urn:a", "k", "x"); ("urn:b", "m", "v")]).
  set (h := py_hash py (code py b)).
  assert (Eo : py_order py [(h, b)] = [(h, b)]) by (apply Permutation_length_1_inv, Permutation_sym, Po).
  exists (mkDdoc (Some [a; b]) None None), (mkDdoc (Some [b]) None None), a, b.
  split; [reflexivity|]. split; [intros (_ & _ & X); discriminate X|]. split; [reflexivity|]. split; [reflexivity|]. split; [|reflexivity].
  unfold remove_duplication. cbn [dd_styles section collate].
  assert (Ha : my_hash py a = DOk h) by reflexivity. assert (Hb : my_hash py b = DOk h) by reflexivity.
  cbn [map_own x_refs a b family dbind]. fold a. fold b. rewrite Ha. cbn [dbind]. rewrite Hb. cbn [dbind].
  unfold zset. cbn [filter fst]. rewrite Z.eqb_refl. cbn [negb]. unfold append_new_elements. rewrite Eo. reflexivity.
Qed.
Print Assumptions C34_foreign_confused.

(** The other way round: equal attributes in another order are not found. *)
Example C34_case_foreign_order :
  let a := family "a" None None [("urn:a", "k", "x"); ("urn:b", "m", "v")] in
  let b := family "b" None None [("urn:b", "m", "v"); ("urn:a", "k", "x")] in
  remove_duplication plain_python (mkDdoc (Some [a; b]) None None) = DOk (mkDdoc (Some [b; a]) None None).
Proof. vm_compute. reflexivity. Qed.

(** A bar counts as no value. *)
Example C34_case_bar :
  let a := family "a" (Some "|") None [] in let b := family "b" None None [] in
  remove_duplication plain_python (mkDdoc (Some [a; b]) None None) = DOk (mkDdoc (Some [b]) None None).
Proof. vm_compute. reflexivity. Qed.

(** Regions are compared before repeated references are removed from them, so
    two regions that end up alike may remain. *)
Example C34_case_region_twins :
  let s := family "a" None None [] in let t := family "b" None None [] in
  let q := area "q" "10% 60%" (Some ["a"]) in let r := area "r" "10% 60%" (Some ["a"; "b"]) in
  remove_duplication plain_python (mkDdoc (Some [s; t]) (Some [q; r]) None) =
  DOk (mkDdoc (Some [t]) (Some [area "r" "10% 60%" (Some ["b"]); area "q" "10% 60%" (Some ["b"])]) None).
Proof. vm_compute. reflexivity. Qed.
