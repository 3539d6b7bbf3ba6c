(** The pass over a document: faults found are faults, and when none is found
    there is none. *)

From Coq Require Import List String Bool QArith.
From Verif Require Import IdModel StyleModel StyleProofs StyleTree ReadModel ReadSpec PropsId PropsRead ValidModel ValidSpec
  ValidPruneProofs ValidProofs.
From Verif Require HeadModel HeadSpec HeadProofs.
Import ListNotations.
Open Scope string_scope.

(** ** Tables *)

Lemma dict_get_iff : forall A (l : list (string * A)) i x, NoDup (map fst l) -> (dict_get l i = Some x <-> In (i, x) l).
Proof.
  intros A. induction l as [|[j y] l IH]; intros i x N; cbn [dict_get]; [split; [discriminate|intros []]|].
  cbn [map fst] in N. apply NoDup_cons_iff in N as [Nj N]. destruct (String.eqb_spec i j) as [->|D].
  - split; [intros E; injection E as ->; left; auto|]. intros [E|H]; [congruence|].
    exfalso. apply Nj. apply in_map_iff. exists (j, x). auto.
  - rewrite IH; auto. split; [right; auto|]. intros [E|H]; [congruence|auto].
Qed.

Lemma dict_get_rev : forall A (l : list (string * A)) i, NoDup (map fst l) -> dict_get (rev l) i = dict_get l i.
Proof.
  intros A l i N. assert (N' : NoDup (map fst (rev l))) by (rewrite map_rev; apply NoDup_rev; auto).
  destruct (dict_get l i) as [x|] eqn:E.
  - apply dict_get_iff; auto. apply in_rev. rewrite rev_involutive. apply dict_get_iff; auto.
  - destruct (dict_get (rev l) i) as [x|] eqn:E'; auto. apply dict_get_iff in E'; auto. apply in_rev in E'.
    apply dict_get_iff in E'; auto. congruence.
Qed.

Section Doc.
Context (d : vdoc).
Notation T := (style_entries d).
Notation z := (sizing_of d).
Notation tb := (HeadModel.k_tb (vd_head d)).

(** ** Posts *)

(** A refusal, with the entries made so far; that of an identifier met again has
    it next. *)
Definition next (e : verr) (before rest : list (string * kind)) : Prop :=
  forall i, e = VDuplicate i -> In i (map fst before) /\ exists x r, rest = (i, x) :: r.
Definition halted (done en : list (string * kind)) (e : verr) (s : vstate) : Prop :=
  exists pre rest, en = (pre ++ rest)%list /\ vs_ids s = rev (done ++ pre) /\ NoDup (map fst (vs_ids s)) /\ next e (done ++ pre) rest.

Lemma halted_app : forall done en more e s, halted done en e s -> halted done (en ++ more) e s.
Proof.
  intros done en more e s (pre & rest & -> & V & N & X). exists pre, (rest ++ more)%list. rewrite app_assoc.
  split; auto. split; auto. split; auto. intros i H. destruct (X i H) as (Hi & x & r & ->). split; auto. exists x, (r ++ more)%list. auto.
Qed.

Lemma halted_after : forall done first en e s, halted (done ++ first) en e s -> halted done (first ++ en) e s.
Proof.
  intros done first en e s (pre & rest & -> & V & N & X). exists (first ++ pre)%list, rest. rewrite app_assoc.
  split; auto. rewrite app_assoc. auto.
Qed.

(** What a step from the entries [done] over the entries [en] brings about. *)
Definition post (Inv : list (string * kind) -> vstate -> Prop) (done en : list (string * kind)) (good : Prop)
  (r : option verr * vstate) : Prop :=
  match fst r with
  | None => Inv (done ++ en)%list (snd r) /\ good
  | Some e => fault d e /\ halted done en e (snd r)
  end.

Lemma list_post : forall A (f : A -> vstate -> option verr * vstate) (Inv : list (string * kind) -> vstate -> Prop)
  (en : A -> list (string * kind)) (good : A -> Prop) l,
  (forall x s done rest, In x l -> Inv done s -> entries d = (done ++ en x ++ rest)%list ->
     post Inv done (en x) (good x) (f x s)) ->
  forall s done rest, Inv done s -> entries d = (done ++ flat_map en l ++ rest)%list ->
    post Inv done (flat_map en l) (Forall good l) (visit_list f l s).
Proof.
  intros A f Inv en good. induction l as [|x l IH]; intros H s done rest I E; cbn [visit_list flat_map] in *.
  - unfold post. cbn [fst snd]. rewrite app_nil_r. auto.
  - rewrite <- app_assoc in E. assert (P := H x s done _ (or_introl eq_refl) I E). unfold post in P |- *.
    destruct (f x s) as [[e|] s']; cbn [fst snd] in *.
    + destruct P as [F P]. split; auto. apply halted_app. auto.
    + destruct P as [I' G]. assert (Q := IH (fun y s done rest Hy => H y s done rest (or_intror Hy)) s' (done ++ en x)%list rest I').
      rewrite <- app_assoc in Q. specialize (Q E). unfold post in Q. destruct (visit_list f l s') as [[e|] s2]; cbn [fst snd] in *.
      * destruct Q as [F Q]. split; auto. apply halted_after. auto.
      * destruct Q as [I2 G2]. rewrite app_assoc. auto.
Qed.

(** An identifier met again. *)
Lemma met : forall (done : list (string * kind)) i, dict_get (rev done) i <> None -> In i (map fst done).
Proof. intros done i H. apply dict_get_in in H. rewrite map_rev in H. apply in_rev. auto. Qed.

Lemma again : forall (done : list (string * kind)) i x rest, dict_get (rev done) i <> None ->
  entries d = (done ++ (i, x) :: rest)%list -> fault d (VDuplicate i).
Proof.
  intros done i x rest H E. apply dict_get_in in H. rewrite map_rev in H. apply in_rev in H.
  apply in_split in H as (a & b & H). cbn. exists a, b, (map fst rest). rewrite E, map_app, H. cbn [map fst].
  rewrite <- app_assoc. auto.
Qed.

Lemma registered : forall (done l : list (string * kind)) i (x : kind), l = rev done -> NoDup (map fst l) ->
  match register_id l (Some i, x) with
  | None => dict_get (rev done) i <> None
  | Some l' => l' = rev (done ++ [(i, x)]) /\ NoDup (map fst l') /\ l' = (i, x) :: l /\ dict_get l i = None
  end.
Proof.
  intros done l i x -> N. unfold register_id. cbn [fst snd]. destruct (dict_get (rev done) i) eqn:G; [discriminate|].
  rewrite rev_app_distr. cbn [rev app]. split; auto. split; auto. cbn [map fst]. constructor; auto.
  rewrite <- dict_get_in. congruence.
Qed.

(** ** Styles *)

Definition style_inv (done : list (string * kind)) (s : vstate) : Prop :=
  vs_ids s = rev done /\ NoDup (map fst (vs_ids s)) /\ vs_regions s = [] /\ vs_world s = mkW sstart [] None.
Definition style_good (e : string * style_el) : Prop :=
  vd_extent d = None -> ~ px_font (s_attrs (snd e)).

Lemma extent_none : z_extent z = None <-> vd_extent d = None.
Proof. unfold sizing_of. cbn [z_extent]. destruct (vd_extent d); cbn; split; congruence. Qed.

Lemma check_size_spec : forall u,
  match check_size z u with Some e => e = VStyle ExtentMissing /\ vd_extent d = None /\ u = Px
  | None => vd_extent d = None -> u <> Px end.
Proof.
  intros u. unfold check_size. destruct u; try (intros _; discriminate).
  destruct (z_extent z) eqn:E; [|split; auto; split; auto; apply extent_none; auto].
  intros H. apply extent_none in H. congruence.
Qed.

Lemma style_post : forall e s done rest, In e (vd_styles d) -> style_inv done s ->
  entries d = (done ++ [(fst e, KStyle (snd e))] ++ rest)%list ->
  post style_inv done [(fst e, KStyle (snd e))] (style_good e) (visit_style z e s).
Proof.
  intros [i e] s done rest He (I1 & I2 & I3 & I4) E. cbn [fst snd app] in *. unfold visit_style. cbn [fst snd].
  assert (R := registered done (vs_ids s) i (KStyle e) I1 I2).
  destruct (register_id (vs_ids s) (Some i, KStyle e)) as [l|].
  - destruct R as (R1 & R2 & _).
    assert (C : match match fontSize (s_attrs e) with Some f => check_size z (f_unit f) | None => None end with
      | Some x => x = VStyle ExtentMissing /\ vd_extent d = None /\ px_font (s_attrs e)
      | None => style_good (i, e) end).
    { unfold style_good, px_font. cbn [snd]. destruct (fontSize (s_attrs e)) as [f|] eqn:F.
      - assert (C := check_size_spec (f_unit f)). destruct (check_size z (f_unit f)).
        + destruct C as (-> & Z & U). split; auto. split; auto. exists f. auto.
        + intros Z (f' & F' & U). injection F' as <-. apply C; auto.
      - intros _ (f & F' & _). discriminate. }
    destruct (match fontSize (s_attrs e) with Some f => check_size z (f_unit f) | None => None end) as [x|]; unfold post; cbn [fst snd].
    + destruct C as (-> & Z & f & F & U). split.
      * cbn. split; auto. left. exists i, e, f. auto.
      * exists [(i, KStyle e)], []. split; auto. split; auto. split; auto. intros j H. discriminate.
    + split; auto. unfold style_inv, with_world, with_ids. cbn [vs_ids vs_regions vs_world]. rewrite I4. auto.
  - unfold post. cbn [fst snd]. split; [eapply again; eauto|]. exists [], [(i, KStyle e)]. rewrite app_nil_r.
    split; auto. split; auto. split; auto.
    intros j H. injection H as <-. split; [apply met; auto|eauto].
Qed.

(** ** Regions and body *)

Record inv (done : list (string * kind)) (s : vstate) : Prop := mkInv {
  inv_ids : vs_ids s = rev done;
  inv_nodup : NoDup (map fst (vs_ids s));
  inv_styles : same_styles (vs_ids s) T;
  inv_settled : settled T (w_styles (vs_world s));
  inv_region : forall i e, w_region (vs_world s) = Some (i, e) -> ok_c (e_computed e);
  inv_regions : forall i e, dict_get (vs_regions s) i = Some e -> ok_c (e_computed e);
  inv_there : forall i, get_region (vs_ids s) i <> None -> dict_get (vs_regions s) i <> None }.

Context (NF : vd_extent d = None -> no_px_font T).

Lemma NFz : z_extent z = None -> no_px_font T.
Proof. intros H. apply NF. apply extent_none. auto. Qed.

(** The styles of an element of the document. *)
Lemma collect_post : forall l w style parent defer extra, same_styles l T -> settled T (w_styles w) ->
  ok_o parent -> (forall i e, w_region w = Some (i, e) -> ok_c (e_computed e)) -> (forall a, In a extra -> bare a) ->
  In (refs style) (users d) ->
  let '(r, w') := collect l z w style parent defer extra in
  settled T (w_styles w') /\ w_region w' = w_region w /\
  match r with
  | SOk e => ok_c (e_computed e) /\ (forall i, In i (refs style) -> sound T i) /\
             (vd_extent d = None -> forall q, ~ line_height T (refs style) (LSize Px q))
  | SErr x => fault d (VStyle x)
  end.
Proof.
  intros l w style parent defer extra E S OP OR B U.
  assert (C := collect_ok T l z w style parent defer extra E S OP OR B NFz).
  destruct (collect l z w style parent defer extra) as [r w']. destruct C as (C1 & C2 & C3). split; auto. split; auto.
  destruct r as [e|x].
  - destruct C3 as (A1 & A2 & A3). split; auto. split; auto. intros Z. apply A3. apply extent_none. auto.
  - cbn [fault]. destruct x as [x|x|x| | |]; try tauto.
    + destruct C3 as (P & i & Hi & R). split; auto. exists (refs style), i. auto.
    + destruct C3 as (M & C3). split; auto. exists (refs style). auto.
    + destruct C3 as (Z & q & Q). split; [apply extent_none; auto|]. exists (refs style), q. auto.
Qed.

Lemma grow_styles : forall l i x, same_styles l T -> dict_get l i = None -> (forall s, x <> KStyle s) ->
  same_styles ((i, x) :: l) T.
Proof.
  intros l i x E G N j. unfold get_style. cbn [dict_get]. destruct (String.eqb_spec j i) as [->|]; [|apply E].
  assert (H := E i). unfold get_style in H. rewrite G in H. rewrite <- H. destruct x as [s| |]; auto. destruct (N s); auto.
Qed.

Definition region_good (r : vregion) : Prop :=
  (vd_extent d = None -> vr_origin r <> Px /\ vr_extent r <> Px) /\
  (forall i, In i (refs (r_refs (vr_el r))) -> sound T i) /\
  (vd_extent d = None -> forall q, ~ line_height T (refs (r_refs (vr_el r))) (LSize Px q)).

Lemma region_post : forall r s done rest, In r (vd_regions d) -> inv done s ->
  entries d = (done ++ [(vr_id r, KRegion (vr_el r))] ++ rest)%list ->
  post inv done [(vr_id r, KRegion (vr_el r))] (region_good r) (visit_region z r s).
Proof.
  intros r s done rest Hr I E. cbn [app] in E. unfold visit_region.
  assert (R := registered done (vs_ids s) (vr_id r) (KRegion (vr_el r)) (inv_ids _ _ I) (inv_nodup _ _ I)).
  destruct (register_id (vs_ids s) (Some (vr_id r), KRegion (vr_el r))) as [l|].
  - destruct R as (R1 & R2 & R3 & R4).
    assert (Co := check_size_spec (vr_origin r)). assert (Ce := check_size_spec (vr_extent r)).
    assert (Bad : vd_extent d = None -> vr_origin r = Px \/ vr_extent r = Px -> fault d (VStyle ExtentMissing)).
    { intros Z H. cbn. split; auto. right. exists r. auto. }
    assert (Ex : forall e s0, vs_ids s0 = l -> (forall i, e <> VDuplicate i) -> halted done [(vr_id r, KRegion (vr_el r))] e s0).
    { intros e s0 El Ne. exists [(vr_id r, KRegion (vr_el r))], []. rewrite El. split; auto. split; auto. split; auto.
      intros i H. destruct (Ne i H). }
    destruct (check_size z (vr_origin r)) as [x|]; cbn [first_error].
    { destruct Co as (-> & Z & U). unfold post. cbn [fst snd]. split; auto. apply Ex; [auto|discriminate]. }
    destruct (check_size z (vr_extent r)) as [x|].
    { destruct Ce as (-> & Z & U). unfold post. cbn [fst snd]. split; auto. apply Ex; [auto|discriminate]. }
    assert (Sl : same_styles l T).
    { rewrite R3. apply grow_styles; auto; [apply (inv_styles _ _ I)|discriminate]. }
    assert (Us : In (refs (r_refs (vr_el r))) (users d)).
    { unfold users. apply in_or_app. left. apply in_map_iff. exists r. auto. }
    assert (C := collect_post l (vs_world s) (r_refs (vr_el r)) None false [own_padding (vr_el r)] Sl (inv_settled _ _ I)
      ltac:(intros c; discriminate) (inv_region _ _ I)
      ltac:(intros a [<-|[]]; split; reflexivity) Us).
    change (vs_world (with_ids s l)) with (vs_world s).
    destruct (collect l z (vs_world s) (r_refs (vr_el r)) None false [own_padding (vr_el r)]) as [[e|x] w];
      destruct C as (C1 & C2 & C3); unfold post; cbn [fst snd].
    + destruct C3 as (A1 & A2 & A3). split; [|split; auto].
      constructor; cbn [vs_ids vs_regions vs_world]; auto.
      * intros i e0. rewrite C2. apply (inv_region _ _ I).
      * intros i e0. unfold with_ids. cbn [vs_regions dict_get]. destruct (String.eqb i (vr_id r)).
        -- intros H. injection H as <-. auto.
        -- apply (inv_regions _ _ I).
      * intros i. rewrite R3. unfold get_region, with_ids. cbn [vs_regions dict_get].
        destruct (String.eqb i (vr_id r)); [discriminate|]. apply (inv_there _ _ I).
    + split; auto. apply Ex; [auto|discriminate].
  - unfold post. cbn [fst snd]. split; [eapply again; eauto|]. exists [], [(vr_id r, KRegion (vr_el r))].
    rewrite app_nil_r. split; auto. split; [apply (inv_ids _ _ I)|]. split; [apply (inv_nodup _ _ I)|].
    intros i H. injection H as <-. split; [apply met; auto|eauto].
Qed.

Definition node_good (n : vnode) : Prop :=
  (forall a ty, time_of n a = Some ty -> In ty (kinds tb)) /\
  (forall i, In i (n_style n) -> sound T i) /\
  (forall i, region_named n = Some i -> In i (map vr_id (vd_regions d))) /\
  (vd_extent d = None -> forall q, ~ line_height T (n_style n) (LSize Px q)).

(** In the body the regions are all there. *)
Definition binv (done : list (string * kind)) (s : vstate) : Prop :=
  inv done s /\ forall i, get_region (vs_ids s) i <> None <-> In i (map vr_id (vd_regions d)).

Lemma check_time_spec : forall n o,
  match check_time tb n o with
  | None => forall ty, o = Some ty -> In ty (kinds tb)
  | Some e => exists ty, o = Some ty /\ e = VTime n ty /\ ~ In ty (kinds tb)
  end.
Proof.
  intros n [ty|]; cbn [check_time]; [|discriminate]. assert (B := bases_kinds tb ty n). unfold timebase_ok.
  destruct (existsb (String.eqb tb) (bases ty n)).
  - intros ty' E. injection E as <-. apply B. auto.
  - exists ty. split; auto. split; auto. intros H. apply B in H. discriminate.
Qed.

Lemma check_times_spec : forall n,
  match check_times tb (n_kind n) (n_times n) with
  | None => forall a ty, time_of n a = Some ty -> In ty (kinds tb)
  | Some e => exists a ty, time_of n a = Some ty /\ e = VTime a ty /\ ~ In ty (kinds tb)
  end.
Proof.
  intros n. unfold check_times.
  assert (B := check_time_spec NBegin (t_begin (n_times n))). assert (E := check_time_spec NEnd (t_end (n_times n))).
  assert (D := check_time_spec NDur (t_dur (n_times n))).
  destruct (check_time tb NBegin (t_begin (n_times n))) as [x|]; cbn [first_error]; [destruct B as (ty & ? & ? & ?); exists NBegin, ty; auto|].
  destruct (check_time tb NEnd (t_end (n_times n))) as [x|]; cbn [first_error]; [destruct E as (ty & ? & ? & ?); exists NEnd, ty; auto|].
  destruct (n_kind n) eqn:K.
  - destruct (check_time tb NDur (t_dur (n_times n))) as [x|].
    + destruct D as (ty & ? & ? & ?). exists NDur, ty. cbn. rewrite K. auto.
    + intros [] ty H; cbn in H; auto. rewrite K in H. auto.
  - intros [] ty H; cbn in H; auto. rewrite K in H. discriminate.
  - intros [] ty H; cbn in H; auto. rewrite K in H. discriminate.
  - intros [] ty H; cbn in H; auto. rewrite K in H. discriminate.
Qed.

Lemma register_post : forall s done k id tm style region rest, binv done s ->
  entries d = (done ++ node_entry (mkN k id tm style region) ++ rest)%list ->
  match register s k id with
  | None => fault d (VDuplicate (the_id id)) /\ In (the_id id) (map fst done) /\ exists x, node_entry (mkN k id tm style region) = [(the_id id, x)]
  | Some l => binv (done ++ node_entry (mkN k id tm style region)) (with_ids s l)
  end.
Proof.
  intros s done k id tm style region rest [I Rg] E. unfold node_entry in *. cbn [n_kind n_id] in *.
  assert (Same : match k with Body => True | _ => id = None end ->
    match register s k id with
    | None => fault d (VDuplicate (the_id id)) /\ In (the_id id) (map fst done) /\ exists x : kind, [] = [(the_id id, x)]
    | Some l => binv (done ++ []) (with_ids s l) end).
  { intros H. assert (Er : register s k id = Some (vs_ids s)) by (destruct k; auto; subst id; auto).
    rewrite Er, app_nil_r. destruct s. cbn. split; auto. }
  assert (New : forall i, id = Some i -> k <> Body -> entries d = (done ++ (i, KOther) :: rest)%list ->
    match register s k id with
    | None => fault d (VDuplicate (the_id id)) /\ In (the_id id) (map fst done) /\ exists x, [(i, KOther)] = [(the_id id, x)]
    | Some l => binv (done ++ [(i, KOther)]) (with_ids s l) end).
  { intros i -> K Ei. assert (Er : register s k (Some i) = register_id (vs_ids s) (Some i, KOther)) by (destruct k; [congruence|reflexivity..]).
    rewrite Er. assert (R := registered done (vs_ids s) i KOther (inv_ids _ _ I) (inv_nodup _ _ I)).
    destruct (register_id (vs_ids s) (Some i, KOther)) as [l|]; [|split; [eapply again; eauto|split; [apply met; auto|exists KOther; auto]]].
    destruct R as (R1 & R2 & R3 & R4).
    assert (Gr : forall j, get_region l j = get_region (vs_ids s) j).
    { intros j. rewrite R3. unfold get_region. cbn [dict_get]. destruct (String.eqb_spec j i) as [->|]; auto. rewrite R4. auto. }
    split; [|intros j; unfold with_ids; cbn [vs_ids]; rewrite Gr; apply Rg].
    destruct I as [I1 I2 I3 I4 I5 I6 I7]. constructor; unfold with_ids; cbn [vs_ids vs_regions vs_world]; auto.
    - rewrite R3. apply grow_styles; auto; discriminate.
    - intros j. rewrite Gr. apply I7. }
  destruct k; [apply Same; auto| | |]; (destruct id as [i|]; [apply New; auto; discriminate|apply Same; auto]).
Qed.

Lemma enter_post : forall s done k id tm style region parent rest,
  let n := mkN k id tm (refs style) region in
  binv done s -> In n (body_nodes d) -> ok_o parent -> entries d = (done ++ node_entry n ++ rest)%list ->
  match enter tb z parent k id tm style region s with
  | (inl x, s') => fault d x /\ halted done (node_entry n) x s'
  | (inr e, s') => binv (done ++ node_entry n) s' /\ ok_c (e_computed e) /\ node_good n
  end.
Proof.
  intros s done k id tm style region parent rest n B Hn OP E. unfold enter.
  assert (R := register_post s done k id tm (refs style) region rest B E). fold n in R.
  destruct (register s k id) as [l|].
  2: { destruct R as (F & Hi & y & Ey). split; auto. exists [], (node_entry n). rewrite app_nil_r. split; auto.
       split; [apply (inv_ids _ _ (proj1 B))|]. split; [apply (inv_nodup _ _ (proj1 B))|].
       intros i H. injection H as <-. split; auto. exists y, []. exact Ey. }
  assert (Ex : forall e s0, vs_ids s0 = l -> (forall i, e <> VDuplicate i) -> halted done (node_entry n) e s0).
  { intros e s0 El Ne. exists (node_entry n), []. rewrite app_nil_r, El. split; auto.
    split; [apply (inv_ids _ _ (proj1 R))|]. split; [apply (inv_nodup _ _ (proj1 R))|]. intros i H. destruct (Ne i H). }
  assert (Ct := check_times_spec n). cbn [n_kind n_times n] in Ct.
  destruct (check_times tb k tm) as [x|].
  { destruct Ct as (a & ty & H1 & -> & H2). split; [cbn; exists n; auto|]. apply Ex; [auto|discriminate]. }
  destruct R as [I Rg]. unfold with_ids in I, Rg. cbn [vs_ids] in Rg.
  assert (Rn : match enter_region (with_ids s l) k region with
    | SErr x => fault d (VStyle x)
    | SOk w => w_styles w = w_styles (vs_world s) /\ (forall i e, w_region w = Some (i, e) -> ok_c (e_computed e)) /\
               forall i, region_named n = Some i -> In i (map vr_id (vd_regions d))
    end).
  { unfold enter_region, with_ids. cbn [vs_ids vs_regions vs_world].
    assert (Out : region_named n = None -> w_styles (vs_world s) = w_styles (vs_world s) /\
      (forall i e, w_region (vs_world s) = Some (i, e) -> ok_c (e_computed e)) /\
      forall i, region_named n = Some i -> In i (map vr_id (vd_regions d))).
    { intros N. split; auto. split; [apply (inv_region _ _ I)|]. intros i H. congruence. }
    assert (In_ : forall i, region_named n = Some i ->
      match match get_region l i, dict_get (vs_regions s) i with
            | Some _, Some e => SOk (mkW (w_styles (vs_world s)) (w_stack (vs_world s)) (Some (i, e)))
            | _, _ => SErr (RegionMissing i)
            end with
      | SErr x => fault d (VStyle x)
      | SOk w => w_styles w = w_styles (vs_world s) /\ (forall i e, w_region w = Some (i, e) -> ok_c (e_computed e)) /\
                 forall i, region_named n = Some i -> In i (map vr_id (vd_regions d))
      end).
    { intros i N. assert (Ri := Rg i). assert (Th := inv_there _ _ I i). cbn [vs_ids vs_regions] in Th.
      destruct (get_region l i) eqn:G.
      - destruct (dict_get (vs_regions s) i) as [e|] eqn:D; [|destruct Th; congruence].
        cbn [w_styles w_region]. split; auto. split.
        + intros j e0 H. injection H as _ <-. apply (inv_regions _ _ I i). auto.
        + intros j H. assert (j = i) by congruence. subst j. apply Ri. discriminate.
      - cbn [fault]. split; [exists n; auto|]. intros H. apply Ri in H. congruence. }
    destruct k, region as [i|]; try (apply Out; reflexivity); try (apply In_; reflexivity). }
  destruct (enter_region (with_ids s l) k region) as [w1|x]; [|split; auto; apply Ex; [auto|discriminate]].
  destruct Rn as (W1 & W2 & W3).
  assert (Us : In (refs style) (users d)).
  { unfold users. apply in_or_app. right. apply in_map_iff. exists n. auto. }
  assert (Sw : settled T (w_styles w1)) by (rewrite W1; apply (inv_settled _ _ I)).
  assert (C := collect_post l w1 style parent (defers k) [] (inv_styles _ _ I) Sw OP W2 ltac:(intros a []) Us).
  destruct (collect l z w1 style parent (defers k) []) as [[e|x] w2]; destruct C as (C1 & C2 & C3).
  - destruct C3 as (A1 & A2 & A3). split; [|split; auto; split; auto].
    split; [|exact Rg]. destruct I as [I1 I2 I3 I4 I5 I6 I7].
    constructor; unfold with_world, with_ids, push; cbn [vs_ids vs_regions vs_world w_styles w_region]; auto. rewrite C2. auto.
  - split; auto. apply Ex; [auto|discriminate].
Qed.

Lemma leave_post : forall done s k region, binv done s -> binv done (leave k region s).
Proof.
  intros done s k region [[I1 I2 I3 I4 I5 I6 I7] Rg]. split; [|exact Rg].
  constructor; auto; destruct k, region; cbn in *; auto; discriminate.
Qed.

Lemma visit_post : forall t parent s done rest, incl (nodes t) (body_nodes d) -> ok_o parent -> binv done s ->
  entries d = (done ++ flat_map node_entry (nodes t) ++ rest)%list ->
  post binv done (flat_map node_entry (nodes t)) (Forall node_good (nodes t)) (visit tb z parent t s).
Proof.
  induction t as [k id tm style region kids IH] using vel_ind'. intros parent s done rest Hi OP B E.
  cbn [nodes flat_map visit] in *. rewrite <- app_assoc in E. set (n := mkN k id tm (refs style) region) in *.
  assert (P := enter_post s done k id tm style region parent _ B (Hi n (or_introl eq_refl)) OP E). fold n in P.
  destruct (enter tb z parent k id tm style region s) as [[x|e] s1].
  - unfold post. cbn [fst snd]. destruct P as [F P]. split; auto. apply halted_app. auto.
  - destruct P as (B1 & Oc & G).
    assert (Fl : forall l, flat_map node_entry (flat_map nodes l) = flat_map (fun t => flat_map node_entry (nodes t)) l).
    { induction l as [|x l IHl]; cbn [flat_map]; auto. rewrite flat_map_app, IHl. auto. }
    assert (L := list_post vel (visit tb z (Some (e_computed e))) binv (fun t => flat_map node_entry (nodes t))
      (fun t => Forall node_good (nodes t)) kids).
    assert (Hk : forall x, In x kids -> incl (nodes x) (body_nodes d)).
    { intros x Hx y Hy. apply Hi. right. apply in_flat_map. exists x. auto. }
    specialize (L (fun x s done rest Hx Bx Ex => proj1 (Forall_forall _ _) IH x Hx (Some (e_computed e)) s done rest (Hk x Hx)
      ltac:(intros c Ec; injection Ec as <-; exact Oc) Bx Ex) s1 (done ++ node_entry n)%list rest B1).
    rewrite <- Fl, <- app_assoc in L. specialize (L E). unfold post in L |- *.
    destruct (visit_list (visit tb z (Some (e_computed e))) kids s1) as [[x|] s2]; cbn [fst snd] in *.
    + destruct L as [F L]. split; auto. apply halted_after. auto.
    + destruct L as [B2 G2]. rewrite app_assoc. split; [apply leave_post; auto|]. constructor; auto.
      apply Forall_flat_map. auto.
Qed.
End Doc.
