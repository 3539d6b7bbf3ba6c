(** Proofs about the handover node. *)

From Coq Require Import List ZArith String Bool Lia.
From Verif Require Import RingModel RingProofs SequenceModel SequenceSpec NodeModel NodeSpec NodeProofs.
Import ListNotations.
Open Scope string_scope.
Open Scope Z_scope.

Section Handover.
Variable M : Type.
Variable out : string.
Variable group : option string.

Definition outs (h : list (hinput M)) : list (hreaction M) := snd (run (handover_step out group) h0 h).
Definition state (h : list (hinput M)) : hstate := fst (run (handover_step out group) h0 h).
Definition trace (h : list (hinput M)) : htrace M := combine h (outs h).
Definition reacts (h : list (hinput M)) (i : hinput M) : hreaction M :=
  snd (handover_step out group (state h) i).

Lemma outs_snoc : forall h i, outs (h ++ [i]) = (outs h ++ [reacts h i])%list.
Proof. intros. apply run_out_snoc. Qed.
Lemma state_snoc : forall h i, state (h ++ [i]) = fst (handover_step out group (state h) i).
Proof. intros. apply run_state_snoc. Qed.
Lemma trace_snoc : forall h i, trace (h ++ [i]) = (trace h ++ [(i, reacts h i)])%list.
Proof.
  intros. unfold trace. rewrite outs_snoc, combine_app; auto.
  unfold outs. rewrite run_length. auto.
Qed.

Lemma emitted_app : forall (a b : list (hreaction M)), emitted (a ++ b) = (emitted a ++ emitted b)%list.
Proof. intros a b. induction a as [|[] a IH]; cbn [app emitted]; auto. rewrite IH. auto. Qed.

Lemma let_in_app : forall (a b : htrace M), let_in (a ++ b)%list = (let_in a ++ let_in b)%list.
Proof.
  intros a b. induction a as [|[[x|m] r] a IH]; cbn [app let_in]; auto.
  destruct r; cbn [app]; rewrite IH; auto.
Qed.

Lemma received_app : forall sid (a b : list (hinput M)), received sid (a ++ b) = (received sid a ++ received sid b)%list.
Proof.
  intros sid a b. induction a as [|[x|m] a IH]; cbn [app received]; auto.
  destruct (String.eqb sid (d_sid (h_doc x))); cbn [app]; rewrite IH; auto.
Qed.

Lemma last_of_snoc : forall A (l : list A) x, last_of (l ++ [x]) = Some x.
Proof. intros. unfold last_of. rewrite map_app. cbn [map]. apply last_last. Qed.

(** What the node keeps for a sequence of which [docs] arrived. *)
Definition kept (sid : string) (docs : list document) : option (option seqstate) :=
  match docs with
  | [] => None
  | x0 :: _ =>
      Some match clock_of (d_tb x0) (d_cm x0) with
           | Some (tb, cm) => Some (new_sequence sid tb cm (group_of docs))
           | None => None
           end
  end.

Lemma clock_of_some : forall tb cm tb' cm', clock_of tb cm = Some (tb', cm') ->
  tb' = tb /\ (tb = "clock" -> cm' = cm).
Proof.
  intros tb cm tb' cm' H. unfold clock_of in H.
  destruct (String.eqb_spec tb "clock") as [->|].
  - destruct cm as [c|]; [|discriminate].
    destruct (String.eqb_spec c "local") as [->|]; [inversion H; auto|].
    destruct (String.eqb_spec c "utc") as [->|]; [inversion H; auto|discriminate].
  - destruct (String.eqb_spec tb "media") as [->|]; [inversion H; split; auto; intros; discriminate|].
    destruct (String.eqb_spec tb "smpte") as [->|]; [inversion H; split; auto; intros; discriminate|discriminate].
Qed.

Lemma ostr_eqb_spec : forall a b, reflect (a = b) (ostr_eqb a b).
Proof.
  intros [a|] [b|]; cbn; try (constructor; congruence).
  destruct (String.eqb_spec a b); constructor; congruence.
Qed.

Lemma ostr_eqb_refl : forall a, ostr_eqb a a = true.
Proof. intros [a|]; cbn; auto. apply String.eqb_refl. Qed.

(** The verdict on [x] after [docs] of its sequence. *)
Definition verdict (docs : list document) (x : document) : option (option error) :=
  let x0 := hd x docs in
  match clock_of (d_tb x0) (d_cm x0) with
  | None => None
  | Some _ =>
      Some (if negb (same_clock x0 x) then Some EIncompatible
            else if proper_group x && negb (ostr_eqb (group_of (docs ++ [x])) (d_agid x))
                 then Some EAuthorsGroup else None)
  end.

Lemma find_app : forall A (p : A -> bool) l m,
  find p (l ++ m) = match find p l with Some x => Some x | None => find p m end.
Proof. intros A p l m. induction l as [|a l IH]; cbn [app find]; auto. destruct (p a); auto. Qed.

Lemma group_of_snoc : forall x0 r x, group_of ((x0 :: r) ++ [x]) =
  match group_of (x0 :: r) with
  | Some g => Some g
  | None => if same_clock x0 x && proper_group x then d_agid x else None
  end.
Proof.
  intros x0 r x. cbn [app group_of]. destruct (d_agid x0) as [g|] eqn:E0; auto.
  rewrite find_app. destruct (find (fun x1 => same_clock x0 x1 && proper_group x1) r) as [y|] eqn:Ef.
  - apply find_some in Ef as [_ Ef]. apply andb_true_iff in Ef as [_ Ef]. unfold proper_group in Ef.
    destruct (d_agid y); [auto|discriminate].
  - cbn [find]. destruct (same_clock x0 x && proper_group x); auto.
Qed.

Lemma check_kept : forall sid docs x tb cm, d_sid x = sid ->
  clock_of (d_tb (hd x docs)) (d_cm (hd x docs)) = Some (tb, cm) ->
  forall g, g = match docs with [] => d_agid x | _ => group_of docs end ->
  exists res, check_compat (new_sequence sid tb cm g) x = (new_sequence sid tb cm (group_of (docs ++ [x])), res) /\
    match verdict docs x with
    | Some None => res = Ok tt
    | Some (Some e) => res = Err e
    | None => False
    end.
Proof.
  intros sid docs x tb cm Hs Hc g Hg. unfold verdict. rewrite Hc.
  destruct (clock_of_some _ _ _ _ Hc) as [Et Em].
  unfold check_compat. cbn [new_sequence q_sid q_tb q_cm q_docs q_agid existsb]. rewrite Hs, String.eqb_refl. cbn [negb orb].
  unfold same_clock. rewrite <- Et.
  assert (Hg0 : docs = [] \/ exists x0 r, docs = x0 :: r) by (destruct docs; eauto).
  destruct Hg0 as [->|(x0 & r & ->)].
  - cbn [hd app group_of find] in *. subst g tb. rewrite String.eqb_refl. cbn [negb].
    destruct (String.eqb_spec (d_tb x) "clock") as [E|E]; cbn [andb].
    + rewrite (Em E), ostr_eqb_refl. cbn [negb orb]. destruct (d_agid x) as [a|] eqn:Ea.
      * unfold proper_group. rewrite Ea. cbn [ostr_eqb].
        destruct (String.eqb_spec a "") as [->|]; [eexists; split; [reflexivity|]; reflexivity|].
        rewrite !String.eqb_refl. eexists. split; reflexivity.
      * unfold proper_group. rewrite Ea. eexists. split; reflexivity.
    + cbn [negb orb]. destruct (d_agid x) as [a|] eqn:Ea.
      * unfold proper_group. rewrite Ea. cbn [ostr_eqb].
        destruct (String.eqb_spec a "") as [->|]; [eexists; split; [reflexivity|]; reflexivity|].
        rewrite !String.eqb_refl. eexists. split; reflexivity.
      * unfold proper_group. rewrite Ea. eexists. split; reflexivity.
  - rewrite group_of_snoc. cbn [hd] in *. subst g tb. unfold same_clock.
    destruct (String.eqb_spec (d_tb x0) (d_tb x)) as [Eq|Nq]; cbn [negb andb].
    + assert (Ec : (d_tb x0 =? "clock")%string && negb (ostr_eqb cm (d_cm x)) =
                   negb (negb (d_tb x0 =? "clock")%string || ostr_eqb (d_cm x0) (d_cm x))).
      { destruct (String.eqb_spec (d_tb x0) "clock") as [E|E]; cbn [andb negb orb]; auto. rewrite (Em E). auto. }
      rewrite Ec. destruct (negb (d_tb x0 =? "clock")%string || ostr_eqb (d_cm x0) (d_cm x)); cbn [negb].
      * destruct (d_agid x) as [a|] eqn:Ea; unfold proper_group; rewrite Ea.
        -- destruct (String.eqb_spec a "") as [->|Hn]; cbn [negb andb].
           ++ eexists. split; [|reflexivity]. destruct (group_of (x0 :: r)); reflexivity.
           ++ destruct (group_of (x0 :: r)) as [g|]; cbn [ostr_eqb].
              ** rewrite String.eqb_sym. destruct (String.eqb g a); cbn [negb]; eexists; split; reflexivity.
              ** rewrite String.eqb_refl. eexists. split; reflexivity.
        -- eexists. split; [|reflexivity]. destruct (group_of (x0 :: r)); reflexivity.
      * eexists. split; [|reflexivity]. destruct (group_of (x0 :: r)); reflexivity.
    + eexists. split; [|reflexivity]. destruct (group_of (x0 :: r)); reflexivity.
Qed.

Record inv (h : list (hinput M)) : Prop := {
  iv_seen : hs_seen (state h) = fst (run seen_step [] (let_in (trace h)));
  iv_known : forall sid, dict_get (hs_known (state h)) sid = kept sid (received sid h);
  iv_token : hs_token (state h) = match last_of (emitted (outs h)) with
                                  | Some (_, _, _, x) => h_token x | None => None end;
  iv_selected : hs_selected (state h) = match last_of (emitted (outs h)) with
                                        | Some (_, _, s, _) => Some s | None => None end;
  iv_last : hs_last (state h) = Z.of_nat (List.length (emitted (outs h)));
  iv_emitted : Forall (fun e => match e with (n, o, s, x) => o = out /\ s = d_sid (h_doc x) /\
                         d_agid (h_doc x) = group /\ h_token x <> None end) (emitted (outs h));
  iv_numbers : map (fun e => fst (fst (fst e))) (emitted (outs h)) = one_to (List.length (emitted (outs h))) }.

(** Whether the token rule lets a document through. *)
Definition wins (h : list (hinput M)) (x : hdoc) (t : Z) : bool :=
  match last_of (emitted (outs h)) with
  | None => true
  | Some (_, _, s, y) =>
      match h_token y with None => true | Some c => c <? t end || String.eqb s (d_sid (h_doc x))
  end.

Definition is_new (h : list (hinput M)) (d : document) : bool :=
  negb (existsb (Z.eqb (d_num d)) (newest (Some 100%nat) (accepted (d_sid d) (seen_trace (let_in (trace h)))))).

(** The reaction, in terms of the history. *)
Definition expected (h : list (hinput M)) (i : hinput M) : hreaction M :=
  match i with
  | HMsg m => HEmitMsg out m
  | HDoc x =>
      match verdict (received (d_sid (h_doc x)) h) (h_doc x) with
      | None => HAttribute
      | Some (Some e) => HRaise e
      | Some None =>
          match h_token x with
          | Some t =>
              if is_new h (h_doc x) && ostr_eqb (d_agid (h_doc x)) group && wins h x t
              then HEmit (Z.of_nat (List.length (emitted (outs h))) + 1) out (d_sid (h_doc x)) x
              else HIgnore
          | None => HIgnore
          end
      end
  end.

Lemma received_snoc : forall sid h x,
  received sid (h ++ [HDoc (M := M) x]) =
  if String.eqb sid (d_sid (h_doc x)) then (received sid h ++ [h_doc x])%list else received sid h.
Proof.
  intros. rewrite received_app. cbn [received].
  destruct (String.eqb sid (d_sid (h_doc x))); auto. apply app_nil_r.
Qed.

Lemma hd_snoc : forall A (x : A) l d, hd d (l ++ [x]) = hd x l.
Proof. intros A x [|a l] d; auto. Qed.

Lemma one_to_S : forall n, one_to (S n) = (one_to n ++ [Z.of_nat n + 1])%list.
Proof.
  intros n. unfold one_to. rewrite seq_S, map_app. cbn [map Nat.add]. f_equal. f_equal. lia.
Qed.

Lemma step_inv : forall h i, inv h -> reacts h i = expected h i /\ inv (h ++ [i]).
Proof.
  intros h i [Is Ik It Il In_ Ie Iu]. destruct i as [x|m].
  2:{ split; [reflexivity|]. constructor; rewrite ?state_snoc, ?outs_snoc, ?trace_snoc, ?emitted_app, ?let_in_app;
      cbn [let_in reacts handover_step snd fst emitted]; rewrite ?app_nil_r; auto.
      intros sid. rewrite received_app. cbn [received]. rewrite app_nil_r. auto. }
  set (d := h_doc x). set (docs := received (d_sid d) h).
  (* the sequence kept for the document *)
  assert (Hk : forall q, (forall sid, dict_get (dict_put (hs_known (state h)) (d_sid d) q) sid =
                                 if String.eqb sid (d_sid d) then Some q else kept sid (received sid h))).
  { intros q sid. rewrite dict_get_put, Ik. reflexivity. }
  assert (Hk2 : forall q, kept (d_sid d) (docs ++ [d]) = Some q ->
             forall sid, dict_get (dict_put (hs_known (state h)) (d_sid d) q) sid = kept sid (received sid (h ++ [HDoc x]))).
  { intros q Hq sid. rewrite Hk, received_snoc. fold d. destruct (String.eqb_spec sid (d_sid d)) as [->|]; auto. }
  assert (Hkept : kept (d_sid d) (docs ++ [d]) =
     Some match clock_of (d_tb (hd d docs)) (d_cm (hd d docs)) with
          | Some (tb, cm) => Some (new_sequence (d_sid d) tb cm (group_of (docs ++ [d])))
          | None => None end).
  { destruct docs; reflexivity. }
  assert (Hq : match dict_get (hs_known (state h)) (d_sid d) with Some q => q | None => sequence_of d end =
     match clock_of (d_tb (hd d docs)) (d_cm (hd d docs)) with
     | Some (tb, cm) => Some (new_sequence (d_sid d) tb cm (match docs with [] => d_agid d | _ => group_of docs end))
     | None => None end).
  { rewrite Ik. fold docs. unfold kept, sequence_of. destruct docs as [|x0 r]; reflexivity. }
  assert (Hstep : handover_step out group (state h) (HDoc (M := M) x) =
    match verdict docs d with
    | None => (mkH (hs_seen (state h)) (dict_put (hs_known (state h)) (d_sid d) None)
                   (hs_token (state h)) (hs_selected (state h)) (hs_last (state h)), HAttribute)
    | Some v =>
        match clock_of (d_tb (hd d docs)) (d_cm (hd d docs)) with
        | None => (state h, HAttribute)
        | Some (tb, cm) =>
            let known := dict_put (hs_known (state h)) (d_sid d) (Some (new_sequence (d_sid d) tb cm (group_of (docs ++ [d])))) in
            match v with
            | Some e => (mkH (hs_seen (state h)) known (hs_token (state h)) (hs_selected (state h)) (hs_last (state h)), HRaise e)
            | None =>
                let '(m, new) := check_seen (hs_seen (state h)) (d_sid d) (d_num d) in
                let idle := (mkH m known (hs_token (state h)) (hs_selected (state h)) (hs_last (state h)), HIgnore) in
                let emit sel t := (mkH m known (Some t) sel (hs_last (state h) + 1),
                                   HEmit (hs_last (state h) + 1) out (d_sid d) x) in
                if new && ostr_eqb (d_agid d) group then
                  match h_token x with
                  | None => idle
                  | Some t =>
                      let higher := match hs_token (state h) with None => true | Some c => c <? t end in
                      if higher then emit (Some (d_sid d)) t
                      else if ostr_eqb (hs_selected (state h)) (Some (d_sid d)) then emit (hs_selected (state h)) t
                      else idle
                  end
                else idle
            end
        end
    end).
  { unfold handover_step. fold d. cbv zeta. rewrite Hq.
    destruct (clock_of (d_tb (hd d docs)) (d_cm (hd d docs))) as [[tb cm]|] eqn:Ec.
    - destruct (check_kept (d_sid d) docs d tb cm eq_refl Ec (match docs with [] => d_agid d | _ => group_of docs end) eq_refl) as (res & E1 & E2).
      rewrite E1. destruct (verdict docs d) as [[e|]|]; [subst res; reflexivity|subst res; reflexivity|destruct E2].
    - unfold verdict. rewrite Ec. reflexivity. }
  assert (Hseen : forall m b, check_seen (hs_seen (state h)) (d_sid d) (d_num d) = (m, b) ->
            m = fst (run seen_step [] (let_in (trace h) ++ [(d_sid d, d_num d)])) /\ b = is_new h d).
  { intros m b Hc. rewrite Is in Hc. apply next_answer in Hc as [A B]. split; auto. unfold is_new.
    destruct (existsb (Z.eqb (d_num d)) (newest (Some 100%nat) (accepted (d_sid d) (seen_trace (let_in (trace h)))))) eqn:Ex.
    - apply existsb_Zeqb in Ex. destruct b; auto. exfalso. apply (proj1 B eq_refl Ex).
    - cbn [negb]. apply B. intros Hi. apply existsb_Zeqb in Hi. congruence. }
  unfold reacts. unfold expected. fold d docs.
  destruct (verdict docs d) as [v|] eqn:Ev.
  2:{ rewrite Hstep. cbn [snd]. split; auto.
      assert (Hr : reacts h (HDoc x) = HAttribute) by (unfold reacts; rewrite Hstep; auto).
      constructor; rewrite ?state_snoc, ?outs_snoc, ?trace_snoc, ?emitted_app, ?let_in_app, ?Hr, ?Hstep;
      cbn [let_in fst emitted hs_seen hs_known hs_token hs_selected hs_last]; rewrite ?app_nil_r; auto.
      apply Hk2. rewrite Hkept. unfold verdict in Ev.
      destruct (clock_of (d_tb (hd d docs)) (d_cm (hd d docs))); [discriminate|auto]. }
  assert (Ec : exists tb cm, clock_of (d_tb (hd d docs)) (d_cm (hd d docs)) = Some (tb, cm)).
  { unfold verdict in Ev. destruct (clock_of (d_tb (hd d docs)) (d_cm (hd d docs))) as [[tb cm]|]; [eauto|discriminate]. }
  destruct Ec as (tb & cm & Ec). rewrite Ec in Hstep, Hkept. cbv zeta in Hstep.
  destruct v as [e|].
  { rewrite Hstep. cbn [snd]. split; auto.
    assert (Hr : reacts h (HDoc x) = HRaise e) by (unfold reacts; rewrite Hstep; auto).
    constructor; rewrite ?state_snoc, ?outs_snoc, ?trace_snoc, ?emitted_app, ?let_in_app, ?Hr, ?Hstep;
    cbn [let_in fst emitted hs_seen hs_known hs_token hs_selected hs_last]; rewrite ?app_nil_r; auto. }
  destruct (check_seen (hs_seen (state h)) (d_sid d) (d_num d)) as [m b] eqn:Es.
  destruct (Hseen _ _ eq_refl) as [Em Eb]. subst b.
  assert (Hidle : handover_step out group (state h) (HDoc (M := M) x) =
     (mkH m (dict_put (hs_known (state h)) (d_sid d) (Some (new_sequence (d_sid d) tb cm (group_of (docs ++ [d])))))
          (hs_token (state h)) (hs_selected (state h)) (hs_last (state h)), HIgnore) -> inv (h ++ [HDoc x])).
  { intros Hi. assert (Hr : reacts h (HDoc x) = HIgnore) by (unfold reacts; rewrite Hi; auto).
    constructor; rewrite ?state_snoc, ?outs_snoc, ?trace_snoc, ?emitted_app, ?let_in_app, ?Hr, ?Hi;
    cbn [let_in fst emitted hs_seen hs_known hs_token hs_selected hs_last]; rewrite ?app_nil_r; auto. }
  assert (Hemit : forall t, d_agid d = group -> h_token x = Some t ->
     handover_step out group (state h) (HDoc (M := M) x) =
     (mkH m (dict_put (hs_known (state h)) (d_sid d) (Some (new_sequence (d_sid d) tb cm (group_of (docs ++ [d])))))
          (Some t) (Some (d_sid d)) (hs_last (state h) + 1), HEmit (hs_last (state h) + 1) out (d_sid d) x) ->
     inv (h ++ [HDoc x])).
  { intros t Hg Ht Hi. assert (Hr : reacts h (HDoc x) = HEmit (hs_last (state h) + 1) out (d_sid d) x)
      by (unfold reacts; rewrite Hi; auto).
    constructor; rewrite ?state_snoc, ?outs_snoc, ?trace_snoc, ?emitted_app, ?let_in_app, ?Hr, ?Hi;
    cbn [let_in fst emitted hs_seen hs_known hs_token hs_selected hs_last]; rewrite ?last_of_snoc; auto.
    - rewrite app_length. cbn [List.length]. rewrite In_. lia.
    - apply Forall_app. split; auto. constructor; [|constructor]. repeat split; auto. congruence.
    - rewrite map_app, app_length, Iu. cbn [map fst List.length]. rewrite Nat.add_1_r, one_to_S, In_. auto. }
  destruct (h_token x) as [t|] eqn:Et.
  2:{ assert (Hi := Hstep). destruct (is_new h d && ostr_eqb (d_agid d) group); rewrite Hi; split; auto. }
  destruct (is_new h d && ostr_eqb (d_agid d) group) eqn:En; cbn [andb].
  2:{ rewrite Hstep. split; auto. }
  assert (Hg : d_agid d = group).
  { apply andb_true_iff in En as [_ En]. destruct (ostr_eqb_spec (d_agid d) group); [auto|discriminate]. }
  assert (Ew : wins h x t = match hs_token (state h) with None => true | Some c => c <? t end
                            || ostr_eqb (hs_selected (state h)) (Some (d_sid d))).
  { unfold wins. rewrite It, Il. destruct (last_of (emitted (outs h))) as [[[[n o] s] y]|]; auto. }
  rewrite Ew. destruct (match hs_token (state h) with None => true | Some c => c <? t end) eqn:Eh; cbn [orb].
  { rewrite Hstep. cbn [snd]. split; [rewrite In_; auto|]. apply (Hemit t); auto. }
  destruct (ostr_eqb_spec (hs_selected (state h)) (Some (d_sid d))) as [Esel|Nsel].
  - rewrite Hstep. cbn [snd]. split; [rewrite In_; auto|]. apply (Hemit t); auto. rewrite Hstep, Esel. auto.
  - rewrite Hstep. split; auto.
Qed.

Theorem inv_holds : forall h, inv h.
Proof.
  induction h as [|i h IH] using rev_ind.
  - constructor; try reflexivity. constructor.
  - apply step_inv; auto.
Qed.

Theorem reacts_expected : forall h i, reacts h i = expected h i.
Proof. intros h i. apply step_inv, inv_holds. Qed.

End Handover.
