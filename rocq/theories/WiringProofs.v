(** Proofs about chains of nodes. *)

From Coq Require Import List ZArith Ascii String Bool Lia.
From Verif Require Import AdapterModel PropsAdapter WiringModel WiringSpec.
Import ListNotations.
Open Scope string_scope.
Open Scope list_scope.

Definition plain (t : dtype) : Prop := t = TText \/ t = TDoc3 \/ t = TDocD.

Lemma plain_provides n : plain (provides n).
Proof. unfold plain. destruct n; cbn; auto. Qed.

(** ** Starting *)

Lemma rev_last {A} (l : list A) a d : rev (a :: l) = last (a :: l) d :: tl (rev (a :: l)).
Proof.
  revert a. induction l as [|b l IH]; intros a; [reflexivity|].
  change (rev (a :: b :: l)) with (rev (b :: l) ++ [a]). rewrite IH. reflexivity.
Qed.

Lemma last_map {A B} (f : A -> B) l a d : last (map f (a :: l)) (f d) = f (last (a :: l) d).
Proof. revert a. induction l as [|b l IH]; intros a; [reflexivity|]. exact (IH b). Qed.

Lemma last_provides_map x c l :
  last_provides (map (adapter_of x) (c :: l)) = gives (last (c :: l) c).
Proof.
  unfold last_provides. cbn [map]. rewrite (rev_last _ _ (adapter_of x c)).
  change (adapter_of x c :: map (adapter_of x) l) with (map (adapter_of x) (c :: l)).
  rewrite last_map. destruct (last (c :: l) c); reflexivity.
Qed.

Lemma set_configured x c l from to :
  set_data_adapters (registry x) (configured x (c :: l)) to from =
  if fits (c :: l) from to then Some (map (adapter_of x) (c :: l)) else None.
Proof.
  unfold set_data_adapters, configured. cbn [map].
  change (adapter_of x c :: map (adapter_of x) l) with (map (adapter_of x) (c :: l)).
  rewrite last_provides_map. cbn [map].
  unfold fits.
  assert (a_expects (adapter_of x c) = takes c) as -> by (destruct c; reflexivity).
  destruct (teq (takes c) from), (teq (gives (last (c :: l) c)) to); reflexivity.
Qed.

Lemma start_out x from l : plain from ->
  producer_adapter (registry x) from (carriage_type (l_carriage l)) (configured x (l_out l)) =
  option_map (map (adapter_of x)) (used_out from l).
Proof.
  intros P. unfold producer_adapter, used_out. destruct (l_out l) as [|c r].
  - destruct P as [-> | [-> | ->]]; destruct (l_carriage l); reflexivity.
  - rewrite set_configured. destruct (fits (c :: r) from (carriage_type (l_carriage l))); reflexivity.
Qed.

Lemma start_in x l n :
  consumer_adapter (registry x) (carriage_type (l_carriage l)) (expects n) (configured x (l_in l)) =
  option_map (map (adapter_of x)) (used_in l n).
Proof.
  unfold consumer_adapter, used_in. destruct (l_in l) as [|c r].
  - destruct n; destruct (l_carriage l); reflexivity.
  - rewrite set_configured. destruct (fits (c :: r) (carriage_type (l_carriage l)) (expects n)); reflexivity.
Qed.

Lemma start_link_used x from l n : plain from ->
  start_link x from l n =
  match used_out from l, used_in l n with
  | Some a, Some b => Some (map (adapter_of x) a, map (adapter_of x) b)
  | _, _ => None
  end.
Proof.
  intros P. unfold start_link. rewrite (start_out x from l P), start_in.
  destruct (used_out from l), (used_in l n); reflexivity.
Qed.

Lemma unconfigured_starts x from c : plain from ->
  (forall l n, In (l, n) c -> l_out l = [] /\ l_in l = []) -> starts x from c = true.
Proof.
  revert from. induction c as [|[l n] r IH]; intros from P U; [reflexivity|].
  cbn [starts]. rewrite (start_link_used x from l n P).
  destruct (U l n (or_introl eq_refl)) as [Uo Ui]. unfold used_out, used_in. rewrite Uo, Ui.
  assert (exists a, writing from (l_carriage l) = Some a) as [a ->]
    by (destruct P as [-> | [-> | ->]]; destruct (l_carriage l); eexists; reflexivity).
  apply IH; [apply plain_provides|]. intros l' n' H. apply (U l' n'). right. exact H.
Qed.

(** ** The check is enough *)

Lemma told_form x s d k g : told x s d k g -> form_of x (k_form s) d g.
Proof. intros H. exact (proj1 H). Qed.

Ltac kw := repeat (rewrite kw_get_put || rewrite kw_get_del || (progress cbn [String.eqb Ascii.eqb Bool.eqb])).

Lemma kw_arg_get k n : kw_arg k n = match kw_get k n with Some v => v | None => VNone end.
Proof. reflexivity. Qed.

Lemma conv_told x c s s' d k g : faithful x -> told x s d k g -> conv_known c s = Some s' ->
  exists d' k', a_convert (adapter_of x c) d k = Some (d', k') /\ told x s' d' k' g.
Proof.
  intros [F FD] (Hf & Hr & Hs & Hb & Hd) H.
  destruct s as [f ra si ba de]; cbn [k_form k_raw k_sid k_base k_delay] in *.
  destruct c, f; cbn in H; try discriminate.
  - (* reading *)
    destruct d as [t| | |]; cbn in Hf; try tauto. destruct g as [[h b]|c|c]; cbn in Hf; try tauto.
    assert (Hbad : match kw_arg k "sequence_identifier" with VNone => false | VText t => negb (t =? h_sid h) | VInt _ => true end = false /\ si <> Wrong).
    { rewrite kw_arg_get. destruct si; cbn in Hs; [rewrite Hs; split; [reflexivity|discriminate]| |discriminate].
      destruct Hs as (h' & b' & -> & E). injection E as <- <-. rewrite String.eqb_refl. split; [reflexivity|discriminate]. }
    destruct Hbad as [Hbad Hsi].
    assert (s' = mkKnown FDoc Right No ba de) as -> by (destruct si; congruence).
    cbn [adapter_of xml3 a_convert]. unfold xml_to_doc3. rewrite Hf. cbv zeta. rewrite Hbad.
    eexists _, _. split; [reflexivity|]. unfold told. cbn [k_form k_raw k_sid k_base k_delay form_of holds raw_of sid_of].
    split; [auto|]. split; [exists t, h, b; kw; auto|]. split; [kw; reflexivity|].
    split; intros E; kw; auto.
  - injection H as <-. destruct d as [t| | |]; cbn in Hf; try tauto. destruct g as [[h b]|c|c]; cbn in Hf; try tauto.
    cbn [adapter_of xmld a_convert]. unfold xml_to_docd. rewrite Hf. eexists _, _. split; [reflexivity|].
    unfold told. cbn. auto.
  - injection H as <-. destruct d as [|h' av b'| |]; cbn in Hf; try tauto. destruct g as [[h b]|c|c]; cbn in Hf; try tauto.
    destruct Hf as [-> ->]. cbn [adapter_of xml3' a_convert doc3_to_xml]. eexists _, _. split; [reflexivity|].
    unfold told. cbn [k_form k_raw k_sid k_base k_delay form_of holds].
    split; [apply F|]. split; [destruct ra; cbn [raw_of] in *; kw; assumption|].
    split; [exists h, b; kw; auto|]. split; [discriminate|]. intros E; kw; auto.
  - injection H as <-. destruct d as [| | |cd]; cbn in Hf; try tauto. destruct g as [[h b]|c|c]; cbn in Hf; try tauto.
    subst cd. cbn [adapter_of dxml a_convert docd_to_xml]. eexists _, _. split; [reflexivity|].
    unfold told. cbn [k_form k_raw k_sid k_base k_delay form_of holds]. split; [apply FD|]. auto.
Qed.

Lemma convs_told x cs s s' d k g : faithful x -> told x s d k g -> convs_known cs s = Some s' ->
  exists d' k', convert (map (adapter_of x) cs) d k = Some (d', k') /\ told x s' d' k' g.
Proof.
  intros F. revert s d k. induction cs as [|c r IH]; intros s d k T H; cbn [convs_known] in H.
  - injection H as <-. exists d, k. auto.
  - destruct (conv_known c s) as [s1|] eqn:E; [|discriminate].
    destruct (conv_told x c s s1 d k g F T E) as (d1 & k1 & Hc & T1).
    destruct (IH _ _ _ T1 H) as (d2 & k2 & Hr & T2). exists d2, k2. cbn [map convert]. rewrite Hc. auto.
Qed.

Lemma carry_told x c s s' d k g : told x s d k g -> carry_known c s = Some s' ->
  exists d' k', carry c d k = Some (d', k') /\ told x s' d' k' g.
Proof.
  intros (Hf & Hr & Hs & Hb & Hd) H. destruct c.
  - cbn in H. injection H as <-. exists d, k. repeat (split; [solve [auto]|]). exact Hd.
  - destruct s as [f ra si ba de]. destruct f; cbn in H; try discriminate; injection H as <-;
      destruct d; cbn in Hf; try tauto; destruct g as [[h b]|c|c]; try tauto;
      eexists _, _; (split; [reflexivity|]); unfold told; cbn; auto.
  - destruct s as [f ra si ba de]. cbn [k_sid] in *. destruct f; cbn in H; try discriminate; injection H as <-;
      destruct d; cbn in Hf; try tauto; destruct g as [[h b]|c|c]; try tauto;
      eexists _, _; (split; [reflexivity|]); unfold told; cbn;
      (split; [exact Hf|]); (split; [reflexivity|]); (split; [|auto]).
    + destruct si; cbn in *; auto. destruct Hs as (h' & b' & -> & E). exists h', b'. auto.
    + destruct si; cbn in *; auto. destruct Hs as (h' & b' & _ & E). discriminate.
Qed.

Lemma has_false k n : kw_get k n = None -> has k n = false.
Proof. unfold has. intros ->. reflexivity. Qed.

Lemma node_told x n s s' d k g : faithful x -> told x s d k g -> node_known n s = Some s' ->
  exists g', work n g = Some g' /\
  (n = Consume /\ comes_to x (process x n d k) g' \/
   n <> Consume /\ exists d' k', process x n d k = Emits d' k' /\ told x s' d' k' g').
Proof.
  intros [F FD] (Hf & Hr & Hs & Hb & Hd) H.
  destruct s as [f ra si ba de]; cbn [k_form k_raw k_sid k_base k_delay] in *.
  assert (RW : forall w, form_of x FDoc d g -> exists h av b, d = PDoc h av b /\ g = Live (h, b) /\
     forall h' b', w (h, b) = (h', b') -> told x (mkKnown FDoc (wrong ra) (wrong si) ba de) (PDoc h' av b') k (Live (w (h, b)))).
  { intros w Hd'. destruct d as [|h' av b'| |]; cbn in Hd'; try tauto. destruct g as [[h b]|c|c]; cbn in Hd'; try tauto.
    destruct Hd' as [-> ->]. exists h, av, b. split; [reflexivity|]. split; [reflexivity|]. intros h' b' E. rewrite E.
    unfold told. cbn [k_form k_raw k_sid k_base k_delay form_of holds]. split; [auto|].
    split; [destruct ra; cbn in *; auto|]. split; [destruct si; cbn in *; auto|]. auto. }
  destruct n as [w|w|o w| |c| |z].
  - destruct f; cbn in H; try discriminate. injection H as <-. destruct (RW w Hf) as (h & av & b & -> & -> & T).
    exists (Live (w (h, b))). split; [reflexivity|]. right. split; [discriminate|]. cbn [process].
    destruct (w (h, b)) as [h' b'] eqn:E. eexists _, _. split; [reflexivity|]. apply T. reflexivity.
  - destruct f; cbn in H; try discriminate. injection H as <-. destruct (RW w Hf) as (h & av & b & -> & -> & T).
    exists (Live (w (h, b))). split; [reflexivity|]. right. split; [discriminate|]. cbn [process].
    destruct (w (h, b)) as [h' b'] eqn:E. eexists _, _. split; [reflexivity|]. apply T. reflexivity.
  - destruct f; cbn in H; try discriminate. injection H as <-. destruct (RW w Hf) as (h & av & b & -> & -> & T).
    exists (Live (w (h, b))). split; [reflexivity|]. right. split; [discriminate|]. cbn [process].
    destruct (w (h, b)) as [h' b'] eqn:E. eexists _, _. split; [reflexivity|]. apply T. reflexivity.
  - destruct f; cbn in H; try discriminate. destruct (RW (fun c => c) Hf) as (h & av & b & -> & -> & _).
    exists (Live (h, b)). split; [reflexivity|]. right. split; [discriminate|].
    cbn [process]. eexists _, _. split; [reflexivity|].
    assert (Hx : x_parse x (match kw_arg k "raw_xml" with VText s => s | _ => x_doc x h b end) = Some (ParsedTT h b) /\
                 s' = mkKnown FXml No Right true de).
    { rewrite kw_arg_get. destruct ra; cbn [raw_of] in Hr; [| |discriminate].
      - rewrite Hr. split; [apply F|congruence].
      - destruct Hr as (t & h' & b' & -> & E & Hp). injection E as <- <-. split; [exact Hp|congruence]. }
    destruct Hx as [Hx ->]. unfold told. cbn [k_form k_raw k_sid k_base k_delay form_of holds raw_of sid_of].
    split; [exact Hx|]. split; [kw; reflexivity|]. split; [exists h, b; kw; auto|]. split; [discriminate|].
    intros E; kw; auto.
  - destruct f; cbn in H; try discriminate. destruct (RW (fun c => c) Hf) as (h & av & b & -> & -> & _).
    exists (Deliverable (c (h, b))). split; [reflexivity|]. right. split; [discriminate|].
    destruct si; try discriminate. destruct ba; try discriminate. injection H as <-. cbn [process].
    rewrite (has_false _ _ Hs), (has_false _ _ (Hb eq_refl)). cbn [orb]. eexists _, _. split; [reflexivity|].
    unfold told. cbn [k_form k_raw k_sid k_base k_delay form_of holds sid_of]. split; [reflexivity|].
    split; [destruct ra; cbn [wrong raw_of] in *; kw; auto|]. split; [exact Logic.I|]. split; [discriminate|].
    intros E; kw; auto.
  - destruct f; cbn in H; try discriminate. destruct (RW (fun c => c) Hf) as (h & av & b & -> & -> & _).
    exists (Taken (h, b)). split; [reflexivity|]. left. split; reflexivity.
  - cbn [node_known k_form k_delay] in H. destruct de; [discriminate|]. injection H as <-.
    assert (Hw : work (Buffer z) g = Some g).
    { destruct f, d, g as [c|c|c]; cbn in Hf; try tauto; reflexivity. }
    exists g. split; [exact Hw|]. right. split; [discriminate|].
    assert (Hp : process x (Buffer z) d k = Emits d (kw_put k "delay" (VInt z))).
    { destruct d; cbn [process]; rewrite (has_false _ _ (Hd eq_refl)); reflexivity. }
    rewrite Hp. eexists _, _. split; [reflexivity|].
    unfold told. cbn [k_form k_raw k_sid k_base k_delay]. split; [exact Hf|].
    split; [destruct ra; cbn [raw_of] in *; kw; assumption|].
    split; [destruct si; cbn [sid_of] in *; kw; assumption|].
    split; [intros E; kw; auto|discriminate].
Qed.

Lemma checked_right x from c s d k g : faithful x -> plain from -> told x s d k g ->
  checked from c s = true ->
  starts x from c = true /\ exists g', works (map snd c) g = Some g' /\ comes_to x (send x from c d k) g'.
Proof.
  intros F. revert from s d k g. induction c as [|[l n] r IH]; intros from s d k g P T H.
  - split; [reflexivity|]. exists g. split; [reflexivity|]. destruct T as (Hf & _).
    cbn. destruct (k_form s), d, g as [c|c|c]; cbn in Hf; try tauto; exact Hf.
  - cbn [checked] in H. destruct (link_known from l n s) as [s'|] eqn:E; [|discriminate].
    unfold link_known in E. cbn [starts send works map snd].
    rewrite (start_link_used x from l n P).
    destruct (used_out from l) as [a|]; [|discriminate]. destruct (used_in l n) as [b|]; [|discriminate].
    destruct (convs_known a s) as [s1|] eqn:E1; [|discriminate].
    destruct (carry_known (l_carriage l) s1) as [s2|] eqn:E2; [|discriminate].
    destruct (convs_known b s2) as [s3|] eqn:E3; [|discriminate].
    destruct (convs_told x a s s1 d k g F T E1) as (d1 & k1 & C1 & T1).
    destruct (carry_told x _ s1 s2 d1 k1 g T1 E2) as (d2 & k2 & C2 & T2).
    destruct (convs_told x b s2 s3 d2 k2 g F T2 E3) as (d3 & k3 & C3 & T3).
    unfold deliver. rewrite C1, C2, C3.
    destruct (node_told x n s3 s' d3 k3 g F T3 E) as (g' & W & [[-> Hc] | (Hn & d' & k' & Hp & T')]).
    + rewrite W. destruct r as [|y r]; [|discriminate]. split; [reflexivity|]. exists g'. split; [reflexivity|].
      destruct (process x Consume d3 k3); cbn in *; auto.
    + rewrite W, Hp. assert (checked (provides n) r s' = true) as H' by (destruct n; try exact H; congruence).
      exact (IH (provides n) s' d' k' g' (plain_provides n) T' H').
Qed.

(** ** And no less than the check *)

(** Rewriting that leaves its mark on the identifier and the content. *)
Definition mark (c : content) : content :=
  (mkHeader ("'" ++ h_sid (fst c)) (h_num (fst c)) (h_tb (fst c)) (h_cm (fst c)), "!" ++ snd c)%string.
Definition marked (n : node) : node :=
  match n with
  | Retime _ => Retime mark
  | Dedup _ => Dedup mark
  | Handover o _ => Handover o mark
  | Encode _ => Encode snd
  | _ => n
  end.

Notation len := String.length.

Definition raw_exact (x : xml_lib) (a : along) (k : kwargs) (g : goods) : Prop :=
  match a with
  | Wrong => exists t h b, kw_get k "raw_xml" = Some (VText t) /\ x_parse x t = Some (ParsedTT h b) /\
      forall h' b', g = Live (h', b') -> len b < len b'
  | _ => raw_of x a k g
  end.

Definition exact (x : xml_lib) (s : known) (d : payload) (k : kwargs) (g : goods) : Prop :=
  form_of x (k_form s) d g /\
  raw_exact x (k_raw s) k g /\
  match k_sid s with
  | Wrong => exists t, kw_get k "sequence_identifier" = Some (VText t) /\
      forall h b, g = Live (h, b) -> t = "default" \/ len t < len (h_sid h)
  | a => sid_of a k g
  end /\
  has k "time_base" = k_base s /\ has k "delay" = k_delay s /\
  (forall h b, g = Live (h, b) -> h_sid h <> "default").

Definition behind (x : xml_lib) (d : payload) (k : kwargs) (g : goods) : Prop :=
  match g with
  | Live (h, b) =>
      match d with
      | PDoc _ _ b' => len b' < len b
      | PText t => exists h' b', x_parse x t = Some (ParsedTT h' b') /\ len b' < len b
      | _ => False
      end /\
      (forall v, kw_get k "raw_xml" = Some v ->
         exists t h' b', v = VText t /\ x_parse x t = Some (ParsedTT h' b') /\ len b' < len b)
  | Deliverable s =>
      match d with
      | PDocD (Some s') => len s' < len s
      | PText t => exists s', x_parse_d x t = Some s' /\ len s' < len s
      | _ => False
      end
  | Taken _ => False
  end.

Lemma behind_end x d k g : behind x d k g -> ~ holds x d g.
Proof.
  destruct g as [[h b]|s|c]; cbn; [intros [H _]|intros H|tauto]; destruct d as [t|h' av b'|? ? ?|[s'|]]; try tauto; intros E.
  - destruct H as (h' & b' & E' & L). rewrite E in E'. injection E' as <- <-. lia.
  - destruct E as [_ ->]. lia.
  - destruct H as (s' & E' & L). rewrite E in E'. injection E' as <-. lia.
  - injection E as ->. lia.
Qed.

Lemma behind_conv x c d k g d' k' : faithful x -> separate x -> behind x d k g ->
  a_convert (adapter_of x c) d k = Some (d', k') -> behind x d' k' g.
Proof.
  intros [F FD] S B H. destruct g as [[h b]|s|cc]; [|  |destruct B].
  - destruct B as [B R]. destruct c; cbn [adapter_of xml3 xmld xml3' dxml a_convert] in H.
    + destruct d as [t| | |]; try discriminate. destruct B as (h' & b' & E & L).
      unfold xml_to_doc3 in H. rewrite E in H. cbv zeta in H.
      match type of H with (if ?c then _ else _) = _ => destruct c; [discriminate|] end.
      injection H as <- <-. cbn [behind]. split; [exact L|]. intros v. kw. intros Ev. injection Ev as <-.
      exists t, h', b'. auto.
    + destruct d as [t| | |]; try discriminate. destruct B as (h' & b' & E & L). cbn in H.
      destruct (x_parse_d x t) eqn:E'; [|discriminate]. rewrite (S _ _ E') in E. discriminate.
    + destruct d as [|h' av b'| |]; try discriminate; cbn [behind] in *; [|tauto].
      cbn [doc3_to_xml] in H. injection H as <- <-. split; [exists h', b'; auto|]. intros v. kw. apply R.
    + destruct d; try discriminate. tauto.
  - destruct c; cbn [adapter_of xml3 xmld xml3' dxml a_convert] in H.
    + destruct d as [t| | |]; try discriminate. destruct B as (s' & E & L).
      unfold xml_to_doc3 in H. rewrite (S _ _ E) in H. discriminate.
    + destruct d as [t| | |]; try discriminate. destruct B as (s' & E & L). cbn in H. rewrite E in H.
      injection H as <- <-. exact L.
    + destruct d; try discriminate; destruct B.
    + destruct d as [| | |[s'|]]; try discriminate. cbn in H. injection H as <- <-. exists s'. auto.
Qed.

Lemma behind_convs x cs d k g d' k' : faithful x -> separate x -> behind x d k g ->
  convert (map (adapter_of x) cs) d k = Some (d', k') -> behind x d' k' g.
Proof.
  intros F S. revert d k. induction cs as [|c r IH]; intros d k B H; cbn [map convert] in H.
  - injection H as <- <-. exact B.
  - destruct (a_convert (adapter_of x c) d k) as [[d1 k1]|] eqn:E; [|discriminate].
    exact (IH d1 k1 (behind_conv x c d k g d1 k1 F S B E) H).
Qed.

Lemma behind_carry x c d k g d' k' : behind x d k g -> carry c d k = Some (d', k') -> behind x d' k' g.
Proof.
  intros B H. destruct c; cbn in H; [injection H as <- <-; exact B| |];
    destruct d; try discriminate; injection H as <- <-; destruct g as [[h b]|s'|cc]; cbn in *; auto;
    (split; [tauto|discriminate]).
Qed.

Lemma behind_node x n d k g g' : faithful x -> behind x d k g -> work (marked n) g = Some g' ->
  match process x (marked n) d k with
  | Emits d' k' => behind x d' k' g'
  | Consumed c => g' <> Taken c
  | _ => True
  end.
Proof.
  intros [F FD] B W. destruct g as [[h b]|s|cc]; [| |destruct B].
  - destruct B as [B R].
    destruct n as [w|w|o w| |f| |z]; cbn [marked work] in W; injection W as <-;
      destruct d as [t|h' av b'|? ? ?|?]; cbn [marked process]; try tauto.
    + cbn [behind]. destruct B as (h' & b' & E & L). split.
      * exists h', b'. cbn. split; [exact E|lia].
      * intros v Hv. destruct (R v Hv) as (t' & h2 & b2 & -> & E2 & L2). exists t', h2, b2. cbn. repeat split; auto; lia.
    + cbn. split; [lia|]. intros v Hv. destruct (R v Hv) as (t' & h2 & b2 & -> & E2 & L2). exists t', h2, b2. repeat split; auto; lia.
    + cbn. split; [lia|]. intros v Hv. destruct (R v Hv) as (t' & h2 & b2 & -> & E2 & L2). exists t', h2, b2. repeat split; auto; lia.
    + cbn. split; [lia|]. intros v Hv. destruct (R v Hv) as (t' & h2 & b2 & -> & E2 & L2). exists t', h2, b2. repeat split; auto; lia.
    + cbn [behind]. split.
      * rewrite kw_arg_get. destruct (kw_get k "raw_xml") as [v|] eqn:Ev; [|exists h', b'; split; [apply F|exact B]].
        destruct (R v eq_refl) as (t & h2 & b2 & -> & E2 & L2). exists h2, b2. auto.
      * intros v. kw. discriminate.
    + destruct (has k "sequence_identifier" || has k "time_base"); [exact Logic.I|]. cbn. exact B.
    + intros E. injection E as -> ->. lia.
    + destruct (has k "delay"); [exact Logic.I|]. cbn [behind]. split; [exact B|]. intros v. kw. apply R.
    + destruct (has k "delay"); [exact Logic.I|]. cbn [behind]. split; [exact B|]. intros v. kw. apply R.
  - destruct n as [w|w|o w| |f| |z]; cbn [marked work] in W; try discriminate. injection W as <-.
    destruct d as [t|h' av b'|? ? ?|?]; cbn [marked process]; try destruct B;
      destruct (has k "delay"); try exact Logic.I; cbn [behind]; eauto.
Qed.

Lemma behind_send x c from d k g g' : faithful x -> separate x -> plain from -> behind x d k g ->
  works (map (fun p => marked (snd p)) c) g = Some g' ->
  ~ comes_to x (send x from (map (fun p => (fst p, marked (snd p))) c) d k) g'.
Proof.
  intros F S. revert from d k g. induction c as [|[l n] r IH]; intros from d k g P B W.
  - cbn in W. injection W as <-. exact (behind_end x d k g B).
  - cbn [map works fst snd send] in *. rewrite (start_link_used x from l (marked n) P).
    destruct (used_out from l) as [a|]; [|cbn; tauto]. destruct (used_in l (marked n)) as [b|]; [|cbn; tauto].
    unfold deliver.
    destruct (convert (map (adapter_of x) a) d k) as [[d1 k1]|] eqn:E1; [|cbn; tauto].
    destruct (carry (l_carriage l) d1 k1) as [[d2 k2]|] eqn:E2; [|cbn; tauto].
    destruct (convert (map (adapter_of x) b) d2 k2) as [[d3 k3]|] eqn:E3; [|cbn; tauto].
    assert (B3 : behind x d3 k3 g).
    { apply (behind_convs x b d2 k2 g d3 k3 F S); [|exact E3]. apply (behind_carry x (l_carriage l) d1 k1 g d2 k2); [|exact E2].
      exact (behind_convs x a d k g d1 k1 F S B E1). }
    destruct (work (marked n) g) as [g1|] eqn:W1; [|discriminate].
    pose proof (behind_node x n d3 k3 g g1 F B3 W1) as N.
    destruct (process x (marked n) d3 k3) as [d4 k4|c| |] eqn:E4; cbn [comes_to]; try tauto.
    + exact (IH _ _ _ _ (plain_provides _) N W).
    + intros ->. assert (g1 = Taken c) as ->; [|exact (N eq_refl)].
      assert (marked n = Consume) as Hn.
      { destruct n, d3 as [?|h4 ? b4|? ? ?|?]; cbn in E4 |- *; try discriminate; try reflexivity;
          repeat (match type of E4 with context [if ?t then _ else _] => destruct t; try discriminate end). }
      rewrite Hn in W1. destruct g as [cc|s|cc]; cbn in W1; try discriminate. injection W1 as <-.
      destruct r as [|[l2 n2] r]; cbn in W; [congruence|]. destruct (marked n2); discriminate.
Qed.

Lemma shorter_neq s t : len s < len t -> s =? t = false.
Proof. intros H. apply String.eqb_neq. intros ->. lia. Qed.

Lemma exact_conv x c s d k g : faithful x -> separate x -> exact x s d k g ->
  match conv_known c s with
  | Some s' => exists d' k', a_convert (adapter_of x c) d k = Some (d', k') /\ exact x s' d' k' g
  | None => a_convert (adapter_of x c) d k = None
  end.
Proof.
  intros [F FD] S (Hf & Hr & Hs & Hb & Hd & Hg).
  destruct s as [f ra si ba de]; cbn [k_form k_raw k_sid k_base k_delay] in *.
  destruct c.
  - destruct f; cbn [conv_known k_form k_sid k_base k_delay];
      destruct d as [t|h' av b'|? ? ?|?]; cbn in Hf; try tauto; destruct g as [[h b]|cc|cc]; cbn in Hf; try tauto;
      cbn [adapter_of xml3 a_convert]; try reflexivity.
    + unfold xml_to_doc3. rewrite Hf. cbv zeta. rewrite kw_arg_get.
      assert (R : forall d' k', d' = PDoc h (kw_arg k "availability_time") b ->
         k' = kw_put (kw_del (kw_del k "availability_time") "sequence_identifier") "raw_xml" (VText t) ->
         exact x (mkKnown FDoc Right No ba de) d' k' (Live (h, b))).
      { intros d' k' -> ->. unfold exact. cbn [k_form k_raw k_sid k_base k_delay form_of holds raw_exact raw_of sid_of].
        split; [auto|]. split; [exists t, h, b; kw; auto|]. split; [kw; reflexivity|].
        split; [unfold has in *; kw; exact Hb|]. split; [unfold has in *; kw; exact Hd|]. exact Hg. }
      destruct si; cbn [sid_of] in Hs.
      * rewrite Hs. eexists _, _. split; [reflexivity|]. apply R; reflexivity.
      * destruct Hs as (h' & b' & -> & E). injection E as <- <-. rewrite String.eqb_refl. cbn [negb].
        eexists _, _. split; [reflexivity|]. apply R; reflexivity.
      * destruct Hs as (u & -> & Hu). assert (u =? h_sid h = false) as ->; [|reflexivity].
        destruct (Hu h b eq_refl) as [-> | L]; [|apply shorter_neq; exact L].
        apply String.eqb_neq. intros E. exact (Hg h b eq_refl (eq_sym E)).
    + unfold xml_to_doc3. rewrite (S _ _ Hf). reflexivity.
  - destruct f; cbn [conv_known k_form];
      destruct d as [t|h' av b'|? ? ?|?]; cbn in Hf; try tauto; destruct g as [[h b]|cc|cc]; cbn in Hf; try tauto;
      cbn [adapter_of xmld a_convert]; try reflexivity; unfold xml_to_docd.
    + destruct (x_parse_d x t) eqn:E; [|reflexivity]. rewrite (S _ _ E) in Hf. discriminate.
    + rewrite Hf. eexists _, _. split; [reflexivity|]. unfold exact. cbn [k_form k_raw k_sid k_base k_delay form_of holds]. auto 8.
  - destruct f; cbn [conv_known k_form];
      destruct d as [t|h' av b'|? ? ?|?]; cbn in Hf; try tauto; destruct g as [[h b]|cc|cc]; cbn in Hf; try tauto;
      cbn [adapter_of xml3' a_convert]; try reflexivity.
    destruct Hf as [-> ->]. cbn [doc3_to_xml]. eexists _, _. split; [reflexivity|].
    unfold exact. cbn [k_form k_raw k_sid k_base k_delay form_of holds].
    split; [apply F|]. split; [destruct ra; cbn [raw_exact raw_of] in *; kw; exact Hr|].
    split; [exists h, b; kw; auto|]. split; [unfold has; kw; reflexivity|].
    split; [unfold has in *; kw; exact Hd|exact Hg].
  - destruct f; cbn [conv_known k_form];
      destruct d as [t|h' av b'|? ? ?|?]; cbn in Hf; try tauto; destruct g as [[h b]|cc|cc]; cbn in Hf; try tauto;
      cbn [adapter_of dxml a_convert]; try reflexivity.
    subst. cbn [docd_to_xml]. eexists _, _. split; [reflexivity|].
    unfold exact. cbn [k_form k_raw k_sid k_base k_delay form_of holds]. split; [apply FD|]. auto 8.
Qed.

Lemma exact_convs x cs s d k g : faithful x -> separate x -> exact x s d k g ->
  match convs_known cs s with
  | Some s' => exists d' k', convert (map (adapter_of x) cs) d k = Some (d', k') /\ exact x s' d' k' g
  | None => convert (map (adapter_of x) cs) d k = None
  end.
Proof.
  intros F S. revert s d k. induction cs as [|c r IH]; intros s d k E; cbn [convs_known map convert].
  - exists d, k. auto.
  - pose proof (exact_conv x c s d k g F S E) as H. destruct (conv_known c s) as [s1|].
    + destruct H as (d1 & k1 & -> & E1). exact (IH s1 d1 k1 E1).
    + rewrite H. reflexivity.
Qed.

Lemma exact_carry x c s d k g : exact x s d k g ->
  match carry_known c s with
  | Some s' => exists d' k', carry c d k = Some (d', k') /\ exact x s' d' k' g
  | None => carry c d k = None
  end.
Proof.
  intros E. destruct c; [exists d, k; auto| |];
    destruct E as (Hf & Hr & Hs & Hb & Hd & Hg); destruct s as [f ra si ba de];
    cbn [k_form k_raw k_sid k_base k_delay] in *;
    destruct f; cbn [carry_known k_form k_sid];
    destruct d as [t|h' av b'|? ? ?|?]; cbn in Hf; try tauto; destruct g as [[h b]|cc|cc]; cbn in Hf; try tauto;
    try reflexivity; eexists _, _; (split; [reflexivity|]); unfold exact;
    cbn [k_form k_raw k_sid k_base k_delay form_of holds raw_exact raw_of];
    (split; [exact Hf|]); (split; [reflexivity|]).
  - split; [reflexivity|]. auto.
  - split; [reflexivity|]. auto.
  - split; [|auto]. destruct si; cbn [sid_of] in *.
    + exists "default". rewrite Hs. cbn. auto.
    + destruct Hs as (h' & b' & -> & E). exists h', b'. auto.
    + destruct Hs as (u & -> & Hu). exists u. cbn. auto.
  - split; [|auto]. destruct si; cbn [sid_of] in *.
    + exists "default". rewrite Hs. cbn. auto.
    + destruct Hs as (h' & b' & _ & E). discriminate.
    + destruct Hs as (u & -> & Hu). exists u. cbn. auto.
Qed.

Lemma raw_behind x ra k h b : raw_exact x ra k (Live (h, b)) -> forall v, kw_get k "raw_xml" = Some v ->
  exists t h' b', v = VText t /\ x_parse x t = Some (ParsedTT h' b') /\ len b' < S (len b).
Proof.
  intros H v Hv. destruct ra; cbn [raw_exact raw_of] in H.
  - congruence.
  - destruct H as (t & h1 & b1 & E & Eg & Hp). injection Eg as <- <-. rewrite E in Hv. injection Hv as <-.
    exists t, h, b. repeat split; auto; lia.
  - destruct H as (t & h1 & b1 & E & Hp & L). rewrite E in Hv. injection Hv as <-.
    exists t, h1, b1. specialize (L h b eq_refl). repeat split; auto; lia.
Qed.

Lemma exact_node x n s d k g : faithful x -> exact x s d k g ->
  match node_known n s with
  | Some s' => exists g', work (marked n) g = Some g' /\
      (n = Consume \/ exists d' k', process x (marked n) d k = Emits d' k' /\ exact x s' d' k' g')
  | None => work (marked n) g = None \/ process x (marked n) d k = Raises \/ process x (marked n) d k = Dropped \/
      exists d' k' g', process x (marked n) d k = Emits d' k' /\ work (marked n) g = Some g' /\ behind x d' k' g'
  end.
Proof.
  intros [F FD] (Hf & Hr & Hs & Hb & Hd & Hg).
  destruct s as [f ra si ba de]; cbn [k_form k_raw k_sid k_base k_delay] in *.
  assert (RW : forall h av b, form_of x FDoc (PDoc h av b) g ->
     exact x (mkKnown FDoc (wrong ra) (wrong si) ba de)
       (PDoc (fst (mark (h, b))) av (snd (mark (h, b)))) k (Live (mark (h, b)))).
  { intros h av b Hf'. destruct g as [[h' b']|cc|cc]; cbn in Hf'; try tauto. destruct Hf' as [-> ->].
    unfold exact. cbn [k_form k_raw k_sid k_base k_delay form_of holds]. unfold mark. cbn [fst snd].
    split; [auto|]. split.
    { destruct ra; cbn [wrong raw_exact raw_of] in *; auto.
      - destruct Hr as (t & h1 & b1 & E & Eg & Hp). injection Eg as <- <-. exists t, h', b'. repeat split; auto.
        intros h2 b2 E2. injection E2 as _ <-. cbn. lia.
      - destruct Hr as (t & h1 & b1 & E & Hp & L). exists t, h1, b1. repeat split; auto.
        intros h2 b2 E2. injection E2 as _ <-. specialize (L h' b' eq_refl). cbn. lia. }
    split.
    { destruct si; cbn [wrong sid_of] in *; auto.
      - destruct Hs as (h1 & b1 & E & Eg). injection Eg as <- <-. exists (h_sid h'). split; [exact E|].
        intros h2 b2 E2. injection E2 as <- _. right. cbn. lia.
      - destruct Hs as (t & E & Hu). exists t. split; [exact E|]. intros h2 b2 E2. injection E2 as <- _.
        destruct (Hu h' b' eq_refl) as [->|L]; [left; reflexivity|right; cbn; lia]. }
    split; [exact Hb|]. split; [exact Hd|]. intros h2 b2 E2. injection E2 as <- _. cbn. discriminate. }
  destruct n as [w|w|o w| |c| |z]; cbn [marked].
  - destruct f; cbn [node_known k_form k_raw k_sid k_base k_delay];
      destruct d as [t|h av b|? ? ?|?]; cbn in Hf; try tauto; destruct g as [[h' b']|cc|cc]; cbn in Hf; try tauto.
    + exists (Live (mark (h', b'))). split; [reflexivity|]. right. destruct Hf as [-> ->].
      eexists _, _. split; [reflexivity|]. apply RW. cbn. auto.
    + right. right. right. eexists _, _, _. split; [reflexivity|]. split; [reflexivity|].
      cbn. split; [exists h', b'; split; [exact Hf|lia]|]. exact (raw_behind x ra k h' b' Hr).
  - destruct f; cbn [node_known k_form k_raw k_sid k_base k_delay];
      destruct d as [t|h av b|? ? ?|?]; cbn in Hf; try tauto; destruct g as [[h' b']|cc|cc]; cbn in Hf; try tauto; auto.
    exists (Live (mark (h', b'))). split; [reflexivity|]. right. destruct Hf as [-> ->].
    eexists _, _. split; [reflexivity|]. apply RW. cbn. auto.
  - destruct f; cbn [node_known k_form k_raw k_sid k_base k_delay];
      destruct d as [t|h av b|? ? ?|?]; cbn in Hf; try tauto; destruct g as [[h' b']|cc|cc]; cbn in Hf; try tauto; auto.
    exists (Live (mark (h', b'))). split; [reflexivity|]. right. destruct Hf as [-> ->].
    eexists _, _. split; [reflexivity|]. apply RW. cbn. auto.
  - destruct f; cbn [node_known k_form k_raw k_sid k_base k_delay];
      destruct d as [t|h av b|? ? ?|?]; cbn in Hf; try tauto; destruct g as [[h' b']|cc|cc]; cbn in Hf; try tauto; auto.
    destruct Hf as [-> ->]. cbn [process work]. rewrite kw_arg_get.
    assert (R : forall t, x_parse x t = Some (ParsedTT h' b') -> exact x (mkKnown FXml No Right true de) (PText t)
       (kw_put (kw_put (kw_put (kw_put (kw_put (kw_del k "raw_xml")
              "sequence_identifier" (VText (h_sid h'))) "sequence_number" (VInt (h_num h')))
              "time_base" (h_tb h')) "availability_time" av) "clock_mode" (h_cm h')) (Live (h', b'))).
    { intros t Ht. unfold exact. cbn [k_form k_raw k_sid k_base k_delay form_of holds raw_exact raw_of sid_of].
      split; [exact Ht|]. split; [kw; reflexivity|]. split; [exists h', b'; kw; auto|].
      split; [unfold has; kw; reflexivity|]. split; [unfold has in *; kw; exact Hd|exact Hg]. }
    destruct ra; cbn [raw_exact raw_of] in Hr.
    + rewrite Hr. exists (Live (h', b')). split; [reflexivity|]. right. eexists _, _. split; [reflexivity|]. apply R, F.
    + destruct Hr as (t & h1 & b1 & -> & Eg & Hp). injection Eg as <- <-.
      exists (Live (h', b')). split; [reflexivity|]. right. eexists _, _. split; [reflexivity|]. apply R, Hp.
    + destruct Hr as (t & h1 & b1 & -> & Hp & L). right. right. right. eexists _, _, _. split; [reflexivity|]. split; [reflexivity|].
      cbn [behind]. split; [exists h1, b1; exact (conj Hp (L h' b' eq_refl))|]. intros v. kw. intros Q; discriminate Q.
  - destruct f; cbn [node_known k_form k_raw k_sid k_base k_delay];
      destruct d as [t|h av b|? ? ?|?]; cbn in Hf; try tauto; destruct g as [[h' b']|cc|cc]; cbn in Hf; try tauto; auto.
    destruct Hf as [-> ->]. cbn [process work].
    assert (Hh : has k "sequence_identifier" = match si with No => false | _ => true end).
    { unfold has. destruct si; cbn [sid_of] in Hs; [rewrite Hs; reflexivity| |].
      - destruct Hs as (h1 & b1 & -> & _). reflexivity.
      - destruct Hs as (t & -> & _). reflexivity. }
    rewrite Hh, Hb. destruct si; try (cbn; auto). destruct ba; [cbn; auto|]. cbn [orb].
    exists (Deliverable b'). split; [reflexivity|]. right. eexists _, _. split; [reflexivity|].
    unfold exact. cbn [k_form k_raw k_sid k_base k_delay form_of holds snd]. split; [reflexivity|].
    split.
    { destruct ra; cbn [wrong raw_exact raw_of] in *; kw; auto.
      - destruct Hr as (t & h1 & b1 & E & Eg & Hp). exists t, h1, b1. repeat split; auto. discriminate.
      - destruct Hr as (t & h1 & b1 & E & Hp & L). exists t, h1, b1. repeat split; auto. discriminate. }
    split; [exists "default"; kw; split; [reflexivity|discriminate]|].
    split; [unfold has; kw; reflexivity|]. split; [unfold has in *; kw; exact Hd|discriminate].
  - destruct f; cbn [node_known k_form k_raw k_sid k_base k_delay];
      destruct d as [t|h av b|? ? ?|?]; cbn in Hf; try tauto; destruct g as [[h' b']|cc|cc]; cbn in Hf; try tauto; auto.
    exists (Taken (h', b')). auto.
  - assert (Hp : process x (Buffer z) d k = if has k "delay" then Raises else Emits d (kw_put k "delay" (VInt z)))
      by (destruct d; reflexivity).
    cbn [node_known k_form k_raw k_sid k_base k_delay]. rewrite Hp, Hd. destruct de; [auto|].
    exists g. split; [destruct f, d, g as [cc|cc|cc]; cbn in Hf; try tauto; reflexivity|].
    right. eexists _, _. split; [reflexivity|]. unfold exact. cbn [k_form k_raw k_sid k_base k_delay].
    split; [exact Hf|]. split; [destruct ra; cbn [raw_exact raw_of] in *; kw; exact Hr|].
    split; [destruct si; cbn [sid_of] in *; kw; exact Hs|].
    split; [unfold has in *; kw; exact Hb|]. split; [unfold has; kw; reflexivity|exact Hg].
Qed.

Lemma used_in_marked l n : used_in l (marked n) = used_in l n.
Proof. destruct n; reflexivity. Qed.
Lemma provides_marked n : provides (marked n) = provides n.
Proof. destruct n; reflexivity. Qed.

Lemma unchecked_wrong x from c s d k g g' : faithful x -> separate x -> plain from -> exact x s d k g ->
  checked from c s = false -> works (map (fun p => marked (snd p)) c) g = Some g' ->
  ~ comes_to x (send x from (map (fun p => (fst p, marked (snd p))) c) d k) g'.
Proof.
  intros F S. revert from s d k g. induction c as [|[l n] r IH]; intros from s d k g P X H W; [discriminate|].
  cbn [map works fst snd send] in *. rewrite (start_link_used x from l (marked n) P), used_in_marked.
  cbn [checked] in H. unfold link_known in H.
  destruct (used_out from l) as [a|]; [|cbn; tauto]. destruct (used_in l n) as [b|]; [|cbn; tauto].
  unfold deliver.
  pose proof (exact_convs x a s d k g F S X) as H1. destruct (convs_known a s) as [s1|]; [|rewrite H1; cbn; tauto].
  destruct H1 as (d1 & k1 & -> & X1).
  pose proof (exact_carry x (l_carriage l) s1 d1 k1 g X1) as H2.
  destruct (carry_known (l_carriage l) s1) as [s2|]; [|rewrite H2; cbn; tauto].
  destruct H2 as (d2 & k2 & -> & X2).
  pose proof (exact_convs x b s2 d2 k2 g F S X2) as H3. destruct (convs_known b s2) as [s3|]; [|rewrite H3; cbn; tauto].
  destruct H3 as (d3 & k3 & -> & X3).
  pose proof (exact_node x n s3 d3 k3 g F X3) as H4. destruct (node_known n s3) as [s4|].
  - destruct H4 as (g1 & W1 & [-> | (d4 & k4 & -> & X4)]); rewrite W1 in W.
    + destruct r as [|y r]; [discriminate H|]. exfalso. cbn [marked] in W1.
      destruct g as [cc|cc|cc]; cbn in W1; try discriminate. injection W1 as <-. destruct y as [l2 n2].
      cbn in W. destruct (marked n2); discriminate.
    + rewrite provides_marked.
      destruct n; try exact (IH _ s4 d4 k4 g1 (plain_provides _) X4 H W).
      destruct r as [|[l2 n2] r]; [discriminate H|]. exfalso. cbn [marked] in W1.
      destruct g as [cc|cc|cc]; cbn in W1; try discriminate. injection W1 as <-.
      cbn in W. destruct (marked n2); discriminate.
  - destruct H4 as [E | [E | [E | (d4 & k4 & g1 & E & W1 & B)]]].
    + rewrite E in W. discriminate.
    + rewrite E. cbn. tauto.
    + rewrite E. cbn. tauto.
    + rewrite E. rewrite W1 in W. rewrite provides_marked. exact (behind_send x r _ d4 k4 g1 g' F S (plain_provides _) B W).
Qed.

Lemma marked_same c : same_config c (map (fun p => (fst p, marked (snd p))) c).
Proof.
  induction c as [|[l n] r IH]; constructor; [|exact IH]. split; [reflexivity|]. destruct n; constructor.
Qed.

(** The check does not depend on what the nodes make of documents. *)
Lemma same_checked from c c' s : same_config c c' -> checked from c s = checked from c' s.
Proof.
  intros H. revert from s. induction H as [|[l n] [l' n'] r r' [E K] H IH]; intros from s; [reflexivity|].
  cbn [fst snd] in *. subst l'. cbn [checked].
  assert (link_known from l n s = link_known from l n' s) as -> by (destruct K; reflexivity).
  destruct (link_known from l n' s) as [s'|]; [|reflexivity].
  destruct K; try apply IH. destruct H; [reflexivity|reflexivity].
Qed.

(** Sources. *)
Lemma source_told x h b from s d k : source x h b from s d k -> plain from /\ told x s d k (Live (h, b)).
Proof.
  unfold plain, told. intros [av | t av H | t H]; (split; [auto|]); cbn.
  - auto 8.
  - auto 8.
  - split; [exact H|]. split; [reflexivity|]. split; [exists h, b; auto|]. auto.
Qed.
Lemma source_exact x h b from s d k : h_sid h <> "default" -> source x h b from s d k -> exact x s d k (Live (h, b)).
Proof.
  intros N. unfold exact. assert (forall h' b', Live (h, b) = Live (h', b') -> h_sid h' <> "default") as G
    by (intros h' b' E; injection E as <- _; exact N).
  intros [av | t av H | t H]; cbn.
  - auto 8.
  - auto 8.
  - split; [exact H|]. split; [reflexivity|]. split; [exists h, b; auto|]. auto.
Qed.

(** ** Particular chains *)

Lemma send_direct x from n r d k : plain from ->
  send x from ((joined_directly, n) :: r) d k =
  match process x n d k with Emits d' k' => send x (provides n) r d' k' | o => o end.
Proof. intros P. cbn [send]. rewrite (start_link_used x from joined_directly n P). reflexivity. Qed.

Definition directly (l : list node) : chain := map (fun n => (joined_directly, n)) l.

Lemma process_rewriting x n w h av b k : rewriting n = Some w ->
  process x n (PDoc h av b) k = Emits (PDoc (fst (w (h, b))) av (snd (w (h, b)))) k.
Proof. destruct n as [v|v|o v| |f| |z]; cbn; intros H; try discriminate; injection H as <-; destruct (v (h, b)); reflexivity. Qed.

Lemma send_rewriting x from l r h av b k : plain from -> Forall (fun n => rewriting n <> None) l ->
  exists from', plain from' /\
  send x from (directly l ++ r) (PDoc h av b) k =
  send x from' r (PDoc (fst (rewrite_all l (h, b))) av (snd (rewrite_all l (h, b)))) k.
Proof.
  revert from h b. induction l as [|n l IH]; intros from h b P R; [exists from; auto|].
  inversion R as [|? ? Hn Hl]; subst. destruct (rewriting n) as [w|] eqn:E; [|congruence].
  cbn [directly map app rewrite_all]. rewrite (send_direct x from n _ _ _ P), (process_rewriting x n w h av b k E), E.
  destruct (IH (provides n) (fst (w (h, b))) (snd (w (h, b))) (plain_provides n) Hl) as (f' & P' & H).
  exists f'. split; [exact P'|]. rewrite <- surjective_pairing in H. exact H.
Qed.

Definition read_in : link := mkLink [] Direct [XmlToDoc].

Lemma send_read x from n r t k h b : plain from -> expects n = TDoc3 -> x_parse x t = Some (ParsedTT h b) ->
  match kw_arg k "sequence_identifier" with VNone => true | VText u => u =? h_sid h | VInt _ => false end = true ->
  send x from ((read_in, n) :: r) (PText t) k =
  match process x n (PDoc h (kw_arg k "availability_time") b)
          (kw_put (kw_del (kw_del k "availability_time") "sequence_identifier") "raw_xml" (VText t)) with
  | Emits d' k' => send x (provides n) r d' k'
  | o => o
  end.
Proof.
  intros P N E S. cbn [send]. rewrite (start_link_used x from read_in n P).
  assert (used_in read_in n = Some [XmlToDoc]) as -> by (destruct n; try discriminate; reflexivity).
  cbn [used_out l_out read_in writing l_carriage map]. unfold deliver. cbn [convert carry adapter_of xml3 a_convert].
  unfold xml_to_doc3. rewrite E. cbv zeta.
  assert (match kw_arg k "sequence_identifier" with VNone => false | VText u => negb (u =? h_sid h) | VInt _ => true end = false) as ->.
  { destruct (kw_arg k "sequence_identifier"); try discriminate; auto. rewrite S. reflexivity. }
  reflexivity.
Qed.

(** The XML that was read goes out, with the identifier of the rewritten document. *)
Lemma stale_send x from n l r t k h b : plain from -> x_parse x t = Some (ParsedTT h b) ->
  match kw_arg k "sequence_identifier" with VNone => true | VText u => u =? h_sid h | VInt _ => false end = true ->
  Forall (fun n => rewriting n <> None) (n :: l) ->
  exists k', kw_get k' "sequence_identifier" = Some (VText (h_sid (fst (rewrite_all (n :: l) (h, b))))) /\
  send x from ((read_in, n) :: directly l ++ (joined_directly, Distribute) :: r) (PText t) k =
  send x TText r (PText t) k'.
Proof.
  intros P E S R. inversion R as [|? ? Hn Hl]; subst. destruct (rewriting n) as [w|] eqn:En; [|congruence].
  rewrite (send_read x from n _ t k h b P); [|destruct n; try discriminate; reflexivity|exact E|exact S].
  rewrite (process_rewriting x n w _ _ _ _ En).
  set (k1 := kw_put _ "raw_xml" (VText t)).
  destruct (send_rewriting x (provides n) l ((joined_directly, Distribute) :: r) (fst (w (h, b))) (kw_arg k "availability_time") (snd (w (h, b))) k1 (plain_provides n) Hl) as (f & Pf & ->).
  rewrite <- surjective_pairing. rewrite (send_direct x f Distribute r _ _ Pf). cbn [process].
  cbn [rewrite_all]. rewrite En.
  assert (kw_arg k1 "raw_xml" = VText t) as -> by (unfold k1; rewrite kw_arg_get; kw; reflexivity).
  eexists. split; [|reflexivity]. kw. reflexivity.
Qed.

(** ** An XML library that reads back all that it writes *)

Fixpoint enc_nat (n : nat) : string := match n with O => "0" | S m => String "1"%char (enc_nat m) end.
Fixpoint dec_nat (s : string) : option (nat * string) :=
  match s with
  | EmptyString => None
  | String c r => if Ascii.eqb c "1"%char then match dec_nat r with Some (n, r') => Some (S n, r') | None => None end
                  else Some (O, r)
  end.
Lemma dec_enc_nat n r : dec_nat (enc_nat n ++ r)%string = Some (n, r).
Proof. induction n as [|n IH]; cbn; [reflexivity|]. rewrite IH. reflexivity. Qed.

Fixpoint split_at (n : nat) (s : string) : option (string * string) :=
  match n, s with
  | O, _ => Some ("", s)
  | S m, String c r => match split_at m r with Some (a, b) => Some (String c a, b) | None => None end
  | S _, EmptyString => None
  end.
Lemma split_at_app s r : split_at (len s) (s ++ r)%string = Some (s, r).
Proof. induction s as [|c s IH]; cbn; [reflexivity|]. rewrite IH. reflexivity. Qed.

Definition enc_str (s : string) : string := (enc_nat (len s) ++ s)%string.
Definition dec_str (s : string) : option (string * string) :=
  match dec_nat s with Some (n, r) => split_at n r | None => None end.
Lemma app_assoc_str (a b c : string) : ((a ++ b) ++ c = a ++ (b ++ c))%string.
Proof. induction a as [|x a IH]; cbn; [reflexivity|]. rewrite IH. reflexivity. Qed.
Lemma dec_enc_str s r : dec_str (enc_str s ++ r)%string = Some (s, r).
Proof. unfold dec_str, enc_str. rewrite app_assoc_str, dec_enc_nat. apply split_at_app. Qed.

Definition enc_z (z : Z) : string :=
  match z with Zneg p => String "-"%char (enc_nat (Pos.to_nat p)) | _ => String "+"%char (enc_nat (Z.to_nat z)) end.
Definition dec_z (s : string) : option (Z * string) :=
  match s with
  | String c r => match dec_nat r with
                  | Some (n, r') => Some (if Ascii.eqb c "-"%char then (- Z.of_nat n)%Z else Z.of_nat n, r')
                  | None => None
                  end
  | EmptyString => None
  end.
Lemma dec_enc_z z r : dec_z (enc_z z ++ r)%string = Some (z, r).
Proof.
  destruct z as [|p|p]; [reflexivity| |].
  - unfold enc_z. cbn [append dec_z]. rewrite dec_enc_nat. cbn [Ascii.eqb Bool.eqb]. rewrite Z2Nat.id by lia. reflexivity.
  - unfold enc_z. cbn [append dec_z]. rewrite dec_enc_nat. cbn [Ascii.eqb Bool.eqb]. rewrite positive_nat_Z. reflexivity.
Qed.

Definition enc_k (v : kval) : string :=
  match v with VNone => "N" | VText s => String "T"%char (enc_str s) | VInt z => String "I"%char (enc_z z) end.
Definition dec_k (s : string) : option (kval * string) :=
  match s with
  | String c r =>
      if Ascii.eqb c "N"%char then Some (VNone, r)
      else if Ascii.eqb c "T"%char then match dec_str r with Some (t, r') => Some (VText t, r') | None => None end
      else match dec_z r with Some (z, r') => Some (VInt z, r') | None => None end
  | EmptyString => None
  end.
Lemma dec_enc_k v r : dec_k (enc_k v ++ r)%string = Some (v, r).
Proof.
  destruct v as [|s|z]; [reflexivity| |]; unfold enc_k; cbn [append dec_k Ascii.eqb Bool.eqb].
  - rewrite dec_enc_str. reflexivity.
  - rewrite dec_enc_z. reflexivity.
Qed.

Definition enc_doc (h : header) (b : string) : string :=
  String "P"%char (enc_str (h_sid h) ++ enc_z (h_num h) ++ enc_k (h_tb h) ++ enc_k (h_cm h) ++ b)%string.
Definition dec_doc (s : string) : option parsed :=
  match s with
  | String c r =>
      if Ascii.eqb c "P"%char then
        match dec_str r with
        | Some (sid, r1) =>
            match dec_z r1 with
            | Some (n, r2) =>
                match dec_k r2 with
                | Some (tb, r3) => match dec_k r3 with
                                   | Some (cm, b) => Some (ParsedTT (mkHeader sid n tb cm) b)
                                   | None => None
                                   end
                | None => None
                end
            | None => None
            end
        | None => None
        end
      else None
  | EmptyString => None
  end.
Definition dec_docd (s : string) : option string :=
  match s with String c r => if Ascii.eqb c "D"%char then Some r else None | EmptyString => None end.

Definition an_xml : xml_lib := mkXml dec_doc dec_docd enc_doc (fun _ _ => "M") (fun s => String "D"%char s).

Lemma an_xml_faithful : faithful an_xml.
Proof.
  split; [|reflexivity]. intros [sid n tb cm] b. cbn [an_xml x_parse x_doc]. unfold enc_doc.
  cbn [dec_doc Ascii.eqb Bool.eqb h_sid h_num h_tb h_cm].
  rewrite dec_enc_str, dec_enc_z, dec_enc_k, dec_enc_k. reflexivity.
Qed.
Lemma an_xml_separate : separate an_xml.
Proof.
  intros s c. cbn. destruct s as [|a r]; [discriminate|]. cbn. destruct (Ascii.eqb_spec a "D"%char) as [->|]; [reflexivity|discriminate].
Qed.
