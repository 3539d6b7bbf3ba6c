(** C75: which documents the page of the user input producer makes, with which numbers and
    texts, and where they go. *)

From Coq Require Import List Arith ZArith String Ascii Bool Lia Sorted.
From Verif Require Import PageModel PageSpec PageProofs.
Import ListNotations.
Open Scope string_scope.

(** A page that is opened again has the sequences and the next numbers of the page before. *)
Theorem C75_reload : forall es, p_opts (after page0 (es ++ [Reload])) = p_opts (after page0 es) /\
  p_nums (after page0 (es ++ [Reload])) = p_nums (after page0 es).
Proof.
  intros es. unfold after. rewrite fold_left_app. cbn [fold_left step fst].
  destruct (load_good _ (after_good es page0 good_page0)) as (_ & A & B). unfold after in *. auto.
Qed.

(** The documents of a sequence that is created once have the numbers from 1 without a gap
    and without one twice, whatever else happens. *)
Theorem C75_numbered : forall es id, created id es <= 1 -> exists k, numbers id (made (run page0 es)) = seq 1 k.
Proof. intros es id C. apply numbered; [apply good_page0|reflexivity|exact C]. Qed.

(** So those that are sent have increasing numbers... *)
Theorem C75_sent : forall es id, created id es <= 1 -> StronglySorted lt (numbers id (sent (run page0 es))).
Proof.
  intros es id C. apply sent_sorted; [apply run_waiting; reflexivity|]. destruct (C75_numbered es id C) as (k & ->). apply seq_sorted.
Qed.

(** ... but not all numbers: those made without a connection are missing. *)
Theorem C75_missing : exists es id, created id es <= 1 /\ numbers id (sent (run page0 es)) = [2].
Proof. exists [Create "A"; Now; Connect; Open; Now], "A". split; [cbn; lia|reflexivity]. Qed.

(** A sequence that is created again has its numbers again. *)
Theorem C75_again : exists es id, numbers id (sent (run page0 es)) = [1; 2; 1].
Proof. exists [Create "A"; Connect; Open; Now; Now; Create "A"; Now], "A". reflexivity. Qed.

(** A document has the selected sequence, the next number of it and the text of the area, at
    the time it is made. *)
Theorem C75_made : forall es v d, In d (made [snd (step (after page0 es) v)]) ->
  p_sel (after page0 es) = Some (d_id d) /\ find (d_id d) (p_nums (after page0 es)) = Some (d_num d) /\ d_area d = p_area (after page0 es).
Proof. intros es v d I. destruct (step_made _ v d (after_good es page0 good_page0) I) as (A & B & C). auto. Qed.

(** Nothing is ever scheduled: nothing waits, nothing is sent later. *)
Theorem C75_never_scheduled : forall es, p_waiting (after page0 es) = [] /\
  forall o, In o (run page0 es) -> (forall d, o <> Planned d) /\ (forall d f, o <> Later d f).
Proof.
  intros es. destruct (run_waiting es page0 eq_refl) as [A B]. split; [exact A|]. intros o O. rewrite Forall_forall in B.
  specialize (B o O). destruct o; try destruct B; split; discriminate.
Qed.

(** In the mode "scheduled" the user cannot send: only a running interval does. *)
Theorem C75_scheduled_silent : forall p v, p_mode p = Scheduled -> p_waiting p = [] -> v <> Tick -> made [snd (step p v)] = [] /\ sent [snd (step p v)] = [].
Proof.
  intros p v M W N. destruct v; cbn [step]; auto; destruct (p_hung p); auto; try congruence.
  - rewrite M. auto.
  - unfold fire. rewrite W. auto.
  - unfold press. rewrite M. destruct k; auto. destruct (shift_lines _ _); auto.
Qed.

(** After a reset nothing is made or sent until a sequence is created. *)
Theorem C75_reset : forall es l, p_hung (after page0 es) = false -> (forall i, ~ In (Create i) l) ->
  made (run (after page0 (es ++ [Reset])) l) = [] /\ sent (run (after page0 (es ++ [Reset])) l) = [].
Proof.
  intros es l H N.
  assert (G : good (after page0 (es ++ [Reset]))) by (apply after_good, good_page0).
  assert (E : p_nums (after page0 (es ++ [Reset])) = []).
  { unfold after in *. rewrite fold_left_app. cbn [fold_left step]. rewrite H. reflexivity. }
  assert (W : Forall immediate (run (after page0 (es ++ [Reset])) l)) by (apply run_waiting; apply run_waiting; reflexivity).
  assert (C : forall id, created id l = 0).
  { intros id. clear - N. induction l as [|v l IH]; [reflexivity|]. rewrite created_cons, IH by (intros i I; apply (N i); right; exact I).
    destruct v; try reflexivity. destruct (N id0). left. reflexivity. }
  assert (M : made (run (after page0 (es ++ [Reset])) l) = []).
  { destruct (made (run (after page0 (es ++ [Reset])) l)) as [|d r] eqn:D; [reflexivity|exfalso].
    assert (I : In (d_num d) (numbers (d_id d) (made (run (after page0 (es ++ [Reset])) l)))) by (apply numbers_in; exists d; rewrite D; cbn; auto).
    rewrite uncreated in I; [exact I|exact G|apply C|rewrite E; reflexivity]. }
  split; [exact M|]. pose proof (sent_in _ W) as S. rewrite M in S. destruct (sent _) as [|d r]; [reflexivity|]. destruct (S d). left. reflexivity.
Qed.

(** The options of the selector are sequences at all times, so the repair of 66-71 is never
    needed. *)
Theorem C75_options : forall es id, In id (p_opts (after page0 es)) \/ p_sel (after page0 es) = Some id ->
  exists n, find id (p_nums (after page0 es)) = Some n.
Proof.
  intros es id H. destruct (after_good es page0 good_page0) as [_ K S].
  specialize (K id (match H with or_introl h => h | or_intror h => S id h end)). destruct (find id _) as [n|]; [eauto|congruence].
Qed.

(** Characters and spaces come at the end; Escape empties the area, unless sending fails. *)
Theorem C75_keys : forall p a l, p_hung p = false -> p_area p = (a ++ [l])%list ->
  (forall c, p_area (fst (step p (Press (Char c)))) = (a ++ [(l ++ String c "")%string])%list) /\
  p_area (fst (step p (Press Space))) = (a ++ [(l ++ " ")%string])%list /\
  p_area (fst (step p (Press Escape))) = match snd (step p (Press Escape)) with Raised => p_area p | _ => [""] end.
Proof.
  intros p a l H E. cbn [step]. rewrite H.
  assert (T : forall c, type_char (a ++ [l])%list c = (a ++ [(l ++ String c "")%string])%list).
  { intros c. clear. induction a as [|x a IH]; [reflexivity|]. cbn [app]. rewrite <- IH. destruct a; reflexivity. }
  assert (Q : forall k, k = Space \/ k = Escape -> exists q o, press p k = match o with Raised => (typed q k, o) | _ => (typed (match k with Escape => with_area q empty_area | _ => q end) k, o) end /\ p_area q = p_area p).
  { intros k K. unfold press. destruct (send_document_kept p) as (A & _).
    destruct (match p_mode p, k with Live, (Enter | Space | Escape) => send_document p | _, _ => (p, Quiet) end) as [q o] eqn:X. exists q, o.
    assert (Y : p_area q = p_area p).
    { destruct K as [-> | ->]; destruct (p_mode p); try (injection X as <- _; reflexivity); rewrite X in A; exact A. }
    split; [|exact Y]. destruct K as [-> | ->]; destruct o; reflexivity. }
  split; [|split].
  - intros c. unfold press. destruct (p_mode p); cbn; rewrite E; apply T.
  - destruct (Q Space (or_introl eq_refl)) as (q & o & -> & Y). destruct o; cbn [fst typed with_area p_area]; rewrite Y, E; apply T.
  - destruct (Q Escape (or_intror eq_refl)) as (q & o & -> & Y). destruct o; cbn [fst snd typed with_area p_area]; auto.
Qed.

(** Enter leaves the last lines, one less than the limit; with a limit below 1, or none, it
    does not end. *)
Theorem C75_enter : forall m l, ((1 <= m)%Z -> shift_lines m l = Some (skipn (List.length l - Z.to_nat (m - 1)) l)) /\
  (shift_lines m l = None <-> (m < 1)%Z).
Proof.
  intros m l. split; [apply shift_is|]. split; [|apply shift_endless]. intros E. destruct (Z.lt_ge_cases m 1) as [L|L]; [exact L|].
  rewrite shift_is in E by exact L. discriminate.
Qed.

(** The page then does nothing but be loaded again. *)
Theorem C75_freeze : forall p l, p_hung p = false -> (limit_of (p_max p) < 1)%Z -> snd (step p (Press Enter)) <> Raised -> ~ In Reload l ->
  p_hung (fst (step p (Press Enter))) = true /\ after (fst (step p (Press Enter))) l = fst (step p (Press Enter)) /\
  made (run (fst (step p (Press Enter))) l) = [].
Proof.
  intros p l H L R N.
  assert (X : p_hung (fst (step p (Press Enter))) = true).
  { cbn [step] in *. rewrite H in *. unfold press in *.
    destruct (match p_mode p with Live => send_document p | _ => (p, Quiet) end) as [q o] eqn:E.
    assert (K : p_max q = p_max p).
    { destruct (send_document_kept p) as (_ & Y & _). destruct (p_mode p); [rewrite E in Y; exact Y|injection E as <- _; reflexivity..]. }
    destruct o; try (rewrite K, shift_endless by exact L; reflexivity). destruct (R eq_refl). }
  split; [exact X|]. revert X. generalize (fst (step p (Press Enter))). intros q Q. clear - Q N.
  assert (S : forall v, v <> Reload -> step q v = (q, Quiet)) by (intros []; cbn [step]; rewrite ?Q; congruence).
  induction l as [|v l IH]; [auto|]. cbn [In] in N.
  unfold after in *. cbn [fold_left run]. rewrite S by (intros ->; tauto). cbn [fst]. destruct IH as [A B]; [tauto|]. split; [exact A|exact B].
Qed.

(** While nothing fails, no document has more lines than the limit... *)
Theorem C75_lines : forall es m l, (1 <= m)%Z -> p_max (after page0 es) = Some m ->
  (Z.of_nat (List.length (p_area (after page0 es))) <= m)%Z -> Forall same_limit l -> ~ In Raised (run (after page0 es) l) ->
  forall d, In d (made (run (after page0 es) l)) -> (Z.of_nat (List.length (d_area d)) <= m)%Z.
Proof. intros es m l. apply run_bound, after_good, good_page0. Qed.

(** ... but Enter while the connection is made fails before lines are removed. *)
Theorem C75_lines_exceeded : exists l d, Forall same_limit l /\ In d (made (run page0 l)) /\ p_max page0 = Some 2%Z /\ List.length (d_area d) = 3.
Proof.
  exists [Create "A"; Connect; Press (Char "a"); Press Enter; Press (Char "b"); Press Enter; Open; Press (Char "c"); Now], (mkDoc "A" 1 ["a"; "b"; "c"]).
  split; [repeat constructor|]. vm_compute. auto.
Qed.

(** The lines arrive as they were typed only if XML reads them so: nothing is escaped. *)
Theorem C75_text : forall es d, In d (made (run page0 es)) -> (lines (content (d_area d)) 0 = Some (d_area d) <-> Forall plain (d_area d)).
Proof.
  intros es d I. destruct (run_made es page0 d I) as (a & v & _ & J). destruct (C75_made a v d J) as (_ & _ & E).
  assert (N : d_area d <> []) by (rewrite E; apply area_full; discriminate).
  split; [intros H; apply (lines_text _ _ _ H)|apply lines_content, N].
Qed.

(** While the selection does not change documents go to the address of their sequence. *)
Theorem C75_via : forall es l, p_sock (after page0 es) = NoSocket -> Forall steady l ->
  forall d t, In (Made d (SentTo t)) (run (after page0 es) l) -> t = Some (d_id d).
Proof.
  intros es l S F d t I. assert (A : Forall arrives (run (after page0 es) l)) by (apply run_aimed; [unfold aimed; rewrite S; exact Logic.I|exact F]).
  rewrite Forall_forall in A. exact (A _ I).
Qed.

(** After an error, and when an open connection is closed, the user can connect again, and
    before that nothing is sent. *)
Theorem C75_retry : forall p v, p_hung p = false -> v = Fail \/ (v = Closed /\ forall t, p_sock p <> Connecting t) ->
  p_sock (after p [v; Connect]) = Connecting (p_sel p) /\ sent (run p [v; Now; Tick]) = [].
Proof.
  intros p v H V.
  assert (A : p_sock (fst (step p v)) = NoSocket /\ p_sel (fst (step p v)) = p_sel p /\ p_hung (fst (step p v)) = false /\ snd (step p v) = Quiet).
  { destruct V as [->|[-> N]]; cbn [step]; rewrite H; cbn [fst snd]; destruct (p_sock p) eqn:S; cbn; rewrite ?S; auto. destruct (N to eq_refl). }
  destruct A as (A & B & C & D). rewrite !run_cons, D. unfold after. cbn [fold_left]. revert A B C. generalize (fst (step p v)). intros q A B C. split.
  - cbn [step]. rewrite C, A. cbn. rewrite B. reflexivity.
  - assert (N : forall r, p_sock r = NoSocket -> sent [snd (submit_now r)] = [] /\ p_sock (fst (submit_now r)) = NoSocket).
    { intros r R. destruct (submit_now_kept r) as (_ & _ & _ & K & _). split; [|congruence]. unfold submit_now. destruct (make r); [|reflexivity]. rewrite R. reflexivity. }
    assert (W : sent [snd (step q Now)] = [] /\ p_sock (fst (step q Now)) = NoSocket).
    { cbn [step]. rewrite C. destruct (p_mode q) eqn:M; auto. unfold send_document. destruct (p_sel q); [|auto]. rewrite M. apply N, A. }
    destruct W as [W1 W2]. revert W2. generalize (fst (step q Now)). intros r R.
    assert (X : sent [snd (step r Tick)] = []) by (cbn [step]; destruct (p_hung r); [reflexivity|]; apply N, R).
    unfold sent in *. cbn [flat_map run] in *. rewrite app_nil_r in *. rewrite W1, X. reflexivity.
Qed.

(** When another sequence is selected while connected, its documents go to the address of the
    first. *)
Theorem C75_misdirected : exists es d t, In (Made d (SentTo t)) (run page0 es) /\ d_id d = "B" /\ t = Some "A".
Proof. exists [Create "A"; Create "B"; Connect; Open; Select "B"; Now], (mkDoc "B" 1 [""]), (Some "A"). vm_compute. auto 8. Qed.

(** The last ten items that were received are shown. *)
Theorem C75_feed : forall sel l, f_items (fold_left (receive sel) l (mkFeed [] false)) = last_ten (filter showable l).
Proof. intros sel l. apply feed_is. reflexivity. Qed.

(** "On air" is lit while the last document was one that selects the sequence, or selects
    none and none is selected. *)
Theorem C75_on_air : forall sel f a s b, Forall message b ->
  (f_air (fold_left (receive sel) (a ++ ADoc s :: b) f) = true <-> sel = s).
Proof.
  intros sel f a s b F. rewrite fold_left_app. cbn [fold_left].
  assert (K : forall g, f_air (fold_left (receive sel) b g) = f_air g).
  { induction F as [|i b M F IH]; intros g; [reflexivity|]. cbn [fold_left]. rewrite IH. destruct i as [|[|]]; [destruct M|reflexivity..]. }
  rewrite K. cbn [receive f_air]. unfold on_air. destruct sel as [x|], s as [y|]; try (split; congruence).
  rewrite String.eqb_eq. split; congruence.
Qed.

(** ** Cases *)

Example C75_case_reload : after page0 [Create "A"; Now; Reload; Connect; Open; Now] =
  mkPage [("A", 3)] ["A"] (Some "A") (Some (["A"], [("A", 3)])) (Opened (Some "A")) Live [""] (Some 2%Z) [] false.
Proof. reflexivity. Qed.
Example C75_case_numbered : let es := [Create "A"; Create "B"; Now; Select "B"; Connect; Now; Open; Now; Select "A"; Press Space; Reload; Mode Asynchronous; Tick; Mode Scheduled; Schedule; Press Enter; Tick] in
  created "A" es = 1 /\ numbers "A" (made (run page0 es)) = [1; 2; 3; 4] /\ numbers "B" (made (run page0 es)) = [1] /\
  numbers "A" (sent (run page0 es)) = [2] /\ p_mode (after page0 es) = Scheduled.
Proof. vm_compute. auto 8. Qed.
Example C75_case_reset : let es := [Create "A"; Now] in p_hung (after page0 es) = false /\
  run (after page0 (es ++ [Reset])) [Now; Connect; Open; Tick; Press Space] = [NoSequence; Quiet; Quiet; Raised; NoSequence] /\
  numbers "A" (made (run (after page0 (es ++ [Reset])) [Create "A"; Now])) = [1].
Proof. vm_compute. auto. Qed.
Example C75_case_keys : let p := after page0 [Create "A"; Mode Scheduled; Press (Char "a"); Press Enter; Press (Char "b"); Mode Live] in
  p_area p = ["a"; "b"] /\ p_area (after p [Press (Char "c"); Press Space]) = ["a"; "bc "] /\ p_area (after p [Press Escape]) = [""] /\
  p_area (after p [Connect; Press Escape]) = ["a"; "b"].
Proof. vm_compute. auto. Qed.
Example C75_case_enter : shift_lines 3 ["a"; "b"; "c"; "d"] = Some ["c"; "d"] /\ shift_lines 1 ["a"] = Some [] /\ shift_lines 0 ["a"] = None.
Proof. vm_compute. auto. Qed.
Example C75_case_freeze : let p := after page0 [Create "A"; Max None] in snd (step p (Press Enter)) = Made (mkDoc "A" 1 [""]) NoConnection /\
  p_hung (after p [Press Enter; Now; Max (Some 2%Z)]) = true /\ p_hung (after p [Press Enter; Reload]) = false.
Proof. vm_compute. auto. Qed.
Example C75_case_lines : let es := [Create "A"; Press (Char "a"); Press Enter; Press (Char "b"); Press Enter; Press (Char "c"); Now] in
  map d_area (made (run page0 es)) = [["a"]; ["a"; "b"]; ["b"; "c"]] /\ ~ In Raised (run page0 es) /\ Forall same_limit es.
Proof. split; [reflexivity|]. split; [vm_compute; intuition discriminate|repeat constructor]. Qed.
Example C75_case_text : let d a := mkDoc "A" 1 a in
  In (d ["a"; "b"]) (made (run page0 [Create "A"; Mode Scheduled; Press (Char "a"); Press Enter; Press (Char "b"); Mode Live; Now])) /\
  content ["a"; "b"] = "a<tt:br/>b" /\ lines "a<tt:br/>b" 0 = Some ["a"; "b"] /\
  In (d ["a&b"]) (made (run page0 [Create "A"; Press (Char "a"); Press (Char "&"); Press (Char "b"); Now])) /\ lines "a&b" 0 = None.
Proof. vm_compute. auto 8. Qed.
Example C75_case_via : run (after page0 [Create "A"; Create "B"; Select "B"]) [Connect; Open; Now; Leave; Now; Closed; Now] =
  [Quiet; Quiet; Made (mkDoc "B" 1 [""]) (SentTo (Some "B")); Quiet; Made (mkDoc "B" 2 [""]) Discarded; Quiet; Made (mkDoc "B" 3 [""]) NoConnection].
Proof. reflexivity. Qed.
Example C75_case_retry : run (after page0 [Create "A"]) [Connect; Fail; Now; Connect; Now; Open; Now] =
  [Quiet; Quiet; Made (mkDoc "A" 1 [""]) NoConnection; Quiet; Raised; Quiet; Made (mkDoc "A" 2 [""]) (SentTo (Some "A"))].
Proof. reflexivity. Qed.
Example C75_case_feed : let l := [ADoc (Some "A"); AMessage true; AMessage false; ADoc None; AMessage true] in
  fold_left (receive (Some "A")) l (mkFeed [] false) = mkFeed [ADoc (Some "A"); AMessage true; ADoc None; AMessage true] false /\
  f_air (fold_left (receive None) l (mkFeed [] false)) = true /\
  List.length (f_items (fold_left (receive None) (l ++ l ++ l) (mkFeed [] false))) = 10.
Proof. vm_compute. auto. Qed.

Print Assumptions C75_reload.
Print Assumptions C75_numbered.
Print Assumptions C75_sent.
Print Assumptions C75_missing.
Print Assumptions C75_again.
Print Assumptions C75_made.
Print Assumptions C75_never_scheduled.
Print Assumptions C75_scheduled_silent.
Print Assumptions C75_reset.
Print Assumptions C75_enter.
Print Assumptions C75_freeze.
Print Assumptions C75_lines.
Print Assumptions C75_lines_exceeded.
Print Assumptions C75_text.
Print Assumptions C75_via.
Print Assumptions C75_misdirected.
Print Assumptions C75_feed.
Print Assumptions C75_on_air.
Print Assumptions C75_options.
Print Assumptions C75_keys.
Print Assumptions C75_retry.
