(** C61: timers on Zephyr. *)
From Verif Require Import Base ZephyrTimer ZephyrTimerSpec ZephyrTimerProofs.

(** No call of a careful application, no interrupt and no round of the event loop is undefined. *)
Theorem C61_every_step_is_defined : forall s k x, reach careful (s, k) -> enabled (s, k) x -> careful (s, k) x -> exists c, step (s, k) x = Ret c.
Proof. intros s k x R En Ca. destruct (step_inv s k x (reach_inv s k R) En Ca) as (c & E & _). exists c. exact E. Qed.
Print Assumptions C61_every_step_is_defined.

Lemma lawful_split l1 : forall e l0, lawful (l1 ++ e :: l0) -> allowed e l0 /\ lawful l0.
Proof. induction l1 as [|a l1 IH]; intros e l0 H; [exact H|]. apply IH, H. Qed.

(** A handler is called for the arming that waits for it; with success only if the timer has run out, with
    CIO_OPERATION_ABORTED only if the application cancelled or closed the timer before it ran out; never after the close hook. *)
Theorem C61_handler_calls : forall s k l1 id n err l0, reach careful (s, k) -> tr s = l1 ++ EvHandler id n err :: l0 ->
  outstanding id l0 = Some n /\ hooked id l0 = false /\
  ((err = SUCCESS /\ due id l0 = true) \/ (err = OPERATION_ABORTED /\ due id l0 = false /\ asked id l0)).
Proof. intros s k l1 id n err l0 R E. pose proof (i_law _ _ (reach_inv s k R)) as L. rewrite E in L. apply lawful_split in L. exact (proj1 L). Qed.
Print Assumptions C61_handler_calls.

(** Every arming is answered at most once. *)
Lemma outstanding_split id n l : outstanding id l = Some n -> exists a ms b, l = a ++ EvArm id n ms :: b /\ forall m err, ~ In (EvHandler id m err) a.
Proof.
  induction l as [|e l IH]; intros H; [discriminate|].
  assert (G : outstanding id l = Some n -> (forall m err, e <> EvHandler id m err) -> exists a ms b, e :: l = a ++ EvArm id n ms :: b /\ forall m err, ~ In (EvHandler id m err) a).
  { intros X Y. destruct (IH X) as (a & ms & b & -> & Z). exists (e :: a), ms, b. split; [reflexivity|]. intros m err [W|W]; [exact (Y m err W)|exact (Z m err W)]. }
  destruct e; cbn [outstanding] in H; try (apply G; [exact H|discriminate]).
  - destruct (Nat.eqb_spec id0 id) as [->|NE]; [|apply G; [exact H|discriminate]]. injection H as ->. exists [], ms, l. split; [reflexivity|]. intros m err [].
  - destruct (Nat.eqb_spec id0 id) as [->|NE]; [discriminate|]. apply G; [exact H|]. intros m err' X. congruence.
  - destruct (Nat.eqb_spec id0 id) as [->|NE]; [discriminate|]. apply G; [exact H|discriminate].
Qed.
Theorem C61_answered_at_most_once : forall s k l1 id n err l0, reach careful (s, k) -> tr s = l1 ++ EvHandler id n err :: l0 ->
  forall err', ~ In (EvHandler id n err') l0 /\ ~ In (EvHandler id n err') l1.
Proof.
  assert (B : forall s k l1 id n err l0, reach careful (s, k) -> tr s = l1 ++ EvHandler id n err :: l0 -> forall err', ~ In (EvHandler id n err') l0).
  { intros s k l1 id n err l0 R E err' X. pose proof (i_law _ _ (reach_inv s k R)) as L. rewrite E in L. apply lawful_split in L. destruct L as [(O & _) L].
    destruct (outstanding_split _ _ _ O) as (a & ms & b & -> & NA). apply lawful_split in L. destruct L as [(_ & L) _]. apply in_app_or in X. destruct X as [X|[X|X]]; [exact (NA _ _ X)|discriminate|].
    rewrite Forall_forall in L. specialize (L _ X n eq_refl). lia. }
  intros s k l1 id n err l0 R E err'. split; [eapply B; eassumption|]. intros X. apply in_split in X. destruct X as (a & b & ->). rewrite <- app_assoc in E. cbn [app] in E.
  apply (B s k a id n err' _ R E err). apply in_or_app. right. left. reflexivity.
Qed.
Print Assumptions C61_answered_at_most_once.

(** As long as the event loop is not cancelled no arming is forgotten: the timer runs, or its notification is queued; and the
    handlers are told in the order in which the timers run out. *)
Theorem C61_not_forgotten : forall s k id n, reach careful (s, k) -> ~ In EvStop (tr s) -> outstanding id (tr s) = Some n ->
  running (tms s id) = true \/ In (MEv id) (queue s).
Proof. intros s k id n R NS O. destruct (i_pend _ _ (reach_inv s k R) id) as [X|[X|X]]; [congruence|auto|auto|destruct (NS X)]. Qed.
Print Assumptions C61_not_forgotten.
Theorem C61_handlers_in_order_of_expiry : forall s k, reach careful (s, k) -> ~ In EvStop (tr s) ->
  exists waiting, queue s = map MEv waiting /\ rev (expiries (tr s)) = rev (told (tr s)) ++ waiting.
Proof.
  intros s k R NS. pose proof (i_order _ _ (reach_inv s k R) NS) as O. rewrite <- !map_rev in O.
  assert (M : forall a b (c : list msg), map MEv a = map MEv b ++ c -> exists w, c = map MEv w /\ a = b ++ w).
  { clear. intros a b. revert a. induction b as [|x b IH]; intros a c H; [exists a; auto|]. destruct a as [|y a]; [discriminate|]. cbn in H. injection H as -> H. destruct (IH _ _ H) as (w & -> & ->). exists w. auto. }
  apply M in O. destruct O as (w & E1 & E2). exists w. auto.
Qed.
Print Assumptions C61_handlers_in_order_of_expiry.

(** The close hook is called once per initialisation, at the end, when no handler call is owed. *)
Theorem C61_hook_is_last : forall s k l1 id l0, reach careful (s, k) -> tr s = l1 ++ EvHook id :: l0 ->
  hooked id l0 = false /\ usable id l0 = false /\ (outstanding id l0 = None \/ In EvStop l0) /\
  (In (EvInit id) l1 \/ forall e, In e l1 -> e <> EvHook id /\ e <> EvExpired id /\ forall n err, e <> EvHandler id n err).
Proof.
  intros s k l1 id l0 R E. pose proof (i_law _ _ (reach_inv s k R)) as L. rewrite E in L. pose proof (lawful_split _ _ _ L) as [(A1 & A2 & A3) _]. split; [exact A2|]. split; [exact A1|]. split; [exact A3|].
  assert (DI : In (EvInit id) l1 \/ ~ In (EvInit id) l1).
  { clear. induction l1 as [|e l1 IH]; [right; intros []|]. destruct IH as [IH|IH]; [left; right; exact IH|]. destruct e; try (right; intros [X|X]; [discriminate X|exact (IH X)]). destruct (Nat.eq_dec id0 id) as [->|NE]; [left; left; reflexivity|right; intros [X|X]; [congruence|exact (IH X)]]. }
  destruct DI as [DI|DI]; [left; exact DI|right]. intros e X. apply in_split in X. destruct X as (a & b & ->). rewrite <- app_assoc in L. cbn [app] in L. apply lawful_split in L. destruct L as [L _].
  assert (HK : hooked id (b ++ EvHook id :: l0) = true).
  { assert (DB : ~ In (EvInit id) b) by (intros X; apply DI; apply in_or_app; right; right; exact X). clear -DB. induction b as [|e b IH]; cbn [app hooked]; [rewrite Nat.eqb_refl; reflexivity|].
    assert (IH' := IH (fun X => DB (or_intror X))). destruct e; try exact IH'; [|destruct (Nat.eqb id0 id); [reflexivity|exact IH']]. destruct (Nat.eqb_spec id0 id) as [->|NE]; [destruct DB; left; reflexivity|exact IH']. }
  repeat split; intros; intros ->; cbn [allowed] in L; rewrite HK in L; intuition discriminate.
Qed.
Print Assumptions C61_hook_is_last.

(** Durations: whole milliseconds, rounded down, exactly, up to 2^31 - 1 of them (24.8 days). *)
Theorem C61_duration : forall s k id ns c, reach careful (s, k) -> step (s, k) (XArm id ns) = Ret c -> (ns < 2 ^ 31 * 1000000)%N ->
  exists n ms, hd_error (tr (fst c)) = Some (EvArm id n ms) /\ (ms * 1000000 <= Z.of_N ns < (ms + 1) * 1000000)%Z.
Proof.
  intros s k id ns c R St B. cbn [step] in St. unfold expires_from_now in St. destruct (negb (alive (tms s id))); [discriminate|]. injection St as <-. cbn [fst tr log hd_error].
  do 2 eexists. split; [reflexivity|]. unfold duration_ms, to_signed32. assert (D : (ns / 1000000 < 2 ^ 31)%N) by (apply N.div_lt_upper_bound; lia).
  rewrite N2Z.inj_div. rewrite Z.mod_small by (rewrite <- N2Z.inj_div; change (2 ^ 32)%Z with (Z.of_N (2 ^ 32)); lia).
  destruct (Z.ltb_spec (Z.of_N ns / Z.of_N 1000000) (2 ^ 31)) as [_|X].
  - change (Z.of_N 1000000) with 1000000%Z. pose proof (Z.div_mod (Z.of_N ns) 1000000). pose proof (Z.mod_pos_bound (Z.of_N ns) 1000000). lia.
  - exfalso. rewrite <- N2Z.inj_div in X. change (2 ^ 31)%Z with (Z.of_N (2 ^ 31)) in X. lia.
Qed.
Print Assumptions C61_duration.

(** * Concrete runs *)
Definition app_runsb (k : list op) : bool := match k with [] | OUser _ _ :: _ | OHook _ :: _ => true | _ => false end.
Definition enabledb (c : conf) (x : act) : bool :=
  let '(s, k) := c in
  match x with
  | XInit id => app_runsb k && negb (alive (tms s id))
  | XArm id ns => app_runsb k && (ns <? 2 ^ 64)%N
  | XCancel _ | XClose _ | XStop => app_runsb k
  | XRun => match k with [] => negb (going s) | _ => false end
  | XExpire id => running (tms s id)
  | XDispatch => match k with [] => going s && match queue s with [] => false | _ => true end | _ => false end
  | XReturn => match k with OUser _ _ :: _ | OHook _ :: _ => true | _ => false end
  | XCont => match k with OStopEnd _ :: _ | OCloseEnd _ :: _ => true | _ => false end
  end.
Lemma enabledb_ok c x : enabledb c x = true -> enabled c x.
Proof.
  assert (A : forall k, app_runsb k = true -> app_runs k) by (intros [|o k]; [intros _; exact I|]; destruct o; cbn; congruence || auto).
  destruct c as [s k]. destruct x; cbn; intros H; auto.
  - apply andb_prop in H. destruct H as [H1 H2]. apply negb_true_iff in H2. auto.
  - apply andb_prop in H. destruct H as [H1 H2]. apply N.ltb_lt in H2. auto.
  - destruct k; [|discriminate]. apply negb_true_iff in H. auto.
  - destruct k; [|discriminate]. apply andb_prop in H. destruct H as [H1 H2]. split; [reflexivity|]. split; [exact H1|]. destruct (queue s); [discriminate|discriminate].
  - destruct k as [|o k]; [discriminate|]. destruct o; try discriminate; exact I.
  - destruct k as [|o k]; [discriminate|]. destruct o; try discriminate; exact I.
Qed.
Definition carefulb (c : conf) (x : act) : bool :=
  let '(s, k) := c in
  match x with
  | XInit id => Nat.ltb (S id) QUEUE_SIZE
  | XArm id ns => usable id (tr s) && match outstanding id (tr s) with None => true | Some _ => false end
  | XCancel id => usable id (tr s)
  | XClose id => usable id (tr s) && negb (due id (tr s)) && negb (existsb (fun o => match o with OUser i err => Nat.eqb i id && Z.eqb err OPERATION_ABORTED | _ => false end) k)
  | _ => true
  end.
Lemma carefulb_ok c x : carefulb c x = true -> careful c x.
Proof.
  destruct c as [s k]. destruct x; cbn; intros H; auto.
  - apply Nat.leb_le in H. unfold QUEUE_SIZE. lia.
  - apply andb_prop in H. destruct H as [H1 H2]. split; [exact H1|]. destruct (outstanding id (tr s)); [discriminate|reflexivity].
  - apply andb_prop in H. destruct H as [H H3]. apply andb_prop in H. destruct H as [H1 H2]. apply negb_true_iff in H2, H3. split; [exact H1|]. split; [exact H2|]. intros X.
    assert (Y : existsb (fun o => match o with OUser i err => Nat.eqb i id && Z.eqb err OPERATION_ABORTED | _ => false end) k = true) by (apply existsb_exists; exists (OUser id OPERATION_ABORTED); split; [exact X|rewrite Nat.eqb_refl; reflexivity]). congruence.
Qed.
Fixpoint run (u : conf -> act -> bool) (c : conf) (l : list act) : option conf :=
  match l with
  | [] => Some c
  | x :: r => if enabledb c x && u c x then match step c x with Ret c' => run u c' r | UB => None end else None
  end.
Lemma run_reach u (P : conf -> act -> Prop) l : (forall c x, u c x = true -> P c x) -> forall c c', reach P c -> run u c l = Some c' -> reach P c'.
Proof.
  intros HU. induction l as [|x l IH]; intros c c' R E; cbn in E; [injection E as <-; exact R|].
  destruct (enabledb c x && u c x) eqn:B; [|discriminate]. apply andb_prop in B. destruct B as [B1 B2]. destruct (step c x) as [c1|] eqn:St; [|discriminate].
  eapply IH; [|exact E]. eapply reach_step; [exact R|apply enabledb_ok, B1|apply HU, B2|exact St].
Qed.
Definition anyone (c : conf) (x : act) : Prop := True.
Ltac at_run u l := match goal with |- exists s k, reach ?P (s, k) /\ _ =>
  let E := fresh "E" in destruct (run u start l) as [[? ?]|] eqn:E; [|vm_compute in E; discriminate E]; match type of E with _ = Some (?a, ?b) => exists a, b; split;
    [eapply run_reach; [|apply reach_init|exact E]; first [exact carefulb_ok|exact (fun _ _ _ => I)]|vm_compute in E; injection E as <- <-] end end.
Definition free (c : conf) (x : act) : bool := true.
Definition ms (n : N) : N := (n * 1000000)%N.

(** Non-vacuity: two timers; the second runs out first, the first is cancelled in its handler and closed, then the second is
    armed again and runs out. *)
Example orderly : exists s k, reach careful (s, k) /\ k = [] /\ hooked 0 (tr s) = true /\ told (tr s) = [1; 1] /\
  In (EvHandler 0 0 OPERATION_ABORTED) (tr s) /\ outstanding 1 (tr s) = None.
Proof.
  at_run carefulb [XInit 0; XInit 1; XArm 0 (ms 5); XArm 1 (ms 3); XExpire 1; XDispatch; XCancel 0; XReturn; XCont; XClose 0; XCont; XReturn; XArm 1 (ms 2); XReturn; XExpire 1; XDispatch; XReturn].
  vm_compute. repeat split; tauto.
Qed.
(** Non-vacuity of the hypotheses of C61_not_forgotten and of C61_handlers_in_order_of_expiry with a full house: nine timers
    have run out, none was told yet. *)
Example nine_waiting : exists s k, reach careful (s, k) /\ length (queue s) = 9 /\ ~ In EvStop (tr s) /\ expiries (tr s) = rev (seq 0 9).
Proof.
  at_run carefulb (map XInit (seq 0 9) ++ map (fun i => XArm i (ms 1)) (seq 0 9) ++ map XExpire (seq 0 9)). split; [reflexivity|]. split; [|reflexivity].
  cbn. intros X. repeat (destruct X as [X|X]; [discriminate|]). exact X.
Qed.

(** VIOLATED: a timer that is closed after it ran out and before the event loop got to it - nothing the application could see -
    leaves its notification in the queue: the event loop uses the timer after the close hook. *)
Theorem C61_close_after_expiry_refuted : exists s k, reach anyone (s, k) /\ k = [] /\ enabled (s, k) XDispatch /\ step (s, k) XDispatch = UB /\
  (forall e, In e (tr s) -> match e with EvInit i | EvArm i _ _ | EvExpired i | EvClose i | EvHook i => i = 0 | _ => False end).
Proof.
  at_run free [XInit 0; XArm 0 (ms 5); XExpire 0; XClose 0; XCont; XReturn]. split; [reflexivity|]. split; [apply enabledb_ok; reflexivity|]. split; [reflexivity|].
  cbn. intros e X. repeat (destruct X as [<-|X]; [exact eq_refl|]). destruct X.
Qed.
Print Assumptions C61_close_after_expiry_refuted.
(** VIOLATED: armed again after it ran out and before its handler was called, the first handler is forgotten, the second is
    called at once, and when the timer then runs out a NULL handler is called. *)
Theorem C61_rearm_refuted : exists s k, reach anyone (s, k) /\ k = [] /\ step (s, k) XDispatch = UB /\ tr s = [EvExpired 0; EvHandler 0 1 SUCCESS; EvArm 0 1 7; EvExpired 0; EvArm 0 0 5; EvInit 0].
Proof. at_run free [XInit 0; XArm 0 (ms 5); XExpire 0; XArm 0 (ms 7); XDispatch; XReturn; XExpire 0]. repeat split. Qed.
Print Assumptions C61_rearm_refuted.
(** VIOLATED: cio_eventloop_cancel drops the notifications in the queue; when the event loop is run again the handler of the
    timer is never called: it is still owed, nothing runs and nothing is queued. *)
Theorem C61_loop_cancel_forgets_refuted : exists s k, reach careful (s, k) /\ k = [] /\ going s = true /\ outstanding 0 (tr s) = Some 0 /\ running (tms s 0) = false /\ queue s = [].
Proof. at_run carefulb [XInit 0; XArm 0 (ms 5); XExpire 0; XStop; XDispatch; XRun]. repeat split. Qed.
Print Assumptions C61_loop_cancel_forgets_refuted.
(** VIOLATED: eleven timers that run out together overflow the queue in interrupt context. *)
Theorem C61_eleven_timers_refuted : exists s k, reach anyone (s, k) /\ enabled (s, k) (XExpire 10) /\ step (s, k) (XExpire 10) = UB /\ (forall id, running (tms s id) = true -> id = 10).
Proof.
  at_run free (map XInit (seq 0 11) ++ map (fun i => XArm i (ms 1)) (seq 0 11) ++ map XExpire (seq 0 10)). split; [reflexivity|]. split; [reflexivity|].
  intros id. cbn. do 11 (destruct id as [|id]; [discriminate || reflexivity|]). discriminate.
Qed.
Print Assumptions C61_eleven_timers_refuted.
(** VIOLATED: a timeout of 25 days is given to the kernel as a negative one, one below a millisecond as zero. *)
Theorem C61_durations_refuted : duration_ms (25 * 24 * 3600 * 1000000000) = (-2134967296)%Z /\ duration_ms 999999 = 0%Z.
Proof. split; reflexivity. Qed.
Print Assumptions C61_durations_refuted.
