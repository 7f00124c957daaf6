(** C39, C40: the theorems about timers. *)
From Verif Require Import Base TimerModel TimerSpec TimerProofs.

(** * C40 *)
(** For every 64-bit duration the pair handed to the kernel is exactly that
    duration, is acceptable to the kernel, and is one-shot. *)
Theorem C40_duration_converted_exactly : forall ns : N, (ns < 2 ^ 64)%N ->
  let sp := convert_timeoutns_to_itimerspec ns in
  (value_sec sp * 1000000000 + value_nsec sp = Z.of_N ns /\ 0 <= value_nsec sp < 1000000000 /\ 0 <= value_sec sp < 2 ^ 63 /\
   interval_sec sp = 0 /\ interval_nsec sp = 0)%Z.
Proof.
  intros ns H sp. unfold sp. rewrite conv_eq by exact H. cbn [value_sec value_nsec interval_sec interval_nsec].
  assert (E : (ns = 1000000000 * (ns / 1000000000) + ns mod 1000000000)%N) by (apply N.div_mod; lia).
  assert (ns mod 1000000000 < 1000000000)%N by (apply N.mod_lt; lia).
  change (2 ^ 64)%N with 18446744073709551616%N in H. change (2 ^ 63)%Z with 9223372036854775808%Z. lia.
Qed.
Print Assumptions C40_duration_converted_exactly.
Example conversion_boundaries :
  map convert_timeoutns_to_itimerspec [1; 999999999; 1000000000; 18446744073709551615]%N =
  [Spec 0 0 0 1; Spec 0 0 0 999999999; Spec 0 0 1 0; Spec 0 0 18446744073 709551615].
Proof. vm_compute. reflexivity. Qed.

(** * C39 *)
(** Careful use never meets undefined behaviour (no NULL handler is called, no
    freed timer is touched). *)
Theorem C39_no_undefined_behaviour : forall c x, reach careful c -> enabled c x -> careful c x -> step c x <> UB.
Proof.
  intros [t k] x R E C. destruct (step_inv t k x (reach_inv _ R) E C) as (t' & k' & S & _). rewrite S. discriminate.
Qed.
Print Assumptions C39_no_undefined_behaviour.

(** cio_timer_expires_from_now reports success exactly if the kernel accepted the duration, and then the kernel timer runs (or has
    run out already, or the handler was called); if the kernel refused, the error is reported and the kernel timer is as before. *)
Theorem C39_arming_tells_the_truth : forall t k ns ch t' k', (0 < ns < 2 ^ 64)%N -> step (t, k) (XArm ns ch) = Ret (t', k') ->
  match c_settime ch with
  | Some e => tr t' = tr t ++ [EvArmFailed (narm t) (- e)%Z] /\ kern t' = kern t /\ k' = k
  | None => exists l, tr t' = tr t ++ EvArm (narm t) ns :: l /\ (l = [] -> kern t' = KRunning /\ k' = k) /\ (forall i e, ~ In (EvArmFailed i e) l)
  end.
Proof.
  intros t k ns ch t' k' [P L] H. cbn [step] in H. unfold expires_from_now in H. destruct (negb (alive t)); [discriminate|].
  unfold settime in H. destruct (c_settime ch) as [e|].
  - injection H as <- <-. repeat split; reflexivity.
  - assert (NZ : spec_zero (convert_timeoutns_to_itimerspec ns) = false) by (apply Bool.not_true_iff_false; rewrite conv_zero by exact L; lia).
    rewrite conv_valid, NZ in H by exact L. unfold quick in H. cbn [kern log set_kern next_id set_handler] in H. destruct (c_quick ch).
    + unfold timer_read in H. destruct (c_read ch) as [e|]; cbn in H; injection H as <- <-; cbn [tr log set_kern next_id set_handler].
      * exists [EvExpired; EvHandler (narm t) (- e)%Z]. rewrite <- !app_assoc. split; [reflexivity|]. split; [discriminate|]. intros i e' [X|[X|[]]]; discriminate.
      * exists [EvExpired; EvHandler (narm t) SUCCESS]. rewrite <- !app_assoc. split; [reflexivity|]. split; [discriminate|]. intros i e' [X|[X|[]]]; discriminate.
    + unfold timer_read in H. destruct (c_read ch) as [e|]; cbn in H; injection H as <- <-; cbn [tr log set_kern next_id set_handler].
      * exists [EvHandler (narm t) (- e)%Z]. rewrite <- !app_assoc. split; [reflexivity|]. split; [discriminate|]. intros i e' [X|[]]; discriminate.
      * exists []. split; [reflexivity|]. split; [split; reflexivity|]. intros i e' [].
Qed.
Print Assumptions C39_arming_tells_the_truth.

(** Exactly one handler call per arming: at most one, and if there was none yet
    the kernel timer is running or has run out and the event loop watches it. *)
Theorem C39_one_call_per_arming : forall t k id, reach careful (t, k) -> armings id (tr t) <> 0%nat ->
  calls id (tr t) = 1%nat \/ (calls id (tr t) = 0%nat /\ outstanding (tr t) = Some id /\ kern t <> KDisarmed /\ in_loop t = true).
Proof.
  intros t k id R A. pose proof (reach_inv _ R) as I. cbn [fst snd] in I.
  pose proof (i_count _ _ I id) as CN. pose proof (i_once _ _ I id) as ON.
  destruct (outstanding (tr t)) as [i|] eqn:O; [destruct (Nat.eqb i id) eqn:E|].
  - apply Nat.eqb_eq in E. subst i. right. repeat split; try lia.
    + intros K. apply (i_kern _ _ I) in K. congruence.
    + apply (i_loop _ _ I). pose proof (i_close1 _ _ I). destruct (closings (tr t)) as [|[|n]] eqn:C; [reflexivity| |lia].
      pose proof (i_closed _ _ I C). congruence.
  - left. lia.
  - left. lia.
Qed.
Print Assumptions C39_one_call_per_arming.

(** A handler is never called for an arming that was not made. *)
Theorem C39_no_call_without_arming : forall t k id, reach careful (t, k) -> (calls id (tr t) <= armings id (tr t))%nat.
Proof. intros t k id R. pose proof (i_count _ _ (reach_inv _ R) id) as H. cbn [fst] in H. lia. Qed.
Print Assumptions C39_no_call_without_arming.

(** When the timer has run out, the next dispatch calls the handler with success. *)
Theorem C39_expiry_calls_handler : forall t id, reach careful (t, []) -> outstanding (tr t) = Some id -> kern t = KExpired ->
  exists t', step (t, []) (XDispatch ok_choice) = Ret (t', [OUser SUCCESS]) /\ tr t' = tr t ++ [EvHandler id SUCCESS] /\ handler t' = None.
Proof.
  intros t id R O K. pose proof (reach_inv _ R) as I. cbn [fst snd] in I.
  destruct (app_quiet t [] I eq_refl) as [Q H]; [intros []|].
  assert (AL : alive t = true).
  { apply (i_fd _ _ I). pose proof (i_close _ _ I) as C. cbn in C. pose proof (i_close1 _ _ I). destruct (hooks (tr t)) as [|n] eqn:HK; [reflexivity|].
    assert (X : closings (tr t) = 1%nat) by lia. apply (i_closed _ _ I) in X. congruence. }
  cbn [step]. rewrite AL. unfold timer_read. cbn [c_read ok_choice]. rewrite K, H, O. cbn [call_handler].
  eexists. split; [reflexivity|]. split; reflexivity.
Qed.
Print Assumptions C39_expiry_calls_handler.

(** Cancelling an idle timer is refused and changes nothing; cancelling or
    closing an armed one calls its handler with CIO_OPERATION_ABORTED. *)
Theorem C39_cancel : forall t k ch, reach careful (t, k) -> app_runs k = true -> careful (t, k) (XCancel ch) ->
  (outstanding (tr t) = None -> step (t, k) (XCancel ch) = Ret (log (EvCancelFailed OPERATION_NOT_PERMITTED) t, k)) /\
  (forall id, outstanding (tr t) = Some id -> exists t', step (t, k) (XCancel ch) = Ret (t', OUser OPERATION_ABORTED :: OCancelEnd :: k) /\
     tr t' = tr t ++ [EvCancel; EvHandler id OPERATION_ABORTED] /\ kern t' = KDisarmed) /\
  (forall id, outstanding (tr t) = Some id -> exists t', step (t, k) (XClose ch) = Ret (t', OUser OPERATION_ABORTED :: OCancelEnd :: OCloseEnd :: k) /\
     tr t' = tr t ++ [EvClose; EvCancel; EvHandler id OPERATION_ABORTED] /\ kern t' = KDisarmed).
Proof.
  intros t k ch R A (W & N & NC). pose proof (reach_inv _ R) as I. cbn [fst snd] in I.
  destruct (app_quiet t k I A N) as [Q H].
  assert (AL : alive t = true). { apply (i_fd _ _ I). apply closings_none in NC. pose proof (i_close _ _ I). lia. }
  cbn [step]. unfold close, cancel. cbn [alive handler out_of_loop log]. rewrite AL, H. cbn [negb]. rewrite settime_disarm by exact W.
  split; [|split].
  - intros ->. reflexivity.
  - intros id ->. cbn [call_handler]. eexists. split; [reflexivity|]. split; [cbn; rewrite <- app_assoc; reflexivity|reflexivity].
  - intros id ->. cbn [call_handler]. eexists. split; [reflexivity|]. split; [cbn; rewrite <- !app_assoc; reflexivity|reflexivity].
Qed.
Print Assumptions C39_cancel.

(** Why a handler was called: success only after the kernel timer of this very
    arming ran out, aborted only by a cancellation, nothing else. *)
Definition justified (tr : list tev) : Prop := forall a id err c, tr = a ++ EvHandler id err :: c ->
  (err = SUCCESS /\ exists a1 ns a2, a = a1 ++ EvArm id ns :: a2 /\ In EvExpired a2) \/
  (err = OPERATION_ABORTED /\ (exists a1, a = a1 ++ [EvCancel]) /\ exists ns, In (EvArm id ns) a).

Definition pend (t : tmr) : Prop := forall id, outstanding (tr t) = Some id ->
  exists a1 ns a2, tr t = a1 ++ EvArm id ns :: a2 /\ (kern t = KExpired -> In EvExpired a2).

Lemma justified_snoc l e : justified l -> (forall id err, e <> EvHandler id err) -> justified (l ++ [e]).
Proof.
  intros J N a id err c H. destruct c as [|x0 c0 _] using rev_ind.
  - change (l ++ [e] = a ++ [EvHandler id err]) in H. apply app_inj_tail in H. destruct H as [_ H]. edestruct N. exact H.
  - rewrite app_comm_cons, app_assoc in H. apply app_inj_tail in H. destruct H as [H _]. eapply J. exact H.
Qed.
Lemma justified_call l id err : justified l ->
  ((err = SUCCESS /\ exists a1 ns a2, l = a1 ++ EvArm id ns :: a2 /\ In EvExpired a2) \/
   (err = OPERATION_ABORTED /\ (exists a1, l = a1 ++ [EvCancel]) /\ exists ns, In (EvArm id ns) l)) -> justified (l ++ [EvHandler id err]).
Proof.
  intros J N a i e c H. destruct c as [|x0 c0 _] using rev_ind.
  - apply app_inj_tail in H. destruct H as [<- H]. injection H as <- <-. exact N.
  - rewrite app_comm_cons, app_assoc in H. apply app_inj_tail in H. destruct H as [H _]. eapply J. exact H.
Qed.

Lemma pend_other t t' e : pend t -> tr t' = tr t ++ [e] -> out_step (outstanding (tr t)) e = outstanding (tr t) -> (kern t' = KExpired -> kern t = KExpired \/ e = EvExpired) -> pend t'.
Proof.
  intros P T O K id H. rewrite T, out_snoc, O in H. destruct (P id H) as (a1 & ns & a2 & E & X).
  exists a1, ns, (a2 ++ [e]). split; [rewrite T, E, <- app_assoc; reflexivity|].
  intros KE. apply in_app_iff. destruct (K KE) as [Y|Y]; [left; apply X, Y|right; left; exact Y].
Qed.
Lemma pend_none t : outstanding (tr t) = None -> pend t.
Proof. intros H id X. congruence. Qed.
Lemma pend_armed t l id ns : tr t = l ++ [EvArm id ns] -> kern t <> KExpired -> pend t.
Proof. intros T K i H. rewrite T, out_snoc in H. cbn in H. injection H as <-. exists l, ns, []. split; [exact T|contradiction]. Qed.

Ltac noh := intros ? ? X; discriminate X.
Lemma step_just t k x t' k' : inv t k -> justified (tr t) -> pend t -> enabled (t, k) x -> careful (t, k) x -> step (t, k) x = Ret (t', k') -> justified (tr t') /\ pend t'.
Proof.
  intros I J P E C S. destruct x as [|ch|ns ch|ch|ch| |]; cbn [enabled careful step] in *.
  - injection S as <- <-. split; [apply justified_snoc; [exact J|noh]|]. eapply (pend_other t); [exact P|reflexivity|reflexivity|right; reflexivity].
  - destruct E as [-> L]. destruct (alive t); [|discriminate S]. destruct (app_quiet t [] I eq_refl) as [Q H]; [intros []|].
    unfold timer_read in S. destruct C as [_ C]. rewrite C in S.
    destruct (kern t) eqn:K; [injection S as <- <-; split; assumption..|].
    destruct (outstanding (tr t)) as [id|] eqn:O; rewrite H in S; cbn [call_handler] in S; [|discriminate S]. injection S as <- <-.
    split.
    + apply justified_call; [exact J|]. left. split; [reflexivity|]. destruct (P id O) as (a1 & ns & a2 & X & Y). exists a1, ns, a2. split; [exact X|apply Y, K].
    + apply pend_none. cbn [tr log set_handler set_kern]. rewrite out_snoc. cbn. rewrite ?O; cbn; rewrite ?Nat.eqb_refl. reflexivity.
  - destruct E as [A L]. destruct C as (W & PS & O & N & NC). unfold expires_from_now in S. destruct (alive t); [|discriminate S]. cbn [negb] in S.
    rewrite settime_arm in S by assumption.
    set (t1 := log (EvArm (narm t) ns) (set_kern KRunning (next_id (set_handler (Some (narm t)) t)))) in *.
    assert (J1 : justified (tr t1)) by (apply justified_snoc; [exact J|noh]).
    unfold quick in S. change (kern t1) with KRunning in S. unfold timer_read in S. destruct W as [_ W]. rewrite W in S.
    destruct (c_quick ch).
    + cbn in S. injection S as <- <-. cbn [tr log set_handler set_kern]. split.
      * apply justified_call; [apply justified_snoc; [exact J1|noh]|]. left. split; [reflexivity|].
        exists (tr t), ns, [EvExpired]. split; [unfold t1; cbn; rewrite <- app_assoc; reflexivity|left; reflexivity].
      * apply pend_none. unfold t1. cbn [tr log set_handler set_kern next_id]. rewrite !out_snoc. cbn. rewrite Nat.eqb_refl. reflexivity.
    + change (kern t1) with KRunning in S. injection S as <- <-. split; [exact J1|]. eapply pend_armed; [reflexivity|discriminate].
  - destruct C as (W & N & NC). destruct (app_quiet t k I E N) as [Q H]. unfold cancel in S. destruct (alive t); [|discriminate S]. cbn [negb] in S.
    destruct (handler t) as [id|] eqn:HD.
    + rewrite settime_disarm in S by exact W. cbn [call_handler] in S. injection S as <- <-. cbn [tr log set_kern]. split.
      * apply justified_call; [apply justified_snoc; [exact J|noh]|]. right. split; [reflexivity|]. split; [eexists; reflexivity|].
        destruct (P id (eq_sym H)) as (a1 & ns & a2 & X & _). exists ns. rewrite X, !in_app_iff. left. right. left. reflexivity.
      * apply pend_none. cbn [tr log set_kern]. rewrite !out_snoc. cbn. rewrite <- H. cbn. rewrite Nat.eqb_refl. reflexivity.
    + injection S as <- <-. split; [apply justified_snoc; [exact J|noh]|]. apply pend_none. cbn [tr log]. rewrite out_snoc. cbn. symmetry. exact H.
  - destruct C as (W & N & NC). destruct (app_quiet t k I E N) as [Q H]. unfold close in S. destruct (alive t) eqn:AL; [|discriminate S]. cbn [negb] in S.
    change (handler (out_of_loop (log EvClose t))) with (handler t) in S. destruct (handler t) as [id|] eqn:HD.
    + unfold cancel in S. change (alive (out_of_loop (log EvClose t))) with (alive t) in S. rewrite AL in S. cbn [negb] in S.
      change (handler (out_of_loop (log EvClose t))) with (handler t) in S. rewrite HD, settime_disarm in S by exact W. cbn [call_handler] in S.
      injection S as <- <-. cbn [tr log set_kern out_of_loop]. split.
      * apply justified_call; [apply justified_snoc; [apply justified_snoc; [exact J|noh]|noh]|]. right. split; [reflexivity|]. split; [eexists; reflexivity|].
        destruct (P id (eq_sym H)) as (a1 & ns & a2 & X & _). exists ns. rewrite X, !in_app_iff. left. left. right. left. reflexivity.
      * apply pend_none. cbn [tr log set_kern out_of_loop]. rewrite !out_snoc. cbn. rewrite <- H. cbn. rewrite Nat.eqb_refl. reflexivity.
    + injection S as <- <-. split; [apply justified_snoc; [exact J|noh]|]. apply pend_none. cbn [tr log out_of_loop]. rewrite out_snoc. cbn. symmetry. exact H.
  - destruct k as [|[]]; try contradiction; injection S as <- <-; split; assumption.
  - destruct k as [|[]]; try contradiction; (destruct (alive t); [|discriminate S]); injection S as <- <-.
    + split; [exact J|exact P].
    + cbn [tr log close_fd free_mem]. split; [apply justified_snoc; [apply justified_snoc; [exact J|noh]|noh]|].
      intros id. cbn [tr log close_fd free_mem kern]. rewrite !out_snoc. cbn. intros O. destruct (P id O) as (a1 & ns & a2 & X & Y).
      exists a1, ns, (a2 ++ [EvFdClosed] ++ [EvHook]). split; [rewrite X, <- !app_assoc; reflexivity|]. intros K. apply in_app_iff. left. apply Y, K.
Qed.

Theorem C39_calls_are_justified : forall t k, reach careful (t, k) -> justified (tr t).
Proof.
  assert (G : forall c, reach careful c -> inv (fst c) (snd c) /\ justified (tr (fst c)) /\ pend (fst c)); [|intros t k R; apply (G (t, k) R)].
  intros c R.
  induction R as [|[t k] x [t' k'] R (I & J & P) E C S].
  - split; [apply init_inv|]. split; [intros a id err c H; destruct a; discriminate H|intros id H; discriminate H].
  - cbn [fst snd] in *. destruct (step_inv t k x I E C) as (t2 & k2 & S2 & I2). rewrite S in S2. injection S2 as <- <-.
    split; [exact I2|]. exact (step_just t k x t' k' I J P E C S).
Qed.
Print Assumptions C39_calls_are_justified.

(** Closing: the file descriptor is closed once, then the hook is called once,
    and nothing is still waiting for its handler then. *)
Theorem C39_close_once : forall t k, reach careful (t, k) ->
  (hooks (tr t) <= 1)%nat /\ fd_closings (tr t) = hooks (tr t) /\ (hooks (tr t) <= closings (tr t))%nat /\
  (k = [] -> hooks (tr t) = closings (tr t)) /\ (closings (tr t) = 1%nat -> outstanding (tr t) = None).
Proof.
  intros t k R. pose proof (reach_inv _ R) as I. cbn [fst snd] in I.
  pose proof (i_close _ _ I). pose proof (i_close1 _ _ I). pose proof (i_fd _ _ I) as (F & _).
  split; [lia|]. split; [exact F|]. split; [lia|]. split; [|apply (i_closed _ _ I)].
  intros ->. cbn in H. lia.
Qed.
Print Assumptions C39_close_once.

(** * Runs, for the witnesses *)
Definition enabledb (c : config) (x : act) : bool :=
  let '(t, k) := c in
  match x with
  | XExpire => match kern t with KRunning => true | _ => false end
  | XDispatch _ => match k with [] => in_loop t | _ => false end
  | XArm ns _ => (app_runs k && (ns <? 2 ^ 64)%N)%bool
  | XCancel _ | XClose _ => app_runs k
  | XReturn => match k with OUser _ :: _ | OHook :: _ => true | _ => false end
  | XCont => match k with OCancelEnd :: _ | OCloseEnd :: _ => true | _ => false end
  end.
Lemma enabledb_ok c x : enabledb c x = true -> enabled c x.
Proof.
  destruct c as [t k], x; cbn; try (intros H; exact H).
  - destruct (kern t); congruence.
  - destruct k; [auto|discriminate].
  - intros H. apply andb_prop in H. split; [tauto|lia].
  - destruct k as [|[]]; try discriminate; auto.
  - destruct k as [|[]]; try discriminate; auto.
Qed.
Fixpoint exec (c : config) (l : list act) : option config :=
  match l with [] => Some c | x :: r => if enabledb c x then match step c x with Ret c' => exec c' r | UB => None end else None end.
Lemma exec_reach c l c' : exec c l = Some c' -> reach anyone c -> reach anyone c'.
Proof.
  revert c. induction l as [|x r IH]; intros c; cbn; [intros [= ->]; auto|].
  destruct (enabledb c x) eqn:E; [|discriminate]. destruct (step c x) as [c1|] eqn:S; [|discriminate].
  intros X R. eapply IH; [exact X|]. eapply reach_step; [exact R|apply enabledb_ok, E|exact I|exact S].
Qed.
Ltac run_it l := let c := eval vm_compute in (exec timer_init l) in
  match c with Some ?c' => exists (fst c'), (snd c'); split; [change (reach anyone c'); eapply (exec_reach timer_init l); [vm_compute; reflexivity|apply reach_init]|] end.

(** Re-arming the timer in a handler that is called because of a cancellation
    (as the documentation of one-shot timers suggests: "rearm the timer in your
    timer callback") stores the new handler, cio_timer_cancel then erases it,
    and the expiry calls a NULL function pointer. *)
Theorem C39_rearm_in_aborted_handler_refuted : exists t k, reach anyone (t, k) /\ enabled (t, k) (XDispatch ok_choice) /\
  tr t = [EvArm 0 1000; EvCancel; EvHandler 0 OPERATION_ABORTED; EvArm 1 1000; EvExpired] /\ step (t, k) (XDispatch ok_choice) = UB.
Proof.
  run_it [XArm 1000 ok_choice; XCancel ok_choice; XArm 1000 ok_choice; XReturn; XCont; XExpire].
  split; [apply enabledb_ok; reflexivity|]. split; reflexivity.
Qed.
Print Assumptions C39_rearm_in_aborted_handler_refuted.

(** Closing the timer in such a handler calls the handler a second time, and the
    cancellation then writes to the timer after its close hook has run. *)
Theorem C39_close_in_aborted_handler_refuted : exists t k, reach anyone (t, k) /\ enabled (t, k) XCont /\
  calls 0 (tr t) = 2%nat /\ hooks (tr t) = 1%nat /\ step (t, k) XCont = UB.
Proof.
  run_it [XArm 1000 ok_choice; XCancel ok_choice; XClose ok_choice; XReturn; XCont; XCont; XReturn; XReturn].
  split; [exact I|]. repeat split; reflexivity.
Qed.
Print Assumptions C39_close_in_aborted_handler_refuted.

(** A timeout of zero is accepted but the timer never expires: no kernel event
    and no dispatch changes anything. *)
Theorem C39_zero_timeout_refuted : exists t, reach anyone (t, []) /\ tr t = [EvArm 0 0] /\ ~ enabled (t, []) XExpire /\
  forall ch, kernel_works ch -> step (t, []) (XDispatch ch) = Ret (t, []).
Proof.
  assert (X : exists t k, reach anyone (t, k) /\ (t, k) = (mkT (Some 0%nat) KDisarmed true true true 1 [EvArm 0 0], [])) by (run_it [XArm 0 ok_choice]; reflexivity).
  destruct X as (t & k & R & [= -> ->]). eexists. split; [exact R|]. split; [reflexivity|]. split; [discriminate|].
  intros ch [_ W]. cbn. unfold timer_read. rewrite W. reflexivity.
Qed.
Print Assumptions C39_zero_timeout_refuted.

(** Arming an armed timer again drops the first handler silently: the timer is
    closed at the end and that handler was never called. *)
Theorem C39_second_arming_drops_first_refuted : exists t k, reach anyone (t, k) /\ armings 0 (tr t) = 1%nat /\ calls 0 (tr t) = 0%nat /\ alive t = false.
Proof.
  run_it [XArm 1000 ok_choice; XArm 1000 ok_choice; XExpire; XDispatch ok_choice; XReturn; XClose ok_choice; XCont; XReturn]. repeat split; reflexivity.
Qed.
Print Assumptions C39_second_arming_drops_first_refuted.

(** Non-vacuity: a careful run with an expiry, a re-arming inside the success
    handler, a cancellation, another arming and a close. *)
Ltac careful_it l R :=
  match l with
  | [] => idtac
  | ?x :: ?r =>
    match type of R with reach careful ?c =>
      let c' := eval vm_compute in (step c x) in
      match c' with Ret ?d => let R' := fresh "R" in
        assert (R' : reach careful d) by (eapply (reach_step careful c x d R); [apply enabledb_ok; reflexivity|cbn; repeat split; try reflexivity; try tauto; try (intros X; vm_compute in X; repeat match type of X with _ \/ _ => destruct X as [X|X]; [discriminate X|] end; exact X)|reflexivity]);
        clear R; careful_it r R' end end
  end.
Example careful_run : exists t, reach careful (t, []) /\ tr t =
  [EvArm 0 500; EvExpired; EvHandler 0 SUCCESS; EvArm 1 700; EvCancel; EvHandler 1 OPERATION_ABORTED; EvCancelFailed OPERATION_NOT_PERMITTED;
   EvArm 2 900; EvClose; EvCancel; EvHandler 2 OPERATION_ABORTED; EvFdClosed; EvHook].
Proof.
  assert (R : reach careful timer_init) by apply reach_init. unfold timer_init in R.
  careful_it [XArm 500 ok_choice; XExpire; XDispatch ok_choice; XArm 700 ok_choice; XReturn; XCancel ok_choice; XReturn; XCont; XCancel ok_choice;
    XArm 900 ok_choice; XClose ok_choice; XReturn; XCont; XCont; XReturn] R.
  eexists. split; [eassumption|reflexivity].
Qed.

(** The close hook is the end: it follows the closing of the descriptor at once,
    and nothing is observed of the timer after it. *)
Theorem C39_hook_is_last : forall t k, reach careful (t, k) -> In EvHook (tr t) ->
  exists r, tr t = r ++ [EvFdClosed; EvHook] /\ In EvClose r /\ ~ In EvFdClosed r /\ ~ In EvHook r.
Proof.
  assert (IH0 : forall l, ~ In EvHook l <-> hooks l = 0%nat).
  { intros l. unfold hooks. induction l as [|e l IH]; cbn; [tauto|]. destruct e; cbn; try (rewrite <- IH; split; [tauto|intros H [X|X]; [discriminate|tauto]]). split; [tauto|lia]. }
  assert (IF0 : forall l, ~ In EvFdClosed l <-> fd_closings l = 0%nat).
  { intros l. unfold fd_closings. induction l as [|e l IH]; cbn; [tauto|]. destruct e; cbn; try (rewrite <- IH; split; [tauto|intros H [X|X]; [discriminate|tauto]]). split; [tauto|lia]. }
  assert (IC0 : forall l, closings l <> 0%nat -> In EvClose l).
  { intros l. unfold closings. induction l as [|e l IH]; cbn; [lia|]. destruct e; cbn; auto. }
  assert (G : forall c, reach careful c -> hooks (tr (fst c)) <> 0%nat -> exists r, tr (fst c) = r ++ [EvFdClosed; EvHook]).
  { induction 1 as [|[t k] x [t' k'] R IH E C S]; [cbn; lia|]. cbn [fst] in *. pose proof (reach_inv _ R) as I. cbn [fst snd] in I.
    pose proof (i_close _ _ I) as CL. pose proof (i_close1 _ _ I) as CL1.
    destruct (Nat.eq_dec (hooks (tr t)) 0) as [H0|H0].
    - intros H1. destruct x as [|ch|ns ch|ch|ch| |]; cbn [step enabled careful] in *.
      + injection S as <- _. cbn [log set_kern tr] in H1. rewrite hooks_snoc in H1. cbn in H1. lia.
      + exfalso. destruct (alive t); [|discriminate S]. unfold timer_read in S. destruct C as [_ C]. rewrite C in S. destruct (kern t); try (injection S as <- _; contradiction).
        unfold call_handler in S. destruct (handler t); [|discriminate S]. injection S as <- _. cbn [tr log set_handler set_kern] in H1. rewrite hooks_snoc in H1. cbn in H1. lia.
      + exfalso. unfold expires_from_now in S. destruct (negb (alive t)); [discriminate S|]. destruct (settime _ _); [injection S as <- _; cbn [tr log set_handler set_kern next_id] in H1; rewrite hooks_snoc in H1; cbn in H1; lia|].
        unfold timer_read in S. destruct C as ([_ C] & _). rewrite C in S. unfold quick in S. cbn [kern log set_kern] in S.
        destruct k0; [| |]; try (cbn [kern log set_kern] in S; destruct (c_quick ch); cbn [kern log set_kern] in S);
          try (unfold call_handler in S; cbn [handler log set_kern set_handler next_id] in S);
          injection S as <- _; cbn [tr log set_handler set_kern next_id] in H1; rewrite ?hooks_snoc in H1; cbn in H1; lia.
      + exfalso. unfold cancel in S. destruct (negb (alive t)); [discriminate S|]. destruct (handler t); [|injection S as <- _; cbn [tr log] in H1; rewrite hooks_snoc in H1; cbn in H1; lia].
        destruct (settime _ _); cbn [call_handler] in S; injection S as <- _; cbn [tr log set_kern] in H1; rewrite ?hooks_snoc in H1; cbn in H1; lia.
      + exfalso. unfold close in S. destruct (negb (alive t)); [discriminate S|]. cbn [handler out_of_loop log] in S. destruct (handler t) eqn:HD; [|injection S as <- _; cbn [tr log out_of_loop] in H1; rewrite hooks_snoc in H1; cbn in H1; lia].
        unfold cancel in S. destruct (negb _); [discriminate S|]. cbn [handler out_of_loop log] in S. rewrite HD in S.
        destruct (settime _ _); cbn [call_handler] in S; injection S as <- _; cbn [tr log set_kern out_of_loop] in H1; rewrite ?hooks_snoc in H1; cbn in H1; lia.
      + exfalso. destruct k as [|[]]; try contradiction; injection S as <- _; contradiction.
      + destruct k as [|[]]; try contradiction; destruct (alive t); try discriminate S; injection S as <- _; [contradiction|].
        exists (tr t). cbn [tr free_mem log close_fd]. rewrite <- app_assoc. reflexivity.
    - intros _. destruct (IH H0) as (r & RE). assert (CN : closings (tr t) = 1%nat) by lia. assert (CK : closes k = 0%nat) by lia.
      assert (IN : In EvClose (tr t)) by (apply IC0; lia).
      destruct x as [|ch|ns ch|ch|ch| |]; cbn [step enabled careful] in *.
      + pose proof (i_closed _ _ I CN) as O. apply (i_kern _ _ I) in O. congruence.
      + destruct E as [_ L]. apply (i_loop _ _ I) in L. lia.
      + exfalso. apply C. exact IN.
      + exfalso. apply C. exact IN.
      + exfalso. apply C. exact IN.
      + destruct k as [|[]]; try contradiction; injection S as <- _; exists r; exact RE.
      + destruct k as [|[]]; try contradiction; [|cbn in CK; lia]. destruct (alive t); [|discriminate S]. injection S as <- _. exists r. exact RE. }
  intros t k R H. pose proof (reach_inv _ R) as I. cbn [fst snd] in I. pose proof (i_close _ _ I) as CL. pose proof (i_close1 _ _ I) as CL1. destruct (i_fd _ _ I) as (FD & _).
  assert (HN : hooks (tr t) <> 0%nat) by (rewrite <- IH0; tauto).
  destruct (G _ R HN) as (r & RE). cbn [fst] in RE. exists r. split; [exact RE|]. rewrite RE in *.
  change [EvFdClosed; EvHook] with ([EvFdClosed] ++ [EvHook]) in *. rewrite app_assoc in *. rewrite !closings_snoc, ?hooks_snoc, ?fd_closings_snoc in *.
  change (hooks [EvFdClosed]) with 0%nat in *. change (hooks [EvHook]) with 1%nat in *. change (closings [EvFdClosed]) with 0%nat in *. change (closings [EvHook]) with 0%nat in *.
  change (fd_closings [EvFdClosed]) with 1%nat in *. change (fd_closings [EvHook]) with 0%nat in *.
  split; [apply IC0; lia|]. rewrite IF0, IH0. split; lia.
Qed.
Print Assumptions C39_hook_is_last.
