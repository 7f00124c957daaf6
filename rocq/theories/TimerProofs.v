From Verif Require Import Base TimerModel TimerSpec.

Lemma out_snoc l e : outstanding (l ++ [e]) = out_step (outstanding l) e.
Proof. unfold outstanding. rewrite fold_left_app. reflexivity. Qed.
Lemma armings_snoc id l e : armings id (l ++ [e]) = (armings id l + armings id [e])%nat.
Proof. unfold armings. rewrite filter_app, app_length. reflexivity. Qed.
Lemma calls_snoc id l e : calls id (l ++ [e]) = (calls id l + calls id [e])%nat.
Proof. unfold calls. rewrite filter_app, app_length. reflexivity. Qed.
Lemma closings_snoc l e : closings (l ++ [e]) = (closings l + closings [e])%nat.
Proof. unfold closings. rewrite filter_app, app_length. reflexivity. Qed.
Lemma fd_closings_snoc l e : fd_closings (l ++ [e]) = (fd_closings l + fd_closings [e])%nat.
Proof. unfold fd_closings. rewrite filter_app, app_length. reflexivity. Qed.
Lemma hooks_snoc l e : hooks (l ++ [e]) = (hooks l + hooks [e])%nat.
Proof. unfold hooks. rewrite filter_app, app_length. reflexivity. Qed.

(** * C40 *)
Section Conv.
Local Open Scope Z_scope.
Ltac Zify.zify_post_hook ::= Z.div_mod_to_equations.
Lemma to_signed64_small x : (x < 2 ^ 63)%N -> to_signed64 x = Z.of_N x.
Proof. intros H. unfold to_signed64. rewrite Z.mod_small by lia. replace (Z.of_N x <? 2 ^ 63) with true by lia. reflexivity. Qed.
Lemma to_unsigned64_small z : 0 <= z < 2 ^ 64 -> to_unsigned64 z = Z.to_N z.
Proof. intros H. unfold to_unsigned64. rewrite Z.mod_small by lia. reflexivity. Qed.
Lemma conv_eq ns : (ns < 2 ^ 64)%N -> convert_timeoutns_to_itimerspec ns = Spec 0 0 (Z.of_N (ns / 1000000000)) (Z.of_N (ns mod 1000000000)).
Proof.
  intros H. change (2 ^ 64)%N with 18446744073709551616%N in H. unfold convert_timeoutns_to_itimerspec, NSECONDS_IN_SECONDS.
  rewrite to_signed64_small by (change (2 ^ 63)%N with 9223372036854775808%N; lia).
  rewrite to_unsigned64_small by (change (2 ^ 64) with 18446744073709551616; lia).
  rewrite N2Z.id. change (2 ^ 64)%N with 18446744073709551616%N.
  rewrite (N.mod_small (_ * _)) by lia.
  replace ((ns + 18446744073709551616 - ns / 1000000000 * 1000000000) mod 18446744073709551616)%N with (ns mod 1000000000)%N.
  - rewrite to_signed64_small by (change (2 ^ 63)%N with 9223372036854775808%N; lia). reflexivity.
  - assert (E : (ns = 1000000000 * (ns / 1000000000) + ns mod 1000000000)%N) by (apply N.div_mod; lia).
    replace (ns + 18446744073709551616 - ns / 1000000000 * 1000000000)%N with (ns mod 1000000000 + 1 * 18446744073709551616)%N by lia.
    rewrite N.mod_add by lia. rewrite (N.mod_small (ns mod 1000000000)); [reflexivity|]. assert (ns mod 1000000000 < 1000000000)%N by (apply N.mod_lt; lia). lia.
Qed.
Lemma conv_valid ns : (ns < 2 ^ 64)%N -> spec_valid (convert_timeoutns_to_itimerspec ns) = true.
Proof. intros H. rewrite conv_eq by exact H. unfold spec_valid. cbn. assert (ns mod 1000000000 < 1000000000)%N by (apply N.mod_lt; lia). lia. Qed.
Lemma conv_zero ns : (ns < 2 ^ 64)%N -> spec_zero (convert_timeoutns_to_itimerspec ns) = true <-> ns = 0%N.
Proof.
  intros H. rewrite conv_eq by exact H. unfold spec_zero. cbn.
  assert (E : (ns = 1000000000 * (ns / 1000000000) + ns mod 1000000000)%N) by (apply N.div_mod; lia). split; lia.
Qed.
End Conv.

(** * C39 *)
Definition quiet (k : list op) : Prop := ~ In (OUser OPERATION_ABORTED) k /\ ~ In OCancelEnd k.
Definition closes (k : list op) : nat := length (filter (fun o => match o with OCloseEnd => true | _ => false end) k).

Record inv (t : tmr) (k : list op) : Prop := Inv {
  i_shape : quiet k /\ handler t = outstanding (tr t) \/
            exists r id, (k = OUser OPERATION_ABORTED :: OCancelEnd :: r \/ k = OCancelEnd :: r) /\ quiet r /\ handler t = Some id /\ outstanding (tr t) = None;
  i_kern : outstanding (tr t) = None <-> kern t = KDisarmed;
  i_ids : forall id, (narm t <= id)%nat -> armings id (tr t) = 0%nat /\ calls id (tr t) = 0%nat;
  i_out : forall id, outstanding (tr t) = Some id -> (id < narm t)%nat;
  i_count : forall id, (armings id (tr t) = calls id (tr t) + match outstanding (tr t) with Some i => if Nat.eqb i id then 1 else 0 | None => 0 end)%nat;
  i_once : forall id, (armings id (tr t) <= 1)%nat;
  i_close : closings (tr t) = (closes k + hooks (tr t))%nat;
  i_close1 : (closings (tr t) <= 1)%nat;
  i_fd : fd_closings (tr t) = hooks (tr t) /\ (fd_open t = true <-> hooks (tr t) = 0%nat) /\ (alive t = true <-> hooks (tr t) = 0%nat);
  i_loop : in_loop t = true <-> closings (tr t) = 0%nat;
  i_closed : closings (tr t) = 1%nat -> outstanding (tr t) = None;
  i_dead : hooks (tr t) = 1%nat -> handler t = None
}.

Lemma closings_none l : ~ In EvClose l <-> closings l = 0%nat.
Proof.
  unfold closings. induction l as [|e l IH]; cbn; [tauto|]. destruct e; cbn; try (rewrite <- IH; split; [tauto|intros H [X|X]; [discriminate|tauto]]). split; [tauto|lia].
Qed.

Lemma quiet_cons o k : quiet k -> o <> OUser OPERATION_ABORTED -> o <> OCancelEnd -> quiet (o :: k).
Proof. intros [A B] H1 H2. split; intros [X|X]; auto. Qed.
Lemma quiet_tail o k : quiet (o :: k) -> quiet k.
Proof. intros [A B]. split; intros X; [apply A|apply B]; right; exact X. Qed.

Lemma app_quiet t k : inv t k -> app_runs k = true -> ~ in_aborted_handler k -> quiet k /\ handler t = outstanding (tr t).
Proof.
  intros I A N. destruct (i_shape _ _ I) as [X|(r & id & [-> | ->] & _)]; [exact X| |discriminate A].
  exfalso. apply N. left. reflexivity.
Qed.

Lemma init_inv : inv (fst timer_init) [].
Proof.
  constructor; cbn; intros; try lia; try tauto; try discriminate.
  left. split; [split; intros []|reflexivity].
Qed.

Lemma eqb_false_lt a b : (a < b)%nat -> Nat.eqb a b = false /\ Nat.eqb b a = false.
Proof. intros H. split; apply Nat.eqb_neq; lia. Qed.

Ltac snocs := cbn [tr handler kern in_loop fd_open alive narm log set_kern set_handler next_id out_of_loop close_fd free_mem]; rewrite ?out_snoc, ?armings_snoc, ?calls_snoc, ?closings_snoc, ?fd_closings_snoc, ?hooks_snoc.

(** The environment's expiry. *)
Lemma expire_inv t k : inv t k -> kern t = KRunning -> inv (log EvExpired (set_kern KExpired t)) k.
Proof.
  intros I K. destruct I as [i_shape i_kern i_ids i_out i_count i_once i_close i_close1 i_fd i_loop i_closed i_dead].
  assert (O : outstanding (tr t) <> None) by (rewrite i_kern, K; discriminate).
  constructor; intros; snocs; cbn; rewrite ?Nat.add_0_r; auto.
  - split; intros X; [tauto|discriminate].
  - revert H; snocs; intros H. apply i_out. exact H.
  - apply i_closed. revert H. snocs. cbn. lia.
  - apply i_dead. revert H. snocs. cbn. lia.
Qed.

(** A handler call for the outstanding arming. *)
Lemma call_inv t k id err : inv t k -> handler t = outstanding (tr t) -> outstanding (tr t) = Some id -> quiet k -> err <> OPERATION_ABORTED ->
  inv (log (EvHandler id err) (set_handler None (set_kern KDisarmed t))) (OUser err :: k).
Proof.
  intros I H O Q NE. destruct I as [i_shape i_kern i_ids i_out i_count i_once i_close i_close1 i_fd i_loop i_closed i_dead].
  assert (L : (id < narm t)%nat) by (apply i_out, O).
  constructor; intros; snocs; cbn; rewrite ?O, ?Nat.eqb_refl, ?Nat.add_0_r; auto.
  - left. split; [apply quiet_cons; [exact Q|intros X; injection X as X; contradiction|discriminate]|]. snocs. cbn. rewrite ?O, ?Nat.eqb_refl. reflexivity.
  - tauto.
  - revert H0. snocs. intros H0. destruct (i_ids id0 H0) as [A B]. rewrite A, B. destruct (eqb_false_lt id id0 ltac:(lia)) as [-> _]. split; reflexivity.
  - revert H0. snocs. cbn. rewrite ?O, ?Nat.eqb_refl. discriminate.
  - specialize (i_count id0). rewrite O in i_count. destruct (Nat.eqb id id0); cbn in *; lia.
Qed.

(** The handler call of a cancellation: the handler pointer stays for now. *)
Lemma cancel_inv t k id : inv t k -> handler t = outstanding (tr t) -> outstanding (tr t) = Some id -> quiet k -> alive t = true ->
  inv (log (EvHandler id OPERATION_ABORTED) (log EvCancel (set_kern KDisarmed t))) (OUser OPERATION_ABORTED :: OCancelEnd :: k).
Proof.
  intros I H O Q AL. destruct I as [i_shape i_kern i_ids i_out i_count i_once i_close i_close1 i_fd i_loop i_closed i_dead].
  assert (L : (id < narm t)%nat) by (apply i_out, O).
  constructor; intros; snocs; cbn; rewrite ?O, ?Nat.eqb_refl, ?Nat.add_0_r; auto.
  - right. exists k, id. split; [left; reflexivity|]. split; [exact Q|]. split; [congruence|]. snocs. cbn. rewrite ?O, ?Nat.eqb_refl. reflexivity.
  - tauto.
  - revert H0. snocs. intros H0. destruct (i_ids id0 H0) as [A B]. rewrite A, B. cbn. destruct (eqb_false_lt id id0 ltac:(lia)) as [-> _]. split; reflexivity.
  - revert H0. snocs. cbn. rewrite ?O, ?Nat.eqb_refl. discriminate.
  - specialize (i_count id0). rewrite O in i_count. destruct (Nat.eqb id id0); cbn in *; lia.
  - exfalso. assert (X : hooks (tr t) = 0%nat) by tauto. revert H0. snocs. cbn. lia.
Qed.

Lemma log_refused_inv t k e : inv t k -> inv (log (EvCancelFailed e) t) k.
Proof.
  intros I. destruct I as [i_shape i_kern i_ids i_out i_count i_once i_close i_close1 i_fd i_loop i_closed i_dead].
  constructor; intros; snocs; cbn; rewrite ?Nat.add_0_r; auto.
  - revert H; snocs; intros H. apply i_out. exact H.
  - apply i_closed. revert H. snocs. cbn. lia.
  - apply i_dead. revert H. snocs. cbn. lia.
Qed.

(** Arming an idle timer. *)
Lemma arm_inv t k ns : inv t k -> quiet k -> handler t = outstanding (tr t) -> outstanding (tr t) = None -> closings (tr t) = 0%nat ->
  inv (log (EvArm (narm t) ns) (set_kern KRunning (next_id (set_handler (Some (narm t)) t)))) k.
Proof.
  intros I Q H O CL. destruct I as [i_shape i_kern i_ids i_out i_count i_once i_close i_close1 i_fd i_loop i_closed i_dead].
  constructor; intros; snocs; cbn; rewrite ?O, ?Nat.eqb_refl, ?Nat.add_0_r; auto.
  - split; discriminate.
  - revert H0. snocs. intros H0. destruct (i_ids id ltac:(lia)) as [A B]. rewrite A, B. cbn. destruct (eqb_false_lt (narm t) id ltac:(lia)) as [-> _]. split; reflexivity.
  - revert H0. snocs. cbn. intros [= <-]. lia.
  - specialize (i_count id). rewrite O in i_count. destruct (Nat.eqb (narm t) id) eqn:E; cbn in *; lia.
  - specialize (i_count id). specialize (i_once id). destruct (Nat.eqb (narm t) id) eqn:E; cbn in *; [|lia]. apply Nat.eqb_eq in E. subst id. destruct (i_ids (narm t) ltac:(lia)) as [A B]. lia.
  - exfalso. revert H0. snocs. cbn. lia.
  - exfalso. revert H0. snocs. cbn. lia.
Qed.

(** cio_timer_close up to the cancellation. *)
Lemma close_inv t k : inv t k -> quiet k -> handler t = outstanding (tr t) -> closings (tr t) = 0%nat -> outstanding (tr t) = None ->
  inv (out_of_loop (log EvClose t)) (OCloseEnd :: k).
Proof.
  intros I Q H CL O. destruct I as [i_shape i_kern i_ids i_out i_count i_once i_close i_close1 i_fd i_loop i_closed i_dead].
  assert (HK : hooks (tr t) = 0%nat) by lia.
  constructor; intros; snocs; cbn; rewrite ?Nat.add_0_r; auto.
  - left. split; [apply quiet_cons; [exact Q|discriminate|discriminate]|]. snocs. exact H.
  - revert H0; snocs; intros H0. apply i_out. exact H0.
  - change (closings [EvClose]) with 1%nat. fold (closes k). rewrite i_close. cbn. lia.
  - change (closings [EvClose]) with 1%nat. lia.
  - change (closings [EvClose]) with 1%nat. split; [discriminate|lia].
  - exfalso. revert H0. snocs. cbn. lia.
Qed.

(** ... and with it. *)
Lemma close_cancel_inv t k id : inv t k -> quiet k -> handler t = outstanding (tr t) -> closings (tr t) = 0%nat -> outstanding (tr t) = Some id -> alive t = true ->
  inv (log (EvHandler id OPERATION_ABORTED) (log EvCancel (set_kern KDisarmed (out_of_loop (log EvClose t))))) (OUser OPERATION_ABORTED :: OCancelEnd :: OCloseEnd :: k).
Proof.
  intros I Q H CL O AL. destruct I as [i_shape i_kern i_ids i_out i_count i_once i_close i_close1 i_fd i_loop i_closed i_dead].
  assert (L : (id < narm t)%nat) by (apply i_out, O). assert (HK : hooks (tr t) = 0%nat) by lia.
  constructor; intros; snocs; cbn; rewrite ?O, ?Nat.eqb_refl, ?Nat.add_0_r; auto.
  - right. exists (OCloseEnd :: k), id. split; [left; reflexivity|]. split; [apply quiet_cons; [exact Q|discriminate|discriminate]|]. split; [congruence|]. snocs. cbn. rewrite ?O, ?Nat.eqb_refl. reflexivity.
  - tauto.
  - revert H0. snocs. intros H0. destruct (i_ids id0 H0) as [A B]. rewrite A, B. cbn. destruct (eqb_false_lt id id0 ltac:(lia)) as [-> _]. split; reflexivity.
  - revert H0. snocs. cbn. rewrite ?O, ?Nat.eqb_refl. discriminate.
  - specialize (i_count id0). rewrite O in i_count. destruct (Nat.eqb id id0); cbn in *; lia.
  - fold (closes k). change (closings [EvClose]) with 1%nat. change (hooks [EvClose]) with 0%nat. lia.
  - change (closings [EvClose]) with 1%nat. lia.
  - change (closings [EvClose]) with 1%nat. split; [discriminate|lia].
  - exfalso. revert H0. snocs. cbn. lia.
Qed.

(** The application's handler or hook returns. *)
Lemma return_inv t o k : inv t (o :: k) -> (forall e, o = OUser e -> True) -> o <> OCancelEnd -> o <> OCloseEnd -> inv t k.
Proof.
  intros I _ N1 N2. destruct I as [i_shape i_kern i_ids i_out i_count i_once i_close i_close1 i_fd i_loop i_closed i_dead].
  constructor; auto.
  - destruct i_shape as [[Q H]|(r & id & [X|X] & Q & H & O)].
    + left. split; [apply (quiet_tail o), Q|exact H].
    + injection X as -> ->. right. exists r, id. split; [right; reflexivity|]. repeat split; auto; apply Q.
    + injection X as -> _. contradiction.
  - rewrite i_close. destruct o; try contradiction; reflexivity.
Qed.

Lemma cancel_end_inv t k : inv t (OCancelEnd :: k) -> inv (set_handler None t) k.
Proof.
  intros I. destruct I as [i_shape i_kern i_ids i_out i_count i_once i_close i_close1 i_fd i_loop i_closed i_dead].
  destruct i_shape as [[Q H]|(r & id & [X|X] & Q & H & O)]; [|discriminate X|].
  { exfalso. apply Q. left. reflexivity. }
  injection X as <-. constructor; auto.
Qed.

Lemma close_end_inv t k : inv t (OCloseEnd :: k) ->
  alive t = true /\ inv (free_mem (log EvHook (log EvFdClosed (close_fd t)))) (OHook :: k).
Proof.
  intros I. destruct I as [i_shape i_kern i_ids i_out i_count i_once i_close i_close1 i_fd i_loop i_closed i_dead].
  cbn in i_close. fold (closes k) in i_close. assert (HK : hooks (tr t) = 0%nat) by lia. split; [tauto|].
  destruct i_shape as [[Q H]|(r & id & [X|X] & Q & H & O)]; try discriminate X.
  assert (CO : outstanding (tr t) = None) by (apply i_closed; lia).
  constructor; intros; snocs; cbn; rewrite ?Nat.add_0_r; auto.
  - left. split; [apply quiet_cons; [apply (quiet_tail OCloseEnd), Q|discriminate|discriminate]|]. snocs. exact H.
  - revert H0; snocs; intros H0. apply i_out. exact H0.
  - change (hooks [EvFdClosed]) with 0%nat. change (hooks [EvHook]) with 1%nat. change (closings [EvFdClosed]) with 0%nat. change (closings [EvHook]) with 0%nat. fold (closes k). lia.
  - change (hooks [EvFdClosed]) with 0%nat. change (hooks [EvHook]) with 1%nat. change (fd_closings [EvFdClosed]) with 1%nat. change (fd_closings [EvHook]) with 0%nat.
    repeat split; intros; try discriminate; lia.
  - congruence.
Qed.

Lemma settime_disarm ch : kernel_works ch -> settime ch (Spec 0 0 0 0) = inr KDisarmed.
Proof. intros [H _]. unfold settime. rewrite H. reflexivity. Qed.
Lemma settime_arm ch ns : kernel_works ch -> (0 < ns)%N -> (ns < 2 ^ 64)%N -> settime ch (convert_timeoutns_to_itimerspec ns) = inr KRunning.
Proof.
  intros [H _] P L. unfold settime. rewrite H, conv_valid by exact L.
  destruct (spec_zero (convert_timeoutns_to_itimerspec ns)) eqn:E; [|reflexivity]. apply conv_zero in E; [lia|exact L].
Qed.

(** Each careful step: no undefined behaviour, and the invariant holds after it. *)
Lemma step_inv t k x : inv t k -> enabled (t, k) x -> careful (t, k) x -> exists t' k', step (t, k) x = Ret (t', k') /\ inv t' k'.
Proof.
  intros I E C. assert (IC := I).
  destruct I as [i_shape i_kern i_ids i_out i_count i_once i_close i_close1 i_fd i_loop i_closed i_dead].
  destruct x as [|ch|ns ch|ch|ch| |]; cbn [enabled careful step] in *.
  - do 2 eexists. split; [reflexivity|]. apply expire_inv; [exact IC|exact E].
  - destruct E as [-> L]. assert (AL : alive t = true) by (apply i_fd; apply i_loop in L; lia).
    rewrite AL. destruct (app_quiet t [] IC eq_refl) as [Q H]; [intros []|].
    unfold timer_read. destruct C as [_ C]. rewrite C.
    destruct (kern t) eqn:K; [do 2 eexists; split; [reflexivity|exact IC]..|].
    destruct (outstanding (tr t)) as [id|] eqn:O; [|discriminate (proj1 i_kern eq_refl)].
    rewrite H. cbn [call_handler]. do 2 eexists. split; [reflexivity|].
    apply call_inv; [exact IC|congruence|exact O|exact Q|discriminate].
  - destruct E as [A L]. destruct C as (W & P & O & N & NC). apply closings_none in NC.
    destruct (app_quiet t k IC A N) as [Q H].
    assert (AL : alive t = true) by (apply i_fd; lia).
    unfold expires_from_now. rewrite AL. cbn [negb]. rewrite settime_arm by assumption.
    set (t1 := log (EvArm (narm t) ns) (set_kern KRunning (next_id (set_handler (Some (narm t)) t)))).
    assert (I1 : inv t1 k) by (apply arm_inv; assumption).
    unfold quick. change (kern t1) with KRunning. unfold timer_read. destruct W as [_ W]. rewrite W.
    destruct (c_quick ch).
    + assert (I2 : inv (log EvExpired (set_kern KExpired t1)) k) by (apply expire_inv; [exact I1|reflexivity]).
      cbn [kern log set_kern]. change (handler (log EvExpired (set_kern KExpired t1))) with (Some (narm t)). cbn [call_handler]. do 2 eexists. split; [reflexivity|].
      assert (O2 : outstanding (tr (log EvExpired (set_kern KExpired t1))) = Some (narm t)) by (unfold t1; cbn [tr log set_kern]; rewrite !out_snoc; reflexivity).
      apply (call_inv _ k (narm t) SUCCESS I2); [rewrite O2; reflexivity|exact O2|exact Q|discriminate].
    + change (kern t1) with KRunning. do 2 eexists. split; [reflexivity|exact I1].
  - destruct C as (W & N & NC). apply closings_none in NC. destruct (app_quiet t k IC E N) as [Q H].
    assert (AL : alive t = true) by (apply i_fd; lia).
    unfold cancel. rewrite AL. cbn [negb]. destruct (handler t) as [id|] eqn:HD.
    + rewrite settime_disarm by exact W. cbn [call_handler]. do 2 eexists. split; [reflexivity|]. apply cancel_inv; auto; congruence.
    + do 2 eexists. split; [reflexivity|]. apply log_refused_inv, IC.
  - destruct C as (W & N & NC). apply closings_none in NC. destruct (app_quiet t k IC E N) as [Q H].
    assert (AL : alive t = true) by (apply i_fd; lia).
    unfold close. rewrite AL. cbn [negb]. change (handler (out_of_loop (log EvClose t))) with (handler t). destruct (handler t) as [id|] eqn:HD.
    + unfold cancel. change (alive (out_of_loop (log EvClose t))) with (alive t). rewrite AL. cbn [negb].
      change (handler (out_of_loop (log EvClose t))) with (handler t). rewrite HD, settime_disarm by exact W. cbn [call_handler].
      do 2 eexists. split; [reflexivity|]. apply close_cancel_inv; auto; congruence.
    + do 2 eexists. split; [reflexivity|]. apply close_inv; auto; congruence.
  - destruct k as [|[]]; try contradiction; do 2 eexists; (split; [reflexivity|]); eapply return_inv; eauto; discriminate.
  - destruct k as [|[]]; try contradiction.
    + assert (AL : alive t = true).
      { apply i_fd. destruct (hooks (tr t)) as [|[|n]] eqn:HK; [reflexivity| |lia]. exfalso.
        destruct i_shape as [[Q H]|(r & id & [X|X] & Q & H & O)]; [apply Q; left; reflexivity|discriminate X|]. rewrite i_dead in H by reflexivity. discriminate. }
      rewrite AL. do 2 eexists. split; [reflexivity|]. apply cancel_end_inv, IC.
    + destruct (close_end_inv t k IC) as [AL I2]. rewrite AL. do 2 eexists. split; [reflexivity|exact I2].
Qed.

Lemma reach_inv c : reach careful c -> inv (fst c) (snd c).
Proof.
  induction 1 as [|[t k] x c' _ IH E C S]; [apply init_inv|].
  destruct (step_inv t k x IH E C) as (t' & k' & S' & I). rewrite S in S'. injection S' as ->. exact I.
Qed.
