(** C76, Linux: stopping an event loop (lib/src/platform/linux/epoll.c).  cio_eventloop_cancel (epoll.c 213-218) writes to an eventfd that nobody ever reads: from
    then on the kernel reports loop->stop_ev (number 0, STOP) as readable, in every batch that has room for it. *)
From Verif Require Import Base EpollModel EpollSpec EpollProofs EpollProps.

Lemma never_removed s : reach s -> ~ In (EvRemove STOP) (tr s).
Proof.
  induction 1 as [|s x s' R IH E S]; [intros []|]. intros I.
  assert (K : tr s' = tr s \/ exists e, tr s' = tr s ++ [e] /\ (e = EvRemove STOP -> x = XRemove STOP)).
  { destruct x; cbn [step] in S.
    - injection S as <-. auto.
    - injection S as <-. right. eexists. split; [reflexivity|discriminate].
    - injection S as <-. right. eexists. split; [reflexivity|discriminate].
    - unfold next in S. destruct (nth_error _ _) as [[n ev]|]; [|injection S as <-; auto]. destruct (Nat.eqb n STOP); [injection S as <-; right; eexists; split; [reflexivity|discriminate]|].
      destruct (mem s n); [|discriminate]. cbv zeta in S. destruct (N.eqb _ 0); injection S as <-; [auto|right; eexists; split; [reflexivity|discriminate]].
    - destruct (where_ s); try (injection S as <-; auto; fail). unfold handle_removed_ev in S. destruct (current s); [|injection S as <-; auto]. destruct (mem s n); [|discriminate].
      destruct (N.eqb _ 0); [injection S as <-; auto|]. cbv zeta in S. unfold unregister in S. destruct (mem s n); [|discriminate]. injection S as <-. right. eexists. split; [reflexivity|discriminate].
    - destruct (where_ s); injection S as <-; auto; right; eexists; (split; [reflexivity|discriminate]).
    - injection S as <-. right. eexists. split; [reflexivity|discriminate].
    - unfold register in S. destruct (mem s n); [|discriminate]. injection S as <-. right. eexists. split; [reflexivity|discriminate].
    - unfold unregister in S. destruct (mem s n); [|discriminate]. injection S as <-. right. eexists. split; [reflexivity|discriminate].
    - unfold remove in S. destruct (mem s n); [|discriminate]. right. exists (EvRemove n). split; [|intros [= ->]; reflexivity].
      destruct (current _) as [m|]; [destruct (Nat.eqb m n)|]; injection S as <-; reflexivity.
    - injection S as <-. right. eexists. split; [reflexivity|discriminate]. }
  destruct K as [K|(e & K & X)]; rewrite K in I; [exact (IH I)|]. apply in_app_iff in I. destruct I as [I|[->|[]]]; [exact (IH I)|]. rewrite (X eq_refl) in E. cbn [enabled] in E. destruct E as (_ & NE & _). exact (NE eq_refl).
Qed.

(** What a step does to where the program is, and to the trace. *)
Lemma step_shape s x s' : enabled s x -> step s x = Ret s' -> where_ s' = PWait \/ where_ s' = POutside ->
  (x = XRun /\ tr s' = tr s /\ where_ s = POutside) \/
  (x = XWaitErr /\ tr s' = tr s ++ [EvFail] /\ where_ s = PWait) \/
  (x = XNext /\ where_ s = PNext /\ ((tr s' = tr s /\ where_ s' = PWait) \/ (tr s' = tr s ++ [EvStop] /\ where_ s' = POutside))) \/
  (exists e, tr s' = tr s ++ [e] /\ app_event e /\ where_ s' = where_ s).
Proof.
  intros E S W. destruct x; cbn [enabled] in E; cbn [step] in S.
  - injection S as <-. auto.
  - injection S as <-. destruct W; discriminate.
  - injection S as <-. right. left. auto.
  - right. right. left. split; [reflexivity|]. split; [exact E|]. unfold next in S. destruct (nth_error _ _) as [[n ev]|]; [|injection S as <-; auto].
    destruct (Nat.eqb n STOP); [injection S as <-; auto|]. destruct (mem s n); [|discriminate]. cbv zeta in S. destruct (N.eqb _ 0); injection S as <-; destruct W; discriminate.
  - destruct E as (n & ev & E). rewrite E in S. unfold handle_removed_ev in S. destruct (current s); [|injection S as <-; destruct W; discriminate]. destruct (mem s n); [|discriminate].
    destruct (N.eqb _ 0); [injection S as <-; destruct W; discriminate|]. cbv zeta in S. unfold unregister in S. destruct (mem s n); [|discriminate]. injection S as <-. destruct W; discriminate.
  - destruct (where_ s); try contradiction; injection S as <-; destruct W; discriminate.
  - injection S as <-. do 3 right. eexists. split; [reflexivity|split; [exact Logic.I|reflexivity]].
  - unfold register in S. destruct (mem s n); [|discriminate]. injection S as <-. do 3 right. eexists. split; [reflexivity|split; [exact Logic.I|reflexivity]].
  - unfold unregister in S. destruct (mem s n); [|discriminate]. injection S as <-. do 3 right. eexists. split; [reflexivity|split; [exact Logic.I|reflexivity]].
  - unfold remove in S. destruct (mem s n); [|discriminate]. do 3 right. exists (EvRemove n). split; [|split; [exact Logic.I|]]; destruct (current _) as [m|]; [destruct (Nat.eqb m n)|..]; try (injection S as <-; reflexivity).
    destruct (Nat.eqb m n); injection S as <-; reflexivity.
  - injection S as <-. do 3 right. eexists. split; [reflexivity|split; [exact Logic.I|reflexivity]].
Qed.

Lemma stop_turn h l b rest : progress h l b rest -> forall p ev, l = p ++ rest -> In (STOP, ev) p -> In (EvRemove STOP) b.
Proof.
  induction 1 as [|b m e rest P IH RM|b m e rest rd wr P IH NI NS RP WP]; intros p ev L I.
  - assert (p = []) as -> by (destruct p; [reflexivity|]; exfalso; apply (f_equal (@length _)) in L; rewrite app_length in L; cbn in L; lia). contradiction I.
  - destruct (progress_suffix _ _ _ _ P) as [q Q]. assert (X : p = q ++ [(m, e)]). { rewrite Q in L. change ((m, e) :: rest) with ([(m, e)] ++ rest) in L. rewrite app_assoc in L. apply app_inv_tail in L. symmetry. exact L. }
    rewrite X, in_app_iff in I. destruct I as [I|[I|[]]]; [eapply IH; eauto|]. injection I as -> ->. exact RM.
  - destruct (progress_suffix _ _ _ _ P) as [q Q]. assert (X : p = q ++ [(m, e)]). { rewrite Q in L. change ((m, e) :: rest) with ([(m, e)] ++ rest) in L. rewrite app_assoc in L. apply app_inv_tail in L. symmetry. exact L. }
    rewrite X, in_app_iff in I. apply in_app_iff. destruct I as [I|[I|[]]]; [left; eapply IH; eauto|]. injection I as -> ->. congruence.
Qed.

(** Once epoll_wait has reported the stop event, the loop does not wait again and does not go on with anything behind it: it returns (and only then may
    be run again). *)
Theorem C76_linux_stops : forall s a l b ev, reach s -> tr s = a ++ EvBatch l :: b -> no_batch b -> In (STOP, ev) l -> where_ s = PWait \/ where_ s = POutside -> In EvStop b.
Proof.
  intros s a l b ev R. revert a l b ev. induction R as [|s x s' R IH E S]; intros a l b ev T NB I W; [destruct a; discriminate|].
  destruct (step_shape s x s' E S W) as [(-> & TT & WW)|[(-> & TT & WW)|[(-> & WP & [(TT & WW)|(TT & WW)])|(e & TT & AE & WW)]]].
  - rewrite TT in T. eapply IH; eauto.
  - rewrite TT in T. destruct (exists_last (l := b)) as (b0 & y & ->); [intros ->; apply app_inj_tail in T; destruct T; discriminate|].
    change (EvBatch l :: b0 ++ [y]) with ((EvBatch l :: b0) ++ [y]) in T. rewrite app_assoc in T. apply app_inj_tail in T. destruct T as [T <-]. apply in_app_iff. left.
    apply no_batch_app in NB. eapply IH; [exact T|apply NB|exact I|left; exact WW].
  - exfalso. pose proof (C37_C38_batch_dispatched s s' a l b R WP S WW T NB) as P.
    pose proof (stop_turn _ _ _ _ P l ev (eq_sym (app_nil_r l)) I) as X. apply (never_removed s' (reach_step _ _ _ R E S)). rewrite T. apply in_app_iff. right. right. exact X.
  - destruct (C38_stop s s' a l b R WP S WW T NB) as (b' & ev' & rest & -> & _). apply in_app_iff. right. left. reflexivity.
  - destruct (exists_last (l := b)) as (b0 & y & ->); [intros ->; rewrite TT in T; apply app_inj_tail in T; destruct T as [_ ->]; exact AE|].
    rewrite TT in T. change (EvBatch l :: b0 ++ [y]) with ((EvBatch l :: b0) ++ [y]) in T. rewrite app_assoc in T. apply app_inj_tail in T. destruct T as [T <-]. apply in_app_iff. left.
    apply no_batch_app in NB. eapply IH; [exact T|apply NB|exact I|rewrite WW in W; exact W].
Qed.
Print Assumptions C76_linux_stops.

(** So after a cancel a run of the loop deals with the events of one batch at most: between two batches the loop has returned. *)
Theorem C76_linux_one_batch_per_run : forall s a l b l' c ev, reach s -> tr s = a ++ EvBatch l :: b ++ EvBatch l' :: c -> no_batch b -> In (STOP, ev) l -> In EvStop b.
Proof.
  intros s a l b l' c ev R. revert a l b l' c ev. induction R as [|s x s' R IH E S]; intros a l b l' c ev T NB I; [destruct a; discriminate|].
  assert (K : tr s' = tr s \/ exists e, tr s' = tr s ++ [e] /\ (forall k, e = EvBatch k -> where_ s = PWait)).
  { destruct x; cbn [step] in S.
    - injection S as <-. auto.
    - injection S as <-. right. eexists. split; [reflexivity|]. intros _ _. exact (proj1 E).
    - injection S as <-. right. eexists. split; [reflexivity|discriminate].
    - unfold next in S. destruct (nth_error _ _) as [[n ev0]|]; [|injection S as <-; auto]. destruct (Nat.eqb n STOP); [injection S as <-; right; eexists; split; [reflexivity|discriminate]|].
      destruct (mem s n); [|discriminate]. cbv zeta in S. destruct (N.eqb _ 0); injection S as <-; [auto|right; eexists; split; [reflexivity|discriminate]].
    - destruct (where_ s); try (injection S as <-; auto; fail). unfold handle_removed_ev in S. destruct (current s); [|injection S as <-; auto]. destruct (mem s n); [|discriminate].
      destruct (N.eqb _ 0); [injection S as <-; auto|]. cbv zeta in S. unfold unregister in S. destruct (mem s n); [|discriminate]. injection S as <-. right. eexists. split; [reflexivity|discriminate].
    - destruct (where_ s); injection S as <-; auto; right; eexists; (split; [reflexivity|discriminate]).
    - injection S as <-. right. eexists. split; [reflexivity|discriminate].
    - unfold register in S. destruct (mem s n); [|discriminate]. injection S as <-. right. eexists. split; [reflexivity|discriminate].
    - unfold unregister in S. destruct (mem s n); [|discriminate]. injection S as <-. right. eexists. split; [reflexivity|discriminate].
    - unfold remove in S. destruct (mem s n); [|discriminate]. right. exists (EvRemove n). split; [|discriminate].
      destruct (current _) as [m|]; [destruct (Nat.eqb m n)|]; injection S as <-; reflexivity.
    - injection S as <-. right. eexists. split; [reflexivity|discriminate]. }
  destruct K as [K|(e & K & X)]; rewrite K in T; [eapply IH; eauto|].
  destruct c as [|y c] using rev_ind.
  - change (EvBatch l :: b ++ [EvBatch l']) with ((EvBatch l :: b) ++ [EvBatch l']) in T. rewrite app_assoc in T. apply app_inj_tail in T. destruct T as [T ->].
    eapply (C76_linux_stops s a l b ev R T NB I). left. eapply X. reflexivity.
  - clear IHc. replace (a ++ EvBatch l :: b ++ EvBatch l' :: c ++ [y]) with ((a ++ EvBatch l :: b ++ EvBatch l' :: c) ++ [y]) in T by (rewrite <- app_assoc; cbn; rewrite <- app_assoc; reflexivity).
    apply app_inj_tail in T. destruct T as [T _]. eapply IH; eauto.
Qed.
Print Assumptions C76_linux_one_batch_per_run.

(** The loop returns with CIO_SUCCESS only because of the stop event. *)
Theorem C76_linux_runs_until_cancelled : forall s x y, reach s -> tr s = x ++ EvStop :: y -> exists a l b ev, x = a ++ EvBatch l :: b /\ no_batch b /\ In (STOP, ev) l.
Proof.
  intros s x y R. revert x y. induction R as [|s v s' R IH E S]; intros x y T; [destruct x; discriminate|].
  assert (K : tr s' = tr s \/ exists e, tr s' = tr s ++ [e] /\ (e = EvStop -> v = XNext /\ where_ s' = POutside)).
  { destruct v; cbn [step] in S.
    - injection S as <-. auto.
    - injection S as <-. right. eexists. split; [reflexivity|discriminate].
    - injection S as <-. right. eexists. split; [reflexivity|discriminate].
    - unfold next in S. destruct (nth_error _ _) as [[n ev0]|]; [|injection S as <-; auto]. destruct (Nat.eqb n STOP); [injection S as <-; right; eexists; split; [reflexivity|auto]|].
      destruct (mem s n); [|discriminate]. cbv zeta in S. destruct (N.eqb _ 0); injection S as <-; [auto|right; eexists; split; [reflexivity|discriminate]].
    - destruct (where_ s); try (injection S as <-; auto; fail). unfold handle_removed_ev in S. destruct (current s); [|injection S as <-; auto]. destruct (mem s n); [|discriminate].
      destruct (N.eqb _ 0); [injection S as <-; auto|]. cbv zeta in S. unfold unregister in S. destruct (mem s n); [|discriminate]. injection S as <-. right. eexists. split; [reflexivity|discriminate].
    - destruct (where_ s); injection S as <-; auto; right; eexists; (split; [reflexivity|discriminate]).
    - injection S as <-. right. eexists. split; [reflexivity|discriminate].
    - unfold register in S. destruct (mem s n); [|discriminate]. injection S as <-. right. eexists. split; [reflexivity|discriminate].
    - unfold unregister in S. destruct (mem s n); [|discriminate]. injection S as <-. right. eexists. split; [reflexivity|discriminate].
    - unfold remove in S. destruct (mem s n); [|discriminate]. right. exists (EvRemove n). split; [|discriminate].
      destruct (current _) as [m|]; [destruct (Nat.eqb m n)|]; injection S as <-; reflexivity.
    - injection S as <-. right. eexists. split; [reflexivity|discriminate]. }
  destruct K as [K|(e & K & X)]; [rewrite K in T; eapply IH; eauto|]. destruct y as [|z y] using rev_ind.
  - rewrite K in T. apply app_inj_tail in T. destruct T as [T ->]. destruct (X eq_refl) as [-> WO]. cbn [enabled] in E.
    destruct (reach_inv s R) as [_ P]. unfold pc_inv in P. rewrite E in P. destruct P as (a0 & l0 & b0 & rest & T0 & NB0 & _).
    assert (T1 : tr s' = a0 ++ EvBatch l0 :: (b0 ++ [EvStop])) by (rewrite K, T0, <- app_assoc; reflexivity).
    destruct (C38_stop s s' a0 l0 (b0 ++ [EvStop]) R E S WO T1) as (b' & ev' & rest' & _ & PR); [apply no_batch_app; split; [exact NB0|apply no_batch_one; discriminate]|].
    exists a0, l0, b0, ev'. split; [congruence|]. split; [exact NB0|]. destruct (progress_suffix _ _ _ _ PR) as [p ->]. apply in_app_iff. right. left. reflexivity.
  - clear IHy. rewrite K in T. replace (x ++ EvStop :: y ++ [z]) with ((x ++ EvStop :: y) ++ [z]) in T by (rewrite <- app_assoc; reflexivity). apply app_inj_tail in T. destruct T as [T _]. eapply IH; eauto.
Qed.
Print Assumptions C76_linux_runs_until_cancelled.

(** VIOLATED: the loop cannot be run again after a cancel. The eventfd is never read, so that the stop event is in every batch; notifier 1, readable and registered
    for reading all the time, is behind it and is never called, in this run or in the next one. *)
Theorem C76_linux_runs_once_refuted : exists s, reach s /\ where_ s = POutside /\
  tr s = [EvAdd 1; EvReg 1 EPOLLIN; EvBatch [(STOP, EPOLLIN); (1, EPOLLIN)]; EvStop; EvBatch [(STOP, EPOLLIN); (1, EPOLLIN)]; EvStop].
Proof.
  set (l := [XAdd 1; XReg 1 EPOLLIN; XRun; XWait [(STOP, EPOLLIN); (1, EPOLLIN)]; XNext; XRun; XWait [(STOP, EPOLLIN); (1, EPOLLIN)]; XNext]).
  destruct (run epoll_init l) as [s|] eqn:E; [|discriminate E]. exists s. split; [|vm_compute in E; injection E as <-; split; reflexivity].
  eapply (run_reach l epoll_init); [apply reach_init| |exact E]. cbn -[enabled step]. cbn [enabled step]. cbn. en; (split; [repeat constructor; unfold STOP; cbn; intuition discriminate|]; split; [cbn; unfold CONFIG_MAX_EPOLL_EVENTS; lia|intros ? ? X; cbn in X; repeat destruct X as [[= <- <-]|X]; try contradiction; reflexivity]).
Qed.
Print Assumptions C76_linux_runs_once_refuted.

(** Non-vacuity: notifier 1 has its turn before the stop event, 2 is behind it. *)
Example stop_run : exists s, reach s /\ where_ s = POutside /\
  tr s = [EvAdd 1; EvReg 1 EPOLLIN; EvAdd 2; EvReg 2 EPOLLIN; EvBatch [(1, EPOLLIN); (STOP, EPOLLIN); (2, EPOLLIN)]; EvRead 1; EvReturn; EvStop].
Proof.
  set (l := [XAdd 1; XReg 1 EPOLLIN; XAdd 2; XReg 2 EPOLLIN; XRun; XWait [(1, EPOLLIN); (STOP, EPOLLIN); (2, EPOLLIN)]; XNext; XReturn; XHandle; XNext]).
  destruct (run epoll_init l) as [s|] eqn:E; [|discriminate E]. exists s. split; [|vm_compute in E; injection E as <-; split; reflexivity].
  eapply (run_reach l epoll_init); [apply reach_init| |exact E]. cbn -[enabled step]. cbn [enabled step]. cbn. en; (split; [repeat constructor; unfold STOP; cbn; intuition discriminate|]; split; [cbn; unfold CONFIG_MAX_EPOLL_EVENTS; lia|intros ? ? X; cbn in X; repeat destruct X as [[= <- <-]|X]; try contradiction; reflexivity]).
Qed.
