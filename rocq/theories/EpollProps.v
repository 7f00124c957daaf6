(** C37, C38: the theorems about the event loop. *)
From Verif Require Import Base EpollModel EpollSpec EpollProofs.
Local Open Scope nat_scope.

Theorem C37_no_undefined_behaviour : forall s x, reach s -> enabled s x -> step s x <> UB.
Proof. intros s x R E. destruct (step_inv s x (reach_inv s R) E) as (s' & S & _). rewrite S. discriminate. Qed.
Print Assumptions C37_no_undefined_behaviour.

(** When may a callback of n be called after history x?  Its event is in the
    current batch, n has not been removed since the batch arrived (so a stale
    event is not delivered to a notifier removed and added again either), and
    n is part of the loop. *)
Definition may_call (x : list eev) (n : nat) : Prop :=
  exists a l b, x = a ++ EvBatch l :: b /\ no_batch b /\ In n (map fst l) /\ ~ In (EvRemove n) b /\ watched n x = true.
Definition callback_of (n : nat) (e : eev) : Prop := e = EvRead n \/ exists err, e = EvWrite n err.
Definition calls_ok (tr : list eev) : Prop := forall x e n c, tr = x ++ e :: c -> callback_of n e -> may_call x n.

Lemma calls_ok_snoc t e : calls_ok t -> (forall n, callback_of n e -> may_call t n) -> calls_ok (t ++ [e]).
Proof.
  intros C H x y n c E CB. destruct c as [|z c _] using rev_ind.
  - apply app_inj_tail in E. destruct E as [<- <-]. apply H, CB.
  - rewrite app_comm_cons, app_assoc in E. apply app_inj_tail in E. destruct E as [E _]. eapply C; eassumption.
Qed.
Lemma not_callback e n : match e with EvRead _ | EvWrite _ _ => False | _ => True end -> ~ callback_of n e.
Proof. intros H [-> | [err ->]]; exact H. Qed.

Lemma step_calls s x s' : inv s -> calls_ok (tr s) -> enabled s x -> step s x = Ret s' -> calls_ok (tr s').
Proof.
  intros [M P] C E S.
  assert (SN : forall e t, t = tr s ++ [e] -> match e with EvRead _ | EvWrite _ _ => False | _ => True end -> calls_ok t).
  { intros e t -> H. apply calls_ok_snoc; [exact C|]. intros n CB. edestruct (not_callback e n H CB). }
  destruct x as [|l| | | | |m|m f|m f|m|m]; cbn [step enabled] in *.
  - injection S as <-. exact C.
  - injection S as <-. eapply SN; [reflexivity|exact I].
  - injection S as <-. eapply SN; [reflexivity|exact I].
  - unfold pc_inv in P. rewrite E in P. destruct P as (a & l & b & rest & T & NB & ND & PR & WA & EV).
    pose proof (progress_skip _ _ _ _ PR) as SK. rewrite <- EV in SK. unfold next in S. destruct (nth_error (evs s) (counter s)) as [[n ev]|] eqn:NT; [|injection S as <-; exact C].
    destruct (nth_skipn _ _ _ NT) as [S1 _]. rewrite S1 in SK. destruct SK as (rest' & PR' & NI & EV').
    destruct (Nat.eqb n STOP); [injection S as <-; eapply SN; [reflexivity|exact I]|].
    destruct (mem s n); [|discriminate S]. cbv zeta in S.
    destruct (N.eqb _ 0); injection S as <-; [exact C|]. cbn [tr at_pc log set_current]. apply calls_ok_snoc; [exact C|].
    assert (IN : In (n, ev) l). { destruct (progress_suffix _ _ _ _ PR') as [p ->]. apply in_app_iff. right. left. reflexivity. }
    intros k [K|[err K]]; [injection K as <-|discriminate K]. exists a, l, b. repeat split; auto.
    + apply in_map_iff. exists (n, ev). auto.
    + eapply WA; eassumption.
  - destruct E as (n & ev & E). rewrite E in S. unfold pc_inv in P. rewrite E in P. destruct P as (a & l & b & rest & rd & T & RP).
    destruct T as [t_tr t_nb t_nd t_pr t_live t_stop t_w t_evs t_cur].
    unfold handle_removed_ev in S. rewrite t_cur in S. destruct (existsb (removes n) rd) eqn:RM; [injection S as <-; exact C|].
    apply in_removes_false in RM. destruct (mem s n) as [r|] eqn:MM; [|discriminate S]. destruct (N.eqb _ 0); [injection S as <-; exact C|].
    cbv zeta in S. unfold unregister in S. rewrite MM in S. injection S as <-. cbn [tr at_pc log set_mem]. apply calls_ok_snoc; [exact C|].
    assert (IN : In (n, ev) l). { destruct (progress_suffix _ _ _ _ t_pr) as [p ->]. apply in_app_iff. right. left. reflexivity. }
    assert (NI : ~ In (EvRemove n) (b ++ rd)) by (rewrite in_app_iff; tauto).
    intros k [K|[err K]]; [discriminate K|injection K as <- _]. exists a, l, (b ++ rd). repeat split; auto.
    + apply in_map_iff. exists (n, ev). auto.
    + eapply t_w; eassumption.
  - destruct (where_ s); try contradiction; injection S as <-; (eapply SN; [reflexivity|exact I]).
  - injection S as <-. eapply SN; [reflexivity|exact I].
  - unfold register in S. destruct (mem s m); [|discriminate S]. injection S as <-. eapply SN; [reflexivity|exact I].
  - unfold unregister in S. destruct (mem s m); [|discriminate S]. injection S as <-. eapply SN; [reflexivity|exact I].
  - unfold remove in S. destruct (mem s m); [|discriminate S]. cbv zeta in S. injection S as <-. eapply (SN (EvRemove m)); [|exact I].
    destruct (current s) as [c|]; [destruct (Nat.eqb c m)|]; reflexivity.
  - injection S as <-. eapply SN; [reflexivity|exact I].
Qed.

(** Every callback in every history: never after the removal of its notifier,
    not even when its event was already waiting in the batch. *)
Theorem C37_callback_only_while_watched : forall s x e n c, reach s -> tr s = x ++ e :: c -> callback_of n e -> may_call x n.
Proof.
  intros s x e n c R. revert x e n c. change (calls_ok (tr s)). induction R as [|s x s' R IH E S].
  - intros x e n c H. destruct x; discriminate H.
  - eapply step_calls; [apply reach_inv, R|exact IH|exact E|exact S].
Qed.
Print Assumptions C37_callback_only_while_watched.

(** Whenever the loop has worked through a batch and waits again, every event
    of the batch was either skipped because its notifier had been removed, or
    had its turn - in the order of the batch, and with exactly the callbacks
    [EpollSpec.progress] demands.  No event of another notifier is lost. *)
Theorem C37_C38_batch_dispatched : forall s s' a l b, reach s -> where_ s = PNext -> step s XNext = Ret s' -> where_ s' = PWait ->
  tr s' = a ++ EvBatch l :: b -> no_batch b -> progress (a ++ [EvBatch l]) l b [].
Proof.
  intros s s' a l b R W S W' T NB. destruct (reach_inv s R) as [_ P]. unfold pc_inv in P. rewrite W in P.
  destruct P as (a0 & l0 & b0 & rest & T0 & NB0 & ND & PR & WA & EV).
  cbn [step] in S. unfold next in S. destruct (nth_error (evs s) (counter s)) as [[n ev]|] eqn:NT.
  - destruct (Nat.eqb n STOP); [injection S as <-; discriminate W'|]. destruct (mem s n); [|discriminate S]. cbv zeta in S. destruct (N.eqb _ 0); injection S as <-; discriminate W'.
  - injection S as <-. cbn [tr at_pc] in T. rewrite T0 in T. destruct (last_batch_unique _ _ _ _ _ _ T NB0 NB) as (-> & -> & ->).
    pose proof (progress_skip _ _ _ _ PR) as SK. apply skipn_nil_nth in NT. rewrite <- EV, NT in SK. exact SK.
Qed.
Print Assumptions C37_C38_batch_dispatched.

(** If the loop is stopped, everything before the stop event in the batch had
    its turn. *)
Theorem C38_stop : forall s s' a l b, reach s -> where_ s = PNext -> step s XNext = Ret s' -> where_ s' = POutside ->
  tr s' = a ++ EvBatch l :: b -> no_batch b -> exists b' ev rest, b = b' ++ [EvStop] /\ progress (a ++ [EvBatch l]) l b' ((STOP, ev) :: rest).
Proof.
  intros s s' a l b R W S W' T NB. destruct (reach_inv s R) as [_ P]. unfold pc_inv in P. rewrite W in P.
  destruct P as (a0 & l0 & b0 & rest & T0 & NB0 & ND & PR & WA & EV).
  cbn [step] in S. unfold next in S. destruct (nth_error (evs s) (counter s)) as [[n ev]|] eqn:NT; [|injection S as <-; discriminate W'].
  destruct (Nat.eqb_spec n STOP) as [->|NS]; [|destruct (mem s n); [|discriminate S]; cbv zeta in S; destruct (N.eqb _ 0); injection S as <-; discriminate W'].
  injection S as <-. cbn [tr at_pc log] in T. rewrite T0, <- app_assoc in T. cbn [app] in T.
  destruct (last_batch_unique _ _ _ _ _ _ T) as (-> & -> & <-); [apply no_batch_app; split; [exact NB0|apply no_batch_one; discriminate]|exact NB|].
  destruct (nth_skipn _ _ _ NT) as [S1 _]. pose proof (progress_skip _ _ _ _ PR) as SK. rewrite <- EV, S1 in SK. destruct SK as (rest' & PR' & _).
  exists b0, ev, rest'. auto.
Qed.
Print Assumptions C38_stop.

(** What it means for one event: if the loop has finished a batch in which n was
    readable, registered for reading all along, and not removed, then n's read
    callback was called. *)
Lemma progress_reads h l b rest : progress h l b rest -> forall p n ev, l = p ++ rest -> In (n, ev) p ->
  ~ In (EvRemove n) b -> (forall x y, b = x ++ y -> ready (h ++ x) n ev EPOLLIN) -> In (EvRead n) b.
Proof.
  induction 1 as [|b m e rest P IH RM|b m e rest rd wr P IH NI NS RP WP]; intros p n ev L I NR RD.
  - assert (p = []) as -> by (destruct p; [reflexivity|]; exfalso; apply (f_equal (@length _)) in L; rewrite app_length in L; cbn in L; lia). contradiction I.
  - destruct (progress_suffix _ _ _ _ P) as [q Q]. assert (X : p = q ++ [(m, e)]). { rewrite Q in L. change ((m, e) :: rest) with ([(m, e)] ++ rest) in L. rewrite app_assoc in L. apply app_inv_tail in L. symmetry. exact L. }
    rewrite X, in_app_iff in I. destruct I as [I|[I|[]]]; [eapply IH; eauto|]. injection I as -> ->. contradiction.
  - destruct (progress_suffix _ _ _ _ P) as [q Q]. assert (X : p = q ++ [(m, e)]). { rewrite Q in L. change ((m, e) :: rest) with ([(m, e)] ++ rest) in L. rewrite app_assoc in L. apply app_inv_tail in L. symmetry. exact L. }
    rewrite X, in_app_iff in I. apply in_app_iff. destruct I as [I|[I|[]]].
    + left. eapply IH; eauto; [intros Z; apply NR, in_app_iff; left; exact Z|]. intros x y ->. apply (RD x (y ++ rd ++ wr)). rewrite <- app_assoc. reflexivity.
    + injection I as -> ->. right. apply in_app_iff. left. destruct RP as [ops R F|R]; [left; reflexivity|]. exfalso. apply R. eapply RD. reflexivity.
Qed.
Theorem C38_readable_is_read : forall s s' a l b n ev, reach s -> where_ s = PNext -> step s XNext = Ret s' -> where_ s' = PWait ->
  tr s' = a ++ EvBatch l :: b -> no_batch b -> In (n, ev) l -> ~ In (EvRemove n) b ->
  (forall x y, b = x ++ y -> ready (a ++ EvBatch l :: x) n ev EPOLLIN) -> In (EvRead n) b.
Proof.
  intros s s' a l b n ev R W S W' T NB I NR RD. pose proof (C37_C38_batch_dispatched _ _ _ _ _ R W S W' T NB) as P.
  eapply (progress_reads _ _ _ _ P l n ev); auto; [rewrite app_nil_r; reflexivity|]. intros x y E. rewrite <- app_assoc. apply (RD x y E).
Qed.
Print Assumptions C38_readable_is_read.

(** * Runs, for the witnesses *)
Fixpoint run (s : st) (l : list act) : outcome st := match l with [] => Ret s | x :: r => match step s x with Ret s' => run s' r | UB => UB end end.
Fixpoint ok_run (s : st) (l : list act) : Prop := match l with [] => True | x :: r => enabled s x /\ match step s x with Ret s' => ok_run s' r | UB => False end end.
Lemma run_reach l : forall s s', reach s -> ok_run s l -> run s l = Ret s' -> reach s'.
Proof.
  induction l as [|x l IH]; intros s s' R OK E; cbn in *; [injection E as <-; exact R|].
  destruct OK as [EN OK]. destruct (step s x) as [s1|] eqn:S; [|contradiction]. eapply IH; [eapply reach_step; eassumption|exact OK|exact E].
Qed.
Ltac en := repeat match goal with
  | |- _ /\ _ => split
  | |- True => exact I
  | |- exists _ _, _ => do 2 eexists; reflexivity
  | |- kernel_batch _ _ => split; [repeat constructor; cbn; intuition congruence|]; split; [cbn; unfold CONFIG_MAX_EPOLL_EVENTS; lia|intros ? ? X; cbn in X; repeat destruct X as [[= <- <-]|X]; try contradiction; reflexivity]
  | |- _ = _ => reflexivity
  | |- _ <> _ => discriminate
  end.

(** An error condition alone (EPOLLERR without EPOLLIN or EPOLLOUT) on a notifier
    registered for reading reaches no callback. *)
Theorem C38_error_reaches_nobody_refuted : exists s, reach s /\ where_ s = PWait /\
  tr s = [EvAdd 1; EvReg 1 EPOLLIN; EvBatch [(1, EPOLLERR)]].
Proof.
  set (l := [XAdd 1; XReg 1 EPOLLIN; XRun; XWait [(1, EPOLLERR)]; XNext; XHandle; XNext]).
  destruct (run epoll_init l) as [s|] eqn:E; [|discriminate E]. exists s. split; [|vm_compute in E; injection E as <-; split; reflexivity].
  eapply (run_reach l epoll_init); [apply reach_init| |exact E]. cbn -[enabled step]. cbn [enabled step]. cbn. en.
Qed.
Print Assumptions C38_error_reaches_nobody_refuted.

(** Non-vacuity: a batch of four; the first callback removes and frees the third
    notifier and removes and re-adds the fourth; the second is readable and
    writable and is registered for both. *)
Example batch_run : exists s s', reach s /\ where_ s = PNext /\ step s XNext = Ret s' /\ where_ s' = PWait /\
  tr s' = [EvAdd 1; EvReg 1 EPOLLIN; EvAdd 2; EvReg 2 EPOLLIN; EvReg 2 EPOLLOUT; EvAdd 3; EvReg 3 EPOLLIN; EvAdd 4; EvReg 4 EPOLLIN;
    EvBatch [(1, EPOLLIN); (2, 13%N); (3, EPOLLIN); (4, EPOLLIN)];
    EvRead 1; EvRemove 3; EvFree 3; EvRemove 4; EvAdd 4; EvReg 4 EPOLLIN; EvReturn; EvRead 2; EvReturn; EvWrite 2 true; EvReturn].
Proof.
  set (l := [XAdd 1; XReg 1 EPOLLIN; XAdd 2; XReg 2 EPOLLIN; XReg 2 EPOLLOUT; XAdd 3; XReg 3 EPOLLIN; XAdd 4; XReg 4 EPOLLIN; XRun;
    XWait [(1, EPOLLIN); (2, 13%N); (3, EPOLLIN); (4, EPOLLIN)]; XNext; XRemove 3; XFree 3; XRemove 4; XAdd 4; XReg 4 EPOLLIN; XReturn; XHandle;
    XNext; XReturn; XHandle; XReturn]).
  destruct (run epoll_init l) as [s|] eqn:E; [|discriminate E]. exists s, (at_pc PWait s).
  split; [|vm_compute in E; injection E as <-; repeat split; reflexivity].
  eapply (run_reach l epoll_init); [apply reach_init| |exact E]. cbn -[enabled step]. cbn [enabled step]. cbn. en.
Qed.
