(** C65: timers on Windows. *)
From Verif Require Import Base WinTimer WinTimerSpec.

(** * Invariant *)
(** The stacks that occur: [m] on top of nothing or of the handler called on expiry. *)
Definition base (b : list op) : Prop := b = [] \/ b = [OUser SUCCESS].
Definition top (m : list op) : Prop :=
  m = [] \/ m = [OUser OPERATION_ABORTED; OCancelEnd] \/ m = [OCancelEnd] \/
  m = [OUser OPERATION_ABORTED; OCancelEnd; OCloseEnd] \/ m = [OCancelEnd; OCloseEnd] \/ m = [OCloseEnd] \/ m = [OHook].
Record inv (s : st) (k : list op) : Prop := mkInv {
  i_law : lawful (tr s);
  i_alive : alive s = negb (hooked (tr s));
  i_used : handler s = HGarbage <-> used (tr s) = false;
  i_num : Forall (fun e => forall m, number e = Some m -> m < narm s) (tr s);
  i_kt : match outstanding (tr s) with
         | None => kt s = KOff /\ hev s = None /\ posted s = 0 /\ due (tr s) = false
         | Some n => handler s = HSet n /\
             if due (tr s) then (exists h, kt s = KFiring h /\ hev s = Some h /\ posted s = 0) \/ (kt s = KOff /\ hev s = None /\ posted s = 1)
             else exists h, kt s = KRunning h /\ hev s = Some h /\ posted s = 0
         end;
  i_k : exists m b, k = m ++ b /\ base b /\ top m /\
        (In OCancelEnd m -> outstanding (tr s) = None /\ hooked (tr s) = false /\ handler s <> HGarbage) /\
        (In OHook m -> hooked (tr s) = true) /\
        (In OCloseEnd m -> closed (tr s) = true /\ hooked (tr s) = false) /\
        (closed (tr s) = true -> outstanding (tr s) = None /\ (hooked (tr s) = true \/ In OCloseEnd m)) }.
Lemma hooked_closed l : lawful l -> hooked l = true -> closed l = true.
Proof. induction l as [|e l IH]; [discriminate|]. intros [[_ A] L] H. destruct e; cbn in *; auto. apply A. Qed.

Lemma open_alive s k : inv s k -> closed (tr s) = false -> hooked (tr s) = false /\ alive s = true.
Proof.
  intros I C. assert (H : hooked (tr s) = false) by (destruct (hooked (tr s)) eqn:E; [apply hooked_closed in E; [congruence|apply I]|reflexivity]).
  split; [exact H|]. rewrite (i_alive _ _ I), H. reflexivity.
Qed.
Lemma num_le (l : list ev) n n' : n <= n' -> Forall (fun e => forall m, number e = Some m -> m < n) l -> Forall (fun e => forall m, number e = Some m -> m < n') l.
Proof. intros H. apply Forall_impl. intros e A m E. specialize (A m E). lia. Qed.
(** When the application may arm or close the timer the stack has nothing of ours. *)
Lemma quiet s k : inv s k -> app_runs k -> closed (tr s) = false -> ~ In (OUser OPERATION_ABORTED) k -> base k.
Proof.
  intros I A C NA. destruct (i_k _ _ I) as (m & b & -> & B & T & T1 & T2 & T3 & T4). destruct (open_alive _ _ I C) as [H _].
  destruct T as [-> | [-> | [-> | [-> | [-> | [-> | ->]]]]]]; cbn [app In app_runs] in *; try tauto.
  rewrite T2 in H by auto. discriminate.
Qed.
(** When it may cancel there is nothing of ours, or its handler runs with CIO_OPERATION_ABORTED. *)
Lemma quiet_cancel s k : inv s k -> app_runs k -> closed (tr s) = false ->
  base k \/ (outstanding (tr s) = None /\ exists b, base b /\ k = OUser OPERATION_ABORTED :: OCancelEnd :: b).
Proof.
  intros I A C. destruct (i_k _ _ I) as (m & b & -> & B & T & T1 & T2 & T3 & T4). destruct (open_alive _ _ I C) as [H _].
  destruct T as [-> | [-> | [-> | [-> | [-> | [-> | ->]]]]]]; cbn [app In app_runs] in *; try tauto.
  - right. split; [apply T1; auto|]. exists b. auto.
  - rewrite (proj1 (T3 (or_intror (or_intror (or_introl eq_refl))))) in C. discriminate.
  - rewrite T2 in H by auto. discriminate.
Qed.
Ltac stk m b := exists m, b; repeat match goal with |- _ /\ _ => split end; try reflexivity; try assumption; try (unfold top, base; tauto); cbn [In]; try (intros; exfalso; intuition discriminate).
Ltac fin := cbn in *; auto; try tauto; try congruence; try lia; try discriminate.

Lemma step_inv s k x : inv s k -> enabled (s, k) x -> careful (s, k) x -> exists c, step (s, k) x = Ret c /\ inv (fst c) (snd c).
Proof.
  intros I En Ca. pose proof (i_law _ _ I) as L. pose proof (i_kt _ _ I) as KT. pose proof (i_num _ _ I) as NU. pose proof (i_used _ _ I) as US. pose proof (i_alive _ _ I) as AL.
  destruct x as [ns created| | | | | | |]; cbn [step enabled careful] in *.
  - (* XArm *) destruct Ca as (C1 & C2 & C3 & C4). destruct En as [En _]. destruct (open_alive _ _ I C1) as [HK A]. pose proof (quiet _ _ I En C1 C3) as Q.
    unfold expires_from_now. rewrite A. cbn [negb].
    assert (G : forall s', tr s' = tr s -> alive s' = alive s -> handler s' = HSet (narm s) -> narm s' = S (narm s) -> posted s' = 0 ->
      inv (log (EvArm (narm s) (duration_ms ns)) (set_kt (KRunning (narm s)) (set_hev (Some (narm s)) s'))) k).
    { intros s' E1 E2 E3 E4 E5. constructor; cbn; rewrite ?E1, ?E2, ?E3, ?E4.
      - repeat split; assumption.
      - exact AL.
      - split; discriminate.
      - constructor; [intros m E; injection E as <-; lia|]. eapply num_le; [|exact NU]. lia.
      - split; [reflexivity|]. exists (narm s). auto.
      - rewrite C1. stk (@nil op) k. }
    assert (F : forall s' res, tr s' = tr s -> alive s' = alive s -> handler s' = HSet (narm s) -> narm s' = S (narm s) -> outstanding (tr s) = None -> kt s' = KOff -> hev s' = None -> posted s' = 0 -> (res < 0)%Z ->
      inv (log (EvArmFailed res) s') k).
    { intros s' res E1 E2 E3 E4 E5 E6 E7 E8 E9. constructor; cbn; rewrite ?E1, ?E2, ?E3, ?E4.
      - repeat split; assumption.
      - exact AL.
      - split; discriminate.
      - constructor; [discriminate|]. eapply num_le; [|exact NU]. lia.
      - rewrite E5. auto.
      - rewrite C1. stk (@nil op) k. }
    cbn [hev set_handler set_narm]. rewrite C2 in KT. destruct (outstanding (tr s)) as [n|] eqn:O.
    + destruct KT as (K0 & h & K1 & K2 & K3). destruct C4 as [-> | C4]; [|discriminate]. rewrite K2. unfold delete_timer. cbn [hev set_handler set_narm kt]. rewrite K2, K1, Nat.eqb_refl.
      eexists. split; [reflexivity|]. cbn [fst snd]. apply G; auto.
    + destruct KT as (K1 & K2 & K3 & _). rewrite K2. destruct created; eexists; (split; [reflexivity|]); cbn [fst snd].
      * apply G; auto.
      * apply F; auto. reflexivity.
  - (* XCancel *) destruct Ca as (C1 & C2). destruct (open_alive _ _ I C1) as [HK A]. pose proof (quiet_cancel _ _ I En C1) as Q.
    unfold cancel. rewrite A. cbn [negb].
    assert (G : forall res, (res < 0)%Z -> (outstanding (tr s) = None \/ due (tr s) = true) -> inv (log (EvCancel res) s) k).
    { intros res R X. constructor; cbn; auto.
      - repeat split; auto.
      - constructor; [discriminate|exact NU].
      - exact (i_k _ _ I). }
    destruct (handler s) as [| |n0] eqn:HD.
    + rewrite (proj1 US eq_refl) in C2. discriminate.
    + eexists. split; [reflexivity|]. apply G; [reflexivity|]. destruct (outstanding (tr s)); [destruct KT; discriminate|auto].
    + unfold cancel_armed. rewrite HD. unfold delete_timer. destruct (outstanding (tr s)) as [n|] eqn:O.
      * destruct KT as [K0 KT]. injection K0 as ->. destruct (due (tr s)) eqn:D.
        -- destruct KT as [(h & K1 & K2 & K3)|(K1 & K2 & K3)]; rewrite K2, ?K1, ?Nat.eqb_refl; (eexists; split; [reflexivity|]; apply G; [reflexivity|auto]).
        -- destruct KT as (h & K1 & K2 & K3). rewrite K2, K1, Nat.eqb_refl. eexists. split; [reflexivity|]. cbn [fst snd].
           destruct Q as [Q|[Q _]]; [|discriminate]. constructor; cbn; rewrite ?O, ?D, ?HD.
           ++ split; [split; [exact HK|split; [exact O|right; cbn; auto]]|]. split; [split; [exact HK|left]|exact L]. split; [reflexivity|]. split; [congruence|auto].
           ++ exact AL.
           ++ split; [discriminate|congruence].
           ++ constructor; [|constructor; [discriminate|exact NU]]. intros m E. injection E as <-. rewrite Forall_forall in NU. clear - O NU.
              induction (tr s) as [|e l IH]; [discriminate|]. destruct e; cbn in O; try discriminate; try (apply IH; [exact O|intros; apply (NU x); [right; assumption|assumption]]).
              injection O as ->. apply (NU (EvArm n ms)); [left|]; reflexivity.
           ++ auto.
           ++ rewrite C1. stk [OUser OPERATION_ABORTED; OCancelEnd] k. all: intros; try discriminate; intuition discriminate.
      * destruct KT as (K1 & K2 & K3 & _). rewrite K2. eexists. split; [reflexivity|]. apply G; [reflexivity|auto].
  - (* XClose *) destruct Ca as (C1 & C2 & C3 & C4). destruct (open_alive _ _ I C1) as [HK A]. pose proof (quiet _ _ I En C1 C4) as Q.
    unfold close. rewrite A. cbn [negb handler log].
    assert (G : outstanding (tr s) = None -> inv (log EvClose s) (OCloseEnd :: k)).
    { intros O. rewrite O in KT. constructor; cbn; rewrite ?O; auto.
      - repeat split; auto.
      - constructor; [discriminate|exact NU].
      - stk [OCloseEnd] k. all: intros; try discriminate; intuition discriminate. }
    destruct (handler s) as [| |n0] eqn:HD.
    + rewrite (proj1 US eq_refl) in C2. discriminate.
    + eexists. split; [reflexivity|]. apply G. destruct (outstanding (tr s)); [destruct KT; discriminate|auto].
    + unfold cancel_armed. cbn [handler log]. rewrite HD. unfold delete_timer. cbn [hev log]. destruct (outstanding (tr s)) as [n|] eqn:O.
      * rewrite C3 in KT. destruct KT as (K0 & h & K1 & K2 & K3). injection K0 as ->. cbn [kt log]. rewrite K2, K1, Nat.eqb_refl. eexists. split; [reflexivity|]. cbn [fst snd].
        constructor; cbn; rewrite ?O, ?C3, ?HD.
        -- split; [split; [exact HK|split; [exact O|right; cbn; auto]]|]. repeat split; auto.
        -- exact AL.
        -- split; [discriminate|congruence].
        -- constructor; [|constructor; [discriminate|exact NU]]. intros m E. injection E as <-. rewrite Forall_forall in NU. clear - O NU.
           induction (tr s) as [|e l IH]; [discriminate|]. destruct e; cbn in O; try discriminate; try (apply IH; [exact O|intros; apply (NU x); [right; assumption|assumption]]).
           injection O as ->. apply (NU (EvArm n ms)); [left|]; reflexivity.
        -- auto.
        -- stk [OUser OPERATION_ABORTED; OCancelEnd; OCloseEnd] k. all: intros; try discriminate; intuition discriminate.
      * destruct KT as (K1 & K2 & K3 & _). rewrite K2. eexists. split; [reflexivity|]. apply G. reflexivity.
  - (* XFire *) destruct En as [h En]. unfold fire. rewrite En. eexists. split; [reflexivity|]. cbn [fst snd]. destruct (outstanding (tr s)) as [n|] eqn:O; [|destruct KT; congruence].
    destruct KT as [K0 KT]. destruct (due (tr s)) eqn:D; [destruct KT as [(h' & K1 & _)|(K1 & _)]; congruence|]. destruct KT as (h' & K1 & K2 & K3). rewrite K1 in En. injection En as ->.
    destruct (i_k _ _ I) as (m & b & E & B & T & T1 & T2 & T3 & T4). 
    assert (HK : hooked (tr s) = false). { destruct (hooked (tr s)) eqn:HK; [|reflexivity]. apply hooked_closed in HK; [|exact L]. apply T4 in HK. destruct HK. congruence. }
    constructor; cbn; rewrite ?O; auto.
    + repeat split; auto. congruence.
    + constructor; [discriminate|exact NU].
    + split; [exact K0|]. left. exists h. auto.
    + exists m, b. rewrite O in T1, T4. auto 8.
  - (* XPost *) destruct En as [h En]. unfold post. rewrite En. destruct (outstanding (tr s)) as [n|] eqn:O; [|destruct KT; congruence].
    destruct (i_k _ _ I) as (m & b & E & B & T & T1 & T2 & T3 & T4). 
    assert (HK : hooked (tr s) = false). { destruct (hooked (tr s)) eqn:HK; [|reflexivity]. apply hooked_closed in HK; [|exact L]. apply T4 in HK. destruct HK. congruence. }
    rewrite AL, HK. cbn [negb]. eexists. split; [reflexivity|]. cbn [fst snd].
    destruct KT as [K0 KT]. destruct (due (tr s)) eqn:D; [|destruct KT as (h' & K1 & _); congruence]. destruct KT as [(h' & K1 & K2 & K3)|(K1 & _)]; [|congruence].
    constructor; cbn; rewrite ?O, ?D; auto.
    + split; [exact K0|]. right. rewrite K3. auto.
    + exists m, b. rewrite O in T1, T4. auto 8.
  - (* XDispatch *) destruct En as [-> P]. destruct (i_k _ _ I) as (m & b & E & B & T & T1 & T2 & T3 & T4). destruct (outstanding (tr s)) as [n|] eqn:O; [|destruct KT as (_ & _ & K & _); lia].
    assert (CL : closed (tr s) = false) by (destruct (closed (tr s)); [destruct (T4 eq_refl); congruence|reflexivity]).
    destruct (open_alive _ _ I CL) as [HK A]. destruct KT as [K0 KT]. unfold dispatch. rewrite A, K0. cbn [negb]. eexists. split; [reflexivity|]. cbn [fst snd].
    destruct (due (tr s)) eqn:D; [|destruct KT as (h' & _ & _ & K1); lia]. destruct KT as [(h' & K1 & K2 & K3)|(K1 & K2 & K3)]; [lia|].
    constructor; cbn; rewrite ?K1, ?K2, ?K3; auto.
    + repeat split; auto; left; auto.
    + split; [discriminate|]. intros X. apply US in X. congruence.
    + constructor; [|exact NU]. intros m' E'. injection E' as <-. rewrite Forall_forall in NU. clear - O NU.
      induction (tr s) as [|e l IH]; [discriminate|]. destruct e; cbn in O; try discriminate; try (apply IH; [exact O|intros; apply (NU x); [right; assumption|assumption]]).
      injection O as ->. apply (NU (EvArm n ms)); [left|]; reflexivity.
    + rewrite CL. stk (@nil op) [OUser SUCCESS].
  - (* XReturn *) eexists. split; [reflexivity|]. cbn [fst snd]. destruct (i_k _ _ I) as (m & b & E & B & T & T1 & T2 & T3 & T4).
    constructor; auto. subst k. destruct T as [-> | [-> | [-> | [-> | [-> | [-> | ->]]]]]]; cbn [app tl In] in *; try contradiction.
    + stk (@nil op) (tl b); try tauto. destruct B as [-> | ->]; left; reflexivity.
    + stk [OCancelEnd] b; try tauto. intros X. destruct (T4 X) as [X1 X2]. split; [exact X1|]. destruct X2 as [X2|X2]; [auto|]. exfalso. intuition discriminate.
    + stk [OCancelEnd; OCloseEnd] b; try tauto.
    + stk (@nil op) b.
  - (* XCont *) destruct (i_k _ _ I) as (m & b & E & B & T & T1 & T2 & T3 & T4). subst k.
    destruct T as [-> | [-> | [-> | [-> | [-> | [-> | ->]]]]]]; cbn [app tl In] in *; try contradiction; try (destruct B as [-> | ->]; contradiction).
    + destruct (T1 (or_introl eq_refl)) as (O & HK & HG). rewrite AL, HK. cbn [negb]. eexists. split; [reflexivity|]. cbn [fst snd]. constructor; cbn; auto.
      * split; [discriminate|]. intros X. apply US in X. contradiction.
      * rewrite O in *. exact KT.
      * stk (@nil op) b. intros X. destruct (T4 X) as [_ [X2|X2]]; [congruence|]. exfalso. intuition discriminate.
    + destruct (T1 (or_introl eq_refl)) as (O & HK & HG). rewrite AL, HK. cbn [negb]. eexists. split; [reflexivity|]. cbn [fst snd]. constructor; cbn; auto.
      * split; [discriminate|]. intros X. apply US in X. contradiction.
      * rewrite O in *. exact KT.
      * stk [OCloseEnd] b; try tauto.
    + destruct (T3 (or_introl eq_refl)) as (CL & HK). rewrite AL, HK. cbn [negb]. eexists. split; [reflexivity|]. cbn [fst snd]. constructor; cbn; auto.
      * repeat split; auto. apply T4, CL.
      * constructor; [discriminate|exact NU].
      * stk [OHook] b; try tauto.
Qed.
Lemma start_inv : inv (fst start) (snd start).
Proof. constructor; cbn; auto; try tauto. stk (@nil op) (@nil op); discriminate. Qed.
Lemma reach_inv' c : reach careful c -> inv (fst c) (snd c).
Proof.
  intros R. induction R as [|[s0 k0] x c' R IH En Ca St]; [exact start_inv|].
  destruct (step_inv s0 k0 x IH En Ca) as (c & E & I). rewrite E in St. injection St as <-. exact I.
Qed.
Lemma reach_inv s k : reach careful (s, k) -> inv s k.
Proof. intros R. exact (reach_inv' _ R). Qed.

(** * C65 *)
Theorem C65_every_step_is_defined : forall s k x, reach careful (s, k) -> enabled (s, k) x -> careful (s, k) x -> exists c, step (s, k) x = Ret c.
Proof. intros s k x R En Ca. destruct (step_inv s k x (reach_inv s k R) En Ca) as (c & E & _). exists c. exact E. Qed.
Print Assumptions C65_every_step_is_defined.
Lemma lawful_split l1 : forall e l0, lawful (l1 ++ e :: l0) -> allowed e l0 /\ lawful l0.
Proof. induction l1 as [|a l1 IH]; intros e l0 H; [exact H|]. apply IH, H. Qed.

(** A handler is called for the arming that waits for it; with success only if the timer has run out and is not closed, with
    CIO_OPERATION_ABORTED only if the application has just cancelled or closed the timer before it ran out; never after the
    close hook. *)
Theorem C65_handler_calls : forall s k l1 n err l0, reach careful (s, k) -> tr s = l1 ++ EvHandler n err :: l0 ->
  hooked l0 = false /\ outstanding l0 = Some n /\
  ((err = SUCCESS /\ due l0 = true /\ closed l0 = false) \/ (err = OPERATION_ABORTED /\ due l0 = false /\ asked l0)).
Proof. intros s k l1 n err l0 R E. pose proof (i_law _ _ (reach_inv s k R)) as L. rewrite E in L. apply lawful_split in L. exact (proj1 L). Qed.
Print Assumptions C65_handler_calls.
(** cio_timer_cancel reports success exactly if the timer was armed and had not run out; it then has called the handler. *)
Theorem C65_cancel_result : forall s k l1 res l0, reach careful (s, k) -> tr s = l1 ++ EvCancel res :: l0 ->
  (res = SUCCESS /\ outstanding l0 <> None /\ due l0 = false) \/ ((res < 0)%Z /\ (outstanding l0 = None \/ due l0 = true)).
Proof. intros s k l1 res l0 R E. pose proof (i_law _ _ (reach_inv s k R)) as L. rewrite E in L. apply lawful_split in L. exact (proj2 (proj1 L)). Qed.
Print Assumptions C65_cancel_result.

Lemma outstanding_split n l : outstanding l = Some n -> exists a ms b, l = a ++ EvArm n ms :: b /\ forall m err, ~ In (EvHandler m err) a.
Proof.
  induction l as [|e l IH]; intros H; [discriminate|].
  assert (G : outstanding l = Some n -> (forall m err, e <> EvHandler m err) -> exists a ms b, e :: l = a ++ EvArm n ms :: b /\ forall m err, ~ In (EvHandler m err) a).
  { intros X Y. destruct (IH X) as (a & ms & b & -> & Z). exists (e :: a), ms, b. split; [reflexivity|]. intros m err [W|W]; [exact (Y m err W)|exact (Z m err W)]. }
  destruct e; cbn [outstanding] in H; try (apply G; [exact H|discriminate]); try discriminate.
  injection H as ->. exists [], ms, l. split; [reflexivity|]. intros m err [].
Qed.
(** Every arming is answered at most once. *)
Theorem C65_answered_at_most_once : forall s k l1 n err l0, reach careful (s, k) -> tr s = l1 ++ EvHandler n err :: l0 ->
  forall err', ~ In (EvHandler n err') l0 /\ ~ In (EvHandler n err') l1.
Proof.
  assert (B : forall s k l1 n err l0, reach careful (s, k) -> tr s = l1 ++ EvHandler n err :: l0 -> forall err', ~ In (EvHandler n err') l0).
  { intros s k l1 n err l0 R E err' X. pose proof (i_law _ _ (reach_inv s k R)) as L. rewrite E in L. apply lawful_split in L. destruct L as [(_ & O & _) L].
    destruct (outstanding_split _ _ O) as (a & ms & b & -> & NA). apply lawful_split in L. destruct L as [(_ & _ & _ & L) _]. apply in_app_or in X. destruct X as [X|[X|X]]; [exact (NA _ _ X)|discriminate|].
    rewrite Forall_forall in L. specialize (L _ X n eq_refl). lia. }
  intros s k l1 n err l0 R E err'. split; [eapply B; eassumption|]. intros X. apply in_split in X. destruct X as (a & b & ->). rewrite <- app_assoc in E. cbn [app] in E.
  apply (B s k a n err' _ R E err). apply in_or_app. right. left. reflexivity.
Qed.
Print Assumptions C65_answered_at_most_once.

(** No arming is forgotten: the kernel timer runs, its callback runs, or its completion is in the queue of the event loop; and
    the next round of the event loop calls the handler. *)
Theorem C65_not_forgotten : forall s k n, reach careful (s, k) -> outstanding (tr s) = Some n ->
  if due (tr s) then (exists h, kt s = KFiring h) \/ posted s = 1 else exists h, kt s = KRunning h.
Proof.
  intros s k n R O. pose proof (i_kt _ _ (reach_inv s k R)) as K. rewrite O in K. destruct K as [_ K]. destruct (due (tr s)); [destruct K as [(h & K & _)|(_ & _ & K)]; eauto|destruct K as (h & K & _); eauto].
Qed.
Print Assumptions C65_not_forgotten.
Theorem C65_dispatch_calls_handler : forall s, reach careful (s, []) -> 0 < posted s ->
  exists n c, step (s, []) XDispatch = Ret c /\ outstanding (tr s) = Some n /\ tr (fst c) = EvHandler n SUCCESS :: tr s.
Proof.
  intros s R P. pose proof (reach_inv s _ R) as I. assert (En : enabled (s, []) XDispatch) by (split; [reflexivity|exact P]).
  destruct (step_inv s [] XDispatch I En Logic.I) as (c & E & Ic). pose proof (i_kt _ _ I) as K. destruct (outstanding (tr s)) as [n|] eqn:O; [|destruct K as (_ & _ & K & _); lia].
  destruct K as [K _]. exists n, c. split; [exact E|]. split; [reflexivity|]. cbn [step] in E. unfold dispatch in E. destruct (negb (alive s)); [discriminate|]. rewrite K in E. injection E as <-. reflexivity.
Qed.
Print Assumptions C65_dispatch_calls_handler.

(** The close hook is called once, as the last event of the timer, when no handler call is owed. *)
Theorem C65_hook_is_last : forall s k l1 l0, reach careful (s, k) -> tr s = l1 ++ EvHook :: l0 -> l1 = [] /\ closed l0 = true /\ outstanding l0 = None.
Proof.
  intros s k l1 l0 R E. pose proof (i_law _ _ (reach_inv s k R)) as L. rewrite E in L.
  split; [|apply lawful_split in L; destruct L as [[_ A] _]; exact A].
  destruct l1 as [|e l1]; [reflexivity|]. exfalso. cbn [app lawful] in L. destruct L as [[H _] _].
  assert (X : hooked (l1 ++ EvHook :: l0) = true) by (clear; induction l1 as [|e l1 IH]; [reflexivity|]; destruct e; try exact IH; reflexivity). congruence.
Qed.
Print Assumptions C65_hook_is_last.
(** A timer that was closed has its hook called before control returns to the event loop. *)
Theorem C65_hook_is_called : forall s, reach careful (s, []) -> closed (tr s) = true -> hooked (tr s) = true.
Proof.
  intros s R C. destruct (i_k _ _ (reach_inv s _ R)) as (m & b & E & B & T & _ & _ & _ & T4). destruct (T4 C) as [_ [H|H]]; [exact H|]. symmetry in E. apply app_eq_nil in E. destruct E as [-> _]. destruct H.
Qed.
Print Assumptions C65_hook_is_called.

(** Durations: whole milliseconds, rounded down, exactly, below 2^32 of them (49.7 days). *)
Theorem C65_duration : forall ns, (ns < 2 ^ 32 * 1000000)%N -> (duration_ms ns * 1000000 <= ns < (duration_ms ns + 1) * 1000000)%N.
Proof.
  intros ns H. unfold duration_ms. rewrite N.mod_small by (apply N.div_lt_upper_bound; lia). pose proof (N.div_mod ns 1000000). pose proof (N.mod_lt ns 1000000). lia.
Qed.
Print Assumptions C65_duration.
Theorem C65_armed_with_duration : forall s k ns c, reach careful (s, k) -> enabled (s, k) (XArm ns true) -> careful (s, k) (XArm ns true) -> step (s, k) (XArm ns true) = Ret c ->
  exists n, tr (fst c) = EvArm n (duration_ms ns) :: tr s.
Proof.
  intros s k ns c R En Ca E. pose proof (i_kt _ _ (reach_inv s k R)) as K. destruct Ca as (_ & D & _). rewrite D in K. cbn [step] in E. unfold expires_from_now in E. destruct (negb (alive s)); [discriminate|]. cbn in E.
  destruct (outstanding (tr s)) as [n|].
  - destruct K as (_ & h & K1 & K2 & _). rewrite K2 in E. unfold delete_timer in E. cbn in E. rewrite K2, K1, Nat.eqb_refl in E. injection E as <-. eexists. reflexivity.
  - destruct K as (_ & K2 & _). rewrite K2 in E. injection E as <-. eexists. reflexivity.
Qed.
Print Assumptions C65_armed_with_duration.

(** * Concrete runs *)
Definition app_runsb (k : list op) : bool := match k with [] | OUser _ :: _ | OHook :: _ => true | _ => false end.
Definition enabledb (c : conf) (x : act) : bool :=
  let '(s, k) := c in
  match x with
  | XArm ns _ => app_runsb k && (ns <? 2 ^ 64)%N
  | XCancel | XClose => app_runsb k
  | XFire => match kt s with KRunning _ => true | _ => false end
  | XPost => match kt s with KFiring _ => true | _ => false end
  | XDispatch => match k, posted s with [], S _ => true | _, _ => false end
  | XReturn => match k with OUser _ :: _ | OHook :: _ => true | _ => false end
  | XCont => match k with OCancelEnd :: _ | OCloseEnd :: _ => true | _ => false end
  end.
Lemma enabledb_ok c x : enabledb c x = true -> enabled c x.
Proof.
  assert (A : forall k, app_runsb k = true -> app_runs k) by (intros [|o k]; [intros _; exact I|]; destruct o; cbn; congruence || auto).
  destruct c as [s k]. destruct x; cbn; intros H; auto.
  - apply andb_prop in H. destruct H as [H1 H2]. apply N.ltb_lt in H2. auto.
  - destruct (kt s); try discriminate. eauto.
  - destruct (kt s); try discriminate. eauto.
  - destruct k; [|discriminate]. destruct (posted s); [discriminate|]. split; [reflexivity|lia].
  - destruct k as [|o k]; [discriminate|]. destruct o; try discriminate; exact I.
  - destruct k as [|o k]; [discriminate|]. destruct o; try discriminate; exact I.
Qed.
Definition no_aborted (k : list op) : bool := negb (existsb (fun o => match o with OUser err => Z.eqb err OPERATION_ABORTED | _ => false end) k).
Lemma no_aborted_ok k : no_aborted k = true -> ~ In (OUser OPERATION_ABORTED) k.
Proof.
  unfold no_aborted. intros H X. apply negb_true_iff in H.
  assert (Y : existsb (fun o => match o with OUser err => Z.eqb err OPERATION_ABORTED | _ => false end) k = true) by (apply existsb_exists; eexists; split; [exact X|reflexivity]). congruence.
Qed.
Definition carefulb (c : conf) (x : act) : bool :=
  let '(s, k) := c in
  let l := tr s in
  match x with
  | XArm _ created => negb (closed l) && negb (due l) && no_aborted k && (created || match outstanding l with None => true | _ => false end)
  | XCancel => negb (closed l) && used l
  | XClose => negb (closed l) && used l && negb (due l) && no_aborted k
  | _ => true
  end.
Lemma carefulb_ok c x : carefulb c x = true -> careful c x.
Proof.
  destruct c as [s k]. destruct x; cbn; intros H; auto; repeat (apply andb_prop in H; let H' := fresh "H" in destruct H as [H H']); rewrite ?negb_true_iff in *; auto using no_aborted_ok.
  repeat split; auto using no_aborted_ok. destruct created; [auto|]. right. destruct (outstanding (tr s)); [discriminate|reflexivity].
Qed.
Fixpoint run (u : conf -> act -> bool) (c : conf) (l : list act) : option conf :=
  match l with
  | [] => Some c
  | x :: r => if enabledb c x && u c x then match step c x with Ret c' => run u c' r | UB => None end else None
  end.
Lemma run_reach u (P : conf -> act -> Prop) l : (forall c x, u c x = true -> P c x) -> forall c c', reach P c -> run u c l = Some c' -> reach P c'.
Proof.
  intros HU. induction l as [|x l IH]; intros c c' R E; cbn in E; [injection E as <-; exact R|].
  destruct (enabledb c x && u c x) eqn:B; [|discriminate]. apply andb_prop in B. destruct B as [B1 B2]. destruct (step c x) as [c1|] eqn:St; [|discriminate].
  eapply IH; [|exact E]. eapply reach_step; [exact R|apply enabledb_ok, B1|apply HU, B2|exact St].
Qed.
Definition anyone (c : conf) (x : act) : Prop := True.
Definition free (c : conf) (x : act) : bool := true.
Ltac at_run u l := match goal with |- exists s k, reach ?P (s, k) /\ _ =>
  let E := fresh "E" in destruct (run u start l) as [[? ?]|] eqn:E; [|vm_compute in E; discriminate E]; match type of E with _ = Some (?a, ?b) => exists a, b; split;
    [eapply run_reach; [|apply reach_init|exact E]; first [exact carefulb_ok|exact (fun _ _ _ => I)]|vm_compute in E; injection E as <- <-] end end.
Definition ms (n : N) : N := (n * 1000000)%N.

(** Non-vacuity: armed, armed again, run out, cancelled in vain before the handler was called, armed in the handler and
    cancelled there, armed once more (after a failure) and closed. *)
Example orderly : exists s k, reach careful (s, k) /\ k = [] /\
  rev (tr s) = [EvArm 0 5; EvArm 1 3; EvExpired; EvCancel INVALID_ARGUMENT; EvHandler 1 SUCCESS; EvArm 2 4; EvCancel SUCCESS; EvHandler 2 OPERATION_ABORTED;
    EvArmFailed INVALID_ARGUMENT; EvArm 4 2; EvClose; EvHandler 4 OPERATION_ABORTED; EvHook].
Proof.
  at_run carefulb [XArm (ms 5) true; XArm (ms 3) true; XFire; XCancel; XPost; XDispatch; XArm (ms 4) true; XCancel; XReturn; XCont; XReturn; XArm (ms 9) false; XArm (ms 2) true; XClose; XReturn; XCont; XCont; XReturn].
  repeat split.
Qed.

(** VIOLATED: a timer that was never armed cannot be cancelled or closed: cio_timer_init leaves the handler uninitialised. *)
Theorem C65_close_unarmed_refuted : step start XClose = UB /\ step start XCancel = UB /\ enabled start XClose /\ enabled start XCancel.
Proof. repeat split. Qed.
Print Assumptions C65_close_unarmed_refuted.
(** VIOLATED: closed after it ran out and before the event loop got to it - nothing the application could see -, the handler is
    not called before the hook, and the event loop uses the timer after it. *)
Theorem C65_close_after_expiry_refuted : exists s k, reach anyone (s, k) /\ k = [] /\ rev (tr s) = [EvArm 0 5; EvExpired; EvClose; EvHook] /\ enabled (s, k) XDispatch /\ step (s, k) XDispatch = UB.
Proof. at_run free [XArm (ms 5) true; XFire; XPost; XClose; XCont; XReturn]. repeat split. cbn. lia. Qed.
Print Assumptions C65_close_after_expiry_refuted.
(** VIOLATED: armed again after it ran out and before its handler was called: the first handler is never called, the second at
    once, and when the timer runs out a NULL handler is called. *)
Theorem C65_rearm_after_expiry_refuted : exists s k, reach anyone (s, k) /\ k = [] /\ rev (tr s) = [EvArm 0 5; EvExpired; EvArm 1 7; EvHandler 1 SUCCESS; EvExpired] /\ enabled (s, k) XDispatch /\ step (s, k) XDispatch = UB.
Proof. at_run free [XArm (ms 5) true; XFire; XPost; XArm (ms 7) true; XDispatch; XReturn; XFire; XPost]. repeat split. cbn. lia. Qed.
Print Assumptions C65_rearm_after_expiry_refuted.
(** VIOLATED: the same while the callback runs: arming fails, but its handler is called nevertheless, and the first one never. *)
Theorem C65_failed_rearm_refuted : exists s k, reach anyone (s, k) /\ rev (tr s) = [EvArm 0 5; EvExpired; EvArmFailed IO_PENDING; EvHandler 1 SUCCESS].
Proof. at_run free [XArm (ms 5) true; XFire; XArm (ms 7) true; XPost; XDispatch]. repeat split. Qed.
Print Assumptions C65_failed_rearm_refuted.
(** VIOLATED: armed in the handler that is called with CIO_OPERATION_ABORTED, the new handler is forgotten when that returns; a
    NULL handler is called when the timer runs out. *)
Theorem C65_rearm_in_aborted_handler_refuted : exists s k, reach anyone (s, k) /\ k = [] /\ rev (tr s) = [EvArm 0 5; EvCancel SUCCESS; EvHandler 0 OPERATION_ABORTED; EvArm 1 7; EvExpired] /\ enabled (s, k) XDispatch /\ step (s, k) XDispatch = UB.
Proof. at_run free [XArm (ms 5) true; XCancel; XArm (ms 7) true; XReturn; XCont; XFire; XPost]. repeat split. cbn. lia. Qed.
Print Assumptions C65_rearm_in_aborted_handler_refuted.
(** VIOLATED: closed in that handler, the timer is written to after its close hook. *)
Theorem C65_close_in_aborted_handler_refuted : exists s k, reach anyone (s, k) /\ rev (tr s) = [EvArm 0 5; EvCancel SUCCESS; EvHandler 0 OPERATION_ABORTED; EvClose; EvHook] /\ enabled (s, k) XCont /\ step (s, k) XCont = UB.
Proof. at_run free [XArm (ms 5) true; XCancel; XClose; XCont; XReturn; XReturn]. repeat split. Qed.
Print Assumptions C65_close_in_aborted_handler_refuted.
(** VIOLATED: after arming again has failed the handle of the deleted timer is used again. *)
Theorem C65_stale_handle_refuted : exists s k, reach anyone (s, k) /\ rev (tr s) = [EvArm 0 5; EvArmFailed INVALID_ARGUMENT] /\ enabled (s, k) XCancel /\ step (s, k) XCancel = UB.
Proof. at_run free [XArm (ms 5) true; XArm (ms 5) false]. repeat split. Qed.
Print Assumptions C65_stale_handle_refuted.
(** VIOLATED: timeouts are taken modulo 2^32 milliseconds: 50 days are 6 hours and 57 minutes. *)
Theorem C65_durations_refuted : duration_ms (50 * 24 * 3600 * 1000000000) = 25032704%N /\ duration_ms 999999 = 0%N.
Proof. split; reflexivity. Qed.
Print Assumptions C65_durations_refuted.
