(** C76, Windows: stopping an event loop. Traces are newest first. *)
From Verif Require Import Base WinLoop.

(** ** Specification *)
Definition calls (t : list ev) : list nat := flat_map (fun e => match e with EvCall id => [id] | _ => [] end) t.
(** The thread of the loop is in a callback. *)
Fixpoint in_callback (t : list ev) : bool :=
  match t with EvCall _ :: _ => true | (EvDone | EvRun | EvReturn) :: _ => false | _ :: r => in_callback r | [] => false end.
Definition arrivals (t : list ev) : nat := length (filter (fun e => match e with EvArrive _ => true | _ => false end) t).

(** ** Splitting a run at an event *)
Lemma one_event s x : tr (step s x) = tr s \/ exists e, tr (step s x) = e :: tr s.
Proof. destruct x; cbn [step]; repeat match goal with |- context [match ?y with _ => _ end] => destruct y end; cbn; eauto. Qed.
Lemma split_run s : reach s -> forall new e old, tr s = new ++ e :: old -> exists s0 x, reach s0 /\ enabled s0 x /\ tr s0 = old /\ tr (step s0 x) = e :: old /\ later (step s0 x) s.
Proof.
  induction 1 as [|s1 x H IH EN]; intros new e old E.
  - cbn in E. destruct new; discriminate.
  - destruct (one_event s1 x) as [T|[e1 T]].
    + rewrite T in E. destruct (IH _ _ _ E) as (s0 & y & R & A & B & C & D). exists s0, y. repeat (split; [assumption|]). apply later_step; assumption.
    + rewrite T in E. destruct new as [|e2 new]; cbn in E; injection E as -> E.
      * exists s1, x. split; [exact H|]. split; [exact EN|]. split; [exact E|]. split; [rewrite T, E; reflexivity|apply later_refl].
      * destruct (IH _ _ _ E) as (s0 & y & R & A & B & C & D). exists s0, y. repeat (split; [assumption|]). apply later_step; assumption.
Qed.
Lemma later_trans s s1 s2 : later s s1 -> later s1 s2 -> later s s2.
Proof. intros A B. induction B; [exact A|apply later_step; assumption]. Qed.

Lemma logs s x e : tr (step s x) = e :: tr s -> match e with EvCancel => x = XCancel | EvReturn => where_ (step s x) = Out | _ => True end.
Proof.
  assert (L : forall t (e1 : ev), t <> e1 :: t) by (intros t e1 H; apply (f_equal (@length _)) in H; cbn in H; lia).
  destruct x; cbn [step]; repeat match goal with |- context [match ?y with _ => _ end] => destruct y end; cbn; intros H; try (destruct (L _ _ H)); try discriminate; try (injection H as <-); auto.
Qed.

(** ** Invariant *)
Definition ids (l : list packet) : list nat := flat_map (fun p => match p with PDone id => [id] | PStop => [] end) l.
Record inv (s : st) : Prop := Inv {
  i_order : rev (calls (tr s)) ++ ids (q s) = seq 0 (narr s);
  i_count : arrivals (tr s) = narr s;
  i_go : go s = false <-> In EvCancel (tr s);
  i_call : in_callback (tr s) = true <-> exists id, where_ s = Call id;
}.
Lemma ids_app a b : ids (a ++ b) = ids a ++ ids b.
Proof. apply flat_map_app. Qed.
Lemma step_inv s x : inv s -> enabled s x -> inv (step s x).
Proof.
  intros [O A G C] E. destruct x as [| | | | | | |ok]; cbn [enabled] in E; cbn [step].
  - constructor; cbn [tr q narr go where_ calls flat_map arrivals filter length in_callback].
    + change (rev (calls (tr s)) ++ ids (q s ++ [PDone (narr s)]) = seq 0 (S (narr s))). rewrite ids_app, app_assoc, O, seq_S. reflexivity.
    + fold (arrivals (tr s)). congruence.
    + rewrite G. cbn. intuition discriminate.
    + exact C.
  - constructor; cbn; [exact O|exact A|rewrite G; intuition discriminate|split; [discriminate|intros [? ?]; discriminate]].
  - destruct (go s) eqn:GO; constructor; cbn; try exact O; try exact A.
    + exact G.
    + rewrite C. split; intros [? ?]; congruence.
    + rewrite <- G. intuition.
    + split; [discriminate|intros [? ?]; discriminate].
  - destruct E as [W NE]. destruct (q s) as [|[id|] r] eqn:Q; [congruence| |]; constructor; cbn; try exact A.
    + rewrite <- app_assoc. exact O.
    + rewrite G. intuition discriminate.
    + split; [eauto|reflexivity].
    + exact O.
    + rewrite G. intuition discriminate.
    + split; [discriminate|intros [? ?]; discriminate].
  - constructor; cbn; [exact O|exact A|exact G|]. rewrite C. split; intros [? ?]; congruence.
  - constructor; cbn; [exact O|exact A|rewrite G; intuition discriminate|split; [discriminate|intros [? ?]; discriminate]].
  - constructor; cbn; [exact O|exact A|intuition|exact C].
  - constructor; cbn; [|exact A|rewrite G; intuition discriminate|exact C]. destruct ok; [rewrite ids_app; cbn; rewrite app_nil_r|]; exact O.
Qed.
Lemma reach_inv s : reach s -> inv s.
Proof. induction 1; [|apply step_inv; assumption]. constructor; cbn; try reflexivity; [intuition discriminate|split; [discriminate|intros [? ?]; discriminate]]. Qed.

(** Once go_ahead is false and the loop does not wait for a packet, no callback is called any more. *)
Lemma stays_quiet s s' : go s = false -> where_ s <> Wait -> later s s' -> go s' = false /\ where_ s' <> Wait /\ calls (tr s') = calls (tr s).
Proof.
  intros G W. induction 1 as [|s1 x H (G1 & W1 & C1) E]; [auto|]. destruct x as [| | | | | | |ok]; cbn [enabled] in E; cbn [step].
  - cbn. auto.
  - cbn. split; [exact G1|]. split; [discriminate|exact C1].
  - rewrite G1. cbn. split; [reflexivity|]. split; [discriminate|exact C1].
  - destruct E. congruence.
  - congruence.
  - cbn. split; [exact G1|]. split; [discriminate|exact C1].
  - cbn. auto.
  - cbn. auto.
Qed.
Lemma one_more s s' : go s = false -> later s s' -> (exists n, calls (tr s') = n ++ calls (tr s) /\ (length n <= 1)%nat) /\ go s' = false /\ (where_ s' = Wait -> calls (tr s') = calls (tr s)).
Proof.
  intros G. induction 1 as [|s1 x H (C1 & G1 & W1) E]; [split; [exists []; auto|auto]|].
  destruct x as [| | | | | | |ok]; cbn [enabled] in E; cbn [step].
  - cbn. auto.
  - cbn. split; [exact C1|]. split; [exact G1|discriminate].
  - rewrite G1. cbn. split; [exact C1|]. split; [reflexivity|discriminate].
  - destruct E as [W NE]. specialize (W1 W). destruct (q s1) as [|[id|] r]; [congruence| |]; cbn.
    + split; [exists [id]; change (flat_map _ (tr s1)) with (calls (tr s1)); rewrite W1; auto|]. split; [exact G1|discriminate].
    + split; [exact C1|]. split; [exact G1|discriminate].
  - cbn. split; [exact C1|]. split; [exact G1|discriminate].
  - cbn. split; [exact C1|]. split; [exact G1|discriminate].
  - cbn. split; [exact C1|]. split; [reflexivity|exact W1].
  - cbn. split; [exact C1|]. split; [exact G1|exact W1].
Qed.

(** ** Theorems *)

(** Completions are handed over in the order in which they arrived, each once, and those that were not handed over yet are still there. *)
Theorem C76_windows_in_order : forall s, reach s -> rev (calls (tr s)) = seq 0 (length (calls (tr s))) /\ (length (calls (tr s)) <= arrivals (tr s))%nat /\
  ids (q s) = seq (length (calls (tr s))) (arrivals (tr s) - length (calls (tr s))).
Proof.
  intros s R. destruct (reach_inv s R) as [O A _ _]. rewrite A.
  assert (L : (length (calls (tr s)) + length (ids (q s)) = narr s)%nat) by (apply (f_equal (@length _)) in O; rewrite app_length, rev_length, seq_length in O; exact O).
  replace (narr s) with (length (calls (tr s)) + length (ids (q s)))%nat in O by exact L. rewrite seq_app in O.
  assert (X : rev (calls (tr s)) = seq 0 (length (calls (tr s))) /\ ids (q s) = seq (0 + length (calls (tr s))) (length (ids (q s)))).
  { revert O. generalize (length (ids (q s))) as m. intros m O. pose proof (f_equal (firstn (length (calls (tr s)))) O) as F. pose proof (f_equal (skipn (length (calls (tr s)))) O) as K.
    rewrite firstn_app, rev_length, Nat.sub_diag, firstn_O, app_nil_r, firstn_all2 in F by (rewrite rev_length; lia).
    rewrite firstn_app, seq_length, Nat.sub_diag, firstn_O, app_nil_r, firstn_all2 in F by (rewrite seq_length; lia).
    rewrite skipn_app, rev_length, Nat.sub_diag, skipn_O, skipn_all2 in K by (rewrite rev_length; lia).
    rewrite skipn_app, seq_length, Nat.sub_diag, skipn_O, (skipn_all2 (seq _ _)) in K by (rewrite seq_length; lia). auto. }
  destruct X as [X Y]. split; [exact X|]. split; [lia|]. rewrite Y. cbn [Nat.add]. f_equal. lia.
Qed.
Print Assumptions C76_windows_in_order.

(** The loop runs until it is cancelled. *)
Theorem C76_windows_runs_until_cancelled : forall s, reach s -> In EvReturn (tr s) -> In EvCancel (tr s).
Proof.
  assert (K : forall s, reach s -> (In EvReturn (tr s) -> In EvCancel (tr s)) /\ (In PStop (q s) -> In EvCancel (tr s)) /\ ((0 < half s)%nat -> In EvCancel (tr s))).
  { intros s R. induction R as [|s x R (A & B & C) E]; [cbn; intuition lia|]. destruct (reach_inv s R) as [_ _ G _].
    destruct x as [| | | | | | |ok]; cbn [enabled] in E; cbn [step].
    - cbn. split; [intuition discriminate|]. split; [|auto]. rewrite in_app_iff. cbn. intuition discriminate.
    - cbn. intuition discriminate.
    - destruct (go s) eqn:GO; cbn; [auto|]. intuition.
    - destruct E as [W NE]. destruct (q s) as [|[id|] r]; [congruence| |]; cbn in *; intuition discriminate.
    - cbn. auto.
    - cbn. intuition discriminate.
    - cbn. auto.
    - cbn. split; [intuition discriminate|]. destruct ok; [rewrite in_app_iff|]; intuition. all: try (right; apply C; lia). }
  intros s R. apply K, R.
Qed.
Print Assumptions C76_windows_runs_until_cancelled.

(** After cio_eventloop_cancel has begun, at most one more callback is called - whatever any thread does, however often the loop is run again -
    and none if it was called from a callback, or once the loop has returned. *)
Theorem C76_windows_stops : forall s new old, reach s -> tr s = new ++ EvCancel :: old ->
  (length (calls new) <= 1)%nat /\ (in_callback old = true -> calls new = []) /\
  (forall n1 n2, new = n1 ++ EvReturn :: n2 -> calls n1 = []).
Proof.
  assert (D : forall a b : list ev, calls (a ++ b) = calls a ++ calls b) by (intros; apply flat_map_app).
  intros s new old R E. destruct (split_run s R _ _ _ E) as (s0 & x & R0 & EN & T0 & T1 & L).
  assert (X : x = XCancel) by (rewrite <- T0 in T1; exact (logs _ _ _ T1)).
  subst x. assert (G : go (step s0 XCancel) = false) by reflexivity. split; [|split].
  - destruct (one_more _ _ G L) as ((n & C & LN) & _). rewrite E, T1, !D in C. apply app_inv_tail in C. subst n. exact LN.
  - intros IC. destruct (reach_inv s0 R0) as [_ _ _ W]. rewrite T0 in W. apply W in IC. destruct IC as [id IC].
    destruct (stays_quiet (step s0 XCancel) s G) as (_ & _ & C); [cbn; congruence|exact L|]. rewrite E, T1, D in C. apply (app_inv_tail (calls (EvCancel :: old)) (calls new) []). exact C.
  - intros n1 n2 ->. rewrite <- app_assoc in E. cbn in E. destruct (split_run s R _ _ _ E) as (s1 & y & R1 & EN1 & T2 & T3 & L1).
    assert (GO : go (step s1 y) = false).
    { assert (R2 : reach (step s1 y)) by (apply later_step; assumption). apply (reach_inv _ R2). rewrite T3. right. apply in_app_iff. right. left. reflexivity. }
    assert (W : where_ (step s1 y) <> Wait).
    { rewrite <- T2 in T3. pose proof (logs _ _ _ T3) as LG. cbn in LG. congruence. }
    destruct (stays_quiet _ _ GO W L1) as (_ & _ & C). rewrite E, T3, D in C. eapply (app_inv_tail (calls (EvReturn :: n2 ++ EvCancel :: old)) (calls n1) []). exact C.
Qed.
Print Assumptions C76_windows_stops.

(** No cancel is overlooked: when every call of cio_eventloop_cancel has ended and reached the completion port, a loop that waits has something to get - and,
    whatever that is, it ends after one callback at most. *)
Definition loop_step (x : act) : Prop := match x with XCheck | XGet | XDone => True | _ => False end.
Inductive by_itself (s : st) : st -> Prop :=
| bi_refl : by_itself s s
| bi_step s1 x : by_itself s s1 -> loop_step x -> enabled s1 x -> by_itself s (step s1 x).
Theorem C76_windows_cancel_is_noticed : forall s, reach s -> In EvCancel (tr s) -> half s = 0%nat -> ~ In (EvPosted false) (tr s) -> exists s', by_itself s s' /\ where_ s' = Out.
Proof.
  intros s R IC H0 OK. pose proof (reach_inv s R) as [_ _ G _]. apply G in IC.
  assert (W : where_ s = Wait -> q s <> []).
  { assert (K : reach s -> go s = false -> ~ In (EvPosted false) (tr s) -> half s = 0%nat -> where_ s = Wait -> In PStop (q s)).
    { clear. intros R G OK H W.
      assert (K : go s = false -> ~ In (EvPosted false) (tr s) -> where_ s = Wait -> (0 < half s)%nat \/ In PStop (q s)); [|destruct (K G OK W); [lia|assumption]].
      clear G OK H W. induction R as [|s x R IH E]; [discriminate|]. intros G OK W.
      destruct x as [| | | | | | |ok]; cbn [enabled] in E; cbn [step] in *; cbn in *.
      - destruct IH as [IH|IH]; auto. right. apply in_app_iff. auto.
      - discriminate.
      - destruct (go s) eqn:GO; cbn in *; [congruence|discriminate].
      - destruct (q s) as [|[id|] r]; [destruct E; congruence|discriminate|discriminate].
      - discriminate.
      - discriminate.
      - left. lia.
      - destruct ok; [right; apply in_app_iff; cbn; auto|exfalso; apply OK; auto]. }
    intros WW Q. specialize (K R IC OK H0 WW). rewrite Q in K. exact K. }
  assert (CK : forall s1, by_itself s s1 -> go s1 = false -> where_ s1 = Check -> exists s', by_itself s s' /\ where_ s' = Out).
  { intros s1 B G1 W1. exists (step s1 XCheck). split; [apply bi_step; [exact B|exact Logic.I|exact W1]|]. cbn. rewrite G1. reflexivity. }
  assert (CL : forall s1 id, by_itself s s1 -> go s1 = false -> where_ s1 = Call id -> exists s', by_itself s s' /\ where_ s' = Out).
  { intros s1 id B G1 W1. apply (CK (step s1 XDone)); [apply bi_step; [exact B|exact Logic.I|exists id; exact W1]|exact G1|reflexivity]. }
  destruct (where_ s) as [| | |id] eqn:WS.
  - exists s. split; [apply bi_refl|exact WS].
  - apply (CK s); [apply bi_refl|exact IC|exact WS].
  - specialize (W eq_refl). assert (B : by_itself s (step s XGet)) by (apply bi_step; [apply bi_refl|exact Logic.I|split; [exact WS|exact W]]).
    destruct (q s) as [|[id|] r] eqn:Q; [congruence| |].
    + apply (CL (step s XGet) id); [exact B|cbn; rewrite Q; exact IC|cbn; rewrite Q; reflexivity].
    + exists (step s XGet). split; [exact B|]. cbn. rewrite Q. reflexivity.
  - apply (CL s id); [apply bi_refl|exact IC|exact WS].
Qed.
Print Assumptions C76_windows_cancel_is_noticed.

(** ** Runs *)
Definition enabledb (s : st) (x : act) : bool :=
  match x with
  | XArrive | XCancel => true
  | XRun => match where_ s with Out => true | _ => false end
  | XCheck => match where_ s with Check => true | _ => false end
  | XGet => match where_ s, q s with Wait, _ :: _ => true | _, _ => false end
  | XBroken => match where_ s with Wait => true | _ => false end
  | XDone => match where_ s with Call _ => true | _ => false end
  | XPost _ => Nat.ltb 0 (half s)
  end.
Fixpoint run (s : st) (l : list act) : option st := match l with [] => Some s | x :: r => if enabledb s x then run (step s x) r else None end.
Lemma run_reach l : forall s s', reach s -> run s l = Some s' -> reach s'.
Proof.
  induction l as [|x r IH]; intros s s' R E; cbn [run] in E; [congruence|]. destruct (enabledb s x) eqn:EN; [|discriminate]. refine (IH _ _ _ E). apply later_step; [exact R|].
  destruct x; cbn in *; try exact Logic.I; try (destruct (where_ s); try discriminate; eauto; fail); [|apply Nat.ltb_lt, EN].
  destruct (where_ s); try discriminate. destruct (q s); [discriminate|]. split; [reflexivity|discriminate].
Qed.
Ltac at_run l := match goal with |- exists s, _ => let s := eval vm_compute in (match run start l with Some s => s | None => start end) in exists s; split; [apply (run_reach l start); [apply later_refl|vm_compute; reflexivity]|] end.

(** Three completions arrive; while the second is handled the loop is cancelled by another thread. *)
Example C76_windows_nonvacuous : exists s, reach s /\ where_ s = Out /\ calls (tr s) = [1; 0]%nat /\ arrivals (tr s) = 3%nat /\ In (EvPosted true) (tr s).
Proof. at_run [XRun; XCheck; XArrive; XArrive; XGet; XDone; XCheck; XGet; XCancel; XArrive; XPost true; XDone; XCheck]. repeat split; cbn; auto. Qed.

(** VIOLATED: a loop that has been cancelled cannot be run again: nothing sets go_ahead, and the third completion is never handed over. *)
Theorem C76_windows_runs_once_refuted : exists s, reach s /\ In EvReturn (tr s) /\ q s = [PDone 2; PStop] /\ forall s', later s s' -> calls (tr s') = calls (tr s).
Proof.
  at_run [XRun; XCheck; XArrive; XArrive; XGet; XDone; XCheck; XGet; XCancel; XArrive; XPost true; XDone; XCheck]. split; [cbn; auto|]. split; [reflexivity|].
  intros s' L. apply stays_quiet; [reflexivity|discriminate|exact L].
Qed.
Print Assumptions C76_windows_runs_once_refuted.

(** VIOLATED: the result of PostQueuedCompletionStatus is ignored: the loop may wait for ever although it was cancelled. *)
Theorem C76_windows_cancel_lost_refuted : exists s, reach s /\ In EvCancel (tr s) /\ half s = 0%nat /\ where_ s = Wait /\ q s = [] /\ forall s', by_itself s s' -> s' = s.
Proof.
  at_run [XRun; XCheck; XCancel; XPost false]. split; [cbn; auto|]. repeat (split; [reflexivity|]). intros s' B. induction B as [|s1 x B IH L E]; [reflexivity|].
  rewrite IH in E. destruct x; cbn in *; try contradiction; try discriminate; [destruct E; congruence|destruct E; discriminate].
Qed.
Print Assumptions C76_windows_cancel_lost_refuted.
