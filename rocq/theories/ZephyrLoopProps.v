(** C76, Zephyr: stopping an event loop. Traces are newest first. *)
From Verif Require Import Base ZephyrLoop.
Require Import Coq.Sorting.Sorted.

(** ** Specification *)
Definition calls (t : list ev) : list nat := flat_map (fun e => match e with EvCall n _ => [n] | _ => [] end) t.
Definition handled (t : list ev) : list nat := flat_map (fun e => match e with EvCall n _ | EvSkip n _ => [n] | _ => [] end) t.
Definition count (f : ev -> bool) (t : list ev) : nat := length (filter f t).
Definition puts : list ev -> nat := count (fun e => match e with EvPut _ _ => true | _ => false end).
Definition returns : list ev -> nat := count (fun e => match e with EvReturn => true | _ => false end).
Definition stops : list ev -> nat := count (fun e => match e with EvStop => true | _ => false end).
Fixpoint is_removed (id : nat) (t : list ev) : bool :=
  match t with
  | EvRemove i :: r => if Nat.eqb i id then true else is_removed id r
  | EvInit i :: r => if Nat.eqb i id then false else is_removed id r
  | _ :: r => is_removed id r
  | [] => false
  end.

Section S.
Variable SIZE : nat.
Notation step := (ZephyrLoop.step SIZE).
Notation enabled := (ZephyrLoop.enabled SIZE).
Notation later := (ZephyrLoop.later SIZE).
Notation reach := (ZephyrLoop.reach SIZE).

Lemma one_event s x : tr (step s x) = tr s \/ exists e, tr (step s x) = e :: tr s.
Proof. destruct x; cbn [ZephyrLoop.step]; unfold put; repeat match goal with |- context [match ?y with _ => _ end] => destruct y end; cbn; eauto. Qed.
Lemma split_run s : reach s -> forall new e old, tr s = new ++ e :: old -> exists s0 x, reach s0 /\ enabled s0 x /\ tr s0 = old /\ tr (step s0 x) = e :: old /\ later (step s0 x) s.
Proof.
  induction 1 as [|s1 x H IH EN]; intros new e old E.
  - cbn in E. destruct new; discriminate.
  - destruct (one_event s1 x) as [T|[e1 T]].
    + rewrite T in E. destruct (IH _ _ _ E) as (s0 & y & R & A & B & C & D). exists s0, y. repeat (split; [assumption|]). apply later_step; assumption.
    + rewrite T in E. destruct new as [|e2 new]; cbn in E; injection E as -> E.
      * exists s1, x. split; [exact H|]. split; [exact EN|]. split; [exact E|]. split; [rewrite T, E; reflexivity|apply later_refl].
      * destruct (IH _ _ _ E) as (s0 & y & R & A & B & C & D). exists s0, y. repeat (split; [assumption|]). apply later_step; assumption.
Qed.
(** What an event says about the step that made it. *)
Lemma logs s x e : tr (step s x) = e :: tr s ->
  match e with EvPurge => q (step s x) = [] /\ nput (step s x) = nput s | EvStop => q (step s x) = q s ++ [MStop] /\ nput (step s x) = nput s
             | EvCall n id => removed s id = false | EvSkip n id => removed s id = true | _ => True end.
Proof.
  assert (L : forall t (e1 : ev), t <> e1 :: t) by (intros t e1 H; apply (f_equal (@length _)) in H; cbn in H; lia).
  destruct x; cbn [ZephyrLoop.step]; unfold put; repeat match goal with |- context [match ?y with _ => _ end] => destruct y eqn:? end; cbn; intros H; try (destruct (L _ _ H)); try discriminate; try (injection H as H; subst); auto.
Qed.

Definition ids (l : list msg) : list nat := flat_map (fun m => match m with MEv n _ => [n] | MStop => [] end) l.
Definition nstops (l : list msg) : nat := length (filter (fun m => match m with MStop => true | _ => false end) l).
Lemma ids_app a b : ids (a ++ b) = ids a ++ ids b.
Proof. apply flat_map_app. Qed.
Lemma nstops_app a b : nstops (a ++ b) = (nstops a + nstops b)%nat.
Proof. unfold nstops. rewrite filter_app, app_length. reflexivity. Qed.
Lemma handled_app a b : handled (a ++ b) = handled a ++ handled b.
Proof. apply flat_map_app. Qed.
Definition all (s : st) : list nat := rev (handled (tr s)) ++ ids (q s).
Record inv (s : st) : Prop := Inv {
  i_sorted : StronglySorted lt (all s);
  i_below : Forall (fun n => (n < nput s)%nat) (all s);
  i_whole : ~ In EvPurge (tr s) -> all s = seq 0 (nput s);
  i_puts : puts (tr s) = nput s;
  i_rem : forall id, removed s id = is_removed id (tr s);
  i_stops : (returns (tr s) + nstops (q s) <= stops (tr s))%nat;
}.
Lemma sorted_snoc l n : StronglySorted lt l -> Forall (fun m => (m < n)%nat) l -> StronglySorted lt (l ++ [n]).
Proof.
  induction l as [|a l IH]; intros S F; cbn; [repeat constructor|]. inversion S; subst. inversion F; subst. constructor; [auto|]. apply Forall_app. split; [assumption|repeat constructor; assumption].
Qed.
Lemma sorted_prefix a b : StronglySorted lt (a ++ b) -> StronglySorted lt a.
Proof. induction a as [|x a IH]; cbn; intros S; [constructor|]. inversion S; subst. apply Forall_app in H2. constructor; tauto. Qed.
Lemma below_more l n : Forall (fun m => (m < n)%nat) l -> Forall (fun m => (m < S n)%nat) l.
Proof. apply Forall_impl. intros. lia. Qed.

Lemma inv_put s w h id : inv s -> inv (put s (MEv (nput s) id) w h (S (nput s)) (EvPut (nput s) id)).
Proof.
  intros [A B C D R E]. assert (X : all (put s (MEv (nput s) id) w h (S (nput s)) (EvPut (nput s) id)) = all s ++ [nput s]) by (unfold all, put; cbn; rewrite ids_app, app_assoc; reflexivity).
  constructor; try (rewrite X); unfold put; cbn.
  - apply sorted_snoc; assumption.
  - apply Forall_app. split; [apply below_more, B|repeat constructor].
  - intros NP. rewrite C by tauto. rewrite <- seq_S. reflexivity.
  - unfold puts, count in *. cbn. congruence.
  - exact R.
  - unfold returns, stops, count, nstops in *. cbn. rewrite filter_app, app_length. cbn. lia.
Qed.
Lemma inv_stop s w h : inv s -> inv (put s MStop w h (nput s) EvStop).
Proof.
  intros [A B C D R E]. assert (X : all (put s MStop w h (nput s) EvStop) = all s) by (unfold all, put; cbn; rewrite ids_app, app_nil_r; reflexivity).
  constructor; try (rewrite X); unfold put; cbn; auto.
  - unfold returns, stops, count, nstops in *. cbn. rewrite filter_app, app_length. cbn. lia.
Qed.
Lemma inv_purge s w h : inv s -> inv (St w [] (removed s) h (nput s) (EvPurge :: tr s)).
Proof.
  intros [A B C D R E]. constructor; unfold all; cbn.
  - rewrite app_nil_r. eapply sorted_prefix. exact A.
  - rewrite app_nil_r. unfold all in B. apply Forall_app in B. apply B.
  - tauto.
  - exact D.
  - exact R.
  - unfold returns, stops, count in *. cbn. lia.
Qed.
Lemma step_inv s x : inv s -> enabled s x -> inv (step s x).
Proof.
  intros I E. pose proof I as [A B C D R Q]. destruct x; cbn [ZephyrLoop.enabled] in E; cbn [ZephyrLoop.step].
  - apply inv_put, I.
  - destruct (full SIZE s); [constructor; assumption|apply inv_put, I].
  - constructor; unfold all in *; cbn; auto; try tauto. intros i. unfold upd. destruct (Nat.eqb_spec i id) as [->|]; [rewrite Nat.eqb_refl; reflexivity|]. destruct (Nat.eqb_spec id i); [congruence|apply R].
  - constructor; unfold all in *; cbn; auto; try tauto. intros i. unfold upd. destruct (Nat.eqb_spec i id) as [->|]; [rewrite Nat.eqb_refl; reflexivity|]. destruct (Nat.eqb_spec id i); [congruence|apply R].
  - constructor; unfold all in *; cbn; auto; try tauto.
  - destruct E as [W NE]. destruct (q s) as [|[n id|] r] eqn:QQ; [congruence| |].
    + assert (X : forall e, handled [e] = [n] -> rev (handled (e :: tr s)) ++ ids r = all s).
      { intros e He. unfold all. rewrite QQ. change (handled (e :: tr s)) with (handled ([e] ++ tr s)). rewrite handled_app, He. cbn. rewrite <- app_assoc. reflexivity. }
      destruct (removed s id) eqn:RM; constructor; unfold all; cbn [tr q nput removed]; try (rewrite X by reflexivity); auto; unfold puts, returns, stops, nstops, count in *; cbn in *; auto; try (intros; apply C; tauto); lia.
    + constructor; unfold all in *; cbn [tr q nput removed]; rewrite QQ in *; auto; unfold puts, returns, stops, nstops, count in *; cbn in *; auto; try (intros; apply C; tauto); lia.
  - constructor; unfold all in *; cbn; auto; try tauto.
  - apply inv_purge, I.
  - apply inv_stop, I.
  - apply inv_purge, I.
  - destruct (full SIZE s); [constructor; assumption|apply inv_stop, I].
Qed.
Lemma reach_inv s : reach s -> inv s.
Proof. induction 1; [|apply step_inv; assumption]. constructor; unfold all; cbn; auto; constructor. Qed.

(** ** Theorems *)

(** Events are dispatched in the order in which they were put into the queue, each put at most once; before the first cancel none is lost: those that were not
    dispatched yet are in the queue. *)
Theorem C76_zephyr_in_order : forall s, reach s -> StronglySorted lt (rev (handled (tr s))) /\ Forall (fun n => (n < puts (tr s))%nat) (handled (tr s)) /\
  (~ In EvPurge (tr s) -> rev (handled (tr s)) ++ ids (q s) = seq 0 (puts (tr s))).
Proof.
  intros s R. destruct (reach_inv s R) as [A B C D _ _]. split; [eapply sorted_prefix; exact A|]. rewrite D. split; [|exact C].
  unfold all in B. apply Forall_app in B. rewrite <- (rev_involutive (handled (tr s))). apply Forall_rev, B.
Qed.

(** The callback of a notifier is not called while it is removed, and nothing but the removal makes an event be dropped when its turn comes. *)
Theorem C76_zephyr_removed_is_not_called : forall s new e old, reach s -> tr s = new ++ e :: old ->
  match e with EvCall _ id => is_removed id old = false | EvSkip _ id => is_removed id old = true | _ => True end.
Proof.
  intros s new e old R E. destruct (split_run s R _ _ _ E) as (s0 & x & R0 & EN & T0 & T1 & L). rewrite <- T0 in T1. pose proof (logs _ _ _ T1) as K. destruct (reach_inv s0 R0) as [_ _ _ _ RM _].
  rewrite <- T0. destruct e; auto; rewrite <- RM; exact K.
Qed.

(** cio_eventloop_run returns only because of a cancel, once for each. *)
Theorem C76_zephyr_runs_until_cancelled : forall s, reach s -> (returns (tr s) <= stops (tr s))%nat.
Proof. intros s R. destruct (reach_inv s R) as [_ _ _ _ _ E]. lia. Qed.

Lemma calls_app a b : calls (a ++ b) = calls a ++ calls b.
Proof. apply flat_map_app. Qed.
Lemma after_purge s s' N : (forall n, In n (ids (q s)) -> (N <= n)%nat) -> (N <= nput s)%nat -> later s s' ->
  (forall n, In n (ids (q s')) -> (N <= n)%nat) /\ (N <= nput s')%nat /\ exists m, calls (tr s') = m ++ calls (tr s) /\ Forall (fun n => (N <= n)%nat) m.
Proof.
  intros A B. induction 1 as [|s1 x L (Q1 & N1 & m & C & F) E]; [split; [exact A|]; split; [exact B|exists []; auto]|].
  assert (PUT : forall id w h, (forall n, In n (ids (q (put s1 (MEv (nput s1) id) w h (S (nput s1)) (EvPut (nput s1) id)))) -> (N <= n)%nat)).
  { intros id w h n. unfold put. cbn [q]. rewrite ids_app, in_app_iff. cbn. intros [I|[<-|[]]]; auto. }
  assert (STOP : forall w h n, In n (ids (q (put s1 MStop w h (nput s1) EvStop))) -> (N <= n)%nat).
  { intros w h n. unfold put. cbn [q]. rewrite ids_app, in_app_iff. cbn. intros [I|[]]; auto. }
  destruct x; cbn [ZephyrLoop.enabled] in E; cbn [ZephyrLoop.step].
  - split; [apply PUT|]. cbn. split; [lia|eauto].
  - destruct (full SIZE s1); cbn [q nput tr]; [eauto|]. split; [apply PUT|]. cbn. split; [lia|eauto].
  - cbn. eauto.
  - cbn. eauto.
  - cbn. eauto.
  - destruct E as [W NE]. destruct (q s1) as [|[n id|] r] eqn:QQ; [congruence| |]; [|cbn; eauto].
    assert (Nn : (N <= n)%nat) by (apply Q1; left; reflexivity). destruct (removed s1 id); cbn [q nput tr]; (split; [intros k I; apply Q1; right; exact I|]); split; auto.
    + eauto.
    + exists (n :: m). split; [cbn; fold (calls (tr s1)); rewrite C; reflexivity|constructor; assumption].
  - cbn. eauto.
  - cbn. split; [contradiction|eauto].
  - split; [apply STOP|]. cbn. eauto.
  - cbn. split; [contradiction|eauto].
  - destruct (full SIZE s1); cbn [q nput tr]; [eauto|]. split; [apply STOP|]. cbn. eauto.
Qed.

(** A cancel drops what is in the queue: from its beginning on only later puts are dispatched... *)
Theorem C76_zephyr_cancel_drops : forall s new old, reach s -> tr s = new ++ EvPurge :: old -> Forall (fun n => (puts old <= n)%nat) (calls new).
Proof.
  intros s new old R E. destruct (split_run s R _ _ _ E) as (s0 & x & R0 & EN & T0 & T1 & L). assert (T2 : tr (step s0 x) = EvPurge :: tr s0) by congruence.
  destruct (logs _ _ _ T2) as [Q NP]. destruct (reach_inv s0 R0) as [_ _ _ D _ _].
  destruct (after_purge _ s (nput s0) ltac:(rewrite Q; contradiction) ltac:(lia) L) as (_ & _ & m & C & F).
  rewrite E, T1, calls_app in C. apply app_inv_tail in C. subst m. rewrite <- T0, D. exact F.
Qed.

Definition quiet (e : ev) : Prop := e <> EvPurge /\ e <> EvReturn.
Lemma after_stop s s' N : (exists a b, q s = a ++ MStop :: b /\ forall n, In n (ids a) -> (n < N)%nat) -> later s s' -> forall new, tr s' = new ++ tr s -> Forall quiet new ->
  (exists a b, q s' = a ++ MStop :: b /\ forall n, In n (ids a) -> (n < N)%nat) /\ Forall (fun n => (n < N)%nat) (calls new).
Proof.
  intros H. induction 1 as [|s1 x L IH E]; intros new T F.
  - split; [exact H|]. apply (f_equal (@length _)) in T. rewrite app_length in T. destruct new; [constructor|cbn in T; lia].
  - assert (SUF : exists n1, tr s1 = n1 ++ tr s).
    { clear -L. induction L as [|s1 x L (n1 & IH) E]; [exists []; reflexivity|]. destruct (one_event s1 x) as [-> |[e ->]]; [eauto|]. exists (e :: n1). rewrite IH. reflexivity. }
    destruct SUF as [n1 T1].
    assert (F1 : Forall quiet n1 /\ (tr (step s1 x) = tr s1 \/ exists e, quiet e /\ tr (step s1 x) = e :: tr s1 /\ new = e :: n1)).
    { destruct (one_event s1 x) as [X|[e X]].
      - rewrite X, T1 in T. apply app_inv_tail in T. subst n1. auto.
      - rewrite X, T1 in T. change (e :: n1 ++ tr s) with ((e :: n1) ++ tr s) in T. apply app_inv_tail in T. subst new. inversion F; subst. split; [assumption|]. right. eauto. }
    destruct F1 as [F1 X]. destruct (IH n1 T1 F1) as [(a & b & QQ & LT) FC].
    assert (KEEP : forall e w r h n m, tr (step s1 x) = e :: tr s1 -> step s1 x = St w (q s1 ++ m) r h n (e :: tr s1) -> calls [e] = [] ->
      (exists a b, q (step s1 x) = a ++ MStop :: b /\ (forall n, In n (ids a) -> (n < N)%nat)) /\ Forall (fun n => (n < N)%nat) (calls new)).
    { intros e w r h n m Te Ss Ce. split.
      - rewrite Ss. cbn [q]. exists a, (b ++ m). rewrite QQ, <- app_assoc. auto.
      - destruct X as [X|(e' & _ & X & ->)]; [rewrite Te in X; exfalso; revert X; clear; intros H; apply (f_equal (@length _)) in H; cbn in H; lia|].
        rewrite Te in X. injection X as <-. change (e :: n1) with ([e] ++ n1). rewrite calls_app, Ce. exact FC. }
    assert (NONE : forall w, step s1 x = St w (q s1) (removed s1) (half s1) (nput s1) (tr s1) ->
      (exists a b, q (step s1 x) = a ++ MStop :: b /\ (forall n, In n (ids a) -> (n < N)%nat)) /\ Forall (fun n => (n < N)%nat) (calls new)).
    { intros w Ss. rewrite Ss in X |- *. cbn [q tr] in *. split; [eauto|]. destruct X as [X|(e' & _ & X & ->)]; [|exfalso; revert X; clear; intros H; apply (f_equal (@length _)) in H; cbn in H; lia].
      rewrite Ss in T. cbn in T. rewrite T1 in T. apply app_inv_tail in T. subst. exact FC. }
    destruct x; cbn [ZephyrLoop.enabled] in E; cbn [ZephyrLoop.step] in *; unfold put in *.
    + eapply KEEP; reflexivity.
    + destruct (full SIZE s1); [eapply NONE|eapply KEEP]; reflexivity.
    + eapply (KEEP _ _ _ _ _ []); try rewrite app_nil_r; reflexivity.
    + eapply (KEEP _ _ _ _ _ []); try rewrite app_nil_r; reflexivity.
    + eapply (KEEP _ _ _ _ _ []); try rewrite app_nil_r; reflexivity.
    + destruct E as [W NE]. rewrite QQ in *. destruct a as [|[n id|] a]; cbn [Datatypes.app] in *.
      * exfalso. destruct X as [X|(e & [_ QE] & X & _)]; cbn in X; [revert X; clear; intros H; apply (f_equal (@length _)) in H; cbn in H; lia|congruence].
      * assert (LT' : forall k, In k (ids a) -> (k < N)%nat) by (intros k I; apply LT; right; exact I). assert (LN : (n < N)%nat) by (apply LT; left; reflexivity).
        revert X; cbn iota; destruct (removed s1 id); intros X; (split; [cbn [q]; eauto|]); (destruct X as [X|(e' & _ & X & ->)]; [cbn in X; exfalso; revert X; clear; intros H; apply (f_equal (@length _)) in H; cbn in H; lia|]); cbn in X; injection X as <-; cbn.
        -- exact FC.
        -- constructor; assumption.
      * exfalso. destruct X as [X|(e & [_ QE] & X & _)]; cbn in X; [revert X; clear; intros H; apply (f_equal (@length _)) in H; cbn in H; lia|congruence].
    + eapply (KEEP _ _ _ _ _ []); try rewrite app_nil_r; reflexivity.
    + exfalso. destruct X as [X|(e & [QE _] & X & _)]; cbn in X; [revert X; clear; intros H; apply (f_equal (@length _)) in H; cbn in H; lia|congruence].
    + eapply KEEP; reflexivity.
    + exfalso. destruct X as [X|(e & [QE _] & X & _)]; cbn in X; [revert X; clear; intros H; apply (f_equal (@length _)) in H; cbn in H; lia|congruence].
    + destruct (full SIZE s1); [eapply NONE|eapply KEEP]; reflexivity.
Qed.
Lemma stop_point s new old : reach s -> tr s = new ++ EvStop :: old -> Forall quiet new ->
  (exists a b, q s = a ++ MStop :: b) /\ Forall (fun n => (n < puts old)%nat) (calls new).
Proof.
  intros R E F. destruct (split_run s R _ _ _ E) as (s0 & x & R0 & EN & T0 & T1 & L). assert (T2 : tr (step s0 x) = EvStop :: tr s0) by congruence.
  destruct (logs _ _ _ T2) as [Q NP]. destruct (reach_inv s0 R0) as [_ B _ D _ _]. unfold all in B. apply Forall_app in B. destruct B as [_ B]. rewrite Forall_forall in B.
  destruct (after_stop _ s (nput s0) (ex_intro _ (q s0) (ex_intro _ [] (conj Q B))) L new) as [(a & b & X & _) Y]; [rewrite T1; exact E|exact F|].
  split; [eauto|]. rewrite <- T0, D. exact Y.
Qed.

(** ... and until the loop returns, or is cancelled again, none that is put after the end of the cancel: when nothing is put in the middle of a cancel, no callback is called
    between its end and the return. *)
Theorem C76_zephyr_stops : forall s new old, reach s -> tr s = new ++ EvStop :: old -> Forall quiet new ->
  Forall (fun n => (n < puts old)%nat) (calls new) /\ (forall mid o, old = mid ++ EvPurge :: o -> puts mid = 0%nat -> calls new = []).
Proof.
  intros s new old R E F. destruct (stop_point s new old R E F) as [_ A]. split; [exact A|]. intros mid o -> P0.
  assert (B : Forall (fun n => (puts o <= n)%nat) (calls (new ++ EvStop :: mid))) by (apply (C76_zephyr_cancel_drops s _ _ R); rewrite <- app_assoc; exact E).
  rewrite calls_app in B. apply Forall_app in B. destruct B as [B _]. destruct (calls new) as [|n l]; [reflexivity|exfalso]. 
  assert (X : puts (mid ++ EvPurge :: o) = (puts mid + puts o)%nat) by (unfold puts, count; rewrite filter_app, app_length; reflexivity).
  rewrite X, P0 in A. inversion A; inversion B; subst. lia.
Qed.

(** No cancel is overlooked: the loop returns by itself, unless its thread waits for room in its own queue. *)
Definition loop_step (x : act) : Prop := match x with XGet | XDone | XStopSelf => True | _ => False end.
Inductive by_itself (s : st) : st -> Prop :=
| bi_refl : by_itself s s
| bi_step s1 x : by_itself s s1 -> loop_step x -> enabled s1 x -> by_itself s (step s1 x).
Lemma bi_trans s s1 s2 : by_itself s s1 -> by_itself s1 s2 -> by_itself s s2.
Proof. intros A B. induction B; [exact A|apply bi_step; assumption]. Qed.
Theorem C76_zephyr_cancel_is_noticed : forall s new old, reach s -> tr s = new ++ EvStop :: old -> Forall quiet new -> where_ s = Get \/ where_ s = Call ->
  exists s', by_itself s s' /\ where_ s' = Out.
Proof.
  intros s new old R E F W. destruct (stop_point s new old R E F) as [(a & b & Q) _]. clear -W Q.
  assert (K : forall a s b, q s = a ++ MStop :: b -> where_ s = Get -> exists s', by_itself s s' /\ where_ s' = Out).
  { clear. induction a as [|m a IH]; intros s b Q W.
    - exists (step s XGet). split; [apply bi_step; [apply bi_refl|exact Logic.I|split; [exact W|rewrite Q; discriminate]]|]. cbn. rewrite Q. reflexivity.
    - assert (B : by_itself s (step s XGet)) by (apply bi_step; [apply bi_refl|exact Logic.I|split; [exact W|rewrite Q; discriminate]]). cbn [ZephyrLoop.step] in B. rewrite Q in B. cbn [Datatypes.app] in B. destruct m as [n id|].
      + destruct (removed s id).
        * destruct (IH _ b (eq_refl : q (St Get (a ++ MStop :: b) (removed s) (half s) (nput s) (EvSkip n id :: tr s)) = _) eq_refl) as (s' & B' & W'). exists s'. split; [exact (bi_trans _ _ _ B B')|exact W'].
        * set (s1 := St Call (a ++ MStop :: b) (removed s) (half s) (nput s) (EvCall n id :: tr s)) in *.
          assert (B1 : by_itself s (step s1 XDone)) by (apply bi_step; [exact B|exact Logic.I|reflexivity]).
          destruct (IH (step s1 XDone) b eq_refl eq_refl) as (s' & B' & W'). exists s'. split; [exact (bi_trans _ _ _ B1 B')|exact W'].
      + eexists. split; [exact B|reflexivity]. }
  destruct W as [W|W]; [eauto|]. assert (B1 : by_itself s (step s XDone)) by (apply bi_step; [apply bi_refl|exact Logic.I|exact W]).
  destruct (K a (step s XDone) b Q eq_refl) as (s' & B' & W'). exists s'. split; [exact (bi_trans _ _ _ B1 B')|exact W'].
Qed.

(** A loop that has returned from every cancel can be run again: everything that was put since is dispatched. *)
Theorem C76_zephyr_runs_again : forall s, reach s -> where_ s = Out -> returns (tr s) = stops (tr s) ->
  exists s', by_itself (step s XRun) s' /\ where_ s' = Get /\ q s' = [] /\ rev (handled (tr s')) = rev (handled (tr s)) ++ ids (q s).
Proof.
  intros s R W E. destruct (reach_inv s R) as [_ _ _ _ _ ST]. assert (NS : nstops (q s) = 0%nat) by lia.
  assert (K : forall l s1, q s1 = l -> nstops l = 0%nat -> where_ s1 = Get -> exists s', by_itself s1 s' /\ where_ s' = Get /\ q s' = [] /\ rev (handled (tr s')) = rev (handled (tr s1)) ++ ids l).
  { clear. induction l as [|m l IH]; intros s1 Q NS W.
    - exists s1. split; [apply bi_refl|]. rewrite app_nil_r. auto.
    - assert (B : by_itself s1 (step s1 XGet)) by (apply bi_step; [apply bi_refl|exact Logic.I|split; [exact W|rewrite Q; discriminate]]). cbn [ZephyrLoop.step] in B. rewrite Q in B. destruct m as [n id|]; [|discriminate NS].
      destruct (removed s1 id).
      + destruct (IH _ (eq_refl : q (St Get l (removed s1) (half s1) (nput s1) (EvSkip n id :: tr s1)) = _) NS eq_refl) as (s' & B' & W' & Q' & H'). exists s'. split; [exact (bi_trans _ _ _ B B')|]. split; [exact W'|]. split; [exact Q'|].
        rewrite H'. cbn. rewrite <- app_assoc. reflexivity.
      + set (s2 := St Call l (removed s1) (half s1) (nput s1) (EvCall n id :: tr s1)) in *.
        assert (B1 : by_itself s1 (step s2 XDone)) by (apply bi_step; [exact B|exact Logic.I|reflexivity]).
        destruct (IH (step s2 XDone) eq_refl NS eq_refl) as (s' & B' & W' & Q' & H'). exists s'. split; [exact (bi_trans _ _ _ B1 B')|]. split; [exact W'|]. split; [exact Q'|].
        rewrite H'. cbn. rewrite <- app_assoc. reflexivity. }
  destruct (K (q s) (step s XRun) eq_refl NS eq_refl) as (s' & B & W' & Q' & H'). exists s'. repeat (split; [assumption|]). exact H'.
Qed.

(** ** Runs *)
Definition appb (s : st) : bool := match where_ s with Out | Call => true | _ => false end.
Definition enabledb (s : st) (x : act) : bool :=
  match x with
  | XPut _ => negb (full SIZE s)
  | XPutSelf _ | XInit _ | XRemove _ | XPurgeSelf => appb s
  | XRun => match where_ s with Out => true | _ => false end
  | XGet => match where_ s, q s with Get, _ :: _ => true | _, _ => false end
  | XDone => match where_ s with Call => true | _ => false end
  | XPurge => true
  | XStop => Nat.ltb 0 (half s) && negb (full SIZE s)
  | XStopSelf => match where_ s with Cancelling _ => true | _ => false end
  end%bool.
Fixpoint run (s : st) (l : list act) : option st := match l with [] => Some s | x :: r => if enabledb s x then run (step s x) r else None end.
Lemma run_reach l : forall s s', reach s -> run s l = Some s' -> reach s'.
Proof.
  induction l as [|x r IH]; intros s s' R E; cbn [run] in E; [congruence|]. destruct (enabledb s x) eqn:EN; [|discriminate]. refine (IH _ _ _ E). apply later_step; [exact R|].
  destruct x; cbn in *; unfold app, appb in *; try exact Logic.I; try (apply negb_true_iff, EN); try (destruct (where_ s); try discriminate; eauto; fail).
  - destruct (where_ s); try discriminate. destruct (q s); [discriminate|]. split; [reflexivity|discriminate].
  - apply andb_prop in EN. destruct EN as [A B]. split; [apply Nat.ltb_lt, A|apply negb_true_iff, B].
Qed.
End S.
Print Assumptions C76_zephyr_in_order.
Print Assumptions C76_zephyr_removed_is_not_called.
Print Assumptions C76_zephyr_runs_until_cancelled.
Print Assumptions C76_zephyr_cancel_drops.
Print Assumptions C76_zephyr_stops.
Print Assumptions C76_zephyr_cancel_is_noticed.
Print Assumptions C76_zephyr_runs_again.

Ltac at_run N l := match goal with |- exists s, _ => let s := eval vm_compute in (match run N start l with Some s => s | None => start end) in exists s; split; [apply (run_reach N l start); [apply later_refl|vm_compute; reflexivity]|] end.

(** Two events, the second of a removed notifier; a cancel from a callback, then the loop is run again. *)
Example C76_zephyr_nonvacuous : exists s, reach 4 s /\ where_ s = Get /\ rev (calls (tr s)) = [0; 3]%nat /\ rev (handled (tr s)) = [0; 1; 3]%nat /\ returns (tr s) = 1%nat /\ puts (tr s) = 4%nat.
Proof. at_run 4%nat [XInit 1; XInit 2; XRun; XPut 1; XPut 2; XGet; XRemove 2; XDone; XGet; XPut 1; XPurge; XStop; XGet; XPut 1; XRun; XGet; XDone]. repeat split. Qed.

(** VIOLATED: when interrupts fill the queue in the middle of a cancel from a callback, the loop's thread waits for room that only itself could make. *)
Theorem C76_zephyr_cancel_deadlock_refuted : exists s, reach 2 s /\ where_ s = Stuck /\ forall s', later 2 s s' -> where_ s' = Stuck.
Proof.
  at_run 2%nat [XInit 1; XRun; XPut 1; XGet; XPurgeSelf; XPut 1; XPut 1; XStopSelf]. split; [reflexivity|].
  intros s' L. induction L as [|s1 x L IH E]; [reflexivity|].
  destruct x; cbn in *; unfold app in *; try exact IH; try (rewrite IH in E; destruct E; congruence); rewrite IH in E; try discriminate; destruct E; discriminate.
Qed.
Print Assumptions C76_zephyr_cancel_deadlock_refuted.
(** VIOLATED: the same happens when code of the loop's thread puts an event into a full queue. *)
Theorem C76_zephyr_full_queue_deadlock_refuted : exists s, reach 2 s /\ where_ s = Stuck /\ ~ In EvPurge (tr s) /\ forall s', later 2 s s' -> where_ s' = Stuck.
Proof.
  at_run 2%nat [XInit 1; XRun; XPut 1; XGet; XPut 1; XPut 1; XPutSelf 1]. split; [reflexivity|]. split; [cbn; intuition discriminate|].
  intros s' L. induction L as [|s1 x L IH E]; [reflexivity|].
  destruct x; cbn in *; unfold app in *; try exact IH; try (rewrite IH in E; destruct E; congruence); rewrite IH in E; try discriminate; destruct E; discriminate.
Qed.
Print Assumptions C76_zephyr_full_queue_deadlock_refuted.
(** VIOLATED: an event put before its notifier was removed is dispatched after all when the notifier is used again. *)
Theorem C76_zephyr_stale_event_refuted : exists s, reach 4 s /\ exists old, tr s = [EvCall 0 1; EvRun] ++ EvInit 1 :: EvRemove 1 :: old /\ puts old = 1%nat.
Proof. at_run 4%nat [XInit 1; XPut 1; XRemove 1; XInit 1; XRun; XGet]. eexists. split; reflexivity. Qed.
Print Assumptions C76_zephyr_stale_event_refuted.
(** VIOLATED: a cancel drops events for good; a loop that is run again never dispatches them. *)
Theorem C76_zephyr_cancel_forgets_refuted : exists s, reach 4 s /\ where_ s = Get /\ returns (tr s) = stops (tr s) /\ puts (tr s) = 1%nat /\ q s = [] /\
  forall s', later 4 s s' -> ~ In 0%nat (handled (tr s')).
Proof.
  at_run 4%nat [XInit 1; XPut 1; XPurge; XStop; XRun; XGet; XRun]. repeat (split; [reflexivity|]).
  intros s' L. match type of L with later _ ?s0 _ => assert (R0 : reach 4 s0) by (apply (run_reach 4 [XInit 1; XPut 1; XPurge; XStop; XRun; XGet; XRun] start); [apply later_refl|vm_compute; reflexivity]) end.
  assert (K : ~ In 0%nat (handled (tr s')) /\ ~ In 0%nat (ids (q s')) /\ (0 < nput s')%nat); [|tauto]. clear R0.
  induction L as [|s1 x L (A & B & C) E]; [cbn; intuition lia|].
  assert (PUT : forall id w h, ~ In 0%nat (ids (q (put s1 (MEv (nput s1) id) w h (S (nput s1)) (EvPut (nput s1) id))))) by (intros; unfold put; cbn [q]; rewrite ids_app, in_app_iff; cbn; intuition lia).
  assert (STOP : forall w h, ~ In 0%nat (ids (q (put s1 MStop w h (nput s1) EvStop)))) by (intros; unfold put; cbn [q]; rewrite ids_app, in_app_iff; cbn; intuition lia).
  destruct x; cbn [ZephyrLoop.enabled] in E; cbn [ZephyrLoop.step]; try (split; [exact A|]; split; [solve [auto]|cbn; lia]); try (split; [exact A|]; split; [intros []|exact C]).
  - destruct (full 4 s1); (split; [exact A|]; split; [solve [auto]|cbn; lia]).
  - destruct E as [_ NE]. destruct (q s1) as [|[n id|] r] eqn:Q; [congruence| |auto].
    assert (Nn : n <> 0%nat) by (intros ->; apply B; left; reflexivity). assert (B' : ~ In 0%nat (ids r)) by (intros X; apply B; right; exact X).
    destruct (removed s1 id); cbn; (split; [intros [X|X]; [congruence|exact (A X)]|auto]).
  - destruct (full 4 s1); (split; [exact A|]; split; [solve [auto]|cbn; lia]).
Qed.
Print Assumptions C76_zephyr_cancel_forgets_refuted.
