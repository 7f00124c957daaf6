(** C43: the theorems about server sockets. *)
From Verif Require Import Base AcceptModel AcceptSpec.
Local Open Scope nat_scope.

Lemma count_snoc p t e : count p (t ++ [e]) = count p t + (if p e then 1 else 0).
Proof. unfold count. rewrite filter_app, app_length. cbn. destruct (p e); reflexivity. Qed.
Lemma in_snoc {A} (x e : A) t : In x (t ++ [e]) <-> In x t \/ e = x.
Proof. rewrite in_app_iff. cbn. tauto. Qed.
Definition pend (i : nat) (o : op) : bool := match o with ONoMem j | OInitFail j => Nat.eqb j i | _ => false end.
Definition pends (i : nat) (k : list op) : nat := length (filter (pend i) k).

Record inv (s : srv) (k : list op) : Prop := Inv {
  i_alive : alive s = true -> count is_hook (tr s) = 0;
  i_dead : alive s = false -> in_loop s = false /\ exists t u, tr s = t ++ EvClose :: EvHook :: u /\ count is_hook t = 0 /\ forall e, In e u -> exists i, e = EvFdClosed i;
  i_pend : alive s = false -> ~ exists i, In (OInitFail i) k;
  i_handler : in_loop s = true -> handler s = true;
  i_fresh : forall i, next s <= i -> count (is_accepted i) (tr s) = 0 /\ count (is_passed i) (tr s) = 0 /\ count (is_fd_closed i) (tr s) = 0 /\ pends i k = 0;
  i_old : forall i, i < next s -> count (is_accepted i) (tr s) = 1 /\ count (is_passed i) (tr s) + count (is_fd_closed i) (tr s) + pends i k = 1;
  i_freed : forall i, count (is_freed i) (tr s) <= count (is_fd_closed i) (tr s)
}.
Ltac simp := cbn [alive in_loop reg_in handler next tr set_loop set_handler bump log dead fst snd] in *.
Ltac cs := rewrite ?count_snoc; cbn; rewrite ?Nat.add_0_r.

Lemma inv_log s k e : inv s k -> alive s = true -> (match e with EvListen _ | EvError _ => True | _ => False end) -> inv (log e s) k.
Proof.
  intros [A B C D E F G] AL N. constructor; simp; auto.
  - intros _. destruct e; try contradiction; cs; auto.
  - congruence.
  - intros i L. destruct e; try contradiction; cs; auto.
  - intros i L. destruct e; try contradiction; cs; auto.
  - intros i. destruct e; try contradiction; cs; auto.
Qed.
Lemma inv_loop s k l r : inv s k -> (l = true -> handler s = true) -> (alive s = false -> l = false) -> inv (set_loop l r s) k.
Proof. intros [A B C D E F G] H X. constructor; simp; auto. intros Y. destruct (B Y) as (_ & Z). auto. Qed.
Lemma inv_handler s k : inv s k -> inv (set_handler s) k.
Proof. intros [A B C D E F G]. constructor; simp; auto. Qed.
Lemma inv_user s k : inv s k -> inv s (OUser :: k).
Proof. intros [A B C D E F G]. constructor; simp; auto. intros X (i & [Y|Y]); [discriminate|]. apply (C X). exists i. exact Y. Qed.

Lemma step_inv s k x : inv s k -> enabled (s, k) x -> careful (s, k) x -> exists s' k', step (s, k) x = Ret (s', k') /\ inv s' k'.
Proof.
  intros I E [U V]. pose proof I as [A B C D F O G].
  assert (HA : ~ In EvHook (tr s) -> alive s = true).
  { intros H. destruct (alive s) eqn:AL; [reflexivity|]. destruct (B eq_refl) as (_ & t & u & T & _). exfalso. apply H. rewrite T, in_app_iff. cbn. tauto. }
  destruct x as [l a m| |a| |]; cbn [step enabled sane fst snd] in *.
  - pose proof (HA U) as AL. unfold server_accept. rewrite AL. cbn [negb].
    assert (I1 : inv (set_handler s) k) by (apply inv_handler, I).
    destruct l; [do 2 eexists; split; [reflexivity|]; apply inv_log; auto|].
    destruct a; [do 2 eexists; split; [reflexivity|]; apply inv_log; auto; apply inv_loop; simp; auto; congruence|].
    destruct m; do 2 eexists; (split; [reflexivity|]); apply inv_log; auto; apply inv_loop; simp; auto; congruence.
  - pose proof (HA U) as AL. unfold server_close. rewrite AL. cbn [negb]. do 2 eexists. split; [reflexivity|]. constructor; simp; try discriminate; auto.
    + intros _. split; [reflexivity|]. exists (tr s), []. rewrite <- app_assoc. split; [reflexivity|]. split; [auto|]. intros e [].
    + intros _ (i & [X|X]); [discriminate|]. apply V. exists i. exact X.
    + intros i L. cs. apply F, L.
    + intros i L. cs. apply O, L.
    + intros i. cs. apply G.
  - destruct E as (-> & L & R). assert (AL : alive s = true). { destruct (alive s) eqn:X; [reflexivity|]. destruct (B eq_refl) as (Y & _). congruence. }
    unfold accept_callback. rewrite AL, (D L). cbn [negb]. destruct a as [e| |e|].
    + destruct (_ || _)%bool; [do 2 eexists; split; [reflexivity|exact I]|]. do 2 eexists. split; [reflexivity|]. apply inv_user, inv_log; auto.
    + do 2 eexists. split; [reflexivity|]. constructor; simp; auto; try congruence.
      * intros _. cs. auto.
      * intros i Li. cs. destruct (F i ltac:(lia)) as (F1 & F2 & F3 & F4). unfold pends in *. cbn. destruct (Nat.eqb_spec (next s) i); [lia|]. cbn. lia.
      * intros i Li. cs. unfold pends in *. cbn. destruct (Nat.eqb_spec (next s) i); cbn.
        -- subst i. destruct (F (next s) ltac:(lia)) as (F1 & F2 & F3 & F4). lia.
        -- destruct (O i ltac:(lia)) as [O1 O2]. cbn in O2. lia.
      * intros i. cs. apply G.
    + do 2 eexists. split; [reflexivity|]. constructor; simp; auto; try congruence.
      * intros _. cs. auto.
      * intros i Li. cs. destruct (F i ltac:(lia)) as (F1 & F2 & F3 & F4). unfold pends in *. cbn. destruct (Nat.eqb_spec (next s) i); [lia|]. cbn. lia.
      * intros i Li. cs. unfold pends in *. cbn. destruct (Nat.eqb_spec (next s) i); cbn.
        -- subst i. destruct (F (next s) ltac:(lia)) as (F1 & F2 & F3 & F4). lia.
        -- destruct (O i ltac:(lia)) as [O1 O2]. cbn in O2. lia.
      * intros i. cs. apply G.
    + do 2 eexists. split; [reflexivity|]. constructor; simp; auto; try congruence.
      * intros _. cs. auto.
      * intros i Li. cs. destruct (F i ltac:(lia)) as (F1 & F2 & F3 & F4). unfold pends in *. cbn. destruct (Nat.eqb_spec (next s) i); [lia|]. cbn. lia.
      * intros i Li. cs. unfold pends in *. cbn. destruct (Nat.eqb_spec (next s) i); cbn.
        -- subst i. destruct (F (next s) ltac:(lia)) as (F1 & F2 & F3 & F4). lia.
        -- destruct (O i ltac:(lia)) as [O1 O2]. cbn in O2. lia.
      * intros i. cs. apply G.
  - destruct k as [|[| |j|j] k]; try contradiction; do 2 eexists; (split; [reflexivity|]); constructor; auto; intros X (i & Y); apply (C X); exists i; right; exact Y.
  - destruct k as [|[| |j|j] k]; try contradiction.
    + do 2 eexists. split; [reflexivity|]. unfold pends in *. cbn in F, O. constructor; simp; auto.
      * intros X. cs. auto.
      * intros X. destruct (B X) as (B1 & t & u & T & B2 & B3). split; [exact B1|]. exists t, (u ++ [EvFdClosed j]). rewrite T, <- app_assoc. split; [reflexivity|]. split; [exact B2|]. intros e. rewrite in_snoc. intros [Y|<-]; eauto.
      * intros X (i & Y). apply (C X). exists i. right. exact Y.
      * intros i L. cs. destruct (F i L) as (F1 & F2 & F3 & F4). destruct (Nat.eqb_spec j i); cbn in F4; unfold pends; lia.
      * intros i L. cs. destruct (O i L) as (O1 & O2). destruct (Nat.eqb_spec j i); cbn in O2; unfold pends; lia.
      * intros i. cs. specialize (G i). lia.
    + assert (AL : alive s = true). { destruct (alive s) eqn:X; [reflexivity|]. exfalso. apply (C eq_refl). exists j. left. reflexivity. }
      rewrite AL. cbn [negb]. do 2 eexists. split; [reflexivity|]. unfold pends in *. cbn in F, O. constructor; simp; auto; try congruence.
      * intros X. cs. auto.
      * intros i L. cs. destruct (F i L) as (F1 & F2 & F3 & F4). destruct (Nat.eqb_spec j i); cbn in F4; unfold pends; lia.
      * intros i L. cs. destruct (O i L) as (O1 & O2). destruct (Nat.eqb_spec j i); cbn in O2; unfold pends; lia.
      * intros i. cs. specialize (G i). lia.
Qed.
Lemma reach_inv c : reach careful c -> inv (fst c) (snd c).
Proof.
  induction 1 as [|[s k] x [s' k'] R IH E U S].
  - constructor; cbn; auto; try discriminate. intros; lia.
  - destruct (step_inv s k x IH E U) as (s1 & k1 & S1 & I1). rewrite S in S1. injection S1 as -> ->. exact I1.
Qed.

Theorem C43_no_undefined_behaviour : forall c x, reach careful c -> enabled c x -> careful c x -> step c x <> UB.
Proof. intros [s k] x R E U. destruct (step_inv s k x (reach_inv _ R) E U) as (s' & k' & S & _). rewrite S. discriminate. Qed.
Print Assumptions C43_no_undefined_behaviour.

(** Whenever the event loop is back in charge, every connection the kernel has
    handed out was either passed to the handler exactly once and left open, or
    its descriptor was closed exactly once and it was not passed. *)
Theorem C43_every_connection_exactly_once : forall s i, reach careful (s, []) -> In (EvAccepted i) (tr s) ->
  count (is_accepted i) (tr s) = 1 /\
  ((count (is_passed i) (tr s) = 1 /\ count (is_fd_closed i) (tr s) = 0 /\ count (is_freed i) (tr s) = 0) \/
   (count (is_passed i) (tr s) = 0 /\ count (is_fd_closed i) (tr s) = 1 /\ count (is_freed i) (tr s) <= 1)).
Proof.
  intros s i R H. pose proof (reach_inv _ R) as I. cbn [fst snd] in I.
  destruct (Nat.lt_ge_cases i (next s)) as [L|L].
  - destruct (i_old _ _ I i L) as (O1 & O2). pose proof (i_freed _ _ I i) as G. cbn in O2. lia.
  - exfalso. destruct (i_fresh _ _ I i L) as (F & _). unfold count in F. apply length_zero_iff_nil in F.
    assert (X : In (EvAccepted i) (filter (is_accepted i) (tr s))) by (apply filter_In; split; [exact H|cbn; apply Nat.eqb_refl]). rewrite F in X. exact X.
Qed.
Print Assumptions C43_every_connection_exactly_once.

(** A connection is passed only if the kernel handed it out. *)
Theorem C43_passed_was_accepted : forall s k i, reach careful (s, k) -> In (EvPassed i) (tr s) -> count (is_accepted i) (tr s) = 1.
Proof.
  intros s k i R H. pose proof (reach_inv _ R) as I. cbn [fst snd] in I. destruct (Nat.lt_ge_cases i (next s)) as [L|L]; [apply (i_old _ _ I i L)|].
  exfalso. destruct (i_fresh _ _ I i L) as (_ & F & _). unfold count in F. apply length_zero_iff_nil in F.
  assert (X : In (EvPassed i) (filter (is_passed i) (tr s))) by (apply filter_In; split; [exact H|cbn; apply Nat.eqb_refl]). rewrite F in X. exact X.
Qed.
Print Assumptions C43_passed_was_accepted.

(** What one readiness event does, exactly: a connection that cannot be handed
    out is reported to the handler as an error. *)
Theorem C43_readiness : forall s a, reach careful (s, []) -> enabled (s, []) (XReady a) ->
  exists s', tr s' = tr s ++ match a with
    | AFail e => if (Z.eqb e EAGAIN || Z.eqb e EBADF)%bool then [] else [EvError (- e)%Z]
    | ANoMem => [EvAccepted (next s); EvError NO_MEMORY]
    | AInitFail e => [EvAccepted (next s); EvError e]
    | AOk => [EvAccepted (next s); EvPassed (next s)] end /\
  step (s, []) (XReady a) = Ret (s', match a with
    | AFail e => if (Z.eqb e EAGAIN || Z.eqb e EBADF)%bool then [] else [OUser]
    | ANoMem => [OUser; ONoMem (next s)] | AInitFail _ => [OUser; OInitFail (next s)] | AOk => [OUser] end).
Proof.
  intros s a R E. pose proof (reach_inv _ R) as I. cbn [fst snd] in I. destruct E as (_ & L & _).
  assert (AL : alive s = true). { destruct (alive s) eqn:X; [reflexivity|]. destruct (i_dead _ _ I X) as (Y & _). congruence. }
  cbn [step]. unfold accept_callback. rewrite AL, (i_handler _ _ I L). cbn [negb]. destruct a as [e| |e|].
  - destruct (_ || _)%bool; eexists; (split; [|reflexivity]); [rewrite app_nil_r; reflexivity|reflexivity].
  - eexists. split; [|reflexivity]. simp. rewrite <- app_assoc. reflexivity.
  - eexists. split; [|reflexivity]. simp. rewrite <- app_assoc. reflexivity.
  - eexists. split; [|reflexivity]. simp. rewrite <- app_assoc. reflexivity.
Qed.
Print Assumptions C43_readiness.

(** cio_server_socket_accept reports success exactly if nothing failed, and then connections are reported to the loop; the error of
    the call that failed otherwise. *)
Theorem C43_accept_tells_the_truth : forall s k l a m s' k', step (s, k) (XAccept l a m) = Ret (s', k') ->
  k' = k /\ exists e, tr s' = tr s ++ [EvListen e] /\ match l, a, m with
  | None, None, None => e = 0%Z /\ in_loop s' = true /\ reg_in s' = true /\ handler s' = true
  | Some x, _, _ | None, Some x, _ | None, None, Some x => e = (- x)%Z
  end.
Proof.
  intros s k l a m s' k' H. cbn [step] in H. unfold server_accept in H. destruct (negb (alive s)); [discriminate|].
  destruct l; [|destruct a; [|destruct m]]; injection H as <- <-; (split; [reflexivity|]); eexists; (split; [reflexivity|]); auto.
Qed.
Print Assumptions C43_accept_tells_the_truth.

(** After the server socket was closed nothing is accepted and nothing is passed
    to the handler, and the hook is called at most once. *)
Theorem C43_nothing_after_close : forall s k, reach careful (s, k) -> In EvHook (tr s) ->
  in_loop s = false /\ count is_hook (tr s) = 1 /\
  exists t u, tr s = t ++ EvClose :: EvHook :: u /\ count is_hook t = 0 /\ forall e, In e u -> exists i, e = EvFdClosed i.
Proof.
  intros s k R H. pose proof (reach_inv _ R) as I. cbn [fst snd] in I.
  assert (AL : alive s = false).
  { destruct (alive s) eqn:X; [|reflexivity]. pose proof (i_alive _ _ I X) as Y. unfold count in Y. apply length_zero_iff_nil in Y.
    assert (Z : In EvHook (filter is_hook (tr s))) by (apply filter_In; auto). rewrite Y in Z. destruct Z. }
  destruct (i_dead _ _ I AL) as (L & t & u & T & N & U). split; [exact L|]. split; [|exists t, u; auto].
  rewrite T. unfold count in *. rewrite filter_app, app_length, N. cbn. f_equal. clear - U. induction u as [|e u IH]; [reflexivity|].
  cbn. destruct (U e (or_introl eq_refl)) as (i & ->). cbn. apply IH. intros e' X. apply U. right. exact X.
Qed.
Print Assumptions C43_nothing_after_close.

(** The hypotheses are met. *)
Fixpoint final (c : config) (l : list act) : outcome config :=
  match l with [] => Ret c | x :: r => match step c x with Ret c' => final c' r | UB => UB end end.
Fixpoint ok_run (user : config -> act -> Prop) (c : config) (l : list act) : Prop :=
  match l with
  | [] => True
  | x :: r => enabled c x /\ user c x /\ match step c x with Ret c' => ok_run user c' r | UB => False end
  end.
Lemma run_reach user l : forall c c', reach user c -> ok_run user c l -> final c l = Ret c' -> reach user c'.
Proof.
  induction l as [|x l IH]; intros c c' R O F; cbn in *; [injection F as <-; exact R|].
  destruct O as (E & U & O). destruct (step c x) as [c1|] eqn:S; [|contradiction]. eapply IH; [|exact O|exact F]. eapply reach_step; eassumption.
Qed.
Ltac okr := vm_compute; repeat split; try tauto; try discriminate; try lia; try (intros H; repeat destruct H as [H|H]; discriminate H || contradiction);
  try (intros (? & H); repeat destruct H as [H|H]; discriminate H || contradiction).
Definition busy : list act :=
  [XAccept None None None; XReady AOk; XReturn; XReady (AFail EAGAIN); XReady ANoMem; XReturn; XCont; XReady (AInitFail (-24)); XReturn; XCont; XReady AOk; XReturn; XReady (AFail 24); XReturn].
Example busy_server : exists s, reach careful (s, []) /\ enabled (s, []) (XReady AOk) /\
  tr s = [EvListen 0; EvAccepted 0; EvPassed 0; EvAccepted 1; EvError NO_MEMORY; EvFdClosed 1; EvAccepted 2; EvError (-24); EvFdClosed 2; EvFreed 2; EvAccepted 3; EvPassed 3; EvError (-24)].
Proof. eexists. split; [apply (run_reach _ busy server_init); [apply reach_init|okr|vm_compute; reflexivity]|]. okr. Qed.
(** Closed from within the handler that is told about missing memory. *)
Example closed_server : exists s, reach careful (s, []) /\ In EvHook (tr s) /\ In (EvFdClosed 0) (tr s).
Proof. eexists. split; [apply (run_reach _ [XAccept None None None; XReady ANoMem; XClose; XReturn; XReturn; XCont] server_init); [apply reach_init|okr|vm_compute; reflexivity]|]. okr. Qed.

(** Refuted without the last assumption: a handler that closes the server socket
    when it is told that a client could not be initialised makes accept_callback
    use the server socket after its close hook. *)
Theorem C43_close_in_error_handler_refuted : exists s i, reach sane (s, [OInitFail i]) /\ In EvHook (tr s) /\
  tr s = [EvListen 0; EvAccepted 0; EvError (-24); EvClose; EvHook] /\ step (s, [OInitFail i]) XCont = UB.
Proof.
  eexists. exists 0. split; [apply (run_reach _ [XAccept None None None; XReady (AInitFail (-24)); XClose; XReturn; XReturn] server_init); [apply reach_init|okr|vm_compute; reflexivity]|]. okr.
Qed.
Print Assumptions C43_close_in_error_handler_refuted.
