(** C63: accepting connections on Zephyr. *)
From Verif Require Import Base ZephyrServer ZephyrServerSpec.

Definition state_ok (s : st) : Prop :=
  match phase_of (tr s) with
  | Fresh => alive s = true /\ removed s = false /\ listening s = false /\ pending s = 0
  | Listening => alive s = true /\ removed s = false /\ listening s = true /\ armed s = true /\ pending s = 0
  | Waiting c => alive s = true /\ removed s = false /\ listening s = true /\ armed s = true /\ pending s = 1 /\ new_context s = Some c /\ accept_status s = SUCCESS
  | Failed e => alive s = true /\ removed s = false /\ listening s = true /\ armed s = true /\ pending s = 1 /\ accept_status s = e /\ (e < 0)%Z
  | Refusing c => alive s = true /\ removed s = false /\ listening s = true /\ armed s = true /\ pending s = 0 /\ new_context s = Some c
  | Gone => alive s = false /\ listening s = false /\ pending s = 0
  end.
(** The stack: while a connection is being refused, exactly one net_context_put is due. *)
Definition stack_ok (s : st) (k : list op) : Prop :=
  match phase_of (tr s) with
  | Refusing _ => exists u k0, k = u ++ OPut :: k0 /\ ~ In OPut u /\ ~ In OPut k0
  | _ => ~ In OPut k
  end.
Record inv (s : st) (k : list op) : Prop := {
  i_st : state_ok s;
  i_k : stack_ok s k;
  i_num : forall c, In (EvConn c) (tr s) -> c < ncon s;
  i_law : lawful (tr s);
}.

Lemma step_inv s k x : inv s k -> enabled (s, k) x -> careful (s, k) x -> exists c, step (s, k) x = Ret c /\ inv (fst c) (snd c).
Proof.
  intros [S K N L] En Ca. unfold state_ok, stack_ok in *.
  destruct x as [lret aret| | |e|mem| |]; cbn [step enabled careful] in *.
  - destruct Ca as [Ca X]. rewrite Ca in *. destruct S as (A & B & D & E). unfold accept. rewrite A. cbn [negb].
    destruct (Z.ltb_spec lret 0) as [Y|Y]; [|destruct (Z.ltb_spec aret 0) as [Z|_]; [lia|]]; (eexists; split; [reflexivity|]); split; cbn [fst snd]; unfold state_ok, stack_ok; cbn; rewrite ?Ca; auto 12.
    + intros c [H|H]; [discriminate|auto].
    + intros c [H|[H|H]]; [discriminate|discriminate|auto].
  - assert (A : alive s = true /\ pending s = 0 /\ phase_of (tr s) <> Gone /\ ~ In OPut k) by (destruct (phase_of (tr s)); try contradiction; (repeat split; [tauto|tauto|discriminate|tauto])). destruct A as (A & P & NG & NP).
    unfold close. rewrite A. cbn [negb]. eexists. split; [reflexivity|]. split; cbn [fst snd]; unfold state_ok, stack_ok; cbn; auto.
    + intros [H|H]; [discriminate|tauto].
    + intros c [H|[H|H]]; [discriminate|discriminate|auto].
  - rewrite Ca in *. destruct S as (A & B & D & E & F). unfold accepted. rewrite A. cbn [negb]. eexists. split; [reflexivity|]. split; cbn [fst snd]; unfold state_ok, stack_ok; cbn; rewrite ?F; auto 12.
    + intros c [[= ->]|H]; [lia|]. specialize (N _ H). lia.
    + repeat split; auto. intros H. specialize (N _ H). lia.
  - rewrite Ca in *. destruct S as (A & B & D & E & F). unfold accept_failed. rewrite A. cbn [negb]. eexists. split; [reflexivity|]. split; cbn [fst snd]; unfold state_ok, stack_ok; cbn; rewrite ?F; auto.
    + repeat split; auto. apply En.
    + intros c [H|H]; [discriminate|auto].
  - destruct En as (-> & PZ). unfold dispatch. cbn [alive removed armed accept_status new_context set_pending].
    destruct (phase_of (tr s)) as [| |c|e|c|] eqn:PH; try (decompose [and] S; congruence).
    + destruct S as (A & B & D & E & F & G & H). rewrite A, B, E, H. cbn [negb]. rewrite Z.eqb_refl. destruct mem.
      * rewrite G. eexists. split; [reflexivity|]. split; cbn [fst snd]; unfold state_ok, stack_ok; cbn; rewrite ?F, ?PH; auto 10.
        -- intros [X|[]]. discriminate.
        -- intros c0 [X|X]; [discriminate|auto].
      * eexists. split; [reflexivity|]. split; cbn [fst snd]; unfold state_ok, stack_ok; cbn; rewrite ?F, ?PH; auto 10.
        -- exists [OUser], []. split; [reflexivity|]. split; [intros [X|[]]; discriminate|intros []].
        -- intros c0 [X|X]; [discriminate|auto].
        -- split; [|exact L]. left. eauto.
    + destruct S as (A & B & D & E & F & G & H). rewrite A, B, E, G. cbn [negb]. destruct (Z.eqb_spec e SUCCESS) as [->|NE]; [unfold SUCCESS in H; lia|].
      eexists. split; [reflexivity|]. split; cbn [fst snd]; unfold state_ok, stack_ok; cbn; rewrite ?F, ?PH; auto 10.
      -- intros [X|[]]. discriminate.
      -- intros c0 [X|X]; [discriminate|auto].
  - eexists. split; [reflexivity|]. split; cbn [fst snd]; auto; unfold stack_ok. destruct k as [|[] k]; try contradiction. cbn [tl].
    destruct (phase_of (tr s)) as [| |c|e|c|]; try (intros X; apply K; right; exact X).
    destruct K as (u & k0 & E & U1 & U2). destruct u as [|o u]; [discriminate|]. injection E as <- ->. exists u, k0. split; [reflexivity|]. split; [intros X; apply U1; right; exact X|exact U2].
  - destruct k as [|[] k]; try contradiction. cbn [tl].
    destruct (phase_of (tr s)) as [| |c|e|c|] eqn:PH; try (destruct K; left; reflexivity). destruct S as (A & B & D & E & F & G). unfold put_new. rewrite A, G. cbn [negb].
    eexists. split; [reflexivity|]. split; cbn [fst snd]; unfold state_ok, stack_ok; cbn; auto 10.
    + destruct K as (u & k0 & E0 & U1 & U2). destruct u as [|o u]; [injection E0 as ->; exact U2|]. injection E0 as <- _. destruct U1. left. reflexivity.
    + intros c0 [X|X]; [discriminate|auto].
Qed.
Lemma start_inv : inv (fst start) (snd start).
Proof. split; cbn; unfold state_ok, stack_ok; cbn; auto. contradiction. Qed.
Lemma reach_inv s k : reach careful (s, k) -> inv s k.
Proof.
  intros R. remember (s, k) as c eqn:E. revert s k E. induction R as [|c x c' R IH En Ca St]; intros s k E; [injection E as <- <-; exact start_inv|].
  destruct c as [s0 k0]. destruct (step_inv s0 k0 x (IH _ _ eq_refl) En Ca) as (c1 & E1 & I). rewrite E1 in St. injection St as <-. subst c1. exact I.
Qed.
Lemma lawful_split l1 : forall e l0, lawful (l1 ++ e :: l0) -> allowed e l0 /\ lawful l0.
Proof. induction l1 as [|a l1 IH]; intros e l0 H; [exact H|]. apply IH, H. Qed.

Theorem C63_every_step_is_defined : forall s k x, reach careful (s, k) -> enabled (s, k) x -> careful (s, k) x -> exists c, step (s, k) x = Ret c.
Proof. intros s k x R En Ca. destruct (step_inv s k x (reach_inv s k R) En Ca) as (c & E & _). exists c. exact E. Qed.
Print Assumptions C63_every_step_is_defined.

(** Connections are dealt with in the order in which they were set up, each exactly once; at most the last one waits. *)
Definition waiting (l : list ev) : list nat := match phase_of l with Waiting c | Refusing c => [c] | _ => [] end.
Lemma settle l : lawful l -> (forall l1 l0, l = l1 ++ EvHook :: l0 -> waiting l0 = []) -> connections l = settled l ++ waiting l.
Proof.
  intros L H. induction l as [|e l IH]; [reflexivity|]. destruct L as [A L].
  assert (IH' : connections l = settled l ++ waiting l) by (apply IH; [exact L|intros l1 l0 ->; apply (H (e :: l1)); reflexivity]). clear IH.
  assert (C1 : connections (e :: l) = connections l ++ match e with EvConn c => [c] | _ => [] end) by (unfold connections; cbn [rev]; rewrite flat_map_app; cbn; rewrite app_nil_r; reflexivity).
  assert (C2 : settled (e :: l) = settled l ++ match e with EvHandler _ (Some c) | EvPut c => [c] | _ => [] end) by (unfold settled; cbn [rev]; rewrite flat_map_app; cbn; rewrite app_nil_r; reflexivity).
  rewrite C1, C2, IH'. clear C1 C2. unfold waiting in *. destruct e as [|res|c|e|err [c|]|c| |]; cbn [allowed phase_of] in *.
  - rewrite A. rewrite !app_nil_r. reflexivity.
  - rewrite !app_nil_r. reflexivity.
  - destruct A as [A _]. rewrite A. rewrite !app_nil_r. reflexivity.
  - rewrite A. rewrite !app_nil_r. reflexivity.
  - destruct A as [_ A]. rewrite A. rewrite !app_nil_r. reflexivity.
  - rewrite !app_nil_r. destruct A as [(_ & c & A)|A]; rewrite A; reflexivity.
  - rewrite A. rewrite !app_nil_r. reflexivity.
  - rewrite !app_nil_r. reflexivity.
  - rewrite (H [] l eq_refl). rewrite !app_nil_r. reflexivity.
Qed.
Lemma hook_waits s k : reach careful (s, k) -> forall l1 l0, tr s = l1 ++ EvHook :: l0 -> waiting l0 = [].
Proof.
  intros R. remember (s, k) as c eqn:E. revert s k E. induction R as [|c x c' R IH En Ca St]; intros s k E l1 l0 T; [injection E as <- <-; destruct l1; discriminate|].
  destruct c as [s0 k0]. specialize (IH _ _ eq_refl). subst c'. cbn [step] in St.
  assert (G : forall e, tr s = e :: tr s0 -> e <> EvHook -> waiting l0 = []).
  { intros e T' NE. rewrite T' in T. destruct l1 as [|a l1]; [injection T as -> _; congruence|]. injection T as _ T. exact (IH _ _ T). }
  destruct x as [lret aret| | |e|mem| |].
  - unfold accept in St. destruct (negb (alive s0)); [discriminate|]. destruct (lret <? 0)%Z; [injection St as <- <-; apply (G (EvAccept lret)); [reflexivity|discriminate]|].
    destruct (aret <? 0)%Z; injection St as <- <-; [apply (G (EvAccept SUCCESS)); [reflexivity|discriminate]|]. cbn in T. destruct l1 as [|a [|b l1]]; try discriminate. injection T as <- <- T. exact (IH _ _ T).
  - unfold close in St. destruct (negb (alive s0)); [discriminate|]. injection St as <- <-. cbn in T. destruct l1 as [|a [|b l1]].
    + injection T as <-. unfold waiting. cbn [phase_of]. cbn in Ca. destruct (phase_of (tr s0)); try contradiction; reflexivity.
    + discriminate.
    + injection T as <- <- T. exact (IH _ _ T).
  - unfold accepted in St. destruct (negb (alive s0)); [discriminate|]. injection St as <- <-. eapply G; [reflexivity|discriminate].
  - unfold accept_failed in St. destruct (negb (alive s0)); [discriminate|]. injection St as <- <-. eapply G; [reflexivity|discriminate].
  - unfold dispatch in St. cbn [alive removed armed accept_status new_context set_pending] in St. destruct (negb (alive s0)); [discriminate|].
    destruct (removed s0); [injection St as <- <-; exact (IH _ _ T)|]. destruct (negb (armed s0)); [discriminate|].
    destruct (accept_status s0 =? SUCCESS)%Z; [destruct mem; [destruct (new_context s0); [|discriminate]|]|]; injection St as <- <-; (eapply G; [reflexivity|discriminate]).
  - injection St as <- <-. exact (IH _ _ T).
  - unfold put_new in St. destruct (negb (alive s0)); [discriminate|]. destruct (new_context s0); [|discriminate]. injection St as <- <-. eapply G; [reflexivity|discriminate].
Qed.
Theorem C63_connections_in_order : forall s k, reach careful (s, k) ->
  connections (tr s) = settled (tr s) ++ waiting (tr s) /\ NoDup (connections (tr s)).
Proof.
  intros s k R. pose proof (i_law _ _ (reach_inv s k R)) as L. split; [exact (settle _ L (hook_waits s k R))|].
  clear R. induction (tr s) as [|e l IH]; [constructor|]. destruct L as [A L]. specialize (IH L).
  assert (C1 : connections (e :: l) = connections l ++ match e with EvConn c => [c] | _ => [] end) by (unfold connections; cbn [rev]; rewrite flat_map_app; cbn; rewrite app_nil_r; reflexivity).
  rewrite C1. destruct e; try (rewrite app_nil_r; exact IH). destruct A as [_ A]. apply NoDup_rev in IH. rewrite <- (rev_involutive (connections l ++ [c])). apply NoDup_rev. rewrite rev_app_distr. cbn. constructor; [|exact IH].
  intros X. apply in_rev in X. unfold connections in X. apply in_flat_map in X. destruct X as (e & X1 & X2). apply in_rev in X1. destruct e; try contradiction. destruct X2 as [->|[]]. exact (A X1).
Qed.
Print Assumptions C63_connections_in_order.

(** The handler is told the truth: a socket is that of the connection that waited, without memory the connection is closed,
    failures are reported as they came. *)
Theorem C63_handler_told : forall s k l1 err o l0, reach careful (s, k) -> tr s = l1 ++ EvHandler err o :: l0 ->
  match o with
  | Some c => err = SUCCESS /\ phase_of l0 = Waiting c
  | None => (err = NO_MEMORY /\ exists c, phase_of l0 = Waiting c) \/ phase_of l0 = Failed err
  end.
Proof. intros s k l1 err o l0 R E. pose proof (i_law _ _ (reach_inv s k R)) as L. rewrite E in L. apply lawful_split in L. destruct L as [A _]. destruct o; exact A. Qed.
Print Assumptions C63_handler_told.

(** Nothing is forgotten: what waits is in the queue of the event loop; a connection that is refused will be closed by code that
    is already running; and the server goes on accepting. *)
Theorem C63_not_forgotten : forall s k, reach careful (s, k) ->
  match phase_of (tr s) with
  | Waiting _ | Failed _ => pending s = 1 /\ listening s = true
  | Refusing _ => In OPut k /\ listening s = true
  | Listening => listening s = true
  | Fresh | Gone => listening s = false
  end.
Proof.
  intros s k R. pose proof (reach_inv s k R) as [S K _ _]. unfold state_ok, stack_ok in *. destruct (phase_of (tr s)); try tauto.
  destruct K as (u & k0 & -> & _). split; [apply in_or_app; right; left; reflexivity|tauto].
Qed.
Print Assumptions C63_not_forgotten.

(** The close hook is called once, when the application closes; nothing happens afterwards. *)
Theorem C63_hook_is_last : forall s k l1 l0, reach careful (s, k) -> tr s = l1 ++ EvHook :: l0 -> l1 = [] /\ hd_error l0 = Some EvClose.
Proof.
  intros s k l1 l0 R E. pose proof (i_law _ _ (reach_inv s k R)) as L. rewrite E in L.
  assert (G : forall m, lawful (m ++ EvHook :: l0) -> m = []).
  { intros m. induction m as [|e m IH]; intros H; [reflexivity|]. cbn [app lawful] in H. destruct H as [A H]. specialize (IH H). subst m. cbn [app] in A.
    destruct e as [| | | |? []| | |]; cbn [allowed phase_of hd_error] in A; first [solve [intuition congruence]|decompose [or ex and] A; discriminate]. }
  split; [exact (G _ L)|]. apply lawful_split in L. apply L.
Qed.
Print Assumptions C63_hook_is_last.

(** * Concrete runs *)
Definition app_runsb (k : list op) : bool := match k with [] | OUser :: _ => true | _ => false end.
Definition enabledb (c : conf) (x : act) : bool :=
  let '(s, k) := c in
  match x with
  | XAccept _ _ | XClose => app_runsb k
  | XConn => listening s
  | XConnFail e => listening s && (e <? 0)%Z
  | XDispatch _ => match k with [] => negb (Nat.eqb (pending s) 0) | _ => false end
  | XReturn => match k with OUser :: _ => true | _ => false end
  | XCont => match k with OPut :: _ => true | _ => false end
  end.
Lemma enabledb_ok c x : enabledb c x = true -> enabled c x.
Proof.
  destruct c as [s k]. destruct x; cbn; intros H; auto; try (destruct k as [|[] k]; (discriminate || exact I)).
  - apply andb_prop in H. destruct H as [H1 H2]. apply Z.ltb_lt in H2. auto.
  - destruct k; [|discriminate]. apply negb_true_iff in H. apply Nat.eqb_neq in H. auto.
Qed.
Definition carefulb (c : conf) (x : act) : bool :=
  let '(s, k) := c in
  match x with
  | XAccept _ aret => match phase_of (tr s) with Fresh => (0 <=? aret)%Z | _ => false end
  | XConn | XConnFail _ => match phase_of (tr s) with Listening => true | _ => false end
  | XClose => match phase_of (tr s) with Fresh | Listening => true | _ => false end
  | _ => true
  end.
Lemma carefulb_ok c x : carefulb c x = true -> careful c x.
Proof. destruct c as [s k]. destruct x; cbn; auto; destruct (phase_of (tr s)); auto; try discriminate. intros H. apply Z.leb_le in H. auto. Qed.
Fixpoint run (u : conf -> act -> bool) (c : conf) (l : list act) : option conf :=
  match l with
  | [] => Some c
  | x :: r => if enabledb c x && u c x then match step c x with Ret c' => run u c' r | UB => None end else None
  end.
Lemma run_reach u (P : conf -> act -> Prop) l : (forall c x, u c x = true -> P c x) -> forall c c', reach P c -> run u c l = Some c' -> reach P c'.
Proof.
  intros HU. induction l as [|x l IH]; intros c c' R E; cbn in E; [injection E as <-; exact R|].
  destruct (enabledb c x && u c x) eqn:B; [|discriminate]. apply andb_prop in B. destruct B as [B1 B2]. destruct (step c x) as [c1|] eqn:St; [|discriminate].
  eapply IH; [|exact E]. eapply reach_step; [exact R|apply enabledb_ok, B1|apply HU, B2|exact St].
Qed.
Definition anyone (c : conf) (x : act) : Prop := True.
Definition free (c : conf) (x : act) : bool := true.
Ltac at_run u l := match goal with |- exists s k, reach ?P (s, k) /\ _ =>
  let E := fresh "E" in destruct (run u start l) as [[? ?]|] eqn:E; [|vm_compute in E; discriminate E]; match type of E with _ = Some (?a, ?b) => exists a, b; split;
    [eapply run_reach; [|apply reach_init|exact E]; first [exact carefulb_ok|exact (fun _ _ _ => I)]|vm_compute in E; injection E as <- <-] end end.

(** Non-vacuity: listening fails once, two connections, a third one without memory, a failure, close in its handler. *)
Example session : exists s k, reach careful (s, k) /\ rev (tr s) = [EvAccept (-98)%Z; EvListen; EvAccept SUCCESS; EvConn 0; EvHandler SUCCESS (Some 0); EvConn 1; EvHandler SUCCESS (Some 1);
  EvConn 2; EvHandler NO_MEMORY None; EvPut 2; EvConnFail (-5)%Z; EvHandler (-5)%Z None; EvClose; EvHook] /\ connections (tr s) = [0; 1; 2] /\ k = [].
Proof.
  at_run carefulb [XAccept (-98) 0; XAccept 0 0; XConn; XDispatch true; XReturn; XConn; XDispatch true; XReturn; XConn; XDispatch false; XReturn; XCont; XConnFail (-5); XDispatch true; XClose; XReturn; XReturn].
  repeat split.
Qed.

(** VIOLATED: two connections that are set up before the event loop gets to the first: the first is lost - never handed out,
    never closed - and the second is handed to two sockets. *)
Theorem C63_two_connections_refuted : exists s k, reach anyone (s, k) /\ k = [] /\ pending s = 0 /\
  rev (tr s) = [EvListen; EvAccept SUCCESS; EvConn 0; EvConn 1; EvHandler SUCCESS (Some 1); EvHandler SUCCESS (Some 1)].
Proof. at_run free [XAccept 0 0; XConn; XConn; XDispatch true; XReturn; XDispatch true; XReturn]. repeat split. Qed.
Print Assumptions C63_two_connections_refuted.
(** VIOLATED: a connection set up while the handler is told that there is no memory for the one before: the new one is closed,
    the old one leaks; the new one is handed out afterwards although it is closed. *)
Theorem C63_no_memory_refuted : exists s k, reach anyone (s, k) /\ k = [OUser] /\
  rev (tr s) = [EvListen; EvAccept SUCCESS; EvConn 0; EvHandler NO_MEMORY None; EvConn 1; EvPut 1; EvHandler SUCCESS (Some 1)].
Proof. at_run free [XAccept 0 0; XConn; XDispatch false; XConn; XReturn; XCont; XDispatch true]. repeat split. Qed.
Print Assumptions C63_no_memory_refuted.
(** VIOLATED: a server socket that is closed in the handler that reports the lack of memory is used after its close hook. *)
Theorem C63_close_in_handler_refuted : exists s k, reach anyone (s, k) /\ hd_error (tr s) = Some EvHook /\ enabled (s, k) XCont /\ step (s, k) XCont = UB.
Proof. at_run free [XAccept 0 0; XConn; XDispatch false; XClose; XReturn; XReturn]. repeat split. Qed.
Print Assumptions C63_close_in_handler_refuted.
(** VIOLATED: closed with a connection in the queue: the connection leaks and the event loop uses the server socket after its
    close hook. *)
Theorem C63_close_refuted : exists s k, reach anyone (s, k) /\ rev (tr s) = [EvListen; EvAccept SUCCESS; EvConn 0; EvClose; EvHook] /\ enabled (s, k) (XDispatch true) /\ step (s, k) (XDispatch true) = UB.
Proof. at_run free [XAccept 0 0; XConn; XClose; XReturn]. repeat split. discriminate. Qed.
Print Assumptions C63_close_refuted.
(** VIOLATED: accept reports success although the network stack refused to accept connections. *)
Theorem C63_accept_failure_refuted : exists s k, reach anyone (s, k) /\ tr s = [EvAccept SUCCESS] /\ listening s = false.
Proof. at_run free [XAccept 0 (-12)%Z]. repeat split. Qed.
Print Assumptions C63_accept_failure_refuted.
