(** C66: server sockets on Windows. *)
From Verif Require Import Base WinServer WinServerSpec.

(** * Invariant *)
Record inv (s : st) : Prop := mkInv {
  i_law : lawful (tr s);
  i_alive : alive s = negb (hooked (tr s));
  i_open : lopen s = negb (unlistened (tr s));
  i_un : unlistened (tr s) = hooked (tr s);
  i_can : cancelled s = closed (tr s);
  i_num : Forall (fun e => forall m, number e = Some m -> m < nsock s) (tr s);
  i_held : held s = owned (tr s);
  i_bound : hooked (tr s) = false -> bound s = bound_ok (tr s);
  i_state :
    if accepting (tr s) then
      hset s = true /\
      if hooked (tr s) then ka s = KIdle /\ owned (tr s) = [] /\ waiting (tr s) = None /\ closed (tr s) = true
      else if closed (tr s) then in_use s = 1 /\ owned (tr s) = [] /\ waiting (tr s) = None /\ ((exists c, ka s = KPending c) \/ exists c, ka s = KQueued c (AErr WSA_OPERATION_ABORTED))
      else exists c, acc s = Some c /\ owned (tr s) = [c] /\ in_use s = 1 /\ ((waiting (tr s) = None /\ ka s = KPending c) \/ (waiting (tr s) = Some c /\ ka s = KQueued c AConn))
    else ka s = KIdle /\ in_use s = 0 /\ acc s = None /\ owned (tr s) = [] /\ waiting (tr s) = None /\ closed (tr s) = hooked (tr s) }.
Lemma hooked_closed l : lawful l -> hooked l = true -> closed l = true.
Proof. induction l as [|e l IH]; [discriminate|]. intros [[_ A] L] H. destruct e; cbn in *; auto. apply A. Qed.
Lemma open_alive s : inv s -> closed (tr s) = false -> hooked (tr s) = false /\ alive s = true /\ lopen s = true.
Proof.
  intros I C. assert (H : hooked (tr s) = false) by (destruct (hooked (tr s)) eqn:E; [apply hooked_closed in E; [congruence|apply I]|reflexivity]).
  split; [exact H|]. rewrite (i_alive _ I), (i_open _ I), (i_un _ I), H. auto.
Qed.
Lemma num_le (l : list ev) n n' : n <= n' -> Forall (fun e => forall m, number e = Some m -> m < n) l -> Forall (fun e => forall m, number e = Some m -> m < n') l.
Proof. intros H. apply Forall_impl. intros e A m E. specialize (A m E). lia. Qed.
Lemma owned_num l n : Forall (fun e => forall m, number e = Some m -> m < n) l -> forall c, In c (owned l) -> c < n.
Proof.
  induction l as [|e l IH]; intros F c X; [destruct X|]. inversion F; subst. destruct e as [ | |d| | |d|err [d|]| | |]; cbn [owned] in X; auto; try (apply filter_In in X; apply IH; tauto).
  destruct X as [<-|X]; [apply H1; reflexivity|auto].
Qed.

Lemma step_inv s k x : inv s -> enabled (s, k) x -> careful (s, k) x -> exists c, step (s, k) x = Ret c /\ inv (fst c).
Proof.
  intros I En Ca. pose proof (i_law _ I) as L. pose proof (i_state _ I) as ST. pose proof (i_num _ I) as NU. pose proof (i_alive _ I) as AL. pose proof (i_open _ I) as OP. pose proof (i_un _ I) as UN.
  pose proof (i_can _ I) as CA. pose proof (i_held _ I) as HE. pose proof (i_bound _ I) as BO.
  destruct x as [err|lerr how| | |e|serr how hasmem perr|]; cbn [step enabled careful] in *.
  - (* XBind *) destruct (open_alive _ I Ca) as (HK & A & LO). unfold bind_. rewrite A. cbn [negb]. specialize (BO HK).
    destruct (Z.eqb_spec err 0) as [->|NE].
    + eexists. split; [reflexivity|]. cbn [fst]. constructor; cbn; auto; try (constructor; [discriminate|exact NU]). repeat split; auto.
    + eexists. split; [reflexivity|]. cbn [fst]. constructor; cbn; auto; try (constructor; [discriminate|exact NU]).
      * repeat split; auto.
      * intros _. destruct (Z.eqb_spec (- err) SUCCESS) as [X|X]; [exfalso; unfold SUCCESS in X; clear -NE X; lia|exact BO].
  - (* XAccept *) destruct Ca as (C1 & C2 & C3 & C4). destruct En as [E1 E2]. destruct (open_alive _ I C1) as (HK & A & LO). specialize (BO HK). rewrite C3 in ST. destruct ST as (K1 & K2 & K3 & K4 & K5 & K6).
    unfold accept. rewrite A. cbn [negb bound set_hset lopen]. rewrite BO, C2, LO. cbn [negb].
    assert (F : forall res s', (res < 0)%Z -> tr s' = tr s -> alive s' = alive s -> lopen s' = lopen s -> cancelled s' = cancelled s -> nsock s' = nsock s -> held s' = held s -> bound s' = bound s -> ka s' = ka s -> in_use s' = in_use s -> acc s' = acc s ->
      inv (log (EvAccept res) s')).
    { intros res s' R D1 D2 D3 D4 D5 D6 D7 D8 D9 D10. constructor; cbn; rewrite ?D1, ?D2, ?D3, ?D4, ?D5, ?D6, ?D7; auto; try (cbn; congruence).
      - repeat split; auto.
      - constructor; [discriminate|exact NU].
      - destruct (Z.eqb_spec res SUCCESS) as [X|X]; [exfalso; unfold SUCCESS in X; clear -R X; lia|]. cbn. rewrite C3, D8, D9, D10. auto 10. }
    destruct (Z.eqb_spec lerr 0) as [->|NE].
    + destruct how as [e|e|]; cbn [prepare]; [|destruct (C4 e); reflexivity|].
      * eexists. split; [reflexivity|]. cbn [fst]. apply F; auto. cbn in E2. clear -E2; lia.
      * cbn [ka set_hset]. rewrite K1. eexists. split; [reflexivity|]. cbn [fst]. constructor; cbn; rewrite ?HK, ?C1; auto; try (cbn; congruence).
        -- repeat split; auto.
        -- constructor; [discriminate|]. constructor; [|eapply num_le; [|exact NU]; clear; lia]. intros m E. injection E as <-. clear; lia.
        -- split; [reflexivity|]. exists (nsock s). rewrite K4, K2. auto 8.
    + eexists. split; [reflexivity|]. cbn [fst]. apply F; auto. clear -E1 NE; lia.
  - (* XClose *) destruct Ca as (C1 & C2 & C3). destruct (open_alive _ I C1) as (HK & A & LO). specialize (BO HK). unfold close. rewrite A. cbn [negb acc set_cancelled log].
    destruct (accepting (tr s)) eqn:AC.
    + rewrite HK, C1 in ST. destruct ST as (HS & c & K1 & K2 & K3 & K4). rewrite K1. unfold shut. cbn [held set_cancelled log]. rewrite HE, K2. cbn [mem existsb]. rewrite Nat.eqb_refl. cbn [orb].
      unfold try_free. cbn [in_use log set_held set_cancelled]. rewrite K3. cbn [Nat.eqb]. eexists. split; [reflexivity|]. cbn [fst]. destruct K4 as [[K4 K5]|[K4 K5]]; [|congruence].
      constructor; cbn; rewrite ?HK; auto; try (cbn; congruence).
      * split; [split; [exact HK|cbn [owned]; rewrite K2; left; reflexivity]|]. repeat split; auto.
      * constructor; [intros m E; injection E as <-; eapply owned_num; [exact NU|rewrite K2; left; reflexivity]|]. constructor; [discriminate|exact NU].
      * rewrite K2. reflexivity.
      * rewrite AC. split; [exact HS|]. rewrite K2. cbn [filter]. rewrite Nat.eqb_refl. cbn [negb filter]. eauto 6.
    + destruct ST as (K1 & K2 & K3 & K4 & K5 & K6). rewrite K3. unfold try_free. cbn [in_use log set_cancelled lopen]. rewrite K2, LO. cbn [Nat.eqb bound log set_lopen set_cancelled].
      destruct (bound s) eqn:B; [exfalso; rewrite <- BO in C3; specialize (C3 eq_refl); discriminate|]. eexists. split; [reflexivity|]. cbn [fst]. constructor; cbn; auto; try (cbn; congruence).
      * repeat split; auto; cbn; congruence.
      * repeat (constructor; [discriminate|]). exact NU.
      * rewrite AC. auto 10.
  - (* XConn *) destruct En as [c En]. rewrite En. destruct (open_alive _ I Ca) as (HK & A & LO). eexists. split; [reflexivity|]. cbn [fst]. destruct (accepting (tr s)) eqn:AC; [|destruct ST; congruence].
    rewrite HK, Ca in ST. destruct ST as (HS & c' & K1 & K2 & K3 & K4). destruct K4 as [[K4 K5]|[K4 K5]]; [|congruence]. rewrite K5 in En. injection En as ->.
    constructor; cbn; rewrite ?HK, ?Ca, ?AC; auto; try (cbn; congruence).
    + repeat split; auto. rewrite K2. left. reflexivity.
    + constructor; [intros m E; injection E as <-; eapply owned_num; [exact NU|rewrite K2; left; reflexivity]|exact NU].
    + split; [exact HS|]. exists c. auto 8.
  - (* XFail *) subst e. destruct En as ((c & En) & _ & X). rewrite En. rewrite CA in X. specialize (X eq_refl). eexists. split; [reflexivity|]. cbn [fst]. destruct (accepting (tr s)) eqn:AC; [|destruct ST; congruence].
    destruct ST as [HS ST]. destruct (hooked (tr s)) eqn:HK; [destruct ST; congruence|]. rewrite X in ST. destruct ST as (K1 & K2 & K3 & K4).
    constructor; cbn; rewrite ?HK, ?X, ?AC; auto; try (cbn; congruence).
    + repeat split; auto.
    + constructor; [discriminate|exact NU].
    + split; [exact HS|]. eauto 6.
  - (* XEvent *) destruct En as (-> & (c & r & En) & E1 & E2 & E3). rewrite En. destruct (accepting (tr s)) eqn:AC; [|destruct ST; congruence]. destruct ST as [HS ST].
    destruct (hooked (tr s)) eqn:HK; [destruct ST; congruence|]. specialize (BO eq_refl). unfold accept_callback. rewrite AL. cbn [negb].
    destruct (closed (tr s)) eqn:CL.
    + destruct ST as (K1 & K2 & K3 & [(c' & K4)|(c' & K4)]); [congruence|]. rewrite K4 in En. injection En as -> <-. cbn [Z.eqb]. rewrite Z.eqb_refl. unfold try_free. cbn [in_use set_bound set_in_use set_ka lopen bound log set_lopen].
      rewrite K1, OP, UN. cbn [pred Nat.eqb negb]. eexists. split; [reflexivity|]. cbn [fst]. constructor; cbn; auto; try (cbn; congruence).
      * repeat split; auto.
      * repeat (constructor; [discriminate|]). exact NU.
      * rewrite AC. auto 8.
    + destruct ST as (c' & K1 & K2 & K3 & [[K4 K5]|[K4 K5]]); [congruence|]. rewrite K5 in En. injection En as -> <-. rewrite K4 in Ca. destruct (Ca ltac:(discriminate)) as [-> ->].
      cbn [acc set_in_use set_ka]. rewrite K1. cbn [held set_in_use set_ka]. rewrite HE, K2. cbn [mem existsb]. rewrite Nat.eqb_refl. cbn [orb negb Z.eqb].
      cbn [prepare ka set_in_use set_ka negb Z.eqb SUCCESS nsock held]. rewrite K2 in HE. rewrite ?HE.
      assert (CN : c < nsock s) by (eapply owned_num; [exact NU|rewrite K2; left; reflexivity]). assert (NE : Nat.eqb (nsock s) c = false) by (apply Nat.eqb_neq; clear -CN; lia). assert (NE' : Nat.eqb c (nsock s) = false) by (apply Nat.eqb_neq; clear -CN; lia).
      assert (F : forall err, (err < 0)%Z ->
        exists cf, match shut c (set_in_use (S (pred (in_use s))) (set_ka (KPending (nsock s)) (log (EvOpen (nsock s)) (set_nsock (S (nsock s)) (set_held (nsock s :: [c]) (set_acc (Some (nsock s)) (set_in_use (pred (in_use s)) (set_ka KIdle s)))))))) with Ret s' => call_handler s' err None [] | UB => UB end = Ret cf /\ inv (fst cf)).
      { intros err R. unfold shut. cbn [held log set_nsock set_held set_ka set_in_use mem existsb]. rewrite NE', Nat.eqb_refl. cbn [orb]. unfold call_handler. cbn [hset log set_nsock set_held set_ka set_in_use set_acc]. rewrite HS. eexists. split; [reflexivity|]. cbn [fst].
        constructor; cbn; rewrite ?HK, ?CL, ?AC, ?K2; auto; try (cbn; congruence).
        - repeat split; auto.
          + exists c. cbn. rewrite K4, K2. cbn. rewrite NE, Nat.eqb_refl. cbn. split; [reflexivity|]. split; [exact R|]. intros [X|[]]. clear -CN X; lia.
          + cbn. rewrite K2. right. left. reflexivity.
        - constructor; [discriminate|]. constructor; [intros m E; injection E as <-; clear -CN; lia|]. constructor; [intros m E; injection E as <-; clear -CN; lia|]. eapply num_le; [|exact NU]. clear -CN; lia.
        - split; [exact HS|]. exists (nsock s). rewrite NE, K3. cbn. rewrite Nat.eqb_refl. cbn. auto 8. }
      destruct hasmem; cbn [negb]; [|destruct (F NO_MEMORY ltac:(reflexivity)) as (cf & X1 & X2); exists cf; split; [exact X1|exact X2]].
      destruct (Z.eqb_spec perr 0) as [->|NP]; cbn [negb]; [|destruct (F (- perr)%Z ltac:(clear -NP E3; lia)) as (cf & X1 & X2); exists cf; split; [exact X1|exact X2]].
      unfold call_handler. cbn [hset log set_nsock set_held set_ka set_in_use set_acc held]. rewrite HS. eexists. split; [reflexivity|]. cbn [fst].
      constructor; cbn; rewrite ?HK, ?CL, ?AC, ?K2; auto; try (cbn; congruence).
      * repeat split; auto. exists c. cbn. rewrite K4. split; [reflexivity|]. repeat split; auto. cbn. rewrite K2. right. left. reflexivity.
      * constructor; [intros m E; injection E as <-; clear -CN; lia|]. constructor; [intros m E; injection E as <-; clear -CN; lia|]. eapply num_le; [|exact NU]. clear -CN; lia.
      * split; [exact HS|]. exists (nsock s). rewrite NE, K3. cbn. rewrite Nat.eqb_refl. cbn. auto 8.
  - (* XReturn *) eexists. split; [reflexivity|]. exact I.
Qed.
Lemma start_inv : inv (fst start).
Proof. constructor; cbn; auto 10. Qed.
Lemma reach_inv' c : reach careful c -> inv (fst c).
Proof.
  intros R. induction R as [|[s0 k0] x c' R IH En Ca St]; [exact start_inv|].
  destruct (step_inv s0 k0 x IH En Ca) as (c & E & I). rewrite E in St. injection St as <-. exact I.
Qed.
Lemma reach_inv s k : reach careful (s, k) -> inv s.
Proof. intros R. exact (reach_inv' _ R). Qed.

(** * C66 *)
Theorem C66_every_step_is_defined : forall s k x, reach careful (s, k) -> enabled (s, k) x -> careful (s, k) x -> exists c, step (s, k) x = Ret c.
Proof. intros s k x R En Ca. destruct (step_inv s k x (reach_inv s k R) En Ca) as (c & E & _). exists c. exact E. Qed.
Print Assumptions C66_every_step_is_defined.
Lemma lawful_split l1 : forall e l0, lawful (l1 ++ e :: l0) -> allowed e l0 /\ lawful l0.
Proof. induction l1 as [|a l1 IH]; intros e l0 H; [exact H|]. apply IH, H. Qed.

(** The handler is told about the connection that waits: it gets it, open, with success, or it gets an error, and the connection
    was closed; never after close. *)
Theorem C66_handler_told : forall s k l1 err client l0, reach careful (s, k) -> tr s = l1 ++ EvHandler err client :: l0 ->
  closed l0 = false /\ exists c, waiting l0 = Some c /\
    match client with Some d => err = SUCCESS /\ d = c /\ In c (owned l0) | None => (err < 0)%Z /\ ~ In c (owned l0) end.
Proof. intros s k l1 err client l0 R E. pose proof (i_law _ (reach_inv s k R)) as L. rewrite E in L. apply lawful_split in L. exact (proj2 (proj1 L)). Qed.
Print Assumptions C66_handler_told.

(** Every connection, in the order of arrival, was told to the handler exactly once, or it is the one that waits. *)
Lemma connections_cons e l : connections (e :: l) = connections l ++ match e with EvConn c => [c] | _ => [] end.
Proof. unfold connections. cbn [rev]. rewrite flat_map_app. cbn. rewrite app_nil_r. reflexivity. Qed.
Theorem C66_connections_in_order : forall s k, reach careful (s, k) ->
  connections (tr s) = told (tr s) ++ match waiting (tr s) with Some c => [c] | None => [] end.
Proof.
  intros s k R. pose proof (i_law _ (reach_inv s k R)) as L. clear R. induction (tr s) as [|e l IH]; [reflexivity|]. destruct L as [[_ A] L]. specialize (IH L).
  rewrite connections_cons, IH. destruct e; cbn [waiting told allowed] in *; rewrite ?app_nil_r; try reflexivity.
  destruct A as (_ & _ & ->). rewrite app_nil_r. reflexivity.
Qed.
Print Assumptions C66_connections_in_order.
Lemma filter_absent d o : ~ In d o -> filter (fun d' => negb (Nat.eqb d' d)) o = o.
Proof. induction o as [|a o IH]; intros H; [reflexivity|]. cbn. destruct (Nat.eqb_spec a d) as [->|]; [destruct H; left; reflexivity|]. cbn. rewrite IH; [reflexivity|]. intros X. apply H. right. exact X. Qed.
Lemma handed_num l n : lawful l -> Forall (fun e => forall m, number e = Some m -> m < n) l -> NoDup (owned l) /\
  forall c, count_occ Nat.eq_dec (flat_map (fun e => match e with EvHandler _ (Some d) | EvShut d => [d] | _ => [] end) l) c + count_occ Nat.eq_dec (owned l) c = count_occ Nat.eq_dec (flat_map (fun e => match e with EvOpen d => [d] | _ => [] end) l) c.
Proof.
  revert n. induction l as [|e l IH]; intros n L F; [split; [constructor|reflexivity]|]. destruct L as [[_ A] L]. inversion F as [|? ? F1 F2]; subst. destruct (IH n L F2) as [N C]. clear IH.
  assert (FO : forall d, In d (owned l) -> NoDup (filter (fun d' => negb (Nat.eqb d' d)) (owned l)) /\ forall c, (if Nat.eq_dec d c then 1 else 0) + count_occ Nat.eq_dec (filter (fun d' => negb (Nat.eqb d' d)) (owned l)) c = count_occ Nat.eq_dec (owned l) c).
  { intros d X. split; [apply NoDup_filter; exact N|]. intros c. revert N X. clear. induction (owned l) as [|a o IH]; intros N X; [destruct X|]. inversion N; subst. cbn [filter]. destruct (Nat.eqb_spec a d) as [->|NE]; cbn [negb].
    - assert (E : filter (fun d' => negb (Nat.eqb d' d)) o = o) by (apply filter_absent; assumption).
      rewrite E. cbn. destruct (Nat.eq_dec d c); reflexivity.
    - destruct X as [->|X]; [congruence|]. specialize (IH H2 X). cbn. destruct (Nat.eq_dec a c); lia. }
  destruct e as [ | |d| | |d|err [d|]| | |]; cbn [owned flat_map app] in *; auto.
  - destruct A as (_ & A). assert (X : ~ In d (owned l)). { intros X. pose proof (owned_num _ _ A _ X). lia. } split; [constructor; assumption|]. intros c. cbn. specialize (C c). destruct (Nat.eq_dec d c); lia.
  - destruct (FO d A) as [F3 F4]. split; [exact F3|]. intros c. cbn. specialize (C c). specialize (F4 c). destruct (Nat.eq_dec d c); lia.
  - destruct A as (_ & c0 & _ & _ & -> & A). destruct (FO c0 A) as [F3 F4]. split; [exact F3|]. intros c. cbn. specialize (C c). specialize (F4 c). destruct (Nat.eq_dec c0 c); lia.
Qed.
Lemma opened_once l : lawful l -> forall c, count_occ Nat.eq_dec (flat_map (fun e => match e with EvOpen d => [d] | _ => [] end) l) c <= 1.
Proof.
  induction l as [|e l IH]; intros L c; [cbn; lia|]. destruct L as [[_ A] L]. specialize (IH L c). destruct e; cbn [flat_map app]; auto. cbn. destruct (Nat.eq_dec c0 c) as [->|]; [|exact IH].
  destruct A as (_ & A). assert (Z0 : count_occ Nat.eq_dec (flat_map (fun e => match e with EvOpen d => [d] | _ => [] end) l) c = 0).
  { apply count_occ_not_In. intros X. apply in_flat_map in X. destruct X as (e & X & Y). destruct e; try destruct Y as [].
    - subst. rewrite Forall_forall in A. specialize (A _ X c eq_refl). lia.
    - contradiction. }
  lia.
Qed.
(** Every socket that the library opened is closed or handed to the application at most once in all, and exactly once by the time
    of the close hook; the listening socket is closed by then, too. *)
Theorem C66_sockets_released_once : forall s k c, reach careful (s, k) ->
  let released := count_occ Nat.eq_dec (flat_map (fun e => match e with EvHandler _ (Some d) | EvShut d => [d] | _ => [] end) (tr s)) c in
  let opened := count_occ Nat.eq_dec (flat_map (fun e => match e with EvOpen d => [d] | _ => [] end) (tr s)) c in
  released <= opened /\ opened <= 1 /\ (hooked (tr s) = true -> released = opened).
Proof.
  intros s k c R. cbv zeta. pose proof (reach_inv s k R) as I. destruct (handed_num _ _ (i_law _ I) (i_num _ I)) as [N C]. specialize (C c). pose proof (opened_once _ (i_law _ I) c) as O.
  split; [lia|]. split; [exact O|]. intros H.
  assert (E : owned (tr s) = []). { pose proof (i_state _ I) as ST. destruct (accepting (tr s)); [rewrite H in ST|]; tauto. } rewrite E in C. cbn in C. lia.
Qed.
Print Assumptions C66_sockets_released_once.

(** The server goes on accepting: as long as it is not closed, AcceptEx is pending or has a connection in the queue. *)
Theorem C66_keeps_accepting : forall s k, reach careful (s, k) -> accepting (tr s) = true -> closed (tr s) = false ->
  exists c, ka s = KPending c \/ (ka s = KQueued c AConn /\ waiting (tr s) = Some c).
Proof.
  intros s k R A C. pose proof (reach_inv s k R) as I. pose proof (i_state _ I) as ST. destruct (open_alive _ I C) as (H & _). rewrite A, H, C in ST. destruct ST as (_ & c & _ & _ & _ & [[_ K]|[W K]]); eauto.
Qed.
Print Assumptions C66_keeps_accepting.
(** The close hook is called once, as the last event; it is called as soon as the kernel has given AcceptEx back. *)
Theorem C66_hook_is_last : forall s k l1 l0, reach careful (s, k) -> tr s = l1 ++ EvHook :: l0 ->
  l1 = [] /\ closed l0 = true /\ unlistened l0 = true /\ owned l0 = [] /\ waiting l0 = None.
Proof.
  intros s k l1 l0 R E. pose proof (i_law _ (reach_inv s k R)) as L. rewrite E in L.
  split; [|apply lawful_split in L; destruct L as [[_ A] _]; exact A].
  destruct l1 as [|e l1]; [reflexivity|]. exfalso. cbn [app lawful] in L. destruct L as [[H _] _].
  assert (X : hooked (l1 ++ EvHook :: l0) = true) by (clear; induction l1 as [|e l1 IH]; [reflexivity|]; destruct e; try exact IH; reflexivity). congruence.
Qed.
Print Assumptions C66_hook_is_last.
Theorem C66_hook_is_called : forall s k, reach careful (s, k) -> closed (tr s) = true -> ka s = KIdle -> hooked (tr s) = true.
Proof.
  intros s k R C K. pose proof (i_state _ (reach_inv s k R)) as ST. rewrite C, K in ST. destruct (hooked (tr s)); [reflexivity|]. destruct (accepting (tr s)); [|intuition congruence].
  destruct ST as (_ & _ & _ & _ & [(c & X)|(c & X)]); discriminate.
Qed.
Print Assumptions C66_hook_is_called.

(** * Concrete runs *)
Definition prep_okb (p : prep) : bool := match p with PSock e | PEx e => (0 <? e)%Z | POk => true end.
Definition enabledb (c : conf) (x : act) : bool :=
  let '(s, k) := c in
  match x with
  | XBind err => (0 <=? err)%Z
  | XAccept lerr how => (0 <=? lerr)%Z && prep_okb how
  | XClose => true
  | XConn => match ka s with KPending _ => true | _ => false end
  | XFail e => match ka s with KPending _ => (0 <? e)%Z && (negb (e =? WSA_OPERATION_ABORTED)%Z || cancelled s) | _ => false end
  | XEvent serr how _ perr => match k, ka s with [], KQueued _ _ => (0 <=? serr)%Z && prep_okb how && (0 <=? perr)%Z | _, _ => false end
  | XReturn => match k with [] => false | _ => true end
  end.
Lemma prep_okb_ok p : prep_okb p = true -> prep_ok p.
Proof. destruct p; cbn; intros H; auto; apply Z.ltb_lt; exact H. Qed.
Lemma enabledb_ok c x : enabledb c x = true -> enabled c x.
Proof.
  destruct c as [s k]. destruct x as [err|lerr how| | |e|serr how hasmem perr|]; cbn [enabledb enabled]; intros H; auto.
  - apply Z.leb_le. exact H.
  - apply andb_prop in H. destruct H as [H1 H2]. split; [apply Z.leb_le; exact H1|apply prep_okb_ok; exact H2].
  - destruct (ka s); try discriminate. eauto.
  - destruct (ka s); try discriminate. apply andb_prop in H. destruct H as [H1 H2]. split; [eauto|]. split; [apply Z.ltb_lt; exact H1|]. intros ->. rewrite Z.eqb_refl in H2. exact H2.
  - destruct k; [|discriminate]. destruct (ka s); try discriminate. apply andb_prop in H. destruct H as [H H3]. apply andb_prop in H. destruct H as [H1 H2]. split; [reflexivity|]. split; [eauto|]. split; [apply Z.leb_le; exact H1|]. split; [apply prep_okb_ok; exact H2|apply Z.leb_le; exact H3].
  - destruct k; [discriminate|discriminate].
Qed.
Definition carefulb (c : conf) (x : act) : bool :=
  let '(s, k) := c in
  let l := tr s in
  match x with
  | XBind _ => negb (closed l)
  | XAccept _ how => negb (closed l) && bound_ok l && negb (accepting l) && match how with PEx _ => false | _ => true end
  | XClose => negb (closed l) && match waiting l with None => true | _ => false end && (negb (bound_ok l) || accepting l)
  | XConn => negb (closed l)
  | XFail e => (e =? WSA_OPERATION_ABORTED)%Z
  | XEvent serr how _ _ => match waiting l with None => true | _ => (serr =? 0)%Z && match how with POk => true | _ => false end end
  | _ => true
  end.
Lemma carefulb_ok c x : carefulb c x = true -> careful c x.
Proof.
  destruct c as [s k]. destruct x as [err|lerr how| | |e|serr how hasmem perr|]; cbn [carefulb careful]; intros H; auto; try (apply negb_true_iff; exact H).
  - apply andb_prop in H. destruct H as [H H4]. apply andb_prop in H. destruct H as [H H3]. apply andb_prop in H. destruct H as [H1 H2]. apply negb_true_iff in H1, H3. repeat split; auto. intros e ->. discriminate.
  - apply andb_prop in H. destruct H as [H H3]. apply andb_prop in H. destruct H as [H1 H2]. apply negb_true_iff in H1. split; [exact H1|]. split; [destruct (waiting (tr s)); [discriminate|reflexivity]|]. intros X. rewrite X in H3. exact H3.
  - apply Z.eqb_eq. exact H.
  - intros W. destruct (waiting (tr s)); [|contradiction]. apply andb_prop in H. destruct H as [H1 H2]. apply Z.eqb_eq in H1. destruct how; try discriminate. auto.
Qed.
Fixpoint run (u : conf -> act -> bool) (c : conf) (l : list act) : option conf :=
  match l with
  | [] => Some c
  | x :: r => if enabledb c x && u c x then match step c x with Ret c' => run u c' r | UB => None end else None
  end.
Lemma run_reach u (P : conf -> act -> Prop) l : (forall c x, u c x = true -> P c x) -> forall c c', reach P c -> run u c l = Some c' -> reach P c'.
Proof.
  intros HU. induction l as [|x l IH]; intros c c' R E; cbn in E; [injection E as <-; exact R|].
  destruct (enabledb c x && u c x) eqn:B; [|discriminate]. apply andb_prop in B. destruct B as [B1 B2]. destruct (step c x) as [c1|] eqn:St; [|discriminate].
  eapply IH; [|exact E]. eapply reach_step; [exact R|apply enabledb_ok, B1|apply HU, B2|exact St].
Qed.
Definition anyone (c : conf) (x : act) : Prop := True.
Definition free (c : conf) (x : act) : bool := true.
Ltac at_run u l := match goal with |- exists s k, reach ?P (s, k) /\ _ =>
  let E := fresh "E" in destruct (run u start l) as [[? ?]|] eqn:E; [|vm_compute in E; discriminate E]; match type of E with _ = Some (?a, ?b) => exists a, b; split;
    [eapply run_reach; [|apply reach_init|exact E]; first [exact carefulb_ok|exact (fun _ _ _ => I)]|vm_compute in E; injection E as <- <-] end end.
Definition go := XEvent 0 POk true 0.

(** Non-vacuity: two failing attempts, three connections, the second without memory, closed in the handler of the third. *)
Example server : exists s k, reach careful (s, k) /\ k = [] /\
  rev (tr s) = [EvBind (-5); EvBind SUCCESS; EvAccept (-10055); EvOpen 0; EvAccept SUCCESS; EvConn 0; EvOpen 1; EvHandler SUCCESS (Some 0); EvConn 1; EvOpen 2; EvShut 1; EvHandler NO_MEMORY None;
    EvConn 2; EvOpen 3; EvHandler SUCCESS (Some 2); EvClose; EvShut 3; EvFail 995; EvShutListen; EvHook].
Proof.
  at_run carefulb [XBind 5; XBind 0; XAccept 0 (PSock 10055); XAccept 0 POk; XConn; go; XReturn; XConn; XEvent 0 POk false 0; XReturn; XConn; go; XClose; XFail 995; XReturn; go; XReturn].
  repeat split.
Qed.

(** VIOLATED: a server that is bound and does not accept is closed without its hook being called. *)
Theorem C66_close_bound_refuted : exists s k, reach anyone (s, k) /\ k = [] /\ rev (tr s) = [EvBind SUCCESS; EvClose; EvShutListen] /\ ka s = KIdle.
Proof. at_run free [XBind 0; XClose]. repeat split. Qed.
Print Assumptions C66_close_bound_refuted.
(** VIOLATED: closed when a connection is in the queue: the handler is called after close, with an error, and the hook never. *)
Theorem C66_close_race_refuted : exists s k, reach anyone (s, k) /\ k = [] /\ rev (tr s) = [EvBind SUCCESS; EvOpen 0; EvAccept SUCCESS; EvConn 0; EvClose; EvShut 0; EvHandler (- WSAENOTSOCK) None] /\ ka s = KIdle.
Proof. at_run free [XBind 0; XAccept 0 POk; XConn; XClose; go; XReturn]. repeat split. Qed.
Print Assumptions C66_close_race_refuted.
(** VIOLATED: when the next AcceptEx cannot be prepared, the connection that has arrived is neither handed over nor closed; the
    server stops accepting; and it closes the failed socket once more when it is closed. *)
Theorem C66_prepare_failure_refuted : exists s k, reach anyone (s, k) /\ k = [] /\ rev (tr s) = [EvBind SUCCESS; EvOpen 0; EvAccept SUCCESS; EvConn 0; EvOpen 1; EvShut 1; EvHandler (-10055) None] /\
  owned (tr s) = [0] /\ ka s = KIdle /\ step (s, k) XClose = UB.
Proof. at_run free [XBind 0; XAccept 0 POk; XConn; XEvent 0 (PEx 10055) true 0; XReturn]. repeat split. Qed.
Print Assumptions C66_prepare_failure_refuted.
(** VIOLATED: an error of AcceptEx - a client that has gone away meanwhile - ends accepting for good. *)
Theorem C66_failed_connection_refuted : exists s k, reach anyone (s, k) /\ k = [] /\ rev (tr s) = [EvBind SUCCESS; EvOpen 0; EvAccept SUCCESS; EvFail 10054; EvHandler (-10054) None] /\ ka s = KIdle.
Proof. at_run free [XBind 0; XAccept 0 POk; XFail 10054; go; XReturn]. repeat split. Qed.
Print Assumptions C66_failed_connection_refuted.
(** VIOLATED: without bind, accepting reports success, but nothing listens. *)
Theorem C66_accept_unbound_refuted : exists s k, reach anyone (s, k) /\ rev (tr s) = [EvAccept SUCCESS] /\ ka s = KIdle.
Proof. at_run free [XAccept 0 POk]. repeat split. Qed.
Print Assumptions C66_accept_unbound_refuted.
(** VIOLATED: when cio_server_socket_init fails it depends on a counter that nobody has written whether the close hook is called,
    or the listening socket stays open for ever. *)
Theorem C66_init_failure_refuted : (exists c, init_failed 0 = Ret c /\ In EvHook (tr (fst c))) /\ (exists c, init_failed 1 = Ret c /\ lopen (fst c) = true /\ tr (fst c) = []).
Proof. split; eexists; repeat split. cbn. auto. Qed.
Print Assumptions C66_init_failure_refuted.
