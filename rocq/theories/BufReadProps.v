(** Buffered reading: properties C10 - C14 and C17.

    [reach user read_some m s]: [s] is a state of a buffered stream with read
    buffer memory [m] after any interleaving of user calls, transport
    completions and loop iterations; [user] decides what every handler does,
    [read_some] what the transport answers; [tr s] is the history, newest
    event first. *)
From Verif Require Import Base MemmemSpec BufReadModel BufReadSpec BufReadProofs.
Open Scope nat_scope.

(** Executing concrete schedules, for the examples. *)
Definition is_close (e : ev) : bool := match e with EvClose => true | _ => false end.
Definition enabledb (s : st) (x : xev) : bool :=
  match x, ct s with
  | XTick, Loop => true
  | XUser _, Idle => true
  | XDeliver bs, Idle => (waiting s && negb (Nat.eqb (length bs) 0) && Nat.leb (length bs) (rb_space (buf s)) &&
                          negb (existsb is_close (tr s)))%bool
  | XFail err, Idle => (waiting s && negb (Z.eqb err SUCCESS) && negb (existsb is_close (tr s)))%bool
  | _, _ => false
  end.
Fixpoint runx user read_some (s : st) (l : list xev) : option st :=
  match l with
  | [] => Some s
  | x :: l' => if enabledb s x then match step user read_some s x with Ret s' => runx user read_some s' l' | UB => None end
               else None
  end.
Lemma no_close_b t : negb (existsb is_close t) = true -> ~ In EvClose t.
Proof.
  intros H Hi. apply negb_true_iff in H. assert (Ht : existsb is_close t = true) by (apply existsb_exists; exists EvClose; auto).
  congruence.
Qed.
Lemma runx_reach user read_some m l s s' :
  reach user read_some m s -> runx user read_some s l = Some s' -> reach user read_some m s'.
Proof.
  revert s. induction l as [|x l IH]; intros s Hr H; cbn [runx] in H; [congruence|].
  destruct (enabledb s x) eqn:Ee; [|discriminate]. destruct (step user read_some s x) as [s1|] eqn:Es; [|discriminate].
  apply (IH s1); [|exact H]. apply (reach_step user read_some m s x s1 Hr); [|exact Es].
  unfold enabledb in Ee. destruct x as [|a|bs|err]; cbn [enabled]; destruct (ct s); try discriminate; auto.
  - apply andb_true_iff in Ee as [Ee E4]. apply andb_true_iff in Ee as [Ee E3]. apply andb_true_iff in Ee as [E1 E2].
    apply Nat.leb_le in E3. apply negb_true_iff, Nat.eqb_neq in E2. apply no_close_b in E4.
    repeat split; auto. intros ->. apply E2. reflexivity.
  - apply andb_true_iff in Ee as [Ee E4]. apply andb_true_iff in Ee as [E1 E2]. apply no_close_b in E4.
    apply negb_true_iff, Z.eqb_neq in E2. auto.
Qed.

(** A user that reads until CR LF, then 3 bytes, then at most 4 bytes, from within the handlers. *)
Definition ex_user (t : list ev) : list uact :=
  match t with
  | EvCall 0 0%Z n _ :: _ => [UConsume n; URead (JAtLeast 3)]
  | EvCall 1 0%Z n _ :: _ => [UConsume n; URead (JAtMost 4)]
  | EvCall 2 0%Z n _ :: _ => [UConsume n; URead (JUntil [7%N]); UClose; UClose]
  | _ => []
  end.
Definition ex_rs (_ : list ev) : Z := SUCCESS.
Definition ex_mem : list N := repeat 0%N 6.
Definition ex_sched : list xev :=
  [ XUser (URead (JUntil [13; 10]%N)); XTick; XDeliver [65; 66; 13]%N; XTick; XDeliver [10; 67]%N; XTick; XTick;
    XDeliver [68]%N; XTick; XDeliver [69; 70; 71]%N; XTick; XTick ].
Definition ex_final : option st := runx ex_user ex_rs (bs_init ex_mem) ex_sched.
Definition ex_state : st := match ex_final with Some s => s | None => bs_init ex_mem end.
Lemma ex_reach : reach ex_user ex_rs ex_mem ex_state.
Proof. apply (runx_reach _ _ _ ex_sched (bs_init ex_mem)); [apply reach_init|]. vm_compute. reflexivity. Qed.
Lemma ex_mem_nonempty : ex_mem <> []. Proof. discriminate. Qed.
Example ex_history : tr ex_state =
  [ EvClose; EvCloseCall; EvCloseCall; EvRequest 3 (JUntil [7]%N); EvConsume 2;
    EvCall 2 SUCCESS 2 [70; 71]%N; EvRequest 2 (JAtMost 4); EvConsume 3;
    EvCall 1 SUCCESS 3 [67; 68; 69; 70; 71]%N; EvDeliver [69; 70; 71]%N; EvReadSome SUCCESS;
    EvDeliver [68]%N; EvReadSome SUCCESS; EvRequest 1 (JAtLeast 3);
    EvConsume 4; EvCall 0 SUCCESS 4 [65; 66; 13; 10; 67]%N; EvDeliver [10; 67]%N; EvReadSome SUCCESS;
    EvDeliver [65; 66; 13]%N; EvReadSome SUCCESS; EvRequest 0 (JUntil [13; 10]%N) ].
Proof. vm_compute. reflexivity. Qed.

Lemma good_history_at size after e old : good_history size (after ++ e :: old) -> good_history size (e :: old).
Proof. induction after as [|x a IH]; [auto|]. intros [_ H]. apply IH, H. Qed.

Lemma call_good user read_some m s after id err n view old :
  m <> [] -> reach user read_some m s -> tr s = after ++ EvCall id err n view :: old ->
  good_call (length m) id err n view old.
Proof.
  intros Hm Hr Ht. pose proof (reach_inv user read_some m s Hm Hr) as ((_ & _ & _ & Hg & _) & _).
  rewrite Ht in Hg. apply (good_history_at _ _ _ _ Hg).
Qed.

Lemma requested_once size t id j j' : good_history size t -> In (EvRequest id j) t -> In (EvRequest id j') t -> j = j'.
Proof.
  induction t as [|e t IH]; [easy|]. cbn [good_history]. intros [He Hg] [-> | Hi] [Hq | Hi'].
  - injection Hq. auto.
  - destruct He as [He _]. elim He. exists j'. exact Hi'.
  - subst e. destruct He as [He _]. elim He. exists j. exact Hi.
  - auto.
Qed.

(** C10.  Every handler call offers exactly the bytes the transport has stored
    so far minus those consumed so far, in order; so does the state in between. *)
Theorem C10_bytes_offered_are_the_stream : forall user read_some m s after id err n view old,
  m <> [] -> reach user read_some m s -> tr s = after ++ EvCall id err n view :: old ->
  consumed old <= length (delivered old) /\ view = skipn (consumed old) (delivered old) /\ n <= length view.
Proof.
  intros user read_some m s after id err n view old Hm Hr Ht.
  destruct (call_good _ _ _ _ _ _ _ _ _ _ Hm Hr Ht) as (j & A & B & C & D & E & F).
  split; [exact D|]. split; [exact C|].
  destruct (Z.eq_dec err SUCCESS) as [He|He]; [apply E, He|]. destruct (F He). lia.
Qed.
Print Assumptions C10_bytes_offered_are_the_stream.

Theorem C10_unread_bytes_are_the_stream : forall user read_some m s,
  m <> [] -> reach user read_some m s ->
  rb_view (buf s) = skipn (consumed (tr s)) (delivered (tr s)) /\ consumed (tr s) <= length (delivered (tr s)).
Proof.
  intros user read_some m s Hm Hr. pose proof (reach_inv user read_some m s Hm Hr) as ((_ & A & B & _) & _). auto.
Qed.
Print Assumptions C10_unread_bytes_are_the_stream.

(** C11.  read_at_least. *)
Theorem C11_read_at_least : forall user read_some m s after id err n view old k,
  m <> [] -> reach user read_some m s -> tr s = after ++ EvCall id err n view :: old ->
  In (EvRequest id (JAtLeast k)) old ->
  (err = SUCCESS -> n = k /\ k <= length view) /\
  (err <> SUCCESS -> n = 0 /\ transport_error err old).
Proof.
  intros user read_some m s after id err n view old k Hm Hr Ht Hq.
  destruct (call_good _ _ _ _ _ _ _ _ _ _ Hm Hr Ht) as (j & A & B & C & D & E & F).
  assert (Hj : j = JAtLeast k).
  { pose proof (reach_inv user read_some m s Hm Hr) as ((_ & _ & _ & Hg & _) & _).
    rewrite Ht in Hg. apply good_history_at in Hg. destruct Hg as [_ Hg]. apply (requested_once _ _ _ _ _ Hg A Hq). }
  subst j. split.
  - intros He. apply E in He as [[-> H] _]. auto.
  - intros He. destruct (F He) as [Hn [Ht'|(d & Hd & _)]]; [auto|discriminate].
Qed.
Print Assumptions C11_read_at_least.

(** A request is refused exactly if it is larger than the buffer. *)
Theorem C11_acceptance : forall user read_some m s k,
  m <> [] -> reach user read_some m s ->
  (In (EvRefused (JAtLeast k)) (tr s) -> length m < k) /\
  (forall id, In (EvRequest id (JAtLeast k)) (tr s) -> k <= length m).
Proof.
  intros user read_some m s k Hm Hr. pose proof (reach_inv user read_some m s Hm Hr) as ((_ & _ & _ & Hg & _) & _).
  split.
  - intros Hi. apply in_split in Hi as (a & b & Ht). rewrite Ht in Hg. apply good_history_at in Hg.
    destruct Hg as [(k' & [= <-] & Hlt) _]. exact Hlt.
  - intros id Hi. apply in_split in Hi as (a & b & Ht). rewrite Ht in Hg. apply good_history_at in Hg.
    destruct Hg as [(_ & Hk) _]. apply Hk. reflexivity.
Qed.
Print Assumptions C11_acceptance.

(** C12.  read_until. *)
Theorem C12_read_until : forall user read_some m s after id err n view old d,
  m <> [] -> reach user read_some m s -> tr s = after ++ EvCall id err n view :: old ->
  In (EvRequest id (JUntil d)) old ->
  (err = SUCCESS -> exists i, first_occurrence view d i /\ n = i + length d) /\
  (err <> SUCCESS -> n = 0 /\
     (transport_error err old \/ (err = MESSAGE_TOO_LONG /\ length view = length m /\ forall i, ~ occurs_at view d i))).
Proof.
  intros user read_some m s after id err n view old d Hm Hr Ht Hq.
  destruct (call_good _ _ _ _ _ _ _ _ _ _ Hm Hr Ht) as (j & A & B & C & D & E & F).
  assert (Hj : j = JUntil d).
  { pose proof (reach_inv user read_some m s Hm Hr) as ((_ & _ & _ & Hg & _) & _).
    rewrite Ht in Hg. apply good_history_at in Hg. destruct Hg as [_ Hg]. apply (requested_once _ _ _ _ _ Hg A Hq). }
  subst j. split.
  - intros He. apply E in He as [H _]. exact H.
  - intros He. destruct (F He) as [Hn [Ht'|(d' & Hd & Hm' & Hl & Ho)]]; [auto|]. injection Hd as <-. auto.
Qed.
Print Assumptions C12_read_until.

(** C13.  read_at_most. *)
Theorem C13_read_at_most : forall user read_some m s after id err n view old k,
  m <> [] -> reach user read_some m s -> tr s = after ++ EvCall id err n view :: old ->
  In (EvRequest id (JAtMost k)) old ->
  (err = SUCCESS -> n <= k /\ n <= length view /\ view <> [] /\ (1 <= k -> 1 <= n) /\ (length view <= k -> n = length view)) /\
  (err <> SUCCESS -> n = 0 /\ transport_error err old).
Proof.
  intros user read_some m s after id err n view old k Hm Hr Ht Hq.
  destruct (call_good _ _ _ _ _ _ _ _ _ _ Hm Hr Ht) as (j & A & B & C & D & E & F).
  assert (Hj : j = JAtMost k).
  { pose proof (reach_inv user read_some m s Hm Hr) as ((_ & _ & _ & Hg & _) & _).
    rewrite Ht in Hg. apply good_history_at in Hg. destruct Hg as [_ Hg]. apply (requested_once _ _ _ _ _ Hg A Hq). }
  subst j. split.
  - intros He. apply E in He as [[H1 H2] _]. repeat split; try lia. intros ->. cbn in H1. lia.
  - intros He. destruct (F He) as [Hn [Ht'|(d & Hd & _)]]; [auto|discriminate].
Qed.
Print Assumptions C13_read_at_most.

(** C14, first half: a handler is called at most once per request and only for a request made before. *)
Theorem C14_at_most_once : forall user read_some m s after id err n view old,
  m <> [] -> reach user read_some m s -> tr s = after ++ EvCall id err n view :: old ->
  requested id old /\ ~ called id old /\ ~ called id after.
Proof.
  intros user read_some m s after id err n view old Hm Hr Ht.
  destruct (call_good _ _ _ _ _ _ _ _ _ _ Hm Hr Ht) as (j & A & B & _).
  split; [exists j; exact A|]. split; [exact B|]. intros (e2 & n2 & v2 & Hi).
  apply in_split in Hi as (a1 & a2 & ->). rewrite <- app_assoc in Ht. cbn [app] in Ht.
  destruct (call_good _ _ _ _ _ _ _ _ _ _ Hm Hr Ht) as (j2 & _ & B2 & _). apply B2.
  exists err, n, view. apply in_or_app. right. now left.
Qed.
Print Assumptions C14_at_most_once.

(** C14, second half, for users that keep one request outstanding and do not
    start a read from a handler that was called because read_some failed at
    once or because the buffer is full: whenever the library has returned
    control, each request has been answered, or the stream is closed, or a
    transport read is in flight and the unread bytes do not fulfil it. *)
Theorem C14_answered_or_waiting_partial : forall user read_some m s id j,
  no_reread_on_local_error user -> m <> [] -> reach user read_some m s ->
  one_at_a_time (tr s) -> ct s = Idle -> In (EvRequest id j) (tr s) ->
  called id (tr s) \/ In EvClose (tr s) \/
  (waiting s = true /\ forall n, ~ fulfils j (skipn (consumed (tr s)) (delivered (tr s))) n).
Proof.
  intros user read_some m s id j HU Hm Hr Ho Hct Hi.
  pose proof (reach_inv user read_some m s Hm Hr) as ((_ & _ & Hv & _ & _ & _ & H7) & _).
  destruct (H7 Ho id j Hi) as [Hc|[Hj Hid]]; [now left|].
  destruct (reach_waits user read_some m s HU Hm Hr Hct j Hj) as [(A & B)|B]; [|now right; left].
  right. right. split; [exact A|]. intros n Hn. apply B. exists n. now rewrite Hv.
Qed.
Print Assumptions C14_answered_or_waiting_partial.

(** The loop of the library makes progress: each iteration with a pending
    request calls its handler or leaves the loop to wait for the transport;
    without a pending request it leaves the loop. *)
Theorem C14_loop_iteration_progress : forall user read_some m s s',
  m <> [] -> reach user read_some m s -> ct s = Loop -> step user read_some s XTick = Ret s' ->
  match job s with
  | Some _ => called (jobid s) (tr s') \/ (ct s' = Idle /\ waiting s' = true)
  | None => ct s' = Idle
  end.
Proof.
  intros user read_some m s s' Hm Hr Hct H.
  pose proof (reach_inv user read_some m s Hm Hr) as HI. cbn [step] in H.
  assert (H0 : 0 < length m) by (destruct m; [congruence|cbn; lia]).
  destruct (job s) as [j|] eqn:Ej.
  - destruct (tick_cases user read_some (length m) s j s' H0 HI Hct Ej H) as (_ & [(err & n & pre & mid & _ & Ht & _)|(_ & A & B & _)]).
    + left. exists err, n, (rb_view (buf s)). rewrite Ht. apply in_or_app. right. apply in_or_app. right. now left.
    + right. auto.
  - unfold tick in H. rewrite Ej in H. injection H as <-. reflexivity.
Qed.
Print Assumptions C14_loop_iteration_progress.

Definition ex_user1 (t : list ev) : list uact :=
  match t with
  | EvCall 0 0%Z n _ :: _ => [UConsume n; URead (JAtLeast 3)]
  | _ => []
  end.
Definition ex_sched1 : list xev := firstn 9 ex_sched.
Definition ex_state1 : st := match runx ex_user1 ex_rs (bs_init ex_mem) ex_sched1 with Some s => s | None => bs_init ex_mem end.
Example C14_nonvacuous : no_reread_on_local_error ex_user1 /\ reach ex_user1 ex_rs ex_mem ex_state1 /\
  one_at_a_time (tr ex_state1) /\ ct ex_state1 = Idle /\ In (EvRequest 1 (JAtLeast 3)) (tr ex_state1) /\
  ~ called 1 (tr ex_state1) /\ called 0 (tr ex_state1).
Proof.
  split; [|split; [|split; [|split; [|split; [|split]]]]].
  - intros id err n v t He _ j. destruct id as [|id]; cbn; [|intros []].
    destruct err; [elim He; reflexivity| |]; intros [].
  - apply (runx_reach _ _ _ ex_sched1 (bs_init ex_mem)); [apply reach_init|]. vm_compute. reflexivity.
  - vm_compute tr. cbn [one_at_a_time]. repeat split; auto.
    + intros id (j & H). cbn in H. decompose [or] H; try discriminate; try contradiction. match goal with Hq : EvRequest _ _ = EvRequest _ _ |- _ => injection Hq as <- <- end.
      eexists _, _, _. right. left. reflexivity.
    + intros id (j & []).
  - reflexivity.
  - vm_compute tr. cbn. tauto.
  - vm_compute tr. intros (e & n & v & H). cbn in H. decompose [or] H; try discriminate; contradiction.
  - vm_compute tr. eexists _, _, _. cbn. do 5 right. left. reflexivity.
Qed.

(** C14 is violated by handlers that start a new read when they are told that
    the buffer is full (or that read_some failed): fill_buffer (lines 73-78 and
    86-89) calls the handler after which run_read returns, so the new request
    is neither answered nor is the transport asked, although the unread bytes
    fulfil it. *)
Definition lost_user (t : list ev) : list uact :=
  match t with
  | EvCall 0 _ _ _ :: _ => [URead (JAtLeast 2)]
  | _ => []
  end.
Definition lost_sched : list xev := [XUser (URead (JUntil [10]%N)); XTick; XDeliver [65; 66]%N; XTick].
Definition lost_state : st := match runx lost_user ex_rs (bs_init [0; 0]%N) lost_sched with Some s => s | None => bs_init [0%N] end.
Theorem C14_request_lost_refuted : exists user read_some m s id j n,
  m <> [] /\ reach user read_some m s /\ one_at_a_time (tr s) /\ ct s = Idle /\
  In (EvRequest id j) (tr s) /\ ~ called id (tr s) /\ ~ In EvClose (tr s) /\ waiting s = false /\
  fulfils j (skipn (consumed (tr s)) (delivered (tr s))) n.
Proof.
  exists lost_user, ex_rs, [0; 0]%N, lost_state, 1, (JAtLeast 2), 2.
  split; [discriminate|]. split.
  { apply (runx_reach _ _ _ lost_sched (bs_init [0; 0]%N)); [apply reach_init|]. vm_compute. reflexivity. }
  assert (Ht : tr lost_state = [EvRequest 1 (JAtLeast 2); EvCall 0 MESSAGE_TOO_LONG 0 [65; 66]%N; EvDeliver [65; 66]%N;
    EvReadSome SUCCESS; EvRequest 0 (JUntil [10]%N)]) by (vm_compute; reflexivity).
  rewrite Ht. repeat match goal with |- _ /\ _ => split end; try reflexivity.
  - cbn [one_at_a_time]. repeat split; auto.
    + intros id (j & H). cbn in H. decompose [or] H; try discriminate; try contradiction. match goal with Hq : EvRequest _ _ = EvRequest _ _ |- _ => injection Hq as <- <- end.
      eexists _, _, _. left. reflexivity.
    + intros id (j & []).
  - now left.
  - intros (e & n & v & H). cbn in H. decompose [or] H; try discriminate; contradiction.
  - intros H. cbn in H. decompose [or] H; try discriminate; contradiction.
  - cbn. lia.
Qed.
Print Assumptions C14_request_lost_refuted.

(** C17, first half: a close called by a handler closes the underlying stream
    exactly once, after the handler's own calls and before anything else. *)
Theorem C17_close_in_handler_takes_effect : forall user read_some m s after id e n v old,
  m <> [] -> reach user read_some m s -> tr s = after ++ EvCall id e n v :: old ->
  In UClose (user (EvCall id e n v :: old)) ->
  exists after1 mid, after = after1 ++ EvClose :: mid /\ did (user (EvCall id e n v :: old)) mid.
Proof.
  intros user read_some m s after id e n v old Hm Hr Ht Hc.
  apply (reach_closed user read_some m s Hm Hr after id e n v old Ht).
  unfold closes. apply existsb_exists. exists UClose. auto.
Qed.
Print Assumptions C17_close_in_handler_takes_effect.

(** C17, second half: after the underlying stream was closed, as long as the
    user issues no new request, no handler is called and the transport is not
    read; it is not closed again unless the user calls close again. *)
Theorem C17_closed_is_final_partial : forall user read_some m s after old,
  m <> [] -> reach user read_some m s -> tr s = after ++ EvClose :: old ->
  (forall id j, ~ In (EvRequest id j) after) ->
  (forall id e n v, ~ In (EvCall id e n v) after) /\ (forall e, ~ In (EvReadSome e) after) /\
  (~ In EvCloseCall after -> ~ In EvClose after).
Proof.
  intros user read_some m s after old Hm Hr Ht Hn.
  apply (reach_quiesced user read_some m s Hm Hr after old Ht Hn).
Qed.
Print Assumptions C17_closed_is_final_partial.

Example C17_nonvacuous : exists after old, tr ex_state = after ++ EvClose :: old /\
  (forall id j, ~ In (EvRequest id j) after) /\
  exists a2 v old2, old = a2 ++ EvCall 2 SUCCESS 2 v :: old2 /\ In UClose (ex_user (EvCall 2 SUCCESS 2 v :: old2)).
Proof.
  rewrite ex_history. exists []. eexists. split; [reflexivity|]. split; [intros ? ? []|].
  do 4 eexists. { instantiate (3 := [_; _; _; _]). reflexivity. } cbn. tauto.
Qed.

(** C17 is violated in its last clause: a second close from outside a handler
    closes the underlying stream a second time. *)
Theorem C17_second_close_refuted : exists user read_some m s,
  m <> [] /\ reach user read_some m s /\ tr s = [EvClose; EvCloseCall; EvClose; EvCloseCall].
Proof.
  exists (fun _ => []), ex_rs, [0%N].
  eexists. split; [discriminate|]. split.
  - apply (runx_reach _ _ _ [XUser UClose; XUser UClose] (bs_init [0%N])); [apply reach_init|]. vm_compute. reflexivity.
  - reflexivity.
Qed.
Print Assumptions C17_second_close_refuted.

(** The library code itself never leaves the buffer (and its loop iteration is
    always defined), if nobody consumes more bytes than he was offered. *)
Theorem C10_no_undefined_behaviour : forall user read_some m s x,
  polite user -> m <> [] -> reach user read_some m s -> enabled s x ->
  (forall n, x = XUser (UConsume n) -> consumed (tr s) + n <= length (delivered (tr s))) ->
  exists s', step user read_some s x = Ret s'.
Proof.
  intros user read_some m s x HP Hm Hr He Hx. pose proof (reach_inv user read_some m s Hm Hr) as HI.
  apply (step_ok user read_some (length m)); auto. intros n Hn. specialize (Hx n Hn).
  destruct HI as ((_ & _ & Hv & _) & _). rewrite Hv, skipn_length. lia.
Qed.
Print Assumptions C10_no_undefined_behaviour.

Example C10_polite_nonvacuous : polite (fun t => match t with EvCall _ _ _ v :: _ => [UConsume (length v); URead (JAtMost 1)] | _ => [] end).
Proof. intros id err n v t. cbn. lia. Qed.

(** The hypotheses of C10 - C13 are met by the example history. *)
Example C10_C13_nonvacuous :
  reach ex_user ex_rs ex_mem ex_state /\
  (exists after v old, tr ex_state = after ++ EvCall 1 SUCCESS 3 v :: old /\ In (EvRequest 1 (JAtLeast 3)) old) /\
  (exists after v old, tr ex_state = after ++ EvCall 0 SUCCESS 4 v :: old /\ In (EvRequest 0 (JUntil [13; 10]%N)) old) /\
  (exists after v old, tr ex_state = after ++ EvCall 2 SUCCESS 2 v :: old /\ In (EvRequest 2 (JAtMost 4)) old).
Proof.
  split; [exact ex_reach|]. rewrite ex_history.
  repeat match goal with |- _ /\ _ => split end; do 3 eexists; (split; [match goal with
    | |- _ = _ ++ EvCall 1 _ _ _ :: _ => instantiate (3 := [_; _; _; _; _; _; _; _])
    | |- _ = _ ++ EvCall 0 _ _ _ :: _ => instantiate (3 := [_; _; _; _; _; _; _; _; _; _; _; _; _; _; _])
    | _ => instantiate (3 := [_; _; _; _; _]) end; reflexivity|cbn; tauto]).
Qed.
