(** C28: which write calls are refused. *)
From Verif Require Import Base Utf8Model MaskModel MaskSpec EndianModel EndianSpec EndianProofs
  WsModel WsFrame WsSendProofs WsRecvSpec WsFrameSpec WsSend WsHistory WsTrace WsExec WsRecvProofs WsRecvReach WsClean WsRecvProps WsRecvProps2
  WsQueue WsOutSpec WsArrive WsWire WsOut WsOutStep WsOutReach WsOutProps.
Open Scope N_scope.
Set Warnings "-unused-intro-pattern".

(** The call returned an error and did nothing else: nothing is sent, queued or changed, no handler is called. *)
Definition refused (C : cfg) (c : conf) (a : api) (ch : choice) (err : Z) : Prop :=
  err <> CIO_SUCCESS /\ step C c (XApi a ch) = Ret (log (log (fst c) (EvCall a)) (EvRefuse err), snd c).
(** The call stored a write. *)
Definition accepted (C : cfg) (c : conf) (a : api) (ch : choice) : Prop :=
  exists c' j len, step C c (XApi a ch) = Ret c' /\ exists n, accepts (tr (fst c')) = accepts (tr (fst c)) ++ [(n, j, len)].

Definition handler_of (a : api) : option (option nat) :=
  match a with AFirst id _ _ _ _ | APing id _ | APong id _ | AClose id _ _ => Some id | _ => None end.

(** In every state whatsoever: calls without a handler, and pings and pongs of more than 125 bytes. *)
Theorem ws_write_without_handler_refused : forall C s k a ch, handler_of a = Some None -> refused C (s, k) a ch CIO_INVALID_ARGUMENT.
Proof. intros C s k a ch H. split; [discriminate|]. destruct a; cbn in H; try discriminate; injection H as ->; reflexivity. Qed.
Print Assumptions ws_write_without_handler_refused.

Theorem ws_long_ping_refused : forall C s k id c ch, 125 < N.of_nat (length (chain_bytes c)) ->
  refused C (s, k) (APing (Some id) (Some c)) ch CIO_INVALID_ARGUMENT /\ refused C (s, k) (APong (Some id) (Some c)) ch CIO_INVALID_ARGUMENT.
Proof.
  intros C s k id c ch L. assert (X : payload_size_in_limit (Some c) SMALL_FRAME_SIZE = false) by (cbn; apply N.leb_gt; exact L).
  split; (split; [discriminate|]); cbn [step call fst snd]; unfold write_ping_or_pong; rewrite X; reflexivity.
Qed.
Print Assumptions ws_long_ping_refused.

(** No ping is waiting for its handler to be called. *)
Definition of_ping (x : jname * nat) : bool := match fst x with JPing => true | _ => false end.
Definition ping_idle (t : list ev) : Prop := filter of_ping (dones t) = filter of_ping (musers (accepts t)).

Lemma pend_calm t l k q : base t l k q -> user_control k -> pend k = [].
Proof. intros B [-> | [k' ->]]; [reflexivity|]. exact (b_top _ _ _ _ B). Qed.
Lemma waiting C s k q (n : jname) (f : jname * nat -> bool) : (forall x, f x = true <-> fst x = n) -> mp n = true -> base (T s) (tr s) k q -> normal C (T s) (tr s) (selfc s) k q -> pend k = [] ->
  (filter f (dones (tr s)) = filter f (musers (accepts (tr s))) <-> ~ In n q).
Proof.
  intros F M [b1 b2 b3] N P. rewrite b3, P. cbn [app]. rewrite filter_app. split.
  - intros X IN. rewrite <- (app_nil_r (filter f (dones (tr s)))) in X at 1. apply app_inv_head in X. symmetry in X.
    assert (Y : In n q -> filter f (qusers (T s) q) <> []).
    { clear X. intros Y. assert (Z : exists id, jhandler (jobs (T s) n) = Some (HUser id)). { destruct (n_ready _ _ _ _ _ _ N n Y) as (_ & Z). destruct n; try discriminate M; destruct Z as [_ Z]; exact Z. }
      destruct Z as [id Z]. apply in_split in Y. destruct Y as (q1 & q2 & ->). unfold qusers. rewrite flat_map_app, filter_app. cbn [flat_map]. rewrite M, Z. cbn [usr app filter].
      replace (f (n, id)) with true by (symmetry; apply F; reflexivity). destruct (filter f (flat_map _ q1)); discriminate. }
    exact (Y IN X).
  - intros NI. assert (X : filter f (qusers (T s) q) = []); [|rewrite X, app_nil_r; reflexivity]. clear - F NI. induction q as [|m q IH]; [reflexivity|].
    unfold qusers. cbn [flat_map]. rewrite filter_app. fold (qusers (T s) q). rewrite IH by (intros X; apply NI; right; exact X). rewrite app_nil_r.
    assert (NM : forall id, f (m, id) = false). { intros id. destruct (f (m, id)) eqn:E; [|reflexivity]. apply F in E. destruct NI. left. exact E. }
    destruct (mp m); [|reflexivity]. destruct (jhandler _) as [[id|]|]; try reflexivity. cbn. rewrite NM. reflexivity.
Qed.

(** A message write is refused exactly while an earlier chunk is waiting for its handler to be called; the same for pings. *)
Theorem ws_busy_write_refused_partial : forall C s k id flen p lf bin c ch, cfg_ok C -> reach C proper (s, k) -> no_error (tr s) -> user_control k -> choice_ok ch ->
  api_ok (AFirst (Some id) flen (Some p) lf bin) -> api_ok (APing (Some id) (Some c)) -> total_size c <= 125 ->
  (~ msg_idle (tr s) -> refused C (s, k) (AFirst (Some id) flen (Some p) lf bin) ch CIO_OPERATION_NOT_PERMITTED) /\
  (msg_idle (tr s) -> accepted C (s, k) (AFirst (Some id) flen (Some p) lf bin) ch) /\
  (~ ping_idle (tr s) -> refused C (s, k) (APing (Some id) (Some c)) ch CIO_OPERATION_NOT_PERMITTED) /\
  (ping_idle (tr s) -> accepted C (s, k) (APing (Some id) (Some c)) ch).
Proof.
  intros C s k id flen p lf bin c ch HC H NE UC CH A1 A2 LC. pose proof (no_error_cbe _ _ _ _ H NE) as CB.
  destruct (reach_out C HC s k H) as (q & B & I). rewrite CB in I. destruct I as [V|[(o & k' & -> & EO) _]]; [|exfalso; destruct UC as [UC | [k'' UC]]; [discriminate|]; injection UC as -> _; exact EO].
  pose proof (pend_calm _ _ _ _ B UC) as P. pose proof (b_rep _ _ _ _ B) as RP. pose proof (n_mask _ _ _ _ _ _ V) as MK.
  assert (W1 : msg_idle (tr s) <-> ~ In JMsg q) by (apply (waiting C s k q JMsg of_msg); try assumption; try reflexivity; intros [m i]; cbn; destruct m; split; intros X; first [reflexivity|discriminate X]).
  assert (W2 : ping_idle (tr s) <-> ~ In JPing q) by (apply (waiting C s k q JPing of_ping); try assumption; try reflexivity; intros [m i]; cbn; destruct m; split; intros X; first [reflexivity|discriminate X]).
  assert (BUSY : forall n, In n q -> exists x, jwbh (jobs (T s) n) = Some x). { intros n X. destruct (n_ready _ _ _ _ _ _ V n X) as [Y _]. destruct (jwbh (jobs (T s) n)); [eauto|congruence]. }
  assert (FREE : forall n, mp n = true -> ~ In n q -> jwbh (jobs (T s) n) = None) by (intros n; apply (n_free _ _ _ _ _ _ V)).
  assert (DEC : forall n, {In n q} + {~ In n q}) by (intros n; apply in_dec, jname_dec).
  assert (RJ : forall n j, jnext j = jnext (jobs (T s) n) -> rep (set_job (T s) n j) q) by (intros n j X; apply set_job_rep; assumption).
  assert (ACC : forall a s1 n j len kerr, call C s a ch = enqueue_job C s1 n len ch kerr -> (exists x, enqueue_job C s1 n len ch kerr = Ret x) -> tr s1 = EvAccept n j len :: EvCall a :: tr s -> accepted C (s, k) a ch).
  { intros a s1 n j len kerr E1 ([s2 os] & E2) E3. unfold accepted. cbn [step fst snd]. unfold lift. rewrite E1, E2. cbn [obind fst snd]. exists (s2, os ++ k), j, len. split; [reflexivity|]. exists n.
    apply enqueue_frame in E2. destruct E2 as (_ & Q2 & _). cbn [fst]. destruct Q2 as [Q2|(c2 & Q2)].
    - rewrite Q2, E3. unfold accepts. cbn [collect acc_of]. rewrite app_nil_r. reflexivity.
    - rewrite Q2, E3. unfold accepts. cbn [collect acc_of]. rewrite !app_nil_r. reflexivity. }
  split; [|split; [|split]].
  - intros X. assert (Y : In JMsg q) by (destruct (DEC JMsg) as [Y|Y]; [exact Y|destruct X; apply W1, Y]). destruct (BUSY _ Y) as [x Z]. split; [discriminate|]. cbn [step call fst snd log T]. rewrite Z. reflexivity.
  - intros X. pose proof (FREE JMsg eq_refl (proj1 W1 X)) as Z. destruct A1 as [[a1 a2] a3].
    set (kind := if fragw (T s) then if bin then BINARY_FRAME else TEXT_FRAME else CONTINUATION_FRAME). assert (KB : kind < 16) by (unfold kind; destruct (fragw (T s)); [destruct bin|]; reflexivity).
    set (j := Job (jnext (jobs (T s) JMsg)) (Some p) (Some (HUser id)) kind lf false SHMessage).
    set (s1 := log (set_T (log s (EvCall (AFirst (Some id) flen (Some p) lf bin))) (set_fragw (set_job (T s) JMsg j) lf)) (EvAccept JMsg j flen)).
    apply (ACC _ s1 JMsg j flen (fun e => [ORet e])).
    + cbn [call log T]. rewrite Z. unfold s1, j, kind. destruct (fragw (T s)), lf; reflexivity.
    + apply enqueue_defined with (q := q); try assumption.
      * eapply rep_ext; [| | |exact (RJ JMsg j eq_refl)]; reflexivity.
      * cbn [s1 T log set_T jobs set_fragw set_job set_jobs]. rewrite upd_same. split; [intros _; exact KB|]. exists p. auto.
    + reflexivity.
  - intros X. assert (Y : In JPing q) by (destruct (DEC JPing) as [Y|Y]; [exact Y|destruct X; apply W2, Y]). destruct (BUSY _ Y) as [x Z]. split; [discriminate|]. cbn [step call fst snd]. unfold write_ping_or_pong.
    replace (payload_size_in_limit (Some c) SMALL_FRAME_SIZE) with true by (symmetry; apply N.leb_le; exact LC). cbn [negb log T]. rewrite Z. reflexivity.
  - intros X. pose proof (FREE JPing eq_refl (proj1 W2 X)) as Z. destruct A2 as [a1 a2].
    set (j := Job (jnext (jobs (T s) JPing)) (Some c) (Some (HUser id)) PING_FRAME true (jcont (jobs (T s) JPing)) SHMessage).
    set (s1 := log (set_T (log s (EvCall (APing (Some id) (Some c)))) (set_job (T s) JPing j)) (EvAccept JPing j (total_size c))).
    apply (ACC _ s1 JPing j (total_size c) (fun e => [])).
    + cbn [call]. unfold write_ping_or_pong. replace (payload_size_in_limit (Some c) SMALL_FRAME_SIZE) with true by (symmetry; apply N.leb_le; exact LC). cbn [negb log T]. rewrite Z. reflexivity.
    + apply enqueue_defined with (q := q); try assumption; [apply RJ; reflexivity|]. cbn [s1 T log set_T jobs set_job set_jobs]. rewrite upd_same. split; [intros _; reflexivity|]. exists c. auto.
    + reflexivity.
Qed.
Print Assumptions ws_busy_write_refused_partial.

(** Both outcomes occur. *)
Example busy_example : exists s k, reach cli proper (s, k) /\ no_error (tr s) /\ user_control k /\ ~ msg_idle (tr s) /\ ping_idle (tr s).
Proof. go_it cli [say 1 [72; 105]]. split; [not_there|]. split; [left; reflexivity|]. split; [intros X; discriminate X|reflexivity]. Qed.

(** ** The calls that are not refused *)
Definition bytes_sent (t : list ev) : list N := concat (map (fun x => chain_bytes (snd x)) (sends t)).
Definition first_part (id : nat) (declared : N) (l : list N) : act := XApi (AFirst (Some id) declared (Some [(100%nat, l)]) true false) ch0.
Definition next_part (id : nat) (l : list N) : act := XApi (ACont (Some id) (Some [(100%nat, l)])) ch0.

(** Continuing a message that was never started: the bytes are sent without any frame header. *)
Theorem ws_continuation_of_nothing_accepted_refuted : exists s k, reach srv proper (s, k) /\
  bytes_sent (tr s) = [72; 105] /\ inflight (T s) = 1%nat /\ tr s = [EvSend JMsg [(100%nat, [72; 105])]] ++ tl (tr s) /\ length (accepts (tr s)) = 1%nat.
Proof. go_it srv [next_part 1 [72; 105]]. repeat split. Qed.
Print Assumptions ws_continuation_of_nothing_accepted_refuted.

(** More bytes than declared: a frame of length 1 is announced, two bytes are sent. *)
Theorem ws_more_than_declared_accepted_refuted : exists s k, reach srv proper (s, k) /\
  bytes_sent (tr s) = enc_header false true 1 1 [] ++ [72; 105] /\ inflight (T s) = 1%nat.
Proof. go_it srv [first_part 1 1 [72; 105]]. repeat split. Qed.
Print Assumptions ws_more_than_declared_accepted_refuted.

(** A new message while the frame of the previous one is unfinished: 4 bytes were declared, 2 were written. *)
Theorem ws_new_message_inside_frame_accepted_refuted : exists s k, reach srv proper (s, k) /\
  bytes_sent (tr s) = (enc_header false true 1 4 [] ++ [72; 105]) ++ enc_frame false (Frame true 1 [] [33]) /\ no_error (tr s) /\ k = [].
Proof. go_it srv ([first_part 1 4 [72; 105]; XWritten 0] ++ ops 4 ++ [first_part 2 1 [33]]). split; [reflexivity|]. split; [not_there|reflexivity]. Qed.
Print Assumptions ws_new_message_inside_frame_accepted_refuted.

(** A reason of 124 bytes: the close frame is sent, with 123 of them. *)
Theorem ws_long_reason_truncated_refuted : exists s k, reach srv proper (s, k) /\
  In (EvCall (AClose (Some 1%nat) 1000 (Some (repeat 65 124)))) (tr s) /\ bytes_sent (tr s) = enc_frame false (Frame true 8 [] (3 :: 232 :: repeat 65 123)).
Proof. go_it srv [XApi (AClose (Some 1%nat) 1000 (Some (repeat 65 124))) ch0]. split; [cbn; tauto|reflexivity]. Qed.
Print Assumptions ws_long_reason_truncated_refuted.

(** A continuation while the previous chunk is still waiting to be written is accepted and overwrites it: the waiting chunk is
    never sent, and handler 2 is never called. *)
Theorem ws_continuation_overwrites_chunk_refuted : exists s k, reach srv (fun _ _ => True) (s, k) /\ k = [] /\ inflight (T s) = 0%nat /\ no_error (tr s) /\
  musers (accepts (tr s)) = [(JPing, 1%nat); (JMsg, 2%nat); (JMsg, 3%nat)] /\ dones (tr s) = [(JPing, 1%nat); (JMsg, 3%nat)] /\
  bytes_sent (tr s) = enc_frame false (Frame true 9 [] [1]) ++ [33].
Proof.
  destruct (exec srv (fun _ _ => true) start ([ping 1 [1]; first_part 2 3 [72; 105]; next_part 3 [33]; XWritten 0] ++ ops 4 ++ [XWritten 0] ++ ops 4)) as [[s k]|] eqn:E; [|vm_compute in E; discriminate E].
  assert (H : reach srv (fun _ _ => True) (s, k)) by (eapply exec_reach; [|apply start_reach|exact E]; intros; exact I). vm_compute in E.
  match type of E with Some (?a, ?b) = _ => assert (s = a) by congruence; assert (k = b) by congruence; clear E; exists s, k; split; [exact H|clear H; subst s k] end.
  split; [reflexivity|]. split; [reflexivity|]. split; [not_there|]. repeat split.
Qed.
Print Assumptions ws_continuation_overwrites_chunk_refuted.
