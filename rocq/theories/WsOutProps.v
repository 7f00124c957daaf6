(** C27: accepted writes go out in order, one at a time, and their handlers are called once. *)
From Verif Require Import Base Utf8Model MaskModel MaskSpec EndianModel EndianSpec EndianProofs
  WsModel WsFrame WsSendProofs WsRecvSpec WsFrameSpec WsSend WsHistory WsTrace WsExec WsRecvProofs WsRecvReach WsClean WsRecvProps WsRecvProps2
  WsQueue WsOutSpec WsArrive WsWire WsOut WsOutStep WsOutReach.
Open Scope N_scope.
Set Warnings "-unused-intro-pattern".

(** The chain handed to the stream is the payload of the accepted write, masked by a client
    with some key, behind a header (continuation chunks have none). *)
Definition carries (C : cfg) (a : ent) (x : jname * chain) : Prop :=
  fst x = ent_name a /\
  exists h key, length key = 4%nat /\ (jcont (ent_job a) = true -> h = []) /\
    chain_bytes (snd x) = h ++ (if is_server C then payload (ent_job a) else rfc_mask key (payload (ent_job a))).

Lemma carried_carries C m0 es ss m : carried C m0 es ss m -> mask_ok m /\ Forall2 (carries C) es ss.
Proof.
  intros H. induction H as [M0|es ss m n j len L c m' H [M IH] HL W]; [split; [exact M0|constructor]|]. split; [eapply wire_mask; eassumption|].
  apply Forall2_app; [exact IH|]. constructor; [|constructor]. split; [reflexivity|]. unfold ent_job. cbn [fst snd]. unfold wire in W. destruct (jcont j).
  - destruct W as [W _]. exists [], m. split; [apply M|]. split; [reflexivity|]. rewrite W. destruct (is_server C); reflexivity.
  - destruct W as (key & K & W & _). exists (enc_header (negb (is_server C)) (jlast j) (jtype j) L key), key. split; [apply K|]. split; [discriminate|]. rewrite W. destruct (is_server C); reflexivity.
Qed.

Section P.
Variable C : cfg.
Hypothesis HC : cfg_ok C.


Lemma inv_weak s k : reach C proper (s, k) -> no_error (tr s) -> weak C (tr s) /\ (inflight (T s) <= 1)%nat.
Proof.
  intros H N. pose proof (no_error_cbe _ _ _ _ H N) as CB. destruct (reach_out C HC s k H) as (q & _ & I). rewrite CB in I. destruct I as [I|(_ & I & J)].
  - split; [eapply normal_weak; exact I|eapply normal_inflight; exact I].
  - split; assumption.
Qed.
Lemma in_turn_split l1 : forall n c l0, in_turn (l1 ++ EvSend n c :: l0) -> dones l0 = musers (firstn (length (sends l0)) (accepts l0)).
Proof. induction l1 as [|e l1 IH]; intros n c l0 H; cbn in H; [apply H|]. destruct e; try exact (IH _ _ _ H). exact (IH _ _ _ (proj2 H)). Qed.

(** In the normal phase no step other than the arrival of bytes can go wrong. *)
Lemma enqueue_defined s n len ch kerr q : rep (T s) q -> job_ok (jobs (T s) n) -> len <= SIZE_MAX -> choice_ok ch -> mask_ok (cmask (T s)) ->
  exists x, enqueue_job C s n len ch kerr = Ret x.
Proof.
  intros R J L CH M. unfold enqueue_job. destruct (first (T s)) as [f|] eqn:F.
  - destruct (rep_cons _ _ _ R F) as (r & -> & X). rewrite X. eauto.
  - set (s0 := set_T s _). destruct (send_defined C HC s0 n len ch) as ([s1 r] & E); try assumption. rewrite E. cbn [obind snd fst]. destruct r; eauto.
Qed.
Lemma close_job_ok s code reason h sh ch : match reason with None => True | Some l => bytes_ok l end ->
  job_ok (jobs (T (prepare_close_job C s code reason h sh ch)) JClose) /\ close_size (prepare_close_job C s code reason h sh ch) <= SIZE_MAX.
Proof.
  intros B. destruct (close_chain C s code reason h sh ch B) as (b & JB & CS & BO & BL & _). assert (L : N.of_nat (length b) <= SIZE_MAX) by (unfold SIZE_MAX; lia).
  rewrite CS. split; [|exact L]. rewrite JB. split; [intros _; reflexivity|]. eexists. split; [reflexivity|]. unfold total_size, chain_bytes. cbn [map concat snd]. rewrite app_nil_r. split; assumption.
Qed.
End P.

(** ** The theorems *)

(** The chains handed to the stream carry the accepted writes, one chain for each, in the order
    in which the writes were accepted (messages, pings, automatic pongs and close frames alike). *)
Theorem ws_writes_in_order : forall C s k, cfg_ok C -> reach C proper (s, k) -> no_error (tr s) ->
  exists A B, accepts (tr s) = A ++ B /\ Forall2 (carries C) A (sends (tr s)).
Proof.
  intros C s k HC H N. destruct (inv_weak C HC s k H N) as [(_ & _ & m0 & A & B & m & E & W) _]. exists A, B. split; [exact E|]. apply (carried_carries _ _ _ _ _ W).
Qed.
Print Assumptions ws_writes_in_order.

(** One at a time: the stream never holds more than one write, and when a chain is handed to it, the handlers
    of all writes handed to it before were called. *)
Theorem ws_one_write_at_a_time : forall C s k, cfg_ok C -> reach C proper (s, k) -> no_error (tr s) ->
  (inflight (T s) <= 1)%nat /\
  forall l1 n c l0, tr s = l1 ++ EvSend n c :: l0 -> dones l0 = musers (firstn (length (sends l0)) (accepts l0)).
Proof.
  intros C s k HC H N. destruct (inv_weak C HC s k H N) as [(_ & W & _) I]. split; [exact I|]. intros l1 n c l0 E. rewrite E in W. eapply in_turn_split. exact W.
Qed.
Print Assumptions ws_one_write_at_a_time.

(** The handlers of messages and pings are called in the order of the accepted writes, each at most once: also
    when the connection fails and the waiting writes are aborted. *)
Theorem ws_write_handlers_in_order : forall C s k, cfg_ok C -> reach C proper (s, k) ->
  exists rest, musers (accepts (tr s)) = dones (tr s) ++ rest.
Proof. intros C s k HC H. destruct (reach_out C HC s k H) as (q & B & _). eexists. apply (b_usr _ _ _ _ B). Qed.
Print Assumptions ws_write_handlers_in_order.

(** None is forgotten: whenever the library has nothing more to do, every handler was called, or the
    connection did not fail and the stream holds a write. *)
Theorem ws_no_write_forgotten : forall C s, cfg_ok C -> reach C proper (s, []) ->
  dones (tr s) = musers (accepts (tr s)) \/ (no_error (tr s) /\ inflight (T s) = 1%nat).
Proof.
  intros C s HC H. destruct (reach_out C HC s [] H) as (q & B & I). destruct (cbe s) eqn:CB.
  - left. destruct I as [(top & c & r & k' & X & _)|I]; [destruct top; discriminate X|]. symmetry. apply (da_u _ _ _ (after_in _ _ _ _ B I)).
  - destruct I as [I|[(o & k' & X & _) _]]; [|discriminate X]. pose proof (tok_in C _ _ _ _ _ I Logic.I) as TK. cbn in TK. destruct q as [|n q].
    + left. pose proof (b_usr _ _ _ _ B) as U. cbn in U. rewrite app_nil_r in U. symmetry. exact U.
    + right. split; [|cbn [one] in TK; lia]. intros err reason X. rewrite (reported_failed C _ _ _ _ _ H X) in CB. discriminate.
Qed.
Print Assumptions ws_no_write_forgotten.

(** Nothing the application or the stream does (receiving aside) runs into undefined behaviour, as long as no error was reported. *)
Theorem ws_writes_defined : forall C s k x, cfg_ok C -> reach C proper (s, k) -> no_error (tr s) ->
  enabled (s, k) x -> proper (s, k) x -> match x with XFire _ _ => False | _ => True end -> exists c', step C (s, k) x = Ret c'.
Proof.
  intros C s k x HC H N EN PR NF. pose proof (no_error_cbe _ _ _ _ H N) as CB. destruct (reach_out C HC s k H) as (q & B & I). rewrite CB in I.
  destruct x as [ch|a ch|f ch|e|e]; [| |destruct NF|eexists; reflexivity..].
  - destruct EN as [KN CH]. destruct k as [|o k]; [congruence|]. cbn [step]. unfold lift.
    enough (X : exists y, run_op C s o ch = Ret y) by (destruct X as [y ->]; eexists; reflexivity).
    destruct I as [V|[(o' & k' & E & EO) _]].
    + destruct o as [| |err code reason| |code reason| | |sh err|n h err c|err c|j|err| |err]; cbn [run_op]; try (eexists; reflexivity).
      * rewrite CB. eauto.
      * destruct (dequeue_job (T s)) as [[n|] t]; eauto.
      * destruct (n_top _ _ _ _ _ _ V).
      * destruct (hasrh s); eauto.
      * pose proof (tok_in C _ _ _ _ _ V Logic.I) as TK. unfold nstream, nnext in TK. cbn [filter is_stream is_next length] in TK.
        destruct q as [|n q]; [cbn [one] in TK; lia|]. pose proof (n_sh _ _ _ _ _ _ V) as [_ SH]. pose proof (n_ready _ _ _ _ _ _ V n (or_introl eq_refl)) as [WB RD].
        destruct (jwbh (jobs (T s) n)) as [c|] eqn:W; [|congruence]. rewrite (pop_form _ _ _ _ (b_rep _ _ _ _ B) W). cbn [obind]. fold (popped (T s) n q).
        rewrite popped_handler, SH. destruct (jsh (jobs (T s) n)) eqn:SN; try (eexists; reflexivity).
        destruct n; try (destruct RD as [_ [id ->]]; eexists; reflexivity); [destruct RD as [_ ->]; eexists; reflexivity|].
        destruct RD as [[X _]|[X _]]; congruence.
      * unfold call_handler. destruct h as [[id|]|]; eauto.
      * unfold call_handler. destruct (jhandler _) as [[id|]|]; eauto.
      * destruct j as [n|]; [|eauto]. pose proof (n_next _ _ _ _ _ _ V n (or_introl eq_refl)) as HD. destruct q as [|n' q]; [discriminate|]. injection HD as ->.
        pose proof (n_ready _ _ _ _ _ _ V n (or_introl eq_refl)) as [WB RD].
        pose proof (n_wires _ _ _ _ _ _ V) as (m0 & D & Q & w1 & w2 & w3 & w4 & w5).
        pose proof (tok_in C _ _ _ _ _ V Logic.I) as TK. unfold nstream, nnext in TK. cbn [filter is_stream is_next length one] in TK.
        assert (HS0 : hs (T s) (OMsgNext (Some n) :: k) = 0%nat). { unfold hs, nstream. cbn [filter is_stream]. lia. }
        rewrite HS0 in w4. cbn [skipn] in w4. destruct Q as [|a Q]; [discriminate|]. cbn [map] in w2. injection w2 as w2 _. inversion w4 as [|? ? SC4 _]; subst.
        assert (EO : ent_ok a). { pose proof (n_ents _ _ _ _ _ _ V) as X. rewrite w1 in X. apply Forall_app in X. destruct X as [_ X]. inversion X; assumption. }
        assert (JO : job_ok (jobs (T s) (ent_name a))) by (eapply ok_content; [exact SC4|apply EO]). pose proof JO as (_ & c & W & _ & Z). rewrite W.
        destruct (send_defined C HC s (ent_name a) (total_size c) ch JO Z CH (n_mask _ _ _ _ _ _ V)) as ([s1 r] & E). rewrite E. cbn [obind fst snd]. destruct r; eauto.
      * destruct (negb _); eauto.
    + injection E as <- <-. destruct o; try (destruct EO; fail); cbn [run_op].
      * rewrite CB. eauto.
      * destruct EO as [-> _]. cbn. eauto.
      * destruct (negb _); eauto.
  - destruct EN as (UC & HK & CH & AO). cbn [step]. unfold lift.
    enough (X : exists y, call C s a ch = Ret y) by (destruct X as [y ->]; eexists; reflexivity).
    destruct I as [V|[(o & k' & -> & EO) _]]; [|exfalso; destruct UC as [UC | [k'' UC]]; [discriminate|]; injection UC as -> _; exact EO].
    cbn [proper fst] in PR. destruct PR as [_ PR]. pose proof (b_rep _ _ _ _ B) as RP. pose proof (n_mask _ _ _ _ _ _ V) as MK.
    assert (RJ : forall n j, jnext j = jnext (jobs (T s) n) -> rep (set_job (T s) n j) q) by (intros n j X; apply set_job_rep; assumption).
    unfold call, refuse. destruct a as [|id flen p lf bin|id p|id p|id p|id code reason].
    + cbn [log R set_hasrh rem]. destruct (rem (R s) =? 0); eauto.
    + destruct id as [id|]; [|eauto]. cbn [log T]. destruct (jwbh (jobs (T s) JMsg)); [eauto|].
      destruct PR as [PN _]. destruct p as [c|]; [|congruence]. destruct AO as [[A1 A2] A3]. destruct (if fragw (T s) then _ else _) as [kind fw] eqn:KD.
      assert (KB : kind < 16). { destruct (fragw (T s)); injection KD as <- <-; [destruct bin|]; reflexivity. }
      eapply enqueue_defined with (q := q); try assumption; cbn [T log set_T].
      * eapply rep_ext; [| | |exact (RJ JMsg (Job (jnext (jobs (T s) JMsg)) (Some c) (Some (HUser id)) kind lf false SHMessage) eq_refl)]; reflexivity.
      * cbn [jobs set_fragw set_job set_jobs]. rewrite upd_same. split; [intros _; exact KB|]. exists c. auto.
    + destruct PR as (PI & PN & _). destruct id as [id|]; [|congruence]. destruct p as [c|]; [|congruence]. destruct AO as [A1 A2]. cbn [log T].
      eapply enqueue_defined with (q := q); try assumption; cbn [T log set_T].
      * apply RJ. reflexivity.
      * cbn [jobs set_job set_jobs]. rewrite upd_same. split; [discriminate|]. exists c. auto.
      * discriminate.
    + destruct PR as [PN _]. unfold write_ping_or_pong, refuse. destruct id as [id|]; [|eauto]. destruct (negb _); [eauto|]. cbn [log T]. destruct (jwbh (jobs (T s) JPing)); [eauto|].
      destruct p as [c|]; [|congruence]. destruct AO as [A1 A2]. eapply enqueue_defined with (q := q); try assumption; cbn [T log set_T].
      * apply RJ. reflexivity.
      * cbn [jobs set_job set_jobs]. rewrite upd_same. split; [intros _; reflexivity|]. exists c. auto.
    + destruct PR.
    + destruct id as [id|]; [|eauto]. cbn [log T]. destruct (jwbh (jobs (T s) JClose)); [eauto|]. destruct AO as [A1 A2]. set (s0 := log s (EvCall (AClose (Some id) code reason))).
      destruct (close_job_ok C s0 code reason (Some (HUser id)) SHClose ch A2) as [J1 J2]. destruct (negb _); [eauto|]. destruct (negb _); [eauto|].
      eapply enqueue_defined with (q := q); try assumption. cbn [T accept_close log set_selfc set_timer prepare_close_job set_T]. apply RJ. reflexivity.
Qed.
Print Assumptions ws_writes_defined.

(** ** Concrete runs *)
Fixpoint same_list (a b : list (jname * nat)) : bool :=
  match a, b with
  | [], [] => true
  | x :: a', y :: b' => (jname_eqb (fst x) (fst y) && Nat.eqb (snd x) (snd y) && same_list a' b')%bool
  | _, _ => false
  end.
Lemma same_list_ok a : forall b, same_list a b = true -> a = b.
Proof.
  induction a as [|[n i] a IH]; intros [|[m j] b]; cbn; try discriminate; [reflexivity|]. intros H. apply andb_prop in H as [H1 H2]. apply andb_prop in H1 as [H0 H1].
  apply jname_eqb_eq in H0. apply Nat.eqb_eq in H1. subst. f_equal. apply IH, H2.
Qed.
Definition idleb (t : list ev) : bool := same_list (filter of_msg (dones t)) (filter of_msg (musers (accepts t))).
Definition someb {A} (o : option A) : bool := match o with Some _ => true | None => false end.
Definition properb (c : conf) (x : act) : bool :=
  match x with
  | XApi a _ =>
      let t := tr (fst c) in
      (negb (over t) &&
      match a with
      | ARead => may_read t
      | AFirst _ _ p _ _ | APing _ p => someb p && negb (close_asked t)
      | ACont id p => someb id && someb p && negb (close_asked t) && idleb t
      | APong _ _ => false
      | AClose _ _ _ => negb (close_asked t)
      end)%bool
  | _ => true
  end.
Lemma properb_ok c x : properb c x = true -> proper c x.
Proof.
  assert (S : forall A (o : option A), someb o = true -> o <> None) by (intros A [a|]; cbn; congruence).
  destruct x as [ch|a ch|f ch|e|e]; cbn; auto. intros H. apply andb_prop in H. destruct H as [H1 H2]. apply negb_true_iff in H1. split; [exact H1|].
  destruct a; repeat (apply andb_prop in H2; destruct H2 as [H2 ?]); try discriminate; repeat split; auto; try (apply negb_true_iff; assumption).
  apply same_list_ok. assumption.
Qed.
Ltac go_it C l :=
  let s := fresh "s" in let k := fresh "k" in let E := fresh "E" in let H := fresh "REACH" in
  destruct (exec C properb start l) as [[s k]|] eqn:E; [|vm_compute in E; discriminate E];
  assert (H : reach C proper (s, k)) by (eapply exec_reach; [exact properb_ok|apply start_reach|exact E]); vm_compute in E;
  match type of E with Some (?a, ?b) = _ =>
    assert (s = a) by congruence; assert (k = b) by congruence; clear E; exists s, k; split; [exact H|clear H; subst s k] end.
Definition say (id : nat) (l : list N) : act := XApi (AFirst (Some id) (N.of_nat (length l)) (Some [(100%nat, l)]) true false) ch0.
Definition ping (id : nat) (l : list N) : act := XApi (APing (Some id) (Some [(200%nat, l)])) ch0.
Definition bye (id : nat) : act := XApi (AClose (Some id) 1000 None) ch0.

(** A message, a ping and a close frame, queued behind one another; the message and the ping are written. *)
Example writes_example : exists s k, reach cli proper (s, k) /\ no_error (tr s) /\ k = [] /\
  map ent_name (accepts (tr s)) = [JMsg; JPing; JClose] /\ map fst (sends (tr s)) = [JMsg; JPing; JClose] /\
  dones (tr s) = [(JMsg, 1%nat); (JPing, 2%nat)] /\ inflight (T s) = 1%nat.
Proof.
  go_it cli ([say 1 [72; 105]; ping 2 [1]; bye 3; XWritten 0] ++ ops 4 ++ [XWritten 0] ++ ops 4).
  split; [not_there|]. repeat split.
Qed.

(** The defects.  A pong that cannot be written while something is queued behind it: the
    queued write is aborted, then sent nevertheless. *)
Theorem ws_pong_error_then_next_write_refuted : exists s k, reach cli proper (s, k) /\
  (exists ch, enabled (s, k) (XOp ch) /\ step cli (s, k) (XOp ch) = UB) /\
  dones (tr s) = [(JPing, 7%nat)] /\ exists n, k = [OMsgNext (Some n)].
Proof.
  go_it cli ([readcall; arrive [0x89; 0]; op1; op1; arrive [0]; op1; ping 7 [1]; XWritten (-5)] ++ ops 9).
  split; [exists ch0; split; [apply enabledb_ok; reflexivity|reflexivity]|]. split; [reflexivity|]. eexists. reflexivity.
Qed.
Print Assumptions ws_pong_error_then_next_write_refuted.

(** When the connection fails while a message is being written, its handler is told that it was aborted
    although the stream still holds it, and the close frame is handed to the stream on top of it. *)
Theorem ws_two_writes_at_once_refuted : exists s k, reach cli proper (s, k) /\
  map fst (sends (tr s)) = [JMsg; JClose] /\ inflight (T s) = 2%nat /\ exists c, In (EvWriteDone JMsg 1 CIO_OPERATION_ABORTED c) (tr s).
Proof.
  go_it cli ([readcall; op1; say 1 [72; 105]; arrive [0xF1; 0]] ++ ops 6). split; [reflexivity|]. split; [reflexivity|]. eexists. cbn. tauto.
Qed.
Print Assumptions ws_two_writes_at_once_refuted.

(** When the peer does not answer the close frame in time, the connection is closed and the handlers of
    the waiting writes are never called: nothing can happen any more. *)
Theorem ws_close_timeout_forgets_handlers_refuted : exists s k, reach cli proper (s, k) /\
  dones (tr s) = [] /\ musers (accepts (tr s)) = [(JMsg, 1%nat); (JPing, 2%nat)] /\ In EvHook (tr s) /\ forall x, ~ enabled (s, k) x.
Proof.
  go_it cli ([say 1 [72; 105]; ping 2 [1]; bye 3; XTimer 0] ++ ops 3). split; [reflexivity|]. split; [reflexivity|]. split; [cbn; tauto|].
  intros [ch|a ch|f ch|e|e]; cbn.
  - intros [X _]. apply X. reflexivity.
  - intros (_ & X & _). discriminate X.
  - intros (_ & X & _). discriminate X.
  - intros (_ & X & _). discriminate X.
  - intros (_ & X & _). discriminate X.
Qed.
Print Assumptions ws_close_timeout_forgets_handlers_refuted.
