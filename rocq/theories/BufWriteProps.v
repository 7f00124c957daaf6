(** Buffered writing: properties C15 and C16. *)
From Verif Require Import Base WriteBufferModel WriteBufferSpec WriteBufferProofs BufWriteModel BufWriteSpec BufWriteProofs.
Open Scope N_scope.

Lemma dup_iff fuel mem B W T h l n es : write_pre fuel h B W T l ->
  dupb mem h l n = true <-> stops_in_last_element mem h l (TDone W_SUCCESS n :: es).
Proof.
  intros _. unfold dupb, stops_in_last_element. rewrite andb_true_iff, Nat.leb_le, Nat.ltb_lt.
  change (cbytes mem (stored_elem h) (removelast l)) with (data_of mem h (removelast l)).
  change (cbytes mem (stored_elem h) l) with (data_of mem h l). split.
  - intros H. exists n, es. auto.
  - intros (n' & es' & [= <- <-] & H). exact H.
Qed.

(** The code never runs into undefined behaviour, whatever the transport does. *)
Theorem C15_no_undefined_behaviour : forall fuel mem B W T h l es s x,
  write_pre fuel h B W T l -> w_run fuel mem B W T h es s -> w_enabled mem B W s x ->
  exists s', w_step fuel mem B W T s x = Ret s'.
Proof.
  intros fuel mem B W T h l es s x Hp Hr Hx.
  destruct (run_step fuel mem B W T h l Hp es s x (run_inv fuel mem B W T h l Hp es s Hr) Hx) as (s' & E & _). eauto.
Qed.
Print Assumptions C15_no_undefined_behaviour.

(** C15 for all runs whose first partial write does not end inside the last
    element: the bytes accepted so far are always a prefix of the chain's data,
    and success is reported exactly if they are all of it. *)
Theorem C15_bytes_sent_once_in_order_partial : forall fuel mem B W T h l es s,
  write_pre fuel h B W T l -> w_run fuel mem B W T h es s -> ~ stops_in_last_element mem h l es ->
  is_prefix (accepted s) (data_of mem h l) /\
  (phase s = WReported W_SUCCESS -> accepted s = data_of mem h l) /\
  (data_of mem h l <> [] -> accepted s = data_of mem h l -> phase s = WReported W_SUCCESS).
Proof.
  intros fuel mem B W T h l es s Hp Hr Hns.
  pose proof (run_inv fuel mem B W T h l Hp es s Hr) as HI. unfold WI in HI.
  change (data_of mem h l) with (cbytes mem (stored_elem h) l) in *.
  set (data := cbytes mem (stored_elem h) l) in *.
  assert (Hexp : forall n es', es = TDone W_SUCCESS n :: es' -> expect mem h l n = data).
  { intros n es' He. unfold expect. destruct (dupb mem h l n) eqn:Ed; [|apply app_nil_r].
    elim Hns. rewrite He. apply (dup_iff fuel mem B W T h l n es' Hp), Ed. }
  assert (Hstrict : forall (pend : list N), pend <> [] -> accepted s ++ pend = data -> accepted s <> data).
  { intros pend Hne Hq Hx. rewrite Hx in Hq. apply (f_equal (@length N)) in Hq. rewrite app_length in Hq.
    destruct pend; [congruence|]. cbn in Hq. lia. }
  destruct (phase s) as [| |err|err] eqn:Eph.
  - destruct HI as (_ & ->). cbn. split; [exists data; reflexivity|]. split; [discriminate|]. intros H1 H2. congruence.
  - destruct HI as (n & es' & He & Hl). destruct (later_pending mem B W T h l n s Hl) as (pend & Hne & Hq).
    rewrite (Hexp n es' He) in Hq. split; [exists pend; auto|]. split; [discriminate|]. intros _ Hx. elim (Hstrict pend Hne Hq Hx).
  - destruct HI as [(_ & n & He & Hok & Hbad)|(n & es' & x & He & Hok & Hbad & _)].
    + destruct (Z.eq_dec err W_SUCCESS) as [Hs|Hs].
      * destruct (Hok Hs) as (Ha & _). rewrite Ha. split; [exists []; now rewrite app_nil_r|]. split; [auto|congruence].
      * rewrite (Hbad Hs). split; [exists data; reflexivity|]. split; [congruence|]. intros H1 H2. congruence.
    + destruct (Z.eq_dec err W_SUCCESS) as [Hs|Hs].
      * destruct (Hok Hs) as (Ha & _). rewrite Ha, (Hexp _ _ He). split; [exists []; now rewrite app_nil_r|]. split; [auto|congruence].
      * destruct (Hbad Hs) as (pend & Hne & Hq). rewrite (Hexp _ _ He) in Hq. split; [exists pend; auto|]. split; [congruence|].
        intros _ Hx. elim (Hstrict pend Hne Hq Hx).
  - destruct HI as (_ & _ & -> & _). split; [exists data; reflexivity|]. split; [discriminate|]. intros H1 H2. congruence.
Qed.
Print Assumptions C15_bytes_sent_once_in_order_partial.

(** Every call of write_some offers exactly the bytes that are still missing, and only the first may offer none. *)
Theorem C15_offers_what_is_missing : forall fuel mem B W T h l es s,
  write_pre fuel h B W T l -> w_run fuel mem B W T h es s -> ~ stops_in_last_element mem h l es -> phase s = WFirst \/ phase s = WLater ->
  exists v, iov (wh s) (current B W (phase s)) = Ret v /\ accepted s ++ iov_bytes mem v = data_of mem h l /\ (phase s = WLater -> iov_bytes mem v <> []).
Proof.
  intros fuel mem B W T h l es s Hp Hr Hns Hph. pose proof (run_inv fuel mem B W T h l Hp es s Hr) as HI.
  destruct (offered fuel mem B W T h l Hp es s HI Hph) as (v & Ev & H1 & H2). exists v. split; [exact Ev|].
  change (data_of mem h l) with (cbytes mem (stored_elem h) l). destruct Hph as [Hph|Hph].
  - split; [apply H1, Hph|congruence].
  - destruct (H2 Hph) as (Hne & n & es' & He & Ha). split; [|auto]. rewrite Ha. unfold expect. destruct (dupb mem h l n) eqn:Ed; [|apply app_nil_r].
    elim Hns. rewrite He. apply (dup_iff fuel mem B W T h l n es' Hp), Ed.
Qed.
Print Assumptions C15_offers_what_is_missing.

(** A write never hangs: whatever partial writes came before, a transport that takes all it is offered completes it. *)
Theorem C15_write_can_finish : forall fuel mem B W T h l es s,
  write_pre fuel h B W T l -> w_run fuel mem B W T h es s -> ~ stops_in_last_element mem h l es -> phase s = WFirst \/ phase s = WLater ->
  exists n s', w_enabled mem B W s (TDone W_SUCCESS n) /\ w_step fuel mem B W T s (TDone W_SUCCESS n) = Ret s' /\
    ~ stops_in_last_element mem h l (es ++ [TDone W_SUCCESS n]) /\ phase s' = WReported W_SUCCESS /\ accepted s' = data_of mem h l.
Proof.
  intros fuel mem B W T h l es s Hp Hr Hns Hph. destruct (C15_offers_what_is_missing fuel mem B W T h l es s Hp Hr Hns Hph) as (v & Ev & Ha & Hne).
  set (n := N.of_nat (length (iov_bytes mem v))).
  assert (Hn : n < 2^64).
  { apply (f_equal (@length N)) in Ha. rewrite app_length in Ha. change (data_of mem h l) with (cbytes mem (stored_elem h) l) in Ha. rewrite cbytes_length in Ha.
    pose proof Hp as (_ & _ & H64 & _). unfold n. lia. }
  assert (En : w_enabled mem B W s (TDone W_SUCCESS n)).
  { split; [exact Hph|]. split; [exact Hn|]. intros _ v' Ev'. rewrite Ev in Ev'. injection Ev' as <-. unfold n. lia. }
  pose proof (run_inv fuel mem B W T h l Hp es s Hr) as HI.
  destruct (run_step fuel mem B W T h l Hp es s _ HI En) as (s' & E & HI'). exists n, s'. split; [exact En|]. split; [exact E|].
  pose proof (step_accepts fuel mem B W T s n s' v E Hph Ev) as Hacc. unfold n in Hacc. rewrite Nat2N.id, firstn_all, Ha in Hacc. fold n in Hacc.
  assert (Hns' : ~ stops_in_last_element mem h l (es ++ [TDone W_SUCCESS n])).
  { destruct es as [|x es].
    - intros (m & es' & Em & H1 & H2). cbn in Em. injection Em as <- _. 
      inversion Hr as [E1 E2|? ? ? ? ? ? ? E1 E2]; [|destruct es; discriminate]. subst s. cbn [w_start accepted app] in Ha. rewrite <- Ha in H2. unfold n in H2. lia.
    - intros (m & es' & Em & HH). cbn in Em. injection Em as -> <-. apply Hns. exists m, es. auto. }
  split; [exact Hns'|]. split; [|exact Hacc].
  assert (Hfull : forall pend m es', pend <> [] -> accepted s' ++ pend = expect mem h l m -> es ++ [TDone W_SUCCESS n] = TDone W_SUCCESS m :: es' -> False).
  { intros pend m es' Hp' Hq He. unfold expect in Hq. destruct (dupb mem h l m) eqn:Ed.
    - apply Hns'. rewrite He. apply (dup_iff fuel mem B W T h l m es' Hp), Ed.
    - change (data_of mem h l) with (cbytes mem (stored_elem h) l) in Hacc. rewrite app_nil_r, Hacc in Hq. apply (f_equal (@length N)) in Hq. rewrite app_length in Hq. destruct pend; [congruence|]. cbn in Hq. lia. }
  unfold WI in HI'. destruct (phase s') as [| |err|err].
  - destruct HI' as (X & _). destruct es; discriminate.
  - destruct HI' as (m & es' & He & Hl). destruct (later_pending mem B W T h l m s' Hl) as (pend & Hp' & Hq). elim (Hfull pend m es' Hp' Hq He).
  - destruct (Z.eq_dec err W_SUCCESS) as [->|Hs]; [reflexivity|exfalso]. destruct HI' as [(_ & m & He & _)|(m & es' & x & He & _ & Hb & _)].
    + destruct es as [|y [|]]; cbn in He; congruence.
    + destruct (Hb Hs) as (pend & Hp' & Hq). apply (Hfull pend m (es' ++ [x]) Hp' Hq He).
  - destruct HI' as (He & _). destruct es as [|y [|]]; discriminate.
Qed.
Print Assumptions C15_write_can_finish.

(** C15 is violated otherwise: if the first write_some call accepts fewer bytes
    than the chain has and stops inside its last element - for a chain of one
    element: always - then whenever success is reported the transport has got
    the whole chain twice (handle_partial_writes line 243: buffer->next is the
    head, which split_and_append takes for "everything"). *)
Theorem C15_data_sent_twice : forall fuel mem B W T h l es s,
  write_pre fuel h B W T l -> w_run fuel mem B W T h es s -> stops_in_last_element mem h l es ->
  phase s = WReported W_SUCCESS -> accepted s = data_of mem h l ++ data_of mem h l.
Proof.
  intros fuel mem B W T h l es s Hp Hr Hst Hph.
  pose proof (run_inv fuel mem B W T h l Hp es s Hr) as HI. unfold WI in HI. rewrite Hph in HI.
  destruct Hst as (n0 & es0 & He0 & Hd).
  assert (Hdup : dupb mem h l n0 = true).
  { apply (dup_iff fuel mem B W T h l n0 es0 Hp). exists n0, es0. auto. }
  destruct HI as [(_ & n & He & Hok & _)|(n & es' & x & He & Hok & _)].
  - destruct (Hok eq_refl) as (_ & Hx). rewrite He in He0. injection He0 as <- _. congruence.
  - destruct (Hok eq_refl) as (Ha & _). rewrite Ha. rewrite He in He0. injection He0 as <- _.
    unfold expect. rewrite Hdup. reflexivity.
Qed.
Print Assumptions C15_data_sent_twice.

(** A concrete heap: chain 1 with the elements 10 and 11; stream buffers 2 and 3. *)
Definition cw_heap : heap := fun p =>
  if p =? 1 then Some (Cell 10 11 2 5) else
  if p =? 10 then Some (Cell 11 1 100 3) else
  if p =? 11 then Some (Cell 1 10 200 2) else
  if p =? 2 then Some (Cell 0 0 0 0) else
  if p =? 3 then Some (Cell 0 0 0 0) else
  if p =? 4 then Some (Cell 11 11 1 2) else None.
Lemma cw_pre : write_pre 20 cw_heap 1 2 3 [10; 11].
Proof.
  unfold write_pre, chain_at, circular.
  assert (Hl : forall a b, (exists c, cw_heap a = Some c /\ nx c = b) -> (exists c, cw_heap b = Some c /\ pv c = a) -> link cw_heap a b) by (intros; split; auto).
  repeat match goal with |- _ /\ _ => split end; try reflexivity; try discriminate; try (cbn; lia); try (cbn; intuition discriminate).
  - cbn [app path]. repeat split; eexists; split; reflexivity.
  - repeat constructor; cbn; intuition discriminate.
  - repeat constructor; eexists _, _; (split; [reflexivity|reflexivity]).
Qed.

(** Executing concrete runs. *)
Definition w_enabledb mem B W (s : wst) (x : tev) : bool :=
  match phase s with WFirst | WLater => true | _ => false end &&
  match x with
  | TSync err => negb (Z.eqb err W_SUCCESS)
  | TDone err n => (n <? 2^64) &&
      match iov (wh s) (current B W (phase s)) with
      | Ret v => (N.to_nat n <=? length (iov_bytes mem v))%nat
      | UB => false
      end
  end.
Fixpoint execb fuel mem B W T (s : wst) (es : list tev) : option wst :=
  match es with
  | [] => Some s
  | x :: es' => if w_enabledb mem B W s x then
      match w_step fuel mem B W T s x with Ret s' => execb fuel mem B W T s' es' | UB => None end else None
  end.
Lemma execb_run fuel mem B W T h es : forall es0 s s', w_run fuel mem B W T h es0 s ->
  execb fuel mem B W T s es = Some s' -> w_run fuel mem B W T h (es0 ++ es) s'.
Proof.
  induction es as [|x es IH]; intros es0 s s' Hr H; cbn [execb] in H; [rewrite app_nil_r; congruence|].
  destruct (w_enabledb mem B W s x) eqn:Ee; [|discriminate].
  destruct (w_step fuel mem B W T s x) as [s1|] eqn:Es; [|discriminate].
  replace (es0 ++ x :: es) with ((es0 ++ [x]) ++ es) by (rewrite <- app_assoc; reflexivity).
  apply (IH _ s1); [|exact H]. apply (w_run_step fuel mem B W T h es0 s x s1 Hr); [|exact Es].
  unfold w_enabledb in Ee. apply andb_true_iff in Ee as [E1 E2]. split.
  - destruct (phase s); try discriminate; auto.
  - destruct x as [err|err n]; [apply negb_true_iff, Z.eqb_neq in E2; exact E2|].
    apply andb_true_iff in E2 as [E2 E3]. apply N.ltb_lt in E2. split; [exact E2|].
    intros _ v Hv. rewrite Hv in E3. apply Nat.leb_le, E3.
Qed.
Definition cw_exec (es : list tev) : option wst := execb 20 (fun a => a) 1 2 3 (w_start cw_heap) es.
Lemma cw_exec_run es s : cw_exec es = Some s -> w_run 20 (fun a => a) 1 2 3 cw_heap es s.
Proof. apply (execb_run 20 (fun a => a) 1 2 3 cw_heap es [] (w_start cw_heap) s). constructor. Qed.

(** The transport takes 4 of 5 bytes, then everything it is offered. *)
Definition twice_events : list tev := [TDone W_SUCCESS 4; TDone W_SUCCESS 6].
Lemma twice_exec : match cw_exec twice_events with
  | Some s => phase s = WReported W_SUCCESS /\ accepted s = [100; 101; 102; 200; 201; 100; 101; 102; 200; 201]
  | None => False end.
Proof. vm_compute. split; reflexivity. Qed.
Theorem C15_data_sent_twice_refuted : exists fuel mem B W T h l es s,
  write_pre fuel h B W T l /\ w_run fuel mem B W T h es s /\ phase s = WReported W_SUCCESS /\
  data_of mem h l = [100; 101; 102; 200; 201] /\
  accepted s = [100; 101; 102; 200; 201; 100; 101; 102; 200; 201].
Proof.
  pose proof twice_exec as H. destruct (cw_exec twice_events) as [s|] eqn:E; [|contradiction]. destruct H as [H1 H2].
  exists 20%nat, (fun a => a), 1, 2, 3, cw_heap, [10; 11], twice_events, s.
  split; [exact cw_pre|]. split; [exact (cw_exec_run _ _ E)|]. split; [exact H1|]. split; [reflexivity|exact H2].
Qed.
Print Assumptions C15_data_sent_twice_refuted.

(** Non-vacuity of the positive theorem: 2 bytes, nothing, 2 bytes, the rest. *)
Definition ok_events : list tev := [TDone W_SUCCESS 2; TDone W_SUCCESS 0; TDone W_SUCCESS 2; TDone W_SUCCESS 1].
Lemma ok_exec : match cw_exec ok_events with
  | Some s => phase s = WReported W_SUCCESS /\ accepted s = [100; 101; 102; 200; 201]
  | None => False end.
Proof. vm_compute. split; reflexivity. Qed.
Example C15_nonvacuous : exists s, w_run 20 (fun a => a) 1 2 3 cw_heap ok_events s /\
  ~ stops_in_last_element (fun a => a) cw_heap [10; 11] ok_events /\ phase s = WReported W_SUCCESS /\
  accepted s = [100; 101; 102; 200; 201].
Proof.
  pose proof ok_exec as H. destruct (cw_exec ok_events) as [s|] eqn:E; [|contradiction]. destruct H as [H1 H2].
  exists s. split; [exact (cw_exec_run _ _ E)|]. split; [|auto].
  intros (n & es' & [= <- <-] & H3 & _). vm_compute in H3. lia.
Qed.

(** C16.  Whenever the handler is called by a completion of the transport (with
    success or with an error), the caller's chain is the one he passed. *)
Theorem C16_chain_given_back_partial : forall fuel mem B W T h l es err n s,
  write_pre fuel h B W T l -> w_run fuel mem B W T h (es ++ [TDone err n]) s -> forall err', phase s = WReported err' ->
  chain_at (wh s) B l /\ forall p, In p l -> stored_elem (wh s) p = stored_elem h p.
Proof.
  intros fuel mem B W T h l es err n s Hp Hr err' Hph.
  pose proof (run_inv fuel mem B W T h l Hp _ s Hr) as HI. unfold WI in HI. rewrite Hph in HI.
  destruct HI as [(-> & _)|(n0 & es' & x & He & _ & _ & Hch)]; [split; [apply Hp|auto]|].
  assert (Hx : x = TDone err n).
  { change (TDone W_SUCCESS n0 :: es' ++ [x]) with ((TDone W_SUCCESS n0 :: es') ++ [x]) in He. apply app_inj_tail in He as [_ He]. auto. }
  destruct Hch as (CB & _); [rewrite Hx; discriminate|].
  split; [apply (chain_to_at _ _ _ _ CB)|]. intros p Hi. destruct CB as (_ & _ & _ & _ & Fo). rewrite Forall_forall in Fo.
  destruct (Fo p Hi) as (d & m & E & _ & A0 & A1). rewrite E. now apply stored_elem_views.
Qed.
Print Assumptions C16_chain_given_back_partial.

(** A write that is refused at once leaves the chain alone. *)
Theorem C16_refused_write_keeps_chain : forall fuel mem B W T h l es s err,
  write_pre fuel h B W T l -> w_run fuel mem B W T h es s -> phase s = WRejected err -> wh s = h /\ accepted s = [].
Proof.
  intros fuel mem B W T h l es s err Hp Hr Hph.
  pose proof (run_inv fuel mem B W T h l Hp _ s Hr) as HI. unfold WI in HI. rewrite Hph in HI. tauto.
Qed.
Print Assumptions C16_refused_write_keeps_chain.

(** C16 is violated if a later write_some call fails at once (lines 221-223 and
    246-248): the handler is called, but elements are missing from the caller's
    chain; they are still in the stream's private one. *)
Definition sync_events : list tev := [TDone W_SUCCESS 2; TSync (-32)%Z].
Lemma sync_exec : match cw_exec sync_events with
  | Some s => phase s = WReported (-32)%Z /\ stored_elem (wh s) 1 = Some (1, 3)
  | None => False end.
Proof. vm_compute. split; reflexivity. Qed.
Theorem C16_synchronous_error_refuted : exists fuel mem B W T h l es s err,
  write_pre fuel h B W T l /\ w_run fuel mem B W T h es s /\ phase s = WReported err /\ ~ chain_at (wh s) B l.
Proof.
  pose proof sync_exec as H. destruct (cw_exec sync_events) as [s|] eqn:E; [|contradiction]. destruct H as [H1 H2].
  exists 20%nat, (fun a => a), 1, 2, 3, cw_heap, [10; 11], sync_events, s, (-32)%Z.
  split; [exact cw_pre|]. split; [exact (cw_exec_run _ _ E)|]. split; [exact H1|].
  intros (_ & H & _). rewrite H2 in H. discriminate.
Qed.
Print Assumptions C16_synchronous_error_refuted.

Definition reset_events : list tev := [TDone W_SUCCESS 2] ++ [TDone (-104)%Z 0].
Lemma reset_exec : match cw_exec reset_events with
  | Some s => phase s = WReported (-104)%Z
  | None => False end.
Proof. vm_compute. reflexivity. Qed.
Example C16_nonvacuous : exists s, w_run 20 (fun a => a) 1 2 3 cw_heap reset_events s /\ phase s = WReported (-104)%Z.
Proof.
  pose proof reset_exec as H. destruct (cw_exec reset_events) as [s|] eqn:E; [|contradiction].
  exists s. split; [exact (cw_exec_run _ _ E)|exact H].
Qed.
