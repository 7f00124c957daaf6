(** The receiving half refines the reference decoder, for every schedule. *)
From Verif Require Import Base Utf8Model Utf8Spec Utf8Proofs MaskModel MaskSpec MaskProofs EndianModel EndianSpec EndianProofs
  WsModel WsFrame WsSendProofs WsRecvSpec WsDecode WsTrace.
Open Scope N_scope.

Definition enc_m (m : option bool) : N := match m with None => 0 | Some true => 2 | Some false => 1 end.
Definition enc_k (k : kind) : N := match k with KData true => 2 | KData false => 1 | KControl op => op end.
Definition kind_ok (f : bool) (k : kind) : Prop :=
  match k with KData _ => True | KControl op => f = true /\ (op = 8 \/ op = 9 \/ op = 10) end.
Definition ctl_len (k : kind) (len : N) : Prop := match k with KData _ => True | KControl _ => len <= 125 end.
Definition bad_op (o : N) : Prop := o < 16 /\ o <> 1 /\ o <> 2 /\ o <> 8 /\ o <> 9 /\ o <> 10.

Section P.
Variable C : cfg.
Hypothesis HC : cfg_ok C.
Notation sv := (is_server C).

(** How the code's state between two callbacks corresponds to the decoder's. *)
Definition hdr (r : rx) (m : option bool) (f : bool) (k : kind) : Prop :=
  fin r = f /\ opcode r = enc_k k /\ frag r = enc_m m /\ kind_ok f k.

Definition Rel (rq : rreq) (r : rx) (d : dstate) : Prop :=
  match rq_cb rq with
  | CbHeader => rq_most rq = false /\ rq_n rq = 1 /\ exists m, d = DHead m /\ frag r = enc_m m
  | CbFirstLen => rq_most rq = false /\ rq_n rq = 1 /\
      ((exists m f k, d = DLen m f k /\ hdr r m f k) \/ (d = DFailed /\ bad_op (opcode r)))
  | CbLen16 => rq_most rq = false /\ rq_n rq = 2 /\
      ((exists m f bin, d = DExt m f (KData bin) 2 [] /\ hdr r m f (KData bin)) \/ (d = DFailed /\ bad_op (opcode r) /\ is_control_frame (opcode r) = false))
  | CbLen64 => rq_most rq = false /\ rq_n rq = 8 /\
      ((exists m f bin, d = DExt m f (KData bin) 8 [] /\ hdr r m f (KData bin)) \/ (d = DFailed /\ bad_op (opcode r) /\ is_control_frame (opcode r) = false))
  | CbMask => rq_most rq = false /\ rq_n rq = 4 /\ sv = true /\
      ((exists m f k len, d = DKey m f k len [] /\ hdr r m f k /\ ctl_len k len /\ rem r = len /\ rfl r = len /\ len <= SIZE_MAX) \/
       (d = DFailed /\ bad_op (opcode r) /\ rem r <= SIZE_MAX /\ (is_control_frame (opcode r) = true -> rem r <= 125)))
  | CbPayload => rq_n rq = rem r /\ 0 < rem r /\
      ((exists m f k len key got, d = DPayload m f k len key got /\ hdr r m f k /\ ctl_len k len /\
          rfl r = len /\ rem r + N.of_nat (length got) = len /\ length key = 4%nat /\ bytes_ok key /\ len <= SIZE_MAX /\
          (if sv then rmask r = rot key (length got) else key = [0; 0; 0; 0]) /\
          match k with KData _ => rq_most rq = true | KControl _ => rq_most rq = false /\ got = [] end) \/
       (d = DFailed /\ bad_op (opcode r)))
  end.

Definition hd_req : rreq := RReq CbHeader false 1.
Definition next_req (r : rx) : rreq := if rem r =? 0 then hd_req else RReq CbPayload true (rem r).

Definition b2n (b : bool) : nat := if b then 1%nat else 0%nat.
Definition pong_job (j : job) : bool :=
  match jwbh j, jhandler j with Some _, Some HPong => true | _, _ => false end.
Definition pong_op (o : op) : bool :=
  match o with
  | OHandler _ (Some HPong) e _ => Z.eqb e CIO_SUCCESS
  | OPongWritten e => Z.eqb e CIO_SUCCESS
  | _ => false
  end.
Definition has {A} (o : option A) : bool := match o with Some _ => true | None => false end.
Definition pongs (f : jname -> job) : nat :=
  (b2n (pong_job (f JMsg)) + b2n (pong_job (f JPing)) + b2n (pong_job (f JPong)) + b2n (pong_job (f JClose)))%nat.
Definition pongtok (s : ws) (k : list op) : nat := (pongs (jobs (T s)) + length (filter pong_op k))%nat.
Definition tokens (s : ws) (k : list op) : nat := (b2n (may_read (tr s)) + b2n (has (rd s)) + pongtok s k)%nat.

Definition holds (s : ws) (k : list op) (rq : rreq) : Prop :=
  rd s = Some rq \/ (may_read (tr s) = true /\ rq = next_req (R s)) \/ ((0 < pongtok s k)%nat /\ rq = hd_req).

Definition is_err (o : op) : bool := match o with OHandleError _ _ _ => true | _ => false end.
Definition erring (s : ws) (k : list op) : Prop := cbe s = true \/ existsb is_err k = true.

Definition text_sound (l : list out) : Prop :=
  Forall utf8_well_formed (complete_texts l) /\ utf8_prefix (current_text l).

Record inv (s : ws) (k : list op) : Prop := {
  i_mask : length (rmask (R s)) = 4%nat /\ bytes_ok (rmask (R s)) /\ qok (u_state (utf8 (R s)));
  i_tok : (tokens s k <= 1)%nat;
  i_rel : forall rq, holds s k rq -> Rel rq (R s) (fst (decode sv (inp s)));
  i_utf : (0 < tokens s k)%nat -> u_state (utf8 (R s)) = drun 0 (current_text (delivered (tr s)));
  i_txt : text_sound (delivered (tr s));
  i_out : (0 < tokens s k)%nat -> snd (decode sv (inp s)) = delivered (tr s);
  i_pre : exists rest, snd (decode sv (inp s)) = delivered (tr s) ++ rest /\ (rest = [] \/ erring s k);
  i_fail : fst (decode sv (inp s)) = DFailed -> has (rd s) = true \/ erring s k }.

(** Steps that do not read: nothing received changes hands. *)
Record quiet (s : ws) (k : list op) (s' : ws) (k' : list op) : Prop := {
  q_R : R s' = R s; q_inp : inp s' = inp s; q_del : delivered (tr s') = delivered (tr s);
  q_err : erring s k -> erring s' k';
  q_rd : has (rd s) = true -> has (rd s') = true;
  q_tok : (tokens s' k' <= tokens s k)%nat;
  q_holds : (tokens s k <= 1)%nat -> forall rq, holds s' k' rq -> holds s k rq }.

Lemma quiet_inv s k s' k' : quiet s k s' k' -> inv s k -> inv s' k'.
Proof.
  intros [q1 q2 q3 q4 q4' q5 q6] [i1 i2 i3 i4 i4' i5 i6 i7]. split; rewrite ?q1, ?q2, ?q3.
  - exact i1.
  - lia.
  - intros rq H. apply i3, q6; assumption.
  - intros H. apply i4. lia.
  - exact i4'.
  - intros H. apply i5. lia.
  - destruct i6 as (rest & E & [-> | Er]); [exists []; auto|exists rest; auto].
  - intros X. destruct (i7 X) as [Y|Y]; auto.
Qed.

(** The general shape of quiet steps: core unchanged, only quiet events, pong
    job and stack tokens not increased. *)
Definition quiet_ev (e : ev) : bool :=
  match e with EvData _ _ _ _ _ | EvControl _ _ => false | EvCall ARead => false | _ => true end.

Lemma quiet_evs es t : forallb quiet_ev es = true ->
  delivered (es ++ t) = delivered t /\ may_read (es ++ t) = may_read t.
Proof.
  induction es as [|e r IH]; intros H; [split; reflexivity|].
  cbn [forallb app] in *. apply andb_prop in H. destruct H as [H1 H2]. destruct (IH H2) as [I1 I2].
  destruct e; try discriminate H1; cbn [delivered outs_of may_read]; rewrite ?I1, ?I2, ?app_nil_r; try (split; reflexivity).
  destruct a; try discriminate H1; split; reflexivity || assumption.
Qed.

Lemma mk_quiet s k s' k' es :
  R s' = R s -> inp s' = inp s -> rd s' = rd s -> tr s' = es ++ tr s -> forallb quiet_ev es = true ->
  (erring s k -> erring s' k') ->
  (pongtok s' k' <= pongtok s k)%nat ->
  quiet s k s' k'.
Proof.
  intros E1 E2 E3 E4 E5 E6 E7. destruct (quiet_evs es (tr s) E5) as [D M].
  split; try assumption.
  - rewrite E4. exact D.
  - rewrite E3. auto.
  - unfold tokens. rewrite E4, M, E3. lia.
  - intros _ rq [H | [[H ->] | [H ->]]].
    + left. congruence.
    + right; left. rewrite E4, M in H. rewrite E1. split; [exact H|reflexivity].
    + right; right. split; [lia|reflexivity].
Qed.

Lemma filter_app_len k1 k2 : length (filter pong_op (k1 ++ k2)) = (length (filter pong_op k1) + length (filter pong_op k2))%nat.
Proof. rewrite filter_app, app_length. reflexivity. Qed.

Lemma existsb_app_r {A} (f : A -> bool) l k : existsb f k = true -> existsb f (l ++ k) = true.
Proof. intros H. rewrite existsb_app, H. apply orb_true_r. Qed.

Lemma pong_job_like j j' : job_like j j' -> pong_job j' = pong_job j.
Proof.
  intros (H1 & _ & _ & _ & _ & H2). unfold pong_job. rewrite H1.
  destruct H2 as [A B]. destruct (jwbh j), (jwbh j'); try reflexivity; exfalso;
    [discriminate (A eq_refl)|discriminate (B eq_refl)].
Qed.

Lemma pongs_like f g : (forall n, job_like (f n) (g n)) -> pongs g = pongs f.
Proof. intros H. unfold pongs. rewrite !(fun n => pong_job_like _ _ (H n)). reflexivity. Qed.

Lemma pongs_upd f n j : (pongs (upd f n j) + b2n (pong_job (f n)) = pongs f + b2n (pong_job j))%nat.
Proof. unfold pongs, upd. destruct n; cbn [jname_eqb]; lia. Qed.

(** Stack growth by enqueue_job. *)
Lemma enqueue_quiet s0 k0 s n len ch kerr s' ops k :
  enqueue_job C s n len ch kerr = Ret (s', ops) ->
  (forall e, length (filter pong_op (kerr e)) = 0%nat) ->
  R s = R s0 -> inp s = inp s0 -> rd s = rd s0 ->
  (exists es, tr s = es ++ tr s0 /\ forallb quiet_ev es = true) ->
  (cbe s0 = true -> cbe s = true) ->
  (existsb is_err k0 = true -> existsb is_err k = true) ->
  (pongs (jobs (T s)) + length (filter pong_op k) <= pongtok s0 k0)%nat ->
  quiet s0 k0 s' (ops ++ k).
Proof.
  intros H K ER EI ED (es & ET & EQ) EC EK EP. apply enqueue_frame in H.
  destruct H as ((c1 & c2 & c3 & c4 & c5 & c6 & c7 & c8 & c9) & HT & HJ & _ & HO).
  assert (X : exists es', tr s' = es' ++ tr s0 /\ forallb quiet_ev es' = true).
  { destruct HT as [-> | [c ->]]; [exists es; auto|]. exists (EvSend n c :: es). cbn [forallb quiet_ev app]. rewrite ET. auto. }
  destruct X as (es' & X1 & X2).
  apply (mk_quiet s0 k0 s' (ops ++ k) es'); try assumption; try congruence.
  - intros [Hc | Hk]; [left; rewrite c2; auto|right; apply existsb_app_r; auto].
  - unfold pongtok at 1. rewrite (pongs_like _ _ HJ), filter_app_len.
    assert (Y : length (filter pong_op ops) = 0%nat).
    { destruct HO as [-> | [(sh & e & ->) | (e & msg & ->)]]; cbn [filter pong_op length]; auto. }
    rewrite Y. lia.
Qed.

Lemma dequeue_frame t n t' : dequeue_job t = (n, t') ->
  jobs t' = jobs t /\ last t' = last t /\ cmask t' = cmask t /\ fragw t' = fragw t /\ inflight t' = inflight t /\ bswh t' = bswh t /\
  n = first t /\ (n = None -> t' = t).
Proof.
  unfold dequeue_job. destruct (first t) as [f|] eqn:F.
  - destruct (opt_eqb (Some f) (last t)); intros H; injection H as <- <-; cbn;
      (repeat match goal with |- _ /\ _ => split end); reflexivity || discriminate.
  - intros H; injection H as <- <-. repeat match goal with |- _ /\ _ => split end; reflexivity || auto.
Qed.

Lemma erring_pop s o k s' k' : is_err o = false -> cbe s' = cbe s -> erring s (o :: k) -> erring s' (k' ++ k).
Proof.
  intros H E [X | X]; [left; congruence|]. right. cbn [existsb] in X. rewrite H in X. cbn [orb] in X. apply existsb_app_r, X.
Qed.

(** A read request for the next header, made by the holder of a pong token. *)
Lemma pong_read_quiet s k s' ops msg : (forall r m0 n0 x y, bs_read C s r m0 n0 msg = (x, y) -> True) ->
  bs_read C s CbHeader false 1 msg = (s', ops) ->
  (tokens s (OPongWritten CIO_SUCCESS :: k) <= 1)%nat ->
  quiet s (OPongWritten CIO_SUCCESS :: k) s' (ops ++ k).
Proof.
  intros _ H Ht. unfold bs_read in H. cbn [negb andb] in H.
  destruct (rbsize C <? 1) eqn:B.
  - injection H as <- <-. apply (mk_quiet _ _ _ _ []); try reflexivity.
    + intros _. right. reflexivity.
    + unfold pongtok. cbn [app filter pong_op Z.eqb CIO_SUCCESS length]. lia.
  - unfold tokens, pongtok in Ht. cbn [filter pong_op Z.eqb CIO_SUCCESS length] in Ht.
    assert (rd s = None) as RD. { destruct (rd s); [cbn [has b2n] in Ht; lia|reflexivity]. }
    assert (may_read (tr s) = false) as MR. { destruct (may_read (tr s)); [cbn [b2n] in Ht; lia|reflexivity]. }
    assert (S0 : length (filter pong_op k) = 0%nat) by lia.
    assert (S1 : pongs (jobs (T s)) = 0%nat) by lia.
    assert (OK : length (filter pong_op ops) = 0%nat).
    { injection H as <- <-. destruct (Nat.eqb (cbrun s) 0); reflexivity. }
    assert (ER : existsb is_err (ops ++ k) = true -> existsb is_err k = true).
    { injection H as <- <-. destruct (Nat.eqb (cbrun s) 0); intros X; exact X. }
    assert (ER2 : existsb is_err k = true -> existsb is_err (ops ++ k) = true) by (apply existsb_app_r).
    injection H as <- _. split; cbn [R inp tr set_rd]; try reflexivity.
    + intros [X | X]; [left; exact X|right; apply ER2; exact X].
    + unfold tokens, pongtok. cbn [tr rd T set_rd has b2n filter pong_op Z.eqb CIO_SUCCESS length].
      rewrite MR, RD, filter_app_len, OK, S0, S1. cbn. lia.
    + intros _ rq [X | [[X _] | [X ->]]]; cbn [rd tr set_rd] in X.
      * injection X as <-. right; right. split; [|reflexivity]. unfold pongtok. cbn [filter pong_op Z.eqb CIO_SUCCESS length]. lia.
      * congruence.
      * unfold pongtok in X. cbn [T set_rd] in X. rewrite filter_app_len, OK, S0, S1 in X. lia.
Qed.

Lemma run_op_inv s o k ch s' ops : jhandler (jobs (T s) JClose) <> Some HPong -> inv s (o :: k) -> run_op C s o ch = Ret (s', ops) -> inv s' (ops ++ k).
Proof.
  intros NP I H. pose proof (i_tok _ _ I) as Ht.
  refine (quiet_inv _ _ _ _ _ I). clear I.
  destruct o; cbn [run_op] in H.
  - injection H as <- <-. apply (mk_quiet _ _ _ _ []); try reflexivity.
    apply erring_pop; reflexivity.
  - injection H as <- <-. apply (mk_quiet _ _ _ _ []); try reflexivity.
    apply erring_pop; reflexivity.
  - (* handle_error *)
    destruct (cbe s) eqn:B; injection H as <- <-.
    + apply (mk_quiet _ _ _ _ []); try reflexivity. intros _. left. exact B.
    + apply (mk_quiet _ _ _ _ [EvError err reason]); try reflexivity. intros _. left. reflexivity.
  - (* abort *)
    destruct (dequeue_job (T s)) as [n t] eqn:D. destruct (dequeue_frame _ _ _ D) as (J & _). destruct n as [n|]; injection H as <- <-.
    + apply (mk_quiet _ _ _ _ []); try reflexivity.
      * apply erring_pop; reflexivity.
      * unfold pongtok. cbn [T set_T set_job set_jobs jobs app filter pong_op].
        assert (Z.eqb CIO_OPERATION_ABORTED CIO_SUCCESS = false) as -> by reflexivity.
        assert ((match jhandler (jobs t n) with Some HPong => false | _ => false end) = false) as -> by (destruct (jhandler (jobs t n)) as [[?|]|]; reflexivity).
        pose proof (pongs_upd (jobs t) n (set_wbh (jobs t n) None)) as PU. cbn [pong_job set_wbh jwbh b2n] in PU.
        rewrite J in *. lia.
    + apply (mk_quiet _ _ _ _ []); try reflexivity.
      * apply erring_pop; reflexivity.
      * unfold pongtok. cbn [T set_T app filter pong_op]. rewrite J. lia.
  - (* error close *)
    eapply enqueue_quiet; [exact H|reflexivity|reflexivity|reflexivity|reflexivity| | | |].
    + eexists [EvAccept JClose _ _]. split; reflexivity.
    + intros X; exact X.
    + intros X; exact X.
    + unfold pongtok, accept_close, prepare_close_job. cbn [T log set_T set_job set_jobs jobs filter pong_op].
      match goal with |- context [upd _ _ ?j] => pose proof (pongs_upd (jobs (T s)) JClose j) as PU end.
      cbn [pong_job jwbh jhandler b2n] in PU. lia.
  - destruct (hasrh s); injection H as <- <-.
    + apply (mk_quiet _ _ _ _ [EvEof]); try reflexivity. apply erring_pop; reflexivity.
    + apply (mk_quiet _ _ _ _ []); try reflexivity. apply erring_pop; reflexivity.
  - injection H as <- <-. apply (mk_quiet _ _ _ _ [EvHook]); try reflexivity. apply erring_pop; reflexivity.
  - (* completion of a write *)
    binv H. destruct a as [[t n0] c]. unfold write_jobs_popfront in E.
    destruct (dequeue_job (T s)) as [n t1] eqn:D. destruct (dequeue_frame _ _ _ D) as (J & _).
    destruct n as [n|]; [|discriminate E]. destruct (jwbh (jobs t1 n)) as [c1|] eqn:W; [|discriminate E].
    injection E as <- <- <-. rewrite J in *.
    pose proof (pongs_upd (jobs (T s)) n (set_wbh (jobs (T s) n) None)) as PU. cbn [pong_job set_wbh jwbh b2n] in PU.
    unfold pong_job in PU. rewrite W in PU.
    assert (XX : forall o1 o2, ops = o1 ++ o2 -> True) by auto.
    assert (CH : forall h, (b2n (pong_op (close_handler (set_job t1 n (set_wbh (jobs (T s) n) None)) n err h)) <= b2n (match jhandler (jobs (T s) n) with Some HPong => true | _ => false end))%nat).
    { intros hh. unfold close_handler. assert (Q : jhandler (jobs (set_job t1 n (set_wbh (jobs (T s) n) None)) n) = jhandler (jobs (T s) n)) by (cbn [set_job set_jobs jobs]; rewrite upd_same; reflexivity).
      rewrite Q. clear. destruct n; cbn [pong_op]; try (cbn; lia); destruct (jhandler _) as [[?|]|]; try destruct (Z.eqb err CIO_SUCCESS); cbn; lia. }
    destruct sh; cbn [T set_T] in H.
    + cbn [jhandler set_job set_jobs jobs] in H. rewrite upd_same in H. cbn [set_wbh jhandler] in H. destruct (jhandler (jobs (T s) n)) as [h|] eqn:Hh; [|discriminate H]. injection H as <- <-.
      apply (mk_quiet _ _ _ _ []); try reflexivity.
      * apply erring_pop; reflexivity.
      * unfold pongtok. cbn [T set_T set_job set_jobs jobs app filter pong_op]. rewrite J.
        destruct h; cbn [filter b2n] in *; [|destruct (Z.eqb err CIO_SUCCESS)]; cbn [length]; lia.
    + injection H as <- <-. apply (mk_quiet _ _ _ _ []); try reflexivity.
      * apply erring_pop; reflexivity.
      * unfold pongtok. cbn [T set_T set_job set_jobs jobs app filter pong_op]. rewrite J. lia.
    + injection H as <- <-. apply (mk_quiet _ _ _ _ []); try reflexivity.
      * apply erring_pop; reflexivity.
      * unfold pongtok. cbn [T set_T set_job set_jobs jobs app filter pong_op]. rewrite J.
        specialize (CH (tl c1)). destruct (pong_op _); cbn [length b2n] in *; destruct (jhandler (jobs (T s) n)) as [[?|]|]; cbn [b2n] in *; lia.
    + injection H as <- <-. apply (mk_quiet _ _ _ _ []); try reflexivity.
      * apply erring_pop; reflexivity.
      * unfold pongtok. cbn [T set_T set_job set_jobs jobs app filter pong_op]. rewrite J.
        specialize (CH (tl c1)). destruct (pong_op _); cbn [length b2n] in *; destruct (jhandler (jobs (T s) n)) as [[?|]|]; cbn [b2n] in *; lia.
  - (* a write handler *)
    destruct h as [[id|]|]; injection H as <- <-.
    + apply (mk_quiet _ _ _ _ [EvWriteDone n id err c]); try reflexivity. apply erring_pop; reflexivity.
    + apply (mk_quiet _ _ _ _ []); try reflexivity; [apply erring_pop; reflexivity|].
      unfold pongtok. cbn [app filter pong_op]. destruct (Z.eqb err CIO_SUCCESS); reflexivity.
    + apply (mk_quiet _ _ _ _ []); try reflexivity. apply erring_pop; reflexivity.
  - (* the close handler *)
    unfold call_handler in H. destruct (jhandler (jobs (T s) JClose)) as [[id|]|] eqn:Hh; [| |].
    + injection H as <- <-. apply (mk_quiet _ _ _ _ [EvWriteDone JClose id err c]); try reflexivity. apply erring_pop; reflexivity.
    + destruct (NP eq_refl).
    + injection H as <- <-. apply (mk_quiet _ _ _ _ []); try reflexivity. apply erring_pop; reflexivity.
  - (* next job *)
    destruct j as [n|].
    + destruct (jwbh (jobs (T s) n)) as [c|]; [|discriminate]. binv H. destruct a as [s1 r]. cbn [fst snd] in H.
      apply send_frame_frame in E. destruct E as ((c1 & c2 & c3 & c4 & c5 & c6 & c7 & c8 & c9) & (cc & c0 & E2 & _) & _ & _ & E5 & _).
      assert (s1 = s' /\ length (filter pong_op ops) = 0%nat) as [<- OK] by (destruct r; injection H as <- <-; split; reflexivity).
      apply (mk_quiet _ _ _ _ [EvSend n cc]); try assumption; try reflexivity.
      * apply erring_pop; [reflexivity|exact c2].
      * unfold pongtok. rewrite (pongs_like _ _ E5), filter_app_len, OK. cbn [filter pong_op]. lia.
    + injection H as <- <-. apply (mk_quiet _ _ _ _ []); try reflexivity. apply erring_pop; reflexivity.
  - (* pong written *)
    destruct (Z.eqb err CIO_SUCCESS) eqn:B; cbn [negb] in H.
    + apply Z.eqb_eq in B. subst err. injection H as H. eapply pong_read_quiet; [auto|exact H|exact Ht].
    + injection H as <- <-. apply (mk_quiet _ _ _ _ []); try reflexivity.
      * apply erring_pop; reflexivity.
      * unfold pongtok. cbn [app filter pong_op]. rewrite B. lia.
  - injection H as <- <-. apply (mk_quiet _ _ _ _ []); try reflexivity. apply erring_pop; reflexivity.
  - injection H as <- <-. apply (mk_quiet _ _ _ _ [EvRet err]); try reflexivity. apply erring_pop; reflexivity.
Qed.

(** API calls. *)
Lemma ping_pong_quiet s0 k s type n id p ch s' ops :
  write_ping_or_pong C s type n id p ch = Ret (s', ops) ->
  R s = R s0 -> inp s = inp s0 -> rd s = rd s0 -> T s = T s0 -> cbe s = cbe s0 ->
  (exists es, tr s = es ++ tr s0 /\ forallb quiet_ev es = true) ->
  quiet s0 k s' (ops ++ k).
Proof.
  intros H E1 E2 E3 E4 E5 (es & E6 & E7). unfold write_ping_or_pong, refuse in H.
  assert (RF : forall e, quiet s0 k (log s (EvRefuse e)) ([] ++ k)).
  { intros e. apply (mk_quiet _ _ _ _ (EvRefuse e :: es)); cbn; try assumption; try (f_equal; assumption).
    - unfold erring. cbn. rewrite E5. auto.
    - unfold pongtok. cbn. rewrite E4. reflexivity. }
  destruct id as [id|]; [|injection H as <- <-; apply RF].
  destruct (negb (payload_size_in_limit p SMALL_FRAME_SIZE)); [injection H as <- <-; apply RF|].
  destruct (jwbh (jobs (T s) n)) eqn:W; [injection H as <- <-; apply RF|].
  destruct p as [c|]; [|discriminate].
  eapply enqueue_quiet; [exact H|reflexivity|exact E1|exact E2|exact E3| | | |].
  - eexists (EvAccept n _ _ :: es). cbn. split; [f_equal; exact E6|exact E7].
  - cbn. rewrite E5. auto.
  - auto.
  - unfold pongtok. cbn [T log set_T set_job set_jobs jobs]. rewrite E4.
    match goal with |- context [upd _ n ?j] => pose proof (pongs_upd (jobs (T s0)) n j) as PU end.
    cbn [pong_job jwbh jhandler b2n] in PU. lia.
Qed.

Lemma call_quiet s k a ch s' ops : a <> ARead -> call C s a ch = Ret (s', ops) -> quiet s k s' (ops ++ k).
Proof.
  intros NA H. unfold call, refuse in H.
  assert (RF : forall e, quiet s k (log (log s (EvCall a)) (EvRefuse e)) ([] ++ k)).
  { intros e. apply (mk_quiet _ _ _ _ [EvRefuse e; EvCall a]); try reflexivity; auto. destruct a; try reflexivity. congruence. }
  destruct a as [|id flen p lf bin|id p|id p|id p|id code reason]; [congruence| | | | |].
  - destruct id as [id|]; [|injection H as <- <-; apply RF].
    cbn [T log] in H. destruct (jwbh (jobs (T s) JMsg)) eqn:W; [injection H as <- <-; apply RF|].
    destruct (if fragw (T s) then _ else _) as [kind fw] in H.
    eapply enqueue_quiet; [exact H|reflexivity|reflexivity|reflexivity|reflexivity| | | |].
    + eexists [EvAccept JMsg _ _; EvCall (AFirst (Some id) flen p lf bin)]. split; reflexivity.
    + auto.
    + auto.
    + unfold pongtok. cbn [T log set_T set_fragw set_job set_jobs jobs].
      match goal with |- context [upd _ _ ?j] => pose proof (pongs_upd (jobs (T s)) JMsg j) as PU; assert (pong_job j = false) as PJ by (unfold pong_job; cbn [jwbh jhandler]; destruct p; reflexivity) end.
      rewrite PJ in PU. cbn [b2n] in PU. lia.
  - eapply enqueue_quiet; [exact H|reflexivity|reflexivity|reflexivity|reflexivity| | | |].
    + eexists [EvAccept JMsg _ _; EvCall (ACont id p)]. split; reflexivity.
    + auto.
    + auto.
    + unfold pongtok. cbn [T log set_T set_fragw set_job set_jobs jobs].
      match goal with |- context [upd _ _ ?j] => pose proof (pongs_upd (jobs (T s)) JMsg j) as PU; assert (pong_job j = false) as PJ by (unfold pong_job; cbn [jwbh jhandler]; destruct p, id; reflexivity) end.
      rewrite PJ in PU. cbn [b2n] in PU. lia.
  - eapply ping_pong_quiet; [exact H| | | | | |]; try reflexivity. exists [EvCall (APing id p)]. split; reflexivity.
  - eapply ping_pong_quiet; [exact H| | | | | |]; try reflexivity. exists [EvCall (APong id p)]. split; reflexivity.
  - destruct id as [id|]; [|injection H as <- <-; apply RF].
    cbn [T log] in H. destruct (jwbh (jobs (T s) JClose)) eqn:W; [injection H as <- <-; apply RF|].
    match type of H with context [prepare_close_job C ?x ?a ?b ?c ?d ?e] => set (s1 := prepare_close_job C x a b c d e) in * end.
    assert (PT : (pongs (jobs (T s1)) <= pongs (jobs (T s)))%nat).
    { subst s1. unfold prepare_close_job. cbn [T log set_T set_job set_jobs jobs].
      match goal with |- context [upd _ _ ?j] => pose proof (pongs_upd (jobs (T s)) JClose j) as PU end.
      cbn [pong_job jwbh jhandler b2n] in PU. lia. }
    assert (RF2 : forall e, quiet s k (log s1 (EvRefuse e)) ([] ++ k)).
    { intros e. apply (mk_quiet _ _ _ _ [EvRefuse e; EvCall (AClose (Some id) code reason)]); try reflexivity; auto.
      unfold pongtok. cbn [T log app]. lia. }
    destruct (negb _); [injection H as <- <-; apply RF2|].
    destruct (negb _); [injection H as <- <-; apply RF2|].
    eapply enqueue_quiet; [exact H|reflexivity|reflexivity|reflexivity|reflexivity| | | |].
    + eexists [EvAccept JClose _ _; EvCall (AClose (Some id) code reason)]. split; reflexivity.
    + auto.
    + auto.
    + unfold pongtok, accept_close. cbn [T log set_selfc set_timer]. lia.
Qed.

Lemma read_quiet s k ch s' ops : may_read (tr s) = true -> call C s ARead ch = Ret (s', ops) ->
  (tokens s k <= 1)%nat -> quiet s k s' (ops ++ k).
Proof.
  intros M H Ht. unfold call in H.
  unfold tokens in Ht. rewrite M in Ht. cbn [b2n] in Ht.
  assert (RD : rd s = None). { destruct (rd s); [cbn [has b2n] in Ht; lia|reflexivity]. }
  assert (PT : pongtok s k = 0%nat) by lia.
  assert (PS : (pongs (jobs (T s)) = 0 /\ length (filter pong_op k) = 0)%nat) by (unfold pongtok in PT; lia). destruct PS as [P1 P2].
  assert (REQ : forall rq o, (exists cb m n, rq = RReq cb m n) -> rq = next_req (R s) -> length (filter pong_op o) = 0%nat -> existsb is_err o = false ->
     quiet s k (set_rd (set_hasrh (log s (EvCall ARead))) (Some rq)) (o ++ k)).
  { intros rq o _ E O1 O2. split; try reflexivity.
    - cbn. apply app_nil_r.
    - intros [X | X]; [left; exact X|right; apply existsb_app_r, X].
    - unfold tokens, pongtok. cbn [tr rd T set_rd set_hasrh log may_read has b2n]. rewrite filter_app_len, O1, P1, P2, M, RD. cbn. lia.
    - intros _ q [X | [[X _] | [X ->]]]; cbn [rd tr set_rd set_hasrh log may_read] in X.
      + injection X as <-. right; left. split; [exact M|exact E].
      + discriminate.
      + unfold pongtok in X. cbn [T set_rd set_hasrh log] in X. rewrite filter_app_len, O1, P1, P2 in X. lia. }
  cbn [set_hasrh log R] in H. unfold next_req in REQ. destruct (rem (R s) =? 0).
  - unfold bs_read in H. cbn [negb andb] in H. destruct (rbsize C <? 1).
    + injection H as <- <-. split; try reflexivity.
      * cbn. apply app_nil_r.
      * intros _. right. reflexivity.
      * cbn. auto.
      * unfold tokens, pongtok. cbn [tr rd T set_hasrh log may_read has b2n app filter pong_op]. rewrite P1, P2, M, RD. cbn. lia.
      * intros _ q [X | [[X _] | [X ->]]]; cbn [rd tr set_hasrh log may_read] in X; [congruence|discriminate|].
        unfold pongtok in X. cbn [T set_hasrh log app filter pong_op] in X. rewrite P1, P2 in X. lia.
    + injection H as <- <-. apply REQ; eauto; destruct (Nat.eqb _ 0); reflexivity.
  - unfold bs_read in H. cbn [negb andb] in H. injection H as <- <-. apply REQ; eauto; destruct (Nat.eqb _ 0); reflexivity.
Qed.

(** ** Texts *)
Lemma texts_app cur l k : texts cur (l ++ k) =
  (fst (texts cur l) ++ fst (texts (snd (texts cur l)) k), snd (texts (snd (texts cur l)) k)).
Proof.
  revert cur. induction l as [|o r IH]; intros cur; cbn [app texts fst snd].
  - destruct (texts cur k); reflexivity.
  - destruct o as [[|] f n b|[|] [|] n|kd pl]; try apply IH.
    rewrite IH. destruct (texts [] r) as [dn c]. reflexivity.
Qed.

Lemma texts_bytes f len x : forall cur, texts cur (map (OutByte false f len) x) = ([], cur ++ x).
Proof.
  induction x as [|b r IH]; intros cur; cbn [map texts]; [rewrite app_nil_r; reflexivity|].
  rewrite IH, <- app_assoc. reflexivity.
Qed.
Lemma texts_bin f len x : forall cur, texts cur (map (OutByte true f len) x) = ([], cur).
Proof. induction x as [|b r IH]; intros cur; cbn [map texts]; [reflexivity|apply IH]. Qed.

Lemma texts_chunk l f len x (lc : bool) :
  complete_texts (l ++ map (OutByte false f len) x ++ (if lc then [OutEnd false f len] else [])) =
    complete_texts l ++ (if (lc && f)%bool then [current_text l ++ x] else []) /\
  current_text (l ++ map (OutByte false f len) x ++ (if lc then [OutEnd false f len] else [])) =
    (if (lc && f)%bool then [] else current_text l ++ x).
Proof.
  unfold complete_texts, current_text. rewrite !texts_app. cbn [fst snd]. rewrite texts_bytes. cbn [fst snd app].
  destruct lc, f; cbn [andb texts fst snd]; rewrite ?app_nil_r; split; reflexivity.
Qed.

Lemma texts_bin_chunk l f len x (lc : bool) :
  texts [] (l ++ map (OutByte true f len) x ++ (if lc then [OutEnd true f len] else [])) = texts [] l.
Proof.
  rewrite !texts_app, texts_bin. cbn [fst snd app]. destruct lc; cbn [texts fst snd]; rewrite app_nil_r; destruct (texts [] l); reflexivity.
Qed.

Lemma texts_control l kd pl : texts [] (l ++ [OutControl kd pl]) = texts [] l.
Proof. rewrite texts_app. cbn [texts fst snd]. rewrite app_nil_r. destruct (texts [] l); reflexivity. Qed.

(** ** Inside a callback: the token is being used *)
Record bare (s : ws) (k : list op) (d : dstate) (o : list out) : Prop := {
  b_mask : length (rmask (R s)) = 4%nat /\ bytes_ok (rmask (R s)) /\ qok (u_state (utf8 (R s)));
  b_rd : rd s = None; b_mr : may_read (tr s) = false; b_pong : pongtok s k = 0%nat;
  b_dec : decode sv (inp s) = (d, delivered (tr s) ++ o);
  b_utf : u_state (utf8 (R s)) = drun 0 (current_text (delivered (tr s)));
  b_txt : text_sound (delivered (tr s)) }.

Lemma bare_tokens s k d o : bare s k d o -> tokens s k = 0%nat.
Proof. intros [b1 b2 b3 b4 b5 b6 b7]. unfold tokens. rewrite b2, b3, b4. reflexivity. Qed.

(** Any error or a mere end of reading. *)
Lemma bare_inv s k d o ops : bare s k d o -> length (filter pong_op ops) = 0%nat ->
  ((o = [] /\ d <> DFailed) \/ existsb is_err ops = true) -> inv s (ops ++ k).
Proof.
  intros B O E. pose proof (bare_tokens _ _ _ _ B) as BT. destruct B as [b1 b2 b3 b4 b5 b6 b7].
  assert (TK : tokens s (ops ++ k) = 0%nat).
  { unfold tokens, pongtok in *. rewrite filter_app_len, O. lia. }
  split; try assumption.
  - lia.
  - intros rq [X | [[X _] | [X _]]]; [congruence|congruence|]. unfold tokens in TK. lia.
  - intros X; lia.
  - intros X; lia.
  - rewrite b5. cbn [snd]. exists o. split; [reflexivity|]. destruct E as [[E _]|E]; [left; exact E|].
    right. right. rewrite existsb_app, E. reflexivity.
  - rewrite b5. cbn [fst]. intros X. destruct E as [[_ E]|E]; [congruence|]. right. right. rewrite existsb_app, E. reflexivity.
Qed.

Lemma bare_read s k d cb most n msg s' ops : bare s k d [] -> Rel (RReq cb most n) (R s) d ->
  bs_read C s cb most n msg = (s', ops) -> inv s' (ops ++ k).
Proof.
  intros B RL H. unfold bs_read in H. destruct (_ && _)%bool.
  - injection H as <- <-. eapply bare_inv; [exact B|reflexivity|right; reflexivity].
  - assert (O : length (filter pong_op ops) = 0%nat) by (injection H as <- <-; destruct (Nat.eqb _ 0); reflexivity).
    injection H as <- _. destruct B as [b1 b2 b3 b4 b5 b6 b7].
    assert (PT : (pongs (jobs (T s)) = 0 /\ length (filter pong_op k) = 0)%nat) by (unfold pongtok in b4; lia). destruct PT as [P1 P2].
    split; cbn [R set_rd tr inp].
    + exact b1.
    + unfold tokens, pongtok. cbn [tr rd T set_rd has b2n]. rewrite b3, filter_app_len, O, P1, P2. cbn. lia.
    + rewrite b5. cbn [fst]. intros rq [X | [[X _] | [X _]]]; cbn [rd tr set_rd] in X.
      * injection X as <-. exact RL.
      * congruence.
      * unfold pongtok in X. cbn [T set_rd] in X. rewrite filter_app_len, O, P1, P2 in X. lia.
    + intros _. exact b6.
    + exact b7.
    + intros _. rewrite b5. cbn [snd]. apply app_nil_r.
    + rewrite b5. exists []. split; [reflexivity|left; reflexivity].
    + intros _. left. reflexivity.
Qed.

(** Delivery of a chunk: the token goes to the application. *)
Lemma deliver_inv s k d o bin flen data lc lf :
  (length (rmask (R s)) = 4%nat /\ bytes_ok (rmask (R s)) /\ qok (u_state (utf8 (R s)))) ->
  rd s = None -> pongtok s k = 0%nat ->
  decode sv (inp s) = (d, delivered (tr s) ++ o) ->
  o = outs_of (EvData bin flen data lc lf) ->
  Rel (next_req (R s)) (R s) d -> d <> DFailed ->
  u_state (utf8 (R s)) = drun 0 (current_text (delivered (tr s) ++ o)) ->
  text_sound (delivered (tr s) ++ o) ->
  inv (log s (EvData bin flen data lc lf)) ([OUser] ++ k).
Proof.
  intros M RD PT DC -> RL ND U X. unfold pongtok in PT. split; cbn [R log tr inp].
  - exact M.
  - unfold tokens, pongtok. cbn [tr rd T log has b2n may_read app filter pong_op]. rewrite RD. cbn. lia.
  - rewrite DC. cbn [fst]. intros rq [Y | [[_ ->] | [Y _]]]; cbn [rd log] in *.
    + congruence.
    + exact RL.
    + unfold pongtok in Y. cbn [T log app filter pong_op] in Y. lia.
  - intros _. exact U.
  - exact X.
  - intros _. rewrite DC. reflexivity.
  - rewrite DC. cbn [snd delivered]. exists []. rewrite app_nil_r. split; [reflexivity|left; reflexivity].
  - rewrite DC. cbn [fst]. congruence.
Qed.

Definition unmask (r : rx) (data : list N) : list N := if sv then rfc_mask (rmask r) data else data.

(** What was consumed of the current frame, in the decoder's view. *)
Definition frame_view (s : ws) (data : list N) (d : dstate) (o : list out) : Prop :=
  (exists m f bin len, hdr (R s) m f (KData bin) /\ rfl (R s) = len /\
     o = map (OutByte bin f len) (unmask (R s) data) ++ (if rem (R s) =? 0 then [OutEnd bin f len] else []) /\
     (if rem (R s) =? 0 then d = DHead m
      else exists key got, d = DPayload m f (KData bin) len key got /\
        rem (R s) + N.of_nat (length got) = len /\ length key = 4%nat /\ bytes_ok key /\ len <= SIZE_MAX /\
        (if sv then rot (rmask (R s)) (length data) = rot key (length got) else key = [0; 0; 0; 0]))) \/
  (exists m op, hdr (R s) m true (KControl op) /\ (length data <= 125)%nat /\
     o = [OutControl op (unmask (R s) data)] /\ d = (if op =? 8 then DClosed else DHead m)) \/
  (d = DFailed /\ o = [] /\ bad_op (opcode (R s))).

Lemma unmask_run s data addr : length (rmask (R s)) = 4%nat -> bytes_ok (rmask (R s)) -> bytes_ok data ->
  (if sv then ws_mask (endian C) (wordsize C) addr data 0 (length data) (rmask (R s)) else Ret data) = Ret (unmask (R s) data).
Proof.
  intros L K B. unfold unmask. destruct sv; [|reflexivity]. apply ws_mask_whole; assumption.
Qed.

Lemma unmask_length r data : length (unmask r data) = length data.
Proof. unfold unmask. destruct sv; [apply rfc_mask_from_length|reflexivity]. Qed.

Lemma unmask_ok r data : length (rmask r) = 4%nat -> bytes_ok (rmask r) -> bytes_ok data -> bytes_ok (unmask r data).
Proof. intros. unfold unmask. destruct sv; [|assumption]. unfold rfc_mask. apply rfc_mask_from_ok; assumption. Qed.

(** State after a chunk was handed over, mask corrected if the frame goes on. *)
Lemma next_rel (s : ws) (data : list N) d m f bin len (r' : rx) : hdr (R s) m f (KData bin) -> rfl (R s) = len ->
  (if rem (R s) =? 0 then d = DHead m
      else exists key got, d = DPayload m f (KData bin) len key got /\
        rem (R s) + N.of_nat (length got) = len /\ length key = 4%nat /\ bytes_ok key /\ len <= SIZE_MAX /\
        (if sv then rot (rmask (R s)) (length data) = rot key (length got) else key = [0; 0; 0; 0])) ->
  fin r' = fin (R s) -> opcode r' = opcode (R s) -> frag r' = frag (R s) -> rem r' = rem (R s) -> rfl r' = rfl (R s) ->
  rmask r' = (if rem (R s) =? 0 then rmask (R s) else rot (rmask (R s)) (length data)) ->
  Rel (next_req r') r' d.
Proof.
  intros (h1 & h2 & h3 & h4) L D E1 E2 E3 E4 E5 E6. unfold next_req. rewrite E4.
  destruct (rem (R s) =? 0) eqn:Z.
  - cbn [Rel hd_req rq_cb rq_most rq_n]. split; [reflexivity|]. split; [reflexivity|]. exists m. split; [exact D|congruence].
  - cbn [Rel rq_cb rq_most rq_n]. split; [congruence|]. split; [apply N.eqb_neq in Z; lia|]. left.
    destruct D as (key & got & D & D1 & D2 & D3 & D4 & D5). exists m, f, (KData bin), len, key, got.
    unfold hdr. rewrite E1, E2, E3, E4, E5. repeat match goal with |- _ /\ _ => split end; try assumption; try exact I; try reflexivity.
    destruct sv; [congruence|exact D5].
Qed.

Lemma handle_binary_inv s k d data m f len s' ops :
  bare s k d (map (OutByte true f len) data ++ (if rem (R s) =? 0 then [OutEnd true f len] else [])) ->
  hdr (R s) m f (KData true) -> rfl (R s) = len ->
  (if rem (R s) =? 0 then d = DHead m
      else exists key got, d = DPayload m f (KData true) len key got /\
        rem (R s) + N.of_nat (length got) = len /\ length key = 4%nat /\ bytes_ok key /\ len <= SIZE_MAX /\
        (if sv then rot (rmask (R s)) (length data) = rot key (length got) else key = [0; 0; 0; 0])) ->
  handle_binary_frame s data f = Ret (s', ops) -> inv s' (ops ++ k).
Proof.
  intros [(b1 & b1' & b1'') b2 b3 b4 b5 b6 b7] HD L D H. subst len.
  assert (ND : d <> DFailed) by (destruct (rem (R s) =? 0); [rewrite D; discriminate|destruct D as (? & ? & -> & _); discriminate]). unfold handle_binary_frame in H.
  rewrite correct_mask_rot in H by assumption. destruct (rem (R s) =? 0) eqn:Z; cbn [obind] in H; injection H as <- <-.
  - eapply deliver_inv; try eassumption.
    + auto.
    + reflexivity.
    + eapply (next_rel s data); try reflexivity; try eassumption; rewrite Z; [exact D|reflexivity].
    + unfold current_text in *. rewrite (texts_bin_chunk _ f (rfl (R s)) data true). exact b6.
    + unfold text_sound, complete_texts, current_text in *. rewrite (texts_bin_chunk _ f (rfl (R s)) data true). exact b7.
  - eapply deliver_inv; cbn [R set_R set_rmask rmask utf8 rd T inp tr]; try eassumption.
    + split; [apply rot_length|]. split; [apply rot_ok; assumption|exact b1''].
    + reflexivity.
    + eapply (next_rel s data); try reflexivity; try eassumption; rewrite Z; [exact D|reflexivity].
    + unfold current_text in *. rewrite (texts_bin_chunk _ f (rfl (R s)) data false). exact b6.
    + unfold text_sound, complete_texts, current_text in *. rewrite (texts_bin_chunk _ f (rfl (R s)) data false). exact b7.
Qed.

Lemma handle_text_inv s k d addr data m f len s' ops :
  bytes_ok data ->
  bare s k d (map (OutByte false f len) data ++ (if rem (R s) =? 0 then [OutEnd false f len] else [])) ->
  hdr (R s) m f (KData false) -> rfl (R s) = len ->
  (if rem (R s) =? 0 then d = DHead m
      else exists key got, d = DPayload m f (KData false) len key got /\
        rem (R s) + N.of_nat (length got) = len /\ length key = 4%nat /\ bytes_ok key /\ len <= SIZE_MAX /\
        (if sv then rot (rmask (R s)) (length data) = rot key (length got) else key = [0; 0; 0; 0])) ->
  handle_text_frame C s addr data f = Ret (s', ops) -> inv s' (ops ++ k).
Proof.
  intros BD B HD L D H. subst len.
  assert (ND : d <> DFailed) by (destruct (rem (R s) =? 0); [rewrite D; discriminate|destruct D as (? & ? & -> & _); discriminate]). pose proof B as [(b1 & b1' & b1'') b2 b3 b4 b5 b6 b7]. unfold handle_text_frame in H.
  assert (W : 0 < N.of_nat (wordsize C)) by (destruct HC as [-> | ->]; reflexivity).
  destruct (check_utf8_drun _ (N.of_nat addr) (utf8 (R s)) data W b1'' BD) as (u & CU & US).
  rewrite CU in H. cbn [obind] in H. cbn [rem R set_R set_utf8] in H.
  assert (QU : qok (u_state u)) by (rewrite US; apply drun_ok; exact b1'').
  set (q := drun (u_state (utf8 (R s))) data) in *.
  assert (Q : q = drun 0 (current_text (delivered (tr s)) ++ data)) by (unfold q; rewrite b6, drun_app; reflexivity).
  destruct ((q =? CIO_UTF8_REJECT) || f && negb (q =? CIO_UTF8_ACCEPT))%bool eqn:BAD.
  - injection H as <- <-.
    match goal with |- inv _ ([?e] ++ k) => assert (IE : inv s ([e] ++ k)) end.
    { eapply bare_inv; [exact B|reflexivity|right; reflexivity]. }
    assert (TK : tokens s k = 0%nat) by (eapply bare_tokens; exact B).
    destruct IE as [j1 j2 j3 j4 j4' j5 j6 j7]. split; cbn [R set_R set_utf8 rmask utf8 tr inp] in *; try assumption.
    + tauto.
    + intros X. unfold tokens, pongtok in *. cbn [rd tr T set_R app filter pong_op] in X. lia.
  - apply orb_false_elim in BAD. destruct BAD as [NR FA]. apply N.eqb_neq in NR. unfold CIO_UTF8_REJECT, CIO_UTF8_ACCEPT in *.
    assert (FQ : f = true -> q = 0).
    { intros ->. cbn [andb] in FA. apply negb_false_iff, N.eqb_eq in FA. exact FA. }
    set (lc := rem (R s) =? 0) in *.
    destruct (texts_chunk (delivered (tr s)) f (rfl (R s)) data lc) as [TC1 TC2].
    assert (SND : text_sound (delivered (tr s) ++ map (OutByte false f (rfl (R s))) data ++ (if lc then [OutEnd false f (rfl (R s))] else []))).
    { unfold text_sound. rewrite TC1, TC2. destruct b7 as [b7 b7']. destruct (lc && f)%bool eqn:LF.
      - apply andb_prop in LF. destruct LF as [_ LF]. split.
        + apply Forall_app. split; [exact b7|]. constructor; [|constructor]. apply drun_accept. rewrite <- Q. apply FQ, LF.
        + apply drun_not_reject. cbn. discriminate.
      - rewrite app_nil_r. split; [exact b7|]. apply drun_not_reject. rewrite <- Q. exact NR. }
    assert (UQ : forall u', u_state u' = (if f then 0 else q) -> u_state u' = drun 0 (current_text (delivered (tr s) ++ map (OutByte false f (rfl (R s))) data ++ (if lc then [OutEnd false f (rfl (R s))] else [])))).
    { intros u' E. rewrite TC2. destruct f.
      - rewrite E. destruct lc; cbn [andb]; [reflexivity|]. rewrite <- Q. symmetry. apply FQ. reflexivity.
      - rewrite andb_false_r, <- Q. exact E. }
    assert (RELX : forall r', fin r' = fin (R s) -> opcode r' = opcode (R s) -> frag r' = frag (R s) -> rem r' = rem (R s) -> rfl r' = rfl (R s) ->
       rmask r' = (if lc then rmask (R s) else rot (rmask (R s)) (length data)) -> Rel (next_req r') r' d).
    { intros r' e1 e2 e3 e4 e5 e6. apply (next_rel s data d m f false (rfl (R s))); try assumption; reflexivity. }
    assert (Q0 : qok 0) by apply qok_0.
    destruct f; cbn [rmask R set_R set_utf8] in H; unfold lc in *; destruct (rem (R s) =? 0) eqn:Z; cbn [obind] in H;
      try (rewrite correct_mask_rot in H by assumption; cbn [obind] in H); injection H as <- <-;
      (eapply deliver_inv; cbn [R set_R set_utf8 set_rmask rmask utf8 utf8_init u_state rd T inp tr rfl fin opcode frag rem];
       [ repeat match goal with |- _ /\ _ => split end; try assumption; try apply rot_length; try (apply rot_ok; assumption)
       | eassumption | eassumption | eassumption
       | reflexivity
       | apply RELX; reflexivity
       | exact ND
       | first [apply (UQ (mk_utf8 0 0)); reflexivity | apply (UQ u); exact US]
       | exact SND ]).
Qed.

(** Logging a control frame settles the decoder's output for it. *)
Lemma bare_control s k d kd x : bare s k d [OutControl kd x] -> bare (log s (EvControl kd x)) k d [].
Proof.
  intros [b1 b2 b3 b4 b5 b6 b7]. split; cbn [R log rd tr T inp may_read]; try assumption.
  - rewrite b5. cbn [delivered outs_of]. rewrite app_nil_r. reflexivity.
  - cbn [delivered outs_of]. unfold current_text. rewrite texts_control. exact b6.
  - cbn [delivered outs_of]. unfold text_sound, complete_texts, current_text. rewrite texts_control. exact b7.
Qed.

Lemma handle_ping_inv s k m x ch s' ops :
  bare s k (DHead m) [OutControl PING_FRAME x] -> frag (R s) = enc_m m ->
  handle_ping_frame C s x ch = Ret (s', ops) -> inv s' (ops ++ k).
Proof.
  intros B F H. apply bare_control in B. unfold handle_ping_frame in H.
  destruct (Nat.ltb 125 (length x)); [discriminate|].
  set (c := if Nat.ltb 0 (length x) then [(ch_addr ch, x)] else []) in *.
  set (s1 := log s (EvControl PING_FRAME x)) in *.
  match type of H with enqueue_job _ ?a _ _ _ _ = _ => set (s2 := a) in * end.
  apply enqueue_frame in H. destruct H as ((c1 & c2 & c3 & c4 & c5 & c6 & c7 & c8 & c9) & HT & HJ & _ & HO).
  destruct B as [b1 b2 b3 b4 b5 b6 b7].
  assert (PT : (pongs (jobs (T s)) = 0 /\ length (filter pong_op k) = 0)%nat) by (unfold pongtok in b4; subst s1; cbn [T log] in b4; lia). destruct PT as [P1 P2].
  assert (P3 : pongs (jobs (T s')) = 1%nat).
  { rewrite (pongs_like _ _ HJ). subst s2 s1. cbn [T log set_T set_job set_jobs jobs].
    match goal with |- context [upd _ _ ?j] => pose proof (pongs_upd (jobs (T s)) JPong j) as PU end.
    match type of PU with context [b2n (pong_job (Job ?a ?b ?c ?d ?e ?f ?g))] => replace (pong_job (Job a b c d e f g)) with true in PU by reflexivity end.
    cbn [b2n] in PU.
    assert (b2n (pong_job (jobs (T s) JPong)) = 0%nat) by (unfold pongs in P1; lia).
    etransitivity; [|exact (eq_refl 1%nat)]. rewrite P1 in PU. rewrite H in PU. rewrite Nat.add_0_r in PU. exact PU. }
  assert (O : length (filter pong_op ops) = 0%nat).
  { destruct HO as [-> | [(sh & e & ->) | (e & msg & ->)]]; reflexivity. }
  assert (TR : delivered (tr s') = delivered (tr s1) /\ may_read (tr s') = may_read (tr s1)).
  { destruct HT as [-> | [cc ->]]; subst s2; cbn [tr log set_T delivered outs_of may_read]; rewrite ?app_nil_r; split; reflexivity. }
  destruct TR as [TD TM].
  assert (RE : R s' = R s) by (rewrite c1; reflexivity).
  assert (IE : inp s' = inp s) by (rewrite c9; reflexivity).
  assert (DE : rd s' = None) by (rewrite c7; exact b2).
  rewrite <- RE in *. cbn [R s1 log inp tr] in b1, b5, b6.
  split.
  - rewrite RE. exact b1.
  - unfold tokens, pongtok. rewrite TM, b3, DE, P3, filter_app_len, O, P2. cbn. lia.
  - rewrite IE, b5. cbn [fst]. intros rq [X | [[X _] | [_ ->]]]; [congruence|congruence|].
    cbn. split; [reflexivity|]. split; [reflexivity|]. exists m. split; [reflexivity|exact F].
  - intros _. rewrite TD, RE. exact b6.
  - rewrite TD. exact b7.
  - intros _. rewrite TD, IE, b5. cbn [snd]. apply app_nil_r.
  - exists []. rewrite TD, IE, b5. split; [reflexivity|left; reflexivity].
  - rewrite IE, b5. cbn [fst]. discriminate.
Qed.

Lemma handle_pong_inv s k m x s' ops :
  bare s k (DHead m) [OutControl PONG_FRAME x] -> frag (R s) = enc_m m ->
  handle_pong_frame C s x = (s', ops) -> inv s' (ops ++ k).
Proof.
  intros B F H. apply bare_control in B. unfold handle_pong_frame in H.
  eapply bare_read; [exact B| |exact H]. cbn. split; [reflexivity|]. split; [reflexivity|]. exists m. auto.
Qed.

Lemma handle_close_inv s k addr x ch s' ops :
  bare s k DClosed [OutControl CLOSE_FRAME x] ->
  handle_close_frame C s addr x ch = Ret (s', ops) -> inv s' (ops ++ k).
Proof.
  intros B H. unfold handle_close_frame in H. binv H. destruct a as [code reason|status len].
  - injection H as <- <-. eapply bare_inv; [exact B|reflexivity|right; reflexivity].
  - apply bare_control in B. set (s1 := log s (EvControl CLOSE_FRAME x)) in *. destruct (selfc s1).
    + injection H as <- <-.
      apply (bare_inv (set_timer s1 false) k DClosed [] [OClose]); [|reflexivity|left; split; [reflexivity|discriminate]].
      destruct B as [b1 b2 b3 b4 b5 b6 b7]. split; assumption.
    + assert (I : inv s1 k). { apply (bare_inv s1 k DClosed [] []); [exact B|reflexivity|left; split; [reflexivity|discriminate]]. }
      refine (quiet_inv _ _ _ _ _ I).
      eapply enqueue_quiet; [exact H|reflexivity|reflexivity|reflexivity|reflexivity| | | |].
      * eexists [EvAccept JClose _ _]. split; reflexivity.
      * auto.
      * auto.
      * unfold pongtok, accept_close, prepare_close_job. cbn [T log set_T set_job set_jobs jobs].
        match goal with |- context [upd _ _ ?j] => pose proof (pongs_upd (jobs (T s1)) JClose j) as PU end.
        cbn [pong_job jwbh jhandler b2n] in PU. lia.
Qed.

Lemma handle_frame_inv s k addr data d o ch s' ops :
  bytes_ok data -> bare s k d o -> frame_view s data d o ->
  handle_frame C s addr data ch = Ret (s', ops) -> inv s' (ops ++ k).
Proof.
  intros BD B V H. unfold handle_frame in H. pose proof (b_mask _ _ _ _ B) as (M1 & M2 & M3).
  rewrite unmask_run in H by assumption. cbn [obind] in H. set (x := unmask (R s) data) in *.
  assert (BX : bytes_ok x) by (apply unmask_ok; assumption).
  assert (LX : length x = length data) by apply unmask_length.
  destruct V as [(m & f & bin & len & HD & L & -> & D) | [(m & op & HD & LE & -> & ->) | (-> & -> & BO)]].
  - destruct HD as (h1 & h2 & h3 & h4). cbn [enc_k] in h2. fold x in B.
    rewrite <- LX in D. destruct bin; rewrite h2 in H; cbn [N.eqb BINARY_FRAME TEXT_FRAME Pos.eqb] in H; rewrite h1 in H.
    + eapply handle_binary_inv; [exact B| |exact L|exact D|exact H]. unfold hdr. auto.
    + eapply handle_text_inv; [exact BX|exact B| |exact L|exact D|exact H]. unfold hdr. auto.
  - destruct HD as (h1 & h2 & h3 & h4). cbn [enc_k kind_ok] in h2, h4. destruct h4 as [_ [-> | [-> | ->]]]; rewrite h2 in H; cbn in B, H.
    + eapply handle_close_inv; [exact B|exact H].
    + eapply handle_ping_inv; [exact B|exact h3|exact H].
    + injection H as H. eapply handle_pong_inv; [exact B|exact h3|exact H].
  - destruct BO as (o0 & o1 & o2 & o3 & o4 & o5).
    unfold BINARY_FRAME, TEXT_FRAME, PING_FRAME, PONG_FRAME, CLOSE_FRAME in H.
    repeat match type of H with (if ?a =? ?b then _ else _) = _ => destruct (N.eqb_spec a b); [congruence|] end.
    injection H as <- <-. eapply bare_inv; [exact B|reflexivity|right; reflexivity].
Qed.
End P.
