From Verif Require Import Base MemmemModel MemmemSpec MemmemProofs BufReadModel BufReadSpec.
Open Scope nat_scope.

Lemma skipn_skipn' {A} n m (l : list A) : skipn n (skipn m l) = skipn (m + n) l.
Proof.
  revert l. induction m as [|m IH]; intros l; [reflexivity|].
  destruct l as [|x l]; [cbn; now rewrite !skipn_nil|]. cbn [skipn Nat.add]. apply IH.
Qed.

Definition wf_buf (size : nat) (b : rbuf) : Prop :=
  fetch b <= add b /\ add b <= length (mem b) /\ length (mem b) = size.

Lemma view_length size b : wf_buf size b -> length (rb_view b) = rb_unread b.
Proof. intros (H1 & H2 & H3). unfold rb_view, rb_unread. rewrite firstn_length, skipn_length. lia. Qed.

Lemma view_compact size b : wf_buf size b -> rb_view (rb_compact b) = rb_view b /\ wf_buf size (rb_compact b).
Proof.
  intros Hw. pose proof (view_length _ _ Hw) as Hl. pose proof Hw as (H1 & H2 & H3).
  unfold rb_compact. split.
  - unfold rb_view at 1. cbn [mem fetch add]. rewrite Nat.sub_0_r. cbn [skipn].
    rewrite <- Hl. apply firstn_len_app.
  - unfold wf_buf. cbn [mem fetch add]. rewrite app_length, skipn_length. unfold rb_unread in *. lia.
Qed.

Lemma view_store size b bs : wf_buf size b -> length bs <= rb_space b ->
  rb_view (rb_store b bs) = rb_view b ++ bs /\ wf_buf size (rb_store b bs).
Proof.
  intros (H1 & H2 & H3) Hs. unfold rb_space in Hs. split.
  - unfold rb_view, rb_store. cbn [mem fetch add].
    rewrite skipn_app, skipn_firstn_comm, firstn_length.
    replace (fetch b - Nat.min (add b) (length (mem b))) with 0 by lia. cbn [skipn].
    rewrite firstn_app, firstn_firstn, firstn_length, skipn_length.
    replace (Nat.min (add b + length bs - fetch b) (add b - fetch b)) with (add b - fetch b) by lia.
    f_equal.
    replace (add b + length bs - fetch b - Nat.min (add b - fetch b) (length (mem b) - fetch b)) with (length bs) by lia.
    apply firstn_len_app.
  - unfold wf_buf, rb_store. cbn [mem fetch add]. rewrite !app_length, firstn_length, skipn_length. lia.
Qed.

Lemma view_consume size b n b' : wf_buf size b -> rb_consume b n = Ret b' ->
  rb_view b' = skipn n (rb_view b) /\ wf_buf size b' /\ n <= length (rb_view b).
Proof.
  intros Hw. pose proof (view_length _ _ Hw) as Hl. destruct Hw as (H1 & H2 & H3).
  unfold rb_consume. destruct (Nat.leb_spec (fetch b + n) (add b)) as [Hle|]; [|discriminate].
  intros [= <-]. unfold rb_unread in Hl. split; [|split; [|lia]].
  - unfold rb_view. cbn [mem fetch add]. rewrite skipn_firstn_comm, skipn_skipn'. f_equal. lia.
  - unfold wf_buf. cbn [mem fetch add]. lia.
Qed.

Definition Inv0 (size : nat) (s : st) : Prop :=
  wf_buf size (buf s) /\ consumed (tr s) <= length (delivered (tr s)) /\
  rb_view (buf s) = skipn (consumed (tr s)) (delivered (tr s)) /\
  good_history size (tr s) /\
  (forall id, requested id (tr s) -> id < nreq s) /\
  (forall j, job s = Some j -> In (EvRequest (jobid s) j) (tr s) /\ ~ called (jobid s) (tr s) /\
     forall k, j = JAtLeast k -> k <= size) /\
  (one_at_a_time (tr s) -> forall id j, In (EvRequest id j) (tr s) ->
     called id (tr s) \/ (job s = Some j /\ jobid s = id)).

Definition Err (s : st) : Prop := forall j, job s = Some j -> last_error s = SUCCESS.

Lemma called_cons id e t : called id t -> called id (e :: t).
Proof. intros (a & b & c & H). exists a, b, c. now right. Qed.
Lemma called_other id e t : (forall i x y z, e <> EvCall i x y z) -> called id (e :: t) -> called id t.
Proof. intros H (a & b & c & [->|Hi]); [exfalso; eapply H; reflexivity|]. exists a, b, c. exact Hi. Qed.
Lemma requested_cons id e t : requested id t -> requested id (e :: t).
Proof. intros (j & H). exists j. now right. Qed.
Lemma requested_other id e t : (forall i j, e <> EvRequest i j) -> requested id (e :: t) -> requested id t.
Proof. intros H (j & [->|Hi]); [exfalso; eapply H; reflexivity|]. exists j. exact Hi. Qed.

(** events that do not concern requests, calls or data *)
Definition neutral (e : ev) : Prop :=
  match e with EvReadSome _ | EvFail _ | EvCloseCall | EvClose => True | _ => False end.

(** An event that changes neither data nor the request state. *)
Lemma Inv0_log size s s' e :
  Inv0 size s -> tr s' = e :: tr s -> neutral e ->
  buf s' = buf s -> job s' = job s -> jobid s' = jobid s -> nreq s' = nreq s -> Inv0 size s'.
Proof.
  intros (H1 & H2 & H3 & H4 & H5 & H6 & H7) Et Hn Eb Ej Ei En.
  unfold Inv0. rewrite Et, Eb, Ej, Ei, En.
  assert (Hc : consumed (e :: tr s) = consumed (tr s)) by (destruct e; try contradiction; reflexivity).
  assert (Hd : delivered (e :: tr s) = delivered (tr s)) by (destruct e; try contradiction; reflexivity).
  rewrite Hc, Hd.
  assert (Hcall : forall id, called id (e :: tr s) <-> called id (tr s)).
  { intros id. split; [|apply called_cons]. apply called_other. intros. destruct e; try contradiction; discriminate. }
  repeat match goal with |- _ /\ _ => split end; auto.
  - cbn [good_history]. split; [|exact H4]. destruct e; try contradiction; exact I.
  - intros id Hr. apply H5. revert Hr. apply requested_other. intros. destruct e; try contradiction; discriminate.
  - intros j Hj. destruct (H6 j Hj) as (A & B & C). split; [now right|]. rewrite Hcall. auto.
  - intros Ho id j [->|Hi]; [contradiction|]. cbn [one_at_a_time] in Ho. rewrite Hcall. apply H7; tauto.
Qed.

(** Changes of the private fields only. *)
Lemma Inv0_same size s s' :
  Inv0 size s -> tr s' = tr s -> buf s' = buf s -> job s' = job s -> jobid s' = jobid s -> nreq s' = nreq s ->
  Inv0 size s'.
Proof. intros H Et Eb Ej Ei En. unfold Inv0 in *. now rewrite Et, Eb, Ej, Ei, En. Qed.

Lemma user_act_inv size s a s' :
  Inv0 size s -> Err s -> user_act s a = Ret s' ->
  Inv0 size s' /\ Err s' /\ cbrun s' = cbrun s /\ waiting s' = waiting s.
Proof.
  intros HI HE H.
  destruct a as [n|j|]; cbn [user_act] in H.
  - destruct (rb_consume (buf s) n) as [b|] eqn:Eb; [|discriminate]. cbn [obind] in H. injection H as <-.
    destruct HI as (H1 & H2 & H3 & H4 & H5 & H6 & H7).
    destruct (view_consume size _ _ _ H1 Eb) as (V1 & V2 & V3).
    split; [|auto]. unfold Inv0. cbn [tr buf job jobid nreq consumed delivered].
    rewrite H3 in V1, V3. rewrite skipn_length in V3. rewrite skipn_skipn' in V1.
    repeat match goal with |- _ /\ _ => split end; auto.
    + lia.
    + cbn [good_history]. auto.
    + intros id Hr. apply H5. revert Hr. apply requested_other. discriminate.
    + intros j Hj. destruct (H6 j Hj) as (A & B & C). split; [now right|]. split; [|exact C].
      intros Hc. apply B. revert Hc. apply called_other. discriminate.
    + intros Ho id j [Hq|Hi]; [discriminate|]. cbn [one_at_a_time] in Ho.
      destruct (H7 (proj2 Ho) id j Hi) as [Hc|Hc]; [left; now apply called_cons|right; exact Hc].
  - assert (Hset : Inv0 size s -> (forall k, j = JAtLeast k -> k <= size) ->
       Inv0 size (set_job s j) /\ Err (set_job s j) /\ cbrun (set_job s j) = cbrun s /\ waiting (set_job s j) = waiting s).
    { clear H. intros (H1 & H2 & H3 & H4 & H5 & H6 & H7) Hk.
      assert (Hfresh : ~ requested (nreq s) (tr s)) by (intros Hr; apply H5 in Hr; lia).
      assert (Hnc : ~ called (nreq s) (tr s)).
      { clear -H4 Hfresh. intros (e & n & v & Hi). revert H4 Hi Hfresh.
        induction (tr s) as [|x t IH]; [easy|]. cbn [good_history]. intros [Hg Ht] [->|Hi] Hf.
        - destruct Hg as (j' & Hin & _). apply Hf. exists j'. now right.
        - apply IH; auto. intros Hr. apply Hf. now apply requested_cons. }
      set (s1 := St (buf s) (Some j) (nreq s) SUCCESS (cbrun s) (shall_close s) (waiting s) (ct s)
                    (EvRequest (nreq s) j :: tr s) (S (nreq s))).
      assert (Hs1 : Inv0 size s1).
      { unfold Inv0. cbn [s1 tr buf job jobid nreq consumed delivered].
        repeat match goal with |- _ /\ _ => split end; auto.
        - cbn [good_history]. auto.
        - intros id (j' & [Hq|Hi]); [injection Hq; lia|]. assert (id < nreq s) by (apply H5; exists j'; exact Hi). lia.
        - intros j' [= <-]. split; [now left|]. split; [|exact Hk]. intros Hc. apply Hnc. revert Hc. apply called_other. discriminate.
        - intros Ho id j' [Hq|Hi]; [injection Hq as <- <-; right; auto|].
          cbn [one_at_a_time] in Ho. left. apply called_cons. apply (proj1 Ho). exists j'. exact Hi. }
      unfold set_job. fold s1. unfold start_read. destruct (Nat.eqb (cbrun s1) 0).
      - split; [apply (Inv0_same size s1 _ Hs1); reflexivity|].
        split; [intros ? _; reflexivity|auto].
      - split; [exact Hs1|]. split; [intros ? _; reflexivity|auto]. }
    injection H as <-. unfold bs_read. destruct j as [n|d|n].
    + destruct (Nat.ltb_spec (rb_size (buf s)) n) as [Hlt|Hge].
      * destruct HI as (H1 & H2 & H3 & H4 & H5 & H6 & H7). pose proof H1 as (_ & _ & Hsz).
        split; [|auto]. unfold Inv0. cbn [log tr buf job jobid nreq consumed delivered].
        repeat match goal with |- _ /\ _ => split end; auto.
        -- cbn [good_history]. split; [|exact H4]. exists n. unfold rb_size in Hlt. split; [reflexivity|lia].
        -- intros id Hr. apply H5. revert Hr. apply requested_other. discriminate.
        -- intros j Hj. destruct (H6 j Hj) as (A & B & C). split; [now right|]. split; [|exact C].
           intros Hc. apply B. revert Hc. apply called_other. discriminate.
        -- intros Ho id j [Hq|Hi]; [discriminate|]. cbn [one_at_a_time] in Ho.
           destruct (H7 (proj2 Ho) id j Hi) as [Hc|Hc]; [left; now apply called_cons|right; exact Hc].
      * apply Hset; [exact HI|]. intros k [= <-]. destruct HI as ((_ & _ & Hsz) & _). unfold rb_size in Hge. lia.
    + apply Hset; [exact HI|]. discriminate.
    + apply Hset; [exact HI|]. discriminate.
  - injection H as <-. unfold bs_close.
    assert (HI1 : Inv0 size (log s EvCloseCall)) by (apply (Inv0_log size s _ EvCloseCall HI); reflexivity || exact I).
    destruct (Nat.eqb (cbrun (log s EvCloseCall)) 0).
    + split; [apply (Inv0_log size _ _ EvClose HI1); reflexivity || exact I|auto].
    + split; [apply (Inv0_same size _ _ HI1); reflexivity|auto].
Qed.

Lemma user_acts_inv size l s s' :
  Inv0 size s -> Err s -> user_acts s l = Ret s' ->
  Inv0 size s' /\ Err s' /\ cbrun s' = cbrun s /\ waiting s' = waiting s.
Proof.
  revert s. induction l as [|a l IH]; intros s HI HE H; cbn [user_acts] in H.
  - injection H as <-. auto.
  - destruct (user_act s a) as [s1|] eqn:Ea; [|discriminate]. cbn [obind] in H.
    destruct (user_act_inv size s a s1 HI HE Ea) as (A & B & C & D).
    destruct (IH s1 A B H) as (A' & B' & C' & D'). repeat match goal with |- _ /\ _ => split end; auto; congruence.
Qed.

(** Actions inside a handler: the control point stays, nothing is closed yet. *)
Definition closes (l : list uact) : bool := existsb (fun a => match a with UClose => true | _ => false end) l.
Definition quiet (e : ev) : Prop :=
  match e with EvRequest _ _ | EvRefused _ | EvConsume _ | EvCloseCall => True | _ => False end.

Lemma user_act_inside s a s' : user_act s a = Ret s' -> cbrun s <> 0 ->
  ct s' = ct s /\ cbrun s' = cbrun s /\ shall_close s' = (shall_close s || closes [a])%bool /\
  (exists new, tr s' = new ++ tr s /\ did [a] new) /\
  ((forall j, a <> URead j) -> job s' = job s).
Proof.
  intros H Hc. apply Nat.eqb_neq in Hc. destruct a as [n|j|]; cbn [user_act closes existsb] in *.
  - destruct (rb_consume (buf s) n); [|discriminate]. injection H as <-. cbn. rewrite !orb_false_r.
    repeat split. exists [EvConsume n]. split; [reflexivity|]. repeat constructor.
  - injection H as <-. rewrite !orb_false_r.
    assert (Hs : ct (set_job s j) = ct s /\ cbrun (set_job s j) = cbrun s /\ shall_close (set_job s j) = shall_close s /\
       tr (set_job s j) = EvRequest (nreq s) j :: tr s).
    { unfold set_job, start_read. cbn [cbrun]. rewrite Hc. auto. }
    destruct Hs as (A & B & C & D).
    assert (Hgoal : (exists new, tr (set_job s j) = new ++ tr s /\ did [URead j] new)).
    { exists [EvRequest (nreq s) j]. rewrite D. split; [reflexivity|]. repeat constructor. }
    unfold bs_read. destruct j as [n|d|n]; [destruct (Nat.ltb (rb_size (buf s)) n)| |].
    1:{ cbn. repeat split. exists [EvRefused (JAtLeast n)]. split; [reflexivity|]. repeat constructor. }
    all: repeat split; auto; intros Hj; exfalso; eapply Hj; reflexivity.
  - injection H as <-. unfold bs_close. cbn [log cbrun]. rewrite Hc. cbn. rewrite orb_true_r. repeat split.
    exists [EvCloseCall]. split; [reflexivity|]. repeat constructor.
Qed.

Lemma user_acts_inside l s s' : user_acts s l = Ret s' -> cbrun s <> 0 ->
  ct s' = ct s /\ cbrun s' = cbrun s /\ shall_close s' = (shall_close s || closes l)%bool /\
  (exists new, tr s' = new ++ tr s /\ did l new) /\
  ((forall j, ~ In (URead j) l) -> job s' = job s).
Proof.
  revert s. induction l as [|a l IH]; intros s H Hc; cbn [user_acts] in H.
  - injection H as <-. cbn. rewrite orb_false_r. repeat split; auto. exists []. split; [reflexivity|constructor].
  - destruct (user_act s a) as [s1|] eqn:Ea; [|discriminate]. cbn [obind] in H.
    destruct (user_act_inside s a s1 Ea Hc) as (A & B & C & (n1 & D1 & D2) & E).
    destruct (IH s1 H) as (A' & B' & C' & (n2 & D1' & D2') & E'); [congruence|].
    repeat match goal with |- _ /\ _ => split end.
    + congruence.
    + congruence.
    + rewrite C', C. unfold closes. cbn [existsb]. rewrite orb_false_r. now rewrite orb_assoc.
    + exists (n2 ++ n1). rewrite D1', D1, app_assoc. split; [reflexivity|]. unfold did in *. rewrite rev_app_distr. apply (Forall2_app D2 D2').
    + intros Hj. rewrite E', E; auto.
      * intros j ->. apply (Hj j). now left.
      * intros j Hi. apply (Hj j). now right.
Qed.

Lemma did_quiet l new : did l new -> Forall quiet new.
Proof.
  unfold did. intros H. rewrite <- (rev_involutive new). apply Forall_rev. induction H as [|a e l' t H _ IH]; constructor; [|exact IH].
  destruct a, e; cbn in *; tauto.
Qed.

Section Env.
Variable user : list ev -> list uact.
Variable read_some : list ev -> Z.
Notation call_handler := (call_handler user).
Notation run_job := (run_job user).
Notation fill_buffer := (fill_buffer user read_some).
Notation tick := (tick user read_some).
Notation step := (step user read_some).
Notation reach := (reach user read_some).

Definition call_ev (s : st) (err : Z) (n : nat) : ev := EvCall (jobid s) err n (rb_view (buf s)).

Lemma call_handler_inv size s j err n s' r :
  Inv0 size s -> job s = Some j -> cbrun s = 0 ->
  (err = SUCCESS -> fulfils j (rb_view (buf s)) n /\ n <= length (rb_view (buf s))) ->
  (err <> SUCCESS -> n = 0 /\ (transport_error err (tr s) \/ too_long size j err (rb_view (buf s)))) ->
  call_handler s err n = Ret (s', r) ->
  Inv0 size s' /\ Err s' /\ cbrun s' = 0 /\ waiting s' = waiting s /\ ct s' = ct s /\
  (shall_close s' = (shall_close s || closes (user (call_ev s err n :: tr s)))%bool) /\
  (exists new, tr s' = (if shall_close s' then [EvClose] else []) ++ new ++ call_ev s err n :: tr s /\
     did (user (call_ev s err n :: tr s)) new) /\
  r = (if shall_close s' then BS_CLOSED else BS_OPEN) /\
  ((forall i, ~ In (URead i) (user (call_ev s err n :: tr s))) -> job s' = None).
Proof.
  intros HI Hj Hc Hs He H. unfold BufReadModel.call_handler in H.
  set (t := EvCall (jobid s) err n (rb_view (buf s)) :: tr s) in *.
  set (s0 := St (buf s) None (jobid s) (last_error s) (S (cbrun s)) (shall_close s) (waiting s) (ct s) t (nreq s)) in *.
  destruct HI as (H1 & H2 & H3 & H4 & H5 & H6 & H7). destruct (H6 j Hj) as (J1 & J2 & J3).
  assert (HI0 : Inv0 size s0).
  { unfold Inv0. cbn [s0 tr buf job jobid nreq]. unfold t. cbn [consumed delivered].
    repeat match goal with |- _ /\ _ => split end; auto.
    - cbn [good_history]. split; [|exact H4]. exists j. repeat split; auto; try (apply Hs; assumption); try (apply He; assumption).
    - intros id Hr. apply H5. revert Hr. apply requested_other. discriminate.
    - discriminate.
    - intros Ho id j' [Hq|Hi]; [discriminate|]. cbn [one_at_a_time] in Ho.
      destruct (H7 (proj2 Ho) id j' Hi) as [Hcl|[_ <-]]; left; [now apply called_cons|].
      exists err, n, (rb_view (buf s)). now left. }
  assert (HE0 : Err s0) by (intros ? Hq; discriminate).
  destruct (user_acts s0 (user t)) as [s1|] eqn:Ea; [|discriminate]. cbn [obind] in H.
  destruct (user_acts_inv size _ _ _ HI0 HE0 Ea) as (A & B & C & D).
  destruct (user_acts_inside _ _ _ Ea) as (A2 & B2 & C2 & (new & D1 & D2) & E2); [cbn; lia|].
  set (s2 := St (buf s1) (job s1) (jobid s1) (last_error s1) (pred (cbrun s1)) (shall_close s1) (waiting s1) (ct s1) (tr s1) (nreq s1)) in *.
  assert (HI2 : Inv0 size s2) by (apply (Inv0_same size s1 _ A); reflexivity).
  cbn [s0 shall_close tr cbrun waiting ct job] in *.
  assert (Hcb : pred (cbrun s1) = 0) by (rewrite C; cbn; exact Hc).
  unfold call_ev. fold t.
  destruct (shall_close s1) eqn:Esc.
  - cbn [s2 shall_close] in H. injection H as <- <-.
    repeat match goal with |- _ /\ _ => split end; cbn [log s2 shall_close cbrun waiting ct tr job]; auto.
    + apply (Inv0_log size s2 _ EvClose HI2); reflexivity || exact I.
    + exists new. cbn. rewrite D1. repeat split; auto.
  - cbn [s2 shall_close] in H. injection H as <- <-.
    repeat match goal with |- _ /\ _ => split end; cbn [log s2 shall_close cbrun waiting ct tr job]; auto.
    exists new. cbn. rewrite D1. repeat split; auto.
Qed.

Definition answerable (size : nat) (j : rjob) (b : rbuf) : Prop := exists n, fulfils j (rb_view b) n.

Lemma run_job_inv size s j s' r :
  Inv0 size s -> job s = Some j -> cbrun s = 0 ->
  (last_error s <> SUCCESS -> transport_error (last_error s) (tr s) \/ too_long size j (last_error s) (rb_view (buf s))) ->
  run_job s j = Ret (s', r) ->
  (r = BS_AGAIN /\ s' = s /\ last_error s = SUCCESS /\ ~ answerable size j (buf s)) \/
  (exists err n, call_handler s err n = Ret (s', r) /\
     (err = SUCCESS -> fulfils j (rb_view (buf s)) n /\ n <= length (rb_view (buf s))) /\
     (err <> SUCCESS -> n = 0 /\ err = last_error s)).
Proof.
  intros HI Hj Hc Herr H. unfold BufReadModel.run_job in H.
  destruct HI as (Hw & _). pose proof (view_length _ _ Hw) as Hl. 
  destruct (Z.eqb_spec (last_error s) SUCCESS) as [He|He]; cbn [negb] in H.
  2:{ right. exists (last_error s), 0. split; [exact H|]. split; [congruence|auto]. }
  destruct j as [k|d|k].
  - destruct (Nat.leb_spec k (rb_unread (buf s))) as [Hle|Hgt].
    + right. exists SUCCESS, k. split; [exact H|]. split; [|congruence]. cbn. lia.
    + left. injection H as <- <-. repeat split; auto. intros (n & _ & Hn). lia.
  - destruct (memmem_correct (rb_view (buf s)) d) as (res & Em & Hm). rewrite Em in H. cbn [obind] in H.
    destruct res as [off|].
    + right. exists SUCCESS, (off + length d). split; [exact H|]. split; [|congruence]. intros _.
      split; [exists off; auto|]. destruct Hm as [(b & a & Ev & El) _]. rewrite Ev, !app_length. lia.
    + left. injection H as <- <-. repeat split; auto. intros (n & i & [Hi _] & _). exact (Hm i Hi).
  - destruct (Nat.ltb_spec 0 (rb_unread (buf s))) as [Hlt|Hge].
    + right. exists SUCCESS, (Nat.min (rb_unread (buf s)) k). split; [exact H|]. split; [|congruence]. intros _. cbn.
      rewrite Hl. repeat split; lia.
    + left. injection H as <- <-. repeat split; auto. intros (n & Hn & _). lia.
Qed.

(** What holds between two steps. *)
Definition Inv (size : nat) (s : st) : Prop :=
  Inv0 size s /\ cbrun s = 0 /\
  (Err s \/ ct s = Loop /\ exists t', tr s = EvFail (last_error s) :: t').

(** The unanswered request of an idle stream waits for the transport. *)
Definition Waits (size : nat) (s : st) : Prop :=
  ct s = Idle -> forall j, job s = Some j ->
    (waiting s = true /\ ~ answerable size j (buf s)) \/ In EvClose (tr s).

Lemma fulfils_too_long size j b : 0 < size -> wf_buf size b -> rb_space b = 0 -> fetch b = 0 ->
  (forall k, j = JAtLeast k -> k <= size) -> ~ answerable size j b -> too_long size j MESSAGE_TOO_LONG (rb_view b).
Proof.
  intros H0 Hw Hs Hf Hk Hn. pose proof (view_length _ _ Hw) as Hl. pose proof Hw as (W1 & W2 & W3).
  unfold rb_space, rb_unread in *. assert (Hlen : length (rb_view b) = size) by lia.
  destruct j as [k|d|k].
  - exfalso. apply Hn. exists k. cbn. specialize (Hk k eq_refl). lia.
  - exists d. repeat split; auto. intros i Hi.
    pose proof (find_first_spec (rb_view b) d) as Hff. destruct (find_first (rb_view b) d) as [o|].
    + apply Hn. exists (o + length d), o. auto.
    + exact (Hff i Hi).
  - exfalso. apply Hn. exists (Nat.min (length (rb_view b)) k). cbn. lia.
Qed.

(** Everything about one iteration of the loop with a pending request: either
    exactly one handler is called, perhaps after a failing read_some, or the
    transport is asked for more and the loop is left. *)
Lemma tick_cases size s j s' :
  0 < size -> Inv size s -> ct s = Loop -> job s = Some j -> tick s = Ret s' ->
  Inv size s' /\
  ((exists err n pre mid,
      let c := EvCall (jobid s) err n (rb_view (buf s)) :: pre ++ tr s in
      let cl := (shall_close s || closes (user c))%bool in
      (pre = [] \/ pre = [EvReadSome err] /\ err <> SUCCESS) /\
      tr s' = (if cl then [EvClose] else []) ++ mid ++ c /\ did (user c) mid /\
      shall_close s' = cl /\ (cl = true -> ct s' = Idle) /\
      (ct s' = Idle -> cl = true \/ ((forall i, ~ In (URead i) (user c)) -> job s' = None) /\
         err <> SUCCESS /\ (err = MESSAGE_TOO_LONG \/ pre = [EvReadSome err]))) \/
   (tr s' = EvReadSome SUCCESS :: tr s /\ ct s' = Idle /\ waiting s' = true /\ job s' = job s /\
    jobid s' = jobid s /\ shall_close s' = shall_close s /\ ~ answerable size j (buf s'))).
Proof.
  intros H0 (HI & Hcb & Her) Hct Hj H. unfold BufReadModel.tick in H. rewrite Hj in H.
  assert (Herr : last_error s <> SUCCESS -> transport_error (last_error s) (tr s) \/ too_long size j (last_error s) (rb_view (buf s))).
  { intros Hne. destruct Her as [He|(_ & t' & Ht)]; [elim Hne; apply (He j Hj)|]. left. exists t'. auto. }
  destruct (run_job s j) as [[s1 r]|] eqn:Er; [|discriminate]. cbn [obind fst snd] in H.
  destruct (run_job_inv size s j s1 r HI Hj Hcb Herr Er) as [(-> & -> & Hle & Hna)|(err & n & Ech & Hs & He)].
  - (* AGAIN *)
    unfold BufReadModel.fill_buffer in H.
    destruct (Nat.eqb (rb_space (buf s)) 0 && Nat.eqb (fetch (buf s)) 0)%bool eqn:Efull.
    + apply andb_true_iff in Efull as [F1 F2]. apply Nat.eqb_eq in F1, F2.
      assert (Htl : too_long size j MESSAGE_TOO_LONG (rb_view (buf s))).
      { destruct HI as (Hw & _ & _ & _ & _ & H6 & _). apply fulfils_too_long; auto. apply (H6 j Hj). }
      set (s2 := set_error s MESSAGE_TOO_LONG) in *.
      assert (HI2 : Inv0 size s2) by (apply (Inv0_same size s _ HI); reflexivity).
      change (run_job s2 j) with (call_handler s2 MESSAGE_TOO_LONG 0) in H.
      destruct (call_handler s2 MESSAGE_TOO_LONG 0) as [[s3 r3]|] eqn:Ec; [|discriminate].
      cbn [obind fst] in H. injection H as <-.
      destruct (call_handler_inv size s2 j MESSAGE_TOO_LONG 0 s3 r3 HI2 Hj Hcb) as (A & B & C & D & E & F & (mid & G1 & G2) & K & L).
      { discriminate. } { intros _. split; [reflexivity|]. right. exact Htl. } { exact Ec. }
      split.
      * split; [apply (Inv0_same size s3 _ A); reflexivity|]. split; [exact C|]. left. exact B.
      * left. exists MESSAGE_TOO_LONG, 0, [], mid. cbn [app].
        change (call_ev s2 MESSAGE_TOO_LONG 0) with (EvCall (jobid s) MESSAGE_TOO_LONG 0 (rb_view (buf s))) in *.
        change (tr s2) with (tr s) in *. change (shall_close s2) with (shall_close s) in *.
        cbn [set_ct tr shall_close ct]. rewrite <- F.
        repeat match goal with |- _ /\ _ => split end; auto.
        intros _. destruct (shall_close s3); [left; reflexivity|right]. repeat split; auto. discriminate.
    + set (s2 := if Nat.eqb (rb_space (buf s)) 0 then set_buf s (rb_compact (buf s)) else s) in *.
      assert (Hs2 : Inv0 size s2 /\ rb_view (buf s2) = rb_view (buf s) /\ job s2 = job s /\ jobid s2 = jobid s /\
         tr s2 = tr s /\ cbrun s2 = cbrun s /\ shall_close s2 = shall_close s /\ last_error s2 = last_error s).
      { unfold s2. destruct (Nat.eqb (rb_space (buf s)) 0); [|repeat match goal with |- _ /\ _ => split end; auto].
        destruct HI as (I1 & I2 & I3 & I4). destruct (view_compact size _ I1) as (V1 & V2).
        split; [|repeat match goal with |- _ /\ _ => split end; auto]. unfold Inv0. cbn [set_buf buf tr job jobid nreq].
        split; [exact V2|]. split; [exact I2|]. split; [congruence|exact I4]. }
      clearbody s2. destruct Hs2 as (HI2 & V2 & J2 & Id2 & T2 & C2 & S2 & L2).
      set (err := read_some (tr s2)) in *. set (s3 := log s2 (EvReadSome err)) in *.
      assert (HI3 : Inv0 size s3) by (apply (Inv0_log size s2 _ (EvReadSome err) HI2); reflexivity || exact I).
      destruct (Z.eqb_spec err SUCCESS) as [He|He].
      * cbn [obind] in H. injection H as <-. split.
        -- split; [apply (Inv0_same size s3 _ HI3); reflexivity|]. split; [cbn; congruence|]. left.
           intros i _. cbn. congruence.
        -- right. cbn [set_ct set_waiting s3 log tr ct waiting job jobid shall_close buf].
           rewrite He, T2. repeat match goal with |- _ /\ _ => split end; auto.
           unfold answerable. now rewrite V2.
      * destruct (call_handler s3 err 0) as [[s4 r4]|] eqn:Ec; [|discriminate]. cbn [obind fst] in H. injection H as <-.
        destruct (call_handler_inv size s3 j err 0 s4 r4 HI3) as (A & B & C & D & E & F & (mid & G1 & G2) & K & L).
        { cbn; congruence. } { cbn; congruence. } { congruence. }
        { intros _. split; [reflexivity|]. left. exists (tr s2). right. reflexivity. } { exact Ec. }
        split.
        -- split; [apply (Inv0_same size s4 _ A); reflexivity|]. split; [exact C|]. left. exact B.
        -- left. exists err, 0, [EvReadSome err], mid. cbn [app].
           assert (Hce : call_ev s3 err 0 :: tr s3 = EvCall (jobid s) err 0 (rb_view (buf s)) :: EvReadSome err :: tr s).
           { unfold call_ev. cbn [s3 log jobid buf tr]. congruence. }
           rewrite Hce in *. cbn [s3 log shall_close] in F. rewrite S2 in F.
           cbn [set_ct tr shall_close ct]. rewrite <- F.
           repeat match goal with |- _ /\ _ => split end; auto.
  - assert (Hr : r <> BS_AGAIN).
    { destruct (call_handler_inv size s j err n s1 r HI Hj Hcb Hs) as (_ & _ & _ & _ & _ & _ & _ & -> & _); auto.
      - intros Hne. destruct (He Hne) as [-> ->]. auto.
      - destruct (shall_close s1); discriminate. }
    destruct (call_handler_inv size s j err n s1 r HI Hj Hcb Hs) as (A & B & C & D & E & F & (mid & G1 & G2) & K & L).
    { intros Hne. destruct (He Hne) as [-> ->]. auto. } { exact Ech. }
    assert (Hs' : s' = if shall_close s1 then set_ct s1 Idle else s1).
    { rewrite K in H. destruct (shall_close s1); injection H; auto. }
    subst s'. split.
    + destruct (shall_close s1); (split; [first [exact A|apply (Inv0_same size s1 _ A); reflexivity]|split; [exact C|left; exact B]]).
    + left. exists err, n, [], mid. cbn [app].
      change (EvCall (jobid s) err n (rb_view (buf s))) with (call_ev s err n).
      assert (Htr : tr (if shall_close s1 then set_ct s1 Idle else s1) = tr s1) by (destruct (shall_close s1); reflexivity).
      assert (Hsc : shall_close (if shall_close s1 then set_ct s1 Idle else s1) = shall_close s1) by (destruct (shall_close s1) eqn:Q; [exact Q|exact Q]).
      rewrite Htr, Hsc, <- F.
      repeat match goal with |- _ /\ _ => split end; auto.
      * intros ->. reflexivity.
      * destruct (shall_close s1); [auto|]. rewrite E, Hct. discriminate.
Qed.

Lemma Inv_init m : Inv (length m) (bs_init m).
Proof.
  split; [|split; [reflexivity|left; intros ? Hq; discriminate]].
  unfold Inv0, bs_init, rb_init, wf_buf, rb_view. cbn. repeat match goal with |- _ /\ _ => split end; auto with arith.
  - intros id (j & []).
  - discriminate.
  - intros _ id j [].
Qed.

Lemma step_inv size s x s' :
  0 < size -> Inv size s -> enabled s x -> step s x = Ret s' -> Inv size s'.
Proof.
  intros H0 HI He H. destruct x as [|a|bs|err]; cbn [BufReadModel.step enabled] in *.
  - destruct (job s) as [j|] eqn:Ej.
    + apply (tick_cases size s j s' H0 HI He Ej H).
    + unfold BufReadModel.tick in H. rewrite Ej in H. injection H as <-.
      destruct HI as (A & B & C). split; [apply (Inv0_same size s _ A); reflexivity|]. split; [exact B|].
      left. intros i Hi. cbn in Hi. congruence.
  - destruct HI as (A & B & C). destruct C as [C|[C _]]; [|congruence].
    destruct (user_act_inv size s a s' A C H) as (A' & B' & C' & D'). split; [exact A'|]. split; [congruence|]. left. exact B'.
  - injection H as <-. destruct He as (E1 & E2 & E3 & E4 & E5).
    destruct HI as (HI & B & C). destruct HI as (I1 & I2 & I3 & I4 & I5 & I6 & I7).
    destruct (view_store size _ bs I1 E4) as (V1 & V2).
    split; [|split; [exact B|left; intros ? _; reflexivity]].
    unfold Inv0, handle_read. cbn [set_ct set_waiting set_error log set_buf buf tr job jobid nreq consumed delivered].
    repeat match goal with |- _ /\ _ => split end; auto.
    + rewrite app_length. lia.
    + rewrite V1, I3, skipn_app. replace (consumed (tr s) - length (delivered (tr s))) with 0 by lia. reflexivity.
    + cbn [good_history]. auto.
    + intros id Hr. apply I5. revert Hr. apply requested_other. discriminate.
    + intros j Hj. destruct (I6 j Hj) as (J1 & J2 & J3). split; [now right|]. split; [|exact J3].
      intros Hc. apply J2. revert Hc. apply called_other. discriminate.
    + intros Ho id j [Hq|Hi]; [discriminate|]. cbn [one_at_a_time] in Ho.
      destruct (I7 (proj2 Ho) id j Hi) as [Hc|Hc]; [left; now apply called_cons|right; exact Hc].
  - injection H as <-. destruct HI as (HI & B & C).
    split; [|split; [exact B|right]].
    + assert (H1 : Inv0 size (log s (EvFail err))) by (apply (Inv0_log size s _ (EvFail err) HI); reflexivity || exact I).
      apply (Inv0_same size _ _ H1); reflexivity.
    + split; [reflexivity|]. exists (tr s). reflexivity.
Qed.

Lemma reach_inv m s : m <> [] -> reach m s -> Inv (length m) s.
Proof.
  intros Hm Hr. assert (H0 : 0 < length m) by (destruct m; [congruence|cbn; lia]).
  induction Hr as [|s x s' Hr IH He Hs]; [apply Inv_init|]. now apply (step_inv _ s x s').
Qed.

(** * Closing *)

(** Nothing but user actions since the newest [EvClose]. *)
Definition Quiesced (s : st) : Prop :=
  forall after old, tr s = after ++ EvClose :: old ->
    (forall id j, ~ In (EvRequest id j) after) ->
    ct s = Idle /\ (forall id e n v, ~ In (EvCall id e n v) after) /\ (forall e, ~ In (EvReadSome e) after) /\
    (~ In EvCloseCall after -> ~ In EvClose after).

(** Splitting a history [new ++ t] in front of an event. *)
Lemma app_split {A} (new t after old : list A) x :
  new ++ t = after ++ x :: old ->
  (exists n2, new = after ++ x :: n2 /\ old = n2 ++ t) \/
  (exists a2, after = new ++ a2 /\ t = a2 ++ x :: old).
Proof.
  revert after. induction new as [|y new IH]; intros after H.
  - right. exists after. auto.
  - destruct after as [|z after]; cbn in H.
    + injection H as -> H. left. exists new. auto.
    + injection H as -> H. destruct (IH _ H) as [(n2 & -> & ->)|(a2 & -> & ->)].
      * left. exists n2. auto.
      * right. exists a2. auto.
Qed.

(** one quiet event on top of an idle stream *)
Lemma quiesced_cons s s' e : Quiesced s -> tr s' = e :: tr s -> ct s = Idle ->
  (forall id x n v, e <> EvCall id x n v) -> (forall x, e <> EvReadSome x) -> e <> EvClose ->
  ((forall id j, e <> EvRequest id j) -> In EvClose (tr s) -> ct s' = Idle) -> Quiesced s'.
Proof.
  intros Hq Et Hi Hc Hr Hcl Hct after old Ho Hn. rewrite Et in Ho. destruct after as [|y after]; cbn in Ho.
  - injection Ho as -> _. congruence.
  - injection Ho as -> Ho. destruct (Hq after old Ho) as (A & B & C & D).
    { intros id j Hin. apply (Hn id j). now right. }
    split.
    { apply Hct; [|rewrite Ho; apply in_or_app; right; now left]. intros id j ->. apply (Hn id j). now left. }
    repeat split.
    + intros id x n v [Hq'|Hin]; [exact (Hc _ _ _ _ Hq')|exact (B _ _ _ _ Hin)].
    + intros x [Hq'|Hin]; [exact (Hr _ Hq')|exact (C _ Hin)].
    + intros Hcc [Hq'|Hin]; [exact (Hcl Hq')|]. apply D; [|exact Hin]. intros Hx. apply Hcc. now right.
Qed.

Lemma step_quiesced size s x s' :
  0 < size -> Inv size s -> Quiesced s -> enabled s x -> step s x = Ret s' -> Quiesced s'.
Proof.
  intros H0 HI HQ He H. destruct x as [|a|bs|err]; cbn [BufReadModel.step enabled] in *.
  - assert (Hno : forall after old, tr s = after ++ EvClose :: old -> exists id j, In (EvRequest id j) after).
    { intros after old Ho.
      assert (Hd : (forall id j, ~ In (EvRequest id j) after) \/ exists id j, In (EvRequest id j) after).
      { clear. induction after as [|e t IH]; [left; intros ? ? []|].
        destruct IH as [IH|(id & j & IH)]; [|right; exists id, j; now right].
        destruct e; try (left; intros id0 j0 [Hq|Hin]; [discriminate|exact (IH _ _ Hin)]).
        right. exists id, j. now left. }
      destruct Hd as [Hd|Hd]; [|exact Hd]. destruct (HQ after old Ho Hd) as (A & _). congruence. }
    destruct (job s) as [j|] eqn:Ej.
    + destruct (tick_cases size s j s' H0 HI He Ej H) as (_ & [(err & n & pre & mid & Hpre & Ht & Hm & Hsc & Hcl & _)|(Ht & Hct & _)]).
      * intros after old Ho Hn. rewrite Ht in Ho.
        set (cl := (shall_close s || closes (user (EvCall (jobid s) err n (rb_view (buf s)) :: pre ++ tr s)))%bool) in *.
        change (EvCall (jobid s) err n (rb_view (buf s)) :: pre ++ tr s) with
          ((EvCall (jobid s) err n (rb_view (buf s)) :: pre) ++ tr s) in Ho.
        rewrite app_assoc, app_assoc in Ho.
        destruct (app_split _ _ _ _ _ Ho) as [(n2 & Hnew & _)|(a2 & -> & Ho2)].
        -- rewrite <- app_assoc in Hnew. destruct (app_split _ _ _ _ _ Hnew) as [(n3 & Hcls & _)|(a3 & Ha3 & Hbad)].
           ++ destruct cl; [|destruct after; discriminate].
              destruct after as [|y after]; [|destruct after; discriminate].
              split; [auto|]. repeat split; intros; intros [].
           ++ exfalso. destruct (app_split _ _ _ _ _ Hbad) as [(n4 & Hmid & _)|(a4 & Ha4 & Hbad2)].
              ** apply did_quiet in Hm. rewrite Hmid in Hm. apply Forall_app in Hm as [_ Hm]. inversion Hm as [|? ? Hx _]. exact Hx.
              ** destruct a4 as [|y a4]; [discriminate|]. injection Hbad2 as _ Hbad2.
                 destruct Hpre as [->|[-> _]]; [destruct a4; discriminate|].
                 destruct a4 as [|y2 a4]; [discriminate|]. destruct a4; discriminate.
        -- exfalso. destruct (Hno a2 old Ho2) as (id & i & Hin). apply (Hn id i). apply in_or_app. now right.
      * intros after old Ho Hn. rewrite Ht in Ho. destruct after as [|y after]; [discriminate|].
        injection Ho as <- Ho. destruct (Hno after old Ho) as (id & i & Hin). elim (Hn id i). now right.
    + unfold BufReadModel.tick in H. rewrite Ej in H. injection H as <-.
      intros after old Ho Hn. destruct (Hno after old Ho) as (id & i & Hin). elim (Hn id i Hin).
  - destruct a as [n|j|]; cbn [user_act] in H.
    + destruct (rb_consume (buf s) n) as [b|]; [|discriminate]. injection H as <-.
      apply (quiesced_cons s _ (EvConsume n) HQ); try reflexivity; try discriminate; auto.
    + injection H as <-.
      assert (Hset : Quiesced (set_job s j)).
      { apply (quiesced_cons s _ (EvRequest (nreq s) j) HQ); try discriminate; auto.
        - unfold set_job, start_read. cbn [cbrun]. destruct (Nat.eqb (cbrun s) 0); reflexivity.
        - intros Hx. elim (Hx (nreq s) j). reflexivity. }
      unfold bs_read. destruct j as [k|d|k]; [destruct (Nat.ltb (rb_size (buf s)) k)| |]; auto.
      apply (quiesced_cons s _ (EvRefused (JAtLeast k)) HQ); try reflexivity; try discriminate; auto.
    + injection H as <-. unfold bs_close. cbn [log cbrun]. destruct HI as (_ & -> & _). cbn [Nat.eqb].
      intros after old Ho Hn. cbn [log tr] in Ho. destruct after as [|y after].
      * cbn in Ho. injection Ho as <-. split; [exact He|]. repeat split; intros; intros [].
      * cbn in Ho. injection Ho as <- Ho. destruct after as [|y after]; [discriminate|]. cbn in Ho. injection Ho as <- Ho.
        destruct (HQ after old Ho) as (A & B & C & D).
        { intros id j Hin. apply (Hn id j). right. now right. }
        split; [exact He|]. repeat split.
        -- intros id e n v [Hq|[Hq|Hin]]; try discriminate. exact (B _ _ _ _ Hin).
        -- intros e [Hq|[Hq|Hin]]; try discriminate. exact (C _ Hin).
        -- intros Hx. elim Hx. right. now left.
  - injection H as <-. destruct He as (E1 & _ & _ & _ & E5).
    apply (quiesced_cons s _ (EvDeliver bs) HQ); try reflexivity; try discriminate; auto. intros _ Hc. contradiction.
  - injection H as <-. destruct He as (E1 & _ & _ & E5).
    apply (quiesced_cons s _ (EvFail err) HQ); try reflexivity; try discriminate; auto. intros _ Hc. contradiction.
Qed.

Lemma reach_quiesced m s : m <> [] -> reach m s -> Quiesced s.
Proof.
  intros Hm Hr. assert (H0 : 0 < length m) by (destruct m; [congruence|cbn; lia]).
  induction Hr as [|s x s' Hr IH He Hs].
  - intros after old Ho. destruct after; discriminate.
  - apply (step_quiesced (length m) s x s'); auto. now apply reach_inv.
Qed.

(** A handler that closed is followed by the close, before anything but its own actions. *)
Definition Closed_after (t : list ev) : Prop :=
  forall after id e n v old, t = after ++ EvCall id e n v :: old ->
    closes (user (EvCall id e n v :: old)) = true ->
    exists a1 mid, after = a1 ++ EvClose :: mid /\ did (user (EvCall id e n v :: old)) mid.

Lemma closed_after_app new t : Closed_after t -> (forall id e n v, ~ In (EvCall id e n v) new) -> Closed_after (new ++ t).
Proof.
  intros H Hn after id e n v old Ho Hc. destruct (app_split _ _ _ _ _ Ho) as [(n2 & Hnew & _)|(a2 & -> & Ho2)].
  - elim (Hn id e n v). rewrite Hnew. apply in_or_app. right. now left.
  - destruct (H a2 id e n v old Ho2 Hc) as (a1 & mid & -> & Hm). exists (new ++ a1), mid. rewrite <- app_assoc. auto.
Qed.

Lemma closed_after_1 t e : Closed_after t -> (forall id x n v, e <> EvCall id x n v) -> Closed_after (e :: t).
Proof. intros H He. apply (closed_after_app [e] t H). intros id x n v [Hq|[]]. exact (He _ _ _ _ Hq). Qed.

Lemma quiet_no_call l : Forall quiet l -> forall id e n v, ~ In (EvCall id e n v) l.
Proof. intros H id e n v Hi. rewrite Forall_forall in H. exact (H _ Hi). Qed.

Lemma step_closed size s x s' :
  0 < size -> Inv size s -> Closed_after (tr s) -> enabled s x -> step s x = Ret s' -> Closed_after (tr s').
Proof.
  intros H0 HI HQ He H. destruct x as [|a|bs|err]; cbn [BufReadModel.step enabled] in *.
  - destruct (job s) as [j|] eqn:Ej.
    + destruct (tick_cases size s j s' H0 HI He Ej H) as (_ & [(err & n & pre & mid & Hpre & Ht & Hm & Hsc & Hcl & _)|(Ht & Hct & _)]).
      * rewrite Ht.
        assert (H1 : Closed_after (pre ++ tr s)).
        { apply closed_after_app; [exact HQ|]. intros id e k v. destruct Hpre as [->|[-> _]]; [intros []|]. intros [Hq|[]]. discriminate. }
        intros after id e k v old Ho Hc. rewrite app_assoc in Ho.
        destruct (app_split _ _ _ _ _ Ho) as [(n2 & Hnew & _)|(a2 & -> & Ho2)].
        -- exfalso. assert (Hin : In (EvCall id e k v) (after ++ EvCall id e k v :: n2)) by (apply in_or_app; right; now left).
           rewrite <- Hnew in Hin. apply in_app_or in Hin as [Hin|Hin].
           ++ destruct (shall_close s || _)%bool; [destruct Hin as [Hq|[]]; discriminate|destruct Hin].
           ++ exact (quiet_no_call _ (did_quiet _ _ Hm) _ _ _ _ Hin).
        -- destruct a2 as [|y a2].
           ++ cbn in Ho2. injection Ho2 as <- <- <- <- <-. rewrite Hc, orb_true_r, app_nil_r.
              exists [], mid. auto.
           ++ cbn in Ho2. injection Ho2 as <- Ho2. destruct (H1 a2 id e k v old Ho2 Hc) as (a1 & mid' & -> & Hm').
              match goal with |- exists _ _, ?X ++ ?c :: _ = _ /\ _ => exists (X ++ c :: a1), mid' end.
              split; [|exact Hm']. rewrite <- (app_assoc _ (_ :: a1)). reflexivity.
      * rewrite Ht. apply closed_after_1; [exact HQ|discriminate].
    + unfold BufReadModel.tick in H. rewrite Ej in H. injection H as <-. exact HQ.
  - destruct a as [n|j|]; cbn [user_act] in H.
    + destruct (rb_consume (buf s) n) as [b|]; [|discriminate]. injection H as <-. apply closed_after_1; [exact HQ|discriminate].
    + injection H as <-.
      assert (Hset : Closed_after (tr (set_job s j))).
      { unfold set_job, start_read. cbn [cbrun]. destruct (Nat.eqb (cbrun s) 0); apply closed_after_1; auto; discriminate. }
      unfold bs_read. destruct j as [k|d|k]; [destruct (Nat.ltb (rb_size (buf s)) k)| |]; auto.
      apply closed_after_1; [exact HQ|discriminate].
    + injection H as <-. unfold bs_close. destruct (Nat.eqb (cbrun (log s EvCloseCall)) 0); cbn [log tr];
        repeat (apply closed_after_1; [|discriminate]); exact HQ.
  - injection H as <-. apply closed_after_1; [exact HQ|discriminate].
  - injection H as <-. apply closed_after_1; [exact HQ|discriminate].
Qed.

Lemma reach_closed m s : m <> [] -> reach m s -> Closed_after (tr s).
Proof.
  intros Hm Hr. assert (H0 : 0 < length m) by (destruct m; [congruence|cbn; lia]).
  induction Hr as [|s x s' Hr IH He Hs].
  - intros after id e n v old Ho. destruct after; discriminate.
  - apply (step_closed (length m) s x s'); auto. now apply reach_inv.
Qed.

(** * Waiting *)
Lemma answerable_skip j v n : (exists k, fulfils j (skipn n v) k) -> exists k, fulfils j v k.
Proof.
  intros (k & Hk). destruct j as [a|d|a]; cbn [fulfils] in *.
  - exists a. rewrite skipn_length in Hk. lia.
  - destruct Hk as (i & [(b & c & Hv & Hb) _] & _).
    pose proof (find_first_spec v d) as Hff. destruct (find_first v d) as [o|]; [exists (o + length d), o; auto|].
    exfalso. apply (Hff (length (firstn n v) + i)). exists (firstn n v ++ b), c.
    split; [|rewrite app_length; lia]. rewrite <- (firstn_skipn n v) at 1. rewrite Hv, <- !app_assoc. reflexivity.
  - exists (Nat.min (length v) a). rewrite skipn_length in Hk. lia.
Qed.

Lemma step_waits size s x s' :
  no_reread_on_local_error user ->
  0 < size -> Inv size s -> Waits size s -> enabled s x -> step s x = Ret s' -> Waits size s'.
Proof.
  intros HU H0 HI HW He H. pose proof (step_inv size s x s' H0 HI He H) as HI'.
  destruct x as [|a|bs|err]; cbn [BufReadModel.step enabled] in *.
  - destruct (job s) as [j|] eqn:Ej.
    + destruct (tick_cases size s j s' H0 HI He Ej H) as (_ & [(err & n & pre & mid & Hpre & Ht & Hm & Hsc & Hcl & Hj)|(Ht & Hct & Hw & Hj & _ & _ & Hna)]).
      * intros Hidle i Hi. destruct (Hj Hidle) as [Hclt|(Hnone & Hne & Hloc)].
        -- right. rewrite Ht, Hclt. now left.
        -- rewrite Hnone in Hi; [discriminate|].
           assert (Hus := HU (jobid s) err n (rb_view (buf s)) (pre ++ tr s) Hne). apply Hus.
           destruct Hloc as [Hl| ->]; [now left|]. right. exists (tr s). reflexivity.
      * intros _ i Hi. left. assert (i = j) by congruence. subst i. auto.
    + unfold BufReadModel.tick in H. rewrite Ej in H. injection H as <-. intros _ i Hi. cbn in Hi. congruence.
  - destruct a as [n|j|]; cbn [user_act] in H.
    + destruct (rb_consume (buf s) n) as [b|] eqn:Eb; [|discriminate]. injection H as <-. intros Hidle i Hi.
      destruct (HW Hidle i Hi) as [(A & B)|B]; [left|right; now right]. split; [exact A|].
      intros (k & Hk). apply B. cbn [buf] in Hk. destruct HI as ((I1 & _) & _).
      destruct (view_consume size _ _ _ I1 Eb) as (V & _). rewrite V in Hk. apply (answerable_skip i _ n). now exists k.
    + injection H as <-. destruct HI as (_ & Hcb & _).
      assert (Hset : ct (set_job s j) = Loop) by (unfold set_job, start_read; cbn [cbrun]; rewrite Hcb; reflexivity).
      unfold bs_read. destruct j as [k|d|k]; [destruct (Nat.ltb (rb_size (buf s)) k)| |]; try (intros Hx; congruence).
      intros Hidle i Hi. destruct (HW Hidle i Hi) as [A|B]; [left; exact A|right; now right].
    + injection H as <-. unfold bs_close. destruct HI as (_ & Hcb & _). cbn [log cbrun]. rewrite Hcb. cbn [Nat.eqb].
      intros _ i _. right. now left.
  - injection H as <-. intros Hx. discriminate.
  - injection H as <-. intros Hx. discriminate.
Qed.

Lemma reach_waits m s : no_reread_on_local_error user -> m <> [] -> reach m s -> Waits (length m) s.
Proof.
  intros HU Hm Hr. assert (H0 : 0 < length m) by (destruct m; [congruence|cbn; lia]).
  induction Hr as [|s x s' Hr IH He Hs].
  - intros _ j Hj. discriminate.
  - apply (step_waits (length m) s x s'); auto. now apply reach_inv.
Qed.

(** The code itself never goes wrong for handlers that consume no more than they are offered. *)
Lemma user_act_bounds s a : match a with UConsume n => fetch (buf s) + n <= add (buf s) | _ => True end ->
  exists s', user_act s a = Ret s' /\ add (buf s') = add (buf s) /\
    fetch (buf s') = fetch (buf s) + match a with UConsume n => n | _ => 0 end.
Proof.
  destruct a as [n|j|]; cbn [user_act]; intros H.
  - unfold rb_consume. apply Nat.leb_le in H. rewrite H. cbn [obind]. eexists. split; [reflexivity|]. auto.
  - eexists. split; [reflexivity|]. rewrite Nat.add_0_r.
    assert (Hs : buf (set_job s j) = buf s) by (unfold set_job, start_read; destruct (Nat.eqb _ 0); reflexivity).
    unfold bs_read. destruct j as [k|d|k]; [destruct (Nat.ltb _ k)| |]; try rewrite Hs; auto.
  - eexists. split; [reflexivity|]. rewrite Nat.add_0_r. unfold bs_close. destruct (Nat.eqb _ 0); auto.
Qed.

Lemma user_acts_ok l : forall s, fetch (buf s) + total_consume l <= add (buf s) -> exists s', user_acts s l = Ret s'.
Proof.
  induction l as [|a l IH]; intros s H; cbn [user_acts total_consume] in *; [eauto|].
  destruct (user_act_bounds s a) as (s1 & E & Ea & Ef); [destruct a; auto; lia|].
  rewrite E. cbn [obind]. apply IH. rewrite Ea, Ef. destruct a; lia.
Qed.

Lemma call_handler_ok size s err n : polite user -> wf_buf size (buf s) -> exists r, call_handler s err n = Ret r.
Proof.
  intros HP Hw. unfold BufReadModel.call_handler.
  set (t := EvCall (jobid s) err n (rb_view (buf s)) :: tr s).
  match goal with |- context [user_acts ?S _] => destruct (user_acts_ok (user t) S) as (s1 & E) end.
  { cbn [buf]. pose proof (HP (jobid s) err n (rb_view (buf s)) (tr s)) as H. fold t in H.
    rewrite (view_length _ _ Hw) in H. unfold rb_unread in H. destruct Hw. lia. }
  rewrite E. cbn [obind shall_close]. destruct (shall_close s1); eauto.
Qed.

Lemma run_job_ok size s j : polite user -> wf_buf size (buf s) -> exists r, run_job s j = Ret r.
Proof.
  intros HP Hw. unfold BufReadModel.run_job. destruct (negb _); [eapply call_handler_ok; eauto|]. destruct j as [k|d|k].
  - destruct (Nat.leb k _); [eapply call_handler_ok; eauto|eauto].
  - destruct (memmem_correct (rb_view (buf s)) d) as (res & Em & _). rewrite Em. cbn [obind].
    destruct res; [eapply call_handler_ok; eauto|eauto].
  - destruct (Nat.ltb 0 _); [eapply call_handler_ok; eauto|eauto].
Qed.

Lemma step_ok size s x : polite user -> Inv size s -> enabled s x ->
  (forall n, x = XUser (UConsume n) -> n <= length (rb_view (buf s))) -> exists s', step s x = Ret s'.
Proof.
  intros HP ((Hw & HI) & Hcb & Her) He Hx. destruct x as [|a|bs|err]; cbn [BufReadModel.step]; eauto.
  - unfold BufReadModel.tick. destruct (job s) as [j|] eqn:Ej; [|eauto].
    destruct (run_job_ok size s j HP Hw) as ([s1 r] & E). rewrite E. cbn [obind fst snd]. destruct r; eauto.
    assert (s1 = s) as ->.
    { unfold BufReadModel.run_job in E.
      assert (Hch : forall e n, call_handler s e n <> Ret (s1, BS_AGAIN)).
      { intros e n. unfold BufReadModel.call_handler. destruct (user_acts _ _) as [s2|]; [|discriminate]. cbn [obind].
        destruct (shall_close _); discriminate. }
      destruct (negb _); [elim (Hch _ _ E)|]. destruct j as [k|d|k].
      - destruct (Nat.leb k _); [elim (Hch _ _ E)|congruence].
      - destruct (cio_memmem _ d) as [[o|]|]; cbn [obind] in E; [elim (Hch _ _ E)|congruence|discriminate].
      - destruct (Nat.ltb 0 _); [elim (Hch _ _ E)|congruence]. }
    unfold BufReadModel.fill_buffer. destruct (_ && _)%bool.
    + destruct (run_job_ok size (set_error s MESSAGE_TOO_LONG) j HP Hw) as ([s1 r] & E1). rewrite E1. cbn [obind]. eauto.
    + destruct (Z.eqb _ SUCCESS); [cbn [obind]; eauto|].
      match goal with |- context [call_handler ?S ?e 0] => destruct (call_handler_ok size S e 0 HP) as ([s1 r] & E1) end.
      { cbn [log buf]. destruct (Nat.eqb _ 0); [|exact Hw]. apply (view_compact size), Hw. }
      rewrite E1. cbn [obind]. eauto.
  - destruct (user_act_bounds s a) as (s1 & E & _); [|eauto]. destruct a as [n|j|]; auto.
    specialize (Hx n eq_refl). rewrite (view_length _ _ Hw) in Hx. unfold rb_unread in Hx. destruct Hw. lia.
Qed.
End Env.
