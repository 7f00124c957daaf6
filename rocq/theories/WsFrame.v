(** Which parts of the state the sending functions leave alone. *)
From Verif Require Import Base Utf8Model MaskModel EndianModel WsModel.
Open Scope N_scope.

Lemma obind_ret {A B} (x : outcome A) (f : A -> outcome B) y :
  obind x f = Ret y -> exists a, x = Ret a /\ f a = Ret y.
Proof. destruct x; cbn; intros H; [eauto|discriminate]. Qed.

Ltac binv H :=
  let a := fresh "a" in let E := fresh "E" in
  apply obind_ret in H; destruct H as (a & E & H).

Lemma jname_eqb_eq a b : jname_eqb a b = true <-> a = b.
Proof. destruct a, b; cbn; split; intros; congruence. Qed.
Lemma jname_eqb_refl a : jname_eqb a a = true. Proof. destruct a; reflexivity. Qed.
Lemma jname_dec (a b : jname) : {a = b} + {a <> b}. Proof. decide equality. Qed.

Lemma upd_same f n j : upd f n j n = j.
Proof. unfold upd. rewrite jname_eqb_refl. reflexivity. Qed.
Lemma upd_other f n j m : m <> n -> upd f n j m = f m.
Proof. unfold upd. destruct (jname_eqb m n) eqn:E; [apply jname_eqb_eq in E; congruence|reflexivity]. Qed.

(** Everything outside of [T] and [tr]. *)
Definition same_core (s s' : ws) : Prop :=
  R s' = R s /\ cbe s' = cbe s /\ selfc s' = selfc s /\ timer s' = timer s /\ hooked s' = hooked s /\
  hasrh s' = hasrh s /\ rd s' = rd s /\ cbrun s' = cbrun s /\ inp s' = inp s.

(** Two job structures that differ at most in [next] and in the contents of a non-NULL chain. *)
Definition job_like (j j' : job) : Prop :=
  jhandler j' = jhandler j /\ jtype j' = jtype j /\ jlast j' = jlast j /\ jcont j' = jcont j /\ jsh j' = jsh j /\
  (jwbh j' = None <-> jwbh j = None).

Lemma job_like_refl j : job_like j j.
Proof. unfold job_like. tauto. Qed.
Lemma job_like_trans a b c : job_like a b -> job_like b c -> job_like a c.
Proof. unfold job_like. intuition congruence. Qed.
Lemma same_core_refl s : same_core s s. Proof. unfold same_core. tauto. Qed.
Lemma same_core_trans a b c : same_core a b -> same_core b c -> same_core a c.
Proof. unfold same_core. intuition congruence. Qed.

Section F.
Variable C : cfg.

Lemma bs_write_frame s n c sh ch s' r : bs_write s n c sh ch = (s', r) ->
  same_core s s' /\ tr s' = EvSend n c :: tr s /\ jobs (T s') = jobs (T s) /\ first (T s') = first (T s) /\
  last (T s') = last (T s) /\ cmask (T s') = cmask (T s) /\ fragw (T s') = fragw (T s) /\ bswh (T s') = sh /\
  match ch_write ch with
  | WPending => r = SPending /\ inflight (T s') = S (inflight (T s))
  | WSync e => r = SSync sh e /\ inflight (T s') = inflight (T s)
  | WErr e => r = SErr e /\ inflight (T s') = inflight (T s)
  end.
Proof.
  unfold bs_write. intros E. destruct (ch_write ch); injection E as <- <-; cbn; unfold same_core; cbn; tauto.
Qed.

(** send_frame prepares a chain [c'] for job [n] and hands it to the stream. *)
Lemma send_frame_form s n len ch s' r : send_frame C s n len ch = Ret (s', r) ->
  exists c t c', jwbh (jobs (T s) n) = Some c /\ bs_write (set_T s t) n c' (jsh (jobs (T s) n)) ch = (s', r) /\ (jobs t = upd (jobs (T s)) n (set_wbh (jobs (T s) n) (Some c')) \/ (jobs t = jobs (T s) /\ c' = c)) /\
    first t = first (T s) /\ last t = last (T s) /\ fragw t = fragw (T s) /\ inflight t = inflight (T s).
Proof.
  unfold send_frame. destruct (jwbh (jobs (T s) n)) as [c|] eqn:W; [|discriminate]. intros H. exists c.
  destruct (jcont (jobs (T s) n)).
  - destruct (is_server C).
    + injection H as H. exists (T s), c. split; [reflexivity|]. split.
      { rewrite <- H. f_equal. destruct s as [R0 T0 a1 a2 a3 a4 a5 a6 a7 a8 a9]; reflexivity. }
      split; [right; split; reflexivity|]. repeat split.
    + binv H. destruct a as [c' m']. binv H. injection H as H. eexists _, c'. split; [reflexivity|].
      split; [exact H|]. split; [left; reflexivity|]. repeat split.
  - destruct (is_server C).
    + injection H as H. eexists _, _. split; [reflexivity|]. split; [exact H|]. split; [left; reflexivity|]. repeat split.
    + binv H. destruct a as [c' m']. injection H as H.
      eexists _, _. split; [reflexivity|]. split; [exact H|].
      split; [left; destruct (total_size c <? len); reflexivity|]. destruct (total_size c <? len); repeat split.
Qed.

(** What was sent for job [n] by send_frame. *)
Lemma send_frame_frame s n len ch s' r : send_frame C s n len ch = Ret (s', r) ->
  same_core s s' /\ (exists c c0, tr s' = EvSend n c :: tr s /\ jwbh (jobs (T s) n) = Some c0 /\ jwbh (jobs (T s') n) = Some c) /\
  jnext (jobs (T s') n) = jnext (jobs (T s) n) /\
  (forall m, m <> n -> jobs (T s') m = jobs (T s) m) /\ (forall m, job_like (jobs (T s) m) (jobs (T s') m)) /\
  first (T s') = first (T s) /\ last (T s') = last (T s) /\ fragw (T s') = fragw (T s) /\
  bswh (T s') = jsh (jobs (T s) n) /\
  match ch_write ch with
  | WPending => r = SPending /\ inflight (T s') = S (inflight (T s))
  | WSync e => r = SSync (jsh (jobs (T s) n)) e /\ inflight (T s') = inflight (T s)
  | WErr e => r = SErr e /\ inflight (T s') = inflight (T s)
  end.
Proof.
  intros H. apply send_frame_form in H. destruct H as (c & t & c' & W & E & J & F1 & F2 & F3 & F4).
  apply bs_write_frame in E.
  destruct E as (E1 & E2 & E3 & E4 & E5 & E6 & E7 & E8 & E9). cbn [T set_T tr] in *.
  split. { unfold same_core in *. cbn in E1. exact E1. }
  rewrite E3. split.
  { exists c', c. split; [exact E2|]. split; [exact W|]. destruct J as [J | [J ->]]; rewrite J; [rewrite upd_same; reflexivity|exact W]. }
  split. { destruct J as [J | [J ->]]; rewrite J; [rewrite upd_same; reflexivity|reflexivity]. }
  split. { intros m Hm. destruct J as [J | [J ->]]; rewrite J; [apply upd_other, Hm|reflexivity]. }
  split. { intros m. destruct J as [J | [J ->]]; rewrite J; [|apply job_like_refl].
           destruct (jname_dec m n) as [-> | Hm]; [rewrite upd_same|rewrite upd_other by assumption; apply job_like_refl].
           unfold job_like; cbn. rewrite W. repeat split; intros; congruence. }
  rewrite E4, E5, E7, E8, F1, F2, F3. rewrite <- F4.
  repeat match goal with |- _ /\ _ => split end; try reflexivity. exact E9.
Qed.

Lemma enqueue_frame s n len ch kerr s' ops : enqueue_job C s n len ch kerr = Ret (s', ops) ->
  same_core s s' /\
  (tr s' = tr s \/ exists c, tr s' = EvSend n c :: tr s) /\
  (forall m, job_like (jobs (T s) m) (jobs (T s') m)) /\
  fragw (T s') = fragw (T s) /\
  (ops = [] \/ (exists sh e, ops = [OStream sh e]) \/ (exists e msg, ops = OHandleError e CLOSE_INTERNAL_ERROR msg :: kerr e)).
Proof.
  unfold enqueue_job. destruct (first (T s)) as [f|] eqn:F.
  - destruct (last (T s)) as [l|] eqn:L; [|discriminate]. intros H; injection H as <- <-.
    cbn [T set_T tr set_last jobs set_job set_jobs fragw].
    split; [unfold same_core; cbn; tauto|]. split; [left; reflexivity|]. split; [|tauto].
    intros m. destruct (jname_dec m l) as [-> | Hm]; [rewrite upd_same|rewrite upd_other by assumption; apply job_like_refl].
    unfold job_like; cbn. tauto.
  - intros H. binv H. destruct a as [s1 r]. cbn [fst snd] in H.
    apply send_frame_frame in E. cbn [T set_T set_last set_first jobs tr fragw] in E.
    destruct E as (E1 & (c & c0 & E2 & E2' & E2'') & E3 & E4 & E5 & E6 & E7 & E8 & E9 & E10).
    assert (X : s1 = s' /\ (ops = [] \/ (exists sh e, ops = [OStream sh e]) \/ (exists e msg, ops = OHandleError e CLOSE_INTERNAL_ERROR msg :: kerr e))).
    { destruct r; injection H as <- <-; split; try reflexivity; [left; reflexivity|right; left; eauto|right; right; eauto]. }
    destruct X as [<- X]. split; [unfold same_core in *; cbn in E1; exact E1|].
    split; [right; eauto|]. split; [exact E5|]. split; [exact E8|exact X].
Qed.
End F.
