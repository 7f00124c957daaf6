From Verif Require Import Base ZephyrTimer ZephyrTimerSpec.

Fixpoint sok (P : Prop) (f : nat -> tm) (k : list op) : Prop :=
  match k with
  | [] => True
  | OStopEnd id :: r => alive (f id) = true /\ sok P f r
  | OCloseEnd id :: r => alive (f id) = true /\ removed (f id) = true /\ (handler (f id) = None \/ P) /\ ~ In (OStopEnd id) r /\ ~ In (OCloseEnd id) r /\ sok P f r
  | _ :: r => sok P f r
  end.
Fixpoint paired (k : list op) : Prop :=
  match k with
  | [] => True
  | x :: r => match r with OStopEnd id :: _ => x = OUser id OPERATION_ABORTED | _ => True end /\ paired r
  end.

Record inv (s : st) (k : list op) : Prop := {
  i_h : forall id, alive (tms s id) = true -> handler (tms s id) = outstanding id (tr s);
  i_dead : forall id, alive (tms s id) = false -> outstanding id (tr s) = None;
  i_us : forall id, usable id (tr s) = alive (tms s id) && negb (removed (tms s id));
  i_hk : forall id, alive (tms s id) = true -> hooked id (tr s) = false;
  i_run : forall id, running (tms s id) = true -> handler (tms s id) <> None /\ alive (tms s id) = true /\ removed (tms s id) = false /\ due id (tr s) = false /\ ~ In (MEv id) (queue s);
  i_q : forall id, In (MEv id) (queue s) -> handler (tms s id) <> None /\ alive (tms s id) = true /\ removed (tms s id) = false /\ due id (tr s) = true;
  i_pend : forall id, outstanding id (tr s) <> None -> running (tms s id) = true \/ In (MEv id) (queue s) \/ In EvStop (tr s);
  i_nd : NoDup (queue s);
  i_id : forall id, alive (tms s id) = true -> S id < QUEUE_SIZE;
  i_num : Forall (fun e => forall m, number e = Some m -> m < narm s) (tr s);
  i_law : lawful (tr s);
  i_order : ~ In EvStop (tr s) -> rev (map MEv (expiries (tr s))) = rev (map MEv (told (tr s))) ++ queue s;
  i_stack : sok (In EvStop (tr s)) (tms s) k;
  i_pair : paired k;
}.

Lemma upd_same f i t : upd f i t i = t.
Proof. unfold upd. rewrite Nat.eqb_refl. reflexivity. Qed.
Lemma upd_other f i t j : j <> i -> upd f i t j = f j.
Proof. intros H. unfold upd. destruct (Nat.eqb_spec j i); [congruence|reflexivity]. Qed.

Lemma sok_ext (P Q : Prop) f g k : (P -> Q) -> (forall id, alive (f id) = true -> alive (g id) = true /\ (removed (f id) = true -> removed (g id) = true) /\ (removed (f id) = true -> handler (f id) = None -> handler (g id) = None)) -> sok P f k -> sok Q g k.
Proof.
  intros PQ H. induction k as [|o k IH]; [auto|]. destruct o; cbn [sok]; auto.
  - intros (A & D). destruct (H _ A) as (A' & _). auto.
  - intros (A & B & D & E & F & G). destruct (H _ A) as (A' & B' & D'). destruct D as [D|D]; auto 10.
Qed.
Lemma sok_same (P Q : Prop) f k : (P -> Q) -> sok P f k -> sok Q f k.
Proof. intros PQ. apply sok_ext; [exact PQ|]. intros id A. repeat split; auto. Qed.
Lemma sok_dead P f id t k : ~ In (OStopEnd id) k -> ~ In (OCloseEnd id) k -> sok P f k -> sok P (upd f id t) k.
Proof.
  intros H1 H2. induction k as [|o k IH]; [auto|]. assert (K : sok P f k -> sok P (upd f id t) k) by (apply IH; [intros X; apply H1; right; exact X|intros X; apply H2; right; exact X]).
  destruct o; cbn [sok]; auto.
  - assert (id0 <> id) by (intros ->; apply H1; left; reflexivity). rewrite upd_other by assumption. tauto.
  - assert (id0 <> id) by (intros ->; apply H2; left; reflexivity). rewrite upd_other by assumption. tauto.
Qed.
Lemma sok_stop P f k id : sok P f k -> In (OStopEnd id) k -> alive (f id) = true.
Proof. induction k as [|o k IH]; [intros _ []|]. intros H [-> | X]; [apply H|]. apply IH; [|exact X]. destruct o; cbn in H; tauto. Qed.
Lemma sok_close P f k id : sok P f k -> In (OCloseEnd id) k -> alive (f id) = true /\ removed (f id) = true.
Proof. induction k as [|o k IH]; [intros _ []|]. intros H [-> | X]; [split; apply H|]. apply IH; [|exact X]. destruct o; cbn in H; tauto. Qed.
Lemma paired_in k id : paired k -> In (OStopEnd id) k -> (exists r, k = OStopEnd id :: r) \/ In (OUser id OPERATION_ABORTED) k.
Proof.
  induction k as [|o k IH]; [intros _ []|]. intros [P1 P2] [-> | H]; [left; eexists; reflexivity|]. right.
  destruct (IH P2 H) as [[r ->]|X]; [left; exact P1|right; exact X].
Qed.
Lemma app_stop k id : paired k -> app_runs k -> In (OStopEnd id) k -> In (OUser id OPERATION_ABORTED) k.
Proof. intros P A H. destruct (paired_in k id P H) as [[r ->]|X]; [destruct A|exact X]. Qed.
Lemma paired_user k id err : app_runs k -> paired k -> paired (OUser id err :: k).
Proof. intros A P. split; [|exact P]. destruct k as [|o k]; [exact I|]. destruct o; try exact I. destruct A. Qed.
Lemma paired_hook k id : (match k with OStopEnd _ :: _ => False | _ => True end) -> paired k -> paired (OHook id :: k).
Proof. intros A P. split; [|exact P]. destruct k as [|o k]; [exact I|]. destruct o; try exact I. destruct A. Qed.

(** Queue entries are few. *)
Lemma queue_short q : NoDup q -> (forall id, In (MEv id) q -> S id < QUEUE_SIZE) -> length q <= QUEUE_SIZE.
Proof.
  intros ND H. change QUEUE_SIZE with (length (MStop :: map MEv (seq 0 9))). apply NoDup_incl_length; [exact ND|]. intros [id|] X; [|left; reflexivity].
  right. apply in_map, in_seq. specialize (H id X). unfold QUEUE_SIZE in H. lia.
Qed.

Lemma eqb_other i j : i <> j -> Nat.eqb i j = false.
Proof. apply Nat.eqb_neq. Qed.
Ltac ids id := let j := fresh "j" in intros j; cbn [tms queue tr narm set_tm set_queue set_narm set_going log]; destruct (Nat.eq_dec j id) as [->|?];
  [rewrite ?upd_same|rewrite ?upd_other by assumption]; cbn [outstanding due usable hooked handler running removed alive set_handler set_running set_removed set_alive];
  rewrite ?Nat.eqb_refl, ?eqb_other by congruence.
Ltac open_inv H := destruct H as [h dead us hk run q pend nd iid num law order stack pair].

Lemma num_mono l a b : a <= b -> Forall (fun e => forall m, number e = Some m -> m < a) l -> Forall (fun e => forall m, number e = Some m -> m < b) l.
Proof. intros L. apply Forall_impl. intros e H m E. specialize (H m E). lia. Qed.

Lemma step_arm s k id ns : inv s k -> app_runs k -> usable id (tr s) = true -> outstanding id (tr s) = None -> exists c, expires_from_now s id ns k = Ret c /\ inv (fst c) (snd c).
Proof.
  intros V A U O. open_inv V. pose proof (us id) as U'. rewrite U in U'. symmetry in U'. apply andb_prop in U'. destruct U' as [AL RM]. apply negb_true_iff in RM.
  unfold expires_from_now. rewrite AL. cbn [negb]. eexists. split; [reflexivity|]. cbn [fst snd].
  assert (NQ : ~ In (MEv id) (queue s)). { intros X. destruct (q id X) as [Y _]. rewrite h in Y by exact AL. congruence. }
  assert (NR : running (tms s id) = false). { destruct (running (tms s id)) eqn:R; [|reflexivity]. destruct (run id R) as [Y _]. rewrite h in Y by exact AL. congruence. }
  split.
  - ids id; [reflexivity|apply h].
  - ids id; [congruence|apply dead].
  - ids id; apply us.
  - ids id; apply hk.
  - ids id; [intros _; repeat split; auto; discriminate|apply run].
  - ids id; [intros X; destruct (NQ X)|apply q].
  - ids id; [auto|]. intros X. destruct (pend j X) as [Y|[Y|Y]]; [auto|auto|right; right; right; exact Y].
  - exact nd.
  - ids id; apply iid.
  - cbn [tr narm log set_narm set_tm]. constructor; [intros m E; injection E as <-; lia|]. eapply num_mono; [|exact num]. lia.
  - cbn [tr log set_narm set_tm lawful allowed]. split; [|exact law]. split; [exact O|exact num].
  - cbn [tr log set_narm set_tm queue]. intros X. apply order. intros Y. apply X. right. exact Y.
  - cbn [tms log set_narm set_tm]. apply (sok_ext (In EvStop (tr s)) _ (tms s)); [intros Y; cbn [tr log In set_tm set_queue set_narm]; auto| |exact stack]. intros j. destruct (Nat.eq_dec j id) as [->|?]; [rewrite upd_same; cbn; rewrite RM; auto; split; [assumption|split; discriminate]|rewrite upd_other by assumption; auto].
  - exact pair.
Qed.

Lemma step_init s k id : inv s k -> app_runs k -> alive (tms s id) = false -> S id < QUEUE_SIZE -> exists c, init s id k = Ret c /\ inv (fst c) (snd c).
Proof.
  intros V A AL LT. open_inv V. eexists. split; [reflexivity|]. cbn [fst snd].
  assert (NQ : ~ In (MEv id) (queue s)). { intros X. destruct (q id X) as (_ & Y & _). congruence. }
  split.
  - ids id; [rewrite dead by exact AL; reflexivity|apply h].
  - ids id; [discriminate|apply dead].
  - ids id; [reflexivity|apply us].
  - ids id; [reflexivity|apply hk].
  - ids id; [discriminate|apply run].
  - ids id; [intros X; destruct (NQ X)|apply q].
  - ids id; [rewrite dead by exact AL; congruence|]. intros X. destruct (pend j X) as [Y|[Y|Y]]; [auto|auto|right; right; right; exact Y].
  - exact nd.
  - ids id; [auto|apply iid].
  - cbn [tr narm log set_tm]. constructor; [discriminate|exact num].
  - cbn [tr log set_tm lawful allowed]. split; [|exact law]. rewrite us, AL. reflexivity.
  - cbn [tr log set_tm queue]. intros X. apply order. intros Y. apply X. right. exact Y.
  - cbn [tms log set_tm tr]. apply (sok_same (In EvStop (tr s))); [intros Y; right; exact Y|]. apply sok_dead; [| |exact stack]; intros X; [apply (sok_stop _ _ _ _ stack) in X|apply (sok_close _ _ _ _ stack) in X; destruct X as [X _]]; congruence.
  - exact pair.
Qed.

Lemma step_expire s k id : inv s k -> running (tms s id) = true -> exists c, expire s id k = Ret c /\ inv (fst c) (snd c).
Proof.
  intros V R. open_inv V. destruct (run id R) as (HN & AL & RM & DU & NQ). unfold expire.
  assert (ND' : NoDup (MEv id :: queue s)) by (constructor; assumption).
  assert (L : length (MEv id :: queue s) <= QUEUE_SIZE). { apply queue_short; [exact ND'|]. intros j [X|X]; [injection X as <-; apply iid, AL|]. destruct (q j X) as (_ & Y & _). apply iid, Y. }
  cbn [length] in L. destruct (Nat.leb_spec QUEUE_SIZE (length (queue s))) as [X|_]; [lia|]. eexists. split; [reflexivity|]. cbn [fst snd].
  split.
  - ids id; apply h.
  - ids id; apply dead.
  - ids id; apply us.
  - ids id; apply hk.
  - ids id; [discriminate|]. intros X. destruct (run j X) as (A1 & A2 & A3 & A4 & A5). repeat split; auto. intros Y. apply in_app_or in Y. destruct Y as [Y|[Y|[]]]; [auto|congruence].
  - ids id; [auto|]. intros X. apply in_app_or in X. destruct X as [X|[X|[]]]; [apply q, X|congruence].
  - ids id; [intros _; right; left; apply in_or_app; right; left; reflexivity|]. intros X. destruct (pend j X) as [Y|[Y|Y]]; [auto|right; left; apply in_or_app; auto|right; right; right; exact Y].
  - cbn [queue log set_queue set_tm]. apply (NoDup_Add (a := MEv id) (l := queue s)); [|split; assumption]. rewrite <- (app_nil_r (queue s)) at 1. apply Add_app.
  - ids id; apply iid.
  - cbn [tr narm log set_queue set_tm]. constructor; [discriminate|exact num].
  - cbn [tr log set_queue set_tm lawful allowed]. split; [|exact law]. rewrite <- h by exact AL. auto.
  - cbn [tr log set_tm set_queue queue]. intros X. assert (Y : ~ In EvStop (tr s)) by (intros Y; apply X; right; exact Y). specialize (order Y).
    change (expiries (EvExpired id :: tr s)) with (id :: expiries (tr s)). change (told (EvExpired id :: tr s)) with (told (tr s)). cbn [map rev]. rewrite order, app_assoc. reflexivity.
  - cbn [tms log set_queue set_tm]. apply (sok_ext (In EvStop (tr s)) _ (tms s)); [intros Y; cbn [tr log In set_tm set_queue set_narm]; auto| |exact stack]. intros j. destruct (Nat.eq_dec j id) as [->|?]; [rewrite upd_same; cbn; auto|rewrite upd_other by assumption; auto].
  - exact pair.
Qed.

Lemma out_num id n m l : Forall (fun e => forall x, number e = Some x -> x < m) l -> outstanding id l = Some n -> n < m.
Proof. induction l as [|e l IH]; intros F X; [discriminate|]. inversion F as [|? ? F1 F2]; subst. destruct e; cbn [outstanding] in X; try (apply IH; assumption); destruct (Nat.eqb id0 id); try (apply IH; assumption); [injection X as ->; apply F1; reflexivity|discriminate|discriminate]. Qed.

(** The end of a call of the stop function: an aborted handler, in [cancel] and [close]. *)
Lemma step_cancel s k id : inv s k -> app_runs k -> usable id (tr s) = true -> exists c, cancel s id k = Ret c /\ inv (fst c) (snd c).
Proof.
  intros V A U. pose proof V as V0. open_inv V. pose proof (us id) as U'. rewrite U in U'. symmetry in U'. apply andb_prop in U'. destruct U' as [AL RM]. apply negb_true_iff in RM.
  unfold cancel. rewrite AL. cbn [negb].
  assert (G : forall res, ((res = SUCCESS /\ outstanding id (tr s) <> None) \/ (res = OPERATION_NOT_PERMITTED /\ outstanding id (tr s) = None)) -> inv (log (EvCancel id res) s) k).
  { intros res RS. split; try assumption.
    - intros j X. destruct (pend j X) as [Y|[Y|Y]]; auto. right. right. right. exact Y.
    - cbn [tr log]. constructor; [discriminate|exact num].
    - cbn [tr log lawful allowed]. split; [exact RS|exact law].
    - cbn [tr log queue]. intros X. apply order. intros Y. apply X. right. exact Y.
    - cbn [tr log tms]. apply (sok_same (In EvStop (tr s))); [intros Y; right; exact Y|exact stack]. }
  destruct (handler (tms s id)) as [n|] eqn:E.
  2:{ eexists. split; [reflexivity|]. apply G. right. rewrite <- h by exact AL. auto. }
  assert (O : outstanding id (tr s) = Some n) by (rewrite <- h by exact AL; exact E). assert (ON : outstanding id (tr s) <> None) by (rewrite O; discriminate). specialize (G SUCCESS (or_introl (conj eq_refl ON))).
  unfold k_timer_stop. cbn [tms log]. destruct (running (tms s id)) eqn:R; [|eexists; split; [reflexivity|exact G]]. clear G.
  rewrite E. cbn [call_handler]. eexists. split; [reflexivity|]. cbn [fst snd]. destruct (run id R) as (_ & _ & _ & DU & NQ).
  split.
  - ids id; [reflexivity|apply h].
  - ids id; [congruence|apply dead].
  - ids id; apply us.
  - ids id; apply hk.
  - ids id; [discriminate|apply run].
  - ids id; [intros X; destruct (NQ X)|apply q].
  - ids id; [congruence|]. intros X. destruct (pend j X) as [Y|[Y|Y]]; [auto|auto|right; right; right; right; exact Y].
  - exact nd.
  - ids id; apply iid.
  - cbn [tr narm log set_tm]. constructor; [intros m X; injection X as <-|constructor; [discriminate|exact num]].
    apply (out_num id n (narm s) (tr s) num O).
  - cbn [tr log set_tm lawful allowed outstanding due hooked]. split; [|split; [left; rewrite O; split; [reflexivity|discriminate]|exact law]]. split; [exact O|]. split; [apply hk, AL|]. right. cbn [asked]. auto.
  - cbn [tr log set_tm queue]. intros X. apply order. intros Y. apply X. right. right. exact Y.
  - cbn [tms log set_tm sok]. rewrite upd_same. cbn [alive set_handler set_running]. split; [exact AL|].
    apply (sok_ext (In EvStop (tr s)) _ (tms s)); [intros Y; cbn [tr log In set_tm set_queue set_narm]; auto| |exact stack]. intros j. destruct (Nat.eq_dec j id) as [->|?]; [rewrite upd_same; cbn; auto|rewrite upd_other by assumption; auto].
  - split; [reflexivity|]. split; [|exact pair]. destruct k as [|o k]; [exact I|]. destruct o; try exact I. destruct A.
Qed.

Lemma step_close s k id : inv s k -> app_runs k -> usable id (tr s) = true -> due id (tr s) = false -> ~ In (OUser id OPERATION_ABORTED) k -> exists c, close s id k = Ret c /\ inv (fst c) (snd c).
Proof.
  intros V A U DU NA. open_inv V. pose proof (us id) as U'. rewrite U in U'. symmetry in U'. apply andb_prop in U'. destruct U' as [AL RM]. apply negb_true_iff in RM.
  assert (NQ : ~ In (MEv id) (queue s)). { intros X. destruct (q id X) as (_ & _ & _ & Y). congruence. }
  assert (NS : ~ In (OStopEnd id) k) by (intros X; apply NA, app_stop; assumption).
  assert (NC : ~ In (OCloseEnd id) k) by (intros X; destruct (sok_close _ _ _ _ stack X); congruence).
  assert (PR : paired (OCloseEnd id :: k)) by (split; [destruct k as [|o k0]; [exact I|]; destruct o; try exact I; destruct A|exact pair]).
  unfold close. rewrite AL. cbn [negb].
  assert (Q : running (tms s id) = false -> inv (log (EvClose id) (set_tm id (set_removed true (tms s id)) s)) (OCloseEnd id :: k)).
  { intros NR. split.
    - ids id; apply h.
    - ids id; apply dead.
    - ids id; [rewrite andb_false_r; reflexivity|apply us].
    - ids id; apply hk.
    - ids id; [congruence|apply run].
    - ids id; [intros X; destruct (NQ X)|apply q].
    - ids id; (intros X; match type of X with outstanding ?j _ <> None => destruct (pend j X) as [Y|[Y|Y]]; [auto|auto|right; right; right; exact Y] end).
    - exact nd.
    - ids id; apply iid.
    - cbn [tr narm log set_tm]. constructor; [discriminate|exact num].
    - cbn [tr log set_tm lawful allowed]. split; [exact U|exact law].
    - cbn [tr log set_tm queue]. intros X. apply order. intros Y. apply X. right. exact Y.
    - cbn [tms tr log set_tm sok]. rewrite !upd_same. cbn [alive removed handler set_removed]. split; [exact AL|]. split; [reflexivity|]. split; [|split; [exact NS|split; [exact NC|]]].
      + rewrite h by exact AL. destruct (outstanding id (tr s)) eqn:O; [|left; reflexivity]. right. right. destruct (pend id) as [Y|[Y|Y]]; [congruence|congruence|destruct (NQ Y)|exact Y].
      + apply sok_dead; [exact NS|exact NC|]. apply (sok_same (In EvStop (tr s))); [intros Y; right; exact Y|exact stack].
    - exact PR. }
  destruct (handler (tms s id)) as [n|] eqn:E.
  2:{ eexists. split; [reflexivity|]. apply Q. destruct (running (tms s id)) eqn:R; [|reflexivity]. destruct (run id R) as [X _]. congruence. }
  unfold k_timer_stop. cbn [tms log set_tm]. rewrite upd_same. cbn [running set_removed handler].
  destruct (running (tms s id)) eqn:R; [|eexists; split; [reflexivity|apply Q; reflexivity]]. clear Q.
  assert (O : outstanding id (tr s) = Some n) by (rewrite <- h by exact AL; exact E).
  rewrite E. cbn [call_handler]. eexists. split; [reflexivity|]. cbn [fst snd].
  split.
  - ids id; [reflexivity|apply h].
  - ids id; [congruence|apply dead].
  - ids id; [rewrite andb_false_r; reflexivity|apply us].
  - ids id; apply hk.
  - ids id; [discriminate|apply run].
  - ids id; [intros X; destruct (NQ X)|apply q].
  - ids id; [congruence|]. intros X. destruct (pend j X) as [Y|[Y|Y]]; [auto|auto|right; right; right; right; exact Y].
  - exact nd.
  - ids id; apply iid.
  - cbn [tr narm log set_tm]. constructor; [intros m X; injection X as <-|constructor; [discriminate|exact num]].
    apply (out_num id n (narm s) (tr s) num O).
  - cbn [tr log set_tm lawful allowed outstanding due hooked]. split; [|split; [exact U|exact law]]. split; [exact O|]. split; [apply hk, AL|]. right. cbn [asked]. auto.
  - cbn [tr log set_tm queue]. intros X. apply order. intros Y. apply X. right. right. exact Y.
  - cbn [tms tr log set_tm sok]. rewrite !upd_same. cbn [alive removed handler set_handler set_running set_removed]. do 4 (split; [auto|]). split; [exact NS|]. split; [exact NC|].
    apply sok_dead; [exact NS|exact NC|]. apply sok_dead; [exact NS|exact NC|]. apply (sok_same (In EvStop (tr s))); [intros Y; right; right; exact Y|exact stack].
  - split; [reflexivity|]. split; [exact I|exact PR].
Qed.

Lemma step_dispatch s k : inv s k -> k = [] -> queue s <> [] -> exists c, dispatch s k = Ret c /\ inv (fst c) (snd c).
Proof.
  intros V -> NE. open_inv V. unfold dispatch. destruct (queue s) as [|[id|] r] eqn:EQ; [congruence| |].
  - destruct (q id (or_introl eq_refl)) as (HN & AL & RM & DU). cbn [negb]. rewrite AL, RM. cbn [negb].
    destruct (handler (tms s id)) as [n|] eqn:E; [|congruence]. cbn [call_handler]. eexists. split; [reflexivity|]. cbn [fst snd].
    assert (O : outstanding id (tr s) = Some n) by (rewrite <- h by exact AL; exact E).
    inversion nd as [|? ? NI ND]; subst.
    assert (NR : running (tms s id) = false). { destruct (running (tms s id)) eqn:R; [|reflexivity]. destruct (run id R) as (_ & _ & _ & _ & X). destruct X. left. reflexivity. }
    split.
    + ids id; [reflexivity|apply h].
    + ids id; [congruence|apply dead].
    + ids id; apply us.
    + ids id; apply hk.
    + ids id; [congruence|]. intros X. destruct (run j X) as (A1 & A2 & A3 & A4 & A5). repeat split; auto. intros Y. apply A5. right. exact Y.
    + ids id; [intros X; destruct (NI X)|]. intros X. apply q. right. exact X.
    + ids id; [congruence|]. intros X. destruct (pend j X) as [Y|[[Y|Y]|Y]]; [auto|congruence|auto|right; right; right; exact Y].
    + exact ND.
    + ids id; apply iid.
    + cbn [tr narm log set_tm set_queue]. constructor; [intros m X; injection X as <-; apply (out_num id n (narm s) (tr s) num O)|exact num].
    + cbn [tr log set_tm set_queue lawful allowed]. split; [|exact law]. split; [exact O|]. split; [apply hk, AL|]. left. auto.
    + cbn [tr log set_tm queue set_queue]. intros X. assert (Y : ~ In EvStop (tr s)) by (intros Y; apply X; right; exact Y). specialize (order Y).
      change (expiries (EvHandler id n SUCCESS :: tr s)) with (expiries (tr s)). change (told (EvHandler id n SUCCESS :: tr s)) with (id :: told (tr s)). cbn [map rev]. rewrite order, <- app_assoc. reflexivity.
    + exact I.
    + split; exact I.
  - eexists. split; [reflexivity|]. cbn [fst snd]. inversion nd as [|? ? NI ND]; subst.
    split; try assumption.
    + intros id X. destruct (run id X) as (A1 & A2 & A3 & A4 & A5). repeat split; auto. intros Y. apply A5. right. exact Y.
    + intros id X. apply q. right. exact X.
    + intros id X. cbn [tr log] in *. destruct (pend id X) as [Y|[[Y|Y]|Y]]; [auto|congruence|auto|right; right; right; exact Y].
    + cbn [tr log]. constructor; [discriminate|exact num].
    + split; [exact I|exact law].
    + cbn [tr log queue set_queue set_going]. intros X. assert (Y : ~ In EvStop (tr s)) by (intros Y; apply X; right; exact Y). specialize (order Y). exfalso.
      assert (Z : In MStop (rev (map MEv (expiries (tr s))))) by (rewrite order; apply in_or_app; right; left; reflexivity). apply in_rev in Z. apply in_map_iff in Z. destruct Z as (? & Z & _). discriminate.
Qed.

Lemma step_stop s k : inv s k -> exists c, stop_loop s k = Ret c /\ inv (fst c) (snd c).
Proof.
  intros V. open_inv V. eexists. split; [reflexivity|]. cbn [fst snd]. split; try assumption.
  - intros id X. destruct (run id X) as (A1 & A2 & A3 & A4 & A5). repeat split; auto. intros [Y|[]]. discriminate.
  - intros id [X|[]]. discriminate.
  - intros id X. right. right. left. reflexivity.
  - repeat constructor. intros [].
  - cbn [tr log]. constructor; [discriminate|exact num].
  - split; [exact I|exact law].
  - intros X. destruct X. left. reflexivity.
  - cbn [tr log tms]. apply (sok_same (In EvStop (tr s))); [intros Y; right; exact Y|exact stack].
Qed.

Lemma step_hook s k id : inv s (OCloseEnd id :: k) -> inv (log (EvHook id) (set_tm id (set_alive false (tms s id)) s)) (OHook id :: k).
Proof.
  intros V. open_inv V. destruct stack as (AL & RM & HN & NS & NC & stack).
  assert (NR : running (tms s id) = false). { destruct (running (tms s id)) eqn:R; [|reflexivity]. destruct (run id R) as (_ & _ & X & _). congruence. }
  assert (NQ : ~ In (MEv id) (queue s)). { intros X. destruct (q id X) as (_ & _ & Y & _). congruence. }
  split.
  - ids id; [discriminate|apply h].
  - ids id; [reflexivity|apply dead].
  - ids id; [rewrite us, RM, andb_false_r; reflexivity|apply us].
  - ids id; [discriminate|apply hk].
  - ids id; [congruence|apply run].
  - ids id; [intros X; destruct (NQ X)|apply q].
  - ids id; [congruence|]. intros X. destruct (pend j X) as [Y|[Y|Y]]; [auto|auto|right; right; right; exact Y].
  - exact nd.
  - ids id; [discriminate|apply iid].
  - cbn [tr narm log set_tm]. constructor; [discriminate|exact num].
  - cbn [tr log set_tm lawful allowed]. split; [|exact law]. split; [rewrite us, RM, andb_false_r; reflexivity|]. split; [apply hk, AL|]. rewrite <- h by exact AL. exact HN.
  - cbn [tr log set_tm queue]. intros X. apply order. intros Y. apply X. right. exact Y.
  - cbn [tms tr log set_tm sok]. apply sok_dead; [exact NS|exact NC|]. apply (sok_same (In EvStop (tr s))); [intros Y; right; exact Y|exact stack].
  - destruct pair as [P1 P2]. split; [|exact P2]. destruct k as [|o k]; [exact I|]. destruct o; try exact I. discriminate P1.
Qed.

Lemma step_inv s k x : inv s k -> enabled (s, k) x -> careful (s, k) x -> exists c, step (s, k) x = Ret c /\ inv (fst c) (snd c).
Proof.
  intros V En Ca. destruct x as [id|id ns|id|id| | |id| | |]; cbn [enabled careful step] in *.
  - apply step_init; tauto.
  - apply step_arm; tauto.
  - apply step_cancel; tauto.
  - apply step_close; tauto.
  - apply step_stop, V.
  - destruct En as [-> _]. eexists. split; [reflexivity|]. cbn [fst snd]. destruct V. split; assumption.
  - apply step_expire; assumption.
  - apply step_dispatch; tauto.
  - destruct k as [|o k]; [destruct En|]. eexists. split; [reflexivity|]. cbn [fst snd tl]. open_inv V. destruct o; try destruct En; (split; try assumption; apply pair).
  - destruct k as [|o k]; [destruct En|]. destruct o; try destruct En; pose proof (i_stack _ _ V) as S; cbn [sok] in S; destruct S as [AL S]; rewrite AL.
    + eexists. split; [reflexivity|]. cbn [fst snd]. open_inv V. split; try assumption. apply pair.
    + eexists. split; [reflexivity|]. apply step_hook, V.
Qed.
Lemma inv_start : inv (fst start) (snd start).
Proof. split; cbn; intros; try discriminate; try reflexivity; try contradiction; try constructor. Qed.
Lemma reach_inv s k : reach careful (s, k) -> inv s k.
Proof.
  intros H. remember (s, k) as c eqn:E. revert s k E. induction H as [|c x c' R IH En Ca St]; intros s k E.
  - injection E as <- <-. apply inv_start.
  - subst c'. destruct c as [s0 k0]. destruct (step_inv s0 k0 x (IH _ _ eq_refl) En Ca) as ([s1 k1] & E & V). rewrite St in E. injection E as <- <-. exact V.
Qed.
