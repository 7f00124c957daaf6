From Verif Require Import Base EpollModel EpollSpec.
Local Open Scope nat_scope.

(** * Lists *)
Lemma nth_skipn {A} (l : list A) i x : nth_error l i = Some x -> skipn i l = x :: skipn (i + 1) l /\ firstn (i + 1) l = firstn i l ++ [x].
Proof.
  revert i. induction l as [|y l IH]; intros [|i] H; cbn in *; try discriminate.
  - injection H as ->. split; reflexivity.
  - destruct (IH i H) as [A1 A2]. split; [exact A1|]. cbn in A2. rewrite A2. reflexivity.
Qed.
Lemma skipn_nil_nth {A} (l : list A) i : nth_error l i = None <-> skipn i l = [].
Proof. revert i. induction l as [|y l IH]; intros [|i]; cbn; try tauto; [split; discriminate|apply IH]. Qed.
Lemma nth_of_skipn {A} (l : list A) i x r : skipn i l = x :: r -> nth_error l i = Some x /\ skipn (i + 1) l = r.
Proof.
  revert i. induction l as [|y l IH]; intros [|i] H; cbn in *; try discriminate.
  - injection H as -> ->. split; reflexivity.
  - apply IH, H.
Qed.

Definition other (n : nat) (p : nat * N) : bool := negb (Nat.eqb (fst p) n).
Lemma filter_other_id n l : ~ In n (map fst l) -> filter (other n) l = l.
Proof.
  induction l as [|[m e] l IH]; intros H; cbn; [reflexivity|]. unfold other at 1. cbn. destruct (Nat.eqb_spec m n); cbn.
  - exfalso. apply H. left. assumption.
  - rewrite IH; [reflexivity|]. intros X. apply H. right. exact X.
Qed.
Lemma erase_eq n fuel : forall i l, length l <= i + fuel -> NoDup (map fst (skipn i l)) ->
  erase_from i fuel l n = firstn i l ++ filter (other n) (skipn i l).
Proof.
  induction fuel as [|f IH]; intros i l L ND; cbn [erase_from].
  - rewrite skipn_all2 by lia. cbn. rewrite app_nil_r, firstn_all2 by lia. reflexivity.
  - destruct (nth_error l i) as [[m e]|] eqn:E.
    + destruct (nth_skipn _ _ _ E) as [S1 F1]. rewrite S1 in ND |- *. cbn [map fst] in ND. inversion ND as [|x y NI ND']. subst x y.
      cbn [filter]. unfold other at 1. cbn [fst]. destruct (Nat.eqb_spec m n); cbn [negb].
      * subst m. rewrite filter_other_id by exact NI. reflexivity.
      * rewrite IH by (auto; lia). rewrite F1, <- app_assoc. reflexivity.
    + apply skipn_nil_nth in E as E2. rewrite E2. cbn. rewrite app_nil_r. symmetry. apply firstn_all2. apply nth_error_None, E.
Qed.

Lemma filter_filter {A} (p q : A -> bool) l : filter p (filter q l) = filter (fun x => (q x && p x)%bool) l.
Proof. induction l as [|x l IH]; cbn; [reflexivity|]. destruct (q x); cbn; [destruct (p x); rewrite IH; reflexivity|exact IH]. Qed.

(** * Trace functions *)
Definition removes (n : nat) (e : eev) : bool := match e with EvRemove m => Nat.eqb m n | _ => false end.
Definition live (b : list eev) (p : nat * N) : bool := negb (existsb (removes (fst p)) b).
Lemma removes_in n b : existsb (removes n) b = true <-> In (EvRemove n) b.
Proof.
  rewrite existsb_exists. split.
  - intros (e & I & R). destruct e; try discriminate. apply Nat.eqb_eq in R. subst. exact I.
  - intros I. exists (EvRemove n). split; [exact I|]. cbn. apply Nat.eqb_refl.
Qed.
Lemma live_iff b n ev : live b (n, ev) = true <-> ~ In (EvRemove n) b.
Proof. unfold live. cbn [fst]. rewrite <- removes_in. destruct (existsb _ b); cbn; split; intros; try discriminate; try congruence; reflexivity. Qed.
Lemma live_false b n ev : live b (n, ev) = false <-> In (EvRemove n) b.
Proof. unfold live. cbn [fst]. rewrite <- removes_in. destruct (existsb _ b); cbn; split; congruence. Qed.

Lemma live_snoc_other b e l : (forall n, e <> EvRemove n) -> filter (live (b ++ [e])) l = filter (live b) l.
Proof.
  intros N. apply filter_ext. intros [m ev]. unfold live. cbn [fst]. rewrite existsb_app. cbn. destruct e; cbn; rewrite ?orb_false_r; try reflexivity. edestruct N. reflexivity.
Qed.
Lemma live_snoc_remove b n l : filter (live (b ++ [EvRemove n])) l = filter (other n) (filter (live b) l).
Proof.
  rewrite filter_filter. apply filter_ext. intros [m ev]. unfold live, other. cbn [fst]. rewrite existsb_app. cbn. rewrite orb_false_r, negb_orb, (Nat.eqb_sym n m). reflexivity.
Qed.

Lemma watched_snoc n h e : watched n (h ++ [e]) = watch_step n (watched n h) e.
Proof. unfold watched. rewrite fold_left_app. reflexivity. Qed.
Lemma registered_snoc n h e : registered n (h ++ [e]) = reg_step n (registered n h) e.
Proof. unfold registered. rewrite fold_left_app. reflexivity. Qed.
Lemma usable_snoc n h e : usable n (h ++ [e]) = mem_step n (usable n h) e.
Proof. unfold usable. rewrite fold_left_app. reflexivity. Qed.

Lemma no_batch_app b c : no_batch (b ++ c) <-> no_batch b /\ no_batch c.
Proof. unfold no_batch. split; [intros H; split; intros l X; apply (H l), in_app_iff; tauto|intros [A B] l X; apply in_app_iff in X; destruct X; [apply (A l)|apply (B l)]; assumption]. Qed.
Lemma no_batch_one e : (forall l, e <> EvBatch l) -> no_batch [e].
Proof. intros H l [X|[]]. apply (H l), X. Qed.
Lemma no_batch_cons e b : no_batch (e :: b) <-> (forall l, e <> EvBatch l) /\ no_batch b.
Proof. change (e :: b) with ([e] ++ b). rewrite no_batch_app. split; intros [A B]; (split; [|exact B]); [intros l X; apply (A l); left; exact X|apply no_batch_one, A]. Qed.
Lemma app_no_batch ops : Forall app_event ops -> no_batch ops.
Proof. intros H l X. rewrite Forall_forall in H. apply H in X. exact X. Qed.

(** The position of the last batch is unique. *)
Lemma last_batch_unique a l b a' l' b' : a ++ EvBatch l :: b = a' ++ EvBatch l' :: b' -> no_batch b -> no_batch b' -> a = a' /\ l = l' /\ b = b'.
Proof.
  revert a'. induction a as [|x a IH]; intros [|y a'] H N N'; cbn in H.
  - injection H as -> ->. auto.
  - injection H as <- ->. exfalso. apply (N l'), in_app_iff. right. left. reflexivity.
  - injection H as -> <-. exfalso. apply (N' l), in_app_iff. right. left. reflexivity.
  - injection H as -> H. destruct (IH a' H N N') as (-> & -> & ->). auto.
Qed.

Lemma progress_suffix h l b rest : progress h l b rest -> exists p, l = p ++ rest.
Proof.
  induction 1 as [|b n ev rest _ [p IH] _|b n ev rest rd wr _ [p IH] _ _ _ _].
  - exists []. reflexivity.
  - exists (p ++ [(n, ev)]). rewrite <- app_assoc. exact IH.
  - exists (p ++ [(n, ev)]). rewrite <- app_assoc. exact IH.
Qed.

(** Skipping all removed events at the front. *)
Lemma progress_skip h l b rest : progress h l b rest ->
  match filter (live b) rest with
  | [] => progress h l b []
  | p :: r => exists rest', progress h l b (p :: rest') /\ ~ In (EvRemove (fst p)) b /\ filter (live b) rest' = r
  end.
Proof.
  induction rest as [|[n ev] rest IH]; intros P; cbn [filter]; [exact P|].
  destruct (live b (n, ev)) eqn:L.
  - exists rest. split; [exact P|]. apply live_iff in L. split; [exact L|reflexivity].
  - apply live_false in L. apply IH. eapply pr_skip; eassumption.
Qed.

(** * The invariant *)
Record mem_inv (s : st) : Prop := MemInv {
  m_mem : forall n, mem s n = if usable n (tr s) then Some (registered n (tr s)) else None;
  m_use : forall n, watched n (tr s) = true -> usable n (tr s) = true
}.

Record turn (s : st) (a : list eev) (l : list (nat * N)) (b seg : list eev) (n : nat) (ev : N) (rest : list (nat * N)) : Prop := Turn {
  t_tr : tr s = a ++ EvBatch l :: b ++ seg;
  t_nb : no_batch (b ++ seg);
  t_nd : NoDup (map fst l);
  t_pr : progress (a ++ [EvBatch l]) l b ((n, ev) :: rest);
  t_live : ~ In (EvRemove n) b;
  t_stop : n <> STOP;
  t_w : forall m e, In (m, e) l -> ~ In (EvRemove m) (b ++ seg) -> watched m (tr s) = true;
  t_evs : skipn (counter s + 1) (evs s) = filter (live (b ++ seg)) rest;
  t_cur : current s = if existsb (removes n) seg then None else Some n
}.

Definition pc_inv (s : st) : Prop :=
  match where_ s with
  | POutside | PWait => True
  | PNext => exists a l b rest, tr s = a ++ EvBatch l :: b /\ no_batch b /\ NoDup (map fst l) /\ progress (a ++ [EvBatch l]) l b rest /\
      (forall m e, In (m, e) l -> ~ In (EvRemove m) b -> watched m (tr s) = true) /\
      skipn (counter s) (evs s) = filter (live b) rest
  | PRead n ev => exists a l b rest ops, turn s a l b (EvRead n :: ops) n ev rest /\ Forall app_event ops /\ ready (a ++ EvBatch l :: b) n ev EPOLLIN
  | PHandle n ev => exists a l b rest rd, turn s a l b rd n ev rest /\ read_part (a ++ EvBatch l :: b) n ev rd
  | PWrite n => exists a l b rest rd ops ev, turn s a l b (rd ++ EvWrite n (error_flag ev) :: ops) n ev rest /\ Forall app_event ops /\
      read_part (a ++ EvBatch l :: b) n ev rd /\ ~ In (EvRemove n) rd /\ ready (a ++ EvBatch l :: b ++ rd) n ev EPOLLOUT
  end.
Definition inv (s : st) : Prop := mem_inv s /\ pc_inv s.

Lemma NoDup_app_tail {A} (p q : list A) : NoDup (p ++ q) -> NoDup q.
Proof. induction p as [|x p IH]; cbn; [auto|]. intros H. inversion H. auto. Qed.
Lemma NoDup_filter_fst (f : nat * N -> bool) l : NoDup (map fst l) -> NoDup (map fst (filter f l)).
Proof.
  induction l as [|x l IH]; cbn; [auto|]. intros H. inversion H as [|y z NI ND]. subst. destruct (f x); cbn; [|auto].
  constructor; [|auto]. intros X. apply NI. apply in_map_iff in X. destruct X as (p & E & X). apply filter_In in X. apply in_map_iff. exists p. tauto.
Qed.

(** An application call during a callback extends the turn. *)
Lemma turn_log s s' a l b seg n ev rest e : turn s a l b seg n ev rest -> app_event e -> (forall m, e <> EvRemove m) ->
  tr s' = tr s ++ [e] -> evs s' = evs s -> counter s' = counter s -> current s' = current s ->
  turn s' a l b (seg ++ [e]) n ev rest.
Proof.
  intros T AE NR TR EV CN CU. destruct T as [t_tr t_nb t_nd t_pr t_live t_stop t_w t_evs t_cur].
  constructor; auto.
  - rewrite TR, t_tr, <- !app_assoc. cbn. rewrite <- !app_assoc. reflexivity.
  - rewrite app_assoc. apply no_batch_app. split; [exact t_nb|]. apply app_no_batch. repeat constructor. exact AE.
  - intros m x I NI. rewrite TR, watched_snoc. assert (W : watched m (tr s) = true).
    { apply (t_w m x I). intros X. apply NI. rewrite app_assoc, in_app_iff. left. exact X. }
    rewrite W. destruct e; cbn; try reflexivity; [destruct (Nat.eqb n0 m); reflexivity|]. edestruct NR. reflexivity.
  - rewrite EV, CN, app_assoc, live_snoc_other by exact NR. exact t_evs.
  - rewrite CU, t_cur, existsb_app. cbn. replace (removes n e) with false; [rewrite !orb_false_r; reflexivity|]. destruct e; try reflexivity. edestruct NR. reflexivity.
Qed.

Lemma turn_remove s s' a l b seg n ev rest m : turn s a l b seg n ev rest -> remove s m = Ret s' ->
  turn s' a l b (seg ++ [EvRemove m]) n ev rest /\ where_ s' = where_ s /\ tr s' = tr s ++ [EvRemove m] /\ mem s' = mem s.
Proof.
  intros T RM. destruct T as [t_tr t_nb t_nd t_pr t_live t_stop t_w t_evs t_cur].
  unfold remove in RM. destruct (mem s m); [|discriminate RM]. cbv zeta in RM. injection RM as <-.
  set (s1 := erase_pending_event (log (EvRemove m) s) m).
  assert (E1 : evs s1 = firstn (counter s + 1) (evs s) ++ filter (other m) (skipn (counter s + 1) (evs s))).
  { unfold s1, erase_pending_event. cbn [evs set_evs log counter]. apply erase_eq; [lia|]. rewrite t_evs. apply NoDup_filter_fst.
    destruct (progress_suffix _ _ _ _ t_pr) as [p ->]. rewrite map_app in t_nd. apply NoDup_app_tail in t_nd. cbn in t_nd. inversion t_nd. assumption. }
  set (s2 := match current s with Some m0 => if Nat.eqb m0 m then set_current None s1 else s1 | None => s1 end).
  assert (X : evs s2 = evs s1 /\ counter s2 = counter s /\ tr s2 = tr s ++ [EvRemove m] /\ where_ s2 = where_ s /\ mem s2 = mem s).
  { unfold s2. destruct (current s) as [c|]; [destruct (Nat.eqb c m)|]; repeat split; reflexivity. }
  destruct X as (X1 & X2 & X3 & X4 & X5). split; [|auto]. constructor; auto.
  - rewrite X3, t_tr, <- !app_assoc. cbn. rewrite <- !app_assoc. reflexivity.
  - rewrite app_assoc. apply no_batch_app. split; [exact t_nb|]. apply no_batch_one. discriminate.
  - intros k x I NI. rewrite X3, watched_snoc. assert (W : watched k (tr s) = true).
    { apply (t_w k x I). intros X. apply NI. rewrite app_assoc, in_app_iff. left. exact X. }
    rewrite W. cbn. destruct (Nat.eqb_spec m k); [|reflexivity]. subst. exfalso. apply NI. rewrite !in_app_iff. right. right. left. reflexivity.
  - rewrite X1, X2, E1. rewrite app_assoc, live_snoc_remove, <- t_evs.
    destruct (le_lt_dec (counter s + 1) (length (evs s))) as [L|L].
    + rewrite skipn_app, firstn_length, min_l by exact L. rewrite Nat.sub_diag. rewrite skipn_all2 by (rewrite firstn_length; lia). reflexivity.
    + rewrite (skipn_all2 (evs s)) by lia. cbn. rewrite app_nil_r. rewrite skipn_all2; [reflexivity|]. rewrite firstn_length. lia.
  - unfold s2. rewrite t_cur, existsb_app. cbn [existsb removes]. rewrite orb_false_r.
    destruct (existsb (removes n) seg) eqn:R; [cbn; rewrite <- t_cur; reflexivity|]. cbn [orb]. rewrite (Nat.eqb_sym m n). destruct (Nat.eqb n m); [reflexivity|]. change (current s1) with (current s). exact t_cur.
Qed.

Lemma init_inv : inv epoll_init.
Proof.
  split; [|exact I]. constructor; cbn.
  - intros n. unfold upd, usable, registered. cbn. destruct (Nat.eqb n STOP); reflexivity.
  - intros n. unfold watched, usable. cbn. auto.
Qed.

Lemma mem_inv_log s s' e : mem_inv s -> tr s' = tr s ++ [e] -> mem s' = mem s ->
  (forall n, mem_step n (usable n (tr s)) e = usable n (tr s)) -> (forall n, reg_step n (registered n (tr s)) e = registered n (tr s)) ->
  (forall n, watch_step n (watched n (tr s)) e = true -> watched n (tr s) = true) -> mem_inv s'.
Proof.
  intros [M U] T ME A B C. constructor; intros n; rewrite T, ?usable_snoc, ?registered_snoc, ?watched_snoc, ?A, ?B, ?ME; [apply M|].
  intros W. apply U, C, W.
Qed.
Lemma mem_inv_same s s' : mem_inv s -> tr s' = tr s -> mem s' = mem s -> mem_inv s'.
Proof. intros [M U] T ME. constructor; intros n; rewrite T, ?ME; auto. Qed.

Ltac easy_log := eapply mem_inv_log; [eassumption|reflexivity|reflexivity|intros; reflexivity..|intros ? X; exact X].

(** Application calls, common part: the memory of the loop and of the notifiers. *)
Lemma app_mem s x s' : mem_inv s -> enabled s x -> step s x = Ret s' ->
  match x with XAdd _ | XReg _ _ | XUnreg _ _ | XRemove _ | XFree _ => True | _ => False end -> mem_inv s'.
Proof.
  intros [M U] E S A. destruct x as [|l| | | | |m|m f|m f|m|m]; try contradiction; cbn [step enabled] in *.
  - injection S as <-. unfold add. constructor; intros n; cbn [mem log set_mem tr]; rewrite ?usable_snoc, ?registered_snoc, ?watched_snoc; cbn; unfold upd; rewrite ?(Nat.eqb_sym n m); destruct (Nat.eqb m n); auto.
  - unfold register in S. destruct (mem s m) as [r|] eqn:MM; [|discriminate S]. injection S as <-.
    constructor; intros n; cbn [mem log set_mem tr]; rewrite ?usable_snoc, ?registered_snoc, ?watched_snoc; cbn; [|apply U].
    unfold upd. rewrite (Nat.eqb_sym n m). destruct (Nat.eqb_spec m n); [|apply M]. subst n. rewrite M in MM. destruct (usable m (tr s)); congruence.
  - unfold unregister in S. destruct (mem s m) as [r|] eqn:MM; [|discriminate S]. injection S as <-.
    constructor; intros n; cbn [mem log set_mem tr]; rewrite ?usable_snoc, ?registered_snoc, ?watched_snoc; cbn; [|apply U].
    unfold upd. rewrite (Nat.eqb_sym n m). destruct (Nat.eqb_spec m n); [|apply M]. subst n. rewrite M in MM. destruct (usable m (tr s)); congruence.
  - assert (X : tr s' = tr s ++ [EvRemove m] /\ mem s' = mem s).
    { unfold remove in S. destruct (mem s m); [|discriminate S]. cbv zeta in S. injection S as <-. destruct (current s) as [c|]; [destruct (Nat.eqb c m)|]; split; reflexivity. }
    destruct X as [X1 X2]. constructor; intros n; rewrite X1, ?X2, ?usable_snoc, ?registered_snoc, ?watched_snoc; cbn; [apply M|]. destruct (Nat.eqb m n); [discriminate|apply U].
  - injection S as <-. destruct E as (_ & _ & W). constructor; intros n; cbn [mem log set_mem tr]; rewrite ?usable_snoc, ?registered_snoc, ?watched_snoc; cbn; unfold upd; rewrite ?(Nat.eqb_sym n m).
    + destruct (Nat.eqb m n); auto.
    + destruct (Nat.eqb_spec m n); [congruence|apply U].
Qed.

(** ... and the turn. *)
Lemma app_turn s x s' a l b seg n ev rest : turn s a l b seg n ev rest -> step s x = Ret s' ->
  match x with XAdd _ | XReg _ _ | XUnreg _ _ | XRemove _ | XFree _ => True | _ => False end ->
  where_ s' = where_ s /\ exists e, app_event e /\ turn s' a l b (seg ++ [e]) n ev rest.
Proof.
  intros T S A. destruct x as [|l0| | | | |m|m f|m f|m|m]; try contradiction; cbn [step] in S.
  - injection S as <-. split; [reflexivity|]. exists (EvAdd m). split; [exact I|]. eapply (turn_log s); eauto; cbn; auto; discriminate.
  - unfold register in S. destruct (mem s m); [|discriminate S]. injection S as <-. split; [reflexivity|]. exists (EvReg m f). split; [exact I|]. eapply (turn_log s); eauto; cbn; auto; discriminate.
  - unfold unregister in S. destruct (mem s m); [|discriminate S]. injection S as <-. split; [reflexivity|]. exists (EvUnreg m f). split; [exact I|]. eapply (turn_log s); eauto; cbn; auto; discriminate.
  - destruct (turn_remove _ _ _ _ _ _ _ _ _ _ T S) as (T' & W & _). split; [exact W|]. exists (EvRemove m). split; [exact I|exact T'].
  - injection S as <-. split; [reflexivity|]. exists (EvFree m). split; [exact I|]. eapply (turn_log s); eauto; cbn; auto; discriminate.
Qed.

Lemma app_where s x s' : step s x = Ret s' ->
  match x with XAdd _ | XReg _ _ | XUnreg _ _ | XRemove _ | XFree _ => True | _ => False end -> where_ s' = where_ s.
Proof.
  intros S A. destruct x as [|l0| | | | |m|m f|m f|m|m]; try contradiction; cbn [step] in S.
  - injection S as <-. reflexivity.
  - unfold register in S. destruct (mem s m); [|discriminate S]. injection S as <-. reflexivity.
  - unfold unregister in S. destruct (mem s m); [|discriminate S]. injection S as <-. reflexivity.
  - unfold remove in S. destruct (mem s m); [|discriminate S]. cbv zeta in S. injection S as <-. destruct (current s) as [c|]; [destruct (Nat.eqb c m)|]; reflexivity.
  - injection S as <-. reflexivity.
Qed.

Lemma app_step_inv s x s' : inv s -> enabled s x -> step s x = Ret s' ->
  match x with XAdd _ | XReg _ _ | XUnreg _ _ | XRemove _ | XFree _ => True | _ => False end -> inv s'.
Proof.
  intros [M P] E S A. split; [eapply app_mem; eassumption|].
  assert (AC : app_code (where_ s)) by (destruct x; try contradiction; cbn in E; tauto).
  assert (W := app_where s x s' S A). unfold pc_inv in *. rewrite W. destruct (where_ s) as [| | |n ev|n ev|n]; try contradiction; try exact I.
  - destruct P as (a & l & b & rest & ops & T & F & R). destruct (app_turn _ _ _ _ _ _ _ _ _ _ T S A) as (_ & e & AE & T').
    exists a, l, b, rest, (ops ++ [e]). split; [exact T'|]. split; [apply Forall_app; auto|exact R].
  - destruct P as (a & l & b & rest & rd & ops & ev & T & F & R & NR & RW). destruct (app_turn _ _ _ _ _ _ _ _ _ _ T S A) as (_ & e & AE & T').
    exists a, l, b, rest, rd, (ops ++ [e]), ev. split; [rewrite <- app_assoc in T'; exact T'|]. split; [apply Forall_app; auto|auto].
Qed.

(** The end of a turn. *)
Lemma end_turn s' a l b seg n ev rest rd wr : no_batch (b ++ seg) -> seg = rd ++ wr -> NoDup (map fst l) -> progress (a ++ [EvBatch l]) l b ((n, ev) :: rest) -> ~ In (EvRemove n) b -> n <> STOP ->
  read_part (a ++ EvBatch l :: b) n ev rd -> write_part (a ++ EvBatch l :: b) rd n ev wr ->
  tr s' = a ++ EvBatch l :: b ++ seg -> (forall m e, In (m, e) l -> ~ In (EvRemove m) (b ++ seg) -> watched m (tr s') = true) ->
  skipn (counter s') (evs s') = filter (live (b ++ seg)) rest -> where_ s' = PNext -> pc_inv s'.
Proof.
  intros NB -> ND PR NI NS RP WP T W EV PC. unfold pc_inv. rewrite PC. exists a, l, (b ++ rd ++ wr), rest.
  repeat match goal with |- _ /\ _ => split end; auto.
  eapply pr_turn; eauto; rewrite <- app_assoc; assumption.
Qed.

Lemma in_removes_false n seg : existsb (removes n) seg = false <-> ~ In (EvRemove n) seg.
Proof. rewrite <- removes_in. destruct (existsb _ seg); split; congruence. Qed.

Lemma land_ready h n ev f : N.eqb (N.land (N.land ev f) (registered n h)) 0 = true <-> ~ ready h n ev f.
Proof. unfold ready. rewrite N.eqb_eq. split; [tauto|]. intros H. destruct (N.eq_dec (N.land (N.land ev f) (registered n h)) 0); tauto. Qed.

Lemma step_inv s x : inv s -> enabled s x -> exists s', step s x = Ret s' /\ inv s'.
Proof.
  intros I0 E. destruct I0 as [M P]. assert (IA : inv s) by (split; assumption).
  assert (APP : match x with XAdd _ | XReg _ _ | XUnreg _ _ | XRemove _ | XFree _ => True | _ => False end -> exists s', step s x = Ret s' /\ inv s').
  { intros A. destruct (step s x) as [s'|] eqn:S; [exists s'; split; [reflexivity|eapply app_step_inv; eassumption]|].
    exfalso. destruct x; try contradiction; cbn [step enabled] in *; try discriminate S; destruct E as (_ & _ & U); pose proof (m_mem s M n) as X; rewrite U in X;
      unfold register, unregister, remove in S; rewrite X in S; discriminate S. }
  destruct x as [|l| | | | |m|m f|m f|m|m]; try (apply APP; exact I); clear APP; cbn [step enabled] in *.
  - eexists. split; [reflexivity|]. split; [eapply mem_inv_same; [exact M|reflexivity|reflexivity]|exact I].
  - destruct E as [W (ND & LE & WA)]. eexists. split; [reflexivity|]. split; [easy_log|].
    unfold pc_inv. cbn [where_ at_pc]. exists (tr s), l, [], l. cbn [tr at_pc log set_counter set_evs counter evs skipn].
    repeat match goal with |- _ /\ _ => split end; auto.
    + intros k [].
    + constructor.
    + intros m e X _. rewrite watched_snoc. cbn. eapply WA, X.
    + clear. induction l as [|x l IH]; cbn; [reflexivity|]. rewrite <- IH. reflexivity.
  - eexists. split; [reflexivity|]. split; [easy_log|exact I].
  - unfold pc_inv in P. rewrite E in P. destruct P as (a & l & b & rest & T & NB & ND & PR & WA & EV).
    pose proof (progress_skip _ _ _ _ PR) as SK. rewrite <- EV in SK. unfold next. destruct (nth_error (evs s) (counter s)) as [[n ev]|] eqn:NT.
    + destruct (nth_skipn _ _ _ NT) as [S1 _]. rewrite S1 in SK. destruct SK as (rest' & PR' & NI & EV').
      destruct (Nat.eqb_spec n STOP) as [->|NS]; [eexists; split; [reflexivity|]; split; [easy_log|exact I]|].
      assert (IN : In (n, ev) l). { destruct (progress_suffix _ _ _ _ PR') as [p ->]. apply in_app_iff. right. left. reflexivity. }
      assert (WN : watched n (tr s) = true) by (eapply WA; eassumption).
      rewrite (m_mem s M n), (m_use s M n WN). 
      destruct (N.eqb (N.land (N.land ev EPOLLIN) (registered n (tr s))) 0) eqn:RD.
      * eexists. split; [reflexivity|]. split; [eapply mem_inv_same; [exact M|reflexivity|reflexivity]|].
        unfold pc_inv. cbn [where_ at_pc]. exists a, l, b, rest', []. split.
        -- constructor; cbn [tr at_pc set_current counter evs current]; auto; rewrite ?app_nil_r; auto.
        -- constructor. apply land_ready. rewrite <- T. exact RD.
      * eexists. split; [reflexivity|]. split; [easy_log|].
        unfold pc_inv. cbn [where_ at_pc]. exists a, l, b, rest', []. split; [|split; [constructor|]].
        -- constructor; cbn [tr at_pc set_current counter evs current log]; auto.
           ++ rewrite T, <- app_assoc. reflexivity.
           ++ apply no_batch_app. split; [exact NB|]. apply no_batch_one. discriminate.
           ++ intros m e X Y. rewrite watched_snoc. cbn. eapply WA; [exact X|]. intros Z. apply Y, in_app_iff. left. exact Z.
           ++ rewrite live_snoc_other by discriminate. symmetry. exact EV'.
        -- rewrite <- T. intros Z. apply N.eqb_neq in RD. contradiction.
    + eexists. split; [reflexivity|]. split; [eapply mem_inv_same; [exact M|reflexivity|reflexivity]|exact I].
  - destruct E as (n & ev & E). rewrite E. unfold pc_inv in P. rewrite E in P. destruct P as (a & l & b & rest & rd & T & RP).
    destruct T as [t_tr t_nb t_nd t_pr t_live t_stop t_w t_evs t_cur].
    assert (END : write_part (a ++ EvBatch l :: b) rd n ev [] -> inv (at_pc PNext (set_counter (counter s + 1) s))).
    { intros WP. split; [eapply mem_inv_same; [exact M|reflexivity|reflexivity]|].
      eapply (end_turn _ a l b rd n ev rest rd []); eauto. rewrite app_nil_r. reflexivity. }
    unfold handle_removed_ev. rewrite t_cur. destruct (existsb (removes n) rd) eqn:RM.
    + apply removes_in in RM. eexists. split; [reflexivity|]. apply END. constructor. left. exact RM.
    + apply in_removes_false in RM.
      assert (IN : In (n, ev) l). { destruct (progress_suffix _ _ _ _ t_pr) as [p ->]. apply in_app_iff. right. left. reflexivity. }
      assert (WN : watched n (tr s) = true). { eapply t_w; [exact IN|]. rewrite in_app_iff. tauto. }
      rewrite (m_mem s M n), (m_use s M n WN).
      assert (TR : (a ++ EvBatch l :: b) ++ rd = tr s) by (rewrite t_tr, <- app_assoc; reflexivity).
      destruct (N.eqb (N.land (N.land ev EPOLLOUT) (registered n (tr s))) 0) eqn:RW.
      * eexists. split; [reflexivity|]. apply END. constructor. right. apply land_ready. rewrite TR. exact RW.
      * unfold unregister. rewrite (m_mem s M n), (m_use s M n WN). eexists. split; [reflexivity|]. split.
        -- destruct M as [MM UU]. constructor; intros k; cbn [mem tr at_pc log set_mem]; rewrite ?usable_snoc, ?registered_snoc, ?watched_snoc; cbn; [|apply UU].
           unfold upd. rewrite (Nat.eqb_sym k n). destruct (Nat.eqb_spec n k); [|apply MM]. subst k. rewrite (UU n WN). reflexivity.
        -- unfold pc_inv. cbn [where_ at_pc]. exists a, l, b, rest, rd, [], ev. split; [|split; [constructor|split; [exact RP|split; [exact RM|]]]].
           ++ constructor; cbn [tr at_pc log set_mem counter evs current]; auto.
              ** rewrite t_tr. rewrite <- !app_assoc. cbn. rewrite <- !app_assoc. reflexivity.
              ** rewrite app_assoc. apply no_batch_app. split; [exact t_nb|]. apply no_batch_one. discriminate.
              ** intros m e X Y. rewrite watched_snoc. cbn. eapply t_w; [exact X|]. intros Z. apply Y. rewrite app_assoc, in_app_iff. left. exact Z.
              ** rewrite app_assoc, live_snoc_other by discriminate. exact t_evs.
              ** rewrite existsb_app. apply in_removes_false in RM. rewrite RM. cbn. rewrite t_cur. reflexivity.
           ++ rewrite app_comm_cons, app_assoc, TR. intros Z. apply N.eqb_neq in RW. contradiction.
  - unfold pc_inv in P. destruct (where_ s) as [| | |n ev|n ev|n] eqn:PC; try contradiction.
    + destruct P as (a & l & b & rest & ops & T & F & R). destruct T as [t_tr t_nb t_nd t_pr t_live t_stop t_w t_evs t_cur].
      eexists. split; [reflexivity|]. split; [easy_log|]. unfold pc_inv. cbn [where_ at_pc].
      exists a, l, b, rest, (EvRead n :: ops ++ [EvReturn]). split; [|constructor; assumption].
      change (EvRead n :: ops ++ [EvReturn]) with ((EvRead n :: ops) ++ [EvReturn]).
      constructor; cbn [tr at_pc log counter evs current]; auto.
      * rewrite t_tr. rewrite <- !app_assoc. cbn. rewrite <- !app_assoc. reflexivity.
      * rewrite app_assoc. apply no_batch_app. split; [exact t_nb|]. apply no_batch_one. discriminate.
      * intros m e X Y. rewrite watched_snoc. cbn [watch_step]. eapply t_w; [exact X|]. intros Z. apply Y. rewrite app_assoc, in_app_iff. left. exact Z.
      * rewrite app_assoc, live_snoc_other by discriminate. exact t_evs.
      * rewrite existsb_app, orb_false_r. exact t_cur.
    + destruct P as (a & l & b & rest & rd & ops & ev & T & F & RP & NR & RW). destruct T as [t_tr t_nb t_nd t_pr t_live t_stop t_w t_evs t_cur].
      eexists. split; [reflexivity|]. split; [easy_log|].
      set (wr := EvWrite n (error_flag ev) :: ops ++ [EvReturn]).
      assert (SG : b ++ rd ++ wr = (b ++ rd ++ EvWrite n (error_flag ev) :: ops) ++ [EvReturn]) by (unfold wr; rewrite <- !app_assoc; reflexivity).
      eapply (end_turn _ a l b (rd ++ wr) n ev rest rd wr); cbn [tr at_pc log counter evs where_ set_counter]; auto.
      * rewrite SG. apply no_batch_app. split; [exact t_nb|apply no_batch_one; discriminate].
      * unfold wr. constructor; auto. rewrite <- app_assoc. exact RW.
      * rewrite SG, t_tr, <- app_assoc. reflexivity.
      * intros m e X Y. rewrite watched_snoc. cbn [watch_step]. eapply t_w; [exact X|]. intros Z. apply Y. rewrite SG, in_app_iff. left. exact Z.
      * rewrite SG, live_snoc_other by discriminate. exact t_evs.
Qed.

Lemma reach_inv s : reach s -> inv s.
Proof.
  induction 1 as [|s x s' _ IH E S]; [apply init_inv|]. destruct (step_inv s x IH E) as (s2 & S2 & I2). rewrite S in S2. injection S2 as <-. exact I2.
Qed.
