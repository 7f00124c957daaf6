(** Proofs about creating and destroying objects: every primitive call is described by its effect on the kernel. *)
From Verif Require Import Base ResModel ResSpec.

Definition ffree (fd : nat) (p : nat * nat * bool) : bool := (negb (Nat.eqb (fst (fst p)) fd) && negb (Nat.eqb (snd (fst p)) fd))%bool.
Definition fkeep (fd : nat) (p : nat * desc) : bool := negb (Nat.eqb (fst p) fd).

(** A call concerned only with [fd], which stays open. *)
Definition touch (fd : nat) (k k' : kernel) : Prop :=
  fds k' = fds k /\ filter (fkeep fd) (opened k') = filter (fkeep fd) (opened k) /\
  filter (ffree fd) (watched k') = filter (ffree fd) (watched k) /\ stray k' = stray k /\ newfd k <= newfd k'.

Lemma touch_refl fd k : touch fd k k.
Proof. now repeat split; try apply Nat.le_refl. Qed.
Lemma touch_trans fd a b c : touch fd a b -> touch fd b c -> touch fd a c.
Proof.
  intros (A1 & A2 & A3 & A4 & A5) (B1 & B2 & B3 & B4 & B5). unfold touch.
  split; [congruence|]. split; [congruence|]. split; [congruence|]. split; [congruence|lia].
Qed.

Lemma filter_comm {A} (f g : A -> bool) l : filter f (filter g l) = filter g (filter f l).
Proof.
  induction l as [|a l IH]; [reflexivity|]. cbn.
  destruct (g a) eqn:G, (f a) eqn:F; cbn; rewrite ?F, ?G, IH; reflexivity.
Qed.
Lemma filter_and {A} (f g : A -> bool) l : filter f (filter g l) = filter (fun x => f x && g x)%bool l.
Proof.
  induction l as [|a l IH]; [reflexivity|]. cbn.
  destruct (g a) eqn:G; cbn; destruct (f a) eqn:F; cbn; rewrite IH; reflexivity.
Qed.
Lemma filter_all {A} (f : A -> bool) l : (forall a, In a l -> f a = true) -> filter f l = l.
Proof.
  induction l as [|a l IH]; intros H; [reflexivity|]. cbn. rewrite (H a (or_introl eq_refl)).
  f_equal. apply IH. intros x Hx. apply H. now right.
Qed.
Lemma filter_map_same {A} (f : A -> bool) (g : A -> A) l :
  (forall a, f (g a) = f a) -> (forall a, f a = true -> g a = a) -> filter f (map g l) = filter f l.
Proof.
  intros H1 H2. induction l as [|a l IH]; [reflexivity|]. cbn. rewrite H1.
  destruct (f a) eqn:F; [rewrite (H2 a F), IH|]; auto.
Qed.
Lemma map_map_same {A B} (f : A -> B) (g : A -> A) l : (forall a, f (g a) = f a) -> map f (map g l) = map f l.
Proof. intros H. rewrite map_map. apply map_ext, H. Qed.

Lemma is_open_in k fd : is_open k fd = true <-> In fd (fds k).
Proof.
  unfold is_open, fds. rewrite existsb_exists, in_map_iff. split.
  - intros ((n, d) & Hin & E). apply Nat.eqb_eq in E. exists (n, d). auto.
  - intros ((n, d) & E & Hin). exists (n, d). split; [exact Hin|]. now apply Nat.eqb_eq.
Qed.
Lemma fst_add_opt fd o v p : fst (add_opt fd o v p) = fst p.
Proof. destruct p as (n, d). cbn. now destruct (Nat.eqb n fd). Qed.

Section Calls.
Variable fate : nat -> option Z.
Hypothesis Hreal : real fate.

(** ** The calls *)
Lemma create_spec d k :
  (exists e k', sys_create fate d k = (None, k') /\ untouched k k' /\ newfd k' = newfd k /\ errno k' = e /\ (0 < e)%Z) \/
  (exists k', sys_create fate d k = (Some (newfd k), k') /\ opened k' = (newfd k, d) :: opened k /\
     watched k' = watched k /\ stray k' = stray k /\ newfd k' = S (newfd k)).
Proof.
  unfold sys_create. destruct (fate (calls k)) as [e|] eqn:F.
  - left. exists e. eexists. split; [reflexivity|]. repeat split. exact (Hreal _ _ F).
  - right. eexists. split; [reflexivity|]. now repeat split.
Qed.
Lemma plain_spec fd k : In fd (fds k) ->
  exists b k', sys_plain fate fd k = (b, k') /\ untouched k k' /\ newfd k' = newfd k /\ (b = false -> (0 < errno k')%Z).
Proof.
  intros H. apply is_open_in in H. unfold sys_plain. rewrite H. cbn [negb].
  destruct (fate (calls k)) as [e|] eqn:F; do 2 eexists; (split; [reflexivity|]); repeat split; try discriminate.
  intros _. exact (Hreal _ _ F).
Qed.
Lemma none_spec k :
  exists b k', sys_none fate k = (b, k') /\ untouched k k' /\ newfd k' = newfd k /\ (b = false -> (0 < errno k')%Z).
Proof.
  unfold sys_none.
  destruct (fate (calls k)) as [e|] eqn:F; do 2 eexists; (split; [reflexivity|]); repeat split; try discriminate.
  intros _. exact (Hreal _ _ F).
Qed.
Lemma sockopt_spec fd o v k : In fd (fds k) ->
  exists b k', sys_setsockopt fate fd o v k = (b, k') /\ touch fd k k' /\
    opened k' = (if b then map (add_opt fd o v) (opened k) else opened k) /\ watched k' = watched k /\ (b = false -> (0 < errno k')%Z).
Proof.
  intros H. apply is_open_in in H. unfold sys_setsockopt. rewrite H. cbn [negb].
  destruct (fate (calls k)) as [e|] eqn:F; do 2 eexists; (split; [reflexivity|]); (split; [|repeat split; try discriminate; intros _; exact (Hreal _ _ F)]).
  - now repeat split.
  - unfold touch, fds. cbn. repeat split; try apply Nat.le_refl.
    + apply map_map_same, fst_add_opt.
    + apply filter_map_same; intros p.
      * unfold fkeep. now rewrite fst_add_opt.
      * unfold fkeep. destruct p as (n, d). cbn. destruct (Nat.eqb n fd); [discriminate | reflexivity].
Qed.
Lemma close_spec fd k : In fd (fds k) ->
  exists k', sys_close fate fd k = (tt, k') /\ opened k' = filter (fkeep fd) (opened k) /\
    watched k' = filter (ffree fd) (watched k) /\ stray k' = stray k /\ newfd k' = newfd k /\ ((0 < errno k)%Z -> (0 < errno k')%Z).
Proof.
  intros H. apply is_open_in in H. unfold sys_close. rewrite H. cbn [negb].
  destruct (fate (calls k)) as [e|] eqn:F; eexists; (split; [reflexivity|]); repeat split; auto.
  intros _. exact (Hreal _ _ F).
Qed.
Lemma ctl_touch ep fd c k : In ep (fds k) -> In fd (fds k) ->
  exists b k', sys_epoll_ctl fate ep fd c k = (b, k') /\ touch fd k k' /\ opened k' = opened k /\
    (b = false -> watched k' = watched k /\ (0 < errno k')%Z).
Proof.
  intros H1 H2. apply is_open_in in H1, H2. unfold sys_epoll_ctl. rewrite H1, H2. cbn [negb].
  destruct (fate (calls k)) as [e|] eqn:F.
  { do 2 eexists. split; [reflexivity|]. repeat split; try apply Nat.le_refl. exact (Hreal _ _ F). }
  destruct c as [|b|], (is_watched k ep fd); cbn [negb]; do 2 eexists; (split; [reflexivity|]);
    (split; [|split; [reflexivity|discriminate || (intros _; split; [reflexivity|reflexivity])]]); try (now repeat split).
  - unfold touch, fds. cbn. repeat split; try apply Nat.le_refl. unfold ffree at 1. cbn. now rewrite Nat.eqb_refl, Bool.andb_false_r.
  - unfold touch, fds. cbn. repeat split; try apply Nat.le_refl. apply filter_map_same; intros ((e', f'), b'); unfold ffree; cbn.
    + destruct (Nat.eqb e' ep) eqn:E1, (Nat.eqb f' fd) eqn:E2; cbn; rewrite ?E2, ?Nat.eqb_refl; cbn; rewrite ?Bool.andb_false_r; reflexivity.
    + destruct (Nat.eqb f' fd) eqn:E2; cbn; [now rewrite Bool.andb_false_r|]. now rewrite Bool.andb_false_r.
  - unfold touch, fds. cbn. repeat split; try apply Nat.le_refl. rewrite filter_and. apply filter_ext. intros ((e', f'), b'). unfold ffree. cbn.
    destruct (Nat.eqb f' fd); cbn; rewrite ?Bool.andb_false_r, ?Bool.andb_true_r; reflexivity.
Qed.
Lemma remove_spec ep fd k : In ep (fds k) -> In fd (fds k) ->
  exists k', eventloop_remove fate ep fd k = (tt, k') /\ touch fd k k'.
Proof.
  intros H1 H2. destruct (ctl_touch ep fd CtlDel k H1 H2) as (b & k' & E & T & _).
  exists k'. split; [unfold eventloop_remove, bind; rewrite E; reflexivity | exact T].
Qed.
Lemma unregister_spec ep fd k : In ep (fds k) -> In fd (fds k) ->
  exists e k', unregister_read fate ep fd k = (e, k') /\ touch fd k k'.
Proof.
  intros H1 H2. destruct (ctl_touch ep fd (CtlMod false) k H1 H2) as (b & k' & E & T & _).
  unfold unregister_read, bind. rewrite E. destruct b; cbn; do 2 eexists; (split; [reflexivity | exact T]).
Qed.
(** Adding a descriptor that is not watched yet. *)
Lemma add_spec ep fd k : In ep (fds k) -> In fd (fds k) -> is_watched k ep fd = false ->
  exists e k', eventloop_add fate ep fd k = (e, k') /\ touch fd k k' /\ opened k' = opened k /\
    ((e = 0%Z /\ watched k' = (ep, fd, false) :: watched k) \/ ((e < 0)%Z /\ watched k' = watched k)).
Proof.
  intros H1 H2 H3. destruct (ctl_touch ep fd CtlAdd k H1 H2) as (b & k' & E & T & O & B).
  unfold eventloop_add, bind. rewrite E. destruct b; cbn [or_errno ret].
  - exists 0%Z, k'. split; [reflexivity|]. split; [exact T|]. split; [exact O|]. left. split; [reflexivity|].
    clear T B. revert E. apply is_open_in in H1, H2. unfold sys_epoll_ctl. rewrite H1, H2, H3. cbn [negb].
    destruct (fate (calls k)); intros E; inversion E; subst; reflexivity.
  - destruct (B eq_refl) as [W P]. unfold minus_errno. do 2 eexists. split; [reflexivity|]. split; [exact T|]. split; [exact O|].
    right. split; [lia | exact W].
Qed.
(** Registering the descriptor added last. *)
Lemma register_spec ep fd b0 w k : In ep (fds k) -> In fd (fds k) -> watched k = (ep, fd, b0) :: w ->
  (forall e f b, In (e, f, b) w -> f <> fd) ->
  exists e k', register_read fate ep fd k = (e, k') /\ touch fd k k' /\ opened k' = opened k /\
    ((e = 0%Z /\ watched k' = (ep, fd, true) :: w) \/ ((e < 0)%Z /\ watched k' = watched k)).
Proof.
  intros H1 H2 H3 H4. destruct (ctl_touch ep fd (CtlMod true) k H1 H2) as (b & k' & E & T & O & B).
  unfold register_read, bind. rewrite E. destruct b; cbn [or_errno ret].
  - exists 0%Z, k'. split; [reflexivity|]. split; [exact T|]. split; [exact O|]. left. split; [reflexivity|].
    clear T B. revert E. apply is_open_in in H1, H2. unfold sys_epoll_ctl. rewrite H1, H2. cbn [negb].
    destruct (fate (calls k)); [intros E; inversion E; congruence|].
    unfold is_watched. rewrite H3. cbn [existsb fst snd]. rewrite !Nat.eqb_refl. cbn [andb orb negb].
    intros E; inversion E; subst. cbn. rewrite !Nat.eqb_refl. cbn. f_equal.
    rewrite <- (map_id w) at 2. apply map_ext_in. intros ((e', f'), b') Hin. cbn.
    destruct (Nat.eqb_spec f' fd) as [->|]; [destruct (H4 _ _ _ Hin eq_refl)|]. now rewrite Bool.andb_false_r.
  - destruct (B eq_refl) as [W P]. unfold minus_errno. do 2 eexists. split; [reflexivity|]. split; [exact T|]. split; [exact O|].
    right. split; [lia | exact W].
Qed.

(** ** Sane kernels *)
Lemma sane_fresh k : sane k -> ~ In (newfd k) (fds k).
Proof. intros (_ & H & _) Hin. apply H in Hin. lia. Qed.
Lemma sane_unwatched k ep : sane k -> is_watched k ep (newfd k) = false.
Proof.
  intros S. destruct (is_watched k ep (newfd k)) eqn:E; [|reflexivity]. unfold is_watched in E.
  apply existsb_exists in E. destruct E as (((e, f), b) & Hin & E). cbn in E. apply Bool.andb_true_iff in E. destruct E as [_ E].
  apply Nat.eqb_eq in E. subst f. destruct S as (S1 & S2 & S3). destruct (S3 _ _ _ Hin) as [_ S4]. apply S2 in S4. lia.
Qed.
Lemma fresh_keep k : sane k -> filter (fkeep (newfd k)) (opened k) = opened k.
Proof.
  intros S. apply filter_all. intros (n, d) Hin. unfold fkeep. cbn.
  destruct (Nat.eqb_spec n (newfd k)) as [->|]; [|reflexivity]. destruct (sane_fresh k S). apply in_map_iff. now exists (newfd k, d).
Qed.
Lemma fresh_free k : sane k -> filter (ffree (newfd k)) (watched k) = watched k.
Proof.
  intros S. apply filter_all. intros ((e, f), b) Hin. unfold ffree. cbn.
  destruct S as (S1 & S2 & S3). destruct (S3 _ _ _ Hin) as [A B]. apply S2 in A, B.
  destruct (Nat.eqb_spec e (newfd k)); [lia|]. destruct (Nat.eqb_spec f (newfd k)); [lia|]. reflexivity.
Qed.

(** A new descriptor. *)
Definition with_new (d : desc) (k k' : kernel) : Prop :=
  opened k' = (newfd k, d) :: opened k /\ watched k' = watched k /\ stray k' = stray k /\ newfd k' = S (newfd k).
Lemma with_new_sane d k k' : sane k -> with_new d k k' -> sane k'.
Proof.
  intros S (O & W & _ & N). pose proof (sane_fresh k S) as F. destruct S as (S1 & S2 & S3). unfold sane, fds in *. rewrite O, W, N. cbn.
  split; [constructor; assumption|]. split.
  - intros fd [<- | H]; [lia|]. specialize (S2 _ H). lia.
  - intros ep fd b H. destruct (S3 _ _ _ H) as [A B]. auto.
Qed.
(** Closing a new descriptor that was only touched in between leaves the kernel as it was. *)
Lemma close_new d k k1 k2 : sane k -> with_new d k k1 -> touch (newfd k) k1 k2 ->
  exists k', sys_close fate (newfd k) k2 = (tt, k') /\ untouched k k' /\ newfd k < newfd k' /\ ((0 < errno k2)%Z -> (0 < errno k')%Z).
Proof.
  intros S (O & W & ST & N) (T1 & T2 & T3 & T4 & T5).
  destruct (close_spec (newfd k) k2) as (k' & E & C1 & C2 & C3 & C4 & C5).
  { rewrite T1. unfold fds. rewrite O. cbn. auto. }
  exists k'. split; [exact E|]. split; [|split; [lia|exact C5]].
  split; [|split; [|congruence]].
  - rewrite C1, T2, O. cbn. unfold fkeep at 1. cbn. rewrite Nat.eqb_refl. cbn. apply fresh_keep, S.
  - rewrite C2, T3, W. apply fresh_free, S.
Qed.
Lemma untouched_sane k k' : sane k -> untouched k k' -> newfd k <= newfd k' -> sane k'.
Proof.
  intros (S1 & S2 & S3) (O & W & _) N. unfold sane, fds in *. rewrite O, W. split; [exact S1|]. split; [|exact S3].
  intros fd H. specialize (S2 _ H). lia.
Qed.
Lemma untouched_touch fd k k' : untouched k k' -> newfd k <= newfd k' -> touch fd k k'.
Proof. intros (O & W & ST) N. unfold touch, fds. rewrite O, W. repeat split; assumption. Qed.

(** ** Constructors *)
(** Failure leaves nothing behind, success leaves [Q]. *)
Definition made {A} (k : kernel) (r : (Z * option A) * kernel) (Q : A -> kernel -> Prop) : Prop :=
  match r with
  | ((e, None), k') => (e < 0)%Z /\ untouched k k' /\ newfd k <= newfd k'
  | ((e, Some a), k') => e = 0%Z /\ Q a k'
  end.
Definition timer_made (ep : nat) (k : kernel) (t : timer) (k' : kernel) : Prop :=
  t = Timer ep (newfd k) /\ opened k' = (newfd k, Desc KTimer true false 0 []) :: opened k /\
  watched k' = (ep, newfd k, true) :: watched k /\ stray k' = stray k /\ newfd k < newfd k'.
Lemma neg_neq e : (e < 0)%Z -> Z.eqb e CIO_SUCCESS = false.
Proof. unfold CIO_SUCCESS. intros. apply Z.eqb_neq. lia. Qed.
(** A new descriptor that is not watched is added to the loop and registered. *)
Lemma timer_init_spec ep k : sane k -> In ep (fds k) -> made k (timer_init fate ep k) (timer_made ep k).
Proof.
  intros S H. unfold timer_init, bind at 1.
  destruct (create_spec (Desc KTimer true false 0 []) k) as [(e & k1 & E & U & N & Ee & P) | (k1 & E & O & W & ST & N)]; rewrite E.
  { cbn. split; [lia|]. split; [exact U|]. lia. }
  assert (WN : with_new (Desc KTimer true false 0 []) k k1) by (repeat split; assumption).
  assert (S1 : sane k1) by (eapply with_new_sane; eassumption).
  assert (Hep : In ep (fds k1)) by (unfold fds; rewrite O; right; exact H).
  assert (Hfd : In (newfd k) (fds k1)) by (unfold fds; rewrite O; left; reflexivity).
  assert (NW : is_watched k1 ep (newfd k) = false).
  { rewrite <- (sane_unwatched k ep S). unfold is_watched. now rewrite W. }
  destruct (add_spec ep (newfd k) k1 Hep Hfd NW) as (e2 & k2 & E2 & T2 & O2 & C2). unfold bind at 1. rewrite E2.
  destruct C2 as [[-> W2] | [P2 W2]].
  2:{ rewrite (neg_neq _ P2). cbn [negb].
      destruct (close_new _ k k1 k2 S WN T2) as (k3 & E3 & U3 & N3 & _). unfold bind. rewrite E3. cbn.
      split; [exact P2|]. split; [exact U3|]. lia. }
  cbn [Z.eqb CIO_SUCCESS negb].
  destruct (register_spec ep (newfd k) false (watched k1) k2) as (e3 & k3 & E3 & T3 & O3 & C3).
  { rewrite (proj1 T2). exact Hep. }
  { rewrite (proj1 T2). exact Hfd. }
  { exact W2. }
  { intros e f b Hin ->. rewrite W in Hin. destruct S as (_ & Sa & Sb). destruct (Sb _ _ _ Hin) as [_ Sc]. apply Sa in Sc. lia. }
  unfold bind at 1. rewrite E3. pose proof (touch_trans _ _ _ _ T2 T3) as T13.
  destruct C3 as [[-> W3] | [P3 W3]].
  - cbn. destruct T13 as (A1 & A2 & A3 & A4 & A5). split; [reflexivity|].
    split; [reflexivity|]. split; [congruence|]. split; [congruence|]. split; [congruence|lia].
  - rewrite (neg_neq _ P3). cbn [negb].
    destruct (remove_spec ep (newfd k) k3) as (k4 & E4 & T4).
    { rewrite (proj1 T13). exact Hep. }
    { rewrite (proj1 T13). exact Hfd. }
    unfold bind at 1. rewrite E4.
    destruct (close_new _ k k1 k4 S WN (touch_trans _ _ _ _ T13 T4)) as (k5 & E5 & U5 & N5 & _). unfold bind. rewrite E5. cbn.
    split; [exact P3|]. split; [exact U5|]. lia.
Qed.

(** ** Destructors *)
Lemma kept_one fd x : kept [fd] x = negb (Nat.eqb x fd).
Proof. unfold kept. cbn. now rewrite Bool.orb_false_r. Qed.
Lemma kept_cons fd l x : kept (fd :: l) x = (negb (Nat.eqb x fd) && kept l x)%bool.
Proof. unfold kept. cbn. now rewrite Bool.negb_orb. Qed.
Lemma gone_cons fd l k k1 k2 : gone [fd] k k1 -> gone l k1 k2 -> gone (fd :: l) k k2.
Proof.
  intros (A1 & A2 & A3) (B1 & B2 & B3). split; [|split; [|congruence]].
  - rewrite B1, A1, filter_and. apply filter_ext. intros p. rewrite kept_one, kept_cons. apply Bool.andb_comm.
  - rewrite B2, A2, filter_and. apply filter_ext. intros p. rewrite !kept_one, !kept_cons.
    repeat match goal with |- context [kept ?l ?x] => destruct (kept l x) | |- context [Nat.eqb ?a ?b] => destruct (Nat.eqb a b) end; reflexivity.
Qed.
Lemma touch_close fd k k1 : In fd (fds k) -> touch fd k k1 ->
  exists k', sys_close fate fd k1 = (tt, k') /\ gone [fd] k k' /\ newfd k <= newfd k'.
Proof.
  intros H (T1 & T2 & T3 & T4 & T5). destruct (close_spec fd k1) as (k' & E & C1 & C2 & C3 & C4 & _); [now rewrite T1|].
  exists k'. split; [exact E|]. split; [|lia]. split; [|split; [|congruence]].
  - rewrite C1, T2. apply filter_ext. intros p. now rewrite kept_one.
  - rewrite C2, T3. apply filter_ext. intros p. now rewrite !kept_one.
Qed.
Lemma timer_close_spec t armed k : In (t_ep t) (fds k) -> In (t_fd t) (fds k) ->
  exists k', timer_close fate t armed k = (tt, k') /\ gone [t_fd t] k k' /\ newfd k <= newfd k'.
Proof.
  intros H1 H2. unfold timer_close, bind at 1. destruct (remove_spec _ _ k H1 H2) as (k1 & E1 & T1). rewrite E1.
  assert (X : exists k2, (if armed then bind (sys_plain fate (t_fd t)) (fun _ => ret tt) else ret tt) k1 = (tt, k2) /\ touch (t_fd t) k k2).
  { destruct armed; [|exists k1; split; [reflexivity | exact T1]].
    destruct (plain_spec (t_fd t) k1) as (b & k2 & E2 & U2 & N2 & _); [rewrite (proj1 T1); exact H2|].
    exists k2. split; [unfold bind; now rewrite E2|]. eapply touch_trans; [exact T1|]. apply untouched_touch; [exact U2 | lia]. }
  destruct X as (k2 & E2 & T2). unfold bind at 1. rewrite E2.
  destruct (touch_close (t_fd t) k k2 H2 T2) as (k3 & E3 & G & N). exists k3. auto.
Qed.
Lemma gone_fds l k k' x : gone l k k' -> In x (fds k') <-> In x (fds k) /\ ~ In x l.
Proof.
  intros (O & _). unfold fds. rewrite O, !in_map_iff. split.
  - intros (p & <- & Hin). apply filter_In in Hin. destruct Hin as [Hin K]. split; [exists p; auto|]. intros Hl.
    unfold kept in K. apply Bool.negb_true_iff in K. apply Bool.not_true_iff_false in K. apply K. apply existsb_exists.
    exists (fst p). split; [exact Hl|]. apply Nat.eqb_refl.
  - intros ((p & <- & Hin) & Hl). exists p. split; [reflexivity|]. apply filter_In. split; [exact Hin|].
    unfold kept. apply Bool.negb_true_iff. apply Bool.not_true_iff_false. intros K. apply existsb_exists in K.
    destruct K as (y & Hy & E). apply Nat.eqb_eq in E. now subst.
Qed.
Lemma gone_sane l k k' : sane k -> gone l k k' -> newfd k <= newfd k' -> sane k'.
Proof.
  intros (S1 & S2 & S3) G N. pose proof (fun x => gone_fds l k k' x G) as F. destruct G as (O & W & _). split; [|split].
  - unfold fds. rewrite O. clear - S1. unfold fds in S1. induction (opened k) as [|p r IH]; [constructor|]. cbn in *.
    inversion S1; subst. destruct (kept l (fst p)); cbn; [|auto]. constructor; [|auto].
    intros Hin. apply H1. apply in_map_iff in Hin. destruct Hin as (q & E & Hin). apply filter_In in Hin.
    apply in_map_iff. exists q. tauto.
  - intros fd H. apply F in H. destruct H as [H _]. apply S2 in H. lia.
  - intros ep fd b H. rewrite W in H. apply filter_In in H. destruct H as [H K]. cbn in K. apply Bool.andb_true_iff in K.
    destruct (S3 _ _ _ H) as [A B]. split; apply F; (split; [assumption|]); intros Hl.
    + destruct K as [K _]. unfold kept in K. apply Bool.negb_true_iff, Bool.not_true_iff_false in K. apply K.
      apply existsb_exists. exists ep. split; [exact Hl | apply Nat.eqb_refl].
    + destruct K as [_ K]. unfold kept in K. apply Bool.negb_true_iff, Bool.not_true_iff_false in K. apply K.
      apply existsb_exists. exists fd. split; [exact Hl | apply Nat.eqb_refl].
Qed.
End Calls.
