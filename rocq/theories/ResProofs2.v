(** Sockets, servers, event loops and serial ports. *)
From Verif Require Import Base ResModel ResSpec ResProofs.
Set Warnings "-unused-intro-pattern".

Section Objects.
Variable fate : nat -> option Z.
Hypothesis Hreal : real fate.

Lemma untouched_refl k : untouched k k.
Proof. now repeat split. Qed.
Lemma untouched_trans a b c : untouched a b -> untouched b c -> untouched a c.
Proof. unfold untouched. intuition congruence. Qed.

(** ** cio_linux_socket_create *)
Definition sock_desc (f : Z) : desc := Desc KSocket true true f (if Z.eqb f INET6 then [(V6Only, 1%Z)] else []).
Lemma socket_create_spec f k : sane k ->
  match socket_create fate f k with
  | (None, k') => untouched k k' /\ newfd k <= newfd k' /\ (0 < errno k')%Z
  | (Some fd, k') => f <> UNSPEC /\ fd = newfd k /\ opened k' = (newfd k, sock_desc f) :: opened k /\ watched k' = watched k /\
      stray k' = stray k /\ newfd k < newfd k'
  end.
Proof.
  intros S. unfold socket_create. destruct (Z.eqb_spec f UNSPEC) as [->|Hf].
  { cbn. repeat split. apply Nat.le_refl. }
  unfold bind at 1.
  destruct (create_spec fate Hreal (Desc KSocket true true f []) k) as [(e & k1 & E & U & N & Ee & P) | (k1 & E & O & W & ST & N)]; rewrite E.
  { cbn. split; [exact U|]. split; lia. }
  unfold sock_desc. destruct (Z.eqb_spec f INET6) as [->|Hi].
  2:{ cbn. split; [exact Hf|]. split; [reflexivity|]. split; [exact O|]. split; [exact W|]. split; [exact ST|]. lia. }
  assert (WN : with_new (Desc KSocket true true INET6 []) k k1) by (repeat split; assumption).
  destruct (sockopt_spec fate Hreal (newfd k) V6Only 1 k1) as (b & k2 & E2 & T2 & O2 & W2 & P2).
  { unfold fds. rewrite O. left. reflexivity. }
  unfold bind at 1. rewrite E2. destruct b.
  - cbn. split; [exact Hf|]. split; [reflexivity|]. destruct T2 as (A1 & A2 & A3 & A4 & A5). split.
    + rewrite O2, O. cbn. rewrite Nat.eqb_refl. cbn. f_equal. rewrite <- (map_id (opened k)) at 2. apply map_ext_in.
      intros (n, d) Hin. cbn. destruct (Nat.eqb_spec n (newfd k)) as [->|]; [|reflexivity].
      destruct (sane_fresh k S). apply in_map_iff. now exists (newfd k, d).
    + split; [congruence|]. split; [congruence|]. lia.
  - destruct (close_new fate Hreal _ k k1 k2 S WN T2) as (k3 & E3 & U3 & N3 & P3). unfold bind. rewrite E3. cbn.
    split; [exact U3|]. split; [lia|]. auto.
Qed.

(** ** cio_linux_socket_init *)
Definition sock_made (fd ep : nat) (k : kernel) (s : sock) (k' : kernel) : Prop :=
  s = Sock ep fd (Timer ep (newfd k)) /\ opened k' = (newfd k, Desc KTimer true false 0 []) :: opened k /\
  watched k' = (ep, fd, false) :: (ep, newfd k, true) :: watched k /\ stray k' = stray k /\ newfd k < newfd k'.
Lemma timer_back ep k k1 k2 : sane k -> opened k1 = (newfd k, Desc KTimer true false 0 []) :: opened k ->
  watched k1 = (ep, newfd k, true) :: watched k -> stray k1 = stray k -> gone [newfd k] k1 k2 -> untouched k k2.
Proof.
  intros S O W ST (G1 & G2 & G3). split; [|split; [|congruence]].
  - rewrite G1, O. cbn. rewrite kept_one, Nat.eqb_refl. cbn. rewrite <- (fresh_keep k S) at 2.
    apply filter_ext. intros p. apply kept_one.
  - rewrite G2, W. cbn. rewrite !kept_one, Nat.eqb_refl, Bool.andb_false_r. rewrite <- (fresh_free k S) at 2.
    apply filter_ext. intros p. now rewrite !kept_one.
Qed.
Lemma linux_socket_init_spec fd ep k : sane k -> In ep (fds k) -> In fd (fds k) -> is_watched k ep fd = false ->
  made k (linux_socket_init fate fd ep k) (sock_made fd ep k).
Proof.
  intros S Hep Hfd NW. unfold linux_socket_init, bind at 1.
  pose proof (timer_init_spec fate Hreal ep k S Hep) as T. destruct (timer_init fate ep k) as ((e, [t|]), k1).
  2:{ cbn in *. exact T. }
  destruct T as (-> & -> & O & W & ST & N).
  assert (S1 : sane k1).
  { pose proof (sane_fresh k S) as F. destruct S as (Sa & Sb & Sc). unfold sane, fds in *. rewrite O, W. cbn. split; [constructor; assumption|].
    split.
    - intros x [<- | H]; [lia|]. specialize (Sb _ H). lia.
    - intros a b c [H | H]; [inversion H; subst; auto|]. destruct (Sc _ _ _ H). auto. }
  assert (Hep1 : In ep (fds k1)) by (unfold fds; rewrite O; right; exact Hep).
  assert (Hfd1 : In fd (fds k1)) by (unfold fds; rewrite O; right; exact Hfd).
  assert (Nf : Nat.eqb (newfd k) fd = false).
  { apply Nat.eqb_neq. intros <-. exact (sane_fresh k S Hfd). }
  destruct (add_spec fate Hreal ep fd k1 Hep1 Hfd1) as (e2 & k2 & E2 & T2 & O2 & C2).
  { unfold is_watched in *. rewrite W. cbn. rewrite Nat.eqb_refl, Nf. cbn. exact NW. }
  unfold bind at 1. rewrite E2. destruct T2 as (A1 & A2 & A3 & A4 & A5). destruct C2 as [[-> W2] | [P2 W2]].
  - cbn. split; [reflexivity|]. split; [reflexivity|]. split; [congruence|]. split; [congruence|]. split; [congruence|lia].
  - rewrite (neg_neq _ P2). cbn [negb].
    destruct (timer_close_spec fate Hreal (Timer ep (newfd k)) false k2) as (k3 & E3 & G3 & N3).
    { cbn. rewrite A1. exact Hep1. }
    { cbn. rewrite A1. unfold fds. rewrite O. left. reflexivity. }
    unfold bind. rewrite E3. cbn. split; [exact P2|]. split; [|cbn in N3; lia].
    apply (timer_back ep k k2 k3 S); [congruence | congruence | congruence | exact G3].
Qed.

(** ** cio_socket_init *)
Definition socket_made (d : desc) (ep : nat) (k : kernel) (s : sock) (k' : kernel) : Prop :=
  s_ep s = ep /\ s_fd s = newfd k /\ t_ep (s_timer s) = ep /\ newfd k < t_fd (s_timer s) < newfd k' /\
  opened k' = (t_fd (s_timer s), Desc KTimer true false 0 []) :: (newfd k, d) :: opened k /\
  watched k' = (ep, s_fd s, false) :: (ep, t_fd (s_timer s), true) :: watched k /\ stray k' = stray k.
Lemma new_sane d k k1 : sane k -> opened k1 = (newfd k, d) :: opened k -> watched k1 = watched k -> newfd k < newfd k1 -> sane k1.
Proof.
  intros S O W N. pose proof (sane_fresh k S) as F. destruct S as (Sa & Sb & Sc). unfold sane, fds in *. rewrite O, W. cbn. split; [constructor; assumption|].
  split.
  - intros x [<- | H]; [lia|]. specialize (Sb _ H). lia.
  - intros a b c H. destruct (Sc _ _ _ H). auto.
Qed.
Lemma wrap_socket d ep k k1 : sane k -> In ep (fds k) -> opened k1 = (newfd k, d) :: opened k -> watched k1 = watched k ->
  stray k1 = stray k -> newfd k < newfd k1 ->
  made k (bind (linux_socket_init fate (newfd k) ep) (fun r => match r with (e, Some s) => ret (e, Some s) | (e, None) => bind (sys_close fate (newfd k)) (fun _ => ret (e, None)) end) k1)
    (socket_made d ep k).
Proof.
  intros S Hep O W ST N. pose proof (new_sane d k k1 S O W N) as S1.
  assert (Hfd1 : In (newfd k) (fds k1)) by (unfold fds; rewrite O; left; reflexivity).
  assert (Hep1 : In ep (fds k1)) by (unfold fds; rewrite O; right; exact Hep).
  assert (NW : is_watched k1 ep (newfd k) = false).
  { rewrite <- (sane_unwatched k ep S). unfold is_watched. now rewrite W. }
  pose proof (linux_socket_init_spec (newfd k) ep k1 S1 Hep1 Hfd1 NW) as L. unfold bind at 1.
  destruct (linux_socket_init fate (newfd k) ep k1) as ((e, [s|]), k2).
  - destruct L as (-> & -> & O2 & W2 & ST2 & N2). cbn. split; [reflexivity|]. unfold socket_made. cbn.
    split; [reflexivity|]. split; [reflexivity|]. split; [reflexivity|]. split; [lia|]. split; [congruence|]. split; congruence.
  - destruct L as (P & (U1 & U2 & U3) & N2). unfold bind.
    destruct (close_spec fate Hreal (newfd k) k2) as (k3 & E3 & C1 & C2 & C3 & C4 & _).
    { unfold fds. rewrite U1. exact Hfd1. }
    rewrite E3. cbn. split; [exact P|]. split; [|lia]. split; [|split; [|congruence]].
    + rewrite C1, U1, O. cbn. unfold fkeep at 1. cbn. rewrite Nat.eqb_refl. cbn. apply fresh_keep, S.
    + rewrite C2, U2, W. apply fresh_free, S.
Qed.
Lemma socket_init_spec f ep k : sane k -> In ep (fds k) ->
  made k (socket_init fate f ep k) (fun s k' => f <> UNSPEC /\ socket_made (sock_desc f) ep k s k').
Proof.
  intros S Hep. unfold socket_init, bind at 1. pose proof (socket_create_spec f k S) as C.
  destruct (socket_create fate f k) as ([fd|], k1).
  - destruct C as (Hf & -> & O & W & ST & N). pose proof (wrap_socket (sock_desc f) ep k k1 S Hep O W ST N) as R.
    match type of R with made _ ?x _ => change (made k x (fun s k' => f <> UNSPEC /\ socket_made (sock_desc f) ep k s k')); destruct x as ((e, [s|]), k') end;
      cbn in *; tauto.
  - destruct C as (U & N & P). cbn. split; [lia|]. split; [exact U | exact N].
Qed.
Lemma accept_spec v dom mem k : sane k -> In (v_ep v) (fds k) ->
  made k (accept_callback fate v dom mem k) (socket_made (sock_desc dom) (v_ep v) k).
Proof.
  intros S Hep. unfold accept_callback, bind at 1.
  change (Desc KSocket true true dom (if Z.eqb dom INET6 then [(V6Only, 1%Z)] else [])) with (sock_desc dom).
  destruct (create_spec fate Hreal (sock_desc dom) k) as [(e & k1 & E & U & N & Ee & P) | (k1 & E & O & W & ST & N)]; rewrite E.
  { cbn. split; [lia|]. split; [exact U|]. lia. }
  destruct mem; cbn [negb].
  - apply wrap_socket; try assumption. lia.
  - assert (WN : with_new (sock_desc dom) k k1) by (repeat split; assumption).
    destruct (close_new fate Hreal _ k k1 k1 S WN (touch_refl _ _)) as (k3 & E3 & U3 & N3 & P3). unfold bind. rewrite E3. cbn.
    split; [lia|]. split; [exact U3|]. lia.
Qed.

(** ** cio_server_socket_init, cio_http_server_init *)
Definition server_made (f : Z) (ep : nat) (k : kernel) (v : server) (k' : kernel) : Prop :=
  v = Server ep (newfd k) /\ opened k' = (newfd k, sock_desc f) :: opened k /\ watched k' = watched k /\ stray k' = stray k /\ newfd k < newfd k'.
Lemma server_init_spec f ep k : sane k -> made k (server_socket_init fate f ep k) (fun v k' => f <> UNSPEC /\ server_made f ep k v k').
Proof.
  intros S. unfold server_socket_init, bind at 1. pose proof (socket_create_spec f k S) as C.
  destruct (socket_create fate f k) as ([fd|], k1).
  - destruct C as (Hf & -> & O & W & ST & N). cbn. split; [reflexivity|]. split; [exact Hf|]. repeat split; assumption.
  - destruct C as (U & N & P). cbn. split; [lia|]. split; [exact U | exact N].
Qed.
Lemma http_init_spec c ep k : sane k -> use_fastopen c = false ->
  made k (http_server_init fate c ep k) (server_made (family c) ep k).
Proof.
  intros S Hf. unfold http_server_init. destruct (_ || _)%bool.
  { cbn. split; [reflexivity|]. split; [apply untouched_refl | lia]. }
  destruct (keepalive_fits (header_timeout c)); cbn [negb].
  2:{ cbn. split; [reflexivity|]. split; [apply untouched_refl | lia]. }
  unfold bind at 1. pose proof (server_init_spec (family c) ep k S) as R.
  destruct (server_socket_init fate (family c) ep k) as ((e, [v|]), k1); rewrite ?Hf; cbn in *; tauto.
Qed.

(** ** cio_eventloop_init *)
Definition loop_made (k : kernel) (l : loop) (k' : kernel) : Prop :=
  newfd k <= l_ep l < l_stop l /\ l_stop l < newfd k' /\
  opened k' = (l_stop l, Desc KEvent true false 0 []) :: (l_ep l, Desc KEpoll false true 0 []) :: opened k /\
  watched k' = (l_ep l, l_stop l, true) :: watched k /\ stray k' = stray k.
Lemma eventloop_init_spec k : sane k -> made k (eventloop_init fate k) (loop_made k).
Proof.
  intros S. unfold eventloop_init, bind at 1.
  destruct (create_spec fate Hreal (Desc KEpoll false true 0 []) k) as [(e & k1 & E & U & N & Ee & P) | (k1 & E & O & W & ST & N)]; rewrite E.
  { cbn. split; [lia|]. split; [exact U|]. lia. }
  assert (WN : with_new (Desc KEpoll false true 0 []) k k1) by (repeat split; assumption).
  assert (S1 : sane k1) by (eapply with_new_sane; eassumption).
  unfold bind at 1.
  (* closing the epoll descriptor after the rest was undone *)
  assert (B : forall k2, untouched k1 k2 -> newfd k1 <= newfd k2 ->
    exists k', sys_close fate (newfd k) k2 = (tt, k') /\ untouched k k' /\ newfd k < newfd k').
  { intros k2 U2 N2. destruct (close_new fate Hreal _ k k1 k2 S WN (untouched_touch _ _ _ U2 N2)) as (k' & E' & U' & N' & _).
    exists k'. auto. }
  destruct (create_spec fate Hreal (Desc KEvent true false 0 []) k1) as [(e & k2 & E2 & U2 & N2 & Ee & P) | (k2 & E2 & O2 & W2 & ST2 & N2)]; rewrite E2.
  { unfold bind at 1. cbn [minus_errno]. destruct (B k2 U2) as (k3 & E3 & U3 & N3); [lia|]. unfold minus_errno, bind. rewrite E3. cbn.
    split; [lia|]. split; [exact U3 | lia]. }
  assert (WN2 : with_new (Desc KEvent true false 0 []) k1 k2) by (repeat split; assumption).
  assert (S2 : sane k2) by (eapply with_new_sane; eassumption).
  assert (Hep : In (newfd k) (fds k2)) by (unfold fds; rewrite O2, O; right; left; reflexivity).
  assert (Hfd : In (newfd k1) (fds k2)) by (unfold fds; rewrite O2; left; reflexivity).
  assert (NW : is_watched k2 (newfd k) (newfd k1) = false).
  { rewrite <- (sane_unwatched k1 (newfd k) S1). unfold is_watched. now rewrite W2. }
  destruct (add_spec fate Hreal (newfd k) (newfd k1) k2 Hep Hfd NW) as (e3 & k3 & E3 & T3 & O3 & C3). unfold bind at 1. rewrite E3.
  destruct C3 as [[-> W3] | [P3 W3]].
  2:{ rewrite (neg_neq _ P3). cbn [negb].
      destruct (close_new fate Hreal _ k1 k2 k3 S1 WN2 T3) as (k4 & E4 & U4 & N4 & _). unfold bind at 1. rewrite E4.
      destruct (B k4 U4) as (k5 & E5 & U5 & N5); [lia|]. unfold bind. rewrite E5. cbn. split; [exact P3|]. split; [exact U5 | lia]. }
  cbn [Z.eqb CIO_SUCCESS negb].
  destruct (register_spec fate Hreal (newfd k) (newfd k1) false (watched k2) k3) as (e4 & k4 & E4 & T4 & O4 & C4).
  { rewrite (proj1 T3). exact Hep. }
  { rewrite (proj1 T3). exact Hfd. }
  { exact W3. }
  { intros e f b Hin ->. rewrite W2 in Hin. destruct S1 as (_ & Sa & Sb). destruct (Sb _ _ _ Hin) as [_ Sc]. apply Sa in Sc. lia. }
  unfold bind at 1. rewrite E4. pose proof (touch_trans _ _ _ _ T3 T4) as T13.
  destruct C4 as [[-> W4] | [P4 W4]].
  - cbn. destruct T13 as (A1 & A2 & A3 & A4 & A5). split; [reflexivity|]. unfold loop_made. cbn.
    split; [lia|]. split; [lia|]. split; [congruence|]. split; congruence.
  - rewrite (neg_neq _ P4). cbn [negb].
    destruct (remove_spec fate Hreal (newfd k) (newfd k1) k4) as (k5 & E5 & T5).
    { rewrite (proj1 T13). exact Hep. }
    { rewrite (proj1 T13). exact Hfd. }
    unfold bind at 1. rewrite E5.
    destruct (close_new fate Hreal _ k1 k2 k5 S1 WN2 (touch_trans _ _ _ _ T13 T5)) as (k6 & E6 & U6 & N6 & _). unfold bind at 1. rewrite E6.
    destruct (B k6 U6) as (k7 & E7 & U7 & N7); [lia|]. unfold bind. rewrite E7. cbn. split; [exact P4|]. split; [exact U7 | lia].
Qed.

(** ** Destructors *)
Lemma kept_in l x : kept l x = true <-> ~ In x l.
Proof.
  unfold kept. rewrite Bool.negb_true_iff, <- Bool.not_true_iff_false, existsb_exists. split; intros H Hin; apply H.
  - exists x. split; [exact Hin | apply Nat.eqb_refl].
  - destruct Hin as (y & Hy & E). apply Nat.eqb_eq in E. now subst.
Qed.
(** Touching a descriptor, giving up others and closing it. *)
Lemma touch_gone_close fd l k k1 k2 : In fd (fds k) -> ~ In fd l -> touch fd k k1 -> gone l k1 k2 -> newfd k1 <= newfd k2 ->
  exists k', sys_close fate fd k2 = (tt, k') /\ gone (fd :: l) k k' /\ newfd k <= newfd k'.
Proof.
  intros Hfd Hl (T1 & T2 & T3 & T4 & T5) G N. pose proof (proj2 (gone_fds l k1 k2 fd G)) as Q.
  destruct (close_spec fate Hreal fd k2) as (k' & E & C1 & C2 & C3 & C4 & _); [apply Q; split; [rewrite T1; exact Hfd | exact Hl]|].
  destruct G as (G1 & G2 & G3). exists k'. split; [exact E|]. split; [|lia]. split; [|split; [|congruence]].
  - rewrite C1, G1, filter_comm. change (fun p : nat * desc => kept l (fst p)) with (fun p : nat * desc => kept l (fst p)).
    rewrite T2, filter_and. apply filter_ext. intros p. rewrite kept_cons. unfold fkeep. apply Bool.andb_comm.
  - rewrite C2, G2, filter_comm, T3, filter_and. apply filter_ext. intros p. rewrite !kept_cons. unfold ffree.
    repeat match goal with |- context [kept ?l ?x] => destruct (kept l x) | |- context [Nat.eqb ?a ?b] => destruct (Nat.eqb a b) end; reflexivity.
Qed.
Lemma gone_same l l' k k' : (forall x, In x l <-> In x l') -> gone l k k' -> gone l' k k'.
Proof.
  intros H (A & B & C).
  assert (K : forall x, kept l x = kept l' x).
  { intros x. destruct (kept l x) eqn:E1, (kept l' x) eqn:E2; try reflexivity.
    - apply kept_in in E1. exfalso. assert (X : ~ In x l') by (rewrite <- H; exact E1). apply kept_in in X. congruence.
    - apply kept_in in E2. exfalso. assert (X : ~ In x l) by (rewrite H; exact E2). apply kept_in in X. congruence. }
  split; [|split; [|exact C]].
  - rewrite A. apply filter_ext. intros p. apply K.
  - rewrite B. apply filter_ext. intros p. now rewrite !K.
Qed.
Lemma server_close_spec v k : In (v_ep v) (fds k) -> In (v_fd v) (fds k) ->
  exists k', server_socket_close fate v k = (tt, k') /\ gone [v_fd v] k k' /\ newfd k <= newfd k'.
Proof.
  intros H1 H2. unfold server_socket_close, bind at 1. destruct (remove_spec fate Hreal _ _ k H1 H2) as (k1 & E1 & T1). rewrite E1.
  apply (touch_close fate Hreal _ k k1 H2 T1).
Qed.
Lemma socket_close_spec s rst armed k : In (s_ep s) (fds k) -> In (s_fd s) (fds k) -> In (t_ep (s_timer s)) (fds k) -> In (t_fd (s_timer s)) (fds k) ->
  s_fd s <> t_fd (s_timer s) ->
  exists k', socket_close fate s rst armed k = (tt, k') /\ gone (owns (ObSock s)) k k' /\ newfd k <= newfd k'.
Proof.
  intros H1 H2 H3 H4 H5. unfold socket_close, bind at 1.
  assert (X : exists k1, (if rst then bind (sys_setsockopt fate (s_fd s) Linger 0) (fun _ => ret tt) else ret tt) k = (tt, k1) /\ touch (s_fd s) k k1).
  { destruct rst; [|exists k; split; [reflexivity | apply touch_refl]].
    destruct (sockopt_spec fate Hreal (s_fd s) Linger 0 k H2) as (b & k1 & E1 & T1 & _). exists k1. split; [|exact T1].
    unfold bind. now rewrite E1. }
  destruct X as (k1 & E1 & T1). rewrite E1.
  destruct (unregister_spec fate Hreal (s_ep s) (s_fd s) k1) as (e2 & k2 & E2 & T2); [rewrite (proj1 T1); assumption ..|].
  pose proof (touch_trans _ _ _ _ T1 T2) as T12. unfold bind at 1. rewrite E2.
  destruct (remove_spec fate Hreal (s_ep s) (s_fd s) k2) as (k3 & E3 & T3); [rewrite (proj1 T12); assumption ..|].
  pose proof (touch_trans _ _ _ _ T12 T3) as T13. unfold bind at 1. rewrite E3.
  destruct (timer_close_spec fate Hreal (s_timer s) armed k3) as (k4 & E4 & G4 & N4); [rewrite (proj1 T13); assumption ..|].
  unfold bind at 1. rewrite E4.
  destruct (touch_gone_close (s_fd s) [t_fd (s_timer s)] k k3 k4 H2) as (k5 & E5 & G5 & N5); try assumption.
  { intros [E|[]]. congruence. }
  exists k5. split; [exact E5|]. split; [|exact N5]. eapply gone_same; [|exact G5]. cbn. tauto.
Qed.
Lemma destroy_spec l k : In (l_ep l) (fds k) -> In (l_stop l) (fds k) -> l_ep l <> l_stop l ->
  exists k', eventloop_destroy fate l k = (tt, k') /\ gone (owns (ObLoop l)) k k' /\ newfd k <= newfd k'.
Proof.
  intros H1 H2 H3. unfold eventloop_destroy, bind at 1.
  destruct (unregister_spec fate Hreal (l_ep l) (l_stop l) k H1 H2) as (e1 & k1 & E1 & T1). rewrite E1.
  destruct (remove_spec fate Hreal (l_ep l) (l_stop l) k1) as (k2 & E2 & T2); [rewrite (proj1 T1); assumption ..|].
  unfold bind at 1. rewrite E2. pose proof (touch_trans _ _ _ _ T1 T2) as T12.
  destruct (touch_close fate Hreal (l_stop l) k k2 H2 T12) as (k3 & E3 & G3 & N3). unfold bind at 1. rewrite E3.
  destruct (touch_close fate Hreal (l_ep l) k3 k3) as (k4 & E4 & G4 & N4).
  { apply (gone_fds _ _ _ _ G3). split; [exact H1|]. intros [E|[]]. congruence. }
  { apply touch_refl. }
  exists k4. split; [exact E4|]. split; [|lia]. eapply gone_cons; eassumption.
Qed.

(** ** Calls on servers and sockets *)
(** Only things concerning the descriptor of the object change, and they change as far as the number of descriptors is concerned
    not at all. *)
Lemma listen_spec v k : In (v_ep v) (fds k) -> In (v_fd v) (fds k) ->
  exists e k', server_socket_accept fate v k = (e, k') /\ touch (v_fd v) k k'.
Proof.
  intros H1 H2. unfold server_socket_accept, bind at 1. destruct (plain_spec fate Hreal (v_fd v) k H2) as (b & k1 & E1 & U1 & N1 & _). rewrite E1.
  assert (T1 : touch (v_fd v) k k1) by (apply untouched_touch; [exact U1 | lia]).
  destruct b; cbn [negb]; [|unfold minus_errno; do 2 eexists; split; [reflexivity | exact T1]].
  unfold eventloop_add. destruct (ctl_touch fate Hreal (v_ep v) (v_fd v) CtlAdd k1) as (b2 & k2 & E2 & T2 & _); [rewrite (proj1 T1); assumption ..|].
  pose proof (touch_trans _ _ _ _ T1 T2) as T12. unfold bind. rewrite E2.
  destruct (or_errno b2 k2) as (e & k2') eqn:E. assert (k2' = k2) by (destruct b2; cbn in E; inversion E; reflexivity). subst k2'.
  destruct (Z.eqb e CIO_SUCCESS); cbn [negb]; [|do 2 eexists; split; [reflexivity | exact T12]].
  unfold register_read. destruct (ctl_touch fate Hreal (v_ep v) (v_fd v) (CtlMod true) k2) as (b3 & k3 & E3 & T3 & _); [rewrite (proj1 T12); assumption ..|].
  pose proof (touch_trans _ _ _ _ T12 T3) as T13. unfold bind. rewrite E3. destruct b3; do 2 eexists; (split; [reflexivity | exact T13]).
Qed.
Lemma opt_spec fd o x k : In fd (fds k) ->
  exists e k', bind (sys_setsockopt fate fd o x) (fun b => or_errno b) k = (e, k') /\ touch fd k k'.
Proof.
  intros H. destruct (sockopt_spec fate Hreal fd o x k H) as (b & k1 & E & T & _). unfold bind. rewrite E.
  destruct b; do 2 eexists; (split; [reflexivity | exact T]).
Qed.
Lemma bind_spec v f u k : In (v_fd v) (fds k) ->
  exists e k', server_socket_bind fate v f u k = (e, k') /\ touch (v_fd v) k k'.
Proof.
  intros H. unfold server_socket_bind. destruct (Z.eqb f UNSPEC).
  { do 2 eexists. split; [reflexivity | apply touch_refl]. }
  unfold bind at 1.
  assert (X : exists e k1, (if (u && (f =? UNIX)%Z)%bool then
      bind (sys_none fate) (fun b => bind (or_errno b) (fun e => ret (if Z.eqb e (- ENOENT) then CIO_SUCCESS else e)))
      else ret CIO_SUCCESS) k = (e, k1) /\ touch (v_fd v) k k1).
  { destruct (u && (f =? UNIX)%Z)%bool; [|do 2 eexists; split; [reflexivity | apply touch_refl]].
    destruct (none_spec fate Hreal k) as (b & k1 & E1 & U1 & N1 & _). unfold bind. rewrite E1.
    destruct b; cbn; do 2 eexists; (split; [reflexivity | apply untouched_touch; [exact U1 | lia]]). }
  destruct X as (e & k1 & E1 & T1). rewrite E1. destruct (Z.eqb e CIO_SUCCESS); cbn [negb].
  2:{ do 2 eexists. split; [reflexivity | exact T1]. }
  destruct (plain_spec fate Hreal (v_fd v) k1) as (b & k2 & E2 & U2 & N2 & _); [rewrite (proj1 T1); exact H|].
  unfold bind. rewrite E2. assert (T2 : touch (v_fd v) k k2).
  { eapply touch_trans; [exact T1|]. apply untouched_touch; [exact U2 | lia]. }
  destruct b; do 2 eexists; (split; [reflexivity | exact T2]).
Qed.
Lemma keep_alive_spec s on x y z k : In (s_fd s) (fds k) ->
  exists e k', socket_set_keep_alive fate s on x y z k = (e, k') /\ touch (s_fd s) k k'.
Proof.
  intros H. unfold socket_set_keep_alive. destruct on; [|apply opt_spec, H].
  unfold bind at 1. destruct (sockopt_spec fate Hreal (s_fd s) KeepIdle x k H) as (b1 & k1 & E1 & T1 & _). rewrite E1.
  destruct b1; cbn [negb]; [|unfold minus_errno; do 2 eexists; split; [reflexivity | exact T1]].
  unfold bind at 1. destruct (sockopt_spec fate Hreal (s_fd s) KeepIntvl y k1) as (b2 & k2 & E2 & T2 & _); [rewrite (proj1 T1); exact H|]. rewrite E2.
  pose proof (touch_trans _ _ _ _ T1 T2) as T12.
  destruct b2; cbn [negb]; [|unfold minus_errno; do 2 eexists; split; [reflexivity | exact T12]].
  unfold bind at 1. destruct (sockopt_spec fate Hreal (s_fd s) KeepCnt z k2) as (b3 & k3 & E3 & T3 & _); [rewrite (proj1 T12); exact H|]. rewrite E3.
  pose proof (touch_trans _ _ _ _ T12 T3) as T13.
  destruct b3; cbn [negb]; [|unfold minus_errno; do 2 eexists; split; [reflexivity | exact T13]].
  destruct (opt_spec (s_fd s) KeepAlive 1 k3) as (e & k4 & E4 & T4); [rewrite (proj1 T13); exact H|].
  exists e, k4. split; [exact E4|]. eapply touch_trans; eassumption.
Qed.
Lemma serve_spec c v k : In (v_ep v) (fds k) -> In (v_fd v) (fds k) ->
  match http_server_serve fate c v k with
  | ((e, Some v'), k') => e = 0%Z /\ v' = v /\ touch (v_fd v) k k'
  | ((e, None), k') => e <> 0%Z /\ gone [v_fd v] k k' /\ newfd k <= newfd k'
  end.
Proof.
  intros H1 H2. unfold http_server_serve.
  assert (B : forall e k1, touch (v_fd v) k k1 -> e <> 0%Z ->
    match bind (server_socket_close fate v) (fun _ => ret (e, @None server)) k1 with
    | ((e, Some v'), k') => e = 0%Z /\ v' = v /\ touch (v_fd v) k k'
    | ((e, None), k') => e <> 0%Z /\ gone [v_fd v] k k' /\ newfd k <= newfd k'
    end).
  { intros e k1 T He. unfold server_socket_close. unfold bind at 1 2.
    destruct (remove_spec fate Hreal (v_ep v) (v_fd v) k1) as (k2 & E2 & T2); [rewrite (proj1 T); assumption ..|]. rewrite E2.
    destruct (touch_close fate Hreal (v_fd v) k k2 H2 (touch_trans _ _ _ _ T T2)) as (k3 & E3 & G3 & N3). rewrite E3. cbn. auto. }
  unfold server_socket_set_reuse_address. unfold bind at 1.
  destruct (opt_spec (v_fd v) ReuseAddr 1 k H2) as (e1 & k1 & E1 & T1). rewrite E1.
  destruct (Z.eqb_spec e1 CIO_SUCCESS) as [->|]; cbn [negb]; [|apply B; assumption].
  destruct (bind_spec v (family c) (path c) k1) as (e2 & k2 & E2 & T2); [rewrite (proj1 T1); assumption|].
  unfold bind at 1. rewrite E2. pose proof (touch_trans _ _ _ _ T1 T2) as T12.
  destruct (Z.eqb_spec e2 CIO_SUCCESS) as [->|]; cbn [negb]; [|apply B; assumption].
  destruct (listen_spec v k2) as (e3 & k3 & E3 & T3); [rewrite (proj1 T12); assumption ..|].
  unfold bind at 1. rewrite E3. pose proof (touch_trans _ _ _ _ T12 T3) as T13.
  destruct (Z.eqb_spec e3 CIO_SUCCESS) as [->|]; cbn [negb]; [|apply B; assumption].
  cbn. auto.
Qed.
End Objects.
