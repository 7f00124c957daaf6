(** C62: reading and writing on Zephyr sockets. *)
From Verif Require Import Base ZephyrSocket ZephyrSocketSpec.

(** What the state is, by phase. *)
Definition state_ok (s : st) : Prop :=
  match phase_of (tr s) with
  | Idle => alive s = true /\ recv_on s = false /\ send_on s = false /\ pending s = 0
  | Reading n sp => alive s = true /\ recv_on s = true /\ send_on s = false /\ pending s = 0 /\ cb s = CRead /\ rh s = Some n /\ space s = sp /\ got s = []
  | Received n sp x => alive s = true /\ recv_on s = false /\ send_on s = false /\ pending s = 1 /\ cb s = CRead /\ rh s = Some n /\ (read_status s, got s) = read_result sp x
  | Writing n t => alive s = true /\ recv_on s = false /\ send_on s = true /\ pending s = 0 /\ cb s = CWritten /\ wh s = Some n /\ bytes_to_send s = t
  | Transmitted n t status => alive s = true /\ recv_on s = false /\ send_on s = false /\ pending s = 1 /\ cb s = CWritten /\ wh s = Some n /\ bytes_to_send s = t /\ send_status s = status /\ status <> 0%Z
  | Gone => alive s = false /\ recv_on s = false /\ send_on s = false /\ pending s = 0
  end.
Record inv (s : st) : Prop := {
  i_st : state_ok s;
  i_num : Forall (fun e => forall m, number e = Some m -> m < nreq s) (tr s);
  i_law : lawful (tr s);
}.
Lemma num_le (l : list ev) a b : a <= b -> Forall (fun e => forall m, number e = Some m -> m < a) l -> Forall (fun e => forall m, number e = Some m -> m < b) l.
Proof. intros L. apply Forall_impl. intros e H m E. specialize (H m E). lia. Qed.
Lemma phase_num l n0 : Forall (fun e => forall m, number e = Some m -> m < n0) l ->
  match phase_of l with Idle | Gone => True | Reading n _ | Received n _ _ | Writing n _ | Transmitted n _ _ => n < n0 end.
Proof.
  induction l as [|e l IH]; intros H; [exact I|]. inversion H as [|? ? H1 H2]; subst. specialize (IH H2).
  destruct e; cbn [phase_of]; try exact I; try exact IH; try (apply (H1 n); reflexivity); destruct (phase_of l); try exact IH.
  destruct (status =? 0)%Z; exact IH.
Qed.

Lemma fold_add l : forall a, fold_left Nat.add l a = a + list_sum l.
Proof. induction l as [|x l IH]; intros a; cbn [fold_left list_sum fold_right]; [lia|]. rewrite IH. unfold list_sum. lia. Qed.

Lemma step_inv s x : inv s -> enabled s x -> careful s x -> exists s', step s x = Ret s' /\ inv s'.
Proof.
  intros [S N L] En Ca. unfold state_ok in S. pose proof (phase_num _ _ N) as PN.
  destruct x as [sp ret|lens ret| |a|status| |]; cbn [step enabled careful] in *.
  - rewrite Ca in S. destruct S as (A & B & D & E). unfold stream_read. rewrite A. cbn [negb]. destruct (Z.ltb_spec ret 0) as [X|X]; (eexists; split; [reflexivity|]); split;
      unfold state_ok; cbn; rewrite ?Ca; auto 12.
    + constructor; [discriminate|]. eapply num_le; [|exact N]. lia.
    + constructor; [intros m [= <-]; lia|]. eapply num_le; [|exact N]. lia.
  - rewrite Ca in S. destruct S as (A & B & D & E). unfold stream_write. rewrite A. cbn [negb]. destruct (Z.ltb_spec ret 0) as [X|X]; (eexists; split; [reflexivity|]); split;
      unfold state_ok; cbn; rewrite ?Ca; auto 12.
    + constructor; [discriminate|]. eapply num_le; [|exact N]. lia.
    + constructor; [intros m [= <-]; lia|]. eapply num_le; [|exact N]. lia.
  - assert (A : alive s = true /\ pending s = 0 /\ phase_of (tr s) <> Gone) by (destruct (phase_of (tr s)); try contradiction; (repeat split; [tauto|tauto|discriminate])). destruct A as (A & P & NG).
    unfold close. rewrite A. cbn [negb]. eexists. split; [reflexivity|]. split; cbn; auto.
    constructor; [discriminate|]. constructor; [discriminate|exact N].
  - assert (RO : recv_on s = true) by (destruct a; tauto).
    assert (R : exists n sp, phase_of (tr s) = Reading n sp) by (destruct (phase_of (tr s)); try (decompose [and] S; congruence); eauto). destruct R as (n & sp & R).
    rewrite R in S. destruct S as (A & B & D & E & F & G & H & I). unfold tcp_received. rewrite A. cbn [negb].
    assert (ND : forall s', nreq s' = nreq s -> tr s' = EvArrived a :: tr s -> Forall (fun e => forall m, number e = Some m -> m < nreq s') (tr s') /\ lawful (tr s')).
    { intros s' E1 E2. rewrite E1, E2. split; [constructor; [discriminate|exact N]|]. cbn. split; [eauto|exact L]. }
    destruct a as [bs| |e]; (eexists; split; [reflexivity|]); (split; [|apply ND; reflexivity|apply ND; reflexivity]); unfold state_ok; cbn; rewrite R; cbn; rewrite ?E, ?I; repeat split; auto.
    cbn. subst sp. destruct (Nat.min_spec (length bs) (space s)) as [[X ->]|[X ->]]; [rewrite !firstn_all2 by lia|]; reflexivity.
  - assert (R : exists n t, phase_of (tr s) = Writing n t) by (destruct (phase_of (tr s)); try (decompose [and] S; congruence); eauto). destruct R as (n & t & R).
    rewrite R in S. destruct S as (A & B & D & E & F & G & H). unfold tcp_sent. rewrite A. cbn [negb].
    assert (ND : forall s', nreq s' = nreq s -> tr s' = EvSent status :: tr s -> Forall (fun e => forall m, number e = Some m -> m < nreq s') (tr s') /\ lawful (tr s')).
    { intros s' E1 E2. rewrite E1, E2. split; [constructor; [discriminate|exact N]|]. cbn. split; [eauto|exact L]. }
    destruct (Z.eqb_spec status 0) as [->|NZ]; (eexists; split; [reflexivity|]); (split; [|apply ND; reflexivity|apply ND; reflexivity]); unfold state_ok; cbn; rewrite R; cbn.
    + auto 10.
    + destruct (Z.eqb_spec status 0) as [->|_]; [congruence|]. rewrite E. auto 12.
  - destruct En as (D0 & P0). unfold dispatch. cbn [alive cb set_pending rh wh read_status send_status got bytes_to_send].
    destruct (phase_of (tr s)) as [|n sp|n sp x|n t|n t status|] eqn:PH; try (decompose [and] S; congruence).
    + destruct S as (A & B & D & E & F & G & H). rewrite A, F. cbn [negb]. unfold read_callback. cbn [rh set_pending]. rewrite G. eexists. split; [reflexivity|]. split; cbn.
      * unfold state_ok. cbn. rewrite E. auto.
      * constructor; [intros m [= <-]; exact PN|exact N].
      * split; [|exact L]. exists sp, x. auto.
    + destruct S as (A & B & D & E & F & G & H & I & NZ). rewrite A, F. cbn [negb]. unfold written_callback. cbn [wh set_pending send_status bytes_to_send]. rewrite G, I, H.
      assert (K : (if (status <? 0)%Z then status else SUCCESS, if (status <? 0)%Z then 0 else t) = write_result t status) by (unfold write_result; destruct (status <? 0)%Z; reflexivity).
      destruct (status <? 0)%Z; (eexists; split; [reflexivity|]); (split; cbn;
        [unfold state_ok; cbn; rewrite E; auto|constructor; [intros m [= <-]; exact PN|exact N]|split; [exists t, status; split; [exact PH|exact K]|exact L]]).
  - eexists. split; [reflexivity|]. split; [exact S|exact N|exact L].
Qed.
Lemma start_inv : inv start.
Proof. split; cbn; auto. Qed.
Lemma reach_inv s : reach careful s -> inv s.
Proof.
  intros R. induction R as [|s x s' R IH En Ca St]; [exact start_inv|]. destruct (step_inv s x IH En Ca) as (s1 & E & I). rewrite E in St. injection St as <-. exact I.
Qed.
Lemma lawful_split l1 : forall e l0, lawful (l1 ++ e :: l0) -> allowed e l0 /\ lawful l0.
Proof. induction l1 as [|a l1 IH]; intros e l0 H; [exact H|]. apply IH, H. Qed.

Theorem C62_every_step_is_defined : forall s x, reach careful s -> enabled s x -> careful s x -> exists s', step s x = Ret s'.
Proof. intros s x R En Ca. destruct (step_inv s x (reach_inv s R) En Ca) as (c & E & _). exists c. exact E. Qed.
Print Assumptions C62_every_step_is_defined.

(** The handler of a read is told what arrived for it: as many bytes as fit into its buffer, the end of the stream, or the
    error. *)
Theorem C62_read_result : forall s l1 n err data l0, reach careful s -> tr s = l1 ++ EvReadDone n err data :: l0 ->
  exists space x, phase_of l0 = Received n space x /\ (err, data) = match x with Data bs => (SUCCESS, firstn space bs) | Fin => (CIO_EOF, []) | Fail e => (e, []) end.
Proof. intros s l1 n err data l0 R E. pose proof (i_law _ (reach_inv s R)) as L. rewrite E in L. apply lawful_split in L. exact (proj1 L). Qed.
Print Assumptions C62_read_result.
(** The handler of a write is told its end: everything was sent, or the error. *)
Theorem C62_write_result : forall s l1 n err count l0, reach careful s -> tr s = l1 ++ EvWriteDone n err count :: l0 ->
  exists total status, phase_of l0 = Transmitted n total status /\
    ((status < 0)%Z /\ err = status /\ count = 0 \/ (0 <= status)%Z /\ err = SUCCESS /\ count = total).
Proof.
  intros s l1 n err count l0 R E. pose proof (i_law _ (reach_inv s R)) as L. rewrite E in L. apply lawful_split in L. destruct L as [(t & st & P & Q) _]. exists t, st. split; [exact P|].
  unfold write_result in Q. destruct (Z.ltb_spec st 0); injection Q as -> ->; [left|right]; auto.
Qed.
Print Assumptions C62_write_result.

(** The total of a write is the sum of the lengths of the elements. *)
Theorem C62_write_total : forall s lens ret s', reach careful s -> step s (XWrite lens ret) = Ret s' -> (0 <= ret)%Z ->
  exists n, tr s' = EvWrite n (list_sum lens) :: tr s.
Proof.
  intros s lens ret s' R St X. cbn [step] in St. unfold stream_write in St. destruct (negb (alive s)); [discriminate|]. destruct (Z.ltb_spec ret 0) as [Y|_]; [lia|]. injection St as <-.
  exists (nreq s). cbn. rewrite fold_add. reflexivity.
Qed.
Print Assumptions C62_write_total.

(** A request is answered at most once. *)
Definition answers (n : nat) (e : ev) : Prop := match e with EvReadDone m _ _ | EvWriteDone m _ _ => m = n | _ => False end.
Definition asks (n : nat) (e : ev) : Prop := match e with EvRead m _ | EvWrite m _ => m = n | _ => False end.
Lemma phase_origin l n : (match phase_of l with Reading m _ | Received m _ _ | Writing m _ | Transmitted m _ _ => m = n | _ => False end) ->
  exists a e b, l = a ++ e :: b /\ asks n e /\ forall e', In e' a -> ~ answers n e'.
Proof.
  induction l as [|e l IH]; intros H; [destruct H|].
  assert (G : (match phase_of l with Reading m _ | Received m _ _ | Writing m _ | Transmitted m _ _ => m = n | _ => False end) -> ~ answers n e -> exists a e0 b, e :: l = a ++ e0 :: b /\ asks n e0 /\ forall e', In e' a -> ~ answers n e').
  { intros X Y. destruct (IH X) as (a & e0 & b & -> & A & Z). exists (e :: a), e0, b. split; [reflexivity|]. split; [exact A|]. intros e' [<-|W]; [exact Y|exact (Z _ W)]. }
  destruct e; cbn [phase_of] in H; try contradiction.
  - exists [], (EvRead n0 space), l. split; [reflexivity|]. split; [exact H|]. intros e' [].
  - exists [], (EvWrite n0 total), l. split; [reflexivity|]. split; [exact H|]. intros e' [].
  - apply G; [exact H|tauto].
  - apply G; [|tauto]. destruct (phase_of l); exact H.
  - apply G; [|tauto]. destruct (phase_of l); try exact H. destruct (status =? 0)%Z; exact H.
  - apply G; [exact H|tauto].
Qed.
Theorem C62_answered_at_most_once : forall s l1 n e l0, reach careful s -> tr s = l1 ++ e :: l0 -> answers n e ->
  (exists q, In q l0 /\ asks n q) /\ (forall e', In e' l0 \/ In e' l1 -> ~ answers n e').
Proof.
  assert (B : forall s l1 n e l0, reach careful s -> tr s = l1 ++ e :: l0 -> answers n e -> (exists q, In q l0 /\ asks n q) /\ forall e', In e' l0 -> ~ answers n e').
  { intros s l1 n e l0 R E A. pose proof (i_law _ (reach_inv s R)) as L. rewrite E in L. apply lawful_split in L. destruct L as [AL L].
    assert (P : match phase_of l0 with Reading m _ | Received m _ _ | Writing m _ | Transmitted m _ _ => m = n | _ => False end).
    { destruct e; try contradiction; cbn in A; subst; cbn [allowed] in AL; [destruct AL as (sp & x & -> & _)|destruct AL as (t & st & -> & _)]; reflexivity. }
    destruct (phase_origin l0 n P) as (a & q & b & -> & Q & NA). split; [exists q; split; [apply in_or_app; right; left; reflexivity|exact Q]|].
    intros e' X Y. apply in_app_or in X. destruct X as [X|[<-|X]]; [exact (NA _ X Y)|destruct q; contradiction|].
    apply lawful_split in L. destruct L as [AQ _].
    assert (F : Forall (fun e => forall m, number e = Some m -> m < n) b) by (destruct q; try contradiction; cbn in Q; subst; apply AQ).
    rewrite Forall_forall in F. specialize (F _ X n). destruct e'; try contradiction; cbn in Y; subst; specialize (F eq_refl); lia. }
  intros s l1 n e l0 R E A. destruct (B s l1 n e l0 R E A) as [B1 B2]. split; [exact B1|]. intros e' [X|X]; [exact (B2 _ X)|]. intros Y.
  apply in_split in X. destruct X as (a & b & ->). rewrite <- app_assoc in E. cbn [app] in E. destruct (B s a n e' _ R E Y) as [_ B3]. apply (B3 e); [|exact A]. apply in_or_app. right. left. reflexivity.
Qed.
Print Assumptions C62_answered_at_most_once.

(** No request is forgotten: while a read waits the receive callback is registered, while a write waits the send callback; once
    the network stack has answered, the notification is in the queue of the event loop. *)
Theorem C62_not_forgotten : forall s, reach careful s ->
  match phase_of (tr s) with
  | Reading _ _ => recv_on s = true
  | Writing _ _ => send_on s = true
  | Received _ _ _ | Transmitted _ _ _ => pending s = 1
  | Idle | Gone => pending s = 0
  end.
Proof. intros s R. pose proof (i_st _ (reach_inv s R)) as S. unfold state_ok in S. destruct (phase_of (tr s)); tauto. Qed.
Print Assumptions C62_not_forgotten.

(** The close hook is called once, when the application closes; nothing happens afterwards. *)
Theorem C62_hook_is_last : forall s l1 l0, reach careful s -> tr s = l1 ++ EvHook :: l0 -> l1 = [] /\ hd_error l0 = Some EvClose /\ ~ In EvHook l0.
Proof.
  intros s l1 l0 R E. pose proof (i_law _ (reach_inv s R)) as L. rewrite E in L.
  assert (G : forall m, lawful (m ++ EvHook :: l0) -> m = []).
  { intros m. induction m as [|e m IH]; intros H; [reflexivity|]. cbn [app lawful] in H. destruct H as [A H]. specialize (IH H). subst m. cbn [app] in A.
    destruct e; cbn [allowed phase_of] in A; intuition congruence || (decompose [ex and] A; discriminate). }
  split; [exact (G _ L)|]. assert (L0 := L). apply lawful_split in L. destruct L as [(A & B) L]. split; [exact B|]. intros X. apply in_split in X. destruct X as (a & b & ->).
  assert (Y : EvHook :: a = []).
  { clear -L0 A. assert (H : forall m r, lawful (m ++ EvHook :: r) -> phase_of (m ++ EvHook :: r) = Gone).
    { intros m r. induction m as [|e m IH]; intros H; [reflexivity|]. cbn [app lawful] in H. destruct H as [B H]. specialize (IH H). destruct e; cbn [allowed] in B; rewrite ?IH in B; cbn [app phase_of]; rewrite ?IH; intuition congruence || (decompose [ex and] B; congruence). }
    destruct A. apply H. apply lawful_split in L0. apply L0. }
  discriminate Y.
Qed.
Print Assumptions C62_hook_is_last.

(** If every packet fits into the buffer of the read that gets it, the application receives exactly the bytes of the peer, in
    order; at most one packet waits to be handed over. *)
Definition waiting (l : list ev) : list N := match phase_of l with Received _ _ (Data bs) => bs | _ => [] end.
Definition fits (l : list ev) : Prop := match phase_of l with Received _ sp (Data bs) => length bs <= sp | _ => True end.
Lemma reach_roomy s : reach roomy s -> reach careful s.
Proof. intros R. induction R as [|s x s' R IH En [Ca _] St]; [apply reach_init|]. exact (reach_step _ _ _ _ IH En Ca St). Qed.
Lemma received_cons e l : received (e :: l) = received l ++ match e with EvArrived (Data bs) => bs | _ => [] end.
Proof. unfold received. cbn [rev]. rewrite map_app, concat_app. cbn. rewrite app_nil_r. reflexivity. Qed.
Lemma delivered_cons e l : delivered (e :: l) = delivered l ++ match e with EvReadDone _ _ d => d | _ => [] end.
Proof. unfold delivered. cbn [rev]. rewrite map_app, concat_app. cbn. rewrite app_nil_r. reflexivity. Qed.

Definition adds (x : act) (l : list ev) : Prop :=
  match x with
  | XRead sp ret => l = [EvRefused ret] \/ exists n, l = [EvRead n sp]
  | XWrite _ ret => l = [EvRefused ret] \/ exists n t, l = [EvWrite n t]
  | XClose => l = [EvHook; EvClose]
  | XArrive a => l = [EvArrived a]
  | XSent status => l = [EvSent status]
  | XDispatch => (exists n e d, l = [EvReadDone n e d]) \/ (exists n e c, l = [EvWriteDone n e c])
  | XReturn => l = []
  end.
Lemma step_adds s x s' : step s x = Ret s' -> exists l, tr s' = l ++ tr s /\ adds x l.
Proof.
  destruct x; cbn [step]; intros E1.
  - unfold stream_read in E1. destruct (negb (alive s)); [discriminate|]. destruct (ret <? 0)%Z; injection E1 as <-; cbn; [exists [EvRefused ret]|exists [EvRead (nreq s) sp]]; cbn; eauto.
  - unfold stream_write in E1. destruct (negb (alive s)); [discriminate|]. destruct (ret <? 0)%Z; injection E1 as <-; cbn; [exists [EvRefused ret]|exists [EvWrite (nreq s) (fold_left Nat.add lens 0)]]; cbn; eauto.
  - unfold close in E1. destruct (negb (alive s)); [discriminate|]. injection E1 as <-. exists [EvHook; EvClose]. cbn. auto.
  - unfold tcp_received in E1. destruct (negb (alive s)); [discriminate|]. exists [EvArrived x]. destruct x; injection E1 as <-; cbn; auto.
  - unfold tcp_sent in E1. exists [EvSent status]. destruct (status =? 0)%Z; [injection E1 as <-; cbn; auto|]. destruct (negb (alive s)); [discriminate|]. injection E1 as <-; cbn; auto.
  - unfold dispatch in E1. cbn [alive set_pending cb] in E1. destruct (negb (alive s)); [discriminate|]. destruct (cb s); [discriminate| |].
    + unfold read_callback in E1. destruct (rh (set_pending (pred (pending s)) s)) as [n|]; [|discriminate]. injection E1 as <-. eexists [_]. split; [reflexivity|]. left. eauto.
    + unfold written_callback in E1. destruct (wh (set_pending (pred (pending s)) s)) as [n|]; [|discriminate]. destruct (send_status (set_pending (pred (pending s)) s) <? 0)%Z; injection E1 as <-; eexists [_]; (split; [reflexivity|]); right; eauto.
  - injection E1 as <-. exists []. cbn. auto.
Qed.
Theorem C62_nothing_lost : forall s, reach roomy s -> received (tr s) = delivered (tr s) ++ waiting (tr s) /\ fits (tr s).
Proof.
  intros s R. induction R as [|s x s' R [IH1 IH2] En [Ca Ro] St]; [split; [reflexivity|exact I]|].
  pose proof (reach_inv _ (reach_roomy _ R)) as IN. destruct (step_inv s x IN En Ca) as (s1 & E1 & IN'). rewrite E1 in St. injection St as ->.
  assert (LW := i_law _ IN'). destruct (step_adds _ _ _ E1) as (l & E & A). rewrite E in *. unfold fits, waiting in *.
  destruct x; cbn [adds] in A; cbn [careful] in Ca.
  - rewrite Ca in *. destruct A as [-> | (n & ->)]; cbn [app phase_of]; rewrite received_cons, delivered_cons, ?Ca, IH1, !app_nil_r; auto.
  - rewrite Ca in *. destruct A as [-> | (n & t & ->)]; cbn [app phase_of]; rewrite received_cons, delivered_cons, ?Ca, IH1, !app_nil_r; auto.
  - subst l. cbn [app phase_of]. rewrite !received_cons, !delivered_cons, IH1. destruct (phase_of (tr s)); try contradiction; rewrite !app_nil_r; auto.
  - subst l. cbn [app lawful] in LW. destruct LW as [(n & sp & P) _]. cbn [app phase_of]. rewrite received_cons, delivered_cons, IH1, P. rewrite !app_nil_r. destruct x; auto. split; [reflexivity|]. exact (Ro _ _ P).
  - subst l. cbn [app lawful] in LW. destruct LW as [(n & t & P) _]. cbn [app phase_of]. rewrite received_cons, delivered_cons, IH1, P. destruct (status =? 0)%Z; rewrite !app_nil_r; auto.
  - destruct A as [(n & e & d & ->)|(n & e & c & ->)]; cbn [app lawful] in LW; destruct LW as [(a & b & P & Q) _]; cbn [app phase_of]; rewrite received_cons, delivered_cons, IH1, P; rewrite P in IH2; rewrite !app_nil_r; (split; [|exact I]).
    + f_equal. destruct b; cbn in Q; injection Q as -> ->; try reflexivity. symmetry. apply firstn_all2. exact IH2.
    + reflexivity.
  - subst l. auto.
Qed.
Print Assumptions C62_nothing_lost.

(** * Concrete runs *)
Definition enabledb (s : st) (x : act) : bool :=
  match x with
  | XRead _ _ | XWrite _ _ | XClose => true
  | XArrive (Fail e) => recv_on s && (e <? 0)%Z
  | XArrive _ => recv_on s
  | XSent _ => send_on s
  | XDispatch => Nat.eqb (depth s) 0 && negb (Nat.eqb (pending s) 0)
  | XReturn => negb (Nat.eqb (depth s) 0)
  end.
Lemma enabledb_ok s x : enabledb s x = true -> enabled s x.
Proof.
  destruct x as [| | |[]| | |]; cbn; intros H; auto.
  - apply andb_prop in H. destruct H as [H1 H2]. apply Z.ltb_lt in H2. auto.
  - apply andb_prop in H. destruct H as [H1 H2]. apply Nat.eqb_eq in H1. apply negb_true_iff in H2. apply Nat.eqb_neq in H2. auto.
  - apply negb_true_iff in H. apply Nat.eqb_neq in H. exact H.
Qed.
Definition carefulb (s : st) (x : act) : bool :=
  match x with
  | XRead _ _ | XWrite _ _ => match phase_of (tr s) with Idle => true | _ => false end
  | XClose => match phase_of (tr s) with Idle | Reading _ _ | Writing _ _ => true | _ => false end
  | _ => true
  end.
Lemma carefulb_ok s x : carefulb s x = true -> careful s x.
Proof. destruct x; cbn; auto; destruct (phase_of (tr s)); auto; discriminate. Qed.
Definition roomyb (s : st) (x : act) : bool :=
  carefulb s x && match x with XArrive (Data bs) => match phase_of (tr s) with Reading _ sp => Nat.leb (length bs) sp | _ => true end | _ => true end.
Lemma roomyb_ok s x : roomyb s x = true -> roomy s x.
Proof.
  intros H. apply andb_prop in H. destruct H as [H1 H2]. split; [apply carefulb_ok, H1|]. destruct x as [| | |[bs| |]| | |]; auto. intros n sp E. rewrite E in H2. apply Nat.leb_le in H2. exact H2.
Qed.
Fixpoint run (u : st -> act -> bool) (s : st) (l : list act) : option st :=
  match l with
  | [] => Some s
  | x :: r => if enabledb s x && u s x then match step s x with Ret s' => run u s' r | UB => None end else None
  end.
Lemma run_reach u (P : st -> act -> Prop) l : (forall c x, u c x = true -> P c x) -> forall c c', reach P c -> run u c l = Some c' -> reach P c'.
Proof.
  intros HU. induction l as [|x l IH]; intros c c' R E; cbn in E; [injection E as <-; exact R|].
  destruct (enabledb c x && u c x) eqn:B; [|discriminate]. apply andb_prop in B. destruct B as [B1 B2]. destruct (step c x) as [c1|] eqn:St; [|discriminate].
  eapply IH; [|exact E]. eapply reach_step; [exact R|apply enabledb_ok, B1|apply HU, B2|exact St].
Qed.
Definition anyone (s : st) (x : act) : Prop := True.
Definition free (s : st) (x : act) : bool := true.
Ltac at_run u l := match goal with |- exists s, reach ?P s /\ _ =>
  let E := fresh "E" in destruct (run u start l) as [?|] eqn:E; [|vm_compute in E; discriminate E]; match type of E with _ = Some ?a => exists a; split;
    [eapply run_reach; [|apply reach_init|exact E]; first [exact roomyb_ok|exact carefulb_ok|exact (fun _ _ _ => I)]|vm_compute in E; injection E as <-] end end.

(** Non-vacuity: two reads, a write from the handler of the second one, a failed write, the end of the stream, close. *)
Example conversation : exists s, reach roomy s /\
  rev (tr s) = [EvRead 0 4; EvArrived (Data [1;2;3]%N); EvReadDone 0 SUCCESS [1;2;3]%N; EvRead 1 4; EvArrived (Data [4;5]%N); EvReadDone 1 SUCCESS [4;5]%N;
    EvWrite 2 7; EvSent 0%Z; EvSent 7%Z; EvWriteDone 2 SUCCESS 7; EvWrite 3 2; EvSent (-104)%Z; EvWriteDone 3 (-104)%Z 0; EvRead 4 4; EvArrived Fin; EvReadDone 4 CIO_EOF []; EvClose; EvHook] /\
  received (tr s) = [1;2;3;4;5]%N /\ alive s = false.
Proof.
  at_run roomyb [XRead 4 0; XArrive (Data [1;2;3]%N); XDispatch; XReturn; XRead 4 0; XArrive (Data [4;5]%N); XDispatch; XWrite [3;4] 0; XSent 0; XReturn; XSent 7; XDispatch; XReturn;
    XWrite [2] 0; XSent (-104); XDispatch; XReturn; XRead 4 0; XArrive Fin; XDispatch; XClose; XReturn; XReturn].
  vm_compute. auto.
Qed.
Example larger_packet : exists s, reach careful s /\ In (EvReadDone 0 SUCCESS [1;2]%N) (tr s).
Proof. at_run carefulb [XRead 2 0; XArrive (Data [1;2;3]%N); XDispatch]. vm_compute. auto. Qed.

(** VIOLATED: a packet that is larger than the read buffer loses its end: the next read gets what the peer sent later. *)
Theorem C62_large_packet_refuted : exists s, reach careful s /\ received (tr s) = [1;2;3;4]%N /\ delivered (tr s) = [1;2;4]%N /\ pending s = 0.
Proof. at_run carefulb [XRead 2 0; XArrive (Data [1;2;3]%N); XDispatch; XReturn; XRead 2 0; XArrive (Data [4]%N); XDispatch; XReturn]. repeat split. Qed.
Print Assumptions C62_large_packet_refuted.
(** VIOLATED: a write while a read is waiting takes over the notification of the socket: data that arrives is reported to the
    write handler as the end of its transmission, before anything was sent, and the read handler is not called. *)
Theorem C62_read_and_write_refuted : exists s, reach anyone s /\ rev (tr s) = [EvRead 0 8; EvWrite 1 5; EvArrived (Data [1;2]%N); EvWriteDone 1 SUCCESS 5] /\ pending s = 0 /\ recv_on s = false.
Proof. at_run free [XRead 8 0; XWrite [5] 0; XArrive (Data [1;2]%N); XDispatch; XReturn]. repeat split. Qed.
Print Assumptions C62_read_and_write_refuted.
(** VIOLATED: and the other way round: a read during a write gets the notification of the end of the transmission, with no
    data; the write handler is never called. *)
Theorem C62_write_and_read_refuted : exists s, reach anyone s /\ rev (tr s) = [EvWrite 0 5; EvRead 1 8; EvSent 5%Z; EvReadDone 1 SUCCESS []] /\ pending s = 0 /\ send_on s = false.
Proof. at_run free [XWrite [5] 0; XRead 8 0; XSent 5; XDispatch; XReturn]. repeat split. Qed.
Print Assumptions C62_write_and_read_refuted.
(** VIOLATED: closed with a notification in the queue - which the application cannot know - the socket is used after its close
    hook. *)
Theorem C62_close_refuted : exists s, reach anyone s /\ rev (tr s) = [EvRead 0 8; EvArrived (Data [1]%N); EvClose; EvHook] /\ enabled s XDispatch /\ step s XDispatch = UB.
Proof. at_run free [XRead 8 0; XArrive (Data [1]%N); XClose; XReturn]. repeat split. discriminate. Qed.
Print Assumptions C62_close_refuted.
