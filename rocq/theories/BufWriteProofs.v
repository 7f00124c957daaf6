From Verif Require Import Base WriteBufferModel WriteBufferSpec WriteBufferProofs BufWriteModel BufWriteSpec.
Open Scope N_scope.

Section Addresses.
Variable fuel : nat.
Variable mem : N -> N.
Variables B W T : ptr.
Notation hw_flush := (hw_flush B W T).
Notation hw_loop := (hw_loop B W T).
Notation handle_write := (handle_write fuel B W T).
Notation handle_partial_writes := (handle_partial_writes fuel B W T).
Notation handle_first_write := (handle_first_write fuel B W T).
Notation w_step := (w_step fuel mem B W T).
Notation w_enabled := (w_enabled mem B W).
Notation w_run := (w_run fuel mem B W T).

Definition ebytes (e : ptr -> option (N * N)) (p : ptr) : list N :=
  match e p with Some x => entry_bytes mem x | None => [] end.
Definition cbytes (e : ptr -> option (N * N)) (l : list ptr) : list N := flat_map (ebytes e) l.

Lemma entry_length x : length (entry_bytes mem x) = N.to_nat (snd x).
Proof. unfold entry_bytes. now rewrite map_length, seq_length. Qed.
Lemma cbytes_length e l : length (cbytes e l) = N.to_nat (total e l).
Proof.
  induction l as [|p l IH]; [reflexivity|]. cbn [cbytes flat_map total]. rewrite app_length. fold (cbytes e l). rewrite IH.
  unfold ebytes. destruct (e p) as [[d n]|]; [rewrite entry_length; cbn [snd]|cbn [length]]; lia.
Qed.
Lemma cbytes_app e l k : cbytes e (l ++ k) = cbytes e l ++ cbytes e k.
Proof. apply flat_map_app. Qed.
Lemma cbytes_ext e e' l : (forall q, In q l -> e' q = e q) -> cbytes e' l = cbytes e l.
Proof.
  induction l as [|p l IH]; intros H; [reflexivity|]. cbn [cbytes flat_map]. fold (cbytes e l) (cbytes e' l).
  rewrite IH by (intros q Hq; apply H; now right). unfold ebytes. rewrite (H p) by now left. reflexivity.
Qed.
Lemma entry_skip d n k : k <= n -> entry_bytes mem (d + k, n - k) = skipn (N.to_nat k) (entry_bytes mem (d, n)).
Proof.
  intros Hk. unfold entry_bytes. cbn [fst snd]. rewrite skipn_map.
  assert (Hs : forall a b c, skipn c (seq a b) = seq (a + c) (b - c)).
  { intros a b c. revert a b. induction c as [|c IH]; intros a b; cbn [skipn]; [f_equal; lia|].
    destruct b as [|b]; cbn [seq]; [reflexivity|]. rewrite IH. f_equal; lia. }
  rewrite Hs. rewrite N2Nat.inj_sub.
  assert (Hm : forall c a b, map (fun i => mem (d + k + N.of_nat i)) (seq a b) = map (fun i => mem (d + N.of_nat i)) (seq (a + c) b) \/ c <> N.to_nat k).
  { intros c a b. destruct (Nat.eq_dec c (N.to_nat k)) as [->|]; [left|right; assumption].
    revert a. induction b as [|b IH]; intros a; [reflexivity|]. cbn [seq map]. rewrite IH. f_equal. f_equal. lia. }
  destruct (Hm (N.to_nat k) 0%nat (N.to_nat n - N.to_nat k)%nat) as [->|H]; [|congruence].
  cbn [Nat.add]. reflexivity.
Qed.

(** What the transport reads from a chain. *)
Lemma iov_walk_spec h e c l1 l2 : chain h e c (l1 ++ l2) ->
  exists v, iov_walk (length l2) h (hd c l2) = Ret v /\ iov_bytes mem v = cbytes e l2.
Proof.
  revert l1. induction l2 as [|p l2 IH]; intros l1 Hc; cbn [length iov_walk hd]; [exists []; auto|].
  pose proof Hc as (_ & _ & _ & _ & Hf). apply Forall_app in Hf as [_ Hf]. inversion Hf as [|? ? (d & n & He & Hn & A0 & A1) _]; subst.
  destruct (rd_spec h p (live_a0 _ _ _ A0)) as (k & Ek & _ & S1 & _ & S3 & S4). rewrite Ek. cbn [obind].
  rewrite (chain_nxt _ _ _ _ _ _ Hc) in S1. injection S1 as S1. rewrite <- S1.
  rewrite A0 in S3. rewrite A1 in S4. injection S3 as <-. injection S4 as <-.
  destruct (IH (l1 ++ [p])) as (v & Ev & Hv); [now rewrite <- app_assoc|]. rewrite Ev. cbn [obind].
  eexists. split; [reflexivity|]. cbn [iov_bytes flat_map cbytes]. fold (iov_bytes mem v). rewrite Hv.
  f_equal. unfold ebytes. now rewrite He.
Qed.

Lemma iov_spec h e c l : chain h e c l -> N.of_nat (length l) < 2^64 ->
  exists v, iov h c = Ret v /\ iov_bytes mem v = cbytes e l.
Proof.
  intros Hc Hl. pose proof Hc as (_ & _ & A0 & _ & _). destruct (chain_ends _ _ _ _ Hc) as (Hn & _ & L).
  unfold iov. destruct (rd_spec h c L) as (k & Ek & _ & S1 & _ & S3 & _). rewrite Ek. cbn [obind].
  rewrite Hn in S1. injection S1 as <-. rewrite A0 in S3. injection S3 as <-.
  unfold wrap. rewrite N.mod_small by exact Hl. rewrite Nat2N.id. apply (iov_walk_spec h e c [] l Hc).
Qed.

(** Appending a free element to a chain, next to a second chain. *)
Lemma queue_tail_chain h e c l p d n : chain h e c l -> ~ In p (c :: l) -> e p = Some (d, n) -> n < 2^64 ->
  a0 h p = Some d -> a1 h p = Some n ->
  exists h', wb_queue_tail h c p = Ret h' /\ chain h' e c (l ++ [p]) /\
    (forall q, ~ In q (c :: l ++ [p]) -> same_at h h' q) /\
    (forall q, q <> c -> a0 h' q = a0 h q /\ a1 h' q = a1 h q) /\ (forall q, live h' q <-> live h q).
Proof.
  intros Hc Hn He H64 A0 A1. unfold wb_queue_tail.
  destruct (queue_before_chain h e c l [] c p d n) as (h' & E & C & F); auto; rewrite ?app_nil_r; auto.
  exists h'. auto.
Qed.
Lemma queue_head_chain h e c l p d n : chain h e c l -> ~ In p (c :: l) -> e p = Some (d, n) -> n < 2^64 ->
  a0 h p = Some d -> a1 h p = Some n ->
  exists h', wb_queue_head h c p = Ret h' /\ chain h' e c (p :: l) /\
    (forall q, ~ In q (c :: p :: l) -> same_at h h' q) /\
    (forall q, q <> c -> a0 h' q = a0 h q /\ a1 h' q = a1 h q) /\ (forall q, live h' q <-> live h q).
Proof.
  intros Hc Hn He H64 A0 A1. unfold wb_queue_head.
  exact (queue_after_chain h e c [] l c p d n Hc eq_refl Hn He H64 A0 A1).
Qed.

(** The two chains of a write in progress; all addresses distinct. *)
Definition two (h : heap) (e : ptr -> option (N * N)) (P Q : list ptr) : Prop :=
  chain h e B P /\ chain h e W Q /\ disjoint (B :: P) (W :: Q).

Lemma same_at_a h h' q : same_at h h' q -> a0 h' q = a0 h q /\ a1 h' q = a1 h q.
Proof. intros (_ & _ & A & C). auto. Qed.

(** Element data of everything but heads stays. *)
Definition keeps (h h' : heap) : Prop :=
  (forall q, q <> B -> q <> W -> q <> T -> a0 h' q = a0 h q /\ a1 h' q = a1 h q) /\ (forall q, live h' q <-> live h q).
Lemma keeps_refl h : keeps h h. Proof. split; intros; tauto. Qed.
Lemma keeps_trans h1 h2 h3 : keeps h1 h2 -> keeps h2 h3 -> keeps h1 h3.
Proof.
  intros [A1 L1] [A2 L2]. split.
  - intros q H1 H2 H3. destruct (A1 q H1 H2 H3), (A2 q H1 H2 H3). split; congruence.
  - intros q. rewrite L2. apply L1.
Qed.

(** Move the dequeued element [p] to the end of [B]'s chain. *)
Lemma give_back h e P Q p d n :
  two h e P Q -> ~ In p (B :: P) -> ~ In p (W :: Q) -> e p = Some (d, n) -> n < 2^64 -> a0 h p = Some d -> a1 h p = Some n ->
  exists h', wb_queue_tail h B p = Ret h' /\ two h' e (P ++ [p]) Q /\ keeps h h' /\
    a0 h' p = Some d /\ a1 h' p = Some n /\
    (a0 h' T = a0 h T /\ a1 h' T = a1 h T \/ T = B).
Proof.
  intros (CB & CW & D) Hp1 Hp2 He Hn A0 A1.
  destruct (queue_tail_chain h e B P p d n CB Hp1 He Hn A0 A1) as (h' & E & C & F1 & F2 & F3).
  exists h'. split; [exact E|].
  assert (HpB : p <> B) by (intros ->; apply Hp1; now left).
  split; [|split; [|split; [|split]]].
  - split; [exact C|]. split.
    + apply (chain_frame h h' e e); auto. intros q Hq. apply F1. intros Hi.
      destruct Hi as [<-|Hi]; [apply (D B); [now left|exact Hq]|].
      apply in_app_or in Hi as [Hi|[<-|[]]]; [apply (D q); [now right|exact Hq]|exact (Hp2 Hq)].
    + intros q [<-|Hi] Hq; [apply (D B); [now left|exact Hq]|].
      apply in_app_or in Hi as [Hi|[<-|[]]]; [apply (D q); [now right|exact Hq]|exact (Hp2 Hq)].
  - split; [|exact F3]. intros q H1 _ _. apply F2, H1.
  - destruct (F2 p HpB). congruence.
  - destruct (F2 p HpB). congruence.
  - destruct (N.eq_dec T B) as [->|HT]; [now right|left]. apply F2, HT.
Qed.

(** Take the first element out of [W]'s chain. *)
Lemma take h e P Q : two h e P Q -> ~ In 0 Q ->
  exists h', wb_dequeue h W = Ret (h', hd 0 Q) /\ two h' e P (tl Q) /\ keeps h h' /\
    (forall q, q <> W -> a0 h' q = a0 h q /\ a1 h' q = a1 h q).
Proof.
  intros (CB & CW & D) H0. destruct (dequeue_chain h e W Q CW H0) as (h' & E & C & F1 & F2 & F3).
  exists h'. split; [exact E|]. split; [|split; [split; [intros q _ HW _; apply F2, HW|exact F3]|exact F2]].
  split; [|split; [exact C|]].
  - apply (chain_frame h h' e e); auto. intros q Hq. apply F1. intros Hi. apply (D q Hq).
    destruct Hi as [<-|Hi]; [now left|right; now apply in_tl].
  - intros q Hq Hi. apply (D q Hq). destruct Hi as [<-|Hi]; [now left|right; now apply in_tl].
Qed.

Definition dropT (R : list ptr) : list ptr := match R with p :: Q => if p =? T then Q else R | [] => [] end.

(** [R]: the dequeued element and the rest of [W]'s chain. *)
Definition rest (h : heap) (e : ptr -> option (N * N)) (P R : list ptr) : Prop :=
  two h e P (tl R) /\ ~ In 0 R /\ T <> B /\ T <> W /\ ~ In T P /\ ~ In T (tl R) /\ live h T /\
  match R with
  | [] => True
  | p :: Q => ~ In p (B :: P) /\ ~ In p (W :: Q) /\ eok h e p
  end.

Lemma rest_next h e P p Q h1 h2 :
  rest h e P (p :: Q) ->
  (exists P', (if p =? T then Ret h else wb_queue_tail h B p) = Ret h1 /\ P' = (if p =? T then P else P ++ [p]) /\
     two h1 e P' Q /\ keeps h h1 /\ (forall d n, e p = Some (d, n) -> a0 h1 p = Some d /\ a1 h1 p = Some n) /\
     (a0 h1 T = a0 h T /\ a1 h1 T = a1 h T)) ->
  wb_dequeue h1 W = Ret (h2, hd 0 Q) -> two h2 e (if p =? T then P else P ++ [p]) (tl Q) -> keeps h1 h2 ->
  (forall q, q <> W -> a0 h2 q = a0 h1 q /\ a1 h2 q = a1 h1 q) ->
  rest h2 e (if p =? T then P else P ++ [p]) Q.
Proof.
  intros (Htw & H0 & TB & TW & TP & TQ & LT & Hp1 & Hp2 & Hek) (P' & _ & -> & Htw1 & K1 & _) _ Htw2 K2 F2.
  assert (HTn : ~ In T (if p =? T then P else P ++ [p])).
  { destruct (N.eqb_spec p T) as [->|Hne]; [exact TP|]. rewrite in_app_iff. cbn. intuition congruence. }
  split; [exact Htw2|]. split; [intros Hi; apply H0; now right|]. split; [exact TB|]. split; [exact TW|].
  split; [exact HTn|]. cbn [tl] in TQ. split; [intros Hi; apply TQ; now apply in_tl|].
  split; [apply K2, K1, LT|].
  destruct Q as [|y Q]; [exact I|].
  pose proof Htw1 as (_ & CW1 & D1). pose proof CW1 as (_ & ND & _ & _ & Fo).
  split; [|split].
  - intros Hi. apply (D1 y); [exact Hi|]. right. now left.
  - intros [Hi|Hi].
    + inversion ND as [|? ? Hn1 Hn2]. apply Hn1. rewrite Hi. now left.
    + inversion ND as [|? ? Hn1 Hn2]. inversion Hn2. auto.
  - inversion Fo as [|? ? (d & n & E1 & E2 & E3 & E4) _]; subst. exists d, n.
    assert (HyW : y <> W). { intros ->. inversion ND as [|? ? Hn1 Hn2]. apply Hn1. now left. }
    destruct (F2 y HyW). repeat split; auto; congruence.
Qed.

Lemma move_one h e P p Q : rest h e P (p :: Q) ->
  exists h1 P', (if p =? T then Ret h else wb_queue_tail h B p) = Ret h1 /\ P' = (if p =? T then P else P ++ [p]) /\
     two h1 e P' Q /\ keeps h h1 /\ (forall d n, e p = Some (d, n) -> a0 h1 p = Some d /\ a1 h1 p = Some n) /\
     (a0 h1 T = a0 h T /\ a1 h1 T = a1 h T).
Proof.
  intros (Htw & H0 & TB & TW & TP & TQ & LT & Hp1 & Hp2 & (d & n & E1 & E2 & E3 & E4)). cbn [tl] in *.
  destruct (N.eqb_spec p T) as [->|Hne].
  - exists h, P. split; [reflexivity|]. split; [reflexivity|]. split; [exact Htw|]. split; [apply keeps_refl|].
    split; [|auto]. intros d' n' H. rewrite E1 in H. injection H as <- <-. auto.
  - destruct (give_back h e P Q p d n Htw Hp1 Hp2 E1 E2 E3 E4) as (h1 & Ew & Htw1 & K1 & G1 & G2 & G3).
    exists h1, (P ++ [p]). split; [exact Ew|]. split; [reflexivity|]. split; [exact Htw1|]. split; [exact K1|].
    split; [intros d' n' H; rewrite E1 in H; injection H as <- <-; auto|]. destruct G3 as [G3|G3]; [exact G3|congruence].
Qed.

Lemma hw_flush_spec f : forall h e P R, rest h e P R -> (length R < f)%nat ->
  exists h', hw_flush f h (hd 0 R) = Ret h' /\ two h' e (P ++ dropT R) [] /\ keeps h h'.
Proof.
  induction f as [|f IH]; intros h e P R HR Hf; [lia|]. cbn [BufWriteModel.hw_flush].
  destruct R as [|p Q]; cbn [hd dropT].
  - exists h. cbn [N.eqb]. split; [reflexivity|]. rewrite app_nil_r. split; [apply HR|apply keeps_refl].
  - pose proof HR as (_ & H0 & _). rewrite (eqb_f p 0) by (intros ->; apply H0; now left).
    destruct (move_one h e P p Q HR) as (h1 & P' & E1 & EP & Htw1 & K1 & G1 & G2). rewrite E1. cbn [obind].
    assert (HQ0 : ~ In 0 Q) by (intros Hi; apply H0; now right).
    destruct (take h1 e P' Q Htw1 HQ0) as (h2 & E2 & Htw2 & K2 & F2). rewrite E2. cbn [obind].
    assert (HR2 : rest h2 e P' Q).
    { rewrite EP in *. apply (rest_next h e P p Q h1 h2 HR); auto. exists P'. rewrite EP. auto 10. }
    destruct (IH h2 e P' Q HR2) as (h3 & E3 & Htw3 & K3); [cbn [length] in Hf; lia|].
    exists h3. split; [exact E3|]. split; [|eapply keeps_trans; [exact K1|eapply keeps_trans; eassumption]].
    assert (HdQ : dropT Q = Q).
    { destruct HR as (_ & _ & _ & _ & _ & TQ & _). cbn [tl] in TQ. destruct Q as [|y Q]; [reflexivity|]. cbn [dropT].
      rewrite (eqb_f y T); [reflexivity|]. intros ->. apply TQ. now left. }
    rewrite HdQ in Htw3. rewrite EP in Htw3. destruct (p =? T); [exact Htw3|]. rewrite <- app_assoc in Htw3. exact Htw3.
Qed.

Definition setT (e : ptr -> option (N * N)) (d n : N) : ptr -> option (N * N) :=
  fun q => if q =? T then Some (d, n) else e q.

Lemma two_setT h h' e P Q d n : two h e P Q -> (forall q, q <> T -> same_at h h' q) ->
  ~ In T (B :: P) -> ~ In T (W :: Q) -> two h' (setT e d n) P Q.
Proof.
  intros (CB & CW & D) Hs HB HW. split; [|split; [|exact D]].
  - apply (chain_frame h h' e); auto.
    + intros q Hq. apply Hs. intros ->. exact (HB Hq).
    + intros q Hq. unfold setT. rewrite (eqb_f q T); [reflexivity|]. intros ->. apply HB. now right.
  - apply (chain_frame h h' e); auto.
    + intros q Hq. apply Hs. intros ->. exact (HW Hq).
    + intros q Hq. unfold setT. rewrite (eqb_f q T); [reflexivity|]. intros ->. apply HW. now right.
Qed.

(** Put the temporary element in front of [W]'s chain. *)
Lemma put_temp h e P Q d n : two h e P Q -> live h T -> ~ In T (B :: P) -> ~ In T (W :: Q) -> n < 2^64 ->
  exists h1 h2, wb_element_init h T d n = Ret h1 /\ wb_queue_head h1 W T = Ret h2 /\
    two h2 (setT e d n) P (T :: Q) /\ keeps h h2 /\ (forall q, q <> T -> same_at h h1 q) /\
    (forall q, ~ In q (W :: T :: Q) -> same_at h h2 q).
Proof.
  intros Htw LT HB HW Hn.
  destruct (wb_element_init_spec h T d n LT) as (h1 & E1 & N1 & P1 & A1 & A2 & L1).
  assert (Hs : forall q, q <> T -> same_at h h1 q).
  { intros q Hq. unfold same_at. rewrite N1, P1, A1, A2, (eqb_f q T Hq). auto. }
  pose proof (two_setT h h1 e P Q d n Htw Hs HB HW) as (CB & CW & D).
  assert (Ha0 : a0 h1 T = Some d) by (rewrite A1, N.eqb_refl; reflexivity).
  assert (Ha1 : a1 h1 T = Some n) by (rewrite A2, N.eqb_refl; reflexivity).
  assert (HeT : setT e d n T = Some (d, n)) by (unfold setT; now rewrite N.eqb_refl).
  destruct (queue_head_chain h1 (setT e d n) W Q T d n CW HW HeT Hn Ha0 Ha1) as (h2 & E2 & C2 & F1 & F2 & F3).
  exists h1, h2. split; [exact E1|]. split; [exact E2|]. split; [|split; [|split; [exact Hs|]]].
  - split; [|split; [exact C2|]].
    + apply (chain_frame h1 h2 (setT e d n) (setT e d n)); auto. intros q Hq. apply F1.
      intros [<-|[<-|Hi]]; [apply (D W Hq); now left|exact (HB Hq)|apply (D q Hq); now right].
    + intros q Hq [<-|[<-|Hi]]; [apply (D W Hq); now left|exact (HB Hq)|apply (D q Hq); now right].
  - split; [|intros q; rewrite F3; apply L1]. intros q _ H1 H2. destruct (F2 q H1). rewrite A1, A2, (eqb_f q T H2) in *. auto.
  - intros q Hq. destruct (F1 q Hq) as (X1 & X2 & X3 & X4). destruct (Hs q) as (Y1 & Y2 & Y3 & Y4).
    { intros ->. apply Hq. right. now left. }
    unfold same_at. repeat split; congruence.
Qed.

Lemma wsub_le a b : b <= a -> a < 2^64 -> wsub a b = a - b.
Proof. intros H1 H2. unfold wsub, wrap. replace (a + 2^64 - b) with ((a - b) + 1 * 2^64) by lia. rewrite N.mod_add by lia. apply N.mod_small. lia. Qed.

(** Outcome of the writing loop. *)
Definition loop_result (e : ptr -> option (N * N)) (P R : list ptr) (n : N) (h' : heap) : Prop :=
  (n = total e R /\ two h' e (P ++ dropT R) []) \/
  (n < total e R /\ exists A S d k, dropT R = A ++ S /\ 0 < k /\ k < 2^64 /\ ~ In T A /\ ~ In T S /\
     two h' (setT e d k) (P ++ A) (T :: S) /\
     cbytes (setT e d k) (T :: S) = skipn (N.to_nat n) (cbytes e R)).

Lemma hw_loop_spec f : forall h e P R n, rest h e P R -> (length R < f)%nat -> n <= total e R -> n < 2^64 ->
  exists h', hw_loop f h (hd 0 R) n = Ret h' /\ loop_result e P R n h' /\ keeps h h'.
Proof.
  induction f as [|f IH]; intros h e P R n HR Hf Hn H64; [lia|]. cbn [BufWriteModel.hw_loop].
  destruct R as [|p Q]; cbn [hd].
  - exists h. cbn [N.eqb]. split; [reflexivity|]. split; [|apply keeps_refl]. left. cbn [total] in *. split; [lia|].
    cbn [dropT]. rewrite app_nil_r. apply HR.
  - pose proof HR as (Htw & H0 & TB & TW & TP & TQ & LT & Hp1 & Hp2 & (dp & np & E1 & E2 & E3 & E4)). cbn [tl] in *.
    rewrite (eqb_f p 0) by (intros ->; apply H0; now left).
    destruct (rd_w1 h p np E4) as (c & Ec & Hc). rewrite Ec. cbn [obind]. rewrite Hc.
    destruct (move_one h e P p Q HR) as (h1 & P' & Em & EP & Htw1 & K1 & G1 & G2).
    destruct (G1 dp np E1) as (Gp0 & Gp1).
    assert (HTP' : ~ In T P').
    { rewrite EP. destruct (N.eqb_spec p T) as [->|Hne]; [exact TP|]. rewrite in_app_iff. cbn. intuition congruence. }
    destruct (N.ltb_spec n np) as [Hlt|Hge]; rewrite Em; cbn [obind].
    + (* stops inside p *)
      destruct (rd_spec h1 p (live_a0 _ _ _ Gp0)) as (c2 & Ec2 & _ & _ & _ & S3 & S4). rewrite Ec2. cbn [obind].
      rewrite Gp0 in S3. rewrite Gp1 in S4. injection S3 as <-. injection S4 as <-.
      rewrite wsub_le by lia.
      destruct (put_temp h1 e P' Q (dp + n) (np - n) Htw1) as (h2 & h3 & X1 & X2 & X3 & X4 & X5 & _).
      { apply K1, LT. } { intros [Hq|Hi]; [congruence|exact (HTP' Hi)]. } { intros [Hq|Hi]; [congruence|exact (TQ Hi)]. } { lia. }
      rewrite X1. cbn [obind]. exists h3. split; [exact X2|]. split; [|eapply keeps_trans; eassumption].
      right. cbn [total]. rewrite E1. split; [lia|].
      exists (if p =? T then [] else [p]), Q, (dp + n), (np - n).
      assert (Hdrop : dropT (p :: Q) = (if p =? T then [] else [p]) ++ Q) by (cbn [dropT]; destruct (p =? T); reflexivity).
      split; [exact Hdrop|]. split; [lia|]. split; [lia|].
      split; [destruct (N.eqb_spec p T); [intros []|intros [Hq|[]]; congruence]|]. split; [exact TQ|].
      split; [rewrite EP in X3; destruct (p =? T); [rewrite app_nil_r|]; exact X3|].
      change (T :: Q) with ([T] ++ Q). change (p :: Q) with ([p] ++ Q). rewrite !cbytes_app.
      assert (HQ : cbytes (setT e (dp + n) (np - n)) Q = cbytes e Q).
      { apply cbytes_ext. intros q Hq. unfold setT. rewrite (eqb_f q T); [reflexivity|]. intros ->. exact (TQ Hq). }
      rewrite HQ. unfold cbytes at 1 3. cbn [flat_map]. rewrite !app_nil_r. unfold ebytes. rewrite E1.
      unfold setT at 1. rewrite N.eqb_refl.
      rewrite skipn_app, entry_length. cbn [snd].
      replace (N.to_nat n - N.to_nat np)%nat with 0%nat by lia. cbn [skipn]. f_equal. apply entry_skip. lia.
    + (* p completely written *)
      assert (HQ0 : ~ In 0 Q) by (intros Hi; apply H0; now right).
      destruct (take h1 e P' Q Htw1 HQ0) as (h2 & Et & Htw2 & K2 & F2). rewrite Et. cbn [obind].
      assert (HR2 : rest h2 e P' Q).
      { rewrite EP in *. apply (rest_next h e P p Q h1 h2 HR); auto. exists P'. rewrite EP. auto 10. }
      rewrite wsub_le by lia. cbn [total] in Hn. rewrite E1 in Hn.
      destruct (IH h2 e P' Q (n - np) HR2) as (h3 & El & Hres & K3); [cbn [length] in Hf; lia|lia|lia|].
      exists h3. split; [exact El|]. split; [|eapply keeps_trans; [exact K1|eapply keeps_trans; eassumption]].
      assert (HdQ : dropT Q = Q).
      { destruct Q as [|y Q]; [reflexivity|]. cbn [dropT]. rewrite (eqb_f y T); [reflexivity|]. intros ->. apply TQ. now left. }
      unfold loop_result in *. rewrite HdQ in Hres. cbn [total dropT]. rewrite E1.
      destruct Hres as [(Hq & Htw3)|(Hq & A & S & d & k & HA & Hk0 & Hk & TA & TS & Htw3 & Hb)].
      * left. split; [lia|]. rewrite EP in Htw3. destruct (p =? T); [exact Htw3|]. rewrite <- app_assoc in Htw3. exact Htw3.
      * right. split; [lia|]. exists (if p =? T then A else p :: A), S, d, k.
        split; [destruct (p =? T); rewrite HA; reflexivity|]. split; [exact Hk0|]. split; [exact Hk|].
        split; [destruct (N.eqb_spec p T); [exact TA|intros [Hq'|Hi]; [congruence|exact (TA Hi)]]|]. split; [exact TS|].
        split; [rewrite EP in Htw3; destruct (p =? T); [exact Htw3|rewrite <- app_assoc in Htw3; exact Htw3]|].
        rewrite Hb. change (p :: Q) with ([p] ++ Q). rewrite cbytes_app, skipn_app, cbytes_length. cbn [total]. rewrite E1, N.add_0_r.
        rewrite (skipn_all2 (cbytes e [p])) by (rewrite cbytes_length; cbn [total]; rewrite E1; lia).
        cbn [app]. f_equal. lia.
Qed.

(** The search loop of the first partial write. *)
Lemma hp_loop_spec f : forall h e l1 p l2 n, chain h e B (l1 ++ p :: l2) -> n < total e (p :: l2) -> n < 2^64 ->
  (length l2 < f)%nat ->
  exists a q b k, p :: l2 = a ++ q :: b /\ hp_loop f h p n = Ret (q, k) /\ n = total e a + k /\
    exists d m, e q = Some (d, m) /\ k < m.
Proof.
  induction f as [|f IH]; intros h e l1 p l2 n Hc Hn H64 Hf; [lia|]. cbn [hp_loop].
  pose proof Hc as (_ & _ & _ & _ & Fo). apply Forall_app in Fo as [_ Fo]. inversion Fo as [|? ? (d & m & E1 & E2 & E3 & E4) Fo']; subst.
  destruct (rd_spec h p (live_a0 _ _ _ E3)) as (c & Ec & _ & S1 & _ & _ & S4). rewrite Ec. cbn [obind].
  rewrite E4 in S4. injection S4 as <-. rewrite (chain_nxt _ _ _ _ _ _ Hc) in S1. injection S1 as <-.
  cbn [total] in Hn. rewrite E1 in Hn. destruct (N.ltb_spec n m) as [Hlt|Hge].
  - exists [], p, l2, n. split; [reflexivity|]. split; [reflexivity|]. split; [cbn [total]; lia|]. eauto.
  - destruct l2 as [|y l2]; [cbn [total] in Hn; lia|]. cbn [hd]. rewrite wsub_le by lia.
    destruct (IH h e (l1 ++ [p]) y l2 (n - m)) as (a & q & b & k & A1 & A2 & A3 & A4).
    { rewrite <- app_assoc. exact Hc. } { lia. } { lia. } { cbn [length] in Hf. lia. }
    exists (p :: a), q, b, k. split; [cbn [app]; now rewrite A1|]. split; [exact A2|]. split; [|exact A4].
    cbn [total]. rewrite E1. lia.
Qed.

Lemma head_init_chain h e l : chain h e B l -> live h W -> ~ In W (B :: l) ->
  exists h1, wb_head_init h W = Ret h1 /\ two h1 e l [] /\ keeps h h1 /\ (forall q, q <> W -> same_at h h1 q).
Proof.
  intros Hc LW HW. destruct (wb_head_init_spec h W LW) as (h1 & E & N1 & P1 & A1 & A2 & L1).
  assert (Hs : forall q, q <> W -> same_at h h1 q).
  { intros q Hq. unfold same_at. rewrite N1, P1, A1, A2, (eqb_f q W Hq). auto. }
  exists h1. split; [exact E|]. split; [|split; [|exact Hs]].
  - split; [|split].
    + apply (chain_frame h h1 e e); auto. intros q Hq. apply Hs. intros ->. exact (HW Hq).
    + split; [|split; [|split; [|split]]].
      * cbn [app path]. split; [|exact I]. apply link_iff. rewrite N1, P1, !N.eqb_refl. auto.
      * constructor; [intros []|constructor].
      * rewrite A1, N.eqb_refl. reflexivity.
      * rewrite A2, N.eqb_refl. reflexivity.
      * constructor.
    + intros q Hq [<-|[]]. exact (HW Hq).
  - split; [|exact L1]. intros q _ Hq _. destruct (Hs q Hq) as (_ & _ & X & Y). auto.
Qed.

(** The situation while a later write_some call is in progress. *)
Definition later (e : ptr -> option (N * N)) (l : list ptr) (expect : list N) (s : wst) : Prop :=
  exists P S d k, P ++ S = l /\ 0 < k /\ k < 2^64 /\ two (wh s) (setT e d k) P (T :: S) /\
    accepted s ++ cbytes (setT e d k) (T :: S) = expect.

Lemma handle_partial_spec h e l n : chain h e B l -> live h W -> live h T -> T <> W -> ~ In W (B :: l) -> ~ In T (B :: l) ->
  n < total e l -> total e l < 2^64 -> (length l + 2 < fuel)%nat ->
  exists h' a q b P S d k, handle_partial_writes h n = Ret (h', WLater) /\ l = a ++ q :: b /\
    total e a <= n < total e (a ++ [q]) /\
    P ++ S = l /\ 0 < k /\ k < 2^64 /\ two h' (setT e d k) P (T :: S) /\
    cbytes (setT e d k) (T :: S) = skipn (N.to_nat n) (cbytes e l) ++ match b with [] => cbytes e l | _ => [] end.
Proof.
  intros Hc LW LT HTW HW HT Hn H64 Hf. unfold BufWriteModel.handle_partial_writes.
  destruct (head_init_chain h e l Hc LW HW) as (h1 & E1 & Htw1 & K1 & S1). rewrite E1. cbn [obind].
  destruct l as [|x l]; [cbn [total] in Hn; lia|].
  pose proof Htw1 as (CB1 & _). destruct (chain_ends _ _ _ _ CB1) as (Bn & _ & _).
  destruct (rd_nx _ _ _ Bn) as (c0 & Ec0 & Hc0). rewrite Ec0. cbn [obind]. rewrite Hc0. cbn [hd].
  destruct (hp_loop_spec fuel h1 e [] x l n CB1 Hn) as (a & q & b & k & Hl & Eh & Hk & d & m & He & Hkm);
    [lia|cbn [length] in Hf; lia|]. rewrite Eh. cbn [obind]. rewrite Hl in *.
  assert (Heq : eok h1 e q).
  { destruct CB1 as (_ & _ & _ & _ & Fo). rewrite Forall_forall in Fo. apply Fo. apply in_or_app. right. now left. }
  destruct Heq as (d' & m' & He' & Hm' & A0 & A1). rewrite He in He'. injection He' as <- <-.
  destruct (rd_spec h1 q (live_a0 _ _ _ A0)) as (c1 & Ec1 & _ & _ & _ & X3 & X4). rewrite Ec1. cbn [obind].
  rewrite A0 in X3. rewrite A1 in X4. injection X3 as <-. injection X4 as <-. rewrite wsub_le by lia.
  assert (HTW' : ~ In T [W]) by (intros [Hq|[]]; congruence).
  destruct (put_temp h1 e (a ++ q :: b) [] (d + k) (m - k) Htw1) as (h2 & h3 & E2 & E3 & Htw3 & K3 & _ & _);
    [apply K1, LT|exact HT|exact HTW'|lia|]. rewrite E2. cbn [obind]. rewrite E3. cbn [obind].
  pose proof Htw3 as (CB3 & CW3 & D3).
  destruct (rd_nx _ _ _ (chain_nxt _ _ _ _ _ _ CB3)) as (c2 & Ec2 & Hc2). rewrite Ec2. cbn [obind]. rewrite Hc2.
  assert (Htot : total e a <= n < total e (a ++ [q])).
  { rewrite total_app. cbn [total]. rewrite He. lia. }
  assert (HTl : forall y, In y (a ++ q :: b) -> setT e (d + k) (m - k) y = e y).
  { intros y Hy. unfold setT. rewrite (eqb_f y T); [reflexivity|]. intros ->. apply HT. now right. }
  assert (Hbytes : ebytes (setT e (d + k) (m - k)) T ++ cbytes e b = skipn (N.to_nat n) (cbytes e (a ++ q :: b))).
  { change (q :: b) with ([q] ++ b). rewrite !cbytes_app, skipn_app, (skipn_all2 (cbytes e a)) by (rewrite cbytes_length; lia).
    cbn [app]. rewrite skipn_app, !cbytes_length. cbn [total]. rewrite He.
    replace (N.to_nat n - N.to_nat (total e a) - N.to_nat (m + 0))%nat with 0%nat by lia. cbn [skipn]. f_equal.
    unfold cbytes. cbn [flat_map]. rewrite app_nil_r. unfold ebytes. rewrite He. unfold setT. rewrite N.eqb_refl.
    replace (N.to_nat n - N.to_nat (total e a))%nat with (N.to_nat k) by lia. apply entry_skip. lia. }
  destruct b as [|y b]; cbn [hd].
  - destruct (split_chain fuel h3 (setT e (d + k) (m - k)) W B B [] x l [T]) as (h4 & E4 & CW4 & CB4 & _).
    { cbn [app]. rewrite Hl. exact CB3. } { exact CW3. } { cbn [app]. rewrite Hl. exact D3. } { right. auto. }
    { rewrite <- Hl in Hf. cbn [length] in Hf. lia. }
    rewrite E4. cbn [obind]. exists h4, a, q, [], [], (x :: l), (d + k), (m - k).
    repeat match goal with |- _ /\ _ => split end; auto; try lia.
    + split; [exact CB4|]. split; [exact CW4|]. intros z [<-|[]] Hz.
      destruct Hz as [Hz|[Hz|Hz]]; [apply (D3 B); [now left|left; exact Hz]|apply (D3 B); [now left|right; left; exact Hz]|].
      destruct CB3 as (_ & ND & _). inversion ND as [|? ? Hni _]. apply Hni. rewrite <- Hl. exact Hz.
    + rewrite Hl. cbn [cbytes flat_map]. fold (cbytes (setT e (d + k) (m - k)) (a ++ [q])).
      rewrite (cbytes_ext e _ (a ++ [q]) HTl). rewrite <- Hbytes. cbn [cbytes flat_map]. now rewrite app_nil_r.
  - destruct (split_chain fuel h3 (setT e (d + k) (m - k)) W B y (a ++ [q]) y b [T]) as (h4 & E4 & CW4 & CB4 & _).
    { rewrite <- app_assoc. exact CB3. } { exact CW3. } { rewrite <- app_assoc. exact D3. } { now left. }
    { rewrite app_length in Hf. cbn [length] in Hf. lia. }
    rewrite E4. cbn [obind]. exists h4, a, q, (y :: b), (a ++ [q]), (y :: b), (d + k), (m - k).
    repeat match goal with |- _ /\ _ => split end; auto; try lia.
    + rewrite <- app_assoc. reflexivity.
    + split; [exact CB4|]. split; [exact CW4|].
      destruct CB3 as (_ & ND & _).
      assert (ND2 : NoDup ((B :: a ++ [q]) ++ y :: b)) by (cbn [app]; rewrite <- app_assoc; exact ND).
      assert (Hin : forall z, In z (B :: a ++ [q]) -> In z (B :: a ++ q :: y :: b)).
      { intros z Hz. change (B :: a ++ q :: y :: b) with ((B :: a) ++ [q] ++ y :: b). rewrite app_assoc. apply in_or_app. now left. }
      intros z Hz [Hq|[Hq|Hi]].
      * apply (D3 z (Hin z Hz)). now left.
      * apply (D3 z (Hin z Hz)). right. now left.
      * clear -ND2 Hz Hi. revert ND2 Hz. generalize (B :: a ++ [q]). intros u. induction u as [|w u IH]; [intros _ []|].
        cbn [app]. intros ND [<-|Hz]; inversion ND as [|? ? Hni ND']; subst; [apply Hni; apply in_or_app; now right|auto].
    + cbn [cbytes flat_map]. fold (cbytes (setT e (d + k) (m - k)) b). fold (cbytes (setT e (d + k) (m - k)) (y :: b)).
      change (ebytes (setT e (d + k) (m - k)) y ++ cbytes (setT e (d + k) (m - k)) b) with (cbytes (setT e (d + k) (m - k)) (y :: b)).
      rewrite (cbytes_ext e _ (y :: b)); [rewrite app_nil_r; exact Hbytes|].
      intros z Hz. apply HTl. apply in_or_app. right. now right.
Qed.

(** Reaction of a later write. *)
Lemma setT_setT e d k d' k' q : setT (setT e d k) d' k' q = setT e d' k' q.
Proof. unfold setT. destruct (q =? T); reflexivity. Qed.
Lemma two_ext h e e' P Q : (forall q, In q (P ++ Q) -> e' q = e q) -> two h e P Q -> two h e' P Q.
Proof.
  intros He (CB & CW & D). split; [|split; [|exact D]].
  - apply (chain_elems_ext h e); [|exact CB]. intros q Hq. apply He, in_or_app. now left.
  - apply (chain_elems_ext h e); [|exact CW]. intros q Hq. apply He, in_or_app. now right.
Qed.

Lemma handle_write_spec e l P S d k h err n :
  two h (setT e d k) P (T :: S) -> P ++ S = l -> ~ In 0 l -> T <> 0 -> T <> B -> T <> W -> ~ In T l -> (length l + 2 < fuel)%nat ->
  n < 2^64 -> (err = W_SUCCESS -> n <= total (setT e d k) (T :: S)) ->
  exists h' p, handle_write h err n = Ret (h', p) /\
    ((p = WReported err /\ two h' e l [] /\ (err = W_SUCCESS -> n = total (setT e d k) (T :: S))) \/
     (p = WLater /\ err = W_SUCCESS /\ exists P' S' d' k', P' ++ S' = l /\ 0 < k' /\ k' < 2^64 /\
        two h' (setT e d' k') P' (T :: S') /\
        cbytes (setT e d' k') (T :: S') = skipn (N.to_nat n) (cbytes (setT e d k) (T :: S)))).
Proof.
  intros Htw HPS H0 T0 TB TW Tl Hf H64 Hn.
  assert (TP : ~ In T P) by (intros Hi; apply Tl; rewrite <- HPS; apply in_or_app; now left).
  assert (TS : ~ In T S) by (intros Hi; apply Tl; rewrite <- HPS; apply in_or_app; now right).
  assert (HS0 : ~ In 0 (T :: S)).
  { intros [Hq|Hi]; [congruence|]. apply H0. rewrite <- HPS. apply in_or_app. now right. }
  destruct (take h (setT e d k) P (T :: S) Htw HS0) as (h1 & Ed & Htw1 & K1 & F1). cbn [hd tl] in *.
  assert (HR : rest h1 (setT e d k) P (T :: S)).
  { pose proof Htw as (CB & CW & D). pose proof CW as (_ & ND & _ & _ & Fo). inversion Fo as [|? ? (d1 & k1 & X1 & X2 & X3 & X4) _]; subst.
    split; [exact Htw1|]. split; [exact HS0|]. split; [exact TB|]. split; [exact TW|]. split; [exact TP|]. split; [exact TS|].
    destruct (F1 T TW) as [Y1 Y2].
    split; [apply (live_a0 _ _ d1); congruence|]. split; [|split].
    - intros [Hq|Hi]; [congruence|exact (TP Hi)].
    - intros [Hq|Hi]; [congruence|exact (TS Hi)].
    - exists d1, k1. repeat split; auto; congruence. }
  assert (Hlen : (length (T :: S) < fuel)%nat).
  { rewrite <- HPS in Hf. rewrite app_length in Hf. cbn [length]. lia. }
  assert (Hdrop : dropT (T :: S) = S) by (cbn [dropT]; now rewrite N.eqb_refl).
  assert (Hel : forall q, In q (l ++ []) -> e q = setT e d k q).
  { intros q Hq. rewrite app_nil_r in Hq. unfold setT. rewrite (eqb_f q T); [reflexivity|]. intros ->. exact (Tl Hq). }
  unfold BufWriteModel.handle_write. destruct (Z.eqb_spec err W_SUCCESS) as [He|He]; cbn [negb]; rewrite Ed; cbn [obind].
  - destruct (hw_loop_spec fuel h1 (setT e d k) P (T :: S) n HR Hlen (Hn He) H64) as (h2 & El & Hres & K2). cbn [hd] in El.
    rewrite El. cbn [obind]. unfold wb_empty.
    destruct Hres as [(Hq & Htw2)|(Hlt & A & S' & d' & k' & HA & Hk0 & Hk & TA & TS' & Htw2 & Hb)].
    + rewrite Hdrop, HPS in Htw2. destruct (chain_ends _ _ _ _ (proj1 (proj2 Htw2))) as (Wn & _ & _).
      destruct (rd_nx _ _ _ Wn) as (c & Ec & Hc). rewrite Ec. cbn [obind]. rewrite Hc. cbn [hd]. rewrite N.eqb_refl.
      exists h2, (WReported W_SUCCESS). split; [reflexivity|]. left. split; [congruence|]. split; [|auto].
      apply (two_ext h2 (setT e d k)); auto.
    + destruct (chain_ends _ _ _ _ (proj1 (proj2 Htw2))) as (Wn & _ & _).
      destruct (rd_nx _ _ _ Wn) as (c & Ec & Hc). rewrite Ec. cbn [obind]. rewrite Hc. cbn [hd]. rewrite (eqb_f T W TW).
      exists h2, WLater. split; [reflexivity|]. right. split; [reflexivity|]. split; [exact He|].
      exists (P ++ A), S', d', k'. rewrite Hdrop in HA. split; [rewrite <- app_assoc, <- HA; exact HPS|].
      split; [exact Hk0|]. split; [exact Hk|]. split.
      * apply (two_ext h2 (setT (setT e d k) d' k')); [|exact Htw2]. intros q _. symmetry. apply setT_setT.
      * rewrite <- Hb. symmetry. apply cbytes_ext. intros q _. apply setT_setT.
  - destruct (hw_flush_spec fuel h1 (setT e d k) P (T :: S) HR Hlen) as (h2 & El & Htw2 & K2). cbn [hd] in El.
    rewrite El. cbn [obind]. exists h2, (WReported err). split; [reflexivity|]. left. split; [reflexivity|]. split; [|congruence].
    rewrite Hdrop, HPS in Htw2. apply (two_ext h2 (setT e d k)); auto.
Qed.

(** * Runs *)
Section Runs.
Variable h0 : heap.
Variable l : list ptr.
Let e0 := stored_elem h0.
Hypothesis Hpre : write_pre fuel h0 B W T l.

Definition dupb (n : N) : bool := (Nat.leb (length (cbytes e0 (removelast l))) (N.to_nat n) && (N.to_nat n <? length (cbytes e0 l))%nat)%bool.
Definition expect (n : N) : list N := cbytes e0 l ++ if dupb n then cbytes e0 l else [].

Definition WI (es : list tev) (s : wst) : Prop :=
  match phase s with
  | WFirst => es = [] /\ s = w_start h0
  | WRejected err => es = [TSync err] /\ wh s = h0 /\ accepted s = [] /\ err <> W_SUCCESS
  | WLater => exists n es', es = TDone W_SUCCESS n :: es' /\ later e0 l (expect n) s
  | WReported err =>
      (wh s = h0 /\ exists n, es = [TDone err n] /\
         (err = W_SUCCESS -> accepted s = cbytes e0 l /\ dupb n = false) /\ (err <> W_SUCCESS -> accepted s = [])) \/
      (exists n es' x, es = TDone W_SUCCESS n :: es' ++ [x] /\
         (err = W_SUCCESS -> accepted s = expect n /\ forall y, x <> TSync y) /\
         (err <> W_SUCCESS -> exists pending, pending <> [] /\ accepted s ++ pending = expect n) /\
         ((forall y, x <> TSync y) -> two (wh s) e0 l []))
  end.

Lemma chain0 : chain h0 e0 B l. Proof. apply chain_at_iff, Hpre. Qed.

Lemma later_pending n s : later e0 l (expect n) s -> exists pending, pending <> [] /\ accepted s ++ pending = expect n.
Proof.
  intros (P & S & d & k & _ & Hk & _ & _ & Ha). exists (cbytes (setT e0 d k) (T :: S)). split; [|exact Ha].
  intros Hnil. apply (f_equal (@length N)) in Hnil. rewrite cbytes_length in Hnil. cbn [total length] in Hnil.
  unfold setT at 1 in Hnil. rewrite N.eqb_refl in Hnil. lia.
Qed.

Lemma dup_last a q b n : l = a ++ q :: b -> total e0 a <= n < total e0 (a ++ [q]) ->
  dupb n = match b with [] => true | _ => false end.
Proof.
  intros Hl Hn. unfold dupb. rewrite !cbytes_length. rewrite Hl. destruct b as [|y b].
  - rewrite removelast_last. apply andb_true_iff. rewrite Nat.leb_le, Nat.ltb_lt. lia.
  - apply andb_false_iff. left. apply Nat.leb_gt.
    replace (a ++ q :: y :: b) with ((a ++ [q]) ++ y :: b) by (rewrite <- app_assoc; reflexivity).
    rewrite removelast_app by discriminate. rewrite total_app. lia.
Qed.

Lemma run_step es s x : WI es s -> w_enabled s x -> exists s', w_step s x = Ret s' /\ WI (es ++ [x]) s'.
Proof.
  intros HI (Hph & Hx). pose proof Hpre as (_ & H0 & H64 & LW & LT & T0 & WT & HW & HT & Hf & Hl64).
  assert (TB : T <> B) by (intros ->; apply HT; now left).
  assert (Tl : ~ In T l) by (intros Hi; apply HT; now right).
  unfold BufWriteModel.w_step, WI in *. destruct Hph as [Hph|Hph]; rewrite Hph in *.
  - destruct HI as (-> & Hs). subst s. cbn [w_start wh accepted phase] in *. destruct x as [err|err n].
    + eexists. split; [reflexivity|]. cbn [phase wh accepted app]. auto.
    + destruct Hx as [Hn Hx]. cbn [current] in Hx.
      destruct (iov_spec h0 e0 B l chain0) as (v & Ev & Hv); [lia|]. rewrite Ev. cbn [obind app]. rewrite Hv.
      unfold BufWriteModel.handle_first_write.
      destruct (Z.eqb_spec err W_SUCCESS) as [He|He]; cbn [negb].
      * specialize (Hx He v Ev). rewrite Hv, cbytes_length in Hx.
        pose proof chain0 as (_ & _ & _ & A1 & _). destruct (rd_w1 _ _ _ A1) as (c & Ec & Hc). rewrite Ec. cbn [obind].
        rewrite Hc. unfold wrap. rewrite N.mod_small by exact H64.
        destruct (N.eqb_spec n (total e0 l)) as [Hq|Hne].
        -- cbn [obind]. eexists. split; [reflexivity|]. cbn [phase wh accepted app]. left. split; [reflexivity|]. exists n.
           split; [reflexivity|]. split; [|congruence]. intros _. split.
           ++ apply firstn_all2. rewrite cbytes_length. lia.
           ++ unfold dupb. apply andb_false_iff. right. apply Nat.ltb_ge. rewrite cbytes_length. lia.
        -- destruct (handle_partial_spec h0 e0 l n chain0) as (h' & a & q & b & P & S & d & k & E & Hl & Htot & HPS & Hk0 & Hk & Htw & Hb); auto; try lia.
           rewrite E. cbn [obind]. eexists. split; [reflexivity|]. cbn [phase app]. exists n, []. rewrite He. split; [reflexivity|].
           exists P, S, d, k. cbn [wh accepted]. repeat match goal with |- _ /\ _ => split end; auto.
           rewrite Hb, app_assoc, firstn_skipn. unfold expect. rewrite (dup_last a q b n Hl Htot). destruct b; reflexivity.
      * cbn [obind]. eexists. split; [reflexivity|]. cbn [phase wh accepted app]. left. split; [reflexivity|]. exists n.
        split; [reflexivity|]. split; [congruence|]. reflexivity.
  - destruct HI as (n & es' & -> & Hlat). destruct x as [err|err m].
    + eexists. split; [reflexivity|]. cbn [phase wh accepted app]. right. exists n, es', (TSync err). split; [reflexivity|].
      split; [congruence|]. split; [intros _; apply (later_pending n s Hlat)|]. intros Hn. elim (Hn err). reflexivity.
    + destruct Hx as [Hm Hx]. cbn [current] in Hx. pose proof (later_pending n s Hlat) as Hpend.
      destruct Hlat as (P & S & d & k & HPS & Hk0 & Hk & Htw & Ha).
      destruct (iov_spec (wh s) (setT e0 d k) W (T :: S) (proj1 (proj2 Htw))) as (v & Ev & Hv).
      { rewrite <- HPS, app_length in Hl64. cbn [length]. lia. }
      rewrite Ev. cbn [obind]. rewrite Hv.
      destruct (handle_write_spec e0 l P S d k (wh s) err m Htw HPS H0 T0 TB) as (h' & p & E & Hcase); auto.
      { intros He. specialize (Hx He v Ev). rewrite Hv, cbytes_length in Hx. lia. }
      rewrite E. cbn [obind]. eexists. split; [reflexivity|]. cbn [phase].
      destruct Hcase as [(-> & Htw' & Hall)|(-> & He & P' & S' & d' & k' & HPS' & Hk0' & Hk' & Htw' & Hb)]; cbn [wh accepted].
      * right. exists n, es', (TDone err m). split; [reflexivity|]. destruct (Z.eqb_spec err W_SUCCESS) as [He|He].
        -- split; [|split; [congruence|auto]]. intros _. split; [|discriminate]. rewrite firstn_all2; [exact Ha|].
           rewrite cbytes_length, (Hall He). lia.
        -- split; [congruence|]. split; [|auto]. intros _. rewrite app_nil_r. exact Hpend.
      * exists n, (es' ++ [TDone err m]). split; [reflexivity|]. exists P', S', d', k'. cbn [wh accepted].
        repeat match goal with |- _ /\ _ => split end; auto. rewrite He, Hb. cbn [Z.eqb W_SUCCESS].
        rewrite <- app_assoc, firstn_skipn. exact Ha.
Qed.

Lemma run_inv es s : w_run h0 es s -> WI es s.
Proof.
  induction 1 as [|es s x s' Hr IH He Hs]; [split; reflexivity|].
  destruct (run_step es s x IH He) as (s2 & E & HI). rewrite Hs in E. injection E as <-. exact HI.
Qed.

(** The transport is offered what is missing. *)
Lemma offered es s : WI es s -> phase s = WFirst \/ phase s = WLater ->
  exists v, iov (wh s) (current B W (phase s)) = Ret v /\
    (phase s = WFirst -> es = [] /\ accepted s ++ iov_bytes mem v = cbytes e0 l) /\
    (phase s = WLater -> iov_bytes mem v <> [] /\ exists n es', es = TDone W_SUCCESS n :: es' /\ accepted s ++ iov_bytes mem v = expect n).
Proof.
  intros HI Hph. pose proof Hpre as (_ & _ & _ & _ & _ & _ & _ & _ & _ & _ & Hl64). unfold WI in HI. destruct Hph as [Hph|Hph]; rewrite Hph in *.
  - destruct HI as (-> & ->). cbn [w_start wh accepted current]. destruct (iov_spec h0 e0 B l chain0) as (v & Ev & Hv); [lia|].
    exists v. split; [exact Ev|]. split; [intros _; split; [reflexivity|exact Hv]|discriminate].
  - destruct HI as (n & es' & -> & Hlat). cbn [current]. destruct Hlat as (P & S & d & k & HPS & Hk0 & Hk & Htw & Ha).
    destruct (iov_spec (wh s) (setT e0 d k) W (T :: S) (proj1 (proj2 Htw))) as (v & Ev & Hv).
    { rewrite <- HPS, app_length in Hl64. cbn [length]. lia. }
    exists v. split; [exact Ev|]. split; [discriminate|]. intros _. rewrite Hv. split; [|exists n, es'; auto].
    intros Hnil. apply (f_equal (@length N)) in Hnil. rewrite cbytes_length in Hnil. cbn [total length] in Hnil.
    unfold setT at 1 in Hnil. rewrite N.eqb_refl in Hnil. lia.
Qed.
Lemma step_accepts s n s' v : w_step s (TDone W_SUCCESS n) = Ret s' -> phase s = WFirst \/ phase s = WLater -> iov (wh s) (current B W (phase s)) = Ret v ->
  accepted s' = accepted s ++ firstn (N.to_nat n) (iov_bytes mem v).
Proof.
  unfold BufWriteModel.w_step. intros H [E|E] V; rewrite E in *; cbn [current] in V; rewrite V in H; cbn [obind] in H.
  - destruct (handle_first_write _ _ _) as [[h p]|]; [|discriminate]. cbn [obind] in H. injection H as <-. reflexivity.
  - destruct (handle_write _ _ _) as [[h p]|]; [|discriminate]. cbn [obind] in H. injection H as <-. reflexivity.
Qed.

Lemma data_cbytes k : data_of mem h0 k = cbytes e0 k.
Proof. reflexivity. Qed.
End Runs.
End Addresses.
