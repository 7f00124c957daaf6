(** The sending side: writes are carried out in the order in which they were accepted, one
    at a time, and their handlers are called once. *)
From Verif Require Import Base Utf8Model MaskModel MaskSpec EndianModel EndianSpec
  WsModel WsFrame WsSendProofs WsRecvSpec WsFrameSpec WsSend WsHistory WsTrace WsRecvProofs WsRecvReach WsQueue WsOutSpec WsArrive WsWire.
Open Scope N_scope.
Set Warnings "-unused-intro-pattern".

Definition op_usr (o : op) : list (jname * nat) := match o with OHandler n h _ _ => if mp n then usr n h else [] | _ => [] end.
Definition pend (k : list op) : list (jname * nat) := flat_map op_usr k.
Definition qusers (t : tx) (q : list jname) : list (jname * nat) := flat_map (fun n => if mp n then usr n (jhandler (jobs t n)) else []) q.

Record base (t : tx) (l : list ev) (k : list op) (q : list jname) : Prop := {
  b_rep : rep t q;
  b_top : pend (tl k) = [];
  b_usr : musers (accepts l) = dones l ++ pend k ++ qusers t q }.

Definition is_stream (o : op) : bool := match o with OStream _ _ => true | _ => false end.
Definition is_next (o : op) : bool := match o with OMsgNext (Some _) => true | _ => false end.
Definition nstream (k : list op) : nat := length (filter is_stream k).
Definition nnext (k : list op) : nat := length (filter is_next k).
Definition idle (o : op) : Prop :=
  match o with OUser | OFire | OMsgNext _ | OBsReturn | ORet _ | OCloseHandler _ _ | OClose | OHook => True | _ => False end.
Definition top_ok (o : op) : Prop :=
  match o with
  | OStream _ _ | OAbort => True
  | OHandler _ h e _ => h = Some HPong -> e = CIO_SUCCESS
  | OPongWritten e => e = CIO_SUCCESS
  | _ => idle o
  end.
Definition err_op (o : op) : Prop :=
  match o with OHandleError _ _ _ => True | OPongWritten e => e <> CIO_SUCCESS | OHandler _ h e _ => h = Some HPong /\ e <> CIO_SUCCESS | _ => False end.

Definition ready (n : jname) (j : job) : Prop :=
  jwbh j <> None /\
  match n with
  | JClose => (jsh j = SHResponseClose /\ jhandler j = None) \/ (jsh j = SHClose /\ exists id, jhandler j = Some (HUser id))
  | JPong => jsh j = SHMessage /\ jhandler j = Some HPong
  | _ => jsh j = SHMessage /\ exists id, jhandler j = Some (HUser id)
  end.
Definition ent_ok (a : ent) : Prop := job_ok (ent_job a) /\ ent_len a <= SIZE_MAX.

(** When a chain is handed to the stream, everything handed to it before was reported. *)
Fixpoint in_turn (l : list ev) : Prop :=
  match l with
  | [] => True
  | EvSend _ _ :: r => dones r = musers (firstn (length (sends r)) (accepts r)) /\ in_turn r
  | _ :: r => in_turn r
  end.

Section O.
Variable C : cfg.
Hypothesis HC : cfg_ok C.
Notation carried := (carried C).

Definition hs (t : tx) (k : list op) : nat := (inflight t + nstream k)%nat.
Definition wires (t : tx) (l : list ev) (h : nat) (q : list jname) : Prop :=
  exists m0 D Q, accepts l = D ++ Q /\ map ent_name Q = q /\ carried m0 (D ++ firstn h Q) (sends l) (cmask t) /\
    Forall (fun a => same_content (ent_job a) (jobs t (ent_name a))) (skipn h Q) /\
    Forall (fun a => jhandler (jobs t (ent_name a)) = jhandler (ent_job a)) Q.
Definition weak (l : list ev) : Prop :=
  Forall ent_ok (accepts l) /\ in_turn l /\ exists m0 A B m, accepts l = A ++ B /\ carried m0 A (sends l) m.

Record normal (t : tx) (l : list ev) (sc : bool) (k : list op) (q : list jname) : Prop := {
  n_tail : Forall idle (tl k);
  n_top : match k with [] => True | o :: _ => top_ok o end;
  n_tok : match k with
          | OAbort :: k' => inflight t = 0%nat /\ nnext k' = 0%nat /\ Forall (fun n => n = JPong) q
          | _ => (inflight t + nstream k + nnext k)%nat = match q with [] => 0%nat | _ => 1%nat end
          end;
  n_sh : match q with
         | [] => True
         | n :: _ => ((0 < inflight t)%nat -> bswh t = jsh (jobs t n)) /\
                     match k with OStream sh _ :: _ => sh = jsh (jobs t n) | _ => True end
         end;
  n_next : forall n, In (OMsgNext (Some n)) k -> hd_error q = Some n;
  n_ready : forall n, In n q -> ready n (jobs t n);
  n_free : forall n, mp n = true -> ~ In n q -> jwbh (jobs t n) = None;
  n_close : forall q1 q2, q = q1 ++ JClose :: q2 -> Forall (fun n => n = JPong) q2;
  n_cls1 : In JClose q -> close_asked l = true;
  n_cls2 : close_asked l = true -> sc = true \/ peer_closed l = true;
  n_mask : mask_ok (cmask t);
  n_ents : Forall ent_ok (accepts l);
  n_turn : in_turn l;
  n_wires : wires t l (hs t k) q }.

Definition erring (t : tx) (l : list ev) (k : list op) : Prop := (exists o k', k = o :: k' /\ err_op o) /\ weak l /\ (inflight t <= 1)%nat.
Definition abort_op (o : op) : Prop :=
  match o with OUser | OHandleError _ _ _ => True | OHandler _ _ e _ => e <> CIO_SUCCESS | OPongWritten e => e <> CIO_SUCCESS | _ => False end.
Definition aborting (k : list op) : Prop :=
  exists top c r k', k = top ++ OAbort :: OErrClose c r :: k' /\ (top = [] \/ exists o, top = [o] /\ abort_op o).
Definition after (k : list op) (q : list jname) : Prop := pend k = [] /\ Forall (fun n => mp n = false) q.

Definition Inv (s : ws) (k : list op) (q : list jname) : Prop :=
  base (T s) (tr s) k q /\
  if cbe s then aborting k \/ after k q
  else normal (T s) (tr s) (selfc s) k q \/ erring (T s) (tr s) k.

(** ** Counting *)
Lemma pend_app k k' : pend (k ++ k') = pend k ++ pend k'.
Proof. apply flat_map_app. Qed.
Lemma nstream_app k k' : nstream (k ++ k') = (nstream k + nstream k')%nat.
Proof. unfold nstream. rewrite filter_app, app_length. reflexivity. Qed.
Lemma nnext_app k k' : nnext (k ++ k') = (nnext k + nnext k')%nat.
Proof. unfold nnext. rewrite filter_app, app_length. reflexivity. Qed.
Lemma idle_pend k : Forall idle k -> pend k = [].
Proof. intros H. induction H as [|o k Ho Hk IH]; [reflexivity|]. change (pend (o :: k)) with (op_usr o ++ pend k). rewrite IH. destruct o; try destruct Ho; reflexivity. Qed.
Lemma idle_nstream k : Forall idle k -> nstream k = 0%nat.
Proof. intros H. induction H as [|o k Ho Hk IH]; [reflexivity|]. unfold nstream in *. cbn. destruct o; try destruct Ho; cbn; assumption. Qed.
Lemma idle_top o : idle o -> top_ok o.
Proof. destruct o; intros []; exact I. Qed.
Lemma nnext_0 k n : nnext k = 0%nat -> ~ In (OMsgNext (Some n)) k.
Proof.
  intros H X. unfold nnext in H. assert (Y : In (OMsgNext (Some n)) (filter is_next k)) by (apply filter_In; split; [exact X|reflexivity]).
  destruct (filter is_next k); [exact Y|discriminate].
Qed.
Lemma qusers_ext t t' q : (forall n, In n q -> jhandler (jobs t' n) = jhandler (jobs t n)) -> qusers t' q = qusers t q.
Proof.
  intros H. unfold qusers. induction q as [|a q IH]; [reflexivity|]. cbn. rewrite H by (left; reflexivity). rewrite IH; [reflexivity|].
  intros n Hn. apply H. right. exact Hn.
Qed.

(** Events that say nothing about writes. *)
Definition still (e : ev) : Prop := match e with EvAccept _ _ _ | EvSend _ _ => False | EvWriteDone n _ _ _ => mp n = false | _ => True end.
Lemma still_accepts es l : Forall still es -> accepts (es ++ l) = accepts l.
Proof. intros H. unfold accepts. rewrite collect_app. replace (collect acc_of es) with (@nil ent); [apply app_nil_r|]. induction H as [|e es He Hes IH]; [reflexivity|]. cbn. rewrite <- IH. destruct e; try destruct He; reflexivity. Qed.
Lemma still_sends es l : Forall still es -> sends (es ++ l) = sends l.
Proof. intros H. unfold sends. rewrite collect_app. replace (collect send_of es) with (@nil (jname * chain)); [apply app_nil_r|]. induction H as [|e es He Hes IH]; [reflexivity|]. cbn. rewrite <- IH. destruct e; try destruct He; reflexivity. Qed.
Lemma still_dones es l : Forall still es -> dones (es ++ l) = dones l.
Proof. intros H. unfold dones. rewrite collect_app. replace (collect done_of es) with (@nil (jname * nat)); [apply app_nil_r|]. induction H as [|e es He Hes IH]; [reflexivity|]. cbn. rewrite <- IH. destruct e; try reflexivity. cbn in *. rewrite He. reflexivity. Qed.
Lemma still_turn es l : Forall still es -> in_turn l -> in_turn (es ++ l).
Proof. intros H T. induction H as [|e es He Hes IH]; [exact T|]. cbn. destruct e; try exact IH. destruct He. Qed.
Lemma still_weak es l : Forall still es -> weak l -> weak (es ++ l).
Proof. intros H (W1 & W2 & W3). unfold weak. rewrite still_accepts, still_sends by exact H. split; [exact W1|]. split; [apply still_turn; assumption|exact W3]. Qed.
Lemma over_app es l : peer_closed l = true -> peer_closed (es ++ l) = true.
Proof. unfold peer_closed. rewrite existsb_app. intros ->. apply orb_true_r. Qed.
Lemma asked_app es l : close_asked (es ++ l) = (close_asked es || close_asked l)%bool.
Proof. unfold close_asked. apply existsb_app. Qed.
Lemma still_asked es : Forall still es -> close_asked es = false.
Proof. intros H. induction H as [|e es He Hes IH]; [reflexivity|]. change (close_asked (e :: es)) with (close_ev e || close_asked es)%bool. rewrite IH. destruct e; try reflexivity. destruct He. Qed.

Lemma base_still t l k q es k' : Forall still es -> pend (tl k') = [] -> pend k' = pend k -> base t l k q -> base t (es ++ l) k' q.
Proof.
  intros S P1 P2 [B1 B2 B3]. split; [exact B1|exact P1|]. rewrite still_accepts, still_dones by exact S. rewrite P2. exact B3.
Qed.

(** From [wires]: the handlers of what left the queue. *)
Lemma popped_users t l k q h : base t l k q -> wires t l h q -> forall D Q, accepts l = D ++ Q -> map ent_name Q = q ->
  Forall (fun a => jhandler (jobs t (ent_name a)) = jhandler (ent_job a)) Q -> musers D = dones l ++ pend k.
Proof.
  intros [_ _ B] _ D Q E M F. rewrite E in B. unfold musers in B. rewrite flat_map_app in B.
  replace (qusers t q) with (flat_map ent_usr Q) in B; [rewrite app_assoc in B; apply app_inv_tail in B; exact B|].
  rewrite <- M. clear - F. induction F as [|a Q Ha HQ IH]; [reflexivity|]. cbn. rewrite IH. unfold ent_usr at 1. rewrite Ha. reflexivity.
Qed.
Lemma normal_weak t l sc k q : normal t l sc k q -> weak l.
Proof.
  intros N. split; [exact (n_ents _ _ _ _ _ N)|]. split; [exact (n_turn _ _ _ _ _ N)|].
  destruct (n_wires _ _ _ _ _ N) as (m0 & D & Q & E & _ & Ca & _). exists m0, (D ++ firstn (hs t k) Q), (skipn (hs t k) Q), (cmask t).
  split; [|exact Ca]. rewrite E, <- app_assoc, firstn_skipn. reflexivity.
Qed.

Lemma normal_inflight t l sc k q : normal t l sc k q -> (inflight t <= 1)%nat.
Proof.
  intros N. pose proof (n_tok _ _ _ _ _ N) as X. destruct k as [|o k]; [|destruct o; try (destruct X; lia)]; destruct q; lia.
Qed.

Definition calm_top (k : list op) : Prop := k = [] \/ exists o k', k = o :: k' /\ (o = OUser \/ o = OFire \/ o = OBsReturn).
Lemma calm_idle t l sc k q : normal t l sc k q -> calm_top k -> Forall idle k /\ (inflight t + nnext k)%nat = match q with [] => 0%nat | _ => 1%nat end.
Proof.
  intros N K. assert (Z : Forall idle k). { pose proof (n_tail _ _ _ _ _ N) as X. destruct K as [-> | (o & k' & -> & [-> | [-> | ->]])]; [constructor|constructor; [exact I|exact X]..]. }
  split; [exact Z|]. pose proof (n_tok _ _ _ _ _ N) as X. pose proof (idle_nstream _ Z) as Y.
  destruct K as [-> | (o & k' & -> & [-> | [-> | ->]])]; cbn beta iota in X; rewrite Y in X; lia.
Qed.

(** ** enqueue_job *)
Lemma push s k q n j len es s1 ch kerr s' os :
  base (T s) (tr s) k q -> normal (T s) (tr s) (selfc s) k q -> calm_top k ->
  jobs (T s1) = upd (jobs (T s)) n j -> first (T s1) = first (T s) -> last (T s1) = last (T s) -> cmask (T s1) = cmask (T s) ->
  inflight (T s1) = inflight (T s) -> bswh (T s1) = bswh (T s) -> jnext j = jnext (jobs (T s) n) ->
  tr s1 = EvAccept n j len :: es ++ tr s -> Forall still es -> ~ In n q -> (In JClose q -> n = JPong) ->
  ready n j -> ent_ok (n, j, len) -> (selfc s = true -> selfc s1 = true) -> (n = JClose -> selfc s1 = true \/ peer_closed (es ++ tr s) = true) ->
  cbe s1 = false -> choice_ok ch -> (forall e, Forall idle (kerr e)) ->
  enqueue_job C s1 n len ch kerr = Ret (s', os) -> Inv s' (os ++ k) (q ++ [n]).
Proof.
  intros B N K EJ EF EL EC EI EB EN ET ES NI NC RD EO SC SJ CB CH KE H.
  destruct (calm_idle _ _ _ _ _ N K) as [KI TK]. destruct N as [n1 n2 n3 n4 n5 n6 n7 n8 n9 n10 n11 n12 n13 n14].
  pose proof (idle_nstream _ KI) as KS. pose proof (idle_pend _ KI) as KP. destruct B as [b1 b2 b3].
  assert (EA : accepts (tr s1) = accepts (tr s) ++ [(n, j, len)]). { rewrite ET. unfold accepts at 1. cbn [collect acc_of]. fold (accepts (es ++ tr s)). rewrite still_accepts by exact ES. reflexivity. }
  assert (EX : sends (tr s1) = sends (tr s)). { rewrite ET. unfold sends at 1. cbn [collect send_of]. fold (sends (es ++ tr s)). rewrite still_sends by exact ES. apply app_nil_r. }
  assert (ED : dones (tr s1) = dones (tr s)). { rewrite ET. unfold dones at 1. cbn [collect done_of]. fold (dones (es ++ tr s)). rewrite still_dones by exact ES. apply app_nil_r. }
  assert (TU : in_turn (tr s1)). { rewrite ET. cbn. apply still_turn; assumption. }
  assert (EQ : forall t', (forall m, job_like (jobs (T s1) m) (jobs t' m)) -> qusers t' (q ++ [n]) = qusers (T s) q ++ (if mp n then usr n (jhandler j) else [])).
  { intros t' J. unfold qusers. rewrite flat_map_app. cbn [flat_map]. rewrite app_nil_r. f_equal.
    - apply qusers_ext. intros m Hm. destruct (J m) as (-> & _). rewrite EJ, upd_other; [reflexivity|]. intros ->. exact (NI Hm).
    - destruct (J n) as (-> & _). rewrite EJ, upd_same. reflexivity. }
  assert (MU : musers (accepts (tr s1)) = dones (tr s) ++ pend k ++ qusers (T s) q ++ (if mp n then usr n (jhandler j) else [])).
  { rewrite EA. unfold musers. rewrite flat_map_app. fold (musers (accepts (tr s))). rewrite b3. cbn [flat_map]. rewrite app_nil_r, <- !app_assoc. reflexivity. }
  assert (CA : close_asked (tr s1) = true -> selfc s1 = true \/ peer_closed (tr s1) = true).
  { rewrite ET. cbn [close_asked existsb close_ev peer_closed peer_ev orb]. fold (close_asked (es ++ tr s)). rewrite asked_app, (still_asked _ ES). cbn [orb].
    intros X. destruct n; try (destruct (n10 X) as [Y|Y]; [left; auto|right; apply over_app; exact Y]). apply SJ. reflexivity. }
  assert (CJ : In JClose (q ++ [n]) -> close_asked (tr s1) = true).
  { intros X. rewrite ET. cbn [close_asked existsb]. fold (close_asked (es ++ tr s)). rewrite asked_app. apply in_app_or in X. destruct X as [X|[->|[]]]; [|reflexivity].
    rewrite (n9 X). rewrite !orb_true_r. reflexivity. }
  assert (NQ : forall q1 q2, q ++ [n] = q1 ++ JClose :: q2 -> Forall (fun m => m = JPong) q2).
  { intros q1 q2 X. destruct q2 as [|x q2] using rev_ind; [constructor|]. clear IHq2.
    change (q1 ++ JClose :: q2 ++ [x]) with (q1 ++ (JClose :: q2) ++ [x]) in X. rewrite app_assoc in X. apply app_inj_tail in X. destruct X as [X ->].
    apply Forall_app. split; [apply (n8 q1 q2 X)|]. constructor; [|constructor]. apply NC. rewrite X. apply in_or_app. right. left. reflexivity. }
  assert (EE : Forall ent_ok (accepts (tr s1))). { rewrite EA. apply Forall_app. split; [exact n12|repeat constructor; exact EO || apply EO]. }
  unfold enqueue_job in H. destruct (first (T s1)) as [f|] eqn:F.
  - (* somebody is waiting *)
    destruct (last (T s1)) as [lj|] eqn:LJ; [|discriminate]. injection H as <- <-. cbn [app].
    assert (Q0 : q <> []). { intros ->. destruct b1 as [_ b1]. congruence. }
    assert (R1 : rep (link_last (T s1) lj n) (q ++ [n])).
    { apply rep_push; [|exact Q0|exact LJ|exact NI]. apply (rep_ext (T s)); [congruence|congruence| |exact b1].
      intros m. rewrite EJ. destruct (jname_dec m n) as [-> | Hm]; [rewrite upd_same; exact EN|rewrite upd_other by assumption; reflexivity]. }
    assert (JL : forall m, job_like (jobs (T s1) m) (jobs (link_last (T s1) lj n) m)).
    { intros m. cbn [link_last jobs set_last set_job set_jobs]. destruct (jname_dec m lj) as [-> | Hm]; [rewrite upd_same; unfold job_like; cbn; tauto|rewrite upd_other by assumption; apply job_like_refl]. }
    assert (JB : forall m, jwbh (jobs (link_last (T s1) lj n) m) = jwbh (jobs (T s1) m)).
    { intros m. cbn [link_last jobs set_last set_job set_jobs]. destruct (jname_dec m lj) as [-> | Hm]; [rewrite upd_same; reflexivity|rewrite upd_other by assumption; reflexivity]. }
    split; [split|].
    + exact R1.
    + exact b2.
    + cbn [tr set_T]. rewrite MU, ED. etransitivity; [|apply f_equal, f_equal; symmetry; exact (EQ (link_last (T s1) lj n) JL)]. reflexivity.
    + cbn [cbe set_T]. rewrite CB. left. change (T (set_T s1 _)) with (link_last (T s1) lj n). cbn [tr selfc set_T].
      destruct q as [|q0 qr]; [congruence|]. split; try assumption.
      * cbn [inflight link_last set_last set_job set_jobs]. rewrite EI. destruct k as [|o k0]; [exact n3|]. destruct o; try exact n3. exfalso. inversion KI as [|? ? X _]; destruct X.
      * cbn [app]. cbn [inflight bswh link_last set_last set_job set_jobs]. rewrite EI, EB. destruct (JL q0) as (_ & _ & _ & _ & Y & _).
        change (jobs (set_last (set_job (T s1) lj (set_next (jobs (T s1) lj) (Some n))) (Some n))) with (jobs (link_last (T s1) lj n)). rewrite Y. rewrite EJ, upd_other by (intros ->; apply NI; left; reflexivity). exact n4.
      * intros m Hm. destruct (JL m) as (y1 & y2 & y3 & y4 & y5 & y6). unfold ready. rewrite JB, y1, y5, EJ. apply in_app_or in Hm.
        destruct (jname_dec m n) as [-> | Hn]; [rewrite upd_same; exact RD|]. rewrite upd_other by assumption. destruct Hm as [Hm|[->|[]]]; [apply n6; exact Hm|congruence].
      * intros m M1 M2. rewrite JB, EJ. assert (m <> n) by (intros ->; apply M2, in_or_app; right; left; reflexivity). rewrite upd_other by assumption.
        apply n7; [exact M1|]. intros X. apply M2, in_or_app. left. exact X.
      * cbn [cmask link_last set_last set_job set_jobs]. rewrite EC. exact n11.
      * destruct n14 as (m0 & D & Q & w1 & w2 & w3 & w4 & w5). exists m0, D, (Q ++ [(n, j, len)]).
        assert (HL : (hs (T s) k <= length Q)%nat). { unfold hs. rewrite KS. assert (length Q = length (q0 :: qr)) by (rewrite <- w2, map_length; reflexivity). cbn in *. lia. }
        assert (HE : hs (link_last (T s1) lj n) k = hs (T s) k) by (unfold hs; cbn; rewrite EI; reflexivity). rewrite HE.
        assert (NN : forall a, In a Q -> ent_name a <> n). { intros a Ha X. apply NI. rewrite <- w2, <- X. apply in_map. exact Ha. }
        split; [rewrite EA, w1, <- app_assoc; reflexivity|]. split; [rewrite map_app, w2; reflexivity|]. split.
        { rewrite EX. rewrite firstn_app. replace (hs (T s) k - length Q)%nat with 0%nat by lia. cbn [firstn]. rewrite app_nil_r. cbn [cmask link_last set_last set_job set_jobs]. rewrite EC. exact w3. }
        assert (SA : forall a, In a Q -> jwbh (jobs (link_last (T s1) lj n) (ent_name a)) = jwbh (jobs (T s) (ent_name a)) /\ job_like (jobs (T s) (ent_name a)) (jobs (link_last (T s1) lj n) (ent_name a))).
        { intros a Ha. rewrite JB. pose proof (JL (ent_name a)) as X. rewrite EJ, upd_other in X by (apply NN; exact Ha). rewrite EJ, upd_other by (apply NN; exact Ha). split; [reflexivity|exact X]. }
        split.
        { rewrite skipn_app. replace (hs (T s) k - length Q)%nat with 0%nat by lia. cbn [skipn]. apply Forall_app. split.
          - rewrite Forall_forall in *. intros a Ha. specialize (w4 a Ha). assert (Ha' : In a Q) by (rewrite <- (firstn_skipn (hs (T s) k) Q); apply in_or_app; right; exact Ha).
            destruct (SA a Ha') as (x1 & x2 & x3 & x4 & x5 & x6 & x7). destruct w4 as (z1 & z2 & z3 & z4). unfold same_content. repeat split; congruence.
          - constructor; [|constructor]. cbn. pose proof (JL n) as (x2 & x3 & x4 & x5 & x6 & x7). pose proof (JB n) as x1. rewrite EJ, upd_same in x1, x2, x3, x4, x5, x6. unfold same_content. repeat split; assumption. }
        { apply Forall_app. split.
          - rewrite Forall_forall in *. intros a Ha. destruct (SA a Ha) as (_ & x2 & _). rewrite x2. apply w5. exact Ha.
          - constructor; [|constructor]. cbn. destruct (JL n) as (x2 & _). rewrite EJ, upd_same in x2. exact x2. }
  - (* nobody is waiting: the frame is sent *)
    assert (Q0 : q = []) by (apply (rep_nil (T s)); [exact b1|congruence]). subst q. cbn [app] in *.
    binv H. destruct a as [s2 r]. cbn [fst snd] in H.
    set (s0 := set_T s1 (set_last (set_first (T s1) (Some n)) (Some n))) in *.
    assert (J0 : jobs (T s0) n = j) by (cbn; rewrite EJ, upd_same; reflexivity).
    destruct (send_wire C HC s0 n len ch s2 r) as (c & WT & WW); [rewrite J0; apply EO|apply EO|exact CH|cbn; rewrite EC; exact n11|exact E|].
    apply send_frame_frame in E. destruct E as (E1 & _ & E3 & E4 & E5 & E6 & E7 & E8 & E9 & E10).
    rewrite J0 in *. cbn [T s0 set_T cmask set_last set_first inflight first last tr jobs] in *. rewrite EC in WW.
    assert (EI0 : inflight (T s) = 0%nat) by lia. assert (NN0 : nnext k = 0%nat) by lia.
    assert (EA2 : accepts (tr s2) = accepts (tr s) ++ [(n, j, len)]) by (rewrite WT; unfold accepts at 1; cbn [collect acc_of]; rewrite app_nil_r; exact EA).
    assert (EX2 : sends (tr s2) = sends (tr s) ++ [(n, c)]) by (rewrite WT; unfold sends at 1; cbn [collect send_of]; fold (sends (tr s1)); rewrite EX; reflexivity).
    assert (ED2 : dones (tr s2) = dones (tr s)) by (rewrite WT; unfold dones at 1; cbn [collect done_of]; rewrite app_nil_r; exact ED).
    destruct n14 as (m0 & D & Q & w1 & w2 & w3 & w4 & w5).
    assert (Q = []) by (destruct Q; [reflexivity|discriminate w2]). subst Q. rewrite app_nil_r in w1. cbn [map] in w2. rewrite firstn_nil, app_nil_r in w3.
    assert (TU2 : in_turn (tr s2)).
    { rewrite WT. cbn. split; [|exact TU]. rewrite ED, EX, EA. pose proof (carried_length _ _ _ _ _ w3) as LL. rewrite w1, <- LL, firstn_app, firstn_all, Nat.sub_diag. cbn [firstn]. rewrite app_nil_r.
      rewrite w1 in b3. rewrite b3, KP. cbn. rewrite !app_nil_r. reflexivity. }
    assert (CR : carried m0 (accepts (tr s2)) (sends (tr s2)) (cmask (T s2))).
    { rewrite EA2, EX2, w1. eapply car_snoc; [exact w3|left; reflexivity|exact WW]. }
    assert (WK : weak (tr s2)). { split; [rewrite EA2, <- EA; exact EE|]. split; [exact TU2|]. exists m0, (accepts (tr s2)), [], (cmask (T s2)). split; [rewrite app_nil_r; reflexivity|exact CR]. }
    assert (R1 : rep (T s2) [n]). { split; [repeat constructor; intros []|]. split; [exact E6|]. split; [exact I|exact E7]. }
    assert (BU : forall k', pend k' = [] -> musers (accepts (tr s2)) = dones (tr s2) ++ pend k' ++ qusers (T s2) [n]).
    { intros k' P. rewrite EA2, <- EA, MU, ED2, P, KP, (EQ (T s2)); [reflexivity|]. intros m. specialize (E5 m). exact E5. }
    assert (CB2 : cbe s2 = false). { destruct E1 as (_ & x & _). cbn in x. congruence. }
    assert (NM : forall o, ch_write ch = WPending /\ o = [] /\ inflight (T s2) = 1%nat \/ (exists e, o = [OStream (jsh j) e]) /\ inflight (T s2) = 0%nat -> normal (T s2) (tr s2) (selfc s2) (o ++ k) [n]).
    { intros o HO. assert (SF : selfc s2 = selfc s1) by (destruct E1 as (_ & _ & x & _); exact x). rewrite SF.
      assert (OV : peer_closed (tr s2) = peer_closed (tr s1)) by (rewrite WT; reflexivity). assert (CQ : close_asked (tr s2) = close_asked (tr s1)) by (rewrite WT; reflexivity).
      assert (HS : hs (T s2) (o ++ k) = 1%nat). { unfold hs. rewrite nstream_app, KS. destruct HO as [(_ & -> & ->) | [[e ->] ->]]; reflexivity. }
      assert (TL : Forall idle (tl (o ++ k))). { destruct HO as [(_ & -> & _) | [[e ->] _]]; cbn; assumption. }
      split; try assumption.
      - destruct HO as [(_ & -> & _) | [[e ->] _]]; cbn; [exact n2|exact I].
      - destruct HO as [(_ & -> & Z) | [[e ->] Z]]; rewrite Z; cbn [app].
        + pose proof KI as X. destruct k as [|o0 k0]; [reflexivity|]. inversion X as [|? ? X0 _]; subst. destruct o0; try destruct X0; rewrite KS, NN0; reflexivity.
        + unfold nstream, nnext in *. cbn [filter is_stream is_next length]. rewrite KS, NN0. reflexivity.
      - destruct (E5 n) as (_ & _ & _ & _ & y & _). rewrite J0 in y. split; [intros _; congruence|].
        destruct HO as [(_ & -> & Z) | [[e ->] Z]]; cbn [app]; [|congruence]. destruct k as [|o0 k0]; [exact I|]. inversion KI as [|? ? X0 _]; subst. destruct o0; try destruct X0; exact I.
      - intros m Hm. exfalso. apply in_app_or in Hm. destruct Hm as [Hm|Hm]; [|exact (nnext_0 _ _ NN0 Hm)]. destruct HO as [(_ & -> & _) | [[e ->] _]]; [destruct Hm|destruct Hm as [Hm|[]]; discriminate].
      - intros m [<-|[]]. destruct (E5 n) as (y1 & _ & _ & _ & y5 & y6). rewrite J0 in *. destruct RD as [r1 r2]. split; [rewrite y6; exact r1|]. rewrite y1, y5. exact r2.
      - intros m M1 M2. assert (m <> n) by (intros ->; apply M2; left; reflexivity). rewrite E4 by assumption. rewrite EJ, upd_other by assumption. apply n7; [exact M1|intros []].
      - intros X. rewrite CQ. apply CJ. exact X.
      - rewrite CQ, OV. exact CA.
      - eapply wire_mask; [|exact WW]. exact n11.
      - rewrite EA2, <- EA. exact EE.
      - rewrite HS. exists m0, D, [(n, j, len)]. split; [rewrite EA2, w1; reflexivity|]. split; [reflexivity|]. cbn [firstn skipn]. split; [rewrite EA2, w1 in CR; exact CR|].
        split; [constructor|]. constructor; [|constructor]. cbn. destruct (E5 n) as (y1 & _). rewrite J0 in y1. exact y1. }
    assert (RES : forall o, s' = s2 -> os = o -> Forall (fun x => op_usr x = []) o -> (pend (tl (o ++ k)) = []) ->
       (normal (T s2) (tr s2) (selfc s2) (o ++ k) [n] \/ erring (T s2) (tr s2) (o ++ k)) -> Inv s' (os ++ k) [n]).
    { intros o -> -> P1 P2 P3. split; [|rewrite CB2; exact P3]. split; [exact R1|exact P2|]. apply BU. rewrite pend_app, KP, app_nil_r. clear - P1. induction P1 as [|x o X P IH]; [reflexivity|]. cbn. rewrite X. exact IH. }
    destruct (ch_write ch) as [|e|e] eqn:CW; destruct E10 as [-> E10]; injection H as <- <-.
    + apply (RES []); try reflexivity; [constructor|exact b2|]. left. apply NM. left. split; [reflexivity|]. split; [reflexivity|]. rewrite E10, EI, EI0. reflexivity.
    + apply (RES [OStream (jsh j) e]); try reflexivity; [repeat constructor|cbn; exact KP|]. left. apply NM. right. split; [eauto|]. rewrite E10, EI, EI0. reflexivity.
    + match goal with |- Inv _ (?o ++ _) _ => apply (RES o) end; try reflexivity.
      * constructor; [reflexivity|]. specialize (KE e). clear - KE. induction KE as [|x o X P IH]; constructor; [|exact IH]. destruct x; try destruct X; reflexivity.
      * cbn [app tl]. rewrite pend_app, KP, (idle_pend _ (KE e)). reflexivity.
      * right. split; [|split; [exact WK|rewrite E10, EI, EI0; lia]]. eexists _, _. split; [reflexivity|exact I].
Qed.
End O.
