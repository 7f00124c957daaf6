(** The sending side, continued: one step at a time. *)
From Verif Require Import Base Utf8Model MaskModel MaskSpec EndianModel EndianSpec
  WsModel WsFrame WsSendProofs WsRecvSpec WsFrameSpec WsSend WsHistory WsTrace WsQueue WsOutSpec WsArrive WsWire WsOut.
Open Scope N_scope.
Set Warnings "-unused-intro-pattern".

Definition neutral (o : op) : Prop := match o with OStream _ _ | OAbort | OMsgNext (Some _) => False | _ => True end.
Lemma neutral_nstream p : Forall neutral p -> nstream p = 0%nat.
Proof. intros H. induction H as [|o p Ho Hp IH]; [reflexivity|]. unfold nstream in *. cbn. destruct o; try destruct Ho; cbn; exact IH. Qed.
Lemma neutral_nnext p : Forall neutral p -> nnext p = 0%nat.
Proof. intros H. induction H as [|o p Ho Hp IH]; [reflexivity|]. unfold nnext in *. cbn. destruct o as [| | | | | | | | | |[m|]| | |]; try destruct Ho; cbn; exact IH. Qed.
Lemma neutral_next p n : Forall neutral p -> ~ In (OMsgNext (Some n)) p.
Proof. intros H X. rewrite Forall_forall in H. exact (H _ X). Qed.
Lemma pend_cons o k : pend (o :: k) = op_usr o ++ pend k. Proof. reflexivity. Qed.

(** The token equation, for a stack that does not start with [OAbort]. *)
Definition one (q : list jname) : nat := match q with [] => 0%nat | _ => 1%nat end.
Definition no_abort (k : list op) : Prop := match k with OAbort :: _ => False | _ => True end.
Lemma idle_no_abort k : Forall idle k -> no_abort k.
Proof. intros H. destruct H as [|o k Ho Hk]; [exact I|]. destruct o; try destruct Ho; exact I. Qed.
Lemma neutral_no_abort p k : Forall neutral p -> Forall idle k -> no_abort (p ++ k).
Proof. intros H K. destruct H as [|o p Ho Hp]; [apply idle_no_abort, K|]. cbn. destruct o; try destruct Ho; exact I. Qed.

Section S.
Variable C : cfg.
Hypothesis HC : cfg_ok C.
Notation carried := (carried C).
Notation normal := (normal C).
Notation Inv := (Inv C).
Notation weak := (weak C).

Lemma tok_in t l sc k q : normal t l sc k q -> no_abort k -> (inflight t + nstream k + nnext k)%nat = one q.
Proof. intros N A. pose proof (n_tok _ _ _ _ _ _ N) as X. destruct k as [|o k]; [exact X|]. destruct o; try exact X. destruct A. Qed.
Lemma tok_out t k q : no_abort k -> (inflight t + nstream k + nnext k)%nat = one q ->
  match k with
  | OAbort :: k' => inflight t = 0%nat /\ nnext k' = 0%nat /\ Forall (fun n => n = JPong) q
  | _ => (inflight t + nstream k + nnext k)%nat = match q with [] => 0%nat | _ => 1%nat end
  end.
Proof. intros A H. destruct k as [|o k]; [exact H|]. destruct o; try exact H. destruct A. Qed.

(** Steps that do not touch the queue. *)
Lemma normal_swap t l l' sc sc' p os k q :
  normal t l sc (p ++ k) q -> Forall neutral p -> Forall idle k -> Forall neutral os -> match os with [] => True | o :: os' => top_ok o /\ Forall idle os' end ->
  accepts l' = accepts l -> sends l' = sends l -> in_turn l' -> close_asked l' = close_asked l -> (sc = true -> sc' = true) -> (peer_closed l = true -> peer_closed l' = true) ->
  normal t l' sc' (os ++ k) q.
Proof.
  intros N P K O TO EA ES IT CA SC PC.
  pose proof (tok_in _ _ _ _ _ N (neutral_no_abort _ _ P K)) as TK. rewrite nstream_app, nnext_app, (neutral_nstream _ P), (neutral_nnext _ P) in TK.
  destruct N as [n1 n2 n3 n4 n5 n6 n7 n8 n9 n10 n11 n12 n13 n14].
  assert (HH : hs t (os ++ k) = hs t (p ++ k)). { unfold hs. rewrite !nstream_app, (neutral_nstream _ P), (neutral_nstream _ O). reflexivity. }
  split; try assumption.
  - destruct os as [|o os]; cbn; [destruct K; cbn; [constructor|assumption]|]. apply Forall_app. split; [apply TO|exact K].
  - destruct os as [|o os]; cbn; [|apply TO]. destruct K as [|o k Ho Hk]; [exact I|apply idle_top, Ho].
  - apply tok_out; [apply neutral_no_abort; assumption|]. rewrite nstream_app, nnext_app, (neutral_nstream _ O), (neutral_nnext _ O). exact TK.
  - destruct q as [|n q]; [exact I|]. split; [apply n4|]. destruct os as [|o os].
    + cbn. destruct K as [|o k Ho Hk]; [exact I|]. destruct o; try destruct Ho; exact I.
    + cbn. inversion O as [|? ? X _]; subst. destruct o; try exact I. destruct X.
  - intros n Hn. apply n5. apply in_app_or in Hn. destruct Hn as [Hn|Hn]; [destruct (neutral_next _ _ O Hn)|]. apply in_or_app. right. exact Hn.
  - rewrite CA. exact n9.
  - rewrite CA. intros X. destruct (n10 X) as [Y|Y]; [left; auto|right; auto].
  - rewrite EA. exact n12.
  - rewrite HH. unfold wires in *. rewrite EA, ES. exact n14.
Qed.
Lemma base_swap t l l' p os k q : base t l (p ++ k) q -> Forall idle k -> Forall idle (tl os) ->
  accepts l' = accepts l -> dones l' ++ pend os = dones l ++ pend p -> base t l' (os ++ k) q.
Proof.
  intros [b1 b2 b3] K O EA ED. split; [exact b1| |].
  - destruct os as [|o os]; cbn [app tl] in *; [destruct K; [reflexivity|cbn; apply idle_pend; assumption]|]. rewrite pend_app, (idle_pend _ K), (idle_pend _ O). reflexivity.
  - rewrite pend_app, (idle_pend _ K), app_nil_r in *. rewrite EA, b3, !app_assoc, ED. reflexivity.
Qed.

Definition inv0 (s : ws) (k : list op) (q : list jname) : Prop := base (T s) (tr s) k q /\ (normal (T s) (tr s) (selfc s) k q \/ erring C (T s) (tr s) k).
Lemma inv0_Inv s k q : cbe s = false -> inv0 s k q -> Inv s k q.
Proof. intros E [H1 H2]. split; [exact H1|]. rewrite E. exact H2. Qed.

(** A step that only adds events that are not about writes, and ops. *)
Lemma swap_still s s' es p os k q :
  T s' = T s -> tr s' = es ++ tr s -> Forall still es -> (selfc s = true -> selfc s' = true) ->
  base (T s) (tr s) (p ++ k) q -> normal (T s) (tr s) (selfc s) (p ++ k) q -> Forall neutral p -> pend p = [] -> Forall idle k ->
  Forall neutral os -> match os with [] => True | o :: os' => (top_ok o \/ err_op o) /\ Forall idle os' end -> pend os = [] -> inv0 s' (os ++ k) q.
Proof.
  intros ET EL ES SC B N P PP K O TO PO. unfold inv0. rewrite ET, EL.
  assert (B' : base (T s) (es ++ tr s) (os ++ k) q).
  { eapply base_swap; [exact B|exact K| | |].
    - destruct os as [|o os]; [constructor|apply TO].
    - apply still_accepts, ES.
    - rewrite still_dones, PP, PO by exact ES. reflexivity. }
  split; [exact B'|].
  assert (CA : close_asked (es ++ tr s) = close_asked (tr s)) by (rewrite asked_app, still_asked by exact ES; reflexivity).
  assert (TURN : in_turn (es ++ tr s)) by (apply still_turn; [exact ES|apply (n_turn _ _ _ _ _ _ N)]).
  assert (GO : match os with [] => True | o :: os' => top_ok o /\ Forall idle os' end -> normal (T s) (es ++ tr s) (selfc s') (os ++ k) q).
  { intros TO'. exact (normal_swap _ _ _ _ _ p os k q N P K O TO' (still_accepts _ _ ES) (still_sends _ _ ES) TURN CA SC (over_app es _)). }
  destruct os as [|o os]; [left; apply GO; exact I|].
  destruct TO as [[TO|TO] TI]; [left; apply GO; split; assumption|].
  right. split; [eexists _, _; split; [reflexivity|exact TO]|]. split; [apply still_weak; [exact ES|]; eapply normal_weak; exact N|eapply normal_inflight; exact N].
Qed.

(** ** Taking the head off *)
Lemma pop_form t n q c : rep t (n :: q) -> jwbh (jobs t n) = Some c ->
  write_jobs_popfront t = Ret (set_job (set_first t (hd_error q)) n (set_wbh (jobs t n) None), n, tl c).
Proof.
  intros R W. unfold write_jobs_popfront. destruct (rep_pop _ _ _ R) as [-> _]. cbn [jobs set_first]. rewrite W. reflexivity.
Qed.
Lemma set_job_rep t n j q : rep t q -> jnext j = jnext (jobs t n) -> rep (set_job t n j) q.
Proof.
  intros R E. apply (rep_ext t); [reflexivity|reflexivity| |exact R]. intros m. cbn. destruct (jname_dec m n) as [-> | H]; [rewrite upd_same; exact E|rewrite upd_other by assumption; reflexivity].
Qed.
Definition popped (t : tx) (n : jname) (q : list jname) : tx := set_job (set_first t (hd_error q)) n (set_wbh (jobs t n) None).
Lemma popped_rep t n q : rep t (n :: q) -> rep (popped t n q) q.
Proof. intros R. destruct (rep_pop _ _ _ R) as [_ R']. apply set_job_rep; [exact R'|reflexivity]. Qed.
Lemma popped_handler t n q m : jhandler (jobs (popped t n q) m) = jhandler (jobs t m).
Proof. cbn. destruct (jname_dec m n) as [-> | H]; [rewrite upd_same; reflexivity|rewrite upd_other by assumption; reflexivity]. Qed.
Lemma popped_other t n q m : m <> n -> jobs (popped t n q) m = jobs t m.
Proof. intros H. cbn. apply upd_other, H. Qed.
Lemma popped_base t l p os k n q : base t l (p ++ k) (n :: q) -> pend p = [] -> Forall idle k -> pend (tl os) = [] -> pend os = (if mp n then usr n (jhandler (jobs t n)) else []) ->
  base (popped t n q) l (os ++ k) q.
Proof.
  intros [b1 b2 b3] P K TO PO. split.
  - apply popped_rep, b1.
  - destruct os as [|o os]; cbn [app tl] in *; [destruct K; [reflexivity|cbn; apply idle_pend; assumption]|]. rewrite pend_app, (idle_pend _ K), TO. reflexivity.
  - rewrite pend_app, P, (idle_pend _ K) in b3. cbn [app] in b3. rewrite pend_app, (idle_pend _ K), PO, app_nil_r, b3.
    rewrite (qusers_ext t (popped t n q)) by (intros m _; apply popped_handler). reflexivity.
Qed.

Lemma tl_wires t l h n q : wires C t l (S h) (n :: q) -> rep t (n :: q) -> wires C (popped t n q) l h q.
Proof.
  intros (m0 & D & Q & w1 & w2 & w3 & w4 & w5) R. destruct Q as [|a Q]; [discriminate|]. cbn [map] in w2. injection w2 as <- <-.
  set (n := ent_name a) in *. destruct R as [ND _]. inversion ND as [|? ? NI ND']; subst.
  exists m0, (D ++ [a]), Q. split; [rewrite w1, <- app_assoc; reflexivity|]. split; [reflexivity|]. split.
  { cbn [firstn] in w3. rewrite <- app_assoc. exact w3. }
  cbn [skipn] in w4. assert (NN : forall b, In b Q -> ent_name b <> n). { intros b Hb X. apply NI. rewrite <- X. apply in_map. exact Hb. }
  split.
  - rewrite Forall_forall in *. intros b Hb. rewrite popped_other; [apply w4, Hb|]. apply NN. rewrite <- (firstn_skipn h Q). apply in_or_app. right. exact Hb.
  - inversion w5 as [|? ? _ w5']; subst. rewrite Forall_forall in *. intros b Hb. rewrite popped_handler. apply w5', Hb.
Qed.

(** ** A write ends *)
Lemma stream_step s sh err k q ch s' os :
  base (T s) (tr s) (OStream sh err :: k) q -> normal (T s) (tr s) (selfc s) (OStream sh err :: k) q ->
  run_op C s (OStream sh err) ch = Ret (s', os) -> inv0 s' (os ++ k) (tl q) /\ cbe s' = cbe s.
Proof.
  intros B N H. pose proof (tok_in _ _ _ _ _ N I) as TK. pose proof (n_tail _ _ _ _ _ _ N) as K. cbn [tl] in K.
  unfold nstream, nnext in TK. cbn [filter is_stream is_next length] in TK. fold (nstream k) in TK. fold (nnext k) in TK.
  destruct q as [|n q]; [cbn [one] in TK; lia|]. cbn [one] in TK. assert (TI : inflight (T s) = 0%nat) by lia. assert (TN : nnext k = 0%nat) by lia. cbn [tl].
  pose proof (n_sh _ _ _ _ _ _ N) as [_ SH]. pose proof (n_ready _ _ _ _ _ _ N n (or_introl eq_refl)) as [WB RD].
  destruct (jwbh (jobs (T s) n)) as [c|] eqn:W; [|congruence]. pose proof B as B0. destruct B as [b1 b2 b3].
  cbn [run_op] in H. rewrite (pop_form _ _ _ _ b1 W) in H. cbn [obind] in H. fold (popped (T s) n q) in H. rewrite popped_handler in H.
  assert (CM : forall os' : list op, wires C (popped (T s) n q) (tr s) 0 q).
  { intros _. apply tl_wires; [|exact b1]. pose proof (n_wires _ _ _ _ _ _ N) as W0. unfold hs in W0. rewrite TI in W0.
    unfold nstream in W0. cbn [filter is_stream length] in W0. fold (nstream k) in W0. rewrite (idle_nstream _ K) in W0. exact W0. }
  assert (NR : forall m, In m q -> ready m (jobs (popped (T s) n q) m)).
  { intros m Hm. destruct b1 as [ND _]. inversion ND as [|? ? NI _]; subst. rewrite popped_other by (intros ->; exact (NI Hm)). apply (n_ready _ _ _ _ _ _ N). right. exact Hm. }
  assert (NF : forall m, mp m = true -> ~ In m q -> jwbh (jobs (popped (T s) n q) m) = None).
  { intros m M1 M2. destruct (jname_dec m n) as [-> | Hn]; [cbn; rewrite upd_same; reflexivity|]. rewrite popped_other by assumption. apply (n_free _ _ _ _ _ _ N); [exact M1|]. intros [X|X]; [congruence|exact (M2 X)]. }
  assert (NCL : forall q1 q2, q = q1 ++ JClose :: q2 -> Forall (fun m => m = JPong) q2).
  { intros q1 q2 ->. apply (n_close _ _ _ _ _ _ N (n :: q1) q2). reflexivity. }
  assert (NC1 : In JClose q -> close_asked (tr s) = true). { intros X. apply (n_cls1 _ _ _ _ _ _ N). right. exact X. }
  (* the two ways on *)
  assert (MSG : n <> JClose -> sh = SHMessage -> forall h, jhandler (jobs (T s) n) = Some h -> inv0 (set_T s (popped (T s) n q)) ([OHandler n (Some h) err (tl c); OMsgNext (hd_error q)] ++ k) q).
  { intros NJ _ h JH. split.
    - apply (popped_base _ _ [OStream sh err]); try assumption; try reflexivity. cbn. rewrite app_nil_r, JH. reflexivity.
    - cbn [T set_T tr selfc]. assert (NO : top_ok (OHandler n (Some h) err (tl c)) -> normal (popped (T s) n q) (tr s) (selfc s) ([OHandler n (Some h) err (tl c); OMsgNext (hd_error q)] ++ k) q).
      { intros TO. split; try assumption; try apply N.
        - cbn. constructor; [exact I|exact K].
        - apply tok_out; [exact I|]. rewrite nstream_app, nnext_app, (idle_nstream _ K), TN. cbn [popped set_job set_jobs set_first inflight]. rewrite TI. destruct q; reflexivity.
        - destruct q as [|m q]; [exact I|]. cbn [popped set_job set_jobs set_first inflight]. rewrite TI. split; [lia|exact I].
        - intros m Hm. cbn in Hm. destruct Hm as [Hm|[Hm|Hm]]; [discriminate|congruence|destruct (nnext_0 _ _ TN Hm)].
        - unfold hs. rewrite nstream_app, (idle_nstream _ K). cbn [popped set_job set_jobs set_first inflight]. rewrite TI. apply (CM k). }
      destruct (Z.eq_dec err CIO_SUCCESS) as [-> | NE]; [left; apply NO; intros _; reflexivity|].
      destruct h as [id|]; [left; apply NO; intros X; discriminate X|]. right. split; [eexists _, _; split; [reflexivity|split; [reflexivity|exact NE]]|split; [eapply normal_weak; exact N|cbn [popped set_job set_jobs set_first inflight]; lia]]. }
  assert (CLS : n = JClose -> forall o, idle o -> op_usr o = [] -> neutral o -> inv0 (set_T s (popped (T s) n q)) ([OAbort; o] ++ k) q).
  { intros NJ o IO UO NEU. split.
    - apply (popped_base _ _ [OStream sh err]); try assumption; try reflexivity; [cbn [tl]; rewrite pend_cons, UO; reflexivity|]. rewrite !pend_cons, UO. rewrite NJ. reflexivity.
    - left. cbn [T set_T tr selfc]. split; try assumption; try apply N.
      + cbn. constructor; [exact IO|exact K].
      + cbn [app]. split; [exact TI|]. split; [|apply (n_close _ _ _ _ _ _ N [] q); rewrite NJ; reflexivity].
        change (o :: k) with ([o] ++ k). rewrite nnext_app, TN, neutral_nnext; [reflexivity|repeat constructor; exact NEU].
      + destruct q as [|m q]; [exact I|]. cbn [popped set_job set_jobs set_first inflight]. rewrite TI. split; [lia|exact I].
      + intros m Hm. exfalso. cbn in Hm. destruct Hm as [Hm|[Hm|Hm]]; [discriminate|subst o; exact NEU|destruct (nnext_0 _ _ TN Hm)].
      + unfold hs. cbn [popped set_job set_jobs set_first inflight]. rewrite TI. change ([OAbort; o] ++ k) with ([OAbort] ++ [o] ++ k). rewrite !nstream_app, (idle_nstream _ K), (neutral_nstream [o]); [apply (CM k)|repeat constructor; exact NEU]. }
  rewrite SH in H. cbn [T set_T first popped set_job set_jobs set_first] in H.
  destruct n; cbn [ready] in RD.
  - destruct RD as [S1 [id S2]]. rewrite S1, S2 in H. injection H as <- <-. split; [|reflexivity]. apply MSG; try assumption; [discriminate|congruence].
  - destruct RD as [S1 [id S2]]. rewrite S1, S2 in H. injection H as <- <-. split; [|reflexivity]. apply MSG; try assumption; [discriminate|congruence].
  - destruct RD as [S1 S2]. rewrite S1, S2 in H. injection H as <- <-. split; [|reflexivity]. apply MSG; try assumption; [discriminate|congruence].
  - destruct RD as [[S1 S2]|[S1 [id S2]]]; rewrite S1 in H; injection H as <- <-; (split; [|reflexivity]).
    + apply CLS; try reflexivity; exact I.
    + apply CLS; try reflexivity; exact I.
Qed.

(** ** The next write starts *)
Lemma send_step s n k q ch s' os :
  base (T s) (tr s) (OMsgNext (Some n) :: k) q -> normal (T s) (tr s) (selfc s) (OMsgNext (Some n) :: k) q -> choice_ok ch ->
  run_op C s (OMsgNext (Some n)) ch = Ret (s', os) -> inv0 s' (os ++ k) q /\ cbe s' = cbe s.
Proof.
  intros B N CH H. pose proof (tok_in _ _ _ _ _ N I) as TK. pose proof (n_tail _ _ _ _ _ _ N) as K. cbn [tl] in K.
  unfold nstream, nnext in TK. cbn [filter is_stream is_next length] in TK. fold (nstream k) in TK. fold (nnext k) in TK.
  pose proof (n_next _ _ _ _ _ _ N n (or_introl eq_refl)) as HD. destruct q as [|n' q]; [discriminate|]. injection HD as ->. cbn [one] in TK.
  assert (TI : inflight (T s) = 0%nat) by lia. assert (TN : nnext k = 0%nat) by lia.
  pose proof (idle_nstream _ K) as KS. pose proof (idle_pend _ K) as KP.
  pose proof (n_wires _ _ _ _ _ _ N) as W0. pose proof W0 as (m0 & D & Q & w1 & w2 & w3 & w4 & w5).
  assert (HS0 : hs (T s) (OMsgNext (Some n) :: k) = 0%nat). { unfold hs. rewrite TI. unfold nstream. cbn [filter is_stream]. exact KS. }
  rewrite HS0 in *. cbn [firstn skipn] in w3, w4. rewrite app_nil_r in w3.
  destruct Q as [|a Q]; [discriminate|]. cbn [map] in w2. injection w2 as w2 w2'.
  assert (EO : ent_ok a). { pose proof (n_ents _ _ _ _ _ _ N) as X. rewrite w1 in X. apply Forall_app in X. destruct X as [_ X]. inversion X; assumption. }
  inversion w4 as [|? ? SC4 w4']; subst. inversion w5 as [|? ? SC5 w5']; subst. set (n := ent_name a) in *.
  assert (JO : job_ok (jobs (T s) n)) by (eapply ok_content; [exact SC4|apply EO]).
  cbn [run_op] in H. destruct (jwbh (jobs (T s) n)) as [c|] eqn:W; [|discriminate]. binv H. destruct a0 as [s2 r]. cbn [fst snd] in H.
  assert (ZL : total_size c <= SIZE_MAX). { destruct JO as (_ & c0 & X & _ & Y). rewrite W in X. injection X as <-. exact Y. }
  destruct (send_wire C HC s n _ ch s2 r JO ZL CH (n_mask _ _ _ _ _ _ N) E) as (cc & WT & WW).
  apply send_frame_frame in E. destruct E as (E1 & (c1 & c0 & _ & _ & E2) & E3 & E4 & E5 & E6 & E7 & E8 & E9 & E10).
  assert (PL : total_size c = N.of_nat (length (payload (ent_job a)))). { destruct SC4 as (X & _). unfold payload. rewrite <- X, W. reflexivity. }
  assert (MD : musers D = dones (tr s)).
  { pose proof (popped_users C _ _ _ _ _ B W0 D (a :: Q) w1 eq_refl w5) as X. rewrite pend_cons, KP in X. cbn in X. rewrite app_nil_r in X. exact X. }
  assert (TU2 : in_turn (tr s2)).
  { rewrite WT. cbn. split; [|apply (n_turn _ _ _ _ _ _ N)]. rewrite w1, <- (carried_length _ _ _ _ _ w3), firstn_app, firstn_all, Nat.sub_diag. cbn [firstn]. rewrite app_nil_r, MD. reflexivity. }
  assert (EA2 : accepts (tr s2) = accepts (tr s)) by (rewrite WT; unfold accepts at 1; cbn [collect acc_of]; apply app_nil_r).
  assert (EX2 : sends (tr s2) = sends (tr s) ++ [(n, cc)]) by (rewrite WT; reflexivity).
  assert (ED2 : dones (tr s2) = dones (tr s)) by (rewrite WT; unfold dones at 1; cbn [collect done_of]; apply app_nil_r).
  assert (CR : carried m0 (D ++ [a]) (sends (tr s2)) (cmask (T s2))).
  { rewrite EX2. destruct a as [[na ja] la]. eapply car_snoc; [exact w3|right; reflexivity|]. cbn [ent_job fst snd] in *. rewrite <- PL. eapply wire_content; [exact SC4|exact WW]. }
  assert (WK : weak (tr s2)).
  { split; [rewrite EA2; apply (n_ents _ _ _ _ _ _ N)|]. split; [exact TU2|]. exists m0, (D ++ [a]), Q, (cmask (T s2)). split; [rewrite EA2, w1, <- app_assoc; reflexivity|exact CR]. }
  destruct B as [b1 b2 b3].
  assert (R1 : rep (T s2) (n :: map ent_name Q)).
  { apply (rep_ext (T s)); [exact E6|exact E7| |exact b1]. intros m. destruct (jname_dec m n) as [-> | Hm]; [exact E3|rewrite E4 by assumption; reflexivity]. }
  assert (BU : forall o, pend o = [] -> Forall idle (tl o) -> base (T s2) (tr s2) (o ++ k) (n :: map ent_name Q)).
  { intros o PO TO. split; [exact R1| |].
    - destruct o as [|o0 o]; cbn [app tl] in *; [destruct K; [reflexivity|cbn; apply idle_pend; assumption]|]. rewrite pend_app, KP, (idle_pend _ TO). reflexivity.
    - rewrite EA2, ED2, pend_app, PO, KP. rewrite pend_cons, KP in b3. cbn [op_usr app] in b3. rewrite b3. cbn [app]. f_equal. symmetry. apply qusers_ext. intros m _. apply E5. }
  assert (CB2 : cbe s2 = cbe s) by apply E1. assert (SF : selfc s2 = selfc s) by apply E1.
  assert (NM : forall o, o = [] /\ inflight (T s2) = 1%nat \/ (exists e, o = [OStream (jsh (jobs (T s) n)) e]) /\ inflight (T s2) = 0%nat -> normal (T s2) (tr s2) (selfc s2) (o ++ k) (n :: map ent_name Q)).
  { intros o HO. rewrite SF.
    assert (OV : peer_closed (tr s2) = peer_closed (tr s)) by (rewrite WT; reflexivity). assert (CQ : close_asked (tr s2) = close_asked (tr s)) by (rewrite WT; reflexivity).
    assert (HS : hs (T s2) (o ++ k) = 1%nat). { unfold hs. rewrite nstream_app, KS. destruct HO as [[-> ->] | [[e ->] ->]]; reflexivity. }
    destruct N as [n1 n2 n3 n4 n5 n6 n7 n8 n9 n10 n11 n12 n13 n14]. pose proof b1 as [ND _]. inversion ND as [|? ? NI _]; subst.
    assert (TA : no_abort (o ++ k)). { destruct HO as [[-> _] | [[e ->] _]]; [apply idle_no_abort, K|exact I]. }
    split; try assumption.
    - destruct HO as [[-> _] | [[e ->] _]]; cbn; [destruct K; cbn; [constructor|assumption]|exact K].
    - destruct HO as [[-> _] | [[e ->] _]]; cbn; [|exact I]. destruct K as [|o0 k0 Ho Hk]; [exact I|apply idle_top, Ho].
    - apply (tok_out (T s2) (o ++ k) (n :: map ent_name Q)); [exact TA|]. destruct HO as [[-> Z] | [[e ->] Z]]; rewrite Z; cbn [app]; [rewrite KS, TN; reflexivity|].
      unfold nstream, nnext in *. cbn [filter is_stream is_next length]. rewrite KS, TN. reflexivity.
    - destruct (E5 n) as (_ & _ & _ & _ & y & _). split; [intros _; congruence|].
      destruct HO as [[-> Z] | [[e ->] Z]]; cbn [app]; [|congruence]. destruct K as [|o0 k0 Ho Hk]; [exact I|]. destruct o0; try destruct Ho; exact I.
    - intros m Hm. exfalso. apply in_app_or in Hm. destruct Hm as [Hm|Hm]; [|exact (nnext_0 _ _ TN Hm)]. destruct HO as [[-> _] | [[e ->] _]]; [destruct Hm|destruct Hm as [Hm|[]]; discriminate].
    - intros m Hm. destruct (E5 m) as (y1 & _ & _ & _ & y5 & y6). destruct (n6 m Hm) as [r1 r2]. split; [rewrite y6; exact r1|]. rewrite y1, y5. exact r2.
    - intros m M1 M2. destruct (E5 m) as (_ & _ & _ & _ & _ & y6). apply y6. apply n7; assumption.
    - rewrite CQ. exact n9.
    - rewrite CQ, OV. exact n10.
    - eapply wire_mask; [|exact WW]. exact n11.
    - rewrite EA2. exact n12.
    - rewrite HS. exists m0, D, (a :: Q). split; [rewrite EA2; exact w1|]. split; [reflexivity|]. cbn [firstn skipn]. split; [exact CR|].
      split.
      + rewrite Forall_forall in *. intros b Hb. rewrite E4; [apply w4', Hb|]. intros X. apply NI. rewrite <- X. apply in_map, Hb.
      + rewrite Forall_forall in *. intros b Hb. destruct (E5 (ent_name b)) as (y1 & _). rewrite y1. apply w5, Hb. }
  assert (RES : s' = s2 -> (normal (T s2) (tr s2) (selfc s2) (os ++ k) (n :: map ent_name Q) \/ erring C (T s2) (tr s2) (os ++ k)) -> pend os = [] -> Forall idle (tl os) -> inv0 s' (os ++ k) (n :: map ent_name Q) /\ cbe s' = cbe s).
  { intros -> X PO TO. split; [|exact CB2]. split; [|exact X]. apply BU; assumption. }
  destruct (ch_write ch) as [|e|e] eqn:CW; destruct E10 as [-> E10]; injection H as <- <-; (apply RES; [reflexivity| |reflexivity|cbn; constructor]).
  - left. apply NM. left. split; [reflexivity|]. rewrite E10, TI. reflexivity.
  - left. apply (NM [_]). right. split; [eauto|]. rewrite E10, TI. reflexivity.
  - right. split; [eexists _, _; split; [reflexivity|exact I]|split; [exact WK|rewrite E10, TI; lia]].
Qed.
End S.
