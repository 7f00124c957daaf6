(** Histories only grow, and the only step that marks the websocket as failed is
    the one that reports the error. *)
From Verif Require Import Base Utf8Model MaskModel EndianModel WsModel WsFrame.
Open Scope N_scope.

Definition is_error (e : ev) : bool := match e with EvError _ _ => true | _ => false end.

(** Payloads of the pings reported to the application, and of the pongs the
    library itself queued, oldest first. *)
Definition ping_of (e : ev) : list (list N) := match e with EvControl 9 data => [data] | _ => [] end.
Definition pong_of (e : ev) : list (list N) :=
  match e with
  | EvAccept JPong (Job _ (Some c) (Some HPong) 10 true false SHMessage) len => if len =? total_size c then [chain_bytes c] else []
  | _ => []
  end.
Fixpoint collect {A} (f : ev -> list A) (t : list ev) : list A := match t with [] => [] | e :: r => collect f r ++ f e end.
Lemma collect_app {A} (f : ev -> list A) a b : collect f (a ++ b) = collect f b ++ collect f a.
Proof. induction a as [|e r IH]; cbn; [rewrite app_nil_r; reflexivity|rewrite IH, app_assoc; reflexivity]. Qed.

Section G0.
Variable C : cfg.
(** A close frame is only reported if its payload passed the check. *)
Definition close_accepted (data : list N) : Prop := exists addr status len, check_close_payload C addr data = Ret (CVOk status len).
Definition mild (e : ev) : Prop :=
  match e with EvError _ _ => False | EvControl 8 data => close_accepted data | _ => True end.
Definition milds (es : list ev) : Prop := Forall mild es /\ collect ping_of es = collect pong_of es.
Lemma milds_app a b : milds a -> milds b -> milds (a ++ b).
Proof. intros [A1 A2] [B1 B2]. split; [apply Forall_app; auto|]. rewrite !collect_app. congruence. Qed.
Lemma milds_errors es : milds es -> filter is_error es = [].
Proof. intros [H _]. induction H as [|e r He Hr IH]; [reflexivity|]. cbn [filter]. destruct e; try exact IH. destruct He. Qed.

(** Control frames never are continuation chunks, and the close job never has the
    library's pong handler. *)
Definition pong_plain (s : ws) : Prop :=
  (forall n, n <> JMsg -> jcont (jobs (T s) n) = false) /\ jhandler (jobs (T s) JClose) <> Some HPong.
Definition grow (s s' : ws) : Prop :=
  pong_plain s -> pong_plain s' /\ (exists es, tr s' = es ++ tr s /\ milds es) /\ cbe s' = cbe s /\ exists l, inp s' = inp s ++ l.

Definition same_cont (s s' : ws) : Prop := (forall n, n <> JMsg -> jcont (jobs (T s') n) = jcont (jobs (T s) n)) /\
  (jhandler (jobs (T s') JClose) = jhandler (jobs (T s) JClose) \/ jhandler (jobs (T s') JClose) <> Some HPong).
Lemma same_cont_plain s s' : same_cont s s' -> pong_plain s -> pong_plain s'.
Proof. intros [X Y] [P Q]. split; [intros n Hn; rewrite (X n Hn); apply P, Hn|]. destruct Y as [-> | Y]; assumption. Qed.
Lemma grow_eq s s' : same_cont s s' -> tr s' = tr s -> cbe s' = cbe s -> (exists l, inp s' = inp s ++ l) -> grow s s'.
Proof.
  intros X E F G P. split; [eapply same_cont_plain; eassumption|].
  split; [exists []; split; [exact E|split; [constructor|reflexivity]]|split; assumption].
Qed.
Lemma inp_same (s s' : ws) : inp s' = inp s -> exists l, inp s' = inp s ++ l.
Proof. intros E. exists []. rewrite app_nil_r. exact E. Qed.
Lemma grow_refl s : grow s s.
Proof. apply grow_eq; [split; [intros m Hm; reflexivity|left; reflexivity]|reflexivity|reflexivity|apply inp_same; reflexivity]. Qed.
Lemma grow_trans a b c : grow a b -> grow b c -> grow a c.
Proof.
  intros G1 G2 P. destruct (G1 P) as (P1 & [e1 [E1 F1]] & C1 & [l1 L1]). destruct (G2 P1) as (P2 & [e2 [E2 F2]] & C2 & [l2 L2]).
  split; [exact P2|]. split; [exists (e2 ++ e1)|split; [congruence|exists (l1 ++ l2)]].
  - split; [rewrite E2, E1; apply app_assoc|apply milds_app; assumption].
  - rewrite L2, L1. symmetry. apply app_assoc.
Qed.
Definition plain_ev (e : ev) : Prop := mild e /\ ping_of e = [] /\ pong_of e = [].
Lemma grow_log s e : plain_ev e -> grow s (log s e).
Proof.
  intros (X & Y & Z) P. split; [exact P|]. split; [exists [e]; split; [reflexivity|]|split; [reflexivity|apply inp_same; reflexivity]].
  split; [constructor; [exact X|constructor]|]. cbn. rewrite Y, Z. reflexivity.
Qed.
End G0.
Ltac scont := first [split; [intros m Hm; reflexivity|left; reflexivity]
  | split; [intros m Hm; destruct m; (reflexivity || congruence)|first [left; reflexivity|right; discriminate]]
  | match goal with n : jname |- _ => split; [intros m Hm; destruct n, m; (reflexivity || congruence)|destruct n; first [left; reflexivity|right; discriminate]] end].
Ltac geq := apply grow_eq; [scont|reflexivity|reflexivity|first [apply inp_same; reflexivity | eexists; reflexivity]].
Ltac plainev := split; [exact I|split; [reflexivity|first [reflexivity | match goal with n : jname |- _ => destruct n; reflexivity end]]].

Section G.
Variable C : cfg.
Notation grow := (grow C).
Notation grow_refl := (grow_refl C).
Notation grow_trans := (grow_trans C).

Lemma send_frame_grow s n len ch s' r : send_frame C s n len ch = Ret (s', r) -> grow s s'.
Proof.
  intros H. apply send_frame_frame in H. destruct H as ((_ & c2 & _ & _ & _ & _ & _ & _ & c9) & (c & _ & E & _) & _ & _ & K & _).
  intros P. split; [eapply same_cont_plain; [|exact P]; split; [intros m _; destruct (K m) as (_ & _ & _ & Z & _); exact Z|left; apply (K JClose)]|].
  split; [exists [EvSend n c]; split; [exact E|split; [repeat constructor|reflexivity]]|split; [exact c2|apply inp_same, c9]].
Qed.
Lemma enqueue_grow s n len ch kerr s' ops : enqueue_job C s n len ch kerr = Ret (s', ops) -> grow s s'.
Proof.
  intros H. apply enqueue_frame in H. destruct H as ((_ & c2 & _ & _ & _ & _ & _ & _ & c9) & E & K & _).
  assert (X : same_cont s s') by (split; [intros m _; destruct (K m) as (_ & _ & _ & Z & _); exact Z|left; apply (K JClose)]). destruct E as [E | [c E]].
  - apply grow_eq; [assumption|assumption|assumption|apply inp_same, c9].
  - intros P. split; [eapply same_cont_plain; eassumption|].
    split; [exists [EvSend n c]; split; [exact E|split; [repeat constructor|reflexivity]]|split; [exact c2|apply inp_same, c9]].
Qed.
Lemma bs_read_grow s cb most n msg s' ops : bs_read C s cb most n msg = (s', ops) -> grow s s'.
Proof. unfold bs_read. destruct (_ && _)%bool; intros H; injection H as <- _; geq. Qed.
Lemma bs_read_grow' s cb most n msg s' ops : Ret (bs_read C s cb most n msg) = Ret (s', ops) -> grow s s'.
Proof. intros H. eapply bs_read_grow. injection H as H. rewrite <- H. reflexivity. Qed.

Lemma handle_frame_grow s addr data ch s' ops : handle_frame C s addr data ch = Ret (s', ops) -> grow s s'.
Proof.
  unfold handle_frame. intros H. binv H. clear E. rename a into d. repeat match type of H with (if ?b then _ else _) = _ => destruct b end.
  - unfold handle_binary_frame in H. binv H. injection H as <- _. eapply grow_trans; [|apply grow_log; plainev].
    destruct (rem (R s) =? 0); [injection E as <-; apply grow_refl|]. binv E. injection E as <-. geq.
  - unfold handle_text_frame in H. binv H. destruct a as [u st]. destruct (_ || _)%bool; [injection H as <- _; geq|].
    binv H. injection H as <- _. eapply grow_trans; [|apply grow_log; plainev].
    match type of E0 with (if ?b then Ret ?x else _) = _ => assert (X : grow s x) by (destruct (fin (R s)); geq); destruct b end.
    + injection E0 as <-. exact X.
    + binv E0. injection E0 as <-. eapply grow_trans; [exact X|geq].
  - unfold handle_ping_frame in H. destruct (Nat.ltb _ _); [discriminate|]. apply enqueue_grow in H.
    eapply grow_trans; [|exact H]. intros P. split; [split; [intros m Hm; cbn [T log set_T set_job set_jobs jobs]; destruct (jname_dec m JPong) as [-> | X]; [rewrite upd_same|rewrite upd_other by assumption]; apply P, Hm|apply P]|].
    split; [|split; [reflexivity|apply inp_same; reflexivity]]. eexists [_; _]. split; [reflexivity|]. split; [repeat constructor|].
    cbn [collect ping_of pong_of app T log]. rewrite (proj1 P JPong) by discriminate. destruct d as [|b r]; [reflexivity|].
    cbn [length Nat.ltb Nat.leb total_size chain_bytes map concat snd app N.of_nat]. unfold total_size, chain_bytes. cbn [map concat snd app]. rewrite N.eqb_refl. cbn. rewrite app_nil_r. reflexivity.
  - injection H as H. apply bs_read_grow in H. eapply grow_trans; [apply grow_log with (e := EvControl PONG_FRAME d); plainev|exact H].
  - unfold handle_close_frame in H. binv H. destruct a as [|status len]; [injection H as <- _; apply grow_refl|].
    destruct (selfc _).
    + injection H as <- _. eapply grow_trans; [apply grow_log with (e := EvControl CLOSE_FRAME d); split; [exists addr, status, len; exact E|split; reflexivity]|geq].
    + apply enqueue_grow in H. eapply grow_trans; [|exact H]. unfold accept_close, prepare_close_job. eapply grow_trans; [|apply grow_log; plainev].
      eapply grow_trans; [apply grow_log with (e := EvControl CLOSE_FRAME d); split; [exists addr, status, len; exact E|split; reflexivity]|geq].
  - injection H as <- _. apply grow_refl.
Qed.

Lemma read_payload_grow s ch s' ops : read_payload C s ch = Ret (s', ops) -> grow s s'.
Proof.
  unfold read_payload. intros H. destruct (0 <? rem (R s)); [|eapply handle_frame_grow; exact H].
  destruct (_ <? _); [injection H as <- _; apply grow_refl|]. injection H as H. eapply bs_read_grow; exact H.
Qed.
Lemma get_mask_or_payload_grow s ch s' ops : get_mask_or_payload C s ch = Ret (s', ops) -> grow s s'.
Proof.
  unfold get_mask_or_payload. intros H. destruct (is_server C); [injection H as H; eapply bs_read_grow; exact H|eapply read_payload_grow; exact H].
Qed.

Lemma fire_grow s rq f ch s' ops : fire C s rq f ch = Ret (s', ops) -> grow s s'.
Proof.
  unfold fire. intros H. binv H. destruct a as [s2 o2]. injection H as <- _.
  match type of E with context [set_cbrun ?x ?y] => set (s1 := set_cbrun x y) in *; apply (grow_trans s s1); [geq|] end.
  cbn [fst]. clearbody s1. destruct f as [err|addr view]; [injection E as <- _; apply grow_refl|].
  destruct (rq_cb rq).
  - unfold get_header in E. destruct view; [discriminate|]. destruct (Nat.ltb _ _); [discriminate|]. destruct (negb _); [injection E as <- _; geq|].
    destruct (handle_fin _ _); [injection E as <- _; geq|]. injection E as E. apply bs_read_grow in E.
    eapply grow_trans; [|exact E]. geq.
  - unfold get_first_length in E. destruct view; [discriminate|]. destruct (Nat.ltb _ _); [discriminate|]. destruct (negb _); [injection E as <- _; geq|].
    destruct (_ <=? _). { apply get_mask_or_payload_grow in E. eapply grow_trans; [|exact E]. geq. }
    destruct (is_control_frame _); [injection E as <- _; geq|].
    destruct (_ =? _); injection E as E; apply bs_read_grow in E; (eapply grow_trans; [|exact E]); geq.
  - unfold get_length in E. destruct (_ || _)%bool; [discriminate|]. destruct (_ <? _); [injection E as <- _; geq|].
    apply get_mask_or_payload_grow in E. eapply grow_trans; [|exact E]. geq.
  - unfold get_length in E. destruct (_ || _)%bool; [discriminate|]. destruct (_ <? _); [injection E as <- _; geq|].
    apply get_mask_or_payload_grow in E. eapply grow_trans; [|exact E]. geq.
  - unfold get_mask in E. destruct (_ || _)%bool; [discriminate|]. apply read_payload_grow in E. eapply grow_trans; [|exact E]. geq.
  - unfold get_payload in E. destruct (if is_control_frame _ then _ else _) as [s3 n3] eqn:E3 in E.
    assert (G : grow s1 s3) by (destruct (is_control_frame _); injection E3 as <- _; geq).
    destruct (Nat.ltb _ _); [discriminate|]. apply handle_frame_grow in E. eapply grow_trans; [exact G|]. eapply grow_trans; [|exact E]. geq.
Qed.

Lemma ping_pong_grow s ty n id p ch s' ops : write_ping_or_pong C s ty n id p ch = Ret (s', ops) -> grow s s'.
Proof.
  unfold write_ping_or_pong, refuse. intros H.
  destruct id as [id|]; [|injection H as <- _; apply grow_log; plainev].
  destruct (negb _); [injection H as <- _; apply grow_log; plainev|].
  destruct (jwbh _); [injection H as <- _; apply grow_log; plainev|]. destruct p as [c|]; [|discriminate].
  apply enqueue_grow in H. eapply grow_trans; [|exact H]. eapply grow_trans; [|apply grow_log; plainev]. geq.
Qed.

Lemma call_grow s a ch s' ops : call C s a ch = Ret (s', ops) -> grow s s'.
Proof.
  unfold call, refuse. intros H. apply (grow_trans s (log s (EvCall a))); [apply grow_log; plainev|]. set (s1 := log s (EvCall a)) in *. clearbody s1.
  destruct a as [|id flen p lf bin|id p|id p|id p|id code reason].
  - destruct (_ =? _); apply bs_read_grow' in H; (eapply grow_trans; [|exact H]); geq.
  - destruct id as [id|]; [|injection H as <- _; apply grow_log; plainev]. destruct (jwbh _); [injection H as <- _; apply grow_log; plainev|].
    destruct (if fragw _ then _ else _) in H. apply enqueue_grow in H. eapply grow_trans; [|exact H]. eapply grow_trans; [|apply grow_log; plainev]. geq.
  - apply enqueue_grow in H. eapply grow_trans; [|exact H]. eapply grow_trans; [|apply grow_log; plainev]. geq.
  - eapply ping_pong_grow; exact H.
  - eapply ping_pong_grow; exact H.
  - destruct id as [id|]; [|injection H as <- _; apply grow_log; plainev]. destruct (jwbh _); [injection H as <- _; apply grow_log; plainev|].
    match type of H with context [prepare_close_job C ?x ?a ?b ?c ?d ?e] => set (s2 := prepare_close_job C x a b c d e) in * end.
    assert (G : grow s1 s2) by (unfold s2, prepare_close_job; geq).
    clearbody s2. destruct (negb _); [injection H as <- _; eapply grow_trans; [exact G|apply grow_log; plainev]|].
    destruct (negb _); [injection H as <- _; eapply grow_trans; [exact G|apply grow_log; plainev]|].
    apply enqueue_grow in H. eapply grow_trans; [exact G|]. eapply grow_trans; [|exact H]. eapply grow_trans; [|apply grow_log; plainev]. geq.
Qed.

Lemma dequeue_jobs t n t' : dequeue_job t = (n, t') -> jobs t' = jobs t.
Proof. unfold dequeue_job. destruct (first t); [destruct (opt_eqb _ _)|]; intros H; injection H as _ <-; reflexivity. Qed.
Lemma run_op_grow s o ch s' ops : run_op C s o ch = Ret (s', ops) ->
  grow s s' \/ (exists err code reason, o = OHandleError err code reason /\ cbe s = false /\ cbe s' = true /\ tr s' = EvError err reason :: tr s /\ inp s' = inp s /\ T s' = T s).
Proof.
  intros H. destruct o; cbn [run_op] in H; try (left; injection H as <- _; first [apply grow_refl|apply grow_log; plainev|geq]).
  - destruct (cbe s) eqn:B; injection H as <- _; [left; apply grow_refl|]. right. exists err, code, reason. repeat split; assumption.
  - left. destruct (dequeue_job (T s)) as [n t] eqn:D. apply dequeue_jobs in D. destruct n as [n|]; injection H as <- _.
    + apply grow_eq; [|reflexivity|reflexivity|apply inp_same; reflexivity]. split; [intros m Hm|left]; cbn [T set_T set_job set_jobs jobs]; rewrite D; [destruct n, m; reflexivity|destruct n; reflexivity].
    + apply grow_eq; [|reflexivity|reflexivity|apply inp_same; reflexivity]. split; [intros m Hm|left]; cbn [T set_T]; rewrite D; reflexivity.
  - left. apply enqueue_grow in H. eapply grow_trans; [|exact H]. unfold accept_close, prepare_close_job. eapply grow_trans; [|apply grow_log; plainev]. geq.
  - left. destruct (hasrh s); injection H as <- _; [apply grow_log; plainev|apply grow_refl].
  - left. injection H as <- _. eapply grow_trans; [|apply grow_log; plainev]. geq.
  - left. binv H. destruct a as [[t n0] c]. unfold write_jobs_popfront in E. destruct (dequeue_job (T s)) as [n t1] eqn:D. apply dequeue_jobs in D.
    destruct n as [n|]; [|discriminate]. destruct (jwbh (jobs t1 n)); [|discriminate]. injection E as <- _ _.
    assert (X : same_cont s (set_T s (set_job t1 n (set_wbh (jobs t1 n) None)))) by (split; [intros m Hm|left]; cbn [T set_T set_job set_jobs jobs]; rewrite D; [destruct n, m; reflexivity|destruct n; reflexivity]).
    destruct sh; [destruct (jhandler _); [|discriminate]| | |]; injection H as <- _; (apply grow_eq; [exact X|reflexivity|reflexivity|apply inp_same; reflexivity]).
  - left. destruct h as [[id|]|]; injection H as <- _; first [apply grow_log; plainev|apply grow_refl].
  - left. unfold call_handler in H. destruct (jhandler _) as [[id|]|]; injection H as <- _; first [apply grow_log; plainev|apply grow_refl].
  - left. destruct j as [n|]; [|injection H as <- _; apply grow_refl]. destruct (jwbh _); [|discriminate]. binv H. destruct a as [s1 r].
    apply send_frame_grow in E. destruct r; injection H as <- _; exact E.
  - left. destruct (negb _); [injection H as <- _; apply grow_refl|]. injection H as H. eapply bs_read_grow; exact H.
Qed.

Lemma step_grow s k x s' k' : step C (s, k) x = Ret (s', k') ->
  grow s s' \/ (exists ch err code reason k0, x = XOp ch /\ k = OHandleError err code reason :: k0 /\ cbe s = false /\ cbe s' = true /\ tr s' = EvError err reason :: tr s /\ inp s' = inp s /\ T s' = T s).
Proof.
  intros H. destruct x as [ch|a ch|f ch|err|err]; cbn [step] in H.
  - destruct k as [|o k0]; [injection H as <- _; left; apply grow_refl|]. unfold lift in H. binv H. destruct a as [s1 o1]. injection H as <- _.
    apply run_op_grow in E. destruct E as [G | (e & c & r & -> & E)]; [left; exact G|]. right. exists ch, e, c, r, k0. split; [reflexivity|]. split; [reflexivity|exact E].
  - unfold lift in H. binv H. destruct a0 as [s1 o1]. injection H as <- _. left. eapply call_grow; exact E.
  - destruct (rd s) as [rq|]; [|injection H as <- _; left; apply grow_refl]. unfold lift in H. binv H. destruct a as [s1 o1]. injection H as <- _. left. eapply fire_grow; exact E.
  - injection H as <- _. left. geq.
  - injection H as <- _. left. geq.
Qed.

Theorem history P s k : reach C P (s, k) ->
  pong_plain s /\ collect ping_of (tr s) = collect pong_of (tr s) /\
  length (filter is_error (tr s)) = (if cbe s then 1 else 0)%nat /\
  Forall (fun e => match e with EvControl 8 data => close_accepted C data | _ => True end) (tr s).
Proof.
  intros H. remember (s, k) as c eqn:Ec. revert s k Ec. induction H as [g|c x c' Hr IH En Cd St]; intros s k Ec.
  - injection Ec as <- <-. split; [split; [intros n Hn; destruct n; (reflexivity || congruence)|cbn; destruct (jhandler _) as [[]|]; discriminate]|]. split; [reflexivity|]. split; [reflexivity|constructor].
  - subst c'. destruct c as [s0 k0]. destruct (IH _ _ eq_refl) as (I1 & I2 & I3 & I4). apply step_grow in St.
    destruct St as [G | (ch & err & code & reason & k1 & _ & _ & B0 & B1 & E & _ & ET)].
    + destruct (G I1) as (P1 & [es [E M]] & B & _). pose proof (milds_errors _ _ M) as ME. destruct M as [M1 M2].
      split; [exact P1|]. rewrite E, B. split; [rewrite !collect_app; congruence|]. split; [rewrite filter_app, ME; exact I3|].
      apply Forall_app. split; [|exact I4]. eapply Forall_impl; [|exact M1]. intros e. destruct e; auto.
    + rewrite E, B1. rewrite B0 in I3. unfold pong_plain in *. rewrite ET. split; [exact I1|]. split; [cbn; rewrite !app_nil_r; exact I2|].
      split; [cbn [filter is_error length]; rewrite I3; reflexivity|]. constructor; [exact I|exact I4].
Qed.

Theorem failed_reported P s k : reach C P (s, k) -> cbe s = true -> exists err reason, In (EvError err reason) (tr s).
Proof.
  intros H B. apply history in H. destruct H as (_ & _ & H & _). rewrite B in H.
  destruct (filter is_error (tr s)) as [|e r] eqn:F; [discriminate|]. assert (X : In e (filter is_error (tr s))) by (rewrite F; left; reflexivity).
  apply filter_In in X. destruct X as [X1 X2]. destruct e; try discriminate X2. eauto.
Qed.
Theorem reported_failed P s k err reason : reach C P (s, k) -> In (EvError err reason) (tr s) -> cbe s = true.
Proof.
  intros H I. apply history in H. destruct H as (_ & _ & H & _). destruct (cbe s); [reflexivity|].
  assert (X : In (EvError err reason) (filter is_error (tr s))) by (apply filter_In; split; [exact I|reflexivity]).
  destruct (filter is_error (tr s)); [destruct X|discriminate].
Qed.
End G.
