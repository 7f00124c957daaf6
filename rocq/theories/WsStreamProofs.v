(** Lemmas for C73. *)
From Verif Require Import Base Utf8Model Utf8Spec MaskModel MaskSpec EndianModel EndianSpec
  WsModel WsFrame WsSendProofs WsRecvSpec WsDecode WsFrameSpec WsCodec WsSend WsHistory WsTrace WsExec WsRecvProofs WsRecvReach WsClean WsRecvProps WsRecvProps2
  WsQueue WsOutSpec WsArrive WsWire WsOut WsOutStep WsOutReach WsOutProps WsLive WsLive2 WsFrames WsPairSpec WsPairProofs WsPairProps WsStream.
From Verif Require BufReadModel BufReadProofs.
Open Scope N_scope.

Import BufReadModel(rbuf, rb_init, rb_unread, rb_space, rb_view, rb_consume, rb_compact, rb_store, fetch).
Section P.
Variable C : cfg.

Definition good_rd (r : option rreq) : Prop := match r with Some rq => rq_most rq = true \/ rq_n rq <= rbsize C | None => True end.
Definition still (s s' : ws) (os : list op) : Prop :=
  cbrun s' = cbrun s /\ inp s' = inp s /\ (In OFire os -> cbrun s = 0%nat) /\ (good_rd (rd s) -> good_rd (rd s')) /\
  (rd s' = rd s \/ In OFire os \/ (0 < cbrun s)%nat) /\ (hooked s = true -> hooked s' = true).

Lemma enq_still s n len ch kerr s' os : enqueue_job C s n len ch kerr = Ret (s', os) -> (forall e, ~ In OFire (kerr e)) -> still s s' os.
Proof.
  intros H K. apply enqueue_frame in H. destruct H as ((c1 & c2 & c3 & c4 & c5 & c6 & c7 & c8 & c9) & _ & _ & _ & OS).
  split; [exact c8|]. split; [exact c9|]. split; [|rewrite c7, c5; auto].
  destruct OS as [-> | [(sh & e & ->) | (e & msg & ->)]].
  - intros [].
  - intros [X|[]]; discriminate.
  - intros [X|X]; [discriminate|]. destruct (K e X).
Qed.
Lemma read_still s cb most n msg s' os : bs_read C s cb most n msg = (s', os) -> still s s' os.
Proof.
  unfold bs_read. destruct (_ && _)%bool eqn:Q; intros H; injection H as <- <-; (split; [reflexivity|]; split; [reflexivity|]).
  - split; [intros [X|[]]; discriminate|auto].
  - split; [destruct (Nat.eqb_spec (cbrun s) 0); [auto|intros []]|]. split.
    + intros _. cbn. destruct most; [left; reflexivity|right]. cbn in Q. apply N.ltb_ge in Q. exact Q.
    + split; [right|auto]. destruct (Nat.eqb_spec (cbrun s) 0); [left; left; reflexivity|right; lia].
Qed.
Lemma none_still s s' os : cbrun s' = cbrun s -> inp s' = inp s -> rd s' = rd s -> (hooked s = true -> hooked s' = true) -> forallb (fun o => match o with OFire => false | _ => true end) os = true -> still s s' os.
Proof.
  intros A B D K E. split; [exact A|]. split; [exact B|]. split; [|rewrite D; auto].
  intros X. rewrite forallb_forall in E. apply E in X. discriminate.
Qed.
Ltac ns := apply none_still; first [reflexivity | intros HX; (exact HX || reflexivity) | idtac].

Lemma op_still s o ch s' os : o <> OBsReturn -> run_op C s o ch = Ret (s', os) -> still s s' os.
Proof.
  intros NB H. destruct o; cbn [run_op] in H; try congruence.
  - injection H as <- <-; ns.
  - injection H as <- <-; ns.
  - destruct (cbe s); injection H as <- <-; ns.
  - destruct (dequeue_job (T s)) as [[n|] t]; injection H as <- <-; ns.
  - apply enq_still in H; [exact H|intros e [X|[]]; discriminate].
  - destruct (hasrh s); injection H as <- <-; ns.
  - injection H as <- <-; ns.
  - binv H. destruct a as [[t n] c]. destruct sh; [destruct (jhandler _); [|discriminate]|..]; injection H as <- <-; ns; destruct n; reflexivity.
  - unfold call_handler in H. destruct h as [[id|]|]; injection H as <- <-; ns.
  - unfold call_handler in H. destruct (jhandler (jobs (T s) JClose)) as [[id|]|]; injection H as <- <-; ns.
  - destruct j as [n|]; [|injection H as <- <-; ns]. destruct (jwbh (jobs (T s) n)); [|discriminate]. binv H. destruct a as [s1 r]. cbn [fst snd] in H.
    apply send_frame_frame in E. destruct E as ((c1 & c2 & c3 & c4 & c5 & c6 & c7 & c8 & c9) & _). destruct r; injection H as <- <-; (apply none_still; [exact c8|exact c9|exact c7|rewrite c5; auto|reflexivity]).
  - destruct (negb _); [injection H as <- <-; ns|]. apply ret_inj in H. eapply read_still, H.
  - injection H as <- <-; ns.
Qed.
Lemma call_still s a ch s' os : call C s a ch = Ret (s', os) -> still s s' os.
Proof.
  intros H. unfold call, refuse in H. destruct a as [|id flen p lf bin|id p|id p|id p|id code reason].
  - destruct (_ =? 0); apply ret_inj in H; apply (read_still _ _ _ _ _ _ _ H).
  - destruct id as [id|]; [|injection H as <- <-; ns]. destruct (jwbh _); [injection H as <- <-; ns|].
    destruct (if fragw _ then _ else _) as [kind fw]. apply enq_still in H; [exact H|intros e [X|[]]; discriminate].
  - apply enq_still in H; [exact H|intros e [X|[]]; discriminate].
  - unfold write_ping_or_pong, refuse in H. destruct id as [id|]; [|injection H as <- <-; ns]. destruct (negb _); [injection H as <- <-; ns|].
    destruct (jwbh _); [injection H as <- <-; ns|]. destruct p; [|discriminate]. apply enq_still in H; [exact H|intros e []].
  - unfold write_ping_or_pong, refuse in H. destruct id as [id|]; [|injection H as <- <-; ns]. destruct (negb _); [injection H as <- <-; ns|].
    destruct (jwbh _); [injection H as <- <-; ns|]. destruct p; [|discriminate]. apply enq_still in H; [exact H|intros e []].
  - destruct id as [id|]; [|injection H as <- <-; ns]. destruct (jwbh _); [injection H as <- <-; ns|].
    destruct (negb _); [injection H as <- <-; ns|]. destruct (negb _); [injection H as <- <-; ns|]. apply enq_still in H; [exact H|intros e []].
Qed.

Lemma frame_still s addr data ch s' os : handle_frame C s addr data ch = Ret (s', os) -> still s s' os.
Proof.
  intros H. unfold handle_frame in H. binv H. clear E data. rename a into data.
  destruct (N.eqb (opcode (R s)) BINARY_FRAME).
  { unfold handle_binary_frame in H. binv H. injection H as <- <-. destruct (N.eqb (rem (R s)) 0); [injection E as <-; ns|]; binv E; injection E as <-; ns. }
  destruct (N.eqb (opcode (R s)) TEXT_FRAME).
  { unfold handle_text_frame in H. binv H. destruct a as [u st]. destruct (_ || _)%bool; [injection H as <- <-; ns|].
    binv H. injection H as <- <-. clear - E0. destruct (fin (R s)); destruct (N.eqb _ 0); try (injection E0 as <-; ns); binv E0; injection E0 as <-; ns. }
  destruct (N.eqb (opcode (R s)) PING_FRAME). { unfold handle_ping_frame in H. destruct (Nat.ltb 125 _); [discriminate|]. apply enq_still in H; [exact H|intros e []]. }
  destruct (N.eqb (opcode (R s)) PONG_FRAME). { apply ret_inj in H. apply (read_still _ _ _ _ _ _ _ H). }
  destruct (N.eqb (opcode (R s)) CLOSE_FRAME).
  { unfold handle_close_frame in H. binv H. destruct a; [injection H as <- <-; ns|]. cbn [log selfc] in H. destruct (selfc s); [injection H as <- <-; ns|]. apply enq_still in H; [exact H|intros e []]. }
  injection H as <- <-. ns.
Qed.
Lemma payload_still s ch s' os : read_payload C s ch = Ret (s', os) -> still s s' os.
Proof.
  intros H. unfold read_payload in H. destruct (N.ltb 0 (rem (R s))).
  - destruct (N.ltb SIZE_MAX _); [injection H as <- <-; ns|apply ret_inj in H; apply (read_still _ _ _ _ _ _ _ H)].
  - apply frame_still in H; exact H.
Qed.
Lemma mask_or_payload_still s ch s' os : get_mask_or_payload C s ch = Ret (s', os) -> still s s' os.
Proof. intros H. unfold get_mask_or_payload in H. destruct (is_server C); [apply ret_inj in H; apply (read_still _ _ _ _ _ _ _ H)|apply payload_still in H; exact H]. Qed.

(** A handler called by the stream takes bytes from the front of the unread ones. *)
Definition shown (f : fired) : list N := match f with FData _ v => v | FErr _ => [] end.
Definition takes (v : list N) (s s' : ws) (os : list op) : Prop :=
  exists n s1, (n <= length v)%nat /\ cbrun s1 = cbrun s /\ inp s1 = inp s ++ firstn n v /\ rd s1 = rd s /\ hooked s1 = hooked s /\ still s1 s' os.
Lemma takes_some v s s1 s' os n : (n <= length v)%nat -> cbrun s1 = cbrun s -> inp s1 = inp s ++ firstn n v -> rd s1 = rd s -> hooked s1 = hooked s -> still s1 s' os -> takes v s s' os.
Proof. intros. exists n, s1. auto 10. Qed.
Lemma takes_err v s os : forallb (fun o => match o with OFire => false | _ => true end) os = true -> takes v s s os.
Proof. intros H. apply (takes_some v s s s os 0); [lia|reflexivity|rewrite app_nil_r; reflexivity|reflexivity|reflexivity|]. ns; auto. Qed.

Lemma fire_takes s rq f ch s' os : fire C s rq f ch = Ret (s', os) -> exists n, (n <= length (shown f))%nat /\ inp s' = inp s ++ firstn n (shown f) /\
  cbrun s' = S (cbrun s) /\ ~ In OFire os /\ good_rd (rd s') /\ (hooked s = true -> hooked s' = true) /\ exists os1, os = os1 ++ [OBsReturn].
Proof.
  intros H. unfold fire in H. binv H. destruct a as [s2 os2]. injection H as <- <-. cbn [fst snd].
  set (s1 := set_cbrun (set_rd s None) (S (cbrun s))) in *.
  enough (X : takes (shown f) s1 s2 os2).
  { destruct X as (n & s3 & L & B & IE & D & HK & S1 & S2 & S3 & S4 & S5 & S6). exists n. split; [exact L|]. rewrite S2, IE. split; [reflexivity|]. rewrite S1, B. split; [reflexivity|]. split.
    - intros X. apply in_app_iff in X. destruct X as [X|[X|[]]]; [|discriminate]. apply S3 in X. rewrite B in X. discriminate.
    - split; [apply S4; rewrite D; exact I|]. split; [intros X; apply S6; rewrite HK; exact X|]. exists os2. reflexivity. }
  clearbody s1. clear s.
  destruct f as [err|addr view]; cbn [shown]; [injection E as <- <-; unfold read_error; destruct (Z.eqb err CIO_EOF); apply takes_err; reflexivity|].
  set (num := if rq_most rq then _ else _) in E. clearbody num.
  destruct (rq_cb rq).
  - unfold get_header in E. destruct view as [|b view]; [discriminate|]. destruct (Nat.ltb _ _) eqn:Q; [discriminate|]. apply Nat.ltb_ge in Q.
    match type of E with (if ?b then _ else _) = _ => destruct b end; [injection E as <- <-; eapply takes_some; [exact Q|..|ns]; reflexivity|].
    destruct (handle_fin _ _); [injection E as <- <-; eapply takes_some; [exact Q|..|ns]; reflexivity|]. apply ret_inj in E.
    eapply takes_some; [exact Q|..|eapply read_still; exact E]; reflexivity.
  - unfold get_first_length in E. destruct view as [|b view]; [discriminate|]. destruct (Nat.ltb _ _) eqn:Q; [discriminate|]. apply Nat.ltb_ge in Q. cbv zeta in E.
    match type of E with (if ?b then _ else _) = _ => destruct b end; [injection E as <- <-; eapply takes_some; [exact Q|..|ns]; reflexivity|].
    match type of E with (if ?b then _ else _) = _ => destruct b end; [apply mask_or_payload_still in E; eapply takes_some; [exact Q|..|exact E]; reflexivity|].
    match type of E with (if ?b then _ else _) = _ => destruct b end; [injection E as <- <-; eapply takes_some; [exact Q|..|ns]; reflexivity|].
    match type of E with (if ?b then _ else _) = _ => destruct b end; apply ret_inj in E; (eapply takes_some; [exact Q|..|eapply read_still; exact E]; reflexivity).
  - unfold get_length in E. destruct (Nat.ltb 2 num || _)%bool eqn:Q; [discriminate|]. apply orb_false_elim in Q as [_ Q]. apply Nat.ltb_ge in Q. cbv zeta in E.
    destruct (N.ltb SIZE_MAX _); [injection E as <- <-; eapply takes_some; [exact Q|..|ns]; reflexivity|]. apply mask_or_payload_still in E; eapply takes_some; [exact Q|..|exact E]; reflexivity.
  - unfold get_length in E. destruct (Nat.ltb 8 num || _)%bool eqn:Q; [discriminate|]. apply orb_false_elim in Q as [_ Q]. apply Nat.ltb_ge in Q. cbv zeta in E.
    destruct (N.ltb SIZE_MAX _); [injection E as <- <-; eapply takes_some; [exact Q|..|ns]; reflexivity|]. apply mask_or_payload_still in E; eapply takes_some; [exact Q|..|exact E]; reflexivity.
  - unfold get_mask in E. destruct (Nat.ltb 4 num || _)%bool eqn:Q; [discriminate|]. apply orb_false_elim in Q as [_ Q]. apply Nat.ltb_ge in Q. apply payload_still in E. eapply takes_some; [exact Q|..|exact E]; reflexivity.
  - unfold get_payload in E. destruct (is_control_frame _).
    + destruct (Nat.ltb _ _) eqn:Q; [discriminate|]. apply Nat.ltb_ge in Q. apply frame_still in E. eapply takes_some; [exact Q|..|exact E]; reflexivity.
    + destruct (Nat.ltb _ _) eqn:Q; [discriminate|]. apply Nat.ltb_ge in Q. apply frame_still in E. eapply takes_some; [exact Q|..|exact E]; reflexivity.
Qed.

(** * The invariant *)
Fixpoint low (k : list op) : Prop :=
  match k with
  | [] => True
  | OFire :: r => nreturn r = 0%nat /\ low r
  | _ :: r => low r
  end.
Lemma low_tail o k : low (o :: k) -> low k.
Proof. destruct o; cbn; tauto. Qed.
Lemma low_app os k : low k -> (In OFire os -> nreturn (os ++ k) = 0%nat) -> low (os ++ k).
Proof.
  intros L. induction os as [|o os IH]; intros H; [exact L|]. cbn [app].
  assert (X : low (os ++ k)). { apply IH. intros I. assert (Y : nreturn ((o :: os) ++ k) = 0%nat) by (apply H; right; exact I). cbn [app] in Y. change (o :: os ++ k) with ([o] ++ os ++ k) in Y. rewrite nret_app in Y. lia. }
  destruct o; try exact X. split; [|exact X]. apply (H (or_introl eq_refl)).
Qed.
Lemma low_none os k : low k -> ~ In OFire os -> low (os ++ k).
Proof. intros L N. apply low_app; [exact L|]. intros X. destruct (N X). Qed.

(** An error is being reported, or has been. *)
Lemma erring_op s o k ch s' os : run_op C s o ch = Ret (s', os) -> pong_plain s -> WsRecvProofs.erring s (o :: k) -> WsRecvProofs.erring s' (os ++ k).
Proof.
  intros H PP ER. pose proof H as H0. apply run_op_grow in H. destruct H as [G | (e & c & r & EO & _ & B & _)]; [|left; exact B].
  destruct ER as [CB|IE]; [left; destruct (G PP) as (_ & _ & E & _); congruence|].
  cbn [existsb] in IE. apply orb_prop in IE. destruct IE as [IE|IE].
  - destruct o; try discriminate. cbn [run_op] in H0. destruct (cbe s) eqn:CB; injection H0 as <- <-; left; [exact CB|reflexivity].
  - right. rewrite existsb_app, IE. apply orb_true_r.
Qed.

Record sinv (P : conf -> act -> Prop) (p : sys) : Prop := {
  v_reach : reach C P (wc p);
  v_wf : BufReadProofs.wf_buf (N.to_nat (rbsize C)) (rb p);
  v_bytes : bytes_ok (del p);
  v_stream : del p = inp (fst (wc p)) ++ rb_view (rb p);
  v_low : low (snd (wc p));
  v_rd : good_rd (rd (fst (wc p)));
  v_size : (0 < N.to_nat (rbsize C))%nat;
  v_run : (0 < nreturn (snd (wc p)))%nat -> loop p = true \/ In OFire (snd (wc p));
  v_space : wait p = true -> (0 < rb_space (rb p))%nat;
  v_lerr : lerr p = CIO_SUCCESS \/ In (lerr p) (failed p);
  v_leave : leave p = true -> WsRecvProofs.erring (fst (wc p)) (snd (wc p));
  v_prog : forall rq, rd (fst (wc p)) = Some rq -> (wait p = true /\ satisfied rq (rb_unread (rb p)) = false) \/ loop p = true \/
    In OFire (snd (wc p)) \/ hooked (fst (wc p)) = true \/ WsRecvProofs.erring (fst (wc p)) (snd (wc p)) }.

Lemma erring_more s s' k os : cbe s' = cbe s -> WsRecvProofs.erring s k -> WsRecvProofs.erring s' (os ++ k).
Proof. intros E [X|X]; [left; congruence|right; rewrite existsb_app, X; apply orb_true_r]. Qed.
Lemma call_cbe s a ch s' os : pong_plain s -> call C s a ch = Ret (s', os) -> cbe s' = cbe s.
Proof. intros PP H. apply call_grow in H. destruct (H PP) as (_ & _ & E & _). exact E. Qed.

Lemma nret_repeat n : nreturn (repeat OBsReturn n) = n.
Proof. induction n as [|n IH]; [reflexivity|]. cbn [repeat]. change (OBsReturn :: repeat OBsReturn n) with ([OBsReturn] ++ repeat OBsReturn n). rewrite nret_app, IH. reflexivity. Qed.
Lemma op_return s o ch s' os : run_op C s o ch = Ret (s', os) -> o = OBsReturn \/ nreturn os = 0%nat.
Proof.
  intros H. destruct (Bool.bool_dec (is_return o) true) as [IR|IR]; [left; destruct o; try discriminate IR; reflexivity|right].
  assert (NB : o <> OBsReturn) by (intros ->; apply IR; reflexivity). destruct (op_still _ _ _ _ _ NB H) as (B & _).
  pose proof (op_ret C s o (repeat OBsReturn (cbrun s)) ch s' os H) as X. rewrite nret_app, nret_repeat in X.
  assert (Y : nreturn (o :: repeat OBsReturn (cbrun s)) = cbrun s).
  { change (o :: repeat OBsReturn (cbrun s)) with ([o] ++ repeat OBsReturn (cbrun s)). rewrite nret_app, nret_repeat. destruct o; try reflexivity; congruence. }
  rewrite Y in X. specialize (X eq_refl). lia.
Qed.

Lemma quiet_step P s k y s' k' : reach C P (s, k) -> enabled (s, k) y -> match y with XFire _ _ => False | _ => True end -> (forall k0, k <> OFire :: k0) -> low k ->
  step C (s, k) y = Ret (s', k') ->
  inp s' = inp s /\ (good_rd (rd s) -> good_rd (rd s')) /\ low k' /\ (hooked s = true -> hooked s' = true) /\ (WsRecvProofs.erring s k -> WsRecvProofs.erring s' k') /\
  (rd s' = rd s \/ In OFire k' \/ (0 < nreturn k)%nat) /\ (In OFire k -> In OFire k') /\ (nreturn k' <= nreturn k)%nat.
Proof.
  intros HR EN NF NO L ST. pose proof (history C _ _ _ HR) as (PP & _). pose proof (reach_returns C _ _ _ HR) as CR.
  destruct y as [ch|a ch|f ch|err|err]; [..|destruct NF| |]; cbn [enabled step] in *.
  - destruct EN as [NE _]. destruct k as [|o k]; [congruence|]. unfold lift in ST. binv ST. destruct a as [s1 os]. injection ST as <- <-. cbn [fst snd] in *.
    pose proof (erring_op _ _ k _ _ _ E PP) as ER. destruct (op_return _ _ _ _ _ E) as [-> | NR].
    + cbn [run_op] in E. injection E as <- <-. cbn [app]. split; [reflexivity|]. split; [auto|]. split; [exact (low_tail _ _ L)|]. split; [auto|]. split; [exact ER|]. split; [left; reflexivity|].
      split; [intros [X|X]; [discriminate|exact X]|]. unfold nreturn. cbn. lia.
    + destruct (Bool.bool_dec (is_return o) true) as [IR|IR].
      { destruct o; try discriminate IR. cbn [run_op] in E. injection E as <- <-. cbn [app]. split; [reflexivity|]. split; [auto|]. split; [exact (low_tail _ _ L)|]. split; [auto|]. split; [exact ER|]. split; [left; reflexivity|].
        split; [intros [X|X]; [discriminate|exact X]|]. unfold nreturn. cbn. lia. }
      assert (NB : o <> OBsReturn) by (intros ->; apply IR; reflexivity).
      assert (NK : nreturn (o :: k) = nreturn k) by (destruct o; try reflexivity; congruence).
      destruct (op_still _ _ _ _ _ NB E) as (B & I & F & G & RDX & HK). split; [exact I|]. split; [exact G|]. split.
      * apply low_app; [exact (low_tail _ _ L)|]. intros X. apply F in X. rewrite nret_app, NR. rewrite NK in CR. lia.
      * split; [exact HK|]. split; [exact ER|]. split.
        { destruct RDX as [X|[X|X]]; [left; exact X|right; left; apply in_app_iff; left; exact X|right; right; lia]. }
        split; [|rewrite NK, nret_app, NR; lia]. intros [X|X]; [subst o; destruct (NO k eq_refl)|apply in_app_iff; right; exact X].
  - unfold lift in ST. binv ST. destruct a0 as [s1 os]. injection ST as <- <-. cbn [fst snd] in *. pose proof (call_ret _ _ _ _ _ _ E) as [_ NR].
    pose proof (call_cbe _ _ _ _ _ PP E) as CE. destruct (call_still _ _ _ _ _ E) as (B & I & F & G & RDX & HK). split; [exact I|]. split; [exact G|]. split.
    + apply low_app; [exact L|]. intros X. apply F in X. rewrite nret_app, NR. lia.
    + split; [exact HK|]. split; [apply erring_more; exact CE|]. split.
      { destruct RDX as [X|[X|X]]; [left; exact X|right; left; apply in_app_iff; left; exact X|right; right; lia]. }
      split; [intros X; apply in_app_iff; right; exact X|]. rewrite nret_app, NR. lia.
  - destruct EN as (-> & _). unfold lift in ST. cbn [obind fst snd app] in ST. injection ST as <- <-. split; [reflexivity|]. split; [auto|]. split; [exact I|]. split; [auto|]. split; [apply (erring_more s _ [] [OStream _ _]); reflexivity|]. split; [left; reflexivity|]. split; [intros []|]. unfold nreturn. cbn. lia.
  - destruct EN as (-> & _). unfold lift in ST. cbn [obind fst snd app] in ST. injection ST as <- <-. split; [reflexivity|]. split; [auto|]. split; [exact I|]. split; [auto|]. split; [apply (erring_more s _ [] [OClose]); reflexivity|]. split; [left; reflexivity|]. split; [intros []|]. unfold nreturn. cbn. lia.
Qed.

Variable base : nat.
Definition is_data (f : fired) : Prop := match f with FData _ _ => True | FErr _ => False end.

Lemma bytes_ok_view b (d : list N) i : bytes_ok d -> d = i ++ rb_view b -> bytes_ok (rb_view b).
Proof. intros B ->. apply bytes_ok_app in B. apply B. Qed.
Lemma take_none (a b : list N) n : a = b -> rb_consume = rb_consume -> (length a - length b)%nat = n -> n = 0%nat.
Proof. intros -> _ H. lia. Qed.

Lemma consume_space b n b' : rb_consume b n = Ret b' -> rb_space b' = rb_space b.
Proof. unfold rb_consume. destruct (Nat.leb _ _); [|discriminate]. intros X. injection X as <-. reflexivity. Qed.

Lemma quiet_inv P p y p' : sinv P p -> ~ in_loop p -> enabled (wc p) y -> match y with XFire _ _ => False | _ => True end -> P (wc p) y -> ws_step C p y = Ret p' -> sinv P p'.
Proof.
  intros V NL EN NF PY ST. destruct p as [[s k] b d w e l lv fl]. unfold ws_step in ST. cbn [wc rb del wait lerr loop leave failed] in *. binv ST. destruct a as [s' k']. binv ST. injection ST as <-. rename a into b'. rename E into ST. rename E0 into CO.
  destruct V as [v1 v2 v3 v4 v5 v6 vs v7 vp v8 v9 v10]. cbn [wc rb del wait lerr loop leave failed fst snd] in *.
  assert (NO : forall k0, k <> OFire :: k0) by (intros k0 ->; apply NL; exact I).
  pose proof (quiet_step P s k y s' k' v1 EN NF NO v5 ST) as (I1 & I2 & I3 & I4 & I5 & I6 & I7 & I8).
  rewrite I1 in CO. rewrite Nat.sub_diag in CO. destruct (BufReadProofs.view_consume _ _ _ _ v2 CO) as (W1 & W2 & _). cbn [skipn] in W1.
  assert (U : rb_unread b' = rb_unread b) by (rewrite <- (BufReadProofs.view_length _ _ W2), <- (BufReadProofs.view_length _ _ v2), W1; reflexivity).
  split; cbn [wc rb del wait lerr loop leave failed fst snd].
  - eapply reach_step; eassumption.
  - exact W2.
  - exact v3.
  - rewrite I1, W1. exact v4.
  - exact I3.
  - apply I2, v6.
  - exact vs.
  - intros X. destruct v7 as [X1|X1]; [lia|left; exact X1|right; apply I7, X1].
  - rewrite (consume_space _ _ _ CO). exact vp.
  - destruct (rd s'); [left; reflexivity|exact v8].
  - intros X. apply I5, v9, X.
  - intros rq RQ. rewrite U. destruct I6 as [X|[X|X]]; [rewrite X in RQ; destruct (v10 rq RQ) as [Y|[Y|[Y|[Y|Y]]]]|..].
    + left; exact Y.
    + right; left; exact Y.
    + right; right; left; apply I7, Y.
    + right; right; right; left; apply I4, Y.
    + right; right; right; right; apply I5, Y.
    + right; right; left; exact X.
    + destruct (v7 X) as [Y|Y]; [right; left; exact Y|right; right; left; apply I7, Y].
Qed.

Lemma fire_inv P p f ch p' : reach C P (wc p) -> P (wc p) (XFire f ch) -> enabled (wc p) (XFire f ch) -> BufReadProofs.wf_buf (N.to_nat (rbsize C)) (rb p) -> bytes_ok (del p) ->
  del p = inp (fst (wc p)) ++ rb_view (rb p) -> low (snd (wc p)) -> (0 < N.to_nat (rbsize C))%nat -> in_loop p -> (wait p = true -> (0 < rb_space (rb p))%nat) -> lerr p = CIO_SUCCESS \/ In (lerr p) (failed p) ->
  (leave p = true -> ~ is_data f) -> shown f = rb_view (rb p) \/ shown f = [] -> ws_step C p (XFire f ch) = Ret p' -> sinv P p'.
Proof.
  intros HR PF EN WF BO SR LO SZ IL SPC LE LV SH ST. destruct p as [[s k] b d w e l lv fl]. unfold ws_step in ST. cbn [wc rb del wait lerr loop leave failed fst snd] in *.
  binv ST. destruct a as [s' k']. binv ST. injection ST as <-. rename a into b'. pose proof E as STEP. cbn [fst snd] in E0.
  cbn [step enabled] in *. destruct EN as (KT & HK & CB & CH & rq & RD & FO). rewrite RD in E. unfold lift in E. binv E. destruct a as [s1 os]. injection E as -> <-. cbn [fst snd] in *.
  destruct (fire_takes _ _ _ _ _ _ E1) as (n & L1 & I1 & B1 & NO & G1 & HM & os1 & OS).
  rewrite I1, app_length in E0. replace (length (inp s) + length (firstn n (shown f)) - length (inp s))%nat with (length (firstn n (shown f))) in E0 by lia. rewrite firstn_length_le in E0 by exact L1.
  destruct (BufReadProofs.view_consume _ _ _ _ WF E0) as (W1 & W2 & W3).
  assert (RUN : l = true \/ In OFire (os ++ k)).
  { unfold in_loop in IL. cbn in IL. destruct k as [|o k]; [left; exact IL|]. destruct o; try (destruct IL; fail). right. apply in_app_iff. right. left. reflexivity. }
  split; cbn [wc rb del wait lerr loop leave failed fst snd].
  - eapply reach_step; [exact HR| |exact PF|exact STEP]. cbn [enabled]. split; [exact KT|]. split; [exact HK|]. split; [exact CB|]. split; [exact CH|]. exists rq. auto.
  - exact W2.
  - exact BO.
  - rewrite SR, I1, W1, <- app_assoc. f_equal. destruct SH as [-> | SH]; [symmetry; apply firstn_skipn|]. rewrite SH in L1. cbn in L1. assert (n = 0%nat) as -> by lia. reflexivity.
  - apply low_none; assumption.
  - exact G1.
  - exact SZ.
  - intros _. exact RUN.
  - rewrite (consume_space _ _ _ E0). exact SPC.
  - destruct (rd s'); [left; reflexivity|exact LE].
  - intros X. specialize (LV X). destruct f as [er|ad vw]; [|destruct (LV I)]. right. unfold fire in E1. cbn in E1. injection E1 as _ <-. unfold read_error. destruct (Z.eqb er CIO_EOF); reflexivity.
  - intros rq' _. destruct RUN as [X|X]; [right; left; exact X|right; right; left; exact X].
Qed.

Lemma exit_inv P p ch p' o : reach C P (wc p) -> BufReadProofs.wf_buf (N.to_nat (rbsize C)) (rb p) -> bytes_ok (del p) ->
  del p = inp (fst (wc p)) ++ rb_view (rb p) -> low (snd (wc p)) -> good_rd (rd (fst (wc p))) -> (0 < N.to_nat (rbsize C))%nat -> in_loop p -> (wait p = true -> (0 < rb_space (rb p))%nat) -> lerr p = CIO_SUCCESS \/ In (lerr p) (failed p) -> choice_ok ch ->
  (forall rq, rd (fst (wc p)) = Some rq -> (wait p = true /\ satisfied rq (rb_unread (rb p)) = false) \/ hooked (fst (wc p)) = true \/ WsRecvProofs.erring (fst (wc p)) (snd (wc p))) ->
  exit p ch = (p', o) -> (forall y, o = Some y -> P (wc p) y) -> 
  match o with Some y => forall p2, ws_step C p' y = Ret p2 -> sinv P p2 | None => sinv P p' end.
Proof.
  intros HR WF BO SR LO GR SZ IL SPC LE CH PR EX PO. destruct p as [[s k] b d w e l lv fl]. unfold exit in EX. cbn [wc rb del wait lerr loop leave failed fst snd] in *. unfold in_loop in IL. cbn in IL. injection EX as <- <-.
  destruct k as [|o k].
  - split; cbn [wc rb del wait lerr loop leave failed fst snd]; auto; [intros X; inversion X|discriminate|].
    intros rq RQ. destruct (PR rq RQ) as [X|[X|X]]; auto.
  - destruct o; try (destruct IL; fail). intros p2 ST. unfold ws_step in ST. cbn [wc rb del wait lerr loop leave failed fst snd step run_op lift obind app] in ST. rewrite Nat.sub_diag in ST.
    binv ST. rename a into b'. injection ST as <-. destruct (BufReadProofs.view_consume _ _ _ _ WF E) as (W1 & W2 & _). cbn [skipn] in W1.
    assert (U : rb_unread b' = rb_unread b) by (rewrite <- (BufReadProofs.view_length _ _ W2), <- (BufReadProofs.view_length _ _ WF), W1; reflexivity).
    destruct LO as [L1 L2].
    split; cbn [wc rb del wait lerr loop leave failed fst snd].
    + eapply reach_step; [exact HR| |apply PO; reflexivity|reflexivity]. split; [discriminate|exact CH].
    + exact W2.
    + exact BO.
    + rewrite W1. exact SR.
    + exact L2.
    + exact GR.
    + exact SZ.
    + intros X. rewrite L1 in X. inversion X.
    + rewrite (consume_space _ _ _ E). exact SPC.
    + destruct (rd s); [left; reflexivity|exact LE].
    + discriminate.
    + intros rq RQ. rewrite U. destruct (PR rq RQ) as [X|[X|[X|X]]]; [left; exact X|right; right; right; left; exact X|right; right; right; right; left; exact X|right; right; right; right; right; exact X].
Qed.

(** A request can always be answered from a full buffer. *)
Lemma full_satisfies rq b : good_rd (Some rq) -> BufReadProofs.wf_buf (N.to_nat (rbsize C)) b -> (0 < N.to_nat (rbsize C))%nat -> rb_space b = 0%nat -> fetch b = 0%nat -> satisfied rq (rb_unread b) = true.
Proof.
  intros G (W1 & W2 & W3) SZ SP FE. unfold rb_space, rb_unread, satisfied in *. rewrite FE. assert (X : (BufReadModel.add b - 0)%nat = N.to_nat (rbsize C)) by lia. rewrite X.
  destruct (rq_most rq) eqn:M; [apply Nat.ltb_lt; exact SZ|]. destruct G as [G|G]; [congruence|]. apply N.leb_le. lia.
Qed.
Lemma room_view b size : BufReadProofs.wf_buf size b -> rb_view (room b) = rb_view b /\ BufReadProofs.wf_buf size (room b) /\ rb_unread (room b) = rb_unread b.
Proof.
  intros W. unfold room. destruct (Nat.eqb _ _); [|auto]. destruct (BufReadProofs.view_compact _ _ W) as [V W']. split; [exact V|]. split; [exact W'|].
  rewrite <- (BufReadProofs.view_length _ _ W'), <- (BufReadProofs.view_length _ _ W), V. reflexivity.
Qed.
Lemma room_space b size : BufReadProofs.wf_buf size b -> (Nat.eqb (rb_space b) 0 && Nat.eqb (fetch b) 0)%bool = false -> (0 < rb_space (room b))%nat.
Proof.
  intros W H. unfold room. destruct (Nat.eqb_spec (rb_space b) 0) as [E|E]; [|lia]. cbn in H. apply Nat.eqb_neq in H.
  destruct (BufReadProofs.view_compact _ _ W) as [_ (X1 & X2 & X3)]. destruct W as (W1 & W2 & W3). unfold rb_space in *. unfold rb_compact in *. cbn [BufReadModel.mem BufReadModel.add BufReadModel.fetch] in *. unfold rb_unread in *. lia.
Qed.
Lemma loop_cbrun P p : sinv P p -> in_loop p -> cbrun (fst (wc p)) = 0%nat /\ (snd (wc p) = [] \/ exists k', snd (wc p) = OFire :: k').
Proof.
  intros V IL. destruct p as [[s k] b d w e l lv fl]. pose proof (v_reach _ _ V) as HR. pose proof (v_low _ _ V) as LO. cbn in *. pose proof (reach_returns C _ _ _ HR) as CR. unfold in_loop in IL. cbn in IL.
  destruct k as [|o k]; [split; [exact CR|left; reflexivity]|]. destruct o; try (destruct IL; fail). split; [|right; exists k; reflexivity]. destruct LO as [L _]. rewrite CR. exact L.
Qed.

Lemma round_inv P p ch rs p' : sinv P p -> in_loop p -> choice_ok ch -> (forall y, ws_act base p (SRound ch rs) = Some y -> P (wc p) y) -> sstep C base p (SRound ch rs) = Ret p' -> sinv P p'.
Proof.
  intros V IL CH PY ST. cbn [sstep ws_act] in *. destruct (loop_cbrun P p V IL) as [CB KT].
  pose proof V as [v1 v2 v3 v4 v5 v6 vs v7 vp v8 v9 v10]. unfold round in *.
  assert (EXIT : forall q, wc q = wc p -> in_loop q -> BufReadProofs.wf_buf (N.to_nat (rbsize C)) (rb q) -> rb_view (rb q) = rb_view (rb p) -> del q = del p -> lerr q = lerr p -> failed q = failed p -> (wait q = true -> (0 < rb_space (rb q))%nat) ->
    (forall rq, rd (fst (wc q)) = Some rq -> (wait q = true /\ satisfied rq (rb_unread (rb q)) = false) \/ hooked (fst (wc q)) = true \/ WsRecvProofs.erring (fst (wc q)) (snd (wc q))) ->
    (forall y, snd (exit q ch) = Some y -> P (wc p) y) -> match exit q ch with (p', Some y) => ws_step C p' y | (p', None) => Ret p' end = Ret p' -> sinv P p').
  { intros q E1 E2 E3 E4 E5 E6 E7 ES E8 E9 E10. destruct (exit q ch) as [p1 o] eqn:EX.
    assert (X : match o with Some y => forall p2, ws_step C p1 y = Ret p2 -> sinv P p2 | None => sinv P p1 end).
    { apply (exit_inv P q ch p1 o); try (rewrite ?E1, ?E5, ?E6, ?E7, ?E4; assumption). exact E8. }
    destruct o; [apply X; exact E10|injection E10 as <-; exact X]. }
  destruct (leave p || hooked (fst (wc p)))%bool eqn:LH.
  { apply (EXIT p); auto. intros rq RQ. right. apply orb_prop in LH. destruct LH as [LH|LH]; [right; apply v9, LH|left; exact LH]. }
  apply orb_false_elim in LH. destruct LH as [LV HK].
  destruct (rd (fst (wc p))) as [rq|] eqn:RD; [|apply (EXIT p); auto; intros rq RQ; congruence].
  destruct (negb (Z.eqb (lerr p) CIO_SUCCESS)) eqn:LE.
  { apply negb_true_iff, Z.eqb_neq in LE. eapply fire_inv; [exact v1| | |exact v2|exact v3|exact v4|exact v5|exact vs|exact IL|exact vp|exact v8| | |exact ST].
    - apply PY. reflexivity.
    - destruct (wc p) as [s k]. cbn [fst snd] in *. cbn [enabled]. repeat (split; [assumption|]). exists rq. split; [exact RD|exact LE].
    - intros X. congruence.
    - right. reflexivity. }
  apply negb_false_iff, Z.eqb_eq in LE.
  destruct (satisfied rq (rb_unread (rb p))) eqn:SA.
  { eapply fire_inv; [exact v1| | |exact v2|exact v3|exact v4|exact v5|exact vs|exact IL|exact vp|exact v8| | |exact ST].
    - apply PY. reflexivity.
    - destruct (wc p) as [s k]. cbn [fst snd] in *. cbn [enabled]. repeat (split; [assumption|]). exists rq. split; [exact RD|]. cbn [fire_ok]. split; [eapply bytes_ok_view; [exact v3|exact v4]|].
      unfold satisfied in SA. pose proof (BufReadProofs.view_length _ _ v2) as VL. destruct (rq_most rq); [apply Nat.ltb_lt in SA; intros X; rewrite X in VL; cbn in VL; lia|]. apply N.leb_le in SA. rewrite VL. exact SA.
    - intros X. congruence.
    - left. reflexivity. }
  destruct (Nat.eqb (rb_space (rb p)) 0 && Nat.eqb (fetch (rb p)) 0)%bool eqn:FU.
  { apply andb_prop in FU. destruct FU as [F1 F2]. apply Nat.eqb_eq in F1, F2. rewrite (full_satisfies rq (rb p) v6 v2 vs F1 F2) in SA. discriminate. }
  destruct (room_view _ _ v2) as (RV & RW & RU).
  destruct (Z.eqb rs CIO_SUCCESS) eqn:RS.
  { apply (EXIT (set_wait (set_rb p (room (rb p))) true)); auto.
    { intros _. apply (room_space _ _ v2 FU). }
    intros rq' RQ'. left. cbn in RQ'. split; [reflexivity|]. cbn [rb set_wait set_rb]. rewrite RU. cbn [wc set_wait set_rb] in RQ'. congruence. }
  apply Z.eqb_neq in RS. apply (fire_inv P (set_leave (set_failed (set_rb p (room (rb p))) rs)) (FErr rs) ch p'); [exact v1| | |exact RW|exact v3| |exact v5|exact vs|exact IL| | | | |exact ST]; cbn [wc rb del wait lerr loop leave failed set_leave set_failed set_rb].
  - apply PY. reflexivity.
  - destruct (wc p) as [s k]. cbn [fst snd] in *. cbn [enabled]. repeat (split; [assumption|]). exists rq. split; [exact RD|exact RS].
  - rewrite RV. exact v4.
  - intros _. apply (room_space _ _ v2 FU).
  - left. exact LE.
  - intros _ X. exact X.
  - right. reflexivity.
Qed.

Lemma init_inv P g m : length (jk_rmask g) = 4%nat -> length (jk_cmask g) = 4%nat -> bytes_ok (jk_rmask g) -> bytes_ok (jk_cmask g) ->
    N.of_nat (length m) = rbsize C -> (0 < length m)%nat -> sinv P (sys_init g m).
Proof.
  intros H1 H2 H3 H4 H5 H6. split; cbn [wc rb del wait lerr loop leave failed sys_init fst snd].
  - apply reach_init; assumption.
  - unfold BufReadProofs.wf_buf, rb_init. cbn. lia.
  - constructor.
  - reflexivity.
  - exact I.
  - exact I.
  - lia.
  - intros X. inversion X.
  - discriminate.
  - left; reflexivity.
  - discriminate.
  - intros rq X. discriminate.
Qed.

Theorem sreach_inv P p : sreach C base P p -> sinv P p.
Proof.
  induction 1 as [g m|p x p' HR IH EN PY ST]; [apply init_inv; assumption|].
  destruct x as [y|ch rs|bs|err]; cbn [senabled] in EN.
  - destruct EN as (NL & EN & NF). apply (quiet_inv P p y p'); auto.
  - destruct EN as (IL & CH). eapply round_inv; eassumption.
  - destruct EN as ((K & LP) & W & HK & NB & BO & LE). injection ST as <-. destruct IH as [v1 v2 v3 v4 v5 v6 vs v7 vp v8 v9 v10].
    destruct (BufReadProofs.view_store _ _ bs v2 LE) as [V1 V2].
    split; cbn [wc rb del wait lerr loop leave failed]; auto; try assumption; try discriminate.
    + apply bytes_ok_app; split; assumption.
    + rewrite V1, v4, app_assoc. reflexivity.
  - destruct EN as ((K & LP) & W & HK & NE). injection ST as <-. destruct IH as [v1 v2 v3 v4 v5 v6 vs v7 vp v8 v9 v10].
    split; cbn [wc rb del wait lerr loop leave failed]; auto; try assumption; try discriminate. right; left; reflexivity.
Qed.
End P.
