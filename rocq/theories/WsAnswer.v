(** The answer to the peer's close frame (C24). *)
From Verif Require Import Base Utf8Model MaskModel MaskSpec EndianModel EndianSpec EndianProofs
  WsModel WsFrame WsSendProofs WsRecvSpec WsFrameSpec WsSend WsHistory WsTrace WsExec WsRecvProofs WsRecvReach WsClean WsRecvProps WsRecvProps2
  WsQueue WsOutSpec WsArrive WsWire WsOut WsOutStep WsOutReach WsOutProps WsClose.
Open Scope N_scope.
Set Warnings "-unused-intro-pattern".

(** What a close frame with payload [x] must be answered with: the status received and the reason
    received; 1000 (0x03E8) if there was no status. *)
Definition close_answer (x : list N) : list N := match x with [] => [0x03; 0xE8] | _ => x end.

(** In the history [l] (newest first) every close frame of the peer that arrived before any local close
    was answered at once. *)
Definition answers_close (e : ev) (x : list N) : Prop :=
  exists jb c, e = EvAccept JClose jb (N.of_nat (length (close_answer x))) /\ jtype jb = 8 /\ jlast jb = true /\ jwbh jb = Some c /\ chain_bytes c = close_answer x.
Definition closes_answered (l : list ev) : Prop :=
  forall l1 x l2, l = l1 ++ EvControl 8 x :: l2 -> local_close l2 = false -> exists l1' e, l1 = l1' ++ [e] /\ answers_close e x.

(** ** Received control frames have at most 125 bytes of payload *)
Definition short_out (o : out) : Prop := match o with OutControl _ x => (length x <= 125)%nat | _ => True end.
Definition short_d (d : dstate) : Prop :=
  match d with
  | DExt _ _ (KControl _) _ _ => False
  | DKey _ _ (KControl _) n _ => n <= 125
  | DPayload _ _ (KControl _) n _ _ => n <= 125
  | _ => True
  end.
Lemma short_start m f k n g : match k with KControl _ => n <= 125 | _ => True end -> short_d (fst (dec_start m f k n g)) /\ Forall short_out (snd (dec_start m f k n g)).
Proof.
  intros H. unfold dec_start. destruct (n =? 0); [|split; [exact H|constructor]].
  destruct k; cbn [dec_end fst snd]; [split; [exact I|repeat constructor]|]. split; [destruct (_ =? 8); exact I|]. constructor; [cbn; lia|constructor].
Qed.
Lemma short_len sv m f k n : match k with KControl _ => n <= 125 | _ => True end -> short_d (fst (dec_len sv m f k n)) /\ Forall short_out (snd (dec_len sv m f k n)).
Proof. intros H. unfold dec_len. destruct sv; [split; [exact H|constructor]|apply short_start, H]. Qed.
Lemma short_dec sv d b : short_d d -> short_d (fst (dec sv d b)) /\ Forall short_out (snd (dec sv d b)).
Proof.
  intros H. destruct d as [m|m f k|m f k t g|m f k n g|m f k n key g| |]; cbn [dec].
  - split; [|constructor]. cbn [fst]. unfold dec_head.
    repeat match goal with |- short_d (if ?b then _ else _) => destruct b | |- short_d (match ?n with N0 => _ | Npos _ => _ end) => destruct n as [|p] | |- short_d (match ?p with xI _ => _ | xO _ => _ | xH => _ end) => destruct p | |- short_d (match ?m with None => _ | Some _ => _ end) => destruct m end; exact I.
  - destruct (negb _); [split; [exact I|constructor]|]. destruct (N.leb_spec (b mod 128) 125); [apply short_len; destruct k; [exact I|assumption]|]. destruct k; (split; [exact I|constructor]).
  - destruct k; [|destruct H]. destruct (Nat.eqb _ _); [apply short_len; exact I|split; [exact I|constructor]].
  - destruct (Nat.eqb _ _); [apply short_start; exact H|split; [exact H|constructor]].
  - destruct (N.eqb_spec (N.of_nat (length (g ++ [N.lxor b (nth (length g mod 4) key 0)]))) n) as [E|E].
    + destruct k as [bin|op]; cbn [dec_end fst snd]; [split; [exact I|repeat constructor]|]. split; [destruct (op =? 8); exact I|]. constructor; [|constructor]. cbn [short_out]. cbn [short_d] in H. clear - E H. lia.
    + destruct k; (split; [exact H|repeat constructor]).
  - split; [exact I|constructor].
  - split; [exact I|constructor].
Qed.
Lemma short_run sv l : forall d, short_d d -> Forall short_out (snd (dec_run sv d l)).
Proof.
  induction l as [|b l IH]; intros d H; [constructor|]. cbn [dec_run]. destruct (short_dec sv d b H) as [H1 H2]. destruct (dec sv d b) as [d1 o1]. cbn [fst snd] in *.
  specialize (IH d1 H1). destruct (dec_run sv d1 l) as [d2 o2]. cbn [snd] in *. apply Forall_app. auto.
Qed.

(** ** Keeping the histories *)
Definition no_close_ev (e : ev) : Prop := match e with EvControl 8 _ => False | _ => True end.
Lemma answered_more es l : closes_answered l -> Forall no_close_ev es -> closes_answered (es ++ l).
Proof.
  intros H. induction es as [|e es IH]; intros F; [exact H|]. inversion F as [|? ? F1 F2]; subst. intros l1 x l2 E L. destruct l1 as [|e1 l1].
  - cbn in E. injection E as -> _. destruct F1.
  - cbn in E. injection E as -> E. destruct (IH F2 _ _ _ E L) as (l1' & e & -> & A). exists (e1 :: l1'), e. split; [reflexivity|exact A].
Qed.
Lemma answered_close l x e es : closes_answered l -> Forall no_close_ev es -> no_close_ev e -> (local_close l = false -> answers_close e x) -> closes_answered (es ++ e :: EvControl 8 x :: l).
Proof.
  intros H F NE A. apply answered_more; [|exact F]. intros l1 y l2 E L. destruct l1 as [|e1 l1]; [cbn in E; injection E as -> _; destruct NE|]. cbn in E. injection E as <- E.
  destruct l1 as [|e2 l1]; [cbn in E; injection E as -> ->; exists [], e; split; [reflexivity|apply A, L]|]. cbn in E. injection E as <- E.
  destruct (H _ _ _ E L) as (l1' & e0 & -> & B). exists (e :: EvControl 8 x :: l1'), e0. split; [reflexivity|exact B].
Qed.
Lemma answered_selfc l x es : closes_answered l -> Forall no_close_ev es -> local_close l = true -> closes_answered (es ++ EvControl 8 x :: l).
Proof.
  intros H F S. apply answered_more; [|exact F]. intros l1 y l2 E L. destruct l1 as [|e1 l1]; [cbn in E; injection E as -> ->; congruence|]. cbn in E. injection E as <- E.
  destruct (H _ _ _ E L) as (l1' & e0 & -> & B). exists (EvControl 8 x :: l1'), e0. split; [reflexivity|exact B].
Qed.

Section A.
Variable C : cfg.
Hypothesis HC : cfg_ok C.

Definition calm (s s' : ws) : Prop := selfc s' = selfc s /\ exists es, tr s' = es ++ tr s /\ Forall no_close_ev es.
Lemma calm_refl s s' : selfc s' = selfc s -> tr s' = tr s -> calm s s'.
Proof. intros A B. split; [exact A|]. exists []. auto. Qed.
Lemma calm_one s s' e : no_close_ev e -> selfc s' = selfc s -> tr s' = e :: tr s -> calm s s'.
Proof. intros N A B. split; [exact A|]. exists [e]. auto. Qed.
Lemma calm_trans a b c : calm a b -> calm b c -> calm a c.
Proof. intros [A1 (e1 & A2 & A3)] [B1 (e2 & B2 & B3)]. split; [congruence|]. exists (e2 ++ e1). rewrite B2, A2, app_assoc. split; [reflexivity|apply Forall_app; auto]. Qed.
Lemma enq_calm s n len ch kerr s' os : enqueue_job C s n len ch kerr = Ret (s', os) -> calm s s'.
Proof.
  intros H. apply enqueue_frame in H. destruct H as ((c1 & c2 & c3 & c4 & c5 & c6 & c7 & c8 & c9) & TR & _). destruct TR as [TR|(c & TR)]; [apply calm_refl|apply (calm_one _ _ (EvSend n c))]; first [exact I|congruence].
Qed.
Lemma read_calm s cb most n msg s' os : bs_read C s cb most n msg = (s', os) -> calm s s'.
Proof. unfold bs_read. destruct (_ && _)%bool; intros H; injection H as <- <-; apply calm_refl; reflexivity. Qed.
Lemma ret_inj {A} (a b : A) : Ret a = Ret b -> a = b. Proof. intros H. injection H. auto. Qed.

Lemma op_calm s o ch s' os : run_op C s o ch = Ret (s', os) -> calm s s'.
Proof.
  intros H. destruct o; cbn [run_op] in H.
  - injection H as <- <-; apply calm_refl; reflexivity.
  - injection H as <- <-; apply calm_refl; reflexivity.
  - destruct (cbe s); injection H as <- <-; [apply calm_refl; reflexivity|eapply calm_one; [|reflexivity|reflexivity]; exact I].
  - destruct (dequeue_job (T s)) as [[n|] t]; injection H as <- <-; apply calm_refl; reflexivity.
  - eapply calm_trans; [|eapply enq_calm, H]. eapply calm_one; [|reflexivity|reflexivity]; exact I.
  - destruct (hasrh s); injection H as <- <-; [eapply calm_one; [|reflexivity|reflexivity]; exact I|apply calm_refl; reflexivity].
  - injection H as <- <-. eapply calm_one; [|reflexivity|reflexivity]; exact I.
  - binv H. destruct a as [[t n] c]. destruct sh; [destruct (jhandler _); [|discriminate]|..]; injection H as <- <-; apply calm_refl; reflexivity.
  - unfold call_handler in H. destruct h as [[id|]|]; injection H as <- <-; first [eapply calm_one; [|reflexivity|reflexivity]; exact I|apply calm_refl; reflexivity].
  - unfold call_handler in H. destruct (jhandler (jobs (T s) JClose)) as [[id|]|]; injection H as <- <-; first [eapply calm_one; [|reflexivity|reflexivity]; exact I|apply calm_refl; reflexivity].
  - destruct j as [n|]; [|injection H as <- <-; apply calm_refl; reflexivity]. destruct (jwbh (jobs (T s) n)); [|discriminate]. binv H. destruct a as [s1 r]. cbn [fst snd] in H.
    apply send_frame_frame in E. destruct E as ((c1 & c2 & c3 & c4 & c5 & c6 & c7 & c8 & c9) & (c' & _ & TR & _) & _).
    assert (s1 = s') as -> by (destruct r; injection H; auto). apply (calm_one _ _ (EvSend n c')); first [exact I|congruence].
  - destruct (negb _); [injection H as <- <-; apply calm_refl; reflexivity|]. apply ret_inj in H. eapply read_calm, H.
  - injection H as <- <-; apply calm_refl; reflexivity.
  - injection H as <- <-; eapply calm_one; [|reflexivity|reflexivity]; exact I.
Qed.

Lemma call_calm s a ch s' os : call C s a ch = Ret (s', os) ->
  (selfc s' = selfc s \/ local_close (tr s') = true) /\ exists es, tr s' = es ++ tr s /\ Forall no_close_ev es.
Proof.
  intros H. unfold call, refuse in H.
  assert (Q : forall s1, calm s s1 -> calm s1 s' -> (selfc s' = selfc s \/ local_close (tr s') = true) /\ exists es, tr s' = es ++ tr s /\ Forall no_close_ev es).
  { intros s1 A B. destruct (calm_trans _ _ _ A B) as [X Y]. split; [left; exact X|exact Y]. }
  assert (R1 : forall e e', no_close_ev e -> no_close_ev e' -> selfc s' = selfc s -> tr s' = e' :: e :: tr s -> (selfc s' = selfc s \/ local_close (tr s') = true) /\ exists es, tr s' = es ++ tr s /\ Forall no_close_ev es).
  { intros e e' A B E1 E2. split; [left; exact E1|]. exists [e'; e]. auto. }
  assert (NC : forall a, no_close_ev (EvCall a)) by (intros; exact I).
  destruct a as [|id flen p lf bin|id p|id p|id p|id code reason].
  - set (s1 := log s (EvCall ARead)) in *. apply (Q s1); [apply (calm_one _ _ (EvCall ARead)); [exact I|reflexivity|reflexivity]|].
    destruct (_ =? 0); apply ret_inj in H; (eapply calm_trans; [|eapply read_calm, H]); apply calm_refl; reflexivity.
  - destruct id as [id|]; [|injection H as <- <-; eapply R1; [| |reflexivity|reflexivity]; exact I]. destruct (jwbh _); [injection H as <- <-; eapply R1; [| |reflexivity|reflexivity]; exact I|].
    destruct (if fragw _ then _ else _) as [kind fw]. apply enq_calm in H. eapply Q; [|exact H]. split; [reflexivity|]. eexists [_; _]. split; [reflexivity|repeat constructor].
  - apply enq_calm in H. eapply Q; [|exact H]. split; [reflexivity|]. eexists [_; _]. split; [reflexivity|repeat constructor].
  - unfold write_ping_or_pong, refuse in H. destruct id as [id|]; [|injection H as <- <-; eapply R1; [| |reflexivity|reflexivity]; exact I]. destruct (negb _); [injection H as <- <-; eapply R1; [| |reflexivity|reflexivity]; exact I|].
    destruct (jwbh _); [injection H as <- <-; eapply R1; [| |reflexivity|reflexivity]; exact I|]. destruct p; [|discriminate]. apply enq_calm in H. eapply Q; [|exact H]. split; [reflexivity|]. eexists [_; _]. split; [reflexivity|repeat constructor].
  - unfold write_ping_or_pong, refuse in H. destruct id as [id|]; [|injection H as <- <-; eapply R1; [| |reflexivity|reflexivity]; exact I]. destruct (negb _); [injection H as <- <-; eapply R1; [| |reflexivity|reflexivity]; exact I|].
    destruct (jwbh _); [injection H as <- <-; eapply R1; [| |reflexivity|reflexivity]; exact I|]. destruct p; [|discriminate]. apply enq_calm in H. eapply Q; [|exact H]. split; [reflexivity|]. eexists [_; _]. split; [reflexivity|repeat constructor].
  - destruct id as [id|]; [|injection H as <- <-; eapply R1; [| |reflexivity|reflexivity]; exact I]. destruct (jwbh _); [injection H as <- <-; eapply R1; [| |reflexivity|reflexivity]; exact I|].
    destruct (negb _); [injection H as <- <-; eapply R1; [| |reflexivity|reflexivity]; exact I|]. destruct (negb _); [injection H as <- <-; eapply R1; [| |reflexivity|reflexivity]; exact I|].
    apply enq_calm in H. destruct H as [_ (es & E & F)]. assert (X : exists jb len, tr s' = es ++ EvAccept JClose jb len :: EvCall (AClose (Some id) code reason) :: tr s) by (eexists _, _; exact E).
    destruct X as (jb & len & X). split; [right; rewrite X; unfold local_close; rewrite existsb_app; cbn [existsb local_ev orb]; apply orb_true_r|].
    exists (es ++ [EvAccept JClose jb len; EvCall (AClose (Some id) code reason)]). rewrite <- app_assoc. split; [exact X|]. apply Forall_app. split; [exact F|repeat constructor].
Qed.

Lemma check_ok addr x st n : bytes_ok x -> check_close_payload C addr x = Ret (CVOk st n) ->
  x = [] /\ st = 1000 /\ n = 0 \/ exists b0 b1 r, x = b0 :: b1 :: r /\ st = b0 * 256 + b1 /\ n = N.of_nat (length r).
Proof.
  intros BX H. destruct x as [|b0 [|b1 r]].
  - injection H as <- <-. left. auto.
  - discriminate H.
  - right. exists b0, b1, r. split; [reflexivity|]. inversion BX as [|? ? B0 BX1]; inversion BX1 as [|? ? B1 BR]; subst.
    unfold check_close_payload in H. assert (N.of_nat (length (b0 :: b1 :: r)) =? 1 = false) as E1 by (apply N.eqb_neq; cbn [length]; lia). rewrite E1 in H.
    assert (2 <=? N.of_nat (length (b0 :: b1 :: r)) = true) as E2 by (apply N.leb_le; cbn [length]; lia). rewrite E2 in H.
    assert (LB : load_be C 2 (b0 :: b1 :: r) = Ret (b0 * 256 + b1)).
    { unfold load_be. cbn [length Nat.ltb Nat.leb firstn]. rewrite betoh_load; [|reflexivity|repeat constructor; assumption]. unfold be_value. cbn [fold_left]. f_equal. }
    rewrite LB in H. cbn [obind andb] in H. assert (LR : N.of_nat (length (b0 :: b1 :: r)) - 2 = N.of_nat (length r)) by (cbn [length]; lia). rewrite LR in H.
    destruct (is_invalid_status_code _); [discriminate|]. destruct (0 <? _).
    + binv H. destruct (N.eqb _ _); [|discriminate]. injection H as <- <-. auto.
    + injection H as <- <-. auto.
Qed.

Lemma fire_answered s k rq f ch s' os : WsRecvProofs.inv C s k -> WsRecvProofs.inv C s' (os ++ k) -> closes_answered (tr s) -> (selfc s = true -> local_close (tr s) = true) ->
  fire_ok rq f -> fire C s rq f ch = Ret (s', os) -> closes_answered (tr s') /\ selfc s' = selfc s /\ exists es, tr s' = es ++ tr s.
Proof.
  intros IV IV' A SL FO H. destruct (fire_arrival C HC s rq f ch s' os) as (os1 & -> & AR); [destruct (i_mask _ _ _ IV) as (? & ? & _); split; assumption|exact FO|exact H|].
  destruct AR as [es Y X2 F _ _|s1 data Y X2 _ X3|s1 addr data Y X2 BD X3]; destruct Y as (X1 & _ & SE & _).
  - rewrite X2. split; [|split; [exact SE|exists es; reflexivity]]. apply answered_more; [exact A|]. eapply Forall_impl; [|exact F]. intros e. destruct e; try (intros []; fail); try (intros; exact I). destruct kind as [|p]; [intros []|]. do 4 (destruct p as [p|p|]; try (intros []; fail); try (intros; exact I)).
  - unfold handle_ping_frame in X3. destruct (Nat.ltb 125 (length data)); [discriminate|]. apply enq_calm in X3. destruct X3 as [E1 (es & E2 & F)]. cbn [tr log set_T selfc] in E1, E2. rewrite X2 in E2.
    match type of E2 with _ = _ ++ ?e :: ?e' :: _ => assert (Z : tr s' = (es ++ [e; e']) ++ tr s) by (rewrite <- app_assoc; exact E2) end.
    split; [|split; [congruence|eexists; exact Z]]. rewrite Z. apply answered_more; [exact A|]. apply Forall_app. split; [exact F|repeat constructor].
  - unfold handle_close_frame in X3. binv X3. destruct a as [ccode rs|st n].
    { injection X3 as <- <-. split; [rewrite X2; exact A|]. split; [exact SE|exists []; exact X2]. }
    cbn [log selfc] in X3. destruct (selfc s1) eqn:SF.
    { injection X3 as <- <-. cbn [tr selfc set_timer log]. rewrite X2. split; [apply (answered_selfc (tr s) data []); [exact A|constructor|apply SL; congruence]|]. split; [congruence|eexists [_]; reflexivity]. }
    assert (LD : (length data <= 125)%nat).
    { destruct (i_pre _ _ _ IV') as (rest & DE & _). pose proof (short_run (is_server C) (inp s') (DHead None) I) as SR. unfold decode in DE. rewrite DE in SR. apply Forall_app in SR. destruct SR as [SR _].
      apply enq_calm in X3. destruct X3 as [_ (es & E2 & _)]. assert (IN : In (EvControl 8 data) (tr s')) by (rewrite E2; apply in_or_app; right; right; left; reflexivity).
      assert (Z : In (OutControl 8 data) (delivered (tr s'))). { clear - IN. induction (tr s') as [|e r IH]; [destruct IN|]. cbn [delivered]. apply in_or_app. destruct IN as [-> | IN]; [right; left; reflexivity|left; apply IH, IN]. }
      rewrite Forall_forall in SR. exact (SR _ Z). }
    set (reason := if 0 <? n then Some (skipn 2 data) else None) in *.
    set (s2 := log s1 (EvControl CLOSE_FRAME data)) in *.
    destruct (close_chain C s2 st reason None SHResponseClose ch) as (b & J1 & J2 & J3 & J4 & J5).
    { unfold reason. destruct (0 <? n); [|exact I]. rewrite <- (firstn_skipn 2 data) in BD. apply bytes_ok_app in BD. apply BD. }
    assert (BA : b = close_answer data).
    { rewrite J5. unfold reason. destruct (check_ok _ _ _ _ BD E) as [(-> & -> & ->) | (b0 & b1 & r & -> & -> & ->)]; [reflexivity|].
      inversion BD as [|? ? B0 BX1]; inversion BX1 as [|? ? B1 BR]; subst. unfold byte_ok in B0, B1.
      assert (BE : be_bytes 2 (b0 * 256 + b1) = [b0; b1]).
      { change (be_bytes 2 (b0 * 256 + b1)) with [((b0 * 256 + b1) / 256 ^ 1) mod 256; ((b0 * 256 + b1) / 256 ^ 0) mod 256]. change (256 ^ 1) with 256. change (256 ^ 0) with 1.
        rewrite N.div_1_r, (N.div_add_l b0 256 b1), (N.div_small b1 256), N.add_0_r, (N.mod_small b0 256) by lia. f_equal. f_equal. rewrite N.add_comm, N.mod_add, N.mod_small by lia. reflexivity. }
      rewrite BE. cbn [close_answer skipn app]. f_equal. f_equal. destruct r as [|x r]; [reflexivity|]. assert (0 <? N.of_nat (length (x :: r)) = true) as -> by (apply N.ltb_lt; cbn [length]; lia).
      apply firstn_all2. cbn [length] in LD |- *. lia. }
    apply enq_calm in X3. destruct X3 as [E1 (es & E2 & F)].
    unfold accept_close in E1, E2. cbn [tr log selfc] in E1, E2. rewrite J2, BA in E2.
    assert (Z : tr s' = es ++ EvAccept JClose (jobs (T (prepare_close_job C s2 st reason None SHResponseClose ch)) JClose) (N.of_nat (length (close_answer data))) :: EvControl 8 data :: tr s) by (rewrite <- X2; exact E2).
    split; [|split; [rewrite E1; exact (eq_trans SF SE)|exists (es ++ [EvAccept JClose (jobs (T (prepare_close_job C s2 st reason None SHResponseClose ch)) JClose) (N.of_nat (length (close_answer data))); EvControl 8 data]); rewrite <- app_assoc; exact Z]].
    rewrite Z. apply answered_close; [exact A|exact F|exact I|]. intros _. eexists _, [(ch_addr ch, b)]. split; [reflexivity|]. rewrite J1. repeat split. cbn. rewrite app_nil_r. exact BA.
Qed.

Theorem reach_answered s k : reach C one_read_at_a_time (s, k) -> closes_answered (tr s) /\ (selfc s = true -> local_close (tr s) = true).
Proof.
  intros H. remember (s, k) as c eqn:Ec. revert s k Ec. induction H as [g L1 L2 L3 L4|c x c' Hr IH En Cd St]; intros s k Ec.
  - injection Ec as <- <-. split; [intros [|] x l2 E; discriminate E|discriminate].
  - subst c'. destruct c as [s0 k0]. destruct (IH _ _ eq_refl) as [A SL].
    assert (IV : WsRecvProofs.inv C s0 k0) by (eapply reach_inv; eassumption).
    assert (IV' : WsRecvProofs.inv C s k) by (eapply reach_inv; [exact HC|eapply reach_step; eassumption]).
    assert (G : forall es, tr s = es ++ tr s0 -> selfc s = selfc s0 -> selfc s = true -> local_close (tr s) = true).
    { intros es E E1 E2. rewrite E. apply local_app, SL. congruence. }
    destruct x as [ch|a ch|f ch|err|err]; cbn [step enabled] in *.
    + destruct k0 as [|o k0]; [destruct En as [X _]; congruence|]. unfold lift in St. binv St. destruct a as [s1 o1]. injection St as -> <-. cbn [fst snd] in *.
      apply op_calm in E. destruct E as [E1 (es & E2 & F)]. split; [rewrite E2; apply answered_more; assumption|apply (G es E2 E1)].
    + unfold lift in St. binv St. destruct a0 as [s1 o1]. injection St as -> <-. cbn [fst snd] in *. apply call_calm in E. destruct E as [E1 (es & E2 & F)].
      split; [rewrite E2; apply answered_more; assumption|]. destruct E1 as [E1|E1]; [apply (G es E2 E1)|intros _; exact E1].
    + destruct En as (_ & _ & _ & _ & rq & RD & FO). rewrite RD in St. unfold lift in St. binv St. destruct a as [s1 o1]. injection St as -> <-. cbn [fst snd] in *.
      destruct (fire_answered _ _ _ _ _ _ _ IV IV' A SL FO E) as (X1 & X2 & (es & X3)). split; [exact X1|apply (G es X3 X2)].
    + destruct En as (-> & _). injection St as <- <-. split; [exact A|exact SL].
    + destruct En as (-> & _). injection St as <- <-. split; [exact A|exact SL].
Qed.
End A.

(** Whatever else the application and the transport do: a close frame of the peer that arrives before the application
    closes is answered, immediately, with a close frame that carries the status and the reason received. *)
Theorem ws_close_frame_is_answered : forall C s k l1 x l2, cfg_ok C -> reach C one_read_at_a_time (s, k) ->
  tr s = l1 ++ EvControl 8 x :: l2 -> (forall id code reason, ~ In (EvCall (AClose id code reason)) l2) ->
  exists l1' jb c, l1 = l1' ++ [EvAccept JClose jb (N.of_nat (length (close_answer x)))] /\ jtype jb = 8 /\ jlast jb = true /\ jwbh jb = Some c /\ chain_bytes c = close_answer x.
Proof.
  intros C s k l1 x l2 HC H E NC. destruct (reach_answered C HC s k H) as [A _].
  assert (L : local_close l2 = false). { destruct (local_close l2) eqn:L; [|reflexivity]. exfalso. unfold local_close in L. apply existsb_exists in L. destruct L as (e & I & Q). destruct e; try discriminate Q. destruct a; try discriminate Q. exact (NC _ _ _ I). }
  destruct (A _ _ _ E L) as (l1' & e & -> & jb & c & -> & B). exists l1', jb, c. split; [reflexivity|exact B].
Qed.
Print Assumptions ws_close_frame_is_answered.

(** The peer closes with 1001 and a reason while a message is being written. *)
Example close_answer_example : exists s k, reach srv proper (s, k) /\ In (EvControl 8 [0x03; 0xE9; 98; 121; 101]) (tr s) /\ (forall id code reason, ~ In (EvCall (AClose id code reason)) (tr s)) /\
  map (fun a => chain_bytes (match jwbh (ent_job a) with Some c => c | None => [] end)) (accepts (tr s)) = [[72; 105]; [0x03; 0xE9; 98; 121; 101]].
Proof.
  go_it srv ([readcall; op1; say 1 [72; 105]; arrive [0x88; 0x85]; op1; arrive [0x85]; op1; arrive [0; 0; 0; 0]; op1; arrive [0x03; 0xE9; 98; 121; 101]; op1]).
  split; [cbn; tauto|]. split; [intros id code reason; intros HH; cbn in HH; decompose [or] HH; try discriminate; try contradiction|reflexivity].
Qed.
