(** C74: a websocket writing through its buffered stream. *)
From Verif Require Import Base Utf8Model Utf8Spec MaskModel MaskSpec EndianModel EndianSpec
  WsModel WsFrame WsSendProofs WsRecvSpec WsDecode WsFrameSpec WsCodec WsSend WsHistory WsTrace WsExec WsRecvProofs WsRecvReach WsClean WsRecvProps WsRecvProps2
  WsQueue WsOutSpec WsArrive WsWire WsOut WsOutStep WsOutReach WsOutProps WsLive WsLive2 WsRefuse WsFrames WsFrameProps WsPairSpec WsPairProofs WsPairProps WsStream WsStreamProofs WsStreamProps
  WsOutStream WsOutStreamProofs.
From Verif Require BufWriteModel BufWriteSpec BufWriteProps WriteBufferModel.
Import BufWriteModel(wst, wh, phase, accepted, wphase, WFirst, WLater, WReported, WRejected, tev, TSync, TDone, w_run, w_enabled, w_step).
Open Scope N_scope.

(** The application calls with valid arguments and the transport neither refuses nor fails. *)
Definition orderly (c : conf) (x : act) : Prop := proper c x /\ writes_work x.
(** ... and every frame is written in one call. *)
Definition sending (c : conf) (x : act) : Prop := whole_frames c x /\ writes_work x.
(** The first call of write_some for a chain takes all of it, or stops before its last element (see C15 for what happens otherwise). *)
Definition stops_early (r : wrun) : Prop := ~ BufWriteSpec.stops_in_last_element (r_mem r) (r_h r) (r_l r) (r_es r).
Definition out (p : wsys) : ws := fst (wk p).

Lemma osreach_mono C (P P' : conf -> act -> Prop) Q p : (forall c x, P c x -> P' c x) -> osreach C P Q p -> osreach C P' Q p.
Proof.
  intros HP. induction 1; [apply os_init; assumption|eapply os_quiet; eauto|eapply os_send; eauto|eapply os_wire; eauto|eapply os_done; eauto].
Qed.
(** The websocket runs as [WsModel] says. *)
Lemma osreach_reach C P Q p : osreach C P Q p -> reach C P (wk p).
Proof.
  induction 1; cbn [wk] in *; [apply reach_init; assumption|..]; try (eapply reach_step; eassumption). exact IHosreach.
Qed.
Lemma step_extends fuel mem B W T s x s' : w_step fuel mem B W T s x = Ret s' -> exists more, accepted s' = accepted s ++ more.
Proof.
  unfold w_step. destruct (phase s), x; intros H; try (injection H as <-; exists []; rewrite app_nil_r; reflexivity);
    binv H; binv H; destruct a0; injection H as <-; eexists; reflexivity.
Qed.
Lemma skipn_more {A} (l m : list A) : skipn (length l) (l ++ m) = m.
Proof. induction l; [reflexivity|assumption]. Qed.

Definition state (Q : wrun -> Prop) (p : wsys) : Prop :=
  (pend p = [] /\ inflight (T (out p)) = 0%nat /\ wire p = bytes_sent (tr (out p))) \/
  (exists r base, pend p = [r] /\ inflight (T (out p)) = 1%nat /\ bytes_sent (tr (out p)) = base ++ run_data r /\ wire p = base ++ accepted (r_st r) /\ good_run r /\ Q r).

Lemma good_prefix r : good_run r -> stops_early r -> (exists rest, run_data r = accepted (r_st r) ++ rest) /\ (phase (r_st r) = WReported 0 -> accepted (r_st r) = run_data r).
Proof.
  intros [G1 G2] Q. destruct (BufWriteProps.C15_bytes_sent_once_in_order_partial _ _ _ _ _ _ _ _ _ G1 G2 Q) as (A & B & _). split; [exact A|exact B].
Qed.
Lemma bytes_sent_same t t' : sends t' = sends t -> bytes_sent t' = bytes_sent t.
Proof. unfold bytes_sent. intros ->. reflexivity. Qed.
Lemma bytes_sent_one t t' n c : sends t' = sends t ++ [(n, c)] -> bytes_sent t' = bytes_sent t ++ chain_bytes c.
Proof. unfold bytes_sent. intros ->. rewrite map_app, concat_app. cbn. rewrite app_nil_r. reflexivity. Qed.
Lemma not_longer {A} (l : list A) x : l <> l ++ [x].
Proof. intros H. apply (f_equal (@length _)) in H. rewrite app_length in H. cbn in H. lia. Qed.

Theorem state_holds C (Q : wrun -> Prop) (p : wsys) : cfg_ok C -> (forall r, Q r -> stops_early r) -> osreach C orderly Q p -> no_error (tr (out p)) -> state Q p.
Proof.
  intros HC HQ H. unfold out. induction H as [g|p x c' HP IH NW EN PX ST SD|p x c' n ch r HP IH NW EN PX ST SD GR QR RD OK|p r rest x s' HP IH PE EN ST r' QR|p r rest e c' HP IH PE PH EN PX ST]; intros NE.
  - left. repeat split; reflexivity.
  - pose proof (osreach_reach _ _ _ _ HP) as R0. destruct p as [[s k] pe w]; destruct c' as [s' k']; unfold state, out in *; cbn [wk pend wire fst snd] in *.
    assert (R1 : reach C proper (s, k)) by (eapply reach_mono; [|exact R0]; intros ? ? [X _]; exact X).
    pose proof (step_no_error C s k x s' k' _ R1 ST NE) as N0. specialize (IH N0).
    destruct (send_when_idle C HC s k x s' k' R1 N0 EN NW ST) as [[A B]|[(m & c & A & _) _]]; [|rewrite SD in A; destruct (not_longer _ _ A)].
    rewrite B, (bytes_sent_same _ _ SD). exact IH.
  - pose proof (osreach_reach _ _ _ _ HP) as R0. destruct p as [[s k] pe w]; destruct c' as [s' k']; unfold state, out in *; cbn [wk pend wire fst snd] in *.
    assert (R1 : reach C proper (s, k)) by (eapply reach_mono; [|exact R0]; intros ? ? [X _]; exact X).
    pose proof (step_no_error C s k x s' k' _ R1 ST NE) as N0. specialize (IH N0).
    destruct (send_when_idle C HC s k x s' k' R1 N0 EN NW ST) as [[A B]|[(m & c & A & B) Z]]; [rewrite SD in A; destruct (not_longer _ _ (eq_sym A))|].
    rewrite (bytes_sent_one _ _ _ _ SD), B, Z. destruct IH as [(-> & _ & ->)|(r0 & base & _ & X & _)]; [|congruence]. rewrite <- RD.
    destruct (good_prefix r GR (HQ r QR)) as [PF FU].
    assert (WW : write_works (choice_of x)) by (destruct PX as [_ W]; destruct x; cbn in W |- *; try exact W; reflexivity).
    unfold write_works, outcome_ok in *. destruct (ch_write (choice_of x)) as [|e|e]; [|subst e|destruct WW].
    + right. exists r, (bytes_sent (tr s)). auto 10.
    + left. rewrite (FU OK). auto.
  - destruct p as [[s k] pe w]. unfold state, out in *. cbn [wk pend wire fst snd] in *. specialize (IH NE). destruct IH as [(-> & _)|(r0 & base & -> & I & B & W & GR & QR0)]; [discriminate|]. injection PE as <- <-.
    right. exists r', base. destruct (step_extends _ _ _ _ _ _ _ _ ST) as [more M]. split; [reflexivity|]. split; [exact I|]. split; [exact B|]. split.
    { unfold r'. cbn [r_st]. rewrite W, M, skipn_more, app_assoc. reflexivity. }
    split; [|exact QR]. destruct GR as [G1 G2]. split; [exact G1|]. unfold r'. cbn. eapply BufWriteModel.w_run_step; eassumption.
  - pose proof (osreach_reach _ _ _ _ HP) as R0. destruct p as [[s k] pe w]; destruct c' as [s' k']; unfold state, out in *; cbn [wk pend wire fst snd] in *.
    assert (R1 : reach C proper (s, k)) by (eapply reach_mono; [|exact R0]; intros ? ? [X _]; exact X).
    pose proof (step_no_error C s k _ s' k' _ R1 ST NE) as N0. specialize (IH N0). destruct (written_same C s k e s' k' ST) as [A B].
    destruct IH as [(-> & _)|(r0 & base & -> & I & BS & W & GR & QR0)]; [discriminate|]. injection PE as <- <-.
    left. rewrite B, I, (bytes_sent_same _ _ A), BS, W. split; [reflexivity|]. split; [reflexivity|]. f_equal. destruct PX as [_ W0]. cbn in W0. subst e. apply (good_prefix r0 GR (HQ r0 QR0)). exact PH.
Qed.

(** The two halves fit together: the websocket alone is what [WsModel] says, and cio_buffered_stream_write is never called while an earlier write is still
    going on - which its single write buffer could not bear (buffered_stream.c 352-362 keeps one handler and one chain). *)
Theorem C74_one_write_at_a_time : forall C p, cfg_ok C -> osreach C orderly stops_early p -> no_error (tr (out p)) ->
  reach C orderly (wk p) /\ length (pend p) = inflight (T (out p)) /\ (length (pend p) <= 1)%nat.
Proof.
  intros C p HC H N. split; [exact (osreach_reach _ _ _ _ H)|]. destruct (state_holds C stops_early p HC (fun _ q => q) H N) as [(-> & -> & _)|(r & base & -> & -> & _)]; cbn; auto.
Qed.
Print Assumptions C74_one_write_at_a_time.

(** What the socket has taken is the beginning of what the websocket has written, and all of it once no write is in progress: partial writes, in any
    number and of any sizes, neither lose, repeat nor reorder bytes - as long as the first one does not stop inside the last element of the chain. *)
Theorem C74_bytes_on_the_wire : forall C p, cfg_ok C -> osreach C orderly stops_early p -> no_error (tr (out p)) ->
  prefix (wire p) (bytes_sent (tr (out p))) /\ (inflight (T (out p)) = 0%nat -> wire p = bytes_sent (tr (out p))).
Proof.
  intros C p HC H N. destruct (state_holds C stops_early p HC (fun _ q => q) H N) as [(_ & _ & ->)|(r & base & _ & I & B & W & G & Q)].
  - split; [exists []; rewrite app_nil_r; reflexivity|reflexivity].
  - split; [|congruence]. destruct (good_prefix r G Q) as [[rest E] _]. exists rest. rewrite B, W, E, app_assoc. reflexivity.
Qed.
Print Assumptions C74_bytes_on_the_wire.

(** No write hangs: at any time, a socket that takes what it is offered gets everything the websocket has written, and the write is reported as done - unless
    it failed before. *)
Definition failed_write (r : wrun) : Prop := exists e, (phase (r_st r) = WReported e /\ e <> 0%Z) \/ phase (r_st r) = WRejected e.
Theorem C74_wire_catches_up : forall C p, cfg_ok C -> osreach C orderly stops_early p -> no_error (tr (out p)) -> Forall (fun r => ~ failed_write r) (pend p) ->
  exists p', osreach C orderly stops_early p' /\ wk p' = wk p /\ wire p' = bytes_sent (tr (out p)) /\
    (pend p' = [] \/ exists r, pend p' = [r] /\ phase (r_st r) = WReported 0).
Proof.
  intros C p HC H N NF. destruct (state_holds C stops_early p HC (fun _ q => q) H N) as [(PE & _ & W)|(r & base & PE & I & B & W & G & Q)]; [exists p; auto|].
  rewrite PE in NF. inversion NF as [|? ? NF1 _]; subst.
  assert (GO : phase (r_st r) = WFirst \/ phase (r_st r) = WLater \/ phase (r_st r) = WReported 0).
  { unfold failed_write in NF1. destruct (phase (r_st r)) as [| |e|e]; auto; [|destruct NF1; exists e; auto]. destruct (Z.eq_dec e 0) as [->|NE]; [auto|destruct NF1; exists e; auto]. }
  destruct (good_prefix r G Q) as [_ FU]. destruct G as [G1 G2].
  assert (Z : (phase (r_st r) = WFirst \/ phase (r_st r) = WLater) \/ phase (r_st r) = WReported 0) by tauto. clear GO. destruct Z as [GO|GO].
  - destruct (BufWriteProps.C15_write_can_finish _ _ _ _ _ _ _ _ _ G1 G2 Q GO) as (n & s' & EN & ST & Q' & PH & AC).
    pose proof (os_wire C orderly stops_early p r [] _ s' H PE EN ST Q') as H'. cbv zeta in H'. eexists. split; [exact H'|]. cbn [wk wire pend]. split; [reflexivity|]. split; [|eauto].
    destruct (step_extends _ _ _ _ _ _ _ _ ST) as [more M]. rewrite W, M, skipn_more, B. rewrite <- app_assoc. f_equal. rewrite <- M. exact AC.
  - exists p. split; [exact H|]. split; [reflexivity|]. rewrite W, B, (FU GO). split; [reflexivity|right; eauto].
Qed.
Print Assumptions C74_wire_catches_up.

(** ** Two websockets, each on top of its buffered stream *)

(** [q] has received the beginning of what the socket of [p] took. *)
Definition carried (p : wsys) (q : sys) (onway : list N) : Prop := del q ++ onway = wire p.

Lemma carried_receives CA p q onway : cfg_ok CA -> osreach CA orderly stops_early p -> no_error (tr (out p)) -> carried p q onway ->
  exists rest, receives (out p) q rest /\ (onway = [] -> inflight (T (out p)) = 0%nat -> rest = []).
Proof.
  intros HC H N E. destruct (C74_bytes_on_the_wire CA p HC H N) as [[r P] F]. exists (onway ++ r). unfold receives, carried in *. rewrite P, <- E, <- app_assoc. split; [reflexivity|].
  intros -> I. specialize (F I). rewrite P, <- (app_nil_r (wire p)), <- app_assoc in F. cbn in F. apply app_inv_head in F. symmetry. exact F.
Qed.
Lemma sending_orderly : forall c x, sending c x -> orderly c x.
Proof. intros c x [[P _] W]. split; assumption. Qed.

(** However the bytes are cut up on the way out and on the way in, what B's application gets are the first messages A's application wrote, and the first pings, in order. *)
Theorem C74_messages_arrive_in_order : forall CA CB base p q onway, cfg_ok CA -> cfg_ok CB -> opposite CA CB ->
  osreach CA sending stops_early p -> no_error (tr (out p)) -> sreach CB base one_read_at_a_time q -> carried p q onway ->
  prefix (received (delivered (tr (sock q)))) (sent_messages (tr (out p))) /\ prefix (got_controls 9 (delivered (tr (sock q)))) (sent_pings (tr (out p))).
Proof.
  intros CA CB base p q onway HA HB OP HP NA HQ E.
  destruct (carried_receives CA p q onway HA (osreach_mono _ _ _ _ _ sending_orderly HP) NA E) as (rest & R & _).
  assert (RA : reach CA whole_frames (out p, snd (wk p))).
  { unfold out. rewrite <- surjective_pairing. eapply reach_mono; [|exact (osreach_reach _ _ _ _ HP)]. intros c x [X _]. exact X. }
  exact (C73_messages_arrive_in_order CA CB base (out p) (snd (wk p)) q rest HA HB OP RA NA HQ R).
Qed.
Print Assumptions C74_messages_arrive_in_order.

(** Nothing is lost: everything A wrote has left, everything has arrived, B asks for more - then B got every message, without an error. *)
Theorem C74_conversation_works : forall CA CB base p q, cfg_ok CA -> cfg_ok CB -> opposite CA CB -> 125 <= rbsize CB ->
  osreach CA sending stops_early p -> snd (wk p) = [] -> no_error (tr (out p)) -> close_asked (tr (out p)) = false -> inflight (T (out p)) = 0%nat ->
  carried p q [] -> failed q = [] -> at_rest q -> read_open (tr (sock q)) -> inflight (T (sock q)) = 0%nat -> hooked (sock q) = false ->
  ((Forall (Forall (fun b => b < 128)) (sent_texts (tr (out p))) /\ Forall (fun b => b < 128) (sent_partial_text (tr (out p))) /\ sreach CB base conduct q) \/
   (Forall utf8_well_formed (sent_texts (tr (out p))) /\ utf8_prefix (sent_partial_text (tr (out p))) /\ sreach CB base (fun c x => conduct c x /\ whole c x) q)) ->
  no_error (tr (sock q)) /\ unread q = [] /\ received (delivered (tr (sock q))) = sent_messages (tr (out p)) /\ got_controls 9 (delivered (tr (sock q))) = sent_pings (tr (out p)).
Proof.
  intros CA CB base p q HA HB OP BIG HP K NA CL IF E FL AR RO IFB HK TX.
  destruct (carried_receives CA p q [] HA (osreach_mono _ _ _ _ _ sending_orderly HP) NA E) as (rest & R & Z). rewrite (Z eq_refl IF) in R.
  assert (RA : reach CA whole_frames (out p, [])).
  { unfold out. rewrite <- K, <- surjective_pairing. eapply reach_mono; [|exact (osreach_reach _ _ _ _ HP)]. intros c x [X _]. exact X. }
  exact (C73_conversation_works CA CB base (out p) q HA HB OP BIG RA NA CL IF R FL AR RO IFB HK TX).
Qed.
Print Assumptions C74_conversation_works.

(** ** Runs *)
Section Run.
Variable C : cfg.
Variable Pb : conf -> act -> bool.
Fixpoint quiet (c : conf) (l : list act) : option conf :=
  match l with
  | [] => Some c
  | x :: r => if (enabledb c x && Pb c x && match x with XWritten _ => false | _ => true end)%bool then
      match step C c x with
      | Ret c' => if Nat.eqb (length (sends (tr (fst c')))) (length (sends (tr (fst c)))) then quiet c' r else None
      | UB => None
      end else None
  end.
Lemma quiet_reach (P : conf -> act -> Prop) Q l : (forall c x, Pb c x = true -> P c x) -> forall p c', osreach C P Q p -> quiet (wk p) l = Some c' -> osreach C P Q (WSys c' (pend p) (wire p)).
Proof.
  intros HP. induction l as [|x r IH]; intros p c' Hp H; cbn [quiet] in H; [injection H as <-; destruct p; exact Hp|].
  destruct (_ && _)%bool eqn:E; [|discriminate]. destruct (step C (wk p) x) as [c1|] eqn:S; [|discriminate]. destruct (Nat.eqb _ _) eqn:L; [|discriminate]. apply Nat.eqb_eq in L.
  apply andb_prop in E. destruct E as [E NW]. apply andb_prop in E. destruct E as [E1 E2]. apply enabledb_ok in E1. apply HP in E2.
  assert (NW' : forall e, x <> XWritten e) by (intros e ->; discriminate).
  refine (IH (WSys c1 (pend p) (wire p)) c' _ H). apply (os_quiet C P Q p x c1 Hp NW' E1 E2 S).
  destruct (wk p) as [s k], c1 as [s1 k1]. cbn [fst] in *. destruct (step_puts C s k x s1 k1 S NW' E1) as [[A _]|[(n & c & A & _) _]]; [exact A|].
  exfalso. rewrite A, app_length in L. cbn in L. lia.
Qed.
Fixpoint go_on (r : wrun) (l : list tev) : option wrun :=
  match l with
  | [] => Some r
  | x :: l' => if BufWriteProps.w_enabledb (r_mem r) (r_B r) (r_W r) (r_st r) x then
      match w_step (r_fuel r) (r_mem r) (r_B r) (r_W r) (r_T r) (r_st r) x with
      | Ret s' => go_on (WRun (r_fuel r) (r_mem r) (r_h r) (r_B r) (r_W r) (r_T r) (r_l r) (r_es r ++ [x]) s') l'
      | UB => None
      end else None
  end.
Lemma w_enabledb_ok mem B W s x : BufWriteProps.w_enabledb mem B W s x = true -> w_enabled mem B W s x.
Proof.
  unfold BufWriteProps.w_enabledb. intros E. apply andb_prop in E. destruct E as [E1 E2]. split; [destruct (phase s); try discriminate; auto|].
  destruct x as [err|err n]; [apply negb_true_iff, Z.eqb_neq in E2; exact E2|]. apply andb_prop in E2. destruct E2 as [E2 E3]. apply N.ltb_lt in E2. split; [exact E2|].
  intros _ v Hv. rewrite Hv in E3. apply Nat.leb_le, E3.
Qed.
Lemma go_on_reach P (Q : wrun -> Prop) x0 rest l : forall p r r', (forall y s', Q (WRun (r_fuel r) (r_mem r) (r_h r) (r_B r) (r_W r) (r_T r) (r_l r) (x0 :: y) s')) ->
  osreach C P Q p -> pend p = r :: rest -> hd_error (r_es r ++ l) = Some x0 -> go_on r l = Some r' ->
  exists w, osreach C P Q (WSys (wk p) (r' :: rest) w) /\ (forall base, wire p = base ++ accepted (r_st r) -> w = base ++ accepted (r_st r')).
Proof.
  induction l as [|x l IH]; intros p r r' HQ Hp PE HD H; cbn [go_on] in H.
  - injection H as <-. exists (wire p). rewrite <- PE. destruct p; split; [exact Hp|auto].
  - destruct (BufWriteProps.w_enabledb _ _ _ _ _) eqn:E; [|discriminate]. apply w_enabledb_ok in E. destruct (w_step _ _ _ _ _ _ x) as [s'|] eqn:S; [|discriminate].
    assert (EX : exists y, r_es r ++ [x] = x0 :: y) by (destruct (r_es r); cbn in HD; injection HD as <-; eexists; reflexivity). destruct EX as [y EY].
    set (r1 := WRun (r_fuel r) (r_mem r) (r_h r) (r_B r) (r_W r) (r_T r) (r_l r) (r_es r ++ [x]) s') in *.
    assert (Q1 : Q r1) by (unfold r1; rewrite EY; apply HQ).
    pose proof (os_wire C P Q p r rest x s' Hp PE E S Q1) as H1. cbv zeta in H1. fold r1 in H1.
    destruct (IH _ r1 r' HQ H1 eq_refl) as (w & HW & EW); [unfold r1; cbn [r_es]; rewrite <- app_assoc; exact HD|exact H|]. cbn [wk pend wire] in *.
    exists w. split; [exact HW|]. intros base B. apply EW. destruct (step_extends _ _ _ _ _ _ _ _ S) as [more M]. rewrite B, M, skipn_more, <- app_assoc. unfold r1. cbn [r_st]. rewrite M. reflexivity.
Qed.
End Run.

(** A server writes the text Hi: the chain has the frame header (2 bytes at 64) and the text (2 bytes at 100). *)
Definition hi_heap : WriteBufferModel.heap := fun p =>
  if p =? 1 then Some (WriteBufferModel.Cell 10 11 2 4) else
  if p =? 10 then Some (WriteBufferModel.Cell 11 1 64 2) else
  if p =? 11 then Some (WriteBufferModel.Cell 1 10 100 2) else
  if p =? 2 then Some (WriteBufferModel.Cell 0 0 0 0) else
  if p =? 3 then Some (WriteBufferModel.Cell 0 0 0 0) else None.
Definition hi_mem (a : N) : N := if a =? 64 then 0x81 else if a =? 65 then 2 else if a =? 100 then 72 else if a =? 101 then 105 else 0.
Lemma hi_pre : BufWriteSpec.write_pre 20 hi_heap 1 2 3 [10; 11].
Proof.
  unfold BufWriteSpec.write_pre, WriteBufferSpec.chain_at, WriteBufferSpec.circular.
  assert (Hl : forall a b, (exists c, hi_heap a = Some c /\ WriteBufferModel.nx c = b) -> (exists c, hi_heap b = Some c /\ WriteBufferModel.pv c = a) -> WriteBufferSpec.link hi_heap a b) by (intros; split; auto).
  repeat match goal with |- _ /\ _ => split end; try reflexivity; try discriminate; try (cbn; lia); try (cbn; intuition discriminate).
  - cbn [app WriteBufferSpec.path]. repeat split; eexists; split; reflexivity.
  - repeat constructor; cbn; intuition discriminate.
  - repeat constructor; eexists _, _; (split; [reflexivity|reflexivity]).
Qed.
Definition hi_run : wrun := WRun 20 hi_mem hi_heap 1 2 3 [10; 11] [] (BufWriteModel.w_start hi_heap).
Definition sendingb (c : conf) (x : act) : bool := bothb c x.
Lemma sendingb_ok c x : sendingb c x = true -> sending c x.
Proof.
  intros H. apply bothb_ok in H. destruct H as [H1 (_ & W & _)]. split; [exact H1|]. destruct x; try exact W. exact (proj1 W).
Qed.
Definition conf_of (o : outcome conf) : conf := match o with Ret c => c | UB => start end.
Definition said : conf := conf_of (step srv start (say 1 [72; 105])).
Definition called : conf := conf_of (step srv said (XWritten 0)).
Definition after : conf := match quiet srv sendingb called (ops 4) with Some c => c | None => start end.
Lemma hi_written (Q : wrun -> Prop) x0 l r' : Q hi_run -> (forall y s', Q (WRun 20 hi_mem hi_heap 1 2 3 [10; 11] (x0 :: y) s')) ->
  go_on hi_run (x0 :: l) = Some r' -> phase (r_st r') = WReported 0 -> osreach srv sending Q (WSys after [] (accepted (r_st r'))).
Proof.
  intros Q0 Q1 G PH.
  assert (I0 : osreach srv sending Q (WSys start [] [])) by (apply (os_init srv sending Q junk0); try reflexivity; repeat constructor).
  assert (S1 : step srv start (say 1 [72; 105]) = Ret said) by (vm_compute; reflexivity).
  assert (I1 : osreach srv sending Q (WSys said [hi_run] [])).
  { refine (os_send srv sending Q _ _ said JMsg [(64%nat, [0x81; 2]); (100%nat, [72; 105])] hi_run I0 _ _ _ S1 _ _ Q0 _ _).
    - discriminate.
    - apply enabledb_ok. vm_compute. reflexivity.
    - apply sendingb_ok. vm_compute. reflexivity.
    - vm_compute. reflexivity.
    - split; [exact hi_pre|constructor].
    - vm_compute. reflexivity.
    - left. reflexivity. }
  destruct (go_on_reach srv sending Q x0 [] (x0 :: l) _ hi_run r' Q1 I1 eq_refl eq_refl G) as (w & I2 & EW). rewrite (EW []) in I2 by reflexivity. clear EW w. cbn [app wk] in I2.
  assert (S2 : step srv said (XWritten 0) = Ret called) by (vm_compute; reflexivity).
  assert (I3 : osreach srv sending Q (WSys called [] (accepted (r_st r')))).
  { refine (os_done srv sending Q _ r' [] 0%Z called I2 eq_refl PH _ _ S2).
    - apply enabledb_ok. vm_compute. reflexivity.
    - apply sendingb_ok. vm_compute. reflexivity. }
  refine (quiet_reach srv sendingb sending Q (ops 4) sendingb_ok _ after I3 _). vm_compute. reflexivity.
Qed.

(** The client on the other end, with a buffer of 125 bytes. *)
Definition cli125 : cfg := Cfg false 125 MaskModel.LittleEndian 8.
Fixpoint feed_cli (p : sys) (l : list sact) : option sys :=
  match l with
  | [] => Some p
  | x :: r => match srun cli125 0 conductb p [x] with
              | Some p1 => match srun cli125 0 conductb p1 (settle cli125 0 60 p1) with Some q => feed_cli q r | None => None end
              | None => None
              end
  end.
Lemma feed_cli_reach l : forall p p', sreach cli125 0 conduct p -> feed_cli p l = Some p' -> sreach cli125 0 conduct p'.
Proof.
  induction l as [|x r IH]; intros p p' H E; cbn [feed_cli] in E; [congruence|]. destruct (srun _ _ _ p [x]) as [p1|] eqn:E1; [|discriminate].
  destruct (srun cli125 0 conductb p1 _) as [q|] eqn:E2; [|discriminate].
  refine (IH q p' _ E). refine (srun_reach _ _ _ _ _ conductb_ok _ _ _ E2). exact (srun_reach _ _ _ _ _ conductb_ok _ _ H E1).
Qed.
Lemma begin_cli : sreach cli125 0 conduct begin.
Proof. apply sreach_init; try reflexivity; repeat constructor. Qed.

(** The socket takes one byte, none, one, and the rest; they reach the client in pieces of one, two and one byte. *)
Definition in_pieces : list tev := [TDone 0 1; TDone 0 0; TDone 0 1; TDone 0 2].
Example C74_nonvacuous : exists p q, osreach srv sending stops_early p /\ snd (wk p) = [] /\ no_error (tr (out p)) /\ close_asked (tr (out p)) = false /\ inflight (T (out p)) = 0%nat /\
  wire p = [0x81; 2; 72; 105] /\ sent_messages (tr (out p)) = [(false, [72; 105])] /\
  sreach cli125 0 conduct q /\ carried p q [] /\ failed q = [] /\ at_rest q /\ read_open (tr (sock q)) /\ inflight (T (sock q)) = 0%nat /\ hooked (sock q) = false /\
  received (delivered (tr (sock q))) = [(false, [72; 105])].
Proof.
  destruct (go_on hi_run in_pieces) as [r'|] eqn:G; [|vm_compute in G; discriminate G].
  assert (PH : phase (r_st r') = WReported 0) by (vm_compute in G; injection G as <-; reflexivity).
  assert (H : osreach srv sending stops_early (WSys after [] (accepted (r_st r')))).
  { refine (hi_written stops_early (TDone 0 1) _ r' _ _ G PH).
    - intros (n & es & E & _). discriminate.
    - intros y s' (n & es & E & L). cbn [r_mem r_h r_l r_es] in *. injection E as <- <-. vm_compute in L. lia. }
  assert (A : accepted (r_st r') = [0x81; 2; 72; 105]) by (vm_compute in G; injection G as <-; reflexivity). rewrite A in H. clear G PH A.
  destruct (feed_cli begin (SWs readcall :: map SDeliver [[0x81]; [2; 72]; [105]])) as [q|] eqn:EB; [|vm_compute in EB; discriminate EB].
  pose proof (feed_cli_reach _ _ _ begin_cli EB) as HB. vm_compute in EB. injection EB as <-.
  eexists _, _. split; [exact H|]. clear H. split; [vm_compute; reflexivity|]. split; [intros e r X; vm_compute in X; decompose [or] X; try discriminate; try contradiction|].
  split; [vm_compute; reflexivity|]. split; [vm_compute; reflexivity|]. split; [reflexivity|]. split; [vm_compute; reflexivity|]. split; [exact HB|].
  split; [reflexivity|]. split; [reflexivity|]. split; [split; reflexivity|]. repeat split; reflexivity.
Qed.

(** Without the rule about the first partial write, the peer may get a message twice although no error is raised anywhere (compare C15): the socket takes 3 of the 4
    bytes, then everything it is offered. *)
Theorem C74_message_arrives_twice_refuted : exists p q, osreach srv sending (fun _ => True) p /\ snd (wk p) = [] /\ no_error (tr (out p)) /\ inflight (T (out p)) = 0%nat /\
  sent_messages (tr (out p)) = [(false, [72; 105])] /\
  sreach cli125 0 conduct q /\ carried p q [] /\ failed q = [] /\ no_error (tr (sock q)) /\ received (delivered (tr (sock q))) = [(false, [72; 105]); (false, [72; 105])].
Proof.
  destruct (go_on hi_run [TDone 0 3; TDone 0 5]) as [r'|] eqn:G; [|vm_compute in G; discriminate G].
  assert (PH : phase (r_st r') = WReported 0) by (vm_compute in G; injection G as <-; reflexivity).
  pose proof (hi_written (fun _ => True) (TDone 0 3) _ r' I (fun _ _ => I) G PH) as H.
  assert (A : accepted (r_st r') = [0x81; 2; 72; 105; 0x81; 2; 72; 105]) by (vm_compute in G; injection G as <-; reflexivity). rewrite A in H. clear G PH A.
  destruct (feed_cli begin (SWs readcall :: map SDeliver [[0x81; 2; 72; 105; 0x81; 2; 72; 105]])) as [q|] eqn:EB; [|vm_compute in EB; discriminate EB].
  pose proof (feed_cli_reach _ _ _ begin_cli EB) as HB. vm_compute in EB. injection EB as <-.
  eexists _, _. split; [exact H|]. clear H. split; [vm_compute; reflexivity|]. split; [intros e r X; vm_compute in X; decompose [or] X; try discriminate; try contradiction|].
  split; [vm_compute; reflexivity|]. split; [vm_compute; reflexivity|]. split; [exact HB|].
  split; [reflexivity|]. split; [reflexivity|]. split; [not_there|reflexivity].
Qed.
Print Assumptions C74_message_arrives_twice_refuted.
