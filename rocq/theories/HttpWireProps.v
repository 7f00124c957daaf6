(** C75: HTTP responses on the wire. *)
From Verif Require Import Base Text HttpModel HttpSpec HttpProofs HttpDec HttpSafe HttpSafe2 HttpKeep HttpPipe HttpProps HttpProps2 HttpWire.
From Verif Require WriteBufferModel WriteBufferSpec BufWriteModel BufWriteSpec BufWriteProps WsOutStream WsOutStreamProps.
Import BufWriteModel(wst, wh, accepted, wphase, WFirst, WLater, WReported, WRejected, tev, TSync, TDone, w_run, w_enabled, w_step).
Import WsOutStream(wrun, WRun, good_run, run_data, r_fuel, r_mem, r_h, r_B, r_W, r_T, r_l, r_es, r_st).
Import WsOutStreamProps(stops_early, good_prefix, step_extends, skipn_more).

Definition resp (t : list ev) : list (list N) := responses (rev t).
Lemma resp_one c a b t : resp (EResponse c a b :: t) = resp t ++ [b].
Proof. unfold resp, responses. cbn [rev]. rewrite flat_map_app. reflexivity. Qed.
Lemma resp_cons e t : response_of e = [] -> resp (e :: t) = resp t.
Proof. unfold resp, responses. cbn [rev]. rewrite flat_map_app. cbn. intros ->. rewrite app_nil_r. reflexivity. Qed.

Arguments resp : simpl never.
Arguments concat : simpl never.
Global Opaque resp.
Lemma effect S s k v s' k' : step S (s, k) v = Ret (s', k') -> (forall ok, v <> VWritten ok) ->
  (resp (tr s') = resp (tr s) /\ (writing s' = writing s \/ (writing s' = false /\ life s' <> Live)) /\ (life s <> Live -> life s' <> Live)) \/
  (exists ch c a, v = VStep ch /\ life s = Live /\ tr s' = EResponse c a (concat (chain s')) :: tr s /\ life s' = Live /\
     writing s' = (match c_wr ch with WAsync => true | _ => writing s end) /\ c_wr ch <> WFail).
Proof.
  intros H NW. destruct v as [ch|r|ok| | |u|]; try (destruct (NW ok eq_refl)); cbn [step] in H.
  1: destruct k as [|o k]; [discriminate|]; destruct o.
  all: unf; crunch H; open_ret.
  all: try (left; repeat rewrite resp_cons by reflexivity; split; [reflexivity|]; split; [solve [left; reflexivity|right; split; [reflexivity|discriminate]]|solve [intros X; exact X|intros _; discriminate|congruence]]; fail).
  all: try (right; eexists _, _, _; split; [reflexivity|]; split; [first [assumption|reflexivity]|]; split; [reflexivity|]; split; [first [assumption|reflexivity]|]; split; [try (match goal with E : c_wr ?c = _ |- _ => rewrite E end); reflexivity|congruence]; fail).
  all: exfalso; congruence.
Qed.

(** The socket neither refuses nor fails before the server is told: no write is reported as failed. *)
Definition writes_succeed (c : config) (v : act) : Prop :=
  match v with VWritten ok => ok = true | VStep ch => c_wr ch <> WSync false | _ => True end.

Lemma hreach_reach S P Q p : hreach S P Q p -> reach S P (hk p).
Proof. induction 1; cbn [hk] in *; [apply reach_init|eapply reach_step; eassumption|eapply reach_step; eassumption|exact IHhreach|eapply reach_step; eassumption]. Qed.
Lemma hreach_mono S (P P' : config -> act -> Prop) Q p : (forall c x, P c x -> P' c x) -> hreach S P Q p -> hreach S P' Q p.
Proof.
  intros HP. induction 1; [apply h_init|eapply h_quiet; eauto|eapply h_send; eauto|eapply h_wire; eauto|eapply h_done; eauto].
Qed.
Lemma run_chain_data r : run_data r = concat (run_chain r).
Proof. unfold run_data, run_chain, BufWriteSpec.data_of. apply flat_map_concat_map. Qed.

Definition sent (p : hsys) : list N := concat (responses (history (hk p))).
Definition conn (p : hsys) : client := fst (hk p).
Definition hstate (p : hsys) : Prop :=
  (hpend p = None /\ writing (conn p) = false /\ hwire p = sent p) \/
  (exists r base, hpend p = Some r /\ (writing (conn p) = true \/ life (conn p) <> Live) /\ sent p = base ++ run_data r /\ hwire p = base ++ accepted (r_st r) /\
     good_run r /\ stops_early r).
Lemma sent_resp s k : concat (responses (history (s, k))) = concat (resp (tr s)).
Proof. reflexivity. Qed.
Lemma one_more (t : list (list N)) b : concat (t ++ [b]) = concat t ++ b.
Proof. rewrite concat_app. unfold concat. rewrite app_nil_r. reflexivity. Qed.
Lemma hstate_holds S (p : hsys) : hreach S writes_succeed stops_early p -> hstate p.
Proof.
  induction 1 as [|p v c' HP IH NW EN PX ST SD|p ch c' b r HP IH EN PX ST SD GR QR RC WC|p r x s' HP IH PE EN ST r' QR|p r e c' HP IH PE PH EN PX ST].
  - left. repeat split.
  - destruct p as [[s k] pe w], c' as [s' k']. unfold hstate, sent, conn in *. cbn [hk hpend hwire fst] in *. rewrite SD.
    destruct (effect S s k v s' k' ST NW) as [(_ & W & L)|(ch & c & a & _ & _ & T & _)].
    2:{ exfalso. change (resp (tr s') = resp (tr s)) in SD. rewrite T, resp_one in SD. apply (f_equal (@length _)) in SD. rewrite app_length in SD. cbn in SD. lia. }
    destruct IH as [(-> & WF & E)|(r & base & -> & O & B & W' & G)].
    + left. split; [reflexivity|]. split; [|exact E]. destruct W as [W|[W _]]; congruence.
    + right. exists r, base. split; [reflexivity|]. split; [|split; [exact B|split; [exact W'|exact G]]]. destruct O as [O|O]; [|right; auto]. destruct W as [W|[_ W]]; [left; congruence|right; exact W].
  - pose proof (hreach_reach _ _ _ _ HP) as R0. destruct p as [[s k] pe w], c' as [s' k']. unfold hstate, sent, conn in *. cbn [hk hpend hwire fst] in *.
    assert (R1 : reach S writes_succeed (s', k')) by (eapply reach_step; eassumption).
    destruct (effect S s k _ s' k' ST ltac:(discriminate)) as [(X & _)|(ch' & c & a & CH & LV & T & LV' & W & NF)].
    { exfalso. change (resp (tr s') = resp (tr s) ++ [b]) in SD. rewrite X in SD. apply (f_equal (@length _)) in SD. rewrite app_length in SD. cbn in SD. lia. }
    injection CH as <-.
    destruct (One_reach _ _ _ R0) as (q & P0 & C0 & _). destruct (One_reach _ _ _ R1) as (q' & P1 & _). rewrite T in P1. cbn [prog] in P1. rewrite P0 in P1. destruct q as [|q]; [|discriminate].
    assert (WF : writing s = false) by (destruct (writing s); [cbn in C0; exfalso; lia|reflexivity]).
    destruct IH as [(-> & _ & E)|(r0 & base & _ & [O|O] & _)]; [|congruence|congruence].
    assert (BD : b = run_data r).
    { rewrite run_chain_data, RC. change (resp (tr s') = resp (tr s) ++ [b]) in SD. rewrite T, resp_one in SD. apply app_inv_head in SD. congruence. }
    rewrite SD, one_more, BD, E. destruct (good_prefix r GR QR) as [_ FU]. unfold within_call in WC. rewrite W. destruct (c_wr ch) as [|ok|] eqn:CW.
    + right. exists r, (concat (responses (history (s, k)))). split; [reflexivity|]. split; [left; reflexivity|]. auto.
    + left. split; [reflexivity|]. split; [exact WF|]. f_equal. destruct WC as (e & PH & OK). apply FU. cbn in PX. destruct ok; [|congruence]. symmetry in OK. apply Z.eqb_eq in OK. congruence.
    + congruence.
  - destruct p as [[s k] pe w]. unfold hstate, sent, conn in *. cbn [hk hpend hwire fst] in *. destruct IH as [(-> & _)|(r0 & base & -> & O & B & W & GR & QR0)]; [discriminate|]. injection PE as <-.
    right. exists r', base. destruct (step_extends _ _ _ _ _ _ _ _ ST) as [more M]. split; [reflexivity|]. split; [exact O|]. split; [exact B|]. split.
    { unfold r'. cbn [r_st]. rewrite W, M, skipn_more, app_assoc. reflexivity. }
    split; [|exact QR]. destruct GR as [G1 G2]. split; [exact G1|]. unfold r'. cbn. eapply BufWriteModel.w_run_step; eassumption.
  - destruct p as [[s k] pe w], c' as [s' k']. unfold hstate, sent, conn in *. cbn [hk hpend hwire fst] in *.
    destruct IH as [(-> & _)|(r0 & base & -> & O & B & W & GR & QR0)]; [discriminate|]. injection PE as <-. cbn [writes_succeed] in PX. cbn [step] in ST. injection ST as <- _.
    left. split; [reflexivity|]. split; [reflexivity|]. apply Z.eqb_eq in PX. subst e. rewrite W. change (base ++ accepted (r_st r0) = concat (responses (history (s, k)))). rewrite B. f_equal.
    apply (good_prefix r0 GR QR0). exact PH.
Qed.

(** The server never starts a write while another one is in progress. *)
Theorem C75_one_write_at_a_time : forall S p ch c' b, hreach S writes_succeed stops_early p -> enabled (hk p) (VStep ch) -> step S (hk p) (VStep ch) = Ret c' ->
  responses (history c') = responses (history (hk p)) ++ [b] -> hpend p = None.
Proof.
  intros S p ch c' b H EN ST SD. pose proof (hreach_reach _ _ _ _ H) as R0. destruct (hstate_holds S p H) as [(X & _)|(r0 & base & _ & O & _)]; [exact X|exfalso].
  destruct p as [[s k] pe w], c' as [s' k']. unfold conn in *. cbn [hk hpend fst] in *.
  destruct (effect S s k _ s' k' ST ltac:(discriminate)) as [(X & _)|(ch' & c & a & _ & LV & T & _)].
  { change (resp (tr s') = resp (tr s) ++ [b]) in SD. rewrite X in SD. apply (f_equal (@length _)) in SD. rewrite app_length in SD. cbn in SD. lia. }
  destruct (One_reach _ _ _ R0) as (q & P0 & C0 & _). pose proof (One_step S (s, k) _ (s', k') (One_reach _ _ _ R0) EN ST) as (q' & P1 & _).
  rewrite T in P1. cbn [prog] in P1. rewrite P0 in P1. destruct q as [|q]; [|discriminate]. destruct O as [O|O]; [|exact (O LV)]. rewrite O in C0. cbn in C0. lia.
Qed.
Print Assumptions C75_one_write_at_a_time.

(** What the client of the server gets is a sequence of well-formed responses, cut off somewhere at most: the bytes the socket has taken are the beginning
    of the responses, one after the other, and all of them when no write is in progress. *)
Definition serving (c : config) (v : act) : Prop := careful c v /\ writes_succeed c v.
Theorem C75_responses_on_the_wire : forall S p, hreach S serving stops_early p ->
  BufWriteSpec.is_prefix (hwire p) (sent p) /\ (hpend p = None -> hwire p = sent p) /\
  Forall (fun b => exists c a headers body, response S c a headers body b) (responses (history (hk p))).
Proof.
  intros S p H. assert (H1 : hreach S writes_succeed stops_early p) by (eapply hreach_mono; [|exact H]; intros c x [_ X]; exact X).
  assert (R : reach S careful (hk p)).
  { pose proof (hreach_reach _ _ _ _ H) as R. clear - R. induction R as [|c v c' R IH EN [C _] E]; [apply reach_init|eapply reach_step; eassumption]. }
  split; [|split].
  - destruct (hstate_holds S p H1) as [(_ & _ & ->)|(r & base & _ & _ & B & W & G & Q)]; [exists []; rewrite app_nil_r; reflexivity|].
    destruct (good_prefix r G Q) as [[rest E] _]. exists rest. rewrite B, W, E, app_assoc. reflexivity.
  - intros X. destruct (hstate_holds S p H1) as [(_ & _ & E)|(r & base & E & _)]; [exact E|congruence].
  - apply Forall_forall. intros b I. unfold responses in I. apply in_flat_map in I. destruct I as (e & I & J). destruct e; try contradiction. destruct J as [<-|[]].
    destruct (C34_every_response_well_formed S (hk p) c a b0 R I) as ((headers & body & X) & _). eauto.
Qed.
Print Assumptions C75_responses_on_the_wire.

(** No response hangs: at any time, a socket that takes what it is offered gets everything the server has answered, and the write is reported - unless it failed before. *)
Definition failed_write (r : wrun) : Prop := exists e, (BufWriteModel.phase (r_st r) = WReported e /\ e <> 0%Z) \/ BufWriteModel.phase (r_st r) = WRejected e.
Theorem C75_wire_catches_up : forall S p, hreach S writes_succeed stops_early p -> (forall r, hpend p = Some r -> ~ failed_write r) ->
  exists p', hreach S writes_succeed stops_early p' /\ hk p' = hk p /\ hwire p' = sent p /\
    (hpend p' = None \/ exists r, hpend p' = Some r /\ BufWriteModel.phase (r_st r) = WReported 0).
Proof.
  intros S p H NF. destruct (hstate_holds S p H) as [(PE & _ & W)|(r & base & PE & _ & B & W & G & Q)]; [exists p; auto|].
  specialize (NF r PE).
  assert (GO : (BufWriteModel.phase (r_st r) = WFirst \/ BufWriteModel.phase (r_st r) = WLater) \/ BufWriteModel.phase (r_st r) = WReported 0).
  { unfold failed_write in NF. destruct (BufWriteModel.phase (r_st r)) as [| |e|e]; auto; [|destruct NF; exists e; auto]. destruct (Z.eq_dec e 0) as [->|NE]; [auto|destruct NF; exists e; auto]. }
  destruct (good_prefix r G Q) as [_ FU]. destruct G as [G1 G2]. destruct GO as [GO|GO].
  - destruct (BufWriteProps.C15_write_can_finish _ _ _ _ _ _ _ _ _ G1 G2 Q GO) as (n & s' & EN & ST & Q' & PH & AC).
    pose proof (h_wire S writes_succeed stops_early p r _ s' H PE EN ST Q') as H'. cbv zeta in H'. eexists. split; [exact H'|]. cbn [hk hwire hpend]. split; [reflexivity|]. split; [|right; eexists; split; [reflexivity|exact PH]].
    destruct (step_extends _ _ _ _ _ _ _ _ ST) as [more M]. rewrite W, M, skipn_more, B. rewrite <- app_assoc. f_equal. rewrite <- M. exact AC.
  - exists p. split; [exact H|]. split; [reflexivity|]. rewrite W, B, (FU GO). split; [reflexivity|right; eauto].
Qed.
Print Assumptions C75_wire_catches_up.

(** ** Runs *)
Lemma final_grows S l : forall c c', ok_run S (fun _ _ => True) c l -> final S c l = Ret c' -> Forall (fun v => match v with VWritten _ => False | _ => True end) l ->
  (length (responses (history c)) <= length (responses (history c')))%nat.
Proof.
  unfold ok_run, final. induction l as [|x l IH]; intros c c' O F V; cbn [final_ ok_run_] in *; [injection F as <-; lia|].
  destruct O as (E & U & O). destruct (step S c x) as [c1|] eqn:X; [|contradiction]. inversion V as [|? ? V1 V2]; subst.
  specialize (IH c1 c' O F V2). destruct c as [s k], c1 as [s1 k1]. destruct (effect S s k x s1 k1 X) as [(Y & _)|(ch & c0 & a & _ & _ & T & _)]; [intros ok ->; exact V1| |].
  - change (responses (history (s1, k1))) with (resp (tr s1)) in IH. rewrite Y in IH. exact IH.
  - change (responses (history (s1, k1))) with (resp (tr s1)) in IH. rewrite T, resp_one, app_length in IH. change (responses (history (s, k))) with (resp (tr s)). cbn in IH. lia.
Qed.
Lemma ok_weaken S (P P' : config -> act -> Prop) l : (forall c v, P c v -> P' c v) -> forall c, ok_run S P c l -> ok_run S P' c l.
Proof.
  intros HP. unfold ok_run. induction l as [|x l IH]; intros c O; cbn [ok_run_] in *; [exact O|]. destruct O as (E & U & O). split; [exact E|]. split; [apply HP, U|].
  destruct (step S c x); [apply IH, O|exact O].
Qed.
Lemma quiet_run S P Q l : forall p c', hreach S P Q p -> ok_run S P (hk p) l -> final S (hk p) l = Ret c' -> Forall (fun v => match v with VWritten _ => False | _ => True end) l ->
  length (responses (history c')) = length (responses (history (hk p))) -> hreach S P Q (HSys c' (hpend p) (hwire p)).
Proof.
  induction l as [|x l IH]; intros p c' Hp O F V L; [cbn in F; injection F as <-; destruct p; exact Hp|].
  unfold ok_run, final in O, F. cbn [final_ ok_run_] in O, F. destruct O as (E & U & O). destruct (step S (hk p) x) as [c1|] eqn:X; [|contradiction]. inversion V as [|? ? V1 V2]; subst.
  assert (NW : forall ok, x <> VWritten ok) by (intros ok ->; exact V1).
  pose proof (final_grows S l c1 c' (ok_weaken S P _ l (fun _ _ _ => Logic.I) c1 O) F V2) as G.
  refine (IH (HSys c1 (hpend p) (hwire p)) c' _ O F V2 _).
  - apply (h_quiet S P Q p x c1 Hp NW E U X). destruct (hk p) as [s k], c1 as [s1 k1]. destruct (effect S s k x s1 k1 X NW) as [(Y & _)|(ch & c0 & a & _ & _ & T & _)]; [exact Y|].
    exfalso. rewrite L in G. change (responses (history (s1, k1))) with (resp (tr s1)) in G. rewrite T, resp_one, app_length in G. change (responses (history (s, k))) with (resp (tr s)) in G. cbn in G. lia.
  - cbn [hk]. destruct (hk p) as [s k], c1 as [s1 k1]. destruct (effect S s k x s1 k1 X NW) as [(Y & _)|(ch & c0 & a & _ & _ & T & _)].
    + change (responses (history (s1, k1))) with (resp (tr s1)). rewrite Y. exact L.
    + exfalso. rewrite L in G. change (responses (history (s1, k1))) with (resp (tr s1)) in G. rewrite T, resp_one, app_length in G. change (responses (history (s, k))) with (resp (tr s)) in G. cbn in G. lia.
Qed.
(** ** A response on its way *)
Local Open Scope N_scope.
Fixpoint go_on (r : wrun) (l : list tev) : option wrun :=
  match l with
  | [] => Some r
  | x :: l' => if BufWriteProps.w_enabledb (r_mem r) (r_B r) (r_W r) (r_st r) x then
      match w_step (r_fuel r) (r_mem r) (r_B r) (r_W r) (r_T r) (r_st r) x with
      | Ret s' => go_on (WRun (r_fuel r) (r_mem r) (r_h r) (r_B r) (r_W r) (r_T r) (r_l r) (r_es r ++ [x]) s') l'
      | UB => None
      end else None
  end.
Lemma go_on_reach S P (Q : wrun -> Prop) x0 l : forall p r r', (forall y s', Q (WRun (r_fuel r) (r_mem r) (r_h r) (r_B r) (r_W r) (r_T r) (r_l r) (x0 :: y) s')) ->
  hreach S P Q p -> hpend p = Some r -> hd_error (r_es r ++ l) = Some x0 -> go_on r l = Some r' ->
  exists w, hreach S P Q (HSys (hk p) (Some r') w) /\ (forall base, hwire p = base ++ accepted (r_st r) -> w = base ++ accepted (r_st r')).
Proof.
  induction l as [|x l IH]; intros p r r' HQ Hp PE HD H; cbn [go_on] in H.
  - injection H as <-. exists (hwire p). rewrite <- PE. destruct p; split; [exact Hp|auto].
  - destruct (BufWriteProps.w_enabledb _ _ _ _ _) eqn:E; [|discriminate]. apply WsOutStreamProps.w_enabledb_ok in E. destruct (w_step _ _ _ _ _ _ x) as [s'|] eqn:ST; [|discriminate].
    assert (EX : exists y, r_es r ++ [x] = x0 :: y) by (destruct (r_es r); cbn in HD; injection HD as <-; eexists; reflexivity). destruct EX as [y EY].
    set (r1 := WRun (r_fuel r) (r_mem r) (r_h r) (r_B r) (r_W r) (r_T r) (r_l r) (r_es r ++ [x]) s') in *.
    assert (Q1 : Q r1) by (unfold r1; rewrite EY; apply HQ).
    pose proof (h_wire S P Q p r x s' Hp PE E ST Q1) as H1. cbv zeta in H1. fold r1 in H1.
    destruct (IH _ r1 r' HQ H1 eq_refl) as (w & HW & EW); [unfold r1; cbn [r_es]; rewrite <- app_assoc; exact HD|exact H|]. cbn [hk hpend hwire] in *.
    exists w. split; [exact HW|]. intros base B. apply EW. destruct (step_extends _ _ _ _ _ _ _ _ ST) as [more M]. rewrite B, M, skipn_more, <- app_assoc. unfold r1. cbn [r_st]. rewrite M. reflexivity.
Qed.

(** The response of [HttpProps2.served]: six elements, at 10, 11, ..., 15. *)
Definition conf_of (o : outcome config) : config := match o with Ret c => c | UB => init end.
Definition asking : list act := go 1 ++ request ++ headers true false ++ [par PMessage; usr (UWrite S200 text_body true)].
Definition asked : config := conf_of (final srv init asking).
Definition answered : config := conf_of (step srv asked (VStep ch0)).
Definition resting : config := conf_of (final srv answered (go 7)).
Definition reported : config := conf_of (step srv resting (VWritten true)).
Definition elems : list (list N) := chain (fst answered).
Definition el_heap : WriteBufferModel.heap := fun p =>
  if p =? 1 then Some (WriteBufferModel.Cell 10 15 6 113) else
  if p =? 10 then Some (WriteBufferModel.Cell 11 1 1000 39) else
  if p =? 11 then Some (WriteBufferModel.Cell 12 10 2000 19) else
  if p =? 12 then Some (WriteBufferModel.Cell 13 11 3000 24) else
  if p =? 13 then Some (WriteBufferModel.Cell 14 12 4000 24) else
  if p =? 14 then Some (WriteBufferModel.Cell 15 13 5000 2) else
  if p =? 15 then Some (WriteBufferModel.Cell 1 14 6000 5) else
  if p =? 2 then Some (WriteBufferModel.Cell 0 0 0 0) else
  if p =? 3 then Some (WriteBufferModel.Cell 0 0 0 0) else None.
Definition el_mem (a : N) : N := nth (N.to_nat (a mod 1000)) (nth (N.to_nat (a / 1000 - 1)) elems []) 0.
Definition el_list : list N := [10; 11; 12; 13; 14; 15].
Lemma el_pre : BufWriteSpec.write_pre 20 el_heap 1 2 3 el_list.
Proof.
  unfold BufWriteSpec.write_pre, WriteBufferSpec.chain_at, WriteBufferSpec.circular, el_list.
  assert (Hl : forall a b, (exists c, el_heap a = Some c /\ WriteBufferModel.nx c = b) -> (exists c, el_heap b = Some c /\ WriteBufferModel.pv c = a) -> WriteBufferSpec.link el_heap a b) by (intros; split; auto).
  repeat match goal with |- _ /\ _ => split end; try reflexivity; try discriminate; try (cbn; lia); try (cbn; intuition discriminate).
  - cbn [app WriteBufferSpec.path]. repeat split; eexists; split; reflexivity.
  - repeat constructor; cbn; intuition discriminate.
  - repeat constructor; eexists _, _; (split; [reflexivity|reflexivity]).
Qed.
Definition el_run : wrun := WRun 20 el_mem el_heap 1 2 3 el_list [] (BufWriteModel.w_start el_heap).

Lemma el_written (Q : wrun -> Prop) x0 l r' : Q el_run -> (forall y s', Q (WRun 20 el_mem el_heap 1 2 3 el_list (x0 :: y) s')) ->
  go_on el_run (x0 :: l) = Some r' -> BufWriteModel.phase (r_st r') = WReported 0 -> hreach srv serving Q (HSys reported None (accepted (r_st r'))).
Proof.
  intros Q0 Q1 G PH.
  assert (F1 : final srv init asking = Ret asked) by (vm_compute; reflexivity).
  assert (I1 : hreach srv serving Q (HSys asked None [])).
  { refine (quiet_run srv serving Q asking (HSys init None []) asked (h_init _ _ _) _ F1 _ _); [okr|repeat constructor|vm_compute; reflexivity]. }
  assert (S1 : step srv asked (VStep ch0) = Ret answered) by (vm_compute; reflexivity).
  assert (I2 : hreach srv serving Q (HSys answered (Some el_run) [])).
  { refine (h_send srv serving Q _ ch0 answered (concat elems) el_run I1 _ _ S1 _ _ Q0 _ _).
    - okr.
    - okr.
    - vm_compute. reflexivity.
    - split; [exact el_pre|constructor].
    - vm_compute. reflexivity.
    - left. reflexivity. }
  assert (F2 : final srv answered (go 7) = Ret resting) by (vm_compute; reflexivity).
  assert (I3 : hreach srv serving Q (HSys resting (Some el_run) [])).
  { refine (quiet_run srv serving Q (go 7) (HSys answered (Some el_run) []) resting I2 _ F2 _ _); [okr|repeat constructor|vm_compute; reflexivity]. }
  destruct (go_on_reach srv serving Q x0 (x0 :: l) _ el_run r' Q1 I3 eq_refl eq_refl G) as (w & I4 & EW). rewrite (EW []) in I4 by reflexivity. clear EW w. cbn [app hk] in I4.
  assert (S2 : step srv resting (VWritten true) = Ret reported) by (vm_compute; reflexivity).
  refine (h_done srv serving Q _ r' 0%Z reported I4 eq_refl PH _ _ S2); okr.
Qed.

(** The socket takes 50 bytes, none, 60, and the last three. *)
Definition in_pieces : list tev := [TDone 0 50; TDone 0 0; TDone 0 60; TDone 0 3].
Definition the_response : list N :=
  text "HTTP/1.1 200 OK" ++ CRLF ++ text "Server: cio http/1.0" ++ CRLF ++ text "Content-Length: 5" ++ CRLF ++
  text "Keep-Alive: timeout=10" ++ CRLF ++ text "Connection: keep-alive" ++ CRLF ++ CRLF ++ text "hello".
Example C75_nonvacuous : exists p, hreach srv serving stops_early p /\ responses (history (hk p)) = [the_response] /\ hpend p = None /\ hwire p = the_response /\ life (conn p) = Live.
Proof.
  destruct (go_on el_run in_pieces) as [r'|] eqn:G; [|vm_compute in G; discriminate G].
  assert (PH : BufWriteModel.phase (r_st r') = WReported 0) by (vm_compute in G; injection G as <-; reflexivity).
  assert (A : accepted (r_st r') = the_response) by (vm_compute in G; injection G as <-; vm_compute; reflexivity).
  eexists. split; [refine (el_written stops_early (TDone 0 50) _ r' _ _ G PH)|].
  - intros (n & es & E & _). discriminate.
  - intros y s' (n & es & E & L). cbn [r_mem r_h r_l r_es] in *. injection E as <- <-. vm_compute in L. lia.
  - split; [vm_compute; reflexivity|]. split; [reflexivity|]. split; [exact A|vm_compute; reflexivity].
Qed.

(** Without the rule about the first partial write (compare C15), the client may get the response twice, although the server answered once and no error is raised
    anywhere: the socket takes 110 of the 113 bytes, then everything it is offered. *)
Theorem C75_response_twice_refuted : exists p, hreach srv serving (fun _ => True) p /\ responses (history (hk p)) = [the_response] /\ hpend p = None /\ life (conn p) = Live /\
  hwire p = the_response ++ the_response.
Proof.
  destruct (go_on el_run [TDone 0 110; TDone 0 116]) as [r'|] eqn:G; [|vm_compute in G; discriminate G].
  assert (PH : BufWriteModel.phase (r_st r') = WReported 0) by (vm_compute in G; injection G as <-; reflexivity).
  assert (A : accepted (r_st r') = the_response ++ the_response) by (vm_compute in G; injection G as <-; vm_compute; reflexivity).
  eexists. split; [exact (el_written (fun _ => True) (TDone 0 110) _ r' Logic.I (fun _ _ => Logic.I) G PH)|].
  split; [vm_compute; reflexivity|]. split; [reflexivity|]. split; [vm_compute; reflexivity|exact A].
Qed.
Print Assumptions C75_response_twice_refuted.
