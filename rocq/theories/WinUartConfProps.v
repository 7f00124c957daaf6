(** C67: the settings of a serial port on Windows. *)
From Verif Require Import Base WinUartConf WinUartConfSpec.
From Verif Require UartModel.
Import UartModel (PEven, POdd, PNone, PMark, PSpace, OneStop, TwoStop, D5, D6, D7, D8, FNone, FRtsCts, FXonXoff).
Local Open Scope N_scope.

Definition is_flow (c : call) : Prop := match c with SetFlow _ | GetFlow => True | _ => False end.
Lemma same_refl c d : same_but c d d.
Proof. unfold same_but. destruct c; repeat split. Qed.
Lemma get_ok (y : sys) (d : dcb) (r : Z + dcb) : get_state y d = r -> match r with inl e => e = (- e_get y)%Z /\ e <> SUCCESS | inr c => c = d /\ e_get y = 0%Z end.
Proof. unfold get_state. intros <-. destruct (Z.eqb_spec (e_get y) 0) as [E|E]; [auto|]. unfold SUCCESS. split; [reflexivity|lia]. Qed.
Lemma set_ok (y : sys) (s d : dcb) : set_comm_settings y s d = (SUCCESS, s) \/ (set_comm_settings y s d = ((- e_set y)%Z, d) /\ (- e_set y)%Z <> SUCCESS).
Proof. unfold set_comm_settings. destruct (Z.eqb_spec (e_set y) 0) as [E|E]; [auto|]. right. unfold SUCCESS. split; [reflexivity|lia]. Qed.

Definition is_set (c : call) : bool := match c with SetParity _ | SetStopBits _ | SetDataBits _ | SetFlow _ | SetBaud _ => true | _ => false end.
Ltac dist := unfold SUCCESS, INVALID_ARGUMENT, PROTOCOL_NOT_SUPPORTED, OPERATION_NOT_SUPPORTED in *; first [discriminate | congruence].
Ltac cases := repeat match goal with |- context [if ?b then _ else _] => destruct b eqn:? end; cbn [answered]; repeat match goal with H : (_ =? _) = true |- _ => apply N.eqb_eq in H end.

(** Every call of the four settings that returns CIO_SUCCESS has its effect on the line, or reports what the line is; every
    other setting stays; a get or a call that fails changes nothing. *)
Theorem C67_call : forall y c d res a d', ~ is_flow c -> do_call y c d = (res, a, d') ->
  same_but c d d' /\ (res = SUCCESS -> effect c a d') /\ (res <> SUCCESS -> d' = d) /\ (is_set c = false -> d' = d).
Proof.
  intros y c d res a d' NF E.
  assert (G : forall s (b : answer), do_call y c d = (let '(r, x) := set_comm_settings y s d in (r, b, x)) -> same_but c d s -> effect c b s -> is_set c = true ->
     same_but c d d' /\ (res = SUCCESS -> effect c a d') /\ (res <> SUCCESS -> d' = d) /\ (is_set c = false -> d' = d)).
  { intros s b E1 SB EF IS. rewrite E1 in E. destruct (set_ok y s d) as [H|[H NE]]; rewrite H in E; injection E as <- <- <-; (split; [auto using same_refl|]); repeat split; congruence. }
  destruct c as [p|n|n|f|b| | | | |]; try (destruct (NF I)); cbn [do_call] in *; unfold set_parity, set_num_stop_bits, set_num_data_bits, set_baud_rate, get_parity, get_num_stop_bits, get_num_data_bits, get_baud_rate in *.
  all: destruct (get_state y d) as [e|x] eqn:GS; apply get_ok in GS; [destruct GS as [-> NE]; cbn [answered] in E; injection E as <- <- <-; split; [apply same_refl|]; repeat split; congruence|destruct GS as [-> GE]].
  1,2,3: eapply G; [reflexivity|repeat split| |reflexivity]; cbn; unfold line_parity, line_stop, line_bits; cbn; match goal with |- context [match ?z with _ => _ end] => destruct z end; reflexivity.
  - destruct (cbr b) as [r|] eqn:CB.
    + eapply G; [reflexivity|repeat split| |reflexivity]. cbn. unfold line_rate. cbn. destruct b; try discriminate CB; injection CB as <-; reflexivity.
    + injection E as <- <- <-. split; [apply same_refl|]. split; [intros H; dist|]. split; [auto|discriminate].
  - revert E. cases; intros E; injection E as <- <- <-; (split; [apply same_refl|]); (split; [intros H; try dist; cbn; unfold line_parity; assumption|auto]).
  - revert E. cases; intros E; injection E as <- <- <-; (split; [apply same_refl|]); (split; [intros H; try dist; cbn; unfold line_stop; assumption|auto]).
  - revert E. cases; intros E; injection E as <- <- <-; (split; [apply same_refl|]); (split; [intros H; try dist; cbn; unfold line_bits; assumption|auto]).
  - revert E. cases; intros E; injection E as <- <- <-; (split; [apply same_refl|]); (split; [intros H; try dist; cbn; unfold line_rate; assumption|auto]).
Qed.
Print Assumptions C67_call.

(** When Windows accepts the settings, a set succeeds; a rate exactly if it is one of the eleven offered. *)
Theorem C67_set_succeeds : forall y c d, ~ is_flow c -> is_set c = true -> e_get y = 0%Z -> e_set y = 0%Z ->
  (match c with SetBaud b => offered b | _ => True end -> fst (fst (do_call y c d)) = SUCCESS) /\
  (match c with SetBaud b => ~ offered b | _ => False end -> do_call y c d = (INVALID_ARGUMENT, ANone, d)).
Proof.
  intros [g s] c d NF IS E1 E2. cbn in E1, E2. subst. destruct c as [p|n|n|f|b| | | | |]; try (destruct (NF I)); try discriminate; cbn; split; try contradiction; try reflexivity.
  - intros H. destruct b; try reflexivity; exfalso; unfold offered in H; cbn in H; repeat (destruct H as [H|H]; [discriminate|]); contradiction.
  - intros H. destruct b; try reflexivity; exfalso; apply H; unfold offered; cbn; tauto.
Qed.
Print Assumptions C67_set_succeeds.

(** A get reads what the line is, whenever the line is something the API can name. *)
Theorem C67_get : forall y d, e_get y = 0%Z ->
  (forall p, line_parity d p -> do_call y GetParity d = (SUCCESS, AParity p, d)) /\
  (forall n, line_stop d n -> do_call y GetStopBits d = (SUCCESS, AStopBits n, d)) /\
  (forall n, line_bits d n -> do_call y GetDataBits d = (SUCCESS, ADataBits n, d)) /\
  (forall b, offered b -> line_rate d b -> do_call y GetBaud d = (SUCCESS, ABaud b, d)).
Proof.
  intros [g s] d E. cbn in E. subst g. cbn [do_call]. unfold get_parity, get_num_stop_bits, get_num_data_bits, get_baud_rate, get_state. cbn.
  split; [|split; [|split]].
  - intros p H. unfold line_parity in H. rewrite H. destruct p; reflexivity.
  - intros p H. unfold line_stop in H. rewrite H. destruct p; reflexivity.
  - intros p H. unfold line_bits in H. rewrite H. destruct p; reflexivity.
  - intros b O H. unfold line_rate in H. rewrite H. destruct b; try reflexivity; exfalso; unfold offered in O; cbn in O; repeat (destruct O as [O|O]; [discriminate|]); contradiction.
Qed.
Print Assumptions C67_get.

(** After cio_uart_init: 115200 baud, 8N1, no flow control. *)
Theorem C67_init : forall c, line_is (init_dcb c) w_init /\ line_flow (init_dcb c) FNone /\ rest (init_dcb c) = rest c.
Proof. intros c. unfold line_is, line_parity, line_stop, line_bits, line_rate. cbn. repeat split. discriminate. Qed.
Print Assumptions C67_init.

(** After any history of calls, failing or not, the line is what the successful sets asked for last. *)
Lemma same_parity c d d' p : same_but c d d' -> match c with SetParity _ => False | _ => True end -> line_parity d p -> line_parity d' p.
Proof. intros (H & _) N. unfold line_parity. destruct c; try contradiction; congruence. Qed.
Lemma same_stop c d d' p : same_but c d d' -> match c with SetStopBits _ => False | _ => True end -> line_stop d p -> line_stop d' p.
Proof. intros (_ & H & _) N. unfold line_stop. destruct c; try contradiction; congruence. Qed.
Lemma same_bits c d d' p : same_but c d d' -> match c with SetDataBits _ => False | _ => True end -> line_bits d p -> line_bits d' p.
Proof. intros (_ & _ & H & _) N. unfold line_bits. destruct c; try contradiction; congruence. Qed.
Lemma same_rate c d d' p : same_but c d d' -> match c with SetBaud _ => False | _ => True end -> line_rate d p -> line_rate d' p.
Proof. intros (_ & _ & _ & H & _) N. unfold line_rate. destruct c; try contradiction; congruence. Qed.
Lemma history l : forall w d0 rs d, line_is d0 w -> calls l d0 = (rs, d) -> line_is d (want (combine (map snd l) (map fst rs)) w).
Proof.
  induction l as [|[y c] l IH]; intros w d0 rs d H E; cbn [calls] in E; [injection E as <- <-; exact H|].
  destruct (do_call y c d0) as [[res a] d1] eqn:DC. destruct (calls l d1) as [rs1 d2] eqn:CS. injection E as <- <-. cbn [map combine want fst snd].
  eapply IH; [|exact CS]. destruct H as (H1 & H2 & H3 & H4).
  assert (F : is_flow c \/ ~ is_flow c) by (destruct c; cbn; auto). destruct F as [F|F].
  - assert (D : d1 = d0) by (destruct c; try contradiction; cbn in DC; injection DC as _ _ <-; reflexivity). subst d1.
    destruct c; try contradiction; destruct (res =? SUCCESS)%Z; repeat split; assumption.
  - destruct (C67_call _ _ _ _ _ _ F DC) as (SB & EF & NE & GE). destruct (Z.eqb_spec res SUCCESS) as [S|S].
    + specialize (EF S). destruct c as [p|n|n|f|b| | | | |]; cbn [w_parity w_stop w_bits w_baud]; unfold line_is; cbn [w_parity w_stop w_bits w_baud];
      (split; [first [eapply same_parity; [exact SB|exact I|exact H1]|destruct a; (contradiction || exact EF)]|]);
      (split; [first [eapply same_stop; [exact SB|exact I|exact H2]|destruct a; (contradiction || exact EF)]|]);
      (split; [first [eapply same_bits; [exact SB|exact I|exact H3]|destruct a; (contradiction || exact EF)]|]);
      first [eapply same_rate; [exact SB|exact I|exact H4]|destruct a; (contradiction || exact EF)].
    + rewrite (NE S). repeat split; assumption.
Qed.
Theorem C67_history : forall l c rs d, calls l (init_dcb c) = (rs, d) -> line_is d (want (combine (map snd l) (map fst rs)) w_init).
Proof. intros l c rs d E. eapply history; [apply C67_init|exact E]. Qed.
Print Assumptions C67_history.
(** Non-vacuity: a set that fails in between, an unoffered rate, a get. *)
Example session : forall c, let ok := mkSys 0 0 in let no := mkSys 0 5 in
  let '(rs, d) := calls [(ok, SetParity PEven); (no, SetParity POdd); (ok, SetBaud UartModel.B9600); (ok, SetBaud UartModel.B230400); (ok, SetDataBits D7); (ok, GetParity); (ok, GetBaud)] (init_dcb c) in
  rs = [(SUCCESS, ANone); ((-5)%Z, ANone); (SUCCESS, ANone); (INVALID_ARGUMENT, ANone); (SUCCESS, ANone); (SUCCESS, AParity PEven); (SUCCESS, ABaud UartModel.B9600)] /\
  line_is d (mkW PEven OneStop D7 UartModel.B9600).
Proof. intros c. cbn. repeat split. Qed.

(** VIOLATED: setting a flow control succeeds and does nothing, for every port and every value; it cannot be read back. *)
Theorem C67_flow_control_refuted : (forall y f d, do_call y (SetFlow f) d = (SUCCESS, ANone, d)) /\
  (forall y c, let d' := snd (do_call y (SetFlow FRtsCts) (init_dcb c)) in ~ line_flow d' FRtsCts /\ line_flow d' FNone) /\
  (forall y d, do_call y GetFlow d = (OPERATION_NOT_SUPPORTED, ANone, d)).
Proof. repeat split; cbn; try discriminate. intros (H & _). discriminate. Qed.
Print Assumptions C67_flow_control_refuted.
(** VIOLATED: nineteen of the thirty rates of the API are refused although Windows accepts any rate the driver supports. *)
Theorem C67_rates_refuted : exists bs, length bs = 19%nat /\ NoDup bs /\ forall b y d, In b bs -> e_get y = 0%Z -> do_call y (SetBaud b) d = (INVALID_ARGUMENT, ANone, d).
Proof.
  exists [UartModel.B50; UartModel.B75; UartModel.B134; UartModel.B150; UartModel.B200; UartModel.B1800; UartModel.B230400; UartModel.B460800; UartModel.B500000; UartModel.B576000; UartModel.B921600;
    UartModel.B1000000; UartModel.B1152000; UartModel.B1500000; UartModel.B2000000; UartModel.B2500000; UartModel.B3000000; UartModel.B3500000; UartModel.B4000000].
  split; [reflexivity|]. split.
  - repeat constructor; cbn; intros H; repeat (destruct H as [H|H]; [discriminate|]); exact H.
  - intros b [g s] d H G. cbn in G. subst g. cbn in H. repeat (destruct H as [<-|H]; [reflexivity|]). destruct H.
Qed.
Print Assumptions C67_rates_refuted.
