(** What received bytes can do to the sending side. *)
From Verif Require Import Base Utf8Model MaskModel MaskSpec MaskProofs EndianModel WsModel WsFrame WsSendProofs WsRecvProofs WsTrace.
Open Scope N_scope.

Definition same_tx (s s' : ws) : Prop :=
  T s' = T s /\ cbe s' = cbe s /\ selfc s' = selfc s /\ timer s' = timer s /\ hooked s' = hooked s.
Lemma same_tx_refl s : same_tx s s. Proof. repeat split. Qed.
Lemma same_tx_trans a b c : same_tx a b -> same_tx b c -> same_tx a c.
Proof. unfold same_tx. intuition congruence. Qed.
Definition rx_ev (e : ev) : Prop := match e with EvData _ _ _ _ _ => True | EvControl 10 _ => True | _ => False end.
Definition rx_op (o : op) : Prop := match o with OUser | OFire | OHandleError _ _ _ => True | _ => False end.

Section A.
Variable C : cfg.
Hypothesis HC : cfg_ok C.

(** Nothing; a ping; or a close frame. *)
Inductive arrival (s : ws) (ch : choice) (s' : ws) (os : list op) : Prop :=
| ar_plain es : same_tx s s' -> tr s' = es ++ tr s -> Forall rx_ev es -> (length os <= 1)%nat -> Forall rx_op os -> arrival s ch s' os
| ar_ping s1 data : same_tx s s1 -> tr s1 = tr s -> bytes_ok data -> handle_ping_frame C s1 data ch = Ret (s', os) -> arrival s ch s' os
| ar_close s1 addr data : same_tx s s1 -> tr s1 = tr s -> bytes_ok data -> handle_close_frame C s1 addr data ch = Ret (s', os) -> arrival s ch s' os.

Lemma arrival_pre s0 s ch s' os : same_tx s0 s -> tr s = tr s0 -> arrival s ch s' os -> arrival s0 ch s' os.
Proof.
  intros E F [es X1 X2 X3 X4 X5|s1 data X1 X2 X3 X4|s1 addr data X1 X2 X3 X4].
  - apply (ar_plain _ _ _ _ es); auto; [eapply same_tx_trans; eassumption|congruence].
  - eapply ar_ping; [eapply same_tx_trans; eassumption|congruence|eassumption..].
  - eapply ar_close; [eapply same_tx_trans; eassumption|congruence|eassumption..].
Qed.
Definition rx_ok (s : ws) : Prop := length (rmask (R s)) = 4%nat /\ bytes_ok (rmask (R s)).

Lemma read_arrival s ch cb most n msg s' os : Ret (bs_read C s cb most n msg) = Ret (s', os) -> arrival s ch s' os.
Proof.
  unfold bs_read. destruct (negb most && _)%bool; intros H; injection H as <- <-; (apply (ar_plain _ _ _ _ []); [repeat split|reflexivity|constructor| |]); cbn; try lia.
  - repeat constructor.
  - destruct (Nat.eqb _ _); cbn; lia.
  - destruct (Nat.eqb _ _); repeat constructor.
Qed.
Lemma fail_arrival s ch e c r : arrival s ch s [OHandleError e c r].
Proof. apply (ar_plain _ _ _ _ []); [apply same_tx_refl|reflexivity|constructor|cbn; lia|repeat constructor]. Qed.

Lemma handle_frame_arrival s addr data ch s' os : rx_ok s -> bytes_ok data -> handle_frame C s addr data ch = Ret (s', os) -> arrival s ch s' os.
Proof.
  intros [L K] B H. unfold handle_frame in H. rewrite (unmask_run C HC) in H by assumption. cbn [obind] in H.
  pose proof (unmask_ok C (R s) data L K B) as B'.
  destruct (N.eqb (opcode (R s)) BINARY_FRAME).
  { unfold handle_binary_frame in H. binv H. injection H as <- <-.
    assert (X : same_tx s a /\ tr a = tr s). { destruct (N.eqb (rem (R s)) 0); [injection E as <-; split; [apply same_tx_refl|reflexivity]|]. binv E. injection E as <-. repeat split. }
    destruct X as [X Y]. apply (ar_plain _ _ _ _ [EvData true (rfl (R a)) (unmask C (R s) data) (N.eqb (rem (R s)) 0) (fin (R s))]).
    - destruct X as (x1 & x2 & x3 & x4 & x5). repeat split; assumption.
    - cbn. rewrite Y. reflexivity.
    - repeat constructor.
    - cbn. lia.
    - repeat constructor. }
  destruct (N.eqb (opcode (R s)) TEXT_FRAME).
  { unfold handle_text_frame in H. binv H. destruct a as [u st]. destruct (_ || _)%bool.
    { injection H as <- <-. eapply arrival_pre; [| |apply fail_arrival]; [repeat split|reflexivity]. }
    binv H. injection H as <- <-.
    match goal with |- arrival s ch (log a ?e) _ => apply (ar_plain _ _ _ _ [e]) end.
    - clear - E0. destruct (fin (R s)); destruct (N.eqb _ 0); try (injection E0 as <-; repeat split); binv E0; injection E0 as <-; repeat split.
    - clear - E0. cbn. destruct (fin (R s)); destruct (N.eqb _ 0); try (injection E0 as <-; reflexivity); binv E0; injection E0 as <-; reflexivity.
    - repeat constructor.
    - cbn. lia.
    - repeat constructor. }
  destruct (N.eqb (opcode (R s)) PING_FRAME). { eapply ar_ping; [apply same_tx_refl|reflexivity|exact B'|exact H]. }
  destruct (N.eqb (opcode (R s)) PONG_FRAME).
  { unfold handle_pong_frame in H. injection H as H. pose proof (f_equal (@Ret _) H) as H'. unfold bs_read in H'.
    destruct (negb false && _)%bool; injection H' as <- <-; (apply (ar_plain _ _ _ _ [EvControl PONG_FRAME (unmask C (R s) data)]); [repeat split|reflexivity|repeat constructor| |]); cbn; try lia.
    - repeat constructor.
    - destruct (Nat.eqb _ _); cbn; lia.
    - destruct (Nat.eqb _ _); repeat constructor. }
  destruct (N.eqb (opcode (R s)) CLOSE_FRAME). { eapply ar_close; [apply same_tx_refl|reflexivity|exact B'|exact H]. }
  injection H as <- <-. apply fail_arrival.
Qed.

Lemma read_payload_arrival s ch s' os : rx_ok s -> read_payload C s ch = Ret (s', os) -> arrival s ch s' os.
Proof.
  intros O H. unfold read_payload in H. destruct (N.ltb 0 (rem (R s))).
  - destruct (N.ltb SIZE_MAX _); [injection H as <- <-; apply fail_arrival|eapply read_arrival; exact H].
  - eapply handle_frame_arrival; [exact O|constructor|exact H].
Qed.
Lemma get_mask_or_payload_arrival s ch s' os : rx_ok s -> get_mask_or_payload C s ch = Ret (s', os) -> arrival s ch s' os.
Proof. intros O H. unfold get_mask_or_payload in H. destruct (is_server C); [eapply read_arrival; exact H|apply read_payload_arrival; assumption]. Qed.

Lemma firstn_ok n l : bytes_ok l -> bytes_ok (firstn n l).
Proof. apply bytes_ok_firstn. Qed.

Lemma fire_arrival s rq f ch s' os : rx_ok s -> fire_ok rq f -> fire C s rq f ch = Ret (s', os) ->
  exists os1, os = os1 ++ [OBsReturn] /\ arrival s ch s' os1.
Proof.
  intros O F H. unfold fire in H. binv H. destruct a as [s2 os2]. injection H as <- <-. cbn [fst snd]. exists os2. split; [reflexivity|].
  set (s1 := set_cbrun (set_rd s None) (S (cbrun s))) in *. apply (arrival_pre s s1); [repeat split|reflexivity|].
  assert (O1 : rx_ok s1) by exact O. clearbody s1. clear O s.
  destruct f as [err|addr view]; [injection E as <- <-; unfold read_error; destruct (Z.eqb err CIO_EOF); apply fail_arrival|].
  destruct F as [B _]. set (num := if rq_most rq then _ else _) in E. clearbody num. destruct (rq_cb rq).
  - unfold get_header in E. destruct view as [|b view]; [discriminate|]. destruct (Nat.ltb _ _); [discriminate|].
    match type of E with (if ?b then _ else _) = _ => destruct b end.
    { injection E as <- <-. eapply arrival_pre; [| |apply fail_arrival]; [repeat split|reflexivity]. }
    destruct (handle_fin _ _).
    { injection E as <- <-. eapply arrival_pre; [| |apply fail_arrival]; [repeat split|reflexivity]. }
    eapply arrival_pre; [| |eapply read_arrival; exact E]; [repeat split|reflexivity].
  - unfold get_first_length in E. destruct view as [|b view]; [discriminate|]. destruct (Nat.ltb _ _); [discriminate|]. cbv zeta in E.
    match type of E with (if ?b then _ else _) = _ => destruct b end.
    { injection E as <- <-. eapply arrival_pre; [| |apply fail_arrival]; [repeat split|reflexivity]. }
    match type of E with (if ?b then _ else _) = _ => destruct b end.
    { eapply arrival_pre; [| |eapply get_mask_or_payload_arrival; [|exact E]]; [repeat split|reflexivity|exact O1]. }
    match type of E with (if ?b then _ else _) = _ => destruct b end.
    { injection E as <- <-. eapply arrival_pre; [| |apply fail_arrival]; [repeat split|reflexivity]. }
    match type of E with (if ?b then _ else _) = _ => destruct b end;
      (eapply arrival_pre; [| |eapply read_arrival; exact E]; [repeat split|reflexivity]).
  - unfold get_length in E. destruct (_ || _)%bool; [discriminate|]. cbv zeta in E. destruct (N.ltb SIZE_MAX _).
    { injection E as <- <-. eapply arrival_pre; [| |apply fail_arrival]; [repeat split|reflexivity]. }
    eapply arrival_pre; [| |eapply get_mask_or_payload_arrival; [|exact E]]; [repeat split|reflexivity|exact O1].
  - unfold get_length in E. destruct (_ || _)%bool; [discriminate|]. cbv zeta in E. destruct (N.ltb SIZE_MAX _).
    { injection E as <- <-. eapply arrival_pre; [| |apply fail_arrival]; [repeat split|reflexivity]. }
    eapply arrival_pre; [| |eapply get_mask_or_payload_arrival; [|exact E]]; [repeat split|reflexivity|exact O1].
  - unfold get_mask in E. destruct (Nat.ltb 4 num || _)%bool eqn:Q; [discriminate|]. apply orb_false_elim in Q as [Q1 Q2]. apply Nat.ltb_ge in Q1, Q2.
    eapply arrival_pre; [| |eapply read_payload_arrival; [|exact E]]; [repeat split|reflexivity|].
    destruct O1 as [L K]. split; cbn.
    + rewrite app_length, firstn_length_le, skipn_length by assumption. lia.
    + apply bytes_ok_app. split; [apply bytes_ok_firstn; exact B|]. apply bytes_ok_skipn. exact K.
  - unfold get_payload in E. destruct (is_control_frame _).
    + destruct (Nat.ltb _ _); [discriminate|]. eapply arrival_pre; [| |eapply handle_frame_arrival; [| |exact E]]; [repeat split|reflexivity|exact O1|apply bytes_ok_firstn; exact B].
    + destruct (Nat.ltb _ _); [discriminate|]. eapply arrival_pre; [| |eapply handle_frame_arrival; [| |exact E]]; [repeat split|reflexivity|exact O1|apply bytes_ok_firstn; exact B].
Qed.
End A.
