(** Text, ping/pong and close frames as the application sees them (C21-C25). *)
From Verif Require Import Base Utf8Model Utf8Spec Utf8Proofs MaskModel MaskSpec EndianModel EndianSpec EndianProofs
  WsModel WsFrame WsSendProofs WsRecvSpec WsDecode WsTrace WsRecvProofs WsRecvReach WsVerdict WsHistory WsFrameSpec WsCodec WsHeaderSpec WsSend WsClean WsExec WsRecvProps.
From Coq Require String.
Import String.StringSyntax.
Delimit Scope string_scope with string.
Open Scope N_scope.

(** Concrete runs: reaching states by executing schedules. *)
Definition ex_reach C l c : exec C readb start l = Some c -> reach C one_read_at_a_time c.
Proof. intros H. eapply exec_reach; [exact readb_ok|apply start_reach|exact H]. Qed.
Definition readcall : act := XApi ARead ch0.

Ltac run_it C l :=
  let s := fresh "s" in let k := fresh "k" in let E := fresh "E" in let H := fresh "REACH" in
  destruct (exec C readb start l) as [[s k]|] eqn:E; [|vm_compute in E; discriminate E];
  assert (H := ex_reach _ _ _ E); vm_compute in E;
  match type of E with Some (?a, ?b) = _ =>
    assert (s = a) by congruence; assert (k = b) by congruence; clear E; exists s, k; split; [exact H|clear H; subst s k] end.
Ltac not_there := intros ? ? HH; cbn in HH; decompose [or] HH; try discriminate; try contradiction.

(** * C21, the two clauses the code does not enforce *)

(** A length that is not encoded in the shortest form is accepted: 4 bytes of
    header where 2 are enough. *)
Theorem ws_overlong_length_delivered_refuted : exists s k, reach cli one_read_at_a_time (s, k) /\
  inp s = [0x82; 126; 0; 1; 77] /\ no_error (tr s) /\ In (EvData true 1 [77] true true) (tr s) /\
  parse_header (inp s) = Some (Header true 0 2 false 1 [], 4%nat) /\ parse_header [0x82; 1; 77] = Some (Header true 0 2 false 1 [], 2%nat).
Proof.
  run_it cli [readcall; arrive [0x82; 126; 0; 1; 77]; op1; op1; arrive [126; 0; 1; 77]; op1; arrive [0; 1; 77]; op1; arrive [77]].
  split; [reflexivity|]. split; [not_there|]. split; [cbn; tauto|]. split; reflexivity.
Qed.
Print Assumptions ws_overlong_length_delivered_refuted.

(** So is a 64-bit length with its most significant bit set. *)
Theorem ws_huge_length_delivered_refuted : exists s k, reach cli one_read_at_a_time (s, k) /\
  inp s = [0x82; 127; 0x80; 0; 0; 0; 0; 0; 0; 0; 77] /\ no_error (tr s) /\ In (EvData true (2 ^ 63) [77] false true) (tr s).
Proof.
  run_it cli [readcall; arrive [0x82; 127; 0x80; 0; 0; 0; 0; 0; 0; 0; 77]; op1; op1; arrive [127; 0x80; 0; 0; 0; 0; 0; 0; 0; 77]; op1;
    arrive [0x80; 0; 0; 0; 0; 0; 0; 0; 77]; op1; arrive [77]].
  split; [reflexivity|]. split; [not_there|]. cbn; tauto.
Qed.
Print Assumptions ws_huge_length_delivered_refuted.

(** Non-vacuity of [ws_violation_is_never_delivered] and [ws_violation_fails_with_1002]: a good text
    frame, then a frame with a reserved bit. *)
Example violation_example : exists s k, reach cli one_read_at_a_time (s, k) /\
  inp s = enc_frames false [Frame true 1 [0;0;0;0] [72; 105]] ++ [0xC1] /\ delivered (tr s) = frames_outs None [Frame true 1 [0;0;0;0] [72; 105]] /\
  k = [OHandleError CIO_PROTOCOL_NOT_SUPPORTED 1002 (bytes_of_string "reserved bit set in frame"%string); OBsReturn].
Proof.
  run_it cli ([readcall; arrive [0x81; 2; 72; 105; 0xC1]; op1; op1; arrive [2; 72; 105; 0xC1]; op1; arrive [72; 105; 0xC1]; readcall] ++ ops 2 ++ [arrive [0xC1]]).
  repeat split; vm_compute; reflexivity.
Qed.

(** * C22 *)

(** Whatever arrives: complete text messages handed to the application are
    well-formed UTF-8, and what it got of an incomplete one can be completed. *)
Theorem ws_text_is_utf8 : forall C s k, cfg_ok C -> reach C one_read_at_a_time (s, k) ->
  Forall utf8_well_formed (complete_texts (delivered (tr s))) /\ utf8_prefix (current_text (delivered (tr s))).
Proof. intros C s k HC H. exact (i_txt _ _ _ (reach_inv C HC s k H)). Qed.
Print Assumptions ws_text_is_utf8.

(** Rejection: the connection is failed with status 1007 because of text [x].
    Then the text cannot be completed to a well-formed one, or this is the end of
    the message and it is not well-formed - or [x] is a piece of a final frame
    that ends inside a character (the defect shown below). *)
Theorem ws_text_rejection_justified_partial : forall C s k addr view ch s' reason, cfg_ok C -> reach C one_read_at_a_time (s, k) ->
  enabled (s, k) (XFire (FData addr view) ch) ->
  step C (s, k) (XFire (FData addr view) ch) = Ret (s', OHandleError CIO_PROTOCOL_NOT_SUPPORTED 1007 reason :: OBsReturn :: k) ->
  no_close (snd (decode (is_server C) (inp s'))) ->
  exists x f len o, snd (decode (is_server C) (inp s')) = delivered (tr s') ++ map (OutByte false f len) x ++ o /\
    (~ utf8_prefix (current_text (delivered (tr s')) ++ x) \/
     (f = true /\ o = [OutEnd false f len] /\ ~ utf8_well_formed (current_text (delivered (tr s')) ++ x)) \/
     (f = true /\ o = [] /\ ~ utf8_well_formed (current_text (delivered (tr s')) ++ x))).
Proof.
  intros C s k addr view ch s' reason HC H (_ & _ & _ & _ & rq & RD & FO) ST NC. cbn [step] in ST. rewrite RD in ST. unfold lift in ST. binv ST.
  destruct a as [s1 os]. injection ST as -> ST.
  destruct (fire_verdict C HC s k rq addr view ch s' os (reach_inv C HC s k H) RD FO E) as (os' & -> & VD).
  assert (OS : os' = [OHandleError CIO_PROTOCOL_NOT_SUPPORTED 1007 reason]).
  { cbn [fst snd] in ST. rewrite <- app_assoc in ST. change (OHandleError CIO_PROTOCOL_NOT_SUPPORTED 1007 reason :: OBsReturn :: k) with ([OHandleError CIO_PROTOCOL_NOT_SUPPORTED 1007 reason] ++ [OBsReturn] ++ k) in ST.
    apply app_inv_tail in ST. exact ST. }
  destruct VD as [V1 _ _|? V _|rs f len x o _ _ V1 V2 V3|code msg ad x V _ V2 _|err rs V _ _]; try (rewrite OS in V; discriminate V).
  - rewrite OS in V1. discriminate.
  - exists x, f, len, o. split; [exact V1|]. destruct V3 as [V3|[-> V3]]; [left; exact V3|right]. destruct V2 as [-> | (-> & _)]; [left|right]; repeat split; assumption.
  - exfalso. apply (NC x). rewrite V2. apply in_or_app. right. left. reflexivity.
Qed.
Print Assumptions ws_text_rejection_justified_partial.

(** The defect: "a-umlaut" in one final frame, its two bytes arriving one after
    the other.  The text is well-formed, yet the connection is failed with 1007. *)
Theorem ws_valid_text_rejected_refuted : exists s k, reach cli one_read_at_a_time (s, k) /\
  (forall err r, ~ In (EvError err r) (tr s)) /\
  inp s ++ [0xA4] = enc_frames false [Frame true 1 [0;0;0;0] [0xC3; 0xA4]] /\ utf8_well_formed [0xC3; 0xA4] /\
  k = [OHandleError CIO_PROTOCOL_NOT_SUPPORTED 1007 (bytes_of_string "payload not valid utf8"%string); OBsReturn].
Proof.
  run_it cli [readcall; arrive [0x81; 2; 0xC3]; op1; op1; arrive [2; 0xC3]; op1; arrive [0xC3]].
  split; [not_there|]. split; [reflexivity|]. split; [|reflexivity].
  exists [0xE4]. split; [constructor; [left; reflexivity|constructor]|reflexivity].
Qed.
Print Assumptions ws_valid_text_rejected_refuted.

(** Malformed text really is rejected (the soundness theorem is not vacuous). *)
Example bad_text_rejected : exists s k, reach cli one_read_at_a_time (s, k) /\
  k = [OHandleError CIO_PROTOCOL_NOT_SUPPORTED 1007 (bytes_of_string "payload not valid utf8"%string); OBsReturn] /\ delivered (tr s) = [].
Proof.
  run_it cli [readcall; arrive [0x81; 2; 0xC0; 0x80]; op1; op1; arrive [2; 0xC0; 0x80]; op1; arrive [0xC0; 0x80]]. split; reflexivity.
Qed.

(** * C23 *)

(** Payloads of the pings reported to the application so far, oldest first. *)
Fixpoint pings (t : list ev) : list (list N) :=
  match t with [] => [] | EvControl 9 data :: r => pings r ++ [data] | _ :: r => pings r end.
(** Payloads of the pong frames (FIN, opcode 10, handler = the library's own)
    the library queued on its own, oldest first. *)
Fixpoint own_pongs (t : list ev) : list (list N) :=
  match t with
  | [] => []
  | EvAccept JPong (Job _ (Some c) (Some HPong) 10 true false SHMessage) len :: r =>
      if len =? total_size c then own_pongs r ++ [chain_bytes c] else own_pongs r
  | _ :: r => own_pongs r
  end.
Lemma pings_collect t : pings t = collect ping_of t.
Proof.
  induction t as [|e r IH]; [reflexivity|]. cbn [pings collect]. destruct e; cbn [ping_of]; rewrite ?app_nil_r; try exact IH.
  destruct kind as [|p]; rewrite ?app_nil_r; try exact IH. do 4 (destruct p as [p|p|]; rewrite ?app_nil_r; try exact IH). rewrite IH. reflexivity.
Qed.
Lemma own_pongs_collect t : own_pongs t = collect pong_of t.
Proof.
  induction t as [|e r IH]; [reflexivity|]. cbn [own_pongs collect]. destruct e; cbn [pong_of]; rewrite ?app_nil_r; try exact IH.
  destruct j; rewrite ?app_nil_r; try exact IH. destruct jb as [nx [c|] [[u|]|] ty la co sh]; rewrite ?app_nil_r; try exact IH.
  destruct ty as [|p]; rewrite ?app_nil_r; try exact IH. do 4 (destruct p as [p|p|]; rewrite ?app_nil_r; try exact IH).
  destruct la; rewrite ?app_nil_r; try exact IH. destruct co; rewrite ?app_nil_r; try exact IH. destruct sh; rewrite ?app_nil_r; try exact IH.
  destruct (len =? total_size c); rewrite ?app_nil_r, IH; reflexivity.
Qed.

(** For every run, whatever the application and the transport do: each ping
    reported was answered by queueing one pong with the same payload, in order. *)
Theorem ws_every_ping_is_answered : forall C P s k, reach C P (s, k) -> pings (tr s) = own_pongs (tr s).
Proof. intros C P s k H. destruct (history C P s k H) as (_ & E & _). rewrite pings_collect, own_pongs_collect. exact E. Qed.
Print Assumptions ws_every_ping_is_answered.

(** When nothing else is being sent, the pong goes out at once, as one valid frame
    with the ping's payload. *)
Theorem ws_pong_frame_sent : forall C s data ch, cfg_ok C -> choice_ok ch -> bytes_ok data -> (length data <= 125)%nat ->
  jcont (jobs (T s) JPong) = false -> first (T s) = None ->
  exists s' os sent jb, handle_ping_frame C s data ch = Ret (s', os) /\
    tr s' = EvSend JPong sent :: EvAccept JPong jb (N.of_nat (length data)) :: EvControl 9 data :: tr s /\
    chain_bytes sent = enc_frame (negb (is_server C)) (Frame true 10 (ch_key ch) data).
Proof.
  intros C s data ch HC CO BD LD JC F. unfold handle_ping_frame. destruct (Nat.ltb_spec 125 (length data)) as [X|_]; [lia|].
  set (c := if Nat.ltb 0 (length data) then [(ch_addr ch, data)] else []).
  assert (CB : chain_bytes c = data). { unfold c. destruct data; [reflexivity|]. cbn. rewrite app_nil_r. reflexivity. }
  assert (TS : total_size c = N.of_nat (length data)) by (unfold total_size; rewrite CB; reflexivity). rewrite TS.
  match goal with |- context [enqueue_job C ?x _ _ _ _] => set (s1 := x) end.
  unfold enqueue_job. assert (first (T s1) = None) as -> by exact F.
  match goal with |- context [send_frame C ?x _ _ _] => set (s2 := x) end.
  assert (J : jobs (T s2) JPong = Job (jnext (jobs (T s) JPong)) (Some c) (Some HPong) 10 true false SHMessage).
  { unfold s2, s1. cbn [T set_T log set_last set_first set_job set_jobs jobs]. rewrite upd_same, JC. reflexivity. }
  destruct (send_first C HC s2 JPong c (N.of_nat (length data)) ch) as (t & SF & _).
  { rewrite J. reflexivity. } { rewrite J. reflexivity. } { rewrite J. reflexivity. } { change (2 ^ 64) with 18446744073709551616. lia. } { exact CO. } { rewrite CB. exact BD. }
  rewrite SF, J. cbn [obind jtype jlast jsh]. set (sent := sent_first C c 10 true (N.of_nat (length data)) ch).
  assert (SE : chain_bytes sent = enc_frame (negb (is_server C)) (Frame true 10 (ch_key ch) data)).
  { unfold sent. rewrite sent_first_bytes, CB. reflexivity. }
  unfold bs_write. destruct (ch_write ch); cbn [fst snd]; eexists _, _, sent, _; (split; [reflexivity|]); (split; [reflexivity|exact SE]).
Qed.
Print Assumptions ws_pong_frame_sent.

(** The defect: while a pong of the application is being written, a ping arrives.
    In the end nothing is left to be sent or written, the ping was reported, and
    the only frame that ever went out is the application's pong (payload 7); the
    application's write handler was never called. *)
Theorem ws_ping_unanswered_refuted : exists s k, reach srv one_read_at_a_time (s, k) /\
  k = [] /\ inflight (T s) = 0%nat /\ first (T s) = None /\ In (EvControl 9 [5]) (tr s) /\ no_error (tr s) /\
  (forall j c, In (EvSend j c) (tr s) -> chain_bytes c = enc_frame false (Frame true 10 [] [7])) /\
  (forall j id e c, ~ In (EvWriteDone j id e c) (tr s)).
Proof.
  run_it srv ([XApi (APong (Some 1%nat) (Some [(8%nat, [7])])) ch0; readcall; arrive [0x89; 0x81; 0; 0; 0; 0; 5]; op1; op1; arrive [0x81; 0; 0; 0; 0; 5]; op1;
    arrive [0; 0; 0; 0; 5]; op1; arrive [5]; op1; XWritten 0] ++ ops 5).
  repeat match goal with |- _ /\ _ => split end; try reflexivity; [cbn; tauto|not_there| |].
  - intros j c H. cbn in H. decompose [or] H; try discriminate; try contradiction.
    match goal with H : EvSend _ _ = EvSend _ _ |- _ => injection H as <- <- end. reflexivity.
  - intros j id e c H. cbn in H. decompose [or] H; try discriminate; try contradiction.
Qed.
Print Assumptions ws_ping_unanswered_refuted.

(** * C24, C25 *)

Theorem ws_status_code_check : forall c, is_invalid_status_code c = false <-> close_code_allowed c.
Proof.
  intros c. unfold is_invalid_status_code, close_code_allowed, CLOSE_NORMAL, CLOSE_UNSUPPORTED, CLOSE_UNSUPPORTED_DATA, CLOSE_INTERNAL_ERROR, CLOSE_RESERVED_LOWER, CLOSE_RESERVED_UPPER.
  destruct (N.leb_spec 1000 c), (N.leb_spec c 1003), (N.leb_spec 1007 c), (N.leb_spec c 1011), (N.leb_spec 3000 c), (N.leb_spec c 4999); cbn [andb]; split; intros X; try discriminate; try reflexivity; lia.
Qed.
Print Assumptions ws_status_code_check.

(** What the code accepts as close payload: nothing, or an allowed code followed
    by a reason whose bytes, except the last two, are well-formed UTF-8. *)
Definition reason_checked (r : list N) : list N := firstn (length r - 2) r.
Definition close_payload_accepted (x : list N) : Prop :=
  x = [] \/ exists b0 b1 r, x = b0 :: b1 :: r /\ close_code_allowed (b0 * 256 + b1) /\ utf8_well_formed (reason_checked r).

Lemma close_check : forall C addr x, cfg_ok C -> bytes_ok x -> length x <> 3%nat ->
  exists v, check_close_payload C addr x = Ret v /\
   match v with
   | CVOk st n => close_payload_accepted x /\ n = N.of_nat (length x - 2) /\
       st = match x with b0 :: b1 :: _ => b0 * 256 + b1 | _ => 1000 end
   | CVError code _ => ~ close_payload_accepted x /\
       (code = 1002 /\ (length x = 1%nat \/ exists b0 b1 r, x = b0 :: b1 :: r /\ ~ close_code_allowed (b0 * 256 + b1)) \/
        code = 1007 /\ exists b0 b1 r, x = b0 :: b1 :: r /\ close_code_allowed (b0 * 256 + b1) /\ ~ utf8_well_formed (reason_checked r))
   end.
Proof.
  intros C addr x HC BX L3. destruct x as [|b0 [|b1 r]].
  - eexists. split; [reflexivity|]. cbn. split; [left; reflexivity|split; reflexivity].
  - eexists. split; [reflexivity|]. split; [intros [X | (? & ? & ? & X & _)]; discriminate X|]. left. split; [reflexivity|left; reflexivity].
  - inversion BX as [|? ? B0 BX1]; inversion BX1 as [|? ? B1 BR]; subst. unfold byte_ok in B0, B1.
    unfold check_close_payload. assert (N.of_nat (length (b0 :: b1 :: r)) =? 1 = false) as -> by (apply N.eqb_neq; cbn [length]; lia).
    assert (2 <=? N.of_nat (length (b0 :: b1 :: r)) = true) as -> by (apply N.leb_le; cbn [length]; lia).
    assert (LB : load_be C 2 (b0 :: b1 :: r) = Ret (b0 * 256 + b1)).
    { unfold load_be. cbn [length Nat.ltb Nat.leb firstn]. rewrite betoh_load; [|reflexivity|repeat constructor; assumption]. unfold be_value. cbn [fold_left]. f_equal. }
    rewrite LB. cbn [obind andb skipn].
    assert (LR : N.of_nat (length (b0 :: b1 :: r)) - 2 = N.of_nat (length r)) by (cbn [length]; lia). rewrite LR.
    destruct (is_invalid_status_code (b0 * 256 + b1)) eqn:IV.
    { assert (NA : ~ close_code_allowed (b0 * 256 + b1)) by (intros X; apply ws_status_code_check in X; congruence).
      eexists. split; [reflexivity|]. split; [intros [X | (? & ? & ? & X & Y & _)]; [discriminate X|injection X as <- <- <-; exact (NA Y)]|].
      left. split; [reflexivity|]. right. exists b0, b1, r. split; [reflexivity|exact NA]. }
    assert (AL : close_code_allowed (b0 * 256 + b1)) by (apply ws_status_code_check; exact IV).
    destruct (N.ltb_spec 0 (N.of_nat (length r))) as [LP|LP].
    + assert (L2 : (2 <= length r)%nat) by (cbn [length] in L3; lia).
      assert (SM : size_minus_2 (N.of_nat (length r)) = N.of_nat (length (reason_checked r))).
      { unfold size_minus_2, reason_checked. assert (2 <=? N.of_nat (length r) = true) as -> by (apply N.leb_le; lia). rewrite firstn_length_le by lia. lia. }
      rewrite SM. assert (W : 0 < N.of_nat (wordsize C)) by (destruct HC as [-> | ->]; reflexivity).
      assert (BC : bytes_ok (reason_checked r)) by (apply bytes_ok_firstn; exact BR).
      destruct (check_utf8_drun_tail (N.of_nat (wordsize C)) (N.of_nat (addr + 2)) (utf8_init (mk_utf8 0 0)) (reason_checked r) (skipn (length r - 2) r) W qok_0 BC) as (u & CU & _).
      unfold reason_checked in CU at 1. rewrite firstn_skipn in CU. rewrite CU. cbn [obind snd u_state utf8_init].
      destruct (N.eqb_spec (drun 0 (reason_checked r)) CIO_UTF8_ACCEPT) as [D|D].
      * apply drun_accept in D. eexists. split; [reflexivity|]. split; [right; exists b0, b1, r; repeat split; assumption|]. split; [cbn [length]; f_equal; lia|reflexivity].
      * assert (ND : ~ utf8_well_formed (reason_checked r)) by (intros X; apply drun_accept in X; exact (D X)).
        eexists. split; [reflexivity|]. split; [intros [X | (? & ? & ? & X & _ & Y)]; [discriminate X|injection X as <- <- <-; exact (ND Y)]|].
        right. split; [reflexivity|]. exists b0, b1, r. repeat split; assumption.
    + destruct r; [|cbn [length] in LP; lia]. eexists. split; [reflexivity|]. split; [right; exists b0, b1, []; split; [reflexivity|split; [exact AL|exists []; split; [constructor|reflexivity]]]|].
      split; reflexivity.
Qed.
Print Assumptions close_check.

Lemma close_closes sv l : forall d x, In (OutControl 8 x) (snd (dec_run sv d l)) -> fst (dec_run sv d l) = DClosed.
Proof.
  assert (E1 : forall m f k n g, (forall x, ~ In (OutControl 8 x) (snd (dec_end m f k n g))) \/ fst (dec_end m f k n g) = DClosed).
  { intros m f [bin|op] n g; cbn; [left; intros x [X|[]]; discriminate X|]. destruct (N.eqb_spec op 8) as [->|X]; [right; reflexivity|left; intros y [Y|[]]; congruence]. }
  assert (E2 : forall m f k n g, (forall x, ~ In (OutControl 8 x) (snd (dec_start m f k n g))) \/ fst (dec_start m f k n g) = DClosed).
  { intros. unfold dec_start. destruct (n =? 0); [apply E1|left; intros x []]. }
  assert (E3 : forall m f k n, (forall x, ~ In (OutControl 8 x) (snd (dec_len sv m f k n))) \/ fst (dec_len sv m f k n) = DClosed).
  { intros. unfold dec_len. destruct sv; [left; intros x []|apply E2]. }
  assert (E : forall d b, (forall x, ~ In (OutControl 8 x) (snd (dec sv d b))) \/ fst (dec sv d b) = DClosed).
  { intros d b. destruct d; cbn [dec]; try (left; intros x []); [| | |].
    - destruct (negb _); [left; intros x []|]. destruct (_ <=? _); [apply E3|]. destruct k; left; intros x [].
    - destruct (Nat.eqb _ _); [apply E3|left; intros x []].
    - destruct (Nat.eqb _ _); [apply E2|left; intros x []].
    - destruct (_ =? _).
      + specialize (E1 m fin k len (got ++ [N.lxor b (nth (length got mod 4) key 0)])). destruct (dec_end _ _ _ _ _) as [d' o'] eqn:DE. cbn [fst snd] in *. destruct E1 as [E1|E1]; [left|right; exact E1].
        destruct k; [|exact E1]. intros x [X|X]; [discriminate X|exact (E1 x X)].
      + left. destruct k; [intros x [X|[]]; discriminate X|intros x []]. }
  induction l as [|b r IH]; intros d x H; [destruct H|]. cbn [dec_run] in *. specialize (E d b). destruct (dec sv d b) as [d1 o1]. cbn [fst snd] in *.
  specialize (IH d1 x). destruct (dec_run sv d1 r) as [d2 o2] eqn:DR. cbn [fst snd] in *. apply in_app_or in H. destruct H as [H|H]; [|exact (IH H)].
  destruct E as [E|E]; [destruct (E x H)|]. rewrite E, dec_run_closed in DR. injection DR as <- _. reflexivity.
Qed.

(** A close frame is only ever reported to the application if it is empty or
    carries an allowed status code. *)
Theorem ws_reported_close_code_allowed : forall C P s k x, cfg_ok C -> reach C P (s, k) -> In (EvControl 8 x) (tr s) -> bytes_ok x ->
  x = [] \/ exists b0 b1 r, x = b0 :: b1 :: r /\ close_code_allowed (b0 * 256 + b1).
Proof.
  intros C P s k x HC H I BX. destruct (history C P s k H) as (_ & _ & _ & A). rewrite Forall_forall in A. specialize (A _ I). cbn in A.
  destruct A as (addr & st & len & A). destruct x as [|b0 [|b1 r]]; [left; reflexivity|discriminate A|]. right. exists b0, b1, r. split; [reflexivity|].
  inversion BX as [|? ? B0 BX1]; inversion BX1 as [|? ? B1 BR]; subst.
  unfold check_close_payload in A. assert (N.of_nat (length (b0 :: b1 :: r)) =? 1 = false) as X by (apply N.eqb_neq; cbn [length]; lia). rewrite X in A. clear X.
  assert (2 <=? N.of_nat (length (b0 :: b1 :: r)) = true) as X by (apply N.leb_le; cbn [length]; lia). rewrite X in A. clear X.
  assert (LB : load_be C 2 (b0 :: b1 :: r) = Ret (b0 * 256 + b1)).
  { unfold load_be. cbn [length Nat.ltb Nat.leb firstn]. rewrite betoh_load; [|reflexivity|repeat constructor; assumption]. unfold be_value. cbn [fold_left]. f_equal. }
  rewrite LB in A. cbn [obind andb] in A. destruct (is_invalid_status_code (b0 * 256 + b1)) eqn:IV; [discriminate A|]. apply ws_status_code_check, IV.
Qed.
Print Assumptions ws_reported_close_code_allowed.

(** Exactly which close frames are reported.  A close frame with payload [x] (not
    of length 3, see below) has just arrived. *)
Theorem ws_close_frame_decision : forall C s k addr view ch s' k' x, cfg_ok C -> 125 <= rbsize C -> reach C one_read_at_a_time (s, k) ->
  cbe s = false -> existsb is_err k = false -> (forall e, ch_write ch <> WErr e) ->
  enabled (s, k) (XFire (FData addr view) ch) -> step C (s, k) (XFire (FData addr view) ch) = Ret (s', k') ->
  snd (decode (is_server C) (inp s')) = snd (decode (is_server C) (inp s)) ++ [OutControl 8 x] -> bytes_ok x -> length x <> 3%nat ->
  (close_payload_accepted x /\ delivered (tr s') = delivered (tr s) ++ [OutControl 8 x]) \/
  (~ close_payload_accepted x /\ delivered (tr s') = delivered (tr s) /\
   exists code reason, k' = OHandleError CIO_PROTOCOL_NOT_SUPPORTED code reason :: OBsReturn :: k /\
     (code = 1002 /\ (length x = 1%nat \/ exists b0 b1 r, x = b0 :: b1 :: r /\ ~ close_code_allowed (b0 * 256 + b1)) \/
      code = 1007 /\ exists b0 b1 r, x = b0 :: b1 :: r /\ close_code_allowed (b0 * 256 + b1) /\ ~ utf8_well_formed (reason_checked r))).
Proof.
  intros C s k addr view ch s' k' x HC BIG H CB NE NW EN ST D BX L3.
  assert (H' : reach C one_read_at_a_time (s', k')) by (eapply reach_step; [exact H|exact EN|exact I|exact ST]).
  pose proof (reach_inv C HC s k H) as IN. pose proof (reach_inv C HC s' k' H') as IN'.
  destruct EN as (_ & _ & _ & _ & rq & RD & FO). pose proof ST as ST0. cbn [step] in ST. rewrite RD in ST. unfold lift in ST. binv ST.
  destruct a as [s1 os]. injection ST as -> <-. cbn [fst snd] in *.
  assert (OUT : snd (decode (is_server C) (inp s)) = delivered (tr s)) by (apply (i_out _ _ _ IN); unfold tokens; rewrite RD; cbn [has b2n]; lia).
  rewrite OUT in D. pose proof (close_closes (is_server C) (inp s') (DHead None) x) as CL. fold (decode (is_server C) (inp s')) in CL.
  assert (CL' : fst (decode (is_server C) (inp s')) = DClosed) by (apply CL; rewrite D; apply in_or_app; right; left; reflexivity). clear CL.
  destruct (fire_verdict C HC s k rq addr view ch s' os IN RD FO E) as (os' & -> & VD). rewrite <- app_assoc in *. cbn [app] in *.
  assert (CB' : cbe s' = false).
  { apply step_grow in ST0. destruct ST0 as [G|(? & ? & ? & ? & ? & X & _)]; [|discriminate X]. destruct (G (proj1 (history C _ s k H))) as (_ & _ & X & _). congruence. }
  destruct VD as [V1 _ _|? -> V|rs f len y o _ [_ V0] V1 V2 V3|code msg ad y -> _ V2 V3|err rs -> V _]; try congruence.
  - destruct (i_pre _ _ _ IN') as (rest & P & [-> | [X | X]]); [|congruence|].
    + left. rewrite app_nil_r in P. rewrite P in D. split; [|exact D].
      assert (IC : In (EvControl 8 x) (tr s')).
      { assert (X : In (OutControl 8 x) (delivered (tr s'))) by (rewrite D; apply in_or_app; right; left; reflexivity). clear - X.
        induction (tr s') as [|e r IH]; [destruct X|]. cbn [delivered] in X. apply in_app_or in X. destruct X as [X|X]; [right; exact (IH X)|].
        destruct e; cbn [outs_of] in X; try (destruct X; fail).
        - exfalso. apply in_app_or in X. destruct X as [X|X]; [apply in_map_iff in X; destruct X as (? & X & _); discriminate X|]. destruct last_chunk; [destruct X as [X|[]]; discriminate X|destruct X].
        - destruct X as [X|[]]. injection X as -> ->. left. reflexivity. }
      destruct (history C _ s' _ H') as (_ & _ & _ & A). rewrite Forall_forall in A. specialize (A _ IC). cbn in A. destruct A as (ad & st & len & A).
      destruct (close_check C ad x HC BX L3) as (v & CV & CK). rewrite CV in A. injection A as ->. apply CK.
    + exfalso. rewrite existsb_app in X. cbn [existsb is_err orb] in X. rewrite V1, NE in X. discriminate X.
  - right. rewrite V2 in D. apply app_inj_tail in D. destruct D as [D1 D2]. injection D2 as ->.
    destruct (close_check C ad x HC BX L3) as (v & CV & CK). rewrite CV in V3. injection V3 as ->. destruct CK as [CK1 CK2].
    split; [exact CK1|]. split; [exact D1|]. eexists _, _. split; [reflexivity|exact CK2].
  - exfalso. destruct V as [[V _]|V]; [lia|exact (NW _ V)].
Qed.
Print Assumptions ws_close_frame_decision.

(** So for a payload of at most two bytes the check is exactly the required one. *)
Theorem ws_close_status_exact : forall x, (length x <= 2)%nat ->
  (close_payload_accepted x <-> x = [] \/ exists b0 b1, x = [b0; b1] /\ close_code_allowed (b0 * 256 + b1)).
Proof.
  intros x L. split; (intros [X|X]; [left; exact X|right]).
  - destruct X as (b0 & b1 & r & -> & A & _). destruct r; [|cbn in L; lia]. eauto.
  - destruct X as (b0 & b1 & -> & A). exists b0, b1, []. split; [reflexivity|]. split; [exact A|]. exists []. split; [constructor|reflexivity].
Qed.
Print Assumptions ws_close_status_exact.

(** C25, the defects.  The last two bytes of the reason are not checked: the
    reason [65; 0xFF; 0xFE] is reported to the application and not rejected. *)
Theorem ws_malformed_reason_accepted_refuted : exists s k, reach cli one_read_at_a_time (s, k) /\
  In (EvControl 8 [3; 232; 65; 0xFF; 0xFE]) (tr s) /\ no_error (tr s) /\ existsb is_err k = false /\ ~ utf8_well_formed [65; 0xFF; 0xFE].
Proof.
  run_it cli [readcall; arrive [0x88; 5; 3; 232; 65; 0xFF; 0xFE]; op1; op1; arrive [5; 3; 232; 65; 0xFF; 0xFE]; op1; arrive [3; 232; 65; 0xFF; 0xFE]].
  split; [cbn; tauto|]. split; [not_there|]. split; [reflexivity|]. intros X. apply drun_accept in X. vm_compute in X. discriminate X.
Qed.
Print Assumptions ws_malformed_reason_accepted_refuted.

(** A valid reason of one byte makes the checker read past the payload. *)
Theorem ws_one_byte_reason_overreads_refuted : exists s k addr view ch, reach cli one_read_at_a_time (s, k) /\
  enabled (s, k) (XFire (FData addr view) ch) /\ inp s ++ view = enc_frame false (Frame true 8 [] [3; 232; 65]) /\
  step cli (s, k) (XFire (FData addr view) ch) = UB.
Proof.
  assert (X : exists s k, reach cli one_read_at_a_time (s, k) /\ enabledb (s, k) (XFire (FData 0 [3; 232; 65]) ch0) = true /\
    inp s ++ [3; 232; 65] = enc_frame false (Frame true 8 [] [3; 232; 65]) /\ step cli (s, k) (XFire (FData 0 [3; 232; 65]) ch0) = UB).
  { run_it cli [readcall; arrive [0x88; 3; 3; 232; 65]; op1; op1; arrive [3; 3; 232; 65]; op1]. repeat split; vm_compute; reflexivity. }
  destruct X as (s & k & R0 & E & I0 & S0). exists s, k, 0%nat, [3; 232; 65], ch0. split; [exact R0|]. split; [apply enabledb_ok, E|split; assumption].
Qed.
Print Assumptions ws_one_byte_reason_overreads_refuted.

(** And a well-formed reason can be rejected: cut inside its last character. *)
Theorem ws_valid_reason_rejected_refuted : exists s k, reach cli one_read_at_a_time (s, k) /\
  inp s = enc_frame false (Frame true 8 [] [3; 232; 0xE2; 0x82; 0xAC]) /\ utf8_well_formed [0xE2; 0x82; 0xAC] /\
  k = [OHandleError CIO_PROTOCOL_NOT_SUPPORTED 1007 (bytes_of_string "reason in close frame not utf8 valid"%string); OBsReturn].
Proof.
  run_it cli [readcall; arrive [0x88; 5; 3; 232; 0xE2; 0x82; 0xAC]; op1; op1; arrive [5; 3; 232; 0xE2; 0x82; 0xAC]; op1; arrive [3; 232; 0xE2; 0x82; 0xAC]].
  split; [reflexivity|]. split; [|reflexivity]. exists [0x20AC]. split; [constructor; [left; reflexivity|constructor]|reflexivity].
Qed.
Print Assumptions ws_valid_reason_rejected_refuted.

(** Non-vacuity of [ws_close_frame_decision]: both outcomes occur. *)
Example close_reported : exists s k, reach cli one_read_at_a_time (s, k) /\ delivered (tr s) = [OutControl 8 [3; 232; 66; 121; 101]] /\ close_payload_accepted [3; 232; 66; 121; 101].
Proof.
  run_it cli [readcall; arrive [0x88; 5; 3; 232; 66; 121; 101]; op1; op1; arrive [5; 3; 232; 66; 121; 101]; op1; arrive [3; 232; 66; 121; 101]].
  split; [reflexivity|]. right. exists 3, 232, [66; 121; 101]. split; [reflexivity|]. split; [left; lia|]. exists [66]. split; [constructor; [left; reflexivity|constructor]|reflexivity].
Qed.
Example close_refused : exists s k, reach cli one_read_at_a_time (s, k) /\ delivered (tr s) = [] /\ ~ close_payload_accepted [3; 237] /\
  k = [OHandleError CIO_PROTOCOL_NOT_SUPPORTED 1002 (bytes_of_string "invalid status code in close"%string); OBsReturn].
Proof.
  run_it cli [readcall; arrive [0x88; 2; 3; 237]; op1; op1; arrive [2; 3; 237]; op1; arrive [3; 237]].
  split; [reflexivity|]. split; [|reflexivity]. rewrite ws_close_status_exact by (cbn; lia). intros [X|(b0 & b1 & X & A)]; [discriminate X|injection X as <- <-]. unfold close_code_allowed in A. lia.
Qed.

(** * C20: a concrete undisturbed run *)
Definition write_worksb (ch : choice) : bool := match ch_write ch with WPending => true | WSync e => Z.eqb e 0 | WErr _ => false end.
Definition undisturbedb (c : conf) (x : act) : bool :=
  (readb c x && match x with
   | XOp ch => write_worksb ch | XApi (AClose _ _ _) _ => false | XApi _ ch => write_worksb ch
   | XFire (FData _ _) ch => write_worksb ch | XFire (FErr _) _ => false | XWritten e => Z.eqb e 0 | XTimer _ => true end)%bool.
Lemma undisturbedb_ok c x : undisturbedb c x = true -> undisturbed c x.
Proof.
  unfold undisturbedb. intros H. apply andb_prop in H. destruct H as [H1 H2]. split; [apply readb_ok, H1|].
  assert (W : forall ch, write_worksb ch = true -> write_works ch) by (intros ch; unfold write_worksb, write_works; destruct (ch_write ch); intros X; try exact I; try discriminate; apply Z.eqb_eq in X; exact X).
  destruct x as [ch|[] ch|[|] ch|e|e]; cbn [transport_works no_close_call] in *; try discriminate; repeat split; auto. apply Z.eqb_eq in H2. exact H2.
Qed.
(** Two fragments of a text with a ping between them, masked, to a server: the
    server answers the ping while the message is incomplete. *)
Definition example_frames : list frame :=
  [Frame false 1 [1;2;3;4] [72; 105]; Frame true 9 [5;6;7;8] [9]; Frame true 0 [1;1;1;1] [33]].
Example undisturbed_example : exists s, reach srv undisturbed (s, []) /\ inp s = enc_frames true example_frames /\
  valid_frames None example_frames /\ no_close (frames_outs None example_frames) /\ good_texts (frames_outs None example_frames) /\
  ascii_only (frames_outs None example_frames) /\
  delivered (tr s) = [OutByte false false 2 72; OutByte false false 2 105; OutEnd false false 2; OutControl 9 [9]; OutByte false true 1 33; OutEnd false true 1] /\
  (exists c, In (EvSend JPong c) (tr s) /\ chain_bytes c = enc_frame false (Frame true 10 [] [9])).
Proof.
  set (fr := fun b0 b1 k0 k1 k2 k3 l => [arrive (b0 :: b1 :: k0 :: k1 :: k2 :: k3 :: l); op1; arrive (b1 :: k0 :: k1 :: k2 :: k3 :: l); op1; arrive (k0 :: k1 :: k2 :: k3 :: l); op1; arrive l]).
  destruct (exec srv undisturbedb start ([readcall] ++ (firstn 1 (fr 0x01 0x82 1 2 3 4 [73; 107])) ++ ops 2 ++ skipn 2 (fr 0x01 0x82 1 2 3 4 [73; 107]) ++ [readcall] ++ ops 2 ++
    fr 0x89 0x81 5 6 7 8 [12] ++ ops 1 ++ [XWritten 0] ++ ops 5 ++ fr 0x80 0x81 1 1 1 1 [32] ++ ops 2)) as [[s k]|] eqn:E; [|vm_compute in E; discriminate E].
  assert (H : reach srv undisturbed (s, k)) by (eapply exec_reach; [exact undisturbedb_ok|apply start_reach|exact E]).
  vm_compute in E. injection E as <- <-. eexists. split; [exact H|]. split; [reflexivity|].
  split. { cbn. repeat split; try reflexivity; repeat constructor. }
  split. { intros x I. cbn in I. decompose [or] I; try discriminate; contradiction. }
  split. { split; [constructor; [|constructor]; exists [72; 105; 33]|exists []; exists []]; split; try reflexivity; repeat constructor; left; reflexivity. }
  split. { repeat constructor. }
  split; [reflexivity|]. eexists. split; [cbn; tauto|reflexivity].
Qed.
