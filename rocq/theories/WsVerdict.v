(** Why a received piece of the stream fails the connection: every error that
    the receiving half raises is justified by what was received. *)
From Verif Require Import Base Utf8Model Utf8Spec Utf8Proofs MaskModel MaskSpec MaskProofs EndianModel EndianSpec EndianProofs
  WsModel WsFrame WsSendProofs WsRecvSpec WsDecode WsTrace WsRecvProofs WsRecvReach.
Open Scope N_scope.

Section V.
Variable C : cfg.
Hypothesis HC : cfg_ok C.
Notation sv := (is_server C).
Notation inv := (inv C).
Notation bare := (bare C).
Notation Rel := (Rel C).

(** The resources of this endpoint are to blame: read buffer smaller than a
    header field or control frame, or the write of a reply was refused. *)
Definition trouble (ch : choice) (err : Z) : Prop :=
  (rbsize C < 125 /\ err = CIO_MESSAGE_TOO_LONG) \/ ch_write ch = WErr err.

(** No error; and unless a close frame was received, no close in sight either. *)
Definition calm (ch : choice) (o : op) : Prop :=
  o = OUser \/ o = OFire \/ exists e, o = OStream SHMessage e /\ ch_write ch = WSync e.
Definition txok (t : tx) : Prop :=
  (forall n c, jwbh (jobs t n) = Some c -> jsh (jobs t n) = SHMessage) /\ ((0 < inflight t)%nat -> bswh t = SHMessage).

Inductive verdict (t0 : tx) (ch : choice) (s' : ws) (os : list op) : Prop :=
| VFine : existsb is_err os = false -> fst (decode sv (inp s')) <> DFailed \/ has (rd s') = true ->
    fst (decode sv (inp s')) = DClosed \/ (txok t0 -> Forall (calm ch) os /\ txok (T s')) -> verdict t0 ch s' os
| VProtocol reason : os = [OHandleError CIO_PROTOCOL_NOT_SUPPORTED CLOSE_PROTOCOL_ERROR reason] ->
    fst (decode sv (inp s')) = DFailed -> verdict t0 ch s' os
| VText reason f len x o : os = [OHandleError CIO_PROTOCOL_NOT_SUPPORTED CLOSE_UNSUPPORTED_DATA reason] -> fst (decode sv (inp s')) <> DFailed /\ fst (decode sv (inp s')) <> DClosed ->
    snd (decode sv (inp s')) = delivered (tr s') ++ map (OutByte false f len) x ++ o ->
    (o = [OutEnd false f len] \/ (o = [] /\ 0 < rem (R s') /\ opcode (R s') = TEXT_FRAME)) ->
    (~ utf8_prefix (current_text (delivered (tr s')) ++ x) \/ (f = true /\ ~ utf8_well_formed (current_text (delivered (tr s')) ++ x))) -> verdict t0 ch s' os
| VClose code msg addr x : os = [OHandleError CIO_PROTOCOL_NOT_SUPPORTED code (bytes_of_string msg)] -> fst (decode sv (inp s')) <> DFailed ->
    snd (decode sv (inp s')) = delivered (tr s') ++ [OutControl 8 x] ->
    check_close_payload C addr x = Ret (CVError code msg) -> verdict t0 ch s' os
| VTrouble err reason : os = [OHandleError err CLOSE_INTERNAL_ERROR reason] -> trouble ch err -> fst (decode sv (inp s')) <> DFailed \/ rbsize C < 125 -> verdict t0 ch s' os.

Lemma calm_fire ch (b : bool) : Forall (calm ch) (if b then [OFire] else []).
Proof. destruct b; constructor; [right; left; reflexivity|constructor]. Qed.

Lemma bs_read_verdict t0 ch s k d cb most n msg s' os : bare s k d [] -> (most = false -> n <= 125) ->
  bs_read C s cb most n msg = (s', os) -> T s = t0 -> verdict t0 ch s' os.
Proof.
  intros B N1 H <-. unfold bs_read in H. destruct most; cbn [negb andb] in H.
  - injection H as <- <-. apply VFine; [destruct (Nat.eqb _ 0); reflexivity|right; reflexivity|]. right. intros TX. split; [|exact TX]. apply calm_fire.
  - destruct (N.ltb_spec (rbsize C) n) as [L|L]; injection H as <- <-.
    + specialize (N1 eq_refl). eapply VTrouble; [reflexivity|left; split; [lia|reflexivity]|right; lia].
    + apply VFine; [destruct (Nat.eqb _ 0); reflexivity|right; reflexivity|]. right. intros TX. split; [|exact TX]. apply calm_fire.
Qed.

Lemma enqueue_verdict ch s n len s' os : enqueue_job C s n len ch (fun _ => []) = Ret (s', os) ->
  inp s' = inp s /\ ((existsb is_err os = false /\ ((jwbh (jobs (T s) n) <> None /\ txok (T s)) -> Forall (calm ch) os /\ txok (T s'))) \/ exists err reason, os = [OHandleError err CLOSE_INTERNAL_ERROR reason] /\ ch_write ch = WErr err).
Proof.
  intros H. pose proof H as H'. apply enqueue_frame in H'. destruct H' as ((_ & _ & _ & _ & _ & _ & _ & _ & c9) & _ & _ & _ & HO). split; [exact c9|]. clear HO c9.
  unfold enqueue_job in H. destruct (first (T s)).
  - destruct (last (T s)) as [l|]; [|discriminate]. injection H as <- <-. left. split; [reflexivity|]. intros [_ [T1 T2]]. split; [constructor|].
    split; cbn [T set_T set_last set_job set_jobs jobs inflight bswh]; [|exact T2].
    intros m c. destruct (jname_dec m l) as [-> | Hm]; [rewrite upd_same; cbn; apply T1|rewrite upd_other by assumption; apply T1].
  - binv H. destruct a as [s1 r]. cbn [fst snd] in H. apply send_frame_frame in E. cbn [T set_T set_last set_first jobs inflight] in E.
    destruct E as (_ & _ & _ & _ & E5 & _ & _ & _ & E9 & E).
    assert (TX : txok (T s) -> jwbh (jobs (T s) n) <> None -> txok (T s1)).
    { intros [T1 T2] J. assert (SH : jsh (jobs (T s) n) = SHMessage) by (destruct (jwbh (jobs (T s) n)) eqn:W; [eapply T1; exact W|congruence]).
      split; [|intros _; rewrite E9; exact SH]. intros m c W. destruct (E5 m) as (_ & _ & _ & _ & X & Y). rewrite X.
      destruct (jwbh (jobs (T s) m)) eqn:W0; [eapply T1; exact W0|]. destruct Y as [_ Y]. rewrite (Y eq_refl) in W. discriminate. }
    destruct r as [|sh e|e]; injection H as <- <-.
    + left. split; [reflexivity|]. intros [J T]. split; [constructor|auto].
    + left. split; [reflexivity|]. intros [J T]. split; [|auto]. constructor; [|constructor]. right; right.
      destruct (ch_write ch) as [|e'|]; destruct E as [E _]; try discriminate E. injection E as -> ->. exists e'.
      destruct T as [T1 _]. destruct (jwbh (jobs (WsModel.T s) n)) eqn:W; [rewrite (T1 _ _ W); split; reflexivity|congruence].
    + right. exists e. eexists. split; [reflexivity|].
      destruct (ch_write ch) as [| |e']; destruct E as [E _]; try discriminate E. injection E as <-. reflexivity.
Qed.

Lemma handle_frame_verdict t0 s k addr data d o ch s' os :
  bytes_ok data -> bare s k d o -> frame_view C s data d o ->
  handle_frame C s addr data ch = Ret (s', os) -> T s = t0 -> verdict t0 ch s' os.
Proof.
  intros BD B V H <-. unfold handle_frame in H. pose proof (b_mask _ _ _ _ _ B) as (M1 & M2 & M3).
  rewrite unmask_run in H by assumption. cbn [obind] in H. set (x := unmask C (R s) data) in *.
  assert (BX : bytes_ok x) by (apply unmask_ok; assumption).
  destruct V as [(m & f & bin & len & HD & L & -> & D) | [(m & op & HD & LE & -> & ->) | (-> & -> & BO)]].
  - fold x in B. assert (ND : d <> DFailed) by (destruct (rem (R s) =? 0); [rewrite D; discriminate|destruct D as (? & ? & -> & _); discriminate]).
    assert (NDC : d <> DClosed) by (destruct (rem (R s) =? 0); [rewrite D; discriminate|destruct D as (? & ? & -> & _); discriminate]).
    destruct HD as (h1 & h2 & h3 & h4). cbn [enc_k] in h2. destruct bin; rewrite h2 in H; cbn [N.eqb BINARY_FRAME TEXT_FRAME Pos.eqb] in H.
    + unfold handle_binary_frame in H. binv H. injection H as <- <-.
      assert (inp a = inp s /\ T a = T s) as [IA TA] by (destruct (rem (R s) =? 0); [injection E as <-; split; reflexivity|binv E; injection E as <-; split; reflexivity]).
      apply VFine; [reflexivity| |].
      * left. cbn [inp log]. rewrite IA. rewrite (b_dec _ _ _ _ _ B). exact ND.
      * right. cbn [T log]. rewrite TA. intros TX. split; [|exact TX]. constructor; [left; reflexivity|constructor].
    + unfold handle_text_frame in H.
      assert (W : 0 < N.of_nat (wordsize C)) by (destruct HC as [-> | ->]; reflexivity).
      destruct (check_utf8_drun _ (N.of_nat addr) (utf8 (R s)) x W M3 BX) as (u & CU & US).
      rewrite CU in H. cbn [obind] in H. rewrite (b_utf _ _ _ _ _ B), <- drun_app in H.
      destruct ((drun 0 (current_text (delivered (tr s)) ++ x) =? CIO_UTF8_REJECT) || (fin (R s) && negb (drun 0 (current_text (delivered (tr s)) ++ x) =? CIO_UTF8_ACCEPT)))%bool eqn:BAD.
      * injection H as <- <-. eapply (VText _ _ _ _ _ f len x); [reflexivity|cbn [inp set_R]; rewrite (b_dec _ _ _ _ _ B); split; [exact ND|exact NDC]| | |].
        -- cbn [inp set_R tr]. rewrite (b_dec _ _ _ _ _ B). reflexivity.
        -- cbn [R set_R rem opcode set_utf8]. destruct (N.eqb_spec (rem (R s)) 0); [left; reflexivity|right; split; [reflexivity|split; [lia|exact h2]]].
        -- cbn [tr set_R]. apply orb_prop in BAD. destruct BAD as [BAD|BAD].
           ++ left. apply N.eqb_eq in BAD. unfold CIO_UTF8_REJECT in BAD. intros X. apply drun_not_reject in X. congruence.
           ++ right. apply andb_prop in BAD. destruct BAD as [F BAD]. split; [congruence|]. intros X. apply drun_accept in X. rewrite X in BAD. discriminate.
      * binv H. injection H as <- <-.
        assert (inp a = inp s /\ T a = T s) as [IA TA].
        { match type of E with (if _ then Ret ?y else _) = _ => assert (IY : inp y = inp s /\ T y = T s) by (destruct (fin (R s)); split; reflexivity) end.
          destruct (_ =? 0) in E; [injection E as <-; exact IY|binv E; injection E as <-; exact IY]. }
        apply VFine; [reflexivity| |].
        -- left. cbn [inp log]. rewrite IA. rewrite (b_dec _ _ _ _ _ B). exact ND.
        -- right. cbn [T log]. rewrite TA. intros TX. split; [|exact TX]. constructor; [left; reflexivity|constructor].
  - destruct HD as (h1 & h2 & h3 & h4). cbn [enc_k kind_ok] in h2, h4. destruct h4 as [_ [-> | [-> | ->]]]; rewrite h2 in H; cbn in H.
    + unfold handle_close_frame in H. binv H. destruct a as [code msg|status len].
      * injection H as <- <-. eapply VClose; [reflexivity| | |exact E]; rewrite (b_dec _ _ _ _ _ B); [discriminate|reflexivity].
      * destruct (selfc _).
        -- injection H as <- <-. apply VFine; [reflexivity| |]; [|left]; [left|]; cbn [inp log set_timer]; rewrite (b_dec _ _ _ _ _ B); [discriminate|reflexivity].
        -- apply enqueue_verdict in H. destruct H as [I [[X _] | (err & reason & -> & W)]].
           ++ apply VFine; [exact X| |]; [|left]; [left|]; rewrite I; cbn [inp log accept_close prepare_close_job set_T]; rewrite (b_dec _ _ _ _ _ B); [discriminate|reflexivity].
           ++ eapply VTrouble; [reflexivity|right; exact W|]. left. rewrite I. cbn [inp log accept_close prepare_close_job set_T]. rewrite (b_dec _ _ _ _ _ B). discriminate.
    + unfold handle_ping_frame in H. destruct (Nat.ltb _ _); [discriminate|]. apply enqueue_verdict in H. destruct H as [I [[X Y] | (err & reason & -> & W)]].
      * apply VFine; [exact X| |].
        -- left. rewrite I. cbn [inp log set_T]. rewrite (b_dec _ _ _ _ _ B). discriminate.
        -- right. cbn [T log set_T set_job set_jobs jobs] in Y. rewrite upd_same in Y. cbn [jwbh] in Y.
           assert (TX : txok (T s) -> txok (set_job (T s) JPong (Job (jnext (jobs (T s) JPong)) (Some (if Nat.ltb 0 (length x) then [(ch_addr ch, x)] else [])) (Some HPong) PONG_FRAME true (jcont (jobs (T s) JPong)) SHMessage))).
           { intros [T1 T2]. split; [|exact T2]. intros m0 c0. cbn [set_job set_jobs jobs]. destruct (jname_dec m0 JPong) as [-> | Hm]; [rewrite upd_same; reflexivity|rewrite upd_other by assumption; apply T1]. }
           intros TX0. apply Y. split; [discriminate|]. apply TX, TX0.
      * eapply VTrouble; [reflexivity|right; exact W|]. left. rewrite I. cbn [inp log set_T]. rewrite (b_dec _ _ _ _ _ B). discriminate.
    + injection H as H. unfold handle_pong_frame in H. apply (bare_control _ _ _ _ _) in B. eapply bs_read_verdict; [exact B| |exact H|reflexivity]. intros _; lia.
  - destruct BO as (o0 & o1 & o2 & o3 & o4 & o5).
    unfold BINARY_FRAME, TEXT_FRAME, PING_FRAME, PONG_FRAME, CLOSE_FRAME in H.
    repeat match type of H with (if ?a =? ?b then _ else _) = _ => destruct (N.eqb_spec a b); [congruence|] end.
    injection H as <- <-. eapply VProtocol; [reflexivity|]. rewrite (b_dec _ _ _ _ _ B). reflexivity.
Qed.

Lemma read_payload_verdict t0 s k m f kd len key d o ch s' os :
  (dec_start m f kd len key = (d, o) /\ hdr (R s) m f kd /\ ctl_len kd len /\ rem (R s) = len /\ rfl (R s) = len /\ len <= SIZE_MAX /\
    length key = 4%nat /\ bytes_ok key /\ (if sv then rmask (R s) = key else key = [0; 0; 0; 0])) \/ (d = DFailed /\ o = [] /\ bad_op (opcode (R s)) /\ rem (R s) <= SIZE_MAX /\ (is_control_frame (opcode (R s)) = true -> rem (R s) <= 125)) ->
  bare s k d o -> read_payload C s ch = Ret (s', os) -> T s = t0 -> verdict t0 ch s' os.
Proof.
  intros V B H <-. unfold read_payload in H. destruct (N.ltb_spec 0 (rem (R s))) as [P|P].
  - assert (RS : rem (R s) <= SIZE_MAX) by (destruct V as [V|V]; decompose [and] V; lia).
    destruct (N.ltb_spec SIZE_MAX (rem (R s))) as [Q|_]; [lia|]. injection H as H.
    assert (LIM : negb (is_control_frame (opcode (R s))) = false -> rem (R s) <= 125).
    { intros X. apply negb_false_iff in X. destruct V as [(_ & HD & CL & E1 & _) | (_ & _ & _ & _ & V)]; [|apply V, X].
      rewrite (control_kind _ _ _ _ HD) in X. destruct kd; [discriminate|]. cbn in CL. lia. }
    destruct V as [(D & HD & CL & E1 & E2 & E3 & E4 & E5 & E6) | (-> & -> & BO & _)].
    + unfold dec_start in D. destruct (N.eqb_spec len 0) as [Z|Z]; [lia|]. injection D as <- <-.
      eapply bs_read_verdict; [exact B|exact LIM|exact H|reflexivity].
    + eapply bs_read_verdict; [exact B|exact LIM|exact H|reflexivity].
  - eapply handle_frame_verdict; [| exact B| |exact H|reflexivity]; [constructor|].
    assert (U : unmask C (R s) [] = []) by (unfold unmask; destruct sv; reflexivity).
    destruct V as [(D & HD & CL & E1 & E2 & E3 & E4 & E5 & E6) | (-> & -> & BO & _)].
    + unfold dec_start in D. destruct (N.eqb_spec len 0) as [Z|Z]; [|lia]. rewrite E1, Z in *. clear Z. destruct kd as [bin|op]; cbn [dec_end] in D; injection D as <- <-.
      * left. exists m, f, bin, 0. rewrite U, E1, E2. repeat match goal with |- _ /\ _ => split end; try reflexivity; apply HD.
      * right; left. exists m, op. destruct HD as (h1 & h2 & h3 & h4 & h5). rewrite U. unfold hdr. cbn [enc_k kind_ok length] in *. subst f.
        repeat match goal with |- _ /\ _ => split end; try assumption; try reflexivity. lia.
    + right; right. auto.
Qed.

Lemma get_mask_or_payload_verdict t0 s k m f kd len d o ch s' os :
  bare s k d o ->
  (dec_len sv m f kd len = (d, o) /\ hdr (R s) m f kd /\ ctl_len kd len /\ rem (R s) = len /\ rfl (R s) = len /\ len <= SIZE_MAX) \/
  (d = DFailed /\ o = [] /\ bad_op (opcode (R s)) /\ rem (R s) <= SIZE_MAX /\ (is_control_frame (opcode (R s)) = true -> rem (R s) <= 125)) ->
  get_mask_or_payload C s ch = Ret (s', os) -> T s = t0 -> verdict t0 ch s' os.
Proof.
  intros B V H <-. unfold get_mask_or_payload in H. unfold dec_len in V. destruct sv eqn:SV.
  - injection H as H. assert (o = []) as -> by (destruct V as [(D & _) | (_ & -> & _)]; [injection D as _ <-; reflexivity|reflexivity]).
    eapply bs_read_verdict; [exact B| |exact H|reflexivity]. intros _; lia.
  - refine (read_payload_verdict _ s k m f kd len [0;0;0;0] d o ch s' os _ B H eq_refl).
    destruct V as [(D & HD & CL & E1 & E2 & E3) | V]; [left|right; tauto].
    rewrite SV. repeat match goal with |- _ /\ _ => split end; try assumption; try reflexivity; try apply HD.
    repeat constructor.
Qed.

Lemma get_header_verdict s k d view n ch s' os : bytes_ok view ->
  bare s k d [] -> Rel (RReq CbHeader false n) (R s) d ->
  get_header C s view (N.to_nat n) = Ret (s', os) -> verdict (T s) ch s' os.
Proof.
  intros BV B (_ & Hn & m & -> & F) H. cbn [rq_n] in Hn. subst n. unfold get_header in H. change (N.to_nat 1) with 1%nat in *.
  destruct view as [|b view]; [discriminate|]. change (Nat.ltb (length (b :: view)) 1) with false in H. cbv iota in H. cbn [firstn] in H.
  inversion BV as [|? ? Hb _]; subst. unfold WS_HEADER_FIN, RSV_MASK in H. rewrite bit_fin, bit_rsv in H by exact Hb.
  assert (B1 : bare (consume s [b]) k (dec_head m b) []). { apply (bare_consume _ s k _ [] [b] _ [] B). rewrite dec_run_1. reflexivity. }
  pose proof (b_mask _ _ _ _ _ B1) as (M1 & M2 & M3).
  assert (B2 : bare (set_R (consume s [b]) (set_fin (R s) (128 <=? b))) k (dec_head m b) []) by (apply bare_set_R; try assumption; reflexivity).
  cbn [R consume] in H. destruct (negb ((b / 16) mod 8 =? 0)) eqn:RS.
  - injection H as <- <-. eapply VProtocol; [reflexivity|]. rewrite (b_dec _ _ _ _ _ B2). unfold dec_head. rewrite RS. reflexivity.
  - pose proof RS as RS'. apply negb_false_iff in RS. cbn [R set_R] in H. destruct (handle_fin (set_fin (R s) (128 <=? b)) b) as [msg|r'] eqn:HF.
    + injection H as <- <-. eapply VProtocol; [reflexivity|]. rewrite (b_dec _ _ _ _ _ B2). cbn [fst].
      unfold handle_fin in HF. change OPCODE_MASK with 15 in HF. rewrite land15 in HF. cbn [fin set_fin frag] in HF. rewrite F in HF.
      unfold dec_head. rewrite RS. cbn [negb].
      assert (L16 : b mod 16 < 16) by (apply N.mod_lt; discriminate).
      set (op := b mod 16) in *. clearbody op.
      assert (CASES : In op (map N.of_nat (seq 0 16))).
      { apply in_map_iff. exists (N.to_nat op). split; [apply N2Nat.id|]. apply in_seq. lia. }
      cbn [map seq N.of_nat] in CASES. cbn [In] in CASES.
      destruct (128 <=? b); destruct m as [[|]|]; cbn [enc_m] in *;
        repeat (destruct CASES as [<- | CASES]; [cbn in HF; first [discriminate HF | reflexivity]|]); destruct CASES.
    + destruct (handle_fin_rel (set_fin (R s) (128 <=? b)) m b r' Hb F eq_refl RS HF) as (E1 & E2 & V). injection H as H.
      eapply bs_read_verdict; [| |exact H|reflexivity].
      * apply (bare_set_R _ _ k (dec_head m b) [] r'); [exact B2|rewrite E1; exact M1|rewrite E1; exact M2|exact E2].
      * intros _; lia.
Qed.

Lemma get_first_length_verdict s k d view n ch s' os : bytes_ok view ->
  bare s k d [] -> Rel (RReq CbFirstLen false n) (R s) d ->
  get_first_length C s view (N.to_nat n) ch = Ret (s', os) -> verdict (T s) ch s' os.
Proof.
  intros BV B (_ & Hn & RL) H. cbn [rq_n] in Hn. subst n. unfold get_first_length in H. change (N.to_nat 1) with 1%nat in *.
  destruct view as [|b view]; [discriminate|]. change (Nat.ltb (length (b :: view)) 1) with false in H. cbv iota in H. cbn [firstn] in H.
  inversion BV as [|? ? Hb _]; subst. unfold WS_MASK_SET, SMALL_FRAME_SIZE in H. rewrite bit_fin, land127 in H by exact Hb.
  destruct (dec sv d b) as [d' o'] eqn:D.
  assert (B1 : bare (consume s [b]) k d' o'). { apply (bare_consume _ s k d [] [b] d' o' B). rewrite dec_run_1. exact D. }
  destruct (negb (Bool.eqb (128 <=? b) sv)) eqn:MS.
  - injection H as <- <-. eapply VProtocol; [reflexivity|]. rewrite (b_dec _ _ _ _ _ B1). cbn [fst].
    destruct RL as [(m & f & kd & -> & HD) | (-> & BO)]; cbn [dec] in D; [rewrite MS in D|]; injection D as <- <-; reflexivity.
  - pose proof (b_mask _ _ _ _ _ B1) as (M1 & M2 & M3).
    destruct (b mod 128 <=? 125) eqn:SM.
    + apply N.leb_le in SM. assert (SZ : b mod 128 <= SIZE_MAX) by (unfold SIZE_MAX; lia).
      destruct RL as [(m & f & kd & -> & HD) | (-> & BO)].
      * cbn [dec] in D. rewrite MS in D. apply N.leb_le in SM. rewrite SM in D. apply N.leb_le in SM.
        refine (get_mask_or_payload_verdict _ _ k m f kd (b mod 128) d' o' ch s' os _ _ H eq_refl); [apply bare_set_R; try assumption; reflexivity|].
        left. repeat match goal with |- _ /\ _ => split end; try assumption; try reflexivity; try apply HD. destruct kd; [exact I|exact SM].
      * cbn [dec] in D. injection D as <- <-.
        refine (get_mask_or_payload_verdict _ _ k None false (KData true) 0 _ _ ch s' os _ _ H eq_refl); [apply bare_set_R; [exact B1| | |]; try assumption; reflexivity|].
        right. cbn. auto 10.
    + destruct RL as [(m & f & kd & -> & HD) | (-> & BO)].
      * cbn [dec] in D. rewrite MS, SM in D. cbn [R consume] in H. rewrite (control_kind _ _ _ _ HD) in H.
        destruct kd as [bin|op].
        -- assert (o' = []) as -> by (injection D as _ <-; reflexivity).
           destruct (_ =? _) in H; injection H as H; (eapply bs_read_verdict; [exact B1| |exact H|reflexivity]); intros _; lia.
        -- injection H as <- <-. injection D as <- <-. eapply VProtocol; [reflexivity|]. rewrite (b_dec _ _ _ _ _ B1). reflexivity.
      * cbn [dec] in D. injection D as <- <-. cbn [R consume] in H.
        destruct (is_control_frame _); [injection H as <- <-; eapply VProtocol; [reflexivity|]; rewrite (b_dec _ _ _ _ _ B1); reflexivity|].
        destruct (_ =? _); injection H as H; (eapply bs_read_verdict; [exact B1| |exact H|reflexivity]); intros _; lia.
Qed.

Lemma get_length_verdict w cb s k d view n ch s' os : bytes_ok view ->
  (w = 2 /\ cb = CbLen16)%nat \/ (w = 8 /\ cb = CbLen64)%nat ->
  bare s k d [] -> Rel (RReq cb false n) (R s) d ->
  get_length C w s view (N.to_nat n) ch = Ret (s', os) -> verdict (T s) ch s' os.
Proof.
  intros BV W B RL H. assert (RL' : n = N.of_nat w /\ (w <> 0)%nat /\ 256 ^ N.of_nat w <= SIZE_MAX + 1 /\
    ((exists m f bin, d = DExt m f (KData bin) w [] /\ hdr (R s) m f (KData bin)) \/ (d = DFailed /\ bad_op (opcode (R s)) /\ is_control_frame (opcode (R s)) = false))).
  { destruct W as [[-> ->] | [-> ->]]; destruct RL as (_ & Hn & RL); cbn [rq_n] in Hn; subst n; (split; [reflexivity|]); (split; [discriminate|]); (split; [vm_compute; discriminate|exact RL]). }
  destruct RL' as (-> & W0 & WB & RL'). clear RL. rename RL' into RL. rewrite Nat2N.id in H. unfold get_length in H. rewrite Nat.ltb_irrefl in H. cbn [orb] in H.
  destruct (Nat.ltb_spec (length view) w) as [L|L]; [discriminate|].
  set (l := firstn w view) in *. assert (LL : length l = w) by (apply firstn_length_le; exact L).
  assert (LO : bytes_ok l) by (apply bytes_ok_firstn; exact BV).
  rewrite Nat.sub_diag in H. cbn [repeat] in H. rewrite app_nil_r in H. rewrite betoh_load in H by assumption.
  assert (BD : be_value l <= SIZE_MAX). { pose proof (be_value_bound l LO) as X. rewrite LL in X. lia. }
  destruct (N.ltb_spec SIZE_MAX (be_value l)) as [Q|_]; [lia|].
  destruct RL as [(m & f & bin & -> & HD) | (-> & BO & BC)].
  - destruct (dec_len sv m f (KData bin) (be_value l)) as [d' o'] eqn:D.
    assert (B2 : bare (consume s l) k d' o').
    { apply (bare_consume _ s k _ [] l d' o' B). rewrite dec_run_ext; [exact D| |exact LL]. intros E. rewrite E in LL. cbn in LL. lia. }
    pose proof (b_mask _ _ _ _ _ B2) as (M1 & M2 & M3).
    refine (get_mask_or_payload_verdict _ _ k m f (KData bin) (be_value l) d' o' ch s' os _ _ H eq_refl).
    + apply bare_set_R; try assumption. reflexivity.
    + left. repeat match goal with |- _ /\ _ => split end; try assumption; try reflexivity; try apply HD.
  - assert (B2 : bare (consume s l) k DFailed []). { apply (bare_consume _ s k _ [] l DFailed [] B). apply dec_run_failed. }
    pose proof (b_mask _ _ _ _ _ B2) as (M1 & M2 & M3).
    refine (get_mask_or_payload_verdict _ _ k None false (KData true) 0 _ _ ch s' os _ _ H eq_refl).
    + apply bare_set_R; [exact B2| | |]; try assumption. reflexivity.
    + right. cbn. rewrite BC. split; [reflexivity|]. split; [reflexivity|]. split; [exact BO|]. split; [exact BD|discriminate].
Qed.

Lemma get_mask_verdict s k d view n ch s' os : bytes_ok view ->
  bare s k d [] -> Rel (RReq CbMask false n) (R s) d ->
  get_mask C s view (N.to_nat n) ch = Ret (s', os) -> verdict (T s) ch s' os.
Proof.
  intros BV B (_ & Hn & SV & RL) H. cbn [rq_n] in Hn. subst n. unfold get_mask in H. change (N.to_nat 4) with 4%nat in *.
  change (Nat.ltb 4 4) with false in H. cbn [orb] in H.
  destruct (Nat.ltb_spec (length view) 4) as [L|L]; [discriminate|].
  set (key := firstn 4 view) in *. assert (LK : length key = 4%nat) by (apply firstn_length_le; exact L).
  assert (KO : bytes_ok key) by (apply bytes_ok_firstn; exact BV).
  pose proof (b_mask _ _ _ _ _ B) as (M1 & M2 & M3).
  assert (EM : key ++ skipn 4 (rmask (R s)) = key). { rewrite skipn_all2 by lia. apply app_nil_r. }
  rewrite EM in H. set (s1 := set_R s (set_rmask (R s) key)) in *.
  assert (B1 : bare s1 k d []) by (apply bare_set_R; [exact B|exact LK|exact KO|reflexivity]).
  destruct RL as [(m & f & kd & len & -> & HD & CL & E1 & E2 & E3) | (-> & BO & BR & BC)].
  - destruct (dec_start m f kd len key) as [d' o'] eqn:D.
    assert (B2 : bare (consume s1 key) k d' o'). { apply (bare_consume _ s1 k _ [] key d' o' B1). rewrite dec_run_key by exact LK. exact D. }
    refine (read_payload_verdict _ _ k m f kd len key d' o' ch s' os _ B2 H eq_refl). left.
    repeat match goal with |- _ /\ _ => split end; try assumption; try apply HD. rewrite SV. reflexivity.
  - assert (B2 : bare (consume s1 key) k DFailed []). { apply (bare_consume _ s1 k _ [] key DFailed [] B1). apply dec_run_failed. }
    refine (read_payload_verdict _ _ k None false (KData true) 0 [] _ _ ch s' os _ B2 H eq_refl). right. auto.
Qed.

Theorem fire_verdict s k rq addr view ch s' os : inv s k -> rd s = Some rq -> fire_ok rq (FData addr view) ->
  fire C s rq (FData addr view) ch = Ret (s', os) -> exists os', os = os' ++ [OBsReturn] /\ verdict (T s) ch s' os'.
Proof.
  intros I RD FO H. unfold fire in H. binv H. destruct a as [s2 os2]. injection H as <- <-. cbn [fst snd] in *.
  exists os2. split; [reflexivity|].
  destruct (fire_bare C s k rq I RD) as [RL B]. specialize (B (S (cbrun s))). destruct FO as [BV FO]. destruct rq as [cb most n].
  change (verdict (T (set_cbrun (set_rd s None) (S (cbrun s)))) ch s2 os2). cbn [rq_cb rq_most rq_n] in *.
  destruct cb; pose proof RL as RL'; cbn [Rel WsRecvProofs.Rel rq_cb rq_most rq_n] in RL'.
  - destruct RL' as (-> & _). eapply get_header_verdict; [exact BV|exact B|exact RL|exact E].
  - destruct RL' as (-> & _). eapply get_first_length_verdict; [exact BV|exact B|exact RL|exact E].
  - destruct RL' as (-> & _). eapply (get_length_verdict 2); [exact BV|left; split; reflexivity|exact B|exact RL|exact E].
  - destruct RL' as (-> & _). eapply (get_length_verdict 8); [exact BV|right; split; reflexivity|exact B|exact RL|exact E].
  - destruct RL' as (-> & _). eapply get_mask_verdict; [exact BV|exact B|exact RL|exact E].
  - assert (X : exists s1 data d' o', bytes_ok data /\ bare s1 k d' o' /\ frame_view C s1 data d' o' /\ handle_frame C s1 addr data ch = Ret (s2, os2) /\ T s1 = T (set_cbrun (set_rd s None) (S (cbrun s)))).
    { eapply get_payload_view; [exact BV|exact B|exact RL| | |exact E].
      - destruct most; [exact FO|]. intros ->. destruct RL' as (Hn & P & _). cbn in FO. lia.
      - intros ->. exact FO. }
    destruct X as (s1 & data & d' & o' & X1 & X2 & X3 & X4 & X0). eapply handle_frame_verdict; [eassumption..|exact X0].
Qed.
End V.
