(** Receiving: header and payload callbacks, then all reachable states. *)
From Verif Require Import Base Utf8Model Utf8Spec Utf8Proofs MaskModel MaskSpec MaskProofs EndianModel EndianSpec EndianProofs
  WsModel WsFrame WsSendProofs WsRecvSpec WsDecode WsTrace WsHistory WsRecvProofs.
Open Scope N_scope.

(** ** Bit tests on a byte *)
Lemma bit_fin b : byte_ok b -> N.eqb (N.land b 128) 128 = (128 <=? b).
Proof. intros H. apply Bool.eqb_prop. apply (byte_sweep (fun b => Bool.eqb (N.eqb (N.land b 128) 128) (128 <=? b))); [vm_compute; reflexivity|exact H]. Qed.
Lemma bit_rsv b : byte_ok b -> N.eqb (N.land b 112) 0 = ((b / 16) mod 8 =? 0).
Proof. intros H. apply Bool.eqb_prop. apply (byte_sweep (fun b => Bool.eqb (N.eqb (N.land b 112) 0) ((b / 16) mod 8 =? 0))); [vm_compute; reflexivity|exact H]. Qed.
Lemma land15 b : N.land b 15 = b mod 16.
Proof. change 15 with (N.ones 4). rewrite N.land_ones. reflexivity. Qed.
Lemma land127 b : N.land b 127 = b mod 128.
Proof. change 127 with (N.ones 7). rewrite N.land_ones. reflexivity. Qed.

Lemma rfc_mask_zero l : forall i, rfc_mask_from i [0; 0; 0; 0] l = l.
Proof.
  induction l as [|b r IH]; intros i; [reflexivity|]. cbn [rfc_mask_from]. rewrite IH. f_equal.
  assert (H : (i mod 4 < 4)%nat) by (apply Nat.mod_upper_bound; discriminate).
  destruct (i mod 4)%nat as [|[|[|[|k]]]]; try (exfalso; lia); apply N.lxor_0_r.
Qed.

Lemma be_value_bound l : bytes_ok l -> be_value l < 256 ^ N.of_nat (length l).
Proof.
  intros H. induction l as [|b l IH] using rev_ind; [cbn; lia|].
  apply bytes_ok_app in H. destruct H as [H1 H2]. inversion H2 as [|? ? Hb _]; subst. unfold byte_ok in Hb.
  rewrite be_value_app, app_length. cbn [length]. rewrite Nat2N.inj_add, N.pow_add_r. cbn. specialize (IH H1). lia.
Qed.

Section P.
Variable C : cfg.
Hypothesis HC : cfg_ok C.
Notation sv := (is_server C).
Notation inv := (inv C).
Notation bare := (bare C).
Notation Rel := (Rel C).

Lemma bare_consume s k d o bs d' o' : bare s k d o -> dec_run sv d bs = (d', o') -> bare (consume s bs) k d' (o ++ o').
Proof.
  intros [b1 b2 b3 b4 b5 b6 b7] E. split; cbn [R consume rd tr T inp]; try assumption.
  unfold decode in *. rewrite dec_run_app, b5. cbn [fst snd]. rewrite E. cbn [fst snd]. rewrite app_assoc. reflexivity.
Qed.
Lemma bare_set_R s k d o r : bare s k d o -> length (rmask r) = 4%nat -> bytes_ok (rmask r) -> utf8 r = utf8 (R s) -> bare (set_R s r) k d o.
Proof.
  intros [b1 b2 b3 b4 b5 b6 b7] L K U. split; cbn [R set_R rd tr T inp]; try assumption; rewrite ?U; tauto.
Qed.

Lemma control_kind m f kd r : hdr r m f kd -> is_control_frame (opcode r) = match kd with KData _ => false | KControl _ => true end.
Proof.
  intros (_ & -> & _ & H). destruct kd as [[|]|op]; try reflexivity. destruct H as [_ [-> | [-> | ->]]]; reflexivity.
Qed.

Lemma read_payload_inv s k m f kd len key d o ch s' ops :
  (dec_start m f kd len key = (d, o) /\ hdr (R s) m f kd /\ ctl_len kd len /\ rem (R s) = len /\ rfl (R s) = len /\ len <= SIZE_MAX /\
    length key = 4%nat /\ bytes_ok key /\ (if sv then rmask (R s) = key else key = [0; 0; 0; 0])) \/ (d = DFailed /\ o = [] /\ bad_op (opcode (R s))) ->
  bare s k d o -> read_payload C s ch = Ret (s', ops) -> inv s' (ops ++ k).
Proof.
  intros V B H.
  unfold read_payload in H. destruct (N.ltb_spec 0 (rem (R s))) as [P|P].
  - destruct (N.ltb_spec SIZE_MAX (rem (R s))) as [Q|Q].
    + injection H as <- <-. eapply bare_inv; [exact B|reflexivity|right; reflexivity].
    + injection H as H. destruct V as [(D & HD & CL & E1 & E2 & E3 & E4 & E5 & E6) | (-> & -> & BO)].
      * unfold dec_start in D. destruct (N.eqb_spec len 0) as [Z|Z]; [lia|]. injection D as <- <-.
        eapply bare_read; [exact B| |exact H]. cbn [Rel WsRecvProofs.Rel rq_cb rq_n rq_most]. split; [reflexivity|]. split; [exact P|].
        left. exists m, f, kd, len, key, []. rewrite (control_kind _ _ _ _ HD). cbn [length]. rewrite N.add_0_r.
        repeat match goal with |- _ /\ _ => split end; try assumption; try reflexivity.
        -- destruct sv; [|exact E6]. rewrite rot_0 by assumption. exact E6.
        -- destruct kd; [reflexivity|split; reflexivity].
      * eapply bare_read; [exact B| |exact H]. cbn [Rel WsRecvProofs.Rel rq_cb rq_n rq_most]. split; [reflexivity|]. split; [exact P|]. right. auto.
  - eapply handle_frame_inv; [exact HC| |exact B| |exact H]; [constructor|].
    assert (U : unmask C (R s) [] = []) by (unfold unmask; destruct sv; reflexivity).
    destruct V as [(D & HD & CL & E1 & E2 & E3 & E4 & E5 & E6) | (-> & -> & BO)].
    + unfold dec_start in D. destruct (N.eqb_spec len 0) as [Z|Z]; [|lia]. rewrite E1, Z in *. clear Z. destruct kd as [bin|op]; cbn [dec_end] in D; injection D as <- <-.
      * left. exists m, f, bin, 0. rewrite U, E1, E2. repeat match goal with |- _ /\ _ => split end; try reflexivity; apply HD.
      * right; left. exists m, op. destruct HD as (h1 & h2 & h3 & h4 & h5). rewrite U. unfold hdr. cbn [enc_k kind_ok length] in *. subst f.
        repeat match goal with |- _ /\ _ => split end; try assumption; try reflexivity. lia.
    + right; right. auto.
Qed.

Lemma get_mask_or_payload_inv s k m f kd len d o ch s' ops :
  bare s k d o ->
  (dec_len sv m f kd len = (d, o) /\ hdr (R s) m f kd /\ ctl_len kd len /\ rem (R s) = len /\ rfl (R s) = len /\ len <= SIZE_MAX) \/
  (d = DFailed /\ o = [] /\ bad_op (opcode (R s)) /\ rem (R s) <= SIZE_MAX /\ (is_control_frame (opcode (R s)) = true -> rem (R s) <= 125)) ->
  get_mask_or_payload C s ch = Ret (s', ops) -> inv s' (ops ++ k).
Proof.
  intros B V H. unfold get_mask_or_payload in H. unfold dec_len in V. destruct sv eqn:SV.
  - injection H as H. destruct V as [(D & HD & CL & E1 & E2 & E3) | (-> & -> & BO & BR)].
    + injection D as <- <-. eapply bare_read; [exact B| |exact H]. cbn [Rel WsRecvProofs.Rel rq_cb rq_n rq_most].
      repeat match goal with |- _ /\ _ => split end; try reflexivity; [exact SV|].
      left. exists m, f, kd, len. auto 10.
    + eapply bare_read; [exact B| |exact H]. cbn [Rel WsRecvProofs.Rel rq_cb rq_n rq_most]. repeat match goal with |- _ /\ _ => split end; try reflexivity; [exact SV|]. right. auto.
  - refine (read_payload_inv s k m f kd len [0;0;0;0] d o ch s' ops _ B H).
    destruct V as [(D & HD & CL & E1 & E2 & E3) | V]; [left|right; tauto].
    rewrite SV. repeat match goal with |- _ /\ _ => split end; try assumption; try reflexivity; try apply HD.
    repeat constructor.
Qed.

Lemma get_mask_inv s k d view n ch s' ops : bytes_ok view ->
  bare s k d [] -> Rel (RReq CbMask false n) (R s) d ->
  get_mask C s view (N.to_nat n) ch = Ret (s', ops) -> inv s' (ops ++ k).
Proof.
  intros BV B (_ & Hn & SV & RL) H. cbn [rq_n] in Hn. subst n. unfold get_mask in H. change (N.to_nat 4) with 4%nat in *.
  change (Nat.ltb 4 4) with false in H. cbn [orb] in H.
  destruct (Nat.ltb_spec (length view) 4) as [L|L]; [discriminate|].
  set (key := firstn 4 view) in *. assert (LK : length key = 4%nat) by (apply firstn_length_le; exact L).
  assert (KO : bytes_ok key) by (apply bytes_ok_firstn; exact BV).
  pose proof (b_mask _ _ _ _ _ B) as (M1 & M2 & M3).
  assert (EM : key ++ skipn 4 (rmask (R s)) = key). { rewrite skipn_all2 by lia. apply app_nil_r. }
  rewrite EM in H. set (s1 := set_R s (set_rmask (R s) key)) in *.
  assert (B1 : bare s1 k d []) by (apply bare_set_R; [exact B|exact LK|exact KO|reflexivity]).
  destruct RL as [(m & f & kd & len & -> & HD & CL & E1 & E2 & E3) | (-> & BO & BR)].
  - destruct (dec_start m f kd len key) as [d' o'] eqn:D.
    assert (B2 : bare (consume s1 key) k d' o'). { apply (bare_consume s1 k _ [] key d' o' B1). rewrite dec_run_key by exact LK. exact D. }
    refine (read_payload_inv _ k m f kd len key d' o' ch s' ops _ B2 H). left.
    repeat match goal with |- _ /\ _ => split end; try assumption; try apply HD. rewrite SV. reflexivity.
  - assert (B2 : bare (consume s1 key) k DFailed []). { apply (bare_consume s1 k _ [] key DFailed [] B1). apply dec_run_failed. }
    refine (read_payload_inv _ k None false (KData true) 0 [] _ _ ch s' ops _ B2 H). right. auto.
Qed.

Lemma get_length_inv w cb s k d view n ch s' ops : bytes_ok view ->
  (w = 2 /\ cb = CbLen16)%nat \/ (w = 8 /\ cb = CbLen64)%nat ->
  bare s k d [] -> Rel (RReq cb false n) (R s) d ->
  get_length C w s view (N.to_nat n) ch = Ret (s', ops) -> inv s' (ops ++ k).
Proof.
  intros BV W B RL H. assert (RL' : n = N.of_nat w /\ (w <> 0)%nat /\ 256 ^ N.of_nat w <= SIZE_MAX + 1 /\
    ((exists m f bin, d = DExt m f (KData bin) w [] /\ hdr (R s) m f (KData bin)) \/ (d = DFailed /\ bad_op (opcode (R s)) /\ is_control_frame (opcode (R s)) = false))).
  { destruct W as [[-> ->] | [-> ->]]; destruct RL as (_ & Hn & RL); cbn [rq_n] in Hn; subst n; (split; [reflexivity|]); (split; [discriminate|]); (split; [vm_compute; discriminate|exact RL]). }
  destruct RL' as (-> & W0 & WB & RL'). clear RL. rename RL' into RL. rewrite Nat2N.id in H. unfold get_length in H. rewrite Nat.ltb_irrefl in H. cbn [orb] in H.
  destruct (Nat.ltb_spec (length view) w) as [L|L]; [discriminate|].
  set (l := firstn w view) in *. assert (LL : length l = w) by (apply firstn_length_le; exact L).
  assert (LO : bytes_ok l) by (apply bytes_ok_firstn; exact BV).
  rewrite Nat.sub_diag in H. cbn [repeat] in H. rewrite app_nil_r in H. rewrite betoh_load in H by assumption.
  assert (BD : be_value l <= SIZE_MAX). { pose proof (be_value_bound l LO) as X. rewrite LL in X. lia. }
  destruct (N.ltb_spec SIZE_MAX (be_value l)) as [Q|_]; [lia|].
  destruct RL as [(m & f & bin & -> & HD) | (-> & BO & BC)].
  - destruct (dec_len sv m f (KData bin) (be_value l)) as [d' o'] eqn:D.
    assert (B2 : bare (consume s l) k d' o').
    { apply (bare_consume s k _ [] l d' o' B). rewrite dec_run_ext; [exact D| |exact LL]. intros E. rewrite E in LL. cbn in LL. lia. }
    pose proof (b_mask _ _ _ _ _ B2) as (M1 & M2 & M3).
    refine (get_mask_or_payload_inv _ k m f (KData bin) (be_value l) d' o' ch s' ops _ _ H).
    + apply bare_set_R; try assumption. reflexivity.
    + left. repeat match goal with |- _ /\ _ => split end; try assumption; try reflexivity; try apply HD.
  - assert (B2 : bare (consume s l) k DFailed []). { apply (bare_consume s k _ [] l DFailed [] B). apply dec_run_failed. }
    pose proof (b_mask _ _ _ _ _ B2) as (M1 & M2 & M3).
    refine (get_mask_or_payload_inv _ k None false (KData true) 0 _ _ ch s' ops _ _ H).
    + apply bare_set_R; [exact B2| | |]; try assumption. reflexivity.
    + right. cbn. rewrite BC. split; [reflexivity|]. split; [reflexivity|]. split; [exact BO|]. split; [exact BD|discriminate].
Qed.

Lemma get_first_length_inv s k d view n ch s' ops : bytes_ok view ->
  bare s k d [] -> Rel (RReq CbFirstLen false n) (R s) d ->
  get_first_length C s view (N.to_nat n) ch = Ret (s', ops) -> inv s' (ops ++ k).
Proof.
  intros BV B (_ & Hn & RL) H. cbn [rq_n] in Hn. subst n. unfold get_first_length in H. change (N.to_nat 1) with 1%nat in *.
  destruct view as [|b view]; [discriminate|]. change (Nat.ltb (length (b :: view)) 1) with false in H. cbv iota in H. cbn [firstn] in H.
  inversion BV as [|? ? Hb _]; subst. unfold WS_MASK_SET, SMALL_FRAME_SIZE in H. rewrite bit_fin, land127 in H by exact Hb.
  destruct (dec sv d b) as [d' o'] eqn:D.
  assert (B1 : bare (consume s [b]) k d' o'). { apply (bare_consume s k d [] [b] d' o' B). rewrite dec_run_1. exact D. }
  assert (O' : o' = [] \/ exists m f kd, d = DLen m f kd /\ dec_len sv m f kd (b mod 128) = (d', o') /\ (b mod 128 <=? 125) = true).
  { destruct RL as [(m & f & kd & -> & HD) | (-> & _)]; cbn [dec] in D; [|injection D as <- <-; left; reflexivity].
    destruct (negb _); [injection D as <- <-; left; reflexivity|]. destruct (b mod 128 <=? 125) eqn:E; [right; eauto 10|].
    destruct kd; injection D as <- <-; left; reflexivity. }
  destruct (negb (Bool.eqb (128 <=? b) sv)) eqn:MS.
  - injection H as <- <-. eapply bare_inv; [exact B1|reflexivity|right; reflexivity].
  - pose proof (b_mask _ _ _ _ _ B1) as (M1 & M2 & M3).
    destruct (b mod 128 <=? 125) eqn:SM.
    + destruct RL as [(m & f & kd & -> & HD) | (-> & BO)].
      * cbn [dec] in D. rewrite MS, SM in D.
        refine (get_mask_or_payload_inv _ k m f kd (b mod 128) d' o' ch s' ops _ _ H); [apply bare_set_R; try assumption; reflexivity|].
        left. apply N.leb_le in SM. assert (b mod 128 <= SIZE_MAX) by (unfold SIZE_MAX; lia).
        repeat match goal with |- _ /\ _ => split end; try assumption; try reflexivity; try apply HD. destruct kd; [exact I|exact SM].
      * cbn [dec] in D. injection D as <- <-.
        refine (get_mask_or_payload_inv _ k None false (KData true) 0 _ _ ch s' ops _ _ H); [apply bare_set_R; [exact B1| | |]; try assumption; reflexivity|].
        right. cbn. apply N.leb_le in SM. assert (b mod 128 <= SIZE_MAX) by (unfold SIZE_MAX; lia). auto 10.
    + destruct O' as [-> | (? & ? & ? & _ & _ & X)]; [|congruence].
      destruct RL as [(m & f & kd & -> & HD) | (-> & BO)].
      * cbn [dec] in D. rewrite MS, SM in D. cbn [R consume] in H. rewrite (control_kind _ _ _ _ HD) in H.
        destruct kd as [bin|op]; [|injection H as <- <-; eapply bare_inv; [exact B1|reflexivity|right; reflexivity]].
        change (125 + 1) with 126 in H. destruct (b mod 128 =? 126); injection D as <-; injection H as H;
          (eapply bare_read; [exact B1| |exact H]); cbn [Rel WsRecvProofs.Rel rq_cb rq_n rq_most]; (repeat match goal with |- _ /\ _ => split end; try reflexivity);
          left; exists m, f, bin; split; try reflexivity; exact HD.
      * cbn [dec] in D. injection D as <-. cbn [R consume] in H.
        destruct (is_control_frame _) eqn:IC; [injection H as <- <-; eapply bare_inv; [exact B1|reflexivity|right; reflexivity]|].
        destruct (_ =? _); injection H as H; (eapply bare_read; [exact B1| |exact H]); cbn [Rel WsRecvProofs.Rel rq_cb rq_n rq_most];
          (repeat match goal with |- _ /\ _ => split end; try reflexivity); right; auto.
Qed.

Lemma handle_fin_rel r m b r' : byte_ok b -> frag r = enc_m m -> fin r = (128 <=? b) -> ((b / 16) mod 8 =? 0) = true ->
  handle_fin r b = inr r' ->
  rmask r' = rmask r /\ utf8 r' = utf8 r /\
  ((exists m' f k, dec_head m b = DLen m' f k /\ hdr r' m' f k) \/ (dec_head m b = DFailed /\ bad_op (opcode r'))).
Proof.
  intros BO F FN RS H. unfold handle_fin in H. change OPCODE_MASK with 15 in H. rewrite land15 in H.
  unfold dec_head. rewrite RS. cbn [negb]. rewrite <- FN.
  assert (L16 : b mod 16 < 16) by (apply N.mod_lt; discriminate).
  assert (E2 : N.land (b mod 16) 15 = b mod 16) by (rewrite land15; apply N.mod_small; exact L16). rewrite E2 in H.
  set (op := b mod 16) in *. clearbody op.
  assert (CASES : In op (map N.of_nat (seq 0 16))).
  { apply in_map_iff. exists (N.to_nat op). split; [apply N2Nat.id|]. apply in_seq. lia. }
  cbn [map seq N.of_nat] in CASES. rewrite F in H. unfold hdr, bad_op.
  destruct (fin r) eqn:FR; destruct m as [[|]|]; cbn [enc_m] in *; cbn [In] in CASES;
    repeat (destruct CASES as [<- | CASES]; [cbn in H; first [discriminate H | (injection H as <-; cbn; rewrite ?FR;
      (split; [reflexivity|]); (split; [reflexivity|]);
      first [ right; repeat split; congruence || lia
            | left; do 3 eexists; split; [reflexivity|]; cbn; repeat split; try reflexivity; auto ]) ]|]); destruct CASES.
Qed.

Lemma get_header_inv s k d view n s' ops : bytes_ok view ->
  bare s k d [] -> Rel (RReq CbHeader false n) (R s) d ->
  get_header C s view (N.to_nat n) = Ret (s', ops) -> inv s' (ops ++ k).
Proof.
  intros BV B (_ & Hn & m & -> & F) H. cbn [rq_n] in Hn. subst n. unfold get_header in H. change (N.to_nat 1) with 1%nat in *.
  destruct view as [|b view]; [discriminate|]. change (Nat.ltb (length (b :: view)) 1) with false in H. cbv iota in H. cbn [firstn] in H.
  inversion BV as [|? ? Hb _]; subst. unfold WS_HEADER_FIN, RSV_MASK in H. rewrite bit_fin, bit_rsv in H by exact Hb.
  assert (B1 : bare (consume s [b]) k (dec_head m b) []). { apply (bare_consume s k _ [] [b] _ [] B). rewrite dec_run_1. reflexivity. }
  pose proof (b_mask _ _ _ _ _ B1) as (M1 & M2 & M3).
  assert (B2 : bare (set_R (consume s [b]) (set_fin (R s) (128 <=? b))) k (dec_head m b) []) by (apply bare_set_R; try assumption; reflexivity).
  cbn [R consume] in H. destruct (negb ((b / 16) mod 8 =? 0)) eqn:RS.
  - injection H as <- <-. eapply bare_inv; [exact B2|reflexivity|right; reflexivity].
  - apply negb_false_iff in RS. cbn [R set_R] in H. destruct (handle_fin (set_fin (R s) (128 <=? b)) b) as [msg|r'] eqn:HF.
    + injection H as <- <-. eapply bare_inv; [exact B2|reflexivity|right; reflexivity].
    + destruct (handle_fin_rel (set_fin (R s) (128 <=? b)) m b r' Hb F eq_refl RS HF) as (E1 & E2 & V). injection H as H.
      eapply bare_read; [|  |exact H].
      * apply (bare_set_R _ k (dec_head m b) [] r'); [exact B2|rewrite E1; exact M1|rewrite E1; exact M2|exact E2].
      * cbn [Rel WsRecvProofs.Rel rq_cb rq_n rq_most]. split; [reflexivity|]. split; [reflexivity|]. exact V.
Qed.

Lemma get_payload_view s k d addr view most n ch s' ops : bytes_ok view ->
  bare s k d [] -> Rel (RReq CbPayload most n) (R s) d -> view <> [] ->
  (most = false -> n <= N.of_nat (length view)) ->
  get_payload C s addr view (if most then N.to_nat (N.min (N.of_nat (length view)) n) else N.to_nat n) ch = Ret (s', ops) ->
  exists s1 data d' o', bytes_ok data /\ bare s1 k d' o' /\ frame_view C s1 data d' o' /\ handle_frame C s1 addr data ch = Ret (s', ops) /\ T s1 = T s.
Proof.
  intros BV B (Hn & P & RL) NE LV H. cbn [rq_n rq_most] in *. unfold get_payload in H.
  pose proof (b_mask _ _ _ _ _ B) as (M1 & M2 & M3).
  assert (LP : (0 < length view)%nat) by (destruct view; [congruence|cbn; lia]).
  destruct RL as [(m & f & kd & len & key & got & -> & HD & CL & E1 & E2 & E3 & E4 & E5 & E6 & E7) | (-> & BO)].
  - rewrite (control_kind _ _ _ _ HD) in H. destruct kd as [bin|op].
    + set (nn := N.min (rem (R s)) (N.of_nat (length view))) in *.
      assert (NB : 0 < nn /\ nn <= rem (R s) /\ nn <= N.of_nat (length view)) by lia. destruct NB as (N1 & N2 & N3).
      destruct (Nat.ltb_spec (length view) (N.to_nat nn)) as [?|_]; [lia|].
      set (data := firstn (N.to_nat nn) view) in *.
      assert (LD : length data = N.to_nat nn) by (apply firstn_length_le; lia).
      assert (BDt : bytes_ok data) by (apply bytes_ok_firstn; exact BV).
      set (r1 := set_rem (R s) (rem (R s) - nn)) in *.
      assert (B1 : bare (set_R s r1) k (DPayload m f (KData bin) len key got) []) by (apply bare_set_R; try assumption; reflexivity).
      assert (DN : data <> []) by (intros E; rewrite E in LD; cbn in LD; lia).
      assert (UM : unmask C r1 data = rfc_mask_from (length got) key data).
      { unfold unmask. cbn [rmask r1 set_rem]. destruct sv; [rewrite E6; unfold rfc_mask; apply (rfc_mask_rot key (length got) 0); exact E3|].
        rewrite E6, rfc_mask_zero. reflexivity. }
      assert (ZE : (N.of_nat (length got + length data) =? len) = (rem r1 =? 0)).
      { cbn [rem r1 set_rem]. rewrite LD. destruct (N.eqb_spec (rem (R s) - nn) 0); [apply N.eqb_eq|apply N.eqb_neq]; lia. }
      assert (DR := dec_run_data sv m f bin len key data got DN ltac:(lia)). cbv zeta in DR. rewrite ZE, <- UM in DR.
      pose proof (bare_consume _ k _ [] data _ _ B1 DR) as B2. cbn [app] in B2.
      do 4 eexists. split; [exact BDt|]. split; [exact B2|]. split; [|split; [exact H|reflexivity]].
      left. exists m, f, bin, len. cbn [R consume set_R]. split; [exact HD|]. split; [exact E1|]. split; [reflexivity|].
      destruct (rem r1 =? 0) eqn:Z; [reflexivity|]. exists key, (got ++ unmask C r1 data). split; [reflexivity|].
      rewrite app_length, unmask_length, LD. split; [cbn [rem r1 set_rem]; lia|]. split; [exact E3|]. split; [exact E4|]. split; [exact E5|].
      destruct sv; [|exact E6]. cbn [rmask r1 set_rem]. rewrite E6, rot_rot by exact E3. rewrite <- LD. reflexivity.
    + destruct E7 as [-> ->]. specialize (LV eq_refl). cbn [length] in E2.
      destruct (Nat.ltb_spec (length view) (N.to_nat n)) as [?|_]; [lia|].
      set (data := firstn (N.to_nat n) view) in *.
      assert (LD : length data = N.to_nat n) by (apply firstn_length_le; lia).
      assert (BDt : bytes_ok data) by (apply bytes_ok_firstn; exact BV).
      assert (DN : data <> []) by (intros E; rewrite E in LD; cbn in LD; lia).
      assert (UM : unmask C (R s) data = rfc_mask key data).
      { unfold unmask. destruct sv; [rewrite E6, rot_0 by exact E3; reflexivity|]. rewrite E6. unfold rfc_mask. rewrite rfc_mask_zero. reflexivity. }
      assert (DR := dec_run_control sv m f op len key data DN ltac:(lia)). rewrite <- UM in DR.
      pose proof (bare_consume _ k _ [] data _ _ B DR) as B2. cbn [app] in B2.
      do 4 eexists. split; [exact BDt|]. split; [exact B2|]. split; [|split; [exact H|reflexivity]].
      right; left. exists m, op. cbn [R consume]. pose proof HD as (h1 & h2 & h3 & h4 & h5). subst f. rewrite <- h4.
      split; [exact HD|]. cbn [ctl_len] in CL. split; [lia|]. split; reflexivity.
  - destruct (is_control_frame (opcode (R s))).
    + destruct (Nat.ltb _ _); [discriminate|].
      assert (BDt : forall j, bytes_ok (firstn j view)) by (intros; apply bytes_ok_firstn; exact BV).
      do 4 eexists. split; [apply BDt|]. split; [|split; [|split; [exact H|reflexivity]]].
      * eapply bare_consume; [exact B|apply dec_run_failed].
      * right; right. auto.
    + destruct (Nat.ltb _ _); [discriminate|].
      assert (BDt : forall j, bytes_ok (firstn j view)) by (intros; apply bytes_ok_firstn; exact BV).
      do 4 eexists. split; [apply BDt|]. split; [|split; [|split; [exact H|reflexivity]]].
      * eapply bare_consume; [|apply dec_run_failed]. apply bare_set_R; [exact B|exact M1|exact M2|reflexivity].
      * right; right. auto.
Qed.

Lemma get_payload_inv s k d addr view most n ch s' ops : bytes_ok view ->
  bare s k d [] -> Rel (RReq CbPayload most n) (R s) d -> view <> [] ->
  (most = false -> n <= N.of_nat (length view)) ->
  get_payload C s addr view (if most then N.to_nat (N.min (N.of_nat (length view)) n) else N.to_nat n) ch = Ret (s', ops) -> inv s' (ops ++ k).
Proof.
  intros BV B RL NE LV H. destruct (get_payload_view s k d addr view most n ch s' ops BV B RL NE LV H) as (s1 & data & d' & o' & X1 & X2 & X3 & X4 & _).
  eapply handle_frame_inv; eassumption.
Qed.

Lemma tail_inv s k k0 : (forall o, In o k0 -> pong_op o = false /\ is_err o = false) -> inv s k -> inv s (k0 ++ k).
Proof.
  intros H I. refine (quiet_inv _ _ _ _ _ _ I).
  assert (F : length (filter pong_op k0) = 0%nat).
  { clear I. induction k0 as [|o r IH]; [reflexivity|]. cbn [filter]. destruct (H o (or_introl eq_refl)) as [-> _]. apply IH. intros; apply H; right; assumption. }
  apply (mk_quiet _ _ _ _ []); try reflexivity.
  - intros [X | X]; [left; exact X|right; apply existsb_app_r, X].
  - unfold pongtok. rewrite filter_app_len, F. cbn. reflexivity.
Qed.

Lemma fire_bare s k rq : inv s k -> rd s = Some rq ->
  Rel rq (R s) (fst (decode sv (inp s))) /\
  forall n, bare (set_cbrun (set_rd s None) n) k (fst (decode sv (inp s))) [].
Proof.
  intros I RD.
  assert (RL : Rel rq (R s) (fst (decode sv (inp s)))) by (apply (i_rel _ _ _ I); left; exact RD).
  pose proof (i_tok _ _ _ I) as TK. unfold tokens in TK. rewrite RD in TK. cbn [has b2n] in TK.
  assert (MR : may_read (tr s) = false) by (destruct (may_read (tr s)); [cbn [b2n] in TK; lia|reflexivity]).
  assert (PT : pongtok s k = 0%nat) by lia.
  assert (T0 : (0 < tokens s k)%nat) by (unfold tokens; rewrite RD; cbn [has b2n]; lia).
  split; [exact RL|]. intros n. split; cbn [R set_cbrun set_rd rd tr T inp]; try assumption.
  - exact (i_mask _ _ _ I).
  - reflexivity.
  - rewrite app_nil_r, <- (i_out _ _ _ I T0). destruct (decode sv (inp s)); reflexivity.
  - exact (i_utf _ _ _ I T0).
  - exact (i_txt _ _ _ I).
Qed.

Lemma fire_inv s k rq f ch s' ops : inv s k -> rd s = Some rq -> fire_ok rq f ->
  fire C s rq f ch = Ret (s', ops) -> inv s' (ops ++ k).
Proof.
  intros I RD FO H. unfold fire in H. binv H. destruct a as [s2 ops2]. injection H as <- <-. cbn [fst snd] in *.
  set (s1 := set_cbrun (set_rd s None) (S (cbrun s))) in *.
  set (k1 := [OBsReturn] ++ k).
  assert (RL : Rel rq (R s) (fst (decode sv (inp s)))) by (apply (i_rel _ _ _ I); left; exact RD).
  pose proof (i_tok _ _ _ I) as TK. unfold tokens in TK. rewrite RD in TK. cbn [has b2n] in TK.
  assert (MR : may_read (tr s) = false) by (destruct (may_read (tr s)); [cbn [b2n] in TK; lia|reflexivity]).
  assert (PT : pongtok s k = 0%nat) by lia.
  assert (T0 : (0 < tokens s k)%nat) by (unfold tokens; rewrite RD; cbn [has b2n]; lia).
  assert (B : bare s1 k1 (fst (decode sv (inp s))) []).
  { split; cbn [R s1 set_cbrun set_rd rd tr T inp]; try assumption.
    - exact (i_mask _ _ _ I).
    - reflexivity.
    - rewrite app_nil_r, <- (i_out _ _ _ I T0). destruct (decode sv (inp s)); reflexivity.
    - exact (i_utf _ _ _ I T0).
    - exact (i_txt _ _ _ I). }
  rewrite <- app_assoc. fold k1.
  destruct f as [err|addr view].
  - injection E as <- <-. unfold read_error. destruct (Z.eqb err CIO_EOF); (eapply bare_inv; [exact B|reflexivity|right; reflexivity]).
  - destruct FO as [BV FO]. destruct rq as [cb most n]. cbn [rq_cb rq_most rq_n] in *.
    destruct cb; pose proof RL as RL'; cbn [Rel WsRecvProofs.Rel rq_cb rq_most rq_n] in RL'.
    + destruct RL' as (-> & _). eapply get_header_inv; [exact BV|exact B|exact RL|exact E].
    + destruct RL' as (-> & _). eapply get_first_length_inv; [exact BV|exact B|exact RL|exact E].
    + destruct RL' as (-> & _). eapply (get_length_inv 2); [exact BV|left; split; reflexivity|exact B|exact RL|exact E].
    + destruct RL' as (-> & _). eapply (get_length_inv 8); [exact BV|right; split; reflexivity|exact B|exact RL|exact E].
    + destruct RL' as (-> & _). eapply get_mask_inv; [exact BV|exact B|exact RL|exact E].
    + destruct RL' as (Hn & P & _). eapply get_payload_inv; [exact BV|exact B|exact RL| | |exact E].
      * destruct most; [exact FO|]. intros ->. cbn in FO. lia.
      * intros ->. exact FO.
Qed.

Theorem reach_inv s k : reach C one_read_at_a_time (s, k) -> inv s k.
Proof.
  intros H. remember (s, k) as c eqn:Ec. revert s k Ec. induction H as [g L1 L2 B1 B2|c x c' Hr IH En Cd St]; intros s k Ec.
  - injection Ec as <- <-. split; cbn.
    + split; [exact L1|]. split; [exact B1|apply qok_0].
    + unfold tokens, pongtok, pongs. cbn. destruct (jk_jobs g JMsg), (jk_jobs g JPing), (jk_jobs g JPong), (jk_jobs g JClose). cbn. lia.
    + intros rq [X | [[_ ->] | [X _]]]; [discriminate X| |].
      * cbn. split; [reflexivity|]. split; [reflexivity|]. exists None. split; reflexivity.
      * exfalso. revert X. unfold pongtok, pongs. cbn. lia.
    + reflexivity.
    + split; [constructor|]. apply drun_not_reject. cbn. discriminate.
    + reflexivity.
    + exists []. split; [reflexivity|left; reflexivity].
    + discriminate.
  - subst c'. destruct c as [s0 k0]. specialize (IH s0 k0 eq_refl). destruct x as [ch|a ch|f ch|err|err]; cbn [step enabled one_read_at_a_time fst] in *.
    + destruct k0 as [|o k0]; [destruct En as [X _]; congruence|]. unfold lift in St. binv St. destruct a as [s1 o1]. injection St as <- <-. eapply run_op_inv; [apply (history C _ _ _ Hr)|eassumption..].
    + unfold lift in St. binv St. destruct a0 as [s1 o1]. injection St as <- <-. cbn [fst snd] in *.
      refine (quiet_inv _ _ _ _ _ _ IH). assert (X : a = ARead \/ a <> ARead) by (destruct a; [left; reflexivity|right; discriminate..]).
      destruct X as [-> | X]; [|eapply call_quiet; [exact X|exact E]].
      eapply read_quiet; [exact Cd|exact E|apply (i_tok _ _ _ IH)].
    + destruct En as (_ & _ & _ & _ & rq & RD & FO). rewrite RD in St. unfold lift in St. binv St. destruct a as [s1 o1]. injection St as <- <-. cbn [fst snd] in *.
      eapply fire_inv; eassumption.
    + injection St as <- <-. refine (quiet_inv _ _ _ _ _ _ IH). apply (mk_quiet _ _ _ _ []); try reflexivity.
      * intros [X | X]; [left; exact X|right; exact X].
    + injection St as <- <-. refine (quiet_inv _ _ _ _ _ _ IH). apply (mk_quiet _ _ _ _ []); try reflexivity.
      * intros [X | X]; [left; exact X|right; exact X].
Qed.
End P.
