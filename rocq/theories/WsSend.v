(** What one call of send_frame puts on the wire. *)
From Verif Require Import Base Utf8Model MaskModel MaskSpec EndianModel EndianSpec EndianProofs
  WsModel WsFrame WsSendProofs WsRecvSpec WsFrameSpec WsHeaderSpec.
Open Scope N_scope.

Lemma lor_128 x : x < 128 -> N.lor x 128 = 128 + x.
Proof.
  assert (S : forallb (fun i => N.lor (N.of_nat i) 128 =? 128 + N.of_nat i) (seq 0 128) = true) by (vm_compute; reflexivity).
  intros H. apply N.eqb_eq. rewrite forallb_forall in S. specialize (S (N.to_nat x)). rewrite N2Nat.id in S. apply S, in_seq. lia.
Qed.
Lemma be_bytes_mod w n : be_bytes w (n mod 256 ^ N.of_nat w) = be_bytes w n.
Proof.
  unfold be_bytes. apply map_ext_in. intros i Hi. apply in_seq in Hi. unfold be_byte.
  assert (E : 256 ^ N.of_nat w = 256 ^ N.of_nat (w - 1 - i) * (256 * 256 ^ N.of_nat i)).
  { rewrite <- N.pow_succ_r', <- N.pow_add_r. f_equal. lia. }
  rewrite E. set (p := 256 ^ N.of_nat (w - 1 - i)). assert (p <> 0) by (apply N.pow_nonzero; discriminate).
  set (q := 256 ^ N.of_nat i). assert (q <> 0) by (apply N.pow_nonzero; discriminate).
  assert (256 * q <> 0) by (apply N.neq_mul_0; split; [discriminate|assumption]). rewrite N.mod_mul_r by assumption.
  rewrite N.mul_comm, N.div_add by assumption. rewrite (N.div_small (n mod p)) by (apply N.mod_lt; assumption). rewrite N.add_0_l.
  rewrite N.mod_mul_r by (assumption || discriminate). rewrite N.mul_comm, N.mod_add by discriminate. apply N.mod_mod. discriminate.
Qed.

Section S.
Variable C : cfg.
Hypothesis HC : cfg_ok C.

Lemma send_header_enc type last len key : type < 16 -> len < 2 ^ 64 ->
  send_header C type last len key = enc_header (negb (is_server C)) last type len key.
Proof.
  intros HT HL. unfold send_header, enc_header, len7, len_ext, SMALL_FRAME_SIZE, MID_FRAME_SIZE, WS_HEADER_FIN, WS_MASK_SET.
  rewrite lor_128 by lia. rewrite !htobe_memory. change 65536 with (256 ^ N.of_nat 2). rewrite be_bytes_mod.
  change (125 + 1) with 126. change (125 + 2) with 127.
  destruct last, (is_server C); cbn [negb]; destruct (N.leb_spec len 125); try destruct (N.leb_spec len 65535);
    rewrite ?N.add_0_l, ?app_nil_r; try reflexivity; rewrite (lor_128) by lia; reflexivity.
Qed.

(** * C18 *)

(** The header parses back to what was asked for, whatever follows it ... *)
Theorem ws_header_parses_back : forall type last len key rest, type < 16 -> len < 2 ^ 64 -> length key = 4%nat ->
  let h := send_header C type last len key in
  parse_header (h ++ rest) =
    Some (Header last 0 type (negb (is_server C)) len (if is_server C then [] else key), length h).
Proof.
  intros type last len key rest HT HL HK. cbv zeta. rewrite send_header_enc by assumption. unfold enc_header.
  set (b1 := (if negb (is_server C) then 128 else 0) + len7 len). set (k := if negb (is_server C) then key else []).
  assert (L7 : len7 len < 128) by (unfold len7; destruct (N.leb_spec len 125); [lia|destruct (N.leb_spec len 65535); lia]).
  assert (B1 : b1 mod 128 = len7 len) by (unfold b1; destruct (is_server C); cbn [negb]; [rewrite N.add_0_l; apply N.mod_small; lia|]; change (128 + len7 len) with (1 * 128 + len7 len); rewrite N.add_comm, N.mod_add by discriminate; apply N.mod_small; lia).
  assert (MB : (128 <=? b1) = negb (is_server C)) by (unfold b1; destruct (is_server C); cbn [negb]; [apply N.leb_gt; lia|apply N.leb_le; lia]).
  assert (F1 : (128 <=? (if last then 128 else 0) + type) = last) by (destruct last; [apply N.leb_le; lia|apply N.leb_gt; lia]).
  assert (F2 : (((if last then 128 else 0) + type) / 16) mod 8 = 0).
  { destruct last; [replace ((128 + type) / 16) with 8; [reflexivity|]|replace ((0 + type) / 16) with 0; [reflexivity|]];
      apply (N.div_unique _ 16 _ type); lia. }
  assert (F3 : ((if last then 128 else 0) + type) mod 16 = type).
  { destruct last; symmetry; [apply (N.mod_unique _ 16 8)|apply (N.mod_unique _ 16 0)]; lia. }
  assert (EL : length (len_ext len) = if len7 len =? 126 then 2%nat else if len7 len =? 127 then 8%nat else 0%nat).
  { unfold len_ext, len7. destruct (N.leb_spec len 125).
    - destruct (N.eqb_spec len 126); [lia|]. destruct (N.eqb_spec len 127); [lia|reflexivity].
    - destruct (N.leb_spec len 65535); apply be_bytes_length. }
  assert (KL : length k = (if negb (is_server C) then 4 else 0)%nat) by (unfold k; destruct (is_server C); [reflexivity|exact HK]).
  cbn [app parse_header]. rewrite B1, MB, F1, F2, F3. rewrite <- EL, <- KL, <- app_assoc.
  assert (Nat.ltb (length (len_ext len ++ k ++ rest)) (length (len_ext len) + length k) = false) as -> by (apply Nat.ltb_ge; rewrite !app_length; lia).
  rewrite firstn_app, firstn_all, Nat.sub_diag, skipn_app, skipn_all, Nat.sub_diag. cbn [firstn skipn app]. rewrite app_nil_r.
  rewrite firstn_app, firstn_all, Nat.sub_diag. cbn [firstn]. rewrite app_nil_r.
  f_equal. f_equal; [|cbn [length]; rewrite app_length; lia]. f_equal.
  - unfold len7, len_ext. destruct (N.leb_spec len 125).
    + apply N.leb_le in H. rewrite H. reflexivity.
    + destruct (N.leb_spec len 65535); cbn [N.leb N.compare Pos.compare Pos.compare_cont]; apply be_value_bytes; [change (256 ^ N.of_nat 2) with 65536; lia|exact HL].
  - unfold k. destruct (is_server C); reflexivity.
Qed.

(** ... and no header that says the same is shorter. *)
Theorem ws_header_is_shortest : forall type last len key other n h, type < 16 -> len < 2 ^ 64 -> bytes_ok other -> length key = 4%nat ->
  parse_header other = Some (h, n) -> h_len h = len -> h_masked h = negb (is_server C) ->
  (length (send_header C type last len key) <= n)%nat.
Proof.
  intros type last len key other n h HT HL BO HK P L M. rewrite send_header_enc by assumption. unfold enc_header.
  destruct other as [|b0 [|b1 r]]; try discriminate P. cbn [parse_header] in P.
  destruct (Nat.ltb _ _) eqn:LT; [discriminate|]. apply Nat.ltb_ge in LT. injection P as <- <-. cbn [h_len h_masked] in *. rewrite M in *.
  assert (BR : bytes_ok r) by (inversion BO as [|? ? _ X]; inversion X; assumption).
  cbn [length]. rewrite app_length. assert (KL : length (if negb (is_server C) then key else []) = (if negb (is_server C) then 4 else 0)%nat) by (destruct (is_server C); [reflexivity|exact HK]).
  rewrite KL. assert (X : (length (len_ext len) <= (if N.eqb (b1 mod 128)%N 126 then 2 else if N.eqb (b1 mod 128)%N 127 then 8 else 0))%nat); [|lia].
  assert (B7 : b1 mod 128 < 128) by (apply N.mod_lt; discriminate).
  unfold len_ext. destruct (N.leb_spec len 125) as [|H1]; [cbn [length]; lia|].
  destruct (N.leb_spec (b1 mod 128) 125) as [H2|H2]; [lia|].
  destruct (N.eqb_spec (b1 mod 128) 126) as [E1|E1].
  - assert (len < 65536); [|destruct (N.leb_spec len 65535); [rewrite be_bytes_length; lia|lia]].
    rewrite <- L. clear L. destruct r as [|x [|y r']]; cbn [length] in LT; try lia. cbn [firstn be_value fold_left].
    unfold be_value. cbn [fold_left]. inversion BR as [|? ? X1 BR']; inversion BR' as [|? ? X2 _]. unfold byte_ok in *. lia.
  - assert (E2 : b1 mod 128 = 127) by lia. rewrite E2. cbn [N.eqb Pos.eqb]. destruct (N.leb_spec len 65535); rewrite be_bytes_length; lia.
Qed.

(** * The bytes of one frame *)
Notation msk := (negb (is_server C)).

(** Chain handed to the stream for a job that starts a frame. *)
Definition sent_first (c : chain) (type : N) (last : bool) (len : N) (ch : choice) : chain :=
  (ch_addr ch, enc_header msk last type len (ch_key ch)) :: (if is_server C then c else masked 0 (ch_key ch) c).

Lemma sent_first_bytes c type last len ch :
  chain_bytes (sent_first c type last len ch) =
  enc_header msk last type len (ch_key ch) ++ (if msk then rfc_mask (ch_key ch) (chain_bytes c) else chain_bytes c).
Proof.
  unfold sent_first. unfold chain_bytes at 1. cbn [map concat snd]. f_equal. destruct (is_server C); cbn [negb]; [reflexivity|]. apply masked_bytes.
Qed.

Lemma send_first s n c len ch : jcont (jobs (T s) n) = false -> jwbh (jobs (T s) n) = Some c ->
  jtype (jobs (T s) n) < 16 -> len < 2 ^ 64 -> choice_ok ch -> bytes_ok (chain_bytes c) ->
  exists t, send_frame C s n len ch =
      Ret (bs_write (set_T s t) n (sent_first c (jtype (jobs (T s) n)) (jlast (jobs (T s) n)) len ch) (jsh (jobs (T s) n)) ch) /\
    jobs t = upd (jobs (T s)) n (set_wbh (jobs (T s) n) (Some (sent_first c (jtype (jobs (T s) n)) (jlast (jobs (T s) n)) len ch))) /\
    first t = first (T s) /\ WsModel.last t = WsModel.last (T s) /\ fragw t = fragw (T s) /\ inflight t = inflight (T s) /\
    cmask t = (if (negb (is_server C) && (total_size c <? len))%bool then rot (ch_key ch) (length (chain_bytes c)) else cmask (T s)).
Proof.
  intros JC JW JT HL (K1 & K2 & _) B. unfold send_frame, sent_first. rewrite JC, JW. rewrite send_header_enc by assumption. destruct (is_server C); cbn [negb andb].
  - eexists. split; [reflexivity|]. repeat split.
  - rewrite mask_write_buffer_spec by assumption. cbn [obind]. destruct (total_size c <? len); (eexists; split; [reflexivity|repeat split]).
Qed.
End S.
Print Assumptions ws_header_parses_back.
Print Assumptions ws_header_is_shortest.

(** Not vacuous: the headers of RFC 6455 section 5.7. *)
Example header_examples :
  send_header (Cfg true 4096 LittleEndian 8) 1 true 5 [] = [0x81; 0x05] /\
  send_header (Cfg false 4096 LittleEndian 8) 1 true 5 [0x37; 0xfa; 0x21; 0x3d] = [0x81; 0x85; 0x37; 0xfa; 0x21; 0x3d] /\
  send_header (Cfg true 4096 BigEndian 4) 2 true 256 [] = [0x82; 0x7E; 0x01; 0x00] /\
  send_header (Cfg true 4096 LittleEndian 8) 2 true 65536 [] = [0x82; 0x7F; 0; 0; 0; 0; 0; 1; 0; 0].
Proof. repeat split; vm_compute; reflexivity. Qed.
