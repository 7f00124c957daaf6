(** C29, C19: the bytes sent are the frames the application and the protocol ask for, and the peer decodes them. *)
From Verif Require Import Base Utf8Model MaskModel MaskSpec MaskProofs EndianModel EndianSpec EndianProofs
  WsModel WsFrame WsSendProofs WsRecvSpec WsDecode WsFrameSpec WsCodec WsSend WsHistory WsTrace WsExec WsRecvProofs WsRecvReach WsClean WsRecvProps WsRecvProps2
  WsQueue WsOutSpec WsArrive WsWire WsOut WsOutStep WsOutReach WsOutProps WsRefuse WsFrames.
Open Scope N_scope.
Set Warnings "-unused-intro-pattern".

(** The frames up to and including the first close frame: the peer reads no further. *)
Fixpoint until_close (fs : list frame) : list frame :=
  match fs with [] => [] | f :: r => if f_op f =? 8 then [f] else f :: until_close r end.

Lemma carried_frames C m0 es ss m : carried C m0 es ss m -> Forall whole_ent es -> Forall ent_ok es ->
  exists fs, map content fs = map item_of es /\ concat (map (fun x => chain_bytes (snd x)) ss) = enc_frames (negb (is_server C)) fs /\ Forall frame_ok fs.
Proof.
  intros H. induction H as [M0|es ss m n j len L c m' H IH HL W]; intros HW HO; [exists []; repeat split; constructor|].
  apply Forall_app in HW, HO. destruct HW as [HW1 HW2], HO as [HO1 HO2]. destruct (IH HW1 HO1) as (fs & F1 & F2 & F3).
  inversion HW2 as [|? ? (JC & EL & LT) _]; subst. inversion HO2 as [|? ? (JO & _) _]; subst. unfold ent_job, ent_len in *. cbn [fst snd] in *.
  unfold wire in W. rewrite JC in W. destruct W as (key & K & W & _).
  assert (LL : L = N.of_nat (length (payload j))) by (destruct HL; congruence).
  exists (fs ++ [Frame (jlast j) (jtype j) key (payload j)]). rewrite !map_app, F1. split; [reflexivity|]. split.
  - rewrite concat_app, F2. unfold enc_frames. rewrite map_app, concat_app. f_equal. cbn [map concat snd]. rewrite !app_nil_r, W, LL. reflexivity.
  - apply Forall_app. split; [exact F3|]. constructor; [|constructor]. unfold frame_ok, f_len. cbn [f_key f_payload]. split; [apply K|]. split; [apply K|].
    split; [|rewrite <- EL; exact LT]. destruct JO as (_ & c0 & J1 & J2 & _). unfold payload. rewrite J1. exact J2.
Qed.

Lemma fits_after f m mo : fits m (content f) -> (mo <> None <-> m = true) -> exists mo', WsFrameSpec.after mo f = Some mo' /\ (mo' <> None <-> next m (content f) = true).
Proof.
  unfold content, fits, next. cbn [fst snd]. intros F E. unfold WsFrameSpec.after. destruct F as [[-> F]|[[-> F]|(F & FF & L)]].
  - rewrite F. destruct mo as [b|]; [|exfalso; apply E; reflexivity]. eexists. split; [reflexivity|]. change (0 <? 8) with true. cbv iota. destruct (f_fin f); cbn; split; congruence.
  - assert (mo = None) as -> by (destruct mo as [b|]; [|reflexivity]; assert (X : Some b <> None) by discriminate; apply E in X; discriminate).
    destruct F as [-> | ->]; (eexists; split; [reflexivity|]); cbn; destruct (f_fin f); cbn; split; congruence.
  - assert (L' : (f_len f <=? 125) = true) by (apply N.leb_le; unfold f_len; lia). rewrite FF, L'. destruct F as [-> | [-> | ->]]; (eexists; split; [reflexivity|exact E]).
Qed.
Lemma seq_after fs : forall m mo, seq_ok m (map content fs) -> (mo <> None <-> m = true) ->
  exists mo', after_all mo fs = Some mo' /\ (mo' <> None <-> fold_left next (map content fs) m = true).
Proof.
  induction fs as [|f fs IH]; intros m mo S E; cbn [map seq_ok after_all fold_left] in *; [exists mo; split; [reflexivity|exact E]|]. destruct S as [S1 S2].
  destruct (fits_after f m mo S1 E) as (mo' & -> & E'). exact (IH _ _ S2 E').
Qed.

Lemma decode_until sv fs : forall m, Forall frame_ok fs -> after_all m fs <> None -> snd (dec_run sv (DHead m) (enc_frames sv fs)) = frames_outs m (until_close fs).
Proof.
  induction fs as [|f r IH]; intros m FO A; [reflexivity|]. cbn [after_all until_close] in *. inversion FO as [|? ? F1 F2]; subst.
  destruct (WsFrameSpec.after m f) as [m'|] eqn:AF; [|congruence]. unfold enc_frames. cbn [map concat]. fold (enc_frames sv r). rewrite dec_run_app, (dec_frame sv m m' f F1 AF). cbn [fst snd]. unfold frame_end.
  destruct (f_op f =? 8).
  - rewrite dec_run_closed. cbn [frames_outs snd]. rewrite AF. reflexivity.
  - rewrite (IH m' F2 A). cbn [frames_outs]. rewrite AF. reflexivity.
Qed.

Lemma frames_of C s k : cfg_ok C -> reach C whole_frames (s, k) -> no_error (tr s) ->
  exists fs rest, wanted (tr s) = map content fs ++ rest /\ bytes_sent (tr s) = enc_frames (negb (is_server C)) fs /\ Forall frame_ok fs /\
    exists mo, after_all None fs = Some mo /\ (mo = None <-> unfinished (map content fs) = false).
Proof.
  intros HC H N. pose proof (whole_proper C _ _ H) as HP. pose proof (no_error_cbe _ _ _ _ H N) as CB. destruct (reach_made C HC s k H CB) as [m1 m2 _ m4].
  destruct (inv_weak C HC s k HP N) as [(W1 & _ & m0 & A & B & m & E & W) _]. rewrite E in m1, m2, W1. apply Forall_app in m2, W1. destruct m2 as [m2 _], W1 as [W1 _].
  destruct (carried_frames _ _ _ _ _ W m2 W1) as (fs & F1 & F2 & F3). exists fs, (map item_of B). rewrite m1, map_app, F1. split; [reflexivity|]. split; [exact F2|]. split; [exact F3|].
  rewrite m1, map_app, <- F1 in m4. apply seq_app in m4. destruct (seq_after fs false None m4) as (mo & A1 & A2); [split; congruence|]. exists mo. split; [exact A1|]. unfold unfinished.
  change (fun m (x : item) => if snd (fst x) <? 8 then negb (fst (fst x)) else m) with next. rewrite <- F1. destruct mo as [b|]; destruct (fold_left next _ false); split; try congruence.
  - intros _. exfalso. assert (X : Some b <> None) by discriminate. apply A2 in X. discriminate X.
  - intros _. exfalso. apply A2; reflexivity.
Qed.

(** ** Whole frames *)

(** The bytes handed to the stream are complete frames: a prefix of the frames asked for, in order, each with its opcode, FIN
    flag, payload and exact length.  They follow the fragmentation rules ([after_all]), and if the last message
    is finished they are complete messages. *)
Theorem ws_frames_follow_rules : forall C s k, cfg_ok C -> reach C whole_frames (s, k) -> no_error (tr s) ->
  exists fs rest, wanted (tr s) = map content fs ++ rest /\ bytes_sent (tr s) = enc_frames (negb (is_server C)) fs /\
    after_all None fs <> None /\ (unfinished (map content fs) = false -> after_all None fs = Some None).
Proof.
  intros C s k HC H N. destruct (frames_of C s k HC H N) as (fs & rest & F1 & F2 & _ & mo & F3 & F4). exists fs, rest. split; [exact F1|]. split; [exact F2|]. rewrite F3. split; [discriminate|]. intros X. f_equal. apply F4, X.
Qed.
Print Assumptions ws_frames_follow_rules.

(** Nothing is left out: when nothing is in progress, all of them were handed to the stream. *)
Theorem ws_all_frames_sent : forall C s, cfg_ok C -> reach C whole_frames (s, []) -> no_error (tr s) -> inflight (T s) = 0%nat ->
  exists fs, wanted (tr s) = map content fs /\ bytes_sent (tr s) = enc_frames (negb (is_server C)) fs.
Proof.
  intros C s HC H N IF. pose proof (whole_proper C _ _ H) as HP. pose proof (no_error_cbe _ _ _ _ H N) as CB. destruct (reach_made C HC s [] H CB) as [m1 m2 _ m4].
  destruct (reach_out C HC s [] HP) as (q & _ & I). rewrite CB in I. destruct I as [V|[(o & k' & X & _) _]]; [|discriminate X].
  pose proof (tok_in C _ _ _ _ _ V Logic.I) as TK. rewrite IF in TK. cbn in TK. destruct q; [|cbn [one] in TK; lia].
  destruct (n_wires _ _ _ _ _ _ V) as (m0 & D & Q & w1 & w2 & w3 & _). destruct Q; [|discriminate w2]. rewrite firstn_nil, app_nil_r in w3. rewrite app_nil_r in w1.
  rewrite <- w1 in w3. destruct (carried_frames _ _ _ _ _ w3 m2 (n_ents _ _ _ _ _ _ V)) as (fs & F1 & F2 & _). exists fs. split; [rewrite m1, F1; reflexivity|exact F2].
Qed.
Print Assumptions ws_all_frames_sent.

(** The peer (a server if this is a client, and vice versa) that decodes the bytes obtains exactly the payloads asked for, up
    to the first close frame. *)
Theorem ws_peer_receives_payload : forall C s k, cfg_ok C -> reach C whole_frames (s, k) -> no_error (tr s) ->
  exists fs rest, wanted (tr s) = map content fs ++ rest /\ snd (decode (negb (is_server C)) (bytes_sent (tr s))) = frames_outs None (until_close fs).
Proof.
  intros C s k HC H N. destruct (frames_of C s k HC H N) as (fs & rest & F1 & F2 & F3 & mo & F4 & _). exists fs, rest. split; [exact F1|]. rewrite F2. apply decode_until; [exact F3|congruence].
Qed.
Print Assumptions ws_peer_receives_payload.

(** ** Frames written in several chunks *)

Lemma carried_split C m0 es2 : forall es1 ss m, carried C m0 (es1 ++ es2) ss m ->
  exists ss1 ss2 m1, ss = ss1 ++ ss2 /\ carried C m0 es1 ss1 m1 /\ carried C m1 es2 ss2 m.
Proof.
  induction es2 as [|e es2 IH] using rev_ind; intros es1 ss m H.
  - rewrite app_nil_r in H. exists ss, [], m. rewrite app_nil_r. split; [reflexivity|]. split; [exact H|]. constructor. apply (carried_carries _ _ _ _ _ H).
  - rewrite app_assoc in H. inversion H as [|es ss0 m1 n j len L c m' H1 H2 H3 E1 E2 E3]; [apply app_cons_not_nil in H1; destruct H1|].
    apply app_inj_tail in E1. destruct E1 as [E1 E1']. subst. destruct (IH _ _ _ H1) as (ss1 & ss2 & mm & -> & X & Y). exists ss1, (ss2 ++ [(n, c)]), mm.
    split; [symmetry; apply app_assoc|]. split; [exact X|]. econstructor; eassumption.
Qed.

Lemma len7_lt n : len7 n < 128.
Proof. unfold len7. destruct (N.leb_spec n 125); [lia|]. destruct (_ <=? _); reflexivity. Qed.
Lemma header_inj msk f1 o1 n1 k1 f2 o2 n2 k2 r1 r2 : n1 < 2 ^ 64 -> n2 < 2 ^ 64 -> length k1 = 4%nat -> length k2 = 4%nat ->
  enc_header msk f1 o1 n1 k1 ++ r1 = enc_header msk f2 o2 n2 k2 ++ r2 -> n1 = n2 /\ (msk = true -> k1 = k2) /\ r1 = r2.
Proof.
  intros L1 L2 K1 K2 E. unfold enc_header in E. cbn [app] in E. injection E as _ E7 E. assert (X : len7 n1 = len7 n2) by (destruct msk; lia). clear E7.
  assert (AI : forall a b x y : list N, length a = length b -> a ++ x = b ++ y -> a = b /\ x = y).
  { induction a as [|u a IH]; intros [|v b] x y LL EE; try discriminate LL; [split; [reflexivity|exact EE]|]. cbn in EE. injection EE as -> EE. destruct (IH b x y ltac:(cbn in LL; lia) EE) as [-> ->]. split; reflexivity. }
  assert (LX : length (len_ext n1) = length (len_ext n2)).
  { unfold len_ext, len7 in *. destruct (N.leb_spec n1 125), (N.leb_spec n2 125); try (destruct (N.leb_spec n1 65535)); try (destruct (N.leb_spec n2 65535)); rewrite ?be_bytes_length; try reflexivity; exfalso; lia. }
  rewrite <- !app_assoc in E. apply AI in E; [|exact LX]. destruct E as [EX E]. split.
  - unfold len_ext, len7 in *. destruct (N.leb_spec n1 125), (N.leb_spec n2 125); try (destruct (N.leb_spec n1 65535)); try (destruct (N.leb_spec n2 65535)); try lia.
    + rewrite <- (be_value_bytes 2 n1), <- (be_value_bytes 2 n2) by (change (256 ^ N.of_nat 2) with 65536; lia). congruence.
    + rewrite <- (be_value_bytes 8 n1), <- (be_value_bytes 8 n2) by (change (256 ^ N.of_nat 8) with (2 ^ 64); lia). congruence.
  - destruct msk; [|split; [discriminate|exact E]]. apply AI in E; [|congruence]. destruct E as [-> ->]. split; reflexivity.
Qed.

Definition pay (a : ent) : list N := payload (ent_job a).
Definition all_bytes (ss : list (jname * chain)) : list N := concat (map (fun x => chain_bytes (snd x)) ss).
Lemma all_bytes_app a b : all_bytes (a ++ b) = all_bytes a ++ all_bytes b.
Proof. unfold all_bytes. rewrite map_app, concat_app. reflexivity. Qed.

(** Continuation chunks on top of [p] bytes already masked with [key]. *)
Lemma chunks C key cs : forall p m ss m', length key = 4%nat -> m = (if is_server C then m else rot key p) -> carried C m cs ss m' -> Forall (fun a => jcont (ent_job a) = true) cs ->
  (is_server C = false -> Forall (fun a => (length (pay a) mod 4 = 0)%nat) (removelast cs)) ->
  all_bytes ss = (if is_server C then concat (map pay cs) else rfc_mask_from p key (concat (map pay cs))) /\
  ((is_server C = false -> Forall (fun a => (length (pay a) mod 4 = 0)%nat) cs) -> m' = (if is_server C then m' else rot key (p + length (concat (map pay cs))))).
Proof.
  induction cs as [|e cs IH] using rev_ind; intros p m ss m' LK EM H HC H4.
  - inversion H as [M0 E1 E2 E3|es ss0 m1 n j len L c m2 X1 X2 X3 E1 E2 E3]; [|destruct es; discriminate E1]. subst. cbn. rewrite Nat.add_0_r. split; [destruct (is_server C); reflexivity|intros _; exact EM].
  - inversion H as [|es ss0 m1 n j len L c m2 X1 X2 X3 E1 E2 E3]; [destruct cs; discriminate|]. apply app_inj_tail in E1. destruct E1 as [<- <-]. subst m2.
    apply Forall_app in HC. destruct HC as [HC1 HC2]. inversion HC2 as [|? ? JC _]; subst. unfold ent_job in JC. cbn [fst snd] in JC.
    rewrite removelast_last in H4.
    assert (R4 : is_server C = false -> Forall (fun a => (length (pay a) mod 4 = 0)%nat) (removelast es)).
    { intros SV. specialize (H4 SV). clear - H4. induction es as [|a es IH]; [constructor|]. inversion H4 as [|? ? Y1 Y2]; subst. cbn. destruct es; [constructor|]. constructor; [exact Y1|apply IH, Y2]. }
    destruct (IH p m ss0 m1 LK EM X1 HC1 R4) as [I1 I2]. specialize (I2 H4). unfold wire in X3. rewrite JC in X3. destruct X3 as [W1 W2].
    rewrite all_bytes_app, map_app, concat_app, I1. unfold all_bytes. cbn [map concat snd]. rewrite !app_nil_r, W1. change (pay (n, j, len)) with (payload j).
    destruct (is_server C); cbn [negb] in *; [split; [reflexivity|intros _; reflexivity]|].
    rewrite rfc_mask_from_app. subst m m1 m'. unfold rfc_mask. rewrite rfc_mask_rot by exact LK. rewrite Nat.add_0_l. split; [reflexivity|].
    intros F4. specialize (F4 eq_refl). apply Forall_app in F4. destruct F4 as [_ F4]. inversion F4 as [|? ? Y _]; subst. change (pay (n, j, len)) with (payload j) in Y.
    rewrite !rot_rot by (try apply rot_length; exact LK). apply rot_mod. rewrite app_length. set (l := length (concat (map pay es))). rewrite (Nat.add_assoc p l). rewrite (Nat.add_assoc (p + l)). rewrite <- (Nat.add_mod_idemp_r (p + l + length (payload j)) (length (payload j))), Y, Nat.add_0_r by discriminate. reflexivity.
Qed.

(** A frame written as a first chunk and continuation chunks, one after the other, with the declared length in the header
    (next theorem): the bytes are one frame with the concatenated payload.  A client's continuation chunks, except the last, must
    have a length divisible by four. *)
Theorem ws_chunks_form_one_frame_partial : forall C s k A1 e cs c A2 S1 x xs S2 key tail, cfg_ok C -> reach C proper (s, k) -> no_error (tr s) ->
  accepts (tr s) = A1 ++ (e :: cs ++ [c]) ++ A2 -> sends (tr s) = S1 ++ (x :: xs) ++ S2 -> length S1 = length A1 -> length xs = S (length cs) ->
  jcont (ent_job e) = false -> Forall (fun a => jcont (ent_job a) = true) (cs ++ [c]) ->
  ent_len e = N.of_nat (length (concat (map pay (e :: cs ++ [c])))) -> (0 < length (concat (map pay (cs ++ [c]))))%nat ->
  length key = 4%nat -> chain_bytes (snd x) = enc_header (negb (is_server C)) (jlast (ent_job e)) (jtype (ent_job e)) (ent_len e) key ++ tail ->
  (is_server C = false -> Forall (fun a => (length (pay a) mod 4 = 0)%nat) cs) ->
  concat (map (fun x => chain_bytes (snd x)) (x :: xs)) = enc_frame (negb (is_server C)) (Frame (jlast (ent_job e)) (jtype (ent_job e)) key (concat (map pay (e :: cs ++ [c])))).
Proof.
  intros C s k A1 e cs c A2 S1 x xs S2 key tail HC H N EA ES L1 L2 JE JC EL PL LK HX H4.
  destruct (inv_weak C HC s k H N) as [(W1 & _ & m0 & A & B & m & E & W) _].
  assert (EO : Forall ent_ok (e :: cs ++ [c])) by (rewrite EA in W1; apply Forall_app in W1; destruct W1 as [_ W1]; apply Forall_app in W1; apply W1).
  pose proof (carried_length _ _ _ _ _ W) as LW. rewrite ES in LW. rewrite !app_length in LW. cbn [length] in LW.
  (* the part of the accepted writes that was sent *)
  assert (EB : exists A2', A = A1 ++ (e :: cs ++ [c]) ++ A2').
  { rewrite E in EA. exists (skipn (length A1 + length (e :: cs ++ [c])) A). rewrite app_assoc.
    rewrite <- (firstn_skipn (length A1 + length (e :: cs ++ [c])) A) at 1. f_equal. apply (f_equal (firstn (length A1 + length (e :: cs ++ [c])))) in EA.
    rewrite firstn_app in EA. rewrite (app_assoc A1) in EA. rewrite firstn_app in EA. rewrite app_length in EA.
    replace (length A1 + length (e :: cs ++ [c]) - (length A1 + length (e :: cs ++ [c])))%nat with 0%nat in EA by lia. rewrite <- app_length, firstn_all in EA. rewrite app_length in EA.
    replace (length A1 + length (e :: cs ++ [c]) - length A)%nat with 0%nat in EA by (cbn [length]; rewrite app_length; cbn [length]; lia). rewrite !firstn_O, !app_nil_r in EA. exact EA. }
  destruct EB as [A2' ->]. destruct (carried_split _ _ _ _ _ _ W) as (ss1 & ss2 & m1 & SE & C1 & C2). destruct (carried_split _ _ _ _ _ _ C2) as (ss3 & ss4 & m2 & -> & C3 & _).
  assert (X : ss1 = S1 /\ ss3 = x :: xs).
  { rewrite ES in SE. pose proof (carried_length _ _ _ _ _ C1) as l1. pose proof (carried_length _ _ _ _ _ C3) as l3.
    assert (AI : forall (a b u v : list (jname * chain)), length a = length b -> a ++ u = b ++ v -> a = b /\ u = v).
    { induction a as [|p a IH]; intros [|q b] u v LL EE; try discriminate LL; [split; [reflexivity|exact EE]|]. cbn in EE. injection EE as -> EE. destruct (IH b u v ltac:(cbn in LL; lia) EE) as [-> ->]. split; reflexivity. }
    apply AI in SE; [|congruence]. destruct SE as [-> SE]. apply AI in SE; [|cbn [length] in *; rewrite app_length in l3; cbn [length] in l3; lia]. destruct SE as [<- _]. split; reflexivity. }
  destruct X as [-> ->]. change (e :: cs ++ [c]) with ([e] ++ (cs ++ [c])) in C3. destruct (carried_split _ _ _ _ _ _ C3) as (se & sc & me & SE2 & Ce & Cc).
  inversion Ce as [|es0 ss0 mm n j len L ch mm' X1 X2 X3 E1 E2 E3]. destruct es0 as [|? [|? ?]]; try discriminate E1. injection E1 as <-.
  inversion X1 as [M0 Y1 Y2 Y3|es1 ? ? ? ? ? ? ? ? ? ? ? Y1]; [|destruct es1; discriminate Y1]. subst. cbn [app] in SE2. injection SE2 as -> ->.
  unfold ent_job, ent_len in *. cbn [fst snd] in *. unfold wire in X3. rewrite JE in X3. destruct X3 as (key' & [K1 K2] & WB & WM).
  pose proof (Forall_inv EO) as [EO1 EO2]. unfold ent_len in EO2. cbn [snd] in EO2.
  assert (LP : N.of_nat (length (payload j)) < len). { rewrite EL. cbn [map concat]. rewrite app_length. change (pay (n, j, len)) with (payload j). lia. }
  unfold SIZE_MAX in EO2. assert (HL : L < 2 ^ 64) by (change (2 ^ 64) with 18446744073709551616; clear - X2 LP EO2; destruct X2; lia).
  assert (Hl : len < 2 ^ 64) by (change (2 ^ 64) with 18446744073709551616; clear - EO2; lia).
  rewrite WB in HX. apply header_inj in HX; try assumption. destruct HX as (EQL & KK & _). subst L.
  assert (LT : (N.of_nat (length (payload j)) <? len) = true) by (apply N.ltb_lt; exact LP). rewrite LT, andb_true_r in WM.
  destruct (chunks C key (cs ++ [c]) (length (payload j)) me sc m2 LK) as [CH _]; try assumption.
  - destruct (is_server C); [reflexivity|]. cbn [negb] in WM. rewrite WM, KK by reflexivity. reflexivity.
  - rewrite removelast_last. exact H4.
  - cbn [map concat snd]. fold (all_bytes sc). rewrite CH, WB. unfold enc_frame. match goal with |- context [f_len ?f] => replace (f_len f) with len by exact EL end. cbn [f_fin f_op f_key f_payload]. change (pay (n, j, len)) with (payload j).
    destruct (is_server C); cbn [negb] in *; [rewrite <- app_assoc; unfold enc_header; reflexivity|].
    rewrite KK by reflexivity. rewrite <- app_assoc. f_equal. unfold rfc_mask. cbn [map concat]. change (pay (n, j, len)) with (payload j). rewrite rfc_mask_from_app. reflexivity.
Qed.
Print Assumptions ws_chunks_form_one_frame_partial.

(** A first chunk written while nothing is in progress is sent at once, and its header announces the declared length. *)
Theorem ws_first_chunk_announces_length_partial : forall C s id flen p lf bin ch, cfg_ok C -> reach C proper (s, []) -> no_error (tr s) -> inflight (T s) = 0%nat ->
  choice_ok ch -> api_ok (AFirst (Some id) flen (Some p) lf bin) ->
  exists s' os c op key, step C (s, []) (XApi (AFirst (Some id) flen (Some p) lf bin) ch) = Ret (s', os) /\ length key = 4%nat /\
    sends (tr s') = sends (tr s) ++ [(JMsg, c)] /\
    chain_bytes c = enc_header (negb (is_server C)) lf op flen key ++ (if is_server C then chain_bytes p else rfc_mask key (chain_bytes p)).
Proof.
  intros C s id flen p lf bin ch HC H N IF CH [[A1 A2] A3]. pose proof (no_error_cbe _ _ _ _ H N) as CB.
  destruct (reach_out C HC s [] H) as (q & B & I). rewrite CB in I. destruct I as [V|[(o & k' & X & _) _]]; [|discriminate X].
  pose proof (tok_in C _ _ _ _ _ V Logic.I) as TK. rewrite IF in TK. cbn in TK. destruct q; [|cbn [one] in TK; lia].
  pose proof (n_free _ _ _ _ _ _ V JMsg eq_refl (fun x => x)) as FR. destruct (b_rep _ _ _ _ B) as [_ FI]. cbn in FI.
  set (kind := if fragw (T s) then if bin then BINARY_FRAME else TEXT_FRAME else CONTINUATION_FRAME). assert (KB : kind < 16) by (unfold kind; destruct (fragw (T s)); [destruct bin|]; reflexivity).
  set (j := Job (jnext (jobs (T s) JMsg)) (Some p) (Some (HUser id)) kind lf false SHMessage).
  set (s1 := log (set_T (log s (EvCall (AFirst (Some id) flen (Some p) lf bin))) (set_fragw (set_job (T s) JMsg j) lf)) (EvAccept JMsg j flen)).
  set (s2 := set_T s1 (set_last (set_first (T s1) (Some JMsg)) (Some JMsg))).
  assert (ST : step C (s, []) (XApi (AFirst (Some id) flen (Some p) lf bin) ch) = lift (enqueue_job C s1 JMsg flen ch (fun e => [ORet e])) []).
  { cbn [step call log T]. rewrite FR. unfold s1, j, kind. destruct (fragw (T s)), lf; reflexivity. }
  assert (J1 : jobs (T s2) JMsg = j) by reflexivity.
  destruct (send_defined C HC s2 JMsg flen ch) as ([s3 r] & E); [rewrite J1; split; [intros _; exact KB|exists p; auto]|exact A3|exact CH|exact (n_mask _ _ _ _ _ _ V)|].
  destruct (send_wire C HC s2 JMsg flen ch s3 r) as (c & T3 & W); [rewrite J1; split; [intros _; exact KB|exists p; auto]|exact A3|exact CH|exact (n_mask _ _ _ _ _ _ V)|exact E|].
  rewrite J1 in W. unfold wire in W. cbn [jcont j] in W. destruct W as (key & [K1 K2] & W & _).
  assert (EQ : exists os, enqueue_job C s1 JMsg flen ch (fun e => [ORet e]) = Ret (s3, os)).
  { unfold enqueue_job. change (first (T s1)) with (first (T s)). rewrite FI. fold s2. rewrite E. cbn [obind snd fst]. destruct r; eexists; reflexivity. }
  destruct EQ as [os EQ]. exists s3, os, c, kind, key. rewrite ST, EQ. unfold lift. cbn [obind fst snd]. rewrite app_nil_r. split; [reflexivity|]. split; [exact K1|]. split.
  - rewrite T3. unfold sends. cbn [collect send_of s2 s1 log set_T tr]. rewrite !app_nil_r. reflexivity.
  - rewrite W. cbn [jlast jtype j payload jwbh]. destruct (is_server C); reflexivity.
Qed.
Print Assumptions ws_first_chunk_announces_length_partial.

(** ** Concrete runs *)
Definition wholeb (c : conf) (x : act) : bool :=
  (properb c x && match x with
   | XApi (AFirst _ flen p _ _) _ => (flen =? N.of_nat (length (pbytes p))) && (flen <? 2 ^ 63)
   | XApi (ACont _ _) _ => false
   | _ => true
   end)%bool.
Lemma wholeb_ok c x : wholeb c x = true -> whole_frames c x.
Proof.
  unfold wholeb, whole_frames. intros H. apply andb_prop in H. destruct H as [H1 H2]. split; [apply properb_ok, H1|].
  destruct x as [ch|a ch|f ch|e|e]; auto. destruct a; auto; [|discriminate]. apply andb_prop in H2. destruct H2 as [H2 H3]. split; [apply N.eqb_eq, H2|apply N.ltb_lt, H3].
Qed.
Ltac wgo_it C l :=
  let s := fresh "s" in let k := fresh "k" in let E := fresh "E" in let H := fresh "REACH" in
  destruct (exec C wholeb start l) as [[s k]|] eqn:E; [|vm_compute in E; discriminate E];
  assert (H : reach C whole_frames (s, k)) by (eapply exec_reach; [exact wholeb_ok|apply start_reach|exact E]); vm_compute in E;
  match type of E with Some (?a, ?b) = _ =>
    assert (s = a) by congruence; assert (k = b) by congruence; clear E; exists s, k; split; [exact H|clear H; subst s k] end.
Definition part (id : nat) (fin bin : bool) (l : list N) : act := XApi (AFirst (Some id) (N.of_nat (length l)) (Some [(100%nat, l)]) fin bin) ch0.

(** A binary message in two frames with a ping in between, then a close frame, all written: what is asked for and what the peer (a server) decodes. *)
Example frames_example : exists s k, reach cli whole_frames (s, k) /\ no_error (tr s) /\ k = [] /\ inflight (T s) = 0%nat /\
  wanted (tr s) = [(false, 2, [1; 2; 3]); (true, 9, [7]); (true, 0, [4; 5]); (true, 8, [3; 232])] /\
  map fst (sends (tr s)) = [JMsg; JPing; JMsg; JClose] /\
  snd (decode true (bytes_sent (tr s))) =
    map (OutByte true false 3) [1; 2; 3] ++ [OutEnd true false 3; OutControl 9 [7]] ++ map (OutByte true true 2) [4; 5] ++ [OutEnd true true 2; OutControl 8 [3; 232]].
Proof.
  wgo_it cli ([part 1 false true [1; 2; 3]; ping 2 [7]; XWritten 0] ++ ops 4 ++ [part 3 true true [4; 5]; bye 4; XWritten 0] ++ ops 4 ++ [XWritten 0] ++ ops 4 ++ [XWritten 0] ++ ops 4).
  split; [not_there|]. split; [reflexivity|]. split; [reflexivity|]. split; [reflexivity|]. split; [reflexivity|]. vm_compute. reflexivity.
Qed.

(** A frame in three chunks of a client, the middle one of four bytes: the hypotheses of [ws_chunks_form_one_frame_partial] are met. *)
Example chunks_example : exists s k, reach cli proper (s, k) /\ no_error (tr s) /\
  exists e c1 c2, accepts (tr s) = [] ++ (e :: [c1] ++ [c2]) ++ [] /\ length (sends (tr s)) = 3%nat /\ map pay [e; c1; c2] = [[72; 101]; [108; 108; 111; 32]; [87]] /\
    ent_len e = 7 /\ map (fun a => jcont (ent_job a)) [e; c1; c2] = [false; true; true] /\
    bytes_sent (tr s) = enc_frame true (Frame true 1 [1; 2; 3; 4] [72; 101; 108; 108; 111; 32; 87]).
Proof.
  go_it cli ([first_part 1 7 [72; 101]; XWritten 0] ++ ops 4 ++ [next_part 2 [108; 108; 111; 32]; XWritten 0] ++ ops 4 ++ [next_part 3 [87]; XWritten 0] ++ ops 4).
  split; [not_there|]. eexists _, _, _. split; [reflexivity|]. repeat split.
Qed.

(** The defects.  A first chunk that has to wait behind another write: the header announces the length of the
    chunk (2) instead of the declared length of the frame (3); the rest of the frame follows as garbage. *)
Theorem ws_queued_chunk_wrong_length_refuted : exists s k, reach srv proper (s, k) /\ no_error (tr s) /\ In (EvCall (AFirst (Some 2%nat) 3 (Some [(100%nat, [72; 105])]) true false)) (tr s) /\
  bytes_sent (tr s) = enc_frame false (Frame true 9 [] [1]) ++ enc_frame false (Frame true 1 [] [72; 105]) ++ [33].
Proof.
  go_it srv ([ping 1 [1]; first_part 2 3 [72; 105]; XWritten 0] ++ ops 4 ++ [XWritten 0] ++ ops 4 ++ [next_part 3 [33]]).
  split; [not_there|]. split; [cbn; tauto|]. reflexivity.
Qed.
Print Assumptions ws_queued_chunk_wrong_length_refuted.

(** The second continuation chunk of a client is masked with the wrong rotation of the key: A, B, C written as three chunks
    arrive as A, B and a different byte. *)
Theorem ws_second_continuation_garbled_refuted : exists s k, reach cli proper (s, k) /\ no_error (tr s) /\
  map pay (accepts (tr s)) = [[65]; [66]; [67]] /\
  snd (decode true (bytes_sent (tr s))) = map (OutByte false true 3) [65; 66; 68] ++ [OutEnd false true 3].
Proof.
  go_it cli ([first_part 1 3 [65]; XWritten 0] ++ ops 4 ++ [next_part 2 [66]; XWritten 0] ++ ops 4 ++ [next_part 3 [67]]).
  split; [not_there|]. split; [reflexivity|]. vm_compute. reflexivity.
Qed.
Print Assumptions ws_second_continuation_garbled_refuted.

(** A ping received between two chunks of a frame is answered in the middle of the frame: the peer takes the pong (138, 0) for payload. *)
Theorem ws_pong_inside_frame_refuted : exists s k, reach cli proper (s, k) /\ no_error (tr s) /\
  map pay (accepts (tr s)) = [[65; 66; 67; 68]; []; [69; 70; 71; 72]] /\ ~ In (OutControl 10 []) (snd (decode true (bytes_sent (tr s)))) /\
  firstn 9 (snd (decode true (bytes_sent (tr s)))) <> map (OutByte false true 8) [65; 66; 67; 68; 69; 70; 71; 72] ++ [OutEnd false true 8].
Proof.
  go_it cli ([readcall; op1; first_part 1 8 [65; 66; 67; 68]; XWritten 0] ++ ops 4 ++ [arrive [0x89; 0]; op1; arrive [0]; op1; XWritten 0] ++ ops 5 ++ [next_part 2 [69; 70; 71; 72]]).
  split; [not_there|]. split; [reflexivity|]. split; [vm_compute; intuition congruence|]. vm_compute. intros X. congruence.
Qed.
Print Assumptions ws_pong_inside_frame_refuted.

(** The handler of a continuation chunk gets its buffer back without the first element (a continuation chunk has no header in front of it). *)
Theorem ws_continuation_buffer_truncated_refuted : exists s k, reach srv proper (s, k) /\ no_error (tr s) /\
  In (EvCall (ACont (Some 2%nat) (Some [(100%nat, [67]); (101%nat, [68])]))) (tr s) /\ In (EvWriteDone JMsg 2 0 [(101%nat, [68])]) (tr s).
Proof.
  go_it srv ([first_part 1 3 [65]; XWritten 0] ++ ops 4 ++ [XApi (ACont (Some 2%nat) (Some [(100%nat, [67]); (101%nat, [68])])) ch0; XWritten 0] ++ ops 2).
  split; [not_there|]. split; cbn; tauto.
Qed.
Print Assumptions ws_continuation_buffer_truncated_refuted.
