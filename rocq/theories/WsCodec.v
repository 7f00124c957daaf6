(** The reference decoder inverts the reference encoder. *)
From Verif Require Import Base MaskModel MaskSpec MaskProofs EndianSpec EndianProofs WsModel WsRecvSpec WsDecode WsFrameSpec.
Open Scope N_scope.
Ltac Zify.zify_post_hook ::= Z.div_mod_to_equations.

Lemma rfc_mask_zero l : forall i, rfc_mask_from i [0; 0; 0; 0] l = l.
Proof.
  induction l as [|b r IH]; intros i; [reflexivity|]. cbn [rfc_mask_from]. rewrite IH. f_equal.
  assert (H : (i mod 4 < 4)%nat) by (apply Nat.mod_upper_bound; discriminate).
  destruct (i mod 4)%nat as [|[|[|[|k]]]]; try (exfalso; lia); apply N.lxor_0_r.
Qed.
Lemma rfc_mask_twice key l : forall i, rfc_mask_from i key (rfc_mask_from i key l) = l.
Proof.
  induction l as [|b r IH]; intros i; [reflexivity|]. cbn [rfc_mask_from]. rewrite IH. f_equal.
  rewrite N.lxor_assoc, N.lxor_nilpotent, N.lxor_0_r. reflexivity.
Qed.

Definition payload_bytes (sv : bool) (f : frame) : list N := if sv then rfc_mask (f_key f) (f_payload f) else f_payload f.
Definition frame_end (m : option bool) (f : frame) : dstate := if f_op f =? 8 then DClosed else DHead m.

Definition kind_of (m : option bool) (f : frame) : kind :=
  if 8 <=? f_op f then KControl (f_op f) else KData (frame_type m f).

Lemma dec_payload (sv : bool) m m' f : frame_ok f -> after m f = Some m' -> forall key : list N, (if sv then key = f_key f else key = [0; 0; 0; 0]) ->
  dec_run sv (fst (dec_start m' (f_fin f) (kind_of m f) (f_len f) key)) (payload_bytes sv f) =
    (frame_end m' f, snd (dec_run sv (fst (dec_start m' (f_fin f) (kind_of m f) (f_len f) key)) (payload_bytes sv f))) /\
  snd (dec_start m' (f_fin f) (kind_of m f) (f_len f) key) ++
  snd (dec_run sv (fst (dec_start m' (f_fin f) (kind_of m f) (f_len f) key)) (payload_bytes sv f)) = frame_outs m f.
Proof.
  intros (K & KO & PO & L) A key HK. unfold dec_start.
  assert (LP : length (payload_bytes sv f) = length (f_payload f)).
  { unfold payload_bytes. destruct sv; [apply rfc_mask_from_length|reflexivity]. }
  assert (UM : rfc_mask key (payload_bytes sv f) = f_payload f).
  { unfold payload_bytes, rfc_mask. destruct sv; subst key; [apply rfc_mask_twice|apply rfc_mask_zero]. }
  unfold kind_of, frame_outs, frame_end. destruct (f_len f =? 0) eqn:Z.
  - apply N.eqb_eq in Z. assert (P : f_payload f = []) by (unfold f_len in Z; destruct (f_payload f); [reflexivity|cbn in Z; lia]).
    assert (PB : payload_bytes sv f = []) by (destruct (payload_bytes sv f); [reflexivity|rewrite P in LP; discriminate]).
    rewrite PB, P, Z. destruct (8 <=? f_op f) eqn:E; cbn [dec_end fst snd dec_run map app].
    + split; reflexivity.
    + assert (f_op f =? 8 = false) as -> by (apply N.eqb_neq; apply N.leb_gt in E; lia). split; reflexivity.
  - apply N.eqb_neq in Z. assert (NE : payload_bytes sv f <> []).
    { intros X. rewrite X in LP. unfold f_len in Z. rewrite <- LP in Z. cbn in Z. lia. }
    cbn [fst snd app]. destruct (8 <=? f_op f) eqn:E.
    + rewrite dec_run_control by (assumption || (rewrite LP; reflexivity)). rewrite UM. cbn [snd]. split; reflexivity.
    + assert (f_op f =? 8 = false) as -> by (apply N.eqb_neq; apply N.leb_gt in E; lia).
      assert (X := dec_run_data sv m' (f_fin f) (frame_type m f) (f_len f) key (payload_bytes sv f) [] NE ltac:(cbn [length]; rewrite LP; unfold f_len; lia)).
      cbv zeta in X. cbn [length Nat.add app] in X. rewrite LP in X.
      assert (Q : (N.of_nat (length (f_payload f)) =? f_len f) = true) by apply N.eqb_refl.
      rewrite Q in X. fold (rfc_mask key (payload_bytes sv f)) in X. rewrite UM in X. rewrite X. cbn [snd]. split; reflexivity.
Qed.

Lemma dec_head_frame m m' f : frame_ok f -> after m f = Some m' ->
  dec_head m ((if f_fin f then 128 else 0) + f_op f) = DLen m' (f_fin f) (kind_of m f) /\ (8 <= f_op f -> f_len f <= 125).
Proof.
  intros _ A. unfold after in A. unfold dec_head, kind_of, frame_type.
  assert (OPS : f_op f < 16 /\ (8 <= f_op f -> f_len f <= 125)).
  { destruct (f_op f) as [|p]; [split; [lia|lia]|]. do 4 (try destruct p as [p|p|]); try discriminate A; split; try lia; intros _;
      destruct (f_fin f); cbn [andb] in A; try discriminate A; destruct (N.leb_spec (f_len f) 125); try lia; discriminate A. }
  destruct OPS as [OL OC]. split; [|exact OC].
  assert (FB : (128 <=? (if f_fin f then 128 else 0) + f_op f) = f_fin f) by (destruct (f_fin f); [apply N.leb_le|apply N.leb_gt]; lia).
  assert (RB : ((((if f_fin f then 128 else 0) + f_op f) / 16) mod 8 =? 0) = true) by (apply N.eqb_eq; destruct (f_fin f); lia).
  assert (OB : ((if f_fin f then 128 else 0) + f_op f) mod 16 = f_op f) by (destruct (f_fin f); lia).
  rewrite FB, RB, OB. cbn [negb].
  destruct (f_op f) as [|p]; [destruct m; [injection A as <-; reflexivity|discriminate A]|].
  do 4 (try destruct p as [p|p|]); try discriminate A; destruct m as [[|]|]; try discriminate A; destruct (f_fin f); cbn [andb] in A; try discriminate A;
    try (destruct (f_len f <=? 125); [|discriminate A]); injection A as <-; reflexivity.
Qed.

Lemma dec_frame sv m m' f : frame_ok f -> after m f = Some m' ->
  dec_run sv (DHead m) (enc_frame sv f) = (frame_end m' f, frame_outs m f).
Proof.
  intros FO A. destruct (dec_head_frame m m' f FO A) as [HD LC]. pose proof FO as (K & KO & PO & L).
  unfold enc_frame, enc_header. cbn [app dec_run dec]. rewrite HD. cbn [dec dec_run].
  assert (L7 : len7 (f_len f) < 128) by (unfold len7; destruct (N.leb_spec (f_len f) 125); [lia|]; destruct (_ <=? _); lia).
  assert (MB : (128 <=? (if sv then 128 else 0) + len7 (f_len f)) = sv) by (destruct sv; [apply N.leb_le|apply N.leb_gt]; lia).
  assert (LB : ((if sv then 128 else 0) + len7 (f_len f)) mod 128 = len7 (f_len f)) by (destruct sv; lia).
  rewrite MB, LB, Bool.eqb_reflx. cbn [negb app].
  fold (payload_bytes sv f).
  (* from the known length on *)
  assert (REST : forall d0 o0, dec_len sv m' (f_fin f) (kind_of m f) (f_len f) = (d0, o0) ->
     o0 ++ snd (dec_run sv d0 ((if sv then f_key f else []) ++ payload_bytes sv f)) = frame_outs m f /\
     fst (dec_run sv d0 ((if sv then f_key f else []) ++ payload_bytes sv f)) = frame_end m' f).
  { intros d0 o0. unfold dec_len. destruct sv.
    - intros X; injection X as <- <-. rewrite dec_run_app, dec_run_key by exact K. cbn [fst snd app].
      destruct (dec_payload true m m' f FO A (f_key f) eq_refl) as [P1 P2]. rewrite P1 at 2. cbn [fst snd]. split; [exact P2|reflexivity].
    - intros X. cbn [app]. destruct (dec_payload false m m' f FO A [0; 0; 0; 0] eq_refl) as [P1 P2]. rewrite X in P1, P2. cbn [fst snd] in P1, P2.
      split; [exact P2|]. rewrite P1. reflexivity. }
  unfold len7, len_ext. destruct (N.leb_spec (f_len f) 125) as [S1|S1].
  - assert (f_len f <=? 125 = true) as -> by (apply N.leb_le; exact S1).
    destruct (dec_len sv m' (f_fin f) (kind_of m f) (f_len f)) as [d0 o0] eqn:D. destruct (REST _ _ eq_refl) as [R1 R2].
    cbn [app]. destruct (dec_run sv d0 _) as [d1 o1]. cbn [fst snd] in *. subst d1. rewrite R1. reflexivity.
  - assert (KD : kind_of m f = KData (frame_type m f)). { unfold kind_of. destruct (N.leb_spec 8 (f_op f)) as [X|X]; [specialize (LC X); lia|reflexivity]. }
    rewrite KD in *. destruct (N.leb_spec (f_len f) 65535) as [S2|S2].
    + change (126 <=? 125) with false. change (126 =? 126) with true. cbv iota.
      rewrite <- app_assoc, dec_run_app.
      rewrite dec_run_ext; [|discriminate|reflexivity]. cbn [app]. rewrite be_value_bytes by (cbn; lia).
      destruct (dec_len sv m' (f_fin f) (KData (frame_type m f)) (f_len f)) as [d0 o0] eqn:D. destruct (REST _ _ eq_refl) as [R1 R2].
      cbn [fst snd app]. rewrite R2, R1. reflexivity.
    + change (127 <=? 125) with false. change (127 =? 126) with false. cbv iota.
      rewrite <- app_assoc, dec_run_app.
      assert (B64 : f_len f < 256 ^ N.of_nat 8). { change (256 ^ N.of_nat 8) with 18446744073709551616. change (2 ^ 63) with 9223372036854775808 in L. lia. }
      rewrite dec_run_ext; [|discriminate|reflexivity]. cbn [app]. rewrite be_value_bytes by exact B64.
      destruct (dec_len sv m' (f_fin f) (KData (frame_type m f)) (f_len f)) as [d0 o0] eqn:D. destruct (REST _ _ eq_refl) as [R1 R2].
      cbn [fst snd app]. rewrite R2, R1. reflexivity.
Qed.

Theorem dec_frames sv fs : forall m, valid_frames m fs ->
  exists d, dec_run sv (DHead m) (enc_frames sv fs) = (d, frames_outs m fs) /\ d <> DFailed.
Proof.
  induction fs as [|f r IH]; intros m V; cbn [valid_frames frames_outs] in *.
  - exists (DHead m). split; [reflexivity|discriminate].
  - destruct V as [FO V]. destruct (after m f) as [m'|] eqn:A; [|destruct V].
    unfold enc_frames. cbn [map concat]. fold (enc_frames sv r). rewrite dec_run_app, (dec_frame sv m m' f FO A). cbn [fst snd]. unfold frame_end.
    destruct (f_op f =? 8) eqn:E.
    + subst r. exists DClosed. split; [|discriminate]. cbn. reflexivity.
    + destruct (IH m' V) as (d & D & ND). exists d. rewrite D. split; [reflexivity|exact ND].
Qed.

Lemma dec_frames_open sv fs : forall m m', valid_frames m fs -> Forall (fun f => f_op f <> 8) fs -> after_all m fs = Some m' ->
  dec_run sv (DHead m) (enc_frames sv fs) = (DHead m', frames_outs m fs).
Proof.
  induction fs as [|f r IH]; intros m m' V NC A; cbn [valid_frames frames_outs after_all] in *; [injection A as ->; reflexivity|].
  destruct V as [FO V]. destruct (after m f) as [m1|] eqn:A1; [|destruct V]. inversion NC as [|? ? N1 N2]; subst.
  unfold enc_frames. cbn [map concat]. fold (enc_frames sv r). rewrite dec_run_app, (dec_frame sv m m1 f FO A1). cbn [fst snd]. unfold frame_end.
  destruct (N.eqb_spec (f_op f) 8) as [E|E]; [congruence|]. rewrite (IH m1 m' V N2 A). reflexivity.
Qed.
