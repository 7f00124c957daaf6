(** Sending half: masks, headers, frame lemmas of send_frame and enqueue_job. *)
From Verif Require Import Base Utf8Model MaskModel MaskSpec MaskProofs EndianModel EndianSpec EndianProofs WsModel.
Open Scope N_scope.
Arguments N.lor : simpl never.

(** [rotate] is the same left rotation as [cio_websocket_correct_mask]. *)
Lemma rotate_spec key n : length key = 4%nat -> rotate key (n mod 4) = correct_mask key n.
Proof.
  intros L. destruct key as [|a [|b [|c [|d [|x r]]]]]; try discriminate L.
  unfold correct_mask. assert (H : (n mod 4 < 4)%nat) by (apply Nat.mod_upper_bound; discriminate).
  destruct (n mod 4)%nat as [|[|[|[|k]]]]; try (exfalso; lia); reflexivity.
Qed.

Definition rot (key : list N) (n : nat) : list N :=
  map (fun i => nth ((i + n) mod 4)%nat key 0) [0; 1; 2; 3]%nat.

Lemma nth_rot key n i : length key = 4%nat -> nth (i mod 4)%nat (rot key n) 0 = nth ((i + n) mod 4)%nat key 0.
Proof.
  intros L. unfold rot. cbn [map].
  assert (H : (i mod 4 < 4)%nat) by (apply Nat.mod_upper_bound; discriminate).
  assert (E : ((i + n) mod 4 = (i mod 4 + n) mod 4)%nat) by (rewrite Nat.add_mod_idemp_l by discriminate; reflexivity).
  rewrite E. destruct (i mod 4)%nat as [|[|[|[|k]]]]; try (exfalso; lia); reflexivity.
Qed.

Lemma rot_length key n : length (rot key n) = 4%nat.
Proof. reflexivity. Qed.

Lemma correct_mask_rot key n : length key = 4%nat -> correct_mask key n = Ret (rot key n).
Proof.
  intros L. unfold correct_mask, rot.
  assert (M : forall i, ((i + n mod 4) mod 4 = (i + n) mod 4)%nat) by (intros; rewrite Nat.add_mod_idemp_r by discriminate; reflexivity).
  rewrite !M. rewrite !idx_key by assumption. reflexivity.
Qed.

Lemma rot_ok key n : length key = 4%nat -> bytes_ok key -> bytes_ok (rot key n).
Proof.
  intros L K. unfold rot. cbn [map]. repeat (constructor; [apply key_byte; assumption|]). constructor.
Qed.

Lemma rfc_mask_rot key n i data : length key = 4%nat ->
  rfc_mask_from i (rot key n) data = rfc_mask_from (i + n)%nat key data.
Proof.
  intros L. revert i. induction data as [|b r IH]; intros i; [reflexivity|].
  cbn [rfc_mask_from]. rewrite nth_rot by assumption. f_equal. apply (IH (S i)).
Qed.

Lemma rot_rot key n m : length key = 4%nat -> rot (rot key n) m = rot key (n + m).
Proof.
  intros L. unfold rot at 1 3. cbn [map]. rewrite !nth_rot by assumption.
  rewrite !(Nat.add_comm n m), !Nat.add_assoc. reflexivity.
Qed.

Lemma rot_0 key : length key = 4%nat -> rot key 0 = key.
Proof. intros L. destruct key as [|a [|b [|c [|d [|x r]]]]]; try discriminate L. reflexivity. Qed.

Lemma rot_mod key n m : (n mod 4 = m mod 4)%nat -> rot key n = rot key m.
Proof.
  intros E. unfold rot. cbn [map].
  assert (Q : forall i, ((i + n) mod 4 = (i + m) mod 4)%nat).
  { intros i. rewrite <- (Nat.add_mod_idemp_r i n), E, Nat.add_mod_idemp_r by discriminate. reflexivity. }
  rewrite !Q. reflexivity.
Qed.

Definition cfg_ok (C : cfg) : Prop := wordsize C = 4%nat \/ wordsize C = 8%nat.

Section P.
Variable C : cfg.
Hypothesis HC : cfg_ok C.

Lemma ws_mask_whole addr data key : length key = 4%nat -> bytes_ok key -> bytes_ok data ->
  ws_mask (endian C) (wordsize C) addr data 0 (length data) key = Ret (rfc_mask key data).
Proof.
  intros L K D. pose proof (ws_mask_correct (endian C) (wordsize C) addr [] data [] key) as H.
  rewrite app_nil_r in H. cbn [app length] in H. rewrite app_nil_r in H.
  apply H; try assumption; destruct HC as [-> | ->]; try reflexivity; lia.
Qed.

(** The chain after masking: same addresses, bytes masked with the key as one
    continuous stream from position [i]. *)
Fixpoint masked (i : nat) (key : list N) (c : chain) : chain :=
  match c with
  | [] => []
  | (a, d) :: r => (a, rfc_mask_from i key d) :: masked (i + length d) key r
  end.

Lemma masked_bytes key c : forall i, chain_bytes (masked i key c) = rfc_mask_from i key (chain_bytes c).
Proof.
  induction c as [|[a d] r IH]; intros i; [reflexivity|].
  cbn [masked]. unfold chain_bytes in *. cbn [map concat snd]. rewrite IH, rfc_mask_from_app. reflexivity.
Qed.

Lemma mask_write_buffer_from c : forall key i, length key = 4%nat -> bytes_ok key -> bytes_ok (chain_bytes c) ->
  mask_write_buffer C c (rot key i) = Ret (masked i key c, rot key (i + length (chain_bytes c))).
Proof.
  induction c as [|[a d] r IH]; intros key i L K B.
  - cbn. rewrite Nat.add_0_r. reflexivity.
  - unfold chain_bytes in B. cbn [map concat snd] in B. apply bytes_ok_app in B. destruct B as [B1 B2].
    cbn [mask_write_buffer]. rewrite ws_mask_whole by (try apply rot_length; try apply rot_ok; assumption).
    cbn [obind]. rewrite rotate_spec by apply rot_length. rewrite correct_mask_rot by apply rot_length.
    cbn [obind]. rewrite rot_rot by assumption. rewrite IH by assumption. cbn [obind fst snd masked].
    unfold rfc_mask. rewrite rfc_mask_rot by assumption. unfold chain_bytes. cbn [map concat snd].
    rewrite app_length, Nat.add_assoc. reflexivity.
Qed.

Lemma mask_write_buffer_spec c key : length key = 4%nat -> bytes_ok key -> bytes_ok (chain_bytes c) ->
  mask_write_buffer C c key = Ret (masked 0 key c, rot key (length (chain_bytes c))).
Proof.
  intros L K B. rewrite <- (rot_0 key L) at 1. rewrite mask_write_buffer_from by assumption. reflexivity.
Qed.
End P.
