From Verif Require Import Base MaskModel MaskProofs EndianModel EndianSpec.
Ltac Zify.zify_post_hook ::= Z.div_mod_to_equations.
Local Open Scope N_scope.

Lemma le_value_bytes w n : n < 256 ^ N.of_nat w -> le_value (le_bytes w n) = n.
Proof.
  revert n. induction w as [|w IH]; intros n H.
  - cbn in *. lia.
  - cbn [le_bytes le_value]. rewrite IH; [lia|].
    replace (N.of_nat (S w)) with (1 + N.of_nat w) in H by lia.
    rewrite N.pow_add_r in H. change (256 ^ 1) with 256 in H.
    apply N.div_lt_upper_bound; [lia|exact H].
Qed.

Lemma le_bytes_lsb w n : le_bytes w n = lsb_bytes w n.
Proof.
  unfold lsb_bytes. revert n. induction w as [|w IH]; intros n; [reflexivity|].
  cbn [le_bytes seq map]. f_equal; [cbn; rewrite N.div_1_r; reflexivity|].
  rewrite IH. rewrite <- seq_shift, map_map. apply map_ext. intros i.
  f_equal. replace (N.of_nat (S i)) with (1 + N.of_nat i) by lia.
  rewrite N.pow_add_r, N.div_div; [reflexivity|discriminate|apply N.pow_nonzero; discriminate].
Qed.

Lemma nth_rev_seq w (f : nat -> N) : rev (map f (seq 0 w)) = map (fun i => f (w - 1 - i)%nat) (seq 0 w).
Proof.
  induction w as [|w IH]; [reflexivity|].
  rewrite seq_S, map_app, rev_app_distr. cbn [map rev app plus].
  rewrite IH. rewrite <- seq_S. cbn [seq map]. f_equal; [f_equal; lia|].
  rewrite <- seq_shift, map_map. apply map_ext. intros i. f_equal. lia.
Qed.

Lemma rev_le_be w n : rev (le_bytes w n) = be_bytes w n.
Proof. rewrite le_bytes_lsb. unfold lsb_bytes, be_bytes, be_byte. apply nth_rev_seq. Qed.

Lemma bswap_bytes w n : le_bytes w (bswap w n) = rev (le_bytes w n).
Proof.
  unfold bswap. rewrite <- (le_bytes_length w n) at 1. rewrite <- rev_length.
  apply le_bytes_value. apply Forall_rev, le_bytes_ok.
Qed.

Lemma bswap_involutive w n : n < 256 ^ N.of_nat w -> bswap w (bswap w n) = n.
Proof.
  intros H. unfold bswap at 1. rewrite bswap_bytes, rev_involutive. apply le_value_bytes, H.
Qed.

Lemma htobe_memory e w n : store_word e w (htobe e w n) = be_bytes w n.
Proof.
  destruct e; cbn [store_word htobe]; [rewrite bswap_bytes|]; apply rev_le_be.
Qed.

Lemma htole_memory e w n : store_word e w (htole e w n) = lsb_bytes w n.
Proof.
  destruct e; cbn [store_word htole]; [apply le_bytes_lsb|].
  rewrite bswap_bytes, rev_involutive. apply le_bytes_lsb.
Qed.

Lemma betoh_htobe e w n : n < 256 ^ N.of_nat w -> betoh e w (htobe e w n) = n.
Proof. destruct e; cbn; intros H; [apply bswap_involutive, H|reflexivity]. Qed.
Lemma letoh_htole e w n : n < 256 ^ N.of_nat w -> letoh e w (htole e w n) = n.
Proof. destruct e; cbn; intros H; [reflexivity|apply bswap_involutive, H]. Qed.

Lemma be_value_app l b : be_value (l ++ [b]) = be_value l * 256 + b.
Proof. unfold be_value. rewrite fold_left_app. reflexivity. Qed.

Lemma be_value_rev l : be_value (rev l) = le_value l.
Proof.
  induction l as [|b l IH]; [reflexivity|]. cbn [rev]. rewrite be_value_app, IH. cbn [le_value]. lia.
Qed.

(** Reading network bytes and converting gives their big-endian value. *)
Lemma betoh_load e w l : length l = w -> bytes_ok l -> betoh e w (load_word e l) = be_value l.
Proof.
  intros Hw Hl. destruct e; cbn [betoh load_word].
  - unfold bswap. rewrite <- Hw, le_bytes_value by exact Hl.
    rewrite <- be_value_rev, rev_involutive. reflexivity.
  - rewrite <- be_value_rev, rev_involutive. reflexivity.
Qed.

Lemma be_bytes_length w n : length (be_bytes w n) = w.
Proof. unfold be_bytes. rewrite map_length, seq_length. reflexivity. Qed.

Lemma be_value_bytes w n : n < 256 ^ N.of_nat w -> be_value (be_bytes w n) = n.
Proof. intros H. rewrite <- rev_le_be, be_value_rev. apply le_value_bytes, H. Qed.

Lemma be_bytes_ok w n : bytes_ok (be_bytes w n).
Proof. rewrite <- rev_le_be. apply Forall_rev, le_bytes_ok. Qed.
