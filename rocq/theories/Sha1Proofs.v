From Verif Require Import Base EndianSpec Sha1Model Sha1Spec.
Ltac Zify.zify_post_hook ::= Z.div_mod_to_equations.
Local Open Scope N_scope.
Opaque N.lor N.lxor N.land N.shiftl N.shiftr N.modulo N.div N.pow.

(** ** Bit level *)

Definition w32 (n : N) : Prop := n < 2 ^ 32.

Lemma lt_pow2_bits a n : a < 2 ^ n <-> forall k, n <= k -> N.testbit a k = false.
Proof.
  split.
  - intros H k Hk. rewrite <- (N.mod_small a (2 ^ n) H). apply N.mod_pow2_bits_high, Hk.
  - intros H. assert (a = a mod 2 ^ n) as ->; [|apply N.mod_lt, N.pow_nonzero; discriminate].
    apply N.bits_inj. intros k. destruct (N.lt_ge_cases k n) as [Hk|Hk].
    + rewrite N.mod_pow2_bits_low by exact Hk. reflexivity.
    + rewrite N.mod_pow2_bits_high by exact Hk. apply H, Hk.
Qed.

Lemma lor_lt a b n : a < 2 ^ n -> b < 2 ^ n -> N.lor a b < 2 ^ n.
Proof.
  rewrite !lt_pow2_bits. intros Ha Hb k Hk. rewrite N.lor_spec, Ha, Hb by exact Hk. reflexivity.
Qed.

Lemma lor_shiftl_add x n y : y < 2 ^ n -> N.lor (N.shiftl x n) y = x * 2 ^ n + y.
Proof.
  intros Hy. assert (Hd : N.land (N.shiftl x n) y = 0).
  { apply N.bits_inj. intros k. rewrite N.land_spec, N.bits_0.
    destruct (N.lt_ge_cases k n) as [Hk|Hk].
    - rewrite N.shiftl_spec_low by exact Hk. reflexivity.
    - rewrite (proj1 (lt_pow2_bits y n) Hy k Hk). apply andb_false_r. }
  rewrite <- N.lxor_lor by exact Hd. rewrite <- N.add_nocarry_lxor by exact Hd.
  rewrite N.shiftl_mul_pow2. reflexivity.
Qed.

Lemma add32_word a b : add32 a b = word (a + b).
Proof. reflexivity. Qed.

Lemma word_idem_l a b : word (word a + b) = word (a + b).
Proof. unfold word. rewrite N.add_mod_idemp_l; [reflexivity|discriminate]. Qed.

Lemma word_idem_l3 a b c : word (word a + b + c) = word (a + b + c).
Proof. rewrite <- !N.add_assoc. apply word_idem_l. Qed.

Lemma word_lt a : w32 (word a).
Proof. unfold w32, word. apply N.mod_lt. discriminate. Qed.

Lemma rotl_eq n x : SHA1_CIRCULAR_SHIFT n x = ROTL n x.
Proof. reflexivity. Qed.

Lemma rotl_lt n x : w32 x -> w32 (ROTL n x).
Proof.
  unfold w32, ROTL. intros H. apply lor_lt; [apply word_lt|].
  rewrite N.shiftr_div_pow2.
  apply N.le_lt_trans with x; [|exact H].
  apply N.div_le_upper_bound; [apply N.pow_nonzero; discriminate|].
  assert (2 ^ (32 - n) <> 0) by (apply N.pow_nonzero; discriminate). nia.
Qed.

Lemma not32_complement x : w32 x -> not32 x = complement x.
Proof.
  unfold w32, not32, complement. intros H. change (M32 - 1) with (N.ones 32).
  change (N.lxor x (N.ones 32)) with (N.lnot x 32).
  change (2 ^ 32 - 1) with (N.ones 32).
  destruct (N.eq_dec x 0) as [->|Hx].
  - reflexivity.
  - apply N.lnot_sub_low. apply N.log2_lt_pow2; lia.
Qed.

Lemma not32_bits x k : w32 x -> N.testbit (not32 x) k = (if k <? 32 then negb (N.testbit x k) else false).
Proof.
  intros H. unfold not32. rewrite N.lxor_spec. change (M32 - 1) with (N.ones 32).
  destruct (N.ltb_spec k 32) as [Hk|Hk].
  - rewrite N.ones_spec_low by exact Hk. apply xorb_true_r.
  - rewrite N.ones_spec_high by exact Hk. rewrite (proj1 (lt_pow2_bits x 32) H k Hk). reflexivity.
Qed.

Lemma f0_Ch b c d : w32 b -> f_0_19 b c d = Ch b c d.
Proof.
  intros H. unfold f_0_19, Ch. rewrite <- not32_complement by exact H.
  apply N.bits_inj. intros k. rewrite N.lor_spec, N.lxor_spec, !N.land_spec, not32_bits by exact H.
  destruct (k <? 32), (N.testbit b k), (N.testbit c k), (N.testbit d k); reflexivity.
Qed.
Lemma f20_Parity b c d : f_20_39 b c d = Parity b c d.
Proof. unfold f_20_39, Parity. apply N.lxor_assoc. Qed.
Lemma f60_Parity b c d : f_60_79 b c d = Parity b c d.
Proof. unfold f_60_79, Parity. apply N.lxor_assoc. Qed.
Lemma f40_Maj b c d : f_40_59 b c d = Maj b c d.
Proof.
  unfold f_40_59, Maj. apply N.bits_inj. intros k. rewrite !N.lor_spec, !N.lxor_spec, !N.land_spec.
  destruct (N.testbit b k), (N.testbit c k), (N.testbit d k); reflexivity.
Qed.

(** ** The block function *)

Lemma be_value4 a b c d : byte_ok a -> byte_ok b -> byte_ok c -> byte_ok d ->
  N.lor (N.lor (N.lor (N.shiftl a 24 mod M32) (N.shiftl b 16 mod M32)) (N.shiftl c 8 mod M32)) d
  = be_value [a; b; c; d].
Proof.
  unfold byte_ok. intros Ha Hb Hc Hd.
  change M32 with 4294967296.
  assert (E24 : N.shiftl a 24 mod 4294967296 = N.shiftl a 24)
    by (rewrite N.shiftl_mul_pow2; change (2 ^ 24) with 16777216; lia).
  assert (E16 : N.shiftl b 16 mod 4294967296 = N.shiftl b 16)
    by (rewrite N.shiftl_mul_pow2; change (2 ^ 16) with 65536; lia).
  assert (E8 : N.shiftl c 8 mod 4294967296 = N.shiftl c 8)
    by (rewrite N.shiftl_mul_pow2; change (2 ^ 8) with 256; lia).
  rewrite E24, E16, E8. rewrite <- !N.lor_assoc.
  rewrite (lor_shiftl_add c 8 d) by (change (2 ^ 8) with 256; lia). change (2 ^ 8) with 256.
  rewrite (lor_shiftl_add b 16) by (change (2 ^ 16) with 65536; lia). change (2 ^ 16) with 65536.
  rewrite (lor_shiftl_add a 24) by (change (2 ^ 24) with 16777216; lia). change (2 ^ 24) with 16777216.
  cbn [be_value fold_left]. unfold be_value. cbn [fold_left]. lia.
Qed.

Lemma nth_ok l i : bytes_ok l -> byte_ok (nth i l 0).
Proof.
  intros H. destruct (Nat.lt_ge_cases i (length l)) as [Hi|Hi].
  - unfold bytes_ok in H. rewrite Forall_forall in H. apply H, nth_In, Hi.
  - rewrite nth_overflow by exact Hi. unfold byte_ok. lia.
Qed.

Lemma list_nth_map {A} (l : list A) d : l = map (fun i => nth i l d) (seq 0 (length l)).
Proof.
  induction l as [|a l IH]; [reflexivity|]. cbn [length seq map nth]. f_equal.
  rewrite <- seq_shift, map_map. exact IH.
Qed.

Lemma groups_map (f : nat -> N) n k : forall s,
  groups n k (map f (seq s (n * k))) = map (fun t => map f (seq (s + t * k) k)) (seq 0 n).
Proof.
  induction n as [|n IH]; intros s; [reflexivity|].
  replace (S n * k)%nat with (k + n * k)%nat by lia.
  rewrite seq_app, map_app. cbn [groups seq map].
  assert (L : length (map f (seq s k)) = k) by (rewrite map_length, seq_length; reflexivity).
  assert (F : forall X, firstn k (map f (seq s k) ++ X) = map f (seq s k)) by (intros X; rewrite <- L at 1; apply firstn_len_app).
  assert (K : forall X, skipn k (map f (seq s k) ++ X) = X) by (intros X; rewrite <- L at 1; apply skipn_len_app).
  rewrite F, K.
  rewrite IH. rewrite <- seq_shift, map_map.
  f_equal; [rewrite Nat.add_0_r; reflexivity|].
  apply map_ext. intros t. do 2 f_equal. lia.
Qed.

Lemma block_words_eq b : length b = 64%nat -> bytes_ok b -> block_words b = map (block_word b) (seq 0 16).
Proof.
  intros Hl Hb. unfold block_words. rewrite (list_nth_map b 0) at 1. rewrite Hl.
  change 64%nat with (16 * 4)%nat. rewrite groups_map, map_map. apply map_ext. intros t.
  rewrite Nat.add_0_l. cbn [seq map]. unfold block_word.
  rewrite be_value4 by (apply nth_ok, Hb). do 5 f_equal; f_equal; lia.
Qed.

Lemma schedule_length b n : length (schedule b n) = n.
Proof. induction n as [|n IH]; [reflexivity|]. cbn [schedule]. rewrite app_length, IH. cbn [length]. lia. Qed.

Lemma schedule_16 b n : (n <= 16)%nat -> length (block_words b) = 16%nat ->
  schedule b n = firstn n (block_words b).
Proof.
  intros Hn Hl. induction n as [|n IH]; [reflexivity|].
  cbn [schedule]. rewrite IH by lia.
  replace (Nat.ltb n 16) with true by (symmetry; apply Nat.ltb_lt; lia).
  set (w := block_words b) in *. clearbody w. clear IH b.
  assert (Hn' : (n < length w)%nat) by lia. clear Hl Hn. revert w Hn'.
  induction n as [|n IH]; intros [|a w] H; cbn in H; try lia; [reflexivity|].
  cbn [firstn nth app]. f_equal. apply IH. lia.
Qed.

Lemma extend_schedule b : forall n t, (16 <= t)%nat -> extend_W n t (schedule b t) = schedule b (t + n).
Proof.
  induction n as [|n IH]; intros t Ht; cbn [extend_W]; [rewrite Nat.add_0_r; reflexivity|].
  replace (t + S n)%nat with (S t + n)%nat by lia. rewrite <- IH by lia. f_equal.
  cbn [schedule]. replace (Nat.ltb t 16) with false by (symmetry; apply Nat.ltb_ge; lia).
  rewrite rotl_eq, !N.lxor_assoc. reflexivity.
Qed.

Lemma message_words_schedule b : length b = 64%nat -> bytes_ok b -> message_words b = schedule b 80.
Proof.
  intros Hl Hb. unfold message_words. rewrite <- block_words_eq by assumption.
  assert (L : length (block_words b) = 16%nat) by (rewrite block_words_eq by assumption; reflexivity).
  change 80%nat with (16 + 64)%nat. rewrite <- extend_schedule by lia.
  rewrite schedule_16 by (lia || exact L). rewrite <- L. rewrite firstn_all. reflexivity.
Qed.

Definition hash_of (r : regs) : hash5 := (rA r, rB r, rC r, rD r, rE r).
Definition regs_ok (r : regs) : Prop := w32 (rA r) /\ w32 (rB r) /\ w32 (rC r) /\ w32 (rD r) /\ w32 (rE r).

Lemma round_step f W t r : regs_ok r -> (forall b c d, w32 b -> f b c d = sha1_f t b c d) ->
  let r' := sha1_round f (sha1_K t) (nth t W 0) r in
  regs_ok r' /\ hash_of r' = sha1_step W (hash_of r) t.
Proof.
  intros (HA & HB & HC & HD & HE) Hf. cbn zeta. split.
  - unfold sha1_round, regs_ok. cbn [rA rB rC rD rE]. repeat split; try assumption.
    + apply word_lt.
    + rewrite rotl_eq. apply rotl_lt, HB.
  - unfold sha1_round, hash_of, sha1_step. cbn [rA rB rC rD rE]. rewrite Hf by exact HB.
    rewrite !add32_word, !word_idem_l, ?word_idem_l3, !rotl_eq.
    match goal with |- (word ?x, _, _, _, _) = (word ?y, _, _, _, _) => replace x with y by lia end. reflexivity.
Qed.

Lemma rounds_steps f K W : forall n t r, regs_ok r ->
  (forall u b c d, (t <= u < t + n)%nat -> w32 b -> f b c d = sha1_f u b c d) ->
  (forall u, (t <= u < t + n)%nat -> K = sha1_K u) ->
  let r' := rounds f K W n t r in
  regs_ok r' /\ hash_of r' = fold_left (sha1_step W) (seq t n) (hash_of r).
Proof.
  induction n as [|n IH]; intros t r Hr Hf HK; cbn zeta; [split; [exact Hr|reflexivity]|].
  cbn [rounds seq fold_left].
  rewrite (HK t) at 2 by lia. rewrite (HK t) at 3 by lia.
  destruct (round_step f W t r Hr (fun b c d => Hf t b c d ltac:(lia))) as [Hr' He].
  rewrite <- He. apply IH; [exact Hr'| |].
  - intros u b c d Hu. apply Hf. lia.
  - intros u Hu. apply HK. lia.
Qed.

Definition hash_list (h : hash5) : list N := let '(h0, h1, h2, h3, h4) := h in [h0; h1; h2; h3; h4].
Definition hash_ok (h : hash5) : Prop := let '(h0, h1, h2, h3, h4) := h in w32 h0 /\ w32 h1 /\ w32 h2 /\ w32 h3 /\ w32 h4.

Lemma H0_ok : hash_ok H0.
Proof. unfold hash_ok, H0, w32. change (2 ^ 32) with 4294967296. lia. Qed.

Lemma process_block_compress h b : hash_ok h -> length b = 64%nat -> bytes_ok b ->
  process_block (hash_list h) b = hash_list (sha1_compress h b) /\ hash_ok (sha1_compress h b).
Proof.
  intros Hh Hl Hb. destruct h as [[[[h0 h1] h2] h3] h4]. cbn in Hh.
  unfold process_block. cbn [hash_list nth]. rewrite message_words_schedule by assumption.
  set (W := schedule b 80). set (r0 := mk_regs h0 h1 h2 h3 h4).
  assert (R0 : regs_ok r0) by exact Hh.
  destruct (rounds_steps f_0_19 0x5A827999 W 20 0 r0 R0) as [R1 E1].
  { intros u b' c d Hu Hb'. unfold sha1_f. replace (Nat.ltb u 20) with true by (symmetry; apply Nat.ltb_lt; lia).
    apply f0_Ch, Hb'. }
  { intros u Hu. unfold sha1_K. replace (Nat.ltb u 20) with true by (symmetry; apply Nat.ltb_lt; lia). reflexivity. }
  set (r1 := rounds f_0_19 0x5A827999 W 20 0 r0) in *.
  destruct (rounds_steps f_20_39 0x6ED9EBA1 W 20 20 r1 R1) as [R2 E2].
  { intros u b' c d Hu Hb'. unfold sha1_f. replace (Nat.ltb u 20) with false by (symmetry; apply Nat.ltb_ge; lia).
    replace (Nat.ltb u 40) with true by (symmetry; apply Nat.ltb_lt; lia). apply f20_Parity. }
  { intros u Hu. unfold sha1_K. replace (Nat.ltb u 20) with false by (symmetry; apply Nat.ltb_ge; lia).
    replace (Nat.ltb u 40) with true by (symmetry; apply Nat.ltb_lt; lia). reflexivity. }
  set (r2 := rounds f_20_39 0x6ED9EBA1 W 20 20 r1) in *.
  destruct (rounds_steps f_40_59 0x8F1BBCDC W 20 40 r2 R2) as [R3 E3].
  { intros u b' c d Hu Hb'. unfold sha1_f. replace (Nat.ltb u 20) with false by (symmetry; apply Nat.ltb_ge; lia).
    replace (Nat.ltb u 40) with false by (symmetry; apply Nat.ltb_ge; lia).
    replace (Nat.ltb u 60) with true by (symmetry; apply Nat.ltb_lt; lia). apply f40_Maj. }
  { intros u Hu. unfold sha1_K. replace (Nat.ltb u 20) with false by (symmetry; apply Nat.ltb_ge; lia).
    replace (Nat.ltb u 40) with false by (symmetry; apply Nat.ltb_ge; lia).
    replace (Nat.ltb u 60) with true by (symmetry; apply Nat.ltb_lt; lia). reflexivity. }
  set (r3 := rounds f_40_59 0x8F1BBCDC W 20 40 r2) in *.
  destruct (rounds_steps f_60_79 0xCA62C1D6 W 20 60 r3 R3) as [R4 E4].
  { intros u b' c d Hu Hb'. unfold sha1_f. replace (Nat.ltb u 20) with false by (symmetry; apply Nat.ltb_ge; lia).
    replace (Nat.ltb u 40) with false by (symmetry; apply Nat.ltb_ge; lia).
    replace (Nat.ltb u 60) with false by (symmetry; apply Nat.ltb_ge; lia). apply f60_Parity. }
  { intros u Hu. unfold sha1_K. replace (Nat.ltb u 20) with false by (symmetry; apply Nat.ltb_ge; lia).
    replace (Nat.ltb u 40) with false by (symmetry; apply Nat.ltb_ge; lia).
    replace (Nat.ltb u 60) with false by (symmetry; apply Nat.ltb_ge; lia). reflexivity. }
  set (r4 := rounds f_60_79 0xCA62C1D6 W 20 60 r3) in *.
  assert (E : hash_of r4 = fold_left (sha1_step W) (seq 0 80) (h0, h1, h2, h3, h4)).
  { rewrite E4, E3, E2, E1. rewrite <- !fold_left_app. f_equal. }
  unfold sha1_compress. fold W. rewrite <- E. unfold hash_of.
  split.
  - cbn [hash_list]. rewrite !add32_word.
    rewrite (N.add_comm h0), (N.add_comm h1), (N.add_comm h2), (N.add_comm h3), (N.add_comm h4). reflexivity.
  - cbn [hash_ok]. repeat split; apply word_lt.
Qed.

(** ** Groups *)

Lemma groups_app {A} k (l1 l2 : list A) n1 n2 : length l1 = (n1 * k)%nat ->
  groups (n1 + n2) k (l1 ++ l2) = groups n1 k l1 ++ groups n2 k l2.
Proof.
  revert l1. induction n1 as [|n1 IH]; intros l1 H.
  - destruct l1; [reflexivity|cbn in H; lia].
  - cbn [plus groups]. cbn [app].
    assert (k <= length l1)%nat by lia.
    rewrite firstn_app, skipn_app. replace (k - length l1)%nat with 0%nat by lia.
    cbn [firstn skipn]. rewrite app_nil_r. f_equal. apply IH. rewrite skipn_length. lia.
Qed.

(** ** Streaming *)

(** The state of a context after the message [m] (length below 2^61): the hash of the
    complete blocks, the remainder in the block, the length in bits. *)
Record stream_inv (c : sha1_context) (m : list N) : Prop := {
  si_ex : exists done rest h,
    m = done ++ rest /\ length done = (64 * (length m / 64))%nat /\
    h = fold_left sha1_compress (groups (length m / 64) 64 done) H0 /\ hash_ok h /\
    intermediate_hash c = hash_list h /\
    message_block_index c = length rest /\ (length rest < 64)%nat /\
    exists junk, message_block c = rest ++ junk;
  si_len : length (message_block c) = 64%nat;
  si_bytes : bytes_ok (message_block c);
  si_low : length_low c = (8 * N.of_nat (length m)) mod 2 ^ 32;
  si_high : length_high c = (8 * N.of_nat (length m)) / 2 ^ 32;
  si_computed : computed c = false;
  si_corrupted : corrupted c = 0
}.

Lemma store_app l x r v : store (l ++ x :: r) (length l) v = Ret (l ++ v :: r).
Proof. induction l as [|a l IH]; [reflexivity|]. cbn [app length store]. rewrite IH. reflexivity. Qed.

Lemma reset_inv block : length block = 64%nat -> bytes_ok block -> stream_inv (sha1_reset block) [].
Proof.
  intros Hl Hb. constructor; cbn [sha1_reset intermediate_hash message_block length_low length_high computed corrupted message_block_index];
    try assumption; try reflexivity.
  exists [], [], H0. cbn [app length groups fold_left]. repeat split; try reflexivity.
  - lia.
  - exists block. reflexivity.
Qed.

Lemma land_255 v : byte_ok v -> N.land v 255 = v.
Proof.
  unfold byte_ok. intros H. change 255 with (N.ones 8). rewrite N.land_ones. apply N.mod_small.
  change (2 ^ 8) with 256. exact H.
Qed.

Lemma input_byte_inv c m v : stream_inv c m -> byte_ok v -> N.of_nat (length m) + 1 < 2 ^ 61 ->
  exists c', input_byte c v = Ret c' /\ stream_inv c' (m ++ [v]).
Proof.
  intros [ex Hl Hb Hlow Hhigh Hcomp Hcor] Hv Hlen.
  destruct ex as (done & rest & h & Em & Hd & Hh & Hok & Hih & Hix & Hr & junk & Hblk).
  assert (Hj : exists x junk', junk = x :: junk').
  { rewrite Hblk, app_length in Hl. destruct junk as [|x junk']; [cbn in Hl; lia|eauto]. }
  destruct Hj as (x & junk' & ->).
  unfold input_byte, push_byte. rewrite Hix, Hblk, store_app, land_255 by exact Hv. cbn [obind].
  cbn [length_low length_high message_block_index message_block intermediate_hash computed corrupted].
  assert (Lm : length (m ++ [v]) = S (length m)) by (rewrite app_length; cbn; lia).
  assert (Elow : (length_low c + 8) mod M32 = (8 * N.of_nat (length (m ++ [v]))) mod 2 ^ 32).
  { rewrite Hlow, Lm. change M32 with (2 ^ 32). rewrite N.add_mod_idemp_l by discriminate. f_equal. lia. }
  assert (Ehigh : (if (length_low c + 8) mod M32 =? 0 then (length_high c + 1) mod M32 else length_high c)
                  = (8 * N.of_nat (length (m ++ [v]))) / 2 ^ 32).
  { rewrite Elow, Hhigh, Lm. change M32 with 4294967296. change (2 ^ 32) with 4294967296.
    change (2 ^ 61) with 2305843009213693952 in Hlen.
    match goal with |- context [?x =? 0] => destruct (N.eqb_spec x 0) end; lia. }
  assert (Ecor : ((length_low c + 8) mod M32 =? 0) &&
     ((if (length_low c + 8) mod M32 =? 0 then (length_high c + 1) mod M32 else length_high c) =? 0) = false).
  { rewrite Ehigh, Elow, Lm. change (2 ^ 32) with 4294967296.
    change (2 ^ 61) with 2305843009213693952 in Hlen. lia. }
  rewrite Ecor, Ehigh, Elow. clear Ecor Ehigh Elow.
  assert (Hblk' : bytes_ok (rest ++ v :: junk')).
  { rewrite Hblk in Hb. apply bytes_ok_app in Hb as [B1 B2]. inversion B2; subst. apply bytes_ok_app.
    split; [exact B1|]. constructor; assumption. }
  assert (Hl' : length (rest ++ v :: junk') = 64%nat).
  { rewrite Hblk in Hl. rewrite app_length in *. exact Hl. }
  eexists. split; [reflexivity|].
  destruct (Nat.eqb_spec (S (length rest)) 64) as [E64|N64].
  - assert (junk' = []) as ->.
    { rewrite app_length in Hl'. cbn in Hl'. destruct junk'; [reflexivity|cbn in Hl'; lia]. }
    destruct (process_block_compress h (rest ++ [v]) Hok Hl' Hblk') as [Hp Hok'].
    assert (Hdiv : (length m = length done + 63)%nat) by (rewrite Em, app_length; lia).
    assert (D1 : (length (m ++ [v]) / 64 = length m / 64 + 1)%nat) by (rewrite Lm; lia).
    assert (Ldone : length (done ++ rest ++ [v]) = (64 * (length m / 64 + 1))%nat).
    { rewrite !app_length. cbn [length]. lia. }
    constructor; cbn [sha1_process_message_block length_low length_high message_block_index message_block intermediate_hash computed corrupted];
      try assumption; try reflexivity.
    exists (done ++ rest ++ [v]), [], (sha1_compress h (rest ++ [v])).
    repeat split.
    + rewrite Em, app_nil_r, <- app_assoc. reflexivity.
    + rewrite D1. exact Ldone.
    + rewrite D1. rewrite groups_app by lia. rewrite fold_left_app, <- Hh. cbn [groups fold_left].
      f_equal. rewrite <- Hl'. symmetry. apply firstn_all.
    + exact Hok'.
    + rewrite Hih. exact Hp.
    + cbn [length]. lia.
    + exists (rest ++ [v]). reflexivity.
  - assert (Hdiv : (length m = length done + length rest)%nat) by (rewrite Em, app_length; lia).
    assert (D1 : (length (m ++ [v]) / 64 = length m / 64)%nat) by (rewrite Lm; lia).
    constructor; cbn [length_low length_high message_block_index message_block intermediate_hash computed corrupted];
      try assumption; try reflexivity.
    exists done, (rest ++ [v]), h. rewrite D1. repeat split; try assumption.
    + rewrite Em, <- app_assoc. reflexivity.
    + rewrite app_length. cbn [length]. lia.
    + rewrite app_length. cbn [length]. lia.
    + exists junk'. rewrite <- app_assoc. reflexivity.
Qed.

Lemma input_loop_inv l : forall c m, stream_inv c m -> bytes_ok l -> N.of_nat (length (m ++ l)) < 2 ^ 61 ->
  exists c', input_loop c l = Ret c' /\ stream_inv c' (m ++ l).
Proof.
  induction l as [|v l IH]; intros c m Hi Hl Hlen.
  - exists c. rewrite app_nil_r. split; [reflexivity|exact Hi].
  - inversion Hl as [|? ? Hv Hl']; subst. cbn [input_loop]. rewrite (si_corrupted _ _ Hi). cbn [negb N.eqb].
    assert (Hm : N.of_nat (length m) + 1 < 2 ^ 61) by (rewrite app_length in Hlen; cbn in Hlen; lia).
    destruct (input_byte_inv c m v Hi Hv Hm) as (c1 & -> & Hi1). cbn [obind].
    replace (m ++ v :: l) with ((m ++ [v]) ++ l) in * by (rewrite <- app_assoc; reflexivity).
    apply IH; assumption.
Qed.

Lemma inputs_inv parts : forall c m, stream_inv c m -> Forall bytes_ok parts ->
  N.of_nat (length (m ++ concat parts)) < 2 ^ 61 ->
  exists c', sha1_inputs c parts = Ret c' /\ stream_inv c' (m ++ concat parts).
Proof.
  induction parts as [|p parts IH]; intros c m Hi Hp Hlen.
  - exists c. cbn [concat] in *. rewrite app_nil_r. split; [reflexivity|exact Hi].
  - inversion Hp as [|? ? Hp1 Hp2]; subst. cbn [sha1_inputs concat] in *. rewrite app_assoc in *.
    assert (Hl1 : N.of_nat (length (m ++ p)) < 2 ^ 61).
    { rewrite app_length in Hlen. lia. }
    destruct p as [|v p].
    + cbn [sha1_input obind fst]. rewrite app_nil_r in *. apply IH; assumption.
    + cbn [sha1_input]. rewrite (si_computed _ _ Hi), (si_corrupted _ _ Hi). cbn [negb N.eqb].
      destruct (input_loop_inv (v :: p) c m Hi Hp1 Hl1) as (c1 & -> & Hi1). cbn [obind fst].
      apply IH; assumption.
Qed.

(** ** Padding and result *)

(** While padding we only track hash, index and block content before the index. *)
Lemma push_zeros_spec n : forall fuel c l limit junk,
  message_block c = l ++ junk -> message_block_index c = length l -> (n <= length junk)%nat ->
  (length l + n = limit)%nat -> (n <= fuel)%nat ->
  exists c', push_zeros fuel limit c = Ret c' /\
    message_block c' = (l ++ repeat 0 n) ++ skipn n junk /\ message_block_index c' = limit /\
    intermediate_hash c' = intermediate_hash c /\ length_low c' = length_low c /\ length_high c' = length_high c /\
    computed c' = computed c /\ corrupted c' = corrupted c.
Proof.
  induction n as [|n IH]; intros fuel c l limit junk Hb Hi Hj Hlim Hf.
  - exists c. assert (E : Nat.ltb (message_block_index c) limit = false) by (apply Nat.ltb_ge; lia).
    destruct fuel; cbn [push_zeros]; rewrite E; cbn [repeat skipn]; rewrite app_nil_r; repeat split; auto; lia.
  - destruct fuel as [|fuel]; [lia|]. destruct junk as [|x junk]; [cbn in Hj; lia|].
    cbn [push_zeros]. replace (Nat.ltb (message_block_index c) limit) with true by (symmetry; apply Nat.ltb_lt; lia).
    unfold push_byte at 1. rewrite Hb, Hi, store_app. cbn [obind].
    match goal with |- context [push_zeros fuel limit ?c1] =>
      destruct (IH fuel c1 (l ++ [0]) limit junk) as (c' & E & P) end.
    + cbn [message_block]. rewrite <- app_assoc. reflexivity.
    + cbn [message_block_index]. rewrite app_length. cbn [length]. lia.
    + cbn in Hj. lia.
    + rewrite app_length. cbn [length]. lia.
    + lia.
    + exists c'. split; [exact E|]. cbn [repeat skipn].
      cbn [intermediate_hash length_low length_high computed corrupted] in P.
      rewrite <- (app_assoc l [0]) in P. cbn [app] in P. rewrite <- app_assoc. rewrite <- app_assoc in P. exact P.
Qed.

Lemma store_prefix l i v : (i < length l)%nat ->
  store l i v = Ret (firstn i l ++ v :: skipn (S i) l).
Proof.
  revert i. induction l as [|a l IH]; intros [|i] H; cbn in H; try lia; [reflexivity|].
  cbn [store firstn skipn app]. rewrite IH by lia. reflexivity.
Qed.

Lemma put_at c l x r k v : message_block c = l ++ x :: r -> length l = k ->
  put c k v = Ret (set_block c (l ++ v :: r)).
Proof. intros Hb <-. unfold put. rewrite Hb, store_app. reflexivity. Qed.

Definition len_bytes (c : sha1_context) : list N :=
  [u8 (N.shiftr (length_high c) 24); u8 (N.shiftr (length_high c) 16); u8 (N.shiftr (length_high c) 8); u8 (length_high c);
   u8 (N.shiftr (length_low c) 24); u8 (N.shiftr (length_low c) 16); u8 (N.shiftr (length_low c) 8); u8 (length_low c)].

Lemma put_length_bytes p c a0 a1 a2 a3 a4 a5 a6 a7 : length p = 56%nat ->
  message_block c = p ++ [a0; a1; a2; a3; a4; a5; a6; a7] ->
  obind (put c 56 (u8 (N.shiftr (length_high c) 24))) (fun c =>
  obind (put c 57 (u8 (N.shiftr (length_high c) 16))) (fun c =>
  obind (put c 58 (u8 (N.shiftr (length_high c) 8))) (fun c =>
  obind (put c 59 (u8 (length_high c))) (fun c =>
  obind (put c 60 (u8 (N.shiftr (length_low c) 24))) (fun c =>
  obind (put c 61 (u8 (N.shiftr (length_low c) 16))) (fun c =>
  obind (put c 62 (u8 (N.shiftr (length_low c) 8))) (fun c =>
  obind (put c 63 (u8 (length_low c))) (fun c =>
  Ret (sha1_process_message_block c))))))))) =
  Ret (sha1_process_message_block (set_block c (p ++ len_bytes c))).
Proof.
  intros Hp Hb.
  rewrite (put_at c p a0 [a1; a2; a3; a4; a5; a6; a7] 56 _ Hb Hp). cbn [obind].
  erewrite (put_at _ (p ++ [_]) a1 [a2; a3; a4; a5; a6; a7] 57); cbn [obind];
    [|cbn [set_block message_block]; rewrite <- ?app_assoc; cbn [app]; reflexivity|rewrite app_length, Hp; reflexivity].
  erewrite (put_at _ (p ++ [_; _]) a2 [a3; a4; a5; a6; a7] 58); cbn [obind];
    [|cbn [set_block message_block]; rewrite <- ?app_assoc; cbn [app]; reflexivity|rewrite app_length, Hp; reflexivity].
  erewrite (put_at _ (p ++ [_; _; _]) a3 [a4; a5; a6; a7] 59); cbn [obind];
    [|cbn [set_block message_block]; rewrite <- ?app_assoc; cbn [app]; reflexivity|rewrite app_length, Hp; reflexivity].
  erewrite (put_at _ (p ++ [_; _; _; _]) a4 [a5; a6; a7] 60); cbn [obind];
    [|cbn [set_block message_block]; rewrite <- ?app_assoc; cbn [app]; reflexivity|rewrite app_length, Hp; reflexivity].
  erewrite (put_at _ (p ++ [_; _; _; _; _]) a5 [a6; a7] 61); cbn [obind];
    [|cbn [set_block message_block]; rewrite <- ?app_assoc; cbn [app]; reflexivity|rewrite app_length, Hp; reflexivity].
  erewrite (put_at _ (p ++ [_; _; _; _; _; _]) a6 [a7] 62); cbn [obind];
    [|cbn [set_block message_block]; rewrite <- ?app_assoc; cbn [app]; reflexivity|rewrite app_length, Hp; reflexivity].
  erewrite (put_at _ (p ++ [_; _; _; _; _; _; _]) a7 [] 63); cbn [obind];
    [|cbn [set_block message_block]; rewrite <- ?app_assoc; cbn [app]; reflexivity|rewrite app_length, Hp; reflexivity].
  unfold len_bytes. cbn [set_block length_low length_high message_block]. rewrite <- !app_assoc. reflexivity.
Qed.

Lemma be_bytes_8_len c n : length_low c = n mod 2 ^ 32 -> length_high c = n / 2 ^ 32 -> n < 2 ^ 64 ->
  len_bytes c = be_bytes 8 n.
Proof.
  intros Hl Hh Hn. unfold len_bytes, be_bytes, be_byte, u8. cbn [seq map]. rewrite !N.shiftr_div_pow2, Hl, Hh.
  cbn [Nat.sub N.of_nat Pos.of_succ_nat Pos.succ].
  change (256 ^ 7) with 72057594037927936. change (256 ^ 6) with 281474976710656. change (256 ^ 5) with 1099511627776.
  change (256 ^ 4) with 4294967296. change (256 ^ 3) with 16777216. change (256 ^ 2) with 65536.
  change (256 ^ 1) with 256. change (256 ^ 0) with 1. change (2 ^ 32) with 4294967296.
  change (2 ^ 24) with 16777216. change (2 ^ 16) with 65536. change (2 ^ 8) with 256.
  change (2 ^ 64) with 18446744073709551616 in Hn.
  rewrite N.div_1_r. rewrite !N.div_div by discriminate.
  repeat (apply f_equal2; [lia|]). reflexivity.
Qed.

Lemma repeat_ok n : bytes_ok (repeat 0 n).
Proof. induction n; constructor; [unfold byte_ok; lia|assumption]. Qed.

Lemma groups_one {A} (l : list A) : groups 1 (length l) l = [l].
Proof. cbn [groups]. rewrite firstn_all. reflexivity. Qed.

Lemma pad_result c m : stream_inv c m -> bytes_ok m -> N.of_nat (length m) < 2 ^ 61 ->
  exists c', sha1_pad_message c = Ret c' /\ corrupted c' = 0 /\
    intermediate_hash c' = hash_list (fold_left sha1_compress (groups (length (pad m) / 64) 64 (pad m)) H0).
Proof.
  intros [ex Hl Hb Hlow Hhigh Hcomp Hcor] Hm Hlen.
  destruct ex as (done & rest & h & Em & Hd & Hh & Hok & Hih & Hix & Hr & junk & Hblk).
  assert (Hbits : 8 * N.of_nat (length m) < 2 ^ 64).
  { change (2 ^ 61) with 2305843009213693952 in Hlen. change (2 ^ 64) with 18446744073709551616. lia. }
  assert (Hmod : (length m mod 64 = length rest)%nat).
  { assert (length m = length done + length rest)%nat by (rewrite Em, app_length; reflexivity). lia. }
  assert (Brest : bytes_ok rest) by (rewrite Em in Hm; apply bytes_ok_app in Hm; tauto).
  assert (Ljunk : (length junk = 64 - length rest)%nat) by (rewrite Hblk, app_length in Hl; lia).
  destruct junk as [|x junk]; [cbn [length] in Ljunk; lia|]. cbn [length] in Ljunk.
  set (LB := be_bytes 8 (8 * N.of_nat (length m))).
  assert (LLB : length LB = 8%nat) by reflexivity.
  assert (BLB : bytes_ok LB).
  { unfold LB, be_bytes, be_byte. unfold bytes_ok. rewrite Forall_map, Forall_forall. intros i _. unfold byte_ok. lia. }
  unfold sha1_pad_message. rewrite Hix.
  unfold push_byte. rewrite Hblk, Hix, store_app. cbn [obind].
  set (c1 := mk_sha1 (intermediate_hash c) (length_low c) (length_high c) (S (length rest)) (rest ++ 0x80 :: junk) (computed c) (corrupted c)).
  destruct (Nat.ltb_spec 55 (length rest)) as [Hgt|Hle].
  - (* two blocks *)
    destruct (push_zeros_spec (63 - length rest) 64 c1 (rest ++ [0x80]) 64 junk) as (c2 & E2 & B2 & I2 & H2 & L2 & G2 & C2 & K2).
    { unfold c1. cbn [message_block]. rewrite <- app_assoc. reflexivity. }
    { unfold c1. cbn [message_block_index]. rewrite app_length. cbn [length]. lia. }
    { lia. } { rewrite app_length. cbn [length]. lia. } { lia. }
    rewrite E2. cbn [obind].
    rewrite skipn_all2, app_nil_r in B2 by lia.
    set (blk1 := (rest ++ [0x80]) ++ repeat 0 (63 - length rest)) in *.
    assert (Lb1 : length blk1 = 64%nat) by (unfold blk1; rewrite !app_length, repeat_length; cbn [length]; lia).
    assert (Bb1 : bytes_ok blk1).
    { unfold blk1. apply bytes_ok_app. split; [|apply repeat_ok]. apply bytes_ok_app. split; [exact Brest|].
      constructor; [unfold byte_ok; lia|constructor]. }
    destruct (push_zeros_spec 56 64 (sha1_process_message_block c2) [] 56 blk1) as (c3 & E3 & B3 & I3 & H3 & L3 & G3 & C3 & K3).
    { cbn [sha1_process_message_block message_block app]. exact B2. }
    { reflexivity. } { lia. } { reflexivity. } { lia. }
    rewrite E3. cbn [obind]. cbn [app] in B3.
    cbn [sha1_process_message_block length_low length_high corrupted intermediate_hash] in H3, L3, G3, K3.
    assert (Ls : length (skipn 56 blk1) = 8%nat) by (rewrite skipn_length; lia).
    destruct (skipn 56 blk1) as [|a0 [|a1 [|a2 [|a3 [|a4 [|a5 [|a6 [|a7 [|]]]]]]]]]; try discriminate.
    rewrite (put_length_bytes (repeat 0 56) c3 a0 a1 a2 a3 a4 a5 a6 a7 (repeat_length 0 56) B3).
    eexists. split; [reflexivity|]. cbn [sha1_process_message_block set_block corrupted intermediate_hash message_block].
    split; [rewrite K3, K2; unfold c1; exact Hcor|].
    assert (EL : len_bytes c3 = LB).
    { apply be_bytes_8_len; [rewrite L3, L2; exact Hlow|rewrite G3, G2; exact Hhigh|exact Hbits]. }
    rewrite EL, H3, H2, B2. unfold c1. cbn [intermediate_hash]. rewrite Hih.
    destruct (process_block_compress h blk1 Hok Lb1 Bb1) as [P1 O1]. rewrite P1.
    assert (Lb2 : length (repeat 0 56 ++ LB) = 64%nat) by (rewrite app_length, repeat_length, LLB; reflexivity).
    destruct (process_block_compress (sha1_compress h blk1) (repeat 0 56 ++ LB) O1 Lb2) as [P2 O2].
    { apply bytes_ok_app. split; [apply repeat_ok|exact BLB]. }
    rewrite P2. f_equal.
    assert (Epad : pad m = done ++ blk1 ++ (repeat 0 56 ++ LB)).
    { unfold pad. fold LB. unfold blk1. rewrite Em at 1. rewrite Hmod.
      replace ((119 - length rest) mod 64)%nat with ((63 - length rest) + 56)%nat by lia.
      rewrite repeat_app, <- !app_assoc. reflexivity. }
    rewrite Epad.
    replace (length (done ++ blk1 ++ repeat 0%N 56 ++ LB) / 64)%nat with (length m / 64 + (1 + 1))%nat
      by (rewrite (app_length done), (app_length blk1), Lb1, Lb2, Hd; lia).
    rewrite groups_app by lia. rewrite groups_app by lia.
    rewrite !fold_left_app, <- Hh. cbn [groups fold_left].
    rewrite !firstn_all2 by lia. reflexivity.
  - (* one block *)
    destruct (push_zeros_spec (55 - length rest) 64 c1 (rest ++ [0x80]) 56 junk) as (c2 & E2 & B2 & I2 & H2 & L2 & G2 & C2 & K2).
    { unfold c1. cbn [message_block]. rewrite <- app_assoc. reflexivity. }
    { unfold c1. cbn [message_block_index]. rewrite app_length. cbn [length]. lia. }
    { lia. } { rewrite app_length. cbn [length]. lia. } { lia. }
    rewrite E2. cbn [obind].
    set (blk1 := (rest ++ [0x80]) ++ repeat 0 (55 - length rest)) in *.
    assert (Lb1 : length blk1 = 56%nat) by (unfold blk1; rewrite !app_length, repeat_length; cbn [length]; lia).
    assert (Bb1 : bytes_ok blk1).
    { unfold blk1. apply bytes_ok_app. split; [|apply repeat_ok]. apply bytes_ok_app. split; [exact Brest|].
      constructor; [unfold byte_ok; lia|constructor]. }
    assert (Ls : length (skipn (55 - length rest) junk) = 8%nat) by (rewrite skipn_length; lia).
    destruct (skipn (55 - length rest) junk) as [|a0 [|a1 [|a2 [|a3 [|a4 [|a5 [|a6 [|a7 [|]]]]]]]]]; try discriminate.
    rewrite (put_length_bytes blk1 c2 a0 a1 a2 a3 a4 a5 a6 a7 Lb1 B2).
    eexists. split; [reflexivity|]. cbn [sha1_process_message_block set_block corrupted intermediate_hash message_block].
    split; [rewrite K2; unfold c1; exact Hcor|].
    assert (EL : len_bytes c2 = LB).
    { apply be_bytes_8_len; [rewrite L2; exact Hlow|rewrite G2; exact Hhigh|exact Hbits]. }
    rewrite EL, H2. unfold c1. cbn [intermediate_hash]. rewrite Hih.
    assert (Lb2 : length (blk1 ++ LB) = 64%nat) by (rewrite app_length, LLB, Lb1; reflexivity).
    destruct (process_block_compress h (blk1 ++ LB) Hok Lb2) as [P2 O2].
    { apply bytes_ok_app. split; [exact Bb1|exact BLB]. }
    rewrite P2. f_equal.
    assert (Epad : pad m = done ++ (blk1 ++ LB)).
    { unfold pad. fold LB. unfold blk1. rewrite Em at 1. rewrite Hmod.
      replace ((119 - length rest) mod 64)%nat with (55 - length rest)%nat by lia.
      rewrite <- !app_assoc. reflexivity. }
    rewrite Epad.
    replace (length (done ++ blk1 ++ LB) / 64)%nat with (length m / 64 + 1)%nat
      by (rewrite (app_length done), Lb2, Hd; lia).
    rewrite groups_app by lia.
    rewrite !fold_left_app, <- Hh. cbn [groups fold_left].
    rewrite !firstn_all2 by lia. reflexivity.
Qed.

Lemma digest_hash h : digest_of (hash_list h) = (let '(h0, h1, h2, h3, h4) := h in flat_map (be_bytes 4) [h0; h1; h2; h3; h4]).
Proof.
  destruct h as [[[[h0 h1] h2] h3] h4]. unfold digest_of, be_bytes, be_byte, u8. cbn [hash_list].
  cbn [seq map flat_map app nth Nat.div Nat.modulo Nat.divmod fst snd Nat.sub].
  rewrite !N.shiftr_div_pow2. reflexivity.
Qed.

Lemma sha1_parts_correct block parts :
  length block = 64%nat -> bytes_ok block -> Forall bytes_ok parts ->
  N.of_nat (length (concat parts)) < 2 ^ 61 ->
  exists c c' , sha1_inputs (sha1_reset block) parts = Ret c /\
    sha1_result c = Ret (c', inl (sha1 (concat parts))) /\
    sha1_result c' = Ret (c', inl (sha1 (concat parts))).
Proof.
  intros Hl Hb Hp Hlen.
  destruct (inputs_inv parts (sha1_reset block) [] (reset_inv block Hl Hb) Hp Hlen) as (c & Hc & Hi).
  cbn [app] in Hi.
  assert (Hm : bytes_ok (concat parts)) by (apply Forall_concat, Hp).
  destruct (pad_result c (concat parts) Hi Hm Hlen) as (c1 & H1 & Hcor & Hh).
  eexists c, _. split; [exact Hc|].
  assert (Ed : digest_of (intermediate_hash c1) = sha1 (concat parts)).
  { rewrite Hh, digest_hash. reflexivity. }
  split.
  - unfold sha1_result. rewrite (si_corrupted _ _ Hi), (si_computed _ _ Hi). cbn [negb N.eqb].
    rewrite H1. cbn [obind intermediate_hash]. rewrite Ed. reflexivity.
  - unfold sha1_result. cbn [corrupted]. rewrite Hcor. cbn [negb N.eqb computed obind intermediate_hash].
    rewrite Ed. reflexivity.
Qed.
