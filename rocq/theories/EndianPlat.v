(** Byte order on the other platforms: lib/src/platform/windows/endian.c 35-93 (REG_DWORD is always REG_DWORD_LITTLE_ENDIAN, so lines
    94-155 are never compiled) and lib/src/platform/zephyr/endian.c 33-51. *)
From Verif Require Import Base MaskModel EndianModel EndianSpec EndianProofs.
Local Open Scope N_scope.

(** The intrinsics _byteswap_ushort, _byteswap_ulong and _byteswap_uint64, with shifts as the compiler documents them. *)
Definition byteswap16 (x : N) : N := N.lor (N.shiftr x 8) (N.shiftl (N.land x 255) 8).
Definition byteswap32 (x : N) : N := N.lor (byteswap16 (N.shiftr x 16)) (N.shiftl (byteswap16 (N.land x 65535)) 16).
Definition byteswap64 (x : N) : N := N.lor (byteswap32 (N.shiftr x 32)) (N.shiftl (byteswap32 (N.land x 4294967295)) 32).

(** windows/endian.c 35-63 *)
Definition win_be16toh := byteswap16.
Definition win_be32toh := byteswap32.
Definition win_be64toh := byteswap64.
Definition win_htobe16 := byteswap16.
Definition win_htobe32 := byteswap32.
Definition win_htobe64 := byteswap64.
(** windows/endian.c 65-93 *)
Definition win_le16toh (x : N) : N := x.
Definition win_le32toh (x : N) : N := x.
Definition win_le64toh (x : N) : N := x.
Definition win_htole16 (x : N) : N := x.
Definition win_htole32 (x : N) : N := x.
Definition win_htole64 (x : N) : N := x.

(** zephyr/endian.c 33-51: sys_be16_to_cpu and so on of Zephyr's byteorder.h swap on a little-endian machine only. *)
Definition zephyr_be16toh (e : endianness) (x : N) : N := match e with LittleEndian => byteswap16 x | BigEndian => x end.
Definition zephyr_be64toh (e : endianness) (x : N) : N := match e with LittleEndian => byteswap64 x | BigEndian => x end.
Definition zephyr_htobe16 (e : endianness) (x : N) : N := match e with LittleEndian => byteswap16 x | BigEndian => x end.
Definition zephyr_htobe64 (e : endianness) (x : N) : N := match e with LittleEndian => byteswap64 x | BigEndian => x end.

Lemma lor_add a b k : a < 2 ^ k -> N.lor a (N.shiftl b k) = a + b * 2 ^ k.
Proof.
  intros H. rewrite N.shiftl_mul_pow2. rewrite N.add_nocarry_lxor, N.lxor_lor; try reflexivity;
    apply N.bits_inj; intros i; rewrite N.land_spec, N.bits_0; (destruct (N.lt_ge_cases i k) as [L|G];
    [rewrite N.mul_pow2_bits_low by exact L; apply andb_false_r|
     assert (N.testbit a i = false) as ->; [|reflexivity]; rewrite <- (N.mod_small a (2 ^ k)) by exact H; apply N.mod_pow2_bits_high; exact G]).
Qed.
Ltac Zify.zify_post_hook ::= Z.div_mod_to_equations.
Lemma swap16 x : x < 2 ^ 16 -> byteswap16 x = x / 256 + (x mod 256) * 256 /\ byteswap16 x < 2 ^ 16.
Proof.
  intros H. change (2 ^ 16) with 65536 in *. unfold byteswap16. rewrite N.shiftr_div_pow2. change 255 with (N.ones 8). rewrite N.land_ones.
  change (2 ^ 8) with 256. rewrite lor_add by (change (2 ^ 8) with 256; lia). change (2 ^ 8) with 256. split; [reflexivity|lia].
Qed.
Lemma swap32 x : x < 2 ^ 32 -> byteswap32 x = byteswap16 (x / 65536) + byteswap16 (x mod 65536) * 65536 /\ byteswap32 x < 2 ^ 32.
Proof.
  intros H. change (2 ^ 32) with 4294967296 in *. unfold byteswap32. rewrite N.shiftr_div_pow2. change 65535 with (N.ones 16).
  rewrite N.land_ones. change (2 ^ 16) with 65536.
  destruct (swap16 (x / 65536)) as [_ B1]; [change (2 ^ 16) with 65536; lia|].
  destruct (swap16 (x mod 65536)) as [_ B2]; [change (2 ^ 16) with 65536; lia|].
  rewrite lor_add by exact B1. change (2 ^ 16) with 65536 in *. split; [reflexivity|]. clear -B1 B2. lia.
Qed.
Lemma swap64 x : x < 2 ^ 64 -> byteswap64 x = byteswap32 (x / 2 ^ 32) + byteswap32 (x mod 2 ^ 32) * 2 ^ 32.
Proof.
  intros H. unfold byteswap64. rewrite N.shiftr_div_pow2. change 4294967295 with (N.ones 32). rewrite N.land_ones.
  destruct (swap32 (x / 2 ^ 32)) as [_ B1]; [change (2 ^ 32) with 4294967296; change (2 ^ 64) with 18446744073709551616 in H; lia|].
  rewrite lor_add by exact B1. reflexivity.
Qed.

(** The swap of a pair of halves is the pair of swapped halves, exchanged. *)
Lemma le_bytes_app w v x : le_bytes (w + v) x = le_bytes w x ++ le_bytes v (x / 256 ^ N.of_nat w).
Proof.
  revert x. induction w as [|w IH]; intros x; cbn [plus le_bytes app]; [change (256 ^ N.of_nat 0) with 1; rewrite N.div_1_r; reflexivity|].
  rewrite IH, N.div_div, Nat2N.inj_succ, N.pow_succ_r' by (try apply N.pow_nonzero; discriminate). reflexivity.
Qed.
Lemma le_value_app a b : le_value (a ++ b) = le_value a + 256 ^ N.of_nat (length a) * le_value b.
Proof.
  induction a as [|x a IH]; cbn [app le_value length]; [change (256 ^ N.of_nat 0) with 1; lia|].
  rewrite IH, Nat2N.inj_succ, N.pow_succ_r' by lia. lia.
Qed.
Lemma le_bytes_mod w x : le_bytes w (x mod 256 ^ N.of_nat w) = le_bytes w x.
Proof.
  revert x. induction w as [|w IH]; intros x; [reflexivity|]. cbn [le_bytes]. rewrite Nat2N.inj_succ, N.pow_succ_r' by lia.
  assert (256 ^ N.of_nat w <> 0) as P by (apply N.pow_nonzero; discriminate).
  rewrite (N.mod_mul_r x 256 (256 ^ N.of_nat w)) by (exact P || discriminate).
  f_equal.
  - rewrite N.mul_comm, N.mod_add by discriminate. apply N.mod_mod. discriminate.
  - rewrite N.mul_comm, N.div_add by discriminate. rewrite N.div_small by (apply N.mod_lt; discriminate). rewrite N.add_0_l. apply IH.
Qed.
Lemma bswap_halves w x : bswap (w + w) x = bswap w (x / 256 ^ N.of_nat w) + bswap w (x mod 256 ^ N.of_nat w) * 256 ^ N.of_nat w.
Proof.
  unfold bswap. rewrite le_bytes_app, rev_app_distr, le_value_app, rev_length, le_bytes_mod.
  assert (length (le_bytes w (x / 256 ^ N.of_nat w)) = w) as ->; [|lia].
  generalize (x / 256 ^ N.of_nat w). clear. induction w; intros n; [reflexivity|]. cbn. f_equal. apply IHw.
Qed.

Lemma byteswap16_ok x : x < 2 ^ 16 -> byteswap16 x = bswap 2 x.
Proof.
  intros H. rewrite (proj1 (swap16 x H)). change 2%nat with (1 + 1)%nat. rewrite bswap_halves. change (256 ^ N.of_nat 1) with 256.
  change (2 ^ 16) with 65536 in H. unfold bswap. cbn [le_bytes rev app le_value]. lia.
Qed.
Lemma byteswap32_ok x : x < 2 ^ 32 -> byteswap32 x = bswap 4 x.
Proof.
  intros H. rewrite (proj1 (swap32 x H)). change 4%nat with (2 + 2)%nat. rewrite bswap_halves. change (256 ^ N.of_nat 2) with 65536.
  change (2 ^ 32) with 4294967296 in H.
  rewrite !byteswap16_ok by (change (2 ^ 16) with 65536; lia). reflexivity.
Qed.
Lemma byteswap64_ok x : x < 2 ^ 64 -> byteswap64 x = bswap 8 x.
Proof.
  intros H. rewrite (swap64 x H). change 8%nat with (4 + 4)%nat. rewrite bswap_halves. change (256 ^ N.of_nat 4) with (2 ^ 32).
  change (2 ^ 64) with 18446744073709551616 in H.
  rewrite !byteswap32_ok by (change (2 ^ 32) with 4294967296; lia). reflexivity.
Qed.

(** What the functions give, stored in the memory of a little-endian Windows machine, has the most significant byte first; what
    they make of big-endian memory is its value. *)
Theorem C06_windows_big_endian : forall x16 x32 x64, x16 < 2 ^ 16 -> x32 < 2 ^ 32 -> x64 < 2 ^ 64 ->
  store_word LittleEndian 2 (win_htobe16 x16) = be_bytes 2 x16 /\
  store_word LittleEndian 4 (win_htobe32 x32) = be_bytes 4 x32 /\
  store_word LittleEndian 8 (win_htobe64 x64) = be_bytes 8 x64.
Proof.
  intros a b c Ha Hb Hc. unfold win_htobe16, win_htobe32, win_htobe64. rewrite byteswap16_ok, byteswap32_ok, byteswap64_ok by assumption.
  repeat split; apply (htobe_memory LittleEndian).
Qed.
Print Assumptions C06_windows_big_endian.

Lemma load_bound w l : length l = w -> bytes_ok l -> load_word LittleEndian l < 256 ^ N.of_nat w.
Proof.
  intros <-. cbn [load_word]. induction l as [|b l IH]; intros H; [reflexivity|]. inversion H as [|? ? Hb Hl]; subst. specialize (IH Hl).
  unfold byte_ok in Hb. cbn [le_value length]. rewrite Nat2N.inj_succ, N.pow_succ_r' by lia. lia.
Qed.
Theorem C06_windows_reads_big_endian : forall l, bytes_ok l ->
  (length l = 2%nat -> win_be16toh (load_word LittleEndian l) = be_value l) /\
  (length l = 4%nat -> win_be32toh (load_word LittleEndian l) = be_value l) /\
  (length l = 8%nat -> win_be64toh (load_word LittleEndian l) = be_value l).
Proof.
  intros l Hl. unfold win_be16toh, win_be32toh, win_be64toh. split; [|split]; intros E; pose proof (load_bound _ l E Hl) as B.
  - rewrite byteswap16_ok by exact B. apply (betoh_load LittleEndian 2 l E Hl).
  - rewrite byteswap32_ok by exact B. apply (betoh_load LittleEndian 4 l E Hl).
  - rewrite byteswap64_ok by exact B. apply (betoh_load LittleEndian 8 l E Hl).
Qed.
Print Assumptions C06_windows_reads_big_endian.

Theorem C06_windows_little_endian : forall x16 x32 x64,
  store_word LittleEndian 2 (win_htole16 x16) = lsb_bytes 2 x16 /\ win_le16toh (win_htole16 x16) = x16 /\
  store_word LittleEndian 4 (win_htole32 x32) = lsb_bytes 4 x32 /\ win_le32toh (win_htole32 x32) = x32 /\
  store_word LittleEndian 8 (win_htole64 x64) = lsb_bytes 8 x64 /\ win_le64toh (win_htole64 x64) = x64.
Proof.
  intros a b c. split; [apply (htole_memory LittleEndian)|split; [reflexivity|split; [apply (htole_memory LittleEndian)|split; [reflexivity|
    split; [apply (htole_memory LittleEndian)|reflexivity]]]]].
Qed.
Print Assumptions C06_windows_little_endian.

(** Zephyr, on both kinds of machines. *)
Theorem C06_zephyr_big_endian : forall e x16 x64, x16 < 2 ^ 16 -> x64 < 2 ^ 64 ->
  store_word e 2 (zephyr_htobe16 e x16) = be_bytes 2 x16 /\ zephyr_be16toh e (zephyr_htobe16 e x16) = x16 /\
  store_word e 8 (zephyr_htobe64 e x64) = be_bytes 8 x64 /\ zephyr_be64toh e (zephyr_htobe64 e x64) = x64.
Proof.
  intros e x16 x64 H1 H2.
  assert (zephyr_htobe16 e x16 = htobe e 2 x16) as E1 by (destruct e; [apply byteswap16_ok, H1|reflexivity]).
  assert (zephyr_htobe64 e x64 = htobe e 8 x64) as E2 by (destruct e; [apply byteswap64_ok, H2|reflexivity]).
  rewrite E1, E2. split; [apply htobe_memory|]. split; [|split; [apply htobe_memory|]]; rewrite <- ?E1, <- ?E2; destruct e; cbn; try reflexivity.
  - rewrite byteswap16_ok by (apply swap16, H1). rewrite byteswap16_ok by exact H1. apply (betoh_htobe LittleEndian 2 x16 H1).
  - assert (byteswap64 x64 < 2 ^ 64) as B.
    { rewrite (swap64 x64 H2). change (2 ^ 64) with 18446744073709551616 in *.
      destruct (swap32 (x64 / 2 ^ 32)) as [_ B1]; [change (2 ^ 32) with 4294967296; lia|].
      destruct (swap32 (x64 mod 2 ^ 32)) as [_ B2]; [change (2 ^ 32) with 4294967296; lia|].
      change (2 ^ 32) with 4294967296 in *. clear -B1 B2. lia. }
    rewrite byteswap64_ok by exact B. rewrite byteswap64_ok by exact H2. apply (betoh_htobe LittleEndian 8 x64 H2).
Qed.
Print Assumptions C06_zephyr_big_endian.

Example endian_values : win_htobe32 0x11223344 = 0x44332211 /\ zephyr_htobe64 LittleEndian 0x1122334455667788 = 0x8877665544332211 /\
  0x11223344 < 2 ^ 32.
Proof. vm_compute. auto. Qed.
