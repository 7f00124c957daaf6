From Coq Require Import Znumtheory Zpow_facts.
From Verif Require Import Base RandomModel RandomSpec.
Ltac Zify.zify_post_hook ::= Z.div_mod_to_equations.
Local Open Scope N_scope.

Lemma get_bytes_length n r : length (snd (random_get_bytes r n)) = n.
Proof.
  revert r. induction n as [|n IH]; intros r; [reflexivity|]. cbn [random_get_bytes].
  unfold pcg32_random. specialize (IH (pcg_step r)).
  destruct (random_get_bytes (pcg_step r) n) as [r'' bytes]. cbn in *. lia.
Qed.

Lemma get_bytes_ok n r : bytes_ok (snd (random_get_bytes r n)).
Proof.
  revert r. induction n as [|n IH]; intros r; [constructor|]. cbn [random_get_bytes].
  unfold pcg32_random. specialize (IH (pcg_step r)).
  destruct (random_get_bytes (pcg_step r) n) as [r'' bytes]. cbn in *.
  constructor; [unfold byte_ok; lia|exact IH].
Qed.

Lemma get_bytes_split m n r :
  random_get_bytes r (m + n) =
  (fst (random_get_bytes (fst (random_get_bytes r m)) n),
   snd (random_get_bytes r m) ++ snd (random_get_bytes (fst (random_get_bytes r m)) n)).
Proof.
  revert r. induction m as [|m IH]; intros r.
  - cbn. destruct (random_get_bytes r n); reflexivity.
  - cbn [plus random_get_bytes]. unfold pcg32_random. rewrite IH.
    destruct (random_get_bytes (pcg_step r) m) as [r1 b1]. cbn [fst snd].
    destruct (random_get_bytes r1 n) as [r2 b2]. reflexivity.
Qed.

Lemma iter_swap n {A} (f : A -> A) x : Nat.iter n f (f x) = f (Nat.iter n f x).
Proof. induction n as [|n IH]; [reflexivity|]. cbn in *. f_equal. exact IH. Qed.

Lemma get_bytes_state n r : fst (random_get_bytes r n) = Nat.iter n pcg_step r.
Proof.
  revert r. induction n as [|n IH]; intros r; [reflexivity|]. cbn [random_get_bytes].
  unfold pcg32_random. specialize (IH (pcg_step r)).
  destruct (random_get_bytes (pcg_step r) n) as [r'' bytes]. cbn [fst] in *. rewrite IH.
  rewrite iter_swap. reflexivity.
Qed.

Lemma lor_1_odd x : N.lor x 1 mod 2 = 1.
Proof.
  rewrite <- N.bit0_mod. rewrite N.lor_spec. destruct (N.testbit x 0); reflexivity.
Qed.

Lemma srandom_inc_odd s q : rng_inc (pcg_srandom s q) mod 2 = 1.
Proof. unfold pcg_srandom. cbn [pcg_step rng_inc]. apply lor_1_odd. Qed.

Lemma srandom_range s q : rng_state (pcg_srandom s q) < U64 /\ rng_inc (pcg_srandom s q) < U64.
Proof.
  unfold pcg_srandom. cbn [pcg_step rng_inc rng_state]. split.
  - apply N.mod_lt. discriminate.
  - assert (N.shiftl q 1 mod U64 < U64) as H by (apply N.mod_lt; discriminate).
    assert (N.shiftl q 1 mod U64 mod 2 = 0) as H2.
    { rewrite N.shiftl_mul_pow2. unfold U64. change (2 ^ 1) with 2. change (2^64) with 18446744073709551616. lia. }
    set (x := N.shiftl q 1 mod U64) in *. clearbody x.
    assert (N.lor x 1 = x + 1) as ->.
    { assert (x = N.double (x / 2)) as -> by (rewrite N.double_spec; lia).
      generalize (x / 2). intros y. destruct y; [reflexivity|]. cbn. lia. }
    unfold U64 in *. change (2^64) with 18446744073709551616 in *. lia.
Qed.

(** ** Full period (Hull-Dobell for modulus 2^k, multiplier 1 mod 4, odd increment) *)

Local Open Scope Z_scope.

Fixpoint geo (a : Z) (n : nat) : Z := match n with O => 0 | S n' => 1 + a * geo a n' end.

Lemma geo_add a n m : geo a (n + m) = geo a n + a ^ Z.of_nat n * geo a m.
Proof.
  induction n as [|n IH]; [cbn [geo plus]; change (Z.of_nat 0) with 0; rewrite Z.pow_0_r; ring|].
  cbn [plus geo]. rewrite IH, Nat2Z.inj_succ, Z.pow_succ_r by lia. ring.
Qed.

Lemma pow_mod4 a n : a mod 4 = 1 -> (a ^ Z.of_nat n) mod 4 = 1.
Proof.
  intros Ha. induction n as [|n IH]; [reflexivity|].
  rewrite Nat2Z.inj_succ, Z.pow_succ_r by lia. rewrite Z.mul_mod by lia. rewrite Ha, IH. reflexivity.
Qed.

Lemma geo_odd a n : a mod 4 = 1 -> geo a n mod 2 = Z.of_nat n mod 2.
Proof.
  intros Ha. induction n as [|n IH]; [reflexivity|]. cbn [geo].
  assert (a mod 2 = 1) by lia.
  rewrite Z.add_mod, Z.mul_mod by lia. rewrite H, IH. lia.
Qed.

Lemma geo_pow2 a : a mod 4 = 1 -> forall k n, (2 ^ Z.of_nat k | geo a n) <-> (2 ^ Z.of_nat k | Z.of_nat n).
Proof.
  intros Ha. induction k as [|k IH]; intros n.
  - cbn. split; intros _; apply Z.divide_1_l.
  - rewrite Nat2Z.inj_succ, Z.pow_succ_r by lia.
    destruct (Nat.Even_or_Odd n) as [[m ->]|[m ->]].
    + replace (2 * m)%nat with (m + m)%nat by lia. rewrite geo_add.
      pose proof (pow_mod4 a m Ha) as Hp.
      set (p := a ^ Z.of_nat m) in *. clearbody p.
      assert (H2 : 1 + p = 2 * ((1 + p) / 2)) by lia.
      replace (geo a m + p * geo a m) with ((1 + p) * geo a m) by ring.
      rewrite H2, <- Z.mul_assoc. clear H2.
      replace (Z.of_nat (m + m)) with (2 * Z.of_nat m) by lia.
      assert (Hodd : ((1 + p) / 2) mod 2 = 1) by lia.
      set (o := (1 + p) / 2) in *. clearbody o.
      rewrite !Z.mul_divide_cancel_l by lia. rewrite <- IH. split.
      * intros Hd. apply Znumtheory.Gauss with (b := o); [exact Hd|].
        apply Znumtheory.rel_prime_sym. apply Zpow_facts.rel_prime_Zpower_r; [lia|].
        apply Znumtheory.rel_prime_sym. apply Znumtheory.prime_rel_prime; [apply Znumtheory.prime_2|].
        intros [c Hc]. lia.
      * intros Hd. apply Z.divide_mul_r, Hd.
    + assert (Hg := geo_odd a (2 * m + 1) Ha).
      split; intros [c Hc]; exfalso.
      * assert (geo a (2 * m + 1) = 2 * (c * 2 ^ Z.of_nat k)) by lia. lia.
      * assert (Z.of_nat (2 * m + 1) = 2 * (c * 2 ^ Z.of_nat k)) by lia. lia.
Qed.

(** ** The generator has period exactly 2^64 *)

Definition zstate (r : rng) : Z := Z.of_N (rng_state r).

Lemma iter_state n r : (rng_state r < U64)%N ->
  zstate (Nat.iter n pcg_step r) =
    (zstate r + geo (Z.of_N MULTIPLIER) n * ((Z.of_N MULTIPLIER - 1) * zstate r + Z.of_N (rng_inc r))) mod 2 ^ 64
  /\ rng_inc (Nat.iter n pcg_step r) = rng_inc r.
Proof.
  intros Hr. set (a := Z.of_N MULTIPLIER). induction n as [|n [IH IHi]].
  - change (Nat.iter 0 pcg_step r) with r. cbn [geo]. split; [|reflexivity]. rewrite Z.mul_0_l, Z.add_0_r.
    symmetry. apply Z.mod_small. unfold zstate.
    change U64 with 18446744073709551616%N in Hr. change (2 ^ 64) with 18446744073709551616. lia.
  - change (Nat.iter (S n) pcg_step r) with (pcg_step (Nat.iter n pcg_step r)).
    set (r1 := Nat.iter n pcg_step r) in *. clearbody r1.
    split; [|exact IHi].
    unfold zstate in *. unfold pcg_step. cbn [rng_state]. rewrite N2Z.inj_mod, N2Z.inj_add, N2Z.inj_mul, IHi, IH.
    fold a. change (Z.of_N U64) with (2 ^ 64).
    set (x := Z.of_N (rng_state r)). set (c := Z.of_N (rng_inc r)). cbn [geo].
    rewrite <- Z.add_mod_idemp_l, Z.mul_mod_idemp_l, Z.add_mod_idemp_l by lia.
    f_equal. ring.
Qed.

Lemma full_period r n : (rng_state r < U64)%N -> (rng_inc r < U64)%N -> (rng_inc r mod 2 = 1)%N ->
  Nat.iter n pcg_step r = r <-> (2 ^ 64 | Z.of_nat n).
Proof.
  intros Hs Hi Ho. destruct (iter_state n r Hs) as [E Ei].
  change 64 with (Z.of_nat 64). rewrite <- (geo_pow2 (Z.of_N MULTIPLIER) eq_refl).
  change (Z.of_nat 64) with 64.
  set (a := Z.of_N MULTIPLIER) in *. set (g := geo a n) in *.
  set (k := (a - 1) * zstate r + Z.of_N (rng_inc r)) in *.
  assert (Hk : k mod 2 = 1).
  { unfold k. replace ((a - 1) * zstate r) with (2 * (((a - 1) / 2) * zstate r)).
    - lia.
    - replace (a - 1) with (2 * ((a - 1) / 2)) at 2 by reflexivity. ring. }
  assert (Hz : 0 <= zstate r < 2 ^ 64) by (unfold zstate in *; change U64 with 18446744073709551616%N in Hs; change (2 ^ 64) with 18446744073709551616; lia).
  assert (Hiff : Nat.iter n pcg_step r = r <-> (zstate r + g * k) mod 2 ^ 64 = zstate r).
  { rewrite <- E. split; [intros ->; reflexivity|]. intros H.
    destruct (Nat.iter n pcg_step r) as [s1 i1], r as [s2 i2]. unfold zstate in H. cbn in *. f_equal; [lia|exact Ei]. }
  rewrite Hiff. clearbody k g. split.
  - intros H. apply Znumtheory.Gauss with (b := k).
    + exists ((zstate r + g * k) / 2 ^ 64). pose proof (Z.div_mod (zstate r + g * k) (2 ^ 64)). lia.
    + apply Znumtheory.rel_prime_sym. apply Zpow_facts.rel_prime_Zpower_r; [lia|].
      apply Znumtheory.rel_prime_sym. apply Znumtheory.prime_rel_prime; [apply Znumtheory.prime_2|].
      intros [c Hc]. lia.
  - intros [c Hc]. rewrite Hc. replace (zstate r + c * 2 ^ 64 * k) with (zstate r + (c * k) * 2 ^ 64) by ring.
    rewrite Z.mod_add by lia. apply Z.mod_small, Hz.
Qed.

Lemma seeded_full_period e n : Nat.iter n pcg_step (fst (seed_rng e)) = fst (seed_rng e) <-> (2 ^ 64 | Z.of_nat n).
Proof.
  assert (H : forall s q, Nat.iter n pcg_step (pcg_srandom s q) = pcg_srandom s q <-> (2 ^ 64 | Z.of_nat n)).
  { intros s q. destruct (srandom_range s q). apply full_period; [assumption..|apply srandom_inc_odd]. }
  destruct e as [[s0 s1]|err]; apply H.
Qed.

(** ** Output against the specification *)
Local Open Scope N_scope.

Lemma srandom_spec seed q : pcg_srandom seed q = mk_rng (pcg_first seed q) (pcg_increment q).
Proof.
  unfold pcg_srandom, pcg_step. cbn [rng_state rng_inc].
  assert (E : N.lor (N.shiftl q 1 mod U64) 1 = pcg_increment q).
  { unfold pcg_increment. rewrite N.shiftl_mul_pow2. change (2 ^ 1) with 2. change (2 ^ 64) with U64.
    set (x := q * 2 mod U64).
    assert (Hx : x mod 2 = 0) by (unfold x, U64; change (2^64) with 18446744073709551616; lia).
    assert (Hl : x < U64) by (apply N.mod_lt; discriminate).
    assert (N.lor x 1 = x + 1) as ->.
    { assert (x = N.double (x / 2)) as -> by (rewrite N.double_spec; lia).
      generalize (x / 2). intros y. destruct y; [reflexivity|]. cbn. lia. }
    unfold x in *. change U64 with 18446744073709551616 in *. clear x. lia. }
  rewrite E. f_equal. unfold pcg_first, pcg_next. change (2 ^ 64) with U64.
  set (i := pcg_increment q). set (a := 6364136223846793005). change MULTIPLIER with a.
  rewrite N.mul_0_l, N.add_0_l.
  rewrite <- N.add_mod_idemp_l by discriminate. rewrite N.mul_mod_idemp_l by discriminate.
  rewrite (N.mul_comm _ a).
  rewrite (N.add_mod_idemp_l (a * _)) by discriminate.
  rewrite <- (N.add_mod_idemp_l (a * (i + seed))) by discriminate.
  rewrite <- (N.add_mod_idemp_l (a * _) i) by discriminate. f_equal. f_equal.
  rewrite <- N.mul_mod_idemp_r by discriminate. rewrite N.add_mod_idemp_l by discriminate.
  rewrite N.mul_mod_idemp_r by discriminate. reflexivity.
Qed.

Lemma step_iter seed q i : Nat.iter i pcg_step (pcg_srandom seed q) = mk_rng (pcg_state seed q i) (pcg_increment q).
Proof.
  rewrite srandom_spec. induction i as [|i IH]; [reflexivity|].
  change (Nat.iter (S i) pcg_step ?r) with (pcg_step (Nat.iter i pcg_step r)). rewrite IH.
  unfold pcg_step. cbn [rng_state rng_inc]. f_equal.
  unfold pcg_state. change (Nat.iter (S i) ?f ?x) with (f (Nat.iter i f x)).
  unfold pcg_next. change U64 with (2 ^ 64). rewrite (N.mul_comm _ MULTIPLIER). reflexivity.
Qed.

Lemma shifted_bit s k : k < 32 ->
  N.testbit (N.shiftr (N.lxor (N.shiftr s FIRST_XOR_SHIFT) s) SECOND_XOR_SHIFT mod U32) k = pcg_shifted_bit s k.
Proof.
  intros Hk. change U32 with (2 ^ 32). rewrite N.mod_pow2_bits_low by exact Hk.
  rewrite N.shiftr_spec by apply N.le_0_l. rewrite N.lxor_spec, N.shiftr_spec by apply N.le_0_l.
  unfold pcg_shifted_bit, FIRST_XOR_SHIFT, SECOND_XOR_SHIFT. apply xorb_comm.
Qed.

Lemma rotr_bit x r j : x < 2 ^ 32 -> r < 32 -> j < 32 ->
  N.testbit (pcg_rotr_32 x r) j = N.testbit x ((j + r) mod 32).
Proof.
  intros Hx Hr Hj. unfold pcg_rotr_32.
  assert (E : N.land ((U32 - r mod U32) mod U32) RETURN_SHIFT = (32 - r) mod 32).
  { change RETURN_SHIFT with (N.ones 5). rewrite N.land_ones. change (2 ^ 5) with 32.
    change U32 with 4294967296. clear -Hr. lia. }
  rewrite E, N.lor_spec, N.shiftr_spec by apply N.le_0_l.
  change U32 with (2 ^ 32). rewrite N.mod_pow2_bits_low by exact Hj.
  assert (Hz : forall k, 32 <= k -> N.testbit x k = false).
  { intros k Hk. rewrite <- (N.mod_small x (2 ^ 32)) by exact Hx. apply N.mod_pow2_bits_high. exact Hk. }
  destruct (N.eq_dec r 0) as [->|Hr0].
  - change ((32 - 0) mod 32) with 0. rewrite N.shiftl_0_r, N.add_0_r. rewrite N.mod_small by exact Hj. apply orb_diag.
  - assert ((32 - r) mod 32 = 32 - r) as -> by (clear -Hr Hr0; lia).
    destruct (N.lt_ge_cases (j + r) 32) as [L|L].
    + rewrite N.shiftl_spec_low by (clear -L; lia). rewrite orb_false_r.
      rewrite N.mod_small by exact L. reflexivity.
    + rewrite Hz by exact L. cbn [orb]. rewrite N.shiftl_spec_high by (clear -L; lia).
      f_equal. clear -L Hr Hj. lia.
Qed.

Lemma output_byte s : s < U64 -> pcg_byte s (pcg_output s mod 256).
Proof.
  intros Hs. split; [apply N.mod_lt; discriminate|]. intros j Hj.
  change 256 with (2 ^ 8). rewrite N.mod_pow2_bits_low by exact Hj.
  unfold pcg_output, pcg_output_bit.
  assert (E : N.shiftr s ROT_SHIFT mod U32 = s / 2 ^ 59).
  { unfold ROT_SHIFT. rewrite N.shiftr_div_pow2. change U64 with 18446744073709551616 in Hs. change U32 with 4294967296.
    change (2 ^ 59) with 576460752303423488. clear -Hs. lia. }
  assert (L : s / 2 ^ 59 < 32).
  { change U64 with 18446744073709551616 in Hs. change (2 ^ 59) with 576460752303423488. clear -Hs. lia. }
  rewrite E, rotr_bit; [|apply N.mod_lt; discriminate|exact L|clear -Hj; lia].
  apply shifted_bit. apply N.mod_lt. discriminate.
Qed.

Lemma get_bytes_nth n r i : (i < n)%nat ->
  nth_error (snd (random_get_bytes r n)) i = Some (pcg_output (rng_state (Nat.iter i pcg_step r)) mod 256).
Proof.
  revert r i. induction n as [|n IH]; intros r i Hi; [lia|]. cbn [random_get_bytes].
  unfold pcg32_random. specialize (IH (pcg_step r)).
  destruct (random_get_bytes (pcg_step r) n) as [r'' bytes]. cbn [snd] in *.
  destruct i as [|i]; [reflexivity|]. cbn [nth_error]. rewrite IH by lia.
  rewrite iter_swap. reflexivity.
Qed.

Lemma state_range seed q i : pcg_state seed q i < U64.
Proof.
  unfold pcg_state. destruct i as [|i].
  - apply N.mod_lt. discriminate.
  - change (Nat.iter (S i) ?f ?x) with (f (Nat.iter i f x)). apply N.mod_lt. discriminate.
Qed.

Lemma seeded_bytes seed q n i : (i < n)%nat ->
  exists b, nth_error (snd (random_get_bytes (pcg_srandom seed q) n)) i = Some b /\ pcg_byte (pcg_state seed q i) b.
Proof.
  intros Hi. eexists. split; [apply get_bytes_nth, Hi|]. rewrite step_iter. cbn [rng_state].
  apply output_byte, state_range.
Qed.

Lemma seed_reports (entropy : (N * N) + Z) :
  snd (seed_rng entropy) = match entropy with inl _ => 0%Z | inr err => err end /\
  (forall err, entropy = inr err -> fst (seed_rng entropy) = fst (seed_rng (inl (0, 0)))).
Proof. destruct entropy as [[a b]|err]; (split; [reflexivity|]); intros e E; [discriminate|reflexivity]. Qed.
