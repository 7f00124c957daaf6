(** C71: random numbers come from the system's source of entropy, or the failure is reported. *)
From Coq Require Import Znumtheory Zpow_facts.
From Verif Require Import Base MaskModel MaskProofs EndianSpec EndianProofs RandomModel RandomSpec RandomProofs Entropy EntropySpec.
Ltac Zify.zify_post_hook ::= Z.div_mod_to_equations.
Local Open Scope N_scope.

Lemma value_le l : value LittleEndian l = le_value l.
Proof. induction l as [|b l IH]; [reflexivity|]. cbn [value le_value]. rewrite IH. reflexivity. Qed.

Lemma be_fold l a : fold_left (fun a b => a * 256 + b) l a = a * 256 ^ N.of_nat (length l) + be_value l.
Proof.
  unfold be_value. revert a. induction l as [|b l IH]; intros a; cbn [fold_left length].
  - change (N.of_nat 0) with 0. rewrite N.pow_0_r. lia.
  - rewrite IH, (IH (0 * 256 + b)). rewrite Nat2N.inj_succ, N.pow_succ_r' by lia. lia.
Qed.
Lemma value_be l : value BigEndian l = be_value l.
Proof.
  induction l as [|b l IH]; [reflexivity|]. cbn [value]. rewrite IH. unfold be_value at 2. cbn [fold_left].
  rewrite be_fold. lia.
Qed.
Lemma load_value e l : load_word e l = value e l.
Proof.
  destruct e; cbn [load_word]; [symmetry; apply value_le|]. rewrite value_be, <- be_value_rev, rev_involutive. reflexivity.
Qed.

Lemma value_bound e l : bytes_ok l -> value e l < 256 ^ N.of_nat (length l).
Proof.
  induction l as [|b l IH]; intros H; cbn [length]; [destruct e; reflexivity|].
  inversion H as [|? ? Hb Hl]; subst. specialize (IH Hl). unfold byte_ok in Hb.
  rewrite Nat2N.inj_succ, N.pow_succ_r' by lia. destruct e; cbn [value]; nia.
Qed.

(** The order of the bytes does not lose anything. *)
Lemma value_inj e l l' : length l = length l' -> bytes_ok l -> bytes_ok l' -> value e l = value e l' -> l = l'.
Proof.
  revert l'. induction l as [|b l IH]; intros [|b' l'] HL H H' E; try discriminate; [reflexivity|].
  inversion H as [|? ? Hb Hl]; inversion H' as [|? ? Hb' Hl']; subst. unfold byte_ok in *. injection HL as HL.
  pose proof (value_bound e l Hl) as B. pose proof (value_bound e l' Hl') as B'. rewrite <- HL in B'.
  cbn [value] in E. rewrite <- ?HL in E.
  assert (b = b' /\ value e l = value e l') as [-> Ev].
  { destruct e.
    - split; lia.
    - set (w := 256 ^ N.of_nat (length l)) in *. clearbody w.
      assert (b = b') as ->; [|lia].
      assert ((b * w + value BigEndian l) / w = (b' * w + value BigEndian l') / w) as D by (rewrite E; reflexivity).
      rewrite !N.div_add_l, !N.div_small in D by lia. lia. }
  f_equal. apply IH; assumption.
Qed.

(** On Linux, and on Windows for sizes that fit in 32 bits: the function succeeds exactly if the system gave the bytes, and then every
    byte of the caller's memory is the system's. *)
Theorem C71_entropy_is_fresh_or_refused : forall p dev a old n, p = Linux \/ (p = Windows /\ n < 2 ^ 32) ->
  N.of_nat (length old) = n -> lawful p n a ->
  exists err m, entropy_get_bytes p dev a old n = Ret (err, m) /\
    (err = 0%Z <-> gave a) /\ (gave a -> fresh a n m) /\ N.of_nat (length m) = n.
Proof.
  intros p dev a old n Hp Ho HA.
  assert (asked p n = n) as En.
  { destruct Hp as [->|[-> Hn]]; [reflexivity|]. apply N.mod_small, Hn. }
  unfold entropy_get_bytes. rewrite En.
  assert (skipn (N.to_nat n) old = []) as Es by (apply skipn_all2; lia). rewrite Es, app_nil_r.
  destruct a as [l|code l]; cbn [in_memory].
  - exists SUCCESS, l. destruct HA as (Hl & _ & _).
    split; [destruct Hp as [->|[-> _]]; reflexivity|]. split; [split; [intros _; exists l; reflexivity|reflexivity]|].
    split; [intros _; split; [reflexivity|exact Hl]|exact Hl].
  - destruct HA as (Hl & _ & Hc). assert (~ gave (Fails code l)) as G by (intros [? X]; discriminate X).
    destruct Hp as [->|[-> _]]; eexists; exists l; (split; [reflexivity|]);
      (split; [split; [intros X; exfalso|intros X; contradiction]|split; [intros X; contradiction|exact Hl]]); [lia|discriminate X].
Qed.
Print Assumptions C71_entropy_is_fresh_or_refused.

(** Requests for more than 256 bytes always fail on Linux. *)
Theorem C71_linux_limit : forall dev a old n, N.of_nat (length old) = n -> lawful Linux n a -> 256 < n ->
  exists err m, entropy_get_bytes Linux dev a old n = Ret (err, m) /\ (err < 0)%Z.
Proof.
  intros dev a old n Ho HA Hn. destruct a as [l|code l].
  - destruct HA as (_ & _ & X). specialize (X eq_refl). lia.
  - destruct HA as (_ & _ & Hc). eexists _, _. split; [reflexivity|lia].
Qed.
Print Assumptions C71_linux_limit.

(** On Zephyr: if there is a device, it delivers, and the size fits in 16 bits. *)
Theorem C71_zephyr_partial : forall a old n, N.of_nat (length old) = n -> lawful Zephyr n a -> gave a -> n < 2 ^ 16 ->
  exists m, entropy_get_bytes Zephyr true a old n = Ret (0%Z, m) /\ fresh a n m.
Proof.
  intros a old n Ho HA [l ->] Hn. exists l. unfold entropy_get_bytes, asked. rewrite N.mod_small by exact Hn.
  cbn [in_memory]. rewrite skipn_all2 by lia. rewrite app_nil_r. destruct HA as (Hl & _ & _). repeat split; assumption.
Qed.
Print Assumptions C71_zephyr_partial.

(** A seeded generator on Linux and Windows: success is reported exactly if the system gave 16 bytes; the bytes it generates are then
    those of the PCG generator with these 16 bytes as seed and stream; after a failure it is the one and the same generator always. *)
Theorem C71_seeded_from_entropy : forall e p dev a old, p = Linux \/ p = Windows ->
  length old = 16%nat -> lawful p 16 a ->
  exists g err, seed e p dev a old = Ret (g, err) /\
    (err = 0%Z <-> gave a) /\
    (forall l, a = Gives l -> forall n i, (i < n)%nat ->
       exists b, nth_error (snd (random_get_bytes g n)) i = Some b /\
         pcg_byte (pcg_state (value e (firstn 8 l)) (value e (skipn 8 l)) i) b) /\
    (err <> 0%Z -> g = pcg_srandom 0 0).
Proof.
  intros e p dev a old Hp Ho HA.
  destruct (C71_entropy_is_fresh_or_refused p dev a old 16) as (err & m & E & Hi & Hf & Hm);
    [destruct Hp as [-> | ->]; [left|right; split]; reflexivity|rewrite Ho; reflexivity|exact HA|].
  unfold seed. rewrite E. cbn [obind]. destruct (err =? SUCCESS)%Z eqn:Es.
  - apply Z.eqb_eq in Es. eexists _, _. split; [cbn [seed_rng]; reflexivity|]. unfold SUCCESS in Es. split.
    + split; [intros _; apply Hi; exact Es|reflexivity].
    + split; [|intros X; exfalso; apply X; reflexivity]. intros l El n i Hn.
      assert (gave a) as G by (exists l; exact El). destruct (Hf G) as [Ea _]. rewrite El in Ea. injection Ea as <-.
      rewrite !load_value. rewrite (firstn_all2 (skipn 8 l)) by (rewrite skipn_length; lia).
      apply (seeded_bytes (value e (firstn 8 l)) (value e (skipn 8 l)) n i Hn).
  - apply Z.eqb_neq in Es. eexists _, _. split; [reflexivity|]. split; [rewrite <- Hi; reflexivity|]. split; [|reflexivity].
    intros l El. exfalso. apply Es, Hi. exists l. exact El.
Qed.
Print Assumptions C71_seeded_from_entropy.

(** Which seeds give the same generator: the first 8 bytes count in full, of the others all bits but the highest. *)
Lemma srandom_inj s q s' q' : s < 2 ^ 64 -> s' < 2 ^ 64 -> q < 2 ^ 64 -> q' < 2 ^ 64 ->
  pcg_srandom s q = pcg_srandom s' q' <-> s = s' /\ q mod 2 ^ 63 = q' mod 2 ^ 63.
Proof.
  intros Hs Hs' Hq Hq'. rewrite !srandom_spec.
  assert (forall q, q < 2 ^ 64 -> pcg_increment q = 2 * (q mod 2 ^ 63) + 1) as Hinc.
  { intros x Hx. unfold pcg_increment. change (2 ^ 64) with 18446744073709551616. change (2 ^ 63) with 9223372036854775808. lia. }
  split.
  - intros E. injection E as E1 E2. rewrite (Hinc q Hq), (Hinc q' Hq') in E2.
    assert (q mod 2 ^ 63 = q' mod 2 ^ 63) as Eq by lia. split; [|exact Eq].
    unfold pcg_first in E1. rewrite (Hinc q Hq), (Hinc q' Hq'), <- Eq in E1.
    set (i := 2 * (q mod 2 ^ 63) + 1) in *. clearbody i. unfold pcg_next in E1.
    set (a := 6364136223846793005) in *.
    assert (Znumtheory.rel_prime (2 ^ 64) (Z.of_N a)) as RP.
    { apply Znumtheory.rel_prime_sym, Zpow_facts.rel_prime_Zpower_r; [lia|].
      apply Znumtheory.rel_prime_sym, Znumtheory.prime_rel_prime; [apply Znumtheory.prime_2|].
      intros [c Hc]. unfold a in Hc. lia. }
    assert ((2 ^ 64 | Z.of_N a * (Z.of_N s - Z.of_N s')))%Z as D.
    { exists ((Z.of_N ((a * (i + s) + i) / 2 ^ 64)) - Z.of_N ((a * (i + s') + i) / 2 ^ 64))%Z.
      pose proof (N.div_mod (a * (i + s) + i) (2 ^ 64) ltac:(discriminate)) as D1.
      pose proof (N.div_mod (a * (i + s') + i) (2 ^ 64) ltac:(discriminate)) as D2.
      rewrite <- E1 in D2. set (r := (a * (i + s) + i) mod 2 ^ 64) in *. set (d1 := (a * (i + s) + i) / 2 ^ 64) in *.
      set (d2 := (a * (i + s') + i) / 2 ^ 64) in *. clearbody r d1 d2 a.
      change (2 ^ 64) with 18446744073709551616 in *. change (2 ^ 64)%Z with 18446744073709551616%Z.
      apply (f_equal Z.of_N) in D1, D2. rewrite !N2Z.inj_add, !N2Z.inj_mul, !N2Z.inj_add in D1, D2.
      change (Z.of_N 18446744073709551616) with 18446744073709551616%Z in *. clear -D1 D2. nia. }
    apply Znumtheory.Gauss in D; [|exact RP]. destruct D as [c Hc].
    change (2 ^ 64) with 18446744073709551616 in *. change (2 ^ 64)%Z with 18446744073709551616%Z in *.
    clear -Hc Hs Hs'. lia.
  - intros [-> Eq]. assert (pcg_increment q = pcg_increment q') as Ei by (rewrite (Hinc q Hq), (Hinc q' Hq'), Eq; reflexivity).
    unfold pcg_first. rewrite Ei. reflexivity.
Qed.

Lemma ret_fst {A B} (x y : A) (u v : B) : Ret (x, u) = Ret (y, v) -> y = x.
Proof. intros E. injection E. intros _ X. symmetry. exact X. Qed.

(** Two generators seeded from different bytes differ, except in the highest bit of the stream number: all of the entropy but one bit is
    used. *)
Theorem C71_entropy_is_used : forall e p dev p' dev' l l' old old' g g', p = Linux \/ p = Windows -> p' = Linux \/ p' = Windows ->
  length old = 16%nat -> length old' = 16%nat -> lawful p 16 (Gives l) -> lawful p' 16 (Gives l') ->
  seed e p dev (Gives l) old = Ret (g, 0%Z) -> seed e p' dev' (Gives l') old' = Ret (g', 0%Z) ->
  (g = g' <-> firstn 8 l = firstn 8 l' /\ value e (skipn 8 l) mod 2 ^ 63 = value e (skipn 8 l') mod 2 ^ 63).
Proof.
  assert (forall e p dev l old g, p = Linux \/ p = Windows -> length old = 16%nat -> lawful p 16 (Gives l) ->
    seed e p dev (Gives l) old = Ret (g, 0%Z) -> g = pcg_srandom (value e (firstn 8 l)) (value e (skipn 8 l)) /\
    length l = 16%nat /\ bytes_ok l) as K.
  { intros e p dev l old g Hp Ho HA E.
    destruct (C71_entropy_is_fresh_or_refused p dev (Gives l) old 16) as (err & m & Em & Hi & Hf & _);
      [destruct Hp as [-> | ->]; [left|right; split]; reflexivity|rewrite Ho; reflexivity|exact HA|].
    assert (gave (Gives l)) as G by (exists l; reflexivity).
    destruct (Hf G) as [Ea _]. injection Ea as <-. apply Hi in G. subst err.
    destruct HA as (HL & HB & _). assert (length l = 16%nat) as HL' by lia.
    unfold seed in E. rewrite Em in E. cbn [obind] in E. change (0 =? SUCCESS)%Z with true in E. cbv iota in E.
    cbn [seed_rng] in E. apply ret_fst in E. subst g. rewrite !load_value.
    rewrite (firstn_all2 (skipn 8 l)) by (rewrite skipn_length; lia). split; [reflexivity|split; assumption]. }
  intros e p dev p' dev' l l' old old' g g' Hp Hp' Ho Ho' HA HA' E E'.
  destruct (K _ _ _ _ _ _ Hp Ho HA E) as (-> & HL & HB). destruct (K _ _ _ _ _ _ Hp' Ho' HA' E') as (-> & HL' & HB').
  assert (forall x, bytes_ok x -> length x = 8%nat -> value e x < 2 ^ 64) as B.
  { intros x Hx Hlx. pose proof (value_bound e x Hx) as V. rewrite Hlx in V. exact V. }
  assert (bytes_ok (firstn 8 l) /\ bytes_ok (skipn 8 l)) as [B1 B2].
  { unfold bytes_ok in *. rewrite <- (firstn_skipn 8 l) in HB. apply Forall_app in HB. exact HB. }
  assert (bytes_ok (firstn 8 l') /\ bytes_ok (skipn 8 l')) as [B1' B2'].
  { unfold bytes_ok in *. rewrite <- (firstn_skipn 8 l') in HB'. apply Forall_app in HB'. exact HB'. }
  assert (length (firstn 8 l) = 8%nat /\ length (skipn 8 l) = 8%nat) as [L1 L2] by (rewrite firstn_length, skipn_length; lia).
  assert (length (firstn 8 l') = 8%nat /\ length (skipn 8 l') = 8%nat) as [L1' L2'] by (rewrite firstn_length, skipn_length; lia).
  rewrite srandom_inj by (apply B; assumption). split; intros [X Y]; split; try exact Y.
  - apply (value_inj e); congruence || assumption.
  - rewrite X. reflexivity.
Qed.
Print Assumptions C71_entropy_is_used.

(** The hypotheses can be met: 16 bytes given, and a failure. *)
Definition sixteen : list N := map N.of_nat (seq 1 16).
Example C71_given : lawful Linux 16 (Gives sixteen) /\
  (exists g, seed LittleEndian Linux true (Gives sixteen) (repeat 0 16) = Ret (g, 0%Z)) /\
  lawful Windows 16 (Fails 5 sixteen) /\
  seed LittleEndian Windows true (Fails 5 sixteen) (repeat 0 16) = Ret (pcg_srandom 0 0, INVALID_ARGUMENT).
Proof.
  split; [|split; [|split]].
  - repeat split; [|intros _; discriminate]. repeat constructor.
  - eexists. vm_compute. reflexivity.
  - repeat split; [|discriminate]. repeat constructor.
  - vm_compute. reflexivity.
Qed.

(** VIOLATED on Zephyr: the entropy driver fails, the generator is reported as seeded, and its state is what was on the stack. *)
Theorem C71_zephyr_failure_refuted : exists a old g, lawful Zephyr 16 a /\ ~ gave a /\ length old = 16%nat /\
  seed LittleEndian Zephyr true a old = Ret (g, 0%Z) /\ g = pcg_srandom 0 0.
Proof.
  exists (Fails (-5) (repeat 0 16)), (repeat 0 16). eexists.
  split; [repeat split; repeat constructor|split; [intros [? X]; discriminate X|split; [reflexivity|split; [vm_compute; reflexivity|vm_compute; reflexivity]]]].
Qed.
Print Assumptions C71_zephyr_failure_refuted.
(** VIOLATED on Zephyr: a missing device is used. *)
Theorem C71_zephyr_device_refuted : exists a old, lawful Zephyr 16 a /\ length old = 16%nat /\ seed LittleEndian Zephyr false a old = UB.
Proof. exists (Gives sixteen), (repeat 0 16). repeat split; [repeat constructor|intros X; discriminate X]. Qed.
Print Assumptions C71_zephyr_device_refuted.

(** VIOLATED on Windows and Zephyr: sizes are cut to 32 and 16 bits; the rest of the memory keeps what it contained and success is
    reported.  The statement holds for any memory of the size 2^32 (2^16). *)
Theorem C71_truncation_refuted : forall p n, p = Windows /\ n = 2 ^ 32 \/ p = Zephyr /\ n = 2 ^ 16 ->
  forall old, N.of_nat (length old) = n ->
  exists a, lawful p 0 a /\ entropy_get_bytes p true a old n = Ret (0%Z, old).
Proof.
  intros p n Hp old Ho. exists (Gives []).
  destruct Hp as [[-> ->]|[-> ->]]; (split; [repeat split; [constructor|intros X; discriminate X]|]); unfold entropy_get_bytes, asked;
    [rewrite N.mod_same by discriminate|rewrite N.mod_same by discriminate]; reflexivity.
Qed.
Print Assumptions C71_truncation_refuted.
