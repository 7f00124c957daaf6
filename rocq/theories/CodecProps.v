(** Properties C01-C07 and C44: codecs and pure functions.
    Only statements, closed by lemmas proved elsewhere, and non-vacuity examples. *)
From Verif Require Import Base.
From Verif Require Import Utf8Model Utf8Spec Utf8Proofs.
From Verif Require Import Base64Model Base64Spec Base64Proofs.
From Verif Require Import MaskModel MaskSpec MaskProofs.
From Verif Require Import EndianModel EndianSpec EndianProofs.
From Verif Require Import MemmemModel MemmemSpec MemmemProofs.
From Verif Require Import Sha1Model Sha1Spec Sha1Proofs.
From Verif Require Import RandomModel RandomSpec RandomProofs.

(** * C01 *)
Theorem utf8_checker_decides_rfc3629 : forall (w addr : N) (s : utf8_state) (text : list N),
  (0 < w)%N -> bytes_ok text ->
  exists s' r, check_utf8 w addr (utf8_init s) text (N.of_nat (length text)) = Ret (s', r) /\
    (r = CIO_UTF8_ACCEPT <-> utf8_well_formed text) /\
    (r = CIO_UTF8_REJECT <-> ~ utf8_prefix text).
Proof. exact utf8_single_correct. Qed.
Print Assumptions utf8_checker_decides_rfc3629.

(** "a" followed by U+20AC is accepted, its truncation is neither accepted nor rejected, CESU surrogates are rejected. *)
Example utf8_nonvacuous :
  let run l := match check_utf8 8 3 (utf8_init (mk_utf8 77 12)) l (N.of_nat (length l)) with Ret (_, r) => Some r | UB => None end in
  bytes_ok [0x61; 0xE2; 0x82; 0xAC]%N /\ (0 < 8)%N /\
  run [0x61; 0xE2; 0x82; 0xAC]%N = Some 0%N /\ run [0x61; 0xE2; 0x82]%N = Some 24%N /\ run [0xED; 0xA0; 0x80]%N = Some 12%N.
Proof. split; [repeat constructor|]. vm_compute. auto. Qed.

(** * C02 *)
Theorem utf8_checker_chunking_independent : forall (w1 w2 : N) (s1 s2 : utf8_state) (chunks1 chunks2 : list (N * list N)),
  (0 < w1)%N -> (0 < w2)%N ->
  Forall (fun c => bytes_ok (snd c)) chunks1 -> Forall (fun c => bytes_ok (snd c)) chunks2 ->
  flat_map snd chunks1 = flat_map snd chunks2 ->
  exists t1 t2 r, check_chunks w1 (utf8_init s1) chunks1 CIO_UTF8_ACCEPT = Ret (t1, r) /\
                  check_chunks w2 (utf8_init s2) chunks2 CIO_UTF8_ACCEPT = Ret (t2, r).
Proof. exact utf8_chunks_invariant. Qed.
Print Assumptions utf8_checker_chunking_independent.

Theorem utf8_checker_chunked_decides_rfc3629 : forall (w : N) (s : utf8_state) (chunks : list (N * list N)),
  (0 < w)%N -> Forall (fun c => bytes_ok (snd c)) chunks ->
  exists s' r, check_chunks w (utf8_init s) chunks CIO_UTF8_ACCEPT = Ret (s', r) /\
    (r = CIO_UTF8_ACCEPT <-> utf8_well_formed (flat_map snd chunks)) /\
    (r = CIO_UTF8_REJECT <-> ~ utf8_prefix (flat_map snd chunks)).
Proof. exact utf8_chunks_correct. Qed.
Print Assumptions utf8_checker_chunked_decides_rfc3629.

Theorem utf8_checker_reject_is_final : forall (w addr : N) (s : utf8_state) (text : list N),
  (0 < w)%N -> bytes_ok text -> u_state s = CIO_UTF8_REJECT ->
  exists s', check_utf8 w addr s text (N.of_nat (length text)) = Ret (s', CIO_UTF8_REJECT) /\
             u_state s' = CIO_UTF8_REJECT.
Proof. exact utf8_reject_sticky. Qed.
Print Assumptions utf8_checker_reject_is_final.

Example utf8_chunks_nonvacuous :
  let text := [0xF0; 0x9F; 0x98; 0x80; 0x41; 0x42; 0x43; 0x44; 0x45; 0x46; 0x47; 0xC3; 0xA4]%N in
  let c1 := [(5, [0xF0; 0x9F]); (2, [0x98; 0x80; 0x41; 0x42; 0x43; 0x44; 0x45; 0x46; 0x47; 0xC3]); (0, []); (1, [0xA4])]%N in
  let c2 := [(3, text)]%N in
  flat_map snd c1 = text /\ flat_map snd c2 = text /\
  match check_chunks 8 (utf8_init (mk_utf8 0 0)) c1 0 with Ret (_, r) => r = 0%N | UB => False end /\
  match check_chunks 4 (utf8_init (mk_utf8 9 12)) c2 0 with Ret (_, r) => r = 0%N | UB => False end.
Proof. vm_compute. auto. Qed.

(** * C03 *)
Theorem base64_encoding_is_rfc4648 : forall (input : list N), bytes_ok input ->
  exists out, b64_encode input = Ret out /\ b64_decode out = Some input /\
    length out = (4 * ((length input + 2) / 3))%nat.
Proof. exact b64_roundtrip. Qed.
Print Assumptions base64_encoding_is_rfc4648.

Theorem base64_encoding_unique : forall (text input : list N), b64_decode text = Some input -> b64_encode input = Ret text.
Proof. exact b64_unique. Qed.
Print Assumptions base64_encoding_unique.

Example base64_nonvacuous : (* "Mand" *)
  b64_encode [77; 97; 110; 100]%N = Ret [84; 87; 70; 117; 90; 65; 61; 61]%N /\
  b64_decode [84; 87; 70; 117; 90; 65; 61; 61]%N = Some [77; 97; 110; 100]%N.
Proof. vm_compute. auto. Qed.

(** * C04 *)
Theorem masking_is_bytewise_xor : forall (e : endianness) (w base : nat) (before data after key : list N),
  (0 < w)%nat -> (w mod 4 = 0)%nat -> length key = 4%nat -> bytes_ok key -> bytes_ok data ->
  ws_mask e w base (before ++ data ++ after) (length before) (length data) key = Ret (before ++ rfc_mask key data ++ after).
Proof. exact ws_mask_correct. Qed.
Print Assumptions masking_is_bytewise_xor.

Theorem masking_twice_is_identity : forall (e : endianness) (w base : nat) (before data after key : list N),
  (0 < w)%nat -> (w mod 4 = 0)%nat -> length key = 4%nat -> bytes_ok key -> bytes_ok data ->
  exists masked, ws_mask e w base (before ++ data ++ after) (length before) (length data) key = Ret masked /\
    ws_mask e w base masked (length before) (length data) key = Ret (before ++ data ++ after).
Proof. exact ws_mask_twice. Qed.
Print Assumptions masking_twice_is_identity.

Theorem corrected_mask_continues_masking : forall (key : list N) (consumed : nat), length key = 4%nat ->
  exists key', correct_mask key consumed = Ret key' /\ length key' = 4%nat /\
    (bytes_ok key -> bytes_ok key') /\
    forall i data, rfc_mask_from i key' data = rfc_mask_from (consumed + i) key data.
Proof. exact correct_mask_spec. Qed.
Print Assumptions corrected_mask_continues_masking.

Example masking_nonvacuous :
  ws_mask LittleEndian 8 1003 ([9; 9] ++ [1; 2; 3; 4; 5; 6; 7; 8; 9; 10; 11; 12; 13; 14; 15; 16; 17; 18; 19] ++ [7])%N 2 19 [16; 32; 64; 128]%N
  = Ret ([9; 9] ++ rfc_mask [16; 32; 64; 128] [1; 2; 3; 4; 5; 6; 7; 8; 9; 10; 11; 12; 13; 14; 15; 16; 17; 18; 19] ++ [7])%N
  /\ rfc_mask [16; 32; 64; 128]%N [1; 2; 3; 4; 5]%N = [17; 34; 67; 132; 21]%N.
Proof. vm_compute. auto. Qed.

(** * C05 *)
Theorem sha1_is_fips180_for_any_split : forall (block : list N) (parts : list (list N)),
  length block = 64%nat -> bytes_ok block -> Forall bytes_ok parts ->
  (N.of_nat (length (concat parts)) < 2 ^ 61)%N ->
  exists c c', sha1_inputs (sha1_reset block) parts = Ret c /\
    sha1_result c = Ret (c', inl (sha1 (concat parts))) /\
    sha1_result c' = Ret (c', inl (sha1 (concat parts))).
Proof. exact sha1_parts_correct. Qed.
Print Assumptions sha1_is_fips180_for_any_split.

Example sha1_nonvacuous :
  let parts := [repeat 1%N 60; []; repeat 2%N 70; [3; 4]%N] in
  Forall bytes_ok parts /\ (N.of_nat (length (concat parts)) < 2 ^ 61)%N.
Proof. split; [|reflexivity]. repeat (constructor; [repeat (constructor; [reflexivity|]); try constructor|]). constructor. Qed.

(** * C06 *)
Theorem host_to_big_endian_memory : forall (e : endianness) (w : nat) (n : N), store_word e w (htobe e w n) = be_bytes w n.
Proof. exact htobe_memory. Qed.
Print Assumptions host_to_big_endian_memory.

Theorem host_to_little_endian_memory : forall (e : endianness) (w : nat) (n : N), store_word e w (htole e w n) = lsb_bytes w n.
Proof. exact htole_memory. Qed.
Print Assumptions host_to_little_endian_memory.

Theorem big_endian_round_trip : forall (e : endianness) (w : nat) (n : N), (n < 256 ^ N.of_nat w)%N -> betoh e w (htobe e w n) = n.
Proof. exact betoh_htobe. Qed.
Print Assumptions big_endian_round_trip.

Theorem little_endian_round_trip : forall (e : endianness) (w : nat) (n : N), (n < 256 ^ N.of_nat w)%N -> letoh e w (htole e w n) = n.
Proof. exact letoh_htole. Qed.
Print Assumptions little_endian_round_trip.

Theorem big_endian_bytes_are_read_as_their_value : forall (e : endianness) (w : nat) (l : list N),
  length l = w -> bytes_ok l -> betoh e w (load_word e l) = be_value l.
Proof. exact betoh_load. Qed.
Print Assumptions big_endian_bytes_are_read_as_their_value.

Example endian_nonvacuous : (0x1234 < 256 ^ N.of_nat 2)%N /\ be_bytes 2 0x1234 = [0x12; 0x34]%N /\
  htobe LittleEndian 4 0x11223344 = 0x44332211%N.
Proof. vm_compute. auto. Qed.

(** * C07 *)
Theorem memory_search_finds_first_occurrence : forall (haystack needle : list N), exists r,
  cio_memmem haystack needle = Ret r /\
  match r with Some i => first_occurrence haystack needle i | None => forall i, ~ occurs_at haystack needle i end.
Proof. exact memmem_correct. Qed.
Print Assumptions memory_search_finds_first_occurrence.

Example memmem_nonvacuous : cio_memmem [1; 1; 2; 1; 1; 3; 1; 1; 3]%N [1; 1; 3]%N = Ret (Some 3%nat) /\
  cio_memmem [1; 1; 2]%N [1; 2; 3]%N = Ret None.
Proof. vm_compute. auto. Qed.

(** * C44 *)
Theorem random_bytes_number : forall (n : nat) (r : rng),
  length (snd (random_get_bytes r n)) = n /\ bytes_ok (snd (random_get_bytes r n)).
Proof. exact (fun n r => conj (get_bytes_length n r) (get_bytes_ok n r)). Qed.
Print Assumptions random_bytes_number.

Theorem random_bytes_split : forall (m n : nat) (r : rng),
  random_get_bytes r (m + n) =
  (fst (random_get_bytes (fst (random_get_bytes r m)) n),
   snd (random_get_bytes r m) ++ snd (random_get_bytes (fst (random_get_bytes r m)) n)).
Proof. exact get_bytes_split. Qed.
Print Assumptions random_bytes_split.

(** The generator returns to its seeded state after n bytes exactly for the multiples n of 2^64. *)
Theorem random_full_period : forall (entropy : (N * N) + Z) (n : nat),
  fst (random_get_bytes (fst (seed_rng entropy)) n) = fst (seed_rng entropy) <-> (2 ^ 64 | Z.of_nat n)%Z.
Proof. exact (fun e n => eq_rect_r (fun x => x = _ <-> _) (seeded_full_period e n) (get_bytes_state n (fst (seed_rng e)))). Qed.
Print Assumptions random_full_period.

Theorem random_bytes_are_pcg : forall (seed sequence : N) (n i : nat), (i < n)%nat ->
  exists b, nth_error (snd (random_get_bytes (fst (seed_rng (inl (seed, sequence)))) n)) i = Some b /\
    pcg_byte (pcg_state seed sequence i) b.
Proof. exact seeded_bytes. Qed.
Print Assumptions random_bytes_are_pcg.
(** A failing entropy source is reported; the generator is then seeded with 0, 0. *)
Theorem random_seed_reports : forall (entropy : (N * N) + Z),
  snd (seed_rng entropy) = match entropy with inl _ => 0%Z | inr err => err end /\
  (forall err, entropy = inr err -> fst (seed_rng entropy) = fst (seed_rng (inl (0, 0)%N))).
Proof. exact seed_reports. Qed.
Print Assumptions random_seed_reports.
Theorem random_increment_odd : forall (seed sequence : N), (rng_inc (pcg_srandom seed sequence) mod 2 = 1)%N.
Proof. exact srandom_inc_odd. Qed.
Print Assumptions random_increment_odd.

Example random_nonvacuous : snd (random_get_bytes (fst (seed_rng (inl (42, 54)%N))) 6) <> [0; 0; 0; 0; 0; 0]%N
  /\ (fst (pcg32_random (pcg_srandom 42 54)), snd (pcg32_random (pcg_srandom 42 54))) =
     (pcg_step (pcg_srandom 42 54), 0xa15c02b7%N).
Proof. split; [vm_compute; discriminate|vm_compute; reflexivity]. Qed.
