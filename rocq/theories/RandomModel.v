(** Model of lib/src/random.c (PCG XSH-RR 64/32). *)
From Verif Require Import Base.
Local Open Scope N_scope.

Definition U64 : N := 2 ^ 64.
Definition U32 : N := 2 ^ 32.

(** random.c:32-36. *)
Definition MULTIPLIER : N := 6364136223846793005.
Definition FIRST_XOR_SHIFT : N := 18.
Definition SECOND_XOR_SHIFT : N := 27.
Definition ROT_SHIFT : N := 59.
Definition RETURN_SHIFT : N := 31.

(** include/cio/random.h, [struct pcg_state_setseq_64]. *)
Record rng := mk_rng { rng_state : N; rng_inc : N }.

(** random.c:38-41, [pcg_setseq_64_step_r]; uint64_t arithmetic wraps. *)
Definition pcg_step (r : rng) : rng :=
  mk_rng ((rng_state r * MULTIPLIER + rng_inc r) mod U64) (rng_inc r).

(** random.c:43-51, [pcg_setseq_64_srandom_r]. *)
Definition pcg_srandom (initstate initseq : N) : rng :=
  let inc := N.lor (N.shiftl initseq 1 mod U64) 1 in
  let r1 := pcg_step (mk_rng 0 inc) in
  let r2 := mk_rng ((rng_state r1 + initstate) mod U64) inc in
  pcg_step r2.

(** random.c:53-56, [pcg_rotr_32]: [~rot + 1] is computed in [unsigned int]. *)
Definition pcg_rotr_32 (value rot : N) : N :=
  N.lor (N.shiftr value rot) (N.shiftl value (N.land ((U32 - rot mod U32) mod U32) RETURN_SHIFT) mod U32).

(** random.c:58-61, [pcg_output_xsh_rr_64_32]. *)
Definition pcg_output (state : N) : N :=
  pcg_rotr_32 (N.shiftr (N.lxor (N.shiftr state FIRST_XOR_SHIFT) state) SECOND_XOR_SHIFT mod U32)
              (N.shiftr state ROT_SHIFT mod U32).

(** random.c:63-68, [pcg32_random_r]. *)
Definition pcg32_random (r : rng) : rng * N := (pcg_step r, pcg_output (rng_state r)).

(** random.c:70-81, [cio_random_seed_rng]: the entropy source either delivers
    two 64-bit seeds or fails with an error code; the error code is returned. *)
Definition seed_rng (entropy : (N * N) + Z) : rng * Z :=
  match entropy with
  | inl (s0, s1) => (pcg_srandom s0 s1, 0%Z)
  | inr err => (pcg_srandom 0 0, err)
  end.

(** random.c:83-90, [cio_random_get_bytes]. *)
Fixpoint random_get_bytes (r : rng) (num_bytes : nat) : rng * list N :=
  match num_bytes with
  | O => (r, [])
  | S n =>
      let (r', v) := pcg32_random r in
      let (r'', bytes) := random_get_bytes r' n in
      (r'', v mod 256 :: bytes)
  end.
