(** Specification of the random generator: PCG XSH-RR 64/32 (O'Neill 2014),
    written with arithmetic and single bits; it does not refer to the model. *)
From Verif Require Import Base.
Local Open Scope N_scope.

(** The stream selected by a 64-bit number: an odd increment. *)
Definition pcg_increment (sequence : N) : N := (2 * sequence + 1) mod 2 ^ 64.

(** The linear congruential generator. *)
Definition pcg_next (inc s : N) : N := (6364136223846793005 * s + inc) mod 2 ^ 64.

(** Seeding: one step from 0, add the seed, another step. *)
Definition pcg_first (seed sequence : N) : N :=
  pcg_next (pcg_increment sequence) (pcg_increment sequence + seed).

(** State number [i]. *)
Definition pcg_state (seed sequence : N) (i : nat) : N :=
  Nat.iter i (pcg_next (pcg_increment sequence)) (pcg_first seed sequence).

(** Bit [k] of the xor-shifted state, and bit [j] of the output: the 32-bit word
    made of bits 27..58 is rotated right by the number in bits 59..63. *)
Definition pcg_shifted_bit (s k : N) : bool := xorb (N.testbit s (k + 27)) (N.testbit s (k + 27 + 18)).
Definition pcg_output_bit (s j : N) : bool := pcg_shifted_bit s ((j + s / 2 ^ 59) mod 32).

(** A byte of random data is the low byte of the output. *)
Definition pcg_byte (s b : N) : Prop := b < 256 /\ forall j, j < 8 -> N.testbit b j = pcg_output_bit s j.
