(** Independent specification of SHA-1 (FIPS 180-4, sections 4.1.1, 4.2.1, 5.1.1, 5.3.1, 6.1). *)
From Verif Require Import Base EndianSpec.
Local Open Scope N_scope.

Definition word (n : N) : N := n mod 2 ^ 32.
Definition ROTL (n x : N) : N := N.lor (word (N.shiftl x n)) (N.shiftr x (32 - n)).
Definition complement (x : N) : N := 2 ^ 32 - 1 - x.

Definition Ch (x y z : N) : N := N.lxor (N.land x y) (N.land (complement x) z).
Definition Parity (x y z : N) : N := N.lxor x (N.lxor y z).
Definition Maj (x y z : N) : N := N.lxor (N.land x y) (N.lxor (N.land x z) (N.land y z)).

Definition sha1_f (t : nat) : N -> N -> N -> N :=
  if Nat.ltb t 20 then Ch else if Nat.ltb t 40 then Parity else if Nat.ltb t 60 then Maj else Parity.
Definition sha1_K (t : nat) : N :=
  if Nat.ltb t 20 then 0x5a827999 else if Nat.ltb t 40 then 0x6ed9eba1
  else if Nat.ltb t 60 then 0x8f1bbcdc else 0xca62c1d6.

(** 5.1.1: a 1 bit, zeros up to 448 mod 512, the length in bits as 64 bits. *)
Definition pad (m : list N) : list N :=
  m ++ [0x80] ++ repeat 0 ((119 - length m mod 64) mod 64) ++ be_bytes 8 (8 * N.of_nat (length m)).

(** Splitting a multiple of [k] elements in groups of [k]. *)
Fixpoint groups {A} (n k : nat) (l : list A) : list (list A) :=
  match n with O => [] | S n' => firstn k l :: groups n' k (skipn k l) end.

(** 5.2.1: 512-bit blocks of 16 big-endian words. *)
Definition block_words (b : list N) : list N := map be_value (groups 16 4 b).

(** 6.1.2 step 1: the first [n] words of the message schedule. *)
Fixpoint schedule (b : list N) (n : nat) : list N :=
  match n with
  | O => []
  | S t =>
      let W := schedule b t in
      W ++ [if Nat.ltb t 16 then nth t (block_words b) 0
            else ROTL 1 (N.lxor (nth (t - 3) W 0) (N.lxor (nth (t - 8) W 0) (N.lxor (nth (t - 14) W 0) (nth (t - 16) W 0))))]
  end.

(** 6.1.2 steps 2-4. *)
Definition hash5 : Type := N * N * N * N * N.
Definition sha1_step (W : list N) (s : hash5) (t : nat) : hash5 :=
  let '(a, b, c, d, e) := s in
  (word (ROTL 5 a + sha1_f t b c d + e + sha1_K t + nth t W 0), a, ROTL 30 b, c, d).
Definition sha1_compress (H : hash5) (b : list N) : hash5 :=
  let '(h0, h1, h2, h3, h4) := H in
  let '(a, b, c, d, e) := fold_left (sha1_step (schedule b 80)) (seq 0 80) H in
  (word (a + h0), word (b + h1), word (c + h2), word (d + h3), word (e + h4)).

Definition H0 : hash5 := (0x67452301, 0xefcdab89, 0x98badcfe, 0x10325476, 0xc3d2e1f0).

Definition sha1 (m : list N) : list N :=
  let p := pad m in
  let '(h0, h1, h2, h3, h4) := fold_left sha1_compress (groups (length p / 64) 64 p) H0 in
  flat_map (be_bytes 4) [h0; h1; h2; h3; h4].

(** FIPS 180 test vectors, as a check of this specification. *)
Example sha1_abc : be_value (sha1 [0x61; 0x62; 0x63]) = 0xa9993e364706816aba3e25717850c26c9cd0d89d.
Proof. vm_compute. reflexivity. Qed.
Example sha1_empty : be_value (sha1 []) = 0xda39a3ee5e6b4b0d3255bfef95601890afd80709.
Proof. vm_compute. reflexivity. Qed.
Example sha1_448 :
  be_value (sha1 [0x61;0x62;0x63;0x64;0x62;0x63;0x64;0x65;0x63;0x64;0x65;0x66;0x64;0x65;0x66;0x67;0x65;0x66;0x67;0x68;
    0x66;0x67;0x68;0x69;0x67;0x68;0x69;0x6a;0x68;0x69;0x6a;0x6b;0x69;0x6a;0x6b;0x6c;0x6a;0x6b;0x6c;0x6d;0x6b;0x6c;0x6d;
    0x6e;0x6c;0x6d;0x6e;0x6f;0x6d;0x6e;0x6f;0x70;0x6e;0x6f;0x70;0x71]) = 0x84983e441c3bd26ebaae4aa1f95129e5e54670f1.
Proof. vm_compute. reflexivity. Qed.
