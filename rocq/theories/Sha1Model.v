(** Model of lib/cio/sha1/sha1.c. *)
From Verif Require Import Base.
Local Open Scope N_scope.

Definition M32 : N := 2 ^ 32.

(** uint32_t addition, complement, and the rotation macro (sha1.c:37-38). *)
Definition add32 (a b : N) : N := (a + b) mod M32.
Definition not32 (a : N) : N := N.lxor a (M32 - 1).
Definition SHA1_CIRCULAR_SHIFT (bits word : N) : N :=
  N.lor (N.shiftl word bits mod M32) (N.shiftr word (32 - bits)).

(** sha1.h:42-56, [sha1_context]. *)
Record sha1_context := mk_sha1 {
  intermediate_hash : list N;       (* 5 words *)
  length_low : N;
  length_high : N;
  message_block_index : nat;
  message_block : list N;           (* 64 bytes *)
  computed : bool;
  corrupted : N
}.

Definition SHA_SUCCESS : N := 0.
Definition SHA_STATE_ERROR : N := 3.

(** sha1.c:55-75, [sha1_reset].  The message block keeps its old content. *)
Definition sha1_reset (block : list N) : sha1_context :=
  mk_sha1 [0x67452301; 0xEFCDAB89; 0x98BADCFE; 0x10325476; 0xC3D2E1F0] 0 0 0 block false 0.

(** Array accesses with constant, in-range indices (W has 80 words, the block 64
    bytes, the hash 5 words) are written with [nth]. *)

(** sha1.c:118-123: word [t] of the block. *)
Definition block_word (b : list N) (t : nat) : N :=
  N.lor (N.lor (N.lor (N.shiftl (nth (t * 4) b 0) 24 mod M32)
                      (N.shiftl (nth (t * 4 + 1) b 0) 16 mod M32))
               (N.shiftl (nth (t * 4 + 2) b 0) 8 mod M32))
        (nth (t * 4 + 3) b 0).

(** sha1.c:125-127: the loop that fills W[16..79]; [W] holds the words computed so far. *)
Fixpoint extend_W (n t : nat) (W : list N) : list N :=
  match n with
  | O => W
  | S n' =>
      let w := SHA1_CIRCULAR_SHIFT 1
                 (N.lxor (N.lxor (N.lxor (nth (t - 3) W 0) (nth (t - 8) W 0)) (nth (t - 14) W 0)) (nth (t - 16) W 0)) in
      extend_W n' (S t) (W ++ [w])
  end.

Definition message_words (b : list N) : list N :=
  extend_W 64 16 (map (block_word b) (seq 0 16)).

(** The five word buffers A..E. *)
Record regs := mk_regs { rA : N; rB : N; rC : N; rD : N; rE : N }.

(** One round with the round function value [f] and constant [k]
    (sha1.c:136-144, 147-153, 156-163, 166-172). *)
Definition sha1_round (f : N -> N -> N -> N) (k : N) (w : N) (r : regs) : regs :=
  let temp := add32 (add32 (add32 (add32 (SHA1_CIRCULAR_SHIFT 5 (rA r)) (f (rB r) (rC r) (rD r))) (rE r)) w) k in
  mk_regs temp (rA r) (SHA1_CIRCULAR_SHIFT 30 (rB r)) (rC r) (rD r).

Definition f_0_19 (b c d : N) : N := N.lor (N.land b c) (N.land (not32 b) d).
Definition f_20_39 (b c d : N) : N := N.lxor (N.lxor b c) d.
Definition f_40_59 (b c d : N) : N := N.lor (N.lor (N.land b c) (N.land b d)) (N.land c d).
Definition f_60_79 (b c d : N) : N := N.lxor (N.lxor b c) d.

(** A loop [for (t = from; t < from + n; t++)] of rounds. *)
Fixpoint rounds (f : N -> N -> N -> N) (k : N) (W : list N) (n t : nat) (r : regs) : regs :=
  match n with
  | O => r
  | S n' => rounds f k W n' (S t) (sha1_round f k (nth t W 0) r)
  end.

(** sha1.c:98-180, [sha1_process_message_block], on hash and block. *)
Definition process_block (H : list N) (b : list N) : list N :=
  let W := message_words b in
  let r0 := mk_regs (nth 0 H 0) (nth 1 H 0) (nth 2 H 0) (nth 3 H 0) (nth 4 H 0) in
  let r1 := rounds f_0_19 0x5A827999 W 20 0 r0 in
  let r2 := rounds f_20_39 0x6ED9EBA1 W 20 20 r1 in
  let r3 := rounds f_40_59 0x8F1BBCDC W 20 40 r2 in
  let r4 := rounds f_60_79 0xCA62C1D6 W 20 60 r3 in
  [add32 (nth 0 H 0) (rA r4); add32 (nth 1 H 0) (rB r4); add32 (nth 2 H 0) (rC r4);
   add32 (nth 3 H 0) (rD r4); add32 (nth 4 H 0) (rE r4)].

Definition sha1_process_message_block (c : sha1_context) : sha1_context :=
  mk_sha1 (process_block (intermediate_hash c) (message_block c)) (length_low c) (length_high c) 0
          (message_block c) (computed c) (corrupted c).

(** Array store; out of bounds is undefined behaviour. *)
Fixpoint store (l : list N) (i : nat) (v : N) : outcome (list N) :=
  match l, i with
  | [], _ => UB
  | _ :: r, O => Ret (v :: r)
  | x :: r, S i' => obind (store r i' v) (fun r' => Ret (x :: r'))
  end.

(** [context->message_block[context->message_block_index++] = v]. *)
Definition push_byte (c : sha1_context) (v : N) : outcome sha1_context :=
  obind (store (message_block c) (message_block_index c) v) (fun b =>
  Ret (mk_sha1 (intermediate_hash c) (length_low c) (length_high c) (S (message_block_index c)) b
               (computed c) (corrupted c))).

(** [while (index < limit) block[index++] = 0]; each turn increases the index,
    so [limit] turns are enough. *)
Fixpoint push_zeros (fuel : nat) (limit : nat) (c : sha1_context) : outcome sha1_context :=
  if Nat.ltb (message_block_index c) limit then
    match fuel with
    | O => UB
    | S fuel' => obind (push_byte c 0) (push_zeros fuel' limit)
    end
  else Ret c.

Definition set_block (c : sha1_context) (b : list N) : sha1_context :=
  mk_sha1 (intermediate_hash c) (length_low c) (length_high c) (message_block_index c) b (computed c) (corrupted c).

Definition put (c : sha1_context) (i : nat) (v : N) : outcome sha1_context :=
  obind (store (message_block c) i v) (fun b => Ret (set_block c b)).

Definition u8 (n : N) : N := n mod 256.

(** sha1.c:205-245, [sha1_pad_message]. *)
Definition sha1_pad_message (c : sha1_context) : outcome sha1_context :=
  obind
    (if Nat.ltb 55 (message_block_index c) then
       obind (push_byte c 0x80) (fun c =>
       obind (push_zeros 64 64 c) (fun c =>
       push_zeros 64 56 (sha1_process_message_block c)))
     else
       obind (push_byte c 0x80) (push_zeros 64 56))
    (fun c =>
  obind (put c 56 (u8 (N.shiftr (length_high c) 24))) (fun c =>
  obind (put c 57 (u8 (N.shiftr (length_high c) 16))) (fun c =>
  obind (put c 58 (u8 (N.shiftr (length_high c) 8))) (fun c =>
  obind (put c 59 (u8 (length_high c))) (fun c =>
  obind (put c 60 (u8 (N.shiftr (length_low c) 24))) (fun c =>
  obind (put c 61 (u8 (N.shiftr (length_low c) 16))) (fun c =>
  obind (put c 62 (u8 (N.shiftr (length_low c) 8))) (fun c =>
  obind (put c 63 (u8 (length_low c))) (fun c =>
  Ret (sha1_process_message_block c)))))))))).

(** sha1.c:288-290: digest byte [i] from the hash words. *)
Definition digest_of (H : list N) : list N :=
  map (fun i => u8 (N.shiftr (nth (i / 4) H 0) (8 * (3 - N.of_nat (i mod 4))))) (seq 0 20).

(** sha1.c:266-293, [sha1_result]: new context, and digest or error code. *)
Definition sha1_result (c : sha1_context) : outcome (sha1_context * (list N + N)) :=
  if negb (N.eqb (corrupted c) 0) then Ret (c, inr (corrupted c)) else
  obind
    (if negb (computed c) then
       obind (sha1_pad_message c) (fun c =>
       Ret (mk_sha1 (intermediate_hash c) 0 0 (message_block_index c) (repeat 0 64) true (corrupted c)))
     else Ret c)
    (fun c => Ret (c, inl (digest_of (intermediate_hash c)))).

(** sha1.c:335-353, one turn of the input loop. *)
Definition input_byte (c : sha1_context) (v : N) : outcome sha1_context :=
  obind (push_byte c (N.land v 0xFF)) (fun c =>
  let low := (length_low c + 8) mod M32 in
  let high := if N.eqb low 0 then (length_high c + 1) mod M32 else length_high c in
  let cor := if N.eqb low 0 && N.eqb high 0 then 1 else corrupted c in
  let c := mk_sha1 (intermediate_hash c) low high (message_block_index c) (message_block c) (computed c) cor in
  Ret (if Nat.eqb (message_block_index c) 64 then sha1_process_message_block c else c)).

Fixpoint input_loop (c : sha1_context) (l : list N) : outcome sha1_context :=
  match l with
  | [] => Ret c
  | v :: r => if negb (N.eqb (corrupted c) 0) then Ret c
              else obind (input_byte c v) (fun c => input_loop c r)
  end.

(** sha1.c:315-357, [sha1_input] with valid pointers. *)
Definition sha1_input (c : sha1_context) (message : list N) : outcome (sha1_context * N) :=
  match message with
  | [] => Ret (c, SHA_SUCCESS)
  | _ =>
      if computed c then
        Ret (mk_sha1 (intermediate_hash c) (length_low c) (length_high c) (message_block_index c)
                     (message_block c) (computed c) SHA_STATE_ERROR, SHA_STATE_ERROR)
      else if negb (N.eqb (corrupted c) 0) then Ret (c, corrupted c)
      else obind (input_loop c message) (fun c => Ret (c, SHA_SUCCESS))
  end.

(** A caller that feeds a message in several parts. *)
Fixpoint sha1_inputs (c : sha1_context) (parts : list (list N)) : outcome sha1_context :=
  match parts with
  | [] => Ret c
  | p :: r => obind (sha1_input c p) (fun x => sha1_inputs (fst x) r)
  end.
