(** Model of the UTF-8 checker, lib/src/utf8_checker.c. *)
From Verif Require Import Base.
Local Open Scope N_scope.

(** utf8_checker.h:42-45, [enum cio_utf8_status]. *)
Definition CIO_UTF8_ACCEPT : N := 0.
Definition CIO_UTF8_REJECT : N := 12.

(** utf8_checker.c:10-380, [UTF8D]: first 256 entries are the byte classes,
    then 9 rows of 12 transitions (transcribed entry by entry). *)
Definition UTF8D : list N :=
  [
   0; 0; 0; 0; 0; 0; 0; 0; 0; 0; 0; 0; 0; 0; 0; 0; 0; 0; 0; 0; 0; 0; 0; 0; 0; 0; 0; 0; 0; 0; 0; 0;
   0; 0; 0; 0; 0; 0; 0; 0; 0; 0; 0; 0; 0; 0; 0; 0; 0; 0; 0; 0; 0; 0; 0; 0; 0; 0; 0; 0; 0; 0; 0; 0;
   0; 0; 0; 0; 0; 0; 0; 0; 0; 0; 0; 0; 0; 0; 0; 0; 0; 0; 0; 0; 0; 0; 0; 0; 0; 0; 0; 0; 0; 0; 0; 0;
   0; 0; 0; 0; 0; 0; 0; 0; 0; 0; 0; 0; 0; 0; 0; 0; 0; 0; 0; 0; 0; 0; 0; 0; 0; 0; 0; 0; 0; 0; 0; 0;
   1; 1; 1; 1; 1; 1; 1; 1; 1; 1; 1; 1; 1; 1; 1; 1; 9; 9; 9; 9; 9; 9; 9; 9; 9; 9; 9; 9; 9; 9; 9; 9;
   7; 7; 7; 7; 7; 7; 7; 7; 7; 7; 7; 7; 7; 7; 7; 7; 7; 7; 7; 7; 7; 7; 7; 7; 7; 7; 7; 7; 7; 7; 7; 7;
   8; 8; 2; 2; 2; 2; 2; 2; 2; 2; 2; 2; 2; 2; 2; 2; 2; 2; 2; 2; 2; 2; 2; 2; 2; 2; 2; 2; 2; 2; 2; 2;
   10; 3; 3; 3; 3; 3; 3; 3; 3; 3; 3; 3; 3; 4; 3; 3; 11; 6; 6; 6; 5; 8; 8; 8; 8; 8; 8; 8; 8; 8; 8; 8;
   0; 12; 24; 36; 60; 96; 84; 12; 12; 12; 48; 72;
   12; 12; 12; 12; 12; 12; 12; 12; 12; 12; 12; 12;
   12; 0; 12; 12; 12; 12; 12; 0; 12; 0; 12; 12;
   12; 24; 12; 12; 12; 12; 12; 24; 12; 24; 12; 12;
   12; 12; 12; 12; 12; 12; 12; 24; 12; 12; 12; 12;
   12; 24; 12; 12; 12; 12; 12; 12; 12; 24; 12; 12;
   12; 12; 12; 12; 12; 12; 12; 36; 12; 36; 12; 12;
   12; 36; 12; 12; 12; 12; 12; 36; 12; 36; 12; 12;
   12; 36; 12; 12; 12; 12; 12; 12; 12; 12; 12; 12
  ].

(** utf8_checker.h:47-50, [struct cio_utf8_state]. *)
Record utf8_state := mk_utf8 { u_codepoint : N; u_state : N }.

(** Array access into the constant table; out of bounds is undefined behaviour. *)
Definition utf8d (i : N) : outcome N :=
  match nth_error UTF8D (N.to_nat i) with Some v => Ret v | None => UB end.

(** utf8_checker.c:387-395, [decode].  All operands are [uint8_t]: the casts
    become [mod 256]. *)
Definition decode (s : utf8_state) (byte : N) : outcome utf8_state :=
  obind (utf8d byte) (fun type =>
  let codep :=
    if N.eqb (u_state s) CIO_UTF8_ACCEPT
    then N.land (N.shiftr 255 type) byte
    else N.lor (N.land byte 63) (N.shiftl (u_codepoint s) 6 mod 256) in
  obind (utf8d (256 + u_state s + type)) (fun q =>
  Ret (mk_utf8 codep q))).

(** The byte loops of utf8_checker.c:414-421, 427-432 and 436-443: decode
    [n] bytes starting at the head of [mem]; [None] in the second component
    means that the loop ran to its end, [Some tt] that it returned REJECT.
    Reading past the accessible memory is undefined behaviour. *)
Fixpoint run_bytes (s : utf8_state) (mem : list N) (n : N) : outcome (utf8_state * bool * list N) :=
  if N.eqb n 0 then Ret (s, false, mem) else
  match mem with
  | [] => UB
  | b :: mem' =>
      obind (decode s b) (fun s' =>
      if N.eqb (u_state s') CIO_UTF8_REJECT then Ret (s', true, mem')
      else run_bytes s' mem' (N.pred n))
  end.

(** utf8_checker.c:423-433, the word loop: [memcpy] of a whole word (needs all
    [w] bytes), then decode each of them.  [fuel] only bounds the recursion: it
    is always started with more fuel than there are accessible bytes, and each
    round consumes [w >= 1] of them, so the word read hits the end of the
    memory (UB) before the fuel runs out. *)
Fixpoint run_words (fuel : nat) (w : N) (s : utf8_state) (mem : list N) (n : N)
  : outcome (utf8_state * bool * list N) :=
  if N.eqb n 0 then Ret (s, false, mem) else
  match fuel with
  | O => UB
  | S fuel' =>
      if N.ltb (N.of_nat (length mem)) w then UB else
      obind (run_bytes s (firstn (N.to_nat w) mem) w) (fun r =>
      match r with
      | (s', true, _) => Ret (s', true, skipn (N.to_nat w) mem)
      | (s', false, _) => run_words fuel' w s' (skipn (N.to_nat w) mem) (N.pred n)
      end)
  end.

(** utf8_checker.c:397-446, [cio_check_utf8].  [w] is [sizeof(uint_fast32_t)],
    [addr] the address of [string], [mem] the bytes accessible from there on,
    [count] the count argument.  The result is the new state and the return
    value. *)
Definition check_utf8 (w addr : N) (s : utf8_state) (mem : list N) (count : N)
  : outcome (utf8_state * N) :=
  let pre_length := if N.leb w count then (w - addr mod w) mod w else count in
  let main_length := if N.leb w count then (count - pre_length) / w else 0 in
  let post_length := if N.leb w count then count - pre_length - main_length * w else 0 in
  obind (run_bytes s mem pre_length) (fun r =>
  match r with
  | (s1, true, _) => Ret (s1, CIO_UTF8_REJECT)
  | (s1, false, mem1) =>
    obind (run_words (S (length mem1)) w s1 mem1 main_length) (fun r =>
    match r with
    | (s2, true, _) => Ret (s2, CIO_UTF8_REJECT)
    | (s2, false, mem2) =>
      obind (run_bytes s2 mem2 post_length) (fun r =>
      match r with
      | (s3, true, _) => Ret (s3, CIO_UTF8_REJECT)
      | (s3, false, _) => Ret (s3, u_state s3)
      end)
    end)
  end).

(** utf8_checker.c:448-451, [cio_utf8_init]: only the state field is written. *)
Definition utf8_init (s : utf8_state) : utf8_state := mk_utf8 (u_codepoint s) 0.

(** A history of calls on one checker: each chunk has its own address. *)
Fixpoint check_chunks (w : N) (s : utf8_state) (chunks : list (N * list N)) (last : N)
  : outcome (utf8_state * N) :=
  match chunks with
  | [] => Ret (s, last)
  | (addr, bytes) :: rest =>
      obind (check_utf8 w addr s bytes (N.of_nat (length bytes))) (fun r =>
      check_chunks w (fst r) rest (snd r))
  end.
