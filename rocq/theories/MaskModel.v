(** Model of lib/include/cio/websocket_masking.h, and of host words in memory. *)
From Verif Require Import Base.

(** Byte order of the host. *)
Inductive endianness := LittleEndian | BigEndian.

(** The integer whose in-memory bytes (lowest address first) are [l]. *)
Fixpoint le_value (l : list N) : N :=
  match l with [] => 0%N | b :: r => (b + 256 * le_value r)%N end.
Fixpoint le_bytes (w : nat) (n : N) : list N :=
  match w with O => [] | S w' => (n mod 256)%N :: le_bytes w' (n / 256)%N end.

Definition load_word (e : endianness) (l : list N) : N :=
  match e with LittleEndian => le_value l | BigEndian => le_value (rev l) end.
Definition store_word (e : endianness) (w : nat) (n : N) : list N :=
  match e with LittleEndian => le_bytes w n | BigEndian => rev (le_bytes w n) end.

(** A 4-byte array, [uint8_t mask[4]].  Access out of bounds is UB. *)
Definition idx (l : list N) (i : nat) : outcome N :=
  match nth_error l i with Some v => Ret v | None => UB end.

(** [mem[i] ^= v] on byte memory. *)
Fixpoint xor_at (mem : list N) (i : nat) (v : N) : outcome (list N) :=
  match mem, i with
  | [], _ => UB
  | b :: r, O => Ret (N.lxor b v :: r)
  | b :: r, S i' => obind (xor_at r i' v) (fun r' => Ret (b :: r'))
  end.

(** websocket_masking.h:40-49, [cio_websocket_correct_mask]. *)
Definition correct_mask (mask : list N) (consumed_bytes : nat) : outcome (list N) :=
  let array_shift := (consumed_bytes mod 4)%nat in
  obind (idx mask ((0 + array_shift) mod 4)) (fun m0 =>
  obind (idx mask ((1 + array_shift) mod 4)) (fun m1 =>
  obind (idx mask ((2 + array_shift) mod 4)) (fun m2 =>
  obind (idx mask ((3 + array_shift) mod 4)) (fun m3 =>
  Ret [m0; m1; m2; m3])))).

(** The byte loops websocket_masking.h:56-58, 78-81 and 88-90:
    [for (; n > 0; n--, i++) buffer[i] ^= mask[i % 4]], where the buffer starts at
    offset [off] of the memory [mem]. *)
Fixpoint mask_bytes (mem : list N) (off : nat) (mask : list N) (i n : nat) : outcome (list N) :=
  match n with
  | O => Ret mem
  | S n' =>
      obind (idx mask (i mod 4)) (fun m =>
      obind (xor_at mem (off + i) m) (fun mem' =>
      mask_bytes mem' off mask (S i) n'))
  end.

(** [*buffer_aligned ^= aligned_mask] on the word at offset [pos]. *)
Definition xor_word (e : endianness) (w : nat) (mem : list N) (pos : nat) (v : N) : outcome (list N) :=
  if Nat.ltb (length mem) (pos + w) then UB else
  let old := load_word e (firstn w (skipn pos mem)) in
  Ret (firstn pos mem ++ store_word e w (N.lxor old v) ++ skipn (pos + w) mem).

(** websocket_masking.h:83-86, the word loop. *)
Fixpoint mask_words (e : endianness) (w : nat) (mem : list N) (pos : nat) (v : N) (n : nat) : outcome (list N) :=
  match n with
  | O => Ret mem
  | S n' => obind (xor_word e w mem pos v) (fun mem' => mask_words e w mem' (pos + w) v n')
  end.

(** websocket_masking.h:72-75, filling [aligned_mask] byte by byte. *)
Fixpoint filler (mask : list N) (pre i n : nat) : outcome (list N) :=
  match n with
  | O => Ret []
  | S n' =>
      obind (idx mask ((i + pre) mod 4)) (fun m =>
      obind (filler mask pre (S i) n') (fun r => Ret (m :: r)))
  end.

(** websocket_masking.h:51-91, [cio_websocket_mask]: [mem] is a memory region at
    address [base], the buffer to mask starts at offset [off] in it; [w] is
    [sizeof(uint_fast32_t)]. *)
Definition ws_mask (e : endianness) (w : nat) (base : nat) (mem : list N) (off length : nat) (mask : list N)
  : outcome (list N) :=
  if Nat.ltb length w then mask_bytes mem off mask 0 length
  else
    let pre_length := ((w - (base + off) mod w) mod w)%nat in
    let main_length := ((length - pre_length) / w)%nat in
    let post_length := (length - pre_length - main_length * w)%nat in
    obind (filler mask pre_length 0 w) (fun fill =>
    let aligned_mask := load_word e fill in
    obind (mask_bytes mem off mask 0 pre_length) (fun mem1 =>
    obind (mask_words e w mem1 (off + pre_length) aligned_mask main_length) (fun mem2 =>
    mask_bytes mem2 off mask (length - post_length) post_length))).
