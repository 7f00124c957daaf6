(** Model of lib/src/platform/linux/endian.c. *)
From Verif Require Import Base MaskModel.

(** Reversing the bytes of a [w]-byte integer (glibc's bswap_16/32/64). *)
Definition bswap (w : nat) (n : N) : N := le_value (rev (le_bytes w n)).

(** endian.c:49-62, [cio_htobe16/32/64] with [w] = 2, 4, 8: glibc's [htobeXX]
    swaps on a little-endian host and is the identity on a big-endian one.  The
    glibc macros are trusted to do this. *)
Definition htobe (e : endianness) (w : nat) (n : N) : N :=
  match e with LittleEndian => bswap w n | BigEndian => n end.
(** endian.c:34-47, [cio_be16toh], [cio_be32toh], [cio_be64toh]. *)
Definition betoh (e : endianness) (w : nat) (n : N) : N :=
  match e with LittleEndian => bswap w n | BigEndian => n end.
(** endian.c:79-92, [cio_htole16/32/64]. *)
Definition htole (e : endianness) (w : nat) (n : N) : N :=
  match e with LittleEndian => n | BigEndian => bswap w n end.
(** endian.c:64-77, [cio_le16toh], [cio_le32toh], [cio_le64toh]. *)
Definition letoh (e : endianness) (w : nat) (n : N) : N :=
  match e with LittleEndian => n | BigEndian => bswap w n end.
