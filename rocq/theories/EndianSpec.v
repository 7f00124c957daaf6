(** Network byte order: the most significant byte first. *)
From Verif Require Import Base.
Local Open Scope N_scope.

(** Byte number [i] (0 = first in memory) of the big-endian representation of a
    [w]-byte integer. *)
Definition be_byte (w i : nat) (n : N) : N := (n / 256 ^ N.of_nat (w - 1 - i)) mod 256.
Definition be_bytes (w : nat) (n : N) : list N := map (fun i => be_byte w i n) (seq 0 w).
(** The same for the least significant byte first. *)
Definition lsb_bytes (w : nat) (n : N) : list N :=
  map (fun i => (n / 256 ^ N.of_nat i) mod 256) (seq 0 w).
(** The value of a big-endian byte string. *)
Definition be_value (l : list N) : N := fold_left (fun a b => a * 256 + b) l 0.
