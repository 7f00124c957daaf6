(** RFC 6455 section 5.3: octet i of the transformed data is the XOR of octet i
    of the original data with octet (i mod 4) of the masking key. *)
From Verif Require Import Base.

(** Masking that continues at position [i] of the payload. *)
Fixpoint rfc_mask_from (i : nat) (key : list N) (data : list N) : list N :=
  match data with
  | [] => []
  | b :: r => N.lxor b (nth (i mod 4) key 0%N) :: rfc_mask_from (S i) key r
  end.

Definition rfc_mask (key data : list N) : list N := rfc_mask_from 0 key data.
