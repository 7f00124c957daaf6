(** Specification of a buffered write. *)
From Verif Require Import Base WriteBufferModel WriteBufferSpec BufWriteModel.
Open Scope N_scope.

(** The bytes of the elements [l] of a chain. *)
Definition elem_bytes (mem : N -> N) (h : heap) (p : ptr) : list N :=
  match stored_elem h p with Some x => entry_bytes mem x | None => [] end.
Definition data_of (mem : N -> N) (h : heap) (l : list ptr) : list N := flat_map (elem_bytes mem h) l.

(** The caller's situation: [B] heads a chain of [l] of less than 2^64 bytes,
    NULL is not an element; the stream's own two buffers [W] and [T] are
    allocated and foreign to that chain. *)
Definition write_pre (fuel : nat) (h : heap) (B W T : ptr) (l : list ptr) : Prop :=
  chain_at h B l /\ ~ In 0 l /\ total (stored_elem h) l < 2^64 /\
  h W <> None /\ h T <> None /\ T <> 0 /\ W <> T /\ ~ In W (B :: l) /\ ~ In T (B :: l) /\
  (length l + 2 < fuel)%nat /\ N.of_nat (length l) + 1 < 2^64.

(** The first reaction of the transport was a partial write that ended inside
    the last element of the chain (or before its first byte). *)
Definition stops_in_last_element (mem : N -> N) (h : heap) (l : list ptr) (es : list tev) : Prop :=
  exists n es', es = TDone W_SUCCESS n :: es' /\
    (length (data_of mem h (removelast l)) <= N.to_nat n < length (data_of mem h l))%nat.

(** [a] is a prefix of [b]. *)
Definition is_prefix (a b : list N) : Prop := exists r, b = a ++ r.
