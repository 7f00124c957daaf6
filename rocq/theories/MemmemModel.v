(** Model of lib/src/platform/shared/string_memmem.c (used by the windows and
    zephyr ports; the linux port calls libc's memmem, lib/src/platform/linux/string.c:35-38). *)
From Verif Require Import Base.

(** [memcmp(mem + pos, l, length l) == 0]; all compared bytes have to be
    accessible (memcmp may read all of them). *)
Definition memcmp_eq (mem : list N) (pos : nat) (l : list N) : outcome bool :=
  if Nat.ltb (length mem) (pos + length l) then UB
  else Ret (if list_eq_dec N.eq_dec (firstn (length l) (skipn pos mem)) l then true else false).

(** string_memmem.c:57-61, the search loop.  [mem] is the accessible memory of the
    haystack, [begin] the current position, [n] the number of positions left
    (positions up to and including [last_possible]). *)
Fixpoint memmem_loop (mem : list N) (point : N) (tail : list N) (begin n : nat) : outcome (option nat) :=
  match n with
  | O => Ret None
  | S n' =>
      match nth_error mem begin with
      | None => UB
      | Some c =>
          if N.eqb c point then
            obind (memcmp_eq mem (begin + 1) tail) (fun eq =>
            if eq then Ret (Some begin) else memmem_loop mem point tail (begin + 1) n')
          else memmem_loop mem point tail (begin + 1) n'
      end
  end.

(** string_memmem.c:34-64, [cio_memmem]: offset of the match, or [None] for NULL. *)
Definition cio_memmem (haystack needle : list N) : outcome (option nat) :=
  match needle with
  | [] => Ret (Some 0)
  | point :: tail =>
      if Nat.ltb (length haystack) (length needle) then Ret None
      else memmem_loop haystack point tail 0 (S (length haystack - length needle))
  end.
