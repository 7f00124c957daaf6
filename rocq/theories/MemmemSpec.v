(** Occurrence of a byte string in another. *)
From Verif Require Import Base.

Definition occurs_at (haystack needle : list N) (i : nat) : Prop :=
  exists before after, haystack = before ++ needle ++ after /\ length before = i.

Definition first_occurrence (haystack needle : list N) (i : nat) : Prop :=
  occurs_at haystack needle i /\ forall j, occurs_at haystack needle j -> (i <= j)%nat.

(** Executable search used to describe libc's memmem: the first occurrence. *)
Fixpoint find_first (haystack needle : list N) : option nat :=
  if list_eq_dec N.eq_dec (firstn (length needle) haystack) needle then Some 0
  else match haystack with
       | [] => None
       | _ :: r => option_map S (find_first r needle)
       end.
