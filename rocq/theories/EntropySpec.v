(** C71: what the system's source of entropy may do, and what the caller may expect.  No reference to the conversions the code does. *)
From Verif Require Import Base MaskModel Entropy.
Local Open Scope N_scope.

(** The answer to a request for [k] bytes: exactly that many bytes, or a failure, after which the memory asked for contains anything.
    getentropy refuses more than 256 bytes and fails with a positive errno, BCryptGenRandom with a status other than 0, Zephyr's
    driver with a negative code. *)
Definition lawful (p : platform) (k : N) (a : answer) : Prop :=
  match a with
  | Gives l => N.of_nat (length l) = k /\ bytes_ok l /\ (p = Linux -> k <= 256)
  | Fails code l => N.of_nat (length l) = k /\ bytes_ok l /\
      match p with Linux => (0 < code)%Z | Windows => code <> 0%Z | Zephyr => (code < 0)%Z end
  end.

(** The caller's [n] bytes are all fresh: they are the system's answer and nothing else. *)
Definition fresh (a : answer) (n : N) (m : list N) : Prop := a = Gives m /\ N.of_nat (length m) = n.
Definition gave (a : answer) : Prop := exists l, a = Gives l.

(** The value of bytes in the order of the machine. *)
Fixpoint value (e : endianness) (l : list N) : N :=
  match l with
  | [] => 0
  | b :: r => match e with LittleEndian => b + 256 * value e r | BigEndian => b * 256 ^ N.of_nat (length r) + value e r end
  end.
