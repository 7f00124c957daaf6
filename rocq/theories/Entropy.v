(** Model of cio_entropy_get_bytes on the three platforms (lib/src/platform/linux/random.c 36-44, windows/random.c 42-50,
    zephyr/random.c 37-44) and of its use by lib/src/random.c 70-81.

    The system's source answers a request for some number of bytes: it gives that many bytes, or it fails with a code and leaves
    something in the caller's memory.  [old] is what the caller's memory contained before; sizes are numbers below 2^64. *)
From Verif Require Import Base MaskModel RandomModel.
Local Open Scope N_scope.

(** error_code.h. *)
Definition SUCCESS : Z := 0%Z.
Definition INVALID_ARGUMENT : Z := (-10022)%Z.

Inductive platform := Linux | Windows | Zephyr.
Inductive answer := Gives (l : list N) | Fails (code : Z) (left : list N).

(** How many bytes the system is asked for: size_t; ULONG (32 bit, windows/random.c 44); uint16_t (zephyr/random.c 41). *)
Definition asked (p : platform) (n : N) : N := match p with Linux => n | Windows => n mod 2 ^ 32 | Zephyr => n mod 2 ^ 16 end.

(** What ends up in the first bytes of the caller's memory. *)
Definition in_memory (a : answer) : list N := match a with Gives l => l | Fails _ l => l end.

(** linux/random.c 36-44: [code] is errno; windows/random.c 42-50: [code] is the status; zephyr/random.c 37-44: [dev] tells whether
    device_get_binding finds the device, a null device is used all the same.  Result: error code and the caller's memory. *)
Definition entropy_get_bytes (p : platform) (dev : bool) (a : answer) (old : list N) (n : N) : outcome (Z * list N) :=
  let m := in_memory a ++ skipn (N.to_nat (asked p n)) old in
  match p with
  | Linux => match a with Gives _ => Ret (SUCCESS, m) | Fails code _ => Ret ((- code)%Z, m) end
  | Windows => match a with Gives _ => Ret (SUCCESS, m) | Fails _ _ => Ret (INVALID_ARGUMENT, m) end
  | Zephyr => if dev then Ret (SUCCESS, m) else UB
  end.

(** random.c 70-81, cio_random_seed_rng: 16 bytes are the two seeds, in the order of the machine. *)
Definition seed (e : endianness) (p : platform) (dev : bool) (a : answer) (old : list N) : outcome (rng * Z) :=
  obind (entropy_get_bytes p dev a old 16) (fun x =>
  let '(err, m) := x in
  Ret (if (err =? SUCCESS)%Z then seed_rng (inl (load_word e (firstn 8 m), load_word e (firstn 8 (skipn 8 m)))) else seed_rng (inr err))).
