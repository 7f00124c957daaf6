(** Model of lib/src/platform/shared/inet_address_impl.c,
    lib/src/platform/shared/socket_address_impl.c,
    lib/src/platform/linux/unix_address.c and of cio_server_socket_bind
    (lib/src/platform/linux/server_socket.c 158-211), at the level of the bytes
    handed to the kernel.

    Layout (x86-64/ARM Linux ABI, trusted): struct sockaddr_in is family (2
    bytes), port (2), address (4), padding (8); sockaddr_in6 is family, port,
    flow info (4), address (16), scope (4); sockaddr_un is family, path (108); the
    union cio_sa is as large as sockaddr_un (110 bytes, alignment padding left
    out). *)
From Verif Require Import Base MaskModel EndianModel.
Local Open Scope N_scope.

Definition SUCCESS : Z := 0%Z.
Definition INVALID_ARGUMENT : Z := (-22)%Z.
Definition FAMILY_NOT_SUPPORTED : Z := (-97)%Z.
(** address_family_impl.h: AF_UNSPEC, AF_UNIX, AF_INET, AF_INET6. *)
Definition AF_UNSPEC : N := 0.
Definition AF_UNIX : N := 1.
Definition AF_INET : N := 2.
Definition AF_INET6 : N := 10.
Definition SA_SIZE : nat := 110.
Definition SUN_PATH_SIZE : nat := 108.

(** Writing bytes into an object (memcpy, memset, assignment): outside the object
    it is undefined. *)
Definition put (off : nat) (b m : list N) : outcome (list N) :=
  if (off + length b <=? length m)%nat then Ret (firstn off m ++ b ++ skipn (off + length b) m) else UB.

(** A pointer argument: NULL or the memory it points to. *)
Definition pointer := option (list N).

(** struct cio_inet_address: inet_address_impl.h; the union is 16 bytes. *)
Record inet_address := Inet { ifamily : N; iraw : list N }.

(** inet_address_impl.c 56-73; the first argument is NULL or an object. *)
Definition init_inet_address (a : option inet_address) (address : pointer) (address_length : nat) : outcome (Z * option inet_address) :=
  match a, address with
  | Some a0, Some m =>
    if (negb (address_length =? 4)%nat && negb (address_length =? 16)%nat)%bool then Ret (INVALID_ARGUMENT, a)
    else if (length m <? address_length)%nat then UB   (* memcpy reads beyond the caller's buffer *)
    else if (address_length =? 4)%nat
    then obind (put 0 (firstn 4 m) (iraw a0)) (fun r => Ret (SUCCESS, Some (Inet AF_INET r)))
    else obind (put 0 (firstn 16 m) (iraw a0)) (fun r => Ret (SUCCESS, Some (Inet AF_INET6 r)))
  | _, _ => Ret (INVALID_ARGUMENT, a)
  end.
(** inet_address_impl.c 75-78. *)
Definition inet_address_get_family (a : inet_address) : N := ifamily a.

(** struct cio_socket_address: socket_address_impl.h 49-59. *)
Record socket_address := Sock { slen : N; sa : list N }.

Section Host.
Variable e : endianness.   (* the byte order of the machine *)
(** A 16-bit integer stored in memory in the host's byte order. *)
Definition host16 (n : N) : list N := store_word e 2 n.
Definition read_host16 (m : list N) : N := load_word e (firstn 2 m).

(** socket_address_impl.c 41-44. *)
Definition socket_address_get_family (s : socket_address) : N := read_host16 (sa s).

(** socket_address_impl.c 46-72. *)
Definition init_inet_socket_address (s : option socket_address) (a : option inet_address) (port : N) : outcome (Z * option socket_address) :=
  match s, a with
  | Some s0, Some a0 =>
    if (negb (ifamily a0 =? AF_INET) && negb (ifamily a0 =? AF_INET6))%bool then Ret (FAMILY_NOT_SUPPORTED, s)
    else
      obind (if ifamily a0 =? AF_INET
             then obind (put 0 (repeat 0 16) (sa s0)) (fun m =>
                  obind (put 4 (firstn 4 (iraw a0)) m) (fun m =>
                  obind (put 2 (host16 (htobe e 2 port)) m) (fun m => Ret (Sock 16 m))))
             else obind (put 0 (repeat 0 28) (sa s0)) (fun m =>
                  obind (put 8 (firstn 16 (iraw a0)) m) (fun m =>
                  obind (put 2 (host16 (htobe e 2 port)) m) (fun m => Ret (Sock 28 m)))))
      (fun s1 => obind (put 0 (host16 (ifamily a0)) (sa s1)) (fun m => Ret (SUCCESS, Some (Sock (slen s1) m))))
  | _, _ => Ret (INVALID_ARGUMENT, s)
  end.

(** strlen: reading beyond the memory is undefined. *)
Fixpoint strlen (m : list N) : outcome nat :=
  match m with
  | [] => UB
  | b :: r => if b =? 0 then Ret 0%nat else obind (strlen r) (fun n => Ret (S n))
  end.

(** unix_address.c 42-71. *)
Definition init_uds_socket_address (s : option socket_address) (path : pointer) : outcome (Z * option socket_address) :=
  match s, path with
  | Some s0, Some p =>
    obind (match p with
           | [] => UB
           | b :: r => if b =? 0 then obind (strlen r) (fun n => Ret (n + 1)%nat) else obind (strlen p) (fun n => Ret (n + 1)%nat)
           end) (fun path_length =>
    if (SUN_PATH_SIZE <? path_length)%nat then Ret (INVALID_ARGUMENT, s)
    else if (length p <? path_length)%nat then UB
    else
      obind (put 0 (repeat 0 SA_SIZE) (sa s0)) (fun m =>
      obind (put 0 (host16 AF_UNIX) m) (fun m =>
      obind (put 2 (firstn path_length p) m) (fun m =>
      Ret (SUCCESS, Some (Sock (2 + N.of_nat path_length) m))))))
  | _, _ => Ret (INVALID_ARGUMENT, s)
  end.

(** server_socket.c 158-211, cio_server_socket_bind: the system calls made, and
    the result.  [unlink_res], [bind_res]: errno (None: success). *)
Inductive syscall := SysUnlink (path : list N) | SysBind (addr : list N).
Definition is_standard_uds_socket (s : socket_address) : bool :=
  ((socket_address_get_family s =? AF_UNIX) && negb (nth 2 (sa s) 0 =? 0))%bool.
Definition server_socket_bind (s : option socket_address) (unlink_res bind_res : option Z) : outcome (Z * list syscall) :=
  match s with
  | None => Ret (INVALID_ARGUMENT, [])
  | Some s0 =>
    if socket_address_get_family s0 =? AF_UNSPEC then Ret (INVALID_ARGUMENT, [])
    else
      let b := SysBind (firstn (N.to_nat (slen s0)) (sa s0)) in
      let res := match bind_res with None => SUCCESS | Some e => (- e)%Z end in
      if is_standard_uds_socket s0
      then obind (strlen (skipn 2 (sa s0))) (fun n =>
        let u := SysUnlink (firstn n (skipn 2 (sa s0))) in
        match unlink_res with
        | Some e => if Z.eqb e 2 (* ENOENT *) then Ret (res, [u; b]) else Ret ((- e)%Z, [u])
        | None => Ret (res, [u; b])
        end)
      else Ret (res, [b])
  end.
End Host.
