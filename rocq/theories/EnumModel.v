(** Model of the enumeration of serial ports, lib/src/platform/linux/uart.c 56, 178-251. *)
From Verif Require Import Base Text.
Local Open Scope string_scope.
Local Open Scope list_scope.

(** <limits.h>, PATH_MAX on Linux; the buffers of the code have one byte more (uart.c 217, 223, uart_impl.h 41). *)
Definition PATH_MAX : nat := N.to_nat 4096.
(** uart.c 56, DIR_NAME without its terminating NUL. *)
Definition DIR_NAME : list N := text "/dev/serial/by-path/".

(** Character arrays.  strncpy(buf + off, src, n), with [src] the bytes before the NUL: copies, then pads with NULs; writing
    behind the end of the array is undefined. *)
Definition poke (buf : list N) (off : nat) (l : list N) : list N := firstn off buf ++ l ++ skipn (off + length l) buf.
Definition strncpy (buf : list N) (off : nat) (src : list N) (n : nat) : outcome (list N) :=
  if Nat.ltb (length buf) (off + n) then UB else Ret (poke buf off (firstn n (src ++ repeat 0%N n))).
(** strlen(buf): undefined when there is no NUL in the array. *)
Fixpoint strlen (buf : list N) : outcome nat :=
  match buf with
  | [] => UB
  | b :: r => if N.eqb b 0 then Ret 0 else obind (strlen r) (fun n => Ret (S n))
  end.
(** The string that starts an array, as the system calls read it. *)
Definition cstring (buf : list N) : outcome (list N) := obind (strlen buf) (fun n => Ret (firstn n buf)).

(** What the system answers: the entries of the directory in the order of readdir (name, whether d_type is DT_LNK), or the
    failure of opendir; for every path the result of readlink and of realpath (errno or the bytes). *)
Record sys := mkSys { dir : option (list (list N * bool)); readlink_of : list N -> Z + list N; realpath_of : list N -> Z + list N }.

(** readlink(path, buf, size): writes at most [size] bytes and no NUL, returns their number. *)
Definition readlink (y : sys) (path buf : list N) (size : nat) : outcome (Z + (list N * nat)) :=
  match readlink_of y path with
  | inl e => Ret (inl e)
  | inr l => let l := firstn size l in if Nat.ltb (length buf) (length l) then UB else Ret (inr (poke buf 0 l, length l))
  end.
(** realpath(path, resolved): writes the path and a NUL. *)
Definition realpath (y : sys) (path buf : list N) : outcome (Z + list N) :=
  match realpath_of y path with
  | inl e => Ret (inl e)
  | inr l => if Nat.ltb (length buf) (length l + 1) then UB else Ret (inr (poke buf 0 (l ++ [0%N])))
  end.

(** opendir and closedir, with the number of open directory streams of the process. *)
Definition opendir (y : sys) (open : nat) : option (list (list N * bool)) * nat :=
  match dir y with None => (None, open) | Some l => (Some l, S open) end.
Definition closedir (open : nat) : nat := pred open.

(** uart.c 178-197, cio_uart_get_number_of_uarts; the second component counts the directory streams left open. *)
Fixpoint count_links (l : list (list N * bool)) (n : nat) : nat :=
  match l with [] => n | (_, lnk) :: r => count_links r (if lnk then S n else n) end.
Definition get_number_of_uarts (y : sys) : nat * nat :=
  match opendir y 0 with (None, open) => (0, open) | (Some l, open) => (count_links l 0, closedir open) end.

(** What a call of cio_uart_get_ports leaves: return value, *num_detected_ports (None: not written), the name arrays of the
    ports, the number of directory streams left open. *)
Record res := mkRes { ret : Z; detected : option nat; ports : list (list N); left_open : nat }.

Definition set_nth {A} (n : nat) (x : A) (l : list A) : list A := firstn n l ++ x :: skipn (S n) l.

(** uart.c 216-242: one link.  Both buffers are on the stack, their initial contents [junk] arbitrary. *)
Definition one_link (y : sys) (junk : list N) (name target : list N) : outcome (Z + list N) :=
  let size := S PATH_MAX in
  let max_copy_size := Nat.min (length DIR_NAME + 1) size in
  obind (strncpy junk 0 DIR_NAME max_copy_size) (fun src =>
  obind (strlen src) (fun len =>
  obind (strncpy src len name (size - len)) (fun src =>
  obind (cstring src) (fun path =>
  obind (readlink y path junk (size - 1)) (fun r =>
  match r with
  | inl e => Ret (inl (- e)%Z)
  | inr (dst, name_len) =>
      if Nat.leb size name_len then UB (* dst_buffer[name_len] = 0 *)
      else
      obind (strncpy src 0 DIR_NAME max_copy_size) (fun src =>
      obind (strlen src) (fun len =>
      obind (strncpy src len name (size - len)) (fun src =>
      obind (cstring src) (fun path =>
      obind (realpath y path target) (fun r =>
      match r with inl e => Ret (inl (- e)%Z) | inr t => Ret (inr t) end)))))
  end))))).

(** uart.c 208-247: the loop over the directory. *)
Fixpoint get_loop (y : sys) (junk : list N) (l : list (list N * bool)) (num_uarts max open : nat) (ps : list (list N)) : outcome res :=
  match l with
  | [] => Ret (mkRes 0 (Some num_uarts) ps (closedir open))
  | (name, lnk) :: r =>
      if Nat.leb max num_uarts then Ret (mkRes 0 (Some num_uarts) ps (closedir open))
      else if lnk then
        match nth_error ps num_uarts with
        | None => UB
        | Some target =>
            obind (one_link y junk name target) (fun x =>
            match x with
            | inl e => Ret (mkRes e None ps (closedir open))
            | inr t => get_loop y junk r (S num_uarts) max open (set_nth num_uarts t ps)
            end)
        end
      else get_loop y junk r num_uarts max open ps
  end.

(** lib/include/platform/linux/cio/error_code.h: CIO_NO_SUCH_FILE_OR_DIRECTORY = -ENOENT. *)
Definition NO_SUCH_FILE_OR_DIRECTORY : Z := (-2)%Z.
(** uart.c 199-251, cio_uart_get_ports. *)
Definition get_ports (y : sys) (junk : list N) (ps : list (list N)) (num_ports_entries : nat) : outcome res :=
  match opendir y 0 with
  | (None, open) => Ret (mkRes NO_SUCH_FILE_OR_DIRECTORY None ps open)
  | (Some l, open) => get_loop y junk l 0 num_ports_entries open ps
  end.
