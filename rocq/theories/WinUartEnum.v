(** Model of the enumeration and initialisation of serial ports on Windows: lib/src/platform/windows/uart.c 187-292, 304-527 and
    869-880, with the resources that the functions obtain and give back.

    WCHARs are numbers below 2^16, strings of the registry are lists of them, with whatever NULs are stored.  A string is read
    from a heap block; what lies behind the block is part of the environment ([behind]).  Reading more than is given there is
    undefined.  Sizes in bytes are even.  The device list and the registry do not change during a call. *)
From Verif Require Import Base.

(** error_code.h. *)
Definition SUCCESS : Z := 0%Z.
Definition INVALID_ARGUMENT : Z := (-10022)%Z.
Definition NO_MEMORY : Z := (-14)%Z.
(** stdlib.h. *)
Definition MAX_PATH : nat := 260.

(** Heap blocks, registry keys, device lists, handles of ports; operations in the order they happen. *)
Inductive res := Mem | Key | Info | Port.
Inductive rop := Get (r : res) | Put (r : res).

(** Windows: WideCharToMultiByte with CP_UTF8 and WC_ERR_INVALID_CHARS; None: a surrogate without its partner. *)
Local Open Scope N_scope.
Definition high (c : N) : bool := (55296 <=? c) && (c <? 56320).
Definition low (c : N) : bool := (56320 <=? c) && (c <? 57344).
Definition enc (c : N) : list N :=
  if c <? 128 then [c]
  else if c <? 2048 then [192 + c / 64; 128 + c mod 64]
  else [224 + c / 4096; 128 + (c / 64) mod 64; 128 + c mod 64].
Definition enc2 (h l : N) : list N :=
  let c := 65536 + (h - 55296) * 1024 + (l - 56320) in
  [240 + c / 262144; 128 + (c / 4096) mod 64; 128 + (c / 64) mod 64; 128 + c mod 64].
Fixpoint utf8_of (l : list N) : option (list N) :=
  match l with
  | [] => Some []
  | c :: r =>
      if high c then
        match r with
        | d :: r' => if low d then match utf8_of r' with Some u => Some (enc2 c d ++ u) | None => None end else None
        | [] => None
        end
      else if low c then None
      else match utf8_of r with Some u => Some (enc c ++ u) | None => None end
  end.
Local Close Scope N_scope.

(** The bytes before the first NUL; undefined if there is none. *)
Fixpoint cstr (l : list N) : outcome (list N) :=
  match l with [] => UB | b :: r => if N.eqb b 0 then Ret [] else obind (cstr r) (fun s => Ret (b :: s)) end.

(** A string of [v] in a heap block, [behind] after it, converted with the size in bytes taken for the number of WCHARs. *)
Definition wide_to_utf8 (v behind : list N) : outcome (option (list N)) :=
  let n := length v in
  if Nat.ltb (length behind) n then UB else Ret (utf8_of (v ++ firstn n behind)).

(** A device of the list: does its registry key open, its PortName value (None: the query fails), is it a REG_SZ, does the second
    query succeed; its friendly name (None: the property cannot be read); which allocations succeed; the byte behind the converted
    string. *)
Record device := mkDev { d_key : bool; d_value : option (list N); d_sz : bool; d_again : bool; d_behind : list N; d_m1 : bool; d_m2 : bool; d_junk : N;
  f_value : option (list N); f_behind : list N; f_m1 : bool; f_m2 : bool; f_junk : N }.

(** uart.c 187-243, get_string_value_from_registry: the C string, if any, and what was obtained and given back. *)
Definition get_string_value_from_registry (d : device) : outcome (option (list N) * list rop) :=
  if negb (d_key d) then Ret (None, [])
  else
    match d_value d with
    | None => Ret (None, [Get Key; Put Key])
    | Some v =>
        if negb (d_sz d) then Ret (None, [Get Key; Put Key])
        else if negb (d_m1 d) then Ret (None, [Get Key; Put Key])
        else if negb (d_again d) then Ret (None, [Get Key; Get Mem; Put Mem; Put Key])
        else
          obind (wide_to_utf8 v (d_behind d)) (fun u =>
          match u with
          | None | Some [] => Ret (None, [Get Key; Get Mem; Put Key; Put Mem; Put Key])
          | Some u =>
              if negb (d_m2 d) then Ret (None, [Get Key; Get Mem; Put Key; Put Mem; Put Key])
              else obind (cstr (u ++ [d_junk d])) (fun s => Ret (Some s, [Get Key; Get Mem; Put Key; Get Mem; Put Mem]))
          end)
    end.

(** uart.c 245-257, is_com_port; isdigit of a negative char is undefined. *)
Definition is_com_port (s : list N) : outcome bool :=
  match s with
  | (a :: b :: c :: x :: _) =>
      if (N.eqb a 67 && N.eqb b 79 && N.eqb c 77)%bool then
        if N.leb 128 x then UB else Ret (N.leb 48 x && N.leb x 57)%bool
      else Ret false
  | _ => Ret false
  end.

(** uart.c 259-292, get_device_property, for the friendly name. *)
Definition get_device_property (d : device) : outcome (option (list N) * list rop) :=
  if negb (f_m1 d) then Ret (None, [])
  else
    match f_value d with
    | None => Ret (None, [Get Mem; Put Mem])
    | Some v =>
        obind (wide_to_utf8 v (f_behind d)) (fun u =>
        match u with
        | None | Some [] => Ret (None, [Get Mem; Put Mem])
        | Some u =>
            if negb (f_m2 d) then Ret (None, [Get Mem; Put Mem])
            else obind (cstr (u ++ [f_junk d])) (fun s => Ret (Some s, [Get Mem; Get Mem]))
        end)
    end.

(** The system: do the allocation of the GUIDs, their query and the opening of the device list succeed (error codes, 0: yes). *)
Record sys := mkSys { s_mem : bool; s_guids : Z; s_open : Z; devs : list device }.

(** uart.c 330-343: the loop of cio_uart_get_number_of_uarts. *)
Fixpoint count_loop (ds : list device) (n : nat) : outcome (nat * list rop) :=
  match ds with
  | [] => Ret (n, [])
  | d :: r =>
      obind (get_string_value_from_registry d) (fun '(name, l1) =>
      match name with
      | None => obind (count_loop r n) (fun '(n, l) => Ret (n, l1 ++ l))
      | Some name => obind (is_com_port name) (fun com => obind (count_loop r (if com then S n else n)) (fun '(n, l) => Ret (n, l1 ++ [Put Mem] ++ l)))
      end)
  end.
(** uart.c 304-352, cio_uart_get_number_of_uarts. *)
Definition get_number_of_uarts (y : sys) : outcome (nat * list rop) :=
  if negb (s_mem y) then Ret (0, [])
  else if negb (s_guids y =? 0)%Z then Ret (0, [Get Mem; Put Mem])
  else if negb (s_open y =? 0)%Z then Ret (0, [Get Mem; Put Mem])
  else obind (count_loop (devs y) 0) (fun '(n, l) => Ret (n, [Get Mem; Get Info] ++ l ++ [Put Info; Put Mem])).

(** strncpy_s with _TRUNCATE into an array of _MAX_PATH: the C string afterwards. *)
Definition truncate (s : list N) : list N := firstn (MAX_PATH - 1) s.
(** struct cio_uart_impl: name and friendly_name as C strings. *)
Definition port := (list N * list N)%type.

(** uart.c 386-411: the loop of cio_uart_get_ports; [max] entries in the array, [ps] filled so far. *)
Fixpoint ports_loop (ds : list device) (max : nat) (ps : list port) : outcome (list port * list rop) :=
  match ds with
  | [] => Ret (ps, [])
  | d :: r =>
      obind (get_string_value_from_registry d) (fun '(name, l1) =>
      match name with
      | None => obind (ports_loop r max ps) (fun '(ps, l) => Ret (ps, l1 ++ l))
      | Some name =>
          obind (is_com_port name) (fun com =>
          obind
            (if com then
               if Nat.leb max (length ps) then UB
               else obind (get_device_property d) (fun '(f, l2) =>
                 Ret (ps ++ [(truncate name, match f with Some f => truncate f | None => [] end)], l2))
             else Ret (ps, []))
            (fun '(ps, l2) =>
              let l2 := l1 ++ l2 ++ [Put Mem] in
              if Nat.leb max (length ps) then Ret (ps, l2) else obind (ports_loop r max ps) (fun '(ps, l) => Ret (ps, l2 ++ l))))
      end)
  end.
(** uart.c 354-419, cio_uart_get_ports: return value, *num_detected_ports (None: not written), the entries, resources. *)
Definition get_ports (y : sys) (max : nat) : outcome (Z * option nat * list port * list rop) :=
  if Nat.eqb max 0 then Ret (SUCCESS, Some 0, [], [])
  else if negb (s_mem y) then Ret (NO_MEMORY, None, [], [])
  else if negb (s_guids y =? 0)%Z then Ret ((- s_guids y)%Z, None, [], [Get Mem; Put Mem])
  else if negb (s_open y =? 0)%Z then Ret ((- s_open y)%Z, None, [], [Get Mem; Put Mem])
  else obind (ports_loop (devs y) max []) (fun '(ps, l) => Ret (SUCCESS, Some (length ps), ps, [Get Mem; Get Info] ++ l ++ [Put Info; Put Mem])).

(** uart.c 869-880, cio_uart_get_name. *)
Definition get_name (p : port) : list N := match snd p with [] => fst p | f => f end.

(** The errors of the calls in cio_uart_init, 0 if they succeed: MultiByteToWideChar (twice), CreateFileW, GetCommState,
    SetCommState, GetCommTimeouts, SetCommTimeouts, cio_windows_add_handle_to_completion_port (negative code); the allocation. *)
Record init_sys := mkInit { i_len : Z; i_mem : bool; i_conv : Z; i_open : Z; i_get : Z; i_set : Z; i_gett : Z; i_sett : Z; i_add : Z }.
(** uart.c 421-527, cio_uart_init, with valid arguments (423-425); [name]: impl.name. *)
Definition init (y : init_sys) (name : list N) : outcome (Z * list rop) :=
  if Nat.ltb (MAX_PATH + 7) (4 + length name + 1) then UB (* strcat_s, 428 *)
  else if negb (i_len y =? 0)%Z then Ret ((- i_len y)%Z, [])
  else if negb (i_mem y) then Ret (NO_MEMORY, [])
  else
    let free_wchar_buffer (e : Z) (l : list rop) := Ret (e, l ++ [Put Mem]) in
    let close_handle (e : Z) (l : list rop) := free_wchar_buffer e (l ++ [Put Port]) in
    if negb (i_conv y =? 0)%Z then free_wchar_buffer (- i_conv y)%Z [Get Mem]
    else if negb (i_open y =? 0)%Z then free_wchar_buffer (- i_open y)%Z [Get Mem]
    else
      let l := [Get Mem; Get Port; Put Mem] in
      if negb (i_get y =? 0)%Z then close_handle (- i_get y)%Z l
      else if negb (i_set y =? 0)%Z then close_handle (- i_set y)%Z l
      else if negb (i_gett y =? 0)%Z then close_handle (- i_gett y)%Z l
      else if negb (i_sett y =? 0)%Z then close_handle (- i_sett y)%Z l
      else if negb (i_add y =? 0)%Z then close_handle (i_add y) (l ++ [Put Port])
      else Ret (SUCCESS, l).
