(** Model of lib/src/platform/linux/uart.c: the terminal settings (267-868), the
    stream operations (59-165) and closing (338-353).

    Flag values are those of the Linux ABI on x86 and ARM (asm-generic/termbits.h).
    glibc's cfsetspeed and cfgetispeed are modelled as in glibc 2.36
    (sysdeps/unix/sysv/linux/speed.c); tcgetattr returns and tcsetattr stores the
    settings unchanged when they succeed (a device that supports them is assumed).
    Not modelled: enumeration of devices (178-245). *)
From Verif Require Import Base.
Local Open Scope N_scope.

Definition CSIZE : N := 48.      (* 0x30 *)
Definition CS5 : N := 0.
Definition CS6 : N := 16.
Definition CS7 : N := 32.
Definition CS8 : N := 48.
Definition CSTOPB : N := 64.
Definition PARENB : N := 256.
Definition PARODD : N := 512.
Definition CMSPAR : N := 1073741824.  (* 0x40000000 *)
Definition CRTSCTS : N := 2147483648. (* 0x80000000 *)
Definition CBAUD : N := 4111.         (* CBAUD|CBAUDEX, 0x100f *)
Definition IXON : N := 1024.
Definition IXANY : N := 2048.
Definition IXOFF : N := 4096.
Definition IBAUD0 : N := 2147483648.  (* glibc internal *)

(** The settings of the terminal; flags not touched by uart.c are kept in
    [other] (c_lflag, c_oflag, c_cc). *)
Record termios := Tty { cflag : N; iflag : N; other : N }.
Definition set_c c t := Tty c (iflag t) (other t).
Definition set_i i t := Tty (cflag t) i (other t).
(** x &= ~m *)
Definition clear (x m : N) : N := N.ldiff x m.

Inductive parity := PEven | POdd | PNone | PMark | PSpace.
Inductive stop_bits := OneStop | TwoStop.
Inductive data_bits := D5 | D6 | D7 | D8.
Inductive flow := FNone | FRtsCts | FXonXoff.
Inductive baud :=
| B50
| B75
| B110
| B134
| B150
| B200
| B300
| B600
| B1200
| B1800
| B2400
| B4800
| B9600
| B19200
| B38400
| B57600
| B115200
| B230400
| B460800
| B500000
| B576000
| B921600
| B1000000
| B1152000
| B1500000
| B2000000
| B2500000
| B3000000
| B3500000
| B4000000.

(** uart.c 367-396: the settings written for a parity. *)
Definition with_parity (p : parity) (t : termios) : termios :=
  match p with
  | PNone => set_c (clear (clear (cflag t) CMSPAR) PARENB) t
  | POdd => set_c (N.lor (N.lor (clear (cflag t) CMSPAR) PARENB) PARODD) t
  | PEven => set_c (clear (N.lor (clear (cflag t) CMSPAR) PARENB) PARODD) t
  | PMark => set_c (N.lor (N.lor (N.lor (cflag t) CMSPAR) PARENB) PARODD) t
  | PSpace => set_c (clear (N.lor (N.lor (cflag t) CMSPAR) PARENB) PARODD) t
  end.
(** uart.c 417-431. *)
Definition parity_of (t : termios) : parity :=
  if N.land (cflag t) PARENB =? 0 then PNone
  else if N.land (cflag t) CMSPAR =? 0
  then (if N.land (cflag t) PARODD =? PARODD then POdd else PEven)
  else (if N.land (cflag t) PARODD =? PARODD then PMark else PSpace).

(** uart.c 446-457. *)
Definition with_stop_bits (n : stop_bits) (t : termios) : termios :=
  match n with OneStop => set_c (clear (cflag t) CSTOPB) t | TwoStop => set_c (N.lor (cflag t) CSTOPB) t end.
(** uart.c 479-483. *)
Definition stop_bits_of (t : termios) : stop_bits := if N.land (cflag t) CSTOPB =? CSTOPB then TwoStop else OneStop.

(** uart.c 500-515: the character size is or-ed in. *)
Definition size_bits (n : data_bits) : N := match n with D5 => CS5 | D6 => CS6 | D7 => CS7 | D8 => CS8 end.
Definition with_data_bits (n : data_bits) (t : termios) : termios := set_c (N.lor (cflag t) (size_bits n)) t.
(** uart.c 537-551. *)
Definition data_bits_of (t : termios) : data_bits :=
  let c := N.land (cflag t) CSIZE in
  if c =? CS5 then D5 else if c =? CS6 then D6 else if c =? CS7 then D7 else D8.

(** uart.c 568-583. *)
Definition IXALL : N := N.lor (N.lor IXON IXOFF) IXANY.
Definition with_flow (f : flow) (t : termios) : termios :=
  match f with
  | FNone => set_i (clear (iflag t) IXALL) (set_c (clear (cflag t) CRTSCTS) t)
  | FRtsCts => set_c (N.lor (cflag t) CRTSCTS) (set_i (clear (iflag t) IXALL) t)
  | FXonXoff => set_i (N.lor (iflag t) IXALL) (set_c (clear (cflag t) CRTSCTS) t)
  end.
(** uart.c 593-611. *)
Definition xon_xoff_enabled (i : N) : bool := ((N.land i IXON =? IXON) && (N.land i IXOFF =? IXOFF) && (N.land i IXANY =? IXANY))%bool.
Definition cts_rts_enabled (c : N) : bool := N.land c CRTSCTS =? CRTSCTS.
(** uart.c 625-633; None: CIO_PROTOCOL_NOT_SUPPORTED. *)
Definition flow_of (t : termios) : option flow :=
  match cts_rts_enabled (cflag t), xon_xoff_enabled (iflag t) with
  | false, false => Some FNone | true, false => Some FRtsCts | false, true => Some FXonXoff | true, true => None
  end.

(** The speed codes of the Linux ABI, used by uart.c 651-748. *)
Definition speed_code (b : baud) : N :=
  match b with
  | B50 => 1
  | B75 => 2
  | B110 => 3
  | B134 => 4
  | B150 => 5
  | B200 => 6
  | B300 => 7
  | B600 => 8
  | B1200 => 9
  | B1800 => 10
  | B2400 => 11
  | B4800 => 12
  | B9600 => 13
  | B19200 => 14
  | B38400 => 15
  | B57600 => 4097
  | B115200 => 4098
  | B230400 => 4099
  | B460800 => 4100
  | B500000 => 4101
  | B576000 => 4102
  | B921600 => 4103
  | B1000000 => 4104
  | B1152000 => 4105
  | B1500000 => 4106
  | B2000000 => 4107
  | B2500000 => 4108
  | B3000000 => 4109
  | B3500000 => 4110
  | B4000000 => 4111
  end.
(** glibc: cfsetspeed for a non-zero speed. *)
Definition cfsetspeed (t : termios) (speed : N) : termios :=
  set_c (N.lor (clear (cflag t) CBAUD) speed) (set_i (clear (iflag t) IBAUD0) t).
Definition cfgetispeed (t : termios) : N := if N.land (iflag t) IBAUD0 =? 0 then N.land (cflag t) CBAUD else 0.
(** uart.c 650-748. *)
Definition with_baud (b : baud) (t : termios) : termios := cfsetspeed t (speed_code b).
(** uart.c 773-866; None: CIO_PROTOCOL_NOT_SUPPORTED. *)
Definition baud_of (t : termios) : option baud :=
  let s := cfgetispeed t in
  if s =? 1 then Some B50 else
  if s =? 2 then Some B75 else
  if s =? 3 then Some B110 else
  if s =? 4 then Some B134 else
  if s =? 5 then Some B150 else
  if s =? 6 then Some B200 else
  if s =? 7 then Some B300 else
  if s =? 8 then Some B600 else
  if s =? 9 then Some B1200 else
  if s =? 10 then Some B1800 else
  if s =? 11 then Some B2400 else
  if s =? 12 then Some B4800 else
  if s =? 13 then Some B9600 else
  if s =? 14 then Some B19200 else
  if s =? 15 then Some B38400 else
  if s =? 4097 then Some B57600 else
  if s =? 4098 then Some B115200 else
  if s =? 4099 then Some B230400 else
  if s =? 4100 then Some B460800 else
  if s =? 4101 then Some B500000 else
  if s =? 4102 then Some B576000 else
  if s =? 4103 then Some B921600 else
  if s =? 4104 then Some B1000000 else
  if s =? 4105 then Some B1152000 else
  if s =? 4106 then Some B1500000 else
  if s =? 4107 then Some B2000000 else
  if s =? 4108 then Some B2500000 else
  if s =? 4109 then Some B3000000 else
  if s =? 4110 then Some B3500000 else
  if s =? 4111 then Some B4000000 else
  None.

(** uart.c 284-304: the settings written by cio_uart_init; the bits of c_lflag,
    c_oflag and c_cc are not looked at ([lo] is what becomes of them). *)
Definition INIT_BREAK : N := 1 + 2 + 8 + 32 + 64 + 128 + 256. (* IGNBRK BRKINT PARMRK ISTRIP INLCR IGNCR ICRNL *)
Definition init_settings (t : termios) (lo : N) : termios :=
  let t := set_c (clear (cflag t) CRTSCTS) t in
  let t := Tty (cflag t) (clear (clear (iflag t) IXALL) INIT_BREAK) lo in
  cfsetspeed t (speed_code B115200).

(** The calls: [get] and [set] are errno of tcgetattr and of tcflush/tcsetattr
    (None: success).  uart.c 167-176, 247-265. *)
Definition set_call (f : termios -> termios) (get set : option Z) (t : termios) : Z * termios :=
  match get with
  | Some e => ((- e)%Z, t)
  | None => match set with Some e => ((- e)%Z, t) | None => (0%Z, f t) end
  end.
Definition get_call {A} (f : termios -> A) (get : option Z) (t : termios) : Z + A :=
  match get with Some e => inl (- e)%Z | None => inr (f t) end.

(** * The stream *)
Definition EAGAIN : Z := 11%Z.
(** uart.c 118-160, stream_write: what the device accepted, and what the caller
    learns.  [res i]: result of the i-th write(2): bytes accepted or errno. *)
Inductive wreport :=
| WHandler (n : N)        (* handler called with CIO_SUCCESS and n, CIO_SUCCESS returned *)
| WLater                  (* the handler will be called with 0 bytes when the device is writable (104-116) *)
| WError (e : Z).         (* returned, handler not called *)
Fixpoint write_loop (chain : list (list N)) (res : list (N + Z)) (written : N) (dev : list N) : wreport * list N :=
  match chain with
  | [] => (WHandler written, dev)
  | el :: r =>
    match res with
    | [] => (WHandler written, dev)   (* not enough results given: excluded below *)
    | inl n :: rs =>
      let dev := dev ++ firstn (N.to_nat n) el in
      if n =? N.of_nat (length el) then write_loop r rs (written + n) dev else (WHandler (written + n), dev)
    | inr e :: _ => (if Z.eqb e EAGAIN then WLater else WError (- e)%Z, dev)
    end
  end.
Definition stream_write (chain : list (list N)) (res : list (N + Z)) : wreport * list N := write_loop chain res 0 [].

(** Reading and closing: a state machine.  The descriptor is registered for
    reading from cio_uart_init on (321-325) until cio_uart_close. *)
Inductive rres := RData (l : list N) | REof | RErr (e : Z).
Inductive uev :=
| EvRead (id : nat) | EvReadDone (id : nat) (r : rres)
| EvFdClosed | EvHook | EvUnregistered.
Inductive kread := KRead (l : list N) | KErr (e : Z).
Record uart := mkU { alive : bool; in_loop : bool; rreq : option nat; nid : nat; tr : list uev }.
Inductive op := OUser | OHook | OClose2.
Definition config := (uart * list op)%type.
Definition log e u := mkU (alive u) (in_loop u) (rreq u) (nid u) (tr u ++ [e]).
Inductive act := XRead | XReadable (r : kread) | XClose | XReturn | XCont.
Definition app_runs (k : list op) : bool := match k with [] | OUser :: _ | OHook :: _ => true | _ => false end.
Definition enabled (c : config) (x : act) : Prop :=
  let '(u, k) := c in
  match x with
  | XRead | XClose => app_runs k = true
  | XReadable _ => k = [] /\ in_loop u = true
  | XReturn => match k with OUser :: _ | OHook :: _ => True | _ => False end
  | XCont => match k with OClose2 :: _ => True | _ => False end
  end.
Definition step (c : config) (x : act) : outcome config :=
  let '(u, k) := c in
  match x with
  | XRead =>                                     (* uart.c 88-102 *)
    if negb (alive u) then UB else Ret (log (EvRead (nid u)) (mkU (alive u) (in_loop u) (Some (nid u)) (S (nid u)) (tr u)), k)
  | XReadable r =>                               (* uart.c 59-86; read_callback and handler are set by stream_read only *)
    match rreq u with
    | None => UB
    | Some id => match r with
      | KErr e => if Z.eqb e EAGAIN then Ret (u, k) else Ret (log (EvReadDone id (RErr (- e)%Z)) u, OUser :: k)
      | KRead [] => Ret (log (EvReadDone id REof) u, OUser :: k)
      | KRead l => Ret (log (EvReadDone id (RData l)) u, OUser :: k)
      end
    end
  | XClose =>                                    (* uart.c 338-347: close, then the hook *)
    if negb (alive u) then UB else
    let u := log EvHook (log EvFdClosed u) in Ret (mkU false (in_loop u) (rreq u) (nid u) (tr u), OHook :: OClose2 :: k)
  | XReturn => match k with OUser :: r | OHook :: r => Ret (u, r) | _ => Ret c end
  | XCont => match k with                        (* uart.c 349-352: port->impl is used after the hook *)
    | OClose2 :: r => if negb (alive u) then UB else Ret (log EvUnregistered (mkU (alive u) false (rreq u) (nid u) (tr u)), r)
    | _ => Ret c
    end
  end.
(** uart.c 267-336 in the case of success. *)
Definition uart_init : config := (mkU true true None 0 [], []).
Inductive reach (user : config -> act -> Prop) : config -> Prop :=
| reach_init : reach user uart_init
| reach_step c x c' : reach user c -> enabled c x -> user c x -> step c x = Ret c' -> reach user c'.
Definition anyone (c : config) (x : act) : Prop := True.
