(** Model of the settings of a serial port on Windows: lib/src/platform/windows/uart.c 294-302, 457-475 and 541-858.

    The device keeps one DCB per port; GetCommState copies it, SetCommState replaces it, or fails and leaves it as it is.  Values
    are those of winbase.h.  The enumerations are those of UartModel (uart.h 44-105 is shared by all platforms); values outside the
    enumerations, refused by the default cases, are not modelled, nor are NULL ports. *)
From Verif Require Import Base.
From Verif Require UartModel.
Notation parity := UartModel.parity. Notation stop_bits := UartModel.stop_bits. Notation data_bits := UartModel.data_bits.
Notation flow := UartModel.flow. Notation baud := UartModel.baud.
Import UartModel (PEven, POdd, PNone, PMark, PSpace, OneStop, TwoStop, D5, D6, D7, D8, FNone, FRtsCts, FXonXoff).
Local Open Scope N_scope.

(** error_code.h 50-77 with WSAEINVAL, WSAEPROTONOSUPPORT, WSAEOPNOTSUPP. *)
Definition SUCCESS : Z := 0%Z.
Definition INVALID_ARGUMENT : Z := (-10022)%Z.
Definition PROTOCOL_NOT_SUPPORTED : Z := (-10043)%Z.
Definition OPERATION_NOT_SUPPORTED : Z := (-10045)%Z.

(** winbase.h. *)
Definition NOPARITY : N := 0.
Definition ODDPARITY : N := 1.
Definition EVENPARITY : N := 2.
Definition MARKPARITY : N := 3.
Definition SPACEPARITY : N := 4.
Definition ONESTOPBIT : N := 0.
Definition ONE5STOPBITS : N := 1.
Definition TWOSTOPBITS : N := 2.
Definition RTS_CONTROL_DISABLE : N := 0.
Definition RTS_CONTROL_HANDSHAKE : N := 2.
Definition DTR_CONTROL_DISABLE : N := 0.
Definition CBR_110 : N := 110.
Definition CBR_300 : N := 300.
Definition CBR_600 : N := 600.
Definition CBR_1200 : N := 1200.
Definition CBR_2400 : N := 2400.
Definition CBR_4800 : N := 4800.
Definition CBR_9600 : N := 9600.
Definition CBR_19200 : N := 19200.
Definition CBR_38400 : N := 38400.
Definition CBR_57600 : N := 57600.
Definition CBR_115200 : N := 115200.

(** struct _DCB; [rest]: the members that uart.c does not touch. *)
Record dcb := mkDcb { BaudRate : N; ByteSize : N; Parity : N; StopBits : N; fInX : bool; fOutX : bool; fTXContinueOnXoff : bool;
  fOutxCtsFlow : bool; fRtsControl : N; fDtrControl : N; fOutxDsrFlow : bool; fDsrSensitivity : bool; rest : list N }.
Definition set_BaudRate v d := mkDcb v (ByteSize d) (Parity d) (StopBits d) (fInX d) (fOutX d) (fTXContinueOnXoff d) (fOutxCtsFlow d) (fRtsControl d) (fDtrControl d) (fOutxDsrFlow d) (fDsrSensitivity d) (rest d).
Definition set_ByteSize v d := mkDcb (BaudRate d) v (Parity d) (StopBits d) (fInX d) (fOutX d) (fTXContinueOnXoff d) (fOutxCtsFlow d) (fRtsControl d) (fDtrControl d) (fOutxDsrFlow d) (fDsrSensitivity d) (rest d).
Definition set_Parity v d := mkDcb (BaudRate d) (ByteSize d) v (StopBits d) (fInX d) (fOutX d) (fTXContinueOnXoff d) (fOutxCtsFlow d) (fRtsControl d) (fDtrControl d) (fOutxDsrFlow d) (fDsrSensitivity d) (rest d).
Definition set_StopBits v d := mkDcb (BaudRate d) (ByteSize d) (Parity d) v (fInX d) (fOutX d) (fTXContinueOnXoff d) (fOutxCtsFlow d) (fRtsControl d) (fDtrControl d) (fOutxDsrFlow d) (fDsrSensitivity d) (rest d).

(** The errors of GetCommState and SetCommState in a call, 0 if they succeed. *)
Record sys := mkSys { e_get : Z; e_set : Z }.
(** GetCommState. *)
Definition get_state (y : sys) (d : dcb) : Z + dcb := if (e_get y =? 0)%Z then inr d else inl (- e_get y)%Z.
(** uart.c 294-302, set_comm_settings; [d] is the DCB of the device. *)
Definition set_comm_settings (y : sys) (settings d : dcb) : Z * dcb :=
  if (e_set y =? 0)%Z then (SUCCESS, settings) else ((- e_set y)%Z, d).

(** uart.c 541-575, cio_uart_set_parity. *)
Definition set_parity (y : sys) (p : parity) (d : dcb) : Z * dcb :=
  match get_state y d with
  | inl e => (e, d)
  | inr c => set_comm_settings y (set_Parity match p with PNone => NOPARITY | POdd => ODDPARITY | PEven => EVENPARITY | PMark => MARKPARITY | PSpace => SPACEPARITY end c) d
  end.
(** uart.c 577-611, cio_uart_get_parity. *)
Definition get_parity (y : sys) (d : dcb) : Z + parity :=
  match get_state y d with
  | inl e => inl e
  | inr c =>
      if Parity c =? NOPARITY then inr PNone else if Parity c =? ODDPARITY then inr POdd else if Parity c =? EVENPARITY then inr PEven
      else if Parity c =? MARKPARITY then inr PMark else if Parity c =? SPACEPARITY then inr PSpace else inl PROTOCOL_NOT_SUPPORTED
  end.
(** uart.c 613-638, cio_uart_set_num_stop_bits. *)
Definition set_num_stop_bits (y : sys) (n : stop_bits) (d : dcb) : Z * dcb :=
  match get_state y d with
  | inl e => (e, d)
  | inr c => set_comm_settings y (set_StopBits match n with OneStop => ONESTOPBIT | TwoStop => TWOSTOPBITS end c) d
  end.
(** uart.c 640-665, cio_uart_get_num_stop_bits. *)
Definition get_num_stop_bits (y : sys) (d : dcb) : Z + stop_bits :=
  match get_state y d with
  | inl e => inl e
  | inr c => if StopBits c =? ONESTOPBIT then inr OneStop else if StopBits c =? TWOSTOPBITS then inr TwoStop else inl OPERATION_NOT_SUPPORTED
  end.
(** uart.c 667-698, cio_uart_set_num_data_bits. *)
Definition set_num_data_bits (y : sys) (n : data_bits) (d : dcb) : Z * dcb :=
  match get_state y d with
  | inl e => (e, d)
  | inr c => set_comm_settings y (set_ByteSize match n with D5 => 5 | D6 => 6 | D7 => 7 | D8 => 8 end c) d
  end.
(** uart.c 700-731, cio_uart_get_num_data_bits. *)
Definition get_num_data_bits (y : sys) (d : dcb) : Z + data_bits :=
  match get_state y d with
  | inl e => inl e
  | inr c => if ByteSize c =? 5 then inr D5 else if ByteSize c =? 6 then inr D6 else if ByteSize c =? 7 then inr D7 else if ByteSize c =? 8 then inr D8 else inl PROTOCOL_NOT_SUPPORTED
  end.
(** uart.c 733-741, cio_uart_set_flow_control. *)
Definition set_flow_control (y : sys) (f : flow) (d : dcb) : Z * dcb := (SUCCESS, d).
(** uart.c 743-750, cio_uart_get_flow_control. *)
Definition get_flow_control (y : sys) (d : dcb) : Z + flow := inl OPERATION_NOT_SUPPORTED.
(** uart.c 765-801: the switch of cio_uart_set_baud_rate. *)
Definition cbr (b : baud) : option N :=
  match b with
  | UartModel.B110 => Some CBR_110
  | UartModel.B300 => Some CBR_300
  | UartModel.B600 => Some CBR_600
  | UartModel.B1200 => Some CBR_1200
  | UartModel.B2400 => Some CBR_2400
  | UartModel.B4800 => Some CBR_4800
  | UartModel.B9600 => Some CBR_9600
  | UartModel.B19200 => Some CBR_19200
  | UartModel.B38400 => Some CBR_38400
  | UartModel.B57600 => Some CBR_57600
  | UartModel.B115200 => Some CBR_115200
  | _ => None
  end.
(** uart.c 752-804, cio_uart_set_baud_rate. *)
Definition set_baud_rate (y : sys) (b : baud) (d : dcb) : Z * dcb :=
  match get_state y d with
  | inl e => (e, d)
  | inr c => match cbr b with Some r => set_comm_settings y (set_BaudRate r c) d | None => (INVALID_ARGUMENT, d) end
  end.
(** uart.c 806-858, cio_uart_get_baud_rate. *)
Definition get_baud_rate (y : sys) (d : dcb) : Z + baud :=
  match get_state y d with
  | inl e => inl e
  | inr c =>
      let r := BaudRate c in
      if r =? CBR_110 then inr UartModel.B110 else
      if r =? CBR_300 then inr UartModel.B300 else
      if r =? CBR_600 then inr UartModel.B600 else
      if r =? CBR_1200 then inr UartModel.B1200 else
      if r =? CBR_2400 then inr UartModel.B2400 else
      if r =? CBR_4800 then inr UartModel.B4800 else
      if r =? CBR_9600 then inr UartModel.B9600 else
      if r =? CBR_19200 then inr UartModel.B19200 else
      if r =? CBR_38400 then inr UartModel.B38400 else
      if r =? CBR_57600 then inr UartModel.B57600 else
      if r =? CBR_115200 then inr UartModel.B115200 else inl PROTOCOL_NOT_SUPPORTED
  end.

(** uart.c 464-475: the settings that cio_uart_init writes. *)
Definition init_dcb (c : dcb) : dcb :=
  mkDcb CBR_115200 8 NOPARITY ONESTOPBIT false false false false RTS_CONTROL_DISABLE DTR_CONTROL_DISABLE false false (rest c).

(** The calls an application can make on an open port. *)
Inductive call :=
| SetParity (p : parity) | SetStopBits (n : stop_bits) | SetDataBits (n : data_bits) | SetFlow (f : flow) | SetBaud (b : baud)
| GetParity | GetStopBits | GetDataBits | GetFlow | GetBaud.
Inductive answer := AParity (p : parity) | AStopBits (n : stop_bits) | ADataBits (n : data_bits) | AFlow (f : flow) | ABaud (b : baud) | ANone.
Definition answered {A} (f : A -> answer) (r : Z + A) : Z * answer := match r with inl e => (e, ANone) | inr a => (SUCCESS, f a) end.
(** One call: return value, what was stored through the pointer, the device afterwards. *)
Definition do_call (y : sys) (c : call) (d : dcb) : Z * answer * dcb :=
  match c with
  | SetParity p => let '(r, d') := set_parity y p d in (r, ANone, d')
  | SetStopBits n => let '(r, d') := set_num_stop_bits y n d in (r, ANone, d')
  | SetDataBits n => let '(r, d') := set_num_data_bits y n d in (r, ANone, d')
  | SetFlow f => let '(r, d') := set_flow_control y f d in (r, ANone, d')
  | SetBaud b => let '(r, d') := set_baud_rate y b d in (r, ANone, d')
  | GetParity => (answered AParity (get_parity y d), d)
  | GetStopBits => (answered AStopBits (get_num_stop_bits y d), d)
  | GetDataBits => (answered ADataBits (get_num_data_bits y d), d)
  | GetFlow => (answered AFlow (get_flow_control y d), d)
  | GetBaud => (answered ABaud (get_baud_rate y d), d)
  end.
(** A history of calls: what each returned. *)
Fixpoint calls (l : list (sys * call)) (d : dcb) : list (Z * answer) * dcb :=
  match l with
  | [] => ([], d)
  | (y, c) :: r => let '(res, d1) := do_call y c d in let '(rs, d2) := calls r d1 in (res :: rs, d2)
  end.
