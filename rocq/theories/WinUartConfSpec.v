(** What a user expects of the settings of a serial port: the line as seen by the other end. *)
From Verif Require Import Base WinUartConf.
From Verif Require UartModel.
Import UartModel (PEven, POdd, PNone, PMark, PSpace, OneStop, TwoStop, D5, D6, D7, D8, FNone, FRtsCts, FXonXoff).
Local Open Scope N_scope.

(** Bits per second of each member of enum cio_uart_baud_rate. *)
Definition rate (b : baud) : N :=
  match b with
  | UartModel.B50 => 50 | UartModel.B75 => 75 | UartModel.B110 => 110 | UartModel.B134 => 134 | UartModel.B150 => 150 | UartModel.B200 => 200
  | UartModel.B300 => 300 | UartModel.B600 => 600 | UartModel.B1200 => 1200 | UartModel.B1800 => 1800 | UartModel.B2400 => 2400 | UartModel.B4800 => 4800
  | UartModel.B9600 => 9600 | UartModel.B19200 => 19200 | UartModel.B38400 => 38400 | UartModel.B57600 => 57600 | UartModel.B115200 => 115200
  | UartModel.B230400 => 230400 | UartModel.B460800 => 460800 | UartModel.B500000 => 500000 | UartModel.B576000 => 576000 | UartModel.B921600 => 921600
  | UartModel.B1000000 => 1000000 | UartModel.B1152000 => 1152000 | UartModel.B1500000 => 1500000 | UartModel.B2000000 => 2000000
  | UartModel.B2500000 => 2500000 | UartModel.B3000000 => 3000000 | UartModel.B3500000 => 3500000 | UartModel.B4000000 => 4000000
  end.
(** The rates the Windows port offers. *)
Definition offered (b : baud) : Prop := In (rate b) [110; 300; 600; 1200; 2400; 4800; 9600; 19200; 38400; 57600; 115200].
Definition bits (n : data_bits) : N := match n with D5 => 5 | D6 => 6 | D7 => 7 | D8 => 8 end.

(** What a DCB makes of the line (documentation of the DCB structure). *)
Definition line_parity (d : dcb) (p : parity) : Prop := Parity d = match p with PNone => 0 | POdd => 1 | PEven => 2 | PMark => 3 | PSpace => 4 end.
Definition line_stop (d : dcb) (n : stop_bits) : Prop := StopBits d = match n with OneStop => 0 | TwoStop => 2 end.
Definition line_bits (d : dcb) (n : data_bits) : Prop := ByteSize d = bits n.
Definition line_rate (d : dcb) (b : baud) : Prop := BaudRate d = rate b.
Definition line_flow (d : dcb) (f : flow) : Prop :=
  match f with
  | FNone => fOutxCtsFlow d = false /\ fRtsControl d <> RTS_CONTROL_HANDSHAKE /\ fInX d = false /\ fOutX d = false
  | FRtsCts => fOutxCtsFlow d = true /\ fRtsControl d = RTS_CONTROL_HANDSHAKE /\ fInX d = false /\ fOutX d = false
  | FXonXoff => fOutxCtsFlow d = false /\ fRtsControl d <> RTS_CONTROL_HANDSHAKE /\ fInX d = true /\ fOutX d = true
  end.
(** The line is as the call asks (a set) or as the answer says (a get). *)
Definition effect (c : call) (a : answer) (d : dcb) : Prop :=
  match c, a with
  | SetParity p, ANone => line_parity d p
  | SetStopBits n, ANone => line_stop d n
  | SetDataBits n, ANone => line_bits d n
  | SetFlow f, ANone => line_flow d f
  | SetBaud b, ANone => line_rate d b
  | GetParity, AParity p => line_parity d p
  | GetStopBits, AStopBits n => line_stop d n
  | GetDataBits, ADataBits n => line_bits d n
  | GetFlow, AFlow f => line_flow d f
  | GetBaud, ABaud b => line_rate d b
  | _, _ => False
  end.
(** Which of the five settings a call may change; the modem lines and the rest never. *)
Definition same_but (c : call) (d d' : dcb) : Prop :=
  (match c with SetParity _ => True | _ => Parity d' = Parity d end) /\
  (match c with SetStopBits _ => True | _ => StopBits d' = StopBits d end) /\
  (match c with SetDataBits _ => True | _ => ByteSize d' = ByteSize d end) /\
  (match c with SetBaud _ => True | _ => BaudRate d' = BaudRate d end) /\
  (match c with SetFlow _ => True | _ => fInX d' = fInX d /\ fOutX d' = fOutX d /\ fTXContinueOnXoff d' = fTXContinueOnXoff d /\ fOutxCtsFlow d' = fOutxCtsFlow d /\ fRtsControl d' = fRtsControl d end) /\
  fDtrControl d' = fDtrControl d /\ fOutxDsrFlow d' = fOutxDsrFlow d /\ fDsrSensitivity d' = fDsrSensitivity d /\ rest d' = rest d.

(** What a history of successful sets says about each setting: the last one set, or what init left (115200 baud, 8 data bits, no
    parity, one stop bit). *)
Record wanted := mkW { w_parity : parity; w_stop : stop_bits; w_bits : data_bits; w_baud : baud }.
Definition w_init : wanted := mkW PNone OneStop D8 UartModel.B115200.
Fixpoint want (l : list (call * Z)) (w : wanted) : wanted :=
  match l with
  | [] => w
  | (c, res) :: r =>
      want r (if (res =? SUCCESS)%Z then
        match c with
        | SetParity p => mkW p (w_stop w) (w_bits w) (w_baud w)
        | SetStopBits n => mkW (w_parity w) n (w_bits w) (w_baud w)
        | SetDataBits n => mkW (w_parity w) (w_stop w) n (w_baud w)
        | SetBaud b => mkW (w_parity w) (w_stop w) (w_bits w) b
        | _ => w
        end else w)
  end.
Definition line_is (d : dcb) (w : wanted) : Prop := line_parity d (w_parity w) /\ line_stop d (w_stop w) /\ line_bits d (w_bits w) /\ line_rate d (w_baud w).
