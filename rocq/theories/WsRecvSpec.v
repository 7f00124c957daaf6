(** RFC 6455 section 5.2 and 5.4 as a byte-at-a-time decoder, written without
    reference to the code: it never looks ahead, never buffers more than a
    control frame, and has no notion of chunks, callbacks or read buffers. *)
From Verif Require Import Base EndianSpec.
Open Scope N_scope.

(** What the decoder reports: every payload byte of a data frame together with
    the frame's type (binary?), FIN flag and length; the end of each data frame;
    every control frame with its complete payload. *)
Inductive out :=
| OutByte (bin fin : bool) (len : N) (b : N)
| OutEnd (bin fin : bool) (len : N)
| OutControl (kind : N) (payload : list N).

Inductive kind := KData (bin : bool) | KControl (op : N).

(** [m]: type of the message in progress, if the last data frame had no FIN. *)
Inductive dstate :=
| DHead (m : option bool)
| DLen (m : option bool) (fin : bool) (k : kind)
| DExt (m : option bool) (fin : bool) (k : kind) (todo : nat) (got : list N)
| DKey (m : option bool) (fin : bool) (k : kind) (len : N) (got : list N)
| DPayload (m : option bool) (fin : bool) (k : kind) (len : N) (key : list N) (got : list N)
| DClosed                       (* a close frame was received: nothing follows *)
| DFailed.                      (* protocol violation: nothing is decoded any more *)

(** First byte: FIN, three reserved bits that must be 0, opcode. *)
Definition dec_head (m : option bool) (b : N) : dstate :=
  let fin := 128 <=? b in
  let rsv := (b / 16) mod 8 in
  let op := b mod 16 in
  if negb (rsv =? 0) then DFailed
  else match op with
       | 0 => match m with
              | None => DFailed
              | Some bin => DLen (if fin then None else m) fin (KData bin)
              end
       | 1 | 2 => match m with
                  | Some _ => DFailed
                  | None => DLen (if fin then None else Some (op =? 2)) fin (KData (op =? 2))
                  end
       | 8 | 9 | 10 => if fin then DLen m fin (KControl op) else DFailed
       | _ => DFailed
       end.

(** The frame is complete. *)
Definition dec_end (m : option bool) (fin : bool) (k : kind) (len : N) (payload : list N) : dstate * list out :=
  match k with
  | KData bin => (DHead m, [OutEnd bin fin len])
  | KControl op => (if op =? 8 then DClosed else DHead m, [OutControl op payload])
  end.

(** The payload starts (after the masking key, if there is one). *)
Definition dec_start (m : option bool) (fin : bool) (k : kind) (len : N) (key : list N) : dstate * list out :=
  if len =? 0 then dec_end m fin k len [] else (DPayload m fin k len key [], []).

(** The length is known. *)
Definition dec_len (server : bool) (m : option bool) (fin : bool) (k : kind) (len : N) : dstate * list out :=
  if server then (DKey m fin k len [], []) else dec_start m fin k len [0; 0; 0; 0].

Definition dec (server : bool) (d : dstate) (b : N) : dstate * list out :=
  match d with
  | DHead m => (dec_head m b, [])
  | DLen m fin k =>
      if negb (Bool.eqb (128 <=? b) server) then (DFailed, [])
      else
        let l := b mod 128 in
        if l <=? 125 then dec_len server m fin k l
        else match k with
             | KControl _ => (DFailed, [])
             | KData _ => (DExt m fin k (if l =? 126 then 2%nat else 8%nat) [], [])
             end
  | DExt m fin k todo got =>
      let got := got ++ [b] in
      if Nat.eqb (length got) todo then dec_len server m fin k (be_value got)
      else (DExt m fin k todo got, [])
  | DKey m fin k len got =>
      let got := got ++ [b] in
      if Nat.eqb (length got) 4 then dec_start m fin k len got else (DKey m fin k len got, [])
  | DPayload m fin k len key got =>
      let x := N.lxor b (nth (length got mod 4) key 0) in
      let got := got ++ [x] in
      let '(d, o) := if N.of_nat (length got) =? len then dec_end m fin k len got
                     else (DPayload m fin k len key got, []) in
      (d, match k with KData bin => OutByte bin fin len x :: o | KControl _ => o end)
  | DClosed => (DClosed, [])
  | DFailed => (DFailed, [])
  end.

Fixpoint dec_run (server : bool) (d : dstate) (l : list N) : dstate * list out :=
  match l with
  | [] => (d, [])
  | b :: r => let '(d1, o1) := dec server d b in let '(d2, o2) := dec_run server d1 r in (d2, o1 ++ o2)
  end.

(** State and output after a whole byte stream. *)
Definition decode (server : bool) (l : list N) : dstate * list out := dec_run server (DHead None) l.
