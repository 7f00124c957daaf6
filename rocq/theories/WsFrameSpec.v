(** RFC 6455 section 5.2: how a frame is written, and which sequences of frames
    are valid.  Written without reference to the code or to the decoder. *)
From Verif Require Import Base EndianSpec MaskSpec WsRecvSpec.
Open Scope N_scope.

Record frame := Frame { f_fin : bool; f_op : N; f_key : list N; f_payload : list N }.
Definition f_len (f : frame) : N := N.of_nat (length (f_payload f)).

(** Shortest encoding of the payload length: 7 bits, or 126 and 16 bits, or 127
    and 64 bits. *)
Definition len7 (n : N) : N := if n <=? 125 then n else if n <=? 65535 then 126 else 127.
Definition len_ext (n : N) : list N := if n <=? 125 then [] else if n <=? 65535 then be_bytes 2 n else be_bytes 8 n.

Definition enc_header (masked fin : bool) (op len : N) (key : list N) : list N :=
  ((if fin then 128 else 0) + op) :: ((if masked then 128 else 0) + len7 len) :: len_ext len ++ (if masked then key else []).

Definition enc_frame (masked : bool) (f : frame) : list N :=
  enc_header masked (f_fin f) (f_op f) (f_len f) (f_key f) ++
  (if masked then rfc_mask (f_key f) (f_payload f) else f_payload f).
Definition enc_frames (masked : bool) (fs : list frame) : list N := concat (map (enc_frame masked) fs).

Definition frame_ok (f : frame) : Prop :=
  length (f_key f) = 4%nat /\ bytes_ok (f_key f) /\ bytes_ok (f_payload f) /\ f_len f < 2 ^ 63.

(** Message state: [None] between messages, [Some bin] inside a fragmented one. *)
Definition after (m : option bool) (f : frame) : option (option bool) :=
  match f_op f with
  | 0 => match m with Some _ => Some (if f_fin f then None else m) | None => None end
  | 1 => match m with None => Some (if f_fin f then None else Some false) | Some _ => None end
  | 2 => match m with None => Some (if f_fin f then None else Some true) | Some _ => None end
  | 8 | 9 | 10 => if (f_fin f && (f_len f <=? 125))%bool then Some m else None
  | _ => None
  end.

(** A valid sequence: every frame fits, and nothing follows a close frame. *)
Fixpoint valid_frames (m : option bool) (fs : list frame) : Prop :=
  match fs with
  | [] => True
  | f :: r => frame_ok f /\ match after m f with
                            | None => False
                            | Some m' => if f_op f =? 8 then r = [] else valid_frames m' r
                            end
  end.

(** What a receiver has to report for it. *)
Definition frame_type (m : option bool) (f : frame) : bool :=
  match m with Some bin => bin | None => f_op f =? 2 end.
Definition frame_outs (m : option bool) (f : frame) : list out :=
  if 8 <=? f_op f then [OutControl (f_op f) (f_payload f)]
  else map (OutByte (frame_type m f) (f_fin f) (f_len f)) (f_payload f) ++ [OutEnd (frame_type m f) (f_fin f) (f_len f)].
Fixpoint frames_outs (m : option bool) (fs : list frame) : list out :=
  match fs with
  | [] => []
  | f :: r => frame_outs m f ++ match after m f with None => [] | Some m' => frames_outs m' r end
  end.

(** What makes the first two bytes of a frame a protocol violation, for a server
    or a client, outside of ([m = None]) or inside a fragmented message. *)
Definition header_violates (server : bool) (m : option bool) (b0 b1 : N) : Prop :=
  let op := b0 mod 16 in
  (b0 / 16) mod 8 <> 0                              (* a reserved bit is set *)
  \/ In op [3; 4; 5; 6; 7; 11; 12; 13; 14; 15]      (* reserved opcode *)
  \/ (8 <= op /\ b0 < 128)                          (* fragmented control frame *)
  \/ (8 <= op /\ 125 < b1 mod 128)                  (* control frame too long *)
  \/ (op = 0 /\ m = None)                           (* continuation of nothing *)
  \/ ((op = 1 \/ op = 2) /\ m <> None)              (* new message inside a message *)
  \/ (128 <= b1 <-> server = false).                (* unmasked to a server, masked to a client *)

(** Message state after a sequence of frames. *)
Fixpoint after_all (m : option bool) (fs : list frame) : option (option bool) :=
  match fs with [] => Some m | f :: r => match after m f with None => None | Some m' => after_all m' r end end.

(** RFC 6455 section 7.4: status codes a peer may send in a close frame, as the
    property lists them. *)
Definition close_code_allowed (c : N) : Prop :=
  (1000 <= c <= 1003) \/ (1007 <= c <= 1011) \/ (3000 <= c <= 4999).
