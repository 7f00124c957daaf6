(** RFC 6455 section 5.2: reading a frame header, written without reference to
    the code or to the encoder in WsFrameSpec. *)
From Verif Require Import Base EndianSpec.
Open Scope N_scope.

Record header := Header { h_fin : bool; h_rsv : N; h_op : N; h_masked : bool; h_len : N; h_key : list N }.

(** The header at the front of [l], and how many bytes it takes. *)
Definition parse_header (l : list N) : option (header * nat) :=
  match l with
  | b0 :: b1 :: r =>
      let ext := if b1 mod 128 =? 126 then 2%nat else if b1 mod 128 =? 127 then 8%nat else 0%nat in
      let kl := if 128 <=? b1 then 4%nat else 0%nat in
      if Nat.ltb (length r) (ext + kl) then None
      else Some (Header (128 <=? b0) ((b0 / 16) mod 8) (b0 mod 16) (128 <=? b1)
                        (if b1 mod 128 <=? 125 then b1 mod 128 else be_value (firstn ext r))
                        (firstn kl (skipn ext r)),
                 (2 + ext + kl)%nat)
  | _ => None
  end.
