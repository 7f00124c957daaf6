(** Model of the base64 encoder, lib/src/base64.c. *)
From Verif Require Import Base.
Local Open Scope N_scope.

(** base64.c:36, [ENCODE_TABLE]: the ASCII codes of
    "ABCDEFGHIJKLMNOPQRSTUVWXYZabcdefghijklmnopqrstuvwxyz0123456789+/"
    and the terminating NUL of the C string. *)
Definition ENCODE_TABLE : list N :=
  [65; 66; 67; 68; 69; 70; 71; 72; 73; 74; 75; 76; 77; 78; 79; 80; 81; 82; 83; 84; 85; 86; 87; 88; 89; 90;
   97; 98; 99; 100; 101; 102; 103; 104; 105; 106; 107; 108; 109; 110; 111; 112; 113; 114; 115; 116; 117;
   118; 119; 120; 121; 122;
   48; 49; 50; 51; 52; 53; 54; 55; 56; 57; 43; 47; 0].

(** Table access; out of bounds is undefined behaviour. *)
Definition enc (i : N) : outcome N :=
  match nth_error ENCODE_TABLE (N.to_nat i) with Some c => Ret c | None => UB end.

(** base64.c:53-65: the four characters written for one group, given the
    three (zero filled) input bytes and the number of bytes really read. *)
Definition encode_group (t0 t1 t2 len : N) : outcome (list N) :=
  obind (enc (N.shiftr t0 2)) (fun c0 =>
  obind (enc (N.lor (N.shiftl (N.land t0 0x03) 4) (N.shiftr (N.land t1 0xf0) 4))) (fun c1 =>
  obind (if 1 <? len
         then enc (N.lor (N.shiftl (N.land t1 0x0f) 2) (N.shiftr (N.land t2 0xc0) 6))
         else Ret 61) (fun c2 =>
  obind (if 2 <? len then enc (N.land t2 0x3f) else Ret 61) (fun c3 =>
  Ret [c0; c1; c2; c3])))).

(** base64.c:38-68, [cio_b64_encode_buffer]: the outer loop reads up to three
    bytes (missing ones become 0, lines 43-51) and appends four characters. *)
Fixpoint b64_encode (input : list N) : outcome (list N) :=
  match input with
  | [] => Ret []
  | [a] => encode_group a 0 0 1
  | [a; b] => encode_group a b 0 2
  | a :: b :: c :: rest =>
      obind (encode_group a b c 3) (fun g =>
      obind (b64_encode rest) (fun out => Ret (g ++ out)))
  end.
