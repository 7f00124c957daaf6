(** Independent specification of UTF-8 (RFC 3629 section 3). *)
From Verif Require Import Base.
Local Open Scope N_scope.

(** A Unicode scalar value: any code point up to U+10FFFF except surrogates. *)
Definition scalar (cp : N) : Prop := cp < 0xD800 \/ (0xE000 <= cp /\ cp <= 0x10FFFF).

(** RFC 3629 section 3: the encoding of one scalar value. *)
Definition utf8_encode (cp : N) : list N :=
  if cp <? 0x80 then [cp]
  else if cp <? 0x800 then [0xC0 + cp / 64; 0x80 + cp mod 64]
  else if cp <? 0x10000 then
    [0xE0 + cp / 4096; 0x80 + (cp / 64) mod 64; 0x80 + cp mod 64]
  else
    [0xF0 + cp / 262144; 0x80 + (cp / 4096) mod 64; 0x80 + (cp / 64) mod 64; 0x80 + cp mod 64].

(** A byte string is well-formed UTF-8 if it is the encoding of some text. *)
Definition utf8_well_formed (s : list N) : Prop :=
  exists text : list N, Forall scalar text /\ s = flat_map utf8_encode text.

(** It is a prefix of well-formed UTF-8 if something can complete it. *)
Definition utf8_prefix (s : list N) : Prop :=
  exists rest : list N, utf8_well_formed (s ++ rest).
