(** Independent specification: the RFC 4648 section 4 decoder (strict: padding
    only in the last group, unused trailing bits must be zero). *)
From Verif Require Import Base.
Local Open Scope N_scope.

(** RFC 4648 table 1, as value of a character. *)
Definition b64_value (c : N) : option N :=
  if (65 <=? c) && (c <=? 90) then Some (c - 65)            (* A-Z: 0-25 *)
  else if (97 <=? c) && (c <=? 122) then Some (c - 97 + 26) (* a-z: 26-51 *)
  else if (48 <=? c) && (c <=? 57) then Some (c - 48 + 52)  (* 0-9: 52-61 *)
  else if c =? 43 then Some 62                              (* + *)
  else if c =? 47 then Some 63                              (* / *)
  else None.

Definition PAD : N := 61.                                   (* = *)

Fixpoint b64_decode (s : list N) : option (list N) :=
  match s with
  | [] => Some []
  | c0 :: c1 :: c2 :: c3 :: rest =>
      match b64_value c0, b64_value c1 with
      | Some v0, Some v1 =>
          match b64_value c2, b64_value c3 with
          | Some v2, Some v3 =>
              let n := v0 * 262144 + v1 * 4096 + v2 * 64 + v3 in
              match b64_decode rest with
              | Some out => Some (n / 65536 :: (n / 256) mod 256 :: n mod 256 :: out)
              | None => None
              end
          | Some v2, None =>
              let n := v0 * 4096 + v1 * 64 + v2 in
              if (c3 =? PAD) && (n mod 4 =? 0) then
                match rest with [] => Some [n / 1024; (n / 4) mod 256] | _ => None end
              else None
          | None, _ =>
              let n := v0 * 64 + v1 in
              if (c2 =? PAD) && (c3 =? PAD) && (n mod 16 =? 0) then
                match rest with [] => Some [n / 16] | _ => None end
              else None
          end
      | _, _ => None
      end
  | _ => None
  end.
