(** String literals of the C source as lists of bytes. *)
From Verif Require Import Base.
From Coq Require Export String Ascii List.
Export ListNotations.

Fixpoint text (s : string) : list N :=
  match s with
  | EmptyString => []
  | String c r => N_of_ascii c :: text r
  end.

(** "\r\n" *)
Definition CRLF : list N := [13; 10]%N.
