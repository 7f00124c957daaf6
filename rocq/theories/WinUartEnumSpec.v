(** What a user expects of finding and opening serial ports on Windows. *)
From Verif Require Import Base WinUartEnum.

(** How many of a kind of resource are held after a history (oldest first); None: something was given back that was not held. *)
Definition is (a b : res) : bool := match a, b with Mem, Mem | Key, Key | Info, Info | Port, Port => true | _, _ => false end.
Fixpoint held_from (r : res) (l : list rop) (n : nat) : option nat :=
  match l with
  | [] => Some n
  | Get x :: l => held_from r l (if is r x then S n else n)
  | Put x :: l => if is r x then match n with 0 => None | S m => held_from r l m end else held_from r l n
  end.
Definition held (r : res) (l : list rop) : option nat := held_from r l 0.
(** Everything obtained was given back exactly once. *)
Definition clean (l : list rop) : Prop := forall r, held r l = Some 0.

(** A string of the registry ends at its first NUL, if it has one. *)
Fixpoint before_nul (v : list N) : list N := match v with [] => [] | c :: r => if N.eqb c 0 then [] else c :: before_nul r end.
(** The PortName of a device. *)
Definition port_name (d : device) : option (list N) :=
  if d_key d && d_sz d then match d_value d with Some v => Some (before_nul v) | None => None end else None.
(** COM (67, 79, 77) and a digit (48 to 57), and whatever follows. *)
Definition com (s : list N) : bool := match s with (a :: b :: c :: x :: _) => N.eqb a 67 && N.eqb b 79 && N.eqb c 77 && N.leb 48 x && N.leb x 57 | _ => false end.
Definition is_port (d : device) : bool := match port_name d with Some s => com s | None => false end.
(** What the application sees: the name, and the friendly name in UTF-8, empty if there is none. *)
Definition friendly (d : device) : list N :=
  match f_value d with Some v => match utf8_of (before_nul v) with Some u => u | None => [] end | None => [] end.
Definition shown (d : device) : port := (firstn 259 match port_name d with Some s => s | None => [] end, firstn 259 (friendly d)).
Definition expected (ds : list device) (max : nat) : list port := firstn max (map shown (filter is_port ds)).

(** The devices for which the code finds out the truth: enough memory; the strings are stored with a NUL; the name is ASCII; what
    lies behind their blocks is readable and, with them, valid UTF-16. *)
Definition readable (v behind : list N) : Prop := In 0%N v /\ length v <= length behind /\ utf8_of (v ++ firstn (length v) behind) <> None.
Definition tame (d : device) : Prop :=
  d_m1 d = true /\ d_m2 d = true /\ d_again d = true /\ f_m1 d = true /\ f_m2 d = true /\
  (forall v, d_value d = Some v -> readable v (d_behind d) /\ Forall (fun c => (c < 128)%N) (before_nul v)) /\
  (forall v, f_value d = Some v -> readable v (f_behind d)).
