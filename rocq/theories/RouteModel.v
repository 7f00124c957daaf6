(** Model of the request routing of the HTTP server, lib/src/http_server.c
    (location_match, find_location, cio_http_server_register_location) and
    lib/src/http_location.c.

    A location is its path (the bytes in front of the terminating NUL of the C
    string, so [strlen] is the length of the list: simplification, the NUL
    itself is not represented) and an identity, which stands for the
    [alloc_handler]/[config] pair the application stored in it. *)
From Verif Require Import Base.

Record location : Type := Location { path : list N; ident : nat }.

Definition SLASH : N := 47%N.

(** A read of one byte of a buffer: outside the buffer is undefined behaviour. *)
Definition byte_at (l : list N) (i : nat) : outcome N :=
  match nth_error l i with Some c => Ret c | None => UB end.

(** [memcmp(a, b, n) == 0]: reads n bytes of both buffers, reading beyond one
    of them is undefined behaviour. *)
Fixpoint memcmp_eq (a b : list N) (n : nat) {struct n} : outcome bool :=
  match n with
  | O => Ret true
  | S n' => match a, b with
            | x :: a', y :: b' => obind (memcmp_eq a' b' n') (fun r => Ret ((x =? y)%N && r))
            | _, _ => UB
            end
  end.

(** http_server.c:291-316, [location_match]. *)
Definition location_match (loc : list N) (loc_len : nat) (target : list N) (target_len : nat) : outcome bool :=
  if Nat.eqb loc_len 0 then Ret false
  else if Nat.ltb target_len loc_len then Ret false
  else obind (memcmp_eq target loc loc_len) (fun same =>
       if same then
         if Nat.eqb loc_len target_len then Ret true
         else obind (byte_at loc (loc_len - 1)) (fun c =>
              if (c =? SLASH)%N then Ret true
              else obind (byte_at target loc_len) (fun d =>
                   if (d =? SLASH)%N then Ret true else Ret false))
       else Ret false).

(** The part of [struct cio_http_server] routing uses: the linked list of
    locations from [first_location] on, and [num_handlers]. *)
Record server : Type := Server { locations : list location; num_handlers : nat }.

(** http_server.c:749-750, in [cio_http_server_init]. *)
Definition server_init : server := Server [] 0.

(** http_server.c:801-811, [cio_http_server_register_location]: the new location
    becomes the first one. *)
Definition register_location (s : server) (l : location) : server :=
  Server (l :: locations s) (S (num_handlers s)).

(** http_server.c:318-335, [find_location]: the loop over num_handlers list
    elements; running past the end of the list is undefined behaviour. *)
Fixpoint find_loop (n : nat) (l : list location) (target : list N)
    (best : option location) (best_len : nat) : outcome (option location) :=
  match n with
  | O => Ret best
  | S n' =>
      match l with
      | [] => UB
      | x :: rest =>
          let len := length (path x) in
          obind (location_match (path x) len target (length target)) (fun m =>
          if m && Nat.ltb best_len len
          then find_loop n' rest target (Some x) len
          else find_loop n' rest target best best_len)
      end
  end.

Definition find_location (s : server) (target : list N) : outcome (option location) :=
  find_loop (num_handlers s) (locations s) target None 0.

(** A server on which the application registered the given locations, in this order. *)
Definition registered (ls : list location) : server := fold_left register_location ls server_init.
