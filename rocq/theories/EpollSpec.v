(** What a user expects of the event loop, in terms of the observable events. *)
From Verif Require Import Base EpollModel.
Local Open Scope N_scope.

(** Is notifier n part of the loop after these events? *)
Definition watch_step (n : nat) (b : bool) (e : eev) : bool :=
  match e with EvAdd m => if Nat.eqb m n then true else b | EvRemove m => if Nat.eqb m n then false else b | _ => b end.
Definition watched (n : nat) (tr : list eev) : bool := fold_left (watch_step n) tr (Nat.eqb n STOP).

(** The events notifier n is registered for.  A call of the write callback ends
    the registration for writing. *)
Definition reg_step (n : nat) (r : N) (e : eev) : N :=
  match e with
  | EvAdd m => if Nat.eqb m n then 0 else r
  | EvReg m f => if Nat.eqb m n then N.lor r f else r
  | EvUnreg m f => if Nat.eqb m n then N.ldiff r f else r
  | EvWrite m _ => if Nat.eqb m n then N.ldiff r EPOLLOUT else r
  | _ => r
  end.
Definition registered (n : nat) (tr : list eev) : N := fold_left (reg_step n) tr (if Nat.eqb n STOP then EPOLLIN else 0).

(** Is the memory of notifier n usable after these events? *)
Definition mem_step (n : nat) (b : bool) (e : eev) : bool :=
  match e with EvAdd m => if Nat.eqb m n then true else b | EvFree m => if Nat.eqb m n then false else b | _ => b end.
Definition usable (n : nat) (tr : list eev) : bool := fold_left (mem_step n) tr (Nat.eqb n STOP).

(** Calls the application may make: where, and with which notifiers. *)
Definition app_code (p : pc) : Prop := match p with POutside | PRead _ _ | PWrite _ => True | _ => False end.

(** The kernel returns each watched descriptor at most once, and no other. *)
Definition kernel_batch (tr : list eev) (l : list (nat * N)) : Prop :=
  NoDup (map fst l) /\ (length l <= CONFIG_MAX_EPOLL_EVENTS)%nat /\ forall n ev, In (n, ev) l -> watched n tr = true.

Definition enabled (s : st) (x : act) : Prop :=
  match x with
  | XRun => where_ s = POutside
  | XWait l => where_ s = PWait /\ kernel_batch (tr s) l
  | XWaitErr => where_ s = PWait
  | XNext => where_ s = PNext
  | XHandle => exists n ev, where_ s = PHandle n ev
  | XReturn => match where_ s with PRead _ _ | PWrite _ => True | _ => False end
  | XAdd n => app_code (where_ s) /\ n <> STOP /\ watched n (tr s) = false
  | XReg n _ | XUnreg n _ => app_code (where_ s) /\ n <> STOP /\ usable n (tr s) = true
  | XRemove n => app_code (where_ s) /\ n <> STOP /\ usable n (tr s) = true
  | XFree n => app_code (where_ s) /\ n <> STOP /\ watched n (tr s) = false
  end.

Inductive reach : st -> Prop :=
| reach_init : reach epoll_init
| reach_step s x s' : reach s -> enabled s x -> step s x = Ret s' -> reach s'.

(** Events the application produces inside a callback. *)
Definition app_event (e : eev) : Prop :=
  match e with EvAdd _ | EvReg _ _ | EvUnreg _ _ | EvRemove _ | EvFree _ => True | _ => False end.

Definition has (ev flag : N) : Prop := N.land ev flag <> 0.
(** "n is ready for [flag] and registered for it after history h". *)
Definition ready (h : list eev) (n : nat) (ev flag : N) : Prop := N.land (N.land ev flag) (registered n h) <> 0.
Definition error_flag (ev : N) : bool := (negb (N.eqb (N.land ev EPOLLERR) 0) || negb (N.eqb (N.land ev EPOLLHUP) 0))%bool.

(** The read part of the turn of event (n, ev) after history h. *)
Inductive read_part (h : list eev) (n : nat) (ev : N) : list eev -> Prop :=
| rp_call ops : ready h n ev EPOLLIN -> Forall app_event ops -> read_part h n ev (EvRead n :: ops ++ [EvReturn])
| rp_none : ~ ready h n ev EPOLLIN -> read_part h n ev [].
(** The write part; [rd] is what happened in the read part. *)
Inductive write_part (h rd : list eev) (n : nat) (ev : N) : list eev -> Prop :=
| wp_call ops : ~ In (EvRemove n) rd -> ready (h ++ rd) n ev EPOLLOUT -> Forall app_event ops ->
    write_part h rd n ev (EvWrite n (error_flag ev) :: ops ++ [EvReturn])
| wp_none : In (EvRemove n) rd \/ ~ ready (h ++ rd) n ev EPOLLOUT -> write_part h rd n ev [].

(** [progress h l b rest]: after history h a batch l was returned; b is what
    happened since, and all events of l but [rest] have been dealt with: an
    event whose notifier was removed is skipped, any other gets its turn. *)
Inductive progress (h : list eev) (l : list (nat * N)) : list eev -> list (nat * N) -> Prop :=
| pr_start : progress h l [] l
| pr_skip b n ev rest : progress h l b ((n, ev) :: rest) -> In (EvRemove n) b -> progress h l b rest
| pr_turn b n ev rest rd wr : progress h l b ((n, ev) :: rest) -> ~ In (EvRemove n) b -> n <> STOP ->
    read_part (h ++ b) n ev rd -> write_part (h ++ b) rd n ev wr -> progress h l (b ++ rd ++ wr) rest.
Definition no_batch (b : list eev) : Prop := forall l, ~ In (EvBatch l) b.
