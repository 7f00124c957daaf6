(** Model of lib/include/cio/write_buffer.h: intrusive circular doubly linked
    chains of write buffers, on an explicit heap of [struct cio_write_buffer]. *)
From Verif Require Import Base.
Open Scope N_scope.

(** Addresses.  0 is NULL. *)
Definition ptr := N.

(** write_buffer.h 59-79.  [data] is a union: an element's data pointer shares
    its storage with a head's [q_len], an element's [length] shares its storage
    with a head's [total_length] (LP64: both members are two 8 byte words), so
    the union is modelled by two words.  Data pointers are addresses in a byte
    memory that this header never touches. *)
Record cell := Cell { nx : ptr; pv : ptr; w0 : N; w1 : N }.

(** [None]: no [struct cio_write_buffer] lives at that address; access is UB. *)
Definition heap := ptr -> option cell.

Definition upd (h : heap) (p : ptr) (c : cell) : heap :=
  fun q => if q =? p then Some c else h q.

(** size_t arithmetic wraps at 2^64. *)
Definition wrap (n : N) : N := n mod 2 ^ 64.
Definition wadd (a b : N) : N := wrap (a + b).
Definition wsub (a b : N) : N := wrap (a + 2 ^ 64 - b).

Definition rd (h : heap) (p : ptr) : outcome cell :=
  match h p with Some c => Ret c | None => UB end.

Notation "'let*' x ':=' e 'in' k" := (obind e (fun x => k))
  (at level 200, x pattern, e at level 100, k at level 200).

(** Field stores [p->f = v]. *)
Definition set_nx (h : heap) (p v : ptr) : outcome heap :=
  let* c := rd h p in Ret (upd h p (Cell v (pv c) (w0 c) (w1 c))).
Definition set_pv (h : heap) (p v : ptr) : outcome heap :=
  let* c := rd h p in Ret (upd h p (Cell (nx c) v (w0 c) (w1 c))).
Definition set_w0 (h : heap) (p : ptr) (v : N) : outcome heap :=
  let* c := rd h p in Ret (upd h p (Cell (nx c) (pv c) v (w1 c))).
Definition set_w1 (h : heap) (p : ptr) (v : N) : outcome heap :=
  let* c := rd h p in Ret (upd h p (Cell (nx c) (pv c) (w0 c) v)).

(** cio_write_buffer_insert, write_buffer.h 88-98. *)
Definition wb_insert (h : heap) (wbh new_wb prev_wb next_wb : ptr) : outcome heap :=
  let* h := set_nx h new_wb next_wb in
  let* h := set_pv h new_wb prev_wb in
  let* h := set_nx h prev_wb new_wb in
  let* h := set_pv h next_wb new_wb in
  let* c := rd h wbh in
  let* h := set_w0 h wbh (wadd (w0 c) 1) in
  let* n := rd h new_wb in
  let* c := rd h wbh in
  set_w1 h wbh (wadd (w1 c) (w1 n)).

(** cio_write_buffer_queue_before, 105-110. *)
Definition wb_queue_before (h : heap) (wbh next_wb new_wb : ptr) : outcome heap :=
  let* c := rd h next_wb in wb_insert h wbh new_wb (pv c) next_wb.

(** cio_write_buffer_queue_after, 118-123. *)
Definition wb_queue_after (h : heap) (wbh prev_wb new_wb : ptr) : outcome heap :=
  let* c := rd h prev_wb in wb_insert h wbh new_wb prev_wb (nx c).

(** cio_write_buffer_queue_head, 130-134. *)
Definition wb_queue_head (h : heap) (wbh new_wb : ptr) : outcome heap :=
  wb_queue_after h wbh wbh new_wb.

(** cio_write_buffer_queue_tail, 141-145. *)
Definition wb_queue_tail (h : heap) (wbh new_wb : ptr) : outcome heap :=
  wb_queue_before h wbh wbh new_wb.

(** cio_write_buffer_queue_empty, 152-155. *)
Definition wb_empty (h : heap) (wbh : ptr) : outcome bool :=
  let* c := rd h wbh in Ret (nx c =? wbh).

(** cio_write_buffer_is_last_element, 163-166. *)
Definition wb_is_last_element (h : heap) (wbh wbe : ptr) : outcome bool :=
  let* c := rd h wbe in Ret (pv c =? wbh).

(** cio_write_buffer_queue_peek, 173-182. *)
Definition wb_peek (h : heap) (wbh : ptr) : outcome ptr :=
  let* c := rd h wbh in Ret (if nx c =? wbh then 0 else nx c).

(** cio_write_buffer_queue_last, 189-198. *)
Definition wb_last (h : heap) (wbh : ptr) : outcome ptr :=
  let* c := rd h wbh in Ret (if pv c =? wbh then 0 else pv c).

(** cio_write_buffer_unlink, 205-216. *)
Definition wb_unlink (h : heap) (wbh wbe : ptr) : outcome heap :=
  let* c := rd h wbh in
  let* h := set_w0 h wbh (wsub (w0 c) 1) in
  let* c := rd h wbh in
  let* e := rd h wbe in
  let* h := set_w1 h wbh (wsub (w1 c) (w1 e)) in
  let* e := rd h wbe in
  let next := nx e in
  let prev := pv e in
  let* h := set_pv h next prev in
  set_nx h prev next.

(** cio_write_buffer_queue_dequeue, 223-231. *)
Definition wb_dequeue (h : heap) (wbh : ptr) : outcome (heap * ptr) :=
  let* wbe := wb_peek h wbh in
  if wbe =? 0 then Ret (h, 0)
  else let* h := wb_unlink h wbh wbe in Ret (h, wbe).

(** cio_write_buffer_head_init, 237-243. *)
Definition wb_head_init (h : heap) (wbh : ptr) : outcome heap :=
  let* h := set_pv h wbh wbh in
  let* h := set_nx h wbh wbh in
  let* h := set_w0 h wbh 0 in
  set_w1 h wbh 0.

(** cio_write_buffer_element_init / _const_element_init, 251-267. *)
Definition wb_element_init (h : heap) (wbe : ptr) (data len : N) : outcome heap :=
  let* h := set_w0 h wbe data in
  set_w1 h wbe len.

(** cio_write_buffer_splice, 274-291. *)
Definition wb_splice (h : heap) (lst head : ptr) : outcome heap :=
  let* e := wb_empty h lst in
  if e then Ret h
  else
    let* l := rd h lst in
    let new_last := pv l in
    let new_first := nx l in
    let* hc := rd h head in
    let last := pv hc in
    let* h := set_nx h last new_first in
    let* h := set_pv h new_first last in
    let* h := set_nx h new_last head in
    let* h := set_pv h head new_last in
    let* l := rd h lst in
    let* hc := rd h head in
    let* h := set_w0 h head (wadd (w0 hc) (w0 l)) in
    let* l := rd h lst in
    let* hc := rd h head in
    let* h := set_w1 h head (wadd (w1 hc) (w1 l)) in
    wb_head_init h lst.

(** cio_write_buffer_get_total_size, 298-301. *)
Definition wb_total_size (h : heap) (head : ptr) : outcome N :=
  let* c := rd h head in Ret (w1 c).

(** cio_write_buffer_get_num_buffer_elements, 308-311. *)
Definition wb_num_elements (h : heap) (head : ptr) : outcome N :=
  let* c := rd h head in Ret (w0 c).

(** The counting loop of cio_write_buffer_split_and_append, 323-330.  [fuel]
    bounds the iterations; running out of it counts as undefined behaviour
    (the loop would not end on a chain that long). *)
Fixpoint wb_tail_count (fuel : nat) (h : heap) (from_head element : ptr)
    (tail_length tail_qlen : N) : outcome (N * N) :=
  match fuel with
  | O => UB
  | S fuel' =>
    if element =? from_head then Ret (tail_length, tail_qlen)
    else
      let* c := rd h element in
      wb_tail_count fuel' h from_head (nx c)
        (wadd tail_length (w1 c)) (wadd tail_qlen 1)
  end.

(** cio_write_buffer_split_and_append, 313-347. *)
Definition wb_split_and_append (fuel : nat) (h : heap)
    (to_head from_head wbe : ptr) : outcome heap :=
  let* e := wb_empty h from_head in
  if e then Ret h
  else
    let* f := rd h from_head in
    let wbe := if from_head =? wbe then nx f else wbe in
    let* t := rd h to_head in
    let to_last := pv t in
    let from_last := pv f in
    let* (tail_length, tail_qlen) := wb_tail_count fuel h from_head wbe 0 0 in
    let* w := rd h wbe in
    let wbe_prev := pv w in
    let* h := set_nx h wbe_prev from_head in
    let* h := set_pv h from_head wbe_prev in
    let* f := rd h from_head in
    let* h := set_w0 h from_head (wsub (w0 f) tail_qlen) in
    let* f := rd h from_head in
    let* h := set_w1 h from_head (wsub (w1 f) tail_length) in
    let* h := set_nx h from_last to_head in
    let* h := set_pv h to_head from_last in
    let* h := set_nx h to_last wbe in
    let* h := set_pv h wbe to_last in
    let* t := rd h to_head in
    let* h := set_w0 h to_head (wadd (w0 t) tail_qlen) in
    let* t := rd h to_head in
    set_w1 h to_head (wadd (w1 t) tail_length).

(** The operations of the header as one interface.  Results: 0 for none. *)
Inductive wb_op :=
| OpHeadInit (wbh : ptr)
| OpElemInit (wbe : ptr) (data len : N)
| OpQueueHead (wbh new : ptr)
| OpQueueTail (wbh new : ptr)
| OpQueueBefore (wbh next new : ptr)
| OpQueueAfter (wbh prev new : ptr)
| OpUnlink (wbh wbe : ptr)
| OpDequeue (wbh : ptr)
| OpPeek (wbh : ptr)
| OpLast (wbh : ptr)
| OpEmpty (wbh : ptr)
| OpNumElements (wbh : ptr)
| OpTotalSize (wbh : ptr)
| OpSplice (lst head : ptr)
| OpSplit (to_head from_head wbe : ptr).

Definition noval (x : outcome heap) : outcome (heap * N) :=
  let* h := x in Ret (h, 0).

Definition val (h : heap) (x : outcome N) : outcome (heap * N) :=
  let* v := x in Ret (h, v).

(** Dispatch; not code of the library.  A boolean is reported as 0 or 1. *)
Definition wb_step (fuel : nat) (h : heap) (o : wb_op) : outcome (heap * N) :=
  match o with
  | OpHeadInit p => noval (wb_head_init h p)
  | OpElemInit p d l => noval (wb_element_init h p d l)
  | OpQueueHead w n => noval (wb_queue_head h w n)
  | OpQueueTail w n => noval (wb_queue_tail h w n)
  | OpQueueBefore w q n => noval (wb_queue_before h w q n)
  | OpQueueAfter w q n => noval (wb_queue_after h w q n)
  | OpUnlink w e => noval (wb_unlink h w e)
  | OpDequeue w => wb_dequeue h w
  | OpPeek w => val h (wb_peek h w)
  | OpLast w => val h (wb_last h w)
  | OpEmpty w => val h (let* b := wb_empty h w in Ret (if b then 1 else 0))
  | OpNumElements w => val h (wb_num_elements h w)
  | OpTotalSize w => val h (wb_total_size h w)
  | OpSplice l w => noval (wb_splice h l w)
  | OpSplit t f e => noval (wb_split_and_append fuel h t f e)
  end.

(** A program: a list of operations; the results are collected. *)
Fixpoint wb_run (fuel : nat) (h : heap) (os : list wb_op) : outcome (heap * list N) :=
  match os with
  | [] => Ret (h, [])
  | o :: os' =>
    let* (h, v) := wb_step fuel h o in
    let* (h, vs) := wb_run fuel h os' in
    Ret (h, v :: vs)
  end.
