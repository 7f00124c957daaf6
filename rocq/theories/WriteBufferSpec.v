(** Specification of write buffer chains: finite sequences.  Independent of the
    heap model except for the type of addresses and the operation names. *)
From Verif Require Import Base WriteBufferModel.
Open Scope N_scope.

(** The abstract world: which addresses are chains (with their sequence of
    elements) and which are elements (with their data pointer and length). *)
Record world := World {
  chains : ptr -> option (list ptr);
  elems : ptr -> option (N * N)
}.

Definition empty_world : world := World (fun _ => None) (fun _ => None).

Definition set {A} (f : ptr -> option A) (p : ptr) (v : option A) : ptr -> option A :=
  fun q => if q =? p then v else f q.

(** Byte count of a sequence of elements. *)
Fixpoint total (e : ptr -> option (N * N)) (l : list ptr) : N :=
  match l with
  | [] => 0
  | p :: l' => match e p with Some (_, n) => n | None => 0 end + total e l'
  end.

Fixpoint insert_before (q n : ptr) (l : list ptr) : list ptr :=
  match l with
  | [] => [n]
  | x :: l' => if x =? q then n :: x :: l' else x :: insert_before q n l'
  end.

Fixpoint insert_after (q n : ptr) (l : list ptr) : list ptr :=
  match l with
  | [] => [n]
  | x :: l' => if x =? q then x :: n :: l' else x :: insert_after q n l'
  end.

Fixpoint remove_elem (q : ptr) (l : list ptr) : list ptr :=
  match l with
  | [] => []
  | x :: l' => if x =? q then l' else x :: remove_elem q l'
  end.

(** Elements before [q] / from [q] on. *)
Fixpoint before (q : ptr) (l : list ptr) : list ptr :=
  match l with
  | [] => []
  | x :: l' => if x =? q then [] else x :: before q l'
  end.
Fixpoint from (q : ptr) (l : list ptr) : list ptr :=
  match l with
  | [] => []
  | x :: l' => if x =? q then x :: l' else from q l'
  end.

(** Neither a chain nor in one. *)
Definition is_free (w : world) (p : ptr) : Prop :=
  chains w p = None /\ forall c l, chains w c = Some l -> ~ In p l.

(** What a caller must respect: [new] elements are initialised and in no chain,
    elements named as positions belong to the chain (naming the head itself
    means "one past the end" / "one before the start").  [alloc p]: a
    [struct cio_write_buffer] is stored at [p]. *)
Definition legal (alloc : ptr -> Prop) (w : world) (o : wb_op) : Prop :=
  match o with
  | OpHeadInit p => alloc p /\ forall c l, chains w c = Some l -> ~ In p l
  | OpElemInit p d n => alloc p /\ is_free w p /\ d < 2^64 /\ n < 2^64
  | OpQueueHead c n | OpQueueTail c n =>
      chains w c <> None /\ is_free w n /\ elems w n <> None
  | OpQueueBefore c q n | OpQueueAfter c q n =>
      (exists l, chains w c = Some l /\ (q = c \/ In q l)) /\ is_free w n /\ elems w n <> None
  | OpUnlink c e => exists l, chains w c = Some l /\ In e l
  | OpDequeue c | OpPeek c | OpLast c | OpEmpty c | OpNumElements c | OpTotalSize c =>
      chains w c <> None
  | OpSplice a b => chains w a <> None /\ chains w b <> None /\ a <> b
  | OpSplit t f e =>
      chains w t <> None /\ t <> f /\
      exists l, chains w f = Some l /\ (e = f \/ In e l)
  end.

Definition seq_of (w : world) (c : ptr) : list ptr :=
  match chains w c with Some l => l | None => [] end.

Definition with_chain (w : world) (c : ptr) (l : list ptr) : world :=
  World (set (chains w) c (Some l)) (elems w).

(** The effect and result of each operation on sequences. *)
Definition spec_step (w : world) (o : wb_op) : world * N :=
  match o with
  | OpHeadInit p => (World (set (chains w) p (Some [])) (set (elems w) p None), 0)
  | OpElemInit p d n => (World (chains w) (set (elems w) p (Some (d, n))), 0)
  | OpQueueHead c n => (with_chain w c (n :: seq_of w c), 0)
  | OpQueueTail c n => (with_chain w c (seq_of w c ++ [n]), 0)
  | OpQueueBefore c q n =>
      (with_chain w c (if q =? c then seq_of w c ++ [n] else insert_before q n (seq_of w c)), 0)
  | OpQueueAfter c q n =>
      (with_chain w c (if q =? c then n :: seq_of w c else insert_after q n (seq_of w c)), 0)
  | OpUnlink c e => (with_chain w c (remove_elem e (seq_of w c)), 0)
  | OpDequeue c =>
      match seq_of w c with
      | [] => (w, 0)
      | e :: l => (with_chain w c l, e)
      end
  | OpPeek c => (w, hd 0 (seq_of w c))
  | OpLast c => (w, last (seq_of w c) 0)
  | OpEmpty c => (w, match seq_of w c with [] => 1 | _ => 0 end)
  | OpNumElements c => (w, N.of_nat (length (seq_of w c)) mod 2^64)
  | OpTotalSize c => (w, total (elems w) (seq_of w c) mod 2^64)
  | OpSplice a b =>
      (with_chain (with_chain w b (seq_of w b ++ seq_of w a)) a [], 0)
  | OpSplit t f e =>
      let l := seq_of w f in
      let keep := if e =? f then [] else before e l in
      let move := if e =? f then l else from e l in
      (with_chain (with_chain w t (seq_of w t ++ move)) f keep, 0)
  end.

Fixpoint spec_run (w : world) (os : list wb_op) : world * list N :=
  match os with
  | [] => (w, [])
  | o :: os' =>
    let (w1, v) := spec_step w o in
    let (w2, vs) := spec_run w1 os' in (w2, v :: vs)
  end.

Fixpoint legal_run (alloc : ptr -> Prop) (w : world) (os : list wb_op) : Prop :=
  match os with
  | [] => True
  | o :: os' => legal alloc w o /\ legal_run alloc (fst (spec_step w o)) os'
  end.

(** [b] follows [a]: [a->next == b] and [b->prev == a]. *)
Definition link (h : heap) (a b : ptr) : Prop :=
  (exists c, h a = Some c /\ nx c = b) /\ (exists c, h b = Some c /\ pv c = a).

(** Following [next] from [a] visits exactly [l], with inverse [prev] links. *)
Fixpoint path (h : heap) (a : ptr) (l : list ptr) : Prop :=
  match l with
  | [] => True
  | x :: l' => link h a x /\ path h x l'
  end.

(** Well-formed circular doubly linked list: from the head through the
    elements [l], each once, back to the head. *)
Definition circular (h : heap) (head : ptr) (l : list ptr) : Prop :=
  path h head (l ++ [head]) /\ NoDup (head :: l).

(** Data pointer and length of the elements as stored in the heap. *)
Definition stored_elem (h : heap) (p : ptr) : option (N * N) :=
  match h p with Some c => Some (w0 c, w1 c) | None => None end.

(** At address [head] there is a well-formed chain with the elements [l], and
    its counters are those of [l]. *)
Definition chain_at (h : heap) (head : ptr) (l : list ptr) : Prop :=
  circular h head l /\
  stored_elem h head = Some (N.of_nat (length l) mod 2^64, total (stored_elem h) l mod 2^64) /\
  Forall (fun p => exists d n, stored_elem h p = Some (d, n) /\ n < 2^64) l.
