(** Shared vocabulary: bytes, outcomes with undefined behaviour, small list facts. *)
From Coq Require Export NArith ZArith List Lia Bool Arith.
From Coq Require Export ZifyBool ZifyN ZifyNat.
Export ListNotations.

(** Outcome of a C computation: a value, or undefined behaviour (out-of-bounds
    access, NULL dereference, use of a released object).  UB is never a value. *)
Inductive outcome (A : Type) : Type :=
| Ret (a : A)
| UB.
Arguments Ret {A} _.
Arguments UB {A}.

Definition obind {A B} (x : outcome A) (f : A -> outcome B) : outcome B :=
  match x with Ret a => f a | UB => UB end.

(** A byte is a natural number below 256 ([uint8_t]). *)
Definition byte_ok (b : N) : Prop := (b < 256)%N.
Definition bytes_ok (l : list N) : Prop := Forall byte_ok l.

Lemma bytes_ok_app l k : bytes_ok (l ++ k) <-> bytes_ok l /\ bytes_ok k.
Proof. unfold bytes_ok. apply Forall_app. Qed.

Lemma bytes_ok_firstn n l : bytes_ok l -> bytes_ok (firstn n l).
Proof.
  unfold bytes_ok. intros H. rewrite <- (firstn_skipn n l) in H.
  apply Forall_app in H. tauto.
Qed.

Lemma bytes_ok_skipn n l : bytes_ok l -> bytes_ok (skipn n l).
Proof.
  unfold bytes_ok. intros H. rewrite <- (firstn_skipn n l) in H.
  apply Forall_app in H. tauto.
Qed.

(** Finite sweeps over bytes. *)
Definition all_bytes : list N := map N.of_nat (seq 0 256).

Lemma all_bytes_in b : byte_ok b -> In b all_bytes.
Proof.
  unfold byte_ok, all_bytes. intros H. apply in_map_iff. exists (N.to_nat b).
  split; [apply N2Nat.id|]. apply in_seq. lia.
Qed.

Lemma byte_sweep (f : N -> bool) :
  forallb f all_bytes = true -> forall b, byte_ok b -> f b = true.
Proof. rewrite forallb_forall. intros H b Hb. apply H, all_bytes_in, Hb. Qed.

Lemma firstn_len_app {A} (l k : list A) : firstn (length l) (l ++ k) = l.
Proof. rewrite firstn_app, Nat.sub_diag, firstn_O, app_nil_r. apply firstn_all. Qed.
Lemma skipn_len_app {A} (l k : list A) : skipn (length l) (l ++ k) = k.
Proof. rewrite skipn_app, Nat.sub_diag, skipn_all. reflexivity. Qed.
