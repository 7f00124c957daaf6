(** Executable schedules: a list of actions that passes a boolean check is an
    execution. Used to exhibit concrete runs. *)
From Verif Require Import Base MaskModel WsModel WsTrace.
Open Scope N_scope.

Definition bytes_okb (l : list N) : bool := forallb (fun b => b <? 256) l.
Lemma bytes_okb_ok l : bytes_okb l = true -> bytes_ok l.
Proof. unfold bytes_okb, bytes_ok. rewrite forallb_forall, Forall_forall. intros H x I. apply N.ltb_lt, H, I. Qed.

Definition choice_okb (ch : choice) : bool :=
  (Nat.eqb (length (ch_key ch)) 4 && bytes_okb (ch_key ch) && match ch_write ch with WErr e => negb (Z.eqb e 0) | _ => true end)%bool.
Definition chain_okb (p : option chain) : bool := match p with None => true | Some c => (bytes_okb (chain_bytes c) && (total_size c <=? SIZE_MAX))%bool end.
Definition api_okb (a : api) : bool :=
  match a with
  | AFirst _ flen p _ _ => chain_okb p && (flen <=? SIZE_MAX)
  | ACont _ p | APing _ p | APong _ p => chain_okb p
  | AClose _ code r => (code <? 65536) && match r with None => true | Some l => bytes_okb l end
  | ARead => true
  end.
Definition fire_okb (rq : rreq) (f : fired) : bool :=
  match f with
  | FErr err => negb (Z.eqb err 0)
  | FData _ view => bytes_okb view && (if rq_most rq then negb (Nat.eqb (length view) 0) else rq_n rq <=? N.of_nat (length view))
  end.
Definition userb (k : list op) : bool := match k with [] | OUser :: _ => true | _ => false end.
Definition enabledb (c : conf) (x : act) : bool :=
  let '(s, k) := c in
  match x with
  | XOp ch => negb (Nat.eqb (length k) 0) && choice_okb ch
  | XApi a ch => userb k && negb (hooked s) && choice_okb ch && api_okb a
  | XFire f ch => match k with [] | OFire :: _ => true | _ => false end && negb (hooked s) && Nat.eqb (cbrun s) 0 && choice_okb ch &&
                  match rd s with Some rq => fire_okb rq f | None => false end
  | XWritten _ => Nat.eqb (length k) 0 && negb (hooked s) && Nat.ltb 0 (inflight (T s))
  | XTimer err => Nat.eqb (length k) 0 && timer s && negb (Z.eqb err CIO_OPERATION_ABORTED)
  end.

Ltac bsplit := repeat match goal with
  | H : (_ && _)%bool = true |- _ => apply andb_prop in H; destruct H
  | H : negb _ = true |- _ => apply negb_true_iff in H
  | H : Nat.eqb _ _ = true |- _ => apply Nat.eqb_eq in H
  end.

Lemma choice_okb_ok ch : choice_okb ch = true -> choice_ok ch.
Proof.
  unfold choice_okb, choice_ok. intros H. bsplit. split; [assumption|]. split; [apply bytes_okb_ok; assumption|].
  destruct (ch_write ch); try exact I. intros ->. bsplit. discriminate.
Qed.
Lemma userb_ok k : userb k = true -> user_control k.
Proof. destruct k as [|[] k']; intros H; try discriminate H; [left; reflexivity|right; eauto]. Qed.
Lemma api_okb_ok a : api_okb a = true -> api_ok a.
Proof.
  assert (CH : forall p, chain_okb p = true -> chain_ok p) by (intros [c|] H; [cbn in H; bsplit; split; [apply bytes_okb_ok; assumption|apply N.leb_le; assumption]|exact I]).
  destruct a; cbn; intros H; bsplit; auto.
  - split; [auto|apply N.leb_le; assumption].
  - split; [apply N.ltb_lt; assumption|]. destruct reason; [apply bytes_okb_ok; assumption|exact I].
Qed.

Lemma enabledb_ok c x : enabledb c x = true -> enabled c x.
Proof.
  destruct c as [s k]. destruct x as [ch|a ch|f ch|err|err]; cbn; intros H; bsplit.
  - split; [intros ->; discriminate|apply choice_okb_ok; assumption].
  - split; [apply userb_ok; assumption|]. split; [assumption|]. split; [apply choice_okb_ok; assumption|apply api_okb_ok; assumption].
  - split. { destruct k as [|[] k']; try discriminate; eauto. }
    split; [assumption|]. split; [assumption|]. split; [apply choice_okb_ok; assumption|].
    destruct (rd s) as [rq|]; [|discriminate]. exists rq. split; [reflexivity|]. destruct f as [err|ad v]; cbn in *; bsplit.
    + intros ->. discriminate.
    + split; [apply bytes_okb_ok; assumption|]. destruct (rq_most rq); bsplit; [intros ->; discriminate|apply N.leb_le; assumption].
  - split; [destruct k; [reflexivity|discriminate]|]. split; [assumption|]. apply Nat.ltb_lt; assumption.
  - split; [destruct k; [reflexivity|discriminate]|]. split; [assumption|]. intros ->. discriminate.
Qed.

Definition readb (c : conf) (x : act) : bool := match x with XApi ARead _ => may_read (tr (fst c)) | _ => true end.
Lemma readb_ok c x : readb c x = true -> one_read_at_a_time c x.
Proof. destruct x as [ch|a ch|f ch|err|err]; cbn; auto. destruct a; auto. Qed.

Section X.
Variable C : cfg.
Variable Pb : conf -> act -> bool.
Fixpoint exec (c : conf) (l : list act) : option conf :=
  match l with
  | [] => Some c
  | x :: r => if (enabledb c x && Pb c x)%bool then match step C c x with Ret c' => exec c' r | UB => None end else None
  end.
Lemma exec_reach (P : conf -> act -> Prop) l : (forall c x, Pb c x = true -> P c x) -> forall c c', reach C P c -> exec c l = Some c' -> reach C P c'.
Proof.
  intros HP. induction l as [|x r IH]; intros c c' Hc H; cbn in H; [congruence|].
  destruct (enabledb c x && Pb c x)%bool eqn:E; [|discriminate]. destruct (step C c x) as [c1|] eqn:S; [|discriminate].
  apply andb_prop in E. destruct E as [E1 E2]. refine (IH c1 c' _ H). eapply reach_step; [exact Hc|apply enabledb_ok, E1|apply HP, E2|exact S].
Qed.
End X.

(** Standard ingredients of examples. *)
Definition some_job : job := Job None None None 0 false false SHMessage.
Definition junk0 : junk := Junk false 0 0 0 [0;0;0;0] [0;0;0;0] (fun _ => some_job) None SHMessage.
Definition start : conf := (ws_init junk0, []).
Lemma start_reach C P : reach C P start.
Proof. unfold start. apply reach_init; try reflexivity; repeat constructor. Qed.
Definition ch0 : choice := Choice WPending [1;2;3;4] 0 0 64.
Definition chk (w : wres) : choice := Choice w [1;2;3;4] 0 0 64.
Definition cli : cfg := Cfg false 4096 MaskModel.LittleEndian 8.
Definition srv : cfg := Cfg true 4096 MaskModel.LittleEndian 8.
(** The bytes [l] arrive (one chunk of unread bytes). *)
Definition arrive (l : list N) : act := XFire (FData 0 l) ch0.
Definition op1 : act := XOp ch0.
Definition ops (n : nat) : list act := repeat op1 n.
