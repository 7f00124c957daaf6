(** Proofs about base64. *)
From Verif Require Import Base Base64Model Base64Spec.
Ltac Zify.zify_post_hook ::= Z.div_mod_to_equations.
Local Open Scope N_scope.

Definition below64 : list N := map N.of_nat (seq 0 64).
Lemma sweep64 (f : N -> bool) : forallb f below64 = true -> forall i, i < 64 -> f i = true.
Proof.
  rewrite forallb_forall. intros H i Hi. apply H. unfold below64. apply in_map_iff.
  exists (N.to_nat i). split; [apply N2Nat.id|]. apply in_seq. lia.
Qed.

Lemma enc_value i : i < 64 -> exists c, enc i = Ret c /\ b64_value c = Some i /\ c <> PAD.
Proof.
  intros Hi.
  pose (f := fun i => match enc i with
                      | Ret c => match b64_value c with Some v => (v =? i) && negb (c =? PAD) | None => false end
                      | UB => false end).
  assert (H : f i = true) by (apply sweep64; [vm_compute; reflexivity|exact Hi]).
  unfold f in H. destruct (enc i) as [c|]; [|discriminate]. exists c. split; [reflexivity|].
  destruct (b64_value c) as [v|]; [|discriminate].
  apply andb_prop in H as [H1 H2]. apply N.eqb_eq in H1. subst v. split; [reflexivity|].
  apply negb_true_iff, N.eqb_neq in H2. exact H2.
Qed.

Lemma value_enc c v : b64_value c = Some v -> v < 64 /\ enc v = Ret c.
Proof.
  intros H. assert (Hc : byte_ok c).
  { unfold byte_ok. unfold b64_value in H.
    destruct (N.leb_spec 65 c), (N.leb_spec c 90), (N.leb_spec 97 c), (N.leb_spec c 122),
      (N.leb_spec 48 c), (N.leb_spec c 57), (N.eqb_spec c 43), (N.eqb_spec c 47); cbn in H; try discriminate; lia. }
  pose (f := fun c => match b64_value c with
                      | Some v => (v <? 64) && match enc v with Ret d => d =? c | UB => false end
                      | None => true end).
  assert (F : f c = true) by (apply byte_sweep; [vm_compute; reflexivity|exact Hc]).
  unfold f in F. rewrite H in F. apply andb_prop in F as [F1 F2].
  split; [lia|]. destruct (enc v) as [d|]; [|discriminate]. apply N.eqb_eq in F2. subst; reflexivity.
Qed.

(** Bit operations of the encoder as arithmetic. *)
Definition idx_ok (x : N) : bool :=
  (N.shiftr x 2 =? x / 4) && (N.land x 3 =? x mod 4) && (N.shiftr (N.land x 0xf0) 4 =? x / 16)
  && (N.land x 0x0f =? x mod 16) && (N.shiftr (N.land x 0xc0) 6 =? x / 64) && (N.land x 0x3f =? x mod 64).
Lemma idx_arith x : byte_ok x ->
  N.shiftr x 2 = x / 4 /\ N.land x 3 = x mod 4 /\ N.shiftr (N.land x 0xf0) 4 = x / 16 /\
  N.land x 0x0f = x mod 16 /\ N.shiftr (N.land x 0xc0) 6 = x / 64 /\ N.land x 0x3f = x mod 64.
Proof.
  intros Hx. assert (H : idx_ok x = true) by (apply byte_sweep; [vm_compute; reflexivity|exact Hx]).
  unfold idx_ok in H. rewrite !andb_true_iff, !N.eqb_eq in H. tauto.
Qed.

Lemma lor4 a b : a < 4 -> b < 16 -> N.lor (N.shiftl a 4) b = a * 16 + b.
Proof.
  intros Ha Hb.
  pose (f := fun i => N.lor (N.shiftl (i / 16) 4) (i mod 16) =? i).
  assert (F : f (a * 16 + b) = true) by (apply sweep64; [vm_compute; reflexivity|lia]).
  unfold f in F. replace ((a * 16 + b) / 16) with a in F by lia.
  replace ((a * 16 + b) mod 16) with b in F by lia. apply N.eqb_eq, F.
Qed.
Lemma lor2 a b : a < 16 -> b < 4 -> N.lor (N.shiftl a 2) b = a * 4 + b.
Proof.
  intros Ha Hb.
  pose (f := fun i => N.lor (N.shiftl (i / 4) 2) (i mod 4) =? i).
  assert (F : f (a * 4 + b) = true) by (apply sweep64; [vm_compute; reflexivity|lia]).
  unfold f in F. replace ((a * 4 + b) / 4) with a in F by lia.
  replace ((a * 4 + b) mod 4) with b in F by lia. apply N.eqb_eq, F.
Qed.

Lemma encode_group_arith t0 t1 t2 len : byte_ok t0 -> byte_ok t1 -> byte_ok t2 ->
  encode_group t0 t1 t2 len =
  obind (enc (t0 / 4)) (fun c0 => obind (enc ((t0 mod 4) * 16 + t1 / 16)) (fun c1 =>
  obind (if 1 <? len then enc ((t1 mod 16) * 4 + t2 / 64) else Ret 61) (fun c2 =>
  obind (if 2 <? len then enc (t2 mod 64) else Ret 61) (fun c3 => Ret [c0; c1; c2; c3])))).
Proof.
  intros H0 H1 H2. unfold encode_group.
  destruct (idx_arith t0 H0) as (E1 & E2 & _). destruct (idx_arith t1 H1) as (_ & _ & E3 & E4 & _ & _).
  destruct (idx_arith t2 H2) as (_ & _ & _ & _ & E5 & E6).
  rewrite E1, E2, E3, E4, E5, E6. unfold byte_ok in *.
  rewrite lor4 by lia. rewrite lor2 by lia. reflexivity.
Qed.

Lemma pad_no_value : b64_value PAD = None. Proof. reflexivity. Qed.

Lemma list3_ind (P : list N -> Prop) :
  P [] -> (forall a, P [a]) -> (forall a b, P [a; b]) ->
  (forall a b c r, P r -> P (a :: b :: c :: r)) -> forall l, P l.
Proof.
  intros P0 P1 P2 P3. assert (H : forall n l, (length l <= n)%nat -> P l).
  { induction n as [|n IH]; intros l Hl.
    - destruct l; [exact P0|cbn in Hl; lia].
    - destruct l as [|a [|b [|c r]]]; auto. apply P3, IH. cbn in Hl. lia. }
  intros l. apply (H (length l)). lia.
Qed.

Lemma b64_roundtrip l : bytes_ok l ->
  exists s, b64_encode l = Ret s /\ b64_decode s = Some l /\
    length s = (4 * ((length l + 2) / 3))%nat.
Proof.
  induction l as [|a|a b|a b c r IH] using list3_ind; intros Hl.
  - exists []. repeat split.
  - inversion Hl as [|? ? Ha _]; subst. cbn [b64_encode].
    assert (H0 : byte_ok 0) by (unfold byte_ok; lia).
    rewrite encode_group_arith by assumption. unfold byte_ok in *.
    destruct (enc_value (a / 4)) as (c0 & -> & V0 & _); [lia|].
    destruct (enc_value ((a mod 4) * 16 + 0 / 16)) as (c1 & -> & V1 & _); [lia|].
    cbn [obind N.ltb N.compare Pos.compare Pos.compare_cont].
    eexists. split; [reflexivity|]. split; [|reflexivity].
    cbn [b64_decode]. change 61 with PAD. rewrite V0, V1, pad_no_value, N.eqb_refl. cbn [andb].
    match goal with |- context [?x mod 16 =? 0] => replace (x mod 16 =? 0) with true by lia end.
    f_equal. f_equal. lia.
  - inversion Hl as [|? ? Ha Hl1]; subst. inversion Hl1 as [|? ? Hb _]; subst. cbn [b64_encode].
    assert (H0 : byte_ok 0) by (unfold byte_ok; lia).
    rewrite encode_group_arith by assumption. unfold byte_ok in *.
    destruct (enc_value (a / 4)) as (c0 & -> & V0 & _); [lia|].
    destruct (enc_value ((a mod 4) * 16 + b / 16)) as (c1 & -> & V1 & _); [lia|].
    destruct (enc_value ((b mod 16) * 4 + 0 / 64)) as (c2 & E2 & V2 & _); [lia|].
    change (1 <? 2) with true. change (2 <? 2) with false. cbn [obind]. rewrite E2. cbn [obind].
    eexists. split; [reflexivity|]. split; [|reflexivity].
    cbn [b64_decode]. change 61 with PAD. rewrite V0, V1, V2, pad_no_value, N.eqb_refl. cbn [andb].
    match goal with |- context [?x mod 4 =? 0] => replace (x mod 4 =? 0) with true by lia end.
    repeat f_equal; lia.
  - inversion Hl as [|? ? Ha Hl1]; subst. inversion Hl1 as [|? ? Hb Hl2]; subst.
    inversion Hl2 as [|? ? Hc Hr]; subst. destruct (IH Hr) as (s & Hs & Hd & Hlen).
    cbn [b64_encode].
    rewrite encode_group_arith by assumption. unfold byte_ok in *.
    destruct (enc_value (a / 4)) as (c0 & -> & V0 & _); [lia|].
    destruct (enc_value ((a mod 4) * 16 + b / 16)) as (c1 & -> & V1 & _); [lia|].
    destruct (enc_value ((b mod 16) * 4 + c / 64)) as (c2 & E2 & V2 & _); [lia|].
    destruct (enc_value (c mod 64)) as (c3 & E3 & V3 & _); [lia|].
    change (1 <? 3) with true. change (2 <? 3) with true. cbn [obind]. rewrite E2. cbn [obind].
    rewrite E3. cbn [obind]. rewrite Hs. cbn [obind].
    eexists. split; [reflexivity|]. split.
    + cbn [app b64_decode]. rewrite V0, V1, V2, V3, Hd. repeat f_equal; lia.
    + cbn [app length]. rewrite Hlen. lia.
Qed.

(** The strict decoder is injective, so the encoding is the only one that decodes to the input. *)
Lemma b64_unique : forall s l, b64_decode s = Some l -> b64_encode l = Ret s.
Proof.
  assert (H : forall n s l, (length s <= n)%nat -> b64_decode s = Some l -> b64_encode l = Ret s).
  { induction n as [|n IH]; intros s l Hn Hd.
    { destruct s; [injection Hd as <-; reflexivity|cbn in Hn; lia]. }
    destruct s as [|c0 [|c1 [|c2 [|c3 s]]]]; try discriminate.
    { injection Hd as <-; reflexivity. }
    cbn [b64_decode] in Hd.
    destruct (b64_value c0) as [v0|] eqn:V0; [|discriminate].
    destruct (b64_value c1) as [v1|] eqn:V1; [|discriminate].
    destruct (value_enc _ _ V0) as [B0 E0]. destruct (value_enc _ _ V1) as [B1 E1].
    destruct (b64_value c2) as [v2|] eqn:V2; cycle 1.
    { destruct (N.eqb_spec c2 PAD) as [->|]; [|discriminate].
      destruct (N.eqb_spec c3 PAD) as [->|]; [|discriminate]. cbn [andb] in Hd.
      destruct (N.eqb_spec ((v0 * 64 + v1) mod 16) 0) as [Hm|]; [|discriminate].
      destruct s; [|discriminate]. injection Hd as <-. cbn [b64_encode].
      rewrite encode_group_arith by (unfold byte_ok; lia).
      replace ((v0 * 64 + v1) / 16 / 4) with v0 by lia.
      replace ((((v0 * 64 + v1) / 16) mod 4) * 16 + 0 / 16) with v1 by lia.
      rewrite E0, E1. reflexivity. }
    destruct (value_enc _ _ V2) as [B2 E2].
    destruct (b64_value c3) as [v3|] eqn:V3; cycle 1.
    { destruct (N.eqb_spec c3 PAD) as [->|]; [|discriminate]. cbn [andb] in Hd.
      destruct (N.eqb_spec ((v0 * 4096 + v1 * 64 + v2) mod 4) 0) as [Hm|]; [|discriminate].
      destruct s; [|discriminate]. injection Hd as <-. cbn [b64_encode].
      rewrite encode_group_arith by (unfold byte_ok; lia).
      set (n2 := v0 * 4096 + v1 * 64 + v2) in *.
      replace (n2 / 1024 / 4) with v0 by lia.
      replace ((n2 / 1024) mod 4 * 16 + (n2 / 4) mod 256 / 16) with v1 by lia.
      replace ((n2 / 4) mod 256 mod 16 * 4 + 0 / 64) with v2 by lia.
      rewrite E0, E1. change (1 <? 2) with true. change (2 <? 2) with false.
      cbn [obind]. rewrite E2. reflexivity. }
    destruct (value_enc _ _ V3) as [B3 E3].
    destruct (b64_decode s) as [out|] eqn:Hs; [|discriminate]. injection Hd as <-.
    cbn [b64_encode].
    set (n2 := v0 * 262144 + v1 * 4096 + v2 * 64 + v3) in *.
    rewrite encode_group_arith by (unfold byte_ok; lia).
    replace (n2 / 65536 / 4) with v0 by lia.
    replace ((n2 / 65536) mod 4 * 16 + (n2 / 256) mod 256 / 16) with v1 by lia.
    replace ((n2 / 256) mod 256 mod 16 * 4 + n2 mod 256 / 64) with v2 by lia.
    replace (n2 mod 256 mod 64) with v3 by lia.
    rewrite E0, E1. change (1 <? 3) with true. change (2 <? 3) with true. cbn [obind].
    rewrite E2. cbn [obind]. rewrite E3. cbn [obind].
    rewrite (IH s out); [reflexivity|cbn in Hn; lia|exact Hs]. }
  intros s l. apply (H (length s)). lia.
Qed.
