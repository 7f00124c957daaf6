(** Decimal numbers. *)
From Verif Require Import Base Text HttpModel.

(** The number a list of digits stands for. *)
Definition value (l : list N) : N := fold_left (fun n d => (10 * n + (d - 48))%N) l 0%N.
(** The decimal representation of a number: its digits, no leading zero. *)
Definition decimal (n : N) (l : list N) : Prop :=
  l <> [] /\ Forall (fun d => (48 <= d <= 57)%N) l /\ value l = n /\ (hd 0%N l = 48%N -> l = [48%N]).

Lemma value_snoc : forall l d, value (l ++ [d]) = (10 * value l + (d - 48))%N.
Proof. intros l d. unfold value. rewrite fold_left_app. reflexivity. Qed.

Lemma dec_loop_spec : forall f n acc, (n < 2 ^ N.of_nat f)%N -> 0 < f ->
  exists ds, dec_loop f n acc = ds ++ acc /\ decimal n ds.
Proof.
  induction f as [|f IH]; intros n acc Hn Hf; [lia|].
  cbn [dec_loop]. destruct (n <? 10)%N eqn:E.
  - apply N.ltb_lt in E. exists [(48 + n mod 10)%N]. split; [reflexivity|].
    rewrite N.mod_small by exact E. repeat split.
    + discriminate.
    + repeat constructor; lia.
    + unfold value. cbn -[N.mul N.sub N.add]. lia.
    + cbn. intros H. f_equal. exact H.
  - apply N.ltb_ge in E.
    destruct (Nat.eq_dec f 0) as [->|F0]; [exfalso; change (2 ^ N.of_nat 1)%N with 2%N in Hn; lia|].
    destruct (IH (n / 10)%N ((48 + n mod 10)%N :: acc)) as (ds & Eq & D1 & D2 & D3 & D4); [|lia|].
    + apply N.div_lt_upper_bound; [lia|]. rewrite Nat2N.inj_succ, N.pow_succ_r' in Hn. lia.
    + exists (ds ++ [(48 + n mod 10)%N]). split; [rewrite <- app_assoc; exact Eq|].
      assert (M : (n mod 10 < 10)%N) by (apply N.mod_lt; lia).
      repeat split.
      * intros H. apply app_eq_nil in H as [_ H]. discriminate H.
      * apply Forall_app. split; [exact D2|repeat constructor; lia].
      * rewrite value_snoc, D3. rewrite (N.div_mod n 10) at 3 by lia. lia.
      * destruct ds as [|d ds]; [congruence|]. cbn. intros H. specialize (D4 H). injection D4 as -> ->.
        exfalso. unfold value in D3. cbn in D3.
        assert ((1 <= n / 10)%N) by (apply N.div_le_lower_bound; lia). lia.
Qed.

Lemma dec_decimal : forall n, decimal n (dec n).
Proof.
  intros n. unfold dec. destruct (dec_loop_spec (S (N.to_nat (N.log2 n))) n []) as (ds & E & D).
  - rewrite Nat2N.inj_succ, N2Nat.id.
    destruct n as [|p]; [reflexivity|]. apply N.log2_spec. lia.
  - lia.
  - rewrite E, app_nil_r. exact D.
Qed.

Lemma value_ge : forall l d, (48 < d)%N -> (10 ^ N.of_nat (length l) <= value (d :: l))%N.
Proof.
  intros l. induction l as [|x l IH] using rev_ind; intros d Hd.
  - unfold value. cbn -[N.mul N.add N.sub N.pow]. change (10 ^ N.of_nat 0)%N with 1%N. lia.
  - change (d :: l ++ [x]) with ((d :: l) ++ [x]). rewrite value_snoc, app_length. cbn [length].
    rewrite Nat.add_1_r, Nat2N.inj_succ, N.pow_succ_r'. specialize (IH d Hd). lia.
Qed.

Lemma decimal_length : forall n l m, decimal n l -> 0 < m -> (n < 10 ^ N.of_nat m)%N -> length l <= m.
Proof.
  intros n l m (D1 & D2 & D3 & D4) Hm Hn. destruct l as [|d l]; [cbn; lia|]. cbn [hd] in D4. cbn [length].
  destruct (N.eq_dec d 48) as [->|Hd]; [specialize (D4 eq_refl); injection D4 as ->; cbn; lia|].
  assert (48 < d)%N by (apply Forall_inv in D2; lia).
  pose proof (value_ge l d H) as G. rewrite D3 in G.
  assert (L : (N.of_nat (length l) < N.of_nat m)%N). { apply (N.pow_lt_mono_r_iff 10); lia. } lia.
Qed.

(** The header for a body that is not too long. *)
Lemma content_length_fits : forall n, (n < 10 ^ 10)%N ->
  content_length_header n = Ret (text "Content-Length: " ++ dec n ++ CRLF).
Proof.
  intros n H. unfold content_length_header.
  assert (L : length (dec n) <= 10) by (apply (decimal_length n); [apply dec_decimal|lia|exact H]).
  assert (length (text "Content-Length: " ++ dec n ++ CRLF) <= 28).
  { rewrite !app_length. change (length (text "Content-Length: ")) with 16. change (length CRLF) with 2. lia. }
  cbv zeta. apply Nat.leb_le in H0. rewrite H0. reflexivity.
Qed.
