(** C46, C47, C51, C52: the theorems about serial ports. *)
From Verif Require Import Base UartModel.
Local Open Scope N_scope.

(** * C46 *)
(** [m] only has bits of [M]; [m] and [M] are disjoint. *)
Lemma sub_bit m M k : N.land m M = m -> N.testbit m k = true -> N.testbit M k = true.
Proof. intros H B. rewrite <- H, N.land_spec in B. apply andb_prop in B. tauto. Qed.
Lemma disj_bit m M k : N.land m M = 0 -> N.testbit M k = true -> N.testbit m k = false.
Proof. intros H B. assert (X : N.testbit (N.land m M) k = false) by (rewrite H; apply N.bits_0). rewrite N.land_spec, B, andb_true_r in X. exact X. Qed.

(** Two flag words agree on the bits of a mask. *)
Definition agree (M c d : N) : Prop := forall k, N.testbit M k = true -> N.testbit c k = N.testbit d k.
Lemma agree_land M m c d : agree M c d -> N.land m M = m -> N.land c m = N.land d m.
Proof.
  intros A S. apply N.bits_inj. intros k. rewrite !N.land_spec. destruct (N.testbit m k) eqn:B; [|rewrite !andb_false_r; reflexivity].
  rewrite (A k); [reflexivity|]. apply (sub_bit m); assumption.
Qed.
Lemma agree_refl M c : agree M c c.
Proof. intros k _. reflexivity. Qed.
Lemma agree_trans M a b c : agree M a b -> agree M b c -> agree M a c.
Proof. intros H G k B. rewrite H, G; auto. Qed.
Lemma agree_lor M m c : N.land m M = 0 -> agree M (N.lor c m) c.
Proof. intros D k B. rewrite N.lor_spec, (disj_bit m M k D B), orb_false_r. reflexivity. Qed.
Lemma agree_clear M m c : N.land m M = 0 -> agree M (clear c m) c.
Proof. intros D k B. unfold clear. rewrite N.ldiff_spec, (disj_bit m M k D B). cbn. apply andb_true_r. Qed.

(** The bits each setting lives in. *)
Definition PARITY_BITS : N := N.lor (N.lor PARENB PARODD) CMSPAR.
Definition same_parity_bits t t' := agree PARITY_BITS (cflag t) (cflag t').
Definition same_stop_bits t t' := agree CSTOPB (cflag t) (cflag t').
Definition same_size_bits t t' := agree CSIZE (cflag t) (cflag t').
Definition same_flow_bits t t' := agree CRTSCTS (cflag t) (cflag t') /\ agree IXALL (iflag t) (iflag t').
Definition same_baud_bits t t' := agree CBAUD (cflag t) (cflag t') /\ agree IBAUD0 (iflag t) (iflag t').

Lemma parity_same t t' : same_parity_bits t t' -> parity_of t = parity_of t'.
Proof. intros A. unfold parity_of. rewrite !(agree_land _ _ _ _ A) by reflexivity. reflexivity. Qed.
Lemma stop_same t t' : same_stop_bits t t' -> stop_bits_of t = stop_bits_of t'.
Proof. intros A. unfold stop_bits_of. rewrite !(agree_land _ _ _ _ A) by reflexivity. reflexivity. Qed.
Lemma size_same t t' : same_size_bits t t' -> data_bits_of t = data_bits_of t'.
Proof. intros A. unfold data_bits_of. rewrite !(agree_land _ _ _ _ A) by reflexivity. reflexivity. Qed.
Lemma flow_same t t' : same_flow_bits t t' -> flow_of t = flow_of t'.
Proof. intros [A B]. unfold flow_of, cts_rts_enabled, xon_xoff_enabled. rewrite !(agree_land _ _ _ _ A), !(agree_land _ _ _ _ B) by reflexivity. reflexivity. Qed.
Lemma baud_same t t' : same_baud_bits t t' -> baud_of t = baud_of t'.
Proof. intros [A B]. unfold baud_of, cfgetispeed. rewrite !(agree_land _ _ _ _ A), !(agree_land _ _ _ _ B) by reflexivity. reflexivity. Qed.

Ltac ag := cbn [cflag iflag other set_c set_i]; repeat first [apply agree_refl | (eapply agree_trans; [first [apply agree_lor; reflexivity | apply agree_clear; reflexivity]|])].

(** Single bits. *)
Lemma bit_clear c k : (N.land c (2 ^ k) =? 0) = negb (N.testbit c k).
Proof.
  destruct (N.testbit c k) eqn:B; cbn.
  - apply N.eqb_neq. intros H. assert (X : N.testbit (N.land c (2 ^ k)) k = false) by (rewrite H; apply N.bits_0). rewrite N.land_spec, B, N.pow2_bits_true in X. discriminate.
  - apply N.eqb_eq. apply N.bits_inj_0. intros j. rewrite N.land_spec. destruct (N.eq_dec j k) as [->|D]; [rewrite B; reflexivity|]. rewrite N.pow2_bits_false by auto. apply andb_false_r.
Qed.
Lemma bit_set c k : (N.land c (2 ^ k) =? 2 ^ k) = N.testbit c k.
Proof.
  destruct (N.testbit c k) eqn:B.
  - apply N.eqb_eq. apply N.bits_inj. intros j. rewrite N.land_spec. destruct (N.eq_dec j k) as [->|D]; [rewrite B; reflexivity|]. rewrite N.pow2_bits_false by auto. apply andb_false_r.
  - apply N.eqb_neq. intros H. assert (X : N.testbit (N.land c (2 ^ k)) k = true) by (rewrite H; apply N.pow2_bits_true). rewrite N.land_spec, B in X. discriminate.
Qed.
Lemma parity_bits t : parity_of t = if N.testbit (cflag t) 8 then (if N.testbit (cflag t) 30 then (if N.testbit (cflag t) 9 then PMark else PSpace) else (if N.testbit (cflag t) 9 then POdd else PEven)) else PNone.
Proof.
  unfold parity_of. change PARENB with (2 ^ 8). change CMSPAR with (2 ^ 30). change PARODD with (2 ^ 9). rewrite !bit_clear, !bit_set.
  destruct (N.testbit (cflag t) 8), (N.testbit (cflag t) 30); reflexivity.
Qed.
Ltac bits := unfold clear; rewrite ?N.lor_spec, ?N.ldiff_spec, ?N.lor_spec, ?N.ldiff_spec, ?N.lor_spec, ?N.ldiff_spec, ?N.lor_spec.

(** The other four settings are the same before and after. *)
Definition keeps_parity t t' := parity_of t' = parity_of t.
Definition keeps_stop t t' := stop_bits_of t' = stop_bits_of t.
Definition keeps_size t t' := data_bits_of t' = data_bits_of t.
Definition keeps_flow t t' := flow_of t' = flow_of t.
Definition keeps_baud t t' := baud_of t' = baud_of t.

(** Reading back what was set, and the other settings unchanged, for every
    previous configuration. *)
Theorem C46_parity : forall p t, let t' := with_parity p t in
  parity_of t' = p /\ keeps_stop t t' /\ keeps_size t t' /\ keeps_flow t t' /\ keeps_baud t t' /\ iflag t' = iflag t /\ other t' = other t.
Proof.
  intros p t t'. split.
  - rewrite parity_bits. unfold t'. destruct p; cbn [with_parity set_c cflag]; bits;
    change (N.testbit PARENB 8) with true; change (N.testbit PARENB 9) with false; change (N.testbit PARENB 30) with false;
    change (N.testbit PARODD 8) with false; change (N.testbit PARODD 9) with true; change (N.testbit PARODD 30) with false;
    change (N.testbit CMSPAR 8) with false; change (N.testbit CMSPAR 9) with false; change (N.testbit CMSPAR 30) with true;
    cbn [negb]; rewrite ?andb_false_r, ?andb_true_r, ?orb_true_r, ?orb_false_r; reflexivity.
  - split; [apply stop_same|split; [apply size_same|split; [apply flow_same|split; [apply baud_same|unfold t'; destruct p; split; reflexivity]]]]; unfold t', same_stop_bits, same_size_bits, same_flow_bits, same_baud_bits;
    destruct p; cbn [with_parity]; try split; ag.
Qed.
Print Assumptions C46_parity.
Theorem C46_stop_bits : forall n t, let t' := with_stop_bits n t in
  stop_bits_of t' = n /\ keeps_parity t t' /\ keeps_size t t' /\ keeps_flow t t' /\ keeps_baud t t' /\ iflag t' = iflag t /\ other t' = other t.
Proof.
  intros n t t'. split.
  - unfold stop_bits_of, t'. change CSTOPB with (2 ^ 6). rewrite bit_set. destruct n; cbn [with_stop_bits set_c cflag]; bits; change (N.testbit CSTOPB 6) with true; cbn [negb]; rewrite ?andb_false_r, ?orb_true_r; reflexivity.
  - split; [apply parity_same|split; [apply size_same|split; [apply flow_same|split; [apply baud_same|unfold t'; destruct n; split; reflexivity]]]]; unfold t', same_parity_bits, same_size_bits, same_flow_bits, same_baud_bits;
    destruct n; cbn [with_stop_bits]; try split; ag.
Qed.
Print Assumptions C46_stop_bits.
Theorem C46_flow_control : forall f t, let t' := with_flow f t in
  flow_of t' = Some f /\ keeps_parity t t' /\ keeps_stop t t' /\ keeps_size t t' /\ keeps_baud t t' /\ other t' = other t.
Proof.
  intros f t t'. split.
  - unfold flow_of, cts_rts_enabled, xon_xoff_enabled, t'. change CRTSCTS with (2 ^ 31). change IXON with (2 ^ 10). change IXOFF with (2 ^ 12). change IXANY with (2 ^ 11). rewrite !bit_set.
    destruct f; cbn [with_flow set_c set_i cflag iflag]; bits;
    change (N.testbit CRTSCTS 31) with true; change (N.testbit IXALL 10) with true; change (N.testbit IXALL 11) with true; change (N.testbit IXALL 12) with true;
    cbn [negb]; rewrite ?andb_false_r, ?orb_true_r; reflexivity.
  - split; [apply parity_same|split; [apply stop_same|split; [apply size_same|split; [apply baud_same|unfold t'; destruct f; reflexivity]]]]; unfold t', same_parity_bits, same_size_bits, same_stop_bits, same_baud_bits;
    destruct f; cbn [with_flow]; try split; ag.
Qed.
Print Assumptions C46_flow_control.

Lemma field_set c M v : N.land v M = v -> N.land (N.lor (clear c M) v) M = v.
Proof.
  intros S. apply N.bits_inj. intros k. unfold clear. rewrite N.land_spec, N.lor_spec, N.ldiff_spec. rewrite <- S at 2. rewrite N.land_spec.
  destruct (N.testbit M k); cbn; rewrite ?andb_false_r, ?andb_true_r; cbn; reflexivity.
Qed.
Theorem C46_baud_rate : forall b t, let t' := with_baud b t in
  baud_of t' = Some b /\ keeps_parity t t' /\ keeps_stop t t' /\ keeps_size t t' /\ keeps_flow t t' /\ other t' = other t.
Proof.
  intros b t t'. split.
  - unfold baud_of, cfgetispeed, t', with_baud, cfsetspeed. cbn [set_c set_i cflag iflag].
    replace (N.land (clear (iflag t) IBAUD0) IBAUD0 =? 0) with true.
    + rewrite field_set by (destruct b; reflexivity). destruct b; reflexivity.
    + symmetry. apply N.eqb_eq, N.bits_inj_0. intros k. unfold clear. rewrite N.land_spec, N.ldiff_spec. destruct (N.testbit IBAUD0 k); cbn; rewrite ?andb_false_r; reflexivity.
  - split; [apply parity_same|split; [apply stop_same|split; [apply size_same|split; [apply flow_same|reflexivity]]]]; unfold t', with_baud, cfsetspeed, same_parity_bits, same_size_bits, same_stop_bits, same_flow_bits;
    try split; ag; destruct b; eapply agree_trans; try (apply agree_lor; reflexivity); apply agree_clear; reflexivity.
Qed.
Print Assumptions C46_baud_rate.

(** The number of data bits: the others are kept, but what is read back is what
    was set only if every size bit set before is also set in the new value. *)
Theorem C46_data_bits_partial : forall n t, let t' := with_data_bits n t in
  (data_bits_of t' = n <-> N.lor (N.land (cflag t) CSIZE) (size_bits n) = size_bits n) /\
  keeps_parity t t' /\ keeps_stop t t' /\ keeps_flow t t' /\ keeps_baud t t' /\ iflag t' = iflag t /\ other t' = other t.
Proof.
  intros n t t'. split.
  - unfold data_bits_of, t', with_data_bits. cbn [set_c cflag]. replace (N.land (N.lor (cflag t) (size_bits n)) CSIZE) with (N.lor (N.land (cflag t) CSIZE) (size_bits n)).
    + assert (L : exists d, N.land (cflag t) CSIZE = size_bits d).
      { rewrite <- (N.land_diag CSIZE), N.land_assoc. assert (K : N.land (cflag t) CSIZE < 64).
        { apply N.le_lt_trans with CSIZE; [|reflexivity]. apply N.ldiff_le. apply N.bits_inj_0. intros k. rewrite N.ldiff_spec, N.land_spec. destruct (N.testbit CSIZE k); cbn; rewrite ?andb_false_r; reflexivity. }
        assert (F : forall x, x < 64 -> exists d, N.land x CSIZE = size_bits d); [|apply F, K].
        intros x Hx. assert (I : In x (map N.of_nat (seq 0 64))) by (apply in_map_iff; exists (N.to_nat x); split; [apply N2Nat.id|apply in_seq; lia]).
        clear - I. cbn in I. repeat destruct I as [<-|I]; [solve [exists D5; reflexivity | exists D6; reflexivity | exists D7; reflexivity | exists D8; reflexivity]..|contradiction]. }
      destruct L as [d ->]. destruct d, n; vm_compute; split; intros; congruence.
    + apply N.bits_inj. intros k. rewrite N.lor_spec, !N.land_spec, N.lor_spec. destruct (N.testbit CSIZE k) eqn:B; [rewrite !andb_true_r; reflexivity|].
      rewrite !andb_false_r. cbn. destruct (N.testbit (size_bits n) k) eqn:Q; [|reflexivity]. exfalso. rewrite (sub_bit (size_bits n) CSIZE k) in B; [discriminate|destruct n; reflexivity|exact Q].
  - split; [apply parity_same|split; [apply stop_same|split; [apply flow_same|split; [apply baud_same|split; reflexivity]]]]; unfold t', same_parity_bits, same_stop_bits, same_flow_bits, same_baud_bits;
    destruct n; unfold with_data_bits, size_bits; try split; ag.
Qed.
Print Assumptions C46_data_bits_partial.
(** Refuted: the usual configuration is 8 data bits; setting 7, 6 or 5 succeeds
    and leaves 8 (and there is no way back from 8 to less). *)
Theorem C46_data_bits_refuted : forall n t, data_bits_of t = D8 -> N.land (cflag t) CSIZE = CS8 -> set_call (with_data_bits n) None None t = (0%Z, with_data_bits n t) /\ data_bits_of (with_data_bits n t) = D8.
Proof.
  intros n t _ C. split; [reflexivity|]. unfold data_bits_of, with_data_bits. cbn [set_c cflag].
  replace (N.land (N.lor (cflag t) (size_bits n)) CSIZE) with (N.lor (N.land (cflag t) CSIZE) (N.land (size_bits n) CSIZE)).
  - rewrite C. destruct n; reflexivity.
  - apply N.bits_inj. intros k. rewrite N.lor_spec, !N.land_spec, N.lor_spec. destruct (N.testbit (cflag t) k), (N.testbit (size_bits n) k), (N.testbit CSIZE k); reflexivity.
Qed.
Print Assumptions C46_data_bits_refuted.

(** After initialisation there is no flow control, the rate is 115200 baud, and
    character size, parity and stop bits are the device's. *)
Theorem C46_init : forall t lo, let t' := init_settings t lo in
  flow_of t' = Some FNone /\ baud_of t' = Some B115200 /\ keeps_parity t t' /\ keeps_stop t t' /\ keeps_size t t'.
Proof.
  intros t lo t'. pose proof (C46_baud_rate B115200 (Tty (clear (cflag t) CRTSCTS) (clear (clear (iflag t) IXALL) INIT_BREAK) lo)) as B. cbv zeta in B.
  destruct B as (B1 & B2 & B3 & B4 & B5 & _). change (with_baud B115200 _) with t' in *. split; [|split; [exact B1|]].
  - unfold keeps_flow in B5. rewrite B5. unfold flow_of, cts_rts_enabled, xon_xoff_enabled. change CRTSCTS with (2 ^ 31) at 2 3. change IXON with (2 ^ 10). cbn [cflag iflag].
    rewrite !bit_set. bits. change (N.testbit CRTSCTS 31) with true. change (N.testbit IXALL 10) with true. cbn [negb]. rewrite !andb_false_r. reflexivity.
  - unfold keeps_parity, keeps_stop, keeps_size in *. rewrite B2, B3, B4. split; [apply parity_same|split; [apply stop_same|apply size_same]]; unfold same_parity_bits, same_stop_bits, same_size_bits; ag.
Qed.
Print Assumptions C46_init.
(** A call that fails changes nothing. *)
Theorem C46_failed_call : forall f g s t r, set_call f g s t = r -> fst r <> 0%Z -> snd r = t.
Proof. intros f [g|] [s|] t r <- H; cbn in *; congruence. Qed.
Print Assumptions C46_failed_call.
(** Success is reported exactly if no system call failed, and otherwise the error of the one that failed. *)
Theorem C46_errors_reported : forall f g s t, let r := set_call f g s t in
  match g, s with
  | None, None => r = (0%Z, f t)
  | Some e, _ | None, Some e => r = ((- e)%Z, t)
  end /\ forall A (q : termios -> A), get_call q g t = match g with None => inr (q t) | Some e => inl (- e)%Z end.
Proof. intros f [g|] [s|] t; split; reflexivity. Qed.
Print Assumptions C46_errors_reported.
Example typical : let t := Tty 3261 1280 35387 in (parity_of t, stop_bits_of t, data_bits_of t, flow_of t, baud_of t) = (PNone, OneStop, D8, Some FNone, Some B9600).
Proof. vm_compute. reflexivity. Qed.

(** * C47 *)
(** Device results for a chain: one per element, each accepting at most the
    element. *)
Definition answers (chain : list (list N)) (res : list (N + Z)) : Prop :=
  Forall2 (fun el r => match r with inl n => n <= N.of_nat (length el) | inr _ => True end) chain res.
(** What the device accepts is always a prefix of the chain's bytes, and a
    handler called within the call reports exactly its length; when the first
    element is refused nothing was accepted, so that reporting 0 later, or an
    error, is right. *)
Lemma write_loop_spec chain : forall res w dev rep d, answers chain res -> write_loop chain res w dev = (rep, d) ->
  exists p, d = dev ++ p /\ (exists q, concat chain = p ++ q) /\
    match rep with
    | WHandler n => n = w + N.of_nat (length p)
    | WLater => exists i, nth_error res i = Some (inr EAGAIN) /\ p = concat (firstn i chain)
    | WError e => exists i, nth_error res i = Some (inr (- e)%Z) /\ p = concat (firstn i chain)
    end.
Proof.
  induction chain as [|el chain IH]; intros res w dev rep d A H; inversion A as [|? r ? rs Ar As]; subst; cbn [write_loop] in H.
  - injection H as <- <-. exists []. rewrite app_nil_r. split; [reflexivity|]. split; [exists []; reflexivity|]. cbn. lia.
  - destruct r as [n|e].
    + destruct (N.eqb_spec n (N.of_nat (length el))) as [->|NE].
      * rewrite Nat2N.id, firstn_all in H. apply IH in H; [|exact As]. destruct H as (p & -> & (q & Q) & R). exists (el ++ p). rewrite app_assoc.
        split; [reflexivity|]. split; [exists q; cbn; rewrite Q, app_assoc; reflexivity|]. destruct rep as [m| |e].
        -- rewrite app_length. lia.
        -- destruct R as (i & N1 & ->). exists (S i). split; [exact N1|reflexivity].
        -- destruct R as (i & N1 & ->). exists (S i). split; [exact N1|reflexivity].
      * injection H as <- <-. exists (firstn (N.to_nat n) el). split; [reflexivity|]. split; [exists (skipn (N.to_nat n) el ++ concat chain); cbn; rewrite app_assoc, firstn_skipn; reflexivity|].
        rewrite firstn_length. lia.
    + exists []. destruct (Z.eqb_spec e EAGAIN) as [->|NE]; injection H as <- <-; rewrite app_nil_r; (split; [reflexivity|]); (split; [exists (concat (el :: chain)); reflexivity|]); exists 0%nat; (split; [|reflexivity]); cbn; [|rewrite Z.opp_involutive]; reflexivity.
Qed.
Theorem C47_write_reports_partial : forall chain res rep dev, answers chain res -> stream_write chain res = (rep, dev) ->
  (exists rest, concat chain = dev ++ rest) /\
  match rep with
  | WHandler n => n = N.of_nat (length dev)
  | WLater => exists i, nth_error res i = Some (inr EAGAIN) /\ dev = concat (firstn i chain)
  | WError e => exists i, nth_error res i = Some (inr (- e)%Z) /\ dev = concat (firstn i chain)
  end.
Proof. intros chain res rep dev A H. unfold stream_write in H. destruct (write_loop_spec _ _ _ _ _ _ A H) as (p & -> & Q & R). cbn [app]. split; [exact Q|]. destruct rep; auto. Qed.
Print Assumptions C47_write_reports_partial.
Theorem C47_no_error_reported_exactly : forall chain res, answers chain res -> (forall e, ~ In (inr e) res) ->
  exists dev rest, stream_write chain res = (WHandler (N.of_nat (length dev)), dev) /\ concat chain = dev ++ rest.
Proof.
  intros chain res A N. destruct (stream_write chain res) as [rep dev] eqn:E. destruct (C47_write_reports_partial _ _ _ _ A E) as ((q & Q) & R). exists dev, q. split; [|exact Q].
  destruct rep; [subst; reflexivity|destruct R as (i & X & _); apply nth_error_In in X; exfalso; eapply N; exact X..].
Qed.
Print Assumptions C47_no_error_reported_exactly.
(** Refuted: the device takes the first element and would block on the second:
    the handler is told 0 bytes later; a caller that continues sends the first
    element again. *)
Theorem C47_bytes_lost_refuted : exists chain res dev, answers chain res /\ stream_write chain res = (WLater, dev) /\ dev = [1] /\
  forall again, stream_write chain [inl 1; inl 1] = again -> again = (WHandler 2, [1; 2]).
Proof.
  exists [[1]; [2]], [inl 1; inr EAGAIN], [1]. repeat split; try (intros; subst; reflexivity). repeat constructor; cbn; lia.
Qed.
Print Assumptions C47_bytes_lost_refuted.

(** * C51 *)
Fixpoint final (c : config) (l : list act) : outcome config :=
  match l with [] => Ret c | x :: r => match step c x with Ret c' => final c' r | UB => UB end end.
Fixpoint ok_run (user : config -> act -> Prop) (c : config) (l : list act) : Prop :=
  match l with
  | [] => True
  | x :: r => enabled c x /\ user c x /\ match step c x with Ret c' => ok_run user c' r | UB => False end
  end.
Lemma run_reach user l : forall c c', reach user c -> ok_run user c l -> final c l = Ret c' -> reach user c'.
Proof.
  induction l as [|x l IH]; intros c c' R O F; cbn in *; [injection F as <-; exact R|].
  destruct O as (E & U & O). destruct (step c x) as [c1|] eqn:S; [|contradiction]. eapply IH; [|exact O|exact F]. eapply reach_step; eassumption.
Qed.
Definition count (p : uev -> bool) (t : list uev) : nat := length (filter p t).
Definition is_read id e := match e with EvRead i => Nat.eqb i id | _ => false end.
Definition is_read_done id e := match e with EvReadDone i _ => Nat.eqb i id | _ => false end.
(** The request a handler call answers is the last one made. *)
Definition last_read (t : list uev) : option nat := fold_left (fun o e => match e with EvRead id => Some id | _ => o end) t None.
Lemma last_snoc t e : last_read (t ++ [e]) = match e with EvRead id => Some id | _ => last_read t end.
Proof. unfold last_read. rewrite fold_left_app. reflexivity. Qed.
Lemma reach_last c : reach anyone c -> rreq (fst c) = last_read (tr (fst c)).
Proof.
  induction 1 as [|[u k] x [u' k'] R IH E U S]; [reflexivity|]. cbn [fst] in *. destruct x as [|r| | |]; cbn [step] in S.
  - destruct (alive u); [|discriminate S]. injection S as <- <-. cbn [log rreq tr]. rewrite last_snoc. reflexivity.
  - destruct (rreq u) as [id|] eqn:Q; [|discriminate S]. destruct r as [[|b l]|e]; [| |destruct (Z.eqb e EAGAIN)]; injection S as <- <-; cbn [log rreq tr]; rewrite ?last_snoc, Q; exact IH.
  - destruct (alive u); [|discriminate S]. injection S as <- <-. cbn [log rreq tr]. rewrite !last_snoc. exact IH.
  - destruct k as [|[]]; injection S as <- <-; exact IH.
  - destruct k as [|[]]; try (injection S as <- <-; exact IH). destruct (alive u); [|discriminate S]. injection S as <- <-. cbn [log rreq tr]. rewrite last_snoc. exact IH.
Qed.
(** Proved: data is reported to the handler of the last read request, exactly as
    the kernel delivered it. *)
Theorem C51_read_reports_partial : forall u r id, reach anyone (u, []) -> in_loop u = true -> last_read (tr u) = Some id -> r <> KErr EAGAIN ->
  exists u', step (u, []) (XReadable r) = Ret (u', [OUser]) /\ tr u' = tr u ++ [EvReadDone id match r with KRead [] => REof | KRead l => RData l | KErr e => RErr (- e)%Z end].
Proof.
  intros u r id R L Q N. pose proof (reach_last _ R) as H. cbn [fst] in H. rewrite Q in H. cbn [step]. rewrite H. destruct r as [[|b l]|e].
  - eexists. split; reflexivity.
  - eexists. split; reflexivity.
  - destruct (Z.eqb_spec e EAGAIN); [subst; contradiction|]. eexists. split; reflexivity.
Qed.
Print Assumptions C51_read_reports_partial.
(** When there is nothing to read, no handler is called and the request goes on. *)
Theorem C51_no_data_no_answer : forall u id, reach anyone (u, []) -> last_read (tr u) = Some id -> step (u, []) (XReadable (KErr EAGAIN)) = Ret (u, []).
Proof. intros u id R Q. pose proof (reach_last _ R) as H. cbn [fst] in H. rewrite Q in H. cbn [step]. rewrite H. reflexivity. Qed.
Print Assumptions C51_no_data_no_answer.
(** Refuted: one request can be answered any number of times, since the port is
    never unregistered; and data before the first request calls an
    uninitialised callback. *)
Lemma many_times n : exists u, reach anyone (u, []) /\ rreq u = Some 0%nat /\ in_loop u = true /\ count (is_read 0) (tr u) = 1%nat /\ count (is_read_done 0) (tr u) = n.
Proof.
  induction n as [|n (u & R & Q & L & C1 & C2)].
  - eexists. split; [apply (run_reach _ [XRead] uart_init); [apply reach_init|cbn; repeat split|reflexivity]|]. repeat split.
  - exists (log (EvReadDone 0 (RData [1])) u). split.
    + apply (run_reach _ [XReadable (KRead [1]); XReturn] (u, [])); [exact R| |]; cbn; rewrite Q; cbn; auto 10. repeat split; auto.
    + cbn [log rreq in_loop tr]. unfold count in *. rewrite !filter_app, !app_length, C1, C2. repeat split; try assumption. cbn. lia.
Qed.
Theorem C51_answered_many_times_refuted : forall n, exists u, reach anyone (u, []) /\ count (is_read 0) (tr u) = 1%nat /\ count (is_read_done 0) (tr u) = n.
Proof. intros n. destruct (many_times n) as (u & R & _ & _ & C1 & C2). exists u. auto. Qed.
Print Assumptions C51_answered_many_times_refuted.
Theorem C51_data_before_request_refuted : enabled uart_init (XReadable (KRead [1])) /\ step uart_init (XReadable (KRead [1])) = UB.
Proof. split; [cbn; auto|reflexivity]. Qed.
Print Assumptions C51_data_before_request_refuted.
(** * C52 *)
(** Refuted: cio_uart_close uses the port after its close hook, in every case. *)
Theorem C52_use_after_hook_refuted : forall u k, reach anyone (u, k) -> app_runs k = true -> alive u = true ->
  exists u' k', final (u, k) [XClose; XReturn] = Ret (u', k') /\ In EvHook (tr u') /\ enabled (u', k') XCont /\ step (u', k') XCont = UB.
Proof.
  intros u k R A AL. cbn [final step]. rewrite AL. cbn [negb]. do 2 eexists. split; [reflexivity|]. cbn [log tr]. rewrite !in_app_iff. cbn. tauto.
Qed.
Print Assumptions C52_use_after_hook_refuted.
