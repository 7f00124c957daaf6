(** C68: the stream of a serial port on Windows. *)
From Verif Require Import Base WinUart WinUartSpec.

Definition rok (s : st) : Prop :=
  match reading (tr s) with
  | RFree => kr s = KIdle /\ r_use s = 0
  | RBusy n sp => kr s = KPending /\ r_use s = 1 /\ rh s = Some n /\ rspace s = sp /\ 0 < sp
  | REnded n sp x => kr s = KQueued x /\ r_use s = 1 /\ rh s = Some n /\ closed (tr s) = aborted_r x /\ (forall bs, x = RData bs -> bs <> []) /\ x <> RTimeout
  end.
Definition wok (s : st) : Prop :=
  match writing (tr s) with
  | WFree => kw s = KIdle /\ w_use s = 0
  | WBusy n d => kw s = KPending /\ w_use s = 1 /\ wh s = Some n /\ wbuf s = d
  | WEnded n d x => kw s = KQueued x /\ w_use s = 1 /\ wh s = Some n /\ closed (tr s) = aborted_w x /\ (forall e, x = WErr e -> e = ERROR_OPERATION_ABORTED)
  end.
Record inv (s : st) (k : list op) : Prop := {
  i_alive : hooked (tr s) = negb (alive s);
  i_canc : cancelled s = closed (tr s);
  i_dead : alive s = false -> closed (tr s) = true /\ reading (tr s) = RFree /\ writing (tr s) = WFree;
  i_live : closed (tr s) = true -> reading (tr s) = RFree -> writing (tr s) = WFree -> alive s = false;
  i_r : rok s;
  i_w : wok s;
  i_num : fresh (nreq s) (tr s);
  i_law : lawful (tr s);
}.
Lemma gather_concat chain : forall buf, gather chain buf = buf ++ concat chain.
Proof. induction chain as [|e r IH]; intros buf; cbn; [rewrite app_nil_r; reflexivity|]. rewrite IH, app_assoc. reflexivity. Qed.
Lemma fresh_le a b l : a <= b -> fresh a l -> fresh b l.
Proof. intros L. apply Forall_impl. intros e H m E. specialize (H m E). lia. Qed.
Ltac fr N := constructor; [intros m [= <-]; lia|]; eapply fresh_le; [|exact N]; lia.
Ltac fr0 N := constructor; [discriminate|]; eapply fresh_le; [|exact N]; lia.
Lemma reading_num l n0 : fresh n0 l -> match reading l with RFree => True | RBusy n _ | REnded n _ _ => n < n0 end.
Proof.
  induction l as [|e l IH]; intros H; [exact I|]. inversion H as [|? ? H1 H2]; subst. specialize (IH H2).
  destruct e; cbn [reading]; try exact I; try exact IH; try (apply (H1 n); reflexivity). destruct (reading l); exact IH.
Qed.
Lemma writing_num l n0 : fresh n0 l -> match writing l with WFree => True | WBusy n _ | WEnded n _ _ => n < n0 end.
Proof.
  induction l as [|e l IH]; intros H; [exact I|]. inversion H as [|? ? H1 H2]; subst. specialize (IH H2).
  destruct e; cbn [writing]; try exact I; try exact IH; try (apply (H1 n); reflexivity). destruct (writing l); exact IH.
Qed.

(** try_free at the end of an operation or in close. *)
Lemma try_free_inv s k : alive s = true -> hooked (tr s) = false -> cancelled s = closed (tr s) -> closed (tr s) = true ->
  rok s -> wok s -> fresh (nreq s) (tr s) -> lawful (tr s) ->
  exists c, try_free s k = Ret c /\ inv (fst c) (snd c).
Proof.
  intros A HK CA CL R W N L. unfold try_free.
  destruct (Nat.eqb (r_use s) 0 && Nat.eqb (w_use s) 0) eqn:B.
  - apply andb_prop in B. destruct B as [B1 B2]. apply Nat.eqb_eq in B1, B2.
    assert (RF : reading (tr s) = RFree) by (unfold rok in R; destruct (reading (tr s)); [reflexivity| |]; decompose [and] R; congruence).
    assert (WF : writing (tr s) = WFree) by (unfold wok in W; destruct (writing (tr s)) as [|n t|n t x]; [reflexivity| |]; decompose [and] W; congruence).
    unfold rok in R. unfold wok in W. rewrite RF in R. rewrite WF in W.
    eexists. split; [reflexivity|]. split; cbn; auto.
    + unfold rok. cbn. rewrite RF. exact R.
    + unfold wok. cbn. rewrite WF. exact W.
    + fr0 N.
    + repeat split; auto.
  - eexists. split; [reflexivity|]. split; cbn [fst snd]; auto.
    + rewrite A. exact HK.
    + congruence.
    + intros _ RF WF. unfold rok in R. unfold wok in W. rewrite RF in R. rewrite WF in W. destruct R as [_ R]. destruct W as [_ W]. rewrite R, W in B. discriminate.
Qed.

Lemma step_inv s k x : inv s k -> enabled (s, k) x -> careful (s, k) x -> exists c, step (s, k) x = Ret c /\ inv (fst c) (snd c).
Proof.
  intros [IA IC ID IL IR IW IN LW] En Ca. pose proof (reading_num _ _ IN) as RN. pose proof (writing_num _ _ IN) as WN.
  assert (AL : closed (tr s) = false -> alive s = true) by (intros X; destruct (alive s) eqn:A; [reflexivity|]; destruct (ID eq_refl); congruence).
  destruct x as [sp err|chain err| |r|r| | |]; cbn [step enabled careful] in *.
  - destruct Ca as (CL & RF & SP). pose proof (AL CL) as A. unfold rok in IR. rewrite RF in IR. destruct IR as [KR RU]. unfold stream_read. rewrite A, KR. cbn [negb].
    destruct (Z.eqb_spec err 0) as [->|NZ]; (eexists; split; [reflexivity|]); (split; cbn [fst snd]; cbn; auto; try congruence).
    + fr IN.
    + repeat split; auto. rewrite IA, A. reflexivity.
    + unfold rok. cbn. rewrite RF. auto.
    + fr0 IN.
    + repeat split; auto; [rewrite IA, A; reflexivity|lia].
  - destruct Ca as (CL & WF). pose proof (AL CL) as A. unfold wok in IW. rewrite WF in IW. destruct IW as [KW WU]. unfold stream_write. rewrite A, KW. cbn [negb].
    rewrite gather_concat. cbn [app].
    destruct (Z.eqb_spec err 0) as [->|NZ]; (eexists; split; [reflexivity|]); (split; cbn [fst snd]; cbn; auto; try congruence).
    + fr IN.
    + repeat split; auto. rewrite IA, A. reflexivity.
    + unfold wok. cbn. rewrite WF. auto.
    + fr0 IN.
    + repeat split; auto; [rewrite IA, A; reflexivity|lia].
  - destruct Ca as (CL & RC & WC). pose proof (AL CL) as A. unfold close. rewrite A. cbn [negb].
    apply try_free_inv; cbn; auto.
    + rewrite IA, A. reflexivity.
    + unfold rok in *. cbn. destruct (reading (tr s)); try contradiction; exact IR.
    + unfold wok in *. cbn. destruct (writing (tr s)); try contradiction; exact IW.
    + fr0 IN.
    + repeat split; auto. rewrite IA, A. reflexivity.
  - destruct En as [KP En]. destruct Ca as [NT Ca].
    assert (RB : exists n sp, reading (tr s) = RBusy n sp) by (unfold rok in IR; destruct (reading (tr s)); try (decompose [and] IR; congruence); eauto).
    destruct RB as (n & sp & RB). unfold rok in IR. rewrite RB in IR. destruct IR as (_ & RU & RH & SP & PO).
    assert (A : alive s = true) by (destruct (alive s) eqn:A; [reflexivity|]; destruct (ID eq_refl) as (_ & X & _); congruence).
    assert (CA : closed (tr s) = aborted_r r).
    { destruct (closed (tr s)) eqn:CL; [symmetry; apply Ca; reflexivity|]. destruct r as [bs| |e]; try reflexivity. cbn. destruct (Z.eqb_spec e ERROR_OPERATION_ABORTED) as [E|E]; [|reflexivity]. destruct En as [_ En]. rewrite (En E) in IC. congruence. }
    eexists. split; [reflexivity|]. split; cbn [fst snd]; cbn; auto.
    + rewrite A. discriminate.
    + rewrite RB. discriminate.
    + unfold rok. cbn. rewrite RB. repeat split; auto. intros bs ->. intros ->. destruct En as [_ En]. rewrite (En eq_refl) in SP. lia.
    + fr0 IN.
    + repeat split; auto; [rewrite IA, A; reflexivity|]. exists n, sp. split; [exact RB|]. intros bs ->. rewrite <- SP. apply En.
  - destruct En as [KP En]. destruct Ca as [Ca CS].
    assert (WB : exists n d, writing (tr s) = WBusy n d) by (unfold wok in IW; destruct (writing (tr s)) as [|n t|n t x]; try (decompose [and] IW; congruence); eauto).
    destruct WB as (n & d & WB).
    assert (A : alive s = true) by (destruct (alive s) eqn:A; [reflexivity|]; destruct (ID eq_refl) as (_ & _ & X); congruence).
    assert (CA : closed (tr s) = aborted_w r).
    { destruct (closed (tr s)) eqn:CL; [symmetry; apply Ca; reflexivity|]. destruct r as [c|e]; try reflexivity. cbn. destruct (Z.eqb_spec e ERROR_OPERATION_ABORTED) as [E|E]; [|reflexivity]. destruct En as [_ En]. rewrite (En E) in IC. congruence. }
    unfold wok in IW. rewrite WB in IW. destruct IW as (_ & WU & WH & WD).
    eexists. split; [reflexivity|]. split; cbn [fst snd]; cbn; auto.
    + rewrite A. discriminate.
    + rewrite WB. discriminate.
    + unfold wok. cbn. rewrite WB. repeat split; auto. intros e ->. exact CS.
    + fr0 IN.
    + repeat split; auto; [rewrite IA, A; reflexivity|]. exists n, d. split; [exact WB|]. intros sent ->. rewrite <- WD. exact CS.
  - destruct En as (-> & r & KQ). rewrite KQ.
    assert (RE : exists n sp, reading (tr s) = REnded n sp r) by (unfold rok in IR; destruct (reading (tr s)) as [| |n sp x]; try (decompose [and] IR; congruence); destruct IR as [IR _]; rewrite IR in KQ; injection KQ as ->; eauto).
    destruct RE as (n & sp & RE). unfold rok in IR. rewrite RE in *. destruct IR as (_ & RU & RH & CA & NE & NT).
    assert (A : alive s = true) by (destruct (alive s) eqn:A; [reflexivity|]; destruct (ID eq_refl) as (_ & X & _); discriminate).
    assert (HK : hooked (tr s) = false) by (rewrite IA, A; reflexivity).
    unfold read_callback. rewrite A. cbn [negb rh set_r_use set_kr].
    assert (CALL : forall err data, aborted_r r = false -> Some (err, data) = read_result r ->
      exists c, match rh s with Some n => Ret (log (EvReadDone n err data) (set_r_use (pred (r_use s)) (set_kr KIdle s)), [OUser]) | None => UB end = Ret c /\ inv (fst c) (snd c)).
    { intros err data NA RR. rewrite RH. rewrite NA in CA. eexists. split; [reflexivity|]. split; cbn [fst snd]; cbn; auto; try congruence.
      - unfold rok. cbn. rewrite RU. auto.
      - fr IN.
      - repeat split; auto. eauto. }
    destruct r as [bs| |e].
    + destruct (Nat.eqb_spec (length bs) 0) as [Z|_]; [destruct bs; [destruct (NE [] eq_refl eq_refl)|discriminate]|]. apply CALL; reflexivity.
    + congruence.
    + cbn in CA, CALL. destruct (e =? ERROR_OPERATION_ABORTED)%Z eqn:AB.
      * apply try_free_inv; cbn; auto.
        -- unfold rok. cbn. rewrite RU. auto.
        -- fr0 IN.
        -- repeat split; auto. exists n, sp, (RErr e). auto.
      * apply CALL; reflexivity.
  - destruct En as (-> & r & KQ). rewrite KQ.
    assert (WE : exists n t, writing (tr s) = WEnded n t r) by (unfold wok in IW; destruct (writing (tr s)) as [|n t|n t x]; try (decompose [and] IW; congruence); destruct IW as [IW _]; rewrite IW in KQ; injection KQ as ->; eauto).
    destruct WE as (n & t & WE). unfold wok in IW. rewrite WE in *. destruct IW as (_ & WU & WH & CA & EA).
    assert (A : alive s = true) by (destruct (alive s) eqn:A; [reflexivity|]; destruct (ID eq_refl) as (_ & _ & X); discriminate).
    assert (HK : hooked (tr s) = false) by (rewrite IA, A; reflexivity).
    unfold write_callback. rewrite A. cbn [negb wh set_w_use set_kw].
    assert (CALL : forall err count, aborted_w r = false -> (err, count) = write_result r ->
        exists c, match wh s with Some n => Ret (log (EvWriteDone n err count) (set_w_use (pred (w_use s)) (set_kw KIdle s)), [OUser]) | None => UB end = Ret c /\ inv (fst c) (snd c)).
    { intros err count NA RR. rewrite WH. rewrite NA in CA. eexists. split; [reflexivity|]. split; cbn [fst snd]; cbn; auto; try congruence.
      - unfold wok. cbn. rewrite WU. auto.
      - fr IN.
      - repeat split; auto. eauto. }
    destruct r as [c|e]; [apply CALL; reflexivity|]. rewrite (EA e eq_refl) in *. cbn in CA, CALL. cbn [Z.eqb ERROR_OPERATION_ABORTED Pos.eqb].
    apply try_free_inv; cbn; auto.
    + unfold wok. cbn. rewrite WU. auto.
    + fr0 IN.
    + repeat split; auto. exists n, t, (WErr ERROR_OPERATION_ABORTED). auto.
  - eexists. split; [reflexivity|]. split; auto.
Qed.
Lemma start_inv : inv (fst start) (snd start).
Proof. split; cbn; auto; try discriminate; try (unfold rok, wok; cbn; auto; fail). constructor. Qed.
Lemma reach_inv s k : reach careful (s, k) -> inv s k.
Proof.
  intros R. remember (s, k) as c eqn:E. revert s k E. induction R as [|c x c' R IH En Ca St]; intros s k E; [injection E as <- <-; exact start_inv|].
  destruct c as [s0 k0]. destruct (step_inv s0 k0 x (IH _ _ eq_refl) En Ca) as (c1 & E1 & I). rewrite E1 in St. injection St as <-. subst c1. exact I.
Qed.
Lemma lawful_split l1 : forall e l0, lawful (l1 ++ e :: l0) -> allowed e l0 /\ lawful l0.
Proof. induction l1 as [|a l1 IH]; intros e l0 H; [exact H|]. apply IH, H. Qed.

Theorem C68_every_step_is_defined : forall s k x, reach careful (s, k) -> enabled (s, k) x -> careful (s, k) x -> exists c, step (s, k) x = Ret c.
Proof. intros s k x R En Ca. destruct (step_inv s k x (reach_inv s k R) En Ca) as (c & E & _). exists c. exact E. Qed.
Print Assumptions C68_every_step_is_defined.

(** The handler of a read is told how the kernel ended it; never after close. *)
Theorem C68_read_result : forall s k l1 n err data l0, reach careful (s, k) -> tr s = l1 ++ EvReadDone n err data :: l0 ->
  closed l0 = false /\ exists space r, reading l0 = REnded n space r /\ match r with RData bs => err = SUCCESS /\ data = bs | RErr e => err = (- e)%Z /\ data = [] | RTimeout => False end.
Proof.
  intros s k l1 n err data l0 R E. pose proof (i_law _ _ (reach_inv s k R)) as L. rewrite E in L. apply lawful_split in L. destruct L as [[_ (A & sp & r & B & C)] _].
  split; [exact A|]. exists sp, r. split; [exact B|]. destruct r; cbn in C; try discriminate; injection C as -> ->; auto.
Qed.
Print Assumptions C68_read_result.
(** The handler of a write is told how many bytes went over the line, and these are the first bytes of what was to be written. *)
Theorem C68_write_result : forall s k l1 n err count l0, reach careful (s, k) -> tr s = l1 ++ EvWriteDone n err count :: l0 ->
  closed l0 = false /\ exists data r, writing l0 = WEnded n data r /\ match r with WOk sent => err = SUCCESS /\ count = length sent /\ exists rest, data = sent ++ rest | WErr e => err = (- e)%Z /\ count = 0 end.
Proof.
  intros s k l1 n err count l0 R E. pose proof (i_law _ _ (reach_inv s k R)) as L. rewrite E in L. apply lawful_split in L. destruct L as [[_ (A & d & x & B & C)] L].
  split; [exact A|]. exists d, x. split; [exact B|]. assert (P : forall sent, x = WOk sent -> prefix sent d).
  { clear - B L. induction l0 as [|e l IH]; [discriminate|]. destruct L as [[_ AL] L]. destruct e; cbn in B; try discriminate; try (apply IH; assumption).
    destruct (writing l) as [|m d'|m d' y] eqn:W; try discriminate; [injection B as <- <- <-|apply IH; assumption]. destruct AL as [(m' & d2 & W2 & AL) CL]. injection W2 as <- <-. exact AL. }
  destruct x as [sent|e]; cbn in C; injection C as -> ->; [|auto]. split; [reflexivity|]. split; [reflexivity|]. exact (P sent eq_refl).
Qed.
Print Assumptions C68_write_result.

(** A request is answered at most once. *)
Definition answers (n : nat) (e : ev) : Prop := match e with EvReadDone m _ _ | EvWriteDone m _ _ => m = n | _ => False end.
Definition asks (n : nat) (e : ev) : Prop := match e with EvRead m _ | EvWrite m _ => m = n | _ => False end.
Definition asksb (n : nat) (e : ev) : bool := match e with EvRead m _ | EvWrite m _ => Nat.eqb m n | _ => false end.
Definition answersb (n : nat) (e : ev) : bool := match e with EvReadDone m _ _ | EvWriteDone m _ _ => Nat.eqb m n | _ => false end.
Definition count (f : ev -> bool) (l : list ev) : nat := length (filter f l).
Definition refr (n : nat) (l : list ev) : Prop := match reading l with RBusy m _ | REnded m _ _ => m = n | _ => False end.
Definition refw (n : nat) (l : list ev) : Prop := match writing l with WBusy m _ | WEnded m _ _ => m = n | _ => False end.
Lemma fresh_count n l : fresh n l -> count (asksb n) l = 0 /\ count (answersb n) l = 0.
Proof.
  intros F. induction F as [|e l H F [IH1 IH2]]; [split; reflexivity|]. unfold count in *. cbn [filter].
  assert (X : asksb n e = false /\ answersb n e = false) by (split; (destruct e; cbn; try reflexivity); (apply Nat.eqb_neq; intros ->; specialize (H n eq_refl); lia)).
  destruct X as [-> ->]. auto.
Qed.
Lemma counts l : lawful l -> forall n, count (asksb n) l <= 1 /\ count (answersb n) l <= count (asksb n) l /\
  (refr n l -> count (asksb n) l = 1 /\ count (answersb n) l = 0 /\ ~ refw n l) /\ (refw n l -> count (asksb n) l = 1 /\ count (answersb n) l = 0).
Proof.
  induction l as [|e l IH]; intros L n; [cbn; unfold refr, refw; cbn; lia|]. destruct L as [[_ A] L]. specialize (IH L n). destruct IH as (I1 & I2 & I3 & I4).
  unfold count in *. cbn [filter]. unfold refr, refw in *. destruct e as [m sp|m t|res|x|x|m err d|m err c| | | |]; cbn [asksb answersb reading writing allowed] in *.
  - destruct A as (_ & RF & F). pose proof (fresh_count _ _ F) as [F1 F2]. unfold count in F1, F2. destruct (Nat.eqb_spec m n) as [->|NE]; cbn [length].
    + repeat split; try lia. destruct (writing l) as [|w t|w t x]; try tauto; intros X; destruct (I4 X) as (Y1 & _); lia.
    + repeat split; try lia; try (intros ->; congruence); tauto.
  - destruct A as (_ & WF & F). pose proof (fresh_count _ _ F) as [F1 F2]. unfold count in F1, F2. destruct (Nat.eqb_spec m n) as [->|NE]; cbn [length].
    + split; [lia|]. split; [lia|]. split; [|lia]. destruct (reading l) as [|w sp|w sp x]; try tauto; intros X; destruct (I3 X) as (Y1 & _); lia.
    + split; [lia|]. split; [lia|]. split; [|intros ->; congruence]. rewrite WF in I3. intros X. destruct (I3 X) as (Y1 & Y2 & _). auto.
  - auto.
  - destruct A as ((m & sp & E & _) & _). rewrite E in *. auto.
  - destruct A as ((m & t & E & _) & _). rewrite E in *. auto.
  - destruct A as (_ & sp & x & E & _). rewrite E in *. destruct (Nat.eqb_spec m n) as [->|NE]; cbn [length].
    + destruct (I3 eq_refl) as (Y1 & Y2 & Y3). split; [lia|]. split; [lia|]. split; [tauto|]. tauto.
    + split; [lia|]. split; [lia|]. split; [tauto|exact I4].
  - destruct A as (_ & t & x & E & _). rewrite E in *. destruct (Nat.eqb_spec m n) as [->|NE]; cbn [length].
    + destruct (I4 eq_refl) as (Y1 & Y2). split; [lia|]. split; [lia|]. split; [|tauto]. intros X. destruct (I3 X) as (_ & _ & Y3). destruct (Y3 eq_refl).
    + split; [lia|]. split; [lia|]. split; [|tauto]. intros X. destruct (I3 X) as (Z1 & Z2 & _). auto.
  - split; [lia|]. split; [lia|]. split; [tauto|exact I4].
  - split; [lia|]. split; [lia|]. split; [|tauto]. intros X. destruct (I3 X) as (Z1 & Z2 & _). auto.
  - auto.
  - auto.
Qed.
Lemma count_in f l : (exists e, In e l /\ f e = true) <-> 0 < count f l.
Proof.
  unfold count. split.
  - intros (e & X & Y). assert (Z : In e (filter f l)) by (apply filter_In; auto). destruct (filter f l); [destruct Z|cbn; lia].
  - intros H. destruct (filter f l) as [|e r] eqn:E; [cbn in H; lia|]. exists e. apply filter_In. rewrite E. left. reflexivity.
Qed.
Lemma answersb_ok n e : answersb n e = true <-> answers n e.
Proof. destruct e; cbn; try (split; [discriminate|contradiction]); apply Nat.eqb_eq. Qed.
Lemma asksb_ok n e : asksb n e = true <-> asks n e.
Proof. destruct e; cbn; try (split; [discriminate|contradiction]); apply Nat.eqb_eq. Qed.
Lemma lawful_app l1 l0 : lawful (l1 ++ l0) -> lawful l0.
Proof. induction l1 as [|a l1 IH]; [auto|]. intros [_ H]. apply IH, H. Qed.
Theorem C68_answered_at_most_once : forall s k l1 n e l0, reach careful (s, k) -> tr s = l1 ++ e :: l0 -> answers n e ->
  (exists q, In q l0 /\ asks n q) /\ (forall e', In e' l0 \/ In e' l1 -> ~ answers n e').
Proof.
  intros s k l1 n e l0 R E A. pose proof (i_law _ _ (reach_inv s k R)) as L. rewrite E in L. pose proof (counts _ L n) as (C1 & C2 & _).
  pose proof (counts _ (lawful_app _ _ L) n) as (D1 & D2 & _).
  assert (AB : answersb n e = true) by (apply answersb_ok; exact A). assert (QB : asksb n e = false) by (destruct e; cbn in A; try contradiction; reflexivity).
  unfold count in *. repeat rewrite filter_app in C1; repeat rewrite filter_app in C2. repeat rewrite app_length in C1; repeat rewrite app_length in C2. cbn [filter] in *. rewrite AB, QB in *. cbn [length] in *.
  split.
  - assert (X : 0 < count (asksb n) l0) by (unfold count; lia). apply count_in in X. destruct X as (q & X & Y). exists q. split; [exact X|]. apply asksb_ok. exact Y.
  - intros e' X Y. apply answersb_ok in Y. destruct X as [X|X]; [assert (Z : 0 < count (answersb n) l0) by (apply count_in; eauto)|assert (Z : 0 < count (answersb n) l1) by (apply count_in; eauto)]; unfold count in Z; lia.
Qed.
Print Assumptions C68_answered_at_most_once.

(** No request is forgotten: it is in the kernel, or its completion is in the queue of the event loop. *)
Theorem C68_not_forgotten : forall s k, reach careful (s, k) ->
  match reading (tr s) with RBusy _ _ => kr s = KPending | REnded _ _ r => kr s = KQueued r | RFree => kr s = KIdle end /\
  match writing (tr s) with WBusy _ _ => kw s = KPending | WEnded _ _ r => kw s = KQueued r | WFree => kw s = KIdle end.
Proof.
  intros s k R. pose proof (reach_inv s k R) as I. pose proof (i_r _ _ I) as IR. pose proof (i_w _ _ I) as IW. unfold rok in IR. unfold wok in IW.
  split; [destruct (reading (tr s)); tauto|destruct (writing (tr s)) as [|n t|n t x]; tauto].
Qed.
Print Assumptions C68_not_forgotten.

(** After close no handler is called; the close hook is called once, as soon as the kernel has given back both operations, and
    is the last event. *)
Theorem C68_hook_is_last : forall s k l1 l0, reach careful (s, k) -> tr s = l1 ++ EvHook :: l0 -> l1 = [] /\ closed l0 = true /\ reading l0 = RFree /\ writing l0 = WFree.
Proof.
  intros s k l1 l0 R E. pose proof (i_law _ _ (reach_inv s k R)) as L. rewrite E in L.
  split; [|apply lawful_split in L; destruct L as [[_ A] _]; exact A].
  destruct l1 as [|e l1]; [reflexivity|]. exfalso. cbn [app lawful] in L. destruct L as [[H _] _].
  assert (X : hooked (l1 ++ EvHook :: l0) = true) by (clear; induction l1 as [|e l1 IH]; [reflexivity|]; destruct e; try exact IH; reflexivity). congruence.
Qed.
Print Assumptions C68_hook_is_last.
Theorem C68_hook_is_called : forall s k, reach careful (s, k) -> closed (tr s) = true -> kr s = KIdle -> kw s = KIdle -> hooked (tr s) = true.
Proof.
  intros s k R CL K1 K2. pose proof (reach_inv s k R) as I. destruct (C68_not_forgotten s k R) as [N1 N2]. rewrite (i_alive _ _ I).
  rewrite (i_live _ _ I CL); [reflexivity| |].
  - destruct (reading (tr s)); [reflexivity| |]; congruence.
  - destruct (writing (tr s)); [reflexivity| |]; congruence.
Qed.
Print Assumptions C68_hook_is_called.
Theorem C68_nothing_after_close : forall s k l1 e l0, reach careful (s, k) -> tr s = l1 ++ e :: l0 -> closed l0 = true ->
  match e with EvReadEnd r => aborted_r r = true | EvWriteEnd r => aborted_w r = true | EvReadVoid | EvWriteVoid | EvHook | EvRefused _ => True | _ => False end.
Proof.
  intros s k l1 e l0 R E CL. pose proof (i_law _ _ (reach_inv s k R)) as L. rewrite E in L. apply lawful_split in L. destruct L as [[_ A] _].
  destruct e; cbn in A; rewrite ?CL in A; try exact I; try (decompose [and ex] A; congruence); destruct A; congruence.
Qed.
Print Assumptions C68_nothing_after_close.

(** Until close the application receives exactly the bytes that the kernel delivered, in order. *)
Definition received (l : list ev) : list N := concat (map (fun e => match e with EvReadEnd (RData bs) => bs | _ => [] end) (rev l)).
Definition delivered (l : list ev) : list N := concat (map (fun e => match e with EvReadDone _ _ d => d | _ => [] end) (rev l)).
Definition waiting (l : list ev) : list N := match reading l with REnded _ _ (RData bs) => bs | _ => [] end.
Lemma received_cons e l : received (e :: l) = received l ++ match e with EvReadEnd (RData bs) => bs | _ => [] end.
Proof. unfold received. cbn [rev]. rewrite map_app, concat_app. cbn. rewrite app_nil_r. reflexivity. Qed.
Lemma delivered_cons e l : delivered (e :: l) = delivered l ++ match e with EvReadDone _ _ d => d | _ => [] end.
Proof. unfold delivered. cbn [rev]. rewrite map_app, concat_app. cbn. rewrite app_nil_r. reflexivity. Qed.
Theorem C68_nothing_lost : forall s k, reach careful (s, k) -> received (tr s) = delivered (tr s) ++ waiting (tr s).
Proof.
  intros s k R. pose proof (i_law _ _ (reach_inv s k R)) as L. clear R. induction (tr s) as [|e l IH]; [reflexivity|]. destruct L as [[_ A] L]. specialize (IH L).
  rewrite received_cons, delivered_cons, IH. unfold waiting in *. destruct e; cbn [reading allowed] in *; rewrite ?app_nil_r; try reflexivity.
  - destruct A as (_ & -> & _). rewrite app_nil_r. reflexivity.
  - destruct A as ((n & sp & E & _) & _). rewrite E. rewrite app_nil_r. destruct r; reflexivity.
  - destruct A as (_ & sp & x & E & Q). rewrite E. destruct x; cbn in Q; try discriminate; injection Q as -> ->; rewrite ?app_nil_r; reflexivity.
  - destruct A as (_ & n & sp & x & E & Q). rewrite E. destruct x; try discriminate. rewrite app_nil_r. reflexivity.
Qed.
Print Assumptions C68_nothing_lost.

(** Everything that goes over the line is, in order, a part of each write from its beginning. *)
Definition on_line (l : list ev) : list (list N) := concat (map (fun e => match e with EvWriteEnd (WOk sent) => [sent] | _ => [] end) (rev l)).
Definition asked (l : list ev) : list (list N) := concat (map (fun e => match e with EvWrite _ d => [d] | _ => [] end) (rev l)).
Lemma on_line_cons e l : on_line (e :: l) = on_line l ++ match e with EvWriteEnd (WOk sent) => [sent] | _ => [] end.
Proof. unfold on_line. cbn [rev]. rewrite map_app, concat_app. cbn. rewrite app_nil_r. reflexivity. Qed.
Lemma asked_cons e l : asked (e :: l) = asked l ++ match e with EvWrite _ d => [d] | _ => [] end.
Proof. unfold asked. cbn [rev]. rewrite map_app, concat_app. cbn. rewrite app_nil_r. reflexivity. Qed.
Definition failed_last (l : list ev) : Prop := Forall (fun e => match e with EvWriteEnd (WErr _) => False | _ => True end) l.
Theorem C68_bytes_on_the_line : forall s k, reach careful (s, k) -> closed (tr s) = false -> failed_last (tr s) ->
  match writing (tr s) with
  | WBusy _ d => exists before, asked (tr s) = before ++ [d] /\ Forall2 prefix (on_line (tr s)) before
  | _ => Forall2 prefix (on_line (tr s)) (asked (tr s))
  end.
Proof.
  intros s k R CL FL. pose proof (i_law _ _ (reach_inv s k R)) as L. clear R. induction (tr s) as [|e l IH]; [constructor|]. destruct L as [[_ A] L].
  assert (CL' : closed l = false) by (destruct e; cbn in CL; (exact CL || discriminate)). inversion FL as [|? ? F1 F2]; subst. specialize (IH CL' F2 L).
  rewrite on_line_cons, asked_cons. destruct e as [m sp|m t|res|x|x|m err d|m err c| | | |]; cbn [writing allowed] in *; rewrite ?app_nil_r; try exact IH.
  - destruct A as (_ & W & _). rewrite W in IH. exists (asked l). auto.
  - destruct A as ((n & d & W & P) & _). rewrite W in *. destruct IH as (b & -> & F). destruct x as [sent|e]; [|destruct F1]. apply Forall2_app; [exact F|]. constructor; [apply P; reflexivity|constructor].
  - destruct A as (_ & d & x & W & _). rewrite W in IH. exact IH.
  - destruct A as (C & _). congruence.
Qed.
Print Assumptions C68_bytes_on_the_line.

(** * Concrete runs *)
Definition prefixb (p l : list N) : bool := if list_eq_dec N.eq_dec p (firstn (length p) l) then true else false.
Lemma prefixb_ok p l : prefixb p l = true -> prefix p l.
Proof. unfold prefixb. destruct (list_eq_dec N.eq_dec p (firstn (length p) l)) as [E|]; [|discriminate]. intros _. exists (skipn (length p) l). rewrite E at 1. symmetry. apply firstn_skipn. Qed.
Definition enabledb (c : conf) (x : act) : bool :=
  let '(s, k) := c in
  match x with
  | XRead _ err | XWrite _ err => (0 <=? err)%Z
  | XClose => true
  | XReadEnd r => match kr s with KPending => true | _ => false end &&
      match r with RData bs => Nat.leb (length bs) (rspace s) && (negb (Nat.eqb (length bs) 0) || Nat.eqb (rspace s) 0) | RTimeout => true | RErr e => (0 <? e)%Z && (negb (e =? ERROR_OPERATION_ABORTED)%Z || cancelled s) end
  | XWriteEnd r => match kw s with KPending => true | _ => false end && match r with WOk sent => Nat.leb (length sent) (length (wbuf s)) | WErr e => (0 <? e)%Z && (negb (e =? ERROR_OPERATION_ABORTED)%Z || cancelled s) end
  | XReadEvent => match k, kr s with [], KQueued _ => true | _, _ => false end
  | XWriteEvent => match k, kw s with [], KQueued _ => true | _, _ => false end
  | XReturn => match k with OUser :: _ => true | _ => false end
  end.
Lemma abort_ok s e : (0 <? e)%Z && (negb (e =? ERROR_OPERATION_ABORTED)%Z || cancelled s) = true -> code e /\ (e = ERROR_OPERATION_ABORTED -> cancelled s = true).
Proof. intros H. apply andb_prop in H. destruct H as [H1 H2]. apply Z.ltb_lt in H1. split; [exact H1|]. intros ->. exact H2. Qed.
Lemma enabledb_ok c x : enabledb c x = true -> enabled c x.
Proof.
  destruct c as [s k]. destruct x as [sp err|t err| |r|r| | |]; cbn; intros H.
  - split; [exact I|apply Z.leb_le, H].
  - split; [exact I|apply Z.leb_le, H].
  - exact I.
  - apply andb_prop in H. destruct H as [H1 H2]. split; [destruct (kr s); (discriminate || reflexivity)|]. destruct r as [bs| |e]; [|exact I|exact (abort_ok _ _ H2)].
    apply andb_prop in H2. destruct H2 as [H2 H3]. apply Nat.leb_le in H2. split; [exact H2|]. intros ->. cbn in H3. apply Nat.eqb_eq in H3. exact H3.
  - apply andb_prop in H. destruct H as [H1 H2]. split; [destruct (kw s); (discriminate || reflexivity)|]. destruct r as [c|e]; [apply Nat.leb_le, H2|exact (abort_ok _ _ H2)].
  - destruct k; [|discriminate]. destruct (kr s); try discriminate. eauto.
  - destruct k; [|discriminate]. destruct (kw s); try discriminate. eauto.
  - destruct k as [|[] k]; (discriminate || exact I).
Qed.
Definition carefulb (c : conf) (x : act) : bool :=
  let '(s, k) := c in
  let l := tr s in
  match x with
  | XRead sp _ => negb (closed l) && match reading l with RFree => Nat.ltb 0 sp | _ => false end
  | XWrite _ _ => negb (closed l) && match writing l with WFree => true | _ => false end
  | XClose => negb (closed l) && match reading l with REnded _ _ _ => false | _ => true end && match writing l with WEnded _ _ _ => false | _ => true end
  | XReadEnd r => match r with RTimeout => false | _ => true end && (negb (closed l) || aborted_r r)
  | XWriteEnd r => (negb (closed l) || aborted_w r) && match r with WOk sent => prefixb sent (wbuf s) | WErr e => (e =? ERROR_OPERATION_ABORTED)%Z end
  | _ => true
  end.
Lemma carefulb_ok c x : carefulb c x = true -> careful c x.
Proof.
  destruct c as [s k]. destruct x as [sp err|t err| |r|r| | |]; cbn; intros H; auto.
  - apply andb_prop in H. destruct H as [H1 H2]. apply negb_true_iff in H1. destruct (reading (tr s)); try discriminate. destruct sp; [discriminate|]. repeat split; auto; lia.
  - apply andb_prop in H. destruct H as [H1 H2]. apply negb_true_iff in H1. destruct (writing (tr s)); try discriminate. auto.
  - apply andb_prop in H. destruct H as [H H3]. apply andb_prop in H. destruct H as [H1 H2]. apply negb_true_iff in H1. split; [exact H1|]. split.
    + destruct (reading (tr s)); (discriminate || exact I).
    + destruct (writing (tr s)); (discriminate || exact I).
  - apply andb_prop in H. destruct H as [H1 H2]. split; [intros ->; discriminate|]. intros E. rewrite E in H2. exact H2.
  - apply andb_prop in H. destruct H as [H1 H2]. split; [intros E; rewrite E in H1; exact H1|]. destruct r; [apply prefixb_ok, H2|apply Z.eqb_eq, H2].
Qed.
Fixpoint run (u : conf -> act -> bool) (c : conf) (l : list act) : option conf :=
  match l with
  | [] => Some c
  | x :: r => if enabledb c x && u c x then match step c x with Ret c' => run u c' r | UB => None end else None
  end.
Lemma run_reach u (P : conf -> act -> Prop) l : (forall c x, u c x = true -> P c x) -> forall c c', reach P c -> run u c l = Some c' -> reach P c'.
Proof.
  intros HU. induction l as [|x l IH]; intros c c' R E; cbn in E; [injection E as <-; exact R|].
  destruct (enabledb c x && u c x) eqn:B; [|discriminate]. apply andb_prop in B. destruct B as [B1 B2]. destruct (step c x) as [c1|] eqn:St; [|discriminate].
  eapply IH; [|exact E]. eapply reach_step; [exact R|apply enabledb_ok, B1|apply HU, B2|exact St].
Qed.
Definition anyone (c : conf) (x : act) : Prop := True.
Definition free (c : conf) (x : act) : bool := true.
Ltac at_run u l := match goal with |- exists s k, reach ?P (s, k) /\ _ =>
  let E := fresh "E" in destruct (run u start l) as [[? ?]|] eqn:E; [|vm_compute in E; discriminate E]; match type of E with _ = Some (?a, ?b) => exists a, b; split;
    [eapply run_reach; [|apply reach_init|exact E]; first [exact carefulb_ok|exact (fun _ _ _ => I)]|vm_compute in E; injection E as <- <-] end end.

(** Non-vacuity: a read and a write at the same time that end in the other order, a partial write, close with both pending; the
    hook comes with the second aborted completion. *)
Example line : exists s k, reach careful (s, k) /\ k = [] /\
  rev (tr s) = [EvRead 0 8; EvWrite 1 [1;2;3]%N; EvWriteEnd (WOk [1;2]%N); EvReadEnd (RData [7;8]%N); EvReadDone 0 SUCCESS [7;8]%N; EvRead 2 8; EvWriteDone 1 SUCCESS 2; EvWrite 3 [3]%N;
    EvClose; EvReadEnd (RErr 995); EvWriteEnd (WErr 995); EvReadVoid; EvWriteVoid; EvHook].
Proof.
  at_run carefulb [XRead 8 0; XWrite [[1];[2;3]]%N 0; XWriteEnd (WOk [1;2]%N); XReadEnd (RData [7;8]%N); XReadEvent; XRead 8 0; XReturn; XWriteEvent; XWrite [[3]]%N 0; XReturn;
    XClose; XReadEnd (RErr 995); XWriteEnd (WErr 995); XReadEvent; XWriteEvent; XReturn].
  repeat split.
Qed.

(** VIOLATED: the buffer of a write is freed as soon as the write was started: a driver that sends later sends anything, and
    the handler is told that all is well. *)
Theorem C68_buffer_freed_refuted : exists s k, reach anyone (s, k) /\ k = [] /\ rev (tr s) = [EvWrite 0 [1;2]%N; EvWriteEnd (WOk [9;9]%N); EvWriteDone 0 SUCCESS 2].
Proof. at_run free [XWrite [[1;2]]%N 0; XWriteEnd (WOk [9;9]%N); XWriteEvent; XReturn]. repeat split. Qed.
Print Assumptions C68_buffer_freed_refuted.
(** VIOLATED: an error of a write is reported with the wrong sign: as a positive number; ERROR_INVALID_FUNCTION, which is 1, as
    the end of the stream. *)
Theorem C68_write_error_refuted : (forall e, (0 < e)%Z -> e <> ERROR_OPERATION_ABORTED -> exists s k, reach anyone (s, k) /\ rev (tr s) = [EvWrite 0 [1]%N; EvWriteEnd (WErr e); EvWriteDone 0 e 0]) /\
  (exists s k, reach anyone (s, k) /\ rev (tr s) = [EvWrite 0 [1]%N; EvWriteEnd (WErr 1); EvWriteDone 0 CIO_EOF 0]).
Proof.
  split.
  - intros e P NE. eexists. exists [OUser]. split.
    + eapply reach_step with (x := XWriteEvent); [eapply reach_step with (x := XWriteEnd (WErr e)); [eapply reach_step with (x := XWrite [[1]]%N 0); [apply reach_init| | |reflexivity]| | |reflexivity]| | |].
      * cbn. split; [exact I|lia].
      * exact I.
      * cbn. repeat split; [exact P|]. intros X. contradiction.
      * exact I.
      * cbn. split; [reflexivity|eauto].
      * exact I.
      * cbn [step kw set_kw log]. unfold write_callback. cbn [negb alive set_kw log]. destruct (Z.eqb_spec e ERROR_OPERATION_ABORTED) as [X|X]; [contradiction|]. rewrite Z.opp_involutive. reflexivity.
    + reflexivity.
  - at_run free [XWrite [[1]]%N 0; XWriteEnd (WErr 1); XWriteEvent]. repeat split.
Qed.
Print Assumptions C68_write_error_refuted.
(** VIOLATED: a line that is idle for 2^32 - 2 ms, or a read into a full buffer, is reported as the end of the stream. *)
Theorem C68_idle_line_refuted : exists s k, reach anyone (s, k) /\ rev (tr s) = [EvRead 0 8; EvReadEnd RTimeout; EvReadDone 0 CIO_EOF []].
Proof. at_run free [XRead 8 0; XReadEnd RTimeout; XReadEvent]. repeat split. Qed.
Print Assumptions C68_idle_line_refuted.
Theorem C68_full_buffer_refuted : exists s k, reach anyone (s, k) /\ rev (tr s) = [EvRead 0 0; EvReadEnd (RData []); EvReadDone 0 CIO_EOF []].
Proof. at_run free [XRead 0 0; XReadEnd (RData []); XReadEvent]. repeat split. Qed.
Print Assumptions C68_full_buffer_refuted.
(** VIOLATED: closed when the completion of a read is in the queue already: the read handler is called after close, and the
    close hook is never called - nothing is in the kernel or in the queue - and the handle stays open. *)
Theorem C68_close_race_refuted : exists s k, reach anyone (s, k) /\ k = [] /\ rev (tr s) = [EvRead 0 8; EvReadEnd (RData [1]%N); EvClose; EvReadDone 0 SUCCESS [1]%N] /\ kr s = KIdle /\ kw s = KIdle.
Proof. at_run free [XRead 8 0; XReadEnd (RData [1]%N); XClose; XReadEvent; XReturn]. repeat split. Qed.
Print Assumptions C68_close_race_refuted.
