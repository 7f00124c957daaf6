(** Valid streams are accepted: with a working transport, no closing, and texts
    that are plain ASCII, no error is ever raised, so everything is delivered. *)
From Verif Require Import Base Utf8Model Utf8Spec Utf8Proofs MaskModel MaskSpec EndianModel EndianSpec
  WsModel WsFrame WsSendProofs WsRecvSpec WsDecode WsTrace WsRecvProofs WsRecvReach WsVerdict WsHistory WsFrameSpec WsCodec.
Open Scope N_scope.

(** The transport works: writes are accepted and complete without error, reads
    bring data. *)
Definition write_works (ch : choice) : Prop :=
  match ch_write ch with WPending => True | WSync e => e = CIO_SUCCESS | WErr _ => False end.
Definition transport_works (x : act) : Prop :=
  match x with
  | XOp ch | XApi _ ch => write_works ch
  | XFire f ch => write_works ch /\ match f with FData _ _ => True | FErr _ => False end
  | XWritten err => err = CIO_SUCCESS
  | XTimer _ => True
  end.
Definition no_close_call (x : act) : Prop := match x with XApi (AClose _ _ _) _ => False | _ => True end.
Definition undisturbed (c : conf) (x : act) : Prop := one_read_at_a_time c x /\ transport_works x /\ no_close_call x.

(** What was asked for arrives in one piece: in particular, the payload of a
    frame is delivered as one chunk. *)
Definition whole (c : conf) (x : act) : Prop :=
  match x with
  | XFire (FData _ view) _ => forall rq, rd (fst c) = Some rq -> rq_n rq <= N.of_nat (length view)
  | _ => True
  end.
(** Every text byte is ASCII. *)
Definition ascii_only (l : list out) : Prop := Forall (fun o => match o with OutByte false _ _ b => b < 128 | _ => True end) l.
(** No close frame; every complete text is well-formed, an incomplete one can be completed. *)
Definition no_close (l : list out) : Prop := forall x, ~ In (OutControl 8 x) l.
Definition good_texts (l : list out) : Prop := Forall utf8_well_formed (complete_texts l) /\ utf8_prefix (current_text l).

Lemma reach_mono C (P Q : conf -> act -> Prop) c : (forall c x, P c x -> Q c x) -> reach C P c -> reach C Q c.
Proof. intros H R. induction R; [apply reach_init; assumption|eapply reach_step; eauto]. Qed.

Lemma drun_ascii l : Forall (fun b => b < 128) l -> drun 0 l = 0.
Proof.
  intros H. apply drun_accept. exists l. split.
  - eapply Forall_impl; [|exact H]. intros b Hb. left. cbn in Hb. lia.
  - induction H as [|b l Hb Hl IH]; [reflexivity|]. cbn [flat_map]. rewrite <- IH. unfold utf8_encode.
    change 0x80 with 128. destruct (N.ltb_spec b 128); [reflexivity|lia].
Qed.

Lemma texts_app l : forall cur l', texts cur (l ++ l') = (fst (texts cur l) ++ fst (texts (snd (texts cur l)) l'), snd (texts (snd (texts cur l)) l')).
Proof.
  induction l as [|o l IH]; intros cur l'; cbn [app texts]; [cbn [fst snd app]; destruct (texts cur l'); reflexivity|].
  destruct o as [[|] f n b|[|] [|] n|kd pl]; try apply IH. rewrite IH. destruct (texts [] l). reflexivity.
Qed.
Lemma texts_bytes f n x : forall cur l, texts cur (map (OutByte false f n) x ++ l) = texts (cur ++ x) l.
Proof.
  induction x as [|b x IH]; intros cur l; cbn [map app texts]; [rewrite app_nil_r; reflexivity|]. rewrite IH, <- app_assoc. reflexivity.
Qed.
Lemma texts_cur l : forall cur, exists e, (fst (texts cur l) = [] /\ snd (texts cur l) = cur ++ e) \/ exists d, fst (texts cur l) = (cur ++ e) :: d.
Proof.
  induction l as [|o l IH]; intros cur; cbn [texts]; [exists []; left; rewrite app_nil_r; split; reflexivity|].
  destruct o as [[|] f n b|[|] [|] n|kd pl]; try apply IH.
  - destruct (IH (cur ++ [b])) as [e E]. rewrite <- app_assoc in E. exists ([b] ++ e). exact E.
  - exists []. right. destruct (texts [] l) as [d c]. exists d. rewrite app_nil_r. reflexivity.
Qed.
Lemma utf8_prefix_app a b : utf8_prefix (a ++ b) -> utf8_prefix a.
Proof. intros [r H]. exists (b ++ r). rewrite app_assoc. exact H. Qed.

(** In a stream of good texts, what has arrived of the current one can be completed. *)
Lemma good_texts_prefix l f n x l' : good_texts (l ++ map (OutByte false f n) x ++ l') -> utf8_prefix (current_text l ++ x).
Proof.
  intros [G1 G2]. unfold complete_texts, current_text in *. rewrite texts_app in G1, G2. cbn [fst snd] in *. rewrite texts_bytes in G1, G2.
  apply Forall_app in G1. destruct G1 as [_ G1]. destruct (texts_cur l' (snd (texts [] l) ++ x)) as [e [[E1 E2] | [d E]]].
  - rewrite E2 in G2. eapply utf8_prefix_app; exact G2.
  - rewrite E in G1. inversion G1 as [|? ? W _]; subst. apply (utf8_prefix_app _ e). exists []. rewrite app_nil_r. exact W.
Qed.
Lemma good_texts_end l n x l' : good_texts (l ++ map (OutByte false true n) x ++ OutEnd false true n :: l') -> utf8_well_formed (current_text l ++ x).
Proof.
  intros [G1 _]. unfold complete_texts, current_text in *. rewrite texts_app in G1. cbn [fst] in *. rewrite texts_bytes in G1.
  apply Forall_app in G1. destruct G1 as [_ G1]. cbn [texts] in G1. destruct (texts [] l'). inversion G1; assumption.
Qed.
Lemma texts_ascii l : ascii_only l -> forall cur, Forall (fun b => b < 128) cur -> Forall (fun b => b < 128) (snd (texts cur l)).
Proof.
  intros H. induction H as [|o l Ho Hl IH]; intros cur Hc; [exact Hc|]. cbn [texts].
  destruct o as [[|] f n b|[|] [|] n|kd pl]; try (apply IH; assumption).
  - apply IH. apply Forall_app. split; [exact Hc|constructor; [exact Ho|constructor]].
  - specialize (IH [] (Forall_nil _)). destruct (texts [] l). exact IH.
Qed.
Lemma good_texts_app l l' : good_texts (l ++ l') -> utf8_prefix (current_text l).
Proof. intros H. pose proof (good_texts_prefix l true 0 [] l' H) as X. rewrite app_nil_r in X. exact X. Qed.

Section K.
Variable C : cfg.
Hypothesis HC : cfg_ok C.
Hypothesis BIG : 125 <= rbsize C.
Notation sv := (is_server C).
Notation inv := (inv C).

Definition good_op (o : op) : Prop :=
  match o with
  | OUser | OFire | OBsReturn | ORet _ | OMsgNext _ => True
  | OStream sh e => sh = SHMessage /\ e = CIO_SUCCESS
  | OHandler _ _ e _ => e = CIO_SUCCESS
  | OPongWritten e => e = CIO_SUCCESS
  | _ => False
  end.
Record clean (s : ws) (k : list op) : Prop := {
  c_cbe : cbe s = false; c_ops : Forall good_op k; c_tx : txok (T s); c_timer : timer s = false }.

Lemma bs_read_clean s k cb most n msg s' os : clean s k -> (most = false -> n <= 125) -> bs_read C s cb most n msg = (s', os) -> clean s' (os ++ k).
Proof.
  intros [c1 c2 c3 c4] L H. unfold bs_read in H.
  assert ((negb most && (rbsize C <? n))%bool = false) as X.
  { destruct most; [reflexivity|]. specialize (L eq_refl). apply N.ltb_ge. lia. }
  rewrite X in H. injection H as <- <-. split; try assumption. apply Forall_app. split; [|exact c2]. destruct (Nat.eqb _ 0); repeat constructor.
Qed.

Lemma sres_good ch s n len s' r : send_frame C s n len ch = Ret (s', r) -> write_works ch -> txok (T s) ->
  same_core s s' /\ txok (T s') /\ (r = SPending \/ r = SSync SHMessage CIO_SUCCESS).
Proof.
  intros H W [T1 T2]. apply send_frame_frame in H. destruct H as (E1 & (c & c0 & _ & E2 & _) & _ & _ & E5 & _ & _ & _ & E9 & E).
  split; [exact E1|]. assert (SH : jsh (jobs (T s) n) = SHMessage) by (eapply T1; exact E2). split.
  - split; [|intros _; rewrite E9; exact SH]. intros m cc X. destruct (E5 m) as (_ & _ & _ & _ & Y & Z). rewrite Y.
    destruct (jwbh (jobs (T s) m)) eqn:W0; [eapply T1; exact W0|]. destruct Z as [_ Z]. rewrite (Z eq_refl) in X. discriminate.
  - unfold write_works in W. destruct (ch_write ch) as [|e|e]; [left; apply E|right|destruct W]. destruct E as [E _]. rewrite E, SH, W. reflexivity.
Qed.

Lemma enqueue_clean s k n len ch kerr s' os : enqueue_job C s n len ch kerr = Ret (s', os) -> write_works ch -> clean s k -> clean s' (os ++ k).
Proof.
  intros H W [c1 c2 c3 c4]. unfold enqueue_job in H. destruct (first (T s)) as [fj|] eqn:F.
  - destruct (last (T s)) as [l|]; [|discriminate]. injection H as <- <-. split; try assumption. destruct c3 as [T1 T2]. split; [|exact T2].
    cbn [T set_T set_last set_job set_jobs jobs]. intros m c. destruct (jname_dec m l) as [-> | Hm]; [rewrite upd_same; cbn; apply T1|rewrite upd_other by assumption; apply T1].
  - binv H. destruct a as [s1 r]. cbn [fst snd] in H. apply sres_good in E; [|exact W|exact c3]. destruct E as ((_ & e2 & _ & e4 & _) & E2 & [-> | ->]); injection H as <- <-; split; try assumption; try congruence.
    + rewrite e2. exact c1.
    + rewrite e4. exact c4.
    + rewrite e2. exact c1.
    + constructor; [split; reflexivity|exact c2].
    + rewrite e4. exact c4.
Qed.

Lemma set_job_txok t n j : txok t -> (jwbh j <> None -> jsh j = SHMessage) -> txok (set_job t n j).
Proof.
  intros [T1 T2] J. split; [|exact T2]. intros m c. cbn [set_job set_jobs jobs].
  destruct (jname_dec m n) as [-> | Hm]; [rewrite upd_same; intros X; apply J; congruence|rewrite upd_other by assumption; apply T1].
Qed.

Lemma run_op_clean s o k ch s' os : clean s (o :: k) -> write_works ch -> run_op C s o ch = Ret (s', os) -> clean s' (os ++ k).
Proof.
  intros [c1 c2 c3 c4] W H. inversion c2 as [|? ? G K]; subst. destruct o; cbn [run_op good_op] in *; try (exfalso; exact G).
  - injection H as <- <-. split; assumption.
  - injection H as <- <-. split; assumption.
  - destruct G as [-> ->]. binv H. destruct a as [[t n0] c]. unfold write_jobs_popfront in E. destruct (dequeue_job (T s)) as [n t1] eqn:D.
    destruct (dequeue_frame _ _ _ D) as (J & _ & _ & _ & I1 & I2 & _). destruct n as [n|]; [|discriminate]. destruct (jwbh (jobs t1 n)) as [c'|] eqn:W1; [|discriminate].
    injection E as <- <- <-. destruct (jhandler _) as [h|]; [|discriminate]. injection H as <- <-. split; try assumption.
    + constructor; [reflexivity|]. constructor; [exact I|exact K].
    + cbn [T set_T]. apply set_job_txok.
      * destruct c3 as [T1 T2]. split; [rewrite J; exact T1|rewrite I1, I2; exact T2].
      * cbn. congruence.
  - subst err. destruct h as [[id|]|]; injection H as <- <-; split; try assumption; constructor; try exact K; [exact I|reflexivity].
  - destruct j as [n|].
    + destruct (jwbh (jobs (T s) n)); [|discriminate]. binv H. destruct a as [s1 r]. cbn [fst snd] in H. apply sres_good in E; [|exact W|exact c3].
      destruct E as ((_ & e2 & _ & e4 & _) & E2 & [-> | ->]); injection H as <- <-; split; try assumption; try congruence; try (rewrite e2; exact c1); try (rewrite e4; exact c4).
      constructor; [split; reflexivity|exact K].
    + injection H as <- <-. split; assumption.
  - rewrite G in H. change (negb (CIO_SUCCESS =? CIO_SUCCESS)%Z) with false in H. cbv iota in H. apply (f_equal (fun o => match o with Ret x => x | UB => (s', os) end)) in H.
    eapply bs_read_clean; [| |exact H]; [split; assumption|]. intros _; lia.
  - injection H as <- <-. split; assumption.
  - injection H as <- <-. split; assumption.
Qed.

Lemma call_clean s k a ch s' os : clean s k -> write_works ch -> (match a with AClose _ _ _ => False | _ => True end) ->
  call C s a ch = Ret (s', os) -> clean s' (os ++ k).
Proof.
  intros Cl W NA H. unfold call, refuse in H.
  assert (Cl1 : clean (log s (EvCall a)) k) by (destruct Cl; split; assumption). set (s1 := log s (EvCall a)) in *. clearbody s1.
  assert (RF : forall e, clean (log s1 (EvRefuse e)) k) by (intros; destruct Cl1; split; assumption).
  assert (PP : forall ty n id p, write_ping_or_pong C s1 ty n id p ch = Ret (s', os) -> clean s' (os ++ k)).
  { clear H. intros ty n id p X. unfold write_ping_or_pong, refuse in X. destruct id as [id|]; [|injection X as <- <-; apply RF].
    destruct (negb _); [injection X as <- <-; apply RF|]. destruct (jwbh _); [injection X as <- <-; apply RF|]. destruct p as [c|]; [|discriminate].
    eapply enqueue_clean; [exact X|exact W|]. destruct Cl1 as [d1 d2 d3 d4]. split; try assumption. cbn [T log set_T]. apply set_job_txok; [exact d3|reflexivity]. }
  destruct a as [|id flen p lf bin|id p|id p|id p|id code reason]; [| | | | |destruct NA].
  - assert (Cl2 : clean (set_hasrh s1) k) by (destruct Cl1; split; assumption).
    destruct (_ =? _).
    + match type of H with Ret (bs_read _ ?a ?b ?c ?d ?m) = _ => assert (X : bs_read C a b c d m = (s', os)) by (apply (f_equal (fun o => match o with Ret x => x | UB => (s', os) end)) in H; exact H) end.
      eapply bs_read_clean; [exact Cl2| |exact X]. intros _; lia.
    + match type of H with Ret (bs_read _ ?a ?b ?c ?d ?m) = _ => assert (X : bs_read C a b c d m = (s', os)) by (apply (f_equal (fun o => match o with Ret x => x | UB => (s', os) end)) in H; exact H) end.
      eapply bs_read_clean; [exact Cl2| |exact X]. discriminate.
  - destruct id as [id|]; [|injection H as <- <-; apply RF]. destruct (jwbh _); [injection H as <- <-; apply RF|].
    destruct (if fragw _ then _ else _) in H. eapply enqueue_clean; [exact H|exact W|].
    destruct Cl1 as [d1 d2 d3 d4]. split; try assumption. cbn [T log set_T]. apply (set_job_txok (T s1) JMsg) with (j := Job (jnext (jobs (T s1) JMsg)) p (Some (HUser id)) n lf false SHMessage) in d3; [exact d3|reflexivity].
  - eapply enqueue_clean; [exact H|exact W|].
    destruct Cl1 as [d1 d2 d3 d4]. split; try assumption. cbn [T log set_T]. apply set_job_txok; [exact d3|reflexivity].
  - eapply PP; exact H.
  - eapply PP; exact H.
Qed.

Lemma dec_run_prefix d l l' : exists o, snd (dec_run sv d (l ++ l')) = snd (dec_run sv d l) ++ o.
Proof. rewrite dec_run_app. eexists. reflexivity. Qed.

Lemma fire_core s rq f ch s' os : fire C s rq f ch = Ret (s', os) -> pong_plain s -> cbe s' = cbe s.
Proof. intros H P. apply fire_grow in H. apply H, P. Qed.

(** The close timer is only cleared while receiving. *)
Lemma fire_timer s rq f ch s' os : fire C s rq f ch = Ret (s', os) -> timer s = false -> timer s' = false.
Proof.
  assert (EQ : forall a n len k0 b o, enqueue_job C a n len ch k0 = Ret (b, o) -> timer a = false -> timer b = false).
  { intros a n len k0 b o H. apply enqueue_frame in H. destruct H as ((_ & _ & _ & -> & _) & _). auto. }
  assert (BR : forall a cb m n msg b o, bs_read C a cb m n msg = (b, o) -> timer a = false -> timer b = false).
  { intros a cb m n msg b o. unfold bs_read. destruct (_ && _)%bool; intros H; injection H as <- _; auto. }
  assert (BR' : forall a cb m n msg b o, Ret (bs_read C a cb m n msg) = Ret (b, o) -> timer a = false -> timer b = false).
  { intros a cb m n msg b o H. apply (f_equal (fun z => match z with Ret x => x | UB => (b, o) end)) in H. eapply BR; exact H. }
  assert (HF : forall a ad data b o, handle_frame C a ad data ch = Ret (b, o) -> timer a = false -> timer b = false).
  { intros a ad data b o H TA. unfold handle_frame in H. binv H. repeat match type of H with (if ?b then _ else _) = _ => destruct b end.
    - unfold handle_binary_frame in H. binv H. injection H as <- _. cbn. destruct (rem (R a) =? 0); [injection E0 as <-; exact TA|]. binv E0. injection E0 as <-. exact TA.
    - unfold handle_text_frame in H. binv H. destruct a1 as [u st]. destruct (_ || _)%bool; [injection H as <- _; exact TA|]. binv H. injection H as <- _. cbn.
      match type of E1 with (if ?b then Ret ?x else _) = _ => assert (X : timer x = false) by (destruct (fin (R a)); exact TA); destruct b end;
        [injection E1 as <-; exact X|]. binv E1. injection E1 as <-. exact X.
    - unfold handle_ping_frame in H. destruct (Nat.ltb _ _); [discriminate|]. eapply EQ; [exact H|exact TA].
    - eapply BR'; [exact H|exact TA].
    - unfold handle_close_frame in H. binv H. destruct a1; [injection H as <- _; exact TA|]. destruct (selfc _); [injection H as <- _; reflexivity|]. eapply EQ; [exact H|exact TA].
    - injection H as <- _. exact TA. }
  assert (RP : forall a b o, read_payload C a ch = Ret (b, o) -> timer a = false -> timer b = false).
  { intros a b o H TA. unfold read_payload in H. destruct (_ <? _); [|eapply HF; [exact H|exact TA]]. destruct (_ <? _); [injection H as <- _; exact TA|]. eapply BR'; [exact H|exact TA]. }
  assert (MP : forall a b o, get_mask_or_payload C a ch = Ret (b, o) -> timer a = false -> timer b = false).
  { intros a b o H TA. unfold get_mask_or_payload in H. destruct sv; [eapply BR'; [exact H|exact TA]|eapply RP; [exact H|exact TA]]. }
  intros H TS. unfold fire in H. binv H. destruct a as [s2 o2]. injection H as <- _. cbn [fst].
  destruct f as [err|addr view]; [injection E as <- _; exact TS|]. destruct (rq_cb rq).
  - unfold get_header in E. destruct view; [discriminate|]. destruct (Nat.ltb _ _); [discriminate|]. destruct (negb _); [injection E as <- _; exact TS|].
    destruct (handle_fin _ _); [injection E as <- _; exact TS|]. eapply BR'; [exact E|exact TS].
  - unfold get_first_length in E. destruct view; [discriminate|]. destruct (Nat.ltb _ _); [discriminate|]. destruct (negb _); [injection E as <- _; exact TS|].
    destruct (_ <=? _); [eapply MP; [exact E|exact TS]|]. destruct (is_control_frame _); [injection E as <- _; exact TS|].
    destruct (_ =? _); (eapply BR'; [exact E|exact TS]).
  - unfold get_length in E. destruct (_ || _)%bool; [discriminate|]. destruct (_ <? _); [injection E as <- _; exact TS|]. eapply MP; [exact E|exact TS].
  - unfold get_length in E. destruct (_ || _)%bool; [discriminate|]. destruct (_ <? _); [injection E as <- _; exact TS|]. eapply MP; [exact E|exact TS].
  - unfold get_mask in E. destruct (_ || _)%bool; [discriminate|]. eapply RP; [exact E|exact TS].
  - unfold get_payload in E. destruct (is_control_frame _); (destruct (Nat.ltb _ _); [discriminate|]); (eapply HF; [exact E|exact TS]).
Qed.

Lemma dec_closed_outs l d : fst (dec_run sv d l) = DClosed -> d <> DClosed -> exists x, In (OutControl 8 x) (snd (dec_run sv d l)).
Proof.
  revert d. induction l as [|b r IH]; intros d H ND; cbn [dec_run] in *; [cbn in H; congruence|].
  destruct (dec sv d b) as [d1 o1] eqn:D. destruct (dec_run sv d1 r) as [d2 o2] eqn:D2. cbn [fst snd] in *. subst d2.
  assert (X : d1 = DClosed \/ d1 <> DClosed) by (destruct d1; (left; reflexivity) || (right; discriminate)).
  destruct X as [-> | X].
  - assert (Y : exists x, In (OutControl 8 x) o1).
    { assert (EN : forall m f k len p dd o, dec_end m f k len p = (dd, o) -> dd = DClosed -> exists x, In (OutControl 8 x) o).
      { intros m f k len p dd o E ->. destruct k as [bin|op]; cbn in E; [discriminate|]. destruct (N.eqb_spec op 8) as [-> |]; [|discriminate]. injection E as <-. exists p. left. reflexivity. }
      assert (ST : forall m f k len key dd o, dec_start m f k len key = (dd, o) -> dd = DClosed -> exists x, In (OutControl 8 x) o).
      { intros m f k len key dd o E. unfold dec_start in E. destruct (_ =? _); [eapply EN; exact E|injection E as <- <-; discriminate]. }
      assert (LE : forall m f k len dd o, dec_len sv m f k len = (dd, o) -> dd = DClosed -> exists x, In (OutControl 8 x) o).
      { intros m f k len dd o E. unfold dec_len in E. destruct sv; [injection E as <- <-; discriminate|eapply ST; exact E]. }
      destruct d as [m|m f k|m f k todo got|m f k len got|m f k len key got| |]; cbn [dec] in D; try congruence.
      - injection D as D _. exfalso. revert D. unfold dec_head. destruct (negb _); [discriminate|]. destruct (b mod 16) as [|p]; [destruct m; discriminate|].
        do 4 (try destruct p as [p|p|]); try discriminate; destruct m as [[|]|]; try discriminate; destruct (128 <=? b); discriminate.
      - destruct (negb _); [discriminate|]. destruct (_ <=? _); [eapply LE; [exact D|reflexivity]|]. destruct k; discriminate.
      - destruct (Nat.eqb _ _); [eapply LE; [exact D|reflexivity]|discriminate].
      - destruct (Nat.eqb _ _); [eapply ST; [exact D|reflexivity]|discriminate].
      - destruct (if _ =? _ then _ else _) as [dd oo] eqn:Q in D. injection D as -> <-.
        destruct (_ =? _) in Q; [|discriminate]. destruct (EN _ _ _ _ _ _ _ Q eq_refl) as [x Hx]. exists x. destruct k; [right|]; exact Hx. }
    destruct Y as [x Y]. exists x. apply in_or_app. left. exact Y.
  - assert (F : fst (dec_run sv d1 r) = DClosed) by (rewrite D2; reflexivity).
    destruct (IH d1 F X) as [x Y]. rewrite D2 in Y. exists x. apply in_or_app. right. exact Y.
Qed.

(** A request that is satisfied as a whole leaves nothing of the frame unread. *)
Lemma handle_frame_rem s addr data ch s' os : handle_frame C s addr data ch = Ret (s', os) -> rem (R s') = rem (R s) /\ opcode (R s') = opcode (R s).
Proof.
  intros H. unfold handle_frame in H. binv H. repeat match type of H with (if ?b then _ else _) = _ => destruct b end.
  - unfold handle_binary_frame in H. binv H. injection H as <- _. cbn [R log]. destruct (rem (R s) =? 0); [injection E0 as <-; auto|]. binv E0. injection E0 as <-. split; reflexivity.
  - unfold handle_text_frame in H. binv H. destruct a0 as [u st]. destruct (_ || _)%bool; [injection H as <- _; split; reflexivity|]. binv H. injection H as <- _. cbn [R log].
    match type of E1 with (if ?b then Ret ?x else _) = _ => assert (X : rem (R x) = rem (R s) /\ opcode (R x) = opcode (R s)) by (destruct (fin (R s)); split; reflexivity); destruct b end;
      [injection E1 as <-; exact X|]. binv E1. injection E1 as <-. exact X.
  - unfold handle_ping_frame in H. destruct (Nat.ltb _ _); [discriminate|]. apply enqueue_frame in H. destruct H as ((-> & _) & _). split; reflexivity.
  - apply (f_equal (fun z => match z with Ret x => x | UB => (s', os) end)) in H. unfold handle_pong_frame, bs_read in H. destruct (_ && _)%bool; injection H as <- _; split; reflexivity.
  - unfold handle_close_frame in H. binv H. destruct a0; [injection H as <- _; split; reflexivity|]. destruct (selfc _); [injection H as <- _; split; reflexivity|].
    apply enqueue_frame in H. destruct H as ((-> & _) & _). split; reflexivity.
  - injection H as <- _. split; reflexivity.
Qed.

Lemma fire_whole s k rq addr view ch s' err reason : inv s k -> rd s = Some rq -> rq_n rq <= N.of_nat (length view) ->
  fire C s rq (FData addr view) ch = Ret (s', [OHandleError err CLOSE_UNSUPPORTED_DATA reason] ++ [OBsReturn]) -> opcode (R s') = TEXT_FRAME -> rem (R s') = 0.
Proof.
  intros IV RD WH H OP. unfold fire in H. binv H. destruct a as [s2 o2]. cbn [fst snd] in H. injection H as <- EO. apply (app_inj_tail o2 [OHandleError err CLOSE_UNSUPPORTED_DATA reason]) in EO. destruct EO as [EO _].
  assert (BR : forall a cb m n msg, Ret (bs_read C a cb m n msg) = Ret (s2, o2) -> False).
  { intros a cb m n msg X. apply (f_equal (fun z => match z with Ret x => x | UB => (s2, o2) end)) in X. unfold bs_read in X.
    destruct (_ && _)%bool; injection X as _ X; subst o2; [discriminate|]. destruct (Nat.eqb _ _); discriminate. }
  assert (RP : forall a, read_payload C a ch = Ret (s2, o2) -> rem (R s2) = 0).
  { intros a X. unfold read_payload in X. destruct (N.ltb_spec 0 (rem (R a))).
    - destruct (_ <? _); [injection X as _ X; subst o2; discriminate|]. destruct (BR _ _ _ _ _ X).
    - apply handle_frame_rem in X. destruct X as [X _]. lia. }
  assert (MP : forall a, get_mask_or_payload C a ch = Ret (s2, o2) -> rem (R s2) = 0).
  { intros a X. unfold get_mask_or_payload in X. destruct sv; [destruct (BR _ _ _ _ _ X)|eapply RP; exact X]. }
  destruct (rq_cb rq) eqn:CB.
  - unfold get_header in E. destruct view; [discriminate|]. destruct (Nat.ltb _ _); [discriminate|]. destruct (negb _); [injection E as _ X; subst o2; discriminate|].
    destruct (handle_fin _ _); [injection E as _ X; subst o2; discriminate|]. destruct (BR _ _ _ _ _ E).
  - unfold get_first_length in E. destruct view; [discriminate|]. destruct (Nat.ltb _ _); [discriminate|]. destruct (negb _); [injection E as _ X; subst o2; discriminate|].
    destruct (_ <=? _); [eapply MP; exact E|]. destruct (is_control_frame _); [injection E as _ X; subst o2; discriminate|]. destruct (_ =? _); destruct (BR _ _ _ _ _ E).
  - unfold get_length in E. destruct (_ || _)%bool; [discriminate|]. destruct (_ <? _); [injection E as _ X; subst o2; discriminate|]. eapply MP; exact E.
  - unfold get_length in E. destruct (_ || _)%bool; [discriminate|]. destruct (_ <? _); [injection E as _ X; subst o2; discriminate|]. eapply MP; exact E.
  - unfold get_mask in E. destruct (_ || _)%bool; [discriminate|]. eapply RP; exact E.
  - assert (RL : rq_n rq = rem (R s)).
    { pose proof (i_rel _ _ _ IV rq (or_introl RD)) as RL. unfold Rel in RL. rewrite CB in RL. apply RL. }
    unfold get_payload in E. cbn [R set_cbrun set_rd] in E. destruct (is_control_frame (opcode (R s))) eqn:CF; (destruct (Nat.ltb _ _); [discriminate|]).
    + apply handle_frame_rem in E. destruct E as [_ E]. cbn [R consume set_cbrun set_rd] in E. rewrite OP in E. rewrite <- E in CF. discriminate.
    + apply handle_frame_rem in E. destruct E as [E _]. cbn [R consume set_R set_rem rem] in E. rewrite E. lia.
Qed.

Theorem valid_stream_clean (asc : Prop) fs s k : valid_frames None fs -> no_close (frames_outs None fs) -> good_texts (frames_outs None fs) ->
  (asc -> ascii_only (frames_outs None fs)) ->
  reach C (fun c x => undisturbed c x /\ (asc \/ whole c x)) (s, k) -> (exists unread, inp s ++ unread = enc_frames sv fs) -> clean s k.
Proof.
  intros V NC GT AO H. remember (s, k) as c eqn:Ec. revert s k Ec. induction H as [g|c x c' Hr IH En Cd St]; intros s k Ec X.
  - injection Ec as <- <-. split; try reflexivity; [constructor|].
    split; cbn; [intros []; cbn; discriminate|]. intros Z; inversion Z.
  - subst c'. destruct c as [s0 k0]. pose proof (step_grow C s0 k0 x s k St) as G. assert (PP : pong_plain s0) by (apply (history C _ _ _ Hr)).
    assert (IM : exists l, inp s = inp s0 ++ l).
    { destruct G as [G | (? & ? & ? & ? & ? & _ & _ & _ & _ & _ & G & _)]; [apply (G PP)|apply inp_same, G]. }
    destruct X as [unread X]. assert (X0 : exists u, inp s0 ++ u = enc_frames sv fs).
    { destruct IM as [l L]. rewrite L in X. exists (l ++ unread). rewrite app_assoc. exact X. }
    specialize (IH s0 k0 eq_refl X0). destruct Cd as ((Rd & Tw & Nc) & Wh).
    assert (IV : inv s0 k0). { eapply reach_inv; [exact HC|]. eapply reach_mono; [|exact Hr]. intros ? ? [[] _]; assumption. }
    destruct x as [ch|a ch|f ch|err|err]; cbn [step enabled transport_works no_close_call] in *.
    + destruct k0 as [|o k1]; [destruct En; congruence|]. unfold lift in St. binv St. destruct a as [s1 o1]. injection St as <- <-. eapply run_op_clean; [exact IH|exact Tw|exact E].
    + unfold lift in St. binv St. destruct a0 as [s1 o1]. injection St as <- <-. eapply call_clean; [exact IH|exact Tw| |exact E]. destruct a; try exact I. exact Nc.
    + destruct En as (_ & _ & _ & _ & rq & RD & FO). rewrite RD in St. unfold lift in St. binv St. destruct a as [s1 o1]. injection St as <- <-. cbn [fst snd] in *.
      destruct Tw as [Tw Tf]. destruct f as [|addr view]; [destruct Tf|].
      destruct (fire_verdict C HC s0 k0 rq addr view ch s1 o1 IV RD FO E) as (os & -> & VD).
      assert (IV1 : inv s1 ((os ++ [OBsReturn]) ++ k0)) by (eapply fire_inv; eassumption).
      (* the decoder's view of what was consumed *)
      destruct (dec_frames sv fs None V) as (dN & DN & NF).
      fold (decode sv (enc_frames sv fs)) in DN. rewrite <- X in DN. unfold decode in DN. rewrite dec_run_app in DN. fold (decode sv (inp s1)) in DN.
      injection DN as DN1 DN2.
      assert (NOF : fst (decode sv (inp s1)) <> DFailed). { intros Z. rewrite Z, dec_run_failed in DN1. cbn in DN1. congruence. }
      assert (NOC : forall x, ~ In (OutControl 8 x) (snd (decode sv (inp s1)))).
      { intros z Z. apply (NC z). rewrite <- DN2. apply in_or_app. left. exact Z. }
      destruct IH as [d1 d2 d3 d4].
      assert (CB : cbe s1 = false) by (rewrite <- d1; apply (fire_core _ _ _ _ _ _ E PP)).
      assert (TI : timer s1 = false) by (eapply fire_timer; [exact E|exact d4]).
      destruct VD as [V1 V2 V3|reason V1 V2|reason f len y o V1 _ V2 V3 V3'|code msg ad y V1 _ V2 V3|err reason V1 V2 _].
      * destruct V3 as [V3|V3].
        -- exfalso. destruct (dec_closed_outs (inp s1) (DHead None) V3) as [z Z]; [discriminate|]. apply (NOC z Z).
        -- destruct (V3 d3) as [V4 V5]. split; try assumption. rewrite <- app_assoc. apply Forall_app. split.
           ++ eapply Forall_impl; [|exact V4]. intros o [-> | [-> | (e & -> & W)]]; cbn; auto. unfold write_works in Tw. rewrite W in Tw. auto.
           ++ constructor; [exact I|exact d2].
      * exfalso. apply NOF, V2.
      * exfalso. rewrite <- DN2, V2, <- !app_assoc in GT.
        destruct V3' as [V3' | [-> V3']].
        { apply V3'. eapply good_texts_prefix. exact GT. }
        destruct V3 as [-> | (-> & V3 & VO)]; [apply V3'; eapply good_texts_end; exact GT|].
        destruct Wh as [Wh | Wh].
        -- assert (AS : ascii_only (delivered (tr s1) ++ map (OutByte false true len) y)).
           { specialize (AO Wh). rewrite <- DN2, V2 in AO. unfold ascii_only in *. rewrite app_nil_r in AO. apply Forall_app in AO. apply AO. }
           apply V3'. apply drun_accept, drun_ascii. pose proof (texts_ascii _ AS [] (Forall_nil _)) as X1. rewrite texts_app in X1. cbn [snd] in X1.
           rewrite <- (app_nil_r (map _ y)), texts_bytes in X1. exact X1.
        -- cbn [whole fst] in Wh. specialize (Wh rq RD). subst os.
           pose proof (fire_whole _ _ _ _ _ _ _ _ _ IV RD Wh E VO) as X9. lia.
      * exfalso. apply (NOC y). rewrite V2. apply in_or_app. right. left. reflexivity.
      * exfalso. destruct V2 as [[V2 _] | V2]; [lia|]. unfold write_works in Tw. rewrite V2 in Tw. exact Tw.
    + injection St as <- <-. destruct IH as [d1 d2 d3 d4]. destruct En as (-> & _ & IF). split; try assumption.
      * constructor; [|constructor]. split; [apply d3, IF|exact Tw].
      * destruct d3 as [T1 T2]. split; [exact T1|]. cbn. intros Z. apply T2. lia.
    + exfalso. destruct En as (_ & TT & _). destruct IH as [d1 d2 d3 d4]. congruence.
Qed.
End K.
