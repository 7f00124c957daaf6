(** Proofs about the UTF-8 checker. *)
From Verif Require Import Base Utf8Model Utf8Spec.
Ltac Zify.zify_post_hook ::= Z.div_mod_to_equations.
Local Open Scope N_scope.

(** ** The automaton in closed form *)

Definition dstep (q b : N) : N :=
  let tail lo hi nxt := if (lo <=? b) && (b <=? hi) then nxt else 12 in
  if q =? 0 then
    if b <? 0x80 then 0 else if b <? 0xC2 then 12 else if b <? 0xE0 then 24
    else if b =? 0xE0 then 48 else if b =? 0xED then 60 else if b <? 0xF0 then 36
    else if b =? 0xF0 then 72 else if b <? 0xF4 then 84 else if b =? 0xF4 then 96 else 12
  else if q =? 24 then tail 0x80 0xBF 0
  else if q =? 36 then tail 0x80 0xBF 24
  else if q =? 48 then tail 0xA0 0xBF 24
  else if q =? 60 then tail 0x80 0x9F 24
  else if q =? 72 then tail 0x90 0xBF 36
  else if q =? 84 then tail 0x80 0xBF 36
  else if q =? 96 then tail 0x80 0x8F 36
  else 12.

Definition qstates : list N := [0; 12; 24; 36; 48; 60; 72; 84; 96].
Definition qok (q : N) : Prop := In q qstates.

Definition sweep_one (q b : N) : bool :=
  match utf8d b with
  | Ret t => match utf8d (256 + q + t) with Ret q' => N.eqb q' (dstep q b) | UB => false end
  | UB => false
  end.

Lemma sweep_all : forallb (fun q => forallb (sweep_one q) all_bytes) qstates = true.
Proof. vm_compute. reflexivity. Qed.

Lemma sweep_pt q b : qok q -> byte_ok b -> sweep_one q b = true.
Proof.
  intros Hq Hb. pose proof sweep_all as H. rewrite forallb_forall in H.
  specialize (H q Hq). apply (byte_sweep _ H). exact Hb.
Qed.

Lemma decode_dstep s b : qok (u_state s) -> byte_ok b ->
  exists s', decode s b = Ret s' /\ u_state s' = dstep (u_state s) b.
Proof.
  intros Hq Hb. pose proof (sweep_pt _ _ Hq Hb) as H. unfold sweep_one in H. unfold decode.
  destruct (utf8d b) as [t|]; [|discriminate]. cbn [obind].
  destruct (utf8d (256 + u_state s + t)) as [q'|]; [|discriminate]. cbn [obind].
  eexists. split; [reflexivity|]. cbn. apply N.eqb_eq, H.
Qed.

Lemma dstep_ok q b : qok (dstep q b).
Proof.
  unfold dstep, qok, qstates.
  repeat match goal with |- context [if ?c then _ else _] => destruct c end; cbn; tauto.
Qed.

Lemma dstep_reject b : dstep 12 b = 12.
Proof. reflexivity. Qed.

Definition drun (q : N) (l : list N) : N := fold_left dstep l q.

Lemma drun_app q l k : drun q (l ++ k) = drun (drun q l) k.
Proof. apply fold_left_app. Qed.

Lemma drun_reject l : drun 12 l = 12.
Proof. induction l as [|b l IH]; [reflexivity|]. exact IH. Qed.

Lemma drun_ok q l : qok q -> qok (drun q l).
Proof.
  revert q. induction l as [|b l IH]; intros q Hq; [exact Hq|]. cbn. apply IH, dstep_ok.
Qed.

(** ** The three loops compute the automaton *)

Lemma run_bytes_drun l : forall s rest,
  qok (u_state s) -> bytes_ok l ->
  exists s' stop rem, run_bytes s (l ++ rest) (N.of_nat (length l)) = Ret (s', stop, rem) /\
    u_state s' = drun (u_state s) l /\
    (stop = true -> u_state s' = 12) /\
    (stop = false -> rem = rest /\ (u_state s' = 12 -> u_state s = 12 /\ l = [])).
Proof.
  induction l as [|b l IH]; intros s rest Hq Hl.
  - exists s, false, rest. cbn. destruct rest; cbn; repeat split; auto; congruence.
  - inversion Hl as [|x y Hb Hl']; subst.
    destruct (decode_dstep s b Hq Hb) as (s1 & Hd & Hs1).
    cbn [run_bytes app length].
    replace (N.of_nat (S (length l)) =? 0) with false by lia.
    rewrite Hd. cbn [obind].
    destruct (N.eqb_spec (u_state s1) CIO_UTF8_REJECT) as [He|He].
    + exists s1, true, (l ++ rest). unfold CIO_UTF8_REJECT in He.
      cbn [drun fold_left]. rewrite <- Hs1, He. fold (drun 12 l).
      rewrite drun_reject. repeat split; auto; congruence.
    + assert (Hq1 : qok (u_state s1)) by (rewrite Hs1; apply dstep_ok).
      destruct (IH s1 rest Hq1 Hl') as (s' & stop & rem & Hr & Hst & Hstop & Hns).
      replace (N.pred (N.of_nat (S (length l)))) with (N.of_nat (length l)) by lia.
      exists s', stop, rem. rewrite Hr. split; [reflexivity|].
      split; [rewrite Hst, Hs1; reflexivity|]. split; [exact Hstop|].
      intros Hf. destruct (Hns Hf) as [Hrem H12]. split; [exact Hrem|].
      intros E. destruct (H12 E) as [E1 _]. exfalso. apply He, E1.
Qed.


Lemma run_words_drun w : 0 < w -> forall n fuel l s rest,
  N.of_nat (length l) = N.of_nat n * w -> (n <= fuel)%nat ->
  qok (u_state s) -> bytes_ok l ->
  exists s' stop rem, run_words fuel w s (l ++ rest) (N.of_nat n) = Ret (s', stop, rem) /\
    u_state s' = drun (u_state s) l /\
    (stop = true -> u_state s' = 12) /\
    (stop = false -> rem = rest /\ (u_state s' = 12 -> u_state s = 12 /\ l = [])).
Proof.
  intros Hw. induction n as [|n IH]; intros fuel l s rest Hlen Hfuel Hq Hl.
  - assert (l = []) as -> by (destruct l; [reflexivity|cbn in Hlen; lia]).
    exists s, false, rest. destruct fuel; cbn; repeat split; auto; congruence.
  - destruct fuel as [|fuel]; [lia|].
    cbn [run_words]. replace (N.of_nat (S n) =? 0) with false by lia.
    set (l1 := firstn (N.to_nat w) l). set (l2 := skipn (N.to_nat w) l).
    assert (E : l = l1 ++ l2) by (symmetry; apply firstn_skipn).
    assert (Hlen' : N.of_nat (length l) = N.of_nat n * w + w) by lia.
    assert (L1 : length l1 = N.to_nat w).
    { unfold l1. apply firstn_length_le. lia. }
    assert (L2 : N.of_nat (length l2) = N.of_nat n * w).
    { unfold l2. rewrite skipn_length. lia. }
    assert (Hge : N.of_nat (length (l ++ rest)) <? w = false).
    { rewrite app_length. lia. }
    rewrite Hge.
    assert (F : firstn (N.to_nat w) (l ++ rest) = l1).
    { rewrite E, <- app_assoc, <- L1. apply firstn_len_app. }
    assert (K : skipn (N.to_nat w) (l ++ rest) = l2 ++ rest).
    { rewrite E, <- app_assoc, <- L1. apply skipn_len_app. }
    rewrite F, K.
    assert (Hl1 : bytes_ok l1) by (apply bytes_ok_firstn, Hl).
    assert (Hl2 : bytes_ok l2) by (apply bytes_ok_skipn, Hl).
    destruct (run_bytes_drun l1 s [] Hq Hl1) as (s1 & stop1 & rem1 & Hr & Hst & Hstop & Hns).
    rewrite app_nil_r in Hr.
    replace (N.of_nat (length l1)) with w in Hr by lia.
    rewrite Hr. cbn [obind]. destruct stop1.
    + exists s1, true, (l2 ++ rest). split; [reflexivity|].
      specialize (Hstop eq_refl). split; [|repeat split; auto; congruence].
      rewrite E, drun_app, <- Hst, Hstop, drun_reject. reflexivity.
    + assert (Hq1 : qok (u_state s1)) by (rewrite Hst; apply drun_ok, Hq).
      replace (N.pred (N.of_nat (S n))) with (N.of_nat n) by lia.
      destruct (IH fuel l2 s1 rest L2 ltac:(lia) Hq1 Hl2) as (s' & stop & rem & Hr2 & Hst2 & Hstop2 & Hns2).
      exists s', stop, rem. rewrite Hr2. split; [reflexivity|].
      split; [rewrite Hst2, E, drun_app, Hst; reflexivity|]. split; [exact Hstop2|].
      intros Hf. destruct (Hns2 Hf) as [Hrem H12]. split; [exact Hrem|].
      intros E12. destruct (H12 E12) as [E1 _].
      destruct (Hns eq_refl) as [_ Hx]. destruct (Hx E1) as [_ Hnil].
      exfalso. rewrite Hnil in L1. cbn in L1. lia.
Qed.

Lemma check_utf8_drun_tail w addr s l tail : 0 < w -> qok (u_state s) -> bytes_ok l ->
  exists s', check_utf8 w addr s (l ++ tail) (N.of_nat (length l)) = Ret (s', drun (u_state s) l) /\
    u_state s' = drun (u_state s) l.
Proof.
  intros Hw Hq Hl.
  set (count := N.of_nat (length l)).
  unfold check_utf8.
  set (pre := if w <=? count then (w - addr mod w) mod w else count).
  set (main := if w <=? count then (count - pre) / w else 0).
  set (post := if w <=? count then count - pre - main * w else 0).
  assert (Hpre : pre <= count).
  { unfold pre. destruct (N.leb_spec w count); [|lia].
    pose proof (N.mod_lt (w - addr mod w) w). lia. }
  assert (Htot : count = pre + main * w + post).
  { unfold post, main. destruct (N.leb_spec w count) as [Hle|Hgt].
    - pose proof (N.mul_div_le (count - pre) w). nia.
    - unfold pre. replace (w <=? count) with false by lia. lia. }
  clearbody pre main post.
  set (l1 := firstn (N.to_nat pre) l). set (r1 := skipn (N.to_nat pre) l).
  set (l2 := firstn (N.to_nat (main * w)) r1). set (l3 := skipn (N.to_nat (main * w)) r1).
  assert (E1 : l = l1 ++ r1) by (symmetry; apply firstn_skipn).
  assert (E2 : r1 = l2 ++ l3) by (symmetry; apply firstn_skipn).
  assert (L1 : N.of_nat (length l1) = pre).
  { unfold l1. rewrite firstn_length_le; lia. }
  assert (R1 : N.of_nat (length r1) = count - pre).
  { unfold r1. rewrite skipn_length. lia. }
  assert (L2 : N.of_nat (length l2) = main * w).
  { unfold l2. rewrite firstn_length_le; lia. }
  assert (L3 : N.of_nat (length l3) = post).
  { unfold l3. rewrite skipn_length. lia. }
  assert (Hl1 : bytes_ok l1) by (apply bytes_ok_firstn, Hl).
  assert (Hr1 : bytes_ok r1) by (apply bytes_ok_skipn, Hl).
  assert (Hl2 : bytes_ok l2) by (apply bytes_ok_firstn, Hr1).
  assert (Hl3 : bytes_ok l3) by (apply bytes_ok_skipn, Hr1).
  assert (Ed : drun (u_state s) l = drun (drun (drun (u_state s) l1) l2) l3).
  { rewrite E1, E2, !drun_app. reflexivity. }
  destruct (run_bytes_drun l1 s (r1 ++ tail) Hq Hl1) as (s1 & b1 & m1 & Hr & Hst & Hstop & Hns).
  rewrite app_assoc, <- E1, L1 in Hr. rewrite Hr. cbn [obind]. destruct b1.
  { exists s1. specialize (Hstop eq_refl). rewrite Ed, <- Hst, Hstop, !drun_reject. split; reflexivity. }
  destruct (Hns eq_refl) as [-> _].
  assert (Hq1 : qok (u_state s1)) by (rewrite Hst; apply drun_ok, Hq).
  destruct (run_words_drun w Hw (N.to_nat main) (S (length (r1 ++ tail))) l2 s1 (l3 ++ tail)) as (s2 & b2 & m2 & Hr2 & Hst2 & Hstop2 & Hns2);
    [lia| |exact Hq1|exact Hl2|].
  { assert (main * 1 <= main * w) by (apply N.mul_le_mono_l; lia). rewrite app_length. lia. }
  rewrite app_assoc, <- E2, N2Nat.id in Hr2. rewrite Hr2. cbn [obind]. destruct b2.
  { exists s2. specialize (Hstop2 eq_refl). rewrite Ed, <- Hst, <- Hst2, Hstop2, drun_reject. split; reflexivity. }
  destruct (Hns2 eq_refl) as [-> _].
  assert (Hq2 : qok (u_state s2)) by (rewrite Hst2; apply drun_ok, Hq1).
  destruct (run_bytes_drun l3 s2 tail Hq2 Hl3) as (s3 & b3 & m3 & Hr3 & Hst3 & Hstop3 & Hns3).
  rewrite L3 in Hr3. rewrite Hr3. cbn [obind].
  assert (Ef : u_state s3 = drun (u_state s) l) by (rewrite Ed, <- Hst, <- Hst2, Hst3; reflexivity).
  destruct b3.
  - exists s3. specialize (Hstop3 eq_refl). rewrite <- Ef, Hstop3. split; reflexivity.
  - exists s3. rewrite Ef. split; reflexivity.
Qed.

Lemma check_utf8_drun w addr s l : 0 < w -> qok (u_state s) -> bytes_ok l ->
  exists s', check_utf8 w addr s l (N.of_nat (length l)) = Ret (s', drun (u_state s) l) /\
    u_state s' = drun (u_state s) l.
Proof. intros Hw Hq Hl. pose proof (check_utf8_drun_tail w addr s l [] Hw Hq Hl) as H. rewrite app_nil_r in H. exact H. Qed.

(** ** The automaton decides well-formedness *)

Definition cont (b : N) : Prop := 0x80 <= b <= 0xBF.

(** One encoded character, RFC 3629 section 4 ABNF. *)
Inductive uchar : list N -> Prop :=
| uc1 a : a < 0x80 -> uchar [a]
| uc2 a b : 0xC2 <= a <= 0xDF -> cont b -> uchar [a; b]
| uc3a b c : 0xA0 <= b <= 0xBF -> cont c -> uchar [0xE0; b; c]
| uc3b a b c : 0xE1 <= a <= 0xEF -> a <> 0xED -> cont b -> cont c -> uchar [a; b; c]
| uc3c b c : 0x80 <= b <= 0x9F -> cont c -> uchar [0xED; b; c]
| uc4a b c d : 0x90 <= b <= 0xBF -> cont c -> cont d -> uchar [0xF0; b; c; d]
| uc4b a b c d : 0xF1 <= a <= 0xF3 -> cont b -> cont c -> cont d -> uchar [a; b; c; d]
| uc4c b c d : 0x80 <= b <= 0x8F -> cont c -> cont d -> uchar [0xF4; b; c; d].

Lemma encode_uchar cp : scalar cp -> uchar (utf8_encode cp).
Proof.
  unfold scalar, utf8_encode. intros H.
  destruct (N.ltb_spec cp 0x80); [constructor; assumption|].
  destruct (N.ltb_spec cp 0x800); [constructor; unfold cont; lia|].
  destruct (N.ltb_spec cp 0x10000).
  - destruct (N.eq_dec (cp / 4096) 0) as [E|E].
    { rewrite E. constructor; unfold cont; lia. }
    destruct (N.eq_dec (cp / 4096) 13) as [E2|E2].
    { rewrite E2. constructor; unfold cont; lia. }
    constructor; unfold cont; lia.
  - destruct (N.eq_dec (cp / 262144) 0) as [E|E].
    { rewrite E. constructor; unfold cont; lia. }
    destruct (N.eq_dec (cp / 262144) 4) as [E2|E2].
    { rewrite E2. constructor; unfold cont; lia. }
    constructor; unfold cont; lia.
Qed.

Ltac enc_solve cp :=
  exists cp; split; [unfold scalar, cont in *; lia|];
  unfold utf8_encode, cont in *;
  repeat match goal with |- context [?x <? ?y] => destruct (N.ltb_spec x y); try lia end;
  repeat (f_equal; try lia).

Lemma uchar_encode l : uchar l -> exists cp, scalar cp /\ utf8_encode cp = l.
Proof.
  intros H; inversion H; subst.
  - enc_solve a.
  - enc_solve ((a - 0xC0) * 64 + (b - 0x80)).
  - enc_solve ((b - 0x80) * 64 + (c - 0x80)).
  - enc_solve ((a - 0xE0) * 4096 + (b - 0x80) * 64 + (c - 0x80)).
  - enc_solve (13 * 4096 + (b - 0x80) * 64 + (c - 0x80)).
  - enc_solve ((b - 0x80) * 4096 + (c - 0x80) * 64 + (d - 0x80)).
  - enc_solve ((a - 0xF0) * 262144 + (b - 0x80) * 4096 + (c - 0x80) * 64 + (d - 0x80)).
  - enc_solve (4 * 262144 + (b - 0x80) * 4096 + (c - 0x80) * 64 + (d - 0x80)).
Qed.

Inductive wf : list N -> Prop :=
| wf_nil : wf []
| wf_cons c s : uchar c -> wf s -> wf (c ++ s).

Lemma wf_well_formed s : wf s <-> utf8_well_formed s.
Proof.
  split.
  - induction 1 as [|c s Hc Hs (text & Ht & ->)].
    + exists []. split; [constructor|reflexivity].
    + destruct (uchar_encode c Hc) as (cp & Hcp & <-).
      exists (cp :: text). split; [constructor; assumption|reflexivity].
  - intros (text & Ht & ->). induction Ht as [|cp text Hcp Ht IH]; cbn.
    + constructor.
    + constructor; [apply encode_uchar, Hcp|exact IH].
Qed.

(** What is still missing to complete the current character, per state. *)
Inductive tailc : N -> list N -> Prop :=
| t24 a : cont a -> tailc 24 [a]
| t36 a b : cont a -> cont b -> tailc 36 [a; b]
| t48 a b : 0xA0 <= a <= 0xBF -> cont b -> tailc 48 [a; b]
| t60 a b : 0x80 <= a <= 0x9F -> cont b -> tailc 60 [a; b]
| t72 a b c : 0x90 <= a <= 0xBF -> cont b -> cont c -> tailc 72 [a; b; c]
| t84 a b c : cont a -> cont b -> cont c -> tailc 84 [a; b; c]
| t96 a b c : 0x80 <= a <= 0x8F -> cont b -> cont c -> tailc 96 [a; b; c].

Inductive wf_from : N -> list N -> Prop :=
| wff0 s : wf s -> wf_from 0 s
| wfft q t s : tailc q t -> wf s -> wf_from q (t ++ s).

Lemma wf_from_0 s : wf_from 0 s <-> wf s.
Proof. split; [|constructor; assumption]. intros H; inversion H as [s' Hs|q t s' Ht Hs]; subst; [exact Hs|inversion Ht]. Qed.

Lemma wf_from_12 s : ~ wf_from 12 s.
Proof. intros H; inversion H as [s' Hs|q t s' Ht Hs]; subst; inversion Ht. Qed.

Ltac dstep_cases :=
  repeat match goal with
         | |- context [?x <? ?y] => destruct (N.ltb_spec x y); try lia
         | |- context [?x <=? ?y] => destruct (N.leb_spec x y); try lia
         | |- context [?x =? ?y] => destruct (N.eqb_spec x y); try lia
         end; cbn [andb].

Lemma uchar_head c s b s' : uchar c -> c ++ s = b :: s' ->
  (b < 0x80 /\ c = [b] /\ s' = s) \/ (exists t, tailc (dstep 0 b) t /\ s' = t ++ s).
Proof.
  intros Hc E. unfold dstep. rewrite N.eqb_refl.
  inversion Hc; subst; cbn in E; injection E as <- <-; unfold cont in *;
  [left; auto|right..].
  1: exists [b0]. 2: exists [b0; c0]. 3: exists [b0; c0]. 4: exists [b0; c0]. 5: exists [b0; c0; d].
  6: exists [b0; c0; d]. 7: exists [b0; c0; d].
  all: dstep_cases; (split; [constructor; unfold cont; lia|reflexivity]).
Qed.

Lemma uchar_cons b t : tailc (dstep 0 b) t -> uchar (b :: t).
Proof.
  unfold dstep. rewrite N.eqb_refl. dstep_cases; let HH := fresh in intros HH; inversion HH; subst; constructor; assumption || lia.
Qed.

Lemma dstep0_accept b : dstep 0 b = 0 -> b < 0x80.
Proof. unfold dstep. rewrite N.eqb_refl. dstep_cases; intros; lia. Qed.

Lemma dstep_tail q b t : qok q -> q <> 0 -> q <> 24 -> (tailc q (b :: t) <-> tailc (dstep q b) t).
Proof.
  intros Hq H0 H24. unfold qok, qstates in Hq. cbn in Hq.
  destruct Hq as [<-|[<-|[<-|[<-|[<-|[<-|[<-|[<-|[<-|[]]]]]]]]]]; try congruence.
  all: split; intros H.
  all: try (inversion H; subst; unfold cont in *; unfold dstep; cbn [N.eqb Pos.eqb]; dstep_cases; constructor; unfold cont; lia).
  all: unfold dstep in H; cbn [N.eqb Pos.eqb] in H; revert H; dstep_cases; let HH := fresh in intros HH; inversion HH; subst; constructor; unfold cont in *; lia.
Qed.

Lemma wf_from_step q b s : qok q -> (wf_from q (b :: s) <-> wf_from (dstep q b) s).
Proof.
  intros Hq.
  destruct (N.eq_dec q 0) as [->|H0].
  { rewrite wf_from_0. split.
    - intros H. inversion H as [|c s0 Hc Hs E]; subst.
      destruct (uchar_head _ _ _ _ Hc E) as [(Hb & -> & ->)|(t & Ht & ->)].
      + replace (dstep 0 b) with 0 by (unfold dstep; rewrite N.eqb_refl; dstep_cases; reflexivity).
        constructor; exact Hs.
      + constructor; assumption.
    - intros H. inversion H as [s' Hs E|q t s' Ht Hs E]; subst.
      + change (b :: s) with ([b] ++ s). constructor; [|exact Hs].
        constructor. apply dstep0_accept. symmetry; exact E.
      + change (b :: t ++ s') with ((b :: t) ++ s'). constructor; [|exact Hs].
        apply uchar_cons, Ht. }
  destruct (N.eq_dec q 24) as [->|H24].
  { split.
    - intros H. inversion H as [|q t s' Ht Hs E1 E]; subst. inversion Ht as [a Ha| | | | | |]; subst.
      cbn in E. injection E as <- <-. unfold dstep, cont in *. cbn [N.eqb Pos.eqb]. dstep_cases.
      constructor; exact Hs.
    - unfold dstep; cbn [N.eqb Pos.eqb]. dstep_cases; try (let HH := fresh in intros HH; exfalso; exact (wf_from_12 _ HH)).
      rewrite wf_from_0. intros Hs. change (b :: s) with ([b] ++ s). constructor; [|exact Hs].
      constructor. unfold cont; lia. }
  split; intros H.
  - inversion H as [s' Hs E|q' t s' Ht Hs E1 E]; subst; [congruence|].
    destruct t as [|b' t]; [inversion Ht|]. cbn in E. injection E as -> <-.
    apply (dstep_tail q b t Hq H0 H24) in Ht. constructor; assumption.
  - inversion H as [s' Hs E|q' t s' Ht Hs E1 E]; subst.
    + exfalso. revert E. clear - H0 H24 Hq. unfold qok, qstates in Hq; cbn in Hq.
      destruct Hq as [<-|[<-|[<-|[<-|[<-|[<-|[<-|[<-|[<-|[]]]]]]]]]]; try congruence.
      all: unfold dstep; cbn [N.eqb Pos.eqb]; dstep_cases; intros; congruence.
    + change (b :: t ++ s') with ((b :: t) ++ s'). constructor; [|exact Hs].
      apply (dstep_tail q b t Hq H0 H24), Ht.
Qed.

Lemma wf_from_drun l : forall q s, qok q -> (wf_from q (l ++ s) <-> wf_from (drun q l) s).
Proof.
  induction l as [|b l IH]; intros q s Hq; [reflexivity|].
  cbn [app drun fold_left]. rewrite (wf_from_step q b (l ++ s) Hq). apply IH, dstep_ok.
Qed.

Lemma wf_from_nil q : wf_from q [] <-> q = 0.
Proof.
  split; [|intros ->; constructor; constructor].
  intros H. inversion H as [s Hs E|q' t s Ht Hs E1 E]; subst; [reflexivity|].
  destruct t; [inversion Ht|discriminate].
Qed.

Lemma wf_from_completable q : qok q -> q <> 12 -> exists s, wf_from q s.
Proof.
  intros Hq H12. unfold qok, qstates in Hq; cbn in Hq.
  destruct Hq as [<-|[<-|[<-|[<-|[<-|[<-|[<-|[<-|[<-|[]]]]]]]]]]; try congruence.
  - exists []. constructor. constructor.
  - exists ([0x80] ++ []). constructor; constructor. unfold cont; lia.
  - exists ([0x80; 0x80] ++ []). constructor; constructor; unfold cont; lia.
  - exists ([0xA0; 0x80] ++ []). constructor; constructor; unfold cont; lia.
  - exists ([0x80; 0x80] ++ []). constructor; constructor; unfold cont; lia.
  - exists ([0x90; 0x80; 0x80] ++ []). constructor; constructor; unfold cont; lia.
  - exists ([0x80; 0x80; 0x80] ++ []). constructor; constructor; unfold cont; lia.
  - exists ([0x80; 0x80; 0x80] ++ []). constructor; constructor; unfold cont; lia.
Qed.

Lemma qok_0 : qok 0. Proof. left; reflexivity. Qed.

Lemma drun_accept l : drun 0 l = 0 <-> utf8_well_formed l.
Proof.
  rewrite <- wf_well_formed, <- wf_from_0. rewrite <- (app_nil_r l) at 2.
  rewrite (wf_from_drun l 0 [] qok_0), wf_from_nil. reflexivity.
Qed.

Lemma drun_not_reject l : drun 0 l <> 12 <-> utf8_prefix l.
Proof.
  unfold utf8_prefix. split.
  - intros H. destruct (wf_from_completable (drun 0 l) (drun_ok 0 l qok_0) H) as (s & Hs).
    exists s. apply wf_well_formed, wf_from_0. apply (wf_from_drun l 0 s qok_0), Hs.
  - intros (s & Hs) E. apply wf_well_formed, wf_from_0 in Hs.
    apply (wf_from_drun l 0 s qok_0) in Hs. rewrite E in Hs. exact (wf_from_12 s Hs).
Qed.

(** ** Whole histories of calls *)

Lemma utf8_init_ok s : u_state (utf8_init s) = 0.
Proof. reflexivity. Qed.

Lemma check_chunks_drun w : 0 < w -> forall chunks s last,
  qok (u_state s) -> Forall (fun c => bytes_ok (snd c)) chunks -> last = u_state s ->
  exists s', check_chunks w s chunks last = Ret (s', drun (u_state s) (flat_map snd chunks)) /\
    u_state s' = drun (u_state s) (flat_map snd chunks).
Proof.
  intros Hw. induction chunks as [|[addr bytes] chunks IH]; intros s last Hq Hc Hlast.
  - exists s. cbn. rewrite Hlast. split; reflexivity.
  - inversion Hc as [|x y Hb Hc']; subst. cbn [check_chunks flat_map snd].
    destruct (check_utf8_drun w addr s bytes Hw Hq Hb) as (s1 & Hr & Hs1).
    rewrite Hr. cbn [obind fst snd].
    assert (Hq1 : qok (u_state s1)) by (rewrite Hs1; apply drun_ok, Hq).
    destruct (IH s1 (drun (u_state s) bytes) Hq1 Hc' (eq_sym Hs1)) as (s2 & Hr2 & Hs2).
    exists s2. rewrite Hr2, Hs1, drun_app in *. split; [reflexivity|].
    rewrite Hs2. reflexivity.
Qed.

Lemma utf8_chunks_correct w s chunks :
  0 < w -> Forall (fun c => bytes_ok (snd c)) chunks ->
  exists s' r, check_chunks w (utf8_init s) chunks CIO_UTF8_ACCEPT = Ret (s', r) /\
    (r = CIO_UTF8_ACCEPT <-> utf8_well_formed (flat_map snd chunks)) /\
    (r = CIO_UTF8_REJECT <-> ~ utf8_prefix (flat_map snd chunks)).
Proof.
  intros Hw Hc.
  destruct (check_chunks_drun w Hw chunks (utf8_init s) 0 qok_0 Hc eq_refl) as (s' & Hr & Hs').
  exists s', (drun 0 (flat_map snd chunks)). split; [exact Hr|].
  unfold CIO_UTF8_ACCEPT, CIO_UTF8_REJECT. split; [apply drun_accept|].
  rewrite <- drun_not_reject. destruct (N.eq_dec (drun 0 (flat_map snd chunks)) 12); tauto.
Qed.

Lemma utf8_single_correct w addr s l :
  0 < w -> bytes_ok l ->
  exists s' r, check_utf8 w addr (utf8_init s) l (N.of_nat (length l)) = Ret (s', r) /\
    (r = CIO_UTF8_ACCEPT <-> utf8_well_formed l) /\
    (r = CIO_UTF8_REJECT <-> ~ utf8_prefix l).
Proof.
  intros Hw Hc.
  destruct (check_utf8_drun w addr (utf8_init s) l Hw qok_0 Hc) as (s' & Hr & Hs').
  exists s', (drun 0 l). split; [exact Hr|].
  unfold CIO_UTF8_ACCEPT, CIO_UTF8_REJECT. split; [apply drun_accept|].
  rewrite <- drun_not_reject. destruct (N.eq_dec (drun 0 l) 12); tauto.
Qed.

Lemma utf8_chunks_invariant w1 w2 s1 s2 chunks1 chunks2 :
  0 < w1 -> 0 < w2 ->
  Forall (fun c => bytes_ok (snd c)) chunks1 -> Forall (fun c => bytes_ok (snd c)) chunks2 ->
  flat_map snd chunks1 = flat_map snd chunks2 ->
  exists t1 t2 r, check_chunks w1 (utf8_init s1) chunks1 CIO_UTF8_ACCEPT = Ret (t1, r) /\
                  check_chunks w2 (utf8_init s2) chunks2 CIO_UTF8_ACCEPT = Ret (t2, r).
Proof.
  intros H1 H2 C1 C2 E.
  destruct (check_chunks_drun w1 H1 chunks1 (utf8_init s1) 0 qok_0 C1 eq_refl) as (t1 & R1 & _).
  destruct (check_chunks_drun w2 H2 chunks2 (utf8_init s2) 0 qok_0 C2 eq_refl) as (t2 & R2 & _).
  exists t1, t2, (drun 0 (flat_map snd chunks1)). split; [exact R1|].
  rewrite E. exact R2.
Qed.

Lemma utf8_reject_sticky w addr s l :
  0 < w -> bytes_ok l -> u_state s = CIO_UTF8_REJECT ->
  exists s', check_utf8 w addr s l (N.of_nat (length l)) = Ret (s', CIO_UTF8_REJECT) /\
             u_state s' = CIO_UTF8_REJECT.
Proof.
  intros Hw Hl E.
  destruct (check_utf8_drun w addr s l Hw) as (s' & Hr & Hs'); [|exact Hl|].
  { rewrite E. right; left; reflexivity. }
  rewrite E in *. unfold CIO_UTF8_REJECT in *. rewrite drun_reject in *. exists s'. split; assumption.
Qed.
