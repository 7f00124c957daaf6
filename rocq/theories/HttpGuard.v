(** Invariants behind C53 (no waiting without a timer) and the wishes of requests. *)
From Verif Require Import Base Text HttpModel HttpSpec HttpProofs HttpSafe HttpSafe2 HttpKeep.
Set Warnings "-unused-intro-pattern".

(** ** What requests want *)
Record Wish (s : client) : Prop := {
  w_ka : ka s = wants_keep (rev (tr s));
  w_upg : upg s = wants_upgrade (rev (tr s));
  w_ci : ci s = true -> In EError (tr s) \/ written s = true;
  w_false : forall g, In (EHeaders false g) (tr s) -> ka s = false;
  w_restart : forall p q g, rev (tr s) = p ++ EHeaders false g :: q -> ~ In ERestart q }.

Lemma wk_cons : forall e t, wants_keep (rev (e :: t)) = match e with EHeaders k _ => k | _ => wants_keep (rev t) end.
Proof. intros e t. unfold wants_keep. cbn [rev]. rewrite fold_left_app. reflexivity. Qed.
Lemma wu_cons : forall e t, wants_upgrade (rev (e :: t)) = match e with EHeaders _ u => u | ERestart => false | _ => wants_upgrade (rev t) end.
Proof. intros e t. unfold wants_upgrade. cbn [rev]. rewrite fold_left_app. reflexivity. Qed.

Lemma rest_cons : forall e t, (forall p q g, rev t = p ++ EHeaders false g :: q -> ~ In ERestart q) ->
  (e = ERestart -> forall g, ~ In (EHeaders false g) t) ->
  forall p q g, rev (e :: t) = p ++ EHeaders false g :: q -> ~ In ERestart q.
Proof.
  intros e t H Z p q g E. cbn in E. destruct (rev q) as [|x q'] eqn:Q.
  - assert (q = []) by (rewrite <- (rev_involutive q), Q; reflexivity). subst q. intros [].
  - assert (X : q = rev q' ++ [x]) by (rewrite <- (rev_involutive q), Q; reflexivity). subst q.
    rewrite app_comm_cons, app_assoc in E. apply app_inj_tail in E as [E ->]. intros I. apply in_app_or in I as [I|[->|[]]].
    + exact (H _ _ _ E I).
    + apply (Z eq_refl g). rewrite in_rev, E. apply in_or_app. right. left. reflexivity.
Qed.

Ltac wish_tac := repeat first [ assumption | rewrite wk_cons | rewrite wu_cons ].
Lemma wish_step : forall S c v c', One c -> Inv (fst c) (snd c) -> Keep (fst c) (snd c) -> Wish (fst c) ->
  enabled c v -> careful c v -> step S c v = Ret c' -> Wish (fst c').
Proof.
  intros S [s k] v c' O I K [W1 W2 W3 W4 W5] En Ca H. cbn [fst snd] in *.
  assert (OC : completed s = true -> written s = true).
  { destruct O as (q & _ & C & W & D). intros G. apply W. intros ->. apply D in G. discriminate G. }
  pose proof (k_done _ _ K) as K1. pose proof (k_ka _ _ K) as K3. pose proof (i_live _ _ I) as IL. clear O I K.
  destruct v; cbn [step] in H.
  1: destruct k as [|o k]; [discriminate|]; destruct o.
  all: cbn [enabled] in En; try (destruct En as (-> & E1 & E2)).
  all: unf; crunch H; open_ret.
  all: repeat match goal with E : c_par _ = _ |- _ => try rewrite E in Ca; try rewrite E in En; clear E end; cbn in Ca; try (cbn in En).
  all: try (constructor; assumption).
  all: repeat match goal with R : reqc _ && completed _ = true |- _ => apply andb_prop in R as [? R] end.
  all: constructor; cbn -[rev wants_keep wants_upgrade] in *; rewrite ?wk_cons, ?wu_cons; try assumption; try reflexivity; try discriminate.
  all: try solve [repeat (apply rest_cons; [|discriminate]); assumption].
  all: try solve [intros g X; repeat (destruct X as [X|X]; [discriminate X|]); eauto].
  all: try solve [intros G; first [right; reflexivity | left; left; reflexivity | left; right; left; reflexivity | destruct (W3 G) as [Z|Z]; [left; repeat right; exact Z|right; exact Z]]].
  all: try congruence.
  all: try solve [intros g [X|X]; [injection X as -> _; reflexivity|]; specialize (W4 _ X); destruct (K3 W4); congruence].
  all: try solve [intros G; destruct (W3 G) as [Z|Z]; [left; right; exact Z|right; congruence]].
  all: repeat match goal with E : negb (_ =? 0) = false |- _ => apply Bool.negb_false_iff, Nat.eqb_eq in E end.
  all: match goal with R : completed _ = true |- _ => destruct (K1 eq_refl R) as [[_ X]|[X|(X1 & X2 & _)]]; [congruence|discriminate X|] end.
  all: try solve [intros G; congruence].
  all: repeat first [apply rest_cons; [|first [discriminate | intros _ g X; repeat (destruct X as [X|X]; [discriminate X|]); specialize (W4 _ X); congruence]]]; assumption.
Qed.
Lemma wish_reach : forall S c, reach S careful c -> Wish (fst c).
Proof.
  induction 1 as [|c v c' R IH En Ca E].
  - constructor; cbn; try reflexivity; try discriminate; try tauto. intros [|] q g H; discriminate H.
  - eapply wish_step; try eassumption; [eapply One_reach; exact R|exact (inv_reach _ _ R)|exact (keep_reach _ _ R)].
Qed.

(** ** Timers *)
Definition owed (s : client) : bool := reqc s || ci s || negb (ka s).
Definition covered (s : client) : bool := upg s || rt s || (st s && owed s).
Definition done (s : client) : bool := reqc s && completed s && match fin s with FRestart => true | _ => false end.
Definition is_err (r : cbret) : bool := match r with CbError => true | _ => false end.
Definition is_skip (r : cbret) : bool := match r with CbSkip => true | _ => false end.

Definition msgok (s : client) : bool := match fin s with FRestart => negb (written s) || st s || completed s | _ => false end.

(** What is on the stack will arm a timer, close the client or mark it to be closed (u: the result of the last callback
    will be overwritten, e: the library call before the top of the stack has failed). *)
Section will.
  Variables (ow pe dn ms rc : bool) (r : cbret).
  Fixpoint willx (u e : bool) (k : list op) : bool :=
    match k with
    | [] => false
    | o :: k =>
      match o with
      | OAccept | OTimeout | OSrvErr | OMark | OClose | OHeaders1 _ => true
      | OWrite _ _ _ => false
      | OMarkIfErr | OCloseIfErr => e || willx u e k
      | ORetErr b => willx u b k
      | OWritten _ | OWritten2 _ _ => ow || willx u false k
      | OUser w => match w, k with
                   | WWritten _, _ => willx u false k
                   | WHeaders, OHeaders2 _ :: _ => true
                   | _, OHeaders2 _ :: _ => false
                   | _, _ => willx true false k
                   end
      | OSetRet _ | OUrlParts | OUrlPart2 => willx true e k
      | OCbEnd _ => (negb u && is_err r) || willx u e k
      | OExec => pe || willx u e k
      | OParsed _ => pe || dn
      | OHeaders2 _ => u || negb (is_skip r)
      | OMessage2 => ms
      | ORestart => rc || willx u false k
      | OFinish => dn
      | OParse _ => false
      end
    end.
End will.
Definition will (s : client) (k : list op) : bool :=
  match k with
  | OWrite c _ _ :: k => if written s then willx (owed s) (perr s) (done s) (msgok s) (reqc s && completed s) (ret s) false true k
                         else is_error_code c || willx (owed s) (perr s) (done s) (msgok s) (reqc s && completed s) (ret s) false false k
  | _ => willx (owed s) (perr s) (done s) (msgok s) (reqc s && completed s) (ret s) false (err s) k
  end.
Definition le (a b : bool) : Prop := a = true -> b = true.
Ltac bor := repeat match goal with H : _ || _ = true |- _ => apply Bool.orb_true_iff in H as [H|H] end.
Lemma willx_mono : forall ow ow' pe pe' dn dn' ms ms' rc rc' r k u e e',
  le ow ow' -> le pe pe' -> le dn dn' -> le ms ms' -> le rc rc' -> le e e' ->
  willx ow pe dn ms rc r u e k = true -> willx ow' pe' dn' ms' rc' r u e' k = true.
Proof.
  intros ow ow' pe pe' dn dn' ms ms' rc rc' r k u e e' A B C D E. unfold le in *. revert u e e'.
  induction k as [|o k IH]; intros u e e' X H; [discriminate H|]. destruct o; cbn in *; auto.
  all: try solve [bor; apply Bool.orb_true_iff; first [left; solve [auto] | right; eauto]].
  all: try solve [eauto].
  destruct w; try solve [eauto]; destruct k as [|[] k]; eauto.
Qed.

(** The response timer has expired: the client is about to be closed. *)
Definition final_ops (s : client) (k : list op) : bool :=
  match k with
  | [OTimeout] | [OMark] => true
  | [OWrite c _ _; OMarkIfErr] => is_error_code c
  | [OMarkIfErr] => err s
  | _ => false
  end.

Record Guard (s : client) (k : list op) : Prop := {
  g_cov : life s = Live -> covered s = true \/ (tbc s = true /\ parsing s = 1) \/ will s k = true;
  g_wr : life s = Live -> written s = true -> st s = true \/ completed s = true \/ (parsing s = 0 /\ final_ops s k = true);
  g_two : Forall (fun o => match o with OWritten2 c _ => completed s = true /\ (c = true -> st s = false) | _ => True end) k;
  g_done : life s = Live -> completed s = true -> (tbc s = true /\ parsing s = 1) \/ pend (err s) k = true \/ st s = false;
  g_st : life s = Live -> st s = true -> written s = true }.

Lemma calm_two : forall (P : bool -> bool -> Prop) k e, calm e k = true -> Forall (fun o => match o with OWritten2 c ok => P c ok | _ => True end) k.
Proof. intros P k e H. apply no_two_any. eapply calm_no_two. exact H. Qed.

Lemma two_any' : forall s (P : bool -> bool -> Prop) (Q : bool -> Prop) k, completed s = false ->
  Forall (fun o => match o with OWritten2 c _ => completed s = true /\ Q c | _ => True end) k ->
  Forall (fun o => match o with OWritten2 c ok => P c ok | _ => True end) k.
Proof. intros s P Q k C H. eapply Forall_impl; [|exact H]. intros [] A; auto. destruct A; congruence. Qed.
Lemma will_intro : forall s e k, e = err s -> willx (owed s) (perr s) (done s) (msgok s) (reqc s && completed s) (ret s) false e k = true -> will s k = true.
Proof. intros s e k -> H. destruct k as [|[] k]; try exact H. discriminate H. Qed.

(** *** Everything but the first part *)
Definition Rest (s : client) (k : list op) : Prop :=
  (life s = Live -> written s = true -> st s = true \/ completed s = true \/ (parsing s = 0 /\ final_ops s k = true)) /\
  Forall (fun o => match o with OWritten2 c _ => completed s = true /\ (c = true -> st s = false) | _ => True end) k /\
  (life s = Live -> completed s = true -> (tbc s = true /\ parsing s = 1) \/ pend (err s) k = true \/ st s = false) /\
  (life s = Live -> st s = true -> written s = true).

Lemma rest_live : forall S s o k ch c', life s = Live -> One (s, o :: k) -> Inv s (o :: k) -> Guard s (o :: k) ->
  enabled (s, o :: k) (VStep ch) -> careful (s, o :: k) (VStep ch) ->
  exec S o ch s k = Ret c' -> Rest (fst c') (snd c').
Proof.
  intros S s o k ch c' L O I G En Ca H.
  assert (OW : 0 < nW (o :: k) -> written s = true /\ completed s = false).
  { destruct O as (q & _ & C & W' & D). intros X. split.
    - apply W'. intros ->. cbn -[nW] in C. lia.
    - destruct (completed s); [|reflexivity]. exfalso. pose proof (proj1 D eq_refl). subst q. change (b2n (1 <=? 2)) with 1 in C. change (b2n true) with 1 in C. lia. }
  assert (OC : completed s = true -> written s = true).
  { destruct O as (q & _ & C & W' & D). intros X. apply W'. intros ->. apply D in X. discriminate X. }
  pose proof (i_reqc _ _ I) as IR.
  destruct G as [_ G2 G3 G4 G5]. specialize (G2 L). specialize (G4 L). specialize (G5 L).
  pose proof (Forall_inv_tail G3) as G3'. pose proof (Forall_inv G3) as G3''. clear G3.
  assert (NC : written s = false -> completed s = false) by (destruct (completed s); [rewrite OC by reflexivity; discriminate|reflexivity]).
  destruct (i_live _ _ I L) as [[P0 Y] | [P0 Y]]; clear I O;
  destruct o; inversion Y; subst; try contradiction; try discriminate; clear Y.
  all: unf; rewrite ?L in H; crunch H; open_ret.
  all: repeat match goal with E : c_par _ = _ |- _ => rewrite E in Ca, En; clear E
       | E : c_user _ = _ |- _ => rewrite E in Ca; clear E | E : c_acc _ = _ |- _ => rewrite E in Ca; clear E end; cbn in Ca, En, OW.
  all: cbn in G2, G4, OW, G3''; try (destruct (OW (Nat.lt_0_succ _)) as [OW1 OW2]).
  all: unfold Rest; cbn; split; [|split; [|split]]; try assumption; try discriminate; try congruence; try solve [repeat first [assumption | apply Forall_cons; [exact Logic.I|]]].
  all: rewrite ?P0 in *; try discriminate.
  all: try solve [intros _ X; destruct (G2 X) as [Z|[Z|[Z1 Z2]]]; [left; assumption|right; left; assumption|first [discriminate Z2 | right; right; split; [reflexivity|assumption]]]].
  all: try solve [intros; left; reflexivity | intros; right; left; reflexivity].
  all: try solve [intros _ X; destruct (G4 X) as [[Z1 Z2]|[Z|Z]]; [first [discriminate Z2 | left; split; assumption] | first [discriminate Z | right; left; first [exact Z | exact (pend_mono _ _ Z)]] | right; right; assumption]].
  all: try solve [intros _ X; rewrite NC in X by assumption; discriminate X].
  all: try solve [repeat (apply Forall_cons; [exact Logic.I|]); refine (two_any' s _ (fun c => c = true -> st s = false) _ _ G3'); auto].
  all: try solve [intros _; exact G5].
  all: try solve [intros _ X; discriminate (OC X)].
  all: try solve [eapply Forall_impl; [|exact G3']; intros [] A; cbn in *; auto; split; [apply A|reflexivity]].
  all: try solve [repeat (apply Forall_cons; [exact Logic.I|]); first [eapply calm_two; eassumption | eapply (calm_two _ _ true); apply safe_calm; assumption]].
  all: try solve [repeat (apply Forall_cons; [exact Logic.I|]); apply Forall_cons; [split; [reflexivity|intros ->; destruct (st s); reflexivity]|]; refine (two_any' s _ (fun c => c = true -> st s = false) _ _ G3'); auto].
  all: try solve [intros; congruence].
  all: try specialize (G2 eq_refl); try specialize (NC eq_refl).
  all: try solve [intros _ X; discriminate (G5 X)].
  all: try solve [intros _ X; pose proof (G4 X) as G4'; destruct w; try discriminate E0; try discriminate H3; cbn in G4' |- *; destruct G4' as [[Z1 Z2]|[Z|Z]]; [left; split; [exact Z1|reflexivity] |right; left; first [discriminate Z | exact Z | exact (pend_mono _ _ Z)] | right; right; exact Z]].
  all: try solve [intros _ X; pose proof (G4 X) as G4'; rewrite ?E; destruct G4' as [[Z1 Z2]|[Z|Z]]; [first [discriminate Z1 | discriminate Z2 | left; split; [exact Z1|reflexivity]] |right; left; first [discriminate Z | exact Z | exact (pend_mono _ _ Z)] | right; right; exact Z]].
  all: try solve [intros _ X; try specialize (G2 X); destruct G2 as [Z|[Z|[Z1 Z2]]]; [left; exact Z|right; left; exact Z|]; right; right; split; [exact Z1|]; try discriminate Z2; destruct k as [|[] [|]]; cbn; solve [discriminate Z2 | reflexivity | congruence]].
  all: try solve [intros _ X; right; right; apply G3''; destruct cancelled; [reflexivity|discriminate]].
  all: try solve [intros _ X; apply andb_prop in E as [_ E]; destruct (G4 E) as [[_ Z]|[Z|Z]]; congruence].
  all: try solve [inversion G3'; subst; repeat (apply Forall_cons; [exact Logic.I|]); refine (two_any' s _ (fun c => c = true -> st s = false) _ _ _); eassumption].
  all: try solve [intros; left; split; [reflexivity|assumption]].
  all: try solve [intros _ X; pose proof (G4 X) as G4'; destruct w; try discriminate E0; cbn in G4' |- *; destruct G4' as [[Z1 Z2]|[Z|Z]]; first [discriminate Z | left; split; [exact Z1|reflexivity] | right; right; exact Z]].
  intros; left; split; reflexivity.
Qed.

(** *** The first part *)
Ltac bools := repeat match goal with
  | H : ?a && ?b = true |- _ => apply andb_prop in H as [? ?]
  | H : _ || _ = true |- _ => apply Bool.orb_true_iff in H as [H|H]
  | H : negb _ = true |- _ => apply Bool.negb_true_iff in H
  | H : negb _ = false |- _ => apply Bool.negb_false_iff in H
  end.
Ltac le_tac := unfold le; auto; try solve [intros; congruence | intros; bools; rewrite ?Bool.orb_true_r in *; auto; try discriminate; repeat match goal with H : _ = true |- _ => rewrite H end; rewrite ?Bool.orb_true_r; reflexivity].
Ltac mono_tac G := eapply willx_mono; [..|exact G]; le_tac.
Ltac brute s := destruct (fin s), (reqc s), (ci s), (ka s), (completed s), (perr s); cbn in *.
Definition Cov (s : client) (k : list op) : Prop := covered s = true \/ (tbc s = true /\ parsing s = 1) \/ will s k = true.

Lemma cov_live : forall S s o k ch c', life s = Live -> One (s, o :: k) -> Inv s (o :: k) -> Keep s (o :: k) -> Guard s (o :: k) -> Wish s ->
  enabled (s, o :: k) (VStep ch) -> guarded (s, o :: k) (VStep ch) ->
  exec S o ch s k = Ret c' -> life (fst c') = Live -> Cov (fst c') (snd c').
Proof.
  intros S s o k ch c' L O I K G W En [Ca Sk] H.
  assert (OW : 0 < nW (o :: k) -> written s = true /\ completed s = false).
  { destruct O as (q & _ & C & W' & D). intros X. split.
    - apply W'. intros ->. cbn -[nW] in C. lia.
    - destruct (completed s); [|reflexivity]. exfalso. pose proof (proj1 D eq_refl). subst q. change (b2n (1 <=? 2)) with 1 in C. change (b2n true) with 1 in C. lia. }
  assert (OC : completed s = true -> written s = true).
  { destruct O as (q & _ & C & W' & D). intros X. apply W'. intros ->. apply D in X. discriminate X. }
  unfold history in Sk. cbn [fst snd] in Sk. rewrite <- (w_upg _ W) in Sk. clear W.
  pose proof (k_ka _ _ K) as K3. pose proof (i_reqc _ _ I) as IR. clear K.
  destruct G as [G1 G2 G3 _ _]. specialize (G1 L). specialize (G2 L).
  pose proof (Forall_inv G3) as G3''. clear G3.
  destruct (i_live _ _ I L) as [[P0 Y] | [P0 Y]]; clear I O;
  destruct o; inversion Y; subst; try contradiction; try discriminate; clear Y.
  all: unf; rewrite ?L in H; crunch H; open_ret.
  all: repeat match goal with E : c_par _ = _ |- _ => rewrite E in Ca, En; clear E
       | E : c_user _ = _ |- _ => rewrite E in Ca, Sk; clear E | E : c_acc _ = _ |- _ => rewrite E in Ca; clear E end; cbn in Ca, En, OW, Sk.
  all: cbn in G1, G2, OW, G3''; try (destruct (OW (Nat.lt_0_succ _)) as [OW1 OW2]); clear OW.
  all: try (intros X; discriminate X); intros _.
  all: unfold Cov; cbn; rewrite ?P0 in *; try discriminate.
  all: try solve [right; right; reflexivity | left; reflexivity | right; left; split; reflexivity].
  all: rewrite ?Bool.orb_true_r.
  all: try solve [right; right; reflexivity | left; reflexivity | right; left; split; reflexivity].
  all: try solve [unfold covered; cbn; rewrite ?Bool.orb_true_r; left; reflexivity].
  all: try solve [destruct (written s); right; right; reflexivity].
  all: try solve [right; right; destruct (written s) eqn:W; cbn; [destruct (G2 eq_refl) as [Z|[Z|[Z _]]]; [rewrite Z|rewrite Z, ?Bool.orb_true_r|discriminate Z]|]; reflexivity].
  all: destruct G1 as [G1|[[G1 G1']|G1]]; try discriminate.
  all: try solve [left; exact G1].
  all: try solve [right; left; split; [exact G1|reflexivity]].
  all: try solve [right; right; exact G1].
  all: unfold covered, owed, done, msgok in *; cbn in *.
  all: try solve [left; exact G1].
  all: try solve [right; right; exact G1].
  all: try solve [destruct (upg s); [left; reflexivity|]; destruct (rt s) ; [left; reflexivity|]; cbn in *; apply andb_prop in G1 as [A B]; rewrite ?A, ?B, ?Bool.orb_true_r; cbn; auto].
  all: try solve [right; right; bools; rewrite ?G1, ?Bool.orb_true_r; first [reflexivity | congruence | discriminate]].
  all: try solve [exfalso; bools; try congruence; match goal with X : reqc _ = true |- _ => destruct (IR X); destruct Ca; intuition congruence end].
  all: try solve [right; right; rewrite ?G1, ?Bool.orb_true_r; destruct (written s); reflexivity].
  all: try solve [right; right; eapply will_intro; [reflexivity|]; unfold owed, done, msgok; cbn; rewrite ?Bool.orb_true_r; mono_tac G1].
  all: try solve [right; right; bools; rewrite ?G1, ?Bool.orb_true_r; cbn; first [reflexivity | eapply will_intro; [reflexivity|]; unfold owed, done, msgok; cbn; rewrite ?Bool.orb_true_r; mono_tac G1]].
  all: try solve [right; right; destruct w; try discriminate; cbn in *; destruct (written s); cbn; rewrite ?Bool.orb_true_r; bools; rewrite ?G1, ?Bool.orb_true_r; first [reflexivity | try (apply Bool.orb_true_iff; right); mono_tac G1]].
  all: repeat match goal with E : written ?x = _ |- _ => rewrite E in *; clear E | E : err ?x = _ |- _ => rewrite E in *; clear E
       | E : ret ?x = _ |- _ => rewrite E in *; clear E end; cbn in *.
  all: try solve [left; rewrite ?Bool.orb_true_r; cbn; rewrite ?Bool.orb_true_r; reflexivity].
  all: try solve [right; right; exact G1].
  all: try solve [right; right; eapply will_intro; [reflexivity|]; unfold owed, done, msgok; cbn; rewrite ?Bool.orb_true_r; mono_tac G1].
  all: try solve [right; right; bools; try discriminate; try congruence; rewrite ?G1, ?Bool.orb_true_r; cbn; try reflexivity; try (apply Bool.orb_true_iff; right); mono_tac G1].
  all: try match goal with w : where_ |- _ => destruct w; try discriminate; try match goal with X : returns_nothing _ = _ |- _ => discriminate X end end; cbn in *.
  all: try solve [right; right; exact G1].
  all: try solve [right; right; bools; rewrite ?G1, ?Bool.orb_true_r; reflexivity].
  all: try solve [destruct r; cbn; auto; left; rewrite (Sk eq_refl); reflexivity].
  all: try solve [right; right; eapply will_intro; [reflexivity|]; unfold owed, done, msgok; cbn; brute s; try discriminate; first [exact G1 | mono_tac G1]].
  all: try solve [brute s; try discriminate; try congruence; try solve [left; rewrite ?Bool.orb_true_r; reflexivity | right; right; first [reflexivity | exact G1 | mono_tac G1]]].
  all: try solve [match goal with X : is_error_code _ = false |- _ => rewrite X in G1 end; cbn in G1; right; right; eapply will_intro; [reflexivity|]; unfold owed, done, msgok; cbn; mono_tac G1].
  all: try solve [destruct G3'' as [X _]; rewrite X in *; right; right; bools; try congruence; rewrite ?G1; cbn; try reflexivity; apply Bool.orb_true_iff; right; mono_tac G1].
  all: try solve [match goal with X : negb (written _) = false |- _ => rewrite X in G1 end; cbn in G1; brute s; destruct (st s); cbn in *; try discriminate; rewrite ?Bool.orb_true_r; auto].
  all: try solve [left; match goal with X : upg _ = true |- _ => rewrite X end; reflexivity].
  all: destruct G3'' as [X _]; apply Bool.orb_false_iff in E1 as [E1 E2]; apply Bool.negb_false_iff in E2; rewrite X, E1, E2 in G1 |- *; right; right; destruct (reqc s); cbn in *; [reflexivity|exact G1].
Qed.

Lemma guard_dead : forall S s o k ch c', life s <> Live -> Inv s (o :: k) -> Guard s (o :: k) ->
  exec S o ch s k = Ret c' -> Guard (fst c') (snd c').
Proof.
  intros S s o k ch c' L I K H. destruct (i_gone _ _ I L) as [C N]. destruct K as [K1 K2 K3 K4 K5].
  destruct o; cbn in C; try discriminate C; cbn in H.
  - injection H as <-. constructor; cbn; auto; try congruence. exact (Forall_inv_tail K3).
  - apply andb_prop in C as [E C]. destruct (err s) eqn:Er; [discriminate E|]. injection H as <-. constructor; cbn; auto; try congruence. exact (Forall_inv_tail K3).
  - apply andb_prop in C as [E C]. destruct (err s) eqn:Er; [discriminate E|]. injection H as <-. constructor; cbn; auto; try congruence. exact (Forall_inv_tail K3).
Qed.

Lemma guard_step : forall S c v c', One c -> Inv (fst c) (snd c) -> Keep (fst c) (snd c) -> Wish (fst c) -> Guard (fst c) (snd c) ->
  enabled c v -> guarded c v -> step S c v = Ret c' -> Guard (fst c') (snd c').
Proof.
  intros S [s k] v c' O I K W G En Gu H. pose proof Gu as [Ca _]. destruct v.
  1: { destruct k as [|o k]; [destruct En|]. cbn [step fst snd] in *.
       destruct (life s) eqn:L; [|eapply guard_dead; try eassumption; congruence|eapply guard_dead; try eassumption; congruence].
       destruct (rest_live _ _ _ _ _ _ L O I G En Ca H) as (A & B & C & D).
       constructor; try assumption. exact (cov_live _ _ _ _ _ _ L O I K G W En Gu H). }
  all: destruct G as [G1 G2 G3 G4 G5]; clear K W Gu; cbn in *; try (destruct En as (-> & E1 & E2)); cbn in *.
  all: try (destruct En as [-> En]).
  all: assert (P0 : life s = Live -> parsing s = 0) by (intros L; destruct (i_live _ _ I L) as [[P0 Y] | [P0 Y]]; [exact P0|inversion Y]).
  all: try (destruct u; try (destruct E2; fail)); try (destruct (life s) eqn:L0; try discriminate).
  all: try (injection H as <-).
  all: constructor; cbn; auto; try discriminate; try congruence; try solve [repeat constructor].
  all: intros _; try specialize (P0 eq_refl); try specialize (G1 eq_refl); try specialize (G2 eq_refl); try specialize (G4 eq_refl).
  all: try solve [destruct G1 as [G1|[[_ G1]|G1]]; [left; exact G1|congruence|discriminate G1]].
  all: try solve [intros X; destruct (G2 X) as [Z|[Z|[_ Z]]]; [left; exact Z|right; left; exact Z|discriminate Z]].
  all: try solve [intros X; destruct (G4 X) as [[_ Z]|[Z|Z]]; [congruence|discriminate Z|right; right; exact Z]].
  all: intros D; destruct O as (q & _ & C & _ & _); rewrite E2, D in C; cbn in C; destruct q as [|q]; cbn in C; lia.
Qed.

Lemma guarded_careful : forall S c, reach S guarded c -> reach S careful c.
Proof. induction 1 as [|c v c' R IH En [Ca _] E]; [constructor|eapply reach_step; eassumption]. Qed.

Lemma guard_reach : forall S c, reach S guarded c -> Guard (fst c) (snd c).
Proof.
  induction 1 as [|c v c' R IH En Ca E].
  - constructor; cbn; auto; discriminate.
  - apply guarded_careful in R as R'. eapply guard_step; try eassumption; [eapply One_reach; exact R'|exact (inv_reach _ _ R')|exact (keep_reach _ _ R')|exact (wish_reach _ _ R')].
Qed.
