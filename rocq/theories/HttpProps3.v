(** C53: the HTTP server never waits without a timer; more about C34 and C35. *)
From Verif Require Import Base Text HttpModel HttpSpec HttpProofs HttpDec HttpSafe HttpSafe2 HttpKeep HttpPipe HttpProps HttpGuard HttpProps2.

(** ** C53 *)

(** Whenever the server waits (for bytes, for the application or for the stream) and the
    connection is neither closed nor about to change the protocol, one of its two timers
    is armed, ... *)
Theorem C53_never_waits_without_a_timer : forall S s, reach S guarded (s, []) -> life s = Live ->
  wants_upgrade (history (s, [])) = false -> enabled (s, []) VRequestTimer \/ enabled (s, []) VResponseTimer.
Proof.
  intros S s RP L U. pose proof (guard_reach _ _ RP) as G. apply guarded_careful in RP.
  pose proof (w_upg _ (wish_reach _ _ RP)) as W. cbn in W. unfold history in U. cbn in U. rewrite U in W.
  destruct (i_live _ _ (inv_reach _ _ RP) L) as [[P Y]|[P Y]]; [|inversion Y].
  destruct (g_cov _ _ G L) as [C|[[_ C]|C]]; [|cbn in P, C; congruence|discriminate C].
  unfold covered in C. cbn in C. rewrite W in C. cbn in C. apply Bool.orb_true_iff in C as [C|C]; [left|right]; cbn; [auto|].
  apply andb_prop in C as [C _]. auto.
Qed.

(** ... when the one for the response expires the connection is closed, ... *)
Ltac one_step H := let ch := fresh "ch" in let En := fresh "En" in let Ca := fresh "Ca" in let E := fresh "E" in let X := fresh "X" in
  inversion H as [|? ch ? ? En Ca E X]; subst; clear H; rename X into H; cbn in E.
Ltac end_run H := inversion H; subst; [|match goal with X : enabled (_, []) _ |- _ => destruct X end].
Theorem C53_response_timeout_closes : forall S s c1 c2, reach S guarded (s, []) -> enabled (s, []) VResponseTimer ->
  step S (s, []) VResponseTimer = Ret c1 -> runs S careful c1 c2 ->
  life (fst c2) <> Live /\ exists b, history c2 = history (s, []) ++ ERefused :: b /\ In EClose b.
Proof.
  intros S s c1 c2 RP (_ & L & T) E H. cbn in E. injection E as <-.
  pose proof (g_st _ _ (guard_reach _ _ RP) L T) as W. cbn in W. apply guarded_careful in RP.
  destruct (i_live _ _ (inv_reach _ _ RP) L) as [[P Y]|[P Y]]; [|inversion Y]. cbn in P.
  one_step H. injection E as <-. one_step H. unfold write_response in E. cbn in E. rewrite L, W in E. injection E as <-.
  one_step H. injection E as <-. one_step H. unfold mark, close_client in E. cbn in E. rewrite P, L in E. cbn in E.
  unfold history. unfold free_handler in E. cbn in E.
  destruct (c_free ch2); cbn in E; injection E as <-; end_run H; cbn; (split; [discriminate|]).
  all: destruct (hnd s); cbn; rewrite <- ?app_assoc; cbn; eexists; (split; [reflexivity|cbn; tauto]).
Qed.

Lemma step_grow : forall S c v c', step S c v = Ret c' -> exists b, tr (fst c') = b ++ tr (fst c).
Proof.
  intros S [s k] v c' H. destruct v; cbn [step] in H.
  1: destruct k as [|o k]; [discriminate|]; destruct o.
  all: unf; crunch H; open_ret.
  all: cbn; first [exists []; reflexivity | eexists [_]; reflexivity | eexists [_; _]; reflexivity | eexists [_; _; _]; reflexivity | eexists [_; _; _; _]; reflexivity].
Qed.
Lemma step_hist : forall S c v c', step S c v = Ret c' -> exists b, history c' = history c ++ b.
Proof. intros S c v c' H. destruct (step_grow _ _ _ _ H) as [b E]. exists (rev b). unfold history. rewrite E, rev_app_distr. reflexivity. Qed.
Lemma runs_hist : forall S ok c c', runs S ok c c' -> exists b, history c' = history c ++ b.
Proof.
  induction 1 as [s|c ch c1 c2 En Ok E H (b & B)]; [exists []; rewrite app_nil_r; reflexivity|].
  destruct (step_hist _ _ _ _ E) as [b1 B1]. exists (b1 ++ b). rewrite B, B1, app_assoc. reflexivity.
Qed.
Lemma runs_in : forall S ok (s : client) c c' b0 (P : list ev -> Prop), (forall b b', P b -> P (b ++ b')) -> runs S ok c c' ->
  history c = history (s, []) ++ b0 -> P b0 -> exists b, history c' = history (s, []) ++ b /\ P b.
Proof. intros S ok s c c' b0 P M H E B. destruct (runs_hist _ _ _ _ H) as [b1 B1]. exists (b0 ++ b1). split; [rewrite B1, E, app_assoc; reflexivity|apply M; exact B]. Qed.

Ltac closing E P L s M H :=
  unfold mark, close_client, free_handler in E; cbn in E; rewrite P, L in E; cbn in E;
  match type of E with context [c_free ?ch] => destruct (c_free ch) end; cbn in E; injection E as <-; destruct (hnd s) eqn:?; cbn in H;
  (eapply (runs_in _ _ s); [exact M|exact H|unfold history; cbn; rewrite <- ?app_assoc; reflexivity|right; cbn; tauto]).
(** ... and when the one for the request expires the peer is told so (408, and that the
    connection will be closed) or the connection is closed, or both. *)
Theorem C53_request_timeout_answers : forall S s c1 c2, reach S careful (s, []) -> enabled (s, []) VRequestTimer ->
  step S (s, []) VRequestTimer = Ret c1 -> runs S careful c1 c2 ->
  exists b, history c2 = history (s, []) ++ b /\ ((exists x, In (EResponse S408 AClose x) b) \/ In EClose b).
Proof.
  intros S s c1 c2 RP (_ & L & T) E H. cbn in E. injection E as <-.
  destruct (i_live _ _ (inv_reach _ _ RP) L) as [[P Y]|[P Y]]; [|inversion Y]. cbn in P.
  one_step H. injection E as <-. one_step H. unfold write_response in E. cbn in E. rewrite L in E. cbn in E.
  assert (M : forall b b' : list ev, ((exists x, In (EResponse S408 AClose x) b) \/ In EClose b) -> (exists x, In (EResponse S408 AClose x) (b ++ b')) \/ In EClose (b ++ b')).
  { intros b b' [[x X]|X]; [left; exists x|right]; apply in_or_app; left; exact X. }
  destruct (written s) eqn:W.
  { injection E as <-. one_step H. injection E as <-. one_step H. closing E P L s M H. }
  destruct (content_length_header 0) as [cl|]; [|discriminate E]. cbn in E. rewrite ?L in E. destruct (c_timer ch0) eqn:CT; cbn in E.
  2: { injection E as <-. one_step H. closing E P L s M H. }
  destruct (c_wr ch0) eqn:CW; cbn in E; injection E as <-.
  3: { one_step H. injection E as <-. one_step H. closing E P L s M H. }
  all: rewrite Bool.andb_false_r in H; eapply runs_in; [exact M|exact H|unfold history; cbn; reflexivity|left; eexists; left; reflexivity].
Qed.

(** These assumptions are met: a connection waits for its first request, and for the
    stream to write a response. *)
Example waits_for_request : exists s, reach srv guarded (s, []) /\ life s = Live /\ wants_upgrade (history (s, [])) = false /\ enabled (s, []) VRequestTimer.
Proof. at_run (go 1). okr. Qed.
Example waits_for_stream : exists s, reach srv guarded (s, []) /\ life s = Live /\ wants_upgrade (history (s, [])) = false /\
  enabled (s, []) VResponseTimer /\ ~ enabled (s, []) VRequestTimer.
Proof. at_run served. okr. Qed.
Example request_timeout : exists s s', reach srv guarded (s, []) /\ step srv (s, []) VRequestTimer = Ret (s', [OTimeout]) /\
  exists s2, runs srv careful (s', [OTimeout]) (s2, []) /\ map brief (history (s2, [])) = [NRead; NResponse S408 AClose].
Proof.
  eexists. eexists. split; [apply (run_reach srv _ (go 1) init); [apply reach_init|okr|vm_compute; reflexivity]|]. split; [reflexivity|].
  eexists. split; [do 3 (eapply (runs_step _ _ _ ch0); [exact Logic.I|cbn; exact Logic.I|vm_compute; reflexivity|]); apply runs_end|vm_compute; reflexivity].
Qed.

(** A handler that skips the body of a request which does not want to change the protocol
    leaves the connection without a timer, for ever. *)
Theorem C53_skipped_body_refuted : exists s, reach srv careful (s, []) /\ life s = Live /\ wants_upgrade (history (s, [])) = false /\
  ~ enabled (s, []) VRequestTimer /\ ~ enabled (s, []) VResponseTimer.
Proof.
  at_run (go 1 ++ request ++ line ++ [par (PHeaders true false (Some 5%N)); VStep ch0; usr (UReturn CbSkip)] ++ go 5). okr; intros (_ & _ & X); discriminate X.
Qed.

(** ** C34, C35 *)

(** What a response with status 200 or 404 says about the connection is what the request
    whose headers arrived last wanted, unless the server had an internal error before. *)
Theorem C34_announcement_follows_request : forall S s k c body cb ch c' a b,
  reach S careful (s, OWrite c body cb :: k) -> step S (s, OWrite c body cb :: k) (VStep ch) = Ret c' ->
  history c' = history (s, OWrite c body cb :: k) ++ [EResponse c a b] -> c = S200 \/ c = S404 ->
  (wants_keep (history (s, OWrite c body cb :: k)) = false -> a = AClose) /\
  (wants_keep (history (s, OWrite c body cb :: k)) = true -> ~ In EError (history (s, OWrite c body cb :: k)) -> a = AKeep).
Proof.
  intros S s k c body cb ch c' a b RP H E C.
  assert (E' : tr (fst c') = EResponse c a b :: tr s).
  { unfold history in E. cbn [fst] in E. rewrite <- (rev_involutive (tr (fst c'))), E, rev_app_distr. cbn. rewrite rev_involutive. reflexivity. }
  destruct (C34_response_as_requested _ _ _ _ _ _ _ _ _ _ RP H E') as [_ A].
  pose proof (wish_reach _ _ RP) as W. unfold history. cbn [fst] in *. rewrite <- (w_ka _ W).
  assert (WR : written s = false).
  { cbn [step exec] in H. unfold write_response in H. destruct (written s); [|reflexivity]. exfalso. destruct (life s); [..|discriminate H]; injection H as <-; cbn in E'; injection E' as X; discriminate X. }
  split; intros K.
  - rewrite K in A. destruct C; subst c; exact A.
  - intros N. assert (CI : ci s = false). { destruct (ci s) eqn:Q; [|reflexivity]. destruct (w_ci _ W Q) as [Z|Z]; [|congruence]. destruct N. apply in_rev in Z. exact Z. }
    rewrite K, CI in A. destruct C; subst c; exact A.
Qed.

(** After a request that wants the connection to be closed the server does not turn to
    another one. *)
Theorem C35_no_request_after_last : forall S c p g r, reach S careful c -> history c = p ++ EHeaders false g :: r -> ~ In ERestart r.
Proof. intros S c p g r RP H. exact (w_restart _ (wish_reach _ _ RP) _ _ _ H). Qed.

(** A response is refused only if the request has been answered already (if timers can be
    armed and the stream does not fail at once). *)
Lemma answered_step : forall S c v c', One c -> (written (fst c) = true -> prog (tr (fst c)) <> Some 0) -> enabled c v -> reliable c v ->
  step S c v = Ret c' -> written (fst c') = true -> prog (tr (fst c')) <> Some 0.
Proof.
  intros S [s k] v c' O I En [Ca Re] H. destruct v; cbn [step] in H.
  1: destruct k as [|o k]; [discriminate|]; destruct o.
  all: unf; crunch H; open_ret.
  all: destruct O as (q & Q & C & W & D); cbn [fst snd] in *; cbn; rewrite ?Q; try exact I; try discriminate.
  all: try (rewrite Q in I; exact I).
  all: intros _; try (destruct q as [|[|]]; discriminate).
  all: destruct Re as [Re1 Re2]; congruence.
Qed.
Lemma reliable_careful : forall S c, reach S reliable c -> reach S careful c.
Proof. induction 1 as [|c v c' RP IH En [Ca _] E]; [constructor|eapply reach_step; eassumption]. Qed.
Lemma prog_answered : forall t, prog t <> None -> prog t <> Some 0 -> exists q a c b p, t = q ++ EResponse c a b :: p /\ ~ In ERestart q.
Proof.
  induction t as [|e t IH]; intros N H; [destruct H; reflexivity|]. cbn in N, H. destruct (prog t) as [q|] eqn:Q; [|congruence].
  assert (D : (exists c a b, e = EResponse c a b) \/ (e <> ERestart /\ q <> 0)).
  { destruct e; try (right; split; [discriminate|intros ->; congruence]); [left; eauto|destruct q as [|[|[|]]]; congruence]. }
  destruct D as [(c & a & b & ->)|[D1 D2]]; [exists [], a, c, b, t; split; [reflexivity|intros []]|].
  destruct IH as (q1 & a & c & b & p & -> & X); [congruence|congruence|]. exists (e :: q1), a, c, b, p. split; [reflexivity|]. intros [Y|Y]; [congruence|auto].
Qed.
Theorem C35_refused_only_if_answered : forall S s k c body cb ch c', reach S reliable (s, OWrite c body cb :: k) ->
  step S (s, OWrite c body cb :: k) (VStep ch) = Ret c' -> history c' = history (s, OWrite c body cb :: k) ++ [ERefused] ->
  exists p c0 a0 b0 m, history (s, OWrite c body cb :: k) = p ++ EResponse c0 a0 b0 :: m /\ ~ In ERestart m.
Proof.
  intros S s k c body cb ch c' RP H E.
  assert (A : written s = true -> prog (tr s) <> Some 0).
  { clear H E. change s with (fst (s, OWrite c body cb :: k)). induction RP as [|c0 v c1 RP IH En Ca E]; [discriminate|].
    eapply answered_step; try eassumption. eapply One_reach. exact RP. }
  assert (WR : written s = true).
  { cbn [step exec] in H. unfold write_response in H. unfold history in E. destruct (written s); [reflexivity|]. exfalso.
    assert (E' : tr (fst c') = ERefused :: tr s).
    { rewrite <- (rev_involutive (tr (fst c'))), E, rev_app_distr. cbn. rewrite rev_involutive. reflexivity. }
    clear E. crunch H; open_ret; cbn in E'; try discriminate E'; apply (f_equal (@length ev)) in E'; cbn in E'; lia. }
  destruct (One_reach _ _ _ RP) as (q & Q & _).
  destruct (prog_answered (tr s)) as (q1 & a & c0 & b & p & T & X); [congruence|exact (A WR)|].
  exists (rev p), c0, a, b, (rev q1). unfold history. cbn [fst]. rewrite T, rev_app_distr. cbn. rewrite <- app_assoc. split; [reflexivity|]. rewrite <- in_rev. exact X.
Qed.

(** Examples: the second request is answered, the first response asks for the connection to be kept. *)
Example next_answered : exists s, reach srv reliable (s, []) /\ map brief (history (s, [])) =
  first_request ++ [NWritten true; NCall (WWritten true); NFree 0; NRestart; NRead; NParse; NUrl; NAlloc 1; NCall WUrl; NRead; NParse; NHeaders false; NCall WHeaders; NComplete; NCall WMessage; NResponse S200 AClose;
    NRefused].
Proof. at_run (served ++ [VWritten true] ++ go 4 ++ request ++ headers false false ++ [par PMessage; usr (UWrite S200 text_body false)] ++ go 8 ++ [VUser (UWrite S404 [] false)] ++ go 1). okr. Qed.
