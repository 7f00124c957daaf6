(** C34, C35, C36: what users of the HTTP server can rely on. *)
From Verif Require Import Base Text HttpModel HttpSpec HttpProofs HttpDec HttpSafe HttpSafe2 HttpKeep HttpPipe.

(** ** Traces and histories *)
Lemma tidy_split : forall t p e r, tidy t -> rev t = p ++ e :: r ->
  fine e (rev p) /\ ~ In EFreeClient p /\ (In EClose p -> e = EFreeClient /\ r = []) /\ (e = EFreeClient -> r = []).
Proof.
  intros t p e r T H. assert (E : t = rev r ++ e :: rev p). { rewrite <- (rev_involutive t), H, rev_app_distr. cbn. rewrite <- app_assoc. reflexivity. }
  clear H. subst t. revert T. 
  assert (G : tidy (e :: rev p) -> fine e (rev p) /\ ~ In EFreeClient p /\ (In EClose p -> e = EFreeClient)).
  { intros (A & B & C & D). repeat split; [exact D|intros X; apply B; apply in_rev in X; exact X|intros X; apply C; apply in_rev in X; exact X]. }
  destruct (rev r) as [|x l] eqn:Er.
  - intros T. assert (r = []) by (rewrite <- (rev_involutive r), Er; reflexivity). subst r. destruct (G T) as (A & B & C). repeat split; auto.
  - cbn. intros (T & B & C & D).
    assert (T1 : tidy (e :: rev p)). { clear - T. induction l as [|y l IH]; [exact T|]. cbn in T. destruct T as (T & _). auto. }
    destruct (G T1) as (A & B' & C'). split; [exact A|]. split; [exact B'|].
    assert (NF : e <> EFreeClient). { intros ->. apply B. apply in_or_app. right. left. reflexivity. }
    split; [|intros X; contradiction]. intros X. specialize (C' X). contradiction.
Qed.

(** ** C36 *)

(** Nothing undefined happens: no step uses the client after it was released or closes it
    a second time, calls a handler that is gone or re-enters the parser. *)
Theorem C36_every_step_is_defined : forall S c v, reach S careful c -> enabled c v -> careful c v -> exists c', step S c v = Ret c'.
Proof. intros S c v R En Ca. apply progress; auto; [eapply One_reach; exact R|apply (inv_reach _ _ R)]. Qed.

(** Whatever happens: the client is released at most once, after timers and
    stream were closed (once), and nothing happens afterwards; a handler is released at
    most once, it was allocated before, and none of its callbacks is called
    afterwards; free_client is never called without a client. *)
Theorem C36_released_at_most_once : forall S c p e r, reach S careful c -> history c = p ++ e :: r ->
  match e with
  | EFreeClient => In EClose p /\ ~ In EFreeClient p /\ r = []
  | EClose => ~ In EClose p /\ (r = [] \/ r = [EFreeClient])
  | EFreeHandler h => In (EAlloc h) p /\ ~ In (EFreeHandler h) p /\ ~ In (EFreeHandler h) r /\ forall w, ~ In (ECall (Some h) w) r
  | EFreeNull => False
  | _ => True
  end.
Proof.
  intros S c p e r R H. pose proof (a_tidy _ _ _ _ (acc_reach _ _ R)) as T. unfold history in H.
  destruct (tidy_split _ _ _ _ T H) as (A & B & C & D).
  destruct e; cbn in A; try exact Logic.I; try contradiction.
  - destruct A as [A1 A2]. split; [apply in_rev; exact A1|]. split; [intros X; apply A2; apply in_rev in X; exact X|].
    assert (N : forall x, In x r -> exists p' r', history c = p' ++ x :: r' /\ In (EFreeHandler h) p').
    { intros x X. apply in_split in X as (r1 & r2 & ->). exists (p ++ EFreeHandler h :: r1), r2. split; [|apply in_or_app; right; left; reflexivity].
      unfold history. rewrite H, <- app_assoc. reflexivity. }
    split; [intros X|intros w X]; destruct (N _ X) as (p' & r' & H' & I'); destruct (tidy_split _ _ _ _ T H') as (A' & _); cbn in A'; apply (proj2 A'); rewrite <- in_rev; exact I'.
  - split; [intros X; destruct (C X); discriminate|]. destruct r as [|x r]; [auto|right].
    assert (H' : rev (tr (fst c)) = (p ++ [EClose]) ++ x :: r) by (rewrite H, <- app_assoc; reflexivity).
    destruct (tidy_split _ _ _ _ T H') as (_ & _ & C' & _). destruct C' as [-> ->]; [apply in_or_app; right; left; reflexivity|]. reflexivity.
  - split; [apply in_rev; exact A|]. split; [exact B|]. apply D. reflexivity.
Qed.

(** When the client is released, all its handlers have been. *)
Theorem C36_all_handlers_released : forall S c h, reach S careful c -> In EFreeClient (history c) ->
  In (EAlloc h) (history c) -> In (EFreeHandler h) (history c).
Proof.
  intros S c h R F A. unfold history in *. rewrite <- in_rev in F, A |- *.
  destruct (acc_reach _ _ R) as [_ Aa Af _ _ Ac]. apply Ac in F. apply Aa in A.
  destruct (Af h A) as [E|E]; [|exact E]. destruct (i_gone _ _ (inv_reach _ _ R)) as [_ Z]; [congruence|]. congruence.
Qed.

(** ** C35 *)
Lemma prog_suffix : forall l u, prog (l ++ u) <> None -> prog u <> None.
Proof. induction l as [|e l IH]; intros u H; [exact H|]. cbn in H. apply IH. destruct (prog (l ++ u)); [discriminate|congruence]. Qed.
Lemma prog_two : forall l u, prog (l ++ u) = Some 2 -> prog u = Some 1 -> exists l1 l2 w, l = l2 ++ EWritten w :: l1.
Proof.
  induction l as [|e l IH]; intros u H U; [cbn in H; congruence|]. cbn in H. destruct (prog (l ++ u)) as [q|] eqn:E; [|discriminate].
  destruct e; try (injection H as ->; destruct (IH _ E U) as (l1 & l2 & w0 & ->); eexists l1, (_ :: l2), w0; reflexivity).
  - destruct q; [injection H as H; discriminate H|discriminate H].
  - exists l, [], ok. reflexivity.
  - destruct q as [|[|[|q]]]; discriminate H.
Qed.
Lemma prog_zero : forall l u, prog (l ++ u) = Some 0 -> prog u = Some 1 ->
  exists l1 l2 l3 w, l = l3 ++ ERestart :: l2 ++ EWritten w :: l1.
Proof.
  induction l as [|e l IH]; intros u H U; [cbn in H; congruence|]. cbn in H. destruct (prog (l ++ u)) as [q|] eqn:E; [|discriminate].
  destruct e; try (injection H as ->; destruct (IH _ E U) as (l1 & l2 & l3 & w0 & ->); eexists l1, l2, (_ :: l3), w0; reflexivity).
  - destruct q; [injection H as H; discriminate H|discriminate H].
  - destruct q as [|[|q]]; discriminate H.
  - destruct q as [|[|[|q]]]; try discriminate H. destruct (prog_two _ _ E U) as (l1 & l2 & w & ->). exists l1, l2, [], w. reflexivity.
Qed.
Lemma prog_prefix : forall l u q q', prog (l ++ u) = Some q -> prog u = Some q' -> ~ In ERestart l -> q' <= q.
Proof.
  induction l as [|e l IH]; intros u q q' H U N; [cbn in H; assert (q = q') by congruence; lia|]. cbn in H. destruct (prog (l ++ u)) as [q0|] eqn:E; [|discriminate].
  assert (q' <= q0) by (eapply IH; eauto; intros X; apply N; right; exact X).
  destruct e; try (injection H as <-; assumption); try (destruct q0 as [|[|[|]]]; try discriminate H; injection H as <-; lia).
  exfalso. apply N. left. reflexivity.
Qed.

Lemma rev_split : forall (A : Type) (t p r : list A) e, rev t = p ++ e :: r -> t = rev r ++ e :: rev p.
Proof. intros A t p r e H. rewrite <- (rev_involutive t), H, rev_app_distr. cbn. rewrite <- app_assoc. reflexivity. Qed.

(** Whatever the peer, the application, timers and stream do: between two responses
    handed to the stream the first one has been written and the server has
    turned to the next request. *)
Theorem C35_one_response_at_a_time : forall S ok c p c1 a1 b1 m c2 a2 b2 r, reach S ok c ->
  history c = p ++ EResponse c1 a1 b1 :: m ++ EResponse c2 a2 b2 :: r ->
  exists m1 m2 m3 w, m = m1 ++ EWritten w :: m2 ++ ERestart :: m3.
Proof.
  intros S ok c p c1 a1 b1 m c2 a2 b2 r R H.
  assert (G : prog (tr (fst c)) <> None).
  { pose proof (One_reach _ _ _ R) as O. destruct c as [s k]. destruct O as (q & O & _). cbn. congruence. }
  unfold history in H. rewrite app_comm_cons, app_assoc in H. apply rev_split in H. rewrite H in G. apply prog_suffix in G.
  cbn [prog] in G. rewrite rev_app_distr in G. cbn [rev] in G. rewrite <- app_assoc in G. cbn [app] in G.
  destruct (prog (rev m ++ EResponse c1 a1 b1 :: rev p)) as [q|] eqn:Q; [|congruence]. destruct q; [|congruence].
  assert (U : prog (EResponse c1 a1 b1 :: rev p) = Some 1).
  { assert (Z : prog (EResponse c1 a1 b1 :: rev p) <> None) by (apply (prog_suffix (rev m)); congruence).
    cbn in *. destruct (prog (rev p)) as [[|q]|]; congruence. }
  destruct (prog_zero _ _ Q U) as (l1 & l2 & l3 & w & E). apply (f_equal (@rev ev)) in E. rewrite rev_involutive in E.
  exists (rev l1), (rev l2), (rev l3), w. rewrite E, rev_app_distr. cbn. rewrite rev_app_distr. cbn. rewrite <- !app_assoc. reflexivity.
Qed.

(** A response while another one is outstanding, i.e. when there has been one since the
    server last turned to a new request, is refused with an error and
    nothing else happens. *)
Theorem C35_second_response_refused : forall S ok s k p c a b m code body cb ch c', reach S ok (s, OWrite code body cb :: k) ->
  history (s, OWrite code body cb :: k) = p ++ EResponse c a b :: m -> ~ In ERestart m ->
  step S (s, OWrite code body cb :: k) (VStep ch) = Ret c' ->
  c' = (log ERefused (set_err true s), k).
Proof.
  intros S ok s k p c a b m code body cb ch c' R H N E. destruct (One_reach _ _ _ R) as (q & Q & _ & W & _).
  assert (written s = true).
  { apply W. intros ->. unfold history in H. cbn in H. apply rev_split in H. rewrite H in Q.
    assert (Z : prog (EResponse c a b :: rev p) <> None) by (apply (prog_suffix (rev m)); congruence).
    destruct (prog (EResponse c a b :: rev p)) as [q'|] eqn:Q'; [|congruence].
    assert (q' <= 0) by (eapply prog_prefix; eauto; rewrite <- in_rev; exact N).
    cbn in Q'. destruct (prog (rev p)) as [[|]|]; try discriminate. injection Q' as <-. lia. }
  cbn in E. unfold write_response in E. rewrite H0 in E. destruct (life s); [..|discriminate E]; injection E as <-; reflexivity.
Qed.

(** The server turns to the next request only when a response was written
    successfully since the last time. *)
Lemma lastw_split : forall t, lastw t = true -> exists t1 t2, t = t1 ++ EWritten true :: t2 /\ forall ok, ~ In (EWritten ok) t1.
Proof.
  induction t as [|e t IH]; intros H; [discriminate|].
  destruct e; try (destruct (IH H) as (t1 & t2 & -> & N); eexists (_ :: t1), t2; split; [reflexivity|]; intros ok [X|X]; [discriminate X|exact (N ok X)]).
  cbn in H. subst ok. exists [], t. split; [reflexivity|]. intros ok [].
Qed.
Lemma prog_q2 : forall t, prog t = Some 2 -> exists t1 t2, t = t1 ++ t2 /\ ~ In ERestart t1 /\ exists ok, In (EWritten ok) t1.
Proof.
  induction t as [|e t IH]; intros H; [discriminate|]. cbn in H. destruct (prog t) as [q|] eqn:E; [|discriminate].
  destruct e; try (injection H as ->; destruct (IH eq_refl) as (t1 & t2 & -> & N & ok0 & I); eexists (_ :: t1), t2; split; [reflexivity|]; split; [intros [X|X]; [discriminate X|exact (N X)]|exists ok0; right; exact I]).
  - destruct q; discriminate.
  - destruct q as [|[|q]]; try discriminate H. exists [EWritten ok], t. split; [reflexivity|]. split; [intros [X|[]]; discriminate X|exists ok; left; reflexivity].
  - destruct q as [|[|[|q]]]; discriminate H.
Qed.
Lemma ordered_suffix : forall l u, ordered (l ++ u) -> ordered u.
Proof. induction l as [|e l IH]; intros u H; [exact H|]. destruct H as [H _]. exact (IH _ H). Qed.

Theorem C35_next_request_after_response_written : forall S c p r, reach S careful c -> history c = p ++ ERestart :: r ->
  exists p1 p2, p = p1 ++ EWritten true :: p2 /\ ~ In ERestart p2 /\ forall ok, ~ In (EWritten ok) p2.
Proof.
  intros S c p r R H. pose proof (k_ord _ _ (keep_reach _ _ R)) as O.
  assert (G : prog (tr (fst c)) <> None).
  { pose proof (One_reach _ _ _ R) as O'. destruct c as [s k]. destruct O' as (q & O' & _). cbn. congruence. }
  apply rev_split in H. rewrite H in O, G. apply ordered_suffix in O. apply prog_suffix in G. destruct O as [_ [L _]].
  destruct (lastw_split _ L) as (t1 & t2 & E & N). exists (rev t2), (rev t1). split.
  - rewrite <- (rev_involutive p), E, rev_app_distr. cbn. rewrite <- app_assoc. reflexivity.
  - split; [|intros ok X; apply (N ok), in_rev, X]. cbn in G. destruct (prog (rev p)) as [[|[|[|]]]|] eqn:Q; try congruence.
    destruct (prog_q2 _ Q) as (u1 & u2 & E2 & N2 & ok & I2). intros X. apply in_rev in X.
    rewrite E in E2. clear - E2 N N2 I2 X. revert u1 E2 N2 I2. induction t1 as [|x t1 IH]; intros u1 E2 N2 I2; [destruct X|].
    destruct u1 as [|y u1]; [destruct I2|]. injection E2 as <- E2. destruct X as [->|X]; [apply N2; left; reflexivity|].
    destruct I2 as [I2|I2]; [apply (N ok); left; exact I2|]. apply (IH (fun o Z => N o (or_intror Z)) X u1 E2); [intros Z; apply N2; right; exact Z|exact I2].
Qed.

(** Between two requests the server has turned to the next request (and so, by the
    theorem above, written the response). *)
Lemma begun_split : forall l u, begun (l ++ EUrl :: u) = false -> exists l1 l2, l = l1 ++ ERestart :: l2.
Proof.
  induction l as [|e l IH]; intros u H; [discriminate H|].
  destruct e; try (destruct (IH _ H) as (l1 & l2 & ->); eexists (_ :: l1), l2; reflexivity).
  - discriminate H.
  - exists [], l. reflexivity.
Qed.
Theorem C35_requests_one_by_one : forall S c p m r, reach S careful c -> history c = p ++ EUrl :: m ++ EUrl :: r -> In ERestart m.
Proof.
  intros S c p m r R H. pose proof (proj1 (urls_reach _ _ R)) as U.
  unfold history in H. rewrite app_comm_cons, app_assoc in H. apply rev_split in H. rewrite H in U.
  assert (U' : urls (EUrl :: rev (p ++ EUrl :: m))).
  { clear H. induction (rev r) as [|e l IH]; [exact U|]. apply IH. destruct e; try exact U. apply U. }
  destruct U' as [B _]. rewrite rev_app_distr in B. cbn [rev] in B. rewrite <- app_assoc in B. cbn [app] in B.
  destruct (begun_split _ _ B) as (l1 & l2 & E). apply in_rev. rewrite E. apply in_or_app. right. left. reflexivity.
Qed.

(** The assumption in [careful] that http_parser does not meet a second request in the
    bytes it is given is met by the server itself if the peer declares the length
    of its bodies and ends its lines with CRLF (and the timers work, the request timer
    does not expire and callbacks succeed): no matter how many requests it
    sends at once, and with arbitrary reads. *)
Theorem C35_pipelining : forall S c, reach S polite c -> reach S careful c /\
  forall ch u k, snd c = OExec :: k -> enabled c (VStep ch) -> c_par ch = PUrl u -> ph (fst c) = PhStart /\ ~ (exists m1 m2, history c = m1 ++ EUrl :: m2 /\ ~ In ERestart m2).
Proof.
  intros S c R. destruct (pol_reach _ _ R) as [R' P]. split; [exact R'|].
  intros ch u k E En Eu. destruct c as [s k0]. cbn in E, En |- *. subst k0. rewrite Eu in En. cbn in En.
  assert (Z : ph s = PhStart). { destruct En as [Z|(_ & Z & _)]; [exact Z|]. pose proof (p_bulk _ _ P). cbn in *. congruence. }
  split; [exact Z|]. intros (m1 & m2 & H & N). pose proof (proj2 (urls_reach _ _ R')) as B. cbn in B. apply B; [|exact Z].
  apply rev_split in H. cbn in H. rewrite H. rewrite in_rev in N. clear - N. induction (rev m2) as [|e l IH]; [reflexivity|].
  cbn. destruct e; try (apply IH; intros X; apply N; right; exact X); [reflexivity|]. exfalso. apply N. left. reflexivity.
Qed.

(** After the application has closed the client nothing is parsed any more. *)
Theorem C35_nothing_parsed_after_close : forall S c p r, reach S careful c -> history c = p ++ EUserClose :: r -> ~ In EParse r.
Proof.
  intros S c p r R H X. pose proof (k_ord _ _ (keep_reach _ _ R)) as O. apply in_split in X as (r1 & r2 & ->).
  unfold history in H. rewrite app_comm_cons, app_assoc in H. apply rev_split in H. rewrite H in O. apply ordered_suffix in O.
  destruct O as [_ O]. apply O. rewrite <- in_rev. apply in_or_app. right. left. reflexivity.
Qed.

(** ** C34 *)
Transparent statusline connection_header.
Lemma response_shape : forall S c a hs body cl, content_length_header (N.of_nat (length (concat body))) = Ret cl -> fits body ->
  response S c a (concat hs) (concat body) (concat (statusline S c :: hs ++ [cl] ++ connection_header S a ++ [CRLF] ++ body)).
Proof.
  intros S c a hs body cl E F. rewrite content_length_fits in E by exact F. injection E as <-.
  exists (dec (N.of_nat (length (concat body)))), (dec ((read_header_timeout_ns S / 1000000000) mod 2 ^ 32)).
  split; [apply dec_decimal|]. split; [apply dec_decimal|].
  cbn [concat app]. rewrite !concat_app. cbn [concat app]. rewrite concat_app. cbn [concat].
  assert (Z : statusline S c = status c ++ CRLF ++ text "Server: cio http/" ++ version S ++ CRLF).
  { unfold statusline. rewrite !app_assoc. do 4 f_equal. destruct c; vm_compute; reflexivity. }
  assert (Y : concat (connection_header S a) = connection a (dec ((read_header_timeout_ns S / 1000000000) mod 2 ^ 32))).
  { unfold connection_header, connection. destruct a; cbn [concat]; rewrite ?app_nil_r; try reflexivity.
    unfold keepalive_header. rewrite <- !app_assoc. reflexivity. }
  rewrite Z, Y, <- !app_assoc. reflexivity.
Qed.
Global Opaque statusline connection_header.

(** A call that hands a response to the stream hands over exactly the response with the
    requested status, the header lines added before and the given body. *)
Theorem C34_response_as_requested : forall S s k c body cb ch c' a b,
  reach S careful (s, OWrite c body cb :: k) -> step S (s, OWrite c body cb :: k) (VStep ch) = Ret c' ->
  tr (fst c') = EResponse c a b :: tr s ->
  response S c a (concat (chain s)) (concat body) b /\
  a = match c with S101 => AUpgrade | S400 | S408 | S500 => AClose | _ => if ka s && negb (ci s) then AKeep else AClose end.
Proof.
  intros S s k c body cb ch c' a b R H E. pose proof (Forall_inv (i_fits _ _ (inv_reach _ _ R))) as F. cbn in F.
  cbn [step exec] in H. unfold write_response in H. crunch H; cbn in E.
  all: try discriminate E.
  all: try (apply (f_equal (@length ev)) in E; cbn in E; lia).
  all: try (injection E as X1 X2; discriminate X1).
  all: injection E as X1 X2; subst.
  all: match goal with E : content_length_header _ = Ret _ |- _ => split; [exact (response_shape _ _ _ _ _ _ E F)|] end.
  all: unfold announcement; cbn; match goal with |- context [match ?c with S101 => _ | _ => _ end] => destruct c end; try discriminate; rewrite ?Bool.andb_false_r; reflexivity.
Qed.

Definition good_event (S : server) (e : ev) : Prop :=
  match e with
  | EResponse c a b => (exists headers body, response S c a headers body b) /\ (a = AUpgrade <-> c = S101) /\ (is_error_code c = true -> a = AClose)
  | _ => True
  end.
Lemma good_step : forall S c v c', Forall (good_event S) (tr (fst c)) -> Inv (fst c) (snd c) -> enabled c v -> careful c v -> step S c v = Ret c' ->
  Forall (good_event S) (tr (fst c')).
Proof.
  intros S [s k] v c' G I En Ca H. cbn [fst snd] in *. destruct v; cbn [step] in H.
  1: destruct k as [|o k]; [discriminate|]; pose proof (Forall_inv (i_fits _ _ I)) as F; destruct o.
  all: unf; crunch H; open_ret.
  all: try assumption; repeat first [assumption | apply Forall_cons; [exact Logic.I|]].
  all: apply Forall_cons; [|assumption]; cbn.
  all: match goal with E : content_length_header _ = Ret _ |- _ => split; [eexists _, _; exact (response_shape _ _ _ _ _ _ E F)|] end.
  all: unfold announcement; cbn; rewrite ?Bool.andb_false_r; destruct (ka s), (ci s), c; cbn in *; (split; [split|]); try reflexivity; congruence.
Qed.
(** Every response is well-formed. *)
Theorem C34_every_response_well_formed : forall S st c a b, reach S careful st -> In (EResponse c a b) (history st) ->
  (exists headers body, response S c a headers body b) /\ (a = AUpgrade <-> c = S101) /\ (is_error_code c = true -> a = AClose).
Proof.
  intros S st c a b R H. assert (G : Forall (good_event S) (tr (fst st))).
  { clear H. induction R as [|c0 v c' R IH En Ca E]; [constructor|]. eapply good_step; try eassumption. exact (inv_reach _ _ R). }
  rewrite Forall_forall in G. apply (G (EResponse c a b)). unfold history in H. rewrite <- in_rev in H. exact H.
Qed.

(** After a response that says the connection will be closed the server does not turn to
    another request. *)
Theorem C34_close_announced_is_kept : forall S st p c b r, reach S careful st -> history st = p ++ EResponse c AClose b :: r -> ~ In ERestart r.
Proof.
  intros S st p c b r R H X. pose proof (k_ord _ _ (keep_reach _ _ R)) as O. apply in_split in X as (r1 & r2 & ->).
  unfold history in H. rewrite app_comm_cons, app_assoc in H. apply rev_split in H. rewrite H in O. apply ordered_suffix in O.
  destruct O as [_ [_ O]]. apply (O c b). rewrite <- in_rev. apply in_or_app. right. left. reflexivity.
Qed.

(** When such a response has been written, or one that says the connection will be kept
    and that was sent after the headers of the request had arrived, the server
    does what it said: it closes (or marks the client to be closed after parsing), or
    turns to the next request. *)
Lemma seen_split : forall l u, ~ In ERestart l -> forall k g, seen (l ++ EHeaders k g :: u) = true.
Proof.
  induction l as [|e l IH]; intros u N k g; [reflexivity|]. cbn. destruct e; try (apply IH; intros X; apply N; right; exact X); [reflexivity|].
  exfalso. apply N. left. reflexivity.
Qed.
Lemma ann_split : forall l u c a b, ~ In ERestart l -> prog (l ++ EResponse c a b :: u) <> None -> ann (l ++ EResponse c a b :: u) = Some (a, seen u).
Proof.
  induction l as [|e l IH]; intros u c a b N P; [reflexivity|]. cbn in P |- *.
  assert (P' : prog (l ++ EResponse c a b :: u) <> None) by (destruct (prog (l ++ EResponse c a b :: u)); congruence).
  assert (N' : ~ In ERestart l) by (intros X; apply N; right; exact X).
  destruct e; try (apply IH; assumption).
  - exfalso. assert (Z : prog (EResponse c a b :: u) <> None) by exact (prog_suffix l _ P').
    destruct (prog (EResponse c a b :: u)) as [q|] eqn:Q; [|congruence]. destruct (prog (l ++ EResponse c a b :: u)) as [q'|] eqn:Q'; [|congruence].
    pose proof (prog_prefix _ _ _ _ Q' Q N'). destruct q'; [|congruence]. assert (q = 0) by lia. subst q. cbn in Q. destruct (prog u) as [[|]|]; discriminate.
  - exfalso. apply N. left. reflexivity.
Qed.

Theorem C34_announced_is_done : forall S s k ch p c a b r p1 kp up p2,
  reach S careful (s, OWritten2 true true :: k) -> life s = Live ->
  history (s, OWritten2 true true :: k) = p ++ EResponse c a b :: r -> ~ In ERestart r ->
  p = p1 ++ EHeaders kp up :: p2 -> ~ In ERestart p2 ->
  step S (s, OWritten2 true true :: k) (VStep ch) = Ret (s, match a with AClose => OMark | AKeep => ORestart | AUpgrade => if ci s || negb (ka s) then OMark else ORestart end :: k).
Proof.
  intros S s k ch p c a b r p1 kp up p2 R L H N E N2. pose proof (keep_reach _ _ R) as K. cbn in K.
  assert (G : prog (tr s) <> None). { destruct (One_reach _ _ _ R) as (q & O & _). congruence. }
  unfold history in H. cbn [fst] in H. apply rev_split in H.
  assert (A : ann (tr s) = Some (a, true)).
  { rewrite H in G |- *. rewrite ann_split; [|rewrite <- in_rev; exact N|exact G]. f_equal. f_equal. subst p. rewrite rev_app_distr. cbn. rewrite <- app_assoc. apply seen_split. rewrite <- in_rev. exact N2. }
  cbn. unfold response_written2. rewrite L. cbn. destruct a.
  - pose proof (k_ann _ _ K) as Q. rewrite A in Q. destruct Q as [Q1 Q2]. destruct (Q2 eq_refl) as [Q3 _]. rewrite Q1, Q3. reflexivity.
  - destruct (k_close _ _ K c b) as [Q|Q]; [rewrite H; apply in_or_app; right; left; reflexivity|rewrite Q; reflexivity|rewrite Q, Bool.orb_true_r; reflexivity].
  - destruct (ci s || negb (ka s)); reflexivity.
Qed.
