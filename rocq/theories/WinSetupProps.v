(** C72: creation, options and destruction of event loops and sockets on Windows. *)
From Verif Require Import Base WinSetup WinSetupSpec.
Open Scope Z_scope.

Definition shape_k (l : list (nat * ksock)) := map (fun x => (fst x, (k_family (snd x), k_port (snd x)))) l.
Definition shape_t (l : list (nat * (Z * nat))) := map (fun x => (fst x, (fst (snd x), Some (snd (snd x))))) l.

Record inv (t : history) (k : kernel) : Prop := {
  i_ports : k_ports k = loops t;
  i_shape : shape_k (k_socks k) = shape_t (sockets t);
  i_nd1 : NoDup (loops t);
  i_nd2 : NoDup (map fst (sockets t));
  i_lt1 : forall p, In p (loops t) -> (p < k_next k)%nat;
  i_lt2 : forall h, In h (map fst (sockets t)) -> (h < k_next k)%nat;
  i_in : forall x, In x (sockets t) -> In (snd (snd x)) (loops t);
  i_wsa : k_wsa k = length (loops t);
  i_stray : k_stray k = 0%nat;
  i_new : forall h, (k_next k <= h)%nat -> (forall o, last_opt o h t = None) /\ last_alive h t = None /\ was_bound h t = false;
  i_opts : forall h s, lookup h (k_socks k) = Some s ->
    (forall o, value o (k_opts s) = option_map number (last_opt o h t)) /\
    k_alive s = option_map (fun x => (number (fst (fst x)), snd (fst x), snd x)) (last_alive h t) /\
    k_bound s = was_bound h t
}.

Lemma find_lookup h l : find h l = lookup h l.
Proof. induction l as [|[n s] l IH]; [reflexivity|]. cbn. rewrite IH. reflexivity. Qed.
Lemma lookup_in h l : (exists s, lookup h l = Some s) <-> In h (map fst l).
Proof.
  induction l as [|[n s] l IH]; cbn; [split; [intros [? X]; discriminate X|tauto]|].
  destruct (Nat.eqb_spec n h) as [->|N]; [split; [tauto|intros _; exists s; reflexivity]|].
  rewrite IH. split; [tauto|]. intros [X|X]; [contradiction|exact X].
Qed.
Lemma shape_fst l m : shape_k l = shape_t m -> map fst l = map fst m.
Proof.
  intros E. apply (f_equal (map fst)) in E. unfold shape_k, shape_t in E. rewrite !map_map in E. cbn in E. exact E.
Qed.
Lemma shape_update h f l : (forall s, k_family (f s) = k_family s /\ k_port (f s) = k_port s) -> shape_k (update h f l) = shape_k l.
Proof.
  intros F. induction l as [|[n s] l IH]; [reflexivity|]. cbn [update]. destruct (Nat.eqb n h); cbn.
  - destruct (F s) as [-> ->]. reflexivity.
  - f_equal. exact IH.
Qed.
Lemma lookup_update h f l h' : lookup h' (update h f l) = if Nat.eqb h' h then option_map f (lookup h l) else lookup h' l.
Proof.
  induction l as [|[n s] l IH]; cbn [update lookup]; [destruct (Nat.eqb h' h); reflexivity|].
  destruct (Nat.eqb_spec n h) as [E1|N1]; cbn [lookup]; destruct (Nat.eqb_spec h' h) as [E2|N2];
    destruct (Nat.eqb_spec n h') as [E3|N3]; try congruence; try reflexivity; rewrite IH;
    destruct (Nat.eqb_spec h' h); congruence || reflexivity.
Qed.
Lemma update_id h l : update h (fun s => s) l = l.
Proof. induction l as [|[n s] l IH]; [reflexivity|]. cbn. rewrite IH. destruct (Nat.eqb n h); reflexivity. Qed.
Lemma filter_none {A} (f : A -> bool) l : (forall x, In x l -> f x = true) -> filter f l = l.
Proof.
  induction l as [|a l IH]; intros H; [reflexivity|]. cbn. rewrite (H a) by (left; reflexivity). f_equal. apply IH.
  intros x Hx. apply H. right. exact Hx.
Qed.
Lemma remove_port_filter p l : NoDup l -> remove_port p l = filter (fun q => negb (Nat.eqb q p)) l.
Proof.
  induction l as [|a l IH]; intros H; [reflexivity|]. inversion H as [|? ? Ha Hl]; subst. cbn.
  destruct (Nat.eqb_spec a p) as [->|N]; cbn [negb].
  - symmetry. apply filter_none. intros x Hx. destruct (Nat.eqb_spec x p); [subst; contradiction|reflexivity].
  - f_equal. apply IH, Hl.
Qed.
Lemma remove_sock_filter h l : NoDup (map fst l) -> remove_sock h l = filter (fun x => negb (Nat.eqb (fst x) h)) l.
Proof.
  induction l as [|[n s] l IH]; intros H; [reflexivity|]. inversion H as [|? ? Ha Hl]; subst. cbn.
  destruct (Nat.eqb_spec n h) as [->|N]; cbn [negb].
  - symmetry. apply filter_none. intros [m x] Hx. cbn. destruct (Nat.eqb_spec m h); [|reflexivity].
    subst. exfalso. apply Ha. apply (in_map fst) in Hx. exact Hx.
  - f_equal. apply IH, Hl.
Qed.
Lemma map_filter {A B} (g : A -> B) (f : B -> bool) (f' : A -> bool) l : (forall x, f (g x) = f' x) -> map g (filter f' l) = filter f (map g l).
Proof. intros E. induction l as [|a l IH]; [reflexivity|]. cbn. rewrite E. destruct (f' a); cbn; rewrite IH; reflexivity. Qed.
Lemma nodup_filter {A} (f : A -> bool) l : NoDup l -> NoDup (filter f l).
Proof. apply NoDup_filter. Qed.
Lemma lookup_filter h h' l s : lookup h (filter (fun x => negb (Nat.eqb (fst x) h')) l) = Some s -> h <> h' /\ lookup h l = Some s.
Proof.
  induction l as [|[n x] l IH]; cbn; [discriminate|]. destruct (Nat.eqb_spec n h') as [->|N]; cbn [negb lookup].
  - intros E. destruct (IH E) as [M E']. destruct (Nat.eqb_spec h' h); [congruence|]. split; assumption.
  - destruct (Nat.eqb_spec n h) as [->|M]; [intros E; split; [exact N|exact E]|exact IH].
Qed.
Lemma has_in h l : In h l -> has h l = true.
Proof. intros H. apply existsb_exists. exists h. split; [exact H|apply Nat.eqb_refl]. Qed.
Lemma in_sock_lookup t k h : inv t k -> In h (map fst (sockets t)) -> exists s, lookup h (k_socks k) = Some s.
Proof. intros I H. apply lookup_in. rewrite (shape_fst _ _ (i_shape _ _ I)). exact H. Qed.

Section R.
Variable fate : nat -> option Z.
Hypothesis Hreal : real fate.

(** A call on an open socket. *)
Lemma on_sock_cases h f k s : lookup h (k_socks k) = Some s ->
  (exists e, 0 < e /\ on_sock fate h f k = (false, set_last e (tick k))) \/
  on_sock fate h f k = (true, set_socks (update h f (k_socks k)) (tick k)).
Proof.
  intros E. unfold on_sock. rewrite find_lookup, E. destruct (fate (k_calls k)) as [e|] eqn:F; [left; exists e; split; [eapply Hreal; exact F|reflexivity]|right; reflexivity].
Qed.

(** Steps that do not change anything that exists. *)
Lemma inv_same t k k' a s : inv t k ->
  k_ports k' = k_ports k -> k_socks k' = k_socks k -> k_wsa k' = k_wsa k -> k_stray k' = k_stray k -> (k_next k <= k_next k')%nat ->
  loops ((a, s) :: t) = loops t -> sockets ((a, s) :: t) = sockets t ->
  (forall o h, last_opt o h ((a, s) :: t) = last_opt o h t) -> (forall h, last_alive h ((a, s) :: t) = last_alive h t) ->
  (forall h, was_bound h ((a, s) :: t) = was_bound h t) ->
  inv ((a, s) :: t) k'.
Proof.
  intros [] E1 E2 E3 E4 E5 E6 E7 E8 E9 E10. constructor; rewrite ?E6, ?E7; try congruence; try assumption.
  - intros p Hp. specialize (i_lt3 p Hp). lia.
  - intros h Hh. specialize (i_lt4 h Hh). lia.
  - intros h Hh. rewrite E9, E10. setoid_rewrite E8. apply i_new0. lia.
  - intros h x Hx. rewrite E2 in Hx. rewrite E9, E10. setoid_rewrite E8. apply i_opts0, Hx.
Qed.

Lemma err_nz e : 0 < e -> exists p, - e = Zneg p.
Proof. intros H. destruct e; try lia. eexists. reflexivity. Qed.

(** A setting that succeeded. *)
Lemma inv_set t k k' h f a : inv t k -> In h (map fst (sockets t)) ->
  (forall s, k_family (f s) = k_family s /\ k_port (f s) = k_port s) ->
  k' = set_socks (update h f (k_socks k)) (tick k) ->
  loops ((a, Result 0) :: t) = loops t -> sockets ((a, Result 0) :: t) = sockets t ->
  (forall h', h' <> h -> (forall o, last_opt o h' ((a, Result 0) :: t) = last_opt o h' t) /\
      last_alive h' ((a, Result 0) :: t) = last_alive h' t /\ was_bound h' ((a, Result 0) :: t) = was_bound h' t) ->
  (forall s, (forall o, value o (k_opts s) = option_map number (last_opt o h t)) ->
      k_alive s = option_map (fun x => (number (fst (fst x)), snd (fst x), snd x)) (last_alive h t) -> k_bound s = was_bound h t ->
      (forall o, value o (k_opts (f s)) = option_map number (last_opt o h ((a, Result 0) :: t))) /\
      k_alive (f s) = option_map (fun x => (number (fst (fst x)), snd (fst x), snd x)) (last_alive h ((a, Result 0) :: t)) /\
      k_bound (f s) = was_bound h ((a, Result 0) :: t)) ->
  inv ((a, Result 0) :: t) k'.
Proof.
  intros I Hh F -> E6 E7 E8 E9. pose proof I as [].
  constructor; rewrite ?E6, ?E7; cbn [k_ports k_socks k_next k_wsa k_stray set_socks tick]; try assumption.
  - rewrite shape_update by exact F. assumption.
  - intros h' Hh'. assert (h' <> h) as N by (specialize (i_lt4 h Hh); lia). destruct (E8 h' N) as (X & Y & Z).
    rewrite Y, Z. setoid_rewrite X. apply i_new0, Hh'.
  - intros h' s Hs. rewrite lookup_update in Hs. destruct (Nat.eqb_spec h' h) as [->|N].
    + destruct (lookup h (k_socks k)) as [s0|] eqn:L; cbn in Hs; [|discriminate]. injection Hs as <-.
      destruct (i_opts0 h s0 L) as (X & Y & Z). apply E9; assumption.
    + destruct (E8 h' N) as (X & Y & Z). rewrite Y, Z. setoid_rewrite X. apply i_opts0, Hs.
Qed.

Lemma last_opt_skip o h t a s : (forall e, s <> Result e) \/ (exists p, s = Result (Zneg p)) -> last_opt o h ((a, s) :: t) = last_opt o h t.
Proof. intros [H|[p ->]]; [|reflexivity]. destruct s as [e| |]; [exfalso; exact (H e eq_refl)|reflexivity..]. Qed.
Lemma last_alive_skip h t a s : (forall e, s <> Result e) \/ (exists p, s = Result (Zneg p)) -> last_alive h ((a, s) :: t) = last_alive h t.
Proof. intros [H|[p ->]]; [destruct s as [e| |]; [exfalso; exact (H e eq_refl)|..]|]; destruct a; reflexivity. Qed.
Lemma was_bound_skip h t a s : (forall e, s <> Result e) \/ (exists p, s = Result (Zneg p)) -> was_bound h ((a, s) :: t) = was_bound h t.
Proof. intros [H|[p ->]]; [destruct s as [e| |]; [exfalso; exact (H e eq_refl)|..]|]; destruct a; reflexivity. Qed.

Definition is_setting (a : act) : bool :=
  match a with ANoDelay _ _ | AKeepAlive _ _ _ _ _ | AReuse _ _ | AFastOpen _ _ | ABind _ => true | _ => false end.
Lemma setting_loops a s t : is_setting a = true -> loops ((a, s) :: t) = loops t /\ sockets ((a, s) :: t) = sockets t.
Proof. destruct a; cbn; intros E; try discriminate E; split; reflexivity. Qed.

Lemma inv_setting t k h f a : inv t k -> In h (map fst (sockets t)) -> is_setting a = true ->
  (forall s, k_family (f s) = k_family s /\ k_port (f s) = k_port s) ->
  (forall h', h' <> h -> (forall o, last_opt o h' ((a, Result 0) :: t) = last_opt o h' t) /\
      last_alive h' ((a, Result 0) :: t) = last_alive h' t /\ was_bound h' ((a, Result 0) :: t) = was_bound h' t) ->
  (forall s, (forall o, value o (k_opts s) = option_map number (last_opt o h t)) ->
      k_alive s = option_map (fun x => (number (fst (fst x)), snd (fst x), snd x)) (last_alive h t) -> k_bound s = was_bound h t ->
      (forall o, value o (k_opts (f s)) = option_map number (last_opt o h ((a, Result 0) :: t))) /\
      k_alive (f s) = option_map (fun x => (number (fst (fst x)), snd (fst x), snd x)) (last_alive h ((a, Result 0) :: t)) /\
      k_bound (f s) = was_bound h ((a, Result 0) :: t)) ->
  inv ((a, Result (fst (result (on_sock fate h f k)))) :: t) (snd (result (on_sock fate h f k))).
Proof.
  intros I Hh Ha F E1 E2. destruct (in_sock_lookup _ _ _ I Hh) as [s Hs].
  destruct (on_sock_cases h f k s Hs) as [(e & He & ->)| ->]; unfold result; cbn [fst snd k_last set_last].
  - destruct (err_nz e He) as [p ->]. destruct (setting_loops a (Result (Zneg p)) t Ha) as [L1 L2].
    apply (inv_same t k); try reflexivity; try assumption; intros;
      first [apply last_opt_skip|apply last_alive_skip|apply was_bound_skip]; right; eexists; reflexivity.
  - destruct (setting_loops a (Result 0) t Ha) as [L1 L2]. unfold SUCCESS.
    apply (inv_set t k _ h f); try assumption; reflexivity.
Qed.

(** Making a socket. *)
Lemma create_cases f p k t : inv t k -> In p (loops t) ->
  (exists e k', 0 < e /\ socket_create fate f p k = (None, k') /\ k_last k' = e /\ k_ports k' = k_ports k /\ k_socks k' = k_socks k /\
     k_wsa k' = k_wsa k /\ k_stray k' = k_stray k /\ (k_next k <= k_next k')%nat /\ k_errno k' = k_errno k) \/
  (exists k', socket_create fate f p k = (Some (k_next k), k') /\ k_ports k' = k_ports k /\
     k_socks k' = (k_next k, KSock f (Some p) false [] None) :: k_socks k /\ k_wsa k' = k_wsa k /\ k_stray k' = k_stray k /\
     k_next k' = S (k_next k)).
Proof.
  intros I Hp. unfold socket_create, wsa_socket. destruct (fate (k_calls k)) as [e|] eqn:F1.
  - left. eexists e, _. split; [eapply Hreal, F1|]. repeat split; try reflexivity; apply le_n.
  - assert (k_wsa k <> 0%nat) as W.
    { rewrite (i_wsa _ _ I). intros X. apply length_zero_iff_nil in X. rewrite X in Hp. exact Hp. }
    destruct (Nat.eqb_spec (k_wsa k) 0) as [X|_]; [contradiction|].
    set (k1 := set_next _ _). unfold associate.
    assert (has p (k_ports k1) = true) as ->.
    { apply has_in. unfold k1. cbn. rewrite (i_ports _ _ I). exact Hp. }
    assert (find (k_next k) (k_socks k1) = Some (KSock f None false [] None)) as ->.
    { unfold k1. cbn. rewrite Nat.eqb_refl. reflexivity. }
    cbn [k_port]. unfold on_sock.
    assert (find (k_next k) (k_socks k1) = Some (KSock f None false [] None)) as ->.
    { unfold k1. cbn. rewrite Nat.eqb_refl. reflexivity. }
    destruct (fate (k_calls k1)) as [e|] eqn:F2.
    + left. eexists e, _. split; [eapply Hreal, F2|]. split; [reflexivity|].
      unfold closesocket. cbn [k_socks set_last tick k1 set_next set_socks find]. rewrite Nat.eqb_refl.
      cbn [k_last k_ports k_socks k_wsa k_stray k_next k_errno set_socks set_last tick set_next remove_sock]. rewrite Nat.eqb_refl.
      repeat split; try reflexivity. unfold k1; cbn; lia.
    + right. eexists. split; [reflexivity|].
      cbn [k_last k_ports k_socks k_wsa k_stray k_next k_errno set_socks set_last tick set_next k1 update]. rewrite Nat.eqb_refl.
      repeat split; reflexivity.
Qed.

Lemma inv_create t k k' a f p hook : inv t k -> In p (loops t) ->
  k_ports k' = k_ports k -> k_socks k' = (k_next k, KSock f (Some p) false [] None) :: k_socks k -> k_wsa k' = k_wsa k ->
  k_stray k' = k_stray k -> k_next k' = S (k_next k) ->
  (a = ANewSocket f p \/ exists j, a = ANewServer f p j) ->
  inv ((a, Created 0 (Some (k_next k)) hook) :: t) k'.
Proof.
  intros I Hp E1 E2 E3 E4 E5 Ha. pose proof I as [].
  assert (loops ((a, Created 0 (Some (k_next k)) hook) :: t) = loops t) as L1 by (destruct Ha as [->|[j ->]]; reflexivity).
  assert (sockets ((a, Created 0 (Some (k_next k)) hook) :: t) = (k_next k, (f, p)) :: sockets t) as L2 by (destruct Ha as [->|[j ->]]; reflexivity).
  assert (forall s, (forall e, s <> Result e) -> (forall e, s <> Result e) \/ (exists p, s = Result (Zneg p))) as K by (intros; left; assumption).
  assert (forall e, Created 0 (Some (k_next k)) hook <> Result e) as K1 by discriminate.
  constructor; rewrite ?L1, ?L2; try congruence; try assumption.
  - rewrite E2. unfold shape_k, shape_t. cbn [map fst snd k_family k_port]. f_equal. assumption.
  - cbn [map fst]. constructor; [|assumption]. intros X. specialize (i_lt4 _ X). lia.
  - intros q Hq. specialize (i_lt3 q Hq). lia.
  - cbn [map fst]. intros h [<-|Hh]; [lia|]. specialize (i_lt4 h Hh). lia.
  - intros x [<-|Hx]; [exact Hp|apply i_in0, Hx].
  - intros h Hh. rewrite last_alive_skip, was_bound_skip by (apply K, K1). setoid_rewrite last_opt_skip; [|apply K, K1]. apply i_new0. lia.
  - intros h s Hs. rewrite last_alive_skip, was_bound_skip by (apply K, K1). setoid_rewrite last_opt_skip; [|apply K, K1].
    rewrite E2 in Hs. cbn [lookup] in Hs. destruct (Nat.eqb_spec (k_next k) h) as [<-|N]; [|apply i_opts0, Hs].
    injection Hs as <-. cbn [k_opts k_alive k_bound]. destruct (i_new0 (k_next k) (le_n _)) as (X & Y & Z).
    rewrite Y, Z. split; [intros o; rewrite X; reflexivity|split; reflexivity].
Qed.

Lemma inv_failed t k k' a err hook : inv t k -> (match a with ANewLoop | ANewSocket _ _ | ANewServer _ _ _ => True | _ => False end) ->
  k_ports k' = k_ports k -> k_socks k' = k_socks k -> k_wsa k' = k_wsa k ->
  k_stray k' = k_stray k -> (k_next k <= k_next k')%nat -> inv ((a, Created err None hook) :: t) k'.
Proof.
  intros I Ha E1 E2 E3 E4 E5.
  assert ((forall e, Created err None hook <> Result e) \/ (exists p, Created err None hook = Result (Zneg p))) as K by (left; discriminate).
  destruct a; try contradiction; apply (inv_same t k); try assumption; try reflexivity.
Qed.

Lemma opt_eqb_refl o : opt_eqb o o = true.
Proof. destruct o; reflexivity. Qed.

Lemma step_inv t k a s k' : inv t k -> orderly t a -> run1 fate a k = (s, k') -> inv ((a, s) :: t) k'.
Proof.
  intros I HO E. destruct a as [|p|f p|f p j|h|h on|h on i v c|h on|h on|h|h]; cbn [run1 orderly] in *.
  - (* new loop *)
    unfold eventloop_init, new_port in E. destruct (fate (k_calls k)) as [e|] eqn:F1; cbn [fst snd] in E.
    + injection E as <- <-. apply inv_failed with (k := k); try exact I; try reflexivity.
    + set (k1 := set_next _ _) in E. unfold wsa_startup in E. destruct (fate (k_calls k1)) as [e|] eqn:F2.
      * pose proof (Hreal _ _ F2) as He. destruct (Z.eqb_spec e 0) as [X|_]; [lia|]. cbn [fst snd] in E. injection E as <- <-.
        unfold close_port. cbn [k_ports tick k1 set_next set_ports has existsb]. rewrite Nat.eqb_refl. cbn [orb].
        apply inv_failed with (k := k); try exact I; try reflexivity.
        -- cbn [k_ports tick k1 set_next set_ports remove_port]. rewrite Nat.eqb_refl. reflexivity.
        -- cbn. lia.
      * rewrite Z.eqb_refl in E. cbn [fst snd] in E. injection E as <- <-. unfold SUCCESS. pose proof I as [].
        constructor; cbn [loops sockets k_ports k_socks k_next k_wsa k_stray set_wsa tick k1 set_next set_ports length]; try congruence.
        -- constructor; [|assumption]. intros X. specialize (i_lt3 _ X). lia.
        -- intros q [<-|Hq]; [lia|]. specialize (i_lt3 q Hq). lia.
        -- intros h Hh. specialize (i_lt4 h Hh). lia.
        -- intros x Hx. right. apply i_in0, Hx.
        -- intros h Hh. apply i_new0. lia.
        -- exact i_opts0.
  - (* loop destroyed *)
    destruct HO as [Hp Hs]. injection E as <- <-. pose proof I as [].
    unfold eventloop_destroy, close_port. rewrite (has_in p (k_ports k)) by (rewrite i_ports0; exact Hp).
    constructor; cbn [loops sockets k_ports k_socks k_next k_wsa k_stray set_wsa wsa_cleanup tick set_ports]; try assumption.
    + rewrite i_ports0. apply remove_port_filter. assumption.
    + apply nodup_filter. assumption.
    + intros q Hq. apply filter_In in Hq. apply i_lt3, Hq.
    + intros x Hx. apply filter_In. split; [apply i_in0, Hx|]. specialize (Hs x Hx). destruct (Nat.eqb_spec (snd (snd x)) p); [contradiction|reflexivity].
    + rewrite i_wsa0. rewrite <- (remove_port_filter p (loops t)) by assumption. clear -Hp.
      induction (loops t) as [|q l IH]; [contradiction|]. cbn [remove_port length pred].
      destruct (Nat.eqb_spec q p); [reflexivity|]. destruct Hp as [X|X]; [contradiction|]. specialize (IH X).
      destruct l; [contradiction|]. cbn [length pred] in *. lia.
  - (* new socket *)
    unfold socket_init in E. destruct (negb _); [injection E as <- <-; apply inv_failed with (k := k); try exact I; reflexivity|].
    destruct (create_cases f p k t I HO) as [(e & k2 & He & EE & E0 & E1 & E2 & E3 & E4 & E5 & _)|(k2 & EE & E1 & E2 & E3 & E4 & E5)];
      rewrite EE in E; cbn [fst snd] in E; injection E as <- <-.
    + apply inv_failed with (k := k); try assumption. exact Logic.I.
    + unfold SUCCESS. apply inv_create with (f := f) (p := p); try assumption. left. reflexivity.
  - (* new server *)
    destruct HO as [Hp ->]. unfold server_init in E.
    destruct (create_cases f p k t I Hp) as [(e & k2 & He & EE & E0 & E1 & E2 & E3 & E4 & E5 & _)|(k2 & EE & E1 & E2 & E3 & E4 & E5)];
      rewrite EE in E.
    + cbn [fst snd] in E; injection E as <- <-. apply inv_failed with (k := k); try assumption. exact Logic.I.
    + assert (lookup (k_next k) (k_socks k2) = Some (KSock f (Some p) false [] None)) as L by (rewrite E2; cbn; rewrite Nat.eqb_refl; reflexivity).
      destruct (on_sock_cases (k_next k) (fun s => s) k2 _ L) as [(e & He & R)|R]; rewrite R in E; cbn [fst snd Nat.eqb k_last set_last] in E.
      * injection E as <- <-. unfold closesocket. cbn [k_socks set_last tick]. rewrite find_lookup, L.
        apply inv_failed with (k := k); try exact I; try exact Logic.I; cbn [k_ports k_socks k_next k_wsa k_stray set_socks set_last tick]; try assumption.
        -- rewrite E2. cbn. rewrite Nat.eqb_refl. reflexivity.
        -- lia.
      * injection E as <- <-. unfold SUCCESS. rewrite update_id. apply inv_create with (f := f) (p := p); try assumption. right. eexists. reflexivity.
  - (* closed *)
    injection E as <- <-. pose proof I as []. destruct (in_sock_lookup _ _ _ I HO) as [s Hs].
    unfold socket_close, closesocket. rewrite find_lookup, Hs.
    pose proof (shape_fst _ _ i_shape0) as Ef.
    constructor; cbn [loops sockets k_ports k_socks k_next k_wsa k_stray set_socks tick]; try assumption.
    + rewrite remove_sock_filter by (rewrite Ef; assumption). unfold shape_k, shape_t in *.
      rewrite (map_filter _ (fun x => negb (Nat.eqb (fst x) h))) by reflexivity.
      rewrite (map_filter _ (fun x => negb (Nat.eqb (fst x) h))) by reflexivity. rewrite i_shape0. reflexivity.
    + rewrite (map_filter fst (fun x => negb (Nat.eqb x h))) by reflexivity. apply nodup_filter. assumption.
    + intros h' Hh'. rewrite (map_filter fst (fun x => negb (Nat.eqb x h))) in Hh' by reflexivity. apply filter_In in Hh'. apply i_lt4, Hh'.
    + intros x Hx. apply filter_In in Hx. apply i_in0, Hx.
    + intros h' s' Hs'. rewrite remove_sock_filter in Hs' by (rewrite Ef; assumption). apply lookup_filter in Hs'. destruct Hs' as [_ Hs'].
      apply (i_opts0 h' s' Hs').
  - injection E as <- <-. unfold set_tcp_no_delay, setsockopt. apply inv_setting; try assumption; try reflexivity; [split; reflexivity|..].
    + intros h' N. cbn. destruct (Nat.eqb_spec h h'); [congruence|]. split; [intros o; destruct o; reflexivity|split; reflexivity].
    + intros s X Y Z. cbn. rewrite Nat.eqb_refl. split; [|split; assumption]. intros o. destruct o; cbn; try apply X. reflexivity.
  - injection E as <- <-. unfold set_keep_alive. apply inv_setting; try assumption; try reflexivity; [split; reflexivity|..].
    + intros h' N. cbn. destruct (Nat.eqb_spec h h'); [congruence|]. split; [intros o; destruct o; reflexivity|split; reflexivity].
    + intros s X Y Z. cbn. rewrite Nat.eqb_refl. split; [|split; [reflexivity|assumption]]. intros o. apply X.
  - injection E as <- <-. unfold server_set_reuse_address, setsockopt. apply inv_setting; try assumption; try reflexivity; [split; reflexivity|..].
    + intros h' N. cbn. destruct (Nat.eqb_spec h h'); [congruence|]. split; [intros o; destruct o; reflexivity|split; reflexivity].
    + intros s X Y Z. cbn. rewrite Nat.eqb_refl. split; [|split; assumption]. intros o. destruct o; cbn; try apply X. reflexivity.
  - injection E as <- <-. unfold server_set_tcp_fast_open, setsockopt. apply inv_setting; try assumption; try reflexivity; [split; reflexivity|..].
    + intros h' N. cbn. destruct (Nat.eqb_spec h h'); [congruence|]. split; [intros o; destruct o; reflexivity|split; reflexivity].
    + intros s X Y Z. cbn. rewrite Nat.eqb_refl. split; [|split; assumption]. intros o. destruct o; cbn; try apply X. reflexivity.
  - injection E as <- <-. unfold server_bind. apply inv_setting; try assumption; try reflexivity; [split; reflexivity|..].
    + intros h' N. cbn. destruct (Nat.eqb_spec h h'); [congruence|]. split; [intros o; destruct o; reflexivity|split; reflexivity].
    + intros s X Y Z. cbn. rewrite Nat.eqb_refl. split; [|split; [assumption|reflexivity]]. intros o. apply X.
  - injection E as <- <-. destruct (in_sock_lookup _ _ _ I HO) as [s Hs].
    assert (forall x, is_setting x = false -> forall e o h' t, (match x with AFamily _ => True | _ => False end) ->
      last_opt o h' ((x, Result e) :: t) = last_opt o h' t /\ last_alive h' ((x, Result e) :: t) = last_alive h' t /\
      was_bound h' ((x, Result e) :: t) = was_bound h' t) as K.
    { intros x _ e o h' t' Hx. destruct x; try contradiction. cbn. destruct e; repeat split; try reflexivity. }
    assert (k_ports (snd (get_address_family fate h k)) = k_ports k /\ k_socks (snd (get_address_family fate h k)) = k_socks k /\
      k_wsa (snd (get_address_family fate h k)) = k_wsa k /\ k_stray (snd (get_address_family fate h k)) = k_stray k /\
      k_next (snd (get_address_family fate h k)) = k_next k) as (E1 & E2 & E3 & E4 & E5).
    { unfold get_address_family, getsockname. rewrite find_lookup, Hs. destruct (fate (k_calls k)); [repeat split; reflexivity|].
      destruct (k_bound s); repeat split; reflexivity. }
    apply (inv_same t k); try assumption; try reflexivity; try (rewrite E5; apply le_n); intros; apply (K (AFamily h) eq_refl); try exact Logic.I; exact ONoDelay.
Qed.

Lemma reach_inv errno t k : reach orderly fate errno t k -> inv t k.
Proof.
  induction 1 as [|t k a s k' R IH HO E]; [|eapply step_inv; eassumption].
  constructor; cbn; try reflexivity; try constructor; try contradiction; try discriminate; try reflexivity.
  split; reflexivity.
Qed.
End R.

(** After every orderly history, whatever fails: the completion ports are those of the loops that exist, the sockets are those of the
    objects that exist, Winsock is in use once per loop, and no call used a handle that was not open. *)
Theorem C72_nothing_lost : forall fate errno t k, real fate -> reach orderly fate errno t k ->
  k_ports k = loops t /\ map fst (k_socks k) = map fst (sockets t) /\ NoDup (k_ports k) /\ NoDup (map fst (k_socks k)) /\
  k_wsa k = length (loops t) /\ k_stray k = 0%nat.
Proof.
  intros fate errno t k HF R. pose proof (reach_inv fate HF errno t k R) as I. pose proof (shape_fst _ _ (i_shape _ _ I)) as E.
  rewrite E, (i_ports _ _ I). split; [reflexivity|split; [reflexivity|]].
  split; [apply I|split; [apply I|split; apply I]].
Qed.
Print Assumptions C72_nothing_lost.

(** When the application has destroyed its loops, nothing of the library is left in the kernel. *)
Theorem C72_all_released : forall fate errno t k, real fate -> reach orderly fate errno t k -> loops t = [] ->
  k_ports k = [] /\ k_socks k = [] /\ k_wsa k = 0%nat.
Proof.
  intros fate errno t k HF R E. pose proof (reach_inv fate HF errno t k R) as I.
  rewrite (i_ports _ _ I), (i_wsa _ _ I), E. split; [reflexivity|split; [|reflexivity]].
  assert (sockets t = []) as Es.
  { destruct (sockets t) as [|x l] eqn:X; [reflexivity|]. pose proof (i_in _ _ I x) as Y. rewrite X, E in Y. destruct Y. left. reflexivity. }
  pose proof (i_shape _ _ I) as Y. rewrite Es in Y. destruct (k_socks k); [reflexivity|discriminate Y].
Qed.
Print Assumptions C72_all_released.

(** Every socket that exists has the family it was made with and reports its completions to the loop it was made for. *)
Theorem C72_sockets_belong_to_their_loop : forall fate errno t k h f p, real fate -> reach orderly fate errno t k ->
  In (h, (f, p)) (sockets t) ->
  In p (k_ports k) /\ exists s, lookup h (k_socks k) = Some s /\ k_family s = f /\ k_port s = Some p.
Proof.
  intros fate errno t k h f p HF R Hin. pose proof (reach_inv fate HF errno t k R) as I. split.
  - rewrite (i_ports _ _ I). apply (i_in _ _ I _ Hin).
  - pose proof (i_shape _ _ I) as E. pose proof (i_nd2 _ _ I) as N. clear -E N Hin.
    revert E. generalize (k_socks k). induction (sockets t) as [|[h1 [f1 p1]] l IH]; intros m E; [contradiction|].
    destruct m as [|[h2 s2] m]; [discriminate E|]. unfold shape_k, shape_t in E. cbn [map fst snd] in E.
    inversion N as [|? ? N1 N2]; subst. cbn [lookup].
    assert (h2 = h1 /\ k_family s2 = f1 /\ k_port s2 = Some p1) as (-> & E2 & E3) by (injection E as E1 E2 E3 _; auto).
    assert (shape_k m = shape_t l) as E4 by (injection E; auto).
    destruct Hin as [X|X].
    + injection X as -> -> ->. rewrite Nat.eqb_refl. exists s2. auto.
    + destruct (Nat.eqb_spec h1 h) as [->|D].
      * exfalso. apply N1. apply (in_map fst) in X. exact X.
      * apply IH; assumption.
Qed.
Print Assumptions C72_sockets_belong_to_their_loop.

(** Every option has the value that was last set with success, and no other option was ever touched. *)
Theorem C72_options_reach_the_kernel : forall fate errno t k h s o, real fate -> reach orderly fate errno t k ->
  lookup h (k_socks k) = Some s -> value o (k_opts s) = option_map number (last_opt o h t).
Proof. intros fate errno t k h s o HF R L. apply (i_opts _ _ (reach_inv fate HF errno t k R) h s L). Qed.
Print Assumptions C72_options_reach_the_kernel.

(** Keep-alive reaches the kernel with the numbers that were given; the kernel takes them for milliseconds (see the refutation). *)
Theorem C72_keep_alive_partial : forall fate errno t k h s, real fate -> reach orderly fate errno t k ->
  lookup h (k_socks k) = Some s ->
  k_alive s = option_map (fun x : bool * Z * Z => (number (fst (fst x)), snd (fst x), snd x)) (last_alive h t).
Proof. intros fate errno t k h s HF R L. apply (i_opts _ _ (reach_inv fate HF errno t k R) h s L). Qed.
Print Assumptions C72_keep_alive_partial.

(** What calls report: a creation has a handle exactly if it succeeds - provided errno is not 0, for sockets. *)
Theorem C72_creation_is_honest_partial : forall fate errno t k a s k' err h hook, real fate -> reach orderly fate errno t k ->
  orderly t a -> run1 fate a k = (s, k') -> s = Created err h hook -> (forall f p, a = ANewSocket f p -> errno <> 0) ->
  (err = 0 <-> h <> None).
Proof.
  intros fate errno t k a s k' err h hook HF R HO E Es HE. pose proof (reach_inv fate HF errno t k R) as I.
  assert (k_errno k = errno) as Ee.
  { clear -R. induction R as [|t k a s k' R IH HO E]; [reflexivity|]. rewrite <- IH. clear IH.
    assert (forall f g h' k0, k_errno (snd (on_sock f h' g k0)) = k_errno k0) as K1.
    { intros f g h' k0. unfold on_sock. destruct (find h' (k_socks k0)); [|reflexivity]. destruct (f (k_calls k0)); reflexivity. }
    assert (forall h' k0, k_errno (closesocket h' k0) = k_errno k0) as K2.
    { intros h' k0. unfold closesocket. destruct (find h' (k_socks k0)); reflexivity. }
    assert (forall p k0, k_errno (close_port p k0) = k_errno k0) as K3.
    { intros p k0. unfold close_port. destruct (has p (k_ports k0)); reflexivity. }
    assert (forall h' p k0, k_errno (snd (associate fate h' p k0)) = k_errno k0) as K5.
    { intros h' p k0. unfold associate. destruct (has p (k_ports k0)); [|reflexivity]. destruct (find h' (k_socks k0)); [|apply K1].
      destruct (k_port k1); [reflexivity|apply K1]. }
    assert (forall f p k0, k_errno (snd (socket_create fate f p k0)) = k_errno k0) as K6.
    { intros f p k0. unfold socket_create, wsa_socket. destruct (fate (k_calls k0)); [reflexivity|].
      destruct (Nat.eqb (k_wsa k0) 0); [reflexivity|].
      match goal with |- context [associate fate ?x ?y ?z] => pose proof (K5 x y z) as Q; destruct (associate fate x y z) as [b kk] end.
      cbn [snd] in Q. destruct b; [exact Q|cbn [snd]; rewrite K2; exact Q]. }
    assert (forall r, k_errno (snd (result r)) = k_errno (snd r)) as K4 by (intros r; unfold result; destruct (fst r); reflexivity).
    destruct a; cbn [run1] in E; injection E as _ <-; try (unfold set_tcp_no_delay, set_keep_alive, server_set_reuse_address, server_set_tcp_fast_open, server_bind, setsockopt; rewrite K4; apply K1).
    - unfold eventloop_init, new_port, wsa_startup. destruct (fate (k_calls k)); [reflexivity|].
      match goal with |- context [fate ?x] => destruct (fate x) as [e|] end; [|reflexivity].
      destruct (e =? 0); cbn [snd]; [reflexivity|]. rewrite K3. reflexivity.
    - unfold eventloop_destroy, wsa_cleanup. cbn. apply K3.
    - unfold socket_init. destruct (negb _); [reflexivity|]. pose proof (K6 family p k) as Q. destruct (socket_create fate family p k) as [[x|] kk]; exact Q.
    - unfold server_init. pose proof (K6 family p k) as Q. destruct (socket_create fate family p k) as [[x|] kk]; [|exact Q].
      cbn [snd] in Q. pose proof (K1 fate (fun s => s) x kk) as Q2. destruct (on_sock fate x (fun s => s) kk) as [[|] k3]; cbn [snd] in *; [congruence|].
      destruct (Nat.eqb junk 0); cbn [snd]; [rewrite K2|]; congruence.
    - apply K2.
    - unfold get_address_family, getsockname. destruct (find h (k_socks k)); [|reflexivity]. destruct (fate (k_calls k)); [reflexivity|].
      destruct (k_bound k0); reflexivity. }
  destruct a; cbn [run1 orderly] in *; try (injection E as <- _; discriminate Es).
  - unfold eventloop_init, new_port in E. destruct (fate (k_calls k)) as [e|] eqn:F1; cbn [fst snd] in E.
    + injection E as <- _. injection Es as <- <- _. pose proof (HF _ _ F1). cbn. split; [lia|congruence].
    + set (k1 := set_next _ _) in E. unfold wsa_startup in E. destruct (fate (k_calls k1)) as [e|] eqn:F2.
      * pose proof (HF _ _ F2) as He. destruct (Z.eqb_spec e 0) as [X|_]; [lia|]. cbn [fst snd] in E. injection E as <- _.
        injection Es as <- <- _. split; [lia|congruence].
      * cbn [fst snd Z.eqb] in E. injection E as <- _. injection Es as <- <- _. split; [discriminate|reflexivity].
  - unfold socket_init in E. destruct (negb _).
    + injection E as <- _. injection Es as <- <- _. split; [discriminate|congruence].
    + destruct (create_cases fate HF family p k t I HO) as [(e & k2 & He & EE & E0 & E1 & E2 & E3 & E4 & E5 & E6)|(k2 & EE & E1 & E2 & E3 & E4 & E5)];
        rewrite EE in E; cbn [fst snd] in E; injection E as <- _; injection Es as <- <- _.
      * rewrite E6, Ee. specialize (HE _ _ eq_refl). split; [lia|congruence].
      * split; [discriminate|reflexivity].
  - destruct HO as [Hp ->]. unfold server_init in E.
    destruct (create_cases fate HF family p k t I Hp) as [(e & k2 & He & EE & E0 & E1 & E2 & E3 & E4 & E5 & E6)|(k2 & EE & E1 & E2 & E3 & E4 & E5)];
      rewrite EE in E.
    + cbn [fst snd] in E; injection E as <- _; injection Es as <- <- _. split; [lia|congruence].
    + assert (lookup (k_next k) (k_socks k2) = Some (KSock family (Some p) false [] None)) as L by (rewrite E2; cbn; rewrite Nat.eqb_refl; reflexivity).
      destruct (on_sock_cases fate HF (k_next k) (fun s => s) k2 _ L) as [(e & He & X)|X]; rewrite X in E; cbn [fst snd Nat.eqb k_last set_last] in E;
        injection E as <- _; injection Es as <- <- _; [split; [lia|congruence]|split; [discriminate|reflexivity]].
Qed.
Print Assumptions C72_creation_is_honest_partial.

(** The address family: of a bound socket the one it was made with, unless the call fails, which shows as AF_UNSPEC. *)
Theorem C72_address_family_partial : forall fate errno t k h f p, real fate -> reach orderly fate errno t k ->
  In (h, (f, p)) (sockets t) ->
  exists r, fst (run1 fate (AFamily h) k) = Result r /\
    (was_bound h t = true /\ fate (k_calls k) = None -> r = f) /\ (r = f \/ r = UNSPEC).
Proof.
  intros fate errno t k h f p HF R Hin.
  destruct (C72_sockets_belong_to_their_loop fate errno t k h f p HF R Hin) as (_ & s & L & Ef & _).
  destruct (i_opts _ _ (reach_inv fate HF errno t k R) h s L) as (_ & _ & Eb).
  cbn [run1 fst]. unfold get_address_family, getsockname. rewrite find_lookup, L. eexists. split; [reflexivity|].
  rewrite <- Eb. destruct (fate (k_calls k)) as [e|]; cbn [fst].
  - split; [intros [_ X]; discriminate X|right; reflexivity].
  - destruct (k_bound s); cbn [fst]; [split; [intros _; exact Ef|left; exact Ef]|split; [intros [X _]; discriminate X|right; reflexivity]].
Qed.
Print Assumptions C72_address_family_partial.

(** ** Histories *)
Definition orderlyb (t : history) (a : act) : bool :=
  match a with
  | ANewLoop => true
  | ADestroyLoop p => existsb (Nat.eqb p) (loops t) && forallb (fun x => negb (Nat.eqb (snd (snd x)) p)) (sockets t)
  | ANewSocket _ p => existsb (Nat.eqb p) (loops t)
  | ANewServer _ p junk => existsb (Nat.eqb p) (loops t) && Nat.eqb junk 0
  | AClose h | ANoDelay h _ | AKeepAlive h _ _ _ _ | AReuse h _ | AFastOpen h _ | ABind h | AFamily h => existsb (Nat.eqb h) (map fst (sockets t))
  end.
Lemma existsb_in h l : existsb (Nat.eqb h) l = true -> In h l.
Proof. intros H. apply existsb_exists in H. destruct H as (x & Hx & E). apply Nat.eqb_eq in E. subst. exact Hx. Qed.
Lemma orderlyb_ok t a : orderlyb t a = true -> orderly t a.
Proof.
  destruct a; cbn; intros H; try apply existsb_in, H; try exact I.
  - apply andb_prop in H. destruct H as [H1 H2]. split; [apply existsb_in, H1|]. intros x Hx E. rewrite forallb_forall in H2.
    specialize (H2 x Hx). rewrite E, Nat.eqb_refl in H2. discriminate H2.
  - apply andb_prop in H. destruct H as [H1 H2]. split; [apply existsb_in, H1|apply Nat.eqb_eq, H2].
Qed.
Fixpoint run (ok : history -> act -> bool) (fate : nat -> option Z) (l : list act) (t : history) (k : kernel) : option (history * kernel) :=
  match l with
  | [] => Some (t, k)
  | a :: r => if ok t a then let (s, k') := run1 fate a k in run ok fate r ((a, s) :: t) k' else None
  end.
Lemma run_reach (P : history -> act -> Prop) ok fate errno l t k t' k' : (forall t a, ok t a = true -> P t a) -> reach P fate errno t k ->
  run ok fate l t k = Some (t', k') -> reach P fate errno t' k'.
Proof.
  intros HP. revert t k. induction l as [|a l IH]; intros t k R E; cbn in E; [injection E as <- <-; exact R|].
  destruct (ok t a) eqn:O; [|discriminate E]. destruct (run1 fate a k) as [s k1] eqn:E1.
  apply (IH _ _ (reach_act _ _ _ _ _ _ _ _ R (HP _ _ O) E1) E).
Qed.
Definition fails (l : list (nat * Z)) (n : nat) : option Z :=
  match List.find (fun x => Nat.eqb (fst x) n) l with Some x => Some (snd x) | None => None end.
Lemma fails_real l : (forall x, In x l -> 0 < snd x) -> real (fails l).
Proof.
  intros H n e E. unfold fails in E. destruct (List.find _ l) as [x|] eqn:F; [|discriminate E]. injection E as <-.
  apply find_some in F. apply H, F.
Qed.
Definition at_run (l : list (nat * Z)) (errno : Z) (acts : list act) : option (history * kernel) := run orderlyb (fails l) acts [] (start errno).
Lemma at_run_reach l errno acts t k : at_run l errno acts = Some (t, k) -> reach orderly (fails l) errno t k.
Proof. intros E. eapply run_reach; [exact orderlyb_ok|apply reach_start|exact E]. Qed.

(** The hypotheses are met by histories in which calls fail. *)
Definition busy : list act :=
  [ANewLoop; ANewSocket INET4 0; ANoDelay 1 true; ANoDelay 1 false; AKeepAlive 1 true 5 1 3; ANewServer INET6 0 0; ANewServer INET6 0 0;
   AReuse 3 true; ABind 3; AFamily 3; ANewLoop; ANewSocket INET6 4].
Example busy_history : exists t k, real (fails [(5%nat, 10024); (9%nat, 10055)]) /\
  reach orderly (fails [(5%nat, 10024); (9%nat, 10055)]) 2 t k /\
  loops t = [4; 0]%nat /\ map fst (sockets t) = [5; 3; 1]%nat /\
  last_opt ONoDelay 1 t = Some true /\ last_alive 1 t = Some (true, 5, 1) /\ was_bound 3 t = true /\
  In (AFamily 3, Result INET6) t /\ In (ANewServer INET6 0 0, Created (-10055) None true) t.
Proof.
  eexists _, _. split; [apply fails_real; intros x [<-|[<-|[]]]; reflexivity|].
  split; [apply (at_run_reach _ _ busy); vm_compute; reflexivity|].
  split; [reflexivity|split; [reflexivity|split; [reflexivity|split; [reflexivity|split; [reflexivity|split]]]]]; cbn; tauto.
Qed.
Example all_closed : exists t k, reach orderly (fails []) 2 t k /\ loops t = [] /\ length t = 18%nat.
Proof.
  eexists _, _. split; [apply (at_run_reach _ _ (busy ++ [AClose 3; AClose 1; AClose 2; ADestroyLoop 0; AClose 5; ADestroyLoop 4]%nat)); vm_compute; reflexivity|].
  split; reflexivity.
Qed.

(** VIOLATED: cio_socket_init reports success without a socket when WSASocketW fails and errno, which Winsock does not set, is 0. *)
Theorem C72_socket_init_refuted : exists fate t k, real fate /\ reach orderly fate 0 t k /\ In (ANewSocket INET4 0, Created 0 None false) t.
Proof.
  exists (fails [(2%nat, 10024)]). eexists _, _. split; [apply fails_real; intros x [<-|[]]; reflexivity|].
  split; [apply (at_run_reach _ _ [ANewLoop; ANewSocket INET4 0]); vm_compute; reflexivity|]. left. reflexivity.
Qed.
Print Assumptions C72_socket_init_refuted.
(** VIOLATED: the error of WSAStartup is reported as a positive number, which is not an error of the library. *)
Theorem C72_loop_error_refuted : exists fate t k, real fate /\ reach orderly fate 2 t k /\ In (ANewLoop, Created 10091 None false) t.
Proof.
  exists (fails [(1%nat, 10091)]). eexists _, _. split; [apply fails_real; intros x [<-|[]]; reflexivity|].
  split; [apply (at_run_reach _ _ [ANewLoop]); vm_compute; reflexivity|]. left. reflexivity.
Qed.
Print Assumptions C72_loop_error_refuted.
(** VIOLATED: 5 seconds of keep-alive idle time and 1 second between probes are set as 5 and 1 milliseconds. *)
Definition milliseconds (s : Z) : Z := s * 1000.
Theorem C72_keep_alive_refuted : exists fate t k s, real fate /\ reach orderly fate 2 t k /\ last_alive 1 t = Some (true, 5, 1) /\
  lookup 1 (k_socks k) = Some s /\ k_alive s = Some (1, 5, 1) /\ k_alive s <> Some (number true, milliseconds 5, milliseconds 1).
Proof.
  exists (fails []). eexists _, _, _. split; [apply fails_real; intros x []|].
  split; [apply (at_run_reach _ _ [ANewLoop; ANewSocket INET4 0; AKeepAlive 1 true 5 1 3]); vm_compute; reflexivity|].
  split; [reflexivity|]. split; [reflexivity|]. split; [reflexivity|discriminate].
Qed.
Print Assumptions C72_keep_alive_refuted.
(** VIOLATED: a socket that is not connected has the family AF_UNSPEC. *)
Theorem C72_address_family_refuted : exists fate t k, real fate /\ reach orderly fate 2 t k /\ In (1%nat, (INET6, 0%nat)) (sockets t) /\
  In (AFamily 1, Result UNSPEC) t.
Proof.
  exists (fails []). eexists _, _. split; [apply fails_real; intros x []|].
  split; [apply (at_run_reach _ _ [ANewLoop; ANewSocket INET6 0; AFamily 1]); vm_compute; reflexivity|].
  split; [|left; reflexivity]. left. reflexivity.
Qed.
Print Assumptions C72_address_family_refuted.
(** VIOLATED: a cio_server_socket_init that fails calls the close hook of the server socket. *)
Theorem C72_failed_init_calls_hook_refuted : exists fate t k, real fate /\ reach orderly fate 2 t k /\
  In (ANewServer INET4 0 0, Created (-10055) None true) t.
Proof.
  exists (fails [(4%nat, 10055)]). eexists _, _. split; [apply fails_real; intros x [<-|[]]; reflexivity|].
  split; [apply (at_run_reach _ _ [ANewLoop; ANewServer INET4 0 0]); vm_compute; reflexivity|]. left. reflexivity.
Qed.
Print Assumptions C72_failed_init_calls_hook_refuted.
(** VIOLATED: with memory that is not zeroed the failed cio_server_socket_init leaves its socket open, which nobody can close. *)
Definition any_memory (t : history) (a : act) : Prop :=
  match a with ANewServer _ p _ => In p (loops t) | _ => orderly t a end.
Theorem C72_failed_init_leaks_refuted : exists fate t k, real fate /\ reach any_memory fate 2 t k /\ loops t = [] /\ sockets t = [] /\
  map fst (k_socks k) = [1%nat].
Proof.
  exists (fails [(4%nat, 10055)]). eexists _, _. split; [apply fails_real; intros x [<-|[]]; reflexivity|].
  split.
  - eapply (run_reach any_memory (fun t a => match a with ANewServer _ p _ => existsb (Nat.eqb p) (loops t) | _ => orderlyb t a end) _ _
      [ANewLoop; ANewServer INET4 0 1; ADestroyLoop 0]); [|apply reach_start|vm_compute; reflexivity].
    intros t a. destruct a; try apply orderlyb_ok. cbn. apply existsb_in.
  - repeat split; reflexivity.
Qed.
Print Assumptions C72_failed_init_leaks_refuted.
