(** C69: finding and opening serial ports on Windows. *)
From Verif Require Import Base WinUartEnum WinUartEnumSpec.

(** * Strings *)
Definition nz (l : list N) : Prop := Forall (fun c => c <> 0%N) l.
Lemma nz_cons c l : c <> 0%N -> nz l -> nz (c :: l).
Proof. constructor; assumption. Qed.
Lemma enc_nz c : c <> 0%N -> nz (enc c).
Proof. intros H. unfold enc. destruct (c <? 128)%N; [|destruct (c <? 2048)%N]; repeat (apply nz_cons; [lia|]); constructor. Qed.
Lemma enc2_nz h l : nz (enc2 h l).
Proof. unfold enc2. repeat (apply nz_cons; [lia|]). constructor. Qed.
Lemma low0 : low 0 = false. Proof. reflexivity. Qed.
Lemma utf8_split n : forall a b u, length a <= n -> nz a -> utf8_of (a ++ 0%N :: b) = Some u ->
  exists ua ub, utf8_of a = Some ua /\ utf8_of b = Some ub /\ u = ua ++ 0%N :: ub /\ nz ua.
Proof.
  induction n as [|n IH]; intros a b u L Z E.
  - destruct a; [|cbn in L; lia]. cbn in E. destruct (utf8_of b) as [ub|] eqn:U; [|discriminate]. injection E as <-. exists [], ub. repeat split. constructor.
  - destruct a as [|c a].
    + cbn in E. destruct (utf8_of b) as [ub|] eqn:U; [|discriminate]. injection E as <-. exists [], ub. repeat split. constructor.
    + pose proof (Forall_inv Z) as Z1. pose proof (Forall_inv_tail Z) as Z2. clear Z. cbn in L. cbn [app utf8_of] in E. cbn [utf8_of]. destruct (high c) eqn:H.
      * destruct a as [|d a]; cbn [app] in E; [rewrite low0 in E; discriminate|]. destruct (low d) eqn:LO; [|discriminate].
        pose proof (enc2_nz c d) as NE. revert E NE. generalize (enc2 c d) as x. intros x E NE.
        destruct (utf8_of (a ++ 0%N :: b)) as [u'|] eqn:U; [|discriminate]. injection E as <-. pose proof (Forall_inv_tail Z2) as Z4. cbn in L.
        destruct (IH a b u' ltac:(lia) Z4 U) as (ua & ub & U1 & U2 & -> & NZ). rewrite U1. exists (x ++ ua), ub. rewrite app_assoc. repeat split; auto. apply Forall_app. split; [exact NE|exact NZ].
      * destruct (low c); [discriminate|]. pose proof (enc_nz c Z1) as NE. revert E NE. generalize (enc c) as x. intros x E NE.
        destruct (utf8_of (a ++ 0%N :: b)) as [u'|] eqn:U; [|discriminate]. injection E as <-.
        destruct (IH a b u' ltac:(lia) Z2 U) as (ua & ub & U1 & U2 & -> & NZ). rewrite U1. exists (x ++ ua), ub. rewrite app_assoc. repeat split; auto. apply Forall_app. split; [exact NE|exact NZ].
Qed.
Lemma utf8_ascii a : Forall (fun c => (c < 128)%N) a -> utf8_of a = Some a.
Proof.
  induction 1 as [|c a H F IH]; [reflexivity|]. cbn [utf8_of]. unfold high, low.
  destruct (N.leb_spec 55296 c); [lia|]. destruct (N.leb_spec 56320 c); [lia|]. cbn [andb]. rewrite IH. unfold enc. destruct (N.ltb_spec c 128); [reflexivity|lia].
Qed.
Lemma cstr_split a b : nz a -> cstr (a ++ 0%N :: b) = Ret a.
Proof. induction 1 as [|c a H F IH]; [reflexivity|]. cbn [app cstr]. destruct (N.eqb_spec c 0); [contradiction|]. rewrite IH. reflexivity. Qed.
Lemma before_split v : In 0%N v -> exists b, v = before_nul v ++ 0%N :: b /\ nz (before_nul v).
Proof.
  induction v as [|c v IH]; intros H; [destruct H|]. cbn [before_nul]. destruct (N.eqb_spec c 0) as [->|NZ]; [exists v; split; [reflexivity|constructor]|].
  destruct H as [H|H]; [congruence|]. destruct (IH H) as (b & E & Z). exists b. split; [cbn; rewrite <- E; reflexivity|constructor; assumption].
Qed.
(** The conversion of a string stored with a NUL, whatever lies behind as long as it is valid. *)
Lemma convert v behind junk : readable v behind -> exists u t, wide_to_utf8 v behind = Ret (Some u) /\ u <> [] /\ utf8_of (before_nul v) = Some t /\ cstr (u ++ [junk]) = Ret t.
Proof.
  intros (Z & L & V). unfold wide_to_utf8. destruct (Nat.ltb_spec (length behind) (length v)); [lia|].
  destruct (before_split v Z) as (b & E & NZ). destruct (utf8_of (v ++ firstn (length v) behind)) as [u|] eqn:U; [|contradiction].
  rewrite E in U at 1. rewrite <- app_assoc in U. cbn [app] in U. destruct (utf8_split _ _ _ _ (le_n _) NZ U) as (ua & ub & U1 & U2 & -> & NU).
  exists (ua ++ 0%N :: ub), ua. split; [reflexivity|]. split; [destruct ua; discriminate|]. split; [exact U1|]. rewrite <- app_assoc. cbn [app]. apply cstr_split, NU.
Qed.
Lemma com_ok s : Forall (fun c => (c < 128)%N) s -> is_com_port s = Ret (com s).
Proof.
  intros F. unfold is_com_port, com. destruct s as [|a [|b [|c [|x s]]]]; try reflexivity.
  inversion F as [|? ? _ F1]; subst. inversion F1 as [|? ? _ F2]; subst. inversion F2 as [|? ? _ F3]; subst. inversion F3 as [|? ? X _]; subst.
  destruct (N.leb_spec 128 x); [lia|]. destruct (N.eqb a 67), (N.eqb b 79), (N.eqb c 77); reflexivity.
Qed.

(** * Resources *)
Lemma held_app r a : forall b n, held_from r (a ++ b) n = match held_from r a n with Some m => held_from r b m | None => None end.
Proof. induction a as [|[x|x] a IH]; intros b n; cbn [app held_from]; [reflexivity|apply IH|]. destruct (is r x); [destruct n; [reflexivity|apply IH]|apply IH]. Qed.
(** A history adds [k] of resource [r]. *)
Definition adds (r : res) (l : list rop) (k : nat) : Prop := forall n, held_from r l n = Some (n + k).
Lemma adds_nil r : adds r [] 0.
Proof. intros n. cbn. f_equal. lia. Qed.
Lemma adds_app r a b i j : adds r a i -> adds r b j -> adds r (a ++ b) (i + j).
Proof. intros A B n. rewrite held_app, A, B. f_equal. lia. Qed.

(** * Devices *)
Definition leak (d : device) : nat := match f_value d with Some _ => 2 | None => 0 end.
Definition amount (r : res) (n : nat) : nat := match r with Mem => n | _ => 0 end.
Lemma name_ok d : tame d -> exists l, get_string_value_from_registry d = Ret (port_name d, l) /\
  forall r, adds r l (match port_name d with Some _ => amount r 1 | None => 0 end).
Proof.
  intros (M1 & M2 & AG & _ & _ & TV & _). unfold get_string_value_from_registry, port_name. rewrite M1, M2, AG. cbn [negb].
  destruct (d_key d); cbn [negb andb]; [|eexists; split; [reflexivity|]; intros r; apply adds_nil].
  destruct (d_value d) as [v|] eqn:V; [|eexists; split; [destruct (d_sz d); reflexivity|]; intros [] n; destruct (d_sz d); cbn; f_equal; lia].
  destruct (d_sz d); cbn [negb]; [|eexists; split; [reflexivity|]; intros [] n; cbn; f_equal; lia].
  destruct (TV v eq_refl) as [RD AS]. destruct (convert v (d_behind d) (d_junk d) RD) as (u & t & E & NE & U & C). rewrite E. cbn [obind].
  destruct u as [|b u]; [contradiction|]. rewrite C. cbn [obind]. rewrite (utf8_ascii _ AS) in U. injection U as <-.
  eexists. split; [reflexivity|]. intros [] n; cbn; f_equal; lia.
Qed.
Lemma friendly_ok d : tame d -> exists f l, get_device_property d = Ret (f, l) /\ match f with Some f => truncate f | None => [] end = firstn 259 (friendly d) /\
  forall r, adds r l (amount r (leak d)).
Proof.
  intros (_ & _ & _ & M1 & M2 & _ & TV). unfold get_device_property, friendly, leak. rewrite M1, M2. cbn [negb].
  destruct (f_value d) as [v|] eqn:V; [|exists None; eexists; split; [reflexivity|]; split; [reflexivity|]; intros [] n; cbn; f_equal; lia].
  destruct (convert v (f_behind d) (f_junk d) (TV v eq_refl)) as (u & t & E & NE & U & C). rewrite E. cbn [obind].
  destruct u as [|b u]; [contradiction|]. rewrite C. cbn [obind]. rewrite U. exists (Some t). eexists. split; [reflexivity|]. split; [reflexivity|]. intros [] n; cbn; f_equal; lia.
Qed.
Lemma name_ascii d s : tame d -> port_name d = Some s -> Forall (fun c => (c < 128)%N) s.
Proof.
  intros (_ & _ & _ & _ & _ & TV & _) E. unfold port_name in E. destruct (d_key d && d_sz d); [|discriminate]. destruct (d_value d) as [v|]; [|discriminate]. injection E as <-. apply (TV v eq_refl).
Qed.
Lemma count_ok ds : Forall tame ds -> forall n, exists l, count_loop ds n = Ret (n + length (filter is_port ds), l) /\ forall r, adds r l 0.
Proof.
  induction 1 as [|d ds T F IH]; intros n; cbn [count_loop].
  - eexists. split; [cbn; rewrite Nat.add_0_r; reflexivity|]. intros r. apply adds_nil.
  - destruct (name_ok d T) as (l1 & E & A). rewrite E. cbn [obind filter]. unfold is_port at 1. destruct (port_name d) as [s|] eqn:P.
    + rewrite (com_ok s (name_ascii d s T P)). cbn [obind]. destruct (IH (if com s then S n else n)) as (l & E2 & A2). rewrite E2. cbn [obind]. eexists. split.
      * f_equal. f_equal. destruct (com s); cbn [length]; lia.
      * intros r. specialize (A r). specialize (A2 r). rewrite app_assoc. change 0 with (0 + 0). apply adds_app; [|exact A2].
        intros k. rewrite held_app, A. destruct r; cbn [amount held_from is]; cbn; try (f_equal; lia). rewrite Nat.add_1_r. f_equal. lia.
    + destruct (IH n) as (l & E2 & A2). rewrite E2. cbn [obind]. eexists. split; [reflexivity|]. intros r. apply (adds_app r l1 l 0 0); [apply A|apply A2].
Qed.
Definition leaks (ds : list device) : nat := list_sum (map leak ds).
Lemma ports_ok ds : Forall tame ds -> forall max ps, length ps < max ->
  exists l, ports_loop ds max ps = Ret (ps ++ firstn (max - length ps) (map shown (filter is_port ds)), l) /\ forall r, adds r l (amount r (leaks (firstn (max - length ps) (filter is_port ds)))).
Proof.
  induction 1 as [|d ds T F IH]; intros max ps L; cbn [ports_loop].
  - eexists. split; [cbn; rewrite firstn_nil, app_nil_r; reflexivity|]. intros r. cbn. rewrite firstn_nil. destruct r; apply adds_nil.
  - destruct (name_ok d T) as (l1 & E & A). rewrite E. cbn [obind filter]. destruct (port_name d) as [s|] eqn:P.
    + rewrite (com_ok s (name_ascii d s T P)). cbn [obind]. replace (is_port d) with (com s) by (unfold is_port; rewrite P; reflexivity). destruct (com s) eqn:C.
      * destruct (Nat.leb_spec max (length ps)); [lia|]. destruct (friendly_ok d T) as (f & l2 & E2 & FR & A2). rewrite E2. cbn [obind].
        replace (truncate s, match f with Some f0 => truncate f0 | None => [] end) with (shown d) by (unfold shown; rewrite P, FR; reflexivity).
        assert (AA : forall r, adds r (l1 ++ l2 ++ [Put Mem]) (amount r (leak d))).
        { intros r n. specialize (A r). specialize (A2 r). rewrite held_app, A, held_app, A2. destruct r; cbn [amount held_from is]; cbn; try (f_equal; lia).
          replace (n + 1 + leak d) with (S (n + leak d)) by lia. reflexivity. }
        assert (LEN : length (ps ++ [shown d]) = S (length ps)) by (rewrite app_length; cbn; lia). unfold port in *. rewrite LEN.
        replace (max - length ps) with (S (max - S (length ps))) by lia. cbn [map firstn].
        destruct (Nat.leb_spec max (S (length ps))) as [M|M].
        -- replace (max - S (length ps)) with 0 by lia. cbn [firstn]. eexists. split; [reflexivity|]. intros r. specialize (AA r). unfold leaks. cbn. destruct r; cbn [amount] in *; rewrite ?Nat.add_0_r; exact AA.
        -- destruct (IH max (ps ++ [shown d]) ltac:(eapply Nat.le_lt_trans; [apply Nat.eq_le_incl; exact LEN|exact M])) as (l & E3 & A3). unfold port in *. rewrite LEN in E3, A3. rewrite E3. cbn [obind]. eexists. split; [rewrite <- app_assoc; reflexivity|].
           intros r. replace (amount r (leaks (d :: firstn (max - S (length ps)) (filter is_port ds)))) with (amount r (leak d) + amount r (leaks (firstn (max - S (length ps)) (filter is_port ds)))) by (destruct r; reflexivity).
           apply adds_app; [apply AA|apply A3].
      * cbn [obind]. destruct (Nat.leb_spec max (length ps)); [lia|]. destruct (IH max ps L) as (l & E3 & A3). rewrite E3. cbn [obind]. eexists. split; [reflexivity|].
        intros r. change (amount r (leaks (firstn (max - length ps) (filter is_port ds)))) with (0 + amount r (leaks (firstn (max - length ps) (filter is_port ds)))). apply adds_app; [|apply A3].
        intros k. specialize (A r). rewrite held_app, A. destruct r; cbn [amount held_from is]; cbn; try (f_equal; lia). rewrite Nat.add_1_r. f_equal. lia.
    + replace (is_port d) with false by (unfold is_port; rewrite P; reflexivity). destruct (IH max ps L) as (l & E3 & A3). rewrite E3. cbn [obind]. eexists. split; [reflexivity|]. intros r. apply (adds_app r l1 l 0); [apply A|apply A3].
Qed.

Definition opened (y : sys) : Prop := s_mem y = true /\ s_guids y = 0%Z /\ s_open y = 0%Z.
(** cio_uart_get_ports finds the first [max] devices with a COM name, in the order of the system, under their names; registry keys
    and device lists are given back.  Heap blocks are not: see C69_leak_refuted. *)
Theorem C69_ports : forall y max, opened y -> Forall tame (devs y) ->
  exists l, get_ports y max = Ret (SUCCESS, Some (length (expected (devs y) max)), expected (devs y) max, l) /\ held Key l = Some 0 /\ held Info l = Some 0 /\ held Port l = Some 0 /\
    held Mem l = Some (match max with 0 => 0 | _ => leaks (firstn max (filter is_port (devs y))) end).
Proof.
  intros y max (M & G & O) T. unfold get_ports, expected. destruct max as [|m]; [exists []; cbn; auto|]. rewrite M, G, O. cbn [Nat.eqb negb Z.eqb].
  destruct (ports_ok _ T (S m) [] ltac:(cbn; lia)) as (l & E & A). cbn [length app] in E, A. rewrite Nat.sub_0_r in E, A. rewrite E. cbn [obind]. eexists. split; [reflexivity|].
  unfold held. repeat split; rewrite !held_app; cbn [held_from is]; rewrite held_app, A; cbn; try reflexivity.
Qed.
Print Assumptions C69_ports.
(** cio_uart_get_number_of_uarts counts them, and gives everything back. *)
Theorem C69_number : forall y, opened y -> Forall tame (devs y) -> exists l, get_number_of_uarts y = Ret (length (filter is_port (devs y)), l) /\ clean l.
Proof.
  intros y (M & G & O) T. unfold get_number_of_uarts. rewrite M, G, O. cbn [negb Z.eqb]. destruct (count_ok _ T 0) as (l & E & A). rewrite E. cbn [obind]. eexists. split; [reflexivity|].
  intros r. unfold held. rewrite !held_app. destruct r; cbn [held_from is]; rewrite held_app, A; reflexivity.
Qed.
Print Assumptions C69_number.
(** An array of that many entries takes all ports. *)
Theorem C69_number_suffices : forall y n l, opened y -> Forall tame (devs y) -> get_number_of_uarts y = Ret (n, l) ->
  exists l', get_ports y n = Ret (SUCCESS, Some n, map shown (filter is_port (devs y)), l').
Proof.
  intros y n l O T E. destruct (C69_number y O T) as (l0 & E0 & _). rewrite E0 in E. injection E as <- _. destruct (C69_ports y (length (filter is_port (devs y))) O T) as (l' & E' & _).
  unfold expected in E'. rewrite firstn_all2 in E' by (rewrite map_length; lia). rewrite map_length in E'. exists l'. exact E'.
Qed.
Print Assumptions C69_number_suffices.
(** If the system does not answer, nothing is found and nothing is kept. *)
Theorem C69_no_answer : forall y max, ~ opened y -> (0 <= s_guids y)%Z -> (0 <= s_open y)%Z -> 0 < max ->
  (exists l, get_number_of_uarts y = Ret (0, l) /\ clean l) /\ (exists e l, get_ports y max = Ret (e, None, [], l) /\ (e < 0)%Z /\ clean l).
Proof.
  intros y max NO G O P. unfold get_number_of_uarts, get_ports. destruct (Nat.eqb_spec max 0) as [Z|Z]; [lia|].
  assert (CL : clean []) by (intros r; reflexivity). assert (CL2 : clean [Get Mem; Put Mem]) by (intros []; reflexivity).
  destruct (s_mem y) eqn:M; cbn [negb]; [|split; [eauto|]; exists NO_MEMORY; eexists; split; [reflexivity|]; split; [unfold NO_MEMORY; lia|exact CL]].
  destruct (Z.eqb_spec (s_guids y) 0) as [E|E]; cbn [negb]; [|split; [eauto|]; do 2 eexists; split; [reflexivity|]; split; [lia|exact CL2]].
  destruct (Z.eqb_spec (s_open y) 0) as [E2|E2]; cbn [negb]; [destruct NO; repeat split; assumption|]. split; [eauto|]. do 2 eexists. split; [reflexivity|]. split; [lia|exact CL2].
Qed.
Print Assumptions C69_no_answer.
(** cio_uart_get_name shows the friendly name if there is one. *)
Theorem C69_name : forall y max ps n l p, opened y -> Forall tame (devs y) -> get_ports y max = Ret (SUCCESS, n, ps, l) -> In p ps ->
  exists d s, In d (devs y) /\ port_name d = Some s /\ com s = true /\ length (get_name p) <= 259 /\
    get_name p = firstn 259 (match friendly d with [] => s | f => f end).
Proof.
  intros y max ps n l p O T E I. destruct (C69_ports y max O T) as (l' & E' & _). rewrite E' in E. injection E as _ <- _. unfold expected in I.
  assert (I2 : In p (map shown (filter is_port (devs y)))) by (rewrite <- (firstn_skipn max); apply in_or_app; left; exact I). clear I.
  apply in_map_iff in I2. destruct I2 as (d & <- & I). apply filter_In in I. destruct I as [I PD]. unfold is_port in PD. destruct (port_name d) as [s|] eqn:P; [|discriminate].
  exists d, s. split; [exact I|]. split; [exact P|]. split; [exact PD|]. unfold get_name, shown. rewrite P. cbn [fst snd].
  remember 259 as k. assert (K : 0 < k) by lia. destruct (friendly d) as [|b f]; [rewrite firstn_nil; split; [apply firstn_le_length|reflexivity]|]. 
  destruct k; [lia|]. cbn [firstn length]. split; [|reflexivity]. rewrite firstn_length. lia.
Qed.
Print Assumptions C69_name.

(** * Opening *)
Definition fails_before_open (y : init_sys) : Prop := i_mem y = false \/ i_len y <> 0%Z \/ i_conv y <> 0%Z \/ i_open y <> 0%Z.
Definition fails_after_open (y : init_sys) : Prop := ~ fails_before_open y /\ (i_get y <> 0 \/ i_set y <> 0 \/ i_gett y <> 0 \/ i_sett y <> 0 \/ i_add y <> 0)%Z.
Definition codes (y : init_sys) : Prop := (0 <= i_len y /\ 0 <= i_conv y /\ 0 <= i_open y /\ 0 <= i_get y /\ 0 <= i_set y /\ 0 <= i_gett y /\ 0 <= i_sett y /\ i_add y <= 0)%Z.
(** A port found by cio_uart_get_ports can be opened: its name fits into the buffer.  cio_uart_init holds the handle of the port
    and nothing else if it succeeds, and nothing if it fails, unless it fails after the port was opened. *)
Theorem C69_init_partial : forall y name, length name <= 259 -> codes y -> exists e l, init y name = Ret (e, l) /\ (e <= 0)%Z /\
  (fails_before_open y -> e <> SUCCESS /\ clean l) /\
  (~ fails_before_open y -> ~ fails_after_open y -> e = SUCCESS /\ held Mem l = Some 0 /\ held Port l = Some 1) /\ (fails_after_open y -> e <> SUCCESS).
Proof.
  intros y name L C. unfold init, codes, fails_after_open, fails_before_open, SUCCESS in *. destruct (Nat.ltb_spec (MAX_PATH + 7) (4 + length name + 1)) as [X|X]; [unfold MAX_PATH in X; lia|]. clear X L.
  assert (CL : clean [Get Mem; Put Mem]) by (intros []; reflexivity). assert (CL0 : clean []) by (intros []; reflexivity).
  destruct (Z.eqb_spec (i_len y) 0) as [E1|E1]; cbn [negb]; [|do 2 eexists; split; [reflexivity|]; split; [lia|]; split; [split; [lia|exact CL0]|split; [tauto|lia]]].
  destruct (i_mem y) eqn:E2; cbn [negb]; [|do 2 eexists; split; [reflexivity|]; split; [unfold NO_MEMORY; lia|]; split; [split; [unfold NO_MEMORY; lia|exact CL0]|split; [tauto|unfold NO_MEMORY; lia]]].
  destruct (Z.eqb_spec (i_conv y) 0) as [E3|E3]; cbn [negb app]; [|do 2 eexists; split; [reflexivity|]; split; [lia|]; split; [split; [lia|exact CL]|split; [tauto|lia]]].
  destruct (Z.eqb_spec (i_open y) 0) as [E4|E4]; cbn [negb]; [|do 2 eexists; split; [reflexivity|]; split; [lia|]; split; [split; [lia|exact CL]|split; [tauto|lia]]].
  assert (NB : ~ (false = true \/ i_len y <> 0 \/ i_conv y <> 0 \/ i_open y <> 0)%Z) by (intros [X|[X|[X|X]]]; try contradiction; discriminate).
  assert (NB' : ~ (true = false \/ i_len y <> 0 \/ i_conv y <> 0 \/ i_open y <> 0)%Z) by (intros [X|[X|[X|X]]]; try contradiction; discriminate).
  destruct (Z.eqb_spec (i_get y) 0) as [E5|E5]; cbn [negb]; [|do 2 eexists; split; [reflexivity|]; split; [lia|]; split; [tauto|split; [tauto|lia]]].
  destruct (Z.eqb_spec (i_set y) 0) as [E6|E6]; cbn [negb]; [|do 2 eexists; split; [reflexivity|]; split; [lia|]; split; [tauto|split; [tauto|lia]]].
  destruct (Z.eqb_spec (i_gett y) 0) as [E7|E7]; cbn [negb]; [|do 2 eexists; split; [reflexivity|]; split; [lia|]; split; [tauto|split; [tauto|lia]]].
  destruct (Z.eqb_spec (i_sett y) 0) as [E8|E8]; cbn [negb]; [|do 2 eexists; split; [reflexivity|]; split; [lia|]; split; [tauto|split; [tauto|lia]]].
  destruct (Z.eqb_spec (i_add y) 0) as [E9|E9]; cbn [negb]; [|do 2 eexists; split; [reflexivity|]; split; [lia|]; split; [tauto|split; [tauto|lia]]].
  do 2 eexists. split; [reflexivity|]. split; [lia|]. split; [tauto|]. split; [repeat split|]. intros [_ X]. lia.
Qed.
Print Assumptions C69_init_partial.
(** VIOLATED: whenever cio_uart_init fails after the port was opened, the buffer of the name is freed twice; when the port cannot
    be given to the event loop, its handle is closed twice as well. *)
Theorem C69_init_refuted : forall y name, length name <= 259 -> fails_after_open y -> exists e l, init y name = Ret (e, l) /\ held Mem l = None /\
  (i_get y = 0%Z -> i_set y = 0%Z -> i_gett y = 0%Z -> i_sett y = 0%Z -> held Port l = None).
Proof.
  intros y name L [NB F]. unfold init. destruct (Nat.ltb_spec (MAX_PATH + 7) (4 + length name + 1)) as [X|X]; [unfold MAX_PATH in X; lia|]. unfold fails_before_open in NB.
  destruct (Z.eqb_spec (i_len y) 0) as [E1|E1]; cbn [negb]; [|tauto]. destruct (i_mem y) eqn:E2; cbn [negb]; [|tauto].
  destruct (Z.eqb_spec (i_conv y) 0) as [E3|E3]; cbn [negb app]; [|tauto]. destruct (Z.eqb_spec (i_open y) 0) as [E4|E4]; cbn [negb]; [|tauto].
  destruct (Z.eqb_spec (i_get y) 0) as [E5|E5]; cbn [negb]; [|do 2 eexists; split; [reflexivity|]; split; [reflexivity|congruence]].
  destruct (Z.eqb_spec (i_set y) 0) as [E6|E6]; cbn [negb]; [|do 2 eexists; split; [reflexivity|]; split; [reflexivity|congruence]].
  destruct (Z.eqb_spec (i_gett y) 0) as [E7|E7]; cbn [negb]; [|do 2 eexists; split; [reflexivity|]; split; [reflexivity|congruence]].
  destruct (Z.eqb_spec (i_sett y) 0) as [E8|E8]; cbn [negb]; [|do 2 eexists; split; [reflexivity|]; split; [reflexivity|congruence]].
  destruct (Z.eqb_spec (i_add y) 0) as [E9|E9]; cbn [negb]; [tauto|]. do 2 eexists. split; [reflexivity|]. split; [reflexivity|]. intros. reflexivity.
Qed.
Print Assumptions C69_init_refuted.

(** * Examples *)
(** COM3 and its NUL; behind it zeros. *)
Definition COM3 : list N := [67; 79; 77; 51; 0]%N.
Definition dev (v : option (list N)) (behind : list N) (f : option (list N)) : device := mkDev true v true true behind true true 85 f (repeat 0%N 20) true true 85.
Definition zeros : list N := repeat 0%N 20.
(** Non-vacuity: a modem on COM3 with a friendly name, a printer port, a device without a name, COM4 without a friendly name. *)
Definition desk : sys := mkSys true 0 0 [dev (Some COM3) zeros (Some [77; 233; 0]%N); dev (Some [76; 80; 84; 49; 0]%N) zeros None; dev None zeros None; dev (Some [67; 79; 77; 52; 0]%N) zeros None].
Example desk_tame : opened desk /\ Forall tame (devs desk).
Proof.
  split; [repeat split|]. assert (R : forall v, In 0%N v -> length v <= 20 -> utf8_of (v ++ firstn (length v) zeros) <> None -> readable v zeros) by (intros; repeat split; assumption).
  assert (D : forall v f, (forall w, v = Some w -> readable w zeros /\ Forall (fun c => (c < 128)%N) (before_nul w)) -> (forall w, f = Some w -> readable w zeros) -> tame (dev v zeros f)).
  { intros v f H1 H2. unfold tame. cbn [dev d_m1 d_m2 d_again f_m1 f_m2 d_value f_value d_behind f_behind]. auto 10. }
  repeat (apply Forall_cons); [| | | |apply Forall_nil]; apply D; try discriminate; intros v [= <-]; try split; try (apply R; cbn; [tauto|lia|discriminate]); repeat constructor.
Qed.
Example desk_ports : exists l, get_ports desk 2 = Ret (SUCCESS, Some 2, [([67; 79; 77; 51]%N, [77; 195; 169]%N); ([67; 79; 77; 52]%N, [])], l) /\ held Mem l = Some 2.
Proof. eexists. split; reflexivity. Qed.

(** VIOLATED: the friendly name and the buffer it is converted from are never freed: two blocks for every port that has one, at
    every call. *)
Theorem C69_leak_refuted : forall y max, opened y -> Forall tame (devs y) -> 0 < max -> exists r, get_ports y max = Ret r /\
  held Mem (snd r) = Some (2 * length (filter (fun d => match f_value d with Some _ => true | None => false end) (firstn max (filter is_port (devs y))))).
Proof.
  intros y max O T P. destruct (C69_ports y max O T) as (l & E & _ & _ & _ & H). eexists. split; [exact E|]. cbn [snd]. rewrite H. destruct max; [lia|]. f_equal.
  generalize (firstn (S max) (filter is_port (devs y))) as ds. intros ds. unfold leaks. induction ds as [|d ds IH]; [reflexivity|]. cbn [map list_sum fold_right filter]. unfold list_sum in IH. rewrite IH.
  unfold leak. destruct (f_value d); cbn [length]; lia.
Qed.
Print Assumptions C69_leak_refuted.
(** VIOLATED: the conversion reads twice as much as the name has.  If there is half of a surrogate pair behind the block the port
    is not found, and its registry key is closed twice; if nothing is mapped there the program crashes. *)
Theorem C69_over_read_refuted : let d behind := dev (Some COM3) behind None in
  is_port (d []) = true /\
  (exists l, get_ports (mkSys true 0 0 [d [55296; 0; 0; 0; 0]%N]) 1 = Ret (SUCCESS, Some 0, [], l) /\ held Key l = None) /\
  get_ports (mkSys true 0 0 [d []]) 1 = UB.
Proof. split; [reflexivity|]. split; [eexists; split; reflexivity|reflexivity]. Qed.
Print Assumptions C69_over_read_refuted.
(** VIOLATED: a name that is stored without a NUL continues with what lies behind it. *)
Theorem C69_no_nul_refuted : exists d l, port_name d = Some [67; 79; 77; 51]%N /\ get_ports (mkSys true 0 0 [d]) 1 = Ret (SUCCESS, Some 1, [([67; 79; 77; 51; 57]%N, [])], l).
Proof. exists (dev (Some [67; 79; 77; 51]%N) [57; 0; 0; 0]%N None). eexists. split; reflexivity. Qed.
Print Assumptions C69_no_nul_refuted.
(** VIOLATED: when memory runs out for the converted name, the registry key is closed twice. *)
Theorem C69_key_closed_twice_refuted : exists d l, get_string_value_from_registry d = Ret (None, l) /\ held Key l = None /\ held Mem l = Some 0.
Proof. exists (mkDev true (Some COM3) true true zeros true false 0 None [] true true 0). eexists. repeat split. Qed.
Print Assumptions C69_key_closed_twice_refuted.
