(** C60: enumeration of serial ports. *)
From Verif Require Import Base Text EnumModel.

(** * Specification *)
(** The names of the links in the directory, in its order. *)
Definition links (l : list (list N * bool)) : list (list N) := map fst (filter snd l).
(** The path of a link. *)
Definition path_of (name : list N) : list N := text "/dev/serial/by-path/" ++ name.
(** A name in a directory: at most 255 bytes, none of them NUL (readdir(3)). *)
Definition name_ok (name : list N) : Prop := (length name <= 255)%nat /\ ~ In 0%N name.
(** What the system promises: names are names, a resolved path with its NUL fits into PATH_MAX bytes (realpath(3)), and
    errno is positive. *)
Definition sys_ok (y : sys) : Prop :=
  (forall l e, dir y = Some l -> In e l -> name_ok (fst e)) /\
  (forall p q, realpath_of y p = inr q -> (length q < PATH_MAX)%nat /\ ~ In 0%N q) /\
  (forall p e, readlink_of y p = inl e \/ realpath_of y p = inl e -> (0 < e)%Z).
(** A string stored in a character array. *)
Definition holds (buf s : list N) : Prop := exists rest, buf = s ++ [0%N] ++ rest.
(** The real path of a link, or the error that stops the enumeration. *)
Definition resolve (y : sys) (name : list N) : Z + list N :=
  match readlink_of y (path_of name) with
  | inl e => inl (- e)%Z
  | inr _ => match realpath_of y (path_of name) with inl e => inl (- e)%Z | inr p => inr p end
  end.
(** [junk] and the name arrays are arrays of PATH_MAX + 1 bytes. *)
Definition array (b : list N) : Prop := length b = S PATH_MAX.

(** * Proofs *)
Lemma strlen_app s rest : ~ In 0%N s -> strlen (s ++ 0%N :: rest) = Ret (length s).
Proof.
  induction s as [|b s IH]; intros H; cbn [strlen app length]; [reflexivity|].
  destruct (N.eqb_spec b 0) as [->|_]; [destruct H; left; reflexivity|]. rewrite IH by (intros X; apply H; right; exact X). reflexivity.
Qed.
Lemma cstring_app s rest : ~ In 0%N s -> cstring (s ++ 0%N :: rest) = Ret s.
Proof. intros H. unfold cstring. rewrite strlen_app by exact H. cbn [obind]. rewrite firstn_len_app. reflexivity. Qed.
Lemma poke_length buf off l : (off + length l <= length buf)%nat -> length (poke buf off l) = length buf.
Proof. intros H. unfold poke. rewrite !app_length, firstn_length, skipn_length. lia. Qed.
Lemma strncpy_short buf off src n : (off + n <= length buf)%nat -> (length src < n)%nat ->
  exists rest, strncpy buf off src n = Ret (firstn off buf ++ src ++ 0%N :: rest) /\ length (firstn off buf ++ src ++ 0%N :: rest) = length buf.
Proof.
  intros H1 H2. unfold strncpy. destruct (Nat.ltb_spec (length buf) (off + n)) as [X|_]; [lia|].
  assert (E : firstn n (src ++ repeat 0%N n) = src ++ 0%N :: repeat 0%N (n - length src - 1)).
  { rewrite firstn_app, firstn_all2 by lia. f_equal. destruct n as [|n]; [lia|].
    replace (S n - length src)%nat with (S (n - length src)) by lia. cbn [repeat firstn]. f_equal. replace (S (n - length src) - 1)%nat with (n - length src)%nat by lia.
    assert (R : forall a b, (a <= b)%nat -> firstn a (repeat 0%N b) = repeat 0%N a). { induction a as [|a IH]; intros b L; [reflexivity|]. destruct b as [|b]; [lia|]. cbn. f_equal. apply IH. lia. }
    apply R. lia. }
  rewrite E. unfold poke. eexists. split; [rewrite <- app_assoc; cbn [app]; reflexivity|].
  rewrite !app_length. cbn [length]. rewrite !app_length, repeat_length, firstn_length, skipn_length. cbn [length]. rewrite ?repeat_length. lia.
Qed.
Lemma dir_name_ok : ~ In 0%N DIR_NAME /\ length DIR_NAME = 20%nat.
Proof. split; [|reflexivity]. intros X. cbn in X. repeat (destruct X as [X|X]; [discriminate|]). exact X. Qed.
Lemma big : (300 < PATH_MAX)%nat.
Proof. unfold PATH_MAX. lia. Qed.

(** The path is built in a buffer, whatever was there. *)
Lemma build junk name : array junk -> name_ok name -> exists src, array src /\
  forall B (f : list N -> list N -> outcome B), (obind (strncpy junk 0 DIR_NAME (Nat.min (length DIR_NAME + 1) (S PATH_MAX))) (fun src =>
    obind (strlen src) (fun len => obind (strncpy src len name (S PATH_MAX - len)) (fun src => obind (cstring src) (fun path => f src path))))) = f src (path_of name).
Proof.
  intros HA [N1 N2]. destruct dir_name_ok as [D1 D2]. pose proof big as BG. unfold array in HA.
  rewrite Nat.min_l by lia.
  destruct (strncpy_short junk 0 DIR_NAME (length DIR_NAME + 1)) as (rest & E & L); [lia|lia|]. cbn [firstn app] in E, L.
  destruct (strncpy_short (DIR_NAME ++ 0%N :: rest) (length DIR_NAME) name (S PATH_MAX - length DIR_NAME)) as (rest' & E' & L'); [lia|lia|].
  rewrite firstn_len_app in E', L'. exists (DIR_NAME ++ name ++ 0%N :: rest'). split; [unfold array; lia|]. intros B f.
  rewrite E. cbn [obind]. rewrite (strlen_app _ _ D1). cbn [obind]. rewrite E'. cbn [obind]. rewrite app_assoc. rewrite cstring_app; [reflexivity|]. intros X. apply in_app_or in X. tauto.
Qed.

Lemma one_link_spec y junk name target : sys_ok y -> name_ok name -> array junk -> array target ->
  match resolve y name with
  | inl e => one_link y junk name target = Ret (inl e)
  | inr p => exists t, one_link y junk name target = Ret (inr t) /\ array t /\ holds t p
  end.
Proof.
  intros (_ & RP & _) NM JK TG. pose proof big as BG. destruct (build junk name JK NM) as (src & A1 & B1). destruct (build src name A1 NM) as (src' & A2 & B2).
  unfold one_link. rewrite B1. unfold resolve, readlink. destruct (readlink_of y (path_of name)) as [e|l]; [reflexivity|].
  assert (LL : (length (firstn (S PATH_MAX - 1) l) <= PATH_MAX)%nat) by (rewrite firstn_length; lia).
  destruct (Nat.ltb_spec (length junk) (length (firstn (S PATH_MAX - 1) l))) as [X|_]; [unfold array in JK; lia|]. cbn [obind].
  destruct (Nat.leb_spec (S PATH_MAX) (length (firstn (S PATH_MAX - 1) l))) as [X|_]; [lia|]. rewrite B2. unfold realpath.
  destruct (realpath_of y (path_of name)) as [e|p] eqn:E; [reflexivity|]. destruct (RP _ _ E) as [P1 P2]. unfold array in TG.
  destruct (Nat.ltb_spec (length target) (length p + 1)) as [X|_]; [lia|]. cbn [obind]. eexists. split; [reflexivity|]. split.
  - unfold array. rewrite poke_length; [exact TG|]. rewrite app_length. cbn. lia.
  - unfold poke, holds. cbn [firstn app]. rewrite <- app_assoc. eexists. reflexivity.
Qed.

Lemma set_nth_length {A} n (x : A) l : (n < length l)%nat -> length (set_nth n x l) = length l.
Proof. intros H. unfold set_nth. rewrite app_length, firstn_length. cbn [length]. rewrite skipn_length. lia. Qed.
Lemma set_nth_same {A} n (x : A) l : (n < length l)%nat -> nth_error (set_nth n x l) n = Some x.
Proof. intros H. unfold set_nth. rewrite nth_error_app2; rewrite firstn_length; [|lia]. replace (n - Nat.min n (length l))%nat with 0%nat by lia. reflexivity. Qed.
Lemma set_nth_other {A} n m (x : A) l : (n < length l)%nat -> n <> m -> nth_error (set_nth n x l) m = nth_error l m.
Proof.
  intros H NE. unfold set_nth. destruct (Nat.lt_ge_cases m n) as [L|L].
  - rewrite nth_error_app1 by (rewrite firstn_length; lia). rewrite <- (firstn_skipn n l) at 2. rewrite nth_error_app1 by (rewrite firstn_length; lia). reflexivity.
  - rewrite nth_error_app2 by (rewrite firstn_length; lia). rewrite firstn_length. replace (Nat.min n (length l)) with n by lia. destruct (m - n)%nat as [|d] eqn:D; [lia|]. cbn [nth_error].
    rewrite <- (firstn_skipn (S n) l) at 2. rewrite nth_error_app2 by (rewrite firstn_length; lia). rewrite firstn_length. f_equal. lia.
Qed.

(** * Theorems *)
(** What the enumeration has to leave when every link that is looked at can be resolved. *)
Definition listed (y : sys) (names : list (list N)) (before after : list (list N)) : Prop :=
  length after = length before /\
  (forall i name, nth_error names i = Some name -> exists t p, nth_error after i = Some t /\ array t /\ resolve y name = inr p /\ holds t p) /\
  (forall i, (length names <= i)%nat -> nth_error after i = nth_error before i).

Lemma loop_spec y junk max : sys_ok y -> array junk -> forall l num ps, (forall e, In e l -> name_ok (fst e)) -> (num <= max)%nat -> length ps = max -> Forall array ps ->
  exists r, get_loop y junk l num max 1 ps = Ret r /\ left_open r = 0%nat /\ length (ports r) = max /\
  (forall i, (i < num)%nat -> nth_error (ports r) i = nth_error ps i) /\
  match find (fun n => match resolve y n with inl _ => true | inr _ => false end) (firstn (max - num) (links l)) with
  | Some n => resolve y n = inl (ret r) /\ detected r = None
  | None => ret r = 0%Z /\ detected r = Some (Nat.min max (num + length (links l))) /\
     (forall i name, nth_error (firstn (max - num) (links l)) i = Some name -> exists t p, nth_error (ports r) (num + i) = Some t /\ array t /\ resolve y name = inr p /\ holds t p) /\
     (forall i, (Nat.min max (num + length (links l)) <= i)%nat -> nth_error (ports r) i = nth_error ps i)
  end.
Proof.
  intros SY JK. induction l as [|[name lnk] l IH]; intros num ps NM LE LP FA; cbn [get_loop].
  - eexists. split; [reflexivity|]. cbn [left_open ports ret detected]. split; [reflexivity|]. split; [exact LP|]. split; [reflexivity|].
    rewrite firstn_nil. cbn [find]. change (length (links [])) with 0%nat. split; [reflexivity|]. split; [f_equal; lia|]. split; [intros i n X; destruct i; discriminate|reflexivity].
  - destruct (Nat.leb_spec max num) as [M|M].
    { eexists. split; [reflexivity|]. cbn [left_open ports ret detected]. split; [reflexivity|]. split; [exact LP|]. split; [reflexivity|]. replace (max - num)%nat with 0%nat by lia. cbn [firstn find].
      split; [reflexivity|]. split; [f_equal; lia|]. split; [intros i n X; destruct i; discriminate|reflexivity]. }
    assert (NM' : forall e, In e l -> name_ok (fst e)) by (intros e X; apply NM; right; exact X).
    destruct lnk.
    2:{ destruct (IH num ps NM' LE LP FA) as (r & E & R). exists r. split; [exact E|]. exact R. }
    destruct (nth_error ps num) as [target|] eqn:TG; [|apply nth_error_None in TG; lia].
    assert (AT : array target) by (rewrite Forall_forall in FA; apply FA; eapply nth_error_In, TG).
    pose proof (one_link_spec y junk name target SY (NM (name, true) (or_introl eq_refl)) JK AT) as O.
    change (links ((name, true) :: l)) with (name :: links l). replace (max - num)%nat with (S (max - S num)) by lia. cbn [firstn find].
    destruct (resolve y name) as [e|p] eqn:RS.
    + rewrite O. cbn [obind]. eexists. split; [reflexivity|]. cbn [left_open ports ret detected]. repeat split; auto.
    + destruct O as (t & O & A1 & H1). rewrite O. cbn [obind].
      destruct (IH (S num) (set_nth num t ps)) as (r & E & R1 & R2 & R3 & R4); auto; [rewrite set_nth_length by lia; exact LP| |].
      { rewrite Forall_forall in *. intros x X. unfold set_nth in X. apply in_app_or in X. destruct X as [X|[<-|X]]; [|exact A1|]; apply FA; [rewrite <- (firstn_skipn num ps)|rewrite <- (firstn_skipn (S num) ps)]; apply in_or_app; auto. }
      exists r. split; [exact E|]. split; [exact R1|]. split; [exact R2|]. split.
      { intros i L. rewrite R3 by lia. apply set_nth_other; lia. }
      destruct (find _ _) as [n|]; [exact R4|]. destruct R4 as (Q1 & Q2 & Q3 & Q4). split; [exact Q1|]. cbn [length]. split; [rewrite Q2; f_equal; lia|]. split.
      * intros [|i] n X; cbn in X.
        -- injection X as <-. rewrite Nat.add_0_r. exists t, p. rewrite R3 by lia. rewrite set_nth_same by lia. auto.
        -- destruct (Q3 i n X) as (t' & p' & Y). exists t', p'. replace (num + S i)%nat with (S num + i)%nat by lia. exact Y.
      * intros i L. rewrite Q4 by lia. apply set_nth_other; lia.
Qed.

(** cio_uart_get_ports never leaves the arrays, closes the directory, and lists the first [max] links of the directory in its
    order, resolved; if one of them cannot be resolved the error of the first such link is returned. *)
Theorem C60_ports_are_the_links : forall y junk ps max l, sys_ok y -> array junk -> length ps = max -> Forall array ps -> dir y = Some l ->
  exists r, get_ports y junk ps max = Ret r /\ left_open r = 0%nat /\
  match find (fun n => match resolve y n with inl _ => true | inr _ => false end) (firstn max (links l)) with
  | Some n => resolve y n = inl (ret r) /\ detected r = None
  | None => ret r = 0%Z /\ detected r = Some (Nat.min max (length (links l))) /\ listed y (firstn max (links l)) ps (ports r)
  end.
Proof.
  intros y junk ps max l SY JK LP FA D. unfold get_ports, opendir. rewrite D. destruct SY as (S1 & S2).
  destruct (loop_spec y junk max (conj S1 S2) JK l 0 ps) as (r & E & R1 & R2 & R3 & R4); auto; [intros e X; apply (S1 l e D X)|apply Nat.le_0_l|]. exists r. split; [exact E|]. split; [exact R1|].
  rewrite Nat.sub_0_r in R4. destruct (find _ _) as [n|]; [exact R4|]. destruct R4 as (Q1 & Q2 & Q3 & Q4). split; [exact Q1|]. split; [exact Q2|]. split; [congruence|]. split; [exact Q3|].
  intros i L. apply Q4. rewrite firstn_length in L. cbn [plus]. exact L.
Qed.
Print Assumptions C60_ports_are_the_links.

(** Without the directory nothing is listed, and the caller is told. *)
Theorem C60_no_directory : forall y junk ps max, dir y = None -> get_ports y junk ps max = Ret (mkRes (-2)%Z None ps 0) /\ get_number_of_uarts y = (0%nat, 0%nat).
Proof. intros y junk ps max D. unfold get_ports, get_number_of_uarts, opendir. rewrite D. split; reflexivity. Qed.
Print Assumptions C60_no_directory.

(** cio_uart_get_number_of_uarts says how large the array has to be. *)
Theorem C60_number_is_sufficient : forall y junk ps l r, sys_ok y -> array junk -> dir y = Some l -> length ps = fst (get_number_of_uarts y) -> Forall array ps ->
  get_ports y junk ps (length ps) = Ret r -> ret r = 0%Z -> fst (get_number_of_uarts y) = length (links l) /\ snd (get_number_of_uarts y) = 0%nat /\ listed y (links l) ps (ports r).
Proof.
  intros y junk ps l r SY JK D LP FA G RZ. assert (CL : forall l n, count_links l n = (n + length (links l))%nat).
  { clear. induction l as [|[name lnk] l IH]; intros n; cbn [count_links]; [unfold links; cbn; lia|]. rewrite IH. destruct lnk; unfold links; cbn [filter snd map length]; lia. }
  assert (NU : get_number_of_uarts y = (length (links l), 0%nat)) by (unfold get_number_of_uarts, opendir; rewrite D, CL; reflexivity). rewrite NU in *. cbn [fst snd] in *. split; [reflexivity|]. split; [reflexivity|].
  destruct (C60_ports_are_the_links y junk ps (length ps) l SY JK eq_refl FA D) as (r' & G' & _ & R). rewrite G in G'. injection G' as <-. rewrite LP, firstn_all in R.
  destruct (find _ _) as [n|] eqn:F; [|apply R]. exfalso. destruct R as [R _]. rewrite RZ in R. apply find_some in F. destruct F as [_ F]. rewrite R in F. clear F. unfold resolve in R.
  destruct SY as (_ & _ & EP). destruct (readlink_of y (path_of n)) as [e|q] eqn:E1; [|destruct (realpath_of y (path_of n)) as [e|p] eqn:E2; [|discriminate R]].
  - specialize (EP _ _ (or_introl E1)). injection R as R. lia.
  - specialize (EP _ _ (or_intror E2)). injection R as R. lia.
Qed.
Print Assumptions C60_number_is_sufficient.

(** Non-vacuity: two links and the entries . and .., room for two ports. *)
Definition demo : sys := mkSys (Some [(text ".", false); (text "pci-1", true); (text "..", false); (text "pci-2", true)])
  (fun _ => inr (text "../../ttyUSB0")) (fun p => if N.eqb (last p 0%N) 49 then inr (text "/dev/tty1") else if N.eqb (last p 0%N) 50 then inr (text "/dev/tty2") else inl 2%Z).
Definition blank : list N := repeat 7%N (S PATH_MAX).
Example enumeration : sys_ok demo /\ array blank /\ links [(text ".", false); (text "pci-1", true); (text "..", false); (text "pci-2", true)] = [text "pci-1"; text "pci-2"] /\
  (exists r, get_ports demo blank [blank; blank] 2 = Ret r /\ ret r = 0%Z /\ detected r = Some 2%nat /\
     map (fun b => match cstring b with Ret s => s | UB => [] end) (ports r) = [text "/dev/tty1"; text "/dev/tty2"]) /\
  (exists r, get_ports demo blank [blank] 1 = Ret r /\ detected r = Some 1%nat).
Proof.
  split.
  { split; [|split].
    - intros l e [= <-] X. cbn in X. repeat (destruct X as [X|X]; [subst e; split; [cbn; lia|cbn; intros Y; repeat (destruct Y as [Y|Y]; [discriminate|]); exact Y]|]). destruct X.
    - intros p q X. cbn [demo realpath_of] in X. pose proof big as BG. destruct (N.eqb (last p 0%N) 49); [|destruct (N.eqb (last p 0%N) 50); [|discriminate X]];
        injection X as <-; (split; [cbn [text length]; lia|cbn; intros Y; repeat (destruct Y as [Y|Y]; [discriminate|]); exact Y]).
    - intros p e [X|X]; cbn [demo readlink_of realpath_of] in X; [discriminate|]. destruct (N.eqb (last p 0%N) 49); [discriminate X|destruct (N.eqb (last p 0%N) 50); [discriminate X|]]. injection X as <-. lia. }
  split; [apply repeat_length|]. split; [reflexivity|].
  split; (destruct (get_ports demo blank _ _) as [r|] eqn:E; [|vm_compute in E; discriminate E]); exists r; (split; [reflexivity|]);
    vm_compute in E; injection E as <-; vm_compute; repeat split; reflexivity.
Qed.
