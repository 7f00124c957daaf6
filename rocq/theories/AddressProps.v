(** C45, C50: the theorems about addresses.  The specification is the layout of
    the kernel's address structures. *)
From Verif Require Import Base MaskModel EndianModel EndianSpec EndianProofs AddressModel.
Local Open Scope N_scope.

(** The bytes of struct sockaddr_in, sockaddr_in6 and sockaddr_un. *)
Definition sockaddr_in e (port : N) (a : list N) : list N := store_word e 2 2 ++ be_bytes 2 port ++ a ++ repeat 0 8.
Definition sockaddr_in6 e (port : N) (a : list N) : list N := store_word e 2 10 ++ be_bytes 2 port ++ repeat 0 4 ++ a ++ repeat 0 4.
Definition sockaddr_un e (path : list N) : list N := store_word e 2 1 ++ path ++ repeat 0 (108 - length path).

Lemma put_mid a b c d : length b = length c -> put (length a) b (a ++ c ++ d) = Ret (a ++ b ++ d).
Proof.
  intros L. unfold put. rewrite !app_length. destruct (Nat.leb_spec (length a + length b) (length a + (length c + length d))); [|lia].
  f_equal. rewrite firstn_len_app. do 2 f_equal. rewrite L, <- app_length, app_assoc. apply skipn_len_app.
Qed.
Lemma put_at off a b c d : length a = off -> length b = length c -> put off b (a ++ c ++ d) = Ret (a ++ b ++ d).
Proof. intros <-. apply put_mid. Qed.
Lemma put_first b c d : length b = length c -> put 0 b (c ++ d) = Ret (b ++ d).
Proof. exact (put_mid [] b c d). Qed.
Lemma put_front b m : (length b <= length m)%nat -> put 0 b m = Ret (b ++ skipn (length b) m).
Proof. intros L. unfold put. cbn [Nat.add]. destruct (Nat.leb_spec (length b) (length m)); [reflexivity|lia]. Qed.
Lemma store_len e w n : length (store_word e w n) = w.
Proof. assert (H : forall w n, length (le_bytes w n) = w) by (clear; induction w; intros; cbn; auto). destruct e; cbn; rewrite ?rev_length; apply H. Qed.
Lemma load_store e n : n < 65536 -> load_word e (store_word e 2 n) = n.
Proof. intros H. destruct e; cbn [load_word store_word]; rewrite ?rev_involutive; apply le_value_bytes; exact H. Qed.

(** * C45 *)
(** 4 or 16 bytes are accepted and kept; any other length, or a NULL argument,
    is refused without touching the object. *)
Theorem C45_inet_address : forall a b n, length (iraw a) = 16%nat -> length b = n ->
  init_inet_address (Some a) (Some b) n =
  match n with
  | 4%nat => Ret (SUCCESS, Some (Inet AF_INET (b ++ skipn 4 (iraw a))))
  | 16%nat => Ret (SUCCESS, Some (Inet AF_INET6 b))
  | _ => Ret (INVALID_ARGUMENT, Some a)
  end.
Proof.
  intros a b n LA LB. unfold init_inet_address.
  destruct (Nat.eqb_spec n 4) as [->|N4]; [|destruct (Nat.eqb_spec n 16) as [->|N16]]; cbn [negb andb].
  - rewrite LB. cbn [Nat.ltb Nat.leb]. rewrite put_front by (rewrite firstn_length; lia).
    rewrite firstn_all2 by lia. rewrite LB. reflexivity.
  - rewrite LB. cbn [Nat.ltb Nat.leb]. rewrite put_front by (rewrite firstn_length; lia).
    rewrite firstn_all2 by lia. rewrite LB, skipn_all2, app_nil_r by lia. reflexivity.
  - do 17 (destruct n as [|n]; [try reflexivity; contradiction|]). reflexivity.
Qed.
Print Assumptions C45_inet_address.
Theorem C45_inet_address_null : forall a b n, a = None \/ b = None -> init_inet_address a b n = Ret (INVALID_ARGUMENT, a).
Proof. intros a b n [-> | ->]; [reflexivity|destruct a; reflexivity]. Qed.
Print Assumptions C45_inet_address_null.

(** A socket address initialised from an internet address holds the family, the
    port in network byte order and the address bytes where the kernel expects
    them, everything else zero; it reports the family; other families are refused. *)
Theorem C45_socket_address : forall e s a port, length (sa s) = SA_SIZE -> length (iraw a) = 16%nat -> port < 65536 ->
  if ifamily a =? AF_INET then
    exists m, init_inet_socket_address e (Some s) (Some a) port = Ret (SUCCESS, Some (Sock 16 m)) /\
      firstn 16 m = sockaddr_in e port (firstn 4 (iraw a)) /\ length m = SA_SIZE /\ socket_address_get_family e (Sock 16 m) = AF_INET
  else if ifamily a =? AF_INET6 then
    exists m, init_inet_socket_address e (Some s) (Some a) port = Ret (SUCCESS, Some (Sock 28 m)) /\
      firstn 28 m = sockaddr_in6 e port (iraw a) /\ length m = SA_SIZE /\ socket_address_get_family e (Sock 28 m) = AF_INET6
  else init_inet_socket_address e (Some s) (Some a) port = Ret (FAMILY_NOT_SUPPORTED, Some s).
Proof.
  intros e s a port LS LA HP. unfold init_inet_socket_address, host16. rewrite htobe_memory.
  destruct (N.eqb_spec (ifamily a) AF_INET) as [F|F]; [|destruct (N.eqb_spec (ifamily a) AF_INET6) as [F6|F6]]; cbn [negb andb]; [| |reflexivity].
  - rewrite F. rewrite put_front by (rewrite repeat_length, LS; unfold SA_SIZE; lia). cbn [obind]. rewrite repeat_length.
    set (R := skipn 16 (sa s)). assert (LR : length R = 94%nat) by (unfold R; rewrite skipn_length, LS; reflexivity).
    change (repeat 0 16 ++ R) with ([0;0;0;0] ++ [0;0;0;0] ++ (repeat 0 8 ++ R)).
    rewrite put_at; [|reflexivity|rewrite firstn_length, LA; reflexivity]. cbn [obind].
    change ([0;0;0;0] ++ firstn 4 (iraw a) ++ repeat 0 8 ++ R) with ([0;0] ++ [0;0] ++ (firstn 4 (iraw a) ++ repeat 0 8 ++ R)).
    rewrite put_at; [|reflexivity|apply be_bytes_length]. cbn [obind sa slen].
    rewrite put_first by apply store_len. cbn [obind app].
    eexists. split; [reflexivity|]. split; [|split].
    + unfold sockaddr_in. rewrite !app_assoc. rewrite <- (app_assoc _ _ R), <- !app_assoc.
      rewrite (app_assoc (store_word e 2 AF_INET)), (app_assoc _ (firstn 4 _)), (app_assoc _ (repeat 0 8)).
      replace 16%nat with (length (((store_word e 2 AF_INET ++ be_bytes 2 port) ++ firstn 4 (iraw a)) ++ repeat 0 8)) at 1.
      * rewrite firstn_len_app, <- !app_assoc. reflexivity.
      * rewrite !app_length, store_len, be_bytes_length, firstn_length, repeat_length. lia.
    + rewrite !app_length, store_len, be_bytes_length, firstn_length, repeat_length, LR. unfold SA_SIZE. lia.
    + unfold socket_address_get_family, read_host16. cbn [sa]. rewrite <- (store_len e 2 AF_INET) at 1. rewrite firstn_len_app. apply load_store. reflexivity.
  - rewrite F6. rewrite put_front by (rewrite repeat_length, LS; unfold SA_SIZE; lia). cbn [obind]. rewrite repeat_length.
    set (R := skipn 28 (sa s)). assert (LR : length R = 82%nat) by (unfold R; rewrite skipn_length, LS; reflexivity).
    change (repeat 0 28 ++ R) with (repeat 0 8 ++ repeat 0 16 ++ (repeat 0 4 ++ R)).
    rewrite (firstn_all2 (n := 16) (iraw a)) by (rewrite LA; apply le_n).
    rewrite put_at; [|reflexivity|rewrite repeat_length; exact LA]. cbn [obind].
    change (repeat 0 8 ++ iraw a ++ repeat 0 4 ++ R) with ([0;0] ++ [0;0] ++ (repeat 0 4 ++ iraw a ++ repeat 0 4 ++ R)).
    rewrite put_at; [|reflexivity|apply be_bytes_length]. cbn [obind sa slen].
    rewrite put_first by apply store_len. cbn [obind app].
    eexists. split; [reflexivity|]. split; [|split].
    + unfold sockaddr_in6.
      rewrite (app_assoc (store_word e 2 AF_INET6)), (app_assoc _ (repeat 0 4)), (app_assoc _ (iraw a)), (app_assoc _ (repeat 0 4)).
      replace 28%nat with (length ((((store_word e 2 AF_INET6 ++ be_bytes 2 port) ++ repeat 0 4) ++ iraw a) ++ repeat 0 4)) at 1.
      * rewrite firstn_len_app, <- !app_assoc. reflexivity.
      * rewrite !app_length, store_len, be_bytes_length, !repeat_length. lia.
    + rewrite !app_length, store_len, be_bytes_length, !repeat_length, LR. unfold SA_SIZE. lia.
    + unfold socket_address_get_family, read_host16. cbn [sa]. rewrite <- (store_len e 2 AF_INET6) at 1. rewrite firstn_len_app. apply load_store. reflexivity.
Qed.
Print Assumptions C45_socket_address.

Lemma strlen_app n r : Forall (fun b => b <> 0) n -> strlen (n ++ 0 :: r) = Ret (length n).
Proof. induction 1 as [|b n B _ IH]; [reflexivity|]. cbn [app strlen]. destruct (N.eqb_spec b 0); [contradiction|]. rewrite IH. reflexivity. Qed.

(** UNIX addresses: a path (NUL-terminated, not empty) is kept with its
    terminator; an abstract name (first byte NUL) without.  What does not fit
    into 108 bytes is refused without touching the object. *)
Definition uds_ok (s : socket_address) e (kept : list N) (out : outcome (Z * option socket_address)) : Prop :=
  if (length kept <=? 108)%nat then
    exists m, out = Ret (SUCCESS, Some (Sock (2 + N.of_nat (length kept)) m)) /\ m = sockaddr_un e kept /\
      socket_address_get_family e (Sock (2 + N.of_nat (length kept)) m) = AF_UNIX
  else out = Ret (INVALID_ARGUMENT, Some s).
Lemma uds_put e s kept r : length (sa s) = SA_SIZE -> (length kept <= 108)%nat ->
  obind (put 0 (repeat 0 SA_SIZE) (sa s)) (fun m => obind (put 0 (host16 e AF_UNIX) m) (fun m => obind (put 2 (firstn (length kept) (kept ++ r)) m) (fun m => Ret (SUCCESS, Some (Sock (2 + N.of_nat (length kept)) m))))) =
  Ret (SUCCESS, Some (Sock (2 + N.of_nat (length kept)) (sockaddr_un e kept))).
Proof.
  intros LS LK. rewrite put_front by (rewrite repeat_length, LS; lia). rewrite repeat_length, skipn_all2, app_nil_r by lia. cbn [obind].
  rewrite firstn_len_app. change (repeat 0 SA_SIZE) with ([0;0] ++ repeat 0 108). rewrite put_first by apply store_len. cbn [obind app].
  replace (repeat 0 108) with (repeat 0 (length kept) ++ repeat 0 (108 - length kept)).
  - rewrite put_at; [|apply store_len|rewrite repeat_length; reflexivity]. reflexivity.
  - rewrite <- repeat_app. f_equal. lia.
Qed.
Theorem C45_unix_path : forall e s n r, length (sa s) = SA_SIZE -> Forall (fun b => b <> 0) n -> n <> [] ->
  uds_ok s e (n ++ [0]) (init_uds_socket_address e (Some s) (Some (n ++ 0 :: r))).
Proof.
  intros e s n r LS NZ NE. unfold uds_ok, init_uds_socket_address. destruct n as [|b n]; [contradiction|]. cbn [app].
  inversion NZ as [|? ? B _]; subst. destruct (N.eqb_spec b 0); [contradiction|]. change (b :: n ++ 0 :: r) with ((b :: n) ++ 0 :: r). rewrite (strlen_app _ r NZ). cbn [obind].
  change (b :: n ++ [0]) with ((b :: n) ++ [0]). rewrite !app_length. cbn [length]. unfold SUN_PATH_SIZE.
  destruct (Nat.ltb_spec 108 (S (length n) + 1)); destruct (Nat.leb_spec (S (length n) + 1) 108); try lia; [reflexivity|].
  destruct (Nat.ltb_spec (S (length n) + S (length r)) (S (length n) + 1)); [lia|].
  pose proof (uds_put e s ((b :: n) ++ [0]) r LS) as P. rewrite app_length in P. cbn [length] in P. specialize (P ltac:(lia)).
  rewrite <- app_assoc in P. cbn [app] in P |- *. rewrite P. eexists. split; [reflexivity|]. split; [reflexivity|].
  unfold socket_address_get_family, read_host16, sockaddr_un. cbn [sa]. rewrite <- (store_len e 2 1) at 1. rewrite firstn_len_app. apply load_store. reflexivity.
Qed.
Print Assumptions C45_unix_path.
Theorem C45_unix_abstract : forall e s n r, length (sa s) = SA_SIZE -> Forall (fun b => b <> 0) n ->
  uds_ok s e (0 :: n) (init_uds_socket_address e (Some s) (Some (0 :: n ++ 0 :: r))).
Proof.
  intros e s n r LS NZ. unfold uds_ok, init_uds_socket_address. change (0 =? 0) with true. cbv iota. rewrite (strlen_app _ r NZ). cbn [obind length]. rewrite app_length. cbn [length]. unfold SUN_PATH_SIZE.
  destruct (Nat.ltb_spec 108 (length n + 1)); destruct (Nat.leb_spec (S (length n)) 108); try lia; [reflexivity|].
  destruct (Nat.ltb_spec (S (length n + S (length r))) (length n + 1)); [lia|].
  pose proof (uds_put e s (0 :: n) (0 :: r) LS) as P. cbn [length] in P. specialize (P ltac:(lia)). cbn [app] in P.
  replace (length n + 1)%nat with (S (length n)) by lia. rewrite P. eexists. split; [reflexivity|]. split; [reflexivity|].
  unfold socket_address_get_family, read_host16, sockaddr_un. cbn [sa]. rewrite <- (store_len e 2 1) at 1. rewrite firstn_len_app. apply load_store. reflexivity.
Qed.
Print Assumptions C45_unix_abstract.

(** Refuted: the empty path is taken for an abstract name; what lies behind its
    terminator is read. *)
Theorem C45_empty_path_overread_refuted : forall e s, init_uds_socket_address e (Some s) (Some [0]) = UB.
Proof. reflexivity. Qed.
Print Assumptions C45_empty_path_overread_refuted.

(** * C50 *)
(** Binding hands the kernel exactly the initialised address; a file is removed
    only for a UNIX path, and then exactly that path. *)
Theorem C50_bind_inet4 : forall e s a port u b, length (sa s) = SA_SIZE -> length (iraw a) = 16%nat -> port < 65536 -> ifamily a = AF_INET ->
  exists s', init_inet_socket_address e (Some s) (Some a) port = Ret (SUCCESS, Some s') /\
    server_socket_bind e (Some s') u b = Ret (match b with None => SUCCESS | Some er => (- er)%Z end, [SysBind (sockaddr_in e port (firstn 4 (iraw a)))]).
Proof.
  intros e s a port u b LS LA HP F. pose proof (C45_socket_address e s a port LS LA HP) as H. rewrite F in H. change (AF_INET =? AF_INET) with true in H. cbv iota in H.
  destruct H as (m & E & P & L & G). exists (Sock 16 m). split; [exact E|]. unfold server_socket_bind, is_standard_uds_socket. rewrite G.
  change (AF_INET =? AF_UNSPEC) with false. change (AF_INET =? AF_UNIX) with false. cbn [andb]. cbv iota. cbn [slen sa]. change (N.to_nat 16) with 16%nat. rewrite P. reflexivity.
Qed.
Print Assumptions C50_bind_inet4.
Theorem C50_bind_inet6 : forall e s a port u b, length (sa s) = SA_SIZE -> length (iraw a) = 16%nat -> port < 65536 -> ifamily a = AF_INET6 ->
  exists s', init_inet_socket_address e (Some s) (Some a) port = Ret (SUCCESS, Some s') /\
    server_socket_bind e (Some s') u b = Ret (match b with None => SUCCESS | Some er => (- er)%Z end, [SysBind (sockaddr_in6 e port (iraw a))]).
Proof.
  intros e s a port u b LS LA HP F. pose proof (C45_socket_address e s a port LS LA HP) as H. rewrite F in H.
  change (AF_INET6 =? AF_INET) with false in H. change (AF_INET6 =? AF_INET6) with true in H. cbv iota in H.
  destruct H as (m & E & P & L & G). exists (Sock 28 m). split; [exact E|]. unfold server_socket_bind, is_standard_uds_socket. rewrite G.
  change (AF_INET6 =? AF_UNSPEC) with false. change (AF_INET6 =? AF_UNIX) with false. cbn [andb]. cbv iota. cbn [slen sa]. change (N.to_nat 28) with 28%nat. rewrite P. reflexivity.
Qed.
Print Assumptions C50_bind_inet6.
Lemma un_prefix e kept : (length kept <= 108)%nat -> firstn (N.to_nat (2 + N.of_nat (length kept))) (sockaddr_un e kept) = store_word e 2 1 ++ kept.
Proof.
  intros L. unfold sockaddr_un. rewrite app_assoc. replace (N.to_nat (2 + N.of_nat (length kept))) with (length (store_word e 2 1 ++ kept)) by (rewrite app_length, store_len; lia). apply firstn_len_app.
Qed.
Lemma un_tail e kept : skipn 2 (sockaddr_un e kept) = kept ++ repeat 0 (108 - length kept).
Proof. unfold sockaddr_un. rewrite <- (store_len e 2 1) at 1. apply skipn_len_app. Qed.
Lemma un_nth e kept : nth 2 (sockaddr_un e kept) 0 = nth 0 (kept ++ repeat 0 (108 - length kept)) 0.
Proof. unfold sockaddr_un. rewrite app_nth2; rewrite store_len; [reflexivity|lia]. Qed.
(** A path: its file is removed first, unless it does not exist; if that fails
    nothing is bound. *)
Theorem C50_bind_unix_path : forall e s n r u b, length (sa s) = SA_SIZE -> Forall (fun x => x <> 0) n -> n <> [] -> (length n < 108)%nat ->
  exists s', init_uds_socket_address e (Some s) (Some (n ++ 0 :: r)) = Ret (SUCCESS, Some s') /\
    server_socket_bind e (Some s') u b =
    match u with
    | Some er => if Z.eqb er 2 then Ret (match b with None => SUCCESS | Some er => (- er)%Z end, [SysUnlink n; SysBind (store_word e 2 1 ++ n ++ [0])]) else Ret ((- er)%Z, [SysUnlink n])
    | None => Ret (match b with None => SUCCESS | Some er => (- er)%Z end, [SysUnlink n; SysBind (store_word e 2 1 ++ n ++ [0])])
    end.
Proof.
  intros e s n r u b LS NZ NE LN. pose proof (C45_unix_path e s n r LS NZ NE) as H. unfold uds_ok in H.
  assert (LK : length (n ++ [0]) = S (length n)) by (rewrite app_length; cbn; lia). destruct (Nat.leb_spec (length (n ++ [0])) 108); [|lia].
  destruct H as (m & E & -> & G). eexists. split; [exact E|]. unfold server_socket_bind, is_standard_uds_socket. rewrite G. cbn [slen sa].
  change (AF_UNIX =? AF_UNSPEC) with false. change (AF_UNIX =? AF_UNIX) with true. cbn [andb]. cbv iota. rewrite un_nth, un_prefix, un_tail by lia.
  assert (NB : nth 0 ((n ++ [0]) ++ repeat 0 (108 - length (n ++ [0]))) 0 <> 0) by (destruct n; [contradiction|]; inversion NZ; assumption).
  destruct (N.eqb_spec (nth 0 ((n ++ [0]) ++ repeat 0 (108 - length (n ++ [0]))) 0) 0); [contradiction|]. cbn [negb].
  rewrite <- app_assoc. cbn [app]. rewrite strlen_app by exact NZ. cbn [obind]. rewrite firstn_len_app. reflexivity.
Qed.
Print Assumptions C50_bind_unix_path.
(** An abstract name: no file is removed. *)
Theorem C50_bind_unix_abstract : forall e s n r u b, length (sa s) = SA_SIZE -> Forall (fun x => x <> 0) n -> (length n < 108)%nat ->
  exists s', init_uds_socket_address e (Some s) (Some (0 :: n ++ 0 :: r)) = Ret (SUCCESS, Some s') /\
    server_socket_bind e (Some s') u b = Ret (match b with None => SUCCESS | Some er => (- er)%Z end, [SysBind (store_word e 2 1 ++ 0 :: n)]).
Proof.
  intros e s n r u b LS NZ LN. pose proof (C45_unix_abstract e s n r LS NZ) as H. unfold uds_ok in H. destruct (Nat.leb_spec (length (0 :: n)) 108); [|cbn in *; lia].
  destruct H as (m & E & -> & G). eexists. split; [exact E|]. unfold server_socket_bind, is_standard_uds_socket. rewrite G. cbn [slen sa].
  change (AF_UNIX =? AF_UNSPEC) with false. change (AF_UNIX =? AF_UNIX) with true. cbn [andb]. cbv iota. rewrite un_nth, un_prefix by (cbn; lia). reflexivity.
Qed.
Print Assumptions C50_bind_unix_abstract.

(** Examples: 127.0.0.1 port 8080 on both kinds of machine, and a UNIX path. *)
Definition blank := Sock 0 (repeat 170 110).
Example loopback : forall e, exists s', init_inet_socket_address e (Some blank) (Some (Inet AF_INET (127 :: 0 :: 0 :: 1 :: repeat 170 12))) 8080 = Ret (SUCCESS, Some s') /\
  firstn 16 (sa s') = (match e with LittleEndian => [2; 0] | BigEndian => [0; 2] end) ++ [31; 144; 127; 0; 0; 1; 0; 0; 0; 0; 0; 0; 0; 0].
Proof. intros []; eexists; (split; [vm_compute; reflexivity|vm_compute; reflexivity]). Qed.
Example tmp_socket : exists s', init_uds_socket_address LittleEndian (Some blank) (Some [47; 97; 0; 99]) = Ret (SUCCESS, Some s') /\
  slen s' = 5 /\ firstn 5 (sa s') = [1; 0; 47; 97; 0] /\ server_socket_bind LittleEndian (Some s') None None = Ret (SUCCESS, [SysUnlink [47; 97]; SysBind [1; 0; 47; 97; 0]]).
Proof. eexists. split; [vm_compute; reflexivity|]. vm_compute. auto. Qed.
