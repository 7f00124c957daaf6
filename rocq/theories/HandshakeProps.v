(** C30, C31, C32: the WebSocket opening handshake of the server. *)
From Coq Require Import Permutation.
From Verif Require Import Base RouteModel RouteProps Sha1Model Sha1Spec Sha1Proofs EndianSpec EndianProofs.
From Verif Require Import Base64Model Base64Spec Base64Proofs Text HandshakeModel HandshakeSpec HandshakeProofs.

Lemma strncase_spec : forall n a b, n = length a -> n = length b -> ~ In 0%N b ->
  exists r, strncase_eq a b n = Ret r /\ (r = true <-> map lower a = map lower b).
Proof.
  induction n as [|n IH]; intros [|x a] [|y b] Ha Hb H0; try discriminate; cbn [strncase_eq].
  - exists true. split; [reflexivity|]. tauto.
  - cbn [map]. destruct (N.eqb_spec (lower x) (lower y)) as [E|E]; cbn [negb].
    + destruct (N.eqb_spec x 0) as [->|Nx].
      * exfalso. apply H0. left. unfold lower in E. cbn in E. destruct ((65 <=? y)%N && (y <=? 90)%N) eqn:R; [|congruence].
        apply andb_true_iff in R. rewrite !N.leb_le in R. lia.
      * destruct (IH a b) as (r & Er & Hr). { injection Ha. auto. } { injection Hb. auto. } { intros K. apply H0. right. exact K. }
        exists r. split; [exact Er|]. rewrite Hr, E. split; [intros ->; reflexivity|]. intros K. injection K. auto.
    + exists false. split; [reflexivity|]. split; [discriminate|]. intros K. injection K. intros _ K'. destruct (E K').
Qed.

Lemma is_name_spec nm lit : ~ In 0%N lit -> exists b, is_name nm lit = Ret b /\ (b = true <-> same_name nm lit).
Proof.
  intros H. unfold is_name, same_name. change to_lower with lower. destruct (Nat.eqb_spec (length lit) (length nm)) as [E|E].
  - apply strncase_spec; auto.
  - exists false. split; [reflexivity|]. split; [discriminate|]. intros K. exfalso. apply E.
    rewrite <- (map_length lower lit), <- K. apply map_length.
Qed.

Lemma key_lit nm : same_name nm SEC_KEY <-> same_name nm (text "sec-websocket-key").
Proof. unfold same_name. replace (map to_lower SEC_KEY) with (map to_lower (text "sec-websocket-key")) by reflexivity. tauto. Qed.
Lemma version_lit nm : same_name nm WS_VERSION <-> same_name nm (text "sec-websocket-version").
Proof. unfold same_name. replace (map to_lower WS_VERSION) with (map to_lower (text "sec-websocket-version")) by reflexivity. tauto. Qed.
Lemma protocol_lit nm : same_name nm WS_PROTOCOL <-> same_name nm (text "sec-websocket-protocol").
Proof. unfold same_name. replace (map to_lower WS_PROTOCOL) with (map to_lower (text "sec-websocket-protocol")) by reflexivity. tauto. Qed.

Lemma kinds_differ l : (key_line l -> ~ version_line l) /\ (key_line l -> ~ protocol_line l) /\ (version_line l -> ~ protocol_line l).
Proof.
  unfold key_line, version_line, protocol_line, named, same_name.
  repeat split; intros -> K; revert K; vm_compute; discriminate.
Qed.

(** What a line means to the handler. *)
Inductive kind (l : line) : header_field -> Prop :=
| k_key : key_line l -> kind l H_KEY
| k_version : version_line l -> kind l H_VERSION
| k_protocol : protocol_line l -> kind l H_PROTOCOL
| k_other : ~ key_line l -> ~ version_line l -> ~ protocol_line l -> kind l H_UNKNOWN.

Lemma field_name_spec h l : current_header_field h = H_UNKNOWN ->
  exists f, kind l f /\ handle_field_name h (name l) = Ret (set_field h f, CB_SUCCESS).
Proof.
  intros Hf. unfold handle_field_name.
  destruct (is_name_spec (name l) SEC_KEY) as (b & -> & Hb). { vm_compute. intuition discriminate. }
  rewrite key_lit in Hb. cbn [obind]. destruct b.
  { exists H_KEY. split; [constructor; apply Hb; reflexivity|reflexivity]. }
  destruct (is_name_spec (name l) WS_VERSION) as (b & -> & Hb'). { vm_compute. intuition discriminate. }
  rewrite version_lit in Hb'. cbn [obind]. destruct b.
  { exists H_VERSION. split; [constructor; apply Hb'; reflexivity|reflexivity]. }
  destruct (is_name_spec (name l) WS_PROTOCOL) as (b & -> & Hb''). { vm_compute. intuition discriminate. }
  rewrite protocol_lit in Hb''. cbn [obind]. destruct b.
  { exists H_PROTOCOL. split; [constructor; apply Hb''; reflexivity|reflexivity]. }
  exists H_UNKNOWN. split.
  - constructor; intros K.
    + apply Hb in K. discriminate.
    + apply Hb' in K. discriminate.
    + apply Hb'' in K. discriminate.
  - unfold set_field. rewrite <- Hf. destruct h. reflexivity.
Qed.

(** A line the handler accepts, and the state it leaves. *)
Definition line_ok (protocols : option (list (list N))) (l : line) : Prop :=
  (key_line l -> length (value l) = 24) /\ (version_line l -> value l = text "13") /\
  (protocol_line l -> match protocols with None => True | Some s => exists p, picks s (value l) p end).

Definition wf (h : handler) : Prop :=
  current_header_field h = H_UNKNOWN /\ length (sec_websocket_key h) = 60 /\ length (accept_value h) = 30.

Lemma key_saved (k v : list N) : length k = 60 -> length v = 24 ->
  obind (memcpy k 0 v) (fun k0 => memcpy k0 (length v) WS_GUID) = Ret (v ++ WS_GUID).
Proof.
  intros Hk Hv. unfold memcpy at 1. replace (Nat.leb (0 + length v) (length k)) with true by (symmetry; apply Nat.leb_le; lia).
  cbn [obind firstn app]. unfold memcpy. rewrite app_length, skipn_length.
  replace (length WS_GUID) with 36 by reflexivity.
  replace (Nat.leb (length v + 36) (length v + (length k - (0 + length v)))) with true by (symmetry; apply Nat.leb_le; lia).
  rewrite firstn_len_app, skipn_all2; [rewrite app_nil_r; reflexivity|]. rewrite app_length, skipn_length. lia.
Qed.

Lemma values_unknown : forall l h, current_header_field h = H_UNKNOWN -> values h l = Ret (h, CB_SUCCESS).
Proof.
  induction l as [|v l IH]; intros h Hf; cbn [values]; [reflexivity|].
  unfold handle_field_value. rewrite Hf. cbn [obind].
  replace (set_field h H_UNKNOWN) with h by (unfold set_field; rewrite <- Hf; destruct h; reflexivity).
  apply IH, Hf.
Qed.

Lemma set_field_twice h f : current_header_field h = H_UNKNOWN -> set_field (set_field h f) H_UNKNOWN = h.
Proof. intros E. destruct h. cbn in *. rewrite E. reflexivity. Qed.

(** One line. *)
Lemma line_spec h l : wf h ->
  exists f h1 h' ret, kind l f /\ handle_field_name h (name l) = Ret (h1, CB_SUCCESS) /\
    values h1 (value l :: folded l) = Ret (h', ret) /\ subprotocols h' = subprotocols h /\
    (ret = CB_SUCCESS <-> line_ok (subprotocols h) l) /\
    (ret = CB_SUCCESS -> wf h' /\
      ws_version_ok h' = (match f with H_VERSION => true | _ => ws_version_ok h end) /\
      subprotocol_requested h' = (match f with H_PROTOCOL => true | _ => subprotocol_requested h end) /\
      sec_websocket_key h' = (match f with H_KEY => value l ++ WS_GUID | _ => sec_websocket_key h end) /\
      accept_value h' = accept_value h /\
      (f <> H_PROTOCOL \/ subprotocols h = None -> chosen_subprotocol h' = chosen_subprotocol h) /\
      (f = H_PROTOCOL -> forall s, subprotocols h = Some s ->
         exists i p, chosen_subprotocol h' = Some i /\ nth_error s i = Some p /\ picks s (value l) p)).
Proof.
  intros (Hf & Hk & Ha). destruct (field_name_spec h l Hf) as (f & K & En).
  exists f, (set_field h f). rewrite En.
  destruct (kinds_differ l) as (D1 & D2 & D3).
  cbn [values]. unfold handle_field_value.
  replace (current_header_field (set_field h f)) with f by (destruct h; reflexivity).
  destruct K as [K|K|K|K1 K2 K3].
  - unfold save_websocket_key. destruct (Nat.eqb_spec (length (value l)) KEY_LENGTH) as [E|E].
    + pose proof (key_saved (sec_websocket_key h) (value l) Hk E) as S.
      destruct (memcpy (sec_websocket_key h) 0 (value l)) as [k0|] eqn:M; [|discriminate]. cbn [obind] in S.
      replace (sec_websocket_key (set_field h H_KEY)) with (sec_websocket_key h) by reflexivity.
      rewrite M. cbn [obind]. rewrite S. cbn [obind].
      rewrite values_unknown by reflexivity.
      exists (set_field (set_key (set_field h H_KEY) (value l ++ WS_GUID)) H_UNKNOWN), CB_SUCCESS.
      split; [constructor; exact K|]. split; [reflexivity|]. split; [reflexivity|]. split; [reflexivity|].
      split; [split; [intros _|reflexivity]|].
      * split; [intros _; exact E|]. split; [intros V; destruct (D1 K V)|intros V; destruct (D2 K V)].
      * intros _. split; [split; [reflexivity|]; split; [|exact Ha]; cbn [sec_websocket_key set_field set_key]; rewrite app_length, E; reflexivity|].
        repeat split. all: try discriminate.
    + cbn [obind]. exists (set_field (set_field h H_KEY) H_UNKNOWN), CB_ERROR.
      split; [constructor; exact K|]. split; [reflexivity|]. split; [reflexivity|]. split; [reflexivity|].
      split; [split; [discriminate|intros (L & _); destruct (E (L K))]|discriminate].
  - unfold check_websocket_version.
    assert (V : value l = VERSION <-> length (value l) = length VERSION /\ firstn (length (value l)) (value l) = firstn (length (value l)) VERSION).
    { split; [intros ->; auto|]. intros [E F]. rewrite firstn_all in F. rewrite E, firstn_all in F. exact F. }
    assert (Bad : value l <> VERSION -> exists h' ret, kind l H_VERSION /\
        Ret (set_field h H_VERSION, CB_SUCCESS) = Ret (set_field h H_VERSION, CB_SUCCESS) /\
        obind (obind (Ret (set_field h H_VERSION, CB_ERROR)) (fun '(h0, ret0) => Ret (set_field h0 H_UNKNOWN, ret0)))
          (fun '(h0, r) => match r with CB_SUCCESS => values h0 (folded l) | _ => Ret (h0, r) end) = Ret (h', ret) /\
        subprotocols h' = subprotocols h /\ (ret = CB_SUCCESS <-> line_ok (subprotocols h) l) /\ ret <> CB_SUCCESS).
    { intros N. cbn [obind]. exists (set_field (set_field h H_VERSION) H_UNKNOWN), CB_ERROR.
      split; [constructor; exact K|]. split; [reflexivity|]. split; [reflexivity|]. split; [reflexivity|].
      split; [|discriminate]. split; [discriminate|]. intros (_ & L & _). destruct (N (L K)). }
    destruct (Nat.eqb_spec (length (value l)) (length VERSION)) as [E|E].
    + destruct (memcmp_prefix (length (value l)) (value l) VERSION) as (same & Em & Hs); [lia|lia|].
      rewrite Em. cbn [obind]. destruct same.
      * cbn [obind]. rewrite values_unknown by reflexivity.
        exists (set_field (set_version_ok (set_field h H_VERSION)) H_UNKNOWN), CB_SUCCESS.
        split; [constructor; exact K|]. split; [reflexivity|]. split; [reflexivity|]. split; [reflexivity|].
        split; [split; [intros _|reflexivity]|].
        -- split; [intros X; destruct (D1 X K)|]. split; [intros _; apply V; split; [exact E|apply Hs; reflexivity]|intros X; destruct (D3 K X)].
        -- intros _. split; [split; [reflexivity|]; split; [exact Hk|exact Ha]|]. repeat split. all: try discriminate.
      * destruct Bad as (h' & ret & B1 & B2 & B3 & B4 & B5 & B6).
        { intros X. apply V in X. destruct X as [_ X]. apply Hs in X. discriminate. }
        exists h', ret. split; [exact B1|]. split; [exact B2|]. split; [exact B3|]. split; [exact B4|]. split; [exact B5|].
        intros X. destruct (B6 X).
    + destruct Bad as (h' & ret & B1 & B2 & B3 & B4 & B5 & B6).
      { intros X. apply V in X. tauto. }
      exists h', ret. split; [exact B1|]. split; [exact B2|]. split; [exact B3|]. split; [exact B4|]. split; [exact B5|].
      intros X. destruct (B6 X).
  - unfold check_websocket_protocol. cbn [subprotocols set_requested set_field].
    destruct (subprotocols h) as [s|] eqn:Es.
    + destruct (loop_spec s (S (length (value l))) (value l)) as (r & -> & Hr); [lia|]. cbn [obind].
      destruct r as [i| |]; [|destruct Hr|].
      * cbn [obind]. rewrite values_unknown by reflexivity.
        exists (set_field (set_chosen (set_requested (set_field h H_PROTOCOL)) (Some i)) H_UNKNOWN), CB_SUCCESS.
        split; [constructor; exact K|]. split; [reflexivity|]. split; [reflexivity|]. split; [exact Es|].
        destruct Hr as (p & Hn & P).
        split; [split; [intros _|reflexivity]|].
        -- split; [intros X; destruct (D2 X K)|]. split; [intros X; destruct (D3 X K)|]. intros _. exists p. exact P.
        -- intros _. split; [split; [reflexivity|]; split; [exact Hk|exact Ha]|].
           split; [reflexivity|]. split; [reflexivity|]. split; [reflexivity|]. split; [reflexivity|].
           split; [intros [X|X]; [tauto|discriminate]|]. intros _ s' X. injection X as <-. exists i, p. auto.
      * cbn [obind]. exists (set_field (set_requested (set_field h H_PROTOCOL)) H_UNKNOWN), CB_ERROR.
        split; [constructor; exact K|]. split; [reflexivity|]. split; [reflexivity|]. split; [exact Es|].
        split; [split; [discriminate|]|discriminate]. intros (_ & _ & L). destruct (L K) as (p & P). destruct (Hr p P).
    + cbn [obind]. rewrite values_unknown by reflexivity.
      exists (set_field (set_requested (set_field h H_PROTOCOL)) H_UNKNOWN), CB_SUCCESS.
      split; [constructor; exact K|]. split; [reflexivity|]. split; [reflexivity|]. split; [exact Es|].
      split; [split; [intros _|reflexivity]|].
      * split; [intros X; destruct (D2 X K)|]. split; [intros X; destruct (D3 X K)|]. intros _. exact I.
      * intros _. split; [split; [reflexivity|]; split; [exact Hk|exact Ha]|].
        split; [reflexivity|]. split; [reflexivity|]. split; [reflexivity|]. split; [reflexivity|].
        split; [reflexivity|]. intros _ s' X. discriminate.
  - cbn [obind]. rewrite values_unknown by reflexivity. exists h, CB_SUCCESS.
    split; [constructor; assumption|]. split; [reflexivity|].
    split; [f_equal; f_equal; destruct h; cbn in Hf; rewrite Hf; reflexivity|]. split; [reflexivity|].
    split; [split; [intros _|reflexivity]|].
    + split; [tauto|]. split; [tauto|]. tauto.
    + intros _. split; [repeat split; assumption|]. repeat split. all: try discriminate.
Qed.

Lemma last_such_cons (P : line -> Prop) x l y : last_such P l y -> last_such P (x :: l) y.
Proof. intros (H & b & a & -> & Ha). split; [exact H|]. exists (x :: b), a. auto. Qed.
Lemma last_such_here (P : line -> Prop) x l : P x -> (forall y, In y l -> ~ P y) -> last_such P (x :: l) x.
Proof. intros H Ha. split; [exact H|]. exists [], l. auto. Qed.

(** All lines. *)
Lemma lines_spec : forall ls h, wf h ->
  exists h' ret, header_lines h ls = Ret (h', ret) /\ (ret = CB_SUCCESS <-> Forall (line_ok (subprotocols h)) ls) /\
    (ret = CB_SUCCESS -> wf h' /\ subprotocols h' = subprotocols h /\
      (ws_version_ok h' = true <-> ws_version_ok h = true \/ Exists version_line ls) /\
      (subprotocol_requested h' = true <-> subprotocol_requested h = true \/ Exists protocol_line ls) /\
      ((exists l, last_such key_line ls l /\ sec_websocket_key h' = value l ++ WS_GUID) \/
       ((forall l, In l ls -> ~ key_line l) /\ sec_websocket_key h' = sec_websocket_key h)) /\
      ((exists l s i p, last_such protocol_line ls l /\ subprotocols h = Some s /\ picks s (value l) p /\
          chosen_subprotocol h' = Some i /\ nth_error s i = Some p) \/
       (((forall l, In l ls -> ~ protocol_line l) \/ subprotocols h = None) /\ chosen_subprotocol h' = chosen_subprotocol h))).
Proof.
  induction ls as [|x ls IH]; intros h W.
  - exists h, CB_SUCCESS. cbn [header_lines]. split; [reflexivity|]. split; [split; [constructor|reflexivity]|].
    intros _. split; [exact W|]. split; [reflexivity|].
    split; [rewrite Exists_nil; tauto|]. split; [rewrite Exists_nil; tauto|].
    split; [right; split; [intros l []|reflexivity]|]. right. split; [left; intros l []|reflexivity].
  - cbn [header_lines]. destruct (line_spec h x W) as (f & h1 & h2 & ret & K & -> & E2 & Es & Hret & Hst). cbn [obind].
    rewrite E2. cbn [obind]. destruct ret.
    2:{ exists h2, CB_ERROR. split; [reflexivity|]. split; [|discriminate]. split; [discriminate|]. intros F. inversion F; subst. apply Hret in H1. discriminate. }
    2:{ exists h2, CB_SKIP_BODY. split; [reflexivity|]. split; [|discriminate]. split; [discriminate|]. intros F. inversion F; subst. apply Hret in H1. discriminate. }
    destruct (Hst eq_refl) as (W2 & V2 & R2 & K2 & A2 & C2 & P2).
    destruct (IH h2 W2) as (h' & ret & -> & Hr & Hs). exists h', ret. split; [reflexivity|].
    rewrite Es in *. split.
    + rewrite Hr. split; [intros F; constructor; [apply Hret; reflexivity|exact F]|]. intros F. inversion F. assumption.
    + intros Er. destruct (Hs Er) as (W' & E' & V' & R' & K' & C').
      destruct (kinds_differ x) as (D1 & D2 & D3).
      split; [exact W'|]. split; [exact E'|]. split; [|split; [|split]].
      * rewrite V', Exists_cons, V2. clear - K D1 D2 D3. destruct K as [K|K|K|N1 N2 N3]; tauto.
      * rewrite R', Exists_cons, R2. clear - K D1 D2 D3. destruct K as [K|K|K|N1 N2 N3]; tauto.
      * destruct K' as [(l & Hl & Ek)|(Hn & Ek)].
        -- left. exists l. split; [apply last_such_cons; exact Hl|exact Ek].
        -- destruct K as [K|K|K|N1 N2 N3]; rewrite K2 in Ek.
           ++ left. exists x. split; [apply last_such_here; assumption|exact Ek].
           ++ right. split; [|exact Ek]. intros l [<-|Hl]; [first [assumption | clear - K D1 D2 D3; tauto]|apply Hn, Hl].
           ++ right. split; [|exact Ek]. intros l [<-|Hl]; [first [assumption | clear - K D1 D2 D3; tauto]|apply Hn, Hl].
           ++ right. split; [|exact Ek]. intros l [<-|Hl]; [first [assumption | clear - K D1 D2 D3; tauto]|apply Hn, Hl].
      * destruct C' as [(l & s & i & p & Hl & C')|(Hn & Ec)].
        -- left. exists l, s, i, p. split; [apply last_such_cons; exact Hl|exact C'].
        -- destruct (subprotocols h) as [s|] eqn:Eh; [|right; split; [right; reflexivity|rewrite Ec; apply C2; right; reflexivity]].
           destruct Hn as [Hn|Hn]; [|discriminate].
           destruct K as [K|K|K|N1 N2 N3].
           1,2,4: right; split; [left; intros l [<-|Hl]; [first [assumption | clear - K D1 D2 D3; tauto]|apply Hn, Hl]|rewrite Ec; apply C2; left; discriminate].
           left. destruct (P2 eq_refl s eq_refl) as (i & p & Ei & Ni & Pk). exists x, s, i, p.
           split; [apply last_such_here; assumption|]. split; [reflexivity|]. split; [exact Pk|]. split; [congruence|exact Ni].
Qed.

(** The accept value. *)
Lemma sha1_ok m : length (sha1 m) = 20 /\ bytes_ok (sha1 m).
Proof.
  unfold sha1. destruct (fold_left sha1_compress (groups (length (pad m) / 64) 64 (pad m)) H0) as [[[[a b] c] d] e].
  cbn [flat_map]. rewrite app_nil_r. split.
  - rewrite !app_length, !be_bytes_length. reflexivity.
  - repeat (apply bytes_ok_app; split; [apply be_bytes_ok|]). apply be_bytes_ok.
Qed.

Lemma skipn_twice {A} : forall m n (l : list A), skipn n (skipn m l) = skipn (m + n) l.
Proof. induction m as [|m IH]; intros n l; [reflexivity|]. destruct l; [destruct n; reflexivity|]. cbn. apply IH. Qed.

Lemma accept_spec h stack k : length (accept_value h) = 30 -> sec_websocket_key h = k ++ WS_GUID -> length k = 24 -> bytes_ok k ->
  length stack = 64 -> bytes_ok stack ->
  exists a, make_accept h stack = Ret (set_accept h (a ++ CRLF)) /\ accept_for k a /\ length a = 28.
Proof.
  intros Ha Hk Lk Bk Ls Bs. unfold make_accept.
  assert (Bg : bytes_ok WS_GUID) by (apply Forall_forall; intros x Hx; vm_compute in Hx; repeat (destruct Hx as [<-|Hx]; [reflexivity|]); destruct Hx).
  assert (B : bytes_ok (k ++ WS_GUID)) by (apply bytes_ok_app; auto).
  assert (L : length (k ++ WS_GUID) = 60) by (rewrite app_length, Lk; reflexivity).
  destruct (sha1_parts_correct stack [k ++ WS_GUID] Ls Bs) as (c & c' & E1 & E2 & _).
  { constructor; [exact B|constructor]. }
  { cbn [concat]. rewrite app_nil_r, L. reflexivity. }
  cbn [concat] in E2. rewrite app_nil_r in E2.
  rewrite Hk. replace (KEY_LENGTH + GUID_LENGTH) with (length (k ++ WS_GUID)) by (rewrite L; reflexivity). rewrite firstn_all.
  cbn [sha1_inputs] in E1. destruct (sha1_input (sha1_reset stack) (k ++ WS_GUID)) as [[c0 e]|]; [|discriminate].
  cbn [obind fst] in E1. injection E1 as ->. cbn [obind]. rewrite E2. cbn [obind].
  destruct (sha1_ok (k ++ WS_GUID)) as [L20 B20].
  destruct (b64_roundtrip (sha1 (k ++ WS_GUID)) B20) as (out & Eo & Do & Lo). rewrite L20 in Lo.
  change (4 * ((20 + 2) / 3)) with 28 in Lo. rewrite Eo. cbn [obind].
  exists out. split; [|split; [exact Do|exact Lo]].
  unfold memcpy at 1. rewrite Lo, Ha. cbn [Nat.add Nat.leb firstn app obind].
  unfold memcpy at 1. change (length [13%N]) with 1. change (ACCEPT_LENGTH - 2) with 28. change (ACCEPT_LENGTH - 1) with 29.
  rewrite app_length, skipn_length, Lo, Ha. cbn [Nat.add Nat.sub Nat.leb obind].
  replace (firstn 28 (out ++ skipn 28 (accept_value h))) with out by (rewrite <- Lo; symmetry; apply firstn_len_app).
  assert (E29 : skipn 29 (out ++ skipn 28 (accept_value h)) = skipn 29 (accept_value h)).
  { rewrite skipn_app, Lo, skipn_all2 by lia. cbn [app Nat.sub]. rewrite skipn_twice. reflexivity. }
  rewrite E29.
  assert (L2 : length (out ++ [13%N] ++ skipn 29 (accept_value h)) = 30).
  { rewrite !app_length, skipn_length, Lo, Ha. reflexivity. }
  assert (M : memcpy (out ++ [13%N] ++ skipn 29 (accept_value h)) 29 [10%N] = Ret (out ++ CRLF)).
  { unfold memcpy. rewrite L2. change (29 + length [10%N]) with 30. cbn [Nat.leb].
    rewrite (skipn_all2 (n := 30)) by lia. rewrite (app_assoc out [13%N]), firstn_app.
    replace (length (out ++ [13%N])) with 29 by (rewrite app_length, Lo; reflexivity).
    rewrite (firstn_all2 (n := 29) (out ++ [13%N])) by (rewrite app_length, Lo; cbn; lia). cbn [Nat.sub firstn].
    rewrite !app_nil_r, <- app_assoc. reflexivity. }
  rewrite M. reflexivity.
Qed.

(** The bytes http_parser lets through in a header value (no NUL in particular). *)
Definition header_bytes (v : list N) : Prop := Forall (fun c => (0 < c < 256)%N) v.

Lemma header_bytes_ok v : header_bytes v -> bytes_ok v.
Proof. apply Forall_impl. intros c H. unfold byte_ok. lia. Qed.

Lemma protocol_pick_acceptable : forall protocols ls, Forall (line_ok protocols) ls ->
  (protocols = None -> ~ Exists protocol_line ls) ->
  forall l, In l ls -> protocol_line l -> exists s p, protocols = Some s /\ picks s (value l) p.
Proof.
  intros pr ls F N l I K. rewrite Forall_forall in F. destruct (F l I) as (_ & _ & H). specialize (H K).
  destruct pr as [s|].
  - destruct H as (p & P). eauto.
  - exfalso. apply N; [reflexivity|]. apply Exists_exists. eauto.
Qed.

(** The verdict in full. *)
Lemma handshake_spec protocols kmem amem stack r ls :
  length kmem = 60 -> length amem = 30 -> length stack = 64 -> bytes_ok stack ->
  (forall l, In l ls -> header_bytes (value l)) ->
  exists v, handshake (handler_init protocols kmem amem) r ls stack = Ret v /\
    match v with
    | REFUSE => ~ acceptable protocols r ls
    | UPGRADE hs => acceptable protocols r ls /\
        exists k a o, last_such key_line ls k /\ accept_for (value k) a /\ length a = 28 /\
          concat hs = answer_headers a o /\
          match o with
          | None => forall l, In l ls -> ~ protocol_line l
          | Some p => exists l s, last_such protocol_line ls l /\ protocols = Some s /\ picks s (value l) p
          end
    end.
Proof.
  intros Lk La Ls Bs HB. set (h0 := handler_init protocols kmem amem).
  assert (W : wf h0). { split; [reflexivity|]. split; [|exact La]. cbn. destruct kmem; [discriminate|exact Lk]. }
  unfold handshake. destruct (lines_spec ls h0 W) as (h & ret & -> & Hr & Hs). cbn [obind].
  change (subprotocols h0) with protocols in *.
  assert (AF : acceptable protocols r ls -> Forall (line_ok protocols) ls).
  { intros A. apply Forall_forall. intros l I. split; [apply (ac_key_24 _ _ _ A l I)|]. split; [apply (ac_ws_version_13 _ _ _ A l I)|].
    intros K. destruct (ac_protocol _ _ _ A l I K) as (s & p & -> & P). eauto. }
  destruct ret.
  2,3: exists REFUSE; split; [reflexivity|]; intros A; apply AF, Hr in A; discriminate.
  destruct (Hs eq_refl) as (W' & E' & V' & R' & K' & C').
  assert (F : Forall (line_ok protocols) ls) by (apply Hr; reflexivity).
  unfold handle_headers_complete.
  destruct (check_http_version r) eqn:Ev; cbn [negb].
  2:{ exists REFUSE. split; [reflexivity|]. intros A. unfold check_http_version in Ev.
      destruct (Nat.ltb_spec 1 (http_major r)) as [L|L]; [discriminate|]. apply andb_false_iff in Ev.
      rewrite Nat.eqb_neq, Nat.leb_gt in Ev. destruct (ac_version _ _ _ A) as [X|[X Y]]; lia. }
  destruct (is_get r) eqn:Eg; cbn [negb].
  2:{ exists REFUSE. split; [reflexivity|]. intros A. pose proof (ac_get _ _ _ A). congruence. }
  destruct (upgrade r) eqn:Eu; cbn [negb].
  2:{ exists REFUSE. split; [reflexivity|]. intros A. pose proof (ac_upgrade _ _ _ A). congruence. }
  assert (NP : protocols = None -> chosen_subprotocol h = None).
  { intros ->. destruct C' as [(l & s & i & p & _ & X & _)|(_ & ->)]; [discriminate|reflexivity]. }
  destruct (subprotocol_requested h && match chosen_subprotocol h with None => true | Some _ => false end) eqn:Er.
  { exists REFUSE. split; [reflexivity|]. intros A. apply andb_true_iff in Er. destruct Er as [Er Ec].
    apply R' in Er. destruct Er as [Er|Er]; [discriminate|]. apply Exists_exists in Er. destruct Er as (l & I & K).
    destruct (ac_protocol _ _ _ A l I K) as (s & p & -> & P).
    destruct C' as [(l' & s' & i & p' & _ & _ & _ & X & _)|([X|X] & _)].
    - rewrite X in Ec. discriminate.
    - apply (X l I K).
    - discriminate. }
  assert (NR : chosen_subprotocol h = None -> ~ Exists protocol_line ls).
  { intros Ec Ex. rewrite Ec in Er. rewrite andb_true_r in Er. assert (subprotocol_requested h = true) by (apply R'; auto). congruence. }
  destruct (ws_version_ok h) eqn:Eo; cbn [negb].
  2:{ exists REFUSE. split; [reflexivity|]. intros A. destruct (ac_ws_version _ _ _ A) as (l & I & K).
      assert (false = true); [|discriminate]. apply V'. right. apply Exists_exists. eauto. }
  assert (HV : Exists version_line ls) by (destruct (proj1 V' eq_refl) as [X|X]; [discriminate|exact X]).
  destruct K' as [(k & Hk & Ek)|(Nk & Ek)].
  2:{ rewrite Ek. cbn. exists REFUSE. split; [reflexivity|]. intros A. destruct (ac_key _ _ _ A) as (l & I & K). apply (Nk l I K). }
  pose proof Hk as (Kk & bf & af & Els & _).
  assert (Ik : In k ls) by (rewrite Els; apply in_app_iff; right; left; reflexivity).
  assert (L24 : length (value k) = 24) by (rewrite Forall_forall in F; destruct (F k Ik) as (X & _); apply X, Kk).
  pose proof (HB k Ik) as Bk. rewrite Ek. destruct (value k) as [|c v] eqn:Evk; [discriminate|].
  cbn [app byte_at nth_error obind]. pose proof (Forall_inv Bk) as Hc. cbv beta in Hc.
  destruct (N.eqb_spec c 0) as [->|_]; [lia|]. rewrite <- Evk in *.
  unfold send_upgrade_response. destruct W' as (_ & _ & LA).
  destruct (accept_spec h stack (value k) LA Ek L24 (header_bytes_ok _ Bk) Ls Bs) as (a & -> & Aa & L28).
  cbn [obind chosen_subprotocol set_accept subprotocols accept_value].
  assert (AC : acceptable protocols r ls).
  { constructor.
    - unfold check_http_version in Ev. destruct (Nat.ltb_spec 1 (http_major r)); [left; lia|].
      apply andb_true_iff in Ev. rewrite Nat.eqb_eq, Nat.leb_le in Ev. right. lia.
    - exact Eg.
    - exact Eu.
    - apply Exists_exists in HV. destruct HV as (l & I & K). eauto.
    - intros l I K. rewrite Forall_forall in F. destruct (F l I) as (_ & X & _). apply X, K.
    - eauto.
    - intros l I K. rewrite Forall_forall in F. destruct (F l I) as (X & _). apply X, K.
    - apply protocol_pick_acceptable; [exact F|]. intros X. apply NR, NP, X. }
  destruct (chosen_subprotocol h) as [i|] eqn:Ec.
  - destruct C' as [(l & s & i' & p & Hl & Es & Pk & Ei & Ni)|(_ & X)]; [|discriminate].
    injection Ei as <-. rewrite E', Es, Ni. cbn [obind]. eexists. split; [reflexivity|]. split; [rewrite <- Es; exact AC|].
    exists k, a, (Some p). split; [exact Hk|]. split; [exact Aa|]. split; [exact L28|]. split.
    + cbn [concat]. unfold answer_headers, UPGRADE_HEADER, PROTOCOL_FIELD. rewrite <- !app_assoc. reflexivity.
    + exists l, s. auto.
  - eexists. split; [reflexivity|]. split; [exact AC|].
    exists k, a, None. split; [exact Hk|]. split; [exact Aa|]. split; [exact L28|]. split.
    + cbn [concat]. unfold answer_headers, UPGRADE_HEADER. rewrite <- !app_assoc. reflexivity.
    + intros l I K. apply (NR eq_refl). apply Exists_exists. eauto.
Qed.

(** ** The theorems

    All of them: for every configured list of subprotocols, every content of the
    not yet initialised memory, every request line and every list of header lines
    whose values consist of the bytes http_parser accepts (1-255). *)
Definition memory_ok (kmem amem stack : list N) : Prop :=
  length kmem = 60 /\ length amem = 30 /\ length stack = 64 /\ bytes_ok stack.

(** C30: the answer names base64(SHA-1(key ++ GUID)) of the client's key (of the
    last key line, should there be several), in 28 characters. *)
Theorem C30_accept_value : forall protocols kmem amem stack r ls hs,
  memory_ok kmem amem stack -> (forall l, In l ls -> header_bytes (value l)) ->
  handshake (handler_init protocols kmem amem) r ls stack = Ret (UPGRADE hs) ->
  exists k a o, last_such key_line ls k /\ length (value k) = 24 /\ accept_for (value k) a /\ length a = 28 /\
    concat hs = answer_headers a o.
Proof.
  intros pr kmem amem stack r ls hs (L1 & L2 & L3 & B) HB E.
  destruct (handshake_spec pr kmem amem stack r ls L1 L2 L3 B HB) as (v & Ev & H). rewrite Ev in E. injection E as ->.
  destruct H as (A & k & a & o & Hk & Ha & L & C & _). exists k, a, o. split; [exact Hk|]. split; [|auto].
  pose proof Hk as (Kk & bf & af & Els & _). apply (ac_key_24 _ _ _ A); [rewrite Els; apply in_app_iff; right; left; reflexivity|exact Kk].
Qed.
Print Assumptions C30_accept_value.

(** C31: a protocol is named in the answer exactly if the client asked for one, and then it is the first
    supported one of its list (of the last such header line). *)
Theorem C31_chosen_protocol : forall protocols kmem amem stack r ls hs,
  memory_ok kmem amem stack -> (forall l, In l ls -> header_bytes (value l)) ->
  handshake (handler_init protocols kmem amem) r ls stack = Ret (UPGRADE hs) ->
  exists a o, concat hs = answer_headers a o /\
    match o with
    | None => forall l, In l ls -> ~ protocol_line l
    | Some p => exists l s, last_such protocol_line ls l /\ protocols = Some s /\ picks s (value l) p
    end.
Proof.
  intros pr kmem amem stack r ls hs (L1 & L2 & L3 & B) HB E.
  destruct (handshake_spec pr kmem amem stack r ls L1 L2 L3 B HB) as (v & Ev & H). rewrite Ev in E. injection E as ->.
  destruct H as (A & k & a & o & _ & _ & _ & C & P). exists a, o. auto.
Qed.
Print Assumptions C31_chosen_protocol.

(** The pick of the specification is unique, so the theorem above determines the answer. *)
Theorem C31_pick_unique : forall supported v p q, picks supported v p -> picks supported v q -> p = q.
Proof. exact picks_unique. Qed.
Print Assumptions C31_pick_unique.

(** Every value is a list of offers; without a supported one (or with a malformed one in front of it)
    the request is refused. *)
Theorem C31_no_common_protocol_refused : forall protocols kmem amem stack r ls l,
  memory_ok kmem amem stack -> (forall l, In l ls -> header_bytes (value l)) ->
  In l ls -> protocol_line l -> (forall s p, protocols = Some s -> ~ picks s (value l) p) ->
  handshake (handler_init protocols kmem amem) r ls stack = Ret REFUSE.
Proof.
  intros pr kmem amem stack r ls l (L1 & L2 & L3 & B) HB I K N.
  destruct (handshake_spec pr kmem amem stack r ls L1 L2 L3 B HB) as (v & Ev & H). rewrite Ev.
  destruct v as [|hs]; [reflexivity|]. exfalso. destruct H as (A & _).
  destruct (ac_protocol _ _ _ A l I K) as (s & p & E & P). apply (N s p E P).
Qed.
Print Assumptions C31_no_common_protocol_refused.

(** White space around the elements of the client's list does not matter. *)
Theorem C31_white_space_ignored : forall supported p a b w rest, Forall ws a -> Forall ws b -> ~ In 44%N w ->
  (picks supported (a ++ w ++ b ++ 44%N :: rest) p <-> picks supported (w ++ 44%N :: rest) p) /\
  (picks supported (a ++ w ++ b) p <-> picks supported w p).
Proof.
  intros s p a b w rest Ha Hb Hw.
  assert (NW : forall x, Forall ws x -> ~ In 44%N x).
  { intros x Hx I. rewrite Forall_forall in Hx. destruct (Hx _ I); discriminate. }
  assert (NC : ~ In 44%N (a ++ w ++ b)).
  { rewrite !in_app_iff. intros [K|[K|K]]; [apply (NW a Ha K)|apply (Hw K)|apply (NW b Hb K)]. }
  assert (T : forall t, trimmed w t -> trimmed (a ++ w ++ b) t).
  { intros t (x & y & -> & Hx & Hy & H1 & H2). exists (a ++ x), (y ++ b). split; [rewrite <- !app_assoc; reflexivity|].
    split; [apply Forall_app; auto|]. split; [apply Forall_app; auto|]. auto. }
  destruct (trimmed_total w) as (t & Ht). split.
  - replace (a ++ w ++ b ++ 44%N :: rest) with ((a ++ w ++ b) ++ 44%N :: rest) by (rewrite <- !app_assoc; reflexivity).
    rewrite (picks_cons s w rest p t Hw Ht), (picks_cons s (a ++ w ++ b) rest p t NC (T t Ht)). reflexivity.
  - rewrite !picks_single by assumption. split; intros (H1 & H2); (split; [|exact H2]).
    + rewrite (trimmed_unique _ _ _ H1 (T t Ht)). exact Ht.
    + apply T. exact H1.
Qed.
Print Assumptions C31_white_space_ignored.

(** C32: the upgrade is granted exactly for the acceptable requests; all others are refused; nothing is undefined. *)
Theorem C32_granted_exactly : forall protocols kmem amem stack r ls,
  memory_ok kmem amem stack -> (forall l, In l ls -> header_bytes (value l)) ->
  (acceptable protocols r ls /\ exists hs, handshake (handler_init protocols kmem amem) r ls stack = Ret (UPGRADE hs)) \/
  (~ acceptable protocols r ls /\ handshake (handler_init protocols kmem amem) r ls stack = Ret REFUSE).
Proof.
  intros pr kmem amem stack r ls (L1 & L2 & L3 & B) HB.
  destruct (handshake_spec pr kmem amem stack r ls L1 L2 L3 B HB) as (v & Ev & H). rewrite Ev.
  destruct v as [|hs]; [right; auto|]. left. destruct H as (A & _). split; [exact A|eauto].
Qed.
Print Assumptions C32_granted_exactly.

(** The order of the header lines does not matter. *)
Theorem C32_order_irrelevant : forall protocols kmem amem stack r ls ls',
  memory_ok kmem amem stack -> (forall l, In l ls -> header_bytes (value l)) -> Permutation ls ls' ->
  (handshake (handler_init protocols kmem amem) r ls stack = Ret REFUSE <->
   handshake (handler_init protocols kmem amem) r ls' stack = Ret REFUSE).
Proof.
  intros pr kmem amem stack r ls ls' M HB P.
  assert (HB' : forall l, In l ls' -> header_bytes (value l)) by (intros l I; apply HB; apply (Permutation_in l (Permutation_sym P) I)).
  assert (AA : forall x y, Permutation x y -> acceptable pr r x -> acceptable pr r y).
  { intros x y Q [A1 A2 A3 (l4 & I4 & A4) A5 (l6 & I6 & A6) A7 A8].
    assert (B : forall l, In l y -> In l x) by (intros l; apply (Permutation_in l (Permutation_sym Q))).
    constructor; auto.
    - exists l4. split; [apply (Permutation_in l4 Q I4)|exact A4].
    - exists l6. split; [apply (Permutation_in l6 Q I6)|exact A6]. }
  destruct (C32_granted_exactly pr kmem amem stack r ls M HB) as [(A & hs & ->)|(A & ->)];
  destruct (C32_granted_exactly pr kmem amem stack r ls' M HB') as [(A' & hs' & ->)|(A' & ->)].
  - split; discriminate.
  - exfalso. apply A'. apply (AA ls); assumption.
  - exfalso. apply A. apply (AA ls'); [apply Permutation_sym, P|assumption].
  - tauto.
Qed.
Print Assumptions C32_order_irrelevant.

(** Header lines with other names do not influence the verdict. In particular the
    value of the Upgrade header is never looked at: [upgrade] is set by http_parser
    for any Upgrade header, so "Upgrade: h2c" is answered with an upgrade to
    WebSocket if the other headers fit. *)
Theorem C32_other_headers_ignored : forall protocols r ls x ls',
  ~ key_line x -> ~ version_line x -> ~ protocol_line x ->
  (acceptable protocols r (ls ++ x :: ls') <-> acceptable protocols r (ls ++ ls')).
Proof.
  intros pr r ls x ls' N1 N2 N3.
  assert (B : forall l, In l (ls ++ x :: ls') <-> l = x \/ In l (ls ++ ls')).
  { intros l. rewrite !in_app_iff. cbn [In]. intuition congruence. }
  split; intros [A1 A2 A3 (l4 & I4 & A4) A5 (l6 & I6 & A6) A7 A8]; constructor; auto.
  - exists l4. apply B in I4. destruct I4 as [->|I4]; [tauto|auto].
  - intros l I. apply A5. apply B. auto.
  - exists l6. apply B in I6. destruct I6 as [->|I6]; [tauto|auto].
  - intros l I. apply A7. apply B. auto.
  - intros l I. apply A8. apply B. auto.
  - exists l4. split; [apply B; auto|exact A4].
  - intros l I K. apply B in I. destruct I as [->|I]; [tauto|auto].
  - exists l6. split; [apply B; auto|exact A6].
  - intros l I K. apply B in I. destruct I as [->|I]; [tauto|auto].
  - intros l I K. apply B in I. destruct I as [->|I]; [tauto|auto].
Qed.
Print Assumptions C32_other_headers_ignored.

(** Example: the request of RFC 6455 section 1.3 with a list of protocols, in an
    unusual order of headers, is granted with the answer of the RFC. *)
Definition ex_lines : list line :=
  [Line (text "Sec-WebSocket-Protocol") (text "soap,  chat ,jet") []; Line (text "Host") (text "server.example.com") [];
   Line (text "SEC-websocket-Key") (text "dGhlIHNhbXBsZSBub25jZQ==") []; Line (text "Sec-WebSocket-Version") (text "13") []].
Definition ex_line : request_line := RequestLine 1 1 true true.
Definition ex_protocols : option (list (list N)) := Some [text "jet"; text "chat"].

Theorem C30_C31_C32_example :
  memory_ok (repeat 7%N 60) (repeat 7%N 30) (repeat 7%N 64) /\ (forall l, In l ex_lines -> header_bytes (value l)) /\
  (exists hs, handshake (handler_init ex_protocols (repeat 7%N 60) (repeat 7%N 30)) ex_line ex_lines (repeat 7%N 64) = Ret (UPGRADE hs) /\
     concat hs = answer_headers (text "s3pPLMBiTxaQ9kYGzzhZRbK+xOo=") (Some (text "chat"))) /\
  handshake (handler_init None (repeat 7%N 60) (repeat 7%N 30)) ex_line ex_lines (repeat 7%N 64) = Ret REFUSE.
Proof.
  split; [repeat split; vm_compute; repeat constructor|]. split.
  - intros l I. cbn in I. repeat (destruct I as [<-|I]; [vm_compute; repeat (constructor; [split; reflexivity|]); constructor|]). destruct I.
  - split; [|vm_compute; reflexivity]. eexists. split; [vm_compute; reflexivity|vm_compute; reflexivity].
Qed.
