(** Lemmas about the handshake model. *)
From Verif Require Import Base RouteModel RouteProps Sha1Model Sha1Spec Sha1Proofs EndianSpec EndianProofs.
From Verif Require Import Base64Model Base64Spec Base64Proofs Text HandshakeModel HandshakeSpec.

(** ** Characters *)

Lemma ws_iff c : is_white_space c = true <-> ws c.
Proof. unfold is_white_space, ws. rewrite orb_true_iff, !N.eqb_eq. tauto. Qed.
Lemma ws_false c : is_white_space c = false <-> ~ ws c.
Proof. rewrite <- ws_iff. destruct (is_white_space c); split; intros; congruence. Qed.

Lemma tchar_iff c : c <> 44%N -> (is_visible c && negb (is_delimiter c) = true <-> tchar c).
Proof.
  intros Hc. destruct (N.ltb_spec c 256) as [L|L].
  - set (b := (existsb (N.eqb c) (text "!#$%&'*+-.^_`|~") || ((48 <=? c) && (c <=? 57)) || ((65 <=? c) && (c <=? 90)) || ((97 <=? c) && (c <=? 122)))%N).
    assert (Hb : b = true <-> tchar c).
    { unfold b, tchar. rewrite !orb_true_iff, !andb_true_iff, existsb_exists, !N.leb_le.
      split; [intros [[[(x & I & E)|H]|H]|H]; auto; apply N.eqb_eq in E; subst; auto|].
      intros [I|[H|[H|H]]]; auto. left. left. left. exists c. split; [exact I|apply N.eqb_refl]. }
    rewrite <- Hb.
    assert (S : forallb (fun c => (c =? 44)%N || Bool.eqb (is_visible c && negb (is_delimiter c))
      (existsb (N.eqb c) (text "!#$%&'*+-.^_`|~") || ((48 <=? c) && (c <=? 57)) || ((65 <=? c) && (c <=? 90)) || ((97 <=? c) && (c <=? 122)))%N) all_bytes = true)
      by (vm_compute; reflexivity).
    pose proof (byte_sweep _ S c L) as H. cbv beta in H. apply orb_true_iff in H. destruct H as [H|H].
    + apply N.eqb_eq in H. tauto.
    + apply Bool.eqb_prop in H. fold b in H. rewrite H. tauto.
  - split.
    + unfold is_visible. intros H. rewrite !andb_true_iff, !N.leb_le in H. lia.
    + intros [H|H]; [|lia]. exfalso. cbn in H. repeat (destruct H as [H|H]; [lia|]). exact H.
Qed.

(** ** One word *)

Lemma leading_spec w rest : 
  (Forall ws w /\ strip_leading (w ++ rest) (length w) = Ret None) \/
  (exists a c b, w = a ++ c :: b /\ Forall ws a /\ ~ ws c /\ strip_leading (w ++ rest) (length w) = Ret (Some (length a))).
Proof.
  induction w as [|x w IH]; cbn [app length strip_leading].
  - left. auto.
  - destruct (is_white_space x) eqn:E.
    + apply ws_iff in E. destruct IH as [(H & ->)|(a & c & b & -> & Ha & Hc & Er)].
      * left. cbn. auto.
      * right. exists (x :: a), c, b. rewrite Er. cbn. auto.
    + apply ws_false in E. right. exists [], x, w. auto.
Qed.

Lemma byte_at_app w c rest : byte_at ((w ++ [c]) ++ rest) (length w) = Ret c.
Proof. unfold byte_at. rewrite <- app_assoc, nth_error_app2, Nat.sub_diag by lia. reflexivity. Qed.

Lemma trailing_spec : forall w rest, Exists (fun c => ~ ws c) w ->
  exists t b, w = t ++ b /\ Forall ws b /\ (exists i c, t = i ++ [c] /\ ~ ws c) /\
    strip_trailing (w ++ rest) (length w) = Ret (length t).
Proof.
  induction w as [|c w IH] using rev_ind; intros rest H.
  - inversion H.
  - rewrite app_length. cbn [length]. rewrite Nat.add_1_r. cbn [strip_trailing].
    rewrite byte_at_app. cbn [obind]. destruct (is_white_space c) eqn:E.
    + apply ws_iff in E. apply Exists_app in H. destruct H as [H|H].
      2:{ inversion H; subst; [tauto|]. inversion H1. }
      destruct (IH ([c] ++ rest) H) as (t & b & -> & Hb & Ht & Er). rewrite <- (app_assoc (t ++ b) [c] rest), Er.
      exists t, (b ++ [c]). rewrite app_assoc. split; [reflexivity|]. split; [apply Forall_app; auto|]. auto.
    + apply ws_false in E. exists (w ++ [c]), []. rewrite app_nil_r. split; [reflexivity|]. split; [constructor|].
      split; [exists w, c; auto|]. rewrite app_length. cbn. rewrite Nat.add_1_r. reflexivity.
Qed.

Lemma illegal_spec t rest : ~ In 44%N t ->
  exists b, has_illegal (t ++ rest) (length t) = Ret b /\ (b = false <-> Forall tchar t).
Proof.
  induction t as [|c t IH]; intros Hc; cbn [app length has_illegal].
  - exists false. split; [reflexivity|]. split; [constructor|reflexivity].
  - assert (N : c <> 44%N) by (intros ->; apply Hc; left; reflexivity).
    pose proof (tchar_iff c N) as T. destruct (is_visible c); cbn [negb].
    2:{ exists true. split; [reflexivity|]. split; [discriminate|]. intros H. inversion H; subst. apply T in H2. discriminate. }
    destruct (is_delimiter c); cbn [negb andb] in T.
    { exists true. split; [reflexivity|]. split; [discriminate|]. intros H. inversion H; subst. apply T in H2. discriminate. }
    destruct IH as (b & Eb & Hb). { intros H. apply Hc. right. exact H. }
    exists b. split; [exact Eb|]. rewrite Hb. split.
    + intros H. constructor; [apply T; reflexivity|exact H].
    + intros H. inversion H. assumption.
Qed.

Lemma find_spec t rest : forall protocols i, exists r, find_requested i protocols (t ++ rest) (length t) = Ret r /\
  (r = None <-> ~ In t protocols) /\ (forall j, r = Some j -> i <= j /\ nth_error protocols (j - i) = Some t).
Proof.
  induction protocols as [|p l IH]; intros i; cbn [find_requested].
  - exists None. split; [reflexivity|]. split; [split; [intros _ []|reflexivity]|discriminate].
  - assert (K : p <> t -> exists r, find_requested (S i) l (t ++ rest) (length t) = Ret r /\
       (r = None <-> ~ In t (p :: l)) /\ (forall j, r = Some j -> i <= j /\ nth_error (p :: l) (j - i) = Some t)).
    { intros D. destruct (IH (S i)) as (r & Er & Rn & Rs). exists r. split; [exact Er|]. split.
      - rewrite Rn. cbn [In]. tauto.
      - intros j Ej. destruct (Rs j Ej) as [L M]. split; [lia|]. replace (j - i) with (S (j - S i)) by lia. exact M. }
    destruct (Nat.eqb_spec (length p) (length t)) as [E|E].
    2:{ apply K. intros ->. auto. }
    destruct (memcmp_prefix (length t) p (t ++ rest)) as (s & -> & Hs).
    { lia. } { rewrite app_length. lia. }
    rewrite firstn_len_app, <- E, firstn_all in Hs. cbn [obind]. destruct s.
    + exists (Some i). split; [reflexivity|]. split.
      * split; [discriminate|]. intros H. exfalso. apply H. left. apply Hs. reflexivity.
      * intros j Ej. injection Ej as <-. split; [lia|]. rewrite Nat.sub_diag. cbn. f_equal. apply Hs. reflexivity.
    + apply K. intros D. apply Hs in D. discriminate.
Qed.

Lemma word_spec protocols w rest : ~ In 44%N w -> exists r t, handle_word protocols (w ++ rest) (length w) = Ret r /\ trimmed w t /\
  match r with
  | P_ERROR => ~ token t
  | P_NOT_FOUND => token t /\ ~ In t protocols
  | P_FOUND i => token t /\ nth_error protocols i = Some t
  end.
Proof.
  intros Hc. unfold handle_word. destruct (leading_spec w rest) as [(H & ->)|(a & c & b & -> & Ha & Hcn & ->)]; cbn [obind].
  - exists P_ERROR, []. split; [reflexivity|]. split.
    + exists [], w. split; [reflexivity|]. split; [constructor|]. split; [exact H|].
      split; [discriminate|]. intros x r E. destruct r; discriminate.
    + intros [K _]. apply K. reflexivity.
  - rewrite <- app_assoc, skipn_len_app. rewrite app_length.
    replace (length a + length (c :: b) - length a) with (length (c :: b)) by lia.
    destruct (trailing_spec (c :: b) rest) as (t & b' & Et & Hb & (i & d & Ei & Hd) & Er).
    { constructor. exact Hcn. }
    rewrite Er. cbn [obind]. rewrite Et, <- app_assoc.
    assert (Tr : trimmed (a ++ t ++ b') t).
    { exists a, b'. split; [reflexivity|]. split; [exact Ha|]. split; [exact Hb|]. split.
      - intros x r Ex. subst t. rewrite Ex in Et. cbn in Et. injection Et as -> _. exact Hcn.
      - intros x r Ex. subst t. apply app_inj_tail in Ex. destruct Ex as [_ <-]. exact Hd. }
    assert (Hct : ~ In 44%N t).
    { intros H. apply Hc. rewrite Et. apply in_app_iff. right. apply in_app_iff. left. exact H. }
    destruct (illegal_spec t (b' ++ rest) Hct) as (bad & -> & Hbad). cbn [obind].
    destruct bad.
    + exists P_ERROR, t. split; [reflexivity|]. split; [exact Tr|]. intros [_ H]. apply Hbad in H. discriminate.
    + assert (Tk : token t).
      { split; [|apply Hbad; reflexivity]. subst t. destruct i; discriminate. }
      destruct (find_spec t (b' ++ rest) protocols 0) as (r & -> & Rn & Rs). cbn [obind]. destruct r as [j|].
      * exists (P_FOUND j), t. split; [reflexivity|]. split; [exact Tr|]. split; [exact Tk|].
        destruct (Rs j eq_refl) as [_ H]. rewrite Nat.sub_0_r in H. exact H.
      * exists P_NOT_FOUND, t. split; [reflexivity|]. split; [exact Tr|]. split; [exact Tk|]. apply Rn. reflexivity.
Qed.

Lemma trimmed_total w : exists t, trimmed w t.
Proof.
  destruct (leading_spec w []) as [(H & _)|(a & c & b & -> & Ha & Hcn & _)].
  - exists []. exists [], w. split; [reflexivity|]. split; [constructor|]. split; [exact H|].
    split; [discriminate|]. intros x r E. destruct r; discriminate.
  - destruct (trailing_spec (c :: b) []) as (t & b' & Et & Hb & (i & d & Ei & Hd) & Er).
    { constructor. exact Hcn. }
    exists t, a, b'. rewrite Et. split; [reflexivity|]. split; [exact Ha|]. split; [exact Hb|]. split.
    + intros x r Ex. subst t. rewrite Ex in Et. cbn in Et. injection Et as -> _. exact Hcn.
    + intros x r Ex. subst t. apply app_inj_tail in Ex. destruct Ex as [_ <-]. exact Hd.
Qed.

Lemma ws_prefix_unique : forall (a a' u u' : list N), a ++ u = a' ++ u' -> Forall ws a -> Forall ws a' ->
  (forall c r, u = c :: r -> ~ ws c) -> (forall c r, u' = c :: r -> ~ ws c) -> u <> [] -> u' <> [] -> a = a' /\ u = u'.
Proof.
  induction a as [|x a IH]; intros [|y a'] u u' E Ha Ha' Hu Hu' Nu Nu'; cbn in E.
  - auto.
  - subst u. exfalso. inversion Ha'; subst. apply (Hu y (a' ++ u') eq_refl H1).
  - subst u'. exfalso. inversion Ha; subst. apply (Hu' x (a ++ u) eq_refl H1).
  - injection E as -> E. inversion Ha; subst. inversion Ha'; subst.
    destruct (IH a' u u' E H2 H4 Hu Hu' Nu Nu') as [-> ->]. auto.
Qed.

Lemma trimmed_unique w t t' : trimmed w t -> trimmed w t' -> t = t'.
Proof.
  intros (a & b & E & Ha & Hb & Hf & Hl) (a' & b' & E' & Ha' & Hb' & Hf' & Hl').
  assert (K : forall t a b : list N, Forall ws a -> Forall ws b -> (forall c r, t = c :: r -> ~ ws c) -> Forall ws (a ++ t ++ b) -> t = []).
  { intros [|c r] x y _ _ H F; [reflexivity|]. exfalso. apply Forall_app in F. destruct F as [_ F]. inversion F; subst. apply (H c r eq_refl H2). }
  destruct t as [|c r].
  - symmetry. apply (K t' a' b'); auto. rewrite <- E', E. apply Forall_app. split; [exact Ha|exact Hb].
  - destruct t' as [|c' r'].
    + exfalso. assert (X : c :: r = []); [|discriminate]. apply (K (c :: r) a b); auto.
      rewrite <- E, E'. apply Forall_app. split; [exact Ha'|exact Hb'].
    + rewrite E in E'.
      destruct (ws_prefix_unique a a' _ _ E' Ha Ha') as [-> E2].
      { intros d q H. cbn in H. injection H as <- _. apply (Hf c r eq_refl). }
      { intros d q H. cbn in H. injection H as <- _. apply (Hf' c' r' eq_refl). }
      { discriminate. } { discriminate. }
      assert (E3 : rev b ++ rev (c :: r) = rev b' ++ rev (c' :: r')) by (rewrite <- !rev_app_distr; f_equal; exact E2).
      destruct (ws_prefix_unique (rev b) (rev b') _ _ E3) as [_ E4].
      { apply Forall_rev, Hb. } { apply Forall_rev, Hb'. }
      { intros d q H. apply (Hl d (rev q)). rewrite <- (rev_involutive (c :: r)), H. reflexivity. }
      { intros d q H. apply (Hl' d (rev q)). rewrite <- (rev_involutive (c' :: r')), H. reflexivity. }
      { intros H. apply (f_equal (@length N)) in H. rewrite rev_length in H. discriminate. }
      { intros H. apply (f_equal (@length N)) in H. rewrite rev_length in H. discriminate. }
      rewrite <- (rev_involutive (c :: r)), E4, rev_involutive. reflexivity.
Qed.

(** ** Lists *)

Lemma join_cons x l : l <> [] -> comma_join (x :: l) = x ++ 44%N :: comma_join l.
Proof. destruct l; [tauto|reflexivity]. Qed.

Lemma app_comma_unique : forall (w w' r r' : list N), ~ In 44%N w -> ~ In 44%N w' ->
  w ++ 44%N :: r = w' ++ 44%N :: r' -> w = w' /\ r = r'.
Proof.
  induction w as [|x w IH]; intros [|y w'] r r' H H' E; cbn in E.
  - injection E as ->. auto.
  - injection E as <- _. exfalso. apply H'. left. reflexivity.
  - injection E as -> _. exfalso. apply H. left. reflexivity.
  - injection E as -> E. destruct (IH w' r r') as [-> ->]; auto.
    + intros K. apply H. right. exact K.
    + intros K. apply H'. right. exact K.
Qed.

Lemma offers_single w l : ~ In 44%N w -> offers w l -> exists t, l = [t] /\ trimmed w t.
Proof.
  intros Hw (ps & Np & E & Hp & F). destruct ps as [|p [|q ps]]; [tauto| |].
  - cbn in E. subst p. inversion F; subst. inversion H3; subst. eauto.
  - exfalso. rewrite join_cons in E by discriminate. apply Hw. rewrite E. apply in_app_iff. right. left. reflexivity.
Qed.

Lemma offers_cons w rest l : ~ In 44%N w -> offers (w ++ 44%N :: rest) l -> exists t l', l = t :: l' /\ trimmed w t /\ offers rest l'.
Proof.
  intros Hw (ps & Np & E & Hp & F). destruct ps as [|p [|q ps]]; [tauto| |].
  - exfalso. cbn in E. subst p. inversion Hp; subst. apply H1. apply in_app_iff. right. left. reflexivity.
  - rewrite join_cons in E by discriminate. inversion Hp; subst. destruct (app_comma_unique _ _ _ _ Hw H1 E) as [-> ->].
    inversion F; subst. exists y, l'. split; [reflexivity|]. split; [assumption|].
    exists (q :: ps). split; [discriminate|]. auto.
Qed.

Lemma split_comma v : (~ In 44%N v) \/ exists w r, v = w ++ 44%N :: r /\ ~ In 44%N w.
Proof.
  induction v as [|x v [IH|(w & r & -> & H)]].
  - left. intros [].
  - destruct (N.eq_dec x 44) as [->|D].
    + right. exists [], v. split; [reflexivity|intros []].
    + left. intros [K|K]; [exact (D K)|tauto].
  - destruct (N.eq_dec x 44) as [->|D].
    + right. exists [], (w ++ 44%N :: r). split; [reflexivity|intros []].
    + right. exists (x :: w), r. split; [reflexivity|]. intros [K|K]; [exact (D K)|tauto].
Qed.

Lemma offers_total v : exists l, offers v l.
Proof.
  induction v as [v IH] using (induction_ltof1 _ (@length N)). unfold ltof in IH.
  destruct (split_comma v) as [H|(w & r & -> & H)].
  - destruct (trimmed_total v) as (t & Ht). exists [t], [v]. repeat split; auto. discriminate.
  - destruct (IH r) as (l & ps & Np & -> & Hp & F); [rewrite app_length; cbn; lia|].
    destruct (trimmed_total w) as (t & Ht). exists (t :: l), (w :: ps). split; [discriminate|].
    split; [symmetry; apply join_cons; exact Np|]. auto.
Qed.

Lemma picks_single s w p : ~ In 44%N w -> (picks s w p <-> trimmed w p /\ token p /\ In p s).
Proof.
  intros Hw. split.
  - intros (l & bf & af & O & E & T & I & _). destruct (offers_single w l Hw O) as (t & -> & Ht).
    destruct bf as [|x bf]; cbn in E; [injection E as -> _; auto|]. injection E as _ E. destruct bf; discriminate.
  - intros (Ht & T & I). exists [p], [], []. split; [exists [w]; repeat split; auto; discriminate|]. split; [reflexivity|].
    split; [exact T|]. split; [exact I|]. intros q [].
Qed.

Lemma picks_cons s w rest p t : ~ In 44%N w -> trimmed w t ->
  (picks s (w ++ 44%N :: rest) p <-> token t /\ ((In t s /\ p = t) \/ (~ In t s /\ picks s rest p))).
Proof.
  intros Hw Ht. split.
  - intros (l & bf & af & O & E & T & I & B). destruct (offers_cons w rest l Hw O) as (t' & l' & -> & Ht' & O').
    assert (t' = t) by (apply (trimmed_unique w); assumption). subst t'.
    destruct bf as [|x bf]; cbn in E; injection E as -> E.
    + split; [exact T|]. left. auto.
    + destruct (B x (or_introl eq_refl)) as [Tx Ix]. split; [exact Tx|]. right. split; [exact Ix|].
      exists l', bf, af. split; [exact O'|]. split; [exact E|]. split; [exact T|]. split; [exact I|].
      intros q Hq. apply B. right. exact Hq.
  - intros (T & [(I & ->)|(I & l & bf & af & O & -> & Tp & Ip & B)]).
    + destruct (offers_total rest) as (l & ps & Np & -> & Hp & F). exists (t :: l), [], l.
      split; [exists (w :: ps); split; [discriminate|]; split; [symmetry; apply join_cons; exact Np|]; auto|].
      split; [reflexivity|]. split; [exact T|]. split; [exact I|]. intros q [].
    + destruct O as (ps & Np & -> & Hp & F). exists (t :: bf ++ p :: af), (t :: bf), af.
      split; [exists (w :: ps); split; [discriminate|]; split; [symmetry; apply join_cons; exact Np|]; auto|].
      split; [reflexivity|]. split; [exact Tp|]. split; [exact Ip|]. intros q [<-|Hq]; [auto|apply B; exact Hq].
Qed.

Lemma picks_unique s v p q : picks s v p -> picks s v q -> p = q.
Proof.
  revert p q. induction v as [v IH] using (induction_ltof1 _ (@length N)). unfold ltof in IH. intros p q.
  destruct (split_comma v) as [H|(w & r & -> & H)].
  - rewrite !picks_single by assumption. intros (T1 & _) (T2 & _). apply (trimmed_unique v); assumption.
  - destruct (trimmed_total w) as (t & Ht). rewrite !(picks_cons s w r _ t H Ht).
    intros (_ & [(I & ->)|(I & P)]) (_ & [(I' & ->)|(I' & P')]); try tauto.
    apply (IH r); [rewrite app_length; cbn; lia|exact P|exact P'].
Qed.

Lemma delimiter_spec w rest : ~ In 44%N w ->
  find_delimiter (w ++ 44%N :: rest) (length (w ++ 44%N :: rest)) = Ret (Some (length w)) /\
  find_delimiter w (length w) = Ret None.
Proof.
  induction w as [|x w IH]; intros H; cbn [app length find_delimiter].
  - cbn. auto.
  - destruct IH as [E1 E2]. { intros K. apply H. right. exact K. }
    destruct (N.eqb_spec x COMMA) as [->|D]; [exfalso; apply H; left; reflexivity|].
    rewrite E1, E2. cbn. auto.
Qed.

Lemma loop_spec protocols : forall fuel v, length v < fuel ->
  exists r, protocol_loop fuel protocols v (length v) = Ret r /\
    match r with
    | P_FOUND i => exists p, nth_error protocols i = Some p /\ picks protocols v p
    | P_ERROR => forall p, ~ picks protocols v p
    | P_NOT_FOUND => False
    end.
Proof.
  induction fuel as [|fuel IH]; intros v Hv; [lia|]. cbn [protocol_loop].
  destruct (split_comma v) as [H|(w & r & -> & H)].
  - destruct (delimiter_spec v [] H) as [_ ->]. cbn [obind].
    destruct (word_spec protocols v [] H) as (res & t & E & Ht & Hr). rewrite app_nil_r in E. rewrite E. cbn [obind].
    destruct res as [i| |].
    + exists (P_FOUND i). split; [reflexivity|]. exists t. destruct Hr as [Tk Hn]. split; [exact Hn|].
      apply picks_single; [exact H|]. split; [exact Ht|]. split; [exact Tk|]. apply (nth_error_In _ _ Hn).
    + exists P_ERROR. split; [reflexivity|]. intros p. rewrite picks_single by exact H. intros (T & _ & I).
      rewrite (trimmed_unique v p t T Ht) in I. tauto.
    + exists P_ERROR. split; [reflexivity|]. intros p. rewrite picks_single by exact H. intros (T & Tk & I).
      rewrite (trimmed_unique v p t T Ht) in Tk. tauto.
  - destruct (delimiter_spec w r H) as [-> _]. cbn [obind].
    destruct (word_spec protocols w (44%N :: r) H) as (res & t & E & Ht & Hr). rewrite E. cbn [obind].
    destruct res as [i| |].
    + exists (P_FOUND i). split; [reflexivity|]. exists t. destruct Hr as [Tk Hn]. split; [exact Hn|].
      apply (picks_cons protocols w r t t H Ht). split; [exact Tk|]. left. split; [apply (nth_error_In _ _ Hn)|reflexivity].
    + replace (skipn (1 + length w) (w ++ 44%N :: r)) with r.
      2:{ change (44%N :: r) with ([44%N] ++ r). rewrite app_assoc. replace (1 + length w) with (length (w ++ [44%N])) by (rewrite app_length; cbn; lia).
          rewrite skipn_len_app. reflexivity. }
      replace (length (w ++ 44%N :: r) - 1 - length w) with (length r) by (rewrite app_length; cbn; lia).
      rewrite app_length in Hv. cbn in Hv. destruct (IH r) as (res & -> & Hres); [lia|]. exists res. split; [reflexivity|].
      destruct Hr as [Tk NI]. destruct res as [i| |]; [|tauto|].
      * destruct Hres as (p & Hn & P). exists p. split; [exact Hn|]. apply (picks_cons protocols w r p t H Ht). auto.
      * intros p. rewrite (picks_cons protocols w r p t H Ht). intros (_ & [(I & _)|(_ & P)]); [tauto|apply (Hres p P)].
    + exists P_ERROR. split; [reflexivity|]. intros p. rewrite (picks_cons protocols w r p t H Ht). tauto.
Qed.
