(** Proofs about masking. *)
From Verif Require Import Base MaskModel MaskSpec.
Ltac Zify.zify_post_hook ::= Z.div_mod_to_equations.

(** ** Words are made of bytes *)

Lemma le_bytes_length w n : length (le_bytes w n) = w.
Proof. revert n; induction w as [|w IH]; intros n; cbn; [reflexivity|]. rewrite IH; reflexivity. Qed.

Lemma le_bytes_value l : bytes_ok l -> le_bytes (length l) (le_value l) = l.
Proof.
  induction l as [|b l IH]; intros H; [reflexivity|]. inversion H as [|? ? Hb Hl]; subst.
  cbn [length le_bytes le_value]. unfold byte_ok in Hb.
  f_equal; [lia|]. replace ((b + 256 * le_value l) / 256)%N with (le_value l) by lia. apply IH, Hl.
Qed.

Lemma le_bytes_ok w n : bytes_ok (le_bytes w n).
Proof.
  revert n; induction w as [|w IH]; intros n; cbn; constructor; [unfold byte_ok; lia|apply IH].
Qed.

Lemma lxor_byte a b : byte_ok a -> byte_ok b -> byte_ok (N.lxor a b).
Proof.
  unfold byte_ok. change 256%N with (2 ^ 8)%N. intros Ha Hb.
  assert (N.lxor a b = (N.lxor a b) mod 2 ^ 8)%N as ->; [|apply N.mod_lt; discriminate].
  rewrite <- N.land_ones. apply N.bits_inj. intros k.
  rewrite N.land_spec, N.lxor_spec.
  destruct (N.ltb_spec k 8) as [Hk|Hk].
  - rewrite N.ones_spec_low by exact Hk. rewrite andb_true_r. reflexivity.
  - rewrite N.ones_spec_high by exact Hk. rewrite andb_false_r.
    rewrite <- (N.mod_small a (2 ^ 8)), <- (N.mod_small b (2 ^ 8)) by assumption.
    rewrite !N.mod_pow2_bits_high by exact Hk. reflexivity.
Qed.

Lemma lxor_mod256 x y : (N.lxor x y mod 256 = N.lxor (x mod 256) (y mod 256))%N.
Proof.
  change 256%N with (2 ^ 8)%N. apply N.bits_inj. intros k.
  rewrite N.lxor_spec. destruct (N.ltb_spec k 8) as [Hk|Hk].
  - rewrite !N.mod_pow2_bits_low by exact Hk. apply N.lxor_spec.
  - rewrite !N.mod_pow2_bits_high by exact Hk. reflexivity.
Qed.

Lemma lxor_div256 x y : (N.lxor x y / 256 = N.lxor (x / 256) (y / 256))%N.
Proof.
  change 256%N with (2 ^ 8)%N. rewrite <- !N.shiftr_div_pow2. apply N.shiftr_lxor.
Qed.

Definition xorl (l k : list N) : list N := map (fun p => N.lxor (fst p) (snd p)) (combine l k).

Lemma le_bytes_lxor w x y : le_bytes w (N.lxor x y) = xorl (le_bytes w x) (le_bytes w y).
Proof.
  revert x y. induction w as [|w IH]; intros x y; [reflexivity|].
  cbn [le_bytes]. rewrite lxor_mod256, lxor_div256, IH. reflexivity.
Qed.

Lemma xorl_length l k : length (xorl l k) = Nat.min (length l) (length k).
Proof. unfold xorl. rewrite map_length, combine_length. reflexivity. Qed.

Lemma combine_app {A B} (l1 l2 : list A) (k1 k2 : list B) : length l1 = length k1 ->
  combine (l1 ++ l2) (k1 ++ k2) = combine l1 k1 ++ combine l2 k2.
Proof.
  revert k1. induction l1 as [|a l1 IH]; intros [|b k1] H; cbn in *; try lia; [reflexivity|].
  f_equal. apply IH. lia.
Qed.

Lemma xorl_app l1 l2 k1 k2 : length l1 = length k1 -> xorl (l1 ++ l2) (k1 ++ k2) = xorl l1 k1 ++ xorl l2 k2.
Proof. intros H. unfold xorl. rewrite combine_app by exact H. apply map_app. Qed.

Lemma xorl_rev l k : length l = length k -> xorl (rev l) (rev k) = rev (xorl l k).
Proof.
  revert k. induction l as [|a l IH]; intros [|b k] H; cbn in H; try lia; [reflexivity|].
  cbn [rev]. rewrite xorl_app by (rewrite !rev_length; lia). rewrite IH by lia. reflexivity.
Qed.

Lemma word_xor e w l k : length l = w -> length k = w -> bytes_ok l -> bytes_ok k ->
  store_word e w (N.lxor (load_word e l) (load_word e k)) = xorl l k.
Proof.
  intros Hl Hk Bl Bk. destruct e; cbn [store_word load_word].
  - rewrite le_bytes_lxor. rewrite <- Hl at 1. rewrite <- Hk at 1.
    rewrite !le_bytes_value by assumption. reflexivity.
  - rewrite le_bytes_lxor.
    assert (Rl : le_bytes w (le_value (rev l)) = rev l).
    { rewrite <- Hl, <- rev_length. apply le_bytes_value. apply Forall_rev, Bl. }
    assert (Rk : le_bytes w (le_value (rev k)) = rev k).
    { rewrite <- Hk, <- rev_length. apply le_bytes_value. apply Forall_rev, Bk. }
    rewrite Rl, Rk, xorl_rev, rev_involutive by congruence. reflexivity.
Qed.

(** ** The specification *)

Lemma rfc_mask_from_length i key d : length (rfc_mask_from i key d) = length d.
Proof. revert i; induction d as [|b d IH]; intros i; cbn; [reflexivity|]. rewrite IH; reflexivity. Qed.

Lemma rfc_mask_from_app i key d1 d2 :
  rfc_mask_from i key (d1 ++ d2) = rfc_mask_from i key d1 ++ rfc_mask_from (i + length d1) key d2.
Proof.
  revert i; induction d1 as [|b d1 IH]; intros i; cbn [app rfc_mask_from length].
  - rewrite Nat.add_0_r. reflexivity.
  - rewrite IH. do 3 f_equal. lia.
Qed.

Lemma rfc_mask_from_mod i j key d : (i mod 4 = j mod 4)%nat -> rfc_mask_from i key d = rfc_mask_from j key d.
Proof.
  revert i j; induction d as [|b d IH]; intros i j H; cbn [rfc_mask_from]; [reflexivity|].
  rewrite H. f_equal. apply IH. lia.
Qed.

Lemma rfc_mask_from_twice i key d : rfc_mask_from i key (rfc_mask_from i key d) = d.
Proof.
  revert i; induction d as [|b d IH]; intros i; cbn [rfc_mask_from]; [reflexivity|].
  rewrite IH, N.lxor_assoc, N.lxor_nilpotent, N.lxor_0_r. reflexivity.
Qed.

Lemma key_byte key i : length key = 4%nat -> bytes_ok key -> byte_ok (nth (i mod 4) key 0%N).
Proof.
  intros Hk Hb. unfold bytes_ok in Hb. rewrite Forall_forall in Hb. apply Hb, nth_In.
  pose proof (Nat.mod_upper_bound i 4). lia.
Qed.

Lemma rfc_mask_from_ok i key d : length key = 4%nat -> bytes_ok key -> bytes_ok d -> bytes_ok (rfc_mask_from i key d).
Proof.
  intros Hk Hb. revert i. induction d as [|b d IH]; intros i Hd; cbn [rfc_mask_from]; [constructor|].
  inversion Hd; subst. constructor; [|apply IH; assumption].
  apply lxor_byte; [assumption|apply key_byte; assumption].
Qed.

(** ** The loops *)

Lemma idx_key key i : length key = 4%nat -> idx key (i mod 4) = Ret (nth (i mod 4) key 0%N).
Proof.
  intros Hk. unfold idx. rewrite (nth_error_nth' key 0%N); [reflexivity|].
  pose proof (Nat.mod_upper_bound i 4). lia.
Qed.

Lemma xor_at_app l b r v : xor_at (l ++ b :: r) (length l) v = Ret (l ++ N.lxor b v :: r).
Proof.
  induction l as [|a l IH]; [reflexivity|]. cbn [app length xor_at]. rewrite IH. reflexivity.
Qed.

Lemma mask_bytes_spec key d : length key = 4%nat -> forall pre i post,
  mask_bytes (pre ++ d ++ post) (length pre - i) key i (length d) =
    (if Nat.leb i (length pre) then Ret (pre ++ rfc_mask_from i key d ++ post)
     else mask_bytes (pre ++ d ++ post) (length pre - i) key i (length d)).
Proof.
  intros Hk. induction d as [|b d IH]; intros pre i post.
  - cbn. destruct (Nat.leb i (length pre)); reflexivity.
  - destruct (Nat.leb_spec i (length pre)) as [Hi|Hi]; [|reflexivity].
    cbn [length mask_bytes rfc_mask_from app]. rewrite (idx_key key i Hk). cbn [obind].
    replace (length pre - i + i)%nat with (length pre) by lia.
    rewrite xor_at_app. cbn [obind].
    set (b' := N.lxor b (nth (i mod 4) key 0%N)).
    specialize (IH (pre ++ [b']) (S i) post).
    rewrite app_length in IH. cbn [length] in IH.
    replace (length pre + 1 - S i)%nat with (length pre - i)%nat in IH by lia.
    rewrite <- app_assoc in IH. cbn [app] in IH. rewrite IH.
    replace (Nat.leb (S i) (length pre + 1)) with true by (symmetry; apply Nat.leb_le; lia).
    rewrite <- app_assoc. reflexivity.
Qed.

(** [off] bytes before the buffer, [a] bytes of the buffer already done. *)
Lemma mask_bytes_at key d out a post : length key = 4%nat ->
  mask_bytes (out ++ a ++ d ++ post) (length out) key (length a) (length d) =
    Ret (out ++ a ++ rfc_mask_from (length a) key d ++ post).
Proof.
  intros Hk. pose proof (mask_bytes_spec key d Hk (out ++ a) (length a) post) as H.
  rewrite app_length in H. replace (length out + length a - length a)%nat with (length out) in H by lia.
  rewrite <- !app_assoc in H. rewrite H.
  replace (Nat.leb (length a) (length out + length a)) with true by (symmetry; apply Nat.leb_le; lia).
  reflexivity.
Qed.

Lemma filler_spec key p : length key = 4%nat -> forall n i,
  exists l, filler key p i n = Ret l /\ length l = n /\
    (bytes_ok key -> bytes_ok l) /\
    (forall d, length d = n -> xorl d l = rfc_mask_from (i + p) key d).
Proof.
  intros Hk. induction n as [|n IH]; intros i.
  - exists []. cbn. repeat split; [intros; constructor|]. intros [|b d] Hd; [reflexivity|discriminate].
  - destruct (IH (S i)) as (l & Hl & Len & Hok & Hx).
    cbn [filler]. rewrite (idx_key key (i + p) Hk). cbn [obind]. rewrite Hl. cbn [obind].
    eexists. split; [reflexivity|]. split; [cbn; lia|]. split.
    + intros Hb. constructor; [apply key_byte; assumption|apply Hok, Hb].
    + intros [|b d] Hd; [discriminate|]. cbn in Hd.
      unfold xorl. cbn [combine map fst snd]. fold (xorl d l). rewrite Hx by lia. reflexivity.
Qed.

Lemma xor_word_app e w pre word post v : length word = w ->
  xor_word e w (pre ++ word ++ post) (length pre) v =
  Ret (pre ++ store_word e w (N.lxor (load_word e word) v) ++ post).
Proof.
  intros Hw. subst w. unfold xor_word.
  replace (Nat.ltb (length (pre ++ word ++ post)) (length pre + length word)) with false
    by (symmetry; apply Nat.ltb_ge; rewrite !app_length; lia).
  rewrite skipn_len_app, firstn_len_app, firstn_len_app.
  replace (skipn (length pre + length word) (pre ++ word ++ post)) with post; [reflexivity|].
  rewrite <- app_length, app_assoc. symmetry. apply skipn_len_app.
Qed.

Lemma mask_words_spec e w key fill i : (w mod 4 = 0)%nat -> length fill = w -> bytes_ok fill ->
  (forall d, length d = w -> xorl d fill = rfc_mask_from i key d) ->
  forall n pre d post, length d = (n * w)%nat -> bytes_ok d ->
  mask_words e w (pre ++ d ++ post) (length pre) (load_word e fill) n =
    Ret (pre ++ rfc_mask_from i key d ++ post).
Proof.
  intros Hw Hf Bf Hx. induction n as [|n IH]; intros pre d post Hd Bd.
  - destruct d; [reflexivity|cbn in Hd; lia].
  - set (d1 := firstn w d). set (d2 := skipn w d).
    assert (E : d = d1 ++ d2) by (symmetry; apply firstn_skipn).
    assert (L1 : length d1 = w) by (unfold d1; apply firstn_length_le; lia).
    assert (L2 : length d2 = (n * w)%nat) by (unfold d2; rewrite skipn_length; lia).
    rewrite E. rewrite E in Bd. apply bytes_ok_app in Bd as [B1 B2].
    rewrite <- app_assoc. cbn [mask_words]. rewrite xor_word_app by exact L1. cbn [obind].
    rewrite word_xor by assumption. rewrite Hx by exact L1.
    rewrite rfc_mask_from_app, L1.
    replace (pre ++ rfc_mask_from i key d1 ++ d2 ++ post)
      with ((pre ++ rfc_mask_from i key d1) ++ d2 ++ post) by (rewrite <- app_assoc; reflexivity).
    replace (length pre + w)%nat with (length (pre ++ rfc_mask_from i key d1))
      by (rewrite app_length, rfc_mask_from_length, L1; reflexivity).
    rewrite IH by assumption. rewrite <- !app_assoc.
    rewrite (rfc_mask_from_mod (i + w) i) by lia. reflexivity.
Qed.

Lemma ws_mask_correct e w base pre d post key :
  (0 < w)%nat -> (w mod 4 = 0)%nat -> length key = 4%nat -> bytes_ok key -> bytes_ok d ->
  ws_mask e w base (pre ++ d ++ post) (length pre) (length d) key = Ret (pre ++ rfc_mask key d ++ post).
Proof.
  intros Hw0 Hw4 Hk Bk Bd. unfold ws_mask, rfc_mask.
  destruct (Nat.ltb_spec (length d) w) as [Hlt|Hge].
  - exact (mask_bytes_at key d pre [] post Hk).
  - set (p := ((w - (base + length pre) mod w) mod w)%nat).
    set (m := ((length d - p) / w)%nat).
    assert (Hp : (p < w)%nat) by (unfold p; apply Nat.mod_upper_bound; lia).
    assert (Hm : (m * w <= length d - p)%nat).
    { unfold m. rewrite Nat.mul_comm. apply Nat.mul_div_le. lia. }
    clearbody p m.
    destruct (filler_spec key p Hk w 0) as (fill & Hfill & Hlen & Hok & Hx).
    rewrite Hfill. cbn [obind].
    set (d1 := firstn p d). set (r1 := skipn p d).
    set (d2 := firstn (m * w) r1). set (d3 := skipn (m * w) r1).
    assert (E1 : d = d1 ++ r1) by (symmetry; apply firstn_skipn).
    assert (E2 : r1 = d2 ++ d3) by (symmetry; apply firstn_skipn).
    assert (L1 : length d1 = p) by (unfold d1; apply firstn_length_le; lia).
    assert (LR : length r1 = (length d - p)%nat) by (unfold r1; apply skipn_length).
    assert (L2 : length d2 = (m * w)%nat) by (unfold d2; apply firstn_length_le; lia).
    assert (L3 : length d3 = (length d - p - m * w)%nat) by (unfold d3; rewrite skipn_length; lia).
    assert (E : d = d1 ++ d2 ++ d3) by (rewrite <- E2; exact E1).
    assert (B2 : bytes_ok d2) by (rewrite E in Bd; apply bytes_ok_app in Bd as [_ Bd]; apply bytes_ok_app in Bd; tauto).
    replace (length d - (length d - p - m * w))%nat with (p + m * w)%nat by lia.
    rewrite <- L3.
    clearbody d1 d2 d3. clear r1 E1 E2 LR. subst d.
    pose proof (mask_bytes_at key d1 pre [] (d2 ++ d3 ++ post) Hk) as S1. cbn [app length] in S1.
    rewrite L1 in S1.
    rewrite <- !app_assoc. rewrite S1. cbn [obind].
    pose proof (mask_words_spec e w key fill (0 + p) Hw4 Hlen (Hok Bk) Hx m
                  (pre ++ rfc_mask_from 0 key d1) d2 (d3 ++ post) L2 B2) as S2.
    rewrite app_length, rfc_mask_from_length, L1, <- !app_assoc in S2. rewrite S2. cbn [obind].
    pose proof (mask_bytes_at key d3 pre (rfc_mask_from 0 key d1 ++ rfc_mask_from (0 + p) key d2) post Hk) as S3.
    rewrite app_length, !rfc_mask_from_length, L1, L2, <- !app_assoc in S3. rewrite S3.
    rewrite !rfc_mask_from_app, L1, L2, <- !app_assoc. do 4 f_equal.
Qed.

(** [correct_mask] continues the masking at a later position. *)
Lemma correct_mask_spec key n : length key = 4%nat ->
  exists key', correct_mask key n = Ret key' /\ length key' = 4%nat /\
    (bytes_ok key -> bytes_ok key') /\
    forall i d, rfc_mask_from i key' d = rfc_mask_from (n + i) key d.
Proof.
  intros Hk. destruct key as [|k0 [|k1 [|k2 [|k3 [|]]]]]; try discriminate.
  unfold correct_mask.
  assert (Hn : (n mod 4 = 0 \/ n mod 4 = 1 \/ n mod 4 = 2 \/ n mod 4 = 3)%nat) by lia.
  destruct Hn as [Hn|[Hn|[Hn|Hn]]]; rewrite Hn; cbn [idx nth_error Nat.modulo Nat.divmod fst snd Nat.add Nat.sub obind];
  (eexists; split; [reflexivity|]; split; [reflexivity|]; split;
   [intros Hb; unfold bytes_ok in *; rewrite !Forall_cons_iff in *; tauto|]).
  all: intros i d; revert i; induction d as [|b d IH]; intros i; [reflexivity|];
    cbn [rfc_mask_from]; rewrite IH; replace (n + S i)%nat with (S (n + i)) by lia; f_equal; f_equal.
  all: assert (Hi : (i mod 4 = 0 \/ i mod 4 = 1 \/ i mod 4 = 2 \/ i mod 4 = 3)%nat) by lia.
  all: assert (Hs : ((n + i) mod 4 = ((n mod 4) + (i mod 4)) mod 4)%nat) by lia.
  all: rewrite Hs, Hn; destruct Hi as [-> | [-> | [-> | -> ]]]; reflexivity.
Qed.

Lemma ws_mask_twice (e : endianness) (w base : nat) (before data after key : list N) :
  (0 < w)%nat -> (w mod 4 = 0)%nat -> length key = 4%nat -> bytes_ok key -> bytes_ok data ->
  exists masked, ws_mask e w base (before ++ data ++ after) (length before) (length data) key = Ret masked /\
    ws_mask e w base masked (length before) (length data) key = Ret (before ++ data ++ after).
Proof.
  intros Hw H4 Hk Ok Od. pose proof (rfc_mask_from_ok 0 key data Hk Ok Od) as Om.
  eexists. split; [apply ws_mask_correct; assumption|].
  pose proof (ws_mask_correct e w base before (rfc_mask key data) after key Hw H4 Hk Ok Om) as E.
  assert (length (rfc_mask key data) = length data) as L by apply rfc_mask_from_length.
  rewrite L in E. rewrite E. do 3 f_equal. apply rfc_mask_from_twice.
Qed.
