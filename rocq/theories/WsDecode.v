(** Facts about the reference decoder. *)
From Verif Require Import Base MaskModel MaskSpec MaskProofs EndianSpec WsRecvSpec.
Open Scope N_scope.

Lemma dec_run_app sv l : forall d k,
  dec_run sv d (l ++ k) = (fst (dec_run sv (fst (dec_run sv d l)) k), snd (dec_run sv d l) ++ snd (dec_run sv (fst (dec_run sv d l)) k)).
Proof.
  induction l as [|b r IH]; intros d k; cbn [app dec_run fst snd].
  - destruct (dec_run sv d k); reflexivity.
  - destruct (dec sv d b) as [d1 o1]. rewrite IH. destruct (dec_run sv d1 r) as [d2 o2]. cbn [fst snd].
    rewrite app_assoc. reflexivity.
Qed.

Lemma dec_run_failed sv l : dec_run sv DFailed l = (DFailed, []).
Proof. induction l as [|b r IH]; [reflexivity|]. cbn [dec_run dec]. rewrite IH. reflexivity. Qed.
Lemma dec_run_closed sv l : dec_run sv DClosed l = (DClosed, []).
Proof. induction l as [|b r IH]; [reflexivity|]. cbn [dec_run dec]. rewrite IH. reflexivity. Qed.

(** A piece of the payload of a data frame. *)
Lemma dec_run_data sv m f bin len key l : forall got, l <> [] ->
  N.of_nat (length got + length l) <= len ->
  let x := rfc_mask_from (length got) key l in
  dec_run sv (DPayload m f (KData bin) len key got) l =
  (if N.of_nat (length got + length l) =? len then DHead m else DPayload m f (KData bin) len key (got ++ x),
   map (OutByte bin f len) x ++ (if N.of_nat (length got + length l) =? len then [OutEnd bin f len] else [])).
Proof.
  induction l as [|b r IH]; intros got NE LE; [congruence|].
  cbn [length] in LE. cbn [dec_run dec rfc_mask_from map]. rewrite app_length. cbn [length].
  destruct r as [|b' r'].
  - cbn [dec_run rfc_mask_from map app length].
    destruct (N.of_nat (length got + 1) =? len) eqn:E; cbn [dec_end app]; rewrite ?app_nil_r; reflexivity.
  - cbn [length] in LE.
    destruct (N.of_nat (length got + 1) =? len) eqn:E; [apply N.eqb_eq in E; lia|].
    rewrite IH; [|discriminate|rewrite app_length; cbn [length]; lia].
    rewrite app_length. cbn [length]. rewrite Nat.add_1_r.
    replace (S (length got) + S (length r'))%nat with (length got + S (S (length r')))%nat by lia.
    rewrite <- app_assoc. cbn [app]. destruct (N.of_nat (length got + S (S (length r'))) =? len); reflexivity.
Qed.

(** The whole payload of a control frame. *)
Lemma dec_run_control_gen sv m f op len key l : forall got, l <> [] ->
  N.of_nat (length got + length l) = len ->
  dec_run sv (DPayload m f (KControl op) len key got) l =
  (if op =? 8 then DClosed else DHead m, [OutControl op (got ++ rfc_mask_from (length got) key l)]).
Proof.
  induction l as [|b r IH]; intros got NE LE; [congruence|].
  cbn [length] in LE. cbn [dec_run dec rfc_mask_from]. rewrite app_length. cbn [length].
  destruct r as [|b' r'].
  - cbn [length] in LE. rewrite LE, N.eqb_refl. cbn [dec_end dec_run rfc_mask_from app].
    destruct (op =? 8); reflexivity.
  - cbn [length] in LE. destruct (N.of_nat (length got + 1) =? len) eqn:E; [apply N.eqb_eq in E; lia|].
    rewrite IH; [|discriminate|rewrite app_length; cbn [length]; lia].
    rewrite app_length. cbn [length]. rewrite Nat.add_1_r, <- app_assoc. reflexivity.
Qed.

Lemma dec_run_control sv m f op len key l : l <> [] -> N.of_nat (length l) = len ->
  dec_run sv (DPayload m f (KControl op) len key []) l =
  (if op =? 8 then DClosed else DHead m, [OutControl op (rfc_mask key l)]).
Proof. intros NE LE. rewrite dec_run_control_gen; [reflexivity|exact NE|cbn; exact LE]. Qed.

(** Extended length. *)
Lemma dec_run_ext sv m f k n l : forall got, l <> [] -> (length got + length l = n)%nat ->
  dec_run sv (DExt m f k n got) l = dec_len sv m f k (be_value (got ++ l)).
Proof.
  induction l as [|b r IH]; intros got NE LE; [congruence|].
  cbn [length] in LE. cbn [dec_run dec]. rewrite app_length. cbn [length].
  destruct r as [|b' r'].
  - cbn [length] in LE. destruct (Nat.eqb (length got + 1) n) eqn:E; [|apply Nat.eqb_neq in E; lia].
    destruct (dec_len sv m f k (be_value (got ++ [b]))) as [d o]. cbn [dec_run]. rewrite app_nil_r. reflexivity.
  - cbn [length] in LE. destruct (Nat.eqb (length got + 1) n) eqn:E; [apply Nat.eqb_eq in E; lia|].
    rewrite IH; [|discriminate|rewrite app_length; cbn [length]; lia].
    rewrite <- app_assoc. cbn [app]. destruct (dec_len _ _ _ _ _); reflexivity.
Qed.

(** Masking key. *)
Lemma dec_run_key sv m f k len l : length l = 4%nat ->
  dec_run sv (DKey m f k len []) l = dec_start m f k len l.
Proof.
  intros L. destruct l as [|a [|b [|c [|d [|x r]]]]]; try discriminate L.
  cbn [dec_run dec app length Nat.eqb]. destruct (dec_start m f k len [a; b; c; d]) as [d' o]. rewrite app_nil_r. reflexivity.
Qed.

Lemma dec_run_1 sv d b : dec_run sv d [b] = dec sv d b.
Proof. cbn [dec_run]. destruct (dec sv d b) as [d1 o1]. rewrite app_nil_r. reflexivity. Qed.
