(** What send_frame does, for frames and for continuation chunks, and how a list of
    accepted writes is carried by the chains handed to the stream. *)
From Verif Require Import Base Utf8Model MaskModel MaskSpec MaskProofs EndianModel EndianSpec EndianProofs
  WsModel WsFrame WsSendProofs WsRecvSpec WsFrameSpec WsHeaderSpec WsSend WsHistory WsOutSpec.
Open Scope N_scope.

Section W.
Variable C : cfg.
Hypothesis HC : cfg_ok C.
Notation msk := (negb (is_server C)).

Definition mask_ok (m : list N) : Prop := length m = 4%nat /\ bytes_ok m.
(** A job whose fields are in range. *)
Definition job_ok (j : job) : Prop := (jcont j = false -> jtype j < 16) /\ exists c, jwbh j = Some c /\ bytes_ok (chain_bytes c) /\ total_size c <= SIZE_MAX.

(** Job [j], sent with frame length [L] when the chunk mask is [m], becomes chain [c] and
    leaves the chunk mask [m']. *)
Definition wire (m : list N) (j : job) (L : N) (c : chain) (m' : list N) : Prop :=
  let p := payload j in
  if jcont j then
    chain_bytes c = (if msk then rfc_mask m p else p) /\
    m' = (if msk then rot (rot m (length p)) (length p) else m)
  else exists key, mask_ok key /\
    chain_bytes c = enc_header msk (jlast j) (jtype j) L key ++ (if msk then rfc_mask key p else p) /\
    m' = if (msk && (N.of_nat (length p) <? L))%bool then rot key (length p) else m.

Lemma wire_mask m j L c m' : mask_ok m -> wire m j L c m' -> mask_ok m'.
Proof.
  intros [L1 B1]. unfold wire. destruct (jcont j).
  - intros [_ ->]. destruct msk; [|split; assumption]. split; [apply rot_length|]. apply rot_ok; [apply rot_length|apply rot_ok; assumption].
  - intros (key & [L2 B2] & _ & ->). destruct (_ && _)%bool; [|split; assumption]. split; [apply rot_length|apply rot_ok; assumption].
Qed.

Lemma send_wire s n L ch s' r : job_ok (jobs (T s) n) -> L <= SIZE_MAX -> choice_ok ch -> mask_ok (cmask (T s)) ->
  send_frame C s n L ch = Ret (s', r) ->
  exists c, tr s' = EvSend n c :: tr s /\ wire (cmask (T s)) (jobs (T s) n) L c (cmask (T s')).
Proof.
  intros (JT & c0 & W & B & Z) HL CH [M1 M2] H. assert (HL' : L < 2 ^ 64) by (unfold SIZE_MAX in HL; lia).
  unfold wire, payload. rewrite W. destruct (jcont (jobs (T s) n)) eqn:JC.
  - unfold send_frame in H. rewrite W, JC in H. destruct (is_server C); cbn [negb].
    + injection H as H. apply bs_write_frame in H. destruct H as (_ & E & _ & _ & _ & E2 & _). exists c0. split; [exact E|]. split; [reflexivity|exact E2].
    + rewrite mask_write_buffer_spec in H by assumption. cbn [obind] in H. rewrite correct_mask_rot in H by apply rot_length. cbn [obind] in H.
      injection H as H. apply bs_write_frame in H. destruct H as (_ & E & _ & _ & _ & E2 & _). cbn [T set_T cmask set_cmask tr] in *. eexists. split; [exact E|].
      split; [apply masked_bytes|exact E2].
  - destruct (send_first C HC s n c0 L ch JC W (JT eq_refl) HL' CH B) as (t & E & _ & _ & _ & _ & _ & EM). rewrite E in H. injection H as H. apply bs_write_frame in H.
    destruct H as (_ & E1 & _ & _ & _ & E2 & _). cbn [T set_T tr] in *. eexists. split; [exact E1|]. destruct CH as (K1 & K2 & _). exists (ch_key ch).
    split; [split; assumption|]. split; [apply sent_first_bytes|]. rewrite E2, EM. reflexivity.
Qed.
Lemma send_defined s n L ch : job_ok (jobs (T s) n) -> L <= SIZE_MAX -> choice_ok ch -> mask_ok (cmask (T s)) ->
  exists x, send_frame C s n L ch = Ret x.
Proof.
  intros (JT & c0 & W & B & Z) HL CH [M1 M2]. assert (HL' : L < 2 ^ 64) by (unfold SIZE_MAX in HL; lia). destruct (jcont (jobs (T s) n)) eqn:JC.
  - unfold send_frame. rewrite W, JC. destruct (is_server C); [eauto|]. rewrite mask_write_buffer_spec by assumption. cbn [obind].
    rewrite correct_mask_rot by apply rot_length. cbn [obind]. eauto.
  - destruct (send_first C HC s n c0 L ch JC W (JT eq_refl) HL' CH B) as (t & E & _). eauto.
Qed.

(** The chains carry the writes, one by one. *)
Inductive carried (m0 : list N) : list ent -> list (jname * chain) -> list N -> Prop :=
| car_nil : mask_ok m0 -> carried m0 [] [] m0
| car_snoc es ss m n j len L c m' : carried m0 es ss m -> L = len \/ L = N.of_nat (length (payload j)) -> wire m j L c m' ->
    carried m0 (es ++ [(n, j, len)]) (ss ++ [(n, c)]) m'.
Lemma carried_length m0 es ss m : carried m0 es ss m -> length es = length ss.
Proof. intros H. induction H; [reflexivity|]. rewrite !app_length, IHcarried. reflexivity. Qed.

(** wire does not depend on what else is in a job. *)
Definition same_content (j j' : job) : Prop :=
  jwbh j' = jwbh j /\ jtype j' = jtype j /\ jlast j' = jlast j /\ jcont j' = jcont j.
Lemma wire_content m j j' L c m' : same_content j j' -> wire m j' L c m' -> wire m j L c m'.
Proof. intros (E1 & E2 & E3 & E4). unfold wire, payload. rewrite E1, E2, E3, E4. auto. Qed.
Lemma ok_content j j' : same_content j j' -> job_ok j -> job_ok j'.
Proof. intros (E1 & E2 & E3 & E4) (H1 & H2). split; [rewrite E4, E2; exact H1|]. rewrite E1. exact H2. Qed.
End W.
