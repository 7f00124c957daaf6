From Verif Require Import Base WriteBufferModel WriteBufferSpec.
Open Scope N_scope.

(** * Field views of a heap *)
Definition nxt (h : heap) (p : ptr) : option N := option_map nx (h p).
Definition prv (h : heap) (p : ptr) : option N := option_map pv (h p).
Definition a0 (h : heap) (p : ptr) : option N := option_map w0 (h p).
Definition a1 (h : heap) (p : ptr) : option N := option_map w1 (h p).
Definition live (h : heap) (p : ptr) : Prop := h p <> None.

Lemma rd_spec h p : live h p -> exists c, rd h p = Ret c /\ h p = Some c /\
  nxt h p = Some (nx c) /\ prv h p = Some (pv c) /\ a0 h p = Some (w0 c) /\ a1 h p = Some (w1 c).
Proof.
  unfold live, rd, nxt, prv, a0, a1. intros H. destruct (h p) as [c|]; [|congruence].
  exists c. repeat split.
Qed.

Definition stored (f g k m : heap -> ptr -> option N) (h h' : heap) (p v : N) : Prop :=
  (forall q, f h' q = if q =? p then Some v else f h q) /\
  (forall q, g h' q = g h q) /\ (forall q, k h' q = k h q) /\ (forall q, m h' q = m h q) /\
  (forall q, live h' q <-> live h q).

Lemma set_gen (h : heap) p (c c' : cell) :
  h p = Some c ->
  (forall q, live (upd h p c') q <-> live h q) /\
  (forall q, nxt (upd h p c') q = if q =? p then Some (nx c') else nxt h q) /\
  (forall q, prv (upd h p c') q = if q =? p then Some (pv c') else prv h q) /\
  (forall q, a0 (upd h p c') q = if q =? p then Some (w0 c') else a0 h q) /\
  (forall q, a1 (upd h p c') q = if q =? p then Some (w1 c') else a1 h q).
Proof.
  intros H. unfold live, nxt, prv, a0, a1, upd. split; [|split; [|split; [|split]]]; intros q.
  all: destruct (N.eqb_spec q p) as [->|]; try reflexivity.
  split; congruence.
Qed.

Ltac set_tac :=
  let Hl := fresh in let Hr := fresh in let Hc := fresh in let Hd := fresh in let c := fresh in
  let G0 := fresh in let G1 := fresh in let G2 := fresh in let G3 := fresh in let G4 := fresh in
  intros Hl; destruct (rd_spec _ _ Hl) as (c & Hr & Hc & Hd);
  rewrite Hr; cbn [obind]; eexists; split; [reflexivity|];
  match goal with |- stored _ _ _ _ _ (upd ?h ?p ?c') _ _ =>
    destruct (set_gen h p c c' Hc) as (G0 & G1 & G2 & G3 & G4) end;
  cbn [nx pv w0 w1] in *;
  unfold stored; (split; [|split; [|split; [|split]]]);
  [ | | | | exact G0]; let q := fresh in intros q;
  rewrite ?G1, ?G2, ?G3, ?G4;
  match goal with |- (if ?q =? ?p then _ else _) = _ =>
    destruct (N.eqb_spec q p); subst; intuition congruence end.

Lemma set_nx_spec h p v : live h p -> exists h', set_nx h p v = Ret h' /\ stored nxt prv a0 a1 h h' p v.
Proof. unfold set_nx. set_tac. Qed.
Lemma set_pv_spec h p v : live h p -> exists h', set_pv h p v = Ret h' /\ stored prv nxt a0 a1 h h' p v.
Proof. unfold set_pv. set_tac. Qed.
Lemma set_w0_spec h p v : live h p -> exists h', set_w0 h p v = Ret h' /\ stored a0 nxt prv a1 h h' p v.
Proof. unfold set_w0. set_tac. Qed.
Lemma set_w1_spec h p v : live h p -> exists h', set_w1 h p v = Ret h' /\ stored a1 nxt prv a0 h h' p v.
Proof. unfold set_w1. set_tac. Qed.

(** * Symbolic execution *)
Ltac live_tac :=
  repeat match goal with
  | S : stored _ _ _ _ ?h ?h' _ _ |- live ?h' _ => apply (proj2 (proj2 (proj2 (proj2 S))))
  end; try assumption.

(** rewrite a getter of a later heap into one of an earlier heap *)
Ltac back1 :=
  match goal with
  | S : stored _ _ _ _ ?h ?h' ?p ?v |- context [?f ?h' ?q] =>
      match f with nxt => idtac | prv => idtac | a0 => idtac | a1 => idtac end;
      first [ rewrite (proj1 S q)
            | rewrite (proj1 (proj2 S) q)
            | rewrite (proj1 (proj2 (proj2 S)) q)
            | rewrite (proj1 (proj2 (proj2 (proj2 S))) q) ]
  end.
Ltac back1_in H :=
  match type of H with context [?f ?h' ?q] =>
  match goal with
  | S : stored _ _ _ _ ?h h' ?p ?v |- _ =>
      match f with nxt => idtac | prv => idtac | a0 => idtac | a1 => idtac end;
      first [ rewrite (proj1 S q) in H
            | rewrite (proj1 (proj2 S) q) in H
            | rewrite (proj1 (proj2 (proj2 S)) q) in H
            | rewrite (proj1 (proj2 (proj2 (proj2 S))) q) in H ]
  end end.

Ltac neqb := repeat match goal with
  | H : context [?a =? ?a] |- _ => rewrite (N.eqb_refl a) in H
  | |- context [?a =? ?a] => rewrite (N.eqb_refl a)
  | N : ?a <> ?b, H : context [?a =? ?b] |- _ => rewrite (proj2 (N.eqb_neq a b) N) in H
  | N : ?a <> ?b |- context [?a =? ?b] => rewrite (proj2 (N.eqb_neq a b) N)
  | N : ?b <> ?a, H : context [?a =? ?b] |- _ => rewrite (proj2 (N.eqb_neq a b) (not_eq_sym N)) in H
  | N : ?b <> ?a |- context [?a =? ?b] => rewrite (proj2 (N.eqb_neq a b) (not_eq_sym N))
  end.

(** use known field values of the initial heap *)
Ltac resolve := repeat match goal with
  | E : ?f ?h ?p = Some ?v, H : ?f ?h ?p = Some (?g ?c) |- _ =>
      first [ constr_eq v (g c); fail 1 | rewrite E in H; injection H as H; rewrite <- ?H in *; clear H ]
  | H : Some ?v = Some (?g ?c) |- _ => injection H as H; rewrite <- ?H in *; clear H
  end.

Ltac wstep :=
  let c := fresh "c" in let h1 := fresh "h" in let E := fresh "E" in let S := fresh "S" in
  match goal with
  | |- context [obind (rd ?h ?p) _] =>
      let L := fresh in assert (L : live h p) by live_tac;
      let S1 := fresh "R" in let S2 := fresh "R" in let S3 := fresh "R" in let S4 := fresh "R" in
      destruct (rd_spec h p L) as (c & E & _ & S1 & S2 & S3 & S4);
      rewrite E; clear E L; cbn [obind];
      repeat back1_in S1; repeat back1_in S2; repeat back1_in S3; repeat back1_in S4; neqb;
      resolve
  | |- context [obind (set_nx ?h ?p ?v) _] =>
      let L := fresh in assert (L : live h p) by live_tac;
      destruct (set_nx_spec h p v L) as (h1 & E & S); rewrite E; clear E L; cbn [obind]
  | |- context [obind (set_pv ?h ?p ?v) _] =>
      let L := fresh in assert (L : live h p) by live_tac;
      destruct (set_pv_spec h p v L) as (h1 & E & S); rewrite E; clear E L; cbn [obind]
  | |- context [obind (set_w0 ?h ?p ?v) _] =>
      let L := fresh in assert (L : live h p) by live_tac;
      destruct (set_w0_spec h p v L) as (h1 & E & S); rewrite E; clear E L; cbn [obind]
  | |- context [obind (set_w1 ?h ?p ?v) _] =>
      let L := fresh in assert (L : live h p) by live_tac;
      destruct (set_w1_spec h p v L) as (h1 & E & S); rewrite E; clear E L; cbn [obind]
  | |- context [set_nx ?h ?p ?v] =>
      let L := fresh in assert (L : live h p) by live_tac;
      destruct (set_nx_spec h p v L) as (h1 & E & S); rewrite E; clear E L; cbn [obind]
  | |- context [set_w1 ?h ?p ?v] =>
      let L := fresh in assert (L : live h p) by live_tac;
      destruct (set_w1_spec h p v L) as (h1 & E & S); rewrite E; clear E L; cbn [obind]
  end.

Ltac live_iff :=
  let q := fresh in intros q; split; [|intros; now live_tac];
  repeat match goal with
  | S : stored _ _ _ _ ?h ?h' _ _ |- live ?h' _ -> _ =>
     let HH := fresh in intros HH; apply (proj2 (proj2 (proj2 (proj2 S)))) in HH; revert HH; clear S end;
  auto.

Lemma live_a0 h p v : a0 h p = Some v -> live h p.
Proof. unfold a0, live. destruct (h p); cbn; congruence. Qed.
Lemma live_a1 h p v : a1 h p = Some v -> live h p.
Proof. unfold a1, live. destruct (h p); cbn; congruence. Qed.
Lemma live_nxt h p v : nxt h p = Some v -> live h p.
Proof. unfold nxt, live. destruct (h p); cbn; congruence. Qed.
Lemma live_prv h p v : prv h p = Some v -> live h p.
Proof. unfold prv, live. destruct (h p); cbn; congruence. Qed.

(** Only the live set and the four fields of cells matter. *)
Definition same_at (h h' : heap) (q : ptr) : Prop :=
  nxt h' q = nxt h q /\ prv h' q = prv h q /\ a0 h' q = a0 h q /\ a1 h' q = a1 h q.

Ltac finish := eexists; split; [reflexivity|].

Lemma wb_insert_spec h wbh new prev next n0 n1 len :
  live h prev -> live h next -> a0 h wbh = Some n0 -> a1 h wbh = Some n1 -> a1 h new = Some len ->
  new <> wbh ->
  exists h', wb_insert h wbh new prev next = Ret h' /\
    (forall q, nxt h' q = if q =? prev then Some new else if q =? new then Some next else nxt h q) /\
    (forall q, prv h' q = if q =? next then Some new else if q =? new then Some prev else prv h q) /\
    (forall q, a0 h' q = if q =? wbh then Some (wadd n0 1) else a0 h q) /\
    (forall q, a1 h' q = if q =? wbh then Some (wadd n1 len) else a1 h q) /\
    (forall q, live h' q <-> live h q).
Proof.
  intros Lp Ln E0 E1 E2 N1. pose proof (live_a0 _ _ _ E0) as Lw. pose proof (live_a1 _ _ _ E2) as Lnew.
  unfold wb_insert. repeat wstep. finish.
  repeat match goal with |- _ /\ _ => split end; [..|live_iff]; intros q; repeat back1; reflexivity.
Qed.

Ltac summary := repeat match goal with |- _ /\ _ => split end; [..|live_iff]; intros ?; repeat back1; neqb.

Lemma wb_unlink_spec h wbh wbe next prev n0 n1 len :
  a0 h wbh = Some n0 -> a1 h wbh = Some n1 -> a1 h wbe = Some len ->
  nxt h wbe = Some next -> prv h wbe = Some prev -> live h next -> live h prev ->
  wbe <> wbh ->
  exists h', wb_unlink h wbh wbe = Ret h' /\
    (forall q, nxt h' q = if q =? prev then Some next else nxt h q) /\
    (forall q, prv h' q = if q =? next then Some prev else prv h q) /\
    (forall q, a0 h' q = if q =? wbh then Some (wsub n0 1) else a0 h q) /\
    (forall q, a1 h' q = if q =? wbh then Some (wsub n1 len) else a1 h q) /\
    (forall q, live h' q <-> live h q).
Proof.
  intros E0 E1 E2 E3 E4 L1 L2 Hne. pose proof (live_a0 _ _ _ E0) as Lw. pose proof (live_a1 _ _ _ E2) as Le.
  unfold wb_unlink. cbv zeta. repeat wstep. finish. summary; try reflexivity.
Qed.

Lemma wb_head_init_spec h wbh :
  live h wbh ->
  exists h', wb_head_init h wbh = Ret h' /\
    (forall q, nxt h' q = if q =? wbh then Some wbh else nxt h q) /\
    (forall q, prv h' q = if q =? wbh then Some wbh else prv h q) /\
    (forall q, a0 h' q = if q =? wbh then Some 0 else a0 h q) /\
    (forall q, a1 h' q = if q =? wbh then Some 0 else a1 h q) /\
    (forall q, live h' q <-> live h q).
Proof. intros L. unfold wb_head_init. repeat wstep. finish. summary; reflexivity. Qed.

Lemma wb_element_init_spec h p d n :
  live h p ->
  exists h', wb_element_init h p d n = Ret h' /\
    (forall q, nxt h' q = nxt h q) /\
    (forall q, prv h' q = prv h q) /\
    (forall q, a0 h' q = if q =? p then Some d else a0 h q) /\
    (forall q, a1 h' q = if q =? p then Some n else a1 h q) /\
    (forall q, live h' q <-> live h q).
Proof. intros L. unfold wb_element_init. repeat wstep. finish. summary; reflexivity. Qed.

Lemma wb_splice_spec h lst head la fa lb n0 n1 m0 m1 :
  a0 h lst = Some n0 -> a1 h lst = Some n1 -> a0 h head = Some m0 -> a1 h head = Some m1 ->
  nxt h lst = Some fa -> prv h lst = Some la -> prv h head = Some lb ->
  live h fa -> live h la -> live h lb -> fa <> lst -> lst <> head ->
  exists h', wb_splice h lst head = Ret h' /\
    (forall q, nxt h' q = if q =? lst then Some lst else if q =? la then Some head
                          else if q =? lb then Some fa else nxt h q) /\
    (forall q, prv h' q = if q =? lst then Some lst else if q =? head then Some la
                          else if q =? fa then Some lb else prv h q) /\
    (forall q, a0 h' q = if q =? lst then Some 0 else if q =? head then Some (wadd m0 n0) else a0 h q) /\
    (forall q, a1 h' q = if q =? lst then Some 0 else if q =? head then Some (wadd m1 n1) else a1 h q) /\
    (forall q, live h' q <-> live h q).
Proof.
  intros E0 E1 E2 E3 E4 E5 E6 L1 L2 L3 N1 N2.
  pose proof (live_a0 _ _ _ E0) as Ll. pose proof (live_a0 _ _ _ E2) as Lh.
  unfold wb_splice, wb_empty. wstep. neqb. cbv zeta. repeat wstep.
  match goal with |- context [wb_head_init ?h _] =>
    destruct (wb_head_init_spec h lst ltac:(live_tac)) as (h' & -> & K1 & K2 & K3 & K4 & K5) end.
  finish. repeat match goal with |- _ /\ _ => split end; intros q; rewrite ?K1, ?K2, ?K3, ?K4, ?K5.
  5: revert q; live_iff.
  all: repeat back1; neqb; reflexivity.
Qed.

Lemma wb_split_spec fuel h t f wbe0 wbe tl fl fn wp tlen tql n0 n1 m0 m1 :
  a0 h f = Some n0 -> a1 h f = Some n1 -> a0 h t = Some m0 -> a1 h t = Some m1 ->
  prv h t = Some tl -> prv h f = Some fl -> nxt h f = Some fn -> fn <> f ->
  wbe = (if f =? wbe0 then fn else wbe0) -> prv h wbe = Some wp ->
  wb_tail_count fuel h f wbe 0 0 = Ret (tlen, tql) ->
  live h tl -> live h fl -> live h wp -> t <> f ->
  exists h', wb_split_and_append fuel h t f wbe0 = Ret h' /\
    (forall q, nxt h' q = if q =? tl then Some wbe else if q =? fl then Some t
                          else if q =? wp then Some f else nxt h q) /\
    (forall q, prv h' q = if q =? wbe then Some tl else if q =? t then Some fl
                          else if q =? f then Some wp else prv h q) /\
    (forall q, a0 h' q = if q =? t then Some (wadd m0 tql) else if q =? f then Some (wsub n0 tql) else a0 h q) /\
    (forall q, a1 h' q = if q =? t then Some (wadd m1 tlen) else if q =? f then Some (wsub n1 tlen) else a1 h q) /\
    (forall q, live h' q <-> live h q).
Proof.
  intros E0 E1 E2 E3 E4 E5 E6 N1 Ew E7 Hc L1 L2 L3 N2.
  pose proof (live_a0 _ _ _ E0) as Lf. pose proof (live_a0 _ _ _ E2) as Lt. pose proof (live_prv _ _ _ E7) as Lw.
  unfold wb_split_and_append, wb_empty. wstep. neqb. cbv zeta. wstep.
  match goal with |- context [wb_tail_count _ _ _ ?w _ _] => change w with (if f =? wbe0 then fn else wbe0 : N) end.
  match type of Ew with _ = ?w => change (if f =? wbe0 then fn else wbe0) with w; rewrite <- Ew end.
  rewrite Hc. cbn [obind]. repeat wstep. finish. summary; reflexivity.
Qed.

(** * Paths *)
Lemma link_iff h a b : link h a b <-> nxt h a = Some b /\ prv h b = Some a.
Proof.
  unfold link, nxt, prv. split.
  - intros [(c & -> & <-) (d & -> & <-)]. split; reflexivity.
  - destruct (h a) as [c|]; cbn; [|intuition congruence].
    destruct (h b) as [d|]; cbn; [|intuition congruence].
    intros [A B]. split; eexists; (split; [reflexivity|congruence]).
Qed.

Lemma last_cons {A} (l : list A) x d : last (x :: l) d = last l x.
Proof. revert x d. induction l as [|y l IH]; intros x d; [reflexivity|]. change (last (x :: y :: l) d) with (last (y :: l) d). rewrite !IH. reflexivity. Qed.

Lemma path_app h a l k : path h a (l ++ k) <-> path h a l /\ path h (last l a) k.
Proof.
  revert a. induction l as [|x l IH]; intros a.
  - cbn. tauto.
  - cbn [app path]. rewrite IH, last_cons. tauto.
Qed.

Lemma path_ext h h' a l :
  (forall q, In q (removelast (a :: l)) -> nxt h' q = nxt h q) ->
  (forall q, In q l -> prv h' q = prv h q) ->
  path h a l -> path h' a l.
Proof.
  revert a. induction l as [|x l IH]; intros a Hn Hp; [easy|].
  cbn [path]. intros [Hl Hr]. split.
  - apply link_iff in Hl. apply link_iff.
    rewrite Hn, Hp; [exact Hl|now left|now left].
  - apply IH; [| |exact Hr].
    + intros q Hq. apply Hn. right. exact Hq.
    + intros q Hq. apply Hp. now right.
Qed.

Lemma in_removelast {A} (q : A) l : In q (removelast l) -> In q l.
Proof.
  induction l as [|x l IH]; [easy|]. cbn [removelast]. destruct l as [|y l]; [easy|].
  intros [->|H]; [now left|right; auto].
Qed.

Lemma last_in {A} (l : list A) a : In (last l a) (a :: l).
Proof.
  revert a. induction l as [|x l IH]; intros a; [now left|].
  rewrite last_cons. right. apply IH.
Qed.

Lemma last_not_in_removelast {A} (l : list A) a : NoDup (a :: l) -> ~ In (last l a) (removelast (a :: l)).
Proof.
  revert a. induction l as [|x l IH]; intros a Hd; [cbn; tauto|].
  rewrite last_cons. cbn [removelast]. inversion Hd as [|? ? Hni Hd']; subst.
  intros [E|Hi].
  - apply Hni. rewrite E. apply last_in.
  - exact (IH x Hd' Hi).
Qed.

Lemma path_live_r h a l q : path h a l -> In q l -> live h q.
Proof.
  revert a. induction l as [|x l IH]; intros a; [easy|]. cbn [path].
  intros [Hl Hr] [->|Hi]; [|eauto]. apply link_iff in Hl. eapply live_prv, Hl.
Qed.

(** * Chains *)
Ltac Zify.zify_post_hook ::= Z.div_mod_to_equations.

Lemma wadd_wrap a b : wadd (wrap a) b = wrap (a + b).
Proof. unfold wadd, wrap. change (2^64) with 18446744073709551616. lia. Qed.
Lemma wadd_wrap2 a b : wadd (wrap a) (wrap b) = wrap (a + b).
Proof. unfold wadd, wrap. change (2^64) with 18446744073709551616. lia. Qed.
Lemma wsub_wrap a b : b < 2^64 -> wsub (wrap (a + b)) b = wrap a.
Proof. unfold wsub, wrap. change (2^64) with 18446744073709551616. lia. Qed.
Lemma wsub_wrap2 a b : wsub (wrap (a + b)) (wrap b) = wrap a.
Proof. unfold wsub, wrap. change (2^64) with 18446744073709551616. lia. Qed.

Ltac Zify.zify_post_hook ::= idtac.

Definition eok (h : heap) (e : ptr -> option (N * N)) (x : ptr) : Prop :=
  exists d n, e x = Some (d, n) /\ n < 2^64 /\ a0 h x = Some d /\ a1 h x = Some n.

Definition chain (h : heap) (e : ptr -> option (N * N)) (c : ptr) (l : list ptr) : Prop :=
  path h c (l ++ [c]) /\ NoDup (c :: l) /\
  a0 h c = Some (wrap (N.of_nat (length l))) /\ a1 h c = Some (wrap (total e l)) /\
  Forall (eok h e) l.

Lemma total_app e l k : total e (l ++ k) = total e l + total e k.
Proof. induction l as [|x l IH]; cbn [app total]; [reflexivity|]. rewrite IH. lia. Qed.

Lemma total_ext e e' l : (forall q, In q l -> e' q = e q) -> total e' l = total e l.
Proof.
  induction l as [|x l IH]; intros H; [reflexivity|]. cbn [total].
  rewrite (H x) by now left. rewrite IH; [reflexivity|]. intros q Hq. apply H. now right.
Qed.

Lemma chain_frame h h' e e' c l :
  (forall q, In q (c :: l) -> same_at h h' q) -> (forall q, In q l -> e' q = e q) ->
  chain h e c l -> chain h' e' c l.
Proof.
  intros Hs He (Hp & Hd & H0 & H1 & Hf). split; [|split; [|split; [|split]]].
  - revert Hp. apply path_ext.
    + intros q Hq. change (c :: l ++ [c]) with ((c :: l) ++ [c]) in Hq. rewrite removelast_last in Hq.
      apply Hs, Hq.
    + intros q Hq. apply Hs. apply in_app_or in Hq. destruct Hq as [Hq|[<-|[]]]; [now right|now left].
  - exact Hd.
  - rewrite <- H0. apply Hs. now left.
  - rewrite (total_ext e e' l He), <- H1. apply Hs. now left.
  - rewrite Forall_forall in *. intros x Hx. destruct (Hf x Hx) as (d & n & A & B & C & D).
    exists d, n. rewrite He by assumption. destruct (Hs x (or_intror Hx)) as (_ & _ & -> & ->). auto.
Qed.

Lemma hd_app_ring {A} (l : list A) c : exists r, l ++ [c] = hd c l :: r /\ removelast (hd c l :: r) = l /\
  (forall x, In x r -> In x (tl l) \/ x = c /\ l <> []).
Proof.
  destruct l as [|x l]; cbn [hd tl app].
  - exists []. repeat split. easy.
  - exists (l ++ [c]). split; [reflexivity|]. split.
    + exact (removelast_last (x :: l) c).
    + intros y Hy. apply in_app_or in Hy. destruct Hy as [|[->|[]]]; [now left|right]. split; congruence.
Qed.

Lemma NoDup_mid {A} (a : A) l k : NoDup (a :: l ++ k) ->
  NoDup (a :: l) /\ NoDup k /\ ~ In a k /\ (forall x, In x l -> ~ In x k).
Proof.
  intros H. inversion H as [|? ? Hn Hd]; subst.
  rewrite in_app_iff in Hn.
  assert (NoDup l /\ NoDup k /\ forall x, In x l -> ~ In x k) as (H1 & H2 & H3).
  { clear -Hd. induction l as [|y l IH]; cbn in *; [split; [constructor|]; split; [assumption|easy]|].
    inversion Hd as [|? ? Hn Hd']; subst. destruct (IH Hd') as (A1 & A2 & A3). rewrite in_app_iff in Hn.
    split; [constructor; tauto|]. split; [assumption|]. intros x [->|Hx]; [tauto|auto]. }
  repeat split; auto. constructor; tauto.
Qed.

Lemma hd_in {A} (l : list A) c : In (hd c l) (c :: l).
Proof. destruct l; cbn; auto. Qed.

Lemma eqb_f (a b : N) : a <> b -> (a =? b) = false.
Proof. apply N.eqb_neq. Qed.

Lemma insert_chain h e c l1 l2 new d n :
  chain h e c (l1 ++ l2) -> ~ In new (c :: l1 ++ l2) ->
  e new = Some (d, n) -> n < 2^64 -> a0 h new = Some d -> a1 h new = Some n ->
  exists h', wb_insert h c new (last l1 c) (hd c l2) = Ret h' /\
    chain h' e c (l1 ++ new :: l2) /\
    (forall q, ~ In q (c :: l1 ++ new :: l2) -> same_at h h' q) /\
    (forall q, q <> c -> a0 h' q = a0 h q /\ a1 h' q = a1 h q) /\
    (forall q, live h' q <-> live h q).
Proof.
  intros (Hp & Hd & H0 & H1 & Hf) Hni He Hn64 Ha0 Ha1.
  rewrite <- app_assoc in Hp. apply path_app in Hp as [Hp1 Hp2].
  destruct (hd_app_ring l2 c) as (r & Er & Erl & Hr). rewrite Er in Hp2. cbn [path] in Hp2.
  destruct Hp2 as [Hl Hp2]. apply link_iff in Hl. destruct Hl as [Hl1 Hl2].
  assert (Hnc : new <> c) by (intros ->; apply Hni; now left).
  destruct (wb_insert_spec h c new (last l1 c) (hd c l2) _ _ _
     (live_nxt _ _ _ Hl1) (live_prv _ _ _ Hl2) H0 H1 Ha1 Hnc) as (h' & Ei & N1 & P1 & Z0 & Z1 & Lv).
  destruct (NoDup_mid _ _ _ Hd) as (D1 & D2 & D3 & D4).
  assert (Hpin : In (last l1 c) (c :: l1)) by apply last_in.
  assert (Hnin : In (hd c l2) (c :: l2)) by apply hd_in.
  assert (Hpn : last l1 c <> new).
  { intros E. apply Hni. rewrite <- E. cbn in Hpin |- *. rewrite in_app_iff. tauto. }
  assert (Hnn : hd c l2 <> new).
  { intros E. apply Hni. rewrite <- E. cbn in Hnin |- *. rewrite in_app_iff. tauto. }
  assert (Hnl1 : ~ In (hd c l2) l1).
  { destruct l2 as [|y l2]; cbn; [now inversion D1|]. intros Hi. apply (D4 _ Hi). now left. }
  exists h'. split; [exact Ei|]. split; [|split; [|split]].
  - split; [|split; [|split; [|split]]].
    + rewrite <- app_assoc. cbn [app]. apply path_app. split.
      * revert Hp1. apply path_ext.
        -- intros q Hq. rewrite N1.
           rewrite (eqb_f q (last l1 c)) by (intros ->; exact (last_not_in_removelast _ _ D1 Hq)).
           rewrite (eqb_f q new); [reflexivity|]. intros ->. apply Hni.
           apply in_removelast in Hq. cbn in Hq |- *. rewrite in_app_iff. tauto.
        -- intros q Hq. rewrite P1. rewrite (eqb_f q (hd c l2)) by congruence.
           rewrite (eqb_f q new); [reflexivity|]. intros ->. apply Hni. cbn. rewrite in_app_iff. tauto.
      * cbn [path]. split.
        -- apply link_iff. rewrite N1, P1, N.eqb_refl. rewrite (eqb_f new (hd c l2)) by congruence.
           rewrite N.eqb_refl. auto.
        -- rewrite Er. cbn [path]. split.
           ++ apply link_iff. rewrite N1, P1, N.eqb_refl, N.eqb_refl.
              rewrite (eqb_f new (last l1 c)) by congruence. auto.
           ++ revert Hp2. apply path_ext.
              ** rewrite Erl. intros q Hq. rewrite N1.
                 rewrite (eqb_f q (last l1 c)).
                 2:{ intros ->. destruct Hpin as [E|Hi]; [rewrite <- E in Hq; auto|]. exact (D4 _ Hi Hq). }
                 rewrite (eqb_f q new); [reflexivity|]. intros ->. apply Hni. cbn. rewrite in_app_iff. tauto.
              ** intros q Hq. rewrite P1. apply Hr in Hq.
                 assert (q <> hd c l2 /\ q <> new) as [X1 X2].
                 { destruct l2 as [|y l2]; cbn in *; [now destruct Hq|].
                   destruct Hq as [Hq|[-> _]].
                   - split; [intros ->; now inversion D2|]. intros ->. apply Hni. rewrite in_app_iff. cbn. tauto.
                   - split; [intros ->; tauto|congruence]. }
                 now rewrite (eqb_f _ _ X1), (eqb_f _ _ X2).
    + apply NoDup_Add with (a := new) (l := c :: l1 ++ l2).
      * change (c :: l1 ++ new :: l2) with ((c :: l1) ++ new :: l2). apply (Add_app new (c :: l1) l2).
      * split; assumption.
    + rewrite Z0, N.eqb_refl. rewrite wadd_wrap. do 2 f_equal.
      rewrite !app_length. cbn [length]. lia.
    + rewrite Z1, N.eqb_refl. rewrite wadd_wrap. do 2 f_equal.
      rewrite !total_app. cbn [total]. rewrite He. lia.
    + assert (Hx : forall x, In x (l1 ++ l2) -> eok h' e x).
      { intros x Hx. rewrite Forall_forall in Hf. destruct (Hf x Hx) as (d' & n' & A & B & C & D).
        exists d', n'. rewrite Z0, Z1. rewrite (eqb_f x c); [auto|]. intros ->. now inversion Hd. }
      apply Forall_forall. intros x Hi. apply in_app_or in Hi. destruct Hi as [Hi|[<-|Hi]].
      * apply Hx, in_or_app. now left.
      * exists d, n. rewrite Z0, Z1, (eqb_f new c) by assumption. auto.
      * apply Hx, in_or_app. now right.
  - intros q Hq. unfold same_at. rewrite N1, P1, Z0, Z1.
    cbn in Hq. rewrite in_app_iff in Hq. cbn in Hq.
    rewrite (eqb_f q (last l1 c)) by (intros ->; cbn in Hpin; tauto).
    rewrite (eqb_f q new) by (intros ->; tauto).
    rewrite (eqb_f q (hd c l2)) by (intros ->; cbn in Hnin; tauto).
    rewrite (eqb_f q c) by (intros ->; tauto). auto.
  - intros q Hq. rewrite Z0, Z1, (eqb_f q c) by assumption. auto.
  - exact Lv.
Qed.

Lemma unlink_chain h e c l1 l2 x :
  chain h e c (l1 ++ x :: l2) ->
  exists h', wb_unlink h c x = Ret h' /\
    chain h' e c (l1 ++ l2) /\
    (forall q, ~ In q (c :: l1 ++ l2) -> same_at h h' q) /\
    (forall q, q <> c -> a0 h' q = a0 h q /\ a1 h' q = a1 h q) /\
    (forall q, live h' q <-> live h q).
Proof.
  intros (Hp & Hd & H0 & H1 & Hf).
  rewrite <- app_assoc in Hp. cbn [app] in Hp. apply path_app in Hp as [Hp1 Hp2].
  cbn [path] in Hp2. destruct Hp2 as [Hl Hp2].
  destruct (hd_app_ring l2 c) as (r & Er & Erl & Hr). rewrite Er in Hp2. cbn [path] in Hp2.
  destruct Hp2 as [Hm Hp2]. apply link_iff in Hl, Hm. destruct Hl as [Hl1 Hl2]. destruct Hm as [Hm1 Hm2].
  assert (Hex : eok h e x) by (rewrite Forall_forall in Hf; apply Hf, in_or_app; right; now left).
  destruct Hex as (d & n & He & Hn64 & Ha0 & Ha1).
  assert (Hd2 : NoDup (c :: l1 ++ l2) /\ ~ In x (c :: l1 ++ l2)).
  { apply (NoDup_Add (a := x) (l := c :: l1 ++ l2)) in Hd; [exact Hd|].
    change (c :: l1 ++ x :: l2) with ((c :: l1) ++ x :: l2). apply (Add_app x (c :: l1) l2). }
  destruct Hd2 as [Hd2 Hni].
  assert (Hxc : x <> c) by (intros ->; apply Hni; now left).
  destruct (wb_unlink_spec h c x _ _ _ _ _ H0 H1 Ha1 Hm1 Hl2 (live_prv _ _ _ Hm2) (live_nxt _ _ _ Hl1) Hxc)
    as (h' & Ei & N1 & P1 & Z0 & Z1 & Lv).
  destruct (NoDup_mid _ _ _ Hd2) as (D1 & D2 & D3 & D4).
  assert (Hpin : In (last l1 c) (c :: l1)) by apply last_in.
  assert (Hnin : In (hd c l2) (c :: l2)) by apply hd_in.
  assert (Hnl1 : ~ In (hd c l2) l1).
  { destruct l2 as [|y l2]; cbn; [now inversion D1|]. intros Hi. apply (D4 _ Hi). now left. }
  exists h'. split; [exact Ei|]. split; [|split; [|split]].
  - split; [|split; [|split; [|split]]].
    + rewrite <- app_assoc. apply path_app. split.
      * revert Hp1. apply path_ext.
        -- intros q Hq. rewrite N1.
           rewrite (eqb_f q (last l1 c)) by (intros ->; exact (last_not_in_removelast _ _ D1 Hq)). reflexivity.
        -- intros q Hq. rewrite P1. rewrite (eqb_f q (hd c l2)) by congruence. reflexivity.
      * rewrite Er. cbn [path]. split.
        -- apply link_iff. rewrite N1, P1, N.eqb_refl, N.eqb_refl. auto.
        -- revert Hp2. apply path_ext.
           ++ rewrite Erl. intros q Hq. rewrite N1.
              rewrite (eqb_f q (last l1 c)); [reflexivity|].
              intros ->. destruct Hpin as [E|Hi]; [rewrite <- E in Hq; auto|]. exact (D4 _ Hi Hq).
           ++ intros q Hq. rewrite P1. apply Hr in Hq.
              assert (q <> hd c l2) as X1.
              { destruct l2 as [|y l2]; cbn in *; [now destruct Hq|].
                destruct Hq as [Hq|[-> _]]; [intros ->; now inversion D2|intros ->; tauto]. }
              now rewrite (eqb_f _ _ X1).
    + exact Hd2.
    + rewrite Z0, N.eqb_refl. f_equal.
      replace (N.of_nat (length (l1 ++ x :: l2))) with (N.of_nat (length (l1 ++ l2)) + 1)
        by (rewrite !app_length; cbn [length]; lia).
      apply wsub_wrap. reflexivity.
    + rewrite Z1, N.eqb_refl. f_equal.
      replace (total e (l1 ++ x :: l2)) with (total e (l1 ++ l2) + n)
        by (rewrite !total_app; cbn [total]; rewrite He; lia).
      apply wsub_wrap. exact Hn64.
    + apply Forall_forall. intros y Hy.
      assert (Hy' : In y (l1 ++ x :: l2)) by (rewrite in_app_iff in *; cbn; tauto).
      rewrite Forall_forall in Hf. destruct (Hf y Hy') as (d' & n' & A & B & C & D).
      exists d', n'. rewrite Z0, Z1. rewrite (eqb_f y c); [auto|]. intros ->. now inversion Hd2.
  - intros q Hq. unfold same_at. rewrite N1, P1, Z0, Z1.
    cbn in Hq. rewrite in_app_iff in Hq.
    rewrite (eqb_f q (last l1 c)) by (intros ->; cbn in Hpin; tauto).
    rewrite (eqb_f q (hd c l2)) by (intros ->; cbn in Hnin; tauto).
    rewrite (eqb_f q c) by (intros ->; tauto). auto.
  - intros q Hq. rewrite Z0, Z1, (eqb_f q c) by assumption. auto.
  - exact Lv.
Qed.

Lemma last_app_one {A} (l : list A) x d : last (l ++ [x]) d = x.
Proof. apply last_last. Qed.

(** the ring seen from its end: the head's [prev] is the last element *)
Lemma chain_ends h e c l : chain h e c l ->
  nxt h c = Some (hd c l) /\ prv h c = Some (last l c) /\ live h c.
Proof.
  intros (Hp & _ & H0 & _). pose proof (live_a0 _ _ _ H0) as L.
  split; [|split; [|exact L]].
  - destruct (hd_app_ring l c) as (r & Er & _). rewrite Er in Hp. cbn [path] in Hp.
    destruct Hp as [Hl _]. now apply link_iff in Hl.
  - apply path_app in Hp as [_ Hp]. cbn [path] in Hp. destruct Hp as [Hl _]. now apply link_iff in Hl.
Qed.

Lemma chain_live h e c l q : chain h e c l -> In q (c :: l) -> live h q.
Proof.
  intros (Hp & _ & _ & _) Hq. apply (path_live_r _ _ _ _ Hp). rewrite in_app_iff. cbn in *. tauto.
Qed.

Definition disjoint (l k : list ptr) : Prop := forall x, In x l -> ~ In x k.

Lemma NoDup_app_intro {A} (l k : list A) : NoDup l -> NoDup k -> (forall x, In x l -> ~ In x k) -> NoDup (l ++ k).
Proof.
  induction l as [|x l IH]; intros Hl Hk Hd; [exact Hk|]. inversion Hl; subst. cbn. constructor.
  - rewrite in_app_iff. intros [|Hx]; [tauto|]. apply (Hd x); [now left|exact Hx].
  - apply IH; auto. intros y Hy. apply Hd. now right.
Qed.

Lemma forall_eok_frame h h' e l :
  (forall q, In q l -> a0 h' q = a0 h q /\ a1 h' q = a1 h q) -> Forall (eok h e) l -> Forall (eok h' e) l.
Proof.
  rewrite !Forall_forall. intros H Hf x Hx. destruct (Hf x Hx) as (d & n & A & B & C & D).
  exists d, n. destruct (H x Hx) as [-> ->]. auto.
Qed.

Lemma in_tl {A} (x : A) l : In x (tl l) -> In x l.
Proof. destruct l; cbn; tauto. Qed.

Lemma splice_chain h e a b la lb :
  chain h e a la -> chain h e b lb -> disjoint (a :: la) (b :: lb) -> 
  exists h', wb_splice h a b = Ret h' /\
    chain h' e b (lb ++ la) /\ chain h' e a [] /\
    (forall q, ~ In q (a :: la) -> ~ In q (b :: lb) -> same_at h h' q) /\
    (forall q, q <> a -> q <> b -> a0 h' q = a0 h q /\ a1 h' q = a1 h q) /\
    (forall q, live h' q <-> live h q).
Proof.
  intros Ca Cb Hdis.
  assert (Hab : a <> b) by (intros ->; apply (Hdis b); now left).
  destruct (chain_ends _ _ _ _ Ca) as (An & Ap & Al). destruct (chain_ends _ _ _ _ Cb) as (Bn & Bp & Bl).
  destruct la as [|f la].
  - (* empty list: nothing happens *)
    unfold wb_splice, wb_empty. destruct (rd_spec h a Al) as (c & E & _ & S1 & _). rewrite E. cbn [obind].
    rewrite An in S1. injection S1 as S1. cbn [hd] in S1. rewrite <- S1, N.eqb_refl.
    exists h. split; [reflexivity|]. rewrite app_nil_r.
    split; [exact Cb|]. split; [exact Ca|]. unfold same_at. intuition.
  - pose proof Ca as (Pa & Da & A0 & A1 & Fa). pose proof Cb as (Pb & Db & B0 & B1 & Fb).
    cbn [hd] in An.
    assert (Hfa : f <> a) by (intros ->; inversion Da; cbn in *; tauto).
    set (la' := f :: la) in *.
    assert (Hlast : In (last la' a) la') by (unfold la'; rewrite last_cons; apply last_in).
    assert (Hlb : In (last lb b) (b :: lb)) by apply last_in.
    destruct (wb_splice_spec h a b (last la' a) f (last lb b) _ _ _ _ A0 A1 B0 B1 An Ap Bp)
      as (h' & Ei & N1 & P1 & Z0 & Z1 & Lv); auto.
    { apply (chain_live _ _ _ _ _ Ca). unfold la'. cbn; tauto. }
    { apply (chain_live _ _ _ _ _ Ca). now right. }
    { apply (chain_live _ _ _ _ _ Cb). exact Hlb. }
    assert (Xa : forall q, In q la' -> q <> a) by (intros q Hq ->; now inversion Da).
    assert (Xb : forall q, In q lb -> q <> b) by (intros q Hq ->; now inversion Db).
    assert (Xab : forall q, In q la' -> ~ In q (b :: lb)) by (intros q Hq; apply Hdis; now right).
    assert (Xba : forall q, In q (b :: lb) -> q <> a) by (intros q Hq ->; apply (Hdis a); [now left|exact Hq]).
    exists h'. split; [exact Ei|]. split; [|split; [|split; [|split]]].
    + split; [|split; [|split; [|split]]].
      * rewrite <- app_assoc. apply path_app. apply path_app in Pb as [Pb1 Pb2].
        unfold la' in Pa. cbn [app path] in Pa. destruct Pa as [Pa1 Pa2].
        split; [|change (la' ++ [b]) with (f :: la ++ [b]); cbn [path]; split].
        -- revert Pb1. apply path_ext.
           ++ intros q Hq. rewrite N1.
              assert (In q (b :: lb)) by now apply in_removelast in Hq.
              rewrite (eqb_f q a) by auto.
              rewrite (eqb_f q (last la' a)) by (intros ->; eapply Xab; eauto).
              rewrite (eqb_f q (last lb b)) by (intros ->; exact (last_not_in_removelast _ _ Db Hq)). reflexivity.
           ++ intros q Hq. rewrite P1. rewrite (eqb_f q a) by (apply Xba; now right).
              rewrite (eqb_f q b) by auto.
              rewrite (eqb_f q f); [reflexivity|]. intros ->. apply (Xab f); [now left|now right].
        -- apply link_iff. rewrite N1, P1.
           rewrite (eqb_f (last lb b) a) by auto.
           rewrite (eqb_f (last lb b) (last la' a)) by (intros E; apply (Xab (last la' a)); [auto|rewrite <- E; auto]).
           rewrite N.eqb_refl. rewrite (eqb_f f a) by auto.
           rewrite (eqb_f f b) by (intros ->; apply (Xab b); now left). rewrite N.eqb_refl. auto.
        -- apply path_app in Pa2 as [Pa2 Pa3]. apply path_app. split.
           ++ revert Pa2. apply path_ext.
              ** intros q Hq. rewrite N1. assert (In q la') by now apply in_removelast in Hq.
                 rewrite (eqb_f q a) by auto.
                 rewrite (eqb_f q (last la' a)).
                 2:{ unfold la'. rewrite last_cons. intros ->. revert Hq. apply last_not_in_removelast.
                     now inversion Da. }
                 rewrite (eqb_f q (last lb b)); [reflexivity|]. intros ->. eapply Xab; eauto.
              ** intros q Hq. rewrite P1. assert (In q la') by now right. rewrite (eqb_f q a) by auto.
                 rewrite (eqb_f q b) by (intros ->; apply (Xab b); [auto|now left]).
                 rewrite (eqb_f q f); [reflexivity|]. intros ->. inversion Da as [|? ? _ D']. now inversion D'.
           ++ cbn [path]. split; [|exact I]. apply link_iff. rewrite N1, P1.
              assert (El : last la' a = last la f) by apply last_cons. rewrite <- El.
              rewrite (eqb_f (last la' a) a) by auto. rewrite N.eqb_refl.
              rewrite (eqb_f b a) by auto. rewrite N.eqb_refl. auto.
      * apply (NoDup_app_intro (b :: lb) la'); [exact Db|now inversion Da|]. intros x Hx Hx'. exact (Xab x Hx' Hx).
      * rewrite Z0, (eqb_f b a), N.eqb_refl by auto. rewrite wadd_wrap2. do 2 f_equal. rewrite app_length. lia.
      * rewrite Z1, (eqb_f b a), N.eqb_refl by auto. rewrite wadd_wrap2. do 2 f_equal. rewrite total_app. lia.
      * apply Forall_app. split; (eapply forall_eok_frame; [|eassumption]); intros q Hq; rewrite Z0, Z1.
        -- rewrite (eqb_f q a), (eqb_f q b); auto. apply Xba. now right.
        -- rewrite (eqb_f q a), (eqb_f q b); auto. intros ->. apply (Xab b); [auto|now left].
    + split; [|split; [|split; [|split]]].
      * cbn [app path]. split; [|exact I]. apply link_iff. rewrite N1, P1, N.eqb_refl. auto.
      * repeat constructor. easy.
      * rewrite Z0, N.eqb_refl. reflexivity.
      * rewrite Z1, N.eqb_refl. reflexivity.
      * constructor.
    + intros q Ha Hb. unfold same_at. rewrite N1, P1, Z0, Z1.
      rewrite (eqb_f q a) by (intros ->; apply Ha; now left).
      rewrite (eqb_f q b) by (intros ->; apply Hb; now left).
      rewrite (eqb_f q (last la' a)) by (intros ->; apply Ha; now right).
      rewrite (eqb_f q (last lb b)) by (intros ->; auto).
      rewrite (eqb_f q f) by (intros ->; apply Ha; right; now left). auto.
    + intros q Ha Hb. rewrite Z0, Z1, (eqb_f q a), (eqb_f q b) by assumption. auto.
    + exact Lv.
Qed.

Lemma tail_count_spec fuel h e f p l tl tq :
  path h p (l ++ [f]) -> NoDup (f :: p :: l) -> Forall (eok h e) (p :: l) -> (length l + 1 < fuel)%nat ->
  wb_tail_count fuel h f p (wrap tl) (wrap tq)
  = Ret (wrap (tl + total e (p :: l)), wrap (tq + N.of_nat (length (p :: l)))).
Proof.
  revert p l tl tq. induction fuel as [|fuel IH]; intros p l tl tq Hp Hd Hf Hfu; [lia|].
  cbn [wb_tail_count]. inversion Hd as [|? ? Hni Hd']; subst.
  rewrite (eqb_f p f) by (intros ->; apply Hni; now left).
  inversion Hf as [|? ? (d & n & He & Hn & Ha0 & Ha1) Hf']; subst.
  destruct (rd_spec h p (live_a0 _ _ _ Ha0)) as (c & -> & _ & S1 & _ & _ & S4). cbn [obind].
  rewrite Ha1 in S4. injection S4 as <-.
  rewrite !wadd_wrap. destruct l as [|q l].
  - cbn [app path] in Hp. destruct Hp as [Hl _]. apply link_iff in Hl as [Hl _]. rewrite Hl in S1.
    injection S1 as <-. destruct fuel as [|fuel']; [cbn in Hfu; lia|]. cbn [wb_tail_count]. rewrite N.eqb_refl.
    cbn [total length]. rewrite He. apply f_equal, f_equal2; apply f_equal; lia.
  - cbn [app path] in Hp. destruct Hp as [Hl Hp]. apply link_iff in Hl as [Hl _]. rewrite Hl in S1.
    injection S1 as <-. rewrite (IH q l (tl + n) (tq + 1)).
    + cbn [total length]. rewrite He. apply f_equal, f_equal2; apply f_equal; lia.
    + exact Hp.
    + constructor; [intros Hi; apply Hni; now right|now inversion Hd'].
    + exact Hf'.
    + cbn [length] in Hfu. lia.
Qed.

Lemma split_chain fuel h e t f wbe0 l1 x l2 lt :
  chain h e f (l1 ++ x :: l2) -> chain h e t lt -> disjoint (f :: l1 ++ x :: l2) (t :: lt) ->
  (wbe0 = x \/ wbe0 = f /\ l1 = []) -> (length l2 + 1 < fuel)%nat ->
  exists h', wb_split_and_append fuel h t f wbe0 = Ret h' /\
    chain h' e t (lt ++ x :: l2) /\ chain h' e f l1 /\
    (forall q, ~ In q (f :: l1 ++ x :: l2) -> ~ In q (t :: lt) -> same_at h h' q) /\
    (forall q, q <> f -> q <> t -> a0 h' q = a0 h q /\ a1 h' q = a1 h q) /\
    (forall q, live h' q <-> live h q).
Proof.
  intros Cf Ct Hdis Hw Hfuel.
  assert (Htf : t <> f) by (intros ->; apply (Hdis f); now left).
  destruct (chain_ends _ _ _ _ Cf) as (Fn & Fp & Fl). destruct (chain_ends _ _ _ _ Ct) as (Tn & Tp & Tl).
  pose proof Cf as (Pf & Df & F0 & F1 & Ff). pose proof Ct as (Pt & Dt & T0 & T1 & Ft).
  rewrite <- app_assoc in Pf. apply path_app in Pf as [Pf1 Pf2]. cbn [app path] in Pf2.
  destruct Pf2 as [Pf2 Pf3].
  set (full := l1 ++ x :: l2) in *.
  assert (Hxin : In x full) by (unfold full; rewrite in_app_iff; right; now left).
  assert (Xf : forall q, In q full -> q <> f) by (intros q Hq ->; now inversion Df).
  assert (Xt : forall q, In q lt -> q <> t) by (intros q Hq ->; now inversion Dt).
  assert (Xft : forall q, In q (f :: full) -> ~ In q (t :: lt)) by (intros q Hq; apply Hdis; exact Hq).
  assert (Efl : last full f = last l2 x).
  { unfold full. rewrite <- (last_cons (l1 ++ x :: l2) f f).
    change (f :: l1 ++ x :: l2) with ((f :: l1) ++ x :: l2).
    clear. generalize (f :: l1). intros k. generalize f as d.
    induction k as [|y k IH]; intros d; [apply last_cons|].
    cbn [app]. rewrite last_cons. apply IH. }
  destruct (NoDup_mid f l1 (x :: l2) Df) as (D1 & D2 & D3 & D4).
  assert (Efn : hd f full = (if f =? wbe0 then x else hd f full)).
  { destruct (N.eqb_spec f wbe0) as [E|E]; [|reflexivity]. destruct Hw as [->|[_ ->]]; [|reflexivity].
    exfalso. apply (Xf x Hxin). congruence. }
  assert (Ewbe : x = (if f =? wbe0 then hd f full else wbe0)).
  { destruct Hw as [->|[-> ->]].
    - now rewrite (eqb_f f x) by (intros E; apply (Xf x Hxin); congruence).
    - now rewrite N.eqb_refl. }
  assert (Hfx : In (last l2 x) (x :: l2)) by apply last_in.
  assert (Hlfull : In (last l2 x) full) by (unfold full; rewrite in_app_iff; right; exact Hfx).
  assert (Htl : In (last lt t) (t :: lt)) by apply last_in.
  assert (Hl1 : In (last l1 f) (f :: l1)) by apply last_in.
  apply link_iff in Pf2 as [K1 K2].
  assert (Hcnt : wb_tail_count fuel h f x 0 0 =
     Ret (wrap (total e (x :: l2)), wrap (N.of_nat (length (x :: l2))))).
  { change 0 with (wrap 0) at 1 2. rewrite (tail_count_spec fuel h e f x l2 0 0); [reflexivity|exact Pf3| | |exact Hfuel].
    - constructor; assumption.
    - unfold full in Ff. apply Forall_app in Ff. tauto. }
  assert (Hhd : hd f full <> f) by (apply Xf; unfold full; destruct l1; cbn; auto).
  assert (L1 : live h (last lt t)) by (apply (chain_live _ _ _ _ _ Ct); exact Htl).
  assert (L2 : live h (last full f)) by (apply (chain_live _ _ _ _ _ Cf); apply last_in).
  assert (L3 : live h (last l1 f)) by exact (live_nxt _ _ _ K1).
  destruct (wb_split_spec fuel h t f wbe0 x (last lt t) (last full f) (hd f full) (last l1 f)
     _ _ _ _ _ _ F0 F1 T0 T1 Tp Fp Fn Hhd Ewbe K2 Hcnt L1 L2 L3 Htf) as (h' & Ei & N1 & P1 & Z0 & Z1 & Lv).
  rewrite Efl in N1, P1.
  assert (Y1 : last l2 x <> last l1 f).
  { intros E. rewrite E in Hfx. destruct Hl1 as [E'|Hi]; [rewrite <- E' in Hfx; tauto|]. exact (D4 _ Hi Hfx). }
  assert (Hl1f : In (last l1 f) (f :: full)).
  { unfold full. cbn in Hl1 |- *. rewrite in_app_iff. tauto. }
  exists h'. split; [exact Ei|]. split; [|split; [|split; [|split]]].
  - split; [|split; [|split; [|split]]].
    + rewrite <- app_assoc. apply path_app. apply path_app in Pt as [Pt1 Pt2]. split; [|cbn [app path]; split].
      * revert Pt1. apply path_ext.
        -- intros q Hq. assert (In q (t :: lt)) by now apply in_removelast in Hq. rewrite N1.
           rewrite (eqb_f q (last lt t)) by (intros ->; exact (last_not_in_removelast _ _ Dt Hq)).
           rewrite (eqb_f q (last l2 x)) by (intros ->; apply (Xft (last l2 x)); [now right|auto]).
           rewrite (eqb_f q (last l1 f)) by (intros ->; exact (Xft _ Hl1f H)). reflexivity.
        -- intros q Hq. rewrite P1.
           rewrite (eqb_f q x) by (intros ->; apply (Xft x); [now right|now right]).
           rewrite (eqb_f q t) by auto.
           rewrite (eqb_f q f); [reflexivity|]. intros ->. apply (Xft f); [now left|now right].
      * apply link_iff. rewrite N1, P1, !N.eqb_refl. auto.
      * apply path_app in Pf3 as [Pf3 _]. apply path_app. split.
        -- revert Pf3. apply path_ext.
           ++ intros q Hq. assert (Hqx : In q (x :: l2)) by now apply in_removelast in Hq. rewrite N1.
              assert (In q full) by (unfold full; rewrite in_app_iff; now right).
              rewrite (eqb_f q (last lt t)) by (intros ->; apply (Xft (last lt t)); [now right|auto]).
              rewrite (eqb_f q (last l2 x)) by (intros ->; exact (last_not_in_removelast _ _ D2 Hq)).
              rewrite (eqb_f q (last l1 f)); [reflexivity|]. intros ->.
              destruct Hl1 as [E|Hi]; [rewrite <- E in *; tauto|]. exact (D4 _ Hi Hqx).
           ++ intros q Hq. assert (In q full) by (unfold full; rewrite in_app_iff; right; now right). rewrite P1.
              rewrite (eqb_f q x) by (intros ->; now inversion D2).
              rewrite (eqb_f q t) by (intros ->; apply (Xft t); [now right|now left]).
              rewrite (eqb_f q f) by auto. reflexivity.
        -- cbn [path]. split; [|exact I]. apply link_iff. rewrite N1, P1.
           rewrite (eqb_f (last l2 x) (last lt t)) by (intros E; apply (Xft (last lt t)); [rewrite <- E; now right|auto]).
           rewrite N.eqb_refl.
           rewrite (eqb_f t x) by (intros E; apply (Xft x); [now right|rewrite <- E; now left]).
           rewrite N.eqb_refl. auto.
    + apply (NoDup_app_intro (t :: lt) (x :: l2)); [exact Dt|exact D2|].
      intros q Hq Hq'. apply (Xft q); [right; unfold full; rewrite in_app_iff; now right|exact Hq].
    + rewrite Z0, N.eqb_refl, wadd_wrap2. do 2 f_equal. rewrite app_length. lia.
    + rewrite Z1, N.eqb_refl, wadd_wrap2. do 2 f_equal. rewrite total_app. lia.
    + unfold full in Ff. apply Forall_app in Ff. apply Forall_app.
      split; (eapply forall_eok_frame; [|first [exact Ft|exact (proj2 Ff)]]); intros q Hq; rewrite Z0, Z1.
      * rewrite (eqb_f q t), (eqb_f q f); auto. intros ->. apply (Xft f); [now left|now right].
      * assert (In q full) by (unfold full; rewrite in_app_iff; now right).
        rewrite (eqb_f q t), (eqb_f q f); auto. intros ->. apply (Xft t); [now right|now left].
  - split; [|split; [|split; [|split]]].
    + apply path_app. split.
      * revert Pf1. apply path_ext.
        -- intros q Hq. assert (Hqf : In q (f :: l1)) by now apply in_removelast in Hq. rewrite N1.
           assert (In q (f :: full)) by (unfold full; cbn in *; rewrite in_app_iff; tauto).
           rewrite (eqb_f q (last lt t)) by (intros ->; apply (Xft (last lt t)); auto).
           rewrite (eqb_f q (last l2 x)).
           2:{ intros ->. destruct Hqf as [E|Hi]; [rewrite <- E in Hfx; tauto|]. exact (D4 _ Hi Hfx). }
           rewrite (eqb_f q (last l1 f)) by (intros ->; exact (last_not_in_removelast _ _ D1 Hq)). reflexivity.
        -- intros q Hq. assert (Hqf : In q full) by (unfold full; rewrite in_app_iff; now left). rewrite P1.
           rewrite (eqb_f q x) by (intros ->; apply (D4 x); [auto|now left]).
           rewrite (eqb_f q t) by (intros ->; apply (Xft t); [now right|now left]).
           rewrite (eqb_f q f) by auto. reflexivity.
      * cbn [path]. split; [|exact I]. apply link_iff. rewrite N1, P1.
        rewrite (eqb_f (last l1 f) (last lt t)) by (intros E; apply (Xft (last lt t)); [rewrite <- E; auto|auto]).
        rewrite (eqb_f (last l1 f) (last l2 x)) by congruence. rewrite N.eqb_refl.
        rewrite (eqb_f f x) by (intros E; apply D3; rewrite E; now left).
        rewrite (eqb_f f t), N.eqb_refl by congruence. auto.
    + exact D1.
    + rewrite Z0, (eqb_f f t), N.eqb_refl by congruence. f_equal.
      replace (N.of_nat (length full)) with (N.of_nat (length l1) + N.of_nat (length (x :: l2)))
        by (unfold full; rewrite app_length; lia). apply wsub_wrap2.
    + rewrite Z1, (eqb_f f t), N.eqb_refl by congruence. f_equal.
      unfold full. rewrite total_app. apply wsub_wrap2.
    + unfold full in Ff. apply Forall_app in Ff. eapply forall_eok_frame; [|exact (proj1 Ff)].
      intros q Hq. assert (Hqf : In q full) by (unfold full; rewrite in_app_iff; now left). rewrite Z0, Z1.
      rewrite (eqb_f q t), (eqb_f q f); auto. intros ->. apply (Xft t); [now right|now left].
  - intros q Hq1 Hq2. unfold same_at. rewrite N1, P1, Z0, Z1.
    rewrite (eqb_f q (last lt t)) by (intros ->; auto).
    rewrite (eqb_f q (last l2 x)) by (intros ->; apply Hq1; now right).
    rewrite (eqb_f q (last l1 f)) by (intros ->; auto).
    rewrite (eqb_f q x) by (intros ->; apply Hq1; now right).
    rewrite (eqb_f q t) by (intros ->; apply Hq2; now left).
    rewrite (eqb_f q f) by (intros ->; apply Hq1; now left). auto.
  - intros q Ha Hb. rewrite Z0, Z1, (eqb_f q f), (eqb_f q t) by assumption. auto.
  - exact Lv.
Qed.

(** * Refinement *)
Definition R (alloc : ptr -> Prop) (h : heap) (w : world) : Prop :=
  (forall p, alloc p -> p <> 0 /\ live h p) /\
  (forall c l, chains w c = Some l -> alloc c /\ chain h (elems w) c l /\ forall x, In x l -> alloc x) /\
  (forall p d n, elems w p = Some (d, n) ->
     alloc p /\ chains w p = None /\ n < 2^64 /\ a0 h p = Some d /\ a1 h p = Some n) /\
  (forall c1 c2 l1 l2, chains w c1 = Some l1 -> chains w c2 = Some l2 -> c1 <> c2 ->
     disjoint (c1 :: l1) (c2 :: l2)).

Lemma set_eq {A} (f : ptr -> option A) p v : set f p v p = v.
Proof. unfold set. now rewrite N.eqb_refl. Qed.
Lemma set_ne {A} (f : ptr -> option A) p v q : q <> p -> set f p v q = f q.
Proof. intros H. unfold set. now rewrite (eqb_f q p). Qed.

Lemma R_update alloc h w c l h' l' :
  R alloc h w -> chains w c = Some l -> chain h' (elems w) c l' -> (forall x, In x l' -> alloc x) ->
  (forall q, ~ In q (c :: l) -> ~ In q (c :: l') -> same_at h h' q) ->
  (forall q, q <> c -> a0 h' q = a0 h q /\ a1 h' q = a1 h q) ->
  (forall q, live h' q <-> live h q) ->
  (forall x, In x l' -> In x l \/ is_free w x) ->
  R alloc h' (with_chain w c l').
Proof.
  intros (Ra & Rc & Re & Rd) Ec Hc Hal Hs Hz Hl Hin.
  assert (Hdisj : forall c2 l2, chains w c2 = Some l2 -> c2 <> c -> disjoint (c :: l') (c2 :: l2)).
  { intros c2 l2 E2 Hne x Hx Hx2. destruct Hx as [<-|Hx].
    - exact (Rd _ _ _ _ Ec E2 (not_eq_sym Hne) c (or_introl eq_refl) Hx2).
    - destruct (Hin x Hx) as [Hi|[F1 F2]].
      + exact (Rd _ _ _ _ Ec E2 (not_eq_sym Hne) x (or_intror Hi) Hx2).
      + destruct Hx2 as [<-|Hx2]; [congruence|]. exact (F2 _ _ E2 Hx2). }
  split; [|split; [|split]].
  - intros p Hp. destruct (Ra p Hp). split; [assumption|]. now apply Hl.
  - intros c2 l2. unfold with_chain. cbn [chains elems]. destruct (N.eq_dec c2 c) as [->|Hne].
    + rewrite set_eq. intros [= <-]. split; [exact (proj1 (Rc _ _ Ec))|]. auto.
    + rewrite set_ne by assumption. intros E2. destruct (Rc _ _ E2) as (R1 & R2 & R3).
      split; [assumption|]. split; [|assumption]. revert R2. apply chain_frame; [|reflexivity].
      intros q Hq. apply Hs.
      * intros Hi. exact (Rd _ _ _ _ E2 Ec Hne q Hq Hi).
      * intros Hi. exact (Hdisj _ _ E2 Hne q Hi Hq).
  - intros p d n. unfold with_chain. cbn [chains elems]. intros Ep. destruct (Re _ _ _ Ep) as (R1 & R2 & R3 & R4 & R5).
    assert (Hpc : p <> c) by congruence. rewrite set_ne by assumption. destruct (Hz p Hpc) as [-> ->]. auto.
  - intros c1 c2 l1 l2. unfold with_chain. cbn [chains].
    destruct (N.eq_dec c1 c) as [->|H1], (N.eq_dec c2 c) as [->|H2];
      rewrite ?set_eq, ?set_ne by assumption; intros E1 E2 Hne.
    + congruence.
    + injection E1 as <-. eauto.
    + injection E2 as <-. intros x Hx Hx'. exact (Hdisj _ _ E1 H1 x Hx' Hx).
    + eauto.
Qed.

Lemma R_update2 alloc h w a b la lb h' la' lb' :
  R alloc h w -> chains w a = Some la -> chains w b = Some lb -> a <> b ->
  chain h' (elems w) a la' -> chain h' (elems w) b lb' -> disjoint (a :: la') (b :: lb') ->
  (forall x, In x la' -> In x la \/ In x lb) -> (forall x, In x lb' -> In x la \/ In x lb) ->
  (forall q, ~ In q (a :: la) -> ~ In q (b :: lb) -> same_at h h' q) ->
  (forall q, q <> a -> q <> b -> a0 h' q = a0 h q /\ a1 h' q = a1 h q) ->
  (forall q, live h' q <-> live h q) ->
  R alloc h' (with_chain (with_chain w b lb') a la').
Proof.
  intros (Ra & Rc & Re & Rd) Ea Eb Hab Ca Cb Hdab Hia Hib Hs Hz Hl.
  destruct (Rc _ _ Ea) as (A1 & A2 & A3). destruct (Rc _ _ Eb) as (B1 & B2 & B3).
  assert (Hd1 : forall c l, chains w c = Some l -> c <> a -> c <> b -> forall x, In x (c :: l) ->
    ~ In x (a :: la') /\ ~ In x (b :: lb') /\ ~ In x (a :: la) /\ ~ In x (b :: lb)).
  { intros c l Ec N1 N2 x Hx.
    assert (X1 : ~ In x (a :: la)) by exact (Rd _ _ _ _ Ec Ea N1 x Hx).
    assert (X2 : ~ In x (b :: lb)) by exact (Rd _ _ _ _ Ec Eb N2 x Hx).
    cbn in *. repeat split; try assumption.
    - intros [E|E]; [tauto|]. destruct (Hia _ E); tauto.
    - intros [E|E]; [tauto|]. destruct (Hib _ E); tauto. }
  split; [|split; [|split]].
  - intros p Hp. destruct (Ra p Hp). split; [assumption|]. now apply Hl.
  - intros c l. unfold with_chain. cbn [chains elems].
    destruct (N.eq_dec c a) as [->|Ha]; [rewrite set_eq|rewrite set_ne by assumption].
    + intros [= <-]. split; [assumption|]. split; [assumption|]. intros x Hx. destruct (Hia x Hx); auto.
    + destruct (N.eq_dec c b) as [->|Hb]; [rewrite set_eq|rewrite set_ne by assumption].
      * intros [= <-]. split; [assumption|]. split; [assumption|]. intros x Hx. destruct (Hib x Hx); auto.
      * intros Ec. destruct (Rc _ _ Ec) as (R1 & R2 & R3). split; [assumption|]. split; [|assumption].
        revert R2. apply chain_frame; [|reflexivity]. intros q Hq.
        destruct (Hd1 _ _ Ec Ha Hb q Hq) as (X1 & X2 & X3 & X4). auto.
  - intros p d n. unfold with_chain. cbn [chains elems]. intros Ep. destruct (Re _ _ _ Ep) as (R1 & R2 & R3 & R4 & R5).
    assert (p <> a) by congruence. assert (p <> b) by congruence.
    rewrite !set_ne by assumption. destruct (Hz p) as [-> ->]; auto.
  - intros c1 c2 l1 l2. unfold with_chain. cbn [chains].
    destruct (N.eq_dec c1 a) as [->|H1]; [rewrite set_eq|rewrite (set_ne _ a _ c1) by assumption];
    (destruct (N.eq_dec c2 a) as [->|H2]; [rewrite set_eq|rewrite (set_ne _ a _ c2) by assumption]).
    + congruence.
    + destruct (N.eq_dec c2 b) as [->|H3]; [rewrite set_eq|rewrite (set_ne _ b _ c2) by assumption]; intros [= <-] E2 Hne.
      * injection E2 as <-. exact Hdab.
      * intros x Hx Hx'. destruct (Hd1 _ _ E2 H2 H3 x Hx') as (X1 & X2 & X3 & X4). auto.
    + destruct (N.eq_dec c1 b) as [->|H3]; [rewrite set_eq|rewrite (set_ne _ b _ c1) by assumption]; intros E1 [= <-] Hne.
      * injection E1 as <-. intros x Hx Hx'. exact (Hdab x Hx' Hx).
      * intros x Hx Hx'. destruct (Hd1 _ _ E1 H1 H3 x Hx) as (X1 & X2 & X3 & X4). auto.
    + destruct (N.eq_dec c1 b) as [->|H3]; [rewrite set_eq|rewrite (set_ne _ b _ c1) by assumption];
      (destruct (N.eq_dec c2 b) as [->|H4]; [rewrite set_eq|rewrite (set_ne _ b _ c2) by assumption]); intros E1 E2 Hne.
      * congruence.
      * injection E1 as <-. intros x Hx Hx'. destruct (Hd1 _ _ E2 H2 H4 x Hx') as (X1 & X2 & X3 & X4). auto.
      * injection E2 as <-. intros x Hx Hx'. destruct (Hd1 _ _ E1 H1 H3 x Hx) as (X1 & X2 & X3 & X4). auto.
      * eauto.
Qed.

Lemma insert_before_split q n l : In q l -> NoDup l ->
  exists l1 l2, l = l1 ++ q :: l2 /\ insert_before q n l = l1 ++ n :: q :: l2.
Proof.
  induction l as [|x l IH]; [easy|]. intros Hi Hd. cbn [insert_before].
  destruct (N.eqb_spec x q) as [->|Hne].
  - exists [], l. auto.
  - destruct Hi as [->|Hi]; [congruence|]. inversion Hd; subst.
    destruct IH as (l1 & l2 & -> & ->); auto. exists (x :: l1), l2. auto.
Qed.

Lemma insert_after_split q n l : In q l ->
  exists l1 l2, l = l1 ++ q :: l2 /\ insert_after q n l = l1 ++ q :: n :: l2.
Proof.
  induction l as [|x l IH]; [easy|]. intros Hi. cbn [insert_after].
  destruct (N.eqb_spec x q) as [->|Hne].
  - exists [], l. auto.
  - destruct Hi as [->|Hi]; [congruence|].
    destruct IH as (l1 & l2 & -> & ->); auto. exists (x :: l1), l2. auto.
Qed.

Lemma remove_split q l : In q l -> exists l1 l2, l = l1 ++ q :: l2 /\ remove_elem q l = l1 ++ l2.
Proof.
  induction l as [|x l IH]; [easy|]. intros Hi. cbn [remove_elem].
  destruct (N.eqb_spec x q) as [->|Hne].
  - exists [], l. auto.
  - destruct Hi as [->|Hi]; [congruence|].
    destruct IH as (l1 & l2 & -> & ->); auto. exists (x :: l1), l2. auto.
Qed.

Lemma before_from_split q l : In q l -> exists l1 l2, l = l1 ++ q :: l2 /\ before q l = l1 /\ from q l = q :: l2.
Proof.
  induction l as [|x l IH]; [easy|]. intros Hi. cbn [before from].
  destruct (N.eqb_spec x q) as [->|Hne].
  - exists [], l. auto.
  - destruct Hi as [->|Hi]; [congruence|].
    destruct IH as (l1 & l2 & -> & -> & ->); auto. exists (x :: l1), l2. auto.
Qed.

(** The neighbours used by queue_before / queue_after. *)
Lemma chain_prv h e c l1 q l2 : chain h e c (l1 ++ q :: l2) -> prv h q = Some (last l1 c).
Proof.
  intros (Hp & _). rewrite <- app_assoc in Hp. apply path_app in Hp as [_ Hp]. cbn [app path] in Hp.
  destruct Hp as [Hl _]. now apply link_iff in Hl.
Qed.
Lemma chain_nxt h e c l1 q l2 : chain h e c (l1 ++ q :: l2) -> nxt h q = Some (hd c l2).
Proof.
  intros (Hp & _). rewrite <- app_assoc in Hp. apply path_app in Hp as [_ Hp]. cbn [app path] in Hp.
  destruct Hp as [_ Hp]. destruct (hd_app_ring l2 c) as (r & Er & _). rewrite Er in Hp. cbn [path] in Hp.
  destruct Hp as [Hl _]. now apply link_iff in Hl.
Qed.

Lemma rd_pv h p v : prv h p = Some v -> exists c, rd h p = Ret c /\ pv c = v.
Proof. intros H. destruct (rd_spec h p (live_prv _ _ _ H)) as (c & E & _ & _ & S & _). exists c. split; [exact E|congruence]. Qed.
Lemma rd_nx h p v : nxt h p = Some v -> exists c, rd h p = Ret c /\ nx c = v.
Proof. intros H. destruct (rd_spec h p (live_nxt _ _ _ H)) as (c & E & _ & S & _). exists c. split; [exact E|congruence]. Qed.
Lemma rd_w0 h p v : a0 h p = Some v -> exists c, rd h p = Ret c /\ w0 c = v.
Proof. intros H. destruct (rd_spec h p (live_a0 _ _ _ H)) as (c & E & _ & _ & _ & S & _). exists c. split; [exact E|congruence]. Qed.
Lemma rd_w1 h p v : a1 h p = Some v -> exists c, rd h p = Ret c /\ w1 c = v.
Proof. intros H. destruct (rd_spec h p (live_a1 _ _ _ H)) as (c & E & _ & _ & _ & _ & S). exists c. split; [exact E|congruence]. Qed.

Lemma queue_before_chain h e c l1 l2 q new d n :
  chain h e c (l1 ++ l2) -> q = hd c l2 -> ~ In new (c :: l1 ++ l2) ->
  e new = Some (d, n) -> n < 2^64 -> a0 h new = Some d -> a1 h new = Some n ->
  exists h', wb_queue_before h c q new = Ret h' /\ chain h' e c (l1 ++ new :: l2) /\
    (forall q, ~ In q (c :: l1 ++ new :: l2) -> same_at h h' q) /\
    (forall q, q <> c -> a0 h' q = a0 h q /\ a1 h' q = a1 h q) /\
    (forall q, live h' q <-> live h q).
Proof.
  intros Hc -> Hn He H64 H0 H1. unfold wb_queue_before.
  assert (Hp : prv h (hd c l2) = Some (last l1 c)).
  { destruct l2 as [|y l2]; cbn [hd]; [rewrite app_nil_r in Hc; apply (chain_ends _ _ _ _ Hc)|].
    exact (chain_prv _ _ _ _ _ _ Hc). }
  destruct (rd_pv _ _ _ Hp) as (k & Ek & Ek2). rewrite Ek. cbn [obind]. rewrite Ek2. cbn [obind]. eapply insert_chain; eauto.
Qed.

Lemma queue_after_chain h e c l1 l2 q new d n :
  chain h e c (l1 ++ l2) -> q = last l1 c -> ~ In new (c :: l1 ++ l2) ->
  e new = Some (d, n) -> n < 2^64 -> a0 h new = Some d -> a1 h new = Some n ->
  exists h', wb_queue_after h c q new = Ret h' /\ chain h' e c (l1 ++ new :: l2) /\
    (forall q, ~ In q (c :: l1 ++ new :: l2) -> same_at h h' q) /\
    (forall q, q <> c -> a0 h' q = a0 h q /\ a1 h' q = a1 h q) /\
    (forall q, live h' q <-> live h q).
Proof.
  intros Hc -> Hn He H64 H0 H1. unfold wb_queue_after.
  assert (Hp : nxt h (last l1 c) = Some (hd c l2)).
  { pose proof Hc as (Hp & _). rewrite <- app_assoc in Hp. apply path_app in Hp as [_ Hp].
    destruct (hd_app_ring l2 c) as (r & Er & _). rewrite Er in Hp. cbn [path] in Hp.
    destruct Hp as [Hl _]. now apply link_iff in Hl. }
  destruct (rd_nx _ _ _ Hp) as (k & Ek & Ek2). rewrite Ek. cbn [obind]. rewrite Ek2. cbn [obind]. eapply insert_chain; eauto.
Qed.

Lemma dequeue_chain h e c l :
  chain h e c l -> ~ In 0 l ->
  exists h', wb_dequeue h c = Ret (h', hd 0 l) /\ chain h' e c (tl l) /\
    (forall q, ~ In q (c :: tl l) -> same_at h h' q) /\
    (forall q, q <> c -> a0 h' q = a0 h q /\ a1 h' q = a1 h q) /\
    (forall q, live h' q <-> live h q).
Proof.
  intros Hc H0. unfold wb_dequeue, wb_peek. destruct (chain_ends _ _ _ _ Hc) as (Hn & _ & _).
  destruct (rd_nx _ _ _ Hn) as (k & Ek & Ek2). rewrite Ek. cbn [obind]. rewrite Ek2. cbn [obind]. destruct l as [|x l]; cbn [hd tl].
  - rewrite N.eqb_refl. change (0 =? 0) with true. cbn iota. exists h. unfold same_at. intuition.
  - pose proof Hc as (_ & Hd & _).
    rewrite (eqb_f x c) by (intros ->; inversion Hd; cbn in *; tauto).
    rewrite (eqb_f x 0) by (intros ->; cbn in *; tauto).
    destruct (unlink_chain h e c [] l x Hc) as (h' & -> & C' & K). cbn [obind]. exists h'. auto.
Qed.

Lemma R_elem_in_chain alloc h w c l x : R alloc h w -> chains w c = Some l -> In x l ->
  exists d n, elems w x = Some (d, n).
Proof.
  intros (_ & Rc & _) Ec Hx. destruct (Rc _ _ Ec) as (_ & (_ & _ & _ & _ & Hf) & _).
  rewrite Forall_forall in Hf. destruct (Hf x Hx) as (d & n & He & _). eauto.
Qed.

Lemma seq_of_eq w c l : chains w c = Some l -> seq_of w c = l.
Proof. unfold seq_of. now intros ->. Qed.

Theorem step_refines alloc fuel h w o :
  R alloc h w -> legal alloc w o -> (forall c l, chains w c = Some l -> (length l < fuel)%nat) ->
  exists h', wb_step fuel h o = Ret (h', snd (spec_step w o)) /\ R alloc h' (fst (spec_step w o)).
Proof.
  intros HR Hlegal Hfuel. pose proof HR as (Ra & Rc & Re & Rd).
  assert (Hfree : forall n, is_free w n -> elems w n <> None ->
     alloc n /\ exists d m, elems w n = Some (d, m) /\ m < 2^64 /\ a0 h n = Some d /\ a1 h n = Some m).
  { intros n _ He. destruct (elems w n) as [[d m]|] eqn:E; [|congruence].
    destruct (Re _ _ _ E) as (? & ? & ? & ? & ?). split; [assumption|]. exists d, m. auto. }
  assert (Hnin : forall n c l, is_free w n -> chains w c = Some l -> ~ In n (c :: l)).
  { intros n c l [F1 F2] E [->|Hi]; [congruence|]. exact (F2 _ _ E Hi). }
  (* insertion at a position *)
  assert (Hins : forall c l l1 l2 n, chains w c = Some l -> l = l1 ++ l2 -> is_free w n -> elems w n <> None ->
     forall h', chain h' (elems w) c (l1 ++ n :: l2) ->
     (forall q, ~ In q (c :: l1 ++ n :: l2) -> same_at h h' q) ->
     (forall q, q <> c -> a0 h' q = a0 h q /\ a1 h' q = a1 h q) ->
     (forall q, live h' q <-> live h q) -> R alloc h' (with_chain w c (l1 ++ n :: l2))).
  { intros c l l1 l2 n Ec -> Hf He h' C1 C2 C3 C4.
    destruct (Hfree n Hf He) as (Han & _).
    destruct (Rc _ _ Ec) as (_ & _ & Hall).
    eapply R_update; eauto.
    - intros x Hx. rewrite in_app_iff in Hx. destruct Hx as [Hx|[<-|Hx]]; auto; apply Hall, in_or_app; auto.
    - intros x Hx. rewrite in_app_iff in Hx |- *. destruct Hx as [Hx|[<-|Hx]]; auto. }
  destruct o; cbn [legal spec_step wb_step] in *.
  - (* head init *)
    destruct Hlegal as [Hal Hni]. destruct (Ra _ Hal) as [Hnz Hlv].
    destruct (wb_head_init_spec h wbh Hlv) as (h' & E & N1 & P1 & Z0 & Z1 & Lv).
    rewrite E. cbn [noval obind fst snd]. exists h'. split; [reflexivity|].
    split; [|split; [|split]].
    + intros p Hp. destruct (Ra p Hp). split; [assumption|]. now apply Lv.
    + intros c l. cbn [chains elems]. destruct (N.eq_dec c wbh) as [->|Hne]; [rewrite set_eq|rewrite set_ne by assumption].
      * intros [= <-]. split; [assumption|]. split; [|easy].
        split; [|split; [|split; [|split]]].
        -- cbn [app path]. split; [|exact I]. apply link_iff. rewrite N1, P1, N.eqb_refl. auto.
        -- repeat constructor. easy.
        -- rewrite Z0, N.eqb_refl. reflexivity.
        -- rewrite Z1, N.eqb_refl. reflexivity.
        -- constructor.
      * intros Ec. destruct (Rc _ _ Ec) as (R1 & R2 & R3). split; [assumption|]. split; [|assumption].
        pose proof (Hni _ _ Ec) as Hni'. revert R2. apply chain_frame.
        -- intros q Hq. assert (q <> wbh) by (intros ->; destruct Hq; auto).
           unfold same_at. rewrite N1, P1, Z0, Z1, !(eqb_f q wbh) by assumption. auto.
        -- intros q Hq. apply set_ne. intros ->. auto.
    + intros p d n. cbn [chains elems]. destruct (N.eq_dec p wbh) as [->|Hne]; [rewrite set_eq; discriminate|].
      rewrite !set_ne by assumption. rewrite Z0, Z1, !(eqb_f p wbh) by assumption. apply Re.
    + intros c1 c2 l1 l2. cbn [chains].
      destruct (N.eq_dec c1 wbh) as [->|H1]; [rewrite set_eq|rewrite set_ne by assumption];
      (destruct (N.eq_dec c2 wbh) as [->|H2]; [rewrite set_eq|rewrite set_ne by assumption]); intros E1 E2 Hne.
      * congruence.
      * injection E1 as <-. intros x [<-|[]] [Hx|Hx]; [congruence|]. exact (Hni _ _ E2 Hx).
      * injection E2 as <-. intros x [Hx|Hx] [<-|[]]; [congruence|]. exact (Hni _ _ E1 Hx).
      * eauto.
  - (* element init *)
    destruct Hlegal as (Hal & [F1 F2] & Hd64 & Hn64). destruct (Ra _ Hal) as [Hnz Hlv].
    destruct (wb_element_init_spec h wbe data len Hlv) as (h' & E & N1 & P1 & Z0 & Z1 & Lv).
    rewrite E. cbn [noval obind fst snd]. exists h'. split; [reflexivity|].
    split; [|split; [|split]].
    + intros p Hp. destruct (Ra p Hp). split; [assumption|]. now apply Lv.
    + intros c l. cbn [chains elems]. intros Ec. destruct (Rc _ _ Ec) as (R1 & R2 & R3).
      split; [assumption|]. split; [|assumption]. revert R2. apply chain_frame.
      * intros q Hq. assert (q <> wbe) by (intros ->; destruct Hq as [->|Hq]; [congruence|exact (F2 _ _ Ec Hq)]).
        unfold same_at. rewrite N1, P1, Z0, Z1, !(eqb_f q wbe) by assumption. auto.
      * intros q Hq. apply set_ne. intros ->. exact (F2 _ _ Ec Hq).
    + intros p d n. cbn [chains elems]. rewrite Z0, Z1.
      destruct (N.eq_dec p wbe) as [->|Hne]; [rewrite set_eq, !N.eqb_refl|rewrite set_ne, !(eqb_f p wbe) by assumption].
      * intros [= <- <-]. auto.
      * apply Re.
    + exact Rd.
  - (* queue head *)
    destruct Hlegal as (Hc & Hf & He). destruct (chains w wbh) as [l|] eqn:Ec; [|congruence].
    rewrite (seq_of_eq _ _ _ Ec). destruct (Hfree _ Hf He) as (_ & d & m & E1 & E2 & E3 & E4).
    destruct (Rc _ _ Ec) as (_ & Hch & _). unfold wb_queue_head.
    destruct (queue_after_chain h (elems w) wbh [] l wbh new d m) as (h' & E & C1 & C2 & C3 & C4); auto.
    rewrite E. cbn [noval obind fst snd]. exists h'. split; [reflexivity|].
    exact (Hins wbh l [] l new Ec eq_refl Hf He h' C1 C2 C3 C4).
  - (* queue tail *)
    destruct Hlegal as (Hc & Hf & He). destruct (chains w wbh) as [l|] eqn:Ec; [|congruence].
    rewrite (seq_of_eq _ _ _ Ec). destruct (Hfree _ Hf He) as (_ & d & m & E1 & E2 & E3 & E4).
    destruct (Rc _ _ Ec) as (_ & Hch & _). unfold wb_queue_tail.
    destruct (queue_before_chain h (elems w) wbh l [] wbh new d m) as (h' & E & C1 & C2 & C3 & C4); try (rewrite app_nil_r); auto.
    rewrite E. cbn [noval obind fst snd]. exists h'. split; [reflexivity|].
    apply (Hins wbh l l [] new Ec); auto. now rewrite app_nil_r.
  - (* queue before *)
    destruct Hlegal as ((l & Ec & Hq) & Hf & He).
    rewrite (seq_of_eq _ _ _ Ec). destruct (Hfree _ Hf He) as (_ & d & m & E1 & E2 & E3 & E4).
    destruct (Rc _ _ Ec) as (_ & Hch & _). pose proof Hch as (_ & Hnd & _).
    assert (exists l1 l2, l = l1 ++ l2 /\ next = hd wbh l2 /\
       (if next =? wbh then l ++ [new] else insert_before next new l) = l1 ++ new :: l2) as (l1 & l2 & El & Eq & Ei).
    { destruct (N.eqb_spec next wbh) as [->|Hne].
      - exists l, []. now rewrite app_nil_r.
      - destruct Hq as [|Hq]; [congruence|]. inversion Hnd; subst.
        destruct (insert_before_split next new l Hq) as (l1 & l2 & E5 & E6); [assumption|].
        exists l1, (next :: l2). auto. }
    destruct (queue_before_chain h (elems w) wbh l1 l2 next new d m) as (h' & E & C1 & C2 & C3 & C4); try (rewrite <- El); auto.
    rewrite Ei, E. cbn [noval obind fst snd]. exists h'. split; [reflexivity|].
    exact (Hins wbh l l1 l2 new Ec El Hf He h' C1 C2 C3 C4).
  - (* queue after *)
    destruct Hlegal as ((l & Ec & Hq) & Hf & He).
    rewrite (seq_of_eq _ _ _ Ec). destruct (Hfree _ Hf He) as (_ & d & m & E1 & E2 & E3 & E4).
    destruct (Rc _ _ Ec) as (_ & Hch & _). pose proof Hch as (_ & Hnd & _).
    assert (exists l1 l2, l = l1 ++ l2 /\ prev = last l1 wbh /\
       (if prev =? wbh then new :: l else insert_after prev new l) = l1 ++ new :: l2) as (l1 & l2 & El & Eq & Ei).
    { destruct (N.eqb_spec prev wbh) as [->|Hne].
      - exists [], l. auto.
      - destruct Hq as [|Hq]; [congruence|].
        destruct (insert_after_split prev new l Hq) as (l1 & l2 & E5 & E6).
        exists (l1 ++ [prev]), l2. rewrite <- !app_assoc, last_last. auto. }
    destruct (queue_after_chain h (elems w) wbh l1 l2 prev new d m) as (h' & E & C1 & C2 & C3 & C4); try (rewrite <- El); auto.
    rewrite Ei, E. cbn [noval obind fst snd]. exists h'. split; [reflexivity|].
    exact (Hins wbh l l1 l2 new Ec El Hf He h' C1 C2 C3 C4).
  - (* unlink *)
    destruct Hlegal as (l & Ec & Hi). rewrite (seq_of_eq _ _ _ Ec).
    destruct (Rc _ _ Ec) as (_ & Hch & Hall).
    destruct (remove_split wbe l Hi) as (l1 & l2 & El & Er). rewrite Er. rewrite El in Hch.
    destruct (unlink_chain _ _ _ _ _ _ Hch) as (h' & E & C1 & C2 & C3 & C4).
    rewrite E. cbn [noval obind fst snd]. exists h'. split; [reflexivity|].
    eapply R_update; eauto.
    + intros x Hx. apply Hall. rewrite El. rewrite in_app_iff in *. cbn. tauto.
    + intros x Hx. left. rewrite El. rewrite in_app_iff in *. cbn. tauto.
  - (* dequeue *)
    destruct (chains w wbh) as [l|] eqn:Ec; [|congruence]. rewrite (seq_of_eq _ _ _ Ec).
    destruct (Rc _ _ Ec) as (_ & Hch & Hall).
    assert (Hnz : ~ In 0 l) by (intros Hz; destruct (Ra 0 (Hall _ Hz)); congruence).
    destruct (dequeue_chain h (elems w) wbh l Hch Hnz) as (h' & E & C1 & C2 & C3 & C4).
    rewrite E. destruct l as [|x l]; cbn [hd tl fst snd] in *.
    + unfold wb_dequeue, wb_peek in E. destruct (chain_ends _ _ _ _ Hch) as (Hn & _ & _).
      destruct (rd_nx _ _ _ Hn) as (k & Ek & Ek2). rewrite Ek in E. cbn [obind hd] in *. rewrite Ek2, N.eqb_refl in E.
      change (0 =? 0) with true in E. cbn iota in E. injection E as <-. exists h. auto.
    + exists h'. split; [reflexivity|]. eapply R_update; eauto.
      * intros y Hy. apply Hall. now right.
      * intros y Hy. left. now right.
  - (* peek *)
    destruct (chains w wbh) as [l|] eqn:Ec; [|congruence]. rewrite (seq_of_eq _ _ _ Ec).
    destruct (Rc _ _ Ec) as (_ & Hch & Hall). destruct (chain_ends _ _ _ _ Hch) as (Hn & _ & _).
    unfold wb_peek. destruct (rd_nx _ _ _ Hn) as (k & Ek & Ek2). rewrite Ek. cbn [obind]. rewrite Ek2. cbn [obind val fst snd]. exists h. split; [|exact HR].
    do 2 f_equal. destruct l as [|x l]; cbn [hd]; [now rewrite N.eqb_refl|].
    rewrite (eqb_f x wbh); [reflexivity|]. intros ->. destruct Hch as (_ & Hd & _). inversion Hd; cbn in *; tauto.
  - (* last *)
    destruct (chains w wbh) as [l|] eqn:Ec; [|congruence]. rewrite (seq_of_eq _ _ _ Ec).
    destruct (Rc _ _ Ec) as (_ & Hch & Hall). destruct (chain_ends _ _ _ _ Hch) as (_ & Hn & _).
    unfold wb_last. destruct (rd_pv _ _ _ Hn) as (k & Ek & Ek2). rewrite Ek. cbn [obind]. rewrite Ek2. cbn [obind val fst snd]. exists h. split; [|exact HR].
    do 2 f_equal. destruct l as [|x l]; [cbn [last]; now rewrite N.eqb_refl|]. rewrite !last_cons.
    rewrite (eqb_f (last l x) wbh); [reflexivity|]. intros E. destruct Hch as (_ & Hd & _).
    inversion Hd as [|? ? Hni _]. apply Hni. rewrite <- E. apply last_in.
  - (* empty *)
    destruct (chains w wbh) as [l|] eqn:Ec; [|congruence]. rewrite (seq_of_eq _ _ _ Ec).
    destruct (Rc _ _ Ec) as (_ & Hch & Hall). destruct (chain_ends _ _ _ _ Hch) as (Hn & _ & _).
    unfold wb_empty. destruct (rd_nx _ _ _ Hn) as (k & Ek & Ek2). rewrite Ek. cbn [obind]. rewrite Ek2. cbn [obind val fst snd]. exists h. split; [|exact HR].
    do 2 f_equal. destruct l as [|x l]; cbn [hd]; [now rewrite N.eqb_refl|].
    rewrite (eqb_f x wbh); [reflexivity|]. intros ->. destruct Hch as (_ & Hd & _). inversion Hd; cbn in *; tauto.
  - (* num elements *)
    destruct (chains w wbh) as [l|] eqn:Ec; [|congruence]. rewrite (seq_of_eq _ _ _ Ec).
    destruct (Rc _ _ Ec) as (_ & (_ & _ & H0 & _) & Hall).
    unfold wb_num_elements. destruct (rd_w0 _ _ _ H0) as (k & Ek & Ek2). rewrite Ek. cbn [obind]. rewrite Ek2. exists h. split; [reflexivity|exact HR].
  - (* total size *)
    destruct (chains w wbh) as [l|] eqn:Ec; [|congruence]. rewrite (seq_of_eq _ _ _ Ec).
    destruct (Rc _ _ Ec) as (_ & (_ & _ & _ & H1 & _) & Hall).
    unfold wb_total_size. destruct (rd_w1 _ _ _ H1) as (k & Ek & Ek2). rewrite Ek. cbn [obind]. rewrite Ek2. exists h. split; [reflexivity|exact HR].
  - (* splice *)
    destruct Hlegal as (Ha & Hb & Hne).
    destruct (chains w lst) as [la|] eqn:Ea; [|congruence]. destruct (chains w head) as [lb|] eqn:Eb; [|congruence].
    rewrite (seq_of_eq _ _ _ Ea), (seq_of_eq _ _ _ Eb).
    destruct (Rc _ _ Ea) as (_ & Ca & Aa). destruct (Rc _ _ Eb) as (_ & Cb & Ab).
    destruct (splice_chain _ _ _ _ _ _ Ca Cb (Rd _ _ _ _ Ea Eb Hne)) as (h' & E & C1 & C2 & C3 & C4 & C5).
    rewrite E. cbn [noval obind fst snd]. exists h'. split; [reflexivity|].
    eapply R_update2; eauto.
    + intros x [<-|[]] [Hx|Hx]; [congruence|]. rewrite in_app_iff in Hx. destruct Hx as [Hx|Hx].
      * exact (Rd _ _ _ _ Ea Eb Hne _ (or_introl eq_refl) (or_intror Hx)).
      * destruct Ca as (_ & Hd & _). now inversion Hd.
    + easy.
    + intros x Hx. rewrite in_app_iff in Hx. tauto.
  - (* split *)
    destruct Hlegal as (Ht & Hne & l & Ef & Hw).
    destruct (chains w to_head) as [lt|] eqn:Et; [|congruence].
    rewrite (seq_of_eq _ _ _ Ef), (seq_of_eq _ _ _ Et).
    destruct (Rc _ _ Ef) as (_ & Cf & Af). destruct (Rc _ _ Et) as (_ & Ct & At).
    pose proof (Rd _ _ _ _ Ef Et (not_eq_sym Hne)) as Hdis. pose proof Cf as (_ & Hnd & _).
    destruct l as [|x0 l0].
    + (* empty source: nothing happens *)
      assert (Hw' : wbe = from_head) by (destruct Hw as [|[]]; assumption).
      destruct (chain_ends _ _ _ _ Cf) as (Hn & _ & _). unfold wb_split_and_append, wb_empty.
      destruct (rd_nx _ _ _ Hn) as (k & Ek & Ek2). rewrite Ek. cbn [obind]. rewrite Ek2. cbn [hd obind]. rewrite N.eqb_refl. cbn [noval obind fst snd].
      exists h. split; [reflexivity|].
      replace (if wbe =? from_head then [] else before wbe []) with (@nil ptr) by now destruct (wbe =? from_head).
      replace (if wbe =? from_head then [] else from wbe []) with (@nil ptr) by now destruct (wbe =? from_head).
      rewrite app_nil_r. eapply R_update2; eauto.
      * unfold same_at; auto.
      * tauto.
    + assert (exists l1 x l2, x0 :: l0 = l1 ++ x :: l2 /\ (wbe = x \/ wbe = from_head /\ l1 = []) /\
        (if wbe =? from_head then [] else before wbe (x0 :: l0)) = l1 /\
        (if wbe =? from_head then x0 :: l0 else from wbe (x0 :: l0)) = x :: l2)
        as (l1 & x & l2 & El & Hx & Eb & Ew).
      { destruct (N.eqb_spec wbe from_head) as [->|Hn].
        - exists [], x0, l0. auto.
        - destruct Hw as [|Hw]; [congruence|]. destruct (before_from_split _ _ Hw) as (l1 & l2 & E1 & E2 & E3).
          exists l1, wbe, l2. auto. }
      rewrite Eb, Ew. pose proof (Hfuel _ _ Ef) as Hfu. rewrite El in *. rewrite app_length in Hfu. cbn [length] in Hfu.
      destruct (split_chain fuel _ _ to_head from_head wbe _ _ _ _ Cf Ct Hdis Hx)
        as (h' & E & C1 & C2 & C3 & C4 & C5); [lia|].
      rewrite E. cbn [noval obind fst snd]. exists h'. split; [reflexivity|].
      destruct (NoDup_mid _ _ _ Hnd) as (D1 & D2 & D3 & D4).
      eapply R_update2; eauto.
      * intros y Hy Hy'. cbn [In] in Hy, Hy'. rewrite in_app_iff in Hy'.
        assert (Hyf : In y (from_head :: l1 ++ x :: l2)) by (cbn; rewrite in_app_iff; tauto).
        destruct Hy' as [Hy'|[Hy'|Hy']].
        -- apply (Hdis y Hyf). now left.
        -- apply (Hdis y Hyf). now right.
        -- destruct Hy as [<-|Hy]; [tauto|]. exact (D4 _ Hy Hy').
      * intros y Hy. rewrite in_app_iff. tauto.
      * intros y Hy. rewrite in_app_iff in *. tauto.
Qed.

Lemma stored_elem_views h p d n : stored_elem h p = Some (d, n) <-> a0 h p = Some d /\ a1 h p = Some n.
Proof.
  unfold stored_elem, a0, a1. destruct (h p); cbn; split.
  - now intros [= <- <-].
  - intros [[= <-] [= <-]]. reflexivity.
  - discriminate.
  - intros [? _]. discriminate.
Qed.

Lemma chain_at_iff h c l : chain_at h c l <-> chain h (stored_elem h) c l.
Proof.
  unfold chain_at, chain, circular. split.
  - intros ((Hp & Hd) & Hs & Hf). apply stored_elem_views in Hs as [H0 H1].
    repeat split; auto. revert Hf. apply Forall_impl. intros p (d & n & E & Hn).
    exists d, n. apply stored_elem_views in E as E'. tauto.
  - intros (Hp & Hd & H0 & H1 & Hf). split; [auto|]. split; [now apply stored_elem_views|].
    revert Hf. apply Forall_impl. intros p (d & n & E & Hn & _). eauto.
Qed.

Lemma chain_elems_ext h e e' c l : (forall q, In q l -> e' q = e q) -> chain h e c l -> chain h e' c l.
Proof. intros H. apply chain_frame; [|exact H]. unfold same_at. auto. Qed.

Lemma chain_to_at h e c l : chain h e c l -> chain_at h c l.
Proof.
  intros H. apply chain_at_iff. revert H. intros Hc. apply (chain_elems_ext h e); [|exact Hc].
  destruct Hc as (_ & _ & _ & _ & Hf). rewrite Forall_forall in Hf. intros q Hq.
  destruct (Hf q Hq) as (d & n & -> & _ & A & B). now apply stored_elem_views.
Qed.

(** * Programs *)
Definition known (w : world) (I : list ptr) : Prop := forall p, elems w p <> None -> In p I.

Lemma spec_step_known w o I : known w I -> exists I', known (fst (spec_step w o)) I' /\ (length I' <= S (length I))%nat.
Proof.
  intros H. assert (Hd : forall w', elems w' = elems w -> exists I', known w' I' /\ (length I' <= S (length I))%nat).
  { intros w' E. exists I. split; [unfold known; now rewrite E|lia]. }
  destruct o; cbn [spec_step fst]; try (apply Hd; reflexivity).
  - exists I. split; [|lia]. intros p. cbn [elems]. destruct (N.eq_dec p wbh) as [->|Hne].
    + rewrite set_eq. congruence.
    + rewrite set_ne by assumption. apply H.
  - exists (wbe :: I). split; [|cbn; lia]. intros p. cbn [elems]. destruct (N.eq_dec p wbe) as [->|Hne].
    + now left.
    + rewrite set_ne by assumption. intros Hp. right. now apply H.
  - apply Hd. destruct (seq_of w wbh); reflexivity.
Qed.

Lemma R_bound alloc h w I c l : R alloc h w -> known w I -> chains w c = Some l -> (length l <= length I)%nat.
Proof.
  intros HR HI Ec. apply NoDup_incl_length.
  - destruct HR as (_ & Rc & _). destruct (Rc _ _ Ec) as (_ & (_ & Hd & _) & _). now inversion Hd.
  - intros x Hx. apply HI. destruct (R_elem_in_chain _ _ _ _ _ _ HR Ec Hx) as (d & n & ->). discriminate.
Qed.

Lemma run_refines alloc fuel os h w I :
  R alloc h w -> known w I -> legal_run alloc w os -> (length I + length os < fuel)%nat ->
  exists h', wb_run fuel h os = Ret (h', snd (spec_run w os)) /\ R alloc h' (fst (spec_run w os)).
Proof.
  revert h w I. induction os as [|o os IH]; intros h w I HR HI Hl Hf.
  - exists h. auto.
  - cbn [legal_run length wb_run spec_run] in *. destruct Hl as [Hl1 Hl2].
    destruct (step_refines alloc fuel h w o HR Hl1) as (h1 & E1 & R1).
    { intros c l Ec. pose proof (R_bound _ _ _ _ _ _ HR HI Ec). lia. }
    destruct (spec_step_known w o I HI) as (I' & HI' & HIl).
    destruct (IH h1 _ I' R1 HI' Hl2) as (h2 & E2 & R2); [lia|].
    destruct (spec_step w o) as [w1 v] eqn:Es. cbn [fst snd] in *.
    destruct (spec_run w1 os) as [w2 vs] eqn:Er. cbn [fst snd] in *.
    exists h2. rewrite E1. cbn [obind]. rewrite E2. auto.
Qed.

Lemma R_empty (alloc : ptr -> Prop) (h : heap) : (forall p, alloc p -> p <> 0 /\ h p <> None) -> R alloc h empty_world.
Proof. intros H. split; [exact H|]. repeat split; discriminate. Qed.

Lemma R_chain_at alloc h w c l : R alloc h w -> chains w c = Some l ->
  chain_at h c l /\ forall p, In p l -> stored_elem h p = elems w p.
Proof.
  intros (_ & Rc & Re & _) Ec. destruct (Rc _ _ Ec) as (_ & Hc & _). split; [exact (chain_to_at _ _ _ _ Hc)|].
  destruct Hc as (_ & _ & _ & _ & Hf). rewrite Forall_forall in Hf. intros p Hp.
  destruct (Hf p Hp) as (d & n & -> & _ & A & B). now apply stored_elem_views.
Qed.

Lemma programs_refine (alloc : ptr -> Prop) fuel os (h : heap) :
  (forall p, alloc p -> p <> 0 /\ h p <> None) ->
  legal_run alloc empty_world os -> (length os < fuel)%nat ->
  exists h', wb_run fuel h os = Ret (h', snd (spec_run empty_world os)) /\
    forall c l, chains (fst (spec_run empty_world os)) c = Some l ->
      chain_at h' c l /\ forall p, In p l -> stored_elem h' p = elems (fst (spec_run empty_world os)) p.
Proof.
  intros Ha Hl Hf. destruct (run_refines alloc fuel os h empty_world [] (R_empty _ _ Ha)) as (h' & E & HR); auto.
  { intros p Hp. now cbn in Hp. }
  exists h'. split; [exact E|]. intros c l Ec. exact (R_chain_at _ _ _ _ _ HR Ec).
Qed.

Lemma split_at_spec fuel h t f x lt l1 l2 :
  chain_at h f (l1 ++ x :: l2) -> chain_at h t lt ->
  (forall p, In p (f :: l1 ++ x :: l2) -> ~ In p (t :: lt)) -> (length l2 + 1 < fuel)%nat ->
  exists h', wb_split_and_append fuel h t f x = Ret h' /\
    chain_at h' f l1 /\ chain_at h' t (lt ++ x :: l2) /\
    (forall p, p <> t -> p <> f -> stored_elem h' p = stored_elem h p) /\
    (forall p, ~ In p (f :: l1 ++ x :: l2) -> ~ In p (t :: lt) -> same_at h h' p).
Proof.
  intros Hf Ht Hd Hfu. apply chain_at_iff in Hf, Ht.
  destruct (split_chain fuel h (stored_elem h) t f x l1 x l2 lt Hf Ht Hd (or_introl eq_refl) Hfu)
    as (h' & E & C1 & C2 & C3 & C4 & C5).
  exists h'. split; [exact E|]. split; [exact (chain_to_at _ _ _ _ C2)|]. split; [exact (chain_to_at _ _ _ _ C1)|].
  split; [|exact C3]. intros p Hp1 Hp2. destruct (C4 p Hp2 Hp1) as [A B].
  unfold stored_elem. specialize (C5 p). unfold live, a0, a1 in *.
  destruct (h p), (h' p); cbn in *; try congruence.
Qed.

Lemma is_last_is_first h c l1 x l2 :
  chain_at h c (l1 ++ x :: l2) ->
  wb_is_last_element h c x = Ret (match l1 with [] => true | _ => false end).
Proof.
  intros H. apply chain_at_iff in H. unfold wb_is_last_element. pose proof (chain_prv _ _ _ _ _ _ H) as Hp.
  destruct (rd_pv _ _ _ Hp) as (k & Ek & Ek2). rewrite Ek. cbn [obind]. rewrite Ek2. f_equal.
  destruct H as (_ & Hd & _). destruct l1 as [|y l1]; [apply N.eqb_refl|].
  apply eqb_f. rewrite last_cons. intros E. inversion Hd as [|? ? Hni _]. apply Hni.
  rewrite <- E. change (In (last l1 y) ((y :: l1) ++ x :: l2)). apply in_or_app. left. apply last_in.
Qed.
