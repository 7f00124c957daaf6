(** The invariant behind keeping and closing connections. *)
From Verif Require Import Base Text HttpModel HttpSpec HttpProofs HttpSafe HttpSafe2.
Set Warnings "-unused-intro-pattern".

(** Something on the stack will mark or close the client. *)
Fixpoint pend (e : bool) (k : list op) : bool :=
  match k with
  | OWritten2 _ _ :: _ | OSrvErr :: _ | OMark :: _ | OClose :: _ => true
  | OWrite _ _ _ :: k => pend true k
  | OMarkIfErr :: k | OCloseIfErr :: k => e || pend e k
  | ORetErr b :: k => pend b k
  | OUser (WWritten _) :: k => pend e k
  | _ => false
  end.

(** Something on the stack will close the client, or send an error response. *)
Definition pendw (w e : bool) (k : list op) : bool :=
  match k with
  | OWrite c _ _ :: k => if w then match k with OCloseIfErr :: _ => true | _ => false end else is_error_code c
  | OClose :: _ => true
  | OCloseIfErr :: _ => e
  | _ => false
  end.
(** Not about to read or parse. *)
Definition idle (k : list op) : bool := forallb (fun o => match o with OAccept | OParse _ | OFinish => false | _ => true end) k.

(** The result of the last write. *)
Fixpoint lastw (t : list ev) : bool :=
  match t with [] => false | EWritten ok :: _ => ok | _ :: t => lastw t end.
(** The headers of the current request were seen. *)
Fixpoint seen (t : list ev) : bool :=
  match t with [] => false | ERestart :: _ => false | EHeaders _ _ :: _ => true | _ :: t => seen t end.
(** What the response to the current request says, and whether the headers had been seen then. *)
Fixpoint ann (t : list ev) : option (announce * bool) :=
  match t with [] => None | ERestart :: _ => None | EResponse _ a _ :: t => Some (a, seen t) | _ :: t => ann t end.

Fixpoint ordered (t : list ev) : Prop :=
  match t with
  | [] => True
  | e :: t => ordered t /\
      match e with
      | ERestart => lastw t = true /\ (forall c b, ~ In (EResponse c AClose b) t)
      | EParse => ~ In EUserClose t
      | _ => True
      end
  end.

Record Keep (s : client) (k : list op) : Prop := {
  k_done : life s = Live -> completed s = true ->
    (tbc s = true /\ parsing s = 1) \/ pend (err s) k = true \/ (ka s = true /\ ci s = false /\ lastw (tr s) = true);
  k_two : Forall (fun o => match o with OWritten2 _ ok => completed s = true /\ lastw (tr s) = ok | _ => True end) k;
  k_ka : ka s = false -> ph s = PhBody \/ ph s = PhDone;
  k_close : forall c b, In (EResponse c AClose b) (tr s) -> ci s = true \/ ka s = false;
  k_tbc : life s = Live -> tbc s = true -> parsing s = 0 -> reading s = false /\ idle k = true /\
    (ci s = true \/ pendw (written s) (err s) k = true);
  k_user : In EUserClose (tr s) -> life s = Live -> tbc s = true \/ match k with OMark :: _ => True | _ => False end;
  k_seen : seen (tr s) = true -> ph s = PhBody \/ ph s = PhDone;
  k_ann : match ann (tr s) with
          | Some (AKeep, h) => ci s = false /\ (h = true -> ka s = true /\ (ph s = PhBody \/ ph s = PhDone))
          | _ => True
          end;
  k_ord : ordered (tr s);
  k_read : life s = Live -> parsing s = 1 \/ (exists r, In (OParse r) k) -> reading s = false }.

Lemma pend_mono : forall k e, pend e k = true -> pend true k = true.
Proof.
  induction k as [|o k IH]; intros e H; [discriminate H|]. destruct o; cbn in *; auto.
  destruct w; try discriminate H. eauto.
Qed.

Definition no_two (k : list op) : Prop := Forall (fun o => match o with OWritten2 _ _ => False | _ => True end) k.
Lemma calm_no_two : forall k e, calm e k = true -> no_two k.
Proof.
  induction k as [|o k IH]; intros e H; [constructor|]. destruct o; cbn in H; try discriminate H; constructor; auto.
  - eapply IH; exact H.
  - apply andb_prop in H as [_ H]. eapply IH; exact H.
  - apply andb_prop in H as [_ H]. eapply IH; exact H.
Qed.
Lemma two_none : forall s k, completed s = false ->
  Forall (fun o => match o with OWritten2 _ ok => completed s = true /\ lastw (tr s) = ok | _ => True end) k -> no_two k.
Proof. intros s k C H. eapply Forall_impl; [|exact H]. intros [] A; auto. destruct A; congruence. Qed.
Lemma no_two_any : forall k (P : bool -> bool -> Prop), no_two k ->
  Forall (fun o => match o with OWritten2 c ok => P c ok | _ => True end) k.
Proof. intros k P H. eapply Forall_impl; [|exact H]. intros [] A; auto. destruct A. Qed.

Lemma calm_idle : forall k e, calm e k = true -> idle k = true.
Proof.
  induction k as [|o k IH]; intros e H; [reflexivity|]; destruct o; cbn in *; try discriminate H; eauto.
  all: apply andb_prop in H as [_ H]; eauto.
Qed.
Lemma safe_idle : forall k, safe k = true -> idle k = true.
Proof. intros k H. eapply calm_idle. apply (safe_calm k H true). Qed.

Lemma keep_dead : forall S s o k ch c', life s <> Live -> Inv s (o :: k) -> Keep s (o :: k) ->
  exec S o ch s k = Ret c' -> Keep (fst c') (snd c').
Proof.
  intros S s o k ch c' L I K H. destruct (i_gone _ _ I L) as [C N]. destruct K as [K1 K2 K3 K4 K5 K6 K7 K8 K9 K0].
  destruct o; cbn in C; try discriminate C; cbn in H.
  - injection H as <-. constructor; cbn; auto; try congruence. exact (Forall_inv_tail K2).
  - apply andb_prop in C as [E C]. destruct (err s) eqn:Er; [discriminate E|]. injection H as <-. constructor; cbn; auto; try congruence. exact (Forall_inv_tail K2).
  - apply andb_prop in C as [E C]. destruct (err s) eqn:Er; [discriminate E|]. injection H as <-. constructor; cbn; auto; try congruence. exact (Forall_inv_tail K2).
Qed.

Ltac two := repeat first [ assumption | apply Forall_nil | apply Forall_cons; [solve [exact I | split; first [assumption|reflexivity]]|] ].

Lemma ann_prog : forall t q, prog t = Some q -> ann t <> None -> q <> 0.
Proof.
  induction t as [|e t IH]; intros q H A; [destruct (A eq_refl)|]. cbn in H. destruct (prog t) as [q0|] eqn:E; [|discriminate].
  destruct e; cbn in A; try (injection H as <-; exact (IH _ eq_refl A)); destruct q0 as [|[|[|]]]; try discriminate; injection H as <-; try discriminate. congruence.
Qed.

Lemma keep_live : forall S s o k ch c', life s = Live -> One (s, o :: k) -> Inv s (o :: k) -> Keep s (o :: k) ->
  enabled (s, o :: k) (VStep ch) -> careful (s, o :: k) (VStep ch) ->
  exec S o ch s k = Ret c' -> Keep (fst c') (snd c').
Proof.
  intros S s o k ch c' L O I K En Ca H.
  assert (OW : 0 < nW (o :: k) -> written s = true /\ completed s = false).
  { destruct O as (q & _ & C & W & D). intros G. split.
    - apply W. intros ->. cbn -[nW] in C. lia.
    - destruct (completed s); [|reflexivity]. exfalso. pose proof (proj1 D eq_refl). subst q. change (b2n (1 <=? 2)) with 1 in C. change (b2n true) with 1 in C. lia. }
  assert (AN : written s = false -> ann (tr s) = None).
  { destruct O as (q & P & C & W & D). intros G. destruct (ann (tr s)) eqn:EA; [|reflexivity]. rewrite W in G; [discriminate|].
    eapply ann_prog; [exact P|]. rewrite EA. discriminate. }
  assert (OC : completed s = true -> written s = true).
  { destruct O as (q & _ & C & W & D). intros G. apply W. intros ->. apply D in G. discriminate G. }
  assert (OF : completed s = true -> fired s = true) by (intros G; apply (i_fired _ _ I), OC, G).
  destruct K as [K1 K2 K3 K4 K5 K6 K7 K8 K9 K0]. specialize (K1 L).
  specialize (K0 L). pose proof (fun D => K5 L D) as K5'. clear K5.
  pose proof (fun D => K6 D L) as K6'. clear K6.
  pose proof (Forall_inv_tail K2) as K2'. pose proof (Forall_inv K2) as K2''. clear K2.
  destruct (i_live _ _ I L) as [[P0 Y] | [P0 Y]];
  destruct o; inversion Y; subst; try contradiction; try discriminate.
  all: unf; rewrite ?L in H; crunch H; open_ret.
  all: pose proof (i_reqc _ _ I) as IR; pose proof (i_user _ _ I) as IU; clear Y O I.
  all: repeat match goal with E : c_par _ = _ |- _ => rewrite E in Ca, En; clear E
       | E : c_user _ = _ |- _ => rewrite E in Ca; clear E | E : c_acc _ = _ |- _ => rewrite E in Ca; clear E end; cbn in Ca, En, OW.
  all: try rewrite P0 in *; try discriminate; cbn in K1, K5', K6', OW, K2''; rewrite ?Bool.orb_false_r in *.
  all: try (destruct (OW (Nat.lt_0_succ _)) as [OW1 OW2]).
  all: repeat match goal with
       | Q : safe ?k = true |- _ => lazymatch goal with _ : idle k = true |- _ => fail | _ =>
           pose proof (safe_idle k Q); pose proof (calm_no_two k true (safe_calm k Q true)) end
       | Q : calm false ?k = true |- _ => lazymatch goal with _ : idle k = true |- _ => fail | _ =>
           pose proof (calm_idle k false Q); pose proof (calm_no_two k false Q) end
       end.
  all: constructor; cbn; try assumption; try discriminate; try congruence; try solve [two].
  all: repeat match goal with E : err _ = _ |- _ => rewrite E; clear E | E : written _ = _ |- context [written _] => rewrite E | E : _ || negb _ = false |- _ => apply Bool.orb_false_elim in E as [? E]; apply Bool.negb_false_iff in E end.
  all: rewrite ?Bool.orb_false_r.
  all: try solve [clear - K1 OC OF; intros; rewrite ?Bool.orb_false_r in *; intuition congruence].
  all: try solve [clear - K9; split; [exact K9|exact Logic.I]].
  all: try solve [clear - K4; intros ? ? [X|X]; [discriminate X|exact (K4 _ _ X)]].
  all: try solve [clear - K6'; intros [X|X] _; [discriminate X|destruct (K6' X) as [Z|Z]; [left; exact Z|first [destruct Z | right; exact Logic.I]]]].
  all: try solve [clear - K6'; intros X _; destruct (K6' X) as [Z|Z]; [left; exact Z|first [destruct Z | right; exact Logic.I]]].
  all: try solve [intros _ T P; first [discriminate P | congruence | destruct (K5' T P) as (A & B & C) | destruct (K5' T eq_refl) as (A & B & C)];
     try discriminate B; split; [first [assumption | reflexivity]|split; [first [reflexivity | assumption]|]]; 
     clear - C; cbn in *; intuition].
  all: try solve [intros; split; [|split]; auto].
  all: try solve [intros _ T P; first [destruct (K5' T P) as (A & B & C) | destruct (K5' T eq_refl) as (A & B & C)]; cbn in B; discriminate B].
  all: try solve [intros _ T P; first [destruct (K5' T P) as (A & B & C) | destruct (K5' T eq_refl) as (A & B & C)]; split; [exact A|split; [first [reflexivity|assumption]|right; reflexivity]]].
  all: try solve [split; [exact K9|]; intros X; destruct (K6' X) as [T|T]; [|destruct T]; destruct (K5' T eq_refl) as (_ & B & _); discriminate B].
  all: try solve [intros ? ? X; repeat (destruct X as [X|X]; [discriminate X|]); exact (K4 _ _ X)].
  all: try solve [intros X _; repeat (destruct X as [X|X]; [discriminate X|]); destruct (K6' X) as [Z|Z]; [left; exact Z|first [destruct Z | right; exact Logic.I]]].
  all: try solve [rewrite AN by first [assumption|reflexivity]; exact Logic.I].
  all: try solve [apply Forall_cons; [exact Logic.I|]; apply Forall_cons; [split; reflexivity|]; apply no_two_any; assumption].
  all: try solve [apply Forall_cons; [split; reflexivity|]; apply no_two_any; assumption].
  all: try solve [apply no_two_any; assumption].
  all: try solve [unfold announcement; cbn; rewrite ?Bool.andb_false_r; destruct c; exact Logic.I].
  all: try solve [unfold announcement; cbn; destruct (ka s) eqn:?, (ci s) eqn:?, c; cbn; try exact Logic.I; (split; [reflexivity|]); intros X; (split; [reflexivity|exact (K7 X)])].
  all: try solve [intros ? ? [X|X]; [injection X as _ X _; unfold announcement in X; cbn in X; destruct (ka s), (ci s), c; cbn in X; try discriminate X; auto|exact (K4 _ _ X)]].

  all: try solve [intros _ D; destruct (K1 D) as [X|[X|X]]; [left; exact X|discriminate X|right; right; exact X]].
  all: try solve [intros _ D; discriminate (OC D)].
  all: try solve [intros _ T P; first [destruct (K5' T P) as (A & B & C) | destruct (K5' T eq_refl) as (A & B & C)]; (split; [exact A|split; [first [reflexivity|assumption]|]]);
     (destruct C as [C|C]; [left; exact C|right]); cbn in C |- *;
     first [exact C | congruence | rewrite (IU eq_refl); rewrite ?Bool.orb_true_r; reflexivity | exact (pend_mono _ _ C) | apply Bool.orb_true_iff; auto]].
  all: try solve [intros G; destruct (K3 G); congruence].
  all: try solve [intros G; destruct (K7 G); congruence].
  all: repeat match goal with R : reqc _ && completed _ = true |- _ => apply andb_prop in R as [? R]; specialize (K1 R); destruct K1 as [[_ K1]|[K1|(K1 & K1c & K1w)]]; [discriminate K1|discriminate K1|] end.
  all: try solve [intros G; congruence].
  all: try solve [intros _ D; destruct (K1 D) as [[X _]|[X|X]]; [left; split; assumption|discriminate X|right; right; exact X]].
  all: try solve [intros G; destruct (K3 G); destruct Ca; congruence].
  all: try solve [intros G; destruct (K7 G); destruct Ca; congruence].
  all: try solve [split; [|split]; auto].
  all: try solve [intros _ T P; destruct (K5' T eq_refl) as (A & B & C); (split; [exact A|split; [assumption|]]); (destruct C as [C|C]; [left; exact C|right]); destruct k as [|[] ?]; try discriminate C; reflexivity].
  all: try solve [intros _ D; right; right; pose proof (proj2 K2'') as Z; rewrite Z; (split; [assumption|split; [assumption|]]); destruct ok; [reflexivity|discriminate]].
  all: try solve [intros _ T P; exfalso; destruct (K5' T eq_refl) as (A & B & [C|C]); congruence].
  all: try solve [repeat split; try assumption; intros ? ? X; repeat (destruct X as [X|X]; [discriminate X|]); destruct (K4 _ _ X); congruence].
  all: try solve [destruct (ann (tr _)) as [[[] h]|]; try exact Logic.I; destruct K8 as [Z1 Z2]; (split; [exact Z1|]); intros Z3; destruct (Z2 Z3) as (Z4 & [Z5|Z5]); try (destruct Ca); try congruence; auto].
  all: try solve [intros ? ? X; repeat (destruct X as [X|X]; [discriminate X|]); destruct (K4 _ _ X) as [Y|Y]; [left; exact Y|destruct (K3 Y); congruence]].
  all: try solve [intros _ T P; (split; [apply K0; left; reflexivity|split; [reflexivity|right; first [reflexivity | destruct (written _); reflexivity]]])].
  all: try solve [intros X _; destruct (K6' X) as [Z|Z]; [discriminate Z|destruct Z]].
  all: try solve [intros X _; destruct (K6' X) as [Z|Z]; [congruence|destruct Z]].
  all: try solve [intros _ D; specialize (K1 D); clear - K1 P0; intuition auto].
  all: try solve [intros _ D; destruct (K1 D) as [[X _]|[X|X]]; [left; split; assumption| |right; right; exact X]; right; left; destruct w; try discriminate X; solve [exact X | exact (pend_mono _ _ X)]].
  all: try solve [intros _ D; destruct (K1 D) as [[X _]|[X|X]]; [left; split; assumption| |right; right; exact X]; right; left; destruct w; discriminate X].
  all: try solve [intros _ D; destruct (K1 D) as [[X _]|[X|X]]; [left; split; assumption| |right; right; exact X]; right; left; solve [exact X | exact (pend_mono _ _ X)]].
  all: try solve [repeat first [apply Forall_cons; [solve [exact Logic.I | split; reflexivity]|]]; apply no_two_any; eapply two_none; eassumption].
  all: try solve [intros _ [P|[r P]]; try discriminate P; apply K0; left; congruence].
  all: try solve [intros _ _; apply K0; right; eexists; left; reflexivity].
  all: try solve [intros _ [P|[r P]]; [congruence|]; cbn in P; repeat (destruct P as [P|P]; [discriminate P|]); destruct P].
  all: try solve [intros _ [P|[r P]]; [congruence|]; apply K0; right; exists r; cbn; auto].
  all: try solve [intros _ [P|[r P]]; [congruence|]; exfalso; match goal with Q : idle ?k = true |- _ => unfold idle in Q; pose proof (proj1 (forallb_forall _ _) Q _ P); discriminate end].
  all: try solve [intros _ _; apply K0; left; reflexivity].
  all: try solve [intros _ [P|[r' P]]; [congruence|]; apply K0; right; exists r'; repeat (destruct P as [P|P]; [discriminate P|]); clear - P; cbn; tauto].
  - intros _ D. destruct (K1 D) as [[X _]|[X|(X1 & X2 & X3)]]; [left; split; assumption|discriminate X|].
    right. right. rewrite (OF D), Bool.andb_true_r in E1. apply Bool.negb_false_iff in E1. auto.
  - intros _ _. left. assumption.
Qed.

Lemma keep_step : forall S c v c', One c -> Inv (fst c) (snd c) -> Keep (fst c) (snd c) ->
  enabled c v -> careful c v -> step S c v = Ret c' -> Keep (fst c') (snd c').
Proof.
  intros S [s k] v c' O I K En Ca H. destruct v.
  1: { destruct k as [|o k]; [destruct En|]. cbn [step fst snd] in *.
       destruct (life s) eqn:L; [eapply keep_live; eassumption|eapply keep_dead; try eassumption; congruence|eapply keep_dead; try eassumption; congruence]. }
  all: destruct K as [K1 K2 K3 K4 K5 K6 K7 K8 K9 K0]; cbn in *; try (destruct En as (-> & E1 & E2)); cbn in *.
  all: try (destruct u; try (destruct E2; fail)); try (destruct (life s) eqn:L0; try discriminate); try (destruct En as [-> En]).
  all: try (injection H as <-).
  all: constructor; cbn; auto; try discriminate; try congruence; try solve [repeat constructor].
  all: try solve [intros X L; destruct (K6 X L) as [Z|[]]; auto].
  all: try solve [intros L [P|[r' [P|[]]]]; [apply K0; auto|discriminate P]].
  all: try solve [intros L [P|[r' P]]; [apply K0; auto|destruct P]].
  all: try solve [intros L T P; destruct (K5 L T P) as (A & B & [C|C]); [try congruence; auto|discriminate]].
  all: try solve [intros ? ? X; repeat (destruct X as [X|X]; [discriminate X|]); eauto].
  all: try solve [intros L D; destruct (K1 L D) as [X|[X|X]]; [auto|discriminate|auto]].
  all: try solve [intros L D; destruct O as (q & _ & C & _ & _); rewrite E2, D in C; cbn in C; destruct q as [|q]; cbn in C; lia].
  - intros L T P; destruct (K5 eq_refl T P) as (A & B & C). congruence.
  - intros L T P; destruct (K5 eq_refl T P) as (A & B & [C|C]); [auto|discriminate].
Qed.

Lemma keep_reach : forall S c, reach S careful c -> Keep (fst c) (snd c).
Proof.
  induction 1 as [|c v c' R IH En Ca E].
  - constructor; cbn; auto; try discriminate; try solve [repeat constructor]; try tauto.
  - eapply keep_step; try eassumption; [eapply One_reach; exact R|exact (inv_reach _ _ R)].
Qed.
