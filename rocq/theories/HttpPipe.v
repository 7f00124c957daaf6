(** Requests on one connection. *)
From Verif Require Import Base Text HttpModel HttpSpec HttpProofs HttpSafe HttpSafe2 HttpKeep.
Set Warnings "-unused-intro-pattern".

(** A request has begun since the last restart. *)
Fixpoint begun (t : list ev) : bool :=
  match t with [] => false | ERestart :: _ => false | EUrl :: _ => true | _ :: t => begun t end.
Fixpoint urls (t : list ev) : Prop :=
  match t with
  | [] => True
  | EUrl :: t => begun t = false /\ urls t
  | _ :: t => urls t
  end.

Definition Urls (s : client) : Prop := urls (tr s) /\ (begun (tr s) = true -> ph s <> PhStart).

Lemma urls_step : forall S c v c', Urls (fst c) -> enabled c v -> careful c v -> step S c v = Ret c' -> Urls (fst c').
Proof.
  intros S [s k] v c' [U B] En Ca H. unfold Urls. cbn [fst snd] in *. destruct v; cbn [step] in H.
  1: destruct k as [|o k]; [discriminate|]; destruct o.
  all: cbn [enabled] in En; try (destruct En as (-> & E1 & E2)).
  all: unf; crunch H; open_ret.
  all: repeat match goal with E : c_par _ = _ |- _ => try rewrite E in Ca; try rewrite E in En; clear E end; cbn in Ca; try (cbn in En).
  all: try (split; [assumption|]; first [assumption | discriminate | intros; discriminate]).
  all: split; [|discriminate].
  all: split; [|assumption]; destruct Ca as [Ca _]; destruct (begun (tr s)); [destruct (B eq_refl Ca)|reflexivity].
Qed.

Lemma urls_reach : forall S c, reach S careful c -> Urls (fst c).
Proof.
  induction 1 as [|c v c' R IH En Ca E]; [split; [exact Logic.I|discriminate]|]. eapply urls_step; eassumption.
Qed.

(** ** A peer that announces the length of its bodies and ends its lines with CRLF *)
Definition polite (c : config) (v : act) : Prop :=
  let '(s, k) := c in
  match v with
  | VStep ch =>
      match k with
      | OAccept :: _ => c_acc ch <> AccNull
      | OExec :: _ => match c_par ch with PUrl u => u <> UNoHandler | PHeaders _ _ cl => cl <> None | _ => True end
      | OHeaders1 _ :: _ => c_timer ch = true
      | OHeaders2 _ :: _ => c_timer ch = true
      | OUser w :: _ =>
          match c_user ch with
          | UWrite _ body _ => fits body
          | UClose => match w with WWritten _ => parsing s <> 0 | _ => True end
          | UReturn r => r = CbSuccess
          | _ => True
          end
      | _ => True
      end
  | VRead r => match r with ROk _ lf => lf = false | _ => True end
  | VRequestTimer => False
  | VWritten _ => life s = Live
  | VUser (UWrite _ body _) => fits body
  | _ => True
  end.

Definition has_head (k : list op) : bool := existsb (fun o => match o with OHeaders1 _ | OHeaders2 _ => true | _ => false end) k.
Definition has_head1 (k : list op) : bool := existsb (fun o => match o with OHeaders1 _ => true | _ => false end) k.

Record Pol (s : client) (k : list op) : Prop := {
  p_ret : ret s = CbSuccess;
  p_set : Forall (fun o => match o with OSetRet r => r = CbSuccess | OParse (ROk _ lf) => lf = false | OHeaders1 cl | OHeaders2 cl => cl <> None | _ => True end) k;
  p_bulk : bulk s = false;
  p_rem : life s = Live -> ph s <> PhBody -> remaining s = 0%N;
  p_body : life s = Live -> ph s = PhBody -> chunked s = true -> has_head k = true;
  p_rt : life s = Live -> ph s = PhStart \/ ph s = PhHead -> rt s = true \/ k = [OAccept] \/ k = [OClose];
  p_rt1 : life s = Live -> has_head1 k = true -> rt s = true }.

Lemma pol_step : forall S c v c', reach S careful c -> Pol (fst c) (snd c) -> enabled c v -> polite c v -> step S c v = Ret c' ->
  careful c v /\ Pol (fst c') (snd c').
Proof.
  intros S [s k] v c' R [P1 P2 P3 P4 P5 P6 P7] En Po H. cbn [fst snd] in *.
  assert (Ca : careful (s, k) v).
  { destruct v; try exact Po; try exact Logic.I. destruct k as [|o k]; [destruct En|]. cbn in Po, En |- *. destruct o; try exact Po; try exact Logic.I.
    - destruct (c_par ch); try exact Logic.I. cbn in En. split; [|exact Po]. destruct En as [E|(_ & E & _)]; [exact E|congruence].
    - destruct (c_user ch); try exact Logic.I; exact Po. }
  split; [exact Ca|]. pose proof (inv_reach _ _ R) as I. cbn [fst snd] in I.
  destruct v; cbn [step] in H.
  { destruct k as [|o k]; [discriminate|]. pose proof (Forall_inv P2) as Q. pose proof (Forall_inv_tail P2) as Q2. clear P2.
    destruct (life s) eqn:L.
    2,3: destruct (i_gone _ _ I ltac:(congruence)) as [C _]; destruct o; cbn in C; try discriminate C; cbn in H;
         (destruct (err s) eqn:Er; [try discriminate C|]); injection H as <-; constructor; cbn; auto; congruence.
    specialize (P4 eq_refl). specialize (P5 eq_refl). specialize (P6 eq_refl). specialize (P7 eq_refl).
    pose proof (i_reqc _ _ I) as IR. 
    destruct (i_live _ _ I L) as [[P0 Y] | [P0 Y]];
    destruct o; inversion Y; subst; try contradiction; try discriminate.
    all: unf; rewrite ?L in H; crunch H; open_ret.
    all: clear Y I R Ca.
    all: repeat match goal with E : c_par _ = _ |- _ => try rewrite E in Po; try rewrite E in En; clear E
       | E : c_user _ = _ |- _ => try rewrite E in Po; clear E | E : c_acc _ = _ |- _ => try rewrite E in Po; clear E end; cbn in Po; try (cbn in En).
    all: constructor; cbn; try assumption; try discriminate; try congruence.
    all: try solve [repeat (apply Forall_cons; [solve [exact Logic.I | assumption | reflexivity]|]); first [assumption | apply Forall_nil]].
    all: try solve [intros _; assumption].
    all: try solve [intros _ X; destruct (P6 X) as [Z|[Z|Z]]; [left; exact Z|discriminate Z|discriminate Z]].
    all: try solve [intros _ _; auto].
    all: try solve [rewrite P4 in * by congruence; try discriminate; destruct (ph s) eqn:Z; try congruence; destruct (chunked s) eqn:Z2; [discriminate (P5 eq_refl eq_refl)|reflexivity]].
    all: try solve [destruct (ph s) eqn:Z; try (rewrite P4 in * by congruence); try discriminate; destruct (chunked s) eqn:Z2; [discriminate (P5 eq_refl eq_refl)|reflexivity]].
    all: try solve [intros _ X; rewrite (P4 X); reflexivity].
    all: try solve [repeat (apply Forall_cons; [solve [exact Logic.I | assumption | reflexivity]|]); repeat (apply Forall_inv_tail in Q2); first [assumption | apply Forall_nil]].
    all: try solve [intros _ _; match goal with E : reqc _ && _ = true |- _ => apply andb_prop in E as [E _]; destruct (IR E) as [Z _]; apply P4; rewrite Z; discriminate end].
    all: try solve [intros _ _; apply P4; destruct Po; destruct En as [Z|(Z & _)]; rewrite Z; discriminate].
    all: try solve [intros _ _; apply P4; destruct En as [Z|(Z & _)]; rewrite Z; discriminate].
    all: try solve [intros _ _; destruct En as [En|(_ & En & _)]; [|congruence]; destruct (P6 (or_introl En)) as [Z|[Z|Z]]; [left; exact Z|discriminate Z|discriminate Z]].
    all: try solve [destruct (ph s) eqn:Z; try assumption; try reflexivity; destruct (chunked s) eqn:Z2; [discriminate (P5 eq_refl eq_refl)|reflexivity]].
    all: try solve [intros _ [X|X]; congruence].
    all: try solve [intros; congruence].
    all: try solve [intros _ _; destruct (P6 (or_intror En)) as [Z|[Z|Z]]; [exact Z|discriminate Z|discriminate Z]].
    all: try solve [intros _ _; destruct En as [En [Z|[Z|Z]]]; [discriminate (P5 En Z)|congruence|exact Z]].
    all: try solve [intros _ _; destruct content_length; [discriminate|congruence]].
    intros; rewrite (P7 eq_refl), Po in E; discriminate E. }
  all: try (destruct Po; fail); try (destruct En as (-> & E1 & E2)); try (destruct En as (-> & E1)).
  all: try (destruct u; try (destruct E2; fail)); try (destruct (life s) eqn:L; try discriminate).
  all: try (injection H as <-).
  all: try match goal with |- Pol _ _ => constructor; cbn; try congruence; try assumption end.
  all: try solve [repeat constructor].
  all: try solve [intros L' X; destruct (P6 L' X) as [Z|[Z|Z]]; [auto|discriminate|discriminate]].
  all: try solve [intros L' X; destruct (P6 eq_refl X) as [Z|[Z|Z]]; [auto|discriminate|discriminate]].
  all: try solve [apply Forall_cons; [|apply Forall_nil]; destruct r; [exact Logic.I..|exact Po]].
  all: try solve [intros _; exact (P4 eq_refl) | intros _; exact (P5 eq_refl)].
Qed.

Lemma pol_reach : forall S c, reach S polite c -> reach S careful c /\ Pol (fst c) (snd c).
Proof.
  induction 1 as [|c v c' R [IH1 IH2] En Po E].
  - split; [apply reach_init|]. constructor; cbn; auto; try discriminate.
  - destruct (pol_step _ _ _ _ IH1 IH2 En Po E) as [A B]. split; [|exact B]. eapply reach_step; eassumption.
Qed.
