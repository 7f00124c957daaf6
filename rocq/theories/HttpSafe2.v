From Verif Require Import Base Text HttpModel HttpSpec HttpProofs HttpDec HttpSafe.

Lemma inv_init : Inv (fst init) (snd init).
Proof.
  constructor; cbn; try discriminate; try congruence; auto.
  - intros _. left. split; [reflexivity|]. apply z_one. exact I.
  - intros _ [A | A]; discriminate A.
Qed.

(** After closing. *)
Lemma inv_dead : forall S s o k ch s' k', life s <> Live -> Inv s (o :: k) ->
  exec S o ch s k = Ret (s', k') -> Inv s' k'.
Proof.
  intros S s o k ch s' k' L I H. destruct (i_gone _ _ I L) as [C N].
  pose proof (Forall_inv_tail (i_fits _ _ I)) as F.
  destruct o; cbn in C; try discriminate C.
  - injection H as <- <-. destruct I as [I1 I2 I3 I4 I5 I6 I7 I8 I9 IP]. constructor; cbn in *; auto; try contradiction.
    all: try (intros R; destruct (I5 R) as [A B]; split; [exact A|intros P; destruct (B P)]).
    all: intros A B; destruct (IP A B).
  - apply andb_prop in C as [E C]. cbn in H. destruct (err s) eqn:Er; [discriminate E|]. injection H as <- <-.
    destruct I as [I1 I2 I3 I4 I5 I6 I7 I8 I9 IP]. constructor; cbn in *; rewrite ?Er; auto; try contradiction.
    all: try (intros R; destruct (I5 R) as [A B]; split; [exact A|intros P; destruct (B P)]).
    all: intros A B; destruct (IP A B).
  - apply andb_prop in C as [E C]. cbn in H. destruct (err s) eqn:Er; [discriminate E|]. injection H as <- <-.
    destruct I as [I1 I2 I3 I4 I5 I6 I7 I8 I9 IP]. constructor; cbn in *; rewrite ?Er; auto; try contradiction.
    all: try (intros R; destruct (I5 R) as [A B]; split; [exact A|intros P; destruct (B P)]).
    all: intros A B; destruct (IP A B).
Qed.

Ltac calm_tac := rewrite ?safe_ret; cbn [calm negb andb];
  solve [ assumption | reflexivity | apply safe_calm; assumption ].
Ltac l0 := repeat first [ assumption | apply z_nil | apply z_one; exact I | apply z_ret | apply z_write_user | apply z_write; [calm_tac|] | apply z_safe; [exact I|calm_tac|] | apply z_user ].
Ltac l1 := repeat first [ assumption | apply l_w; [reflexivity|] | constructor ].
Ltac fit := repeat first [ assumption | apply Forall_nil | apply Forall_cons; [solve [exact I | assumption | reflexivity]|] ].

Lemma inv_live : forall S s o k ch c', life s = Live -> One (s, o :: k) -> Inv s (o :: k) ->
  enabled (s, o :: k) (VStep ch) -> careful (s, o :: k) (VStep ch) ->
  exec S o ch s k = Ret c' -> Inv (fst c') (snd c').
Proof.
  intros S s o k ch c' L O I En Ca H.
  pose proof (Forall_inv_tail (i_fits _ _ I)) as F.
  assert (OW : 0 < nW (o :: k) -> written s = true).
  { destruct O as (q & _ & C & W & _). intros G. apply W. intros ->. cbn -[nW] in C. lia. }
  destruct (i_live _ _ I L) as [[P0 Y] | [P0 Y]];
  destruct o; inversion Y; subst; try contradiction; try discriminate.
  all: unf; rewrite ?L in H; crunch H; open_ret.
  all: destruct I as [_ _ _ IU IR IS IH IC IW IP]; cbn in IU, IR, IS, IH, IC, IW, IP, Ca, En, OW; clear Y O.
  all: repeat match goal with E : c_par _ = _ |- _ => rewrite E in Ca, En; clear E
       | E : c_user _ = _ |- _ => rewrite E in Ca; clear E | E : c_acc _ = _ |- _ => rewrite E in Ca; clear E end; cbn in Ca, En.
  all: try rewrite P0 in *; try discriminate.
  all: try (specialize (IU eq_refl)); try (specialize (OW ltac:(lia))); try congruence.
  all: repeat match goal with H : safe ?k = true |- _ => lazymatch goal with _ : has_user k = false |- _ => fail | _ => pose proof (calm_no_user k true (safe_calm k H true)) end end.
  all: constructor; cbn; try assumption; try discriminate; try congruence; try solve [fit].
  all: try solve [intros _; left; split; [assumption || reflexivity || congruence | l0] | intros _; right; split; [assumption || reflexivity ||congruence | l1]].
  all: try solve [clear - IR P0; intros R; destruct (IR R) as [A B]; split; [exact A|intros; first [exact Logic.I | congruence | destruct (B eq_refl) | exact (B eq_refl)]]].
  all: try solve [clear - IH L; intros _ B; specialize (IH L B); tauto].
  all: try solve [clear - IW L; intros; tauto].
  all: try solve [clear - IP P0; intros A B; first [congruence | destruct (IP A eq_refl) | exact Logic.I]].
  all: try solve [intros _; split; [apply safe_calm; assumption|auto]].
  all: try solve [clear - IR En P0; intros R; destruct (IR R) as [A B]; exfalso; intuition congruence].
  all: try solve [clear; intros _ [A | A]; discriminate A].
  all: try solve [clear; intros; right; left; discriminate | clear; intros; left; discriminate].
  all: try solve [clear - IW E; intros _ _; left; auto].
  all: try match goal with E : _ = ph _ |- _ => solve [intros _; right; split; [assumption || congruence|rewrite <- E; l1]
    | intros _; split; [congruence|intros; exact Logic.I]] end.
  all: try solve [clear - IR Ca P0; intros R; destruct (IR R) as [A B]; exfalso; intuition congruence].
  all: try solve [exfalso; clear - Ca; intuition congruence].
  all: try (match goal with E : reqc _ && completed _ = true |- _ => apply andb_prop in E as [E _]; destruct (IR E) as [A B] end;
    solve [clear - A; intros _ [D | D]; congruence | clear - A; intros; congruence]).
  all: try solve [clear - IH L En; intros _ _; specialize (IH L); rewrite En in IH; tauto].
  all: clear - IU H3; destruct w; try discriminate H3; auto.
Qed.

Lemma inv_step : forall S c v c', One c -> Inv (fst c) (snd c) -> enabled c v -> careful c v -> step S c v = Ret c' ->
  Inv (fst c') (snd c').
Proof.
  intros S [s k] v c' O I En Ca H. cbn [fst snd] in I. destruct v; cbn [step] in H.
  - destruct k as [|o k]; [discriminate H|].
    destruct (life s) eqn:L; [eapply inv_live; eassumption| |];
      (destruct c' as [s' k']; eapply (inv_dead S s o k ch s' k'); [congruence|exact I|exact H]).
  - destruct En as (-> & L & R). injection H as <-. destruct I as [I1 I2 I3 I4 I5 I6 I7 I8 I9 IP].
    destruct (I1 L) as [[P Y] | [P Y]]; [|inversion Y].
    constructor; cbn; try assumption; try discriminate; try congruence.
    all: try (intros _; left; split; [exact P|l0]); try solve [repeat constructor].
    all: try (intros Q; split; [apply I5; exact Q|congruence]).
  - destruct En as (-> & L & R). cbn in Ca. injection H as <-. destruct I as [I1 I2 I3 I4 I5 I6 I7 I8 I9 IP].
    destruct (I1 Ca) as [[P Y] | [P Y]]; [|inversion Y].
    constructor; cbn; try assumption; try discriminate; try congruence.
    all: try (intros _; left; split; [exact P|l0]); try solve [repeat constructor].
    all: try (intros Q; split; [apply I5; exact Q|congruence]).
  - destruct En as (-> & L & R). injection H as <-. destruct I as [I1 I2 I3 I4 I5 I6 I7 I8 I9 IP].
    destruct (I1 L) as [[P Y] | [P Y]]; [|inversion Y].
    constructor; cbn; try assumption; try discriminate; try congruence.
    all: try (intros _; left; split; [exact P|l0]); try solve [repeat constructor].
    all: try (intros Q; split; [apply I5; exact Q|congruence]).
  - destruct En as (-> & L & R). injection H as <-. destruct I as [I1 I2 I3 I4 I5 I6 I7 I8 I9 IP].
    destruct (I1 L) as [[P Y] | [P Y]]; [|inversion Y].
    constructor; cbn; try assumption; try discriminate; try congruence.
    all: try (intros _; left; split; [exact P|l0]); try solve [repeat constructor].
    all: try (intros Q; split; [apply I5; exact Q|congruence]).
  - destruct En as (-> & L & R).
    assert (Lv : life s = Live) by (destruct (life s) eqn:L'; [reflexivity| |]; destruct (i_gone _ _ I ltac:(congruence)) as [_ N]; congruence).
    destruct I as [I1 I2 I3 I4 I5 I6 I7 I8 I9 IP].
    destruct (I1 Lv) as [[P Y] | [P Y]]; [|inversion Y].
    rewrite ?Lv in H. destruct u; try contradiction; injection H as <-;
    (constructor; cbn; try assumption; try discriminate; try congruence;
     try (intros Q; split; [apply I5; exact Q|congruence]); try solve [fit]).
    all: try (intros _; left; split; [exact P|l0]).
    intros A B. destruct (I7 A B) as [C | [C | [C | C]]]; [left; exact C|right; left; exact C|right; right; left; exact C|destruct C].
  - destruct En as (-> & L). injection H as <-. destruct I as [I1 I2 I3 I4 I5 I6 I7 I8 I9 IP].
    destruct (I2 ltac:(congruence)) as [_ N].
    constructor; cbn; try assumption; try discriminate; try congruence; auto.
Qed.

Lemma inv_reach : forall S c, reach S careful c -> Inv (fst c) (snd c).
Proof.
  induction 1 as [|c v c' R IH En Ca E]; [apply inv_init|].
  eapply inv_step; try eassumption. eapply One_reach; eassumption.
Qed.

(** Every step is defined. *)
Lemma progress : forall S c v, One c -> Inv (fst c) (snd c) -> enabled c v -> careful c v -> exists c', step S c v = Ret c'.
Proof.
  intros S [s k] v O I En Ca. cbn [fst snd] in I. destruct v; cbn [step]; try (eexists; reflexivity).
  - destruct k as [|o k]; [destruct En|].
    destruct (life s) eqn:L.
    2,3: destruct (i_gone _ _ I ltac:(congruence)) as [C _]; destruct o; cbn in C; try discriminate C; cbn;
         (destruct (err s) eqn:Er; [try discriminate C|]); eexists; reflexivity.
    pose proof (i_hnd _ _ I L) as IH. pose proof (i_hcb _ _ I L) as IC. pose proof (i_perr _ _ I) as IP. pose proof (i_reqc _ _ I) as IR.
    pose proof (Forall_inv (i_fits _ _ I)) as F.
    destruct (i_live _ _ I L) as [[P0 Y] | [P0 Y]];
    destruct o; inversion Y; subst; try contradiction; try discriminate.
    all: cbn in IH, IC, IR, IP, F, En, Ca.
    all: unf; rewrite ?L, ?P0; cbn; rewrite ?content_length_fits by exact F.
    all: cbn.
    all: repeat match goal with
         | |- context [match hnd ?s with _ => _ end] => let E := fresh "E" in destruct (hnd s) eqn:E; cbn
         | |- context [if upg ?s then _ else _] => let E := fresh "E" in destruct (upg s) eqn:E; cbn
         | |- context [if is_error_code ?c then _ else _] => destruct (is_error_code c); cbn
         | |- context [if c_free ?c then _ else _] => destruct (c_free c); cbn
         | |- exists c', (match ?x with _ => _ end) = Ret c' => let E := fresh "E" in destruct x eqn:E; cbn
         | |- exists c', Ret ?x = Ret c' => exists x; reflexivity
         end.
    all: rewrite ?L, ?P0 in *; cbn in *; try discriminate.
    all: repeat match goal with E : c_par _ = _ |- _ => rewrite E in Ca, En; clear E
       | E : c_user _ = _ |- _ => rewrite E in Ca; clear E | E : c_acc _ = _ |- _ => rewrite E in Ca; clear E end; cbn in Ca, En.
    all: try congruence.
    all: exfalso.
    all: repeat match goal with E : negb ?b = true |- _ => destruct b eqn:?; [discriminate E|clear E] end.
    all: try solve [clear - IH IC En; intuition congruence].
    all: try match goal with E : _ = ph _ |- _ => solve [clear - IH IP En E; rewrite <- E in *; intuition congruence] end.
    all: try solve [match goal with E : reqc _ && completed _ = true |- _ => apply andb_prop in E as [E _]; destruct (IR E) as [A B]; exact (B eq_refl) end].
  - destruct En as (-> & N & R).
    destruct (life s) eqn:L; [|destruct (i_gone _ _ I ltac:(congruence)) as [_ Z]; contradiction..].
    destruct u; eexists; reflexivity.
Qed.

(** ** What is in the history *)

Definition fine (e : ev) (t : list ev) : Prop :=
  match e with
  | EAlloc h => ~ In (EAlloc h) t
  | EFreeHandler h => In (EAlloc h) t /\ ~ In (EFreeHandler h) t
  | ECall (Some h) _ => In (EAlloc h) t /\ ~ In (EFreeHandler h) t
  | EFreeClient => In EClose t
  | EFreeNull => False
  | _ => True
  end.
Fixpoint tidy (t : list ev) : Prop :=
  match t with
  | [] => True
  | e :: t => tidy t /\ ~ In EFreeClient t /\ (In EClose t -> e = EFreeClient) /\ fine e t
  end.

Record Acc (t : list ev) (n : nat) (h : option nat) (l : lifetime) : Prop := {
  a_tidy : tidy t;
  a_alloc : forall x, In (EAlloc x) t <-> x < n;
  a_free : forall x, x < n -> h = Some x \/ In (EFreeHandler x) t;
  a_cur : forall x, h = Some x -> x < n /\ ~ In (EFreeHandler x) t;
  a_close : In EClose t <-> l <> Live;
  a_client : In EFreeClient t <-> l = Gone }.

Definition plain (e : ev) : bool :=
  match e with EAlloc _ | EFreeHandler _ | EClose | EFreeClient | EFreeNull | ECall (Some _) _ => false | _ => true end.

Ltac acc_tac := constructor; cbn; [repeat split; auto; intros; intuition congruence | intros; intuition (try congruence) ..].

Lemma A_plain : forall e t n h l, plain e = true -> l = Live -> Acc t n h l -> Acc (e :: t) n h l.
Proof.
  intros e t n h l P -> [T A F C X Y].
  assert (NX : ~ In EClose t) by tauto.
  assert (NY : ~ In EFreeClient t) by (intros G; apply Y in G; discriminate G).
  constructor.
  - cbn [tidy]. repeat split; try assumption; [contradiction|]. destruct e as [ | |[?|]| | | | | | | | | | | | | |]; try discriminate P; exact I.
  - intros x. rewrite <- (A x). cbn. split; [intros [-> | ?]; [discriminate P|assumption]|auto].
  - intros x Hx. destruct (F x Hx); [left|right; right]; assumption.
  - intros x Hx. destruct (C x Hx) as [B D]. split; [exact B|]. intros [-> | G]; [discriminate P|contradiction].
  - cbn. split; [intros [-> | G]; [discriminate P|contradiction]|intros G; congruence].
  - cbn. split; [intros [-> | G]; [discriminate P|contradiction]|intros G; congruence].
Qed.

Lemma A_call : forall w t n x l, l = Live -> Acc t n (Some x) l -> Acc (ECall (Some x) w :: t) n (Some x) l.
Proof.
  intros w t n h l -> [T A F C X Y]. destruct (C h eq_refl) as [C1 C2].
  assert (NX : ~ In EClose t) by tauto.
  assert (NY : ~ In EFreeClient t) by (intros G; apply Y in G; discriminate G).
  constructor.
  - cbn [tidy fine]. repeat split; try assumption; [contradiction|]. apply A. exact C1.
  - intros x. rewrite <- (A x). cbn. split; [intros [E | ?]; [discriminate E|assumption]|auto].
  - intros x Hx. destruct (F x Hx); [left|right; right]; assumption.
  - intros x Hx. destruct (C x Hx) as [B D]. split; [exact B|]. intros [E | G]; [discriminate E|contradiction].
  - cbn. split; [intros [E | G]; [discriminate E|contradiction]|intros G; congruence].
  - cbn. split; [intros [E | G]; [discriminate E|contradiction]|intros G; congruence].
Qed.

Lemma A_new : forall t n l, l = Live -> Acc t n None l -> Acc (EAlloc n :: t) (S n) (Some n) l.
Proof.
  intros t n l -> [T A F C X Y].
  assert (NX : ~ In EClose t) by tauto.
  assert (NY : ~ In EFreeClient t) by (intros G; apply Y in G; discriminate G).
  assert (NF : forall x, In (EFreeHandler x) t -> In (EAlloc x) t).
  { clear - T. intros x. induction t as [|e t IH]; [intros []|]. destruct T as (T & _ & _ & Fe).
    intros [-> | G]; [right; apply Fe|right; apply IH; assumption]. }
  constructor.
  - cbn [tidy fine]. repeat split; try assumption; [contradiction|]. rewrite A. lia.
  - intros x. cbn. rewrite A. split; [intros [E | E]; [injection E as ->|]; lia|].
    intros G. destruct (Nat.eq_dec x n) as [->|]; [left; reflexivity|right; lia].
  - intros x Hx. destruct (Nat.eq_dec x n) as [->|]; [left; reflexivity|].
    destruct (F x ltac:(lia)) as [D | D]; [discriminate D|right; right; exact D].
  - intros x E. injection E as <-. split; [lia|]. intros [E | G]; [discriminate E|]. apply NF, A in G. lia.
  - cbn. split; [intros [E | G]; [discriminate E|contradiction]|intros G; congruence].
  - cbn. split; [intros [E | G]; [discriminate E|contradiction]|intros G; congruence].
Qed.

Lemma A_free : forall t n x l, l = Live -> Acc t n (Some x) l -> Acc (EFreeHandler x :: t) n None l.
Proof.
  intros t n h l -> [T A F C X Y]. destruct (C h eq_refl) as [C1 C2].
  assert (NX : ~ In EClose t) by tauto.
  assert (NY : ~ In EFreeClient t) by (intros G; apply Y in G; discriminate G).
  constructor.
  - cbn [tidy fine]. repeat split; try assumption; [contradiction|]. apply A. exact C1.
  - intros x. rewrite <- (A x). cbn. split; [intros [E | ?]; [discriminate E|assumption]|auto].
  - intros x Hx. right. destruct (F x Hx) as [E | E]; [injection E as ->; left; reflexivity|right; exact E].
  - intros x Hx. discriminate Hx.
  - cbn. split; [intros [E | G]; [discriminate E|contradiction]|intros G; congruence].
  - cbn. split; [intros [E | G]; [discriminate E|contradiction]|intros G; congruence].
Qed.

Lemma A_close : forall t n l, l = Live -> Acc t n None l -> Acc (EClose :: t) n None Closing.
Proof.
  intros t n l -> [T A F C X Y].
  assert (NX : ~ In EClose t) by tauto.
  assert (NY : ~ In EFreeClient t) by (intros G; apply Y in G; discriminate G).
  constructor.
  - cbn [tidy fine]. repeat split; try assumption. contradiction.
  - intros x. rewrite <- (A x). cbn. split; [intros [E | ?]; [discriminate E|assumption]|auto].
  - intros x Hx. destruct (F x Hx) as [E | E]; [discriminate E|right; right; exact E].
  - intros x Hx. discriminate Hx.
  - cbn. split; [congruence|left; reflexivity].
  - cbn. split; [intros [E | G]; [discriminate E|contradiction]|intros G; congruence].
Qed.

Lemma A_gone : forall t n h, Acc t n h Closing -> Acc (EFreeClient :: t) n h Gone.
Proof.
  intros t n h [T A F C X Y].
  assert (NX : In EClose t) by (apply X; discriminate).
  assert (NY : ~ In EFreeClient t) by (intros G; apply Y in G; discriminate G).
  constructor.
  - cbn [tidy fine]. repeat split; try assumption. 
  - intros x. rewrite <- (A x). cbn. split; [intros [E | ?]; [discriminate E|assumption]|auto].
  - intros x Hx. destruct (F x Hx); [left|right; right]; assumption.
  - intros x Hx. destruct (C x Hx) as [B D]. split; [exact B|]. intros [E | G]; [discriminate E|contradiction].
  - cbn. split; [discriminate|right; exact NX].
  - cbn. split; [reflexivity|left; reflexivity].
Qed.

Definition AccC (s : client) : Prop := Acc (tr s) (nh s) (hnd s) (life s).

Ltac lv := first [reflexivity | assumption].
Ltac acc := repeat first [ assumption | apply A_gone | apply (A_close _ _ Live); [reflexivity|] | apply A_new; [lv|] | apply A_free; [lv|]
  | apply A_call; [lv|] | apply A_plain; [reflexivity|lv|] ].

Lemma acc_step : forall S c v c', AccC (fst c) -> Inv (fst c) (snd c) -> enabled c v -> careful c v -> step S c v = Ret c' -> AccC (fst c').
Proof.
  intros S [s k] v c' A I En Ca H. cbn [fst snd] in A, I. unfold AccC in *. destruct v; cbn [step] in H.
  - destruct k as [|o k]; [discriminate H|].
    destruct (life s) eqn:L.
    2,3: destruct (i_gone _ _ I ltac:(congruence)) as [C _]; destruct o; cbn in C; try discriminate C; cbn in H;
         injection H as <-; cbn; rewrite ?L; assumption.
    pose proof (i_start _ _ I) as IS.
    destruct o; unf; rewrite ?L in H; crunch H; open_ret; cbn in Ca.
    all: repeat match goal with E : c_par _ = _ |- _ => rewrite E in Ca; clear E
       | E : c_user _ = _ |- _ => rewrite E in Ca; clear E | E : c_acc _ = _ |- _ => rewrite E in Ca; clear E end; cbn in Ca.
    all: repeat match goal with E : hnd _ = _ |- _ => rewrite E in *; clear E end; rewrite ?L in *; try assumption; try congruence.
    all: try solve [acc].
    all: try solve [rewrite IS in A by apply Ca; acc].
    all: try solve [destruct (hnd s); acc].
    all: try match goal with E : life _ = Live |- _ => solve [rewrite E; acc] end.
  - destruct En as (-> & L & R). injection H as <-. exact A.
  - destruct En as (-> & L & R). injection H as <-. exact A.
  - destruct En as (-> & L & R). injection H as <-. exact A.
  - destruct En as (-> & L & R). injection H as <-. exact A.
  - destruct En as (-> & N & R).
    destruct (life s) eqn:L; [|destruct (i_gone _ _ I ltac:(congruence)) as [_ Z]; contradiction..].
    destruct u; try contradiction; injection H as <-; cbn; rewrite L; acc.
  - destruct En as (-> & L). injection H as <-. cbn. rewrite L in A. acc.
Qed.

Lemma acc_reach : forall S c, reach S careful c -> AccC (fst c).
Proof.
  induction 1 as [|c v c' R IH En Ca E].
  - constructor; cbn; try tauto; try lia; try discriminate.
    all: try (split; [intros []|discriminate]).
    all: try (split; [intros []|lia]).
  - eapply acc_step; try eassumption. eapply inv_reach; eassumption.
Qed.
