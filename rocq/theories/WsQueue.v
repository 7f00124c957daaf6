(** The list of waiting write jobs that the pointers first_write_job,
    last_write_job and next stand for. *)
From Verif Require Import Base WsModel WsFrame.
Open Scope N_scope.

Fixpoint links (f : jname -> job) (a : jname) (q : list jname) : Prop :=
  match q with [] => True | b :: r => jnext (f a) = Some b /\ links f b r end.
Definition rep (t : tx) (q : list jname) : Prop :=
  NoDup q /\
  match q with
  | [] => first t = None
  | a :: r => first t = Some a /\ links (jobs t) a r /\ last t = Some (List.last r a)
  end.

Lemma last_cons (r : list jname) a b : List.last (b :: r) a = List.last r b.
Proof. revert a b. induction r as [|c r IH]; intros a b; [reflexivity|]. change (List.last (c :: r) a = List.last (c :: r) b). rewrite !IH. reflexivity. Qed.

Lemma links_ext f g r : forall a, (forall x, In x (removelast (a :: r)) -> jnext (g x) = jnext (f x)) -> links f a r -> links g a r.
Proof.
  induction r as [|b r IH]; intros a H L; [exact I|]. destruct L as [L1 L2]. split.
  - rewrite H; [exact L1|]. left. reflexivity.
  - apply IH; [|exact L2]. intros x X. apply H. right. exact X.
Qed.
Lemma links_snoc f r n : forall a, links f a r -> jnext (f (List.last r a)) = Some n -> links f a (r ++ [n]).
Proof.
  induction r as [|b r IH]; intros a L H; [split; [exact H|exact I]|]. destruct L as [L1 L2]. split; [exact L1|]. apply IH; [exact L2|].
  rewrite last_cons in H. exact H.
Qed.
Lemma links_prefix f l n r : forall a, links f a (l ++ n :: r) -> links f a (l ++ [n]).
Proof. induction l as [|b l IH]; intros a [L1 L2]; (split; [exact L1|]); [exact I|apply IH, L2]. Qed.
Lemma last_in (r : list jname) : forall a, In (List.last r a) (a :: r).
Proof.
  induction r as [|b r IH]; intros a; [left; reflexivity|]. right. rewrite last_cons. exact (IH b).
Qed.
Lemma last_not_removelast (r : list jname) : forall a, NoDup (a :: r) -> ~ In (List.last r a) (removelast (a :: r)).
Proof.
  induction r as [|b r IH]; intros a N X; [exact X|]. inversion N as [|? ? N1 N2]; subst.
  change (removelast (a :: b :: r)) with (a :: removelast (b :: r)) in X.
  rewrite last_cons in X. destruct X as [X|X]; [|exact (IH b N2 X)]. apply N1. rewrite X. apply last_in.
Qed.
Lemma rep_ext t t' q : first t' = first t -> last t' = last t -> (forall n, jnext (jobs t' n) = jnext (jobs t n)) -> rep t q -> rep t' q.
Proof.
  intros F L J [N H]. split; [exact N|]. destruct q as [|a r]; [congruence|]. destruct H as (H1 & H2 & H3). rewrite F, L. split; [exact H1|]. split; [|exact H3].
  apply (links_ext (jobs t)); [|exact H2]. intros x _. apply J.
Qed.

Lemma rep_nil t q : rep t q -> first t = None -> q = [].
Proof. intros [_ H] F. destruct q as [|a r]; [reflexivity|]. destruct H as (H & _). congruence. Qed.
Lemma rep_cons t q n : rep t q -> first t = Some n -> exists r, q = n :: r /\ last t = Some (List.last r n).
Proof. intros [_ H] F. destruct q as [|a r]; [congruence|]. destruct H as (H & _ & L). rewrite F in H. injection H as <-. eauto. Qed.

(** dequeue_job *)
Lemma rep_pop t n q : rep t (n :: q) -> dequeue_job t = (Some n, set_first t (hd_error q)) /\ rep (set_first t (hd_error q)) q.
Proof.
  intros [N (F & K & L)]. unfold dequeue_job. rewrite F, L. inversion N as [|? ? N1 N2]; subst. destruct q as [|b q].
  - cbn [List.last opt_eqb]. rewrite jname_eqb_refl. split; [reflexivity|]. split; [constructor|reflexivity].
  - destruct K as [K1 K2]. assert (NE : n <> List.last (b :: q) n). { intros E. apply N1. rewrite E, last_cons. apply last_in. }
    cbn [opt_eqb]. destruct (jname_eqb n (List.last (b :: q) n)) eqn:Q; [apply jname_eqb_eq in Q; congruence|].
    rewrite K1. split; [reflexivity|]. split; [exact N2|]. cbn [first set_first last jobs hd_error]. split; [reflexivity|]. split; [exact K2|].
    rewrite <- (last_cons q n). exact L.
Qed.
Lemma rep_pop_nil t : rep t [] -> dequeue_job t = (None, t).
Proof. intros [_ F]. unfold dequeue_job. rewrite F. reflexivity. Qed.

(** enqueue_job, with and without another job waiting *)
Lemma rep_push_nil t n : rep (set_last (set_first t (Some n)) (Some n)) [n].
Proof. split; [repeat constructor; intros []|]. cbn. auto. Qed.
Definition link_last (t : tx) (l n : jname) : tx := set_last (set_job t l (set_next (jobs t l) (Some n))) (Some n).
Lemma rep_push t q l n : rep t q -> q <> [] -> last t = Some l -> ~ In n q -> rep (link_last t l n) (q ++ [n]).
Proof.
  intros [N H] Q L NI. destruct q as [|a r]; [congruence|]. destruct H as (F & K & E). rewrite L in E. injection E as ->.
  split. { apply NoDup_rev in N. rewrite <- (rev_involutive ((a :: r) ++ [n])). apply NoDup_rev. rewrite rev_app_distr. cbn [rev app]. constructor; [|exact N]. change (~ In n (rev (a :: r))). rewrite <- in_rev. exact NI. }
  cbn [app]. unfold link_last. cbn [first set_last set_job set_jobs last jobs]. split; [exact F|]. split.
  - apply links_snoc; [|rewrite upd_same; reflexivity]. apply (links_ext (jobs t)); [|exact K].
    intros x X. rewrite upd_other; [reflexivity|]. intros ->. exact (last_not_removelast r a N X).
  - rewrite last_last. reflexivity.
Qed.
(** A job that is already waiting is enqueued once more: what was behind it is lost. *)
Fixpoint upto (n : jname) (q : list jname) : list jname :=
  match q with [] => [] | a :: r => if jname_eqb a n then [a] else a :: upto n r end.
Lemma upto_in n q x : In x (upto n q) -> In x q.
Proof. induction q as [|a r IH]; [intros []|]. cbn. destruct (jname_eqb a n); cbn; intuition. Qed.
Lemma upto_split n q : In n q -> exists l r, q = l ++ n :: r /\ upto n q = l ++ [n] /\ ~ In n l.
Proof.
  induction q as [|a q IH]; [intros []|]. intros H. cbn. destruct (jname_eqb a n) eqn:E.
  - apply jname_eqb_eq in E. subst a. exists [], q. split; [reflexivity|]. split; [reflexivity|intros []].
  - destruct H as [->|H]; [rewrite jname_eqb_refl in E; discriminate|]. destruct (IH H) as (l & r & -> & U & NI). exists (a :: l), r.
    split; [reflexivity|]. split; [cbn; rewrite U; reflexivity|]. intros [->|X]; [rewrite jname_eqb_refl in E; discriminate|exact (NI X)].
Qed.
Lemma nodup_app_l {A} (l r : list A) : NoDup (l ++ r) -> NoDup l.
Proof. induction l as [|a l IH]; intros H; [constructor|]. inversion H as [|? ? N1 N2]; subst. constructor; [|apply IH, N2]. intros X. apply N1, in_or_app. left. exact X. Qed.
Lemma rep_again t q l n : rep t q -> last t = Some l -> In n q -> rep (link_last t l n) (upto n q).
Proof.
  intros [N H] L I. destruct (upto_split n q I) as (p & r & -> & -> & NI).
  destruct p as [|a p].
  - cbn [app] in *. destruct H as (F & _ & _). split; [repeat constructor; intros []|]. cbn. auto.
  - cbn [app] in *. destruct H as (F & K & E). rewrite L in E. injection E as ->.
    split. { apply (nodup_app_l (a :: p ++ [n]) r). cbn [app]. rewrite <- app_assoc. exact N. }
    unfold link_last. cbn [first set_last set_job set_jobs last jobs]. split; [exact F|]. split; [|rewrite last_last; reflexivity].
    apply (links_ext (jobs t)); [|eapply links_prefix; exact K]. intros x X. rewrite upd_other; [reflexivity|]. intros ->.
    apply (last_not_removelast _ _ N). change (a :: p ++ [n]) with ((a :: p) ++ [n]) in X. rewrite removelast_last in X.
    assert (R : forall b, removelast ((a :: p) ++ n :: b) = (a :: p) ++ removelast (n :: b)) by (intros b; apply removelast_app; discriminate).
    change (a :: p ++ n :: r) with ((a :: p) ++ n :: r). rewrite R. apply in_or_app. left. exact X.
Qed.
