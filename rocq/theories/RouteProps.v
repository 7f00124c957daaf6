(** C33: routing of requests to locations. *)
From Verif Require Import Base RouteModel RouteSpec.
From Coq Require Import Permutation.

Lemma memcmp_prefix : forall n a b, n <= length a -> n <= length b ->
  exists r, memcmp_eq a b n = Ret r /\ (r = true <-> firstn n a = firstn n b).
Proof.
  induction n as [|n IH]; intros a b Ha Hb; cbn [memcmp_eq].
  - exists true. split; [reflexivity|]. cbn. tauto.
  - destruct a as [|x a]; [cbn in Ha; lia|]. destruct b as [|y b]; [cbn in Hb; lia|].
    cbn in Ha, Hb. destruct (IH a b) as (r & E & H); try lia. rewrite E. cbn [obind].
    eexists. split; [reflexivity|]. rewrite andb_true_iff, N.eqb_eq, H. cbn [firstn].
    split; [intros [-> ->]; reflexivity|]. intros F. injection F. auto.
Qed.

Lemma firstn_prefix (a b : list N) : length b <= length a -> firstn (length b) a = firstn (length b) b ->
  a = b ++ skipn (length b) a.
Proof. intros _ H. rewrite firstn_all in H. rewrite <- H at 1. symmetry. apply firstn_skipn. Qed.

Lemma last_byte (l : list N) c : nth_error l (length l - 1) = Some c -> exists i, l = i ++ [c].
Proof.
  destruct (destruct_list l) as [(x & t & ->)| ->]; [|discriminate].
  destruct (exists_last (l := x :: t) ltac:(discriminate)) as (i & y & E). rewrite E.
  rewrite app_length. cbn [length]. rewrite Nat.add_sub. rewrite nth_error_app2, Nat.sub_diag by lia.
  cbn. intros H. injection H as ->. eauto.
Qed.

Lemma match_spec loc target : exists b, location_match loc (length loc) target (length target) = Ret b /\
  (b = true <-> covers loc target).
Proof.
  unfold location_match. destruct (Nat.eqb_spec (length loc) 0) as [E|E].
  { exists false. split; [reflexivity|]. split; [discriminate|]. intros [H _]. destruct loc; [tauto|discriminate]. }
  destruct (Nat.ltb_spec (length target) (length loc)) as [L|L].
  { exists false. split; [reflexivity|]. split; [discriminate|]. intros (_ & rest & -> & _). rewrite app_length in L. lia. }
  assert (Hne : loc <> []) by (intros ->; apply E; reflexivity).
  destruct (memcmp_prefix (length loc) target loc L (Nat.le_refl _)) as (r & -> & Hr). cbn [obind].
  destruct r.
  2:{ exists false. split; [reflexivity|]. split; [discriminate|]. intros (_ & rest & -> & _).
      apply Hr. rewrite firstn_len_app, firstn_all. reflexivity. }
  pose proof (firstn_prefix target loc L (proj1 Hr eq_refl)) as P.
  set (rest := skipn (length loc) target) in *. clearbody rest. clear Hr L. subst target.
  rewrite app_length. destruct (Nat.eqb_spec (length loc) (length loc + length rest)) as [Q|Q].
  { exists true. split; [reflexivity|]. split; [|reflexivity]. intros _. split; [assumption|].
    exists rest. split; [reflexivity|]. left. destruct rest; [reflexivity|cbn in Q; lia]. }
  unfold byte_at. destruct (nth_error loc (length loc - 1)) as [c|] eqn:Ec.
  2:{ apply nth_error_None in Ec. lia. }
  destruct (last_byte loc c Ec) as (i & Hi). cbn [obind].
  destruct (N.eqb_spec c SLASH) as [S|S].
  { exists true. split; [reflexivity|]. split; [|reflexivity]. intros _. split; [assumption|].
    exists rest. split; [reflexivity|]. right. left. exists i. congruence. }
  destruct rest as [|d more]; [cbn in Q; lia|].
  rewrite nth_error_app2, Nat.sub_diag by lia. cbn [nth_error obind].
  assert (NC : d <> SLASH -> ~ covers loc (loc ++ d :: more)).
  { intros Hd (_ & r & Er & Hc). apply app_inv_head in Er. subst r.
    destruct Hc as [Hc|[(j & Hj)|(m & Hm)]]; [discriminate| |injection Hm; intros; congruence].
    rewrite Hj in Hi. apply app_inj_tail in Hi. destruct Hi. congruence. }
  destruct (N.eqb_spec d SLASH) as [->|D].
  - exists true. split; [reflexivity|]. split; [|reflexivity]. intros _. split; [assumption|].
    exists (SLASH :: more). split; [reflexivity|]. right. right. eauto.
  - exists false. split; [reflexivity|]. split; [discriminate|]. intros H. destruct (NC D H).
Qed.

(** Two prefixes of one string with the same length are equal. *)
Lemma same_prefix a b t : covers a t -> covers b t -> length a = length b -> a = b.
Proof.
  intros (_ & r & -> & _) (_ & q & E & _) L.
  assert (F : firstn (length a) (a ++ r) = firstn (length a) (b ++ q)) by (rewrite E; reflexivity).
  rewrite firstn_len_app, L, firstn_len_app in F. exact F.
Qed.

(** The loop, for a list searched from its head: the result is the first one of
    maximal length. *)
Lemma find_loop_spec target : forall l best best_len,
  (best = None -> best_len = 0) -> (forall b, best = Some b -> covers (path b) target /\ best_len = length (path b)) ->
  exists r, find_loop (length l) l target best best_len = Ret r /\
    (r = None <-> best = None /\ forall x, In x l -> ~ covers (path x) target) /\
    (forall y, r = Some y -> covers (path y) target /\ best_len <= length (path y) /\
      (forall x, In x l -> covers (path x) target -> length (path x) <= length (path y)) /\
      ((best = Some y) \/
       (best_len < length (path y) /\
        exists front back, l = front ++ y :: back /\ forall x, In x front -> path x <> path y))).
Proof.
  induction l as [|x l IH]; intros best bl Hn Hs; cbn [length find_loop].
  - exists best. split; [reflexivity|]. split.
    + split; [intros H; split; [exact H|]|tauto]. intros x [].
    + intros y E. destruct (Hs y E) as [H1 H2]. split; [exact H1|]. split; [lia|].
      split; [intros z []|]. left. exact E.
  - destruct (match_spec (path x) target) as (m & -> & Hm). cbn [obind].
    destruct (m && Nat.ltb bl (length (path x))) eqn:T.
    + apply andb_true_iff in T. destruct T as [-> T]. apply Nat.ltb_lt in T.
      assert (Cx : covers (path x) target) by (apply Hm; reflexivity).
      destruct (IH (Some x) (length (path x))) as (r & Er & Rn & Rs).
      { discriminate. } { intros b E. injection E as <-. auto. }
      exists r. split; [exact Er|]. split.
      * split.
        -- intros ->. destruct (proj1 Rn eq_refl) as [K _]. discriminate.
        -- intros [_ K]. destruct (K x (or_introl eq_refl) Cx).
      * intros y Ey. destruct (Rs y Ey) as (C & L & M & P). split; [exact C|]. split; [lia|]. split.
        -- intros z [<-|Hz] Cz; [lia|]. apply M; assumption.
        -- right. split; [lia|]. destruct P as [P|(P & front & back & -> & Hf)].
           ++ injection P as <-. exists [], l. split; [reflexivity|]. intros z [].
           ++ exists (x :: front), back. split; [reflexivity|]. intros z [<-|Hz] K; [|apply (Hf z Hz K)].
              rewrite K in P. lia.
    + assert (K : covers (path x) target -> length (path x) <= bl).
      { intros Cx. apply Hm in Cx. subst m. cbn in T. apply Nat.ltb_ge in T. exact T. }
      destruct (IH best bl Hn Hs) as (r & Er & Rn & Rs). exists r. split; [exact Er|]. split.
      * rewrite Rn. split.
        -- intros [-> N]. split; [reflexivity|]. intros z [<-|Hz]; [|apply N; exact Hz].
           intros Cx. specialize (K Cx). rewrite (Hn eq_refl) in K. destruct Cx as [Cx _]. destruct (path x); [tauto|cbn in K; lia].
        -- intros [-> N]. split; [reflexivity|]. intros z Hz. apply N. right. exact Hz.
      * intros y Ey. destruct (Rs y Ey) as (C & L & M & P). split; [exact C|]. split; [exact L|]. split.
        -- intros z [<-|Hz] Cz; [specialize (K Cz); lia|]. apply M; assumption.
        -- destruct P as [P|(P & front & back & -> & Hf)]; [left; exact P|]. right. split; [exact P|].
           exists (x :: front), back. split; [reflexivity|]. intros z [<-|Hz] Ez; [|apply (Hf z Hz Ez)].
           rewrite Ez in K. specialize (K C). lia.
Qed.

Lemma registered_list : forall ls s, num_handlers s = length (locations s) ->
  locations (fold_left register_location ls s) = rev ls ++ locations s /\
  num_handlers (fold_left register_location ls s) = length (rev ls ++ locations s).
Proof.
  induction ls as [|x ls IH]; intros s H; cbn [fold_left rev].
  - split; [reflexivity|exact H].
  - destruct (IH (register_location s x)) as [E1 E2]; [cbn; lia|]. rewrite E1, E2. cbn [register_location locations].
    rewrite <- app_assoc. split; reflexivity.
Qed.

Lemma find_registered ls target : exists r, find_location (registered ls) target = Ret r /\
  (r = None <-> forall x, In x ls -> ~ covers (path x) target) /\ (forall y, r = Some y -> answers ls target y).
Proof.
  unfold find_location, registered. destruct (registered_list ls server_init eq_refl) as [-> ->].
  cbn [locations server_init]. rewrite app_nil_r.
  destruct (find_loop_spec target (rev ls) None 0) as (r & E & Rn & Rs); [reflexivity|discriminate|].
  exists r. split; [exact E|]. split.
  - rewrite Rn. split.
    + intros [_ H] x Hx. apply H. apply in_rev in Hx. exact Hx.
    + intros H. split; [reflexivity|]. intros x Hx. apply H. apply in_rev. exact Hx.
  - intros y Ey. destruct (Rs y Ey) as (C & _ & M & [P|(_ & front & back & Eq & Hf)]); [discriminate|].
    split; [exact C|]. split.
    + exists (rev back), (rev front). split.
      * rewrite <- (rev_involutive ls), Eq, rev_app_distr. cbn [rev]. rewrite <- app_assoc. reflexivity.
      * intros x Hx. apply Hf. apply in_rev. exact Hx.
    + intros x Hx Cx. apply M; [|exact Cx]. apply in_rev in Hx. exact Hx.
Qed.

Lemma answers_unique ls target a b : answers ls target a -> answers ls target b -> a = b.
Proof.
  intros (Ca & (o1 & n1 & E1 & H1) & Ma) (Cb & (o2 & n2 & E2 & H2) & Mb).
  assert (Ia : In a ls) by (rewrite E1; apply in_app_iff; right; left; reflexivity).
  assert (Ib : In b ls) by (rewrite E2; apply in_app_iff; right; left; reflexivity).
  assert (Ep : path a = path b).
  { apply (same_prefix _ _ target Ca Cb). pose proof (Ma b Ib Cb). pose proof (Mb a Ia Ca). lia. }
  rewrite E1 in E2. clear - E2 H1 H2 Ep.
  revert o2 E2. induction o1 as [|x o1 IH]; intros [|y o2] E2; cbn in E2.
  - injection E2. auto.
  - injection E2 as <- E2. exfalso. apply (H1 b); [rewrite E2; apply in_app_iff; right; left; reflexivity|auto].
  - injection E2 as -> E2. exfalso. apply (H2 a); [rewrite <- E2; apply in_app_iff; right; left; reflexivity|auto].
  - injection E2 as _ E2. apply (IH o2 E2).
Qed.

(** ** C33 *)

(** For every history of registrations and every request path the lookup
    terminates without reading outside the strings and finds exactly the location
    the specification asks for. *)
Theorem C33_longest_prefix_is_found : forall (history : list location) (target : list N) (l : location),
  find_location (registered history) target = Ret (Some l) <-> answers history target l.
Proof.
  intros ls target l. destruct (find_registered ls target) as (r & E & Rn & Rs). rewrite E. split.
  - intros H. injection H as ->. apply Rs. reflexivity.
  - intros H. destruct r as [y|].
    + f_equal. f_equal. apply (answers_unique ls target); [apply Rs; reflexivity|exact H].
    + exfalso. destruct H as (C & (o & n & -> & _) & _). apply (proj1 Rn eq_refl l); [|exact C].
      apply in_app_iff. right. left. reflexivity.
Qed.
Print Assumptions C33_longest_prefix_is_found.

(** Nothing is found (the server then answers 404, see C34) exactly if no registered location covers the path. *)
Theorem C33_not_found : forall (history : list location) (target : list N),
  find_location (registered history) target = Ret None <-> (forall l, In l history -> ~ covers (path l) target).
Proof.
  intros ls target. destruct (find_registered ls target) as (r & E & Rn & Rs). rewrite E, <- Rn.
  split; [intros H; injection H as ->; reflexivity|intros ->; reflexivity].
Qed.
Print Assumptions C33_not_found.

(** The lookup never reads outside of the registered strings or the request path. *)
Theorem C33_lookup_defined : forall (history : list location) (target : list N),
  find_location (registered history) target <> UB.
Proof. intros ls t. destruct (find_registered ls t) as (r & -> & _). discriminate. Qed.
Print Assumptions C33_lookup_defined.

(** The order of the registrations does not matter for distinct locations. *)
Theorem C33_order_irrelevant : forall (h1 h2 : list location) (target : list N),
  Permutation h1 h2 -> NoDup (map path h1) ->
  find_location (registered h1) target = find_location (registered h2) target.
Proof.
  intros h1 h2 t P ND.
  assert (ND2 : NoDup (map path h2)) by (apply (Permutation_NoDup (Permutation_map path P) ND)).
  assert (W : forall h, NoDup (map path h) -> forall l, In l h -> exists o n, h = o ++ l :: n /\ forall x, In x n -> path x <> path l).
  { intros h N l I. destruct (in_split l h I) as (o & n & ->). exists o, n. split; [reflexivity|].
    intros x Hx Eq. rewrite map_app in N. cbn [map] in N. apply NoDup_remove_2 in N. apply N, in_app_iff. right.
    rewrite <- Eq. apply in_map. exact Hx. }
  destruct (find_registered h1 t) as (r & E & Rn & Rs).
  rewrite E. symmetry. destruct r as [l|].
  - apply C33_longest_prefix_is_found. destruct (Rs l eq_refl) as (C & (o & n & Eq & _) & M).
    assert (I : In l h2) by (apply (Permutation_in l P); rewrite Eq; apply in_app_iff; right; left; reflexivity).
    split; [exact C|]. split; [apply W; assumption|]. intros x Hx. apply M.
    apply (Permutation_in x (Permutation_sym P) Hx).
  - apply C33_not_found. intros l I. apply (proj1 Rn eq_refl). apply (Permutation_in l (Permutation_sym P) I).
Qed.
Print Assumptions C33_order_irrelevant.

(** Example: "/", "/a", "/a/" and "/a" again; the request path "/a/b", "/ab" and "b". *)
Definition ex : list location :=
  [Location [47] 0; Location [47; 97] 1; Location [47; 97; 47; 99] 2; Location [47; 97] 3]%N.
Theorem C33_example :
  find_location (registered ex) [47; 97; 47; 98]%N = Ret (Some (Location [47; 97]%N 3)) /\
  find_location (registered ex) [47; 97; 98]%N = Ret (Some (Location [47]%N 0)) /\
  find_location (registered ex) [98]%N = Ret None.
Proof. repeat split. Qed.
