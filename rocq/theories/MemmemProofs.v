From Verif Require Import Base MemmemModel MemmemSpec.

Lemma occurs_at_firstn h n i :
  occurs_at h n i <-> (i + length n <= length h)%nat /\ firstn (length n) (skipn i h) = n.
Proof.
  split.
  - intros (b & a & -> & <-). split; [rewrite !app_length; lia|].
    rewrite skipn_len_app, firstn_len_app. reflexivity.
  - intros [Hl He]. exists (firstn i h), (skipn (length n) (skipn i h)). split.
    + rewrite <- He at 1. rewrite firstn_skipn, firstn_skipn. reflexivity.
    + apply firstn_length_le. lia.
Qed.

Lemma skipn_nth {A} i (l : list A) c : nth_error l i = Some c -> skipn i l = c :: skipn (i + 1) l.
Proof.
  revert l. induction i as [|i IH]; intros [|a l] H; try discriminate.
  - injection H as ->. reflexivity.
  - cbn in H. cbn [skipn plus]. apply IH, H.
Qed.

Lemma memmem_loop_spec h p t : forall n b,
  (b + n = S (length h - S (length t)))%nat -> (S (length t) <= length h)%nat ->
  (forall j, (j < b)%nat -> ~ occurs_at h (p :: t) j) ->
  exists r, memmem_loop h p t b n = Ret r /\
    match r with Some i => first_occurrence h (p :: t) i | None => forall i, ~ occurs_at h (p :: t) i end.
Proof.
  induction n as [|n IH]; intros b Hb Hl Hno; cbn [memmem_loop].
  - exists None. split; [reflexivity|]. intros i Hi. apply (Hno i); [|exact Hi].
    apply occurs_at_firstn in Hi as [Hi _]. cbn [length] in Hi. lia.
  - destruct (nth_error h b) as [c|] eqn:Hc; cycle 1.
    { apply nth_error_None in Hc. lia. }
    assert (Hstep : ~ occurs_at h (p :: t) b -> exists r, memmem_loop h p t (b + 1) n = Ret r /\
      match r with Some i => first_occurrence h (p :: t) i | None => forall i, ~ occurs_at h (p :: t) i end).
    { intros Hnb. apply IH; [lia|exact Hl|]. intros j Hj.
      destruct (Nat.eq_dec j b) as [->|]; [exact Hnb|]. apply Hno. lia. }
    destruct (N.eqb_spec c p) as [->|Hne].
    + unfold memcmp_eq. replace (Nat.ltb (length h) (b + 1 + length t)) with false by (symmetry; apply Nat.ltb_ge; lia).
      cbn [obind]. destruct (list_eq_dec N.eq_dec (firstn (length t) (skipn (b + 1) h)) t) as [He|He].
      * exists (Some b). split; [reflexivity|]. split.
        -- apply occurs_at_firstn. split; [cbn [length]; lia|].
           rewrite (skipn_nth b h p Hc). cbn [length firstn]. rewrite He. reflexivity.
        -- intros j Hj. destruct (Nat.le_gt_cases b j) as [|Hlt]; [assumption|]. exfalso. exact (Hno j Hlt Hj).
      * apply Hstep. intros Ho. apply occurs_at_firstn in Ho as [_ Ho].
        rewrite (skipn_nth b h p Hc) in Ho. cbn [length firstn] in Ho. injection Ho as Ho. exact (He Ho).
    + apply Hstep. intros Ho. apply occurs_at_firstn in Ho as [_ Ho].
      rewrite (skipn_nth b h c Hc) in Ho. cbn [length firstn] in Ho. injection Ho as Ho _. exact (Hne Ho).
Qed.

Lemma memmem_correct h n : exists r, cio_memmem h n = Ret r /\
  match r with Some i => first_occurrence h n i | None => forall i, ~ occurs_at h n i end.
Proof.
  destruct n as [|p t]; cbn [cio_memmem].
  - exists (Some 0). split; [reflexivity|]. split; [|intros; lia].
    exists [], h. split; reflexivity.
  - destruct (Nat.ltb_spec (length h) (length (p :: t))) as [Hlt|Hge].
    + exists None. split; [reflexivity|]. intros i Hi. apply occurs_at_firstn in Hi as [Hi _]. lia.
    + cbn [length] in *. apply memmem_loop_spec; [lia|lia|]. intros j Hj. lia.
Qed.

(** [find_first] is the first occurrence. *)
Lemma find_first_spec h n :
  match find_first h n with Some i => first_occurrence h n i | None => forall i, ~ occurs_at h n i end.
Proof.
  induction h as [|c h IH]; cbn [find_first].
  - destruct (list_eq_dec N.eq_dec (firstn (length n) []) n) as [He|He].
    + split; [|intros; lia]. rewrite firstn_nil in He. subst n. exists [], []. split; reflexivity.
    + intros i Hi. apply occurs_at_firstn in Hi as [Hl Hi]. rewrite skipn_nil in Hi. exact (He Hi).
  - destruct (list_eq_dec N.eq_dec (firstn (length n) (c :: h)) n) as [He|He].
    + split; [|intros; lia]. apply occurs_at_firstn. split; [|exact He].
      rewrite <- He at 1. rewrite firstn_length. lia.
    + destruct (find_first h n) as [i|]; cbn [option_map].
      * destruct IH as [Ho Hmin]. split.
        -- destruct Ho as (b & a & -> & <-). exists (c :: b), a. split; reflexivity.
        -- intros [|j] Hj; [exfalso; apply occurs_at_firstn in Hj as [_ Hj]; exact (He Hj)|].
           apply le_n_S, Hmin. apply occurs_at_firstn. apply occurs_at_firstn in Hj as [Hl Hj].
           cbn in Hl. split; [lia|exact Hj].
      * intros [|j] Hj; [apply occurs_at_firstn in Hj as [_ Hj]; exact (He Hj)|].
        apply (IH j). apply occurs_at_firstn. apply occurs_at_firstn in Hj as [Hl Hj].
        cbn in Hl. split; [lia|exact Hj].
Qed.

Lemma first_occurrence_unique h n i j : first_occurrence h n i -> first_occurrence h n j -> i = j.
Proof. intros [Hi Mi] [Hj Mj]. specialize (Mi j Hj). specialize (Mj i Hi). lia. Qed.

Lemma find_first_memmem h n : cio_memmem h n = Ret (find_first h n).
Proof.
  destruct (memmem_correct h n) as (r & -> & Hr). f_equal. pose proof (find_first_spec h n) as Hf.
  destruct r as [i|], (find_first h n) as [j|]; try reflexivity.
  - f_equal. exact (first_occurrence_unique h n i j Hr Hf).
  - destruct Hr as [Hr _]. exfalso. exact (Hf i Hr).
  - destruct Hf as [Hf _]. exfalso. exact (Hr j Hf).
Qed.
