(** Property theorems: write buffer chains (C08, C09, C48). *)
From Verif Require Import Base WriteBufferModel WriteBufferSpec WriteBufferProofs.
Open Scope N_scope.

(** C08.  Any program of chain operations that respects the callers' obligations
    ([legal_run]) runs without undefined behaviour, returns what the same program
    returns on plain sequences, and leaves every chain a well-formed circular
    doubly linked list of exactly the elements of its sequence, with the right
    counters and untouched element data. *)
Theorem C08_chains_behave_like_sequences : forall (alloc : ptr -> Prop) fuel os (h : heap),
  (forall p, alloc p -> p <> 0 /\ h p <> None) ->
  legal_run alloc empty_world os -> (length os < fuel)%nat ->
  exists h', wb_run fuel h os = Ret (h', snd (spec_run empty_world os)) /\
    forall c l, chains (fst (spec_run empty_world os)) c = Some l ->
      chain_at h' c l /\ forall p, In p l -> stored_elem h' p = elems (fst (spec_run empty_world os)) p.
Proof. exact programs_refine. Qed.
Print Assumptions C08_chains_behave_like_sequences.

Definition ex_heap : heap := fun p => if p =? 0 then None else Some (Cell 77 77 77 77).
Definition ex_build : list wb_op :=
  [ OpHeadInit 1; OpHeadInit 2; OpElemInit 10 1000 5; OpElemInit 11 2000 7; OpElemInit 12 3000 0;
    OpQueueTail 1 10; OpQueueHead 1 11; OpQueueBefore 1 10 12 ].
Definition ex_prog : list wb_op := ex_build ++
  [ OpTotalSize 1; OpNumElements 1; OpSplit 2 1 12; OpLast 2; OpPeek 1; OpUnlink 2 10; OpSplice 1 2;
    OpDequeue 2; OpDequeue 2; OpEmpty 2 ].
Ltac legal_tac :=
  cbn -[N.lt N.pow]; unfold is_free, seq_of, set; cbn -[N.lt N.pow];
  repeat split; try reflexivity; try discriminate; try (eexists; split; [reflexivity|cbn; tauto]);
  let c := fresh in let l := fresh in let Hcl := fresh in let Hin := fresh in
  intros c l Hcl Hin; unfold set in Hcl;
  repeat match type of Hcl with context [c =? ?k] => destruct (c =? k) end;
  inversion Hcl; subst; cbn in Hin; intuition discriminate.
Lemma ex_alloc : forall p, p <> 0 -> p <> 0 /\ ex_heap p <> None.
Proof.
  intros p Hp. split; [assumption|]. unfold ex_heap. apply N.eqb_neq in Hp. rewrite Hp. discriminate.
Qed.
Example C08_legal : (forall p, p <> 0 -> p <> 0 /\ ex_heap p <> None) /\
  legal_run (fun p => p <> 0) empty_world ex_prog.
Proof. split; [exact ex_alloc|legal_tac]. Qed.
Lemma ex_build_legal : legal_run (fun p => p <> 0) empty_world ex_build.
Proof. legal_tac. Qed.
Example C08_result : snd (spec_run empty_world ex_prog) =
  [0;0;0;0;0;0;0;0;12;3;0;10;11;0;0;12;11;1].
Proof. reflexivity. Qed.

(** C09.  Splitting [f] at its element [x]. *)
Theorem C09_split_moves_exactly_the_tail : forall fuel h t f x lt l1 l2,
  chain_at h f (l1 ++ x :: l2) -> chain_at h t lt ->
  (forall p, In p (f :: l1 ++ x :: l2) -> ~ In p (t :: lt)) -> (length l2 + 1 < fuel)%nat ->
  exists h', wb_split_and_append fuel h t f x = Ret h' /\
    chain_at h' f l1 /\ chain_at h' t (lt ++ x :: l2) /\
    (forall p, p <> t -> p <> f -> stored_elem h' p = stored_elem h p) /\
    (forall p, ~ In p (f :: l1 ++ x :: l2) -> ~ In p (t :: lt) -> same_at h h' p).
Proof. exact split_at_spec. Qed.
Print Assumptions C09_split_moves_exactly_the_tail.

Definition ex_built : heap :=
  match wb_run 20 ex_heap ex_build with Ret (h, _) => h | UB => ex_heap end.
Example C09_nonvacuous : chain_at ex_built 1 ([11] ++ 12 :: [10]) /\ chain_at ex_built 2 [].
Proof.
  destruct (C08_chains_behave_like_sequences (fun p => p <> 0) 20 ex_build ex_heap ex_alloc ex_build_legal)
    as (h' & E & H); [cbn; lia|].
  unfold ex_built. rewrite E. split; apply H; reflexivity.
Qed.

(** C48 (violated).  cio_write_buffer_is_last_element answers "is [x] the FIRST
    element": it compares [prev], not [next], with the head. *)
Theorem C48_is_last_element_tests_first : forall h c l1 x l2,
  chain_at h c (l1 ++ x :: l2) ->
  wb_is_last_element h c x = Ret (match l1 with [] => true | _ => false end).
Proof. exact is_last_is_first. Qed.
Print Assumptions C48_is_last_element_tests_first.

Theorem C48_is_last_element_refuted : exists h c l x,
  chain_at h c (l ++ [x]) /\ wb_is_last_element h c x = Ret false.
Proof.
  exists ex_built, 1, [11; 12], 10. split; [exact (proj1 C09_nonvacuous)|].
  exact (C48_is_last_element_tests_first ex_built 1 [11; 12] 10 [] (proj1 C09_nonvacuous)).
Qed.
Print Assumptions C48_is_last_element_refuted.
