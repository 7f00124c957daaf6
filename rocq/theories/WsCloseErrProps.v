(** C26 when the connection fails, for applications that leave the closing to the peer and to the library. *)
From Verif Require Import Base Utf8Model MaskModel MaskSpec EndianModel EndianSpec EndianProofs
  WsModel WsFrame WsSendProofs WsRecvSpec WsFrameSpec WsSend WsHistory WsTrace WsExec WsRecvProofs WsRecvReach WsClean WsRecvProps WsRecvProps2
  WsQueue WsOutSpec WsArrive WsWire WsOut WsOutStep WsOutReach WsOutProps WsRefuse WsClose WsCloseProps WsAnswer WsCloseErr.
Open Scope N_scope.
Set Warnings "-unused-intro-pattern".

Lemma once_split l1 : forall e l0, once (l1 ++ e :: l0) -> once_ev e l0 /\ once l0.
Proof. induction l1 as [|a l1 IH]; intros e l0 H; cbn in H; [exact H|]. apply IH, H. Qed.
Lemma once_hooks l : once l -> (hooks l <= 1)%nat.
Proof.
  induction l as [|e l IH]; intros H; [apply Nat.le_0_l|]. destruct H as [H1 H2]. change (hooks (e :: l)) with (hooks ([e] ++ l)). rewrite hooks_app. specialize (IH H2).
  destruct e; try exact IH. destruct H1 as [-> _]. apply le_n.
Qed.

(** The close hook is called at most once, whatever goes wrong. *)
Theorem ws_hook_called_at_most_once_remote : forall C s k, cfg_ok C -> reach C remote (s, k) -> (hooks (tr s) <= 1)%nat.
Proof. intros C s k HC H. destruct (reach_phase C HC s k H) as (q & _ & _ & O). apply once_hooks, O. Qed.
Print Assumptions ws_hook_called_at_most_once_remote.

(** After the hook nothing is delivered; before it, all handlers of messages and pings were called. *)
Theorem ws_nothing_delivered_after_hook_remote : forall C s k l1 l0, cfg_ok C -> reach C remote (s, k) -> tr s = l1 ++ EvHook :: l0 ->
  dones l0 = musers (accepts l0) /\
  forall e, In e l1 -> e <> EvHook /\ e <> EvEof /\ (forall kind data, e <> EvControl kind data) /\ (forall b n d c f, e <> EvData b n d c f).
Proof.
  intros C s k l1 l0 HC H E. destruct (reach_phase C HC s k H) as (q & _ & _ & O). rewrite E in O. split; [apply once_split in O; destruct O as [[_ O] _]; exact O|].
  intros e X. apply in_split in X. destruct X as (a & b & ->). rewrite <- app_assoc in O. cbn [app] in O. apply once_split in O. destruct O as [O _].
  assert (Y : hooks (b ++ EvHook :: l0) <> 0%nat). { rewrite hooks_app. change (hooks (EvHook :: l0)) with (S (hooks l0)). lia. }
  repeat split; intros; intros ->; cbn in O; try (apply Y; exact O). destruct O as [O _]. exact (Y O).
Qed.
Print Assumptions ws_nothing_delivered_after_hook_remote.

(** A failed connection is closed: whenever the library waits for the event loop after an error was reported, the hook was
    called, or the stream holds a write - the close frame of the error - whose completion will close the connection. *)
Theorem ws_failure_closes_remote : forall C s err reason, cfg_ok C -> reach C remote (s, []) -> In (EvError err reason) (tr s) ->
  In EvHook (tr s) \/ (0 < inflight (T s))%nat /\ bswh (T s) = SHCloseImmediate.
Proof.
  intros C s err reason HC H E. pose proof (reported_failed C _ _ _ _ _ H E) as CB. destruct (reach_phase C HC s [] H) as (q & _ & P & _). unfold phase in P. rewrite CB in P.
  destruct P as [top c r k' E' TP L HZ|c r k' E' Q L HZ|r pre k' E' PR Q BW IF JH PH L HZ|r e k' E' Q JH PH L HZ|pre x k' E' FH CX JH PH L HZ|HK JH L HZ].
  - destruct top; discriminate.
  - discriminate.
  - right. split; assumption.
  - discriminate.
  - destruct pre; discriminate.
  - left. unfold hooks in HZ. destruct (filter is_hook (tr s)) as [|e l] eqn:F; [discriminate|]. assert (X : In e (filter is_hook (tr s))) by (rewrite F; left; reflexivity). apply filter_In in X. destruct X as [X Y]. destruct e; try discriminate Y. exact X.
Qed.
Print Assumptions ws_failure_closes_remote.

(** ... and then it is closed: once that write has completed, with whatever result, the hook is called before the library
    waits for the event loop again. *)
Inductive only_ops (C : cfg) : conf -> conf -> Prop :=
| oo_refl c : only_ops C c c
| oo_step c ch c1 c2 : enabled c (XOp ch) -> step C c (XOp ch) = Ret c1 -> only_ops C c1 c2 -> only_ops C c c2.
Definition final_phase (s : ws) (k : list op) : Prop := nclose k <> 0%nat \/ (exists e k', k = OStream SHCloseImmediate e :: k') \/ hooks (tr s) <> 0%nat.
Lemma final_op C s o k q ch s' os : late s (o :: k) q -> rep (T s) q -> final_phase s (o :: k) -> (exists es, tr s' = es ++ tr s) -> run_op C s o ch = Ret (s', os) -> final_phase s' (os ++ k).
Proof.
  intros L RP F (es & TR) H. assert (HK : hooks (tr s) <> 0%nat -> final_phase s' (os ++ k)). { intros X. right. right. rewrite TR, hooks_app. lia. }
  destruct L as [top c r k' E TP L HZ|c r k' E Q L HZ|r pre k' E PR Q BW IF JH PH L HZ|r e k' E Q JH PH L HZ|pre x k' E FH CX JH PH L HZ|HK' JH L HZ].
  - exfalso. destruct L as (_ & L2 & _). destruct F as [F|[(e & k0 & F)|F]]; [|rewrite F in E|congruence].
    + apply F. rewrite E. destruct TP as [-> | (o' & -> & AO)]; cbn [app]; rewrite ?nc_cons, L2; [reflexivity|]. destruct o'; try reflexivity; destruct AO.
    + destruct TP as [-> | (o' & -> & AO)]; [discriminate E|]. injection E as <- _. destruct AO.
  - exfalso. destruct L as (_ & L2 & _). destruct F as [F|[(e & k0 & F)|F]]; [|rewrite F in E; discriminate|congruence]. apply F. rewrite E, nc_cons, L2. reflexivity.
  - exfalso. destruct L as (L1 & L2 & _). destruct F as [F|[(e & k0 & F)|F]]; [|rewrite F in E|congruence].
    + apply F. rewrite E. destruct PR as [-> | (e & c0 & r0 & ->)]; cbn [app]; rewrite ?nc_cons, L2; reflexivity.
    + destruct PR as [-> | (e' & c0 & r0 & ->)]; [|discriminate E]. cbn [app] in E. rewrite <- E in L1. inversion L1 as [|? ? X _]. exact X.
  - injection E as -> ->. cbn [run_op] in H. binv H. destruct a as [[t n] c]. subst q. unfold write_jobs_popfront in E. destruct (rep_pop _ _ _ RP) as [D _]. rewrite D in E. cbn [jobs set_first] in E.
    destruct (jwbh (jobs (T s) JClose)) as [c1|] eqn:W; [|discriminate]. injection E as <- <- <-. injection H as <- <-. left. cbn [app close_handler]. rewrite !nc_cons. discriminate.
  - destruct pre as [|o' pre]; cbn [app] in E; injection E as -> ->.
    + destruct x; try discriminate CX; cbn [run_op] in H.
      * left. destruct (hasrh s); injection H as <- <-; cbn [app]; rewrite !nc_cons; discriminate.
      * injection H as <- <-. right. right. discriminate.
    + left. assert (G : forall l, nclose (l ++ x :: k') <> 0%nat). { intros l. induction l as [|a l IH]; cbn [app]; rewrite nc_cons; [rewrite CX; discriminate|]. lia. } rewrite app_assoc. apply G.
  - apply HK. rewrite HZ. discriminate.
Qed.
Lemma hooks_in l : hooks l <> 0%nat -> In EvHook l.
Proof. unfold hooks. intros X. destruct (filter is_hook l) as [|e l'] eqn:F; [destruct X; reflexivity|]. assert (Y : In e (filter is_hook l)) by (rewrite F; left; reflexivity). apply filter_In in Y. destruct Y as [Y Z]. destruct e; try discriminate Z. exact Y. Qed.

Theorem ws_failure_hook_after_write_remote : forall C s err reason res c1 s2, cfg_ok C -> reach C remote (s, []) -> In (EvError err reason) (tr s) ->
  enabled (s, []) (XWritten res) -> step C (s, []) (XWritten res) = Ret c1 -> only_ops C c1 (s2, []) -> In EvHook (tr s2).
Proof.
  intros C s err reason res c1 s2 HC H E En St OO.
  assert (RS : reach C remote c1) by (eapply (reach_step C remote _ (XWritten res)); [exact H|exact En|split; exact I|exact St]).
  assert (G : cbe (fst c1) = true /\ final_phase (fst c1) (snd c1)).
  { pose proof (reported_failed C _ _ _ _ _ H E) as CB. destruct (reach_phase C HC s [] H) as (q & RP & P & _). unfold phase in P. rewrite CB in P. destruct En as (_ & HK & IF).
    destruct (late_written s q res RP P HK) as (q' & RP' & L'). cbn [step] in St. unfold lift in St. cbn [obind fst snd app] in St. injection St as <-. cbn [fst snd].
    split; [exact CB|].
    destruct L' as [top c r k' E' TP L HZ|c r k' E' Q L HZ|r pre k' E' PR Q BW IF' JH PH L HZ|r e k' E' Q JH PH L HZ|pre x k' E' FH CX JH PH L HZ|HK' JH L HZ].
    - exfalso. destruct TP as [-> | (o & -> & AO)]; [discriminate E'|]. cbn [app] in E'. injection E' as _ E'. discriminate E'.
    - discriminate E'.
    - exfalso. destruct PR as [-> | (e & c0 & r0 & ->)]; [|discriminate E']. cbn [app] in E'. destruct L as (L1 & _). rewrite <- E' in L1. inversion L1 as [|? ? X _]. exact X.
    - right. left. rewrite E'. eauto.
    - left. rewrite E'. clear -CX. induction pre as [|a l IH]; cbn [app]; rewrite nc_cons; [rewrite CX; discriminate|lia].
    - right. right. intros X. cbn [T tr set_T] in *. rewrite HZ in X. discriminate. }
  clear St En E H. remember (s2, @nil op) as c2 eqn:Ec. revert s2 Ec G. induction OO as [c|c ch c1 c2 En St OO IH]; intros s2 Ec (CB & G).
  - subst c. cbn [fst snd] in G. apply hooks_in. destruct G as [G|[(e & k' & X)|X]]; [|discriminate|exact X]. exfalso. apply G. reflexivity.
  - pose proof (reach_step C remote _ (XOp ch) _ RS En (conj I I) St) as RS'. apply (IH RS' s2 Ec). clear IH OO. destruct c as [s0 k0], c1 as [s1 k1]. cbn [fst snd] in *.
    destruct (reach_phase C HC s0 k0 RS) as (q0 & RP0 & P0 & ON). unfold phase in P0. rewrite CB in P0.
    cbn [enabled] in En. destruct En as [KN CH]. destruct k0 as [|o k0]; [congruence|]. cbn [step] in St. unfold lift in St. binv St. destruct a as [sa os]. injection St as -> <-. cbn [fst snd] in *.
    assert (GR : (exists es, tr s1 = es ++ tr s0) /\ cbe s1 = true).
    { pose proof (history C _ _ _ RS) as (HP & _). destruct (run_op_grow C _ _ _ _ _ E) as [Gr|(e' & c' & r' & _ & X & _)]; [|congruence]. destruct (Gr HP) as (_ & (es & X & _) & Y & _). split; [exists es; exact X|congruence]. }
    destruct GR as [GR CB1]. split; [exact CB1|]. exact (final_op C s0 o k0 q0 ch s1 os P0 RP0 G GR E).
Qed.
Print Assumptions ws_failure_hook_after_write_remote.

(** Non-vacuity: a peer breaks the protocol (reserved opcode) while a message is being written; the error is reported, the
    message's handler is called, and the close frame of the error waits in the stream ... *)
Definition remoteb (c : conf) (x : act) : bool := properb c x && match x with XApi (AClose _ _ _) _ => false | _ => true end.
Lemma remoteb_ok c x : remoteb c x = true -> remote c x.
Proof. intros H. apply andb_prop in H. destruct H as [H1 H2]. split; [apply properb_ok, H1|]. destruct x as [| a ? | | |]; try exact I. destruct a; try exact I. discriminate H2. Qed.
Ltac rgo_it C l :=
  let s := fresh "s" in let k := fresh "k" in let E := fresh "E" in let H := fresh "REACH" in
  destruct (exec C remoteb start l) as [[s k]|] eqn:E; [|vm_compute in E; discriminate E];
  assert (H : reach C remote (s, k)) by (eapply exec_reach; [exact remoteb_ok|apply start_reach|exact E]); vm_compute in E;
  match type of E with Some (?a, ?b) = _ =>
    assert (s = a) by congruence; assert (k = b) by congruence; clear E; exists s, k; split; [exact H|clear H; subst s k] end.
Example failing_history : exists s k, reach cli remote (s, k) /\ k = [] /\ (exists r, In (EvError CIO_PROTOCOL_NOT_SUPPORTED r) (tr s)) /\ hooks (tr s) = 0%nat /\ (0 < inflight (T s))%nat /\ dones (tr s) = [(JMsg, 1%nat)].
Proof.
  rgo_it cli ([readcall; op1; say 1 [72; 105]; arrive [0xF1; 0]] ++ ops 7). split; [reflexivity|]. split; [eexists; cbn [tr In]; right; right; right; left; reflexivity|].
  split; [reflexivity|]. split; [cbn; lia|]. reflexivity.
Qed.
(** ... and once the stream has reported its write, the close hook is called - once, and after the read handler was told. *)
Example failed_history : exists s k, reach cli remote (s, k) /\ k = [] /\ (exists err r, In (EvError err r) (tr s)) /\ hooks (tr s) = 1%nat /\ In EvEof (tr s).
Proof.
  rgo_it cli ([readcall; op1; say 1 [72; 105]; arrive [0xF1; 0]] ++ ops 7 ++ [XWritten 0] ++ ops 7). split; [reflexivity|]. split; [do 2 eexists; cbn [tr In]; do 5 right; left; reflexivity|].
  split; [reflexivity|]. cbn [tr In]. tauto.
Qed.
