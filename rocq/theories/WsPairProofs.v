(** Lemmas for C70. *)
From Verif Require Import Base Utf8Model Utf8Spec MaskModel MaskSpec MaskProofs EndianModel EndianSpec EndianProofs
  WsModel WsFrame WsSendProofs WsRecvSpec WsDecode WsFrameSpec WsCodec WsSend WsHistory WsTrace WsExec WsRecvProofs WsRecvReach WsClean WsRecvProps WsRecvProps2
  WsQueue WsOutSpec WsArrive WsWire WsOut WsOutStep WsOutReach WsOutProps WsRefuse WsFrames WsFrameProps WsPairSpec.
Open Scope N_scope.
Set Warnings "-unused-intro-pattern".

(** * Messages in pieces *)
Definition mnext (cur : option message) (x : item) : option message :=
  if 8 <=? snd (fst x) then cur
  else let m := match cur with Some (bin, a) => (bin, a ++ snd x) | None => (snd (fst x) =? 2, snd x) end in
       if fst (fst x) then None else Some m.
Lemma messages_app l : forall cur r, messages cur (l ++ r) = messages cur l ++ messages (fold_left mnext l cur) r.
Proof.
  induction l as [|[[fin op] p] l IH]; intros cur r; [reflexivity|]. cbn [app messages fold_left]. unfold mnext at 2. cbn [fst snd].
  destruct (8 <=? op); [apply IH|]. destruct fin; cbn [app]; rewrite IH; reflexivity.
Qed.
Definition jnext_ (cur : option message) (x : bool * bool * list N) : option message :=
  let m := match cur with Some (b, a) => (b, a ++ snd x) | None => (snd (fst x), snd x) end in if fst (fst x) then None else Some m.
Lemma joined_app l : forall cur r, joined cur (l ++ r) = joined cur l ++ joined (fold_left jnext_ l cur) r.
Proof.
  induction l as [|[[fin bin] p] l IH]; intros cur r; [reflexivity|]. cbn [app joined fold_left]. unfold jnext_ at 2. cbn [fst snd].
  destruct fin; cbn [app]; rewrite IH; reflexivity.
Qed.

(** Calls and the frames they ask for describe the same messages. *)
Lemma wish_cases m e : (exists x, call_of e = [x] /\ wish m e = [(fst (fst x), if m then 0 else if snd (fst x) then 2 else 1, snd x)]) \/
  (call_of e = [] /\ Forall (fun x : item => 8 <= snd (fst x)) (wish m e)).
Proof.
  destruct e as [bin fl d lc lf| |k data|er re|j c|j id er c| |a|j jb len|er|er]; cbn [call_of wish]; try (right; split; [reflexivity|constructor]).
  - right. split; [reflexivity|]. destruct k as [|p]; [constructor|]. do 4 (destruct p as [p|p|]; try constructor; cbn; try lia; try constructor).
  - destruct a as [|id fl p lf bin|id p|id p|id p|id code r]; cbn [call_of wish]; try (right; split; [reflexivity|repeat constructor; cbn; lia]). left. exists (lf, bin, pbytes p). split; reflexivity.
Qed.
Lemma hi_messages l : forall cur, Forall (fun x : item => 8 <= snd (fst x)) l -> messages cur l = [] /\ fold_left mnext l cur = cur /\ (forall m, fold_left next l m = m).
Proof.
  induction l as [|[[f o] p] l IH]; intros cur H; [repeat split|]. inversion H as [|? ? H1 H2]; subst. cbn [fst snd] in H1. cbn [messages fold_left]. unfold mnext at 2. cbn [fst snd].
  assert (8 <=? o = true) as -> by (apply N.leb_le; exact H1). destruct (IH cur H2) as (I1 & I2 & I3). split; [exact I1|]. split; [exact I2|]. intros m. unfold next at 2. cbn [fst snd].
  assert (o <? 8 = false) as -> by (apply N.ltb_ge; exact H1). apply I3.
Qed.

Definition opened (c : option message) : bool := match c with Some _ => true | None => false end.
Lemma mnext_opened cur x : opened (mnext cur x) = next (opened cur) x.
Proof.
  unfold mnext, next. destruct x as [[f o] p]. cbn [fst snd]. rewrite N.ltb_antisym. destruct (8 <=? o); cbn [negb]; [reflexivity|]. destruct f; reflexivity.
Qed.
Lemma fold_opened l : forall cur, opened (fold_left mnext l cur) = fold_left next l (opened cur).
Proof. induction l as [|x l IH]; intros cur; [reflexivity|]. cbn [fold_left]. rewrite IH, mnext_opened. reflexivity. Qed.

Lemma wanted_sent t : written (wanted t) = sent_messages t /\ fold_left mnext (wanted t) None = fold_left jnext_ (accepted_calls t) None.
Proof.
  unfold written, sent_messages. induction t as [|e t IH]; [split; reflexivity|]. destruct e as [bin fl d lc lf| |k data|er re|j c|j id er c| |a|j jb len|er|er]; try exact IH.
  destruct t as [|e t]; [split; reflexivity|].
  change (wanted (EvAccept j jb len :: e :: t)) with (wanted (e :: t) ++ wish (unfinished (wanted (e :: t))) e).
  change (accepted_calls (EvAccept j jb len :: e :: t)) with (accepted_calls (e :: t) ++ call_of e).
  set (W := wanted (e :: t)) in *. set (Q := accepted_calls (e :: t)) in *. clearbody W Q. destruct IH as [I1 I2].
  assert (U : unfinished W = opened (fold_left mnext W None)) by (rewrite fold_opened; reflexivity).
  rewrite messages_app, joined_app, !fold_left_app, I1, I2. rewrite U, I2. set (cur := fold_left jnext_ Q None). clearbody cur.
  destruct (wish_cases (opened cur) e) as [([[fin bin] p] & E1 & E2)|[E1 E2]].
  - rewrite E1, E2. cbn [fst snd messages joined fold_left]. unfold mnext, jnext_. cbn [fst snd]. destruct cur as [[b a]|]; cbn [opened].
    + change (8 <=? 0) with false. cbv iota. destruct fin; split; reflexivity.
    + assert ((8 <=? (if bin then 2 else 1)) = false) as -> by (destruct bin; reflexivity). assert (((if bin then 2 else 1) =? 2) = bin) as -> by (destruct bin; reflexivity). destruct fin; split; reflexivity.
  - rewrite E1. destruct (hi_messages _ cur E2) as (H1 & H2 & _). rewrite H1, H2. split; reflexivity.
Qed.

(** * What the decoder reports, as messages *)
Lemma collected_bytes bin fin len p : forall cur r, collected cur (map (OutByte bin fin len) p ++ r) = collected (cur ++ p) r.
Proof. induction p as [|b p IH]; intros cur r; cbn; [rewrite app_nil_r; reflexivity|]. rewrite IH, <- app_assoc. reflexivity. Qed.
Definition in_progress (m : option bool) (acc : list N) : option message := match m with Some b => Some (b, acc) | None => None end.
Lemma after_ops m f m' : WsFrameSpec.after m f = Some m' ->
  (8 <= f_op f /\ m' = m) \/ (f_op f < 8 /\ m' = (if f_fin f then None else Some (frame_type m f)) /\ (m = None -> (f_op f = 1 \/ f_op f = 2))).
Proof.
  unfold WsFrameSpec.after, frame_type. intros H. destruct (f_op f) as [|p]; [|do 4 (try (destruct p as [p|p|]; try discriminate H))].
  - right. destruct m as [b|]; [|discriminate]. injection H as <-. split; [lia|]. split; [reflexivity|discriminate].
  - left. destruct (_ && _)%bool; [|discriminate]. injection H as <-. split; [lia|reflexivity].
  - left. destruct (_ && _)%bool; [|discriminate]. injection H as <-. split; [lia|reflexivity].
  - left. destruct (_ && _)%bool; [|discriminate]. injection H as <-. split; [lia|reflexivity].
  - right. destruct m; [discriminate|]. injection H as <-. split; [lia|]. split; [reflexivity|auto].
  - right. destruct m; [discriminate|]. injection H as <-. split; [lia|]. split; [reflexivity|auto].
Qed.
Lemma outs_messages fs : forall m acc, after_all m fs <> None -> (m = None -> acc = []) ->
  collected acc (frames_outs m fs) = messages (in_progress m acc) (map content fs).
Proof.
  induction fs as [|f fs IH]; intros m acc A E; [reflexivity|]. cbn [after_all frames_outs map messages content] in *.
  destruct (WsFrameSpec.after m f) as [m'|] eqn:AF; [|congruence]. unfold content at 1. unfold frame_outs. destruct (after_ops m f m' AF) as [[O ->]|(O & -> & O2)].
  - assert (8 <=? f_op f = true) as -> by (apply N.leb_le; exact O). cbn [app collected]. apply IH; assumption.
  - assert (8 <=? f_op f = false) as -> by (apply N.leb_gt; exact O). rewrite <- app_assoc, collected_bytes. cbn [app collected].
    assert (M : match in_progress m acc with Some (bin, a) => (bin, a ++ f_payload f) | None => (f_op f =? 2, f_payload f) end = (frame_type m f, acc ++ f_payload f)).
    { unfold in_progress, frame_type. destruct m as [b|]; [reflexivity|]. rewrite (E eq_refl). reflexivity. }
    rewrite M. destruct (f_fin f).
    + f_equal. apply IH; [exact A|reflexivity].
    + apply (IH (Some (frame_type m f))); [exact A|discriminate].
Qed.
Lemma outs_controls k fs : 8 <= k -> forall m, after_all m fs <> None -> got_controls k (frames_outs m fs) = controls k (map content fs).
Proof.
  intros K. induction fs as [|f fs IH]; intros m A; [reflexivity|]. cbn [after_all frames_outs map] in *.
  destruct (WsFrameSpec.after m f) as [m'|] eqn:AF; [|congruence]. unfold got_controls, controls in *. rewrite flat_map_app. cbn [flat_map content fst snd]. rewrite <- (IH m' A). f_equal.
  unfold frame_outs. destruct (N.leb_spec 8 (f_op f)) as [O|O]; [cbn [flat_map]; rewrite app_nil_r; reflexivity|].
  assert (f_op f =? k = false) as -> by (apply N.eqb_neq; lia). rewrite flat_map_app. cbn [flat_map]. rewrite app_nil_r. induction (f_payload f); [reflexivity|assumption].
Qed.
Lemma until_prefix fs : exists r, fs = until_close fs ++ r.
Proof. induction fs as [|f fs [r IH]]; [exists []; reflexivity|]. cbn [until_close]. destruct (f_op f =? 8); [exists fs; reflexivity|]. exists r. cbn. f_equal. exact IH. Qed.
Lemma after_all_app fs : forall m r, after_all m (fs ++ r) <> None -> after_all m fs <> None.
Proof. induction fs as [|f fs IH]; intros m r H; cbn in *; [discriminate|]. destruct (WsFrameSpec.after m f); [eapply IH; exact H|exact H]. Qed.

(** Prefixes of what was received give prefixes of the messages. *)
Fixpoint cnext (cur : list N) (l : list out) : list N :=
  match l with
  | [] => cur
  | OutByte _ _ _ b :: r => cnext (cur ++ [b]) r
  | OutEnd _ true _ :: r => cnext [] r
  | _ :: r => cnext cur r
  end.
Lemma collected_app l : forall cur r, collected cur (l ++ r) = collected cur l ++ collected (cnext cur l) r.
Proof. induction l as [|o l IH]; intros cur r; [reflexivity|]. cbn [app collected cnext]. destruct o as [bin fin len b|bin fin len|k p]; [apply IH| |apply IH]. destruct fin; cbn [app]; rewrite IH; reflexivity. Qed.
Lemma prefix_received a b : prefix a b -> prefix (received a) (received b).
Proof. intros [r ->]. unfold received. rewrite collected_app. eexists. reflexivity. Qed.
Lemma prefix_got k a b : prefix a b -> prefix (got_controls k a) (got_controls k b).
Proof. intros [r ->]. unfold got_controls. rewrite flat_map_app. eexists. reflexivity. Qed.
Lemma prefix_trans {A} (a b c : list A) : prefix a b -> prefix b c -> prefix a c.
Proof. intros [r ->] [q ->]. exists (r ++ q). symmetry. apply app_assoc. Qed.
Lemma prefix_written a b : prefix a b -> prefix (written a) (written b).
Proof. intros [r ->]. unfold written. rewrite messages_app. eexists. reflexivity. Qed.
Lemma prefix_controls k a b : prefix a b -> prefix (controls k a) (controls k b).
Proof. intros [r ->]. unfold controls. rewrite flat_map_app. eexists. reflexivity. Qed.

(** The decoder's reports for what a sender has handed to the stream. *)
Lemma sender_outs C s k : cfg_ok C -> reach C whole_frames (s, k) -> no_error (tr s) ->
  exists fs, prefix (map content fs) (wanted (tr s)) /\ after_all None (until_close fs) <> None /\ snd (decode (negb (is_server C)) (bytes_sent (tr s))) = frames_outs None (until_close fs).
Proof.
  intros HC H N. destruct (frames_of C s k HC H N) as (fs & rest & F1 & F2 & F3 & mo & F4 & _). exists fs. split; [exists rest; exact F1|].
  split; [|rewrite F2; apply decode_until; [exact F3|congruence]]. destruct (until_prefix fs) as [r R]. apply (after_all_app _ _ r). rewrite <- R, F4. discriminate.
Qed.
Lemma decode_prefix sv a b : prefix (snd (decode sv a)) (snd (decode sv (a ++ b))).
Proof. unfold decode. rewrite dec_run_app. cbn [snd]. eexists. reflexivity. Qed.
Lemma map_prefix {A B} (f : A -> B) a b : prefix a b -> prefix (map f a) (map f b).
Proof. intros [r ->]. rewrite map_app. eexists. reflexivity. Qed.

(** * Pongs *)
Inductive sub {A} : list A -> list A -> Prop :=
| sub_nil : sub [] []
| sub_skip x l r : sub l r -> sub l (x :: r)
| sub_take x l r : sub l r -> sub (x :: l) (x :: r).
Lemma sub_len {A} (a b : list A) : sub a b -> (length a <= length b)%nat.
Proof. intros H. induction H; cbn; lia. Qed.
Lemma sub_eq {A} (a b : list A) : sub a b -> (length b <= length a)%nat -> a = b.
Proof. intros H. induction H as [|x l r H IH|x l r H IH]; intros L; [reflexivity| |]. - apply sub_len in H. cbn in L. lia. - f_equal. apply IH. cbn in L. lia. Qed.
Lemma sub_app {A} (a b c d : list A) : sub a b -> sub c d -> sub (a ++ c) (b ++ d).
Proof. intros H K. induction H; cbn; [exact K|constructor; assumption..]. Qed.
Lemma sub_refl {A} (a : list A) : sub a a.
Proof. induction a; constructor; assumption. Qed.
Lemma sub_none {A} (a : list A) : sub [] a.
Proof. induction a; constructor; assumption. Qed.

Lemma controls_app k a b : controls k (a ++ b) = controls k a ++ controls k b.
Proof. apply flat_map_app. Qed.
Lemma pongs_wish m e : controls 10 (wish m e) = ping_of e.
Proof.
  destruct e as [bin fl d lc lf| |k data|er re|j c|j id er c| |a|j jb len|er|er]; try reflexivity.
  - destruct k as [|p]; [reflexivity|]. do 4 (destruct p as [p|p|]; try reflexivity).
  - destruct a as [|id fl p lf bin|id p|id p|id p|id code r]; try reflexivity. cbn. destruct m, bin; reflexivity.
Qed.
Lemma pongs_wanted_le t : (length (controls 10 (wanted t)) <= length (collect ping_of t))%nat.
Proof.
  assert (X : forall t, (length (controls 10 (wanted t)) <= length (collect ping_of t))%nat /\ forall j jb len, (length (controls 10 (wanted (EvAccept j jb len :: t))) <= length (collect ping_of t))%nat).
  { clear t. induction t as [|e t [I1 I2]]; [split; [cbn; lia|intros; cbn; lia]|]. split.
    - cbn [collect]. rewrite app_length. destruct e; try (cbn [wanted]; lia). specialize (I2 j jb len). lia.
    - intros j jb len. change (wanted (EvAccept j jb len :: e :: t)) with (wanted (e :: t) ++ wish (unfinished (wanted (e :: t))) e). rewrite controls_app, pongs_wish. cbn [collect]. rewrite !app_length.
      destruct e; try (cbn [wanted]; lia). specialize (I2 j0 jb0 len0). lia. }
  apply X.
Qed.
Lemma own_pongs_sub t : sub (collect pong_of t) (controls 10 (map item_of (accepts t))).
Proof.
  induction t as [|e t IH]; [constructor|]. unfold accepts. cbn [collect]. fold (accepts t). rewrite map_app, controls_app. apply sub_app; [exact IH|].
  destruct e as [bin fl d lc lf| |k data|er re|j c|j id er c| |a|j jb len|er|er]; try constructor. cbn [acc_of map].
  destruct j; try apply sub_none. unfold pong_of. destruct jb as [nx [c|] [[u|]|] ty la co sh]; try apply sub_none.
  destruct ty as [|p]; try apply sub_none. do 4 (destruct p as [p|p|]; try apply sub_none).
  destruct la; try apply sub_none. destruct co; try apply sub_none. destruct sh; try apply sub_none.
  destruct (len =? total_size c); [|apply sub_none]. apply sub_refl.
Qed.
(** The pongs an endpoint sends are its answers to the pings it got, in order. *)
Lemma pongs_answer C s k : cfg_ok C -> reach C whole_frames (s, k) -> no_error (tr s) -> controls 10 (wanted (tr s)) = got_controls 9 (delivered (tr s)).
Proof.
  intros HC H N. destruct (reach_made C HC s k H (no_error_cbe _ _ _ _ H N)) as [m1 _ _ _]. pose proof (own_pongs_sub (tr s)) as S. rewrite <- m1 in S.
  destruct (history C _ s k H) as (_ & E & _). rewrite <- E in S. rewrite <- (sub_eq _ _ S (pongs_wanted_le (tr s))).
  clear. induction (tr s) as [|e t IH]; [reflexivity|]. cbn [collect delivered]. unfold got_controls in *. rewrite flat_map_app, IH. f_equal. destruct e as [bin fl d lc lf| |k data|er re|j c|j id er c| |a|j jb len|er|er]; try reflexivity.
  - cbn [ping_of outs_of]. rewrite flat_map_app. replace (flat_map _ (map _ d)) with (@nil (list N)) by (induction d; [reflexivity|assumption]). destruct lc; reflexivity.
  - cbn [ping_of outs_of flat_map]. rewrite app_nil_r. destruct k as [|p]; [reflexivity|]. do 4 (destruct p as [p|p|]; try reflexivity).
Qed.
Lemma pings_wanted t : controls 9 (wanted t) = sent_pings t.
Proof.
  induction t as [|e t IH]; [reflexivity|]. destruct e as [bin fl d lc lf| |k data|er re|j c|j id er c| |a|j jb len|er|er]; try exact IH.
  destruct t as [|e t]; [reflexivity|]. change (wanted (EvAccept j jb len :: e :: t)) with (wanted (e :: t) ++ wish (unfinished (wanted (e :: t))) e).
  change (sent_pings (EvAccept j jb len :: e :: t)) with (sent_pings (e :: t) ++ ping_call_of e). rewrite controls_app, IH. f_equal. clear.
  set (m := unfinished _). clearbody m. destruct e as [bin fl d lc lf| |k data|er re|j c|j id er c| |a|j jb len|er|er]; try reflexivity.
  - destruct k as [|p]; [reflexivity|]. do 4 (destruct p as [p|p|]; try reflexivity).
  - destruct a as [|id fl p lf bin|id p|id p|id p|id code r]; try reflexivity. cbn. destruct m, bin; reflexivity.
Qed.

(** * No message after a close frame *)
Definition named (a : ent) : Prop := (jtype (ent_job a) = 8 -> ent_name a = JClose) /\ (jtype (ent_job a) < 8 -> ent_name a = JMsg).
Definition ordered (l : list ent) : Prop := forall a x b, l = a ++ x :: b -> ent_name x = JMsg -> Forall (fun y => ent_name y <> JClose) a.
Definition adds (s s' : ws) : Prop := exists es, tr s' = es ++ tr s /\
  (Forall no_acc es \/ exists es1 n j len e, es = es1 ++ [EvAccept n j len; e] /\ Forall no_acc es1 /\ no_acc e /\ named (n, j, len) /\ (n = JMsg -> close_asked (tr s) = false)).
Lemma asked_accepts t : close_asked t = false -> Forall (fun y => ent_name y <> JClose) (accepts t).
Proof.
  induction t as [|e t IH]; intros H; [constructor|]. unfold close_asked in *. cbn [existsb] in H. apply Bool.orb_false_iff in H. destruct H as [H1 H2]. unfold accepts. cbn [collect]. fold (accepts t).
  apply Forall_app. split; [apply IH, H2|]. destruct e; try constructor; [|constructor]. cbn in H1. unfold ent_name. cbn [fst]. destruct j; congruence.
Qed.
Lemma adds_keep s s' : adds s s' -> Forall named (accepts (tr s)) /\ ordered (accepts (tr s)) -> Forall named (accepts (tr s')) /\ ordered (accepts (tr s')).
Proof.
  intros (es & E & [Q|(es1 & n & j & len & e & -> & Q & NA & NM & CL)]) [F O]; rewrite E.
  - rewrite accepts_quiet by exact Q. split; assumption.
  - rewrite <- app_assoc, accepts_quiet by exact Q. cbn [app]. assert (X : accepts (EvAccept n j len :: e :: tr s) = accepts (tr s) ++ [(n, j, len)]).
    { unfold accepts. cbn [collect acc_of]. destruct e; cbn [acc_of]; rewrite ?app_nil_r; try reflexivity. destruct NA. }
    rewrite X. split; [apply Forall_app; split; [exact F|constructor; [exact NM|constructor]]|]. intros a x b EQ NX. destruct b as [|y b] using rev_ind.
    + apply app_inj_tail in EQ. destruct EQ as [<- <-]. apply asked_accepts, CL, NX.
    + clear IHb. change (x :: b ++ [y]) with ((x :: b) ++ [y]) in EQ. rewrite app_assoc in EQ. apply app_inj_tail in EQ. destruct EQ as [EQ _]. exact (O a x b EQ NX).
Qed.

Section L.
Variable C : cfg.
Hypothesis HC : cfg_ok C.
Lemma adds_quiet s s' es : tr s' = es ++ tr s -> Forall no_acc es -> adds s s'.
Proof. intros E Q. exists es. split; [exact E|left; exact Q]. Qed.
Lemma adds_one s s' es n j len e : tr s' = es ++ EvAccept n j len :: e :: tr s -> Forall no_acc es -> no_acc e -> named (n, j, len) -> (n = JMsg -> close_asked (tr s) = false) -> adds s s'.
Proof. intros E Q A N CL. exists (es ++ [EvAccept n j len; e]). split; [rewrite E, <- app_assoc; reflexivity|]. right. exists es, n, j, len, e. repeat split; try assumption; apply N. Qed.
Lemma named_close j len : jtype j = 8 -> named (JClose, j, len).
Proof. intros E. unfold named, ent_job, ent_name. cbn [fst snd]. rewrite E. split; [reflexivity|lia]. Qed.
Lemma named_high n j len : 9 <= jtype j -> named (n, j, len).
Proof. intros E. unfold named, ent_job. cbn [fst snd]. split; lia. Qed.
Lemma adds_fire s rq f ch s' os : rx_ok s -> fire_ok rq f -> fire C s rq f ch = Ret (s', os) -> adds s s'.
Proof.
  intros RX FO H. destruct (fire_arrival C HC s rq f ch s' os RX FO H) as (os1 & -> & AR).
  destruct AR as [es X1 X2 X3 X4 X5|s1 data X1 X2 X3 X4|s1 addr data X1 X2 X3 X4].
  - apply (adds_quiet s s' es X2). eapply Forall_impl; [|exact X3]. intros e. destruct e; intros X; try exact I; destruct X.
  - unfold handle_ping_frame in X4. destruct (Nat.ltb 125 (length data)); [discriminate|].
    match type of X4 with enqueue_job C ?S _ _ _ _ = _ => set (s2 := S) in * end. apply enqueue_quiet in X4. destruct X4 as (es & E & Q & _).
    eapply (adds_one s s' es JPong _ _ (EvControl PING_FRAME data)); [rewrite E; cbn [s2 tr log set_T]; rewrite X2; reflexivity|exact Q|exact I|apply named_high; intros X; discriminate X|discriminate].
  - unfold handle_close_frame in X4. binv X4. destruct a as [ccode rs|status len].
    { injection X4 as <- <-. apply (adds_quiet s s1 []); [exact X2|constructor]. }
    cbn [log selfc] in X4. destruct (selfc s1).
    { injection X4 as <- <-. apply (adds_quiet s _ [EvControl CLOSE_FRAME data]); [cbn; rewrite X2; reflexivity|repeat constructor]. }
    set (reason := if 0 <? len then _ else _) in *. set (s0 := log s1 (EvControl CLOSE_FRAME data)) in *.
    destruct (close_chain C s0 status reason None SHResponseClose ch) as (b & JB & _). { unfold reason. destruct (0 <? len); [apply bytes_ok_skipn, X3|exact I]. }
    set (s2 := prepare_close_job C s0 status reason None SHResponseClose ch) in *.
    apply enqueue_quiet in X4. destruct X4 as (es & E4 & Q & _).
    eapply (adds_one s s' es JClose (jobs (T s2) JClose) (close_size s2) (EvControl CLOSE_FRAME data)); [|exact Q|exact I|apply named_close; rewrite JB; reflexivity|discriminate].
    rewrite E4. unfold accept_close, s2, prepare_close_job, s0. cbn [tr log set_T]. rewrite X2. reflexivity.
Qed.
Lemma adds_call s k a ch s' os : made s -> whole_frames (s, k) (XApi a ch) -> api_ok a -> call C s a ch = Ret (s', os) -> adds s s'.
Proof.
  intros M W AO H. destruct W as [PR W]. cbn [proper fst] in PR. destruct PR as [_ PR]. unfold call in H. cbv zeta in H.
  assert (REF : forall s2 e s1 os1, tr s2 = EvCall a :: tr s -> refuse s2 e = Ret (s1, os1) -> adds s s1).
  { intros s2 e s1 os1 E X. injection X as <- _. apply (adds_quiet s _ [EvRefuse e; EvCall a]); [cbn; rewrite E; reflexivity|repeat constructor]. }
  destruct a as [|id flen p lf bin|id p|id p|id p|id code reason].
  - assert (X : forall cb most n msg, Ret (bs_read C (set_hasrh (log s (EvCall ARead))) cb most n msg) = Ret (s', os) -> adds s s').
    { intros cb most n msg X. unfold bs_read in X. destruct (negb most && _)%bool; injection X as <- _; (apply (adds_quiet s _ [EvCall ARead]); [reflexivity|repeat constructor]). }
    destruct (_ =? _); eapply X; exact H.
  - destruct id as [id|]; [|eapply REF; [|exact H]; reflexivity]. cbn [log T] in H. destruct (jwbh (jobs (T s) JMsg)); [eapply REF; [|exact H]; reflexivity|].
    destruct PR as [PN PC]. destruct (if fragw (T s) then _ else _) as [kind fw] eqn:KD. apply enqueue_quiet in H. destruct H as (es & E & Q & F).
    assert (K : kind < 8) by (destruct (fragw (T s)); injection KD as <- _; [destruct bin|]; reflexivity).
    eapply (adds_one s s' es JMsg _ flen _); [rewrite E; reflexivity|exact Q|exact I| |intros _; exact PC]. split; unfold ent_job, ent_name; cbn [fst snd jtype]; [lia|reflexivity].
  - destruct W.
  - destruct PR as [PN _]. unfold write_ping_or_pong in H. destruct id as [id|]; [|eapply REF; [|exact H]; reflexivity]. destruct p as [c|]; [|congruence].
    destruct (negb _) in H; [eapply REF; [|exact H]; reflexivity|]. cbn [log T] in H.
    destruct (jwbh (jobs (T s) JPing)); [eapply REF; [|exact H]; reflexivity|].
    apply enqueue_quiet in H. destruct H as (es & E & Q & F). eapply (adds_one s s' es JPing _ (total_size c) _); [rewrite E; reflexivity|exact Q|exact I|apply named_high; intros X; discriminate X|discriminate].
  - destruct PR.
  - destruct id as [id|]; [|eapply REF; [|exact H]; reflexivity]. cbn [log T] in H. destruct (jwbh (jobs (T s) JClose)); [eapply REF; [|exact H]; reflexivity|]. destruct AO as [_ AO].
    set (s0 := log s (EvCall (AClose (Some id) code reason))) in *.
    destruct (close_chain C s0 code reason (Some (HUser id)) SHClose ch AO) as (b & JB & _).
    set (s2 := prepare_close_job C s0 code reason (Some (HUser id)) SHClose ch) in *.
    destruct (negb _); [eapply (REF s2); [reflexivity|exact H]|]. destruct (negb _); [eapply (REF s2); [reflexivity|exact H]|].
    apply enqueue_quiet in H. destruct H as (es & E & Q & F).
    eapply (adds_one s s' es JClose (jobs (T s2) JClose) (close_size s2) _); [rewrite E; reflexivity|exact Q|exact I|apply named_close; rewrite JB; reflexivity|discriminate].
Qed.
Theorem reach_ordered s k : reach C whole_frames (s, k) -> cbe s = false -> Forall named (accepts (tr s)) /\ ordered (accepts (tr s)).
Proof.
  intros H. remember (s, k) as c eqn:Ec. revert s k Ec. induction H as [g L1 L2 L3 L4|c x c' Hr IH En Cd St]; intros s k Ec CB.
  - injection Ec as <- <-. split; [constructor|]. intros a x b E. destruct a; discriminate E.
  - subst c'. destruct c as [s0 k0]. pose proof St as G. apply step_grow in G.
    pose proof (proj1 (history C _ _ _ Hr)) as PP.
    assert (CB0 : cbe s0 = false). { destruct G as [G|(_ & _ & _ & _ & _ & _ & _ & _ & X & _)]; [|congruence]. destruct (G PP) as (_ & _ & X & _). congruence. }
    specialize (IH _ _ eq_refl CB0). apply (adds_keep s0 s); [|exact IH]. pose proof (whole_proper _ _ _ Hr) as Hp. pose proof (reach_made C HC _ _ Hr CB0) as MD.
    destruct (reach_out C HC _ _ Hp) as (q & _ & IV). rewrite CB0 in IV.
    destruct x as [ch|a ch|f ch|err|err]; cbn [enabled] in En; cbn [step] in St.
    + destruct En as [KN CH]. destruct k0 as [|o k1]; [congruence|]. unfold lift in St. binv St. destruct a as [s1 os]. injection St as -> <-. cbn [fst snd] in *.
      assert (NE : forall c r, o <> OErrClose c r). { intros c r ->. destruct IV as [V|[(o' & k' & X & V) _]]; [exact (n_top _ _ _ _ _ _ V)|]. injection X as <- <-. exact V. }
      apply op_quiet in E; [|exact NE]. destruct E as (es & E & Q & F). exact (adds_quiet _ _ _ E Q).
    + destruct En as (UC & HK & CH & AO). unfold lift in St. binv St. destruct a0 as [s1 os]. injection St as -> <-. cbn [fst snd] in *. eapply adds_call; eassumption.
    + destruct En as (KT & _ & _ & CH & rq & RD & FO). rewrite RD in St. unfold lift in St. binv St. destruct a as [s1 os]. injection St as -> <-. cbn [fst snd] in *.
      assert (WI : WsRecvProofs.inv C s0 k0) by (eapply reach_inv; [exact HC|]; eapply reach_mono; [|exact Hp]; intros; apply proper_reads; assumption).
      apply (adds_fire s0 rq f ch s os); try assumption. destruct (i_mask _ _ _ WI) as (? & ? & _). split; assumption.
    + unfold lift in St. cbn [obind fst snd] in St. injection St as <- _. apply (adds_quiet s0 _ []); [reflexivity|constructor].
    + unfold lift in St. cbn [obind fst snd] in St. injection St as <- _. apply (adds_quiet s0 _ []); [reflexivity|constructor].
Qed.
End L.

(** So the frames before the first close frame carry all messages. *)
Lemma until_written es : Forall named es -> ordered es -> forall fs rest, map item_of es = map content fs ++ rest -> written (map content (until_close fs)) = written (map content fs).
Proof.
  intros N O fs rest E.
  assert (X : forall a f b, fs = a ++ f :: b -> f_op f = 8 -> Forall (fun x : item => 8 <= snd (fst x)) (map content b)).
  { intros a f b -> F8. rewrite map_app in E. cbn [map] in E. rewrite <- app_assoc in E. cbn [app] in E.
    apply map_eq_app in E. destruct E as (e1 & e2 & -> & E1 & E2). destruct e2 as [|x e2]; [discriminate E2|]. cbn [map] in E2. injection E2 as _ E2 _ E3.
    apply map_eq_app in E3. destruct E3 as (e3 & e4 & -> & E3 & E4). rewrite <- E3. apply Forall_map. apply Forall_forall. intros y Y. apply in_split in Y. destruct Y as (y1 & y2 & ->).
    apply Forall_app in N. destruct N as [_ N]. inversion N as [|? ? N1 N2]; subst. cbn [item_of fst snd].
    destruct (N.le_gt_cases 8 (jtype (ent_job y))) as [Q|Q]; [exact Q|exfalso]. apply Forall_app in N2. destruct N2 as [N2 _]. apply Forall_app in N2. destruct N2 as [_ N2]. inversion N2 as [|? ? N3 _]; subst.
    destruct N3 as [_ N3]. specialize (N3 Q). specialize (O (e1 ++ x :: y1) y (y2 ++ e4)).
    assert (EQ : e1 ++ x :: (y1 ++ y :: y2) ++ e4 = (e1 ++ x :: y1) ++ y :: y2 ++ e4) by (rewrite <- !app_assoc; reflexivity). specialize (O EQ N3). apply Forall_app in O. destruct O as [_ O]. inversion O as [|? ? O1 _]; subst.
    apply O1. destruct N1 as [N1 _]. apply N1. congruence. }
  clear E N O. revert X. unfold written. generalize (@None message) as cur. induction fs as [|f fs IH]; intros cur X; [reflexivity|].
  cbn [until_close]. destruct (N.eqb_spec (f_op f) 8) as [E|E].
  - specialize (X [] f fs eq_refl E). cbn [map messages]. unfold content at 1 2. rewrite E. change (8 <=? 8) with true. cbv iota. cbn [messages]. symmetry. apply hi_messages, X.
  - assert (X' : forall a f0 b, fs = a ++ f0 :: b -> f_op f0 = 8 -> Forall (fun x : item => 8 <= snd (fst x)) (map content b)) by (intros a f0 b -> ; apply (X (f :: a) f0 b eq_refl)).
    cbn [map messages]. change (content f) with (f_fin f, f_op f, f_payload f). cbv beta iota zeta. destruct (8 <=? f_op f); [apply IH, X'|]. destruct (f_fin f); [f_equal|]; apply IH, X'.
Qed.

(** * Texts *)
Lemma rest_of_fold l : forall cur, rest_of cur l = fold_left jnext_ l cur.
Proof. induction l as [|[[fin bin] p] l IH]; intros cur; [reflexivity|]. cbn [rest_of fold_left]. unfold jnext_ at 2. cbn [fst snd]. destruct fin; apply IH. Qed.
Definition tacc (m : option bool) (acc : list N) : list N := match m with Some false => acc | _ => [] end.
Definition tcur (c : option message) : list N := match c with Some (false, a) => a | _ => [] end.
Lemma texts_bytes fin len p : forall cur r, texts cur (map (OutByte false fin len) p ++ r) = texts (cur ++ p) r.
Proof. induction p as [|b p IH]; intros cur r; cbn [map app texts]; [rewrite app_nil_r; reflexivity|]. rewrite IH, <- app_assoc. reflexivity. Qed.
Lemma texts_bin fin len p : forall cur r, texts cur (map (OutByte true fin len) p ++ r) = texts cur r.
Proof. induction p as [|b p IH]; intros cur r; cbn [map app texts]; [reflexivity|]. apply IH. Qed.
Lemma outs_texts fs : forall m acc, after_all m fs <> None -> (m = None -> acc = []) ->
  texts (tacc m acc) (frames_outs m fs) = (flat_map text_of (messages (in_progress m acc) (map content fs)), tcur (fold_left mnext (map content fs) (in_progress m acc))).
Proof.
  induction fs as [|f fs IH]; intros m acc A E; [destruct m as [[]|]; reflexivity|]. cbn [after_all frames_outs map messages fold_left] in *.
  destruct (WsFrameSpec.after m f) as [m'|] eqn:AF; [|congruence]. change (content f) with (f_fin f, f_op f, f_payload f). unfold mnext at 2. cbn [fst snd]. unfold frame_outs.
  destruct (after_ops m f m' AF) as [[O ->]|(O & -> & O2)].
  - assert (8 <=? f_op f = true) as -> by (apply N.leb_le; exact O). cbn [app texts]. apply IH; assumption.
  - assert (8 <=? f_op f = false) as -> by (apply N.leb_gt; exact O). rewrite <- app_assoc. cbn [app].
    assert (M : match in_progress m acc with Some (bin, a) => (bin, a ++ f_payload f) | None => (f_op f =? 2, f_payload f) end = (frame_type m f, acc ++ f_payload f)).
    { unfold in_progress, frame_type. destruct m as [b|]; [reflexivity|]. rewrite (E eq_refl). reflexivity. }
    rewrite M. assert (TC : frame_type m f = true -> tacc m acc = []). { unfold frame_type, tacc. destruct m as [[]|]; try reflexivity. discriminate. }
    assert (TF : frame_type m f = false -> tacc m acc = acc). { unfold frame_type, tacc. destruct m as [[]|]; try reflexivity; [discriminate|]. intros _. rewrite (E eq_refl). reflexivity. }
    destruct (frame_type m f); [rewrite texts_bin, (TC eq_refl)|rewrite texts_bytes, (TF eq_refl)]; cbn [texts]; destruct (f_fin f).
    + specialize (IH None [] A (fun _ => eq_refl)). cbn [tacc in_progress] in IH. cbn [flat_map text_of fst app]. exact IH.
    + specialize (IH (Some true) (acc ++ f_payload f) A ltac:(discriminate)). cbn [tacc in_progress] in IH. exact IH.
    + specialize (IH None [] A (fun _ => eq_refl)). cbn [tacc in_progress] in IH. rewrite IH. cbn [flat_map text_of fst snd app]. reflexivity.
    + specialize (IH (Some false) (acc ++ f_payload f) A ltac:(discriminate)). cbn [tacc in_progress] in IH. exact IH.
Qed.
Lemma ascii_texts l : forall cur, Forall (Forall (fun b => b < 128)) (fst (texts cur l)) -> Forall (fun b => b < 128) (snd (texts cur l)) -> Forall (fun b => b < 128) cur /\ ascii_only l.
Proof.
  unfold ascii_only. induction l as [|o l IH]; intros cur F1 F2; [split; [exact F2|constructor]|]. cbn [texts] in *. destruct o as [bin fin len b|bin fin len|k p].
  - destruct bin; [destruct (IH cur F1 F2) as [I1 I2]; split; [exact I1|constructor; [exact I|exact I2]]|]. destruct (IH _ F1 F2) as [I1 I2]. apply Forall_app in I1. destruct I1 as [I0 I1]. split; [exact I0|]. constructor; [|exact I2]. inversion I1; assumption.
  - destruct bin; [destruct (IH cur F1 F2) as [I1 I2]; split; [exact I1|constructor; [exact I|exact I2]]|]. destruct fin; [|destruct (IH cur F1 F2) as [I1 I2]; split; [exact I1|constructor; [exact I|exact I2]]].
    destruct (texts [] l) as [dn c] eqn:E. cbn [fst snd] in *. inversion F1 as [|? ? G1 G2]; subst. split; [exact G1|]. constructor; [exact I|]. apply (IH []); rewrite E; assumption.
  - destruct (IH cur F1 F2) as [I1 I2]; split; [exact I1|constructor; [exact I|exact I2]].
Qed.
Lemma ascii_well_formed l : Forall (fun b => b < 128) l -> utf8_well_formed l.
Proof.
  intros H. exists l. split.
  - eapply Forall_impl; [|exact H]. intros b Hb. left. cbn in Hb. lia.
  - induction H as [|b l Hb Hl IH]; [reflexivity|]. cbn [flat_map]. rewrite <- IH. unfold utf8_encode. change 0x80 with 128. destruct (N.ltb_spec b 128); [reflexivity|lia].
Qed.
Lemma valid_of fs : forall m, Forall frame_ok fs -> after_all m fs <> None -> Forall (fun f => f_op f <> 8) fs -> valid_frames m fs.
Proof.
  induction fs as [|f fs IH]; intros m F A N; [exact I|]. cbn [valid_frames after_all] in *. inversion F; inversion N; subst. split; [assumption|].
  destruct (WsFrameSpec.after m f) as [m'|]; [|congruence]. destruct (N.eqb_spec (f_op f) 8); [contradiction|]. apply IH; assumption.
Qed.
Lemma until_none fs : Forall (fun f => f_op f <> 8) fs -> until_close fs = fs.
Proof. intros H. induction H as [|f fs Hf Hfs IH]; [reflexivity|]. cbn [until_close]. destruct (N.eqb_spec (f_op f) 8); [contradiction|]. rewrite IH. reflexivity. Qed.
Lemma controls_none fs m : after_all m fs <> None -> Forall (fun f => f_op f <> 8) fs -> no_close (frames_outs m fs).
Proof.
  intros A H x I. assert (X : In x (got_controls 8 (frames_outs m fs))) by (unfold got_controls; apply in_flat_map; exists (OutControl 8 x); split; [exact I|left; reflexivity]).
  rewrite outs_controls in X by (lia || exact A). unfold controls in X. apply in_flat_map in X. destruct X as (y & Y1 & Y2). apply in_map_iff in Y1. destruct Y1 as (f & <- & Y1). cbn in Y2.
  destruct (N.eqb_spec (f_op f) 8) as [E|E]; [|destruct Y2]. rewrite Forall_forall in H. exact (H f Y1 E).
Qed.
(** Nothing in progress: everything accepted is on the wire. *)
Lemma all_out C s : cfg_ok C -> reach C whole_frames (s, []) -> no_error (tr s) -> inflight (T s) = 0%nat ->
  exists fs, wanted (tr s) = map content fs /\ bytes_sent (tr s) = enc_frames (negb (is_server C)) fs /\ Forall frame_ok fs /\ after_all None fs <> None.
Proof.
  intros HC H N IF. pose proof (whole_proper C _ _ H) as HP. pose proof (no_error_cbe _ _ _ _ H N) as CB. destruct (reach_made C HC s [] H CB) as [m1 m2 _ m4].
  destruct (reach_out C HC s [] HP) as (q & _ & I). rewrite CB in I. destruct I as [V|[(o & k' & X & _) _]]; [|discriminate X].
  pose proof (tok_in C _ _ _ _ _ V Logic.I) as TK. rewrite IF in TK. cbn in TK. destruct q; [|cbn [one] in TK; lia].
  destruct (n_wires _ _ _ _ _ _ V) as (m0 & D & Q & w1 & w2 & w3 & _). destruct Q; [|discriminate w2]. rewrite firstn_nil, app_nil_r in w3. rewrite app_nil_r in w1.
  rewrite <- w1 in w3. destruct (carried_frames _ _ _ _ _ w3 m2 (n_ents _ _ _ _ _ _ V)) as (fs & F1 & F2 & F3). exists fs. rewrite m1, F1. split; [reflexivity|]. split; [exact F2|]. split; [exact F3|].
  rewrite m1, <- F1 in m4. destruct (seq_after fs false None m4) as (mo & A1 & _); [split; congruence|]. rewrite A1. discriminate.
Qed.
Lemma no_close_frames C s k fs : cfg_ok C -> reach C whole_frames (s, k) -> no_error (tr s) -> close_asked (tr s) = false -> prefix (map content fs) (wanted (tr s)) -> Forall (fun f => f_op f <> 8) fs.
Proof.
  intros HC H N CA [rest E]. pose proof (no_error_cbe _ _ _ _ H N) as CB. destruct (reach_made C HC s k H CB) as [m1 _ _ _]. destruct (reach_ordered C HC s k H CB) as [NM _].
  apply asked_accepts in CA. apply Forall_forall. intros f F E8. assert (X : In (content f) (wanted (tr s))) by (rewrite E; apply in_or_app; left; apply in_map; exact F).
  rewrite m1 in X. apply in_map_iff in X. destruct X as (a & X1 & X2). rewrite Forall_forall in CA, NM. apply (CA a X2). apply (NM a X2). unfold item_of, content in X1. injection X1 as _ X1 _. congruence.
Qed.
