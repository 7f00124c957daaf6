(** C78: what a location handler is told about the URL of a request. *)
From Verif Require Import Base RouteModel RouteSpec RouteProps UrlModel.

(** ** Specification *)
(** What http_parser promises: the parts lie within the URL. *)
Definition within (bytes : list N) (u : url) : Prop := forall p off len, u p = Some (off, len) -> off + len <= length bytes.
(** The bytes of a part. *)
Definition part_of (bytes : list N) (u : url) (p : part) : option (list N) :=
  match u p with Some (off, len) => Some (firstn len (skipn off bytes)) | None => None end.
(** The calls a handler expects: one for each part that the URL has and a callback was set for, in the order schema, host, port, path,
    query, fragment, and then the one for the whole URL. *)
Definition expected (bytes : list N) (u : url) (h : handler) : list (cb * list N) :=
  flat_map (fun p => match part_of bytes u p with Some d => if on_part h p then [(OnPart p, d)] else [] | None => [] end)
    [Schema; Host; Port; Path; Query; Fragment]
  ++ (if on_url_set h then [(OnUrl, bytes)] else []).
Definition calls (l : list (cb * list N)) : list ev := map (fun x => EvCall (fst x) (snd x)) l.
(** How the application reacts to call [c] after the calls [before]. *)
Definition reacts (a : application) (past : list ev) (before : list (cb * list N)) (c : cb * list N) : reaction :=
  react a (past ++ calls before) (fst c) (snd c).
(** A call after which the handler is told nothing more: it wrote a response, or reported an error. *)
Definition ends (r : reaction) : Prop := responds r = true \/ ret r = Error.
Definition usable (h : handler) : Prop :=
  has_free h = true /\ ((exists p, on_part h p = true) \/ on_url_set h = true \/ exists x, later h x = true).

(** ** Proofs *)
Lemma no_callbacks_iff h : no_callbacks h = true <-> (forall p, on_part h p = false) /\ on_url_set h = false /\ forall x, later h x = false.
Proof.
  unfold no_callbacks. split.
  - intros H. destruct (_ || _)%bool eqn:E in H; [discriminate|]. repeat (apply orb_false_elim in E; destruct E as [E ?]).
    split; [intros []; assumption|]. split; [assumption|intros []; assumption].
  - intros (P & U & L). rewrite U, !P, !L. reflexivity.
Qed.
Lemma usable_callbacks h : usable h -> no_callbacks h = false.
Proof.
  intros [_ U]. apply Bool.not_true_iff_false. rewrite no_callbacks_iff. intros (P & V & L).
  destruct U as [[p U]|[U|[x U]]]; [rewrite P in U|rewrite V in U|rewrite L in U]; discriminate.
Qed.
Lemma slice_ok bytes u p off len : within bytes u -> u p = Some (off, len) -> slice bytes off len = Ret (firstn len (skipn off bytes)).
Proof. intros W E. unfold slice. rewrite (proj2 (Nat.leb_le _ _) (W _ _ _ E)). reflexivity. Qed.

Definition of_parts (bytes : list N) (u : url) (h : handler) (l : list part) : list (cb * list N) :=
  flat_map (fun p => match part_of bytes u p with Some d => if on_part h p then [(OnPart p, d)] else [] | None => [] end) l.
Lemma fired_nothing a bytes u h l s : within bytes u -> fired s = true -> url_parts a bytes u h l s = Ret (Success, s).
Proof.
  intros W F. induction l as [|p l IH]; [reflexivity|]. cbn [url_parts]. unfold call_url_parts_callback. destruct (u p) as [[off len]|] eqn:E.
  - rewrite (slice_ok _ _ _ _ _ W E). cbn [obind]. unfold data_callback. rewrite F. exact IH.
  - exact IH.
Qed.

(** What the loop over the parts does: [done] was called, [rest] was not. *)
Definition told (a : application) (past : list ev) (all done rest : list (cb * list N)) : Prop :=
  all = done ++ rest /\
  (forall before c after, done = before ++ c :: after -> after <> [] -> ~ ends (reacts a past before c)) /\
  (rest <> [] -> exists before c, done = before ++ [c] /\ ends (reacts a past before c)).
Definition result (c : cb) (r : reaction) : Z :=
  match c with OnPart _ => match ret r with Error => (-1)%Z | _ => 0%Z end | OnUrl => code (ret r) end.
(** What is returned and whether a response was written, after the calls [done]. *)
Definition outcome_of (a : application) (past : list ev) (done : list (cb * list N)) (r : Z) (f : bool) : Prop :=
  (done = [] -> r = 0%Z /\ f = false) /\
  (forall before c, done = before ++ [c] -> r = result (fst c) (reacts a past before c) /\ f = responds (reacts a past before c)).
Lemma reacts_cons a past c before d : reacts a past (c :: before) d = reacts a (past ++ [EvCall (fst c) (snd c)]) before d.
Proof. unfold reacts. cbn [calls map]. rewrite <- app_assoc. reflexivity. Qed.
Lemma told_nil a past : told a past [] [] [].
Proof. split; [reflexivity|]. split; [intros [|x b] c r H; discriminate|congruence]. Qed.
Lemma told_end a past c all : ends (reacts a past [] c) -> told a past (c :: all) [c] all.
Proof.
  intros E. split; [reflexivity|]. split.
  - intros [|x b] d r H N; [inversion H; subst; congruence | injection H as -> H; destruct b; discriminate].
  - intros _. exists [], c. auto.
Qed.
Lemma told_cons a past c all done rest : ~ ends (reacts a past [] c) -> told a (past ++ [EvCall (fst c) (snd c)]) all done rest ->
  told a past (c :: all) (c :: done) rest.
Proof.
  intros NE (A & B & C). split; [rewrite A; reflexivity|]. split.
  - intros [|x b] d r H N; injection H as -> H; [exact NE|]. rewrite reacts_cons. eapply B; [exact H | exact N].
  - intros N. destruct (C N) as (b & d & -> & E). exists (c :: b), d. split; [reflexivity|]. rewrite reacts_cons. exact E.
Qed.
Lemma outcome_one a past c : outcome_of a past [c] (result (fst c) (reacts a past [] c)) (responds (reacts a past [] c)).
Proof.
  split; [discriminate|]. intros [|x b] d H; [injection H as ->; split; reflexivity | injection H as -> H; destruct b; discriminate].
Qed.
Lemma outcome_cons a past c done r f : ~ ends (reacts a past [] c) -> (exists p, fst c = OnPart p) ->
  outcome_of a (past ++ [EvCall (fst c) (snd c)]) done r f -> outcome_of a past (c :: done) r f.
Proof.
  intros NE [p P] [A B]. split; [discriminate|]. intros [|x b] d H.
  - injection H as -> H. destruct (A H) as [-> ->]. unfold ends in NE. rewrite P. cbn [result]. destruct (reacts a past [] d) as [rt rs]. cbn in *.
    destruct rt, rs; split; try reflexivity; exfalso; apply NE; auto.
  - injection H as -> H. rewrite reacts_cons. apply B. exact H.
Qed.

(** The last part of on_url. *)
Definition finish (a : application) (bytes : list N) (h : handler) (x : cb_return * st) : outcome (Z * st) :=
  match fst x with
  | Error => Ret ((-1)%Z, snd x)
  | _ => if (on_url_set h && negb (fired (snd x)))%bool then let (r, s) := call a OnUrl bytes (snd x) in Ret (code r, s) else Ret (0%Z, snd x)
  end.
Lemma parts_told a bytes u h : within bytes u -> forall l s, fired s = false ->
  exists r s' done rest, obind (url_parts a bytes u h l s) (finish a bytes h) = Ret (r, s') /\
    tr s' = tr s ++ calls done /\
    told a (tr s) (of_parts bytes u h l ++ (if on_url_set h then [(OnUrl, bytes)] else [])) done rest /\
    outcome_of a (tr s) done r (fired s').
Proof.
  intros W. induction l as [|p l IH]; intros s F.
  - cbn [url_parts obind of_parts flat_map app]. unfold finish. cbn [fst snd]. rewrite F. destruct (on_url_set h); cbn [andb negb].
    + unfold call. do 2 eexists. exists [(OnUrl, bytes)], []. split; [reflexivity|]. split; [reflexivity|]. split.
      * split; [reflexivity|]. split; [|congruence]. intros [|x b] c q H N; [inversion H; subst; congruence | apply (f_equal (@length _)) in H; rewrite app_length in H; cbn in H; lia].
      * cbn [fired]. rewrite F. cbn [orb]. pose proof (outcome_one a (tr s) (OnUrl, bytes)) as O.
        assert (RR : reacts a (tr s) [] (OnUrl, bytes) = react a (tr s) OnUrl bytes) by (unfold reacts; cbn [calls map fst snd]; rewrite app_nil_r; reflexivity).
        rewrite RR in O. exact O.
    + exists 0%Z, s, [], []. split; [reflexivity|]. split; [symmetry; apply app_nil_r|]. split; [apply told_nil|].
      split; [intros _; auto | intros [|x b] c H; discriminate].
  - cbn [url_parts]. unfold call_url_parts_callback, of_parts. cbn [flat_map]. fold (of_parts bytes u h l). unfold part_of at 1. destruct (u p) as [[off len]|] eqn:E.
    2:{ cbn [obind fst snd app]. apply IH, F. }
    rewrite (slice_ok _ _ _ _ _ W E). cbn [obind]. set (d := firstn len (skipn off bytes)). unfold data_callback. rewrite F. cbn [negb andb].
    destruct (on_part h p); [|cbn [fst snd app]; apply IH, F].
    unfold call. cbn [fst snd app]. set (rr := react a (tr s) (OnPart p) d).
    assert (RR : reacts a (tr s) [] (OnPart p, d) = rr) by (unfold reacts; cbn [calls map fst snd]; rewrite app_nil_r; reflexivity).
    rewrite F. cbn [orb]. set (s1 := St (responds rr) (tr s ++ [EvCall (OnPart p) d])).
    set (rest0 := of_parts bytes u h l ++ (if on_url_set h then [(OnUrl, bytes)] else [])).
    pose proof (outcome_one a (tr s) (OnPart p, d)) as O. rewrite RR in O. cbn [fst result] in O.
    assert (D : ret rr = Error \/ (ret rr <> Error /\ responds rr = true) \/ (ret rr <> Error /\ responds rr = false)) by (destruct (ret rr), (responds rr); intuition discriminate).
    destruct D as [Q|[[Q RS]|[Q RS]]].
    + rewrite Q in *. cbn [obind]. unfold finish. cbn [fst snd]. exists (-1)%Z, s1, [(OnPart p, d)], rest0. split; [reflexivity|]. split; [reflexivity|]. split; [|exact O].
      apply told_end. rewrite RR. right. exact Q.
    + assert (X : match ret rr with Error => Ret (Error, s1) | _ => url_parts a bytes u h l s1 end = Ret (Success, s1)).
      { rewrite (fired_nothing a bytes u h l s1 W RS). destruct (ret rr); congruence. }
      rewrite X. cbn [obind]. unfold finish. cbn [fst snd]. change (fired s1) with (responds rr). rewrite RS in *. cbn [negb]. rewrite andb_false_r.
      exists 0%Z, s1, [(OnPart p, d)], rest0. split; [reflexivity|]. split; [reflexivity|]. split.
      * apply told_end. rewrite RR. left. exact RS.
      * change (fired s1) with (responds rr). rewrite RS. destruct (ret rr); (exact O || congruence).
    + assert (X : match ret rr with Error => Ret (Error, s1) | _ => url_parts a bytes u h l s1 end = url_parts a bytes u h l s1) by (destruct (ret rr); congruence).
      rewrite X. destruct (IH s1 RS) as (r & s' & done & rest & X2 & T & TO & OU). exists r, s', ((OnPart p, d) :: done), rest.
      assert (NE : ~ ends (reacts a (tr s) [] (OnPart p, d))) by (rewrite RR; intros [Y|Y]; congruence).
      split; [exact X2|]. split; [rewrite T; unfold s1; cbn [tr calls map fst snd]; rewrite <- app_assoc; reflexivity|]. split.
      * apply told_cons; [exact NE | exact TO].
      * apply outcome_cons; [exact NE | exists p; reflexivity | exact OU].
Qed.

Lemma on_url_handler a history bytes u off len l h s : within bytes u -> u Path = Some (off, len) ->
  answers history (firstn len (skipn off bytes)) l -> alloc a (ident l) = Some h ->
  on_url a (registered history) bytes (Some u) s =
    if negb (has_free h) then Ret (0%Z, write_status 500 (log (EvAlloc (ident l)) s))
    else if no_callbacks h then Ret (0%Z, write_status 500 (log (EvAlloc (ident l)) s))
    else obind (url_parts a bytes u h parts (log (EvAlloc (ident l)) s)) (finish a bytes h).
Proof.
  intros W P A H. unfold on_url. rewrite P, (slice_ok _ _ _ _ _ W P). cbn [obind]. rewrite (proj2 (C33_longest_prefix_is_found _ _ _) A). cbn [obind]. rewrite H. reflexivity.
Qed.

(** ** Theorems *)
(** The handler of the location that answers the path is told the parts of the URL and then the whole URL: exactly the calls it
    expects, in order, until it writes a response or reports an error. *)
Theorem C78_url_is_handed_over : forall a history bytes u off len l h past, within bytes u -> u Path = Some (off, len) ->
  answers history (firstn len (skipn off bytes)) l -> alloc a (ident l) = Some h -> usable h ->
  let start := past ++ [EvAlloc (ident l)] in
  exists r s' done rest, on_url a (registered history) bytes (Some u) (St false past) = Ret (r, s') /\
    tr s' = start ++ calls done /\
    expected bytes u h = done ++ rest /\
    (forall before c after, done = before ++ c :: after -> after <> [] -> ~ ends (reacts a start before c)) /\
    (rest <> [] -> exists before c, done = before ++ [c] /\ ends (reacts a start before c)).
Proof.
  intros a history bytes u off len l h past W P A H U start. rewrite (on_url_handler _ _ _ _ _ _ _ _ _ W P A H).
  rewrite (usable_callbacks h U). destruct U as [-> U]. cbn [negb].
  destruct (parts_told a bytes u h W parts (log (EvAlloc (ident l)) (St false past)) eq_refl) as (r & s' & done & rest & X & T & (TO1 & TO2 & TO3) & _).
  exists r, s', done, rest. split; [exact X|]. split; [exact T|]. split; [exact TO1|]. split; [exact TO2|exact TO3].
Qed.
Print Assumptions C78_url_is_handed_over.

(** The parser is stopped exactly if the last callback for a part reported an error, or the one for the whole URL returned anything but
    success; a response was written exactly if the last callback wrote one. *)
Theorem C78_result : forall a history bytes u off len l h past r s', within bytes u -> u Path = Some (off, len) ->
  answers history (firstn len (skipn off bytes)) l -> alloc a (ident l) = Some h -> usable h ->
  on_url a (registered history) bytes (Some u) (St false past) = Ret (r, s') ->
  let start := past ++ [EvAlloc (ident l)] in
  (tr s' = start -> r = 0%Z /\ fired s' = false) /\
  (forall before c, tr s' = start ++ calls (before ++ [c]) ->
     fired s' = responds (reacts a start before c) /\
     r = match fst c, ret (reacts a start before c) with
         | _, Success => 0%Z | _, Error => (-1)%Z
         | OnPart _, SkipBody => 0%Z | OnUrl, SkipBody => 1%Z
         end).
Proof.
  intros a history bytes u off len l h past r s' W P A H U X start. rewrite (on_url_handler _ _ _ _ _ _ _ _ _ W P A H) in X.
  rewrite (usable_callbacks h U) in X. destruct U as [UF U]. rewrite UF in X. cbn [negb] in X.
  destruct (parts_told a bytes u h W parts (log (EvAlloc (ident l)) (St false past)) eq_refl) as (r2 & s2 & done & rest & X2 & T & _ & (O1 & O2)).
  rewrite X2 in X. injection X as -> ->. cbn [tr log] in *. fold start in T, O1, O2. split.
  - intros E. apply O1. rewrite E in T. rewrite <- (app_nil_r start) in T at 1. apply app_inv_head in T. destruct done; [reflexivity|discriminate].
  - intros before c E. rewrite E in T. apply app_inv_head in T. assert (D : done = before ++ [c]).
    { revert T. generalize (before ++ [c]). clear. induction done as [|[x1 x2] d IH]; intros [|[y1 y2] m] T; try discriminate; [reflexivity|].
      cbn in T. injection T as -> -> T. f_equal. apply IH, T. }
    destruct (O2 _ _ D) as [-> ->]. split; [reflexivity|]. unfold result. destruct (fst c), (ret _); reflexivity.
Qed.
Print Assumptions C78_result.

(** A request that cannot be handled: no location answers its path, no handler, a handler without a function to free it, or one
    without any callback.  The client is answered at once, and no callback is called. *)
Theorem C78_refused : forall a history bytes u off len past, within bytes u -> u Path = Some (off, len) ->
  let run := on_url a (registered history) bytes (Some u) (St false past) in
  ((forall l, In l history -> ~ covers (path l) (firstn len (skipn off bytes))) -> run = Ret (0%Z, St true (past ++ [EvStatus 404]))) /\
  (forall l, answers history (firstn len (skipn off bytes)) l ->
     (alloc a (ident l) = None -> run = Ret (0%Z, St true (past ++ [EvStatus 500]))) /\
     (forall h, alloc a (ident l) = Some h -> ~ usable h -> run = Ret (0%Z, St true (past ++ [EvAlloc (ident l); EvStatus 500])))).
Proof.
  intros a history bytes u off len past W P run. split.
  - intros N. unfold run, on_url. rewrite P, (slice_ok _ _ _ _ _ W P). cbn [obind]. rewrite (proj2 (C33_not_found _ _) N). reflexivity.
  - intros l A. split.
    + intros E. unfold run, on_url. rewrite P, (slice_ok _ _ _ _ _ W P). cbn [obind]. rewrite (proj2 (C33_longest_prefix_is_found _ _ _) A). cbn [obind]. rewrite E. reflexivity.
    + intros h E U. unfold run. rewrite (on_url_handler _ _ _ _ _ _ _ _ _ W P A E). assert (R : write_status 500 (log (EvAlloc (ident l)) (St false past)) = St true (past ++ [EvAlloc (ident l); EvStatus 500])).
      { unfold write_status. cbn [fired log tr]. rewrite <- app_assoc. reflexivity. }
      destruct (has_free h) eqn:F; cbn [negb]; [|rewrite R; reflexivity]. destruct (no_callbacks h) eqn:C; [rewrite R; reflexivity|].
      exfalso. apply U. split; [exact F|]. unfold no_callbacks in C. destruct (_ || _)%bool eqn:B in C; [|discriminate]. clear - B.
      repeat (apply orb_prop in B; destruct B as [B|B]; [|eauto]). auto.
Qed.
Print Assumptions C78_refused.

(** Without a path, or with an URL http_parser does not accept, the parser is stopped and nothing else happens. *)
Theorem C78_no_path : forall a srv bytes s u, (forall x, u = Some x -> x Path = None) -> on_url a srv bytes u s = Ret ((-1)%Z, s).
Proof. intros a srv bytes s [u|] H; [|reflexivity]. unfold on_url. rewrite (H u eq_refl). reflexivity. Qed.
Print Assumptions C78_no_path.

(** Nothing outside of the URL is read, whatever the state, the locations, the handlers and the application. *)
Theorem C78_never_outside : forall a history bytes u s, (forall x, u = Some x -> within bytes x) -> on_url a (registered history) bytes u s <> UB.
Proof.
  intros a history bytes [u|] s W; [|discriminate]. specialize (W u eq_refl). destruct (u Path) as [[off len]|] eqn:P; [|rewrite C78_no_path; [discriminate|intros x [= <-]; exact P]].
  unfold on_url. rewrite P, (slice_ok _ _ _ _ _ W P). cbn [obind]. destruct (find_location _ _) as [[l|]|] eqn:FL; [| |apply C33_lookup_defined in FL; destruct FL].
  2: discriminate. cbn [obind]. destruct (alloc a (ident l)) as [h|]; [|discriminate]. destruct (has_free h); [|discriminate]. destruct (no_callbacks h); [discriminate|]. cbn [negb].
  change (obind (url_parts a bytes u h parts (log (EvAlloc (ident l)) s)) (finish a bytes h) <> UB). set (s1 := log (EvAlloc (ident l)) s). destruct (fired s1) eqn:F.
  - rewrite (fired_nothing a bytes u h parts s1 W F). cbn [obind]. unfold finish. cbn [fst snd]. rewrite F, andb_false_r. discriminate.
  - destruct (parts_told a bytes u h W parts s1 F) as (r & s' & d & q & X & _). rewrite X. discriminate.
Qed.
Print Assumptions C78_never_outside.

(** Once a response was written nothing is told any more (a pipelined request, C35). *)
Theorem C78_silent_after_response : forall a history bytes u s r s', (forall x, u = Some x -> within bytes x) -> fired s = true ->
  on_url a (registered history) bytes u s = Ret (r, s') -> fired s' = true /\ (tr s' = tr s \/ exists i, tr s' = tr s ++ [EvAlloc i]).
Proof.
  intros a history bytes [u|] s r s' W F H; [|injection H as <- <-; auto]. specialize (W u eq_refl). unfold on_url in H. destruct (u Path) as [[off len]|] eqn:P; [|injection H as <- <-; auto].
  rewrite (slice_ok _ _ _ _ _ W P) in H. cbn [obind] in H. destruct (find_location _ _) as [[l|]|]; cbn [obind] in H; [| |discriminate].
  2:{ unfold write_status in H. rewrite F in H. injection H as <- <-. auto. }
  destruct (alloc a (ident l)) as [h|]; [|unfold write_status in H; rewrite F in H; injection H as <- <-; auto].
  assert (F1 : fired (log (EvAlloc (ident l)) s) = true) by exact F. assert (G : forall x, Ret (x, log (EvAlloc (ident l)) s) = Ret (r, s') -> fired s' = true /\ (tr s' = tr s \/ exists i, tr s' = tr s ++ [EvAlloc i])).
  { intros x X. injection X as <- <-. split; [exact F|]. right. eexists. reflexivity. }
  unfold write_status in H. rewrite F1 in H. destruct (negb (has_free h)); [exact (G _ H)|]. destruct (no_callbacks h); [exact (G _ H)|].
  rewrite (fired_nothing a bytes u h parts _ W F1) in H. cbn [obind fst snd] in H. rewrite F1, andb_false_r in H. exact (G _ H).
Qed.
Print Assumptions C78_silent_after_response.

(** A handler as cio_http_location_handler_init leaves it has no callback. *)
Theorem C78_fresh_handler : forall f, ~ usable (Handler (on_part handler_init) (on_url_set handler_init) (later handler_init) f).
Proof. intros f [_ [[p H]|[H|[x H]]]]; discriminate. Qed.
Print Assumptions C78_fresh_handler.

(** GET http://h/a?q: the handler of /a wants the host, the path, the query and the URL, and in the first run answers in the callback
    for the query. *)
Definition ex_bytes : list N := [104; 116; 116; 112; 58; 47; 47; 104; 47; 97; 63; 113]%N.
Definition ex_url : url := fun p => match p with Schema => Some (0, 4) | Host => Some (7, 1) | Path => Some (8, 2) | Query => Some (11, 1) | _ => None end.
Definition ex_handler : handler := Handler (fun p => match p with Host | Path | Query => true | _ => false end) true (fun _ => false) true.
Definition ex_app (early : bool) : application := App (fun i => if Nat.eqb i 3 then Some ex_handler else None)
  (fun _ c _ => match c with OnPart Query => Reaction Success early | _ => Reaction Success false end).
Example C78_example : within ex_bytes ex_url /\ usable ex_handler /\ answers ex (firstn 2 (skipn 8 ex_bytes)) (Location [47; 97]%N 3) /\
  on_url (ex_app true) (registered ex) ex_bytes (Some ex_url) (St false []) =
    Ret (0%Z, St true [EvAlloc 3; EvCall (OnPart Host) [104]%N; EvCall (OnPart Path) [47; 97]%N; EvCall (OnPart Query) [113]%N]) /\
  on_url (ex_app false) (registered ex) ex_bytes (Some ex_url) (St false []) =
    Ret (0%Z, St false [EvAlloc 3; EvCall (OnPart Host) [104]%N; EvCall (OnPart Path) [47; 97]%N; EvCall (OnPart Query) [113]%N; EvCall OnUrl ex_bytes]).
Proof.
  split; [intros [] off len [= <- <-]; cbn; lia|]. split; [split; [reflexivity|left; exists Host; reflexivity]|].
  split; [apply C33_longest_prefix_is_found; vm_compute; reflexivity|]. split; vm_compute; reflexivity.
Qed.
