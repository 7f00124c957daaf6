(** The invariant of an HTTP connection whose environment is [careful]. *)
From Verif Require Import Base Text HttpModel HttpSpec HttpProofs.

(** ** Shapes of the call stack *)

(** What may be left to do when the client has been closed: looking at results. *)
Fixpoint calm (e : bool) (k : list op) : bool :=
  match k with
  | [] => true
  | ORetErr b :: k => calm b k
  | OMarkIfErr :: k | OCloseIfErr :: k => negb e && calm false k
  | _ => false
  end.
Definition safe (k : list op) : bool := calm true k && calm false k.

Inductive lay0 : list op -> Prop :=
| z_nil : lay0 []
| z_one : forall o, match o with OAccept | OParse _ | OTimeout | OFinish => True | _ => False end -> lay0 [o]
| z_write : forall c b cb k, calm false k = true -> lay0 k -> lay0 (OWrite c b cb :: k)
| z_write_user : forall c b cb ok k, lay0 (OUser (WWritten ok) :: k) -> lay0 (OWrite c b cb :: OUser (WWritten ok) :: k)
| z_ret : forall b k, lay0 k -> lay0 (ORetErr b :: k)
| z_safe : forall o k, match o with OMarkIfErr | OCloseIfErr | OMark | OClose | OSrvErr | OWritten _ | OWritten2 _ _ | ORestart => True | _ => False end ->
    safe k = true -> lay0 k -> lay0 (o :: k)
| z_user : forall ok c ok' k, lay0 (OWritten2 c ok' :: k) -> lay0 (OUser (WWritten ok) :: OWritten2 c ok' :: k).

Definition wop (o : op) : bool :=
  match o with
  | OWrite _ _ _ | ORetErr _ | OMarkIfErr | OMark | OSrvErr | OWritten _ | OWritten2 _ _ | ORestart => true
  | OUser (WWritten _) => true
  | _ => false
  end.

Inductive lay1 : phase -> list op -> Prop :=
| l_parsed : forall p e, lay1 p [OParsed e]
| l_exec : forall p e, lay1 p [OExec; OParsed e]
| l_end : forall p b e, lay1 p [OCbEnd b; OExec; OParsed e]
| l_set : forall p r b e, lay1 p [OSetRet r; OCbEnd b; OExec; OParsed e]
| l_user : forall p w b e, lay1 p [OUser w; OCbEnd b; OExec; OParsed e]
| l_parts : forall b e, lay1 PhHead [OUrlParts; OCbEnd b; OExec; OParsed e]
| l_part2 : forall b e, lay1 PhHead [OUrlPart2; OCbEnd b; OExec; OParsed e]
| l_upart : forall w b e, lay1 PhHead [OUser w; OUrlPart2; OCbEnd b; OExec; OParsed e]
| l_head1 : forall cl b e, lay1 PhBody [OHeaders1 cl; OCbEnd b; OExec; OParsed e]
| l_head2 : forall cl b e, lay1 PhBody [OHeaders2 cl; OCbEnd b; OExec; OParsed e]
| l_uhead : forall w cl b e, lay1 PhBody [OUser w; OHeaders2 cl; OCbEnd b; OExec; OParsed e]
| l_mess : forall b e, lay1 PhDone [OMessage2; OCbEnd b; OExec; OParsed e]
| l_umess : forall w b e, lay1 PhDone [OUser w; OMessage2; OCbEnd b; OExec; OParsed e]
| l_w : forall p o k, wop o = true -> lay1 p k -> lay1 p (o :: k).

(** The stack after on_message_complete. *)
Definition after_message (k : list op) : Prop :=
  match k with
  | [OCbEnd _; OExec; OParsed _] | [OExec; OParsed _] | [OParsed _] => True
  | _ => False
  end.

Fixpoint has_user (k : list op) : bool :=
  match k with [] => false | OUser (WWritten _) :: _ => true | _ :: k => has_user k end.

Record Inv (s : client) (k : list op) : Prop := {
  i_live : life s = Live -> (parsing s = 0 /\ lay0 k) \/ (parsing s = 1 /\ lay1 (ph s) k);
  i_gone : life s <> Live -> calm (err s) k = true /\ hnd s = None;
  i_fits : Forall (fun o => match o with OWrite _ b _ => fits b | _ => True end) k;
  i_user : has_user k = true -> written s = true;
  i_reqc : reqc s = true -> ph s = PhDone /\ (parsing s = 1 -> after_message k);
  i_start : ph s = PhStart -> hnd s = None;
  i_hnd : life s = Live -> ph s = PhHead \/ ph s = PhBody -> fired s = true \/ hnd s <> None \/ perr s = true \/
            match k with OWrite _ _ _ :: _ => True | _ => False end;
  i_hcb : life s = Live -> ph s = PhHead -> hcb s = true -> hnd s <> None \/ perr s = true;
  i_fired : written s = true -> fired s = true;
  i_perr : perr s = true -> parsing s = 1 -> match k with [OExec; OParsed _] | [OParsed _] => True | _ => False end }.

Lemma safe_calm : forall k, safe k = true -> forall e, calm e k = true.
Proof. intros k H e. unfold safe in H. apply andb_prop in H as [A B]. destruct e; assumption. Qed.
Lemma calm_safe : forall k, calm true k = true -> calm false k = true -> safe k = true.
Proof. intros k A B. unfold safe. rewrite A, B. reflexivity. Qed.
Lemma safe_ret : forall b k, safe (ORetErr b :: k) = calm b k.
Proof. intros b k. unfold safe. cbn. destruct (calm b k); reflexivity. Qed.

Lemma calm_no_user : forall k e, calm e k = true -> has_user k = false.
Proof.
  induction k as [|o k IH]; intros e H; [reflexivity|]. destruct o; cbn in H; try discriminate H; cbn.
  - exact (IH _ H).
  - apply andb_prop in H as [_ H]. exact (IH _ H).
  - apply andb_prop in H as [_ H]. exact (IH _ H).
Qed.

Lemma lay0_tail : forall o k, lay0 (o :: k) -> lay0 k.
Proof. intros o k H. inversion H; subst; auto; constructor. Qed.

Lemma lay1_last : forall p k, lay1 p k -> k <> [].
Proof. intros p k H. inversion H; discriminate. Qed.

(** Only these may change the phase. *)
Lemma lay1_phase : forall p p' k, lay1 p k -> (exists e, k = [OParsed e] \/ k = [OExec; OParsed e] \/ exists b, k = [OCbEnd b; OExec; OParsed e]) -> lay1 p' k.
Proof. intros p p' k _ (e & [-> | [-> | [b ->]]]); constructor. Qed.
