(** Invariants of the model of the HTTP connection. *)
From Verif Require Import Base Text HttpModel.

Arguments N.sub : simpl never.
Arguments N.min : simpl never.
Arguments content_length_header : simpl never.
Arguments statusline : simpl never.
Arguments connection_header : simpl never.
Arguments Nat.eqb : simpl nomatch.

Global Opaque content_length_header statusline connection_header text CRLF SIZE_MAX N.sub N.min.

Ltac crunch H :=
  repeat (cbn in H;
    match type of H with
    | obind ?x _ = Ret _ => let E := fresh "E" in destruct x eqn:E; cbn in H; try discriminate H
    | (match ?x with _ => _ end) = Ret _ => let E := fresh "E" in destruct x eqn:E; try discriminate H
    | context [match hnd ?s with _ => _ end] => let E := fresh "E" in destruct (hnd s) eqn:E
    | context [if is_error_code ?c then _ else _] => let E := fresh "E" in destruct (is_error_code c) eqn:E
    | context [if (0 <? remaining ?s)%N then _ else _] => let E := fresh "E" in destruct (0 <? remaining s)%N eqn:E
    | context [if (0 <? ?n)%N then _ else _] => let E := fresh "E" in destruct (0 <? n)%N eqn:E
    | context [if err ?s then _ else _] => let E := fresh "E" in destruct (err s) eqn:E
    | context [if negb ?a && ?b then _ else _] => let E := fresh "E" in destruct (negb a && b) eqn:E
    | context [if upg ?s then _ else _] => let E := fresh "E" in destruct (upg s) eqn:E
    | Ret _ = Ret _ => injection H as <-
    | UB = Ret _ => discriminate H
    end).

Ltac unf := unfold exec, handle_accept, parse, execute, parsed, url_parts, on_headers2, on_message2, user, write_response,
  response_written, response_written2, restart, finish_func, start_read, on_url, on_headers, on_headers1, on_message, call_handler, mark, close_client, free_handler in *.

(** ** One response at a time, whatever the environment does *)
Definition isW (o : op) : nat := match o with OWritten _ => 1 | _ => 0 end.
Fixpoint nW (k : list op) : nat := match k with [] => 0 | o :: k => isW o + nW k end.
Definition b2n (b : bool) : nat := if b then 1 else 0.

(** 0: no response to the current request yet, 1: handed to the stream, 2: written. *)
Fixpoint prog (t : list ev) : option nat :=
  match t with
  | [] => Some 0
  | e :: t =>
      match prog t with
      | None => None
      | Some q => match e with
                  | EResponse _ _ _ => match q with 0 => Some 1 | _ => None end
                  | EWritten _ => match q with 1 => Some 2 | _ => None end
                  | ERestart => match q with 2 => Some 0 | _ => None end
                  | _ => Some q
                  end
      end
  end.

Definition One (c : config) : Prop :=
  let '(s, k) := c in
  exists q, prog (tr s) = Some q /\
    b2n (writing s) + nW k + b2n (completed s) <= b2n (Nat.leb 1 q) /\
    (q <> 0 -> written s = true) /\ (completed s = true <-> q = 2).




Ltac open_ret :=
  repeat match goal with
  | E : _ = Ret _ |- _ => progress crunch E
  end; cbn in *.


Lemma One_step : forall S c v c', One c -> enabled c v -> step S c v = Ret c' -> One c'.
Proof.
  intros S [s k] v c' (q & P & C & W & D) En H.
  assert (Q2 : q <= 2).
  { clear - P. revert q P. induction (tr s) as [|e t IH]; intros q P; cbn in P; [injection P as <-; lia|].
    destruct (prog t) as [q0|]; [|discriminate]. specialize (IH _ eq_refl).
    destruct e; try (injection P as <-; lia); destruct q0 as [|[|[|]]]; try discriminate; injection P as <-; lia. }
  destruct v; cbn [step] in H.
  1: destruct k as [|o k]; [discriminate|]; destruct o.
  all: cbn [enabled] in En; try (destruct En as (-> & E1 & E2)).
  all: unf; crunch H; open_ret.
  all: unfold One; cbn -[b2n Nat.leb]; rewrite ?P; cbn -[b2n Nat.leb].
  all: try (clear - P C W D Q2 En; solve [exists q; repeat split; cbn -[b2n Nat.leb] in *; solve [reflexivity | assumption | lia]]).
  all: repeat match goal with E : _ && _ = true |- _ => apply andb_prop in E as [? ?] end.
  all: destruct q as [|[|[|q]]]; [| | |exfalso; clear - Q2; lia].
  all: destruct (written s) eqn:Ew; try (exfalso; specialize (W ltac:(discriminate)); discriminate W).
  all: destruct (completed s) eqn:Ec; try (exfalso; pose proof (proj1 D eq_refl); discriminate); try (exfalso; pose proof (proj2 D eq_refl); discriminate).
  all: cbn in *; try discriminate.
  all: try (exfalso; clear - C; lia).
  all: try (destruct (writing s) eqn:Eg; cbn in *; try (exfalso; clear - C; lia)).
  all: try (eexists; split; [reflexivity|]; clear - C; cbn; repeat split; intros; solve [congruence | lia]).
  all: exfalso; try discriminate E2; rewrite E2 in C; cbn in C; clear - C; lia.
Qed.

Lemma One_reach : forall S ok c, reach S ok c -> One c.
Proof.
  induction 1 as [|c v c' _ IH En _ E]; [|eapply One_step; eassumption].
  exists 0. cbn. repeat split; try lia; congruence.
Qed.
