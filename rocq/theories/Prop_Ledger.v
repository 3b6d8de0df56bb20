(** C14-C17: recorded properties of ledgers.

    Vocabulary (LedgerModel.v): a class [C] has arbitrary getters/setters/deleters and user
    inputs; [steps C n s ops] performs public operations (reads, history reads, assignments,
    deletions, clear_cache, next_year, arbitrary changes of other attributes); [getp] is a
    read; [history_at C n s p y] is [obj.p_history.get(y)].  [n] bounds recursion depth: results are
    [None] when Python would not terminate or would raise. *)
From Verif Require Import LedgerModel LedgerProofs.
From Coq Require Import ZArith List Bool Lia.
Import ListNotations.
Local Open Scope Z_scope.

Theorem C14_past_history_immutable : forall V E (C : lclass V E) n ops s s' p y h h',
  steps C n s ops = Some s' -> y < year s ->
  history_at C n s p y = Some h -> history_at C n s' p y = Some h' -> h' = h.
Proof. intros. eapply past_history_immutable; eassumption. Qed.
Print Assumptions C14_past_history_immutable.

Theorem C15_inputs_override_reads : forall V E (C : lclass V E) n ops y0 e s p v,
  steps C n (init C y0 e) ops = Some s -> inputs C p (year s) = Some v ->
  getp C n s p = Some (v, s).
Proof. intros. eapply inputs_win; eassumption. Qed.
Print Assumptions C15_inputs_override_reads.
Theorem C15_inputs_in_history : forall V E (C : lclass V E) n ops y0 e s p y v h,
  steps C n (init C y0 e) ops = Some s -> inputs C p y = Some v ->
  history_at C n s p y = Some h -> h = Some v.
Proof. intros. eapply inputs_in_history; eassumption. Qed.
Print Assumptions C15_inputs_in_history.
(** an assignment or deletion while an input is in force has no effect at all *)
Theorem C15_inputs_block_writes : forall V E (C : lclass V E) s p v w,
  inputs C p (year s) = Some v -> setter C s p w = s /\ deleter C s p = s.
Proof.
  intros V E C s p v w H. unfold setter, deleter, has_input. rewrite H. split; reflexivity.
Qed.
Print Assumptions C15_inputs_block_writes.

Theorem C16_year_count : forall V E (C : lclass V E) n ops s s',
  steps C n s ops = Some s' -> year s' = year s + Z.of_nat (length (filter is_next ops)).
Proof. intros. eapply steps_year; eassumption. Qed.
Print Assumptions C16_year_count.
(** [nosets p g]: the getter [g] never assigns property [p] *)
Theorem C16_every_elapsed_year_recorded : forall V E (C : lclass V E) n ops y0 e s p y,
  (forall q, nosets p (fget C q)) -> In p (props C) ->
  steps C n (init C y0 e) ops = Some s -> y0 <= y < year s ->
  exists v, hist s p y = Some v /\ (forall h, history_at C n s p y = Some h -> h = Some v).
Proof.
  intros V E C n ops y0 e s p y Hn Hp Hs Hy.
  destruct (steps_complete C p Hn n ops (init C y0 e) s y Hs Hp Hy) as [v Hv].
  exists v. split; [exact Hv|]. intros h Hh. apply history_past in Hh; [congruence|lia].
Qed.
Print Assumptions C16_every_elapsed_year_recorded.
(** for getters without side effects, whatever the order in which properties are recorded *)
Theorem C16_recorded_value_is_the_read : forall V E (C : lclass V E) n m s s' p v s1,
  (forall q, pure (fget C q)) -> In p (props C) ->
  getp C m s p = Some (v, s1) -> next_year C n s = Some s' ->
  hist s' p (year s) = Some v /\ year s' = year s + 1.
Proof.
  intros V E C n m s s' p v s1 Hp Hin Hg Hn. split.
  - eapply next_year_records_read; eassumption.
  - pose proof (step_year C n s ONext s' Hn) as H. exact H.
Qed.
Print Assumptions C16_recorded_value_is_the_read.

Theorem C17_cached_reads_stable : forall V E (C : lclass V E) p n m ops s v s1 s2,
  (forall q, nosets p (fget C q)) -> cached C p = true ->
  getp C n s p = Some (v, s1) -> Forall (unrelated p) ops ->
  steps C n s1 ops = Some s2 -> getp C m s2 p = Some (v, s2).
Proof. intros. eapply cached_stable; eassumption. Qed.
Print Assumptions C17_cached_reads_stable.
Theorem C17_clear_recomputes : forall V E (C : lclass V E) n p s v s',
  In p (props C) -> cached C p = true -> inputs C p (year s) = None ->
  getp C n (clear_cache C s) p = Some (v, s') ->
  exists s1, run C n (clear_cache C s) (fget C p) = Some (v, s1).
Proof. intros. eapply clear_recomputes; eassumption. Qed.
Print Assumptions C17_clear_recomputes.
Theorem C17_delete_recomputes : forall V E (C : lclass V E) n p s v s',
  inputs C p (year s) = None ->
  getp C n (deleter C s p) p = Some (v, s') ->
  exists s1, run C n (deleter C s p) (fget C p) = Some (v, s1).
Proof. intros. eapply deleted_recomputes; eassumption. Qed.
Print Assumptions C17_delete_recomputes.
(** an assignment (property without custom setter) is what the next read returns *)
Theorem C17_assignment_read_back : forall V E (C : lclass V E) n s p v,
  fset C p = None -> inputs C p (year s) = None ->
  exists s', setter C s p v = s' /\ getp C n s' p = Some (v, s').
Proof.
  intros V E C n s p v Hf Hi. eexists. split; [reflexivity|].
  unfold getp, get_with, setter, has_input. rewrite Hi, Hf. cbn. rewrite upd_same. reflexivity.
Qed.
Print Assumptions C17_assignment_read_back.
Theorem C17_history_agrees_with_read : forall V E (C : lclass V E) n s p v s',
  getp C n s p = Some (v, s') -> history_at C n s p (year s) = Some (Some v).
Proof. intros. eapply history_agrees; eassumption. Qed.
Print Assumptions C17_history_agrees_with_read.

(** A concrete class meeting the hypotheses: property 0 is cached and reads an attribute,
    property 1 adds property 0 to its own value last year, and has an input for 2001. *)
Definition exC : lclass Z Z :=
  {| props := [1; 0]%nat; cached := fun p => Nat.eqb p 0;
     fget := fun p => if Nat.eqb p 0 then EnvRd (fun e => Ret e)
                      else if Nat.eqb p 1 then
                        Get 0 (fun a => Year (fun y => HistAt 0 (y - 1) (fun o => Ret (a + match o with Some b => b | None => 0 end))))
                      else Ret 0;
     fset := fun _ => None; fdel := fun _ => None;
     inputs := fun p y => if (Nat.eqb p 1 && (y =? 2001))%bool then Some 77 else None |}.
Lemma exC_pure : forall q, pure (fget exC q).
Proof. intro q. cbn. destruct (Nat.eqb q 0), (Nat.eqb q 1); repeat (constructor; intros). Qed.
Lemma exC_nosets : forall p q, nosets p (fget exC q).
Proof. intros p q. cbn. destruct (Nat.eqb q 0), (Nat.eqb q 1); repeat (constructor; intros). Qed.
Example C14_C17_sat : exists s s1 s2,
  steps exC 5 (init exC 2000 3) [OGet 0%nat; OEnv (fun _ => 4); ONext; OSet 1%nat 9; ONext] = Some s /\
  year s = 2002 /\ hist s 1%nat 2000 = Some 3 /\ hist s 1%nat 2001 = Some 77 /\
  getp exC 5 s 1 = Some (8, s1) /\ (* attribute 4 plus the recorded 4 of 2001 *)
  steps exC 5 s1 [OEnv (fun _ => 10); OGet 1%nat] = Some s2 /\
  getp exC 5 s2 0 = Some (4, s2) /\
  (exists s3, getp exC 5 (clear_cache exC s2) 0 = Some (10, s3)).
Proof.
  eexists; eexists; eexists.
  split; [cbv; reflexivity|]. split; [reflexivity|]. split; [reflexivity|]. split; [reflexivity|].
  split; [cbv; reflexivity|]. split; [cbv; reflexivity|]. split; [reflexivity|].
  eexists. cbv. reflexivity.
Qed.
