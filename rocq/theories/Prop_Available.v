(** C97: total_available, the amount a sub-forecast reports as available to it for the year. *)
From Verif Require Import Base BaseFacts RBase TimingModel SubModel Prop_SubForecast.
From Verif Require AccountModel Prop_PlainAccount.
From Coq Require Import Qreals Reals Lqa Lia.
Open Scope Q_scope.

(** ** Mappings *)
Lemma upto_total : forall d : dict Q Q, exists M, forall s, M <= s -> upto d s == Qsum (dvals d).
Proof.
  induction d as [|[k v] d (M & IH)]; [exists 0; intros; reflexivity|]. exists (qmax k M). intros s Hs.
  assert (H : k <= s /\ M <= s) by (revert Hs; qmm; intros; lra). destruct H as [H1 H2]. specialize (IH s H2).
  unfold upto, dvals in *. cbn [filter fst]. rewrite (proj2 (Qle_bool_iff _ _) H1). cbn [map Qsum snd]. rewrite IH. reflexivity.
Qed.
Lemma total_of_values : forall d e, dwf Qeq_bool d -> dwf Qeq_bool e -> (forall t, qval d t == qval e t) -> Qsum (dvals d) == Qsum (dvals e).
Proof.
  intros d e Wd We H. destruct (upto_total d) as (M & HM), (upto_total e) as (N & HN).
  assert (L : M <= qmax M N /\ N <= qmax M N) by (split; qmm; lra). destruct L as [L1 L2].
  rewrite <- (HM _ L1), <- (HN _ L2). exact (upto_heq d e Wd We H _).
Qed.

(** what it was worth before the sub-forecast made its own transactions; a repeated call in the year reports the
    same (its own earlier transactions are not counted) *)
Theorem C97_reported : forall kd default body h s available h1 s1, extensional kd body -> wf_heap h -> kd available = None ->
  s_invoked s = false -> s_tx s = [] -> call kd default body h s available = Ok (h1, s1) ->
  s_total s1 == htotal h available /\
  exists h2 s2, call kd default body h1 s1 available = Ok (h2, s2) /\ s_total s2 == s_total s1.
Proof.
  intros kd default body h s av h1 s1 X W Ka Inv Tx H. pose proof H as H0. unfold call, begin_call in H. rewrite Inv, Ka in H. cbn [s_tx s_objs s_ref] in H.
  destruct (run kd default (h, _) (body h)) as [[h1' x]|e] eqn:R; [|discriminate]. cbn [bind] in H. apply (f_equal (fun r => match r with Ok p => p | Err _ => (h, s) end)) in H.
  cbn beta iota in H. pose proof (f_equal fst H) as Eh. pose proof (f_equal snd H) as Es. cbn [fst snd] in Eh, Es. subst h1'.
  split; [rewrite <- Es; reflexivity|].
  destruct (C60_second_call_same_accounts_partial kd default body h s av h1 s1 X W Inv Tx H0) as (h2 & s2 & E2 & _). exists h2, s2. split; [exact E2|].
  unfold s_tx in R. cbn [s_objs s_ref] in R. unfold s_tx in Tx. rewrite Tx in R.
  assert (Wx : wf_tx x) by (apply (run_wf_tx kd default (body h) (h, []) (h1, x)); [split; [exact I|intros; exact I]|exact R]).
  pose proof (C58_runs_balance kd default (body h) (h, []) (h1, x) R) as [B _]; cbn [fst snd] in B.
  pose proof (run_heq kd default (body h) (body h) (X h h W W (fun a t => Qeq_refl _)) h h [] [] W W (fun a t => Qeq_refl _)) as S; rewrite R in S; cbn [fst snd] in S; destruct S as (_ & W1 & _).
  assert (U : heq h (fold_left undo_one x h1)) by (intros a t; rewrite undo_val by exact Wx; specialize (B a t); unfold tval at 2, tget, qval, qget in B; cbn in B; unfold qval, qget in *; unfold tval, hval, qval, qget in *; lra).
  pose proof (undo_wf x h1 W1) as W2.
  assert (Iv : s_invoked s1 = true) by (rewrite <- Es; reflexivity).
  assert (Tx1 : s_tx s1 = x) by (rewrite <- Es; unfold s_tx, set_tx; cbn [s_objs s_ref]; rewrite Nat.eqb_refl; reflexivity).
  unfold call, begin_call in E2. rewrite Iv, Ka in E2. unfold undo in E2. rewrite Tx1 in E2.
  destruct (run kd default (fold_left undo_one x h1, _) _) as [[h3 x3]|e] eqn:R2; [|discriminate]. cbn [bind] in E2.
  apply (f_equal (fun r => match r with Ok p => s_total (snd p) | Err _ => 0 end)) in E2. cbn [snd s_total set_tx] in E2. rewrite <- E2, <- Es. cbn [s_total set_tx].
  apply total_of_values; [apply W2|apply W|]. intros t. symmetry. apply U.
Qed.
Print Assumptions C97_reported.
Example C97_sat : exists h1 s1, call demo_kinds [] demo_body demo_heap (new_sub 2000) 0%nat = Ok (h1, s1) /\ s_total s1 == 100 /\ htotal h1 0 == 90.
Proof. eexists _, _. split; [vm_compute; reflexivity|]. split; vm_compute; reflexivity. Qed.

(** nothing is reported before the first call; a new year does not reset the figure: until the next call, the year before's is
    shown as this year's *)
Theorem C97_next_year_refuted : forall year, s_total (new_sub year) == 0 /\
  exists h1 s1, call demo_kinds [] demo_body demo_heap (new_sub year) 0%nat = Ok (h1, s1) /\
    s_year (next_year s1) = (year + 1)%Z /\ s_total (next_year s1) == 100.
Proof. intros year. split; [reflexivity|]. eexists _, _. split; [cbv; reflexivity|]. split; reflexivity. Qed.
Print Assumptions C97_next_year_refuted.

(** ** Accounts *)
(** [av] answers [max_outflow] at the end of the year as the Account [a] (rational amounts, so that Q suffices) *)
Definition answers_for (av : acct_view) (d : dict Q Q) (a : AccountModel.account) : Prop :=
  forall t, 0 <= t <= 1 -> AccountModel.max_outflow AccountModel.account_limits a (Q2R t) = RBase.Fin (Q2R (av_out av d t)).
(** given an Account, the figure is what can be withdrawn at the end of the year, growth included -
    but with the sign of an outflow: the more money there is, the lower the figure, and it is never positive *)
Theorem C97_account_sign_refuted : forall kd h s available av a h1 s1, kd available = Some av -> s_invoked s = false ->
  answers_for av (hget h available) a -> begin_call kd h s available = (h1, s1) ->
  (Q2R (s_total s1) = Rmin (- AccountModel.balance_at_time a 1 None) 0)%R /\ s_total s1 <= 0.
Proof.
  intros kd h s available av a h1 s1 Ka Inv An H. unfold begin_call in H. rewrite Inv, Ka in H.
  pose proof (f_equal snd H) as Es. cbn [snd] in Es. rewrite <- Es. cbn [s_total].
  specialize (An 1 ltac:(lra)). rewrite RMicromega.Q2R_1 in An. destruct (Prop_PlainAccount.C96_max_outflow_empties a 1%R) as (x & a' & E1 & E2 & _); [Lra.lra|].
  rewrite An in E1. injection E1 as E1. split.
  - unfold AccountModel.max_outflow in An. cbn in An. injection An as An. symmetry. exact An.
  - apply Rle_Qle. rewrite RMicromega.Q2R_0, E1. exact E2.
Qed.
Print Assumptions C97_account_sign_refuted.
(** a plain Account holding 100: a mapping with 100 reports 100, the account reports -100 *)
Definition savings : AccountModel.account :=
  {| AccountModel.a_year := 2000; AccountModel.a_bal := 100%R; AccountModel.a_rate := fun _ => 0%R; AccountModel.a_nper := Some 1%positive; AccountModel.a_txns := []; AccountModel.a_timing := [(0%R, 1%R)] |}.
Example C97_account_sat : exists av, answers_for av [] savings /\ s_total (snd (begin_call (fun _ => Some av) [] (new_sub 2000) 0)) == - (100).
Proof.
  exists {| av_out := fun _ _ => - (100); av_outs := fun _ _ => - (100); av_time := fun _ _ _ => None |}. split; [|reflexivity].
  intros t _. unfold AccountModel.max_outflow. rewrite Prop_PlainAccount.balance_zero_rate by reflexivity. unfold RBase.wsum. cbn.
  rewrite Rmin_left by Lra.lra. f_equal. unfold Q2R. cbn. Lra.lra.
Qed.
