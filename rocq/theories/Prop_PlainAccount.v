(** C96: what a plain Account reports: no minimums, unlimited inflows, everything it holds can be
    withdrawn once, and its growth is taxable. *)
From Verif Require Import Base RBase GrowthModel GrowthProofs AccountModel AccountSpec AccountProofs.
Open Scope R_scope.

Lemma ok_inj : forall {A} (x y : A), Ok x = Ok y -> x = y.
Proof. intros A x y H. congruence. Qed.
(** ** Minimums *)
Theorem C96_no_minimums : forall a timing tl bl extra flows,
  (min_inflows account_limits a timing tl bl extra = Ok flows \/ min_outflows account_limits a timing tl bl extra = Ok flows) ->
  forall t x, In (t, x) flows -> x = Fin 0.
Proof.
  intros a timing tl bl extra flows H t x Hin.
  destruct (flows_split a extra) as (I0 & O0 & _).
  destruct H as [H|H].
  - unfold min_inflows, inflows_upto, transactions_to_balance in H. destruct (Reqb _ 0); [discriminate|]. apply ok_inj in H. subst flows.
    apply in_map_iff in Hin. destruct Hin as ([k w] & E & _). apply (f_equal snd) in E. cbn [fst snd] in E. subst x.
    assert (M : emax (opt_emin (esub (min_in account_limits) (inflows a extra)) tl) (Fin 0) = Fin 0).
    { cbn [min_in account_limits esub]. assert (Lo : ele (opt_emin (Fin (0 - inflows a extra)) tl) (Fin 0)).
      { destruct tl as [e|]; cbn; [|lra]. eapply ele_trans; [apply emin_l|]. cbn. lra. }
      destruct (emax_case (opt_emin (Fin (0 - inflows a extra)) tl) (Fin 0)) as [[_ E]|[E1 E]]; rewrite E; [reflexivity|].
      destruct (opt_emin (Fin (0 - inflows a extra)) tl); cbn in *; try tauto. f_equal. lra. }
    rewrite M. match goal with |- escale (emax (emin ?z (Fin 0)) (Fin 0)) _ = _ => assert (C : emax (emin z (Fin 0)) (Fin 0) = Fin 0) end.
    { match goal with |- emax ?e (Fin 0) = _ => assert (Lo : ele e (Fin 0)) by apply emin_r; destruct (emax_case e (Fin 0)) as [[_ E]|[E1 E]]; rewrite E; [reflexivity|];
        destruct e; cbn in *; try tauto; f_equal; lra end. }
    rewrite C. cbn. f_equal. lra.
  - unfold min_outflows, outflows_upto, transactions_to_balance in H. destruct (Reqb _ 0); [discriminate|]. apply ok_inj in H. subst flows.
    apply in_map_iff in Hin. destruct Hin as ([k w] & E & _). apply (f_equal snd) in E. cbn [fst snd] in E. subst x.
    assert (M : emin (opt_emax (esub (min_out account_limits) (outflows a extra)) tl) (Fin 0) = Fin 0).
    { cbn [min_out account_limits esub]. assert (Lo : ele (Fin 0) (opt_emax (Fin (0 - outflows a extra)) tl)).
      { destruct tl as [e|]; cbn [opt_emax]; [|cbn; lra]. eapply ele_trans with (b := Fin (0 - outflows a extra)); [cbn; lra|apply emax_l]. }
      destruct (emin_case (opt_emax (Fin (0 - outflows a extra)) tl) (Fin 0)) as [[E1 E]|[_ E]]; rewrite E; [|reflexivity].
      destruct (opt_emax (Fin (0 - outflows a extra)) tl); cbn in *; try tauto. f_equal. lra. }
    rewrite M. match goal with |- escale (emax ?e (Fin 0)) _ = _ => assert (Lo : ele e (Fin 0)) by apply emin_r; assert (C : emax e (Fin 0) = Fin 0) end.
    { match goal with |- emax ?e (Fin 0) = _ => destruct (emax_case e (Fin 0)) as [[_ E]|[E1 E]]; rewrite E; [reflexivity|]; destruct e; cbn in *; try tauto; f_equal; lra end. }
    rewrite C. cbn. f_equal. lra.
Qed.
Print Assumptions C96_no_minimums.
(** ** Inflows are unlimited *)
(** a debt has no minimum withdrawal either *)
Theorem C25_no_minimum_outflows : forall mp ap a timing tl bl extra flows,
  min_outflows (debt_limits mp ap) a timing tl bl extra = Ok flows -> forall t x, In (t, x) flows -> x = Fin 0.
Proof. intros mp ap a timing tl bl extra flows H. exact (C96_no_minimums a timing tl bl extra flows (or_intror H)). Qed.
Print Assumptions C25_no_minimum_outflows.
Theorem C96_unlimited_inflows : forall a timing extra, timing_ok (clean_timing a timing) ->
  exists flows, max_inflows account_limits a timing None None extra = Ok flows /\ flows <> [] /\ forall t x, In (t, x) flows -> x = PInf.
Proof.
  intros a timing extra H. unfold max_inflows, inflows_upto. rewrite ttb_eq by exact H. eexists. split; [reflexivity|].
  destruct (normalized_spec _ H) as (_ & Hne & Hp). set (nt := normalized_timing (clean_timing a timing)) in *.
  pose proof (wacc_pos a _ H) as Wp. fold nt in Wp. split; [intros E; apply map_eq_nil in E; contradiction|].
  intros t x Hin. apply in_map_iff in Hin. destruct Hin as ([k w] & E & Hin). apply (f_equal snd) in E. cbn [fst snd] in E. subst x.
  destruct (Hp k w Hin) as [_ Hw]. cbn. destruct (Rltb 0 (wacc a nt)) eqn:E1; rb; [|lra]. cbn.
  destruct (Rltb 0 w) eqn:E2; rb; [reflexivity|lra].
Qed.
Print Assumptions C96_unlimited_inflows.

(** ** Withdrawing everything at one time *)
Lemma one_txn : forall a v t, 0 <= t <= 1 -> exists a', add_transaction a v (RNum t) = Ok a' /\ add_all a [(t, v)] = Ok a'.
Proof.
  intros a v t Ht. unfold add_all, add_transaction, rwhen_conv. destruct (orb (Rltb 1 t) (Rltb t 0)) eqn:E; [apply orb_true_iff in E; destruct E as [E|E]; rb; lra|].
  cbn [bind]. eauto.
Qed.
Lemma fv_self : forall a t, fv a t t = 1.
Proof. intros a t. unfold fv. destruct (Rleb t t) eqn:E; rb; [|lra]. replace (t - t) with 0 by lra. apply growth_0. Qed.
(** the amount reported empties a positive balance exactly, and is zero if there is nothing to take *)
Theorem C96_max_outflow_empties : forall a when, 0 <= when <= 1 -> exists x a',
  max_outflow account_limits a when = Fin x /\ x <= 0 /\ add_transaction a x (RNum when) = Ok a' /\
  (0 <= balance_at_time a when None -> balance_at_time a' when None = 0) /\
  (balance_at_time a when None <= 0 -> x = 0).
Proof.
  intros a when Hw. set (b := balance_at_time a when None). exists (Rmin (- b) 0).
  destruct (one_txn a (Rmin (- b) 0) when Hw) as (a' & A1 & A2). exists a'. split; [reflexivity|]. split; [apply Rmin_r|]. split; [exact A1|].
  assert (T : times_ok [(when, Rmin (- b) 0)]) by (intros k v [E|[]]; injection E as <- <-; exact Hw).
  split.
  - intros Hb. rewrite (balance_after_add_all _ _ _ when None T A2). fold b. unfold wsum. cbn. rewrite fv_self. rewrite Rmin_left by lra. lra.
  - intros Hb. rewrite Rmin_right; lra.
Qed.
Print Assumptions C96_max_outflow_empties.
(** asking for the same by timing gives the same, if nothing is scheduled for later in the year *)
Theorem C96_max_outflow_agrees : forall a when, 0 <= when <= 1 -> 0 <= balance_at_time a when None ->
  (forall k, In k (dkeys (a_txns a)) -> k <= when) -> exists x,
  max_outflow account_limits a when = Fin x /\ max_outflows account_limits a (Some [(when, 1)]) None None None = Ok [(when, Fin x)].
Proof.
  intros a when Hw Hb Hk. set (b := balance_at_time a when None) in *. exists (Rmin (- b) 0). split; [reflexivity|].
  assert (TO : timing_ok (clean_timing a (Some [(when, 1)]))) by (split; [discriminate|]; intros k w [E|[]]; injection E as <- <-; lra).
  unfold max_outflows, outflows_upto. rewrite ttb_eq by exact TO. cbn [clean_timing].
  assert (NT : normalized_timing [(when, 1)] = [(when, 1)]).
  { unfold normalized_timing. cbn. destruct (Reqb (1 + 0) 0) eqn:E; rb; [lra|]. cbn. destruct (Reqb 1 0) eqn:E2; rb; [lra|]. cbn. f_equal. f_equal. lra. }
  rewrite NT. cbn [map fst snd]. f_equal. f_equal. f_equal.
  assert (G : balance_at_time a 1 None = b * growth a (1 - when)).
  { unfold b. replace 1 with (when + (1 - when)) at 1 by lra.
    rewrite (balance_grows a when (when + (1 - when))); [f_equal; f_equal; lra|lra|]. intros k K1 K2. specialize (Hk k K1). lra. }
  assert (WA : wacc a [(when, 1)] = growth a (1 - when)) by (unfold wacc; cbn; lra). pose proof (growth_pos a (1 - when)) as Gp.
  rewrite WA, G. cbn [opt_default esub max_out account_limits opt_emax ediv clamp].
  assert (D : (0 - b * growth a (1 - when)) / growth a (1 - when) = - b) by (field; lra). rewrite D.
  rewrite Rmin_left by lra.
  assert (E1 : emin MInf (Fin 0) = MInf) by reflexivity. rewrite E1.
  assert (E2 : emin (Fin (- b)) (Fin 0) = Fin (- b)) by (unfold emin; cbn; destruct (Rleb (- b) 0) eqn:E; rb; [reflexivity|lra]). rewrite E2.
  cbn. f_equal. lra.
Qed.
Print Assumptions C96_max_outflow_agrees.
(** once everything has been withdrawn, nothing more is offered, whatever the timings *)
Theorem C96_drained_once : forall a timing timing', timing_ok (clean_timing a timing) -> timing_ok (clean_timing a timing') -> 0 <= balance_at_time a 1 None ->
  exists flows a' flows', max_outflows account_limits a timing None None None = Ok (fin_flows flows) /\ add_all a flows = Ok a' /\
    balance_at_time a' 1 None = 0 /\
    max_outflows account_limits a' timing' None None None = Ok (fin_flows flows') /\ forall t x, In (t, x) flows' -> x = 0.
Proof.
  intros a timing timing' H H' Hb.
  destruct (outflows_upto_spec a (max_out account_limits) timing None None None H) as (flows & a' & H1 & H2 & H3 & H4 & H5 & H6); try discriminate.
  cbn [option_map] in *. cbn [max_out account_limits esub opt_emax] in H6. change (emin MInf (Fin 0)) with MInf in H6.
  assert (B : balance_at_time a' 1 None = 0).
  { destruct H6 as [E|[E|[E1 E2]]]; [exact E|discriminate|].
    assert (Z : balance_at_time a 1 None = 0) by lra.
    assert (A0 : forall t v, In (t, v) flows -> v = 0).
    { clear -H2 E2. induction flows as [|[k v] r IH]; intros t x Hin; [destruct Hin|]. cbn in E2.
      assert (Rsum (dvals r) <= 0).
      { apply Rsum_nonpos. intros y Hy. apply in_map_iff in Hy. destruct Hy as ([k' v'] & <- & Hy). apply (H2 k' v'). now right. }
      pose proof (H2 k v (or_introl eq_refl)). assert (Rsum (dvals r) = 0) by (unfold dvals in *; cbn in *; lra).
      destruct Hin as [E|Hin]; [injection E as <- <-; unfold dvals in *; cbn in *; lra|]. eapply IH; eauto. intros; eapply H2; right; eauto. }
    specialize (H5 Hb). assert (Q : balance_at_time a' 1 None <= 0); [|lra].
    assert (T : times_ok flows).
    { clear -H H1. unfold max_outflows, outflows_upto in H1. rewrite ttb_eq in H1 by exact H. destruct (normalized_spec _ H) as (_ & _ & Hp).
      apply ok_inj in H1. intros k v Hin.
      assert (K : In (k, Fin v) (fin_flows flows)) by (unfold fin_flows; apply in_map_iff; exists (k, v); auto).
      rewrite <- H1 in K. apply in_map_iff in K. destruct K as ([k' w] & E & K). injection E as -> _. apply (Hp k w K). }
    rewrite (balance_after_add_all _ _ _ 1 None T H4), Z. clear -A0.
    assert (W : wsum (fv a 1) flows = 0); [|lra]. induction flows as [|[k v] r IH]; [reflexivity|]. unfold wsum in *. cbn.
    rewrite (A0 k v (or_introl eq_refl)). rewrite IH by (intros; eapply A0; right; eauto). lra. }
  assert (TA : clean_timing a' timing' = clean_timing a timing').
  { apply add_all_fields in H4. destruct H4 as (_ & _ & _ & _ & Ht). unfold clean_timing. rewrite Ht. reflexivity. }
  assert (H'' : timing_ok (clean_timing a' timing')) by (rewrite TA; exact H').
  destruct (outflows_upto_spec a' (max_out account_limits) timing' None None None H'') as (f2 & a2 & J1 & J2 & J3 & J4 & J5 & J6); try discriminate.
  cbn [option_map] in *. cbn [max_out account_limits esub opt_emax] in J6. change (emin MInf (Fin 0)) with MInf in J6.
  exists flows, a', f2. split; [exact H1|]. split; [exact H4|]. split; [exact B|]. split; [exact J1|].
  intros t x Hin. unfold max_outflows, outflows_upto in J1. rewrite ttb_eq in J1 by exact H''. apply ok_inj in J1.
  assert (K : In (t, Fin x) (fin_flows f2)) by (unfold fin_flows; apply in_map_iff; exists (t, x); auto).
  rewrite <- J1 in K. apply in_map_iff in K. destruct K as ([k' w] & E & K). cbn [fst snd] in E.
  cbn [option_map opt_default] in E. rewrite B in E. cbn [esub max_out account_limits opt_emax ediv] in E.
  assert (D : forall z : R, (0 - 0) / z = 0) by (intros z; unfold Rdiv; lra). rewrite D in E.
  change (emin MInf (Fin 0)) with MInf in E. unfold clamp in E. cbn in E.
  unfold emin, emax in E. cbn in E. destruct (Rleb 0 0) eqn:R0; rb; [|lra]. cbn in E. injection E as _ E. lra.
Qed.
Print Assumptions C96_drained_once.
(** C96, refuted part: [max_outflow] looks only at the balance at that moment and at the annual limit
    as such.  (1) A withdrawal already scheduled for later is forgotten: taking the reported amount at
    the start of the year overdraws the account at its end. *)
Definition scheduled : account := {| a_year := 2000; a_bal := 100; a_rate := fun _ => 0; a_nper := Some 1%positive; a_txns := [(1, - 60)]; a_timing := [(0, 1)] |}.
Lemma growth_zero_rate : forall a t, rate a = 0 -> growth a t = 1.
Proof.
  intros a t H. unfold growth, accumulation_function. rewrite H. destruct (a_nper a) as [n|].
  - replace (1 + 0 / IZR (Zpos n)) with 1 by (unfold Rdiv; lra). unfold Rpower. rewrite ln_1, Rmult_0_r. apply exp_0.
  - replace (0 * t) with 0 by lra. apply exp_0.
Qed.
Lemma balance_zero_rate : forall a t, rate a = 0 -> balance_at_time a t None = a_bal a + wsum (fun k => if Rleb k t then 1 else 0) (a_txns a).
Proof.
  intros a t H. rewrite balance_at_time_eq. cbn [extra_wsum]. rewrite growth_zero_rate by exact H.
  rewrite (wsum_ext (fv a t) (fun k => if Rleb k t then 1 else 0)); [lra|]. intros k v _. unfold fv. destruct (Rleb k t); [apply growth_zero_rate; exact H|reflexivity].
Qed.
Theorem C96_max_outflow_later_refuted : exists a x a',
  0 <= balance_at_time a 0 None /\ 0 <= balance_at_time a 1 None /\ max_outflow account_limits a 0 = Fin x /\
  add_transaction a x (RNum 0) = Ok a' /\ balance_at_time a' 1 None < 0.
Proof.
  exists scheduled. destruct (C96_max_outflow_empties scheduled 0) as (x & a' & E1 & E2 & E3 & E4 & E5); [lra|]. exists x, a'.
  assert (R0 : rate scheduled = 0) by reflexivity.
  assert (B0 : balance_at_time scheduled 0 None = 100).
  { rewrite balance_zero_rate by exact R0. unfold wsum. cbn. destruct (Rleb 1 0) eqn:Q; rb; lra. }
  assert (B1 : balance_at_time scheduled 1 None = 40).
  { rewrite balance_zero_rate by exact R0. unfold wsum. cbn. destruct (Rleb 1 1) eqn:Q; rb; lra. }
  split; [lra|]. split; [lra|]. split; [exact E1|]. split; [exact E3|].
  destruct (one_txn scheduled x 0 ltac:(lra)) as (a2 & A1 & A2). rewrite E3 in A1. apply ok_inj in A1. subst a2.
  assert (T : times_ok [(0, x)]) by (intros k v [E|[]]; injection E as <- <-; lra).
  rewrite (balance_after_add_all _ _ _ 1 None T A2), B1. unfold wsum. cbn.
  assert (Hx : x = -100). { unfold max_outflow in E1. rewrite B0 in E1. cbn in E1. unfold emax in E1. cbn in E1. injection E1 as <-. rewrite Rmin_left; lra. }
  rewrite Hx. unfold fv. destruct (Rleb 0 1) eqn:Q; rb; [|lra]. rewrite growth_zero_rate by exact R0. lra.
Qed.
Print Assumptions C96_max_outflow_later_refuted.
(** (2) What was already withdrawn this year does not count against an annual limit: with a limit of
    50 of which 40 has been used, 50 more is reported (max_outflows reports 10). *)
Definition partly_used : account := {| a_year := 2000; a_bal := 1000; a_rate := fun _ => 0; a_nper := Some 1%positive; a_txns := [(0, - 40)]; a_timing := [(1, 1)] |}.
Theorem C96_max_outflow_annual_limit_refuted : exists L a x lim, max_out L = Fin lim /\ lim <= outflows a None /\
  max_outflow L a 1 = Fin x /\ outflows a None + x < lim.
Proof.
  exists {| max_in := PInf; min_in := Fin 0; max_out := Fin (-50); min_out := Fin 0 |}, partly_used, (-50), (-50).
  assert (O : outflows partly_used None = -40).
  { unfold outflows, neg_part. cbn. destruct (Rltb (-40) 0) eqn:E; rb; cbn; lra. }
  split; [reflexivity|]. split; [lra|]. split; [|lra].
  unfold max_outflow. rewrite balance_zero_rate by reflexivity. unfold wsum. cbn. destruct (Rleb 0 1) eqn:Q; rb; [|lra].
  rewrite Rmin_left by lra. unfold emax. cbn. destruct (Rleb (- (1000 + (-40 * 1 + 0))) (-50)) eqn:Q2; rb; [reflexivity|lra].
Qed.
Print Assumptions C96_max_outflow_annual_limit_refuted.

(** ** Taxable income *)
(** the money the account itself produced this year: what is there at the end beyond the opening
    balance and the net amount put in *)
Definition produced (a : account) : R := balance_at_time a 1 None - a_bal a - Rsum (dvals (a_txns a)).
Theorem C96_growth_is_taxable : forall a, times_ok (a_txns a) ->
  taxable_income a = (if Rlt_dec (produced a) 0 then 0 else produced a).
Proof.
  intros a T. assert (P : produced a = returns a).
  { unfold produced. rewrite balance_at_time_eq, returns_eq. cbn [extra_wsum].
    rewrite (wsum_ext (fv a 1) (fun k => growth a (1 - k))); [lra|]. intros k v Hin. destruct (T k v Hin). unfold fv. destruct (Rleb k 1) eqn:Q; rb; [reflexivity|lra]. }
  rewrite P. unfold taxable_income. destruct (Rlt_dec (returns a) 0); [apply Rmax_right|apply Rmax_left]; lra.
Qed.
Print Assumptions C96_growth_is_taxable.
Example C96_sat : timing_ok (clean_timing scheduled None) /\ 0 <= balance_at_time scheduled 1 None /\ times_ok (a_txns scheduled) /\
  (forall k, In k (dkeys (a_txns partly_used)) -> k <= 1) /\ 0 <= balance_at_time partly_used 1 None.
Proof.
  split; [split; [discriminate|]; intros k w [E|[]]; injection E as <- <-; lra|].
  split; [rewrite balance_zero_rate by reflexivity; unfold wsum; cbn; destruct (Rleb 1 1) eqn:Q; rb; lra|].
  split; [intros k v [E|[]]; injection E as <- <-; lra|]. split; [intros k [<-|[]]; cbn; lra|].
  rewrite balance_zero_rate by reflexivity. unfold wsum. cbn. destruct (Rleb 0 1) eqn:Q; rb; lra.
Qed.
(** an account that doubles in the year: 100 of growth on 100, all taxable *)
Example C96_sat_growth : exists a, times_ok (a_txns a) /\ taxable_income a = 100.
Proof.
  exists {| a_year := 2000; a_bal := 100; a_rate := fun _ => 1; a_nper := Some 1%positive; a_txns := []; a_timing := [(1, 1)] |}.
  split; [intros k v []|]. unfold taxable_income, returns. cbn [a_bal a_txns map Rsum].
  match goal with |- context [growth ?a 1] => assert (G : growth a 1 = 1 + 1) by (apply accum_annual; cbn; lra) end. rewrite G.
  rewrite Rmax_left; lra.
Qed.
