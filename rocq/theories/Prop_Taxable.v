(** C36, C37, C75: taxable accounts. *)
From Verif Require Import Base BaseFacts RBase GrowthModel GrowthProofs AccountModel TaxableModel TaxableSpec TaxableProofs.
From Coq Require Import Permutation Sorted.
Open Scope R_scope.
Local Open Scope string_scope.

Lemma loop_realises bal : forall l g acb g' acb', gain_loop bal l g acb = Ok (g', acb') <-> realises bal l acb (g' - g) acb'.
Proof.
  induction l as [|[w v] r IH]; intros g acb g' acb'; cbn [gain_loop]; split.
  - intro H. injection H as <- <-. replace (g - g) with 0 by lra. constructor.
  - intro H. inversion H; subst. do 2 f_equal. lra.
  - destruct (Rleb 0 v) eqn:E; rb; intro H.
    + apply RIn; [exact E|]. apply IH. exact H.
    + unfold rdiv in H. destruct (Reqb (bal w - v) 0) eqn:Z0; [discriminate|]. cbn [bind] in H. rb. apply IH in H.
      replace (g' - g) with ((- v / (bal w - v)) * ((bal w - v) - acb) + (g' - (g + - v * (1 - acb / (bal w - v))))) by (field; exact Z0).
      eapply ROut; [exact E|reflexivity|exact Z0|].
      replace (acb - - v / (bal w - v) * acb) with (acb * (1 - - v / (bal w - v))) by lra. exact H.
  - intro H. inversion H as [|? ? ? ? ? ? Hv Hr|? ? ? ? B gg ? Hv HB HB0 Hr]; subst.
    + destruct (Rleb 0 v) eqn:E; rb; [|lra]. apply IH. exact Hr.
    + destruct (Rleb 0 v) eqn:E; rb; [lra|]. unfold rdiv. destruct (Reqb (bal w - v) 0) eqn:Z0; rb; [contradiction|]. cbn [bind].
      apply IH. replace (acb * (1 - - v / (bal w - v))) with (acb - - v / (bal w - v) * acb) by lra.
      replace (g' - (g + - v * (1 - acb / (bal w - v)))) with gg; [exact Hr|].
      assert (Hg : g' - g = - v / (bal w - v) * (bal w - v - acb) + gg) by (symmetry; assumption).
      assert (- v / (bal w - v) * (bal w - v - acb) = - v * (1 - acb / (bal w - v))) by (field; exact Z0). lra.
Qed.

(** ** C36 *)
(** the capital gain, when not already reported this year, is the one the accounting rules give
    for the recorded transactions in chronological order; the closing cost base becomes next
    year's; half of the gain is taxable *)
Theorem C36_gain_by_the_rules : forall s gain s', dget Z.eqb (t_gain s) (t_year s) = None ->
  read_gain s = Ok (gain, s') ->
  exists acb acb' l, read_acb s = Ok acb /\ chronological (a_txns (t_acct s)) l /\
    realises (fun t => balance_at_time (t_acct s) t None) l acb gain acb' /\
    dget Z.eqb (t_acb s') (t_year s + 1)%Z = Some acb' /\ t_acct s' = t_acct s /\
    read_taxable s = Ok (gain / 2, s').
Proof.
  intros s gain s' Hn H. assert (H0 := H). unfold read_gain in H. rewrite Hn in H. destruct (read_acb s) as [acb|] eqn:Ea; [|discriminate].
  cbn [bind] in H. destruct (gain_loop _ _ _ _) as [[g acb']|] eqn:El; [|discriminate]. cbn [bind fst snd] in H. injection H as <- <-.
  exists acb, acb', (rsort (a_txns (t_acct s))). split; [reflexivity|]. split; [|split; [|split; [|split]]].
  - split; [symmetry; apply rsort_perm|apply rsort_sorted].
  - apply loop_realises in El. replace g with (g - 0) by lra. exact El.
  - cbn [t_with t_acb]. rewrite zdget_dset, Z.eqb_refl. reflexivity.
  - reflexivity.
  - unfold read_taxable. rewrite H0. reflexivity.
Qed.
Print Assumptions C36_gain_by_the_rules.
(** what the rules imply, whatever the balances *)
Theorem C36_rules_conserve : forall bal l acb gain acb', realises bal l acb gain acb' ->
  acb' = acb + Rsum (map snd l) + gain.
Proof.
  intros bal l acb gain acb' H. assert (Hr : realises bal l acb (gain - 0) acb') by (replace (gain - 0) with gain by lra; exact H).
  apply loop_realises in Hr. apply gain_conserved in Hr. lra.
Qed.
Print Assumptions C36_rules_conserve.
Theorem C36_only_inflows_no_gain : forall bal l acb gain acb', (forall t v, In (t, v) l -> 0 <= v) ->
  realises bal l acb gain acb' -> gain = 0.
Proof.
  intros bal l acb gain acb' Hp H. assert (Hr : realises bal l acb (gain - 0) acb') by (replace (gain - 0) with gain by lra; exact H).
  apply loop_realises in Hr. rewrite gain_inflows in Hr by exact Hp. injection Hr as Hr _. lra.
Qed.
Print Assumptions C36_only_inflows_no_gain.
Theorem C36_full_withdrawal : forall bal t v acb gain acb', v < 0 -> bal t = 0 ->
  realises bal [(t, v)] acb gain acb' -> gain = - v - acb /\ acb' = 0.
Proof.
  intros bal t v acb gain acb' Hv Hb H. inversion H as [|? ? ? ? ? ? Hv' Hr|? ? ? ? B gg ? Hv' HB HB0 Hr]; subst; [lra|].
  rewrite Hb in *. inversion Hr; subst. assert (- v / (0 - v) = 1) by (field; lra).
  replace (- v / (0 - v)) with 1 by (symmetry; assumption). split; lra.
Qed.
Print Assumptions C36_full_withdrawal.
(** the cost base stays nonnegative as long as nobody withdraws more than there is; a year's
    report exists whenever no withdrawal is made from an empty account *)
Theorem C36_cost_base_nonneg : forall bal l acb gain acb', covered bal l -> 0 <= acb ->
  realises bal l acb gain acb' -> 0 <= acb'.
Proof.
  intros bal l acb gain acb' Hc Ha H. assert (Hr : realises bal l acb (gain - 0) acb') by (replace (gain - 0) with gain by lra; exact H).
  apply loop_realises in Hr. eapply gain_bounds; eassumption.
Qed.
Print Assumptions C36_cost_base_nonneg.
Theorem C36_gain_reported : forall s acb, read_acb s = Ok acb ->
  (forall t v, In (t, v) (a_txns (t_acct s)) -> v < 0 -> balance_at_time (t_acct s) t None - v <> 0) ->
  exists gain s', read_gain s = Ok (gain, s').
Proof.
  intros s acb Ha Hb. unfold read_gain. destruct (dget Z.eqb (t_gain s) (t_year s)); [eauto|]. rewrite Ha. cbn [bind].
  destruct (gain_ok (fun t => balance_at_time (t_acct s) t None) (rsort (a_txns (t_acct s))) 0 acb) as (g & a' & E).
  - intros t v Hin. apply Hb. apply (Permutation_in _ (rsort_perm _)). exact Hin.
  - rewrite E. cbn [bind]. eauto.
Qed.
Print Assumptions C36_gain_reported.
(** over the whole life of an account: for every finished year, recorded cost bases, transactions
    and gains balance *)
Theorem C36_conserved_every_year : forall a acb os s, Forall no_removal os ->
  tsteps (t_init a acb [] []) os = Ok s -> forall y, (a_year a <= y < t_year s)%Z -> conserved_in s y.
Proof. intros a acb os s Hn H. pose proof (tsteps_inv (a_year a) os _ s (tinv_init a acb) Hn H) as (_ & _ & _ & _ & _ & _ & Hl). exact Hl. Qed.
Print Assumptions C36_conserved_every_year.

Definition flat (txns : dict R R) : account :=
  {| a_year := 2000; a_bal := 100; a_rate := fun _ => 0; a_nper := Some 1%positive; a_txns := txns; a_timing := [(1/2, 1)] |}.
Lemma flat_sold : balance_at_time (flat [(1, -40)]) 1 None = 60.
Proof.
  unfold balance_at_time, value_at_time, rate. cbn [flat a_rate a_year a_bal a_nper all_txns a_txns filter map fst snd].
  rewrite !accum_zero_rate. destruct (Rleb 1 1) eqn:E; rb; [|lra]. cbn [map Rsum fst snd]. rewrite !accum_zero_rate. lra.
Qed.
Lemma flat_gain s : t_acct s = flat [(1, -40)] -> dget Z.eqb (t_gain s) 2000%Z = None -> dget Z.eqb (t_acb s) 2000%Z = Some 50 ->
  read_gain s = Ok (20, t_with s (t_acct s) (dset Z.eqb (t_acb s) 2001%Z 30) (dset Z.eqb (t_gain s) 2000%Z 20)).
Proof.
  intros A B C. unfold read_gain, read_acb, dget_r, t_year. rewrite A. change (a_year (flat [(1, -40)])) with 2000%Z. rewrite B, C. cbn [bind].
  change (rsort (a_txns (flat [(1, -40)]))) with [(1, -40)]. cbn [gain_loop]. destruct (Rleb 0 (-40)) eqn:E; rb; [lra|]. rewrite flat_sold.
  unfold rdiv. destruct (Reqb (60 - -40) 0) eqn:E0; rb; [lra|]. cbn [bind fst snd].
  replace (0 + - -40 * (1 - 50 / (60 - -40))) with 20 by field. replace (50 * (1 - - -40 / (60 - -40))) with 30 by field. reflexivity.
Qed.
Definition sold : tacct := t_with (t_init (flat []) (Some 50) [] []) (flat [(1, -40)]) [(2000%Z, 50)] [].
Definition reported : tacct := t_with sold (flat [(1, -40)]) [(2000%Z, 50); (2001%Z, 30)] [(2000%Z, 20)].
Lemma sold_eq : tstep (t_init (flat []) (Some 50) [] []) (TAdd (-40) (RStr "end")) = Ok sold.
Proof.
  assert (E : rincr [] 1 (-40) = [(1, -40)]) by (unfold rincr; cbn; f_equal; f_equal; unfold rval; cbn; lra).
  cbn [tstep]. unfold t_add, add_transaction. cbn [rwhen_conv String.eqb Ascii.eqb Bool.eqb bind].
  change (a_txns (t_acct (t_init (flat []) (Some 50) [] []))) with (@nil (R * R)). rewrite E. reflexivity.
Qed.
Lemma reported_eq : read_gain sold = Ok (20, reported).
Proof. rewrite flat_gain; reflexivity. Qed.
(** concrete: 40 of 100 is sold at the end of the year, cost base 50: gain 20, cost base 30 *)
Example C36_sat : exists s1 s2 s3, tstep (t_init (flat []) (Some 50) [] []) (TAdd (-40) (RStr "end")) = Ok s1 /\
  read_gain s1 = Ok (20, s2) /\ tstep s2 TNext = Ok s3 /\ conserved_in s3 2000 /\ read_acb s3 = Ok 30.
Proof.
  exists sold, reported. eexists. split; [exact sold_eq|]. split; [exact reported_eq|]. split; [reflexivity|]. split; [|reflexivity].
  exists 50, 30, 20, [(1, -40)]. repeat split. cbn. lra.
Qed.

(** ** C37 *)
Theorem C37_gain_current_without_removals_partial : forall a acb os s gain s', Forall no_removal os ->
  tsteps (t_init a acb [] []) os = Ok s -> read_gain s = Ok (gain, s') -> exists acb', computed s gain acb'.
Proof.
  intros a acb os s gain s' Hn H Hg. pose proof (tsteps_inv (a_year a) os _ s (tinv_init a acb) Hn H) as Hi.
  destruct (read_gain_ok (a_year a) s gain s' Hi Hg) as (_ & _ & Hc & _). exact Hc.
Qed.
Print Assumptions C37_gain_current_without_removals_partial.
(** deleting a transaction after the gain has been read leaves the old gain in place *)
Theorem C37_delete_is_stale_refuted : exists s o gain s' gain' acb',
  tsteps (t_init (flat []) (Some 50) [] []) [TAdd (-40) (RStr "end"); TGain; o] = Ok s /\
  (o = TDel 1) /\ read_gain s = Ok (gain, s') /\ computed s gain' acb' /\ gain <> gain'.
Proof.
  exists (t_with reported (flat []) (t_acb reported) (t_gain reported)), (TDel 1), 20. eexists. exists 0, 50.
  split; [|split; [reflexivity|split; [reflexivity|split]]].
  - cbn [tsteps]. rewrite sold_eq. cbn [bind tstep]. rewrite reported_eq. cbn [bind snd]. unfold t_del, delitem.
    change (a_txns (t_acct reported)) with [(1, -40)]. unfold dmem. cbn [dget ddel fst snd]. rewrite Reqb_refl. reflexivity.
  - exists 50. split; reflexivity.
  - lra.
Qed.
Print Assumptions C37_delete_is_stale_refuted.
(** clearing the transactions before the gain has been read in the year leaves no gain, and the cost base carries over as it is *)
Theorem C37_clear_before_reading_partial : forall s acb s', dget Z.eqb (t_gain s) (t_year s) = None -> read_acb s = Ok acb ->
  tstep s TClear = Ok s' ->
  exists s'', read_gain s' = Ok (0, s'') /\ dget Z.eqb (t_acb s'') (t_year s + 1)%Z = Some acb.
Proof.
  intros s acb s' Hg Ha H. cbn [tstep] in H. injection H as <-. unfold read_gain.
  change (t_gain (t_clear s)) with (t_gain s). change (t_year (t_clear s)) with (t_year s). rewrite Hg.
  change (read_acb (t_clear s)) with (read_acb s). rewrite Ha. cbn. eexists. split; [reflexivity|].
  cbn [t_acb t_with]. rewrite zdget_dset, Z.eqb_refl. reflexivity.
Qed.
Print Assumptions C37_clear_before_reading_partial.
(** clearing after the gain has been read leaves the old gain, although nothing was bought or sold *)
Theorem C37_clear_is_stale_refuted : forall s g s', read_gain s = Ok (g, s') -> dget Z.eqb (t_gain s') (t_year s') = Some g ->
  exists s2, tstep s' TClear = Ok s2 /\ a_txns (t_acct s2) = [] /\ read_gain s2 = Ok (g, s2).
Proof.
  intros s g s' _ Hg. eexists. split; [reflexivity|]. split; [reflexivity|]. unfold read_gain.
  change (dget Z.eqb (t_gain s') (t_year s') = Some g) in Hg. change (t_gain (t_clear s')) with (t_gain s'). change (t_year (t_clear s')) with (t_year s').
  rewrite Hg. reflexivity.
Qed.
Print Assumptions C37_clear_is_stale_refuted.
Example C37_sat_clear : read_gain reported = Ok (20, reported) /\ dget Z.eqb (t_gain reported) (t_year reported) = Some 20 /\ exists s acb, dget Z.eqb (t_gain s) (t_year s) = None /\ read_acb s = Ok acb /\ a_txns (t_acct s) <> [].
Proof.
  split; [reflexivity|]. split; [reflexivity|]. exists sold, 50. repeat split. discriminate.
Qed.
Example C37_sat : exists s, Forall no_removal [TAdd (-40) (RStr "end"); TGain] /\
  tsteps (t_init (flat []) (Some 50) [] []) [TAdd (-40) (RStr "end"); TGain] = Ok s /\ exists s', read_gain s = Ok (20, s').
Proof.
  exists reported. split; [repeat constructor|]. split; [|eexists; reflexivity].
  cbn [tsteps]. rewrite sold_eq. cbn [bind tstep]. rewrite reported_eq. reflexivity.
Qed.

(** ** C75 *)
(** without adding transactions, an input gain is what is reported... *)
Theorem C75_gain_input_reported_partial : forall a acb acb_in gain_in g,
  dget Z.eqb gain_in (a_year a) = Some g -> exists s', read_gain (t_init a acb acb_in gain_in) = Ok (g, s') /\
  read_taxable (t_init a acb acb_in gain_in) = Ok (g / 2, s').
Proof.
  intros a acb acb_in gain_in g H. exists (t_init a acb acb_in gain_in).
  assert (E : read_gain (t_init a acb acb_in gain_in) = Ok (g, t_init a acb acb_in gain_in)).
  { unfold read_gain, t_init, t_year. cbn [t_gain t_acct]. rewrite H. reflexivity. }
  split; [exact E|]. unfold read_taxable. rewrite E. reflexivity.
Qed.
Print Assumptions C75_gain_input_reported_partial.
(** ... but the account then has no cost base next year and cannot be advanced again ... *)
Theorem C75_gain_input_breaks_next_year_refuted : forall a acb g,
  exists s1, tstep (t_init a acb [] [(a_year a, g)]) TNext = Ok s1 /\ read_acb s1 = Err KeyError /\ tstep s1 TNext = Err KeyError.
Proof.
  intros a acb g. eexists. cbn [tstep]. unfold t_next.
  assert (R : read_acb (t_init a acb [] [(a_year a, g)]) = Ok (match acb with Some v => v | None => a_bal a end)).
  { unfold read_acb, dget_r, t_init, t_year. cbn. rewrite Z.eqb_refl. reflexivity. }
  rewrite R. cbn [bind]. unfold read_gain at 1, t_year at 1. cbn [t_init t_gain t_acct dget fst snd]. rewrite Z.eqb_refl. cbn [bind snd].
  split; [reflexivity|].
  match goal with |- read_acb ?s = _ /\ _ => assert (R1 : read_acb s = Err KeyError) end.
  { unfold read_acb, dget_r, t_year. cbn. destruct (Z.eqb_spec (a_year a + 1) (a_year a)); [lia|reflexivity]. }
  split; [exact R1|]. unfold tstep, t_next. rewrite R1. reflexivity.
Qed.
Print Assumptions C75_gain_input_breaks_next_year_refuted.
(** ... adding a transaction discards it ... *)
Theorem C75_gain_input_discarded_refuted : forall a acb g v w s1, 0 <= v -> a_txns a = [] ->
  tstep (t_init a acb [] [(a_year a, g)]) (TAdd v w) = Ok s1 -> exists s2, read_gain s1 = Ok (0, s2).
Proof.
  intros a acb g v w s1 Hv Ht H. cbn [tstep] in H. unfold t_add, add_transaction in H. destruct (rwhen_conv w) as [t|]; [|discriminate].
  cbn [bind] in H. injection H as <-. unfold read_gain, t_year. cbn [t_with t_acct t_gain with_txns a_year t_init ddel dget fst snd].
  rewrite Z.eqb_refl. cbn [dget]. unfold read_acb, dget_r, t_year. cbn [t_with t_acct t_acb with_txns a_year t_init dmem dget dset].
  cbn [ddel fst]. destruct (Z.eqb_spec (a_year a + 1) (a_year a)); [lia|]. cbn [dget fst snd]. rewrite Z.eqb_refl. cbn [bind].
  rewrite gain_inflows.
  - cbn [bind fst snd]. eauto.
  - intros t' v' Hin. apply (Permutation_in _ (rsort_perm _)) in Hin. cbn [with_txns a_txns t_init t_acct] in Hin. rewrite Ht in Hin. cbn in Hin.
    destruct Hin as [E|[]]. injection E as _ <-. lra.
Qed.
Print Assumptions C75_gain_input_discarded_refuted.
(** ... and a cost base given for a later year is overwritten by the first gain computed before *)
Theorem C75_cost_base_input_overwritten_refuted : forall a acb x gain s',
  read_gain (t_init a (Some acb) [((a_year a + 1)%Z, x)] []) = Ok (gain, s') ->
  dget Z.eqb (t_acb s') (a_year a + 1)%Z = Some (acb + Rsum (dvals (a_txns a)) + gain).
Proof.
  intros a acb x gain s' H. destruct (C36_gain_by_the_rules _ _ _ (eq_refl : dget Z.eqb (t_gain (t_init a (Some acb) [((a_year a + 1)%Z, x)] [])) _ = None) H) as
    (b & b' & l & Hb & [Hp _] & Hr & Hs & _). unfold t_year in Hs. cbn [t_init t_acct] in *. rewrite Hs. f_equal.
  apply C36_rules_conserve in Hr. rewrite Hr. unfold read_acb, dget_r, t_init, t_year in Hb. cbn [t_acb t_acct] in Hb.
  assert (Hne : (a_year a =? a_year a + 1)%Z = false) by (apply Z.eqb_neq; lia). unfold dmem in Hb.
  cbn [dget dset fst snd] in Hb. rewrite ?Hne in Hb. cbn [dget dset fst snd] in Hb. rewrite ?Hne in Hb. cbn [dget fst snd] in Hb. rewrite ?Hne, ?Z.eqb_refl in Hb.
  injection Hb as <-. unfold dvals. rewrite (Rsum_perm' (map snd (a_txns a)) (map snd l)) by (apply Permutation_map; exact Hp). lra.
Qed.
Print Assumptions C75_cost_base_input_overwritten_refuted.
Example C75_sat : (exists s1, a_txns (flat []) = [] /\ tstep (t_init (flat []) (Some 50) [] [(a_year (flat []), 7)]) (TAdd 10 (RNum 0)) = Ok s1 /\
    exists s2, read_gain s1 = Ok (0, s2)) /\
  (exists s', read_gain (t_init (flat []) (Some 50) [((a_year (flat []) + 1)%Z, 1000)] []) = Ok (0, s') /\
    dget Z.eqb (t_acb s') (a_year (flat []) + 1)%Z = Some (50 + 0 + 0)).
Proof.
  split.
  - assert (E : exists s1, tstep (t_init (flat []) (Some 50) [] [(a_year (flat []), 7)]) (TAdd 10 (RNum 0)) = Ok s1).
    { eexists. cbn [tstep]. unfold t_add, add_transaction. cbn [rwhen_conv]. destruct (Rltb 1 0 || Rltb 0 0)%bool eqn:E; [apply orb_true_iff in E; destruct E; rb; lra|]. reflexivity. }
    destruct E as [s1 E]. exists s1. split; [reflexivity|]. split; [exact E|].
    exact (C75_gain_input_discarded_refuted (flat []) (Some 50) 7 10 (RNum 0) s1 ltac:(lra) eq_refl E).
  - assert (E : exists s', read_gain (t_init (flat []) (Some 50) [((a_year (flat []) + 1)%Z, 1000)] []) = Ok (0, s')) by (eexists; reflexivity).
    destruct E as [s' E]. exists s'. split; [exact E|]. exact (C75_cost_base_input_overwritten_refuted (flat []) 50 1000 0 s' E).
Qed.
