(** C18-C25: growth, accounts and debts. *)
From Verif Require Import Base RBase GrowthModel GrowthProofs AccountModel AccountSpec AccountProofs.
Open Scope R_scope.
Local Open Scope string_scope.

(** ** C18 *)
Theorem C18_growth_positive : forall t r n, 0 < accumulation_function t r n.
Proof. exact accum_pos. Qed.
Print Assumptions C18_growth_positive.
Theorem C18_growth_composes : forall r n,
  accumulation_function 0 r n = 1 /\
  (forall s t, accumulation_function (s + t) r n = accumulation_function s r n * accumulation_function t r n) /\
  (forall t, accumulation_function (- t) r n = / accumulation_function t r n).
Proof.
  intros r n. split; [apply accum_0|]. split; [intros; apply accum_plus|]. intro t.
  pose proof (accum_opp t r n). pose proof (accum_pos t r n). apply Rmult_eq_reg_r with (accumulation_function t r n); [|lra].
  rewrite H. field. lra.
Qed.
Print Assumptions C18_growth_composes.
(** over k whole years the factor is the textbook (1 + r/n)^(n k); annually 1 + r *)
Theorem C18_growth_nominal : forall r n k, 0 < 1 + r / IZR (Zpos n) ->
  accumulation_function (INR k) r (Some n) = (1 + r / IZR (Zpos n)) ^ (Pos.to_nat n * k).
Proof. intros. apply accum_years. assumption. Qed.
Print Assumptions C18_growth_nominal.
Theorem C18_growth_annual : forall r, -1 < r -> accumulation_function 1 r (Some 1%positive) = 1 + r.
Proof. exact accum_annual. Qed.
Print Assumptions C18_growth_annual.
Theorem C18_growth_continuous : forall r t, accumulation_function t r None = exp (r * t).
Proof. reflexivity. Qed.
Print Assumptions C18_growth_continuous.
Theorem C18_growth_monotone : forall s t r n, s < t ->
  (0 < r -> accumulation_function s r n < accumulation_function t r n) /\
  (rate_ok r n -> r < 0 -> accumulation_function t r n < accumulation_function s r n) /\
  (r = 0 -> accumulation_function s r n = accumulation_function t r n).
Proof.
  intros s t r n Hst. split; [intro; apply accum_mono; assumption|]. split; [intros; apply accum_anti; assumption|].
  intros ->. rewrite !accum_zero_rate. reflexivity.
Qed.
Print Assumptions C18_growth_monotone.
Theorem C18_inverse_recovers_time : forall t r n, rate_ok r n -> r <> 0 ->
  accumulation_function_inverse (accumulation_function t r n) r n = Ok (Fin t).
Proof. exact inverse_complete. Qed.
Print Assumptions C18_inverse_recovers_time.
Theorem C18_inverse_recovers_factor : forall a r n t, rate_ok r n -> 0 < a ->
  accumulation_function_inverse a r n = Ok (Fin t) -> accumulation_function t r n = a.
Proof. exact inverse_sound. Qed.
Print Assumptions C18_inverse_recovers_factor.
Example C18_sat : rate_ok (5/100) (Some 12%positive) /\ rate_ok (-1/2) (Some 1%positive).
Proof. cbn. lra. Qed.

(** ** C19 *)
(** an account with 100 at the start of 2000, rate 0% in 2000 and 100% from 2001 *)
Definition acct19 : account :=
  {| a_year := 2000; a_bal := 100; a_rate := fun y => if Z.eqb y 2000 then 0 else 1;
     a_nper := Some 1%positive; a_txns := []; a_timing := [(1/2, 1)] |}.
(** The full statement fails: the new balance uses next year's rate on last year's money. *)
Theorem C19_conservation_refuted : exists a, times_ok (a_txns a) /\
  a_bal (next_year a) <> a_bal a + Rsum (dvals (a_txns a)) + returns a /\
  a_bal (next_year a) <> balance_at_time a 1 None.
Proof.
  exists acct19. split; [intros k v []|].
  assert (Hb : a_bal (next_year acct19) = 200).
  { cbn [next_year a_bal]. rewrite next_balance_eq. cbn [acct19 a_bal a_rate a_year a_nper a_txns Z.eqb Z.add Pos.add Pos.succ Pos.eqb].
    rewrite accum_annual by lra. unfold wsum. cbn. lra. }
  assert (Hg : growth acct19 1 = 1) by apply accum_zero_rate.
  rewrite Hb, returns_eq, balance_at_time_eq, Hg. unfold wsum. cbn. lra.
Qed.
Print Assumptions C19_conservation_refuted.
(** It holds whenever the rate does not change between the two years. *)
Theorem C19_conservation_partial : forall a, a_rate a (a_year a + 1)%Z = rate a ->
  a_bal (next_year a) = a_bal a + Rsum (dvals (a_txns a)) + returns a /\
  (times_ok (a_txns a) -> a_bal (next_year a) = balance_at_time a 1 None).
Proof.
  intros a H. split; [apply next_balance_conserved; exact H|]. intro Ht. apply next_balance_end; assumption.
Qed.
Print Assumptions C19_conservation_partial.
(** over any number of years with any transactions, at a constant rate: final balance =
    initial balance + all transactions + all reported returns *)
Theorem C19_conservation_years_partial : forall years a out tx ret r0, (forall y, a_rate a y = r0) ->
  run_years a years = Ok (out, tx, ret) ->
  a_bal out = a_bal a + tx + ret /\ a_year out = (a_year a + Z.of_nat (List.length years))%Z.
Proof. exact run_years_conserved. Qed.
Print Assumptions C19_conservation_years_partial.
Definition acct0 : account :=
  {| a_year := 2000; a_bal := 100; a_rate := fun _ => 1; a_nper := Some 1%positive;
     a_txns := []; a_timing := [(1/2, 1)] |}.
Example C19_sat : exists out tx ret, run_years acct0 [[(0, 10); (1/2, -5)]; [(1, 3)]] = Ok (out, tx, ret).
Proof.
  assert (H : forall a l, times_ok l -> exists a', add_all a l = Ok a') by (intros a l Hl; destruct (add_all_ok l a Hl) as (a' & Ha & _); eauto).
  destruct (H acct0 [(0, 10); (1/2, -5)]) as [a1 H1].
  { intros k v [E|[E|[]]]; injection E as <- <-; lra. }
  destruct (H (next_year a1) [(1, 3)]) as [a2 H2].
  { intros k v [E|[]]; injection E as <- <-; lra. }
  cbn [run_years]. rewrite H1. cbn [bind]. rewrite H2. cbn [bind]. eauto.
Qed.

(** ** C20 *)
Theorem C20_add_transaction : forall a v w a', add_transaction a v w = Ok a' ->
  exists t, rwhen_conv w = Ok t /\ 0 <= t <= 1 /\
  (forall k, rval (a_txns a') k = rval (a_txns a) k + (if Reqb k t then v else 0)) /\
  a_bal a' = a_bal a /\ a_year a' = a_year a.
Proof. exact add_transaction_spec. Qed.
Print Assumptions C20_add_transaction.
Theorem C20_bad_times_rejected : forall a v t, t < 0 \/ 1 < t -> add_transaction a v (RNum t) = Err ValueError.
Proof. exact add_transaction_rejects. Qed.
Print Assumptions C20_bad_times_rejected.
Theorem C20_flows_split : forall a extra, 0 <= inflows a extra /\ outflows a extra <= 0 /\
  inflows a extra + outflows a extra = Rsum (dvals (a_txns a)) + opt_sum extra.
Proof. exact flows_split. Qed.
Print Assumptions C20_flows_split.
(** any sequence of additions: the total at each time is the sum of what was added there,
    and nothing else about the account changes *)
Theorem C20_sequence : forall l a, times_ok l -> exists a', add_all a l = Ok a' /\
  (forall f, wsum f (a_txns a') = wsum f (a_txns a) + wsum f l) /\
  a_bal a' = a_bal a /\ a_year a' = a_year a.
Proof.
  intros l a H. destruct (add_all_ok l a H) as (a' & Ha & Hw). exists a'. split; [exact Ha|].
  split; [exact Hw|]. apply add_all_fields in Ha. tauto.
Qed.
Print Assumptions C20_sequence.
(** a new year starts without transactions: what an account reports in a year is what was added in that year,
    whatever happened before *)
Theorem C20_new_year : forall l a, times_ok l -> exists a', add_all (next_year a) l = Ok a' /\
  (forall f, wsum f (a_txns a') = wsum f l) /\ a_year a' = (a_year a + 1)%Z /\ a_bal a' = a_bal (next_year a).
Proof.
  intros l a H. destruct (C20_sequence l (next_year a) H) as (a' & Ha & Hw & Hb & Hy). exists a'. split; [exact Ha|].
  split; [|split; [rewrite Hy; reflexivity|exact Hb]]. intro f. rewrite Hw. unfold next_year, wsum. cbn. lra.
Qed.
Print Assumptions C20_new_year.
(** deleting a recorded time removes exactly that transaction; deleting any other time is an error *)
Theorem C20_deletion : forall a t, dwf Reqb (a_txns a) ->
  (dget Reqb (a_txns a) t <> None -> exists a', delitem a t = Ok a' /\ (forall k, rval (a_txns a') k = if Reqb k t then 0 else rval (a_txns a) k) /\ a_bal a' = a_bal a) /\
  (dget Reqb (a_txns a) t = None -> delitem a t = Err KeyError).
Proof.
  intros a t W. unfold delitem, dmem. destruct (dget Reqb (a_txns a) t) as [x|] eqn:E; (split; [|intro X]); try congruence.
  intros _. eexists. split; [reflexivity|]. split; [|reflexivity]. intro k. cbn [a_txns with_txns]. unfold rval. rewrite rdget_ddel by exact W. destruct (Reqb k t); reflexivity.
Qed.
Print Assumptions C20_deletion.
(** assignment through the mapping interface replaces what is recorded at that time and nothing else; reading a time
    shows what is recorded there (0 if nothing) and leaves every balance as it was *)
Theorem C20_assignment : forall a t v, dwf Reqb (a_txns a) -> 0 <= t <= 1 -> exists a', setitem a (RNum t) v = Ok a' /\
  (forall k, rval (a_txns a') k = if Reqb k t then v else rval (a_txns a) k) /\ a_bal a' = a_bal a /\ a_year a' = a_year a.
Proof.
  intros a t v W Ht. unfold setitem. set (a1 := if dmem Reqb (a_txns a) t then _ else a).
  assert (A1 : a_bal a1 = a_bal a /\ a_year a1 = a_year a /\ forall k, rval (a_txns a1) k = if Reqb k t then 0 else rval (a_txns a) k).
  { unfold a1, dmem. destruct (dget Reqb (a_txns a) t) as [x|] eqn:E.
    - split; [reflexivity|]. split; [reflexivity|]. intro k. cbn [a_txns with_txns]. unfold rval. rewrite rdget_ddel by exact W. destruct (Reqb k t); reflexivity.
    - split; [reflexivity|]. split; [reflexivity|]. intro k. destruct (Reqb k t) eqn:Ek; [|reflexivity]. unfold Reqb in Ek. destruct (Req_EM_T k t) as [->|]; [|discriminate]. unfold rval. rewrite E. reflexivity. }
  destruct A1 as (B1 & B2 & B3). destruct (add_all_ok [(t, v)] a1) as (a' & Ha & _). { intros k u [E|[]]. injection E as <- <-. exact Ht. }
  cbn [add_all bind] in Ha. destruct (add_transaction a1 v (RNum t)) as [a2|e] eqn:E; [|discriminate]. exists a2. split; [reflexivity|].
  destruct (add_transaction_spec _ _ _ _ E) as (t' & T1 & _ & T2 & T3 & T4). cbn [rwhen_conv] in T1.
  assert (t' = t) by (destruct (orb (Rltb 1 t) (Rltb t 0)); [discriminate|congruence]). subst t'.
  split; [|split; [rewrite T3; exact B1|rewrite T4; exact B2]]. intro k. rewrite T2, B3. destruct (Reqb k t); lra.
Qed.
Print Assumptions C20_assignment.
(** clearing removes every transaction and nothing else: afterwards the year's transactions are those recorded since *)
Theorem C20_cleared : forall l a, times_ok l ->
  (forall k, rval (a_txns (AccountModel.clear a)) k = 0) /\ inflows (AccountModel.clear a) None = 0 /\ outflows (AccountModel.clear a) None = 0 /\
  (exists a', add_all (AccountModel.clear a) l = Ok a' /\ (forall f, wsum f (a_txns a') = wsum f l) /\ a_bal a' = a_bal a /\ a_year a' = a_year a /\
     forall t, rate a' = rate a /\ a_nper a' = a_nper a /\
       balance_at_time (AccountModel.clear a) t None = value_at_time (a_bal a) (rate a) 0 t (a_nper a)).
Proof.
  intros l a H. split; [reflexivity|]. split; [unfold inflows; cbn; lra|]. split; [unfold outflows; cbn; lra|].
  destruct (add_all_ok l (AccountModel.clear a) H) as (a' & Ha & Hw). exists a'. split; [exact Ha|].
  assert (F := add_all_fields _ _ _ Ha). split; [intro f; rewrite Hw; unfold wsum; cbn; lra|].
  split; [apply F|]. split; [apply F|]. intro t.
  split; [unfold rate; decompose [and] F; cbn in *; congruence|]. split; [decompose [and] F; cbn in *; congruence|].
  unfold balance_at_time, all_txns. cbn. unfold rate. cbn. lra.
Qed.
Print Assumptions C20_cleared.
Theorem C20_reading : forall a t, fst (getitem a t) = rval (a_txns a) t /\
  forall s extra, balance_at_time (snd (getitem a t)) s extra = balance_at_time a s extra.
Proof.
  intros a t. unfold getitem, rval. destruct (dget Reqb (a_txns a) t) as [x|] eqn:E; [split; reflexivity|]. split; [reflexivity|].
  intros s extra. rewrite !balance_at_time_eq. cbn [snd]. change (growth (with_txns a ?d)) with (growth a). cbn [a_txns with_txns a_bal].
  change (fv (with_txns a (dset Reqb (a_txns a) t 0)) s) with (fv a s).
  assert (W : forall f, wsum f (dset Reqb (a_txns a) t 0) = wsum f (a_txns a)); [|rewrite W; reflexivity].
  intro f. revert E. generalize (a_txns a) as d. induction d as [|[k y] d IH]; intro E; cbn [dget dset] in *; [unfold wsum; cbn; lra|].
  destruct (Reqb t k); [discriminate|]. specialize (IH E). unfold wsum in *. cbn [map Rsum fst snd]. rewrite IH. reflexivity.
Qed.
Print Assumptions C20_reading.
Example C20_sat : exists a', add_transaction acct0 5 (RStr "end") = Ok a' /\ rval (a_txns a') 1 = 5.
Proof.
  eexists. split; [reflexivity|]. cbn [a_txns with_txns]. rewrite rval_rincr, Reqb_refl.
  unfold rval. cbn. lra.
Qed.
Example C20_sat_more : let a1 := with_txns acct0 [(1, 5)] in times_ok [(0, 3); (1/2, -2)] /\
  dwf Reqb (a_txns a1) /\ dget Reqb (a_txns a1) 1 <> None /\ dget Reqb (a_txns a1) (1/2) = None /\
  (exists a2, setitem a1 (RNum 1) 7 = Ok a2 /\ rval (a_txns a2) 1 = 7) /\
  (exists a3, delitem a1 1 = Ok a3 /\ rval (a_txns a3) 1 = 0) /\ delitem a1 (1/2) = Err KeyError.
Proof.
  intros a1. assert (W : dwf Reqb (a_txns a1)) by (cbn; repeat constructor; auto).
  assert (N : Reqb (1/2) 1 = false) by (unfold Reqb; destruct (Req_EM_T (1/2) 1); [exfalso; lra|reflexivity]).
  assert (G : dget Reqb (a_txns a1) (1/2) = None) by (cbn; now rewrite N).
  assert (G1 : dget Reqb (a_txns a1) 1 <> None) by (cbn; rewrite Reqb_refl; discriminate).
  split. { intros k v [E|[E|[]]]; injection E as <- <-; lra. }
  split; [exact W|]. split; [exact G1|]. split; [exact G|].
  split. { destruct (C20_assignment a1 1 7 W ltac:(lra)) as (a2 & E & V & _). exists a2. split; [exact E|]. rewrite V, Reqb_refl. reflexivity. }
  split. { destruct (C20_deletion a1 1 W) as [D _]. destruct (D G1) as (a3 & E & V & _). exists a3. split; [exact E|]. rewrite V, Reqb_refl. reflexivity. }
  destruct (C20_deletion a1 (1/2) W) as [_ D]. exact (D G).
Qed.

(** ** C21.  [clean_timing a timing] is the timing actually used: the one given, or the
    account's default when none (or an empty one) is given. *)
Theorem C21_reaches_target : forall a target timing extra, timing_ok (clean_timing a timing) ->
  exists flows a', transactions_to_balance a (Fin target) timing None None extra = Ok (fin_flows flows) /\
    add_all a flows = Ok a' /\ balance_at_time a' 1 extra = target.
Proof. exact ttb_hits_target. Qed.
Print Assumptions C21_reaches_target.
(** each flow is the common total times its time's share of the weights *)
Theorem C21_proportional : forall a target timing mx mn extra flows,
  let d := clean_timing a timing in timing_ok d ->
  transactions_to_balance a target timing mx mn extra = Ok flows ->
  exists total, esum (map snd flows) = total /\
    (Rsum (dvals d) <> 0 -> flows = map (fun kv => (fst kv, escale total (snd kv / Rsum (dvals d))))
                                        (filter (fun kv => negb (Reqb (snd kv) 0)) d)) /\
    (Rsum (dvals d) = 0 -> flows = map (fun kv => (fst kv, escale total (1 / INR (List.length d)))) d).
Proof.
  intros a target timing mx mn extra flows d H Hf. eexists. split; [reflexivity|].
  pose proof (ttb_total _ _ _ _ _ _ _ H Hf) as HT. rewrite HT.
  rewrite ttb_eq in Hf by exact H. injection Hf as <-. fold d. set (T := clamp _ _ _).
  unfold normalized_timing. split; intro Hs.
  - destruct (Reqb (Rsum (dvals d)) 0) eqn:E; rb; [contradiction|]. rewrite map_map. reflexivity.
  - destruct (Reqb (Rsum (dvals d)) 0) eqn:E; rb; [|contradiction].
    assert (Hfil : filter (fun kv : R * R => negb (Reqb (snd kv) 0)) (map (fun kv : R * R => (fst kv, 1)) d)
                 = map (fun kv : R * R => (fst kv, 1)) d).
    { clear. induction d as [|[k v] r IH]; cbn; [reflexivity|].
      destruct (Reqb 1 0) eqn:E; rb; [lra|]. cbn. rewrite IH. reflexivity. }
    rewrite Hfil, !map_map. reflexivity.
Qed.
Print Assumptions C21_proportional.
Theorem C21_total_within_limits : forall a target timing lo hi extra flows,
  timing_ok (clean_timing a timing) -> ele lo hi ->
  transactions_to_balance a target timing (Some hi) (Some lo) extra = Ok flows ->
  ele lo (esum (map snd flows)) /\ ele (esum (map snd flows)) hi.
Proof.
  intros a target timing lo hi extra flows H Hlh Hf. rewrite (ttb_total _ _ _ _ _ _ _ H Hf).
  split; apply clamp_bounds; auto.
Qed.
Print Assumptions C21_total_within_limits.
(** if the total is strictly inside the limits, the target is reached exactly *)
Theorem C21_limits_slack_reaches_target : forall a target timing mx mn extra flows,
  timing_ok (clean_timing a timing) ->
  transactions_to_balance a (Fin target) timing mx mn extra = Ok (fin_flows flows) ->
  mx <> Some (Fin (Rsum (dvals flows))) -> mn <> Some (Fin (Rsum (dvals flows))) ->
  exists a', add_all a flows = Ok a' /\ balance_at_time a' 1 extra = target.
Proof.
  intros a target timing mx mn extra flows H Hf Hmx Hmn.
  pose proof (ttb_total _ _ _ _ _ _ _ H Hf) as HT.
  assert (Hs : esum (map snd (fin_flows flows)) = Fin (Rsum (dvals flows))).
  { unfold fin_flows. rewrite map_map. cbn [snd]. unfold dvals.
    rewrite <- (map_map snd Fin). apply esum_fin. }
  rewrite Hs in HT. symmetry in HT.
  destruct (ttb_slack _ _ _ _ _ _ _ H HT Hmx Hmn) as (flows' & a' & H1 & H2 & H3 & H4).
  assert (flows' = flows).
  { rewrite Hf in H1. injection H1 as H1. unfold fin_flows in H1. clear -H1. revert flows' H1.
    induction flows as [|[k v] r IH]; intros [|[k' v'] r'] H1; cbn in H1; try discriminate; [reflexivity|].
    injection H1 as -> -> H1. f_equal. apply IH. exact H1. }
  subst flows'. eauto.
Qed.
Print Assumptions C21_limits_slack_reaches_target.
Example C21_sat : timing_ok (clean_timing acct0 (Some [(0, 1); (1, 3)])) /\ timing_ok (clean_timing acct0 None).
Proof.
  split; (split; [discriminate|]); intros k w Hin; repeat (destruct Hin as [E|Hin]; [injection E as <- <-; lra|]); destruct Hin.
Qed.

(** ** C22: for any subclass limits [L]; [tl]/[bl] are the optional transaction_limit and
    balance_limit arguments, [extra] the optional hypothetical transactions. *)
Theorem C22_max_outflows : forall L a timing tl (bl : option R) extra,
  timing_ok (clean_timing a timing) -> max_out L <> PInf -> tl <> Some PInf ->
  let b := match bl with Some x => x | None => 0 end in
  let room := emin (opt_emax (esub (max_out L) (outflows a extra)) tl) (Fin 0) in
  exists flows a',
    max_outflows L a timing tl (option_map Fin bl) extra = Ok (fin_flows flows) /\
    (forall t v, In (t, v) flows -> v <= 0) /\
    ele room (Fin (Rsum (dvals flows))) /\
    add_all a flows = Ok a' /\
    (b <= balance_at_time a 1 extra -> b <= balance_at_time a' 1 extra) /\
    (balance_at_time a' 1 extra = b \/ room = Fin (Rsum (dvals flows)) \/
     (balance_at_time a 1 extra <= b /\ Rsum (dvals flows) = 0)).
Proof. intros L a timing tl bl extra H1 H2 H3. apply outflows_upto_spec; assumption. Qed.
Print Assumptions C22_max_outflows.
(** the annual limit, counting what was already withdrawn *)
Theorem C22_annual_limit : forall L a timing extra lim, timing_ok (clean_timing a timing) ->
  max_out L = Fin lim -> lim <= outflows a extra ->
  exists flows, max_outflows L a timing None None extra = Ok (fin_flows flows) /\
    lim <= outflows a extra + Rsum (dvals flows) <= outflows a extra.
Proof.
  intros L a timing extra lim H Hl Ho.
  destruct (outflows_upto_spec a (max_out L) timing None None extra H) as (flows & a' & H1 & H2 & H3 & _);
    [congruence|discriminate|]. exists flows. split; [exact H1|].
  rewrite Hl in H3. cbn [esub opt_emax] in H3.
  assert (Hs : Rsum (dvals flows) <= 0).
  { apply Rsum_nonpos. intros x Hx. unfold dvals in Hx. apply in_map_iff in Hx.
    destruct Hx as ([t v] & <- & Hin). apply (H2 t v Hin). }
  destruct (emin_case (Fin (lim - outflows a extra)) (Fin 0)) as [[Hc E]|[Hc E]]; rewrite E in H3; cbn in H3, Hc; lra.
Qed.
Print Assumptions C22_annual_limit.
Example C22_sat : timing_ok (clean_timing acct0 None) /\ max_out account_limits <> PInf /\ 0 <= balance_at_time acct0 1 None.
Proof.
  split; [apply C21_sat|]. split; [discriminate|]. rewrite balance_at_time_eq. 
  assert (Hg : growth acct0 1 = 1 + 1) by (apply accum_annual; lra). rewrite Hg. unfold wsum. cbn. lra.
Qed.

(** ** C23 *)
Theorem C23_max_inflows : forall L a timing tl bl extra flows, timing_ok (clean_timing a timing) ->
  max_inflows L a timing tl bl extra = Ok flows ->
  (forall t x, In (t, x) flows -> ele (Fin 0) x) /\
  ele (esum (map snd flows)) (emax (opt_emin (esub (max_in L) (inflows a extra)) tl) (Fin 0)).
Proof. intros. eapply inflows_upto_spec; eassumption. Qed.
Print Assumptions C23_max_inflows.
(** a balance cap is respected, and otherwise the room is used in full *)
Theorem C23_max_inflows_capped : forall L a timing tl (bl : option R) extra, timing_ok (clean_timing a timing) ->
  tl <> Some PInf -> (max_in L <> PInf \/ bl <> None \/ tl <> None) ->
  let room := emax (opt_emin (esub (max_in L) (inflows a extra)) tl) (Fin 0) in
  exists flows a', max_inflows L a timing tl (option_map Fin bl) extra = Ok (fin_flows flows) /\
    add_all a flows = Ok a' /\ (forall t v, In (t, v) flows -> 0 <= v) /\
    ele (Fin (Rsum (dvals flows))) room /\
    (forall b, bl = Some b -> balance_at_time a 1 extra <= b -> balance_at_time a' 1 extra <= b) /\
    ((exists b, bl = Some b /\ balance_at_time a' 1 extra = b) \/ room = Fin (Rsum (dvals flows)) \/
     (exists b, bl = Some b /\ b <= balance_at_time a 1 extra /\ Rsum (dvals flows) = 0)).
Proof. intros L a. apply (inflows_upto_finite a (max_in L)). Qed.
Print Assumptions C23_max_inflows_capped.
(** min_inflows: exactly what is still required, never negative *)
Theorem C23_min_inflows_exact : forall L a timing extra lim, timing_ok (clean_timing a timing) ->
  min_in L = Fin lim ->
  exists flows, min_inflows L a timing None None extra = Ok (fin_flows flows) /\
    (forall t v, In (t, v) flows -> 0 <= v) /\
    Rsum (dvals flows) = Rmax (lim - inflows a extra) 0.
Proof.
  intros L a timing extra lim H Hl.
  destruct (inflows_upto_finite a (min_in L) timing None None extra H) as (flows & a' & H1 & H2 & H3 & H4 & _ & H6);
    [discriminate|left; congruence|]. exists flows. split; [exact H1|]. split; [exact H3|].
  rewrite Hl in H6. cbn [opt_emin esub] in H6.
  destruct H6 as [(b & Hb & _)|[H6|(b & Hb & _)]]; try discriminate.
  destruct (emax_case (Fin (lim - inflows a extra)) (Fin 0)) as [[Hc E]|[Hc E]]; rewrite E in H6; cbn in Hc;
    injection H6 as <-.
  - rewrite Rmax_right; [reflexivity|exact Hc].
  - rewrite Rmax_left; [reflexivity|exact Hc].
Qed.
Print Assumptions C23_min_inflows_exact.
(** min_outflows: exactly what is still required, unless the account runs dry first *)
Theorem C23_min_outflows : forall L a timing extra lim, timing_ok (clean_timing a timing) ->
  min_out L = Fin lim ->
  exists flows a', min_outflows L a timing None None extra = Ok (fin_flows flows) /\
    (forall t v, In (t, v) flows -> v <= 0) /\ add_all a flows = Ok a' /\
    (0 <= balance_at_time a 1 extra -> 0 <= balance_at_time a' 1 extra) /\
    Rmin (lim - outflows a extra) 0 <= Rsum (dvals flows) /\
    (Rsum (dvals flows) = Rmin (lim - outflows a extra) 0 \/ balance_at_time a' 1 extra = 0 \/
     (balance_at_time a 1 extra <= 0 /\ Rsum (dvals flows) = 0)).
Proof.
  intros L a timing extra lim H Hl.
  destruct (outflows_upto_spec a (min_out L) timing None None extra H) as (flows & a' & H1 & H2 & H3 & H4 & H5 & H6);
    [congruence|discriminate|]. exists flows, a'. cbn [option_map] in *.
  rewrite Hl in H3, H6. cbn [opt_emax esub] in H3, H6.
  assert (Hm : emin (Fin (lim - outflows a extra)) (Fin 0) = Fin (Rmin (lim - outflows a extra) 0)).
  { destruct (emin_case (Fin (lim - outflows a extra)) (Fin 0)) as [[Hc E]|[Hc E]]; rewrite E; cbn in Hc; f_equal.
    - rewrite Rmin_left; [reflexivity|exact Hc].
    - rewrite Rmin_right; [reflexivity|exact Hc]. }
  rewrite Hm in H3, H6. cbn in H3. split; [exact H1|]. split; [exact H2|]. split; [exact H4|]. split; [exact H5|].
  split; [exact H3|]. destruct H6 as [H6|[H6|H6]]; [auto|left; congruence|auto].
Qed.
Print Assumptions C23_min_outflows.
(** a limit already met or exceeded yields zero flows only *)
Theorem C23_exhausted_room_gives_zero : forall L a timing tl bl extra flows, timing_ok (clean_timing a timing) ->
  ele (max_in L) (Fin (inflows a extra)) ->
  max_inflows L a timing tl bl extra = Ok flows -> forall t x, In (t, x) flows -> x = Fin 0.
Proof.
  intros L a timing tl bl extra flows H Hl Hf t x Hin.
  destruct (inflows_upto_spec _ _ _ _ _ _ _ H Hf) as [H1 H2].
  assert (Hz : emax (opt_emin (esub (max_in L) (inflows a extra)) tl) (Fin 0) = Fin 0).
  { assert (Ho : ele (opt_emin (esub (max_in L) (inflows a extra)) tl) (Fin 0)).
    { assert (Hs : ele (esub (max_in L) (inflows a extra)) (Fin 0)) by (destruct (max_in L); cbn in *; auto; lra).
      destruct tl as [e|]; cbn; [|exact Hs]. eapply ele_trans; [apply emin_l|exact Hs]. }
    destruct (emax_case (opt_emin (esub (max_in L) (inflows a extra)) tl) (Fin 0)) as [[_ E]|[E1 E]]; rewrite E; [reflexivity|].
    destruct (opt_emin (esub (max_in L) (inflows a extra)) tl); cbn in *; try tauto. f_equal. lra. }
  rewrite Hz in H2. clear Hf Hz. revert H1 H2 Hin. induction flows as [|[k y] r IH]; intros H1 H2 Hin; [destruct Hin|].
  cbn [map snd esum] in H2.
  assert (Hr : forall t x, In (t, x) r -> ele (Fin 0) x) by (intros; eapply H1; right; eassumption).
  assert (Hsr : ele (Fin 0) (esum (map snd r))).
  { clear -Hr. induction r as [|[k y] r IH]; [cbn; lra|]. cbn [map snd esum].
    assert (ele (Fin 0) y) by (eapply Hr; left; reflexivity).
    assert (ele (Fin 0) (esum (map snd r))) by (apply IH; intros; eapply Hr; right; eassumption).
    destruct y, (esum (map snd r)); cbn in *; try tauto. lra. }
  assert (Hy : ele (Fin 0) y) by (eapply H1; left; reflexivity).
  assert (Hy0 : y = Fin 0 /\ ele (esum (map snd r)) (Fin 0)).
  { destruct y as [y| |], (esum (map snd r)) as [z| |]; cbn in *; try tauto. split; [f_equal|]; lra. }
  destruct Hin as [E|Hin]; [injection E as <- <-; tauto|]. apply IH; tauto.
Qed.
Print Assumptions C23_exhausted_room_gives_zero.
Example C23_sat : exists L, min_in L = Fin 10 /\ ele (max_in L) (Fin (inflows acct0 (Some [(0, 50)]))).
Proof.
  exists {| max_in := Fin 20; min_in := Fin 10; max_out := MInf; min_out := Fin 0 |}. split; [reflexivity|].
  unfold inflows, pos_part. cbn. destruct (Rltb 0 50) eqn:E; rb; cbn; lra.
Qed.

(** ** C24 *)
(** with no transaction after [when], the balance at the returned time is the target
    (if the time is not before [when]); in general it is the target projected from the last
    segment start *)
Theorem C24_time_to_balance_partial : forall n a v w t, rate_ok (rate a) (a_nper a) ->
  time_to_balance n a v w = Ok (Fin t) -> ~ In t (dkeys (a_txns a)) ->
  exists s, (s = w \/ (In s (dkeys (a_txns a)) /\ w < s)) /\
    balance_at_time a s None * growth a (t - s) = v /\
    (s <= t -> balance_at_time a t None = v).
Proof. exact time_to_balance_reaches. Qed.
Print Assumptions C24_time_to_balance_partial.
Theorem C24_no_later_transactions_partial : forall n a v w t, rate_ok (rate a) (a_nper a) ->
  (forall k, In k (dkeys (a_txns a)) -> k <= w) ->
  time_to_balance n a v w = Ok (Fin t) -> w <= t -> balance_at_time a t None = v.
Proof.
  intros n a v w t Hok Hk H Hwt. apply time_to_balance_spec in H; [|exact Hok].
  destruct H as (s & [->|[Hi Hl]] & Heq & _); [|specialize (Hk s Hi); lra].
  rewrite (balance_grows a w t Hwt); [exact Heq|]. intros k Hik Hwk. specialize (Hk k Hik). lra.
Qed.
Print Assumptions C24_no_later_transactions_partial.
Theorem C24_zero_growth : forall n a v w, rate a = 0 -> (forall k, In k (dkeys (a_txns a)) -> k <= w) ->
  0 < balance_at_time a w None -> 0 <= v ->
  time_to_balance n a v w = Ok (if Reqb v (balance_at_time a w None) then Fin w
                                else if Rltb v (balance_at_time a w None) then MInf else PInf).
Proof. exact time_to_balance_zero_rate. Qed.
Print Assumptions C24_zero_growth.
(** the search always terminates *)
Theorem C24_terminates : forall a v w, time_to_balance (List.length (a_txns a)) a v w <> Err StopIteration.
Proof.
  intros a v w. apply time_to_balance_fuel.
  assert (H : forall l, (List.length (filter (fun k => Rltb w k) l) <= List.length l)%nat).
  { induction l as [|x l IH]; cbn; [lia|]. destruct (Rltb w x); cbn; lia. }
  specialize (H (dkeys (a_txns a))). unfold dkeys in H at 2. rewrite map_length in H. exact H.
Qed.
Print Assumptions C24_terminates.
(** refuted in general: 100 growing at 100% a year with a deposit of 400 at year end never
    shows a balance of 300 at the returned time 0 *)
Definition acct24 : account := with_txns acct0 [(1, 400)].
Lemma growth24 t : growth acct24 t = Rpower 2 t.
Proof. unfold growth. cbn. f_equal; lra. Qed.
Lemma bal24_0 : balance_at_time acct24 0 None = 100.
Proof.
  rewrite balance_at_time_eq, growth_0. cbn [acct24 with_txns acct0 a_bal a_txns extra_wsum].
  unfold wsum, fv. cbn. destruct (Rleb 1 0) eqn:E; rb; lra.
Qed.
Lemma bal24_1 : balance_at_time acct24 1 None = 600.
Proof.
  rewrite balance_at_time_eq, growth24, Rpower_1 by lra.
  assert (Hw : wsum (fv acct24 1) (a_txns acct24) = 400 * fv acct24 1 1) by (unfold wsum; cbn; lra).
  assert (Hf : fv acct24 1 1 = 1).
  { unfold fv. destruct (Rleb 1 1) eqn:E; rb; [|lra]. replace (1 - 1) with 0 by ring. apply growth_0. }
  rewrite Hw, Hf. cbn. lra.
Qed.
Lemma ln2_pos : 0 < ln 2.
Proof. rewrite <- ln_1. apply ln_increasing; lra. Qed.
Theorem C24_time_to_balance_refuted : exists a v, rate_ok (rate a) (a_nper a) /\
  time_to_balance_top a v (RNum 0) = Ok (Fin 0) /\ balance_at_time a 0 None <> v.
Proof.
  exists acct24, 300. split; [cbn; lra|]. split; [|rewrite bal24_0; lra].
  pose proof ln2_pos as Hl2.
  assert (Hr : rate acct24 = 1) by reflexivity.
  assert (Hn : a_nper acct24 = Some 1%positive) by reflexivity.
  assert (E0 : time_to_value (rate acct24) 100 300 (Some 1%positive) = Ok (Fin (ln 3 / ln 2))).
  { unfold time_to_value, accumulation_function_inverse. rewrite Hr.
    destruct (Reqb 100 0) eqn:X1; rb; [lra|]. destruct (Rltb (300 / 100) 0) eqn:X2; rb; [lra|].
    destruct (Reqb 1 0) eqn:X3; rb; [lra|]. destruct (Reqb (300 / 100) 0) eqn:X4; rb; [lra|].
    do 2 f_equal. replace (300 / 100) with 3 by lra. replace (1 + 1 / 1) with 2 by lra. field. lra. }
  assert (E1 : time_to_value (rate acct24) 600 300 (Some 1%positive) = Ok (Fin (-1))).
  { unfold time_to_value, accumulation_function_inverse. rewrite Hr.
    destruct (Reqb 600 0) eqn:X1; rb; [lra|]. destruct (Rltb (300 / 600) 0) eqn:X2; rb; [lra|].
    destruct (Reqb 1 0) eqn:X3; rb; [lra|]. destruct (Reqb (300 / 600) 0) eqn:X4; rb; [lra|].
    do 2 f_equal. replace (300 / 600) with (/ 2) by lra. rewrite ln_Rinv by lra.
    replace (1 + 1 / 1) with 2 by lra. field. lra. }
  assert (Hgt : 1 < ln 3 / ln 2).
  { apply Rmult_lt_reg_r with (ln 2); [lra|]. replace (ln 3 / ln 2 * ln 2) with (ln 3) by (field; lra).
    rewrite Rmult_1_l. apply ln_increasing; lra. }
  unfold time_to_balance_top. cbn [rwhen_conv]. destruct (Rltb 1 0) eqn:Y1; rb; [lra|].
  destruct (Rltb 0 0) eqn:Y2; rb; [lra|]. cbn [orb bind].
  change (List.length (a_txns acct24)) with 1%nat. cbn [time_to_balance]. rewrite bal24_0, Hn, E0. cbn [bind].
  assert (N0 : forall x, next_after (a_txns acct24) 0 x = Fin 1).
  { intro x. unfold next_after. cbn. destruct (Rltb 0 1) eqn:Z; rb; [reflexivity|lra]. }
  assert (N1 : forall x, next_after (a_txns acct24) 1 x = x).
  { intro x. unfold next_after. cbn. destruct (Rltb 1 1) eqn:Z; rb; [lra|reflexivity]. }
  rewrite N0. cbn [eadd eleb]. destruct (Rleb (0 + ln 3 / ln 2) 1) eqn:Y3; rb; [lra|]. cbn [negb].
  rewrite bal24_1, E1. cbn [bind]. rewrite N1. cbn [eadd eleb].
  destruct (Rleb (1 + -1) (1 + -1)) eqn:Y4; rb; [|lra]. cbn [negb]. do 2 f_equal. ring.
Qed.
Print Assumptions C24_time_to_balance_refuted.
(** and the result may lie before [when] although the documentation promises a time at or
    after it *)
Theorem C24_not_before_when_refuted : exists a v w t, rate_ok (rate a) (a_nper a) /\ 0 <= w <= 1 /\
  time_to_balance_top a v (RNum w) = Ok (Fin t) /\ t < w.
Proof.
  exists acct0, 50, 0, (-1). split; [cbn; lra|]. split; [lra|]. split; [|lra].
  unfold time_to_balance_top. cbn [rwhen_conv]. destruct (Rltb 1 0) eqn:Y1; rb; [lra|].
  destruct (Rltb 0 0) eqn:Y2; rb; [lra|]. cbn [orb bind].
  change (List.length (a_txns acct0)) with 0%nat. cbn [time_to_balance].
  assert (Hb : balance_at_time acct0 0 None = 100).
  { rewrite balance_at_time_eq, growth_0. cbn. unfold wsum. cbn. lra. }
  rewrite Hb. pose proof ln2_pos as Hl2.
  assert (E1 : time_to_value (rate acct0) 100 50 (a_nper acct0) = Ok (Fin (-1))).
  { unfold time_to_value, accumulation_function_inverse. change (rate acct0) with 1. cbn [acct0 a_nper].
    destruct (Reqb 100 0) eqn:X1; rb; [lra|]. destruct (Rltb (50 / 100) 0) eqn:X2; rb; [lra|].
    destruct (Reqb 1 0) eqn:X3; rb; [lra|]. destruct (Reqb (50 / 100) 0) eqn:X4; rb; [lra|].
    do 2 f_equal. replace (50 / 100) with (/ 2) by lra. rewrite ln_Rinv by lra.
    replace (1 + 1 / 1) with 2 by lra. field. lra. }
  rewrite E1. cbn. destruct (Rleb (0 + -1) (0 + -1)) eqn:Y4; rb; [|lra]. cbn. do 2 f_equal. ring.
Qed.
Print Assumptions C24_not_before_when_refuted.
Example C24_sat : let a := {| a_year := 2000; a_bal := 100; a_rate := fun _ => 1; a_nper := Some 1%positive;
     a_txns := []; a_timing := [] |} in
  rate_ok (rate a) (a_nper a) /\ time_to_balance_top a 200 (RNum 0) = Ok (Fin 1) /\ balance_at_time a 1 None = 200.
Proof.
  cbn zeta. set (a := {| a_year := _ |}).
  assert (Hr : rate_ok (rate a) (a_nper a)) by (cbn; lra).
  assert (B : forall t, balance_at_time a t None = 100 * accumulation_function t 1 (Some 1%positive)).
  { intro t. rewrite balance_at_time_eq. unfold wsum. cbn. unfold growth, rate. cbn. lra. }
  assert (G0 : balance_at_time a 0 None = 100) by (rewrite B; rewrite accum_0; lra).
  assert (G1 : balance_at_time a 1 None = 200) by (rewrite B, accum_annual by lra; lra).
  split; [exact Hr|]. split; [|exact G1].
  unfold time_to_balance_top. cbn [rwhen_conv]. destruct (Rltb 1 0 || Rltb 0 0)%bool eqn:E; [apply orb_true_iff in E; destruct E; rb; lra|].
  cbn [bind]. change (List.length (a_txns a)) with 0%nat. cbn [time_to_balance]. rewrite G0. unfold time_to_value.
  destruct (Reqb 100 0) eqn:E0; [rb; lra|]. change (rate a) with 1. change (a_nper a) with (Some 1%positive).
  replace (200 / 100) with (accumulation_function 1 1 (Some 1%positive)) by (rewrite accum_annual by lra; lra).
  rewrite inverse_complete by (cbn; lra). cbn. destruct (Rleb (0 + 1) (0 + 1)) eqn:Y4; rb; [|lra]. cbn. do 2 f_equal. ring.
Qed.

(** ** C25 *)
Theorem C25_initial_balance : forall b, debt_initial_balance (Some b) None = - Rabs b /\
  debt_initial_balance None None = 0.
Proof.
  intro b. unfold debt_initial_balance. split.
  - unfold Rabs. destruct (Rcase_abs b), (Rltb 0 b) eqn:E; rb; lra.
  - destruct (Rltb 0 0) eqn:E; rb; lra.
Qed.
Print Assumptions C25_initial_balance.
(** an initial-year input overrides the sign correction *)
Theorem C25_positive_input_refuted : exists bal inp, 0 < debt_initial_balance bal (Some inp).
Proof.
  exists None, 100. unfold debt_initial_balance. destruct (Rltb 0 100) eqn:E; rb; lra.
Qed.
Print Assumptions C25_positive_input_refuted.
(** max_inflows of a debt: finite even with unlimited acceleration, never overpays, uses the
    whole allowance or repays everything *)
Theorem C25_max_inflows : forall mp ap a timing extra, timing_ok (clean_timing a timing) ->
  let room := emax (esub (eadd (Fin mp) ap) (inflows a extra)) (Fin 0) in
  exists flows a', debt_max_inflows mp ap a timing None None extra = Ok (fin_flows flows) /\
    add_all a flows = Ok a' /\ (forall t v, In (t, v) flows -> 0 <= v) /\
    ele (Fin (Rsum (dvals flows))) room /\
    (balance_at_time a 1 extra <= 0 -> balance_at_time a' 1 extra <= 0) /\
    (balance_at_time a' 1 extra = 0 \/ room = Fin (Rsum (dvals flows)) \/
     (0 <= balance_at_time a 1 extra /\ Rsum (dvals flows) = 0)).
Proof.
  intros mp ap a timing extra H room.
  destruct (inflows_upto_finite a (max_in (debt_limits mp ap)) timing None (Some 0) extra H) as
    (flows & a' & H1 & H2 & H3 & H4 & H5 & H6); [discriminate|right; left; discriminate|].
  exists flows, a'. split; [exact H1|]. split; [exact H2|]. split; [exact H3|]. split; [exact H4|].
  split; [apply H5; reflexivity|]. destruct H6 as [(b & Hb & H6)|[H6|(b & Hb & H6)]].
  - injection Hb as <-. auto.
  - right; left. exact H6.
  - injection Hb as <-. auto.
Qed.
Print Assumptions C25_max_inflows.
Theorem C25_min_inflows : forall mp ap a timing extra, timing_ok (clean_timing a timing) ->
  exists flows a', debt_min_inflows mp ap a timing None None extra = Ok (fin_flows flows) /\
    add_all a flows = Ok a' /\ (forall t v, In (t, v) flows -> 0 <= v) /\
    Rsum (dvals flows) <= Rmax (mp - inflows a extra) 0 /\
    (balance_at_time a 1 extra <= 0 -> balance_at_time a' 1 extra <= 0).
Proof.
  intros mp ap a timing extra H.
  destruct (inflows_upto_finite a (min_in (debt_limits mp ap)) timing None (Some 0) extra H) as
    (flows & a' & H1 & H2 & H3 & H4 & H5 & H6); [discriminate|right; left; discriminate|].
  exists flows, a'. split; [exact H1|]. split; [exact H2|]. split; [exact H3|].
  split; [|apply H5; reflexivity]. cbn [opt_emin esub debt_limits min_in] in H4.
  destruct (emax_case (Fin (mp - inflows a extra)) (Fin 0)) as [[Hc E]|[Hc E]]; rewrite E in H4; cbn in H4, Hc.
  - rewrite Rmax_right; assumption.
  - rewrite Rmax_left; assumption.
Qed.
Print Assumptions C25_min_inflows.
Theorem C25_no_outflows : forall mp ap a timing extra, timing_ok (clean_timing a timing) ->
  exists flows, max_outflows (debt_limits mp ap) a timing None None extra = Ok (fin_flows flows) /\
  Rsum (dvals flows) = 0 /\ forall t v, In (t, v) flows -> v = 0.
Proof.
  intros mp ap a timing extra H.
  destruct (outflows_upto_spec a (max_out (debt_limits mp ap)) timing None None extra H) as
    (flows & a' & H1 & H2 & H3 & _); [discriminate|discriminate|]. exists flows. split; [exact H1|].
  cbn [opt_emax esub debt_limits max_out] in H3. destruct (flows_split a extra) as (_ & Ho & _).
  assert (Hz : emin (Fin (0 - outflows a extra)) (Fin 0) = Fin 0).
  { destruct (emin_case (Fin (0 - outflows a extra)) (Fin 0)) as [[Hc E]|[Hc E]]; rewrite E; cbn in Hc; f_equal; lra. }
  rewrite Hz in H3. cbn in H3.
  assert (Hs : forall l : list (R * R), (forall t v, In (t, v) l -> v <= 0) -> 0 <= Rsum (dvals l) ->
    Rsum (dvals l) = 0 /\ forall t v, In (t, v) l -> v = 0).
  { induction l as [|[k y] r IH]; intros Hn Hs; [split; [reflexivity|intros t v []]|].
    cbn [dvals map snd Rsum] in *. fold (dvals r) in *.
    assert (Hy : y <= 0) by (eapply Hn; left; reflexivity).
    assert (Hr : Rsum (dvals r) <= 0).
    { apply Rsum_nonpos. intros x Hx. unfold dvals in Hx. apply in_map_iff in Hx.
      destruct Hx as ([t v] & <- & Hin). eapply Hn. right. exact Hin. }
    destruct IH as [IH1 IH2]; [intros; eapply Hn; right; eassumption|lra|].
    split; [lra|]. intros t v [E|Hin]; [injection E as <- <-; lra|eauto]. }
  apply Hs; assumption.
Qed.
Print Assumptions C25_no_outflows.
(** max_inflow(when): paying it at that moment repays the debt unless the annual allowance is less; it never overpays and is never
    negative, given a non-negative minimum payment and acceleration *)
Theorem C25_max_inflow : forall mp ap a when, 0 <= when <= 1 -> ele (Fin 0) (eadd (Fin mp) ap) -> exists x a',
  debt_max_inflow mp ap a when = Fin x /\ 0 <= x /\ ele (Fin x) (eadd (Fin mp) ap) /\ add_transaction a x (RNum when) = Ok a' /\
  (0 <= balance_at_time a when None -> x = 0) /\
  (balance_at_time a when None <= 0 -> balance_at_time a' when None <= 0 /\ (balance_at_time a' when None = 0 \/ Fin x = eadd (Fin mp) ap)).
Proof.
  intros mp ap a when Hw Hl. set (b := balance_at_time a when None).
  assert (X : exists x, debt_max_inflow mp ap a when = Fin x /\ 0 <= x <= Rmax (- b) 0 /\ ele (Fin x) (eadd (Fin mp) ap) /\ (x = Rmax (- b) 0 \/ Fin x = eadd (Fin mp) ap)).
  { unfold debt_max_inflow. fold b. cbn [max_in debt_limits]. destruct (emin_case (Fin (Rmax (- b) 0)) (eadd (Fin mp) ap)) as [[C E]|[C E]]; rewrite E.
    - exists (Rmax (- b) 0). split; [reflexivity|]. split; [split; [apply Rmax_r|lra]|]. auto.
    - destruct (eadd (Fin mp) ap) as [y| |]; cbn in C, Hl; try tauto. exists y. split; [reflexivity|]. split; [lra|]. split; [cbn; lra|]. now right. }
  destruct X as (x & X1 & X2 & X3 & X4). destruct (add_all_ok [(when, x)] a) as (a' & Ha & Hw'). { intros k u [E|[]]. injection E as <- <-. exact Hw. }
  cbn [add_all bind] in Ha. exists x. assert (T : add_transaction a x (RNum when) = Ok a').
  { destruct (add_transaction a x (RNum when)) as [a2|e]; [|discriminate]. cbn [bind] in Ha. exact Ha. }
  exists a'. split; [exact X1|]. split; [lra|]. split; [exact X3|]. split; [exact T|].
  assert (B : balance_at_time a' when None = b + x).
  { assert (TO : times_ok [(when, x)]) by (intros k v [E|[]]; injection E as <- <-; exact Hw).
    pose proof (add_all_fields [(when, x)] a a') as F. cbn [add_all bind] in F. rewrite T in F. specialize (F eq_refl).
    unfold b. rewrite !balance_at_time_eq. rewrite Hw'. cbn [extra_wsum].
    assert (G : forall s, growth a' s = growth a s) by (intro s; unfold growth, rate; destruct F as (F1 & _ & F3 & F4 & _); rewrite F1, F3, F4; reflexivity).
    rewrite G. destruct F as (_ & F2 & _). rewrite F2.
    rewrite (wsum_ext (fv a' when) (fv a when)) by (intros; unfold fv; rewrite G; reflexivity).
    rewrite (wsum_ext (fv a' when) (fv a when) [(when, x)]) by (intros; unfold fv; rewrite G; reflexivity).
    unfold wsum at 2. cbn. unfold fv at 2. destruct (Rleb when when) eqn:Q; rb; [|lra]. replace (when - when) with 0 by lra. rewrite growth_0. lra. }
  fold b. split.
  - intro Hb. assert (Rmax (- b) 0 = 0) by (apply Rmax_right; lra). lra.
  - intro Hb. rewrite B. assert (Rmax (- b) 0 = - b) by (apply Rmax_left; lra). split; [lra|]. destruct X4 as [X4|X4]; [left; lra|now right].
Qed.
Print Assumptions C25_max_inflow.
Example C25_sat : let a := {| a_year := 2000; a_bal := -100; a_rate := fun _ => 1; a_nper := Some 1%positive;
     a_txns := []; a_timing := [(1/2, 1)] |} in
  timing_ok (clean_timing a None) /\ balance_at_time a 1 None <= 0.
Proof.
  cbn zeta. split; [apply C21_sat|]. rewrite balance_at_time_eq.
  match goal with |- context [growth ?a 1] => assert (Hg : growth a 1 = 1 + 1) by (apply accum_annual; lra) end.
  rewrite Hg. unfold wsum. cbn. lra.
Qed.
