From Verif Require Import Base BaseFacts RBase GrowthModel GrowthProofs AccountModel AccountSpec.
Open Scope R_scope.

(** ** Cash-flow sums *)
Lemma wsum_radd f : forall e d, wsum f (radd_transactions d e) = wsum f d + wsum f e.
Proof.
  unfold radd_transactions. induction e as [|[k v] r IH]; intro d; cbn [fold_left].
  - unfold wsum at 3. cbn. lra.
  - rewrite IH. cbn [fst snd]. rewrite wsum_rincr. unfold wsum at 4. cbn. fold (wsum f r). lra.
Qed.
Lemma rval_radd : forall e d k, rval (radd_transactions d e) k = rval d k +
  Rsum (map (fun kv => if Reqb k (fst kv) then snd kv else 0) e).
Proof.
  unfold radd_transactions. induction e as [|[k0 v0] r IH]; intros d k; cbn [fold_left]; cbn; [lra|].
  rewrite IH. cbn [fst snd]. rewrite rval_rincr. lra.
Qed.

(** growth to time [t] of an amount paid at [k] (0 if not yet paid) *)
Definition fv (a : account) (t k : R) : R := if Rleb k t then growth a (t - k) else 0.

Lemma filter_wsum (f : R -> R) (p : R -> bool) (d : dict R R) :
  Rsum (map (fun kv => snd kv * f (fst kv)) (filter (fun kv => p (fst kv)) d)) =
  wsum (fun k => if p k then f k else 0) d.
Proof.
  unfold wsum. induction d as [|[k v] r IH]; cbn; [reflexivity|].
  destruct (p k); cbn; rewrite IH; lra.
Qed.
Definition extra_wsum (f : R -> R) (extra : option (dict R R)) : R :=
  match extra with Some d => wsum f d | None => 0 end.
Lemma balance_at_time_eq a t extra :
  balance_at_time a t extra = a_bal a * growth a t + wsum (fv a t) (a_txns a) + extra_wsum (fv a t) extra.
Proof.
  unfold balance_at_time. unfold value_at_time at 1. rewrite Rminus_0_r. fold (growth a t).
  unfold value_at_time.
  pose proof (filter_wsum (fun k => growth a (t - k)) (fun k => Rleb k t) (all_txns a extra)) as Hf.
  cbn beta in Hf. unfold growth in Hf at 1. rewrite Hf.
  change (wsum (fun k => if Rleb k t then growth a (t - k) else 0)) with (wsum (fv a t)).
  destruct extra as [d|]; cbn [all_txns extra_wsum].
  - rewrite wsum_radd. lra.
  - lra.
Qed.

Lemma growth_pos a t : 0 < growth a t.
Proof. apply accum_pos. Qed.
Lemma growth_0 a : growth a 0 = 1.
Proof. apply accum_0. Qed.

(** ** C19 *)

Lemma next_balance_eq a : next_balance a =
  a_bal a * accumulation_function 1 (a_rate a (a_year a + 1)%Z) (a_nper a) +
  wsum (fun k => accumulation_function (1 - k) (a_rate a (a_year a + 1)%Z) (a_nper a)) (a_txns a).
Proof. unfold next_balance, value_at_time, wsum. rewrite Rminus_0_r. reflexivity. Qed.
Lemma returns_eq a : returns a = a_bal a * (growth a 1 - 1) + (wsum (fun k => growth a (1 - k)) (a_txns a) - Rsum (dvals (a_txns a))).
Proof.
  unfold returns. f_equal. unfold wsum, dvals. rewrite <- Rsum_map_minus.
  apply Rsum_map_ext. intros; lra.
Qed.
Lemma next_balance_conserved a : a_rate a (a_year a + 1)%Z = rate a ->
  a_bal (next_year a) = a_bal a + Rsum (dvals (a_txns a)) + returns a.
Proof.
  intro H. cbn [next_year a_bal]. rewrite next_balance_eq, returns_eq, H.
  unfold growth. lra.
Qed.
Lemma next_balance_end a : a_rate a (a_year a + 1)%Z = rate a -> times_ok (a_txns a) ->
  a_bal (next_year a) = balance_at_time a 1 None.
Proof.
  intros H Ht. cbn [next_year a_bal]. rewrite next_balance_eq, balance_at_time_eq, H.
  cbn [extra_wsum]. rewrite Rplus_0_r. unfold growth at 1. f_equal. apply wsum_ext. intros k v Hin.
  unfold fv. destruct (Rleb k 1) eqn:E; rb; [reflexivity|]. apply Ht in Hin. lra.
Qed.

Lemma add_txn_num a v t : add_transaction a v (RNum t) =
  if orb (Rltb 1 t) (Rltb t 0) then Err ValueError else Ok (with_txns a (rincr (a_txns a) t v)).
Proof. unfold add_transaction. cbn. destruct (orb (Rltb 1 t) (Rltb t 0)); reflexivity. Qed.
Lemma add_all_fields : forall l a a', add_all a l = Ok a' ->
  a_year a' = a_year a /\ a_bal a' = a_bal a /\ a_rate a' = a_rate a /\ a_nper a' = a_nper a /\ a_timing a' = a_timing a.
Proof.
  induction l as [|[t v] r IH]; intros a a' H; cbn [add_all] in H; [injection H as <-; auto|].
  rewrite add_txn_num in H. destruct (orb (Rltb 1 t) (Rltb t 0)); cbn [bind] in H; [discriminate|].
  apply IH in H. cbn in H. exact H.
Qed.
Lemma growth_add_all l a a' t : add_all a l = Ok a' -> growth a' t = growth a t.
Proof.
  intro H. apply add_all_fields in H. destruct H as (H1 & H2 & H3 & H4 & _).
  unfold growth, rate. rewrite H1, H3, H4. reflexivity.
Qed.
Lemma run_years_conserved : forall years a out tx ret r0, (forall y, a_rate a y = r0) ->
  run_years a years = Ok (out, tx, ret) ->
  a_bal out = a_bal a + tx + ret /\ a_year out = (a_year a + Z.of_nat (List.length years))%Z.
Proof.
  induction years as [|l r IH]; intros a out tx ret r0 Hr H; cbn in H.
  - injection H as <- <- <-. cbn. split; [lra|lia].
  - destruct (add_all a l) as [a1|] eqn:Ea; [|discriminate]. cbn in H.
    destruct (run_years (next_year a1) r) as [[[o t] g]|] eqn:Er; [|discriminate]. cbn in H.
    injection H as <- <- <-.
    apply add_all_fields in Ea. destruct Ea as (E1 & E2 & E3 & E4 & _).
    apply IH with (r0 := r0) in Er; [|intro y; cbn; rewrite E3; apply Hr].
    destruct Er as [Er Ey]. rewrite Er.
    rewrite next_balance_conserved by (unfold rate; rewrite E3, !Hr; reflexivity).
    split; [rewrite E2; lra|]. rewrite Ey. cbn [next_year a_year List.length]. rewrite E1. lia.
Qed.

(** ** C20 *)
Lemma add_transaction_spec a v w a' : add_transaction a v w = Ok a' ->
  exists t, rwhen_conv w = Ok t /\ 0 <= t <= 1 /\
  (forall k, rval (a_txns a') k = rval (a_txns a) k + (if Reqb k t then v else 0)) /\
  a_bal a' = a_bal a /\ a_year a' = a_year a.
Proof.
  unfold add_transaction. destruct (rwhen_conv w) as [t|] eqn:E; cbn; [|discriminate].
  intro H; injection H as <-. exists t. split; [reflexivity|]. split.
  - destruct w as [t0|s]; cbn in E.
    + destruct (orb (Rltb 1 t0) (Rltb t0 0)) eqn:Eo; [discriminate|]. injection E as <-.
      apply orb_false_elim in Eo. destruct Eo; rb. lra.
    + destruct (String.eqb s "end"); [injection E as <-; lra|].
      destruct (String.eqb s "start"); [injection E as <-; lra|discriminate].
  - split; [|split; reflexivity]. intro k. cbn. apply rval_rincr.
Qed.
Lemma add_transaction_rejects a v t : t < 0 \/ 1 < t -> add_transaction a v (RNum t) = Err ValueError.
Proof.
  intro H. unfold add_transaction. cbn.
  destruct (Rltb 1 t) eqn:E1, (Rltb t 0) eqn:E2; cbn; try reflexivity. rb. lra.
Qed.
Lemma pos_part_nonneg d : 0 <= pos_part d.
Proof. apply Rsum_nonneg. intros x Hx. apply filter_In in Hx. destruct Hx as [_ Hx]. rb. lra. Qed.
Lemma neg_part_nonpos d : neg_part d <= 0.
Proof. apply Rsum_nonpos. intros x Hx. apply filter_In in Hx. destruct Hx as [_ Hx]. rb. lra. Qed.
Lemma parts_sum d : pos_part d + neg_part d = Rsum (dvals d).
Proof.
  unfold pos_part, neg_part. induction (dvals d) as [|x r IH]; cbn; [lra|].
  destruct (Rltb 0 x) eqn:E1, (Rltb x 0) eqn:E2; cbn; rb; lra.
Qed.
Lemma flows_split a e : 0 <= inflows a e /\ outflows a e <= 0 /\
  inflows a e + outflows a e = Rsum (dvals (a_txns a)) + opt_sum e.
Proof.
  unfold inflows, outflows, opt_sum. pose proof (pos_part_nonneg (a_txns a)). pose proof (neg_part_nonpos (a_txns a)).
  pose proof (parts_sum (a_txns a)). destruct e as [d|].
  - pose proof (pos_part_nonneg d). pose proof (neg_part_nonpos d). pose proof (parts_sum d). lra.
  - lra.
Qed.
Lemma add_all_ok : forall l a, times_ok l -> exists a', add_all a l = Ok a' /\
  (forall f, wsum f (a_txns a') = wsum f (a_txns a) + wsum f l).
Proof.
  induction l as [|[t v] r IH]; intros a H.
  - exists a. split; [reflexivity|]. intro f. unfold wsum at 3. cbn. lra.
  - cbn [add_all]. rewrite add_txn_num. destruct (H t v (or_introl eq_refl)) as [H0 H1].
    destruct (Rltb 1 t) eqn:E1; rb; [lra|]. destruct (Rltb t 0) eqn:E2; rb; [lra|]. cbn [orb bind].
    destruct (IH (with_txns a (rincr (a_txns a) t v))) as (a' & Ha & Hw).
    { intros k x Hx. apply (H k x). right. exact Hx. }
    exists a'. split; [exact Ha|]. intro f. rewrite Hw. cbn [with_txns a_txns]. rewrite wsum_rincr.
    unfold wsum at 4. cbn. fold (wsum f r). lra.
Qed.
Lemma balance_after_add_all l a a' t extra : times_ok l -> add_all a l = Ok a' ->
  balance_at_time a' t extra = balance_at_time a t extra + wsum (fv a t) l.
Proof.
  intros Ht H. pose proof H as H0. destruct (add_all_ok l a Ht) as (a2 & Ha2 & Hw).
  rewrite H in Ha2. injection Ha2 as <-.
  assert (Hfv : forall k, fv a' t k = fv a t k).
  { intro k. unfold fv. rewrite (growth_add_all _ _ _ _ H). reflexivity. }
  rewrite !balance_at_time_eq, (growth_add_all _ _ _ _ H).
  assert (He : extra_wsum (fv a' t) extra = extra_wsum (fv a t) extra).
  { destruct extra; cbn; [|reflexivity]. apply wsum_ext. intros; apply Hfv. }
  rewrite He, (wsum_ext (fv a' t) (fv a t)) by (intros; apply Hfv). rewrite Hw.
  apply add_all_fields in H. destruct H as (_ & Hb & _). rewrite Hb. lra.
Qed.

(** ** C21: timings *)

Lemma Rsum_filter_nonzero d : Rsum (dvals (filter (fun kv : R * R => negb (Reqb (snd kv) 0)) d)) = Rsum (dvals d).
Proof.
  unfold dvals. induction d as [|[k v] r IH]; cbn; [reflexivity|].
  destruct (Reqb v 0) eqn:E; cbn; rb; rewrite IH; lra.
Qed.
Lemma normalized_spec d : timing_ok d ->
  let nt := normalized_timing d in
  Rsum (dvals nt) = 1 /\ nt <> [] /\ (forall k w, In (k, w) nt -> 0 <= k <= 1 /\ 0 < w).
Proof.
  intros [Hne Hd] nt. unfold nt, normalized_timing.
  assert (Hnn : 0 <= Rsum (dvals d)).
  { apply Rsum_nonneg. intros x Hx. unfold dvals in Hx. apply in_map_iff in Hx.
    destruct Hx as ([k w] & <- & Hin). destruct (Hd k w Hin). assumption. }
  destruct (Reqb (Rsum (dvals d)) 0) eqn:E; rb.
  - assert (Hlen : 0 < INR (List.length d)).
    { apply lt_0_INR. destruct d; [congruence|cbn; lia]. }
    assert (Hf : filter (fun kv : R * R => negb (Reqb (snd kv) 0)) (map (fun kv : R * R => (fst kv, 1)) d)
                 = map (fun kv : R * R => (fst kv, 1)) d).
    { clear. induction d as [|[k v] r IH]; cbn; [reflexivity|].
      destruct (Reqb 1 0) eqn:E; rb; [lra|]. cbn. rewrite IH. reflexivity. }
    rewrite Hf, map_map. cbn [fst snd]. split; [|split].
    + unfold dvals. rewrite map_map. cbn [snd]. rewrite Rsum_const. field. lra.
    + destruct d; [congruence|discriminate].
    + intros k w Hin. apply in_map_iff in Hin. destruct Hin as ([k0 v0] & Heq & Hin). cbn in Heq.
      injection Heq as <- <-. destruct (Hd k0 v0 Hin). split; [assumption|].
      apply Rdiv_lt_0_compat; lra.
  - assert (Hpos : 0 < Rsum (dvals d)) by lra. split; [|split].
    + unfold dvals at 1. rewrite map_map. cbn [snd]. rewrite Rsum_map_div.
      pose proof (Rsum_filter_nonzero d) as Hs. unfold dvals at 1 in Hs.
      change (map (fun x : R * R => snd x)) with (map (@snd R R)). rewrite Hs. field. lra.
    + intro Hnil. apply map_eq_nil in Hnil. pose proof (Rsum_filter_nonzero d) as Hs. rewrite Hnil in Hs.
      cbn in Hs. lra.
    + intros k w Hin. apply in_map_iff in Hin. destruct Hin as ([k0 v0] & Heq & Hin). cbn in Heq.
      injection Heq as <- <-. apply filter_In in Hin. destruct Hin as [Hin Hnz]. cbn in Hnz.
      destruct (Hd k0 v0 Hin). split; [assumption|].
      destruct (Reqb v0 0) eqn:E0; [discriminate|]. rb. apply Rdiv_lt_0_compat; lra.
Qed.

Lemma Rsum_snd (d : dict R R) : Rsum (map (fun x => snd x) d) = Rsum (dvals d).
Proof. reflexivity. Qed.

Definition wacc (a : account) (nt : dict R R) : R := Rsum (map (fun kv => snd kv * growth a (1 - fst kv)) nt).
Lemma wacc_pos a d : timing_ok d -> 0 < wacc a (normalized_timing d).
Proof.
  intro H. destruct (normalized_spec d H) as (_ & Hne & Hp). apply Rsum_pos.
  - intro E. apply map_eq_nil in E. contradiction.
  - intros x Hx. apply in_map_iff in Hx. destruct Hx as ([k w] & <- & Hin). cbn.
    destruct (Hp k w Hin) as [_ Hw]. apply Rmult_lt_0_compat; [exact Hw|apply growth_pos].
Qed.

(** the clamped total *)
Definition clamp (total : er) (mx mn : option er) : er :=
  let t := match mx with Some m => emin total m | None => total end in
  match mn with Some m => emax t m | None => t end.
Lemma ttb_eq a target timing mx mn extra : timing_ok (clean_timing a timing) ->
  let nt := normalized_timing (clean_timing a timing) in
  transactions_to_balance a target timing mx mn extra =
  Ok (map (fun kv => (fst kv, escale (clamp (ediv (esub target (balance_at_time a 1 extra)) (wacc a nt)) mx mn) (snd kv))) nt).
Proof.
  intros H nt. unfold transactions_to_balance. fold nt. fold (wacc a nt).
  pose proof (wacc_pos a _ H) as Hp. fold nt in Hp.
  destruct (Reqb (wacc a nt) 0) eqn:E; rb; [lra|]. reflexivity.
Qed.
Lemma esum_inf (nt : dict R R) (t : er) : (t = PInf \/ t = MInf) -> nt <> [] -> (forall k w, In (k, w) nt -> 0 < w) ->
  esum (map (fun kv => escale t (snd kv)) nt) = t.
Proof.
  intros Ht Hne Hp. induction nt as [|[k w] r IH]; [congruence|]. cbn [map esum snd].
  assert (H1 : escale t w = t).
  { specialize (Hp k w (or_introl eq_refl)). destruct Ht as [-> | ->]; cbn; destruct (Rltb 0 w) eqn:E; rb; auto; lra. }
  rewrite H1. destruct r as [|x r'].
  - cbn. destruct Ht as [-> | ->]; reflexivity.
  - rewrite IH; [destruct Ht as [-> | ->]; reflexivity|discriminate|]. intros; eapply Hp; right; eassumption.
Qed.
Lemma esum_scale (nt : dict R R) (t : er) : Rsum (dvals nt) = 1 -> nt <> [] -> (forall k w, In (k, w) nt -> 0 < w) ->
  esum (map (fun kv => escale t (snd kv)) nt) = t.
Proof.
  intros Hs Hne Hp. destruct t as [x| |].
  - change (map (fun kv : R * R => escale (Fin x) (snd kv)) nt) with (map (fun kv : R * R => Fin (x * snd kv)) nt).
    rewrite <- (map_map (fun kv : R * R => x * snd kv) Fin), esum_fin, Rsum_map_scale.
    rewrite Rsum_snd, Hs. f_equal. lra.
  - apply esum_inf; auto.
  - apply esum_inf; auto.
Qed.
Lemma ttb_total a target timing mx mn extra flows : timing_ok (clean_timing a timing) ->
  transactions_to_balance a target timing mx mn extra = Ok flows ->
  esum (map snd flows) = clamp (ediv (esub target (balance_at_time a 1 extra)) (wacc a (normalized_timing (clean_timing a timing)))) mx mn.
Proof.
  intros H. rewrite ttb_eq by exact H. intro E; injection E as <-. rewrite map_map. cbn [snd].
  destruct (normalized_spec _ H) as (Hs & Hne & Hp). apply esum_scale; auto. intros k w Hin. apply (Hp k w Hin).
Qed.
(** finite flows *)
Lemma ttb_finite a target timing mx mn extra T : timing_ok (clean_timing a timing) ->
  let nt := normalized_timing (clean_timing a timing) in
  clamp (ediv (esub target (balance_at_time a 1 extra)) (wacc a nt)) mx mn = Fin T ->
  exists flows a', transactions_to_balance a target timing mx mn extra = Ok (fin_flows flows) /\
    flows = map (fun kv => (fst kv, T * snd kv)) nt /\ Rsum (dvals flows) = T /\ times_ok flows /\
    add_all a flows = Ok a' /\ balance_at_time a' 1 extra = balance_at_time a 1 extra + T * wacc a nt.
Proof.
  intros H nt HT. exists (map (fun kv => (fst kv, T * snd kv)) nt).
  destruct (normalized_spec _ H) as (Hs & Hne & Hp). fold nt in Hs, Hne, Hp.
  assert (Hto : times_ok (map (fun kv : R * R => (fst kv, T * snd kv)) nt)).
  { intros k v Hin. apply in_map_iff in Hin. destruct Hin as ([k0 w0] & Heq & Hin). cbn in Heq.
    injection Heq as <- <-. apply (Hp k0 w0 Hin). }
  destruct (add_all_ok _ a Hto) as (a' & Ha' & Hw). exists a'.
  split; [|split; [reflexivity|split; [|split; [exact Hto|split; [exact Ha'|]]]]].
  - rewrite ttb_eq by exact H. fold nt. rewrite HT. unfold fin_flows. rewrite map_map. reflexivity.
  - unfold dvals. rewrite map_map. cbn [snd]. rewrite Rsum_map_scale.
    rewrite Rsum_snd, Hs. lra.
  - rewrite (balance_after_add_all _ _ _ _ _ Hto Ha'). f_equal. unfold wsum, wacc.
    rewrite map_map. cbn [fst snd]. rewrite <- Rsum_map_scale. apply Rsum_map_ext.
    intros [k w] Hin. cbn. unfold fv. destruct (Hp k w Hin) as [[_ Hk] _].
    destruct (Rleb k 1) eqn:E; rb; [lra|lra].
Qed.

Lemma ttb_hits_target a target timing extra : timing_ok (clean_timing a timing) ->
  exists flows a', transactions_to_balance a (Fin target) timing None None extra = Ok (fin_flows flows) /\
    add_all a flows = Ok a' /\ balance_at_time a' 1 extra = target.
Proof.
  intro H. pose proof (wacc_pos a _ H) as Hw.
  edestruct (ttb_finite a (Fin target) timing None None extra) as (flows & a' & H1 & _ & _ & _ & H3 & H4);
    [exact H|reflexivity|]. exists flows, a'. split; [exact H1|]. split; [exact H3|].
  rewrite H4. field. lra.
Qed.
Lemma clamp_bounds t mx mn : (forall hi, mx = Some hi -> (match mn with Some lo => ele lo hi | None => True end) -> ele (clamp t mx mn) hi)
  /\ (forall lo, mn = Some lo -> ele lo (clamp t mx mn)).
Proof.
  split.
  - intros hi -> Hlo. unfold clamp. destruct mn as [lo|]; [|apply emin_r].
    destruct (emax_case (emin t hi) lo) as [[_ ->]|[_ ->]]; [exact Hlo|apply emin_r].
  - intros lo ->. unfold clamp. apply emax_r.
Qed.
(** if the total is not at a limit, the target is reached *)
Lemma ttb_slack a target timing mx mn extra T : timing_ok (clean_timing a timing) ->
  clamp (ediv (esub (Fin target) (balance_at_time a 1 extra)) (wacc a (normalized_timing (clean_timing a timing)))) mx mn = Fin T ->
  mx <> Some (Fin T) -> mn <> Some (Fin T) ->
  exists flows a', transactions_to_balance a (Fin target) timing mx mn extra = Ok (fin_flows flows) /\
    Rsum (dvals flows) = T /\ add_all a flows = Ok a' /\ balance_at_time a' 1 extra = target.
Proof.
  intros H HT Hmx Hmn. pose proof (wacc_pos a _ H) as Hw.
  destruct (ttb_finite a (Fin target) timing mx mn extra T H HT) as (flows & a' & H1 & _ & H2 & _ & H3 & H4).
  exists flows, a'. repeat split; auto. rewrite H4.
  set (W := wacc a (normalized_timing (clean_timing a timing))) in *.
  assert (Heq : Fin T = Fin ((target - balance_at_time a 1 extra) / W)).
  { rewrite <- HT. unfold clamp in *. cbn [ediv esub] in *.
    destruct mx as [m|], mn as [m'|].
    - destruct (emax_case (emin (Fin ((target - balance_at_time a 1 extra) / W)) m) m') as [[_ E]|[_ E]];
        rewrite E in *; [congruence|].
      destruct (emin_case (Fin ((target - balance_at_time a 1 extra) / W)) m) as [[_ E2]|[_ E2]]; rewrite E2 in *; [reflexivity|congruence].
    - destruct (emin_case (Fin ((target - balance_at_time a 1 extra) / W)) m) as [[_ E2]|[_ E2]]; rewrite E2 in *; [reflexivity|congruence].
    - destruct (emax_case (Fin ((target - balance_at_time a 1 extra) / W)) m') as [[_ E]|[_ E]]; rewrite E in *; [congruence|reflexivity].
    - reflexivity. }
  injection Heq as ->. field. lra.
Qed.

(** ** C22 / C23 *)
Lemma clamp_outflow x (mn : er) : ele mn (Fin 0) -> mn <> PInf ->
  exists T, clamp (Fin x) (Some (Fin 0)) (Some mn) = Fin T /\ T <= 0 /\ ele mn (Fin T) /\
    ((x <= 0 -> x <= T) /\ (T = x \/ (mn = Fin T /\ x <= T) \/ (T = 0 /\ 0 <= x))).
Proof.
  intros Hmn Hp. unfold clamp. destruct (emin_case (Fin x) (Fin 0)) as [[H1 ->]|[H1 ->]]; cbn in H1.
  - destruct (emax_case (Fin x) mn) as [[H2 ->]|[H2 ->]].
    + destruct mn as [m| |]; cbn in *; try tauto. exists m. repeat split; auto; lra.
    + exists x. repeat split; auto; lra.
  - destruct (emax_case (Fin 0) mn) as [[H2 ->]|[H2 ->]].
    + destruct mn as [m| |]; cbn in *; try tauto. exists m.
      assert (m = 0) by lra. subst. repeat split; try lra.
    + exists 0. repeat split; auto; try lra.
Qed.
Lemma outflows_upto_spec a limit timing tl (bl : option R) extra : timing_ok (clean_timing a timing) ->
  limit <> PInf -> tl <> Some PInf ->
  let b := match bl with Some x => x | None => 0 end in
  let lo := emin (opt_emax (esub limit (outflows a extra)) tl) (Fin 0) in
  exists flows a',
    outflows_upto a limit timing tl (option_map Fin bl) extra = Ok (fin_flows flows) /\
    (forall t v, In (t, v) flows -> v <= 0) /\
    ele lo (Fin (Rsum (dvals flows))) /\
    add_all a flows = Ok a' /\
    (b <= balance_at_time a 1 extra -> b <= balance_at_time a' 1 extra) /\
    (* maximality: the account is drained to [b], or the limit is used up, or it was already below [b] *)
    (balance_at_time a' 1 extra = b \/ lo = Fin (Rsum (dvals flows)) \/
     (balance_at_time a 1 extra <= b /\ Rsum (dvals flows) = 0)).
Proof.
  intros H Hl Htl b lo. unfold outflows_upto. fold lo.
  assert (Hlo : ele lo (Fin 0)) by apply emin_r.
  assert (Hlop : lo <> PInf) by (intro E; rewrite E in Hlo; exact Hlo).
  assert (Hd : opt_default (option_map Fin bl) (Fin 0) = Fin b) by (destruct bl; reflexivity).
  rewrite Hd. pose proof (wacc_pos a _ H) as Hw.
  set (W := wacc a (normalized_timing (clean_timing a timing))) in *.
  destruct (clamp_outflow ((b - balance_at_time a 1 extra) / W) lo Hlo Hlop) as (T & HT & HT0 & HTlo & Hx & Hcase).
  destruct (ttb_finite a (Fin b) timing (Some (Fin 0)) (Some lo) extra T H HT) as (flows & a' & H1 & Hfl & H2 & Hto & H3 & H4).
  exists flows, a'. fold W in H4. split; [exact H1|]. split; [|split; [rewrite H2; exact HTlo|split; [exact H3|]]].
  - intros t v Hin. rewrite Hfl in Hin. apply in_map_iff in Hin. destruct Hin as ([k w] & Heq & Hin). cbn in Heq.
    injection Heq as <- <-. destruct (normalized_spec _ H) as (_ & _ & Hp). destruct (Hp k w Hin) as [_ Hwp].
    rewrite <- (Rmult_0_l w). apply Rmult_le_compat_r; lra.
  - assert (HxW : (b - balance_at_time a 1 extra) / W * W = b - balance_at_time a 1 extra) by (field; lra).
    split.
    + intro Hb. assert (Hneg : (b - balance_at_time a 1 extra) / W <= 0).
      { apply Rmult_le_reg_r with W; [exact Hw|]. rewrite HxW. lra. }
      apply Hx in Hneg. rewrite H4. apply Rmult_le_compat_r with (r := W) in Hneg; [|lra]. lra.
    + rewrite H2, H4. destruct Hcase as [-> | [[-> _] | [-> Hx0]]].
      * left. rewrite HxW. lra.
      * right; left. reflexivity.
      * right; right. split; [|reflexivity]. apply Rmult_le_compat_r with (r := W) in Hx0; [|lra]. lra.
Qed.

Lemma escale_nonneg z w : ele (Fin 0) z -> 0 < w -> ele (Fin 0) (escale z w).
Proof.
  intros Hz Hw. destruct z as [z| |]; cbn in *; try tauto.
  - apply Rmult_le_pos; lra.
  - destruct (Rltb 0 w) eqn:E; rb; cbn; auto; lra.
Qed.
Lemma inflows_upto_spec a limit timing tl bl extra flows : timing_ok (clean_timing a timing) ->
  let hi := emax (opt_emin (esub limit (inflows a extra)) tl) (Fin 0) in
  inflows_upto a limit timing tl bl extra = Ok flows ->
  (forall t x, In (t, x) flows -> ele (Fin 0) x) /\ ele (esum (map snd flows)) hi.
Proof.
  intros H hi Hf. unfold inflows_upto in Hf. fold hi in Hf.
  pose proof (ttb_total _ _ _ _ _ _ _ H Hf) as HT. rewrite HT.
  set (T := clamp _ _ _) in *.
  assert (HT0 : ele (Fin 0) T).
  { unfold T. apply clamp_bounds. reflexivity. }
  split.
  - intros t x Hin. rewrite ttb_eq in Hf by exact H. injection Hf as <-.
    apply in_map_iff in Hin. destruct Hin as ([k w] & Heq & Hin). cbn in Heq. injection Heq as <- <-. fold T.
    destruct (normalized_spec _ H) as (_ & _ & Hp). destruct (Hp k w Hin) as [_ Hwp].
    apply escale_nonneg; [exact HT0|exact Hwp].
  - unfold T. apply clamp_bounds; [reflexivity|]. apply emax_r.
Qed.
(** with finite room the inflow flows are finite, and the balance cap is respected *)
Lemma inflows_upto_finite a L timing tl (bl : option R) extra : timing_ok (clean_timing a timing) ->
  tl <> Some PInf ->
  (L <> PInf \/ bl <> None \/ tl <> None) -> 
  let hi := emax (opt_emin (esub L (inflows a extra)) tl) (Fin 0) in
  exists flows a', inflows_upto a L timing tl (option_map Fin bl) extra = Ok (fin_flows flows) /\
    add_all a flows = Ok a' /\ (forall t v, In (t, v) flows -> 0 <= v) /\
    ele (Fin (Rsum (dvals flows))) hi /\
    (forall b, bl = Some b -> balance_at_time a 1 extra <= b -> balance_at_time a' 1 extra <= b) /\
    ((exists b, bl = Some b /\ balance_at_time a' 1 extra = b) \/ hi = Fin (Rsum (dvals flows)) \/
     (exists b, bl = Some b /\ b <= balance_at_time a 1 extra /\ Rsum (dvals flows) = 0)).
Proof.
  intros H Htl Hfin hi.
  assert (Hhi0 : ele (Fin 0) hi) by apply emax_r.
  pose proof (wacc_pos a _ H) as Hw.
  set (W := wacc a (normalized_timing (clean_timing a timing))) in *.
  set (tgt := opt_default (option_map Fin bl) PInf).
  assert (HT : exists T, clamp (ediv (esub tgt (balance_at_time a 1 extra)) W) (Some hi) (Some (Fin 0)) = Fin T
    /\ 0 <= T /\ ele (Fin T) hi /\
    (forall b, bl = Some b -> 0 <= (b - balance_at_time a 1 extra) / W -> T <= (b - balance_at_time a 1 extra) / W) /\
    ((exists b, bl = Some b /\ T = (b - balance_at_time a 1 extra) / W) \/ hi = Fin T \/
     (exists b, bl = Some b /\ (b - balance_at_time a 1 extra) / W <= 0 /\ T = 0))).
  { unfold tgt. destruct bl as [b|]; cbn [option_map opt_default esub ediv].
    - set (x := (b - balance_at_time a 1 extra) / W). unfold clamp.
      destruct (emin_case (Fin x) hi) as [[H1 E1]|[H1 E1]]; rewrite E1.
      + destruct (emax_case (Fin x) (Fin 0)) as [[H2 E2]|[H2 E2]]; rewrite E2; cbn in H2.
        * exists 0. split; [reflexivity|]. split; [lra|]. split; [exact Hhi0|]. split.
          -- intros b0 Hb0 Hge. injection Hb0 as <-. exact Hge.
          -- right; right. exists b. repeat split; auto.
        * exists x. split; [reflexivity|]. split; [exact H2|]. split; [exact H1|]. split.
          -- intros b0 Hb0 _. injection Hb0 as <-. apply Rle_refl.
          -- left. exists b. auto.
      + destruct hi as [h| |]; cbn in *; try tauto.
        destruct (emax_case (Fin h) (Fin 0)) as [[H2 E2]|[H2 E2]]; rewrite E2; cbn in H2.
        * assert (h = 0) by lra. subst. exists 0. split; [reflexivity|]. split; [lra|]. split; [lra|].
          split; [|right; left; reflexivity]. intros b0 Hb0 _. injection Hb0 as <-. exact H1.
        * exists h. split; [reflexivity|]. split; [lra|]. split; [lra|].
          split; [|right; left; reflexivity]. intros b0 Hb0 _. injection Hb0 as <-. exact H1.
    - destruct (Rltb 0 W) eqn:EW; rb; [|lra].
      assert (Hh : exists h, hi = Fin h).
      { destruct hi as [h| |] eqn:Ehi; [eauto| |cbn in Hhi0; tauto]. exfalso. unfold hi in Ehi.
        destruct (emax_case (opt_emin (esub L (inflows a extra)) tl) (Fin 0)) as [[_ E]|[_ E]]; rewrite E in Ehi; [discriminate|].
        destruct tl as [t0|]; cbn in Ehi.
        - destruct (emin_case (esub L (inflows a extra)) t0) as [[Hc E2]|[Hc E2]]; rewrite E2 in Ehi.
          + rewrite Ehi in Hc. destruct t0; cbn in Hc; try tauto; try congruence.
          + subst t0. congruence.
        - destruct Hfin as [Hf|[Hf|Hf]]; try congruence. destruct L; cbn in Ehi; congruence. }
      destruct Hh as [h Hh]. rewrite Hh in *. cbn in Hhi0. exists h. unfold clamp.
      assert (E1 : emin PInf (Fin h) = Fin h) by reflexivity. rewrite E1.
      destruct (emax_case (Fin h) (Fin 0)) as [[H2 E2]|[H2 E2]]; rewrite E2; cbn in H2.
      + assert (h = 0) by lra. subst. repeat split; auto; try (cbn; lra); try (intros b0 Hb0; discriminate).
      + repeat split; auto; try (cbn; lra); try (intros b0 Hb0; discriminate). }
  destruct HT as (T & HT & HT0 & HThi & Hcap & Hcase).
  destruct (ttb_finite a tgt timing (Some hi) (Some (Fin 0)) extra T H HT) as (flows & a' & H1 & Hfl & H2 & Hto & H3 & H4).
  fold W in H4. exists flows, a'. split; [exact H1|]. split; [exact H3|]. split; [|split; [rewrite H2; exact HThi|]].
  - intros t v Hin. rewrite Hfl in Hin. apply in_map_iff in Hin. destruct Hin as ([k w] & Heq & Hin). cbn in Heq.
    injection Heq as <- <-. destruct (normalized_spec _ H) as (_ & _ & Hp). destruct (Hp k w Hin) as [_ Hwp].
    apply Rmult_le_pos; lra.
  - assert (HxW : forall b, (b - balance_at_time a 1 extra) / W * W = b - balance_at_time a 1 extra) by (intro; field; lra).
    rewrite H2, H4. split.
    + intros b Hb Hle. assert (Hnn : 0 <= (b - balance_at_time a 1 extra) / W).
      { apply Rmult_le_reg_r with W; [exact Hw|]. rewrite HxW. lra. }
      apply (Hcap b Hb) in Hnn. apply Rmult_le_compat_r with (r := W) in Hnn; [|lra].
      rewrite HxW in Hnn. lra.
    + destruct Hcase as [(b & Hb & ->)|[Hc|(b & Hb & Hx0 & ->)]].
      * left. exists b. split; [exact Hb|]. rewrite HxW. lra.
      * right; left. exact Hc.
      * right; right. exists b. split; [exact Hb|]. split; [|reflexivity].
        apply Rmult_le_compat_r with (r := W) in Hx0; [|lra]. rewrite HxW in Hx0. lra.
Qed.

(** ** C24 *)
Lemma fold_Rmin : forall l x, In (fold_left Rmin l x) (x :: l) /\ forall y, In y (x :: l) -> fold_left Rmin l x <= y.
Proof.
  induction l as [|z l IH]; intro x; cbn.
  - split; [auto|]. intros y [<-|[]]. lra.
  - destruct (IH (Rmin x z)) as [H1 H2]. split.
    + destruct H1 as [H1|H1]; [|auto]. rewrite <- H1. unfold Rmin. destruct (Rle_dec x z); auto.
    + intros y Hy. destruct Hy as [->|[->|Hy]].
      * eapply Rle_trans; [apply H2; left; reflexivity|apply Rmin_l].
      * eapply Rle_trans; [apply H2; left; reflexivity|apply Rmin_r].
      * apply H2. right. exact Hy.
Qed.
Lemma next_after_spec d w dflt :
  (next_after d w dflt = dflt /\ forall k, In k (dkeys d) -> k <= w) \/
  (exists t, next_after d w dflt = Fin t /\ In t (dkeys d) /\ w < t /\ forall k, In k (dkeys d) -> w < k -> t <= k).
Proof.
  unfold next_after. destruct (filter (fun t => Rltb w t) (dkeys d)) as [|t r] eqn:Ef.
  - left. split; [reflexivity|]. intros k Hk. destruct (Rltb w k) eqn:E; rb; [|exact E].
    assert (Hin : In k []) by (rewrite <- Ef; apply filter_In; split; [exact Hk|apply Rltb_t; exact E]).
    destruct Hin.
  - right. exists (fold_left Rmin r t). destruct (fold_Rmin r t) as [H1 H2]. rewrite <- Ef in H1.
    apply filter_In in H1. destruct H1 as [H1 H1']. rb. repeat split; auto.
    intros k Hk Hwk. apply H2. rewrite <- Ef. apply filter_In. split; [exact Hk|apply Rltb_t; exact Hwk].
Qed.
Lemma time_to_value_fin r b v n t : rate_ok r n -> time_to_value r b v n = Ok (Fin t) ->
  b <> 0 /\ b * accumulation_function t r n = v.
Proof.
  intros Hok. unfold time_to_value. destruct (Reqb b 0) eqn:E; rb; [discriminate|]. intro H.
  split; [exact E|].
  assert (Hp : 0 < v / b).
  { unfold accumulation_function_inverse in H. destruct (Rltb (v / b) 0) eqn:E1; [discriminate|]. rb.
    destruct (Req_dec (v / b) 0) as [H0|H0]; [|lra]. rewrite H0 in H.
    destruct (Reqb r 0).
    - destruct (Reqb 0 1) eqn:E2; rb; [lra|]. destruct (Rltb 0 1); discriminate.
    - rewrite Reqb_refl in H. discriminate. }
  apply inverse_sound in H; [|exact Hok|exact Hp]. rewrite H. field. exact E.
Qed.
Lemma time_to_balance_spec : forall n a v w t, rate_ok (rate a) (a_nper a) ->
  time_to_balance n a v w = Ok (Fin t) ->
  exists s, (s = w \/ (In s (dkeys (a_txns a)) /\ w < s)) /\
    balance_at_time a s None * growth a (t - s) = v /\
    (forall k, In k (dkeys (a_txns a)) -> s < k -> t <= k).
Proof.
  induction n as [|n IH]; intros a v w t Hok H; cbn [time_to_balance] in H;
    destruct (time_to_value (rate a) (balance_at_time a w None) v (a_nper a)) as [d|] eqn:Ed; try discriminate;
    cbn [bind] in H;
    destruct (next_after_spec (a_txns a) w (eadd (Fin w) d)) as [[E Hk]|(s & E & Hin & Hs & Hk)]; rewrite E in H.
  - exists w. split; [left; reflexivity|]. 
    destruct d as [x| |]; cbn in H; try discriminate.
    destruct (Rleb (w + x) (w + x)) eqn:El; rb; [|lra]. cbn in H. injection H as <-.
    apply time_to_value_fin in Ed; [|exact Hok]. destruct Ed as [_ Ed]. unfold growth.
    replace (w + x - w) with x by ring. split; [exact Ed|]. intros k Hik Hlt. specialize (Hk k Hik). lra.
  - destruct (negb (eleb (eadd (Fin w) d) (Fin s))) eqn:En; [discriminate|].
    apply negb_false_iff, eleb_t in En.
    destruct d as [x| |]; cbn in H, En; try discriminate. injection H as <-.
    exists w. split; [left; reflexivity|].
    apply time_to_value_fin in Ed; [|exact Hok]. destruct Ed as [_ Ed]. unfold growth.
    replace (w + x - w) with x by ring. split; [exact Ed|]. intros k Hik Hlt. specialize (Hk k Hik Hlt). lra.
  - exists w. split; [left; reflexivity|]. 
    destruct d as [x| |]; cbn in H; try discriminate.
    destruct (Rleb (w + x) (w + x)) eqn:El; rb; [|lra]. cbn in H. injection H as <-.
    apply time_to_value_fin in Ed; [|exact Hok]. destruct Ed as [_ Ed]. unfold growth.
    replace (w + x - w) with x by ring. split; [exact Ed|]. intros k Hik Hlt. specialize (Hk k Hik). lra.
  - destruct (negb (eleb (eadd (Fin w) d) (Fin s))) eqn:En.
    + apply IH in H; [|exact Hok]. destruct H as (s' & Hor & Heq & Hk'). exists s'. split; [|split; assumption].
      right. destruct Hor as [->|[Hi Hl]]; [auto|split; [exact Hi|lra]].
    + apply negb_false_iff, eleb_t in En.
      destruct d as [x| |]; cbn in H, En; try discriminate. injection H as <-.
      exists w. split; [left; reflexivity|].
      apply time_to_value_fin in Ed; [|exact Hok]. destruct Ed as [_ Ed]. unfold growth.
      replace (w + x - w) with x by ring. split; [exact Ed|]. intros k Hik Hlt. specialize (Hk k Hik Hlt). lra.
Qed.
Lemma growth_plus a s t : growth a (s + t) = growth a s * growth a t.
Proof. apply accum_plus. Qed.
Lemma balance_grows a s t : s <= t -> (forall k, In k (dkeys (a_txns a)) -> s < k -> t < k) ->
  balance_at_time a t None = balance_at_time a s None * growth a (t - s).
Proof.
  intros Hst Hk. rewrite !balance_at_time_eq. cbn [extra_wsum].
  replace (growth a t) with (growth a s * growth a (t - s)) by (rewrite <- growth_plus; f_equal; ring).
  assert (Hf : wsum (fv a t) (a_txns a) = wsum (fv a s) (a_txns a) * growth a (t - s)).
  { rewrite Rmult_comm, <- wsum_scale. apply wsum_ext. intros k v Hin. unfold fv.
    assert (Hik : In k (dkeys (a_txns a))) by (unfold dkeys; apply in_map_iff; exists (k, v); auto).
    destruct (Rleb k s) eqn:E1, (Rleb k t) eqn:E2; rb; try lra.
    - rewrite <- growth_plus. f_equal. ring.
    - specialize (Hk k Hik E1). lra. }
  rewrite Hf. ring.
Qed.
Lemma time_to_balance_reaches n a v w t : rate_ok (rate a) (a_nper a) ->
  time_to_balance n a v w = Ok (Fin t) -> ~ In t (dkeys (a_txns a)) ->
  exists s, (s = w \/ (In s (dkeys (a_txns a)) /\ w < s)) /\
    balance_at_time a s None * growth a (t - s) = v /\
    (s <= t -> balance_at_time a t None = v).
Proof.
  intros Hok H Hni. apply time_to_balance_spec in H; [|exact Hok].
  destruct H as (s & Hor & Heq & Hk). exists s. split; [exact Hor|]. split; [exact Heq|]. intro Hst.
  rewrite (balance_grows a s t Hst); [exact Heq|]. intros k Hik Hsk. specialize (Hk k Hik Hsk).
  destruct (Req_dec k t) as [->|]; [contradiction|lra].
Qed.
(** the recursion bound is never hit *)
Lemma time_to_balance_fuel : forall n a v w,
  (List.length (filter (fun k => Rltb w k) (dkeys (a_txns a))) <= n)%nat ->
  time_to_balance n a v w <> Err StopIteration.
Proof.
  induction n as [|n IH]; intros a v w Hn; cbn [time_to_balance];
    (destruct (time_to_value (rate a) (balance_at_time a w None) v (a_nper a)) as [d|e] eqn:Ed;
     [cbn [bind]|cbn [bind]; unfold time_to_value, accumulation_function_inverse in Ed;
      destruct (Reqb (balance_at_time a w None) 0); [congruence|];
      destruct (Rltb (v / balance_at_time a w None) 0); [congruence|];
      destruct (Reqb (rate a) 0);
      [destruct (Reqb (v / balance_at_time a w None) 1); [congruence|destruct (Rltb (v / balance_at_time a w None) 1); congruence]|];
      destruct (Reqb (v / balance_at_time a w None) 0); [congruence|destruct (a_nper a); congruence]]);
    destruct (next_after_spec (a_txns a) w (eadd (Fin w) d)) as [[E Hk]|(s & E & Hin & Hs & Hk)]; rewrite E.
  - destruct (eadd (Fin w) d) as [x| |]; try discriminate. cbn.
    destruct (Rleb x x) eqn:El; rb; [cbn; discriminate|lra].
  - exfalso. assert (Hi : In s (filter (fun k => Rltb w k) (dkeys (a_txns a)))).
    { apply filter_In. split; [exact Hin|apply Rltb_t; exact Hs]. }
    destruct (filter (fun k => Rltb w k) (dkeys (a_txns a))); [destruct Hi|cbn in Hn; lia].
  - destruct (eadd (Fin w) d) as [x| |]; try discriminate. cbn.
    destruct (Rleb x x) eqn:El; rb; [cbn; discriminate|lra].
  - destruct (negb (eleb (eadd (Fin w) d) (Fin s))); [|discriminate]. apply IH.
    assert (Hlt : (List.length (filter (fun k => Rltb s k) (dkeys (a_txns a))) < List.length (filter (fun k => Rltb w k) (dkeys (a_txns a))))%nat); [|lia].
    revert Hin. generalize (dkeys (a_txns a)). intro l. clear - Hs. 
    assert (Hle : forall l, (List.length (filter (fun k => Rltb s k) l) <= List.length (filter (fun k => Rltb w k) l))%nat).
    { induction l0 as [|x l0 IHl]; cbn; [lia|]. destruct (Rltb s x) eqn:E1, (Rltb w x) eqn:E2; cbn; rb; try lia. lra. }
    induction l as [|x l IHl]; intro Hin; [destruct Hin|]. cbn. destruct Hin as [->|Hin].
    + destruct (Rltb s s) eqn:E1; rb; [lra|]. destruct (Rltb w s) eqn:E2; rb; [|lra]. cbn.
      specialize (Hle l). lia.
    + specialize (IHl Hin). destruct (Rltb s x) eqn:E1, (Rltb w x) eqn:E2; cbn; rb; try lia. lra.
Qed.
Lemma time_to_balance_zero_rate n a v w : rate a = 0 -> (forall k, In k (dkeys (a_txns a)) -> k <= w) ->
  0 < balance_at_time a w None -> 0 <= v ->
  time_to_balance n a v w = Ok (if Reqb v (balance_at_time a w None) then Fin w
                                else if Rltb v (balance_at_time a w None) then MInf else PInf).
Proof.
  intros Hr Hk Hb Hv. set (b := balance_at_time a w None) in *.
  assert (E : time_to_balance n a v w =
    let* d := time_to_value (rate a) b v (a_nper a) in Ok (eadd (Fin w) d)).
  { destruct n; cbn [time_to_balance]; fold b; destruct (time_to_value (rate a) b v (a_nper a)) as [d|]; cbn [bind]; try reflexivity;
    (destruct (next_after_spec (a_txns a) w (eadd (Fin w) d)) as [[E Hk']|(s & E & Hin & Hs & _)]; [|specialize (Hk s Hin); lra];
     rewrite E; destruct (eadd (Fin w) d) as [x| |] eqn:Ex; try reflexivity; cbn;
     destruct (Rleb x x) eqn:El; rb; [reflexivity|lra]). }
  rewrite E. unfold time_to_value. destruct (Reqb b 0) eqn:E0; rb; [lra|].
  rewrite Hr, inverse_zero_rate by (apply Rmult_le_pos; [lra|left; apply Rinv_0_lt_compat; lra]).
  cbn [bind]. f_equal.
  assert (Hq : v / b * b = v) by (field; lra).
  destruct (Reqb (v / b) 1) eqn:E1, (Reqb v b) eqn:E2; rb; cbn.
  - f_equal. lra.
  - exfalso. apply E2. rewrite <- Hq, E1. lra.
  - exfalso. apply E1. subst v. field. lra.
  - destruct (Rltb (v / b) 1) eqn:E3, (Rltb v b) eqn:E4; rb; auto; exfalso.
    + apply Rmult_lt_compat_r with (r := b) in E3; [|exact Hb]. lra.
    + apply Rmult_le_compat_r with (r := b) in E3; [|lra]. lra.
Qed.
