(** Properties C31-C34 of RRSPs/RRIFs. *)
From Verif Require Import Base BaseFacts InflationModel InflationProofs PersonModel PersonProofs RegModel RegSpec RegProofs.
From Coq Require Import Lia.

(** ** C31 *)
(** Contributor not past 71 next year: the room grows by 18% of this year's income up to the
    (inflation-adjusted) maximum for next year; past 71 there is no room at all. *)
Theorem C31_accrual_partial : forall K ia b income r inflows y inc mx,
  valid_date b -> ~ leap_born b -> income y = Ok inc -> extend_scalar (rc_rrsp_max K) ia (y + 1) = Ok mx ->
  exists v, rrsp_next_room K ia b income (Some r) inflows y = Ok v /\
    ((y + 1 - d_y b <= rc_rrsp_age K)%Z -> exists acc, v == (r - inflows) + acc /\ acc <= inc * rc_rrsp_rate K /\ acc <= mx /\ (acc == inc * rc_rrsp_rate K \/ acc == mx)) /\
    ((rc_rrsp_age K < y + 1 - d_y b)%Z -> v == 0).
Proof.
  intros K ia b income r inflows y inc mx Hv Hn Hinc Hmx. unfold rrsp_next_room.
  rewrite (age_year_regular b (y + 1) Hv Hn). cbn [bind]. destruct (Z.ltb_spec (rc_rrsp_age K) (y + 1 - d_y b)) as [L|L].
  - exists 0. split; [reflexivity|]. split; [lia|reflexivity].
  - rewrite Hinc. cbn [bind]. rewrite Hmx. cbn [bind]. eexists. split; [reflexivity|]. split; [|lia]. intros _.
    exists (qmin (inc * rc_rrsp_rate K) mx). split; [ring|]. unfold qmin. destruct (Qle_bool (inc * rc_rrsp_rate K) mx) eqn:E.
    + apply Qle_bool_iff in E. repeat split; [apply Qle_refl|exact E|left; reflexivity].
    + assert (H : ~ inc * rc_rrsp_rate K <= mx) by (intro H; apply Qle_bool_iff in H; congruence).
      repeat split; [lra|apply Qle_refl|right; reflexivity].
Qed.
Print Assumptions C31_accrual_partial.
(** the maximum: the listed amount in a listed year, otherwise the nearest listed year's amount
    adjusted for inflation *)
Lemma scalar_get (d : dict Z Q) y : dget Z.eqb (scalar_table d) y = option_map VScalar (dget Z.eqb d y).
Proof. induction d as [|[k v] l IH]; [reflexivity|]. cbn. destruct (Z.eqb y k); [reflexivity|exact IH]. Qed.
Lemma scalar_keys (d : dict Z Q) : dkeys (scalar_table d) = dkeys d.
Proof. induction d as [|[k v] l IH]; [reflexivity|]. unfold dkeys in *. cbn. f_equal. exact IH. Qed.
Lemma scalar_nearest (d : dict Z Q) y : nearest_year (scalar_table d) y = nearest_year d y.
Proof.
  unfold nearest_year. destruct d as [|kv l]; [reflexivity|]. unfold dmem. rewrite scalar_get, scalar_keys.
  destruct (dget Z.eqb (kv :: l) y); reflexivity.
Qed.
Theorem C31_maximum : forall d (ia : iadj) y,
  (forall v, dget Z.eqb d y = Some v -> extend_scalar d ia y = Ok v) /\
  (forall b v f, dget Z.eqb d y = None -> nearest_year d y = Some b -> b <> y -> dget Z.eqb d b = Some v ->
     ia y (Some b) = Ok f -> exists w, extend_scalar d ia y = Ok w /\ w == v * f).
Proof.
  intros d ia y. unfold extend_scalar, extend_inflation_adjusted. rewrite scalar_get, scalar_nearest. split.
  - intros v ->. reflexivity.
  - intros b v f -> -> Hne Hb Hf. cbn [option_map]. destruct (Z.eqb_spec b y); [contradiction|].
    unfold dget_r. rewrite scalar_get, Hb. cbn [option_map bind]. rewrite Hf. cbn [bind]. eexists. split; [reflexivity|]. ring.
Qed.
Print Assumptions C31_maximum.
(** contributions are fully deductible, withdrawals fully taxable *)
Theorem C31_deductible_and_taxable : forall a,
  rrsp_tax_deduction a == Qsum (map (fun v => qmax v 0) (map snd (ra_txns a))) /\
  rrsp_taxable_income a == Qsum (map (fun v => qmax (- v) 0) (map snd (ra_txns a))).
Proof.
  intro a. unfold rrsp_tax_deduction, rrsp_taxable_income, r_inflows, r_outflows. induction (map snd (ra_txns a)) as [|v l [IH1 IH2]].
  - split; reflexivity.
  - cbn [map filter Qsum]. split.
    + unfold Qlt_bool, qmax in *. destruct (Qle_bool v 0) eqn:E; cbn [negb]; [rewrite IH1; ring|].
      cbn [Qsum]. rewrite IH1. reflexivity.
    + unfold Qlt_bool, qmax in *. destruct (Qle_bool 0 v) eqn:E; cbn [negb].
      * destruct (Qle_bool (- v) 0) eqn:F; [rewrite IH2; ring|].
        exfalso. apply Qle_bool_iff in E. assert (~ - v <= 0) by (intro H; apply Qle_bool_iff in H; congruence). lra.
      * cbn [Qsum]. destruct (Qle_bool (- v) 0) eqn:F.
        -- exfalso. apply Qle_bool_iff in F. assert (~ 0 <= v) by (intro H; apply Qle_bool_iff in H; congruence). lra.
        -- rewrite <- IH2. ring.
Qed.
Print Assumptions C31_deductible_and_taxable.
(** A contributor born on 29 February keeps accruing room for a year after turning 71 when that
    year is not a leap year. *)
Theorem C31_leap_day_refuted : forall K ia b income r inflows y inc mx,
  valid_date b -> leap_born b -> leap (y + 1) = false -> (y + 1 - d_y b = rc_rrsp_age K + 1)%Z ->
  income y = Ok inc -> extend_scalar (rc_rrsp_max K) ia (y + 1) = Ok mx ->
  rrsp_next_room K ia b income (Some r) inflows y = Ok (qmin (inc * rc_rrsp_rate K) mx + (r - inflows)).
Proof.
  intros K ia b income r inflows y inc mx Hv Hb Hl Hy Hinc Hmx. unfold rrsp_next_room.
  rewrite (age_year_leap b (y + 1) Hv Hb), Hl. cbn [bind]. destruct (Z.ltb_spec (rc_rrsp_age K) (y + 1 - d_y b - 1)) as [L|L]; [lia|].
  rewrite Hinc. cbn [bind]. rewrite Hmx. reflexivity.
Qed.
Print Assumptions C31_leap_day_refuted.
Definition ex_K : reg_consts := {| rc_rrsp_rate := 18 # 100; rc_rrsp_max := [(2017%Z, 26000)]; rc_rrsp_age := 71; rc_rrif_min := [(71%Z, 528 # 10000); (72%Z, 54 # 1000)];
  rc_withhold := [(2017%Z, [(0, 1 # 10); (5000, 2 # 10); (15000, 3 # 10)])]; rc_tfsa := []; rc_tfsa_age := 18; rc_tfsa_round := 500 |}.
Definition ex_birth : date := {| d_y := 1950; d_m := 7; d_d := 1 |}.
Definition ex_leap : date := {| d_y := 1952; d_m := 2; d_d := 29 |}.
Definition ex_ia : iadj := fun t b => match b with Some b => Ok (1 + inject_Z (t - b) / 10) | None => Ok 1 end.
Example C31_sat : (let* v := rrsp_next_room ex_K ex_ia ex_birth (fun _ => Ok 100000) (Some 5000) 1000 2018 in Ok (Qred v)) = Ok 22000
  /\ (let* v := rrsp_next_room ex_K ex_ia ex_birth (fun _ => Ok 1000000) (Some 5000) 1000 2018 in Ok (Qred v)) = Ok 35200
  /\ rrsp_next_room ex_K ex_ia ex_birth (fun _ => Ok 100000) (Some 5000) 1000 2021 = Ok 0
  /\ (let* v := rrsp_next_room ex_K ex_ia ex_leap (fun _ => Ok 100000) (Some 5000) 1000 2022 in Ok (Qred v)) = Ok 22000
  /\ (2023 - 1952 = 71)%Z.
Proof. repeat split; vm_compute; reflexivity. Qed.

(** ** C32 *)
(** After any history of assignments the conversion year is at most the year the owner turns 71. *)
Theorem C32_conversion_bound_partial : forall K b y0 h y,
  valid_date b -> ~ leap_born b ->
  rrif_year K b y0 (run_rrif K b y0 h None) = Ok y -> (y <= d_y b + rc_rrsp_age K)%Z.
Proof.
  intros K b y0 h y Hv Hn.
  assert (Hm : rrif_max_year K b y0 = Ok (d_y b + rc_rrsp_age K)%Z).
  { unfold rrif_max_year. rewrite (age_year_regular b y0 Hv Hn). cbn [bind]. f_equal. lia. }
  assert (G : forall h c, (forall z, c = Some z -> (z <= d_y b + rc_rrsp_age K)%Z) -> forall z, run_rrif K b y0 h c = Some z -> (z <= d_y b + rc_rrsp_age K)%Z).
  { clear h y. induction h as [|v h IH]; intros c Hc z; [apply Hc|]. cbn [run_rrif fold_left]. apply IH. intros w.
    unfold set_rrif_year. destruct v as [x|]; [|discriminate]. rewrite Hm. destruct (Z.ltb_spec (d_y b + rc_rrsp_age K) x) as [L|L]; cbn [fst]; [apply Hc|].
    intro E. injection E as <-. lia. }
  intro H. unfold rrif_year in H. destruct (run_rrif K b y0 h None) as [z|] eqn:E.
  - injection H as <-. apply (G h None); [discriminate|exact E].
  - rewrite Hm in H. injection H as <-. lia.
Qed.
Print Assumptions C32_conversion_bound_partial.
(** later years are rejected with ValueError and leave the old value; earlier ones are stored;
    None restores the default, the mandatory year *)
Theorem C32_assignment : forall K b y0 c y, valid_date b -> ~ leap_born b ->
  ((d_y b + rc_rrsp_age K < y)%Z -> set_rrif_year K b y0 c (Some y) = (c, Some ValueError)) /\
  ((y <= d_y b + rc_rrsp_age K)%Z -> set_rrif_year K b y0 c (Some y) = (Some y, None)) /\
  rrif_year K b y0 (fst (set_rrif_year K b y0 c None)) = Ok (d_y b + rc_rrsp_age K)%Z.
Proof.
  intros K b y0 c y Hv Hn.
  assert (Hm : rrif_max_year K b y0 = Ok (d_y b + rc_rrsp_age K)%Z).
  { unfold rrif_max_year. rewrite (age_year_regular b y0 Hv Hn). cbn [bind]. f_equal. lia. }
  unfold set_rrif_year. rewrite Hm. split; [|split].
  - intro H. destruct (Z.ltb_spec (d_y b + rc_rrsp_age K) y); [reflexivity|lia].
  - intro H. destruct (Z.ltb_spec (d_y b + rc_rrsp_age K) y); [lia|reflexivity].
  - exact Hm.
Qed.
Print Assumptions C32_assignment.
(** an owner born on 29 February whose account starts in a common year gets a year too long *)
Theorem C32_leap_day_refuted : forall K b y0, valid_date b -> leap_born b -> leap y0 = false ->
  rrif_year K b y0 None = Ok (d_y b + rc_rrsp_age K + 1)%Z /\
  set_rrif_year K b y0 None (Some (d_y b + rc_rrsp_age K + 1)%Z) = (Some (d_y b + rc_rrsp_age K + 1)%Z, None).
Proof.
  intros K b y0 Hv Hb Hl.
  assert (Hm : rrif_max_year K b y0 = Ok (d_y b + rc_rrsp_age K + 1)%Z).
  { unfold rrif_max_year. rewrite (age_year_leap b y0 Hv Hb), Hl. cbn [bind]. f_equal. lia. }
  split; [exact Hm|]. unfold set_rrif_year. rewrite Hm. rewrite Z.ltb_irrefl. reflexivity.
Qed.
Print Assumptions C32_leap_day_refuted.
Example C32_sat : valid_date ex_birth /\ ~ leap_born ex_birth /\
  run_rrif ex_K ex_birth 2018 [Some 2020; Some 2050; None; Some 2021; Some 2022]%Z None = Some 2021%Z.
Proof. unfold valid_date, leap_born. cbn. repeat split; lia. Qed.

(** ** C33 *)
Lemma qmax_fold : forall l x, let m := fold_left qmax l x in (m = x \/ In m l) /\ x <= m /\ forall v, In v l -> v <= m.
Proof.
  induction l as [|a l IH]; intro x; cbn [fold_left]; cbv zeta.
  - repeat split; [left; reflexivity|apply Qle_refl|intros v []].
  - destruct (IH (qmax x a)) as (A & B & C). cbv zeta in *. set (m := fold_left qmax l (qmax x a)) in *.
    assert (Hq : x <= qmax x a /\ a <= qmax x a /\ (qmax x a = x \/ qmax x a = a)).
    { unfold qmax. destruct (Qle_bool x a) eqn:E; [apply Qle_bool_iff in E; repeat split; [exact E|apply Qle_refl|tauto]|].
      assert (~ x <= a) by (intro H; apply Qle_bool_iff in H; congruence). repeat split; [apply Qle_refl|lra|tauto]. }
    destruct Hq as (Q1 & Q2 & Q3). repeat split.
    + destruct A as [A|A]; [|cbn; tauto]. rewrite A. cbn. intuition congruence.
    + eapply Qle_trans; eassumption.
    + intros v [<-|Hv]; [eapply Qle_trans; eassumption|apply C; exact Hv].
Qed.
Lemma qmin_fold : forall l x, let m := fold_left qmin l x in (m = x \/ In m l) /\ m <= x /\ forall v, In v l -> m <= v.
Proof.
  induction l as [|a l IH]; intro x; cbn [fold_left]; cbv zeta.
  - repeat split; [left; reflexivity|apply Qle_refl|intros v []].
  - destruct (IH (qmin x a)) as (A & B & C). cbv zeta in *. set (m := fold_left qmin l (qmin x a)) in *.
    assert (Hq : qmin x a <= x /\ qmin x a <= a /\ (qmin x a = x \/ qmin x a = a)).
    { unfold qmin. destruct (Qle_bool x a) eqn:E; [apply Qle_bool_iff in E; repeat split; [apply Qle_refl|exact E|tauto]|].
      assert (~ x <= a) by (intro H; apply Qle_bool_iff in H; congruence). repeat split; [lra|apply Qle_refl|tauto]. }
    destruct Hq as (Q1 & Q2 & Q3). repeat split.
    + destruct A as [A|A]; [|cbn; tauto]. rewrite A. cbn. intuition congruence.
    + eapply Qle_trans; eassumption.
    + intros v [<-|Hv]; [eapply Qle_trans; eassumption|apply C; exact Hv].
Qed.
(** Up to and including the conversion year nothing is required; after it the table's rate for the
    contributor's age applies to the balance, the highest rate beyond the table, and
    balance/(90-age) before it. *)
Theorem C33_minimum : forall K b conv y balance age, age_in_year b y = Ok age ->
  ((y <= conv)%Z -> minimum_distribution K b conv y balance = Ok 0) /\
  (forall r, (conv < y)%Z -> dget Z.eqb (rc_rrif_min K) age = Some r ->
     minimum_distribution K b conv y balance = Ok (r * balance)) /\
  ((conv < y)%Z -> rc_rrif_min K <> [] -> (forall a, In a (dkeys (rc_rrif_min K)) -> (a < age)%Z) ->
     exists r, In r (map snd (rc_rrif_min K)) /\ (forall r', In r' (map snd (rc_rrif_min K)) -> r' <= r) /\
       minimum_distribution K b conv y balance = Ok (balance * r)) /\
  ((conv < y)%Z -> dget Z.eqb (rc_rrif_min K) age = None -> (exists a, In a (dkeys (rc_rrif_min K)) /\ (age <= a)%Z) -> age <> 90%Z ->
     minimum_distribution K b conv y balance = Ok (balance / inject_Z (90 - age))).
Proof.
  intros K b conv y balance age Hage. unfold minimum_distribution. rewrite Hage. cbn [bind].
  split; [|split; [|split]].
  - intro H. destruct (Z.ltb_spec conv y); [lia|reflexivity].
  - intros r H Hr. destruct (Z.ltb_spec conv y); [|lia]. rewrite Hr. reflexivity.
  - intros H Hne Hall. destruct (Z.ltb_spec conv y); [|lia].
    assert (Hg : dget Z.eqb (rc_rrif_min K) age = None).
    { destruct (dget Z.eqb (rc_rrif_min K) age) as [v|] eqn:E; [|reflexivity]. exfalso.
      assert (Hk : In age (dkeys (rc_rrif_min K))) by (apply dmem_keys; unfold dmem; rewrite E; reflexivity).
      specialize (Hall _ Hk). lia. }
    rewrite Hg. pose proof (zmaxl_spec (dkeys (rc_rrif_min K))) as Hm. destruct (zmaxl (dkeys (rc_rrif_min K))) as [m|].
    + destruct Hm as [Hm _]. specialize (Hall m Hm). destruct (Z.ltb_spec m age); [|lia].
      destruct (map snd (rc_rrif_min K)) as [|x l] eqn:El; [destruct (rc_rrif_min K); [congruence|discriminate]|].
      destruct (qmax_fold l x) as (A & B & C). cbv zeta in *. exists (fold_left qmax l x). split; [|split; [|reflexivity]].
      * destruct A as [A|A]; [left; congruence|right; exact A].
      * intros r' [<-|Hr']; [exact B|apply C; exact Hr'].
    + exfalso. apply Hne. destruct (rc_rrif_min K); [reflexivity|discriminate].
  - intros H Hg (a & Ha & Hle) H90. destruct (Z.ltb_spec conv y); [|lia]. rewrite Hg.
    pose proof (zmaxl_spec (dkeys (rc_rrif_min K))) as Hm. destruct (zmaxl (dkeys (rc_rrif_min K))) as [m|].
    + destruct Hm as [_ Hm]. specialize (Hm a Ha). destruct (Z.ltb_spec m age); [lia|].
      unfold qdiv. destruct (Qeq_bool (inject_Z (90 - age)) 0) eqn:E; [|reflexivity].
      apply Qeq_bool_iff in E. unfold Qeq, inject_Z in E. cbn [Qnum Qden] in E. lia.
    + rewrite Hm in Ha. destruct Ha.
Qed.
Print Assumptions C33_minimum.
(** the minimum never exceeds the balance *)
Theorem C33_affordable : forall K b conv y balance m age, age_in_year b y = Ok age ->
  (forall a r, In (a, r) (rc_rrif_min K) -> 0 <= r <= 1) -> 
  (forall a, dget Z.eqb (rc_rrif_min K) a = None -> (a < 90)%Z \/ forall k, In k (dkeys (rc_rrif_min K)) -> (k < a)%Z) ->
  0 <= balance -> minimum_distribution K b conv y balance = Ok m -> 0 <= m <= balance.
Proof.
  intros K b conv y balance m age Hage Hr Hc Hb. unfold minimum_distribution. rewrite Hage. cbn [bind].
  destruct (Z.ltb conv y); [|intro H; injection H as <-; lra].
  destruct (dget Z.eqb (rc_rrif_min K) age) as [r|] eqn:Eg.
  - intro H. injection H as <-. apply zdget_In in Eg.
    destruct (Hr _ _ Eg) as [H0 H1]. split; [apply Qmult_le_0_compat; assumption|].
    setoid_replace balance with (1 * balance) at 2 by ring. apply Qmult_le_compat_r; assumption.
  - pose proof (zmaxl_spec (dkeys (rc_rrif_min K))) as Hm. destruct (zmaxl (dkeys (rc_rrif_min K))) as [mx|]; [|discriminate].
    destruct (Z.ltb_spec mx age) as [L|L].
    + destruct (map snd (rc_rrif_min K)) as [|x l] eqn:El; [discriminate|]. intro H. injection H as <-.
      destruct (qmax_fold l x) as (A & _). cbv zeta in A.
      assert (Hin : In (fold_left qmax l x) (map snd (rc_rrif_min K))) by (rewrite El; destruct A as [A|A]; [left; congruence|right; exact A]).
      apply in_map_iff in Hin. destruct Hin as ([a r] & E & Hin). cbn in E. destruct (Hr _ _ Hin) as [H0 H1]. rewrite <- E.
      split; [apply Qmult_le_0_compat; assumption|]. setoid_replace balance with (1 * balance) at 2 by ring.
      rewrite Qmult_comm. apply Qmult_le_compat_r; assumption.
    + destruct (Hc age Eg) as [Hlt|Hall]; [|destruct Hm as [Hm _]; specialize (Hall _ Hm); lia].
      unfold qdiv. destruct (Qeq_bool (inject_Z (90 - age)) 0); [discriminate|]. intro H.
      assert (H' : balance / inject_Z (90 - age) = m) by congruence. rewrite <- H'. clear H H'.
      assert (H1 : 1 <= inject_Z (90 - age)) by (unfold Qle, inject_Z; cbn [Qnum Qden]; lia).
      revert H1. generalize (inject_Z (90 - age)) as d. intros d H1.
      split; [apply Qle_shift_div_l; [apply Qlt_le_trans with 1; [reflexivity|exact H1]|rewrite Qmult_0_l; exact Hb]|]. apply Qle_shift_div_r; [apply Qlt_le_trans with 1; [reflexivity|exact H1]|].
      setoid_replace balance with (balance * 1) at 1 by ring. rewrite !(Qmult_comm balance). apply Qmult_le_compat_r; assumption.
Qed.
Print Assumptions C33_affordable.
(** the mandatory outflow is at least the minimum and at least the shared minimum *)
Theorem C33_mandatory : forall K b conv y balance shared m o,
  minimum_distribution K b conv y balance = Ok m -> rrsp_min_outflow K b conv y balance shared = Ok o ->
  o <= - m /\ o <= shared /\ (o == - m \/ o == shared).
Proof.
  intros K b conv y balance shared m o Hm H. unfold rrsp_min_outflow in H. rewrite Hm in H. injection H as <-.
  unfold qmin. destruct (Qle_bool (- m) shared) eqn:E.
  - apply Qle_bool_iff in E. repeat split; [apply Qle_refl|exact E|left; reflexivity].
  - assert (~ - m <= shared) by (intro X; apply Qle_bool_iff in X; congruence). repeat split; [lra|apply Qle_refl|right; reflexivity].
Qed.
Print Assumptions C33_mandatory.
Example C33_sat : age_in_year ex_birth 2022 = Ok 72%Z /\ minimum_distribution ex_K ex_birth 2021 2021 1000 = Ok 0
  /\ (let* v := minimum_distribution ex_K ex_birth 2021 2022 1000 in Ok (Qred v)) = Ok 54
  /\ (let* v := minimum_distribution ex_K ex_birth 2021 2032 1000 in Ok (Qred v)) = Ok 54
  /\ (let* v := minimum_distribution ex_K ex_birth 2010 2015 1000 in Ok (Qred v)) = Ok 40
  /\ (let* v := rrsp_min_outflow ex_K ex_birth 2010 2015 1000 (-10) in Ok (Qred v)) = Ok (-40).
Proof. repeat split; vm_compute; reflexivity. Qed.

(** ** C34 *)
Lemma bracket_spec rates amount : rates <> [] -> exists b, bracket_of rates amount = Ok b /\ is_bracket rates amount b.
Proof.
  intro Hne. unfold bracket_of, is_bracket. destruct (filter (fun b => Qlt_bool b amount) (dkeys rates)) as [|x l] eqn:E.
  - cbn [qmax_opt]. destruct (dkeys rates) as [|z r] eqn:Ek; [destruct rates; [congruence|discriminate]|].
    cbn [qmin_opt]. exists (fold_left qmin r z). split; [reflexivity|]. destruct (qmin_fold r z) as (A & B & C). cbv zeta in *.
    split; [destruct A as [A|A]; [left; congruence|right; exact A]|]. right. split.
    + intros b' Hb' Hlt. assert (Hin : In b' (filter (fun b => Qlt_bool b amount) (z :: r))).
      { apply filter_In. split; [exact Hb'|]. unfold Qlt_bool. destruct (Qle_bool amount b') eqn:F; [apply Qle_bool_iff in F; lra|reflexivity]. }
      rewrite E in Hin. destruct Hin.
    + intros b' [<-|Hb']; [exact B|apply C; exact Hb'].
  - cbn [qmax_opt]. exists (fold_left qmax l x). split; [reflexivity|]. destruct (qmax_fold l x) as (A & B & C). cbv zeta in *.
    assert (Hin : In (fold_left qmax l x) (filter (fun b => Qlt_bool b amount) (dkeys rates))) by (rewrite E; destruct A as [A|A]; [left; congruence|right; exact A]).
    apply filter_In in Hin. destruct Hin as [H1 H2]. split; [exact H1|]. left. split.
    + unfold Qlt_bool in H2. apply negb_true_iff in H2. apply Qnot_le_lt. intro H. apply Qle_bool_iff in H. congruence.
    + intros b' Hb' Hlt. assert (Hx : In b' (filter (fun b => Qlt_bool b amount) (dkeys rates))).
      { apply filter_In. split; [exact Hb'|]. unfold Qlt_bool. destruct (Qle_bool amount b') eqn:F; [apply Qle_bool_iff in F; lra|reflexivity]. }
      rewrite E in Hx. destruct Hx as [<-|Hx]; [exact B|apply C; exact Hx].
Qed.
Lemma keys_get (d : dict Q Q) b : In b (dkeys d) -> exists r, dget Qeq_bool d b = Some r.
Proof.
  unfold dkeys. induction d as [|[k v] l IH]; intro H; [destruct H|]. cbn in *. destruct (Qeq_bool b k) eqn:E; [eauto|].
  destruct H as [->|H]; [rewrite Qeq_bool_refl in E; discriminate|]. apply IH. exact H.
Qed.
(** Before conversion: withheld = amount withdrawn x rate of its bracket (amount expressed in the
    table year's dollars to find the bracket). *)
Theorem C34_withholding_partial : forall K (ia : iadj) conv y taxable min_out ty rates f,
  (y < conv)%Z -> nearest_year (rc_withhold K) y = Some ty -> dget Z.eqb (rc_withhold K) ty = Some rates -> rates <> [] ->
  ia ty (Some y) = Ok f ->
  exists b r, is_bracket rates (taxable * f) b /\ dget Qeq_bool rates b = Some r /\
    rrsp_tax_withheld K ia conv y taxable min_out = Ok (taxable * r).
Proof.
  intros K ia conv y taxable min_out ty rates f Hc Hn Hg Hne Hf. unfold rrsp_tax_withheld.
  destruct (Z.ltb_spec y conv); [|lia]. rewrite Hn. unfold dget_r at 1. rewrite Hg. cbn [bind]. rewrite Hf. cbn [bind].
  destruct (bracket_spec rates (taxable * f) Hne) as (b & Eb & Hb). rewrite Eb. cbn [bind].
  destruct (keys_get rates b (proj1 Hb)) as (r & Er). unfold dget_r. rewrite Er. cbn [bind]. eauto.
Qed.
Print Assumptions C34_withholding_partial.
(** After conversion the mandatory minimum (a non-positive outflow limit) is subtracted, i.e. its
    size is ADDED to the amount taxed, instead of being exempted. *)
Theorem C34_minimum_taxed_twice_refuted : forall K (ia : iadj) conv y taxable minimum ty rates f,
  (conv <= y)%Z -> nearest_year (rc_withhold K) y = Some ty -> dget Z.eqb (rc_withhold K) ty = Some rates -> rates <> [] ->
  ia ty (Some y) = Ok f ->
  exists b r, is_bracket rates ((taxable + minimum) * f) b /\ dget Qeq_bool rates b = Some r /\
    exists w, rrsp_tax_withheld K ia conv y taxable (- minimum) = Ok w /\ w == (taxable + minimum) * r.
Proof.
  intros K ia conv y taxable minimum ty rates f Hc Hn Hg Hne Hf. unfold rrsp_tax_withheld.
  destruct (Z.ltb_spec y conv); [lia|]. rewrite Hn. unfold dget_r at 1. rewrite Hg. cbn [bind]. rewrite Hf. cbn [bind].
  destruct (bracket_spec rates ((taxable - - minimum) * f) Hne) as (b & Eb & Hb). rewrite Eb. cbn [bind].
  destruct (keys_get rates b (proj1 Hb)) as (r & Er). unfold dget_r. rewrite Er. cbn [bind].
  exists b, r. split; [|split; [exact Er|exists ((taxable - - minimum) * r); split; [reflexivity|ring]]].
  destruct Hb as [H1 H2]. split; [exact H1|].
  assert (Eq : (taxable - - minimum) * f == (taxable + minimum) * f) by ring.
  destruct H2 as [[A B]|[A B]]; [left|right]; split.
  - rewrite <- Eq. exact A.
  - intros b' Hb'. rewrite <- Eq. apply B. exact Hb'.
  - intros b' Hb'. rewrite <- Eq. apply A. exact Hb'.
  - exact B.
Qed.
Print Assumptions C34_minimum_taxed_twice_refuted.
(** withdrawing exactly the minimum from a RRIF should attract no withholding tax, but does *)
Theorem C34_refuted : ~ forall K (ia : iadj) conv y m w, (conv <= y)%Z -> 0 <= m ->
  rrsp_tax_withheld K ia conv y m (- m) = Ok w -> w == 0.
Proof.
  intro H. assert (E : rrsp_tax_withheld ex_K ex_ia 2010 2017 1000 (- 1000) = Ok ((1000 - - 1000) * (1 # 10))) by (vm_compute; reflexivity).
  apply H in E; [|lia|lra]. vm_compute in E. discriminate.
Qed.
Print Assumptions C34_refuted.
Example C34_sat : (let* v := rrsp_tax_withheld ex_K ex_ia 2021 2017 5000 (-7) in Ok (Qred v)) = Ok 500
  /\ (let* v := rrsp_tax_withheld ex_K ex_ia 2021 2017 5001 (-7) in Ok (Qred v)) = Ok (5001 # 5)
  /\ (let* v := rrsp_tax_withheld ex_K ex_ia 2021 2019 5001 (-7) in Ok (Qred v)) = Ok (5001 # 10).
Proof. repeat split; vm_compute; reflexivity. Qed.
