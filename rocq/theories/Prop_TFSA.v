(** Property C35 of TFSAs. *)
From Verif Require Import Base BaseFacts InflationModel InflationProofs PersonModel PersonProofs RegModel RegSpec RegProofs.
From Coq Require Import Lia Qround.

(** Python's round is to a nearest integer *)
Lemma qround_near q : qabs (inject_Z (qround q) - q) <= 1 # 2.
Proof.
  unfold qround. pose proof (Qfloor_le q) as H1. pose proof (Qlt_floor q) as H2.
  set (f := Qfloor q) in *. rewrite inject_Z_plus in H2. change (inject_Z 1) with 1 in H2.
  assert (A : forall x, (- (1#2) <= x /\ x <= 1#2) -> qabs x <= 1#2).
  { intros x [X1 X2]. unfold qabs. destruct (Qle_bool 0 x); lra. }
  apply A. unfold Qlt_bool.
  destruct (Qle_bool (1#2) (q - inject_Z f)) eqn:E1; cbn [negb].
  - apply Qle_bool_iff in E1. destruct (Qle_bool (q - inject_Z f) (1#2)) eqn:E2; cbn [negb].
    + apply Qle_bool_iff in E2. destruct (Z.even f); rewrite ?inject_Z_plus; change (inject_Z 1) with 1; lra.
    + assert (~ q - inject_Z f <= 1#2) by (intro X; apply Qle_bool_iff in X; congruence).
      rewrite inject_Z_plus. change (inject_Z 1) with 1. lra.
  - assert (~ 1#2 <= q - inject_Z f) by (intro X; apply Qle_bool_iff in X; congruence). lra.
Qed.
Lemma qround_even q : qabs (inject_Z (qround q) - q) == 1 # 2 -> Z.even (qround q) = true.
Proof.
  unfold qround. pose proof (Qfloor_le q) as H1. pose proof (Qlt_floor q) as H2.
  set (f := Qfloor q) in *. rewrite inject_Z_plus in H2. change (inject_Z 1) with 1 in H2. unfold Qlt_bool.
  assert (A : forall x, qabs x == 1#2 -> x == 1#2 \/ x == - (1#2)) by (intros x; unfold qabs; destruct (Qle_bool 0 x); intros; [left|right]; lra).
  destruct (Qle_bool (1#2) (q - inject_Z f)) eqn:E1; cbn [negb].
  - apply Qle_bool_iff in E1. destruct (Qle_bool (q - inject_Z f) (1#2)) eqn:E2; cbn [negb].
    + destruct (Z.even f) eqn:E; [auto|]. intros _. rewrite Z.add_1_r, Z.even_succ, <- Z.negb_even, E. reflexivity.
    + assert (~ q - inject_Z f <= 1#2) by (intro X; apply Qle_bool_iff in X; congruence).
      intros X. apply A in X. rewrite inject_Z_plus in X. change (inject_Z 1) with 1 in X. exfalso. lra.
  - assert (~ 1#2 <= q - inject_Z f) by (intro X; apply Qle_bool_iff in X; congruence). intros X. apply A in X. exfalso. lra.
Qed.
Lemma round_to_nearest f q x : 0 < f -> round_to f q = Ok x -> nearest_multiple f q x.
Proof.
  intros Hf. unfold round_to, qdiv. destruct (Qeq_bool f 0) eqn:E; [discriminate|]. cbn [bind]. intro H.
  assert (H' : inject_Z (qround (q / f)) * f = x) by congruence. subst x. exists (qround (q / f)). split; [reflexivity|].
  pose proof (qround_near (q / f)) as N. pose proof (qround_even (q / f)) as N'.
  assert (Eq : inject_Z (qround (q / f)) * f - q == (inject_Z (qround (q / f)) - q / f) * f) by (field; lra).
  set (d := inject_Z (qround (q / f)) - q / f) in *.
  assert (Ab : qabs (inject_Z (qround (q / f)) * f - q) == qabs d * f).
  { unfold qabs. destruct (Qle_bool 0 (inject_Z (qround (q / f)) * f - q)) eqn:E1; destruct (Qle_bool 0 d) eqn:E2; qb; rewrite ?Eq; try ring; exfalso; rewrite Eq in E1; nra. }
  assert (Hh : f / 2 == (1#2) * f) by field. rewrite Ab, Hh. split; [nra|]. intros T. apply N'. assert (K : (qabs d - (1#2)) * f == 0) by lra. nra.
Qed.

(** ** C35 *)
(** no accrual while the owner will still be under age next year; listed years accrue the listed
    amount; unlisted ones a multiple of the rounding step nearest to the base-year amount scaled
    by inflation_adjust(base_year, year) *)
Theorem C35_accrual_partial : forall K (ia : iadj) b y age,
  age_in_year b (y + 1) = Ok age ->
  ((age < rc_tfsa_age K)%Z -> tfsa_accrual K ia b y = Ok 0) /\
  (forall v, (rc_tfsa_age K <= age)%Z -> dget Z.eqb (rc_tfsa K) y = Some v -> tfsa_accrual K ia b y = Ok v) /\
  (forall by_ base f, (rc_tfsa_age K <= age)%Z -> dget Z.eqb (rc_tfsa K) y = None -> 0 < rc_tfsa_round K ->
     tfsa_base K ia = Ok (by_, base) -> ia by_ (Some y) = Ok f ->
     exists v, tfsa_accrual K ia b y = Ok v /\ nearest_multiple (rc_tfsa_round K) (base * f) v).
Proof.
  intros K ia b y age Ha. unfold tfsa_accrual. rewrite Ha. cbn [bind]. split; [|split].
  - intro H. destruct (Z.ltb_spec age (rc_tfsa_age K)); [reflexivity|lia].
  - intros v H Hv. destruct (Z.ltb_spec age (rc_tfsa_age K)); [lia|]. rewrite Hv. reflexivity.
  - intros by_ base f H Hn Hr Hb Hf. destruct (Z.ltb_spec age (rc_tfsa_age K)); [lia|]. rewrite Hn, Hb. cbn [bind]. rewrite Hf. cbn [bind].
    destruct (round_to (rc_tfsa_round K) (base * f)) as [v|e] eqn:E.
    + exists v. split; [reflexivity|]. apply round_to_nearest; assumption.
    + exfalso. unfold round_to, qdiv in E. destruct (Qeq_bool (rc_tfsa_round K) 0) eqn:Z0; [|discriminate].
      apply Qeq_bool_iff in Z0. lra.
Qed.
Print Assumptions C35_accrual_partial.
(** the base amount is the first listed year's amount (already a multiple of the step) *)
Theorem C35_base : forall K ia y v k, 0 < rc_tfsa_round K ->
  zminl (dkeys (rc_tfsa K)) = Some y -> dget Z.eqb (rc_tfsa K) y = Some v -> v == inject_Z k * rc_tfsa_round K ->
  exists b, tfsa_base K ia = Ok (y, b) /\ b == v.
Proof.
  intros K ia y v k Hr Hm Hv Hk. unfold tfsa_base. rewrite Hm. unfold extend_scalar, extend_inflation_adjusted.
  assert (G : dget Z.eqb (scalar_table (rc_tfsa K)) y = Some (VScalar v)).
  { revert Hv. clear. induction (rc_tfsa K) as [|[a w] l IH]; [discriminate|]. cbn. destruct (Z.eqb y a); [intro H; injection H as ->; reflexivity|exact IH]. }
  rewrite G. cbn [bind]. unfold round_to, qdiv. destruct (Qeq_bool (rc_tfsa_round K) 0) eqn:Z0; [apply Qeq_bool_iff in Z0; lra|].
  cbn [bind]. eexists. split; [reflexivity|].
  assert (E : v / rc_tfsa_round K == inject_Z k). { rewrite Hk. field. intro X. lra. }
  assert (R : qround (v / rc_tfsa_round K) = k).
  { unfold qround. rewrite (Qfloor_comp _ _ E), Qfloor_Z.
    assert (D : v / rc_tfsa_round K - inject_Z k == 0) by (rewrite E; ring).
    unfold Qlt_bool. destruct (Qle_bool (1#2) (v / rc_tfsa_round K - inject_Z k)) eqn:F; [|reflexivity].
    apply Qle_bool_iff in F. rewrite D in F. exfalso. revert F. unfold Qle. cbn. lia. }
  rewrite R. symmetry. exact Hk.
Qed.
Print Assumptions C35_base.
(** The indexation is the wrong way round: the amount is DIVIDED by the growth of prices since the
    base year instead of multiplied. *)
Theorem C35_indexation_refuted : forall K (ia : iadj) b y age by_ base f g,
  age_in_year b (y + 1) = Ok age -> (rc_tfsa_age K <= age)%Z -> dget Z.eqb (rc_tfsa K) y = None -> 0 < rc_tfsa_round K ->
  tfsa_base K ia = Ok (by_, base) -> ia by_ (Some y) = Ok f -> ia y (Some by_) = Ok g -> f * g == 1 ->
  exists v, tfsa_accrual K ia b y = Ok v /\ nearest_multiple (rc_tfsa_round K) (base / g) v.
Proof.
  intros K ia b y age by_ base f g Ha Hle Hn Hr Hb Hf Hg Hfg.
  destruct (C35_accrual_partial K ia b y age Ha) as (_ & _ & H). destruct (H by_ base f Hle Hn Hr Hb Hf) as (v & E & k & N & D & T).
  exists v. split; [exact E|]. exists k. split; [exact N|].
  assert (Hg0 : ~ g == 0) by (intro X; rewrite X in Hfg; revert Hfg; unfold Qeq; cbn; lia).
  assert (Eq : base * f == base / g). { setoid_replace (base * f) with (base * (f * g) / g) by (field; exact Hg0). rewrite Hfg. field. exact Hg0. }
  assert (C : qabs (v - base / g) == qabs (v - base * f)).
  { assert (Q : v - base / g == v - base * f) by (rewrite Eq; reflexivity). unfold qabs. rewrite Q. destruct (Qle_bool 0 (v - base * f)); rewrite Q; reflexivity. }
  rewrite C. split; [exact D|exact T].
Qed.
Print Assumptions C35_indexation_refuted.
Definition tf_K : reg_consts := {| rc_rrsp_rate := 18 # 100; rc_rrsp_max := []; rc_rrsp_age := 71; rc_rrif_min := []; rc_withhold := [];
  rc_tfsa := [(2009%Z, 5000); (2010%Z, 5000); (2011%Z, 5500)]; rc_tfsa_age := 18; rc_tfsa_round := 500 |}.
Definition tf_birth : date := {| d_y := 1980; d_m := 6; d_d := 15 |}.
Definition tf_ia : iadj := fun t b => match b with Some b => Ok (inject_Z (t - 1989) / inject_Z (b - 1989)) | None => Ok 1 end.
(** prices double between 2009 and 2029: 10000 expected, 2500 obtained *)
Theorem C35_indexation_example_refuted : tfsa_accrual tf_K tf_ia tf_birth 2029 = Ok (5 * 500)
  /\ tf_ia 2029%Z (Some 2009%Z) = Ok (40 / 20).
Proof. split; vm_compute; reflexivity. Qed.
Print Assumptions C35_indexation_example_refuted.
(** an owner who is still 17 accrues a full year's room *)
Theorem C35_minor_accrues_refuted : forall K (ia : iadj) b y v, valid_date b -> ~ leap_born b -> rc_tfsa_age K = 18%Z ->
  (y - d_y b = 17)%Z -> dget Z.eqb (rc_tfsa K) y = Some v ->
  age_in_year b y = Ok 17%Z /\ tfsa_accrual K ia b y = Ok v.
Proof.
  intros K ia b y v Hv Hn H18 Hy Hg. rewrite (age_year_regular b y Hv Hn). split; [f_equal; exact Hy|].
  destruct (C35_accrual_partial K ia b y (y + 1 - d_y b)%Z (age_year_regular b (y + 1) Hv Hn)) as (_ & H & _). apply H; [lia|exact Hg].
Qed.
Print Assumptions C35_minor_accrues_refuted.

Lemma sumM_ok (f : Z -> res Q) (g : Z -> Q) l : (forall x, In x l -> f x = Ok (g x)) -> sumM (map f l) = Ok (Qsum (map g l)).
Proof.
  unfold sumM. intro H.
  assert (E : mapM (fun x => x) (map f l) = Ok (map g l)).
  { induction l as [|x l IH]; [reflexivity|]. cbn [map mapM]. rewrite (H x (or_introl eq_refl)). cbn [bind].
    rewrite IH by (intros; apply H; right; assumption). reflexivity. }
  rewrite E. reflexivity.
Qed.
Lemma zrange_in lo hi x : In x (zrange lo hi) <-> (lo <= x < hi)%Z.
Proof.
  unfold zrange. rewrite in_map_iff. split.
  - intros (k & <- & H). apply in_seq in H. lia.
  - intro H. exists (Z.to_nat (x - lo)). split; [lia|]. apply in_seq. lia.
Qed.
Lemma zrange_snoc lo hi : (lo <= hi)%Z -> zrange lo (hi + 1) = zrange lo hi ++ [hi].
Proof.
  intro H. unfold zrange. replace (Z.to_nat (hi + 1 - lo)) with (Z.to_nat (hi - lo) + 1)%nat by lia.
  rewrite seq_app, map_app. cbn. do 3 f_equal. lia.
Qed.
Lemma zrange_empty lo hi : (hi <= lo)%Z -> zrange lo hi = [].
Proof. intro H. unfold zrange. replace (Z.to_nat (hi - lo)) with O by lia. reflexivity. Qed.
(** Initial room: with no input, the accruals of every year from the later of the first listed
    year and the year the contributor turned 18; with an input for the first year, that input;
    with an input for an earlier year, that plus the accruals since the latest such year. *)
Theorem C35_initial_room : forall K ia owner contributor y0 a m acc,
  age_in_year contributor y0 = Ok a -> zminl (dkeys (rc_tfsa K)) = Some m ->
  (forall y, (y <= y0)%Z -> tfsa_accrual K ia owner y = Ok (acc y)) ->
  (tfsa_infer K ia owner contributor [] y0 = Ok (0 + accrued acc (Z.max (y0 - a + rc_tfsa_age K) m) y0)) /\
  (forall hist v, dget Z.eqb hist y0 = Some v -> tfsa_infer K ia owner contributor hist y0 = Ok v) /\
  (forall hist last v, dget Z.eqb hist y0 = None -> (last < y0)%Z -> dget Z.eqb hist last = Some v ->
     (forall y, In y (dkeys hist) -> (y < y0)%Z -> (y <= last)%Z) ->
     tfsa_infer K ia owner contributor hist y0 = Ok (v + accrued acc (last + 1) y0)).
Proof.
  intros K ia owner contributor y0 a m acc Ha Hm Hacc. unfold tfsa_infer, accrued. split; [|split].
  - cbn [dget]. rewrite Ha. cbn [bind]. rewrite Hm. cbn [bind].
    rewrite (sumM_ok _ acc); [reflexivity|]. intros x Hx. apply zrange_in in Hx. apply Hacc. lia.
  - intros hist v ->. reflexivity.
  - intros hist last v Hn Hlt Hv Hmax. rewrite Hn. destruct hist as [|kv l]; [discriminate|].
    assert (Hk : In last (dkeys (kv :: l))) by (apply dmem_keys; unfold dmem; rewrite Hv; reflexivity).
    pose proof (zmaxl_spec (filter (fun y => Z.ltb y y0) (dkeys (kv :: l)))) as S.
    assert (Hin : In last (filter (fun y => Z.ltb y y0) (dkeys (kv :: l)))) by (apply filter_In; split; [exact Hk|apply Z.ltb_lt; exact Hlt]).
    destruct (zmaxl (filter (fun y => Z.ltb y y0) (dkeys (kv :: l)))) as [mx|]; [|rewrite S in Hin; destruct Hin].
    destruct S as [S1 S2]. apply filter_In in S1. destruct S1 as [S1 S3]. apply Z.ltb_lt in S3.
    assert (mx = last) by (pose proof (S2 _ Hin); pose proof (Hmax _ S1 S3); lia). subst mx.
    unfold dget_r. rewrite Hv. cbn [bind].
    rewrite (sumM_ok _ acc); [reflexivity|]. intros x Hx. apply zrange_in in Hx. apply Hacc. lia.
Qed.
Print Assumptions C35_initial_room.
(** inputs for later years only: the account cannot be constructed *)
Theorem C35_future_input_refuted : forall K ia owner contributor hist y0, hist <> [] ->
  (forall y, In y (dkeys hist) -> (y0 < y)%Z) -> tfsa_infer K ia owner contributor hist y0 = Err ValueError.
Proof.
  intros K ia owner contributor hist y0 Hne H. unfold tfsa_infer.
  destruct (dget Z.eqb hist y0) as [v|] eqn:E.
  - exfalso. assert (Hk : In y0 (dkeys hist)) by (apply dmem_keys; unfold dmem; rewrite E; reflexivity). specialize (H _ Hk). lia.
  - destruct hist as [|kv l]; [congruence|].
    assert (F : filter (fun y => Z.ltb y y0) (dkeys (kv :: l)) = []).
    { destruct (filter (fun y => Z.ltb y y0) (dkeys (kv :: l))) as [|x r] eqn:F; [reflexivity|]. exfalso.
      assert (Hx : In x (filter (fun y => Z.ltb y y0) (dkeys (kv :: l)))) by (rewrite F; left; reflexivity).
      apply filter_In in Hx. destruct Hx as [H1 H2]. apply Z.ltb_lt in H2. specialize (H _ H1). lia. }
    rewrite F. reflexivity.
Qed.
Print Assumptions C35_future_input_refuted.
(** Opening an unused account a year earlier makes no difference, for owners who are at least 17
    (or at most 15) in the earlier year ... *)
Theorem C35_consistent_partial : forall K ia b y0 m acc, valid_date b -> ~ leap_born b -> rc_tfsa_age K = 18%Z ->
  zminl (dkeys (rc_tfsa K)) = Some m -> (m <= y0 + 1)%Z -> (y0 - d_y b <> 16)%Z ->
  (forall y, (y <= y0 + 1)%Z -> tfsa_accrual K ia b y = Ok (acc y)) ->
  exists r0 r1 r1', tfsa_infer K ia b b [] y0 = Ok r0 /\ tfsa_infer K ia b b [] (y0 + 1) = Ok r1 /\
    tfsa_next_room K ia b (Some r0) 0 0 y0 = Ok r1' /\ r1 == r1'.
Proof.
  intros K ia b y0 m acc Hv Hn H18 Hm Hm1 H16 Hacc.
  destruct (C35_initial_room K ia b b y0 (y0 - d_y b)%Z m acc (age_year_regular b y0 Hv Hn) Hm) as (E0 & _); [intros; apply Hacc; lia|].
  destruct (C35_initial_room K ia b b (y0 + 1) (y0 + 1 - d_y b)%Z m acc (age_year_regular b (y0 + 1) Hv Hn) Hm) as (E1 & _); [intros; apply Hacc; lia|].
  do 3 eexists. split; [exact E0|]. split; [exact E1|].
  unfold tfsa_next_room. rewrite (Hacc (y0 + 1)%Z) by lia. cbn [bind]. split; [reflexivity|].
  unfold accrued. rewrite H18.
  replace (y0 + 1 - (y0 + 1 - d_y b) + 18)%Z with (d_y b + 18)%Z by lia.
  replace (y0 - (y0 - d_y b) + 18)%Z with (d_y b + 18)%Z by lia.
  destruct (Z_le_gt_dec (Z.max (d_y b + 18) m) (y0 + 1)) as [L|L].
  - rewrite (zrange_snoc _ (y0 + 1)) by exact L. rewrite map_app, Qsum_app. cbn. ring.
  - rewrite !zrange_empty by lia. cbn [map Qsum].
    assert (A0 : acc (y0 + 1)%Z = 0).
    { destruct (C35_accrual_partial K ia b (y0 + 1) (y0 + 1 + 1 - d_y b)%Z (age_year_regular b (y0 + 1 + 1) Hv Hn)) as (H & _).
      specialize (H ltac:(lia)). rewrite (Hacc (y0 + 1)%Z) in H by lia. congruence. }
    rewrite A0. ring.
Qed.
Print Assumptions C35_consistent_partial.
(** ... but at 16 the earlier account ends up with a year's room too much *)
Theorem C35_consistent_refuted :
  ~ forall K ia b y0 m acc, valid_date b -> ~ leap_born b -> rc_tfsa_age K = 18%Z ->
    zminl (dkeys (rc_tfsa K)) = Some m -> (m <= y0 + 1)%Z ->
    (forall y, (y <= y0 + 1)%Z -> tfsa_accrual K ia b y = Ok (acc y)) ->
    exists r0 r1 r1', tfsa_infer K ia b b [] y0 = Ok r0 /\ tfsa_infer K ia b b [] (y0 + 1) = Ok r1 /\
      tfsa_next_room K ia b (Some r0) 0 0 y0 = Ok r1' /\ r1 == r1'.
Proof.
  intro H. set (b := {| d_y := 1994; d_m := 6; d_d := 15 |}). set (ia := (fun _ _ => Ok 1) : iadj).
  assert (Hv : valid_date b) by (unfold valid_date; cbn; lia). assert (Hn : ~ leap_born b) by (unfold leap_born; cbn; lia).
  destruct (H tf_K ia b 2010%Z 2009%Z (fun y => if Z.ltb (y + 1 - 1994) 18 then 0 else if Z.eqb y 2011 then 5500 else 5000)) as (r0 & r1 & r1' & E0 & E1 & E2 & V).
  - exact Hv.
  - exact Hn.
  - reflexivity.
  - reflexivity.
  - lia.
  - intros y Hy. unfold tfsa_accrual. rewrite (age_year_regular b (y + 1) Hv Hn). cbn [bind].
    change (d_y b) with 1994%Z. change (rc_tfsa_age tf_K) with 18%Z.
    destruct (Z.ltb_spec (y + 1 - 1994) 18) as [L|L]; [reflexivity|].
    assert (y = 2011)%Z by lia. subst y. vm_compute. reflexivity.
  - vm_compute in E0. injection E0 as <-. vm_compute in E1. injection E1 as <-. vm_compute in E2. injection E2 as <-. vm_compute in V. discriminate.
Qed.
Print Assumptions C35_consistent_refuted.
Example C35_sat : tfsa_accrual tf_K tf_ia {| d_y := 1994; d_m := 6; d_d := 15 |} 2010 = Ok 0
  /\ tfsa_accrual tf_K tf_ia tf_birth 2011 = Ok 5500 /\ tfsa_infer tf_K tf_ia tf_birth tf_birth [] 2011 = Ok 15500
  /\ tfsa_infer tf_K tf_ia tf_birth tf_birth [(2010%Z, 70)] 2011 = Ok 5570.
Proof. repeat split; vm_compute; reflexivity. Qed.
(** an unlisted year whose price index is a ratio, the base amount, the year of the 17th birthday, inferring room in
    two consecutive years, and a room given only for a later year *)
Example C35_sat_more : let minor := {| d_y := 1993; d_m := 6; d_d := 15 |} in
  age_in_year tf_birth (2029 + 1) = Ok 50%Z /\ dget Z.eqb (rc_tfsa tf_K) 2029%Z = None /\ tfsa_base tf_K tf_ia = Ok (2009%Z, 5000) /\
  (exists f g, tf_ia 2009%Z (Some 2029%Z) = Ok f /\ tf_ia 2029%Z (Some 2009%Z) = Ok g /\ f * g == 1) /\
  zminl (dkeys (rc_tfsa tf_K)) = Some 2009%Z /\ 5000 == inject_Z 10 * rc_tfsa_round tf_K /\
  valid_date minor /\ ~ leap_born minor /\ age_in_year minor 2010 = Ok 17%Z /\ tfsa_accrual tf_K tf_ia minor 2010 = Ok 5000 /\
  tfsa_infer tf_K tf_ia tf_birth tf_birth [] 2009 = Ok 5000 /\ tfsa_infer tf_K tf_ia tf_birth tf_birth [] 2010 = Ok 10000 /\
  tfsa_next_room tf_K tf_ia tf_birth (Some 5000) 0 0 2009 = Ok 10000 /\
  tfsa_infer tf_K tf_ia tf_birth tf_birth [(2015%Z, 70)] 2011 = Err ValueError.
Proof.
  cbv zeta. repeat match goal with |- _ /\ _ => split end; try (vm_compute; reflexivity).
  - eexists _, _. split; [reflexivity|]. split; vm_compute; reflexivity.
  - unfold valid_date. cbn. lia.
  - unfold leap_born. cbn. lia.
Qed.
