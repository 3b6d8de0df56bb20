(** Properties C08-C13: utility/inflation.py and scenario.py. *)
From Verif Require Import Base BaseFacts InflationModel InflationSpec InflationProofs ScenarioModel ScenarioProofs.
From Coq Require Import Permutation.

(** ** C08 *)
Theorem C08_nearest_year : forall V (vals : dict Z V) year,
  match nearest_year vals year with
  | None => vals = []
  | Some k => In k (dkeys vals) /\
      (In year (dkeys vals) -> k = year) /\
      (~ In year (dkeys vals) ->
         (k < year /\ forall x, In x (dkeys vals) -> x < year -> x <= k) \/
         (year < k /\ forall x, In x (dkeys vals) -> k <= x))%Z
  end.
Proof. exact @nearest_year_spec. Qed.
Print Assumptions C08_nearest_year.

Theorem C08_nearest_year_order_independent : forall V (a b : dict Z V) year,
  Permutation a b -> nearest_year a year = nearest_year b year.
Proof. exact @nearest_year_perm. Qed.
Print Assumptions C08_nearest_year_order_independent.
Example C08_sat : nearest_year [(2005, 1); (1999, 2); (2001, 3)]%Z 2003 = Some 2001%Z /\
  nearest_year [(2005, 1); (1999, 2)]%Z 1990 = Some 1999%Z.
Proof. split; reflexivity. Qed.

(** ** C09 *)
Theorem C09_listed_year_unchanged : forall vals ia y v, dget Z.eqb vals y = Some v ->
  extend_inflation_adjusted vals ia y = Ok v.
Proof. exact extend_exact. Qed.
Print Assumptions C09_listed_year_unchanged.

Theorem C09_unlisted_year_scaled_once : forall vals ia y base v f,
  ~ In y (dkeys vals) -> base_for vals y base -> dget Z.eqb vals base = Some v ->
  ia y (Some base) = Ok f ->
  exists w, extend_inflation_adjusted vals ia y = Ok w /\ scaled v w f.
Proof.
  intros vals ia y base v f Hy (HI & Hb) Hv Hf.
  assert (HN : dget Z.eqb vals y = None).
  { destruct (dget Z.eqb vals y) as [w|] eqn:E; [|reflexivity]. exfalso. apply Hy.
    apply dget_In in E. destruct E as (k & Hk & Hin). apply Z.eqb_eq in Hk. subst k.
    apply in_map_iff. exists (y, w). auto. }
  apply (extend_adjusted vals ia y base v f HN); [|exact Hv|exact Hf].
  pose proof (@nearest_year_spec _ vals y) as S. destruct (nearest_year vals y) as [k|]; [|subst vals; contradiction].
  f_equal. destruct S as (Hk & _ & S). specialize (S Hy).
  destruct Hb as [[H1 H2]|[H1 H2]]; destruct S as [[S1 S2]|[S1 S2]].
  - specialize (H2 k Hk S1). specialize (S2 base HI H1). lia.
  - specialize (S2 base HI). lia.
  - specialize (H1 k Hk). lia.
  - specialize (H2 k Hk). specialize (S2 base HI). lia.
Qed.
Print Assumptions C09_unlisted_year_scaled_once.
Example C09_sat : let vals := [(2000%Z, VDict [(0, 1#10); (100, 2#10)])] in
  ~ In 2002%Z (dkeys vals) /\ base_for vals 2002 2000 /\
  extend_inflation_adjusted vals (fun _ _ => Ok 2) 2002 = Ok (VDict [(0, 2#10); (100, 4#10)]).
Proof.
  cbn zeta. split; [intros [H|[]]; discriminate|]. split; [|reflexivity].
  split; [left; reflexivity|left; split; [lia|]]. intros x [<- |[]] _. cbn. lia.
Qed.

(** ** C10 *)
Theorem C10_dict_adjustment_is_ratio : forall d, d <> [] ->
  exists f base, build_inflation_adjust (IDict d) = Ok f /\
    In base (dkeys d) /\ (forall y, In y (dkeys d) -> (base <= y)%Z) /\
    (forall t, f t None = f t (Some base)) /\
    (forall t b x y, dget Z.eqb d t = Some x -> dget Z.eqb d b = Some y -> ~ y == 0 ->
       f t (Some b) = Ok (x / y)) /\
    (forall t b, dget Z.eqb d t = None \/ dget Z.eqb d b = None -> f t (Some b) = Err KeyError).
Proof. exact build_dict_ratio. Qed.
Print Assumptions C10_dict_adjustment_is_ratio.

Theorem C10_dict_adjustment_composes : forall d f, build_inflation_adjust (IDict d) = Ok f ->
  (forall y v, dget Z.eqb d y = Some v -> ~ v == 0) ->
  forall a b c, In a (dkeys d) -> In b (dkeys d) -> In c (dkeys d) ->
  exists fab fbc fac faa, f a (Some b) = Ok fab /\ f b (Some c) = Ok fbc /\ f a (Some c) = Ok fac /\
    f a (Some a) = Ok faa /\ fac == fab * fbc /\ faa == 1.
Proof. exact build_dict_compose. Qed.
Print Assumptions C10_dict_adjustment_composes.

Theorem C10_other_arguments : forall f,
  (exists g, build_inflation_adjust INone = Ok g /\ forall t b, g t b = Ok 1) /\
  build_inflation_adjust (ICallable f) = Ok f /\
  build_inflation_adjust IOther = Err TypeError.
Proof. intro f. split; [exists (fun _ _ => Ok 1); split; reflexivity|split; reflexivity]. Qed.
Print Assumptions C10_other_arguments.
Example C10_sat : let d := [(2000%Z, 1); (2001%Z, 11#10); (1999%Z, 9#10)] in d <> [] /\
  (forall y v, dget Z.eqb d y = Some v -> ~ v == 0).
Proof.
  split; [discriminate|]. intros y v. cbn.
  repeat match goal with |- (if ?b then _ else _) = _ -> _ =>
    destruct b; [intro E; injection E as <-; lra|] end. discriminate.
Qed.

(** ** C11 *)
Theorem C11_inflation_composes : forall s rate lo hi, infl_ok s rate lo hi ->
  forall a b c, (lo <= a <= hi)%Z -> (lo <= b <= hi)%Z -> (lo <= c <= hi)%Z ->
  exists fba fcb fca fab faa,
    inflation_adjust s b (Some a) = Ok fba /\ inflation_adjust s c (Some b) = Ok fcb /\
    inflation_adjust s c (Some a) = Ok fca /\ inflation_adjust s a (Some b) = Ok fab /\
    inflation_adjust s a (Some a) = Ok faa /\
    fca == fba * fcb /\ fba * fab == 1 /\ faa == 1.
Proof. exact C11_main. Qed.
Print Assumptions C11_inflation_composes.

Theorem C11_one_year_factor : forall s rate lo hi y, infl_ok s rate lo hi -> (lo <= y < hi)%Z ->
  exists f, inflation_adjust s (y + 1) (Some y) = Ok f /\ f == 1 + rate y.
Proof. exact C11_step_lemma. Qed.
Print Assumptions C11_one_year_factor.

Theorem C11_default_base : forall s y,
  inflation_adjust s y None = inflation_adjust s y (Some (initial_year s)).
Proof. exact C11_default_lemma. Qed.
Print Assumptions C11_default_base.

(** a concrete scenario used as witness *)
Definition sc0 : scenario :=
  {| initial_year := 2000; num_years := 3; inflation := SDict [(2000%Z, 1#10); (2001%Z, 2#10); (2002%Z, 1#2)];
     stock_return := SConst (1#10); bond_return := SConst (1#20); other_return := SConst 0;
     management_fees := SConst 0 |}.
Example C11_sat : infl_ok sc0 (fun y => if Z.eqb y 2000 then 1#10 else if Z.eqb y 2001 then 2#10 else 1#2) 2000 2003.
Proof.
  intros y Hy. assert (H : (y = 2000 \/ y = 2001 \/ y = 2002)%Z) by lia.
  destruct H as [->|[->| ->]]; cbn; split; try reflexivity; lra.
Qed.

(** ** C12: refuted.  The documented meaning is the factor from base_year to year. *)
Theorem C12_inflation_adjustments_refuted : exists s base y d v f,
  inflation_adjustments s base = Ok d /\ dget Z.eqb d y = Some v /\
  inflation_adjust s y (Some base) = Ok f /\ (base < y)%Z /\ ~ v == f /\ v < 1 /\ 1 < f.
Proof.
  exists sc0, 2000%Z, 2001%Z. eexists; eexists; eexists.
  split; [vm_compute; reflexivity|]. split; [vm_compute; reflexivity|].
  split; [vm_compute; reflexivity|]. split; [lia|]. vm_compute. repeat split; discriminate.
Qed.
Print Assumptions C12_inflation_adjustments_refuted.

(** what the method does return: the reciprocal, for every year it covers *)
Theorem C12_adjustments_are_reciprocal_partial : forall s rate lo hi base d, infl_ok s rate lo hi ->
  (lo <= initial_year s)%Z -> (initial_year s + num_years s <= hi)%Z -> (lo <= base <= hi)%Z ->
  inflation_adjustments s base = Ok d ->
  map fst d = scenario_iter s /\
  forall y v, In (y, v) d -> exists f, inflation_adjust s y (Some base) = Ok f /\ v * f == 1.
Proof. exact adjustments_inverse. Qed.
Print Assumptions C12_adjustments_are_reciprocal_partial.
Example C12_sat : exists d, inflation_adjustments sc0 2001 = Ok d /\ dkeys d = [2000; 2001; 2002]%Z /\
  dget Z.eqb d 2001%Z = Some 1.
Proof. eexists. split; [vm_compute; reflexivity|]. split; reflexivity. Qed.

(** ** C13 *)
Theorem C13_scenario_years : forall init num i s b o f sc, Scenario init num i s b o f = Ok sc ->
  (1 <= num)%Z /\ scenario_len sc = num /\ List.length (scenario_iter sc) = Z.to_nat num /\
  (forall k, (k < Z.to_nat num)%nat -> nth_error (scenario_iter sc) k = Some (init + Z.of_nat k)%Z).
Proof. exact scenario_iter_spec. Qed.
Print Assumptions C13_scenario_years.
Theorem C13_scenario_rejects_no_years : forall init num i s b o f,
  (num < 1)%Z -> Scenario init num i s b o f = Err ValueError.
Proof. exact scenario_rejects. Qed.
Print Assumptions C13_scenario_rejects_no_years.
(** every series of the scenario says what its own argument says, for every year *)
Theorem C13_series : forall init num i s b o f sc, Scenario init num i s b o f = Ok sc ->
  says i init (series_get (inflation sc)) /\ says s init (series_get (stock_return sc)) /\
  says b init (series_get (bond_return sc)) /\ says o init (series_get (other_return sc)) /\
  says f init (series_get (management_fees sc)).
Proof.
  assert (H : forall a init r, build_dict a init = Ok r -> says a init (series_get r)).
  { intros a init r E. destruct a as [|d|l|q]; cbn in E; try discriminate; injection E as <-; cbn.
    - intro y. reflexivity.
    - intro y. destruct (build_dict_list l init) as (s & Es & H1 & H2). injection Es as <-. cbn in H1, H2.
      destruct (Z.leb_spec init y) as [L|L].
      + destruct (nth_error l (Z.to_nat (y - init))) as [v|] eqn:E.
        * specialize (H1 _ _ E). rewrite Z2Nat.id in H1 by lia. replace (init + (y - init))%Z with y in H1 by lia. exact H1.
        * apply H2. right. apply nth_error_None in E. lia.
      + apply H2. left. exact L.
    - reflexivity. }
  intros init num i s b o f sc E. unfold Scenario in E. destruct (num <? 1)%Z; [discriminate|].
  destruct (build_dict i init) as [i'|] eqn:Ei; [cbn in E|discriminate].
  destruct (build_dict s init) as [s'|] eqn:Es; [cbn in E|discriminate].
  destruct (build_dict b init) as [b'|] eqn:Eb; [cbn in E|discriminate].
  destruct (build_dict o init) as [o'|] eqn:Eo; [cbn in E|discriminate].
  destruct (build_dict f init) as [f'|] eqn:Ef; [cbn in E|discriminate].
  injection E as <-. cbn. auto 10.
Qed.
Print Assumptions C13_series.
Example C13_sat : exists sc, Scenario 2000 3 (SAList [1#10; 2#10]) (SAScalar 1) (SAScalar 1) (SAScalar 1) (SAScalar 0) = Ok sc
  /\ scenario_iter sc = [2000; 2001; 2002]%Z.
Proof. eexists. split; reflexivity. Qed.
