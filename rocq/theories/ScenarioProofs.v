From Verif Require Import Base BaseFacts ScenarioModel InflationSpec.
From Coq Require Import Qfield.

Fixpoint prod1 (rate : Z -> Q) (ys : list Z) : Q :=
  match ys with [] => 1 | y :: r => (1 + rate y) * prod1 rate r end.

Lemma prod1_app rate l1 l2 : prod1 rate (l1 ++ l2) == prod1 rate l1 * prod1 rate l2.
Proof. induction l1; cbn; [ring|]. rewrite IHl1. ring. Qed.

Lemma zrange2_In a b y : In y (zrange2 a b) <-> (a <= y < b)%Z.
Proof.
  unfold zrange2. rewrite in_map_iff. split.
  - intros (k & <- & H). apply in_seq in H. lia.
  - intros H. exists (Z.to_nat (y - a)). split; [lia|]. apply in_seq. lia.
Qed.
Lemma seq_shift_map (a : Z) n m : map (fun k => a + Z.of_nat k)%Z (seq n m)
  = map (fun k => (a + Z.of_nat n) + Z.of_nat k)%Z (seq 0 m).
Proof.
  revert n; induction m as [|m IH]; intro n; cbn; [reflexivity|].
  f_equal; [lia|]. rewrite (IH (S n)), <- (seq_shift m 0), map_map.
  apply map_ext. intro k. lia.
Qed.
Lemma zrange2_split a b c : (a <= b <= c)%Z -> zrange2 a c = zrange2 a b ++ zrange2 b c.
Proof.
  intro H. unfold zrange2.
  replace (Z.to_nat (c - a)) with (Z.to_nat (b - a) + Z.to_nat (c - b))%nat by lia.
  rewrite seq_app, map_app. f_equal. cbn [plus].
  rewrite seq_shift_map. apply map_ext. intro k. lia.
Qed.
Lemma zrange2_nil a : zrange2 a a = [].
Proof. unfold zrange2. rewrite Z.sub_diag. reflexivity. Qed.
Lemma zrange2_one a : zrange2 a (a + 1) = [a].
Proof. unfold zrange2. replace (a + 1 - a)%Z with 1%Z by lia. change (Z.to_nat 1) with 1%nat. cbn [seq map]. f_equal. lia. Qed.

Lemma accum_loop_ok s rate : forall ys acc,
  (forall y, In y ys -> series_get (inflation s) y = Ok (rate y)) ->
  exists q, accum_loop s acc ys = Ok q /\ q == acc * prod1 rate ys.
Proof.
  induction ys as [|y r IH]; intros acc H; cbn.
  - exists acc. split; [reflexivity|ring].
  - unfold discount_rate. rewrite (H y) by (left; reflexivity). cbn [bind].
    destruct (IH (acc * (1 + rate y))) as (q & E & Hq); [intros; apply H; right; assumption|].
    exists q. split; [exact E|]. rewrite Hq. ring.
Qed.
Lemma prod1_nz rate ys : (forall y, In y ys -> ~ 1 + rate y == 0) -> ~ prod1 rate ys == 0.
Proof.
  induction ys as [|y r IH]; cbn; intros H; [lra|].
  intro E. apply Qmult_integral in E. destruct E as [E|E].
  - apply (H y); auto.
  - apply IH; auto.
Qed.

(** forward and backward factors *)
Definition factor (rate : Z -> Q) (a b : Z) : Q :=
  if Z.leb a b then prod1 rate (zrange2 a b) else / prod1 rate (zrange2 b a).

Lemma accumulation_ok s rate lo hi a b : infl_ok s rate lo hi ->
  (lo <= a <= hi)%Z -> (lo <= b <= hi)%Z ->
  exists q, accumulation_function s a b = Ok q /\ q == factor rate a b.
Proof.
  intros H Ha Hb. unfold accumulation_function, factor. destruct (Z.leb_spec a b).
  - destruct (accum_loop_ok s rate (zrange2 a b) 1) as (q & E & Hq).
    { intros y Hy. apply zrange2_In in Hy. apply (H y). lia. }
    exists q. split; [exact E|]. rewrite Hq. ring.
  - destruct (accum_loop_ok s rate (zrange2 b a) 1) as (q & E & Hq).
    { intros y Hy. apply zrange2_In in Hy. apply (H y). lia. }
    rewrite E. cbn [bind]. unfold qdiv.
    assert (Hnz : ~ q == 0).
    { rewrite Hq. intro E0. apply (prod1_nz rate (zrange2 b a)); [|lra].
      intros y Hy. apply zrange2_In in Hy. apply (H y). lia. }
    destruct (Qeq_bool q 0) eqn:E0; qb; [contradiction|].
    exists (1 / q). split; [reflexivity|]. rewrite Hq. unfold Qdiv. rewrite !Qmult_1_l. reflexivity.
Qed.

Lemma prod_nz s rate lo hi a b : infl_ok s rate lo hi -> (lo <= a)%Z -> (b <= hi)%Z ->
  ~ prod1 rate (zrange2 a b) == 0.
Proof.
  intros H Ha Hb. apply prod1_nz. intros y Hy. apply zrange2_In in Hy. apply (H y). lia.
Qed.

Lemma factor_self rate a : factor rate a a == 1.
Proof. unfold factor. rewrite Z.leb_refl, zrange2_nil. reflexivity. Qed.
Lemma factor_step rate a : factor rate a (a + 1) == 1 + rate a.
Proof. unfold factor. destruct (Z.leb_spec a (a+1)); [|lia]. rewrite zrange2_one. cbn. ring. Qed.

Lemma factor_compose s rate lo hi a b c : infl_ok s rate lo hi ->
  (lo <= a <= hi)%Z -> (lo <= b <= hi)%Z -> (lo <= c <= hi)%Z ->
  factor rate a c == factor rate a b * factor rate b c.
Proof.
  intros H Ha Hb Hc. unfold factor.
  assert (N : forall x y, (lo <= x)%Z -> (y <= hi)%Z -> ~ prod1 rate (zrange2 x y) == 0)
    by (intros; eapply prod_nz; eauto).
  destruct (Z.leb_spec a b), (Z.leb_spec b c), (Z.leb_spec a c); try lia.
  - rewrite (zrange2_split a b c), prod1_app by lia. reflexivity.
  - rewrite (zrange2_split a c b), prod1_app by lia. field. apply N; lia.
  - rewrite (zrange2_split c a b), prod1_app by lia. field. split; apply N; lia.
  - rewrite (zrange2_split b a c), prod1_app by lia. field. apply N; lia.
  - rewrite (zrange2_split b c a), prod1_app by lia. field. split; apply N; lia.
  - rewrite (zrange2_split c b a), prod1_app by lia. field. split; apply N; lia.
Qed.

Lemma factor_inv s rate lo hi a b : infl_ok s rate lo hi ->
  (lo <= a <= hi)%Z -> (lo <= b <= hi)%Z -> factor rate a b * factor rate b a == 1.
Proof. intros. rewrite <- (factor_compose s rate lo hi a b a) by assumption. apply factor_self. Qed.

(** API-level statements *)
Lemma C11_main s rate lo hi : infl_ok s rate lo hi ->
  forall a b c, (lo <= a <= hi)%Z -> (lo <= b <= hi)%Z -> (lo <= c <= hi)%Z ->
  exists fba fcb fca fab faa,
    inflation_adjust s b (Some a) = Ok fba /\ inflation_adjust s c (Some b) = Ok fcb /\
    inflation_adjust s c (Some a) = Ok fca /\ inflation_adjust s a (Some b) = Ok fab /\
    inflation_adjust s a (Some a) = Ok faa /\
    fca == fba * fcb /\ fba * fab == 1 /\ faa == 1.
Proof.
  intros H a b c Ha Hb Hc. unfold inflation_adjust.
  destruct (accumulation_ok s rate lo hi a b H Ha Hb) as (fba & E1 & H1).
  destruct (accumulation_ok s rate lo hi b c H Hb Hc) as (fcb & E2 & H2).
  destruct (accumulation_ok s rate lo hi a c H Ha Hc) as (fca & E3 & H3).
  destruct (accumulation_ok s rate lo hi b a H Hb Ha) as (fab & E4 & H4).
  destruct (accumulation_ok s rate lo hi a a H Ha Ha) as (faa & E5 & H5).
  exists fba, fcb, fca, fab, faa. repeat (split; [assumption|]).
  rewrite H1, H2, H3, H4, H5. split; [|split].
  - eapply factor_compose; eauto.
  - eapply factor_inv; eauto.
  - apply factor_self.
Qed.
Lemma C11_step_lemma s rate lo hi y : infl_ok s rate lo hi -> (lo <= y < hi)%Z ->
  exists f, inflation_adjust s (y + 1) (Some y) = Ok f /\ f == 1 + rate y.
Proof.
  intros H Hy. destruct (accumulation_ok s rate lo hi y (y+1) H) as (f & E & Hf); try lia.
  exists f. split; [exact E|]. rewrite Hf. apply factor_step.
Qed.
Lemma C11_default_lemma s y : inflation_adjust s y None = inflation_adjust s y (Some (initial_year s)).
Proof. reflexivity. Qed.

Lemma adjustments_inverse s rate lo hi base d : infl_ok s rate lo hi ->
  (lo <= initial_year s)%Z -> (initial_year s + num_years s <= hi)%Z -> (lo <= base <= hi)%Z ->
  inflation_adjustments s base = Ok d ->
  map fst d = scenario_iter s /\
  forall y v, In (y, v) d -> exists f, inflation_adjust s y (Some base) = Ok f /\ v * f == 1.
Proof.
  intros H Hlo Hhi Hb. unfold inflation_adjustments.
  assert (Hr : forall y, In y (scenario_iter s) -> (lo <= y <= hi)%Z).
  { intros y Hy. apply zrange2_In in Hy. lia. }
  revert d. induction (scenario_iter s) as [|y r IH]; intros d E; cbn in E.
  - injection E as <-. split; [reflexivity|contradiction].
  - assert (Hy : (lo <= y <= hi)%Z) by (apply Hr; left; reflexivity).
    destruct (accumulation_ok s rate lo hi y base H Hy Hb) as (q & Eq & Hq).
    rewrite Eq in E. cbn [bind] in E.
    destruct (inflation_adjustments_loop s base r) as [d'|] eqn:E'; [|discriminate].
    cbn [bind] in E. injection E as <-.
    destruct (IH (fun z Hz => Hr z (or_intror Hz)) d' eq_refl) as [K V].
    split; [cbn; rewrite K; reflexivity|].
    intros y' v [HE|HI]; [|auto]. injection HE as <- <-.
    destruct (accumulation_ok s rate lo hi base y H Hb Hy) as (f & Ef & Hf).
    exists f. split; [exact Ef|]. rewrite Hq, Hf. eapply factor_inv; eauto.
Qed.

(** C13 *)
Lemma scenario_iter_spec init num i s b o f sc : Scenario init num i s b o f = Ok sc ->
  (1 <= num)%Z /\ scenario_len sc = num /\ List.length (scenario_iter sc) = Z.to_nat num /\
  (forall k, (k < Z.to_nat num)%nat -> nth_error (scenario_iter sc) k = Some (init + Z.of_nat k)%Z).
Proof.
  unfold Scenario. destruct (Z.ltb_spec num 1); [discriminate|].
  destruct (build_dict i init); [|discriminate]. destruct (build_dict s init); [|discriminate].
  destruct (build_dict b init); [|discriminate]. destruct (build_dict o init); [|discriminate].
  destruct (build_dict f init); [|discriminate]. cbn. intro E; injection E as <-. cbn.
  unfold scenario_len, scenario_iter, zrange2. cbn.
  replace (init + num - init)%Z with num by lia. split; [lia|]. split; [reflexivity|].
  split; [rewrite map_length, seq_length; reflexivity|].
  intros k Hk. erewrite map_nth_error; [reflexivity|].
  rewrite (nth_error_nth' _ 0%nat) by (rewrite seq_length; exact Hk). rewrite seq_nth by exact Hk. reflexivity.
Qed.
Lemma scenario_rejects init num i s b o f : (num < 1)%Z -> Scenario init num i s b o f = Err ValueError.
Proof. intro H. unfold Scenario. destruct (Z.ltb_spec num 1); [reflexivity|lia]. Qed.

Lemma enum_from_get : forall l y0 y,
  dget Z.eqb (enum_from y0 l) y =
    if (Z.leb y0 y && Z.ltb y (y0 + Z.of_nat (List.length l)))%bool
    then nth_error l (Z.to_nat (y - y0)) else None.
Proof.
  induction l as [|x r IH]; intros y0 y; cbn [enum_from dget List.length].
  - destruct (Z.leb_spec y0 y), (Z.ltb_spec y (y0 + Z.of_nat 0)); cbn; try reflexivity; lia.
  - destruct (Z.eqb_spec y y0) as [->|Hne].
    + rewrite Z.leb_refl, Z.sub_diag. destruct (Z.ltb_spec y0 (y0 + Z.of_nat (S (List.length r)))); [reflexivity|lia].
    + rewrite IH.
      destruct (Z.leb_spec (y0 + 1) y), (Z.leb_spec y0 y),
        (Z.ltb_spec y (y0 + 1 + Z.of_nat (List.length r))), (Z.ltb_spec y (y0 + Z.of_nat (S (List.length r))));
        cbn [andb]; try lia; try reflexivity.
      replace (Z.to_nat (y - y0)) with (S (Z.to_nat (y - (y0 + 1)))) by lia. reflexivity.
Qed.

Lemma build_dict_list l init :
  exists s, build_dict (SAList l) init = Ok s /\
  (forall k x, nth_error l k = Some x -> series_get s (init + Z.of_nat k) = Ok x) /\
  (forall y, (y < init \/ init + Z.of_nat (List.length l) <= y)%Z -> series_get s y = Err KeyError).
Proof.
  exists (SDict (enum_from init l)). split; [reflexivity|]. cbn [series_get]. unfold dget_r. split.
  - intros k x Hx. rewrite enum_from_get.
    assert (k < List.length l)%nat by (apply nth_error_Some; congruence).
    destruct (Z.leb_spec init (init + Z.of_nat k)), (Z.ltb_spec (init + Z.of_nat k) (init + Z.of_nat (List.length l))); try lia.
    cbn. replace (Z.to_nat (init + Z.of_nat k - init)) with k by lia. rewrite Hx. reflexivity.
  - intros y Hy. rewrite enum_from_get.
    destruct (Z.leb_spec init y), (Z.ltb_spec y (init + Z.of_nat (List.length l))); cbn; try reflexivity; lia.
Qed.
