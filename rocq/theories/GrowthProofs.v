From Verif Require Import Base RBase GrowthModel.
From Coq Require Import Rpower.
Open Scope R_scope.

Lemma accum_pos t r n : 0 < accumulation_function t r n.
Proof. destruct n; cbn; [apply exp_pos|apply exp_pos]. Qed.
Lemma accum_0 r n : accumulation_function 0 r n = 1.
Proof.
  destruct n; cbn; unfold Rpower; rewrite ?Rmult_0_r, ?Rmult_0_l; apply exp_0.
Qed.
Lemma accum_plus s t r n : accumulation_function (s + t) r n = accumulation_function s r n * accumulation_function t r n.
Proof.
  destruct n; cbn; unfold Rpower; rewrite <- exp_plus; f_equal; ring.
Qed.
Lemma accum_opp t r n : accumulation_function (- t) r n * accumulation_function t r n = 1.
Proof. rewrite <- accum_plus. replace (- t + t) with 0 by ring. apply accum_0. Qed.
Lemma accum_zero_rate t n : accumulation_function t 0 n = 1.
Proof.
  destruct n; cbn.
  - unfold Rdiv. rewrite Rmult_0_l, Rplus_0_r. unfold Rpower. rewrite ln_1, Rmult_0_r. apply exp_0.
  - rewrite Rmult_0_l. apply exp_0.
Qed.
Lemma IZRpos n : 0 < IZR (Zpos n).
Proof. apply IZR_lt. reflexivity. Qed.
Lemma accum_one_year r n : rate_ok r (Some n) ->
  accumulation_function 1 r (Some n) = (1 + r / IZR (Zpos n)) ^ (Pos.to_nat n).
Proof.
  cbn. intro H. rewrite Rmult_1_r. rewrite <- Rpower_pow by exact H. f_equal.
  rewrite INR_IZR_INZ, positive_nat_Z. reflexivity.
Qed.
Lemma accum_annual r : -1 < r -> accumulation_function 1 r (Some 1%positive) = 1 + r.
Proof.
  intro H. rewrite accum_one_year by (cbn; lra). rewrite Pos2Nat.inj_1. cbn. lra.
Qed.
Lemma accum_years r n k : rate_ok r (Some n) ->
  accumulation_function (INR k) r (Some n) = (1 + r / IZR (Zpos n)) ^ (Pos.to_nat n * k).
Proof.
  intro H. induction k as [|k IH].
  - rewrite Nat.mul_0_r. cbn [INR]. rewrite accum_0. reflexivity.
  - rewrite S_INR, accum_plus, IH, accum_one_year by exact H.
    rewrite Nat.mul_succ_r, pow_add. ring.
Qed.
Lemma ln_base_pos r n : 0 < r -> 0 < ln (1 + r / IZR (Zpos n)).
Proof.
  intro H. rewrite <- ln_1. apply ln_increasing; [lra|].
  pose proof (IZRpos n). assert (0 < r / IZR (Zpos n)) by (apply Rdiv_lt_0_compat; lra). lra.
Qed.
Lemma ln_base_neg r n : rate_ok r (Some n) -> r < 0 -> ln (1 + r / IZR (Zpos n)) < 0.
Proof.
  cbn. intros Hb H. rewrite <- ln_1. apply ln_increasing; [exact Hb|].
  pose proof (IZRpos n). assert (0 < (- r) / IZR (Zpos n)) by (apply Rdiv_lt_0_compat; lra).
  unfold Rdiv in *. lra.
Qed.
Lemma accum_mono s t r n : 0 < r -> s < t -> accumulation_function s r n < accumulation_function t r n.
Proof.
  intros Hr Hst. destruct n as [n|]; cbn; unfold Rpower; apply exp_increasing.
  - pose proof (ln_base_pos r n Hr). pose proof (IZRpos n).
    apply Rmult_lt_compat_r; [lra|]. apply Rmult_lt_compat_l; lra.
  - apply Rmult_lt_compat_l; lra.
Qed.
Lemma accum_anti s t r n : rate_ok r n -> r < 0 -> s < t -> accumulation_function t r n < accumulation_function s r n.
Proof.
  intros Hok Hr Hst. destruct n as [n|]; cbn; unfold Rpower; apply exp_increasing.
  - pose proof (ln_base_neg r n Hok Hr). pose proof (IZRpos n).
    assert (IZR (Zpos n) * s < IZR (Zpos n) * t) by (apply Rmult_lt_compat_l; lra).
    apply Ropp_lt_cancel. rewrite !Ropp_mult_distr_r. apply Rmult_lt_compat_r; lra.
  - apply Ropp_lt_cancel. rewrite !Ropp_mult_distr_l. apply Rmult_lt_compat_l; lra.
Qed.
(** growth over a non-negative time at a non-negative rate is at least 1 *)
Lemma accum_ge1 t r n : 0 <= r -> 0 <= t -> 1 <= accumulation_function t r n.
Proof.
  intros Hr Ht. destruct (Req_dec r 0) as [->|Hr0]; [rewrite accum_zero_rate; lra|].
  destruct (Req_dec t 0) as [->|Ht0]; [rewrite accum_0; lra|].
  rewrite <- (accum_0 r n). left. apply accum_mono; lra.
Qed.

Lemma inverse_sound a r n t : rate_ok r n -> 0 < a ->
  accumulation_function_inverse a r n = Ok (Fin t) -> accumulation_function t r n = a.
Proof.
  intros Hok Ha. unfold accumulation_function_inverse.
  destruct (Rltb a 0) eqn:E1; [discriminate|]. destruct (Reqb r 0) eqn:E2; rb.
  - subst. destruct (Reqb a 1) eqn:E3; rb.
    + intro H; injection H as <-. subst. rewrite accum_zero_rate. reflexivity.
    + destruct (Rltb a 1); discriminate.
  - destruct (Reqb a 0) eqn:E3; rb; [discriminate|]. destruct n as [n|]; intro H; injection H as <-; cbn.
    + unfold Rpower. pose proof (IZRpos n).
      assert (Hl : ln (1 + r / IZR (Zpos n)) <> 0).
      { destruct (Rtotal_order r 0) as [Hr|[Hr|Hr]]; [pose proof (ln_base_neg r n Hok Hr); lra|contradiction|].
        pose proof (ln_base_pos r n Hr); lra. }
      rewrite <- (exp_ln a Ha) at 2. f_equal. field. split; [exact Hl|lra].
    + rewrite <- (exp_ln a Ha) at 2. f_equal. field. exact E2.
Qed.
Lemma inverse_complete t r n : rate_ok r n -> r <> 0 ->
  accumulation_function_inverse (accumulation_function t r n) r n = Ok (Fin t).
Proof.
  intros Hok Hr. pose proof (accum_pos t r n) as Hp. unfold accumulation_function_inverse.
  destruct (Rltb (accumulation_function t r n) 0) eqn:E1; rb; [lra|].
  destruct (Reqb r 0) eqn:E2; rb; [contradiction|].
  destruct (Reqb (accumulation_function t r n) 0) eqn:E3; rb; [lra|].
  destruct n as [n|]; cbn; unfold Rpower; rewrite ln_exp; do 2 f_equal.
  - pose proof (IZRpos n).
    assert (Hl : ln (1 + r / IZR (Zpos n)) <> 0).
    { destruct (Rtotal_order r 0) as [H0|[H0|H0]]; [pose proof (ln_base_neg r n Hok H0); lra|contradiction|].
      pose proof (ln_base_pos r n H0); lra. }
    field. split; [exact Hl|lra].
  - field. exact Hr.
Qed.
Lemma inverse_zero_rate a n : 0 <= a -> accumulation_function_inverse a 0 n =
  Ok (if Reqb a 1 then Fin 0 else if Rltb a 1 then MInf else PInf).
Proof.
  intro Ha. unfold accumulation_function_inverse. destruct (Rltb a 0) eqn:E; rb; [lra|].
  rewrite Reqb_refl. destruct (Reqb a 1); [reflexivity|]. destruct (Rltb a 1); reflexivity.
Qed.
Lemma inverse_rejects a r n : a < 0 -> accumulation_function_inverse a r n = Err ValueError.
Proof.
  intro H. unfold accumulation_function_inverse. destruct (Rltb a 0) eqn:E; rb; [reflexivity|lra].
Qed.
