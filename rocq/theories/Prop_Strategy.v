(** C50, C51, C77, C78: asset allocation and strategy selection. *)
From Verif Require Import Base BaseFacts InflationModel PersonModel ScenarioModel StrategyModel.
From Coq Require Import Lia.
Local Open Scope Q_scope.

(** ** specification vocabulary *)
(** a complete portfolio within the configured equity bounds *)
Definition complete (a : alloc) : Prop := stocks a + bonds a + other a == 1.
Definition within (lo hi x : Q) : Prop := lo <= x /\ x <= hi.
(** the nearest share to x within the bounds *)
Definition nearest_in (lo hi x y : Q) : Prop :=
  within lo hi y /\ (within lo hi x -> y == x) /\ (hi < x -> y == hi) /\ (x < lo -> y == lo).
(** the two strategies shipped with the program *)
Definition shipped (k : akind) : Prop := k = NAge \/ k = Transition.
Definition constructed (p : aparams) : Prop := AllocationParams p = Ok p.

Lemma constructed_spec p : constructed p <-> a_min p <= a_max p.
Proof. unfold constructed, AllocationParams. destruct (Qlt_bool _ _) eqn:E; qb; split; intro H; try congruence; lra. Qed.
Lemma qdiv_same a b q : qdiv (a * b) (b + 0) = Ok q -> q == a.
Proof.
  unfold qdiv. destruct (Qeq_bool _ _) eqn:E; [discriminate|]. intro H. injection H as <-. qb.
  field. lra.
Qed.
Lemma qdiv_zero b q : qdiv (b * 0) (b + 0) = Ok q -> q == 0.
Proof. unfold qdiv. destruct (Qeq_bool _ _) eqn:E; [discriminate|]. intro H. injection H as <-. qb. field. lra. Qed.
Lemma qdiv_0num a c q : qdiv (a * 0) c = Ok q -> q == 0.
Proof. unfold qdiv. destruct (Qeq_bool _ _) eqn:E; [discriminate|]. intro H. injection H as <-. qb. field. lra. Qed.

(** balancing a two-asset allocation *)
Lemma balance_two p x a : a_min p <= a_max p -> balance p {| stocks := x; bonds := 1 - x; other := 0 |} = Ok a ->
  complete a /\ nearest_in (a_min p) (a_max p) x (stocks a) /\ other a == 0.
Proof.
  unfold balance, complete, nearest_in, within. cbn [stocks bonds other]. intros Hm.
  destruct (Qlt_bool (a_max p) x) eqn:E1.
  - destruct (qdiv _ _) as [b|] eqn:Eb; cbn [bind]; [|discriminate]. apply qdiv_same in Eb.
    destruct (qdiv _ _) as [o|] eqn:Eo; cbn [bind]; [|discriminate]. apply qdiv_0num in Eo.
    intro H; injection H as <-. cbn [stocks bonds other]. qb. rewrite Eb, Eo. repeat split; intros; lra.
  - destruct (Qlt_bool x (a_min p)) eqn:E2.
    + destruct (qdiv _ _) as [b|] eqn:Eb; cbn [bind]; [|discriminate]. apply qdiv_same in Eb.
      destruct (qdiv _ _) as [o|] eqn:Eo; cbn [bind]; [|discriminate]. apply qdiv_0num in Eo.
      intro H; injection H as <-. cbn [stocks bonds other]. qb. rewrite Eb, Eo. repeat split; intros; lra.
    + intro H; injection H as <-. cbn [stocks bonds other]. qb. repeat split; intros; lra.
Qed.
Lemma raw_two k p age r a : shipped k -> raw_allocation k p age r = Ok a ->
  exists x, a = {| stocks := x; bonds := 1 - x; other := 0 |}.
Proof.
  intros [-> | ->]; cbn [raw_allocation]; unfold n_minus_age, transition_to_const.
  - destruct (a_adjust p); [destruct r|]; cbn [bind]; try discriminate; intro H; injection H as <-; eexists; reflexivity.
  - destruct (a_adjust p); [destruct r|]; cbn [bind]; try discriminate;
      repeat match goal with |- (if ?c then _ else _) = _ -> _ => destruct c end;
      try (destruct (qdiv _ _); cbn [bind]); try discriminate; intro H; injection H as <-; eexists; reflexivity.
Qed.

(** ** C50 *)
(** whatever allocation a shipped strategy returns is complete, holds nothing but stocks and bonds,
    and its equity share is within the configured bounds *)
Theorem C50_allocation_complete_and_bounded_partial : forall k p age r a,
  shipped k -> constructed p -> allocate k p age r = Ok a ->
  complete a /\ within (a_min p) (a_max p) (stocks a) /\ other a == 0.
Proof.
  intros k p age r a Hk Hp%constructed_spec H. unfold allocate in H.
  destruct (raw_allocation k p age r) as [b|] eqn:E; cbn [bind] in H; [|discriminate].
  apply raw_two in E; [|exact Hk]. destruct E as [x ->]. apply balance_two in H; [|exact Hp].
  destruct H as (A & (B & _) & C). tauto.
Qed.
Print Assumptions C50_allocation_complete_and_bounded_partial.
(** the wished equity share: n - age percent for "n-age"; for "Transition to constant" the maximum
    until [period] years before retirement, then a straight line down to the target at retirement *)
Definition n_age_share (p : aparams) (age retire : Q) : Q :=
  (a_target p - (if a_adjust p then age - (retire - inject_Z (a_std_age p)) else age)) / 100.
Definition glide_share (p : aparams) (age retire x : Q) : Prop :=
  let R := if a_adjust p then retire else inject_Z (a_std_age p) in
  let T := inject_Z (a_period p) in
  (age <= R - T -> x == a_max p) /\
  (R - T < age -> R <= age -> x == qmax (a_min p) (a_target p)) /\
  (R - T < age -> age < R -> (x - a_target p) * T == (a_max p - a_target p) * (R - age)).
(** and the strategies return that share, brought within the bounds *)
Theorem C50_n_age_follows_rule : forall p age r a, constructed p -> allocate NAge p age (Some r) = Ok a ->
  nearest_in (a_min p) (a_max p) (n_age_share p age r) (stocks a).
Proof.
  intros p age r a Hp%constructed_spec H. unfold allocate in H. cbn [raw_allocation] in H. unfold n_minus_age in H.
  assert (E : exists x, balance p {| stocks := x; bonds := 1 - x; other := 0 |} = Ok a /\ x == n_age_share p age r).
  { unfold n_age_share. destruct (a_adjust p); cbn [bind] in H; eexists; split; try exact H; unfold Qdiv; ring. }
  destruct E as (x & E & Ex). apply balance_two in E; [|exact Hp]. destruct E as (_ & B & _).
  unfold nearest_in, within in *. rewrite <- Ex. exact B.
Qed.
Print Assumptions C50_n_age_follows_rule.
Theorem C50_transition_follows_rule : forall p age r a, constructed p -> allocate Transition p age (Some r) = Ok a ->
  exists x, glide_share p age r x /\ nearest_in (a_min p) (a_max p) x (stocks a).
Proof.
  intros p age r a Hp%constructed_spec H. unfold allocate in H. cbn [raw_allocation] in H. unfold transition_to_const in H.
  set (R := if a_adjust p then r else inject_Z (a_std_age p)).
  assert (ER : (if a_adjust p then Ok r else Ok (inject_Z (a_std_age p))) = Ok R) by (unfold R; destruct (a_adjust p); reflexivity).
  rewrite ER in H. cbn [bind] in H. unfold glide_share. fold R.
  destruct (Qle_bool age _) eqn:E1; [|destruct (Qle_bool R age) eqn:E2].
  - cbn [bind] in H. apply balance_two in H; [|exact Hp]. eexists. split; [|apply H]. qb. repeat split; intros; lra.
  - cbn [bind] in H. apply balance_two in H; [|exact Hp]. eexists. split; [|apply H]. qb. split; [intros; lra|]. split; [intros; reflexivity|intros; lra].
  - unfold qdiv in H. destruct (Qeq_bool _ 0) eqn:E3; cbn [bind] in H; [discriminate|].
    apply balance_two in H; [|exact Hp]. eexists. split; [|apply H]. qb. split; [intros; lra|]. split; [intros; lra|]. intros. field. exact E3.
Qed.
Print Assumptions C50_transition_follows_rule.
(** exactly when no allocation is returned: a missing retirement age (ValueError), or -- the defect
    below -- an all-equity wish that must be trimmed (ZeroDivisionError) *)
Theorem C50_failures : forall k p age r e, shipped k -> constructed p -> allocate k p age r = Err e ->
  (e = ValueError /\ a_adjust p = true /\ r = None) \/
  (e = ZeroDivisionError /\ exists a, raw_allocation k p age r = Ok a /\ stocks a == 1 /\ (a_max p < 1 \/ 1 < a_min p)).
Proof.
  intros k p age r e Hk Hp%constructed_spec H. unfold allocate in H.
  destruct (raw_allocation k p age r) as [b|e'] eqn:E; cbn [bind] in H.
  - right. pose proof (raw_two _ _ _ _ _ Hk E) as [x ->]. revert H. unfold balance. cbn [stocks bonds other].
    unfold qdiv. destruct (Qlt_bool (a_max p) x) eqn:E1; [|destruct (Qlt_bool x (a_min p)) eqn:E2; [|discriminate]];
      destruct (Qeq_bool (1 - x + 0) 0) eqn:E3; cbn [bind]; try discriminate; intro H; injection H as <-; qb;
      (split; [reflexivity|]); eexists; (split; [reflexivity|]); cbn [stocks]; (split; [lra|]); first [left; lra|right; lra].
  - left. injection H as <-. destruct Hk as [-> | ->]; cbn [raw_allocation] in E; unfold n_minus_age, transition_to_const in E.
    + destruct (a_adjust p); [destruct r|]; cbn [bind] in E; try discriminate. injection E as <-. tauto.
    + set (R := if a_adjust p then _ else _) in E.
      destruct R as [R'|e2] eqn:ER.
      * cbn [bind] in E. destruct (Qle_bool age _) eqn:E1; [discriminate|]. destruct (Qle_bool R' age) eqn:E2; [discriminate|].
        unfold qdiv in E. destruct (Qeq_bool _ 0) eqn:E3; [|discriminate]. exfalso. qb. lra.
      * cbn [bind] in E. injection E as <-. unfold R in ER. destruct (a_adjust p); [|discriminate]. destruct r; [discriminate|]. injection ER as <-. tauto.
Qed.
Print Assumptions C50_failures.
Definition demo_ap : aparams := {| a_target := 120; a_min := 1 # 10; a_max := 9 # 10; a_std_age := 65; a_period := 20; a_adjust := true |}.
(** a 20-year-old on "120-age" with at most 90% equity gets an exception instead of (90%, 10%, 0) *)
Theorem C50_all_equity_refuted : exists k p age r, shipped k /\ constructed p /\ allocate k p age (Some r) = Err ZeroDivisionError.
Proof. exists NAge, demo_ap, 20, 65. split; [left; reflexivity|]. split; reflexivity. Qed.
Print Assumptions C50_all_equity_refuted.
(** an additional strategy that uses the third asset class and starts from a complete allocation *)
Theorem C50_custom_trimmed : forall f p age r a b, constructed p -> f age r = Ok a -> complete a ->
  (a_min p <= stocks a \/ other a == 0) -> allocate (Custom f) p age r = Ok b -> complete b /\ within (a_min p) (a_max p) (stocks b).
Proof.
  intros f p age r a b Hp%constructed_spec Hf Hc Ho H. unfold allocate in H. cbn [raw_allocation] in H. rewrite Hf in H. cbn [bind] in H.
  unfold complete, within in *. revert H. unfold balance, qdiv.
  destruct (Qlt_bool (a_max p) (stocks a)) eqn:E1; [|destruct (Qlt_bool (stocks a) (a_min p)) eqn:E2].
  - destruct (Qeq_bool (bonds a + other a) 0) eqn:E3; cbn [bind]; [discriminate|]. intro H; injection H as <-. cbn [stocks bonds other]. qb.
    split; [|lra]. transitivity (a_max p + (bonds a + other a) + (stocks a - a_max p)); [|lra]. field. exact E3.
  - destruct (Qeq_bool (bonds a + other a) 0) eqn:E3; cbn [bind]; [discriminate|]. intro H; injection H as <-. cbn [stocks bonds other]. qb.
    destruct Ho as [Ho|Ho]; [lra|]. rewrite Ho in *.
    split; [|lra]. transitivity (a_min p + bonds a - (a_min p - stocks a)); [field; lra|lra].
  - intro H; injection H as <-. qb. split; [exact Hc|lra].
Qed.
Print Assumptions C50_custom_trimmed.
(** topping up equity when the third class is held uses the wrong bound: the result is not complete *)
Theorem C50_custom_topped_up_refuted : exists f p age r a b, constructed p /\ f age r = Ok a /\ complete a /\
  allocate (Custom f) p age r = Ok b /\ ~ complete b.
Proof.
  exists (fun _ _ => Ok {| stocks := 0; bonds := 1 # 2; other := 1 # 2 |}), demo_ap, 20, None. do 2 eexists.
  split; [reflexivity|]. split; [reflexivity|]. split; [reflexivity|]. split; [vm_compute; reflexivity|].
  unfold complete. vm_compute. discriminate.
Qed.
Print Assumptions C50_custom_topped_up_refuted.
Example C50_sat : exists a, allocate NAge demo_ap 50 (Some 65) = Ok a /\ stocks a == 7 # 10.
Proof. eexists. split; vm_compute; reflexivity. Qed.
Example C50_sat2 : exists a, allocate Transition {| a_target := 1 # 2; a_min := 1 # 10; a_max := 9 # 10; a_std_age := 65; a_period := 20; a_adjust := false |} 55 None = Ok a /\ stocks a == 7 # 10.
Proof. eexists. split; vm_compute; reflexivity. Qed.

(** ** C78 *)
Lemma nearest_mono lo hi x y x' y' : lo <= hi -> nearest_in lo hi x y -> nearest_in lo hi x' y' -> x <= x' -> y <= y'.
Proof.
  intros Hl (A & B & C & D) (A' & B' & C' & D') Hx. unfold within in *.
  destruct (Qlt_le_dec hi x); [rewrite (C q); assert (hi < x') by lra; rewrite (C' H); lra|].
  destruct (Qlt_le_dec x' lo); [assert (x < lo) by lra; rewrite (D H); lra|].
  destruct (Qlt_le_dec x lo); [rewrite (D q1); lra|].
  destruct (Qlt_le_dec hi x'); [rewrite (C' q2); lra|].
  rewrite B, B' by lra. exact Hx.
Qed.
Lemma glide_mono p age age' r x x' y y' : a_min p <= a_max p -> age <= age' ->
  glide_share p age r x -> glide_share p age' r x' ->
  nearest_in (a_min p) (a_max p) x y -> nearest_in (a_min p) (a_max p) x' y' -> y' <= y.
Proof.
  intros Hm Ha (A & B & C) (A' & B' & C') N N'. cbv zeta in *.
  set (R := if a_adjust p then r else inject_Z (a_std_age p)) in *. set (T := inject_Z (a_period p)) in *.
  destruct (Qlt_le_dec (R - T) age) as [H|H].
  2:{ specialize (A H). destruct N as ((N1 & N2) & N3 & _). rewrite N3 by (unfold within; lra). destruct N' as ((? & ?) & _). rewrite A. exact H1. }
  assert (H' : R - T < age') by lra. specialize (B H). specialize (C H). specialize (B' H'). specialize (C' H').
  destruct (Qlt_le_dec (a_max p) (a_target p)) as [Ht|Ht].
  - (* target above the maximum: always the maximum *)
    assert (y == a_max p).
    { apply N. destruct (Qlt_le_dec age R) as [H1|H1].
      - specialize (C H1). nra.
      - rewrite (B H1). destruct (qmax_case (a_min p) (a_target p)) as [[? E]|[? E]]; rewrite E; lra. }
    rewrite H0. apply N'.
  - destruct (Qlt_le_dec age R) as [H1|H1]; destruct (Qlt_le_dec age' R) as [H2|H2]; try lra.
    + eapply (nearest_mono _ _ _ _ _ _ Hm N' N). specialize (C H1). specialize (C' H2). 
      assert (HT : 0 < T) by lra. apply (Qmult_le_r _ _ T HT). nra.
    + specialize (C H1). specialize (B' H2). assert (HT : 0 < T) by lra. 
      assert (Hx : a_target p <= x). { apply (Qmult_le_r _ _ T HT). nra. }
      destruct (qmax_case (a_min p) (a_target p)) as [[? E]|[? E]]; rewrite E in B'.
      all: first [ eapply (nearest_mono _ _ _ _ _ _ Hm N' N); lra
                 | destruct N' as (_ & N2 & _); rewrite N2 by (unfold within; lra); rewrite B'; apply N ].
    + specialize (B H1). specialize (B' H2). eapply (nearest_mono _ _ _ _ _ _ Hm N' N). lra.
Qed.
(** getting older never raises the equity share of a shipped strategy (retirement plan unchanged) *)
Theorem C78_equity_never_rises_with_age : forall k p age age' r a a', shipped k -> constructed p -> age <= age' ->
  allocate k p age (Some r) = Ok a -> allocate k p age' (Some r) = Ok a' -> stocks a' <= stocks a.
Proof.
  intros k p age age' r a a' [-> | ->] Hp Ha H H'.
  - pose proof (C50_n_age_follows_rule _ _ _ _ Hp H). pose proof (C50_n_age_follows_rule _ _ _ _ Hp H'). apply constructed_spec in Hp.
    eapply nearest_mono; [exact Hp|eassumption|eassumption|]. unfold n_age_share, Qdiv. destruct (a_adjust p); (apply Qmult_le_compat_r; [lra | vm_compute; discriminate]).
  - destruct (C50_transition_follows_rule _ _ _ _ Hp H) as (x & G & N). destruct (C50_transition_follows_rule _ _ _ _ Hp H') as (x' & G' & N').
    apply constructed_spec in Hp. eapply glide_mono; eassumption.
Qed.
Print Assumptions C78_equity_never_rises_with_age.
(** and planning to retire later never lowers it, when plans are taken into account *)
Theorem C78_later_retirement_more_equity : forall k p age r r' a a', shipped k -> constructed p -> a_adjust p = true -> r <= r' ->
  allocate k p age (Some r) = Ok a -> allocate k p age (Some r') = Ok a' -> stocks a <= stocks a'.
Proof.
  intros k p age r r' a a' [-> | ->] Hp Hadj Hr H H'.
  - pose proof (C50_n_age_follows_rule _ _ _ _ Hp H). pose proof (C50_n_age_follows_rule _ _ _ _ Hp H'). apply constructed_spec in Hp.
    eapply nearest_mono; [exact Hp|eassumption|eassumption|]. unfold n_age_share, Qdiv. rewrite Hadj. (apply Qmult_le_compat_r; [lra | vm_compute; discriminate]).
  - destruct (C50_transition_follows_rule _ _ _ _ Hp H) as (x & G & N). destruct (C50_transition_follows_rule _ _ _ _ Hp H') as (x' & G' & N').
    apply constructed_spec in Hp. apply (glide_mono p (age - (r' - r)) age r x' x); try assumption; [lra|].
    unfold glide_share in *. rewrite Hadj in *. destruct G' as (A & B & C). split; [|split].
    + intro. apply A. lra.
    + intros. apply B; lra.
    + intros. rewrite C by lra. ring.
Qed.
Print Assumptions C78_later_retirement_more_equity.
Example C78_sat : exists a a', allocate Transition demo_ap 50 (Some 65) = Ok a /\ allocate Transition demo_ap 60 (Some 65) = Ok a'.
Proof. do 2 eexists. split; vm_compute; reflexivity. Qed.
Example C78_sat2 : exists a a', allocate NAge demo_ap 50 (Some 65) = Ok a /\ allocate NAge demo_ap 60 (Some 65) = Ok a' /\ stocks a == 7#10 /\ stocks a' == 6 # 10.
Proof. do 2 eexists. split; [vm_compute; reflexivity|]. split; [vm_compute; reflexivity|]. split; vm_compute; reflexivity. Qed.

(** ** C51 *)
(** the return of a shipped strategy's portfolio: stocks and bonds weighted by the allocation *)
Theorem C51_weighted_average : forall k p age r a rs rb ro, shipped k -> constructed p -> allocate k p age r = Ok a ->
  exists q, rate_at k p age r rs rb ro = Ok q /\ q == stocks a * rs + (1 - stocks a) * rb.
Proof.
  intros k p age r a rs rb ro Hk Hp H. destruct (C50_allocation_complete_and_bounded_partial _ _ _ _ _ Hk Hp H) as (A & _ & C).
  unfold rate_at. rewrite H. cbn [bind]. unfold weighted_rate, qdiv, complete in *.
  assert (E : Qeq_bool (stocks a + bonds a + other a) 0 = false) by (apply Qeq_bool_f; rewrite A; lra).
  rewrite E. eexists. split; [reflexivity|]. rewrite A, C. rewrite C in A. assert (B : bonds a == 1 - stocks a) by lra. rewrite B. field.
Qed.
Print Assumptions C51_weighted_average.
(** any allocation with non-negative shares, not all zero, gives a return between the smallest and
    the largest of the asset returns, whatever the shares sum to *)
Theorem C51_between_extremes : forall a rs rb ro lo hi, 0 <= stocks a -> 0 <= bonds a -> 0 <= other a -> 0 < stocks a + bonds a + other a ->
  within lo hi rs -> within lo hi rb -> within lo hi ro ->
  exists q, weighted_rate a rs rb ro = Ok q /\ within lo hi q /\
    q * (stocks a + bonds a + other a) == stocks a * rs + bonds a * rb + other a * ro.
Proof.
  intros a rs rb ro lo hi Hs Hb Ho Ht (A1 & A2) (B1 & B2) (C1 & C2). unfold weighted_rate, qdiv.
  assert (E : Qeq_bool (stocks a + bonds a + other a) 0 = false) by (apply Qeq_bool_f; lra).
  rewrite E. eexists. split; [reflexivity|]. split; [split|].
  - apply Qle_shift_div_l; [exact Ht|]. nra.
  - apply Qle_shift_div_r; [exact Ht|]. nra.
  - field. lra.
Qed.
Print Assumptions C51_between_extremes.
Theorem C51_shipped_between : forall k p age r a rs rb ro, shipped k -> constructed p -> 0 <= a_min p -> a_max p <= 1 -> allocate k p age r = Ok a ->
  exists q, rate_at k p age r rs rb ro = Ok q /\ within (qmin rs rb) (qmax rs rb) q.
Proof.
  intros k p age r a rs rb ro Hk Hp H0 H1 H. destruct (C51_weighted_average k p age r a rs rb ro Hk Hp H) as (q & E & Eq).
  exists q. split; [exact E|]. destruct (C50_allocation_complete_and_bounded_partial _ _ _ _ _ Hk Hp H) as (_ & (B1 & B2) & _).
  unfold within. rewrite Eq. destruct (qmin_case rs rb) as [[? M]|[? M]]; destruct (qmax_case rs rb) as [[? M']|[? M']]; rewrite M, M'; split; nra.
Qed.
Print Assumptions C51_shipped_between.
(** the rate function of a person under a scenario: only that year's returns and that year's age matter *)
Theorem C51_rate_function_reads_year : forall k p birth r s year age a rs rb ro, shipped k -> constructed p ->
  age_in_year birth year = Ok age -> allocate k p (inject_Z age) r = Ok a ->
  series_get (stock_return s) year = Ok rs -> series_get (bond_return s) year = Ok rb -> series_get (other_return s) year = Ok ro ->
  exists q, rate_function k p birth r s year = Ok q /\ q == stocks a * rs + (1 - stocks a) * rb.
Proof.
  intros k p birth r s year age a rs rb ro Hk Hp Hage Ha Es Eb Eo. destruct (C51_weighted_average k p (inject_Z age) r a rs rb ro Hk Hp Ha) as (q & E & Eq).
  exists q. split; [|exact Eq]. unfold rate_function. rewrite Hage. cbn [bind]. rewrite Ha. cbn [bind]. rewrite Es, Eb, Eo. cbn [bind].
  unfold rate_at in E. rewrite Ha in E. exact E.
Qed.
Print Assumptions C51_rate_function_reads_year.
Example C51_sat : exists q, rate_at NAge demo_ap 50 (Some 65) (1 # 10) (2 # 100) 0 = Ok q /\ q == 76 # 1000.
Proof. eexists. split; vm_compute; reflexivity. Qed.

(** ** C77 *)
Lemma streqb_sym a b : String.eqb a b = String.eqb b a. Proof. apply String.eqb_sym. Qed.
Lemma streqb_trans a b c : String.eqb a b = true -> String.eqb b c = true -> String.eqb a c = true.
Proof. rewrite !String.eqb_eq. congruence. Qed.
Lemma sdget_dset {V} (d : dict string V) k v k' :
  dget String.eqb (dset String.eqb d k v) k' = if String.eqb k' k then Some v else dget String.eqb d k'.
Proof. apply dget_dset; [exact streqb_sym | exact streqb_trans]. Qed.
(** the method registered under a key is the last member decorated with it *)
Definition last_decorated {M} (members : list (string * option string * M)) (key : string) (m : M) : Prop :=
  exists l1 name l2, members = l1 ++ (name, Some key, m) :: l2 /\ forall n m', ~ In (n, Some key, m') l2.
Lemma registry_snoc {M} l (n : string) k (m : M) : registry (l ++ [(n, k, m)]) = match k with Some k => dset String.eqb (registry l) k m | None => registry l end.
Proof. unfold registry. rewrite fold_left_app. reflexivity. Qed.
Theorem C77_registry : forall M (members : list (string * option string * M)) key m,
  strategy_call (registry members) key = Ok m <-> last_decorated members key m.
Proof.
  intros M members key m. unfold strategy_call, dget_r.
  assert (G : dget String.eqb (registry members) key = Some m <-> last_decorated members key m).
  { induction members as [|[[n k] m0] l IH] using rev_ind.
    - split; [discriminate|]. intros (l1 & x & l2 & E & _). destruct l1; discriminate.
    - rewrite registry_snoc. destruct k as [k|].
      + rewrite sdget_dset. destruct (String.eqb_spec key k) as [->|Hne].
        * split.
          -- intro H; injection H as ->. exists l, n, []. split; [reflexivity|]. intros ? ? [].
          -- intros (l1 & x & l2 & E & Hl). destruct l2 as [|z l2] using rev_ind.
             ++ apply app_inj_tail in E. destruct E as [_ E]. injection E as -> ->. reflexivity.
             ++ clear IHl2. rewrite app_comm_cons, app_assoc in E. apply app_inj_tail in E. destruct E as [_ E]. subst z.
                exfalso. apply (Hl n m0). apply in_or_app. right. left. reflexivity.
        * rewrite IH. split; intros (l1 & x & l2 & E & Hl).
          -- subst l. exists l1, x, (l2 ++ [(n, Some k, m0)]). split; [rewrite <- app_assoc; reflexivity|]. intros ? ? HI. apply in_app_or in HI. destruct HI as [HI|[HI|[]]]; [eapply Hl; eassumption|congruence].
          -- destruct l2 as [|z l2] using rev_ind.
             ++ apply app_inj_tail in E. destruct E as [_ E]. injection E as -> ->. congruence.
             ++ clear IHl2. rewrite app_comm_cons, app_assoc in E. apply app_inj_tail in E. destruct E as [E _]. exists l1, x, l2. split; [exact E|]. intros ? ? HI. apply (Hl n0 m'). apply in_or_app. tauto.
      + rewrite IH. split; intros (l1 & x & l2 & E & Hl).
        * subst l. exists l1, x, (l2 ++ [(n, None, m0)]). split; [rewrite <- app_assoc; reflexivity|]. intros ? ? HI. apply in_app_or in HI. destruct HI as [HI|[HI|[]]]; [eapply Hl; eassumption|congruence].
        * destruct l2 as [|z l2] using rev_ind.
          -- apply app_inj_tail in E. destruct E as [_ E]. discriminate.
          -- clear IHl2. rewrite app_comm_cons, app_assoc in E. apply app_inj_tail in E. destruct E as [E _]. exists l1, x, l2. split; [exact E|]. intros ? ? HI. apply (Hl n0 m'). apply in_or_app. tauto. }
  rewrite <- G. destruct (dget _ _ _); split; intro H; try congruence; injection H as ->; reflexivity.
Qed.
Print Assumptions C77_registry.
(** construction succeeds exactly for a registered key, given directly or through a decorated method;
    an object that was constructed never fails to find its method *)
Theorem C77_construct_and_call : forall M (members : list (string * option string * M)) a,
  match strategy_init (registry members) a with
  | Ok key => (a = SStr key \/ a = SMethod (SStr key)) /\ exists m, last_decorated members key m /\ strategy_call (registry members) key = Ok m
  | Err e => (e = ValueError /\ exists key, (a = SStr key \/ a = SMethod (SStr key)) /\ forall m, ~ last_decorated members key m) \/
             (e = TypeError /\ forall key, a <> SStr key /\ a <> SMethod (SStr key))
  end.
Proof.
  intros M members a.
  assert (Hs : forall s, match (if dmem String.eqb (registry members) s then Ok s else Err ValueError) with
    | Ok key => key = s /\ exists m, last_decorated members key m /\ strategy_call (registry members) key = Ok m
    | Err e => e = ValueError /\ forall m, ~ last_decorated members s m end).
  { intro s. unfold dmem. destruct (dget String.eqb (registry members) s) as [m|] eqn:E.
    - split; [reflexivity|]. exists m. assert (Hc : strategy_call (registry members) s = Ok m) by (unfold strategy_call, dget_r; rewrite E; reflexivity).
      split; [|exact Hc]. apply C77_registry. exact Hc.
    - split; [reflexivity|]. intros m Hm. apply C77_registry in Hm. unfold strategy_call, dget_r in Hm. rewrite E in Hm. discriminate. }
  unfold strategy_init. destruct a as [s|[s|k|]|].
  - specialize (Hs s). destruct (if dmem _ _ _ then _ else _).
    + destruct Hs as [-> Hs]. tauto.
    + left. destruct Hs as [-> Hs]. split; [reflexivity|]. exists s. tauto.
  - specialize (Hs s). destruct (if dmem _ _ _ then _ else _).
    + destruct Hs as [-> Hs]. tauto.
    + left. destruct Hs as [-> Hs]. split; [reflexivity|]. exists s. tauto.
  - right. split; [reflexivity|]. intro; split; discriminate.
  - right. split; [reflexivity|]. intro; split; discriminate.
  - right. split; [reflexivity|]. intro; split; discriminate.
Qed.
Print Assumptions C77_construct_and_call.
(** with distinct keys, passing a method is the same as selecting that very method *)
Theorem C77_method_selects_itself : forall M (members : list (string * option string * M)) name key m,
  NoDup (map (fun x => snd (fst x)) (filter (fun x => match snd (fst x) with Some _ => true | None => false end) members)) ->
  In (name, Some key, m) members ->
  strategy_init (registry members) (SMethod (SStr key)) = Ok key /\ strategy_call (registry members) key = Ok m.
Proof.
  intros M members name key m Hn HI.
  assert (Hc : strategy_call (registry members) key = Ok m).
  { apply C77_registry. apply in_split in HI. destruct HI as (l1 & l2 & ->). exists l1, name, l2. split; [reflexivity|].
    intros n m' HI. rewrite filter_app in Hn. cbn [filter fst snd] in Hn. rewrite map_app in Hn. cbn [map fst snd] in Hn. apply NoDup_remove_2 in Hn.
    apply Hn. apply in_or_app. right. apply in_map_iff. exists (n, Some key, m'). split; [reflexivity|]. apply filter_In. split; [exact HI|reflexivity]. }
  split; [|exact Hc]. unfold strategy_init, dmem. unfold strategy_call, dget_r in Hc. destruct (dget _ _ _); [reflexivity|discriminate].
Qed.
Print Assumptions C77_method_selects_itself.
(** with a shared key it is not: passing one method silently selects the other *)
Theorem C77_shared_key_refuted : exists (members : list (string * option string * nat)) name key m m',
  In (name, Some key, m) members /\ strategy_init (registry members) (SMethod (SStr key)) = Ok key /\
  strategy_call (registry members) key = Ok m' /\ m <> m'.
Proof.
  exists [("a", Some "k", 1%nat); ("b", Some "k", 2%nat)]%string, "a"%string, "k"%string, 1%nat, 2%nat.
  split; [left; reflexivity|]. split; [reflexivity|]. split; [reflexivity|discriminate].
Qed.
Print Assumptions C77_shared_key_refuted.
Example C77_sat : strategy_init (registry [("strategy_n_minus_age", Some "n-age", 1%nat); ("x", None, 7%nat); ("strategy_transition_to_const", Some "Transition to constant", 2%nat)]%string) (SStr "n-age") = Ok "n-age"%string.
Proof. reflexivity. Qed.
