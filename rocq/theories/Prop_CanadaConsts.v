(** C102-C104: what the shipped Canadian constants and default settings amount to. *)
From Verif Require Import Base BaseFacts InflationModel InflationProofs PersonModel RegModel RegSpec Prop_RRSP TaxModel TaxSpec TaxProofs TaxProofs2 TaxProofs3 Prop_Tax TaxCanadaModel Prop_TaxCanada StrategyModel Prop_Strategy TxStratModel Prop_TxStrat CanadaConstsModel.
From Coq Require Import Permutation Lia Qpower.

(** ** C102 *)
(** the 2017 schedule, spelled out: 15% of everything, 5.5% more above each of 45961.23 and 91921.45,
    3% more above 142493.82 and 4% more above 203000 *)
Definition over (t x : Q) : Q := qmax (x - t) 0.
Definition schedule (x : Q) : Q :=
  (15 # 100) * over 0 x + (55 # 1000) * over (4596123 # 100) x + (55 # 1000) * over (9192145 # 100) x +
  (3 # 100) * over (14249382 # 100) x + (4 # 100) * over 203000 x.
(** [f] is the rise of prices from 2017 to [y] according to the inflation argument [arg] *)
Definition price_rise (arg : infl_arg) (y : Z) (f : Q) : Prop :=
  0 < f /\ (y = 2017%Z -> f == 1) /\ (y <> 2017%Z -> exists ia, build_inflation_adjust arg = Ok ia /\ ia y (Some 2017%Z) = Ok f).
(** the schedule in the money of a year with price rise [f] *)
Definition indexed_schedule (f x : Q) : Q := f * schedule (x / f).

Definition T17 : table := [(0, 15 # 100); (4596123 # 100, 205 # 1000); (9192145 # 100, 26 # 100); (14249382 # 100, 29 # 100); (203000, 33 # 100)].
Lemma T17_ok : table_ok T17 /\ rates_nonneg T17 /\ rates_at_most T17 (33 # 100).
Proof.
  split; [split; [discriminate|]|split].
  - unfold dwf, dkeys, T17. cbn [map fst]. repeat constructor; cbn; intuition discriminate.
  - intros k r H. unfold T17 in H. cbn in H. repeat (destruct H as [H|H]; [injection H as <- <-; discriminate|]). destruct H.
  - intros k r H. unfold T17 in H. cbn in H. repeat (destruct H as [H|H]; [injection H as <- <-; discriminate|]). destruct H.
Qed.
Lemma T17_schedule x : progressive T17 x == schedule x.
Proof.
  unfold progressive, T17. cbn [map Qsum fst snd]. unfold in_bracket, above. 
  cbn [dkeys map fst filter]. 
  repeat match goal with |- context [Qlt_bool ?a ?b] => let v := eval vm_compute in (Qlt_bool a b) in change (Qlt_bool a b) with v; cbv iota end.
  cbn [fold_right]. unfold schedule, over.
  assert (Hc : x <= 0 \/ 0 <= x <= 4596123 # 100 \/ 4596123 # 100 <= x <= 9192145 # 100 \/ 9192145 # 100 <= x <= 14249382 # 100 \/ 14249382 # 100 <= x <= 203000 \/ 203000 <= x) by lra.
  unfold qmin, qmax.
  repeat (destruct Hc as [Hc|Hc]); 
  repeat match goal with |- context [Qle_bool ?a ?b] => 
    match a with context [if _ then _ else _] => fail 1 | _ => match b with context [if _ then _ else _] => fail 1 | _ => 
      let E := fresh in first [assert (E : a <= b) by lra; apply Qle_bool_t in E; rewrite E; clear E | assert (E : b < a) by lra; apply Qle_bool_f in E; rewrite E; clear E | destruct (Qle_bool a b) eqn:E; [apply Qle_bool_t in E|apply Qle_bool_f in E]] end end end; try lra.
Qed.
Lemma init_ia brackets pd cr arg s : tax_init brackets pd cr arg = Ok s -> pd <> [] -> cr <> [] -> build_inflation_adjust arg = Ok (x_ia s) /\ x_cr s = cr /\ x_pd s = pd.
Proof.
  unfold tax_init. destruct (build_inflation_adjust arg) as [f|]; [|discriminate]. cbn [bind].
  assert (G : forall l s0 s1, add_all_brackets s0 l = Ok s1 -> x_ia s1 = x_ia s0).
  { induction l as [|[y b] l IH]; cbn [add_all_brackets]; intros s0 s1 H; [injection H as <-; reflexivity|].
    destruct (add_brackets s0 b y) as [s2|] eqn:E; [|discriminate]. cbn [bind] in H. rewrite (IH _ _ H). unfold add_brackets in E.
    destruct (add_accum b); [|discriminate]. cbn [bind] in E. injection E as <-. reflexivity. }
  destruct (add_all_brackets _ brackets) as [s1|] eqn:E; [|discriminate]. cbn [bind]. apply G in E. cbn [x_ia] in E. intros H Hp Hc.
  destruct pd; [congruence|]. cbn [bind] in H. destruct cr; [congruence|]. cbn [bind] in H. injection H as <-. cbn [x_ia x_cr x_pd]. rewrite E. auto.
Qed.
Lemma progressive_indexed f x : 0 < f -> progressive (inflated f T17) x == indexed_schedule f x.
Proof.
  intro H. unfold indexed_schedule. rewrite <- T17_schedule, <- (progressive_inflated f T17 (x / f) H). apply progressive_same; [apply same_table_refl|]. field. lra.
Qed.
Lemma inflated_rates f T : rates_nonneg T -> rates_nonneg (inflated f T).
Proof. intros R k r H. unfold inflated in H. apply in_map_iff in H. destruct H as ([k1 r1] & E & H). injection E as _ <-. apply (R k1). exact H. Qed.
Lemma one_table T pd c arg s y f x ded cred : table_ok T -> rates_nonneg T -> tax_init [(2017%Z, T)] pd [(2017%Z, c)] arg = Ok s -> pd <> [] -> price_rise arg y f -> 0 <= opt0 cred * c ->
  exists v s', call_money s x y ded cred = Ok (v, s') /\ v == qmax (progressive (inflated f T) (x - opt0 ded) - opt0 cred * c) 0.
Proof.
  intros HT RT H Hpd (Hf & H17 & Hn) Hcr. destruct (init_ia _ _ _ _ _ H Hpd ltac:(discriminate)) as (Eia & Ecr & _).
  destruct (init_ok _ _ _ _ _ H) as (W & B & _); [discriminate|repeat constructor; intros []|intros y0 d0 [E|[]]; injection E as <- <-; exact HT|].
  assert (Er : forall s', x_cr s' = x_cr s -> credit_rate s' y = Ok c).
  { intros s' E. unfold credit_rate. rewrite E, Ecr. pose proof (nearest_year_spec [(2017%Z, c)] y) as N. destruct (nearest_year [(2017%Z, c)] y) as [k|].
    - destruct N as [[N|[]] _]. cbn in N. subst k. reflexivity.
    - discriminate N. }
  assert (K : exists s1 d, well_built s1 /\ dget Z.eqb (x_brk s1) y = Some d /\ x_cr s1 = x_cr s /\ same_table d (inflated f T) /\
     tax_money s x y (opt0 ded) (opt0 cred) = tax_money s1 x y (opt0 ded) (opt0 cred)).
  { destruct (Z.eq_dec y 2017) as [->|Hy].
    - exists s, T. split; [exact W|]. split; [rewrite B; reflexivity|]. split; [reflexivity|]. split; [|reflexivity]. apply same_table_sym.
      unfold inflated. clear -H17. induction T as [|[k r] T IH]; constructor; [cbn [fst snd]; split; [rewrite (H17 eq_refl); ring|reflexivity]|exact IH].
    - destruct (Hn Hy) as (ia & Ei & Ef). rewrite Eia in Ei. injection Ei as <-.
      assert (N : nearest_year (x_brk s) y = Some 2017%Z).
      { pose proof (nearest_year_spec (x_brk s) y) as N. destruct (nearest_year (x_brk s) y) as [k|].
        - destruct N as [N _]. apply dmem_keys in N. unfold dmem in N. rewrite B in N. cbn in N. destruct (Z.eqb_spec k 2017); [subst; reflexivity|discriminate].
        - exfalso. apply (proj1 W). exact N. }
      destruct (tax_brackets_new s y 2017 T f W) as (s' & E & W' & B' & C' & D' & F'); [rewrite B; cbn; destruct (Z.eqb_spec y 2017); [congruence|reflexivity]|exact N|rewrite B; reflexivity|exact Ef|exact Hf|].
      assert (G : dget Z.eqb (x_brk s') y = Some (map (fun kv => (fst kv * f, snd kv)) T)) by (rewrite B', zdget_dset, Z.eqb_refl; reflexivity).
      exists s'. eexists. split; [exact W'|]. split; [exact G|]. split; [exact F'|]. split; [apply scaled_inflated|].
      unfold tax_money. rewrite E. cbn [bind]. unfold tax_brackets at 1. rewrite G. reflexivity. }
  destruct K as (s1 & d & W1 & G & E1 & S & Em). destruct (tax_money_listed s1 x y (opt0 ded) (opt0 cred) d c W1 G (Er s1 E1)) as (g & Hg & E).
  unfold call_money. rewrite Em, E. do 2 eexists. split; [reflexivity|].
  assert (Hd : table_ok d) by (destruct W1 as (_ & W1 & _); apply (W1 y d G)).
  assert (Hr : rates_nonneg d).
  { intros k r Hin. clear -S Hin RT. pose proof (inflated_rates f T RT) as R. revert R Hin. generalize (inflated f T) S. clear S. intros e S. induction S as [|[a b] [a' b'] ? ? [A1 A2] S IH]; intros R Hin; [destruct Hin|].
    cbn [fst snd] in *. destruct Hin as [E|Hin]; [injection E as -> ->; rewrite A2; apply (R a'); left; reflexivity|apply IH; [intros k' r' H'; apply (R k'); right; exact H'|exact Hin]]. }
  destruct (gross_nonneg d (x - opt0 ded) g Hd Hr Hg) as [Eg Lg].
  assert (Ep : progressive d (x - opt0 ded) == progressive (inflated f T) (x - opt0 ded)) by (apply progressive_same; [exact S|reflexivity]).
  rewrite Ep in Eg, Lg.
  destruct (qmax_case (g - opt0 cred * c) 0) as [[P Q']|[P Q']], (qmax_case (progressive (inflated f T) (x - opt0 ded) - opt0 cred * c) 0) as [[P2 Q2]|[P2 Q2]]; rewrite Q', Q2; revert Eg; destruct (qmax_case g 0) as [[P3 Q3]|[P3 Q3]]; rewrite Q3; intro Eg; lra.
Qed.
Lemma one_jurisdiction pd c arg s y f x ded cred : tax_init [(2017%Z, T17)] pd [(2017%Z, c)] arg = Ok s -> pd <> [] -> 0 <= c -> price_rise arg y f -> 0 <= opt0 cred ->
  exists v s', call_money s x y ded cred = Ok (v, s') /\ v == qmax (indexed_schedule f (x - opt0 ded) - opt0 cred * c) 0.
Proof.
  intros H Hpd Hc Hf Hcr. destruct (one_table T17 pd c arg s y f x ded cred) as (v & s' & E & Q1); [apply T17_ok|apply T17_ok|exact H|exact Hpd|exact Hf|apply Qmult_le_0_compat; assumption|].
  exists v, s'. split; [exact E|]. rewrite Q1. assert (X : forall a b c, a == b -> qmax (a - c) 0 == qmax (b - c) 0).
  { intros a b e Eab. destruct (qmax_case (a - e) 0) as [[P ->]|[P ->]], (qmax_case (b - e) 0) as [[P2 ->]|[P2 ->]]; lra. }
  apply X. apply progressive_indexed. apply Hf.
Qed.
(** In every year, under every inflation assumption, the tax on any income is the 2017 schedule in that year's
    money, once for each jurisdiction, each floored at zero after its own deduction and credit *)
Theorem C102_tax_every_year : forall arg fed bc y f x fd fc pd pc, canada_init arg "BC" = Ok (fed, bc) -> price_rise arg y f -> 0 <= opt0 fc -> 0 <= opt0 pc ->
  exists t dc, canada_call fed bc x y fd fc pd pc None None = Ok (t, dc) /\
    t == qmax (indexed_schedule f (x - opt0 fd) - (15 # 100) * opt0 fc) 0 + qmax (indexed_schedule f (x - opt0 pd) - (506 # 10000) * opt0 pc) 0.
Proof.
  intros arg fed bc y f x fd fc pd pc H Hf Hfc Hpc. unfold canada_init in H.
  destruct (jurisdiction_init arg "Federal"%string) as [s1|] eqn:E1; [|discriminate]. cbn [bind] in H.
  destruct (jurisdiction_init arg "BC"%string) as [s2|] eqn:E2; [|discriminate]. cbn [bind] in H. injection H as <- <-.
  assert (JE1 : dget_r String.eqb TAX_BRACKETS "Federal"%string = Ok [(2017%Z, T17)] /\ dget_r String.eqb TAX_PERSONAL_DEDUCTION "Federal"%string = Ok [(2017%Z, 11635)] /\ dget_r String.eqb TAX_CREDIT_RATE "Federal"%string = Ok [(2017%Z, 15 # 100)]) by (vm_compute; repeat split; reflexivity).
  unfold jurisdiction_init in E1. destruct JE1 as (JaE1 & JbE1 & JcE1). rewrite JaE1, JbE1, JcE1 in E1. cbn [bind] in E1.
  assert (JE2 : dget_r String.eqb TAX_BRACKETS "BC"%string = Ok [(2017%Z, T17)] /\ dget_r String.eqb TAX_PERSONAL_DEDUCTION "BC"%string = Ok [(2017%Z, 10208)] /\ dget_r String.eqb TAX_CREDIT_RATE "BC"%string = Ok [(2017%Z, 506 # 10000)]) by (vm_compute; repeat split; reflexivity).
  unfold jurisdiction_init in E2. destruct JE2 as (JaE2 & JbE2 & JcE2). rewrite JaE2, JbE2, JcE2 in E2. cbn [bind] in E2.
  destruct (one_jurisdiction _ _ _ _ y f x fd fc E1 ltac:(discriminate) ltac:(discriminate) Hf Hfc) as (v1 & s1' & V1 & Q1).
  destruct (one_jurisdiction _ _ _ _ y f x pd pc E2 ltac:(discriminate) ltac:(discriminate) Hf Hpc) as (v2 & s2' & V2 & Q2).
  unfold canada_call, multi_call. cbn [sum_over].
  assert (L0 : forall a b : option Q, dget Nat.eqb (opt_set (opt_set [] 0 a) 1 b) 0%nat = a) by (intros [?|] [?|]; reflexivity).
  assert (L1 : forall a b : option Q, dget Nat.eqb (opt_set (opt_set [] 0 a) 1 b) 1%nat = b) by (intros [?|] [?|]; reflexivity).
  rewrite !L0, !L1, V1. cbn [bind]. rewrite V2. cbn [bind]. do 2 eexists. split; [reflexivity|].
  rewrite Q1, Q2, !(Qmult_comm _ (15 # 100)), !(Qmult_comm _ (506 # 10000)). ring.
Qed.
Print Assumptions C102_tax_every_year.
Lemma over_lip t x x' : x <= x' -> over t x <= over t x' /\ over t x' - over t x <= x' - x.
Proof. intro H. unfold over. destruct (qmax_case (x - t) 0) as [[A ->]|[A ->]], (qmax_case (x' - t) 0) as [[B ->]|[B ->]]; split; lra. Qed.
Lemma schedule_lip x x' : x <= x' -> schedule x <= schedule x' /\ schedule x' - schedule x <= (33 # 100) * (x' - x).
Proof.
  intro H. unfold schedule. destruct (over_lip 0 x x' H), (over_lip (4596123 # 100) x x' H), (over_lip (9192145 # 100) x x' H), (over_lip (14249382 # 100) x x' H), (over_lip 203000 x x' H).
  split; lra.
Qed.
Lemma indexed_lip f x x' : 0 < f -> x <= x' -> indexed_schedule f x <= indexed_schedule f x' /\ indexed_schedule f x' - indexed_schedule f x <= (33 # 100) * (x' - x).
Proof.
  intros Hf H. unfold indexed_schedule. assert (Hd : x / f <= x' / f) by (apply Qle_shift_div_l; [exact Hf|]; setoid_replace (x / f * f) with x by (field; lra); exact H).
  destruct (schedule_lip _ _ Hd) as [A B]. split.
  - rewrite !(Qmult_comm f). apply Qmult_le_compat_r; lra.
  - setoid_replace (f * schedule (x' / f) - f * schedule (x / f)) with ((schedule (x' / f) - schedule (x / f)) * f) by ring.
    setoid_replace ((33 # 100) * (x' - x)) with ((33 # 100) * (x' / f - x / f) * f) by (field; lra). apply Qmult_le_compat_r; lra.
Qed.
(** more income, or less to deduct or credit, never means less tax, and never more than 66% of the difference: the two jurisdictions' top rates *)
Theorem C102_monotone_and_bounded : forall arg fed bc y f x x' d c t t' r r', canada_init arg "BC" = Ok (fed, bc) -> price_rise arg y f -> 0 <= c -> x <= x' ->
  canada_call fed bc x y (Some d) (Some c) (Some d) (Some c) None None = Ok (t, r) -> canada_call fed bc x' y (Some d) (Some c) (Some d) (Some c) None None = Ok (t', r') ->
  0 <= t /\ t <= t' /\ t' - t <= (66 # 100) * (x' - x).
Proof.
  intros arg fed bc y f x x' d c t t' r r' H Hf Hc Hx E E'.
  destruct (C102_tax_every_year arg fed bc y f x (Some d) (Some c) (Some d) (Some c) H Hf Hc Hc) as (u & ? & Eu & Q1). rewrite E in Eu. injection Eu as <- _.
  destruct (C102_tax_every_year arg fed bc y f x' (Some d) (Some c) (Some d) (Some c) H Hf Hc Hc) as (u' & ? & Eu' & Q2). rewrite E' in Eu'. injection Eu' as <- _.
  cbn [opt0] in Q1, Q2. destruct (indexed_lip f (x - d) (x' - d) (proj1 Hf)) as [A B]; [lra|]. rewrite Q1, Q2. clear Q1 Q2 E E'.
  destruct (qmax_case (indexed_schedule f (x - d) - (15 # 100) * c) 0) as [[P1 ->]|[P1 ->]], (qmax_case (indexed_schedule f (x - d) - (506 # 10000) * c) 0) as [[P2 ->]|[P2 ->]],
    (qmax_case (indexed_schedule f (x' - d) - (15 # 100) * c) 0) as [[P3 ->]|[P3 ->]], (qmax_case (indexed_schedule f (x' - d) - (506 # 10000) * c) 0) as [[P4 ->]|[P4 ->]]; (split; [lra|split; lra]).
Qed.
Print Assumptions C102_monotone_and_bounded.
(** only one province can be asked for *)
Theorem C102_only_bc_refuted : forall arg fed p, jurisdiction_init arg "Federal" = Ok fed -> p <> "BC"%string -> p <> "Federal"%string -> canada_init arg p = Err KeyError.
Proof.
  intros arg fed p H Hb Hf. unfold canada_init. rewrite H. cbn [bind]. unfold jurisdiction_init, dget_r, TAX_BRACKETS. cbn [dget].
  destruct (String.eqb_spec p "Federal") as [|_]; [congruence|]. destruct (String.eqb_spec p "BC") as [|_]; [congruence|]. reflexivity.
Qed.
Print Assumptions C102_only_bc_refuted.
Example C102_sat : exists fed bc t r, canada_init (IDict [(2017%Z, 1); (2020%Z, 11 # 10)]) "BC" = Ok (fed, bc) /\
  price_rise (IDict [(2017%Z, 1); (2020%Z, 11 # 10)]) 2020 (11 # 10) /\
  canada_call fed bc 110000 2020 (Some 1000) None (Some 0) None None None = Ok (t, r) /\ t == (11 # 10) * (schedule (109000 * (10 # 11)) + schedule 100000).
Proof.
  do 4 eexists. split; [vm_compute; reflexivity|]. split; [|split; [vm_compute; reflexivity|vm_compute; reflexivity]].
  split; [reflexivity|]. split; [discriminate|]. intros _. eexists. split; [reflexivity|]. vm_compute. reflexivity.
Qed.

(** ** C103 *)
Definition rrif_rate (age : Z) : Q :=
  match dget Z.eqb RRIF_MIN age with Some r => r | None => if Z.ltb 95 age then 2 # 10 else / inject_Z (90 - age) end.
Lemma ages age : (71 <= age <= 95)%Z -> exists n, (n <= 24)%nat /\ age = (71 + Z.of_nat n)%Z.
Proof. intro H. exists (Z.to_nat (age - 71)). lia. Qed.
Lemma rrif_outside age : (age < 71 \/ 95 < age)%Z -> dget Z.eqb RRIF_MIN age = None.
Proof.
  intro H. unfold RRIF_MIN. cbn [dget]. repeat match goal with |- context [Z.eqb age ?k] => destruct (Z.eqb_spec age k); [lia|] end. reflexivity.
Qed.
Lemma rrif_inside age : (71 <= age <= 95)%Z -> exists r, dget Z.eqb RRIF_MIN age = Some r.
Proof.
  intro H. destruct (ages age H) as (n & Hn & ->). do 25 (destruct n as [|n]; [eexists; reflexivity|]). lia.
Qed.
Lemma rrif_min age b conv y bal : age_in_year b y = Ok age -> (conv < y)%Z -> exists m, minimum_distribution shipped b conv y bal = Ok m /\ m == rrif_rate age * bal.
Proof.
  intros Ha Hc. unfold minimum_distribution, rrif_rate. change (rc_rrif_min shipped) with RRIF_MIN. destruct (Z.ltb_spec conv y); [|lia]. rewrite Ha. cbn [bind].
  destruct (Z_lt_le_dec age 71); [|destruct (Z_lt_le_dec 95 age)].
  - rewrite rrif_outside by lia. change (zmaxl (dkeys RRIF_MIN)) with (Some 95%Z). cbv iota. destruct (Z.ltb_spec 95 age); [lia|].
    unfold qdiv. destruct (Qeq_bool (inject_Z (90 - age)) 0) eqn:E.
    + apply Qeq_bool_iff in E. unfold Qeq, inject_Z in E. cbn [Qnum Qden] in E. lia.
    + eexists. split; [reflexivity|]. unfold Qdiv. ring.
  - rewrite rrif_outside by lia. change (zmaxl (dkeys RRIF_MIN)) with (Some 95%Z). cbv iota. destruct (Z.ltb_spec 95 age); [|lia].
    match goal with |- context [match ?l with [] => _ | _ :: _ => _ end] => let v := eval cbv [map RRIF_MIN snd] in l in change l with v end. cbv iota.
    eexists. split; [reflexivity|]. match goal with |- bal * ?l == _ => let v := eval vm_compute in l in change l with v end. ring.
  - destruct (rrif_inside age) as (r & ->); [lia|]. eexists. split; reflexivity.
Qed.
Lemma rrif_step age : (0 <= age)%Z -> rrif_rate age <= rrif_rate (age + 1).
Proof.
  intro H. destruct (Z_lt_le_dec age 70) as [L|L]; [|destruct (Z_lt_le_dec 94 age) as [L'|L']].
  - unfold rrif_rate. rewrite !rrif_outside by lia. destruct (Z.ltb_spec 95 age); [lia|]. destruct (Z.ltb_spec 95 (age + 1)); [lia|].
    replace (90 - (age + 1))%Z with (90 - age - 1)%Z by lia. set (k := (90 - age)%Z). assert (20 < k)%Z by lia.
    unfold Qle, Qinv, inject_Z. cbn [Qnum Qden]. destruct k as [|p|p]; try lia. destruct (Z.pos p - 1)%Z as [|q|q] eqn:E; try lia. cbn [Qnum Qden]. lia.
  - unfold rrif_rate. rewrite (rrif_outside (age + 1)) by lia. destruct (Z.ltb_spec 95 (age + 1)); [|lia].
    destruct (Z.eq_dec age 95) as [->|N]; [vm_compute; discriminate|]. rewrite (rrif_outside age) by lia. destruct (Z.ltb_spec 95 age); [|lia]. apply Qle_refl.
  - destruct (Z.eq_dec age 70) as [->|N]; [vm_compute; discriminate|]. destruct (ages age) as (n & Hn & ->); [lia|].
    do 24 (destruct n as [|n]; [vm_compute; discriminate|]). lia.
Qed.
Lemma rrif_mono age age' : (0 <= age <= age')%Z -> rrif_rate age <= rrif_rate age'.
Proof.
  intro H. replace age' with (age + Z.of_nat (Z.to_nat (age' - age)))%Z by lia. generalize (Z.to_nat (age' - age)). destruct H as [H _]. clear age'. intro n.
  induction n as [|n IH]; [rewrite Z.add_0_r; apply Qle_refl|]. eapply Qle_trans; [exact IH|].
  replace (age + Z.of_nat (S n))%Z with (age + Z.of_nat n + 1)%Z by lia. apply rrif_step. lia.
Qed.
Lemma rrif_top age : (0 <= age)%Z -> rrif_rate age <= 2 # 10.
Proof. intro H. destruct (Z_lt_le_dec 96 age); [unfold rrif_rate; rewrite rrif_outside by lia; destruct (Z.ltb_spec 95 age); [apply Qle_refl|lia]|]. apply (rrif_mono age 96). lia. Qed.
(** with the shipped constants, after the account has become a RRIF a minimum exists at every age; it
    is a positive share of the balance, never falls with age, and never exceeds a fifth of the balance *)
Theorem C103_minimum_share : forall b b' conv conv' y y' age age' bal, age_in_year b y = Ok age -> age_in_year b' y' = Ok age' ->
  (0 <= age <= age')%Z -> (conv < y)%Z -> (conv' < y')%Z -> 0 <= bal ->
  exists m m', minimum_distribution shipped b conv y bal = Ok m /\ minimum_distribution shipped b' conv' y' bal = Ok m' /\
    m <= m' /\ m' <= bal / 5 /\ bal / 90 <= m.
Proof.
  intros b b' conv conv' y y' age age' bal Ha Ha' Hage Hc Hc' Hb.
  destruct (rrif_min age b conv y bal Ha Hc) as (m & E & Q1), (rrif_min age' b' conv' y' bal Ha' Hc') as (m' & E' & Q2).
  exists m, m'. split; [exact E|]. split; [exact E'|]. rewrite Q1, Q2. split; [apply Qmult_le_compat_r; [apply rrif_mono; exact Hage|exact Hb]|]. split.
  - setoid_replace (bal / 5) with ((2 # 10) * bal) by field. apply Qmult_le_compat_r; [apply rrif_top; lia|exact Hb].
  - setoid_replace (bal / 90) with (rrif_rate 0 * bal) by (unfold rrif_rate; cbn; field). apply Qmult_le_compat_r; [apply rrif_mono; lia|exact Hb].
Qed.
Print Assumptions C103_minimum_share.
(** so after withdrawing the minimum in each of n years (and earning nothing) at least (4/5)^n of it is left *)
Fixpoint drawn (b : date) (conv : Z) (y : Z) (n : nat) (bal : Q) : res Q :=
  match n with
  | O => Ok bal
  | S n' => let* m := minimum_distribution shipped b conv y bal in drawn b conv (y + 1) n' (bal - m)
  end.
Theorem C103_never_exhausted : forall b conv n y bal, (forall k, (0 <= k)%Z -> exists a, age_in_year b (y + k) = Ok a /\ (0 <= a)%Z) -> (conv < y)%Z -> 0 < bal ->
  exists r, drawn b conv y n bal = Ok r /\ (4 # 5) ^ (Z.of_nat n) * bal <= r /\ r <= (89 # 90) ^ (Z.of_nat n) * bal /\ 0 < r.
Proof.
  intros b conv n. induction n as [|n IH]; intros y bal Ha Hc Hb; [exists bal; cbn; repeat split; try reflexivity; lra|].
  destruct (Ha 0%Z ltac:(lia)) as (a & Ea & Hp). rewrite Z.add_0_r in Ea.
  destruct (C103_minimum_share b b conv conv y y a a bal Ea Ea ltac:(lia) Hc Hc ltac:(lra)) as (m & m' & Em & Em' & _ & Hm & Hm'). rewrite Em in Em'. injection Em' as <-.
  cbn [drawn]. rewrite Em. cbn [bind]. setoid_replace (bal / 5) with ((1 # 5) * bal) in Hm by field. setoid_replace (bal / 90) with ((1 # 90) * bal) in Hm' by field.
  destruct (IH (y + 1)%Z (bal - m)) as (r & Er & L & U & P); [intros k Hk; destruct (Ha (k + 1)%Z ltac:(lia)) as (a' & E' & ?); exists a'; split; [rewrite <- E'; f_equal; lia|assumption]|lia|lra|].
  exists r. split; [exact Er|]. rewrite Nat2Z.inj_succ. unfold Z.succ. rewrite !Qpower_plus by (intro X; discriminate X). change ((4 # 5) ^ 1) with (4 # 5). change ((89 # 90) ^ 1) with (89 # 90).
  assert (P1 : 0 <= (4 # 5) ^ Z.of_nat n) by (apply Qpower_pos; discriminate). assert (P2 : 0 <= (89 # 90) ^ Z.of_nat n) by (apply Qpower_pos; discriminate).
  assert ((4 # 5) ^ Z.of_nat n * ((4 # 5) * bal) <= (4 # 5) ^ Z.of_nat n * (bal - m)) by (rewrite !(Qmult_comm ((4 # 5) ^ Z.of_nat n)); apply Qmult_le_compat_r; lra).
  assert ((89 # 90) ^ Z.of_nat n * (bal - m) <= (89 # 90) ^ Z.of_nat n * ((89 # 90) * bal)) by (rewrite !(Qmult_comm ((89 # 90) ^ Z.of_nat n)); apply Qmult_le_compat_r; lra).
  rewrite <- !Qmult_assoc. repeat split; lra.
Qed.
Print Assumptions C103_never_exhausted.
Example C103_sat : exists m m', age_in_year ex_birth 2030 = Ok 80%Z /\ age_in_year ex_birth 2015 = Ok 65%Z /\
  minimum_distribution shipped ex_birth 2014 2015 1000 = Ok m /\ m == 40 /\ minimum_distribution shipped ex_birth 2020 2030 1000 = Ok m' /\ m' == 682 # 10.
Proof.
  do 2 eexists. split; [vm_compute; reflexivity|]. split; [vm_compute; reflexivity|]. split; [vm_compute; reflexivity|]. split; [vm_compute; reflexivity|]. split; vm_compute; reflexivity.
Qed.

(** ** C104 *)
(** account [a] is an object of class [cls a] *)
Definition classed (w : aview) (cls : nat -> aclass) : Prop := forall a, v_mro w a = mro (cls a) /\ (v_debt w a = true <-> cls a = CDebt).
(** the general defaults give every account, whatever its class, a place in both strategies *)
Theorem C104_general_defaults : forall s w cls accounts t, hash_ok s -> classed w cls -> ts_weights s = base_weights -> priority_tree s w accounts = Ok t ->
  forall a, In a accounts <-> In a (leaves t).
Proof.
  intros s w cls accounts t Hh Hc Hw H a. destruct (divide_debts s w accounts) as [low high] eqn:E. destruct (C79_tree_accounts s w accounts t low high Hh E H) as [_ L].
  rewrite L. split; [|tauto]. intro I. split; [exact I|]. right. exists "Account"%string. rewrite Hw. split; [|reflexivity]. rewrite (proj1 (Hc a)). destruct (cls a); cbn; tauto.
Qed.
Print Assumptions C104_general_defaults.
(** the Canadian defaults: RRSPs and TFSAs are in both; *)
Theorem C104_registered_accounts : forall s w cls accounts t, hash_ok s -> classed w cls -> ts_weights s = saving_weights \/ ts_weights s = withdrawal_weights -> priority_tree s w accounts = Ok t ->
  forall a, In a accounts -> cls a = CRRSP \/ cls a = CTFSA -> In a (leaves t).
Proof.
  intros s w cls accounts t Hh Hc Hw H a I Ha. destruct (divide_debts s w accounts) as [low high] eqn:E. destruct (C79_tree_accounts s w accounts t low high Hh E H) as [_ L].
  rewrite L. split; [exact I|]. right. destruct Ha as [Ha|Ha]; [exists "RRSP"%string|exists "TFSA"%string]; rewrite (proj1 (Hc a)), Ha; (split; [cbn; tauto|]); destruct Hw as [-> | ->]; reflexivity.
Qed.
Print Assumptions C104_registered_accounts.
(** but a taxable account that receives savings is never drawn on, in any household, under any rule
    for debts, by either kind of strategy *)
Lemma high_is_debt s w accounts low high a : hash_ok s -> divide_debts s w accounts = (low, high) -> In a high -> v_debt w a = true.
Proof.
  intros Hh E I. destruct (ts_threshold s) as [th|] eqn:Et.
  - destruct (C54_partition s w accounts low high th Hh Et E) as (_ & _ & _ & _ & G). apply G in I. apply I.
  - destruct (C54_no_threshold s w accounts low high Hh Et E) as (_ & -> & _). destruct I.
Qed.
Theorem C104_taxable_never_drawn_refuted : forall sv wd w cls accounts ts tw, hash_ok sv -> hash_ok wd -> classed w cls -> 
  ts_weights sv = saving_weights -> ts_weights wd = withdrawal_weights -> priority_tree sv w accounts = Ok ts -> priority_tree wd w accounts = Ok tw ->
  forall a, In a accounts -> cls a = CTaxable -> In a (leaves ts) /\ ~ In a (leaves tw).
Proof.
  intros sv wd w cls accounts ts tw Hs Hd Hc Es Ed Hts Htw a I Ha.
  destruct (divide_debts sv w accounts) as [low high] eqn:E1. destruct (C79_tree_accounts sv w accounts ts low high Hs E1 Hts) as [_ L1].
  destruct (divide_debts wd w accounts) as [low' high'] eqn:E2. destruct (C79_tree_accounts wd w accounts tw low' high' Hd E2 Htw) as [_ L2].
  destruct (Hc a) as [Hm Hdebt]. rewrite Ha in Hm, Hdebt. rewrite L1, L2. split.
  - split; [exact I|]. right. exists "TaxableAccount"%string. rewrite Es, Hm. split; [cbn; tauto|reflexivity].
  - intros [_ [B|(k & B1 & B2)]].
    + apply (high_is_debt wd w accounts low' high' a Hd E2) in B. apply Hdebt in B. discriminate.
    + rewrite Ed in B2. rewrite Hm in B1. cbn in B1. repeat (destruct B1 as [<-|B1]; [discriminate B2|]). destruct B1.
Qed.
Print Assumptions C104_taxable_never_drawn_refuted.
(** low-interest debts get no payments beyond the minimum from the Canadian default strategies, and
    plain accounts are in neither *)
Theorem C104_others_left_out_refuted : forall s w cls accounts t low high, hash_ok s -> classed w cls -> ts_weights s = saving_weights \/ ts_weights s = withdrawal_weights ->
  divide_debts s w accounts = (low, high) -> priority_tree s w accounts = Ok t ->
  forall a, cls a = CAccount \/ cls a = CDebt \/ cls a = CResidence -> In a (leaves t) <-> In a high /\ In a accounts.
Proof.
  intros s w cls accounts t low high Hh Hc Hw E H a Ha. destruct (C79_tree_accounts s w accounts t low high Hh E H) as [_ L]. rewrite L.
  split; [|tauto]. intros [I [B|(k & B1 & B2)]]; [auto|]. exfalso. rewrite (proj1 (Hc a)) in B1.
  destruct Ha as [Ha|[Ha|Ha]]; rewrite Ha in B1; destruct Hw as [Hw|Hw]; rewrite Hw in B2; cbn in B1; repeat (destruct B1 as [<-|B1]; [discriminate B2|]); destruct B1.
Qed.
Print Assumptions C104_others_left_out_refuted.
(** the default 'n-age' allocation does not depend on age: minimum and maximum equity are both 30% *)
Theorem C104_default_allocation_constant_refuted : forall age r a, allocate NAge default_allocation age r = Ok a -> stocks a == 3 # 10 /\ bonds a == 7 # 10 /\ other a == 0.
Proof.
  intros age r a H. destruct (C50_allocation_complete_and_bounded_partial NAge default_allocation age r a) as (A & B & C); [left; reflexivity|reflexivity|exact H|].
  unfold within, complete in *. cbn [a_min a_max default_allocation] in B. split; [lra|]. split; [lra|exact C].
Qed.
Print Assumptions C104_default_allocation_constant_refuted.
(** the general default tax takes nothing, whatever the income, the year (inflation known) and the deductions *)
Theorem C104_default_tax_free : forall arg s f x y ded cred v s', default_tax arg = Ok s -> price_rise arg y f -> call_money s x y ded cred = Ok (v, s') -> v == 0.
Proof.
  intros arg s f x y ded cred v s' H Hf Hv.
  destruct (one_table [(0, 0)] [(2017%Z, 0)] 0 arg s y f x ded cred) as (u & t & E & Q1); [split; [discriminate|repeat constructor; intros []]| |exact H|discriminate|exact Hf|lra|].
  - intros k r [E|[]]. injection E as _ <-. apply Qle_refl.
  - rewrite Hv in E. injection E as <- _. rewrite Q1. unfold progressive, inflated. cbn [map Qsum fst snd].
    match goal with |- qmax ?a 0 == 0 => destruct (qmax_case a 0) as [[P ->]|[P ->]]; [|reflexivity] end. lra.
Qed.
Print Assumptions C104_default_tax_free.
Definition demo_cls (a : nat) : aclass := match a with O => CRRSP | 1%nat => CTFSA | 2%nat => CTaxable | 3%nat => CDebt | _ => CAccount end.
Definition demo_w : aview := {| v_mro := fun a => mro (demo_cls a); v_debt := fun a => match demo_cls a with CDebt => true | _ => false end; v_balance := fun a => match a with 3%nat => -10 | _ => 10 end; v_rate := fun _ => 1 # 10 |}.
Definition demo_strat (k : dict string Q) : tstrat := {| ts_ordered := true; ts_weights := k; ts_debt := "Avalanche"; ts_threshold := Some (5 # 100); ts_hash := fun l => l |}.
Example C104_sat : classed demo_w demo_cls /\ hash_ok (demo_strat saving_weights) /\
  priority_tree (demo_strat saving_weights) demo_w [0; 1; 2; 3]%nat = Ok (POrd [POrd [PLeaf 3]; POrd [PLeaf 1; PLeaf 0; PLeaf 2]]) /\
  priority_tree (demo_strat withdrawal_weights) demo_w [0; 1; 2]%nat = Ok (POrd [PLeaf 0; PLeaf 1]).
Proof. split; [intro a; split; [reflexivity|unfold demo_w, v_debt; destruct (demo_cls a); split; congruence]|]. split; [intro l; reflexivity|]. split; vm_compute; reflexivity. Qed.
