(** C125: the taxes of a Canadian household's forecast. *)
From Verif Require Import Base BaseFacts TimingModel SubModel ForecastsModel HorizonModel ReportModel RegModel InflationModel TaxModel TaxCanadaModel TaxMultiModel CanadaConstsModel CanadaForecastModel.
From Verif Require Import Prop_SubForecast Prop_Forecasts Prop_Horizon Prop_Reported Prop_Tax Prop_RRSP TaxSpec Prop_CanadaConsts Prop_TaxMulti.
From Verif Require LedgerModel.
Import LedgerModel(hist).
From Coq Require Import Permutation Lia Lqa.

(** the year the tax forecast works with is moved on when a year ends (here: together with the first person), and by
    nothing else *)
Definition keeps_year {X} (c : config X) (year : X -> Z) : Prop :=
  forall ev x h ps, year (fst (fst (c_next c ev (x, h, ps)))) = match ev with NextPerson 0 y => (y + 1)%Z | _ => year x end.
(** the household's federal and provincial (British Columbia) tax on the figures [inc] (income), [od] (deductions) and
    [oc] (credits), with prices [f] times those of 2017 *)
Definition federal_tax who spouse (people : list nat) inc od oc f : Q :=
  Qsum (map (dues who spouse inc od oc f (15 # 100) 11635 2000 11635) people).
Definition provincial_tax who spouse (people : list nat) inc od oc f : Q :=
  Qsum (map (dues who spouse inc od oc f (506 # 10000) 10208 1000 9614) people).

Section Years.
Context {X : Type} (c : config X) (yr : X -> Z) (K : keeps_year c yr).
Let e := real_env c.
Definition phi (w : world X) : Z := yr (hh_rest w).
Lemma next_phi ev w : phi (real_next c ev w) = match ev with NextPerson 0 y => (y + 1)%Z | _ => phi w end.
Proof.
  unfold phi, real_next. destruct ev as [i y|i y|i y|i y].
  - pose proof (K (Call i y) (hh_rest w) (hh_heap w) (hh_people w)) as H. destruct (c_next c _ _) as [[x h] p]. exact H.
  - destruct i as [|[|[|[|i]]]]; reflexivity.
  - pose proof (K (NextPerson i y) (hh_rest w) (hh_heap w) (hh_people w)) as H. destruct (c_next c _ _) as [[x h] p]. exact H.
  - pose proof (K (NextAccount i y) (hh_rest w) (hh_heap w) (hh_people w)) as H. destruct (c_next c _ _) as [[x h] p]. exact H.
Qed.
Lemma catch_phi ev n y w log : (forall z, match ev z with NextPerson 0 _ => False | _ => True end) -> phi (snd (fst (HorizonModel.catch_up e ev n y w log))) = phi w.
Proof.
  intro H. revert y w log. induction n as [|n IH]; intros y w log; cbn [HorizonModel.catch_up]; [reflexivity|]. rewrite IH. cbn [e real_env e_next]. rewrite next_phi.
  specialize (H y). destruct (ev y) as [| |[|i] z|]; try reflexivity. destruct H.
Qed.
Lemma advance_phi ev ys : forall i y w log, (forall j z, (i <= j)%nat -> match ev j z with NextPerson 0 _ => False | _ => True end) ->
  phi (snd (fst (HorizonModel.advance e ev i ys y w log))) = phi w.
Proof.
  induction ys as [|z ys IH]; intros i y w log H; cbn [HorizonModel.advance]; [reflexivity|].
  pose proof (catch_phi (ev i) (turns z y) z w log (fun t => H i t (le_n i))) as C. destruct (HorizonModel.catch_up e (ev i) (turns z y) z w log) as [[y' w'] l']. cbn [fst snd] in C.
  pose proof (IH (S i) y w' l' ltac:(intros; apply H; lia)) as D. destruct (HorizonModel.advance e ev (S i) ys y w' l') as [[r' w''] l'']. cbn [fst snd] in *. congruence.
Qed.
Lemma call_phi n : forall i s s', call_from e i n s = Ok s' -> phi (f_world s') = phi (f_world s).
Proof.
  induction n as [|n IH]; intros i s s' H; cbn [call_from] in H; [injection H as <-; reflexivity|].
  destruct (e_call e i (f_world s) (f_avail s)) as [[w a]|] eqn:E; [|discriminate]. cbn [bind] in H. apply IH in H. cbn [f_world] in H. rewrite H. clear IH H.
  cbn [e real_env e_call] in E. unfold real_call in E. destruct i as [|[|[|[|i]]]]; [| | | |injection E as <- _; reflexivity].
  all: match type of E with context [let* _ := ?m in _] => destruct m as [[h' s1]|]; [|discriminate] end; cbn [bind] in E; injection E as <- _; reflexivity.
Qed.
Lemma calls_phi s s' : call_subforecasts e s = Ok s' -> phi (f_world s') = phi (f_world s).
Proof. apply call_phi. Qed.
Lemma next_year_phi s s' : together s -> f_people s <> [] -> HorizonModel.next_year e s = Ok s' -> phi (f_world s') = (f_year s + 1)%Z.
Proof.
  intros (_ & T2 & _) N H. unfold HorizonModel.next_year in H. destruct (e_adj e (f_world s)) as [adj|]; [|discriminate]. cbn [bind] in H.
  destruct (HorizonModel.advance e NextSub 0 (f_subs s) (f_year s + 1) (f_world s) (f_log s)) as [[subs w1] l1].
  destruct (f_people s) as [|p ps]; [contradiction|]. inversion T2; subst. cbn [HorizonModel.advance] in H. unfold turns in H at 1.
  replace (f_year s + 1 - f_year s)%Z with 1%Z in H by lia. change (Z.to_nat 1) with 1%nat in H. cbn [HorizonModel.catch_up] in H.
  pose proof (advance_phi NextPerson ps 1 (f_year s + 1) (e_next e (NextPerson 0 (f_year s)) w1) (l1 ++ [NextPerson 0 (f_year s)]) ltac:(intros [|j] z L; [lia|exact I])) as A.
  destruct (HorizonModel.advance e NextPerson 1 ps _ _ _) as [[people w2] l2]. cbn [fst snd] in A.
  pose proof (advance_phi NextAccount (f_accts s) 0 (f_year s + 1) w2 l2 ltac:(intros; exact I)) as B.
  destruct (HorizonModel.advance e NextAccount 0 (f_accts s) (f_year s + 1) w2 l2) as [[accts w3] l3]. cbn [fst snd] in B.
  destruct (carryover_tax e w3 _ adj) as [a2|]; [|discriminate]. cbn [bind] in H. injection H as <-. cbn [f_world]. rewrite B, A. cbn [e real_env e_next]. rewrite next_phi. reflexivity.
Qed.
End Years.

(** In every year but the last, the tax a forecast reports is the federal and provincial tax on that year's figures,
    with the brackets and amounts of 2017 in that year's money; it is between 0 and 66% of the household's income; and
    what was withheld over (under) it is added to (taken from) the next year's cash. *)
Theorem C125_tax_of_the_year : forall X (c0 : config X) k bal order last s s' L arg ia fed bc,
  let c := with_treatment c0 k in
  canada_jurs arg "BC" = Ok (fed, bc) -> build_inflation_adjust arg = Ok ia -> consistent_inflation ia ->
  (forall x, asked [fed; bc] (ct_jurs k x)) -> NoDup (ct_people k) -> (forall l, Permutation (ct_order k l) l) ->
  keeps_year c (ct_year k) -> ct_year k (hh_rest (f_world s)) = f_year s ->
  Permutation order (seq 0 6) -> (f_year s <= last)%Z -> usable_env (real_env c) -> together s -> f_people s <> [] ->
  report_forecast (real_env c) (real_figures c bal) order last s = Ok (s', L) ->
  exists start called : nat -> fstate (world X), start 0%nat = s /\
    (forall i, (f_year s + Z.of_nat i < last)%Z -> call_subforecasts (real_env c) (start i) = Ok (called i) /\ HorizonModel.next_year (real_env c) (called i) = Ok (start (S i))) /\
    forall i f inc od oc, (f_year s + Z.of_nat i < last)%Z ->
      let y := (f_year s + Z.of_nat i)%Z in let w := f_world (called i) in
      let who := ct_who k (hh_rest w) (hh_heap w) (hh_people w) in let spouse := ct_spouse k (hh_rest w) in
      price_rise arg y f ->
      (forall n, concerned spouse (ct_people k) n -> Prop_Tax.figures (cp_tp (who n)) y (inc n) (od n) (oc n)) ->
      (forall n, In n (ct_people k) -> 0 <= oc n /\ 0 <= od n) ->
      exists tax withheld, hist L TAX y = Some tax /\
        tax == federal_tax who spouse (ct_people k) inc od oc f + provincial_tax who spouse (ct_people k) inc od oc f /\
        0 <= tax /\ tax <= (66 # 100) * Qsum (map (fun n => qmax (inc n) 0) (ct_people k)) /\
        tax_withheld (c_wh c (hh_rest w) (hh_heap w)) (hh_people w) = Ok withheld /\
        total (f_avail (start (S i))) == total (f_avail (called i)) + (withheld - tax).
Proof.
  intros X c0 k bal order last s s' L arg ia fed bc c J B CI HA ND HO K Y0 HP Hl HU HT Hp R.
  destruct (C107_reported _ (real_env c) (real_figures c bal) order last s s' L HP Hl R) as (start & called & S0 & ST & _ & _ & _ & HH & _).
  exists start, called. split; [exact S0|]. split; [exact ST|].
  assert (G : forall i, (f_year s + Z.of_nat i <= last)%Z -> together (start i) /\ f_people (start i) <> [] /\ f_year (start i) = (f_year s + Z.of_nat i)%Z /\ ct_year k (hh_rest (f_world (start i))) = (f_year s + Z.of_nat i)%Z).
  { induction i as [|i IH]; intro Hi.
    - rewrite S0. replace (f_year s + Z.of_nat 0)%Z with (f_year s) by lia. auto.
    - destruct IH as (T & P & Y & Z0); [lia|]. destruct (ST i ltac:(lia)) as (C1 & N1). pose proof (call_together _ _ _ _ T C1) as T1.
      pose proof C1 as C2. unfold call_subforecasts in C2. apply call_from_shape in C2. destruct C2 as (Y2 & _ & P2 & _ & _).
      destruct (next_year_shape _ _ _ _ T1 N1) as (Y3 & T3 & _ & L3 & _). split; [exact T3|]. split.
      + intro E. rewrite E in L3. rewrite P2 in L3. destruct (f_people (start i)); [contradiction|discriminate L3].
      + split; [lia|]. pose proof (next_year_phi c (ct_year k) K (called i) (start (S i)) T1 ltac:(rewrite P2; exact P) N1) as Q. unfold phi in Q. rewrite Q. lia. }
  intros i f inc od oc Hi y w who spouse F HF HN. destruct (G i ltac:(lia)) as (T & P & Y & Yr). destruct (ST i Hi) as (C1 & N1).
  assert (Yw : ct_year k (hh_rest w) = y). { pose proof (calls_phi c (ct_year k) (start i) (called i) C1) as Q. unfold phi in Q. unfold w. rewrite Q. exact Yr. }
  assert (HF' : forall n, In n (ct_people k) -> 0 <= oc n) by (intros n Hn; apply HN, Hn).
  destruct (C122_canadian_household who spouse (ct_order k) inc od oc arg ia fed bc (ct_jurs k (hh_rest w)) (ct_people k) y f J B CI F (HA _) ND HO HF HF') as (t & js' & E & TE).
  pose proof (C122_canadian_bounds who spouse (ct_order k) inc od oc arg ia fed bc (ct_jurs k (hh_rest w)) (ct_people k) y f t js' J B CI F (HA _) ND HO HF HN E) as (B0 & B1).
  assert (OW : c_owing c (hh_rest w) (hh_heap w) (hh_people w) = Ok t).
  { cbn [c with_treatment c_owing]. unfold canada_owing. rewrite Yw. fold who spouse. rewrite E. reflexivity. }
  destruct (HH i 5%nat Hi ltac:(lia)) as (v & AV & HV & _). assert (v = t).
  { destruct AV as [(D & _)|[(D & _)|[(D & _)|[(D & _)|[(D & _)|(_ & D)]]]]]; try discriminate D. cbn [real_figures g_tax] in D. fold w in D. rewrite OW in D. injection D as <-. reflexivity. }
  subst v. pose proof N1 as N2. unfold HorizonModel.next_year in N2. destruct (e_adj (real_env c) (f_world (called i))) as [adj|] eqn:EA; [|discriminate]. clear N2.
  pose proof EA as EA2. cbn [real_env e_adj] in EA2. fold w in EA2. unfold tax_adjustment in EA2. rewrite OW in EA2.
  destruct (tax_withheld (c_wh c (hh_rest w) (hh_heap w)) (hh_people w)) as [wh|]; [|discriminate]. cbn [bind] in EA2. injection EA2 as <-.
  destruct (C66_settled_next_year _ (real_env c) (called i) (start (S i)) (wh - t) HU EA N1) as (TT & _).
  exists t, wh. split; [exact HV|]. split; [exact TE|]. split; [exact B0|]. split; [exact B1|]. split; [reflexivity|]. exact TT.
Qed.
Print Assumptions C125_tax_of_the_year.

(** prices double every year; 1 and 2 are married and earn more in 2019; in odd years the tax treatment remembers an
    earlier question; money is invested, and 300 withheld from withdrawals *)
Definition ca_jurs0 : list jur := match canada_jurs (ICallable doubling) "BC" with Ok (f, b) => [f; b] | Err _ => [] end.
Definition ca_spouse (n : nat) : option nat := match n with 1%nat => Some 2%nat | 2%nat => Some 1%nat | _ => None end.
Definition ca_inc (y : Z) (n : nat) : Q := inject_Z (y - 2016) * (match n with 1%nat => 125000 | _ => 10000 end).
Definition ca_who (x : Z) (h : heap) (ps : list person) (n : nat) : cperson :=
  {| cp_id := Z.of_nat n; cp_tp := {| tp_income := [(2018%Z, ca_inc 2018 n); (2019%Z, ca_inc 2019 n)]; tp_deduction := [(2018%Z, demo_od n); (2019%Z, demo_od n)]; tp_credit := [(2018%Z, demo_oc n); (2019%Z, demo_oc n)] |};
     cp_income_now := ca_inc x n; cp_rrsp_out := [- (100)] |}.
Definition ca_jurs (x : Z) : list jur :=
  if Z.odd x then match mcall demo_who demo_spouse (@rev nat) ca_jurs0 (One 2) 2018 [] [(1%nat, Flat 100)] with Ok (_, js) => js | Err _ => [] end else ca_jurs0.
Definition ca_treatment : treatment Z := {| ct_year := fun x => x; ct_people := [1; 2]%nat; ct_who := ca_who; ct_spouse := fun _ => ca_spouse; ct_order := @rev nat; ct_jurs := ca_jurs |}.
Definition ca_cfg0 : HorizonModel.config Z := {|
  c_kinds := fun _ => None; c_default := [(0, 1)]; c_living := fun _ _ _ => Ok 60;
  c_save := fun _ h => Ok [(1%nat, [(1, Qsum (dvals (hget h 0)) - 10)])];
  c_withdraw := fun x _ => Ok [(2%nat, [(1 # 2, - (1000))])];
  c_wh := fun _ _ a => if Nat.eqb a 2 then 300 else 0; c_owing := fun _ _ _ => Ok 25;
  c_refund := Some [(1 # 4, 1)]; c_pay := None; c_next := fun ev '(x, h, ps) => (match ev with NextPerson 0 y => (y + 1)%Z | _ => x end, h, ps) |}.
Definition ca_start : fstate (HorizonModel.world Z) := {| f_year := 2018; f_avail := []; f_world := {| hh_rest := 2018%Z; hh_heap := [(0%nat, []); (1%nat, [(0, 500)]); (2%nat, [(0, 900)])]; hh_people := [ann; bob];
  hh_income := new_sub 2018; hh_living := new_sub 2018; hh_saving := new_sub 2018; hh_withdrawal := {| w_sub := new_sub 2018; w_withheld := 0 |} |};
  f_subs := [2018; 2018; 2018; 2018; 2018]%Z; f_people := [2018; 2018]%Z; f_accts := [2018; 2018]%Z; f_log := [] |}.
Definition ca_cfg := with_treatment ca_cfg0 ca_treatment.
Example C125_sat : exists fed bc s' L t18 t19, canada_jurs (ICallable doubling) "BC" = Ok (fed, bc) /\ (forall x, asked [fed; bc] (ct_jurs ca_treatment x)) /\
  keeps_year ca_cfg (ct_year ca_treatment) /\ ct_year ca_treatment (hh_rest (f_world ca_start)) = f_year ca_start /\ usable_env (real_env ca_cfg) /\ together ca_start /\ f_people ca_start <> [] /\
  report_forecast (real_env ca_cfg) (real_figures ca_cfg (fun _ => Ok 0)) demo_order 2020 ca_start = Ok (s', L) /\
  price_rise (ICallable doubling) 2018 2 /\ price_rise (ICallable doubling) 2019 4 /\
  (forall y n x h ps, y = 2018%Z \/ y = 2019%Z -> Prop_Tax.figures (cp_tp (ca_who x h ps n)) y (ca_inc y n) (demo_od n) (demo_oc n)) /\
  hist L TAX 2018 = Some t18 /\ hist L TAX 2019 = Some t19 /\ 58000 < t18 /\ t18 < t19.
Proof.
  destruct (canada_jurs (ICallable doubling) "BC") as [[fed bc]|] eqn:J; [|vm_compute in J; discriminate].
  assert (HA : forall x, asked [fed; bc] (ct_jurs ca_treatment x)).
  { assert (E0 : ca_jurs0 = [fed; bc]) by (unfold ca_jurs0; rewrite J; reflexivity).
    assert (E1 : exists t js, mcall demo_who demo_spouse (@rev nat) ca_jurs0 (One 2) 2018 [] [(1%nat, Flat 100)] = Ok (t, js)) by (do 2 eexists; vm_compute; reflexivity).
    destruct E1 as (t & js & E1). intro x. cbn [ca_treatment ct_jurs]. unfold ca_jurs. rewrite E1, E0. rewrite E0 in E1. destruct (Z.odd x); [|constructor].
    eapply asked_more; [apply asked_nothing|intro l; symmetry; apply Permutation_rev|exact E1]. }
  exists fed, bc. destruct (report_forecast (real_env ca_cfg) (real_figures ca_cfg (fun _ => Ok 0)) demo_order 2020 ca_start) as [[s' L]|] eqn:R; [|vm_compute in R; discriminate].
  destruct (hist L TAX 2018) as [t18|] eqn:H18; [|vm_compute in R; injection R as <- <-; vm_compute in H18; discriminate].
  destruct (hist L TAX 2019) as [t19|] eqn:H19; [|vm_compute in R; injection R as <- <-; vm_compute in H19; discriminate].
  exists s', L, t18, t19. split; [reflexivity|]. split; [exact HA|]. split; [intros [] x h ps; reflexivity|]. split; [reflexivity|].
  split; [split; intros w tm E; cbn in E; [injection E as <-|discriminate]; (split; [split; [reflexivity|exact I]|vm_compute; discriminate])|].
  split; [repeat split; repeat constructor|]. split; [discriminate|]. split; [reflexivity|].
  split; [split; [reflexivity|split; [discriminate|]]; intros _; eexists; split; reflexivity|]. split; [split; [reflexivity|split; [discriminate|]]; intros _; eexists; split; reflexivity|].
  split; [intros y n x h ps [-> | ->]; repeat split|]. split; [exact H18|]. split; [exact H19|].
  vm_compute in R. injection R as <- <-. vm_compute in H18, H19. injection H18 as <-. injection H19 as <-. split; vm_compute; reflexivity.
Qed.
