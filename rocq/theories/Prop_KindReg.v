(** C119: inflation, income and registered accounts in high precision. *)
From Verif Require Import Base BaseFacts InflationModel RBase KindModel Prop_Kind KindTaxModel Prop_KindTax KindRegModel PersonModel PersonSpec.
From Verif Require Import InflationProofs.
From Verif Require RegModel ScenarioModel.
From Coq Require Import Lia.
Open Scope Q_scope.

(** ** Specification.  [fits], [proper]: Prop_Kind.v; [amounts_fit], [plain_...]: Prop_KindTax.v *)
(** inflation rates of a scenario: a table, or one for all years *)
Inductive krates : Type := KTable (d : dict Z qn) | KConst (q : qn).
Definition rate_in (r : krates) (y : Z) : res qn := match r with KTable d => dget_r Z.eqb d y | KConst q => Ok q end.
Definition plain_rates (r : krates) : ScenarioModel.series := match r with KTable d => ScenarioModel.SDict (plain_amounts d) | KConst q => ScenarioModel.SConst (va q) end.
Definition rates_are (P : kind -> Prop) (r : krates) : Prop := match r with KTable d => Forall (fun yv => P (kd (snd yv))) d | KConst q => P (kd q) end.
(** the typed computation gives what the plain one does: the same error, or the same number in a type that fits - the high-precision type
    if [high] *)
Definition gives_same (hp high : bool) (r : res qn) (p : res Q) : Prop :=
  match p with
  | Err e => r = Err e
  | Ok v => exists a, r = Ok a /\ va a == v /\ fits hp (kd a) /\ (hp = true -> high = true -> kd a = High)
  end.
(** inflation adjustments of fitting types *)
Definition adjust_fits (hp : bool) (ia : kiadj) : Prop := forall y b v, ia y b = Ok v -> fits hp (kd v).
Definition plain_adjust (ia : kiadj) : RegModel.iadj := fun y b => plain_res (ia y b).
Definition plain_consts (K : kconsts) : RegModel.reg_consts :=
  {| RegModel.rc_rrsp_rate := va (kc_rrsp_rate K); RegModel.rc_rrsp_max := plain_amounts (kc_rrsp_max K); RegModel.rc_rrsp_age := kc_rrsp_age K;
     RegModel.rc_rrif_min := plain_amounts (kc_rrif_min K); RegModel.rc_withhold := plain_tables (kc_withhold K);
     RegModel.rc_tfsa := plain_amounts (kc_tfsa K); RegModel.rc_tfsa_age := kc_tfsa_age K; RegModel.rc_tfsa_round := va (kc_tfsa_round K) |}.
(** constants that are converted may be of any type with high_precision, and not of the high-precision type without it *)
Definition convertible (hp : bool) (k : kind) : Prop := hp = true \/ k <> High.
Definition rrsp_consts (hp : bool) (K : kconsts) : Prop :=
  convertible hp (kd (kc_rrsp_rate K)) /\ Forall (fun kv => convertible hp (kd (snd kv))) (kc_rrsp_max K) /\ Forall (fun kv => convertible hp (kd (snd kv))) (kc_rrif_min K) /\
  Forall (fun yb => Forall (fun kv => convertible hp (kd (snd kv))) (snd yb)) (kc_withhold K).
(** the constants of TFSAs are whole numbers *)
Definition tfsa_consts (K : kconsts) : Prop := Forall (fun kv => kd (snd kv) = Int) (kc_tfsa K) /\ kd (kc_tfsa_round K) = Int.

(** ** Proofs *)
(** *** Inflation *)
Lemma nr_gives hp high r p : agree (fun a q => nr hp a q /\ (hp = true -> high = true -> kd a = High)) r p -> gives_same hp high r p.
Proof. unfold gives_same. destruct r as [a|e], p as [q|e']; cbn; try tauto; [|now intros ->]. intros [[<- F] H]. exists a. repeat split; auto. Qed.
Lemma rate_rel (P : kind -> Prop) r y : rates_are P r -> agree (fun a q => va a = q /\ P (kd a)) (rate_in r y) (ScenarioModel.series_get (plain_rates r) y).
Proof.
  destruct r as [d|q]; cbn; [|tauto]. intros H. induction H as [|[k v] d E H IH]; cbn; [reflexivity|]. unfold dget_r in *. cbn. destruct (Z.eqb y k); [now split|exact IH].
Qed.
Section Scen.
Variables (hp : bool) (r : krates) (s : ScenarioModel.scenario).
Hypothesis R : rates_are (proper hp) r.
Hypothesis IS : ScenarioModel.inflation s = plain_rates r.
Lemma loop_rel : forall ys acc q, nr hp acc q ->
  agree (fun a v => nr hp a v /\ (kd acc = High \/ ys <> [] -> hp = true -> kd a = High)) (grow_loop (rate_in r) acc ys) (ScenarioModel.accum_loop s q ys).
Proof.
  induction ys as [|y ys IH]; intros acc q A; cbn [grow_loop ScenarioModel.accum_loop]; [split; [exact A|intros [H | H]; [auto|contradiction]]|].
  unfold ScenarioModel.discount_rate. rewrite IS. eapply agree_bind; [exact (rate_rel _ r y R)|]. intros i i' [<- Pi].
  destruct (lift_r Qplus hp (whole 1) i (fits_int hp 1) Pi) as (k & E & Pk). unfold qadd. rewrite E. cbn [bind va whole].
  destruct A as [<- A]. destruct (lift_r Qmult hp acc (Num k (1 + va i)) A Pk) as (k2 & E2 & P2). unfold qmul. rewrite E2. cbn [bind va].
  specialize (IH (Num k2 (va acc * (1 + va i))) (va acc * (1 + va i)) (conj eq_refl (fits_proper _ _ P2))).
  destruct (grow_loop _ _ _) as [a|e], (ScenarioModel.accum_loop _ _ _) as [v|e']; cbn in *; auto. destruct IH as [N H]. split; [exact N|]. intros _ Hh. apply H; [|exact Hh]. left. rewrite Hh in P2. exact P2.
Qed.
Lemma accumulation_rel y1 y2 :
  agree (fun a q => nr hp a q /\ (hp = true -> negb (Z.eqb y1 y2) = true -> kd a = High)) (accumulation (rate_in r) y1 y2) (ScenarioModel.accumulation_function s y1 y2).
Proof.
  unfold accumulation, ScenarioModel.accumulation_function.
  assert (N : forall a b, (a < b)%Z -> ScenarioModel.zrange2 a b <> []) by (intros a b L E; unfold ScenarioModel.zrange2 in E; apply map_eq_nil in E; destruct (Z.to_nat (b - a)) eqn:Q; [lia|discriminate]).
  pose proof (fun ys => loop_rel ys (whole 1) 1 (conj eq_refl (fits_int hp 1))) as L. destruct (Z.leb y1 y2) eqn:E.
  - specialize (L (ScenarioModel.zrange2 y1 y2)). destruct (grow_loop _ _ _) as [a|e], (ScenarioModel.accum_loop _ _ _) as [v|e']; cbn in *; auto. destruct L as [A H]. split; [exact A|]. intros Hh Hd. apply H; [|exact Hh]. right. apply N. apply Z.leb_le in E. apply negb_true_iff, Z.eqb_neq in Hd. lia.
  - apply Z.leb_gt in E. specialize (L (ScenarioModel.zrange2 y2 y1)). eapply agree_bind; [exact L|]. intros a v [[<- F] H]. unfold kqdiv. assert (P : proper hp (kd a)) by (destruct hp; [cbn; apply H; auto|exact F]).
    destruct (mix_r hp (kd (whole 1)) (kd a) (fits_int hp 1) P) as (k & Ek & Pk). rewrite Ek. unfold qdiv. cbn [va whole]. destruct (Qeq_bool (va a) 0); cbn; [reflexivity|]. pose proof (kdiv_kind hp k Pk) as P2. split; [split; [reflexivity|now apply fits_proper]|]. intros Hh _. rewrite Hh in P2. exact P2.
Qed.
End Scen.

(** The inflation adjustments of a scenario whose rates are all of the high-precision type (without it: none is) are those computed without
    the types, and in high precision between different years. *)
Theorem C119_inflation_partial : forall hp rates s initial target base, rates_are (proper hp) rates -> ScenarioModel.inflation s = plain_rates rates ->
  let from := match base with Some b => b | None => initial end in
  gives_same hp (negb (Z.eqb from target)) (inflation_adjust (rate_in rates) initial target base) (ScenarioModel.accumulation_function s from target).
Proof. intros hp rates s i t b R IS from. apply nr_gives. apply accumulation_rel; assumption. Qed.
Print Assumptions C119_inflation_partial.

(** Whole-number rates - inflation 0, which a Scenario has by default - give floats looking back. *)
Lemma ints_loop r : rates_are (fun k => k = Int) r -> forall ys acc, kd acc = Int ->
  match grow_loop (rate_in r) acc ys with Ok a => kd a = Int | Err e => e = KeyError end.
Proof.
  intros R. induction ys as [|y ys IH]; intros acc A; cbn [grow_loop]; [exact A|].
  assert (X : match rate_in r y with Ok i => kd i = Int | Err e => e = KeyError end).
  { clear IH. destruct r as [d|q]; cbn in *; [|exact R]. induction R as [|[k v] d E H IH']; cbn; [reflexivity|]. unfold dget_r in *. cbn. destruct (Z.eqb y k); [exact E|exact IH']. }
  destruct (rate_in r y) as [i|e]; cbn [bind]; [|exact X]. unfold qadd, lift at 1. rewrite X. cbn [kd whole mix bind]. unfold qmul, lift at 1. rewrite A. cbn [kd mix bind]. now apply IH.
Qed.
Theorem C119_whole_rates_refuted : forall rates initial target base v, rates_are (fun k => k = Int) rates -> (target < base)%Z ->
  inflation_adjust (rate_in rates) initial target (Some base) = Ok v -> kd v = Float.
Proof.
  intros r i t b v R L E. unfold inflation_adjust, accumulation in E. destruct (Z.leb b t) eqn:X; [apply Z.leb_le in X; lia|].
  pose proof (ints_loop r R (ScenarioModel.zrange2 t b) (whole 1) eq_refl) as H. destruct (grow_loop _ _ _) as [a|e]; cbn [bind] in E; [|discriminate].
  unfold kqdiv, qdiv in E. rewrite H in E. cbn [kd whole mix va] in E. destruct (Qeq_bool (va a) 0); cbn in E; [discriminate|]. now injection E as <-.
Qed.
Print Assumptions C119_whole_rates_refuted.
(** So with the default inflation no tax can be computed in high precision for a year before the tables. *)
Lemma zero_rates : forall ys acc, kd acc = Int -> va acc == 1 -> exists a, grow_loop (fun _ => Ok (whole 0)) acc ys = Ok a /\ kd a = Int /\ va a == 1.
Proof.
  induction ys as [|y ys IH]; intros acc K V; cbn [grow_loop]; [exists acc; auto|]. cbn [bind]. unfold qadd, lift at 1. cbn [kd whole mix bind va]. unfold qmul, lift at 1. rewrite K. cbn [kd mix bind]. apply IH; [reflexivity|]. cbn. rewrite V. reflexivity.
Qed.
Theorem C119_default_inflation_refuted : forall hp brackets pd cr s initial year income deduction credit, brackets <> [] ->
  Forall (fun yb => high_table (snd yb)) brackets -> (forall y, In y (dkeys brackets) -> (year < y)%Z) ->
  tax_init hp brackets pd cr (ICallable (inflation_adjust (rate_in (KConst (whole 0))) initial)) = Ok s ->
  kd income <> Float -> kd deduction <> Float -> kd income = High \/ kd deduction = High ->
  tax_money s income year deduction credit = Err TypeError.
Proof.
  intros hp brackets pd cr s i year income ded credit NE HT BY E K1 K2 K3. eapply C118_float_inflation_refuted; try eassumption.
  - intros I. specialize (BY _ I). lia.
  - cbn. intros y I. specialize (BY _ I). unfold inflation_adjust, accumulation. destruct (Z.leb y year) eqn:L; [apply Z.leb_le in L; lia|].
    change (rate_in (KConst (whole 0))) with (fun _ : Z => Ok (whole 0)). destruct (zero_rates (ScenarioModel.zrange2 year y) (whole 1) eq_refl) as (a & -> & Ka & Va); [reflexivity|]. cbn [bind]. unfold kqdiv, qdiv. rewrite Ka. cbn [kd whole mix va]. destruct (Qeq_bool (va a) 0) eqn:Z; [apply Qeq_bool_iff in Z; rewrite Va in Z; discriminate|]. cbn. eexists. split; reflexivity.
Qed.
Print Assumptions C119_default_inflation_refuted.

(** *** Income *)
(** the person without the types *)
Definition plain_raise (hp : bool) (a : kraise) (y : Z) : option Q := match raise_callable hp a y with Ok v => Some (va v) | Err _ => None end.
Definition plain_person (hp : bool) (inputs : Z -> option qn) (a : kraise) (retire : option Z) : pparams :=
  {| pp_retire := retire; pp_raise := plain_raise hp a; pp_tax := None; pp_inputs := fun p y => if Nat.eqb p GROSS then option_map va (inputs y) else None |}.
Definition raise_fits (hp : bool) (a : kraise) : Prop :=
  match a with RScalar r => convertible hp (kd r) | RTable d => amounts_fit hp d | RCallable f => forall y v, f y = Ok v -> fits hp (kd v) end.
Lemma conv_fits hp (a : qn) : convertible hp (kd a) -> proper hp (kd (conv hp a)).
Proof. destruct hp; cbn; [reflexivity|]. intros [H | H]; [discriminate|exact H]. Qed.
(** A person's income is as without the types, in a type that fits; raises given as one number may be floats even so: they are converted. *)
Theorem C119_income_partial : forall hp inputs first a retire y0 n, fits hp (kd first) -> (forall y v, inputs y = Some v -> fits hp (kd v)) -> raise_fits hp a ->
  (forall y, (y0 < y <= y0 + Z.of_nat n)%Z -> exists v, raise_callable hp a y = Ok v) ->
  exists g, gross_income hp inputs first (raise_callable hp a) retire y0 n = Ok g /\
    va g == gross_in (plain_person hp inputs a retire) y0 (va first) (y0 + Z.of_nat n) /\ fits hp (kd g) /\
    (hp = true -> inputs (y0 + Z.of_nat n)%Z = None -> (0 < n)%nat -> (exists r, a = RScalar r) -> kd g = High).
Proof.
  intros hp inputs first a retire y0 n F I R A. unfold gross_in. replace (y0 + Z.of_nat n - y0)%Z with (Z.of_nat n) by lia. rewrite Nat2Z.id.
  assert (RF : forall y v, raise_callable hp a y = Ok v -> fits hp (kd v) /\ ((exists r, a = RScalar r) -> proper hp (kd v))).
  { intros y v E. destruct a as [r|d|f]; cbn in E, R.
    - injection E as <-. split; [apply fits_proper|intros _]; now apply conv_fits.
    - split; [|intros (r & X); discriminate]. clear - E R. induction R as [|[k w] d X R IH]; unfold dget_r in *; cbn in *; [discriminate|]. destruct (Z.eqb y k); [now injection E as <-|auto].
    - split; [now apply (R y)|intros (r & X); discriminate]. }
  induction n as [|n IH].
  - cbn [gross_income gross_after]. unfold or_input. cbn [plain_person pp_inputs]. cbn [Nat.eqb GROSS]. destruct (inputs (y0 + Z.of_nat 0)%Z) as [v|] eqn:E; cbn [option_map]; eexists; (split; [reflexivity|]); (split; [reflexivity|]); (split; [eauto|lia]).
  - destruct IH as (g & E & V & Fg & _); [intros y L; apply A; lia|]. cbn [gross_income gross_after]. rewrite E. cbn [bind]. unfold or_input at 1. cbn [plain_person pp_inputs Nat.eqb GROSS]. destruct (inputs (y0 + Z.of_nat (S n))%Z) as [v|] eqn:EI; cbn [option_map].
    { exists v. split; [reflexivity|]. split; [reflexivity|]. split; [eauto|discriminate]. }
    unfold retired_in. cbn [plain_person pp_retire]. destruct (match retire with Some r => (r <? y0 + Z.of_nat (S n))%Z | None => false end).
    { exists (conv hp (whole 0)). split; [reflexivity|]. rewrite conv_va. split; [reflexivity|]. assert (P : proper hp (kd (conv hp (whole 0)))) by (apply conv_fits; right; discriminate). split; [now apply fits_proper|]. intros -> _ _ _. reflexivity. }
    destruct (A (y0 + Z.of_nat (S n))%Z) as (r & ER); [lia|]. rewrite ER. cbn [bind]. destruct (RF _ _ ER) as [Fr Pr]. destruct (lift_fits Qplus hp (whole 1) r (fits_int hp 1) Fr) as (k & E1 & F1). unfold qadd. rewrite E1. cbn [bind].
    destruct (lift_fits Qmult hp g (Num k (va (whole 1) + va r)) Fg F1) as (k2 & E2 & F2). unfold qmul. rewrite E2. eexists. split; [reflexivity|]. cbn [va whole kd].
    assert (RI : raise_in (plain_person hp inputs a retire) (y0 + Z.of_nat (S n)) = va r) by (unfold raise_in, or_input; cbn [plain_person pp_inputs pp_raise]; cbn [Nat.eqb RAISE GROSS]; unfold plain_raise; now rewrite ER).
    split; [rewrite RI, V; reflexivity|]. split; [exact F2|]. intros Hh _ _ S. specialize (Pr S). subst hp. cbn in Pr. unfold lift in E1. rewrite Pr in E1. cbn in E1. injection E1 as <-. unfold lift in E2. cbn [kd] in E2. destruct (kd g); cbn in E2; try discriminate; now injection E2 as <-.
Qed.
Print Assumptions C119_income_partial.
(** Raises given by year are not converted: floats cannot be applied to an income in high precision. *)
Theorem C119_raise_table_refuted : forall (d : dict Z qn) first y0 r, kd first = High -> dget Z.eqb d (y0 + 1)%Z = Some r -> kd r = Float ->
  gross_income true (fun _ => None) first (raise_callable true (RTable d)) None y0 1 = Err TypeError.
Proof.
  intros d first y0 r K G F. cbn [gross_income bind raise_callable]. unfold dget_r. change (y0 + Z.of_nat 1)%Z with (y0 + 1)%Z. rewrite G. cbn [bind]. unfold qadd, lift at 1. rewrite F. cbn [kd whole mix bind]. unfold qmul, lift. rewrite K. reflexivity.
Qed.
Print Assumptions C119_raise_table_refuted.


(** *** Registered accounts *)
Lemma plain_agree hp ia : adjust_fits hp ia -> forall y b, agree (nr hp) (ia y b) (plain_adjust ia y b).
Proof. intros H y b. unfold plain_adjust, plain_res. specialize (H y b). destruct (ia y b) as [v|e]; cbn; [|reflexivity]. split; [reflexivity|auto]. Qed.
Lemma extend_rel (P A T : qn -> Q -> Prop) (d : dict Z qn) e ia ja y : zr P d e -> (forall y b, agree A (ia y b) (ja y b)) -> (forall v x, P v x -> T v x) ->
  (forall v x f g, P v x -> A f g -> agree T (qmul v f) (Ok (x * g))) -> agree T (extend_scalar d ia y) (RegModel.extend_scalar e ja y).
Proof.
  intros Z0 IA PT M. unfold extend_scalar, RegModel.extend_scalar, extend_inflation_adjusted.
  set (vd := RegModel.scalar_table e).
  assert (Z1 : zr (fun b v => exists c, v = VScalar c /\ P b c) d vd).
  { unfold vd, RegModel.scalar_table. induction Z0 as [|[k u] [k' w] d e [E G] H IH]; cbn in *; [constructor|]. constructor; [split; [exact E|cbn; eauto]|exact IH]. }
  rewrite <- (zr_nearest _ _ _ y Z1). pose proof (zr_get _ _ _ y Z1) as O.
  destruct (dget Z.eqb d y) as [b|], (dget Z.eqb vd y) as [v|]; cbn in O; try contradiction.
  - destruct O as (c & -> & B). cbn. auto.
  - destruct (nearest_year d y) as [base|]; [|reflexivity]. destruct (Z.eqb base y); [reflexivity|].
    pose proof (zr_get_r _ _ _ base Z1) as O2. destruct (dget_r Z.eqb d base) as [b|er], (dget_r Z.eqb vd base) as [v|e']; cbn in O2; try contradiction; [|subst; reflexivity].
    destruct O2 as (c & -> & B). cbn [bind]. specialize (IA y (Some base)). destruct (ia y (Some base)) as [f|], (ja y (Some base)) as [g|]; cbn in IA; try contradiction; [|subst; reflexivity].
    cbn [bind]. specialize (M b c f g B IA). exact M.
Qed.
(** a number that is proper *)
Definition pn (hp : bool) (a : qn) (q : Q) : Prop := va a = q /\ proper hp (kd a).
Lemma pn_nr hp a q : pn hp a q -> nr hp a q. Proof. intros [V P]. split; [exact V|now apply fits_proper]. Qed.
Lemma pn_gives hp high r p : agree (pn hp) r p -> gives_same hp high r p.
Proof. unfold gives_same. destruct r as [a|e], p as [q|e']; cbn; try tauto; [|now intros ->]. intros [<- P]. exists a. split; [reflexivity|]. split; [reflexivity|]. split; [now apply fits_proper|]. intros -> _. exact P. Qed.
Lemma pn_l (f : Q -> Q -> Q) hp a b x y : pn hp a x -> nr hp b y -> agree (pn hp) (lift f a b) (Ok (f x y)).
Proof. intros [<- A] [<- B]. destruct (lift_l f hp a b A B) as (k & E & P). rewrite E. cbn. now split. Qed.
Lemma pn_r (f : Q -> Q -> Q) hp a b x y : nr hp a x -> pn hp b y -> agree (pn hp) (lift f a b) (Ok (f x y)).
Proof. intros [<- A] [<- B]. destruct (lift_r f hp a b A B) as (k & E & P). rewrite E. cbn. now split. Qed.
Lemma nn (f : Q -> Q -> Q) hp a b x y : nr hp a x -> nr hp b y -> agree (nr hp) (lift f a b) (Ok (f x y)).
Proof. intros A B. destruct (lift_nr hp f a b x y A B) as (c & -> & C). exact C. Qed.
Lemma conv_pn hp (a : qn) : convertible hp (kd a) -> pn hp (conv hp a) (va a).
Proof. intros C. split; [apply conv_va|now apply conv_fits]. Qed.
Lemma pn_min hp a b x y : pn hp a x -> pn hp b y -> pn hp (kmin2 a b) (qmin x y).
Proof. intros [<- A] [<- B]. split; [reflexivity|]. cbn. destruct (Qlt_bool _ _); auto. Qed.
Lemma pn_max hp a b x y : pn hp a x -> pn hp b y -> pn hp (kmax2 a b) (qmax x y).
Proof. intros [<- A] [<- B]. split; [reflexivity|]. cbn. destruct (Qlt_bool _ _); auto. Qed.
Lemma conv_all_rel hp (d : dict Z qn) : Forall (fun kv => convertible hp (kd (snd kv))) d -> zr (pn hp) (conv_all hp d) (plain_amounts d).
Proof. intros H. induction H as [|[k v] d C H IH]; cbn; constructor; [split; [reflexivity|now apply conv_pn]|exact IH]. Qed.
Lemma zero_pn hp : pn hp (conv hp (whole 0)) 0.
Proof. apply (conv_pn hp (whole 0)). right. discriminate. Qed.
Lemma max_rel hp (d : dict Z qn) e : zr (pn hp) d e -> opt_rel (pn hp) (kmax_opt (map snd d)) (RegModel.qmax_opt (map snd e)).
Proof.
  intros H. destruct H as [|x y d e [_ E] H]; cbn; [exact Logic.I|]. revert E. generalize (snd x), (snd y). induction H as [|u w d e [_ F] H IH]; intros a b E; cbn; [exact E|]. apply IH. now apply pn_max.
Qed.
(** brackets: only the values matter *)
Lemma bracket_va (b : ktable) i : agree (fun k q => va k = q) (bracket_of b i) (RegModel.bracket_of (plain_table b) (va i)).
Proof.
  assert (MX : forall l, option_map va (kmax_opt l) = RegModel.qmax_opt (map va l)).
  { intros [|x l]; cbn; [reflexivity|]. f_equal. revert x. induction l; intros; cbn; [reflexivity|]. rewrite IHl. reflexivity. }
  assert (MN : forall l, option_map va (kmin_opt l) = RegModel.qmin_opt (map va l)).
  { intros [|x l]; cbn; [reflexivity|]. f_equal. revert x. induction l; intros; cbn; [reflexivity|]. rewrite IHl. reflexivity. }
  assert (KS : dkeys (plain_table b) = map va (dkeys b)) by (unfold dkeys, plain_table; rewrite !map_map; reflexivity).
  assert (FL : forall l : list qn, filter (fun q => Qlt_bool q (va i)) (map va l) = map va (filter (fun k : qn => Qlt_bool (va k) (va i)) l)).
  { induction l as [|x l IH]; cbn; [reflexivity|]. destruct (Qlt_bool (va x) (va i)); cbn; now rewrite IH. }
  unfold bracket_of, RegModel.bracket_of. rewrite KS, FL, <- MX, <- MN. destruct (kmax_opt _); cbn; [reflexivity|]. destruct (kmin_opt _); cbn; reflexivity.
Qed.
Lemma get_va (b : ktable) (P : kind -> Prop) k : Forall (fun kv => P (kd (snd kv))) b -> agree (fun v q => va v = q /\ P (kd v)) (dget_r keq b k) (dget_r Qeq_bool (plain_table b) (va k)).
Proof.
  intros H. unfold dget_r. induction H as [|[c u] b F H IH]; cbn; [reflexivity|]. unfold keq at 1. destruct (Qeq_bool (va k) (va c)); [now split|exact IH].
Qed.

Section Rrsp.
Variables (hp : bool) (K : kconsts) (ia : kiadj).
Hypothesis C : rrsp_consts hp K.
Hypothesis IA : adjust_fits hp ia.
Lemma max_accrual_rel y : agree (pn hp) (extend_scalar (conv_all hp (kc_rrsp_max K)) ia y) (RegModel.extend_scalar (plain_amounts (kc_rrsp_max K)) (plain_adjust ia) y).
Proof. destruct C as (_ & C2 & _). eapply extend_rel; [exact (conv_all_rel hp _ C2)|exact (plain_agree hp ia IA)|auto|]. intros v x f g V F. unfold qmul. now apply pn_l. Qed.
Lemma next_room_rel contributor income income' room inflows year : (forall y, agree (nr hp) (income y) (income' y)) ->
  (forall r, room = Some r -> fits hp (kd r)) -> fits hp (kd inflows) ->
  agree (pn hp) (rrsp_next_room hp K ia contributor income room inflows year)
    (RegModel.rrsp_next_room (plain_consts K) (plain_adjust ia) contributor income' (option_map va room) (va inflows) year).
Proof.
  intros IN RM FI. unfold rrsp_next_room, RegModel.rrsp_next_room. destruct (age_in_year contributor (year + 1)) as [a|e]; cbn [bind]; [|reflexivity]. cbn [plain_consts RegModel.rc_rrsp_age RegModel.rc_rrsp_rate RegModel.rc_rrsp_max].
  destruct (Z.ltb (kc_rrsp_age K) a); [apply zero_pn|]. eapply agree_bind; [apply IN|]. intros inc inc' I. destruct C as (C1 & _).
  pose proof (pn_r Qmult hp inc _ _ _ I (conv_pn hp _ C1)) as A. unfold qmul at 1. destruct (lift Qmult inc (conv hp (kc_rrsp_rate K))) as [acc|]; cbn in A; [|contradiction]. cbn [bind].
  eapply agree_bind; [apply max_accrual_rel|]. intros mx mx' M. destruct room as [r|]; cbn [option_map]; [|reflexivity].
  pose proof (nn Qminus hp r inflows _ _ (conj eq_refl (RM r eq_refl)) (conj eq_refl FI)) as D. unfold qsub. destruct (lift Qminus r inflows) as [ro|]; cbn in D; [|contradiction]. cbn [bind]. unfold qadd. apply pn_l; [|exact D]. now apply pn_min.
Qed.
Lemma distribution_rel contributor cy year balance : proper hp (kd balance) ->
  agree (pn hp) (minimum_distribution hp K contributor cy year balance) (RegModel.minimum_distribution (plain_consts K) contributor cy year (va balance)).
Proof.
  intros B. unfold minimum_distribution, RegModel.minimum_distribution. destruct (Z.ltb cy year); [|apply zero_pn]. destruct (age_in_year contributor year) as [a|e]; cbn [bind]; [|reflexivity].
  destruct C as (_ & _ & C3 & _). pose proof (conv_all_rel hp _ C3) as Z1. cbn [plain_consts RegModel.rc_rrif_min]. pose proof (zr_get _ _ _ a Z1) as O.
  destruct (dget Z.eqb (conv_all hp (kc_rrif_min K)) a) as [r|], (dget Z.eqb (plain_amounts (kc_rrif_min K)) a) as [q|]; cbn in O; try contradiction.
  - destruct O as [V P]. unfold qmul. pose proof (conv_pn hp r) as X. rewrite V in X. apply pn_l; [|split; [reflexivity|now apply fits_proper]]. apply X. destruct hp; [now left|right; exact P].
  - rewrite (zr_keys _ _ _ Z1). destruct (zmaxl (dkeys (plain_amounts (kc_rrif_min K)))) as [m|]; [|reflexivity]. destruct (Z.ltb m a).
    + pose proof (max_rel hp _ _ Z1) as O2. destruct (kmax_opt _) as [x|]; destruct (map snd (plain_amounts (kc_rrif_min K))) as [|y l]; cbn in O2; try contradiction; [|reflexivity]. unfold qmul. apply pn_l; [now split|now apply pn_nr].
    + unfold kqdiv. destruct (mix_l hp (kd balance) (kd (whole (inject_Z (90 - a)))) B (fits_int hp _)) as (k & E & P). rewrite E. cbn [va whole]. unfold qdiv. destruct (Qeq_bool (inject_Z (90 - a)) 0); cbn; [reflexivity|]. split; [reflexivity|]. now apply kdiv_kind.
Qed.
Lemma withheld_rel cy year taxable min_out min_out' : nr hp taxable (va taxable) -> ((cy <= year)%Z -> exists m, min_out = Ok m /\ nr hp m min_out') ->
  agree (pn hp) (rrsp_tax_withheld hp K ia cy year taxable min_out) (RegModel.rrsp_tax_withheld (plain_consts K) (plain_adjust ia) cy year (va taxable) min_out').
Proof.
  intros T M. unfold rrsp_tax_withheld, RegModel.rrsp_tax_withheld.
  assert (X : exists t, (if Z.ltb year cy then Ok taxable else let* m := min_out in qsub taxable m) = Ok t /\ nr hp t (if Z.ltb year cy then va taxable else va taxable - min_out')).
  { destruct (Z.ltb year cy) eqn:L; [exists taxable; now split|]. apply Z.ltb_ge in L. destruct (M L) as (m & -> & N). cbn [bind]. destruct (lift_nr hp Qminus _ _ _ _ T N) as (c & E & D). exists c. now split. }
  destruct X as (t & -> & [<- F]). cbn [bind]. destruct C as (_ & _ & _ & C4).
  assert (Z1 : zr (fun b c => c = plain_table b /\ Forall (fun kv => convertible hp (kd (snd kv))) b) (kc_withhold K) (plain_tables (kc_withhold K))).
  { induction C4 as [|[k b] d E H IH]; cbn; constructor; auto. }
  assert (NY : nearest_year (RegModel.rc_withhold (plain_consts K)) year = nearest_year (kc_withhold K) year) by (symmetry; exact (zr_nearest _ _ _ year Z1)). rewrite NY. destruct (nearest_year (kc_withhold K) year) as [ty|]; [|reflexivity].
  eapply agree_bind; [apply (zr_get_r _ _ _ ty Z1)|]. intros b c [-> CB]. eapply agree_bind; [apply (plain_agree hp ia IA)|]. intros f g G.
  pose proof (nn Qmult hp t f _ _ (conj eq_refl F) G) as X. unfold qmul at 1. destruct (lift Qmult t f) as [x|]; cbn in X; [|contradiction]. destruct X as [<- _]. cbn [bind].
  eapply agree_bind; [apply bracket_va|]. intros k q <-. eapply agree_bind; [apply (get_va b (convertible hp) k CB)|]. intros r r' [<- CR]. unfold qmul. apply pn_r; [now split|now apply conv_pn].
Qed.
End Rrsp.

(** An RRSP's figures are those computed without the types, all in high precision: the constants are converted, whatever their types. *)
Theorem C119_rrsp_partial : forall hp K ia, rrsp_consts hp K -> adjust_fits hp ia ->
  (forall y, gives_same hp true (rrsp_initial_accrual hp K ia y) (RegModel.extend_scalar (RegModel.rc_rrsp_max (plain_consts K)) (plain_adjust ia) y)) /\
  (forall contributor income room inflows year, (forall y v, income y = Ok v -> fits hp (kd v)) -> (forall r, room = Some r -> fits hp (kd r)) -> fits hp (kd inflows) ->
     gives_same hp true (rrsp_next_room hp K ia contributor income room inflows year)
       (RegModel.rrsp_next_room (plain_consts K) (plain_adjust ia) contributor (fun y => plain_res (income y)) (option_map va room) (va inflows) year)) /\
  (forall contributor cy year balance shared taxable, proper hp (kd balance) -> fits hp (kd shared) -> fits hp (kd taxable) ->
     gives_same hp true (minimum_distribution hp K contributor cy year balance) (RegModel.minimum_distribution (plain_consts K) contributor cy year (va balance)) /\
     gives_same hp false (rrsp_min_outflow hp K contributor cy year balance shared) (RegModel.rrsp_min_outflow (plain_consts K) contributor cy year (va balance) (va shared)) /\
     forall mo, RegModel.rrsp_min_outflow (plain_consts K) contributor cy year (va balance) (va shared) = Ok mo ->
       gives_same hp true (rrsp_tax_withheld hp K ia cy year taxable (rrsp_min_outflow hp K contributor cy year balance shared))
         (RegModel.rrsp_tax_withheld (plain_consts K) (plain_adjust ia) cy year (va taxable) mo)).
Proof.
  intros hp K ia C IA. split; [|split].
  - intros y. apply pn_gives. now apply max_accrual_rel.
  - intros co inc room inf year HI HR HF. apply pn_gives. apply next_room_rel; auto. intros y. specialize (HI y). destruct (inc y); cbn; [split; auto|reflexivity].
  - intros co cy year bal sh tx B S T. pose proof (distribution_rel hp K ia C IA co cy year bal B) as D.
    assert (M : agree (nr hp) (rrsp_min_outflow hp K co cy year bal sh) (RegModel.rrsp_min_outflow (plain_consts K) co cy year (va bal) (va sh))).
    { unfold rrsp_min_outflow, RegModel.rrsp_min_outflow. eapply agree_bind; [exact D|]. intros m q [<- P]. cbn [agree]. apply min_nr; [split; [reflexivity|now apply fits_proper]|now split]. }
    split; [now apply pn_gives|]. split.
    + apply nr_gives. destruct (rrsp_min_outflow _ _ _ _ _ _ _), (RegModel.rrsp_min_outflow _ _ _ _ _ _); cbn in *; auto. split; [exact M|discriminate].
    + intros mo E. apply pn_gives. apply withheld_rel; auto; [now split|]. intros _. rewrite E in M. destruct (rrsp_min_outflow _ _ _ _ _ _ _) as [m|]; cbn in M; [|contradiction]. eauto.
Qed.
Print Assumptions C119_rrsp_partial.

(** With rates given as floats an RRSP cannot be built in high precision in a year its accrual limits do not list. *)
Lemma float_loop r : rates_are (fun k => k = Float) r -> forall ys acc a, kd acc <> High -> grow_loop (rate_in r) acc ys = Ok a -> kd a <> High /\ (kd acc = Float \/ ys <> [] -> kd a = Float).
Proof.
  intros R. induction ys as [|y ys IH]; intros acc a A E; cbn [grow_loop] in E; [injection E as <-; split; [exact A|intros [H | H]; [exact H|contradiction]]|].
  assert (X : forall i, rate_in r y = Ok i -> kd i = Float).
  { pose proof (rate_rel _ r y R) as Q. intros i Ei. rewrite Ei in Q. destruct (ScenarioModel.series_get _ _); cbn in Q; [tauto|contradiction]. }
  destruct (rate_in r y) as [i|e]; cbn [bind] in E; [|discriminate]. specialize (X i eq_refl). unfold qadd, lift at 1 in E. rewrite X in E. cbn [kd whole mix bind] in E.
  unfold qmul, lift at 1 in E. destruct (kd acc) eqn:KA; try contradiction; cbn [kd mix bind] in E; apply IH in E; cbn; try discriminate; destruct E as [E1 E2]; (split; [exact E1|]); intros _; apply E2; now left.
Qed.
Lemma float_adjust r initial y b v : rates_are (fun k => k = Float) r -> b <> y -> inflation_adjust (rate_in r) initial y (Some b) = Ok v -> kd v = Float.
Proof.
  intros R NE E. unfold inflation_adjust, accumulation in E.
  assert (N : forall a b, (a < b)%Z -> ScenarioModel.zrange2 a b <> []) by (intros a c L X; unfold ScenarioModel.zrange2 in X; apply map_eq_nil in X; destruct (Z.to_nat (c - a)) eqn:Q; [lia|discriminate]).
  destruct (Z.leb b y) eqn:L.
  - apply Z.leb_le in L. apply (float_loop r R) in E; [|discriminate]. apply E. right. apply N. lia.
  - apply Z.leb_gt in L. destruct (grow_loop _ _ _) as [a|] eqn:G; cbn [bind] in E; [|discriminate]. apply (float_loop r R) in G; [|discriminate]. destruct G as [_ G]. unfold kqdiv in E. rewrite G in E by (right; apply N; lia). cbn [kd whole mix] in E. destruct (qdiv _ _); cbn in E; [now injection E as <-|discriminate].
Qed.
Theorem C119_rrsp_float_inflation_refuted : forall K rates initial y0, kc_rrsp_max K <> [] -> dget Z.eqb (kc_rrsp_max K) y0 = None ->
  rates_are (fun k => k = Float) rates -> (forall b, In b (dkeys (kc_rrsp_max K)) -> exists v, inflation_adjust (rate_in rates) initial y0 (Some b) = Ok v) ->
  rrsp_initial_accrual true K (inflation_adjust (rate_in rates) initial) y0 = Err TypeError.
Proof.
  intros K r i y0 NE G R EX. unfold rrsp_initial_accrual, extend_scalar. assert (Ks : dkeys (conv_all true (kc_rrsp_max K)) = dkeys (kc_rrsp_max K)) by (unfold conv_all, dkeys; rewrite map_map; reflexivity).
  assert (Gt : forall y, dget Z.eqb (conv_all true (kc_rrsp_max K)) y = option_map (conv true) (dget Z.eqb (kc_rrsp_max K) y)).
  { intros y. clear. induction (kc_rrsp_max K) as [|[k v] d IH]; cbn; [reflexivity|]. destruct (Z.eqb y k); [reflexivity|exact IH]. }
  rewrite Gt, G. cbn [option_map]. destruct (nearest_some (conv_all true (kc_rrsp_max K)) y0) as (b & v & -> & Gb). { destruct (kc_rrsp_max K); [contradiction|discriminate]. }
  assert (NB : b <> y0) by (intros ->; rewrite Gt, G in Gb; discriminate). rewrite (proj2 (Z.eqb_neq b y0) NB). unfold dget_r. rewrite Gb. cbn [bind].
  assert (IB : In b (dkeys (kc_rrsp_max K))). { rewrite Gt in Gb. destruct (dget Z.eqb (kc_rrsp_max K) b) as [w|] eqn:E; [|discriminate]. clear - E. induction (kc_rrsp_max K) as [|[k u] d IH]; cbn in *; [discriminate|]. destruct (Z.eqb b k) eqn:X; [left; now apply Z.eqb_eq in X|auto]. }
  destruct (EX b IB) as (w & E). pose proof (float_adjust r i y0 b w R NB E) as F. rewrite E. cbn [bind]. rewrite Gt in Gb. destruct (dget Z.eqb (kc_rrsp_max K) b) as [u|]; [|discriminate]. injection Gb as <-. unfold qmul, lift. rewrite F. reflexivity.
Qed.
Print Assumptions C119_rrsp_float_inflation_refuted.

(** A balance given as a whole number: an account converted to an RRIF early has a float for its minimum distribution, and its withholding
    tax cannot be computed. *)
Theorem C119_whole_balance_refuted : forall K ia contributor cy year balance shared taxable age m, (cy < year)%Z -> age_in_year contributor year = Ok age ->
  dget Z.eqb (kc_rrif_min K) age = None -> zmaxl (dkeys (kc_rrif_min K)) = Some m -> (age <= m)%Z -> (age < 90)%Z ->
  kd balance = Int -> 0 < va balance -> 0 <= va shared -> kd taxable = High ->
  (exists v, minimum_distribution true K contributor cy year balance = Ok v /\ kd v = Float) /\
  rrsp_tax_withheld true K ia cy year taxable (rrsp_min_outflow true K contributor cy year balance shared) = Err TypeError.
Proof.
  intros K ia co cy year bal sh tx age m L A G MX LM L90 KB PB PS KT.
  assert (Ks : dkeys (conv_all true (kc_rrif_min K)) = dkeys (kc_rrif_min K)) by (unfold conv_all, dkeys; rewrite map_map; reflexivity).
  assert (Gt : dget Z.eqb (conv_all true (kc_rrif_min K)) age = None).
  { clear - G. induction (kc_rrif_min K) as [|[k v] d IH]; cbn in *; [reflexivity|]. destruct (Z.eqb age k); [discriminate|auto]. }
  assert (D : 0 < inject_Z (90 - age)) by (change 0 with (inject_Z 0); rewrite <- Zlt_Qlt; lia).
  assert (E : minimum_distribution true K co cy year bal = Ok (Num Float (va bal / inject_Z (90 - age)))).
  { unfold minimum_distribution. rewrite (proj2 (Z.ltb_lt _ _) L), A. cbn [bind]. rewrite Gt, Ks, MX. rewrite (proj2 (Z.ltb_ge _ _) LM). unfold kqdiv, qdiv. rewrite KB. cbn [kd whole mix va].
    destruct (Qeq_bool (inject_Z (90 - age)) 0) eqn:Z; [apply Qeq_bool_iff in Z; rewrite Z in D; discriminate|]. reflexivity. }
  split; [eexists; split; [exact E|reflexivity]|]. unfold rrsp_tax_withheld, rrsp_min_outflow. rewrite E. destruct (Z.ltb year cy) eqn:X; [apply Z.ltb_lt in X; lia|]. cbn [bind]. unfold qsub, lift. rewrite KT. cbn [kd kneg kmin2 va].
  assert (P : 0 < va bal / inject_Z (90 - age)) by (apply Qlt_shift_div_l; [exact D|]; rewrite Qmult_0_l; exact PB).
  destruct (Qlt_bool (va sh) (- (va bal / inject_Z (90 - age)))) eqn:Q; [|reflexivity]. qb. exfalso. Lqa.lra.
Qed.
Print Assumptions C119_whole_balance_refuted.

(** *** TFSAs *)
Section Tfsa.
Variables (hp : bool) (K : kconsts) (ia : kiadj).
Hypothesis C : tfsa_consts K.
Definition wn (a : qn) (q : Q) : Prop := va a = q /\ kd a = Int.
Lemma wn_nr a q : wn a q -> nr hp a q. Proof. intros [V P]. split; [exact V|]. rewrite P. destruct hp; discriminate. Qed.
Lemma any_agree y b : agree (fun a q => va a = q) (ia y b) (plain_adjust ia y b).
Proof. unfold plain_adjust, plain_res. destruct (ia y b); cbn; reflexivity. Qed.
Lemma tfsa_rel : zr wn (kc_tfsa K) (plain_amounts (kc_tfsa K)).
Proof. destruct C as [H _]. induction H as [|[k v] d E H IH]; cbn; constructor; [now repeat split|exact IH]. Qed.
Lemma mix_int k : mix k Int = Some k. Proof. now destruct k. Qed.
Lemma round_rel a : agree wn (round_to (kc_tfsa_round K) a) (RegModel.round_to (va (kc_tfsa_round K)) (va a)).
Proof.
  destruct C as [_ F]. unfold round_to, RegModel.round_to, kqdiv. rewrite F, mix_int. unfold qdiv. destruct (Qeq_bool (va (kc_tfsa_round K)) 0); cbn [bind]; [reflexivity|]. unfold qmul, lift. cbn [kround whole kd va]. rewrite F. cbn. now split.
Qed.
Lemma base_rel : agree (fun x y => fst x = fst y /\ wn (snd x) (snd y)) (tfsa_base K ia) (RegModel.tfsa_base (plain_consts K) (plain_adjust ia)).
Proof.
  unfold tfsa_base, RegModel.tfsa_base. cbn [plain_consts RegModel.rc_tfsa RegModel.rc_tfsa_round]. rewrite <- (zr_keys _ _ _ tfsa_rel). destruct (zminl (dkeys (kc_tfsa K))) as [y|] eqn:E; [|reflexivity].
  assert (X : agree wn (extend_scalar (kc_tfsa K) ia y) (RegModel.extend_scalar (plain_amounts (kc_tfsa K)) (plain_adjust ia) y)).
  { assert (I : exists v, dget Z.eqb (kc_tfsa K) y = Some v).
    { assert (IN : In y (dkeys (kc_tfsa K))) by (pose proof (zminl_spec (dkeys (kc_tfsa K))) as Q; rewrite E in Q; apply Q). clear - IN. induction (kc_tfsa K) as [|[k u] d IH]; cbn in *; [contradiction|]. destruct (Z.eqb y k) eqn:Q; [eauto|]. apply IH. destruct IN as [-> |]; [rewrite Z.eqb_refl in Q; discriminate|assumption]. }
    destruct I as (v & G). pose proof (zr_get _ _ _ y tfsa_rel) as O. unfold extend_scalar, RegModel.extend_scalar, extend_inflation_adjusted. rewrite G in *. destruct (dget Z.eqb (plain_amounts (kc_tfsa K)) y) as [q|] eqn:G2; cbn in O; [|contradiction].
    replace (dget Z.eqb (RegModel.scalar_table (plain_amounts (kc_tfsa K))) y) with (Some (VScalar q)); [exact O|]. clear - G2. induction (plain_amounts (kc_tfsa K)) as [|[k u] d IH]; cbn in *; [discriminate|]. destruct (Z.eqb y k); [now injection G2 as ->|auto]. }
  eapply agree_bind; [exact X|]. intros v q [<- _]. eapply agree_bind; [apply round_rel|]. intros b c B. cbn. now split.
Qed.
Lemma accrual_rel owner y : agree (fun a q => nr hp a q) (tfsa_accrual hp K ia owner y) (RegModel.tfsa_accrual (plain_consts K) (plain_adjust ia) owner y).
Proof.
  unfold tfsa_accrual, RegModel.tfsa_accrual. destruct (age_in_year owner (y + 1)) as [a|e]; cbn [bind]; [|reflexivity]. cbn [plain_consts RegModel.rc_tfsa RegModel.rc_tfsa_age RegModel.rc_tfsa_round]. destruct (Z.ltb a (kc_tfsa_age K)); [apply pn_nr, zero_pn|].
  pose proof (zr_get _ _ _ y tfsa_rel) as O. destruct (dget Z.eqb (kc_tfsa K) y) as [v|], (dget Z.eqb (plain_amounts (kc_tfsa K)) y) as [q|]; cbn in O; try contradiction; [now apply wn_nr|].
  eapply agree_bind; [exact base_rel|]. intros [by1 b] [by2 c] [E B]. cbn [fst snd] in *. subst by2. eapply agree_bind; [apply any_agree|]. intros f g <-. destruct B as [<- KB].
  unfold qmul, lift. rewrite KB. replace (mix Int (kd f)) with (Some (kd f)) by now destruct (kd f). cbn [bind]. pose proof (round_rel (Num (kd f) (va b * va f))) as X. cbn [va] in X. destruct (round_to _ _), (RegModel.round_to _ _); cbn in *; auto. now apply wn_nr.
Qed.
Lemma sum_rel l m : Forall2 (agree (nr hp)) l m -> forall s, fits hp (kd s) -> agree (fun a q => va a == va s + q /\ fits hp (kd a)) (ksumM s l) (RegModel.sumM m).
Proof.
  intros H. induction H as [|r q l m E H IH]; intros s F; cbn; [split; [ring|exact F]|]. unfold RegModel.sumM in *. cbn [mapM]. destruct r as [v|], q as [w|]; cbn in E; try contradiction; cbn [bind]; [|exact E].
  destruct E as [<- Fv]. destruct (lift_fits Qplus hp s v F Fv) as (k & Es & Fk). unfold qadd. rewrite Es. cbn [bind]. specialize (IH (Num k (va s + va v)) Fk). cbn [va] in IH.
  destruct (ksumM _ l) as [a|], (mapM _ m) as [ws|]; cbn in *; auto. destruct IH as [V Fa]. split; [rewrite V; ring|exact Fa].
Qed.
End Tfsa.
(** A TFSA's room is as without the types, whatever the type of the inflation: accruals are rounded to whole numbers. *)
Theorem C119_tfsa : forall hp K ia owner, tfsa_consts K ->
  (forall year, gives_same hp false (tfsa_accrual hp K ia owner year) (RegModel.tfsa_accrual (plain_consts K) (plain_adjust ia) owner year)) /\
  (forall contributor hist y0, amounts_fit hp hist ->
     gives_same hp (match hist with [] => true | _ => false end) (tfsa_infer hp K ia owner contributor hist y0) (RegModel.tfsa_infer (plain_consts K) (plain_adjust ia) owner contributor (plain_amounts hist) y0)) /\
  (forall room inflows outflows year, (forall r, room = Some r -> fits hp (kd r)) -> fits hp (kd inflows) -> fits hp (kd outflows) ->
     gives_same hp (match room with Some r => match kd r with High => true | _ => false end | None => false end) (tfsa_next_room hp K ia owner room inflows outflows year)
       (RegModel.tfsa_next_room (plain_consts K) (plain_adjust ia) owner (option_map va room) (va inflows) (va outflows) year)).
Proof.
  intros hp K ia owner C. pose proof (accrual_rel hp K ia C owner) as A. split; [|split].
  - intros y. apply nr_gives. specialize (A y). destruct (tfsa_accrual _ _ _ _ _), (RegModel.tfsa_accrual _ _ _ _); cbn in *; auto. split; [exact A|discriminate].
  - intros co hist y0 FH. pose proof (amounts_rel_z hp hist FH) as Z1. unfold tfsa_infer, RegModel.tfsa_infer. pose proof (zr_get _ _ _ y0 Z1) as O.
    assert (T : forall start, agree (fun a q => va a == q /\ fits hp (kd a)) (ksumM (whole 0) (map (tfsa_accrual hp K ia owner) (RegModel.zrange start (y0 + 1)%Z))) (RegModel.sumM (map (RegModel.tfsa_accrual (plain_consts K) (plain_adjust ia) owner) (RegModel.zrange start (y0 + 1)%Z)))).
    { intros start. pose proof (sum_rel hp _ _ ltac:(instantiate (1 := map (RegModel.tfsa_accrual (plain_consts K) (plain_adjust ia) owner) (RegModel.zrange start (y0 + 1)%Z)); instantiate (1 := map (tfsa_accrual hp K ia owner) (RegModel.zrange start (y0 + 1)%Z)); induction (RegModel.zrange start (y0 + 1)%Z); cbn; constructor; auto) (whole 0) (fits_int hp 0)) as S.
      destruct (ksumM _ _), (RegModel.sumM _); cbn in *; auto. destruct S as [V F]. split; [rewrite V; ring|exact F]. }
    destruct hist as [|h0 hist].
    + cbn [plain_amounts map dget]. cbn [dget plain_amounts map] in O. destruct (age_in_year co y0) as [a|e]; cbn [bind]; [|reflexivity]. cbn [plain_consts RegModel.rc_tfsa RegModel.rc_tfsa_age]. rewrite <- (zr_keys _ _ _ (tfsa_rel K C)). destruct (zminl (dkeys (kc_tfsa K))) as [m|]; cbn [bind]; [|reflexivity].
      specialize (T (Z.max (y0 - a + kc_tfsa_age K) m)). destruct (ksumM _ _) as [t|], (RegModel.sumM _) as [q|]; cbn in T; try contradiction; [|subst; reflexivity]. destruct T as [V F]. cbn [bind gives_same]. destruct (zero_pn hp) as [V0 P0]. destruct (lift_l Qplus hp (conv hp (whole 0)) t P0 F) as (k & E & P). unfold qadd. rewrite E. eexists. split; [reflexivity|]. cbn [va kd]. rewrite V0, V. split; [reflexivity|]. split; [now apply fits_proper|]. intros -> _. exact P.
    + change (plain_amounts (h0 :: hist)) with ((fst h0, va (snd h0)) :: plain_amounts hist) in *. destruct (dget Z.eqb (h0 :: hist) y0) as [v|], (dget Z.eqb ((fst h0, va (snd h0)) :: plain_amounts hist) y0) as [q|]; cbn in O; try contradiction.
      { destruct O as [<- F]. exists v. split; [reflexivity|]. split; [reflexivity|]. split; [exact F|discriminate]. }
      rewrite <- (zr_keys _ _ _ Z1). destruct (zmaxl _) as [last|]; [|reflexivity]. cbn [bind]. pose proof (zr_get_r _ _ _ last Z1) as O2. destruct (dget_r Z.eqb (h0 :: hist) last) as [b|], (dget_r Z.eqb ((fst h0, va (snd h0)) :: plain_amounts hist) last) as [c|]; cbn in O2; try contradiction; [|subst; reflexivity].
      cbn [bind]. specialize (T (last + 1)%Z). destruct (ksumM _ _) as [t|], (RegModel.sumM _) as [q|]; cbn in T; try contradiction; [|subst; reflexivity]. destruct T as [V F]. cbn [bind gives_same]. destruct O2 as [<- Fb]. destruct (lift_fits Qplus hp b t Fb F) as (k & E & P). unfold qadd. rewrite E. eexists. split; [reflexivity|]. cbn [va kd]. rewrite V. split; [reflexivity|]. split; [exact P|discriminate].
  - intros room inf out year HR HI HO. unfold tfsa_next_room, RegModel.tfsa_next_room. specialize (A (year + 1)%Z). destruct (tfsa_accrual _ _ _ _ _) as [acc|], (RegModel.tfsa_accrual _ _ _ _) as [q|]; cbn in A; try contradiction; [|subst; reflexivity]. destruct A as [<- Fa]. cbn [bind]. destruct room as [r|]; cbn [option_map]; [|reflexivity].
    destruct (lift_fits Qplus hp out inf HO HI) as (k & E & F). unfold qadd. rewrite E. cbn [bind]. destruct (lift_fits Qminus hp r (Num k (va out + va inf)) (HR r eq_refl) F) as (k2 & E2 & F2). unfold qsub. rewrite E2. cbn [bind]. destruct (lift_fits Qplus hp acc (Num k2 (va r - (va out + va inf))) Fa F2) as (k3 & E3 & F3). cbn [va] in E3 |- *. rewrite E3.
    eexists. split; [reflexivity|]. cbn [va kd]. split; [reflexivity|]. split; [exact F3|]. intros -> H. destruct (kd r) eqn:KR; try discriminate. unfold lift in E2. rewrite KR in E2. destruct k; cbn in F; try contradiction; cbn in E2; injection E2 as <-; unfold lift in E3; destruct (kd acc); cbn in E3; try discriminate; now injection E3 as <-.
Qed.
Print Assumptions C119_tfsa.

(** *** The hypotheses can be met *)
Definition sample_consts : kconsts :=
  {| kc_rrsp_rate := Num Float (18 # 100); kc_rrsp_max := [(2020%Z, whole 27230)]; kc_rrsp_age := 71; kc_rrif_min := [(71%Z, Num Float (528 # 10000)); (72%Z, Num Float (54 # 1000))];
     kc_withhold := [(2020%Z, [(whole 0, Num Float (1 # 10)); (whole 5000, Num Float (2 # 10))])];
     kc_tfsa := [(2019%Z, whole 6000); (2020%Z, whole 6000)]; kc_tfsa_age := 18; kc_tfsa_round := whole 500 |}.
Definition steady : krates := KConst (Num High (2 # 100)).
Definition born1950 : date := {| d_y := 1950; d_m := 6; d_d := 1 |}.
Definition born1980 : date := {| d_y := 1980; d_m := 6; d_d := 1 |}.
Definition shown (r : res qn) : res (kind * Q) := let* v := r in Ok (kd v, Qred (va v)).
Example C119_sat :
  rates_are (proper true) steady /\ rrsp_consts true sample_consts /\ tfsa_consts sample_consts /\
  (let ia := inflation_adjust (rate_in steady) 2020 in
   adjust_fits true (fun y b => ia y b) /\
   shown (ia 2018%Z (Some 2020%Z)) = Ok (High, 2500 # 2601) /\
   shown (rrsp_next_room true sample_consts ia born1980 (fun _ => Ok (hi 50000)) (Some (hi 1000)) (hi 400) 2020) = Ok (High, 9600) /\
   shown (minimum_distribution true sample_consts born1950 2021 2022 (hi 1000)) = Ok (High, 54) /\
   shown (rrsp_tax_withheld true sample_consts ia 2021 2022 (hi 6000) (rrsp_min_outflow true sample_consts born1950 2021 2022 (hi 1000) (whole 0))) = Ok (High, 6054 # 5) /\
   shown (tfsa_infer true sample_consts ia born1980 born1980 [] 2022) = Ok (High, 23500) /\
   shown (tfsa_next_room true sample_consts (fun _ _ => Ok (Num Float (11 # 10))) born1980 (Some (hi 1000)) (whole 0) (hi (-500)) 2022) = Ok (High, 8000)) /\
  (* income *)
  (let a := RScalar (Num Float (3 # 100)) in
   raise_fits true a /\ shown (gross_income true (fun _ => None) (whole 50000) (raise_callable true a) (Some 2023%Z) 2020 2) = Ok (High, 53045)) /\
  (* refuted *)
  shown (inflation_adjust (rate_in (KConst (whole 0))) 2020 2018 (Some 2020%Z)) = Ok (Float, 1) /\
  rrsp_initial_accrual true sample_consts (inflation_adjust (rate_in (KConst (Num Float (2 # 100)))) 2020) 2022 = Err TypeError /\
  gross_income true (fun _ => None) (hi 50000) (raise_callable true (RTable [(2021%Z, Num Float (3 # 100))])) None 2020 1 = Err TypeError /\
  rrsp_tax_withheld true sample_consts (inflation_adjust (rate_in steady) 2020) 2021 2022 (hi 6000) (rrsp_min_outflow true sample_consts born1980 2021 2022 (whole 1000) (whole 0)) = Err TypeError.
Proof.
  split; [reflexivity|]. split; [repeat split; repeat constructor; left; reflexivity|]. split; [repeat constructor|]. split.
  { cbn zeta. split; [|repeat split; vm_compute; reflexivity]. intros y b v E.
    pose proof (C119_inflation_partial true steady {| ScenarioModel.inflation := plain_rates steady; ScenarioModel.stock_return := ScenarioModel.SConst 0; ScenarioModel.bond_return := ScenarioModel.SConst 0; ScenarioModel.other_return := ScenarioModel.SConst 0; ScenarioModel.management_fees := ScenarioModel.SConst 0; ScenarioModel.initial_year := 2020; ScenarioModel.num_years := 1 |} 2020 y b eq_refl eq_refl) as G.
    cbn zeta in G. unfold gives_same in G. rewrite E in G. destruct (ScenarioModel.accumulation_function _ _ _); [|discriminate]. destruct G as (w & Ew & _ & F & _). injection Ew as <-. exact F. }
  split; [cbn zeta; split; [left; reflexivity|vm_compute; reflexivity]|]. repeat split; vm_compute; reflexivity.
Qed.
