(** C112: accounts in high precision. *)
From Verif Require Import Base BaseFacts RBase GrowthModel KindModel.
From Verif Require AccountModel TimingModel.
From Coq Require Import Lia.
Open Scope R_scope.

(** ** Specification *)
(** the types of number that may be used together: with high_precision, anything but floats; without it, anything else *)
Definition fits (hp : bool) (k : kind) : Prop := if hp then k <> Float else k <> High.
(** the types of number expected as results *)
Definition proper (hp : bool) (k : kind) : Prop := if hp then k = High else k <> High.
(** the computation gives the number [v], in a type expected *)
Definition gives {A} (hp : bool) (r : res (num A)) (v : A) : Prop := exists k, r = Ok (Num k v) /\ proper hp k.
Definition in_year (t : R) : Prop := 0 <= t <= 1.
Definition payments (hp : bool) (d : kdict) : Prop :=
  Forall (fun kv => (fits hp (kd (fst kv)) /\ in_year (va (fst kv))) /\ fits hp (kd (snd kv))) d.
Definition weights (hp : bool) (d : kdict) : Prop :=
  Forall (fun kv => (fits hp (kd (fst kv)) /\ in_year (va (fst kv))) /\ proper hp (kd (snd kv))) d.
(** an account whose numbers are all of fitting types *)
Record consistent (a : kaccount) : Prop := {
  c_bal : fits (q_hp a) (kd (q_bal a));
  c_rate : forall y, fits (q_hp a) (kd (q_rate a y));
  c_txns : payments (q_hp a) (q_txns a);
  c_timing : weights (q_hp a) (q_timing a) }.
(** the same without the types: the account of AccountModel.v *)
Definition values {A} (d : list (num R * num A)) : list (R * A) := map (fun kv => (va (fst kv), va (snd kv))) d.
Definition plain (a : kaccount) : AccountModel.account :=
  {| AccountModel.a_year := q_year a; AccountModel.a_bal := va (q_bal a); AccountModel.a_rate := fun y => va (q_rate a y);
     AccountModel.a_nper := q_nper a; AccountModel.a_txns := values (q_txns a); AccountModel.a_timing := values (q_timing a) |}.

(** ** Proofs *)
Lemma fits_proper hp k : proper hp k -> fits hp k.
Proof. destruct hp; cbn; [intros ->; discriminate|auto]. Qed.
Lemma native k : fits false k -> proper false k.
Proof. auto. Qed.
Lemma mix_fits hp a b : fits hp a -> fits hp b -> exists k, mix a b = Some k /\ fits hp k.
Proof. destruct hp, a, b; cbn; intros A B; try (now destruct (A eq_refl)); try (now destruct (B eq_refl)); eexists; (split; [reflexivity|discriminate]). Qed.
Lemma mix_l hp a b : proper hp a -> fits hp b -> exists k, mix a b = Some k /\ proper hp k.
Proof. destruct hp; cbn; intros A B; [subst a; destruct b; try (now destruct (B eq_refl)); (eexists; split; reflexivity)|exact (mix_fits false a b A B)]. Qed.
Lemma mix_r hp a b : fits hp a -> proper hp b -> exists k, mix a b = Some k /\ proper hp k.
Proof. destruct hp; cbn; intros A B; [subst b; destruct a; try (now destruct (A eq_refl)); (eexists; split; reflexivity)|exact (mix_fits false a b A B)]. Qed.
Lemma conv_proper {A} hp k (x : A) : k <> High -> proper hp (kd (conv hp (Num k x))).
Proof. destruct hp; cbn; auto. Qed.
Lemma conv_any {A} hp (x : num A) : fits hp (kd x) -> proper hp (kd (conv hp x)).
Proof. destruct hp; cbn; auto. Qed.
Lemma conv_va {A} hp (x : num A) : va (conv hp x) = va x.
Proof. destruct hp; reflexivity. Qed.
Lemma lift_fits {A B C} (f : A -> B -> C) hp a b : fits hp (kd a) -> fits hp (kd b) -> exists k, lift f a b = Ok (Num k (f (va a) (va b))) /\ fits hp k.
Proof. intros H1 H2. destruct (mix_fits hp _ _ H1 H2) as (k & E & F). exists k. unfold lift. rewrite E. auto. Qed.
Lemma lift_l {A B C} (f : A -> B -> C) hp a b : proper hp (kd a) -> fits hp (kd b) -> gives hp (lift f a b) (f (va a) (va b)).
Proof. intros H1 H2. destruct (mix_l hp _ _ H1 H2) as (k & E & F). exists k. unfold lift. rewrite E. auto. Qed.
Lemma lift_r {A B C} (f : A -> B -> C) hp a b : fits hp (kd a) -> proper hp (kd b) -> gives hp (lift f a b) (f (va a) (va b)).
Proof. intros H1 H2. destruct (mix_r hp _ _ H1 H2) as (k & E & F). exists k. unfold lift. rewrite E. auto. Qed.
Lemma kdiv_kind hp k : proper hp k -> proper hp (match k with Int => Float | _ => k end).
Proof. destruct hp, k; cbn; congruence. Qed.
Lemma kdiv_l {A} (f : A -> R -> A) hp a b : proper hp (kd a) -> fits hp (kd b) -> va b <> 0 -> gives hp (kdiv f a b) (f (va a) (va b)).
Proof.
  intros H1 H2 N. destruct (mix_l hp _ _ H1 H2) as (k & E & F). unfold kdiv. rewrite E. destruct (Reqb (va b) 0) eqn:Z; [rb; contradiction|].
  eexists. split; [reflexivity|now apply kdiv_kind].
Qed.
Lemma kdiv_r {A} (f : A -> R -> A) hp a b : fits hp (kd a) -> proper hp (kd b) -> va b <> 0 -> gives hp (kdiv f a b) (f (va a) (va b)).
Proof.
  intros H1 H2 N. destruct (mix_r hp _ _ H1 H2) as (k & E & F). unfold kdiv. rewrite E. destruct (Reqb (va b) 0) eqn:Z; [rb; contradiction|].
  eexists. split; [reflexivity|now apply kdiv_kind].
Qed.
Lemma one_proper hp : proper hp (kd (conv hp (int 1))). Proof. apply (conv_proper hp Int 1). discriminate. Qed.
Lemma zero_proper hp : proper hp (kd (conv hp (int 0))). Proof. apply (conv_proper hp Int 0). discriminate. Qed.

(** *** growth *)
(** the compounding frequency as an account keeps it *)
Definition periods (hp : bool) (n : option positive) : option (num R) := option_map (fun n => conv hp (int (IZR (Zpos n)))) n.
Lemma accum_gives hp t r n : fits hp (kd t) -> fits hp (kd r) ->
  gives hp (accumulation_function hp t r (periods hp n)) (GrowthModel.accumulation_function (va t) (va r) n).
Proof.
  intros Ft Fr. destruct n as [n|]; cbn [periods option_map accumulation_function GrowthModel.accumulation_function].
  - set (m := conv hp (int (IZR (Zpos n)))).
    assert (Hm : exists m', match kd m with Int => if (hp && Reqb (va m) 1)%bool then conv hp (int 1) else m | _ => m end = m' /\ proper hp (kd m') /\ va m' = IZR (Zpos n)).
    { unfold m, conv, int. destruct hp; cbn; eexists; (split; [reflexivity|]); cbn; split; congruence. }
    destruct Hm as (m' & -> & Pm & Vm). assert (NZ : va m' <> 0) by (rewrite Vm; apply not_0_IZR; discriminate).
    destruct (kdiv_r Rdiv hp r m' Fr Pm NZ) as (k1 & -> & P1). cbn [bind].
    destruct (lift_l Rplus hp (conv hp (int 1)) (Num k1 (va r / va m')) (one_proper hp) (fits_proper _ _ P1)) as (k2 & E2 & P2). unfold kadd. rewrite E2. cbn [bind].
    destruct (lift_l Rmult hp m' t Pm Ft) as (k3 & E3 & P3). unfold kmul. rewrite E3. cbn [bind].
    destruct (lift_l Rpower hp _ (Num k3 (va m' * va t)) (P2 : proper hp (kd (Num k2 (va (conv hp (int 1)) + va r / va m')))) (fits_proper _ _ P3)) as (k4 & E4 & P4).
    exists k4. split; [|exact P4]. unfold kpow. cbn [va] in *. rewrite conv_va in *. rewrite Vm in *. exact E4.
  - destruct (lift_fits Rmult hp r t Fr Ft) as (k1 & E1 & F1). unfold kmul. rewrite E1. cbn [bind].
    destruct (lift_l Rpower hp (conv hp (Num Float (exp 1))) (Num k1 (va r * va t)) (conv_proper hp Float (exp 1) ltac:(discriminate)) F1) as (k2 & E2 & P2).
    exists k2. split; [|exact P2]. unfold kpow. rewrite E2, conv_va. cbn [va]. do 2 f_equal. unfold Rpower. rewrite ln_exp, Rmult_1_r. reflexivity.
Qed.
Lemma in_year_conv hp t : in_year (va t) -> when_conv hp (KNum t) = Ok t.
Proof. intros [A B]. cbn. destruct (Rltb 1 (va t)) eqn:E1; [rb; lra|]. destruct (Rltb (va t) 0) eqn:E2; [rb; lra|]. reflexivity. Qed.
Lemma value_gives hp v r w t n : fits hp (kd v) -> fits hp (kd r) -> fits hp (kd w) -> in_year (va w) -> fits hp (kd t) -> in_year (va t) ->
  gives hp (value_at_time hp v r (KNum w) (KNum t) (periods hp n)) (GrowthModel.value_at_time (va v) (va r) (va w) (va t) n).
Proof.
  intros Fv Fr Fw Iw Ft It. unfold value_at_time. rewrite (in_year_conv hp t It). cbn [bind]. rewrite (in_year_conv hp w Iw). cbn [bind].
  destruct (lift_fits Rminus hp t w Ft Fw) as (k1 & E1 & F1). unfold ksub. rewrite E1. cbn [bind].
  destruct (accum_gives hp (Num k1 (va t - va w)) r n F1 Fr) as (k2 & E2 & P2). rewrite E2. cbn [bind va].
  destruct (lift_r Rmult hp v (Num k2 (GrowthModel.accumulation_function (va t - va w) (va r) n)) Fv P2) as (k3 & E3 & P3). exists k3. split; [|exact P3]. exact E3.
Qed.
Lemma value_text hp v r w t n : value_at_time hp v r (KText w) t (periods hp n) = match when_conv hp t with Err e => Err e | Ok _ => match when_conv hp (KText w) with Ok x => value_at_time hp v r (KNum x) t (periods hp n) | Err e => Err e end end.
Proof.
  unfold value_at_time. destruct (when_conv hp t) as [y|]; [|reflexivity]. cbn [bind]. destruct (when_conv hp (KText w)) as [x|] eqn:E; [|reflexivity]. cbn [bind].
  assert (W : when_conv hp (KNum x) = Ok x).
  { unfold when_conv in E. destruct (String.eqb w "end"); [injection E as <-|destruct (String.eqb w "start"); [injection E as <-|discriminate]]; apply in_year_conv; rewrite conv_va; cbn; unfold in_year; lra. }
  rewrite W. reflexivity.
Qed.
Lemma total_gives hp f g : forall d s, proper hp (kd s) -> Forall (fun kv => gives hp (f (fst kv) (snd kv)) (g (va (fst kv)) (va (snd kv)))) d ->
  gives hp (ktotal f s d) (va s + Rsum (map (fun kv => g (fst kv) (snd kv)) (values d))).
Proof.
  induction d as [|[w v] d IH]; intros s Ps F; cbn [ktotal values map Rsum fst snd].
  - exists (kd s). split; [|exact Ps]. rewrite Rplus_0_r. destruct s; reflexivity.
  - inversion F as [|? ? F1 F2]; subst. destruct F1 as (k1 & E1 & P1). cbn [fst snd] in E1. rewrite E1. cbn [bind].
    destruct (lift_l Rplus hp s (Num k1 (g (va w) (va v))) Ps (fits_proper _ _ P1)) as (k2 & E2 & P2). cbn [va] in E2. unfold kadd. rewrite E2. cbn [bind].
    destruct (IH (Num k2 (va s + g (va w) (va v))) P2 F2) as (k3 & E3 & P3). exists k3. split; [|exact P3]. rewrite E3. cbn [va]. do 2 f_equal. unfold values. lra.
Qed.

(** *** the account *)
Lemma nper_periods a : nper a = periods (q_hp a) (q_nper a). Proof. reflexivity. Qed.
Lemma values_set {A} (d : list (num R * num A)) k v : values (dset keq d k v) = dset Reqb (values d) (va k) (va v).
Proof. induction d as [|[k' v'] d IH]; cbn; [reflexivity|]. unfold keq at 1. destruct (Reqb (va k) (va k')); cbn; [reflexivity|]. f_equal. exact IH. Qed.
Lemma values_get {A} (d : list (num R * num A)) k : dget Reqb (values d) (va k) = option_map va (dget keq d k).
Proof. induction d as [|[k' v'] d IH]; cbn; [reflexivity|]. unfold keq at 1. destruct (Reqb (va k) (va k')); cbn; [reflexivity|exact IH]. Qed.
Lemma payments_set hp d k v : payments hp d -> fits hp (kd k) -> in_year (va k) -> fits hp (kd v) -> payments hp (dset keq d k v).
Proof.
  intros H Fk Ik Fv. induction H as [|[k' v'] d [P1 P2] H IH]; cbn; [constructor; [cbn; auto|constructor]|]. destruct (keq k k'); constructor; cbn in *; auto.
Qed.
Lemma payments_get hp d k w : payments hp d -> dget keq d k = Some w -> fits hp (kd w).
Proof. intros H. induction H as [|[k' v'] d [P1 P2] H IH]; cbn; [discriminate|]. destruct (keq k k'); [intros E; injection E as <-; exact P2|exact IH]. Qed.
Lemma added hp : forall l base, payments hp base -> payments hp l -> exists d, add_transactions base l = Ok d /\ payments hp d /\ values d = AccountModel.radd_transactions (values base) (values l).
Proof.
  induction l as [|[k v] l IH]; intros base Hb Hl; cbn [add_transactions]; [exists base; auto|]. inversion Hl as [|? ? [[P1 P2] P3] Hl']; subst. cbn [fst snd] in *.
  assert (X : exists d, match dget keq base k with Some w => let* s := kadd w v in Ok (dset keq base k s) | None => Ok (dset keq base k v) end = Ok d /\ payments hp d /\ values d = rincr (values base) (va k) (va v)).
  { unfold rincr, rval. rewrite values_get. destruct (dget keq base k) as [w|] eqn:G; cbn [option_map].
    - destruct (lift_fits Rplus hp w v (payments_get hp base k w Hb G) P3) as (k1 & E1 & F1). unfold kadd. rewrite E1. cbn [bind]. eexists. split; [reflexivity|]. split; [now apply payments_set|apply values_set].
    - eexists. split; [reflexivity|]. split; [now apply payments_set|]. rewrite values_set. now rewrite Rplus_0_l. }
  destruct X as (d & -> & Pd & Vd). cbn [bind]. destruct (IH d Pd Hl') as (d' & E & P' & V'). exists d'. split; [exact E|]. split; [exact P'|]. rewrite V'. unfold AccountModel.radd_transactions. cbn [values map fold_left fst snd]. now rewrite <- Vd.
Qed.
Lemma filter_values (P : R -> bool) (d : kdict) : values (filter (fun kv => P (va (fst kv))) d) = filter (fun kv => P (fst kv)) (values d).
Proof. induction d as [|[k v] d IH]; cbn; [reflexivity|]. destruct (P (va k)); cbn; [f_equal|]; exact IH. Qed.
(** a time of the year, given as the methods take it *)
Definition a_time (hp : bool) (w : kwhen) (t : R) : Prop :=
  match w with
  | KNum x => va x = t /\ fits hp (kd x) /\ in_year t
  | KText s => (s = "start" /\ t = 0)%string \/ (s = "end" /\ t = 1)%string
  end.
Lemma a_time_conv hp w t : a_time hp w t -> exists x, when_conv hp w = Ok x /\ va x = t /\ fits hp (kd x) /\ in_year t.
Proof.
  destruct w as [x|s]; cbn [a_time].
  - intros (V & F & I). exists x. subst t. now rewrite in_year_conv.
  - intros [[-> ->] | [-> ->]]; cbn; eexists; (split; [reflexivity|]); rewrite conv_va; (split; [reflexivity|]); (split; [|unfold in_year; lra]); apply fits_proper; [apply zero_proper|apply one_proper].
Qed.
Definition extra_ok (hp : bool) (extra : option kdict) : Prop := match extra with Some d => payments hp d | None => True end.
Lemma balance_gives a w t extra : consistent a -> a_time (q_hp a) w t -> extra_ok (q_hp a) extra ->
  gives (q_hp a) (balance_at_time a w extra) (AccountModel.balance_at_time (plain a) t (option_map values extra)).
Proof.
  intros [Cb Cr Ct Cw] T X. destruct (a_time_conv _ _ _ T) as (x & E & V & F & I). unfold balance_at_time. rewrite E. cbn [bind]. rewrite nper_periods.
  rewrite value_text, in_year_conv by (now rewrite V). cbn [when_conv String.eqb Ascii.eqb Bool.eqb].
  change (when_conv (q_hp a) (KText "start")) with (Ok (conv (q_hp a) (int 0))). 
  destruct (value_gives (q_hp a) (q_bal a) (rate a) (conv (q_hp a) (int 0)) x (q_nper a) Cb (Cr _) (fits_proper _ _ (zero_proper _)) ltac:(rewrite conv_va; unfold in_year; cbn; lra) F ltac:(now rewrite V)) as (k1 & E1 & P1).
  cbn iota. rewrite E1. cbn [bind].
  assert (D : exists d, match extra with Some d => add_transactions d (q_txns a) | None => Ok (q_txns a) end = Ok d /\ payments (q_hp a) d /\ values d = AccountModel.all_txns (plain a) (option_map values extra)).
  { destruct extra as [d|]; cbn; [apply added; assumption|exists (q_txns a); auto]. }
  destruct D as (d & -> & Pd & Vd). cbn [bind].
  destruct (total_gives (q_hp a) (fun w v => value_at_time (q_hp a) v (rate a) (KNum w) (KNum x) (periods (q_hp a) (q_nper a))) (fun w v => GrowthModel.value_at_time v (va (rate a)) w (va x) (q_nper a))
    (filter (fun kv => Rleb (va (fst kv)) (va x)) d) (Num k1 (GrowthModel.value_at_time (va (q_bal a)) (va (rate a)) (va (conv (q_hp a) (int 0))) (va x) (q_nper a))) P1) as (k2 & E2 & P2).
  { apply Forall_forall. intros [w' v'] H. apply filter_In in H. destruct H as [H _]. unfold payments in Pd. rewrite Forall_forall in Pd. destruct (Pd _ H) as [[Q1 Q2] Q3]. cbn [fst snd] in *.
    apply value_gives; auto; [apply Cr|now rewrite V]. }
  exists k2. split; [|exact P2]. rewrite E2, (filter_values (fun z => Rleb z (va x))), Vd, conv_va. unfold AccountModel.balance_at_time. cbn [va int]. rewrite V. reflexivity.
Qed.
Lemma returns_gives a : consistent a -> gives (q_hp a) (returns a) (AccountModel.returns (plain a)).
Proof.
  intros [Cb Cr Ct Cw]. unfold returns. rewrite nper_periods. set (one := conv (q_hp a) (int 1)).
  assert (G : forall t v, fits (q_hp a) (kd t) -> fits (q_hp a) (kd v) ->
    gives (q_hp a) (let* g := accumulation_function (q_hp a) t (rate a) (periods (q_hp a) (q_nper a)) in let* h := ksub g one in kmul v h) (va v * (AccountModel.growth (plain a) (va t) - 1))).
  { intros t v Ft Fv. destruct (accum_gives (q_hp a) t (rate a) (q_nper a) Ft (Cr _)) as (k1 & E1 & P1). rewrite E1. cbn [bind].
    destruct (lift_l Rminus (q_hp a) (Num k1 (GrowthModel.accumulation_function (va t) (va (rate a)) (q_nper a))) one P1 (fits_proper _ _ (one_proper _))) as (k2 & E2 & P2). unfold ksub. rewrite E2. cbn [bind].
    destruct (lift_r Rmult (q_hp a) v (Num k2 (GrowthModel.accumulation_function (va t) (va (rate a)) (q_nper a) - va one)) Fv P2) as (k3 & E3 & P3). exists k3. split; [|exact P3]. unfold kmul. cbn [va] in *. rewrite E3. unfold one. rewrite conv_va. reflexivity. }
  destruct (G one (q_bal a) (fits_proper _ _ (one_proper _)) Cb) as (k1 & E1 & P1). cbn zeta. rewrite E1. cbn [bind].
  destruct (total_gives (q_hp a) (fun w v => let* t := ksub one w in let* g := accumulation_function (q_hp a) t (rate a) (periods (q_hp a) (q_nper a)) in let* h := ksub g one in kmul v h)
    (fun w v => v * (AccountModel.growth (plain a) (1 - w) - 1)) (q_txns a) (Num k1 (va (q_bal a) * (AccountModel.growth (plain a) (va one) - 1))) P1) as (k2 & E2 & P2).
  { apply Forall_forall. intros [w v] H. unfold payments in Ct. rewrite Forall_forall in Ct. destruct (Ct _ H) as [[Q1 Q2] Q3]. cbn [fst snd] in *.
    destruct (lift_l Rminus (q_hp a) one w (one_proper _) Q1) as (k3 & E3 & P3). unfold ksub at 1. rewrite E3. cbn [bind].
    pose proof (G (Num k3 (va one - va w)) v (fits_proper _ _ P3) Q3) as H1. cbn [va] in H1. unfold one in *. rewrite conv_va in *. exact H1. }
  exists (kd (conv (q_hp a) (Num k2 (AccountModel.returns (plain a))))). split; [|apply conv_any; apply fits_proper; exact P2].
  rewrite E2. cbn [bind va]. unfold one. rewrite !conv_va. unfold AccountModel.returns. destruct (q_hp a); reflexivity.
Qed.
Lemma next_gives a : consistent a -> gives (q_hp a) (next_balance a) (AccountModel.next_balance (plain a)).
Proof.
  intros [Cb Cr Ct Cw]. unfold next_balance. rewrite nper_periods. set (r := q_rate a (q_year a + 1)%Z).
  assert (V : forall v w, fits (q_hp a) (kd v) -> fits (q_hp a) (kd w) -> in_year (va w) ->
    gives (q_hp a) (value_at_time (q_hp a) v r (KNum w) (KText "end") (periods (q_hp a) (q_nper a))) (GrowthModel.value_at_time (va v) (va r) (va w) 1 (q_nper a))).
  { intros v w Fv Fw Iw. pose proof (value_gives (q_hp a) v r w (conv (q_hp a) (int 1)) (q_nper a) Fv (Cr _) Fw Iw (fits_proper _ _ (one_proper _)) ltac:(rewrite conv_va; unfold in_year; cbn; lra)) as H.
    rewrite conv_va in H. unfold value_at_time in *. rewrite in_year_conv in H by (rewrite conv_va; unfold in_year; cbn; lra). exact H. }
  rewrite value_text. cbn iota. change (when_conv (q_hp a) (KText "start")) with (Ok (conv (q_hp a) (int 0))). change (when_conv (q_hp a) (KText "end")) with (Ok (conv (q_hp a) (int 1))). cbn iota.
  destruct (V (q_bal a) (conv (q_hp a) (int 0)) Cb (fits_proper _ _ (zero_proper _)) ltac:(rewrite conv_va; unfold in_year; cbn; lra)) as (k1 & E1 & P1). rewrite E1. cbn [bind].
  destruct (total_gives (q_hp a) (fun w v => value_at_time (q_hp a) v r (KNum w) (KText "end") (periods (q_hp a) (q_nper a))) (fun w v => GrowthModel.value_at_time v (va r) w 1 (q_nper a)) (q_txns a)
    (Num k1 (GrowthModel.value_at_time (va (q_bal a)) (va r) (va (conv (q_hp a) (int 0))) 1 (q_nper a))) P1) as (k2 & E2 & P2).
  { apply Forall_forall. intros [w v] H. unfold payments in Ct. rewrite Forall_forall in Ct. destruct (Ct _ H) as [[Q1 Q2] Q3]. now apply V. }
  exists k2. split; [|exact P2]. rewrite E2. cbn [va]. rewrite conv_va. reflexivity.
Qed.

(** *** amounts to move *)
Lemma sum_fits hp : forall l s, fits hp (kd s) -> Forall (fun v => fits hp (kd v)) l -> exists k, ksum s l = Ok (Num k (va s + Rsum (map va l))) /\ fits hp k.
Proof.
  induction l as [|v l IH]; intros s Fs Fl; cbn [ksum map Rsum]; [exists (kd s); rewrite Rplus_0_r; destruct s; auto|]. inversion Fl; subst.
  destruct (lift_fits Rplus hp s v Fs ltac:(assumption)) as (k & E & F). unfold kadd. rewrite E. cbn [bind]. destruct (IH (Num k (va s + va v)) F ltac:(assumption)) as (k' & E' & F'). exists k'. split; [|exact F']. rewrite E'. cbn [va]. do 2 f_equal. lra.
Qed.
Lemma int_fits hp x : fits hp (kd (int x)). Proof. destruct hp; discriminate. Qed.
Lemma weights_fit hp d : weights hp d -> Forall (fun v => fits hp (kd v)) (map snd d).
Proof. intros H. apply Forall_forall. intros v Hv. apply in_map_iff in Hv. destruct Hv as (kv & <- & Hv). unfold weights in H. rewrite Forall_forall in H. apply fits_proper. now apply H. Qed.
Lemma map_va {A} (d : list (num R * num A)) : map va (map snd d) = dvals (values d).
Proof. unfold dvals, values. rewrite !map_map. reflexivity. Qed.
Lemma normalized_ok hp d : weights hp d -> exists nt, normalized hp d = Ok nt /\ weights hp nt /\ values nt = AccountModel.normalized_timing (values d).
Proof.
  intros H. unfold normalized. destruct (sum_fits hp (map snd d) (int 0) (int_fits hp 0) (weights_fit hp d H)) as (k & E & F). rewrite E. cbn [bind va int]. rewrite map_va, Rplus_0_l.
  unfold AccountModel.normalized_timing. set (total := Rsum (dvals (values d))).
  assert (G : forall tot d, fits hp (kd tot) -> va tot <> 0 -> weights hp d -> exists nt,
    (fix go (d : kdict) : res kdict := match d with [] => Ok [] | (w, v) :: r => if Reqb (va v) 0 then go r else let* x := kdiv Rdiv v tot in let* d := go r in Ok ((w, x) :: d) end) d = Ok nt /\
    weights hp nt /\ values nt = map (fun kv => (fst kv, snd kv / va tot)) (filter (fun kv => negb (Reqb (snd kv) 0)) (values d))).
  { intros tot. induction d0 as [|[w v] d0 IH]; intros Ft Nt W; [exists []; repeat split; constructor|]. inversion W as [|? ? [P1 P2] W']; subst. cbn [fst snd] in *. destruct (IH Ft Nt W') as (nt & E1 & W1 & V1).
    cbn [values map filter fst snd]. destruct (Reqb (va v) 0); cbn [negb]; [exists nt; auto|]. destruct (kdiv_l Rdiv hp v tot P2 Ft Nt) as (k1 & E2 & P3). rewrite E2. cbn [bind]. rewrite E1. cbn [bind]. eexists. split; [reflexivity|].
    split; [constructor; auto|]. cbn [values map fst snd va]. f_equal. exact V1. }
  destruct (Reqb total 0) eqn:Z; rb.
  - assert (W1 : weights hp (map (fun kv => (fst kv, conv hp (int 1))) d)).
    { apply Forall_forall. intros kv Hkv. apply in_map_iff in Hkv. destruct Hkv as (kv' & <- & Hkv). unfold weights in H. rewrite Forall_forall in H. cbn [fst snd]. split; [now apply H|apply one_proper]. }
    destruct d as [|e d]; [exists []; repeat split; constructor|].
    destruct (G (int (INR (Datatypes.length (e :: d)))) _ (int_fits hp _) ltac:(cbn [int va]; apply not_0_INR; discriminate) W1) as (nt & E1 & W2 & V). exists nt. split; [exact E1|]. split; [exact W2|]. rewrite V. cbn [va int].
    assert (L : values (map (fun kv : num R * num R => (fst kv, conv hp (int 1))) (e :: d)) = map (fun kv => (fst kv, 1)) (values (e :: d))) by (unfold values; rewrite !map_map; apply map_ext; intros x; cbn [fst snd]; now rewrite conv_va).
    rewrite L. replace (Datatypes.length (values (e :: d))) with (Datatypes.length (e :: d)) by (unfold values; now rewrite List.map_length). reflexivity.
  - destruct (G (Num k total) d F Z H) as (nt & E1 & W2 & V). exists nt. auto.
Qed.
Lemma va_min a b : va (kmin a b) = emin (va a) (va b).
Proof. unfold kmin, emin. destruct (eleb (va a) (va b)); reflexivity. Qed.
Lemma va_max a b : va (kmax a b) = emax (va a) (va b).
Proof.
  unfold kmax, emax. destruct (eleb (va b) (va a)) eqn:E1, (eleb (va a) (va b)) eqn:E2; try reflexivity.
  - destruct (va a), (va b); cbn in *; try discriminate; try reflexivity. rb. f_equal. lra.
  - exfalso. destruct (va a), (va b); cbn in *; try discriminate. rb. lra.
Qed.
Lemma kd_min hp a b : fits hp (kd a) -> fits hp (kd b) -> fits hp (kd (kmin a b)).
Proof. unfold kmin. now destruct (eleb _ _). Qed.
Lemma kd_max hp a b : fits hp (kd a) -> fits hp (kd b) -> fits hp (kd (kmax a b)).
Proof. unfold kmax. now destruct (eleb _ _). Qed.
(** an optional limit *)
Definition limit_ok (hp : bool) (l : option (num er)) : Prop := match l with Some x => fits hp (kd x) | None => True end.
Definition timing_ok (hp : bool) (d : option kdict) : Prop := match d with Some d => weights hp d | None => True end.
(** the amounts are those of the account without types, of the types expected, or the error is the same *)
Definition amounts (hp : bool) (r : res (list (num R * num er))) (expected : res (list (R * er))) : Prop :=
  match expected with
  | Ok l => exists l', r = Ok l' /\ values l' = l /\ Forall (fun kv => fits hp (kd (fst kv)) /\ proper hp (kd (snd kv))) l'
  | Err e => r = Err e
  end.
Lemma to_balance_ok a target d mx mn extra : consistent a -> fits (q_hp a) (kd target) -> timing_ok (q_hp a) d -> limit_ok (q_hp a) mx -> limit_ok (q_hp a) mn -> extra_ok (q_hp a) extra ->
  amounts (q_hp a) (transactions_to_balance a target d mx mn extra)
    (AccountModel.transactions_to_balance (plain a) (va target) (option_map values d) (option_map va mx) (option_map va mn) (option_map values extra)).
Proof.
  intros C Ft Td Lx Ln X. unfold transactions_to_balance, AccountModel.transactions_to_balance.
  destruct (balance_gives a (KText "end") 1 extra C ltac:(right; auto) X) as (k1 & E1 & P1). rewrite E1. cbn [bind].
  destruct (lift_r esub (q_hp a) target (Num k1 (AccountModel.balance_at_time (plain a) 1 (option_map values extra))) Ft P1) as (k2 & E2 & P2). rewrite E2. cbn [bind va].
  set (tm := match d with None | Some [] => q_timing a | Some d => d end).
  assert (W : weights (q_hp a) tm) by (unfold tm; destruct d as [[|e d]|]; [apply C|exact Td|apply C]).
  assert (V : values tm = AccountModel.clean_timing (plain a) (option_map values d)) by (unfold tm; destruct d as [[|e d]|]; reflexivity).
  destruct (normalized_ok (q_hp a) tm W) as (nt & E3 & W3 & V3). rewrite E3. cbn [bind]. rewrite <- V, <- V3. rewrite nper_periods.
  destruct (total_gives (q_hp a) (fun w v => let* t := ksub (int 1) w in let* g := accumulation_function (q_hp a) t (rate a) (periods (q_hp a) (q_nper a)) in kmul v g)
     (fun w v => v * AccountModel.growth (plain a) (1 - w)) nt (conv (q_hp a) (int 0)) (zero_proper _)) as (k3 & E4 & P4).
  { apply Forall_forall. intros [w v] H. unfold weights in W3. rewrite Forall_forall in W3. destruct (W3 _ H) as [[Q1 Q2] Q3]. cbn [fst snd] in *.
    destruct (lift_fits Rminus (q_hp a) (int 1) w (int_fits _ 1) Q1) as (k4 & E4 & F4). unfold ksub. rewrite E4. cbn [bind].
    destruct (accum_gives (q_hp a) (Num k4 (va (int 1) - va w)) (rate a) (q_nper a) F4 (c_rate a C _)) as (k5 & E5 & P5). rewrite E5. cbn [bind].
    destruct (lift_l Rmult (q_hp a) v (Num k5 (GrowthModel.accumulation_function (va (Num k4 (va (int 1) - va w))) (va (rate a)) (q_nper a))) Q3 (fits_proper _ _ P5)) as (k6 & E6 & P6). exists k6. split; [exact E6|exact P6]. }
  rewrite E4. cbn [bind]. rewrite conv_va. cbn [int va]. rewrite Rplus_0_l.
  match goal with |- context [Reqb ?z 0] => set (acc := z) end.
  destruct (Reqb acc 0) eqn:Z; cbn [amounts].
  { unfold kdiv. cbn [kd va]. destruct (mix_l (q_hp a) k2 k3 P2 (fits_proper _ _ P4)) as (k & -> & _). rewrite Z. reflexivity. }
  rb. destruct (kdiv_l ediv (q_hp a) (Num k2 (esub (va target) (AccountModel.balance_at_time (plain a) 1 (option_map values extra)))) (Num k3 acc) P2 (fits_proper _ _ P4) Z) as (k4 & E5 & P5). rewrite E5. cbn [bind va].
  set (tot := ediv (esub (va target) (AccountModel.balance_at_time (plain a) 1 (option_map values extra))) acc).
  set (t1 := match mx with Some m => kmin (Num k4 tot) m | None => Num k4 tot end).
  assert (F1 : fits (q_hp a) (kd t1)) by (unfold t1; destruct mx; [apply kd_min; [exact (fits_proper _ _ P5)|exact Lx]|exact (fits_proper _ _ P5)]).
  assert (V1 : va t1 = match option_map va mx with Some m => emin tot m | None => tot end) by (unfold t1; destruct mx; [apply va_min|reflexivity]).
  set (t2 := match mn with Some m => kmax t1 m | None => t1 end).
  assert (F2 : fits (q_hp a) (kd t2)) by (unfold t2; destruct mn; [now apply kd_max|exact F1]).
  assert (V2 : va t2 = match option_map va mn with Some m => emax (va t1) m | None => va t1 end) by (unfold t2; destruct mn; [apply va_max|reflexivity]).
  rewrite <- V1, <- V2. clearbody t2. clear - W3 F2.
  induction nt as [|[w v] nt IH]; [exists []; repeat split; constructor|]. inversion W3 as [|? ? [[Q1 Q2] Q3] W']; subst. cbn [fst snd] in *. destruct (IH W') as (l & E & V & F).
  destruct (lift_r escale (q_hp a) t2 v F2 Q3) as (k & E1 & P1). rewrite E1. cbn [bind]. rewrite E. cbn [bind]. eexists. split; [reflexivity|]. split; [cbn [values map fst snd va]; f_equal; exact V|]. constructor; auto.
Qed.
Lemma filter_map_va (P : R -> bool) (d : kdict) : map va (filter (fun v => P (va v)) (map snd d)) = filter P (dvals (values d)).
Proof. induction d as [|[k v] d IH]; cbn; [reflexivity|]. destruct (P (va v)); cbn; [f_equal|]; exact IH. Qed.
Lemma kept_fits hp (P : R -> bool) d : payments hp d -> Forall (fun v => fits hp (kd v)) (filter (fun v => P (va v)) (map snd d)).
Proof.
  intros H. apply Forall_forall. intros v Hv. apply filter_In in Hv. destruct Hv as [Hv _]. apply in_map_iff in Hv. destruct Hv as (kv & <- & Hv). unfold payments in H. rewrite Forall_forall in H. now apply H.
Qed.
Lemma flows_ok P a extra : consistent a -> extra_ok (q_hp a) extra ->
  exists k, flows P a extra = Ok (Num k ((match option_map values extra with Some d => Rsum (filter P (dvals d)) | None => 0 end) + Rsum (filter P (dvals (values (q_txns a)))))) /\ fits (q_hp a) k.
Proof.
  intros C X. unfold flows.
  assert (S1 : exists k, match extra with Some d => ksum (int 0) (filter (fun v => P (va v)) (map snd d)) | None => Ok (conv (q_hp a) (int 0)) end =
     Ok (Num k (match option_map values extra with Some d => Rsum (filter P (dvals d)) | None => 0 end)) /\ fits (q_hp a) k).
  { destruct extra as [d|]; cbn [option_map].
    - destruct (sum_fits (q_hp a) _ (int 0) (int_fits _ 0) (kept_fits (q_hp a) P d X)) as (k & E & F). exists k. split; [|exact F]. rewrite E, filter_map_va. cbn [int va]. now rewrite Rplus_0_l.
    - exists (kd (conv (q_hp a) (int 0))). split; [destruct (q_hp a); reflexivity|apply fits_proper, zero_proper]. }
  destruct S1 as (k1 & E1 & F1). rewrite E1. cbn [bind].
  destruct (sum_fits (q_hp a) _ (int 0) (int_fits _ 0) (kept_fits (q_hp a) P (q_txns a) (c_txns a C))) as (k2 & E2 & F2). rewrite E2, filter_map_va. cbn [bind int va]. rewrite Rplus_0_l.
  destruct (lift_fits Rplus (q_hp a) (Num k1 (match option_map values extra with Some d => Rsum (filter P (dvals d)) | None => 0 end)) (Num k2 (Rsum (filter P (dvals (values (q_txns a)))))) F1 F2) as (k3 & E3 & F3).
  exists k3. split; [exact E3|exact F3].
Qed.
Lemma max_outflows_ok a d tl bl extra : consistent a -> timing_ok (q_hp a) d -> limit_ok (q_hp a) tl -> limit_ok (q_hp a) bl -> extra_ok (q_hp a) extra ->
  amounts (q_hp a) (max_outflows a d tl bl extra)
    (AccountModel.max_outflows AccountModel.account_limits (plain a) (option_map values d) (option_map va tl) (option_map va bl) (option_map values extra)).
Proof.
  intros C T Lt Lb X. unfold max_outflows, outflows. destruct (flows_ok (fun v => Rltb v 0) a extra C X) as (k1 & E1 & F1). match type of E1 with _ = Ok (Num _ ?v) => set (o := v) in * end. rewrite E1. cbn [bind].
  destruct (lift_l esub (q_hp a) (conv (q_hp a) (Num Float MInf)) (Num k1 o) (conv_proper (q_hp a) Float MInf ltac:(discriminate)) F1) as (k2 & E2 & P2). rewrite E2. cbn [bind].
  unfold AccountModel.max_outflows, AccountModel.outflows_upto.
  set (m := Num k2 _). set (m' := match tl with Some l => kmax m l | None => m end).
  assert (Fz : fits (q_hp a) (kd (conv (q_hp a) (Num Int (Fin 0))))) by (apply fits_proper, conv_proper; discriminate).
  assert (Fm : fits (q_hp a) (kd m')) by (unfold m'; destruct tl; [apply kd_max; [exact (fits_proper _ _ P2)|exact Lt]|exact (fits_proper _ _ P2)]).
  assert (Vm : va m' = AccountModel.opt_emax (esub MInf (AccountModel.outflows (plain a) (option_map values extra))) (option_map va tl)).
  { assert (V0 : va m = esub MInf (AccountModel.outflows (plain a) (option_map values extra))) by (unfold m; cbn [va]; rewrite conv_va; reflexivity).
    unfold m', AccountModel.opt_emax. destruct tl; cbn [option_map]; rewrite ?va_max, V0; reflexivity. }
  pose proof (to_balance_ok a (match bl with Some b => b | None => conv (q_hp a) (Num Int (Fin 0)) end) d (Some (conv (q_hp a) (Num Int (Fin 0)))) (Some (kmin m' (conv (q_hp a) (Num Int (Fin 0))))) extra C
    ltac:(destruct bl; [exact Lb|exact Fz]) T Fz (kd_min _ _ _ Fm Fz) X) as H.
  cbn [option_map] in H. rewrite va_min, Vm in H. rewrite !conv_va in H. cbn [va] in H.
  replace (va (match bl with Some b => b | None => conv (q_hp a) (Num Int (Fin 0)) end)) with (AccountModel.opt_default (option_map va bl) (Fin 0)) in H by (destruct bl; cbn; [reflexivity|now rewrite conv_va]).
  exact H.
Qed.
Lemma max_inflows_ok a d tl bl extra : consistent a -> timing_ok (q_hp a) d -> limit_ok (q_hp a) tl -> limit_ok (q_hp a) bl -> extra_ok (q_hp a) extra ->
  amounts (q_hp a) (max_inflows a d tl bl extra)
    (AccountModel.max_inflows AccountModel.account_limits (plain a) (option_map values d) (option_map va tl) (option_map va bl) (option_map values extra)).
Proof.
  intros C T Lt Lb X. unfold max_inflows, inflows. destruct (flows_ok (fun v => Rltb 0 v) a extra C X) as (k1 & E1 & F1). match type of E1 with _ = Ok (Num _ ?v) => set (o := v) in * end. rewrite E1. cbn [bind].
  destruct (lift_l esub (q_hp a) (conv (q_hp a) (Num Float PInf)) (Num k1 o) (conv_proper (q_hp a) Float PInf ltac:(discriminate)) F1) as (k2 & E2 & P2). rewrite E2. cbn [bind].
  unfold AccountModel.max_inflows, AccountModel.inflows_upto.
  set (m := Num k2 _). set (m' := match tl with Some l => kmin m l | None => m end).
  assert (Fz : fits (q_hp a) (kd (conv (q_hp a) (Num Int (Fin 0))))) by (apply fits_proper, conv_proper; discriminate).
  assert (Fi : fits (q_hp a) (kd (conv (q_hp a) (Num Float PInf)))) by (apply fits_proper, conv_proper; discriminate).
  assert (Fm : fits (q_hp a) (kd m')) by (unfold m'; destruct tl; [apply kd_min; [exact (fits_proper _ _ P2)|exact Lt]|exact (fits_proper _ _ P2)]).
  assert (Vm : va m' = AccountModel.opt_emin (esub PInf (AccountModel.inflows (plain a) (option_map values extra))) (option_map va tl)).
  { assert (V0 : va m = esub PInf (AccountModel.inflows (plain a) (option_map values extra))) by (unfold m; cbn [va]; rewrite conv_va; reflexivity).
    unfold m', AccountModel.opt_emin. destruct tl; cbn [option_map]; rewrite ?va_min, V0; reflexivity. }
  pose proof (to_balance_ok a (match bl with Some b => b | None => conv (q_hp a) (Num Float PInf) end) d (Some (kmax m' (conv (q_hp a) (Num Int (Fin 0))))) (Some (conv (q_hp a) (Num Int (Fin 0)))) extra C
    ltac:(destruct bl; [exact Lb|exact Fi]) T (kd_max _ _ _ Fm Fz) Fz X) as H.
  cbn [option_map] in H. rewrite va_max, Vm in H. rewrite !conv_va in H. cbn [va] in H.
  replace (va (match bl with Some b => b | None => conv (q_hp a) (Num Float PInf) end)) with (AccountModel.opt_default (option_map va bl) PInf) in H by (destruct bl; cbn; [reflexivity|now rewrite conv_va]).
  exact H.
Qed.

(** *** times *)
Lemma kdiv_zero {A} (f : A -> R -> A) hp a b : fits hp (kd a) -> fits hp (kd b) -> va b = 0 -> kdiv f a b = Err ZeroDivisionError.
Proof. intros H1 H2 Z. destruct (mix_fits hp _ _ H1 H2) as (k & E & _). unfold kdiv. rewrite E, Z, Reqb_refl. reflexivity. Qed.
Definition same_time (hp : bool) (r : res (num er)) (expected : res er) : Prop :=
  match expected with Ok t => gives hp r t | Err e => r = Err e end.
Lemma inverse_ok hp acc r n : hp = false \/ va r = 0 -> fits hp (kd r) ->
  same_time hp (accumulation_function_inverse hp acc r (periods hp n)) (GrowthModel.accumulation_function_inverse (va acc) (va r) n).
Proof.
  intros M Fr. unfold accumulation_function_inverse, GrowthModel.accumulation_function_inverse. destruct (Rltb (va acc) 0) eqn:N; [reflexivity|]. destruct (Reqb (va r) 0) eqn:Z.
  - cbn [same_time]. destruct (Reqb (va acc) 1); [|destruct (Rltb (va acc) 1)]; destruct hp; cbn; eexists; (split; [reflexivity|]); cbn; congruence.
  - destruct M as [-> | M]; [|rewrite M, Reqb_refl in Z; discriminate]. rb.
    assert (L : forall b, klog acc b = if Reqb (va acc) 0 then Err ValueError else Ok (Num Float (ln (va acc) / ln (va b)))).
    { intros b. unfold klog. destruct (Rleb (va acc) 0) eqn:E1, (Reqb (va acc) 0) eqn:E2; rb; try reflexivity; exfalso; lra. }
    destruct n as [n|]; cbn [periods option_map].
    + set (m := conv false (int (IZR (Zpos n)))). assert (NZ : va m <> 0) by (apply not_0_IZR; discriminate).
      destruct (kdiv_r Rdiv false r m Fr ltac:(discriminate) NZ) as (k1 & -> & P1). cbn [bind].
      destruct (lift_l Rplus false (conv false (int 1)) (Num k1 (va r / va m)) ltac:(discriminate) P1) as (k2 & E2 & P2). unfold kadd. rewrite E2. cbn [bind]. rewrite L. cbn [va].
      destruct (Reqb (va acc) 0); [reflexivity|]. cbn [bind]. destruct (kdiv_l Rdiv false (Num Float (ln (va acc) / ln (va (conv false (int 1)) + va r / va m))) m ltac:(discriminate) ltac:(discriminate) NZ) as (k3 & E3 & P3). cbn [va] in E3. rewrite E3. cbn [bind].
      exists k3. split; [reflexivity|exact P3].
    + rewrite L. destruct (Reqb (va acc) 0); [reflexivity|]. cbn [bind va conv]. rewrite ln_exp.
      destruct (kdiv_l Rdiv false (Num Float (ln (va acc) / 1)) r ltac:(discriminate) Fr Z) as (k3 & E3 & P3). rewrite E3. cbn [bind]. exists k3. split; [|exact P3]. cbn [kd va]. do 3 f_equal. unfold Rdiv; rewrite Rinv_1, Rmult_1_r; reflexivity.
Qed.
Lemma earliest_ok (d : kdict) w : AccountModel.next_after (values d) (va w) MInf = match earliest_after d w with Some t => Fin (va t) | None => MInf end.
Proof.
  unfold AccountModel.next_after, earliest_after. assert (E : filter (fun t => Rltb (va w) t) (dkeys (values d)) = map va (filter (fun t => Rltb (va w) (va t)) (map fst d))).
  { induction d as [|[k v] d IH]; cbn; [reflexivity|]. destruct (Rltb (va w) (va k)); cbn; [f_equal|]; exact IH. }
  rewrite E. clear E. destruct (filter (fun t => Rltb (va w) (va t)) (map fst d)) as [|t r]; [reflexivity|]. cbn [map]. f_equal. revert t. induction r as [|u r IH]; intros t; [reflexivity|]. cbn [map fold_left].
  rewrite <- IH. f_equal. unfold Rmin. destruct (Rle_dec (va t) (va u)), (Rltb (va u) (va t)) eqn:L; rb; cbn; lra.
Qed.
Lemma next_dflt d w x : AccountModel.next_after d w x = match AccountModel.next_after d w MInf with Fin t => Fin t | _ => x end.
Proof. unfold AccountModel.next_after. destruct (filter _ _); reflexivity. Qed.
Lemma earliest_in d w t : earliest_after d w = Some t -> In t (map fst d).
Proof.
  unfold earliest_after. destruct (filter (fun t => Rltb (va w) (va t)) (map fst d)) as [|u r] eqn:E; [discriminate|]. intros H. injection H as <-.
  assert (I : forall r u, In (fold_left (fun a b => if Rltb (va b) (va a) then b else a) r u) (u :: r)).
  { induction r0 as [|x r0 IH]; intros u0; [now left|]. cbn [fold_left]. destruct (IH (if Rltb (va x) (va u0) then x else u0)) as [H | H]; [rewrite <- H; destruct (Rltb (va x) (va u0)); [right; now left|now left]|right; now right]. }
  specialize (I r u). rewrite <- E in I. apply filter_In in I. apply I.
Qed.
Lemma to_time_ok : forall n a v w, consistent a -> q_hp a = false \/ va (rate a) = 0 -> fits (q_hp a) (kd v) -> fits (q_hp a) (kd w) -> in_year (va w) ->
  same_time (q_hp a) (time_to_balance_from n a v w) (AccountModel.time_to_balance n (plain a) (va v) (va w)).
Proof.
  induction n as [|n IH]; intros a v w C M Fv Fw Iw.
  all: destruct (balance_gives a (KNum w) (va w) None C ltac:(cbn; auto) I) as (k1 & E1 & P1); match type of E1 with _ = Ok (Num _ ?x) => change x with (AccountModel.balance_at_time (plain a) (va w) None) in E1 end.
  all: cbn [time_to_balance_from AccountModel.time_to_balance]; rewrite E1; cbn [bind option_map]; unfold time_to_value, GrowthModel.time_to_value;
       change (AccountModel.rate (plain a)) with (va (rate a)); change (AccountModel.a_nper (plain a)) with (q_nper a); change (AccountModel.a_txns (plain a)) with (values (q_txns a)); cbn [option_map];
       set (b := AccountModel.balance_at_time (plain a) (va w) None);
       destruct (Reqb b 0) eqn:Z; [apply Reqb_t in Z; rewrite (kdiv_zero Rdiv (q_hp a) v (Num k1 b) Fv (fits_proper _ _ P1) Z); reflexivity|];
       apply Reqb_f in Z; destruct (kdiv_r Rdiv (q_hp a) v (Num k1 b) Fv P1 Z) as (k2 & E2 & P2); rewrite E2; cbn [bind va];
       pose proof (inverse_ok (q_hp a) (Num k2 (va v / b)) (rate a) (q_nper a) M (c_rate a C _)) as H; cbn [va] in H; rewrite nper_periods;
       destruct (GrowthModel.accumulation_function_inverse (va v / b) (va (rate a)) (q_nper a)) as [d|e]; cbn [same_time] in H; [|rewrite H; reflexivity];
       destruct H as (k3 & E3 & P3); rewrite E3; cbn [bind];
       destruct (lift_r (fun w d => eadd (Fin w) d) (q_hp a) w (Num k3 d) Fw P3) as (k4 & E4 & P4); rewrite E4; cbn [bind va];
       rewrite next_dflt, earliest_ok; destruct (earliest_after (q_txns a) w) as [t|] eqn:En.
  - destruct (eleb (eadd (Fin (va w)) d) (Fin (va t))); cbn [negb]; [exists k4; auto|reflexivity].
  - destruct (eadd (Fin (va w)) d) as [x| |]; [|exists k4; auto|exists k4; auto]. unfold eleb, Rleb. destruct (Rle_dec x x); [exists k4; auto|lra].
  - destruct (eleb (eadd (Fin (va w)) d) (Fin (va t))); cbn [negb]; [exists k4; auto|]. 
    pose proof (earliest_in _ _ _ En) as Hi. apply in_map_iff in Hi. destruct Hi as (kv & <- & Hi). pose proof (c_txns a C) as Ct. unfold payments in Ct. rewrite Forall_forall in Ct. destruct (Ct _ Hi) as [[Q1 Q2] Q3]. now apply IH.
  - destruct (eadd (Fin (va w)) d) as [x| |]; [|exists k4; auto|exists k4; auto]. unfold eleb, Rleb. destruct (Rle_dec x x); [exists k4; auto|lra].
Qed.

(** *** histories *)
Inductive kop : Type := Pay (v : num R) (w : kwhen) | NewYear.
Definition untyped (w : kwhen) : AccountModel.rwhen := match w with KNum t => AccountModel.RNum (va t) | KText s => AccountModel.RStr s end.
Definition do_op (a : kaccount) (o : kop) : res kaccount := match o with Pay v w => add_transaction a v w | NewYear => next_year a end.
Definition do_plain (a : AccountModel.account) (o : kop) : res AccountModel.account :=
  match o with Pay v w => AccountModel.add_transaction a (va v) (untyped w) | NewYear => Ok (AccountModel.next_year a) end.
Fixpoint run (a : kaccount) (os : list kop) : res kaccount := match os with [] => Ok a | o :: r => let* a' := do_op a o in run a' r end.
Fixpoint run_plain (a : AccountModel.account) (os : list kop) : res AccountModel.account := match os with [] => Ok a | o :: r => let* a' := do_plain a o in run_plain a' r end.
(** the numbers given are of fitting types *)
Definition op_fits (hp : bool) (o : kop) : Prop :=
  match o with Pay v w => fits hp (kd v) /\ match w with KNum t => fits hp (kd t) | KText _ => True end | NewYear => True end.
Lemma op_ok a o : consistent a -> op_fits (q_hp a) o ->
  match do_plain (plain a) o with Ok b => exists a', do_op a o = Ok a' /\ plain a' = b /\ consistent a' /\ q_hp a' = q_hp a | Err e => do_op a o = Err e end.
Proof.
  intros C F. destruct o as [v w|]; cbn [do_plain do_op].
  - destruct F as [Fv Fw]. unfold AccountModel.add_transaction, add_transaction.
    assert (W : match AccountModel.rwhen_conv (untyped w) with Ok t => exists x, when_conv (q_hp a) w = Ok x /\ va x = t /\ fits (q_hp a) (kd x) /\ in_year t | Err e => when_conv (q_hp a) w = Err e end).
    { destruct w as [t|s]; cbn [untyped AccountModel.rwhen_conv when_conv].
      - destruct (Rltb 1 (va t) || Rltb (va t) 0)%bool eqn:E; [reflexivity|]. exists t. apply orb_false_elim in E. destruct E as [E1 E2]. rb. repeat split; auto.
      - destruct (String.eqb s "end") eqn:E1; [|destruct (String.eqb s "start") eqn:E2; [|reflexivity]]; eexists; (split; [reflexivity|]); rewrite conv_va; (split; [reflexivity|]); (split; [apply fits_proper|unfold in_year; lra]); [apply one_proper|apply zero_proper]. }
    destruct (AccountModel.rwhen_conv (untyped w)) as [t|e]; [|rewrite W; reflexivity]. destruct W as (x & E & V & Fx & Ix). rewrite E. cbn [bind]. unfold kincr.
    set (old := match dget keq (q_txns a) x with Some w => w | None => conv (q_hp a) (int 0) end).
    assert (Fo : fits (q_hp a) (kd old)) by (unfold old; destruct (dget keq (q_txns a) x) eqn:G; [exact (payments_get _ _ _ _ (c_txns a C) G)|apply fits_proper, zero_proper]).
    assert (Vo : va old = rval (values (q_txns a)) t) by (unfold old, rval; rewrite <- V, values_get; destruct (dget keq (q_txns a) x); [reflexivity|apply conv_va]).
    destruct (lift_fits Rplus (q_hp a) old v Fo Fv) as (k & E1 & F1). unfold kadd. rewrite E1. cbn [bind]. eexists. split; [reflexivity|]. split.
    + unfold plain, with_txns, AccountModel.with_txns. cbn -[values dset rincr]. rewrite values_set. cbn [va]. rewrite Vo, V. reflexivity.
    + split; [|reflexivity]. destruct C as [C1 C2 C3 C4]. constructor; cbn; auto. apply payments_set; auto. now rewrite V.
  - destruct (next_gives a C) as (k & E & P). unfold next_year. rewrite E. cbn [bind]. eexists. split; [reflexivity|]. split; [reflexivity|]. split; [|reflexivity]. destruct C as [C1 C2 C3 C4]. constructor; cbn; auto; [now apply fits_proper|constructor].
Qed.
Lemma run_ok : forall os a, consistent a -> Forall (op_fits (q_hp a)) os ->
  match run_plain (plain a) os with Ok b => exists a', run a os = Ok a' /\ plain a' = b /\ consistent a' /\ q_hp a' = q_hp a | Err e => run a os = Err e end.
Proof.
  induction os as [|o os IH]; intros a C F; cbn [run_plain run]; [exists a; auto|]. inversion F; subst. pose proof (op_ok a o C ltac:(assumption)) as H. destruct (do_plain (plain a) o) as [b|e]; [|rewrite H; reflexivity].
  destruct H as (a' & E & Pl & C' & Hp). rewrite E. cbn [bind]. rewrite <- Pl. rewrite <- Hp in *. specialize (IH a' C' ltac:(assumption)). exact IH.
Qed.

(** ** The theorems *)
(** Whatever is paid in and out at whatever times over whatever years: with numbers of fitting types, the account with types does
    what the one without does - the same errors, or the same account with all figures of the types expected and the same values.
    With high_precision that excludes floats anywhere and whole numbers as weights; for its time_to_balance it also excludes growth. *)
Theorem C112_agrees_partial : forall a os, consistent a -> Forall (op_fits (q_hp a)) os ->
  match run_plain (plain a) os with
  | Err e => run a os = Err e
  | Ok b => exists a', run a os = Ok a' /\ plain a' = b /\
      (forall w t extra, a_time (q_hp a) w t -> extra_ok (q_hp a) extra -> gives (q_hp a) (balance_at_time a' w extra) (AccountModel.balance_at_time b t (option_map values extra))) /\
      gives (q_hp a) (returns a') (AccountModel.returns b) /\
      (forall d tl bl extra, timing_ok (q_hp a) d -> limit_ok (q_hp a) tl -> limit_ok (q_hp a) bl -> extra_ok (q_hp a) extra ->
        amounts (q_hp a) (max_outflows a' d tl bl extra) (AccountModel.max_outflows AccountModel.account_limits b (option_map values d) (option_map va tl) (option_map va bl) (option_map values extra)) /\
        amounts (q_hp a) (max_inflows a' d tl bl extra) (AccountModel.max_inflows AccountModel.account_limits b (option_map values d) (option_map va tl) (option_map va bl) (option_map values extra))) /\
      (forall v w t, q_hp a = false \/ AccountModel.rate b = 0 -> fits (q_hp a) (kd v) -> a_time (q_hp a) w t ->
        same_time (q_hp a) (time_to_balance a' v w) (AccountModel.time_to_balance_top b (va v) (AccountModel.RNum t)))
  end.
Proof.
  intros a os C F. pose proof (run_ok os a C F) as H. destruct (run_plain (plain a) os) as [b|e]; [|exact H]. destruct H as (a' & E & Pl & C' & Hp). exists a'. split; [exact E|]. split; [exact Pl|]. subst b. rewrite <- Hp.
  split; [intros; now apply balance_gives|]. split; [now apply returns_gives|]. split; [intros; split; [now apply max_outflows_ok|now apply max_inflows_ok]|].
  intros v w t M Fv T. destruct (a_time_conv _ _ _ T) as (x & E1 & V & Fx & Ix). unfold time_to_balance, AccountModel.time_to_balance_top. rewrite E1. cbn [bind].
  assert (W : AccountModel.rwhen_conv (AccountModel.RNum t) = Ok t). { destruct Ix. cbn. destruct (Rltb 1 t) eqn:E2; [rb; lra|]. destruct (Rltb t 0) eqn:E3; [rb; lra|]. reflexivity. }
  rewrite W. cbn [bind]. subst t. replace (Datatypes.length (AccountModel.a_txns (plain a'))) with (Datatypes.length (q_txns a')) by (cbn; unfold values; now rewrite List.map_length).
  apply to_time_ok; auto.
Qed.
Print Assumptions C112_agrees_partial.

(** *** Timing *)
(** a whole number of times a year, or its code *)
Definition times_a_year (f : positive + string) (n : positive) : Prop :=
  f = inl n \/ exists s, f = inr s /\ dget String.eqb TimingModel.FREQUENCY_MAPPING s = Some (Some (Zpos n)).
(** when in each period *)
Definition moment (hp : bool) (w : kfirst) (t : R) : Prop :=
  match w with
  | Omitted => t = 1/2
  | Given (KNum x) => va x = t /\ proper hp (kd x) /\ in_year t
  | Given (KText s) => (s = "start" /\ t = 0)%string \/ (s = "end" /\ t = 1)%string
  end.
(** [n] equal parts of the year, a payment of an equal share at [t] in each *)
Definition even (n : positive) (t : R) : list (R * R) :=
  map (fun i => ((INR i + t) / IZR (Zpos n), 1 / IZR (Zpos n))) (seq 0 (Pos.to_nat n)).
Definition build (t f weight : num R) : list nat -> res kdict := fix go times :=
  match times with
  | [] => Ok []
  | i :: r => let* s := kadd (int (INR i)) t in let* key := kdiv Rdiv s f in let* d := go r in Ok ((key, weight) :: d)
  end.
Lemma build_nil t f weight : build t f weight [] = Ok []. Proof. reflexivity. Qed.
Lemma build_cons t f weight i r : build t f weight (i :: r) = let* s := kadd (int (INR i)) t in let* key := kdiv Rdiv s f in let* d := build t f weight r in Ok ((key, weight) :: d). Proof. reflexivity. Qed.
Lemma build_ok hp n t weight : proper hp (kd t) -> in_year (va t) -> proper hp (kd weight) -> forall l, Forall (fun i => (i < Pos.to_nat n)%nat) l ->
  exists d, build t (int (IZR (Zpos n))) weight l = Ok d /\ values d = map (fun i => ((INR i + va t) / IZR (Zpos n), va weight)) l /\ weights hp d /\ Forall (fun kv => proper hp (kd (fst kv))) d.
Proof.
  intros Pt It Pw. assert (NP : 0 < IZR (Zpos n)) by (apply IZR_lt; reflexivity). induction l as [|i l IH]; intros F; rewrite ?build_nil, ?build_cons.
  - exists []. repeat split; constructor.
  - inversion F; subst. destruct (IH ltac:(assumption)) as (d & E & V & W & K).
    destruct (lift_r Rplus hp (int (INR i)) t (int_fits hp _) Pt) as (k1 & E1 & P1). unfold kadd. rewrite E1. cbn [bind].
    destruct (kdiv_l Rdiv hp (Num k1 (va (int (INR i)) + va t)) (int (IZR (Zpos n))) P1 (int_fits hp _) ltac:(cbn; lra)) as (k2 & E2 & P2). rewrite E2. cbn [bind]. rewrite E. cbn [bind]. cbn [va int].
    eexists. split; [reflexivity|]. split; [cbn; unfold values in V; now rewrite V|]. split; [|constructor; [exact P2|exact K]]. constructor; [|exact W]. cbn. split; [split; [now apply fits_proper|]|exact Pw].
    assert (I1 : INR i + 1 <= IZR (Zpos n)). { rewrite <- S_INR, <- positive_nat_Z, <- INR_IZR_INZ. apply le_INR. lia. }
    pose proof (pos_INR i). destruct It. split; [apply Rmult_le_pos; [lra|apply Rlt_le, Rinv_0_lt_compat; lra]|apply (Rmult_le_reg_r (IZR (Zpos n))); [lra|]]. unfold Rdiv. rewrite Rmult_assoc, Rinv_l, Rmult_1_r by lra. lra.
Qed.
Lemma timing_plain hp w f : (forall s, w = Given (KText s) -> dmem String.eqb TimingModel.FREQUENCY_MAPPING s = false) ->
  timing hp w f =
    (let* t := when_conv hp (match w with Omitted => KNum (conv hp (Num Float (1/2))) | Given w => w end) in
     let* n := match f with
            | inl n => Ok (Zpos n)
            | inr s => match dget String.eqb TimingModel.FREQUENCY_MAPPING s with Some (Some n) => Ok n | Some None => Err TypeError | None => Err ValueError end
            end in
     let* weight := kdiv Rdiv (conv hp (int 1)) (int (IZR n)) in build t (int (IZR n)) weight (seq 0 (Z.to_nat n))).
Proof. intros H. unfold timing. destruct w as [|[x|s]]; [reflexivity|reflexivity|]. rewrite (H s eq_refl). reflexivity. Qed.
Lemma times_num f n : times_a_year f n -> match f with
            | inl n => Ok (Zpos n)
            | inr s => match dget String.eqb TimingModel.FREQUENCY_MAPPING s with Some (Some n) => Ok n | Some None => Err TypeError | None => Err ValueError end
            end = Ok (Zpos n).
Proof. intros [-> | (s & -> & ->)]; reflexivity. Qed.

(** A Timing of equal payments has times and weights of the type of high_precision, as accounts need, if the moment is left out, is
    "start" or "end", or is a number of that type.  (Whole numbers and codes in its place: below.) *)
Theorem C112_timing_partial : forall hp w t f n, moment hp w t -> times_a_year f n ->
  exists d, timing hp w f = Ok d /\ values d = even n t /\ weights hp d /\ Forall (fun kv => proper hp (kd (fst kv))) d.
Proof.
  intros hp w t f n M T. rewrite timing_plain.
  2:{ intros s ->. destruct M as [[-> _] | [-> _]]; reflexivity. }
  assert (W : exists x, when_conv hp (match w with Omitted => KNum (conv hp (Num Float (1/2))) | Given w => w end) = Ok x /\ va x = t /\ proper hp (kd x) /\ in_year t).
  { destruct w as [|[x|s]]; cbn [moment] in M.
    - subst t. assert (I : in_year (1/2)) by (unfold in_year; lra). exists (conv hp (Num Float (1/2))). rewrite in_year_conv by (now rewrite conv_va). rewrite conv_va. repeat split; [|apply I|apply I]. apply conv_proper. discriminate.
    - destruct M as (V & P & I). exists x. rewrite in_year_conv by (now rewrite V). auto.
    - destruct M as [[-> ->] | [-> ->]]; cbn; eexists; (split; [reflexivity|]); rewrite conv_va; (split; [reflexivity|]); (split; [|unfold in_year; lra]); [apply zero_proper|apply one_proper]. }
  destruct W as (x & -> & V & P & I). cbn [bind]. rewrite (times_num f n T). cbn [bind]. assert (NP : 0 < IZR (Zpos n)) by (apply IZR_lt; reflexivity).
  destruct (kdiv_l Rdiv hp (conv hp (int 1)) (int (IZR (Zpos n))) (one_proper hp) (int_fits hp _) ltac:(cbn; lra)) as (k & E & Pk). rewrite E. cbn [bind].
  destruct (build_ok hp n x (Num k (va (conv hp (int 1)) / va (int (IZR (Zpos n))))) P ltac:(now rewrite V) Pk (seq 0 (Pos.to_nat n))) as (d & E1 & V1 & W1 & K1).
  { apply Forall_forall. intros i Hi. apply in_seq in Hi. lia. }
  exists d. split; [exact E1|]. split; [|auto]. rewrite V1. unfold even. cbn [va int]. rewrite conv_va, V. reflexivity.
Qed.
Print Assumptions C112_timing_partial.

(** The times of a Timing are floats, high_precision or not, if it is given the code of a frequency first, or the number 0 or 1. *)
Lemma build_floats n t weight : kd t <> High -> forall l, exists d, build t (int (IZR (Zpos n))) weight l = Ok d /\ List.length d = List.length l /\ Forall (fun kv => kd (fst kv) = Float) d.
Proof.
  intros Pt. assert (NP : 0 < IZR (Zpos n)) by (apply IZR_lt; reflexivity). induction l as [|i l (d & E & L & F)]; rewrite ?build_nil, ?build_cons; [exists []; repeat split; constructor|].
  assert (X : exists y, (let* s := kadd (int (INR i)) t in kdiv Rdiv s (int (IZR (Zpos n)))) = Ok y /\ kd y = Float).
  { unfold kadd, lift, kdiv. cbn [int kd va]. destruct (kd t); [| |contradiction (Pt eq_refl)]; cbn [mix bind kd va]; (destruct (Reqb (IZR (Zpos n)) 0) eqn:Z; [apply Reqb_t in Z; lra|]); eexists; split; reflexivity. }
  destruct X as (y & X & K). destruct (kadd (int (INR i)) t) as [s|]; [|discriminate]. cbn [bind] in *. rewrite X. cbn [bind]. rewrite E. cbn [bind]. eexists. split; [reflexivity|]. cbn. split; [now f_equal|]. constructor; auto.
Qed.
Theorem C112_timing_floats_refuted : forall hp f n, times_a_year f n ->
  (forall s, f = inr s -> exists d, timing hp (Given (KText s)) (inl 1%positive) = Ok d /\ List.length d = Pos.to_nat n /\ Forall (fun kv => kd (fst kv) = Float) d) /\
  (forall t, t = 0 \/ t = 1 -> exists d, timing hp (Given (KNum (int t))) f = Ok d /\ List.length d = Pos.to_nat n /\ Forall (fun kv => kd (fst kv) = Float) d).
Proof.
  intros hp f n T. assert (NP : 0 < IZR (Zpos n)) by (apply IZR_lt; reflexivity).
  destruct (kdiv_l Rdiv hp (conv hp (int 1)) (int (IZR (Zpos n))) (one_proper hp) (int_fits hp _) ltac:(cbn; lra)) as (k & E & Pk). split.
  - intros s ->. destruct T as [T | (s' & T & G)]; [discriminate|]. injection T as <-.
    assert (M : dmem String.eqb TimingModel.FREQUENCY_MAPPING s = true) by (unfold dmem; now rewrite G).
    destruct (build_floats n (Num Float (1/2)) (Num k (va (conv hp (int 1)) / va (int (IZR (Zpos n))))) ltac:(discriminate) (seq 0 (Pos.to_nat n))) as (d & E1 & L & F).
    exists d. split; [|split; [now rewrite L, seq_length|exact F]]. unfold timing. rewrite M. cbn iota. rewrite in_year_conv by (unfold in_year; cbn; lra). cbn [bind]. rewrite G. cbn [bind]. rewrite E. cbn [bind]. exact E1.
  - intros t Ht. destruct (build_floats n (int t) (Num k (va (conv hp (int 1)) / va (int (IZR (Zpos n))))) ltac:(discriminate) (seq 0 (Pos.to_nat n))) as (d & E1 & L & F).
    exists d. split; [|split; [now rewrite L, seq_length|exact F]]. rewrite timing_plain by discriminate. rewrite in_year_conv by (unfold in_year; cbn; lra). cbn [bind]. rewrite (times_num f n T). cbn [bind]. rewrite E. cbn [bind]. exact E1.
Qed.
Print Assumptions C112_timing_floats_refuted.

(** A payment at such a time is accepted by an account in high precision, and from then on its figures cannot be computed. *)
Lemma fail_total f : forall d s, Exists (fun kv => f (fst kv) (snd kv) = Err TypeError) d ->
  Forall (fun kv => f (fst kv) (snd kv) = Err TypeError \/ exists x, f (fst kv) (snd kv) = Ok x /\ kd x = High) d -> kd s = High -> ktotal f s d = Err TypeError.
Proof.
  induction d as [|[w v] d IH]; intros s X F Hs; [inversion X|]. inversion F as [|? ? F1 F2]; subst. cbn [ktotal]. cbn [fst snd] in *. destruct F1 as [E | (x & E & K)]; rewrite E; [reflexivity|]. cbn [bind].
  unfold kadd, lift. rewrite Hs, K. cbn [mix bind]. apply IH; auto. inversion X as [? ? X1|? ? X1]; subst; [cbn in X1; congruence|exact X1].
Qed.
Lemma in_dset (d : kdict) k v : dget keq d k = None -> dset keq d k v = d ++ [(k, v)].
Proof. induction d as [|[k' v'] d IH]; cbn; [reflexivity|]. destruct (keq k k'); [discriminate|]. intros G. f_equal. now apply IH. Qed.
Lemma high_gives {A} (r : res (num A)) v : gives true r v -> exists x, r = Ok x /\ kd x = High.
Proof. intros (k & E & P). exists (Num k v). auto. Qed.
Lemma filter_all {A} (p : A -> bool) l : (forall x, In x l -> p x = true) -> filter p l = l.
Proof. induction l as [|x l IH]; intros H; cbn; [reflexivity|]. rewrite (H x (or_introl eq_refl)). f_equal. apply IH. intros y Hy. apply H. now right. Qed.
Lemma float_minus a b : (kd a = High /\ kd b = Float) \/ (kd a = Float /\ kd b = High) -> ksub a b = Err TypeError.
Proof. unfold ksub, lift. intros [[-> ->] | [-> ->]]; reflexivity. Qed.
Theorem C112_float_times_refuted : forall a v t, consistent a -> q_hp a = true -> fits true (kd v) -> kd t = Float -> in_year (va t) -> dget keq (q_txns a) t = None ->
  exists a', add_transaction a v (KNum t) = Ok a' /\
    balance_at_time a' (KText "end") None = Err TypeError /\ returns a' = Err TypeError /\ next_year a' = Err TypeError /\
    (forall d, timing_ok true d -> max_outflows a' d None None None = Err TypeError /\ max_inflows a' d None None None = Err TypeError).
Proof.
  intros a v t C Hp Fv Kt It G. unfold add_transaction. rewrite in_year_conv by exact It. cbn [bind]. unfold kincr. rewrite G, Hp.
  destruct (lift_l Rplus true (conv true (int 0)) v eq_refl Fv) as (k & E & P). unfold kadd. rewrite E. cbn [bind va]. clear E. set (x := Num k _). assert (Px : kd x = High) by exact P.
  rewrite in_dset by exact G. eexists. split; [reflexivity|]. set (a' := with_txns a _).
  assert (Q : forall f, f t x = Err TypeError -> (forall w y, fits true (kd w) -> in_year (va w) -> fits true (kd y) -> exists z, f w y = Ok z /\ kd z = High) ->
    forall s, kd s = High -> ktotal f s (q_txns a ++ [(t, x)]) = Err TypeError).
  { intros f Ft Fo s Hs. apply fail_total; [apply Exists_app; right; constructor; exact Ft| |exact Hs]. apply Forall_app. split; [|constructor; [left; exact Ft|constructor]].
    pose proof (c_txns a C) as Ct. rewrite Hp in Ct. eapply Forall_impl; [|exact Ct]. intros [w y] [[W1 W2] W3]. right. now apply Fo. }
  assert (V : forall r w one, fits true (kd r) -> when_conv true w = Ok one -> kd one = High -> va one = 1 -> forall s, kd s = High ->
     ktotal (fun w' v => value_at_time true v r (KNum w') w (periods true (q_nper a))) s (q_txns a ++ [(t, x)]) = Err TypeError).
  { intros r w one Fr W1 K1 V1 s Hs. apply Q; [| |exact Hs].
    - unfold value_at_time. rewrite W1. cbn [bind]. rewrite in_year_conv by exact It. cbn [bind]. rewrite float_minus by (left; auto). reflexivity.
    - intros w' y W2 W3 W4. assert (Z : value_at_time true y r (KNum w') w (periods true (q_nper a)) = value_at_time true y r (KNum w') (KNum one) (periods true (q_nper a))).
      { unfold value_at_time. rewrite W1. rewrite (in_year_conv true one) by (rewrite V1; unfold in_year; lra). reflexivity. }
      rewrite Z. assert (O1 : fits true (kd one)) by (rewrite K1; discriminate). assert (O2 : in_year (va one)) by (rewrite V1; unfold in_year; lra). exact (high_gives _ _ (value_gives true y r w' one (q_nper a) W4 Fr W2 W3 O1 O2)). }
  assert (F0 : fits true (kd (q_bal a))) by (rewrite <- Hp; apply C).
  assert (FR : forall y, fits true (kd (q_rate a y))) by (intros y; rewrite <- Hp; apply C).
  assert (S0 : forall r one w, fits true (kd r) -> when_conv true w = Ok one -> kd one = High -> va one = 1 -> exists s, value_at_time true (q_bal a) r (KText "start") w (periods true (q_nper a)) = Ok s /\ kd s = High).
  { intros r one w Fr W1 K1 V1. rewrite value_text, W1. change (when_conv true (KText "start")) with (Ok (conv true (int 0))). cbn iota.
    assert (Z : value_at_time true (q_bal a) r (KNum (conv true (int 0))) w (periods true (q_nper a)) = value_at_time true (q_bal a) r (KNum (conv true (int 0))) (KNum one) (periods true (q_nper a))).
    { unfold value_at_time. rewrite W1. rewrite (in_year_conv true one) by (rewrite V1; unfold in_year; lra). reflexivity. }
    rewrite Z. assert (O1 : fits true (kd one)) by (rewrite K1; discriminate). assert (O2 : in_year (va one)) by (rewrite V1; unfold in_year; lra). assert (O3 : fits true (kd (conv true (int 0)))) by discriminate. assert (O4 : in_year (va (conv true (int 0)))) by (unfold in_year; cbn; lra). exact (high_gives _ _ (value_gives true (q_bal a) r (conv true (int 0)) one (q_nper a) F0 Fr O3 O4 O1 O2)). }
  assert (W : when_conv true (KText "end") = Ok (conv true (int 1))) by reflexivity.
  assert (W' : when_conv true (KNum (conv true (int 1))) = Ok (conv true (int 1))) by (apply in_year_conv; unfold in_year; cbn; lra).
  assert (B : balance_at_time a' (KText "end") None = Err TypeError).
  { unfold balance_at_time. change (q_hp a') with (q_hp a). change (q_bal a') with (q_bal a). change (rate a') with (rate a). change (q_txns a') with (q_txns a ++ [(t, x)]).
    change (nper a') with (periods (q_hp a) (q_nper a)). rewrite Hp, W. cbn [bind]. destruct (S0 (rate a) _ _ (FR _) W' eq_refl eq_refl) as (s & -> & Hs). cbn [bind].
    replace (filter (fun kv => Rleb (va (fst kv)) (va (conv true (int 1)))) (q_txns a ++ [(t, x)])) with (q_txns a ++ [(t, x)]); [exact (V (rate a) _ (conv true (int 1)) (FR _) W' eq_refl eq_refl s Hs)|].
    symmetry. apply filter_all. intros kv Hkv. apply in_app_or in Hkv. rewrite conv_va. cbn [va int]. apply Rleb_t. destruct Hkv as [Hkv | [<- | []]]; [|apply It].
    pose proof (c_txns a C) as Ct. unfold payments in Ct. rewrite Forall_forall in Ct. destruct (Ct _ Hkv) as [[_ [_ Y]] _]. exact Y. }
  split; [exact B|]. split; [|split].
  - unfold returns. change (q_hp a') with (q_hp a). change (q_bal a') with (q_bal a). change (rate a') with (rate a). change (q_txns a') with (q_txns a ++ [(t, x)]). change (nper a') with (periods (q_hp a) (q_nper a)). rewrite Hp.
    assert (Gn : forall u y, fits true (kd u) -> fits true (kd y) -> exists z, (let* g := accumulation_function true u (rate a) (periods true (q_nper a)) in let* h := ksub g (conv true (int 1)) in kmul y h) = Ok z /\ kd z = High).
    { intros u y Fu Fy. destruct (accum_gives true u (rate a) (q_nper a) Fu (FR _)) as (k1 & E1 & P1). rewrite E1. cbn [bind]. unfold ksub. 
      match goal with |- context [lift Rminus ?p ?q] => destruct (lift_l Rminus true p q P1 ltac:(discriminate)) as (k2 & E2 & P2); rewrite E2; cbn [bind] end.
      unfold kmul. match goal with |- context [lift Rmult ?p ?q] => destruct (lift_r Rmult true p q Fy P2) as (k3 & E3 & P3); rewrite E3 end. eexists. split; [reflexivity|exact P3]. }
    destruct (Gn (conv true (int 1)) (q_bal a) ltac:(discriminate) F0) as (s & Es & Hs). cbn zeta. rewrite Es. cbn [bind].
    rewrite Q; [reflexivity| | |exact Hs].
    + rewrite float_minus by (left; auto). reflexivity.
    + intros w y W1 W2 W3. destruct (lift_fits Rminus true (conv true (int 1)) w ltac:(discriminate) W1) as (k1 & E1 & F1). unfold ksub at 1. rewrite E1. cbn [bind]. now apply Gn.
  - unfold next_year, next_balance. change (q_hp a') with (q_hp a). change (q_bal a') with (q_bal a). change (q_rate a') with (q_rate a). change (q_year a') with (q_year a). change (q_txns a') with (q_txns a ++ [(t, x)]). change (nper a') with (periods (q_hp a) (q_nper a)). rewrite Hp.
    destruct (S0 (q_rate a (q_year a + 1)%Z) _ _ (FR _) W eq_refl eq_refl) as (s & -> & Hs). cbn [bind]. rewrite (V (q_rate a (q_year a + 1)%Z) (KText "end") (conv true (int 1))); auto.
  - intros d _. assert (Fl : forall keep, exists o, flows keep a' None = Ok o /\ fits true (kd o)).
    { intros keep. unfold flows. change (q_hp a') with (q_hp a). rewrite Hp. cbn [bind].
      destruct (sum_fits true (filter (fun v0 => keep (va v0)) (map snd (q_txns a'))) (int 0) (int_fits _ _)) as (k1 & E1 & F1).
      { apply Forall_forall. intros y Hy. apply filter_In in Hy. destruct Hy as [Hy _]. apply in_map_iff in Hy. destruct Hy as (kv & <- & Hy). change (q_txns a') with (q_txns a ++ [(t, x)]) in Hy. apply in_app_or in Hy.
        destruct Hy as [Hy | [<- | []]]; [|cbn [snd]; rewrite Px; discriminate]. pose proof (c_txns a C) as Ct. unfold payments in Ct. rewrite Forall_forall, Hp in Ct. apply (Ct _ Hy). }
      rewrite E1. cbn [bind]. unfold kadd. match goal with |- context [lift Rplus ?p ?q] => destruct (lift_fits Rplus true p q ltac:(discriminate) F1) as (k2 & E2 & F2); rewrite E2 end. eexists. split; [reflexivity|exact F2]. }
    split.
    + unfold max_outflows, outflows. destruct (Fl (fun v => Rltb v 0)) as (o & -> & Fo). cbn [bind]. change (q_hp a') with (q_hp a). rewrite Hp. 
      destruct (lift_l esub true (conv true (Num Float MInf)) o eq_refl Fo) as (k2 & E2 & P2). rewrite E2. cbn [bind]. unfold transactions_to_balance. rewrite B. reflexivity.
    + unfold max_inflows, inflows. destruct (Fl (fun v => Rltb 0 v)) as (o & -> & Fo). cbn [bind]. change (q_hp a') with (q_hp a). rewrite Hp. 
      destruct (lift_l esub true (conv true (Num Float PInf)) o eq_refl Fo) as (k2 & E2 & P2). rewrite E2. cbn [bind]. unfold transactions_to_balance. rewrite B. reflexivity.
Qed.
Print Assumptions C112_float_times_refuted.

(** Whole numbers as weights, as in the documented [max_outflows({0: 1, 1: 1})], are not accepted in high precision. *)
Lemma ints_sum : forall l s, kd s = Int -> Forall (fun v => kd v = Int) l -> ksum s l = Ok (Num Int (va s + Rsum (map va l))).
Proof.
  induction l as [|v l IH]; intros s Hs F; cbn [ksum map Rsum]; [rewrite Rplus_0_r; destruct s; cbn in *; now subst|]. inversion F as [|? ? F1 F2]; subst. unfold kadd, lift. rewrite Hs, F1. cbn [mix bind].
  rewrite IH by (auto; reflexivity). cbn [va]. do 2 f_equal. lra.
Qed.
Theorem C112_whole_weights_refuted : forall a d, consistent a -> q_hp a = true -> d <> [] ->
  Forall (fun kv => (fits true (kd (fst kv)) /\ in_year (va (fst kv))) /\ kd (snd kv) = Int /\ 0 < va (snd kv)) d ->
  max_outflows a (Some d) None None None = Err TypeError /\ max_inflows a (Some d) None None None = Err TypeError.
Proof.
  intros a d C Hp N F.
  assert (T : forall g lo hi, fits true (kd g) -> transactions_to_balance a g (Some d) lo hi None = Err TypeError).
  { intros g lo hi Fg. unfold transactions_to_balance. destruct (balance_gives a (KText "end") 1 None C ltac:(right; auto) I) as (k1 & E1 & P1). rewrite Hp in P1. rewrite E1. cbn [bind].
    match goal with |- context [lift esub ?p ?q] => destruct (lift_r esub true p q Fg P1) as (k2 & E2 & P2); rewrite E2 end. cbn [bind].
    destruct d as [|[w v] d]; [contradiction|]. clear N. inversion F as [|? ? F1 F2]; subst. destruct F1 as ((Fw & Iw) & Kv & Pv). cbn [fst snd] in *.
    assert (Pos : 0 < Rsum (map va (map snd ((w, v) :: d)))).
    { apply Rsum_pos; [discriminate|]. intros x Hx. rewrite map_map in Hx. apply in_map_iff in Hx. destruct Hx as (kv & <- & Hx). rewrite Forall_forall in F. apply (F _ Hx). }
    set (total := va (int 0) + Rsum (map va (map snd ((w, v) :: d)))).
    assert (NT : exists r, normalized true ((w, v) :: d) = Ok ((w, Num Float (va v / total)) :: r)).
    { unfold normalized. rewrite ints_sum; [|reflexivity|]. 2:{ apply Forall_forall. intros x Hx. apply in_map_iff in Hx. destruct Hx as (kv & <- & Hx). rewrite Forall_forall in F. apply (F _ Hx). }
      cbn [bind]. fold total. cbn [va]. assert (NZ : Reqb total 0 = false) by (apply Reqb_f; unfold total; cbn [va int]; lra). rewrite NZ.
      assert (Z : Reqb (va v) 0 = false) by (apply Reqb_f; lra). rewrite Z. unfold kdiv at 1. cbn [kd va]. rewrite Kv, NZ. cbn [mix bind].
      match goal with |- exists r, (let* d := ?go d in _) = _ => assert (G : forall l, Forall (fun kv => (fits true (kd (fst kv)) /\ in_year (va (fst kv))) /\ kd (snd kv) = Int /\ 0 < va (snd kv)) l -> exists r, go l = Ok r) end.
      { induction l as [|[w' v'] l IH]; intros Fl; [eexists; reflexivity|]. inversion Fl as [|? ? Fl1 Fl2]; subst. destruct (IH Fl2) as (r & Er). destruct Fl1 as (_ & K' & P'). cbn [fst snd] in *.
        assert (Z' : Reqb (va v') 0 = false) by (apply Reqb_f; lra). rewrite Z'. unfold kdiv at 1. cbn [kd va]. rewrite K', NZ. cbn [mix bind]. rewrite Er. eexists. reflexivity. }
      destruct (G d F2) as (r & ->). eexists. reflexivity. }
    destruct NT as (r & NT). cbn iota. rewrite Hp, NT. cbn [bind ktotal]. destruct (lift_fits Rminus true (int 1) w ltac:(discriminate) Fw) as (k3 & E3 & F3). unfold ksub at 1. rewrite E3. cbn [bind]. rewrite nper_periods, Hp.
    match goal with |- context [accumulation_function true ?t ?r _] => destruct (accum_gives true t r (q_nper a) F3 ltac:(rewrite <- Hp; apply C)) as (k4 & E4 & P4); rewrite E4 end. cbn [bind].
    unfold kmul at 1, lift. cbn [kd]. rewrite P4. reflexivity. }
  assert (Z : fits true (kd (conv true (Num Int (Fin 0))))) by discriminate. assert (Z' : fits true (kd (conv true (Num Float PInf)))) by discriminate.
  unfold max_outflows, max_inflows, outflows, inflows. rewrite Hp. split.
  - destruct (flows_ok (fun v => Rltb v 0) a None C I) as (k & E & P). rewrite E. cbn [bind]. rewrite Hp in P.
    match goal with |- context [lift esub ?p ?q] => destruct (lift_l esub true p q eq_refl P) as (k2 & E2 & P2); rewrite E2 end. cbn [bind]. now apply T.
  - destruct (flows_ok (fun v => Rltb 0 v) a None C I) as (k & E & P). rewrite E. cbn [bind]. rewrite Hp in P.
    match goal with |- context [lift esub ?p ?q] => destruct (lift_l esub true p q eq_refl P) as (k2 & E2 & P2); rewrite E2 end. cbn [bind]. now apply T.
Qed.
Print Assumptions C112_whole_weights_refuted.

(** In high precision, an account that grows cannot say when it reaches a balance (one of the same sign as its balance). *)
Theorem C112_time_to_balance_refuted : forall a v w t, consistent a -> q_hp a = true -> va (rate a) <> 0 -> kd (rate a) = High \/ q_nper a <> None ->
  fits true (kd v) -> a_time true w t -> 0 < va v / AccountModel.balance_at_time (plain a) t None -> time_to_balance a v w = Err TypeError.
Proof.
  intros a v w t C Hp R0 K Fv T Pos. set (b := AccountModel.balance_at_time (plain a) t None) in *.
  assert (NZ : b <> 0). { intros Z. rewrite Z in Pos. unfold Rdiv in Pos. rewrite Rinv_0, Rmult_0_r in Pos. lra. }
  destruct (a_time_conv _ _ _ T) as (x & E1 & V & Fx & Ix). unfold time_to_balance. rewrite Hp, E1. cbn [bind].
  assert (S : forall n, time_to_balance_from n a v x = Err TypeError).
  { intros n. destruct (balance_gives a (KNum x) t None C ltac:(rewrite Hp; cbn; rewrite V; auto) I) as (k1 & E2 & P1). match type of E2 with _ = Ok (Num _ ?y) => change y with b in E2 end. rewrite Hp in P1.
    assert (TV : time_to_value true (rate a) (Num k1 b) v (nper a) = Err TypeError).
    { unfold time_to_value. destruct (kdiv_r Rdiv true v (Num k1 b) Fv P1 NZ) as (k2 & E3 & P2). rewrite E3. cbn [bind]. unfold accumulation_function_inverse. cbn [va].
      destruct (Rltb (va v / b) 0) eqn:L; [apply Rltb_t in L; lra|]. destruct (Reqb (va (rate a)) 0) eqn:Z; [apply Reqb_t in Z; contradiction|].
      assert (Lg : forall y, klog (Num k2 (va v / b)) y = Ok (Num Float (ln (va v / b) / ln (va y)))).
      { intros y. unfold klog. cbn [va]. destruct (Rleb (va v / b) 0) eqn:L'; [apply Rleb_t in L'; lra|reflexivity]. }
      unfold nper. rewrite Hp. destruct (q_nper a) as [n'|]; cbn [option_map].
      - destruct (kdiv_r Rdiv true (rate a) (conv true (int (IZR (Zpos n')))) ltac:(rewrite <- Hp; apply C) eq_refl ltac:(apply not_0_IZR; discriminate)) as (k3 & E4 & P3). rewrite E4. cbn [bind].
        unfold kadd. match goal with |- context [lift Rplus ?p ?q] => destruct (lift_l Rplus true p q eq_refl (fits_proper _ _ P3)) as (k4 & E5 & P4); rewrite E5 end. cbn [bind]. rewrite Lg. reflexivity.
      - rewrite Lg. cbn [bind]. destruct K as [K | K]; [|contradiction]. unfold kdiv. cbn [kd]. rewrite K. reflexivity. }
    destruct n; cbn [time_to_balance_from]; rewrite E2; cbn [bind]; rewrite Hp, TV; reflexivity. }
  apply S.
Qed.
Print Assumptions C112_time_to_balance_refuted.

(** A savings account in high precision, at 5%, compounded monthly, with a payment. *)
Definition saver (hp : bool) : kaccount :=
  let k := if hp then High else Float in
  {| q_hp := hp; q_year := 2000; q_bal := Num k 1000; q_rate := fun _ => Num k (1/20); q_nper := Some 12%positive;
     q_txns := [(Num Int 0, Num Int 100)]; q_timing := [(Num k (1/2), Num k 1)] |}.
Example C112_sat : (forall hp, consistent (saver hp)) /\
  Forall (op_fits true) [Pay (Num High (-50)) (KNum (Num High (1/2))); Pay (int 20) (KText "end"); NewYear] /\
  (exists b, run_plain (plain (saver true)) [Pay (Num High (-50)) (KNum (Num High (1/2))); Pay (int 20) (KText "end"); NewYear] = Ok b) /\
  moment true (Given (KText "start")) 0 /\ times_a_year (inr "BW"%string) 26 /\
  dget keq (q_txns (saver true)) (Num Float (1/2)) = None /\ va (rate (saver true)) <> 0 /\ kd (rate (saver true)) = High /\
  0 < 2000 / AccountModel.balance_at_time (plain (saver true)) 0 None.
Proof.
  split; [|split; [|split; [|split; [|split; [|split; [|split; [|split]]]]]]].
  - intros hp. constructor; cbn.
    + destruct hp; discriminate.
    + intros _. destruct hp; discriminate.
    + constructor; [|constructor]. cbn. split; [split; [destruct hp; discriminate|unfold in_year; lra]|destruct hp; discriminate].
    + constructor; [|constructor]. cbn. split; [split; [destruct hp; discriminate|unfold in_year; lra]|destruct hp; cbn; congruence].
  - repeat constructor; cbn; discriminate.
  - cbn [run_plain do_plain untyped AccountModel.add_transaction AccountModel.rwhen_conv va]. unfold AccountModel.add_transaction, AccountModel.rwhen_conv. cbn [va].
    destruct (Rltb 1 (1/2)) eqn:E1; [apply Rltb_t in E1; lra|]. destruct (Rltb (1/2) 0) eqn:E2; [apply Rltb_t in E2; lra|]. cbn. eexists. reflexivity.
  - left. auto.
  - right. exists "BW"%string. auto.
  - cbn. unfold keq. cbn [va]. destruct (Reqb (1/2) 0) eqn:E; [apply Reqb_t in E; lra|reflexivity].
  - cbn. lra.
  - reflexivity.
  - unfold AccountModel.balance_at_time. cbn. unfold GrowthModel.value_at_time, GrowthModel.accumulation_function. cbn. rewrite Rminus_diag_eq by reflexivity. rewrite Rmult_0_r.
    destruct (Rleb 0 0) eqn:E; [|apply Rleb_f in E; lra]. cbn. unfold Rpower. rewrite ?Rmult_0_l, ?exp_0. set (e := exp _). assert (0 < e) by apply exp_pos. apply Rmult_lt_0_compat; [lra|]. apply Rinv_0_lt_compat. lra.
Qed.
