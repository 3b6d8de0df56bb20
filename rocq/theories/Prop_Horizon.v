(** C66 (settlement), C67, C68, C83, C84: the forecast over the years. *)
From Verif Require Import Base BaseFacts TimingModel SubModel ForecastsModel HorizonModel Prop_SubForecast Prop_Forecasts.
From Verif Require TimingSpec TimingProofs.
From Coq Require Import Lqa Lia.

(** ** Specification vocabulary *)
Definition total (d : dict Q Q) : Q := Qsum (dvals d).
(** a timing that can carry money: distinct times and weights that do not cancel *)
Definition usable (tm : dict Q Q) : Prop := dwf Qeq_bool tm /\ ~ total tm == 0.
Definition usable_env {W} (e : env W) : Prop := (forall w tm, e_refund e w = Some tm -> usable tm) /\ (forall w tm, e_pay e w = Some tm -> usable tm).
Definition at_start : dict Q Q := [(0, 1)].
(** the timing that applies to an adjustment *)
Definition settled_by {W} (e : env W) (w : W) (adj : Q) : dict Q Q :=
  if Qlt_bool 0 adj then match e_refund e w with Some t => t | None => at_start end
  else match e_pay e w with Some t => t | None => at_start end.

(** ** Settling tax *)
Lemma keys_total : forall (d : dict Q Q), dwf Qeq_bool d -> Qsum (map (qval d) (dkeys d)) == total d.
Proof.
  intros d W. unfold total, dvals, dkeys. assert (G : forall l, (forall kv, In kv l -> In kv d) -> Qsum (map (qval d) (map fst l)) == Qsum (map snd l)).
  { induction l as [|[k v] l IH]; intros H; cbn [map fst snd Qsum]; [reflexivity|]. rewrite IH by (intros kv Hk; apply H; now right).
    unfold qval at 1, qget. rewrite (qIn_dget d k v W (H _ (or_introl eq_refl))). reflexivity. }
  apply G. auto.
Qed.
Lemma keys_exist : forall (d : dict Q Q) k, In k (dkeys d) -> dget Qeq_bool d k <> None.
Proof.
  intros d k. unfold dkeys. induction d as [|[a b] d IH]; cbn [map fst dget]; [intros []|]. intros [->|H]; [rewrite qeqb_refl; discriminate|].
  destruct (Qeq_bool k a); [discriminate|exact (IH H)].
Qed.
Lemma key_of : forall (d : dict Q Q) t, dget Qeq_bool d t <> None -> exists k, In k (dkeys d) /\ t == k.
Proof.
  intros d t. unfold dkeys. induction d as [|[a b] d IH]; cbn [map fst dget]; [congruence|]. destruct (Qeq_bool t a) eqn:Q.
  - intros _. exists a. split; [now left|now apply Qeq_bool_t].
  - intros H. destruct (IH H) as (k & K1 & K2). exists k. split; [now right|exact K2].
Qed.
Lemma series_ok : forall tm a, usable tm -> exists ts, time_series tm a None = Ok ts /\ dwf Qeq_bool ts /\ total ts == a /\
  (forall t, qval ts t == a * (qval tm t / total tm)).
Proof.
  intros tm a [W N]. pose proof (keys_total tm W) as KT.
  destruct (TimingProofs.time_series_keys tm a (dkeys tm)) as (r & R1 & R2 & R3 & R4 & R5).
  - apply TimingProofs.wf_distinct. exact W.
  - apply keys_exist.
  - rewrite KT. exact N.
  - exists r. split; [exact R1|]. split; [exact R3|]. split; [exact R4|]. intros t.
    destruct (dget Qeq_bool tm t) as [v|] eqn:E.
    + destruct (key_of tm t) as (k & K1 & K2); [congruence|]. rewrite (qval_congr r t k K2), (qval_congr tm t k K2), (R5 k K1), KT. unfold Qdiv. lra.
    + assert (E2 : dget Qeq_bool r t = None).
      { destruct (dget Qeq_bool r t) eqn:E2; [|reflexivity]. destruct (key_of r t) as (k & K1 & K2); [congruence|]. unfold dkeys in K1. rewrite R2 in K1.
        pose proof (keys_exist tm k K1) as X. rewrite (qdget_congr tm t k K2) in E. contradiction. }
      unfold qval, qget. rewrite E, E2. unfold Qdiv. lra.
Qed.
Lemma at_start_usable : usable at_start.
Proof. split; [split; [reflexivity|exact I]|vm_compute; discriminate]. Qed.
Lemma settled_usable : forall {W} (e : env W) w adj, usable_env e -> usable (settled_by e w adj).
Proof.
  intros W e w adj [U1 U2]. unfold settled_by. destruct (Qlt_bool 0 adj).
  - destruct (e_refund e w) as [t|] eqn:E; [exact (U1 w t E)|exact at_start_usable].
  - destruct (e_pay e w) as [t|] eqn:E; [exact (U2 w t E)|exact at_start_usable].
Qed.
Lemma tax_ok : forall {W} (e : env W) w avail adj, usable_env e -> exists a2, carryover_tax e w avail (Some adj) = Ok a2 /\
  total a2 == total avail + adj /\
  (forall t, qval a2 t == qval avail t + adj * (qval (settled_by e w adj) t / total (settled_by e w adj))).
Proof.
  intros W e w avail adj U. pose proof (settled_usable e w adj U) as Us. destruct (series_ok _ adj Us) as (ts & S1 & S2 & S3 & S4).
  unfold carryover_tax. unfold settled_by in *.
  assert (T0 : Timing (WNum 0) (FNum 1) = Ok at_start) by (vm_compute; reflexivity).
  destruct (Qlt_bool 0 adj) eqn:P.
  - exists (TimingModel.add_transactions avail ts).
    assert (E : (let* tm := match e_refund e w with Some t => Ok t | None => Timing (WNum 0) (FNum 1) end in
        let* ts := time_series tm adj None in Ok (TimingModel.add_transactions avail ts)) = Ok (TimingModel.add_transactions avail ts))
      by (destruct (e_refund e w) as [t|]; [|rewrite T0]; cbn [bind]; rewrite S1; reflexivity).
    split; [exact E|]. split; [pose proof (TimingProofs.add_transactions_total ts avail) as X; unfold TimingSpec.total in X; unfold total in *; lra|].
    intros t. rewrite TimingProofs.add_transactions_val by exact S2. rewrite S4. reflexivity.
  - destruct (Qlt_bool adj 0) eqn:P2.
    + exists (TimingModel.add_transactions avail ts).
      assert (E : (let* tm := match e_pay e w with Some t => Ok t | None => Timing (WNum 0) (FNum 1) end in
        let* ts := time_series tm adj None in Ok (TimingModel.add_transactions avail ts)) = Ok (TimingModel.add_transactions avail ts))
        by (destruct (e_pay e w) as [t|]; [|rewrite T0]; cbn [bind]; rewrite S1; reflexivity).
      split; [exact E|]. split; [pose proof (TimingProofs.add_transactions_total ts avail) as X; unfold TimingSpec.total in X; unfold total in *; lra|].
      intros t. rewrite TimingProofs.add_transactions_val by exact S2. rewrite S4. reflexivity.
    + exists avail. split; [reflexivity|]. qb. assert (A0 : adj == 0) by lra. split; [lra|]. intros t.
      match goal with |- _ == _ + adj * ?x => generalize x end. intros x. rewrite A0. lra.
Qed.
Lemma overflow_total : forall d, total (carryover_overflow [] d) == total d.
Proof. intros d. unfold carryover_overflow, total. rewrite incr_total. unfold dvals at 1. cbn. lra. Qed.
Lemma overflow_val : forall d t, qval (carryover_overflow [] d) t == if Qeq_bool t 0 then total d else 0.
Proof. intros d t. unfold carryover_overflow, total. rewrite incr_val. unfold qval, qget. cbn [dget]. lra. Qed.

(** The tax adjustment of a year is settled in full in the next, by the refund timing if positive,
    by the payment timing if negative (at the start of the year if there is no such timing). *)
Theorem C66_settled_next_year : forall W (e : env W) s s' adj, usable_env e -> e_adj e (f_world s) = Ok (Some adj) ->
  HorizonModel.next_year e s = Ok s' ->
  total (f_avail s') == total (f_avail s) + adj /\
  forall t, qval (f_avail s') t == (if Qeq_bool t 0 then total (f_avail s) else 0) + adj * share (settled_by e (f_world s') adj) t.
Proof.
  intros W e s s' adj U Ha H. unfold HorizonModel.next_year in H. rewrite Ha in H. cbn [bind] in H.
  destruct (advance e NextSub _ _ _ _ _) as [[subs w1] l1]. destruct (advance e NextPerson _ _ _ _ _) as [[people w2] l2]. destruct (advance e NextAccount _ _ _ _ _) as [[accts w3] l3].
  destruct (tax_ok e w3 (carryover_overflow [] (f_avail s)) adj U) as (a2 & A1 & A2 & A3). rewrite A1 in H. cbn [bind] in H. injection H as <-. cbn [f_avail f_world].
  split; [rewrite A2, overflow_total; reflexivity|]. intros t. rewrite A3, overflow_val. reflexivity.
Qed.
Print Assumptions C66_settled_next_year.

(** ** C67 *)
(** the adjustment carried over, none counting as zero *)
Definition carried {W} (e : env W) (w : W) : Q := match e_adj e w with Ok (Some a) => a | _ => 0 end.
(** At the start of a year [available] is last year's net unspent cash, at time 0, plus last year's
    tax adjustment: nothing else, whatever the cash flows of the year were. *)
Theorem C67_year_start : forall W (e : env W) s s', usable_env e -> HorizonModel.next_year e s = Ok s' ->
  total (f_avail s') == total (f_avail s) + carried e (f_world s) /\
  (carried e (f_world s) == 0 -> forall t, qval (f_avail s') t == if Qeq_bool t 0 then total (f_avail s) else 0).
Proof.
  intros W e s s' U H. destruct (e_adj e (f_world s)) as [[adj|]|er] eqn:Ha.
  - destruct (C66_settled_next_year W e s s' adj U Ha H) as [T V]. unfold carried. rewrite Ha. split; [exact T|]. intros Z0 t. rewrite V. generalize (share (settled_by e (f_world s') adj) t) as x. intros x. rewrite Z0. lra.
  - unfold carried. rewrite Ha. unfold HorizonModel.next_year in H. rewrite Ha in H. cbn [bind] in H.
    destruct (advance e NextSub _ _ _ _ _) as [[subs w1] l1]. destruct (advance e NextPerson _ _ _ _ _) as [[people w2] l2]. destruct (advance e NextAccount _ _ _ _ _) as [[accts w3] l3].
    cbn [carryover_tax bind] in H. injection H as <-. cbn [f_avail]. split; [rewrite overflow_total; lra|]. intros _ t. apply overflow_val.
  - unfold HorizonModel.next_year in H. rewrite Ha in H. discriminate.
Qed.
Print Assumptions C67_year_start.
(** Over any horizon: there are as many yearly accounts as years, and the cash at the end is the cash at
    the beginning plus all that the sub-forecasts put in or took out plus all tax adjustments. *)
Theorem C67_conserved : forall W (e : env W) n s s', usable_env e -> run_years e n s = Ok s' ->
  exists flows adjs : list Q, Datatypes.length flows = n /\ Datatypes.length adjs = n /\
    total (f_avail s') == total (f_avail s) + Qsum flows + Qsum adjs /\
    exists st : nat -> fstate W * fstate W, (n > 0 -> fst (st 0) = s)%nat /\
      forall i, (i < n)%nat -> call_subforecasts e (fst (st i)) = Ok (snd (st i)) /\
        HorizonModel.next_year e (snd (st i)) = Ok (if (S i <? n)%nat then fst (st (S i)) else s') /\
        nth i flows 0 == total (f_avail (snd (st i))) - total (f_avail (fst (st i))) /\
        nth i adjs 0 == carried e (f_world (snd (st i))).
Proof.
  intros W e n. induction n as [|n IH]; intros s s' U H; cbn [run_years] in H.
  - injection H as <-. exists [], []. repeat split; cbn [Qsum]; try lra. exists (fun _ => (s, s)). split; [lia|]. intros i Hi. lia.
  - destruct (call_subforecasts e s) as [s1|] eqn:E1; [|discriminate]. cbn [bind] in H.
    destruct (HorizonModel.next_year e s1) as [s2|] eqn:E2; [|discriminate]. cbn [bind] in H.
    destruct (IH s2 s' U H) as (fl & ad & L1 & L2 & T & st & S0 & S1).
    exists ((total (f_avail s1) - total (f_avail s)) :: fl), (carried e (f_world s1) :: ad). cbn [Datatypes.length Qsum].
    split; [now rewrite L1|]. split; [now rewrite L2|]. split; [rewrite T; destruct (C67_year_start W e s1 s2 U E2) as [Y _]; lra|].
    exists (fun i => match i with O => (s, s1) | S i => st i end). split; [reflexivity|]. intros i Hi. destruct i as [|i]; cbn [fst snd nth].
    + split; [exact E1|]. split; [|split; reflexivity]. rewrite E2. f_equal. destruct n as [|n].
      * cbn [run_years] in H. injection H as <-. reflexivity.
      * change ((1 <? S (S n))%nat) with true. cbn iota. symmetry. apply S0. lia.
    + destruct (S1 i ltac:(lia)) as (A & B & C & D). split; [exact A|]. split; [|split; assumption].
      replace ((S (S i) <? S n)%nat) with ((S i <? n)%nat) by reflexivity. exact B.
Qed.
Print Assumptions C67_conserved.

(** ** C68 *)
(** what should happen in a year: every sub-forecast is called, in order; then every sub-forecast,
    every person, every account moves on by one year, in that order *)
Definition calls (n : nat) (y : Z) : list event := map (fun i => Call i y) (seq 0 n).
Definition moves (ns np na : nat) (y : Z) : list event :=
  map (fun i => NextSub i y) (seq 0 ns) ++ map (fun i => NextPerson i y) (seq 0 np) ++ map (fun i => NextAccount i y) (seq 0 na).
Definition history (ns np na : nat) (y : Z) (n : nat) : list event :=
  List.concat (map (fun k => calls ns (y + Z.of_nat k) ++ moves ns np na (y + Z.of_nat k)) (seq 0 n)).
(** all parts are in the forecast's year *)
Definition together {W} (s : fstate W) : Prop := Forall (fun y => y = f_year s) (f_subs s) /\ Forall (fun y => y = f_year s) (f_people s) /\ Forall (fun y => y = f_year s) (f_accts s).

Lemma call_from_shape : forall W (e : env W) n i s s', call_from e i n s = Ok s' ->
  f_year s' = f_year s /\ f_subs s' = f_subs s /\ f_people s' = f_people s /\ f_accts s' = f_accts s /\
  f_log s' = f_log s ++ map (fun j => Call j (f_year s)) (seq i n).
Proof.
  intros W e n. induction n as [|n IH]; intros i s s' H; cbn [call_from] in H.
  - injection H as <-. cbn. rewrite app_nil_r. auto.
  - destruct (e_call e i (f_world s) (f_avail s)) as [[w a]|]; [|discriminate]. cbn [bind] in H. apply IH in H. cbn in H.
    destruct H as (A & B & C & D & E). repeat split; auto. rewrite E, <- app_assoc. reflexivity.
Qed.
Lemma advance_shape : forall W (e : env W) ev ys i y w log, Forall (fun z => z = y) ys ->
  let '(ys', w', log') := advance e ev i ys (y + 1) w log in
  Forall (fun z => z = (y + 1)%Z) ys' /\ Datatypes.length ys' = Datatypes.length ys /\ log' = log ++ map (fun j => ev j y) (seq i (Datatypes.length ys)).
Proof.
  intros W e ev ys. induction ys as [|z ys IH]; intros i y w log F; cbn [advance].
  - cbn. rewrite app_nil_r. repeat split; constructor.
  - inversion F; subst. unfold turns. replace (y + 1 - y)%Z with 1%Z by lia. change (Z.to_nat 1) with 1%nat. cbn [catch_up].
    specialize (IH (S i) y (e_next e (ev i y) w) (log ++ [ev i y]) H2).
    destruct (advance e ev (S i) ys (y + 1) (e_next e (ev i y) w) (log ++ [ev i y])) as [[ys' w'] log'] eqn:E. destruct IH as (A & B & C).
    split; [constructor; [reflexivity|exact A]|]. split; [cbn; now rewrite B|]. rewrite C, <- app_assoc. reflexivity.
Qed.
Lemma next_year_shape : forall W (e : env W) s s', together s -> HorizonModel.next_year e s = Ok s' ->
  f_year s' = (f_year s + 1)%Z /\ together s' /\
  Datatypes.length (f_subs s') = Datatypes.length (f_subs s) /\ Datatypes.length (f_people s') = Datatypes.length (f_people s) /\ Datatypes.length (f_accts s') = Datatypes.length (f_accts s) /\
  f_log s' = f_log s ++ moves (Datatypes.length (f_subs s)) (Datatypes.length (f_people s)) (Datatypes.length (f_accts s)) (f_year s).
Proof.
  intros W e s s' (T1 & T2 & T3) H. unfold HorizonModel.next_year in H. destruct (e_adj e (f_world s)) as [adj|]; [|discriminate]. cbn [bind] in H.
  pose proof (advance_shape W e NextSub (f_subs s) 0 (f_year s) (f_world s) (f_log s) T1) as A1.
  destruct (advance e NextSub 0 (f_subs s) (f_year s + 1) (f_world s) (f_log s)) as [[subs w1] l1].
  pose proof (advance_shape W e NextPerson (f_people s) 0 (f_year s) w1 l1 T2) as A2.
  destruct (advance e NextPerson 0 (f_people s) (f_year s + 1) w1 l1) as [[people w2] l2].
  pose proof (advance_shape W e NextAccount (f_accts s) 0 (f_year s) w2 l2 T3) as A3.
  destruct (advance e NextAccount 0 (f_accts s) (f_year s + 1) w2 l2) as [[accts w3] l3].
  destruct A1 as (F1 & L1 & G1), A2 as (F2 & L2 & G2), A3 as (F3 & L3 & G3).
  destruct (carryover_tax e w3 _ adj) as [a2|]; [|discriminate]. cbn [bind] in H. injection H as <-. cbn.
  split; [reflexivity|]. split; [repeat split; assumption|]. repeat split; auto. rewrite G3, G2, G1. unfold moves. now rewrite <- !app_assoc.
Qed.
Lemma call_together : forall W (e : env W) s s', together s -> call_subforecasts e s = Ok s' -> together s'.
Proof.
  intros W e s s' (A & B & C) H. unfold call_subforecasts in H. apply call_from_shape in H. destruct H as (Y & S & P & K & _).
  unfold together. rewrite Y, S, P, K. repeat split; assumption.
Qed.
Lemma history_S : forall ns np na y n, history ns np na y (S n) = (calls ns y ++ moves ns np na y) ++ history ns np na (y + 1) n.
Proof.
  intros ns np na y n. unfold history. cbn [seq map List.concat]. replace (y + Z.of_nat 0)%Z with y by lia. f_equal.
  rewrite <- seq_shift, map_map. f_equal. apply map_ext. intros k. replace (y + Z.of_nat (S k))%Z with (y + 1 + Z.of_nat k)%Z by lia. reflexivity.
Qed.
(** A forecast to the end of a scenario, starting with all parts in its first year: everything that
    happened, in order.  Each year every sub-forecast is called once, and then each part advances exactly
    once; all parts end in the last year. *)
Theorem C68_lockstep : forall W (e : env W) last s s', together s -> (f_year s <= last)%Z ->
  run_forecast e last s = Ok s' ->
  let ns := Datatypes.length (f_subs s) in let np := Datatypes.length (f_people s) in let na := Datatypes.length (f_accts s) in
  f_year s' = last /\ together s' /\
  f_log s' = f_log s ++ history ns np na (f_year s) (Z.to_nat (last - f_year s)) ++ calls ns last.
Proof.
  intros W e last s s' T L H ns np na. unfold run_forecast, turns in H.
  remember (Z.to_nat (last - f_year s)) as n eqn:En. destruct (run_years e n s) as [s1|] eqn:R; [|discriminate]. cbn [bind] in H.
  assert (G : forall n s s1, together s -> run_years e n s = Ok s1 ->
     f_year s1 = (f_year s + Z.of_nat n)%Z /\ together s1 /\ Datatypes.length (f_subs s1) = Datatypes.length (f_subs s) /\
     f_log s1 = f_log s ++ history (Datatypes.length (f_subs s)) (Datatypes.length (f_people s)) (Datatypes.length (f_accts s)) (f_year s) n).
  { clear. induction n as [|n IH]; intros s s1 T R; cbn [run_years] in R.
    - injection R as <-. split; [lia|]. split; [exact T|]. split; [reflexivity|]. unfold history. cbn. now rewrite app_nil_r.
    - destruct (call_subforecasts e s) as [a|] eqn:E1; [|discriminate]. cbn [bind] in R. destruct (HorizonModel.next_year e a) as [b|] eqn:E2; [|discriminate]. cbn [bind] in R.
      pose proof (call_together _ _ _ _ T E1) as Ta. unfold call_subforecasts in E1. apply call_from_shape in E1. destruct E1 as (Y & S & P & K & G).
      destruct (next_year_shape _ _ _ _ Ta E2) as (Y2 & Tb & L1 & L2 & L3 & G2). destruct (IH b s1 Tb R) as (Y3 & T3 & L4 & G3).
      split; [lia|]. split; [exact T3|]. split; [congruence|]. rewrite G3, G2, G, L1, L2, L3, S, P, K, history_S, <- !app_assoc. unfold calls.
      replace (f_year a) with (f_year s) by congruence. do 4 f_equal. lia. }
  destruct (G n s s1 T R) as (Y & T1 & L1 & G1). pose proof (call_together _ _ _ _ T1 H) as T'.
  unfold call_subforecasts in H. apply call_from_shape in H. destruct H as (Y2 & _ & _ & _ & G2).
  assert (Ye : f_year s1 = last) by lia. split; [lia|]. split; [exact T'|]. rewrite G2, G1, L1, Ye, <- app_assoc. reflexivity.
Qed.
Print Assumptions C68_lockstep.

(** ** C85 *)
Section Books.
Context {St : Type}.
Local Notation world := (HorizonModel.world St).
Local Notation config := (HorizonModel.config St).
(** the start of a year: five sub-forecasts, none of the first four called yet *)
Definition fresh (w : world) : Prop :=
  s_invoked (hh_income w) = false /\ s_invoked (hh_living w) = false /\ s_invoked (hh_saving w) = false /\ s_invoked (w_sub (hh_withdrawal w)) = false.
(** what is assumed of the household and its strategies, in whatever state they are *)
Definition sound (c : config) : Prop :=
  c_kinds c 0%nat = None /\
  (forall x h pl, c_save c x h = Ok pl -> NoDup (map fst pl) /\ ~ In 0%nat (map fst pl)) /\
  (forall x h pl, c_withdraw c x h = Ok pl -> (forall al, In al pl -> one_way (snd al)) /\ ~ In 0%nat (map fst pl)).
Definition paid_people (ps : list person) : Prop := ps <> [] /\ forall p, In p ps -> proper (p_timing p).
Lemma hget_hset : forall h a, hget (hset h 0 a) 0 = a.
Proof. intros. rewrite hget_set. reflexivity. Qed.
Lemma htotal_hset : forall h a, htotal (hset h 0 a) 0 = total a.
Proof. intros. unfold htotal, total. now rewrite hget_hset. Qed.
Lemma living_err : forall kd d e ps av h s, ps <> [] -> exists e', call kd d (living_body (Err e) ps av) h s av = Err e'.
Proof.
  intros kd d e ps av h s N. unfold call, begin_call, living_body. destruct ps as [|p r]; [contradiction|].
  destruct (Qeq_bool (net_income (p :: r)) 0); cbn [run bind]; eexists; reflexivity.
Qed.
Lemma saving_err : forall kd d st e av h s, s_invoked s = false -> st h = Err e -> call kd d (saving_body st av) h s av = Err e.
Proof. intros kd d st e av h s F E. unfold call, begin_call, saving_body. rewrite F, E. reflexivity. Qed.
Lemma withdraw_err : forall kd d st wh e av h w, s_invoked (w_sub w) = false -> st h = Err e -> withdraw_call kd d st wh h w av = Err e.
Proof. intros kd d st wh e av h w F E. unfold withdraw_call, begin_call. rewrite F, E. reflexivity. Qed.
Lemma withdraw_accounts : forall kd default wh h0 avail pl hx tw hx' tw', NoDup (map fst pl) -> ~ In avail (map fst pl) ->
  withdraw_all kd default wh h0 avail (hx, tw) pl = Ok (hx', tw') ->
  forall a, a <> avail -> htotal (fst hx') a == htotal (fst hx) a + Qsum (dvals (planned pl a)).
Proof.
  intros kd default wh h0 avail pl. induction pl as [|[b l] pl IH]; intros hx tw hx' tw' D N H a Na; cbn [withdraw_all] in H.
  - injection H as <- <-. unfold planned, dvals. cbn. lra.
  - destruct (withdraw_one kd default wh h0 avail (hx, tw) (b, l)) as [[hy ty]|] eqn:E; [|discriminate]. cbn [bind] in H. cbn [map fst] in D, N. inversion D as [|? ? D1 D2]; subst.
    assert (Nb : b <> avail) by (intro X; apply N; now left).
    assert (Y : htotal (fst hy) a == htotal (fst hx) a + (if Nat.eqb a b then Qsum (dvals l) else 0)).
    { unfold withdraw_one in E. destruct (add_transactions kd default hx l (Some avail) (Some b) false) as [h1|] eqn:E1; [|discriminate]. cbn [bind] in E.
      pose proof (adds_effect _ _ _ _ _ _ _ _ E1 a) as T1. unfold dir in T1. cbn [oeqb] in T1. rewrite (Nat.eqb_sym b a) in T1. destruct (Nat.eqb_spec avail a) as [->|_]; [congruence|].
      destruct (Qeq_bool _ 0); [injection E as <- <-; destruct (Nat.eqb a b); lra|].
      destruct (Timing (WDict l) (FNum 1)) as [tm|]; [|discriminate]. cbn [bind] in E.
      destruct (transactions_from_timing tm _) as [ts|]; [|discriminate]. cbn [bind] in E.
      destruct (add_transactions kd default h1 ts None (Some avail) false) as [h2|] eqn:E2; [|discriminate]. cbn [bind] in E. injection E as <- <-.
      pose proof (adds_effect _ _ _ _ _ _ _ _ E2 a) as T2. unfold dir in T2. cbn [oeqb] in T2. destruct (Nat.eqb_spec avail a) as [->|_]; [congruence|]. destruct (Nat.eqb a b); lra. }
    rewrite (IH hy ty hx' tw' D2 (fun Q => N (or_intror Q)) H a Na), Y. unfold planned. cbn [dget]. destruct (Nat.eqb_spec a b) as [->|_].
    + assert (Z : dget Nat.eqb pl b = None). { destruct (dget Nat.eqb pl b) eqn:G; [|reflexivity]. exfalso. apply D1. clear -G. induction pl as [|[k v] r IHr]; [discriminate|]. cbn [dget] in G. cbn. destruct (Nat.eqb_spec b k) as [->|_]; [now left|right; auto]. }
      rewrite Z. unfold dvals. cbn. lra.
    + lra.
Qed.
Lemma withdraw_no_withholding : forall kd default wh h0 avail pl hx tw hx' tw', (forall h a, wh h a == 0) ->
  withdraw_all kd default wh h0 avail (hx, tw) pl = Ok (hx', tw') -> tw' = tw.
Proof.
  intros kd default wh h0 avail pl. induction pl as [|[b l] pl IH]; intros hx tw hx' tw' Z H; cbn [withdraw_all] in H; [now injection H as <- <-|].
  destruct (withdraw_one kd default wh h0 avail (hx, tw) (b, l)) as [[hy ty]|] eqn:E; [|discriminate]. cbn [bind] in H. rewrite (IH _ _ _ _ Z H).
  unfold withdraw_one in E. destruct (add_transactions kd default hx l (Some avail) (Some b) false) as [h1|] eqn:E1; [|discriminate]. cbn [bind] in E.
  assert (Q : Qeq_bool (wh (fst h1) b - wh h0 b) 0 = true) by (apply Qeq_bool_iff; rewrite !Z; lra). rewrite Q in E. now injection E as <- <-.
Qed.
(** One year: where the cash came from and went to. *)
(** what the strategies are shown: [h1] the accounts once income is in and living expenses are out,
    [h2] the accounts once the saving plan [p1] has also been carried out *)
Definition shown (s : fstate world) (net living : Q) (p1 : plan) (h1 h2 : heap) : Prop :=
  htotal h1 0 == total (f_avail s) + net - living /\
  (forall a, a <> 0%nat -> htotal h1 a == htotal (hh_heap (f_world s)) a) /\
  htotal h2 0 == htotal h1 0 - Qsum (map (fun al => Qsum (dvals (snd al))) p1) /\
  (forall a, a <> 0%nat -> htotal h2 a == htotal h1 a + Qsum (dvals (planned p1 a))).
Lemma call_keeps_year : forall kd d b h s av h' s', call kd d b h s av = Ok (h', s') -> s_year s' = s_year s.
Proof.
  intros kd d b h s av h' s' H. unfold call, begin_call in H.
  destruct (s_invoked s); cbn [bind] in H; match type of H with bind ?X _ = _ => destruct X as [[hh x]|] end; try discriminate; cbn [bind] in H; injection H as <- <-; reflexivity.
Qed.
Lemma year_full : forall c s s', sound c -> Datatypes.length (f_subs s) = 5%nat -> fresh (f_world s) -> paid_people (hh_people (f_world s)) ->
  call_subforecasts (real_env c) s = Ok s' ->
  exists living saving_plan withdrawal_plan held h1 h2,
    c_living c (hh_rest (f_world s)) (hh_people (f_world s)) (s_year (hh_living (f_world s))) = Ok living /\
    c_save c (hh_rest (f_world s)) h1 = Ok saving_plan /\ c_withdraw c (hh_rest (f_world s)) h2 = Ok withdrawal_plan /\
    shown s (Qsum (map p_gross (hh_people (f_world s))) - Qsum (map p_withheld (hh_people (f_world s)))) living saving_plan h1 h2 /\
    held = w_withheld (hh_withdrawal (f_world s')) - w_withheld (hh_withdrawal (f_world s)) /\
    hh_people (f_world s') = hh_people (f_world s) /\
    total (f_avail s') == total (f_avail s)
      + (Qsum (map p_gross (hh_people (f_world s))) - Qsum (map p_withheld (hh_people (f_world s))))
      - living - Qsum (map (fun al => Qsum (dvals (snd al))) saving_plan)
      + - Qsum (map (fun al => Qsum (dvals (snd al))) withdrawal_plan) + held /\
    s_year (hh_living (f_world s')) = s_year (hh_living (f_world s)) /\
    gross_withdrawals (hh_withdrawal (f_world s')) == - htotal h2 0 /\
    (NoDup (map fst withdrawal_plan) -> forall a, a <> 0%nat -> htotal (hh_heap (f_world s')) a == htotal h2 a + Qsum (dvals (planned withdrawal_plan a))) /\
    ((forall x h a, c_wh c x h a == 0) -> held == 0) /\ hh_rest (f_world s') = hh_rest (f_world s).
Proof.
  intros c s s' (K & Sv & Wd) L (F1 & F2 & F3 & F4) (Pn & Pp) H. unfold call_subforecasts in H. rewrite L in H. cbn [call_from real_env e_call] in H.
  unfold real_call in H at 1. cbn [f_world f_avail] in H.
  destruct (call (c_kinds c) (c_default c) _ (hset (hh_heap (f_world s)) 0 (f_avail s)) _ 0) as [[h1 s1]|] eqn:E1; [|discriminate]. cbn [bind f_world f_avail f_year f_log f_subs f_people f_accts] in H.
  destruct (C62_income_credited_partial _ _ _ _ _ _ _ _ K F1 Pp E1) as (T1 & _ & O1 & _). rewrite htotal_hset in T1.
  unfold real_call in H at 1. cbn [hh_rest hh_heap hh_people hh_income hh_living hh_saving hh_withdrawal] in H.
  destruct (c_living c (hh_rest (f_world s)) (hh_people (f_world s)) (s_year (hh_living (f_world s)))) as [living|e0] eqn:El.
  2:{ exfalso. destruct (living_err (c_kinds c) [] e0 (hh_people (f_world s)) 0 (hset h1 0 (hget h1 0)) (hh_living (f_world s)) Pn) as [e1 Q].
      rewrite Q in H. discriminate. }
  destruct (call (c_kinds c) [] _ (hset h1 0 (hget h1 0)) (hh_living (f_world s)) 0) as [[h2 s2]|] eqn:E2; [|discriminate]. cbn [bind f_world f_avail f_year f_log f_subs f_people f_accts] in H.
  destruct (C63_living_expenses_removed_partial _ _ _ _ _ _ _ _ _ F2 Pn (fun p Hp => proj2 (Pp p Hp)) E2) as (T2 & O2). rewrite htotal_hset in T2.
  unfold real_call in H at 1. cbn [hh_rest hh_heap hh_people hh_income hh_living hh_saving hh_withdrawal] in H.
  destruct (c_save c (hh_rest (f_world s)) (hset h2 0 (hget h2 0))) as [pl1|e0] eqn:Es.
  2:{ exfalso. rewrite (saving_err _ _ _ _ _ _ _ F3 Es) in H. discriminate. }
  destruct (call (c_kinds c) [] _ (hset h2 0 (hget h2 0)) (hh_saving (f_world s)) 0) as [[h3 s3]|] eqn:E3; [|discriminate]. cbn [bind f_world f_avail f_year f_log f_subs f_people f_accts] in H.
  destruct (Sv _ _ _ Es) as [D1 N1]. destruct (C64_plan_carried_out _ _ _ _ _ _ _ _ _ F3 Es D1 N1 E3) as (T3 & O3). rewrite htotal_hset in T3.
  unfold real_call in H at 1. cbn [hh_rest hh_heap hh_people hh_income hh_living hh_saving hh_withdrawal] in H.
  destruct (c_withdraw c (hh_rest (f_world s)) (hset h3 0 (hget h3 0))) as [pl2|e0] eqn:Ew.
  2:{ exfalso. rewrite (withdraw_err _ _ _ _ _ _ _ _ F4 Ew) in H. discriminate. }
  destruct (withdraw_call (c_kinds c) [] _ _ (hset h3 0 (hget h3 0)) (hh_withdrawal (f_world s)) 0) as [[h4 s4]|] eqn:E4; [|discriminate]. cbn [bind f_world f_avail f_year f_log f_subs f_people f_accts] in H.
  destruct (Wd _ _ _ Ew) as [W2 N2]. pose proof (C65_available_gains_partial _ _ _ _ _ _ _ _ _ _ F4 Ew W2 N2 E4) as T4. rewrite htotal_hset in T4.
  cbn [real_call bind] in H. injection H as <-. cbn [f_avail f_world hh_withdrawal hh_people].
  exists living, pl1, pl2, (w_withheld s4 - w_withheld (hh_withdrawal (f_world s))), (hset h2 0 (hget h2 0)), (hset h3 0 (hget h3 0)).
  split; [reflexivity|]. split; [exact Es|]. split; [exact Ew|]. split; [|split; [reflexivity|]; split; [reflexivity|]].
  { unfold shown. rewrite !htotal_hset. unfold savings_total, htotal, total in *. split; [lra|].
    assert (Oth : forall h d a, a <> 0%nat -> hget (hset h 0 d) a = hget h a) by (intros h d a N; rewrite hget_set; destruct (Nat.eqb_spec a 0); congruence).
    split; [intros a N; specialize (O1 a N); specialize (O2 a N); rewrite !Oth in * by exact N; lra|].
    split; [lra|]. intros a N. specialize (O3 a N). rewrite !Oth in * by exact N. lra. }
  split; [unfold savings_total, htotal, total in *; lra|]. split.
  - cbn [hh_living]. destruct (call_keeps_year _ _ _ _ _ _ _ _ E2). reflexivity.
  - split; [cbn [hh_withdrawal]; apply (C82_gross_ignores_plan_refuted _ _ _ _ _ _ _ _ _ K F4 E4)|]. clear -E4 Ew F4 N2. unfold withdraw_call, begin_call in E4. rewrite F4, Ew in E4. cbn [bind] in E4.
    destruct (withdraw_all _ _ _ _ 0 _ pl2) as [[hx tw]|] eqn:E; [|discriminate]. cbn [bind] in E4. injection E4 as <- <-. cbn [hh_heap w_withheld hh_rest]. split; [|split; [|reflexivity]].
    + intros D a N. exact (withdraw_accounts _ _ _ _ _ _ _ _ _ _ D N2 E a N).
    + intros Z. rewrite (withdraw_no_withholding _ _ _ _ _ _ _ _ _ _ (Z _) E). lra.
Qed.
Theorem C85_year : forall c s s', sound c -> Datatypes.length (f_subs s) = 5%nat -> fresh (f_world s) -> paid_people (hh_people (f_world s)) ->
  call_subforecasts (real_env c) s = Ok s' ->
  exists living saving_plan withdrawal_plan held h1 h2,
    c_living c (hh_rest (f_world s)) (hh_people (f_world s)) (s_year (hh_living (f_world s))) = Ok living /\
    c_save c (hh_rest (f_world s)) h1 = Ok saving_plan /\ c_withdraw c (hh_rest (f_world s)) h2 = Ok withdrawal_plan /\
    shown s (Qsum (map p_gross (hh_people (f_world s))) - Qsum (map p_withheld (hh_people (f_world s)))) living saving_plan h1 h2 /\
    held = w_withheld (hh_withdrawal (f_world s')) - w_withheld (hh_withdrawal (f_world s)) /\
    hh_people (f_world s') = hh_people (f_world s) /\
    total (f_avail s') == total (f_avail s)
      + (Qsum (map p_gross (hh_people (f_world s))) - Qsum (map p_withheld (hh_people (f_world s))))
      - living - Qsum (map (fun al => Qsum (dvals (snd al))) saving_plan)
      + - Qsum (map (fun al => Qsum (dvals (snd al))) withdrawal_plan) + held.
Proof.
  intros c s s' Sd L F P H. destruct (year_full c s s' Sd L F P H) as (l & p1 & p2 & held & h1 & h2 & A1 & A2 & A3 & A4 & A5 & A6 & A7 & _).
  exists l, p1, p2, held, h1, h2. auto 10.
Qed.

(** a year's entry: net income, living expenses, saved, withdrawn, tax adjustment carried over *)
Record row : Type := { r_net : Q; r_living : Q; r_saved : Q; r_withdrawn : Q; r_adj : Q }.
(** the rows are the years' actual amounts *)
Inductive explained (c : config) : fstate world -> list row -> fstate world -> Prop :=
| explained_nil : forall s, explained c s [] s
| explained_cons : forall s s1 s2 s3 rows r h1 h2 p1 p2,
    call_subforecasts (real_env c) s = Ok s1 -> HorizonModel.next_year (real_env c) s1 = Ok s2 ->
    r_net r == Qsum (map p_gross (hh_people (f_world s))) - Qsum (map p_withheld (hh_people (f_world s))) ->
    c_living c (hh_rest (f_world s)) (hh_people (f_world s)) (s_year (hh_living (f_world s))) = Ok (r_living r) ->
    c_save c (hh_rest (f_world s)) h1 = Ok p1 -> r_saved r == Qsum (map (fun al => Qsum (dvals (snd al))) p1) ->
    shown s (r_net r) (r_living r) p1 h1 h2 ->
    c_withdraw c (hh_rest (f_world s)) h2 = Ok p2 -> r_withdrawn r == - Qsum (map (fun al => Qsum (dvals (snd al))) p2) ->
    tax_adjustment (c_wh c (hh_rest (f_world s1)) (hh_heap (f_world s1))) (c_owing c (hh_rest (f_world s1)) (hh_heap (f_world s1)) (hh_people (f_world s1))) (hh_people (f_world s1)) = Ok (r_adj r) ->
    explained c s2 rows s3 -> explained c s (r :: rows) s3.
(** people keep a payment timing from year to year *)
Definition keeps_paid (c : config) : Prop := forall ev x h ps, paid_people ps -> paid_people (snd (c_next c ev (x, h, ps))).
Definition withheld_of (s : fstate world) : Q := w_withheld (hh_withdrawal (f_world s)).
Lemma real_next_keeps : forall c ev w, keeps_paid c -> paid_people (hh_people w) -> (forall i y, ev <> NextSub i y) ->
  let w' := real_next c ev w in
  hh_income w' = hh_income w /\ hh_living w' = hh_living w /\ hh_saving w' = hh_saving w /\ hh_withdrawal w' = hh_withdrawal w /\ paid_people (hh_people w').
Proof.
  intros c ev w K P N. destruct ev as [i y|i y|i y|i y]; cbn [real_next]; [|exfalso; exact (N i y eq_refl)| |];
    (destruct (c_next c _ (hh_rest w, hh_heap w, hh_people w)) as [[x h] p] eqn:E; cbn; do 4 (split; [reflexivity|]);
     match type of E with c_next c ?e _ = _ => pose proof (K e (hh_rest w) (hh_heap w) (hh_people w) P) as Q end; rewrite E in Q; cbn [snd] in Q; exact Q).
Qed.
Lemma advance_keeps : forall c ev ys i year w log, keeps_paid c -> paid_people (hh_people w) -> (forall j y k z, ev j y <> NextSub k z) ->
  let '(ys', w', log') := advance (real_env c) ev i ys year w log in
  hh_income w' = hh_income w /\ hh_living w' = hh_living w /\ hh_saving w' = hh_saving w /\ hh_withdrawal w' = hh_withdrawal w /\ paid_people (hh_people w').
Proof.
  intros c ev ys. induction ys as [|y ys IH]; intros i year w log K P N; cbn [advance]; [auto 10|].
  assert (C : forall t z w log, paid_people (hh_people w) -> let '(y', w', log') := catch_up (real_env c) (ev i) t z w log in
     hh_income w' = hh_income w /\ hh_living w' = hh_living w /\ hh_saving w' = hh_saving w /\ hh_withdrawal w' = hh_withdrawal w /\ paid_people (hh_people w')).
  { clear y IH P w log. induction t as [|t IHt]; intros z w log P; cbn [catch_up]; [auto 10|].
    destruct (real_next_keeps c (ev i z) w K P (N i z)) as (A1 & A2 & A3 & A4 & A5). cbn zeta in *.
    specialize (IHt (z + 1)%Z (real_next c (ev i z) w) (log ++ [ev i z]) A5). cbn [real_env e_next].
    destruct (catch_up (real_env c) (ev i) t (z + 1) (real_next c (ev i z) w) (log ++ [ev i z])) as [[y' w'] log'].
    destruct IHt as (B1 & B2 & B3 & B4 & B5). do 4 (split; [congruence|]); exact B5. }
  specialize (C (turns y year) y w log P). destruct (catch_up (real_env c) (ev i) (turns y year) y w log) as [[y' w1] log1].
  destruct C as (B1 & B2 & B3 & B4 & B5). specialize (IH (S i) year w1 log1 K B5 N).
  destruct (advance (real_env c) ev (S i) ys year w1 log1) as [[ys' w2] log2]. destruct IH as (D1 & D2 & D3 & D4 & D5). do 4 (split; [congruence|]); exact D5.
Qed.
Lemma fresh_next : forall c s s', keeps_paid c -> together s -> Datatypes.length (f_subs s) = 5%nat -> paid_people (hh_people (f_world s)) ->
  HorizonModel.next_year (real_env c) s = Ok s' -> fresh (f_world s') /\ paid_people (hh_people (f_world s')) /\ withheld_of s' = withheld_of s.
Proof.
  intros c s s' K T L P H. unfold HorizonModel.next_year in H.
  destruct (e_adj (real_env c) (f_world s)) as [adj|]; [|discriminate]. cbn [bind] in H. destruct T as (T1 & _ & _).
  destruct (f_subs s) as [|y0 [|y1 [|y2 [|y3 [|y4 [|]]]]]]; try discriminate L.
  repeat match goal with F : Forall _ (_ :: _) |- _ => inversion F; clear F; subst end.
  cbn [advance] in H. unfold turns in H. replace (f_year s + 1 - f_year s)%Z with 1%Z in H by lia. change (Z.to_nat 1) with 1%nat in H. cbn [catch_up real_env e_next real_next] in H.
  match type of H with context[advance (real_env c) NextPerson 0 ?ys ?yr ?w ?l] => pose proof (advance_keeps c NextPerson ys 0 yr w l K P ltac:(discriminate)) as A1; fold (real_env c) in H; destruct (advance (real_env c) NextPerson 0 ys yr w l) as [[people w2] l2] end.
  destruct A1 as (A1 & A2 & A3 & A4 & A5).
  match type of H with context[advance (real_env c) NextAccount 0 ?ys ?yr ?w ?l] => pose proof (advance_keeps c NextAccount ys 0 yr w l K A5 ltac:(discriminate)) as B1; destruct (advance (real_env c) NextAccount 0 ys yr w l) as [[accts w3] l3] end.
  destruct B1 as (B1 & B2 & B3 & B4 & B5). cbn in A1, A2, A3, A4.
  destruct (carryover_tax _ w3 _ adj) as [a2|]; [|discriminate]. cbn [bind] in H. injection H as <-. unfold fresh, withheld_of. cbn [f_world].
  rewrite B1, B2, B3, B4, A1, A2, A3, A4. cbn. split; [auto|]. split; [exact B5|reflexivity].
Qed.
(** Over any number of years: the cash left is the initial cash plus net income, less living expenses and
    savings, plus withdrawals and tax adjustments of all the years, plus the tax withheld booked by the
    withdrawal forecast over those years. *)
Theorem C85_horizon : forall c n s s', sound c -> keeps_paid c -> usable_env (real_env c) ->
  together s -> Datatypes.length (f_subs s) = 5%nat -> fresh (f_world s) -> paid_people (hh_people (f_world s)) ->
  run_years (real_env c) n s = Ok s' ->
  exists rows, Datatypes.length rows = n /\ explained c s rows s' /\
    total (f_avail s') == total (f_avail s) + Qsum (map r_net rows) - Qsum (map r_living rows) - Qsum (map r_saved rows)
      + Qsum (map r_withdrawn rows) + Qsum (map r_adj rows) + (withheld_of s' - withheld_of s).
Proof.
  intros c n. induction n as [|n IH]; intros s s' Sd K U T L F P H; cbn [run_years] in H.
  - injection H as <-. exists []. split; [reflexivity|]. split; [constructor|]. cbn [map Qsum]. lra.
  - destruct (call_subforecasts (real_env c) s) as [s1|] eqn:E1; [|discriminate]. cbn [bind] in H.
    destruct (HorizonModel.next_year (real_env c) s1) as [s2|] eqn:E2; [|discriminate]. cbn [bind] in H.
    destruct (C85_year c s s1 Sd L F P E1) as (living & p1 & p2 & held & h1 & h2 & Y1 & Y2 & Y3 & Ys & Y4 & Y5 & Y6).
    pose proof (call_together _ _ _ _ T E1) as T1.
    assert (L1 : Datatypes.length (f_subs s1) = 5%nat) by (pose proof E1 as Q; unfold call_subforecasts in Q; apply call_from_shape in Q; destruct Q as (_ & Q & _); now rewrite Q).
    assert (P1 : paid_people (hh_people (f_world s1))) by (rewrite Y5; exact P).
    destruct (fresh_next c s1 s2 K T1 L1 P1 E2) as (F2 & P2 & W2). destruct (next_year_shape _ _ _ _ T1 E2) as (_ & T2 & L2 & _).
    destruct (IH s2 s' Sd K U T2 ltac:(rewrite L2; exact L1) F2 P2 H) as (rows & R1 & R2 & R3).
    destruct (C67_year_start world (real_env c) s1 s2 U E2) as [C _]. unfold carried in C.
    destruct (tax_adjustment (c_wh c (hh_rest (f_world s1)) (hh_heap (f_world s1))) (c_owing c (hh_rest (f_world s1)) (hh_heap (f_world s1)) (hh_people (f_world s1))) (hh_people (f_world s1))) as [a|e] eqn:Ea.
    2:{ exfalso. unfold HorizonModel.next_year in E2. cbn [real_env e_adj] in E2. rewrite Ea in E2. discriminate. }
    cbn [real_env e_adj] in C. rewrite Ea in C. cbn [bind] in C.
    exists ({| r_net := Qsum (map p_gross (hh_people (f_world s))) - Qsum (map p_withheld (hh_people (f_world s))); r_living := living;
               r_saved := Qsum (map (fun al => Qsum (dvals (snd al))) p1); r_withdrawn := - Qsum (map (fun al => Qsum (dvals (snd al))) p2); r_adj := a |} :: rows).
    split; [cbn; now rewrite R1|]. split.
    + eapply (explained_cons c s s1 s2 s' rows _ h1 h2 p1 p2); cbn [r_net r_living r_saved r_withdrawn r_adj]; try reflexivity; assumption.
    + cbn [map Qsum r_net r_living r_saved r_withdrawn r_adj]. unfold withheld_of in *. rewrite Y4 in Y6. rewrite W2 in R3. lra.
Qed.
End Books.
Print Assumptions C85_year.
Print Assumptions C85_horizon.

(** ** A concrete household for all of the above *)
(** the rest of the world is one number here: what is drawn from account 2, which grows every year *)
Definition demo_cfg : HorizonModel.config Q := {|
  c_kinds := fun _ => None; c_default := [(0, 1)]; c_living := fun _ _ _ => Ok 60;
  c_save := fun _ h => Ok [(1%nat, [(1, Qsum (dvals (hget h 0)) - 10)])];
  c_withdraw := fun x _ => Ok [(2%nat, [(1 # 2, - qabs x)])];
  c_wh := fun _ _ _ => 0; c_owing := fun _ _ _ => Ok 25;
  c_refund := Some [(1 # 4, 1)]; c_pay := None; c_next := fun ev '(x, h, ps) => (match ev with NextAccount 1 _ => x + 1 | _ => x end, h, ps) |}.
Definition demo_world : HorizonModel.world Q := {| hh_rest := 5; hh_heap := [(0%nat, []); (1%nat, [(0, 500)]); (2%nat, [(0, 900)])]; hh_people := [ann; bob];
  hh_income := new_sub 2000; hh_living := new_sub 2000; hh_saving := new_sub 2000; hh_withdrawal := {| w_sub := new_sub 2000; w_withheld := 0 |} |}.
Definition demo_forecast : fstate (HorizonModel.world Q) := {| f_year := 2000; f_avail := []; f_world := demo_world; f_subs := [2000; 2000; 2000; 2000; 2000]%Z; f_people := [2000; 2000]%Z; f_accts := [2000; 2000]%Z; f_log := [] |}.
Lemma demo_usable : usable_env (real_env demo_cfg).
Proof. split; intros w tm E; cbn in E; [injection E as <-|discriminate]. split; [split; [reflexivity|exact I]|vm_compute; discriminate]. Qed.
Lemma demo_sound : sound demo_cfg.
Proof.
  split; [reflexivity|]. split; intros x h pl E; cbn [demo_cfg c_save c_withdraw] in E; injection E as <-.
  - split; [repeat constructor; intuition|cbn; intuition discriminate].
  - split; [|cbn; intuition discriminate]. intros al [<-|[]]. split; [discriminate|]. left. repeat constructor. cbn. destruct (qabs_case x) as [[? ?]|[? ?]]; lra.
Qed.
Example C85_sat : sound demo_cfg /\ keeps_paid demo_cfg /\ usable_env (real_env demo_cfg) /\ together demo_forecast /\ fresh demo_world /\ paid_people [ann; bob] /\
  exists s', run_years (real_env demo_cfg) 3 demo_forecast = Ok s' /\ total (f_avail s') == 22.
Proof.
  split; [exact demo_sound|]. split; [intros ev x h ps P; exact P|]. split; [exact demo_usable|]. split; [repeat split; repeat constructor|]. split; [repeat split|].
  split; [split; [discriminate|exact ab_proper]|].
  match goal with |- exists s', ?r = _ /\ _ => destruct r as [s'|] eqn:E; [|vm_compute in E; discriminate] end.
  exists s'. split; [reflexivity|]. vm_compute in E. injection E as <-. vm_compute. reflexivity.
Qed.
Example C67_sat : exists s s', call_subforecasts (real_env demo_cfg) demo_forecast = Ok s /\ HorizonModel.next_year (real_env demo_cfg) s = Ok s' /\
  e_adj (real_env demo_cfg) (f_world s) = Ok (Some 5) /\ total (f_avail s) == 15 /\ qval (f_avail s') 0 == 15 /\ qval (f_avail s') (1 # 4) == 5.
Proof.
  destruct (call_subforecasts (real_env demo_cfg) demo_forecast) as [s|] eqn:E; [|vm_compute in E; discriminate].
  destruct (HorizonModel.next_year (real_env demo_cfg) s) as [s'|] eqn:E2; [|vm_compute in E; injection E as <-; vm_compute in E2; discriminate].
  exists s, s'. split; [reflexivity|]. split; [exact E2|]. vm_compute in E. injection E as <-. vm_compute in E2. injection E2 as <-. repeat split; vm_compute; reflexivity.
Qed.
Example C68_sat : together demo_forecast /\ (f_year demo_forecast <= 2001)%Z /\ exists s', run_forecast (real_env demo_cfg) 2001 demo_forecast = Ok s' /\
  f_log s' = [Call 0 2000; Call 1 2000; Call 2 2000; Call 3 2000; Call 4 2000; NextSub 0 2000; NextSub 1 2000; NextSub 2 2000; NextSub 3 2000; NextSub 4 2000;
              NextPerson 0 2000; NextPerson 1 2000; NextAccount 0 2000; NextAccount 1 2000; Call 0 2001; Call 1 2001; Call 2 2001; Call 3 2001; Call 4 2001].
Proof.
  split; [repeat split; repeat constructor|]. split; [cbn; lia|].
  match goal with |- exists s', ?r = _ /\ _ => destruct r as [s'|] eqn:E; [|vm_compute in E; discriminate] end.
  exists s'. split; [reflexivity|]. vm_compute in E. injection E as <-. reflexivity.
Qed.

(** ** C83 *)
(** Cash carried over or refunded is saved but not reported: 200 carried over, net income 120, living
    expenses 60, everything saved -- 260 moved, 60 reported. *)
Definition save_all : heap -> res plan := fun h => Ok [(1%nat, [(1, Qsum (dvals (hget h 0)))])].
Theorem C83_reported_savings_refuted : exists h1 s1 h2 s2 h3 s3 pl,
  let start : heap := [(0%nat, [(0, 200)]); (1%nat, [])] in
  call demo_kinds [] (income_body [ann; bob] 0) start (new_sub 2000) 0 = Ok (h1, s1) /\
  call demo_kinds [] (living_body (Ok 60) [ann; bob] 0) h1 (new_sub 2000) 0 = Ok (h2, s2) /\
  call demo_kinds [] (saving_body save_all 0) h2 (new_sub 2000) 0 = Ok (h3, s3) /\
  save_all h2 = Ok pl /\ savings_total pl == 260 /\ htotal h3 1 == 260 /\
  reported_savings (net_income [ann; bob]) 60 == 60.
Proof.
  destruct (call demo_kinds [] (income_body [ann; bob] 0) [(0%nat, [(0, 200)]); (1%nat, [])] (new_sub 2000) 0) as [[h1 s1]|] eqn:E1; [|vm_compute in E1; discriminate].
  destruct (call demo_kinds [] (living_body (Ok 60) [ann; bob] 0) h1 (new_sub 2000) 0) as [[h2 s2]|] eqn:E2; [|vm_compute in E1; injection E1 as <- <-; vm_compute in E2; discriminate].
  destruct (call demo_kinds [] (saving_body save_all 0) h2 (new_sub 2000) 0) as [[h3 s3]|] eqn:E3; [|vm_compute in E1; injection E1 as <- <-; vm_compute in E2; injection E2 as <- <-; vm_compute in E3; discriminate].
  exists h1, s1, h2, s2, h3, s3. eexists. cbn zeta. split; [exact E1|]. split; [exact E2|]. split; [exact E3|]. split; [reflexivity|].
  vm_compute in E1. injection E1 as <- <-. vm_compute in E2. injection E2 as <- <-. vm_compute in E3. injection E3 as <- <-. repeat split; vm_compute; reflexivity.
Qed.
Print Assumptions C83_reported_savings_refuted.
(** What is reported: income left after living expenses, never negative. *)
Theorem C83_reported_savings_partial : forall income living, 
  (living <= income -> reported_savings income living == income - living) /\ (income <= living -> reported_savings income living == 0).
Proof. intros i l. unfold reported_savings. split; intros H; destruct (qmax_case (i - l) 0) as [[A B]|[A B]]; rewrite ?B; try lra; rewrite B in *; lra. Qed.
Print Assumptions C83_reported_savings_partial.

(** ** C84 *)
(** The forecast says the last retirement, the living-expenses strategy is told the first; they agree
    only if all retire in the same year. *)
Theorem C84_two_retirement_years_refuted : forall people ys, people <> [] -> map p_retire people = map Some ys ->
  exists first last, retirement_year people = Ok last /\ (forall strategy year, living_expenses strategy year people = strategy year people first) /\
    In first ys /\ In last ys /\ (forall y, In y ys -> (first <= y <= last)%Z).
Proof.
  intros people ys N M.
  assert (A : forall ps zs, map p_retire ps = map Some zs -> zs <> [] -> exists m,
     fold_right (fun p acc => match p_retire p, acc with Some y, Some m => Some (Z.max y m) | Some y, None => Some y | None, _ => acc end) None ps = Some m /\ In m zs /\ forall y, In y zs -> (y <= m)%Z).
  { induction ps as [|p ps IH]; intros zs E Nz; destruct zs as [|z zs]; try discriminate; [contradiction|]. injection E as E1 E2. cbn [fold_right]. rewrite E1.
    destruct zs as [|z2 zs].
    - destruct ps; [|discriminate]. cbn. exists z. repeat split; [now left|]. intros y [<-|[]]. lia.
    - destruct (IH (z2 :: zs) E2 ltac:(discriminate)) as (m & M1 & M2 & M3). rewrite M1. exists (Z.max z m). split; [reflexivity|]. split.
      + destruct (Z.max_spec z m) as [[_ ->]|[_ ->]]; [now right|now left].
      + intros y [<-|Hy]; [lia|]. specialize (M3 y Hy). lia. }
  assert (B : forall zs, zs <> [] -> exists m, zminl zs = Ok m /\ In m zs /\ forall y, In y zs -> (m <= y)%Z).
  { induction zs as [|z zs IH]; intros Nz; [contradiction|]. destruct zs as [|z2 zs].
    - exists z. repeat split; [now left|]. intros y [<-|[]]. lia.
    - destruct (IH ltac:(discriminate)) as (m & M1 & M2 & M3). cbn [zminl] in *. rewrite M1. cbn [bind]. exists (Z.min z m). split; [reflexivity|]. split.
      + destruct (Z.min_spec z m) as [[_ ->]|[_ ->]]; [now left|now right].
      + intros y [<-|Hy]; [lia|]. specialize (M3 y Hy). lia. }
  assert (Ny : ys <> []) by (destruct people, ys; try discriminate; contradiction).
  destruct (A people ys M Ny) as (last & A1 & A2 & A3). destruct (B ys Ny) as (first & B1 & B2 & B3). exists first, last.
  split; [unfold retirement_year; rewrite A1; reflexivity|]. split; [|split; [exact B2|split; [exact A2|]]; intros y Hy; specialize (A3 y Hy); specialize (B3 y Hy); lia].
  intros strategy year. unfold living_expenses.
  assert (F : fold_right (fun p r => let* l := r in match p_retire p with Some y => Ok (y :: l) | None => Err AttributeError end) (Ok []) people = Ok ys).
  { clear -M. revert ys M. induction people as [|p ps IH]; intros ys M; destruct ys as [|y ys]; try discriminate; [reflexivity|]. injection M as M1 M2. cbn [fold_right]. rewrite (IH ys M2). cbn [bind]. now rewrite M1. }
  rewrite F. cbn [bind]. rewrite B1. reflexivity.
Qed.
Print Assumptions C84_two_retirement_years_refuted.
Example C84_sat : map p_retire [ann; bob] = map Some [2040; 2045]%Z /\ retirement_year [ann; bob] = Ok 2045%Z /\
  living_expenses (fun _ _ y => Ok (inject_Z y)) 2000 [ann; bob] = Ok 2040.
Proof. repeat split; vm_compute; reflexivity. Qed.
(** with one retirement date for all, they agree *)
Theorem C84_same_date_partial : forall people y, people <> [] -> (forall p, In p people -> p_retire p = Some y) ->
  retirement_year people = Ok y /\ forall strategy year, living_expenses strategy year people = strategy year people y.
Proof.
  intros people y N H. destruct (C84_two_retirement_years_refuted people (map (fun _ => y) people) N) as (f & l & A & B & F & L & _).
  - rewrite map_map. apply map_ext_in. exact H.
  - apply in_map_iff in F. destruct F as (_ & <- & _). apply in_map_iff in L. destruct L as (_ & <- & _). split; assumption.
Qed.
Print Assumptions C84_same_date_partial.
