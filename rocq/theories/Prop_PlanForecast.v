(** C123: a forecast that uses the shipped strategies keeps its books and never saves or withdraws too much. *)
From Verif Require Import Base BaseFacts RBase TxStratModel TxGraphModel DebtPayModel SubModel ForecastsModel HorizonModel PlanForecastModel.
From Verif Require Import TxFlowShape TxFlowNode TxFlowLead Prop_TxGraph Prop_TxNode Prop_NodeLimit Prop_TxStrat Prop_TxLead Prop_SubForecast Prop_Forecasts Prop_Horizon Prop_NetWorth.
From Coq Require Import Reals Qreals Lia Lqa.
Local Open Scope Q_scope.

(** ** Specification *)
(** what is assumed about a strategy's accounts: asked for at most [q], their methods return transactions of
    that sign, adding up to at most [q], for at least one date; networkx returns a feasible flow; Python
    iterates over a set's elements; `available` (object 0) is not one of the accounts *)
Definition planner_ok {X} (p : planner X) : Prop :=
  hash_ok (pl_strat p) /\ ~ In 0%nat (pl_accounts p) /\
  forall x h, world_ok (pl_env p x h) /\
    (forall k, inflows_ok (pl_env p x h) k) /\ (forall k, outflows_ok (pl_env p x h) k) /\
    (forall k a q t, p_tx (pl_env p x h) k a q = Ok t -> t <> []).
(** [moved] of a plan goes with [cash], in the same direction, and is no more than it; cash within one unit
    of precision stays where it is *)
Definition moderate (prec cash moved : Q) : Prop :=
  (0 <= cash -> 0 <= moved <= cash) /\ (cash <= 0 -> cash <= moved <= 0) /\ (- prec <= cash <= prec -> moved == 0).

(** The year from [s] to [s'].  With the cash left after income and living expenses, the saving plan moves no
    more than there is, in one direction; the withdrawal plan moves no more than is then left, in one
    direction; and what the strategies leave lies between that cash and nothing: they never turn a surplus
    into a shortfall or the reverse.  (The cash at the end of the year also includes what the withdrawal
    forecast books for tax withheld.) *)
Definition within_means {X} (c : config X) (save draw : planner X) (s s' : fstate (world X)) : Prop :=
  exists living saving_plan withdrawal_plan h1 h2,
    let x := hh_rest (f_world s) in
    let cash := total (f_avail s) + (Qsum (map p_gross (hh_people (f_world s))) - Qsum (map p_withheld (hh_people (f_world s)))) - living in
    let saved := savings_total saving_plan in
    let contributed := savings_total withdrawal_plan in
    c_living c x (hh_people (f_world s)) (s_year (hh_living (f_world s))) = Ok living /\
    plan_for save x h1 = Ok saving_plan /\ plan_for draw x h2 = Ok withdrawal_plan /\
    htotal h1 0 == cash /\ htotal h2 0 == cash - saved /\
    moderate (p_prec (pl_env save x h1)) cash saved /\ moderate (p_prec (pl_env draw x h2)) (cash - saved) contributed /\
    total (f_avail s') == cash - saved - contributed + (withheld_of s' - withheld_of s) /\
    (0 <= cash -> 0 <= cash - saved - contributed <= cash) /\ (cash <= 0 -> cash <= cash - saved - contributed <= 0).

(** ** The plans of a strategy *)
Lemma nset_keys {V} (d : dict nat V) k v a : In a (dkeys (dset Nat.eqb d k v)) <-> a = k \/ In a (dkeys d).
Proof.
  unfold dkeys. induction d as [|[b x] d IH]; cbn; [intuition|]. destruct (Nat.eqb_spec k b) as [->|Nb]; cbn; [intuition|]. rewrite IH. intuition.
Qed.
Lemma nset_nodup {V} (d : dict nat V) k v : NoDup (dkeys d) -> NoDup (dkeys (dset Nat.eqb d k v)).
Proof.
  unfold dkeys. induction d as [|[b x] d IH]; cbn; intros N; [repeat constructor; intros []|]. inversion N as [|? ? N1 N2]; subst.
  destruct (Nat.eqb_spec k b) as [->|Nb]; cbn; [exact N|]. constructor; [|now apply IH]. intros H. apply (nset_keys d k v b) in H. destruct H as [->|H]; [congruence|now apply N1].
Qed.
Lemma combine_keys : forall mn mx a, In a (dkeys (combine_tx mx mn)) <-> In a (dkeys mx) \/ In a (dkeys mn).
Proof.
  unfold combine_tx. induction mn as [|[b t] mn IH]; intros mx a; cbn [fold_left fst snd]; [unfold dkeys at 3; cbn; tauto|].
  rewrite IH. unfold dkeys at 4. cbn [map fst]. fold (dkeys mn). destruct (dget Nat.eqb mx b); rewrite nset_keys; cbn; intuition.
Qed.
Lemma combine_nodup : forall mn mx, NoDup (dkeys mx) -> NoDup (dkeys (combine_tx mx mn)).
Proof.
  unfold combine_tx. induction mn as [|[b t] mn IH]; intros mx N; cbn [fold_left fst snd]; [exact N|]. apply IH. destruct (dget Nat.eqb mx b); now apply nset_nodup.
Qed.
Lemma add_tx_nonempty : forall e d, d <> [] -> add_tx d e <> [].
Proof.
  unfold add_tx. induction e as [|[k v] e IH]; intros d N; cbn [fold_left fst snd]; [exact N|]. apply IH. destruct d as [|[j w] d]; [contradiction|].
  destruct (dget Qeq_bool ((j, w) :: d) k); cbn [dset]; destruct (Qeq_bool k j); discriminate.
Qed.
Lemma combine_nonempty : forall mn mx, (forall a t, In (a, t) mn -> t <> []) -> (forall a t, In (a, t) mx -> t <> []) -> forall a t, In (a, t) (combine_tx mx mn) -> t <> [].
Proof.
  unfold combine_tx. induction mn as [|[b u] mn IH]; intros mx Hn Hx; cbn [fold_left fst snd]; [exact Hx|].
  apply IH; [intros a t Ha; apply (Hn a t); now right|]. intros a t Ha. assert (Nu : u <> []) by (apply (Hn b u); now left).
  revert Ha. destruct (@dget nat (dict Q Q) Nat.eqb mx b) as [y|] eqn:G; intros Ha; apply nset_in in Ha; destruct Ha as [->|Ha]; eauto.
  apply add_tx_nonempty. apply (Hx b y). clear -G. induction mx as [|[c z] mx IHx]; cbn in *; [discriminate|]. destruct (Nat.eqb_spec b c) as [->|_]; [left; congruence|right; auto].
Qed.
(** the accounts of a tree are its leaves *)
Lemma tree_accounts : forall t, src_accounts (tree_src t) = leaves t.
Proof.
  fix IH 1. intros [a|l|l]; cbn [tree_src src_accounts leaves]; [reflexivity| |]; rewrite ?map_map; induction l as [|c l IHl]; cbn; [reflexivity| |reflexivity|]; try rewrite IH; try now rewrite IHl.
Qed.
Lemma pass_shape : forall P fuel t memo total limit tx memo', world_ok P -> (forall k a q l, p_tx P k a q = Ok l -> l <> []) ->
  traverse P fuel (fst (mk_node (tree_src t) no_limits 0)) memo total limit = Ok (tx, memo') ->
  NoDup (dkeys tx) /\ incl (dkeys tx) (leaves t) /\ forall a l, In (a, l) tx -> l <> [].
Proof.
  intros P fuel t memo total limit tx memo' W Ne H. destruct (traverse_inv _ _ _ _ _ _ _ _ W H) as (g & f & _ & _ & _ & _ & N & K & _ & acs & A & _ & I).
  split; [exact N|]. split; [|intros a l Ha; apply (Ne _ _ _ _ (K a l Ha))].
  intros a Ha. apply I in Ha. apply (accounts_below _ _ _ a A) in Ha. apply below_src in Ha; [|apply tree_plain]. now rewrite tree_accounts in Ha.
Qed.
Lemma moderate_in prec cash m : 0 < prec -> prec < cash -> 0 <= m <= cash -> moderate prec cash m.
Proof. intros A B C. split; [auto|]. split; intros; lra. Qed.
Lemma moderate_out prec cash m : 0 < prec -> cash < - prec -> cash <= m <= 0 -> moderate prec cash m.
Proof. intros A B C. split; [intros; lra|]. split; [auto|intros; lra]. Qed.
Lemma moderate_none prec cash : moderate prec cash 0.
Proof. split; [intros; lra|]. split; intros; lra. Qed.
Lemma moderate_eq prec a b m : a == b -> moderate prec a m -> moderate prec b m.
Proof. intros E (A & B & C). split; [intros Q; assert (0 <= a) by lra; specialize (A H); lra|]. split; intros Q; [assert (a <= 0) by lra; specialize (B H); lra|]. apply C. lra. Qed.
Lemma plan_shape : forall X (p : planner X) x h pl, planner_ok p -> plan_for p x h = Ok pl ->
  NoDup (map fst pl) /\ (forall a, In a (map fst pl) -> In a (pl_accounts p)) /\ (forall al, In al pl -> one_way (snd al)) /\
  moderate (p_prec (pl_env p x h)) (htotal h 0) (savings_total pl).
Proof.
  intros X p x h pl (Hs & N0 & W) H. destruct (W x h) as (Wo & In_ & Out & Ne). unfold plan_for in H.
  destruct (priority_tree (pl_strat p) (pl_view p x h) (pl_accounts p)) as [t|] eqn:T; [|discriminate]. cbn [bind] in H. unfold traversal_call in H. cbn [bind] in H.
  destruct (divide_debts (pl_strat p) (pl_view p x h) (pl_accounts p)) as [low high] eqn:D.
  destruct (C79_tree_accounts _ _ _ _ _ _ Hs D T) as [_ Lv].
  set (P := pl_env p x h) in *. set (root := fst (mk_node (tree_src t) no_limits 0)) in *. fold (htotal h 0) in H. set (cash := htotal h 0) in *.
  assert (Hp : 0 < p_prec P) by apply Wo.
  assert (PT : proper_tree root) by (apply distinct_proper, C95_plain_trees_distinct, tree_plain).
  assert (RL : t_lims root MinOut = None) by (unfold root; destruct t; reflexivity).
  assert (Comb : forall mn mx, NoDup (dkeys mx) -> incl (dkeys mn) (leaves t) -> incl (dkeys mx) (leaves t) -> (forall a l, In (a, l) mn -> l <> []) -> (forall a l, In (a, l) mx -> l <> []) ->
     NoDup (map fst (combine_tx mx mn)) /\ (forall a, In a (map fst (combine_tx mx mn)) -> In a (pl_accounts p)) /\ forall a l, In (a, l) (combine_tx mx mn) -> l <> []).
  { intros mn mx N1 I1 I2 E1 E2. split; [now apply combine_nodup|]. split; [|now apply combine_nonempty].
    intros a Ha. apply combine_keys in Ha. assert (La : In a (leaves t)) by (destruct Ha; auto). now apply Lv in La. }
  destruct (Qlt_bool (p_prec P) cash) eqn:E1.
  - pose proof E1 as L1. apply Qlt_bool_t in L1. pose proof (C55_inflows_within_available P _ root cash pl Wo (In_ MinIn) (In_ MaxIn) L1 H) as [S1 S2].
    unfold TxGraphModel.call in H. rewrite E1 in H.
    destruct (traverse P _ root [] (Fin cash) MinIn) as [[mn memo]|] eqn:T1; [|discriminate]. cbn [bind] in H.
    destruct (traverse P _ root memo (Fin cash) MaxIn) as [[mx memo2]|] eqn:T2; [|discriminate]. cbn [bind] in H. injection H as <-.
    destruct (pass_shape _ _ _ _ _ _ _ _ Wo Ne T1) as (A1 & A2 & A3). destruct (pass_shape _ _ _ _ _ _ _ _ Wo Ne T2) as (B1 & B2 & B3).
    destruct (Comb mn mx B1 A2 B2 A3 B3) as (C1 & C2 & C3). split; [exact C1|]. split; [exact C2|]. split.
    + intros [a l] Ha. split; [now apply (C3 a)|]. right. apply Forall_forall. intros v Hv. exact (S1 a l v Ha Hv).
    + apply moderate_in; [exact Hp|exact L1|]. split; [|exact S2]. unfold savings_total. apply Qsum_nonneg. intros q Hq. apply in_map_iff in Hq. destruct Hq as ([a l] & <- & Ha). cbn [snd].
      apply Qsum_nonneg. intros v Hv. exact (S1 a l v Ha Hv).
  - pose proof E1 as L1. apply Qlt_bool_f in L1. destruct (Qlt_bool cash (- p_prec P)) eqn:E2.
    + pose proof E2 as L2. apply Qlt_bool_t in L2. pose proof (C55_outflows_within_available P _ root cash pl Wo (Out MinOut) (Out MaxOut) PT RL L2 H) as [S1 S2].
      unfold TxGraphModel.call in H. rewrite E1, E2 in H.
      destruct (traverse P _ root [] (Inf false) MinOut) as [[mn memo]|] eqn:T1; [|discriminate]. cbn [bind] in H.
      destruct (traverse P _ root memo (Fin cash) MaxOut) as [[mx memo2]|] eqn:T2; [|discriminate]. cbn [bind] in H. injection H as <-.
      destruct (pass_shape _ _ _ _ _ _ _ _ Wo Ne T1) as (A1 & A2 & A3). destruct (pass_shape _ _ _ _ _ _ _ _ Wo Ne T2) as (B1 & B2 & B3).
      destruct (Comb mn mx B1 A2 B2 A3 B3) as (C1 & C2 & C3). split; [exact C1|]. split; [exact C2|]. split.
      * intros [a l] Ha. split; [now apply (C3 a)|]. left. apply Forall_forall. intros v Hv. exact (S1 a l v Ha Hv).
      * apply moderate_out; [exact Hp|exact L2|]. split; [exact S2|]. unfold savings_total.
        assert (Neg : forall l, (forall q, In q l -> q <= 0) -> Qsum l <= 0) by (induction l as [|q l IH]; intros Q; cbn [Qsum]; [lra|]; pose proof (Q q (or_introl eq_refl)); specialize (IH (fun z Hz => Q z (or_intror Hz))); lra).
        apply Neg. intros q Hq. apply in_map_iff in Hq. destruct Hq as ([a l] & <- & Ha). cbn [snd]. apply Neg. intros v Hv. exact (S1 a l v Ha Hv).
    + unfold TxGraphModel.call in H. rewrite E1, E2 in H. injection H as <-. split; [constructor|]. split; [intros a []|]. split; [intros al []|]. apply moderate_none.
Qed.

(** ** Theorems *)
Section Shipped.
Context {St : Type}.
Variables (c0 : config St) (save draw : planner St).
Hypotheses (Hs : planner_ok save) (Hd : planner_ok draw).
Let c := with_strategies c0 save draw.
Lemma shipped_sound : c_kinds c0 0%nat = None -> sound c.
Proof.
  intros K. split; [exact K|]. split; intros x h pl H.
  - destruct (plan_shape _ save x h pl Hs H) as (A & B & _). split; [exact A|]. intros Q. apply B in Q. destruct Hs as (_ & N & _). contradiction.
  - destruct (plan_shape _ draw x h pl Hd H) as (_ & B & C & _). split; [exact C|]. intros Q. apply B in Q. destruct Hd as (_ & N & _). contradiction.
Qed.
Lemma shipped_own : forall accts, NoDup accts -> ~ In 0%nat accts -> incl (pl_accounts save) accts -> incl (pl_accounts draw) accts -> own_accounts c accts.
Proof.
  intros accts N Z I1 I2. split; [exact N|]. split; [exact Z|]. split; intros x h pl H.
  - intros a Ha. apply I1. now apply (plan_shape _ save x h pl Hs H).
  - destruct (plan_shape _ draw x h pl Hd H) as (A & B & _). split; [exact A|]. intros a Ha. now apply I2, B.
Qed.
(** the year from [s] to [s']: *)
Lemma shipped_year : forall s s', c_kinds c0 0%nat = None -> Datatypes.length (f_subs s) = 5%nat -> fresh (f_world s) -> paid_people (hh_people (f_world s)) ->
  call_subforecasts (real_env c) s = Ok s' -> within_means c0 save draw s s'.
Proof.
  intros s s' K L F P H. destruct (C85_year c s s' (shipped_sound K) L F P H) as (living & p1 & p2 & held & h1 & h2 & Y1 & Y2 & Y3 & (S1 & _ & S3 & _) & Y4 & _ & Y6).
  exists living, p1, p2, h1, h2. cbn zeta. fold (savings_total p1) in Y6. fold (savings_total p2) in Y6.
  destruct (plan_shape _ save _ h1 p1 Hs Y2) as (_ & _ & _ & M1). destruct (plan_shape _ draw _ h2 p2 Hd Y3) as (_ & _ & _ & M2).
  assert (W1 : 0 < p_prec (pl_env save (hh_rest (f_world s)) h1)) by (destruct Hs as (_ & _ & W); apply W).
  assert (W2 : 0 < p_prec (pl_env draw (hh_rest (f_world s)) h2)) by (destruct Hd as (_ & _ & W); apply W).
  split; [exact Y1|]. split; [exact Y2|]. split; [exact Y3|]. unfold withheld_of. rewrite <- Y4.
  set (cash := total (f_avail s) + _ - living) in *. assert (E1 : htotal h1 0 == cash) by lra. assert (E2 : htotal h2 0 == cash - savings_total p1) by (unfold savings_total; lra).
  pose proof (moderate_eq _ _ _ _ E1 M1) as N1. pose proof (moderate_eq _ _ _ _ E2 M2) as N2.
  split; [exact E1|]. split; [exact E2|]. split; [exact N1|]. split; [exact N2|]. split; [lra|].
  destruct N1 as (N1 & N1' & _). destruct N2 as (N2 & N2' & _). split; intros C.
  - specialize (N1 C). assert (Q : 0 <= cash - savings_total p1) by lra. specialize (N2 Q). lra.
  - specialize (N1' C). assert (Q : cash - savings_total p1 <= 0) by lra. specialize (N2' Q). lra.
Qed.
(** In every year of any run. *)
Theorem C123_every_year : forall n s sn s', c_kinds c0 0%nat = None -> keeps_paid c0 ->
  together s -> Datatypes.length (f_subs s) = 5%nat -> fresh (f_world s) -> paid_people (hh_people (f_world s)) ->
  run_years (real_env c) n s = Ok sn -> call_subforecasts (real_env c) sn = Ok s' ->
  within_means c0 save draw sn s'.
Proof.
  intros n s sn s' K Kp. revert s. induction n as [|n IH]; intros s T L F P R H; cbn [run_years] in R.
  - injection R as <-. now apply shipped_year.
  - destruct (call_subforecasts (real_env c) s) as [s1|] eqn:E1; [|discriminate]. cbn [bind] in R.
    destruct (HorizonModel.next_year (real_env c) s1) as [s2|] eqn:E2; [|discriminate]. cbn [bind] in R.
    pose proof (call_together _ _ _ _ T E1) as T1.
    destruct (call_from_shape _ _ _ _ _ _ (E1 : call_from _ _ _ _ = Ok s1)) as (_ & Sh2 & _).
    assert (L1 : Datatypes.length (f_subs s1) = 5%nat) by (now rewrite Sh2).
    assert (P1 : paid_people (hh_people (f_world s1))). { destruct (year_full c s s1 (shipped_sound K) L F P E1) as (? & ? & ? & ? & ? & ? & _ & _ & _ & _ & _ & -> & _). exact P. }
    destruct (fresh_next c s1 s2 Kp T1 L1 P1 E2) as (F2 & P2 & _). destruct (next_year_shape _ _ _ _ T1 E2) as (_ & T2 & L2 & _).
    apply (IH s2 T2 ltac:(rewrite L2; exact L1) F2 P2 R H).
Qed.
(** The books of such a forecast: where no account withholds tax, over any number of years net worth changes
    by gross income, living expenses, tax and the accounts' returns only. *)
Theorem C123_net_worth : forall rate nper accts, (forall x h a, c_wh c0 x h a == 0)%Q -> c_kinds c0 0%nat = None -> keeps_paid c0 -> usable_env (real_env c) ->
  NoDup accts -> ~ In 0%nat accts -> incl (pl_accounts save) accts -> incl (pl_accounts draw) accts -> renews c accts ->
  forall n s bal s', together s -> Datatypes.length (f_subs s) = 5%nat -> fresh (f_world s) -> paid_people (hh_people (f_world s)) -> opening accts s ->
  run_years (real_env c) n s = Ok s' ->
  exists bal' rows, live c rate nper n s bal = Ok (s', bal') /\ Datatypes.length rows = n /\ figures c rate nper accts rows s bal /\
    net_worth accts s' bal' = (net_worth accts s bal + Q2R (Qsum (map y_gross rows) - Qsum (map y_living rows) - Qsum (map y_tax rows)) + Rsum (map y_returns rows))%R.
Proof.
  intros rate nper accts Z K Kp U N N0 I1 I2 Rn n s bal s' T L F P Op R.
  exact (C109_no_withholding_partial St c rate nper accts Z (shipped_sound K) Kp U (shipped_own accts N N0 I1 I2) Rn n s bal s' T L F P Op R).
Qed.
End Shipped.
Print Assumptions C123_every_year.
Print Assumptions C123_net_worth.

(** ** A household with two accounts *)
(** account 1 (a TFSA) and account 2 (an RRSP).  The rest of the household is the accounts' balances at the
    start of the year; each account takes up to 100 a year and yields up to what it holds. *)
Definition holds (x : Q * Q) (h : heap) (a : nat) : Q := (match a with 1%nat => fst x | _ => snd x end) + htotal h a.
Definition house_view (x : Q * Q) (h : heap) : aview := {|
  v_mro := fun a => match a with 1%nat => ["TFSA"; "Account"]%string | _ => ["RRSP"; "Account"]%string end;
  v_debt := fun _ => false; v_balance := holds x h; v_rate := fun _ => 0 |}.
(** networkx on this household's graphs: as much as possible through the node made first (the first in the
    order of priority: [first]), then as much as possible through the other *)
Definition house_lane (i : nat) (a : nat) : list gnode := [Src; TN 0; TLim 0; TN i; TLim i; Acc a; Snk].
Definition house_flow (first second : nat) (g : graph) : gnode -> gnode -> Z :=
  let s := cap_or g Src (TN 0) 0 in
  let f1 := Z.min s (cap_or g (Acc first) Snk 0) in
  Prop_TxOrder.path_flow [(house_lane 1 first, f1); (house_lane 2 second, Z.min (s - f1) (cap_or g (Acc second) Snk 0))].
Definition house_env (first second : nat) (x : Q * Q) (h : heap) : TxGraphModel.env := {|
  p_limit := fun k a => Ok (Fin (match k with MaxIn => 100 | MaxOut => - qmax 0 (holds x h a) | _ => 0 end));
  p_tx := fun _ _ q => Ok [(1 # 2, q)]; p_grp := fun _ _ => None; p_prec := 1 # 100; p_flow := solver (house_flow first second); p_hash := fun l => l |}.
Definition house_strat (tfsa rrsp : Q) : tstrat := {|
  ts_ordered := true; ts_weights := [("TFSA", tfsa); ("RRSP", rrsp)]%string; ts_debt := "Avalanche"; ts_threshold := None; ts_hash := fun l => l |}.
(** save in the TFSA first; withdraw from the RRSP first *)
Definition house_save : planner (Q * Q) := {| pl_strat := house_strat 1 2; pl_accounts := [1; 2]%nat; pl_fuel := 20; pl_view := house_view; pl_env := house_env 1 2 |}.
Definition house_draw : planner (Q * Q) := {| pl_strat := house_strat 2 1; pl_accounts := [1; 2]%nat; pl_fuel := 20; pl_view := house_view; pl_env := house_env 2 1 |}.
Lemma house_ok : planner_ok house_save /\ planner_ok house_draw.
Proof.
  assert (E : forall i j x h, let P := house_env i j x h in world_ok P /\ (forall k, inflows_ok P k) /\ (forall k, outflows_ok P k) /\ (forall k a q t, p_tx P k a q = Ok t -> t <> [])).
  { intros i j x h. cbv zeta. split; [split; [reflexivity|]; split; [apply solver_ok|auto]|]. split; [|split].
    - intros k b q t Hq H. cbn in H. injection H as <-. unfold tx_of. cbn. split; [intros v [<-|[]]; exact Hq|lra].
    - intros k b q t Hq H. cbn in H. injection H as <-. unfold tx_of. cbn. split; [intros v [<-|[]]; exact Hq|lra].
    - intros k a q t H. cbn in H. injection H as <-. discriminate. }
  split; (split; [intros l; apply Permutation.Permutation_refl|]; split; [cbn; intuition discriminate|]; intros x h; apply E).
Qed.
(** earns 100 a year; spends 60 in 2000, 130 in 2001 and 350 from then on *)
Definition house_living (y : Z) : Q := if (y =? 2000)%Z then 60 else if (y =? 2001)%Z then 130 else 350.
Definition house_next (ev : event) (w : (Q * Q) * heap * list person) : (Q * Q) * heap * list person :=
  let '(x, h, ps) := w in
  match ev with
  | NextAccount 0 _ => ((holds x h 1, snd x), hset h 1 [], ps)
  | NextAccount 1 _ => ((fst x, holds x h 2), hset h 2 [], ps)
  | _ => w
  end.
Definition house_base : config (Q * Q) := {|
  c_kinds := fun _ => None; c_default := [(0, 1)]; c_living := fun _ _ y => Ok (house_living y); c_save := fun _ _ => Ok []; c_withdraw := fun _ _ => Ok [];
  c_wh := fun _ _ _ => 0; c_owing := fun _ _ _ => Ok 0; c_refund := None; c_pay := None; c_next := house_next |}.
Definition house : config (Q * Q) := with_strategies house_base house_save house_draw.
Definition house_world : world (Q * Q) := {| hh_rest := (0, 200); hh_heap := [(0%nat, []); (1%nat, []); (2%nat, [])]; hh_people := [dora];
  hh_income := new_sub 2000; hh_living := new_sub 2000; hh_saving := new_sub 2000; hh_withdrawal := {| w_sub := new_sub 2000; w_withheld := 0 |} |}.
Definition house_forecast : fstate (world (Q * Q)) := {| f_year := 2000; f_avail := []; f_world := house_world; f_subs := [2000; 2000; 2000; 2000; 2000]%Z; f_people := [2000]%Z; f_accts := [2000; 2000]%Z; f_log := [] |}.
Lemma house_hyps : c_kinds house_base 0%nat = None /\ keeps_paid house_base /\ (forall x h a, c_wh house_base x h a == 0) /\ usable_env (real_env house) /\ renews house [1; 2]%nat /\
  together house_forecast /\ Datatypes.length (f_subs house_forecast) = 5%nat /\ fresh (f_world house_forecast) /\ paid_people (hh_people (f_world house_forecast)) /\ opening [1; 2]%nat house_forecast.
Proof.
  split; [reflexivity|]. split.
  { intros ev x h ps P. destruct ev as [| |i y|i y]; try exact P; cbn [house_base c_next house_next]; destruct i as [|[|i]]; exact P. }
  split; [reflexivity|]. split; [split; intros w tm E; discriminate E|]. split.
  { split; [|intros i y x h ps; reflexivity]. intros i y x h ps a H. destruct i as [|[|i]]; cbn in H; [injection H as <-; eexists; reflexivity|injection H as <-; eexists; reflexivity|destruct i; discriminate]. }
  split; [repeat split; repeat constructor|]. split; [reflexivity|]. split; [repeat split|].
  split; [exact (proj1 (proj2 (proj2 (proj2 (proj2 (proj2 (proj2 (proj2 wh_ok))))))))|]. split; [reflexivity|]. intros a [<-|[<-|[]]]; reflexivity.
Qed.
(** The second year's shortfall of 30: the withdrawal strategy would draw it from the RRSP, which holds 200;
    the saving forecast, called first, draws it from the TFSA by the saving strategy's priorities, the
    withdrawal strategy finds nothing left to do and no withdrawals are reported. *)
Theorem C123_saving_strategy_withdraws_refuted : exists sn s' wanted,
  planner_ok house_save /\ planner_ok house_draw /\ run_years (real_env house) 1 house_forecast = Ok sn /\ call_subforecasts (real_env house) sn = Ok s' /\
  let x := hh_rest (f_world sn) in
  holds x (hh_heap (f_world sn)) 1 == 40 /\ holds x (hh_heap (f_world sn)) 2 == 200 /\
  total (f_avail sn) + 100 - house_living (f_year sn) == - (30) /\
  plan_for house_draw x (hset (hh_heap (f_world sn)) 0 [(1, - (30))]) = Ok wanted /\ acct_tx wanted 1 == 0 /\ acct_tx wanted 2 == - (30) /\
  htotal (hh_heap (f_world s')) 1 == - (30) /\ htotal (hh_heap (f_world s')) 2 == 0 /\ gross_withdrawals (hh_withdrawal (f_world s')) == 0.
Proof.
  destruct (run_years (real_env house) 1 house_forecast) as [sn|] eqn:E1; [|vm_compute in E1; discriminate].
  destruct (call_subforecasts (real_env house) sn) as [s'|] eqn:E2; [|vm_compute in E1; injection E1 as <-; vm_compute in E2; discriminate].
  exists sn, s'. vm_compute in E1. injection E1 as <-. vm_compute in E2. injection E2 as <-. eexists.
  split; [apply house_ok|]. split; [apply house_ok|]. split; [reflexivity|]. split; [reflexivity|]. cbv zeta. do 3 (split; [vm_compute; reflexivity|]).
  split; [vm_compute; reflexivity|]. repeat split; vm_compute; reflexivity.
Qed.
Print Assumptions C123_saving_strategy_withdraws_refuted.
(** three years: 40 saved, 30 drawn, then 250 missing of which 210 are found *)
Example C123_sat : planner_ok house_save /\ planner_ok house_draw /\ c_kinds house_base 0%nat = None /\ keeps_paid house_base /\ (forall x h a, c_wh house_base x h a == 0) /\
  usable_env (real_env house) /\ renews house [1; 2]%nat /\ together house_forecast /\ Datatypes.length (f_subs house_forecast) = 5%nat /\ fresh (f_world house_forecast) /\
  paid_people (hh_people (f_world house_forecast)) /\ opening [1; 2]%nat house_forecast /\ incl (pl_accounts house_save) [1; 2]%nat /\ incl (pl_accounts house_draw) [1; 2]%nat /\
  exists s2 s3, run_years (real_env house) 2 house_forecast = Ok s2 /\ run_years (real_env house) 3 house_forecast = Ok s3 /\
    total (f_avail s2) == 0 /\ fst (hh_rest (f_world s2)) == 10 /\ snd (hh_rest (f_world s2)) == 200 /\
    total (f_avail s3) == - (40) /\ fst (hh_rest (f_world s3)) == 0 /\ snd (hh_rest (f_world s3)) == 0.
Proof.
  destruct house_hyps as (A1 & A2 & A3 & A4 & A5 & A6 & A7 & A8 & A9 & A10).
  split; [apply house_ok|]. split; [apply house_ok|]. do 10 (split; [assumption|]). split; [intros a; exact (fun H => H)|]. split; [intros a; exact (fun H => H)|].
  destruct (run_years (real_env house) 2 house_forecast) as [s2|] eqn:E1; [|vm_compute in E1; discriminate].
  destruct (run_years (real_env house) 3 house_forecast) as [s3|] eqn:E2; [|vm_compute in E2; discriminate].
  exists s2, s3. split; [reflexivity|]. split; [reflexivity|]. vm_compute in E1. injection E1 as <-. vm_compute in E2. injection E2 as <-. repeat split; vm_compute; reflexivity.
Qed.
