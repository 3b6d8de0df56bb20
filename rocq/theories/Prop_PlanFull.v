(** C124: a forecast with the shipped strategies runs short only when its accounts are empty, and keeps
    money only when they are full. *)
From Verif Require Import Base BaseFacts RBase TxStratModel TxGraphModel DebtPayModel SubModel ForecastsModel HorizonModel PlanForecastModel.
From Verif Require Import TxFlowShape TxFlowNode TxFlowLead TxSolver Prop_TxGraph Prop_TxOrder Prop_TxNode Prop_NodeLimit Prop_TxStrat Prop_TxLead Prop_SubForecast Prop_Forecasts Prop_Horizon Prop_NetWorth Prop_PlanForecast.
From Coq Require Import Permutation Lia Lqa.
Local Open Scope Q_scope.

(** ** Specification *)
(** the account is a debt owing whose rate reaches the strategy's threshold *)
Definition high_interest (s : tstrat) (w : aview) (a : nat) : Prop :=
  owing w a /\ exists t, ts_threshold s = Some t /\ t <= v_rate w a.
(** the account does not share its place in the strategy's order of priorities with another account (share
    equally, that is): it is a high-interest debt; or the strategy is 'Ordered', it has a weight and no
    other account has its weight from the same class, or exactly the low-interest debts have *)
Definition own_place (s : tstrat) (w : aview) (accounts : list nat) (a : nat) : Prop :=
  In a accounts /\
  (high_interest s w a \/
   (~ high_interest s w a /\ ts_ordered s = true /\ exists k, weight_key s w a = Some k /\
      let mates b := In b accounts /\ ~ high_interest s w b /\ weight_key s w b = Some k in
      ((forall b, mates b -> b = a) \/ forall b, mates b <-> In b accounts /\ owing w b /\ ~ high_interest s w b))).
(** the account has given (taken) all it can but for less than one unit of precision *)
Definition given_all (P : TxGraphModel.env) (pl : plan) (a : nat) : Prop :=
  exists most, p_limit P MaxOut a = Ok (Fin most) /\ acct_tx pl a < most + p_prec P.
Definition taken_all (P : TxGraphModel.env) (pl : plan) (a : nat) : Prop :=
  exists most, p_limit P MaxIn a = Ok most /\ full P (acct_tx pl a) most.
(** what is assumed about the accounts: no limits are shared, an account takes (gives) exactly what it is
    asked to take (give) within its limits; about networkx: the flow is a minimum-cost maximum flow *)
Definition planner_exact {X} (p : planner X) : Prop := forall x h, let P := pl_env p x h in
  solver_ok_opt P /\ deposits_exact P MinIn /\ deposits_exact P MaxIn /\ withdrawals_exact P MinOut /\ withdrawals_exact P MaxOut /\
  forall a, In a (pl_accounts p) -> (forall k, p_grp P k a = None) /\ (exists mn mx, limits_in P a mn mx) /\ (exists mx, limits_out P a mx).

(** ** The place of an account in the tree *)
Lemma listed_seq : forall l a, listed (SSeq l) a <-> exists s, In s l /\ listed s a.
Proof.
  intros l a. cbn [listed]. induction l as [|c l IH]; [split; [intros []|intros (s & [] & _)]|]. rewrite IH. split.
  - intros [H|(s & H1 & H2)]; [exists c; split; [now left|exact H]|exists s; split; [now right|exact H2]].
  - intros (s & [<-|H1] & H2); [now left|right; eauto].
Qed.
Lemma listed_leaves : forall l a, In a l -> listed (tree_src (POrd (map PLeaf l))) a.
Proof. intros l a H. cbn [tree_src]. apply listed_seq. exists (SAcct a). split; [|reflexivity]. rewrite map_map. apply in_map_iff. exists a. auto. Qed.
Lemma high_iff : forall s w accounts low high, hash_ok s -> divide_debts s w accounts = (low, high) ->
  NoDup low /\ (forall a, In a high <-> In a accounts /\ high_interest s w a) /\ (forall a, In a low <-> In a accounts /\ owing w a /\ ~ high_interest s w a).
Proof.
  intros s w accounts low high Hh D. unfold high_interest. destruct (ts_threshold s) as [t|] eqn:T.
  - destruct (C54_partition s w accounts low high t Hh T D) as (A & _ & _ & B & C). split; [exact A|]. split; intros a.
    + rewrite C. split; [intros (I1 & I2 & I3); split; [exact I1|]; split; [exact I2|]; exists t; auto|].
      intros (I1 & I2 & q & Q & I3). injection Q as <-. auto.
    + rewrite B. split.
      * intros (I1 & I2 & I3). split; [exact I1|]. split; [exact I2|]. intros (_ & q & Q & I4). injection Q as <-. lra.
      * intros (I1 & I2 & I3). split; [exact I1|]. split; [exact I2|]. destruct (Qlt_le_dec (v_rate w a) t) as [q|q]; [exact q|]. exfalso. apply I3. split; [exact I2|]. exists t. auto.
  - destruct (C54_no_threshold s w accounts low high Hh T D) as (A & -> & B). split; [exact A|]. split; intros a.
    + split; [intros []|intros (_ & _ & q & Q & _); discriminate].
    + rewrite B. split; [intros (I1 & I2); split; [exact I1|]; split; [exact I2|]; intros (_ & q & Q & _); discriminate|intros (I1 & I2 & _); auto].
Qed.
Lemma in_group : forall s w rest a k, In a rest -> weight_key s w a = Some k -> NoDup rest ->
  exists l, In (k, l) (account_groups s w rest) /\ In a l /\ NoDup l /\ forall b, In b l -> In b rest /\ weight_key s w b = Some k.
Proof.
  intros s w rest a k I K N. pose proof (groups_perm s w rest) as P.
  assert (Ia : In a (flat_map snd (account_groups s w rest))) by (eapply Permutation_in; [symmetry; exact P|]; apply filter_In; split; [exact I|now rewrite K]).
  apply in_flat_map in Ia. destruct Ia as ([k' l] & I1 & I2). cbn [snd] in I2. pose proof (account_groups_key _ _ _ _ _ _ I1 I2) as K'. rewrite K in K'. injection K' as <-.
  exists l. split; [exact I1|]. split; [exact I2|]. split.
  - apply (NoDup_flat_map_in snd (account_groups s w rest) (k, l)); [|exact I1]. eapply Permutation_NoDup; [symmetry; exact P|]. now apply NoDup_filter.
  - intros b Hb. split; [|exact (account_groups_key _ _ _ _ _ _ I1 Hb)].
    assert (Fb : In b (flat_map snd (account_groups s w rest))) by (apply in_flat_map; exists (k, l); auto). eapply Permutation_in in Fb; [|exact P]. apply filter_In in Fb. apply Fb.
Qed.
(** every account with the key is in its group *)
Lemma group_all : forall s w rest k l b, In (k, l) (account_groups s w rest) -> NoDup (map fst (account_groups s w rest)) -> In b rest -> weight_key s w b = Some k -> NoDup rest -> In b l.
Proof.
  intros s w rest k l b I N Ib K Nr. destruct (in_group s w rest b k Ib K Nr) as (l' & I' & B & _). 
  assert (l' = l) as <-; [|exact B]. clear -I I' N. induction (account_groups s w rest) as [|[j m] d IH]; [destruct I|]. cbn in N. inversion N as [|? ? N1 N2]; subst.
  destruct I as [I|I], I' as [I'|I']; try congruence; [injection I as -> ->; exfalso; apply N1; apply in_map_iff; exists (k, l'); auto| |now apply IH].
  injection I' as -> ->. exfalso. apply N1. apply in_map_iff. exists (k, l). auto.
Qed.
Lemma groups_keys : forall s w rest, NoDup (map fst (account_groups s w rest)).
Proof.
  intros s w rest. unfold account_groups. rewrite <- (rev_involutive rest). generalize (rev rest). intro m.
  induction m as [|b m IH]; [constructor|]. cbn [rev]. rewrite fold_left_app. cbn [fold_left]. set (d := fold_left _ (rev m) []) in *.
  destruct (weight_key s w b) as [k|]; [|exact IH]. clearbody d.
  assert (K : forall d j, In j (map fst (add_group k b d)) -> j = k \/ In j (map fst d)).
  { clear. induction d as [|[j l] d IH]; cbn; [intros j [<-|[]]; auto|]. intros i. destruct (String.eqb k j); cbn; [auto|]. intros [<-|H]; [auto|]. destruct (IH i H); auto. }
  induction d as [|[j l] d IHd]; cbn [add_group]; [repeat constructor; intros []|]. cbn in IH. inversion IH as [|? ? N1 N2]; subst.
  destruct (String.eqb_spec k j) as [->|Ne]; [exact IH|]. cbn. constructor; [|now apply IHd]. intros Q. destruct (K d j Q); [congruence|contradiction].
Qed.
Lemma own_place_listed : forall s w accounts t a, hash_ok s -> own_place s w accounts a -> priority_tree s w accounts = Ok t -> listed (tree_src t) a.
Proof.
  intros s w accounts t a Hh (Ia & O) H. unfold priority_tree in H. destruct (divide_debts s w accounts) as [low high] eqn:D.
  destruct (high_iff s w accounts low high Hh D) as (NL & HI & LI).
  destruct (debt_priority s w low) as [lp|] eqn:El; [|discriminate]. cbn [bind] in H. destruct (debt_priority s w high) as [hp|] eqn:Eh; [|discriminate]. cbn [bind] in H.
  set (rest := mkset s (filter (fun a => negb (mem a high)) accounts)) in *.
  assert (NR : NoDup rest) by now apply mkset_NoDup.
  assert (IR : forall b, In b rest <-> In b accounts /\ ~ high_interest s w b).
  { intro b. unfold rest. rewrite mkset_In, filter_In, Bool.negb_true_iff by exact Hh. split.
    - intros [I1 I2]. split; [exact I1|]. intros Q. assert (K : In b high) by (apply HI; auto). apply mem_In in K. congruence.
    - intros [I1 I2]. split; [exact I1|]. destruct (mem b high) eqn:M; [|reflexivity]. apply mem_In, HI in M. destruct M. contradiction. }
  set (st := strategy_tree s low lp (weight_groups s w rest)) in *.
  assert (Top : (exists h, hp = Some h /\ In a h) \/ listed (tree_src st) a -> listed (tree_src t) a).
  { intros [(h & -> & Q)|Q].
    - injection H as <-. cbn [tree_src map]. apply listed_seq. exists (tree_src (POrd (map PLeaf h))). split; [now left|now apply listed_leaves].
    - destruct hp as [h|]; injection H as <-; [|exact Q]. cbn [tree_src map]. apply listed_seq. exists (tree_src st). split; [right; now left|exact Q]. }
  apply Top. destruct O as [O|(NH & Or & k & K & O)].
  - left. assert (Q : In a high) by (apply HI; auto). destruct hp as [h|].
    + exists h. split; [reflexivity|]. eapply Permutation_in; [symmetry; exact (debt_priority_perm _ _ _ _ Eh)|exact Q].
    + exfalso. destruct high; [destruct Q|]. cbn [debt_priority] in Eh. destruct (priority_method _); discriminate.
  - right. assert (Ra : In a rest) by (apply IR; auto). destruct (in_group s w rest a k Ra K NR) as (l & G1 & G2 & G3 & G4).
    destruct (get_subtree s low lp l) as [b|m|m] eqn:Sub.
    + (* a leaf *)
      assert (b = a) as ->.
      { unfold get_subtree in Sub. assert (Q : l = [b]).
        { destruct lp as [p|]; [destruct (seteq l low); [discriminate|]|]; destruct l as [|c [|d l]]; congruence. }
        rewrite Q in G2. destruct G2 as [G2|[]]. exact G2. }
      unfold st, strategy_tree. rewrite Or. cbn [tree_src]. apply listed_seq. exists (SAcct a). split; [|reflexivity].
      apply in_map_iff. exists (PLeaf a). split; [reflexivity|]. rewrite <- Sub.
      apply in_map_iff. exists (l, match dget String.eqb (ts_weights s) k with Some q => q | None => 0 end). split; [reflexivity|].
      eapply Permutation_in; [symmetry; apply (proj1 (sorted_by_spec snd (weight_groups s w rest)))|]. unfold weight_groups. apply in_map_iff. exists (k, l). auto.
    + (* low-interest debts *)
      assert (Q : exists p, m = map PLeaf p /\ In a p).
      { unfold get_subtree in Sub. destruct lp as [p|]; [|destruct l as [|c [|d l]]; discriminate]. destruct (seteq l low) eqn:Se; [|destruct l as [|c [|d l]]; discriminate].
        injection Sub as <-. exists p. split; [reflexivity|]. eapply Permutation_in; [symmetry; exact (debt_priority_perm _ _ _ _ El)|].
        unfold seteq in Se. apply Bool.andb_true_iff in Se. destruct Se as [Se _]. rewrite forallb_forall in Se. apply mem_In. now apply Se. }
      destruct Q as (p & -> & Ip). unfold st, strategy_tree. rewrite Or. cbn [tree_src]. apply listed_seq. exists (tree_src (POrd (map PLeaf p))). split; [|now apply listed_leaves].
      apply in_map_iff. exists (POrd (map PLeaf p)). split; [reflexivity|]. rewrite <- Sub.
      apply in_map_iff. exists (l, match dget String.eqb (ts_weights s) k with Some q => q | None => 0 end). split; [reflexivity|].
      eapply Permutation_in; [symmetry; apply (proj1 (sorted_by_spec snd (weight_groups s w rest)))|]. unfold weight_groups. apply in_map_iff. exists (k, l). auto.
    + exfalso. unfold get_subtree in Sub. destruct O as [O|O].
      * assert (l = [a]) as ->.
        { destruct l as [|c l]; [destruct G2|]. assert (c = a) as -> by (apply O; destruct (G4 c (or_introl eq_refl)) as [Q1 Q2]; apply IR in Q1; tauto).
          destruct l as [|d l]; [reflexivity|]. assert (d = a) as -> by (apply O; destruct (G4 d (or_intror (or_introl eq_refl))) as [Q1 Q2]; apply IR in Q1; tauto).
          inversion G3 as [|? ? N1 N2]; subst. exfalso. apply N1. now left. }
        destruct lp as [p|]; [destruct (seteq [a] low)|]; discriminate.
      * assert (All : forall b, In b l <-> In b low).
        { intros b. rewrite LI. split; intros Q.
          - apply O. destruct (G4 b Q) as [Q1 Q2]. apply IR in Q1. tauto.
          - apply O in Q. destruct Q as (Q1 & Q2 & Q3). apply (group_all s w rest k); auto; [apply groups_keys|]. apply IR. auto. }
        assert (Se : seteq l low = true) by (unfold seteq; apply Bool.andb_true_iff; rewrite !forallb_forall; split; intros z Hz; apply mem_In, All, Hz).
        destruct lp as [p|]; [now rewrite Se in Sub|].
        destruct low as [|c low]; [apply All in G2; destruct G2|]. cbn [debt_priority] in El. destruct (priority_method _); discriminate.
Qed.

(** ** Theorems *)
(** One plan: an amount to withdraw (deposit) is met to one unit of precision unless every account with a
    place of its own has given (taken) all it can. *)
Theorem C124_plan : forall X (p : planner X) x h pl a, let P := pl_env p x h in let cash := htotal h 0 in
  hash_ok (pl_strat p) -> planner_exact p -> plan_for p x h = Ok pl -> own_place (pl_strat p) (pl_view p x h) (pl_accounts p) a ->
  (cash < - p_prec P -> given_all P pl a \/ - p_prec P < cash - savings_total pl) /\
  (p_prec P < cash -> taken_all P pl a \/ cash - savings_total pl < p_prec P).
Proof.
  intros X p x h pl a P cash Hs PE H O. destruct (PE x h) as (SO & D1 & D2 & W1 & W2 & Ac). fold P in SO, D1, D2, W1, W2, Ac. unfold plan_for in H. fold P in H.
  destruct (priority_tree (pl_strat p) (pl_view p x h) (pl_accounts p)) as [t|] eqn:T; [|discriminate]. cbn [bind] in H. unfold traversal_call in H. cbn [bind] in H. fold (htotal h 0) in H. fold cash in H.
  pose proof (own_place_listed _ _ _ _ _ Hs O T) as Li. destruct (divide_debts (pl_strat p) (pl_view p x h) (pl_accounts p)) as [low high] eqn:D.
  destruct (C79_tree_accounts _ _ _ _ _ _ Hs D T) as [_ Lv].
  assert (Ia : forall b, In b (src_accounts (tree_src t)) -> In b (pl_accounts p)) by (intros b Hb; rewrite tree_accounts in Hb; now apply Lv in Hb).
  set (mn := fun b => match p_limit P MinIn b with Ok (Fin q) => q | _ => 0 end).
  set (mx := fun b => match p_limit P MaxIn b with Ok q => q | _ => Fin 0 end).
  set (mo := fun b => match p_limit P MaxOut b with Ok (Fin q) => q | _ => 0 end).
  split; intros C.
  - destruct (C106_no_need_left_over P (pl_fuel p) (tree_src t) 0 cash pl a mo SO W1 W2 (tree_plain t) Li) as [Q|Q]; [|exact C|exact H| |].
    + intros b Hb. destruct (Ac b (Ia b Hb)) as (G & _ & m & L). split; [apply G|]. unfold mo. pose proof L as (_ & L2 & _). now rewrite L2.
    + left. destruct (Ac a (proj1 O)) as (_ & _ & m & (_ & L2 & _)). exists m. split; [exact L2|]. unfold mo in Q. rewrite L2 in Q. lra.
    + right. change (total_tx pl) with (savings_total pl) in Q. lra.
  - destruct (C106_nothing_left_over P (pl_fuel p) (tree_src t) 0 cash pl a mn mx SO D1 D2 (tree_plain t) Li) as [Q|Q]; [|exact C|exact H| |].
    + intros b Hb. destruct (Ac b (Ia b Hb)) as (G & (m & M & L) & _). split; [apply G|]. split; [apply G|]. unfold mn, mx. pose proof L as (L1 & L2 & _). now rewrite L1, L2.
    + left. destruct (Ac a (proj1 O)) as (_ & (m & M & (_ & L2 & _)) & _). exists M. split; [exact L2|]. unfold mx in Q. now rewrite L2 in Q.
    + right. change (total_tx pl) with (savings_total pl) in Q. lra.
Qed.
Print Assumptions C124_plan.

(** ** The years of a forecast *)
(** the account has a place of its own in the strategy's priorities, however things stand *)
Definition always_own_place {X} (p : planner X) (a : nat) : Prop := forall x h, own_place (pl_strat p) (pl_view p x h) (pl_accounts p) a.
(** the account can give what it holds, [start] at the beginning of the year and what was put in or taken out
    since; the account can take what is left of its [room] for the year *)
Definition gives_what_it_holds {X} (p : planner X) (prec : Q) (start : X -> nat -> Q) (a : nat) : Prop := forall x h,
  p_prec (pl_env p x h) = prec /\ p_limit (pl_env p x h) MaxOut a = Ok (Fin (- qmax 0 (start x a + htotal h a))).
Definition takes_its_room {X} (p : planner X) (prec : Q) (room : X -> nat -> Q) (a : nat) : Prop := forall x h,
  p_prec (pl_env p x h) = prec /\ p_limit (pl_env p x h) MaxIn a = Ok (Fin (qmax 0 (room x a - htotal h a))).

Lemma acct_planned : forall (pl : plan) a, Qsum (dvals (planned pl a)) = acct_tx pl a.
Proof. intros pl a. unfold planned, acct_tx. destruct (dget Nat.eqb pl a); reflexivity. Qed.
Lemma Qsum_sign : forall l : list Q, (forall v, In v l -> v <= 0) -> Qsum l <= 0.
Proof. induction l as [|v l IH]; intros H; cbn [Qsum]; [lra|]. pose proof (H v (or_introl eq_refl)). assert (Qsum l <= 0) by (apply IH; intros z Hz; apply H; now right). lra. Qed.
(** a plan moves every account's money in one direction *)
Lemma plan_signs : forall X (p : planner X) x h pl, planner_ok p -> plan_for p x h = Ok pl ->
  (0 <= htotal h 0 -> forall a, 0 <= acct_tx pl a) /\ (htotal h 0 <= 0 -> forall a, acct_tx pl a <= 0).
Proof.
  intros X p x h pl (_ & _ & W) H. destruct (W x h) as (Wo & In_ & Out & _). unfold plan_for in H.
  destruct (priority_tree (pl_strat p) (pl_view p x h) (pl_accounts p)) as [t|]; [|discriminate]. cbn [bind] in H. unfold traversal_call in H. cbn [bind] in H. fold (htotal h 0) in H.
  set (P := pl_env p x h) in *. set (root := fst (mk_node (tree_src t) no_limits 0)) in *. set (cash := htotal h 0) in *.
  assert (Hp : 0 < p_prec P) by apply Wo.
  assert (PT : proper_tree root) by (apply distinct_proper, C95_plain_trees_distinct, tree_plain).
  assert (RL : t_lims root MinOut = None) by (unfold root; destruct t; reflexivity).
  destruct (Qlt_bool (p_prec P) cash) eqn:E1.
  - pose proof E1 as L1. apply Qlt_bool_t in L1. destruct (C55_inflows_within_available P _ root cash pl Wo (In_ MinIn) (In_ MaxIn) L1 H) as [S1 _]. split; [|intros; lra].
    intros _ a. destruct (acct_in pl a) as [Q|(t0 & I & Q)]; rewrite Q; [lra|]. apply Qsum_nonneg. intros v Hv. exact (S1 a t0 v I Hv).
  - pose proof E1 as L1. apply Qlt_bool_f in L1. destruct (Qlt_bool cash (- p_prec P)) eqn:E2.
    + pose proof E2 as L2. apply Qlt_bool_t in L2. destruct (C55_outflows_within_available P _ root cash pl Wo (Out MinOut) (Out MaxOut) PT RL L2 H) as [S1 _]. split; [intros; lra|].
      intros _ a. destruct (acct_in pl a) as [Q|(t0 & I & Q)]; rewrite Q; [lra|]. apply Qsum_sign. intros v Hv. exact (S1 a t0 v I Hv).
    + unfold TxGraphModel.call in H. rewrite E1, E2 in H. injection H as <-. split; intros _ a; cbn; lra.
Qed.

Section Full.
Context {St : Type}.
Variables (c0 : config St) (save draw : planner St).
Hypotheses (Hs : planner_ok save) (Hd : planner_ok draw) (Es : planner_exact save) (Ed : planner_exact draw).
Hypotheses (K : c_kinds c0 0%nat = None) (Kp : keeps_paid c0) (Z : forall x h a, c_wh c0 x h a == 0).
Let c := with_strategies c0 save draw.
(** the year in full, seen from the accounts *)
Lemma year_accounts : forall s s', Datatypes.length (f_subs s) = 5%nat -> fresh (f_world s) -> paid_people (hh_people (f_world s)) ->
  call_subforecasts (real_env c) s = Ok s' -> exists p1 p2 h1 h2, let x := hh_rest (f_world s) in
    plan_for save x h1 = Ok p1 /\ plan_for draw x h2 = Ok p2 /\
    htotal h2 0 == htotal h1 0 - savings_total p1 /\ total (f_avail s') == htotal h2 0 - savings_total p2 /\
    forall a, a <> 0%nat -> htotal h2 a == htotal h1 a + acct_tx p1 a /\ htotal (hh_heap (f_world s')) a == htotal h2 a + acct_tx p2 a.
Proof.
  intros s s' L F P H. destruct (year_full c s s' (shipped_sound c0 save draw Hs Hd K) L F P H) as (living & p1 & p2 & held & h1 & h2 & Y1 & Y2 & Y3 & (S1 & _ & S3 & S4) & _ & _ & Y6 & _ & _ & Y9 & Y10 & _).
  exists p1, p2, h1, h2. cbn zeta. split; [exact Y2|]. split; [exact Y3|]. fold (savings_total p1) in S3, Y6. fold (savings_total p2) in Y6.
  specialize (Y10 Z). split; [exact S3|]. split; [rewrite S3, S1; lra|].
  intros a Na. specialize (S4 a Na). rewrite acct_planned in S4. split; [exact S4|].
  destruct (plan_shape _ draw _ h2 p2 Hd Y3) as (ND & _). specialize (Y9 ND a Na). now rewrite acct_planned in Y9.
Qed.
Lemma year_of_run : forall n s sn, together s -> Datatypes.length (f_subs s) = 5%nat -> fresh (f_world s) -> paid_people (hh_people (f_world s)) ->
  run_years (real_env c) n s = Ok sn -> Datatypes.length (f_subs sn) = 5%nat /\ fresh (f_world sn) /\ paid_people (hh_people (f_world sn)).
Proof.
  induction n as [|n IH]; intros s sn T L F P R; cbn [run_years] in R; [injection R as <-; auto|].
  destruct (call_subforecasts (real_env c) s) as [s1|] eqn:E1; [|discriminate]. cbn [bind] in R.
  destruct (HorizonModel.next_year (real_env c) s1) as [s2|] eqn:E2; [|discriminate]. cbn [bind] in R.
  pose proof (call_together _ _ _ _ T E1) as T1.
  destruct (call_from_shape _ _ _ _ _ _ (E1 : call_from _ _ _ _ = Ok s1)) as (_ & Sh2 & _).
  assert (L1 : Datatypes.length (f_subs s1) = 5%nat) by (now rewrite Sh2).
  assert (P1 : paid_people (hh_people (f_world s1))). { destruct (year_full c s s1 (shipped_sound c0 save draw Hs Hd K) L F P E1) as (? & ? & ? & ? & ? & ? & _ & _ & _ & _ & _ & -> & _). exact P. }
  destruct (fresh_next c s1 s2 Kp T1 L1 P1 E2) as (F2 & P2 & _). destruct (next_year_shape _ _ _ _ T1 E2) as (_ & T2 & L2 & _).
  apply (IH s2 sn T2 ltac:(rewrite L2; exact L1) F2 P2 R).
Qed.
(** A year that ends short of money has emptied every such account of both strategies. *)
Theorem C124_short_only_when_empty_partial : forall prec start a n s sn s',
  (always_own_place save a /\ gives_what_it_holds save prec start a) \/ (always_own_place draw a /\ gives_what_it_holds draw prec start a) ->
  together s -> Datatypes.length (f_subs s) = 5%nat -> fresh (f_world s) -> paid_people (hh_people (f_world s)) ->
  run_years (real_env c) n s = Ok sn -> call_subforecasts (real_env c) sn = Ok s' ->
  total (f_avail s') < - prec ->
  start (hh_rest (f_world sn)) a + htotal (hh_heap (f_world s')) a < prec.
Proof.
  intros prec start a n s sn s' O T L F P R H Sh. destruct (year_of_run n s sn T L F P R) as (L' & F' & P').
  destruct (year_accounts sn s' L' F' P' H) as (p1 & p2 & h1 & h2 & Y1 & Y2 & Y3 & Y4 & Y5). cbv zeta in *. set (x := hh_rest (f_world sn)) in *.
  destruct (plan_shape _ save x h1 p1 Hs Y1) as (_ & _ & _ & M1). destruct (plan_shape _ draw x h2 p2 Hd Y2) as (_ & _ & _ & M2).
  pose proof (plan_signs _ save x h1 p1 Hs Y1) as [Sg1 Sg1']. pose proof (plan_signs _ draw x h2 p2 Hd Y2) as [Sg2 Sg2'].
  assert (Pr : 0 < prec).
  { destruct O as [[_ G]|[_ G]]; destruct (G x h1) as [Q _]; rewrite <- Q; [destruct (Es x h1) as ((Hp & _) & _)|destruct (Ed x h1) as ((Hp & _) & _)]; exact Hp. }
  assert (Na : a <> 0%nat).
  { intros ->. destruct O as [[Ow _]|[Ow _]]; destruct (Ow x h1) as [I _]; [destruct Hs as (_ & N & _)|destruct Hd as (_ & N & _)]; contradiction. }
  destruct (Y5 a Na) as [V1 V2].
  assert (C2 : htotal h2 0 <= 0) by (destruct (Qlt_le_dec 0 (htotal h2 0)) as [q|q]; [destruct M2 as (M2 & _); specialize (M2 ltac:(lra)); lra|exact q]).
  assert (C2' : htotal h2 0 < - prec) by (destruct M2 as (_ & M2 & _); specialize (M2 C2); lra).
  assert (C1 : htotal h1 0 <= 0) by (destruct (Qlt_le_dec 0 (htotal h1 0)) as [q|q]; [destruct M1 as (M1 & _); specialize (M1 ltac:(lra)); lra|exact q]).
  assert (C1' : htotal h1 0 < - prec) by (destruct M1 as (_ & M1 & _); specialize (M1 C1); lra).
  specialize (Sg1' C1 a). specialize (Sg2' C2 a).
  destruct O as [[Ow G]|[Ow G]].
  - destruct (G x h1) as [Q Lm]. destruct (C124_plan St save x h1 p1 a (proj1 Hs) Es Y1 (Ow x h1)) as [Gv _]. rewrite Q in Gv. destruct (Gv C1') as [(m & M & Lt)|Gv']; [|exfalso; lra].
    rewrite Lm in M. injection M as <-. rewrite Q in Lt. pose proof (qmax_r 0 (start x a + htotal h1 a)). lra.
  - destruct (G x h2) as [Q Lm]. destruct (C124_plan St draw x h2 p2 a (proj1 Hd) Ed Y2 (Ow x h2)) as [Gv _]. rewrite Q in Gv. destruct (Gv C2') as [(m & M & Lt)|Gv']; [|exfalso; lra].
    rewrite Lm in M. injection M as <-. rewrite Q in Lt. pose proof (qmax_r 0 (start x a + htotal h2 a)). lra.
Qed.
(** A year that ends with money left has filled every such account of both strategies. *)
Theorem C124_money_left_only_when_full_partial : forall prec room a n s sn s',
  (always_own_place save a /\ takes_its_room save prec room a) \/ (always_own_place draw a /\ takes_its_room draw prec room a) ->
  together s -> Datatypes.length (f_subs s) = 5%nat -> fresh (f_world s) -> paid_people (hh_people (f_world s)) ->
  run_years (real_env c) n s = Ok sn -> call_subforecasts (real_env c) sn = Ok s' ->
  prec < total (f_avail s') ->
  room (hh_rest (f_world sn)) a - htotal (hh_heap (f_world s')) a < prec.
Proof.
  intros prec room a n s sn s' O T L F P R H Sh. destruct (year_of_run n s sn T L F P R) as (L' & F' & P').
  destruct (year_accounts sn s' L' F' P' H) as (p1 & p2 & h1 & h2 & Y1 & Y2 & Y3 & Y4 & Y5). cbv zeta in *. set (x := hh_rest (f_world sn)) in *.
  destruct (plan_shape _ save x h1 p1 Hs Y1) as (_ & _ & _ & M1). destruct (plan_shape _ draw x h2 p2 Hd Y2) as (_ & _ & _ & M2).
  pose proof (plan_signs _ save x h1 p1 Hs Y1) as [Sg1 Sg1']. pose proof (plan_signs _ draw x h2 p2 Hd Y2) as [Sg2 Sg2'].
  assert (Pr : 0 < prec).
  { destruct O as [[_ G]|[_ G]]; destruct (G x h1) as [Q _]; rewrite <- Q; [destruct (Es x h1) as ((Hp & _) & _)|destruct (Ed x h1) as ((Hp & _) & _)]; exact Hp. }
  assert (Na : a <> 0%nat).
  { intros ->. destruct O as [[Ow _]|[Ow _]]; destruct (Ow x h1) as [I _]; [destruct Hs as (_ & N & _)|destruct Hd as (_ & N & _)]; contradiction. }
  destruct (Y5 a Na) as [V1 V2].
  assert (C2 : 0 <= htotal h2 0) by (destruct (Qlt_le_dec (htotal h2 0) 0) as [q|q]; [destruct M2 as (_ & M2 & _); specialize (M2 ltac:(lra)); lra|exact q]).
  assert (C2' : prec < htotal h2 0) by (destruct M2 as (M2 & _); specialize (M2 C2); lra).
  assert (C1 : 0 <= htotal h1 0) by (destruct (Qlt_le_dec (htotal h1 0) 0) as [q|q]; [destruct M1 as (_ & M1 & _); specialize (M1 ltac:(lra)); lra|exact q]).
  assert (C1' : prec < htotal h1 0) by (destruct M1 as (M1 & _); specialize (M1 C1); lra).
  specialize (Sg1 C1 a). specialize (Sg2 C2 a).
  destruct O as [[Ow G]|[Ow G]].
  - destruct (G x h1) as [Q Lm]. destruct (C124_plan St save x h1 p1 a (proj1 Hs) Es Y1 (Ow x h1)) as [_ Gv]. rewrite Q in Gv. destruct (Gv C1') as [(m & M & Lt)|Gv']; [|exfalso; lra].
    rewrite Lm in M. injection M as <-. cbn in Lt. rewrite Q in Lt. pose proof (qmax_r 0 (room x a - htotal h1 a)). lra.
  - destruct (G x h2) as [Q Lm]. destruct (C124_plan St draw x h2 p2 a (proj1 Hd) Ed Y2 (Ow x h2)) as [_ Gv]. rewrite Q in Gv. destruct (Gv C2') as [(m & M & Lt)|Gv']; [|exfalso; lra].
    rewrite Lm in M. injection M as <-. cbn in Lt. rewrite Q in Lt. pose proof (qmax_r 0 (room x a - htotal h2 a)). lra.
Qed.
End Full.
Print Assumptions C124_short_only_when_empty_partial.
Print Assumptions C124_money_left_only_when_full_partial.

(** ** A household with a TFSA, an RRSP and a credit card *)
(** the state: each account's balance at the start of the year (object 0 is the cash) *)
Definition home_holds (x : list Q) (h : heap) (a : nat) : Q := nth a x 0 + htotal h a.
(** the contribution room of the asset accounts is fixed; a debt takes what is owed *)
Definition home_room (room : list Q) (debt : nat -> bool) (x : list Q) (a : nat) : Q := if debt a then - nth a x 0 else nth a room 0.
Definition home_view (class : nat -> string) (debt : nat -> bool) (x : list Q) (h : heap) : aview := {|
  v_mro := fun a => [class a; "Account"%string]; v_debt := debt; v_balance := home_holds x h; v_rate := fun a => if debt a then 20 # 100 else 0 |}.
Definition home_env (least room : list Q) (debt : nat -> bool) (x : list Q) (h : heap) : TxGraphModel.env := {|
  p_limit := fun k a => Ok (Fin (match k with
     | MaxIn => qmax 0 (home_room room debt x a - htotal h a)
     | MinIn => qmin (qmax 0 (nth a least 0 - htotal h a)) (qmax 0 (home_room room debt x a - htotal h a))
     | MaxOut => - qmax 0 (nth a x 0 + htotal h a) | MinOut => 0 end));
  p_tx := fun _ _ q => Ok [(1 # 2, q)]; p_grp := fun _ _ => None; p_prec := 1 # 100; p_flow := mcmf; p_hash := fun l => l |}.
Definition home_planner (s : tstrat) (class : nat -> string) (debt : nat -> bool) (accounts : list nat) (least room : list Q) : planner (list Q) := {|
  pl_strat := s; pl_accounts := accounts; pl_fuel := 30; pl_view := home_view class debt; pl_env := home_env least room debt |}.
Lemma home_ok : forall s class debt accounts least room, (forall l, ts_hash s l = l) -> ~ In 0%nat accounts ->
  let p := home_planner s class debt accounts least room in planner_ok p /\ planner_exact p.
Proof.
  intros s class debt accounts least room Hs N p.
  assert (Mx : forall q, 0 <= qmax 0 q) by (intros q; apply qmax_l).
  split.
  - split; [intros l; cbn; rewrite Hs; reflexivity|]. split; [exact N|]. intros x h. split; [|split; [|split]].
    + split; [reflexivity|]. split; [intros g f H; exact (proj1 (mcmf_optimal g f H))|auto].
    + intros k b q t Hq H. cbn in H. injection H as <-. unfold tx_of. cbn. split; [intros v [<-|[]]; exact Hq|lra].
    + intros k b q t Hq H. cbn in H. injection H as <-. unfold tx_of. cbn. split; [intros v [<-|[]]; exact Hq|lra].
    + intros k a q t H. cbn in H. injection H as <-. discriminate.
  - intros x h. cbv zeta. split; [split; [reflexivity|split; [intros g f H; now apply mcmf_optimal|auto]]|].
    assert (De : forall k, deposits_exact (pl_env p x h) k) by (intros k a q t L _ _ _ H; cbn in H; injection H as <-; unfold tx_of; cbn; lra).
    assert (We : forall k, withdrawals_exact (pl_env p x h) k) by (intros k a q t L _ _ _ H; cbn in H; injection H as <-; unfold tx_of; cbn; lra).
    split; [apply De|]. split; [apply De|]. split; [apply We|]. split; [apply We|]. intros a _. split; [reflexivity|]. split.
    + eexists. eexists. split; [reflexivity|]. split; [reflexivity|]. cbn. pose proof (Mx (home_room room debt x a - htotal h a)). pose proof (Mx (nth a least 0 - htotal h a)).
      split; [now apply qmin_glb|apply qmin_r].
    + eexists. split; [exists 0; split; [reflexivity|lra]|]. split; [reflexivity|]. pose proof (Mx (nth a x 0 + htotal h a)). lra.
Qed.
Lemma home_gives : forall s class debt accounts least room a, gives_what_it_holds (home_planner s class debt accounts least room) (1 # 100) (fun x b => nth b x 0) a.
Proof. intros s class debt accounts least room a x h. split; reflexivity. Qed.
Lemma home_takes : forall s class debt accounts least room a, takes_its_room (home_planner s class debt accounts least room) (1 # 100) (home_room room debt) a.
Proof. intros s class debt accounts least room a x h. split; reflexivity. Qed.
(** earns 100 a year; spends 60 in 2000, nothing in 2001 and 350 from then on *)
Definition home_living (y : Z) : Q := if (y =? 2000)%Z then 60 else if (y =? 2001)%Z then 0 else 350.
Definition home_set (x : list Q) (h : heap) (a : nat) : list Q := firstn a x ++ home_holds x h a :: skipn (S a) x.
Definition home_next (ev : event) (w : list Q * heap * list person) : list Q * heap * list person :=
  let '(x, h, ps) := w in
  match ev with NextAccount i _ => (home_set x h (S i), hset h (S i) [], ps) | _ => w end.
Definition home_base (living : Z -> Q) : config (list Q) := {|
  c_kinds := fun _ => None; c_default := [(0, 1)]; c_living := fun _ _ y => Ok (living y); c_save := fun _ _ => Ok []; c_withdraw := fun _ _ => Ok [];
  c_wh := fun _ _ _ => 0; c_owing := fun _ _ _ => Ok 0; c_refund := None; c_pay := None; c_next := home_next |}.
Definition home_start (x : list Q) (accts : list nat) (years : list Z) : fstate (world (list Q)) := {| f_year := 2000; f_avail := [];
  f_world := {| hh_rest := x; hh_heap := (0%nat, []) :: map (fun a => (a, [])) accts; hh_people := [dora];
    hh_income := new_sub 2000; hh_living := new_sub 2000; hh_saving := new_sub 2000; hh_withdrawal := {| w_sub := new_sub 2000; w_withheld := 0 |} |};
  f_subs := [2000; 2000; 2000; 2000; 2000]%Z; f_people := [2000]%Z; f_accts := years; f_log := [] |}.
Definition three_class (a : nat) : string := match a with 1%nat => "TFSA" | 2%nat => "RRSP" | _ => "Debt" end.
Definition three_debt (a : nat) : bool := Nat.eqb a 3.
Definition three_strat (tfsa rrsp : Q) : tstrat := {|
  ts_ordered := true; ts_weights := [("TFSA", tfsa); ("RRSP", rrsp); ("Debt", 3)]%string; ts_debt := "Avalanche"; ts_threshold := Some (10 # 100); ts_hash := fun l => l |}.
Definition three (tfsa rrsp : Q) : planner (list Q) := home_planner (three_strat tfsa rrsp) three_class three_debt [1; 2; 3]%nat [] [0; 50; 20].
Definition three_forecast : fstate (world (list Q)) := home_start [0; 0; 60; - (30)] [1; 2; 3]%nat [2000; 2000; 2000]%Z.
Lemma three_places : forall tfsa rrsp a, In a [1; 2; 3]%nat -> always_own_place (three tfsa rrsp) a.
Proof.
  intros tfsa rrsp a I x h. split; [exact I|].
  assert (Asset : forall b, b <> 3%nat -> ~ high_interest (three_strat tfsa rrsp) (home_view three_class three_debt x h) b).
  { intros b Nb ((D & _) & _). cbn in D. unfold three_debt in D. apply Nat.eqb_eq in D. contradiction. }
  destruct I as [<-|[<-|[<-|[]]]].
  - right. split; [apply Asset; discriminate|]. split; [reflexivity|]. exists "TFSA"%string. split; [reflexivity|]. left. intros b ([<-|[<-|[<-|[]]]] & _ & Q); (reflexivity || discriminate Q).
  - right. split; [apply Asset; discriminate|]. split; [reflexivity|]. exists "RRSP"%string. split; [reflexivity|]. left. intros b ([<-|[<-|[<-|[]]]] & _ & Q); (reflexivity || discriminate Q).
  - destruct (Qlt_le_dec (home_holds x h 3) 0) as [q|q].
    + left. split; [split; [reflexivity|exact q]|]. exists (10 # 100). split; [reflexivity|]. cbn. lra.
    + right. split; [intros ((_ & B) & _); cbn in B; lra|]. split; [reflexivity|]. exists "Debt"%string. split; [reflexivity|]. left. intros b ([<-|[<-|[<-|[]]]] & _ & Q); (reflexivity || discriminate Q).
Qed.
Definition three_base : config (list Q) := home_base home_living.
Definition three_config : config (list Q) := with_strategies three_base (three 1 2) (three 2 1).
(** 2000: 40 to save, 30 repay the card and 10 go to the TFSA; 2001: 100 to save, 50 go to the TFSA and 20
    to the RRSP, both are full and 30 stay; 2002: 220 missing, 140 are found *)
Example C124_sat : let save := three 1 2 in let draw := three 2 1 in
  planner_ok save /\ planner_ok draw /\ planner_exact save /\ planner_exact draw /\ c_kinds three_base 0%nat = None /\ keeps_paid three_base /\ (forall x h a, c_wh three_base x h a == 0) /\
  (forall a, In a [1; 2; 3]%nat -> always_own_place save a /\ always_own_place draw a) /\
  (forall a, gives_what_it_holds draw (1 # 100) (fun x b => nth b x 0) a /\ takes_its_room save (1 # 100) (home_room [0; 50; 20] three_debt) a) /\
  together three_forecast /\ Datatypes.length (f_subs three_forecast) = 5%nat /\ fresh (f_world three_forecast) /\ paid_people (hh_people (f_world three_forecast)) /\
  exists s1 e1 s2 e2, run_years (real_env three_config) 1 three_forecast = Ok s1 /\ call_subforecasts (real_env three_config) s1 = Ok e1 /\
    run_years (real_env three_config) 2 three_forecast = Ok s2 /\ call_subforecasts (real_env three_config) s2 = Ok e2 /\
    map Qred (hh_rest (f_world s1)) = [0; 10; 60; 0] /\ total (f_avail e1) == 30 /\
    map Qred (hh_rest (f_world s2)) = [0; 60; 80; 0] /\ total (f_avail e2) == - (80) /\ htotal (hh_heap (f_world e2)) 1 == - (60) /\ htotal (hh_heap (f_world e2)) 2 == - (80).
Proof.
  cbv zeta. assert (O : forall i j, planner_ok (three i j) /\ planner_exact (three i j)) by (intros i j; apply home_ok; [reflexivity|cbn; intuition discriminate]).
  split; [apply O|]. split; [apply O|]. split; [apply O|]. split; [apply O|]. split; [reflexivity|]. split.
  { intros ev x h ps P. destruct ev; exact P. }
  split; [reflexivity|]. split; [intros a I; split; now apply three_places|]. split; [intros a; split; [apply home_gives|apply home_takes]|].
  split; [repeat split; repeat constructor|]. split; [reflexivity|]. split; [repeat split|].
  split; [exact (proj1 (proj2 (proj2 (proj2 (proj2 (proj2 (proj2 (proj2 wh_ok))))))))|].
  destruct (run_years (real_env three_config) 1 three_forecast) as [s1|] eqn:E1; [|vm_compute in E1; discriminate].
  destruct (call_subforecasts (real_env three_config) s1) as [e1|] eqn:F1; [|vm_compute in E1; injection E1 as <-; vm_compute in F1; discriminate].
  destruct (run_years (real_env three_config) 2 three_forecast) as [s2|] eqn:E2; [|vm_compute in E2; discriminate].
  destruct (call_subforecasts (real_env three_config) s2) as [e2|] eqn:F2; [|vm_compute in E2; injection E2 as <-; vm_compute in F2; discriminate].
  exists s1, e1, s2, e2. vm_compute in E1. injection E1 as <-. vm_compute in E2. injection E2 as <-. vm_compute in F1. injection F1 as <-. vm_compute in F2. injection F2 as <-.
  repeat split; vm_compute; reflexivity.
Qed.

(** ** Accounts that share their place *)
(** A 'Weighted' strategy saves in a TFSA with room for 30 and repays two debts, of 30 and 10, whose minimum
    payments are all that is owed.  Of 90 to save, 44 stay behind although the TFSA got 6 and could take 24
    more. *)
Definition mixed_class (a : nat) : string := match a with 1%nat => "Mortgage" | 2%nat => "TFSA" | 3%nat => "Loan" | _ => "RRSP" end.
Definition mixed_debt (a : nat) : bool := Nat.eqb a 1 || Nat.eqb a 3.
Definition mixed_strat : tstrat := {| ts_ordered := false; ts_weights := [("Mortgage", 1); ("TFSA", 3); ("Loan", 2)]%string; ts_debt := "Avalanche"; ts_threshold := None; ts_hash := fun l => l |}.
Definition mixed_draw : tstrat := {| ts_ordered := true; ts_weights := [("RRSP", 1)]%string; ts_debt := "Avalanche"; ts_threshold := None; ts_hash := fun l => l |}.
Definition mixed_save_planner : planner (list Q) := home_planner mixed_strat mixed_class mixed_debt [1; 2; 3]%nat [0; 30; 0; 10] [0; 0; 30].
Definition mixed_draw_planner : planner (list Q) := home_planner mixed_draw mixed_class mixed_debt [4]%nat [] [].
Definition mixed_base : config (list Q) := home_base (fun _ => 10).
Definition mixed_forecast : fstate (world (list Q)) := home_start [0; - (30); 0; - (10); 200] [1; 2; 3; 4]%nat [2000; 2000; 2000; 2000]%Z.
Theorem C124_shared_place_refuted : exists (c0 : config (list Q)) save draw s s' room,
  planner_ok save /\ planner_ok draw /\ planner_exact save /\ planner_exact draw /\ c_kinds c0 0%nat = None /\ keeps_paid c0 /\ (forall x h a, c_wh c0 x h a == 0) /\
  (forall x h, In 2%nat (pl_accounts save) /\ weighed (pl_strat save) (pl_view save x h) 2) /\ takes_its_room save (1 # 100) room 2 /\
  together s /\ Datatypes.length (f_subs s) = 5%nat /\ fresh (f_world s) /\ paid_people (hh_people (f_world s)) /\
  call_subforecasts (real_env (with_strategies c0 save draw)) s = Ok s' /\
  room (hh_rest (f_world s)) 2%nat == 30 /\ htotal (hh_heap (f_world s')) 2 == 6 /\ total (f_avail s') == 44.
Proof.
  exists mixed_base, mixed_save_planner, mixed_draw_planner, mixed_forecast.
  destruct (call_subforecasts (real_env (with_strategies mixed_base mixed_save_planner mixed_draw_planner)) mixed_forecast) as [s'|] eqn:E; [|vm_compute in E; discriminate].
  exists s', (home_room [0; 0; 30] mixed_debt).
  assert (O1 : planner_ok mixed_save_planner /\ planner_exact mixed_save_planner) by (apply home_ok; [reflexivity|cbn; intuition discriminate]).
  assert (O2 : planner_ok mixed_draw_planner /\ planner_exact mixed_draw_planner) by (apply home_ok; [reflexivity|cbn; intuition discriminate]).
  split; [apply O1|]. split; [apply O2|]. split; [apply O1|]. split; [apply O2|]. split; [reflexivity|]. split.
  { intros ev x h ps P. destruct ev; exact P. }
  split; [reflexivity|]. split; [intros x h; split; [right; now left|apply weight_key_some; eexists; reflexivity]|]. split; [apply home_takes|].
  split; [repeat split; repeat constructor|]. split; [reflexivity|]. split; [repeat split|].
  split; [exact (proj1 (proj2 (proj2 (proj2 (proj2 (proj2 (proj2 (proj2 wh_ok))))))))|]. split; [reflexivity|].
  vm_compute in E. injection E as <-. repeat split; vm_compute; reflexivity.
Qed.
Print Assumptions C124_shared_place_refuted.
(** The same for withdrawals, by rounding: a 'Weighted' strategy draws 1.97 from five accounts that hold
    1.93 in all; one of them keeps two of its 110 cents. *)
Definition five_class (a : nat) : string := match a with 1 => "RRSP" | 2 => "A" | 3 => "B" | 4 => "C" | 5 => "TFSA" | _ => "Other" end%nat%string.
Definition five_strat : tstrat := {| ts_ordered := false; ts_weights := [("RRSP", 10); ("A", 1); ("B", 1); ("C", 1); ("TFSA", 5)]%string;
  ts_debt := "Avalanche"; ts_threshold := None; ts_hash := fun l => l |}.
Definition five_save_strat : tstrat := {| ts_ordered := true; ts_weights := [("Other", 1)]%string; ts_debt := "Avalanche"; ts_threshold := None; ts_hash := fun l => l |}.
Definition five_draw : planner (list Q) := home_planner five_strat five_class (fun _ => false) [1; 2; 3; 4; 5]%nat [] [].
Definition five_save : planner (list Q) := home_planner five_save_strat five_class (fun _ => false) [6]%nat [] [].
Definition five_base : config (list Q) := home_base (fun _ => 10197 # 100).
Definition five_forecast : fstate (world (list Q)) := home_start [0; 110 # 100; 10 # 100; 10 # 100; 10 # 100; 53 # 100; 0]
  [1; 2; 3; 4; 5; 6]%nat (repeat 2000%Z 6).
Theorem C124_shared_place_withdrawals_refuted : exists (c0 : config (list Q)) save draw s s' start,
  planner_ok save /\ planner_ok draw /\ planner_exact save /\ planner_exact draw /\ c_kinds c0 0%nat = None /\ keeps_paid c0 /\ (forall x h a, c_wh c0 x h a == 0) /\
  (forall x h, In 1%nat (pl_accounts draw) /\ weighed (pl_strat draw) (pl_view draw x h) 1) /\ gives_what_it_holds draw (1 # 100) start 1 /\
  together s /\ Datatypes.length (f_subs s) = 5%nat /\ fresh (f_world s) /\ paid_people (hh_people (f_world s)) /\
  call_subforecasts (real_env (with_strategies c0 save draw)) s = Ok s' /\
  start (hh_rest (f_world s)) 1%nat == 110 # 100 /\ htotal (hh_heap (f_world s')) 1 == - (108 # 100) /\ total (f_avail s') == - (6 # 100).
Proof.
  exists five_base, five_save, five_draw, five_forecast.
  destruct (call_subforecasts (real_env (with_strategies five_base five_save five_draw)) five_forecast) as [s'|] eqn:E; [|vm_compute in E; discriminate].
  exists s', (fun x b => nth b x 0).
  assert (O1 : planner_ok five_save /\ planner_exact five_save) by (apply home_ok; [reflexivity|cbn; intuition discriminate]).
  assert (O2 : planner_ok five_draw /\ planner_exact five_draw) by (apply home_ok; [reflexivity|cbn; intuition discriminate]).
  split; [apply O1|]. split; [apply O2|]. split; [apply O1|]. split; [apply O2|]. split; [reflexivity|]. split.
  { intros ev x h ps P. destruct ev; exact P. }
  split; [reflexivity|]. split; [intros x h; split; [now left|apply weight_key_some; eexists; reflexivity]|]. split; [apply home_gives|].
  split; [repeat split; repeat constructor|]. split; [reflexivity|]. split; [repeat split|].
  split; [exact (proj1 (proj2 (proj2 (proj2 (proj2 (proj2 (proj2 (proj2 wh_ok))))))))|]. split; [reflexivity|].
  vm_compute in E. injection E as <-. repeat split; vm_compute; reflexivity.
Qed.
Print Assumptions C124_shared_place_withdrawals_refuted.
