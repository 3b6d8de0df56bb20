(** C89: debt payments follow the strategy.  C90: a traversal uses the methods it is given. *)
From Verif Require Import Base BaseFacts TxGraphModel TxStratModel TxFlowFacts TxFlowShape DebtPayModel Prop_TxStrat Prop_TxGraph Prop_TxOrder.
From Coq Require Import Permutation Sorted Lia Lqa Qabs.

(** ** Specification *)
(** which of two debts is to be repaid first: the smaller one (snowball), the one with the higher rate
    (avalanche); the one listed first if they are equal in that respect *)
Definition repaid_first (w : aview) (key : string) (debts : list nat) (a b : nat) : Prop :=
  (key = "Snowball"%string /\ (Qabs (v_balance w a) < Qabs (v_balance w b) \/ Qabs (v_balance w a) == Qabs (v_balance w b) /\ before a b debts)) \/
  (key = "Avalanche"%string /\ (v_rate w b < v_rate w a \/ v_rate w b == v_rate w a /\ before a b debts)).
(** the debts in the given order, with what each requires at least and takes at most *)
Definition debts_ok (P : env) (debts : list nat) (mn : nat -> Q) (mx : nat -> xnum) : Prop :=
  NoDup debts /\ (forall a, p_grp P MinIn a = None /\ p_grp P MaxIn a = None) /\
  forall a, In a debts -> p_limit P MinIn a = Ok (Fin (mn a)) /\ p_limit P MaxIn a = Ok (mx a) /\ 0 <= mn a /\ within (mn a) (mx a).

(** ** Order *)
Lemma before_or : forall {A} (l : list A) a b, (forall x y : A, {x = y} + {x <> y}) -> In a l -> In b l -> a <> b -> before a b l \/ before b a l.
Proof.
  intros A l a b D. induction l as [|x l IH]; intros Ha Hb N; [destruct Ha|].
  destruct Ha as [->|Ha], Hb as [Hb|Hb]; [contradiction| | |].
  - left. apply in_split in Hb. destruct Hb as (l2 & l3 & ->). exists [], l2, l3. reflexivity.
  - subst x. right. apply in_split in Ha. destruct Ha as (l2 & l3 & ->). exists [], l2, l3. reflexivity.
  - destruct (IH Ha Hb N) as [(l1 & l2 & l3 & ->)|(l1 & l2 & l3 & ->)]; [left|right]; exists (x :: l1), l2, l3; reflexivity.
Qed.
Lemma before_sorted : forall {A} (R : A -> A -> Prop) l a b, StronglySorted R l -> before a b l -> R a b.
Proof.
  intros A R l a b S (l1 & l2 & l3 & ->). induction l1 as [|x l1 IH]; cbn in S.
  - inversion S as [|? ? _ F]; subst. rewrite Forall_forall in F. apply F. apply in_or_app. right. now left.
  - inversion S; subst. auto.
Qed.
Lemma before_filter : forall {A} (p : A -> bool) l a b, p a = true -> p b = true -> before a b l -> before a b (filter p l).
Proof.
  intros A p l a b Ha Hb (l1 & l2 & l3 & ->). rewrite filter_app. cbn [filter]. rewrite Ha. rewrite filter_app. cbn [filter]. rewrite Hb.
  exists (filter p l1), (filter p l2), (filter p l3). reflexivity.
Qed.
Lemma before_in : forall {A} (a b : A) l, before a b l -> In a l /\ In b l.
Proof. intros A a b l (l1 & l2 & l3 & ->). split; apply in_or_app; right; [now left|]. right. apply in_or_app. right. now left. Qed.
Lemma before_asym : forall {A} (l : list A) a b, NoDup l -> before a b l -> before b a l -> False.
Proof.
  intros A l a b N. induction l as [|x l IH]; intros (l1 & l2 & l3 & E) (k1 & k2 & k3 & E').
  - destruct l1; discriminate.
  - inversion N as [|? ? Nx Nl]; subst. destruct l1 as [|y l1]; cbn in E; injection E as E1 E2.
    + destruct k1 as [|z k1]; cbn in E'; injection E' as E1' E2'.
      * subst. apply Nx. apply in_or_app. right. now left.
      * subst. apply Nx. rewrite E2'. apply in_or_app. right. right. apply in_or_app. right. now left.
    + destruct k1 as [|z k1]; cbn in E'; injection E' as E1' E2'.
      * subst. apply Nx. apply in_or_app. right. right. apply in_or_app. right. now left.
      * apply IH; [exact Nl|exists l1, l2, l3; congruence|exists k1, k2, k3; congruence].
Qed.
Lemma ordered_before : forall (key : nat -> Q) (R : Q -> Q -> Prop) l s a b, stably_ordered key R l s -> NoDup l -> In a l -> In b l ->
  (~ R (key b) (key a) \/ key a == key b /\ before a b l) -> a <> b -> before a b s.
Proof.
  intros key R l s a b (Pm & S & F) N Ha Hb H Ne.
  assert (Ns : NoDup s) by (eapply Permutation_NoDup; [apply Permutation_sym; exact Pm|exact N]).
  destruct (before_or s a b Nat.eq_dec) as [B|B]; auto; try (eapply Permutation_in; [apply Permutation_sym; exact Pm|assumption]).
  exfalso. pose proof (before_sorted _ _ _ _ S B) as K. cbn in K. destruct H as [H|[E H]]; [contradiction|].
  assert (B1 : before a b (filter (fun x => Qeq_bool (key x) (key a)) s)).
  { rewrite F. apply before_filter; auto; [apply Qeq_bool_iff; reflexivity|apply Qeq_bool_iff; now symmetry]. }
  assert (B2 : before b a (filter (fun x => Qeq_bool (key x) (key a)) s)).
  { apply before_filter; auto; [apply Qeq_bool_iff; now symmetry|apply Qeq_bool_iff; reflexivity]. }
  eapply before_asym; [apply NoDup_filter; exact Ns|exact B1|exact B2].
Qed.

(** the tree of a list of debts *)
Definition debt_nodes := fix go (l : list nat) (k : nat) : list tnode := match l with [] => [] | a :: t => TNode k no_limits (TLeaf a) :: go t (S k) end.
Lemma debt_tree : forall l, fst (mk_node (SSeq (map SAcct l)) no_limits 0) = TNode 0 no_limits (TOrd (debt_nodes l 1)).
Proof.
  intros l. cbn [mk_node fst]. do 2 f_equal.
  assert (G : forall l k, (fix go (l : list src) (k : nat) := match l with
                              | [] => ([], k)
                              | SNode n :: t => let (ns, k') := go t k in (n :: ns, k')
                              | s :: t => let (n, k1) := mk_node s no_limits k in let (ns, k') := go t k1 in (n :: ns, k')
                              end) (map SAcct l) k = (debt_nodes l k, (k + Datatypes.length l)%nat)).
  { clear l. induction l as [|a l IH]; intros k; [cbn; f_equal; lia|]. cbn [map mk_node debt_nodes Datatypes.length]. rewrite IH. f_equal. lia. }
  rewrite G. reflexivity.
Qed.
Lemma debt_flat : forall l, NoDup l -> flat_list (fst (mk_node (SSeq (map SAcct l)) no_limits 0)) (debt_nodes l 1) l.
Proof.
  intros l N. rewrite debt_tree. split; [reflexivity|]. split; [reflexivity|].
  assert (G : forall l k, Forall2 leaf_of (debt_nodes l k) l).
  { clear. induction l as [|a l IH]; intros k; cbn; constructor; [split; reflexivity|apply IH]. }
  assert (I : forall l k, map t_id (debt_nodes l k) = seq k (Datatypes.length l)).
  { clear. induction l as [|a l IH]; intros k; cbn; [reflexivity|]. f_equal. apply IH. }
  split; [apply G|]. split; [|exact N]. rewrite I. change (t_id _) with 0%nat. change (NoDup (seq 0 (S (Datatypes.length l)))). apply seq_NoDup.
Qed.
Lemma strategy_sorted : forall P fuel w key debts av r, debt_payment P fuel w key debts av = Ok r ->
  exists s, (key = "Snowball"%string /\ s = snowball w debts \/ key = "Avalanche"%string /\ s = avalanche w debts) /\ Permutation s debts /\
    strategy_ordered P fuel s av true = Ok r.
Proof.
  intros P fuel w key debts av r H. unfold debt_payment in H.
  destruct (String.eqb_spec key "Snowball") as [E|_]; [exists (snowball w debts)|destruct (String.eqb_spec key "Avalanche") as [E|_]; [exists (avalanche w debts)|discriminate]].
  - split; [left; auto|]. split; [apply (C53_snowball w debts)|exact H].
  - split; [right; auto|]. split; [apply (C53_avalanche w debts)|exact H].
Qed.
(** C89: with money available, a debt gets anything only once every debt that is to be repaid first has its
    minimum payment, and more than its own minimum only once every debt that is to be repaid first takes no
    more; and while any debt takes more, no money is left over (all up to one unit of precision). *)
Theorem C89_payments_follow_strategy : forall P fuel w key debts av r mn mx,
  solver_ok_opt P -> deposits_exact P MinIn -> deposits_exact P MaxIn -> debts_ok P debts mn mx ->
  p_prec P < Qsum (dvals av) -> debt_payment P fuel w key debts (AMap av) = Ok r ->
  (forall a b, In a debts -> In b debts -> repaid_first w key debts a b ->
     (0 < acct_tx r b -> mn a < acct_tx r a + p_prec P) /\ (mn b < acct_tx r b -> full P (acct_tx r a) (mx a))) /\
  (forall a, In a debts -> full P (acct_tx r a) (mx a) \/ Qsum (dvals av) - p_prec P < total_tx r).
Proof.
  intros P fuel w key debts av r mn mx SO D1 D2 (Nd & NG & Lim) Ht H.
  destruct (strategy_sorted _ _ _ _ _ _ _ H) as (s & Ks & Pm & H'). unfold strategy_ordered, traversal_call in H'. cbn [bind] in H'.
  assert (Ns : NoDup s) by (eapply Permutation_NoDup; [apply Permutation_sym; exact Pm|exact Nd]).
  destruct (C80_list_filled_in_order_partial P fuel _ _ s (Qsum (dvals av)) r mn mx SO D1 D2 NG (debt_flat s Ns)) as (O1 & O2 & O3); auto.
  { intros a Ha. apply Lim. eapply Permutation_in; eauto. }
  split.
  - intros a b Ha Hb Fst.
    assert (B : before a b s).
    { assert (Ne : a <> b).
      { intros ->. destruct Fst as [[_ [K|[_ K]]]|[_ [K|[_ K]]]]; solve [now apply Qlt_irrefl in K|exact (before_asym _ _ _ Nd K K)]. }
      destruct Ks as [[-> ->]|[-> ->]], Fst as [[E K]|[E K]]; try discriminate.
      - eapply ordered_before; [apply C53_snowball| | | | |]; auto. destruct K as [K|[K1 K2]]; [left; cbn; lra|right; split; auto].
      - eapply ordered_before; [apply C53_avalanche| | | | |]; auto. destruct K as [K|[K1 K2]]; [left; cbn; lra|right; split; [cbn; lra|auto]]. }
    split; [now apply O1|now apply O2].
  - intros a Ha. apply O3. eapply Permutation_in; [apply Permutation_sym; exact Pm|exact Ha].
Qed.
Print Assumptions C89_payments_follow_strategy.
(** C89: payments are not negative and total at most what is available; no debt gets more than it takes *)
Theorem C89_payments_bounded : forall P fuel w key debts av r,
  world_ok P -> inflows_ok P MinIn -> inflows_ok P MaxIn -> p_prec P < Qsum (dvals av) ->
  debt_payment P fuel w key debts (AMap av) = Ok r ->
  (forall a t v, In (a, t) r -> In v (dvals t) -> 0 <= v) /\ total_tx r <= Qsum (dvals av) /\
  (forall a l L, p_limit P MinIn a = Ok (Fin l) -> p_limit P MaxIn a = Ok (Fin L) -> 0 <= l <= L ->
     p_grp P MinIn a = None -> p_grp P MaxIn a = None -> acct_tx r a <= L).
Proof.
  intros P fuel w key debts av r W I1 I2 Ht H. destruct (strategy_sorted _ _ _ _ _ _ _ H) as (s & _ & _ & H'). unfold strategy_ordered, traversal_call in H'. cbn [bind] in H'.
  destruct (C55_inflows_within_available _ _ _ _ _ W I1 I2 Ht H') as [K1 K2]. split; [exact K1|]. split; [exact K2|].
  intros a l L L1 L2 B G1 G2. eapply C55_inflow_account_limit; eauto.
Qed.
Print Assumptions C89_payments_bounded.
(** C89: with nothing available nothing is paid, and nothing is taken from the debts either *)
Theorem C89_nothing_available : forall P fuel w key debts av r,
  world_ok P -> outflows_ok P MinOut -> outflows_ok P MaxOut -> NoDup debts ->
  (forall a, In a debts -> p_limit P MaxOut a = Ok (Fin 0) /\ p_grp P MaxOut a = None) ->
  Qsum (dvals av) <= 0 -> debt_payment P fuel w key debts (AMap av) = Ok r -> forall a, In a debts -> acct_tx r a == 0.
Proof.
  intros P fuel w key debts av r W O1 O2 Nd Lim Ht H a Ha. destruct (strategy_sorted _ _ _ _ _ _ _ H) as (s & _ & Pm & H'). unfold strategy_ordered, traversal_call in H'. cbn [bind] in H'.
  assert (Ns : NoDup s) by (eapply Permutation_NoDup; [apply Permutation_sym; exact Pm|exact Nd]).
  destruct (Lim a Ha) as [L G]. pose proof W as (Hp & _).
  destruct (Qlt_le_dec (Qsum (dvals av)) (- p_prec P)) as [Lt|Ge].
  - pose proof (flat_proper _ _ _ (debt_flat s Ns)) as PT.
    assert (RL : t_lims (fst (mk_node (SSeq (map SAcct s)) no_limits 0)) MinOut = None) by (rewrite debt_tree; reflexivity).
    pose proof (C55_outflow_account_limit _ _ _ _ _ a 0 W O1 O2 PT RL Lt L (Qle_refl 0) G H') as B1.
    destruct (C55_outflows_within_available _ _ _ _ _ W O1 O2 PT RL Lt H') as [B2 _].
    assert (B3 : acct_tx r a <= 0).
    { unfold acct_tx. destruct (dget Nat.eqb r a) as [t|] eqn:E; [|lra]. assert (I : exists b, In (b, t) r).
      { clear -E. induction r as [|[b x] r IH]; cbn in E; [discriminate|]. destruct (Nat.eqb a b); [injection E as <-; exists b; now left|]. destruct (IH E) as [c Hc]. exists c. now right. }
      destruct I as [b I]. specialize (B2 b t). unfold tx_of. clear -B2 I. assert (K : forall v, In v (dvals t) -> v <= 0) by (intros; eapply B2; eauto). clear B2 I.
      induction (dvals t) as [|v l IH]; cbn [Qsum]; [lra|]. pose proof (K v (or_introl eq_refl)). assert (Qsum l <= 0) by (apply IH; intros; apply K; now right). lra. }
    lra.
  - unfold call in H'. assert (E1 : Qlt_bool (p_prec P) (Qsum (dvals av)) = false) by (destruct (Qlt_bool (p_prec P) (Qsum (dvals av))) eqn:E; [apply Qlt_bool_t in E; lra|reflexivity]).
    assert (E2 : Qlt_bool (Qsum (dvals av)) (- p_prec P) = false) by (destruct (Qlt_bool (Qsum (dvals av)) (- p_prec P)) eqn:E; [apply Qlt_bool_t in E; lra|reflexivity]).
    rewrite E1, E2 in H'. injection H' as <-. reflexivity.
Qed.
Print Assumptions C89_nothing_available.
(** C89: when [total] is given, it - not what [available] sums to - is what a traversal distributes over a
    list of accounts in order: at most that much, and all of it while some account takes more *)
Theorem C89_given_total : forall P fuel accounts av t am r mn mx,
  world_ok P -> solver_ok_opt P -> deposits_exact P MinIn -> deposits_exact P MaxIn -> debts_ok P accounts mn mx -> p_prec P < t ->
  inflows_ok P MinIn -> inflows_ok P MaxIn ->
  traversal_call P fuel (fst (mk_node (SSeq (map SAcct accounts)) no_limits 0)) av (Some t) am = Ok r ->
  total_tx r <= t /\
  (forall a b, In a accounts -> In b accounts -> before a b accounts ->
     (0 < acct_tx r b -> mn a < acct_tx r a + p_prec P) /\ (mn b < acct_tx r b -> full P (acct_tx r a) (mx a))) /\
  (forall a, In a accounts -> full P (acct_tx r a) (mx a) \/ t - p_prec P < total_tx r).
Proof.
  intros P fuel l av t am r mn mx W SO D1 D2 (Nd & NG & Lim) Ht I1 I2 H. unfold traversal_call in H. cbn [bind] in H.
  destruct (C80_list_filled_in_order_partial P fuel _ _ l t r mn mx SO D1 D2 NG (debt_flat l Nd)) as (O1 & O2 & O3); auto.
  split; [apply (C55_inflows_within_available _ _ _ _ _ W I1 I2 Ht H)|].
  split; [intros a b Ha Hb B; split; [now apply O1|now apply O2]|exact O3].
Qed.
Print Assumptions C89_given_total.
(** refuted: a single amount, which the documentation allows for [available], always fails *)
Theorem C89_single_amount_refuted : forall P fuel w key debts q, key = "Snowball"%string \/ key = "Avalanche"%string ->
  debt_payment P fuel w key debts (AMoney q) = Err AttributeError.
Proof. intros P fuel w key debts q [->| ->]; reflexivity. Qed.
Print Assumptions C89_single_amount_refuted.
(** 60 to deposit: minimums of 10 first, then 20 and 10 *)
Definition amount60 (g : graph) (i : nat) : Z := (if cap_or g (Acc i) Snk 0 =? 10 then 10 else match i with 1%nat => 20 | 2%nat => 10 | _ => 0 end)%Z.
Definition demo60 : env := {|
  p_limit := p_limit demo_in; p_tx := p_tx demo_in; p_grp := p_grp demo_in; p_prec := 1;
  p_flow := opt_solver (fun g => path_flow (map (fun i => (lane_nodes i, amount60 g i)) [1; 2; 3]%nat))
              (fun g u => match edge_of g Src (TN 0) with
                          | Some {| e_cap := Some c |} => if (c =? amount60 g 1%nat + amount60 g 2%nat + amount60 g 3%nat)%Z then (match u with Src => 0 | _ => 1 end)%Z else (match u with Snk => 1 | _ => 0 end)%Z
                          | _ => match u with TN 0 | TLim 0 | Src => 0 | _ => 1 end%Z end)
              (fun g u => match u with TN i | TLim i | Acc i => weight g (TLim 0) (TN i) | Snk => if (cap_or g (Acc 1) Snk 0 =? 10)%Z then 2 else 1 | _ => 0 end)%Z;
  p_hash := fun l => l |}.
Lemma demo60_ok : solver_ok_opt demo60 /\ (forall k, deposits_exact demo60 k).
Proof.
  split.
  - split; [reflexivity|]. split; [|auto]. intros g f H. eapply opt_solver_ok. exact H.
  - intros k a x t L _ _ _ H. cbn in H. injection H as <-. unfold tx_of. cbn. lra.
Qed.
Definition demo_rates : aview := {| v_mro := fun _ => []; v_debt := fun _ => true; v_balance := fun a => - inject_Z (Z.of_nat a); v_rate := fun a => 1 / inject_Z (Z.of_nat a) |}.
Example C89_sat : solver_ok_opt demo60 /\ (forall k, deposits_exact demo60 k) /\
  debts_ok demo60 [3; 1; 2]%nat (fun _ => 10) (fun a => Fin (demo3_max a)) /\
  repaid_first demo_rates "Avalanche" [3; 1; 2]%nat 1 3 /\ repaid_first demo_rates "Snowball" [3; 1; 2]%nat 1 2 /\
  exists r, debt_payment demo60 20 demo_rates "Avalanche" [3; 1; 2]%nat (AMap [(0, 40); (1#2, 20)]) = Ok r /\
    acct_tx r 1 == 30 /\ acct_tx r 2 == 20 /\ acct_tx r 3 == 10.
Proof.
  destruct demo60_ok as (S & D).
  split; [exact S|]. split; [exact D|]. split.
  - split; [repeat constructor; cbn; intuition discriminate|]. split; [intros; split; reflexivity|]. intros a _. split; [reflexivity|]. split; [reflexivity|]. split; [discriminate|].
    unfold demo3_max, within. destruct a as [|[|[|a]]]; discriminate.
  - split; [right; split; [reflexivity|left; reflexivity]|]. split; [left; split; [reflexivity|left; reflexivity]|].
    eexists. split; [vm_compute; reflexivity|]. repeat split; vm_compute; reflexivity.
Qed.
(** refuted: asking for minimums not to be assigned ([assign_min=False]: "the strategy will move directly to
    assigning up to the maximum") does not prevent it: account 3 gets its minimum although account 2, which
    comes before it, takes more *)
Theorem C89_assign_min_refuted : exists P fuel root total r, solver_ok_opt P /\ (forall k, deposits_exact P k) /\
  root = fst (mk_node (SSeq (map SAcct [1; 2; 3]%nat)) no_limits 0) /\
  traversal_call P fuel root (AMap [(0, total)]) None false = Ok r /\ 0 < acct_tx r 3 /\ ~ full P (acct_tx r 2) (Fin (demo3_max 2)) /\
  p_limit P MaxIn 2%nat = Ok (Fin (demo3_max 2)).
Proof.
  destruct demo60_ok as (S & D).
  exists demo60, 20%nat, demo3, 60. eexists. split; [exact S|]. split; [exact D|]. split; [reflexivity|]. split; [vm_compute; reflexivity|]. split; [reflexivity|]. split; [|reflexivity].
  vm_compute. discriminate.
Qed.
Print Assumptions C89_assign_min_refuted.

(** ** C90 *)
(** a tree with an account in it *)
Definition has_account (root : tnode) : Prop := exists f a l, accounts_of f root = Ok (a :: l).

Section NoLimit.
  Variables (P : env) (memo : flowd) (k : lk).
  Hypothesis Bad : forall a x, p_limit P k a <> Ok x.
  Definition no_acct (n : tnode) : Prop := forall f l, accounts_of f n = Ok l -> l = [].
  Lemma kids_none : forall n cs, (forall a, body_src (t_body n) <> TLeaf a) -> children_of n = Ok cs -> (forall c, In c cs -> no_acct c) -> no_acct n.
  Proof.
    intros n cs NL C H [|f] l A; [discriminate|]. cbn [accounts_of] in A.
    assert (A' : (fix go l := match l with [] => Ok [] | c :: r => let* x := accounts_of f c in let* y := go r in Ok (x ++ y) end) cs = Ok l).
    { destruct (body_src (t_body n)) eqn:E; try (now destruct (NL a)); rewrite C in A; exact A. }
    clear A C. revert l A'. induction cs as [|c cs IH]; intros l A; [now injection A as <-|].
    destruct (accounts_of f c) as [x|] eqn:X; [|discriminate]. cbn [bind] in A.
    match type of A with bind ?Y _ = _ => destruct Y as [y|] eqn:Y1; [|discriminate] end. cbn [bind] in A. injection A as <-.
    rewrite (H c (or_introl eq_refl) f x X). rewrite (IH (fun d Hd => H d (or_intror Hd)) y eq_refl). reflexivity.
  Qed.
  Lemma totals_keys : forall u cap norm l ts, totals_of memo u cap norm l = Ok ts -> map fst ts = map fst l.
  Proof.
    intros u cap norm l. induction l as [|[c w] l IH]; intros ts H; cbn in H; [now injection H as <-|].
    destruct (qdiv (cap * w) norm); [|discriminate]. cbn [bind] in H. destruct (totals_of memo u cap norm l) as [t|]; [|discriminate]. cbn [bind] in H. injection H as <-. cbn. f_equal. now apply IH.
  Qed.
  Lemma built_none : forall fuel,
    (forall g n cap ov g', add_successors P memo k fuel g n cap None ov = Ok g' -> no_acct n) /\
    (forall g n l cap ov g', add_weighted_children P memo k fuel g n l cap ov = Ok g' -> forall c, In c (map fst l) -> no_acct c).
  Proof.
    induction fuel as [|f [IH1 IH2]]; [split; intros; discriminate|]. split.
    - intros g n cap ov g' H. rewrite successors_S in H. cbv zeta in H. destruct (embed_limit P memo k g n cap) as [g1 c1].
      destruct (body_src (t_body n)) as [a|l|l|b] eqn:B.
      + unfold add_account in H. destruct (p_limit P k a) as [x|] eqn:L; [|discriminate]. now apply Bad in L.
      + destruct (children_of n) as [cs|] eqn:C; [|discriminate]. cbn [bind] in H. apply (kids_none n cs); [congruence|exact C|].
        clear C B. revert H. generalize 0%Z. revert g1. induction cs as [|c cs IHc]; intros g1 w H d Hd; [destruct Hd|].
        match type of H with bind ?X _ = _ => destruct X as [g2|] eqn:X2; [|discriminate] end. cbn [bind] in H.
        destruct (sum_weight f g2 (TN (t_id c))); [|discriminate]. cbn [bind] in H. destruct Hd as [<-|Hd]; [eapply IH1; exact X2|eapply IHc; eauto].
      + destruct (t_body n) as [a|l'|l'|b'] eqn:TB; try discriminate. cbn [bind] in H.
        assert (C : children_of n = Ok (map fst l')) by (unfold children_of; now rewrite TB).
        apply (kids_none n (map fst l')); [rewrite TB; cbn; congruence|exact C|].
        match type of H with bind ?X _ = _ => destruct X as [g3|] eqn:X3; [|discriminate] end. eapply IH2. exact X3.
      + discriminate.
    - intros g n l cap ov g' H c Hc. rewrite weighted_S in H. cbv zeta in H.
      match type of H with bind ?X _ = _ => destruct X as [fl0|]; [|discriminate] end. cbn [bind] in H.
      match type of H with bind ?X _ = _ => destruct X as [ts|] eqn:T; [|discriminate] end. cbn [bind] in H.
      pose proof (totals_keys _ _ _ _ _ T) as K. rewrite <- K in Hc. apply in_map_iff in Hc. destruct Hc as ([c' t] & Ec & Ht). cbn in Ec. subst c'.
      assert (Loop : forall ts g g', (fix go g ts := match ts with [] => Ok g | (c, t) :: r =>
               let* g' := add_successors P memo k f (add_edge [] g (TLim (t_id n)) (TN (t_id c)) (Some (Fin t)) None) c None None ov in go g' r end) g ts = Ok g' ->
               forall c, In c (map fst ts) -> no_acct c).
      { clear - IH1. induction ts as [|[c t] ts IHt]; intros g g' H d Hd; [destruct Hd|].
        match type of H with bind ?X _ = _ => destruct X as [g2|] eqn:X2; [|discriminate] end. cbn [bind] in H. destruct Hd as [<-|Hd]; [eapply IH1; exact X2|eapply IHt; eauto]. }
      match type of H with bind ?X _ = _ => destruct X as [[gw tw]|] eqn:G; [|discriminate] end. cbn [bind fst snd] in H.
      pose proof (Loop _ _ _ H) as Done. destruct (filter (fun t0 => Qlt_bool (snd t0) 0) ts) as [|x neg] eqn:N.
      + injection G as <- <-. apply Done. apply in_map_iff. exists (c, t). auto.
      + match type of G with bind ?X _ = _ => destruct X as [ga|] eqn:Xa; [|discriminate] end. cbn [bind] in G. injection G as <- <-.
        destruct (Qlt_bool 0 t) eqn:Pos.
        * eapply IH2; [exact Xa|]. assert (In c (map fst l)) as Hl by (rewrite <- K; apply in_map_iff; exists (c, t); auto).
          apply in_map_iff in Hl. destruct Hl as ([c' w] & Ec & Hl). cbn in Ec. subst c'. apply in_map_iff. exists (c, w). split; [reflexivity|].
          apply filter_In. split; [exact Hl|]. apply existsb_exists. exists (c, t). split; [exact Ht|]. cbn [fst snd]. rewrite Pos. unfold node_eqb. now rewrite Nat.eqb_refl.
        * apply Done. rewrite map_map. cbn [fst]. apply in_map_iff. exists (c, t). split; [reflexivity|]. apply filter_In. split; [exact Ht|]. cbn [snd].
          apply Qlt_bool_f in Pos. destruct (Qle_bool t 0) eqn:Q; [reflexivity|]. apply Qle_bool_f in Q. lra.
  Qed.
  Lemma traverse_none : forall fuel root total r, has_account root -> traverse P fuel root memo total k <> Ok r.
  Proof.
    intros fuel root total r (f & a & l & A) H. unfold traverse, build_graph in H.
    match type of H with bind (bind ?X _) _ = _ => destruct X as [g|] eqn:G; [|discriminate] end.
    pose proof (proj1 (built_none fuel) _ _ _ _ _ G f _ A). discriminate.
  Qed.
End NoLimit.

(** refuted: with custom methods of either kind -- a LimitTuple of functions, as documented, or anything else --
    no traversal of a tree with an account in it ever succeeds, unless there is nothing to allocate *)
Theorem C90_custom_methods_refuted : forall dtm dgm tm gm prec flow hash fuel root total r,
  tm <> VNone \/ gm <> VNone -> has_account root -> (prec < total \/ total < - prec) ->
  call (env_of (init_methods dtm tm) (init_methods dgm gm) prec flow hash) fuel root total <> Ok r.
Proof.
  intros dtm dgm tm gm prec flow hash fuel root total r Cust HA Ht H.
  set (P := env_of (init_methods dtm tm) (init_methods dgm gm) prec flow hash) in *.
  assert (Bad : forall k, k = MaxIn \/ k = MaxOut -> forall a x, p_limit P k a <> Ok x).
  { intros k Hk a x L. subst P. cbn in L. destruct Cust as [C|C].
    - assert (E : select (init_methods dtm tm) k a = Err TypeError) by (unfold init_methods; destruct tm; [contradiction| |]; destruct Hk as [->| ->]; reflexivity).
      rewrite E in L. discriminate.
    - assert (E : select (init_methods dgm gm) k a = Err TypeError) by (unfold init_methods; destruct gm; [contradiction| |]; destruct Hk as [->| ->]; reflexivity).
      rewrite E in L. destruct (select (init_methods dtm tm) k a) as [m|]; [|discriminate]. cbn [bind] in L. destruct (m_limit m); discriminate. }
  unfold call in H. destruct (Qlt_bool (p_prec P) total) eqn:E1.
  - destruct (traverse P fuel root [] (Fin total) MinIn) as [[mn memo]|]; [|discriminate]. cbn [bind] in H.
    destruct (traverse P fuel root memo (Fin total) MaxIn) as [[mx m2]|] eqn:T; [|discriminate].
    exact (traverse_none P memo MaxIn (Bad MaxIn (or_introl eq_refl)) _ _ _ _ HA T).
  - destruct (Qlt_bool total (- p_prec P)) eqn:E2.
    + destruct (traverse P fuel root [] (Inf false) MinOut) as [[mn memo]|]; [|discriminate]. cbn [bind] in H.
      destruct (traverse P fuel root memo (Fin total) MaxOut) as [[mx m2]|] eqn:T; [|discriminate].
      exact (traverse_none P memo MaxOut (Bad MaxOut (or_intror eq_refl)) _ _ _ _ HA T).
    + apply Qlt_bool_f in E1, E2. subst P. cbn in E1, E2. lra.
Qed.
Print Assumptions C90_custom_methods_refuted.
(** the documented use: a LimitTuple of four functions for a leaf that is not an account.  The same functions
    installed as the defaults work. *)
Definition own_methods : lk -> pyv txm := fun k => VFun (fun _ => Ok {| m_limit := Ok (Fin (match k with MinIn => 10 | MaxIn => 50 | _ => 0 end)); m_tx := fun q => Ok [(1#2, q)] |}).
Definition one_leaf : tnode := fst (mk_node (SAcct 1) no_limits 0).
Definition own_flow (g : graph) : res (gnode -> gnode -> Z) := Ok (path_flow [([Src; TN 0; TLim 0; Acc 1; Snk], if (cap_or g (Acc 1) Snk 0 =? 10)%Z then 10%Z else 40%Z)]).
Example C90_sat : has_account one_leaf /\
  call (env_of (init_methods own_methods VNone) (init_methods (fun _ => VFun (fun _ => Ok None)) VNone) 1 own_flow (fun l => l)) 20 one_leaf 100 = Ok [(1%nat, [(1#2, 50)])] /\
  call (env_of (init_methods own_methods (VTuple own_methods)) (init_methods (fun _ => VFun (fun _ => Ok None)) VNone) 1 own_flow (fun l => l)) 20 one_leaf 100 = Err TypeError.
Proof. split; [exists 1%nat, 1%nat, []; reflexivity|]. split; vm_compute; reflexivity. Qed.
