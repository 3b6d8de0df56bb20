(** C95: the limits put on a node of the priority tree bound what the accounts below it get. *)
From Verif Require Import Base BaseFacts TxGraphModel TxFlowFacts TxFlowShape TxFlowAccounts TxFlowZero TxFlowNode Prop_TxGraph.
From Coq Require Import Permutation Lia ZArith Lqa.

(** ** Specification *)
(** [tree_nodes n] (TxFlowNode) lists a node and everything below it, [distinct_nodes root] says that
    no TransactionNode object occurs twice in the tree (always so for trees made of lists and dicts of
    accounts).  A leaf stands for an account; accounts may have several leaves. *)
Definition stands_for (p : tnode) (a : nat) : Prop := body_src (t_body p) = TLeaf a.
(** all of the accounts' leaves are below [n] *)
Definition only_below (root n : tnode) (accs : list nat) : Prop :=
  forall a p, In a accs -> In p (tree_nodes root) -> stands_for p a -> In p (tree_nodes n).
(** every account below [n] is listed *)
Definition all_below (n : tnode) (accs : list nat) : Prop := forall a p, In p (tree_nodes n) -> stands_for p a -> In a accs.

(** ** Inflows *)
Lemma node_second : forall P fuel root total r n M members,
  world_ok P -> inflows_ok P MinIn -> inflows_ok P MaxIn -> p_prec P < total -> distinct_nodes root -> In n (tree_nodes root) ->
  t_lims n MaxIn = Some M -> NoDup members -> only_below root n members ->
  (forall g f sc, shape P [] MinIn (t_id root) sc g -> wiring P [] MinIn root g -> feasible g f -> p_prec P * fl (outflow g f (TN (t_id n))) <= M) ->
  call P fuel root total = Ok r -> Qsum (map (acct_tx r) members) <= M.
Proof.
  intros P fuel root total r n M mem W C1 C2 Ht DN Nr LM ND Own First H. pose proof W as (Hp & _ & Hh). unfold call in H.
  assert (E : Qlt_bool (p_prec P) total = true) by (destruct (Qlt_bool (p_prec P) total) eqn:E; [reflexivity|apply Qlt_bool_f in E; lra]). rewrite E in H.
  destruct (traverse P fuel root [] (Fin total) MinIn) as [[mn memo]|] eqn:T1; [|discriminate]. cbn [bind] in H.
  destruct (traverse P fuel root memo (Fin total) MaxIn) as [[mx memo2]|] eqn:T2; [|discriminate]. cbn [bind] in H. injection H as <-.
  assert (T0 : 0 <= total) by lra.
  destruct (pass_in _ _ _ _ _ _ _ _ W C1 T0 T1) as (g1 & f1 & B1 & F1 & S1 & M1 & N1 & P1 & L1).
  destruct (pass_in _ _ _ _ _ _ _ _ W C2 T0 T2) as (g2 & f2 & B2 & F2 & S2 & M2 & N2 & P2 & L2).
  pose proof (build_wiring _ _ _ _ _ _ _ Hh DN B1) as W1. pose proof (build_wiring _ _ _ _ _ _ _ Hh DN B2) as W2.
  assert (SUM : Qsum (map (acct_tx (combine_tx mx mn)) mem) == Qsum (map (acct_tx mx) mem) + Qsum (map (acct_tx mn) mem)).
  { clear -N1. induction mem as [|a mem IH]; cbn [map Qsum]; [lra|]. rewrite IH, combine_acct by exact N1. lra. }
  rewrite SUM. set (x1 := outflow g1 f1 (TN (t_id n))).
  assert (X : p_prec P * fl x1 <= M) by (eapply First; eauto).
  assert (D1 : fl x1 <= M / p_prec P) by (apply Qle_shift_div_l; [exact Hp|lra]).
  destruct (capx_bound P M x1 Hp D1) as (c2 & J1 & J2 & J3).
  assert (A2 : (outflow g2 f2 (TN (t_id n)) <= c2)%Z).
  { apply (node_cap_le P memo MaxIn root n _ g2 f2 S2 W2 F2 Nr M c2 LM); [|exact J2].
    subst memo. rewrite memo_out; [exact J1|apply (sh_wf _ _ _ _ _ _ S1)|exact F1]. }
  pose proof (list_le (p_prec P) (fun a => outflow g1 f1 (Acc a)) mn mem ltac:(lra) (fun b => out_pos g1 f1 F1 (Acc b)) L1) as X1.
  pose proof (list_le (p_prec P) (fun a => outflow g2 f2 (Acc a)) mx mem ltac:(lra) (fun b => out_pos g2 f2 F2 (Acc b)) L2) as X2.
  pose proof (fl_le _ _ (node_accounts_le _ _ _ _ _ _ _ _ S1 W1 F1 DN Nr mem ND Own)) as Y1.
  pose proof (fl_le _ _ (node_accounts_le _ _ _ _ _ _ _ _ S2 W2 F2 DN Nr mem ND Own)) as Y2.
  fold x1 in Y1. rewrite fl_add in J3. apply fl_le in A2. nra.
Qed.
(** C95: a node with a minimum and a maximum inflow: whatever the accounts below it allow and however
    the tree is built, they are never assigned more than the node's maximum between them *)
Theorem C95_inflow_node_limit : forall P fuel root total r n m M members,
  world_ok P -> inflows_ok P MinIn -> inflows_ok P MaxIn -> p_prec P < total -> distinct_nodes root -> In n (tree_nodes root) ->
  t_lims n MinIn = Some m -> t_lims n MaxIn = Some M -> 0 <= m <= M ->
  NoDup members -> only_below root n members ->
  call P fuel root total = Ok r -> Qsum (map (acct_tx r) members) <= M.
Proof.
  intros P fuel root total r n m M mem W C1 C2 Ht DN Nr Lm LM B ND Own H. eapply node_second; eauto.
  intros g f sc S Wi F. destruct W as (Hp & _). assert (D0 : 0 <= m / p_prec P) by (apply Qle_shift_div_l; [exact Hp|lra]).
  destruct (capx_bound P m 0 Hp D0) as (c1 & K1 & K2 & K3). replace (c1 + 0)%Z with c1 in K3 by lia.
  pose proof (fl_le _ _ (node_cap_le P [] MinIn root n _ g f S Wi F Nr m c1 Lm K1 K2)). nra.
Qed.
Print Assumptions C95_inflow_node_limit.
(** C95: a node with only a maximum inflow: the accounts below it never get more than the maximum
    between them if their own minimums do not already exceed it *)
Theorem C95_inflow_node_maximum : forall P fuel root total r n M below_n l members,
  world_ok P -> inflows_ok P MinIn -> inflows_ok P MaxIn -> p_prec P < total -> distinct_nodes root -> In n (tree_nodes root) ->
  t_lims n MaxIn = Some M ->
  NoDup below_n -> all_below n below_n ->
  (forall a, In a below_n -> p_grp P MinIn a = None /\ p_limit P MinIn a = Ok (Fin (l a)) /\ 0 <= l a) -> Qsum (map l below_n) <= M ->
  NoDup members -> only_below root n members ->
  call P fuel root total = Ok r -> Qsum (map (acct_tx r) members) <= M.
Proof.
  intros P fuel root total r n M bl l mem W C1 C2 Ht DN Nr LM NB All Mins Sum ND Own H. eapply node_second; eauto.
  intros g f sc S Wi F. destruct W as (Hp & _).
  pose proof (fl_le _ _ (leave_le _ _ _ _ _ _ _ _ S Wi F DN Nr bl NB All)) as K.
  enough (p_prec P * fl (Zsum (map (fun a => outflow g f (Acc a)) bl)) <= Qsum (map l bl)).
  { eapply Qle_trans; [|exact Sum]. eapply Qle_trans; [|exact H0]. rewrite !(Qmult_comm (p_prec P)). apply Qmult_le_compat_r; [exact K|lra]. }
  clear K NB All Sum ND Own. induction bl as [|a bl IH]; cbn [map Qsum]; [unfold fl, inject_Z; cbn; lra|].
  change (Zsum (outflow g f (Acc a) :: map (fun a => outflow g f (Acc a)) bl)) with (outflow g f (Acc a) + Zsum (map (fun a => outflow g f (Acc a)) bl))%Z.
  rewrite fl_add. specialize (IH ltac:(intros b Hb; apply Mins; now right)). destruct (Mins a (or_introl eq_refl)) as (G1 & L1 & L2).
  assert (D0 : 0 <= l a / p_prec P) by (apply Qle_shift_div_l; [exact Hp|lra]).
  destruct (capx_bound P (l a) 0 Hp D0) as (c1 & K1 & K2 & K3). replace (c1 + 0)%Z with c1 in K3 by lia.
  assert (A1 : (outflow g f (Acc a) <= c1)%Z) by (refine (acc_le P [] MinIn (t_id root) _ g f S F a (Fin (l a)) c1 L1 _ K2); rewrite G1; exact K1).
  apply fl_le in A1. nra.
Qed.
Print Assumptions C95_inflow_node_maximum.

(** ** Withdrawals *)
Lemma distinct_proper : forall root, distinct_nodes root -> proper_tree root.
Proof.
  intros root D n c B C E. assert (N : In n (tree_nodes root)).
  { clear C E. induction B as [|m d B IH Cd]; [apply tree_self|]. apply child_kids in Cd. eapply tree_child; eauto. }
  apply child_kids in C. assert (c = root) as -> by (exact (distinct_id root c root D (tree_child root n c N C) (tree_self root) E)).
  rewrite tree_eq in N. destruct N as [<-|N].
  - eapply (distinct_not_self root root root D C (tree_self root)). reflexivity.
  - apply in_flat_map in N. destruct N as (k & K1 & K2). eapply (distinct_not_self root k root D K1); [|reflexivity]. eapply tree_child; eauto.
Qed.
(** C95: a node with a maximum outflow (a negative number): no more than that is withdrawn from the
    accounts below it *)
Theorem C95_outflow_node_limit : forall P fuel root total r n M members,
  world_ok P -> outflows_ok P MinOut -> outflows_ok P MaxOut -> total < - p_prec P -> distinct_nodes root -> In n (tree_nodes root) ->
  t_lims root MinOut = None -> t_lims n MaxOut = Some M -> M <= 0 ->
  NoDup members -> only_below root n members ->
  call P fuel root total = Ok r -> M <= Qsum (map (acct_tx r) members).
Proof.
  intros P fuel root total r n M mem W C1 C2 Ht DN Nr RL LM HM ND Own H. pose proof W as (Hp & Fl & Hh). unfold call in H.
  assert (E : Qlt_bool (p_prec P) total = false) by (destruct (Qlt_bool (p_prec P) total) eqn:E; [apply Qlt_bool_t in E; lra|reflexivity]). rewrite E in H.
  assert (E2 : Qlt_bool total (- p_prec P) = true) by (destruct (Qlt_bool total (- p_prec P)) eqn:E2; [reflexivity|apply Qlt_bool_f in E2; lra]). rewrite E2 in H.
  destruct (traverse P fuel root [] (Inf false) MinOut) as [[mn memo]|] eqn:T1; [|discriminate]. cbn [bind] in H.
  destruct (traverse P fuel root memo (Fin total) MaxOut) as [[mx memo2]|] eqn:T2; [|discriminate]. cbn [bind] in H. injection H as <-.
  assert (T0 : total < 0) by lra.
  destruct (pass_out P fuel root [] (Inf false) MinOut mn memo W C1 (@eq_refl bool false) T1) as (g1 & f1 & B1 & F1 & S1 & M1 & N1 & P1 & L1).
  destruct (pass_out _ _ _ _ (Fin total) _ _ _ W C2 T0 T2) as (g2 & f2 & B2 & F2 & S2 & M2 & N2 & P2 & L2).
  pose proof (build_wiring _ _ _ _ _ _ _ Hh DN B1) as W1. pose proof (build_wiring _ _ _ _ _ _ _ Hh DN B2) as W2.
  pose proof (min_outflow_graph P MinOut root fuel false g1 Hh Fl RL (distinct_proper root DN) B1 f1 F1) as Z1.
  assert (Z2 : forall a, outflow g1 f1 (Acc a) = 0%Z).
  { intros a. pose proof (some_accounts_le _ _ _ _ _ _ _ S1 F1 [a] ltac:(constructor; [intros []|constructor])) as K.
    pose proof (out_pos g1 f1 F1 (Acc a)). cbn in K. lia. }
  assert (Z3 : outflow g1 f1 (TN (t_id n)) = 0%Z).
  { set (accs := nodup Nat.eq_dec (flat_map (fun p => match body_src (t_body p) with TLeaf a => [a] | _ => [] end) (tree_nodes n))).
    assert (All : all_below n accs).
    { intros a p Hp1 Hp2. apply nodup_In, in_flat_map. exists p. split; [exact Hp1|]. red in Hp2. rewrite Hp2. now left. }
    pose proof (leave_le _ _ _ _ _ _ _ _ S1 W1 F1 DN Nr accs (NoDup_nodup _ _) All) as K.
    rewrite Zsum_zero in K by (intros; apply Z2). pose proof (out_pos g1 f1 F1 (TN (t_id n))). lia. }
  assert (SUM : Qsum (map (acct_tx (combine_tx mx mn)) mem) == Qsum (map (acct_tx mx) mem) + Qsum (map (acct_tx mn) mem)).
  { clear -N1. induction mem as [|a mem IH]; cbn [map Qsum]; [lra|]. rewrite IH, combine_acct by exact N1. lra. }
  rewrite SUM.
  assert (X1 : 0 <= Qsum (map (acct_tx mn) mem)).
  { clear -L1 Z2. induction mem as [|a mem IH]; cbn [map Qsum]; [lra|].
    assert (0 <= acct_tx mn a); [|lra]. destruct (acct_in mn a) as [E|(t & T & E)]; rewrite E; [lra|]. specialize (L1 a t T). rewrite Z2 in L1. unfold fl, inject_Z in L1. lra. }
  assert (X2 : - (p_prec P * fl (Zsum (map (fun a => outflow g2 f2 (Acc a)) mem))) <= Qsum (map (acct_tx mx) mem)).
  { clear -L2 Hp F2. induction mem as [|a mem IH]; cbn [map Qsum]; [unfold fl, inject_Z; cbn; lra|].
    pose proof (acct_ge (p_prec P) (fun a => outflow g2 f2 (Acc a)) mx a ltac:(lra) (fun b => out_pos g2 f2 F2 (Acc b)) L2) as X. cbv beta in X.
    change (Zsum (outflow g2 f2 (Acc a) :: map (fun a => outflow g2 f2 (Acc a)) mem)) with (outflow g2 f2 (Acc a) + Zsum (map (fun a => outflow g2 f2 (Acc a)) mem))%Z.
    rewrite fl_add. nra. }
  pose proof (fl_le _ _ (node_accounts_le _ _ _ _ _ _ _ _ S2 W2 F2 DN Nr mem ND Own)) as Y2.
  assert (D : M / p_prec P <= 0) by (apply Qle_shift_div_r; lra).
  set (c := int_of (qabs (M / p_prec P - fl 0) - fl 0)).
  assert (A : qabs (M / p_prec P - fl 0) - fl 0 == - (M / p_prec P)).
  { unfold fl, inject_Z. destruct (qabs_case (M / p_prec P - 0)) as [[? Q]|[? Q]]; rewrite Q; lra. }
  assert (D2 : 0 <= qabs (M / p_prec P - fl 0) - fl 0) by (rewrite A; lra).
  destruct (int_le _ D2) as [I1 I2]. fold c in I1, I2. assert (I3 : fl c <= - (M / p_prec P)) by (rewrite <- A; exact I1).
  assert (A2 : (outflow g2 f2 (TN (t_id n)) <= c)%Z).
  { apply (node_cap_le P memo MaxOut root n _ g2 f2 S2 W2 F2 Nr M c LM); [|exact I2]. subst memo.
    rewrite memo_out; [|apply (sh_wf _ _ _ _ _ _ S1)|exact F1]. rewrite Z3. reflexivity. }
  apply fl_le in A2. assert (EM : p_prec P * (M / p_prec P) == M) by (field; lra). nra.
Qed.
Print Assumptions C95_outflow_node_limit.

(** ** Refuted part *)
Definition lims_in (mn mx : option Q) (mxo : option Q) : limits := fun k => match k with MinIn => mn | MaxIn => mx | MaxOut => mxo | MinOut => None end.
Definition limited_leaf (a : nat) (l : limits) : tnode := TNode 0 l (TLeaf a).
(** C95, refuted part: when the account's own minimum exceeds the node's maximum, the plan does not
    stop at the minimum: the second pass takes the (negative) remainder without its sign and assigns
    that much again.  Node maximum 10, account minimum 30: 50 is planned. *)
Theorem C95_node_limit_refuted : exists P fuel root total r a l M,
  world_ok P /\ inflows_ok P MinIn /\ inflows_ok P MaxIn /\ distinct_nodes root /\ t_lims root MaxIn = Some M /\ stands_for root a /\ 0 <= M /\
  p_limit P MinIn a = Ok (Fin l) /\ p_grp P MinIn a = None /\ p_prec P < total /\
  call P fuel root total = Ok r /\ acct_tx r a == l + (l - M) /\ M < l.
Proof.
  exists (demo_env 30 1000 0 0 (fun _ => false) 3), 10%nat, (limited_leaf 3 (lims_in None (Some 10) None)), 1000. eexists. exists 3%nat, 30, 10.
  destruct (demo_ok 30 1000 0 0 (fun _ => false) 3) as (W & I1 & _).
  split; [exact W|]. split; [apply I1|]. split; [apply I1|]. split; [repeat constructor; intros []|]. split; [reflexivity|]. split; [reflexivity|]. split; [discriminate|].
  split; [reflexivity|]. split; [reflexivity|]. split; [reflexivity|]. split; [vm_compute; reflexivity|]. split; vm_compute; reflexivity.
Qed.
Print Assumptions C95_node_limit_refuted.

(** ** Trees made of accounts, lists and dicts *)
Fixpoint plain (s : src) : Prop :=
  match s with
  | SAcct _ => True
  | SNode _ => False
  | SSeq l => (fix go l := match l with [] => True | x :: r => plain x /\ go r end) l
  | SDict l => (fix go l := match l with [] => True | (x, _) :: r => plain x /\ go r end) l
  end.
(** the objects made are numbered consecutively, so no two nodes of one tree are the same object *)
Definition numbered (ns : list tnode) (k k' : nat) : Prop :=
  (k <= k')%nat /\ NoDup (map t_id (flat_map tree_nodes ns)) /\ forall x, In x (flat_map tree_nodes ns) -> (k <= t_id x < k')%nat.
Lemma numbered_cons : forall n ns k k1 k', numbered [n] k k1 -> numbered ns k1 k' -> numbered (n :: ns) k k'.
Proof.
  intros n ns k k1 k' (A1 & A2 & A3) (B1 & B2 & B3). cbn [flat_map] in *. rewrite app_nil_r in A2, A3. split; [lia|]. cbn [flat_map]. split.
  - rewrite map_app. clear -A2 B2 A3 B3. induction (tree_nodes n) as [|x l IH]; [exact B2|]. cbn in *. inversion A2 as [|? ? N1 N2]; subst. constructor.
    + intros Q. apply in_app_or in Q. destruct Q as [Q|Q]; [contradiction|]. apply in_map_iff in Q. destruct Q as (y & Y1 & Y2). specialize (B3 y Y2). specialize (A3 x (or_introl eq_refl)). lia.
    + apply IH; auto.
  - intros x X. apply in_app_or in X. destruct X as [X|X]; [specialize (A3 x X)|specialize (B3 x X)]; lia.
Qed.
Lemma numbered_top : forall lims b k k', numbered (kids (TNode k lims b)) (S k) k' -> numbered [TNode k lims b] k k'.
Proof.
  intros lims b k k' (A1 & A2 & A3). split; [lia|]. unfold flat_map at 1 2. rewrite !app_nil_r. rewrite tree_eq. cbn [map t_id]. split.
  - constructor; [|exact A2]. intros Q. apply in_map_iff in Q. destruct Q as (y & Y1 & Y2). specialize (A3 y Y2). lia.
  - intros x [<-|X]; [cbn; lia|]. specialize (A3 x X). lia.
Qed.
Fixpoint mk_numbered (s : src) : forall lims k, plain s -> numbered [fst (mk_node s lims k)] k (snd (mk_node s lims k)).
Proof.
  intros lims k Pl. destruct s as [a|l|l|n]; [| | |destruct Pl].
  - cbn [mk_node fst snd]. apply numbered_top. cbn. split; [lia|]. split; [constructor|intros x []].
  - cbn [mk_node]. cbn [fst snd]. apply numbered_top. unfold kids. cbn [t_body].
    generalize (S k) as j. induction l as [|x l IH]; intros j.
    + cbn. split; [lia|]. split; [constructor|intros y []].
    + destruct Pl as [Px Pl]. pose proof (mk_numbered x no_limits j Px) as M1. destruct x as [a|l0|l0|n]; [| | |destruct Px];
        match goal with |- context [mk_node ?s no_limits j] => destruct (mk_node s no_limits j) as [n1 j1] end;
        cbn [fst snd] in M1; specialize (IH Pl j1);
        match goal with |- context [let (_, _) := ?X in _] => destruct X as [ns j2] end; cbn [fst snd] in *; eapply numbered_cons; eauto.
  - cbn [mk_node]. cbn [fst snd]. apply numbered_top. unfold kids. cbn [t_body].
    generalize (S k) as j. induction l as [|[x w] l IH]; intros j.
    + cbn. split; [lia|]. split; [constructor|intros y []].
    + destruct Pl as [Px Pl]. pose proof (mk_numbered x no_limits j Px) as M1. destruct x as [a|l0|l0|n]; [| | |destruct Px];
        match goal with |- context [mk_node ?s no_limits j] => destruct (mk_node s no_limits j) as [n1 j1] end;
        cbn [fst snd] in M1; specialize (IH Pl j1);
        match goal with |- context [let (_, _) := ?X in _] => destruct X as [ns j2] end; cbn [fst snd map] in *; eapply numbered_cons; eauto.
Qed.
Theorem C95_plain_trees_distinct : forall s lims k, plain s -> distinct_nodes (fst (mk_node s lims k)).
Proof. intros s lims k Pl. destruct (mk_numbered s lims k Pl) as (_ & N & _). cbn [flat_map] in N. rewrite app_nil_r in N. exact N. Qed.
Print Assumptions C95_plain_trees_distinct.

(** ** Non-vacuity *)
(** a tree of two nodes, the inner one limited, above one account with room for 1000 *)
Definition two_level (l : limits) : tnode := TNode 0 no_limits (TOrd [TNode 1 l (TLeaf 3)]).
Definition path2 (g : graph) : gnode -> gnode -> Z :=
  let m := Z.min (cap_or g Src (TN 0) 1000000) (Z.min (cap_or g (TLim 0) (TN 1) 1000000) (Z.min (cap_or g (TN 1) (TLim 1) 1000000) (Z.min (cap_or g (TLim 1) (Acc 3) 1000000) (cap_or g (Acc 3) Snk 1000000)))) in
  fun u v => match edge_of g u v with Some _ => m | None => 0%Z end.
Definition demo2 (mn mx mxo : Q) : env := {|
  p_limit := fun k _ => Ok (Fin (match k with MinIn => mn | MaxIn => mx | MinOut => 0 | MaxOut => mxo end));
  p_tx := fun k _ x => Ok [(1#2, x)]; p_grp := fun _ _ => None; p_prec := 1; p_flow := solver path2; p_hash := fun l => l |}.
Example C95_sat :
  let root := two_level (lims_in None (Some 70) (Some (- (40)))) in let n := TNode 1 (lims_in None (Some 70) (Some (- (40)))) (TLeaf 3) in
  let P := demo2 30 1000 (- (400)) in
  world_ok P /\ (forall k, inflows_ok P k) /\ (forall k, outflows_ok P k) /\ distinct_nodes root /\ In n (tree_nodes root) /\
  only_below root n [3%nat] /\ all_below n [3%nat] /\
  (exists r, call P 20 root 1000 = Ok r /\ acct_tx r 3 == 70) /\ (exists r, call P 20 root (- (500)) = Ok r /\ acct_tx r 3 == - (40)).
Proof.
  cbv zeta. split; [split; [reflexivity|]; split; [apply solver_ok|auto]|].
  split; [intros k b x t Hx H; cbn in H; injection H as <-; unfold tx_of; cbn; split; [intros v [<-|[]]; exact Hx|lra]|].
  split; [intros k b x t Hx H; cbn in H; injection H as <-; unfold tx_of; cbn; split; [intros v [<-|[]]; exact Hx|lra]|].
  split; [repeat constructor; cbn; intuition discriminate|]. split; [cbn; auto|].
  split; [intros a p [<-|[]] [<-|[<-|[]]] Q; [discriminate Q|now left]|]. split; [intros a p [<-|[]] Q; injection Q as <-; now left|].
  split; eexists; split; vm_compute; reflexivity.
Qed.
(** and with a minimum on the node too *)
Example C95_sat_both : let root := two_level (lims_in (Some 20) (Some 70) None) in
  exists r, call (demo2 30 1000 (- (400))) 20 root 1000 = Ok r /\ acct_tx r 3 == 70.
Proof. cbv zeta. eexists; split; vm_compute; reflexivity. Qed.
