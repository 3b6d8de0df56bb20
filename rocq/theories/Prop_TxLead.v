(** C106: the front of a priority list comes before everything after it. *)
From Verif Require Import Base BaseFacts TxGraphModel TxFlowFacts TxFlowShape TxFlowAccounts TxFlowZero TxFlowNode Prop_TxGraph Prop_TxOrder TxFlowLead TxFlowLine Prop_TxNode Prop_NodeLimit Prop_TxWeighted TxSolver.
From Coq Require Import Permutation Lia ZArith Lqa.
From Verif Require StrategyModel TxStratModel Prop_TxStrat.
Local Open Scope Q_scope.

(** ** Specification *)
(** accounts and lists of accounts, lists of lists, ...: no dicts (weighted groups), no nodes *)
Fixpoint nested_list (s : src) : Prop :=
  match s with
  | SAcct _ => True
  | SSeq l => (fix go l := match l with [] => True | c :: r => nested_list c /\ go r end) l
  | _ => False
  end.
(** the account is in the list, or in a list in the list, and so on; what else is in these lists does not
    matter *)
Fixpoint listed (s : src) (a : nat) : Prop :=
  match s with
  | SAcct b => b = a
  | SSeq l => (fix go l := match l with [] => False | c :: r => listed c a \/ go r end) l
  | _ => False
  end.
(** the item [d] heads the list, or it is itself an account (at any place) *)
Definition leads (pre : list src) (d : src) : Prop := nested_list d /\ (pre = [] \/ exists a, d = SAcct a).
(** the account's own limits for deposits and for withdrawals *)
Definition limits_in (P : env) (a : nat) (mn : Q) (mx : xnum) : Prop :=
  p_limit P MinIn a = Ok (Fin mn) /\ p_limit P MaxIn a = Ok mx /\ 0 <= mn /\ within mn mx.
Definition limits_out (P : env) (a : nat) (mx : Q) : Prop :=
  (exists m, p_limit P MinOut a = Ok (Fin m) /\ m <= 0) /\ p_limit P MaxOut a = Ok (Fin mx) /\ mx <= 0.

(** ** From sources to trees *)
Lemma seq_items : forall l k, plain (SSeq l) -> Forall2 (fun s n => exists j, n = fst (mk_node s no_limits j)) l (fst (seq_go l k)).
Proof.
  induction l as [|s l IH]; intros k Pl; [constructor|]. destruct Pl as [Ps Pl].
  assert (E : seq_go (s :: l) k = let (n, k1) := mk_node s no_limits k in let (ns, k') := seq_go l k1 in (n :: ns, k')) by (destruct s; [reflexivity..|destruct Ps]).
  rewrite E. destruct (mk_node s no_limits k) as [n k1] eqn:M. specialize (IH k1 Pl). destruct (seq_go l k1) as [ns k2]. cbn [fst] in *. constructor; [exists k; now rewrite M|exact IH].
Qed.
Lemma plain_node : forall s, plain s -> match s with SNode _ => False | _ => True end.
Proof. intros [a|l|l|n] H; exact I || exact H. Qed.
Lemma plain_whole : forall s, plain s -> src_whole s.
Proof.
  intros s. induction s as [a|l IH|l IH|n] using src_ind2; intros H; [exact I| | |destruct H].
  - cbn [plain src_whole] in *. revert H. induction IH as [|c l Hc HF IHl]; intros H; [exact I|]. destruct H as [H1 H2]. split; [now apply Hc|now apply IHl].
  - cbn [plain src_whole] in *. revert H. induction IH as [|[c q] l Hc HF IHl]; intros H; [exact I|]. destruct H as [H1 H2]. split; [now apply Hc|now apply IHl].
Qed.
Lemma below_src : forall s k a, plain s -> (acct_below (fst (mk_node s no_limits k)) a <-> In a (src_accounts s)).
Proof.
  intros s k a Pl. set (n := fst (mk_node s no_limits k)). symmetry.
  apply (accounts_below (depth n) n). apply C56_traversal_sees_every_account; [now apply plain_node|now apply plain_whole|reflexivity].
Qed.
Lemma nested_item : forall s k, nested_list s -> list_item (fst (mk_node s no_limits k)).
Proof.
  intros s. induction s as [a|l IH|l IH|n] using src_ind2; intros k H; try (destruct H; fail).
  - intros x [<-|[]]. split; [reflexivity|left; eexists; reflexivity].
  - rewrite mk_seq. intros x Hx. rewrite tree_eq in Hx. destruct Hx as [<-|Hx]; [split; [reflexivity|right; eexists; reflexivity]|].
    unfold kids in Hx. cbn [fst t_body] in Hx. apply in_flat_map in Hx. destruct Hx as (c & C1 & C2).
    cbn [nested_list] in H. revert C1. generalize (S k) as j. clear k. induction IH as [|s l Hs _ IHl]; intros j C1; [destruct C1|]. destruct H as [H1 H2].
    assert (E : seq_go (s :: l) j = let (n, k1) := mk_node s no_limits j in let (ns, k') := seq_go l k1 in (n :: ns, k')) by (destruct s; [reflexivity..|destruct H1]).
    rewrite E in C1. destruct (mk_node s no_limits j) as [n k1] eqn:M. specialize (IHl H2 k1). destruct (seq_go l k1) as [ns k2]. cbn [fst] in *.
    destruct C1 as [<-|C1]; [|now apply IHl]. pose proof (Hs j H1) as L. rewrite M in L. now apply L.
Qed.
Lemma plain_app : forall pre d post, plain (SSeq (pre ++ d :: post)) -> (forall c, In c (pre ++ d :: post) -> plain c).
Proof.
  intros pre d post. generalize (pre ++ d :: post) as l. induction l as [|x l IH]; intros H c Hc; [destruct Hc|]. destruct H as [H1 H2]. destruct Hc as [<-|Hc]; auto.
Qed.
Lemma lead_tree : forall pre d post next, plain (SSeq (pre ++ d :: post)) -> nested_list d ->
  exists pre' d' post', item_at (fst (mk_node (SSeq (pre ++ d :: post)) no_limits next)) pre' d' post' /\ (leads pre d -> heads pre' d') /\
    (forall a, In a (src_accounts d) -> acct_below d' a) /\
    (forall b, (forall c, In c (pre ++ [d]) -> ~ In b (src_accounts c)) -> forall c, In c (pre' ++ [d']) -> ~ acct_below c b).
Proof.
  intros pre d post next Pl Nd. pose proof (seq_items _ (S next) Pl) as F2. apply Forall2_app_inv_l in F2. destruct F2 as (pre' & rest & F1 & F2 & E).
  inversion F2 as [|? d' ? post' (j & Hd) F3]; subst rest. clear F2. pose proof (plain_app _ _ _ Pl) as Pc.
  assert (Pd : plain d) by (apply Pc; apply in_or_app; right; now left).
  exists pre', d', post'. split; [|split; [|split]].
  - split; [rewrite mk_seq; cbn [fst t_body]; now rewrite E|]. split; [reflexivity|]. split; [now apply C95_plain_trees_distinct|]. subst d'; now apply nested_item.
  - intros [_ Hp]. destruct Hp as [-> | [a ->]]; [inversion F1; now left|right]. exists a. now subst d'.
  - intros a Ha. subst d'. now apply below_src.
  - intros b Hb c Hc Ab. apply in_app_or in Hc. destruct Hc as [Hc|[<-|[]]].
    + assert (exists s k, In s pre /\ c = fst (mk_node s no_limits k)) as (s & k & Hs & ->).
      { clear -F1 Hc. induction F1 as [|s n l l' (k & Hk) _ IH]; [destruct Hc|]. destruct Hc as [<-|Hc]; [exists s, k; split; [now left|exact Hk]|]. destruct (IH Hc) as (s' & k' & H1 & H2). exists s', k'. split; [now right|exact H2]. }
      apply (Hb s); [apply in_or_app; now left|]. eapply below_src; [|exact Ab]. apply Pc. apply in_or_app. now left.
    + apply (Hb d); [apply in_or_app; right; now left|]. subst d'. eapply below_src; [exact Pd|exact Ab].
Qed.

Lemma listed_line : forall s k a, plain s -> listed s a -> exists ms, line (fst (mk_node s no_limits k)) a ms.
Proof.
  intros s. induction s as [b|l IH|l IH|n] using src_ind2; intros k a Pl H; try (destruct H; fail).
  - cbn [listed] in H. subst b. eexists. apply line_leaf; reflexivity.
  - pose proof (seq_items l (S k) Pl) as F2. rewrite mk_seq. cbn [fst].
    assert (E : exists c ms, In c (fst (seq_go l (S k))) /\ line c a ms).
    { revert F2 H Pl. generalize (fst (seq_go l (S k))) as ns. induction IH as [|s l Hs _ IHl]; intros ns F2 H Pl; [destruct H|].
      inversion F2 as [|? n ? ns' (j & ->) F3]; subst. destruct Pl as [P1 P2]. destruct H as [H|H].
      - destruct (Hs j a P1 H) as (ms & M). eexists. exists ms. split; [now left|exact M].
      - destruct (IHl ns' F3 H P2) as (c & ms & C1 & C2). exists c, ms. split; [now right|exact C2]. }
    destruct E as (c & ms & C1 & C2). eexists. eapply line_list; [reflexivity|reflexivity|exact C1|exact C2].
Qed.

(** ** Deposits *)
(** C106: while an account of the leading item can still take its minimum, accounts that occur only
    after the item get nothing; while it can take any more, they get no more than their own minimum *)
Theorem C106_leading_item_first : forall P fuel pre d post next total r a b mn_a mx_a mn_b mx_b,
  solver_ok_opt P -> deposits_exact P MinIn -> deposits_exact P MaxIn ->
  plain (SSeq (pre ++ d :: post)) -> leads pre d ->
  In a (src_accounts d) -> p_grp P MinIn a = None -> p_grp P MaxIn a = None ->
  (forall c, In c (pre ++ [d]) -> ~ In b (src_accounts c)) ->
  limits_in P a mn_a mx_a -> limits_in P b mn_b mx_b ->
  p_prec P < total -> call P fuel (fst (mk_node (SSeq (pre ++ d :: post)) no_limits next)) total = Ok r ->
  (0 < acct_tx r b -> mn_a < acct_tx r a + p_prec P) /\
  (mn_b < acct_tx r b -> full P (acct_tx r a) mx_a).
Proof.
  intros P fuel pre d post next total r a b mna mxa mnb mxb SO D1 D2 Pl Ls Ia G1 G2 Nb La Lb Ht H.
  destruct (lead_tree pre d post next Pl (proj1 Ls)) as (pre' & d' & post' & Ld & Hx & Ba & Bb). specialize (Ba a Ia). specialize (Bb b Nb). specialize (Hx Ls).
  revert Ld H. generalize (fst (mk_node (SSeq (pre ++ d :: post)) no_limits next)) as root. intros root Ld H. clear Pl Ls Ia Nb.
  pose proof SO as (Hp & _). unfold call in H.
  assert (E : Qlt_bool (p_prec P) total = true) by (destruct (Qlt_bool (p_prec P) total) eqn:E; [reflexivity|apply Qlt_bool_f in E; lra]). rewrite E in H.
  destruct (traverse P fuel root [] (Fin total) MinIn) as [[tn memo]|] eqn:T1; [|discriminate]. cbn [bind] in H.
  destruct (traverse P fuel root memo (Fin total) MaxIn) as [[tm memo2]|] eqn:T2; [|discriminate]. cbn [bind] in H. injection H as <-.
  assert (T0 : 0 <= total) by lra. destruct (cap_first P root total Hp T0) as (C1 & S1 & EC & HC1).
  destruct (pass_lead P fuel root pre' d' post' [] total MinIn tn memo C1 SO Ld T1 S1 HC1) as (g1 & f1 & F1 & Sh1 & M1 & N1 & J1 & K1 & A1 & Z1).
  assert (ME : flow_edge memo Src (TN (t_id root)) = outflow g1 f1 Src).
  { subst memo. destruct (flow_dict_nodup g1 f1 (sh_wf _ _ _ _ _ _ Sh1)) as [X1 X2]. rewrite merge_edge by auto.
    rewrite flow_dict_edge by exact F1. rewrite (src_out _ _ _ _ _ _ _ Sh1 F1). reflexivity. }
  assert (B1 : (0 <= outflow g1 f1 Src <= C1)%Z) by (split; [now apply out_pos|exact (src_le _ _ _ _ _ _ _ Sh1 F1 C1 eq_refl HC1)]).
  assert (S2 : src_cap P memo root (Fin total) = Some (C1 - outflow g1 f1 Src)%Z).
  { unfold src_cap, scaled_total. rewrite ME, <- EC. f_equal. apply int_fl_minus. exact B1. }
  destruct (pass_lead P fuel root pre' d' post' memo total MaxIn tm memo2 _ SO Ld T2 S2 ltac:(lia)) as (g2 & f2 & F2 & Sh2 & M2 & N2 & J2 & K2 & A2 & Z2).
  assert (Hn : Qlt_bool total 0 = false) by (destruct (Qlt_bool total 0) eqn:En; [apply Qlt_bool_t in En; lra|reflexivity]). rewrite Hn in K1, K2.
  assert (MO : forall a, flow_out memo (Acc a) = outflow g1 f1 (Acc a)) by (intros x; subst memo; apply memo_out; [apply (sh_wf _ _ _ _ _ _ Sh1)|exact F1]).
  destruct (A1 a Ba G1) as (I1 & (x & e & X & Ee & Ec & Eo) & R1). destruct (A2 a Ba G2) as (I2 & (x' & e' & X' & Ee' & Ec' & Eo') & R2).
  destruct La as (L1 & L2 & L3 & L4). destruct Lb as (L1b & L2b & L3b & L4b). rewrite L1 in X. injection X as <-. rewrite L2 in X'. injection X' as <-.
  assert (W0 : within (p_prec P * fl 0) (Fin mna)) by (cbn; unfold fl, inject_Z; lra).
  destruct (room_or_full P g1 f1 a (Fin mna) e 0 Hp F1 Ee Ec W0) as [Wa1 Fa1]. rewrite Z.add_0_r, <- Eo in Wa1, Fa1. cbn [within] in Wa1.
  rewrite MO in Ec'. assert (W2 : within (p_prec P * fl (outflow g1 f1 (Acc a))) mxa) by (destruct mxa as [L|s]; cbn in *; [lra|exact L4]).
  destruct (room_or_full P g2 f2 a mxa e' _ Hp F2 Ee' Ec' W2) as [Wa2 Fa2]. rewrite <- Eo' in Wa2, Fa2.
  assert (NN : forall z, 0 <= p_prec P * fl (outflow g2 f2 (Acc z)) /\ 0 <= p_prec P * fl (outflow g1 f1 (Acc z))).
  { intros z. pose proof (fl_le _ _ (out_pos g2 f2 F2 (Acc z))) as O. pose proof (fl_le _ _ (out_pos g1 f1 F1 (Acc z))) as O'. unfold fl at 1, inject_Z in O; unfold fl at 1, inject_Z in O'. split; nra. }
  assert (V1 : acct_tx tn a == p_prec P * fl (outflow g1 f1 (Acc a))).
  { apply (exact_acct P MinIn tn a (fun a => p_prec P * fl (outflow g1 f1 (Acc a))) (Fin mna) N1 I1 K1); [|exact L1]. intros t HL HT. apply (D1 a _ t _ HL); [apply NN|exact Wa1|exact HT]. }
  assert (V2 : acct_tx tm a == p_prec P * fl (outflow g2 f2 (Acc a))).
  { apply (exact_acct P MaxIn tm a (fun a => p_prec P * fl (outflow g2 f2 (Acc a))) mxa N2 I2 K2); [|exact L2].
    intros t HL HT. apply (D2 a _ t _ HL); [apply NN| |exact HT]. pose proof (NN a) as [_ NNa]. destruct mxa as [L|s]; cbn in *; [|exact Wa2]. rewrite fl_add in Wa2. lra. }
  assert (V : acct_tx (combine_tx tm tn) a == p_prec P * fl (outflow g2 f2 (Acc a) + outflow g1 f1 (Acc a))).
  { rewrite combine_acct by exact N1. rewrite V1, V2, fl_add. lra. }
  assert (Bm : acct_tx tn b <= mnb).
  { destruct (acct_in tn b) as [Q|(t & T & Q)]; rewrite Q; [exact L3b|]. pose proof (K1 b t T) as PT.
    assert (DD : fl 0 <= mnb / p_prec P) by (unfold fl, inject_Z; apply Qle_shift_div_l; [exact Hp|lra]). destruct (capx_bound P mnb 0 Hp DD) as (c & Kc1 & Kc2 & Kc3).
    assert (FO : flow_out [] (match p_grp P MinIn b with Some r => Grp r | None => Acc b end) = 0%Z) by reflexivity.
    pose proof (acc_le P [] MinIn (t_id root) (Some C1) g1 f1 Sh1 F1 b (Fin mnb) c L1b ltac:(rewrite FO; exact Kc1) Kc2) as Ac. apply fl_le in Ac.
    assert (Bd : p_prec P * fl (outflow g1 f1 (Acc b)) <= mnb) by (rewrite Z.add_0_r in Kc3; nra).
    rewrite (D1 b _ t _ L1b (proj2 (NN b)) Bd PT). exact Bd. }
  assert (Zero1 : outflow g1 f1 (Acc b) = 0%Z -> acct_tx tn b == 0).
  { intros O. destruct (acct_in tn b) as [Q|(t & T & Q)]; rewrite Q; [reflexivity|]. pose proof (K1 b t T) as PT. rewrite O in PT.
    rewrite (D1 b (p_prec P * fl 0) t _ L1b ltac:(unfold fl, inject_Z; lra) ltac:(cbn; unfold fl, inject_Z; lra) PT). unfold fl, inject_Z. lra. }
  assert (Zero2 : outflow g2 f2 (Acc b) = 0%Z -> acct_tx tm b == 0).
  { intros O. destruct (acct_in tm b) as [Q|(t & T & Q)]; rewrite Q; [reflexivity|]. pose proof (K2 b t T) as PT. rewrite O in PT.
    rewrite (D2 b (p_prec P * fl 0) t _ L2b ltac:(unfold fl, inject_Z; lra) ltac:(destruct mxb; cbn in *; [unfold fl, inject_Z; lra|exact L4b]) PT). unfold fl, inject_Z. lra. }
  assert (FU : forall q q' x, q == q' -> full P q x -> full P q' x) by (intros q q' [L|s] Eq Hf; cbn in *; [lra|exact Hf]).
  rewrite combine_acct by exact N1. destruct (NN a) as [NNa1 NNa2].
  split; intros Pb.
  - rewrite V, fl_add. destruct Fa1 as [R|R]; [|cbn in R; lra]. destruct Fa2 as [R'|R'].
    + exfalso. rewrite (Zero1 (proj2 (R1 R) Hx b Bb)), (Zero2 (proj2 (R2 R') Hx b Bb)) in Pb. lra.
    + destruct mxa as [L|s]; cbn in *; [|contradiction]. rewrite fl_add in R'. lra.
  - destruct Fa2 as [R'|R']; [|eapply FU; [symmetry; apply V|exact R']]. exfalso. rewrite (Zero2 (proj2 (R2 R') Hx b Bb)) in Pb. lra.
Qed.
Print Assumptions C106_leading_item_first.

(** and no money is left over while an account in the list, or in a list in the list, and so on, can take
    more, wherever the account is and whatever else is in these lists (accounts without shared limits) *)
Theorem C106_nothing_left_over : forall P fuel s next total r a (mn : nat -> Q) (mx : nat -> xnum),
  solver_ok_opt P -> deposits_exact P MinIn -> deposits_exact P MaxIn ->
  plain s -> listed s a ->
  (forall x, In x (src_accounts s) -> p_grp P MinIn x = None /\ p_grp P MaxIn x = None /\ limits_in P x (mn x) (mx x)) ->
  p_prec P < total -> call P fuel (fst (mk_node s no_limits next)) total = Ok r ->
  full P (acct_tx r a) (mx a) \/ total - p_prec P < total_tx r.
Proof.
  intros P fuel s next total r a mn mx SO D1 D2 Pl Ia Lim Ht H.
  destruct (listed_line s next a Pl Ia) as (ms & Ba). pose proof (C95_plain_trees_distinct s no_limits next Pl) as DN.
  assert (All : forall x, acct_below (fst (mk_node s no_limits next)) x -> p_grp P MinIn x = None /\ p_grp P MaxIn x = None /\ limits_in P x (mn x) (mx x)).
  { intros x Hx. apply Lim. apply (below_src _ next x Pl). exact Hx. }
  revert DN Ba H All. generalize (fst (mk_node s no_limits next)) as root. intros root DN Ba H All. clear Pl Ia Lim.
  assert (Ra : acct_below root a) by (eapply line_below; exact Ba).
  pose proof SO as (Hp & _). unfold call in H.
  assert (E : Qlt_bool (p_prec P) total = true) by (destruct (Qlt_bool (p_prec P) total) eqn:E; [reflexivity|apply Qlt_bool_f in E; lra]). rewrite E in H.
  destruct (traverse P fuel root [] (Fin total) MinIn) as [[tn memo]|] eqn:T1; [|discriminate]. cbn [bind] in H.
  destruct (traverse P fuel root memo (Fin total) MaxIn) as [[tm memo2]|] eqn:T2; [|discriminate]. cbn [bind] in H. injection H as <-.
  assert (T0 : 0 <= total) by lra. destruct (cap_first P root total Hp T0) as (C1 & S1 & EC & HC1).
  destruct (pass_line P fuel root [] total MinIn tn memo C1 SO DN T1 S1 HC1) as (g1 & f1 & F1 & Sh1 & M1 & N1 & J1 & K1 & A1 & Z1).
  assert (ME : flow_edge memo Src (TN (t_id root)) = outflow g1 f1 Src).
  { subst memo. destruct (flow_dict_nodup g1 f1 (sh_wf _ _ _ _ _ _ Sh1)) as [X1 X2]. rewrite merge_edge by auto.
    rewrite flow_dict_edge by exact F1. rewrite (src_out _ _ _ _ _ _ _ Sh1 F1). reflexivity. }
  assert (B1 : (0 <= outflow g1 f1 Src <= C1)%Z) by (split; [now apply out_pos|exact (src_le _ _ _ _ _ _ _ Sh1 F1 C1 eq_refl HC1)]).
  assert (S2 : src_cap P memo root (Fin total) = Some (C1 - outflow g1 f1 Src)%Z).
  { unfold src_cap, scaled_total. rewrite ME, <- EC. f_equal. apply int_fl_minus. exact B1. }
  destruct (pass_line P fuel root memo total MaxIn tm memo2 _ SO DN T2 S2 ltac:(lia)) as (g2 & f2 & F2 & Sh2 & M2 & N2 & J2 & K2 & A2 & Z2).
  assert (Hn : Qlt_bool total 0 = false) by (destruct (Qlt_bool total 0) eqn:En; [apply Qlt_bool_t in En; lra|reflexivity]). rewrite Hn in K1, K2.
  assert (MO : forall a, flow_out memo (Acc a) = outflow g1 f1 (Acc a)) by (intros x; subst memo; apply memo_out; [apply (sh_wf _ _ _ _ _ _ Sh1)|exact F1]).
  assert (NN : forall z, 0 <= p_prec P * fl (outflow g2 f2 (Acc z)) /\ 0 <= p_prec P * fl (outflow g1 f1 (Acc z))).
  { intros z. pose proof (fl_le _ _ (out_pos g2 f2 F2 (Acc z))) as O. pose proof (fl_le _ _ (out_pos g1 f1 F1 (Acc z))) as O'. unfold fl at 1, inject_Z in O; unfold fl at 1, inject_Z in O'. split; nra. }
  (* every account gets exactly the flow through it *)
  assert (W1 : forall x, acct_below root x -> p_prec P * fl (outflow g1 f1 (Acc x)) <= mn x).
  { intros x Hx. destruct (All x Hx) as (G1 & _ & L1 & _ & L3 & _).
    assert (DD : fl 0 <= mn x / p_prec P) by (unfold fl, inject_Z; apply Qle_shift_div_l; [exact Hp|lra]). destruct (capx_bound P (mn x) 0 Hp DD) as (c & Kc1 & Kc2 & Kc3).
    pose proof (acc_le P [] MinIn (t_id root) (Some C1) g1 f1 Sh1 F1 x (Fin (mn x)) c L1 ltac:(rewrite G1; exact Kc1) Kc2) as Ac. apply fl_le in Ac. rewrite Z.add_0_r in Kc3. nra. }
  assert (W2 : forall x, acct_below root x -> within (p_prec P * fl (outflow g2 f2 (Acc x))) (mx x)).
  { intros x Hx. destruct (All x Hx) as (_ & G2 & _ & L2 & L3 & L4). specialize (W1 x Hx). destruct (mx x) as [L|sg] eqn:EL; [|exact L4]. cbn in L4 |- *.
    assert (DD : fl (outflow g1 f1 (Acc x)) <= L / p_prec P) by (apply Qle_shift_div_l; [exact Hp|lra]). destruct (capx_bound P L _ Hp DD) as (c & Kc1 & Kc2 & Kc3).
    pose proof (acc_le P memo MaxIn (t_id root) _ g2 f2 Sh2 F2 x (Fin L) c L2 ltac:(rewrite G2, MO; exact Kc1) Kc2) as Ac. apply fl_le in Ac. rewrite fl_add in Kc3. pose proof (NN x). nra. }
  assert (V1 : forall x t, In (x, t) tn -> tx_of t == p_prec P * fl (outflow g1 f1 (Acc x))).
  { intros x t Hx. assert (Bx : acct_below root x) by (apply J1; apply in_map_iff; exists (x, t); auto). destruct (All x Bx) as (_ & _ & L1 & _).
    apply (D1 x _ t (Fin (mn x)) L1); [apply NN|now apply W1|now apply K1]. }
  assert (V2 : forall x t, In (x, t) tm -> tx_of t == p_prec P * fl (outflow g2 f2 (Acc x))).
  { intros x t Hx. assert (Bx : acct_below root x) by (apply J2; apply in_map_iff; exists (x, t); auto). destruct (All x Bx) as (_ & _ & _ & L2 & _).
    apply (D2 x _ t (mx x) L2); [apply NN|now apply W2|now apply K2]. }
  destruct (All a Ra) as (G1 & G2 & L1 & L2 & L3 & L4).
  destruct (A1 a ms Ba G1) as (I1 & (x & e & X & Ee & Ec & Eo) & R1). destruct (A2 a ms Ba G2) as (I2 & (x' & e' & X' & Ee' & Ec' & Eo') & R2). rewrite L2 in X'. injection X' as <-.
  rewrite MO in Ec'. assert (W3 : within (p_prec P * fl (outflow g1 f1 (Acc a))) (mx a)) by (specialize (W1 a Ra); destruct (mx a) as [L|sg]; cbn in *; [lra|exact L4]).
  destruct (room_or_full P g2 f2 a (mx a) e' _ Hp F2 Ee' Ec' W3) as [Wa2 Fa2]. rewrite <- Eo' in Wa2, Fa2.
  assert (Key : forall tx h, NoDup (dkeys tx) -> In a (dkeys tx) -> (forall y t, In (y, t) tx -> tx_of t == h y) -> acct_tx tx a == h a).
  { intros tx h Nd I Hh. unfold dkeys in I. apply in_map_iff in I. destruct I as ([y t] & Q & I). cbn in Q. subst y. rewrite (in_acct tx a t Nd I). now apply Hh. }
  assert (V : acct_tx (combine_tx tm tn) a == p_prec P * fl (outflow g2 f2 (Acc a) + outflow g1 f1 (Acc a))).
  { rewrite combine_acct by exact N1. rewrite (Key tm _ N2 I2 V2), (Key tn _ N1 I1 V1), fl_add. lra. }
  destruct Fa2 as [R'|R'].
  - right. rewrite combine_total.
    assert (Gs1 : total_tx tn == p_prec P * fl (Zsum (map (fun a => outflow g1 f1 (Acc a)) (dkeys tn)))) by (rewrite <- Qsum_fl; apply total_eq; exact V1).
    assert (Gs2 : total_tx tm == p_prec P * fl (Zsum (map (fun a => outflow g2 f2 (Acc a)) (dkeys tm)))) by (rewrite <- Qsum_fl; apply total_eq; exact V2).
    rewrite (R2 R') in Z2. apply fl_le in Z1. apply fl_le in Z2.
    assert (Cs : fl C1 == fl (C1 - outflow g1 f1 Src) + fl (outflow g1 f1 Src)) by (rewrite <- fl_add; replace (C1 - outflow g1 f1 Src + outflow g1 f1 Src)%Z with C1 by lia; reflexivity).
    rewrite Gs1, Gs2. assert (DT : 0 <= total / p_prec P) by (apply Qle_shift_div_l; [exact Hp|lra]).
    pose proof (int_gt _ DT) as GT. rewrite <- EC in GT. assert (E3 : p_prec P * (total / p_prec P) == total) by (field; lra). nra.
  - left. destruct (mx a) as [L|sg]; cbn in *; [lra|exact R'].
Qed.
Print Assumptions C106_nothing_left_over.

(** ** Withdrawals *)
(** C106: accounts that occur only after the leading item are drawn on only once every account of the
    item has given all it can *)
Theorem C106_withdrawals_leading_first : forall P fuel pre d post next total r a b mx_a mx_b,
  solver_ok_opt P -> withdrawals_exact P MinOut -> withdrawals_exact P MaxOut ->
  plain (SSeq (pre ++ d :: post)) -> leads pre d ->
  In a (src_accounts d) -> p_grp P MaxOut a = None ->
  (forall c, In c (pre ++ [d]) -> ~ In b (src_accounts c)) ->
  limits_out P a mx_a -> limits_out P b mx_b ->
  total < - p_prec P -> call P fuel (fst (mk_node (SSeq (pre ++ d :: post)) no_limits next)) total = Ok r ->
  acct_tx r b < 0 -> acct_tx r a - p_prec P < mx_a.
Proof.
  intros P fuel pre d post next total r a b mxa mxb SO D1 D2 Pl Ls Ia G2 Nb La Lb Ht H Pb.
  destruct (lead_tree pre d post next Pl (proj1 Ls)) as (pre' & d' & post' & Ld & Hx & Ba & Bb). specialize (Ba a Ia). specialize (Bb b Nb). specialize (Hx Ls).
  revert Ld H. generalize (fst (mk_node (SSeq (pre ++ d :: post)) no_limits next)) as root. intros root Ld H. clear Pl Ls Ia Nb.
  pose proof SO as (Hp & Sv & Hh). pose proof (opt_world P SO) as W. unfold call in H.
  assert (E : Qlt_bool (p_prec P) total = false) by (destruct (Qlt_bool (p_prec P) total) eqn:E; [apply Qlt_bool_t in E; lra|reflexivity]). rewrite E in H.
  assert (E' : Qlt_bool total (- p_prec P) = true) by (destruct (Qlt_bool total (- p_prec P)) eqn:E'; [reflexivity|apply Qlt_bool_f in E'; lra]). rewrite E' in H. clear E E'.
  destruct (traverse P fuel root [] (Inf false) MinOut) as [[tn memo]|] eqn:T1; [|discriminate]. cbn [bind] in H.
  destruct (traverse P fuel root memo (Fin total) MaxOut) as [[tm memo2]|] eqn:T2; [|discriminate]. cbn [bind] in H. injection H as <-.
  destruct (traverse_inv _ _ _ _ _ _ _ _ W T1) as (g1 & f1 & B1 & F1 & Sh1 & M1 & N1 & K1 & _ & acs & AO & _ & J1). cbn [negb] in K1.
  assert (Z0 : outflow g1 f1 Src = 0%Z).
  { refine (min_outflow_graph P MinOut root fuel false g1 Hh _ _ _ B1 f1 F1); [intros; now apply Sv|exact (proj1 (proj2 Ld) MinOut)|]. exact (distinct_proper root (proj1 (proj2 (proj2 Ld)))). }
  assert (Za : forall x, outflow g1 f1 (Acc x) = 0%Z).
  { intros x. pose proof (some_accounts_le _ _ _ _ _ _ _ Sh1 F1 [x] ltac:(constructor; [intros []|constructor])) as K. rewrite Z0 in K. cbn in K. pose proof (out_pos g1 f1 F1 (Acc x)). lia. }
  assert (ME : flow_edge memo Src (TN (t_id root)) = 0%Z).
  { subst memo. destruct (flow_dict_nodup g1 f1 (sh_wf _ _ _ _ _ _ Sh1)) as [X1 X2]. rewrite merge_edge by auto.
    rewrite flow_dict_edge by exact F1. rewrite <- (src_out _ _ _ _ _ _ _ Sh1 F1), Z0. reflexivity. }
  set (C := int_of (qabs (fl (int_of (total / p_prec P))) - fl 0)).
  assert (S2 : src_cap P memo root (Fin total) = Some C) by (unfold src_cap, scaled_total; now rewrite ME).
  assert (QA : 0 <= qabs (fl (int_of (total / p_prec P)))) by (destruct (qabs_case (fl (int_of (total / p_prec P)))) as [[? Q]|[? Q]]; rewrite Q; lra).
  assert (HC : (0 <= C)%Z) by (apply int_le; unfold fl at 2, inject_Z; lra).
  destruct (pass_lead P fuel root pre' d' post' memo total MaxOut tm memo2 C SO Ld T2 S2 HC) as (g2 & f2 & F2 & Sh2 & M2 & N2 & J2 & K2 & A2 & Z2).
  assert (Hn : Qlt_bool total 0 = true) by (destruct (Qlt_bool total 0) eqn:En; [reflexivity|apply Qlt_bool_f in En; lra]). rewrite Hn in K2.
  assert (MO : forall x, flow_out memo (Acc x) = 0%Z) by (intros x; subst memo; rewrite memo_out; [apply Za|apply (sh_wf _ _ _ _ _ _ Sh1)|exact F1]).
  destruct (A2 a Ba G2) as (I2 & (x & e & X & Ee & Ec & Eo) & R2). destruct La as ((m & L1 & Lm) & L2 & L3). destruct Lb as ((mb & L1b & Lmb) & L2b & L3b).
  rewrite L2 in X. injection X as <-. rewrite MO in Ec. destruct (room_or_full_out P g2 f2 a mxa e Hp F2 Ee Ec L3) as [Wa Fa]. rewrite <- Eo in Wa, Fa.
  assert (V1 : forall y q, p_limit P MinOut y = Ok (Fin q) -> q <= 0 -> acct_tx tn y == 0).
  { intros y q Lq Hq. destruct (acct_in tn y) as [Q|(t & T & Q)]; rewrite Q; [reflexivity|]. pose proof (K1 y t T) as PT. rewrite Za in PT.
    rewrite (D1 y (- (p_prec P * fl 0)) t q Lq); [unfold fl, inject_Z; lra|unfold fl, inject_Z; lra|unfold fl, inject_Z; lra|exact PT]. }
  assert (V2 : acct_tx tm a == - (p_prec P * fl (outflow g2 f2 (Acc a)))).
  { apply (exact_acct P MaxOut tm a (fun a => - (p_prec P * fl (outflow g2 f2 (Acc a)))) (Fin mxa) N2 I2 K2); [|exact L2].
    pose proof (fl_le _ _ (out_pos g2 f2 F2 (Acc a))) as O. unfold fl at 1, inject_Z in O. intros t HL HT. apply (D2 a _ t _ HL); [nra|exact Wa|exact HT]. }
  rewrite combine_acct in Pb |- * by exact N1. rewrite (V1 b mb L1b Lmb) in Pb. rewrite (V1 a m L1 Lm), V2. destruct Fa as [R|R]; [|lra]. exfalso.
  pose proof (proj2 (R2 R) Hx b Bb) as Ob. destruct (acct_in tm b) as [Q|(t & T & Q)]; rewrite Q in Pb; [lra|]. pose proof (K2 b t T) as PT. rewrite Ob in PT.
  assert (Zt : tx_of t == - (p_prec P * fl 0)) by (apply (D2 b _ t mxb L2b); [unfold fl, inject_Z; lra|unfold fl, inject_Z; lra|exact PT]). rewrite Zt in Pb. unfold fl, inject_Z in Pb. lra.
Qed.
Print Assumptions C106_withdrawals_leading_first.

(** and the whole amount is withdrawn unless every account in the list, or in a list in the list, and so
    on, has given all it can, wherever the account is and whatever else is in these lists (accounts
    without shared limits) *)
Theorem C106_no_need_left_over : forall P fuel s next total r a (mx : nat -> Q),
  solver_ok_opt P -> withdrawals_exact P MinOut -> withdrawals_exact P MaxOut ->
  plain s -> listed s a ->
  (forall x, In x (src_accounts s) -> p_grp P MaxOut x = None /\ limits_out P x (mx x)) ->
  total < - p_prec P -> call P fuel (fst (mk_node s no_limits next)) total = Ok r ->
  acct_tx r a - p_prec P < mx a \/ total_tx r < total + p_prec P.
Proof.
  intros P fuel s next total r a mx SO D1 D2 Pl Ia Lim Ht H.
  destruct (listed_line s next a Pl Ia) as (ms & Ba). pose proof (C95_plain_trees_distinct s no_limits next Pl) as DN.
  assert (All : forall x, acct_below (fst (mk_node s no_limits next)) x -> p_grp P MaxOut x = None /\ limits_out P x (mx x)).
  { intros x Hx. apply Lim. apply (below_src _ next x Pl). exact Hx. }
  revert DN Ba H All. generalize (fst (mk_node s no_limits next)) as root. intros root DN Ba H All. clear Pl Ia Lim.
  assert (Ra : acct_below root a) by (eapply line_below; exact Ba).
  pose proof SO as (Hp & Sv & Hh). pose proof (opt_world P SO) as W. unfold call in H.
  assert (E : Qlt_bool (p_prec P) total = false) by (destruct (Qlt_bool (p_prec P) total) eqn:E; [apply Qlt_bool_t in E; lra|reflexivity]). rewrite E in H.
  assert (E' : Qlt_bool total (- p_prec P) = true) by (destruct (Qlt_bool total (- p_prec P)) eqn:E'; [reflexivity|apply Qlt_bool_f in E'; lra]). rewrite E' in H. clear E E'.
  destruct (traverse P fuel root [] (Inf false) MinOut) as [[tn memo]|] eqn:T1; [|discriminate]. cbn [bind] in H.
  destruct (traverse P fuel root memo (Fin total) MaxOut) as [[tm memo2]|] eqn:T2; [|discriminate]. cbn [bind] in H. injection H as <-.
  destruct (traverse_inv _ _ _ _ _ _ _ _ W T1) as (g1 & f1 & B1 & F1 & Sh1 & M1 & N1 & K1 & _ & acs & AO & _ & J1). cbn [negb] in K1.
  assert (Z0 : outflow g1 f1 Src = 0%Z).
  { refine (min_outflow_graph P MinOut root fuel false g1 Hh _ _ _ B1 f1 F1); [intros; now apply Sv|exact (line_lims _ _ _ Ba MinOut)|]. exact (distinct_proper root DN). }
  assert (Za : forall x, outflow g1 f1 (Acc x) = 0%Z).
  { intros x. pose proof (some_accounts_le _ _ _ _ _ _ _ Sh1 F1 [x] ltac:(constructor; [intros []|constructor])) as K. rewrite Z0 in K. cbn in K. pose proof (out_pos g1 f1 F1 (Acc x)). lia. }
  assert (ME : flow_edge memo Src (TN (t_id root)) = 0%Z).
  { subst memo. destruct (flow_dict_nodup g1 f1 (sh_wf _ _ _ _ _ _ Sh1)) as [X1 X2]. rewrite merge_edge by auto.
    rewrite flow_dict_edge by exact F1. rewrite <- (src_out _ _ _ _ _ _ _ Sh1 F1), Z0. reflexivity. }
  set (C := int_of (qabs (fl (int_of (total / p_prec P))) - fl 0)).
  assert (S2 : src_cap P memo root (Fin total) = Some C) by (unfold src_cap, scaled_total; now rewrite ME).
  assert (QA : 0 <= qabs (fl (int_of (total / p_prec P)))) by (destruct (qabs_case (fl (int_of (total / p_prec P)))) as [[? Q]|[? Q]]; rewrite Q; lra).
  assert (HC : (0 <= C)%Z) by (apply int_le; unfold fl at 2, inject_Z; lra).
  destruct (pass_line P fuel root memo total MaxOut tm memo2 C SO DN T2 S2 HC) as (g2 & f2 & F2 & Sh2 & M2 & N2 & J2 & K2 & A2 & Z2).
  assert (Hn : Qlt_bool total 0 = true) by (destruct (Qlt_bool total 0) eqn:En; [reflexivity|apply Qlt_bool_f in En; lra]). rewrite Hn in K2.
  assert (MO : forall x, flow_out memo (Acc x) = 0%Z) by (intros x; subst memo; rewrite memo_out; [apply Za|apply (sh_wf _ _ _ _ _ _ Sh1)|exact F1]).
  assert (V1 : forall x t, In (x, t) tn -> tx_of t == 0).
  { intros x t Hx. assert (Bx : acct_below root x) by (apply (accounts_below fuel root acs x AO); apply J1; apply in_map_iff; exists (x, t); auto).
    destruct (All x Bx) as (_ & (m & L1 & Lm) & _). pose proof (K1 x t Hx) as PT. rewrite Za in PT.
    rewrite (D1 x (- (p_prec P * fl 0)) t m L1); [unfold fl, inject_Z; lra|unfold fl, inject_Z; lra|unfold fl, inject_Z; lra|exact PT]. }
  assert (NN : forall z, 0 <= fl (outflow g2 f2 (Acc z))) by (intros z; pose proof (fl_le _ _ (out_pos g2 f2 F2 (Acc z))) as O; unfold fl at 1, inject_Z in O; lra).
  assert (V2 : forall x t, In (x, t) tm -> tx_of t == - (p_prec P * fl (outflow g2 f2 (Acc x)))).
  { intros x t Hx. assert (Bx : acct_below root x) by (apply J2; apply in_map_iff; exists (x, t); auto). destruct (All x Bx) as (Gx & _ & L2 & L3).
    destruct (edge_of g2 (Acc x) Snk) as [ex|] eqn:Ex.
    - destruct (sh_acc _ _ _ _ _ _ Sh2 _ _ _ Ex) as (y & Y & Q). rewrite L2 in Y. injection Y as <-. rewrite Gx in Q. destruct Q as [_ Q]. rewrite MO in Q.
      destruct (room_or_full_out P g2 f2 x (mx x) ex Hp F2 Ex Q L3) as [Wx _].
      assert (Ox : outflow g2 f2 (Acc x) = f2 (Acc x) Snk) by (rewrite (acc_out _ _ _ _ _ _ _ Sh2 F2); unfold acc_target; now rewrite Gx).
      rewrite <- Ox in Wx. specialize (NN x). apply (D2 x _ t (mx x) L2); [nra|exact Wx|now apply K2].
    - assert (Ox : outflow g2 f2 (Acc x) = 0%Z) by (rewrite (acc_out _ _ _ _ _ _ _ Sh2 F2); unfold acc_target; rewrite Gx; apply (fe_edges _ _ F2); exact Ex).
      pose proof (K2 x t Hx) as PT. rewrite Ox in PT |- *. apply (D2 x _ t (mx x) L2); [unfold fl, inject_Z; lra|unfold fl, inject_Z; lra|exact PT]. }
  destruct (All a Ra) as (G2 & (m & L1 & Lm) & L2 & L3).
  destruct (A2 a ms Ba G2) as (I2 & (x & e & X & Ee & Ec & Eo) & R2). rewrite L2 in X. injection X as <-. rewrite MO in Ec.
  destruct (room_or_full_out P g2 f2 a (mx a) e Hp F2 Ee Ec L3) as [Wa Fa]. rewrite <- Eo in Wa, Fa.
  destruct Fa as [R|R].
  - right. rewrite combine_total.
    assert (Gs1 : total_tx tn == 0).
    { rewrite (total_eq tn (fun _ => 0) V1). clear. induction (dkeys tn) as [|k l IH]; [reflexivity|]. cbn. rewrite IH. lra. }
    assert (Gs2 : total_tx tm == p_prec P * fl (Zsum (map (fun a => (- outflow g2 f2 (Acc a))%Z) (dkeys tm)))).
    { rewrite <- Qsum_fl. apply total_eq. intros y t Hy. rewrite (V2 y t Hy). unfold fl. rewrite inject_Z_opp. lra. }
    rewrite (R2 R) in Z2. rewrite Gs1, Gs2.
    assert (Zs : Zsum (map (fun a => (- outflow g2 f2 (Acc a))%Z) (dkeys tm)) = (- Zsum (map (fun a => outflow g2 f2 (Acc a)) (dkeys tm)))%Z).
    { clear. induction (dkeys tm) as [|k l IH]; [reflexivity|]. unfold Zsum in *. cbn [map fold_right]. lia. }
    rewrite Zs. apply fl_le in Z2. unfold fl at 1. rewrite inject_Z_opp. fold (fl (Zsum (map (fun a => outflow g2 f2 (Acc a)) (dkeys tm)))).
    assert (DT : 0 <= - (total / p_prec P)) by (assert (total / p_prec P <= 0); [apply Qle_shift_div_r; [exact Hp|lra]|lra]).
    assert (EC : C = int_of (- (total / p_prec P))).
    { unfold C. replace (int_of (total / p_prec P)) with (- int_of (- (total / p_prec P)))%Z by (rewrite int_opp; lia).
      assert (I0 : (0 <= int_of (- (total / p_prec P)))%Z) by (apply int_le; exact DT).
      assert (QQ : qabs (fl (- int_of (- (total / p_prec P)))) == fl (int_of (- (total / p_prec P)))).
      { unfold fl. rewrite inject_Z_opp. apply fl_le in I0. unfold fl in I0. unfold inject_Z at 1 in I0. destruct (qabs_case (- inject_Z (int_of (- (total / p_prec P))))) as [[? Q]|[? Q]]; rewrite Q; unfold inject_Z in *; lra. }
      apply int_exact. rewrite QQ. unfold fl at 2, inject_Z. lra. }
    pose proof (int_gt _ DT) as GT. rewrite <- EC in GT. assert (E3 : p_prec P * (total / p_prec P) == total) by (field; lra). nra.
  - left. rewrite combine_acct by exact N1. 
    assert (T1a : acct_tx tn a == 0) by (destruct (acct_in tn a) as [Q|(t & T & Q)]; rewrite Q; [reflexivity|now apply (V1 a t)]).
    assert (T2a : acct_tx tm a == - (p_prec P * fl (outflow g2 f2 (Acc a)))).
    { unfold dkeys in I2. apply in_map_iff in I2. destruct I2 as ([y t] & Q & I2). cbn in Q. subst y. rewrite (in_acct tm a t N2 I2). now apply V2. }
    rewrite T1a, T2a. lra.
Qed.
Print Assumptions C106_no_need_left_over.

(** ** High-interest debts *)
Import TxStratModel Prop_TxStrat.
(** the priority tree of a strategy as the source of a TransactionNode (strategy.py:336-337); the
    TransactionNode made of each subtree by the 'Weighted' strategy (strategy.py:184) is left out, its
    only effect is that the object exists before the root *)
Fixpoint tree_src (t : ptree) : src :=
  match t with
  | PLeaf a => SAcct a
  | POrd l => SSeq (map tree_src l)
  | PWt l => SDict (map (fun x => (tree_src (fst x), snd x)) l)
  end.
Lemma tree_plain : forall t, plain (tree_src t).
Proof.
  fix IH 1. intros [a|l|l]; cbn [tree_src plain].
  - exact I.
  - induction l as [|c l IHl]; cbn; [exact I|]. split; [apply IH|exact IHl].
  - induction l as [|c l IHl]; cbn; [exact I|]. split; [apply IH|exact IHl].
Qed.
Lemma leaf_list : forall l x, In x (src_accounts (tree_src (POrd (map PLeaf l)))) <-> In x l.
Proof.
  intros l x. cbn [tree_src src_accounts]. rewrite map_map. rewrite in_flat_map. split.
  - intros (s & H1 & H2). apply in_map_iff in H1. destruct H1 as (y & <- & H1). destruct H2 as [<-|[]]. exact H1.
  - intros H. exists (SAcct x). split; [apply in_map_iff; exists x; auto|now left].
Qed.
(** C106: with a strategy's priority tree, discretionary money (money beyond minimums) goes to no
    other account while a high-interest debt can still be repaid further, and the minimums of the
    high-interest debts come first *)
Theorem C106_high_interest_debts_first : forall s w accounts t low high P fuel next total r a b mn_a mx_a mn_b mx_b,
  divide_debts s w accounts = (low, high) -> priority_tree s w accounts = Ok t -> In a high -> ~ In b high ->
  solver_ok_opt P -> deposits_exact P MinIn -> deposits_exact P MaxIn ->
  p_grp P MinIn a = None -> p_grp P MaxIn a = None -> limits_in P a mn_a mx_a -> limits_in P b mn_b mx_b ->
  p_prec P < total -> call P fuel (fst (mk_node (tree_src t) no_limits next)) total = Ok r ->
  (0 < acct_tx r b -> mn_a < acct_tx r a + p_prec P) /\
  (mn_b < acct_tx r b -> full P (acct_tx r a) mx_a).
Proof.
  intros s w accounts t low high P fuel next total r a b mna mxa mnb mxb Dv Pt Ia Ib SO D1 D2 G1 G2 La Lb Ht H.
  assert (Hne : high <> []) by (intros ->; destruct Ia).
  destruct (C79_high_interest_first s w accounts t low high Dv Pt Hne) as (rest & ->).
  set (order := if String.eqb (ts_debt s) "Avalanche" then avalanche w high else snowball w high) in *.
  assert (Or : forall x, In x order <-> In x high).
  { intros x. unfold order. destruct (String.eqb (ts_debt s) "Avalanche"); split; apply Permutation_in.
    - apply (C53_avalanche w high).
    - symmetry. apply (C53_avalanche w high).
    - apply (C53_snowball w high).
    - symmetry. apply (C53_snowball w high). }
  change (tree_src (POrd [POrd (map PLeaf order); rest])) with (SSeq ([] ++ tree_src (POrd (map PLeaf order)) :: [tree_src rest])) in H.
  refine (C106_leading_item_first P fuel [] (tree_src (POrd (map PLeaf order))) [tree_src rest] next total r a b mna mxa mnb mxb SO D1 D2 _ _ _ G1 G2 _ La Lb Ht H).
  - exact (tree_plain (POrd [POrd (map PLeaf order); rest])).
  - split; [|now left]. cbn [tree_src nested_list]. clear. induction order as [|x l IH]; cbn; [exact I|]. split; [exact I|exact IH].
  - apply leaf_list, Or, Ia.
  - intros c [<-|[]] Hc. apply Ib, Or, leaf_list, Hc.
Qed.
Print Assumptions C106_high_interest_debts_first.

(** ** Non-vacuity *)
(** debt 3 has high interest, debts 2 and 4 have low interest; 20 to place, every account has minimum
    1; account 3 can take 10 and the others 30 *)
Local Open Scope Z_scope.
Definition demo_tree : ptree := POrd [POrd [PLeaf 3]; POrd [POrd [PLeaf 2; PLeaf 4]; PLeaf 1; PLeaf 0]].
Definition demo_root : tnode := fst (mk_node (tree_src demo_tree) no_limits 0).
(** the nodes above an account *)
Definition demo_path (a : nat) : list nat := match a with 3 => [0; 1; 2] | 2 => [0; 3; 4; 5] | 4 => [0; 3; 4; 6] | 1 => [0; 3; 7] | _ => [0; 3; 8] end%nat.
Definition demo_nodes (a : nat) : list gnode := Src :: flat_map (fun i => [TN i; TLim i]) (demo_path a) ++ [Acc a; Snk].
Fixpoint dist (g : graph) (p : list gnode) (u : gnode) : option Z :=
  match p with
  | x :: r => if geqb u x then Some 0 else match r with y :: _ => match dist g r u with Some d => Some (weight g x y + d) | None => None end | [] => None end
  | [] => None
  end.
Definition demo_pot (snk : nat) (g : graph) (u : gnode) : Z :=
  match u with
  | Snk => match dist g (demo_nodes snk) (Acc snk) with Some d => d | None => 0 end
  | _ => fold_right (fun a k => match dist g (demo_nodes a) u with Some d => d | None => k end) 0 [0; 1; 2; 3; 4]%nat
  end.
Definition lead_env : env := {|
  p_limit := fun k a => Ok (Fin (match k, a with MinIn, _ => 1 | MaxIn, 3%nat => 10 | MaxIn, _ => 30 | _, _ => 0 end)%Q);
  p_tx := fun k _ x => Ok [(1#2, x)%Q];
  p_grp := fun _ _ => None;
  p_prec := 1;
  p_flow := opt_solver
    (fun g => path_flow (map (fun a => (demo_nodes a, if cap_or g (Acc 2) Snk 0 =? 1 then 1 else match a with 3%nat => 9 | 2%nat => 6 | _ => 0 end)) [0; 1; 2; 3; 4]%nat))
    (fun g u => if cap_or g (Acc 2) Snk 0 =? 1 then match u with Snk => 1 | _ => 0 end else match u with Src => 0 | _ => 1 end)
    (fun g u => if cap_or g (Acc 2) Snk 0 =? 1 then demo_pot 0 g u else demo_pot 2 g u);
  p_hash := fun l => l |}.
Example C106_sat : 
  divide_debts (demo_ts true (Some (10#100)%Q)) demo_v [0; 1; 2; 3; 4]%nat = ([2; 4], [3])%nat /\
  priority_tree (demo_ts true (Some (10#100)%Q)) demo_v [0; 1; 2; 3; 4]%nat = Ok demo_tree /\
  (solver_ok_opt lead_env /\ deposits_exact lead_env MinIn /\ deposits_exact lead_env MaxIn /\ limits_in lead_env 3 1 (Fin 10) /\ limits_in lead_env 2 1 (Fin 30)) /\
  exists r, call lead_env 20 demo_root 20 = Ok r /\ (acct_tx r 3 == 10 /\ acct_tx r 2 == 7 /\ acct_tx r 4 == 1 /\ acct_tx r 1 == 1 /\ acct_tx r 0 == 1)%Q.
Proof.
  split; [vm_compute; reflexivity|]. split; [vm_compute; reflexivity|]. split.
  - split; [|split; [|split; [|split]]].
    + split; [reflexivity|]. split; [|auto]. intros g f H. eapply opt_solver_ok. exact H.
    + intros a x t L _ _ _ H. cbn in H. injection H as <-. unfold tx_of. cbn. lra.
    + intros a x t L _ _ _ H. cbn in H. injection H as <-. unfold tx_of. cbn. lra.
    + split; [reflexivity|]. split; [reflexivity|]. split; cbn; lra.
    + split; [reflexivity|]. split; [reflexivity|]. split; cbn; lra.
  - eexists. split; [vm_compute; reflexivity|]. repeat split; vm_compute; reflexivity.
Qed.

(** an account, then a list of a weighted group and another account: 20 are to be withdrawn; the first account gives
    at most 5, the others at most 6 each. The last item is not at the front of the list, but money
    comes from it before anything is left over; with a need of 100 every item is emptied *)
Definition mix_src : src := SSeq [SAcct 0%nat; SSeq [SDict [(SAcct 1%nat, 1#2); (SAcct 2%nat, 1#2)]%Q; SAcct 3%nat]].
Definition mix_root : tnode := fst (mk_node mix_src no_limits 0%nat).
Definition mix_env : env := {|
  p_limit := fun k a => Ok (Fin (match k, a with MaxOut, 0%nat => -5 | MaxOut, _ => -6 | MaxIn, _ => 6 | _, _ => 0 end)%Q);
  p_tx := fun k _ x => Ok [(1#2, x)%Q]; p_grp := fun _ _ => None; p_prec := 1; p_flow := mcmf; p_hash := fun l => l |}.
Example C106_left_over_sat :
  (solver_ok_opt mix_env /\ withdrawals_exact mix_env MinOut /\ withdrawals_exact mix_env MaxOut /\ deposits_exact mix_env MinIn /\ deposits_exact mix_env MaxIn) /\
  (plain mix_src /\ listed mix_src 3 /\ listed mix_src 0) /\
  (forall x, p_grp mix_env MaxOut x = None /\ limits_out mix_env x (match x with 0%nat => -5 | _ => -6 end)%Q) /\
  (forall x, p_grp mix_env MinIn x = None /\ p_grp mix_env MaxIn x = None /\ limits_in mix_env x 0%Q (Fin 6)) /\
  (exists r, call mix_env 20 mix_root (-20) = Ok r /\ acct_tx r 0 == -5 /\ acct_tx r 1 == -6 /\ acct_tx r 2 == -6 /\ acct_tx r 3 == -3 /\ total_tx r == -20)%Q /\
  (exists r, call mix_env 20 mix_root (-100) = Ok r /\ acct_tx r 3 == -6 /\ total_tx r == -23)%Q /\
  (exists r, call mix_env 20 mix_root 15 = Ok r /\ acct_tx r 0 == 6 /\ total_tx r == 15)%Q.
Proof.
  split; [|split; [|split; [|split; [|split; [|split]]]]].
  - split; [|split; [|split; [|split]]].
    + split; [reflexivity|]. split; [|auto]. intros g f H. now apply mcmf_optimal.
    + intros a x t L _ _ _ H. cbn in H. injection H as <-. unfold tx_of. cbn. lra.
    + intros a x t L _ _ _ H. cbn in H. injection H as <-. unfold tx_of. cbn. lra.
    + intros a x t L _ _ _ H. cbn in H. injection H as <-. unfold tx_of. cbn. lra.
    + intros a x t L _ _ _ H. cbn in H. injection H as <-. unfold tx_of. cbn. lra.
  - cbn. tauto.
  - intros x. split; [reflexivity|]. split; [exists 0%Q; split; [reflexivity|lra]|]. destruct x; (split; [reflexivity|cbn; lra]).
  - intros x. split; [reflexivity|]. split; [reflexivity|]. split; [reflexivity|]. split; [reflexivity|]. cbn. lra.
  - eexists. split; [vm_compute; reflexivity|]. repeat split; vm_compute; reflexivity.
  - eexists. split; [vm_compute; reflexivity|]. repeat split; vm_compute; reflexivity.
  - eexists. split; [vm_compute; reflexivity|]. repeat split; vm_compute; reflexivity.
Qed.
