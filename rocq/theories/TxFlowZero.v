(** The first (minimum outflow) pass of a withdrawal moves nothing: the edge from the source to the
    root has no capacity attribute, so the root's inbound capacity is computed as 0. *)
From Verif Require Import Base BaseFacts TxGraphModel TxFlowFacts TxFlowShape TxFlowAccounts.
From Coq Require Import Permutation Lia ZArith Lqa.
Local Open Scope Z_scope.

Lemma int_le : forall q, (0 <= q)%Q -> (fl (int_of q) <= q)%Q /\ 0 <= int_of q.
Proof.
  intros [n d] H. unfold int_of, fl. cbn [Qnum Qden]. unfold Qle in H. cbn in H.
  assert (0 <= n) by lia. rewrite Z.quot_div_nonneg by lia. split.
  - unfold Qle. cbn. pose proof (Z.mul_div_le n (Zpos d) ltac:(lia)). lia.
  - apply Z.div_pos; lia.
Qed.
Lemma int_zero : forall q, (q == 0)%Q -> int_of q = 0.
Proof. intros [n d] H. unfold Qeq in H. cbn in H. assert (n = 0) by lia. subst. reflexivity. Qed.
Lemma qabs_zero : forall q, (q == 0)%Q -> (qabs q == 0)%Q.
Proof. intros q H. destruct (qabs_case q) as [[? E]|[? E]]; rewrite E; lra. Qed.
Lemma fl_le : forall a b, a <= b -> (fl a <= fl b)%Q.
Proof. intros a b H. unfold fl. now rewrite <- Zle_Qle. Qed.
Lemma fl_add : forall a b, (fl (a + b) == fl a + fl b)%Q.
Proof. intros a b. unfold fl. now rewrite inject_Z_plus. Qed.

Section Zero.
  Variables (P : env) (limit : lk) (root : tnode) (sc : option Z).
  Hypothesis Hash : forall l c, In c (p_hash P l) -> In c l.
  Hypothesis Flow : forall g f, p_flow P g = Ok f -> feasible g f.
  Hypothesis Lims : t_lims root limit = None.
  Inductive below : tnode -> Prop :=
  | below_root : below root
  | below_child : forall n c, below n -> is_child n c -> below c.
  Hypothesis Ids : forall n c, below n -> is_child n c -> t_id c <> t_id root.
  Definition Gd (n : tnode) : Prop := below n /\ t_id n <> t_id root.
  Lemma Gd_child : forall n c, Gd n -> is_child n c -> Gd c.
  Proof. intros n c [B _] C. split; [eapply below_child; eauto|eapply Ids; eauto]. Qed.
  Lemma root_child : forall c, is_child root c -> Gd c.
  Proof. intros c C. split; [eapply below_child; [constructor|exact C]|eapply Ids; [constructor|exact C]]. Qed.

  Record zinv (g : graph) : Prop := {
    z_shape : shape P [] limit (t_id root) sc g;
    z_zero : forall v e, edge_of g (TLim (t_id root)) v = Some e -> exists c, e_cap e = Some c /\ c <= 0;
    z_ovf : forall u i e, edge_of g u (TOvf i) = Some e -> u = TLim i;
    z_tn : forall i v e, edge_of g (TN i) v = Some e -> v = TLim i }.
  (** a write that is not from the root's limit node, or has no capacity to give *)
  Lemma zinv_write : forall g u v c w, internal u v -> (u = TLim (t_id root) -> match c with Some z => z <= 0 | None => exists e, edge_of g u v = Some e end) ->
    (forall i, v = TOvf i -> u = TLim i) -> (forall i, u = TN i -> v = TLim i) -> zinv g -> zinv (nx_add_edge g u v c w).
  Proof.
    intros g u v c w I C O T [Z1 Z2 Z3 Z4]. constructor.
    - now apply shape_internal.
    - intros x e H. edges H; try (now eapply Z2; eauto). subst. injection H as <-. specialize (C eq_refl). unfold upd_edge. cbn [e_cap].
      destruct c as [z|]; [exists z; auto|]. destruct C as [e E]. rewrite E. eapply Z2; eauto.
    - intros x i e H. edges H; try (now eapply Z3; eauto). subst. now apply O.
    - intros i x e H. edges H; try (now eapply Z4; eauto). subst. now apply T.
  Qed.
  Lemma zinv_account : forall g a g', zinv g -> add_account P [] limit g a = Ok g' -> zinv g'.
  Proof.
    intros g a g' [Z1 Z2 Z3 Z4] H. constructor.
    - eapply shape_account; eauto.
    - intros v e K. rewrite add_account_nx in H. destruct (p_limit P limit a); [|discriminate].
      destruct (p_grp P limit a); injection H as <-; rewrite ?edge_add in K; cbn [geqb andb] in K; eauto.
    - intros u i e K. rewrite add_account_nx in H. destruct (p_limit P limit a); [|discriminate].
      destruct (p_grp P limit a); injection H as <-; rewrite ?edge_add in K; rewrite ?andb_false_r in K; eauto.
    - intros i v e K. rewrite add_account_nx in H. destruct (p_limit P limit a); [|discriminate].
      destruct (p_grp P limit a); injection H as <-; rewrite ?edge_add in K; cbn [geqb andb] in K; eauto.
  Qed.
  Ltac zw := apply zinv_write; [exact Logic.I| | | |].
  Lemma build_z : forall fuel,
    (forall g n cap sub ov g', Gd n -> (forall l, sub = Some l -> sub_ok n l) -> zinv g -> add_successors P [] limit fuel g n cap sub ov = Ok g' -> zinv g') /\
    (forall g n l cap ov g', Gd n -> sub_ok n l -> zinv g -> add_weighted_children P [] limit fuel g n l cap ov = Ok g' -> zinv g').
  Proof.
    apply build_pres.
    - exact Gd_child.
    - intros g n c G Z. destruct (embed_nx P [] limit g n c) as [k ->]. zw; try discriminate; [intros i E; congruence|exact Z].
    - intros g n c k w [_ N] _ _ Z. zw; try discriminate; [intros E; congruence|exact Z].
    - intros g n c k [_ N] _ _ Z. zw; try discriminate; exact Z.
    - intros g n k w [_ N] _ _ Z. zw; try discriminate; [intros E; congruence|intros i E; congruence|exact Z].
    - intros g n a k [_ N] _ Z. zw; try discriminate; [intros E; congruence|exact Z].
    - intros g n a g' _ _ Z H. eapply zinv_account; eauto.
  Qed.
  Definition has_ovf (g : graph) : Prop := exists e, edge_of g (TLim (t_id root)) (TOvf (t_id root)) = Some e.
  Lemma ovf_write : forall g u v c w, has_ovf g -> has_ovf (nx_add_edge g u v c w).
  Proof. intros g u v c w [e E]. unfold has_ovf. rewrite edge_add. destruct (_ && _); eauto. Qed.
  Lemma build_ovf : forall fuel,
    (forall g n cap sub ov g', True -> (forall l, sub = Some l -> sub_ok n l) -> has_ovf g -> add_successors P [] limit fuel g n cap sub ov = Ok g' -> has_ovf g') /\
    (forall g n l cap ov g', True -> sub_ok n l -> has_ovf g -> add_weighted_children P [] limit fuel g n l cap ov = Ok g' -> has_ovf g').
  Proof.
    apply (build_pres P [] limit (fun _ => True)); auto using ovf_write.
    - intros g n c _ E. destruct (embed_nx P [] limit g n c) as [k ->]. now apply ovf_write.
    - intros g n a g' _ _ E H. rewrite add_account_nx in H. destruct (p_limit P limit a); [|discriminate].
      destruct (p_grp P limit a); injection H as <-; auto using ovf_write.
  Qed.
  Definition eff (g : graph) (cap : option Q) : Q := match cap with Some c => c | None => fl (inbound_capacity g (TN (t_id root))) end.
  Lemma int_zero' : forall q x, (q == 0)%Q -> x = 0 -> int_of (qabs q - fl x)%Q <= 0.
  Proof. intros q x H ->. rewrite int_zero; [lia|]. pose proof (qabs_zero q H) as K. unfold fl, inject_Z. rewrite K. reflexivity. Qed.
  Lemma weighted_zero : forall fuel g l cap ov g', (cap == 0)%Q -> sub_ok root l -> zinv g ->
    add_weighted_children P [] limit fuel g root l cap ov = Ok g' -> zinv g'.
  Proof.
    intros [|f] g l cap ov g' C S Z H; [discriminate|]. rewrite weighted_S in H. cbv zeta in H. cbn [flow_children dget bind] in H.
    destruct (totals_of [] (TLim (t_id root)) (cap + fl 0) (Qsum (map snd l)) l) as [ts|] eqn:T; [|discriminate]. cbn [bind] in H.
    assert (TZ : forall t, In t ts -> (snd t == 0)%Q).
    { clear -T C. revert ts T. generalize (Qsum (map snd l)) as norm. intros norm. induction l as [|[c w] l IH]; intros ts T; cbn in T.
      - injection T as <-. intros t [].
      - unfold qdiv in T at 1. destruct (Qeq_bool norm 0) eqn:N; [discriminate|]. cbn [bind] in T.
        destruct (totals_of [] (TLim (t_id root)) (cap + fl 0) norm l) as [ts'|]; [|discriminate]. cbn in T. injection T as <-.
        intros t [<-|Ht]; [|now apply (IH ts')]. cbn [snd]. unfold flow_edge. cbn. unfold fl. apply Qeq_bool_f in N.
        setoid_replace ((cap + inject_Z 0) * w)%Q with 0%Q by (rewrite C; unfold inject_Z; ring). unfold Qdiv. rewrite Qmult_0_l. reflexivity. }
    assert (NG : filter (fun t => Qlt_bool (snd t) 0) ts = []).
    { clear -TZ. induction ts as [|t ts IH]; [reflexivity|]. cbn. pose proof (TZ t (or_introl eq_refl)) as E.
      destruct (Qlt_bool (snd t) 0) eqn:Q; [apply Qlt_bool_t in Q; lra|]. apply IH. intros x Hx. apply TZ. now right. }
    rewrite NG in H. cbn [bind fst snd] in H.
    assert (S1 : sub_ok root ts) by (unfold sub_ok; rewrite (totals_fst _ _ _ _ _ _ T); exact S). clear T NG S.
    revert g Z H. induction ts as [|[c t] r IHl]; intros g Z H; [injection H as <-; exact Z|].
    match type of H with bind ?X _ = _ => destruct X as [g2|] eqn:X2; [|discriminate] end. cbn [bind] in H.
    eapply IHl; [intros x Hx; apply TZ; now right|intros d Hd; apply S1; now right| |exact H].
    rewrite add_edge_nx in X2. assert (Ch : is_child root c) by (apply S1; now left).
    refine (proj1 (build_z f) _ _ _ _ _ _ _ _ _ X2); [now apply root_child|intros l0 E0; discriminate|].
    zw; try discriminate; [|exact Z]. intros _. apply int_zero'; [apply (TZ (c, t)); now left|reflexivity].
  Qed.
  Lemma root_zero : forall fuel g cap sub ov g', (eff g cap == 0)%Q -> (forall l, sub = Some l -> sub_ok root l) -> zinv g ->
    add_successors P [] limit fuel g root cap sub ov = Ok g' -> zinv g'.
  Proof.
    intros [|f] g cap sub ov g' C S Z H; [discriminate|]. rewrite successors_S in H. cbv zeta in H.
    unfold embed_limit in H. rewrite Lims in H. fold (eff g cap) in H. rewrite (add_edge_nx [] g) in H.
    set (g1 := nx_add_edge g (TN (t_id root)) (TLim (t_id root)) None None) in H. generalize dependent (eff g cap). intros c0 C H.
    assert (Z1 : zinv g1) by (unfold g1; zw; try discriminate; [intros i E; congruence|exact Z]).
    destruct (body_src (t_body root)) as [a|l0|l0|b0] eqn:B.
    - eapply zinv_account; [|exact H]. rewrite add_edge_nx. zw; try discriminate; [|exact Z1]. intros _. now apply int_zero'.
    - destruct (children_of root) as [l|] eqn:CO; [|discriminate]. cbn [bind] in H. clear B l0.
      assert (K : forall c, In c l -> is_child root c) by (intros c Hc; exists l; auto). clear CO.
      revert H. generalize 0 as w. generalize dependent g1. induction l as [|c r IHl]; intros g1 I1 w H; [injection H as <-; exact I1|].
      rewrite add_edge_nx in H. match type of H with bind ?X _ = _ => destruct X as [g2|] eqn:X2; [|discriminate] end. cbn [bind] in H.
      destruct (sum_weight f g2 (TN (t_id c))) as [s|]; [|discriminate]. cbn [bind] in H.
      eapply IHl; [intros d Hd; apply K; now right| |exact H].
      refine (proj1 (build_z f) _ _ _ _ _ _ _ _ _ X2); [apply root_child, K; now left|intros l0 E0; discriminate|].
      zw; try discriminate; [|exact I1]. intros _. now apply int_zero'.
    - assert (exists l, (match sub with Some l => Ok l | None => match t_body root with TWt l => Ok l | _ => Err AttributeError end end) = Ok l /\ sub_ok root l) as (l & L1 & L2).
      { destruct sub as [l|]; [exists l; split; [reflexivity|now apply S]|].
        destruct (t_body root) as [a|l|l|b] eqn:T; try discriminate H.
        exists l. split; [reflexivity|]. intros c Hc. exists (map fst l). split; [unfold children_of; now rewrite T|exact Hc]. }
      rewrite L1 in H. cbn [bind] in H.
      match type of H with bind (add_weighted_children _ _ _ _ ?X _ _ _ _) _ = _ => assert (I2 : zinv X); [|destruct (add_weighted_children P [] limit f X root l c0 ov) as [g3|] eqn:X3; [|discriminate]] end.
      { destruct ov; [|exact Z1]. rewrite (add_edge_nx [] g1).
        match goal with |- zinv (fold_left _ l ?X) => assert (I2 : zinv X); [|generalize dependent X] end.
        { zw; try discriminate; [intros _; now apply int_zero'|intros i E; congruence|exact Z1]. }
        clear -L2. induction l as [|c l IH]; intros g I2; [exact I2|]. cbn [fold_left].
        apply IH; [intros d Hd; apply L2; now right|]. rewrite add_edge_nx. zw; try discriminate. exact I2. }
      cbn [bind] in H. assert (I3 : zinv g3) by (eapply weighted_zero; [exact C|exact L2|exact I2|exact X3]).
      destruct ov; [|injection H as <-; exact I3].
      match type of H with bind ?X _ = _ => destruct X as [ws|]; [|discriminate] end. cbn [bind] in H.
      destruct ws; [discriminate|]. injection H as <-. rewrite add_edge_nx.
      (* the overflow edge already has capacity 0 *)
      assert (OE : has_ovf g3).
      { eapply (proj2 (build_ovf f)); [exact Logic.I|exact L2| |exact X3].
        match goal with |- has_ovf (fold_left _ l ?X) => assert (I2' : has_ovf X); [|revert I2'; generalize X; clear] end.
        { unfold has_ovf. rewrite ?add_edge_nx, edge_add, !geqb_refl. cbn [andb]. eauto. }
        induction l as [|c l IH]; intros g I2; [exact I2|]. cbn [fold_left]. apply IH. rewrite add_edge_nx. now apply ovf_write. }
      zw; try discriminate; [intros _; exact OE|intros i E; congruence|exact I3].
    - discriminate.
  Qed.

  (** rebalancing keeps it that way: nothing flows through the root's children *)
  Lemma zinv_flows : forall g f, zinv g -> feasible g f ->
    (forall v, f (TLim (t_id root)) v = 0) /\ (forall v, f (TOvf (t_id root)) v = 0) /\ outflow g f Src = 0.
  Proof.
    intros g f [Z1 Z2 Z3 Z4] F.
    assert (T : forall v, f (TLim (t_id root)) v = 0).
    { intros v. destruct (edge_of g (TLim (t_id root)) v) as [e|] eqn:E; [|now apply (fe_edges _ _ F)].
      destruct (Z2 _ _ E) as (c & C1 & C2). pose proof (fe_cap _ _ F _ _ _ _ E C1). pose proof (fe_pos _ _ F (TLim (t_id root)) v). lia. }
    assert (K : forall u, u <> Src -> u <> Snk -> inflow g f u = 0 -> forall v, f u v = 0).
    { intros u N1 N2 H v. destruct (in_dec gnode_dec u (nodes g)) as [I|I]; [|apply (not_node _ _ _ _ _ _ _ Z1 F); now left].
      destruct (in_dec gnode_dec v (nodes g)) as [J|J]; [|apply (not_node _ _ _ _ _ _ _ Z1 F); now right].
      rewrite <- (fe_cons _ _ F u I N1 N2) in H. unfold outflow in H. clear -H J F.
      induction (nodes g) as [|x l IH]; [destruct J|]. cbn [map] in H. change (f u x + Zsum (map (fun v => f u v) l) = 0) in H.
      pose proof (fe_pos _ _ F u x). assert (0 <= Zsum (map (fun v => f u v) l)) by (apply Zsum_pos; intros; apply (fe_pos _ _ F)).
      destruct J as [->|J]; [lia|]. apply IH; [lia|exact J]. }
    split; [exact T|]. split.
    - apply K; try discriminate. apply Zsum_zero. intros u _. destruct (edge_of g u (TOvf (t_id root))) as [e|] eqn:E; [|now apply (fe_edges _ _ F)].
      apply Z3 in E. subst. apply T.
    - rewrite (src_out _ _ _ _ _ _ _ Z1 F).
      assert (A : f (TN (t_id root)) (TLim (t_id root)) = 0).
      { (* what enters the limit node leaves it *)
        destruct (in_dec gnode_dec (TLim (t_id root)) (nodes g)) as [I|I]; [|apply (not_node _ _ _ _ _ _ _ Z1 F); now right].
        assert (O : inflow g f (TLim (t_id root)) = 0).
        { rewrite <- (fe_cons _ _ F) by (auto; discriminate). apply Zsum_zero. intros v _. apply T. }
        destruct (in_dec gnode_dec (TN (t_id root)) (nodes g)) as [J|J]; [|apply (not_node _ _ _ _ _ _ _ Z1 F); now left].
        unfold inflow in O. clear -O J F. induction (nodes g) as [|x l IH]; [destruct J|]. cbn [map] in O.
        change (f x (TLim (t_id root)) + Zsum (map (fun u => f u (TLim (t_id root))) l) = 0) in O.
        pose proof (fe_pos _ _ F x (TLim (t_id root))). assert (0 <= Zsum (map (fun u => f u (TLim (t_id root))) l)) by (apply Zsum_pos; intros; apply (fe_pos _ _ F)).
        destruct J as [->|J]; [lia|]. apply IH; [lia|exact J]. }
      destruct (in_dec gnode_dec (TN (t_id root)) (nodes g)) as [J|J]; [|apply (not_node _ _ _ _ _ _ _ Z1 F); now right].
      assert (O : inflow g f (TN (t_id root)) = 0).
      { rewrite <- (fe_cons _ _ F) by (auto; discriminate). rewrite (only_edge _ _ _ _ _ _ _ Z1 F _ (TLim (t_id root))); [exact A|].
        intros v e E. eapply Z4; eauto. }
      destruct (in_dec gnode_dec Src (nodes g)) as [I|I]; [|apply (not_node _ _ _ _ _ _ _ Z1 F); now left].
      unfold inflow in O. clear -O I F. induction (nodes g) as [|x l IH]; [destruct I|]. cbn [map] in O.
      change (f x (TN (t_id root)) + Zsum (map (fun u => f u (TN (t_id root))) l) = 0) in O.
      pose proof (fe_pos _ _ F x (TN (t_id root))). assert (0 <= Zsum (map (fun u => f u (TN (t_id root))) l)) by (apply Zsum_pos; intros; apply (fe_pos _ _ F)).
      destruct I as [->|I]; [lia|]. apply IH; [lia|exact I].
  Qed.
  Lemma restrict_z : forall g n all cs f, zinv g -> zinv (restrict_overflow g n all cs f).
  Proof.
    intros g n all cs f. unfold restrict_overflow. revert g. induction all as [|c all IH]; intros g Z; [exact Z|]. cbn [fold_left].
    apply IH. destruct (has_node c cs); [exact Z|]. zw; try discriminate. exact Z.
  Qed.
  Lemma balance_root_z : forall fuel g children ra g', (forall c, In c children -> is_child root c) -> zinv g ->
    balance_flows P [] limit fuel g root children ra = Ok g' -> zinv g'.
  Proof.
    induction fuel as [|f IH]; intros g children ra g' Ch I H; [discriminate|]. rewrite balance_S in H. cbv zeta in H.
    set (recurse := recurse_of P [] limit f root) in H.
    destruct children as [|c0 cr] eqn:EC; [injection H as <-; exact I|]. rewrite <- EC in *. clear EC.
    destruct (p_flow P g) as [fl_|] eqn:PF; [|discriminate]. cbn [bind] in H. apply Flow in PF.
    destruct (zinv_flows g fl_ I PF) as (FT & FO & _).
    assert (RP : forall g cs ra g', (forall c, In c cs -> is_child root c) -> zinv g -> recurse g cs fl_ ra = Ok g' -> zinv g').
    { clear H g PF ra g' I. intros g cs ra g' Hcs I H. unfold recurse, recurse_of in H. cbv zeta in H.
      destruct (children_subset root cs) as [[l|l]|] eqn:CS; cbn [bind] in H; try discriminate.
      match type of H with bind ?X _ = _ => destruct X as [g1|] eqn:X1; [|discriminate] end. cbn [bind] in H.
      assert (I1 : zinv g1).
      { eapply root_zero; [| |exact I|exact X1].
        - unfold eff. fold (Zsum (map (fun c => fl_ (TLim (t_id root)) (TN (t_id c)) + fl_ (TOvf (t_id root)) (TN (t_id c))) cs)).
          rewrite Zsum_zero; [reflexivity|]. intros c _. now rewrite FT, FO.
        - intros l' E. injection E as <-. intros c Hc. apply Hcs. eapply subset_keys; eauto. }
      destruct (Nat.ltb 1 (Datatypes.length cs)); [|injection H as <-; exact I1].
      destruct (children_of root) as [all|] eqn:CO; [|discriminate]. cbn [bind] in H.
      eapply IH; [exact Hcs| |exact H]. now apply restrict_z. }
    destruct (classify g root fl_ children) as [[[u o] s]|] eqn:CL; [|discriminate]. cbn [bind] in H.
    pose proof (classify_in _ _ _ _ _ _ _ CL) as CI.
    assert (GO : forall u o s g', (forall c, In c u \/ In c o \/ In c s -> In c children) ->
       (let* g1 := recurse g (p_hash P (u ++ s)) fl_ true in
        let* su := swap_saturated g1 root fl_ children s u in recurse g1 (p_hash P (o ++ fst su)) fl_ true) = Ok g' -> zinv g').
    { clear H CI CL u o s g'. intros u o s g' CI H.
      destruct (recurse g (p_hash P (u ++ s)) fl_ true) as [g1|] eqn:R1; [|discriminate]. cbn [bind] in H.
      assert (I1 : zinv g1).
      { eapply RP; [|exact I|exact R1]. intros c Hc. apply Ch, CI. apply Hash, in_app_or in Hc. tauto. }
      destruct (swap_saturated g1 root fl_ children s u) as [[s2 n2]|] eqn:SW; [|discriminate]. cbn [bind fst] in H.
      eapply RP; [|exact I1|exact H]. intros c Hc. apply Ch, CI. apply Hash, in_app_or in Hc.
      destruct Hc as [Hc|Hc]; [tauto|]. right; right. eapply swap_in; eauto. }
    destruct u as [|u0 ur]; destruct o as [|o0 orr].
    - injection H as <-. exact I.
    - destruct ra; [eapply RP; [exact Ch|exact I|exact H]|]. destruct s as [|s0 sr]; [injection H as <-; exact I|].
      eapply GO; [|exact H]. intros c Hc. apply CI. cbn in Hc |- *. tauto.
    - destruct ra; [eapply RP; [exact Ch|exact I|exact H]|]. destruct s as [|s0 sr]; [injection H as <-; exact I|].
      eapply GO; [|exact H]. intros c Hc. apply CI. cbn in Hc |- *. tauto.
    - eapply GO; [|exact H]. exact CI.
  Qed.
  Lemma balance_other_z : forall fuel g n children ra g', Gd n -> (forall c, In c children -> is_child n c) -> zinv g ->
    balance_flows P [] limit fuel g n children ra = Ok g' -> zinv g'.
  Proof.
    intros fuel. refine (balance_pres P [] limit Gd zinv Gd_child _ _ _ _ _ _ Hash fuel).
    - intros g n c G Z. destruct (embed_nx P [] limit g n c) as [k ->]. zw; try discriminate; [intros i E; congruence|exact Z].
    - intros g n c k w [_ N] _ _ Z. zw; try discriminate; [intros E; congruence|exact Z].
    - intros g n c k [_ N] _ _ Z. zw; try discriminate; exact Z.
    - intros g n k w [_ N] _ _ Z. zw; try discriminate; [intros E; congruence|intros i E; congruence|exact Z].
    - intros g n a k [_ N] _ Z. zw; try discriminate; [intros E; congruence|exact Z].
    - intros g n a g' _ _ Z H. eapply zinv_account; eauto.
  Qed.
  Lemma balance_all_z : forall fuel g g', zinv g -> balance_weighted P [] limit fuel g root = Ok g' -> zinv g'.
  Proof.
    intros fuel g g' I H. unfold balance_weighted in H. destruct (bfs_weighted fuel [root]) as [ws|] eqn:B; [|discriminate]. cbn [bind] in H.
    assert (GW : forall n, In n ws -> n = root \/ Gd n).
    { eapply (bfs_good (fun n => n = root \/ Gd n)); [| |exact B]; [|intros n [<-|[]]; now left].
      intros n c [->|G] C; right; [now apply root_child|eapply Gd_child; eauto]. }
    clear B.
    assert (K : forall ws e, (forall g, fold_left (fun g n => let* g := g in let* cs := children_of n in balance_flows P [] limit fuel g n cs true) ws (@Err graph e) <> Ok g)).
    { clear. induction ws as [|n ws IH]; intros e g; cbn; [discriminate|apply IH]. }
    revert g I H. induction ws as [|n ws IH]; intros g I H; cbn [fold_left] in H; [injection H as <-; exact I|].
    cbn [bind] in H. destruct (children_of n) as [cs|] eqn:C; cbn [bind] in H; [|exfalso; eapply K; eauto].
    destruct (balance_flows P [] limit fuel g n cs true) as [g1|] eqn:B; [|exfalso; eapply K; eauto].
    eapply IH; [intros m Hm; apply GW; now right| |exact H].
    destruct (GW n (or_introl eq_refl)) as [->|G].
    - eapply balance_root_z; [|exact I|exact B]. intros c Hc. exists cs. auto.
    - eapply balance_other_z; [exact G| |exact I|exact B]. intros c Hc. exists cs. auto.
  Qed.
End Zero.
Lemma min_outflow_graph : forall P limit root fuel b g,
  (forall l c, In c (p_hash P l) -> In c l) -> (forall g f, p_flow P g = Ok f -> feasible g f) ->
  t_lims root limit = None -> (forall n c, below root n -> is_child n c -> t_id c <> t_id root) ->
  build_graph P [] limit fuel root (Inf b) = Ok g -> forall f, feasible g f -> outflow g f Src = 0.
Proof.
  intros P limit root fuel b g Hh Fl L Ids H f F.
  enough (Z : zinv P limit root (src_cap P [] root (Inf b)) g) by (now apply (zinv_flows _ _ _ _ g f Z F)).
  unfold build_graph in H. match type of H with bind ?X _ = _ => destruct X as [g1|] eqn:X1; [|discriminate] end. cbn [bind] in H.
  eapply balance_all_z; [exact Hh|exact Fl|exact L|exact Ids| |exact H].
  pose proof (shape_start P [] limit root (Inf b)) as S0.
  eapply root_zero; [exact L|exact Ids| | | |exact X1].
  - unfold eff, add_edge, scaled_total, inbound_capacity. cbn. rewrite Nat.eqb_refl. cbn. reflexivity.
  - intros l E. discriminate.
  - constructor; [exact S0| | |].
    + intros v e E. rewrite add_edge_nx, edge_add in E. cbn [geqb andb] in E. discriminate.
    + intros u i e E. rewrite add_edge_nx, edge_add in E. cbn [geqb] in E. rewrite andb_false_r in E. discriminate.
    + intros i v e E. rewrite add_edge_nx, edge_add in E. cbn [geqb andb] in E. discriminate.
Qed.
