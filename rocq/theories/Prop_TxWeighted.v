(** C98: weighted groups share money in proportion to their weights. *)
From Verif Require Import Base BaseFacts TxGraphModel TxFlowFacts TxFlowShape TxFlowAccounts TxFlowZero TxFlowNode Prop_TxGraph Prop_TxOrder.
From Coq Require Import Permutation Lia ZArith Lqa.
Local Open Scope Z_scope.

(** ** Specification *)
(** a group of accounts with weights: distinct new nodes, distinct accounts *)
Definition flat_group (root : tnode) (l : list (tnode * Q)) (accts : list nat) : Prop :=
  t_body root = TWt l /\ Forall2 leaf_of (map fst l) accts /\
  NoDup (t_id root :: map t_id (map fst l)) /\ NoDup accts /\ (forall c w, In (c, w) l -> (0 < w)%Q).

(** ** The graph of a flat group *)
Lemma int_exact : forall q z, (q == fl z)%Q -> int_of q = z.
Proof. intros [n d] z H. unfold Qeq, fl, inject_Z in H. cbn in H. unfold int_of. cbn. rewrite Z.mul_1_r in H. rewrite H. apply Z.quot_mul. discriminate. Qed.
Lemma int_cap : forall q z, 0 <= z -> (q == fl z)%Q -> int_of (qabs q - fl 0)%Q = z.
Proof.
  intros q z H E. apply int_exact. assert (P0 : (0 <= q)%Q) by (rewrite E; unfold Qle, fl; cbn; lia).
  assert (A : (qabs q == q)%Q) by (destruct (qabs_case q) as [[? Q]|[? Q]]; rewrite Q; lra). rewrite A, E. unfold fl at 2, inject_Z. lra.
Qed.
Lemma children_zero : forall m u vs z, flow_children m u vs = Ok z -> (forall v, In v vs -> flow_edge m u v = 0) -> z = 0.
Proof.
  intros m u vs z H Z0. unfold flow_children in H. unfold flow_edge in Z0. destruct (dget geqb m u) as [d|]; [|congruence].
  revert z H. induction vs as [|v vs IH]; intros z H; [congruence|]. pose proof (Z0 v (or_introl eq_refl)) as Zv. cbv beta iota in H. unfold dget_r in H at 1.
  destruct (dget geqb d v) as [x|]; [|discriminate]. cbn [bind] in H.
  match type of H with bind ?Y _ = _ => destruct Y as [y|] eqn:E; [|discriminate] end. cbn [bind] in H. injection H as <-. subst x.
  rewrite (IH (fun v Hv => Z0 v (or_intror Hv)) y eq_refl). reflexivity.
Qed.
Lemma sum_weight_zero : forall fuel g u s, gwf g -> (forall a b e, edge_of g a b = Some e -> e_w e = None) -> sum_weight fuel g u = Ok s -> s = 0.
Proof.
  induction fuel as [|f IH]; intros g u s W Z0 H; [discriminate|]. cbn [sum_weight] in H.
  assert (K : forall v e, In (v, e) (adj g u) -> e_w e = None).
  { intros v e Hv. apply (Z0 u v). unfold edge_of. apply gIn_get; [apply W|exact Hv]. }
  revert s H. induction (adj g u) as [|[v e] r IHr]; intros s H; [congruence|]. cbv beta iota in H.
  destruct (sum_weight f g v) as [x|] eqn:X; [|discriminate]. cbn [bind] in H.
  match type of H with bind ?Y _ = _ => destruct Y as [y|] eqn:E; [|discriminate] end. cbn [bind] in H. injection H as <-.
  rewrite (K v e (or_introl eq_refl)). rewrite (IH g v x W Z0 X). rewrite (IHr (fun v e Hv => K v e (or_intror Hv)) y eq_refl). reflexivity.
Qed.

Section Group.
  Variables (P : env) (memo : flowd) (limit : lk) (root : tnode) (l : list (tnode * Q)) (accts : list nat) (Cs : Z) (V : option Z) (C : Z) (sh : nat -> Z).
  Hypothesis Flat : flat_group root l accts.
  Hypothesis Own : match t_lims root limit with
                   | None => V = None /\ C = Cs
                   | Some lim => exists z, 0 <= z /\ (lim / p_prec P - fl (flow_out memo (TN (t_id root))) == fl z)%Q /\ V = Some z /\ C = Z.min Cs z
                   end.
  Hypothesis HCs : 0 <= Cs.
  Hypothesis NoGrp : forall a, p_grp P limit a = None.
  Hypothesis M1 : forall a, In a accts -> flow_out memo (Acc a) = 0.
  Hypothesis M2 : forall c, In c (map fst l) -> flow_edge memo (TLim (t_id root)) (TN (t_id c)) = 0.
  Hypothesis HC : 0 <= C.
  Hypothesis Sh0 : forall c, In c (map fst l) -> 0 <= sh (t_id c).
  Hypothesis Shw : forall c w, In (c, w) l -> (fl C * w / Qsum (map snd l) == fl (sh (t_id c)))%Q.
  Let r := t_id root.
  Let cs := map fst l.
  Definition as_list : tnode := TNode (t_id root) no_limits (TOrd (map fst l)).
  Lemma as_flat : flat_list as_list (map fst l) accts.
  Proof. destruct Flat as (_ & L & N & D & _). split; [reflexivity|]. split; [reflexivity|]. split; [exact L|]. split; [exact N|exact D]. Qed.
  Lemma gchild_id : forall c, In c cs -> t_id c <> r.
  Proof. intros c H. exact (child_id as_list _ accts as_flat c H). Qed.
  Lemma gin_leaf : forall c, In c cs -> exists a, t_body c = TLeaf a /\ In a accts /\ leaf_of c a.
  Proof.
    intros c H. destruct Flat as (_ & L & _). unfold cs in H. revert H. clear -L. induction L as [|x a cs0 as0 La _ IH]; intros H; [destruct H|].
    destruct H as [<-|H]; [exists a; split; [apply La|]; split; [now left|exact La]|]. destruct (IH H) as (b & B1 & B2 & B3). exists b. split; [exact B1|]. split; [now right|exact B3].
  Qed.
  Lemma gsame_leaf : forall c d a, In c cs -> In d cs -> t_body c = TLeaf a -> t_body d = TLeaf a -> t_id c = t_id d.
  Proof. intros c d a. exact (same_leaf as_list _ accts as_flat c d a). Qed.
  Lemma gsame_id : forall c d, In c cs -> In d cs -> t_id c = t_id d -> c = d.
  Proof.
    intros c d Hc Hd E. destruct Flat as (_ & _ & N & _). inversion N as [|? ? _ N2]; subst. fold cs in N2. clear -Hc Hd E N2.
    induction cs as [|z t IH]; [destruct Hc|]. cbn in N2. inversion N2 as [|? ? Nz Nl]; subst.
    destruct Hc as [<-|Hc], Hd as [<-|Hd]; auto; exfalso; apply Nz; [rewrite E|rewrite <- E]; now apply in_map.
  Qed.
  Definition edge_ok (u v : gnode) : Prop :=
    match u, v with
    | Src, TN m => m = r
    | TN m, TLim m' => m = m' /\ (m = r \/ exists c, In c cs /\ t_id c = m)
    | TLim m, TN j => m = r /\ exists c, In c cs /\ t_id c = j
    | TLim m, TOvf m' => m = r /\ m' = r
    | TOvf m, TN j => m = r /\ exists c, In c cs /\ t_id c = j
    | TLim m, Acc a => exists c, In c cs /\ t_id c = m /\ t_body c = TLeaf a
    | Acc a, Snk => In a accts
    | _, _ => False
    end.
  Definition ginv (g : graph) : Prop := gwf g /\ (forall u v e, edge_of g u v = Some e -> edge_ok u v).
  Definition unweighted (g : graph) : Prop := forall u v e, edge_of g u v = Some e -> e_w e = None.
  Lemma ginv_add : forall g u v c w, edge_ok u v -> ginv g -> ginv (nx_add_edge g u v c w).
  Proof.
    intros g u v c w H [W E]. split; [now apply gwf_add|]. intros a b e X. edges X; try (exact (E _ _ _ X)). subst. exact H.
  Qed.
  Lemma unw_add : forall g u v c, unweighted g -> unweighted (nx_add_edge g u v c None).
  Proof.
    intros g u v c H a b e X. edges X; try (exact (H _ _ _ X)). subst. injection X as <-. unfold upd_edge. cbn [e_w].
    destruct (edge_of g u v) as [e0|] eqn:E; [|reflexivity]. exact (H _ _ _ E).
  Qed.
  (** a child that has been processed *)
  Definition glane (g : graph) (c : tnode) (a : nat) : Prop :=
    (exists e, edge_of g (TLim r) (TN (t_id c)) = Some e /\ e_cap e = Some (sh (t_id c))) /\
    (exists e, edge_of g (TN (t_id c)) (TLim (t_id c)) = Some e /\ e_cap e = None) /\
    (exists e, edge_of g (TLim (t_id c)) (Acc a) = Some e /\ e_cap e = Some (sh (t_id c) + C)) /\
    (exists e x, edge_of g (Acc a) Snk = Some e /\ p_limit P limit a = Ok x /\ e_cap e = capx P x 0).
  Definition gfresh (g : graph) (c : tnode) (a : nat) : Prop :=
    edge_of g (TLim r) (TN (t_id c)) = None /\ edge_of g (TN (t_id c)) (TLim (t_id c)) = None /\ edge_of g (TLim (t_id c)) (Acc a) = None /\
    edge_of g (Acc a) Snk = None.
  Definition has_ovf (g : graph) (c : tnode) : Prop := exists e, edge_of g (TOvf r) (TN (t_id c)) = Some e /\ e_cap e = Some C.
  Lemma gchild : forall fuel g c a t g', In c cs -> leaf_of c a -> In a accts -> ginv g -> unweighted g -> gfresh g c a -> has_ovf g c -> (t == fl (sh (t_id c)))%Q ->
    add_successors P memo limit fuel (add_edge [] g (TLim r) (TN (t_id c)) (Some (Fin t)) None) c None None true = Ok g' ->
    ginv g' /\ unweighted g' /\ glane g' c a /\
    (forall u v, u <> TLim (t_id c) -> u <> TN (t_id c) -> u <> Acc a -> ~ (u = TLim r /\ v = TN (t_id c)) -> edge_of g' u v = edge_of g u v).
  Proof.
    intros [|f] g c a t g' Hc [La Ll] Ha G U (E1 & E2 & E3 & E4) (eo & EO & CO) Ht H; [discriminate|]. rewrite successors_S in H. cbv zeta in H.
    pose proof (gchild_id c Hc) as Nr. pose proof (Sh0 c Hc) as S0.
    rewrite add_edge_nx in H. unfold flow_edge in H. cbn [dget] in H. rewrite (int_cap t (sh (t_id c)) S0 Ht) in H.
    set (g1 := nx_add_edge g (TLim r) (TN (t_id c)) (Some (sh (t_id c))) None) in H.
    unfold embed_limit in H. rewrite Ll in H.
    assert (G1 : ginv g1) by (apply ginv_add; [split; [reflexivity|exists c; auto]|exact G]).
    assert (U1 : unweighted g1) by (now apply unw_add).
    assert (EO1 : edge_of g1 (TOvf r) (TN (t_id c)) = Some eo) by (unfold g1; rewrite edge_add; cbn [geqb andb]; exact EO).
    assert (IC : inbound_capacity g1 (TN (t_id c)) = sh (t_id c) + C).
    { rewrite inbound_sum by apply G1. rewrite <- (Zsum_incl (fun u => match edge_of g1 u (TN (t_id c)) with Some {| e_cap := Some c0 |} => c0 | _ => 0 end) [TLim r; TOvf r] (nodes g1)).
      - unfold Zsum. cbn [map fold_right]. rewrite EO1. unfold g1. rewrite edge_add, !geqb_refl. cbn [andb]. unfold upd_edge. destruct eo as [k w]. cbn in CO. subst k. lia.
      - constructor; [intros [Q|[]]; discriminate|]. constructor; [intros []|constructor].
      - apply G1.
      - intros x [<-|[<-|[]]]; [|destruct G1 as ((_ & _ & W) & _); now apply (W _ _ _ EO1)]. unfold g1. apply nodes_add. now left.
      - intros x _ Nx. destruct (edge_of g1 x (TN (t_id c))) as [e|] eqn:E; [|reflexivity]. exfalso. apply Nx.
        destruct G1 as [_ G1]. specialize (G1 _ _ _ E). destruct x; cbn in G1; try contradiction.
        + left. destruct G1 as [-> _]. reflexivity. + right. left. destruct G1 as [-> _]. reflexivity. }
    rewrite IC in H. rewrite La in H. cbn [body_src] in H. rewrite !add_edge_nx in H. unfold flow_edge in H. cbn [dget] in H.
    rewrite (int_cap (fl (sh (t_id c) + C)) (sh (t_id c) + C)) in H by (lia || reflexivity).
    rewrite add_account_nx, NoGrp in H. destruct (p_limit P limit a) as [x|] eqn:PL; [|discriminate]. injection H as <-.
    rewrite (M1 a Ha).
    assert (NEQ : Nat.eqb r (t_id c) = false) by (apply Nat.eqb_neq; congruence).
    split; [|split; [|split]].
    - apply ginv_add; [exact Ha|]. apply ginv_add; [exists c; auto|]. apply ginv_add; [split; [reflexivity|right; exists c; auto]|exact G1].
    - apply unw_add, unw_add, unw_add, U1.
    - split; [|split; [|split]].
      + rewrite !edge_add. cbn [geqb andb]. rewrite NEQ. cbn [andb]. unfold g1. rewrite edge_add, !geqb_refl. cbn [andb]. eexists. split; [reflexivity|]. reflexivity.
      + rewrite !edge_add. cbn [geqb andb]. rewrite !Nat.eqb_refl. cbn [andb]. eexists. split; [reflexivity|]. unfold upd_edge. cbn [e_cap]. unfold g1. rewrite edge_add. cbn [geqb andb]. now rewrite E2.
      + rewrite !edge_add. cbn [geqb andb]. rewrite !Nat.eqb_refl. cbn [andb]. eexists. split; [reflexivity|]. reflexivity.
      + rewrite edge_add, !geqb_refl. cbn [andb]. eexists. exists x. split; [reflexivity|]. split; [exact PL|]. unfold upd_edge. cbn [e_cap].
        destruct (capx P x 0) eqn:K; [reflexivity|]. rewrite !edge_add. cbn [geqb andb]. unfold g1. rewrite edge_add. cbn [geqb andb]. now rewrite E4.
    - intros u v N1 N2 N3 N4. apply geqb_neq in N1, N2, N3. rewrite !edge_add, N1, N2, N3. cbn [andb]. unfold g1. rewrite edge_add.
      destruct (geqb u (TLim r)) eqn:Q1; [|reflexivity]. destruct (geqb v (TN (t_id c))) eqn:Q2; [|reflexivity].
      apply geqb_eq in Q1, Q2. subst. exfalso. now apply N4.
  Qed.
  Definition gloop (f : nat) := fix go (g : graph) (ts : list (tnode * Q)) {struct ts} : res graph :=
           match ts with
           | [] => Ok g
           | (c, t) :: r0 =>
               let* g' := add_successors P memo limit f (add_edge [] g (TLim (t_id root)) (TN (t_id c)) (Some (Fin t)) None) c None None true in
               go g' r0
           end.
  Lemma gloop_lanes : forall f ts la g g', incl (map fst ts) cs -> incl la accts -> Forall2 leaf_of (map fst ts) la -> NoDup (map t_id (map fst ts)) -> NoDup la ->
    ginv g -> unweighted g -> (forall c a, In (c, a) (combine (map fst ts) la) -> gfresh g c a) -> (forall c, In c cs -> has_ovf g c) ->
    (forall c t, In (c, t) ts -> (t == fl (sh (t_id c)))%Q) ->
    gloop f g ts = Ok g' ->
    ginv g' /\ unweighted g' /\ (forall c a, In (c, a) (combine (map fst ts) la) -> glane g' c a) /\
    (forall u v, (forall c, In c (map fst ts) -> u <> TLim (t_id c) /\ u <> TN (t_id c) /\ ~ (u = TLim r /\ v = TN (t_id c))) -> (forall a, In a la -> u <> Acc a) -> edge_of g' u v = edge_of g u v).
  Proof.
    intros f ts. induction ts as [|[c t] ts IH]; intros la g g' Inc Ina L D1 D2 G U Fr Ov Ht H.
    - cbn in H. injection H as <-. split; [exact G|]. split; [exact U|]. split; [intros c a []|auto].
    - cbn [map fst] in *. inversion L as [|? a ? la' Lc Lr]; subst. inversion D1 as [|? ? Nc Dl]; subst. inversion D2 as [|? ? Na Da]; subst.
      cbn [gloop] in H. match type of H with bind ?X _ = _ => destruct X as [g2|] eqn:X2; [|discriminate] end. cbn [bind] in H.
      assert (Hc : In c cs) by (apply Inc; now left). pose proof (gchild_id c Hc) as Nr.
      destruct (gchild f g c a t g2 Hc Lc (Ina a (or_introl eq_refl)) G U (Fr c a (or_introl eq_refl)) (Ov c Hc) (Ht c t (or_introl eq_refl)) X2) as (G2 & U2 & Ln & K).
      assert (Nid : forall d, In d (map fst ts) -> t_id d <> t_id c) by (intros d Hd Q; apply Nc; rewrite <- Q; now apply in_map).
      destruct (IH la' g2 g') as (I1 & I2 & I3 & I4); auto.
      + intros x Hx. apply Inc. now right.
      + intros x Hx. apply Ina. now right.
      + intros d b Hd. destruct (Fr d b (or_intror Hd)) as (F1 & F2 & F3 & F4). pose proof (in_combine_l _ _ _ _ Hd) as Hl. pose proof (in_combine_r _ _ _ _ Hd) as Hr.
        pose proof (Nid d Hl) as Nd. assert (Nb : b <> a) by (intros ->; contradiction).
        split; [|split; [|split]]; (rewrite K; [assumption|congruence|congruence|congruence|intros [Q1 Q2]; congruence]).
      + intros d Hd. destruct (Ov d Hd) as (e & E & Ec). exists e. split; [|exact Ec]. rewrite K; [exact E|discriminate|discriminate|discriminate|intros [Q _]; discriminate].
      + intros d t' Hd. apply Ht. now right.
      + split; [exact I1|]. split; [exact I2|]. split.
        * intros d b [Q|Hd]; [|now apply I3]. injection Q as <- <-. destruct Ln as (L1 & L2 & L3 & L4). unfold glane.
          assert (KI : forall u v, (u = TLim r /\ v = TN (t_id c)) \/ u = TN (t_id c) \/ u = TLim (t_id c) \/ u = Acc a -> edge_of g' u v = edge_of g2 u v).
          { intros u v Hu. apply I4.
            - intros d Hd. pose proof (Nid d Hd) as Nd. assert (Ndr : t_id d <> r) by (apply gchild_id, Inc; now right).
              destruct Hu as [[-> ->]|[->|[->| ->]]]; split; try congruence; split; try congruence; intros [? ?]; congruence.
            - intros b Hb Q. destruct Hu as [[-> ->]|[->|[->| ->]]]; congruence. }
          rewrite !KI by tauto. auto.
        * intros u v Hu Hb. rewrite I4; [|intros d Hd; apply Hu; now right|intros b' Hb'; apply Hb; now right].
          destruct (Hu c (or_introl eq_refl)) as (U3 & U4 & U5). apply K; auto. apply Hb. now left.
  Qed.
  Lemma totals_vals : forall u cap norm ll ts, totals_of memo u cap norm ll = Ok ts -> map fst ts = map fst ll /\
    (forall c t, In (c, t) ts -> exists w, In (c, w) ll /\ ~ (norm == 0)%Q /\ (t == cap * w / norm - fl (flow_edge memo u (TN (t_id c))))%Q).
  Proof.
    intros u cap norm ll. induction ll as [|[c w] ll IH]; intros ts H; cbn [totals_of] in H.
    - injection H as <-. split; [reflexivity|intros c t []].
    - destruct (qdiv (cap * w) norm) as [t|] eqn:Q; [|discriminate]. cbn [bind] in H. destruct (totals_of memo u cap norm ll) as [ts'|]; [|discriminate]. cbn [bind] in H. injection H as <-.
      destruct (IH ts' eq_refl) as [A B]. split; [cbn; now rewrite A|]. intros d t' [E|Hd].
      + injection E as <- <-. exists w. split; [now left|]. unfold qdiv in Q. destruct (Qeq_bool norm 0) eqn:Z0; [discriminate|]. injection Q as <-.
        split; [intros Y; apply Qeq_bool_iff in Y; congruence|reflexivity].
      + destruct (B d t' Hd) as (w' & B1 & B2). exists w'. split; [now right|exact B2].
  Qed.
  (** the whole graph before rebalancing *)
  Record ggraph (g : graph) : Prop := {
    gg_inv : ginv g;
    gg_w : forall u v e, edge_of g u v = Some e -> ~ (u = TLim r /\ v = TOvf r) -> e_w e = None;
    gg_lanes : forall c a, In (c, a) (combine cs accts) -> glane g c a;
    gg_src : exists e, edge_of g Src (TN r) = Some e /\ e_cap e = Some Cs;
    gg_root : exists e, edge_of g (TN r) (TLim r) = Some e /\ e_cap e = V;
    gg_ovf : exists e, edge_of g (TLim r) (TOvf r) = Some e /\ e_w e = Some 1 /\ e_cap e = Some C;
    gg_oc : forall c, In c cs -> has_ovf g c }.
  Lemma ovf_fold : forall cap (ll : list (tnode * Q)) g, (cap == fl C)%Q -> ginv g -> unweighted g -> incl (map fst ll) cs ->
    let g' := fold_left (fun g c => add_edge [] g (TOvf r) (TN (t_id (fst c))) (Some (Fin cap)) None) ll g in
    ginv g' /\ unweighted g' /\ (forall c, In c (map fst ll) -> has_ovf g' c) /\ (forall c, has_ovf g c -> has_ovf g' c) /\ (forall u v, u <> TOvf r -> edge_of g' u v = edge_of g u v).
  Proof.
    intros cap ll. induction ll as [|[c w] ll IH]; intros g Ec G U Inc; cbn zeta; cbn [fold_left].
    - split; [exact G|]. split; [exact U|]. split; [intros c []|]. auto.
    - cbn [fst map] in *. rewrite add_edge_nx. unfold flow_edge. cbn [dget]. rewrite (int_cap cap C HC Ec).
      set (g1 := nx_add_edge g (TOvf r) (TN (t_id c)) (Some C) None).
      destruct (IH g1) as (I1 & I2 & I3 & I4 & I5).
      + exact Ec.
      + apply ginv_add; [|exact G]. split; [reflexivity|]. exists c. split; [apply Inc; now left|reflexivity].
      + now apply unw_add.
      + intros x Hx. apply Inc. now right.
      + assert (K : has_ovf g1 c) by (eexists; unfold g1; rewrite edge_add, !geqb_refl; split; reflexivity).
        split; [exact I1|]. split; [exact I2|]. split; [|split].
        * intros d [<-|Hd]; [now apply I4|now apply I3].
        * intros d (e & E1 & E2). apply I4. unfold has_ovf, g1. rewrite edge_add. destruct (geqb (TOvf r) (TOvf r) && geqb (TN (t_id d)) (TN (t_id c))) eqn:Q; [eexists; split; reflexivity|eauto].
        * intros u v N. rewrite I5 by exact N. unfold g1. rewrite edge_add. apply geqb_neq in N. now rewrite N.
  Qed.
  Lemma group_graph : forall fuel g, add_successors P memo limit fuel (nx_add_edge [] Src (TN r) (Some Cs) None) root None None true = Ok g -> ggraph g.
  Proof.
    intros [|f] g H; [discriminate|]. rewrite successors_S in H. cbv zeta in H. pose proof Flat as (B & L & N & Da & Wp). inversion N as [|? ? Nr Nc]; subst.
    set (g0 := nx_add_edge [] Src (TN r) (Some Cs) None) in H.
    assert (G0 : ginv g0) by (apply ginv_add; [reflexivity|split; [apply gwf_nil|discriminate]]).
    assert (U0 : unweighted g0) by (apply unw_add; discriminate).
    assert (IC : inbound_capacity g0 (TN (t_id root)) = Cs).
    { unfold g0, inbound_capacity, r. cbn. rewrite Nat.eqb_refl. cbn. lia. }
    assert (EL : exists cap, embed_limit P memo limit g0 root None = (nx_add_edge g0 (TN r) (TLim r) V None, cap) /\ (cap == fl C)%Q).
    { unfold embed_limit. rewrite IC. destruct (t_lims root limit) as [lim|].
      - destruct Own as (z & Z0 & Ez & -> & ->). eexists. split; [rewrite add_edge_nx; unfold flow_edge; cbn [dget]; rewrite (int_cap _ z Z0 Ez); reflexivity|].
        unfold qmin. destruct (Qle_bool (fl Cs) (lim / p_prec P - fl (flow_out memo (TN (t_id root))))) eqn:Qb.
        + apply Qle_bool_t in Qb. rewrite Ez in Qb. unfold Qle, fl in Qb. cbn in Qb. rewrite Z.min_l by lia. reflexivity.
        + apply Qle_bool_f in Qb. rewrite Ez in Qb. unfold Qlt, fl in Qb. cbn in Qb. rewrite Z.min_r by lia. exact Ez.
      - destruct Own as [-> ->]. eexists. split; reflexivity. }
    destruct EL as (cap & EL & Ecap). rewrite EL in H. clear EL. rewrite B in H. cbn [body_src bind] in H. fold r in H.
    set (g1 := nx_add_edge g0 (TN r) (TLim r) V None) in H.
    assert (G1 : ginv g1) by (apply ginv_add; [split; [reflexivity|now left]|exact G0]). assert (U1 : unweighted g1) by (now apply unw_add).
    rewrite (add_edge_nx [] g1) in H. unfold flow_edge in H at 1. cbn [dget] in H. rewrite (int_cap cap C HC Ecap) in H.
    set (g2 := nx_add_edge g1 (TLim r) (TOvf r) (Some C) None) in H.
    assert (G2 : ginv g2) by (apply ginv_add; [split; reflexivity|exact G1]). assert (U2 : unweighted g2) by (now apply unw_add).
    destruct (ovf_fold cap l g2 Ecap G2 U2 (incl_refl _)) as (G3 & U3 & O3 & _ & K3). set (g3 := fold_left _ l g2) in *.
    match type of H with bind ?X _ = _ => destruct X as [g4|] eqn:X4; [|discriminate] end. cbn [bind] in H.
    destruct f as [|f']; [discriminate|]. rewrite weighted_S in X4. cbv zeta in X4. fold r in X4.
    destruct (flow_children memo (TLim r) (map (fun c => TN (t_id (fst c))) l)) as [fc|] eqn:FC; [|discriminate]. cbn [bind] in X4.
    assert (fc = 0) as ->.
    { eapply children_zero; [exact FC|]. intros v Hv. apply in_map_iff in Hv. destruct Hv as (c & <- & Hc). apply M2. now apply in_map. }
    match type of X4 with bind ?X _ = _ => destruct X as [ts|] eqn:XT; [|discriminate] end. cbn [bind] in X4.
    destruct (totals_vals _ _ _ _ _ XT) as [TF TV].
    assert (TS : forall c t, In (c, t) ts -> (t == fl (sh (t_id c)))%Q).
    { intros c t Hc. destruct (TV c t Hc) as (w & Hw & Nz & Et). rewrite Et, <- (Shw c w Hw), Ecap. unfold r in *. rewrite (M2 c) by (apply in_map_iff; exists (c, w); auto).
      unfold fl at 2 3, inject_Z. field. exact Nz. }
    assert (NG : filter (fun t => Qlt_bool (snd t) 0) ts = []).
    { assert (K : forall t, In t ts -> Qlt_bool (snd t) 0 = false).
      { intros [c t] Hc. cbn [snd]. pose proof (TS c t Hc) as E. assert (Hcs : In c (map fst l)) by (rewrite <- TF; apply in_map_iff; exists (c, t); auto).
        pose proof (fl_le _ _ (Sh0 c Hcs)) as F0. unfold fl at 1, inject_Z in F0. destruct (Qlt_bool t 0) eqn:Q; [|reflexivity]. apply Qlt_bool_t in Q. lra. }
      clear -K. induction ts as [|t ts IH]; [reflexivity|]. cbn. rewrite (K t (or_introl eq_refl)). apply IH. intros x Hx. apply K. now right. }
    rewrite NG in X4. cbn [bind fst snd] in X4. change (gloop f' g3 ts = Ok g4) in X4.
    assert (FR : forall c a, In (c, a) (combine (map fst ts) accts) -> gfresh g3 c a).
    { rewrite TF. intros c a Hc. pose proof (in_combine_l _ _ _ _ Hc) as Hl. pose proof (gchild_id c Hl) as Nd.
      assert (Q : Nat.eqb (t_id c) r = false) by (now apply Nat.eqb_neq).
      unfold gfresh. rewrite !K3 by discriminate. unfold g2, g1, g0. rewrite !edge_add. cbn [geqb andb]. rewrite Q. cbn [andb]. rewrite ?andb_false_r. auto. }
    destruct (gloop_lanes f' ts accts g3 g4) as (G4 & U4 & L4 & K4); auto.
    { rewrite TF. apply incl_refl. }
    { apply incl_refl. }
    { rewrite TF. exact L. }
    { rewrite TF. exact Nc. }
    match type of H with bind ?X _ = _ => destruct X as [ws|] eqn:XW; [|discriminate] end. cbn [bind] in H.
    assert (WZ : forall w, In w ws -> w = 0).
    { clear H. revert ws XW. pose proof (proj1 G4) as GW. generalize l as ll. clear -U4 GW. induction ll as [|c t IH]; intros ws XW w Hw; [injection XW as <-; destruct Hw|].
      cbv beta iota in XW. destruct (sum_weight (S f') g4 (TN (t_id (fst c)))) as [s|] eqn:E; [|discriminate]. cbn [bind] in XW.
      match type of XW with bind ?X _ = _ => destruct X as [ws'|] eqn:XT; [|discriminate] end. cbn [bind] in XW. injection XW as <-.
      destruct Hw as [<-|Hw]; [|exact (IH ws' eq_refl w Hw)]. eapply sum_weight_zero; [exact GW|exact U4|exact E]. }
    destruct ws as [|w ws]; [discriminate|]. assert (OI : forall (x y : graph), Ok x = Ok y -> x = y) by (intros x y Q; congruence). apply OI in H. clear OI.
    assert (FM : 1 + fold_left Z.max ws w = 1).
    { assert (w = 0) as -> by (apply WZ; now left). assert (K : forall z, In z ws -> z = 0) by (intros z Hz; apply WZ; now right). clear -K.
      induction ws as [|z ws IH]; [reflexivity|]. cbn [fold_left]. rewrite (K z (or_introl eq_refl)). apply IH. intros y Hy. apply K. now right. }
    rewrite FM in H. rewrite add_edge_nx in H. subst g.
    assert (KK : forall u v, ~ (u = TLim r /\ v = TOvf r) -> edge_of (nx_add_edge g4 (TLim r) (TOvf r) None (Some 1)) u v = edge_of g4 u v).
    { intros u v Q. rewrite edge_add. destruct (geqb u (TLim r)) eqn:Q1; [|reflexivity]. destruct (geqb v (TOvf r)) eqn:Q2; [|reflexivity]. apply geqb_eq in Q1, Q2. now elim Q. }
    constructor.
    - apply ginv_add; [split; reflexivity|exact G4].
    - intros u v e E Q. rewrite KK in E by exact Q. exact (U4 _ _ _ E).
    - intros c a Hc. unfold cs in Hc. rewrite <- TF in Hc. destruct (L4 c a Hc) as (L1 & L2 & L3 & L5). unfold glane. rewrite !KK by (intros [Q1 Q2]; congruence). auto.
    - rewrite KK by (intros [Q1 _]; discriminate). rewrite K4 by (intros; repeat split; try discriminate; intros [Q _]; discriminate).
      rewrite K3 by discriminate. unfold g2, g1, g0. rewrite !edge_add, !geqb_refl. cbn [geqb andb]. eexists. split; reflexivity.
    - rewrite KK by (intros [Q1 _]; discriminate). rewrite K4; [|intros c Hc; rewrite TF in Hc; pose proof (gchild_id c Hc); split; [discriminate|split; [congruence|intros [Q _]; discriminate]]|discriminate].
      rewrite K3 by discriminate. unfold g2, g1, g0. rewrite !edge_add, !geqb_refl. cbn [geqb andb]. rewrite ?Nat.eqb_refl. eexists. split; [reflexivity|]. unfold upd_edge. cbn [e_cap]. destruct V; reflexivity.
    - rewrite edge_add, !geqb_refl. cbn [andb]. eexists. split; [reflexivity|]. split; [reflexivity|]. unfold upd_edge. cbn [e_cap].
      rewrite K4; [|intros c Hc; rewrite TF in Hc; pose proof (gchild_id c Hc); split; [congruence|split; [discriminate|intros [_ Q]; discriminate]]|discriminate].
      rewrite K3 by discriminate. unfold g2. rewrite edge_add, !geqb_refl. reflexivity.
    - intros c Hc. destruct (O3 c Hc) as (e & E & Ec). exists e. split; [|exact Ec]. rewrite KK by (intros [Q _]; discriminate).
      rewrite K4 by (intros; repeat split; try discriminate; intros [Q _]; discriminate). exact E.
  Qed.
End Group.

(** ** Every maximum flow of least cost gives each member its share *)
Lemma pick_le : forall {A} (s : A -> Z) (test : A -> bool) (ll : list A) x0, NoDup ll -> (forall x, In x ll -> test x = true -> x = x0) -> 0 <= s x0 ->
  Zsum (map (fun x => s x * (if test x then 1 else 0)) ll) <= s x0.
Proof.
  intros A s test ll x0 N U S0. induction ll as [|x ll IH]; unfold Zsum in *; cbn; [exact S0|]. inversion N as [|? ? N1 N2]; subst.
  destruct (test x) eqn:T.
  - rewrite (U x (or_introl eq_refl) T). assert (Z0 : fold_right Z.add 0 (map (fun x => s x * (if test x then 1 else 0)) ll) = 0); [|lia].
    fold (Zsum (map (fun x => s x * (if test x then 1 else 0)) ll)). apply Zsum_zero. intros y Hy. destruct (test y) eqn:Ty; [|lia].
    exfalso. apply N1. rewrite (U x (or_introl eq_refl) T), <- (U y (or_intror Hy) Ty). exact Hy.
  - specialize (IH N2 (fun y Hy => U y (or_intror Hy))). lia.
Qed.
Lemma sum_tight : forall {A} (h s : A -> Z) ll, (forall x, In x ll -> h x <= s x) -> Zsum (map s ll) <= Zsum (map h ll) -> forall x, In x ll -> h x = s x.
Proof.
  intros A h s ll. induction ll as [|y ll IH]; intros L S x Hx; [destruct Hx|]. unfold Zsum in *. cbn in S.
  assert (T : fold_right Z.add 0 (map h ll) <= fold_right Z.add 0 (map s ll)) by (apply (Zsum_le h s); intros z Hz; apply L; now right).
  pose proof (L y (or_introl eq_refl)). destruct Hx as [->|Hx]; [lia|]. apply IH; [intros z Hz; apply L; now right|lia|exact Hx].
Qed.
Section Optimum.
  Variables (P : env) (memo : flowd) (limit : lk) (root : tnode) (l : list (tnode * Q)) (accts : list nat) (Cs : Z) (V : option Z) (C : Z) (sh : nat -> Z) (g : graph) (f : gnode -> gnode -> Z).
  Hypothesis Flat : flat_group root l accts.
  Hypothesis Own : match V with None => Cs | Some z => Z.min Cs z end = C /\ True.
  Hypothesis NoGrp : forall a, p_grp P limit a = None.
  Hypothesis HC : 0 <= C.
  Hypothesis Sh0 : forall c, In c (map fst l) -> 0 <= sh (t_id c).
  Hypothesis SumC : Zsum (map (fun c => sh (t_id c)) (map fst l)) = C.
  Hypothesis Room : forall c a x k, In (c, a) (combine (map fst l) accts) -> p_limit P limit a = Ok x -> capx P x 0 = Some k -> sh (t_id c) <= k.
  Hypothesis Sp : shape P memo limit (t_id root) (Some Cs) g.
  Hypothesis GG : ggraph P limit root l accts Cs V C sh g.
  Hypothesis Opt : optimal g f.
  Let r := t_id root.
  Let cs := map fst l.
  Let pairs := combine cs accts.
  Lemma caps_le : C <= Cs /\ (forall z, V = Some z -> C <= z).
  Proof. destruct Own as [<- _]. destruct V as [z|]; [|split; [lia|discriminate]]. split; [lia|]. intros y Q. injection Q as <-. lia. Qed.
  Lemma pair_of : forall c, In c cs -> exists a, In (c, a) pairs.
  Proof.
    destruct Flat as (_ & L & _). unfold pairs, cs. clear -L. induction L as [|x a t la _ _ IH]; intros c H; [destruct H|].
    destruct H as [<-|H]; [exists a; now left|]. destruct (IH c H) as [b B]. exists b. now right.
  Qed.
  Lemma pair_acc : forall a, In a accts -> exists c, In (c, a) pairs.
  Proof.
    destruct Flat as (_ & L & _). unfold pairs, cs. clear -L. induction L as [|x a t la _ _ IH]; intros c H; [destruct H|].
    destruct H as [<-|H]; [exists x; now left|]. destruct (IH c H) as [b B]. exists b. now right.
  Qed.
  Lemma pair_leaf : forall c a, In (c, a) pairs -> In c cs /\ In a accts /\ t_body c = TLeaf a.
  Proof.
    intros c a H. split; [exact (in_combine_l _ _ _ _ H)|]. split; [exact (in_combine_r _ _ _ _ H)|].
    destruct Flat as (_ & L & _). unfold pairs, cs in H. revert H. clear -L. induction L as [|x b t la Lx _ IH]; intros H; [destruct H|].
    destruct H as [Q|H]; [injection Q as <- <-; apply Lx|auto].
  Qed.
  Lemma pair_id : forall p q, In p pairs -> In q pairs -> t_id (fst p) = t_id (fst q) -> p = q.
  Proof.
    intros [c a] [d b] Hp Hq E. cbn [fst] in E. destruct (pair_leaf c a Hp) as (C1 & _ & B1). destruct (pair_leaf d b Hq) as (C2 & _ & B2).
    pose proof (gsame_id root l accts Flat c d C1 C2 E) as ->. congruence.
  Qed.
  Lemma pair_snd : forall p q, In p pairs -> In q pairs -> snd p = snd q -> p = q.
  Proof.
    intros [c a] [d b] Hp Hq E. cbn [snd] in E. subst b. destruct (pair_leaf c a Hp) as (C1 & _ & B1). destruct (pair_leaf d a Hq) as (C2 & _ & B2).
    apply pair_id; auto. cbn [fst]. exact (gsame_leaf root l accts Flat c d a C1 C2 B1 B2).
  Qed.
  Lemma pairs_nodup : NoDup pairs.
  Proof.
    destruct Flat as (_ & L & N & _). inversion N as [|? ? _ N2]; subst. apply NoDup_map_inv in N2. unfold pairs, cs. clear -N2.
    revert accts. induction (map fst l) as [|c t IH]; intros la; [constructor|]. destruct la as [|a la]; [constructor|]. inversion N2; subst. cbn. constructor; [|auto].
    intros H. now apply in_combine_l in H.
  Qed.
  Lemma pairs_sum : Zsum (map (fun p : tnode * nat => sh (t_id (fst p))) pairs) = C.
  Proof.
    rewrite <- SumC. destruct Flat as (_ & L & _). unfold pairs, cs. clear -L. induction L as [|x a t la _ _ IH]; [reflexivity|]. unfold Zsum in *. cbn. now rewrite IH.
  Qed.
  Definition lpath (p : tnode * nat) : list (Z * (gnode * gnode)) :=
    let k := sh (t_id (fst p)) in [(k, (TLim r, TN (t_id (fst p)))); (k, (TN (t_id (fst p)), TLim (t_id (fst p)))); (k, (TLim (t_id (fst p)), Acc (snd p))); (k, (Acc (snd p), Snk))].
  Definition es : list (Z * (gnode * gnode)) := [(C, (Src, TN r)); (C, (TN r, TLim r))] ++ flat_map lpath pairs.
  Lemma flat_sum : forall (h : Z * (gnode * gnode) -> Z) ps, Zsum (map h (flat_map lpath ps)) = Zsum (map (fun p => Zsum (map h (lpath p))) ps).
  Proof. intros h ps. induction ps as [|p ps IH]; [reflexivity|]. cbn [flat_map]. rewrite map_app, Zsum_app, IH. reflexivity. Qed.
  Lemma zero_ok : feasible g (fun _ _ => 0).
  Proof.
    constructor; auto; try (intros; lia).
    - intros u v e k E K. destruct (gg_inv _ _ _ _ _ _ _ _ _ _ GG) as [_ I]. specialize (I _ _ _ E). unfold edge_ok in I.
      destruct u as [| |m|m|m|a|]; destruct v as [| |j|j|j|b|]; try contradiction.
      + rewrite I in E; try rewrite I. destruct (gg_src _ _ _ _ _ _ _ _ _ _ GG) as (e' & E' & K'). rewrite E in E'. injection E' as <-. rewrite K in K'. injection K' as ->. destruct (caps_le); lia.
      + destruct I as [<- [->|(c & Hc & <-)]].
        * destruct (gg_root _ _ _ _ _ _ _ _ _ _ GG) as (e' & E' & K'). rewrite E in E'. injection E' as <-. rewrite K in K'. destruct caps_le as [_ CL]. specialize (CL k (eq_sym K')). lia.
        * destruct (pair_of c Hc) as [a Ha]. destruct (gg_lanes _ _ _ _ _ _ _ _ _ _ GG c a Ha) as (_ & (e' & E' & K') & _). rewrite E in E'. injection E' as <-. congruence.
      + destruct I as [-> (c & Hc & <-)]. destruct (pair_of c Hc) as [a Ha]. destruct (gg_lanes _ _ _ _ _ _ _ _ _ _ GG c a Ha) as ((e' & E' & K') & _). rewrite E in E'. injection E' as <-. rewrite K in K'. injection K' as ->. now apply Sh0.
      + destruct I as [-> ->]. destruct (gg_ovf _ _ _ _ _ _ _ _ _ _ GG) as (e' & E' & _ & K'). rewrite E in E'. injection E' as <-. rewrite K in K'. injection K' as ->. exact HC.
      + destruct I as (c & Hc & <- & Bc). destruct (pair_of c Hc) as [a Ha]. destruct (pair_leaf c a Ha) as (_ & _ & B'). rewrite Bc in B'. injection B' as <-.
        destruct (gg_lanes _ _ _ _ _ _ _ _ _ _ GG c b Ha) as (_ & _ & (e' & E' & K') & _). rewrite E in E'. injection E' as <-. rewrite K in K'. injection K' as ->. pose proof (Sh0 c Hc). lia.
      + destruct I as [-> (c & Hc & <-)]. destruct (gg_oc _ _ _ _ _ _ _ _ _ _ GG c Hc) as (e' & E' & K'). rewrite E in E'. injection E' as <-. rewrite K in K'. injection K' as ->. exact HC.
      + destruct (pair_acc a I) as [c Hc]. destruct (gg_lanes _ _ _ _ _ _ _ _ _ _ GG c a Hc) as (_ & _ & _ & (e' & x & E' & Lx & K')). rewrite E in E'. injection E' as <-.
        rewrite K in K'. pose proof (Room c a x k Hc Lx (eq_sym K')) as R. pose proof (Sh0 c (proj1 (pair_leaf c a Hc))). lia.
  Qed.
  Let fs := Prop_TxOrder.shift (fun _ _ => 0) es.
  Lemma fs_val : forall u v, fs u v = C * ind Src (TN r) u v + C * ind (TN r) (TLim r) u v +
    Zsum (map (fun p => sh (t_id (fst p)) * (ind (TLim r) (TN (t_id (fst p))) u v + ind (TN (t_id (fst p))) (TLim (t_id (fst p))) u v + ind (TLim (t_id (fst p))) (Acc (snd p)) u v + ind (Acc (snd p)) Snk u v)) pairs).
  Proof.
    intros u v. unfold fs, Prop_TxOrder.shift, es. rewrite map_app, Zsum_app, flat_sum. cbn [map fst snd]. unfold Zsum at 1. cbn [fold_right].
    rewrite (Zsum_ext (fun p => Zsum (map (fun e => fst e * ind (fst (snd e)) (snd (snd e)) u v) (lpath p)))
      (fun p => sh (t_id (fst p)) * (ind (TLim r) (TN (t_id (fst p))) u v + ind (TN (t_id (fst p))) (TLim (t_id (fst p))) u v + ind (TLim (t_id (fst p))) (Acc (snd p)) u v + ind (Acc (snd p)) Snk u v))); [lia|].
    intros p _. unfold lpath, Zsum. cbn [map fst snd fold_right]. lia.
  Qed.
  Lemma es_in : forall e, In e es -> e = (C, (Src, TN r)) \/ e = (C, (TN r, TLim r)) \/ exists p, In p pairs /\ In e (lpath p).
  Proof. intros e H. unfold es in H. cbn [app] in H. destruct H as [<-|[<-|H]]; auto. right. right. apply in_flat_map in H. exact H. Qed.
  Lemma es_present : present g es.
  Proof.
    intros e H. destruct (es_in e H) as [->|[->|([c a] & Hp & He)]]; cbn [fst snd].
    - destruct (gg_src _ _ _ _ _ _ _ _ _ _ GG) as (d & D & _). eauto.
    - destruct (gg_root _ _ _ _ _ _ _ _ _ _ GG) as (d & D & _). eauto.
    - destruct (gg_lanes _ _ _ _ _ _ _ _ _ _ GG c a Hp) as ((e1 & E1 & _) & (e2 & E2 & _) & (e3 & E3 & _) & (e4 & x & E4 & _)).
      unfold lpath in He. cbn [fst snd In] in He. destruct He as [<-|[<-|[<-|[<-|[]]]]]; cbn; eauto.
  Qed.
  Lemma ind01 : forall a b u v, 0 <= ind a b u v <= 1.
  Proof. intros. unfold ind. destruct (geqb u a && geqb v b); lia. Qed.
  Lemma fs_feasible : feasible g fs.
  Proof.
    apply shift_feasible; [apply (gg_inv _ _ _ _ _ _ _ _ _ _ GG)|exact zero_ok|exact es_present| | |].
    - intros u N1 N2. unfold es. rewrite !map_app, !Zsum_app, !flat_sum. cbn [map fst snd]. unfold Zsum at 1 3. cbn [fold_right].
      apply geqb_neq in N1, N2. rewrite N1.
      rewrite (Zsum_ext (fun p => Zsum (map (fun e => fst e * (if geqb u (fst (snd e)) then 1 else 0)) (lpath p)))
        (fun p => (if geqb u (TLim r) then 1 else 0) * sh (t_id (fst p)) + Zsum (map (fun e => fst e * (if geqb u (snd (snd e)) then 1 else 0)) (lpath p)))).
      2:{ intros p _. unfold lpath, Zsum. cbn [map fst snd fold_right]. rewrite N2. lia. }
      rewrite Zsum_add, Zsum_scale, pairs_sum. match goal with |- context [Zsum (map ?h pairs)] => generalize (Zsum (map h pairs)) end. intros X. destruct (geqb u (TLim r)), (geqb u (TN r)); unfold Zsum; cbn [fold_right]; lia.
    - intros u v. fold fs. rewrite fs_val. pose proof (ind01 Src (TN r) u v). pose proof (ind01 (TN r) (TLim r) u v).
      assert (0 <= Zsum (map (fun p => sh (t_id (fst p)) * (ind (TLim r) (TN (t_id (fst p))) u v + ind (TN (t_id (fst p))) (TLim (t_id (fst p))) u v + ind (TLim (t_id (fst p))) (Acc (snd p)) u v + ind (Acc (snd p)) Snk u v)) pairs)); [|nia].
      apply Zsum_pos. intros [c a] Hp. cbn [fst snd]. pose proof (Sh0 c (proj1 (pair_leaf c a Hp))).
      pose proof (ind01 (TLim r) (TN (t_id c)) u v). pose proof (ind01 (TN (t_id c)) (TLim (t_id c)) u v). pose proof (ind01 (TLim (t_id c)) (Acc a) u v). pose proof (ind01 (Acc a) Snk u v). nia.
    - intros u v e k E K. fold fs. rewrite fs_val. destruct (gg_inv _ _ _ _ _ _ _ _ _ _ GG) as [_ I]. specialize (I _ _ _ E). unfold edge_ok in I. unfold ind.
      destruct u as [| |m|m|m|a|]; destruct v as [| |j|j|j|b|]; try contradiction; cbn [geqb andb].
      + rewrite I in E; try rewrite I. destruct (gg_src _ _ _ _ _ _ _ _ _ _ GG) as (e' & E' & K'). rewrite E in E'. injection E' as <-. rewrite K in K'. injection K' as ->. fold r. rewrite Nat.eqb_refl.
        rewrite Zsum_zero; [destruct caps_le; lia|]. intros; lia.
      + destruct I as [<- [->|(c & Hc & <-)]].
        * destruct (gg_root _ _ _ _ _ _ _ _ _ _ GG) as (e' & E' & K'). rewrite E in E'. injection E' as <-. rewrite K in K'. destruct caps_le as [_ CL]. specialize (CL k (eq_sym K')).
          fold r. rewrite Nat.eqb_refl. cbn [andb]. rewrite Zsum_zero; [lia|]. intros [c0 a0] Hp0. cbn [fst snd]. pose proof (gchild_id root l accts Flat c0 (proj1 (pair_leaf c0 a0 Hp0))) as Nc. fold r in Nc. rewrite ?andb_false_r. destruct (Nat.eqb_spec r (t_id c0)) as [Q|_]; [congruence|]. cbn [andb]. lia.
        * destruct (pair_of c Hc) as [a Ha]. destruct (gg_lanes _ _ _ _ _ _ _ _ _ _ GG c a Ha) as (_ & (e' & E' & K') & _). rewrite E in E'. injection E' as <-. congruence.
      + destruct I as [-> (c & Hc & <-)]. destruct (pair_of c Hc) as [a Ha]. destruct (gg_lanes _ _ _ _ _ _ _ _ _ _ GG c a Ha) as ((e' & E' & K') & _). rewrite E in E'. injection E' as <-. rewrite K in K'. injection K' as ->.
        fold r. rewrite Nat.eqb_refl.
        rewrite (Zsum_ext _ (fun p : tnode * nat => sh (t_id (fst p)) * (if Nat.eqb (t_id c) (t_id (fst p)) then 1 else 0))) by (intros p _; rewrite ?andb_false_r; cbn [andb]; destruct (Nat.eqb (t_id c) (t_id (fst p))); lia).
        pose proof (pick_le (fun p : tnode * nat => sh (t_id (fst p))) (fun p => Nat.eqb (t_id c) (t_id (fst p))) pairs (c, a) pairs_nodup) as PL. cbn [fst] in PL.
        rewrite !Z.mul_0_r. cbn [Z.add]. apply PL; [|now apply Sh0]. intros p Hp T. apply Nat.eqb_eq in T. apply pair_id; auto.
      + destruct I as [-> ->]. destruct (gg_ovf _ _ _ _ _ _ _ _ _ _ GG) as (e' & E' & _ & K'). rewrite E in E'. injection E' as <-. rewrite K in K'. injection K' as ->.
        rewrite Zsum_zero; [rewrite ?andb_false_r; lia|]. intros p _. rewrite ?andb_false_r. lia.
      + destruct I as (c & Hc & <- & Bc). destruct (pair_of c Hc) as [a Ha]. destruct (pair_leaf c a Ha) as (_ & _ & B'). rewrite Bc in B'. injection B' as <-.
        destruct (gg_lanes _ _ _ _ _ _ _ _ _ _ GG c b Ha) as (_ & _ & (e' & E' & K') & _). rewrite E in E'. injection E' as <-. rewrite K in K'. injection K' as ->.
        rewrite (Zsum_ext _ (fun p : tnode * nat => sh (t_id (fst p)) * (if Nat.eqb (t_id c) (t_id (fst p)) && Nat.eqb b (snd p) then 1 else 0))) by (intros p _; rewrite ?andb_false_r; cbn [andb]; destruct (Nat.eqb (t_id c) (t_id (fst p)) && Nat.eqb b (snd p)); lia).
        pose proof (pick_le (fun p : tnode * nat => sh (t_id (fst p))) (fun p => Nat.eqb (t_id c) (t_id (fst p)) && Nat.eqb b (snd p)) pairs (c, b) pairs_nodup) as PL. cbn [fst] in PL.
        enough (Zsum (map (fun p : tnode * nat => sh (t_id (fst p)) * (if Nat.eqb (t_id c) (t_id (fst p)) && Nat.eqb b (snd p) then 1 else 0)) pairs) <= sh (t_id c)) by lia.
        apply PL; [|now apply Sh0]. intros p Hp T. apply andb_true_iff in T. destruct T as [T _]. apply Nat.eqb_eq in T. apply pair_id; auto.
      + destruct I as [-> (c & Hc & <-)]. destruct (gg_oc _ _ _ _ _ _ _ _ _ _ GG c Hc) as (e' & E' & K'). rewrite E in E'. injection E' as <-. rewrite K in K'. injection K' as ->.
        rewrite Zsum_zero; [lia|]. intros p _. lia.
      + destruct (pair_acc a I) as [c Hc]. destruct (gg_lanes _ _ _ _ _ _ _ _ _ _ GG c a Hc) as (_ & _ & _ & (e' & x & E' & Lx & K')). rewrite E in E'. injection E' as <-.
        rewrite K in K'. pose proof (Room c a x k Hc Lx (eq_sym K')) as R.
        rewrite (Zsum_ext _ (fun p : tnode * nat => sh (t_id (fst p)) * (if Nat.eqb a (snd p) then 1 else 0))) by (intros p _; rewrite ?andb_true_r; destruct (Nat.eqb a (snd p)); lia).
        pose proof (pick_le (fun p : tnode * nat => sh (t_id (fst p))) (fun p => Nat.eqb a (snd p)) pairs (c, a) pairs_nodup) as PL. cbn [fst] in PL.
        enough (Zsum (map (fun p : tnode * nat => sh (t_id (fst p)) * (if Nat.eqb a (snd p) then 1 else 0)) pairs) <= sh (t_id c)) by lia.
        apply PL; [|apply Sh0, (pair_leaf c a Hc)]. intros p Hp T. apply Nat.eqb_eq in T. apply pair_snd; auto.
  Qed.
  Lemma no_weight : forall u v e, edge_of g u v = Some e -> ~ (u = TLim r /\ v = TOvf r) -> weight g u v = 0.
  Proof. intros u v e E N. unfold weight. rewrite E. pose proof (gg_w _ _ _ _ _ _ _ _ _ _ GG _ _ _ E N) as W. destruct e as [k w]. cbn in W. now subst. Qed.
  Lemma es_nodes : forall e, In e es -> In (fst (snd e)) (nodes g) /\ In (snd (snd e)) (nodes g).
  Proof. intros e He. destruct (es_present e He) as [d D]. exact (is_node P memo limit root Cs g Sp _ _ _ D). Qed.
  Lemma fs_out : outflow g fs Src = C.
  Proof.
    unfold fs. rewrite shift_out; [|apply (sh_wf _ _ _ _ _ _ Sp)|intros e He; now apply es_nodes].
    assert (Z0 : outflow g (fun _ _ => 0) Src = 0) by (apply Zsum_zero; auto). rewrite Z0. unfold es. rewrite map_app, Zsum_app, flat_sum.
    rewrite (Zsum_zero (fun p => Zsum (map (fun e => fst e * (if geqb Src (fst (snd e)) then 1 else 0)) (lpath p)))); [unfold Zsum; cbn; lia|].
    intros p _. unfold lpath, Zsum. cbn. lia.
  Qed.
  Lemma fs_cost : cost g fs = 0.
  Proof.
    unfold fs. rewrite shift_cost; [|apply (sh_wf _ _ _ _ _ _ Sp)|exact es_nodes].
    assert (Z0 : cost g (fun _ _ => 0) = 0) by (apply Zsum_zero; intros; apply Zsum_zero; intros; lia). rewrite Z0. rewrite Zsum_zero; [reflexivity|].
    intros e He. destruct (es_present e He) as [d D]. rewrite (no_weight _ _ _ D); [lia|]. intros [Q1 Q2].
    destruct (es_in e He) as [->|[->|([c a] & Hp & Hl)]]; cbn [fst snd] in *; try discriminate. unfold lpath in Hl. cbn [fst snd In] in Hl.
    destruct Hl as [<-|[<-|[<-|[<-|[]]]]]; cbn in Q2; discriminate.
  Qed.
  Lemma weight_pos : forall u v, 0 <= weight g u v.
  Proof.
    intros u v. destruct (edge_of g u v) as [e|] eqn:E; [|unfold weight; now rewrite E].
    destruct (gnode_dec u (TLim r)) as [->|N]; [destruct (gnode_dec v (TOvf r)) as [->|N]|].
    - destruct (gg_ovf _ _ _ _ _ _ _ _ _ _ GG) as (e' & E' & K & _). fold r in E'. unfold weight. rewrite E'. destruct e' as [k w]. cbn in K. subst. lia.
    - rewrite (no_weight _ _ _ E); [lia|]. now intros [_ ?].
    - rewrite (no_weight _ _ _ E); [lia|]. now intros [? _].
  Qed.
  Lemma root_through : f Src (TN r) = f (TN r) (TLim r).
  Proof.
    destruct Opt as [F _]. destruct (gg_inv _ _ _ _ _ _ _ _ _ _ GG) as [_ I]. unfold edge_ok in I. destruct (gg_src _ _ _ _ _ _ _ _ _ _ GG) as (e1 & E1 & _). fold r in E1.
    eapply (through P memo limit root Cs g f Sp F); [exact E1|discriminate|discriminate| |].
    - intros x e H. specialize (I _ _ _ H). destruct x; try contradiction; [reflexivity| |]; destruct I as [_ (c & Hc & Q)]; exfalso; exact (gchild_id root l accts Flat c Hc Q).
    - intros x e H. specialize (I _ _ _ H). destruct x; try contradiction. destruct I as [-> _]. reflexivity.
  Qed.
  Lemma at_most : outflow g f Src <= C.
  Proof.
    pose proof root_through as T. destruct Opt as [F _]. pose proof (src_le _ _ _ _ _ _ _ Sp F Cs eq_refl) as U.
    assert (U2 : outflow g f Src <= Cs) by (apply U; destruct caps_le; lia). pose proof (proj1 Own) as OwE. rewrite <- OwE. destruct V as [z|] eqn:EV; [|exact U2].
    apply Z.min_glb; [exact U2|]. rewrite (src_out _ _ _ _ _ _ _ Sp F). fold r. rewrite T.
    destruct (gg_root _ _ _ _ _ _ _ _ _ _ GG) as (e & E & K). fold r in E. exact (fe_cap _ _ F _ _ _ _ E K).
  Qed.
  Lemma all_placed : outflow g f Src = C /\ f (TLim r) (TOvf r) = 0.
  Proof.
    destruct Opt as [F O]. destruct (O fs fs_feasible) as [O1 O2]. rewrite fs_out in O1, O2.
    pose proof at_most as U. split; [lia|]. specialize (O2 ltac:(lia)). rewrite fs_cost in O2.
    pose proof (fe_pos _ _ F (TLim r) (TOvf r)) as P0. enough (f (TLim r) (TOvf r) <= cost g f) by lia.
    destruct (gg_ovf _ _ _ _ _ _ _ _ _ _ GG) as (e' & E' & K & _). fold r in E'. destruct (is_node P memo limit root Cs g Sp _ _ _ E') as [N1 N2].
    assert (W1 : weight g (TLim r) (TOvf r) = 1) by (unfold weight; rewrite E'; destruct e' as [k w]; cbn in K; now subst).
    assert (ND : NoDup (nodes g)) by apply (sh_wf _ _ _ _ _ _ Sp).
    assert (T : Zsum (map (fun v => weight g (TLim r) v * f (TLim r) v) [TOvf r]) <= Zsum (map (fun v => weight g (TLim r) v * f (TLim r) v) (nodes g))).
    { apply (Zsum_incl_le (fun v => weight g (TLim r) v * f (TLim r) v)).
      - constructor; [intros []|constructor].
      - intros v _. pose proof (weight_pos (TLim r) v). pose proof (fe_pos _ _ F (TLim r) v). nia.
      - intros x [<-|[]] Nx. contradiction. }
    assert (T2 : Zsum (map (fun u => Zsum (map (fun v => weight g u v * f u v) (nodes g))) [TLim r]) <= cost g f).
    { unfold cost. apply (Zsum_incl_le (fun u => Zsum (map (fun v => weight g u v * f u v) (nodes g)))).
      - constructor; [intros []|constructor].
      - intros u _. apply Zsum_pos. intros v _. pose proof (weight_pos u v). pose proof (fe_pos _ _ F u v). nia.
      - intros x [<-|[]] Nx. contradiction. }
    unfold Zsum at 1 in T. cbn [map fold_right] in T. rewrite W1 in T. unfold Zsum at 1 in T2. cbn [map fold_right] in T2. lia.
  Qed.
  Lemma each_share : forall c a, In (c, a) pairs -> f (TLim r) (TN (t_id c)) = sh (t_id c) /\ f (TOvf r) (TN (t_id c)) = 0 /\ f (Acc a) Snk = sh (t_id c).
  Proof.
    destruct all_placed as [Vl Ov]. destruct Opt as [F _]. destruct (gg_inv _ _ _ _ _ _ _ _ _ _ GG) as [_ I]. unfold edge_ok in I.
    destruct (gg_src _ _ _ _ _ _ _ _ _ _ GG) as (e1 & E1 & _). destruct (gg_root _ _ _ _ _ _ _ _ _ _ GG) as (e2 & E2 & _). destruct (gg_ovf _ _ _ _ _ _ _ _ _ _ GG) as (e3 & E3 & _). fold r in E1, E2, E3.
    rewrite (src_out _ _ _ _ _ _ _ Sp F) in Vl. fold r in Vl.
    pose proof (root_through) as A.
    assert (ND : NoDup (nodes g)) by apply (sh_wf _ _ _ _ _ _ Sp).
    assert (NI : NoDup (map (fun c => TN (t_id c)) cs)).
    { destruct Flat as (_ & _ & N & _). inversion N as [|? ? _ N2]; subst. fold cs in N2. rewrite <- (map_map t_id TN). apply FinFun.Injective_map_NoDup; [intros x y Q; congruence|exact N2]. }
    assert (B : outflow g f (TLim r) = C).
    { rewrite (fe_cons _ _ F (TLim r)); [|apply (is_node P memo limit root Cs g Sp _ _ _ E2)|discriminate|discriminate].
      rewrite (only_in P memo limit root Cs g f Sp F (TLim r) (TN r)); [congruence|]. intros u e H. specialize (I _ _ _ H). destruct u; try contradiction. destruct I as [-> _]. reflexivity. }
    assert (D : outflow g f (TLim r) = Zsum (map (fun c => f (TLim r) (TN (t_id c))) cs)).
    { unfold outflow. rewrite <- (map_map (fun c => TN (t_id c)) (f (TLim r))). symmetry. apply (Zsum_incl (f (TLim r))); [exact NI|exact ND| |].
      - intros x Hx. apply in_map_iff in Hx. destruct Hx as (c & <- & Hc). destruct (pair_of c Hc) as [a Ha].
        destruct (gg_lanes _ _ _ _ _ _ _ _ _ _ GG c a Ha) as ((e & E & _) & _). apply (is_node P memo limit root Cs g Sp _ _ _ E).
      - intros x _ Nx. destruct (edge_of g (TLim r) x) as [e|] eqn:E; [|exact (fe_edges _ _ F _ _ E)]. specialize (I _ _ _ E). destruct x as [| |j|j|j|b|]; try contradiction.
        + exfalso. apply Nx. destruct I as [_ (c & Hc & <-)]. apply in_map_iff. exists c. auto.
        + destruct I as [_ ->]. exact Ov.
        + destruct I as (c & Hc & Q & _). exfalso. exact (gchild_id root l accts Flat c Hc Q). }
    assert (T : forall c, In c cs -> f (TLim r) (TN (t_id c)) = sh (t_id c)).
    { apply (sum_tight (fun c => f (TLim r) (TN (t_id c))) (fun c => sh (t_id c)) cs).
      - intros c Hc. destruct (pair_of c Hc) as [a Ha]. destruct (gg_lanes _ _ _ _ _ _ _ _ _ _ GG c a Ha) as ((e & E & K) & _). exact (fe_cap _ _ F _ _ _ _ E K).
      - rewrite <- D, B. unfold cs. rewrite SumC. lia. }
    assert (Z0 : outflow g f (TOvf r) = 0).
    { rewrite (fe_cons _ _ F (TOvf r)); [|apply (is_node P memo limit root Cs g Sp _ _ _ E3)|discriminate|discriminate].
      rewrite (only_in P memo limit root Cs g f Sp F (TOvf r) (TLim r)); [exact Ov|]. intros u e H. specialize (I _ _ _ H). destruct u; try contradiction. destruct I as [-> _]. reflexivity. }
    intros c a Hp. destruct (pair_leaf c a Hp) as (Hc & Ha & Bc). destruct (gg_lanes _ _ _ _ _ _ _ _ _ _ GG c a Hp) as ((x1 & X1 & _) & (x2 & X2 & _) & (x3 & X3 & _) & (x4 & y & X4 & _)). fold r in X1.
    destruct (gg_oc _ _ _ _ _ _ _ _ _ _ GG c Hc) as (x5 & X5 & _). fold r in X5. pose proof (gchild_id root l accts Flat c Hc) as Nr. fold r in Nr.
    assert (OZ : f (TOvf r) (TN (t_id c)) = 0).
    { assert (K : Zsum (map (f (TOvf r)) [TN (t_id c)]) <= outflow g f (TOvf r)).
      { apply (Zsum_incl_le (f (TOvf r))); [constructor; [intros []|constructor]|intros x _; apply (fe_pos _ _ F)|].
        intros x [<-|[]] Nx. exfalso. apply Nx. apply (is_node P memo limit root Cs g Sp _ _ _ X5). }
      unfold Zsum in K. cbn [map fold_right] in K. pose proof (fe_pos _ _ F (TOvf r) (TN (t_id c))). lia. }
    split; [now apply T|]. split; [exact OZ|].
    assert (C1 : f (TLim (t_id c)) (Acc a) = f (Acc a) Snk).
    { eapply (through P memo limit root Cs g f Sp F); [exact X3|discriminate|discriminate| |].
      - intros x e H. specialize (I _ _ _ H). destruct x; try contradiction. destruct I as (d & Hd & <- & Bd). now rewrite (gsame_leaf root l accts Flat d c a Hd Hc Bd Bc).
      - intros x e H. destruct (sh_acc _ _ _ _ _ _ Sp _ _ _ H) as (z & _ & K). rewrite NoGrp in K. tauto. }
    assert (C2 : f (TN (t_id c)) (TLim (t_id c)) = f (TLim (t_id c)) (Acc a)).
    { eapply (through P memo limit root Cs g f Sp F); [exact X2|discriminate|discriminate| |].
      - intros x e H. specialize (I _ _ _ H). destruct x; try contradiction. destruct I as [-> _]. reflexivity.
      - intros x e H. specialize (I _ _ _ H). destruct x as [| |j|j|j|b|]; try contradiction.
        + destruct I as [Q _]. exfalso. now apply Nr.
        + destruct I as [Q _]. exfalso. now apply Nr.
        + destruct I as (d & Hd & Q & Bd). rewrite (gsame_id root l accts Flat d c Hd Hc Q) in Bd. congruence. }
    rewrite <- C1, <- C2, <- (T c Hc).
    rewrite <- (only_edge P memo limit r (Some Cs) g f Sp F (TN (t_id c)) (TLim (t_id c))).
    2:{ intros v e H. specialize (I _ _ _ H). destruct v; try contradiction. destruct I as [-> _]. reflexivity. }
    rewrite (fe_cons _ _ F (TN (t_id c))); [|apply (is_node P memo limit root Cs g Sp _ _ _ X2)|discriminate|discriminate].
    unfold inflow. rewrite <- (Zsum_incl (fun u => f u (TN (t_id c))) [TLim r; TOvf r] (nodes g)).
    - unfold Zsum. cbn [map fold_right]. lia.
    - constructor; [intros [Q|[]]; discriminate|]. constructor; [intros []|constructor].
    - exact ND.
    - intros x [<-|[<-|[]]]; [apply (is_node P memo limit root Cs g Sp _ _ _ X1)|apply (is_node P memo limit root Cs g Sp _ _ _ X5)].
    - intros x _ Nx. apply (fe_edges _ _ F). destruct (edge_of g x (TN (t_id c))) as [e|] eqn:E; [|reflexivity]. exfalso. apply Nx. specialize (I _ _ _ E).
      destruct x; try contradiction; destruct I as [-> _]; [now left|right; now left].
  Qed.
  Lemma settled : forall ll, incl ll cs -> exists s, classify g root f ll = Ok ([], [], s).
  Proof.
    induction ll as [|c ll IH]; intros Inc; [exists []; reflexivity|]. destruct (IH (fun x Hx => Inc x (or_intror Hx))) as [s Es]. cbn [classify]. rewrite Es. cbn [bind].
    destruct (pair_of c (Inc c (or_introl eq_refl))) as [a Ha]. destruct (each_share c a Ha) as (S1 & S2 & _). destruct (gg_lanes _ _ _ _ _ _ _ _ _ _ GG c a Ha) as ((e & E & K) & _).
    rewrite E. destruct e as [k w]. cbn in K. subst k. fold r. rewrite S1, S2. rewrite Z.ltb_irrefl. cbn. eauto.
  Qed.
End Optimum.

(** ** One pass over a flat group *)
Lemma group_leaf : forall root l accts, flat_group root l accts -> forall c, In c (map fst l) -> exists a, t_body c = TLeaf a /\ In a accts.
Proof. intros root l accts Fl c Hc. destruct (gin_leaf root l accts Fl c Hc) as (a & A & B & _). eauto. Qed.
Lemma group_accounts : forall fuel root l accts acs, flat_group root l accts -> accounts_of fuel root = Ok acs -> acs = accts.
Proof.
  intros [|f] root l accts acs (B & L & _) H; [discriminate|]. cbn [accounts_of] in H. rewrite B in H. cbn [body_src] in H. unfold children_of in H. rewrite B in H. cbn [bind] in H.
  revert acs H. clear B. induction L as [|c a t la [Lc _] _ IH]; intros acs H; cbn in H; [congruence|].
  destruct (accounts_of f c) as [x|] eqn:X; [|discriminate]. cbn [bind] in H. match type of H with bind ?Y _ = _ => destruct Y as [y|] eqn:E; [|discriminate] end. cbn [bind] in H.
  injection H as <-. rewrite (IH _ eq_refl). destruct f as [|f']; [discriminate|]. cbn [accounts_of] in X. rewrite Lc in X. cbn [body_src] in X. injection X as <-. reflexivity.
Qed.
Lemma group_bfs : forall fuel root l accts ws, flat_group root l accts -> bfs_weighted fuel [root] = Ok ws -> ws = [root].
Proof.
  intros fuel root l accts ws Fl H. destruct fuel as [|fu]; [discriminate|]. cbn [bfs_weighted app] in H. pose proof Fl as (B & _).
  unfold children_of in H at 1. rewrite B in H. cbn [bind] in H. destruct (bfs_weighted fu (map fst l)) as [r0|] eqn:R; [|discriminate]. cbn [bind] in H.
  assert (K : forall fuel q r0, (forall c, In c q -> In c (map fst l)) -> bfs_weighted fuel q = Ok r0 -> r0 = []).
  { clear -Fl. induction fuel as [|f IH]; intros q r0 Hq H; [discriminate|]. cbn [bfs_weighted] in H. destruct q as [|c q]; [congruence|].
    destruct (group_leaf _ _ _ Fl c (Hq c (or_introl eq_refl))) as (a & A & _). unfold children_of in H. rewrite A in H. cbn [bind] in H. rewrite app_nil_r in H.
    destruct (bfs_weighted f q) as [r1|] eqn:R1; [|discriminate]. cbn [bind] in H. rewrite (IH q r1 (fun d Hd => Hq d (or_intror Hd)) R1) in H.
    unfold is_weighted in H. rewrite A in H. cbn [body_src] in H. congruence. }
  rewrite (K fu _ r0 (fun c Hc => Hc) R) in H. unfold is_weighted in H. rewrite B in H. cbn [body_src] in H. congruence.
Qed.
Lemma build_start : forall P memo root total C, src_cap P memo root (Fin total) = Some C ->
  add_edge memo [] Src (TN (t_id root)) (Some (scaled_total P (Fin total))) None = nx_add_edge [] Src (TN (t_id root)) (Some C) None.
Proof. intros P memo root total C SC. rewrite <- SC. reflexivity. Qed.
Lemma succ_shape : forall P memo limit fuel root sc g0 g, (forall l c, In c (p_hash P l) -> In c l) -> shape P memo limit (t_id root) sc g0 ->
  add_successors P memo limit fuel g0 root None None true = Ok g -> shape P memo limit (t_id root) sc g.
Proof.
  intros P memo limit fuel root sc g0 g Hh S0 H.
  refine (proj1 (build_pres P memo limit (fun _ => True) (shape P memo limit (t_id root) sc) _ _ _ _ _ _ _ fuel) g0 root None None true g I _ S0 H); auto.
  - intros g1 n c _ S. destruct (embed_nx P memo limit g1 n c) as [k ->]. now apply shape_internal.
  - intros g1 n c k w _ _ _ S. now apply shape_internal.
  - intros g1 n c k _ _ _ S. now apply shape_internal.
  - intros g1 n k w _ _ _ S. now apply shape_internal.
  - intros g1 n a k _ _ S. now apply shape_internal.
  - intros g1 n a g' _ _ S E. eapply shape_account; eauto.
  - discriminate.
Qed.
Definition group_pass (P : env) (memo : flowd) (limit : lk) (root : tnode) (l : list (tnode * Q)) (accts : list nat) (Cs : Z) (V : option Z) (C : Z) (sh : nat -> Z) : Prop :=
  flat_group root l accts /\
  (match t_lims root limit with
   | None => V = None /\ C = Cs
   | Some lim => exists z, 0 <= z /\ (lim / p_prec P - fl (flow_out memo (TN (t_id root))) == fl z)%Q /\ V = Some z /\ C = Z.min Cs z
   end) /\ (forall a, p_grp P limit a = None) /\ (forall a, In a accts -> flow_out memo (Acc a) = 0) /\
  (forall c, In c (map fst l) -> flow_edge memo (TLim (t_id root)) (TN (t_id c)) = 0) /\ 0 <= C /\
  (forall c w, In (c, w) l -> (fl C * w / Qsum (map snd l) == fl (sh (t_id c)))%Q) /\
  (forall c a x k, In (c, a) (combine (map fst l) accts) -> p_limit P limit a = Ok x -> capx P x 0 = Some k -> sh (t_id c) <= k).
Lemma share_pos : forall P memo limit root l accts Cs V C sh, group_pass P memo limit root l accts Cs V C sh -> l <> [] ->
  (forall c, In c (map fst l) -> 0 <= sh (t_id c)) /\ Zsum (map (fun c => sh (t_id c)) (map fst l)) = C.
Proof.
  intros P memo limit root l accts Cs V C sh (Fl & _ & _ & _ & _ & HC & Shw & _) Ne. pose proof Fl as (_ & _ & _ & _ & Wp).
  assert (Wpos : (0 < Qsum (map snd l))%Q).
  { clear -Ne Wp. destruct l as [|[c w] t]; [contradiction|]. clear Ne. cbn [map snd Qsum]. pose proof (Wp c w (or_introl eq_refl)) as W0.
    assert (K : (0 <= Qsum (map snd t))%Q) by (assert (Wt : forall c w, In (c, w) t -> (0 < w)%Q) by (intros d x Hd; apply (Wp d x); now right); clear -Wt;
      induction t as [|[d x] t IH]; cbn [map snd Qsum]; [lra|]; pose proof (Wt d x (or_introl eq_refl)); specialize (IH (fun d x Hd => Wt d x (or_intror Hd))); lra).
    lra. }
  assert (C0 : (0 <= fl C)%Q) by (unfold Qle, fl; cbn; lia).
  split.
  - intros c Hc. apply in_map_iff in Hc. destruct Hc as ([d w] & <- & Hd). cbn [fst]. pose proof (Shw d w Hd) as E. pose proof (Wp d w Hd) as W0.
    assert (N0 : (0 <= fl (sh (t_id d)))%Q) by (rewrite <- E; apply Qle_shift_div_l; [exact Wpos|nra]). unfold Qle, fl in N0. cbn in N0. lia.
  - assert (K : forall t, (forall c w, In (c, w) t -> In (c, w) l) -> (fl (Zsum (map (fun c => sh (t_id c)) (map fst t))) == fl C * Qsum (map snd t) / Qsum (map snd l))%Q).
    { induction t as [|[c w] t IH]; intros H; cbn [map fst snd Qsum].
      - unfold Zsum. cbn. unfold fl at 1, inject_Z. field. lra.
      - change (Zsum (sh (t_id c) :: map (fun c => sh (t_id c)) (map fst t))) with (sh (t_id c) + Zsum (map (fun c => sh (t_id c)) (map fst t))). rewrite fl_add, IH by (intros d x Hd; apply H; now right).
        rewrite <- (Shw c w (H c w (or_introl eq_refl))). field. lra. }
    specialize (K l (fun c w H => H)). assert (E : (fl C * Qsum (map snd l) / Qsum (map snd l) == fl C)%Q) by (field; lra). rewrite E in K. unfold Qeq, fl in K. cbn in K. lia.
Qed.
Lemma pass_shares : forall P fuel root memo total limit tx memo' l accts Cs V C sh, solver_ok_opt P -> group_pass P memo limit root l accts Cs V C sh ->
  traverse P fuel root memo (Fin total) limit = Ok (tx, memo') -> src_cap P memo root (Fin total) = Some Cs ->
  NoDup (dkeys tx) /\ (forall c a, In (c, a) (combine (map fst l) accts) -> In a (dkeys tx)) /\
  (forall c a t, In (c, a) (combine (map fst l) accts) -> In (a, t) tx -> p_tx P limit a (if Qlt_bool total 0 then (- (p_prec P * fl (sh (t_id c))))%Q else (p_prec P * fl (sh (t_id c)))%Q) = Ok t).
Proof.
  intros P fuel root memo total limit tx memo' l accts Cs V C sh SO GP H SC. pose proof GP as (Fl & Own & NG & M1 & M2 & HC & Shw & Rm).
  assert (Own2 : match V with None => Cs | Some z => Z.min Cs z end = C /\ True) by (split; [|exact I]; destruct (t_lims root limit); [destruct Own as (z & _ & _ & -> & ->); reflexivity|destruct Own as [-> ->]; reflexivity]).
  pose proof (opt_world P SO) as W. destruct SO as (Hp & Sv & Hh).
  destruct (traverse_inv _ _ _ _ _ _ _ _ W H) as (g & f & B & F & S & M & N & K & PF & acs & AO & Dk & Dki). rewrite SC in S.
  pose proof (group_accounts _ _ _ _ _ Fl AO) as ->. clear H. pose proof (build_start P memo root total Cs SC) as BS.
  unfold build_graph in B. rewrite BS in B. match type of B with bind ?X _ = _ => destruct X as [g1|] eqn:X1; [|discriminate] end. cbn [bind] in B.
  assert (Ne : l <> []).
  { intros ->. destruct fuel as [|fu]; [discriminate|]. rewrite successors_S in X1. cbv zeta in X1. pose proof Fl as (Bo & _). destruct (embed_limit P memo limit _ root None) as [gx cx]. rewrite Bo in X1. cbn [body_src bind map fold_left] in X1.
    match type of X1 with bind ?X _ = _ => destruct X; discriminate end. }
  destruct (share_pos _ _ _ _ _ _ _ _ _ _ GP Ne) as [Sh0 SumC].
  pose proof (group_graph P memo limit root l accts Cs V C sh Fl Own NG M1 M2 HC Sh0 Shw fuel g1 X1) as GG.
  assert (S1 : shape P memo limit (t_id root) (Some Cs) g1).
  { pose proof (shape_start P memo limit root (Fin total)) as S0. rewrite SC, BS in S0. exact (succ_shape P memo limit fuel root (Some Cs) _ g1 Hh S0 X1). }
  assert (EQ : forall f1, p_flow P g1 = Ok f1 -> g = g1).
  { intros f1 PF1. pose proof (Sv _ _ PF1) as O1. unfold balance_weighted in B. destruct (bfs_weighted fuel [root]) as [ws|] eqn:BW; [|discriminate]. cbn [bind] in B.
    rewrite (group_bfs _ _ _ _ _ Fl BW) in B. cbn [fold_left bind] in B. unfold children_of in B. rewrite (proj1 Fl) in B. cbn [bind] in B. destruct fuel as [|fu]; [discriminate|]. rewrite balance_S in B.
    destruct (settled P memo limit root l accts Cs V C sh g1 f1 Fl Own2 NG HC Sh0 SumC Rm S1 GG O1 (map fst l) (incl_refl _)) as [s Es].
    destruct (map fst l) as [|c0 t0] eqn:ML; [destruct l; [now elim Ne|discriminate]|]. rewrite PF1 in B. cbn [bind] in B. rewrite Es in B. cbn [bind] in B. congruence. }
  assert (g = g1) as ->.
  { destruct (p_flow P g1) as [f1|] eqn:PF1; [exact (EQ f1 eq_refl)|]. exfalso. unfold balance_weighted in B. destruct (bfs_weighted fuel [root]) as [ws|] eqn:BW; [|discriminate]. cbn [bind] in B.
    rewrite (group_bfs _ _ _ _ _ Fl BW) in B. cbn [fold_left bind] in B. unfold children_of in B. rewrite (proj1 Fl) in B. cbn [bind] in B. destruct fuel as [|fu]; [discriminate|]. rewrite balance_S in B. destruct (map fst l) as [|c0 t0] eqn:ML; [destruct l; [now apply Ne|discriminate]|]. rewrite PF1 in B. discriminate. }
  pose proof (Sv _ _ PF) as O1.
  assert (ES : forall c a, In (c, a) (combine (map fst l) accts) -> f (Acc a) Snk = sh (t_id c)).
  { intros c a Hc. exact (proj2 (proj2 (each_share P memo limit root l accts Cs V C sh g1 f Fl Own2 NG HC Sh0 SumC Rm S1 GG O1 c a Hc))). }
  split; [exact N|]. split.
  - intros c a Hc. apply Dk; [exact (in_combine_r _ _ _ _ Hc)|]. destruct (gg_lanes _ _ _ _ _ _ _ _ _ _ GG c a Hc) as (_ & _ & _ & (e & x & E & _)). exact (proj1 (is_node P memo limit root Cs g1 S1 _ _ _ E)).
  - intros c a t Hc Ht. rewrite <- (ES c a Hc). specialize (K a t Ht). rewrite (acc_out _ _ _ _ _ _ _ S1 F) in K. unfold acc_target in K. rewrite NG in K. exact K.
Qed.
(** ** The first pass moves nothing *)
Lemma group_tree : forall root l accts, flat_group root l accts -> tree_nodes root = root :: map fst l /\ (forall c, In c (map fst l) -> tree_nodes c = [c]).
Proof.
  intros root l accts Fl. assert (K : forall c, In c (map fst l) -> tree_nodes c = [c]).
  { intros c Hc. destruct (group_leaf _ _ _ Fl c Hc) as (a & A & _). rewrite tree_eq. unfold kids. rewrite A. reflexivity. }
  split; [|exact K]. rewrite tree_eq. unfold kids. rewrite (proj1 Fl). f_equal. clear -K. induction (map fst l) as [|c t IH]; [reflexivity|]. cbn [flat_map].
  rewrite (K c (or_introl eq_refl)). cbn [app]. f_equal. apply IH. intros d Hd. apply K. now right.
Qed.
Lemma quiet_memo : forall P limit fuel root l accts total g f, (forall l c, In c (p_hash P l) -> In c l) -> flat_group root l accts ->
  build_graph P [] limit fuel root total = Ok g -> shape P [] limit (t_id root) (src_cap P [] root total) g -> feasible g f ->
  (forall a, In a accts -> outflow g f (Acc a) = 0) -> let memo := merge_flows [] (flow_dict g f) in
  (forall a, In a accts -> flow_out memo (Acc a) = 0) /\ (forall c, In c (map fst l) -> flow_edge memo (TLim (t_id root)) (TN (t_id c)) = 0) /\
  flow_edge memo Src (TN (t_id root)) = 0 /\ flow_out memo (TN (t_id root)) = 0.
Proof.
  intros P limit fuel root l accts total g f Hh Fl B S F Z0 memo. destruct (group_tree _ _ _ Fl) as [T1 T2].
  assert (DN : distinct_nodes root).
  { unfold distinct_nodes. rewrite T1. apply Fl. }
  pose proof (build_wiring P [] limit fuel root total g Hh DN B) as Wi.
  assert (ME : forall u v, flow_edge memo u v = f u v).
  { intros u v. unfold memo. destruct (flow_dict_nodup g f (sh_wf _ _ _ _ _ _ S)) as [X1 X2]. rewrite merge_edge by auto. rewrite flow_dict_edge by exact F. reflexivity. }
  assert (NZ : forall n, In n (root :: map fst l) -> outflow g f (TN (t_id n)) <= 0).
  { intros n Hn. assert (Hr : In n (tree_nodes root)) by (now rewrite T1).
    pose proof (leave_le P [] limit root n _ g f S Wi F DN Hr accts) as LV.
    assert (Zs : Zsum (map (fun a => outflow g f (Acc a)) accts) = 0) by (apply Zsum_zero; exact Z0). rewrite Zs in LV. apply LV; [apply Fl|].
    intros a p Hp Bp. assert (Hp' : In p (map fst l) \/ p = root).
    { destruct Hn as [<-|Hn]; [rewrite T1 in Hp; destruct Hp; [now right|now left]|rewrite (T2 n Hn) in Hp; destruct Hp as [<-|[]]; now left]. }
    destruct Hp' as [Hp'| ->]; [|rewrite (proj1 Fl) in Bp; discriminate]. destruct (group_leaf _ _ _ Fl p Hp') as (b & B1 & B2). rewrite B1 in Bp. cbn in Bp. congruence. }
  assert (EZ : forall n u, In n (root :: map fst l) -> f u (TN (t_id n)) = 0).
  { intros n u Hn. pose proof (fe_pos _ _ F u (TN (t_id n))) as P0. destruct (edge_of g u (TN (t_id n))) as [e|] eqn:E; [|exact (fe_edges _ _ F _ _ E)].
    destruct (sh_wf _ _ _ _ _ _ S) as (ND & _ & W). destruct (W _ _ _ E) as [N1 N2].
    pose proof (fe_cons _ _ F (TN (t_id n)) N2 ltac:(discriminate) ltac:(discriminate)) as Cn. specialize (NZ n Hn).
    assert (K : Zsum (map (fun u => f u (TN (t_id n))) [u]) <= inflow g f (TN (t_id n))).
    { apply (Zsum_incl_le (fun u => f u (TN (t_id n)))); [constructor; [intros []|constructor]|intros x _; apply (fe_pos _ _ F)|intros x [<-|[]] Nx; contradiction]. }
    unfold Zsum in K. cbn [map fold_right] in K. lia. }
  split; [|split; [|split]].
  - intros a Ha. unfold memo. rewrite memo_out; [now apply Z0|apply (sh_wf _ _ _ _ _ _ S)|exact F].
  - intros c Hc. rewrite ME. apply EZ. now right.
  - rewrite ME. apply EZ. now left.
  - unfold memo. rewrite memo_out; [|apply (sh_wf _ _ _ _ _ _ S)|exact F]. pose proof (NZ root (or_introl eq_refl)). pose proof (out_pos g f F (TN (t_id root))). lia.
Qed.

(** ** C98 *)
Local Open Scope Q_scope.
(** the share of the member with weight [w] in the amount [total] *)
Definition share (total : Q) (l : list (tnode * Q)) (w : Q) : Q := total * w / Qsum (map snd l).
(** a whole number of units of precision *)
Definition whole_units (P : env) (q : Q) : Prop := exists z, q == p_prec P * fl z.
(** member [c] of the group, with weight [w], stands for account [a] *)
Definition member (l : list (tnode * Q)) (accts : list nat) (w : Q) (a : nat) : Prop := exists c, In ((c, w), a) (combine l accts).
Definition units (P : env) (total : Q) (l : list (tnode * Q)) (j : nat) : Z :=
  match find (fun cw => Nat.eqb (t_id (fst cw)) j) l with Some cw => int_of (share total l (snd cw) / p_prec P) | None => 0%Z end.
Lemma units_of : forall P total root l accts c w, flat_group root l accts -> In (c, w) l -> units P total l (t_id c) = int_of (share total l w / p_prec P).
Proof.
  intros P total root l accts c w (_ & _ & N & _) H. unfold units. inversion N as [|? ? _ N2]; subst. 
  assert (E : find (fun cw => Nat.eqb (t_id (fst cw)) (t_id c)) l = Some (c, w)).
  { clear -N2 H. induction l as [|[d x] t IH]; [destruct H|]. cbn [find fst]. cbn in N2. inversion N2 as [|? ? N3 N4]; subst. destruct H as [Q|H].
    - injection Q as -> ->. now rewrite Nat.eqb_refl.
    - destruct (Nat.eqb_spec (t_id d) (t_id c)) as [Q|Q]; [|auto]. exfalso. apply N3. rewrite Q. apply in_map. apply in_map_iff. exists (c, w). auto. }
  now rewrite E.
Qed.
Lemma comb_fst : forall (l : list (tnode * Q)) (accts : list nat) c w a, In ((c, w), a) (combine l accts) -> In (c, a) (combine (map fst l) accts) /\ In (c, w) l /\ In a accts.
Proof.
  intros l accts c w a H. split; [|split; [exact (in_combine_l _ _ _ _ H)|exact (in_combine_r _ _ _ _ H)]].
  revert accts H. induction l as [|[d x] t IH]; intros la H; [destruct H|]. destruct la as [|b la]; [destruct H|]. cbn in *. destruct H as [Q|H]; [left; congruence|right; auto].
Qed.
Lemma fst_comb : forall (l : list (tnode * Q)) (accts : list nat) c a, In (c, a) (combine (map fst l) accts) -> exists w, In ((c, w), a) (combine l accts).
Proof.
  induction l as [|[d x] t IH]; intros la c a H; [destruct H|]. destruct la as [|b la]; [destruct H|]. cbn in H. destruct H as [Q|H]; [injection Q as <- <-; exists x; now left|].
  destruct (IH la c a H) as [w W]. exists w. now right.
Qed.
(** what the group may move of [amount], given its own limit *)
Definition allowed (own : option Q) (amount : Q) : Q := match own with Some lim => if Qle_bool amount lim then amount else lim | None => amount end.
(** the second pass of a call, for an amount of either sign *)
Lemma second_pass : forall P fuel root memo total limit tx memo' l accts, solver_ok_opt P -> flat_group root l accts -> (forall a, p_grp P limit a = None) ->
  (forall a, In a accts -> flow_out memo (Acc a) = 0%Z) -> (forall c, In c (map fst l) -> flow_edge memo (TLim (t_id root)) (TN (t_id c)) = 0%Z) -> flow_edge memo Src (TN (t_id root)) = 0%Z ->
  flow_out memo (TN (t_id root)) = 0%Z -> (forall lim, t_lims root limit = Some lim -> 0 <= total /\ 0 <= lim /\ whole_units P lim) ->
  let amount := allowed (t_lims root limit) (qabs total) in
  (forall w a, member l accts w a -> whole_units P (share amount l w)) ->
  (forall w a x k, member l accts w a -> p_limit P limit a = Ok x -> capx P x 0 = Some k -> share amount l w <= p_prec P * fl k) ->
  traverse P fuel root memo (Fin total) limit = Ok (tx, memo') ->
  NoDup (dkeys tx) /\ (forall w a, member l accts w a -> In a (dkeys tx)) /\
  (forall w a t, member l accts w a -> In (a, t) tx -> exists x, x == (if Qlt_bool total 0 then - share amount l w else share amount l w) /\ p_tx P limit a x = Ok t).
Proof.
  intros P fuel root memo total limit tx memo' l accts SO Fl NG M1 M2 M3 M4 Ow amount Wh Rm H. pose proof SO as (Hp & _).
  destruct l as [|cw0 l0] eqn:EL.
  { assert (F : forall w a, ~ member [] accts w a) by (intros w a [c []]). pose proof (traverse_inv _ _ _ _ _ _ _ _ (opt_world P SO) H) as (g & f & _ & _ & _ & _ & N & _).
    split; [exact N|]. split; [intros w a Hm; now elim (F w a)|intros w a t Hm; now elim (F w a)]. }
  rewrite <- EL in *. assert (Ne : l <> []) by (rewrite EL; discriminate). clear EL cw0 l0. pose proof Fl as (_ & L2 & _ & _ & Wp).
  assert (Ap0 : 0 <= qabs total) by (destruct (qabs_case total) as [[? Q]|[? Q]]; rewrite Q; lra).
  assert (Ap : 0 <= amount).
  { unfold amount, allowed. destruct (t_lims root limit) as [lim|]; [|exact Ap0]. destruct (Ow lim eq_refl) as (_ & L0 & _). destruct (Qle_bool (qabs total) lim); lra. }
  assert (Wpos : 0 < Qsum (map snd l)).
  { clear -Ne Wp. destruct l as [|[c w] t]; [contradiction|]. clear Ne. cbn [map snd Qsum]. pose proof (Wp c w (or_introl eq_refl)) as W0.
    assert (K : 0 <= Qsum (map snd t)) by (assert (Wt : forall c w, In (c, w) t -> 0 < w) by (intros d x Hd; apply (Wp d x); now right); clear -Wt;
      induction t as [|[d x] t IH]; cbn [map snd Qsum]; [lra|]; pose proof (Wt d x (or_introl eq_refl)); specialize (IH (fun d x Hd => Wt d x (or_intror Hd))); lra).
    lra. }
  assert (Mem : forall c w, In (c, w) l -> exists a, In ((c, w), a) (combine l accts)).
  { clear -L2. revert accts L2. induction l as [|[d x] t IH]; intros la L2 c w Hc; [destruct Hc|]. inversion L2 as [|? b ? la' _ L3]; subst.
    destruct Hc as [Q|Hc]; [exists b; left; congruence|]. destruct (IH la' L3 c w Hc) as [a Ha]. exists a. now right. }
  assert (Un : forall c w, In (c, w) l -> share amount l w == p_prec P * fl (units P amount l (t_id c)) ).
  { intros c w Hc. rewrite (units_of P amount root l accts c w Fl Hc). destruct (Mem c w Hc) as [a Ha]. destruct (Wh w a (ex_intro _ c Ha)) as [z Ez].
    rewrite (int_exact (share amount l w / p_prec P) z); [exact Ez|]. rewrite Ez. field. lra. }
  assert (Tot : forall t, (forall c w, In (c, w) t -> In (c, w) l) -> exists z, amount * Qsum (map snd t) / Qsum (map snd l) == p_prec P * fl z).
  { induction t as [|[c w] t IH]; intros Ht; cbn [map snd Qsum].
    - exists 0%Z. unfold fl, inject_Z. field. lra.
    - destruct (IH (fun d x Hd => Ht d x (or_intror Hd))) as [z Ez]. exists (units P amount l (t_id c) + z)%Z. rewrite fl_add.
      assert (E : p_prec P * (fl (units P amount l (t_id c)) + fl z) == p_prec P * fl (units P amount l (t_id c)) + p_prec P * fl z) by ring. rewrite E, <- Ez, <- (Un c w (Ht c w (or_introl eq_refl))). unfold share. field. lra. }
  destruct (Tot l (fun c w Hc => Hc)) as [C0 EC]. assert (EC1 : amount == p_prec P * fl C0) by (rewrite <- EC; field; lra).
  assert (C0p : (0 <= C0)%Z).
  { assert (0 <= fl C0) by (assert (0 <= p_prec P * fl C0) by lra; nra). unfold Qle, fl in *. cbn in *. lia. }
  assert (SC0 : forall C0, (0 <= C0)%Z -> qabs total == p_prec P * fl C0 -> src_cap P memo root (Fin total) = Some C0).
  { clear C0 EC EC1 C0p. intros C0 C0p EC1. unfold src_cap, scaled_total. f_equal. rewrite M3. apply int_exact.
    assert (D : qabs (fl (int_of (total / p_prec P))) == fl C0); [|rewrite D; unfold fl, inject_Z; lra].
    destruct (qabs_case total) as [[Hs Q]|[Hs Q]]; rewrite Q in EC1.
    - assert (I0 : int_of (total / p_prec P) = C0) by (apply int_exact; rewrite EC1; field; lra). rewrite I0.
      destruct (qabs_case (fl C0)) as [[? Q2]|[Hs2 Q2]]; rewrite Q2; [reflexivity|]. assert (Z0 : C0 = 0%Z) by (clear -Hs2 C0p; unfold Qlt, Qle, fl in Hs2; cbn in Hs2; lia). rewrite Z0. reflexivity.
    - assert (I0 : int_of (total / p_prec P) = (- C0)%Z) by (apply int_exact; rewrite fl_opp; assert (total == - (p_prec P * fl C0)) as -> by lra; field; lra). rewrite I0.
      destruct (qabs_case (fl (- C0))) as [[Hs2 Q2]|[Hs2 Q2]]; rewrite Q2; [|rewrite fl_opp; lra]. assert (Z0 : C0 = 0%Z) by (clear -Hs2 C0p; unfold Qlt, Qle, fl in Hs2; cbn in Hs2; lia). rewrite Z0. reflexivity. }
  assert (SC : exists Cs V, src_cap P memo root (Fin total) = Some Cs /\
     match t_lims root limit with
     | None => V = None /\ C0 = Cs
     | Some lim => exists z, (0 <= z)%Z /\ (lim / p_prec P - fl (flow_out memo (TN (t_id root))) == fl z) /\ V = Some z /\ C0 = Z.min Cs z
     end).
  { unfold amount, allowed in EC1. destruct (t_lims root limit) as [lim|] eqn:Elim.
    - destruct (Ow lim eq_refl) as (T0 & L0 & z & Ez).
      assert (Zp : (0 <= z)%Z) by (assert (0 <= fl z) by nra; unfold Qle, fl in *; cbn in *; lia).
      assert (Ev : lim / p_prec P - fl (flow_out memo (TN (t_id root))) == fl z) by (rewrite M4, Ez; unfold fl at 2, inject_Z; field; lra).
      destruct (Qle_bool (qabs total) lim) eqn:Qb.
      + apply Qle_bool_t in Qb. exists C0, (Some z). split; [now apply SC0|]. exists z. split; [exact Zp|]. split; [exact Ev|]. split; [reflexivity|].
        assert (X : fl C0 <= fl z) by nra. unfold Qle, fl in X. cbn in X. rewrite Z.min_l; [reflexivity|lia].
      + apply Qle_bool_f in Qb. assert (Cz : C0 = z) by (assert (X : fl C0 == fl z) by nra; unfold Qeq, fl in X; cbn in X; lia). subst z.
        assert (Aq : qabs total = total) by (unfold qabs; destruct (Qle_bool 0 total) eqn:Qc; [reflexivity|apply Qle_bool_f in Qc; lra]). rewrite Aq in Qb.
        assert (Dp : 0 <= total / p_prec P) by (apply Qle_shift_div_l; [exact Hp|lra]). pose proof (int_gt _ Dp) as G.
        assert (Y : (C0 <= int_of (total / p_prec P))%Z).
        { assert (X : fl C0 < fl (int_of (total / p_prec P)) + 1).
          { eapply Qle_lt_trans; [|exact G]. apply Qle_shift_div_l; [exact Hp|lra]. }
          unfold Qlt, Qplus, fl in X. cbn in X. lia. }
        exists (int_of (total / p_prec P)), (Some C0). split.
        * unfold src_cap, scaled_total. f_equal. rewrite M3. apply int_exact.
          assert (Ip : 0 <= fl (int_of (total / p_prec P))) by (unfold Qle, fl; cbn; lia).
          assert (F0 : fl 0 == 0) by reflexivity. destruct (qabs_case (fl (int_of (total / p_prec P)))) as [[? Q2]|[Hs2 Q2]]; rewrite Q2; lra.
        * exists C0. split; [exact C0p|]. split; [exact Ev|]. split; [reflexivity|]. rewrite Z.min_r; [reflexivity|exact Y].
    - exists C0, None. split; [now apply SC0|auto]. }
  destruct SC as (Cs & V & SC & Own).
  assert (GP : group_pass P memo limit root l accts Cs V C0 (units P amount l)).
  { split; [exact Fl|]. split; [exact Own|]. split; [exact NG|]. split; [exact M1|]. split; [exact M2|]. split; [exact C0p|]. split.
    - intros c w Hc. pose proof (Un c w Hc) as E. unfold share in E.
      assert (E2 : p_prec P * (fl C0 * w / Qsum (map snd l)) == p_prec P * fl (units P amount l (t_id c))) by (eapply Qeq_trans; [|exact E]; rewrite EC1; field; lra).
      apply Qmult_inj_l in E2; [exact E2|lra].
    - intros c a x k Hc Lx Kx. destruct (fst_comb _ _ _ _ Hc) as [w Hw]. pose proof (Rm w a x k (ex_intro _ c Hw) Lx Kx) as R.
      destruct (comb_fst _ _ _ _ _ Hw) as (_ & Hl & _). rewrite (Un c w Hl) in R. assert (R2 : fl (units P amount l (t_id c)) <= fl k) by nra. unfold Qle, fl in R2. cbn in R2. lia. }
  destruct (pass_shares P fuel root memo total limit tx memo' l accts Cs V C0 _ SO GP H SC) as (N & I1 & K1). split; [exact N|]. split.
  - intros w a [c Hc]. exact (I1 c a (proj1 (comb_fst _ _ _ _ _ Hc))).
  - intros w a t [c Hc] Ht. destruct (comb_fst _ _ _ _ _ Hc) as (Hf & Hl & _). pose proof (K1 c a t Hf Ht) as K. eexists. split; [|exact K]. pose proof (Un c w Hl) as U. fold amount. destruct (Qlt_bool total 0); lra.
Qed.

Lemma cap_fits : forall P L z k, 0 < p_prec P -> 0 <= fl z -> p_prec P * fl z <= qabs L -> capx P (Fin L) 0 = Some k -> p_prec P * fl z <= p_prec P * fl k.
Proof.
  intros P L z k Hp Zq Hz Kx. unfold capx in Kx. cbn [xdivq xsubq] in Kx.
  assert (EA : qabs (L / p_prec P - fl 0) == qabs L / p_prec P).
  { assert (L == p_prec P * (L / p_prec P)) by (field; lra). assert (Ip : 0 < / p_prec P) by (apply Qinv_lt_0_compat; exact Hp).
    destruct (qabs_case (L / p_prec P - fl 0)) as [[S1 Q1]|[S1 Q1]], (qabs_case L) as [[S2 Q2]|[S2 Q2]]; rewrite Q1, Q2; unfold fl, inject_Z in *; unfold Qdiv in *; nra. }
  assert (Zp : fl z <= qabs L / p_prec P) by (apply Qle_shift_div_l; [exact Hp|lra]).
  set (y := qabs (L / p_prec P - fl 0)) in *. injection Kx as <-.
  match goal with |- _ <= _ * fl (int_of ?q) => assert (D0 : 0 <= q) by (unfold fl, inject_Z in *; lra); pose proof (int_gt q D0) as G; assert (G2 : fl z < fl (int_of q) + 1) by (unfold fl, inject_Z in *; lra); set (k := int_of q) in * end.
  assert (F : (z <= k)%Z) by (unfold fl, inject_Z, Qlt, Qplus in G2; cbn in G2; lia). apply fl_le in F. nra.
Qed.
Lemma share_sign : forall root l accts amount w a, flat_group root l accts -> member l accts w a -> 0 <= amount -> 0 <= share amount l w.
Proof.
  intros root l accts amount w a Fl [c Hc] Ap. unfold share. pose proof (in_combine_l _ _ _ _ Hc) as Hl. destruct Fl as (_ & _ & _ & _ & Wp).
  assert (Wn : 0 <= Qsum (map snd l)) by (clear -Wp; induction l as [|[d x] t IH]; cbn [map snd Qsum]; [lra|]; pose proof (Wp d x (or_introl eq_refl)); specialize (IH (fun d x Hd => Wp d x (or_intror Hd))); lra).
  pose proof (Wp c w Hl). unfold Qdiv. apply Qmult_le_0_compat; [nra|apply Qinv_le_0_compat; exact Wn].
Qed.
(** C98, deposits: when no member has to take anything and every member can take its whole share of
    what the group may take, each gets exactly the share that its weight says *)
Theorem C98_deposits_shared_partial : forall P fuel root l accts total r (mx : nat -> xnum),
  solver_ok_opt P -> deposits_exact P MinIn -> deposits_exact P MaxIn -> (forall a, p_grp P MinIn a = None /\ p_grp P MaxIn a = None) ->
  flat_group root l accts ->
  (forall a, In a accts -> p_limit P MinIn a = Ok (Fin 0) /\ p_limit P MaxIn a = Ok (mx a)) ->
  (forall own, t_lims root MaxIn = Some own -> 0 <= own /\ whole_units P own) ->
  let amount := allowed (t_lims root MaxIn) total in
  (forall w a, member l accts w a -> whole_units P (share amount l w) /\ within (share amount l w) (mx a)) ->
  p_prec P < total -> call P fuel root total = Ok r ->
  forall w a, member l accts w a -> acct_tx r a == share amount l w.
Proof.
  intros P fuel root l accts total r mx SO D1 D2 NG Fl Lim Ow amount Sh Ht H w a Hm. pose proof SO as (Hp & _ & Hh). unfold call in H.
  assert (E : Qlt_bool (p_prec P) total = true) by (destruct (Qlt_bool (p_prec P) total) eqn:E; [reflexivity|apply Qlt_bool_f in E; lra]). rewrite E in H.
  destruct (traverse P fuel root [] (Fin total) MinIn) as [[tn memo]|] eqn:T1; [|discriminate]. cbn [bind] in H.
  destruct (traverse P fuel root memo (Fin total) MaxIn) as [[tm memo2]|] eqn:T2; [|discriminate]. cbn [bind] in H. injection H as <-.
  assert (Hn : Qlt_bool total 0 = false) by (destruct (Qlt_bool total 0) eqn:En; [apply Qlt_bool_t in En; lra|reflexivity]).
  destruct (traverse_inv _ _ _ _ _ _ _ _ (opt_world P SO) T1) as (g1 & f1 & B1 & F1 & S1 & M1 & N1 & K1 & _). rewrite Hn in K1.
  assert (Z1 : forall b, In b accts -> outflow g1 f1 (Acc b) = 0%Z).
  { intros b Hb. pose proof (out_pos g1 f1 F1 (Acc b)) as P0. pose proof (acc_le _ _ _ _ _ _ _ S1 F1 b (Fin 0) 0%Z (proj1 (Lim b Hb))) as A. rewrite (proj1 (NG b)) in A.
    assert (Cx : capx P (Fin 0) (flow_out [] (Acc b)) = Some 0%Z).
    { unfold capx. cbn [xdivq xsubq]. f_equal. }
    specialize (A Cx ltac:(lia)). lia. }
  destruct (quiet_memo P MinIn fuel root l accts (Fin total) g1 f1 Hh Fl B1 S1 F1 Z1) as (Q1 & Q2 & Q3 & Q4). rewrite <- M1 in Q1, Q2, Q3, Q4.
  assert (T0 : 0 <= total) by lra.
  assert (Am : 0 <= amount).
  { unfold amount, allowed. destruct (t_lims root MaxIn) as [own|]; [|exact T0]. destruct (Ow own eq_refl) as [L0 _]. destruct (Qle_bool total own); [exact T0|exact L0]. }
  assert (Aq : qabs total = total) by (unfold qabs; destruct (Qle_bool 0 total) eqn:Qb; [reflexivity|apply Qle_bool_f in Qb; lra]).
  destruct (second_pass P fuel root memo total MaxIn tm memo2 l accts SO Fl (fun b => proj2 (NG b)) Q1 Q2 Q3 Q4) as (N2 & I2 & K2).
  { intros own Eo. split; [exact T0|]. exact (Ow own Eo). }
  { rewrite Aq. fold amount. intros w' a' Hm'. apply (Sh w' a' Hm'). }
  { rewrite Aq. fold amount. intros w' a' x k Hm' Lx Kx. destruct (Sh w' a' Hm') as [[z Ez] Wi]. assert (Ha' : In a' accts) by (destruct Hm' as [c Hc]; exact (in_combine_r _ _ _ _ Hc)).
    rewrite (proj2 (Lim a' Ha')) in Lx. injection Lx as Lx. rewrite <- Lx in Kx. destruct (mx a') as [L|b]; [|discriminate]. cbn [within] in Wi.
    assert (Sp : 0 <= share amount l w') by (apply (share_sign root l accts amount w' a' Fl Hm'); exact Am).
    rewrite Ez. apply (cap_fits P L z k Hp); [rewrite Ez in Sp; nra|rewrite <- Ez; destruct (qabs_case L) as [[? Q]|[? Q]]; rewrite Q; lra|exact Kx]. }
  { exact T2. }
  assert (Ha : In a accts) by (destruct Hm as [c Hc]; exact (in_combine_r _ _ _ _ Hc)). destruct (Lim a Ha) as [L1 L2].
  rewrite (combine_acct tn tm a N1).
  assert (V1 : acct_tx tn a == 0).
  { destruct (acct_in tn a) as [Q|(t & It & ->)]; [rewrite Q; reflexivity|]. specialize (K1 a t It). rewrite (Z1 a Ha) in K1.
    rewrite (D1 a (p_prec P * fl 0) t (Fin 0) L1); [unfold fl, inject_Z; lra| | |exact K1]; cbn [within]; unfold fl, inject_Z; lra. }
  rewrite V1. rewrite Aq, Hn in K2. fold amount in K2. pose proof (I2 w a Hm) as Ia. unfold dkeys in Ia. apply in_map_iff in Ia. destruct Ia as ([b t] & Eb & It). cbn in Eb. subst b.
  rewrite (in_acct tm a t N2 It). destruct (K2 w a t Hm It) as (x & Ex & Kx). destruct (Sh w a Hm) as [Wu Wi].
  assert (Sp : 0 <= share amount l w) by (apply (share_sign root l accts amount w a Fl Hm); exact Am).
  rewrite (D2 a x t (mx a) L2); [lra|lra| |exact Kx]. destruct (mx a); cbn [within] in *; [lra|exact Wi].
Qed.
Print Assumptions C98_deposits_shared_partial.

Lemma group_proper : forall root l accts, flat_group root l accts -> proper_tree root.
Proof.
  intros root l accts Fl n c Hb Hc.
  assert (KR : forall c, is_child root c -> In c (map fst l)).
  { intros d (k & Hk & Hd). unfold children_of in Hk. rewrite (proj1 Fl) in Hk. injection Hk as <-. exact Hd. }
  assert (KN : forall n c, In n (map fst l) -> ~ is_child n c).
  { intros m d Hm (k & Hk & Hd). destruct (group_leaf _ _ _ Fl m Hm) as (a & A & _). unfold children_of in Hk. rewrite A in Hk. injection Hk as <-. destruct Hd. }
  assert (K : n = root \/ In n (map fst l)).
  { clear Hc c. induction Hb as [|n c Hb IH Hc]; [now left|]. destruct IH as [->|IH]; [right; now apply KR|exfalso; now apply (KN n c IH)]. }
  destruct K as [->|K]; [|exfalso; now apply (KN n c K)].
  destruct Fl as (_ & _ & N & _). inversion N as [|? ? N1 _]; subst. intros Q. apply N1. rewrite <- Q. apply in_map. now apply KR.
Qed.
(** C98, withdrawals: the same, for money taken out of a group without limits of its own *)
Theorem C98_withdrawals_shared_partial : forall P fuel root l accts total r (mx : nat -> Q),
  solver_ok_opt P -> withdrawals_exact P MinOut -> withdrawals_exact P MaxOut -> (forall a, p_grp P MaxOut a = None) ->
  flat_group root l accts -> t_lims root MinOut = None -> t_lims root MaxOut = None ->
  (forall a, In a accts -> (exists m, p_limit P MinOut a = Ok (Fin m) /\ m <= 0) /\ p_limit P MaxOut a = Ok (Fin (mx a))) ->
  (forall w a, member l accts w a -> whole_units P (share total l w) /\ mx a <= share total l w) ->
  total < - p_prec P -> call P fuel root total = Ok r ->
  forall w a, member l accts w a -> acct_tx r a == share total l w.
Proof.
  intros P fuel root l accts total r mx SO D1 D2 NG Fl Ln Lx0 Lim Sh Ht H w a Hm. pose proof SO as (Hp & Sv & Hh). unfold call in H.
  assert (E : Qlt_bool (p_prec P) total = false) by (destruct (Qlt_bool (p_prec P) total) eqn:E; [apply Qlt_bool_t in E; lra|reflexivity]). rewrite E in H.
  assert (E' : Qlt_bool total (- p_prec P) = true) by (destruct (Qlt_bool total (- p_prec P)) eqn:E'; [reflexivity|apply Qlt_bool_f in E'; lra]). rewrite E' in H. clear E E'.
  destruct (traverse P fuel root [] (Inf false) MinOut) as [[tn memo]|] eqn:T1; [|discriminate]. cbn [bind] in H.
  destruct (traverse P fuel root memo (Fin total) MaxOut) as [[tm memo2]|] eqn:T2; [|discriminate]. cbn [bind] in H. injection H as <-.
  assert (Hn : Qlt_bool total 0 = true) by (destruct (Qlt_bool total 0) eqn:En; [reflexivity|apply Qlt_bool_f in En; lra]).
  destruct (traverse_inv _ _ _ _ _ _ _ _ (opt_world P SO) T1) as (g1 & f1 & B1 & F1 & S1 & M1 & N1 & K1 & _). cbn [negb] in K1.
  assert (Z0 : outflow g1 f1 Src = 0%Z).
  { refine (min_outflow_graph P MinOut root fuel false g1 Hh _ _ _ B1 f1 F1); [intros; now apply Sv|exact Ln|]. exact (group_proper _ _ _ Fl). }
  assert (Z1 : forall b, In b accts -> outflow g1 f1 (Acc b) = 0%Z).
  { intros b _. pose proof (some_accounts_le _ _ _ _ _ _ _ S1 F1 [b] ltac:(constructor; [intros []|constructor])) as K. rewrite Z0 in K. cbn in K. pose proof (out_pos g1 f1 F1 (Acc b)). lia. }
  destruct (quiet_memo P MinOut fuel root l accts (Inf false) g1 f1 Hh Fl B1 S1 F1 Z1) as (Q1 & Q2 & Q3 & Q4). rewrite <- M1 in Q1, Q2, Q3, Q4.
  assert (Aq : qabs total = - total) by (unfold qabs; destruct (Qle_bool 0 total) eqn:Qb; [apply Qle_bool_t in Qb; lra|reflexivity]).
  assert (So : forall w, share (- total) l w == - share total l w) by (intros v; unfold share, Qdiv; ring).
  destruct (second_pass P fuel root memo total MaxOut tm memo2 l accts SO Fl NG Q1 Q2 Q3 Q4) as (N2 & I2 & K2).
  { intros own Eo. rewrite Lx0 in Eo. discriminate. }
  { rewrite Lx0. cbn [allowed]. rewrite Aq. intros w' a' Hm'. destruct (Sh w' a' Hm') as [[z Ez] _]. exists (- z)%Z. rewrite So, Ez, fl_opp. lra. }
  { rewrite Lx0. cbn [allowed]. rewrite Aq. intros w' a' x k Hm' Lx Kx. destruct (Sh w' a' Hm') as [[z Ez] Wi]. assert (Ha' : In a' accts) by (destruct Hm' as [c Hc]; exact (in_combine_r _ _ _ _ Hc)).
    rewrite (proj2 (Lim a' Ha')) in Lx. injection Lx as Lx. rewrite <- Lx in Kx.
    assert (Sp : 0 <= share (- total) l w') by (apply (share_sign root l accts (- total) w' a' Fl Hm'); lra). rewrite So in Sp |- *.
    assert (Ez2 : - share total l w' == p_prec P * fl (- z)) by (rewrite Ez, fl_opp; lra).
    rewrite Ez2. apply (cap_fits P (mx a') (- z) k Hp); [rewrite Ez2 in Sp; nra|rewrite <- Ez2; destruct (qabs_case (mx a')) as [[? Q]|[? Q]]; rewrite Q; lra|exact Kx]. }
  { exact T2. }
  assert (Ha : In a accts) by (destruct Hm as [c Hc]; exact (in_combine_r _ _ _ _ Hc)). destruct (Lim a Ha) as [(m & L1 & Lm) L2].
  rewrite (combine_acct tn tm a N1).
  assert (V1 : acct_tx tn a == 0).
  { destruct (acct_in tn a) as [Q|(t & It & ->)]; [rewrite Q; reflexivity|]. specialize (K1 a t It). rewrite (Z1 a Ha) in K1.
    rewrite (D1 a (- (p_prec P * fl 0)) t m L1); [unfold fl, inject_Z; lra| | |exact K1]; unfold fl, inject_Z; lra. }
  rewrite V1. rewrite Lx0 in K2. cbn [allowed] in K2. rewrite Aq, Hn in K2. pose proof (I2 w a Hm) as Ia. unfold dkeys in Ia. apply in_map_iff in Ia. destruct Ia as ([b t] & Eb & It). cbn in Eb. subst b.
  rewrite (in_acct tm a t N2 It). destruct (K2 w a t Hm It) as (x & Ex & Kx). destruct (Sh w a Hm) as [Wu Wi].
  assert (Sp : 0 <= share (- total) l w) by (apply (share_sign root l accts (- total) w a Fl Hm); lra). rewrite So in Sp, Ex.
  rewrite (D2 a x t (mx a) L2); [lra|lra|lra|exact Kx].
Qed.
Print Assumptions C98_withdrawals_shared_partial.

(** ** Recorded optimal flows *)
(** what the network solver returns for one graph, found by its edge capacities: the flow, the far side
    of a cut it saturates and node potentials that prove its cost least ([opt_solver] checks all three) *)
Local Open Scope Z_scope.
Record row := { r_caps : list (gnode * gnode * option Z); r_flow : list (gnode * gnode * Z); r_cut : list gnode; r_pot : list (gnode * Z) }.
Definition cap_eqb (a b : option Z) : bool := match a, b with Some x, Some y => x =? y | None, None => true | _, _ => false end.
Definition row_fits (g : graph) (r : row) : bool :=
  forallb (fun '(u, v, c) => match edge_of g u v with Some e => cap_eqb (e_cap e) c | None => false end) (r_caps r).
Definition row_for (tab : list row) (g : graph) : row :=
  match find (row_fits g) tab with Some r => r | None => {| r_caps := []; r_flow := []; r_cut := []; r_pot := [] |} end.
Definition tab_solver (tab : list row) : graph -> res (gnode -> gnode -> Z) := opt_solver
  (fun g u v => match find (fun '(a, b, _) => geqb a u && geqb b v) (r_flow (row_for tab g)) with Some (_, _, x) => x | None => 0 end)
  (fun g u => if existsb (geqb u) (r_cut (row_for tab g)) then 1 else 0)
  (fun g u => match find (fun '(a, _) => geqb a u) (r_pot (row_for tab g)) with Some (_, x) => x | None => 0 end).
(** accounts that take and give what they are asked for, with minimum [mn] and maximum [mx] *)
Definition group_env (tab : list row) (mn mx : nat -> Q) : env := {|
  p_limit := fun k a => Ok (Fin (match k with MinIn => mn a | MaxIn => mx a | MinOut => - mn a | MaxOut => - mx a end)%Q);
  p_tx := fun k _ x => Ok [(1#2, x)%Q];
  p_grp := fun _ _ => None;
  p_prec := 1;
  p_flow := tab_solver tab;
  p_hash := fun l => l |}.
Lemma group_env_ok : forall tab mn mx, let P := group_env tab mn mx in solver_ok_opt P /\ (forall k, deposits_exact P k) /\ (forall k, withdrawals_exact P k) /\ (forall k a, p_grp P k a = None).
Proof.
  intros tab mn mx P. split; [|split; [|split]].
  - split; [reflexivity|]. split; [|auto]. intros g f H. eapply opt_solver_ok. exact H.
  - intros k a x t L _ _ _ H. cbn in H. injection H as <-. unfold tx_of. cbn. lra.
  - intros k a x t L _ _ _ H. cbn in H. injection H as <-. unfold tx_of. cbn. lra.
  - reflexivity.
Qed.
Definition tab_min : list row := [
  {| r_caps := [(Src, TN 0, Some (100)); (TLim 0, TOvf 0, Some (100)); (TLim 0, TN 1, Some (50)); (TLim 0, TN 2, Some (50)); (TOvf 0, TN 1, Some (100)); (TOvf 0, TN 2, Some (100)); (TLim 1, Acc 1, Some (150)); (Acc 1, Snk, Some (60)); (TLim 2, Acc 2, Some (150)); (Acc 2, Snk, Some (0))];
     r_flow := [(Src, TN 0, 60); (TN 0, TLim 0, 60); (TLim 0, TOvf 0, 10); (TLim 0, TN 1, 50); (TOvf 0, TN 1, 10); (TN 1, TLim 1, 60); (TLim 1, Acc 1, 60); (Acc 1, Snk, 60)];
     r_cut := [Snk]; r_pot := [(Src, (-1)); (TN 0, (-1)); (TLim 0, (-1)); (TN 2, (-1)); (TLim 2, (-1)); (Acc 2, (-1))] |};
  {| r_caps := [(Src, TN 0, Some (100)); (TLim 0, TOvf 0, Some (100)); (TLim 0, TN 1, Some (60)); (TLim 0, TN 2, Some (0)); (TOvf 0, TN 1, Some (100)); (TOvf 0, TN 2, Some (100)); (TLim 1, Acc 1, Some (160)); (Acc 1, Snk, Some (60)); (TLim 2, Acc 2, Some (100)); (Acc 2, Snk, Some (0))];
     r_flow := [(Src, TN 0, 60); (TN 0, TLim 0, 60); (TLim 0, TN 1, 60); (TN 1, TLim 1, 60); (TLim 1, Acc 1, 60); (Acc 1, Snk, 60)];
     r_cut := [Snk]; r_pot := [] |};
  {| r_caps := [(Src, TN 0, Some (40)); (TLim 0, TOvf 0, Some (40)); (TLim 0, TN 2, Some (30)); (TLim 0, TN 1, Some (0)); (TOvf 0, TN 1, Some (40)); (TOvf 0, TN 2, Some (40)); (TLim 2, Acc 2, Some (70)); (Acc 2, Snk, Some (300)); (TLim 1, Acc 1, Some (40)); (Acc 1, Snk, Some (240))];
     r_flow := [(Src, TN 0, 40); (TN 0, TLim 0, 40); (TLim 0, TOvf 0, 10); (TLim 0, TN 2, 30); (TOvf 0, TN 1, 10); (TN 1, TLim 1, 10); (TN 2, TLim 2, 30); (TLim 2, Acc 2, 30); (Acc 2, Snk, 30); (TLim 1, Acc 1, 10); (Acc 1, Snk, 10)];
     r_cut := [TN 0; TLim 0; TOvf 0; TN 1; TN 2; TLim 2; Acc 2; Snk; TLim 1; Acc 1]; r_pot := [(Src, (-1)); (TN 0, (-1)); (TLim 0, (-1))] |};
  {| r_caps := [(Src, TN 0, Some (40)); (TLim 0, TOvf 0, Some (40)); (TLim 0, TN 2, Some (30)); (TLim 0, TN 1, Some (10)); (TOvf 0, TN 1, Some (40)); (TOvf 0, TN 2, Some (40)); (TLim 2, Acc 2, Some (70)); (Acc 2, Snk, Some (300)); (TLim 1, Acc 1, Some (50)); (Acc 1, Snk, Some (240))];
     r_flow := [(Src, TN 0, 40); (TN 0, TLim 0, 40); (TLim 0, TN 2, 30); (TLim 0, TN 1, 10); (TN 1, TLim 1, 10); (TN 2, TLim 2, 30); (TLim 2, Acc 2, 30); (Acc 2, Snk, 30); (TLim 1, Acc 1, 10); (Acc 1, Snk, 10)];
     r_cut := [TN 0; TLim 0; TOvf 0; TN 1; TN 2; TLim 2; Acc 2; Snk; TLim 1; Acc 1]; r_pot := [] |}].
Definition tab_full : list row := [
  {| r_caps := [(Src, TN 0, Some (120)); (TLim 0, TOvf 0, Some (120)); (TLim 0, TN 1, Some (40)); (TLim 0, TN 2, Some (40)); (TLim 0, TN 3, Some (40)); (TOvf 0, TN 1, Some (120)); (TOvf 0, TN 2, Some (120)); (TOvf 0, TN 3, Some (120)); (TLim 1, Acc 1, Some (160)); (Acc 1, Snk, Some (0)); (TLim 2, Acc 2, Some (160)); (Acc 2, Snk, Some (0)); (TLim 3, Acc 3, Some (160)); (Acc 3, Snk, Some (0))];
     r_flow := [];
     r_cut := [Snk]; r_pot := [] |};
  {| r_caps := [(Src, TN 0, Some (120)); (TLim 0, TOvf 0, Some (120)); (TLim 0, TN 1, Some (0)); (TLim 0, TN 2, Some (0)); (TLim 0, TN 3, Some (0)); (TOvf 0, TN 1, Some (120)); (TOvf 0, TN 2, Some (120)); (TOvf 0, TN 3, Some (120)); (TLim 1, Acc 1, Some (120)); (Acc 1, Snk, Some (0)); (TLim 2, Acc 2, Some (120)); (Acc 2, Snk, Some (0)); (TLim 3, Acc 3, Some (120)); (Acc 3, Snk, Some (0))];
     r_flow := [];
     r_cut := [Snk]; r_pot := [] |};
  {| r_caps := [(Src, TN 0, Some (120)); (TLim 0, TOvf 0, Some (120)); (TLim 0, TN 1, Some (40)); (TLim 0, TN 2, Some (40)); (TLim 0, TN 3, Some (40)); (TOvf 0, TN 1, Some (120)); (TOvf 0, TN 2, Some (120)); (TOvf 0, TN 3, Some (120)); (TLim 1, Acc 1, Some (160)); (Acc 1, Snk, Some (20)); (TLim 2, Acc 2, Some (160)); (Acc 2, Snk, Some (300)); (TLim 3, Acc 3, Some (160)); (Acc 3, Snk, Some (300))];
     r_flow := [(Src, TN 0, 120); (TN 0, TLim 0, 120); (TLim 0, TOvf 0, 20); (TLim 0, TN 1, 20); (TLim 0, TN 2, 40); (TLim 0, TN 3, 40); (TOvf 0, TN 2, 20); (TN 1, TLim 1, 20); (TN 2, TLim 2, 60); (TN 3, TLim 3, 40); (TLim 1, Acc 1, 20); (Acc 1, Snk, 20); (TLim 2, Acc 2, 60); (Acc 2, Snk, 60); (TLim 3, Acc 3, 40); (Acc 3, Snk, 40)];
     r_cut := [TN 0; TLim 0; TOvf 0; TN 1; TN 2; TN 3; TLim 1; Acc 1; Snk; TLim 2; Acc 2; TLim 3; Acc 3]; r_pot := [(Src, (-1)); (TN 0, (-1)); (TLim 0, (-1)); (TN 1, (-1)); (TLim 1, (-1)); (Acc 1, (-1))] |};
  {| r_caps := [(Src, TN 0, Some (120)); (TLim 0, TOvf 0, Some (120)); (TLim 0, TN 1, Some (30)); (TLim 0, TN 2, Some (40)); (TLim 0, TN 3, Some (30)); (TOvf 0, TN 1, Some (120)); (TOvf 0, TN 2, Some (20)); (TOvf 0, TN 3, Some (120)); (TLim 1, Acc 1, Some (150)); (Acc 1, Snk, Some (20)); (TLim 2, Acc 2, Some (160)); (Acc 2, Snk, Some (300)); (TLim 3, Acc 3, Some (150)); (Acc 3, Snk, Some (300))];
     r_flow := [(Src, TN 0, 120); (TN 0, TLim 0, 120); (TLim 0, TOvf 0, 30); (TLim 0, TN 1, 20); (TLim 0, TN 2, 40); (TLim 0, TN 3, 30); (TOvf 0, TN 3, 30); (TN 1, TLim 1, 20); (TN 2, TLim 2, 40); (TN 3, TLim 3, 60); (TLim 1, Acc 1, 20); (Acc 1, Snk, 20); (TLim 2, Acc 2, 40); (Acc 2, Snk, 40); (TLim 3, Acc 3, 60); (Acc 3, Snk, 60)];
     r_cut := [TN 0; TLim 0; TOvf 0; TN 1; TN 2; TN 3; TLim 1; Acc 1; Snk; TLim 2; Acc 2; TLim 3; Acc 3]; r_pot := [(Src, (-1)); (TN 0, (-1)); (TLim 0, (-1)); (TN 1, (-1)); (TLim 1, (-1)); (Acc 1, (-1))] |};
  {| r_caps := [(Src, TN 0, Some (120)); (TLim 0, TOvf 0, Some (120)); (TLim 0, TN 1, Some (20)); (TLim 0, TN 2, Some (60)); (TLim 0, TN 3, Some (60)); (TOvf 0, TN 1, Some (120)); (TOvf 0, TN 2, Some (20)); (TOvf 0, TN 3, Some (120)); (TLim 1, Acc 1, Some (140)); (Acc 1, Snk, Some (20)); (TLim 2, Acc 2, Some (80)); (Acc 2, Snk, Some (300)); (TLim 3, Acc 3, Some (180)); (Acc 3, Snk, Some (300))];
     r_flow := [(Src, TN 0, 120); (TN 0, TLim 0, 120); (TLim 0, TN 2, 60); (TLim 0, TN 3, 60); (TN 2, TLim 2, 60); (TN 3, TLim 3, 60); (TLim 2, Acc 2, 60); (Acc 2, Snk, 60); (TLim 3, Acc 3, 60); (Acc 3, Snk, 60)];
     r_cut := [TN 0; TLim 0; TOvf 0; TN 1; TN 2; TN 3; TLim 1; Acc 1; Snk; TLim 2; Acc 2; TLim 3; Acc 3]; r_pot := [] |}].
Definition tab_left : list row := [
  {| r_caps := [(Src, TN 0, Some (90)); (TLim 0, TOvf 0, Some (90)); (TLim 0, TN 1, Some (15)); (TLim 0, TN 2, Some (45)); (TLim 0, TN 3, Some (30)); (TOvf 0, TN 1, Some (90)); (TOvf 0, TN 2, Some (90)); (TOvf 0, TN 3, Some (90)); (TLim 1, Acc 1, Some (105)); (Acc 1, Snk, Some (30)); (TLim 2, Acc 2, Some (135)); (Acc 2, Snk, Some (0)); (TLim 3, Acc 3, Some (120)); (Acc 3, Snk, Some (10))];
     r_flow := [(Src, TN 0, 40); (TN 0, TLim 0, 40); (TLim 0, TOvf 0, 15); (TLim 0, TN 1, 15); (TLim 0, TN 3, 10); (TOvf 0, TN 1, 15); (TN 1, TLim 1, 30); (TN 3, TLim 3, 10); (TLim 1, Acc 1, 30); (Acc 1, Snk, 30); (TLim 3, Acc 3, 10); (Acc 3, Snk, 10)];
     r_cut := [Snk]; r_pot := [(Src, (-1)); (TN 0, (-1)); (TLim 0, (-1)); (TN 2, (-1)); (TN 3, (-1)); (TLim 2, (-1)); (Acc 2, (-1)); (TLim 3, (-1)); (Acc 3, (-1))] |};
  {| r_caps := [(Src, TN 0, Some (90)); (TLim 0, TOvf 0, Some (90)); (TLim 0, TN 1, Some (15)); (TLim 0, TN 2, Some (6)); (TLim 0, TN 3, Some (4)); (TOvf 0, TN 1, Some (15)); (TOvf 0, TN 2, Some (90)); (TOvf 0, TN 3, Some (90)); (TLim 1, Acc 1, Some (105)); (Acc 1, Snk, Some (30)); (TLim 2, Acc 2, Some (96)); (Acc 2, Snk, Some (0)); (TLim 3, Acc 3, Some (94)); (Acc 3, Snk, Some (10))];
     r_flow := [(Src, TN 0, 40); (TN 0, TLim 0, 40); (TLim 0, TOvf 0, 21); (TLim 0, TN 1, 15); (TLim 0, TN 3, 4); (TOvf 0, TN 1, 15); (TOvf 0, TN 3, 6); (TN 1, TLim 1, 30); (TN 3, TLim 3, 10); (TLim 1, Acc 1, 30); (Acc 1, Snk, 30); (TLim 3, Acc 3, 10); (Acc 3, Snk, 10)];
     r_cut := [TN 1; TLim 1; Acc 1; Snk]; r_pot := [(Src, (-1)); (TN 0, (-1)); (TLim 0, (-1)); (TN 2, (-1)); (TLim 2, (-1)); (Acc 2, (-1))] |};
  {| r_caps := [(Src, TN 0, Some (90)); (TLim 0, TOvf 0, Some (90)); (TLim 0, TN 1, Some (30)); (TLim 0, TN 2, Some (0)); (TLim 0, TN 3, Some (10)); (TOvf 0, TN 1, Some (15)); (TOvf 0, TN 2, Some (90)); (TOvf 0, TN 3, Some (90)); (TLim 1, Acc 1, Some (45)); (Acc 1, Snk, Some (30)); (TLim 2, Acc 2, Some (90)); (Acc 2, Snk, Some (0)); (TLim 3, Acc 3, Some (100)); (Acc 3, Snk, Some (10))];
     r_flow := [(Src, TN 0, 40); (TN 0, TLim 0, 40); (TLim 0, TN 1, 30); (TLim 0, TN 3, 10); (TN 1, TLim 1, 30); (TN 3, TLim 3, 10); (TLim 1, Acc 1, 30); (Acc 1, Snk, 30); (TLim 3, Acc 3, 10); (Acc 3, Snk, 10)];
     r_cut := [Snk]; r_pot := [] |};
  {| r_caps := [(Src, TN 0, Some (50)); (TLim 0, TOvf 0, Some (50)); (TLim 0, TN 2, Some (27)); (TLim 0, TN 3, Some (8)); (TLim 0, TN 1, Some (0)); (TOvf 0, TN 1, Some (50)); (TOvf 0, TN 2, Some (50)); (TOvf 0, TN 3, Some (50)); (TLim 2, Acc 2, Some (77)); (Acc 2, Snk, Some (30)); (TLim 3, Acc 3, Some (58)); (Acc 3, Snk, Some (0)); (TLim 1, Acc 1, Some (50)); (Acc 1, Snk, Some (0))];
     r_flow := [(Src, TN 0, 30); (TN 0, TLim 0, 30); (TLim 0, TOvf 0, 3); (TLim 0, TN 2, 27); (TOvf 0, TN 2, 3); (TN 2, TLim 2, 30); (TLim 2, Acc 2, 30); (Acc 2, Snk, 30)];
     r_cut := [Snk]; r_pot := [(Src, (-1)); (TN 0, (-1)); (TLim 0, (-1)); (TN 3, (-1)); (TLim 3, (-1)); (Acc 3, (-1))] |};
  {| r_caps := [(Src, TN 0, Some (50)); (TLim 0, TOvf 0, Some (50)); (TLim 0, TN 2, Some (27)); (TLim 0, TN 3, Some (0)); (TLim 0, TN 1, Some (0)); (TOvf 0, TN 1, Some (50)); (TOvf 0, TN 2, Some (3)); (TOvf 0, TN 3, Some (50)); (TLim 2, Acc 2, Some (77)); (Acc 2, Snk, Some (30)); (TLim 3, Acc 3, Some (50)); (Acc 3, Snk, Some (0)); (TLim 1, Acc 1, Some (50)); (Acc 1, Snk, Some (0))];
     r_flow := [(Src, TN 0, 30); (TN 0, TLim 0, 30); (TLim 0, TOvf 0, 3); (TLim 0, TN 2, 27); (TOvf 0, TN 2, 3); (TN 2, TLim 2, 30); (TLim 2, Acc 2, 30); (Acc 2, Snk, 30)];
     r_cut := [TN 2; TLim 2; Acc 2; Snk]; r_pot := [(Src, (-1)); (TN 0, (-1)); (TLim 0, (-1))] |};
  {| r_caps := [(Src, TN 0, Some (50)); (TLim 0, TOvf 0, Some (50)); (TLim 0, TN 2, Some (15)); (TLim 0, TN 3, Some (0)); (TLim 0, TN 1, Some (0)); (TOvf 0, TN 1, Some (50)); (TOvf 0, TN 2, Some (3)); (TOvf 0, TN 3, Some (0)); (TLim 2, Acc 2, Some (18)); (Acc 2, Snk, Some (30)); (TLim 3, Acc 3, Some (50)); (Acc 3, Snk, Some (0)); (TLim 1, Acc 1, Some (50)); (Acc 1, Snk, Some (0))];
     r_flow := [(Src, TN 0, 18); (TN 0, TLim 0, 18); (TLim 0, TOvf 0, 3); (TLim 0, TN 2, 15); (TOvf 0, TN 2, 3); (TN 2, TLim 2, 18); (TLim 2, Acc 2, 18); (Acc 2, Snk, 18)];
     r_cut := [TN 2; TN 3; TLim 2; Acc 2; Snk; TLim 3; Acc 3]; r_pot := [(Src, (-1)); (TN 0, (-1)); (TLim 0, (-1))] |};
  {| r_caps := [(Src, TN 0, Some (50)); (TLim 0, TOvf 0, Some (50)); (TLim 0, TN 2, Some (0)); (TLim 0, TN 3, Some (0)); (TLim 0, TN 1, Some (0)); (TOvf 0, TN 1, Some (50)); (TOvf 0, TN 2, Some (3)); (TOvf 0, TN 3, Some (0)); (TLim 2, Acc 2, Some (3)); (Acc 2, Snk, Some (30)); (TLim 3, Acc 3, Some (50)); (Acc 3, Snk, Some (0)); (TLim 1, Acc 1, Some (50)); (Acc 1, Snk, Some (0))];
     r_flow := [(Src, TN 0, 3); (TN 0, TLim 0, 3); (TLim 0, TOvf 0, 3); (TOvf 0, TN 2, 3); (TN 2, TLim 2, 3); (TLim 2, Acc 2, 3); (Acc 2, Snk, 3)];
     r_cut := [TN 2; TN 3; TLim 2; Acc 2; Snk; TLim 3; Acc 3]; r_pot := [(Src, (-1)); (TN 0, (-1)); (TLim 0, (-1))] |};
  {| r_caps := [(Src, TN 0, Some (50)); (TLim 0, TOvf 0, Some (50)); (TLim 0, TN 2, Some (3)); (TLim 0, TN 3, Some (0)); (TLim 0, TN 1, Some (0)); (TOvf 0, TN 1, Some (50)); (TOvf 0, TN 2, Some (3)); (TOvf 0, TN 3, Some (0)); (TLim 2, Acc 2, Some (6)); (Acc 2, Snk, Some (30)); (TLim 3, Acc 3, Some (50)); (Acc 3, Snk, Some (0)); (TLim 1, Acc 1, Some (50)); (Acc 1, Snk, Some (0))];
     r_flow := [(Src, TN 0, 6); (TN 0, TLim 0, 6); (TLim 0, TOvf 0, 3); (TLim 0, TN 2, 3); (TOvf 0, TN 2, 3); (TN 2, TLim 2, 6); (TLim 2, Acc 2, 6); (Acc 2, Snk, 6)];
     r_cut := [TN 2; TN 3; TLim 2; Acc 2; Snk; TLim 3; Acc 3]; r_pot := [(Src, (-1)); (TN 0, (-1)); (TLim 0, (-1))] |}].
Definition tab_demo : list row := [
  {| r_caps := [(Src, TN 0, Some (100)); (TLim 0, TOvf 0, Some (100)); (TLim 0, TN 1, Some (25)); (TLim 0, TN 2, Some (75)); (TOvf 0, TN 1, Some (100)); (TOvf 0, TN 2, Some (100)); (TLim 1, Acc 1, Some (125)); (Acc 1, Snk, Some (0)); (TLim 2, Acc 2, Some (175)); (Acc 2, Snk, Some (0))];
     r_flow := [];
     r_cut := [Snk]; r_pot := [] |};
  {| r_caps := [(Src, TN 0, Some (100)); (TLim 0, TOvf 0, Some (100)); (TLim 0, TN 1, Some (0)); (TLim 0, TN 2, Some (0)); (TOvf 0, TN 1, Some (100)); (TOvf 0, TN 2, Some (100)); (TLim 1, Acc 1, Some (100)); (Acc 1, Snk, Some (0)); (TLim 2, Acc 2, Some (100)); (Acc 2, Snk, Some (0))];
     r_flow := [];
     r_cut := [Snk]; r_pot := [] |};
  {| r_caps := [(Src, TN 0, Some (100)); (TLim 0, TOvf 0, Some (100)); (TLim 0, TN 1, Some (25)); (TLim 0, TN 2, Some (75)); (TOvf 0, TN 1, Some (100)); (TOvf 0, TN 2, Some (100)); (TLim 1, Acc 1, Some (125)); (Acc 1, Snk, Some (300)); (TLim 2, Acc 2, Some (175)); (Acc 2, Snk, Some (300))];
     r_flow := [(Src, TN 0, 100); (TN 0, TLim 0, 100); (TLim 0, TN 1, 25); (TLim 0, TN 2, 75); (TN 1, TLim 1, 25); (TN 2, TLim 2, 75); (TLim 1, Acc 1, 25); (Acc 1, Snk, 25); (TLim 2, Acc 2, 75); (Acc 2, Snk, 75)];
     r_cut := [TN 0; TLim 0; TOvf 0; TN 1; TN 2; TLim 1; Acc 1; Snk; TLim 2; Acc 2]; r_pot := [] |}].
Definition tab_out : list row := [
  {| r_caps := [(TLim 0, TOvf 0, Some (0)); (TLim 0, TN 1, Some (0)); (TLim 0, TN 2, Some (0)); (TOvf 0, TN 1, Some (0)); (TOvf 0, TN 2, Some (0)); (TLim 1, Acc 1, Some (0)); (Acc 1, Snk, Some (5)); (TLim 2, Acc 2, Some (0)); (Acc 2, Snk, Some (5))];
     r_flow := [];
     r_cut := [TOvf 0; TN 1; TN 2; TLim 1; Acc 1; Snk; TLim 2; Acc 2]; r_pot := [] |};
  {| r_caps := [(Src, TN 0, Some (100)); (TLim 0, TOvf 0, Some (100)); (TLim 0, TN 1, Some (25)); (TLim 0, TN 2, Some (75)); (TOvf 0, TN 1, Some (100)); (TOvf 0, TN 2, Some (100)); (TLim 1, Acc 1, Some (125)); (Acc 1, Snk, Some (300)); (TLim 2, Acc 2, Some (175)); (Acc 2, Snk, Some (300))];
     r_flow := [(Src, TN 0, 100); (TN 0, TLim 0, 100); (TLim 0, TN 1, 25); (TLim 0, TN 2, 75); (TN 1, TLim 1, 25); (TN 2, TLim 2, 75); (TLim 1, Acc 1, 25); (Acc 1, Snk, 25); (TLim 2, Acc 2, 75); (Acc 2, Snk, 75)];
     r_cut := [TN 0; TLim 0; TOvf 0; TN 1; TN 2; TLim 1; Acc 1; Snk; TLim 2; Acc 2]; r_pot := [] |}].

(** the group of accounts 1, 2, ... with weights [ws] *)
Definition group_of (ws : list (nat * Q)) : tnode := fst (mk_node (SDict (map (fun aw => (SAcct (fst aw), snd aw)) ws)) no_limits 0).
Definition plain_env (P : env) : Prop := solver_ok_opt P /\ (forall k, deposits_exact P k) /\ (forall k, withdrawals_exact P k) /\ (forall k a, p_grp P k a = None).
Definition takes (P : env) (a : nat) (lo hi : Q) : Prop := p_limit P MinIn a = Ok (Fin lo) /\ p_limit P MaxIn a = Ok (Fin hi).
Definition members_of (ws : list (nat * Q)) : list (tnode * Q) := match t_body (group_of ws) with TWt l => l | _ => [] end.
(** weights 1 and 3: 100 goes in as 25 and 75, and comes out the same way *)
Example C98_sat : let ws := [(1%nat, 1); (2%nat, 3)]%Q in let l := members_of ws in
  flat_group (group_of ws) l [1; 2]%nat /\ member l [1; 2]%nat 1 1 /\ member l [1; 2]%nat 3 2 /\
  (let P := group_env tab_demo (fun _ => 0)%Q (fun _ => 300)%Q in plain_env P /\ (forall a, takes P a 0 300) /\
   (forall w a, member l [1; 2]%nat w a -> whole_units P (share 100 l w) /\ share 100 l w <= 300)%Q /\
   exists r, call P 20 (group_of ws) 100 = Ok r /\ (acct_tx r 1 == 25)%Q /\ (acct_tx r 2 == 75)%Q) /\
  (let P := group_env tab_out (fun _ => 5)%Q (fun _ => 300)%Q in plain_env P /\
   (forall w a, member l [1; 2]%nat w a -> whole_units P (share (- (100)) l w) /\ - (300) <= share (- (100)) l w)%Q /\
   exists r, call P 20 (group_of ws) (- (100)) = Ok r /\ (acct_tx r 1 == - (25))%Q /\ (acct_tx r 2 == - (75))%Q).
Proof.
  intros ws l. split; [|split; [|split; [|split]]].
  - split; [reflexivity|]. split; [repeat constructor|]. split; [cbn; repeat constructor; cbn; intuition discriminate|].
    split; [repeat constructor; cbn; intuition discriminate|]. intros c w [Q|[Q|[]]]; injection Q as <- <-; reflexivity.
  - eexists. left. reflexivity.
  - eexists. right. left. reflexivity.
  - intros P. split; [apply group_env_ok|]. split; [split; reflexivity|]. split.
    + intros w a [c [Q|[Q|[]]]]; injection Q as <- <- <-; (split; [|vm_compute; discriminate]); [exists 25|exists 75]; vm_compute; reflexivity.
    + eexists. split; [vm_compute; reflexivity|]. split; vm_compute; reflexivity.
  - intros P. split; [apply group_env_ok|]. split.
    + intros w a [c [Q|[Q|[]]]]; injection Q as <- <- <-; (split; [|vm_compute; discriminate]); [exists (-25)|exists (-75)]; vm_compute; reflexivity.
    + eexists. split; [vm_compute; reflexivity|]. split; vm_compute; reflexivity.
Qed.
(** a group with a limit of its own: weights 1 and 3, and at most 60 may go in *)
Definition limits_with (k0 : lk) (q : Q) : limits := fun k => match k0, k with MinIn, MinIn | MaxIn, MaxIn | MinOut, MinOut | MaxOut, MaxOut => Some q | _, _ => None end.
Definition limited_group (k0 : lk) (q : Q) (ws : list (nat * Q)) : tnode := fst (mk_node (SDict (map (fun aw => (SAcct (fst aw), snd aw)) ws)) (limits_with k0 q) 0).
Definition tab_limited : list row := [
  {| r_caps := [(Src, TN 0, Some (100)); (TN 0, TLim 0, Some (60)); (TLim 0, TOvf 0, Some (60)); (TLim 0, TN 1, Some (15)); (TLim 0, TN 2, Some (45))];
     r_flow := [(Src, TN 0, 60); (TN 0, TLim 0, 60); (TLim 0, TN 1, 15); (TLim 0, TN 2, 45); (TN 1, TLim 1, 15); (TN 2, TLim 2, 45); (TLim 1, Acc 1, 15); (Acc 1, Snk, 15); (TLim 2, Acc 2, 45); (Acc 2, Snk, 45)];
     r_cut := [TLim 0; TOvf 0; TN 1; TN 2; TLim 1; Acc 1; Snk; TLim 2; Acc 2]; r_pot := [] |}] ++ tab_demo.
Example C98_limited_sat : let ws := [(1%nat, 1); (2%nat, 3)]%Q in let root := limited_group MaxIn 60 ws in let l := members_of ws in
  let P := group_env tab_limited (fun _ => 0)%Q (fun _ => 300)%Q in
  flat_group root l [1; 2]%nat /\ t_lims root MaxIn = Some 60%Q /\ whole_units P 60%Q /\ allowed (t_lims root MaxIn) 100 = 60%Q /\
  (forall w a, member l [1; 2]%nat w a -> whole_units P (share 60 l w) /\ share 60 l w <= 300)%Q /\ plain_env P /\ (forall a, takes P a 0 300) /\
  exists r, call P 20 root 100 = Ok r /\ (acct_tx r 1 == 15)%Q /\ (acct_tx r 2 == 45)%Q.
Proof.
  intros ws root l P. split; [|split; [|split; [|split; [|split; [|split; [|split]]]]]].
  - split; [reflexivity|]. split; [repeat constructor|]. split; [cbn; repeat constructor; cbn; intuition discriminate|].
    split; [repeat constructor; cbn; intuition discriminate|]. intros c w [Q|[Q|[]]]; injection Q as <- <-; reflexivity.
  - reflexivity.
  - exists 60. reflexivity.
  - reflexivity.
  - intros w a [c [Q|[Q|[]]]]; injection Q as <- <- <-; (split; [|vm_compute; discriminate]); [exists 15|exists 45]; vm_compute; reflexivity.
  - apply group_env_ok.
  - split; reflexivity.
  - eexists. split; [vm_compute; reflexivity|]. split; vm_compute; reflexivity.
Qed.
Definition tab_limited_out : list row := [
  {| r_caps := [(Src, TN 0, Some (100)); (TN 0, TLim 0, Some (10)); (TLim 0, TOvf 0, Some (10)); (TLim 0, TN 1, Some (0)); (TLim 0, TN 2, Some (0))];
     r_flow := [(Src, TN 0, 10); (TN 0, TLim 0, 10); (TLim 0, TOvf 0, 10); (TOvf 0, TN 1, 10); (TN 1, TLim 1, 10); (TLim 1, Acc 1, 10); (Acc 1, Snk, 10)];
     r_cut := [TLim 0; TOvf 0; TN 1; TN 2; TLim 1; Acc 1; Snk; TLim 2; Acc 2]; r_pot := [(Src, -1); (TN 0, -1); (TLim 0, -1)] |}] ++ tab_out.
(** C98 is false for money taken out of a group that limits what may be taken out: of the 10 that a group
    of two equal members allows, 5 should come from each; the limit is negative, so no member is given a
    share, and a solver that returns optimal flows can take the 10 from the first *)
Theorem C98_limited_withdrawals_refuted : exists P fuel r,
  let root := limited_group MaxOut (- (10)) [(1%nat, 1); (2%nat, 1)]%Q in
  plain_env P /\ (forall a, p_limit P MinOut a = Ok (Fin (- (5))) /\ p_limit P MaxOut a = Ok (Fin (- (300)))%Q) /\ p_prec P = 1%Q /\
  call P fuel root (- (100)) = Ok r /\ (acct_tx r 1 == - (10))%Q /\ (acct_tx r 2 == 0)%Q.
Proof.
  exists (group_env tab_limited_out (fun _ => 5)%Q (fun _ => 300)%Q), 20%nat. eexists. intros root.
  split; [apply group_env_ok|]. split; [split; reflexivity|]. split; [reflexivity|].
  split; [vm_compute; reflexivity|]. split; vm_compute; reflexivity.
Qed.
Print Assumptions C98_limited_withdrawals_refuted.
(** C98 is false when a member has a minimum: of 100 shared half and half, with 60 as the first
    member's minimum, the first should get 60 and the second 40; the code shares what is left after the
    minimums as if the two had got them in equal parts, and gives 70 and 30 *)
Theorem C98_minimum_refuted : exists P fuel r,
  plain_env P /\ takes P 1 60 300 /\ takes P 2 0 300 /\ p_prec P = 1%Q /\
  call P fuel (group_of [(1%nat, 1); (2%nat, 1)]%Q) 100 = Ok r /\ (acct_tx r 1 == 70)%Q /\ (acct_tx r 2 == 30)%Q.
Proof.
  exists (group_env tab_min (fun a => match a with 1%nat => 60 | _ => 0 end)%Q (fun _ => 300)%Q), 20%nat. eexists.
  split; [apply group_env_ok|]. split; [split; reflexivity|]. split; [split; reflexivity|]. split; [reflexivity|].
  split; [vm_compute; reflexivity|]. split; vm_compute; reflexivity.
Qed.
Print Assumptions C98_minimum_refuted.
(** C98 is false when a member is full: of 120 shared in three, with room for 20 in the first, the three
    should get 20, 50 and 50; a solver that returns optimal flows can leave the first with nothing *)
Theorem C98_full_member_refuted : exists P fuel r,
  plain_env P /\ takes P 1 0 20 /\ takes P 2 0 300 /\ takes P 3 0 300 /\ p_prec P = 1%Q /\
  call P fuel (group_of [(1%nat, 1); (2%nat, 1); (3%nat, 1)]%Q) 120 = Ok r /\ (acct_tx r 1 == 0)%Q /\ (acct_tx r 2 == 60)%Q /\ (acct_tx r 3 == 60)%Q.
Proof.
  exists (group_env tab_full (fun _ => 0)%Q (fun a => match a with 1%nat => 20 | _ => 300 end)%Q), 20%nat. eexists.
  split; [apply group_env_ok|]. do 3 (split; [split; reflexivity|]). split; [reflexivity|].
  split; [vm_compute; reflexivity|]. repeat split; vm_compute; reflexivity.
Qed.
Print Assumptions C98_full_member_refuted.
(** C98, nothing is left while a member has room, is false: of 90, 44 stays behind although the second
    member got 6 and could take 30 *)
Theorem C98_left_over_refuted : exists P fuel r,
  plain_env P /\ takes P 1 30 30 /\ takes P 2 0 30 /\ takes P 3 10 10 /\ p_prec P = 1%Q /\
  call P fuel (group_of [(1%nat, 1); (2%nat, 3); (3%nat, 2)]%Q) 90 = Ok r /\ (acct_tx r 2 == 6)%Q /\ (total_tx r == 46)%Q.
Proof.
  exists (group_env tab_left (fun a => match a with 1%nat => 30 | 2%nat => 0 | _ => 10 end)%Q (fun a => match a with 3%nat => 10 | _ => 30 end)%Q), 20%nat. eexists.
  split; [apply group_env_ok|]. do 3 (split; [split; reflexivity|]). split; [reflexivity|].
  split; [vm_compute; reflexivity|]. split; vm_compute; reflexivity.
Qed.
Print Assumptions C98_left_over_refuted.
