(** An account reached through lists only: while it has room, a maximum flow leaves no money at the source. *)
From Verif Require Import Base BaseFacts TxGraphModel TxFlowFacts TxFlowShape TxFlowAccounts TxFlowZero TxFlowNode Prop_TxGraph Prop_TxOrder TxFlowLead.
From Coq Require Import Permutation Lia ZArith Lqa.
Local Open Scope Z_scope.

(** the nodes from [n] down to an account, through lists without limits of their own; the other items of
    these lists may be anything *)
Inductive line : tnode -> nat -> list tnode -> Prop :=
| line_leaf : forall n a, t_body n = TLeaf a -> (forall k, t_lims n k = None) -> line n a [n]
| line_list : forall n l c a ms, t_body n = TOrd l -> (forall k, t_lims n k = None) -> In c l -> line c a ms -> line n a (n :: ms).
Lemma line_in : forall n a ms, line n a ms -> forall m, In m ms -> In m (tree_nodes n).
Proof.
  intros n a ms H. induction H as [n a B L|n l c a ms B L Ic H IH]; intros m [<-|Hm]; try apply tree_self; [destruct Hm|].
  eapply tree_trans; [|apply IH, Hm]. eapply tree_child; [apply tree_self|]. now rewrite (kids_ord n l B).
Qed.
Lemma line_below : forall n a ms, line n a ms -> acct_below n a.
Proof.
  intros n a ms H. induction H as [n a B L|n l c a ms B L Ic H (x & X1 & X2)]; [exists n; split; [apply tree_self|now rewrite B]|].
  exists x. split; [|exact X2]. eapply tree_trans; [|exact X1]. eapply tree_child; [apply tree_self|]. now rewrite (kids_ord n l B).
Qed.
Lemma line_lims : forall n a ms, line n a ms -> forall k, t_lims n k = None.
Proof. intros n a ms H. destruct H; assumption. Qed.
Lemma line_unweighted : forall n a ms, line n a ms -> is_weighted n = false.
Proof. intros n a ms H. unfold is_weighted. destruct H as [n a B L|n l c a ms B L Ic H]; now rewrite B. Qed.
(** no node of the line is in a weighted group *)
Lemma line_clear : forall n a ms, line n a ms -> distinct_nodes n -> forall m w, In m ms -> In w (tree_nodes n) -> In m (tree_nodes w) -> is_weighted w = false.
Proof.
  intros n a ms H. induction H as [n a B L|n l c a ms B L Ic H IH]; intros D m w Hm Hw Hmw.
  - unfold tree_nodes in Hw. rewrite tree_eq in Hw. unfold kids in Hw. rewrite B in Hw. destruct Hw as [<-|[]]. unfold is_weighted. now rewrite B.
  - assert (Wn : is_weighted n = false) by (unfold is_weighted; now rewrite B). assert (Kc : In c (kids n)) by (now rewrite (kids_ord n l B)).
    rewrite tree_eq in Hw. destruct Hw as [<-|Hw]; [exact Wn|]. apply in_flat_map in Hw. destruct Hw as (k & Kk & Hw).
    assert (Mk : In m (tree_nodes k)) by (eapply tree_trans; eauto).
    destruct Hm as [<-|Hm]; [exfalso; now apply (distinct_not_self n k n D Kk Mk)|].
    assert (k = c) as -> by (eapply (distinct_cross n k c m D Kk Kc); [exact (in_map t_id _ _ Mk)|apply in_map; eapply line_in; eauto]).
    apply (IH (distinct_kid n c D Kc) m w Hm Hw Hmw).
Qed.
Definition on (ms : list tnode) (es : list (gnode * gnode)) : Prop := forall x y, In (x, y) es -> exists m, In m ms /\ (x = TN (t_id m) \/ x = TLim (t_id m)).
Lemma on_kept : forall own g g' C n a ms es, kept own g g' -> (forall m, In m ms -> ~ own (t_id m)) -> on ms es -> path_to g C n a es -> path_to g' C n a es.
Proof.
  intros own g g' C n a ms es [K _] No O H. induction H as [n a e1 e2 B E1 C1 E2 C2|n l c a es e1 e2 B Ic E1 C1 E2 C2 Pt IH].
  - destruct (O _ _ (or_introl eq_refl)) as (m & M1 & M2). assert (Nn : ~ own (t_id n)) by (destruct M2 as [M2|M2]; [injection M2 as ->; now apply No|discriminate]).
    eapply path_leaf; eauto; rewrite K; eauto.
  - destruct (O _ _ (or_introl eq_refl)) as (m & M1 & M2). assert (Nn : ~ own (t_id n)) by (destruct M2 as [M2|M2]; [injection M2 as ->; now apply No|discriminate]).
    eapply path_list; eauto; try (rewrite K; now eauto). apply IH. intros x y I. apply (O x y). right. now right.
Qed.

Section Build.
  Variables (P : env) (memo : flowd) (limit : lk).
  Definition builds_line (f : nat) : Prop := forall g n g' C a ms, 0 <= C -> line n a ms -> distinct_nodes n -> gwf g -> inbound_capacity g (TN (t_id n)) = C -> unbuilt g n ->
    add_successors P memo limit f g n None None true = Ok g' ->
    exists es, path_to g' C n a es /\ on ms es /\ (p_grp P limit a = None -> edge_of g' (Acc a) Snk <> None).
  Lemma loop_line : forall f n C pre d post g w g' a ms, builds_line f -> 0 <= C -> NoDup (t_id n :: map t_id (flat_map tree_nodes (pre ++ d :: post))) -> gwf g ->
    line d a ms -> unbuilt g d -> (forall u, edge_of g u (TN (t_id d)) = None) ->
    loop P memo limit n f (fl C) g (pre ++ d :: post) w = Ok g' ->
    exists wd gd sd e, edge_of gd (TLim (t_id n)) (TN (t_id d)) = Some e /\ e_cap e = Some C /\
      (exists es, path_to gd C d a es /\ on ms es /\ (p_grp P limit a = None -> edge_of gd (Acc a) Snk <> None)) /\
      loop P memo limit n f (fl C) gd post (Z.max wd sd + 1) = Ok g'.
  Proof.
    intros f n C pre d post g w g' a ms BP HC D W Li Un NoIn H.
    destruct (loop_app P memo limit _ _ _ _ _ _ _ _ H) as (gp & wd & L1 & L2 & L3 & L4).
    cbn [loop] in L4. match type of L4 with bind ?X _ = _ => destruct X as [gd|] eqn:X2; [|discriminate] end. cbn [bind] in L4.
    destruct (sum_weight f gd (TN (t_id d))) as [sd|] eqn:SW; [|discriminate]. cbn [bind] in L4.
    rewrite add_edge_nx in X2. unfold flow_edge in X2. cbn [dget] in X2. rewrite (int_fl n C HC) in X2.
    pose proof (loop_gwf P memo limit _ _ _ _ _ _ _ W L1) as Wp. destruct (loop_kept P memo limit _ _ _ _ _ _ _ L1) as [I1 I2].
    inversion D as [|? ? Dn Dl]; subst. rewrite flat_map_app in Dn, Dl. cbn [flat_map] in Dn, Dl. rewrite !map_app in Dn, Dl.
    apply nodup_app in Dl. destruct Dl as (Dp & Dl & Dx). apply nodup_app in Dl. destruct Dl as (Dd & Dq & Dy).
    assert (Nd : forall x, In x (tree_nodes d) -> ~ ids pre (t_id x) /\ t_id x <> t_id n).
    { intros x Hx. split; [intros Q; apply (Dx (t_id x) Q), in_or_app; left; now apply in_map|]. intros Q. apply Dn. rewrite <- Q. apply in_or_app. right. apply in_or_app. left. now apply in_map. }
    set (g1 := nx_add_edge gp (TLim (t_id n)) (TN (t_id d)) (Some C) (Some wd)) in *.
    assert (W1 : gwf g1) by (now apply gwf_add).
    assert (IC : inbound_capacity g1 (TN (t_id d)) = C).
    { rewrite inbound_sum by exact W1.
      rewrite (Zsum_one _ (nodes g1) (TLim (t_id n))); [| | |apply W1].
      - unfold g1. rewrite edge_add, !geqb_refl. cbn [andb]. unfold upd_edge. reflexivity.
      - intros y _ Hy. unfold g1. rewrite edge_add. apply geqb_neq in Hy. rewrite Hy. cbn [andb].
        rewrite I1; [now rewrite NoIn|]. right. apply (Nd d (tree_self d)).
      - intros N. exfalso. apply N. unfold g1. apply nodes_add. now left. }
    assert (U1 : unbuilt g1 d).
    { intros x Hx. destruct (Un x Hx) as (U1 & U2 & U3). destruct (Nd x Hx) as [N1 N2]. split; [|split].
      - intros v. unfold g1. rewrite edge_add. cbn [geqb andb]. rewrite I1; [apply U1|]. left. split; [discriminate|exact N1].
      - intros v. unfold g1. rewrite edge_add. assert (Q : geqb (TLim (t_id x)) (TLim (t_id n)) = false) by (apply geqb_neq; congruence). rewrite Q. cbn [andb].
        rewrite I1; [apply U2|]. left. split; [congruence|exact N1].
      - intros u Nx. unfold g1. rewrite edge_add. assert (Q : geqb (TN (t_id x)) (TN (t_id d)) = false).
        { apply geqb_neq. intros Q. injection Q as Q. apply Nx. eapply (distinct_id d); eauto. apply tree_self. }
        rewrite Q, andb_false_r. rewrite I1; [now apply U3|]. right. exact N1. }
    destruct (tree_kept P memo limit _ _ _ _ X2) as [K1 K2].
    exists wd, gd, sd, (upd_edge (edge_of gp (TLim (t_id n)) (TN (t_id d))) (Some C) (Some wd)). split; [|split; [|split; [|exact L4]]].
    - rewrite K1; [unfold g1; rewrite edge_add, !geqb_refl; reflexivity|]. left. intros Q. apply Dn, in_or_app. right. apply in_or_app. now left.
    - reflexivity.
    - exact (BP g1 d gd C a ms HC Li Dd W1 IC U1 X2).
  Qed.
  Lemma lines_built : forall f, builds_line f.
  Proof.
    induction f as [|f IH]; intros g n g' C a ms HC Li D W IC Un H; [discriminate|].
    rewrite successors_S in H. cbv zeta in H. unfold embed_limit in H. rewrite (line_lims n a ms Li) in H. rewrite IC in H.
    rewrite (add_edge_nx [] g) in H. set (g1 := nx_add_edge g (TN (t_id n)) (TLim (t_id n)) None None) in H.
    assert (E1 : edge_of g1 (TN (t_id n)) (TLim (t_id n)) = Some {| e_cap := None; e_w := None |}).
    { unfold g1. rewrite edge_add, !geqb_refl. cbn [andb]. unfold upd_edge. rewrite (proj1 (Un n (tree_self n))). reflexivity. }
    inversion Li as [n0 a0 B L Q1 Q2 Q3|n0 l d a0 ms' B L Ic Li' Q1 Q2 Q3]; subst n0 a0 ms.
    - rewrite B in H. cbn [body_src] in H.
      rewrite add_edge_nx in H. unfold flow_edge in H. cbn [dget] in H. rewrite (int_fl n C HC) in H.
      rewrite add_account_nx in H. destruct (p_limit P limit a) as [x|]; [|discriminate].
      assert (E3 : forall g2, kept (fun _ => False) (nx_add_edge g1 (TLim (t_id n)) (Acc a) (Some C) None) g2 -> path_to g2 C n a [(TN (t_id n), TLim (t_id n)); (TLim (t_id n), Acc a)]).
      { intros g2 [K _]. eapply (path_leaf _ _ n a {| e_cap := None; e_w := None |}); [exact B| |reflexivity| |].
        - rewrite K by (left; tauto). rewrite edge_add. cbn [geqb andb]. exact E1.
        - rewrite K by (left; tauto). rewrite edge_add, !geqb_refl. reflexivity.
        - reflexivity. }
      assert (O3 : on [n] [(TN (t_id n), TLim (t_id n)); (TLim (t_id n), Acc a)]).
      { intros p q [Q|[Q|[]]]; injection Q as <- <-; exists n; (split; [now left|auto]). }
      destruct (p_grp P limit a) as [r|] eqn:GP; injection H as <-; (eexists; split; [apply E3|split; [exact O3|]]).
      + apply kept_write; [exact I|exact I|]. apply kept_write; [exact I|exact I|apply kept_refl].
      + intros Q. congruence.
      + apply kept_write; [exact I|exact I|apply kept_refl].
      + intros _. rewrite edge_add, !geqb_refl. discriminate.
    - rewrite B in H. cbn [body_src] in H. unfold children_of in H. rewrite B in H. cbn [bind] in H.
      change (loop P memo limit n f (fl C) g1 l 0 = Ok g') in H.
      apply in_split in Ic. destruct Ic as (pre & post & ->).
      assert (Dl : NoDup (t_id n :: map t_id (flat_map tree_nodes (pre ++ d :: post)))).
      { unfold distinct_nodes in D. rewrite tree_eq, (kids_ord n _ B) in D. exact D. }
      assert (Kd : In d (kids n)) by (rewrite (kids_ord n _ B); apply in_or_app; right; now left).
      assert (Sub : forall y, In y (tree_nodes d) -> In y (tree_nodes n)) by (intros y Hy; eapply tree_trans; [|exact Hy]; eapply tree_child; [apply tree_self|exact Kd]).
      assert (NS : forall y, In y (tree_nodes d) -> t_id y <> t_id n) by (intros y Hy; eapply distinct_not_self; eauto).
      assert (NoIn : forall u, edge_of g1 u (TN (t_id d)) = None).
      { intros u. unfold g1. rewrite edge_add. cbn [geqb]. rewrite andb_false_r. apply (Un d (Sub d (tree_self d))). intros ->. apply (NS n (tree_self n)). reflexivity. }
      assert (Ud : unbuilt g1 d).
      { intros y Hy. destruct (Un y (Sub y Hy)) as (U1 & U2 & U3). pose proof (NS y Hy) as Ny. unfold g1. split; [|split].
        - intros v. rewrite edge_add. assert (Q : geqb (TN (t_id y)) (TN (t_id n)) = false) by (apply geqb_neq; congruence). rewrite Q. apply U1.
        - intros v. rewrite edge_add. cbn [geqb andb]. apply U2.
        - intros u _. rewrite edge_add. cbn [geqb]. rewrite andb_false_r. apply U3. intros ->. now apply Ny. }
      destruct (loop_line f n C pre d post g1 0 g' a ms' IH HC Dl (gwf_add _ _ _ _ _ W) Li' Ud NoIn H) as (wd & gd & sd & e & Ed & Ec & (es & Pe & Oe & Ga) & Lq).
      destruct (loop_kept P memo limit _ _ _ _ _ _ _ Lq) as [Q1 Q2]. destruct (loop_kept P memo limit _ _ _ _ _ _ _ H) as [R1 R2].
      inversion Dl as [|? ? Dn Dm]; subst. rewrite flat_map_app in Dn, Dm. cbn [flat_map] in Dn, Dm. rewrite !map_app in Dn, Dm.
      apply nodup_app in Dm. destruct Dm as (Dp & Dm & Dx). apply nodup_app in Dm. destruct Dm as (Dd & Dq & Dy).
      eexists. split; [|split].
      + eapply (path_list _ _ n _ d _ _ {| e_cap := None; e_w := None |}); [exact B|apply in_or_app; right; now left| |reflexivity| |exact Ec|].
        * rewrite R1; [exact E1|]. left. split; [discriminate|]. intros Q. apply Dn. unfold ids in Q. rewrite flat_map_app in Q. cbn [flat_map] in Q. rewrite !map_app in Q. exact Q.
        * rewrite Q1; [exact Ed|]. right. intros Q. apply (Dy (t_id d)); [apply in_map, tree_self|exact Q].
        * eapply (path_kept (fun i => ids post i \/ i = t_id n)); [| |exact Pe].
          -- split; [|exact Q2]. intros u v Huv. apply Q1. destruct Huv as [Huv|Huv]; [left|right; destruct v; tauto].
             destruct u; try tauto; try (split; [discriminate|tauto]). split; [intros Q; injection Q as ->; tauto|tauto].
          -- intros m Hm [Q|Q]; [|now apply (NS m Hm)]. apply (Dy (t_id m)); [now apply in_map|exact Q].
      + intros x y [Q|[Q|Q]]; [injection Q as <- <-; exists n; split; [now left|auto]|injection Q as <- <-; exists n; split; [now left|auto]|].
        destruct (Oe x y Q) as (m & M1 & M2). exists m. split; [now right|exact M2].
      + intros GN. apply Q2. now apply Ga.
  Qed.
  (** the finished graph *)
  Lemma line_graph : forall fuel root total g C a ms, (forall l c, In c (p_hash P l) -> In c l) -> distinct_nodes root -> line root a ms ->
    build_graph P memo limit fuel root (Fin total) = Ok g -> src_cap P memo root (Fin total) = Some C -> 0 <= C ->
    (exists e, edge_of g Src (TN (t_id root)) = Some e /\ e_cap e = Some C) /\
    exists es, path_to g C root a es /\ on ms es /\ (p_grp P limit a = None -> edge_of g (Acc a) Snk <> None).
  Proof.
    intros fuel root total g C a ms Hh D Li H SC HC. set (r := t_id root). unfold build_graph in H.
    match type of H with bind ?X _ = _ => destruct X as [gl|] eqn:X1; [|discriminate] end. cbn [bind] in H.
    set (G := fun m => exists w, In w (tree_nodes root) /\ is_weighted w = true /\ In m (tree_nodes w)).
    set (own := fun i => exists m, G m /\ t_id m = i).
    assert (Gt : forall m, G m -> In m (tree_nodes root)) by (intros m (w & W1 & _ & W3); eapply tree_trans; eauto).
    assert (KB : kept own gl g).
    { unfold balance_weighted in H. destruct (bfs_weighted fuel [root]) as [ws|] eqn:BW; [|discriminate]. cbn [bind] in H.
      assert (Gc : forall n c, G n -> is_child n c -> G c).
      { intros n c (w & V1 & V2 & V3) Cc. exists w. split; [exact V1|]. split; [exact V2|]. apply child_kids in Cc. exact (tree_child w n c V3 Cc). }
      assert (Go : forall n, G n -> own (t_id n)) by (intros n N; exists n; auto).
      refine (kept_fold P memo limit own G gl Gc Go Hh fuel ws gl g _ (kept_refl _ _) H).
      intros n N. exists n. split; [|split; [exact (bfs_are_weighted _ _ _ BW n N)|apply tree_self]].
      eapply (bfs_good (in_tree root)); [apply in_tree_child| |exact BW|exact N]. intros m [<-|[]]. apply tree_self. }
    assert (No : forall m, In m ms -> ~ own (t_id m)).
    { intros m Hm (x & Gx & Q). assert (Mr : In m (tree_nodes root)) by (eapply line_in; eauto).
      assert (x = m) as -> by (apply (distinct_id root x m D (Gt x Gx) Mr Q)). destruct Gx as (w & W1 & W2 & W3).
      rewrite (line_clear root a ms Li D m w Hm W1 W3) in W2. discriminate. }
    assert (G0 : add_edge memo [] Src (TN (t_id root)) (Some (scaled_total P (Fin total))) None = nx_add_edge [] Src (TN r) (Some C) None) by (rewrite <- SC; reflexivity).
    rewrite G0 in X1. set (g0 := nx_add_edge [] Src (TN r) (Some C) None) in X1.
    assert (IC : inbound_capacity g0 (TN r) = C) by (unfold g0, inbound_capacity; cbn; rewrite Nat.eqb_refl; cbn; lia).
    assert (Un : unbuilt g0 root).
    { intros x Hx. split; [|split]; intros u; unfold g0; [rewrite edge_add; reflexivity|rewrite edge_add; reflexivity|]. intros Nx. rewrite edge_add.
      assert (Q : geqb (TN (t_id x)) (TN r) = false) by (apply geqb_neq; intros Q; injection Q as Q; apply Nx; apply (distinct_id root x root D Hx (tree_self root) Q)).
      rewrite Q, andb_false_r. reflexivity. }
    destruct (lines_built fuel g0 root gl C a ms HC Li D (gwf_add _ _ _ _ _ gwf_nil) IC Un X1) as (es & Pe & Oe & Ge).
    pose proof (tree_kept P memo limit _ _ _ _ X1) as [K1 _]. destruct KB as [B1 B2]. split.
    - exists {| e_cap := Some C; e_w := None |}. split; [|reflexivity]. rewrite B1 by (left; exact I). rewrite K1 by (left; exact I). unfold g0. rewrite edge_add, !geqb_refl. reflexivity.
    - exists es. split; [|split; [exact Oe|]]; [eapply on_kept; [split; [exact B1|exact B2]|exact No|exact Oe|exact Pe]|]. intros GN. apply B2. now apply Ge.
  Qed.
End Build.

Section Line.
  Variables (P : env) (memo : flowd) (limit : lk) (root : tnode) (C : Z) (g : graph) (f : gnode -> gnode -> Z).
  Let r := t_id root.
  Hypothesis DN : distinct_nodes root.
  Hypothesis Sh : shape P memo limit r (Some C) g.
  Hypothesis Wi : wiring P memo limit root g.
  Hypothesis Wv : winv root g.
  Hypothesis F : feasible g f.
  Hypothesis Sr : exists e, edge_of g Src (TN r) = Some e /\ e_cap e = Some C.
  Lemma lin_one : forall v u0, (forall u e, edge_of g u v = Some e -> u = u0) -> inflow g f v = f u0 v.
  Proof. intros v u0 H. exact (only_in P memo limit root C g f Sh F v u0 H). Qed.
  Lemma lin_out_one : forall u v, f u v <= outflow g f u.
  Proof.
    intros u v. assert (K : Zsum (map (f u) [v]) <= outflow g f u).
    { unfold outflow. apply (Zsum_incl_le (f u)); [constructor; [intros []|constructor]|intros x _; apply (fe_pos _ _ F)|].
      intros x _ Nx. apply (not_node P memo limit r (Some C) g f Sh F). now right. }
    unfold Zsum in K. cbn in K. lia.
  Qed.
  Lemma lin_conserve : forall u v e, edge_of g u v = Some e -> v <> Src -> v <> Snk -> outflow g f v = inflow g f v.
  Proof. intros u v e E N1 N2. apply (fe_cons _ _ F); auto. destruct (sh_wf _ _ _ _ _ _ Sh) as (_ & _ & We). eapply We; eauto. Qed.
  Lemma lin_not_root : forall n c, In n (tree_nodes root) -> In c (kids n) -> t_id c <> r.
  Proof.
    intros n c N Cc. rewrite tree_eq in N. destruct N as [<-|N]; [eapply distinct_not_self; [exact DN|exact Cc|apply tree_self]|].
    apply in_flat_map in N. destruct N as (k & K1 & K2). eapply distinct_not_self; [exact DN|exact K1|]. eapply tree_child; eauto.
  Qed.
  Lemma lin_into_kid : forall n c u e, In n (tree_nodes root) -> is_weighted n = false -> In c (kids n) -> edge_of g u (TN (t_id c)) = Some e -> u = TLim (t_id n).
  Proof.
    intros n c u e N Wn Cc E. assert (K : u = TLim (t_id n) \/ u = TOvf (t_id n)).
    { destruct (wi_tn _ _ _ _ _ Wi _ _ _ E) as [[_ Q]|(p & c' & P1 & P2 & Q & H)]; [exfalso; now apply (lin_not_root n c N Cc)|].
      assert (c = c') as <- by (apply (distinct_id root c c' DN (tree_child root n c N Cc) (tree_child root p c' P1 P2) Q)).
      rewrite (unique_parent root n p c DN N P1 Cc P2). exact H. }
    destruct K as [-> | ->]; [reflexivity|]. exfalso.
    destruct (w_ovf _ _ Wv _ _ _ E) as (m & M1 & M2 & M3). assert (m = n) as -> by (apply (distinct_id root m n DN); auto). congruence.
  Qed.
  Lemma lin_into_root : forall u e, edge_of g u (TN r) = Some e -> u = Src.
  Proof.
    intros u e E. destruct (wi_tn _ _ _ _ _ Wi _ _ _ E) as [[Q _]|(p & c & P1 & P2 & Q & _)]; [exact Q|]. exfalso. now apply (lin_not_root p c P1 P2).
  Qed.
  (** along the path no edge carries more than enters its first node *)
  Lemma lin_bound : forall n a ms, line n a ms -> forall es, path_to g C n a es -> on ms es -> In n (tree_nodes root) -> (exists u e, edge_of g u (TN (t_id n)) = Some e) ->
    forall x y, In (x, y) es -> f x y <= inflow g f (TN (t_id n)).
  Proof.
    enough (K : forall n a es, path_to g C n a es -> (forall m x y, In (x, y) es -> x = TLim (t_id m) -> In m (tree_nodes root) -> is_weighted m = false) -> In n (tree_nodes root) -> (exists u e, edge_of g u (TN (t_id n)) = Some e) ->
      forall x y, In (x, y) es -> f x y <= inflow g f (TN (t_id n))).
    { intros n a ms Li es Pt On N Ex. apply (K n a es Pt); [|exact N|exact Ex]. intros m x y I -> M.
      destruct (On _ _ I) as (m' & M1 & [Q|Q]); [discriminate|]. injection Q as Q. assert (M' : In m' (tree_nodes root)) by (eapply tree_trans; [exact N|eapply line_in; eauto]).
      assert (m = m') as -> by (apply (distinct_id root m m' DN); auto). clear -Li M1.
      induction Li as [n a B L|n l c a ms B L Ic Li IH]; [destruct M1 as [<-|[]]; unfold is_weighted; now rewrite B|].
      destruct M1 as [<-|M1]; [unfold is_weighted; now rewrite B|now apply IH]. }
    intros n a es H. induction H as [n a e1 e2 B E1 C1 E2 C2|n l c a es e1 e2 B Ic E1 C1 E2 C2 Pt IH]; intros L N (u & e & Eu) x y I.
    - pose proof (lin_conserve _ _ _ Eu ltac:(discriminate) ltac:(discriminate)) as K1. pose proof (lin_conserve _ _ _ E1 ltac:(discriminate) ltac:(discriminate)) as K2.
      rewrite (lin_one (TLim (t_id n)) (TN (t_id n))) in K2 by (intros z e0 Ez; exact (wi_lim _ _ _ _ _ Wi _ _ _ Ez)).
      pose proof (lin_out_one (TN (t_id n)) (TLim (t_id n))) as O1. pose proof (lin_out_one (TLim (t_id n)) (Acc a)) as O2.
      destruct I as [I|[I|[]]]; injection I as <- <-; lia.
    - pose proof (lin_conserve _ _ _ Eu ltac:(discriminate) ltac:(discriminate)) as K1. pose proof (lin_conserve _ _ _ E1 ltac:(discriminate) ltac:(discriminate)) as K2.
      rewrite (lin_one (TLim (t_id n)) (TN (t_id n))) in K2 by (intros z e0 Ez; exact (wi_lim _ _ _ _ _ Wi _ _ _ Ez)).
      pose proof (lin_out_one (TN (t_id n)) (TLim (t_id n))) as O1. pose proof (lin_out_one (TLim (t_id n)) (TN (t_id c))) as O2.
      assert (Kc : In c (kids n)) by (now rewrite (kids_ord n l B)).
      assert (Wn : is_weighted n = false) by (eapply (L n); [right; left; reflexivity|reflexivity|exact N]).
      assert (Ec : inflow g f (TN (t_id c)) = f (TLim (t_id n)) (TN (t_id c))) by (apply lin_one; intros z e0 Ez; exact (lin_into_kid n c z e0 N Wn Kc Ez)).
      destruct I as [I|[I|I]]; [injection I as <- <-; lia|injection I as <- <-; lia|].
      assert (f x y <= inflow g f (TN (t_id c))); [|lia]. apply IH; auto; [|eapply tree_child; eauto|eauto].
      intros m p q Hm. apply (L m p q). right. now right.
  Qed.
  Lemma line_placed : forall a ms es, line root a ms -> path_to g C root a es -> on ms es -> edge_of g (Acc a) Snk <> None -> has_room g f a -> optimal g f -> f Src (TN r) = C.
  Proof.
    intros a ms es Li Pt On Last Room [_ Opt]. destruct Sr as (e1 & E1 & K1).
    assert (Le : f Src (TN r) <= C) by (apply (fe_cap _ _ F _ _ e1 C E1 K1)).
    destruct (Z.eq_dec (f Src (TN r)) C) as [E0|N0]; [exact E0|exfalso].
    assert (In_ : inflow g f (TN r) = f Src (TN r)) by (apply lin_one; intros u e E; exact (lin_into_root u e E)).
    set (A := (Src, TN r) :: es ++ [(Acc a, Snk)]).
    assert (LS : forall x y, In (x, y) es -> x <> Src /\ forall b, x <> Acc b).
    { intros x y I. destruct (On x y I) as (m & _ & [-> | ->]); split; discriminate. }
    assert (NA : NoDup A).
    { constructor.
      - intros Q. apply in_app_or in Q. destruct Q as [Q|[Q|[]]]; [|discriminate]. now apply (proj1 (LS _ _ Q)).
      - apply (Permutation_NoDup (l := (Acc a, Snk) :: es)); [apply Permutation_cons_append|]. constructor; [intros Q; now apply (proj2 (LS _ _ Q) a)|].
        eapply path_nodup; [exact Pt|exact DN]. }
    assert (CA : chain Src A Snk) by (split; [reflexivity|]; apply chain_snoc; exact (path_chain _ _ _ _ _ Pt)).
    destruct (swap_feasible g f [] A (sh_wf _ _ _ _ _ _ Sh) F (NoDup_nil _) NA) as [FE PRS].
    { intros x y []. }
    { intros x y [Q|Q]; [injection Q as <- <-; eauto|]. apply in_app_or in Q. destruct Q as [Q|[Q|[]]]; [eapply path_edges; eauto|].
      injection Q as <- <-. destruct (edge_of g (Acc a) Snk) as [e|]; [eauto|contradiction]. }
    { intros x y e k [Q|Q] E K; [injection Q as <- <-; rewrite E1 in E; injection E as <-; rewrite K1 in K; injection K as <-; lia|].
      apply in_app_or in Q. destruct Q as [Q|[Q|[]]].
      - rewrite (path_caps _ _ _ _ _ Pt x y e k Q E K).
        assert (f x y <= inflow g f (TN r)); [|lia]. eapply (lin_bound root a ms Li es Pt On (tree_self root)); eauto.
      - injection Q as <- <-. eapply Room; eauto. }
    { intros z N1 N2. pose proof (chain_balance A _ _ z CA) as B. unfold unit_at at 2 4 in B. apply geqb_neq in N1, N2. rewrite N1, N2 in B. unfold Zsum at 2 4. cbn [map fold_right]. lia. }
    assert (NDg : NoDup (nodes g)) by (apply (sh_wf _ _ _ _ _ _ Sh)).
    destruct (Opt _ FE) as [O1 _]. rewrite swap_out in O1; [|exact NDg|].
    - assert (X : Zsum (map (fun e => unit_at Src (fst e)) A) = 1).
      { unfold A. cbn [map fst]. change (1 + Zsum (map (fun e => unit_at Src (fst e)) (es ++ [(Acc a, Snk)])) = 1).
        rewrite (Zsum_zero (fun e : gnode * gnode => unit_at Src (fst e))); [lia|]. intros [x y] I. unfold unit_at. cbn [fst]. apply in_app_or in I.
        assert (N : x <> Src) by (destruct I as [I|[I|[]]]; [exact (proj1 (LS x y I))|injection I as <- _; discriminate]). destruct (geqb Src x) eqn:E; [|reflexivity]. apply geqb_eq in E. congruence. }
      rewrite X in O1. unfold Zsum in O1. cbn [map fold_right] in O1. lia.
    - intros e He. destruct (PRS e He) as [x X]. destruct (sh_wf _ _ _ _ _ _ Sh) as (_ & _ & We). eapply We; eauto.
  Qed.
End Line.

(** one pass *)
Lemma pass_line : forall P fuel root memo total limit tx memo' C, solver_ok_opt P -> distinct_nodes root ->
  traverse P fuel root memo (Fin total) limit = Ok (tx, memo') -> src_cap P memo root (Fin total) = Some C -> 0 <= C ->
  exists g f, feasible g f /\ shape P memo limit (t_id root) (Some C) g /\ memo' = merge_flows memo (flow_dict g f) /\ NoDup (dkeys tx) /\
    (forall a, In a (dkeys tx) -> acct_below root a) /\
    (forall a t, In (a, t) tx -> p_tx P limit a (if Qlt_bool total 0 then (- (p_prec P * fl (outflow g f (Acc a))))%Q else (p_prec P * fl (outflow g f (Acc a)))%Q) = Ok t) /\
    (forall a ms, line root a ms -> p_grp P limit a = None -> In a (dkeys tx) /\
      (exists x e, p_limit P limit a = Ok x /\ edge_of g (Acc a) Snk = Some e /\ e_cap e = capx P x (flow_out memo (Acc a)) /\ outflow g f (Acc a) = f (Acc a) Snk) /\
      (has_room g f a -> outflow g f Src = C)) /\
    outflow g f Src <= Zsum (map (fun a => outflow g f (Acc a)) (dkeys tx)).
Proof.
  intros P fuel root memo total limit tx memo' C SO DN H SC HC.
  pose proof (opt_world P SO) as W. destruct SO as (Hp & Sv & Hh).
  destruct (traverse_inv _ _ _ _ _ _ _ _ W H) as (g & f & B & F & S & M & N & K & PF & acs & AO & Dk & Dki).
  rewrite SC in S. pose proof (Sv _ _ PF) as Opt. pose proof (build_wiring P memo limit fuel root (Fin total) g Hh DN B) as Wi.
  pose proof (winv_build P memo limit fuel root (Fin total) g Hh B) as Wv.
  exists g, f. split; [exact F|]. split; [exact S|]. split; [exact M|]. split; [exact N|]. split; [|split; [exact K|split]].
  - intros a Ha. apply (accounts_below fuel root acs a AO). now apply Dki.
  - intros a ms Li Ng. destruct (line_graph P memo limit fuel root total g C a ms Hh DN Li B SC HC) as (Sr & es & Pt & On & Hl). specialize (Hl Ng).
    destruct (edge_of g (Acc a) Snk) as [e|] eqn:E; [|congruence].
    assert (NDa : In (Acc a) (nodes g)) by (destruct (sh_wf _ _ _ _ _ _ S) as (_ & _ & We); exact (proj1 (We _ _ _ E))).
    split; [|split].
    + apply Dk; [|exact NDa]. apply (accounts_below fuel root acs a AO). eapply line_below; eauto.
    + destruct (sh_acc _ _ _ _ _ _ S _ _ _ E) as (x & X & Q). rewrite Ng in Q. destruct Q as [_ Q]. exists x, e. split; [exact X|]. split; [reflexivity|]. split; [exact Q|].
      rewrite (acc_out _ _ _ _ _ _ _ S F). unfold acc_target. now rewrite Ng.
    + intros Room. assert (Hl' : edge_of g (Acc a) Snk <> None) by congruence.
      rewrite (src_out _ _ _ _ _ _ _ S F). exact (line_placed P memo limit root C g f DN S Wi Wv F Sr a ms es Li Pt On Hl' Room Opt).
  - rewrite <- (accounts_total _ _ _ _ _ _ _ S F). rewrite <- (map_map Acc (outflow g f)). apply Zsum_incl_le.
    + apply NoDup_filter. apply (sh_wf _ _ _ _ _ _ S).
    + intros x _. now apply out_pos.
    + intros x Hx Nx. apply filter_In in Hx. destruct Hx as [Hx Ax]. destruct x as [| | | | |a|]; try discriminate.
      rewrite (fe_cons _ _ F) by (assumption || discriminate). apply Zsum_zero. intros u _. apply (fe_edges _ _ F).
      destruct (edge_of g u (Acc a)) as [e|] eqn:E; [|reflexivity]. exfalso. destruct (wi_acc _ _ _ _ _ Wi _ _ _ E) as (p & P1 & P2 & _).
      apply Nx. apply in_map. apply Dk; [|exact Hx]. apply (accounts_below fuel root acs a AO). exists p. auto.
Qed.
