(** C80: priority lists are filled in order. *)
From Verif Require Import Base BaseFacts TxGraphModel TxFlowFacts TxFlowShape TxFlowAccounts TxFlowZero Prop_TxGraph.
From Coq Require Import Permutation Lia ZArith Lqa.
Local Open Scope Z_scope.

(** ** Specification: a maximum flow of minimum cost *)
Definition weight (g : graph) (u v : gnode) : Z := match edge_of g u v with Some {| e_w := Some w |} => w | _ => 0 end.
Definition cost (g : graph) (f : gnode -> gnode -> Z) : Z :=
  Zsum (map (fun u => Zsum (map (fun v => weight g u v * f u v) (nodes g))) (nodes g)).
Definition optimal (g : graph) (f : gnode -> gnode -> Z) : Prop :=
  feasible g f /\ forall f', feasible g f' -> outflow g f' Src <= outflow g f Src /\ (outflow g f' Src = outflow g f Src -> cost g f <= cost g f').
Definition solves (P : env) : Prop := forall g f, p_flow P g = Ok f -> optimal g f.
(** a priority list of accounts without limits of its own: distinct new nodes, distinct accounts *)
Definition leaf_of (c : tnode) (a : nat) : Prop := t_body c = TLeaf a /\ (forall k, t_lims c k = None).
Definition flat_list (root : tnode) (cs : list tnode) (accts : list nat) : Prop :=
  t_body root = TOrd cs /\ (forall k, t_lims root k = None) /\ Forall2 leaf_of cs accts /\
  NoDup (t_id root :: map t_id cs) /\ NoDup accts.

(** ** Changing a flow along edges *)
Definition ind (a b u v : gnode) : Z := if geqb u a && geqb v b then 1 else 0.
Lemma ind_row : forall l a b u, NoDup l -> In b l -> Zsum (map (fun v => ind a b u v) l) = if geqb u a then 1 else 0.
Proof.
  intros l a b u N I. rewrite (Zsum_one _ l b); [|intros y _ Hy; unfold ind; apply geqb_neq in Hy; now rewrite Hy, andb_false_r|contradiction|exact N].
  unfold ind. rewrite geqb_refl, andb_true_r. reflexivity.
Qed.
Lemma ind_col : forall l a b v, NoDup l -> In a l -> Zsum (map (fun u => ind a b u v) l) = if geqb v b then 1 else 0.
Proof.
  intros l a b u N I. rewrite (Zsum_one _ l a); [|intros y _ Hy; unfold ind; apply geqb_neq in Hy; now rewrite Hy|contradiction|exact N].
  unfold ind. rewrite geqb_refl. reflexivity.
Qed.
(** add [k] times the edges of a list *)
Definition shift (f : gnode -> gnode -> Z) (es : list (Z * (gnode * gnode))) : gnode -> gnode -> Z :=
  fun u v => f u v + Zsum (map (fun e => fst e * ind (fst (snd e)) (snd (snd e)) u v) es).
Lemma Zsum_scale : forall {A} (h : A -> Z) k l, Zsum (map (fun x => k * h x) l) = k * Zsum (map h l).
Proof. intros A h k l. induction l as [|x l IH]; unfold Zsum in *; cbn in *; [lia|]. rewrite IH. lia. Qed.
Lemma shift_out : forall g f es u, NoDup (nodes g) -> (forall e, In e es -> In (snd (snd e)) (nodes g)) ->
  outflow g (shift f es) u = outflow g f u + Zsum (map (fun e => fst e * (if geqb u (fst (snd e)) then 1 else 0)) es).
Proof.
  intros g f es u N H. unfold outflow, shift. rewrite Zsum_add. f_equal.
  rewrite (Zsum_swap (fun v e => fst e * ind (fst (snd e)) (snd (snd e)) u v)). apply Zsum_ext. intros e He.
  rewrite (Zsum_scale (fun v => ind (fst (snd e)) (snd (snd e)) u v)). rewrite ind_row; auto.
Qed.
Lemma shift_in : forall g f es v, NoDup (nodes g) -> (forall e, In e es -> In (fst (snd e)) (nodes g)) ->
  inflow g (shift f es) v = inflow g f v + Zsum (map (fun e => fst e * (if geqb v (snd (snd e)) then 1 else 0)) es).
Proof.
  intros g f es v N H. unfold inflow, shift. rewrite Zsum_add. f_equal.
  rewrite (Zsum_swap (fun u e => fst e * ind (fst (snd e)) (snd (snd e)) u v)). apply Zsum_ext. intros e He.
  rewrite (Zsum_scale (fun u => ind (fst (snd e)) (snd (snd e)) u v)). rewrite ind_col; auto.
Qed.
Lemma shift_cost : forall g f es, NoDup (nodes g) -> (forall e, In e es -> In (fst (snd e)) (nodes g) /\ In (snd (snd e)) (nodes g)) ->
  cost g (shift f es) = cost g f + Zsum (map (fun e => fst e * weight g (fst (snd e)) (snd (snd e))) es).
Proof.
  intros g f es N H. unfold cost.
  rewrite (Zsum_ext (fun u => Zsum (map (fun v => weight g u v * shift f es u v) (nodes g)))
    (fun u => Zsum (map (fun v => weight g u v * f u v) (nodes g)) + Zsum (map (fun e => fst e * ((if geqb u (fst (snd e)) then 1 else 0) * weight g (fst (snd e)) (snd (snd e)))) es))).
  2:{ intros u Hu. rewrite (Zsum_ext (fun v => weight g u v * shift f es u v) (fun v => weight g u v * f u v + Zsum (map (fun e => fst e * (weight g u v * ind (fst (snd e)) (snd (snd e)) u v)) es))).
      2:{ intros v _. unfold shift. rewrite Z.mul_add_distr_l. f_equal. rewrite <- Zsum_scale. apply Zsum_ext. intros. lia. }
      rewrite Zsum_add. f_equal. rewrite (Zsum_swap (fun v e => fst e * (weight g u v * ind (fst (snd e)) (snd (snd e)) u v))).
      apply Zsum_ext. intros e He. rewrite (Zsum_scale (fun v => weight g u v * ind (fst (snd e)) (snd (snd e)) u v)). f_equal.
      rewrite (Zsum_one _ (nodes g) (snd (snd e))); [| |intros Q; exfalso; apply Q; now apply H|exact N].
      - unfold ind. rewrite geqb_refl, andb_true_r. destruct (geqb u (fst (snd e))) eqn:Q; [apply geqb_eq in Q; subst; lia|lia].
      - intros y _ Hy. unfold ind. apply geqb_neq in Hy. rewrite Hy, andb_false_r. lia. }
  rewrite Zsum_add. f_equal. rewrite (Zsum_swap (fun u e => fst e * ((if geqb u (fst (snd e)) then 1 else 0) * weight g (fst (snd e)) (snd (snd e))))).
  apply Zsum_ext. intros e He. rewrite (Zsum_scale (fun u => (if geqb u (fst (snd e)) then 1 else 0) * weight g (fst (snd e)) (snd (snd e)))). f_equal.
  rewrite (Zsum_one _ (nodes g) (fst (snd e))); [| |intros Q; exfalso; apply Q; now apply H|exact N].
  - rewrite geqb_refl. lia.
  - intros y _ Hy. apply geqb_neq in Hy. rewrite Hy. lia.
Qed.
Definition present (g : graph) (es : list (Z * (gnode * gnode))) : Prop := forall e, In e es -> exists d, edge_of g (fst (snd e)) (snd (snd e)) = Some d.
Definition balanced (es : list (Z * (gnode * gnode))) : Prop := forall u, u <> Src -> u <> Snk ->
  Zsum (map (fun e => fst e * (if geqb u (fst (snd e)) then 1 else 0)) es) = Zsum (map (fun e => fst e * (if geqb u (snd (snd e)) then 1 else 0)) es).
Lemma shift_feasible : forall g f es, gwf g -> feasible g f -> present g es -> balanced es ->
  (forall u v, 0 <= shift f es u v) -> (forall u v e c, edge_of g u v = Some e -> e_cap e = Some c -> shift f es u v <= c) -> feasible g (shift f es).
Proof.
  intros g f es (N & A & W) F Pr B Pos Cap. constructor; auto.
  - intros u v E. unfold shift. rewrite (fe_edges _ _ F _ _ E). rewrite Zsum_zero; [lia|]. intros e He. destruct (Pr e He) as [d D].
    unfold ind. destruct (geqb u (fst (snd e)) && geqb v (snd (snd e))) eqn:Q; [|lia]. apply andb_true_iff in Q. destruct Q as [Q1 Q2].
    apply geqb_eq in Q1, Q2. subst. congruence.
  - intros u Hu N1 N2. assert (K : forall e, In e es -> In (fst (snd e)) (nodes g) /\ In (snd (snd e)) (nodes g)) by (intros e He; destruct (Pr e He) as [d D]; eapply W; eauto).
    rewrite shift_out, shift_in; auto; try (intros e He; now apply K). rewrite (fe_cons _ _ F u Hu N1 N2), B; auto.
Qed.

(** ** The graph of a flat priority list *)
Section Flat.
  Variables (P : env) (memo : flowd) (limit : lk) (root : tnode) (cs : list tnode) (accts : list nat) (total : Q).
  Hypothesis Flat : flat_list root cs accts.
  Hypothesis Hh : forall l c, In c (p_hash P l) -> In c l.
  Hypothesis NoGrp : forall a, p_grp P limit a = None.
  Let r := t_id root.
  Definition isleaf (c : tnode) (a : nat) : Prop := In c cs /\ t_body c = TLeaf a.
  Record finv (g : graph) : Prop := {
    f_wf : gwf g;
    f_to : forall u v e, edge_of g u v = Some e -> match v with
       | TLim m => u = TN m | TN m => (u = Src /\ m = r) \/ (u = TLim r /\ m <> r)
       | Acc a => exists c, u = TLim (t_id c) /\ isleaf c a | TOvf _ | Src => False | _ => True end;
    f_from : forall u v e, edge_of g u v = Some e -> match u with
       | TN m => v = TLim m | TLim m => m <> r -> exists a, v = Acc a | _ => True end;
    f_w : forall u v e, edge_of g u v = Some e -> u <> TLim r -> e_w e = None }.
  Definition Gf (n : tnode) : Prop := n = root \/ In n cs.
  Lemma child_root : forall c, is_child root c <-> In c cs.
  Proof.
    intros c. destruct Flat as (B & _). split.
    - intros (l & L1 & L2). unfold children_of in L1. rewrite B in L1. injection L1 as <-. exact L2.
    - intros H. exists cs. split; [unfold children_of; now rewrite B|exact H].
  Qed.
  Lemma in_leaf : forall c, In c cs -> exists a, t_body c = TLeaf a.
  Proof.
    intros c H. destruct Flat as (_ & _ & L & _). revert H. clear Flat. induction L as [|x a cs0 as0 [La _] _ IH]; intros H; [destruct H|]. destruct H as [<-|H]; [exists a; exact La|now apply IH].
  Qed.
  Lemma no_child : forall n c, In n cs -> ~ is_child n c.
  Proof. intros n c H (l & L1 & L2). destruct (in_leaf n H) as [a Ha]. unfold children_of in L1. rewrite Ha in L1. injection L1 as <-. destruct L2. Qed.
  Lemma child_id : forall c, In c cs -> t_id c <> r.
  Proof. intros c H E. destruct Flat as (_ & _ & _ & N & _). inversion N as [|? ? Nr _]; subst. apply Nr. unfold r in E. rewrite <- E. now apply in_map. Qed.
  Lemma finv_write : forall g u v c w, (match v with
       | TLim m => u = TN m | TN m => (u = Src /\ m = r) \/ (u = TLim r /\ m <> r)
       | Acc a => exists c, u = TLim (t_id c) /\ isleaf c a | TOvf _ | Src => False | _ => True end) ->
    (match u with TN m => v = TLim m | TLim m => m <> r -> exists a, v = Acc a | _ => True end) -> (u <> TLim r -> w = None) ->
    finv g -> finv (nx_add_edge g u v c w).
  Proof.
    intros g u v c w H1 H2 H3 [F1 F2 F3 F4]. constructor.
    - now apply gwf_add.
    - intros a b e H. edges H; try (exact (F2 _ _ _ H)). subst. exact H1.
    - intros a b e H. edges H; try (exact (F3 _ _ _ H)). subst. exact H2.
    - intros a b e H Hn. edges H; try (exact (F4 _ _ _ H Hn)). subst. injection H as <-. unfold upd_edge. cbn [e_w]. rewrite (H3 Hn).
      destruct (edge_of g u v) as [e0|] eqn:E; [|reflexivity]. eapply F4; eauto.
  Qed.
  Lemma finv_account : forall g a g', finv g -> add_account P memo limit g a = Ok g' -> finv g'.
  Proof.
    intros g a g' F H. rewrite add_account_nx, NoGrp in H. destruct (p_limit P limit a); [|discriminate]. injection H as <-.
    apply finv_write; auto.
  Qed.
  Lemma finv_child : forall fuel g n cap sub ov g', In n cs -> finv g -> add_successors P memo limit fuel g n cap sub ov = Ok g' -> finv g'.
  Proof.
    intros [|f] g n cap sub ov g' Hn F H; [discriminate|]. rewrite successors_S in H. cbv zeta in H.
    pose proof (child_id n Hn) as Nr. destruct (in_leaf n Hn) as [a Ha].
    destruct (embed_nx P memo limit g n cap) as [k Ek]. destruct (embed_limit P memo limit g n cap) as [g1 c1]. cbn [fst] in Ek. subst g1.
    rewrite Ha in H. cbn [body_src] in H. eapply finv_account; [|exact H]. rewrite add_edge_nx.
    apply finv_write; [exists n; split; [reflexivity|split; auto]|intros _; eauto|auto|].
    apply finv_write; auto.
  Qed.

  (** what is known about a finished child *)
  Definition lane (g : graph) (c : tnode) (a : nat) (w : Z) (C : Z) : Prop :=
    (exists e, edge_of g (TLim r) (TN (t_id c)) = Some e /\ e_w e = Some w /\ e_cap e = Some C) /\
    (exists e, edge_of g (TN (t_id c)) (TLim (t_id c)) = Some e /\ e_cap e = None) /\
    (exists e, edge_of g (TLim (t_id c)) (Acc a) = Some e /\ e_cap e = Some C) /\
    (exists e, edge_of g (Acc a) Snk = Some e).
  Lemma inbound_sum : forall g v, gwf g -> inbound_capacity g v = Zsum (map (fun u => match edge_of g u v with Some {| e_cap := Some c |} => c | _ => 0 end) (nodes g)).
  Proof.
    intros g v (N & _ & _). unfold inbound_capacity, nodes, dkeys. rewrite map_map. fold (Zsum (map (fun ua : gnode * dict gnode edge => match dget geqb (snd ua) v with Some {| e_cap := Some c |} => c | _ => 0 end) g)).
    apply Zsum_ext. intros [u d] H. cbn [fst snd]. unfold edge_of, adj. rewrite (gIn_get g u d N H). reflexivity.
  Qed.
  Lemma int_fl : forall C, 0 <= C -> int_of (qabs (fl C) - fl 0)%Q = C.
  Proof.
    intros C H. unfold qabs, fl, inject_Z, int_of, Qminus, Qplus, Qopp. destruct (Qle_bool 0 (C # 1)) eqn:E.
    - cbn. rewrite Z.quot_1_r. lia.
    - exfalso. apply Qle_bool_f in E. unfold Qlt in E. cbn in E. lia.
  Qed.
  (** processing one child makes its lane and leaves the other lanes alone *)
  Lemma child_lane : forall fuel g c a w C g', In c cs -> leaf_of c a -> 0 <= C -> finv g ->
    edge_of g (TLim r) (TN (t_id c)) = None -> edge_of g (TN (t_id c)) (TLim (t_id c)) = None -> edge_of g (TLim (t_id c)) (Acc a) = None ->
    add_successors P memo limit fuel (add_edge [] g (TLim r) (TN (t_id c)) (Some (Fin (fl C))) (Some w)) c None None true = Ok g' ->
    lane g' c a w C /\ (forall u v, u <> TLim (t_id c) -> u <> TN (t_id c) -> u <> Acc a -> v <> TN (t_id c) -> edge_of g' u v = edge_of g u v) /\
    (forall u v, u <> TLim r -> u <> TLim (t_id c) -> u <> TN (t_id c) -> u <> Acc a -> edge_of g' u v = edge_of g u v).
  Proof.
    intros [|f] g c a w C g' Hc [La Ll] HC F E1 E2 E3 H; [discriminate|]. rewrite successors_S in H. cbv zeta in H.
    pose proof (child_id c Hc) as Nr.
    rewrite add_edge_nx in H. cbn [flow_edge dget] in H. unfold flow_edge in H. cbn [dget] in H. rewrite (int_fl C HC) in H.
    set (g1 := nx_add_edge g (TLim r) (TN (t_id c)) (Some C) (Some w)) in H.
    unfold embed_limit in H. rewrite Ll in H.
    assert (IC : inbound_capacity g1 (TN (t_id c)) = C).
    { assert (W1 : gwf g1) by (apply gwf_add, (f_wf _ F)). rewrite inbound_sum by exact W1.
      rewrite (Zsum_one _ (nodes g1) (TLim r)); [| | |apply W1].
      - unfold g1. rewrite edge_add, !geqb_refl. cbn [andb]. unfold upd_edge. reflexivity.
      - intros y _ Hy. unfold g1. rewrite edge_add. apply geqb_neq in Hy. rewrite Hy. cbn [andb].
        destruct (edge_of g y (TN (t_id c))) as [e|] eqn:E; [|reflexivity]. destruct (f_to _ F _ _ _ E) as [[_ K]|[K _]]; [contradiction|].
        subst. rewrite geqb_refl in Hy. discriminate.
      - intros N. exfalso. apply N. unfold g1. apply nodes_add. now left. }
    rewrite IC in H. rewrite La in H. cbn [body_src] in H. rewrite !add_edge_nx in H. unfold flow_edge in H. cbn [dget] in H. rewrite (int_fl C HC) in H.
    rewrite add_account_nx, NoGrp in H. destruct (p_limit P limit a) as [x|]; [|discriminate]. injection H as <-.
    set (cx := capx P x (flow_out memo (Acc a))).
    assert (NEQ : geqb (TLim r) (TLim (t_id c)) = false) by (apply geqb_neq; congruence).
    assert (NEQ2 : geqb (TLim (t_id c)) (TLim r) = false) by (apply geqb_neq; congruence).
    split; [|split].
    - split; [|split; [|split]].
      + rewrite !edge_add. cbn [geqb andb]. cbn [geqb] in NEQ. rewrite NEQ. cbn [andb]. unfold g1. rewrite edge_add, !geqb_refl. cbn [andb]. eexists. split; [reflexivity|]. split; reflexivity.
      + rewrite !edge_add. cbn [geqb andb]. rewrite !Nat.eqb_refl. cbn [andb]. eexists. split; [reflexivity|]. unfold upd_edge. cbn [e_cap]. unfold g1. rewrite edge_add. cbn [geqb andb]. now rewrite E2.
      + rewrite !edge_add. cbn [geqb andb]. rewrite !Nat.eqb_refl. cbn [andb]. eexists. split; [reflexivity|]. reflexivity.
      + rewrite edge_add, !geqb_refl. cbn [andb]. eauto.
    - intros u v N1 N2 N3 N4. apply geqb_neq in N1, N2, N3, N4. rewrite !edge_add, N1, N2, N3. cbn [andb]. unfold g1. rewrite edge_add, N4, andb_false_r. reflexivity.
    - intros u v N0 N1 N2 N3. apply geqb_neq in N0, N1, N2, N3. rewrite !edge_add, N1, N2, N3. cbn [andb]. unfold g1. rewrite edge_add, N0. reflexivity.
  Qed.
  Lemma lane_kept : forall g g' d b c a w C, lane g d b w C -> t_id d <> t_id c -> t_id d <> r -> b <> a ->
    (forall u v, u <> TLim (t_id c) -> u <> TN (t_id c) -> u <> Acc a -> v <> TN (t_id c) -> edge_of g' u v = edge_of g u v) -> t_id c <> r ->
    lane g' d b w C.
  Proof.
    intros g g' d b c a w C (L1 & L2 & L3 & L4) N1 N2 N3 K Nr. unfold lane.
    rewrite !K by congruence. auto.
  Qed.
  (** all the lanes, with weights strictly increasing along the list *)
  Inductive lanes (g : graph) (C : Z) : Z -> list tnode -> list nat -> Prop :=
  | lanes_nil : forall w0, lanes g C w0 [] []
  | lanes_cons : forall w0 w c a l la, w0 <= w -> lane g c a w C -> lanes g C (w + 1) l la -> lanes g C w0 (c :: l) (a :: la).
  Lemma lanes_weaken : forall g C l la w0 w1, w1 <= w0 -> lanes g C w0 l la -> lanes g C w1 l la.
  Proof. intros g C l la w0 w1 H L. inversion L as [|? w c a l' la' Hw Hl Hr]; subst; [constructor|]. apply lanes_cons with (w := w); [lia|exact Hl|exact Hr]. Qed.
  Definition fresh (g : graph) (c : tnode) (a : nat) : Prop :=
    edge_of g (TLim r) (TN (t_id c)) = None /\ edge_of g (TN (t_id c)) (TLim (t_id c)) = None /\ edge_of g (TLim (t_id c)) (Acc a) = None.
  Definition loop (f : nat) (cap : Q) := fix go (g : graph) (l : list tnode) (weight : Z) {struct l} : res graph :=
               match l with
               | [] => Ok g
               | c :: r0 =>
                   let* g2 := add_successors P memo limit f (add_edge [] g (TLim (t_id root)) (TN (t_id c)) (Some (Fin cap)) (Some weight)) c None None true in
                   let* s := sum_weight f g2 (TN (t_id c)) in
                   go g2 r0 (Z.max weight s + 1)%Z
               end.
  Lemma loop_lanes : forall f C l la g w0 g', 0 <= C -> incl l cs -> Forall2 leaf_of l la -> NoDup (map t_id l) -> NoDup la ->
    finv g -> (forall c a, In (c, a) (combine l la) -> fresh g c a) ->
    loop f (fl C) g l w0 = Ok g' ->
    finv g' /\ lanes g' C w0 l la /\
    (forall d b w, lane g d b w C -> ~ In (t_id d) (map t_id l) -> t_id d <> r -> ~ In b la -> lane g' d b w C) /\
    (forall u v, (forall c, In c l -> u <> TLim (t_id c) /\ u <> TN (t_id c)) -> (forall a, u <> Acc a) -> u <> TLim r -> edge_of g' u v = edge_of g u v).
  Proof.
    intros f C l. induction l as [|c l IH]; intros la g w0 g' HC Inc L D1 D2 F Fr H.
    - inversion L; subst. cbn in H. injection H as <-. split; [exact F|]. split; [constructor|]. split; auto.
    - inversion L as [|? a ? la' Lc Lr]; subst. cbn in D1. inversion D1 as [|? ? Nc Dl]; subst. inversion D2 as [|? ? Na Da]; subst.
      cbn [loop] in H. match type of H with bind ?X _ = _ => destruct X as [g2|] eqn:X2; [|discriminate] end. cbn [bind] in H.
      destruct (sum_weight f g2 (TN (t_id c))) as [s|]; [|discriminate]. cbn [bind] in H.
      assert (Hc : In c cs) by (apply Inc; now left). pose proof (child_id c Hc) as Nr.
      destruct (Fr c a (or_introl eq_refl)) as (E1 & E2 & E3).
      destruct (child_lane f g c a w0 C g2 Hc Lc HC F E1 E2 E3 X2) as (Ln & K1 & K2).
      assert (F2 : finv g2).
      { eapply finv_child; [exact Hc| |exact X2]. rewrite add_edge_nx. apply finv_write; [right; split; [reflexivity|exact Nr]|intros Q; exfalso; now apply Q|intros Q; exfalso; now apply Q|exact F]. }
      destruct (IH la' g2 (Z.max w0 s + 1) g' HC) as (I1 & I2 & I3 & I4); auto.
      + intros x Hx. apply Inc. now right.
      + intros d b Hd. destruct (Fr d b (or_intror Hd)) as (G1 & G2 & G3). pose proof (in_combine_l _ _ _ _ Hd) as Hl. pose proof (in_combine_r _ _ _ _ Hd) as Hr.
        assert (Nd : t_id d <> t_id c) by (intros Q; apply Nc; rewrite <- Q; now apply in_map).
        assert (Nb : b <> a) by (intros ->; contradiction).
        assert (Ndr : t_id d <> r) by (apply child_id, Inc; now right).
        split; [|split]; (rewrite K1 by congruence); assumption.
      + split; [exact I1|]. split; [|split].
        * econstructor; [apply Z.le_refl| |].
          -- apply I3; auto.
          -- eapply lanes_weaken; [|exact I2]. lia.
        * intros d b w Ld Nd Ndr Nb. cbn in Nd, Nb. apply I3; [|tauto|exact Ndr|tauto]. eapply lane_kept; [exact Ld| | | |exact K1|exact Nr]; auto.
        * intros u v Hu Ha Hr. rewrite I4; auto; [|intros x Hx; apply Hu; now right]. destruct (Hu c (or_introl eq_refl)). apply K2; auto.
  Qed.
  Lemma flat_graph : forall fuel g C, build_graph P memo limit fuel root (Fin total) = Ok g -> src_cap P memo root (Fin total) = Some C -> 0 <= C ->
    finv g /\ lanes g C 0 cs accts /\ (exists e, edge_of g Src (TN r) = Some e /\ e_cap e = Some C) /\ (exists e, edge_of g (TN r) (TLim r) = Some e /\ e_cap e = None).
  Proof.
    intros fuel g C H SC HC. unfold build_graph in H.
    match type of H with bind ?X _ = _ => destruct X as [g1|] eqn:X1; [|discriminate] end. cbn [bind] in H.
    destruct Flat as (B & Ll & L & N & Da). inversion N as [|? ? Nr Nc]; subst.
    assert (g = g1) as ->.
    { unfold balance_weighted in H. destruct (bfs_weighted fuel [root]) as [ws|] eqn:BW; [|discriminate]. cbn [bind] in H.
      assert (W : forall fuel q ws, (forall n, In n q -> Gf n) -> bfs_weighted fuel q = Ok ws -> ws = []).
      { clear H BW ws X1. induction fuel0 as [|f IH]; intros q ws Hq H; [discriminate|]. cbn in H. destruct q as [|m q]; [now injection H as <-|].
        destruct (children_of m) as [l|] eqn:Cm; [|discriminate]. cbn [bind] in H. destruct (bfs_weighted f (q ++ l)) as [r0|] eqn:Bf; [|discriminate]. cbn [bind] in H.
        assert (r0 = []) as ->.
        { eapply IH; [|exact Bf]. intros n Hn. apply in_app_or in Hn. destruct Hn as [Hn|Hn]; [apply Hq; now right|].
          destruct (Hq m (or_introl eq_refl)) as [->|Hm]; [right; apply child_root; exists l; auto|].
          exfalso. apply (no_child m n Hm). exists l. auto. }
        injection H as <-. destruct (Hq m (or_introl eq_refl)) as [->|Hm].
        - unfold is_weighted. now rewrite B.
        - destruct (in_leaf m Hm) as [a Ha]. unfold is_weighted. now rewrite Ha. }
      rewrite (W fuel [root] ws) in H; [cbn in H; congruence|intros n [<-|[]]; now left|exact BW]. }
    clear H. destruct fuel as [|f]; [discriminate|]. rewrite successors_S in X1. cbv zeta in X1. unfold embed_limit in X1. rewrite Ll in X1.
    assert (G0 : add_edge memo [] Src (TN r) (Some (scaled_total P (Fin total))) None = nx_add_edge [] Src (TN r) (Some C) None).
    { rewrite <- SC. unfold add_edge, src_cap. reflexivity. }
    fold r in X1. rewrite G0 in X1. set (g0 := nx_add_edge [] Src (TN r) (Some C) None) in X1.
    assert (F0 : finv g0).
    { apply finv_write; auto. constructor; [apply gwf_nil|discriminate|discriminate|discriminate]. }
    assert (IC : inbound_capacity g0 (TN r) = C).
    { unfold g0, inbound_capacity. cbn. rewrite Nat.eqb_refl. cbn. lia. }
    rewrite IC in X1. rewrite B in X1. cbn [body_src] in X1. unfold children_of in X1. rewrite B in X1. cbn [bind] in X1.
    rewrite (add_edge_nx [] g0) in X1. set (g2 := nx_add_edge g0 (TN r) (TLim r) None None) in X1.
    change (loop f (fl C) g2 cs 0 = Ok g1) in X1.
    assert (F2 : finv g2) by (apply finv_write; auto).
    destruct (loop_lanes f C cs accts g2 0 g1 HC) as (I1 & I2 & I3 & I4); auto.
    - apply incl_refl.
    - intros c a Hc. pose proof (in_combine_l _ _ _ _ Hc) as Hl. pose proof (child_id c Hl) as Nd.
      unfold fresh, g2, g0. rewrite !edge_add. cbn [geqb andb]. assert (Q : Nat.eqb (t_id c) r = false) by (now apply Nat.eqb_neq). rewrite Q. auto.
    - split; [exact I1|]. split; [exact I2|]. split.
      + exists {| e_cap := Some C; e_w := None |}. split; [|reflexivity]. rewrite I4; try discriminate; [|intros; split; discriminate].
        unfold g2. rewrite edge_add. cbn [geqb andb]. unfold g0. rewrite edge_add, !geqb_refl. reflexivity.
      + exists {| e_cap := None; e_w := None |}. split; [|reflexivity]. rewrite I4; try discriminate.
        * unfold g2. rewrite edge_add, !geqb_refl. cbn [andb]. unfold g0. rewrite edge_add. cbn [geqb andb]. reflexivity.
        * intros c Hc. split; [discriminate|]. intros Q. injection Q as Q. now apply (child_id c Hc).
  Qed.
End Flat.

(** ** Moving money to an earlier account *)
Section Exchange.
  Variables (P : env) (memo : flowd) (limit : lk) (root : tnode) (cs : list tnode) (accts : list nat) (C : Z) (g : graph) (f : gnode -> gnode -> Z).
  Hypothesis Flat : flat_list root cs accts.
  Hypothesis NoGrp : forall a, p_grp P limit a = None.
  Let r := t_id root.
  Hypothesis Sh : shape P memo limit r (Some C) g.
  Hypothesis Fi : finv root cs g.
  Hypothesis HC : 0 <= C.
  Hypothesis Sr : exists e, edge_of g Src (TN r) = Some e /\ e_cap e = Some C.
  Hypothesis Rt : exists e, edge_of g (TN r) (TLim r) = Some e /\ e_cap e = None.
  Hypothesis F : feasible g f.
  Lemma same_leaf : forall c d a, In c cs -> In d cs -> t_body c = TLeaf a -> t_body d = TLeaf a -> t_id c = t_id d.
  Proof.
    destruct Flat as (_ & _ & L & _ & D). clear Fi Flat. revert D. induction L as [|x b l la [Lx _] Ll IH]; intros D c d a Hc Hd Bc Bd; [destruct Hc|].
    inversion D as [|? ? Nb Db]; subst.
    assert (K : forall y, In y l -> t_body y = TLeaf b -> False).
    { intros y Hy By. apply Nb. clear -Ll Hy By. induction Ll as [|z e l la [Lz _] _ IH]; [destruct Hy|]. destruct Hy as [->|Hy]; [left; congruence|right; auto]. }
    destruct Hc as [<-|Hc], Hd as [<-|Hd]; auto.
    - exfalso. apply (K d Hd). congruence.
    - exfalso. apply (K c Hc). congruence.
    - now apply (IH Db c d a).
  Qed.
  Lemma only_in : forall v u0, (forall u e, edge_of g u v = Some e -> u = u0) -> inflow g f v = f u0 v.
  Proof.
    intros v u0 H. unfold inflow. apply (Zsum_one (fun u => f u v)).
    - intros y _ N. apply (fe_edges _ _ F). destruct (edge_of g y v) eqn:E; [|reflexivity]. exfalso. apply N. eauto.
    - intros N. apply (not_node P memo limit r (Some C) g f Sh F). now left.
    - apply (sh_wf _ _ _ _ _ _ Sh).
  Qed.
  Lemma is_node : forall u v e, edge_of g u v = Some e -> In u (nodes g) /\ In v (nodes g).
  Proof. intros u v e H. destruct (sh_wf _ _ _ _ _ _ Sh) as (_ & _ & W). eapply W; eauto. Qed.
  Lemma through : forall u v w e, edge_of g u v = Some e -> v <> Src -> v <> Snk ->
    (forall x e, edge_of g x v = Some e -> x = u) -> (forall x e, edge_of g v x = Some e -> x = w) -> f u v = f v w.
  Proof.
    intros u v w e E N1 N2 I O. rewrite <- (only_in v u I), <- (only_edge P memo limit r (Some C) g f Sh F v w O).
    symmetry. apply (fe_cons _ _ F); auto. apply (is_node _ _ _ E).
  Qed.
  Lemma lane_flow : forall c a w, In c cs -> t_body c = TLeaf a -> lane root g c a w C ->
    f (TLim r) (TN (t_id c)) = f (Acc a) Snk /\ f (TN (t_id c)) (TLim (t_id c)) = f (Acc a) Snk /\ f (TLim (t_id c)) (Acc a) = f (Acc a) Snk.
  Proof.
    intros c a w Hc Ba ((e1 & E1 & _) & (e2 & E2 & _) & (e3 & E3 & _) & (e4 & E4)). fold r in E1.
    pose proof (child_id root cs accts Flat c Hc) as Nr. fold r in Nr.
    assert (A3 : f (TLim (t_id c)) (Acc a) = f (Acc a) Snk).
    { eapply through; [exact E3|discriminate|discriminate| |].
      - intros x e H. destruct (f_to _ _ _ Fi _ _ _ H) as (d & -> & Hd & Bd). now rewrite (same_leaf d c a Hd Hc Bd Ba).
      - intros x e H. destruct (sh_acc _ _ _ _ _ _ Sh _ _ _ H) as (y & _ & K). rewrite NoGrp in K. tauto. }
    assert (A2 : f (TN (t_id c)) (TLim (t_id c)) = f (Acc a) Snk).
    { rewrite <- A3. eapply through; [exact E2|discriminate|discriminate| |].
      - intros x e H. exact (f_to _ _ _ Fi _ _ _ H).
      - intros x e H. destruct (f_from _ _ _ Fi _ _ _ H Nr) as [b ->]. destruct (f_to _ _ _ Fi _ _ _ H) as (d & Hd & Dc & Bd).
        injection Hd as Hd. f_equal. assert (d = c \/ True) by (now right). 
        assert (K : t_body c = t_body d).
        { destruct Flat as (_ & _ & _ & N & _). inversion N as [|? ? _ N2]; subst. clear -Hd Dc Hc N2.
          induction cs as [|z l IH]; [destruct Hc|]. cbn in N2. inversion N2 as [|? ? Nz Nl]; subst.
          destruct Hc as [->|Hc], Dc as [->|Dc]; auto.
          - exfalso. apply Nz. rewrite Hd. now apply in_map.
          - exfalso. apply Nz. rewrite <- Hd. now apply in_map. }
        congruence. }
    split; [|split; assumption]. rewrite <- A2. eapply through; [exact E1|discriminate|discriminate| |].
    - intros x e H. destruct (f_to _ _ _ Fi _ _ _ H) as [[_ K]|[K _]]; [contradiction|exact K].
    - intros x e H. exact (f_from _ _ _ Fi _ _ _ H).
  Qed.
  Lemma root_flow : outflow g f (TLim r) = f Src (TN r) /\ f (TN r) (TLim r) = f Src (TN r) /\ outflow g f Src = f Src (TN r) /\ f Src (TN r) <= C.
  Proof.
    destruct Sr as (e1 & E1 & K1). destruct Rt as (e2 & E2 & K2).
    assert (A : f Src (TN r) = f (TN r) (TLim r)).
    { eapply through; [exact E1|discriminate|discriminate| |].
      - intros x e H. destruct (f_to _ _ _ Fi _ _ _ H) as [[K _]|[_ K]]; [exact K|]. exfalso. now apply K.
      - intros x e H. exact (f_from _ _ _ Fi _ _ _ H). }
    assert (B : outflow g f (TLim r) = f (TN r) (TLim r)).
    { rewrite (fe_cons _ _ F (TLim r)); [|apply (is_node _ _ _ E2)|discriminate|discriminate]. apply only_in. intros x e H. exact (f_to _ _ _ Fi _ _ _ H). }
    split; [congruence|]. split; [congruence|]. split; [apply (src_out _ _ _ _ _ _ _ Sh F)|]. apply (fe_cap _ _ F _ _ e1 C E1 K1).
  Qed.
  Definition lane_path (k : Z) (c : tnode) (a : nat) : list (Z * (gnode * gnode)) :=
    [(k, (TLim r, TN (t_id c))); (k, (TN (t_id c), TLim (t_id c))); (k, (TLim (t_id c), Acc a)); (k, (Acc a, Snk))].
  Lemma lane_present : forall k c a w, lane root g c a w C -> present g (lane_path k c a).
  Proof.
    intros k c a w ((e1 & E1 & _) & (e2 & E2 & _) & (e3 & E3 & _) & (e4 & E4)) e H. unfold lane_path in H. cbn in H.
    destruct H as [<-|[<-|[<-|[<-|[]]]]]; cbn; eauto.
  Qed.
  Lemma lane_cost : forall k c a w, In c cs -> lane root g c a w C ->
    Zsum (map (fun e => fst e * weight g (fst (snd e)) (snd (snd e))) (lane_path k c a)) = k * w.
  Proof.
    intros k c a w Hc ((e1 & E1 & W1 & _) & (e2 & E2 & _) & (e3 & E3 & _) & (e4 & E4)). unfold lane_path. cbn [map fst snd]. fold r in E1.
    pose proof (child_id root cs accts Flat c Hc) as Nr. fold r in Nr. unfold weight. rewrite E1, E2, E3, E4.
    pose proof (f_w _ _ _ Fi _ _ _ E2) as W2. pose proof (f_w _ _ _ Fi _ _ _ E3) as W3. pose proof (f_w _ _ _ Fi _ _ _ E4) as W4. fold r in W2, W3, W4.
    destruct e1 as [k1 x1], e2 as [k2 x2], e3 as [k3 x3], e4 as [k4 x4]. cbn [e_w] in *.
    rewrite W2 by discriminate. rewrite W3 by congruence. rewrite W4 by discriminate. rewrite W1. unfold Zsum. cbn. lia.
  Qed.
  Definition has_room (a : nat) : Prop := forall e k, edge_of g (Acc a) Snk = Some e -> e_cap e = Some k -> f (Acc a) Snk + 1 <= k.
  (** the flow through one lane can be raised when the account has room and the lane has *)
  Lemma exchange : forall c d a b w w', In c cs -> In d cs -> t_body c = TLeaf a -> t_body d = TLeaf b -> t_id c <> t_id d -> a <> b ->
    lane root g c a w C -> lane root g d b w' C -> w < w' -> optimal g f -> has_room a -> f (Acc b) Snk = 0.
  Proof.
    intros c d a b w w' Hc Hd Bc Bd Nid Nab Lc Ld Hw [_ Opt] Room.
    pose proof (fe_pos _ _ F (Acc b) Snk) as Pos. destruct (Z.eq_dec (f (Acc b) Snk) 0) as [E0|N0]; [exact E0|exfalso].
    destruct (lane_flow c a w Hc Bc Lc) as (c1 & c2 & c3). destruct (lane_flow d b w' Hd Bd Ld) as (d1 & d2 & d3).
    destruct root_flow as (R1 & R2 & R3 & R4).
    assert (Sum : f (Acc a) Snk + f (Acc b) Snk <= C).
    { rewrite <- c1, <- d1. eapply Z.le_trans; [|exact R4]. rewrite <- R1. unfold outflow.
      assert (K : f (TLim r) (TN (t_id c)) + f (TLim r) (TN (t_id d)) = Zsum (map (f (TLim r)) [TN (t_id c); TN (t_id d)])) by (unfold Zsum; cbn; lia).
      rewrite K. apply (Zsum_incl_le (f (TLim r))).
      - constructor; [intros [Q|[]]; congruence|]. constructor; [intros []|constructor].
      - intros x _. apply (fe_pos _ _ F).
      - intros x _ N. apply (not_node P memo limit r (Some C) g f Sh F). now right. }
    pose proof (child_id root cs accts Flat c Hc) as Nrc. pose proof (child_id root cs accts Flat d Hd) as Nrd. fold r in Nrc, Nrd.
    set (es := lane_path (-1) d b ++ lane_path 1 c a).
    assert (PR : present g es).
    { intros e He. apply in_app_or in He. destruct He as [He|He]; [exact (lane_present (-1) d b w' Ld e He)|exact (lane_present 1 c a w Lc e He)]. }
    assert (ND : NoDup (nodes g)) by apply (sh_wf _ _ _ _ _ _ Sh).
    assert (KN : forall e, In e es -> In (fst (snd e)) (nodes g) /\ In (snd (snd e)) (nodes g)) by (intros e He; destruct (PR e He) as [x X]; eapply is_node; eauto).
    pose proof Lc as ((ec1 & EC1 & _ & CC1) & (ec2 & EC2 & CC2) & (ec3 & EC3 & CC3) & (ec4 & EC4)). fold r in EC1.
    assert (FE : feasible g (shift f es)).
    { apply shift_feasible; [apply (sh_wf _ _ _ _ _ _ Sh)|exact F|exact PR| | |].
      - intros u _ _. unfold es, lane_path, Zsum. cbn [app map fst snd fold_right]. lia.
      - intros u v. pose proof (fe_pos _ _ F u v) as Pu. unfold shift, es, lane_path, Zsum, ind. cbn [app map fst snd fold_right].
        destruct u, v; cbn [geqb andb]; try lia;
          repeat match goal with |- context [Nat.eqb ?x ?y] => destruct (Nat.eqb_spec x y) end; subst; cbn [andb]; try lia; try congruence.
      - intros u v e k E K. pose proof (fe_cap _ _ F _ _ _ _ E K) as Cu. unfold shift, es, lane_path, Zsum, ind. cbn [app map fst snd fold_right].
        destruct u, v; cbn [geqb andb]; try lia;
          repeat match goal with |- context [Nat.eqb ?x ?y] => destruct (Nat.eqb_spec x y) end; subst; cbn [andb]; try lia; try congruence.
        + rewrite EC1 in E. injection E as <-. rewrite CC1 in K. injection K as <-. lia.
        + rewrite EC3 in E. injection E as <-. rewrite CC3 in K. injection K as <-. lia.
        + specialize (Room _ _ E K). lia. }
    destruct (Opt _ FE) as [_ O2].
    assert (SO : outflow g (shift f es) Src = outflow g f Src).
    { rewrite shift_out; [|exact ND|intros e He; now apply KN]. unfold es, lane_path, Zsum. cbn. lia. }
    specialize (O2 SO). rewrite shift_cost in O2; [|exact ND|exact KN]. unfold es in O2. rewrite map_app, Zsum_app in O2.
    rewrite (lane_cost (-1) d b w' Hd Ld), (lane_cost 1 c a w Hc Lc) in O2. lia.
  Qed.
  (** while an account has room, no money is left over *)
  Lemma placed : forall c a w, In c cs -> t_body c = TLeaf a -> lane root g c a w C -> optimal g f -> has_room a -> f Src (TN r) = C.
  Proof.
    intros c a w Hc Bc Lc [_ Opt] Room. destruct (lane_flow c a w Hc Bc Lc) as (c1 & c2 & c3). destruct root_flow as (R1 & R2 & R3 & R4).
    destruct (Z.eq_dec (f Src (TN r)) C) as [E0|N0]; [exact E0|exfalso].
    assert (Sum : f (Acc a) Snk <= f Src (TN r)).
    { rewrite <- c1, <- R1. unfold outflow. assert (K : f (TLim r) (TN (t_id c)) = Zsum (map (f (TLim r)) [TN (t_id c)])) by (unfold Zsum; cbn; lia).
      rewrite K. apply (Zsum_incl_le (f (TLim r))).
      - constructor; [intros []|constructor].
      - intros x _. apply (fe_pos _ _ F).
      - intros x _ N. apply (not_node P memo limit r (Some C) g f Sh F). now right. }
    destruct Sr as (e1 & E1 & K1). destruct Rt as (e2 & E2 & K2).
    set (es := [(1, (Src, TN r)); (1, (TN r, TLim r))] ++ lane_path 1 c a).
    assert (PR : present g es).
    { intros e He. apply in_app_or in He. destruct He as [[<-|[<-|[]]]|He]; [exists e1; exact E1|exists e2; exact E2|exact (lane_present 1 c a w Lc e He)]. }
    assert (ND : NoDup (nodes g)) by apply (sh_wf _ _ _ _ _ _ Sh).
    assert (KN : forall e, In e es -> In (fst (snd e)) (nodes g) /\ In (snd (snd e)) (nodes g)) by (intros e He; destruct (PR e He) as [x X]; eapply is_node; eauto).
    pose proof Lc as ((ec1 & EC1 & _ & CC1) & (ec2 & EC2 & CC2) & (ec3 & EC3 & CC3) & (ec4 & EC4)). fold r in EC1.
    pose proof (child_id root cs accts Flat c Hc) as Nr. fold r in Nr.
    assert (FE : feasible g (shift f es)).
    { apply shift_feasible; [apply (sh_wf _ _ _ _ _ _ Sh)|exact F|exact PR| | |].
      - intros u N1 N2. unfold es, lane_path, Zsum. cbn [app map fst snd fold_right]. apply geqb_neq in N1, N2. rewrite N1, N2. lia.
      - intros u v. pose proof (fe_pos _ _ F u v) as Pu. unfold shift, es, lane_path, Zsum, ind. cbn [app map fst snd fold_right].
        destruct u, v; cbn [geqb andb]; try lia;
          repeat match goal with |- context [Nat.eqb ?x ?y] => destruct (Nat.eqb x y) end; cbn [andb]; lia.
      - intros u v e k E K. pose proof (fe_cap _ _ F _ _ _ _ E K) as Cu. unfold shift, es, lane_path, Zsum, ind. cbn [app map fst snd fold_right].
        destruct u, v; cbn [geqb andb]; try lia;
          repeat match goal with |- context [Nat.eqb ?x ?y] => destruct (Nat.eqb_spec x y) end; subst; cbn [andb]; try lia; try congruence.
        + rewrite E1 in E. injection E as <-. rewrite K1 in K. injection K as <-. lia.
        + rewrite EC1 in E. injection E as <-. rewrite CC1 in K. injection K as <-. lia.
        + rewrite EC3 in E. injection E as <-. rewrite CC3 in K. injection K as <-. lia.
        + specialize (Room _ _ E K). lia. }
    destruct (Opt _ FE) as [O1 _]. rewrite shift_out in O1; [|exact ND|intros e He; now apply KN]. unfold es, lane_path, Zsum in O1. cbn in O1. lia.
  Qed.
End Exchange.

(** ** One pass over a flat list *)
Definition before {A} (a b : A) (l : list A) : Prop := exists l1 l2 l3, l = l1 ++ a :: l2 ++ b :: l3.
Lemma lanes_in : forall root g C l la w0 a, Forall2 leaf_of l la -> lanes root g C w0 l la -> In a la ->
  exists c w, In c l /\ t_body c = TLeaf a /\ lane root g c a w C /\ w0 <= w.
Proof.
  intros root g C l la w0 a F2. revert w0. induction F2 as [|c b l la [Lc _] F2 IH]; intros w0 L Ha; [destruct Ha|].
  inversion L as [|? w ? ? ? ? Hw Hl Hr]; subst. destruct Ha as [->|Ha].
  - exists c, w. split; [now left|]. auto.
  - destruct (IH _ Hr Ha) as (d & w' & H1 & H2 & H3 & H4). exists d, w'. split; [now right|]. split; [exact H2|]. split; [exact H3|lia].
Qed.
Lemma lanes_before : forall root g C l la w0 a b, Forall2 leaf_of l la -> lanes root g C w0 l la -> NoDup (map t_id l) -> before a b la ->
  exists c d w w', In c l /\ In d l /\ t_body c = TLeaf a /\ t_body d = TLeaf b /\ t_id c <> t_id d /\ lane root g c a w C /\ lane root g d b w' C /\ w < w'.
Proof.
  intros root g C l la w0 a b F2. revert w0. induction F2 as [|c x l la [Lc _] F2 IH]; intros w0 L N (l1 & l2 & l3 & E).
  - destruct l1; discriminate.
  - inversion L as [|? w ? ? ? ? Hw Hl Hr]; subst. cbn in N. inversion N as [|? ? Nc Nl]; subst. destruct l1 as [|y l1]; cbn in E.
    + injection E as -> ->. destruct (lanes_in _ _ _ _ _ _ b F2 Hr) as (d & w' & H1 & H2 & H3 & H4); [apply in_or_app; right; now left|].
      exists c, d, w, w'. split; [now left|]. split; [now right|]. split; [exact Lc|]. split; [exact H2|]. split; [|split; [exact Hl|split; [exact H3|lia]]].
      intros Q. apply Nc. rewrite Q. now apply in_map.
    + injection E as -> E. destruct (IH _ Hr Nl) as (c' & d & w1 & w' & H1 & H2 & K); [exists l1, l2, l3; exact E|].
      exists c', d, w1, w'. split; [now right|]. split; [now right|]. exact K.
Qed.
Lemma before_ne : forall {A} (a b : A) l, NoDup l -> before a b l -> a <> b.
Proof.
  intros A a b l N (l1 & l2 & l3 & ->) ->. apply NoDup_remove_2 in N. apply N. apply in_or_app. right. apply in_or_app. right. now left.
Qed.
Lemma before_in : forall {A} (a b : A) l, before a b l -> In a l /\ In b l.
Proof. intros A a b l (l1 & l2 & l3 & ->). split; apply in_or_app; right; [now left|]. right. apply in_or_app. right. now left. Qed.
Lemma flat_accounts : forall fuel root cs accts acs, flat_list root cs accts -> accounts_of fuel root = Ok acs -> acs = accts.
Proof.
  intros [|f] root cs accts acs (B & _ & L & _) H; [discriminate|]. cbn [accounts_of] in H. rewrite B in H. cbn [body_src] in H. unfold children_of in H. rewrite B in H. cbn [bind] in H.
  revert acs H. clear B. induction L as [|c a l la [Lc _] _ IH]; intros acs H; cbn in H; [congruence|].
  destruct (accounts_of f c) as [x|] eqn:X; [|discriminate]. cbn [bind] in H. match type of H with bind ?Y _ = _ => destruct Y as [y|] eqn:E; [|discriminate] end. cbn [bind] in H.
  injection H as <-. rewrite (IH _ eq_refl). destruct f as [|f']; [discriminate|]. cbn [accounts_of] in X. rewrite Lc in X. cbn [body_src] in X. injection X as <-. reflexivity.
Qed.
(** Python sets and the solver: every flow it returns is a maximum flow of least cost *)
Definition solver_ok_opt (P : env) : Prop := (0 < p_prec P)%Q /\ solves P /\ (forall l c, In c (p_hash P l) -> In c l).
Lemma opt_world : forall P, solver_ok_opt P -> world_ok P.
Proof. intros P (H1 & H2 & H3). split; [exact H1|]. split; [intros g f H; apply (H2 g f H)|exact H3]. Qed.
Lemma pass_order : forall P fuel root cs accts memo total limit tx memo' C, solver_ok_opt P -> flat_list root cs accts -> (forall a, p_grp P limit a = None) ->
  traverse P fuel root memo (Fin total) limit = Ok (tx, memo') -> src_cap P memo root (Fin total) = Some C -> 0 <= C ->
  exists g f, feasible g f /\ shape P memo limit (t_id root) (Some C) g /\ memo' = merge_flows memo (flow_dict g f) /\ NoDup (dkeys tx) /\ incl accts (dkeys tx) /\ incl (dkeys tx) accts /\
    (forall a t, In (a, t) tx -> p_tx P limit a (if Qlt_bool total 0 then (- (p_prec P * fl (outflow g f (Acc a))))%Q else (p_prec P * fl (outflow g f (Acc a)))%Q) = Ok t) /\
    (forall a, In a accts -> exists x e, p_limit P limit a = Ok x /\ edge_of g (Acc a) Snk = Some e /\ e_cap e = capx P x (flow_out memo (Acc a)) /\ outflow g f (Acc a) = f (Acc a) Snk) /\
    (forall a b, before a b accts -> has_room g f a -> outflow g f (Acc b) = 0) /\
    (forall a, In a accts -> has_room g f a -> outflow g f Src = C) /\
    outflow g f Src <= Zsum (map (fun a => outflow g f (Acc a)) (dkeys tx)).
Proof.
  intros P fuel root cs accts memo total limit tx memo' C SO Fl NG H SC HC.
  pose proof (opt_world P SO) as W. destruct SO as (Hp & Sv & Hh).
  destruct (traverse_inv _ _ _ _ _ _ _ _ W H) as (g & f & B & F & S & M & N & K & PF & acs & AO & Dk & Dki).
  rewrite SC in S. pose proof (flat_accounts _ _ _ _ _ Fl AO) as ->.
  destruct (flat_graph P memo limit root cs accts total Fl NG fuel g C B SC HC) as (Fi & L & Sr & Rt).
  pose proof (Sv _ _ PF) as Opt. pose proof Fl as (_ & _ & F2 & Nid & Na). inversion Nid as [|? ? Nr Nc]; subst.
  exists g, f. split; [exact F|]. split; [exact S|]. split; [reflexivity|]. split; [exact N|].
  assert (ND : forall a, In a accts -> In (Acc a) (nodes g)).
  { intros a Ha. destruct (lanes_in _ _ _ _ _ _ a F2 L Ha) as (c & w & _ & _ & Ln & _). destruct Ln as (_ & _ & _ & e & E).
    exact (proj1 (is_node P memo limit root C g S _ _ _ E)). }
  assert (AOut : forall a, outflow g f (Acc a) = f (Acc a) Snk) by (intros a; rewrite (acc_out _ _ _ _ _ _ _ S F); unfold acc_target; now rewrite NG).
  split; [intros a Ha; apply Dk; auto|]. split; [exact Dki|]. split; [exact K|]. split; [|split; [|split]].
  - intros a Ha. destruct (lanes_in _ _ _ _ _ _ a F2 L Ha) as (c & w & _ & _ & Ln & _). destruct Ln as (_ & _ & _ & e & E).
    destruct (sh_acc _ _ _ _ _ _ S _ _ _ E) as (x & X & Q). rewrite NG in Q. destruct Q as [_ Q]. exists x, e. auto.
  - intros a b Bf Room. destruct (lanes_before _ _ _ _ _ _ a b F2 L Nc Bf) as (c & d & w & w' & Hc & Hd & Bc & Bd & Nid' & Lc & Ld & Hw).
    rewrite AOut. exact (exchange P memo limit root cs accts C g f Fl NG S Fi Sr Rt F c d a b w w' Hc Hd Bc Bd Nid' (before_ne a b accts Na Bf) Lc Ld Hw Opt Room).
  - intros a Ha Room. destruct (lanes_in _ _ _ _ _ _ a F2 L Ha) as (c & w & Hc & Bc & Lc & _).
    rewrite (src_out _ _ _ _ _ _ _ S F). exact (placed P memo limit root cs accts C g f Fl NG S Fi Sr Rt F c a w Hc Bc Lc Opt Room).
  - rewrite <- (accounts_total _ _ _ _ _ _ _ S F). rewrite <- (map_map Acc (outflow g f)). apply Zsum_incl_le.
    + apply NoDup_filter. apply (sh_wf _ _ _ _ _ _ S).
    + intros x _. now apply out_pos.
    + intros x Hx Nx. apply filter_In in Hx. destruct Hx as [Hx Ax]. destruct x as [| | | | |a|]; try discriminate.
      rewrite (fe_cons _ _ F) by (assumption || discriminate). apply Zsum_zero. intros u _. apply (fe_edges _ _ F).
      destruct (edge_of g u (Acc a)) as [e|] eqn:E; [|reflexivity]. exfalso. destruct (f_to _ _ _ Fi _ _ _ E) as (c & _ & Hc & Bc).
      apply Nx. apply in_map. apply Dk; [|exact Hx]. clear -F2 Hc Bc. induction F2 as [|z b l la [Lz _] _ IH]; [destruct Hc|].
      destruct Hc as [->|Hc]; [left; congruence|right; auto].
Qed.

Local Open Scope Q_scope.
(** ** Specification of the accounts' side: asked for an amount within their limit they return
    transactions of exactly that amount *)
Definition within (q : Q) (x : xnum) : Prop := match x with Fin L => q <= L | Inf b => b = true end.
Definition deposits_exact (P : env) (k : lk) : Prop := forall a x t L, p_limit P k a = Ok L -> 0 <= x -> within x L -> p_tx P k a x = Ok t -> tx_of t == x.
Definition withdrawals_exact (P : env) (k : lk) : Prop := forall a x t L, p_limit P k a = Ok (Fin L) -> x <= 0 -> L <= x -> p_tx P k a x = Ok t -> tx_of t == x.
(** no whole unit of precision is left below the limit *)
Definition full (P : env) (q : Q) (x : xnum) : Prop := match x with Fin L => L < q + p_prec P | Inf _ => False end.

Lemma int_gt : forall q, 0 <= q -> q < fl (int_of q) + 1.
Proof.
  intros [n d] H. unfold int_of, fl, inject_Z, Qlt, Qle, Qplus in *. cbn in *. pose proof (Z.quot_rem' n (Zpos d)). pose proof (Z.rem_bound_pos n (Zpos d)). lia.
Qed.
Lemma fl_opp : forall z, fl (- z) == - fl z.
Proof. intros z. unfold fl. now rewrite inject_Z_opp. Qed.
Lemma room_or_full : forall P g f a x e m, 0 < p_prec P -> feasible g f -> edge_of g (Acc a) Snk = Some e -> e_cap e = capx P x m ->
  within (p_prec P * fl m) x ->
  within (p_prec P * fl (f (Acc a) Snk + m)) x /\ (has_room g f a \/ full P (p_prec P * fl (f (Acc a) Snk + m)) x).
Proof.
  intros P g f a x e m Hp F E C W. destruct x as [L|b].
  - cbn [within] in W. assert (D : fl m <= L / p_prec P) by (apply Qle_shift_div_l; [exact Hp|lra]).
    destruct (capx_bound P L m Hp D) as (c & K1 & K2 & K3). rewrite K1 in C. pose proof (fe_cap _ _ F _ _ _ _ E C) as Cp.
    assert (B : p_prec P * fl (f (Acc a) Snk + m) <= L).
    { apply fl_le in Cp. rewrite fl_add in *. nra. }
    split; [exact B|]. destruct (Z_lt_le_dec (f (Acc a) Snk) c) as [Lt|Ge].
    + left. intros e' k E' C'. rewrite E in E'. injection E' as <-. rewrite C in C'. injection C' as <-. lia.
    + right. assert (f (Acc a) Snk = c) as -> by lia. unfold full. unfold capx in K1. cbn [xdivq xsubq] in K1. injection K1 as <-.
      assert (A : qabs (L / p_prec P - fl m) == L / p_prec P - fl m) by (destruct (qabs_case (L / p_prec P - fl m)) as [[? Q]|[? Q]]; rewrite Q; lra).
      assert (D2 : 0 <= qabs (L / p_prec P - fl m) - fl 0) by (rewrite A; unfold fl, inject_Z in *; lra).
      pose proof (int_gt _ D2) as G. set (c := int_of (qabs (L / p_prec P - fl m) - fl 0)) in *.
      assert (G' : L / p_prec P - fl m < fl c + 1) by (eapply Qle_lt_trans; [|exact G]; rewrite A; unfold fl at 3, inject_Z; lra).
      rewrite fl_add. assert (E2 : p_prec P * (L / p_prec P) == L) by (field; lra). nra.
  - cbn [within] in W. subst. split; [reflexivity|]. left. intros e' k E' C'. rewrite E in E'. injection E' as <-. rewrite C in C'. discriminate.
Qed.
Lemma exact_acct : forall P k tx a (h : nat -> Q) L, NoDup (dkeys tx) -> In a (dkeys tx) -> (forall a t, In (a, t) tx -> p_tx P k a (h a) = Ok t) ->
  (forall t, p_limit P k a = Ok L -> p_tx P k a (h a) = Ok t -> tx_of t == h a) -> p_limit P k a = Ok L -> acct_tx tx a == h a.
Proof.
  intros P k tx a h L N I K Ex HL. unfold dkeys in I. apply in_map_iff in I. destruct I as ([b t] & E & I). cbn in E. subst b.
  rewrite (in_acct tx a t N I). apply Ex; [exact HL|]. now apply K.
Qed.
Lemma cap_first : forall P root total, 0 < p_prec P -> 0 <= total -> exists C, src_cap P [] root (Fin total) = Some C /\ C = int_of (total / p_prec P) /\ (0 <= C)%Z.
Proof.
  intros P root total Hp Ht. destruct (scaled_in P total Hp Ht) as [T1 T2]. exists (int_of (total / p_prec P)). split; [|auto].
  unfold src_cap, scaled_total. f_equal. cbn [flow_edge dget]. unfold flow_edge. cbn [dget]. now apply int_fl.
Qed.
Lemma int_fl_minus : forall C m, (0 <= m <= C)%Z -> int_of (qabs (fl C) - fl m) = (C - m)%Z.
Proof.
  intros C m H. unfold qabs, fl, inject_Z, int_of, Qminus, Qplus, Qopp. destruct (Qle_bool 0 (C # 1)) eqn:E.
  - cbn. rewrite Z.quot_1_r. lia.
  - exfalso. apply Qle_bool_f in E. unfold Qlt in E. cbn in E. lia.
Qed.
Lemma total_eq : forall tx h, (forall a t, In (a, t) tx -> tx_of t == h a) -> total_tx tx == Qsum (map h (dkeys tx)).
Proof.
  intros tx h. unfold total_tx, dkeys. induction tx as [|[a t] tx IH]; intros H; cbn [map Qsum fst snd]; [reflexivity|].
  rewrite IH by (intros b u Hb; apply H; now right). rewrite (H a t (or_introl eq_refl)). reflexivity.
Qed.
Lemma Qsum_fl : forall p (h : nat -> Z) l, Qsum (map (fun a => p * fl (h a)) l) == p * fl (Zsum (map h l)).
Proof.
  intros p h l. induction l as [|a l IH]; cbn [map Qsum]; [unfold Zsum; cbn; unfold fl, inject_Z; lra|].
  change (Zsum (h a :: map h l)) with (h a + Zsum (map h l))%Z. rewrite fl_add, IH. lra.
Qed.

(** C80: deposits into a list of accounts.  A later account gets anything only once every earlier
    account has its minimum, and more than its own minimum only once every earlier account is full;
    and while any account has room, no money is left over (all up to one unit of precision). *)
Theorem C80_list_filled_in_order_partial : forall P fuel root cs accts total r (mn : nat -> Q) (mx : nat -> xnum),
  solver_ok_opt P -> deposits_exact P MinIn -> deposits_exact P MaxIn -> (forall a, p_grp P MinIn a = None /\ p_grp P MaxIn a = None) ->
  flat_list root cs accts ->
  (forall a, In a accts -> p_limit P MinIn a = Ok (Fin (mn a)) /\ p_limit P MaxIn a = Ok (mx a) /\ 0 <= mn a /\ within (mn a) (mx a)) ->
  p_prec P < total -> call P fuel root total = Ok r ->
  (forall a b, before a b accts -> 0 < acct_tx r b -> mn a < acct_tx r a + p_prec P) /\
  (forall a b, before a b accts -> mn b < acct_tx r b -> full P (acct_tx r a) (mx a)) /\
  (forall a, In a accts -> full P (acct_tx r a) (mx a) \/ total - p_prec P < total_tx r).
Proof.
  intros P fuel root cs accts total r mn mx SO D1 D2 NG Fl Lim Ht H. pose proof SO as (Hp & _). unfold call in H.
  assert (E : Qlt_bool (p_prec P) total = true) by (destruct (Qlt_bool (p_prec P) total) eqn:E; [reflexivity|apply Qlt_bool_f in E; lra]). rewrite E in H.
  destruct (traverse P fuel root [] (Fin total) MinIn) as [[tn memo]|] eqn:T1; [|discriminate]. cbn [bind] in H.
  destruct (traverse P fuel root memo (Fin total) MaxIn) as [[tm memo2]|] eqn:T2; [|discriminate]. cbn [bind] in H. injection H as <-.
  assert (T0 : 0 <= total) by lra. destruct (cap_first P root total Hp T0) as (C1 & S1 & EC & HC1).
  destruct (pass_order P fuel root cs accts [] total MinIn tn memo C1 SO Fl (fun a => proj1 (NG a)) T1 S1 HC1)
    as (g1 & f1 & F1 & Sh1 & M1 & N1 & I1 & J1 & K1 & E1 & O1 & Q1 & Z1).
  assert (ME : flow_edge memo Src (TN (t_id root)) = outflow g1 f1 Src).
  { subst memo. destruct (flow_dict_nodup g1 f1 (sh_wf _ _ _ _ _ _ Sh1)) as [X1 X2]. rewrite merge_edge by auto.
    rewrite flow_dict_edge by exact F1. rewrite (src_out _ _ _ _ _ _ _ Sh1 F1). reflexivity. }
  assert (B1 : (0 <= outflow g1 f1 Src <= C1)%Z) by (split; [now apply out_pos|exact (src_le _ _ _ _ _ _ _ Sh1 F1 C1 eq_refl HC1)]).
  assert (S2 : src_cap P memo root (Fin total) = Some (C1 - outflow g1 f1 Src)%Z).
  { unfold src_cap, scaled_total. rewrite ME, <- EC. f_equal. apply int_fl_minus. exact B1. }
  destruct (pass_order P fuel root cs accts memo total MaxIn tm memo2 _ SO Fl (fun a => proj2 (NG a)) T2 S2 ltac:(lia))
    as (g2 & f2 & F2 & Sh2 & M2 & N2 & I2 & J2 & K2 & E2 & O2 & Q2 & Z2).
  assert (Hn : Qlt_bool total 0 = false) by (destruct (Qlt_bool total 0) eqn:En; [apply Qlt_bool_t in En; lra|reflexivity]). rewrite Hn in K1, K2.
  assert (MO : forall a, flow_out memo (Acc a) = outflow g1 f1 (Acc a)) by (intros a; subst memo; apply memo_out; [apply (sh_wf _ _ _ _ _ _ Sh1)|exact F1]).
  (* per account *)
  assert (A : forall a, In a accts -> (within (p_prec P * fl (outflow g1 f1 (Acc a))) (Fin (mn a)) /\ (has_room g1 f1 a \/ full P (p_prec P * fl (outflow g1 f1 (Acc a))) (Fin (mn a)))) /\
     (within (p_prec P * fl (outflow g2 f2 (Acc a) + outflow g1 f1 (Acc a))) (mx a) /\ (has_room g2 f2 a \/ full P (p_prec P * fl (outflow g2 f2 (Acc a) + outflow g1 f1 (Acc a))) (mx a)))).
  { intros a Ha. destruct (Lim a Ha) as (L1 & L2 & L3 & L4).
    destruct (E1 a Ha) as (x & e & X & Ee & Ec & Eo). rewrite L1 in X. injection X as <-.
    assert (W0 : within (p_prec P * fl 0) (Fin (mn a))) by (cbn; unfold fl, inject_Z; lra).
    destruct (room_or_full P g1 f1 a (Fin (mn a)) e 0 Hp F1 Ee Ec W0) as [R1 R2]. rewrite Z.add_0_r, <- Eo in R1, R2. split; [split; assumption|].
    destruct (E2 a Ha) as (x & e' & X & Ee' & Ec' & Eo'). rewrite L2 in X. injection X as <-. rewrite MO in Ec'.
    rewrite Eo'. apply (room_or_full P g2 f2 a (mx a) e' _ Hp F2 Ee' Ec'). destruct (mx a) as [L|b]; cbn in *; [lra|exact L4]. }
  assert (V1 : forall a, In a accts -> acct_tx tn a == p_prec P * fl (outflow g1 f1 (Acc a))).
  { intros a Ha. destruct (Lim a Ha) as (L1 & L2 & L3 & L4). destruct (A a Ha) as ((W1 & _) & _).
    apply (exact_acct P MinIn tn a (fun a => p_prec P * fl (outflow g1 f1 (Acc a))) (Fin (mn a)) N1 (I1 a Ha) K1); [|exact L1].
    intros t HL HT. apply (D1 a _ t _ HL); [|exact W1|exact HT]. pose proof (fl_le _ _ (out_pos g1 f1 F1 (Acc a))) as O. unfold fl at 1, inject_Z in O. nra. }
  assert (V2 : forall a, In a accts -> acct_tx tm a == p_prec P * fl (outflow g2 f2 (Acc a))).
  { intros a Ha. destruct (Lim a Ha) as (L1 & L2 & L3 & L4). destruct (A a Ha) as (_ & (W1 & _)).
    apply (exact_acct P MaxIn tm a (fun a => p_prec P * fl (outflow g2 f2 (Acc a))) (mx a) N2 (I2 a Ha) K2); [|exact L2].
    pose proof (fl_le _ _ (out_pos g2 f2 F2 (Acc a))) as O. pose proof (fl_le _ _ (out_pos g1 f1 F1 (Acc a))) as O'. unfold fl at 1, inject_Z in O; unfold fl at 1, inject_Z in O'.
    intros t HL HT. apply (D2 a _ t _ HL); [nra| |exact HT]. destruct (mx a) as [L|b]; cbn in *; [|exact W1]. rewrite fl_add in W1. nra. }
  assert (V : forall a, In a accts -> acct_tx (combine_tx tm tn) a == p_prec P * fl (outflow g2 f2 (Acc a) + outflow g1 f1 (Acc a))).
  { intros a Ha. rewrite combine_acct by exact N1. rewrite (V1 a Ha), (V2 a Ha), fl_add. lra. }
  assert (FU : forall q q' x, q == q' -> full P q x -> full P q' x) by (intros q q' [L|b] Eq Hf; cbn in *; [lra|exact Hf]).
  assert (NN : forall a, 0 <= p_prec P * fl (outflow g2 f2 (Acc a)) /\ 0 <= p_prec P * fl (outflow g1 f1 (Acc a))).
  { intros a. pose proof (fl_le _ _ (out_pos g2 f2 F2 (Acc a))) as O. pose proof (fl_le _ _ (out_pos g1 f1 F1 (Acc a))) as O'. unfold fl at 1, inject_Z in O; unfold fl at 1, inject_Z in O'. split; nra. }
  split; [|split].
  - intros a b Bf Pb. destruct (before_in _ _ _ Bf) as [Ha Hb]. destruct (NN a) as [NN1 NN2]. rewrite (V a Ha). rewrite (V b Hb), fl_add in Pb. rewrite fl_add.
    destruct (A a Ha) as ((_ & [R|R]) & (Wm & [R'|R'])).
    + rewrite (O1 a b Bf R), (O2 a b Bf R') in Pb. exfalso. unfold fl, inject_Z in Pb. nra.
    + destruct (Lim a Ha) as (_ & _ & _ & L4). destruct (mx a) as [L|x]; cbn in *; [|contradiction]. rewrite fl_add in R'. lra.
    + cbn in R. lra.
    + cbn in R. lra.
  - intros a b Bf Pb. destruct (before_in _ _ _ Bf) as [Ha Hb]. rewrite (V b Hb) in Pb. destruct (A a Ha) as (_ & (Wm & [R'|R'])).
    + exfalso. rewrite (O2 a b Bf R') in Pb. destruct (A b Hb) as ((Wb & _) & _). cbn in Wb. replace (0 + outflow g1 f1 (Acc b))%Z with (outflow g1 f1 (Acc b)) in Pb by lia. lra.
    + eapply FU; [symmetry; apply (V a Ha)|exact R'].
  - intros a Ha. destruct (A a Ha) as (_ & (Wm & [R'|R'])); [right|left; eapply FU; [symmetry; apply (V a Ha)|exact R']].
    rewrite combine_total.
    assert (G1 : total_tx tn == p_prec P * fl (Zsum (map (fun a => outflow g1 f1 (Acc a)) (dkeys tn)))).
    { rewrite <- Qsum_fl. apply total_eq. intros b t Hb. rewrite <- (in_acct tn b t N1 Hb). apply V1, J1. apply in_map_iff. exists (b, t). auto. }
    assert (G2 : total_tx tm == p_prec P * fl (Zsum (map (fun a => outflow g2 f2 (Acc a)) (dkeys tm)))).
    { rewrite <- Qsum_fl. apply total_eq. intros b t Hb. rewrite <- (in_acct tm b t N2 Hb). apply V2, J2. apply in_map_iff. exists (b, t). auto. }
    specialize (Q2 a Ha R'). rewrite Q2 in Z2. apply fl_le in Z1. apply fl_le in Z2.
    assert (Cs : fl C1 == fl (C1 - outflow g1 f1 Src) + fl (outflow g1 f1 Src)) by (rewrite <- fl_add; replace (C1 - outflow g1 f1 Src + outflow g1 f1 Src)%Z with C1 by lia; reflexivity).
    rewrite G1, G2. assert (DT : 0 <= total / p_prec P) by (apply Qle_shift_div_l; [exact Hp|lra]).
    pose proof (int_gt _ DT) as GT. rewrite <- EC in GT. assert (E3 : p_prec P * (total / p_prec P) == total) by (field; lra). nra.
Qed.
Print Assumptions C80_list_filled_in_order_partial.

(** ** Withdrawals *)
Lemma flat_proper : forall root cs accts, flat_list root cs accts -> proper_tree root.
Proof.
  intros root cs accts Fl n c Hb Hc.
  assert (K : n = root \/ In n cs).
  { clear Hc c. induction Hb as [|n c Hb IH Hc]; [now left|]. destruct IH as [->|IH]; [right; now apply (child_root root cs accts Fl)|].
    exfalso. now apply (no_child root cs accts Fl n c IH). }
  destruct K as [->|K]; [|exfalso; now apply (no_child root cs accts Fl n c K)].
  apply (child_id root cs accts Fl). now apply (child_root root cs accts Fl).
Qed.
Lemma room_or_full_out : forall P g f a L e, 0 < p_prec P -> feasible g f -> edge_of g (Acc a) Snk = Some e -> e_cap e = capx P (Fin L) 0 -> L <= 0 ->
  L <= - (p_prec P * fl (f (Acc a) Snk)) /\ (has_room g f a \/ - (p_prec P * fl (f (Acc a) Snk)) - p_prec P < L).
Proof.
  intros P g f a L e Hp F E C W.
  assert (D : 0 <= (- L) / p_prec P) by (apply Qle_shift_div_l; [exact Hp|lra]).
  assert (DE : (- L) / p_prec P == - (L / p_prec P)) by (field; lra).
  assert (A : qabs (L / p_prec P - fl 0) == (- L) / p_prec P).
  { destruct (qabs_case (L / p_prec P - fl 0)) as [[? Q]|[? Q]]; rewrite Q; unfold fl, inject_Z in *; lra. }
  unfold capx in C. cbn [xdivq xsubq] in C. set (q := qabs (L / p_prec P - fl 0) - fl 0) in *.
  assert (Qe : q == (- L) / p_prec P) by (unfold q; rewrite A; unfold fl, inject_Z; lra).
  assert (D2 : 0 <= q) by lra. destruct (int_le _ D2) as [I1 I2]. pose proof (int_gt _ D2) as I3.
  pose proof (fe_cap _ _ F _ _ _ _ E C) as Cp. assert (E2 : p_prec P * ((- L) / p_prec P) == - L) by (field; lra).
  split; [apply fl_le in Cp; nra|]. destruct (Z_lt_le_dec (f (Acc a) Snk) (int_of q)) as [Lt|Ge].
  - left. intros e' k E' C'. rewrite E in E'. injection E' as <-. rewrite C in C'. injection C' as <-. lia.
  - right. apply fl_le in Ge. nra.
Qed.
(** C80: withdrawals from a list of accounts.  A later account is drawn on only once every earlier
    account has given all it can; and while any account can give more, nothing is missing. *)
Theorem C80_withdrawals_in_order_partial : forall P fuel root cs accts total r (mx : nat -> Q),
  solver_ok_opt P -> withdrawals_exact P MinOut -> withdrawals_exact P MaxOut -> (forall a, p_grp P MaxOut a = None) ->
  flat_list root cs accts ->
  (forall a, In a accts -> (exists m, p_limit P MinOut a = Ok (Fin m) /\ m <= 0) /\ p_limit P MaxOut a = Ok (Fin (mx a)) /\ mx a <= 0) ->
  total < - p_prec P -> call P fuel root total = Ok r ->
  (forall a b, before a b accts -> acct_tx r b < 0 -> acct_tx r a - p_prec P < mx a) /\
  (forall a, In a accts -> acct_tx r a - p_prec P < mx a \/ total_tx r < total + p_prec P).
Proof.
  intros P fuel root cs accts total r mx SO D1 D2 NG Fl Lim Ht H. pose proof SO as (Hp & Sv & Hh). pose proof (opt_world P SO) as W. unfold call in H.
  assert (E : Qlt_bool (p_prec P) total = false) by (destruct (Qlt_bool (p_prec P) total) eqn:E; [apply Qlt_bool_t in E; lra|reflexivity]). rewrite E in H.
  assert (E' : Qlt_bool total (- p_prec P) = true) by (destruct (Qlt_bool total (- p_prec P)) eqn:E'; [reflexivity|apply Qlt_bool_f in E'; lra]). rewrite E' in H. clear E E'.
  destruct (traverse P fuel root [] (Inf false) MinOut) as [[tn memo]|] eqn:T1; [|discriminate]. cbn [bind] in H.
  destruct (traverse P fuel root memo (Fin total) MaxOut) as [[tm memo2]|] eqn:T2; [|discriminate]. cbn [bind] in H. injection H as <-.
  destruct (traverse_inv _ _ _ _ _ _ _ _ W T1) as (g1 & f1 & B1 & F1 & Sh1 & M1 & N1 & K1 & _ & acs & AO & _ & J1).
  pose proof (flat_accounts _ _ _ _ _ Fl AO) as ->. cbn [negb] in K1.
  assert (Z0 : outflow g1 f1 Src = 0%Z).
  { refine (min_outflow_graph P MinOut root fuel false g1 Hh _ _ _ B1 f1 F1); [intros; now apply Sv|apply Fl|]. exact (flat_proper _ _ _ Fl). }
  assert (Za : forall a, outflow g1 f1 (Acc a) = 0%Z).
  { intros a. pose proof (some_accounts_le _ _ _ _ _ _ _ Sh1 F1 [a] ltac:(constructor; [intros []|constructor])) as K. rewrite Z0 in K. cbn in K. pose proof (out_pos g1 f1 F1 (Acc a)). lia. }
  assert (ME : flow_edge memo Src (TN (t_id root)) = 0%Z).
  { subst memo. destruct (flow_dict_nodup g1 f1 (sh_wf _ _ _ _ _ _ Sh1)) as [X1 X2]. rewrite merge_edge by auto.
    rewrite flow_dict_edge by exact F1. rewrite <- (src_out _ _ _ _ _ _ _ Sh1 F1), Z0. reflexivity. }
  set (C := int_of (qabs (fl (int_of (total / p_prec P))) - fl 0)).
  assert (S2 : src_cap P memo root (Fin total) = Some C) by (unfold src_cap, scaled_total; now rewrite ME).
  assert (QA : 0 <= qabs (fl (int_of (total / p_prec P)))) by (destruct (qabs_case (fl (int_of (total / p_prec P)))) as [[? Q]|[? Q]]; rewrite Q; lra).
  assert (HC : (0 <= C)%Z) by (apply int_le; unfold fl at 2, inject_Z; lra).
  destruct (pass_order P fuel root cs accts memo total MaxOut tm memo2 C SO Fl NG T2 S2 HC)
    as (g2 & f2 & F2 & Sh2 & M2 & N2 & I2 & J2 & K2 & E2 & O2 & Q2 & Z2).
  assert (Hn : Qlt_bool total 0 = true) by (destruct (Qlt_bool total 0) eqn:En; [reflexivity|apply Qlt_bool_f in En; lra]). rewrite Hn in K2.
  assert (MO : forall a, flow_out memo (Acc a) = 0%Z) by (intros a; subst memo; rewrite memo_out; [apply Za|apply (sh_wf _ _ _ _ _ _ Sh1)|exact F1]).
  assert (A : forall a, In a accts -> mx a <= - (p_prec P * fl (outflow g2 f2 (Acc a))) /\ (has_room g2 f2 a \/ - (p_prec P * fl (outflow g2 f2 (Acc a))) - p_prec P < mx a)).
  { intros a Ha. destruct (Lim a Ha) as (_ & L2 & L3). destruct (E2 a Ha) as (x & e & X & Ee & Ec & Eo). rewrite L2 in X. injection X as <-. rewrite MO in Ec.
    rewrite Eo. now apply (room_or_full_out P g2 f2 a (mx a) e). }
  assert (V1 : forall a t, In (a, t) tn -> tx_of t == 0).
  { intros a t Ha. pose proof (K1 a t Ha) as T. rewrite Za in T.
    assert (Hin : In a accts) by (apply J1; apply in_map_iff; exists (a, t); auto). destruct (Lim a Hin) as ((m & L1 & Lm) & _).
    rewrite (D1 a (- (p_prec P * fl 0)) t m L1); [unfold fl, inject_Z; lra|unfold fl, inject_Z; lra|unfold fl, inject_Z; lra|exact T]. }
  assert (V1a : forall a, acct_tx tn a == 0) by (intros a; destruct (acct_in tn a) as [Q|(t & T & Q)]; rewrite Q; [reflexivity|now apply (V1 a)]).
  assert (V2 : forall a, In a accts -> acct_tx tm a == - (p_prec P * fl (outflow g2 f2 (Acc a)))).
  { intros a Ha. destruct (Lim a Ha) as (_ & L2 & L3). destruct (A a Ha) as (W1 & _).
    apply (exact_acct P MaxOut tm a (fun a => - (p_prec P * fl (outflow g2 f2 (Acc a)))) (Fin (mx a)) N2 (I2 a Ha) K2); [|exact L2].
    pose proof (fl_le _ _ (out_pos g2 f2 F2 (Acc a))) as O. unfold fl at 1, inject_Z in O.
    intros t HL HT. apply (D2 a _ t _ HL); [nra|exact W1|exact HT]. }
  assert (V : forall a, In a accts -> acct_tx (combine_tx tm tn) a == - (p_prec P * fl (outflow g2 f2 (Acc a)))).
  { intros a Ha. rewrite combine_acct by exact N1. rewrite V1a, (V2 a Ha). lra. }
  split.
  - intros a b Bf Pb. destruct (before_in _ _ _ Bf) as [Ha Hb]. rewrite (V a Ha). rewrite (V b Hb) in Pb. destruct (A a Ha) as (_ & [R|R]); [|exact R].
    exfalso. rewrite (O2 a b Bf R) in Pb. unfold fl, inject_Z in Pb. lra.
  - intros a Ha. rewrite (V a Ha). destruct (A a Ha) as (_ & [R|R]); [right|left; exact R]. rewrite combine_total.
    assert (G1 : total_tx tn == 0).
    { rewrite (total_eq tn (fun _ => 0) V1). generalize (dkeys tn). induction l as [|x l IH]; cbn [map Qsum]; [reflexivity|rewrite IH; lra]. }
    assert (G2 : total_tx tm == - (p_prec P * fl (Zsum (map (fun a => outflow g2 f2 (Acc a)) (dkeys tm))))).
    { assert (Y : - (p_prec P * fl (Zsum (map (fun a => outflow g2 f2 (Acc a)) (dkeys tm)))) == (- p_prec P) * fl (Zsum (map (fun a => outflow g2 f2 (Acc a)) (dkeys tm)))) by lra.
      rewrite Y, <- Qsum_fl. rewrite (total_eq tm (fun a => - p_prec P * fl (outflow g2 f2 (Acc a)))); [reflexivity|].
      intros b t Hb. rewrite <- (in_acct tm b t N2 Hb). rewrite V2; [lra|]. apply J2. apply in_map_iff. exists (b, t). auto. }
    rewrite G1, G2. rewrite (Q2 a Ha R) in Z2. apply fl_le in Z2.
    assert (DT : 0 <= (- total) / p_prec P) by (apply Qle_shift_div_l; [exact Hp|lra]).
    assert (E3 : p_prec P * ((- total) / p_prec P) == - total) by (field; lra).
    enough ((- total) / p_prec P < fl C + 1) by nra.
    assert (IO : forall q, int_of (- q) = (- int_of q)%Z) by (intros [n d]; unfold int_of; cbn; apply Z.quot_opp_l; lia).
    assert (IC : forall q q', q == q' -> 0 <= q -> q < fl (int_of q') + 1) by (intros q q' Eq Hq; assert (0 <= q') as Hq' by lra; pose proof (int_gt q' Hq'); lra).
    assert (EN : - (total / p_prec P) == (- total) / p_prec P) by (field; lra).
    pose proof (IC ((- total) / p_prec P) (- (total / p_prec P)) ltac:(lra) DT) as G3. rewrite IO in G3.
    assert (H0 : (0 <= - int_of (total / p_prec P))%Z) by (rewrite <- IO; apply int_le; lra).
    assert (CC : C = (- int_of (total / p_prec P))%Z).
    { unfold C. destruct (Qle_bool 0 (fl (int_of (total / p_prec P)))) eqn:Qb.
      - apply Qle_bool_t in Qb. unfold fl, inject_Z, Qle in Qb. cbn in Qb. assert (int_of (total / p_prec P) = 0%Z) as -> by lia. reflexivity.
      - unfold qabs. rewrite Qb. unfold fl, inject_Z, int_of, Qminus, Qplus, Qopp. cbn. rewrite Z.quot_1_r. lia. }
    rewrite CC. exact G3.
Qed.
Print Assumptions C80_withdrawals_in_order_partial.

(** ** A checked solver: flows accepted only with node potentials that prove them optimal *)
Local Open Scope Z_scope.
Definition slackb (g : graph) (w : gnode -> gnode -> Z) (pot : gnode -> Z) (f : gnode -> gnode -> Z) : bool :=
  forallb (fun u => forallb (fun v => match edge_of g u v with
     | None => true
     | Some e => let rc := w u v - (pot v - pot u) in
                 ((0 <=? rc) || match e_cap e with Some c => f u v =? c | None => false end) && ((rc <=? 0) || (f u v =? 0))
     end) (nodes g)) (nodes g).
Fixpoint nodupb (l : list gnode) : bool := match l with [] => true | x :: r => negb (existsb (geqb x) r) && nodupb r end.
Lemma nodupb_ok : forall l, nodupb l = true -> NoDup l.
Proof.
  induction l as [|x l IH]; intros H; [constructor|]. cbn in H. apply andb_true_iff in H. destruct H as [H1 H2]. constructor; [|auto].
  intros I. apply negb_true_iff in H1. assert (existsb (geqb x) l = true) by (apply existsb_exists; exists x; split; [exact I|apply geqb_refl]). congruence.
Qed.
Definition clearb (g : graph) : bool :=
  forallb (fun u => match edge_of g u Src, edge_of g Snk u with None, None => true | _, _ => false end) (nodes g) && existsb (geqb Src) (nodes g) && existsb (geqb Snk) (nodes g) && nodupb (nodes g).
Definition gcost (g : graph) (w f : gnode -> gnode -> Z) : Z := Zsum (map (fun u => Zsum (map (fun v => w u v * f u v) (nodes g))) (nodes g)).
Lemma gcost_add : forall g w w' f, gcost g (fun u v => w u v + w' u v) f = gcost g w f + gcost g w' f.
Proof.
  intros. unfold gcost. rewrite <- Zsum_add. apply Zsum_ext. intros u _. rewrite <- Zsum_add. apply Zsum_ext. intros v _. lia.
Qed.
Lemma clear_zero : forall g f, clearb g = true -> feasible g f -> inflow g f Src = 0 /\ outflow g f Snk = 0 /\ NoDup (nodes g) /\ In Src (nodes g) /\ In Snk (nodes g).
Proof.
  intros g f H F. unfold clearb in H. rewrite !andb_true_iff in H. destruct H as (((H1 & H2) & H3) & H4).
  rewrite forallb_forall in H1. apply nodupb_ok in H4.
  assert (K : forall x, existsb (geqb x) (nodes g) = true -> In x (nodes g)) by (intros x Hx; apply existsb_exists in Hx; destruct Hx as (y & Hy & E); apply geqb_eq in E; now subst).
  split; [apply Zsum_zero|split; [apply Zsum_zero|auto]]; intros u Hu; specialize (H1 u Hu);
    destruct (edge_of g u Src) eqn:E1; try discriminate; destruct (edge_of g Snk u) eqn:E2; try discriminate; now apply (fe_edges _ _ F).
Qed.
Lemma pot_sum : forall g f pot, clearb g = true -> feasible g f -> gcost g (fun u v => pot v - pot u) f = (pot Snk - pot Src) * outflow g f Src.
Proof.
  intros g f pot Cl F. destruct (clear_zero g f Cl F) as (Z1 & Z2 & ND & I1 & I2).
  assert (A : forall p : gnode -> Z, gcost g (fun u v => p v - p u) f = p Snk * inflow g f Snk - p Src * outflow g f Src).
  { intros p. unfold gcost.
    rewrite (Zsum_ext (fun u => Zsum (map (fun v => (p v - p u) * f u v) (nodes g))) (fun u => Zsum (map (fun v => p v * f u v) (nodes g)) + (- p u) * outflow g f u)).
    2:{ intros u _. unfold outflow. rewrite <- (Zsum_scale (fun v => f u v) (- p u)). rewrite <- Zsum_add. apply Zsum_ext. intros v _. lia. }
    rewrite Zsum_add, (Zsum_swap (fun u v => p v * f u v)).
    rewrite (Zsum_ext (fun v => Zsum (map (fun u => p v * f u v) (nodes g))) (fun v => p v * inflow g f v)).
    2:{ intros v _. unfold inflow. apply (Zsum_scale (fun u => f u v) (p v)). }
    rewrite <- Zsum_add.
    rewrite (Zsum_ext _ (fun v => (if geqb v Snk then p Snk * inflow g f Snk else 0) + (if geqb v Src then - p Src * outflow g f Src else 0))).
    2:{ intros v Hv. destruct (gnode_dec v Src) as [->|N1]; [cbn [geqb]; rewrite Z1; lia|]. destruct (gnode_dec v Snk) as [->|N2]; [cbn [geqb]; rewrite Z2; lia|].
        rewrite (fe_cons _ _ F v Hv N1 N2). apply geqb_neq in N1, N2. rewrite N1, N2. lia. }
    rewrite Zsum_add.
    rewrite (Zsum_one (fun v => if geqb v Snk then p Snk * inflow g f Snk else 0) (nodes g) Snk); [|intros y _ Hy; apply geqb_neq in Hy; now rewrite Hy|contradiction|exact ND].
    rewrite (Zsum_one (fun v => if geqb v Src then - p Src * outflow g f Src else 0) (nodes g) Src); [|intros y _ Hy; apply geqb_neq in Hy; now rewrite Hy|contradiction|exact ND].
    cbn [geqb]. lia. }
  assert (V : inflow g f Snk = outflow g f Src).
  { pose proof (A (fun _ => 1)) as K. unfold gcost in K. rewrite Zsum_zero in K; [lia|]. intros u _. apply Zsum_zero. intros v _. lia. }
  rewrite A, V. lia.
Qed.
Lemma slack_opt : forall g w pot f f', clearb g = true -> feasible g f -> feasible g f' -> slackb g w pot f = true ->
  gcost g w f + (pot Snk - pot Src) * (outflow g f' Src - outflow g f Src) <= gcost g w f'.
Proof.
  intros g w pot f f' Cl F F' S.
  assert (R : forall h, feasible g h -> gcost g w h = gcost g (fun u v => w u v - (pot v - pot u)) h + (pot Snk - pot Src) * outflow g h Src).
  { intros h Fh. rewrite <- (pot_sum g h pot Cl Fh), <- gcost_add. unfold gcost. apply Zsum_ext. intros u _. apply Zsum_ext. intros v _. lia. }
  rewrite (R f F), (R f' F'). enough (gcost g (fun u v => w u v - (pot v - pot u)) f <= gcost g (fun u v => w u v - (pot v - pot u)) f') by lia.
  unfold gcost. apply Zsum_le. intros u Hu. apply Zsum_le. intros v Hv. unfold slackb in S. rewrite forallb_forall in S. specialize (S u Hu). rewrite forallb_forall in S. specialize (S v Hv). cbv beta in S.
  destruct (edge_of g u v) as [e|] eqn:E; [|rewrite (fe_edges _ _ F _ _ E), (fe_edges _ _ F' _ _ E); lia].
  cbv zeta in S. set (rc := w u v - (pot v - pot u)) in *. apply andb_true_iff in S. destruct S as [S1 S2]. apply orb_true_iff in S1, S2.
  pose proof (fe_pos _ _ F' u v) as P'.
  destruct S1 as [S1|S1].
  - apply Z.leb_le in S1. destruct S2 as [S2|S2]; [apply Z.leb_le in S2; assert (rc = 0) by lia; nia|apply Z.eqb_eq in S2; rewrite S2; nia].
  - destruct (e_cap e) as [c|] eqn:C; [|discriminate]. apply Z.eqb_eq in S1. pose proof (fe_cap _ _ F' _ _ _ _ E C) as Cp.
    destruct S2 as [S2|S2]; [apply Z.leb_le in S2; nia|apply Z.eqb_eq in S2; assert (f' u v = 0) by lia; nia].
Qed.
Definition opt_solver (cand : graph -> gnode -> gnode -> Z) (cut pot : graph -> gnode -> Z) (g : graph) : res (gnode -> gnode -> Z) :=
  let* f := solver cand g in
  if clearb g && slackb g (fun _ _ => 0) (cut g) f && (0 <? cut g Snk - cut g Src) && slackb g (weight g) (pot g) f then Ok f else Err NetworkXError.
Lemma opt_solver_ok : forall cand cut pot g f, opt_solver cand cut pot g = Ok f -> optimal g f.
Proof.
  intros cand cut pot g f H. unfold opt_solver in H. destruct (solver cand g) as [h|] eqn:E; [|discriminate]. cbn [bind] in H.
  match type of H with (if ?b then _ else _) = _ => destruct b eqn:B; [|discriminate] end. injection H as ->.
  rewrite !andb_true_iff in B. destruct B as (((B1 & B2) & B3) & B4). apply Z.ltb_lt in B3. pose proof (solver_ok _ _ _ E) as F.
  split; [exact F|]. intros f' F'. pose proof (slack_opt g _ _ f f' B1 F F' B2) as S1. pose proof (slack_opt g _ _ f f' B1 F F' B4) as S2.
  assert (Z0 : forall h, gcost g (fun _ _ => 0) h = 0) by (intros h; unfold gcost; apply Zsum_zero; intros u _; apply Zsum_zero; intros v _; lia).
  rewrite !Z0 in S1. split; [nia|]. intros Eq. rewrite Eq in S2. unfold gcost in S2. unfold cost. lia.
Qed.

(** ** A concrete list *)
Definition edge_in (u v : gnode) (p : list gnode) : bool := (fix go p := match p with x :: (y :: _) as r => (geqb u x && geqb v y) || go r | _ => false end) p.
Definition path_flow (l : list (list gnode * Z)) : gnode -> gnode -> Z := fun u v => Zsum (map (fun px => if edge_in u v (fst px) then snd px else 0) l).
Definition lane_nodes (i : nat) : list gnode := [Src; TN 0; TLim 0; TN i; TLim i; Acc i; Snk].
Definition demo3 : tnode := fst (mk_node (SSeq [SAcct 1; SAcct 2; SAcct 3]) no_limits 0).
Definition demo3_max (a : nat) : Q := (match a with 1%nat => 30 | 2%nat => 50 | _ => 40 end)%Q.
(** three accounts with minimum 10 and maxima 30, 50 and 40; amounts of each account along its path *)
Definition list_env (amount : graph -> nat -> Z) (snk : Z) : env := {|
  p_limit := fun k a => Ok (Fin (match k with MinIn => 10 | MaxIn => demo3_max a | MinOut => - (5) | MaxOut => - demo3_max a end)%Q);
  p_tx := fun k _ x => Ok [(1#2, x)%Q];
  p_grp := fun _ _ => None;
  p_prec := 1;
  p_flow := opt_solver (fun g => path_flow (map (fun i => (lane_nodes i, amount g i)) [1; 2; 3]%nat))
              (fun g u => match edge_of g Src (TN 0) with
                          | Some {| e_cap := Some c |} => if c =? amount g 1%nat + amount g 2%nat + amount g 3%nat then (match u with Src => 0 | _ => 1 end) else (match u with Snk => 1 | _ => 0 end)
                          | _ => match u with TN 0 | TLim 0 | Src => 0 | _ => 1 end end)
              (fun g u => if amount g 1%nat =? 0 then 0 else match u with TN i | TLim i | Acc i => weight g (TLim 0) (TN i) | Snk => snk | _ => 0 end);
  p_hash := fun l => l |}.
(** 100 to deposit: minimums first, then 20, 40 and 10 *)
Definition demo_in : env := list_env (fun g i => if cap_or g (Acc i) Snk 0 =? 10 then 10 else match i with 1%nat => 20 | 2%nat => 40 | _ => 10 end) 2.
(** 60 to withdraw: 30 and 30 *)
Definition demo_out : env := list_env (fun g i => if cap_or g Src (TN 0) 0 =? 0 then 0 else match i with 1%nat => 30 | 2%nat => 30 | _ => 0 end) 1.
Lemma list_env_ok : forall am snk, let P := list_env am snk in solver_ok_opt P /\ (forall k, deposits_exact P k) /\ (forall k, withdrawals_exact P k) /\ (forall k a, p_grp P k a = None).
Proof.
  intros am snk P. split; [|split; [|split]].
  - split; [reflexivity|]. split; [|auto]. intros g f H. eapply opt_solver_ok. exact H.
  - intros k a x t L _ _ _ H. cbn in H. injection H as <-. unfold tx_of. cbn. lra.
  - intros k a x t L _ _ _ H. cbn in H. injection H as <-. unfold tx_of. cbn. lra.
  - reflexivity.
Qed.
Lemma demo3_flat : flat_list demo3 [fst (mk_node (SAcct 1) no_limits 1); fst (mk_node (SAcct 2) no_limits 2); fst (mk_node (SAcct 3) no_limits 3)] [1; 2; 3]%nat.
Proof.
  split; [reflexivity|]. split; [reflexivity|]. split; [repeat constructor|]. split; cbn; repeat constructor; cbn; intuition discriminate.
Qed.
Example C80_sat : 
  (exists r, call demo_in 20 demo3 100 = Ok r /\ acct_tx r 1 == 30 /\ acct_tx r 2 == 50 /\ acct_tx r 3 == 20)%Q /\
  (exists r, call demo_out 20 demo3 (- (60)) = Ok r /\ acct_tx r 1 == - (30) /\ acct_tx r 2 == - (30) /\ acct_tx r 3 == 0)%Q.
Proof.
  split; eexists; (split; [vm_compute; reflexivity|]); repeat split; vm_compute; reflexivity.
Qed.

(** ** Nested lists *)
(** [a1; a2; a3; [b5; b6; b7]; c8], every account with minimum 0 and maximum 10, and 60 to deposit *)
Definition nested : tnode := fst (mk_node (SSeq [SAcct 1; SAcct 2; SAcct 3; SSeq [SAcct 5; SAcct 6; SAcct 7]; SAcct 8]) no_limits 0).
Definition nested_path (i : nat) : list gnode :=
  match i with 5%nat | 6%nat | 7%nat => [Src; TN 0; TLim 0; TN 4; TLim 4; TN i; TLim i; Acc i; Snk] | _ => lane_nodes i end.
Definition nested_env : env := {|
  p_limit := fun k a => Ok (Fin (match k with MaxIn => 10 | _ => 0 end)%Q);
  p_tx := fun k _ x => Ok [(1#2, x)%Q];
  p_grp := fun _ _ => None;
  p_prec := 1;
  p_flow := opt_solver (fun g => path_flow (map (fun i => (nested_path i, cap_or g (Acc i) Snk 0)) [1; 2; 3; 5; 6; 8]%nat))
              (fun g u => if cap_or g (Acc 1) Snk 0 =? 0 then (match u with Snk => 1 | _ => 0 end) else (match u with Src => 0 | _ => 1 end))
              (fun g u => if cap_or g (Acc 1) Snk 0 =? 0 then (match u with Snk => 5 | _ => 0 end) else
                  match u with TN (5 | 6 | 7)%nat | TLim (5 | 6 | 7)%nat | Acc (5 | 6 | 7)%nat =>
                                 weight g (TLim 0) (TN 4) + weight g (TLim 4) (match u with TLim i | Acc i => TN i | _ => u end)
                             | TN i | TLim i | Acc i => weight g (TLim 0) (TN i) | Snk => 4 | _ => 0 end);
  p_hash := fun l => l |}.
(** C80 is false of nested lists: the weights of a list's later items start at the larger of the
    previous weight and the sub-list's sum, not at their total, so the last account of a sub-list may
    cost more than the accounts after the sub-list: here account 8 is filled while account 7, which
    comes before it, gets nothing *)
Theorem C80_nested_list_refuted : exists P fuel root total r,
  solver_ok_opt P /\ deposits_exact P MinIn /\ deposits_exact P MaxIn /\ (forall k a, p_grp P k a = None) /\
  (forall a, p_limit P MinIn a = Ok (Fin 0) /\ p_limit P MaxIn a = Ok (Fin 10)) /\ (p_prec P < total)%Q /\
  root = fst (mk_node (SSeq [SAcct 1; SAcct 2; SAcct 3; SSeq [SAcct 5; SAcct 6; SAcct 7]; SAcct 8]) no_limits 0) /\
  call P fuel root total = Ok r /\ (acct_tx r 8 == 10)%Q /\ (acct_tx r 7 == 0)%Q.
Proof.
  exists nested_env, 20%nat, nested, 60%Q. eexists. split; [|split; [|split; [|split; [|split; [|split; [|split; [reflexivity|split; [vm_compute; reflexivity|split; vm_compute; reflexivity]]]]]]]].
  - split; [reflexivity|]. split; [|auto]. intros g f H. eapply opt_solver_ok. exact H.
  - intros a x t L _ _ _ H. cbn in H. injection H as <-. unfold tx_of. cbn. lra.
  - intros a x t L _ _ _ H. cbn in H. injection H as <-. unfold tx_of. cbn. lra.
  - reflexivity.
  - intros a. split; reflexivity.
  - reflexivity.
Qed.
Print Assumptions C80_nested_list_refuted.
