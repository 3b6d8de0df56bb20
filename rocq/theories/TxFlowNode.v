(** Flows through one node of the priority tree: everything that reaches the accounts below a node
    passes through the node's own limit. *)
From Verif Require Import Base BaseFacts TxGraphModel TxFlowFacts TxFlowShape TxFlowAccounts.
From Coq Require Import Permutation Lia ZArith.
Local Open Scope Z_scope.

(** ** The nodes of a tree *)
Definition kids (n : tnode) : list tnode := match t_body n with TOrd l => l | TWt l => map fst l | _ => [] end.
(** a node and everything below it, in order *)
Fixpoint tree_nodes (n : tnode) : list tnode :=
  match n with
  | TNode i l b => TNode i l b :: match b with
                                  | TOrd cs => flat_map tree_nodes cs
                                  | TWt cs => flat_map (fun c => tree_nodes (fst c)) cs
                                  | _ => []
                                  end
  end.
Lemma tree_eq : forall n, tree_nodes n = n :: flat_map tree_nodes (kids n).
Proof.
  intros [i l b]. unfold kids. cbn [tree_nodes t_body]. destruct b as [a|cs|cs|b]; try reflexivity.
  f_equal. induction cs as [|c cs IH]; cbn; [reflexivity|]. now rewrite IH.
Qed.
Lemma child_kids : forall n c, is_child n c <-> In c (kids n).
Proof.
  intros [i l b] c. unfold is_child, kids, children_of. cbn [t_body]. destruct b as [a|cs|cs|b]; split.
  - intros (x & E & I). injection E as <-. exact I.
  - intros [].
  - intros (x & E & I). injection E as <-. exact I.
  - intros I. eauto.
  - intros (x & E & I). injection E as <-. exact I.
  - intros I. eauto.
  - intros (x & E & _). discriminate.
  - intros [].
Qed.
Lemma tree_self : forall n, In n (tree_nodes n).
Proof. intros n. rewrite tree_eq. now left. Qed.
Lemma tree_ind' : forall Pr : tnode -> Prop, (forall n, (forall c, In c (kids n) -> Pr c) -> Pr n) -> forall n, Pr n.
Proof.
  intros Pr H. enough (K : forall k n, (Datatypes.length (tree_nodes n) < k)%nat -> Pr n) by (intros n; eapply K; constructor).
  induction k as [|k IH]; intros n L; [lia|]. apply H. intros c C. apply IH. rewrite tree_eq in L. cbn in L.
  enough (Datatypes.length (tree_nodes c) <= Datatypes.length (flat_map tree_nodes (kids n)))%nat by lia.
  clear -C. induction (kids n) as [|x xs IH]; [destruct C|]. cbn. rewrite app_length. destruct C as [->|C]; [lia|]. specialize (IH C). lia.
Qed.
Lemma tree_child : forall r n c, In n (tree_nodes r) -> In c (kids n) -> In c (tree_nodes r).
Proof.
  intros r. induction r as [r IH] using tree_ind'. intros n c N C. rewrite tree_eq in N |- *. destruct N as [<-|N].
  - right. apply in_flat_map. exists c. split; [exact C|apply tree_self].
  - right. apply in_flat_map in N. destruct N as (k & K1 & K2). apply in_flat_map. exists k. split; [exact K1|]. eapply IH; eauto.
Qed.
Lemma tree_trans : forall r n c, In n (tree_nodes r) -> In c (tree_nodes n) -> In c (tree_nodes r).
Proof.
  intros r. induction r as [r IH] using tree_ind'. intros n c N C. rewrite (tree_eq r) in N |- *. destruct N as [<-|N].
  - rewrite tree_eq in C. exact C.
  - right. apply in_flat_map in N. destruct N as (k & K1 & K2). apply in_flat_map. exists k. split; [exact K1|]. eapply IH; eauto.
Qed.
Lemma tree_parent : forall r c, In c (tree_nodes r) -> c = r \/ exists p, In p (tree_nodes r) /\ In c (kids p).
Proof.
  intros r. induction r as [r IH] using tree_ind'. intros c C. rewrite tree_eq in C. destruct C as [<-|C]; [now left|]. right.
  apply in_flat_map in C. destruct C as (k & K1 & K2). destruct (IH k K1 c K2) as [->|(p & P1 & P2)].
  - exists r. split; [apply tree_self|exact K1].
  - exists p. split; [|exact P2]. eapply tree_trans; [|exact P1]. eapply tree_child; [apply tree_self|exact K1].
Qed.
(** every TransactionNode object occurs once *)
Definition distinct_nodes (r : tnode) : Prop := NoDup (map t_id (tree_nodes r)).
Lemma nodup_app : forall {A} (l m : list A), NoDup (l ++ m) -> NoDup l /\ NoDup m /\ forall x, In x l -> In x m -> False.
Proof.
  intros A l. induction l as [|x l IH]; intros m N; cbn in N; [repeat split; [constructor|exact N|intros x []]|].
  inversion N as [|? ? N1 N2]; subst. destruct (IH m N2) as (I1 & I2 & I3). split; [constructor; [|exact I1]; intros Q; apply N1, in_or_app; now left|].
  split; [exact I2|]. intros y [<-|Y] M; [apply N1, in_or_app; now right|eauto].
Qed.
Lemma distinct_kid : forall r k, distinct_nodes r -> In k (kids r) -> distinct_nodes k.
Proof.
  intros r k D K. unfold distinct_nodes in *. rewrite tree_eq in D. cbn in D. inversion D as [|? ? _ D2]; subst. clear D.
  induction (kids r) as [|x xs IH]; [destruct K|]. cbn in D2. rewrite map_app in D2. apply nodup_app in D2. destruct D2 as (A & B & _).
  destruct K as [->|K]; auto.
Qed.
Lemma distinct_cross : forall r k k' x, distinct_nodes r -> In k (kids r) -> In k' (kids r) -> In (t_id x) (map t_id (tree_nodes k)) -> In (t_id x) (map t_id (tree_nodes k')) -> k = k'.
Proof.
  intros r k k' x D K K' I I'. unfold distinct_nodes in *. rewrite tree_eq in D. cbn in D. inversion D as [|? ? _ D2]; subst. clear D.
  induction (kids r) as [|y ys IH]; [destruct K|]. cbn in D2. rewrite map_app in D2. apply nodup_app in D2. destruct D2 as (A & B & C).
  assert (M : forall z, In z ys -> In (t_id x) (map t_id (tree_nodes z)) -> In (t_id x) (map t_id (flat_map tree_nodes ys))).
  { intros z Z1 Z2. apply in_map_iff in Z2. destruct Z2 as (w & W1 & W2). apply in_map_iff. exists w. split; [exact W1|]. apply in_flat_map. eauto. }
  destruct K as [->|K], K' as [->|K']; auto; exfalso; eapply C; eauto.
Qed.
Lemma distinct_not_self : forall r k x, distinct_nodes r -> In k (kids r) -> In x (tree_nodes k) -> t_id x <> t_id r.
Proof.
  intros r k x D K I E. unfold distinct_nodes in D. rewrite tree_eq in D. cbn in D. inversion D as [|? ? D1 _]; subst. apply D1.
  rewrite <- E. apply in_map. apply in_flat_map. eauto.
Qed.
Lemma distinct_id : forall r x y, distinct_nodes r -> In x (tree_nodes r) -> In y (tree_nodes r) -> t_id x = t_id y -> x = y.
Proof.
  intros r x y D X Y E. unfold distinct_nodes in D. induction (tree_nodes r) as [|z zs IH]; [destruct X|]. cbn in D. inversion D as [|? ? D1 D2]; subst.
  destruct X as [->|X], Y as [->|Y]; auto; exfalso; apply D1; [rewrite E|rewrite <- E]; now apply in_map.
Qed.
Lemma unique_parent : forall r p p' c, distinct_nodes r -> In p (tree_nodes r) -> In p' (tree_nodes r) -> In c (kids p) -> In c (kids p') -> p = p'.
Proof.
  intros r. induction r as [r IH] using tree_ind'. intros p p' c D I I' K K'. rewrite tree_eq in I, I'.
  assert (X : forall q, In q (flat_map tree_nodes (kids r)) -> In c (kids q) -> In c (kids r) -> False).
  { intros q Q1 Q2 Q3. apply in_flat_map in Q1. destruct Q1 as (k & K1 & K2).
    assert (C : In c (tree_nodes k)) by (eapply tree_child; eauto).
    assert (k = c) as -> by (eapply (distinct_cross r k c c D K1 Q3); [now apply in_map|apply in_map, tree_self]).
    pose proof (distinct_kid r c D Q3) as Dc. rewrite tree_eq in K2. destruct K2 as [<-|K2].
    - eapply (distinct_not_self c c c Dc Q2 (tree_self c)). reflexivity.
    - apply in_flat_map in K2. destruct K2 as (j & J1 & J2). eapply (distinct_not_self c j c Dc J1); [|reflexivity]. eapply tree_child; eauto. }
  destruct I as [<-|I], I' as [<-|I']; [reflexivity|exfalso; eauto|exfalso; eauto|].
  apply in_flat_map in I, I'. destruct I as (k & K1 & K2), I' as (k' & K1' & K2').
  assert (k' = k) as ->.
  { eapply (distinct_cross r k' k c D K1' K1); apply in_map; eapply tree_child; eauto. }
  eapply (IH k K1 p p' c); auto. eapply distinct_kid; eauto.
Qed.
(** below a node other than the node itself one only gets from the node's own tree *)
Lemma inner_parent : forall r n p c, distinct_nodes r -> In n (tree_nodes r) -> In p (tree_nodes r) -> In c (kids p) -> In c (tree_nodes n) -> c <> n -> In p (tree_nodes n).
Proof.
  intros r n p c D N P C I Ne. destruct (tree_parent n c I) as [->|(q & Q1 & Q2)]; [contradiction|].
  rewrite (unique_parent r p q c D P (tree_trans r n q N Q1) C Q2). exact Q1.
Qed.
Lemma root_not_inner : forall r n, distinct_nodes r -> In n (tree_nodes r) -> In r (tree_nodes n) -> r = n.
Proof.
  intros r n D N R. rewrite tree_eq in N. destruct N as [N|N]; [exact N|]. exfalso.
  apply in_flat_map in N. destruct N as (k & K1 & K2). eapply (distinct_not_self r k r D K1); [|reflexivity]. eapply tree_trans; eauto.
Qed.
Lemma distinct_sub : forall r n, distinct_nodes r -> In n (tree_nodes r) -> distinct_nodes n.
Proof.
  intros r. induction r as [r IH] using tree_ind'. intros n D N. rewrite tree_eq in N. destruct N as [<-|N]; [exact D|].
  apply in_flat_map in N. destruct N as (k & K1 & K2). eapply IH; eauto. eapply distinct_kid; eauto.
Qed.

(** ** The edges around a node *)
Record wiring (P : env) (memo : flowd) (limit : lk) (root : tnode) (g : graph) : Prop := {
  wi_tn : forall u i e, edge_of g u (TN i) = Some e -> (u = Src /\ i = t_id root) \/
     exists p c, In p (tree_nodes root) /\ In c (kids p) /\ i = t_id c /\ (u = TLim (t_id p) \/ u = TOvf (t_id p));
  wi_lim : forall u i e, edge_of g u (TLim i) = Some e -> u = TN i;
  wi_ovf : forall u i e, edge_of g u (TOvf i) = Some e -> u = TLim i;
  wi_acc : forall u a e, edge_of g u (Acc a) = Some e -> exists p, In p (tree_nodes root) /\ body_src (t_body p) = TLeaf a /\ u = TLim (t_id p);
  wi_out : forall i v e, edge_of g (TN i) v = Some e -> v = TLim i;
  wi_cap : forall n e, In n (tree_nodes root) -> edge_of g (TN (t_id n)) (TLim (t_id n)) = Some e ->
     forall L, t_lims n limit = Some L -> e_cap e = capx P (Fin L) (flow_out memo (TN (t_id n))) }.
Lemma embed_cap : forall P memo limit g n c, fst (embed_limit P memo limit g n c) =
  nx_add_edge g (TN (t_id n)) (TLim (t_id n)) (match t_lims n limit with Some L => capx P (Fin L) (flow_out memo (TN (t_id n))) | None => None end) None.
Proof. intros. unfold embed_limit. destruct (t_lims n limit); reflexivity. Qed.
(** any edge that does not leave a TransactionNode and respects the shape may be added *)
Lemma wiring_add : forall P memo limit root g u v c w,
  match u with TLim _ | TOvf _ | Acc _ | Grp _ => True | _ => False end ->
  match v with
  | TN i => exists p d, In p (tree_nodes root) /\ In d (kids p) /\ i = t_id d /\ (u = TLim (t_id p) \/ u = TOvf (t_id p))
  | TLim i => False
  | TOvf i => u = TLim i
  | Acc a => exists p, In p (tree_nodes root) /\ body_src (t_body p) = TLeaf a /\ u = TLim (t_id p)
  | _ => True
  end -> wiring P memo limit root g -> wiring P memo limit root (nx_add_edge g u v c w).
Proof.
  intros P memo limit root g u v c w Hu Hv [W1 W2 W3 W4 W5 W6]. constructor.
  - intros x i e H. edges H; subst; eauto.
  - intros x i e H. edges H; subst; eauto. contradiction.
  - intros x i e H. edges H; subst; eauto.
  - intros x a e H. edges H; subst; eauto.
  - intros i x e H. edges H; subst; eauto. contradiction.
  - intros n e Hn H L HL. edges H; subst; eauto; contradiction.
Qed.
Lemma build_wiring : forall P memo limit fuel root total g, (forall l c, In c (p_hash P l) -> In c l) -> distinct_nodes root ->
  build_graph P memo limit fuel root total = Ok g -> wiring P memo limit root g.
Proof.
  intros P memo limit fuel root total g Hh D H.
  refine (build_graph_pres P memo limit (fun n => In n (tree_nodes root)) (wiring P memo limit root) _ _ _ _ _ _ _ Hh fuel root total g (tree_self root) _ H).
  - intros n c N C. apply child_kids in C. eapply tree_child; eauto.
  - intros g0 n c N [W1 W2 W3 W4 W5 W6]. rewrite embed_cap. constructor.
    + intros x i e E. edges E; subst; eauto; discriminate.
    + intros x i e E. edges E; subst; eauto. now injection E2 as ->.
    + intros x i e E. edges E; subst; eauto; discriminate.
    + intros x i e E. edges E; subst; eauto; discriminate.
    + intros i x e E. edges E; subst; eauto. now injection E1 as ->.
    + intros m e M E L HL. edges E; subst; eauto. injection E1 as E1. assert (m = n) as -> by (eapply distinct_id; eauto).
      injection E as <-. rewrite HL. apply capx_write. intros e' E'. eapply W6; eauto.
  - intros g0 n c k w N C _. apply child_kids in C. apply wiring_add; [exact I|]. exists n, c. auto.
  - intros g0 n c k N _ C. apply child_kids in C. apply wiring_add; [exact I|]. exists n, c. auto.
  - intros g0 n k w N _ _. apply wiring_add; [exact I|reflexivity].
  - intros g0 n a k N B. apply wiring_add; [exact I|]. exists n. auto.
  - intros g0 n a g' N B W E. rewrite add_account_nx in E. destruct (p_limit P limit a) as [x|]; [|discriminate].
    destruct (p_grp P limit a); injection E as <-; repeat (apply wiring_add; [exact I|exact I|]); exact W.
  - rewrite add_edge_nx. assert (E0 : forall u v, edge_of [] u v = None) by reflexivity. constructor.
    + intros u i e E. edges E; subst; try discriminate. left. split; [reflexivity|]. now injection E2 as ->.
    + intros u i e E. edges E; subst; discriminate.
    + intros u i e E. edges E; subst; discriminate.
    + intros u i e E. edges E; subst; discriminate.
    + intros u i e E. edges E; subst; discriminate.
    + intros n e _ E. edges E; subst; discriminate.
Qed.

(** ** Cuts *)
Section Cut.
  Variables (g : graph) (f : gnode -> gnode -> Z) (D : gnode -> bool).
  Hypothesis F : feasible g f.
  Hypothesis DS : D Src = false.
  Hypothesis DK : D Snk = false.
  Let N := nodes g.
  Definition leaving : Z := Zsum (map (fun u => Zsum (map (fun v => if D u && negb (D v) then f u v else 0) N)) N).
  Definition entering : Z := Zsum (map (fun u => Zsum (map (fun v => if negb (D u) && D v then f u v else 0) N)) N).
  Lemma cut : leaving = entering.
  Proof.
    set (inside := Zsum (map (fun u => Zsum (map (fun v => if D u && D v then f u v else 0) N)) N)).
    assert (A : Zsum (map (fun u => if D u then outflow g f u else 0) N) = inside + leaving).
    { unfold inside, leaving. rewrite <- Zsum_add. apply Zsum_ext. intros u _. rewrite <- Zsum_add. unfold outflow. fold N. destruct (D u); cbn [andb].
      - apply Zsum_ext. intros v _. destruct (D v); cbn [negb]; lia.
      - rewrite (Zsum_zero (fun _ => 0 + 0)); auto. }
    assert (B : Zsum (map (fun u => if D u then inflow g f u else 0) N) = inside + entering).
    { unfold inside, entering. rewrite (Zsum_swap (fun u v => if D u && D v then f u v else 0)), (Zsum_swap (fun u v => if negb (D u) && D v then f u v else 0)).
      rewrite <- Zsum_add. apply Zsum_ext. intros v _. rewrite <- Zsum_add. unfold inflow. fold N. destruct (D v).
      - apply Zsum_ext. intros u _. destruct (D u); cbn [andb negb]; lia.
      - symmetry. apply Zsum_zero. intros u _. rewrite !andb_false_r. lia. }
    assert (C : Zsum (map (fun u => if D u then outflow g f u else 0) N) = Zsum (map (fun u => if D u then inflow g f u else 0) N)).
    { apply Zsum_ext. intros u U. destruct (D u) eqn:E; [|reflexivity]. apply (fe_cons _ _ F); [exact U| |]; intros ->; congruence. }
    lia.
  Qed.
End Cut.

Definition ids_of (l : list tnode) (i : nat) : bool := existsb (fun n => Nat.eqb (t_id n) i) l.
Lemma ids_of_In : forall l i, ids_of l i = true <-> exists n, In n l /\ t_id n = i.
Proof. intros l i. unfold ids_of. rewrite existsb_exists. split; intros (n & H1 & H2); exists n; split; auto; now apply Nat.eqb_eq. Qed.

Section Node.
  Variables (P : env) (memo : flowd) (limit : lk) (root n : tnode) (sc : option Z) (g : graph) (f : gnode -> gnode -> Z).
  Hypothesis S : shape P memo limit (t_id root) sc g.
  Hypothesis W : wiring P memo limit root g.
  Hypothesis F : feasible g f.
  Hypothesis DN : distinct_nodes root.
  Hypothesis Nr : In n (tree_nodes root).
  Let sub := tree_nodes n.
  (** what lies behind the node's limit: the limit itself, the nodes below and the given accounts *)
  Definition behind (accs : list nat) (u : gnode) : bool :=
    match u with
    | TN i => ids_of sub i && negb (Nat.eqb i (t_id n))
    | TLim i | TOvf i => ids_of sub i
    | Acc a => existsb (Nat.eqb a) accs
    | _ => false
    end.
  Lemma sub_id : forall c, In c (tree_nodes root) -> ids_of sub (t_id c) = true -> In c sub.
  Proof.
    intros c C H. apply ids_of_In in H. destruct H as (d & D1 & D2). assert (c = d) as ->; [|exact D1].
    exact (distinct_id root c d DN C (tree_trans root n d Nr D1) (eq_sym D2)).
  Qed.
  Lemma in_behind_ids : forall c, In c sub -> ids_of sub (t_id c) = true.
  Proof. intros c C. apply ids_of_In. eauto. Qed.
  Lemma node_out : outflow g f (TN (t_id n)) = f (TN (t_id n)) (TLim (t_id n)).
  Proof. eapply (only_edge P memo limit (t_id root) sc g f S F). intros v e H. eapply wi_out; eauto. Qed.
  Lemma enter_le : forall accs, (forall a p, In a accs -> In p (tree_nodes root) -> body_src (t_body p) = TLeaf a -> In p sub) ->
    entering g f (behind accs) <= outflow g f (TN (t_id n)).
  Proof.
    intros accs Own. rewrite node_out. unfold entering.
    assert (Z0 : forall u v, negb (behind accs u) && behind accs v = true -> ~ (u = TN (t_id n) /\ v = TLim (t_id n)) -> f u v = 0).
    { intros u v H Ne. apply andb_true_iff in H. destruct H as [H1 H2]. apply negb_true_iff in H1. apply (fe_edges _ _ F).
      destruct (edge_of g u v) as [e|] eqn:E; [|reflexivity]. exfalso. destruct v as [| |i|i|i|a|r]; cbn [behind] in H2; try discriminate.
      - apply andb_true_iff in H2. destruct H2 as [H2 H3]. apply negb_true_iff, Nat.eqb_neq in H3.
        destruct (wi_tn _ _ _ _ _ W _ _ _ E) as [[-> ->]|(p & c & P1 & P2 & -> & P3)].
        + apply sub_id in H2; [|apply tree_self]. apply H3. f_equal. eapply root_not_inner; eauto.
        + apply sub_id in H2; [|eapply tree_child; eauto]. assert (Ip : In p sub) by (eapply inner_parent; eauto; congruence).
          apply in_behind_ids in Ip. destruct P3 as [-> | ->]; cbn [behind] in H1; congruence.
      - pose proof (wi_lim _ _ _ _ _ W _ _ _ E) as ->. cbn [behind] in H1. rewrite H2 in H1. cbn [andb] in H1.
        apply negb_false_iff, Nat.eqb_eq in H1. subst. now apply Ne.
      - pose proof (wi_ovf _ _ _ _ _ W _ _ _ E) as ->. cbn [behind] in H1. congruence.
      - destruct (wi_acc _ _ _ _ _ W _ _ _ E) as (p & P1 & P2 & ->). apply existsb_exists in H2. destruct H2 as (b & B1 & B2). apply Nat.eqb_eq in B2. subst b.
        cbn [behind] in H1. rewrite (in_behind_ids p) in H1; [discriminate|]. eapply Own; eauto. }
    pose proof (proj1 (sh_wf _ _ _ _ _ _ S)) as ND.
    rewrite (Zsum_ext _ (fun u => if geqb u (TN (t_id n)) then Zsum (map (fun v => if negb (behind accs u) && behind accs v then f u v else 0) (nodes g)) else 0)).
    2:{ intros u _. destruct (geqb u (TN (t_id n))) eqn:E; [reflexivity|]. apply geqb_neq in E. apply Zsum_zero. intros v _.
        destruct (negb (behind accs u) && behind accs v) eqn:Q; [|reflexivity]. apply Z0; [exact Q|tauto]. }
    rewrite (Zsum_one _ _ (TN (t_id n))); [rewrite geqb_refl| | |exact ND].
    2:{ intros y _ Y. apply geqb_neq in Y. now rewrite Y. }
    2:{ intros Y. rewrite geqb_refl. apply Zsum_zero. intros v _. destruct (_ && _); [|reflexivity]. eapply (not_node P memo limit (t_id root) sc g f S F). now left. }
    rewrite (Zsum_one _ _ (TLim (t_id n))).
    - destruct (_ && _); [lia|]. apply (fe_pos _ _ F).
    - intros y _ Y. destruct (negb _ && _) eqn:Q; [|reflexivity]. apply Z0; [exact Q|]. intros [_ ->]. now apply Y.
    - intros Y. destruct (_ && _); [|reflexivity]. eapply (not_node P memo limit (t_id root) sc g f S F). now right.
    - exact ND.
  Qed.
  Lemma double_pos : forall (h : gnode -> gnode -> Z) (l : list gnode), (forall u v, 0 <= h u v) -> forall u, 0 <= Zsum (map (h u) l).
  Proof. intros h l H u. now apply Zsum_pos. Qed.
  (** the accounts below the node get together at most what flows through the node *)
  Lemma node_accounts_le : forall accs, NoDup accs -> (forall a p, In a accs -> In p (tree_nodes root) -> body_src (t_body p) = TLeaf a -> In p sub) ->
    Zsum (map (fun a => outflow g f (Acc a)) accs) <= outflow g f (TN (t_id n)).
  Proof.
    intros accs ND Own. eapply Z.le_trans; [|apply (enter_le accs Own)]. rewrite <- cut; [|exact F|reflexivity|reflexivity].
    unfold leaving. rewrite <- (map_map Acc (outflow g f)).
    rewrite (Zsum_ext (outflow g f) (fun u => Zsum (map (fun v => if behind accs u && negb (behind accs v) then f u v else 0) (nodes g)))).
    - apply Zsum_incl_le.
      + apply FinFun.Injective_map_NoDup; [intros a b E; congruence|exact ND].
      + intros x _. apply Zsum_pos. intros v _. destruct (_ && _); [apply (fe_pos _ _ F)|lia].
      + intros x _ Nx. apply Zsum_zero. intros v _. destruct (_ && _); [|reflexivity]. eapply (not_node P memo limit (t_id root) sc g f S F). now left.
    - intros u U. apply in_map_iff in U. destruct U as (a & <- & A). unfold outflow. apply Zsum_ext. intros v _.
      assert (B : behind accs (Acc a) = true) by (cbn; apply existsb_exists; exists a; split; [exact A|apply Nat.eqb_refl]). rewrite B. cbn [andb].
      destruct (behind accs v) eqn:Bv; cbn [negb]; [|reflexivity]. apply (fe_edges _ _ F). destruct (edge_of g (Acc a) v) eqn:E; [|reflexivity].
      destruct (sh_acc _ _ _ _ _ _ S _ _ _ E) as (x & _ & K). destruct (p_grp P limit a); destruct K as [-> _]; discriminate.
  Qed.
  (** what flows through the node reaches the accounts below it *)
  Lemma leave_le : forall accs, NoDup accs -> (forall a p, In p sub -> body_src (t_body p) = TLeaf a -> In a accs) ->
    outflow g f (TN (t_id n)) <= Zsum (map (fun a => outflow g f (Acc a)) accs).
  Proof.
    intros accs ND All.
    assert (Up : outflow g f (TN (t_id n)) <= entering g f (behind [])).
    { rewrite node_out. unfold entering.
      destruct (in_dec gnode_dec (TN (t_id n)) (nodes g)) as [I1|I1]; [|rewrite (not_node P memo limit (t_id root) sc g f S F) by tauto; apply Zsum_pos; intros; apply Zsum_pos; intros; destruct (_ && _); [apply (fe_pos _ _ F)|lia]].
      destruct (in_dec gnode_dec (TLim (t_id n)) (nodes g)) as [I2|I2]; [|rewrite (not_node P memo limit (t_id root) sc g f S F) by tauto; apply Zsum_pos; intros; apply Zsum_pos; intros; destruct (_ && _); [apply (fe_pos _ _ F)|lia]].
      assert (One : forall (h : gnode -> Z) l x, In x l -> (forall y, 0 <= h y) -> h x <= Zsum (map h l)).
      { clear. intros h l x I H. induction l as [|y l IH]; [destruct I|]. change (h x <= h y + Zsum (map h l)).
        destruct I as [->|I]; [pose proof (Zsum_pos h l (fun z _ => H z)); lia|]. specialize (IH I). specialize (H y). lia. }
      eapply Z.le_trans; [|apply (One (fun u => Zsum (map (fun v => if negb (behind [] u) && behind [] v then f u v else 0) (nodes g))) _ _ I1)].
      - eapply Z.le_trans; [|apply (One (fun v => if negb (behind [] (TN (t_id n))) && behind [] v then f (TN (t_id n)) v else 0) _ _ I2)].
        + cbn [behind]. rewrite Nat.eqb_refl. rewrite andb_false_r. cbn [negb andb]. rewrite in_behind_ids by (apply tree_self). lia.
        + intros y. destruct (_ && _); [apply (fe_pos _ _ F)|lia].
      - intros y. apply Zsum_pos. intros v _. destruct (_ && _); [apply (fe_pos _ _ F)|lia]. }
    eapply Z.le_trans; [exact Up|]. rewrite <- cut; [|exact F|reflexivity|reflexivity]. unfold leaving.
    rewrite (Zsum_swap (fun u v => if behind [] u && negb (behind [] v) then f u v else 0)).
    rewrite <- (map_map Acc (outflow g f)).
    rewrite (Zsum_ext _ (fun v => if existsb (fun a => geqb v (Acc a)) accs then Zsum (map (fun u => if behind [] u && negb (behind [] v) then f u v else 0) (nodes g)) else 0)).
    2:{ intros v Vn. destruct (existsb (fun a => geqb v (Acc a)) accs) eqn:Q; [reflexivity|]. apply Zsum_zero. intros u _.
        destruct (behind [] u && negb (behind [] v)) eqn:B; [|reflexivity]. apply (fe_edges _ _ F). destruct (edge_of g u v) as [e|] eqn:E; [|reflexivity]. exfalso.
        apply andb_true_iff in B. destruct B as [B1 B2]. apply negb_true_iff in B2. destruct v as [| |i|i|i|a|r].
        - rewrite (sh_tosrc _ _ _ _ _ _ S) in E. discriminate.
        - destruct (sh_tosnk _ _ _ _ _ _ S _ _ E) as [[a ->]|[r ->]]; discriminate.
        - destruct (wi_tn _ _ _ _ _ W _ _ _ E) as [[-> ->]|(p & c & P1 & P2 & -> & P3)]; [discriminate|].
          assert (Pb : In p sub) by (apply sub_id; [exact P1|]; destruct P3 as [-> | ->]; cbn [behind] in B1; exact B1).
          assert (Cs : In c sub) by (eapply tree_child; eauto). cbn [behind] in B2. rewrite (in_behind_ids c Cs) in B2. cbn [andb] in B2.
          apply negb_false_iff, Nat.eqb_eq in B2. assert (c = n) as -> by (eapply distinct_id; eauto; eapply tree_child; eauto).
          clear -DN Nr Pb P2. pose proof (distinct_sub root n DN Nr) as Dn. subst sub. rewrite tree_eq in Pb. destruct Pb as [<-|Pb].
          + eapply (distinct_not_self n n n Dn P2 (tree_self n)). reflexivity.
          + apply in_flat_map in Pb. destruct Pb as (k & K1 & K2). eapply (distinct_not_self n k n Dn K1); [|reflexivity]. eapply tree_child; eauto.
        - pose proof (wi_lim _ _ _ _ _ W _ _ _ E) as ->. cbn [behind] in B1, B2. rewrite B2 in B1. discriminate.
        - pose proof (wi_ovf _ _ _ _ _ W _ _ _ E) as ->. cbn [behind] in B1, B2. congruence.
        - destruct (wi_acc _ _ _ _ _ W _ _ _ E) as (p & P1 & P2 & ->). cbn [behind] in B1. apply sub_id in B1; [|exact P1].
          assert (X : existsb (fun b => geqb (Acc a) (Acc b)) accs = true) by (apply existsb_exists; exists a; split; [eauto|apply geqb_refl]). congruence.
        - destruct (sh_togrp _ _ _ _ _ _ S _ _ _ E) as [a ->]. discriminate. }
    eapply Z.le_trans; [apply Zsum_le with (g := fun v => if existsb (fun a => geqb v (Acc a)) accs then outflow g f v else 0)|].
    - intros v V. destruct (existsb (fun a => geqb v (Acc a)) accs) eqn:Q; [|lia]. apply existsb_exists in Q. destruct Q as (a & A1 & A2). apply geqb_eq in A2. subst.
      rewrite (fe_cons _ _ F (Acc a) V); [|discriminate|discriminate]. unfold inflow. apply Zsum_le. intros u _. destruct (_ && _); [lia|apply (fe_pos _ _ F)].
    - rewrite <- Zsum_filter. apply Zsum_incl_le.
      + apply NoDup_filter. apply (sh_wf _ _ _ _ _ _ S).
      + intros x _. apply out_pos. exact F.
      + intros x X Nx. exfalso. apply Nx. apply filter_In in X. destruct X as [_ X]. apply existsb_exists in X. destruct X as (a & A1 & A2). apply geqb_eq in A2. subst. now apply in_map.
  Qed.
  Lemma node_cap_le : forall L c, t_lims n limit = Some L -> capx P (Fin L) (flow_out memo (TN (t_id n))) = Some c -> 0 <= c -> outflow g f (TN (t_id n)) <= c.
  Proof.
    intros L c HL C Hc. rewrite node_out. destruct (edge_of g (TN (t_id n)) (TLim (t_id n))) as [e|] eqn:E; [|rewrite (fe_edges _ _ F); auto].
    apply (fe_cap _ _ F _ _ e); [exact E|]. rewrite (wi_cap _ _ _ _ _ W n e Nr E L HL). exact C.
  Qed.
End Node.
