(** Facts about the graphs of TxGraphModel and about feasible flows. *)
From Verif Require Import Base BaseFacts TxGraphModel.
From Coq Require Import Permutation Lia ZArith.
Local Open Scope Z_scope.

(** ** Specification of a feasible flow (what networkx.max_flow_min_cost is trusted for) *)
Definition Zsum (l : list Z) : Z := fold_right Z.add 0 l.
Definition nodes (g : graph) : list gnode := dkeys g.
Definition outflow (g : graph) (f : gnode -> gnode -> Z) (u : gnode) : Z := Zsum (map (fun v => f u v) (nodes g)).
Definition inflow (g : graph) (f : gnode -> gnode -> Z) (v : gnode) : Z := Zsum (map (fun u => f u v) (nodes g)).
Record feasible (g : graph) (f : gnode -> gnode -> Z) : Prop := {
  fe_edges : forall u v, edge_of g u v = None -> f u v = 0;
  fe_pos : forall u v, 0 <= f u v;
  fe_cap : forall u v e c, edge_of g u v = Some e -> e_cap e = Some c -> f u v <= c;
  fe_cons : forall u, In u (nodes g) -> u <> Src -> u <> Snk -> outflow g f u = inflow g f u }.

(** ** Dicts keyed by graph nodes *)
Lemma geqb_eq : forall a b, geqb a b = true <-> a = b.
Proof.
  intros [] []; cbn; split; intros H; try discriminate; try reflexivity; try (apply Nat.eqb_eq in H; congruence);
    injection H as ->; apply Nat.eqb_refl.
Qed.
Lemma geqb_refl : forall a, geqb a a = true.
Proof. intros a. now apply geqb_eq. Qed.
Lemma geqb_neq : forall a b, geqb a b = false <-> a <> b.
Proof. intros a b. destruct (geqb a b) eqn:E; [apply geqb_eq in E; split; [discriminate|contradiction]|]. split; [intros _ H; apply geqb_eq in H; congruence|reflexivity]. Qed.
Lemma geqb_sym : forall a b, geqb a b = geqb b a.
Proof. intros a b. destruct (geqb b a) eqn:E; [apply geqb_eq in E; subst; apply geqb_refl|]. apply geqb_neq in E. apply geqb_neq. congruence. Qed.
Section GDict.
  Context {V : Type}.
  Implicit Types d : list (gnode * V).
  Lemma gget_set : forall d k k' v, dget geqb (dset geqb d k v) k' = if geqb k' k then Some v else dget geqb d k'.
  Proof.
    induction d as [|[a x] d IH]; intros k k' v; cbn; [reflexivity|].
    destruct (geqb k a) eqn:E; cbn.
    - apply geqb_eq in E. subst. destruct (geqb k' a); reflexivity.
    - rewrite IH. destruct (geqb k' a) eqn:F; [|reflexivity]. apply geqb_eq in F. subst. now rewrite geqb_sym, E.
  Qed.
  Lemma gkeys_set : forall d k v x, In x (dkeys (dset geqb d k v)) <-> x = k \/ In x (dkeys d).
  Proof.
    unfold dkeys. induction d as [|[a y] d IH]; intros k v x; cbn; [intuition|].
    destruct (geqb k a) eqn:E; cbn.
    - apply geqb_eq in E. subst. intuition.
    - rewrite IH. intuition.
  Qed.
  Lemma gset_nodup : forall d k v, NoDup (dkeys d) -> NoDup (dkeys (dset geqb d k v)).
  Proof.
    unfold dkeys. induction d as [|[a y] d IH]; intros k v H; cbn; [constructor; [intros []|constructor]|].
    inversion H; subst. destruct (geqb k a) eqn:E; cbn; [exact H|]. constructor; [|now apply IH].
    intros K. apply gkeys_set in K. destruct K as [->|K]; [|auto]. now rewrite geqb_refl in E.
  Qed.
  Lemma gget_None : forall d k, dget geqb d k = None <-> ~ In k (dkeys d).
  Proof.
    unfold dkeys. induction d as [|[a y] d IH]; intros k; cbn; [intuition|].
    destruct (geqb k a) eqn:E.
    - apply geqb_eq in E. subst. split; [discriminate|intros H; exfalso; apply H; now left].
    - rewrite IH. apply geqb_neq in E. intuition.
  Qed.
  Lemma gget_Some_key : forall d k v, dget geqb d k = Some v -> In k (dkeys d).
  Proof. intros d k v H. destruct (dget geqb d k) eqn:E; [|discriminate]. destruct (in_dec (fun a b => ltac:(destruct (geqb a b) eqn:Q; [left; now apply geqb_eq|right; now apply geqb_neq])) k (dkeys d)) as [I|I]; [exact I|]. apply gget_None in I. congruence. Qed.
  Lemma gget_In : forall d k v, dget geqb d k = Some v -> In (k, v) d.
  Proof.
    induction d as [|[a y] d IH]; intros k v H; cbn in *; [discriminate|].
    destruct (geqb k a) eqn:E; [|right; now apply IH]. apply geqb_eq in E. left. congruence.
  Qed.
  Lemma gIn_get : forall d k v, NoDup (dkeys d) -> In (k, v) d -> dget geqb d k = Some v.
  Proof.
    unfold dkeys. induction d as [|[a y] d IH]; intros k v H I; [destruct I|]. cbn in *. inversion H; subst.
    destruct I as [I|I].
    - injection I as -> ->. now rewrite geqb_refl.
    - destruct (geqb k a) eqn:E; [|now apply IH]. apply geqb_eq in E. subst. exfalso. apply H2. apply in_map_iff. exists (a, v). auto.
  Qed.
End GDict.
Lemma gnode_dec : forall a b : gnode, {a = b} + {a <> b}.
Proof. intros a b. destruct (geqb a b) eqn:Q; [left; now apply geqb_eq|right; now apply geqb_neq]. Qed.

(** ** Graphs *)
Lemma adj_add_node : forall g u x, adj (nx_add_node g u) x = adj g x.
Proof.
  intros g u x. unfold nx_add_node, dmem. destruct (dget geqb g u) eqn:E; [reflexivity|].
  unfold adj. enough (K : dget geqb (g ++ [(u, [])]) x = match dget geqb g x with Some d => Some d | None => if geqb x u then Some [] else None end).
  { rewrite K. destruct (dget geqb g x); [reflexivity|]. now destruct (geqb x u). }
  clear E. induction g as [|[a d] g IH]; cbn; [reflexivity|]. destruct (geqb x a); [reflexivity|exact IH].
Qed.
Lemma nodes_add_node : forall g u x, In x (nodes (nx_add_node g u)) <-> x = u \/ In x (nodes g).
Proof.
  intros g u x. unfold nx_add_node, dmem, nodes. destruct (dget geqb g u) eqn:E.
  - apply gget_Some_key in E. intuition. now subst.
  - unfold dkeys. rewrite map_app, in_app_iff. cbn. intuition.
Qed.
Lemma nodup_add_node : forall g u, NoDup (nodes g) -> NoDup (nodes (nx_add_node g u)).
Proof.
  intros g u H. unfold nx_add_node, dmem, nodes. destruct (dget geqb g u) eqn:E; [exact H|].
  apply gget_None in E. unfold dkeys in *. rewrite map_app. cbn.
  apply Permutation_NoDup with (l := u :: map fst g); [apply Permutation_cons_append|]. constructor; auto.
Qed.
Definition upd_edge (old : option edge) (c w : option Z) : edge :=
  {| e_cap := match c with Some c => Some c | None => match old with Some o => e_cap o | None => None end end;
     e_w := match w with Some x => Some x | None => match old with Some o => e_w o | None => None end end |}.
Lemma edge_add : forall g u v c w a b,
  edge_of (nx_add_edge g u v c w) a b = if geqb a u && geqb b v then Some (upd_edge (edge_of g u v) c w) else edge_of g a b.
Proof.
  intros g u v c w a b. unfold nx_add_edge. set (g1 := nx_add_node (nx_add_node g u) v).
  assert (A : forall x, adj g1 x = adj g x) by (intros x; unfold g1; now rewrite !adj_add_node).
  assert (E : edge_of g1 u v = edge_of g u v) by (unfold edge_of; now rewrite A). rewrite E.
  unfold edge_of at 1. unfold adj at 1. rewrite gget_set. destruct (geqb a u) eqn:F; cbn [andb].
  - apply geqb_eq in F. subst. rewrite gget_set. destruct (geqb b v).
    + unfold upd_edge. destruct (edge_of g u v) as [[]|]; destruct c, w; reflexivity.
    + now rewrite A.
  - fold (adj g1 a). rewrite A. reflexivity.
Qed.
Lemma nodes_add : forall g u v c w x, In x (nodes (nx_add_edge g u v c w)) <-> x = u \/ x = v \/ In x (nodes g).
Proof.
  intros. unfold nx_add_edge. unfold nodes at 1. rewrite gkeys_set. fold (nodes (nx_add_node (nx_add_node g u) v)).
  rewrite !nodes_add_node. intuition.
Qed.
Definition gwf (g : graph) : Prop :=
  NoDup (nodes g) /\ (forall u, NoDup (dkeys (adj g u))) /\ (forall u v e, edge_of g u v = Some e -> In u (nodes g) /\ In v (nodes g)).
Lemma gwf_add : forall g u v c w, gwf g -> gwf (nx_add_edge g u v c w).
Proof.
  intros g u v c w (N & A & E). split; [|split].
  - unfold nx_add_edge, nodes. apply gset_nodup. now apply nodup_add_node, nodup_add_node.
  - intros a. unfold nx_add_edge. unfold adj at 1. rewrite gget_set. destruct (geqb a u) eqn:F.
    + apply gset_nodup. rewrite !adj_add_node. apply A.
    + fold (adj (nx_add_node (nx_add_node g u) v) a). rewrite !adj_add_node. apply A.
  - intros a b e H. rewrite edge_add in H. rewrite !nodes_add. destruct (geqb a u && geqb b v) eqn:F.
    + apply andb_true_iff in F. destruct F as [F1 F2]. apply geqb_eq in F1, F2. subst. auto.
    + destruct (E _ _ _ H). auto.
Qed.
Lemma gwf_nil : gwf [].
Proof. split; [constructor|]. split; [intros u; constructor|]. intros u v e H. discriminate. Qed.

(** ** Sums *)
Lemma Zsum_app : forall l m, Zsum (l ++ m) = Zsum l + Zsum m.
Proof. induction l as [|x l IH]; intros m; cbn; [reflexivity|]. unfold Zsum in *. rewrite IH. lia. Qed.
Lemma Zsum_perm : forall l m, Permutation l m -> Zsum l = Zsum m.
Proof. intros l m H. induction H; unfold Zsum in *; cbn in *; lia. Qed.
Lemma Zsum_add : forall {A} (f g : A -> Z) l, Zsum (map (fun x => f x + g x) l) = Zsum (map f l) + Zsum (map g l).
Proof. intros A f g l. induction l as [|x l IH]; unfold Zsum in *; cbn in *; [reflexivity|]. rewrite IH. lia. Qed.
Lemma Zsum_ext : forall {A} (f g : A -> Z) l, (forall x, In x l -> f x = g x) -> Zsum (map f l) = Zsum (map g l).
Proof. intros A f g l H. f_equal. now apply map_ext_in. Qed.
Lemma Zsum_zero : forall {A} (f : A -> Z) l, (forall x, In x l -> f x = 0) -> Zsum (map f l) = 0.
Proof. intros A f l H. induction l as [|x l IH]; unfold Zsum in *; cbn in *; [reflexivity|]. rewrite H, IH; auto. Qed.
Lemma Zsum_le : forall {A} (f g : A -> Z) l, (forall x, In x l -> f x <= g x) -> Zsum (map f l) <= Zsum (map g l).
Proof. intros A f g l H. induction l as [|x l IH]; unfold Zsum in *; cbn in *; [lia|]. specialize (IH ltac:(auto)). pose proof (H x (or_introl eq_refl)). lia. Qed.
Lemma Zsum_pos : forall {A} (f : A -> Z) l, (forall x, In x l -> 0 <= f x) -> 0 <= Zsum (map f l).
Proof. intros A f l H. rewrite <- (Zsum_zero (fun _ : A => 0) l) by auto. now apply Zsum_le. Qed.
Lemma Zsum_swap : forall {A B} (f : A -> B -> Z) l m,
  Zsum (map (fun x => Zsum (map (fun y => f x y) m)) l) = Zsum (map (fun y => Zsum (map (fun x => f x y) l)) m).
Proof.
  intros A B f l m. induction l as [|x l IH].
  - cbn. symmetry. now apply Zsum_zero.
  - cbn [map]. change (Zsum (map (fun y => f x y) m) + Zsum (map (fun x0 => Zsum (map (fun y => f x0 y) m)) l) =
      Zsum (map (fun y => f x y + Zsum (map (fun x0 => f x0 y) l)) m)). rewrite IH.
    rewrite (Zsum_add (fun y => f x y) (fun y => Zsum (map (fun x0 => f x0 y) l))). reflexivity.
Qed.
Lemma Zsum_one : forall (f : gnode -> Z) l x, (forall y, In y l -> y <> x -> f y = 0) -> (~ In x l -> f x = 0) -> NoDup l -> Zsum (map f l) = f x.
Proof.
  intros f l x H N D. induction D as [|y l Hy D IH]; [cbn; symmetry; apply N; intros []|].
  change (f y + Zsum (map f l) = f x). destruct (gnode_dec y x) as [->|W].
  - rewrite Zsum_zero; [lia|]. intros z Hz. apply H; [now right|]. intros ->. contradiction.
  - rewrite (H y (or_introl eq_refl) W), IH; [lia| |].
    + intros z Hz. apply H. now right.
    + intros K. apply N. intros [->|I]; contradiction.
Qed.
Lemma Zsum_incl : forall {A} (h : A -> Z) l m, NoDup l -> NoDup m -> incl l m -> (forall x, In x m -> ~ In x l -> h x = 0) ->
  Zsum (map h l) = Zsum (map h m).
Proof.
  intros A h l. induction l as [|x l IH]; intros m D1 D2 I Z.
  - cbn. symmetry. apply Zsum_zero. intros x Hx. apply Z; auto.
  - destruct (in_split x m) as (m1 & m2 & ->); [apply I; now left|].
    assert (P : Permutation (m1 ++ x :: m2) (x :: m1 ++ m2)) by (symmetry; apply Permutation_middle).
    inversion D1; subst. pose proof (Permutation_NoDup P D2) as D3. inversion D3; subst.
    rewrite (Zsum_perm _ _ (Permutation_map h P)). cbn. f_equal. apply IH; auto.
    + intros y Hy. assert (In y (m1 ++ x :: m2)) by (apply I; now right). apply (Permutation_in _ P) in H. destruct H as [->|H]; [contradiction|exact H].
    + intros y Hy N. apply Z; [apply in_or_app; apply in_app_or in Hy; cbn; intuition|]. intros [->|K]; [contradiction|auto].
Qed.

(** ** The flow dict *)
Lemma flow_dict_get : forall g f u, dget geqb (flow_dict g f) u = match dget geqb g u with Some d => Some (map (fun ve => (fst ve, f u (fst ve))) d) | None => None end.
Proof.
  intros g f u. unfold flow_dict. induction g as [|[a d] g IH]; cbn; [reflexivity|].
  destruct (geqb u a) eqn:E; [|exact IH]. apply geqb_eq in E. now subst.
Qed.
Lemma flow_dict_out : forall g f u, gwf g -> feasible g f -> flow_out (flow_dict g f) u = outflow g f u.
Proof.
  intros g f u (N & A & E) F. unfold flow_out. rewrite flow_dict_get.
  assert (K : Zsum (map (fun v => f u v) (dkeys (adj g u))) = outflow g f u).
  { apply Zsum_incl; auto.
    - intros v Hv. destruct (edge_of g u v) eqn:Q; [now destruct (E _ _ _ Q)|]. unfold edge_of in Q. now apply gget_None in Q.
    - intros v Hv Nv. apply (fe_edges _ _ F). unfold edge_of. now apply gget_None. }
  unfold adj in K. destruct (dget geqb g u) as [d|].
  - unfold dvals. rewrite map_map. rewrite <- K. unfold dkeys. rewrite map_map. reflexivity.
  - exact K.
Qed.
Lemma flow_dict_edge : forall g f u v, feasible g f -> flow_edge (flow_dict g f) u v = f u v.
Proof.
  intros g f u v F. unfold flow_edge. rewrite flow_dict_get.
  destruct (dget geqb g u) as [d|] eqn:E.
  - destruct (edge_of g u v) as [e|] eqn:Q.
    + unfold edge_of, adj in Q. rewrite E in Q.
      enough (K : dget geqb (map (fun ve : gnode * edge => (fst ve, f u (fst ve))) d) v = Some (f u v)) by now rewrite K.
      clear -Q. induction d as [|[a x] d IH]; cbn in *; [discriminate|]. destruct (geqb v a) eqn:G; [apply geqb_eq in G; now subst|auto].
    + pose proof (fe_edges _ _ F _ _ Q) as Z0. unfold edge_of, adj in Q. rewrite E in Q.
      enough (K : dget geqb (map (fun ve : gnode * edge => (fst ve, f u (fst ve))) d) v = None) by (now rewrite K).
      clear -Q. induction d as [|[a x] d IH]; cbn in *; [reflexivity|]. destruct (geqb v a) eqn:G; [discriminate|auto].
  - symmetry. apply (fe_edges _ _ F). unfold edge_of, adj. now rewrite E.
Qed.
Lemma flow_dict_mem : forall g f u, dmem geqb (flow_dict g f) u = dmem geqb g u.
Proof. intros g f u. unfold dmem. rewrite flow_dict_get. now destruct (dget geqb g u). Qed.

(** what leaves the source is what reaches the sink *)
Lemma source_to_sink : forall g f, gwf g -> feasible g f ->
  (forall u, edge_of g u Src = None) -> (forall v, edge_of g Snk v = None) ->
  outflow g f Src = inflow g f Snk.
Proof.
  intros g f (N & A & E) F HS HK.
  assert (S1 : Zsum (map (outflow g f) (nodes g)) = Zsum (map (inflow g f) (nodes g))).
  { unfold outflow, inflow. apply (Zsum_swap f). }
  assert (T : inflow g f Src = 0) by (apply Zsum_zero; intros u _; now apply (fe_edges _ _ F)).
  assert (T2 : outflow g f Snk = 0) by (apply Zsum_zero; intros u _; now apply (fe_edges _ _ F)).
  assert (N1 : forall u, ~ In u (nodes g) -> outflow g f u = 0 /\ inflow g f u = 0).
  { intros u Hu. split; apply Zsum_zero; intros v _; apply (fe_edges _ _ F).
    - destruct (edge_of g u v) eqn:Q; [|reflexivity]. destruct (E _ _ _ Q). contradiction.
    - destruct (edge_of g v u) eqn:Q; [|reflexivity]. destruct (E _ _ _ Q). contradiction. }
  assert (D : Zsum (map (fun u => (outflow g f u - inflow g f u)) (nodes g)) = 0).
  { enough (Zsum (map (outflow g f) (nodes g)) = Zsum (map (fun u => outflow g f u - inflow g f u) (nodes g)) + Zsum (map (inflow g f) (nodes g))) by lia.
    rewrite <- Zsum_add. apply Zsum_ext. intros. lia. }
  (* split off Src and Snk *)
  assert (D2 : Zsum (map (fun u => (if geqb u Src then outflow g f u else 0) + (if geqb u Snk then - inflow g f u else 0)) (nodes g)) = 0).
  { etransitivity; [|exact D]. apply Zsum_ext. intros u Hu. destruct (geqb u Src) eqn:G1.
    - apply geqb_eq in G1. subst. rewrite T. cbn. lia.
    - destruct (geqb u Snk) eqn:G2; [apply geqb_eq in G2; subst; rewrite T2; lia|].
      apply geqb_neq in G1, G2. rewrite (fe_cons _ _ F u); auto. lia. }
  rewrite Zsum_add in D2.
  rewrite (Zsum_one (fun u => if geqb u Src then outflow g f u else 0) (nodes g) Src) in D2; auto.
  - rewrite (Zsum_one (fun u => if geqb u Snk then - inflow g f u else 0) (nodes g) Snk) in D2; auto.
    + cbn in D2. lia.
    + intros y _ H. apply geqb_neq in H. now rewrite H.
    + cbn. intros H. destruct (N1 _ H). lia.
  - intros y _ H. apply geqb_neq in H. now rewrite H.
  - cbn. intros H. now destruct (N1 _ H).
Qed.
