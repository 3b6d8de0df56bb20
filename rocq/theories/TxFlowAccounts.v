(** What the built graph looks like around the source, the sink, the accounts and the groups. *)
From Verif Require Import Base BaseFacts TxGraphModel TxFlowFacts TxFlowShape.
From Coq Require Import Permutation Lia ZArith.
Local Open Scope Z_scope.

(** ** merging flow dicts *)
Lemma dvals_set : forall (d : dict gnode Z) k v,
  Zsum (dvals (dset geqb d k v)) = Zsum (dvals d) + v - (match dget geqb d k with Some y => y | None => 0 end).
Proof.
  unfold dvals. induction d as [|[a x] d IH]; intros k v; cbn; [lia|].
  destruct (geqb k a) eqn:E; cbn; [unfold Zsum; lia|]. specialize (IH k v). unfold Zsum in *. lia.
Qed.
Definition step_merge (u : gnode) (m : flowd) (vx : gnode * Z) : flowd :=
  let d := match dget geqb m u with Some d => d | None => [] end in
  let x := match dget geqb d (fst vx) with Some y => (y + snd vx)%Z | None => snd vx end in
  dset geqb m u (dset geqb d (fst vx) x).
Lemma merge_eq : forall first second, merge_flows first second = fold_left (fun m ud => fold_left (step_merge (fst ud)) (snd ud) m) second first.
Proof. reflexivity. Qed.
Lemma step_edge : forall u m v x a b, flow_edge (step_merge u m (v, x)) a b = flow_edge m a b + (if geqb a u && geqb b v then x else 0).
Proof.
  intros u m v x a b. unfold flow_edge, step_merge. cbn [fst snd]. rewrite gget_set. destruct (geqb a u) eqn:E; cbn [andb].
  - apply geqb_eq in E. subst. rewrite gget_set. destruct (geqb b v) eqn:F.
    + apply geqb_eq in F. subst. destruct (dget geqb m u) as [d|]; cbn; [destruct (dget geqb d v); lia|lia].
    + destruct (dget geqb m u) as [d|]; cbn; [destruct (dget geqb d b); lia|lia].
  - destruct (dget geqb m a) as [d|]; [destruct (dget geqb d b)|]; lia.
Qed.
Lemma step_out : forall u m v x a, flow_out (step_merge u m (v, x)) a = flow_out m a + (if geqb a u then x else 0).
Proof.
  intros u m v x a. unfold flow_out, step_merge. cbn [fst snd]. rewrite gget_set. destruct (geqb a u) eqn:E.
  - apply geqb_eq in E. subst. fold (Zsum (dvals (dset geqb (match dget geqb m u with Some d => d | None => [] end) v
      (match dget geqb (match dget geqb m u with Some d => d | None => [] end) v with Some y => y + x | None => x end)))).
    rewrite dvals_set. destruct (dget geqb m u) as [d|]; [|cbn; lia]. unfold Zsum. destruct (dget geqb d v); lia.
  - lia.
Qed.
Lemma inner_edge : forall u d m a b, NoDup (dkeys d) ->
  flow_edge (fold_left (step_merge u) d m) a b = flow_edge m a b + (if geqb a u then match dget geqb d b with Some y => y | None => 0 end else 0).
Proof.
  unfold dkeys. intros u d. induction d as [|[v x] d IH]; intros m a b N; cbn [fold_left].
  - cbn. destruct (geqb a u); lia.
  - inversion N; subst. rewrite IH by auto. rewrite step_edge. cbn [dget]. destruct (geqb a u) eqn:E; cbn [andb]; [|lia].
    destruct (geqb b v) eqn:F; [|lia]. apply geqb_eq in F. subst.
    assert (K : dget geqb d v = None) by (now apply gget_None). rewrite K. lia.
Qed.
Lemma inner_out : forall u d m a, flow_out (fold_left (step_merge u) d m) a = flow_out m a + (if geqb a u then Zsum (dvals d) else 0).
Proof.
  intros u d. induction d as [|[v x] d IH]; intros m a; cbn [fold_left].
  - cbn. destruct (geqb a u); lia.
  - rewrite IH, step_out. destruct (geqb a u); [|lia]. unfold dvals. cbn. unfold Zsum. lia.
Qed.
Lemma flow_absent : forall (s : flowd) u, ~ In u (map fst s) -> (forall b, flow_edge s u b = 0) /\ flow_out s u = 0.
Proof. intros s u H. assert (K : dget geqb s u = None) by (now apply gget_None). unfold flow_edge, flow_out. rewrite K. auto. Qed.
Lemma merge_edge : forall second first a b, NoDup (dkeys second) -> (forall u d, In (u, d) second -> NoDup (dkeys d)) ->
  flow_edge (merge_flows first second) a b = flow_edge first a b + flow_edge second a b.
Proof.
  intros second first a b. rewrite merge_eq. revert first. induction second as [|[u d] s IH]; intros m N I; cbn [fold_left fst snd].
  - unfold flow_edge at 3. cbn. lia.
  - unfold dkeys in N. inversion N as [|k ks Nk Ns]; subst. rewrite IH; [|exact Ns|intros v e H; apply (I v); now right].
    rewrite inner_edge by (apply (I u); now left). unfold flow_edge at 4. cbn [dget fst]. destruct (geqb a u) eqn:E.
    + apply geqb_eq in E. subst. pose proof (proj1 (flow_absent s u Nk) b). lia.
    + unfold flow_edge. lia.
Qed.
Lemma merge_out : forall second first a, NoDup (dkeys second) -> flow_out (merge_flows first second) a = flow_out first a + flow_out second a.
Proof.
  intros second first a. rewrite merge_eq. revert first. induction second as [|[u d] s IH]; intros m N; cbn [fold_left fst snd].
  - unfold flow_out at 3. cbn. lia.
  - unfold dkeys in N. inversion N as [|k ks Nk Ns]; subst. rewrite IH by exact Ns.
    rewrite inner_out. unfold flow_out at 4. cbn [dget fst]. destruct (geqb a u) eqn:E.
    + apply geqb_eq in E. subst. pose proof (proj2 (flow_absent s u Nk)). unfold Zsum. lia.
    + unfold flow_out. lia.
Qed.
Lemma flow_dict_nodup : forall g f, gwf g -> NoDup (dkeys (flow_dict g f)) /\ (forall u d, In (u, d) (flow_dict g f) -> NoDup (dkeys d)).
Proof.
  intros g f (N & A & _). split.
  - unfold flow_dict, dkeys. rewrite map_map. exact N.
  - intros u d H. unfold flow_dict in H. apply in_map_iff in H. destruct H as [[a e] [E I]]. cbn in E. injection E as -> <-.
    unfold dkeys. rewrite map_map. cbn. specialize (A u). unfold adj in A. rewrite (gIn_get g u e N I) in A. exact A.
Qed.

(** ** The shape of the graph *)
Definition capx (P : env) (x : xnum) (m : Z) : option Z :=
  match xsubq (xdivq x (p_prec P)) (fl m) with Fin q => Some (int_of (qabs q - fl 0)%Q) | Inf _ => None end.
Record shape (P : env) (memo : flowd) (limit : lk) (rid : nat) (srccap : option Z) (g : graph) : Prop := {
  sh_wf : gwf g;
  sh_src : forall v e, edge_of g Src v = Some e -> v = TN rid /\ e_cap e = srccap;
  sh_snk : forall v, edge_of g Snk v = None;
  sh_tosrc : forall u, edge_of g u Src = None;
  sh_acc : forall a v e, edge_of g (Acc a) v = Some e -> exists x, p_limit P limit a = Ok x /\
      match p_grp P limit a with
      | Some r => v = Grp r /\ e_cap e = capx P x (flow_out memo (Grp r))
      | None => v = Snk /\ e_cap e = capx P x (flow_out memo (Acc a))
      end;
  sh_grp : forall r v e, edge_of g (Grp r) v = Some e -> v = Snk /\ exists a x, p_grp P limit a = Some r /\ p_limit P limit a = Ok x /\ e_cap e = capx P x (flow_out memo (Grp r));
  sh_tosnk : forall u e, edge_of g u Snk = Some e -> (exists a, u = Acc a) \/ (exists r, u = Grp r);
  sh_togrp : forall u r e, edge_of g u (Grp r) = Some e -> exists a, u = Acc a }.
Definition internal (u v : gnode) : Prop :=
  match u with TN _ | TLim _ | TOvf _ => match v with TN _ | TLim _ | TOvf _ | Acc _ => True | _ => False end | _ => False end.
Ltac edges H := rewrite edge_add in H;
  match type of H with (if geqb ?a ?u && geqb ?b ?v then _ else _) = _ =>
    destruct (geqb a u) eqn:?E1; destruct (geqb b v) eqn:?E2; cbn [andb] in H end;
  repeat match goal with E : geqb _ _ = true |- _ => apply geqb_eq in E | E : geqb _ _ = false |- _ => apply geqb_neq in E end.
Lemma shape_internal : forall P memo limit rid sc g u v c w, internal u v -> shape P memo limit rid sc g -> shape P memo limit rid sc (nx_add_edge g u v c w).
Proof.
  intros P memo limit rid sc g u v c w I S. destruct S as [S1 S2 S3 S4 S5 S6 S7 S8]. constructor.
  - now apply gwf_add.
  - intros x e H. edges H; subst; try contradiction; eauto.
  - intros x. rewrite edge_add. destruct (geqb Snk u) eqn:E; [apply geqb_eq in E; subst; contradiction|apply S3].
  - intros x. rewrite edge_add. destruct (geqb Src v) eqn:E; [apply geqb_eq in E; subst; destruct u; contradiction|rewrite andb_false_r; apply S4].
  - intros a x e H. edges H; subst; try contradiction; eauto.
  - intros r x e H. edges H; subst; try contradiction; eauto.
  - intros x e H. edges H; subst; eauto. destruct u; contradiction.
  - intros x r e H. edges H; subst; eauto. destruct u; contradiction.
Qed.
Lemma capx_write : forall P x m g u v w, (forall e, edge_of g u v = Some e -> e_cap e = capx P x m) ->
  e_cap (upd_edge (edge_of g u v) (capx P x m) w) = capx P x m.
Proof.
  intros P x m g u v w H. unfold upd_edge. cbn. destruct (capx P x m) eqn:E; [reflexivity|].
  destruct (edge_of g u v) as [e|]; [|reflexivity]. rewrite <- E in *. apply H. reflexivity.
Qed.
Lemma add_account_nx : forall P memo limit g a, add_account P memo limit g a =
  match p_limit P limit a with
  | Ok x => match p_grp P limit a with
            | Some r => Ok (nx_add_edge (nx_add_edge g (Acc a) (Grp r) (capx P x (flow_out memo (Grp r))) None) (Grp r) Snk (capx P x (flow_out memo (Grp r))) None)
            | None => Ok (nx_add_edge g (Acc a) Snk (capx P x (flow_out memo (Acc a))) None)
            end
  | Err e => Err e
  end.
Proof.
  intros. unfold add_account. destruct (p_limit P limit a) as [x|]; [|reflexivity]. cbn [bind].
  destruct (p_grp P limit a); unfold add_edge, capx, xsubq, xdivq; destruct x; reflexivity.
Qed.
Lemma shape_account : forall P memo limit rid sc g a g', shape P memo limit rid sc g -> add_account P memo limit g a = Ok g' -> shape P memo limit rid sc g'.
Proof.
  intros P memo limit rid sc g a g' S H. rewrite add_account_nx in H.
  destruct (p_limit P limit a) as [x|] eqn:L; [|discriminate]. destruct S as [S1 S2 S3 S4 S5 S6 S7 S8].
  destruct (p_grp P limit a) as [r|] eqn:Gr; injection H as <-.
  - set (m := flow_out memo (Grp r)). set (g1 := nx_add_edge g (Acc a) (Grp r) (capx P x m) None).
    constructor.
    + now apply gwf_add, gwf_add.
    + intros v e H. edges H; subst; try discriminate; unfold g1 in H; edges H; subst; try discriminate; eauto.
    + intros v. rewrite edge_add. cbn. unfold g1. rewrite edge_add. cbn. apply S3.
    + intros v. rewrite edge_add. rewrite andb_false_r. unfold g1. rewrite edge_add. rewrite andb_false_r. apply S4.
    + intros b v e H. rewrite edge_add in H. cbn [geqb andb] in H. unfold g1 in H. edges H; try (now apply S5).
      injection E1 as ->. subst v. injection H as <-. exists x. split; [exact L|]. rewrite Gr. split; [reflexivity|].
      fold m. apply capx_write. intros e' H. destruct (S5 _ _ _ H) as (y & Y1 & Y2). rewrite Gr in Y2. rewrite L in Y1. injection Y1 as <-. apply Y2.
    + intros r' v e H. edges H.
      * injection E1 as ->. subst v. injection H as <-. split; [reflexivity|].
        destruct (capx P x m) as [c|] eqn:CX.
        -- exists a, x. rewrite Gr, L. split; [reflexivity|]. split; [reflexivity|]. fold m. rewrite CX. reflexivity.
        -- unfold upd_edge. cbn [e_cap]. unfold g1. rewrite edge_add. cbn [geqb andb].
           destruct (edge_of g (Grp r) Snk) as [e'|] eqn:O.
           ++ destruct (S6 _ _ _ O) as [_ O2]. exact O2.
           ++ exists a, x. rewrite Gr, L. split; [reflexivity|]. split; [reflexivity|]. fold m. now rewrite CX.
      * unfold g1 in H. rewrite edge_add in H. cbn [geqb andb] in H. now apply S6.
      * unfold g1 in H. rewrite edge_add in H. cbn [geqb andb] in H. now apply S6.
      * unfold g1 in H. rewrite edge_add in H. cbn [geqb andb] in H. now apply S6.
    + intros u e H. edges H; subst; eauto; unfold g1 in H; rewrite edge_add in H; rewrite andb_false_r in H; eauto.
    + intros u r' e H. rewrite edge_add in H. rewrite andb_false_r in H. unfold g1 in H. edges H; subst; eauto.
  - constructor.
    + now apply gwf_add.
    + intros v e H. edges H; subst; try discriminate; eauto.
    + intros v. rewrite edge_add. cbn. apply S3.
    + intros v. rewrite edge_add. rewrite andb_false_r. apply S4.
    + intros b v e H. edges H; try (now apply S5). injection E1 as ->. subst v. injection H as <-. exists x. split; [exact L|].
      rewrite Gr. split; [reflexivity|]. apply capx_write. intros e' H. destruct (S5 _ _ _ H) as (y & Y1 & Y2). rewrite Gr in Y2. rewrite L in Y1. injection Y1 as <-. apply Y2.
    + intros r' v e H. rewrite edge_add in H. cbn [geqb andb] in H. now apply S6.
    + intros u e H. edges H; subst; eauto.
    + intros u r' e H. rewrite edge_add in H. rewrite andb_false_r in H. eauto.
Qed.
Definition src_cap (P : env) (memo : flowd) (root : tnode) (total : xnum) : option Z :=
  match scaled_total P total with Inf _ => None | Fin q => Some (int_of (qabs q - fl (flow_edge memo Src (TN (t_id root))))%Q) end.
Lemma shape_start : forall P memo limit root total,
  shape P memo limit (t_id root) (src_cap P memo root total) (add_edge memo [] Src (TN (t_id root)) (Some (scaled_total P total)) None).
Proof.
  intros.
  assert (Eq : add_edge memo [] Src (TN (t_id root)) (Some (scaled_total P total)) None = nx_add_edge [] Src (TN (t_id root)) (src_cap P memo root total) None).
  { unfold add_edge, src_cap. destruct (scaled_total P total); reflexivity. }
  rewrite Eq. set (c := src_cap P memo root total).
  assert (E0 : forall u v, edge_of [] u v = None) by reflexivity.
  constructor.
  - apply gwf_add, gwf_nil.
  - intros v e H. edges H; try discriminate. subst. injection H as <-. split; [reflexivity|]. unfold upd_edge. cbn [e_cap]. rewrite E0.
    destruct c; reflexivity.
  - intros v. now rewrite edge_add.
  - intros v. rewrite edge_add. now rewrite andb_false_r.
  - intros a v e H. edges H; discriminate.
  - intros a v e H. edges H; discriminate.
  - intros u e H. rewrite edge_add in H. rewrite andb_false_r in H. discriminate.
  - intros u r e H. rewrite edge_add in H. rewrite andb_false_r in H. discriminate.
Qed.
Lemma embed_nx : forall P memo limit g n c, exists k, fst (embed_limit P memo limit g n c) = nx_add_edge g (TN (t_id n)) (TLim (t_id n)) k None.
Proof. intros. unfold embed_limit. destruct (t_lims n limit); eexists; reflexivity. Qed.
Lemma build_shape : forall P memo limit fuel root total g, (forall l c, In c (p_hash P l) -> In c l) ->
  build_graph P memo limit fuel root total = Ok g -> shape P memo limit (t_id root) (src_cap P memo root total) g.
Proof.
  intros P memo limit fuel root total g Hh H.
  refine (build_graph_pres P memo limit (fun _ => True) (shape P memo limit (t_id root) (src_cap P memo root total)) _ _ _ _ _ _ _ Hh fuel root total g I _ H); auto.
  - intros g0 n c _ S. destruct (embed_nx P memo limit g0 n c) as [k ->]. now apply shape_internal.
  - intros g0 n c k w _ _ _ S. now apply shape_internal.
  - intros g0 n c k _ _ _ S. now apply shape_internal.
  - intros g0 n k w _ _ _ S. now apply shape_internal.
  - intros g0 n a k _ _ S. now apply shape_internal.
  - intros g0 n a g' _ _ S E. eapply shape_account; eauto.
  - apply shape_start.
Qed.

(** ** Flows through accounts and groups *)
Section Flow.
  Variables (P : env) (memo : flowd) (limit : lk) (rid : nat) (sc : option Z) (g : graph) (f : gnode -> gnode -> Z).
  Hypothesis S : shape P memo limit rid sc g.
  Hypothesis F : feasible g f.
  Definition is_acc (u : gnode) : bool := match u with Acc _ => true | _ => false end.
  Definition is_grp (u : gnode) : bool := match u with Grp _ => true | _ => false end.
  Lemma no_edge : forall u v, edge_of g u v = None -> f u v = 0.
  Proof. apply (fe_edges _ _ F). Qed.
  Lemma not_node : forall u v, ~ In u (nodes g) \/ ~ In v (nodes g) -> f u v = 0.
  Proof.
    intros u v H. apply no_edge. destruct (edge_of g u v) eqn:E; [|reflexivity]. destruct (sh_wf _ _ _ _ _ _ S) as (_ & _ & W).
    destruct (W _ _ _ E). tauto.
  Qed.
  Lemma only_edge : forall u v0, (forall v e, edge_of g u v = Some e -> v = v0) -> outflow g f u = f u v0.
  Proof.
    intros u v0 H. unfold outflow. apply Zsum_one.
    - intros y _ N. apply no_edge. destruct (edge_of g u y) eqn:E; [|reflexivity]. exfalso. apply N. eauto.
    - intros N. apply not_node. now right.
    - apply (sh_wf _ _ _ _ _ _ S).
  Qed.
  Definition acc_target (a : nat) : gnode := match p_grp P limit a with Some r => Grp r | None => Snk end.
  Lemma acc_out : forall a, outflow g f (Acc a) = f (Acc a) (acc_target a).
  Proof.
    intros a. apply only_edge. intros v e H. destruct (sh_acc _ _ _ _ _ _ S _ _ _ H) as (x & _ & K). unfold acc_target.
    destruct (p_grp P limit a); tauto.
  Qed.
  Lemma grp_out : forall r, outflow g f (Grp r) = f (Grp r) Snk.
  Proof. intros r. apply only_edge. intros v e H. now destruct (sh_grp _ _ _ _ _ _ S _ _ _ H). Qed.
  Lemma acc_le : forall a x c, p_limit P limit a = Ok x ->
    capx P x (flow_out memo (match p_grp P limit a with Some r => Grp r | None => Acc a end)) = Some c -> 0 <= c -> outflow g f (Acc a) <= c.
  Proof.
    intros a x c L C Hc. rewrite acc_out. destruct (edge_of g (Acc a) (acc_target a)) as [e|] eqn:E; [|now rewrite no_edge].
    destruct (sh_acc _ _ _ _ _ _ S _ _ _ E) as (y & Y & K). rewrite L in Y. injection Y as <-.
    apply (fe_cap _ _ F _ _ e); [exact E|]. destruct (p_grp P limit a); destruct K as [_ ->]; exact C.
  Qed.
  Lemma grp_le : forall r c, (forall a, p_grp P limit a = Some r -> exists x, p_limit P limit a = Ok x /\ capx P x (flow_out memo (Grp r)) = Some c) ->
    0 <= c -> outflow g f (Grp r) <= c.
  Proof.
    intros r c H Hc. rewrite grp_out. destruct (edge_of g (Grp r) Snk) as [e|] eqn:E; [|now rewrite no_edge].
    destruct (sh_grp _ _ _ _ _ _ S _ _ _ E) as (_ & a & x & G1 & L1 & C1). destruct (H a G1) as (y & Y & C). rewrite L1 in Y. injection Y as <-.
    apply (fe_cap _ _ F _ _ e); [exact E|]. congruence.
  Qed.
  Lemma Zsum_filter : forall {A} (p : A -> bool) (h : A -> Z) l, Zsum (map h (filter p l)) = Zsum (map (fun x => if p x then h x else 0) l).
  Proof. intros A p h l. induction l as [|x l IH]; cbn; [reflexivity|]. destruct (p x); unfold Zsum in *; cbn; lia. Qed.
  Lemma grp_cons : forall r, In (Grp r) (nodes g) -> outflow g f (Grp r) = inflow g f (Grp r).
  Proof. intros r H. apply (fe_cons _ _ F); auto; discriminate. Qed.
  Lemma accounts_total : Zsum (map (outflow g f) (filter is_acc (nodes g))) = outflow g f Src.
  Proof.
    rewrite (source_to_sink g f (sh_wf _ _ _ _ _ _ S) F (sh_tosrc _ _ _ _ _ _ S) (sh_snk _ _ _ _ _ _ S)).
    rewrite Zsum_filter.
    assert (ND : NoDup (nodes g)) by apply (sh_wf _ _ _ _ _ _ S).
    rewrite (Zsum_ext (fun u => if is_acc u then outflow g f u else 0)
       (fun u => (if is_acc u then f u Snk else 0) + Zsum (map (fun v => if is_grp v then f u v else 0) (nodes g)))).
    2:{ intros u Hu. destruct (is_acc u) eqn:A.
        - destruct u as [| | | | |a|]; try discriminate. unfold outflow.
          rewrite (Zsum_ext (fun v => f (Acc a) v) (fun v => (if geqb v Snk then f (Acc a) v else 0) + (if is_grp v then f (Acc a) v else 0))).
          2:{ intros v _. destruct (geqb v Snk) eqn:E; [apply geqb_eq in E; subst; cbn; lia|]. destruct (is_grp v) eqn:Gv; [lia|].
              cbn. apply no_edge. destruct (edge_of g (Acc a) v) eqn:Q; [|reflexivity]. destruct (sh_acc _ _ _ _ _ _ S _ _ _ Q) as (x & _ & K).
              apply geqb_neq in E. destruct (p_grp P limit a); destruct K as [-> _]; [discriminate|contradiction]. }
          rewrite Zsum_add. f_equal. rewrite (Zsum_one _ _ Snk); [reflexivity| | |exact ND].
          + intros y _ N. apply geqb_neq in N. now rewrite N.
          + intros N. cbn. apply not_node. now right.
        - rewrite Zsum_zero; [lia|]. intros v _. destruct v; cbn; try reflexivity. apply no_edge.
          destruct (edge_of g u (Grp g0)) eqn:Q; [|reflexivity]. destruct (sh_togrp _ _ _ _ _ _ S _ _ _ Q) as [a ->]. discriminate. }
    rewrite Zsum_add. rewrite (Zsum_swap (fun u v => if is_grp v then f u v else 0)).
    rewrite (Zsum_ext (fun v => Zsum (map (fun u => if is_grp v then f u v else 0) (nodes g))) (fun v => if is_grp v then f v Snk else 0)).
    2:{ intros v Hv. destruct v as [| | | | | |r]; cbn [is_grp]; try (now apply Zsum_zero).
        change (inflow g f (Grp r) = f (Grp r) Snk). rewrite <- grp_cons by exact Hv. apply grp_out. }
    rewrite <- Zsum_add. unfold inflow. apply Zsum_ext. intros u Hu.
    destruct u; cbn; try lia; symmetry; apply no_edge;
      match goal with |- edge_of g ?u Snk = None => destruct (edge_of g u Snk) eqn:Q; [|reflexivity];
        destruct (sh_tosnk _ _ _ _ _ _ S _ _ Q) as [[? K]|[? K]]; discriminate end.
  Qed.
  Lemma Zsum_incl_le : forall (h : gnode -> Z) l m, NoDup l -> (forall x, In x m -> 0 <= h x) -> (forall x, In x l -> ~ In x m -> h x = 0) ->
    Zsum (map h l) <= Zsum (map h m).
  Proof.
    intros h l. induction l as [|x l IH]; intros m D Pm Z.
    - cbn. now apply Zsum_pos.
    - inversion D as [|y ys Nx Dl]; subst. change (h x + Zsum (map h l) <= Zsum (map h m)).
      destruct (in_dec gnode_dec x m) as [I|I].
      + apply in_split in I. destruct I as (m1 & m2 & ->).
        assert (Pe : Permutation (m1 ++ x :: m2) (x :: m1 ++ m2)) by (symmetry; apply Permutation_middle).
        rewrite (Zsum_perm _ _ (Permutation_map h Pe)). cbn [map]. change (Zsum (h x :: map h (m1 ++ m2))) with (h x + Zsum (map h (m1 ++ m2))).
        enough (Zsum (map h l) <= Zsum (map h (m1 ++ m2))) by lia. apply IH; [exact Dl| |].
        * intros z Hz. apply Pm. apply in_or_app. apply in_app_or in Hz. cbn. intuition.
        * intros z Hz Nz. apply Z; [now right|]. intros Q. apply (Permutation_in _ Pe) in Q. destruct Q as [->|Q]; contradiction.
      + rewrite (Z x (or_introl eq_refl) I). specialize (IH m Dl Pm ltac:(intros; apply Z; auto; now right)). lia.
  Qed.
  Lemma out_pos : forall u, 0 <= outflow g f u.
  Proof. intros u. apply Zsum_pos. intros v _. apply (fe_pos _ _ F). Qed.
  Lemma out_not_node : forall u, ~ In u (nodes g) -> outflow g f u = 0.
  Proof. intros u H. apply Zsum_zero. intros v _. apply not_node. now left. Qed.
  Lemma some_accounts_le : forall l, NoDup l -> Zsum (map (fun a => outflow g f (Acc a)) l) <= outflow g f Src.
  Proof.
    intros l D. rewrite <- accounts_total. rewrite <- (map_map Acc (outflow g f)). apply Zsum_incl_le.
    - apply FinFun.Injective_map_NoDup; [intros a b E; congruence|exact D].
    - intros x _. apply out_pos.
    - intros x Hx N. apply in_map_iff in Hx. destruct Hx as [a [<- _]]. apply out_not_node. intros K. apply N. apply filter_In. auto.
  Qed.
  Lemma group_accounts_le : forall r l, NoDup l -> (forall a, In a l -> p_grp P limit a = Some r) ->
    Zsum (map (fun a => outflow g f (Acc a)) l) <= outflow g f (Grp r).
  Proof.
    intros r l D H. destruct (in_dec gnode_dec (Grp r) (nodes g)) as [I|I].
    - rewrite grp_cons by exact I. unfold inflow. rewrite (Zsum_ext _ (fun a => f (Acc a) (Grp r))).
      2:{ intros a Ha. rewrite acc_out. unfold acc_target. now rewrite (H a Ha). }
      rewrite <- (map_map Acc (fun u => f u (Grp r))). apply Zsum_incl_le.
      + apply FinFun.Injective_map_NoDup; [intros a b E; congruence|exact D].
      + intros x _. apply (fe_pos _ _ F).
      + intros x _ N. apply not_node. now left.
    - rewrite Zsum_zero; [apply out_pos|]. intros a Ha. rewrite acc_out. unfold acc_target. rewrite (H a Ha). apply not_node. now right.
  Qed.
  Lemma src_out : outflow g f Src = f Src (TN rid).
  Proof. apply only_edge. intros v e H. now destruct (sh_src _ _ _ _ _ _ S _ _ H). Qed.
  Lemma src_le : forall c, sc = Some c -> 0 <= c -> outflow g f Src <= c.
  Proof.
    intros c C Hc. rewrite src_out. destruct (edge_of g Src (TN rid)) as [e|] eqn:E; [|now rewrite no_edge].
    apply (fe_cap _ _ F _ _ e); [exact E|]. destruct (sh_src _ _ _ _ _ _ S _ _ E). congruence.
  Qed.
End Flow.
