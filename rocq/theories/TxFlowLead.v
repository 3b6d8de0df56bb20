(** Leading items of a priority list: the paths to their accounts and what they cost compared with
    the items listed after them. *)
From Verif Require Import Base BaseFacts TxGraphModel TxFlowFacts TxFlowShape TxFlowAccounts TxFlowZero TxFlowNode Prop_TxGraph Prop_TxOrder.
From Coq Require Import Permutation Lia ZArith Lqa.
Local Open Scope Z_scope.

(** ** Paths *)
Fixpoint chain (u : gnode) (es : list (gnode * gnode)) (v : gnode) : Prop :=
  match es with [] => u = v | (x, y) :: r => x = u /\ chain y r v end.
Lemma chain_snoc : forall es u v w, chain u es v -> chain u (es ++ [(v, w)]) w.
Proof. induction es as [|[x y] es IH]; intros u v w H; cbn in *; [now subst|]. destruct H as [-> H]. split; [reflexivity|now apply IH]. Qed.
Lemma chain_app : forall es es' u v w, chain u es v -> chain v es' w -> chain u (es ++ es') w.
Proof. induction es as [|[x y] es IH]; intros es' u v w H K; cbn in *; [now subst|]. destruct H as [-> H]. split; [reflexivity|]. eapply IH; eauto. Qed.
Definition positive (f : gnode -> gnode -> Z) (es : list (gnode * gnode)) : Prop := forall x y, In (x, y) es -> 0 < f x y.
(** money that enters a node and cannot come back to where it came from reaches the sink *)
Lemma reach_sink : forall g f u0 v0, gwf g -> feasible g f -> (forall u, edge_of g u Src = None) -> 0 < f u0 v0 ->
  (forall es, chain v0 es u0 -> positive f es -> False) ->
  exists es, chain v0 es Snk /\ NoDup (v0 :: map snd es) /\ positive f es.
Proof.
  intros g f u0 v0 (ND & _ & We) F NS P0 Back.
  assert (Ed : forall u v, 0 < f u v -> exists e, edge_of g u v = Some e).
  { intros u v H. destruct (edge_of g u v) as [e|] eqn:E; [eauto|]. rewrite (fe_edges _ _ F _ _ E) in H. lia. }
  assert (N0 : In u0 (nodes g) /\ In v0 (nodes g)) by (destruct (Ed _ _ P0) as [e E]; eapply We; eauto).
  set (reached := fun S => forall w, In w S -> exists es, chain v0 es w /\ NoDup (v0 :: map snd es) /\ incl (v0 :: map snd es) S /\ positive f es).
  set (D := fun S x => existsb (geqb x) S).
  assert (DD : forall S x, D S x = true <-> In x S).
  { intros S x. unfold D. rewrite existsb_exists. split; [intros (y & Hy & E); apply geqb_eq in E; now subst|intros H; exists x; split; [exact H|apply geqb_refl]]. }
  assert (DN : forall S x, D S x = false <-> ~ In x S) by (intros S x; rewrite <- DD; destruct (D S x); split; congruence).
  assert (HS : forall S, reached S -> ~ In Src S).
  { intros S Rch Hs. destruct (Rch _ Hs) as (es & H1 & _ & _ & H4).
    destruct es as [|p es0 _] using rev_ind; [cbn in H1; subst v0; destruct (Ed _ _ P0) as [e E]; rewrite NS in E; discriminate|].
    assert (K : forall l u, chain u (l ++ [p]) Src -> snd p = Src) by (clear; induction l as [|[x y] l IH]; intros u H; [destruct p as [a b]; cbn in *; tauto|cbn in H; eapply IH; apply H]).
    specialize (K _ _ H1). destruct p as [a b]. cbn in K. subst b.
    assert (Q : 0 < f a Src) by (apply H4, in_or_app; right; now left). destruct (Ed _ _ Q) as [e E]. rewrite NS in E. discriminate. }
  assert (Closed : forall S, reached S -> In v0 S -> ~ In Snk S -> (forall u w, In u S -> In w (nodes g) -> ~ In w S -> f u w <= 0) -> False).
  { intros S Rch I0 Is Cl.
    assert (U0 : ~ In u0 S) by (intros Hu; destruct (Rch _ Hu) as (es & H1 & _ & _ & H4); eapply Back; eauto).
    pose proof (cut g f (D S) F (proj2 (DN S Src) (HS S Rch)) (proj2 (DN S Snk) Is)) as Eq.
    assert (L0 : leaving g f (D S) = 0).
    { unfold leaving. apply Zsum_zero. intros u Hu. apply Zsum_zero. intros v Hv. destruct (D S u && negb (D S v)) eqn:B; [|reflexivity].
      apply andb_true_iff in B. destruct B as [B1 B2]. apply DD in B1. apply negb_true_iff, DN in B2. pose proof (fe_pos _ _ F u v). specialize (Cl u v B1 Hv B2). lia. }
    assert (One : forall (h : gnode -> Z) l x, In x l -> (forall y, 0 <= h y) -> h x <= Zsum (map h l)).
    { clear. intros h l x I H. induction l as [|y l IH]; [destruct I|]. change (h x <= h y + Zsum (map h l)).
      destruct I as [->|I]; [pose proof (Zsum_pos h l (fun z _ => H z)); lia|]. specialize (IH I). specialize (H y). lia. }
    assert (E0 : f u0 v0 <= entering g f (D S)).
    { unfold entering. eapply Z.le_trans; [|apply (One (fun u => Zsum (map (fun v => if negb (D S u) && D S v then f u v else 0) (nodes g))) _ u0 (proj1 N0))].
      - eapply Z.le_trans; [|apply (One (fun v => if negb (D S u0) && D S v then f u0 v else 0) _ v0 (proj2 N0))].
        + rewrite (proj2 (DN S u0) U0), (proj2 (DD S v0) I0). cbn [negb andb]. lia.
        + intros y. destruct (_ && _); [apply (fe_pos _ _ F)|lia].
      - intros y. apply Zsum_pos. intros v _. destruct (_ && _); [apply (fe_pos _ _ F)|lia]. }
    lia. }
  assert (Grow : forall k S, (Datatypes.length (nodes g) - Datatypes.length S <= k)%nat -> NoDup S -> incl S (nodes g) -> In v0 S -> reached S ->
     exists es, chain v0 es Snk /\ NoDup (v0 :: map snd es) /\ positive f es).
  { induction k as [|k IH]; intros S Lk NDS Inc I0 Rch;
      (destruct (in_dec gnode_dec Snk S) as [Is|Is]; [destruct (Rch _ Is) as (es & H1 & H2 & _ & H4); eauto|]);
      destruct (existsb (fun u => existsb (fun w => negb (D S w) && (0 <? f u w)) (nodes g)) S) eqn:Ex;
      try (exfalso; apply (Closed S Rch I0 Is); intros u w Hu Hw Nw; destruct (Z_lt_le_dec 0 (f u w)) as [Lt|Le]; [|exact Le]; exfalso;
           assert (Q : existsb (fun u => existsb (fun w => negb (D S w) && (0 <? f u w)) (nodes g)) S = true);
           [apply existsb_exists; exists u; split; [exact Hu|]; apply existsb_exists; exists w; split; [exact Hw|]; rewrite (proj2 (DN S w) Nw); cbn [negb andb]; now apply Z.ltb_lt|congruence]);
      (apply existsb_exists in Ex; destruct Ex as (u & Hu & Ex); apply existsb_exists in Ex; destruct Ex as (w & Hw & Ex);
       apply andb_true_iff in Ex; destruct Ex as [E1 E2]; apply negb_true_iff, DN in E1; apply Z.ltb_lt in E2;
       assert (LL : (Datatypes.length (w :: S) <= Datatypes.length (nodes g))%nat) by (apply NoDup_incl_length; [now constructor|intros x [<-|Hx]; auto]); cbn in LL).
    - exfalso. lia.
    - apply (IH (w :: S)).
      + cbn. lia.
      + now constructor.
      + intros x [<-|Hx]; auto.
      + now right.
      + intros x [<-|Hx].
        * destruct (Rch u Hu) as (es & H1 & H2 & H3 & H4). exists (es ++ [(u, w)]). split; [now apply chain_snoc|]. rewrite map_app. cbn [map snd].
          split; [|split].
          -- apply (Permutation_NoDup (l := w :: v0 :: map snd es)); [|constructor; [intros Q; apply E1, H3, Q|exact H2]].
             change (v0 :: map snd es ++ [w]) with ((v0 :: map snd es) ++ [w]). apply Permutation_cons_append.
          -- intros y [<-|Hy]; [now right|]. apply in_app_or in Hy. destruct Hy as [Hy|[<-|[]]]; [right; apply H3; now right|now left].
          -- intros a b Hab. apply in_app_or in Hab. destruct Hab as [Hab|[E|[]]]; [now apply H4|]. injection E as <- <-. exact E2.
        * destruct (Rch x Hx) as (es & H1 & H2 & H3 & H4). exists es. split; [exact H1|]. split; [exact H2|]. split; [|exact H4]. intros y Hy. right. now apply H3. }
  apply (Grow (Datatypes.length (nodes g)) [v0]); [lia|constructor; [intros []|constructor]|intros x [<-|[]]; apply N0|now left|].
  intros w [<-|[]]. exists []. split; [reflexivity|]. split; [constructor; [intros []|constructor]|]. split; [intros x Hx; exact Hx|intros x y []].
Qed.

(** ** Weights *)
Record winv (root : tnode) (g : graph) : Prop := {
  w_pos : nonneg g;
  w_none : forall u v e, edge_of g u v = Some e -> match u with TLim _ => match v with Acc _ => True | _ => False end | _ => True end -> e_w e = None;
  w_ovf : forall i v e, edge_of g (TOvf i) v = Some e -> exists n, In n (tree_nodes root) /\ t_id n = i /\ is_weighted n = true }.
Lemma winv_write : forall root g u v c w, wpos w ->
  (match u with TLim _ => match v with Acc _ => True | _ => False end | _ => True end -> w = None) ->
  (forall i, u = TOvf i -> exists n, In n (tree_nodes root) /\ t_id n = i /\ is_weighted n = true) ->
  winv root g -> winv root (nx_add_edge g u v c w).
Proof.
  intros root g u v c w Hw Hn Ho [[W N] W2 W3]. constructor.
  - split; [now apply gwf_add|]. intros a b e z H E. edges H; try (now eapply N; eauto). subst. injection H as <-. unfold upd_edge in E. cbn [e_w] in E.
    destruct w as [x|]; [injection E as <-; exact Hw|]. destruct (edge_of g u v) as [e0|] eqn:E0; cbn in E; [|discriminate]. eapply N; eauto.
  - intros a b e H K. edges H; try (now eapply W2; eauto). subst. injection H as <-. unfold upd_edge. cbn [e_w]. rewrite (Hn K).
    destruct (edge_of g u v) as [e0|] eqn:E0; [|reflexivity]. eapply W2; eauto.
  - intros i b e H. edges H; try (now eapply W3; eauto). subst. eauto.
Qed.
Lemma winv_account : forall P memo limit root g a g', winv root g -> add_account P memo limit g a = Ok g' -> winv root g'.
Proof.
  intros P memo limit root g a g' W H. rewrite add_account_nx in H. destruct (p_limit P limit a); [|discriminate].
  destruct (p_grp P limit a); injection H as <-; repeat (apply winv_write; [exact I|reflexivity|discriminate|]); exact W.
Qed.
Definition in_tree (root n : tnode) : Prop := In n (tree_nodes root).
Lemma in_tree_child : forall root n c, in_tree root n -> is_child n c -> in_tree root c.
Proof. intros root n c N C. apply child_kids in C. eapply tree_child; eauto. Qed.
Lemma winv_succ : forall P memo limit root fuel,
  (forall g n cap sub ov g', in_tree root n -> (forall l, sub = Some l -> sub_ok n l) -> winv root g -> add_successors P memo limit fuel g n cap sub ov = Ok g' -> winv root g').
Proof.
  intros P memo limit root fuel. apply (proj1 (build_pres P memo limit (in_tree root) (winv root) (in_tree_child root)
    ltac:(intros g n c N W; destruct (embed_nx P memo limit g n c) as [k ->]; apply winv_write; [exact I|reflexivity|discriminate|exact W])
    ltac:(intros g n c k w N C K W; apply winv_write; [apply K; intros g0 W0; apply (w_pos _ _ W0)|intros []|discriminate|exact W])
    ltac:(intros g n c k N H C W; apply winv_write; [exact I|reflexivity|intros i E; injection E as <-; exists n; auto|exact W])
    ltac:(intros g n k w N H K W; apply winv_write; [apply K; intros g0 W0; apply (w_pos _ _ W0)|intros []|discriminate|exact W])
    ltac:(intros g n a k N B W; apply winv_write; [exact I|reflexivity|discriminate|exact W])
    ltac:(intros g n a g' N B W E; eapply winv_account; eauto) fuel)).
Qed.
Lemma winv_build : forall P memo limit fuel root total g, (forall l c, In c (p_hash P l) -> In c l) ->
  build_graph P memo limit fuel root total = Ok g -> winv root g.
Proof.
  intros P memo limit fuel root total g Hh H.
  refine (build_graph_pres P memo limit (in_tree root) (winv root) (in_tree_child root)
    ltac:(intros g0 n c N W; destruct (embed_nx P memo limit g0 n c) as [k ->]; apply winv_write; [exact I|reflexivity|discriminate|exact W])
    ltac:(intros g0 n c k w N C K W; apply winv_write; [apply K; intros g1 W0; apply (w_pos _ _ W0)|intros []|discriminate|exact W])
    ltac:(intros g0 n c k N H0 C W; apply winv_write; [exact I|reflexivity|intros i E; injection E as <-; exists n; auto|exact W])
    ltac:(intros g0 n k w N H0 K W; apply winv_write; [apply K; intros g1 W0; apply (w_pos _ _ W0)|intros []|discriminate|exact W])
    ltac:(intros g0 n a k N B W; apply winv_write; [exact I|reflexivity|discriminate|exact W])
    ltac:(intros g0 n a g' N B W E; eapply winv_account; eauto) Hh fuel root total g (tree_self root) _ H).
  rewrite add_edge_nx. apply winv_write; [exact I|reflexivity|discriminate|]. constructor; [split; [apply gwf_nil|]| |]; intros; discriminate.
Qed.
Definition edge_weight (g : graph) (e : gnode * gnode) : Z := weight g (fst e) (snd e).
Definition path_cost (g : graph) (es : list (gnode * gnode)) : Z := Zsum (map (edge_weight g) es).
Lemma weight_pos : forall g u v, nonneg g -> 0 <= weight g u v.
Proof. intros g u v [_ N]. unfold weight. destruct (edge_of g u v) as [[k [z|]]|] eqn:E; try lia. eapply N; [exact E|reflexivity]. Qed.
(** the sum of all weights below a node is at least the cost of any path from it *)
Lemma path_le_sum : forall es g u v f s, nonneg g -> chain u es v -> (forall x y, In (x, y) es -> exists e, edge_of g x y = Some e) ->
  sum_weight f g u = Ok s -> path_cost g es <= s.
Proof.
  induction es as [|[x y] es IH]; intros g u v f s N Ch Ex H; [apply sum_weight_pos in H; [exact H|exact N]|].
  destruct Ch as [-> Ch]. destruct f as [|f]; [discriminate|]. rewrite sum_weight_S in H.
  destruct (Ex u y (or_introl eq_refl)) as [e E]. assert (I : In (y, e) (adj g u)) by (unfold edge_of in E; clear -E; induction (adj g u) as [|[a b] l IHl]; [discriminate|]; cbn in E; destruct (geqb y a) eqn:Q; [apply geqb_eq in Q; left; congruence|right; auto]).
  assert (WE : edge_weight g (u, y) = match e_w e with Some z => z | None => 0 end) by (unfold edge_weight, weight; cbn [fst snd]; rewrite E; destruct e as [k [z|]]; reflexivity).
  assert (K : forall l s, (forall v e, In (v, e) l -> 0 <= match e_w e with Some x => x | None => 0 end) -> In (y, e) l -> (fix go l := match l with
                   | [] => Ok 0%Z
                   | (v, e) :: r => let* s := sum_weight f g v in let* t := go r in
                                    Ok ((match e_w e with Some x => x | None => 0 end) + s + t)%Z
                   end) l = Ok s -> exists t, sum_weight f g y = Ok t /\ (match e_w e with Some z => z | None => 0 end) + t <= s).
  { clear -N. induction l as [|[a b] l IHl]; intros s Pos I H; [destruct I|].
    destruct (sum_weight f g a) as [p|] eqn:SP; [|discriminate]. cbn [bind] in H.
    match type of H with bind ?X _ = _ => destruct X as [q|] eqn:SQ; [|discriminate] end. cbn [bind] in H. injection H as <-.
    destruct I as [Q|I].
    - injection Q as -> ->. exists p. split; [exact SP|].
      assert (0 <= q); [|lia]. clear -N SQ Pos. assert (Pos' : forall v e0, In (v, e0) l -> 0 <= match e_w e0 with Some x => x | None => 0 end) by (intros v e0 H0; apply (Pos v e0); now right). clear Pos.
      revert q SQ. induction l as [|[c d] l IHl]; intros q H; [injection H as <-; lia|].
      destruct (sum_weight f g c) as [p|] eqn:SP; [|discriminate]. cbn [bind] in H.
      match type of H with bind ?X _ = _ => destruct X as [q'|] eqn:SQ; [|discriminate] end. cbn [bind] in H. injection H as <-.
      pose proof (sum_weight_pos _ _ _ _ N SP). pose proof (Pos' c d (or_introl eq_refl)). assert (0 <= q') by (apply IHl; [intros; eapply Pos'; right; eauto|reflexivity]). lia.
    - destruct (IHl q (fun v e0 H0 => Pos v e0 (or_intror H0)) I eq_refl) as (t & T1 & T2). exists t. split; [exact T1|].
      pose proof (sum_weight_pos _ _ _ _ N SP). pose proof (Pos a b (or_introl eq_refl)). lia. }
  destruct (K (adj g u) s) as (t & T1 & T2); [|exact I|exact H|].
  { intros v0 e0 I0. destruct (e_w e0) as [z|] eqn:Z; [|lia]. destruct N as [W N]. eapply N; [eapply adj_edge; eauto|exact Z]. }
  assert (path_cost g es <= t) by (eapply IH; [exact N|exact Ch|intros a b H0; apply Ex; now right|exact T1]).
  change (path_cost g ((u, y) :: es)) with (edge_weight g (u, y) + path_cost g es). lia.
Qed.

(** ** What a call leaves alone *)
(** edges from nodes other than the given ones, and edges into nodes other than the given ones *)
Definition kept (own : nat -> Prop) (g g' : graph) : Prop :=
  (forall u v, match u with TN i | TLim i | TOvf i => ~ own i | Acc _ | Grp _ => False | _ => True end \/ match v with TN i => ~ own i | _ => False end -> edge_of g' u v = edge_of g u v) /\
  (forall u v, edge_of g u v <> None -> edge_of g' u v <> None).
Lemma kept_refl : forall own g, kept own g g.
Proof. intros own g. split; auto. Qed.
Lemma kept_write : forall own g g' u v c w, match u with TN i | TLim i | TOvf i => own i | Acc _ | Grp _ => True | _ => False end ->
  match v with TN i => own i | _ => True end -> kept own g g' -> kept own g (nx_add_edge g' u v c w).
Proof.
  intros own g g' u v c w Hu Hv [K1 K2]. split.
  - intros a b H. rewrite edge_add. destruct (geqb a u && geqb b v) eqn:E; [|now apply K1]. exfalso. apply andb_true_iff in E. destruct E as [E1 E2].
    apply geqb_eq in E1, E2. subst. destruct H as [H|H]; [destruct u; tauto|destruct v; tauto].
  - intros a b H. rewrite edge_add. destruct (_ && _); [discriminate|]. now apply K2.
Qed.
Lemma kept_account : forall P memo limit own g g1 a g', kept own g g1 -> add_account P memo limit g1 a = Ok g' -> kept own g g'.
Proof.
  intros P memo limit own g g1 a g' K H. rewrite add_account_nx in H. destruct (p_limit P limit a); [|discriminate].
  destruct (p_grp P limit a); injection H as <-; repeat (apply kept_write; [exact I|exact I|]); exact K.
Qed.
Section Kept.
  Variables (P : env) (memo : flowd) (limit : lk) (own : nat -> Prop) (G : tnode -> Prop) (g0 : graph).
  Hypothesis Gc : forall n c, G n -> is_child n c -> G c.
  Hypothesis Go : forall n, G n -> own (t_id n).
  Lemma kept_succ : forall fuel g n cap sub ov g', G n -> (forall l, sub = Some l -> sub_ok n l) -> kept own g0 g -> add_successors P memo limit fuel g n cap sub ov = Ok g' -> kept own g0 g'.
  Proof.
    intros fuel. apply (proj1 (build_pres P memo limit G (kept own g0) Gc
      ltac:(intros g n c N W; destruct (embed_nx P memo limit g n c) as [k ->]; apply kept_write; [now apply Go|exact I|exact W])
      ltac:(intros g n c k w N C _ W; apply kept_write; [now apply Go|apply Go; eapply Gc; eauto|exact W])
      ltac:(intros g n c k N H C W; apply kept_write; [now apply Go|apply Go; eapply Gc; eauto|exact W])
      ltac:(intros g n k w N H _ W; apply kept_write; [now apply Go|exact I|exact W])
      ltac:(intros g n a k N B W; apply kept_write; [now apply Go|exact I|exact W])
      ltac:(intros g n a g' N B W E; eapply kept_account; eauto) fuel)).
  Qed.
  Hypothesis Hash : forall l c, In c (p_hash P l) -> In c l.
  Lemma kept_fold : forall fuel ws g g', (forall n, In n ws -> G n) -> kept own g0 g -> balance_fold P memo limit fuel ws (Ok g) = Ok g' -> kept own g0 g'.
  Proof.
    apply (balance_fold_pres P memo limit G (kept own g0) Gc
      ltac:(intros g n c N W; destruct (embed_nx P memo limit g n c) as [k ->]; apply kept_write; [now apply Go|exact I|exact W])
      ltac:(intros g n c k w N C _ W; apply kept_write; [now apply Go|apply Go; eapply Gc; eauto|exact W])
      ltac:(intros g n c k N H C W; apply kept_write; [now apply Go|apply Go; eapply Gc; eauto|exact W])
      ltac:(intros g n k w N H _ W; apply kept_write; [now apply Go|exact I|exact W])
      ltac:(intros g n a k N B W; apply kept_write; [now apply Go|exact I|exact W])
      ltac:(intros g n a g' N B W E; eapply kept_account; eauto) Hash).
  Qed.
End Kept.

(** ** The path to an account below an item made of lists *)
(** an account, or a list of such items, none with limits of its own *)
Definition list_item (n : tnode) : Prop := forall x, In x (tree_nodes n) ->
  (forall k, t_lims x k = None) /\ ((exists a, t_body x = TLeaf a) \/ (exists l, t_body x = TOrd l)).
(** the account occurs somewhere below the node *)
Definition acct_below (n : tnode) (a : nat) : Prop := exists x, In x (tree_nodes n) /\ body_src (t_body x) = TLeaf a.
Inductive path_to (g : graph) (C : Z) : tnode -> nat -> list (gnode * gnode) -> Prop :=
| path_leaf : forall n a e1 e2, t_body n = TLeaf a ->
    edge_of g (TN (t_id n)) (TLim (t_id n)) = Some e1 -> e_cap e1 = None ->
    edge_of g (TLim (t_id n)) (Acc a) = Some e2 -> e_cap e2 = Some C ->
    path_to g C n a [(TN (t_id n), TLim (t_id n)); (TLim (t_id n), Acc a)]
| path_list : forall n l c a es e1 e2, t_body n = TOrd l -> In c l ->
    edge_of g (TN (t_id n)) (TLim (t_id n)) = Some e1 -> e_cap e1 = None ->
    edge_of g (TLim (t_id n)) (TN (t_id c)) = Some e2 -> e_cap e2 = Some C -> path_to g C c a es ->
    path_to g C n a ((TN (t_id n), TLim (t_id n)) :: (TLim (t_id n), TN (t_id c)) :: es).
Lemma kids_ord : forall n l, t_body n = TOrd l -> kids n = l.
Proof. intros n l H. unfold kids. now rewrite H. Qed.
Lemma path_sources : forall g C n a es, path_to g C n a es -> forall x y, In (x, y) es -> exists m, In m (tree_nodes n) /\ (x = TN (t_id m) \/ x = TLim (t_id m)).
Proof.
  intros g C n a es H. induction H as [n a e1 e2 B|n l c a es e1 e2 B Ic E1 C1 E2 C2 Pt IH]; intros x y I.
  - exists n. split; [apply tree_self|]. destruct I as [I|[I|[]]]; injection I as <- <-; auto.
  - destruct I as [I|[I|I]]; [injection I as <- <-; exists n; split; [apply tree_self|auto]|injection I as <- <-; exists n; split; [apply tree_self|auto]|].
    destruct (IH x y I) as (m & M1 & M2). exists m. split; [|exact M2]. eapply tree_trans; [|exact M1]. eapply tree_child; [apply tree_self|]. now rewrite (kids_ord n l B).
Qed.
Lemma path_kept : forall own g g' C n a es, kept own g g' -> (forall m, In m (tree_nodes n) -> ~ own (t_id m)) -> path_to g C n a es -> path_to g' C n a es.
Proof.
  intros own g g' C n a es [K _] No H. induction H as [n a e1 e2 B E1 C1 E2 C2|n l c a es e1 e2 B Ic E1 C1 E2 C2 Pt IH].
  - pose proof (No n (tree_self n)) as Nn. eapply path_leaf; eauto; rewrite K; eauto.
  - pose proof (No n (tree_self n)) as Nn. eapply path_list; eauto; try (rewrite K; now eauto). apply IH. intros m M. apply No.
    eapply tree_trans; [|exact M]. eapply tree_child; [apply tree_self|]. now rewrite (kids_ord n l B).
Qed.
Lemma path_chain : forall g C n a es, path_to g C n a es -> chain (TN (t_id n)) es (Acc a).
Proof. intros g C n a es H. induction H; cbn; auto. Qed.
Lemma path_edges : forall g C n a es, path_to g C n a es -> forall x y, In (x, y) es -> exists e, edge_of g x y = Some e.
Proof.
  intros g C n a es H. induction H as [n a e1 e2 B E1 C1 E2 C2|n l c a es e1 e2 B Ic E1 C1 E2 C2 Pt IH]; intros x y I.
  - destruct I as [I|[I|[]]]; injection I as <- <-; eauto.
  - destruct I as [I|[I|I]]; [injection I as <- <-; eauto|injection I as <- <-; eauto|eauto].
Qed.
Lemma path_caps : forall g C n a es, path_to g C n a es -> forall x y e k, In (x, y) es -> edge_of g x y = Some e -> e_cap e = Some k -> k = C.
Proof.
  intros g C n a es H. induction H as [n a e1 e2 B E1 C1 E2 C2|n l c a es e1 e2 B Ic E1 C1 E2 C2 Pt IH]; intros x y e k I E K.
  - destruct I as [I|[I|[]]]; injection I as <- <-; congruence.
  - destruct I as [I|[I|I]]; [injection I as <- <-; congruence|injection I as <- <-; congruence|eauto].
Qed.
Lemma path_nodup : forall g C n a es, path_to g C n a es -> distinct_nodes n -> NoDup es.
Proof.
  intros g C n a es H. induction H as [n a e1 e2 B E1 C1 E2 C2|n l c a es e1 e2 B Ic E1 C1 E2 C2 Pt IH]; intros D.
  - constructor; [intros [Q|[]]; congruence|]. constructor; [intros []|constructor].
  - assert (Kc : In c (kids n)) by (now rewrite (kids_ord n l B)).
    assert (X : forall x y, In (x, y) es -> x <> TN (t_id n) /\ x <> TLim (t_id n)).
    { intros x y I. destruct (path_sources _ _ _ _ _ Pt x y I) as (m & M1 & M2). pose proof (distinct_not_self n c m D Kc M1) as N. destruct M2 as [-> | ->]; split; congruence. }
    constructor; [|constructor].
    + intros [Q|Q]; [congruence|]. now apply (proj1 (X _ _ Q)).
    + intros Q. now apply (proj2 (X _ _ Q)).
    + apply IH. eapply distinct_kid; eauto.
Qed.

Lemma path_leaf_inv : forall g C n a es b, t_body n = TLeaf b -> path_to g C n a es ->
  exists e1 e2, es = [(TN (t_id n), TLim (t_id n)); (TLim (t_id n), Acc a)] /\ edge_of g (TN (t_id n)) (TLim (t_id n)) = Some e1 /\ edge_of g (TLim (t_id n)) (Acc a) = Some e2.
Proof. intros g C n a es b B H. destruct H as [n a e1 e2 Bn F1 F2 F3 F4|n l0 c0 a es0 e1 e2 Bn]; [eauto|congruence]. Qed.

(** ** Building the paths *)
Definition ids (l : list tnode) (i : nat) : Prop := In i (map t_id (flat_map tree_nodes l)).
Lemma ids_cons : forall c l i, ids (c :: l) i <-> In i (map t_id (tree_nodes c)) \/ ids l i.
Proof. intros c l i. unfold ids. cbn [flat_map]. rewrite map_app, in_app_iff. reflexivity. Qed.
(** nothing has been built below the node yet *)
Definition unbuilt (g : graph) (n : tnode) : Prop := forall x, In x (tree_nodes n) ->
  (forall v, edge_of g (TN (t_id x)) v = None) /\ (forall v, edge_of g (TLim (t_id x)) v = None) /\ (forall u, x <> n -> edge_of g u (TN (t_id x)) = None).
Section Lanes.
  Variables (P : env) (memo : flowd) (limit : lk).
  (** what the loop over a list's items leaves alone *)
  Definition kept_loop (n : tnode) (l : list tnode) (g g' : graph) : Prop :=
    (forall u v, (u <> TLim (t_id n) /\ match u with TN i | TLim i | TOvf i => ~ ids l i | Acc _ | Grp _ => False | _ => True end) \/ match v with TN i => ~ ids l i | _ => False end -> edge_of g' u v = edge_of g u v) /\
    (forall u v, edge_of g u v <> None -> edge_of g' u v <> None).
  Lemma tree_kept : forall fuel g c g', add_successors P memo limit fuel g c None None true = Ok g' -> kept (fun i => In i (map t_id (tree_nodes c))) g g'.
  Proof.
    intros fuel g c g' H. eapply (kept_succ P memo limit _ (in_tree c) g (in_tree_child c)); [|apply tree_self| |apply kept_refl|exact H].
    - intros n N. now apply in_map.
    - discriminate.
  Qed.
  Lemma loop_kept : forall f n cap l g w g', loop P memo limit n f cap g l w = Ok g' -> kept_loop n l g g'.
  Proof.
    intros f n cap l. induction l as [|c l IH]; intros g w g' H.
    - cbn in H. injection H as <-. split; auto.
    - cbn [loop] in H. match type of H with bind ?X _ = _ => destruct X as [g2|] eqn:X2; [|discriminate] end. cbn [bind] in H.
      destruct (sum_weight f g2 (TN (t_id c))) as [s|]; [|discriminate]. cbn [bind] in H.
      destruct (IH _ _ _ H) as [I1 I2]. destruct (tree_kept _ _ _ _ X2) as [K1 K2]. rewrite add_edge_nx in K1, K2. split.
      + intros u v Huv. rewrite I1.
        * rewrite K1.
          -- rewrite edge_add. destruct (geqb u (TLim (t_id n)) && geqb v (TN (t_id c))) eqn:Q; [|reflexivity]. exfalso.
             apply andb_true_iff in Q. destruct Q as [Q1 Q2]. apply geqb_eq in Q1, Q2. subst. destruct Huv as [[Q _]|Q]; [now apply Q|].
             apply Q. apply ids_cons. left. apply in_map, tree_self.
          -- destruct Huv as [[Q1 Q]|Q].
             ++ left. destruct u; try exact Q; (intros Q2; apply Q, ids_cons; now left).
             ++ right. destruct v; try exact Q. intros Q2. apply Q, ids_cons. now left.
        * destruct Huv as [[Q1 Q]|Q].
          -- left. split; [exact Q1|]. destruct u; try exact Q; (intros Q2; apply Q, ids_cons; now right).
          -- right. destruct v; try exact Q. intros Q2. apply Q, ids_cons. now right.
      + intros u v E. apply I2, K2. rewrite edge_add. destruct (_ && _); [discriminate|exact E].
  Qed.
  Lemma loop_app : forall f n cap l l' g w g', loop P memo limit n f cap g (l ++ l') w = Ok g' ->
    exists g1 w1, loop P memo limit n f cap g l w = Ok g1 /\ (w <= w1) /\ (l = [] -> w1 = w) /\ loop P memo limit n f cap g1 l' w1 = Ok g'.
  Proof.
    intros f n cap l. induction l as [|c l IH]; intros l' g w g' H.
    - exists g, w. split; [reflexivity|]. split; [lia|]. split; [auto|exact H].
    - cbn [app loop] in H |- *. match type of H with bind ?X _ = _ => destruct X as [g2|] eqn:X2; [|discriminate] end. cbn [bind] in H |- *.
      destruct (sum_weight f g2 (TN (t_id c))) as [s|]; [|discriminate]. cbn [bind] in H |- *.
      destruct (IH _ _ _ _ H) as (g1 & w1 & L1 & L2 & L3 & L4). exists g1, w1. split; [exact L1|]. split; [lia|]. split; [discriminate|exact L4].
  Qed.
  (** the items of a list get edges of increasing weight *)
  Lemma loop_weights : forall f n cap l g w g', NoDup (t_id n :: map t_id (flat_map tree_nodes l)) -> loop P memo limit n f cap g l w = Ok g' ->
    forall c, In c l -> exists e wc, edge_of g' (TLim (t_id n)) (TN (t_id c)) = Some e /\ e_w e = Some wc /\ w <= wc.
  Proof.
    intros f n cap l. induction l as [|c l IH]; intros g w g' D H d Hd; [destruct Hd|].
    cbn [loop] in H. match type of H with bind ?X _ = _ => destruct X as [g2|] eqn:X2; [|discriminate] end. cbn [bind] in H.
    destruct (sum_weight f g2 (TN (t_id c))) as [s|]; [|discriminate]. cbn [bind] in H.
    inversion D as [|? ? Dn Dl]; subst. cbn [flat_map] in Dn, Dl. rewrite map_app in Dn, Dl. apply nodup_app in Dl. destruct Dl as (Dc & Dl & Dx).
    destruct Hd as [<-|Hd].
    - destruct (loop_kept _ _ _ _ _ _ _ H) as [I1 _]. destruct (tree_kept _ _ _ _ X2) as [K1 _]. rewrite add_edge_nx in K1.
      exists (upd_edge (edge_of g (TLim (t_id n)) (TN (t_id c))) (Some (int_of (qabs cap - fl (flow_edge [] (TLim (t_id n)) (TN (t_id c))))%Q)) (Some w)), w.
      split; [|split; [reflexivity|lia]]. rewrite I1.
      + rewrite K1; [rewrite edge_add, !geqb_refl; reflexivity|]. left. intros Q. apply Dn, in_or_app. now left.
      + right. intros Q. apply (Dx (t_id c)); [apply in_map, tree_self|exact Q].
    - destruct (IH g2 (Z.max w s + 1) g') with (c := d) as (e & wc & E1 & E2 & E3); [constructor; [intros Q; apply Dn, in_or_app; now right|exact Dl]|exact H|exact Hd|].
      exists e, wc. split; [exact E1|]. split; [exact E2|lia].
  Qed.
  Lemma succ_gwf : forall fuel g c g', gwf g -> add_successors P memo limit fuel g c None None true = Ok g' -> gwf g'.
  Proof.
    intros fuel g c g' W H. refine (proj1 (build_pres P memo limit (fun _ => True) gwf _ _ _ _ _ _ _ fuel) g c None None true g' I _ W H); auto using gwf_add.
    - intros g1 n k _ W1. destruct (embed_nx P memo limit g1 n k) as [z ->]. now apply gwf_add.
    - intros g1 n a g2 _ _ W1 H1. rewrite add_account_nx in H1. destruct (p_limit P limit a); [|discriminate]. destruct (p_grp P limit a); injection H1 as <-; auto using gwf_add.
    - discriminate.
  Qed.
  Lemma loop_gwf : forall f n cap l g w g', gwf g -> loop P memo limit n f cap g l w = Ok g' -> gwf g'.
  Proof.
    intros f n cap l. induction l as [|c l IH]; intros g w g' W H; [cbn in H; injection H as <-; exact W|].
    cbn [loop] in H. match type of H with bind ?X _ = _ => destruct X as [g2|] eqn:X2; [|discriminate] end. cbn [bind] in H.
    destruct (sum_weight f g2 (TN (t_id c))) as [s|]; [|discriminate]. cbn [bind] in H. eapply IH; [|exact H]. eapply succ_gwf; [|exact X2]. rewrite add_edge_nx. now apply gwf_add.
  Qed.
  Definition builds_paths (f : nat) : Prop := forall g n g' C, 0 <= C -> list_item n -> distinct_nodes n -> gwf g -> inbound_capacity g (TN (t_id n)) = C -> unbuilt g n ->
    add_successors P memo limit f g n None None true = Ok g' -> forall a, acct_below n a ->
    (exists es, path_to g' C n a es) /\ (p_grp P limit a = None -> edge_of g' (Acc a) Snk <> None).
  (** one item of a list *)
  Lemma loop_at : forall f n C pre d post g w g', builds_paths f -> 0 <= C -> NoDup (t_id n :: map t_id (flat_map tree_nodes (pre ++ d :: post))) -> gwf g ->
    list_item d -> unbuilt g d -> (forall u, edge_of g u (TN (t_id d)) = None) ->
    loop P memo limit n f (fl C) g (pre ++ d :: post) w = Ok g' ->
    exists wd gd sd e, w <= wd /\ (pre = [] -> wd = w) /\ edge_of gd (TLim (t_id n)) (TN (t_id d)) = Some e /\ e_cap e = Some C /\ e_w e = Some wd /\
      sum_weight f gd (TN (t_id d)) = Ok sd /\ gwf gd /\
      (forall a, acct_below d a -> (exists es, path_to gd C d a es) /\ (p_grp P limit a = None -> edge_of gd (Acc a) Snk <> None)) /\
      loop P memo limit n f (fl C) gd post (Z.max wd sd + 1) = Ok g' /\
      (exists gp, loop P memo limit n f (fl C) g pre w = Ok gp /\ add_successors P memo limit f (nx_add_edge gp (TLim (t_id n)) (TN (t_id d)) (Some C) (Some wd)) d None None true = Ok gd).
  Proof.
    intros f n C pre d post g w g' BP HC D W Li Un NoIn H.
    destruct (loop_app _ _ _ _ _ _ _ _ H) as (gp & wd & L1 & L2 & L3 & L4).
    cbn [loop] in L4. match type of L4 with bind ?X _ = _ => destruct X as [gd|] eqn:X2; [|discriminate] end. cbn [bind] in L4.
    destruct (sum_weight f gd (TN (t_id d))) as [sd|] eqn:SW; [|discriminate]. cbn [bind] in L4.
    rewrite add_edge_nx in X2. unfold flow_edge in X2. cbn [dget] in X2. rewrite (int_fl n C HC) in X2.
    pose proof (loop_gwf _ _ _ _ _ _ _ W L1) as Wp. destruct (loop_kept _ _ _ _ _ _ _ L1) as [I1 I2].
    inversion D as [|? ? Dn Dl]; subst. rewrite flat_map_app in Dn, Dl. cbn [flat_map] in Dn, Dl. rewrite !map_app in Dn, Dl.
    apply nodup_app in Dl. destruct Dl as (Dp & Dl & Dx). apply nodup_app in Dl. destruct Dl as (Dd & Dq & Dy).
    assert (Nd : forall x, In x (tree_nodes d) -> ~ ids pre (t_id x) /\ t_id x <> t_id n).
    { intros x Hx. split; [intros Q; apply (Dx (t_id x) Q), in_or_app; left; now apply in_map|]. intros Q. apply Dn. rewrite <- Q. apply in_or_app. right. apply in_or_app. left. now apply in_map. }
    set (g1 := nx_add_edge gp (TLim (t_id n)) (TN (t_id d)) (Some C) (Some wd)) in *.
    assert (W1 : gwf g1) by (now apply gwf_add).
    assert (IC : inbound_capacity g1 (TN (t_id d)) = C).
    { rewrite inbound_sum by exact W1.
      rewrite (Zsum_one _ (nodes g1) (TLim (t_id n))); [| | |apply W1].
      - unfold g1. rewrite edge_add, !geqb_refl. cbn [andb]. unfold upd_edge. reflexivity.
      - intros y _ Hy. unfold g1. rewrite edge_add. apply geqb_neq in Hy. rewrite Hy. cbn [andb].
        rewrite I1; [now rewrite NoIn|]. right. apply (Nd d (tree_self d)).
      - intros N. exfalso. apply N. unfold g1. apply nodes_add. now left. }
    assert (U1 : unbuilt g1 d).
    { intros x Hx. destruct (Un x Hx) as (U1 & U2 & U3). destruct (Nd x Hx) as [N1 N2]. split; [|split].
      - intros v. unfold g1. rewrite edge_add. cbn [geqb andb]. rewrite I1; [apply U1|]. left. split; [discriminate|exact N1].
      - intros v. unfold g1. rewrite edge_add. assert (Q : geqb (TLim (t_id x)) (TLim (t_id n)) = false) by (apply geqb_neq; congruence). rewrite Q. cbn [andb].
        rewrite I1; [apply U2|]. left. split; [congruence|exact N1].
      - intros u Nx. unfold g1. rewrite edge_add. assert (Q : geqb (TN (t_id x)) (TN (t_id d)) = false).
        { apply geqb_neq. intros Q. injection Q as Q. apply Nx. eapply (distinct_id d); eauto. apply tree_self. }
        rewrite Q, andb_false_r. rewrite I1; [now apply U3|]. right. exact N1. }
    destruct (tree_kept _ _ _ _ X2) as [K1 K2].
    exists wd, gd, sd, (upd_edge (edge_of gp (TLim (t_id n)) (TN (t_id d))) (Some C) (Some wd)). split; [exact L2|]. split; [exact L3|]. split; [|split; [|split; [|split; [exact SW|split; [|split; [|split; [exact L4|exists gp; split; [exact L1|exact X2]]]]]]]].
    - rewrite K1; [unfold g1; rewrite edge_add, !geqb_refl; reflexivity|]. left. intros Q. apply Dn, in_or_app. right. apply in_or_app. now left.
    - reflexivity.
    - reflexivity.
    - eapply succ_gwf; eauto.
    - intros a Ha. exact (BP g1 d gd C HC Li Dd W1 IC U1 X2 a Ha).
  Qed.
  Lemma paths_built : forall f, builds_paths f.
  Proof.
    induction f as [|f IH]; intros g n g' C HC Li D W IC Un H a Ha; [discriminate|].
    rewrite successors_S in H. cbv zeta in H. destruct (Li n (tree_self n)) as [Ll Lb]. unfold embed_limit in H. rewrite Ll in H. rewrite IC in H.
    rewrite (add_edge_nx [] g) in H. set (g1 := nx_add_edge g (TN (t_id n)) (TLim (t_id n)) None None) in H.
    assert (E1 : edge_of g1 (TN (t_id n)) (TLim (t_id n)) = Some {| e_cap := None; e_w := None |}).
    { unfold g1. rewrite edge_add, !geqb_refl. cbn [andb]. unfold upd_edge. rewrite (proj1 (Un n (tree_self n))). reflexivity. }
    destruct Lb as [[b B]|[l B]].
    - rewrite B in H. cbn [body_src] in H. assert (a = b) as ->.
      { destruct Ha as (x & X1 & X2). rewrite tree_eq in X1. unfold kids in X1. rewrite B in X1. destruct X1 as [<-|[]]. rewrite B in X2. cbn in X2. congruence. }
      rewrite add_edge_nx in H. unfold flow_edge in H. cbn [dget] in H. rewrite (int_fl n C HC) in H.
      rewrite add_account_nx in H. destruct (p_limit P limit b) as [x|]; [|discriminate].
      assert (E3 : forall g2, (g2 = g' -> True) -> kept (fun _ => False) (nx_add_edge g1 (TLim (t_id n)) (Acc b) (Some C) None) g2 -> exists es, path_to g2 C n b es).
      { intros g2 _ [K _]. eexists. eapply (path_leaf _ _ n b {| e_cap := None; e_w := None |}); [exact B| |reflexivity| |].
        - rewrite K by (left; tauto). rewrite edge_add. cbn [geqb andb]. exact E1.
        - rewrite K by (left; tauto). rewrite edge_add, !geqb_refl. reflexivity.
        - reflexivity. }
      destruct (p_grp P limit b) as [r|] eqn:GP; injection H as <-; (split; [apply E3; [trivial|]|]).
      + apply kept_write; [exact I|exact I|]. apply kept_write; [exact I|exact I|apply kept_refl].
      + intros Q. congruence.
      + apply kept_write; [exact I|exact I|apply kept_refl].
      + intros _. rewrite edge_add, !geqb_refl. discriminate.
    - rewrite B in H. cbn [body_src] in H. unfold children_of in H. rewrite B in H. cbn [bind] in H.
      change (loop P memo limit n f (fl C) g1 l 0 = Ok g') in H.
      destruct Ha as (x & X1 & X2). rewrite tree_eq, (kids_ord n l B) in X1. destruct X1 as [<-|X1]; [rewrite B in X2; discriminate|].
      apply in_flat_map in X1. destruct X1 as (d & Hd & Hx). apply in_split in Hd. destruct Hd as (pre & post & ->).
      assert (Dl : NoDup (t_id n :: map t_id (flat_map tree_nodes (pre ++ d :: post)))).
      { unfold distinct_nodes in D. rewrite tree_eq, (kids_ord n _ B) in D. exact D. }
      assert (Kd : In d (kids n)) by (rewrite (kids_ord n _ B); apply in_or_app; right; now left).
      assert (Sub : forall y, In y (tree_nodes d) -> In y (tree_nodes n)) by (intros y Hy; eapply tree_trans; [|exact Hy]; eapply tree_child; [apply tree_self|exact Kd]).
      assert (NS : forall y, In y (tree_nodes d) -> t_id y <> t_id n) by (intros y Hy; eapply distinct_not_self; eauto).
      assert (NoIn : forall u, edge_of g1 u (TN (t_id d)) = None).
      { intros u. unfold g1. rewrite edge_add. cbn [geqb]. rewrite andb_false_r. apply (Un d (Sub d (tree_self d))). intros ->. apply (NS n (tree_self n)). reflexivity. }
      assert (Ud : unbuilt g1 d).
      { intros y Hy. destruct (Un y (Sub y Hy)) as (U1 & U2 & U3). pose proof (NS y Hy) as Ny. unfold g1. split; [|split].
        - intros v. rewrite edge_add. assert (Q : geqb (TN (t_id y)) (TN (t_id n)) = false) by (apply geqb_neq; congruence). rewrite Q. apply U1.
        - intros v. rewrite edge_add. cbn [geqb andb]. apply U2.
        - intros u _. rewrite edge_add. cbn [geqb]. rewrite andb_false_r. apply U3. intros ->. now apply Ny. }
      destruct (loop_at f n C pre d post g1 0 g' IH HC Dl (gwf_add _ _ _ _ _ W)) as (wd & gd & sd & e & _ & _ & Ed & Ec & _ & _ & _ & Pa & Lq & _);
        [intros y Hy; apply Li, Sub, Hy|exact Ud|exact NoIn|exact H|].
      destruct (Pa a) as ((es & Pe) & Ga); [exists x; auto|].
      destruct (loop_kept _ _ _ _ _ _ _ Lq) as [Q1 Q2]. destruct (loop_kept _ _ _ _ _ _ _ H) as [R1 R2].
      inversion Dl as [|? ? Dn Dm]; subst. rewrite flat_map_app in Dn, Dm. cbn [flat_map] in Dn, Dm. rewrite !map_app in Dn, Dm.
      apply nodup_app in Dm. destruct Dm as (Dp & Dm & Dx). apply nodup_app in Dm. destruct Dm as (Dd & Dq & Dy).
      split.
      + eexists. eapply (path_list _ _ n _ d _ _ {| e_cap := None; e_w := None |}); [exact B|apply in_or_app; right; now left| |reflexivity| |exact Ec|].
        * rewrite R1; [exact E1|]. left. split; [discriminate|]. intros Q. apply Dn. unfold ids in Q. rewrite flat_map_app in Q. cbn [flat_map] in Q. rewrite !map_app in Q. exact Q.
        * rewrite Q1; [exact Ed|]. right. intros Q. apply (Dy (t_id d)); [apply in_map, tree_self|exact Q].
        * eapply (path_kept (fun i => ids post i \/ i = t_id n)); [| |exact Pe].
          -- split; [|exact Q2]. intros u v Huv. apply Q1. destruct Huv as [Huv|Huv]; [left|right; destruct v; tauto].
             destruct u; try tauto; try (split; [discriminate|tauto]). split; [intros Q; injection Q as ->; tauto|tauto].
          -- intros m Hm [Q|Q]; [|now apply (NS m Hm)]. apply (Dy (t_id m)); [now apply in_map|exact Q].
      + intros GN. apply Q2. now apply Ga.
  Qed.
End Lanes.

(** ** The whole graph *)
(** an item of the root list: either the first one, made of lists of accounts, or anywhere in the
    list, if it is an account *)
Definition heads (pre : list tnode) (d : tnode) : Prop := pre = [] \/ exists a, t_body d = TLeaf a.
(** an item made of lists of accounts, anywhere in the root list *)
Definition item_at (root : tnode) (pre : list tnode) (d : tnode) (post : list tnode) : Prop :=
  t_body root = TOrd (pre ++ d :: post) /\ (forall k, t_lims root k = None) /\ distinct_nodes root /\ list_item d.
Lemma loop_winv : forall P memo limit root f cap l g w g', (forall c, In c l -> In c (kids root)) -> 0 <= w -> winv root g -> loop P memo limit root f cap g l w = Ok g' -> winv root g'.
Proof.
  intros P memo limit root f cap l. induction l as [|c l IH]; intros g w g' Hk Hw W H; [cbn in H; injection H as <-; exact W|].
  cbn [loop] in H. match type of H with bind ?X _ = _ => destruct X as [g2|] eqn:X2; [|discriminate] end. cbn [bind] in H.
  destruct (sum_weight f g2 (TN (t_id c))) as [s|] eqn:SW; [|discriminate]. cbn [bind] in H.
  assert (W2 : winv root g2).
  { eapply winv_succ; [| | |exact X2]; [eapply tree_child; [apply tree_self|apply Hk; now left]|discriminate|].
    rewrite add_edge_nx. apply winv_write; [exact Hw|intros []|discriminate|exact W]. }
  eapply IH; [|  |exact W2|exact H]; [intros x Hx; apply Hk; now right|]. pose proof (sum_weight_pos _ _ _ _ (w_pos _ _ W2) SW). lia.
Qed.
Lemma bfs_are_weighted : forall fuel q ws, bfs_weighted fuel q = Ok ws -> forall n, In n ws -> is_weighted n = true.
Proof.
  induction fuel as [|f IH]; intros q ws H n Hn; [discriminate|]. cbn in H. destruct q as [|m q]; [injection H as <-; destruct Hn|].
  destruct (children_of m) as [cs|]; [|discriminate]. cbn [bind] in H. destruct (bfs_weighted f (q ++ cs)) as [r|] eqn:B; [|discriminate]. cbn [bind] in H.
  injection H as <-. destruct (is_weighted m) eqn:Wm; [|eapply IH; eauto]. destruct Hn as [<-|Hn]; [exact Wm|eapply IH; eauto].
Qed.
Lemma lead_graph : forall P memo limit fuel root pre d post total g C, (forall l c, In c (p_hash P l) -> In c l) -> item_at root pre d post ->
  build_graph P memo limit fuel root (Fin total) = Ok g -> src_cap P memo root (Fin total) = Some C -> 0 <= C ->
  (exists e, edge_of g Src (TN (t_id root)) = Some e /\ e_cap e = Some C) /\
  (exists e, edge_of g (TN (t_id root)) (TLim (t_id root)) = Some e /\ e_cap e = None) /\
  (exists e, edge_of g (TLim (t_id root)) (TN (t_id d)) = Some e /\ e_cap e = Some C) /\
  exists M, (forall a, acct_below d a -> exists es, path_to g C d a es /\ (heads pre d -> weight g (TLim (t_id root)) (TN (t_id d)) + path_cost g es <= M) /\ (p_grp P limit a = None -> edge_of g (Acc a) Snk <> None)) /\
    (forall c, In c post -> M < weight g (TLim (t_id root)) (TN (t_id c))).
Proof.
  intros P memo limit fuel root pre d post total g C Hh (B & Ll & D & Li) H SC HC. set (r := t_id root). unfold build_graph in H.
  match type of H with bind ?X _ = _ => destruct X as [gl|] eqn:X1; [|discriminate] end. cbn [bind] in H.
  assert (Kr : kids root = pre ++ d :: post) by (now apply kids_ord).
  assert (Dl : NoDup (t_id root :: map t_id (flat_map tree_nodes (pre ++ d :: post)))) by (unfold distinct_nodes in D; rewrite tree_eq, Kr in D; exact D).
  assert (Kd : In d (kids root)) by (rewrite Kr; apply in_or_app; right; now left).
  assert (NS : forall y, In y (tree_nodes d) -> t_id y <> r) by (intros y Hy; eapply distinct_not_self; eauto).
  assert (Oids : forall m k, In k (pre ++ post) -> In m (tree_nodes k) -> t_id m <> r /\ forall y, In y (tree_nodes d) -> t_id m <> t_id y).
  { intros m k Hk Hm. assert (Kk : In k (kids root)) by (rewrite Kr; apply in_app_or in Hk; apply in_or_app; destruct Hk; [now left|right; now right]).
    split; [eapply distinct_not_self; eauto|]. intros y Hy E. assert (k = d) as ->.
    { eapply (distinct_cross root k d m D Kk Kd); [now apply in_map|]. rewrite E. now apply in_map. }
    clear -Dl Hk. inversion Dl as [|? ? _ Dm]; subst. rewrite flat_map_app in Dm. cbn [flat_map] in Dm. rewrite !map_app in Dm.
    apply nodup_app in Dm. destruct Dm as (Dp & Dm & Dx). apply nodup_app in Dm. destruct Dm as (Dd & Dq & Dy).
    assert (Self : forall l, In d l -> In (t_id d) (map t_id (flat_map tree_nodes l))) by (intros l I; apply in_map, in_flat_map; exists d; split; [exact I|apply tree_self]).
    apply in_app_or in Hk. destruct Hk as [Hk|Hk].
    - apply (Dx (t_id d) (Self _ Hk)), in_or_app. left. apply in_map, tree_self.
    - apply (Dy (t_id d)); [apply in_map, tree_self|now apply Self]. }
  (* rebalancing touches nothing of the root and the item *)
  assert (KB : kept (ids (pre ++ post)) gl g).
  { unfold balance_weighted in H. destruct (bfs_weighted fuel [root]) as [ws|] eqn:BW; [|discriminate]. cbn [bind] in H.
    eapply (kept_fold P memo limit (ids (pre ++ post)) (fun m => In m (flat_map tree_nodes (pre ++ post))) gl _ _ Hh fuel ws gl g _ (kept_refl _ _) H).
    Unshelve.
    - intros n c N Cc. apply in_flat_map in N. destruct N as (k & K1 & K2). apply in_flat_map. exists k. split; [exact K1|]. apply child_kids in Cc. eapply tree_child; eauto.
    - intros n N. now apply in_map.
    - intros n N. pose proof (bfs_are_weighted _ _ _ BW n N) as Wn.
      assert (T : In n (tree_nodes root)).
      { eapply (bfs_good (in_tree root)); [apply in_tree_child| |exact BW|exact N]. intros m [<-|[]]. apply tree_self. }
      rewrite tree_eq, Kr in T. destruct T as [<-|T]; [unfold is_weighted in Wn; rewrite B in Wn; discriminate|].
      rewrite flat_map_app in T |- *. cbn [flat_map] in T. apply in_or_app. apply in_app_or in T. destruct T as [T|T]; [now left|].
      apply in_app_or in T. destruct T as [T|T]; [|now right]. exfalso. destruct (Li n T) as [_ [[a Q]|[l Q]]]; unfold is_weighted in Wn; rewrite Q in Wn; discriminate. }
  assert (Nr : ~ ids (pre ++ post) r).
  { intros Q. unfold ids in Q. apply in_map_iff in Q. destruct Q as (m & M1 & M2). apply in_flat_map in M2. destruct M2 as (k & K1 & K2). destruct (Oids m k K1 K2) as [Q _]. now apply Q. }
  assert (Nd : forall y, In y (tree_nodes d) -> ~ ids (pre ++ post) (t_id y)).
  { intros y Hy Q. unfold ids in Q. apply in_map_iff in Q. destruct Q as (m & M1 & M2). apply in_flat_map in M2. destruct M2 as (k & K1 & K2). destruct (Oids m k K1 K2) as [_ Q]. now apply (Q y Hy). }
  (* the loop over the root list *)
  destruct fuel as [|f]; [discriminate|]. rewrite successors_S in X1. cbv zeta in X1. unfold embed_limit in X1. rewrite Ll in X1.
  assert (G0 : add_edge memo [] Src (TN (t_id root)) (Some (scaled_total P (Fin total))) None = nx_add_edge [] Src (TN r) (Some C) None) by (rewrite <- SC; reflexivity).
  rewrite G0 in X1. fold r in X1. set (g0 := nx_add_edge [] Src (TN r) (Some C) None) in X1.
  assert (IC : inbound_capacity g0 (TN r) = C) by (unfold g0, inbound_capacity; cbn; rewrite Nat.eqb_refl; cbn; lia).
  rewrite IC in X1. rewrite B in X1. cbn [body_src] in X1. unfold children_of in X1. rewrite B in X1. cbn [bind] in X1.
  rewrite (add_edge_nx [] g0) in X1. set (g1 := nx_add_edge g0 (TN r) (TLim r) None None) in X1.
  change (loop P memo limit root f (fl C) g1 (pre ++ d :: post) 0 = Ok gl) in X1.
  assert (W1 : winv root g1).
  { apply winv_write; [exact I|reflexivity|discriminate|]. apply winv_write; [exact I|reflexivity|discriminate|]. constructor; [split; [apply gwf_nil|]| |]; intros; discriminate. }
  assert (E1 : forall u v, edge_of g1 u v = if geqb u Src && geqb v (TN r) then Some {| e_cap := Some C; e_w := None |} else if geqb u (TN r) && geqb v (TLim r) then Some {| e_cap := None; e_w := None |} else None).
  { clear -r. intros u v. unfold g1, g0. rewrite !edge_add. destruct u, v; cbn [geqb andb]; try reflexivity; destruct (Nat.eqb i r) eqn:Q1; try reflexivity; cbn [andb]; try (destruct (Nat.eqb i0 r); reflexivity). }
  assert (Un : unbuilt g1 d).
  { intros x Hx. pose proof (NS x Hx) as N. apply Nat.eqb_neq in N. split; [|split].
    - intros v. rewrite E1. cbn [geqb andb]. rewrite N. reflexivity.
    - intros v. rewrite E1. reflexivity.
    - intros u _. rewrite E1. cbn [geqb]. rewrite N, !andb_false_r. reflexivity. }
  assert (NoIn : forall u, edge_of g1 u (TN (t_id d)) = None).
  { intros u. pose proof (NS d (tree_self d)) as N. apply Nat.eqb_neq in N. rewrite E1. cbn [geqb]. rewrite N, !andb_false_r. reflexivity. }
  destruct (loop_at P memo limit f root C pre d post g1 0 gl (paths_built P memo limit f) HC Dl (proj1 (w_pos _ _ W1)) Li Un NoIn X1)
    as (wd & gd & sd & e & Hw & Hw0 & Ed & Ec & Ew & SW & Wd & Pa & Lq & gp & Lp & Sd).
  assert (Wgd : winv root gd).
  { eapply winv_succ; [| | |exact Sd]; [eapply tree_child; [apply tree_self|exact Kd]|discriminate|]. apply winv_write; [exact Hw|intros []|discriminate|].
    eapply loop_winv; [| |exact W1|exact Lp]; [intros c Hc; rewrite Kr; apply in_or_app; now left|lia]. }
  destruct (loop_kept _ _ _ _ _ _ _ _ _ _ Lq) as [Q1 Q2]. destruct (loop_kept _ _ _ _ _ _ _ _ _ _ X1) as [R1 R2]. destruct KB as [B1 B2].
  assert (PostSub : forall i, ids post i -> ids (pre ++ post) i) by (intros i Hi; unfold ids in *; rewrite flat_map_app, map_app; apply in_or_app; now right).
  assert (Kgd : forall u v, match u with TN i | TLim i => exists y, In y (tree_nodes d) /\ t_id y = i | _ => False end -> edge_of g u v = edge_of gd u v).
  { intros u v Hu. rewrite B1; [apply Q1|]; left; destruct u; try contradiction; destruct Hu as (y & Y1 & <-); try (now apply Nd).
    - split; [discriminate|]. intros Q. now apply (Nd y Y1), PostSub.
    - split; [intros Q; injection Q as Q; now apply (NS y Y1)|]. intros Q. now apply (Nd y Y1), PostSub. }
  assert (Edg : edge_of g (TLim r) (TN (t_id d)) = Some e).
  { rewrite B1 by (left; exact Nr). rewrite Q1; [exact Ed|]. right. intros Q. now apply (Nd d (tree_self d)), PostSub. }
  split; [|split; [|split]].
  - exists {| e_cap := Some C; e_w := None |}. split; [|reflexivity]. rewrite B1 by (left; exact I). rewrite R1 by (left; split; [discriminate|exact I]). rewrite E1, !geqb_refl. reflexivity.
  - exists {| e_cap := None; e_w := None |}. split; [|reflexivity]. rewrite B1 by (left; exact Nr). rewrite R1.
    + rewrite E1, !geqb_refl. reflexivity.
    + left. split; [discriminate|]. intros Q. apply NoDup_cons_iff in Dl. now apply (proj1 Dl).
  - exists e. split; [exact Edg|exact Ec].
  - exists (Z.max wd sd). split.
    + intros a Ha. destruct (Pa a Ha) as ((es & Pe) & Ga). exists es. split; [|split].
      * eapply (path_kept (fun i => ids (pre ++ post) i \/ i = r)); [| |exact Pe]; [|intros m Hm [Q|Q]; [now apply (Nd m Hm)|now apply (NS m Hm)]].
        split; [|intros u v E0; apply B2, Q2, E0]. intros u v Huv. rewrite B1 by (destruct Huv as [Huv|Huv]; [left; destruct u; tauto|right; destruct v; tauto]). apply Q1.
        destruct Huv as [Huv|Huv]; [left|right; destruct v; try tauto; intros Q; apply Huv; left; now apply PostSub].
        destruct u; try tauto; (split; [try discriminate|try exact I; intros Q; apply Huv; left; now apply PostSub]).
        intros Q. injection Q as ->. apply Huv. now right.
      * intros Ld. assert (PC : path_cost g es = path_cost gd es).
        { unfold path_cost. apply Zsum_ext. intros [x y] Hxy. unfold edge_weight, weight. cbn [fst snd]. rewrite Kgd; [reflexivity|].
          destruct (path_sources _ _ _ _ _ Pe x y Hxy) as (m & M1 & [-> | ->]); eauto. }
        assert (WD : weight g (TLim r) (TN (t_id d)) = wd) by (unfold weight; rewrite Edg; destruct e as [k z]; cbn in Ew; subst z; reflexivity).
        rewrite PC, WD. pose proof (path_le_sum es gd _ _ f sd (w_pos _ _ Wgd) (path_chain _ _ _ _ _ Pe) (path_edges _ _ _ _ _ Pe) SW) as PL.
        destruct Ld as [Lp0|[b Lb]]; [rewrite (Hw0 Lp0) in *; lia|].
        destruct (path_leaf_inv _ _ _ _ _ _ Lb Pe) as (e1 & e2 & Ees & F1 & F3). rewrite Ees in *.
        assert (path_cost gd [(TN (t_id d), TLim (t_id d)); (TLim (t_id d), Acc a)] = 0); [|lia].
        unfold path_cost, edge_weight, weight. cbn [map fst snd]. rewrite F1, F3. pose proof (w_none _ _ Wgd _ _ _ F1 I) as N1. pose proof (w_none _ _ Wgd _ _ _ F3 I) as N2.
        destruct e1 as [k1 z1], e2 as [k2 z2]. cbn in N1, N2. rewrite N1, N2. reflexivity.
      * intros GN. apply B2, Q2. now apply Ga.
    + intros c Hc. apply NoDup_cons_iff in Dl. destruct Dl as [Dn Dm]. rewrite flat_map_app in Dn, Dm. cbn [flat_map] in Dn, Dm. rewrite !map_app in Dn, Dm.
      apply nodup_app in Dm. destruct Dm as (_ & Dm & _). apply nodup_app in Dm. destruct Dm as (_ & Dq & _).
      destruct (loop_weights P memo limit f root (fl C) post gd (Z.max wd sd + 1) gl) with (c := c) as (e' & wc & F1 & F2 & F3); auto.
      * constructor; [|exact Dq]. intros Q. apply Dn, in_or_app. right. apply in_or_app. now right.
      * unfold weight. rewrite B1 by (left; exact Nr). fold r in F1. rewrite F1. destruct e' as [k z]. cbn in F2. subst z. lia.
Qed.

(** ** Moving money to a leading item *)
Definition count (es : list (gnode * gnode)) (u v : gnode) : Z := Zsum (map (fun e => ind (fst e) (snd e) u v) es).
Lemma count_cases : forall es u v, NoDup es -> (count es u v = 0 /\ ~ In (u, v) es) \/ (count es u v = 1 /\ In (u, v) es).
Proof.
  induction es as [|[x y] es IH]; intros u v N; [left; split; [reflexivity|intros []]|]. inversion N as [|? ? N1 N2]; subst.
  change (count ((x, y) :: es) u v) with (ind x y u v + count es u v). unfold ind. destruct (geqb u x && geqb v y) eqn:E.
  - apply andb_true_iff in E. destruct E as [E1 E2]. apply geqb_eq in E1, E2. subst. destruct (IH x y N2) as [[C I]|[_ I]]; [|contradiction]. right. split; [lia|now left].
  - destruct (IH u v N2) as [[C I]|[C I]]; [left|right]; (split; [lia|]).
    + intros [Q|Q]; [|contradiction]. injection Q as -> ->. rewrite !geqb_refl in E. discriminate.
    + now right.
Qed.
Definition unit_at (z u : gnode) : Z := if geqb z u then 1 else 0.
Lemma chain_balance : forall es u v z, chain u es v ->
  Zsum (map (fun e => unit_at z (fst e)) es) + unit_at z v = Zsum (map (fun e => unit_at z (snd e)) es) + unit_at z u.
Proof.
  induction es as [|[x y] es IH]; intros u v z H; cbn in H; [subst; reflexivity|]. destruct H as [-> H]. specialize (IH y v z H).
  change (unit_at z u + Zsum (map (fun e => unit_at z (fst e)) es) + unit_at z v = unit_at z y + Zsum (map (fun e => unit_at z (snd e)) es) + unit_at z u). lia.
Qed.
Definition times (k : Z) (es : list (gnode * gnode)) : list (Z * (gnode * gnode)) := map (fun e => (k, e)) es.
Lemma Zsum_times : forall k (h : gnode * gnode -> Z) es, Zsum (map (fun e => fst e * h (snd e)) (times k es)) = k * Zsum (map h es).
Proof. intros k h es. unfold times. rewrite map_map. cbn [fst snd]. apply (Zsum_scale h k es). Qed.
(** replacing the path [R] by the path [A] gives a flow *)
Lemma swap_feasible : forall g f R A, gwf g -> feasible g f -> NoDup R -> NoDup A -> positive f R ->
  (forall x y, In (x, y) A -> exists e, edge_of g x y = Some e) -> (forall x y e k, In (x, y) A -> edge_of g x y = Some e -> e_cap e = Some k -> f x y + 1 <= k) ->
  (forall z, z <> Src -> z <> Snk -> Zsum (map (fun e => unit_at z (fst e)) A) - Zsum (map (fun e => unit_at z (fst e)) R) = Zsum (map (fun e => unit_at z (snd e)) A) - Zsum (map (fun e => unit_at z (snd e)) R)) ->
  let es := times (-1) R ++ times 1 A in
  feasible g (Prop_TxOrder.shift f es) /\ present g es.
Proof.
  intros g f R A W F NR NA PR EA CA BA es.
  assert (Pr : present g es).
  { intros [k [x y]] H. unfold es in H. apply in_app_or in H. cbn [fst snd]. destruct H as [H|H]; unfold times in H; apply in_map_iff in H; destruct H as ([a b] & Q & I); injection Q as <- <- <-; [|now apply EA].
    specialize (PR a b I). destruct (edge_of g a b) as [e|] eqn:E; [eauto|]. rewrite (fe_edges _ _ F _ _ E) in PR. lia. }
  split; [|exact Pr].
  assert (SH : forall u v, Prop_TxOrder.shift f es u v = f u v - count R u v + count A u v).
  { intros u v. unfold Prop_TxOrder.shift, es. rewrite map_app, Zsum_app, (Zsum_times (-1) (fun e => ind (fst e) (snd e) u v)), (Zsum_times 1 (fun e => ind (fst e) (snd e) u v)). unfold count. lia. }
  apply shift_feasible; auto.
  - intros z N1 N2. specialize (BA z N1 N2). unfold es. rewrite !map_app, !Zsum_app.
    rewrite (Zsum_times (-1) (fun e => unit_at z (fst e))), (Zsum_times 1 (fun e => unit_at z (fst e))), (Zsum_times (-1) (fun e => unit_at z (snd e))), (Zsum_times 1 (fun e => unit_at z (snd e))). lia.
  - intros u v. rewrite SH. pose proof (fe_pos _ _ F u v) as P0. destruct (count_cases R u v NR) as [[-> _]|[-> I]]; destruct (count_cases A u v NA) as [[-> _]|[-> _]]; try lia. specialize (PR u v I). lia.
  - intros u v e k E K. rewrite SH. pose proof (fe_cap _ _ F _ _ _ _ E K) as C0. destruct (count_cases R u v NR) as [[-> _]|[-> I]]; destruct (count_cases A u v NA) as [[-> _]|[-> I']]; try lia. specialize (CA u v e k I' E K). lia.
Qed.
Lemma swap_cost : forall g f R A, NoDup (nodes g) -> (forall e, In e (times (-1) R ++ times 1 A) -> In (fst (snd e)) (nodes g) /\ In (snd (snd e)) (nodes g)) ->
  cost g (Prop_TxOrder.shift f (times (-1) R ++ times 1 A)) = cost g f - path_cost g R + path_cost g A.
Proof.
  intros g f R A N K. rewrite shift_cost by assumption. rewrite map_app, Zsum_app.
  rewrite (Zsum_times (-1) (fun e => weight g (fst e) (snd e))), (Zsum_times 1 (fun e => weight g (fst e) (snd e))). unfold path_cost, edge_weight. lia.
Qed.
Lemma swap_out : forall g f R A u, NoDup (nodes g) -> (forall e, In e (times (-1) R ++ times 1 A) -> In (snd (snd e)) (nodes g)) ->
  outflow g (Prop_TxOrder.shift f (times (-1) R ++ times 1 A)) u = outflow g f u - Zsum (map (fun e => unit_at u (fst e)) R) + Zsum (map (fun e => unit_at u (fst e)) A).
Proof.
  intros g f R A u N K. rewrite shift_out by assumption. rewrite map_app, Zsum_app.
  pose proof (Zsum_times (-1) (fun e => unit_at u (fst e)) R) as X. pose proof (Zsum_times 1 (fun e => unit_at u (fst e)) A) as Y. unfold unit_at in *. rewrite X, Y. lia.
Qed.
Section Lead.
  Variables (P : env) (memo : flowd) (limit : lk) (root : tnode) (pre : list tnode) (d : tnode) (post : list tnode) (C : Z) (g : graph) (f : gnode -> gnode -> Z).
  Hypothesis Ld : item_at root pre d post.
  Let r := t_id root.
  Hypothesis Sh : shape P memo limit r (Some C) g.
  Hypothesis Wi : wiring P memo limit root g.
  Hypothesis Wv : winv root g.
  Hypothesis F : feasible g f.
  Hypothesis Sr : exists e, edge_of g Src (TN r) = Some e /\ e_cap e = Some C.
  Hypothesis Rt : exists e, edge_of g (TN r) (TLim r) = Some e /\ e_cap e = None.
  Hypothesis Rd : exists e, edge_of g (TLim r) (TN (t_id d)) = Some e /\ e_cap e = Some C.
  Let DN : distinct_nodes root := proj1 (proj2 (proj2 Ld)).
  Lemma ld_kids : kids root = pre ++ d :: post.
  Proof. apply kids_ord. apply Ld. Qed.
  Lemma ld_kid : In d (kids root).
  Proof. rewrite ld_kids. apply in_or_app. right. now left. Qed.
  Lemma kid_not_root : forall n c, In n (tree_nodes root) -> In c (kids n) -> t_id c <> r.
  Proof.
    intros n c N Cc. rewrite tree_eq in N. destruct N as [<-|N]; [eapply distinct_not_self; [exact DN|exact Cc|apply tree_self]|].
    apply in_flat_map in N. destruct N as (k & K1 & K2). eapply distinct_not_self; [exact DN|exact K1|]. eapply tree_child; eauto.
  Qed.
  Lemma into_kid : forall n c u e, In n (tree_nodes root) -> In c (kids n) -> edge_of g u (TN (t_id c)) = Some e -> u = TLim (t_id n) \/ u = TOvf (t_id n).
  Proof.
    intros n c u e N Cc E. destruct (wi_tn _ _ _ _ _ Wi _ _ _ E) as [[_ Q]|(p & c' & P1 & P2 & Q & H)]; [exfalso; now apply (kid_not_root n c N Cc)|].
    assert (c = c') as <- by (apply (distinct_id root c c' DN (tree_child root n c N Cc) (tree_child root p c' P1 P2) Q)).
    rewrite (unique_parent root n p c DN N P1 Cc P2). exact H.
  Qed.
  Lemma into_list_kid : forall n c u e, In n (tree_nodes root) -> is_weighted n = false -> In c (kids n) -> edge_of g u (TN (t_id c)) = Some e -> u = TLim (t_id n).
  Proof.
    intros n c u e N Wn Cc E. destruct (into_kid n c u e N Cc E) as [-> | ->]; [reflexivity|]. exfalso.
    destruct (w_ovf _ _ Wv _ _ _ E) as (m & M1 & M2 & M3). assert (m = n) as -> by (apply (distinct_id root m n DN); auto). congruence.
  Qed.
  Lemma in_one : forall v u0, (forall u e, edge_of g u v = Some e -> u = u0) -> inflow g f v = f u0 v.
  Proof. intros v u0 H. exact (only_in P memo limit root C g f Sh F v u0 H). Qed.
  Lemma out_ge : forall u l, NoDup l -> Zsum (map (f u) l) <= outflow g f u.
  Proof.
    intros u l N. unfold outflow. apply (Zsum_incl_le (f u)); [exact N|intros x _; apply (fe_pos _ _ F)|].
    intros x _ Nx. apply (not_node P memo limit r (Some C) g f Sh F). now right.
  Qed.
  Lemma out_one : forall u v, f u v <= outflow g f u.
  Proof. intros u v. pose proof (out_ge u [v] ltac:(constructor; [intros []|constructor])) as H. unfold Zsum in H. cbn in H. lia. Qed.
  Lemma conserve : forall u v e, edge_of g u v = Some e -> v <> Src -> v <> Snk -> outflow g f v = inflow g f v.
  Proof. intros u v e E N1 N2. apply (fe_cons _ _ F); auto. destruct (sh_wf _ _ _ _ _ _ Sh) as (_ & _ & We). eapply We; eauto. Qed.
  Lemma not_wt : forall n, list_item n -> is_weighted n = false.
  Proof. intros n L. destruct (L n (tree_self n)) as [_ [[a B]|[l B]]]; unfold is_weighted; now rewrite B. Qed.
  (** along the path to an account no edge carries more than enters the item *)
  Lemma path_bound : forall n a es, path_to g C n a es -> In n (tree_nodes root) -> list_item n -> (exists u e, edge_of g u (TN (t_id n)) = Some e) ->
    forall x y, In (x, y) es -> f x y <= inflow g f (TN (t_id n)).
  Proof.
    intros n a es H. induction H as [n a e1 e2 B E1 C1 E2 C2|n l c a es e1 e2 B Ic E1 C1 E2 C2 Pt IH]; intros N L (u & e & Eu) x y I.
    - pose proof (conserve _ _ _ Eu ltac:(discriminate) ltac:(discriminate)) as K1. pose proof (conserve _ _ _ E1 ltac:(discriminate) ltac:(discriminate)) as K2.
      rewrite (in_one (TLim (t_id n)) (TN (t_id n))) in K2 by (intros z e0 Ez; exact (wi_lim _ _ _ _ _ Wi _ _ _ Ez)).
      pose proof (out_one (TN (t_id n)) (TLim (t_id n))) as O1. pose proof (out_one (TLim (t_id n)) (Acc a)) as O2.
      destruct I as [I|[I|[]]]; injection I as <- <-; lia.
    - pose proof (conserve _ _ _ Eu ltac:(discriminate) ltac:(discriminate)) as K1. pose proof (conserve _ _ _ E1 ltac:(discriminate) ltac:(discriminate)) as K2.
      rewrite (in_one (TLim (t_id n)) (TN (t_id n))) in K2 by (intros z e0 Ez; exact (wi_lim _ _ _ _ _ Wi _ _ _ Ez)).
      pose proof (out_one (TN (t_id n)) (TLim (t_id n))) as O1. pose proof (out_one (TLim (t_id n)) (TN (t_id c))) as O2.
      assert (Kc : In c (kids n)) by (now rewrite (kids_ord n l B)).
      assert (Ec : inflow g f (TN (t_id c)) = f (TLim (t_id n)) (TN (t_id c))) by (apply in_one; intros z e0 Ez; exact (into_list_kid n c z e0 N (not_wt n L) Kc Ez)).
      destruct I as [I|[I|I]]; [injection I as <- <-; lia|injection I as <- <-; lia|].
      assert (f x y <= inflow g f (TN (t_id c))); [|lia]. apply IH; auto; [eapply tree_child; eauto| |eauto].
      intros z Z. apply L. eapply tree_trans; [|exact Z]. eapply tree_child; [apply tree_self|exact Kc].
  Qed.
  Lemma root_wt : is_weighted root = false.
  Proof. unfold is_weighted. now rewrite (proj1 Ld). Qed.
  Lemma into_root : forall u e, edge_of g u (TN r) = Some e -> u = Src.
  Proof.
    intros u e E. destruct (wi_tn _ _ _ _ _ Wi _ _ _ E) as [[Q _]|(p & c & P1 & P2 & Q & _)]; [exact Q|]. exfalso. now apply (kid_not_root p c P1 P2).
  Qed.
  Lemma root_out : outflow g f (TLim r) = f Src (TN r) /\ f (TN r) (TLim r) <= f Src (TN r) /\ f Src (TN r) <= C.
  Proof.
    destruct Sr as (e1 & E1 & K1). destruct Rt as (e2 & E2 & K2).
    pose proof (conserve _ _ _ E1 ltac:(discriminate) ltac:(discriminate)) as A. rewrite (in_one (TN r) Src) in A by (intros u e E; exact (into_root u e E)).
    pose proof (conserve _ _ _ E2 ltac:(discriminate) ltac:(discriminate)) as B. rewrite (in_one (TLim r) (TN r)) in B by (intros u e E; exact (wi_lim _ _ _ _ _ Wi _ _ _ E)).
    assert (O : outflow g f (TN r) = f (TN r) (TLim r)) by (apply (only_edge P memo limit r (Some C) g f Sh F); intros x e E; exact (wi_out _ _ _ _ _ Wi _ _ _ E)).
    split; [lia|]. split; [lia|]. apply (fe_cap _ _ F _ _ e1 C E1 K1).
  Qed.
  (** what does not enter a node reaches nothing below it *)
  Lemma dry : forall v, v <> Src -> v <> Snk -> inflow g f v = 0 -> outflow g f v = 0.
  Proof.
    intros v N1 N2 H. destruct (in_dec (fun x y => match geqb x y as b return geqb x y = b -> {x = y} + {x <> y} with true => fun E => left (proj1 (geqb_eq x y) E) | false => fun E => right (proj1 (geqb_neq x y) E) end eq_refl) v (nodes g)) as [I|I].
    - rewrite (fe_cons _ _ F); auto.
    - apply Zsum_zero. intros x _. apply (not_node P memo limit r (Some C) g f Sh F). now left.
  Qed.
  Lemma out_zero : forall u v, outflow g f u = 0 -> f u v = 0.
  Proof. intros u v H. pose proof (out_one u v). pose proof (fe_pos _ _ F u v). lia. Qed.
  Lemma dry_node : forall n, In n (tree_nodes root) -> inflow g f (TN (t_id n)) = 0 -> outflow g f (TLim (t_id n)) = 0 /\ outflow g f (TOvf (t_id n)) = 0.
  Proof.
    intros n N H. pose proof (dry (TN (t_id n)) ltac:(discriminate) ltac:(discriminate) H) as O.
    assert (L : outflow g f (TLim (t_id n)) = 0).
    { apply dry; try discriminate. rewrite (in_one (TLim (t_id n)) (TN (t_id n))) by (intros z e0 Ez; exact (wi_lim _ _ _ _ _ Wi _ _ _ Ez)). now apply out_zero. }
    split; [exact L|]. apply dry; try discriminate. rewrite (in_one (TOvf (t_id n)) (TLim (t_id n))) by (intros z e0 Ez; exact (wi_ovf _ _ _ _ _ Wi _ _ _ Ez)). now apply out_zero.
  Qed.
  Lemma dry_below : forall n, In n (tree_nodes root) -> inflow g f (TN (t_id n)) = 0 -> forall x, In x (tree_nodes n) -> inflow g f (TN (t_id x)) = 0.
  Proof.
    intros n. induction n as [n IH] using tree_ind'. intros N H x X. rewrite tree_eq in X. destruct X as [<-|X]; [exact H|].
    apply in_flat_map in X. destruct X as (k & K1 & K2). apply (IH k K1); [eapply tree_child; eauto| |exact K2].
    destruct (dry_node n N H) as [D1 D2]. apply Zsum_zero. intros u _.
    destruct (edge_of g u (TN (t_id k))) as [e|] eqn:E; [|now apply (fe_edges _ _ F)].
    destruct (into_kid n k u e N K1 E) as [-> | ->]; now apply out_zero.
  Qed.
  Lemma dry_account : forall b, (forall p, In p (tree_nodes root) -> body_src (t_body p) = TLeaf b -> inflow g f (TN (t_id p)) = 0) -> outflow g f (Acc b) = 0.
  Proof.
    intros b H. apply dry; try discriminate. apply Zsum_zero. intros u _. destruct (edge_of g u (Acc b)) as [e|] eqn:E; [|now apply (fe_edges _ _ F)].
    destruct (wi_acc _ _ _ _ _ Wi _ _ _ E) as (p & P1 & P2 & ->). apply out_zero. apply dry_node; auto.
  Qed.
  Definition lead_path (es : list (gnode * gnode)) (a : nat) : list (gnode * gnode) := (TLim r, TN (t_id d)) :: es ++ [(Acc a, Snk)].
  Variables (M : Z) (a : nat) (es : list (gnode * gnode)).
  Hypothesis Pt : path_to g C d a es.
  Hypothesis Hcost : weight g (TLim r) (TN (t_id d)) + path_cost g es <= M.
  Hypothesis Later : forall c, In c post -> M < weight g (TLim r) (TN (t_id c)).
  Hypothesis Last : edge_of g (Acc a) Snk <> None.
  Hypothesis Room : has_room g f a.
  Lemma src_not : forall x y, In (x, y) es -> x <> TLim r /\ x <> TN r /\ x <> Src /\ (forall b, x <> Acc b).
  Proof.
    intros x y I. destruct (path_sources _ _ _ _ _ Pt x y I) as (m & M1 & M2). pose proof (distinct_not_self root d m DN ld_kid M1) as N. fold r in N.
    destruct M2 as [-> | ->]; repeat split; try discriminate; congruence.
  Qed.
  Lemma lead_chain : chain (TLim r) (lead_path es a) Snk.
  Proof. split; [reflexivity|]. apply chain_snoc. exact (path_chain _ _ _ _ _ Pt). Qed.
  Lemma lead_nodup : NoDup (lead_path es a).
  Proof.
    constructor.
    - intros Q. apply in_app_or in Q. destruct Q as [Q|[Q|[]]]; [|discriminate]. now apply (proj1 (src_not _ _ Q)).
    - apply (Permutation_NoDup (l := (Acc a, Snk) :: es)); [apply Permutation_cons_append|]. constructor; [intros Q; now apply (proj2 (proj2 (proj2 (src_not _ _ Q))) a)|].
      eapply path_nodup; [exact Pt|]. eapply distinct_kid; [exact DN|exact ld_kid].
  Qed.
  Lemma lead_edges : forall x y, In (x, y) (lead_path es a) -> exists e, edge_of g x y = Some e.
  Proof.
    intros x y [Q|Q]; [injection Q as <- <-; destruct Rd as (e & E & _); eauto|]. apply in_app_or in Q. destruct Q as [Q|[Q|[]]]; [eapply path_edges; eauto|].
    injection Q as <- <-. destruct (edge_of g (Acc a) Snk) as [e|]; [eauto|contradiction].
  Qed.
  Lemma lead_cost : path_cost g (lead_path es a) <= M.
  Proof.
    assert (W0 : weight g (Acc a) Snk = 0).
    { unfold weight. destruct (edge_of g (Acc a) Snk) as [[k z]|] eqn:E; [|reflexivity]. pose proof (w_none _ _ Wv _ _ _ E I) as N. cbn in N. now subst z. }
    unfold lead_path. change (path_cost g ((TLim r, TN (t_id d)) :: es ++ [(Acc a, Snk)])) with (weight g (TLim r) (TN (t_id d)) + path_cost g (es ++ [(Acc a, Snk)])).
    unfold path_cost in *. rewrite map_app, Zsum_app. unfold Zsum at 2. cbn [map fold_right]. unfold edge_weight at 2. cbn [fst snd]. lia.
  Qed.
  Lemma into_d : inflow g f (TN (t_id d)) = f (TLim r) (TN (t_id d)).
  Proof. apply in_one. intros u e E. exact (into_list_kid root d u e (tree_self root) root_wt ld_kid E). Qed.
  (** every edge of the leading path has room for one more, if the item gets less than the total *)
  Lemma lead_room : f (TLim r) (TN (t_id d)) + 1 <= C -> forall x y e k, In (x, y) (lead_path es a) -> edge_of g x y = Some e -> e_cap e = Some k -> f x y + 1 <= k.
  Proof.
    intros HC x y e k I E K. destruct I as [Q|Q].
    - injection Q as <- <-. destruct Rd as (e' & E' & K'). congruence.
    - apply in_app_or in Q. destruct Q as [Q|[Q|[]]].
      + rewrite (path_caps _ _ _ _ _ Pt x y e k Q E K).
        assert (f x y <= inflow g f (TN (t_id d))); [|rewrite into_d in *; lia].
        eapply path_bound; [exact Pt| | |destruct Rd as (e' & E' & _); eauto|exact Q]; [eapply tree_child; [apply tree_self|exact ld_kid]|exact (proj2 (proj2 (proj2 Ld)))].
      + injection Q as <- <-. eapply Room; eauto.
  Qed.
  Lemma no_way_back : forall c w es', In c post -> chain (TN (t_id c)) es' w -> positive f es' -> w <> TLim r /\ w <> TN r /\ w <> Src.
  Proof.
    intros c w es' Hc. revert w. induction es' as [|[x y] es' IH] using rev_ind; intros w Ch Po.
    - cbn in Ch. subst w. assert (Kc : In c (kids root)) by (rewrite ld_kids; apply in_or_app; right; now right).
      pose proof (kid_not_root root c (tree_self root) Kc) as N. repeat split; try discriminate. congruence.
    - assert (K : chain (TN (t_id c)) es' x /\ y = w).
      { clear -Ch. revert Ch. generalize (TN (t_id c)) as u. induction es' as [|[p q] es' IH]; intros u Ch; cbn in *; [destruct Ch as [-> ->]; auto|]. destruct Ch as [-> Ch]. destruct (IH _ Ch) as [H1 H2]. auto. }
      destruct K as [K ->]. assert (Po' : positive f es') by (intros p q Hp; apply Po, in_or_app; now left).
      destruct (IH x K Po') as (N1 & N2 & N3). assert (Px : 0 < f x w) by (apply Po, in_or_app; right; now left).
      assert (exists e, edge_of g x w = Some e) as [e E] by (destruct (edge_of g x w) as [e|] eqn:E; [eauto|rewrite (fe_edges _ _ F _ _ E) in Px; lia]).
      repeat split; intros ->.
      + apply N2. exact (wi_lim _ _ _ _ _ Wi _ _ _ E).
      + apply N3. exact (into_root _ _ E).
      + rewrite (sh_tosrc _ _ _ _ _ _ Sh) in E. discriminate.
  Qed.
  (** while an account of the leading item has room, the later items get nothing *)
  Lemma lead_first : forall c, In c post -> optimal g f -> f (TLim r) (TN (t_id c)) = 0.
  Proof.
    intros c Hc [_ Opt]. pose proof (fe_pos _ _ F (TLim r) (TN (t_id c))) as Pos. destruct (Z.eq_dec (f (TLim r) (TN (t_id c))) 0) as [E0|N0]; [exact E0|exfalso].
    assert (Pc : 0 < f (TLim r) (TN (t_id c))) by lia.
    destruct (reach_sink g f (TLim r) (TN (t_id c)) (sh_wf _ _ _ _ _ _ Sh) F (sh_tosrc _ _ _ _ _ _ Sh) Pc) as (ps & Ch & ND & Po).
    { intros es' Ch Po. destruct (no_way_back c (TLim r) es' Hc Ch Po) as [N _]. now apply N. }
    assert (Ncd : t_id c <> t_id d).
    { intros Q. pose proof DN as D. unfold distinct_nodes in D. rewrite tree_eq, ld_kids in D. cbn [map] in D. apply NoDup_cons_iff in D. destruct D as [_ D].
      rewrite flat_map_app, map_app in D. apply nodup_app in D. destruct D as (_ & D & _). cbn [flat_map] in D. rewrite map_app in D. apply nodup_app in D. destruct D as (_ & _ & D).
      apply (D (t_id d)); [apply in_map, tree_self|]. rewrite <- Q. apply in_map, in_flat_map. exists c. split; [exact Hc|apply tree_self]. }
    destruct root_out as (R1 & R2 & R3).
    assert (HC1 : f (TLim r) (TN (t_id d)) + 1 <= C).
    { pose proof (out_ge (TLim r) [TN (t_id d); TN (t_id c)] ltac:(constructor; [intros [Q|[]]; congruence|constructor; [intros []|constructor]])) as O.
      unfold Zsum in O. cbn in O. lia. }
    set (R := (TLim r, TN (t_id c)) :: ps). set (A := lead_path es a).
    assert (NR : NoDup R).
    { assert (X : NoDup (map snd R)) by (exact ND). clear -X. apply NoDup_map_inv in X. exact X. }
    assert (PR : positive f R) by (intros x y [Q|Q]; [injection Q as <- <-; exact Pc|now apply Po]).
    assert (CR : chain (TLim r) R Snk) by (split; [reflexivity|exact Ch]).
    destruct (swap_feasible g f R A (sh_wf _ _ _ _ _ _ Sh) F NR lead_nodup PR lead_edges (lead_room HC1)) as [FE PRS].
    { intros z _ _. pose proof (chain_balance R _ _ z CR). pose proof (chain_balance A _ _ z lead_chain). lia. }
    assert (KN : forall e, In e (times (-1) R ++ times 1 A) -> In (fst (snd e)) (nodes g) /\ In (snd (snd e)) (nodes g)).
    { intros e He. destruct (PRS e He) as [x X]. destruct (sh_wf _ _ _ _ _ _ Sh) as (_ & _ & We). eapply We; eauto. }
    assert (NDg : NoDup (nodes g)) by (apply (sh_wf _ _ _ _ _ _ Sh)).
    destruct (Opt _ FE) as [_ O2]. rewrite swap_out in O2; [|exact NDg|intros e He; now apply KN].
    assert (S0 : forall l : list (gnode * gnode), (forall x y, In (x, y) l -> x <> Src) -> Zsum (map (fun e => unit_at Src (fst e)) l) = 0).
    { clear. intros l H. apply Zsum_zero. intros [x y] I. unfold unit_at. cbn [fst]. specialize (H x y I). destruct (geqb Src x) eqn:E; [|reflexivity]. apply geqb_eq in E. congruence. }
    rewrite (S0 R), (S0 A) in O2.
    - specialize (O2 ltac:(lia)). rewrite swap_cost in O2; [|exact NDg|exact KN].
      assert (path_cost g ps >= 0) by (unfold path_cost; apply Z.le_ge, Zsum_pos; intros [x y] _; apply weight_pos; apply (w_pos _ _ Wv)).
      change (path_cost g R) with (weight g (TLim r) (TN (t_id c)) + path_cost g ps) in O2. pose proof lead_cost. pose proof (Later c Hc). unfold A in O2. lia.
    - intros x y [Q|Q]; [injection Q as <- <-; discriminate|]. apply in_app_or in Q. destruct Q as [Q|[Q|[]]]; [now apply (src_not x y)|injection Q as <- <-; discriminate].
    - intros x y [Q|Q] ->; [discriminate|]. apply in_split in Q. destruct Q as (l1 & l2 & ->).
      assert (K : chain (TN (t_id c)) l1 Src).
      { clear -Ch. revert Ch. generalize (TN (t_id c)) as u. induction l1 as [|[p q] l1 IH]; intros u Ch; cbn in *; [symmetry; apply Ch|]. split; [apply Ch|]. apply IH. apply Ch. }
      destruct (no_way_back c Src l1 Hc K) as (_ & _ & N); [|now apply N]. intros p q Hp. apply Po, in_or_app. now left.
  Qed.
  (** and no money is left over *)
  Lemma lead_placed : optimal g f -> f Src (TN r) = C.
  Proof.
    intros [_ Opt]. destruct root_out as (R1 & R2 & R3). destruct (Z.eq_dec (f Src (TN r)) C) as [E0|N0]; [exact E0|exfalso].
    destruct Sr as (e1 & E1 & K1). destruct Rt as (e2 & E2 & K2).
    assert (HC1 : f (TLim r) (TN (t_id d)) + 1 <= C) by (pose proof (out_one (TLim r) (TN (t_id d))); lia).
    set (A := (Src, TN r) :: (TN r, TLim r) :: lead_path es a).
    assert (LS : forall x y, In (x, y) (lead_path es a) -> x <> Src /\ x <> TN r).
    { intros x y [Q|Q]; [injection Q as <- <-; split; discriminate|]. apply in_app_or in Q. destruct Q as [Q|[Q|[]]]; [now apply (src_not x y) in Q|injection Q as <- <-; split; discriminate]. }
    assert (NA : NoDup A).
    { constructor; [intros [Q|Q]; [discriminate|now apply (proj1 (LS _ _ Q))]|]. constructor; [intros Q; now apply (proj2 (LS _ _ Q))|exact lead_nodup]. }
    assert (CA : chain Src A Snk) by (split; [reflexivity|]; split; [reflexivity|exact lead_chain]).
    destruct (swap_feasible g f [] A (sh_wf _ _ _ _ _ _ Sh) F (NoDup_nil _) NA) as [FE PRS].
    { intros x y []. }
    { intros x y [Q|[Q|Q]]; [injection Q as <- <-; eauto|injection Q as <- <-; eauto|now apply lead_edges]. }
    { intros x y e k [Q|[Q|Q]] E K; [injection Q as <- <-; rewrite E1 in E; injection E as <-; rewrite K1 in K; injection K as <-; lia|injection Q as <- <-; congruence|eapply lead_room; eauto]. }
    { intros z N1 N2. pose proof (chain_balance A _ _ z CA) as B. unfold unit_at at 2 4 in B. apply geqb_neq in N1, N2. rewrite N1, N2 in B. unfold Zsum at 2 4. cbn [map fold_right]. lia. }
    assert (NDg : NoDup (nodes g)) by (apply (sh_wf _ _ _ _ _ _ Sh)).
    destruct (Opt _ FE) as [O1 _]. rewrite swap_out in O1; [|exact NDg|].
    - assert (X : Zsum (map (fun e => unit_at Src (fst e)) A) = 1).
      { unfold A. cbn [map fst]. change (1 + (0 + Zsum (map (fun e => unit_at Src (fst e)) (lead_path es a))) = 1).
        rewrite (Zsum_zero (fun e : gnode * gnode => unit_at Src (fst e))); [lia|]. intros [x y] I. unfold unit_at. cbn [fst]. destruct (LS x y I) as [N _]. destruct (geqb Src x) eqn:E; [|reflexivity]. apply geqb_eq in E. congruence. }
      rewrite X in O1. unfold Zsum in O1. cbn [map fold_right] in O1. lia.
    - intros e He. destruct (PRS e He) as [x X]. destruct (sh_wf _ _ _ _ _ _ Sh) as (_ & _ & We). eapply We; eauto.
  Qed.
  (** nothing reaches an account that occurs only in the later items *)
  Lemma lead_dry : forall b, optimal g f -> (forall c, In c (pre ++ [d]) -> ~ acct_below c b) -> outflow g f (Acc b) = 0.
  Proof.
    intros b Opt Nb. apply dry_account. intros p P1 P2. rewrite tree_eq, ld_kids in P1. destruct P1 as [<-|P1]; [rewrite (proj1 Ld) in P2; discriminate|].
    apply in_flat_map in P1. destruct P1 as (k & K1 & K2). assert (Kk : In k (kids root)) by (now rewrite ld_kids).
    destruct (in_dec Nat.eq_dec (t_id k) (map t_id post)) as [Ip|Ip].
    - apply in_map_iff in Ip. destruct Ip as (c & Q & Ic). assert (Kc : In c (kids root)) by (rewrite ld_kids; apply in_or_app; right; now right).
      assert (c = k) as -> by (apply (distinct_id root c k DN); auto; eapply tree_child; eauto using tree_self).
      apply (dry_below k); [eapply tree_child; [apply tree_self|exact Kk]| |exact K2].
      rewrite (in_one (TN (t_id k)) (TLim r)) by (intros u e E; exact (into_list_kid root k u e (tree_self root) root_wt Kk E)). now apply lead_first.
    - exfalso. apply (Nb k); [|exists p; auto]. apply in_app_or in K1. apply in_or_app. destruct K1 as [K1|[->|K1]]; [now left|right; now left|exfalso; now apply Ip, in_map].
  Qed.
End Lead.

(** ** The accounts of a tree *)
Lemma accounts_S : forall f n, accounts_of (S f) n = match body_src (t_body n) with
      | TLeaf a => Ok [a]
      | _ => let* cs := children_of n in
             (fix go l := match l with [] => Ok [] | c :: r => let* x := accounts_of f c in let* y := go r in Ok (x ++ y) end) cs
      end.
Proof. reflexivity. Qed.
Lemma accounts_below : forall fuel n acs a, accounts_of fuel n = Ok acs -> (In a acs <-> acct_below n a).
Proof.
  induction fuel as [|f IH]; intros n acs a H; [discriminate|]. rewrite accounts_S in H.
  assert (Par : forall cs, children_of n = Ok cs -> (forall b, body_src (t_body n) <> TLeaf b) ->
    (fix go l := match l with [] => Ok [] | c :: r => let* x := accounts_of f c in let* y := go r in Ok (x ++ y) end) cs = Ok acs -> (In a acs <-> acct_below n a)).
  { intros cs Cs Nl G. assert (Kc : forall c, In c (kids n) <-> In c cs).
    { intros c. rewrite <- child_kids. unfold is_child. rewrite Cs. split; [intros (l & Q & I); injection Q as <-; exact I|eauto]. }
    assert (A : In a acs <-> exists c, In c cs /\ acct_below c a).
    { clear -IH G. revert acs G. induction cs as [|c cs IHc]; intros acs G; cbn in G; [injection G as <-; split; [intros []|intros (c & [] & _)]|].
      destruct (accounts_of f c) as [x|] eqn:X; [|discriminate]. cbn [bind] in G. match type of G with bind ?Y _ = _ => destruct Y as [y|] eqn:Yq; [|discriminate] end. cbn [bind] in G. injection G as <-.
      rewrite in_app_iff, (IH c x a X), (IHc y eq_refl). split.
      - intros [H|(c' & I & H)]; [exists c; split; [now left|exact H]|exists c'; split; [now right|exact H]].
      - intros (c' & [->|I] & H); [now left|right; eauto]. }
    rewrite A. split.
    - intros (c & I & x & X1 & X2). apply Kc in I. exists x. split; [|exact X2]. rewrite tree_eq. right. apply in_flat_map. eauto.
    - intros (x & X1 & X2). rewrite tree_eq in X1. destruct X1 as [<-|X1]; [exfalso; eapply Nl; eauto|]. apply in_flat_map in X1. destruct X1 as (k & K1 & K2).
      exists k. split; [now apply Kc|]. exists x. auto. }
  destruct (body_src (t_body n)) as [b|l|l|l] eqn:B.
  - injection H as <-. split.
    + intros [<-|[]]. exists n. split; [apply tree_self|exact B].
    + intros (x & X1 & X2). rewrite tree_eq in X1. assert (kids n = []) as K by (unfold kids; destruct (t_body n); cbn in B; try reflexivity; discriminate). rewrite K in X1. destruct X1 as [<-|[]]. left. congruence.
  - destruct (children_of n) as [cs|] eqn:Cs; [|discriminate]. cbn [bind] in H. apply (Par cs eq_refl); [discriminate|exact H].
  - destruct (children_of n) as [cs|] eqn:Cs; [|discriminate]. cbn [bind] in H. apply (Par cs eq_refl); [discriminate|exact H].
  - destruct (children_of n) as [cs|] eqn:Cs; [|discriminate]. cbn [bind] in H. apply (Par cs eq_refl); [discriminate|exact H].
Qed.
(** ** One pass *)
Lemma pass_lead : forall P fuel root pre d post memo total limit tx memo' C, solver_ok_opt P -> item_at root pre d post ->
  traverse P fuel root memo (Fin total) limit = Ok (tx, memo') -> src_cap P memo root (Fin total) = Some C -> 0 <= C ->
  exists g f, feasible g f /\ shape P memo limit (t_id root) (Some C) g /\ memo' = merge_flows memo (flow_dict g f) /\ NoDup (dkeys tx) /\
    (forall a, In a (dkeys tx) -> acct_below root a) /\
    (forall a t, In (a, t) tx -> p_tx P limit a (if Qlt_bool total 0 then (- (p_prec P * fl (outflow g f (Acc a))))%Q else (p_prec P * fl (outflow g f (Acc a)))%Q) = Ok t) /\
    (forall a, acct_below d a -> p_grp P limit a = None -> In a (dkeys tx) /\
      (exists x e, p_limit P limit a = Ok x /\ edge_of g (Acc a) Snk = Some e /\ e_cap e = capx P x (flow_out memo (Acc a)) /\ outflow g f (Acc a) = f (Acc a) Snk) /\
      (has_room g f a -> outflow g f Src = C /\ (heads pre d -> forall b, (forall c, In c (pre ++ [d]) -> ~ acct_below c b) -> outflow g f (Acc b) = 0))) /\
    outflow g f Src <= Zsum (map (fun a => outflow g f (Acc a)) (dkeys tx)).
Proof.
  intros P fuel root pre d post memo total limit tx memo' C SO Ld H SC HC.
  pose proof (opt_world P SO) as W. destruct SO as (Hp & Sv & Hh).
  destruct (traverse_inv _ _ _ _ _ _ _ _ W H) as (g & f & B & F & S & M & N & K & PF & acs & AO & Dk & Dki).
  rewrite SC in S. pose proof (Sv _ _ PF) as Opt. pose proof (build_wiring P memo limit fuel root (Fin total) g Hh (proj1 (proj2 (proj2 Ld))) B) as Wi.
  pose proof (winv_build P memo limit fuel root (Fin total) g Hh B) as Wv.
  destruct (lead_graph P memo limit fuel root pre d post total g C Hh Ld B SC HC) as (Sr & Rt & Rd & M0 & Pa & Later).
  exists g, f. split; [exact F|]. split; [exact S|]. split; [exact M|]. split; [exact N|]. split; [|split; [exact K|split]].
  - intros a Ha. apply (accounts_below fuel root acs a AO). now apply Dki.
  - intros a Ba Ng. destruct (Pa a Ba) as (es & Pt & Hc & Hl). specialize (Hl Ng).
    destruct (edge_of g (Acc a) Snk) as [e|] eqn:E; [|congruence].
    assert (NDa : In (Acc a) (nodes g)) by (destruct (sh_wf _ _ _ _ _ _ S) as (_ & _ & We); exact (proj1 (We _ _ _ E))).
    split; [|split].
    + apply Dk; [|exact NDa]. apply (accounts_below fuel root acs a AO). destruct Ba as (x & X1 & X2). exists x. split; [|exact X2].
      eapply tree_trans; [|exact X1]. eapply tree_child; [apply tree_self|]. exact (ld_kid root pre d post Ld).
    + destruct (sh_acc _ _ _ _ _ _ S _ _ _ E) as (x & X & Q). rewrite Ng in Q. destruct Q as [_ Q]. exists x, e. split; [exact X|]. split; [reflexivity|]. split; [exact Q|].
      rewrite (acc_out _ _ _ _ _ _ _ S F). unfold acc_target. now rewrite Ng.
    + intros Room. assert (Hl' : edge_of g (Acc a) Snk <> None) by congruence. split.
      * rewrite (src_out _ _ _ _ _ _ _ S F). exact (lead_placed P memo limit root pre d post C g f Ld S Wi Wv F Sr Rt Rd a es Pt Hl' Room Opt).
      * intros Hx b Nb. exact (lead_dry P memo limit root pre d post C g f Ld S Wi Wv F Sr Rt Rd M0 a es Pt (Hc Hx) Later Hl' Room b Opt Nb).
  - rewrite <- (accounts_total _ _ _ _ _ _ _ S F). rewrite <- (map_map Acc (outflow g f)). apply Zsum_incl_le.
    + apply NoDup_filter. apply (sh_wf _ _ _ _ _ _ S).
    + intros x _. now apply out_pos.
    + intros x Hx Nx. apply filter_In in Hx. destruct Hx as [Hx Ax]. destruct x as [| | | | |a|]; try discriminate.
      rewrite (fe_cons _ _ F) by (assumption || discriminate). apply Zsum_zero. intros u _. apply (fe_edges _ _ F).
      destruct (edge_of g u (Acc a)) as [e|] eqn:E; [|reflexivity]. exfalso. destruct (wi_acc _ _ _ _ _ Wi _ _ _ E) as (p & P1 & P2 & _).
      apply Nx. apply in_map. apply Dk; [|exact Hx]. apply (accounts_below fuel root acs a AO). exists p. auto.
Qed.
