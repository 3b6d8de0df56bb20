(** C56: priority trees (TransactionNode). *)
From Verif Require Import Base BaseFacts TxGraphModel Prop_TxStrat.
From Coq Require Import Permutation Lia.
Local Open Scope nat_scope.

(** ** Specification *)
(** the accounts in a source structure, from left to right *)
Fixpoint node_accounts (n : tnode) : list nat := match n with TNode _ _ b => body_accounts b end
with body_accounts (b : tbody) : list nat :=
  match b with
  | TLeaf a => [a]
  | TOrd l => flat_map node_accounts l
  | TWt l => flat_map (fun c => node_accounts (fst c)) l
  | TCopied _ => []
  end.
Fixpoint src_accounts (s : src) : list nat :=
  match s with
  | SAcct a => [a]
  | SSeq l => flat_map src_accounts l
  | SDict l => flat_map (fun c => src_accounts (fst c)) l
  | SNode n => node_accounts n
  end.
(** no part of the tree is a copy-constructed node *)
Fixpoint whole (n : tnode) : Prop := match n with TNode _ _ b => whole_b b end
with whole_b (b : tbody) : Prop :=
  match b with
  | TLeaf _ => True
  | TOrd l => (fix go l := match l with [] => True | c :: r => whole c /\ go r end) l
  | TWt l => (fix go l := match l with [] => True | c :: r => whole (fst c) /\ go r end) l
  | TCopied _ => False
  end.
Fixpoint src_whole (s : src) : Prop :=
  match s with
  | SAcct _ => True
  | SSeq l => (fix go l := match l with [] => True | c :: r => src_whole c /\ go r end) l
  | SDict l => (fix go l := match l with [] => True | c :: r => src_whole (fst c) /\ go r end) l
  | SNode n => whole n
  end.
(** the source does not contain ready-made nodes *)
Fixpoint plain (s : src) : Prop :=
  match s with
  | SAcct _ => True
  | SSeq l => (fix go l := match l with [] => True | c :: r => plain c /\ go r end) l
  | SDict l => (fix go l := match l with [] => True | c :: r => plain (fst c) /\ go r end) l
  | SNode _ => False
  end.
(** how deep the tree is *)
Fixpoint depth (n : tnode) : nat := match n with TNode _ _ b => S (depth_b b) end
with depth_b (b : tbody) : nat :=
  match b with
  | TLeaf _ => O
  | TOrd l => fold_right Nat.max O (map depth l)
  | TWt l => fold_right Nat.max O (map (fun c => depth (fst c)) l)
  | TCopied _ => O
  end.
(** the identities of the nodes of a tree, parents first *)
Fixpoint node_ids (n : tnode) : list nat := match n with TNode i _ b => i :: body_ids b end
with body_ids (b : tbody) : list nat :=
  match b with
  | TLeaf _ => []
  | TOrd l => flat_map node_ids l
  | TWt l => flat_map (fun c => node_ids (fst c)) l
  | TCopied _ => []
  end.
Inductive subseq {A} : list A -> list A -> Prop :=
| sub_nil : subseq [] []
| sub_keep : forall x l m, subseq l m -> subseq (x :: l) (x :: m)
| sub_skip : forall x l m, subseq l m -> subseq l (x :: m).
(** how many of three statements hold *)
Definition count3 (a b c : bool) : nat := Nat.b2n a + Nat.b2n b + Nat.b2n c.

(** ** Induction over sources and trees *)
Section Ind.
  Variable P : src -> Prop.
  Hypothesis Ha : forall a, P (SAcct a).
  Hypothesis Hs : forall l, Forall P l -> P (SSeq l).
  Hypothesis Hd : forall l, Forall (fun c => P (fst c)) l -> P (SDict l).
  Hypothesis Hn : forall n, P (SNode n).
  Fixpoint src_ind2 (s : src) : P s :=
    match s with
    | SAcct a => Ha a
    | SSeq l => Hs l ((fix go l := match l return Forall P l with [] => Forall_nil _ | c :: r => Forall_cons _ (src_ind2 c) (go r) end) l)
    | SDict l => Hd l ((fix go l := match l return Forall (fun c => P (fst c)) l with [] => Forall_nil _ | c :: r => Forall_cons _ (src_ind2 (fst c)) (go r) end) l)
    | SNode n => Hn n
    end.
End Ind.
Section IndN.
  Variable P : tnode -> Prop.
  Variable Pb : tbody -> Prop.
  Hypothesis Hn : forall i l b, Pb b -> P (TNode i l b).
  Hypothesis Hl : forall a, Pb (TLeaf a).
  Hypothesis Ho : forall l, Forall P l -> Pb (TOrd l).
  Hypothesis Hw : forall l, Forall (fun c => P (fst c)) l -> Pb (TWt l).
  Hypothesis Hc : forall b, Pb b -> Pb (TCopied b).
  Fixpoint tnode_ind2 (n : tnode) : P n := match n with TNode i l b => Hn i l b (tbody_ind2 b) end
  with tbody_ind2 (b : tbody) : Pb b :=
    match b with
    | TLeaf a => Hl a
    | TOrd l => Ho l ((fix go l := match l return Forall P l with [] => Forall_nil _ | c :: r => Forall_cons _ (tnode_ind2 c) (go r) end) l)
    | TWt l => Hw l ((fix go l := match l return Forall (fun c => P (fst c)) l with [] => Forall_nil _ | c :: r => Forall_cons _ (tnode_ind2 (fst c)) (go r) end) l)
    | TCopied b => Hc b (tbody_ind2 b)
    end.
End IndN.

Definition seq_go := fix go (l : list src) (k : nat) := match l with
                              | [] => ([], k)
                              | SNode n :: t => let (ns, k') := go t k in (n :: ns, k')
                              | s :: t => let (n, k1) := mk_node s no_limits k in let (ns, k') := go t k1 in (n :: ns, k')
                              end.
Definition dict_go := fix go (l : list (src * Q)) (k : nat) := match l with
                              | [] => ([], k)
                              | (SNode n, w) :: t => let (ns, k') := go t k in ((n, w) :: ns, k')
                              | (s, w) :: t => let (n, k1) := mk_node s no_limits k in let (ns, k') := go t k1 in ((n, w) :: ns, k')
                              end.
Lemma mk_seq : forall l lims k, mk_node (SSeq l) lims k = (TNode k lims (TOrd (fst (seq_go l (S k)))), snd (seq_go l (S k))).
Proof. reflexivity. Qed.
Lemma mk_dict : forall l lims k, mk_node (SDict l) lims k = (TNode k lims (TWt (fst (dict_go l (S k)))), snd (dict_go l (S k))).
Proof. reflexivity. Qed.

(** C56: whatever a source is made of, the node built from it is exactly one of leaf, ordered and
    weighted, and which one is determined by what the source is; the node has the given limits *)
Theorem C56_exactly_one_kind : forall s lims next,
  let n := fst (mk_node s lims next) in
  count3 (is_leaf n) (is_ordered n) (is_weighted n) = 1 /\
  is_parent n = negb (is_leaf n) /\
  match s with
  | SAcct _ => is_leaf n = true
  | SSeq _ => is_ordered n = true
  | SDict _ => is_weighted n = true
  | SNode m => is_leaf n = is_leaf m /\ is_ordered n = is_ordered m /\ is_weighted n = is_weighted m
  end /\
  (match s with SNode m => t_lims n = t_lims m | _ => t_lims n = lims end).
Proof.
  intros s lims next.
  assert (K : forall n, count3 (is_leaf n) (is_ordered n) (is_weighted n) = 1 /\ is_parent n = negb (is_leaf n)).
  { intros [i l b]. unfold count3, is_leaf, is_parent, is_ordered, is_weighted. cbn [t_body].
    assert (B : match body_src b with TCopied _ => False | _ => True end) by (induction b; cbn; auto).
    destruct (body_src b); cbn; auto. }
  intros n. split; [apply K|]. split; [apply K|]. subst n.
  destruct s; cbn; auto.
Qed.
Print Assumptions C56_exactly_one_kind.

(** C56: nothing is lost, added or reordered: the leaves of the node built from any source are
    exactly the accounts of the source in order *)
Lemma fst_mk : forall s lims k, (match s with SNode _ => False | _ => True end) -> node_accounts (fst (mk_node s lims k)) = src_accounts s.
Proof.
  intros s. induction s as [a|l IH|l IH|n] using src_ind2; intros lims k H; try contradiction; clear H.
  - reflexivity.
  - rewrite mk_seq. cbn [fst node_accounts body_accounts src_accounts]. generalize (S k). clear k lims.
    induction IH as [|c l Hc _ IHl]; intros k; [reflexivity|].
    destruct c as [a|l'|l'|m];
      [| | |cbn [seq_go]; pose proof (IHl k) as R; destruct (seq_go l k); cbn in R |- *; now rewrite R];
      cbn [seq_go]; match goal with |- context [mk_node ?s ?lm k] => pose proof (Hc lm k I) as Hk; destruct (mk_node s lm k) as [n k1] end;
      pose proof (IHl k1) as R; destruct (seq_go l k1); cbn [fst flat_map] in *; now rewrite R, Hk.
  - rewrite mk_dict. cbn [fst node_accounts body_accounts src_accounts]. generalize (S k). clear k lims.
    induction IH as [|c l Hc _ IHl]; intros k; [reflexivity|].
    destruct c as [[a|l'|l'|m] w];
      [| | |cbn [dict_go]; pose proof (IHl k) as R; destruct (dict_go l k); cbn in R |- *; now rewrite R];
      cbn [dict_go]; cbn [fst] in Hc; match goal with |- context [mk_node ?s ?lm k] => pose proof (Hc lm k I) as Hk; destruct (mk_node s lm k) as [n k1] end;
      pose proof (IHl k1) as R; destruct (dict_go l k1); cbn [fst flat_map] in *; now rewrite R, Hk.
Qed.
Theorem C56_accounts_kept_in_order : forall s lims next, (match s with SNode _ => False | _ => True end) ->
  node_accounts (fst (mk_node s lims next)) = src_accounts s.
Proof. exact fst_mk. Qed.
Print Assumptions C56_accounts_kept_in_order.

Lemma mk_whole : forall s lims k, (match s with SNode _ => False | _ => True end) -> src_whole s -> whole (fst (mk_node s lims k)).
Proof.
  intros s. induction s as [a|l IH|l IH|n] using src_ind2; intros lims k H W; try contradiction; clear H.
  - exact I.
  - rewrite mk_seq. cbn [fst whole whole_b]. cbn [src_whole] in W. revert W. generalize (S k). clear k lims.
    induction IH as [|c l Hc _ IHl]; intros k W; [exact I|]. destruct W as [W1 W2].
    destruct c as [a|l'|l'|m];
      [| | |cbn [seq_go]; pose proof (IHl k W2) as R; destruct (seq_go l k); cbn in R |- *; auto];
      cbn [seq_go]; match goal with |- context [mk_node ?s ?lm k] => pose proof (Hc lm k I W1) as Hk; destruct (mk_node s lm k) as [n k1] end;
      pose proof (IHl k1 W2) as R; destruct (seq_go l k1); cbn [fst] in *; split; auto.
  - rewrite mk_dict. cbn [fst whole whole_b]. cbn [src_whole] in W. revert W. generalize (S k). clear k lims.
    induction IH as [|c l Hc _ IHl]; intros k W; [exact I|]. destruct W as [W1 W2].
    destruct c as [[a|l'|l'|m] w];
      [| | |cbn [dict_go]; pose proof (IHl k W2) as R; destruct (dict_go l k); cbn in R |- *; auto];
      cbn [dict_go]; cbn [fst] in Hc, W1; match goal with |- context [mk_node ?s ?lm k] => pose proof (Hc lm k I W1) as Hk; destruct (mk_node s lm k) as [n k1] end;
      pose proof (IHl k1 W2) as R; destruct (dict_go l k1); cbn [fst] in *; split; auto.
Qed.
Lemma acc_whole : forall n, whole n -> forall fuel, depth n <= fuel -> accounts_of fuel n = Ok (node_accounts n).
Proof.
  intros n. apply (tnode_ind2 (fun n => whole n -> forall fuel, depth n <= fuel -> accounts_of fuel n = Ok (node_accounts n))
    (fun b => whole_b b -> forall i l fuel, S (depth_b b) <= fuel -> accounts_of fuel (TNode i l b) = Ok (body_accounts b))); clear n.
  - intros i l b IH W f H. now apply IH.
  - intros a _ i l [|f] H; [lia|reflexivity].
  - intros l IH W i lm [|f] H; [lia|]. cbn [accounts_of t_body body_src children_of bind body_accounts].
    cbn [depth_b] in H. cbn [whole_b] in W.
    assert (H' : fold_right Nat.max 0 (map depth l) <= f) by lia. clear H.
    induction IH as [|c r Hc _ IHl]; [reflexivity|]. cbn [map fold_right] in H'. destruct W as [W1 W2].
    rewrite Hc by (auto; lia). cbn [bind]. rewrite IHl by (auto; lia). reflexivity.
  - intros l IH W i lm [|f] H; [lia|]. cbn [accounts_of t_body body_src children_of bind body_accounts].
    cbn [depth_b] in H. cbn [whole_b] in W.
    assert (H' : fold_right Nat.max 0 (map (fun c => depth (fst c)) l) <= f) by lia. clear H.
    induction IH as [|c r Hc _ IHl]; [reflexivity|]. cbn [map fold_right] in H'. destruct W as [W1 W2].
    cbn [map]. rewrite Hc by (auto; lia). cbn [bind]. rewrite IHl by (auto; lia). reflexivity.
  - intros b _ [].
Qed.
(** C56: so the accounts the traversal works on are exactly the accounts of the source (as long as
    Python's recursion limit is not reached) *)
Theorem C56_traversal_sees_every_account : forall s lims next fuel,
  (match s with SNode _ => False | _ => True end) -> src_whole s ->
  depth (fst (mk_node s lims next)) <= fuel ->
  accounts_of fuel (fst (mk_node s lims next)) = Ok (src_accounts s).
Proof. intros s lims k f H W D. rewrite acc_whole by (auto using mk_whole). now rewrite fst_mk. Qed.
Print Assumptions C56_traversal_sees_every_account.

(** C56: every node built is a new object: no two nodes of the tree are the same object, and none
    is an object that existed before *)
Lemma mk_ids : forall s lims k, plain s ->
  node_ids (fst (mk_node s lims k)) = seq k (snd (mk_node s lims k) - k) /\ k < snd (mk_node s lims k).
Proof.
  intros s. induction s as [a|l IH|l IH|n] using src_ind2; intros lims k H; try contradiction.
  - cbn [mk_node fst snd node_ids body_ids]. replace (S k - k) with 1 by lia. split; [reflexivity|lia].
  - rewrite mk_seq. cbn [fst snd node_ids body_ids]. cbn [plain] in H.
    assert (E : forall m, flat_map node_ids (fst (seq_go l m)) = seq m (snd (seq_go l m) - m) /\ m <= snd (seq_go l m)).
    { clear k lims. induction IH as [|c r Hc _ IHl]; intros m; [cbn; split; [now rewrite Nat.sub_diag|lia]|].
      destruct H as [H1 H2].
      destruct c as [a|l'|l'|q]; [| | |contradiction];
      cbn [seq_go]; match goal with |- context [mk_node ?s ?lm m] => destruct (Hc lm m H1) as [Hi Hlt]; destruct (mk_node s lm m) as [n k1] end;
        destruct (IHl H2 k1) as [Ri Rl]; destruct (seq_go r k1) as [ns k2]; cbn [fst snd flat_map] in *; rewrite Ri, Hi;
        (split; [replace (k2 - m) with ((k1 - m) + (k2 - k1)) by lia; rewrite seq_app; do 2 f_equal; lia|lia]). }
    destruct (E (S k)) as [E1 E2]. rewrite E1. split; [|lia]. destruct (snd (seq_go l (S k)) - k) as [|d] eqn:D; [lia|].
    cbn [seq]. do 2 f_equal. lia.
  - rewrite mk_dict. cbn [fst snd node_ids body_ids]. cbn [plain] in H.
    assert (E : forall m, flat_map (fun c => node_ids (fst c)) (fst (dict_go l m)) = seq m (snd (dict_go l m) - m) /\ m <= snd (dict_go l m)).
    { clear k lims. induction IH as [|c r Hc _ IHl]; intros m; [cbn; split; [now rewrite Nat.sub_diag|lia]|].
      destruct H as [H1 H2].
      destruct c as [[a|l'|l'|q] w]; [| | |contradiction];
      cbn [dict_go]; cbn [fst] in H1, Hc; match goal with |- context [mk_node ?s ?lm m] => destruct (Hc lm m H1) as [Hi Hlt]; destruct (mk_node s lm m) as [n k1] end;
        destruct (IHl H2 k1) as [Ri Rl]; destruct (dict_go r k1) as [ns k2]; cbn [fst snd flat_map] in *; rewrite Ri, Hi;
        (split; [replace (k2 - m) with ((k1 - m) + (k2 - k1)) by lia; rewrite seq_app; do 2 f_equal; lia|lia]). }
    destruct (E (S k)) as [E1 E2]. rewrite E1. split; [|lia]. destruct (snd (dict_go l (S k)) - k) as [|d] eqn:D; [lia|].
    cbn [seq]. do 2 f_equal. lia.
Qed.
Theorem C56_nodes_are_fresh : forall s lims next, plain s ->
  NoDup (node_ids (fst (mk_node s lims next))) /\ (forall i, In i (node_ids (fst (mk_node s lims next))) -> next <= i).
Proof.
  intros s lims k H. destruct (mk_ids s lims k H) as [E _]. rewrite E. split; [apply seq_NoDup|].
  intros i Hi. apply in_seq in Hi. lia.
Qed.
Print Assumptions C56_nodes_are_fresh.

(** C56: taking a subset of an ordered node's children keeps exactly the children asked for, in
    priority order, and is refused exactly when something asked for is not a child *)
Lemma filter_subseq : forall {A} (f : A -> bool) l, subseq (filter f l) l.
Proof. intros A f l. induction l as [|x l IH]; cbn; [constructor|]. destruct (f x); now constructor. Qed.
Lemma has_node_In : forall c l, has_node c l = true <-> exists m, In m l /\ t_id m = t_id c.
Proof.
  intros c l. unfold has_node. rewrite existsb_exists. unfold node_eqb. split; intros [m [H1 H2]]; exists m; split; auto.
  - apply Nat.eqb_eq in H2. congruence.
  - apply Nat.eqb_eq. congruence.
Qed.
Theorem C56_ordered_subset : forall i lims l subset,
  (forall c, In c subset -> exists m, In m l /\ t_id m = t_id c) ->
  exists r, children_subset (TNode i lims (TOrd l)) subset = Ok (CSeq r) /\ subseq r l /\
    (forall m, In m r <-> In m l /\ exists c, In c subset /\ t_id c = t_id m).
Proof.
  intros i lims l s H. cbn.
  assert (E : forallb (fun c => has_node c l) s = true).
  { apply forallb_forall. intros c Hc. apply has_node_In. now apply H. }
  rewrite E. eexists. split; [reflexivity|]. split; [apply filter_subseq|].
  intros m. rewrite filter_In, has_node_In. reflexivity.
Qed.
Print Assumptions C56_ordered_subset.
Theorem C56_subset_refused_iff_not_a_child : forall i lims b subset, whole_b b ->
  (exists e, children_subset (TNode i lims b) subset = Err e) <->
  (exists l c, children_of (TNode i lims b) = Ok l /\ In c subset /\ forall m, In m l -> t_id m <> t_id c).
Proof.
  intros i lims b s W. destruct b as [a|l|l|b]; cbn in W |- *; [| | |contradiction].
  - split.
    + intros [e H]. destruct s as [|c s]; [discriminate|]. exists [], c. split; [reflexivity|]. split; [now left|]. intros m [].
    + intros (l & c & H1 & H2 & _). destruct s; [destruct H2|eauto].
  - split.
    + intros [e H]. destruct (forallb (fun c => has_node c l) s) eqn:E; [discriminate|].
      assert (X : exists c, In c s /\ has_node c l = false).
      { clear -E. induction s as [|c s IH]; [discriminate|]. cbn in E. destruct (has_node c l) eqn:F.
        - destruct (IH E) as [d [D1 D2]]. exists d. split; [now right|auto].
        - exists c. split; [now left|auto]. }
      destruct X as [c [C1 C2]]. exists l, c. split; [reflexivity|]. split; [auto|]. intros m Hm Q.
      assert (has_node c l = true) by (apply has_node_In; eauto). congruence.
    + intros (l' & c & H1 & H2 & H3). injection H1 as <-. destruct (forallb (fun c => has_node c l) s) eqn:E; [|eauto].
      rewrite forallb_forall in E. apply E in H2. apply has_node_In in H2. destruct H2 as [m [M1 M2]]. exfalso. eapply H3; eauto.
  - assert (K : forall c, dget node_eqb l c = None <-> forall m, In m (map fst l) -> t_id m <> t_id c).
    { intros c. clear W. induction l as [|[k v] l IH]; cbn; [tauto|]. unfold node_eqb at 1. rewrite (Nat.eqb_sym (t_id c)). destruct (t_id k =? t_id c) eqn:E.
      - apply Nat.eqb_eq in E. split; [intros H; discriminate H|]. intros H. exfalso. eapply H; eauto.
      - apply Nat.eqb_neq in E. rewrite IH. split; [intros H m [<-|Hm]; auto|auto]. }
    assert (K2 : forall s acc, ((exists e, (fix go s acc := match s with
                       | [] => Ok (CMap acc)
                       | c :: r => let* w := dget_r node_eqb l c in go r (dset node_eqb acc c w)
                       end) s acc = Err e) <-> exists c, In c s /\ dget node_eqb l c = None)).
    { clear. induction s as [|c s IH]; intros acc; [split; [intros [e H]; discriminate|intros [c [[] _]]]|].
      unfold dget_r. destruct (dget node_eqb l c) as [w|] eqn:E; cbn [bind].
      - rewrite IH. split; [intros [d [D1 D2]]; exists d; split; [now right|auto]|intros [d [[->|D1] D2]]; [congruence|eauto]].
      - split; [intros _; exists c; split; [now left|auto]|eauto]. }
    rewrite K2. split.
    + intros [c [C1 C2]]. exists (map fst l), c. split; [reflexivity|]. split; [auto|]. now apply K.
    + intros (l' & c & H1 & H2 & H3). injection H1 as <-. exists c. split; [auto|]. now apply K.
Qed.
Print Assumptions C56_subset_refused_iff_not_a_child.

(** C56: a subset of a weighted node's children keeps exactly the children asked for, each with the
    weight it has in the node *)
Lemma ndget_dset_node : forall (d : list (tnode * Q)) k k' v,
  dget node_eqb (dset node_eqb d k v) k' = if node_eqb k k' then Some v else dget node_eqb d k'.
Proof.
  intros d k k' v. unfold node_eqb. induction d as [|[a x] d IH]; cbn.
  - rewrite (Nat.eqb_sym (t_id k')). reflexivity.
  - destruct (t_id k =? t_id a) eqn:E; cbn.
    + apply Nat.eqb_eq in E. rewrite E, (Nat.eqb_sym (t_id a)). destruct (t_id k' =? t_id a); reflexivity.
    + rewrite IH. destruct (t_id k' =? t_id a) eqn:F; [|reflexivity].
      apply Nat.eqb_eq in F. rewrite F, E. reflexivity.
Qed.
Theorem C56_weighted_subset : forall i lims l subset,
  (forall c, In c subset -> exists m, In m (map fst l) /\ t_id m = t_id c) ->
  exists r, children_subset (TNode i lims (TWt l)) subset = Ok (CMap r) /\
    forall c, dget node_eqb r c = if has_node c subset then dget node_eqb l c else None.
Proof.
  intros i lims l s H. cbn.
  assert (K : forall s acc, (forall c, In c s -> exists m, In m (map fst l) /\ t_id m = t_id c) ->
    exists r, (fix go s acc := match s with
                       | [] => Ok (CMap acc)
                       | c :: r => let* w := dget_r node_eqb l c in go r (dset node_eqb acc c w)
                       end) s acc = Ok (CMap r) /\
      forall c, dget node_eqb r c = if has_node c s then dget node_eqb l c else dget node_eqb acc c).
  { clear. induction s as [|c s IH]; intros acc H; [exists acc; split; [reflexivity|reflexivity]|].
    destruct (H c (or_introl eq_refl)) as [m [M1 M2]]. unfold dget_r.
    destruct (dget node_eqb l c) as [w|] eqn:E.
    2:{ exfalso. clear -M1 M2 E. induction l as [|[k v] l IH]; [destruct M1|]. cbn in *. unfold node_eqb in E at 1. rewrite (Nat.eqb_sym (t_id c)) in E.
        destruct (t_id k =? t_id c) eqn:F; [discriminate|]. destruct M1 as [->|M1]; [apply Nat.eqb_neq in F; congruence|auto]. }
    cbn [bind]. destruct (IH (dset node_eqb acc c w)) as [r [R1 R2]]; [intros d Hd; apply H; now right|].
    exists r. split; [exact R1|]. intros d. rewrite R2, ndget_dset_node. cbn [has_node existsb].
    unfold has_node. cbn [existsb]. destruct (existsb (node_eqb d) s); [now rewrite orb_true_r|]. rewrite orb_false_r.
    assert (S : node_eqb c d = node_eqb d c) by (unfold node_eqb; apply Nat.eqb_sym). rewrite S.
    destruct (node_eqb d c) eqn:F; [|reflexivity]. rewrite <- E. unfold node_eqb in F. apply Nat.eqb_eq in F. clear -F.
    induction l as [|[k v] l IH]; [reflexivity|]. cbn. unfold node_eqb. rewrite F. destruct (t_id c =? t_id k); [reflexivity|exact IH]. }
  destruct (K s [] H) as [r [R1 R2]]. exists r. split; [exact R1|]. exact R2.
Qed.
Print Assumptions C56_weighted_subset.

(** C56, refuted part: a TransactionNode may be given as source (the documentation of
    TransactionTraversal offers it), but the node made from it has no children, so unless it is a
    single account every use of its children, and hence the traversal itself, fails *)
Theorem C56_node_of_a_node_refuted : forall n lims next,
  children_of (fst (mk_node (SNode n) lims next)) = Err AttributeError /\
  (is_parent n = true -> forall fuel, exists e, accounts_of fuel (fst (mk_node (SNode n) lims next)) = Err e).
Proof.
  intros n lims k. split; [reflexivity|]. intros H [|f]; [eexists; reflexivity|].
  cbn. unfold is_parent in H. destruct (body_src (t_body n)); try discriminate; eexists; reflexivity.
Qed.
Print Assumptions C56_node_of_a_node_refuted.

Example C56_sat :
  let s := SSeq [SAcct 1; SDict [(SAcct 2, 1%Q); (SSeq [SAcct 3; SAcct 4], 2%Q)]; SAcct 5] in
  src_whole s /\ plain s /\ src_accounts s = [1; 2; 3; 4; 5] /\ depth (fst (mk_node s no_limits 0)) = 4 /\
  accounts_of 4 (fst (mk_node s no_limits 0)) = Ok [1; 2; 3; 4; 5] /\
  node_ids (fst (mk_node s no_limits 7)) = [7; 8; 9; 10; 11; 12; 13; 14].
Proof. cbn. repeat split. Qed.
