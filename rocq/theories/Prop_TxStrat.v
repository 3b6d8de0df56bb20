(** C53, C54, C79: debt priorities and the priority tree of a transaction strategy. *)
From Verif Require Import Base BaseFacts TxStratModel.
From Coq Require Import Lia Permutation Sorted Qabs.
Local Open Scope Q_scope.

(** ** specification vocabulary *)
(** the same items, in an order given by R, items with equal keys in their original order *)
Definition stably_ordered {A} (key : A -> Q) (R : Q -> Q -> Prop) (l out : list A) : Prop :=
  Permutation out l /\ StronglySorted (fun x y => R (key x) (key y)) out /\
  forall k, filter (fun x => Qeq_bool (key x) k) out = filter (fun x => Qeq_bool (key x) k) l.
(** the accounts of a tree, in priority order *)
Fixpoint leaves (t : ptree) : list nat :=
  match t with
  | PLeaf a => [a]
  | POrd l => flat_map leaves l
  | PWt l => flat_map (fun x => leaves (fst x)) l
  end.

(** ** sorting *)
Section SortFacts.
  Context {A : Type} (leb : A -> A -> bool) (leb_total : forall x y, leb x y = true \/ leb y x = true)
    (leb_trans : forall x y z, leb x y = true -> leb y z = true -> leb x z = true).
  Lemma insert_perm x l : Permutation (insert_by leb x l) (x :: l).
  Proof. induction l as [|y r IH]; cbn; [reflexivity|]. destruct (leb x y); [reflexivity|]. rewrite IH. constructor. Qed.
  Lemma sort_perm l : Permutation (sort_by leb l) l.
  Proof. induction l as [|x l IH]; cbn; [constructor|]. rewrite insert_perm, IH. reflexivity. Qed.
  Lemma insert_sorted x l : StronglySorted (fun x y => leb x y = true) l -> StronglySorted (fun x y => leb x y = true) (insert_by leb x l).
  Proof.
    induction 1 as [|y r Hs IH Hf]; cbn; [constructor; constructor|]. destruct (leb x y) eqn:E.
    - constructor; [constructor; assumption|]. constructor; [exact E|]. eapply Forall_impl; [|exact Hf]. cbn. intros z Hz. eapply leb_trans; eassumption.
    - constructor; [exact IH|]. eapply Permutation_Forall; [symmetry; apply insert_perm|]. constructor; [|exact Hf]. destruct (leb_total x y); congruence.
  Qed.
  Lemma sort_sorted l : StronglySorted (fun x y => leb x y = true) (sort_by leb l).
  Proof. induction l; cbn; [constructor|apply insert_sorted; assumption]. Qed.
  Lemma insert_filter_in (f : A -> bool) x l : f x = true -> (forall y, f y = true -> leb x y = true) -> filter f (insert_by leb x l) = x :: filter f l.
  Proof.
    intros Hx Hf. induction l as [|y r IH]; cbn; [rewrite Hx; reflexivity|]. destruct (leb x y) eqn:E; cbn; [rewrite Hx; reflexivity|].
    destruct (f y) eqn:Ey; [rewrite (Hf y Ey) in E; discriminate|exact IH].
  Qed.
  Lemma insert_filter_out (f : A -> bool) x l : f x = false -> filter f (insert_by leb x l) = filter f l.
  Proof. intro Hx. induction l as [|y r IH]; cbn; [rewrite Hx; reflexivity|]. destruct (leb x y); cbn; rewrite ?Hx; [reflexivity|]. destruct (f y); rewrite IH; reflexivity. Qed.
  Lemma sort_filter (f : A -> bool) l : (forall x y, f x = true -> f y = true -> leb x y = true) -> filter f (sort_by leb l) = filter f l.
  Proof.
    intro Hf. induction l as [|x l IH]; [reflexivity|]. cbn [sort_by fold_right]. change (fold_right (insert_by leb) [] l) with (sort_by leb l). cbn [filter].
    destruct (f x) eqn:E; [rewrite insert_filter_in; [rewrite IH; reflexivity|exact E|auto]|rewrite insert_filter_out; assumption].
  Qed.
End SortFacts.
Lemma StronglySorted_impl {A} (R S : A -> A -> Prop) l : (forall x y, R x y -> S x y) -> StronglySorted R l -> StronglySorted S l.
Proof. intros H. induction 1; constructor; [assumption|]. eapply Forall_impl; [|eassumption]. auto. Qed.
Lemma sorted_by_spec {A} (key : A -> Q) l : stably_ordered key Qle l (sorted_by key l).
Proof.
  unfold sorted_by. split; [apply sort_perm|]. split.
  - eapply StronglySorted_impl; [|apply sort_sorted].
    + cbn. intros x y H. qb. exact H.
    + intros x y. destruct (Qlt_le_dec (key x) (key y)); [left|right]; apply Qle_bool_t; lra.
    + intros x y z H1 H2. qb. apply Qle_bool_t. lra.
  - intro k. apply sort_filter. intros x y H1 H2. qb. apply Qle_bool_t. lra.
Qed.
Lemma sorted_by_desc_spec {A} (key : A -> Q) l : stably_ordered key (fun a b => b <= a) l (sorted_by_desc key l).
Proof.
  unfold sorted_by_desc. split; [apply sort_perm|]. split.
  - eapply StronglySorted_impl; [|apply sort_sorted].
    + cbn. intros x y H. qb. exact H.
    + intros x y. destruct (Qlt_le_dec (key y) (key x)); [left|right]; apply Qle_bool_t; lra.
    + intros x y z H1 H2. qb. apply Qle_bool_t. lra.
  - intro k. apply sort_filter. intros x y H1 H2. qb. apply Qle_bool_t. lra.
Qed.

(** ** C53 *)
(** avalanche: highest rate first *)
Theorem C53_avalanche : forall w debts, stably_ordered (v_rate w) (fun a b => b <= a) debts (avalanche w debts).
Proof. intros. apply sorted_by_desc_spec. Qed.
Print Assumptions C53_avalanche.
(** snowball: smallest amount owing first *)
Theorem C53_snowball : forall w debts, stably_ordered (fun a => Qabs (v_balance w a)) Qle debts (snowball w debts).
Proof.
  intros w debts. destruct (sorted_by_spec (fun a => qabs (v_balance w a)) debts) as (A & B & C).
  assert (E : forall x, qabs x == Qabs x) by (intro x; destruct (qabs_case x) as [[? Ex]|[? Ex]]; rewrite Ex; symmetry; [apply Qabs_pos|apply Qabs_neg]; lra).
  split; [exact A|]. split; [eapply StronglySorted_impl; [|exact B]; cbn; intros x y H; rewrite <- !E; exact H|].
  intro k. specialize (C k). rewrite (filter_ext _ (fun x => Qeq_bool (qabs (v_balance w x)) k)).
  2:{ intro a. apply Bool.eq_iff_eq_true. rewrite !Qeq_bool_iff, E. reflexivity. }
  unfold snowball. rewrite C. apply filter_ext. intro a. apply Bool.eq_iff_eq_true. rewrite !Qeq_bool_iff, E. reflexivity.
Qed.
Print Assumptions C53_snowball.
(** such an order is unique: the specification leaves nothing open *)
Theorem C53_unique : forall A (key : A -> Q) l o o', stably_ordered key Qle l o -> stably_ordered key Qle l o' -> o = o'.
Proof.
  intros A key.
  assert (G : forall n o o', Datatypes.length o = n -> StronglySorted (fun x y => key x <= key y) o -> StronglySorted (fun x y => key x <= key y) o' -> Permutation o o' ->
     (forall k, filter (fun x => Qeq_bool (key x) k) o = filter (fun x => Qeq_bool (key x) k) o') -> o = o').
  { induction n as [|n IH]; intros o o' Hn S S' P F.
    - destruct o; [|discriminate]. apply Permutation_nil in P. subst. reflexivity.
    - destruct o as [|x o]; [discriminate|]. destruct o' as [|x' o']; [apply Permutation_sym, Permutation_nil in P; discriminate|].
      assert (E : key x == key x').
      { inversion S as [|? ? S1 S2]; inversion S' as [|? ? S1' S2']; subst. rewrite Forall_forall in S2, S2'.
        assert (I : In x' (x :: o)) by (eapply Permutation_in; [symmetry; exact P|left; reflexivity]).
        assert (I' : In x (x' :: o')) by (eapply Permutation_in; [exact P|left; reflexivity]).
        destruct I as [->|I]; [reflexivity|]. destruct I' as [->|I']; [reflexivity|]. specialize (S2 _ I). specialize (S2' _ I'). lra. }
      assert (Hx : x = x').
      { specialize (F (key x)). cbn [filter] in F. rewrite qeqb_refl in F. assert (T : Qeq_bool (key x') (key x) = true) by (apply Qeq_bool_t; lra). rewrite T in F. injection F as F _. exact F. }
      subst x'. f_equal. apply IH.
      + cbn in Hn. lia.
      + inversion S; assumption.
      + inversion S'; assumption.
      + eapply Permutation_cons_inv. exact P.
      + intro k. specialize (F k). cbn [filter] in F. destruct (Qeq_bool (key x) k); [injection F as F|]; exact F. }
  intros l o o' (P & S & F) (P' & S' & F'). eapply G; [reflexivity|exact S|exact S'|rewrite P, P'; reflexivity|]. intro k. rewrite F, F'. reflexivity.
Qed.
Print Assumptions C53_unique.
Definition demo_v : aview := {|
  v_mro := fun a => match a with 0%nat => ["TFSA"; "Account"]%string | 1%nat => ["RRSP"; "Account"]%string | 9%nat => ["Other"]%string | _ => ["Debt"; "Account"]%string end;
  v_debt := fun a => match a with 0%nat | 1%nat | 9%nat => false | _ => true end;
  v_balance := fun a => nth a [100; 50; -30; -10; -20; 0]%Q 5;
  v_rate := fun a => nth a [1#10; 1#10; 5#100; 20#100; 5#100; 3#100]%Q 0 |}.
Example C53_sat : avalanche demo_v [2; 3; 4]%nat = [3; 2; 4]%nat /\ snowball demo_v [2; 3; 4]%nat = [3; 4; 2]%nat.
Proof. split; vm_compute; reflexivity. Qed.

(** ** C54 *)
(** Python's set iteration order is unknown but lists each member once *)
Definition hash_ok (s : tstrat) : Prop := forall l, Permutation (ts_hash s l) l.
Definition owing (w : aview) (a : nat) : Prop := v_debt w a = true /\ v_balance w a < 0.
Lemma mem_In a l : mem a l = true <-> In a l.
Proof. unfold mem. rewrite existsb_exists. split; [intros (x & H & E); apply Nat.eqb_eq in E; subst; exact H|intro H; exists a; split; [exact H|apply Nat.eqb_refl]]. Qed.
Lemma mkset_In s l a : hash_ok s -> In a (mkset s l) <-> In a l.
Proof. intro H. unfold mkset. split; intro I. - eapply Permutation_in in I; [|apply H]. apply nodup_In in I. exact I. - eapply Permutation_in; [symmetry; apply H|]. apply nodup_In. exact I. Qed.
Lemma mkset_NoDup s l : hash_ok s -> NoDup (mkset s l).
Proof. intro H. eapply Permutation_NoDup; [symmetry; apply H|]. apply NoDup_nodup. Qed.
Theorem C54_partition : forall s w accounts low high t, hash_ok s -> ts_threshold s = Some t -> divide_debts s w accounts = (low, high) ->
  NoDup low /\ NoDup high /\ (forall a, ~ (In a low /\ In a high)) /\
  (forall a, In a low <-> In a accounts /\ owing w a /\ v_rate w a < t) /\
  (forall a, In a high <-> In a accounts /\ owing w a /\ t <= v_rate w a).
Proof.
  intros s w accounts low high t Hh Ht H. unfold divide_debts in H. rewrite Ht in H. injection H as <- <-.
  set (debts := mkset s (filter _ accounts)).
  assert (Hd : forall a, In a debts <-> In a accounts /\ owing w a).
  { intro a. unfold debts, owing. rewrite mkset_In, filter_In by exact Hh. rewrite Bool.andb_true_iff. split; [intros (? & ? & E); qb; auto|intros (? & ? & E); split; [auto|split; [auto|apply Qlt_bool_t; exact E]]]. }
  set (low := mkset s (filter (fun a => Qlt_bool (v_rate w a) t) debts)).
  assert (Hl : forall a, In a low <-> In a accounts /\ owing w a /\ v_rate w a < t).
  { intro a. unfold low. rewrite mkset_In, filter_In, Hd by exact Hh. split; [intros ((? & ?) & E); qb; auto|intros (? & ? & E); split; [auto|apply Qlt_bool_t; exact E]]. }
  assert (Hg : forall a, In a (mkset s (filter (fun a => negb (mem a low)) debts)) <-> In a accounts /\ owing w a /\ t <= v_rate w a).
  { intro a. rewrite mkset_In, filter_In, Hd, Bool.negb_true_iff by exact Hh. split.
    - intros ((? & ?) & E). split; [auto|]. split; [auto|]. destruct (Qlt_le_dec (v_rate w a) t) as [q|q]; [|exact q]. exfalso. assert (In a low) by (apply Hl; auto). apply mem_In in H1. congruence.
    - intros (? & ? & E). split; [auto|]. destruct (mem a low) eqn:Em; [|reflexivity]. apply mem_In, Hl in Em. destruct Em as (_ & _ & Em). lra. }
  split; [apply mkset_NoDup; exact Hh|]. split; [apply mkset_NoDup; exact Hh|]. split; [|split; [exact Hl|exact Hg]].
  intros a [A B]. apply Hl in A. apply Hg in B. destruct A as (_ & _ & A). destruct B as (_ & _ & B). lra.
Qed.
Print Assumptions C54_partition.
(** without a threshold every debt owing is classified low-interest ... *)
Theorem C54_no_threshold : forall s w accounts low high, hash_ok s -> ts_threshold s = None -> divide_debts s w accounts = (low, high) ->
  NoDup low /\ high = [] /\ forall a, In a low <-> In a accounts /\ owing w a.
Proof.
  intros s w accounts low high Hh Ht H. unfold divide_debts in H. rewrite Ht in H. injection H as <- <-.
  split; [apply mkset_NoDup; exact Hh|]. split; [reflexivity|]. intro a. unfold owing. rewrite mkset_In, filter_In by exact Hh. rewrite Bool.andb_true_iff.
  split; [intros (? & ? & E); qb; auto|intros (? & ? & E); split; [auto|split; [auto|apply Qlt_bool_t; exact E]]].
Qed.
Print Assumptions C54_no_threshold.
Definition demo_ts (ordered : bool) (t : option Q) : tstrat :=
  {| ts_ordered := ordered; ts_weights := [("Debt", 1); ("RRSP", 2); ("TFSA", 3)]%string; ts_debt := "Avalanche"; ts_threshold := t; ts_hash := fun l => l |}.
(** ... whereas the documentation promises that all debts are then high-interest *)
Theorem C54_no_threshold_documented_refuted : exists s w accounts low high a, hash_ok s /\ ts_threshold s = None /\
  divide_debts s w accounts = (low, high) /\ In a accounts /\ owing w a /\ ~ In a high.
Proof.
  exists (demo_ts true None), demo_v, [2; 3]%nat. do 2 eexists. exists 2%nat. split; [intro l; reflexivity|]. split; [reflexivity|]. split; [reflexivity|].
  split; [left; reflexivity|]. split; [split; reflexivity|intros []].
Qed.
Print Assumptions C54_no_threshold_documented_refuted.
Example C54_sat : divide_debts (demo_ts true (Some (10 # 100))) demo_v [0; 1; 2; 3; 4; 5; 3]%nat = ([2; 4], [3])%nat.
Proof. reflexivity. Qed.

(** ** C79 *)
Lemma leaves_map l : flat_map leaves (map PLeaf l) = l.
Proof. induction l; cbn; [reflexivity|]. rewrite IHl. reflexivity. Qed.
Lemma leaves_map_w l : flat_map (fun x => leaves (fst x)) (map (fun a => (PLeaf a, 1)) l) = l.
Proof. induction l; cbn; [reflexivity|]. rewrite IHl. reflexivity. Qed.
Lemma add_group_perm k a d : Permutation (flat_map snd (add_group k a d)) (a :: flat_map snd d).
Proof.
  induction d as [|[k' l] r IH]; cbn; [reflexivity|]. destruct (String.eqb k k'); cbn.
  - rewrite <- app_assoc. cbn. symmetry. apply Permutation_middle.
  - rewrite IH. symmetry. apply Permutation_middle.
Qed.
(** accounts with a weight: their class or one of its ancestors is named in the weights *)
Definition weighed (s : tstrat) (w : aview) (a : nat) : Prop := exists k, In k (v_mro w a) /\ dmem String.eqb (ts_weights s) k = true.
Lemma weight_key_some s w a : (exists k, weight_key s w a = Some k) <-> weighed s w a.
Proof.
  unfold weight_key, weighed. split.
  - intros [k H]. apply find_some in H. eauto.
  - intros (k & H1 & H2). destruct (find _ _) as [k'|] eqn:E; [eauto|]. eapply find_none in E; [|exact H1]. cbv beta in E. congruence.
Qed.
Lemma groups_perm s w accounts : Permutation (flat_map snd (account_groups s w accounts)) (filter (fun a => match weight_key s w a with Some _ => true | None => false end) accounts).
Proof.
  unfold account_groups. rewrite <- (rev_involutive accounts). generalize (rev accounts). intro l.
  induction l as [|a l IH]; [reflexivity|]. cbn [rev]. rewrite fold_left_app, filter_app. cbn [fold_left filter].
  destruct (weight_key s w a).
  - rewrite add_group_perm, IH. apply Permutation_cons_append.
  - rewrite app_nil_r. exact IH.
Qed.
Lemma get_subtree_leaves s low lp g : hash_ok s -> NoDup low -> NoDup g -> (forall p, lp = Some p -> Permutation p low) ->
  Permutation (leaves (get_subtree s low lp g)) g.
Proof.
  intros Hh Hl Hg Hp. unfold get_subtree.
  assert (D : Permutation (leaves (match g with [a] => PLeaf a | _ => PWt (map (fun a => (PLeaf a, 1)) (ts_hash s g)) end)) g).
  { destruct g as [|a [|b g]]; cbn [leaves]; rewrite ?leaves_map_w; try apply Hh. reflexivity. }
  destruct lp as [p|]; [|exact D]. destruct (seteq g low) eqn:E; [|exact D]. cbn [leaves]. rewrite leaves_map, (Hp p eq_refl).
  apply NoDup_Permutation; [exact Hl|exact Hg|]. unfold seteq in E. apply Bool.andb_true_iff in E. rewrite !forallb_forall in E. destruct E as [E1 E2].
  intro x. split; intro I; [apply E2 in I|apply E1 in I]; apply mem_In; exact I.
Qed.
Lemma flat_map_perm {A B} (f g : A -> list B) l : (forall x, In x l -> Permutation (f x) (g x)) -> Permutation (flat_map f l) (flat_map g l).
Proof. induction l; cbn; intro H; [constructor|]. apply Permutation_app; [apply H; left; reflexivity|apply IHl; intros; apply H; right; assumption]. Qed.
Lemma flat_map_map {A B C} (f : B -> list C) (g : A -> B) l : flat_map f (map g l) = flat_map (fun x => f (g x)) l.
Proof. induction l; cbn; [reflexivity|]. rewrite IHl. reflexivity. Qed.
Lemma debt_priority_perm s w l p : debt_priority s w l = Ok (Some p) -> Permutation p l.
Proof.
  unfold debt_priority, priority_method. destruct l as [|a l]; [discriminate|].
  destruct (String.eqb (ts_debt s) "Avalanche"); [|destruct (String.eqb (ts_debt s) "Snowball"); [|discriminate]]; cbn [bind]; intro H; injection H as <-.
  - apply (C53_avalanche w (a :: l)).
  - apply (C53_snowball w (a :: l)).
Qed.
Lemma NoDup_app_parts {A} (l m : list A) : NoDup (l ++ m) -> NoDup l /\ NoDup m.
Proof.
  induction l as [|x l IH]; cbn; [split; [constructor|assumption]|]. intro H. inversion H as [|? ? H1 H2]; subst. destruct (IH H2) as [A1 A2]. split; [|exact A2].
  constructor; [|exact A1]. intro I. apply H1. apply in_or_app. left. exact I.
Qed.
Lemma NoDup_app_join {A} (l m : list A) : NoDup l -> NoDup m -> (forall x, In x l -> ~ In x m) -> NoDup (l ++ m).
Proof.
  induction 1 as [|x l Hx Hl IH]; cbn; intros Hm Hd; [exact Hm|]. constructor.
  - intro I. apply in_app_or in I. destruct I as [I|I]; [auto|]. apply (Hd x); [left; reflexivity|exact I].
  - apply IH; [exact Hm|]. intros y I. apply Hd. right. exact I.
Qed.
Lemma NoDup_flat_map_in {A B} (f : A -> list B) l x : NoDup (flat_map f l) -> In x l -> NoDup (f x).
Proof.
  induction l as [|y l IH]; cbn; [intros _ []|]. intros H [->|I].
  - apply NoDup_app_parts in H. apply H.
  - apply NoDup_app_parts in H. apply IH; tauto.
Qed.
Lemma strategy_tree_leaves s w low lp rest : hash_ok s -> NoDup low -> NoDup rest -> (forall p, lp = Some p -> Permutation p low) ->
  Permutation (leaves (strategy_tree s low lp (weight_groups s w rest))) (filter (fun a => match weight_key s w a with Some _ => true | None => false end) rest).
Proof.
  intros Hh Hl Hr Hp.
  assert (Hn : forall g, In g (weight_groups s w rest) -> NoDup (fst g)).
  { intros g I. unfold weight_groups in I. apply in_map_iff in I. destruct I as ([k l] & <- & I). cbn [fst snd].
    apply (NoDup_flat_map_in snd (account_groups s w rest) (k, l)); [|exact I]. eapply Permutation_NoDup; [symmetry; apply groups_perm|]. apply NoDup_filter. exact Hr. }
  assert (E : Permutation (flat_map (fun g => leaves (get_subtree s low lp (fst g))) (weight_groups s w rest)) (filter (fun a => match weight_key s w a with Some _ => true | None => false end) rest)).
  { rewrite (flat_map_perm _ fst); [|intros g I; apply (get_subtree_leaves s); auto].
    unfold weight_groups. rewrite flat_map_map. cbn [fst]. apply groups_perm. }
  unfold strategy_tree. destruct (ts_ordered s); cbn [leaves]; rewrite flat_map_map; cbn [fst].
  - rewrite (Permutation_flat_map _ (proj1 (sorted_by_spec snd (weight_groups s w rest)))). exact E.
  - exact E.
Qed.
(** every account that is a high-interest debt or has a weight is in the tree exactly once, and no other *)
Theorem C79_tree_accounts : forall s w accounts t low high, hash_ok s -> divide_debts s w accounts = (low, high) -> priority_tree s w accounts = Ok t ->
  NoDup (leaves t) /\ forall a, In a (leaves t) <-> In a accounts /\ (In a high \/ weighed s w a).
Proof.
  intros s w accounts t low high Hh Hd H. unfold priority_tree in H. rewrite Hd in H.
  destruct (debt_priority s w low) as [lp|] eqn:El; cbn [bind] in H; [|discriminate].
  destruct (debt_priority s w high) as [hp|] eqn:Eh; cbn [bind] in H; [|discriminate].
  assert (NL : NoDup low /\ NoDup high /\ forall a, In a high -> In a accounts).
  { destruct (ts_threshold s) as [q|] eqn:Eq'.
    - destruct (C54_partition s w accounts low high q Hh Eq' Hd) as (A & B & _ & _ & C). split; [exact A|]. split; [exact B|]. intros a I. apply C in I. tauto.
    - destruct (C54_no_threshold s w accounts low high Hh Eq' Hd) as (A & -> & _). split; [exact A|]. split; [constructor|intros ? []]. }
  destruct NL as (NL & NH & IH).
  set (rest := mkset s (filter (fun a => negb (mem a high)) accounts)) in *.
  assert (NR : NoDup rest) by (apply mkset_NoDup; exact Hh).
  assert (IR : forall a, In a rest <-> In a accounts /\ ~ In a high).
  { intro a. unfold rest. rewrite mkset_In, filter_In, Bool.negb_true_iff by exact Hh. rewrite <- (mem_In a high). destruct (mem a high); intuition congruence. }
  assert (P : Permutation (leaves (strategy_tree s low lp (weight_groups s w rest))) (filter (fun a => match weight_key s w a with Some _ => true | None => false end) rest)).
  { apply strategy_tree_leaves; auto. intros p ->. eapply debt_priority_perm; exact El. }
  set (st := strategy_tree s low lp (weight_groups s w rest)) in *.
  assert (IT : forall a, In a (leaves st) <-> In a accounts /\ ~ In a high /\ weighed s w a).
  { intro a. split.
    - intro I. eapply Permutation_in in I; [|exact P]. apply filter_In in I. destruct I as [I K]. apply IR in I. split; [tauto|]. split; [tauto|]. apply weight_key_some. destruct (weight_key s w a); [eauto|discriminate].
    - intros (I1 & I2 & I3). eapply Permutation_in; [symmetry; exact P|]. apply filter_In. split; [apply IR; tauto|]. apply weight_key_some in I3. destruct I3 as [k ->]. reflexivity. }
  assert (NT : NoDup (leaves st)) by (eapply Permutation_NoDup; [symmetry; exact P|]; apply NoDup_filter; exact NR).
  assert (Hmem : forall a, mem a high = true <-> In a high) by (intro; apply mem_In).
  destruct hp as [h|]; injection H as <-.
  - cbn [leaves flat_map]. rewrite leaves_map, app_nil_r. pose proof (debt_priority_perm _ _ _ _ Eh) as Ph. split.
    + apply NoDup_app_join; [eapply Permutation_NoDup; [symmetry; exact Ph|exact NH]|exact NT|].
      intros x I I'. apply IT in I'. eapply Permutation_in in I; [|exact Ph]. tauto.
    + intro a. rewrite in_app_iff, IT. split.
      * intros [I|I]; [eapply Permutation_in in I; [|exact Ph]; split; [auto|tauto]|tauto].
      * intros (I & [K|K]); [left; eapply Permutation_in; [symmetry; exact Ph|exact K]|].
        destruct (mem a high) eqn:Em; [left; apply Hmem in Em; eapply Permutation_in; [symmetry; exact Ph|exact Em]|right].
        split; [exact I|]. split; [|exact K]. intro J. apply Hmem in J. congruence.
  - split; [exact NT|]. intro a. rewrite IT. 
    assert (high = []) as ->.
    { destruct high; [reflexivity|]. cbn [debt_priority] in Eh. destruct (priority_method _); discriminate. }
    cbn [In]. tauto.
Qed.
Print Assumptions C79_tree_accounts.
(** high-interest debts come before everything else, in the order of the chosen debt strategy *)
Theorem C79_high_interest_first : forall s w accounts t low high, divide_debts s w accounts = (low, high) -> priority_tree s w accounts = Ok t ->
  high <> [] -> exists rest, t = POrd [POrd (map PLeaf (if String.eqb (ts_debt s) "Avalanche" then avalanche w high else snowball w high)); rest].
Proof.
  intros s w accounts t low high Hd H Hne. unfold priority_tree in H. rewrite Hd in H.
  destruct (debt_priority s w low) as [lp|] eqn:El; cbn [bind] in H; [|discriminate].
  destruct high as [|a high]; [congruence|]. cbn [debt_priority] in H. unfold priority_method in H.
  destruct (String.eqb (ts_debt s) "Avalanche"); [|destruct (String.eqb (ts_debt s) "Snowball"); [|discriminate]]; cbn [bind] in H; injection H as <-; eexists; reflexivity.
Qed.
Print Assumptions C79_high_interest_first.
(** 'Ordered': groups in increasing order of weight; groups hold the accounts whose most specific
    weighted class is the same *)
Lemma account_groups_key s w accounts : forall k l a, In (k, l) (account_groups s w accounts) -> In a l -> weight_key s w a = Some k.
Proof.
  unfold account_groups. rewrite <- (rev_involutive accounts). generalize (rev accounts). intro m. 
  induction m as [|b m IH]; [intros ? ? ? []|]. cbn [rev]. rewrite fold_left_app. cbn [fold_left]. set (d := fold_left _ (rev m) []) in *.
  destruct (weight_key s w b) as [kb|] eqn:Eb; [|exact IH]. clearbody d. clear - IH Eb. induction d as [|[k' l'] r IHd]; cbn [add_group].
  - intros k l a [E|[]] I. injection E as <- <-. destruct I as [<-|[]]. exact Eb.
  - destruct (String.eqb_spec kb k') as [->|Hne].
    + intros k l a [E|E] I; [injection E as <- <-|eapply IH; [right; exact E|exact I]]. apply in_app_or in I. destruct I as [I|[<-|[]]]; [|exact Eb]. eapply IH; [left; reflexivity|exact I].
    + intros k l a [E|E] I; [eapply IH; [left; exact E|exact I]|]. eapply IHd; [|exact E|exact I]. intros k0 l0 a0 E0. apply IH. right. exact E0.
Qed.
Theorem C79_groups_and_order : forall s w accounts, forall G, hash_ok s -> G = weight_groups s w accounts ->
  (forall l q a, In (l, q) G -> In a l -> exists k, weight_key s w a = Some k /\ dget String.eqb (ts_weights s) k = Some q) /\
  (forall low lp, ts_ordered s = true -> exists order, stably_ordered snd Qle G order /\
  strategy_tree s low lp G = POrd (map (fun g => get_subtree s low lp (fst g)) order)) /\
  (forall low lp, ts_ordered s = false -> strategy_tree s low lp G = PWt (map (fun g => (get_subtree s low lp (fst g), snd g)) G)).
Proof.
  intros s w accounts G Hh ->. split; [|split].
  - intros l q a I Ia. unfold weight_groups in I. apply in_map_iff in I. destruct I as ([k l'] & E & I). cbn [fst snd] in E. injection E as -> <-.
    exists k. pose proof (account_groups_key _ _ _ _ _ _ I Ia) as K. split; [exact K|]. unfold weight_key in K. apply find_some in K. destruct K as [_ K]. unfold dmem in K. destruct (dget _ _ _); [reflexivity|discriminate].
  - intros low lp Ho. unfold strategy_tree. rewrite Ho. eexists. split; [apply sorted_by_spec|reflexivity].
  - intros low lp Ho. unfold strategy_tree. rewrite Ho. reflexivity.
Qed.
Print Assumptions C79_groups_and_order.
(** low-interest debts are repaid in the order of the debt strategy when they form a whole group *)
Theorem C79_low_interest_order_partial : forall s w low lp g, hash_ok s -> debt_priority s w low = Ok lp -> low <> [] -> (forall a, In a g <-> In a low) ->
  get_subtree s low lp g = POrd (map PLeaf (if String.eqb (ts_debt s) "Avalanche" then avalanche w low else snowball w low)).
Proof.
  intros s w low lp g Hh Hd Hne Hg.
  assert (E : seteq g low = true) by (unfold seteq; apply Bool.andb_true_iff; rewrite !forallb_forall; split; intros x I; apply mem_In, Hg, I).
  destruct low as [|a low]; [congruence|]. cbn [debt_priority] in Hd. unfold priority_method in Hd.
  destruct (String.eqb (ts_debt s) "Avalanche"); [|destruct (String.eqb (ts_debt s) "Snowball"); [|discriminate]]; cbn [bind] in Hd; injection Hd as <-; unfold get_subtree; rewrite E; reflexivity.
Qed.
Print Assumptions C79_low_interest_order_partial.
(** but as soon as one debt of the group is paid off (or is high-interest with another key) the
    remaining ones are no longer ordered: they share equally *)
Theorem C79_paid_off_debt_refuted : exists s w accounts t, hash_ok s /\ priority_tree s w accounts = Ok t /\
  (forall a, In a accounts -> v_debt w a = true) /\ avalanche w accounts = [2; 5]%nat /\ t = POrd [PWt [(PLeaf 2, 1%Q); (PLeaf 5, 1%Q)]]%nat.
Proof.
  exists (demo_ts true None), demo_v, [2; 5]%nat. eexists. split; [intro; reflexivity|]. split; [reflexivity|].
  split; [intros a [<-|[<-|[]]]; reflexivity|]. split; vm_compute; reflexivity.
Qed.
Print Assumptions C79_paid_off_debt_refuted.
(** an account of a class without a weight is silently left out *)
Theorem C79_unweighted_left_out_refuted : exists s w accounts t a, hash_ok s /\ priority_tree s w accounts = Ok t /\ In a accounts /\ ~ In a (leaves t).
Proof.
  exists (demo_ts true None), demo_v, [0; 9]%nat. eexists. exists 9%nat. split; [intro; reflexivity|]. split; [reflexivity|]. split; [right; left; reflexivity|].
  vm_compute. intros [H|[]]; discriminate.
Qed.
Print Assumptions C79_unweighted_left_out_refuted.
Example C79_sat : priority_tree (demo_ts true (Some (10 # 100))) demo_v [0; 1; 2; 3; 4]%nat =
  Ok (POrd [POrd [PLeaf 3]; POrd [POrd [PLeaf 2; PLeaf 4]; PLeaf 1; PLeaf 0]])%nat.
Proof. reflexivity. Qed.
