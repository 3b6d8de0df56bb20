(** Lemmas about Base.v. *)
From Verif Require Import Base.
From Coq Require Import SetoidList Permutation Morphisms.

Lemma Qle_bool_t a b : Qle_bool a b = true <-> a <= b.
Proof. apply Qle_bool_iff. Qed.
Lemma Qle_bool_f a b : Qle_bool a b = false <-> b < a.
Proof.
  split; intro H.
  - apply Qnot_le_lt. intro H1. apply Qle_bool_iff in H1. congruence.
  - destruct (Qle_bool a b) eqn:E; [|reflexivity]. apply Qle_bool_iff in E.
    exfalso. apply (Qlt_irrefl b). eapply Qlt_le_trans; eauto.
Qed.
Lemma Qlt_bool_t a b : Qlt_bool a b = true <-> a < b.
Proof. unfold Qlt_bool. rewrite negb_true_iff. apply Qle_bool_f. Qed.
Lemma Qlt_bool_f a b : Qlt_bool a b = false <-> b <= a.
Proof. unfold Qlt_bool. rewrite negb_false_iff. apply Qle_bool_t. Qed.
Lemma Qeq_bool_t a b : Qeq_bool a b = true <-> a == b.
Proof. apply Qeq_bool_iff. Qed.
Lemma Qeq_bool_f a b : Qeq_bool a b = false <-> ~ a == b.
Proof.
  split; intro H.
  - intro E. apply Qeq_bool_iff in E. congruence.
  - destruct (Qeq_bool a b) eqn:E; [|reflexivity]. apply Qeq_bool_iff in E. tauto.
Qed.

(** turn boolean comparisons on Q into propositions *)
Ltac qb :=
  repeat match goal with
  | H : Qle_bool _ _ = true |- _ => apply Qle_bool_t in H
  | H : Qle_bool _ _ = false |- _ => apply Qle_bool_f in H
  | H : Qlt_bool _ _ = true |- _ => apply Qlt_bool_t in H
  | H : Qlt_bool _ _ = false |- _ => apply Qlt_bool_f in H
  | H : Qeq_bool _ _ = true |- _ => apply Qeq_bool_t in H
  | H : Qeq_bool _ _ = false |- _ => apply Qeq_bool_f in H
  end.

Lemma qeqb_refl a : Qeq_bool a a = true.
Proof. apply Qeq_bool_iff. reflexivity. Qed.
Lemma qeqb_sym a b : Qeq_bool a b = Qeq_bool b a.
Proof.
  destruct (Qeq_bool a b) eqn:E, (Qeq_bool b a) eqn:E'; qb; auto.
  - exfalso. apply E'. symmetry. exact E.
  - exfalso. apply E. symmetry. exact E'.
Qed.
Lemma qeqb_trans a b c : Qeq_bool a b = true -> Qeq_bool b c = true -> Qeq_bool a c = true.
Proof. intros; qb. apply Qeq_bool_iff. etransitivity; eauto. Qed.

Global Instance Qle_bool_comp : Proper (Qeq ==> Qeq ==> eq) Qle_bool.
Proof.
  intros a b H c d H'. destruct (Qle_bool a c) eqn:E, (Qle_bool b d) eqn:E'; qb; auto;
  exfalso; lra.
Qed.
Global Instance Qlt_bool_comp : Proper (Qeq ==> Qeq ==> eq) Qlt_bool.
Proof. intros a b H c d H'. unfold Qlt_bool. rewrite H, H'. reflexivity. Qed.
Global Instance Qeq_bool_comp : Proper (Qeq ==> Qeq ==> eq) Qeq_bool.
Proof.
  intros a b H c d H'. destruct (Qeq_bool a c) eqn:E, (Qeq_bool b d) eqn:E'; qb; auto;
  exfalso; lra.
Qed.

Lemma qmin_l a b : qmin a b <= a.
Proof. unfold qmin. destruct (Qle_bool a b) eqn:E; qb; lra. Qed.
Lemma qmin_r a b : qmin a b <= b.
Proof. unfold qmin. destruct (Qle_bool a b) eqn:E; qb; lra. Qed.
Lemma qmax_l a b : a <= qmax a b.
Proof. unfold qmax. destruct (Qle_bool a b) eqn:E; qb; lra. Qed.
Lemma qmax_r a b : b <= qmax a b.
Proof. unfold qmax. destruct (Qle_bool a b) eqn:E; qb; lra. Qed.
Lemma qmin_glb a b c : c <= a -> c <= b -> c <= qmin a b.
Proof. unfold qmin. destruct (Qle_bool a b) eqn:E; qb; lra. Qed.
Lemma qmax_lub a b c : a <= c -> b <= c -> qmax a b <= c.
Proof. unfold qmax. destruct (Qle_bool a b) eqn:E; qb; lra. Qed.
Lemma qmin_case a b : (a <= b /\ qmin a b == a) \/ (b <= a /\ qmin a b == b).
Proof. unfold qmin. destruct (Qle_bool a b) eqn:E; qb; [left|right]; lra. Qed.
Lemma qmax_case a b : (b <= a /\ qmax a b == a) \/ (a <= b /\ qmax a b == b).
Proof. unfold qmax. destruct (Qle_bool a b) eqn:E; qb; [right|left]; lra. Qed.
Lemma qabs_case a : (0 <= a /\ qabs a == a) \/ (a <= 0 /\ qabs a == - a).
Proof. unfold qabs. destruct (Qle_bool 0 a) eqn:E; qb; [left|right]; lra. Qed.
Global Instance qmin_comp : Proper (Qeq ==> Qeq ==> Qeq) qmin.
Proof. intros a b H c d H'. destruct (qmin_case a c), (qmin_case b d); lra. Qed.
Global Instance qmax_comp : Proper (Qeq ==> Qeq ==> Qeq) qmax.
Proof. intros a b H c d H'. destruct (qmax_case a c), (qmax_case b d); lra. Qed.
Global Instance qabs_comp : Proper (Qeq ==> Qeq) qabs.
Proof. intros a b H. destruct (qabs_case a), (qabs_case b); lra. Qed.

(** case split all qmin/qmax/qabs and close with lra *)
Ltac qmm :=
  repeat match goal with
  | |- context [qmin ?a ?b] => destruct (qmin_case a b) as [[? ->]|[? ->]]
  | |- context [qmax ?a ?b] => destruct (qmax_case a b) as [[? ->]|[? ->]]
  | |- context [qabs ?a] => destruct (qabs_case a) as [[? ->]|[? ->]]
  end.

Lemma Qsum_app l1 l2 : Qsum (l1 ++ l2) == Qsum l1 + Qsum l2.
Proof. induction l1; cbn; [lra|]. rewrite IHl1. lra. Qed.
Lemma Qsum_map_ext {A} (f g : A -> Q) l :
  (forall x, In x l -> f x == g x) -> Qsum (map f l) == Qsum (map g l).
Proof.
  induction l as [|x r IH]; cbn; intros H; [reflexivity|].
  rewrite (H x), IH by auto. reflexivity.
Qed.
Lemma Qsum_map_plus {A} (f g : A -> Q) l :
  Qsum (map (fun x => f x + g x) l) == Qsum (map f l) + Qsum (map g l).
Proof. induction l; cbn; lra. Qed.
Lemma Qsum_map_scale {A} (f : A -> Q) c l :
  Qsum (map (fun x => f x * c) l) == Qsum (map f l) * c.
Proof. induction l; cbn; [lra|]. rewrite IHl. lra. Qed.
Lemma Qsum_map_const {A} c (l : list A) :
  Qsum (map (fun _ => c) l) == inject_Z (Z.of_nat (List.length l)) * c.
Proof.
  induction l as [|x r IH]; cbn [map Qsum List.length]; [ring|].
  rewrite IH, Nat2Z.inj_succ, <- Z.add_1_l, inject_Z_plus. ring.
Qed.
Lemma Qsum_nonneg l : (forall x, In x l -> 0 <= x) -> 0 <= Qsum l.
Proof.
  induction l as [|x r IH]; cbn; intros H; [lra|].
  pose proof (H x (or_introl eq_refl)). assert (0 <= Qsum r) by auto. lra.
Qed.
Lemma Qsum_nonpos l : (forall x, In x l -> x <= 0) -> Qsum l <= 0.
Proof.
  induction l as [|x r IH]; cbn; intros H; [lra|].
  pose proof (H x (or_introl eq_refl)). assert (Qsum r <= 0) by auto. lra.
Qed.
Lemma Qsum_perm l1 l2 : Permutation l1 l2 -> Qsum l1 == Qsum l2.
Proof. induction 1; cbn; lra. Qed.
Lemma Qsum_map_perm {A} (f : A -> Q) l1 l2 :
  Permutation l1 l2 -> Qsum (map f l1) == Qsum (map f l2).
Proof. intro H. apply Qsum_perm. apply Permutation_map. exact H. Qed.

(** * dict lemmas for any equivalence [eqb] *)
Section DictFacts.
  Context {K V : Type} (eqb : K -> K -> bool).
  Hypothesis eqb_refl : forall a, eqb a a = true.
  Hypothesis eqb_sym : forall a b, eqb a b = eqb b a.
  Hypothesis eqb_trans : forall a b c, eqb a b = true -> eqb b c = true -> eqb a c = true.
  Notation dget := (@dget K V eqb). Notation dset := (@dset K V eqb).
  Notation ddel := (@ddel K V eqb). Notation dwf := (@dwf K V eqb).

  Lemma eqb_congr a b c : eqb a b = true -> eqb a c = eqb b c.
  Proof.
    intro H. destruct (eqb a c) eqn:E, (eqb b c) eqn:E'; auto.
    - rewrite <- E'. rewrite eqb_sym in H. symmetry. eapply eqb_trans; eauto.
    - rewrite <- E. eapply eqb_trans; eauto.
  Qed.

  Lemma dget_congr d a b : eqb a b = true -> dget d a = dget d b.
  Proof.
    intro H. induction d as [|[k v] r IH]; cbn; [reflexivity|].
    rewrite (eqb_congr _ _ k H). destruct (eqb b k); auto.
  Qed.

  Lemma dget_dset d k v k' :
    dget (dset d k v) k' = if eqb k' k then Some v else dget d k'.
  Proof.
    induction d as [|[k0 v0] r IH]; cbn.
    - destruct (eqb k' k); reflexivity.
    - destruct (eqb k k0) eqn:E; cbn.
      + assert (Hk : eqb k' k = eqb k' k0).
        { rewrite (eqb_sym k' k), (eqb_sym k' k0). apply eqb_congr; assumption. }
        rewrite Hk. destruct (eqb k' k0); reflexivity.
      + rewrite IH. destruct (eqb k' k0) eqn:E0; [|reflexivity].
        destruct (eqb k' k) eqn:E1; [|reflexivity].
        exfalso. rewrite eqb_sym in E1. rewrite (eqb_congr _ _ k0 E1) in E. congruence.
  Qed.

  Lemma dset_wf d k v : dwf d -> dwf (dset d k v).
  Proof.
    induction d as [|[k0 v0] r IH]; cbn; intros H; [auto|].
    destruct H as [H1 H2]. destruct (eqb k k0) eqn:E; cbn; split; auto.
    rewrite dget_dset. rewrite eqb_sym, E. exact H1.
  Qed.

  Lemma dget_ddel d k k' : dwf d ->
    dget (ddel d k) k' = if eqb k' k then None else dget d k'.
  Proof.
    induction d as [|[k0 v0] r IH]; cbn; intros H.
    - destruct (eqb k' k); reflexivity.
    - destruct H as [H1 H2]. destruct (eqb k k0) eqn:E; cbn.
      + assert (Hk : eqb k' k = eqb k' k0).
        { rewrite (eqb_sym k' k), (eqb_sym k' k0). apply eqb_congr; assumption. }
        rewrite Hk. destruct (eqb k' k0) eqn:E0; [|reflexivity].
        rewrite (dget_congr _ _ _ E0). exact H1.
      + rewrite IH by assumption. destruct (eqb k' k0) eqn:E0; [|reflexivity].
        destruct (eqb k' k) eqn:E1; [|reflexivity].
        exfalso. rewrite eqb_sym in E1. rewrite (eqb_congr _ _ k0 E1) in E. congruence.
  Qed.

  Lemma ddel_wf d k : dwf d -> dwf (ddel d k).
  Proof.
    induction d as [|[k0 v0] r IH]; cbn; intros H; [auto|].
    destruct H as [H1 H2]. destruct (eqb k k0) eqn:E; cbn; [exact H2|]. split; auto.
    rewrite dget_ddel by assumption. destruct (eqb k0 k); auto.
  Qed.

  Lemma dget_In d k v : dget d k = Some v -> exists k', eqb k k' = true /\ In (k', v) d.
  Proof.
    induction d as [|[k0 v0] r IH]; cbn; intros H; [discriminate|].
    destruct (eqb k k0) eqn:E.
    - injection H as ->. exists k0; auto.
    - destruct (IH H) as (k' & ? & ?). exists k'; auto.
  Qed.

  Lemma In_dget d k v : dwf d -> In (k, v) d -> dget d k = Some v.
  Proof.
    induction d as [|[k0 v0] r IH]; cbn; intros H HI; [contradiction|].
    destruct H as [H1 H2]. destruct HI as [HI|HI].
    - injection HI as -> ->. rewrite eqb_refl. reflexivity.
    - destruct (eqb k k0) eqn:E; [|auto].
      apply IH in HI; [|assumption]. rewrite (dget_congr _ _ _ E) in HI. congruence.
  Qed.

  Lemma dget_None d k : dget d k = None <-> forall k' v, In (k', v) d -> eqb k k' = false.
  Proof.
    induction d as [|[k0 v0] r IH]; cbn; split; intros H; auto.
    - intros; contradiction.
    - intros k' v [HI|HI].
      + injection HI as -> ->. destruct (eqb k k'); congruence.
      + destruct (eqb k k0); [discriminate|]. eapply IH; eauto.
    - rewrite (H k0 v0) by auto. apply IH. intros; eapply H; eauto.
  Qed.
End DictFacts.

Lemma qget_congr d a b : a == b -> qget d a = qget d b.
Proof.
  intro H. apply dget_congr.
  - exact qeqb_sym.
  - exact qeqb_trans.
  - apply Qeq_bool_iff. exact H.
Qed.
Lemma qval_congr d a b : a == b -> qval d a = qval d b.
Proof. intro H. unfold qval. rewrite (qget_congr d a b H). reflexivity. Qed.

(** instances for dicts keyed by numbers *)
Lemma qdget_dset {V} (d : dict Q V) k v k' :
  dget Qeq_bool (dset Qeq_bool d k v) k' = if Qeq_bool k' k then Some v else dget Qeq_bool d k'.
Proof. apply dget_dset; [exact qeqb_sym | exact qeqb_trans]. Qed.
Lemma qdset_wf {V} (d : dict Q V) k v : dwf Qeq_bool d -> dwf Qeq_bool (dset Qeq_bool d k v).
Proof. apply dset_wf; [exact qeqb_sym | exact qeqb_trans]. Qed.
Lemma qIn_dget {V} (d : dict Q V) k v : dwf Qeq_bool d -> In (k, v) d -> dget Qeq_bool d k = Some v.
Proof. apply In_dget; [exact qeqb_refl | exact qeqb_sym | exact qeqb_trans]. Qed.
Lemma qdget_congr {V} (d : dict Q V) a b : a == b -> dget Qeq_bool d a = dget Qeq_bool d b.
Proof. intro H. apply dget_congr; [exact qeqb_sym | exact qeqb_trans | apply Qeq_bool_iff, H]. Qed.
(** instances for dicts keyed by integers *)
Lemma zeqb_sym a b : Z.eqb a b = Z.eqb b a.
Proof. apply Z.eqb_sym. Qed.
Lemma zeqb_trans a b c : Z.eqb a b = true -> Z.eqb b c = true -> Z.eqb a c = true.
Proof. rewrite !Z.eqb_eq. congruence. Qed.
Lemma zdget_dset {V} (d : dict Z V) k v k' :
  dget Z.eqb (dset Z.eqb d k v) k' = if Z.eqb k' k then Some v else dget Z.eqb d k'.
Proof. apply dget_dset; [exact zeqb_sym | exact zeqb_trans]. Qed.
Lemma zdset_wf {V} (d : dict Z V) k v : dwf Z.eqb d -> dwf Z.eqb (dset Z.eqb d k v).
Proof. apply dset_wf; [exact zeqb_sym | exact zeqb_trans]. Qed.
Lemma zIn_dget {V} (d : dict Z V) k v : dwf Z.eqb d -> In (k, v) d -> dget Z.eqb d k = Some v.
Proof. apply In_dget; [exact Z.eqb_refl | exact zeqb_sym | exact zeqb_trans]. Qed.
Lemma zdget_ddel {V} (d : dict Z V) k k' : dwf Z.eqb d ->
  dget Z.eqb (ddel Z.eqb d k) k' = if Z.eqb k' k then None else dget Z.eqb d k'.
Proof. apply dget_ddel; [exact zeqb_sym | exact zeqb_trans]. Qed.
Lemma zddel_wf {V} (d : dict Z V) k : dwf Z.eqb d -> dwf Z.eqb (ddel Z.eqb d k).
Proof. apply ddel_wf; [exact zeqb_sym | exact zeqb_trans]. Qed.
Lemma zdget_In {V} (d : dict Z V) k v : dget Z.eqb d k = Some v -> In (k, v) d.
Proof. intro H. apply dget_In in H. destruct H as (k' & E & HI). apply Z.eqb_eq in E. subst. exact HI. Qed.
(** instances for dicts keyed by nat *)
Lemma neqb_sym a b : Nat.eqb a b = Nat.eqb b a.
Proof. apply Nat.eqb_sym. Qed.
Lemma neqb_trans a b c : Nat.eqb a b = true -> Nat.eqb b c = true -> Nat.eqb a c = true.
Proof. rewrite !Nat.eqb_eq. congruence. Qed.
Lemma ndget_dset {V} (d : dict nat V) k v k' :
  dget Nat.eqb (dset Nat.eqb d k v) k' = if Nat.eqb k' k then Some v else dget Nat.eqb d k'.
Proof. apply dget_dset; [exact neqb_sym | exact neqb_trans]. Qed.
Lemma ndset_wf {V} (d : dict nat V) k v : dwf Nat.eqb d -> dwf Nat.eqb (dset Nat.eqb d k v).
Proof. apply dset_wf; [exact neqb_sym | exact neqb_trans]. Qed.
