(** Real-number counterparts of Base.v: boolean comparisons, sums, extended reals
    (Python floats including [inf] and [-inf]) and dicts keyed by real numbers. *)
From Verif Require Import Base BaseFacts.
From Coq Require Export Reals Lra.
Open Scope R_scope.

Definition Rleb (a b : R) : bool := if Rle_dec a b then true else false.
Definition Rltb (a b : R) : bool := if Rlt_dec a b then true else false.
Definition Reqb (a b : R) : bool := if Req_EM_T a b then true else false.

Lemma Rleb_t a b : Rleb a b = true <-> a <= b.
Proof. unfold Rleb. destruct (Rle_dec a b); split; intros; auto; discriminate. Qed.
Lemma Rleb_f a b : Rleb a b = false <-> b < a.
Proof. unfold Rleb. destruct (Rle_dec a b); split; intros; auto; try discriminate; lra. Qed.
Lemma Rltb_t a b : Rltb a b = true <-> a < b.
Proof. unfold Rltb. destruct (Rlt_dec a b); split; intros; auto; discriminate. Qed.
Lemma Rltb_f a b : Rltb a b = false <-> b <= a.
Proof. unfold Rltb. destruct (Rlt_dec a b); split; intros; auto; try discriminate; lra. Qed.
Lemma Reqb_t a b : Reqb a b = true <-> a = b.
Proof. unfold Reqb. destruct (Req_EM_T a b); split; intros; auto; discriminate. Qed.
Lemma Reqb_f a b : Reqb a b = false <-> a <> b.
Proof. unfold Reqb. destruct (Req_EM_T a b); split; intros; auto; try discriminate; contradiction. Qed.
Lemma Reqb_refl a : Reqb a a = true.
Proof. apply Reqb_t. reflexivity. Qed.
Lemma Reqb_sym a b : Reqb a b = Reqb b a.
Proof. unfold Reqb. destruct (Req_EM_T a b), (Req_EM_T b a); congruence. Qed.
Lemma Reqb_trans a b c : Reqb a b = true -> Reqb b c = true -> Reqb a c = true.
Proof. rewrite !Reqb_t. congruence. Qed.

Ltac rb :=
  repeat match goal with
  | H : Rleb _ _ = true |- _ => apply Rleb_t in H
  | H : Rleb _ _ = false |- _ => apply Rleb_f in H
  | H : Rltb _ _ = true |- _ => apply Rltb_t in H
  | H : Rltb _ _ = false |- _ => apply Rltb_f in H
  | H : Reqb _ _ = true |- _ => apply Reqb_t in H
  | H : Reqb _ _ = false |- _ => apply Reqb_f in H
  end.

(** Python's [sum] *)
Fixpoint Rsum (l : list R) : R := match l with [] => 0 | x :: r => x + Rsum r end.

Lemma Rsum_app l1 l2 : Rsum (l1 ++ l2) = Rsum l1 + Rsum l2.
Proof. induction l1; cbn; lra. Qed.
Lemma Rsum_map_ext {A} (f g : A -> R) l : (forall x, In x l -> f x = g x) -> Rsum (map f l) = Rsum (map g l).
Proof. induction l; cbn; intros H; [reflexivity|]. rewrite H, IHl; auto. Qed.
Lemma Rsum_map_plus {A} (f g : A -> R) l : Rsum (map (fun x => f x + g x) l) = Rsum (map f l) + Rsum (map g l).
Proof. induction l; cbn; lra. Qed.
Lemma Rsum_map_minus {A} (f g : A -> R) l : Rsum (map (fun x => f x - g x) l) = Rsum (map f l) - Rsum (map g l).
Proof. induction l; cbn; lra. Qed.
Lemma Rsum_map_scale {A} (f : A -> R) c l : Rsum (map (fun x => c * f x) l) = c * Rsum (map f l).
Proof. induction l; cbn; lra. Qed.
Lemma Rsum_map_scale_r {A} (f : A -> R) c l : Rsum (map (fun x => f x * c) l) = Rsum (map f l) * c.
Proof. induction l; cbn; lra. Qed.
Lemma Rsum_map_div {A} (f : A -> R) c l : Rsum (map (fun x => f x / c) l) = Rsum (map f l) / c.
Proof. unfold Rdiv. apply Rsum_map_scale_r. Qed.
Lemma Rsum_nonneg l : (forall x, In x l -> 0 <= x) -> 0 <= Rsum l.
Proof.
  induction l; cbn; intros H; [lra|]. pose proof (H a (or_introl eq_refl)).
  assert (0 <= Rsum l) by auto. lra.
Qed.
Lemma Rsum_nonpos l : (forall x, In x l -> x <= 0) -> Rsum l <= 0.
Proof.
  induction l; cbn; intros H; [lra|]. pose proof (H a (or_introl eq_refl)).
  assert (Rsum l <= 0) by auto. lra.
Qed.
Lemma Rsum_pos l : l <> [] -> (forall x, In x l -> 0 < x) -> 0 < Rsum l.
Proof.
  destruct l as [|a l]; cbn; intros Hne H; [congruence|].
  pose proof (H a (or_introl eq_refl)).
  assert (0 <= Rsum l) by (apply Rsum_nonneg; intros x Hx; left; auto). lra.
Qed.
Lemma Rsum_const {A} (l : list A) c : Rsum (map (fun _ => c) l) = INR (List.length l) * c.
Proof.
  induction l as [|a l IH]; [cbn; lra|].
  change (map (fun _ : A => c) (a :: l)) with (c :: map (fun _ : A => c) l).
  change (List.length (a :: l)) with (S (List.length l)). rewrite S_INR. cbn [Rsum]. rewrite IH. lra.
Qed.

(** ** Extended reals *)
Inductive er : Type := Fin (x : R) | PInf | MInf.

Definition ele (a b : er) : Prop :=
  match a, b with
  | MInf, _ => True | _, PInf => True
  | Fin x, Fin y => x <= y
  | _, _ => False
  end.
Definition eleb (a b : er) : bool :=
  match a, b with
  | MInf, _ => true | _, PInf => true
  | Fin x, Fin y => Rleb x y
  | _, _ => false
  end.
Lemma eleb_t a b : eleb a b = true <-> ele a b.
Proof. destruct a, b; cbn; try tauto; try (split; [discriminate|tauto]). apply Rleb_t. Qed.
Definition emin (a b : er) : er := if eleb a b then a else b.
Definition emax (a b : er) : er := if eleb a b then b else a.
(** [a - x] for finite x *)
Definition esub (a : er) (x : R) : er := match a with Fin y => Fin (y - x) | PInf => PInf | MInf => MInf end.
(** [a + b]; inf + -inf would be nan and does not occur in the modelled code *)
Definition eadd (a b : er) : er :=
  match a, b with
  | Fin x, Fin y => Fin (x + y)
  | PInf, _ | _, PInf => PInf
  | _, _ => MInf
  end.
Definition eneg (a : er) : er := match a with Fin x => Fin (- x) | PInf => MInf | MInf => PInf end.
(** [a * w] for finite non-zero w (inf * 0 would be nan and does not occur) *)
Definition escale (a : er) (w : R) : er :=
  match a with
  | Fin x => Fin (x * w)
  | PInf => if Rltb 0 w then PInf else MInf
  | MInf => if Rltb 0 w then MInf else PInf
  end.
(** [a / w] for finite non-zero w *)
Definition ediv (a : er) (w : R) : er :=
  match a with
  | Fin x => Fin (x / w)
  | PInf => if Rltb 0 w then PInf else MInf
  | MInf => if Rltb 0 w then MInf else PInf
  end.
Fixpoint esum (l : list er) : er := match l with [] => Fin 0 | x :: r => eadd x (esum r) end.

Lemma ele_refl a : ele a a.
Proof. destruct a; cbn; auto. lra. Qed.
Lemma ele_trans a b c : ele a b -> ele b c -> ele a c.
Proof. destruct a, b, c; cbn; try tauto. lra. Qed.
Lemma ele_total a b : ele a b \/ ele b a.
Proof. destruct a, b; cbn; auto. lra. Qed.
Lemma emin_case a b : (ele a b /\ emin a b = a) \/ (ele b a /\ emin a b = b).
Proof.
  unfold emin. destruct (eleb a b) eqn:E; [left; split; [apply eleb_t; exact E|reflexivity]|right].
  split; [|reflexivity]. destruct (ele_total a b) as [H|H]; [|exact H]. apply eleb_t in H. congruence.
Qed.
Lemma emax_case a b : (ele a b /\ emax a b = b) \/ (ele b a /\ emax a b = a).
Proof.
  unfold emax. destruct (eleb a b) eqn:E; [left; split; [apply eleb_t; exact E|reflexivity]|right].
  split; [|reflexivity]. destruct (ele_total a b) as [H|H]; [|exact H]. apply eleb_t in H. congruence.
Qed.
Lemma emin_l a b : ele (emin a b) a.
Proof. destruct (emin_case a b) as [[H ->]|[H ->]]; auto using ele_refl. Qed.
Lemma emin_r a b : ele (emin a b) b.
Proof. destruct (emin_case a b) as [[H ->]|[H ->]]; auto using ele_refl. Qed.
Lemma emax_l a b : ele a (emax a b).
Proof. destruct (emax_case a b) as [[H ->]|[H ->]]; auto using ele_refl. Qed.
Lemma emax_r a b : ele b (emax a b).
Proof. destruct (emax_case a b) as [[H ->]|[H ->]]; auto using ele_refl. Qed.
Lemma esum_fin l : esum (map Fin l) = Fin (Rsum l).
Proof. induction l; cbn; [reflexivity|]. rewrite IHl. reflexivity. Qed.

(** ** Dicts keyed by real numbers, with real values (cash flows {when: value}) *)
Lemma rdget_dset {V} (d : dict R V) k v k' :
  dget Reqb (dset Reqb d k v) k' = if Reqb k' k then Some v else dget Reqb d k'.
Proof. apply dget_dset; [exact Reqb_sym | exact Reqb_trans]. Qed.
Lemma rdset_wf {V} (d : dict R V) k v : dwf Reqb d -> dwf Reqb (dset Reqb d k v).
Proof. apply dset_wf; [exact Reqb_sym | exact Reqb_trans]. Qed.
Lemma rIn_dget {V} (d : dict R V) k v : dwf Reqb d -> In (k, v) d -> dget Reqb d k = Some v.
Proof. apply In_dget; [exact Reqb_refl | exact Reqb_sym | exact Reqb_trans]. Qed.
Lemma rdget_ddel {V} (d : dict R V) k k' : dwf Reqb d ->
  dget Reqb (ddel Reqb d k) k' = if Reqb k' k then None else dget Reqb d k'.
Proof. apply dget_ddel; [exact Reqb_sym | exact Reqb_trans]. Qed.
Lemma rddel_wf {V} (d : dict R V) k : dwf Reqb d -> dwf Reqb (ddel Reqb d k).
Proof. apply ddel_wf; [exact Reqb_sym | exact Reqb_trans]. Qed.
Lemma rdget_In {V} (d : dict R V) k v : dget Reqb d k = Some v -> In (k, v) d.
Proof. intro H. apply dget_In in H. destruct H as (k' & E & HI). apply Reqb_t in E. subst. exact HI. Qed.

(** value at a time, absent = 0 *)
Definition rval (d : dict R R) (k : R) : R := match dget Reqb d k with Some v => v | None => 0 end.
(** [d[k] += v] on a defaultdict *)
Definition rincr (d : dict R R) (k v : R) : dict R R := dset Reqb d k (rval d k + v).
(** weighted sum over the entries of a cash flow *)
Definition wsum (f : R -> R) (d : dict R R) : R := Rsum (map (fun kv => snd kv * f (fst kv)) d).

Lemma rval_rincr d k v k' : rval (rincr d k v) k' = rval d k' + (if Reqb k' k then v else 0).
Proof.
  unfold rincr, rval at 1. rewrite rdget_dset. destruct (Reqb k' k) eqn:E; rb; subst; [reflexivity|].
  fold (rval d k'). lra.
Qed.
Lemma rincr_wf d k v : dwf Reqb d -> dwf Reqb (rincr d k v).
Proof. apply rdset_wf. Qed.
Lemma wsum_dset f d k v : wsum f (dset Reqb d k v) = wsum f d + (v - rval d k) * f k.
Proof.
  unfold wsum, rval. induction d as [|[k0 v0] r IH]; cbn; [lra|].
  destruct (Reqb k k0) eqn:E; rb; subst; cbn; [lra|]. rewrite IH. lra.
Qed.
Lemma wsum_rincr f d k v : wsum f (rincr d k v) = wsum f d + v * f k.
Proof. unfold rincr. rewrite wsum_dset. lra. Qed.
Lemma wsum_ddel f d k : wsum f (ddel Reqb d k) = wsum f d - rval d k * f k.
Proof.
  unfold wsum, rval. induction d as [|[k0 v0] r IH]; cbn; [lra|].
  destruct (Reqb k k0) eqn:E; rb; subst; cbn; [lra|]. rewrite IH. lra.
Qed.
Lemma wsum_ext f g d : (forall k v, In (k, v) d -> f k = g k) -> wsum f d = wsum g d.
Proof. intro H. apply Rsum_map_ext. intros [k v] Hin. cbn. rewrite (H k v Hin). reflexivity. Qed.
Lemma wsum_plus f g d : wsum (fun k => f k + g k) d = wsum f d + wsum g d.
Proof. unfold wsum. rewrite <- Rsum_map_plus. apply Rsum_map_ext. intros; lra. Qed.
Lemma wsum_scale f c d : wsum (fun k => c * f k) d = c * wsum f d.
Proof. unfold wsum. rewrite <- Rsum_map_scale. apply Rsum_map_ext. intros; lra. Qed.
Lemma wsum_one d : wsum (fun _ => 1) d = Rsum (dvals d).
Proof. unfold wsum, dvals. apply Rsum_map_ext. intros; lra. Qed.
Lemma In_dset {V} (d : dict R V) k v k' v' : In (k', v') (dset Reqb d k v) ->
  (k' = k /\ v' = v) \/ In (k', v') d.
Proof.
  induction d as [|[k0 v0] r IH]; cbn.
  - intros [H|[]]. injection H as <- <-. auto.
  - destruct (Reqb k k0) eqn:E; rb; subst; cbn.
    + intros [H|H]; [injection H as <- <-; auto|auto].
    + intros [H|H]; [auto|]. destruct (IH H); auto.
Qed.
