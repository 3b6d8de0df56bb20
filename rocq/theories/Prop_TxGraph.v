(** C55, C57, C81: planned transactions stay within what is available and within the limits. *)
From Verif Require Import Base BaseFacts TxGraphModel TxFlowFacts TxFlowShape TxFlowAccounts TxFlowZero.
From Coq Require Import Permutation Lia ZArith Lqa.

(** ** Specification *)
(** the total of one account's transactions; the total and one account's share of a plan *)
Definition tx_of (t : dict Q Q) : Q := Qsum (dvals t).
Definition total_tx (r : dict nat (dict Q Q)) : Q := Qsum (map (fun at_ => tx_of (snd at_)) r).
Definition acct_tx (r : dict nat (dict Q Q)) (a : nat) : Q := match dget Nat.eqb r a with Some t => tx_of t | None => 0 end.
(** what is assumed about networkx (a feasible flow), Python sets, and the accounts' methods: asked
    for transactions totalling at most [x], they return transactions of that sign totalling at most [x] *)
Definition world_ok (P : env) : Prop :=
  0 < p_prec P /\ (forall g f, p_flow P g = Ok f -> feasible g f) /\ (forall l c, In c (p_hash P l) -> In c l).
Definition inflows_ok (P : env) (k : lk) : Prop :=
  forall a x t, 0 <= x -> p_tx P k a x = Ok t -> (forall v, In v (dvals t) -> 0 <= v) /\ tx_of t <= x.
Definition outflows_ok (P : env) (k : lk) : Prop :=
  forall a x t, x <= 0 -> p_tx P k a x = Ok t -> (forall v, In v (dvals t) -> v <= 0) /\ x <= tx_of t.
(** the root of the tree does not occur again inside the tree *)
Definition proper_tree (root : tnode) : Prop := forall n c, below root n -> is_child n c -> t_id c <> t_id root.

(** ** Helpers *)
Lemma qset_sum : forall (d : dict Q Q) k v, tx_of (dset Qeq_bool d k v) == tx_of d + v - (match dget Qeq_bool d k with Some y => y | None => 0 end).
Proof.
  unfold tx_of, dvals. induction d as [|[a x] d IH]; intros k v; cbn; [lra|].
  destruct (Qeq_bool k a); cbn; [lra|]. specialize (IH k v). lra.
Qed.
Lemma add_tx_sum : forall e d, tx_of (add_tx d e) == tx_of d + tx_of e.
Proof.
  intros e. unfold add_tx. induction e as [|[k v] e IH]; intros d; cbn [fold_left].
  - unfold tx_of at 3. cbn. lra.
  - rewrite IH. cbn [fst snd]. assert (E : tx_of ((k, v) :: e) == v + tx_of e) by reflexivity. rewrite E.
    destruct (dget Qeq_bool d k) as [y|] eqn:G; rewrite qset_sum, G; lra.
Qed.
Lemma qset_vals : forall (d : dict Q Q) k v x, In x (dvals (dset Qeq_bool d k v)) -> x = v \/ In x (dvals d).
Proof.
  unfold dvals. induction d as [|[a y] d IH]; intros k v x H; cbn in H; [intuition|].
  destruct (Qeq_bool k a); cbn in *; [intuition|]. destruct H as [H|H]; [auto|]. apply IH in H. intuition.
Qed.
Lemma add_tx_sign : forall (s : Q -> Prop) e d, (forall a b, s a -> s b -> s (a + b)) -> (forall v, In v (dvals d) -> s v) -> (forall v, In v (dvals e) -> s v) ->
  forall v, In v (dvals (add_tx d e)) -> s v.
Proof.
  intros s e. unfold add_tx. induction e as [|[k w] e IH]; intros d Add Hd He v Hv; cbn [fold_left] in Hv; [auto|].
  revert v Hv. apply IH; auto; [|intros v Hv; apply He; now right].
  cbn [fst snd]. assert (W : s w) by (apply He; now left). intros v Hv. destruct (dget Qeq_bool d k) as [y|] eqn:G; apply qset_vals in Hv; destruct Hv as [->|Hv]; auto.
  apply Add; [|exact W]. apply Hd. clear -G. unfold dvals. induction d as [|[a z] d IHd]; cbn in *; [discriminate|].
  destruct (Qeq_bool k a); [injection G as ->; now left|right; auto].
Qed.
Lemma nget_set : forall {V} (d : dict nat V) k k' v, dget Nat.eqb (dset Nat.eqb d k v) k' = if Nat.eqb k' k then Some v else dget Nat.eqb d k'.
Proof.
  intros V d k k' v. induction d as [|[a x] d IH]; cbn; [reflexivity|].
  destruct (Nat.eqb k a) eqn:E; cbn.
  - apply Nat.eqb_eq in E. subst. destruct (Nat.eqb k' a); reflexivity.
  - rewrite IH. destruct (Nat.eqb k' a) eqn:F; [|reflexivity]. apply Nat.eqb_eq in F. subst. now rewrite Nat.eqb_sym, E.
Qed.
Lemma nset_in : forall {V} (d : dict nat V) k v a t, In (a, t) (dset Nat.eqb d k v) -> t = v \/ In (a, t) d.
Proof.
  intros V d k v a t. induction d as [|[b x] d IH]; cbn; [intros [H|[]]; left; congruence|].
  destruct (Nat.eqb k b); cbn; intros [H|H]; auto; [left; congruence|]. apply IH in H. tauto.
Qed.
Lemma nset_total : forall (d : dict nat (dict Q Q)) k v, total_tx (dset Nat.eqb d k v) == total_tx d + tx_of v - acct_tx d k.
Proof.
  unfold total_tx, acct_tx. induction d as [|[a x] d IH]; intros k v; cbn -[tx_of]; [lra|].
  destruct (Nat.eqb k a); cbn -[tx_of]; [lra|]. specialize (IH k v). lra.
Qed.
Lemma combine_total : forall mn mx, total_tx (combine_tx mx mn) == total_tx mx + total_tx mn.
Proof.
  unfold combine_tx. induction mn as [|[a t] mn IH]; intros mx; cbn [fold_left fst snd].
  - unfold total_tx at 3. cbn. lra.
  - rewrite IH. assert (E : total_tx ((a, t) :: mn) == tx_of t + total_tx mn) by reflexivity. rewrite E.
    destruct (dget Nat.eqb mx a) as [y|] eqn:G; rewrite nset_total; unfold acct_tx; rewrite G; [rewrite add_tx_sum|]; lra.
Qed.
Lemma combine_acct : forall mn mx a, NoDup (dkeys mn) -> acct_tx (combine_tx mx mn) a == acct_tx mx a + acct_tx mn a.
Proof.
  unfold combine_tx, dkeys. induction mn as [|[b t] mn IH]; intros mx a N; cbn [fold_left fst snd].
  - unfold acct_tx at 3. cbn. lra.
  - cbn in N. inversion N as [|? ? Nb Nr]; subst. rewrite IH by exact Nr. unfold acct_tx at 4. cbn [dget].
    assert (Z0 : Nat.eqb a b = true -> acct_tx mn a == 0).
    { intros E. apply Nat.eqb_eq in E. subst. unfold acct_tx. destruct (dget Nat.eqb mn b) eqn:G; [|reflexivity]. exfalso. apply Nb.
      clear -G. induction mn as [|[c x] mn IH]; cbn in *; [discriminate|]. destruct (Nat.eqb b c) eqn:E; [apply Nat.eqb_eq in E; subst; now left|right; auto]. }
    destruct (Nat.eqb a b) eqn:E.
    + specialize (Z0 eq_refl). apply Nat.eqb_eq in E. subst b. rewrite Z0.
      destruct (dget Nat.eqb mx a) as [y|] eqn:G; unfold acct_tx; rewrite nget_set, Nat.eqb_refl, G; [rewrite add_tx_sum|]; lra.
    + fold (acct_tx mn a). destruct (dget Nat.eqb mx b) as [y|] eqn:G; unfold acct_tx; rewrite nget_set, E; lra.
Qed.
Lemma combine_sign : forall (s : Q -> Prop) mn mx, (forall a b, s a -> s b -> s (a + b)) ->
  (forall a t v, In (a, t) mx -> In v (dvals t) -> s v) -> (forall a t v, In (a, t) mn -> In v (dvals t) -> s v) ->
  forall a t v, In (a, t) (combine_tx mx mn) -> In v (dvals t) -> s v.
Proof.
  intros s mn. unfold combine_tx. induction mn as [|[b u] mn IH]; intros mx Add Hx Hn; cbn [fold_left fst snd]; [exact Hx|].
  apply IH; auto; [|intros a t v Ha; apply (Hn a t v); now right].
  intros a t v Ha Hv. revert Ha. destruct (@dget nat (dict Q Q) Nat.eqb mx b) as [y|] eqn:G; intros Ha; apply nset_in in Ha; destruct Ha as [->|Ha]; eauto.
  - revert v Hv. apply add_tx_sign; auto.
    + intros v Hv. eapply (Hx b y); auto. clear -G. induction mx as [|[c x] mx IHx]; cbn in *; [discriminate|]. destruct (Nat.eqb b c) eqn:E; [apply Nat.eqb_eq in E; subst; left; congruence|right; auto].
    + intros v Hv. eapply (Hn b u); auto. now left.
  - eapply (Hn b u); [now left|exact Hv].
Qed.
Lemma in_acct : forall r a t, NoDup (dkeys r) -> In (a, t) r -> acct_tx r a = tx_of t.
Proof.
  intros r a t N H. unfold acct_tx. enough (dget Nat.eqb r a = Some t) as -> by reflexivity. unfold dkeys in N.
  induction r as [|[b x] r IH]; [destruct H|]. cbn in *. inversion N; subst. destruct H as [H|H].
  - injection H as -> ->. now rewrite Nat.eqb_refl.
  - destruct (Nat.eqb a b) eqn:E; [|now apply IH]. apply Nat.eqb_eq in E. subst. exfalso. apply H2. apply in_map_iff. exists (b, t). auto.
Qed.
Lemma acct_in : forall r a, acct_tx r a = 0 \/ exists t, In (a, t) r /\ acct_tx r a = tx_of t.
Proof.
  intros r a. unfold acct_tx. destruct (dget Nat.eqb r a) as [t|] eqn:G; [|now left]. right. exists t. split; [|reflexivity].
  induction r as [|[b x] r IH]; cbn in *; [discriminate|]. destruct (Nat.eqb a b) eqn:E; [apply Nat.eqb_eq in E; subst; left; congruence|right; auto].
Qed.

(** one pass *)
Lemma traverse_inv : forall P fuel root memo total limit tx memo', world_ok P ->
  traverse P fuel root memo total limit = Ok (tx, memo') ->
  exists g f, build_graph P memo limit fuel root total = Ok g /\ feasible g f /\
    shape P memo limit (t_id root) (src_cap P memo root total) g /\
    memo' = merge_flows memo (flow_dict g f) /\ NoDup (dkeys tx) /\
    (forall a t, In (a, t) tx -> p_tx P limit a (if (match total with Fin q => Qlt_bool q 0 | Inf b => negb b end)
        then - (p_prec P * fl (outflow g f (Acc a))) else p_prec P * fl (outflow g f (Acc a))) = Ok t) /\
    p_flow P g = Ok f /\ exists acs, accounts_of fuel root = Ok acs /\ (forall a, In a acs -> In (Acc a) (nodes g) -> In a (dkeys tx)) /\ incl (dkeys tx) acs.
Proof.
  intros P fuel root memo total limit tx memo' (_ & Fl & Hh) H. unfold traverse in H.
  destruct (build_graph P memo limit fuel root total) as [g|] eqn:B; [|discriminate]. cbn [bind] in H.
  destruct (p_flow P g) as [f|] eqn:PF; [|discriminate]. cbn [bind] in H.
  destruct (accounts_of fuel root) as [acs|] eqn:AO; [|discriminate]. cbn [bind] in H.
  match type of H with bind ?X _ = _ => destruct X as [tx'|] eqn:C; [|discriminate] end. cbn [bind] in H. injection H as -> <-.
  pose proof (build_shape P memo limit fuel root total g Hh B) as S. pose proof (Fl _ _ PF) as F.
  exists g, f. split; [reflexivity|]. split; [exact F|]. split; [exact S|]. split; [reflexivity|].
  set (neg := match total with Fin q => Qlt_bool q 0 | Inf b => negb b end) in *.
  assert (K : forall l tx, NoDup l -> convert_flows P limit neg (flow_dict g f) l = Ok tx ->
     incl (dkeys tx) l /\ NoDup (dkeys tx) /\ (forall a t, In (a, t) tx -> p_tx P limit a (if neg then - (p_prec P * fl (outflow g f (Acc a))) else p_prec P * fl (outflow g f (Acc a))) = Ok t) /\
     (forall a, In a l -> In (Acc a) (nodes g) -> In a (dkeys tx))).
  { unfold dkeys. induction l as [|a l IH]; intros tx0 D C0; cbn in C0.
    - injection C0 as <-. cbn. split; [intros x []|]. split; [constructor|]. split; [intros a t []|intros a []].
    - inversion D; subst. destruct (convert_flows P limit neg (flow_dict g f) l) as [rest|]; [|discriminate]. cbn [bind] in C0.
      destruct (IH rest H2 eq_refl) as (I1 & I2 & I3 & I4).
      destruct (dmem geqb (flow_dict g f) (Acc a)) eqn:DM.
      + rewrite (flow_dict_out g f (Acc a) (sh_wf _ _ _ _ _ _ S) F) in C0.
        match type of C0 with bind ?X _ = _ => destruct X as [t0|] eqn:T; [|discriminate] end. cbn [bind] in C0. injection C0 as <-. cbn.
        split; [intros x [<-|Hx]; [now left|right; now apply I1]|]. split; [constructor; [intros Q; apply H1; now apply I1|exact I2]|].
        split; [intros b t [E|Hb]; [injection E as <- <-; exact T|now apply I3]|].
        intros b [<-|Hb] Hn; [now left|right; now apply I4].
      + injection C0 as <-. split; [intros x Hx; right; now apply I1|]. split; [exact I2|]. split; [exact I3|].
        intros b [<-|Hb] Hn; [|now apply I4]. exfalso. rewrite flow_dict_mem in DM. unfold dmem in DM.
        destruct (dget geqb g (Acc a)) eqn:G; [discriminate|]. apply gget_None in G. contradiction. }
  destruct (K _ tx (NoDup_nodup Nat.eq_dec acs) C) as (K1 & K2 & K3 & K4). split; [exact K2|]. split; [exact K3|]. split; [exact PF|].
  exists acs. split; [reflexivity|]. split; [intros a Ha; apply K4; now apply nodup_In|intros a Ha; apply K1 in Ha; now apply nodup_In in Ha].
Qed.
Lemma total_le : forall (p : Q) (h : nat -> Z) tx, 0 <= p -> (forall a t, In (a, t) tx -> tx_of t <= p * fl (h a)) ->
  total_tx tx <= p * fl (Zsum (map h (dkeys tx))).
Proof.
  intros p h tx Hp. unfold dkeys, total_tx. induction tx as [|[a t] tx IH]; intros H; cbn [map Qsum fst snd].
  - cbn. unfold fl, inject_Z. lra.
  - specialize (IH ltac:(intros b u Hb; apply H; now right)). pose proof (H a t (or_introl eq_refl)) as Ha.
    change (Zsum (h a :: map h (map fst tx))) with (h a + Zsum (map h (map fst tx)))%Z. rewrite fl_add.
    cbn [Qsum fold_right]. unfold Qsum in *. cbn [fold_right]. nra.
Qed.
Lemma acct_le : forall (p : Q) (h : nat -> Z) tx a, 0 <= p -> (forall b, (0 <= h b)%Z) -> (forall a t, In (a, t) tx -> tx_of t <= p * fl (h a)) ->
  acct_tx tx a <= p * fl (h a).
Proof.
  intros p h tx a Hp Hh H. destruct (acct_in tx a) as [E|(t & T & E)]; rewrite E; [|now apply H].
  pose proof (fl_le 0 (h a) (Hh a)) as K. unfold fl at 1, inject_Z in K. nra.
Qed.
Lemma list_le : forall (p : Q) (h : nat -> Z) tx l, 0 <= p -> (forall b, (0 <= h b)%Z) -> (forall a t, In (a, t) tx -> tx_of t <= p * fl (h a)) ->
  Qsum (map (acct_tx tx) l) <= p * fl (Zsum (map h l)).
Proof.
  intros p h tx l Hp Hh H. induction l as [|a l IH]; cbn [map].
  - cbn. unfold fl, inject_Z. lra.
  - pose proof (acct_le p h tx a Hp Hh H). change (Zsum (h a :: map h l)) with (h a + Zsum (map h l))%Z. rewrite fl_add.
    unfold Qsum in *. cbn [fold_right]. nra.
Qed.
Lemma pass_in : forall P fuel root memo total limit tx memo', world_ok P -> inflows_ok P limit -> 0 <= total ->
  traverse P fuel root memo (Fin total) limit = Ok (tx, memo') ->
  exists g f, build_graph P memo limit fuel root (Fin total) = Ok g /\ feasible g f /\
    shape P memo limit (t_id root) (src_cap P memo root (Fin total)) g /\ memo' = merge_flows memo (flow_dict g f) /\ NoDup (dkeys tx) /\
    (forall a t v, In (a, t) tx -> In v (dvals t) -> 0 <= v) /\
    (forall a t, In (a, t) tx -> tx_of t <= p_prec P * fl (outflow g f (Acc a))).
Proof.
  intros P fuel root memo total limit tx memo' W C T H. destruct (traverse_inv _ _ _ _ _ _ _ _ W H) as (g & f & B & F & S & M & N & K & _).
  exists g, f. split; [exact B|]. split; [exact F|]. split; [exact S|]. split; [exact M|]. split; [exact N|].
  assert (Hn : Qlt_bool total 0 = false) by (destruct (Qlt_bool total 0) eqn:E; [apply Qlt_bool_t in E; lra|reflexivity]). rewrite Hn in K.
  assert (X : forall a, 0 <= p_prec P * fl (outflow g f (Acc a))).
  { intros a. pose proof (fl_le _ _ (out_pos g f F (Acc a))) as O. unfold fl at 1, inject_Z in O. destruct W as [W _]. nra. }
  split; intros a t; [intros v Ha Hv; eapply C; [apply X|apply K; exact Ha|exact Hv]|intros Ha; eapply C; [apply X|now apply K]].
Qed.
Lemma scaled_in : forall P total, 0 < p_prec P -> 0 <= total ->
  let T := int_of (total / p_prec P) in (0 <= T)%Z /\ p_prec P * fl T <= total.
Proof.
  intros P total Hp Ht T.
  assert (D : 0 <= total / p_prec P) by (apply Qle_shift_div_l; [exact Hp|lra]).
  destruct (int_le _ D) as [I1 I2]. split; [exact I2|]. fold T in I1.
  assert (p_prec P * (total / p_prec P) == total) by (field; lra). nra.
Qed.
Lemma src_le_in : forall P memo root total g f limit, 0 < p_prec P -> 0 <= total ->
  shape P memo limit (t_id root) (src_cap P memo root (Fin total)) g -> feasible g f ->
  (0 <= flow_edge memo Src (TN (t_id root)) <= int_of (total / p_prec P))%Z ->
  (outflow g f Src + flow_edge memo Src (TN (t_id root)) <= int_of (total / p_prec P))%Z.
Proof.
  intros P memo root total g f limit Hp Ht S F [M1 M2]. destruct (scaled_in P total Hp Ht) as [T1 T2]. set (T := int_of (total / p_prec P)) in *.
  set (m := flow_edge memo Src (TN (t_id root))) in *.
  assert (A : qabs (fl T) == fl T) by (pose proof (fl_le _ _ T1) as K; unfold fl at 1, inject_Z in K; destruct (qabs_case (fl T)) as [[? E]|[? E]]; rewrite E; lra).
  assert (D : 0 <= qabs (fl T) - fl m) by (rewrite A; pose proof (fl_le _ _ M2); lra).
  destruct (int_le _ D) as [I1 I2].
  pose proof (src_le P memo limit (t_id root) (src_cap P memo root (Fin total)) g f S F _ eq_refl I2) as L.
  apply fl_le in L. change (fl (outflow g f Src) <= fl (int_of (qabs (fl T) - fl m))) in L.
  rewrite Zle_Qle. fold (fl (outflow g f Src + m)). fold (fl T). rewrite fl_add. lra.
Qed.

(** ** C55 *)
Theorem C55_inflows_within_available : forall P fuel root total r,
  world_ok P -> inflows_ok P MinIn -> inflows_ok P MaxIn -> p_prec P < total ->
  call P fuel root total = Ok r ->
  (forall a t v, In (a, t) r -> In v (dvals t) -> 0 <= v) /\ total_tx r <= total.
Proof.
  intros P fuel root total r W C1 C2 Ht H. pose proof W as (Hp & _). unfold call in H.
  assert (E : Qlt_bool (p_prec P) total = true) by (destruct (Qlt_bool (p_prec P) total) eqn:E; [reflexivity|apply Qlt_bool_f in E; lra]). rewrite E in H.
  destruct (traverse P fuel root [] (Fin total) MinIn) as [[mn memo]|] eqn:T1; [|discriminate]. cbn [bind] in H.
  destruct (traverse P fuel root memo (Fin total) MaxIn) as [[mx memo2]|] eqn:T2; [|discriminate]. cbn [bind] in H. injection H as <-.
  assert (T0 : 0 <= total) by lra.
  destruct (pass_in _ _ _ _ _ _ _ _ W C1 T0 T1) as (g1 & f1 & B1 & F1 & S1 & M1 & N1 & P1 & L1).
  destruct (pass_in _ _ _ _ _ _ _ _ W C2 T0 T2) as (g2 & f2 & B2 & F2 & S2 & M2 & N2 & P2 & L2).
  split; [eapply (combine_sign (fun v => 0 <= v)); [intros; lra|exact P2|exact P1]|].
  rewrite combine_total.
  destruct (scaled_in P total Hp T0) as [TT1 TT2]. set (T := int_of (total / p_prec P)) in *.
  assert (A1 : (outflow g1 f1 Src <= T)%Z).
  { pose proof (src_le_in P [] root total g1 f1 MinIn Hp T0 S1 F1 ltac:(cbn; lia)) as K. cbn in K. fold T in K. lia. }
  assert (ME : flow_edge memo Src (TN (t_id root)) = outflow g1 f1 Src).
  { subst memo. destruct (flow_dict_nodup g1 f1 (sh_wf _ _ _ _ _ _ S1)) as [D1 D2]. rewrite merge_edge by auto.
    rewrite flow_dict_edge by exact F1. rewrite (src_out _ _ _ _ _ _ _ S1 F1). reflexivity. }
  assert (A2 : (outflow g2 f2 Src + outflow g1 f1 Src <= T)%Z).
  { rewrite <- ME. apply (src_le_in P memo root total g2 f2 MaxIn Hp T0 S2 F2). rewrite ME. split; [apply (out_pos g1 f1 F1)|exact A1]. }
  assert (Q1 : total_tx mn <= p_prec P * fl (outflow g1 f1 Src)).
  { eapply Qle_trans; [apply (total_le (p_prec P) (fun a => outflow g1 f1 (Acc a))); [lra|exact L1]|].
    pose proof (fl_le _ _ (some_accounts_le _ _ _ _ _ _ _ S1 F1 (dkeys mn) N1)). nra. }
  assert (Q2 : total_tx mx <= p_prec P * fl (outflow g2 f2 Src)).
  { eapply Qle_trans; [apply (total_le (p_prec P) (fun a => outflow g2 f2 (Acc a))); [lra|exact L2]|].
    pose proof (fl_le _ _ (some_accounts_le _ _ _ _ _ _ _ S2 F2 (dkeys mx) N2)). nra. }
  apply fl_le in A2. rewrite fl_add in A2. nra.
Qed.
Print Assumptions C55_inflows_within_available.

Lemma fl0 : fl 0 == 0.
Proof. reflexivity. Qed.
Lemma capx_bound : forall P x m, 0 < p_prec P -> fl m <= x / p_prec P -> exists c, capx P (Fin x) m = Some c /\ (0 <= c)%Z /\ p_prec P * fl (c + m) <= x.
Proof.
  intros P x m Hp H. unfold capx. cbn [xdivq xsubq]. eexists. split; [reflexivity|].
  assert (A : qabs (x / p_prec P - fl m) == x / p_prec P - fl m) by (destruct (qabs_case (x / p_prec P - fl m)) as [[? E]|[? E]]; rewrite E; lra).
  assert (D : 0 <= qabs (x / p_prec P - fl m) - fl 0) by (rewrite A, fl0; lra).
  destruct (int_le _ D) as [I1 I2]. split; [exact I2|]. rewrite fl_add.
  assert (K : fl (int_of (qabs (x / p_prec P - fl m) - fl 0)) <= x / p_prec P - fl m) by (pose proof fl0; eapply Qle_trans; [exact I1|]; rewrite A; lra).
  assert (E : p_prec P * (x / p_prec P) == x) by (field; lra). nra.
Qed.
Lemma memo_out : forall g f u, gwf g -> feasible g f -> flow_out (merge_flows [] (flow_dict g f)) u = outflow g f u.
Proof. intros g f u W F. rewrite merge_out by (now apply flow_dict_nodup). now rewrite flow_dict_out. Qed.

(** C55: an account that is not linked to others never gets more than its own maximum *)
Theorem C55_inflow_account_limit : forall P fuel root total r a l L,
  world_ok P -> inflows_ok P MinIn -> inflows_ok P MaxIn -> p_prec P < total ->
  p_limit P MinIn a = Ok (Fin l) -> p_limit P MaxIn a = Ok (Fin L) -> 0 <= l <= L ->
  p_grp P MinIn a = None -> p_grp P MaxIn a = None ->
  call P fuel root total = Ok r -> acct_tx r a <= L.
Proof.
  intros P fuel root total r a l L W C1 C2 Ht Ll LL B G1 G2 H. pose proof W as (Hp & _). unfold call in H.
  assert (E : Qlt_bool (p_prec P) total = true) by (destruct (Qlt_bool (p_prec P) total) eqn:E; [reflexivity|apply Qlt_bool_f in E; lra]). rewrite E in H.
  destruct (traverse P fuel root [] (Fin total) MinIn) as [[mn memo]|] eqn:T1; [|discriminate]. cbn [bind] in H.
  destruct (traverse P fuel root memo (Fin total) MaxIn) as [[mx memo2]|] eqn:T2; [|discriminate]. cbn [bind] in H. injection H as <-.
  assert (T0 : 0 <= total) by lra.
  destruct (pass_in _ _ _ _ _ _ _ _ W C1 T0 T1) as (g1 & f1 & B1 & F1 & S1 & M1 & N1 & P1 & L1).
  destruct (pass_in _ _ _ _ _ _ _ _ W C2 T0 T2) as (g2 & f2 & B2 & F2 & S2 & M2 & N2 & P2 & L2).
  rewrite combine_acct by exact N1.
  assert (D0 : 0 <= l / p_prec P) by (apply Qle_shift_div_l; [exact Hp|lra]).
  destruct (capx_bound P l 0 Hp D0) as (c1 & K1 & K2 & K3).
  assert (A1 : (outflow g1 f1 (Acc a) <= c1)%Z).
  { refine (acc_le P [] MinIn (t_id root) _ g1 f1 S1 F1 a (Fin l) c1 Ll _ K2). rewrite G1. exact K1. }
  replace (c1 + 0)%Z with c1 in K3 by lia.
  assert (D1 : fl (outflow g1 f1 (Acc a)) <= L / p_prec P).
  { apply Qle_shift_div_l; [exact Hp|]. apply fl_le in A1. nra. }
  destruct (capx_bound P L (outflow g1 f1 (Acc a)) Hp D1) as (c2 & J1 & J2 & J3).
  assert (A2 : (outflow g2 f2 (Acc a) <= c2)%Z).
  { refine (acc_le P memo MaxIn (t_id root) _ g2 f2 S2 F2 a (Fin L) c2 LL _ J2). rewrite G2. subst memo.
    rewrite memo_out; [exact J1|apply (sh_wf _ _ _ _ _ _ S1)|exact F1]. }
  pose proof (acct_le (p_prec P) (fun a => outflow g1 f1 (Acc a)) mn a ltac:(lra) (fun b => out_pos g1 f1 F1 (Acc b)) L1) as X1.
  pose proof (acct_le (p_prec P) (fun a => outflow g2 f2 (Acc a)) mx a ltac:(lra) (fun b => out_pos g2 f2 F2 (Acc b)) L2) as X2.
  cbv beta in X1, X2. rewrite fl_add in J3. apply fl_le in A2. nra.
Qed.
Print Assumptions C55_inflow_account_limit.

(** C55: accounts that share their limits (for minimum and maximum alike) together never get more
    than the shared maximum *)
Theorem C55_inflow_group_limit : forall P fuel root total r grp l L members,
  world_ok P -> inflows_ok P MinIn -> inflows_ok P MaxIn -> p_prec P < total -> 0 <= l <= L ->
  (forall a, p_grp P MinIn a = Some grp <-> p_grp P MaxIn a = Some grp) ->
  (forall a, p_grp P MaxIn a = Some grp -> p_limit P MinIn a = Ok (Fin l) /\ p_limit P MaxIn a = Ok (Fin L)) ->
  NoDup members -> (forall a, In a members -> p_grp P MaxIn a = Some grp) ->
  call P fuel root total = Ok r -> Qsum (map (acct_tx r) members) <= L.
Proof.
  intros P fuel root total r grp l L mem W C1 C2 Ht B GG LL ND Mem H. pose proof W as (Hp & _). unfold call in H.
  assert (E : Qlt_bool (p_prec P) total = true) by (destruct (Qlt_bool (p_prec P) total) eqn:E; [reflexivity|apply Qlt_bool_f in E; lra]). rewrite E in H.
  destruct (traverse P fuel root [] (Fin total) MinIn) as [[mn memo]|] eqn:T1; [|discriminate]. cbn [bind] in H.
  destruct (traverse P fuel root memo (Fin total) MaxIn) as [[mx memo2]|] eqn:T2; [|discriminate]. cbn [bind] in H. injection H as <-.
  assert (T0 : 0 <= total) by lra.
  destruct (pass_in _ _ _ _ _ _ _ _ W C1 T0 T1) as (g1 & f1 & B1 & F1 & S1 & M1 & N1 & P1 & L1).
  destruct (pass_in _ _ _ _ _ _ _ _ W C2 T0 T2) as (g2 & f2 & B2 & F2 & S2 & M2 & N2 & P2 & L2).
  assert (SUM : Qsum (map (acct_tx (combine_tx mx mn)) mem) == Qsum (map (acct_tx mx) mem) + Qsum (map (acct_tx mn) mem)).
  { clear -N1. induction mem as [|a mem IH]; cbn [map Qsum]; [lra|]. rewrite IH, combine_acct by exact N1. lra. }
  rewrite SUM.
  assert (D0 : 0 <= l / p_prec P) by (apply Qle_shift_div_l; [exact Hp|lra]).
  destruct (capx_bound P l 0 Hp D0) as (c1 & K1 & K2 & K3). replace (c1 + 0)%Z with c1 in K3 by lia.
  assert (A1 : (outflow g1 f1 (Grp grp) <= c1)%Z).
  { apply (grp_le P [] MinIn (t_id root) _ g1 f1 S1 F1 grp c1); [|exact K2]. intros a Ha. exists (Fin l). split; [apply LL; now apply GG|exact K1]. }
  assert (D1 : fl (outflow g1 f1 (Grp grp)) <= L / p_prec P).
  { apply Qle_shift_div_l; [exact Hp|]. apply fl_le in A1. nra. }
  destruct (capx_bound P L (outflow g1 f1 (Grp grp)) Hp D1) as (c2 & J1 & J2 & J3).
  assert (A2 : (outflow g2 f2 (Grp grp) <= c2)%Z).
  { apply (grp_le P memo MaxIn (t_id root) _ g2 f2 S2 F2 grp c2); [|exact J2]. intros a Ha. exists (Fin L). split; [now apply LL|].
    subst memo. rewrite memo_out; [exact J1|apply (sh_wf _ _ _ _ _ _ S1)|exact F1]. }
  pose proof (list_le (p_prec P) (fun a => outflow g1 f1 (Acc a)) mn mem ltac:(lra) (fun b => out_pos g1 f1 F1 (Acc b)) L1) as X1.
  pose proof (list_le (p_prec P) (fun a => outflow g2 f2 (Acc a)) mx mem ltac:(lra) (fun b => out_pos g2 f2 F2 (Acc b)) L2) as X2.
  pose proof (fl_le _ _ (group_accounts_le _ _ _ _ _ _ _ S1 F1 grp mem ND (fun a Ha => proj2 (GG a) (Mem a Ha)))) as Y1.
  pose proof (fl_le _ _ (group_accounts_le _ _ _ _ _ _ _ S2 F2 grp mem ND Mem)) as Y2.
  rewrite fl_add in J3. apply fl_le in A2. nra.
Qed.
Print Assumptions C55_inflow_group_limit.

(** withdrawals *)
Lemma pass_out : forall P fuel root memo total limit tx memo', world_ok P -> outflows_ok P limit ->
  (match total with Fin q => q < 0 | Inf b => b = false end) ->
  traverse P fuel root memo total limit = Ok (tx, memo') ->
  exists g f, build_graph P memo limit fuel root total = Ok g /\ feasible g f /\
    shape P memo limit (t_id root) (src_cap P memo root total) g /\ memo' = merge_flows memo (flow_dict g f) /\ NoDup (dkeys tx) /\
    (forall a t v, In (a, t) tx -> In v (dvals t) -> v <= 0) /\
    (forall a t, In (a, t) tx -> - (p_prec P * fl (outflow g f (Acc a))) <= tx_of t).
Proof.
  intros P fuel root memo total limit tx memo' W C T H. destruct (traverse_inv _ _ _ _ _ _ _ _ W H) as (g & f & B & F & S & M & N & K & _).
  exists g, f. split; [exact B|]. split; [exact F|]. split; [exact S|]. split; [exact M|]. split; [exact N|].
  assert (Hn : (match total with Fin q => Qlt_bool q 0 | Inf b => negb b end) = true).
  { destruct total as [q|b]; [destruct (Qlt_bool q 0) eqn:E; [reflexivity|apply Qlt_bool_f in E; lra]|now subst]. } rewrite Hn in K.
  assert (X : forall a, - (p_prec P * fl (outflow g f (Acc a))) <= 0).
  { intros a. pose proof (fl_le _ _ (out_pos g f F (Acc a))) as O. unfold fl at 1, inject_Z in O. destruct W as [W _]. nra. }
  split; intros a t; [intros v Ha Hv; eapply C; [apply X|apply K; exact Ha|exact Hv]|intros Ha; eapply C; [apply X|now apply K]].
Qed.
Lemma total_ge : forall (p : Q) (h : nat -> Z) tx, 0 <= p -> (forall a t, In (a, t) tx -> - (p * fl (h a)) <= tx_of t) ->
  - (p * fl (Zsum (map h (dkeys tx)))) <= total_tx tx.
Proof.
  intros p h tx Hp. unfold dkeys, total_tx. induction tx as [|[a t] tx IH]; intros H; cbn [map fst snd].
  - cbn. unfold fl, inject_Z. lra.
  - specialize (IH ltac:(intros b u Hb; apply H; now right)). pose proof (H a t (or_introl eq_refl)) as Ha.
    change (Zsum (h a :: map h (map fst tx))) with (h a + Zsum (map h (map fst tx)))%Z. rewrite fl_add.
    cbn [Qsum]. nra.
Qed.
Lemma acct_ge : forall (p : Q) (h : nat -> Z) tx a, 0 <= p -> (forall b, (0 <= h b)%Z) -> (forall a t, In (a, t) tx -> - (p * fl (h a)) <= tx_of t) ->
  - (p * fl (h a)) <= acct_tx tx a.
Proof.
  intros p h tx a Hp Hh H. destruct (acct_in tx a) as [E|(t & T & E)]; rewrite E; [|now apply H].
  pose proof (fl_le 0 (h a) (Hh a)) as K. unfold fl at 1, inject_Z in K. nra.
Qed.
(** everything known about a planned withdrawal: the minimum pass moves nothing *)
Lemma call_out : forall P fuel root total r, world_ok P -> outflows_ok P MinOut -> outflows_ok P MaxOut ->
  proper_tree root -> t_lims root MinOut = None -> total < - p_prec P -> call P fuel root total = Ok r ->
  exists mn mx g1 f1 g2 f2, r = combine_tx mx mn /\ NoDup (dkeys mn) /\ NoDup (dkeys mx) /\
    feasible g1 f1 /\ feasible g2 f2 /\ (exists memo0, shape P memo0 MinOut (t_id root) (src_cap P memo0 root (Inf false)) g1) /\
    outflow g1 f1 Src = 0%Z /\ (forall a, outflow g1 f1 (Acc a) = 0%Z) /\
    shape P (merge_flows [] (flow_dict g1 f1)) MaxOut (t_id root) (src_cap P (merge_flows [] (flow_dict g1 f1)) root (Fin total)) g2 /\
    (forall u, flow_out (merge_flows [] (flow_dict g1 f1)) u = outflow g1 f1 u) /\ flow_edge (merge_flows [] (flow_dict g1 f1)) Src (TN (t_id root)) = 0%Z /\
    (forall a t v, In (a, t) mx -> In v (dvals t) -> v <= 0) /\ (forall a t v, In (a, t) mn -> In v (dvals t) -> v <= 0) /\
    (forall a t, In (a, t) mx -> - (p_prec P * fl (outflow g2 f2 (Acc a))) <= tx_of t) /\
    (forall a t, In (a, t) mn -> 0 <= tx_of t).
Proof.
  intros P fuel root total r W C1 C2 PT RL Ht H. pose proof W as (Hp & Fl & Hh). unfold call in H.
  assert (E : Qlt_bool (p_prec P) total = false) by (destruct (Qlt_bool (p_prec P) total) eqn:E; [apply Qlt_bool_t in E; lra|reflexivity]). rewrite E in H.
  assert (E2 : Qlt_bool total (- p_prec P) = true) by (destruct (Qlt_bool total (- p_prec P)) eqn:E2; [reflexivity|apply Qlt_bool_f in E2; lra]). rewrite E2 in H.
  destruct (traverse P fuel root [] (Inf false) MinOut) as [[mn memo]|] eqn:T1; [|discriminate]. cbn [bind] in H.
  destruct (traverse P fuel root memo (Fin total) MaxOut) as [[mx memo2]|] eqn:T2; [|discriminate]. cbn [bind] in H. injection H as <-.
  assert (T0 : total < 0) by lra.
  destruct (pass_out P fuel root [] (Inf false) MinOut mn memo W C1 (@eq_refl bool false) T1) as (g1 & f1 & B1 & F1 & S1 & M1 & N1 & P1 & L1).
  destruct (pass_out _ _ _ _ (Fin total) _ _ _ W C2 T0 T2) as (g2 & f2 & B2 & F2 & S2 & M2 & N2 & P2 & L2).
  pose proof (min_outflow_graph P MinOut root fuel false g1 Hh Fl RL PT B1 f1 F1) as Z1.
  assert (Z2 : forall a, outflow g1 f1 (Acc a) = 0%Z).
  { intros a. pose proof (some_accounts_le _ _ _ _ _ _ _ S1 F1 [a] ltac:(constructor; [intros []|constructor])) as K.
    pose proof (out_pos g1 f1 F1 (Acc a)). cbn in K. lia. }
  subst memo. exists mn, mx, g1, f1, g2, f2. repeat (split; [eassumption || reflexivity|]).
  split; [exists []; exact S1|]. repeat (split; [eassumption|]).
  split; [intros u; apply memo_out; [apply (sh_wf _ _ _ _ _ _ S1)|exact F1]|].
  split; [destruct (flow_dict_nodup g1 f1 (sh_wf _ _ _ _ _ _ S1)) as [D1 D2]; rewrite merge_edge by auto; rewrite flow_dict_edge by exact F1;
          rewrite <- (src_out _ _ _ _ _ _ _ S1 F1), Z1; reflexivity|].
  repeat (split; [eassumption|]). intros a t Ha. specialize (L1 a t Ha). rewrite Z2 in L1. unfold fl, inject_Z in L1. lra.
Qed.
Lemma opp_div : forall a b, - a / b = - (a / b).
Proof. intros [n d] b. unfold Qdiv, Qopp, Qmult. destruct (/ b) as [m e]. cbn. f_equal. lia. Qed.
Lemma int_opp : forall q, int_of (- q) = (- int_of q)%Z.
Proof. intros [n d]. unfold int_of, Qopp. cbn. apply Z.quot_opp_l. discriminate. Qed.
Theorem C55_outflows_within_available : forall P fuel root total r,
  world_ok P -> outflows_ok P MinOut -> outflows_ok P MaxOut -> proper_tree root -> t_lims root MinOut = None ->
  total < - p_prec P -> call P fuel root total = Ok r ->
  (forall a t v, In (a, t) r -> In v (dvals t) -> v <= 0) /\ total <= total_tx r.
Proof.
  intros P fuel root total r W C1 C2 PT RL Ht H. pose proof W as (Hp & _).
  destruct (call_out _ _ _ _ _ W C1 C2 PT RL Ht H) as (mn & mx & g1 & f1 & g2 & f2 & -> & N1 & N2 & F1 & F2 & [m0 S1] & Z1 & Z2 & S2 & MO & ME & P2 & P1 & L2 & L1).
  split; [eapply (combine_sign (fun v => v <= 0)); [intros; lra|exact P2|exact P1]|].
  rewrite combine_total.
  assert (Q1 : 0 <= total_tx mn).
  { clear -L1. unfold total_tx. induction mn as [|[a t] mn IH]; cbn [map Qsum fst snd]; [lra|].
    pose proof (L1 a t (or_introl eq_refl)). specialize (IH ltac:(intros; eapply L1; right; eauto)). lra. }
  assert (A2 : p_prec P * fl (outflow g2 f2 Src) <= - total).
  { set (T := int_of (total / p_prec P)).
    assert (TE : T = (- int_of ((- total) / p_prec P))%Z).
    { unfold T. now rewrite opp_div, int_opp, Z.opp_involutive. }
    destruct (scaled_in P (- total) Hp ltac:(lra)) as [TT1 TT2]. set (U := int_of (- total / p_prec P)) in *.
    assert (A : qabs (fl T) == fl U).
    { rewrite TE. pose proof (fl_le _ _ TT1) as K. unfold fl at 1, inject_Z in K.
      assert (O : fl (- U) == - fl U) by (unfold fl; now rewrite inject_Z_opp). destruct (qabs_case (fl (- U))) as [[? E]|[? E]]; rewrite E; lra. }
    assert (D : 0 <= qabs (fl T) - fl 0) by (rewrite A; pose proof (fl_le _ _ TT1); lra).
    destruct (int_le _ D) as [I1 I2].
    assert (L : (outflow g2 f2 Src <= int_of (qabs (fl T) - fl 0))%Z).
    { refine (src_le P _ MaxOut (t_id root) _ g2 f2 S2 F2 _ _ I2). unfold src_cap. cbn [scaled_total]. rewrite ME. reflexivity. }
    apply fl_le in L. pose proof fl0. assert (K : fl (outflow g2 f2 Src) <= fl U) by (eapply Qle_trans; [exact L|]; eapply Qle_trans; [exact I1|]; rewrite A; lra).
    nra. }
  pose proof (total_ge (p_prec P) (fun a => outflow g2 f2 (Acc a)) mx ltac:(lra) L2) as X2.
  pose proof (fl_le _ _ (some_accounts_le _ _ _ _ _ _ _ S2 F2 (dkeys mx) N2)) as Y2. nra.
Qed.
Print Assumptions C55_outflows_within_available.

Theorem C55_outflow_account_limit : forall P fuel root total r a L,
  world_ok P -> outflows_ok P MinOut -> outflows_ok P MaxOut -> proper_tree root -> t_lims root MinOut = None ->
  total < - p_prec P -> p_limit P MaxOut a = Ok (Fin L) -> L <= 0 -> p_grp P MaxOut a = None ->
  call P fuel root total = Ok r -> L <= acct_tx r a.
Proof.
  intros P fuel root total r a L W C1 C2 PT RL Ht LL Hl G2 H. pose proof W as (Hp & _).
  destruct (call_out _ _ _ _ _ W C1 C2 PT RL Ht H) as (mn & mx & g1 & f1 & g2 & f2 & -> & N1 & N2 & F1 & F2 & [m0 S1] & Z1 & Z2 & S2 & MO & ME & P2 & P1 & L2 & L1).
  rewrite combine_acct by exact N1.
  assert (X1 : 0 <= acct_tx mn a) by (destruct (acct_in mn a) as [E|(t & T & E)]; rewrite E; [lra|eauto]).
  assert (D : L / p_prec P <= 0) by (apply Qle_shift_div_r; lra).
  set (c := int_of (qabs (L / p_prec P - fl 0) - fl 0)).
  assert (A : qabs (L / p_prec P - fl 0) - fl 0 == - (L / p_prec P)).
  { unfold fl, inject_Z. destruct (qabs_case (L / p_prec P - 0)) as [[? E]|[? E]]; rewrite E; lra. }
  assert (D2 : 0 <= qabs (L / p_prec P - fl 0) - fl 0) by (rewrite A; lra).
  destruct (int_le _ D2) as [I1 I2]. fold c in I1, I2. assert (I3 : fl c <= - (L / p_prec P)) by (rewrite <- A; exact I1).
  assert (A2 : (outflow g2 f2 (Acc a) <= c)%Z).
  { refine (acc_le P _ MaxOut (t_id root) _ g2 f2 S2 F2 a (Fin L) c LL _ I2). rewrite G2, MO, Z2. reflexivity. }
  pose proof (acct_ge (p_prec P) (fun a => outflow g2 f2 (Acc a)) mx a ltac:(lra) (fun b => out_pos g2 f2 F2 (Acc b)) L2) as X2. cbv beta in X2.
  apply fl_le in A2. assert (E : p_prec P * (L / p_prec P) == L) by (field; lra). nra.
Qed.
Print Assumptions C55_outflow_account_limit.

Lemma grp_quiet : forall P memo limit rid sc g f, shape P memo limit rid sc g -> feasible g f ->
  (forall a, outflow g f (Acc a) = 0%Z) -> forall r, outflow g f (Grp r) = 0%Z.
Proof.
  intros P memo limit rid sc g f S F Z r. destruct (in_dec gnode_dec (Grp r) (nodes g)) as [I|I].
  - rewrite (grp_cons g f F r I). unfold inflow. apply Zsum_zero. intros u _.
    destruct (edge_of g u (Grp r)) as [e|] eqn:E; [|now apply (fe_edges _ _ F)].
    destruct (sh_togrp _ _ _ _ _ _ S _ _ _ E) as [a ->].
    pose proof (Z a) as Za. rewrite (acc_out _ _ _ _ _ _ _ S F) in Za.
    destruct (sh_acc _ _ _ _ _ _ S _ _ _ E) as (x & _ & K). unfold acc_target in Za.
    destruct (p_grp P limit a); destruct K as [K _]; [injection K as ->; exact Za|discriminate].
  - exact (out_not_node _ _ _ _ _ _ _ S F _ I).
Qed.
Lemma list_ge : forall (p : Q) (h : nat -> Z) tx l, 0 <= p -> (forall b, (0 <= h b)%Z) -> (forall a t, In (a, t) tx -> - (p * fl (h a)) <= tx_of t) ->
  - (p * fl (Zsum (map h l))) <= Qsum (map (acct_tx tx) l).
Proof.
  intros p h tx l Hp Hh H. induction l as [|a l IH]; cbn [map].
  - cbn. unfold fl, inject_Z. lra.
  - pose proof (acct_ge p h tx a Hp Hh H). change (Zsum (h a :: map h l)) with (h a + Zsum (map h l))%Z. rewrite fl_add.
    unfold Qsum in *. cbn [fold_right]. nra.
Qed.
(** accounts sharing one limit on withdrawals: together they never withdraw more than it *)
Theorem C55_outflow_group_limit : forall P fuel root total r grp L members,
  world_ok P -> outflows_ok P MinOut -> outflows_ok P MaxOut -> proper_tree root -> t_lims root MinOut = None ->
  total < - p_prec P -> L <= 0 ->
  (forall a, p_grp P MaxOut a = Some grp -> p_limit P MaxOut a = Ok (Fin L)) ->
  NoDup members -> (forall a, In a members -> p_grp P MaxOut a = Some grp) ->
  call P fuel root total = Ok r -> L <= Qsum (map (acct_tx r) members).
Proof.
  intros P fuel root total r grp L mem W C1 C2 PT RL Ht Hl LL ND Mem H. pose proof W as (Hp & _).
  destruct (call_out _ _ _ _ _ W C1 C2 PT RL Ht H) as (mn & mx & g1 & f1 & g2 & f2 & -> & N1 & N2 & F1 & F2 & [m0 S1] & Z1 & Z2 & S2 & MO & ME & P2 & P1 & L2 & L1).
  pose proof (grp_quiet _ _ _ _ _ _ _ S1 F1 Z2 grp) as Z3.
  assert (SUM : Qsum (map (acct_tx (combine_tx mx mn)) mem) == Qsum (map (acct_tx mx) mem) + Qsum (map (acct_tx mn) mem)).
  { clear -N1. induction mem as [|a mem IH]; cbn [map Qsum]; [lra|]. rewrite IH, combine_acct by exact N1. lra. }
  rewrite SUM.
  assert (X1 : 0 <= Qsum (map (acct_tx mn) mem)).
  { clear -L1. induction mem as [|a mem IH]; cbn [map Qsum]; [lra|].
    destruct (acct_in mn a) as [E|(t & T & E)]; rewrite E; [lra|]. specialize (L1 _ _ T). lra. }
  assert (D : L / p_prec P <= 0) by (apply Qle_shift_div_r; lra).
  set (c := int_of (qabs (L / p_prec P - fl 0) - fl 0)).
  assert (A : qabs (L / p_prec P - fl 0) - fl 0 == - (L / p_prec P)).
  { unfold fl, inject_Z. destruct (qabs_case (L / p_prec P - 0)) as [[? E]|[? E]]; rewrite E; lra. }
  assert (D2 : 0 <= qabs (L / p_prec P - fl 0) - fl 0) by (rewrite A; lra).
  destruct (int_le _ D2) as [I1 I2]. fold c in I1, I2. assert (I3 : fl c <= - (L / p_prec P)) by (rewrite <- A; exact I1).
  assert (A2 : (outflow g2 f2 (Grp grp) <= c)%Z).
  { apply (grp_le P _ MaxOut (t_id root) _ g2 f2 S2 F2 grp c); [|exact I2]. intros a Ha. exists (Fin L). split; [now apply LL|].
    rewrite MO, Z3. reflexivity. }
  pose proof (list_ge (p_prec P) (fun a => outflow g2 f2 (Acc a)) mx mem ltac:(lra) (fun b => out_pos g2 f2 F2 (Acc b)) L2) as X2.
  pose proof (fl_le _ _ (group_accounts_le _ _ _ _ _ _ _ S2 F2 grp mem ND Mem)) as Y2.
  apply fl_le in A2. assert (E : p_prec P * (L / p_prec P) == L) by (field; lra). nra.
Qed.
Print Assumptions C55_outflow_group_limit.

(** ** Concrete worlds *)
(** a network solver that offers one flow and checks it *)
Definition feasibleb (g : graph) (f : gnode -> gnode -> Z) : bool :=
  forallb (fun u => forallb (fun v => match edge_of g u v with
      | None => (f u v =? 0)%Z
      | Some e => (0 <=? f u v)%Z && match e_cap e with Some c => (f u v <=? c)%Z | None => true end
      end) (nodes g)) (nodes g) &&
  forallb (fun u => match u with Src | Snk => true | _ => (outflow g f u =? inflow g f u)%Z end) (nodes g).
Definition restrict (g : graph) (f : gnode -> gnode -> Z) : gnode -> gnode -> Z :=
  fun u v => if dmem geqb g u && dmem geqb g v then f u v else 0%Z.
Definition solver (cand : graph -> gnode -> gnode -> Z) (g : graph) : res (gnode -> gnode -> Z) :=
  if (fold_right andb true (map (fun u => negb (Nat.ltb 1 (List.length (filter (geqb u) (nodes g))))) (nodes g)) && forallb (fun ua => forallb (fun v => dmem geqb g v) (dkeys (snd ua))) g) && feasibleb g (restrict g (cand g)) then Ok (restrict g (cand g)) else Err NetworkXError.
Lemma dmem_In : forall {V} (g : dict gnode V) u, dmem geqb g u = true <-> In u (dkeys g).
Proof.
  intros V g u. unfold dmem. destruct (dget geqb g u) as [x|] eqn:E; [apply gget_Some_key in E; tauto|].
  apply gget_None in E. split; [discriminate|contradiction].
Qed.
Lemma solver_ok : forall cand g f, solver cand g = Ok f -> feasible g f.
Proof.
  intros cand g f H. unfold solver in H. destruct (_ && feasibleb g (restrict g (cand g)))%bool eqn:E; [|discriminate]. injection H as <-.
  apply andb_true_iff in E. destruct E as [E0 E]. apply andb_true_iff in E0. destruct E0 as [_ E0].
  unfold feasibleb in E. apply andb_true_iff in E. destruct E as [E1 E2]. rewrite forallb_forall in E1, E2, E0.
  set (h := restrict g (cand g)) in *.
  assert (OUT : forall u v, ~ (In u (nodes g) /\ In v (nodes g)) -> h u v = 0%Z).
  { intros u v N. unfold h, restrict. destruct (dmem geqb g u && dmem geqb g v)%bool eqn:D; [|reflexivity].
    apply andb_true_iff in D. rewrite !dmem_In in D. contradiction. }
  assert (W : forall u v e, edge_of g u v = Some e -> In u (nodes g) /\ In v (nodes g)).
  { intros u v e Q. unfold edge_of, adj in Q. destruct (dget geqb g u) as [d|] eqn:Du; [|discriminate].
    split; [eapply gget_Some_key; eauto|]. apply gget_In in Du. specialize (E0 _ Du). rewrite forallb_forall in E0.
    apply dmem_In. apply E0. cbn. eapply gget_Some_key; eauto. }
  assert (K : forall u v, In u (nodes g) -> In v (nodes g) -> match edge_of g u v with
      | None => (h u v = 0)%Z | Some e => (0 <= h u v)%Z /\ match e_cap e with Some c => (h u v <= c)%Z | None => True end end).
  { intros u v Hu Hv. specialize (E1 u Hu). rewrite forallb_forall in E1. specialize (E1 v Hv). cbv beta in E1.
    destruct (edge_of g u v) as [e|]; [|now apply Z.eqb_eq]. apply andb_true_iff in E1. destruct E1 as [A B]. split; [now apply Z.leb_le|].
    destruct (e_cap e); [now apply Z.leb_le|exact I]. }
  assert (DEC : forall u v, {In u (nodes g) /\ In v (nodes g)} + {~ (In u (nodes g) /\ In v (nodes g))}).
  { intros u v. destruct (in_dec gnode_dec u (nodes g)), (in_dec gnode_dec v (nodes g)); try (left; tauto); right; tauto. }
  constructor.
  - intros u v Q. destruct (DEC u v) as [[D1 D2]|D]; [|now apply OUT]. specialize (K u v D1 D2). now rewrite Q in K.
  - intros u v. destruct (DEC u v) as [[D1 D2]|D]; [|rewrite OUT by exact D; lia]. specialize (K u v D1 D2). destruct (edge_of g u v); [tauto|lia].
  - intros u v e c Q C. destruct (W _ _ _ Q) as [D1 D2]. specialize (K u v D1 D2). rewrite Q, C in K. tauto.
  - intros u Hu N1 N2. specialize (E2 u Hu). destruct u; try contradiction; now apply Z.eqb_eq.
Qed.
(** the whole flow through one account, along the only path of the graph of a single account *)
Definition cap_or (g : graph) (u v : gnode) (big : Z) : Z := match edge_of g u v with Some {| e_cap := Some c |} => c | Some _ => big | None => 0%Z end.
Definition one_path (a : nat) (grp : option nat) (i : nat) (g : graph) : gnode -> gnode -> Z :=
  let last := match edge_of g (Acc a) Snk with Some _ => cap_or g (Acc a) Snk 1000000 | None => match grp with Some r => cap_or g (Grp r) Snk 1000000 | None => 0%Z end end in
  let m := Z.min (cap_or g Src (TN i) 1000000) (Z.min (cap_or g (TN i) (TLim i) 1000000) (Z.min (cap_or g (TLim i) (Acc a) 1000000) last)) in
  fun u v => match edge_of g u v with Some _ => m | None => 0%Z end.
(** two accounts 0 and 1; [link]: for which limits account 0 belongs to group 7 *)
Definition demo_env (mn mx mno mxo : Q) (link : lk -> bool) (a : nat) : env := {|
  p_limit := fun k _ => Ok (Fin (match k with MinIn => mn | MaxIn => mx | MinOut => mno | MaxOut => mxo end));
  p_tx := fun k _ x => Ok [(1#2, x)];
  p_grp := fun k _ => if link k then Some 7%nat else None;
  p_prec := 1;
  p_flow := solver (one_path a (Some 7%nat) 0);
  p_hash := fun l => l |}.
Lemma demo_ok : forall mn mx mno mxo link a, world_ok (demo_env mn mx mno mxo link a) /\ (forall k, inflows_ok (demo_env mn mx mno mxo link a) k) /\ (forall k, outflows_ok (demo_env mn mx mno mxo link a) k).
Proof.
  intros. split; [|split].
  - split; [reflexivity|]. split; [apply solver_ok|auto].
  - intros k b x t Hx H. cbn in H. injection H as <-. unfold tx_of. cbn. split; [intros v [<-|[]]; exact Hx|lra].
  - intros k b x t Hx H. cbn in H. injection H as <-. unfold tx_of. cbn. split; [intros v [<-|[]]; exact Hx|lra].
Qed.
Definition leaf_root (a : nat) : tnode := fst (mk_node (SAcct a) no_limits 0).
Example C55_sat :
  let P := demo_env 100 150 (- (20)) (- (400)) (fun _ => false) 3 in
  world_ok P /\ (forall k, inflows_ok P k) /\ (forall k, outflows_ok P k) /\ proper_tree (leaf_root 3) /\
  (exists r, call P 10 (leaf_root 3) 1000 = Ok r /\ acct_tx r 3 == 150) /\
  (exists r, call P 10 (leaf_root 3) 120 = Ok r /\ acct_tx r 3 == 120) /\
  (exists r, call P 10 (leaf_root 3) (- (250)) = Ok r /\ acct_tx r 3 == - (250)) /\
  (exists r, call P 10 (leaf_root 3) (- (2500)) = Ok r /\ acct_tx r 3 == - (400)).
Proof.
  cbv zeta. destruct (demo_ok 100 150 (- (20)) (- (400)) (fun _ => false) 3) as (W & I1 & O1).
  split; [exact W|]. split; [exact I1|]. split; [exact O1|]. split.
  { assert (NC : forall c, ~ is_child (leaf_root 3) c) by (intros c (l & L1 & L2); cbn in L1; injection L1 as <-; destruct L2).
    assert (BB : forall n, below (leaf_root 3) n -> n = leaf_root 3) by (intros n B; induction B as [|m d B IH Cd]; [reflexivity|]; subst; now apply NC in Cd).
    intros n c B C. apply BB in B. subst. now apply NC in C. }
  repeat split; eexists; split; vm_compute; reflexivity.
Qed.

(** C55, refuted part: an account that shares only its maximum with others (as linked accounts do)
    and has a minimum of its own gets the minimum on top of the shared maximum *)
Theorem C55_group_limit_refuted : exists P fuel root total r a l L,
  world_ok P /\ inflows_ok P MinIn /\ inflows_ok P MaxIn /\ p_prec P < total /\
  p_limit P MinIn a = Ok (Fin l) /\ p_limit P MaxIn a = Ok (Fin L) /\ 0 <= l <= L /\
  call P fuel root total = Ok r /\ ~ acct_tx r a <= L.
Proof.
  exists (demo_env 100 150 0 0 (fun k => match k with MaxIn => true | _ => false end) 3), 10%nat, (leaf_root 3), 1000.
  eexists. exists 3%nat, 100, 150.
  destruct (demo_ok 100 150 0 0 (fun k => match k with MaxIn => true | _ => false end) 3) as (W & I1 & _).
  split; [exact W|]. split; [apply I1|]. split; [apply I1|]. split; [reflexivity|]. split; [reflexivity|]. split; [reflexivity|]. split; [split; discriminate|].
  split; [vm_compute; reflexivity|]. vm_compute. intros H. now apply H.
Qed.
Print Assumptions C55_group_limit_refuted.

(** C81, refuted: the minimum withdrawals are not made beyond the shortfall being covered, whatever
    the tree and the accounts: the first pass, which should assign them, moves nothing *)
Theorem C81_minimum_withdrawals_refuted : forall P fuel root total r a m,
  world_ok P -> outflows_ok P MinOut -> outflows_ok P MaxOut -> proper_tree root -> t_lims root MinOut = None ->
  total < - p_prec P -> p_limit P MinOut a = Ok (Fin m) -> m < total ->
  call P fuel root total = Ok r -> ~ acct_tx r a <= m.
Proof.
  intros P fuel root total r a m W C1 C2 PT RL Ht _ Hm H K.
  destruct (C55_outflows_within_available P fuel root total r W C1 C2 PT RL Ht H) as [S T].
  enough (total_tx r <= acct_tx r a) by lra.
  assert (S1 : forall b t, In (b, t) r -> tx_of t <= 0).
  { intros b t Hb. specialize (S b t). unfold tx_of. assert (Q : forall v, In v (dvals t) -> v <= 0) by (intros v Hv; apply S; auto). clear -Q.
    induction (dvals t) as [|v l IH]; cbn; [lra|]. pose proof (Q v (or_introl eq_refl)). specialize (IH ltac:(intros; apply Q; now right)). lra. }
  clear -S1. assert (A : total_tx r <= 0).
  { clear a. unfold total_tx. induction r as [|[b t] r IH]; cbn [map Qsum fst snd]; [lra|]. pose proof (S1 b t (or_introl eq_refl)). specialize (IH ltac:(intros; eapply S1; right; eauto)). lra. }
  unfold total_tx, acct_tx in *. induction r as [|[b t] r IH]; cbn -[tx_of] in *; [lra|].
  assert (R : Qsum (map (fun at_ => tx_of (snd at_)) r) <= 0).
  { assert (S2 : forall c u, In (c, u) r -> tx_of u <= 0) by (intros; eapply S1; right; eauto). clear -S2.
    induction r as [|[c u] r IH]; cbn [map Qsum fst snd]; [lra|]. pose proof (S2 c u (or_introl eq_refl)). specialize (IH ltac:(intros; eapply S2; right; eauto)). lra. }
  destruct (Nat.eqb a b); [lra|]. specialize (IH ltac:(intros; eapply S1; right; eauto) R). pose proof (S1 b t (or_introl eq_refl)). lra.
Qed.
Print Assumptions C81_minimum_withdrawals_refuted.
(** the account must pay out at least 100, the shortfall is 10: only 10 is planned *)
Example C81_sat : let P := demo_env 0 0 (- (100)) (- (1000)) (fun _ => false) 3 in
  exists r, call P 10 (leaf_root 3) (- (10)) = Ok r /\ acct_tx r 3 == - (10).
Proof. cbv zeta. eexists; split; vm_compute; reflexivity. Qed.

(** ** C57 *)
(** children are split into those with room left, those with overflow and the exactly full ones:
    every child is in exactly one part, decided by its own flows *)
Theorem C57_children_partitioned : forall g n f l u o s, classify g n f l = Ok (u, o, s) ->
  Permutation (u ++ o ++ s) l /\
  (forall c, In c l -> exists e k, edge_of g (TLim (t_id n)) (TN (t_id c)) = Some e /\ e_cap e = Some k /\
     let x := f (TLim (t_id n)) (TN (t_id c)) in let y := f (TOvf (t_id n)) (TN (t_id c)) in
     (In c u /\ (x < k)%Z) \/ (In c o /\ (k <= x)%Z /\ (0 < y)%Z) \/ (In c s /\ (k <= x)%Z /\ (y <= 0)%Z)).
Proof.
  intros g n f l. induction l as [|c l IH]; intros u o s H; cbn in H.
  - injection H as <- <- <-. split; [constructor|intros c []].
  - destruct (classify g n f l) as [[[u0 o0] s0]|]; [|discriminate]. cbn in H. destruct (IH _ _ _ eq_refl) as [I1 I2].
    destruct (edge_of g (TLim (t_id n)) (TN (t_id c))) as [[[k|] w]|] eqn:E; try discriminate.
    destruct (f (TLim (t_id n)) (TN (t_id c)) <? k)%Z eqn:C1; [|destruct (0 <? f (TOvf (t_id n)) (TN (t_id c)))%Z eqn:C2];
      injection H as <- <- <-; (split; [|intros d [<-|Hd]; [exists {| e_cap := Some k; e_w := w |}, k; split; [exact E|]; split; [reflexivity|]|
        destruct (I2 d Hd) as (e & kk & X1 & X2 & X3); exists e, kk; split; [exact X1|]; split; [exact X2|]; cbv zeta in X3 |- *; cbn; tauto]]).
    + cbn. now constructor.
    + left. split; [now left|now apply Z.ltb_lt].
    + apply Permutation_sym. apply Permutation_cons_app. now apply Permutation_sym.
    + right; left. split; [now left|]. split; [now apply Z.ltb_ge|now apply Z.ltb_lt].
    + rewrite app_assoc. apply Permutation_sym. apply Permutation_cons_app. rewrite <- app_assoc. now apply Permutation_sym.
    + right; right. split; [now left|]. split; [now apply Z.ltb_ge|now apply Z.ltb_ge].
Qed.
Print Assumptions C57_children_partitioned.

(** moving children that stopped being full out of the saturated part loses and duplicates none *)
Lemma swap_perm : forall g n f l sat non s' n', NoDup (map t_id l) -> NoDup (map t_id sat) -> (forall c, In c sat -> In c l \/ ~ In (t_id c) (map t_id l)) ->
  swap_saturated g n f l sat non = Ok (s', n') -> Permutation (s' ++ n') (sat ++ non).
Proof.
  intros g n f l. induction l as [|c l IH]; intros sat non s' n' D1 D2 S H; cbn in H.
  - injection H as <- <-. reflexivity.
  - cbn in D1. inversion D1 as [|? ? Nc Dl]; subst.
    assert (S0 : forall d, In d sat -> d <> c -> In d l \/ ~ In (t_id d) (map t_id l)).
    { intros d Hd Ne. destruct (S d Hd) as [[->|Hl]|Hl]; [contradiction|now left|]. right. intros Q. apply Hl. now right. }
    assert (S1 : forall d, In d sat -> In d l \/ ~ In (t_id d) (map t_id l)).
    { intros d Hd. destruct (S d Hd) as [[->|Hl]|Hl]; [now right|now left|]. right. intros Q. apply Hl. now right. }
    destruct (has_node c sat) eqn:HN; [|eapply IH; eauto].
    destruct (edge_of g (TLim (t_id n)) (TN (t_id c))) as [[[k|] w]|]; try discriminate.
    destruct (k =? f (TLim (t_id n)) (TN (t_id c)))%Z; [eapply IH; eauto|].
    unfold has_node in HN. apply existsb_exists in HN. destruct HN as (c' & C1 & C2). unfold node_eqb in C2. apply Nat.eqb_eq in C2.
    assert (c' = c) as ->.
    { destruct (S c' C1) as [[->|Hl]|Hl]; [reflexivity| |].
      - exfalso. apply Nc. rewrite C2. now apply in_map.
      - exfalso. apply Hl. left. exact C2. }
    apply in_split in C1. destruct C1 as (s1 & s2 & ->).
    assert (F : filter (fun x => negb (node_eqb x c)) (s1 ++ c :: s2) = s1 ++ s2).
    { rewrite map_app in D2. cbn in D2. apply NoDup_remove_2 in D2. rewrite filter_app. cbn. unfold node_eqb at 2. rewrite Nat.eqb_refl. cbn.
      assert (ID : forall l0, (forall x, In x l0 -> t_id x <> t_id c) -> filter (fun x => negb (node_eqb x c)) l0 = l0).
      { clear. induction l0 as [|x l0 IH]; intros H; [reflexivity|]. cbn. unfold node_eqb at 1. destruct (t_id x =? t_id c)%nat eqn:E; cbn.
        - apply Nat.eqb_eq in E. exfalso. eapply H; [now left|exact E].
        - f_equal. apply IH. intros y Hy. apply H. now right. }
      rewrite !ID; [reflexivity| |]; intros x Hx Q; apply D2; rewrite <- Q; apply in_or_app; [right|left]; now apply in_map. }
    rewrite F in H. apply IH in H; [|exact Dl| |].
    + rewrite H. rewrite !app_assoc. rewrite <- Permutation_cons_append. rewrite <- !app_assoc. apply Permutation_cons_app with (l1 := s1) (l2 := s2 ++ non). rewrite app_assoc. reflexivity.
    + rewrite map_app in D2 |- *. cbn in D2. now apply NoDup_remove_1 in D2.
    + intros d Hd. apply S1. apply in_app_or in Hd. apply in_or_app. cbn. tauto.
Qed.
Theorem C57_swap_keeps_every_child : forall g n f children sat non s' n',
  NoDup (map t_id children) -> NoDup (map t_id sat) -> incl sat children ->
  swap_saturated g n f children sat non = Ok (s', n') -> Permutation (s' ++ n') (sat ++ non).
Proof. intros g n f l sat non s' n' D1 D2 S H. eapply swap_perm; [exact D1|exact D2| |exact H]. intros c Hc. left. now apply S. Qed.
Print Assumptions C57_swap_keeps_every_child.

(** merging two flow dicts adds them edge by edge, so totals add up and conservation is preserved *)
Theorem C57_merge_adds : forall first second, NoDup (dkeys second) -> (forall u d, In (u, d) second -> NoDup (dkeys d)) ->
  (forall u v, flow_edge (merge_flows first second) u v = (flow_edge first u v + flow_edge second u v)%Z) /\
  (forall u, flow_out (merge_flows first second) u = (flow_out first u + flow_out second u)%Z).
Proof. intros. split; intros; [now apply merge_edge|now apply merge_out]. Qed.
Print Assumptions C57_merge_adds.
Definition dict_conserved (d : flowd) (us : list gnode) (v : gnode) : Prop := flow_out d v = Zsum (map (fun u => flow_edge d u v) us).
Theorem C57_merge_conserves : forall first second us v, NoDup (dkeys second) -> (forall u d, In (u, d) second -> NoDup (dkeys d)) ->
  dict_conserved first us v -> dict_conserved second us v -> dict_conserved (merge_flows first second) us v.
Proof.
  intros a b us v N I H1 H2. unfold dict_conserved in *. rewrite merge_out by exact N. rewrite H1, H2, <- Zsum_add.
  apply Zsum_ext. intros u _. now rewrite merge_edge.
Qed.
Print Assumptions C57_merge_conserves.
(** the second pass may use on each account only what the first pass left of its limit *)
Theorem C57_memo_and_new_flow_within_capacity : forall P memo limit rid sc g f a L,
  0 < p_prec P -> shape P memo limit rid sc g -> feasible g f -> p_limit P limit a = Ok (Fin L) -> p_grp P limit a = None ->
  p_prec P * fl (flow_out memo (Acc a)) <= L ->
  p_prec P * fl (flow_out (merge_flows memo (flow_dict g f)) (Acc a)) <= L.
Proof.
  intros P memo limit rid sc g f a L Hp S F LL G H.
  rewrite merge_out by (now apply flow_dict_nodup, (sh_wf _ _ _ _ _ _ S)). rewrite flow_dict_out by (exact F || apply (sh_wf _ _ _ _ _ _ S)).
  destruct (capx_bound P L (flow_out memo (Acc a)) Hp) as (c & C1 & C2 & C3); [apply Qle_shift_div_l; [exact Hp|lra]|].
  assert (A : (outflow g f (Acc a) <= c)%Z) by (refine (acc_le P memo limit rid sc g f S F a (Fin L) c LL _ C2); now rewrite G).
  rewrite Z.add_comm. apply fl_le in A. rewrite fl_add in *. nra.
Qed.
Print Assumptions C57_memo_and_new_flow_within_capacity.
Example C57_sat : merge_flows [(Src, [(TN 0, 3%Z)])] [(Src, [(TN 0, 4%Z)]); (TN 0, [(TLim 0, 4%Z)])] = [(Src, [(TN 0, 7%Z)]); (TN 0, [(TLim 0, 4%Z)])].
Proof. reflexivity. Qed.
