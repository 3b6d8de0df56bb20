(** C113: income tax as it is computed, with rounding. *)
From Verif Require Import Base BaseFacts RBase RoundTaxModel.
From Coq Require Import Lia Sorted Permutation.
From Flocq Require Core Relative.
Open Scope R_scope.
Notation table := (list (R * R)).

(** ** Specification *)
(** A rounding: keeps the order, keeps 0, and rounding twice changes nothing. *)
Definition rounding (rnd : R -> R) : Prop :=
  (forall x y, x <= y -> rnd x <= rnd y) /\ rnd 0 = 0 /\ (forall x, rnd (rnd x) = rnd x).
(** its relative error is at most [u] *)
Definition accurate (u : R) (rnd : R -> R) : Prop := 0 <= u < 1 /\ forall x, Rabs (rnd x - x) <= u * Rabs x.
(** a bracket table: distinct thresholds, at least one, rates that are not negative *)
Definition table_ok (b : table) : Prop := b <> [] /\ dwf Reqb b /\ forall k r, In (k, r) b -> 0 <= r.
(** the part of income [x] in the bracket that starts at [b]: up to [x] or to the next threshold, whichever comes first *)
Definition part (thresholds : list R) (b x : R) : R := Rmax 0 (fold_right Rmin x (filter (fun k => Rltb b k) thresholds) - b).
(** the exact tax: each part at its own rate *)
Definition progressive (b : table) (x : R) : R := Rsum (map (fun kv => snd kv * part (dkeys b) (fst kv) x) b).
(** [q] earns no less than [p] and deducts no more *)
Definition earns_more (p q : earner) : Prop :=
  e_income p <= e_income q /\ e_deduction q <= e_deduction p /\ e_credit q <= e_credit p /\
  e_more_deduction q <= e_more_deduction p /\ e_more_credit q <= e_more_credit p.

(** ** Proofs *)
(** *** sorting *)
Lemma insert_perm k l : Permutation (rinsert k l) (k :: l).
Proof. induction l as [|x l IH]; cbn; [reflexivity|]. destruct (Rleb k x); [reflexivity|]. rewrite IH. apply perm_swap. Qed.
Lemma sort_perm l : Permutation (rsort l) l.
Proof. induction l as [|x l IH]; cbn; [reflexivity|]. rewrite insert_perm. now constructor. Qed.
Lemma insert_sorted k l : StronglySorted Rle l -> StronglySorted Rle (rinsert k l).
Proof.
  intros H. induction H as [|x l H IH F]; cbn; [repeat constructor|]. destruct (Rleb k x) eqn:E; rb.
  - constructor; [constructor; assumption|]. constructor; [exact E|]. eapply Forall_impl; [|exact F]. cbn. intros; lra.
  - constructor; [exact IH|]. eapply Permutation_Forall; [symmetry; apply insert_perm|]. constructor; [lra|exact F].
Qed.
Lemma sort_sorted l : StronglySorted Rle (rsort l).
Proof. induction l; cbn; [constructor|now apply insert_sorted]. Qed.
Lemma strict l : StronglySorted Rle l -> NoDup l -> StronglySorted Rlt l.
Proof.
  intros H N. induction H as [|x l H IH F]; [constructor|]. inversion N as [|? ? N1 N2]; subst. constructor; [now apply IH|].
  rewrite Forall_forall in *. intros y Hy. specialize (F y Hy). destruct F as [F | ->]; [exact F|contradiction].
Qed.
Lemma keys_nodup (b : table) : dwf Reqb b -> NoDup (dkeys b).
Proof.
  induction b as [|[k v] b IH]; cbn; [constructor|]. intros [G W]. constructor; [|now apply IH]. intros H. apply in_map_iff in H. destruct H as ([k' v'] & E & H). cbn in E. subst k'.
  apply (rIn_dget b k v' W) in H. congruence.
Qed.

(** *** minimum and maximum *)
Lemma fold_min l : forall k, In (fold_left Rmin l k) (k :: l) /\ forall x, In x (k :: l) -> fold_left Rmin l k <= x.
Proof.
  induction l as [|y l IH]; intros k; [cbn; split; [auto|intros x [<- | []]; lra]|]. change (fold_left Rmin (y :: l) k) with (fold_left Rmin l (Rmin k y)). destruct (IH (Rmin k y)) as [I L]. split.
  - destruct I as [I | I]; [|right; now right]. rewrite <- I. unfold Rmin at 1. destruct (Rle_dec k y); [now left|right; now left].
  - intros x [<- | [<- | Hx]]; [| |apply L; now right]; (eapply Rle_trans; [apply L; now left|]); [apply Rmin_l|apply Rmin_r].
Qed.
Lemma fold_max l : forall k, In (fold_left Rmax l k) (k :: l) /\ forall x, In x (k :: l) -> x <= fold_left Rmax l k.
Proof.
  induction l as [|y l IH]; intros k; [cbn; split; [auto|intros x [<- | []]; lra]|]. change (fold_left Rmax (y :: l) k) with (fold_left Rmax l (Rmax k y)). destruct (IH (Rmax k y)) as [I L]. split.
  - destruct I as [I | I]; [|right; now right]. rewrite <- I. unfold Rmax at 1. destruct (Rle_dec k y); [right; now left|now left].
  - intros x [<- | [<- | Hx]]; [| |apply L; now right]; (eapply Rle_trans; [|apply L; now left]); [apply Rmax_l|apply Rmax_r].
Qed.

Section Climb.
  Variable rnd : R -> R.
  Variable b : table.
  Definition rate (k : R) : R := match dget Reqb b k with Some r => r | None => 0 end.
  Definition step (k a x : R) : R := rnd (a + rnd (rnd (x - k) * rate k)).
  (** the tax on [x], climbing through the brackets, [a] the tax up to [k] *)
  Fixpoint climb (k : R) (ks : list R) (a x : R) : R :=
    match ks with [] => step k a x | k' :: r => if Rltb k' x then climb k' r (step k a k') x else step k a x end.
  Fixpoint top (k : R) (ks : list R) (x : R) : R := match ks with [] => k | k' :: r => if Rltb k' x then top k' r x else k end.

  Lemma top_spec : forall ks k x, StronglySorted Rlt (k :: ks) -> k < x -> In (top k ks x) (k :: ks) /\ top k ks x < x /\ forall y, In y (k :: ks) -> y < x -> y <= top k ks x.
  Proof.
    induction ks as [|k' ks IH]; intros k x H L; cbn [top].
    - split; [now left|]. split; [exact L|]. intros y [<- | []]; lra.
    - inversion H as [|? ? H1 H2]; subst. destruct (Rltb k' x) eqn:E; rb.
      + destruct (IH k' x H1 E) as (I1 & I2 & I3). split; [now right|]. split; [exact I2|]. intros y [<- | Hy] Ly; [|now apply I3]. inversion H2; subst. specialize (I3 k' (or_introl eq_refl) E). lra.
      + split; [now left|]. split; [exact L|]. intros y [<- | Hy] Ly; [lra|]. exfalso. inversion H1 as [|? ? H3 H4]; subst. destruct Hy as [<- | Hy]; [lra|]. rewrite Forall_forall in H4. specialize (H4 y Hy). lra.
  Qed.
  Lemma accum_climb : (forall k, In k (dkeys b) -> dget Reqb b k = Some (rate k)) ->
    forall ks k acc a, StronglySorted Rlt (k :: ks) -> Forall (fun y => In y (dkeys b)) (k :: ks) -> dget Reqb acc k = Some a ->
    exists acc', accum_loop rnd b k ks acc = Ok acc' /\ (forall y, ~ In y ks -> dget Reqb acc' y = dget Reqb acc y) /\
      forall x, exists a', dget Reqb acc' (top k ks x) = Some a' /\ In (top k ks x) (dkeys b) /\ step (top k ks x) a' x = climb k ks a x.
  Proof.
    intros Rt. induction ks as [|k' ks IH]; intros k acc a H F G; cbn [accum_loop top climb].
    - exists acc. split; [reflexivity|]. split; [reflexivity|]. intros x. exists a. inversion F; subst. auto.
    - inversion H as [|? ? H1 H2]; inversion F as [|? ? F1 F2]; subst. unfold dget_r at 1. rewrite (Rt k F1). cbn [bind]. unfold dget_r. rewrite G. cbn [bind].
      replace (rnd (rnd (rnd (k' - k) * rate k) + a)) with (step k a k') by (unfold step; now rewrite Rplus_comm).
      destruct (IH k' (dset Reqb acc k' (step k a k')) (step k a k') H1 F2) as (acc' & E & Same & T); [rewrite rdget_dset, Reqb_refl; reflexivity|].
      exists acc'. split; [exact E|]. split.
      + intros y Hy. rewrite Same by (intros N; apply Hy; now right). rewrite rdget_dset. destruct (Reqb y k') eqn:Q; [apply Reqb_t in Q; subst; exfalso; apply Hy; now left|reflexivity].
      + intros x. destruct (Rltb k' x) eqn:L; [apply T|]. exists a. split; [|auto]. rewrite Same.
        * rewrite rdget_dset. destruct (Reqb k k') eqn:Q; [|exact G]. apply Reqb_t in Q. inversion H2; subst. lra.
        * intros N. inversion H2 as [|? ? H3 H4]; subst. rewrite Forall_forall in H4. specialize (H4 k N). lra.
  Qed.
  Lemma tax_climb : b <> [] -> dwf Reqb b -> exists k ks, Permutation (k :: ks) (dkeys b) /\ StronglySorted Rlt (k :: ks) /\
    forall cr income d c, tax_money rnd b cr income d c = Ok (Rmax (rnd (climb k ks 0 (rnd (income - d)) - rnd (c * cr))) 0).
  Proof.
    intros NE W. pose proof (sort_perm (dkeys b)) as P. pose proof (strict _ (sort_sorted (dkeys b)) (Permutation_NoDup (Permutation_sym P) (keys_nodup b W))) as S.
    destruct (rsort (dkeys b)) as [|k ks] eqn:E; [apply Permutation_nil in P; destruct b; [contradiction|discriminate]|]. exists k, ks. split; [exact P|]. split; [exact S|].
    assert (M : rmin_key b = Ok k).
    { unfold rmin_key. destruct (dkeys b) as [|q l] eqn:D; [symmetry in P; apply Permutation_nil in P; discriminate|]. f_equal. destruct (fold_min l q) as [I L]. apply Rle_antisym.
      - apply L. apply (Permutation_in _ P). now left.
      - apply (Permutation_in _ (Permutation_sym P)) in I. destruct I as [<- | I]; [lra|]. inversion S as [|? ? S1 S2]; subst. rewrite Forall_forall in S2. specialize (S2 _ I). lra. }
    assert (Rt : forall y, In y (dkeys b) -> dget Reqb b y = Some (rate y)).
    { intros y Hy. apply in_map_iff in Hy. destruct Hy as ([y' r] & <- & Hy). cbn [fst]. unfold rate. now rewrite (rIn_dget b y' r W Hy). }
    assert (Rm : rremove k (k :: ks) = ks) by (cbn; now rewrite Reqb_refl).
    destruct (accum_climb Rt ks k [(k, 0)] 0 S) as (acc & Ea & _ & T).
    { apply Forall_forall. intros y Hy. apply (Permutation_in _ P Hy). }
    { cbn. now rewrite Reqb_refl. }
    intros cr income d c. unfold tax_money. set (x := rnd (income - d)).
    assert (B : marginal_bracket b x = Ok (top k ks x)).
    { unfold marginal_bracket. rewrite M. cbn [bind]. f_equal. destruct (Rlt_dec k x) as [L | L].
      - destruct (top_spec ks k x S L) as (T1 & T2 & T3). unfold rmax_or. destruct (filter (fun k0 => Rltb k0 x) (dkeys b)) as [|q l] eqn:Q.
        + exfalso. assert (In k []) as []. rewrite <- Q. apply filter_In. split; [apply (Permutation_in _ P); now left|now apply Rltb_t].
        + destruct (fold_max l q) as [I Mx]. rewrite <- Q in I, Mx. apply filter_In in I. destruct I as [I1 I2]. rb. apply Rle_antisym.
          * apply T3; [|exact I2]. apply (Permutation_in _ (Permutation_sym P) I1).
          * apply Mx. apply filter_In. split; [apply (Permutation_in _ P T1)|now apply Rltb_t].
      - replace (filter (fun k0 => Rltb k0 x) (dkeys b)) with (@nil R).
        + cbn [rmax_or]. destruct ks as [|k' ks]; [reflexivity|]. cbn [top]. destruct (Rltb k' x) eqn:Q; [|reflexivity]. rb. inversion S as [|? ? S1 S2]; inversion S2; subst. lra.
        + symmetry. destruct (filter (fun k0 => Rltb k0 x) (dkeys b)) as [|q l] eqn:Q; [reflexivity|]. exfalso.
          assert (I : In q (filter (fun k0 => Rltb k0 x) (dkeys b))) by (rewrite Q; now left). apply filter_In in I. destruct I as [I1 I2]. rb. apply (Permutation_in _ (Permutation_sym P)) in I1.
          destruct I1 as [<- | I1]; [lra|]. inversion S as [|? ? S1 S2]; subst. rewrite Forall_forall in S2. specialize (S2 _ I1). lra. }
    rewrite B. cbn [bind]. destruct (T x) as (a' & G & I & Cl). unfold dget_r at 1. rewrite (Rt _ I). cbn [bind]. unfold add_accum. rewrite M. cbn [bind]. rewrite E, Rm, Ea. cbn [bind]. unfold dget_r. rewrite G. cbn [bind]. unfold step in Cl. rewrite Cl. reflexivity.
  Qed.

  Section Mono.
    Hypothesis Rd : rounding rnd.
    Hypothesis Rs : forall k, 0 <= rate k.
    Lemma step_mono k a x y : x <= y -> step k a x <= step k a y.
    Proof. intros L. destruct Rd as (M & _ & _). unfold step. apply M, Rplus_le_compat_l, M, Rmult_le_compat_r; [apply Rs|]. apply M. lra. Qed.
    Lemma step_ge k a x : k <= x -> rnd a = a -> a <= step k a x.
    Proof.
      intros L Ra. destruct Rd as (M & Z & _). unfold step. rewrite <- Ra at 1. apply M. assert (0 <= rnd (rnd (x - k) * rate k)); [|lra]. rewrite <- Z. apply M. apply Rmult_le_pos; [|apply Rs]. rewrite <- Z. apply M. lra.
    Qed.
    Lemma climb_ge : forall ks k a x, StronglySorted Rlt (k :: ks) -> k <= x -> rnd a = a -> a <= climb k ks a x.
    Proof.
      induction ks as [|k' ks IH]; intros k a x S L Ra; cbn [climb]; [now apply step_ge|]. destruct (Rltb k' x) eqn:E; [|now apply step_ge]. rb. inversion S as [|? ? S1 S2]; inversion S2; subst.
      eapply Rle_trans; [apply (step_ge k a k'); [lra|exact Ra]|]. apply IH; [exact S1|lra|]. unfold step. apply Rd.
    Qed.
    Lemma climb_mono : forall ks k a x y, StronglySorted Rlt (k :: ks) -> rnd a = a -> x <= y -> climb k ks a x <= climb k ks a y.
    Proof.
      induction ks as [|k' ks IH]; intros k a x y S Ra L; cbn [climb]; [now apply step_mono|]. inversion S as [|? ? S1 S2]; subst.
      destruct (Rltb k' x) eqn:E1, (Rltb k' y) eqn:E2; rb; [|lra| |now apply step_mono].
      - apply IH; [exact S1|unfold step; apply Rd|exact L].
      - eapply Rle_trans; [apply (step_mono k a x k'); lra|]. apply climb_ge; [exact S1|lra|unfold step; apply Rd].
    Qed.
  End Mono.
End Climb.

Lemma rate_nonneg b : (forall k r, In (k, r) b -> 0 <= r) -> forall k, 0 <= rate b k.
Proof. intros H k. unfold rate. destruct (dget Reqb b k) eqn:G; [|lra]. apply rdget_In in G. exact (H _ _ G). Qed.

(** ** The theorems *)
(** Rounding or not: tax is never negative, more income never means less tax, more deductions or credits never more tax. *)
Theorem C113_monotone : forall rnd b cr, rounding rnd -> table_ok b -> 0 <= cr ->
  exists t, (forall income d c, tax_money rnd b cr income d c = Ok (t income d c)) /\
    (forall income d c, 0 <= t income d c) /\
    (forall income income' d d' c c', income <= income' -> d' <= d -> c' <= c -> t income d c <= t income' d' c').
Proof.
  intros rnd b cr Rd (NE & W & Rn) Cr. destruct (tax_climb rnd b NE W) as (k & ks & P & S & T). eexists. split; [intros; apply T|]. cbn beta. split; [intros; apply Rmax_r|].
  intros i i' d d' c c' Li Ld Lc. pose proof Rd as (M & Z & Idm). apply Rle_max_compat_r, M.
  pose proof (climb_mono rnd b Rd (rate_nonneg b Rn) ks k 0 (rnd (i - d)) (rnd (i' - d')) S Z ltac:(apply M; lra)) as H1.
  pose proof (M (c' * cr) (c * cr) ltac:(now apply Rmult_le_compat_r)). lra.
Qed.
Print Assumptions C113_monotone.

(** The same for whole households and several jurisdictions, however the amounts are added up. *)
Definition le_res (a b : res R) : Prop := exists x y, a = Ok x /\ b = Ok y /\ 0 <= x <= y.
Lemma add_up_mono rnd : rounding rnd -> forall l l' s s', Forall2 le_res l l' -> 0 <= s <= s' -> le_res (add_up rnd s l) (add_up rnd s' l').
Proof.
  intros (M & Z & _). induction l as [|t l IH]; intros l' s s' F H; inversion F as [|? t' ? l'' F1 F2]; subst; cbn [add_up]; [exists s, s'; auto|]. destruct F1 as (x & y & -> & -> & L). cbn [bind].
  apply IH; [exact F2|]. split; [rewrite <- Z; apply M; lra|apply M; lra].
Qed.
Lemma person_mono rnd b cr pd p q : rounding rnd -> table_ok b -> 0 <= cr -> earns_more p q -> le_res (tax_person rnd b cr pd p) (tax_person rnd b cr pd q).
Proof.
  intros Rd T Cr (H1 & H2 & H3 & H4 & H5). destruct (C113_monotone rnd b cr Rd T Cr) as (t & E & N & Mo). unfold tax_person. rewrite !E. do 2 eexists. split; [reflexivity|]. split; [reflexivity|]. split; [apply N|].
  pose proof Rd as (M & _ & _). apply Mo; [exact H1| |]; repeat (apply M; apply Rplus_le_compat); try apply M; lra.
Qed.
Lemma people_mono rnd b cr pd : rounding rnd -> table_ok b -> 0 <= cr -> forall l l', Forall2 (Forall2 earns_more) l l' -> le_res (tax_people rnd b cr pd l) (tax_people rnd b cr pd l').
Proof.
  intros Rd T Cr. induction l as [|g l IH]; intros l' F; inversion F as [|? g' ? l'' F1 F2]; subst; cbn [tax_people]; [exists 0, 0; split; [reflexivity|split; [reflexivity|lra]]|].
  assert (G : le_res (match g with [p] => tax_person rnd b cr pd p | _ => add_up rnd 0 (map (tax_person rnd b cr pd) g) end) (match g' with [p] => tax_person rnd b cr pd p | _ => add_up rnd 0 (map (tax_person rnd b cr pd) g') end)).
  { assert (A : le_res (add_up rnd 0 (map (tax_person rnd b cr pd) g)) (add_up rnd 0 (map (tax_person rnd b cr pd) g'))).
    { apply add_up_mono; [exact Rd| |lra]. clear - F1 Rd T Cr. induction F1; cbn; constructor; [now apply person_mono|assumption]. }
    destruct F1 as [|p q ? ? E1 E2]; [exact A|]. destruct E2; [now apply person_mono|exact A]. }
  destruct G as (x & y & -> & -> & L). cbn [bind]. destruct (IH _ F2) as (u & v & -> & -> & L'). cbn [bind]. pose proof Rd as (M & Z & _). do 2 eexists. split; [reflexivity|]. split; [reflexivity|]. split; [rewrite <- Z; apply M; lra|apply M; lra].
Qed.
(** jurisdiction [j'] has the same rules as [j], and the people in it earn no less *)
Definition more_in (j j' : table * R * R * list (list earner)) : Prop :=
  let '(b, cr, pd, people) := j in let '(b', cr', pd', people') := j' in
  b' = b /\ cr' = cr /\ pd' = pd /\ table_ok b /\ 0 <= cr /\ Forall2 (Forall2 earns_more) people people'.
Theorem C113_households : forall rnd js js', rounding rnd -> Forall2 more_in js js' ->
  exists t t', tax_multi rnd js = Ok t /\ tax_multi rnd js' = Ok t' /\ 0 <= t <= t'.
Proof.
  intros rnd js js' Rd F. unfold tax_multi. apply add_up_mono; [exact Rd| |lra]. induction F as [|[[[b cr] pd] g] [[[b' cr'] pd'] g'] js js' (-> & -> & -> & T & Cr & F) _ IH]; cbn; constructor; [now apply people_mono|exact IH].
Qed.
Print Assumptions C113_households.

(** The brackets of another year, adjusted for inflation with rounding, are a table again, and no new rate appears. *)
Theorem C113_inflated : forall rnd f b, table_ok b ->
  table_ok (scale_keys rnd f b []) /\ forall k r, In (k, r) (scale_keys rnd f b []) -> exists k0, In (k0, r) b /\ k = rnd (k0 * f).
Proof.
  intros rnd f b (NE & W & Rn).
  assert (G : forall l out, dwf Reqb out -> (l <> [] \/ out <> []) ->
    dwf Reqb (scale_keys rnd f l out) /\ scale_keys rnd f l out <> [] /\ forall k r, In (k, r) (scale_keys rnd f l out) -> In (k, r) out \/ exists k0, In (k0, r) l /\ k = rnd (k0 * f)).
  { induction l as [|[k r] l IH]; intros out Wo N; cbn [scale_keys]; [split; [exact Wo|]; split; [destruct N; [contradiction|assumption]|auto]|].
    destruct (IH (dset Reqb out (rnd (k * f)) r)) as (I1 & I2 & I3); [now apply rdset_wf|right; destruct out as [|[k' r'] out]; cbn; [discriminate|destruct (Reqb _ _); discriminate]|].
    split; [exact I1|]. split; [exact I2|]. intros k1 r1 H. destruct (I3 k1 r1 H) as [H1 | (k0 & H1 & H2)]; [|right; exists k0; cbn; auto].
    assert (D : In (k1, r1) out \/ (k1, r1) = (rnd (k * f), r)).
    { clear - H1. induction out as [|[k' r'] out IH]; cbn in H1; [destruct H1 as [H1 | []]; auto|]. destruct (Reqb (rnd (k * f)) k') eqn:Q; destruct H1 as [H1 | H1].
      - right. apply Reqb_t in Q. congruence.
      - left. now right.
      - left. now left.
      - destruct (IH H1); [left; now right|now right]. }
    destruct D as [D | D]; [now left|]. injection D as -> ->. right. exists k. cbn. auto. }
  destruct (G b [] I (or_introl NE)) as (G1 & G2 & G3). assert (G4 : forall k r, In (k, r) (scale_keys rnd f b []) -> exists k0, In (k0, r) b /\ k = rnd (k0 * f)) by (intros k r H; destruct (G3 k r H) as [[] | H']; exact H').
  split; [|exact G4]. split; [exact G2|]. split; [exact G1|]. intros k r H. destruct (G4 k r H) as (k0 & H0 & _). exact (Rn _ _ H0).
Qed.
Print Assumptions C113_inflated.

(** *** accuracy *)
Definition near (u : R) (p : nat) (e g : R) : Prop := 0 <= e /\ e * (1 - u) ^ p <= g <= e * (1 + u) ^ p.
Lemma near_round u rnd e g p : accurate u rnd -> near u p e g -> near u (S p) e (rnd g).
Proof.
  intros [U A] (E & L & H). split; [exact E|]. assert (0 <= (1 - u) ^ p) by (apply pow_le; lra). assert (0 <= g) by (eapply Rle_trans; [|exact L]; now apply Rmult_le_pos). specialize (A g). rewrite (Rabs_pos_eq g) in A by assumption.
  assert (B : g * (1 - u) <= rnd g <= g * (1 + u)). { unfold Rabs in A. destruct (Rcase_abs _) in A; lra. }
  cbn [pow]. split.
  - apply Rle_trans with (g * (1 - u)); [|lra]. replace (e * ((1 - u) * (1 - u) ^ p)) with (e * (1 - u) ^ p * (1 - u)) by ring. apply Rmult_le_compat_r; lra.
  - apply Rle_trans with (g * (1 + u)); [lra|]. replace (e * ((1 + u) * (1 + u) ^ p)) with (e * (1 + u) ^ p * (1 + u)) by ring. apply Rmult_le_compat_r; lra.
Qed.
Lemma near_more u p q e g : 0 <= u < 1 -> (p <= q)%nat -> near u p e g -> near u q e g.
Proof.
  intros U L (E & A & B). split; [exact E|]. split.
  - eapply Rle_trans; [|exact A]. apply Rmult_le_compat_l; [exact E|]. replace q with (p + (q - p))%nat by lia. rewrite pow_add. rewrite <- (Rmult_1_r ((1 - u) ^ p)) at 2. apply Rmult_le_compat_l; [apply pow_le; lra|].
    assert (H : (1 - u) ^ (q - p) <= 1 ^ (q - p)) by (apply pow_incr; lra). rewrite pow1 in H. exact H.
  - eapply Rle_trans; [exact B|]. apply Rmult_le_compat_l; [exact E|]. apply Rle_pow; [lra|exact L].
Qed.
Lemma near_plus u p e g e' g' : near u p e g -> near u p e' g' -> near u p (e + e') (g + g').
Proof. intros (E & A & B) (E' & A' & B'). split; [lra|]. rewrite !Rmult_plus_distr_r. lra. Qed.
Lemma near_times u p e g r : 0 <= r -> near u p e g -> near u p (e * r) (g * r).
Proof.
  intros Hr (E & A & B). split; [now apply Rmult_le_pos|]. replace (e * r * (1 - u) ^ p) with (e * (1 - u) ^ p * r) by ring. replace (e * r * (1 + u) ^ p) with (e * (1 + u) ^ p * r) by ring. split; now apply Rmult_le_compat_r.
Qed.
Lemma near_refl u e : 0 <= e -> near u 0 e e.
Proof. intros E. split; [exact E|]. cbn. lra. Qed.
Lemma climb_near u rnd b : accurate u rnd -> (forall k, 0 <= rate b k) -> forall ks k e a p x, StronglySorted Rlt (k :: ks) -> k <= x -> (2 <= p)%nat -> near u p e a ->
  near u (p + 1 + List.length ks) (climb (fun x => x) b k ks e x) (climb rnd b k ks a x).
Proof.
  intros A Rs. assert (U : 0 <= u < 1) by apply A.
  assert (St : forall k e a p x, k <= x -> (2 <= p)%nat -> near u p e a -> near u (p + 1) (step (fun x => x) b k e x) (step rnd b k a x)).
  { intros k e a p x L P N. rewrite Nat.add_comm. cbn [plus]. unfold step. apply near_round; [exact A|]. apply near_plus; [exact N|]. apply (near_more u 2); [exact U|exact P|]. apply near_round; [exact A|]. apply near_times; [apply Rs|]. apply near_round; [exact A|]. apply near_refl. lra. }
  induction ks as [|k' ks IH]; intros k e a p x S L P N; cbn [climb List.length]; [rewrite Nat.add_0_r; now apply St|]. inversion S as [|? ? S1 S2]; inversion S2; subst. destruct (Rltb k' x) eqn:Q; rb.
  - apply (near_more u (p + 1 + 1 + List.length ks)); [exact U|lia|]. apply IH; [exact S1|lra|lia|]. apply St; [lra|exact P|exact N].
  - apply (near_more u (p + 1)); [exact U|lia|]. now apply St.
Qed.
(** the exact climb is the sum over the brackets *)
Lemma min_sorted x : forall ks k, StronglySorted Rlt (k :: ks) -> fold_right Rmin x (k :: ks) = Rmin k x.
Proof.
  induction ks as [|k' ks IH]; intros k S; [reflexivity|]. inversion S as [|? ? S1 S2]; inversion S2; subst. cbn [fold_right] in *. rewrite (IH k' S1). unfold Rmin. repeat destruct (Rle_dec _ _); lra.
Qed.
Lemma filter_above k : forall l, Forall (Rlt k) l -> filter (fun y => Rltb k y) l = l.
Proof. intros l F. induction F as [|y l L F IH]; cbn; [reflexivity|]. apply Rltb_t in L. rewrite L. now f_equal. Qed.
Definition owed (b : table) (keys : list R) (x : R) : R := Rsum (map (fun k => rate b k * part keys k x) keys).
Lemma part_beyond keys k x : x <= k -> part keys k x = 0.
Proof.
  intros L. unfold part. rewrite Rmax_left; [reflexivity|]. assert (fold_right Rmin x (filter (fun y => Rltb k y) keys) <= x); [|lra]. induction (filter (fun y => Rltb k y) keys) as [|y l IH]; cbn; [lra|]. eapply Rle_trans; [apply Rmin_r|exact IH].
Qed.
Lemma climb_owed b : forall ks k a x, StronglySorted Rlt (k :: ks) -> k <= x -> climb (fun x => x) b k ks a x = a + owed b (k :: ks) x.
Proof.
  induction ks as [|k' ks IH]; intros k a x S L; cbn [climb]; unfold owed; cbn [map Rsum].
  - unfold step, part. cbn [filter]. destruct (Rltb k k) eqn:Q; [rb; lra|]. cbn [fold_right]. rewrite Rmax_right by lra. lra.
  - inversion S as [|? ? S1 S2]; subst. assert (H : k < k') by (inversion S2; assumption).
    assert (P0 : part (k :: k' :: ks) k x = Rmin k' x - k).
    { unfold part. change (filter (fun y => Rltb k y) (k :: k' :: ks)) with (if Rltb k k then k :: filter (fun y => Rltb k y) (k' :: ks) else filter (fun y => Rltb k y) (k' :: ks)). destruct (Rltb k k) eqn:Q; [rb; lra|].
      rewrite filter_above by exact S2. rewrite (min_sorted x ks k' S1). apply Rmax_right. unfold Rmin. destruct (Rle_dec k' x); lra. }
    rewrite P0.
    assert (Same : forall j, In j (k' :: ks) -> part (k :: k' :: ks) j x = part (k' :: ks) j x).
    { intros j Hj. unfold part. cbn [filter]. destruct (Rltb j k) eqn:Q; [|reflexivity]. rb. rewrite Forall_forall in S2. specialize (S2 j Hj). lra. }
    destruct (Rltb k' x) eqn:Q; rb.
    + rewrite IH by (auto; lra). unfold step, owed. rewrite Rmin_left by lra.
      rewrite (Rsum_map_ext (fun k0 => rate b k0 * part (k :: k' :: ks) k0 x) (fun k0 => rate b k0 * part (k' :: ks) k0 x) ks) by (intros j Hj; rewrite Same by (now right); reflexivity).
      rewrite (Same k' (or_introl eq_refl)). cbn [map Rsum]. lra.
    + unfold step. rewrite Rmin_right by lra. rewrite (part_beyond _ k' x Q). rewrite (Rsum_map_ext (fun k0 => rate b k0 * part (k :: k' :: ks) k0 x) (fun _ => 0) ks).
      * rewrite Rsum_const. lra.
      * intros j Hj. rewrite part_beyond; [ring|]. inversion S1 as [|? ? S3 S4]; subst. rewrite Forall_forall in S4. specialize (S4 j Hj). lra.
Qed.
Lemma part_perm l l' k x : Permutation l l' -> part l k x = part l' k x.
Proof.
  intros P. unfold part. do 2 f_equal. induction P; cbn; auto.
  - destruct (Rltb k x0); cbn; congruence.
  - destruct (Rltb k x0), (Rltb k y); cbn; try reflexivity. unfold Rmin. repeat destruct (Rle_dec _ _); lra.
  - congruence.
Qed.
Lemma Rsum_perm l l' : Permutation l l' -> Rsum l = Rsum l'.
Proof. induction 1; cbn; lra. Qed.
Lemma owed_progressive b k ks x : dwf Reqb b -> Permutation (k :: ks) (dkeys b) -> owed b (k :: ks) x = progressive b x.
Proof.
  intros W P. unfold owed, progressive. rewrite (Rsum_perm _ _ (Permutation_map _ P)). rewrite (Rsum_map_ext _ (fun y => rate b y * part (dkeys b) y x)) by (intros y _; now rewrite (part_perm _ _ y x P)).
  unfold dkeys at 2. rewrite map_map. apply Rsum_map_ext. intros [y r] H. cbn [fst snd]. unfold rate. now rewrite (rIn_dget b y r W H).
Qed.

Lemma climb_fix rnd b : (forall x, rnd (rnd x) = rnd x) -> forall ks k a x, rnd (climb rnd b k ks a x) = climb rnd b k ks a x.
Proof. intros Idm. induction ks as [|k' ks IH]; intros k a x; cbn [climb]; [apply Idm|]. destruct (Rltb k' x); [apply IH|apply Idm]. Qed.

(** With [m] brackets the tax computed is within a factor (1 +- u)^(m+2) of the exact one, whatever the income. *)
Theorem C113_accuracy : forall u rnd b cr x, rounding rnd -> accurate u rnd -> table_ok b -> rnd x = x ->
  exists t, tax_money rnd b cr x 0 0 = Ok t /\
    progressive b x * (1 - u) ^ (List.length b + 2) <= t <= progressive b x * (1 + u) ^ (List.length b + 2).
Proof.
  intros u rnd b cr x Rd A (NE & W & Rn) Fx. pose proof Rd as (M & Z & Idm). destruct (tax_climb rnd b NE W) as (k & ks & P & S & T). eexists. split; [apply T|].
  rewrite Rminus_0_r, Fx, Rmult_0_l, Z, Rminus_0_r.
  rewrite (climb_fix rnd b Idm). destruct (Rle_dec k x) as [L | L].
  - pose proof (climb_near u rnd b A (rate_nonneg b Rn) ks k 0 0 2 x S L (le_n 2)) as N. rewrite climb_owed, (owed_progressive b k ks x W P), Rplus_0_l in N by assumption.
    assert (Len : (2 + 1 + List.length ks = List.length b + 2)%nat). { pose proof (Permutation_length P) as Q. unfold dkeys in Q. rewrite map_length in Q. cbn in Q. lia. }
    rewrite Len in N. destruct N as (N0 & N1 & N2). { split; [lra|]. rewrite !Rmult_0_l. lra. }
    assert (0 <= (1 - u) ^ (List.length b + 2)) by (apply pow_le; destruct A; lra). assert (0 <= climb rnd b k ks 0 x) by (eapply Rle_trans; [|exact N1]; now apply Rmult_le_pos). rewrite Rmax_left by lra. lra.
  - assert (Pr : progressive b x = 0). { rewrite <- (owed_progressive b k ks x W P). unfold owed. rewrite (Rsum_map_ext _ (fun _ => 0)); [rewrite Rsum_const; ring|]. intros j Hj. rewrite part_beyond; [ring|]. destruct Hj as [<- | Hj]; [lra|]. inversion S as [|? ? S1 S2]; subst. rewrite Forall_forall in S2. specialize (S2 j Hj). lra. }
    rewrite Pr, !Rmult_0_l. assert (C : climb rnd b k ks 0 x <= 0).
    { assert (E : climb rnd b k ks 0 x = step rnd b k 0 x). { destruct ks as [|k' ks]; [reflexivity|]. cbn [climb]. destruct (Rltb k' x) eqn:Q; [|reflexivity]. rb. inversion S as [|? ? S1 S2]; inversion S2; subst. lra. }
      rewrite E. unfold step. rewrite Rplus_0_l, Idm. rewrite <- Z. apply M. rewrite <- (Rmult_0_l (rate b k)). apply Rmult_le_compat_r; [now apply rate_nonneg|]. rewrite <- Z. apply M. lra. }
    rewrite Rmax_right by exact C. lra.
Qed.
Print Assumptions C113_accuracy.

(** The total for households in several jurisdictions is the sum of what each person owes in each, up to one rounding per addition. *)
Definition assessed (rnd : R -> R) (j : table * R * R * list (list earner)) (taxes : list R) : Prop :=
  let '(b, cr, pd, groups) := j in Forall2 (fun p t => tax_person rnd b cr pd p = Ok t) (List.concat groups) taxes.
Definition additions (j : table * R * R * list (list earner)) : nat := let '(_, groups) := j in (List.length groups + List.length (List.concat groups))%nat.
Lemma add_up_near u rnd : accurate u rnd -> forall l xs ps s e p, Forall2 (fun t x => exists y, t = Ok y /\ near u (fst x) (snd x) y) l (combine ps xs) -> List.length ps = List.length xs -> near u p e s ->
  exists t, add_up rnd s l = Ok t /\ near u (p + list_sum ps + List.length l) (e + Rsum xs) t.
Proof.
  intros A. assert (U : 0 <= u < 1) by apply A. induction l as [|t l IH]; intros xs ps s e p F Len N; destruct ps as [|q' ps], xs as [|x' xs]; cbn [List.length] in Len; try discriminate; cbn [combine] in F.
  - exists s. split; [reflexivity|]. cbn. rewrite Rplus_0_r, !Nat.add_0_r. exact N.
  - inversion F.
  - inversion F.
  - inversion F as [|? ? ? ? F1 F2]; subst. destruct F1 as (y & -> & Ny). cbn [add_up list_sum fold_right Rsum List.length]. cbn [bind fst snd] in *.
    destruct (IH xs ps (rnd (s + y)) (e + x') (S (p + q')) F2 ltac:(lia)) as (t & E & Nt).
    { apply near_round; [exact A|]. apply near_plus; [apply (near_more u p)|apply (near_more u q')]; auto; lia. }
    exists t. split; [exact E|]. rewrite <- Rplus_assoc. change (fold_right Init.Nat.add 0%nat ps) with (list_sum ps). replace (p + (q' + list_sum ps) + S (List.length l))%nat with (S (p + q') + list_sum ps + List.length l)%nat by lia. exact Nt.
Qed.
Lemma person_pos rnd b cr pd p t : tax_person rnd b cr pd p = Ok t -> 0 <= t.
Proof. unfold tax_person, tax_money. intros H. repeat match type of H with (let* _ := ?m in _) = _ => destruct m; [cbn [bind] in H|discriminate] end. injection H as <-. apply Rmax_r. Qed.
Lemma group_near u rnd b cr pd : accurate u rnd -> forall g ts, Forall2 (fun p t => tax_person rnd b cr pd p = Ok t) g ts ->
  exists t, add_up rnd 0 (map (tax_person rnd b cr pd) g) = Ok t /\ near u (List.length g) (Rsum ts) t.
Proof.
  intros A g ts F. destruct (add_up_near u rnd A (map (tax_person rnd b cr pd) g) ts (map (fun _ => 0%nat) ts) 0 0 0) as (t & E & N).
  - induction F as [|p t g ts E F IH]; cbn; constructor; [|exact IH]. exists t. split; [exact E|]. apply near_refl. exact (person_pos _ _ _ _ _ _ E).
  - apply map_length.
  - apply near_refl. lra.
  - exists t. split; [exact E|]. replace (0 + list_sum (map (fun _ => 0%nat) ts) + List.length (map (tax_person rnd b cr pd) g))%nat with (List.length g) in N; [rewrite Rplus_0_l in N; exact N|].
    rewrite map_length. assert (list_sum (map (fun _ => 0%nat) ts) = 0%nat) as -> by (clear; induction ts; cbn; auto). reflexivity.
Qed.
Lemma people_near u rnd b cr pd : accurate u rnd -> forall groups ts, Forall2 (fun p t => tax_person rnd b cr pd p = Ok t) (List.concat groups) ts ->
  exists t, tax_people rnd b cr pd groups = Ok t /\ near u (List.length groups + List.length (List.concat groups)) (Rsum ts) t.
Proof.
  intros A. assert (U : 0 <= u < 1) by apply A. induction groups as [|g groups IH]; intros ts F; cbn [List.concat] in F.
  - inversion F; subst. exists 0. split; [reflexivity|]. apply near_refl. cbn. lra.
  - apply Forall2_app_inv_l in F. destruct F as (t1 & t2 & F1 & F2 & ->). destruct (IH t2 F2) as (v & Ev & Nv).
    assert (G : exists t, match g with [p] => tax_person rnd b cr pd p | _ => add_up rnd 0 (map (tax_person rnd b cr pd) g) end = Ok t /\ near u (List.length g) (Rsum t1) t).
    { destruct g as [|p [|p' g]]; [now apply group_near| |now apply group_near]. inversion F1 as [|? t ? l E1 E2]; subst. inversion E2; subst. exists t. split; [exact E1|]. cbn [Rsum List.length]. rewrite Rplus_0_r. apply (near_more u 0); [exact U|lia|]. apply near_refl. exact (person_pos _ _ _ _ _ _ E1). }
    destruct G as (t & Et & Nt). cbn [tax_people]. rewrite Et. cbn [bind]. rewrite Ev. cbn [bind]. eexists. split; [reflexivity|]. rewrite Rsum_app. cbn [List.concat List.length]. rewrite app_length.
    replace (S (List.length groups) + (List.length g + List.length (List.concat groups)))%nat with (S (List.length groups + List.length g + List.length (List.concat groups))) by lia.
    apply near_round; [exact A|]. apply near_plus; [apply (near_more u (List.length g))|apply (near_more u (List.length groups + List.length (List.concat groups)))]; auto; lia.
Qed.
Theorem C113_totals : forall u rnd js taxes, accurate u rnd -> Forall2 (assessed rnd) js taxes ->
  let n := (list_sum (map additions js) + List.length js)%nat in
  exists t, tax_multi rnd js = Ok t /\ Rsum (map Rsum taxes) * (1 - u) ^ n <= t <= Rsum (map Rsum taxes) * (1 + u) ^ n.
Proof.
  intros u rnd js taxes A F n. unfold tax_multi.
  destruct (add_up_near u rnd A (map (fun j => let '(b, cr, pd, groups) := j in tax_people rnd b cr pd groups) js) (map Rsum taxes) (map additions js) 0 0 0) as (t & E & N).
  - clear n. induction F as [|[[[b cr] pd] g] ts js taxes Fj F IH]; cbn; constructor; [|exact IH]. cbn in Fj. destruct (people_near u rnd b cr pd A g ts Fj) as (t & Et & Nt). exists t. auto.
  - rewrite !map_length. clear - F. induction F; cbn; [reflexivity|now f_equal].
  - apply near_refl. lra.
  - exists t. split; [exact E|]. rewrite Rplus_0_l, map_length in N. exact (proj2 N).
Qed.
Print Assumptions C113_totals.

(** Floats and Decimals round like this. *)
Import Core Relative.
Definition float64 : R -> R := round radix2 (FLT_exp (-1074) 53) ZnearestE.
Definition decimal28 : R -> R := round (Build_radix 10 eq_refl) (FLX_exp 28) ZnearestE.
Theorem C113_number_types : rounding float64 /\ rounding decimal28 /\ accurate (/ 2 * bpow (Build_radix 10 eq_refl) (-28 + 1)) decimal28.
Proof.
  assert (G : forall beta fexp, Valid_exp fexp -> rounding (round beta fexp ZnearestE)).
  { intros beta fexp V. split; [|split]; intros.
    - apply round_le; [exact V|apply valid_rnd_N|assumption].
    - apply round_0. apply valid_rnd_N.
    - apply round_generic; [apply valid_rnd_N|]. apply generic_format_round; [exact V|apply valid_rnd_N]. }
  split; [apply G, FLT_exp_valid; reflexivity|]. split; [apply G, FLX_exp_valid; reflexivity|]. split.
  - split; [apply Rmult_le_pos; [lra|apply bpow_ge_0]|]. pose proof (bpow_le (Build_radix 10 eq_refl) (-28 + 1) 0 ltac:(discriminate)) as H. change (bpow (Build_radix 10 eq_refl) 0) with 1 in H. set (e := bpow _ _) in *. clearbody e. lra.
  - intros x. apply relative_error_N_FLX. reflexivity.
Qed.
Print Assumptions C113_number_types.

Definition two_brackets : table := [(50000, 1/4); (0, 1/10)].
Definition earns (x : R) : earner := {| e_income := x; e_deduction := 100; e_credit := 10; e_more_deduction := 0; e_more_credit := 0 |}.
Example C113_sat : table_ok two_brackets /\ progressive two_brackets 60000 = 7500 /\
  more_in (two_brackets, 1/5, 1000, [[earns 40000; earns 50000]; [earns 10000]]) (two_brackets, 1/5, 1000, [[earns 45000; earns 50000]; [earns 70000]]) /\
  table_ok (scale_keys float64 (102/100) two_brackets []) /\ decimal28 0 = 0.
Proof.
  assert (T : table_ok two_brackets).
  { split; [discriminate|]. split.
    - cbn. destruct (Reqb 50000 0) eqn:E; [apply Reqb_t in E; lra|]. auto.
    - intros k r [H | [H | []]]; injection H as <- <-; lra. }
  assert (M : forall x y, x <= y -> earns_more (earns x) (earns y)) by (intros x y L; unfold earns_more; cbn; lra).
  split; [exact T|]. split; [|split; [|split]].
  - unfold progressive, part, two_brackets, dkeys. cbn.
    destruct (Rltb 50000 50000) eqn:E1; [apply Rltb_t in E1; lra|]. destruct (Rltb 50000 0) eqn:E2; [apply Rltb_t in E2; lra|]. destruct (Rltb 0 50000) eqn:E3; [|apply Rltb_f in E3; lra]. destruct (Rltb 0 0) eqn:E4; [apply Rltb_t in E4; lra|].
    cbn. rewrite Rmin_left by lra. rewrite !Rmax_right by lra. lra.
  - split; [reflexivity|]. split; [reflexivity|]. split; [reflexivity|]. split; [exact T|]. split; [lra|]. constructor; [constructor; [apply M; lra|constructor; [apply M; lra|constructor]]|constructor; [constructor; [apply M; lra|constructor]|constructor]].
  - apply C113_inflated. exact T.
  - apply C113_number_types.
Qed.
