(** C110: when money is taken out of an Account, at which time it is taken; and C60 for accounts as sources. *)
From Verif Require Import Base BaseFacts RBase GrowthModel GrowthProofs AccountModel AccountSpec AccountProofs ShiftModel.
From Coq Require Import Sorting.Permutation Sorting.Sorted.
Open Scope R_scope.

(** ** Vocabulary *)
(** from [t] to the end of the year the account always holds at least [value] *)
Definition covers (a : account) (value t : R) : Prop := forall s, t <= s <= 1 -> value <= balance_at_time a s None.
(** a proper account: one value per time, times within the year *)
Definition proper (a : account) : Prop := dwf Reqb (a_txns a) /\ times_ok (a_txns a).

(** ** Lists *)
Lemma rinsert_perm : forall x l, Permutation (rinsert x l) (x :: l).
Proof. intros x l. induction l as [|y l IH]; cbn; [reflexivity|]. destruct (Rleb x y); [reflexivity|]. rewrite IH. apply perm_swap. Qed.
Lemma rsort_perm : forall l, Permutation (rsort l) l.
Proof. induction l as [|x l IH]; cbn; [reflexivity|]. rewrite rinsert_perm, IH. reflexivity. Qed.
Lemma rinsert_sorted : forall x l, StronglySorted Rle l -> StronglySorted Rle (rinsert x l).
Proof.
  intros x l H. induction H as [|y l Hs IH Hf]; cbn; [constructor; constructor|]. destruct (Rleb x y) eqn:E; rb.
  - constructor; [constructor; assumption|]. constructor; [exact E|]. rewrite Forall_forall in *. intros z Hz. specialize (Hf z Hz). lra.
  - constructor; [exact IH|]. rewrite Forall_forall in *. intros z Hz. apply (Permutation_in _ (rinsert_perm x l)) in Hz. destruct Hz as [<-|Hz]; [lra|exact (Hf z Hz)].
Qed.
Lemma rsort_sorted : forall l, StronglySorted Rle (rsort l).
Proof. induction l as [|x l IH]; cbn; [constructor|]. now apply rinsert_sorted. Qed.
(** successive elements *)
Definition next_to (times : list R) (e l : R) : Prop := exists p q, times = p ++ e :: l :: q.
Lemma sorted_gap : forall times e l k, StronglySorted Rle times -> next_to times e l -> In k times -> k <= e \/ l <= k.
Proof.
  intros times e l k Ss (p & q & ->) Hk. induction p as [|x p IH]; cbn [app] in *.
  - inversion Ss as [|? ? S1 F1]; subst. destruct Hk as [<-|Hk]; [left; lra|]. inversion S1 as [|? ? S2 F2]; subst. destruct Hk as [<-|Hk]; [right; lra|].
    right. rewrite Forall_forall in F2. exact (F2 k Hk).
  - inversion Ss as [|? ? S1 F1]; subst. destruct Hk as [<-|Hk]; [|exact (IH S1 Hk)]. left. rewrite Forall_forall in F1. apply F1. apply in_or_app. right. now left.
Qed.
Lemma in_dset_other : forall (d : dict R R) k x t v, In (k, x) d -> k <> t -> In (k, x) (dset Reqb d t v).
Proof.
  induction d as [|[k0 x0] d IH]; intros k x t v H N; cbn in *; [contradiction|]. destruct (Reqb t k0) eqn:E; rb.
  - destruct H as [H|H]; [injection H as -> ->; now destruct N|now right].
  - destruct H as [H|H]; [now left|right; now apply IH].
Qed.
(** what the loop adds *)
Lemma interpolate_entries : forall a target known times acc acc', interpolate a target known times acc = Ok acc' ->
  forall t x, In (t, x) acc' -> In (t, x) acc \/
    (exists e l, next_to times e l /\ e < t < l /\ time_to_balance_top a target (RNum e) = Ok (Fin t)).
Proof.
  intros a target known times. induction times as [|e [|l r] IH]; intros acc acc' H t x Hi; [injection H as <-; auto|injection H as <-; auto|].
  change (interpolate a target known (e :: l :: r) acc) with (let* acc1 := interpolate_one a target known acc e l in interpolate a target known (l :: r) acc1) in H.
  destruct (interpolate_one a target known acc e l) as [acc1|] eqn:E1; [|discriminate]. cbn [bind] in H.
  destruct (IH _ _ H t x Hi) as [I|(e0 & l0 & (p & q & Ep) & B)]; [|right; exists e0, l0; split; [exists (e :: p), q; cbn; now rewrite Ep|exact B]].
  unfold interpolate_one in E1. destruct ((_ && _) || (_ && _))%bool; [|injection E1 as <-; auto].
  destruct (time_to_balance_top a target (RNum e)) as [[t0| |]|] eqn:T; cbn [bind] in E1; try discriminate; try (injection E1 as <-; auto).
  destruct (Rltb e t0 && Rltb t0 l)%bool eqn:B; [|injection E1 as <-; auto].
  destruct (max_outflows _ _ _ _ _ _) as [fl|]; [|discriminate]. cbn [bind] in E1. injection E1 as <-.
  apply andb_prop in B. destruct B as [B1 B2]. rb.
  apply In_dset in I. destruct I as [[-> _]|I]; [|now left]. right. exists e, l. split; [exists [], r; reflexivity|]. auto.
Qed.
Lemma interpolate_keeps : forall a target known times acc acc', interpolate a target known times acc = Ok acc' -> forall done,
  StronglySorted Rle (done ++ times) -> forall t x, In t (done ++ times) -> In (t, x) acc -> In (t, x) acc'.
Proof.
  intros a target known times. induction times as [|e [|l r] IH]; intros acc acc' H done Ss t x Ht Hi; [injection H as <-; auto|injection H as <-; auto|].
  change (interpolate a target known (e :: l :: r) acc) with (let* acc1 := interpolate_one a target known acc e l in interpolate a target known (l :: r) acc1) in H.
  destruct (interpolate_one a target known acc e l) as [acc1|] eqn:E1; [|discriminate]. cbn [bind] in H.
  assert (Ea : done ++ e :: l :: r = (done ++ [e]) ++ l :: r) by (rewrite <- app_assoc; reflexivity).
  refine (IH _ _ H (done ++ [e]) _ t x _ _); [now rewrite <- Ea|now rewrite <- Ea|].
  unfold interpolate_one in E1. destruct ((_ && _) || (_ && _))%bool; [|injection E1 as <-; auto].
  destruct (time_to_balance_top a target (RNum e)) as [[t0| |]|] eqn:T; cbn [bind] in E1; try discriminate; try (injection E1 as <-; auto).
  destruct (Rltb e t0 && Rltb t0 l)%bool eqn:B; [|injection E1 as <-; auto].
  destruct (max_outflows _ _ _ _ _ _) as [fl|]; [|discriminate]. cbn [bind] in E1. injection E1 as <-.
  apply andb_prop in B. destruct B as [B1 B2]. rb. apply in_dset_other; [exact Hi|].
  intros ->. destruct (sorted_gap _ e l t0 Ss ltac:(exists done, r; reflexivity) Ht); lra.
Qed.
Lemma keys_with_in : forall d w k, In k (keys_with d w) <-> In k (dkeys d) \/ k = w.
Proof.
  intros d w k. unfold keys_with, dmem. destruct (dget Reqb d w) as [y|] eqn:E.
  - split; [auto|]. intros [H| ->]; [exact H|]. apply rdget_In in E. unfold dkeys. apply in_map_iff. now exists (w, y).
  - rewrite in_app_iff. cbn. intuition.
Qed.
Lemma at_hand_eq : forall a t, at_hand a t = Rmax (balance_at_time a t None) 0.
Proof.
  intros a t. unfold at_hand, max_outflow. cbn. unfold Rmin, Rmax. destruct (Rle_dec _ _), (Rle_dec _ _); lra.
Qed.
(** the last time with a transaction (or the requested time) at or before [s] *)
Lemma last_key : forall (l : list R) w s, In w l -> w <= s -> exists k, In k l /\ w <= k <= s /\ forall j, In j l -> k < j -> s < j.
Proof.
  intros l w s Hw Hs. assert (G : forall m, incl m l -> exists k, In k l /\ w <= k <= s /\ forall j, In j m -> k < j -> s < j).
  { induction m as [|x m IH]; intros Hi; [exists w; repeat split; try assumption; try lra; intros j []|].
    destruct (IH (fun z Hz => Hi z (or_intror Hz))) as (k & K1 & K2 & K3).
    destruct (Rle_lt_dec x s) as [L|L]; [destruct (Rle_lt_dec x k) as [L2|L2]|].
    - exists k. repeat split; try assumption; try lra. intros j [<-|Hj] Hlt; [lra|exact (K3 j Hj Hlt)].
    - exists x. repeat split; [apply Hi; now left|lra|lra|]. intros j [<-|Hj] Hlt; [lra|apply K3; [exact Hj|lra]].
    - exists k. repeat split; try assumption; try lra. intros j [<-|Hj] Hlt; [lra|exact (K3 j Hj Hlt)]. }
  exact (G l (incl_refl l)).
Qed.
Section Shift.
Variables (a : account) (w value : R).
Hypothesis Hw : 0 <= w <= 1.
Hypothesis Hp : proper a.
Let keys := keys_with (a_txns a) w.
Lemma keys_range : forall k, In k keys -> 0 <= k <= 1.
Proof.
  intros k Hk. apply keys_with_in in Hk. destruct Hk as [Hk| ->]; [|exact Hw]. unfold dkeys in Hk. apply in_map_iff in Hk. destruct Hk as ([k' v] & <- & Hi).
  exact (proj2 Hp _ _ Hi).
Qed.
Lemma balance_since : forall k s, In k keys -> k <= s -> (forall j, In j keys -> k < j -> s < j) ->
  balance_at_time a s None = balance_at_time a k None * growth a (s - k).
Proof. intros k s Hk Hs Hn. apply balance_grows; [exact Hs|]. intros j Hj. apply Hn. apply keys_with_in. now left. Qed.
Variable accum : dict R R.
Hypothesis Hacc : accum_account a w value = Ok accum.
Let known := map (fun t => (t, at_hand a t)) (filter (fun t => Rleb w t) keys).
Lemma known_in : forall t x, In (t, x) known <-> (In t keys /\ w <= t /\ x = at_hand a t).
Proof.
  intros t x. unfold known. rewrite in_map_iff. split.
  - intros (t' & E & Hi). injection E as -> <-. apply filter_In in Hi. destruct Hi as [Hi Hl]. rb. auto.
  - intros (H1 & H2 & ->). exists t. split; [reflexivity|]. apply filter_In. split; [exact H1|now apply Rleb_t].
Qed.
Lemma times_in : forall t, In t (rsort (dkeys known)) <-> In t keys /\ w <= t.
Proof.
  intros t. split.
  - intros H. apply (Permutation_in _ (rsort_perm _)) in H. unfold dkeys in H. apply in_map_iff in H. destruct H as ([t' x] & <- & H). apply known_in in H. tauto.
  - intros [H1 H2]. apply (Permutation_in _ (Permutation_sym (rsort_perm _))). unfold dkeys. apply in_map_iff. exists (t, at_hand a t). split; [reflexivity|]. apply known_in. auto.
Qed.
Lemma accum_known : forall k, In k keys -> w <= k -> In (k, at_hand a k) accum.
Proof.
  intros k H1 H2. unfold accum_account in Hacc. fold keys known in Hacc.
  apply (interpolate_keeps _ _ _ _ _ _ Hacc [] (rsort_sorted _)); [apply times_in; auto|apply known_in; auto].
Qed.
Lemma accum_entries : forall t x, In (t, x) accum -> (In t keys /\ w <= t) \/
  (exists e l, w <= e /\ e < t < l /\ In e keys /\ In l keys /\ (forall k, In k keys -> w <= k -> k <= e \/ l <= k) /\ time_to_balance_top a value (RNum e) = Ok (Fin t)).
Proof.
  intros t x H. unfold accum_account in Hacc. fold keys known in Hacc.
  destruct (interpolate_entries _ _ _ _ _ _ Hacc t x H) as [I|(e & l & Hn & B & T)]; [left; apply known_in in I; tauto|]. right. exists e, l.
  assert (Ie : In e (rsort (dkeys known)) /\ In l (rsort (dkeys known))).
  { destruct Hn as (p & q & ->). split; apply in_or_app; right; [now left|right; now left]. }
  destruct Ie as [Ie Il]. apply times_in in Ie. apply times_in in Il. repeat split; try tauto; try lra.
  intros k K1 K2. apply (sorted_gap _ e l k (rsort_sorted _) Hn). apply times_in. auto.
Qed.
Lemma accum_range : forall t x, In (t, x) accum -> w <= t <= 1.
Proof.
  intros t x H. destruct (accum_entries t x H) as [[I1 I2]|(e & l & W1 & B & Ie & Il & _)].
  - pose proof (keys_range t I1). lra.
  - pose proof (keys_range l Il). lra.
Qed.
Lemma earliest_cases : (earliest accum value w = w /\ forall t, In t (dkeys accum) -> eligible accum value t = false) \/
  (In (earliest accum value w) (dkeys accum) /\ eligible accum value (earliest accum value w) = true /\
   forall t, In t (dkeys accum) -> eligible accum value t = true -> earliest accum value w <= t).
Proof.
  unfold earliest. destruct (filter (eligible accum value) (dkeys accum)) as [|t r] eqn:E.
  - left. split; [reflexivity|]. intros t Ht. destruct (eligible accum value t) eqn:El; [|reflexivity]. exfalso.
    assert (I : In t []) by (rewrite <- E; apply filter_In; auto). destruct I.
  - right. destruct (fold_Rmin r t) as [H1 H2]. rewrite <- E in H1, H2. apply filter_In in H1. destruct H1 as [H1 H1'].
    repeat split; try assumption. intros s S1 S2. apply H2. apply filter_In. auto.
Qed.
Lemma eligible_iff : forall t, eligible accum value t = true <-> forall s x, In (s, x) accum -> t <= s -> value <= x.
Proof.
  intros t. unfold eligible. rewrite forallb_forall. split.
  - intros H s x Hi Hl. specialize (H _ Hi). cbn in H. destruct (Rleb t s) eqn:E; rb; [cbn in H; now apply Rleb_t|lra].
  - intros H [s x] Hi. cbn. destruct (Rleb t s) eqn:E; [|reflexivity]. rb. cbn. apply Rleb_t. now apply (H s x).
Qed.
Lemma key_w : In w keys.
Proof. apply keys_with_in. now right. Qed.
(** a time with a transaction from which the account always covers the value is eligible, if interpolation adds nothing *)
Lemma eligible_covered : 0 < value -> 0 <= rate a -> forall t, eligible accum value t = true -> In t keys -> w <= t -> covers a value t.
Proof.
  intros Hv Hr t He Hk Ht s Hs. rewrite eligible_iff in He.
  destruct (last_key keys t s Hk ltac:(lra)) as (k & K1 & K2 & K3).
  pose proof (He k _ (accum_known k K1 ltac:(lra)) ltac:(lra)) as V. rewrite at_hand_eq in V.
  assert (B : value <= balance_at_time a k None) by (unfold Rmax in V; destruct (Rle_dec _ _); lra).
  rewrite (balance_since k s K1 ltac:(lra) K3). pose proof (accum_ge1 (s - k) (rate a) (a_nper a) Hr ltac:(lra)) as G. fold (growth a (s - k)) in G. nra.
Qed.
End Shift.

(** ** Never earlier, never beyond the year *)
Theorem C110_not_before : forall a value w r, proper a -> shift_when a value w = Ok r -> w <= r <= 1.
Proof.
  intros a value w r Hp H. unfold shift_when, rwhen_conv in H. destruct (orb (Rltb 1 w) (Rltb w 0)) eqn:E; [discriminate|]. cbn [bind] in H.
  apply orb_false_iff in E. destruct E as [E1 E2]. rb. destruct (accum_account a w value) as [acc|] eqn:A; [|discriminate]. cbn [bind] in H. injection H as <-.
  assert (Hw : 0 <= w <= 1) by lra.
  destruct (earliest_cases w value acc) as [[-> _]|[Hi _]]; [lra|]. unfold dkeys in Hi. apply in_map_iff in Hi. destruct Hi as ([t x] & E & Hi). cbn in E. rewrite <- E.
  exact (accum_range a w value Hw Hp acc A t x Hi).
Qed.
Print Assumptions C110_not_before.

(** ** Accounts that do not grow *)
Lemma ttb_steady : forall n a v e t, rate a = 0 -> time_to_balance n a v e = Ok (Fin t) -> t = e \/ In t (dkeys (a_txns a)).
Proof.
  induction n as [|n IH]; intros a v e t Hr H; cbn [time_to_balance] in H; unfold time_to_value, accumulation_function_inverse in H; rewrite Hr in H;
    (destruct (Reqb (balance_at_time a e None) 0); [discriminate|]); (destruct (Rltb _ 0); [discriminate|]); rewrite Reqb_refl in H.
  - assert (D : forall d, (d = Fin 0 \/ d = MInf \/ d = PInf) -> (match next_after (a_txns a) e (eadd (Fin e) d) with
      | Fin t0 => if negb (eleb (eadd (Fin e) d) (Fin t0)) then Err StopIteration else Ok (eadd (Fin e) d) | _ => Ok (eadd (Fin e) d) end) = Ok (Fin t) -> t = e).
    { intros d [-> |[-> | ->]] X; cbn [eadd] in X.
      - destruct (next_after _ _ _) as [t0| |]; [destruct (negb _); [discriminate|]| |]; injection X as <-; lra.
      - destruct (next_after _ _ _) as [t0| |]; [destruct (negb _); [discriminate|]| |]; discriminate.
      - destruct (next_after _ _ _) as [t0| |]; [destruct (negb _); [discriminate|]| |]; discriminate. }
    left. destruct (Reqb _ 1); [|destruct (Rltb _ 1)]; cbn [bind] in H; apply D in H; auto.
  - assert (D : forall d, (d = Fin 0 \/ d = MInf \/ d = PInf) -> (match next_after (a_txns a) e (eadd (Fin e) d) with
      | Fin t0 => if negb (eleb (eadd (Fin e) d) (Fin t0)) then time_to_balance n a v t0 else Ok (eadd (Fin e) d) | _ => Ok (eadd (Fin e) d) end) = Ok (Fin t) -> t = e \/ In t (dkeys (a_txns a))).
    { intros d Hd X. destruct (next_after_spec (a_txns a) e (eadd (Fin e) d)) as [[E Hk]|(s & E & Hin & Hs & Hk)]; rewrite E in X.
      - left. destruct Hd as [-> |[-> | ->]]; cbn [eadd] in X; try discriminate. destruct (eleb _ _) eqn:El in X; cbn [negb] in X; [injection X as <-; lra|].
        exfalso. assert (T : eleb (Fin (e + 0)) (Fin (e + 0)) = true) by (apply eleb_t; cbn; lra). congruence.
      - destruct (negb _); [|left; destruct Hd as [-> |[-> | ->]]; cbn [eadd] in X; try discriminate; injection X as <-; lra].
        destruct (IH a v s t Hr X) as [-> |I]; [right; exact Hin|now right]. }
    destruct (Reqb _ 1); [|destruct (Rltb _ 1)]; cbn [bind] in H; apply D in H; auto.
Qed.
Lemma steady_accum : forall a w value acc, 0 <= w <= 1 -> proper a -> rate a = 0 -> accum_account a w value = Ok acc ->
  forall t x, In (t, x) acc -> In t (keys_with (a_txns a) w) /\ w <= t.
Proof.
  intros a w value acc Hw Hp Hr A t x Hi. destruct (accum_entries a w value Hw acc A t x Hi) as [I|(e & l & W1 & B & Ie & Il & G & T)]; [exact I|exfalso].
  unfold time_to_balance_top, rwhen_conv in T. destruct (orb _ _); [discriminate|]. cbn [bind] in T. apply ttb_steady in T; [|exact Hr].
  destruct T as [-> |T]; [lra|]. destruct (G t ltac:(apply keys_with_in; now left) ltac:(lra)); lra.
Qed.
Lemma steady_balance : forall a s k, rate a = 0 -> balance_at_time a k None * growth a (s - k) = balance_at_time a k None.
Proof. intros a s k Hr. unfold growth. rewrite Hr, accum_zero_rate. lra. Qed.
(** In an account that does not grow, the money is taken at the earliest time at or after the requested one from which the account always holds the
    amount, if there is such a time in the year, and else at the requested time - if no error is raised. *)
Theorem C110_steady_account_partial : forall a value w r, proper a -> rate a = 0 -> 0 < value -> shift_when a value w = Ok r ->
  ((exists t, w <= t <= 1 /\ covers a value t) -> w <= r /\ covers a value r /\ forall t, w <= t <= 1 -> covers a value t -> r <= t) /\
  (~ (exists t, w <= t <= 1 /\ covers a value t) -> r = w).
Proof.
  intros a value w r Hp Hr Hv H. pose proof (C110_not_before a value w r Hp H) as Hb.
  unfold shift_when, rwhen_conv in H. destruct (orb (Rltb 1 w) (Rltb w 0)) eqn:E; [discriminate|]. cbn [bind] in H.
  apply orb_false_iff in E. destruct E as [E1 E2]. rb. destruct (accum_account a w value) as [acc|] eqn:A; [|discriminate]. cbn [bind] in H. injection H as <-.
  assert (Hw : 0 <= w <= 1) by lra. set (r := earliest acc value w) in *.
  assert (Kg : forall t, w <= t <= 1 -> covers a value t -> exists k, In k (dkeys acc) /\ eligible acc value k = true /\ k <= t).
  { intros t Ht C. destruct (last_key (keys_with (a_txns a) w) w t (key_w a w) ltac:(lra)) as (k & K1 & K2 & K3). exists k.
    assert (Ik : In (k, at_hand a k) acc) by (apply (accum_known a w value Hw acc A); [exact K1|lra]).
    split; [unfold dkeys; apply in_map_iff; exists (k, at_hand a k); auto|]. split; [|lra].
    apply eligible_iff. intros s x Hi Hl. destruct (steady_accum a w value acc Hw Hp Hr A s x Hi) as [Ks Ws].
    assert (Ex : x = at_hand a s).
    { unfold accum_account in A. destruct (interpolate_entries _ _ _ _ _ _ A s x Hi) as [I|(e & l & Hn & B & T)]; [apply known_in in I; tauto|exfalso].
      assert (Is : In s (rsort (dkeys (map (fun t => (t, at_hand a t)) (filter (fun t => Rleb w t) (keys_with (a_txns a) w)))))) by (apply times_in; auto).
      destruct (sorted_gap _ e l s (rsort_sorted _) Hn Is); lra. }
    subst x. rewrite at_hand_eq.
    assert (Bs : value <= balance_at_time a s None).
    { destruct (Rle_lt_dec t s) as [L|L].
      - apply C. pose proof (keys_range a w Hw Hp s Ks). lra.
      - destruct (Rle_lt_dec s k) as [L2|L2]; [|specialize (K3 s Ks L2); lra]. assert (s = k) by lra. subst s.
        assert (X : value <= balance_at_time a t None) by (apply C; lra).
        rewrite (balance_since a w k t K1 ltac:(lra) K3), steady_balance in X by exact Hr. exact X. }
    eapply Rle_trans; [exact Bs|apply Rmax_l]. }
  destruct (earliest_cases w value acc) as [[Er Hn]|(Hi & He & Hm)]; [fold r in Er|fold r in Hi, He, Hm].
  - split; [|intros _; exact Er]. intros (t & Ht & C). exfalso. destruct (Kg t Ht C) as (k & K1 & K2 & _). rewrite (Hn k K1) in K2. discriminate.
  - assert (Cr : covers a value r).
    { unfold dkeys in Hi. apply in_map_iff in Hi. destruct Hi as ([k x] & Ek & Hi). cbn [fst] in Ek. destruct (steady_accum a w value acc Hw Hp Hr A k x Hi) as [K1 K2].
      rewrite <- Ek in *. apply (eligible_covered a w value Hw acc A); auto. lra. }
    split; [|intros Hne; exfalso; apply Hne; exists r; split; [lra|exact Cr]]. intros _. split; [lra|]. split; [exact Cr|].
    intros t Ht C. destruct (Kg t Ht C) as (k & K1 & K2 & K3). specialize (Hm k K1 K2). lra.
Qed.
Print Assumptions C110_steady_account_partial.

(** ** What taking money does *)
Lemma conv_ok : forall t, 0 <= t <= 1 -> rwhen_conv (RNum t) = Ok t.
Proof. intros t Ht. unfold rwhen_conv. destruct (orb (Rltb 1 t) (Rltb t 0)) eqn:E; [apply orb_true_iff in E; destruct E; rb; lra|reflexivity]. Qed.
Lemma conv_in : forall t t', rwhen_conv (RNum t) = Ok t' -> t' = t /\ 0 <= t <= 1.
Proof.
  intros t t' H. unfold rwhen_conv in H. destruct (orb (Rltb 1 t) (Rltb t 0)) eqn:E; [discriminate|]. apply orb_false_iff in E. destruct E. rb. injection H as <-. split; [reflexivity|lra].
Qed.
Lemma post_spec : forall a t v a', proper a -> post a t v = Ok a' ->
  0 <= t <= 1 /\ a' = with_txns a (a_txns a') /\ proper a' /\ (forall k, rval (a_txns a') k = rval (a_txns a) k + (if Reqb k t then v else 0)) /\
  (forall f, wsum f (a_txns a') = wsum f (a_txns a) + v * f t).
Proof.
  intros a t v a' [W T] H. unfold post in H. destruct (rwhen_conv (RNum t)) as [t'|] eqn:C; [|discriminate]. destruct (conv_in _ _ C) as [-> Ht]. cbn [bind] in H.
  assert (TO : forall d k x, times_ok d -> times_ok (dset Reqb d t x) /\ times_ok (ddel Reqb d k)).
  { intros d k x Td. split; [intros k' v' Hi; apply In_dset in Hi; destruct Hi as [[-> _]|Hi]; [exact Ht|exact (Td _ _ Hi)]|].
    intros k' v' Hi. refine (Td k' v' _). revert Hi. clear. induction d as [|[k0 v0] d IH]; cbn; [auto|]. destruct (Reqb k k0); cbn; [auto|]. intros [<-|Hi]; auto. }
  split; [exact Ht|]. unfold dmem, getitem, setitem, add_transaction in H. rewrite (conv_ok t Ht) in H.
  destruct (dget Reqb (a_txns a) t) as [y|] eqn:E; unfold dmem in H; rewrite E in H; cbn [bind] in H; injection H as <-; cbn [with_txns a_txns a_year a_bal a_rate a_nper a_timing].
  - cbn [fst]. assert (Vy : rval (a_txns a) t = y) by (unfold rval; now rewrite E).
    split; [reflexivity|]. split; [split; [apply rincr_wf, rddel_wf, W|apply (proj1 (TO _ 0 _ (proj2 (TO (a_txns a) t 0 T))))]|].
    assert (D : forall k, rval (ddel Reqb (a_txns a) t) k = if Reqb k t then 0 else rval (a_txns a) k).
    { intros k. unfold rval. rewrite rdget_ddel by exact W. destruct (Reqb k t); reflexivity. }
    split.
    + intros k. rewrite rval_rincr, D. destruct (Reqb k t) eqn:Ek; [apply Reqb_t in Ek; subst k; rewrite Vy; lra|lra].
    + intros f. rewrite wsum_rincr, wsum_ddel, Vy. lra.
  - split; [reflexivity|]. split; [split; [now apply rincr_wf|exact (proj1 (TO (a_txns a) 0 _ T))]|]. split; [intros k; apply rval_rincr|intros f; apply wsum_rincr].
Qed.
Lemma balance_posted : forall a t v a', proper a -> post a t v = Ok a' -> forall s, balance_at_time a' s None = balance_at_time a s None + (if Rleb t s then v * growth a (s - t) else 0).
Proof.
  intros a t v a' Hp H s. destruct (post_spec a t v a' Hp H) as (Ht & Ea & _ & _ & Ws). rewrite !balance_at_time_eq. cbn [extra_wsum].
  assert (G : forall u, growth a' u = growth a u) by (intros u; rewrite Ea; reflexivity). rewrite G.
  assert (F : wsum (fv a' s) (a_txns a') = wsum (fv a s) (a_txns a')) by (apply wsum_ext; intros k x _; unfold fv; rewrite G; reflexivity).
  rewrite F, Ws. assert (B : a_bal a' = a_bal a) by (rewrite Ea; reflexivity). rewrite B. unfold fv at 2. destruct (Rleb t s); lra.
Qed.
(** taking money changes the account at one time only, by the amount: the requested time if timing is strict, or if money is put in instead;
    the record of transactions shows the same, and the balance falls by the amount, with its growth, from that time on *)
Theorem C110_taken : forall a x value w strict a' x', proper a -> take (a, x) value w strict = Ok (a', x') -> exists r,
  (if Rltb value 0 then r = w else if strict then r = w else shift_when a value w = Ok r) /\ w <= r <= 1 /\ proper a' /\
  (forall k, rval (a_txns a') k = rval (a_txns a) k - (if Reqb k r then value else 0)) /\
  (forall k, rval x' k = rval x k - (if Reqb k r then value else 0)) /\
  (forall s, balance_at_time a' s None = balance_at_time a s None - (if Rleb r s then value * growth a (s - r) else 0)).
Proof.
  intros a x value w strict a' x' Hp H. unfold take in H.
  destruct (if Rltb value 0 then Ok w else if strict then Ok w else shift_when a value w) as [r|] eqn:R; [|discriminate]. cbn [bind] in H.
  destruct (post a r (- value)) as [a1|] eqn:P; [|discriminate]. cbn [bind] in H. injection H as <- <-. exists r.
  destruct (post_spec a r (- value) a1 Hp P) as (Ht & Ea & Hp' & Hv & _).
  split; [destruct (Rltb value 0); [now injection R|destruct strict; [now injection R|exact R]]|].
  split; [destruct (Rltb value 0); [injection R as ->; lra|destruct strict; [injection R as ->; lra|exact (C110_not_before a value w r Hp R)]]|].
  split; [exact Hp'|]. split; [intros k; rewrite Hv; destruct (Reqb k r); lra|]. split; [intros k; rewrite rval_rincr; destruct (Reqb k r); lra|].
  intros s. rewrite (balance_posted a r (- value) a1 Hp P). destruct (Rleb r s); lra.
Qed.
Print Assumptions C110_taken.
(** so an account that does not grow is not overdrawn by it from then on, if it could be avoided *)
Theorem C110_steady_not_overdrawn_partial : forall a x value w a' x', proper a -> rate a = 0 -> 0 < value -> (exists t, w <= t <= 1 /\ covers a value t) ->
  take (a, x) value w false = Ok (a', x') -> exists r, w <= r <= 1 /\ (forall s, r <= s <= 1 -> 0 <= balance_at_time a' s None) /\
    (forall s, s < r -> balance_at_time a' s None = balance_at_time a s None).
Proof.
  intros a x value w a' x' Hp Hr Hv Hex H. destruct (C110_taken a x value w false a' x' Hp H) as (r & R & Hb & _ & _ & _ & B).
  destruct (Rltb value 0) eqn:E; rb; [lra|]. destruct (C110_steady_account_partial a value w r Hp Hr Hv R) as [C _]. destruct (C Hex) as (_ & Cr & _).
  exists r. split; [exact Hb|]. split.
  - intros s Hs. rewrite B. destruct (Rleb r s) eqn:L; rb; [|lra]. unfold growth. rewrite Hr, accum_zero_rate. specialize (Cr s Hs). lra.
  - intros s Hs. rewrite B. destruct (Rleb r s) eqn:L; rb; lra.
Qed.
Print Assumptions C110_steady_not_overdrawn_partial.

(** ** Accounts that grow *)
Lemma balance_only_taken : forall a w t s, w <= t <= s -> (forall k v, In (k, v) (a_txns a) -> w < k -> v <= 0) ->
  balance_at_time a s None * growth a (t - s) <= balance_at_time a t None.
Proof.
  intros a w t s Hts Hn. rewrite !balance_at_time_eq. cbn [extra_wsum].
  assert (G1 : growth a s * growth a (t - s) = growth a t) by (rewrite <- growth_plus; f_equal; ring).
  assert (W : wsum (fv a s) (a_txns a) * growth a (t - s) <= wsum (fv a t) (a_txns a)).
  { revert Hn. generalize (a_txns a) as d. intros d Hn. unfold wsum. induction d as [|[k v] d IH]; cbn [map Rsum fst snd]; [lra|].
    specialize (IH (fun k' v' Hi => Hn k' v' (or_intror Hi))). assert (X : v * fv a s k * growth a (t - s) <= v * fv a t k); [|lra].
    unfold fv. destruct (Rleb k s) eqn:E1, (Rleb k t) eqn:E2; rb; try lra.
    - assert (G2 : growth a (s - k) * growth a (t - s) = growth a (t - k)) by (rewrite <- growth_plus; f_equal; ring). rewrite Rmult_assoc, G2. lra.
    - specialize (Hn k v (or_introl eq_refl) ltac:(lra)). pose proof (growth_pos a (s - k)). pose proof (growth_pos a (t - s)).
      assert (0 < growth a (s - k) * growth a (t - s)) by (apply Rmult_lt_0_compat; assumption). rewrite Rmult_assoc. nra. }
  rewrite <- G1. lra.
Qed.
(** In an account that grows, with nothing paid in after the requested time: the money is taken at the requested time, or when the account holds it
    and goes on holding it. *)
Theorem C110_growing_account_partial : forall a value w r, proper a -> rate_ok (rate a) (a_nper a) -> 0 <= rate a -> 0 < value ->
  (forall k v, In (k, v) (a_txns a) -> w < k -> v <= 0) -> shift_when a value w = Ok r -> r = w \/ covers a value r.
Proof.
  intros a value w r Hp Hok Hr Hv Hn H. pose proof (C110_not_before a value w r Hp H) as Hb.
  unfold shift_when, rwhen_conv in H. destruct (orb (Rltb 1 w) (Rltb w 0)) eqn:E; [discriminate|]. cbn [bind] in H.
  apply orb_false_iff in E. destruct E as [E1 E2]. rb. destruct (accum_account a w value) as [acc|] eqn:A; [|discriminate]. cbn [bind] in H. injection H as <-.
  assert (Hw : 0 <= w <= 1) by lra. destruct (earliest_cases w value acc) as [[Er _]|(Hi & He & _)]; [left; exact Er|]. right.
  set (r := earliest acc value w) in *. unfold dkeys in Hi. apply in_map_iff in Hi. destruct Hi as ([k x] & Ek & Hi). cbn [fst] in Ek.
  destruct (accum_entries a w value Hw acc A k x Hi) as [[K1 K2]|(e & l & W1 & B & Ie & Il & Gap & T)].
  - rewrite <- Ek in *. apply (eligible_covered a w value Hw acc A); auto.
  - rewrite Ek in *. clear k Ek. unfold time_to_balance_top in T. destruct (rwhen_conv (RNum e)) as [e'|] eqn:Ce; [|discriminate]. destruct (conv_in _ _ Ce) as [-> _]. cbn [bind] in T.
    assert (Nk : ~ In r (dkeys (a_txns a))) by (intros I; destruct (Gap r ltac:(apply keys_with_in; now left) ltac:(lra)); lra).
    destruct (time_to_balance_reaches _ a value e r Hok T Nk) as (s0 & S0 & Hs0 & Hs1).
    assert (Br : value <= balance_at_time a r None).
    { destruct S0 as [-> |[S1 S2]]; [rewrite Hs1 by lra; lra|]. destruct (Rle_lt_dec s0 r) as [L|L]; [rewrite (Hs1 L); lra|].
      rewrite <- Hs0. apply (balance_only_taken a w r s0); [lra|exact Hn]. }
    intros s Hs. destruct (last_key (keys_with (a_txns a) w) w s (key_w a w) ltac:(lra)) as (k & K1 & K2 & K3).
    destruct (Rle_lt_dec r k) as [L|L].
    + rewrite (eligible_iff value acc r) in He. pose proof (He k _ (accum_known a w value Hw acc A k K1 ltac:(lra)) L) as V. rewrite at_hand_eq in V.
      assert (Bk : value <= balance_at_time a k None) by (unfold Rmax in V; destruct (Rle_dec _ _); lra).
      rewrite (balance_since a w k s K1 ltac:(lra) K3). pose proof (accum_ge1 (s - k) (rate a) (a_nper a) Hr ltac:(lra)) as G. fold (growth a (s - k)) in G. nra.
    + rewrite (balance_grows a r s); [|lra|intros j J1 J2; apply K3; [apply keys_with_in; now left|lra]].
      pose proof (accum_ge1 (s - r) (rate a) (a_nper a) Hr ltac:(lra)) as G. fold (growth a (s - r)) in G. nra.
Qed.
Print Assumptions C110_growing_account_partial.

(** ** Where it goes wrong *)
Definition acct (bal r : R) (n : option positive) (txns : dict R R) : account :=
  {| a_year := 2000; a_bal := bal; a_rate := fun _ => r; a_nper := n; a_txns := txns; a_timing := [(0, 1)] |}.
Lemma max_outflows_once : forall a t, 0 <= t <= 1 ->
  max_outflows account_limits a (Some [(t, 1)]) None None None = Ok [(t, Fin (Rmin (- (balance_at_time a 1 None / growth a (1 - t))) 0))].
Proof.
  intros a t Ht. assert (TO : timing_ok (clean_timing a (Some [(t, 1)]))) by (split; [discriminate|]; intros k w [E|[]]; injection E as <- <-; lra).
  unfold max_outflows, outflows_upto. rewrite ttb_eq by exact TO. cbn [clean_timing].
  assert (NT : normalized_timing [(t, 1)] = [(t, 1)]).
  { unfold normalized_timing. cbn. destruct (Reqb (1 + 0) 0) eqn:E; rb; [lra|]. cbn. destruct (Reqb 1 0) eqn:E2; rb; [lra|]. cbn. f_equal. f_equal. lra. }
  rewrite NT. cbn [map fst snd]. f_equal. f_equal. f_equal.
  assert (WA : wacc a [(t, 1)] = growth a (1 - t)) by (unfold wacc; cbn; lra). pose proof (growth_pos a (1 - t)) as Gp.
  rewrite WA. cbn [opt_default esub max_out account_limits opt_emax ediv clamp]. change (emin MInf (Fin 0)) with MInf.
  assert (D : (0 - balance_at_time a 1 None) / growth a (1 - t) = - (balance_at_time a 1 None / growth a (1 - t))) by (field; lra). rewrite D.
  generalize (- (balance_at_time a 1 None / growth a (1 - t))) as z. intros z. unfold emin. cbn. unfold Rmin. destruct (Rleb z 0) eqn:E; rb; destruct (Rle_dec z 0); try lra; cbn; f_equal; lra.
Qed.
Lemma ttv_exact : forall r n b t, rate_ok r n -> r <> 0 -> 0 < b -> time_to_value r b (b * accumulation_function t r n) n = Ok (Fin t).
Proof.
  intros r n b t Hok Hr Hb. unfold time_to_value. destruct (Reqb b 0) eqn:E; rb; [lra|].
  replace (b * accumulation_function t r n / b) with (accumulation_function t r n) by (field; lra). apply inverse_complete; assumption.
Qed.
Lemma ok_pos : forall r n, 0 < r -> rate_ok r n.
Proof. intros r [n|] Hr; cbn; [|exact I]. pose proof (IZRpos n). assert (0 < r / IZR (Zpos n)) by (apply Rdiv_lt_0_compat; lra). lra. Qed.
(** with a deposit later in the year, money may be taken while the account does not hold it - before the deposit that is to pay for it *)
Section Refute.
Variables (r : R) (n : option positive).
Hypothesis Hr : 0 < r.
Let g (t : R) : R := accumulation_function t r n.
Local Lemma g_plus : forall s t, g (s + t) = g s * g t. Proof. intros. apply accum_plus. Qed.
Local Lemma g_pos : forall t, 0 < g t. Proof. intros. apply accum_pos. Qed.
Local Lemma g_0 : g 0 = 1. Proof. apply accum_0. Qed.
Local Lemma g_lt : forall s t, s < t -> g s < g t. Proof. intros. now apply accum_mono. Qed.
Lemma bal1 : forall b k D t, balance_at_time (acct b r n [(k, D)]) t None = b * g t + (if Rleb k t then D * g (t - k) else 0).
Proof.
  intros. rewrite balance_at_time_eq. cbn [acct a_bal a_txns extra_wsum]. unfold wsum, fv. cbn [map Rsum fst snd]. unfold growth, rate. cbn [acct a_rate a_year a_nper]. fold (g t) (g (t - k)). destruct (Rleb k t); lra.
Qed.
Definition early : account := acct 100 r n [(1 / 2, 100 * g 1 - 100 * g (1 / 2))].
Lemma early_0 : balance_at_time early 0 None = 100.
Proof. unfold early. rewrite bal1, g_0. destruct (Rleb (1 / 2) 0) eqn:E; rb; lra. Qed.
Lemma early_quarter : balance_at_time early (1 / 4) None = 100 * g (1 / 4).
Proof. unfold early. rewrite bal1. destruct (Rleb (1 / 2) (1 / 4)) eqn:E; rb; lra. Qed.
Lemma early_late : forall t, 1 / 2 <= t -> balance_at_time early t None = 100 * g (1 / 2 + t).
Proof.
  intros t Ht. unfold early. rewrite bal1. destruct (Rleb (1 / 2) t) eqn:E; rb; [|lra].
  replace (1 / 2 + t) with (1 + (t - 1 / 2)) by lra. replace t with (1 / 2 + (t - 1 / 2)) at 1 by lra. rewrite !g_plus. ring.
Qed.
Lemma early_shift : shift_when early (100 * g (3 / 4)) 0 = Ok (1 / 4).
Proof.
  unfold shift_when. rewrite (conv_ok 0) by lra. cbn [bind]. unfold accum_account.
  assert (K : keys_with (a_txns early) 0 = [1 / 2; 0]).
  { unfold keys_with, dmem. cbn [early acct a_txns dget]. destruct (Reqb 0 (1 / 2)) eqn:E; rb; [lra|]. reflexivity. }
  rewrite K. cbn [filter]. destruct (Rleb 0 (1 / 2)) eqn:E1; rb; [|lra]. destruct (Rleb 0 0) eqn:E2; rb; [|lra]. cbn [map].
  rewrite !at_hand_eq, early_0, early_late by lra. replace (1 / 2 + 1 / 2) with 1 by lra.
  pose proof (g_lt 0 (3 / 4) ltac:(lra)) as L1. pose proof (g_lt (3 / 4) 1 ltac:(lra)) as L2. rewrite g_0 in L1.
  rewrite !Rmax_left by lra.
  assert (S : rsort (dkeys [(1 / 2, 100 * g 1); (0, 100)]) = [0; 1 / 2]).
  { cbn. destruct (Rleb (1 / 2) 0) eqn:E; rb; [lra|reflexivity]. }
  rewrite S. cbn [interpolate]. unfold interpolate_one.
  assert (V1 : rval [(1 / 2, 100 * g 1); (0, 100)] (1 / 2) = 100 * g 1) by (unfold rval; cbn; rewrite Reqb_refl; reflexivity).
  assert (V0 : rval [(1 / 2, 100 * g 1); (0, 100)] 0 = 100) by (unfold rval; cbn; destruct (Reqb 0 (1 / 2)) eqn:E; rb; [lra|]; rewrite Reqb_refl; reflexivity).
  rewrite V1, V0. destruct (Rltb (100 * g (3 / 4)) (100 * g 1)) eqn:C1; rb; [|lra]. destruct (Rltb 100 (100 * g (3 / 4))) eqn:C2; rb; [|lra]. cbn [andb orb].
  assert (T : time_to_balance_top early (100 * g (3 / 4)) (RNum 0) = Ok (Fin (1 / 4))).
  { unfold time_to_balance_top. rewrite (conv_ok 0) by lra. cbn [bind]. change (Datatypes.length (a_txns early)) with 1%nat. cbn [time_to_balance].
    rewrite early_0. change (rate early) with r. change (a_nper early) with n. unfold g at 1. rewrite ttv_exact by (try apply ok_pos; lra). cbn [bind eadd].
    assert (N1 : forall dflt, next_after (a_txns early) 0 dflt = Fin (1 / 2)) by (intros; unfold next_after; cbn; destruct (Rltb 0 (1 / 2)) eqn:E; rb; [reflexivity|lra]).
    assert (N2 : forall dflt, next_after (a_txns early) (1 / 2) dflt = dflt) by (intros; unfold next_after; cbn; destruct (Rltb (1 / 2) (1 / 2)) eqn:E; rb; [lra|reflexivity]).
    rewrite N1. cbn [eleb]. destruct (Rleb (0 + 3 / 4) (1 / 2)) eqn:E; rb; [lra|]. cbn [negb].
    rewrite early_late by lra. replace (1 / 2 + 1 / 2) with 1 by lra.
    replace (100 * g (3 / 4)) with (100 * g 1 * accumulation_function (- (1 / 4)) r n); [|fold (g (- (1 / 4))); rewrite Rmult_assoc, <- g_plus; do 2 f_equal; lra].
    rewrite ttv_exact by (try apply ok_pos; try lra; pose proof (g_pos 1); lra). cbn [bind eadd]. rewrite N2. cbn [eleb].
    destruct (Rleb _ _) eqn:E3; rb; [|lra]. cbn [negb]. do 2 f_equal. lra. }
  rewrite T. cbn [bind]. destruct (Rltb 0 (1 / 4)) eqn:C3; rb; [|lra]. destruct (Rltb (1 / 4) (1 / 2)) eqn:C4; rb; [|lra]. cbn [andb].
  rewrite max_outflows_once by lra. cbn [bind map snd esum eadd negr].
  assert (AH : - (Rmin (- (balance_at_time early 1 None / growth early (1 - 1 / 4))) 0 + 0) = 100 * g (3 / 4)).
  { rewrite early_late by lra. change (growth early (1 - 1 / 4)) with (g (1 - 1 / 4)). replace (1 / 2 + 1) with (3 / 4 + (1 - 1 / 4)) by lra. rewrite g_plus.
    pose proof (g_pos (1 - 1 / 4)). pose proof (g_pos (3 / 4)).
    replace (100 * (g (3 / 4) * g (1 - 1 / 4)) / g (1 - 1 / 4)) with (100 * g (3 / 4)) by (field; lra). rewrite Rmin_left by lra. lra. }
  rewrite AH. cbn [dset]. destruct (Reqb (1 / 4) (1 / 2)) eqn:D1; rb; [lra|]. destruct (Reqb (1 / 4) 0) eqn:D2; rb; [lra|].
  unfold earliest. cbn [dkeys map fst filter]. unfold eligible. cbn [forallb fst snd].
  repeat match goal with |- context [Rleb ?x ?y] => destruct (Rleb x y) eqn:?; rb; try lra end. cbn [negb orb andb fold_left].
  f_equal. unfold Rmin. destruct (Rle_dec _ _); lra.
Qed.
End Refute.
(** whatever the growth rate: taken at 1/4 of the year, when the account holds less, though from mid-year on it would always hold the amount *)
Theorem C110_taken_too_early_refuted : forall r n, 0 < r -> exists a value, proper a /\ rate a = r /\ a_nper a = n /\
  shift_when a value 0 = Ok (1 / 4) /\ 0 < balance_at_time a (1 / 4) None < value /\ covers a value (1 / 2).
Proof.
  intros r n Hr. exists (early r n), (100 * accumulation_function (3 / 4) r n).
  split; [split; [cbn; auto|intros k v [E|[]]; injection E as <- _; lra]|]. split; [reflexivity|]. split; [reflexivity|]. split; [now apply early_shift|].
  rewrite early_quarter. pose proof (accum_pos (1 / 4) r n). pose proof (accum_mono (1 / 4) (3 / 4) r n Hr ltac:(lra)). split; [lra|].
  intros s Hs. rewrite early_late by (try assumption; lra). pose proof (accum_mono (3 / 4) (1 / 2 + s) r n Hr ltac:(lra)). lra.
Qed.
Print Assumptions C110_taken_too_early_refuted.
(** nothing paid in later, but a withdrawal already planned: the amount is there at every moment if nothing is taken; taken at the time chosen, the account
    is overdrawn later, as what is taken would have grown.  Taken at mid-year instead, it never is. *)
Theorem C110_overdrawn_later_refuted : forall r n, 0 < r -> exists a, proper a /\ rate a = r /\ a_nper a = n /\
  shift_when a 100 0 = Ok 0 /\
  (exists a' x', take (a, []) 100 0 false = Ok (a', x') /\ balance_at_time a' (1 / 2) None < 0) /\
  (exists a' x', take (a, []) 100 (1 / 2) true = Ok (a', x') /\ forall s, 0 <= s <= 1 -> 0 <= balance_at_time a' s None).
Proof.
  intros r n Hr. set (g := fun t => accumulation_function t r n). set (a := acct 100 r n [(1 / 2, 100 - 100 * g (1 / 2))]). exists a.
  assert (Hp : proper a) by (split; [cbn; auto|intros k v [E|[]]; injection E as <- _; lra]).
  assert (G0 : g 0 = 1) by apply accum_0. pose proof (accum_mono 0 (1 / 2) r n Hr ltac:(lra)) as L. fold (g 0) (g (1 / 2)) in L. rewrite G0 in L.
  assert (B : forall t, balance_at_time a t None = if Rleb (1 / 2) t then 100 * g (t - 1 / 2) else 100 * g t).
  { intros t. unfold a. rewrite bal1. fold (g t) (g (t - 1 / 2)). destruct (Rleb (1 / 2) t); [|lra].
    replace (g t) with (g (1 / 2) * g (t - 1 / 2)); [ring|]. unfold g. rewrite <- accum_plus. f_equal. lra. }
  split; [exact Hp|]. split; [reflexivity|]. split; [reflexivity|].
  assert (B0 : balance_at_time a 0 None = 100) by (rewrite B, G0; destruct (Rleb (1 / 2) 0) eqn:E; rb; lra).
  assert (B2 : balance_at_time a (1 / 2) None = 100) by (rewrite B; replace (1 / 2 - 1 / 2) with 0 by lra; rewrite G0; destruct (Rleb (1 / 2) (1 / 2)) eqn:E; rb; lra).
  assert (Sh : shift_when a 100 0 = Ok 0).
  { unfold shift_when. rewrite (conv_ok 0) by lra. cbn [bind]. unfold accum_account.
    assert (K : keys_with (a_txns a) 0 = [1 / 2; 0]) by (unfold keys_with, dmem; cbn [a acct a_txns dget]; destruct (Reqb 0 (1 / 2)) eqn:E; rb; [lra|reflexivity]).
    rewrite K. cbn [filter]. destruct (Rleb 0 (1 / 2)) eqn:E1; rb; [|lra]. destruct (Rleb 0 0) eqn:E2; rb; [|lra]. cbn [map].
    rewrite !at_hand_eq, B0, B2, !Rmax_left by lra.
    assert (S : rsort (dkeys [(1 / 2, 100); (0, 100)]) = [0; 1 / 2]) by (cbn; destruct (Rleb (1 / 2) 0) eqn:E; rb; [lra|reflexivity]).
    rewrite S. cbn [interpolate]. unfold interpolate_one.
    assert (V1 : rval [(1 / 2, 100); (0, 100)] (1 / 2) = 100) by (unfold rval; cbn; rewrite Reqb_refl; reflexivity).
    assert (V0 : rval [(1 / 2, 100); (0, 100)] 0 = 100) by (unfold rval; cbn; destruct (Reqb 0 (1 / 2)) eqn:E; rb; [lra|]; rewrite Reqb_refl; reflexivity).
    rewrite V1, V0. destruct (Rltb 100 100) eqn:C1; rb; [lra|]. cbn [andb orb bind].
    unfold earliest. cbn [dkeys map fst filter]. unfold eligible. cbn [forallb fst snd].
    repeat match goal with |- context [Rleb ?x ?y] => destruct (Rleb x y) eqn:?; rb; try lra end. cbn [negb orb andb fold_left].
    f_equal. unfold Rmin. destruct (Rle_dec _ _); lra. }
  split; [exact Sh|]. split.
  - assert (T : exists ax, take (a, []) 100 0 false = Ok ax).
    { unfold take. rewrite Sh. destruct (Rltb 100 0) eqn:E; rb; [lra|]. cbn [bind]. unfold post. rewrite (conv_ok 0) by lra. cbn [bind].
      destruct (dmem Reqb (a_txns a) 0); unfold setitem, add_transaction; rewrite (conv_ok 0) by lra; cbn [bind]; eauto. }
    destruct T as ([a' x'] & T). exists a', x'. split; [exact T|]. destruct (C110_taken a [] 100 0 false a' x' Hp T) as (t & Ht & _ & _ & _ & _ & Bt).
    destruct (Rltb 100 0) eqn:E; rb; [lra|]. rewrite Sh in Ht. injection Ht as <-. rewrite Bt, B2. destruct (Rleb 0 (1 / 2)) eqn:E2; rb; [|lra].
    change (growth a (1 / 2 - 0)) with (g (1 / 2 - 0)). replace (1 / 2 - 0) with (1 / 2) by lra. lra.
  - assert (T : exists ax, take (a, []) 100 (1 / 2) true = Ok ax).
    { unfold take. destruct (Rltb 100 0) eqn:E; rb; [lra|]. cbn [bind]. unfold post. rewrite (conv_ok (1 / 2)) by lra. cbn [bind].
      destruct (dmem Reqb (a_txns a) (1 / 2)); unfold setitem, add_transaction; rewrite (conv_ok (1 / 2)) by lra; cbn [bind]; eauto. }
    destruct T as ([a' x'] & T). exists a', x'. split; [exact T|]. destruct (C110_taken a [] 100 (1 / 2) true a' x' Hp T) as (t & Ht & _ & _ & _ & _ & Bt).
    destruct (Rltb 100 0) eqn:E; rb; [lra|]. subst t. intros s Hs. rewrite Bt, B. change (growth a (s - 1 / 2)) with (g (s - 1 / 2)).
    destruct (Rleb (1 / 2) s); [lra|]. pose proof (accum_pos s r n). fold (g s) in *. lra.
Qed.
Print Assumptions C110_overdrawn_later_refuted.
(** no transactions at all: an amount the account grows to by mid-year, and holds from then on, is nevertheless taken at once, which overdraws it *)
Theorem C110_growth_overlooked_refuted : forall r n, 0 < r -> exists a value, proper a /\ rate a = r /\ a_nper a = n /\
  a_txns a = [] /\ shift_when a value 0 = Ok 0 /\ balance_at_time a 0 None < value /\ covers a value (1 / 2).
Proof.
  intros r n Hr. set (g := fun t => accumulation_function t r n). set (a := acct 100 r n []). exists a, (100 * g (1 / 2)).
  assert (B : forall t, balance_at_time a t None = 100 * g t).
  { intros t. rewrite balance_at_time_eq. cbn [a acct a_bal a_txns extra_wsum]. unfold wsum. cbn [map Rsum]. change (growth a t) with (g t). lra. }
  assert (G0 : g 0 = 1) by apply accum_0. pose proof (accum_mono 0 (1 / 2) r n Hr ltac:(lra)) as L. fold (g 0) (g (1 / 2)) in L. rewrite G0 in L.
  split; [split; [exact I|intros k v []]|]. do 3 (split; [reflexivity|]). split; [|split].
  - unfold shift_when. rewrite (conv_ok 0) by lra. cbn [bind]. unfold accum_account, keys_with, dmem. cbn [a acct a_txns dget dkeys map app filter fst].
    destruct (Rleb 0 0) eqn:E; rb; [|lra]. cbn [map]. rewrite at_hand_eq. fold a. rewrite B, G0, Rmax_left by lra. cbn [map fst rsort fold_right rinsert interpolate bind].
    unfold earliest. cbn [dkeys map fst filter]. unfold eligible. cbn [forallb fst snd].
    destruct (Rleb 0 0) eqn:E1; rb; [|lra]. destruct (Rleb (100 * g (1 / 2)) (100 * 1)) eqn:E2; rb; [lra|]. reflexivity.
  - rewrite B, G0. lra.
  - intros s Hs. rewrite B. destruct (Req_dec s (1 / 2)) as [->|N]; [lra|]. pose proof (accum_mono (1 / 2) s r n Hr ltac:(lra)) as M. fold (g s) (g (1 / 2)) in M. lra.
Qed.
Print Assumptions C110_growth_overlooked_refuted.
(** an account that is empty (or overdrawn) until a deposit at mid-year which covers the amount: an error instead *)
Theorem C110_empty_account_error_refuted : forall r n b D value, 0 <= r -> b <= 0 -> 0 < value -> value < D + b * accumulation_function (1 / 2) r n ->
  exists a, proper a /\ rate a = r /\ a_nper a = n /\ a_bal a = b /\ a_txns a = [(1 / 2, D)] /\
  shift_when a value 0 = Err (if Reqb b 0 then ZeroDivisionError else ValueError) /\ covers a value (1 / 2).
Proof.
  intros r n b D value Hr Hb Hv HD. set (a := acct b r n [(1 / 2, D)]). exists a.
  split; [split; [cbn; auto|intros k v [E|[]]; injection E as <- _; lra]|]. do 4 (split; [reflexivity|]).
  assert (B0 : balance_at_time a 0 None = b) by (unfold a; rewrite bal1, accum_0; destruct (Rleb (1 / 2) 0) eqn:E; rb; lra).
  assert (B2 : balance_at_time a (1 / 2) None = D + b * accumulation_function (1 / 2) r n).
  { unfold a. rewrite bal1. replace (1 / 2 - 1 / 2) with 0 by lra. rewrite accum_0. destruct (Rleb (1 / 2) (1 / 2)) eqn:E; rb; lra. }
  split.
  - unfold shift_when. rewrite (conv_ok 0) by lra. cbn [bind]. unfold accum_account.
    assert (K : keys_with (a_txns a) 0 = [1 / 2; 0]) by (unfold keys_with, dmem; cbn [a acct a_txns dget]; destruct (Reqb 0 (1 / 2)) eqn:E; rb; [lra|reflexivity]).
    rewrite K. cbn [filter]. destruct (Rleb 0 (1 / 2)) eqn:E1; rb; [|lra]. destruct (Rleb 0 0) eqn:E2; rb; [|lra]. cbn [map].
    rewrite !at_hand_eq, B0, B2, (Rmax_left (D + _)), (Rmax_right b) by lra. set (X := D + _) in *.
    assert (S : rsort (dkeys [(1 / 2, X); (0, 0)]) = [0; 1 / 2]) by (cbn; destruct (Rleb (1 / 2) 0) eqn:E; rb; [lra|reflexivity]).
    rewrite S. cbn [interpolate]. unfold interpolate_one.
    assert (V1 : rval [(1 / 2, X); (0, 0)] (1 / 2) = X) by (unfold rval; cbn; rewrite Reqb_refl; reflexivity).
    assert (V0 : rval [(1 / 2, X); (0, 0)] 0 = 0) by (unfold rval; cbn; destruct (Reqb 0 (1 / 2)) eqn:E; rb; [lra|]; rewrite Reqb_refl; reflexivity).
    rewrite V1, V0. destruct (Rltb value X) eqn:C1; rb; [|lra]. destruct (Rltb 0 value) eqn:C2; rb; [|lra]. cbn [andb orb].
    unfold time_to_balance_top. rewrite (conv_ok 0) by lra. cbn [bind]. change (Datatypes.length (a_txns a)) with 1%nat. cbn [time_to_balance]. rewrite B0.
    unfold time_to_value. destruct (Reqb b 0) eqn:Eb; rb; [reflexivity|]. unfold accumulation_function_inverse.
    destruct (Rltb (value / b) 0) eqn:E3; rb; [reflexivity|]. exfalso. assert (value / b < 0); [|lra]. unfold Rdiv. assert (/ b < 0) by (apply Rinv_lt_0_compat; lra). nra.
  - intros s Hs. rewrite (balance_grows a (1 / 2) s); [|lra|intros k [<-|[]] Hk; cbn in Hk; lra]. rewrite B2.
    pose proof (accum_ge1 (s - 1 / 2) r n Hr ltac:(lra)) as G. change (growth a (s - 1 / 2)) with (accumulation_function (s - 1 / 2) r n). nra.
Qed.
Print Assumptions C110_empty_account_error_refuted.
(** 50 wanted at the start of the year from an account with 20 to which 100 will be paid at mid-year: taken at mid-year *)
Example C110_sat : exists a, proper a /\ rate a = 0 /\ shift_when a 50 0 = Ok (1 / 2) /\ covers a 50 (1 / 2) /\ balance_at_time a 0 None = 20.
Proof.
  set (a := acct 20 0 (Some 1%positive) [(1 / 2, 100)]). exists a. assert (Hp : proper a) by (split; [cbn; auto|intros k v [E|[]]; injection E as <- _; lra]).
  assert (B : forall t, balance_at_time a t None = if Rleb (1 / 2) t then 120 else 20) by (intros t; unfold a; rewrite bal1, !accum_zero_rate; destruct (Rleb (1 / 2) t); lra).
  assert (B0 : balance_at_time a 0 None = 20) by (rewrite B; destruct (Rleb (1 / 2) 0) eqn:E; rb; lra).
  assert (B2 : balance_at_time a (1 / 2) None = 120) by (rewrite B; destruct (Rleb (1 / 2) (1 / 2)) eqn:E; rb; lra).
  split; [exact Hp|]. split; [reflexivity|]. split; [|split; [|exact B0]].
  - unfold shift_when. rewrite (conv_ok 0) by lra. cbn [bind]. unfold accum_account.
    assert (K : keys_with (a_txns a) 0 = [1 / 2; 0]) by (unfold keys_with, dmem; cbn [a acct a_txns dget]; destruct (Reqb 0 (1 / 2)) eqn:E; rb; [lra|reflexivity]).
    rewrite K. cbn [filter]. destruct (Rleb 0 (1 / 2)) eqn:E1; rb; [|lra]. destruct (Rleb 0 0) eqn:E2; rb; [|lra]. cbn [map].
    rewrite !at_hand_eq, B0, B2, !Rmax_left by lra.
    assert (S : rsort (dkeys [(1 / 2, 120); (0, 20)]) = [0; 1 / 2]) by (cbn; destruct (Rleb (1 / 2) 0) eqn:E; rb; [lra|reflexivity]).
    rewrite S. cbn [interpolate]. unfold interpolate_one.
    assert (V1 : rval [(1 / 2, 120); (0, 20)] (1 / 2) = 120) by (unfold rval; cbn; rewrite Reqb_refl; reflexivity).
    assert (V0 : rval [(1 / 2, 120); (0, 20)] 0 = 20) by (unfold rval; cbn; destruct (Reqb 0 (1 / 2)) eqn:E; rb; [lra|]; rewrite Reqb_refl; reflexivity).
    rewrite V1, V0. destruct (Rltb 50 120) eqn:C1; rb; [|lra]. destruct (Rltb 20 50) eqn:C2; rb; [|lra]. cbn [andb orb].
    assert (T : time_to_balance_top a 50 (RNum 0) = Ok MInf).
    { unfold time_to_balance_top. rewrite (conv_ok 0) by lra. cbn [bind]. change (Datatypes.length (a_txns a)) with 1%nat. cbn [time_to_balance]. rewrite B0.
      change (rate a) with 0. unfold time_to_value at 1. destruct (Reqb 20 0) eqn:E; rb; [lra|]. rewrite inverse_zero_rate by lra.
      destruct (Reqb (50 / 20) 1) eqn:F1; rb; [lra|]. destruct (Rltb (50 / 20) 1) eqn:F2; rb; [lra|]. cbn [bind eadd].
      assert (N1 : forall dflt, next_after (a_txns a) 0 dflt = Fin (1 / 2)) by (intros; unfold next_after; cbn; destruct (Rltb 0 (1 / 2)) eqn:E3; rb; [reflexivity|lra]).
      assert (N2 : forall dflt, next_after (a_txns a) (1 / 2) dflt = dflt) by (intros; unfold next_after; cbn; destruct (Rltb (1 / 2) (1 / 2)) eqn:E3; rb; [lra|reflexivity]).
      rewrite N1. cbn [eleb negb]. rewrite B2. unfold time_to_value. destruct (Reqb 120 0) eqn:E4; rb; [lra|]. rewrite inverse_zero_rate by lra.
      destruct (Reqb (50 / 120) 1) eqn:F3; rb; [lra|]. destruct (Rltb (50 / 120) 1) eqn:F4; rb; [|lra]. cbn [bind eadd]. rewrite N2. reflexivity. }
    rewrite T. cbn [bind]. unfold earliest. cbn [dkeys map fst filter]. unfold eligible. cbn [forallb fst snd].
    repeat match goal with |- context [Rleb ?x ?y] => destruct (Rleb x y) eqn:?; rb; try lra end. reflexivity.
  - intros s Hs. rewrite B. destruct (Rleb (1 / 2) s) eqn:E; rb; lra.
Qed.

(** ** C60: accounts as sources *)
Lemma covers_ext : forall a b, (forall s, balance_at_time a s None = balance_at_time b s None) -> forall v t, covers a v t <-> covers b v t.
Proof. intros a b E v t. split; intros H s Hs; specialize (H s Hs); specialize (E s); lra. Qed.
Lemma wsum_zero : forall f d, (forall k v, In (k, v) d -> v = 0) -> wsum f d = 0.
Proof. intros f d. unfold wsum. induction d as [|[k v] d IH]; intros H; cbn [map Rsum fst snd]; [reflexivity|]. rewrite (H k v (or_introl eq_refl)), IH; [lra|]. intros k' v' Hi. apply (H k' v'). now right. Qed.
(** transactions with the same value at each time give the same sums *)
Lemma wsum_same : forall f d e, dwf Reqb d -> dwf Reqb e -> (forall k, rval d k = rval e k) -> wsum f d = wsum f e.
Proof.
  intros f d e Wd We H. set (m := fold_left (fun (b : dict R R) kv => rincr b (fst kv) (- snd kv)) e d).
  assert (G : forall e d, dwf Reqb d -> dwf Reqb e -> let m := fold_left (fun (b : dict R R) kv => rincr b (fst kv) (- snd kv)) e d in
    dwf Reqb m /\ wsum f m = wsum f d - wsum f e /\ forall k, rval m k = rval d k - rval e k).
  { clear. induction e as [|[k v] e IH]; intros d Wd We; cbn [fold_left fst snd]; cbn zeta.
    - split; [exact Wd|]. split; [unfold wsum; cbn; lra|]. intros k. unfold rval at 3. cbn. lra.
    - destruct We as [N We]. destruct (IH (rincr d k (- v)) ltac:(now apply rincr_wf) We) as (A & B & C). split; [exact A|]. split.
      + rewrite B, wsum_rincr. unfold wsum at 4. cbn [map Rsum fst snd]. unfold wsum. lra.
      + intros j. rewrite C, rval_rincr. unfold rval at 4. cbn [dget]. destruct (Reqb j k) eqn:E; [apply Reqb_t in E; subst j; unfold rval at 2; rewrite N; lra|unfold rval; lra]. }
  destruct (G e d Wd We) as (A & B & C). fold m in A, B, C.
  assert (Z : wsum f m = 0).
  { apply wsum_zero. intros k v Hi. specialize (C k). rewrite H in C. unfold rval at 1 in C. rewrite (rIn_dget m k v A Hi) in C. lra. }
  lra.
Qed.
Lemma balance_same : forall a b, proper a -> proper b -> a = with_txns b (a_txns a) -> (forall k, rval (a_txns a) k = rval (a_txns b) k) ->
  forall s, balance_at_time a s None = balance_at_time b s None.
Proof.
  intros a b [Wa _] [Wb _] E H s. rewrite !balance_at_time_eq. cbn [extra_wsum]. assert (B : a_bal a = a_bal b) by (rewrite E; reflexivity).
  assert (G : forall u, growth a u = growth b u) by (intros u; rewrite E; reflexivity). rewrite B, G.
  assert (X : wsum (fv a s) (a_txns a) = wsum (fv b s) (a_txns b)); [|lra].
  rewrite <- (wsum_same (fv b s) (a_txns a) (a_txns b) Wa Wb H). apply wsum_ext. intros k v _. unfold fv. rewrite G. reflexivity.
Qed.
Lemma take_frame : forall a x v w s a' x', proper a -> dwf Reqb x -> take (a, x) v w s = Ok (a', x') -> a' = with_txns a (a_txns a') /\ dwf Reqb x'.
Proof.
  intros a x v w s a' x' Hp Hx H. unfold take in H. destruct (if Rltb v 0 then Ok w else if s then Ok w else shift_when a v w) as [r|]; [|discriminate]. cbn [bind] in H.
  destruct (post a r (- v)) as [a1|] eqn:P; [|discriminate]. cbn [bind] in H. injection H as <- <-. split; [exact (proj1 (proj2 (post_spec _ _ _ _ Hp P)))|now apply rincr_wf].
Qed.
Lemma take_all_total : forall l a x a' x', proper a -> dwf Reqb x -> take_all (a, x) l = Ok (a', x') ->
  proper a' /\ dwf Reqb x' /\ a' = with_txns a (a_txns a') /\ forall k, rval (a_txns a') k - rval (a_txns a) k = rval x' k - rval x k.
Proof.
  induction l as [|[[v w] s] l IH]; intros a x a' x' Hp Hx H; cbn [take_all] in H.
  - injection H as <- <-. split; [exact Hp|]. split; [exact Hx|]. split; [destruct a; reflexivity|intros; lra].
  - destruct (take (a, x) v w s) as [[a1 x1]|] eqn:T; [|discriminate]. cbn [bind] in H.
    destruct (C110_taken a x v w s a1 x1 Hp T) as (r & _ & _ & Hp1 & V1 & X1 & _). destruct (take_frame a x v w s a1 x1 Hp Hx T) as [F1 W1].
    destruct (IH a1 x1 a' x' Hp1 W1 H) as (P2 & W2 & F2 & V2). split; [exact P2|]. split; [exact W2|]. split; [rewrite F2, F1; reflexivity|].
    intros k. specialize (V2 k). rewrite V1, X1 in V2. lra.
Qed.
Lemma undo_total : forall x a a', proper a -> dwf Reqb x -> undo a x = Ok a' -> proper a' /\ a' = with_txns a (a_txns a') /\ forall k, rval (a_txns a') k = rval (a_txns a) k - rval x k.
Proof.
  induction x as [|[t v] x IH]; intros a a' Hp Hx H; cbn [undo] in H.
  - injection H as <-. split; [exact Hp|]. split; [destruct a; reflexivity|intros; unfold rval at 3; cbn; lra].
  - destruct Hx as [N Hx]. destruct (post a t (- v)) as [a1|] eqn:P; [|discriminate]. cbn [bind] in H. destruct (post_spec a t (- v) a1 Hp P) as (_ & F1 & P1 & V1 & _).
    destruct (IH a1 a' P1 Hx H) as (P2 & F2 & V2). split; [exact P2|]. split; [rewrite F2, F1; reflexivity|]. intros k. rewrite V2, V1. unfold rval at 4. cbn [dget].
    destruct (Reqb k t) eqn:E; [apply Reqb_t in E; subst k; unfold rval at 2; rewrite N; lra|unfold rval; lra].
Qed.
(** two accounts that differ in times at which nothing is paid only *)
Definition same (a b : account) : Prop := proper a /\ proper b /\ a = with_txns b (a_txns a) /\ forall k, rval (a_txns a) k = rval (a_txns b) k.
Lemma shift_same : forall a b v w r r', same a b -> rate b = 0 -> 0 < v -> shift_when a v w = Ok r -> shift_when b v w = Ok r' -> r = r'.
Proof.
  intros a b v w r r' (Pa & Pb & F & V) Hr Hv Ha Hb. assert (Hra : rate a = 0) by (rewrite F; exact Hr).
  pose proof (balance_same a b Pa Pb F V) as B.
  destruct (C110_steady_account_partial a v w r Pa Hra Hv Ha) as [A1 A2]. destruct (C110_steady_account_partial b v w r' Pb Hr Hv Hb) as [B1 B2].
  pose proof (C110_not_before a v w r Pa Ha) as Ra. pose proof (C110_not_before b v w r' Pb Hb) as Rb.
  assert (Im : forall t, covers a v t <-> covers b v t) by (intros t; apply covers_ext; exact B).
  assert (Hc : (exists t, w <= t <= 1 /\ covers a v t) -> r = r').
  { intros X. assert (Y : exists t, w <= t <= 1 /\ covers b v t) by (destruct X as (t & T1 & T2); exists t; split; [exact T1|now apply Im]).
    destruct (A1 X) as (_ & C1 & M1). destruct (B1 Y) as (_ & C2 & M2). apply Rle_antisym; [apply M1; [lra|now apply Im]|apply M2; [lra|now apply Im]]. }
  destruct (Req_dec r r') as [E|N]; [exact E|exfalso].
  apply N. rewrite A2, B2; [reflexivity| |]; intros X; apply N, Hc; [|exact X]. destruct X as (t & T1 & T2). exists t. split; [exact T1|now apply Im].
Qed.
Lemma take_same : forall a b x y v w s a' x' b' y', same a b -> rate b = 0 -> v <> 0 -> take (a, x) v w s = Ok (a', x') -> take (b, y) v w s = Ok (b', y') ->
  dwf Reqb x -> dwf Reqb y -> same a' b'.
Proof.
  intros a b x y v w s a' x' b' y' Sm Hr Hv Ta Tb Wx Wy. destruct Sm as (Pa & Pb & F & V).
  destruct (C110_taken a x v w s a' x' Pa Ta) as (r & R & _ & Pa' & Va & _). destruct (C110_taken b y v w s b' y' Pb Tb) as (r' & R' & _ & Pb' & Vb & _).
  destruct (take_frame a x v w s a' x' Pa Wx Ta) as [Fa _]. destruct (take_frame b y v w s b' y' Pb Wy Tb) as [Fb _].
  assert (E : r = r').
  { destruct (Rltb v 0) eqn:E; rb; [congruence|]. destruct s; [congruence|]. refine (shift_same a b v w r r' _ Hr _ R R'); [exact (conj Pa (conj Pb (conj F V)))|lra]. }
  subst r'. split; [exact Pa'|]. split; [exact Pb'|]. split; [|intros k; rewrite Va, Vb, V; reflexivity].
  rewrite Fa, F, Fb. reflexivity.
Qed.
Lemma take_all_same : forall l a0 a x y a1 x1 a2 x2, same a0 a -> rate a = 0 -> dwf Reqb x -> dwf Reqb y -> (forall v w s, In (v, w, s) l -> v <> 0) ->
  take_all (a, x) l = Ok (a1, x1) -> take_all (a0, y) l = Ok (a2, x2) -> forall k, rval (a_txns a2) k = rval (a_txns a1) k.
Proof.
  induction l as [|[[v w] s] l IH]; intros a0 a x y a1 x1 a2 x2 Sm Hr Wx Wy Hl H1 H2; cbn [take_all] in H1, H2.
  - injection H1 as <- <-. injection H2 as <- <-. exact (proj2 (proj2 (proj2 Sm))).
  - destruct (take (a, x) v w s) as [[b1 y1]|] eqn:T1; [|discriminate]. destruct (take (a0, y) v w s) as [[b2 y2]|] eqn:T2; [|discriminate]. cbn [bind] in H1, H2.
    destruct (take_frame a x v w s b1 y1 (proj1 (proj2 Sm)) Wx T1) as [G1 G2]. destruct (take_frame a0 y v w s b2 y2 (proj1 Sm) Wy T2) as [_ G4].
    refine (IH b2 b1 y1 y2 a1 x1 a2 x2 _ _ G2 G4 (fun v' w' s' Hi => Hl v' w' s' (or_intror Hi)) H1 H2).
    + exact (take_same a0 a y x v w s b2 y2 b1 y1 Sm Hr (Hl v w s (or_introl eq_refl)) T2 T1 Wy Wx).
    + rewrite G1. exact Hr.
Qed.
(** A sub-forecast that moves money out of (and into) an account that does not grow, called again in the same year: the account's transactions are those of one call
    (if neither call raises an error). *)
Theorem C60_steady_account_partial : forall a l a1 x1 a2 x2, proper a -> rate a = 0 -> (forall v w s, In (v, w, s) l -> v <> 0) ->
  take_all (a, []) l = Ok (a1, x1) -> call_again (a1, x1) l = Ok (a2, x2) -> forall k, rval (a_txns a2) k = rval (a_txns a1) k.
Proof.
  intros a l a1 x1 a2 x2 Hp Hr Hl H1 H2. unfold call_again in H2. cbn [fst snd] in H2. destruct (undo a1 x1) as [a0|] eqn:U; [|discriminate]. cbn [bind] in H2.
  destruct (take_all_total l a [] a1 x1 Hp I H1) as (P1 & W1 & F1 & V1). destruct (undo_total x1 a1 a0 P1 W1 U) as (P0 & F0 & V0).
  assert (Sm : same a0 a).
  { split; [exact P0|]. split; [exact Hp|]. split; [rewrite F0, F1; reflexivity|]. intros k. rewrite V0. specialize (V1 k). unfold rval at 4 in V1. cbn in V1. lra. }
  exact (take_all_same l a0 a [] x1 a1 x1 a2 x2 Sm Hr I W1 Hl H1 H2).
Qed.
Print Assumptions C60_steady_account_partial.
(** computing with accounts that have transactions at the start and at the end of the year *)
Definition two (r : R) (n : option positive) (x y : R) : account := acct 100 r n [(0, x); (1, y)].
Lemma shift_alone : forall a v w, 0 <= w <= 1 -> (forall k, In k (keys_with (a_txns a) w) -> w <= k -> k = w) -> dwf Reqb (a_txns a) -> shift_when a v w = Ok w.
Proof.
  intros a v w Hw Hk Wd. unfold shift_when. rewrite (conv_ok w Hw). cbn [bind].
  destruct (accum_account a w v) as [acc|e] eqn:A.
  - cbn [bind]. f_equal. destruct (earliest_cases w v acc) as [[E _]|(Hi & _)]; [exact E|]. unfold dkeys in Hi. apply in_map_iff in Hi. destruct Hi as ([t x] & E & Hi). cbn in E. rewrite <- E.
    destruct (accum_entries a w v Hw acc A t x Hi) as [[K1 K2]|(e & l & W1 & B & Ie & Il & _)]; [now apply Hk|]. exfalso. specialize (Hk l Il ltac:(lra)). lra.
  - exfalso. unfold accum_account in A.
    assert (N : forall (l : list R), (forall k, In k l -> w <= k -> k = w) -> NoDup l -> filter (fun t => Rleb w t) l = [] \/ filter (fun t => Rleb w t) l = [w]).
    { clear. induction l as [|x l IH]; intros H Nd; cbn; [now left|]. inversion Nd as [|? ? N1 N2]; subst. destruct (Rleb w x) eqn:E; rb; [|apply IH; [intros k Hi; apply H; now right|exact N2]].
      right. assert (x = w) by (apply H; [now left|lra]). subst x. f_equal. destruct (IH (fun k Hi => H k (or_intror Hi)) N2) as [Z|Z]; [exact Z|].
      exfalso. apply N1. assert (I : In w (filter (fun t => Rleb w t) l)) by (rewrite Z; now left). apply filter_In in I. tauto. }
    assert (Nd : NoDup (keys_with (a_txns a) w)).
    { assert (D : NoDup (dkeys (a_txns a))).
      { clear -Wd. induction (a_txns a) as [|[k x] d IH]; cbn; [constructor|]. destruct Wd as [W1 W2]. constructor; [|exact (IH W2)].
        intros I. unfold dkeys in I. apply in_map_iff in I. destruct I as ([k' x'] & E & I). cbn in E. subst k'. rewrite (rIn_dget d k x' W2 I) in W1. discriminate. }
      unfold keys_with. destruct (dmem Reqb (a_txns a) w) eqn:E; [exact D|].
      clear -D E. unfold dmem in E. assert (Nw : ~ In w (dkeys (a_txns a))).
      { intros I. unfold dkeys in I. apply in_map_iff in I. destruct I as ([k x] & Ek & I). cbn in Ek. subst k. revert I E. generalize (a_txns a) as d. induction d as [|[k0 x0] d IH]; cbn; [tauto|].
        intros [I|I]; [injection I as -> ->; rewrite Reqb_refl; discriminate|]. destruct (Reqb w k0); [discriminate|exact (IH I)]. }
      revert D Nw. generalize (dkeys (a_txns a)) as l. induction l as [|y l IH]; intros D Nw; cbn; [repeat constructor; tauto|]. inversion D; subst. constructor.
      - rewrite in_app_iff. cbn. intros [I|[I|[]]]; [tauto|subst y; apply Nw; now left].
      - apply IH; [assumption|]. intros I. apply Nw. now right. }
    destruct (N _ Hk Nd) as [Z|Z]; rewrite Z in A; cbn in A; discriminate.
Qed.
Lemma reqb01 : Reqb 0 1 = false. Proof. apply Reqb_f. lra. Qed.
Lemma reqb10 : Reqb 1 0 = false. Proof. apply Reqb_f. lra. Qed.
Lemma take_all_cons : forall ax v w s l, take_all ax ((v, w, s) :: l) = let* ax := take ax v w s in take_all ax l.
Proof. reflexivity. Qed.
Theorem C60_growing_account_refuted : forall r n, 0 < r -> exists a l a1 x1 a2 x2, proper a /\ rate a = r /\ a_nper a = n /\
  take_all (a, []) l = Ok (a1, x1) /\ call_again (a1, x1) l = Ok (a2, x2) /\
  rval (a_txns a1) 0 < 0 /\ rval (a_txns a2) 0 = 0 /\ rval (a_txns a2) (1 / 2) = rval (a_txns a1) 0.
Proof.
  intros r n Hr. set (g := fun t => accumulation_function t r n). set (V := 100 * g (1 / 2)). set (a := acct 100 r n []).
  assert (G0 : g 0 = 1) by apply accum_0. pose proof (accum_mono 0 (1 / 2) r n Hr ltac:(lra)) as L. fold (g 0) (g (1 / 2)) in L. rewrite G0 in L.
  pose proof (accum_mono (1 / 2) 1 r n Hr ltac:(lra)) as L2. fold (g 1) (g (1 / 2)) in L2.
  assert (P2 : forall x y, proper (two r n x y)).
  { intros x y. split; [cbn; destruct (Reqb 0 1) eqn:E; rb; [lra|auto]|]. intros k v [E|[E|[]]]; injection E as <- _; lra. }
  (* the first call *)
  assert (S1 : shift_when a V 0 = Ok 0).
  { apply shift_alone; [lra| |exact I]. intros k Hk. apply keys_with_in in Hk. destruct Hk as [[]|Hk]. auto. }
  assert (T1 : take (a, []) V 0 false = Ok (acct 100 r n [(0, - V)], [(0, - V)])).
  { unfold take. destruct (Rltb V 0) eqn:E; rb; [unfold V in E; lra|]. rewrite S1. cbn [bind]. unfold post. rewrite (conv_ok 0) by lra. cbn [bind].
    unfold dmem, a. cbn [acct a_txns dget]. unfold setitem, dmem. cbn [acct a_txns dget]. unfold add_transaction. rewrite (conv_ok 0) by lra. cbn [bind]. unfold rincr, rval. cbn. do 2 f_equal; [|do 2 f_equal; lra].
    unfold with_txns, acct. cbn. do 3 f_equal. lra. }
  assert (S2 : shift_when (acct 100 r n [(0, - V)]) 10 1 = Ok 1).
  { apply shift_alone; [lra| |cbn; auto]. intros k Hk Hl. apply keys_with_in in Hk. destruct Hk as [[E|[]]|Hk]; [cbn in E; lra|exact Hk]. }
  assert (T2 : take (acct 100 r n [(0, - V)], [(0, - V)]) 10 1 false = Ok (two r n (- V) (- (10)), [(0, - V); (1, - (10))])).
  { unfold take. destruct (Rltb 10 0) eqn:E; rb; [lra|]. rewrite S2. cbn [bind]. unfold post. rewrite (conv_ok 1) by lra. cbn [bind].
    assert (N : Reqb 1 0 = false) by (apply Reqb_f; lra).
    unfold dmem. cbn [acct a_txns dget]. rewrite N. unfold setitem, dmem. cbn [acct a_txns dget]. rewrite N. unfold add_transaction. rewrite (conv_ok 1) by lra. cbn [bind]. unfold rincr, rval. cbn [acct a_txns dget dset]. rewrite N.
    cbn [with_txns]. unfold two, acct, with_txns. cbn. do 2 f_equal; [|do 3 f_equal; lra]. do 4 f_equal. lra. }
  (* undone *)
  assert (U : undo (two r n (- V) (- (10))) [(0, - V); (1, - (10))] = Ok (two r n 0 0)).
  { assert (N : Reqb 1 0 = false) by (apply Reqb_f; lra). assert (N' : Reqb 0 1 = false) by (apply Reqb_f; lra).
    cbn [undo]. unfold post at 1. rewrite (conv_ok 0) by lra. cbn [bind]. unfold dmem. cbn [two acct a_txns dget]. rewrite Reqb_refl.
    unfold getitem. cbn [two acct a_txns dget]. rewrite Reqb_refl. cbn [fst]. unfold setitem, dmem. cbn [two acct a_txns dget]. rewrite Reqb_refl. cbn [ddel]. rewrite Reqb_refl.
    unfold add_transaction. rewrite (conv_ok 0) by lra. cbn [bind with_txns a_txns]. unfold rincr, rval. cbn [dget dset]. rewrite N'. cbn [with_txns a_txns a_year a_bal a_rate a_nper a_timing].
    match goal with |- context [with_txns (with_txns (two r n ?x ?y) ?e) ?d] => change (with_txns (with_txns (two r n x y) e) d) with (acct 100 r n d) end.
    unfold post. rewrite (conv_ok 1) by lra. cbn [bind]. unfold dmem. cbn [acct a_txns dget]. rewrite Reqb_refl. unfold getitem. cbn [acct a_txns dget]. rewrite Reqb_refl. cbn [fst].
    unfold setitem, dmem. cbn [acct a_txns dget]. rewrite Reqb_refl. cbn [ddel]. rewrite Reqb_refl. unfold add_transaction. rewrite (conv_ok 1) by lra. cbn [bind with_txns a_txns]. unfold rincr, rval. cbn [dget dset]. rewrite N.
    unfold with_txns. cbn. unfold two, acct. do 2 f_equal. do 2 f_equal; [f_equal; lra|do 2 f_equal; lra]. }
  (* the second call *)
  assert (B0 : forall t, 0 <= t -> balance_at_time (two r n 0 0) t None = 100 * g t).
  { intros t Ht. rewrite balance_at_time_eq. cbn [two acct a_bal a_txns extra_wsum]. unfold wsum. cbn [map Rsum fst snd]. change (growth (two r n 0 0) t) with (g t). lra. }
  assert (S3 : shift_when (two r n 0 0) V 0 = Ok (1 / 2)).
  { unfold shift_when. rewrite (conv_ok 0) by lra. cbn [bind]. unfold accum_account.
    assert (K : keys_with (a_txns (two r n 0 0)) 0 = [0; 1]) by (unfold keys_with, dmem; cbn [two acct a_txns dget]; rewrite Reqb_refl; reflexivity).
    rewrite K. cbn [filter]. destruct (Rleb 0 1) eqn:E1; rb; [|lra]. destruct (Rleb 0 0) eqn:E2; rb; [|lra]. cbn [map].
    rewrite !at_hand_eq, !B0, G0, !Rmax_left by lra. unfold V in *.
    assert (S : rsort (dkeys [(0, 100 * 1); (1, 100 * g 1)]) = [0; 1]) by (cbn; destruct (Rleb 0 1) eqn:E; rb; [reflexivity|lra]).
    rewrite S. cbn [interpolate]. unfold interpolate_one.
    assert (V1 : rval [(0, 100 * 1); (1, 100 * g 1)] 1 = 100 * g 1) by (unfold rval; cbn; rewrite reqb10, Reqb_refl; reflexivity).
    assert (V0 : rval [(0, 100 * 1); (1, 100 * g 1)] 0 = 100 * 1) by (unfold rval; cbn; rewrite Reqb_refl; reflexivity).
    rewrite V1, V0. destruct (Rltb (100 * g (1 / 2)) (100 * g 1)) eqn:C1; rb; [|lra]. destruct (Rltb (100 * 1) (100 * g (1 / 2))) eqn:C2; rb; [|lra]. cbn [andb orb].
    assert (T : time_to_balance_top (two r n 0 0) (100 * g (1 / 2)) (RNum 0) = Ok (Fin (1 / 2))).
    { unfold time_to_balance_top. rewrite (conv_ok 0) by lra. cbn [bind]. change (Datatypes.length (a_txns (two r n 0 0))) with 2%nat. cbn [time_to_balance].
      rewrite B0, G0 by lra. change (rate (two r n 0 0)) with r. change (a_nper (two r n 0 0)) with n. replace (100 * 1) with 100 by lra. unfold g at 1. rewrite ttv_exact by (try apply ok_pos; lra). cbn [bind eadd].
      assert (N1 : forall dflt, next_after (a_txns (two r n 0 0)) 0 dflt = Fin 1).
      { intros. unfold next_after. cbn. destruct (Rltb 0 0) eqn:E; rb; [lra|]. destruct (Rltb 0 1) eqn:E3; rb; [reflexivity|lra]. }
      rewrite N1. cbn [eleb]. destruct (Rleb (0 + 1 / 2) 1) eqn:E; rb; [|lra]. cbn [negb]. do 2 f_equal. lra. }
    rewrite T. cbn [bind]. destruct (Rltb 0 (1 / 2)) eqn:C3; rb; [|lra]. destruct (Rltb (1 / 2) 1) eqn:C4; rb; [|lra]. cbn [andb].
    rewrite max_outflows_once by lra. cbn [bind map snd esum eadd negr].
    assert (AH : - (Rmin (- (balance_at_time (two r n 0 0) 1 None / growth (two r n 0 0) (1 - 1 / 2))) 0 + 0) = 100 * g (1 / 2)).
    { rewrite B0 by lra. change (growth (two r n 0 0) (1 - 1 / 2)) with (g (1 - 1 / 2)). replace (1 - 1 / 2) with (1 / 2) by lra.
      replace (g 1) with (g (1 / 2) * g (1 / 2)) by (unfold g; rewrite <- accum_plus; f_equal; lra).
      replace (100 * (g (1 / 2) * g (1 / 2)) / g (1 / 2)) with (100 * g (1 / 2)) by (field; lra). rewrite Rmin_left by lra. lra. }
    rewrite AH. cbn [dset]. destruct (Reqb (1 / 2) 0) eqn:D1; rb; [lra|]. destruct (Reqb (1 / 2) 1) eqn:D2; rb; [lra|].
    unfold earliest. cbn [dkeys map fst filter]. unfold eligible. cbn [forallb fst snd].
    repeat match goal with |- context [Rleb ?x ?y] => destruct (Rleb x y) eqn:?; rb; try lra end. cbn [negb orb andb fold_left].
    f_equal. unfold Rmin. destruct (Rle_dec _ _); lra. }
  assert (T3 : exists x3, take (two r n 0 0, [(0, - V); (1, - (10))]) V 0 false = Ok (acct 100 r n [(0, 0); (1, 0); (1 / 2, - V)], x3)).
  { assert (EV : Rltb V 0 = false) by (apply Rltb_f; unfold V; lra). assert (Ch : rwhen_conv (RNum (1 / 2)) = Ok (1 / 2)) by (apply conv_ok; lra).
    unfold take. rewrite EV, S3. cbn [bind]. unfold post. rewrite Ch. cbn [bind].
    assert (M0 : Reqb (1 / 2) 0 = false) by (apply Reqb_f; lra). assert (M1 : Reqb (1 / 2) 1 = false) by (apply Reqb_f; lra).
    unfold dmem. cbn [two acct a_txns dget]. rewrite M0, M1. unfold setitem, dmem. cbn [two acct a_txns dget]. rewrite M0, M1.
    unfold add_transaction. rewrite Ch. cbn [bind]. unfold rincr at 1, rval at 1. cbn [two acct a_txns dget dset]. rewrite M0, M1.
    unfold with_txns, acct. cbn [two acct a_year a_bal a_rate a_nper a_timing]. replace (0 + - V) with (- V) by lra. eexists. reflexivity. }
  destruct T3 as [x3 T3]. set (b := acct 100 r n [(0, 0); (1, 0); (1 / 2, - V)]) in *.
  assert (Pb : proper b).
  { split; [|intros k v [E|[E|[E|[]]]]; injection E as <- _; lra]. cbn. assert (Reqb 0 (1 / 2) = false) by (apply Reqb_f; lra). assert (Reqb 1 (1 / 2) = false) by (apply Reqb_f; lra).
    rewrite reqb01. rewrite H, H0. auto. }
  assert (S4 : shift_when b 10 1 = Ok 1).
  { apply shift_alone; [lra| |exact (proj1 Pb)]. intros k Hk Hl. apply keys_with_in in Hk. destruct Hk as [[E|[E|[E|[]]]]|Hk]; cbn in *; lra. }
  assert (T4 : exists a2 x2, take (b, x3) 10 1 false = Ok (a2, x2)).
  { unfold take. destruct (Rltb 10 0) eqn:E; rb; [lra|]. rewrite S4. cbn [bind]. unfold post. rewrite (conv_ok 1) by lra. cbn [bind].
    destruct (dmem Reqb (a_txns b) 1); unfold setitem, add_transaction; rewrite (conv_ok 1) by lra; cbn [bind]; eauto. }
  destruct T4 as (a2 & x2 & T4). exists a, [(V, 0, false); (10, 1, false)], (two r n (- V) (- (10))), [(0, - V); (1, - (10))], a2, x2.
  split; [split; [exact I|intros k v []]|]. split; [reflexivity|]. split; [reflexivity|].
  split; [rewrite take_all_cons, T1; cbn [bind]; rewrite take_all_cons, T2; reflexivity|].
  split; [unfold call_again; cbn [fst snd]; rewrite U; change (bind (Ok (two r n 0 0)) ?k) with (k (two r n 0 0)); cbv beta; rewrite take_all_cons; match goal with |- context [take ?p V 0 false] => replace (take p V 0 false) with (Ok (b, x3)) by (symmetry; exact T3) end; cbn [bind]; rewrite take_all_cons, T4; reflexivity|].
  destruct (C110_taken b x3 10 1 false a2 x2 Pb T4) as (t & Ht & _ & _ & Vt & _). destruct (Rltb 10 0) eqn:E; rb; [lra|]. rewrite S4 in Ht. injection Ht as <-.
  assert (R0 : rval (a_txns (two r n (- V) (- (10)))) 0 = - V) by (unfold rval; cbn; rewrite Reqb_refl; reflexivity). rewrite R0. split; [unfold V; lra|].
  split; rewrite Vt.
  - rewrite reqb01. unfold rval. cbn. rewrite Reqb_refl. lra.
  - assert (M1 : Reqb (1 / 2) 1 = false) by (apply Reqb_f; lra). assert (M0 : Reqb (1 / 2) 0 = false) by (apply Reqb_f; lra). rewrite M1. unfold rval. cbn [b acct a_txns dget]. rewrite M0, M1, Reqb_refl. lra.
Qed.
Print Assumptions C60_growing_account_refuted.

Example C60_account_sat : exists a l a1 x1 a2 x2, proper a /\ rate a = 0 /\ (forall v w s, In (v, w, s) l -> v <> 0) /\
  take_all (a, []) l = Ok (a1, x1) /\ call_again (a1, x1) l = Ok (a2, x2) /\ rval (a_txns a2) 1 = - (30).
Proof.
  set (a := acct 100 0 (Some 1%positive) []). set (b := fun x => acct 100 0 (Some 1%positive) [(1, x)]).
  assert (Sa : shift_when a 30 1 = Ok 1).
  { apply shift_alone; [lra| |exact I]. intros k Hk _. apply keys_with_in in Hk. destruct Hk as [[]|Hk]. exact Hk. }
  assert (Sb : forall x, shift_when (b x) 30 1 = Ok 1).
  { intros x. apply shift_alone; [lra| |cbn; auto]. intros k Hk _. apply keys_with_in in Hk. destruct Hk as [[E|[]]|Hk]; [symmetry; exact E|exact Hk]. }
  assert (E30 : Rltb 30 0 = false) by (apply Rltb_f; lra). assert (C1 : rwhen_conv (RNum 1) = Ok 1) by (apply conv_ok; lra).
  assert (T1 : take (a, []) 30 1 false = Ok (b (- (30)), [(1, - (30))])).
  { unfold take. rewrite E30, Sa. cbn [bind]. unfold post. rewrite C1. cbn [bind]. unfold dmem. cbn [a acct a_txns dget]. unfold setitem, dmem. cbn [a acct a_txns dget].
    unfold add_transaction. rewrite C1. cbn [bind]. unfold rincr, rval. cbn [a acct a_txns dget dset with_txns]. unfold with_txns, b, acct. cbn. do 2 f_equal; [do 3 f_equal; lra|do 2 f_equal; lra]. }
  assert (Pb : forall x v, post (b x) 1 v = Ok (b (x + v))).
  { intros x v. unfold post. rewrite C1. cbn [bind]. unfold dmem. cbn [b acct a_txns dget]. rewrite Reqb_refl. unfold getitem. cbn [b acct a_txns dget]. rewrite Reqb_refl. cbn [fst].
    unfold setitem, dmem. cbn [b acct a_txns dget]. rewrite Reqb_refl. cbn [ddel]. rewrite Reqb_refl. unfold add_transaction. rewrite C1. cbn [bind]. unfold rincr, rval, with_txns. cbn.
    unfold b, acct. do 4 f_equal. lra. }
  exists a, [(30, 1, false)], (b (- (30))), [(1, - (30))], (b (- (30) + - - (30) + - (30))), (rincr [(1, - (30))] 1 (- (30))).
  split; [split; [exact I|intros k v []]|]. split; [reflexivity|]. split; [intros v w s [E|[]]; injection E as <- _ _; lra|].
  split; [cbn [take_all]; rewrite T1; reflexivity|]. split.
  - unfold call_again. cbn [fst snd undo]. rewrite Pb. cbn [bind take_all]. unfold take. rewrite E30, Sb. cbn [bind]. rewrite Pb. reflexivity.
  - unfold rval. cbn. rewrite Reqb_refl. lra.
Qed.
