(** C114-C116: inflation adjustments, timings and accounts as they are computed, with rounding. *)
From Verif Require Import Base BaseFacts RBase RoundModel.
From Verif Require Prop_RoundTax.
From Coq Require Import Lia Sorted.
From Verif Require Import Prop_RoundTax.
Open Scope R_scope.

(** ** C114: inflation *)
(** the exact factor from [a] to [b] *)
Fixpoint compound (inflation : Z -> R) (l : list Z) : R := match l with [] => 1 | y :: r => (1 + inflation y) * compound inflation r end.

Lemma product_mono rnd : rounding rnd -> forall l a b, Forall (fun r => -1 <= r) l -> a <= b -> product rnd a l <= product rnd b l.
Proof.
  intros (M & Z & _). induction l as [|r l IH]; intros a b F L; cbn [product]; [exact L|]. inversion F; subst. apply IH; [assumption|]. apply M, Rmult_le_compat_r; [|exact L]. rewrite <- Z. apply M. lra.
Qed.
Lemma product_app rnd : forall l l' a, product rnd a (l ++ l') = product rnd (product rnd a l) l'.
Proof. induction l as [|r l IH]; intros; [reflexivity|]. cbn. apply IH. Qed.
Lemma product_fix rnd : (forall x, rnd (rnd x) = rnd x) -> forall l a, rnd a = a -> rnd (product rnd a l) = product rnd a l.
Proof. intros I. induction l as [|r l IH]; intros a H; cbn [product]; [exact H|]. apply IH, I. Qed.
Lemma product_ge rnd : rounding rnd -> rnd 1 = 1 -> forall l a, Forall (fun r => 0 <= r) l -> 0 <= a -> rnd a = a -> a <= product rnd a l.
Proof.
  intros (M & Z & I) One. induction l as [|r l IH]; intros a F P H; cbn [product]; [lra|]. inversion F; subst.
  assert (G : a <= rnd (a * rnd (1 + r))). { rewrite <- H at 1. apply M. rewrite <- (Rmult_1_r a) at 1. apply Rmult_le_compat_l; [exact P|]. rewrite <- One at 1. apply M. lra. }
  eapply Rle_trans; [exact G|]. apply IH; [assumption|lra|apply I].
Qed.
Lemma years_split a b c : (a <= b <= c)%Z -> years a c = years a b ++ years b c.
Proof.
  intros H. unfold years. replace (Z.to_nat (c - a)) with (Z.to_nat (b - a) + Z.to_nat (c - b))%nat by lia. rewrite seq_app, map_app. f_equal. cbn [plus].
  assert (G : forall n k, map (fun i => (a + Z.of_nat i)%Z) (seq (k + Z.to_nat (b - a)) n) = map (fun i => (b + Z.of_nat i)%Z) (seq k n)).
  { induction n as [|n IH]; intros k; cbn [seq map]; [reflexivity|]. f_equal; [lia|]. apply (IH (S k)). }
  apply (G _ 0%nat).
Qed.
Lemma Forall_years (P : R -> Prop) inflation a b : (forall y, P (inflation y)) -> Forall P (map inflation (years a b)).
Proof. intros H. apply Forall_forall. intros x Hx. apply in_map_iff in Hx. destruct Hx as (y & <- & _). apply H. Qed.

(** With inflation that is never negative, adjustments computed with rounding never fall from year to year: from any base year, a later
    year's factor is no smaller; they are at least 1 looking forward, at most 1 looking back, 1 for the base year itself; and a later
    base year never gives a larger factor. *)
Theorem C114_monotone : forall rnd inflation, rounding rnd -> rnd 1 = 1 -> (forall y, 0 <= inflation y) ->
  exists f, (forall target base, inflation_adjust rnd inflation target base = Ok (f target base)) /\
    (forall base, f base base = 1) /\
    (forall target target' base, (target <= target')%Z -> 0 <= f target base <= f target' base) /\
    (forall target base base', (base <= base')%Z -> f target base' <= f target base).
Proof.
  intros rnd inflation Rd One Pos. pose proof Rd as (M & Z & I).
  set (F := fun a b => product rnd 1 (map inflation (years a b))).
  assert (P1 : forall a b, 1 <= F a b) by (intros a b; apply product_ge; auto; [now apply Forall_years|lra]).
  assert (Fwd : forall a b c, (b <= c)%Z -> (a <= b)%Z -> F a b <= F a c).
  { intros a b c H1 H2. unfold F. rewrite (years_split a b c) by lia. rewrite map_app, product_app. apply product_ge; auto; [now apply Forall_years|pose proof (P1 a b) as G; unfold F in G; lra|now apply product_fix]. }
  assert (Bwd : forall a b c, (a <= b <= c)%Z -> F b c <= F a c).
  { intros a b c H. unfold F at 2. rewrite (years_split a b c) by lia. rewrite map_app, product_app. unfold F. apply product_mono; [exact Rd| |apply P1]. apply Forall_years. intros y. specialize (Pos y). lra. }
  exists (fun target base => if (base <=? target)%Z then F base target else rnd (1 / F target base)).
  assert (Same : forall y, F y y = 1) by (intros y; unfold F, years; rewrite Z.sub_diag; reflexivity).
  assert (Inv : forall x, 1 <= x -> 0 <= rnd (1 / x) <= 1).
  { intros x H. split; [rewrite <- Z; apply M; apply Rmult_le_pos; [lra|]; apply Rlt_le, Rinv_0_lt_compat; lra|]. apply Rle_trans with (rnd 1); [|rewrite One; lra]. apply M. unfold Rdiv. rewrite Rmult_1_l, <- Rinv_1. apply Rinv_le_contravar; lra. }
  assert (Dec : forall x y, 1 <= x -> x <= y -> rnd (1 / y) <= rnd (1 / x)) by (intros x y H1 H2; apply M; unfold Rdiv; rewrite !Rmult_1_l; apply Rinv_le_contravar; lra).
  split; [|split; [|split]].
  - intros t b. unfold inflation_adjust, accumulation. destruct (b <=? t)%Z; [reflexivity|]. destruct (Reqb _ 0) eqn:Q; [apply Reqb_t in Q; specialize (P1 t b); unfold F in P1; rewrite Q in P1; lra|reflexivity].
  - intros b. rewrite Z.leb_refl. apply Same.
  - intros t t' b H. destruct (Z.leb_spec b t), (Z.leb_spec b t'); try lia.
    + split; [specialize (P1 b t); lra|apply Fwd; lia].
    + destruct (Inv _ (P1 t b)). specialize (P1 b t'). lra.
    + split; [apply Inv, P1|]. apply Dec; [apply P1|]. apply Bwd. lia.
  - intros t b b' H. destruct (Z.leb_spec b' t), (Z.leb_spec b t); try lia.
    + apply Bwd. lia.
    + destruct (Inv _ (P1 t b')). specialize (P1 b t). lra.
    + apply Dec; [apply P1|]. apply Fwd; lia.
Qed.
Print Assumptions C114_monotone.

(** The factor over [n] years is within a factor (1 +- u)^(2n) of the exact one, for any inflation above -100%. *)
Lemma product_near u rnd : accurate u rnd -> forall l p e a, Forall (fun r => -1 < r) l -> near u p e a -> near u (2 * List.length l + p) (e * fold_right (fun r x => (1 + r) * x) 1 l) (product rnd a l).
Proof.
  intros A. induction l as [|r l IH]; intros p e a F N; cbn [product fold_right List.length]; [rewrite Rmult_1_r; exact N|]. inversion F; subst.
  replace (2 * S (List.length l) + p)%nat with (2 * List.length l + S (S p))%nat by lia. rewrite <- Rmult_assoc. apply IH; [assumption|]. apply near_round; [exact A|].
  assert (N1 : near u 1 (1 + r) (rnd (1 + r))) by (apply near_round; [exact A|apply near_refl; lra]). destruct N as (N0 & N2 & N3), N1 as (M0 & M2 & M3). assert (U : 0 <= u < 1) by apply A.
  split; [now apply Rmult_le_pos|]. cbn [pow] in *. assert (0 <= (1 - u) ^ p) by (apply pow_le; lra). assert (0 <= (1 + u) ^ p) by (apply pow_le; lra). split.
  - replace (e * (1 + r) * ((1 - u) * (1 - u) ^ p)) with ((e * (1 - u) ^ p) * ((1 + r) * ((1 - u) * 1))) by ring. apply Rmult_le_compat; try lra; apply Rmult_le_pos; lra.
  - replace (e * (1 + r) * ((1 + u) * (1 + u) ^ p)) with ((e * (1 + u) ^ p) * ((1 + r) * ((1 + u) * 1))) by ring. apply Rmult_le_compat; try lra.
    + eapply Rle_trans; [|exact N2]. now apply Rmult_le_pos.
    + eapply Rle_trans; [|exact M2]. apply Rmult_le_pos; lra.
Qed.
Lemma compound_fold inflation l : compound inflation l = fold_right (fun r x => (1 + r) * x) 1 (map inflation l).
Proof. induction l as [|y l IH]; cbn; [reflexivity|]. now rewrite IH. Qed.
Theorem C114_accuracy : forall u rnd inflation base target, accurate u rnd -> (forall y, -1 < inflation y) -> (base <= target)%Z ->
  let exact := compound inflation (years base target) in let n := Z.to_nat (target - base) in
  exists f g, inflation_adjust rnd inflation target base = Ok f /\ inflation_adjust rnd inflation base target = Ok g /\
    exact * (1 - u) ^ (2 * n) <= f <= exact * (1 + u) ^ (2 * n) /\ 1 - u <= f * g <= 1 + u.
Proof.
  intros u rnd inflation b t A Pos H exact n. assert (U : 0 <= u < 1) by apply A.
  pose proof (product_near u rnd A (map inflation (years b t)) 0 1 1 (Forall_years _ inflation b t Pos) (near_refl u 1 Rle_0_1)) as N.
  rewrite Rmult_1_l, <- compound_fold, map_length in N. replace (Datatypes.length (years b t)) with n in N by (unfold years; now rewrite map_length, seq_length). rewrite Nat.add_0_r in N. destruct N as (N0 & N1 & N2). fold exact in N0, N1, N2.
  set (f := product rnd 1 (map inflation (years b t))) in *.
  assert (E0 : 0 < exact). { unfold exact. clear - Pos. induction (years b t) as [|y l IH]; cbn; [lra|]. apply Rmult_lt_0_compat; [specialize (Pos y); lra|exact IH]. }
  assert (F0 : 0 < f) by (eapply Rlt_le_trans; [|exact N1]; apply Rmult_lt_0_compat; [exact E0|apply pow_lt; lra]).
  assert (Eq : inflation_adjust rnd inflation t b = Ok f) by (unfold inflation_adjust, accumulation; destruct (Z.leb_spec b t); [reflexivity|lia]).
  destruct (Z.eq_dec b t) as [-> | NE].
  - exists f, f. split; [exact Eq|]. split; [exact Eq|]. split; [auto|]. assert (f = 1) as -> by (unfold f, years; rewrite Z.sub_diag; reflexivity). lra.
  - exists f, (rnd (1 / f)). split; [exact Eq|]. split.
    + unfold inflation_adjust, accumulation. destruct (Z.leb_spec t b); [lia|]. fold f. destruct (Reqb f 0) eqn:Q; [apply Reqb_t in Q; lra|reflexivity].
    + split; [auto|]. destruct A as [_ A]. specialize (A (1 / f)). assert (I0 : 0 < 1 / f) by (apply Rmult_lt_0_compat; [lra|now apply Rinv_0_lt_compat]). rewrite (Rabs_pos_eq (1 / f)) in A by lra.
      assert (B : (1 / f) * (1 - u) <= rnd (1 / f) <= (1 / f) * (1 + u)). { unfold Rabs in A. destruct (Rcase_abs _) in A; lra. }
      assert (C : f * (1 / f) = 1) by (field; lra). split.
      * replace (1 - u) with (f * (1 / f * (1 - u))) by (rewrite <- Rmult_assoc, C; ring). apply Rmult_le_compat_l; lra.
      * replace (1 + u) with (f * (1 / f * (1 + u))) by (rewrite <- Rmult_assoc, C; ring). apply Rmult_le_compat_l; lra.
Qed.
Print Assumptions C114_accuracy.

(** ** Number types with a smallest normal number [m]: below it, results may lose all their digits *)
Definition accurate_from (m u : R) (rnd : R -> R) : Prop := 0 <= u < 1 /\ 0 <= m /\ forall x, m <= Rabs x -> Rabs (rnd x - x) <= u * Rabs x.
(** [rnd], made exact for tiny numbers: accurate everywhere, and the same as [rnd] where nothing is tiny *)
Definition patched (m : R) (rnd : R -> R) (x : R) : R := if Rltb (Rabs x) m then x else rnd x.
Lemma patched_accurate m u rnd : accurate_from m u rnd -> accurate u (patched m rnd).
Proof.
  intros (U & Hm & A). split; [exact U|]. intros x. unfold patched. destruct (Rltb (Rabs x) m) eqn:E; rb; [|apply A; lra]. replace (x - x) with 0 by ring. rewrite Rabs_R0. apply Rmult_le_pos; [lra|apply Rabs_pos].
Qed.
Lemma patched_same m rnd x : m <= Rabs x -> patched m rnd x = rnd x.
Proof. intros H. unfold patched. destruct (Rltb (Rabs x) m) eqn:E; rb; [lra|reflexivity]. Qed.
Lemma patched_0 m rnd : rnd 0 = 0 -> patched m rnd 0 = rnd 0.
Proof. intros H. unfold patched. destruct (Rltb _ _); auto. Qed.
Lemma from_bounds m u rnd x : accurate_from m u rnd -> m <= x -> x * (1 - u) <= rnd x <= x * (1 + u).
Proof. intros (U & Hm & A) H. specialize (A x). rewrite (Rabs_pos_eq x) in A by lra. specialize (A H). unfold Rabs in A. destruct (Rcase_abs _) in A; lra. Qed.

(** The same for floats: inflation that is never negative, and factors that do not overflow. *)
Lemma product_patched m rnd : rounding rnd -> rnd 1 = 1 -> m <= 1 -> forall l a, Forall (fun r => 0 <= r) l -> 1 <= a -> product (patched m rnd) a l = product rnd a l.
Proof.
  intros Rd One Hm. induction l as [|r l IH]; intros a F H; cbn [product]; [reflexivity|]. inversion F; subst. pose proof Rd as (M & Z & I).
  assert (G : 1 <= rnd (1 + r)) by (rewrite <- One at 1; apply M; lra). rewrite (patched_same m rnd (1 + r)) by (rewrite Rabs_pos_eq; lra).
  assert (G' : 1 <= a * rnd (1 + r)) by (apply Rle_trans with (1 * rnd (1 + r)); [lra|]; apply Rmult_le_compat_r; lra). rewrite patched_same by (rewrite Rabs_pos_eq; lra). apply IH; [assumption|]. rewrite <- One at 1. apply M, G'.
Qed.
Theorem C114_accuracy_floats : forall m u rnd inflation base target, rounding rnd -> accurate_from m u rnd -> rnd 1 = 1 -> m <= 1 -> (forall y, 0 <= inflation y) -> (base <= target)%Z ->
  let exact := compound inflation (years base target) in let n := Z.to_nat (target - base) in exact * (1 + u) ^ (2 * n) * m <= 1 ->
  exists f g, inflation_adjust rnd inflation target base = Ok f /\ inflation_adjust rnd inflation base target = Ok g /\
    exact * (1 - u) ^ (2 * n) <= f <= exact * (1 + u) ^ (2 * n) /\ 1 - u <= f * g <= 1 + u.
Proof.
  intros m u rnd inflation b t Rd A One Hm Pos L exact n NO. pose proof A as (U & Hm0 & _).
  destruct (C114_accuracy u (patched m rnd) inflation b t (patched_accurate m u rnd A)) as (f & g & F & G & B & C); [intros y; specialize (Pos y); lra|exact L|].
  fold n in B. fold exact in B. exists f, g.
  assert (P : product (patched m rnd) 1 (map inflation (years b t)) = product rnd 1 (map inflation (years b t))) by (apply product_patched; auto; [now apply Forall_years|lra]).
  unfold inflation_adjust, accumulation in *. destruct (Z.leb_spec b t); [|lia]. rewrite P in F. split; [exact F|]. split; [|split; assumption].
  destruct (Z.leb_spec t b).
  - assert (b = t) by lia. subst b. rewrite P in G. exact G.
  - rewrite P in G. destruct (Reqb _ 0) eqn:E; [discriminate|]. injection F as <-. injection G as <-. f_equal. symmetry. apply patched_same.
    assert (1 <= product rnd 1 (map inflation (years b t))) by (apply product_ge; auto; [now apply Forall_years|lra]).
    set (p := product rnd 1 _) in *. rewrite Rabs_pos_eq by (apply Rmult_le_pos; [lra|]; apply Rlt_le, Rinv_0_lt_compat; lra).
    apply Rmult_le_reg_r with p; [lra|]. unfold Rdiv. rewrite Rmult_1_l, Rinv_l by lra. apply Rle_trans with (exact * (1 + u) ^ (2 * n) * m); [|exact NO]. rewrite Rmult_comm. apply Rmult_le_compat_r; lra.
Qed.
Print Assumptions C114_accuracy_floats.

(** ** C115: timings *)
Lemma dset_fresh (d : list (R * R)) k v : Forall (fun x => x <> k) (dkeys d) -> dset Reqb d k v = d ++ [(k, v)].
Proof.
  induction d as [|[k' v'] d IH]; cbn; intros F; [reflexivity|]. inversion F; subst. destruct (Reqb k k') eqn:E; [apply Reqb_t in E; subst; contradiction|]. now rewrite IH.
Qed.
Definition key rnd (t : R) (n : positive) (i : nat) : R := rnd (rnd (INR i + t) / IZR (Zpos n)).
Lemma spread_all rnd t n : forall k a d, (forall i j, (i < j < a + k)%nat -> key rnd t n i < key rnd t n j) -> (forall x, In x (dkeys d) -> exists i, (i < a)%nat /\ x = key rnd t n i) ->
  spread rnd t n (seq a k) d = d ++ map (fun i => (key rnd t n i, rnd (1 / IZR (Zpos n)))) (seq a k).
Proof.
  induction k as [|k IH]; intros a d Inc D; cbn [seq spread map]; [now rewrite app_nil_r|]. fold (key rnd t n a).
  rewrite dset_fresh.
  - rewrite IH; [rewrite <- app_assoc; reflexivity| |].
    + intros i j H. apply Inc. lia.
    + intros x H. unfold dkeys in H. rewrite map_app, in_app_iff in H. destruct H as [H | [<- | []]]; [|exists a; split; [lia|reflexivity]]. destruct (D x H) as (i & L & E). exists i. split; [lia|exact E].
  - apply Forall_forall. intros x H. destruct (D x H) as (i & L & ->). specialize (Inc i a). intros E. assert (key rnd t n i < key rnd t n a) by (apply Inc; lia). lra.
Qed.
Lemma Rsum_repeat {A} (l : list A) (w : R) : Rsum (map (fun _ => w) l) = INR (List.length l) * w.
Proof. induction l as [|x l IH]; [cbn; ring|]. change (Rsum (map (fun _ => w) (x :: l))) with (w + Rsum (map (fun _ => w) l)). cbn [List.length]. rewrite IH, S_INR. ring. Qed.
(** A timing of [n] payments in the year: [n] different times, in order, all in the year, each within 2u + 4m of its exact place
    (i + t) / n; the weights are all the same, and add up to 1 within u. *)
Theorem C115_timing : forall m u rnd t n, rounding rnd -> accurate_from m u rnd -> rnd 1 = 1 -> rnd (IZR (Zpos n)) = IZR (Zpos n) -> 0 <= t <= 1 ->
  8 * u * IZR (Zpos n) <= 1 -> 8 * m * IZR (Zpos n) <= 1 ->
  let d := timing rnd t n in
  List.length d = Pos.to_nat n /\ StronglySorted Rlt (dkeys d) /\
  (forall i, (i < Pos.to_nat n)%nat -> exists k, nth_error (dkeys d) i = Some k /\ 0 <= k <= 1 /\ Rabs (k - (INR i + t) / IZR (Zpos n)) <= 2 * u + 4 * m) /\
  (exists w, 0 < w /\ forall x, In x (dvals d) -> x = w) /\ 1 - u <= Rsum (dvals d) <= 1 + u.
Proof.
  intros m u rnd t n Rd A One HN Ht Hu Hm d. pose proof Rd as (M & Z & I). pose proof A as (U & Hm0 & _).
  set (N := IZR (Zpos n)) in *. assert (N1 : 1 <= N) by (unfold N; apply IZR_le; lia). assert (NN : INR (Pos.to_nat n) = N) by (unfold N; now rewrite INR_IZR_INZ, positive_nat_Z).
  assert (m1 : m <= 1/8) by nra. assert (u1 : u <= 1/8) by nra.
  assert (Iv : 0 < / N <= 1) by (split; [apply Rinv_0_lt_compat; lra|]; apply Rmult_le_reg_l with N; [lra|]; rewrite Rinv_r; lra). assert (NI : N * / N = 1) by (apply Rinv_r; lra).
  assert (mN : 8 * m <= / N) by (apply Rmult_le_reg_l with N; [lra|]; rewrite NI; lra).
  assert (R0 : forall x, 0 <= x -> 0 <= rnd x) by (intros; rewrite <- Z; apply M; assumption).
  assert (Inc : forall i, (S i < Pos.to_nat n)%nat -> key rnd t n i < key rnd t n (S i)).
  { intros i Hi. unfold key. fold N. rewrite S_INR. assert (Li : INR i + t <= N - 1). { apply le_INR in Hi. rewrite !S_INR, NN in Hi. lra. } pose proof (pos_INR i) as Pi.
    set (x := INR i + t) in *. replace (INR i + 1 + t) with (x + 1) by (unfold x; ring). assert (0 <= x) by (unfold x; lra).
    destruct (from_bounds m u rnd (x + 1/4) A) as [_ B1]; [lra|]. destruct (from_bounds m u rnd (x + 1) A) as [B2 _]; [lra|].
    assert (C1 : rnd (rnd x / N) <= (x + 1/4) * (1 + u) * (1 + u) * / N).
    { apply Rle_trans with (rnd ((x + 1/4) * (1 + u) / N)).
      - apply M. apply Rmult_le_compat_r; [lra|]. apply Rle_trans with (rnd (x + 1/4)); [apply M; lra|exact B1].
      - replace ((x + 1 / 4) * (1 + u) * (1 + u) * / N) with ((x + 1 / 4) * (1 + u) / N * (1 + u)) by (field; lra). apply (from_bounds m u rnd); [exact A|]. unfold Rdiv. apply Rle_trans with (1 * (2 * m)); [lra|]. rewrite Rmult_1_l. apply Rle_trans with (1/4 * / N); [lra|]. apply Rmult_le_compat_r; [lra|]. nra. }
    assert (C2 : (x + 1) * (1 - u) * (1 - u) * / N <= rnd (rnd (x + 1) / N)).
    { apply Rle_trans with (rnd ((x + 1) * (1 - u) / N)).
      - replace ((x + 1) * (1 - u) * (1 - u) * / N) with ((x + 1) * (1 - u) / N * (1 - u)) by (field; lra). apply (from_bounds m u rnd); [exact A|]. unfold Rdiv. apply Rle_trans with (1/2 * / N); [lra|]. apply Rmult_le_compat_r; [lra|]. nra.
      - apply M. apply Rmult_le_compat_r; lra. }
    eapply Rle_lt_trans; [exact C1|]. eapply Rlt_le_trans; [|exact C2]. apply Rmult_lt_compat_r; [lra|].
    assert (x * (4 * u) <= (N - 1) * (4 * u)) by (apply Rmult_le_compat_r; lra). nra. }
  assert (Incs : forall j i, (i < j < Pos.to_nat n)%nat -> key rnd t n i < key rnd t n j).
  { induction j as [|j IH]; intros i H; [lia|]. destruct (Nat.eq_dec i j) as [-> |]; [apply Inc; lia|]. eapply Rlt_trans; [apply IH; lia|apply Inc; lia]. }
  assert (D : d = map (fun i => (key rnd t n i, rnd (1 / N))) (seq 0 (Pos.to_nat n))) by (unfold d, timing; rewrite spread_all; [reflexivity| |intros x []]; intros; apply Incs; lia).
  assert (K : dkeys d = map (key rnd t n) (seq 0 (Pos.to_nat n))) by (rewrite D; unfold dkeys; now rewrite map_map).
  assert (V : dvals d = map (fun _ => rnd (1 / N)) (seq 0 (Pos.to_nat n))) by (rewrite D; unfold dvals; now rewrite map_map).
  assert (W : 1 / N * (1 - u) <= rnd (1 / N) <= 1 / N * (1 + u)) by (apply (from_bounds m u rnd); [exact A|]; unfold Rdiv; lra).
  split; [rewrite D, map_length, seq_length; reflexivity|]. split; [|split; [|split]].
  - rewrite K. clear - Incs. assert (G : forall k a, (a + k <= Pos.to_nat n)%nat -> StronglySorted Rlt (map (key rnd t n) (seq a k))).
    { induction k as [|k IH]; intros a H; cbn [seq map]; constructor; [apply IH; lia|]. apply Forall_forall. intros x Hx. apply in_map_iff in Hx. destruct Hx as (j & <- & Hj). apply in_seq in Hj. apply Incs. lia. }
    apply G. lia.
  - intros i Hi. exists (key rnd t n i). split; [rewrite K, nth_error_map, nth_error_nth' with (d := 0%nat) by (rewrite seq_length; lia); cbn; now rewrite seq_nth by lia|].
    assert (Li : INR i + t <= N). { apply (le_INR (S i)) in Hi. rewrite S_INR, NN in Hi. lra. } pose proof (pos_INR i) as Pi. unfold key. fold N. set (x := INR i + t) in *. assert (0 <= x) by (unfold x; lra).
    assert (E : forall x, 0 <= x -> Rabs (rnd x - x) <= u * x + 2 * m).
    { intros y Hy. destruct (Rle_lt_dec m y) as [L | L]; [pose proof (from_bounds m u rnd y A L); unfold Rabs; destruct (Rcase_abs _); lra|].
      pose proof (from_bounds m u rnd m A (Rle_refl m)) as [_ B]. assert (rnd y <= rnd m) by (apply M; lra). pose proof (R0 y Hy). assert (m * u <= m * 1) by (apply Rmult_le_compat_l; lra). assert (0 <= u * y) by (apply Rmult_le_pos; lra). unfold Rabs. destruct (Rcase_abs _); lra. }
    assert (Y : 0 <= rnd x <= N) by (split; [now apply R0|]; rewrite <- HN; now apply M).
    assert (Q : 0 <= rnd x / N <= 1). { split; [apply Rmult_le_pos; lra|]. unfold Rdiv. rewrite <- NI. apply Rmult_le_compat_r; lra. }
    split; [split; [apply R0; lra|]; rewrite <- One; apply M; lra|].
    pose proof (E x ltac:(lra)) as E1. pose proof (E (rnd x / N) ltac:(lra)) as E2.
    replace (rnd (rnd x / N) - x / N) with ((rnd (rnd x / N) - rnd x / N) + (rnd x - x) * / N) by (field; lra).
    eapply Rle_trans; [apply Rabs_triang|]. rewrite Rabs_mult, (Rabs_pos_eq (/ N)) by lra.
    assert (u * (rnd x / N) <= u * 1) by (apply Rmult_le_compat_l; lra).
    assert (Rabs (rnd x - x) * / N <= u + 2 * m). { apply Rle_trans with ((u * x + 2 * m) * / N); [apply Rmult_le_compat_r; lra|]. apply Rle_trans with ((u * N + 2 * m * N) * / N); [|replace ((u * N + 2 * m * N) * / N) with ((u + 2 * m) * (N * / N)) by ring; rewrite NI; lra]. apply Rmult_le_compat_r; [lra|]. nra. }
    lra.
  - exists (rnd (1 / N)). split; [unfold Rdiv in *; nra|]. intros x Hx. rewrite V in Hx. apply in_map_iff in Hx. destruct Hx as (_ & <- & _). reflexivity.
  - rewrite V, Rsum_repeat, seq_length, NN. unfold Rdiv in W. rewrite Rmult_1_l in W. split.
    + replace (1 - u) with (N * (/ N * (1 - u))) by (rewrite <- Rmult_assoc, NI; ring). apply Rmult_le_compat_l; unfold Rdiv; rewrite ?Rmult_1_l; lra.
    + replace (1 + u) with (N * (/ N * (1 + u))) by (rewrite <- Rmult_assoc, NI; ring). apply Rmult_le_compat_l; unfold Rdiv; rewrite ?Rmult_1_l; lra.
Qed.
Print Assumptions C115_timing.

Lemma Rabs_def2_le x a : Rabs x <= a -> - a <= x <= a.
Proof. unfold Rabs. destruct (Rcase_abs x); lra. Qed.
Lemma accurate_factor u rnd x : accurate u rnd -> exists d, Rabs d <= u /\ rnd x = x * (1 + d).
Proof.
  intros [U A]. specialize (A x). destruct (Req_dec x 0) as [-> | H].
  - exists 0. rewrite Rabs_R0 in *. split; [lra|]. rewrite Rmult_0_r, Rminus_0_r in A. assert (rnd 0 = 0) as -> by (destruct (Req_dec (rnd 0) 0) as [|G]; [assumption|]; apply Rabs_pos_lt in G; lra). ring.
  - exists ((rnd x - x) / x). split; [|field; exact H]. unfold Rdiv. rewrite Rabs_mult, Rabs_inv. apply Rabs_pos_lt in H. apply Rmult_le_reg_r with (Rabs x); [exact H|]. rewrite Rmult_assoc, Rinv_l by lra. lra.
Qed.
Lemma patched_fixed m rnd x : rnd x = x -> patched m rnd x = rnd x.
Proof. intros H. unfold patched. destruct (Rltb _ _); congruence. Qed.
Lemma bernoulli u n : 0 <= u <= 1 -> 1 - INR n * u <= (1 - u) ^ n.
Proof.
  intros U. induction n as [|n IH]; [cbn; lra|]. rewrite S_INR. cbn [pow]. pose proof (pos_INR n). assert (0 <= (1 - u) ^ n) by (apply pow_le; lra).
  destruct (Rle_lt_dec (1 - INR n * u) 0) as [L | L]; [apply Rle_trans with 0; [|apply Rmult_le_pos; lra]; lra|].
  apply Rle_trans with ((1 - u) * (1 - INR n * u)); [nra|]. apply Rmult_le_compat_l; lra.
Qed.
Lemma pow_pair u n : 0 <= u < 1 -> (1 + u) ^ n * (1 - u) ^ n <= 1.
Proof. intros U. rewrite <- Rpow_mult_distr. assert (H : ((1 + u) * (1 - u)) ^ n <= 1 ^ n) by (apply pow_incr; split; [apply Rmult_le_pos|]; nra). now rewrite pow1 in H. Qed.
Lemma sum_near u rnd : accurate u rnd -> forall l e s p, Forall (Rle 0) l -> near u p e s -> near u (p + List.length l) (e + Rsum l) (fold_left (fun s v => rnd (s + v)) l s).
Proof.
  intros A. assert (U : 0 <= u < 1) by apply A. induction l as [|x l IH]; intros e s p F N; cbn [fold_left List.length].
  - rewrite Nat.add_0_r. change (Rsum []) with 0. rewrite Rplus_0_r. exact N.
  - inversion F; subst. replace (p + S (List.length l))%nat with (S p + List.length l)%nat by lia. change (Rsum (x :: l)) with (x + Rsum l). rewrite <- Rplus_assoc. apply IH; [assumption|]. apply near_round; [exact A|]. apply near_plus; [exact N|]. apply (near_more u 0); [exact U|lia|now apply near_refl].
Qed.
Lemma sum_patched m rnd : rounding rnd -> forall l s, Forall (fun x => x = 0 \/ 0 < x /\ m <= x) l -> 0 <= s -> rnd s = s ->
  fold_left (fun s v => patched m rnd (s + v)) l s = fold_left (fun s v => rnd (s + v)) l s.
Proof.
  intros (M & Z & I). induction l as [|x l IH]; intros s F P H; cbn [fold_left]; [reflexivity|]. inversion F as [|? ? F1 F2]; subst.
  assert (E : patched m rnd (s + x) = rnd (s + x)). { destruct F1 as [-> | [F1 F3]]; [rewrite Rplus_0_r; now apply patched_fixed|]. apply patched_same. rewrite Rabs_pos_eq by lra. lra. }
  rewrite E. apply IH; [assumption| |apply I]. rewrite <- Z. apply M. destruct F1 as [-> | F1]; lra.
Qed.
(** no underflow: a weight that is not 0, and its part of the total and of the amount, are not below the normal numbers *)
Definition ample (m : R) (d : list (R * R)) (scalar : R) : Prop :=
  forall k w, In (k, w) d -> w = 0 \/ 0 < w /\ m <= w /\ 4 * m * Rsum (dvals d) <= w /\ (scalar = 0 \/ 4 * m * Rsum (dvals d) <= w * Rabs scalar).
(** An amount spread over a timing of [n] entries: an entry for each time, whose share of the amount is the weight's share of the total
    weight up to a relative error (2n + 3)u; and the parts add up to the amount up to the same error. *)
Theorem C115_time_series : forall m u rnd d scalar, rounding rnd -> accurate_from m u rnd -> 0 < Rsum (dvals d) -> 8 * u * INR (List.length d) <= 1 -> ample m d scalar ->
  let small := (2 * INR (List.length d) + 3) * u in
  exists s, time_series rnd d scalar = Ok s /\
    Forall2 (fun kw kp => fst kp = fst kw /\ Rabs (snd kp - scalar * (snd kw / Rsum (dvals d))) <= small * (Rabs scalar * (snd kw / Rsum (dvals d)))) d s /\
    Rabs (Rsum (dvals s) - scalar) <= small * Rabs scalar.
Proof.
  intros m u rnd d scalar Rd A W0 Hu Am small. pose proof A as (U & Hm0 & _). pose proof Rd as (M & Z & I).
  pose proof (patched_accurate m u rnd A) as PA. set (r' := patched m rnd) in *.
  set (n := List.length d) in *. set (W := Rsum (dvals d)) in *. set (N := rsum rnd (dvals d)).
  assert (n1 : 1 <= INR n). { unfold n. destruct d as [|kv d]; [unfold W in W0; cbn in W0; lra|]. cbn [List.length]. rewrite S_INR. pose proof (pos_INR (List.length d)). lra. }
  assert (u1 : u <= 1/8) by nra.
  assert (FV : Forall (fun x => x = 0 \/ 0 < x /\ m <= x) (dvals d)). { apply Forall_forall. intros x Hx. apply in_map_iff in Hx. destruct Hx as ([k w] & <- & Hx). destruct (Am k w Hx) as [-> | (H1 & H2 & _)]; [now left|right; auto]. }
  assert (NW : near u n W N).
  { assert (E : N = rsum r' (dvals d)) by (unfold N, rsum, r'; symmetry; apply sum_patched; auto; lra). rewrite E. replace n with (0 + List.length (dvals d))%nat by (unfold dvals; now rewrite map_length). replace W with (0 + W) by ring. apply sum_near; [exact PA| |apply near_refl; lra]. eapply Forall_impl; [|exact FV]. cbn. intros x [-> | [H _]]; lra. }
  destruct NW as (_ & NL & NH). pose proof (bernoulli u n ltac:(lra)) as Be. pose proof (pow_pair u n U) as Pp.
  set (c := 1 - INR n * u) in *. assert (C1 : 7/8 <= c) by (unfold c; lra). assert (Q1 : 0 < (1 + u) ^ n) by (apply pow_lt; lra).
  assert (N1 : W * c <= N). { eapply Rle_trans; [|exact NL]. apply Rmult_le_compat_l; lra. }
  assert (N2 : N * c <= W). { apply Rle_trans with (W * (1 + u) ^ n * c); [apply Rmult_le_compat_r; lra|]. rewrite Rmult_assoc. rewrite <- (Rmult_1_r W) at 2. apply Rmult_le_compat_l; [lra|]. apply Rle_trans with ((1 + u) ^ n * (1 - u) ^ n); [|exact Pp]. apply Rmult_le_compat_l; lra. }
  assert (N0 : 0 < N) by (assert (0 < W * c) by (apply Rmult_lt_0_compat; lra); lra).
  set (part := fun kv : R * R => (fst kv, rnd (rnd (snd kv / N) * scalar))). exists (map part d).
  assert (each : forall k w, In (k, w) d -> Rabs (rnd (rnd (w / N) * scalar) - scalar * (w / W)) <= small * (Rabs scalar * (w / W))).
  { intros k w Hin. destruct (Am k w Hin) as [-> | (w0 & w1 & w2 & w3)].
    - unfold Rdiv. rewrite !Rmult_0_l, Z, Rmult_0_l, Z. rewrite !Rmult_0_r. replace (0 - 0) with 0 by ring. rewrite Rabs_R0. lra.
    - fold W in w2, w3. assert (Nc : N <= 2 * W) by nra. assert (WI : 0 < / W) by now apply Rinv_0_lt_compat. assert (NIp : 0 < / N) by now apply Rinv_0_lt_compat.
      assert (q1 : w / (2 * W) <= w / N) by (apply Rmult_le_compat_l; [lra|]; apply Rinv_le_contravar; lra).
      assert (q2 : 4 * m <= w / W) by (apply Rmult_le_reg_r with W; [lra|]; replace (w / W * W) with w by (field; lra); lra).
      assert (q3 : w / (2 * W) = (w / W) / 2) by (field; lra).
      assert (E1 : rnd (w / N) = r' (w / N)) by (unfold r'; symmetry; apply patched_same; rewrite Rabs_pos_eq; lra).
      destruct (from_bounds m u rnd (w / N) A ltac:(lra)) as [L1 _].
      assert (E2 : rnd (rnd (w / N) * scalar) = r' (rnd (w / N) * scalar)).
      { unfold r'. symmetry. destruct w3 as [-> | w3]; [rewrite Rmult_0_r; now apply patched_0|]. apply patched_same. rewrite Rabs_mult.
        assert (q4 : 4 * m <= w / W * Rabs scalar) by (apply Rmult_le_reg_r with W; [lra|]; replace (w / W * Rabs scalar * W) with (w * Rabs scalar) by (field; lra); lra).
        pose proof (Rabs_pos scalar). assert (w / W / 4 <= rnd (w / N)) by nra. rewrite (Rabs_pos_eq (rnd (w / N))) by (assert (0 < w / W) by (apply Rmult_lt_0_compat; lra); lra).
        apply Rle_trans with (w / W / 4 * Rabs scalar); [lra|]. apply Rmult_le_compat_r; lra. }
      rewrite E2. destruct (accurate_factor u r' (rnd (w / N) * scalar) PA) as (d2 & D2 & ->). rewrite E1. destruct (accurate_factor u r' (w / N) PA) as (d1 & D1 & ->).
      set (F := W / N * (1 + d1) * (1 + d2)).
      replace (w / N * (1 + d1) * scalar * (1 + d2) - scalar * (w / W)) with (scalar * (w / W) * (F - 1)) by (unfold F; field; lra).
      rewrite Rabs_mult, Rmult_comm. rewrite Rabs_mult. assert (S0 : 0 <= w / W) by lra. rewrite (Rabs_pos_eq (w / W)) by exact S0. apply Rmult_le_compat_r; [apply Rmult_le_pos; [apply Rabs_pos|exact S0]|].
      assert (G1 : c <= W / N) by (apply Rmult_le_reg_r with N; [exact N0|]; unfold Rdiv; rewrite Rmult_assoc, Rinv_l by lra; lra).
      assert (G2 : W / N * c <= 1) by (apply Rmult_le_reg_r with N; [exact N0|]; replace (W / N * c * N) with (W * c) by (field; lra); lra).
      apply Rabs_def2_le in D1, D2. unfold F. set (x := W / N) in *. clearbody x.
      assert (X : x <= 1 + 8/7 * (INR n * u)) by (unfold c in *; nra).
      assert (Y1 : (1 - u) * (1 - u) <= (1 + d1) * (1 + d2)) by (apply Rmult_le_compat; lra).
      assert (Y2 : (1 + d1) * (1 + d2) <= (1 + u) * (1 + u)) by (apply Rmult_le_compat; lra).
      rewrite Rmult_assoc. set (y := (1 + d1) * (1 + d2)) in *. clearbody y. set (v := INR n * u) in *. assert (Vu : u <= v) by (unfold v; nra). assert (V8 : v <= 1/8) by (unfold v; lra).
      assert (Sm : small = 2 * v + 3 * u) by (unfold small, v; ring). rewrite Sm. assert (cv : c = 1 - v) by (unfold c, v; ring). rewrite cv in *. clearbody v. clear - U u1 Vu V8 G1 X Y1 Y2.
      assert (y0 : 1 - 2 * u <= y <= 1 + 17/8 * u) by nra. apply Rabs_le. split; nra. }
  split; [|split].
  - unfold time_series. fold N. destruct (Reqb N 0) eqn:E; [apply Reqb_t in E; lra|]. reflexivity.
  - clearbody small W N n. clear - each. induction d as [|[k w] d IH]; cbn [map]; constructor.
    + cbn. split; [reflexivity|]. apply (each k w). now left.
    + apply IH. intros k' w' H. apply (each k' w'). now right.
  - replace scalar with (Rsum (map (fun w => scalar * (w / W)) (dvals d))) at 1.
    2: { unfold W. assert (G : forall l, Rsum (map (fun w => scalar * (w / W)) l) = scalar * (Rsum l / W)) by (induction l as [|x l IH]; cbn [map]; [unfold Rsum; cbn; unfold Rdiv; ring|]; change (Rsum (?a :: ?b)) with (a + Rsum b); rewrite IH; change (Rsum (x :: l)) with (x + Rsum l); unfold Rdiv; ring). fold W. rewrite G. fold W. unfold Rdiv. rewrite Rinv_r by lra. ring. }
    replace (Rabs scalar) with (Rsum (map (fun w => Rabs scalar * (w / W)) (dvals d))).
    2: { assert (G : forall l, Rsum (map (fun w => Rabs scalar * (w / W)) l) = Rabs scalar * (Rsum l / W)) by (induction l as [|x l IH]; cbn [map]; [unfold Rsum; cbn; unfold Rdiv; ring|]; change (Rsum (?a :: ?b)) with (a + Rsum b); rewrite IH; change (Rsum (x :: l)) with (x + Rsum l); unfold Rdiv; ring). rewrite G. fold W. unfold Rdiv. rewrite Rinv_r by lra. ring. }
    clearbody small W N n. clear - each. induction d as [|[k w] d IH]; [cbn; unfold Rsum; cbn; replace (0 - 0) with 0 by ring; rewrite Rabs_R0; lra|].
    cbn [map dvals snd fst part]. unfold dvals in *. cbn [map snd]. unfold part at 1. cbn [snd]. change (Rsum (?a :: ?b)) with (a + Rsum b). rewrite Rmult_plus_distr_l.
    match goal with |- Rabs (?a + ?b - (?c + ?e)) <= _ => replace (a + b - (c + e)) with ((a - c) + (b - e)) by ring end. eapply Rle_trans; [apply Rabs_triang|]. apply Rplus_le_compat; [apply (each k w); now left|]. apply IH. intros k' w' H. apply (each k' w'). now right.
Qed.
Print Assumptions C115_time_series.

(** ** C116: accounts *)
(** what is known of the power function: not negative; at least 1 for a base of at least 1 and an exponent that is not negative *)
Definition power_ok (pw : R -> R -> R) : Prop := (forall b x, 0 <= b -> 0 <= pw b x) /\ forall b x, 1 <= b -> 0 <= x -> 1 <= pw b x.
(** an account whose numbers are numbers of the type in use, whose transactions are in the year, and whose rate is above -100% per period *)
Definition sound rnd (e : R) (a : raccount) : Prop :=
  rnd (r_bal a) = r_bal a /\ dwf Reqb (r_txns a) /\ (forall k v, In (k, v) (r_txns a) -> 0 <= k <= 1 /\ rnd v = v) /\
  1 <= e /\ match r_nper a with None => True | Some n => -1 <= r_rate a / IZR (Zpos n) end.

Lemma growth_nonneg rnd pw e a t : rounding rnd -> rnd (-1) = -1 -> power_ok pw -> sound rnd e a -> 0 <= growth rnd pw e (r_rate a) (r_nper a) t.
Proof.
  intros (M & Z & I) N1 [P _] (_ & _ & _ & E & S). unfold growth. destruct (r_nper a); apply P; [|lra]. rewrite <- Z. apply M. assert (rnd (-1) <= rnd (r_rate a / IZR (Zpos p))) by now apply M. lra.
Qed.
Lemma growth_ge1 rnd pw e a t : rounding rnd -> rnd 1 = 1 -> power_ok pw -> sound rnd e a -> 0 <= r_rate a -> 0 <= t -> 1 <= growth rnd pw e (r_rate a) (r_nper a) t.
Proof.
  intros (M & Z & I) One [_ P] (_ & _ & _ & E & _) H Ht. unfold growth. assert (R0 : forall x, 0 <= x -> 0 <= rnd x) by (intros; rewrite <- Z; now apply M).
  destruct (r_nper a).
  - assert (0 < / IZR (Zpos p)) by (apply Rinv_0_lt_compat; apply IZR_lt; lia). assert (0 <= IZR (Zpos p)) by (apply IZR_le; lia). apply P; [|apply R0, Rmult_le_pos; assumption]. rewrite <- One at 1. apply M. assert (0 <= rnd (r_rate a / IZR (Zpos p))) by (apply R0, Rmult_le_pos; lra). lra.
  - apply P; [exact E|]. apply R0. now apply Rmult_le_pos.
Qed.

(** The balance an account gives for the end of the year is, to the last digit, what it opens the next year with, when the rate stays. *)
Theorem C116_year_end : forall rnd pw e a, sound rnd e a -> r_bal (next_year rnd pw e a (r_rate a)) = balance_at_time rnd pw e a 1.
Proof.
  intros rnd pw e a (_ & _ & T & _). unfold next_year, next_balance, balance_at_time. cbn [r_bal]. f_equal. symmetry. clear - T. revert T. generalize (r_txns a) as l. induction l as [|[k v] l IH]; intros T; cbn [filter fst]; [reflexivity|].
  destruct (Rleb k 1) eqn:E; [rewrite IH; [reflexivity|]; intros k' v' H; apply T; now right|]. apply Rleb_f in E. specialize (T k v (or_introl eq_refl)). lra.
Qed.
Print Assumptions C116_year_end.

Section Fold.
  Variable rnd : R -> R.
  Hypothesis Rd : rounding rnd.
  (** adding up [f k v] for the transactions a test accepts *)
  Definition total (f : R -> R -> R) (test : R -> bool) (l : list (R * R)) (s : R) : R :=
    fold_left (fun s kv => rnd (s + f (fst kv) (snd kv))) (filter (fun kv => test (fst kv)) l) s.
  Lemma total_cons f test k v l s : total f test ((k, v) :: l) s = total f test l (if test k then rnd (s + f k v) else s).
  Proof. unfold total. cbn [filter fst]. destruct (test k); reflexivity. Qed.
  Lemma total_mono f test : forall l s s', s <= s' -> total f test l s <= total f test l s'.
  Proof. destruct Rd as (M & _). induction l as [|[k v] l IH]; intros s s' H; [exact H|]. rewrite !total_cons. apply IH. destruct (test k); [apply M|]; lra. Qed.
  Lemma total_set f test t v : (forall x y, x <= y -> f t x <= f t y) -> f t 0 = 0 -> forall l s, rnd s = s -> dwf Reqb l -> rval l t <= v -> total f test l s <= total f test (dset Reqb l t v) s.
  Proof.
    intros Fm F0. destruct Rd as (M & Z & I). induction l as [|[k x] l IH]; intros s Hs W H; cbn [dset].
    - rewrite total_cons. unfold rval in H. cbn in H. unfold total. cbn. destruct (test t); [|lra]. rewrite <- Hs at 1. apply M. specialize (Fm 0 v H). rewrite F0 in Fm. lra.
    - unfold rval in H. cbn in H. destruct W as [W1 W2]. destruct (Reqb t k) eqn:E.
      + apply Reqb_t in E. subst k. rewrite !total_cons. apply total_mono. destruct (test t); [apply M; specialize (Fm x v H)|]; lra.
      + rewrite !total_cons. apply IH; auto. destruct (test k); auto.
  Qed.
  Lemma total_set_le f test t v : (forall x y, x <= y -> f t x <= f t y) -> f t 0 = 0 -> forall l s, rnd s = s -> dwf Reqb l -> v <= rval l t -> total f test (dset Reqb l t v) s <= total f test l s.
  Proof.
    intros Fm F0. destruct Rd as (M & Z & I). induction l as [|[k x] l IH]; intros s Hs W H; cbn [dset].
    - rewrite total_cons. unfold rval in H. cbn in H. unfold total. cbn. destruct (test t); [|lra]. rewrite <- Hs at 2. apply M. specialize (Fm v 0 H). rewrite F0 in Fm. lra.
    - unfold rval in H. cbn in H. destruct W as [W1 W2]. destruct (Reqb t k) eqn:E.
      + apply Reqb_t in E. subst k. rewrite !total_cons. apply total_mono. destruct (test t); [apply M; specialize (Fm v x H)|]; lra.
      + rewrite !total_cons. apply IH; auto. destruct (test k); auto.
  Qed.
  Lemma total_set_other f test t v : test t = false -> forall l s, total f test (dset Reqb l t v) s = total f test l s.
  Proof.
    intros Ht. induction l as [|[k x] l IH]; intros s; cbn [dset]; [rewrite total_cons, Ht; reflexivity|]. destruct (Reqb t k) eqn:E; [apply Reqb_t in E; subst k; now rewrite !total_cons, Ht|]. rewrite !total_cons. apply IH.
  Qed.
  Lemma total_ge f test : forall l s, rnd s = s -> (forall k v, In (k, v) l -> test k = true -> 0 <= f k v) -> s <= total f test l s.
  Proof.
    destruct Rd as (M & Z & I). induction l as [|[k v] l IH]; intros s Hs F; [unfold total; cbn; lra|]. rewrite total_cons.
    destruct (test k) eqn:T; [|apply IH; auto; intros; apply F; auto; now right]. apply Rle_trans with (rnd (s + f k v)); [|apply IH; auto; intros; apply F; auto; now right]. rewrite <- Hs at 1. apply M. specialize (F k v (or_introl eq_refl) T). lra.
  Qed.
  Lemma total_rising f g test test' : (forall k, test k = true -> test' k = true) -> forall l s s', rnd s' = s' -> s <= s' ->
    (forall k v, In (k, v) l -> test k = true -> f k v <= g k v) -> (forall k v, In (k, v) l -> test' k = true -> 0 <= g k v) -> total f test l s <= total g test' l s'.
  Proof.
    intros T. destruct Rd as (M & Z & I). induction l as [|[k v] l IH]; intros s s' Hs L F G; [exact L|]. rewrite !total_cons.
    destruct (test k) eqn:T1.
    - rewrite (T k T1). apply IH; auto; [apply M; specialize (F k v (or_introl eq_refl) T1); lra| |]; intros; [apply F|apply G]; auto; now right.
    - assert (F' : forall k v, In (k, v) l -> test k = true -> f k v <= g k v) by (intros; apply F; auto; now right). assert (G' : forall k v, In (k, v) l -> test' k = true -> 0 <= g k v) by (intros; apply G; auto; now right).
      destruct (test' k) eqn:T2; [|now apply IH]. apply IH; auto. apply Rle_trans with s'; [exact L|]. rewrite <- Hs at 1. apply M. specialize (G k v (or_introl eq_refl) T2). lra.
  Qed.
End Fold.
Lemma balance_total rnd pw e a t : balance_at_time rnd pw e a t = total rnd (fun k v => value_at_time rnd pw e v (r_rate a) k t (r_nper a)) (fun k => Rleb k t) (r_txns a) (value_at_time rnd pw e (r_bal a) (r_rate a) 0 t (r_nper a)).
Proof. reflexivity. Qed.

(** A deposit never lowers the balance at any time of the year and a withdrawal never raises it; neither changes the balance before it. *)
Theorem C116_transactions : forall rnd pw e a v t t', rounding rnd -> rnd (-1) = -1 -> power_ok pw -> sound rnd e a -> 0 <= t <= 1 ->
  let before := balance_at_time rnd pw e a t' in let after := balance_at_time rnd pw e (add_transaction rnd a v t) t' in
  (0 <= v -> before <= after) /\ (v <= 0 -> after <= before) /\ (t' < t -> after = before).
Proof.
  intros rnd pw e a v t t' Rd N1 P S Ht before after. pose proof S as (_ & W & T & _). pose proof Rd as (M & Z & I). unfold before, after. rewrite !balance_total. cbn [add_transaction r_bal r_rate r_nper r_txns].
  assert (Rv : rnd (rval (r_txns a) t) = rval (r_txns a) t). { unfold rval. destruct (dget Reqb (r_txns a) t) as [x|] eqn:G; [|exact Z]. apply rdget_In in G. apply (T t x G). }
  assert (Fm : forall x y, x <= y -> value_at_time rnd pw e x (r_rate a) t t' (r_nper a) <= value_at_time rnd pw e y (r_rate a) t t' (r_nper a)).
  { intros x y H. unfold value_at_time. apply M. apply Rmult_le_compat_r; [now apply growth_nonneg|exact H]. }
  assert (F0 : value_at_time rnd pw e 0 (r_rate a) t t' (r_nper a) = 0) by (unfold value_at_time; rewrite Rmult_0_l; exact Z).
  split; [|split].
  - intros Hv. apply total_set; auto; [unfold value_at_time; apply I|]. rewrite <- Rv at 1. apply M. lra.
  - intros Hv. apply total_set_le; auto; [unfold value_at_time; apply I|]. rewrite <- Rv at 2. apply M. lra.
  - intros L. apply total_set_other. destruct (Rleb t t') eqn:E; rb; [lra|reflexivity].
Qed.
Print Assumptions C116_transactions.

(** Without withdrawals and with a rate that is not negative, the balance is never below the opening balance, at any time of the year or
    in the next year, and the year's returns are not negative. *)
Theorem C116_no_losses : forall rnd pw e a t, rounding rnd -> rnd 1 = 1 -> power_ok pw -> sound rnd e a -> 0 <= r_rate a -> 0 <= r_bal a ->
  (forall k v, In (k, v) (r_txns a) -> 0 <= v) -> 0 <= t ->
  r_bal a <= balance_at_time rnd pw e a t /\ 0 <= returns rnd pw e a /\ r_bal a <= r_bal (next_year rnd pw e a (r_rate a)).
Proof.
  intros rnd pw e a t Rd One P S Hr Hb Hv Ht. pose proof S as (B & W & T & _). pose proof Rd as (M & Z & I). assert (R0 : forall x, 0 <= x -> 0 <= rnd x) by (intros; rewrite <- Z; now apply M).
  assert (G : forall t, 0 <= t -> r_bal a <= balance_at_time rnd pw e a t).
  { clear t Ht. intros t Ht. rewrite balance_total. apply Rle_trans with (value_at_time rnd pw e (r_bal a) (r_rate a) 0 t (r_nper a)).
    - unfold value_at_time. rewrite <- B at 1. apply M. rewrite <- (Rmult_1_r (r_bal a)) at 1. apply Rmult_le_compat_l; [exact Hb|]. apply growth_ge1; auto. apply R0. lra.
    - apply total_ge; [exact Rd|apply I|]. intros k v H L. rb. unfold value_at_time. apply R0, Rmult_le_pos; [eapply Hv; exact H|]. apply Rle_trans with 1; [lra|]. apply growth_ge1; auto. apply R0. lra. }
  split; [now apply G|]. split; [|rewrite C116_year_end by exact S; apply G; lra].
  unfold returns. set (s0 := rnd (r_bal a * _)). assert (S0 : 0 <= s0). { unfold s0. apply R0, Rmult_le_pos; [exact Hb|]. apply R0. pose proof (growth_ge1 rnd pw e a 1 Rd One P S Hr ltac:(lra)). lra. }
  assert (Sf : rnd s0 = s0) by apply I.
  assert (C : forall l s, 0 <= s -> (forall k v, In (k, v) l -> 0 <= v /\ 0 <= k <= 1) -> 0 <= fold_left (fun s kv => rnd (s + rnd (snd kv * rnd (growth rnd pw e (r_rate a) (r_nper a) (rnd (1 - fst kv)) - 1)))) l s).
  { induction l as [|[k v] l IH]; intros s H F; cbn [fold_left fst snd]; [exact H|]. apply IH; [|intros; apply F; now right]. destruct (F k v (or_introl eq_refl)) as [F1 F2]. apply R0. assert (0 <= rnd (v * rnd (growth rnd pw e (r_rate a) (r_nper a) (rnd (1 - k)) - 1))); [|lra].
    apply R0, Rmult_le_pos; [exact F1|]. apply R0. pose proof (growth_ge1 rnd pw e a (rnd (1 - k)) Rd One P S Hr ltac:(apply R0; lra)). lra. }
  apply C; [exact S0|]. intros k v H. split; [eapply Hv; exact H|]. eapply T; exact H.
Qed.
Print Assumptions C116_no_losses.

(** If powers also keep the order of the exponents, such a balance never falls through the year. *)
Theorem C116_rising : forall rnd pw e a t t', rounding rnd -> rnd 1 = 1 -> power_ok pw -> (forall b x y, 1 <= b -> 0 <= x <= y -> pw b x <= pw b y) ->
  sound rnd e a -> 0 <= r_rate a -> 0 <= r_bal a -> (forall k v, In (k, v) (r_txns a) -> 0 <= v) -> 0 <= t <= t' ->
  balance_at_time rnd pw e a t <= balance_at_time rnd pw e a t'.
Proof.
  intros rnd pw e a t t' Rd One P Pm S Hr Hb Hv Ht. pose proof S as (B & W & T & E & _). pose proof Rd as (M & Z & I). assert (R0 : forall x, 0 <= x -> 0 <= rnd x) by (intros; rewrite <- Z; now apply M).
  assert (Gm : forall x y, 0 <= x <= y -> growth rnd pw e (r_rate a) (r_nper a) x <= growth rnd pw e (r_rate a) (r_nper a) y).
  { intros x y H. unfold growth. destruct (r_nper a).
    - assert (Np : 0 < IZR (Zpos p)) by (apply IZR_lt; lia). assert (0 < / IZR (Zpos p)) by (now apply Rinv_0_lt_compat). apply Pm.
      + rewrite <- One at 1. apply M. assert (0 <= rnd (r_rate a / IZR (Zpos p))) by (apply R0, Rmult_le_pos; lra). lra.
      + split; [apply R0, Rmult_le_pos; lra|]. apply M, Rmult_le_compat_l; lra.
    - apply Pm; [exact E|]. split; [apply R0, Rmult_le_pos; lra|]. apply M, Rmult_le_compat_l; lra. }
  assert (V : forall v k, 0 <= v -> 0 <= k <= t -> value_at_time rnd pw e v (r_rate a) k t (r_nper a) <= value_at_time rnd pw e v (r_rate a) k t' (r_nper a)).
  { intros v k H1 H2. unfold value_at_time. apply M, Rmult_le_compat_l; [exact H1|]. apply Gm. split; [apply R0; lra|apply M; lra]. }
  rewrite !balance_total. apply total_rising; [exact Rd| |apply I|apply V; lra| |].
  - intros k H. rb. unfold Rleb in *. destruct (Rle_dec k t'); [reflexivity|]. lra.
  - intros k v H1 H2. rb. apply V; [eapply Hv; exact H1|]. split; [apply (T k v H1)|exact H2].
  - intros k v H1 H2. rb. unfold value_at_time. apply R0, Rmult_le_pos; [eapply Hv; exact H1|]. apply Rle_trans with 1; [lra|]. apply growth_ge1; auto. apply R0. lra.
Qed.
Print Assumptions C116_rising.

(** *** Reaching a balance *)
Lemma accum_near u rnd : accurate u rnd -> forall l e s p, Forall (fun wg : R * R => 0 <= fst wg /\ 0 < snd wg) l -> (1 <= p)%nat -> near u p e s ->
  near u (p + List.length l) (e + Rsum (map (fun wg => fst wg * snd wg) l)) (fold_left (fun s wg => rnd (s + rnd (fst wg * snd wg))) l s).
Proof.
  intros A. assert (U : 0 <= u < 1) by apply A. induction l as [|[w g] l IH]; intros e s p F P N; cbn [fold_left map List.length fst snd].
  - rewrite Nat.add_0_r. change (Rsum []) with 0. rewrite Rplus_0_r. exact N.
  - inversion F as [|? ? [F1 F2] F3]; subst. cbn in F1, F2. replace (p + S (List.length l))%nat with (S p + List.length l)%nat by lia. change (Rsum (w * g :: ?r)) with (w * g + Rsum r). rewrite <- Rplus_assoc. apply IH; [assumption|lia|]. apply near_round; [exact A|]. apply near_plus; [exact N|].
    apply (near_more u 1); [exact U|exact P|]. apply near_round; [exact A|]. apply near_refl. apply Rmult_le_pos; lra.
Qed.
Lemma drift u rnd K : accurate u rnd -> forall ys s Z E, (forall j, (j < List.length ys)%nat -> Rabs (Z + Rsum (firstn (S j) ys)) <= K) -> Rabs (s - Z) <= E ->
  Rabs (fold_left (fun s y => rnd (s + y)) ys s - (Z + Rsum ys)) <= (1 + u) ^ (List.length ys) * E + ((1 + u) ^ (List.length ys) - 1) * K.
Proof.
  intros A. assert (U : 0 <= u < 1) by apply A. induction ys as [|y ys IH]; intros s Z E HK HE; cbn [fold_left List.length pow].
  - change (Rsum []) with 0. rewrite Rplus_0_r. lra.
  - change (Rsum (y :: ys)) with (y + Rsum ys). rewrite <- Rplus_assoc.
    assert (K1 : Rabs (Z + y) <= K). { specialize (HK 0%nat ltac:(cbn; lia)). cbn in HK. now rewrite Rplus_0_r in HK. }
    eapply Rle_trans; [apply (IH _ (Z + y) ((1 + u) * E + u * K))|].
    + intros j Hj. specialize (HK (S j) ltac:(cbn; lia)). cbn [firstn] in HK. change (Rsum (y :: ?r)) with (y + Rsum r) in HK. now rewrite <- Rplus_assoc in HK.
    + destruct (accurate_factor u rnd (s + y) A) as (d & D & ->). replace ((s + y) * (1 + d) - (Z + y)) with ((s - Z) * (1 + d) + (Z + y) * d) by ring. eapply Rle_trans; [apply Rabs_triang|]. rewrite !Rabs_mult. apply Rplus_le_compat.
      * rewrite Rmult_comm. apply Rmult_le_compat; try apply Rabs_pos; [|exact HE]. apply Rabs_def2_le in D. rewrite Rabs_pos_eq; lra.
      * rewrite Rmult_comm. apply Rmult_le_compat; try apply Rabs_pos; assumption.
    + lra.
Qed.
Lemma between B t p e : 0 <= p <= 1 + e -> 0 <= e -> Rabs (B + (t - B) * p) <= Rmax (Rabs B) (Rabs t) + e * Rabs (t - B).
Proof.
  intros P E. pose proof (Rmax_l (Rabs B) (Rabs t)) as M1. pose proof (Rmax_r (Rabs B) (Rabs t)) as M2. set (X := Rmax _ _) in *. pose proof (Rabs_pos (t - B)) as D0.
  destruct (Rle_lt_dec p 1) as [L | L].
  - replace (B + (t - B) * p) with ((1 - p) * B + p * t) by ring. eapply Rle_trans; [apply Rabs_triang|]. rewrite !Rabs_mult, (Rabs_pos_eq (1 - p)), (Rabs_pos_eq p) by lra.
    assert ((1 - p) * Rabs B <= (1 - p) * X) by (apply Rmult_le_compat_l; lra). assert (p * Rabs t <= p * X) by (apply Rmult_le_compat_l; lra). assert (0 <= e * Rabs (t - B)) by (apply Rmult_le_pos; lra). lra.
  - replace (B + (t - B) * p) with (t + (t - B) * (p - 1)) by ring. eapply Rle_trans; [apply Rabs_triang|]. rewrite Rabs_mult, (Rabs_pos_eq (p - 1)) by lra.
    assert (Rabs (t - B) * (p - 1) <= Rabs (t - B) * e) by (apply Rmult_le_compat_l; lra). lra.
Qed.
Lemma reach u rnd : accurate u rnd -> forall l B target, Forall (fun wg : R * R => 0 <= fst wg /\ 0 < snd wg) l -> 0 < Rsum (map (fun wg => fst wg * snd wg) l) -> 8 * u * (INR (List.length l) + 5) <= 1 ->
  let accum := fold_left (fun s wg => rnd (s + rnd (fst wg * snd wg))) l 0 in let T := rnd (rnd (target - B) / accum) in
  0 < accum /\ Rabs (fold_left (fun s wg => rnd (s + rnd (rnd (T * fst wg) * snd wg))) l B - target) <= (4 * INR (List.length l) + 12) * u * Rmax (Rabs B) (Rabs target).
Proof.
  intros A l B t F G0 Hu accum T. assert (U : 0 <= u < 1) by apply A. set (n := List.length l) in *. set (G := Rsum _) in *. pose proof (pos_INR n) as n0. assert (u1 : u <= 1/40) by nra.
  pose proof (accum_near u rnd A l 0 0 1 F ltac:(lia) (near_more u 0 1 0 0 U ltac:(lia) (near_refl u 0 (Rle_refl 0)))) as N. rewrite Rplus_0_l in N. fold G in N. fold accum in N. fold n in N. destruct N as (_ & NL & NH).
  assert (P1 : 0 < (1 - u) ^ (1 + n)) by (apply pow_lt; lra). assert (P2 : 0 < (1 + u) ^ (1 + n)) by (apply pow_lt; lra).
  assert (A0 : 0 < accum) by (assert (0 < G * (1 - u) ^ (1 + n)) by (now apply Rmult_lt_0_compat); lra). split; [exact A0|].
  set (v := (INR n + 5) * u). assert (V8 : v <= 1/8) by (unfold v; lra). assert (V0 : 5 * u <= v) by (unfold v; nra).
  assert (B5 : 1 - v <= (1 - u) ^ (1 + n) * ((1 - u) * (1 - u) * (1 - u) * (1 - u))).
  { pose proof (bernoulli u (n + 5) ltac:(lra)) as Be. rewrite plus_INR in Be. replace (n + 5)%nat with (1 + n + 4)%nat in Be by lia. rewrite pow_add in Be. replace (INR 5) with 5 in Be by (cbn; ring). replace ((1 - u) ^ 4) with ((1 - u) * (1 - u) * (1 - u) * (1 - u)) in Be by ring. unfold v. exact Be. }
  assert (PP : (1 + u) ^ (1 + n) * (1 - u) ^ (1 + n) <= 1) by now apply pow_pair.
  set (D := t - B).
  assert (share : forall w g, 0 <= w -> 0 < g -> exists f, rnd (rnd (T * w) * g) = D * (w * g / G * f) /\ 1 - v <= f <= 1 + 8/7 * v).
  { intros w g Hw Hg. destruct (accurate_factor u rnd (rnd (T * w) * g) A) as (d1 & D1 & ->). destruct (accurate_factor u rnd (T * w) A) as (d2 & D2 & ->). unfold T. destruct (accurate_factor u rnd (rnd (t - B) / accum) A) as (d3 & D3 & ->). destruct (accurate_factor u rnd (t - B) A) as (d4 & D4 & ->). fold D.
    exists (G / accum * ((1 + d1) * (1 + d2) * (1 + d3) * (1 + d4))). split; [field; lra|]. apply Rabs_def2_le in D1, D2, D3, D4.
    assert (H1 : (1 - u) * (1 - u) * (1 - u) * (1 - u) <= (1 + d1) * (1 + d2) * (1 + d3) * (1 + d4)) by (repeat apply Rmult_le_compat; try lra; repeat apply Rmult_le_pos; lra).
    assert (H2 : (1 + d1) * (1 + d2) * (1 + d3) * (1 + d4) <= (1 + u) * (1 + u) * (1 + u) * (1 + u)) by (repeat apply Rmult_le_compat; try lra; repeat apply Rmult_le_pos; lra).
    set (x := (1 + d1) * (1 + d2) * (1 + d3) * (1 + d4)) in *. clearbody x. set (q := G / accum).
    assert (L4 : 0 < (1 - u) * (1 - u) * (1 - u) * (1 - u)) by (repeat apply Rmult_lt_0_compat; lra). set (c4 := (1 - u) * (1 - u) * (1 - u) * (1 - u)) in *.
    assert (Q1 : (1 - u) ^ (1 + n) <= q). { unfold q. apply Rmult_le_reg_r with accum; [exact A0|]. replace (G / accum * accum) with G by (field; lra). apply Rle_trans with ((1 - u) ^ (1 + n) * (G * (1 + u) ^ (1 + n))); [apply Rmult_le_compat_l; lra|]. replace ((1 - u) ^ (1 + n) * (G * (1 + u) ^ (1 + n))) with (G * ((1 + u) ^ (1 + n) * (1 - u) ^ (1 + n))) by ring. rewrite <- (Rmult_1_r G) at 2. apply Rmult_le_compat_l; lra. }
    assert (Q2 : q * (1 - u) ^ (1 + n) <= 1). { unfold q. apply Rmult_le_reg_r with accum; [exact A0|]. replace (G / accum * (1 - u) ^ (1 + n) * accum) with (G * (1 - u) ^ (1 + n)) by (field; lra). lra. }
    split.
    - eapply Rle_trans; [exact B5|]. apply Rmult_le_compat; lra.
    - assert (X4 : x * c4 <= 1). { apply Rle_trans with ((1 + u) * (1 + u) * (1 + u) * (1 + u) * c4); [apply Rmult_le_compat_r; lra|]. unfold c4. replace ((1 + u) * (1 + u) * (1 + u) * (1 + u) * ((1 - u) * (1 - u) * (1 - u) * (1 - u))) with ((1 + u) ^ 4 * (1 - u) ^ 4) by ring. now apply pow_pair. }
      assert (q0 : 0 < q) by lra. assert (Y : q * x * (1 - v) <= 1). { apply Rle_trans with (q * x * ((1 - u) ^ (1 + n) * c4)); [apply Rmult_le_compat_l; [apply Rmult_le_pos; lra|exact B5]|]. replace (q * x * ((1 - u) ^ (1 + n) * c4)) with ((q * (1 - u) ^ (1 + n)) * (x * c4)) by ring. apply Rle_trans with (1 * 1); [|lra]. apply Rmult_le_compat; try lra; apply Rmult_le_pos; lra. }
      set (z := q * x) in *. clearbody z. nra. }
  set (y := fun wg : R * R => rnd (rnd (T * fst wg) * snd wg)).
  assert (sums : forall l', Forall (fun wg : R * R => 0 <= fst wg /\ 0 < snd wg) l' -> let Q := Rsum (map (fun wg => fst wg * snd wg) l') / G in 0 <= Q /\ exists p, Rsum (map y l') = D * p /\ (1 - v) * Q <= p <= (1 + 8/7 * v) * Q).
  { induction l' as [|[w g] l' IH]; intros F'; cbn [map].
    - cbn. unfold Rdiv. rewrite Rmult_0_l. split; [lra|]. exists 0. rewrite !Rmult_0_r. split; [reflexivity|lra].
    - inversion F' as [|? ? [F1 F2] F3]; subst. cbn in F1, F2. destruct (IH F3) as [Q0 (p & E & Bp)]. destruct (share w g F1 F2) as (f & Ef & Bf). cbn zeta. change (Rsum (?a :: ?r)) with (a + Rsum r). cbn [fst snd].
      assert (H0 : 0 <= w * g / G) by (apply Rmult_le_pos; [apply Rmult_le_pos; lra|]; apply Rlt_le; now apply Rinv_0_lt_compat).
      rewrite (Rdiv_plus_distr (w * g)). set (Q := Rsum _ / G) in *. split; [lra|]. exists (w * g / G * f + p). split; [unfold y at 1; cbn [fst snd]; rewrite Ef, E; ring|].
      assert ((1 - v) * (w * g / G) <= w * g / G * f <= (1 + 8/7 * v) * (w * g / G)) by (split; rewrite (Rmult_comm _ (w * g / G)); apply Rmult_le_compat_l; lra). lra. }
  destruct (sums l F) as [_ (p & Ep & Bp)]. fold G in Bp. replace (G / G) with 1 in Bp by (field; lra). rewrite !Rmult_1_r in Bp.
  set (X := Rmax (Rabs B) (Rabs t)). assert (X0 : 0 <= X) by (unfold X; eapply Rle_trans; [apply Rabs_pos|apply Rmax_l]).
  assert (DX : Rabs D <= 2 * X). { unfold D, X. pose proof (Rmax_l (Rabs B) (Rabs t)). pose proof (Rmax_r (Rabs B) (Rabs t)). unfold Rminus. eapply Rle_trans; [apply Rabs_triang|]. rewrite Rabs_Ropp. lra. }
  assert (fm : forall l' s, fold_left (fun s wg => rnd (s + rnd (rnd (T * fst wg) * snd wg))) l' s = fold_left (fun s y => rnd (s + y)) (map y l') s) by (induction l' as [|wg l' IH]; intros s; cbn; [reflexivity|apply IH]).
  rewrite fm. set (K := X + 8/7 * v * Rabs D).
  pose proof (drift u rnd K A (map y l) B B 0) as Dr. rewrite map_length in Dr. fold n in Dr.
  assert (Q : Rabs (fold_left (fun s y => rnd (s + y)) (map y l) B - (B + Rsum (map y l))) <= ((1 + u) ^ n - 1) * K).
  { eapply Rle_trans; [apply Dr|lra].
    - intros j Hj. rewrite firstn_map. destruct (sums (firstn (S j) l)) as [Q0 (p' & Ep' & Bp')].
      + apply Forall_forall. intros x Hx. rewrite Forall_forall in F. apply F. rewrite <- (firstn_skipn (S j) l). apply in_app_iff. now left.
      + rewrite Ep'. unfold K. apply between; [|lra].
        assert (Q1 : Rsum (map (fun wg => fst wg * snd wg) (firstn (S j) l)) / G <= 1).
        { apply Rmult_le_reg_r with G; [exact G0|]. rewrite Rmult_1_l. unfold Rdiv. rewrite Rmult_assoc, Rinv_l by lra. rewrite Rmult_1_r. unfold G. rewrite <- (firstn_skipn (S j) l) at 2. rewrite map_app. rewrite Rsum_app.
          assert (0 <= Rsum (map (fun wg : R * R => fst wg * snd wg) (skipn (S j) l))); [|lra]. assert (Fs : Forall (fun wg : R * R => 0 <= fst wg /\ 0 < snd wg) (skipn (S j) l)) by (apply Forall_forall; intros x Hx; rewrite Forall_forall in F; apply F; rewrite <- (firstn_skipn (S j) l); apply in_app_iff; now right).
          clear - Fs. induction Fs as [|[w g] r [H1 H2] H3 IHr]; [unfold Rsum; cbn; lra|]. cbn [map fst snd] in *. change (Rsum (?a :: ?b)) with (a + Rsum b). assert (0 <= w * g) by (apply Rmult_le_pos; lra). lra. }
        set (Qs := _ / G) in *. split; [apply Rle_trans with ((1 - v) * Qs); [apply Rmult_le_pos; lra|lra]|]. apply Rle_trans with ((1 + 8/7 * v) * Qs); [lra|]. rewrite <- (Rmult_1_r (1 + 8/7 * v)) at 2. apply Rmult_le_compat_l; lra.
    - replace (B - B) with 0 by ring. rewrite Rabs_R0. lra. }
  rewrite Ep in Q.
  assert (E1 : (1 + u) ^ n - 1 <= 8/7 * (INR n * u)).
  { pose proof (bernoulli u n ltac:(lra)) as Be. pose proof (pow_pair u n U) as Pn. assert (1 <= (1 + u) ^ n) by (apply pow_R1_Rle; lra). set (z := (1 + u) ^ n) in *. assert (nv : INR n * u <= 1/8) by (unfold v in V8; nra). assert (nv0 : 0 <= INR n * u) by (apply Rmult_le_pos; lra). assert (z * (1 - INR n * u) <= 1). { apply Rle_trans with (z * (1 - u) ^ n); [apply Rmult_le_compat_l; lra|exact Pn]. } set (nu := INR n * u) in *. clearbody nu z. nra. }
  replace (fold_left (fun s y0 => rnd (s + y0)) (map y l) B - t) with ((fold_left (fun s y0 => rnd (s + y0)) (map y l) B - (B + D * p)) + D * (p - 1)) by (unfold D; ring).
  eapply Rle_trans; [apply Rabs_triang|]. rewrite Rabs_mult. assert (Rabs (p - 1) <= 8/7 * v) by (apply Rabs_le; lra).
  assert (KX : K <= 9/7 * X). { unfold K. assert (8/7 * v * Rabs D <= 8/7 * (1/8) * (2 * X)) by (apply Rmult_le_compat; try lra; apply Rabs_pos). lra. }
  assert (K0 : 0 <= K) by (unfold K; assert (0 <= 8/7 * v * Rabs D) by (apply Rmult_le_pos; [lra|apply Rabs_pos]); lra).
  assert (R1 : ((1 + u) ^ n - 1) * K <= 8/7 * (INR n * u) * (9/7 * X)). { apply Rmult_le_compat; try lra. assert (1 <= (1 + u) ^ n) by (apply pow_R1_Rle; lra). lra. }
  assert (R2 : Rabs D * Rabs (p - 1) <= 2 * X * (8/7 * v)) by (apply Rmult_le_compat; try apply Rabs_pos; assumption).
  fold X. apply Rle_trans with (8 / 7 * (INR n * u) * (9 / 7 * X) + 2 * X * (8 / 7 * v)); [lra|]. unfold v. replace (8 / 7 * (INR n * u) * (9 / 7 * X) + 2 * X * (8 / 7 * ((INR n + 5) * u))) with ((184/49 * INR n + 80/7) * (u * X)) by field. replace ((4 * INR n + 12) * u * X) with ((4 * INR n + 12) * (u * X)) by ring. apply Rmult_le_compat_r; [apply Rmult_le_pos; lra|lra].
Qed.
(** making the planned transactions *)
Definition pay rnd (a : raccount) (plan : list (R * er)) : raccount :=
  fold_left (fun a kx => match snd kx with Fin x => add_transaction rnd a x (fst kx) | _ => a end) plan a.
(** a timing: distinct times of the year, weights that are not negative, none of them a time at which the account has a transaction *)
Definition new_times (a : raccount) (d : list (R * R)) : Prop :=
  d <> [] /\ dwf Reqb d /\ forall k w, In (k, w) d -> 0 <= k <= 1 /\ 0 <= w /\ dget Reqb (r_txns a) k = None.

Lemma accurate_pos u rnd x : accurate u rnd -> 0 < x -> 0 < rnd x.
Proof. intros A H. destruct (accurate_factor u rnd x A) as (d & D & ->). destruct A as [U _]. apply Rabs_def2_le in D. apply Rmult_lt_0_compat; lra. Qed.
Lemma rsum_pos u rnd l : accurate u rnd -> Forall (Rle 0) l -> 0 <= rsum rnd l /\ (rsum rnd l = 0 -> Forall (eq 0) l).
Proof.
  intros A F. assert (U : 0 <= u < 1) by apply A. pose proof (sum_near u rnd A l 0 0 0 F (near_refl u 0 (Rle_refl 0))) as (N0 & N1 & N2). rewrite Rplus_0_l in *. fold (rsum rnd l) in *. set (q := (1 - u) ^ _) in *. assert (0 < q) by (apply pow_lt; lra). split; [assert (0 <= Rsum l * q) by (apply Rmult_le_pos; lra); lra|].
  intros E. rewrite E in N1. assert (S0 : Rsum l = 0) by nra. clear - F S0. induction F as [|x l Hx F IH]; [constructor|]. change (Rsum (x :: l)) with (x + Rsum l) in S0. assert (0 <= Rsum l) by (apply Rsum_nonneg; intros y Hy; rewrite Forall_forall in F; now apply F). constructor; [lra|apply IH; lra].
Qed.
(** the weights used: positive, at some of the times *)
Lemma normalized_ok u rnd d : accurate u rnd -> d <> [] -> (forall k w, In (k, w) d -> 0 <= w) ->
  let nt := normalized rnd d in nt <> [] /\ (forall k w, In (k, w) nt -> 0 < w) /\ (NoDup (dkeys d) -> NoDup (map fst nt)) /\ (forall k w, In (k, w) nt -> exists w', In (k, w') d) /\ (List.length nt <= List.length d)%nat.
Proof.
  intros A NE Pos nt. assert (U : 0 <= u < 1) by apply A.
  assert (Fv : Forall (Rle 0) (dvals d)) by (apply Forall_forall; intros x Hx; apply in_map_iff in Hx; destruct Hx as ([k w] & <- & Hx); apply (Pos k w Hx)).
  destruct (rsum_pos u rnd (dvals d) A Fv) as [T0 Tz]. unfold nt, normalized. destruct (Reqb (rsum rnd (dvals d)) 0) eqn:E.
  - assert (Fl : forall l : list (R * R), filter (fun kv => negb (Reqb (snd kv) 0)) (map (fun kv => (fst kv, 1)) l) = map (fun kv => (fst kv, 1)) l).
    { induction l as [|kv l IH]; cbn; [reflexivity|]. destruct (Reqb 1 0) eqn:E1; [apply Reqb_t in E1; lra|]. cbn. now rewrite IH. }
    rewrite Fl, map_map. cbn [fst snd]. split; [destruct d; [contradiction|discriminate]|]. assert (0 < INR (List.length d)) by (destruct d; [contradiction|apply lt_0_INR; cbn; lia]). split; [|split].
    + intros k w H1. apply in_map_iff in H1. destruct H1 as (kv & H1 & _). injection H1 as _ <-. apply (accurate_pos u); [exact A|]. apply Rmult_lt_0_compat; [lra|now apply Rinv_0_lt_compat].
    + rewrite map_map. intros H1. exact H1.
    + split; [|rewrite map_length; lia]. intros k w H1. apply in_map_iff in H1. destruct H1 as ([k' w'] & H1 & H2). injection H1 as <- _. eauto.
  - apply Reqb_f in E. assert (Tp : 0 < rsum rnd (dvals d)) by lra. set (tot := rsum rnd (dvals d)) in *. split; [|split; [|split]].
    + intros H. apply map_eq_nil in H. assert (Z0 : forall k w, In (k, w) d -> w = 0). { intros k w Hin. destruct (Req_dec w 0) as [|Hw]; [assumption|]. assert (HF : In (k, w) (filter (fun kv => negb (Reqb (snd kv) 0)) d)) by (apply filter_In; split; [exact Hin|]; cbn; destruct (Reqb w 0) eqn:E1; [apply Reqb_t in E1; contradiction|reflexivity]). rewrite H in HF. destruct HF. }
      assert (T : tot = 0); [|lra]. unfold tot. assert (Fz : forall l, Forall (eq 0) l -> rsum rnd l = 0). { unfold rsum. destruct (accurate_factor u rnd 0 A) as (x & _ & R0). rewrite Rmult_0_l in R0. intros l F. induction F as [|x0 l <- F IH]; cbn; [reflexivity|]. rewrite Rplus_0_r, R0. exact IH. } apply Fz. apply Forall_forall. intros x Hx. apply in_map_iff in Hx. destruct Hx as ([k w] & <- & Hx). cbn. symmetry. now apply (Z0 k).
    + intros k w H. apply in_map_iff in H. destruct H as ([k' w'] & H & Hin). cbn in H. injection H as _ <-. apply filter_In in Hin. destruct Hin as [Hin Hz]. cbn in Hz. apply (accurate_pos u); [exact A|]. apply Rmult_lt_0_compat; [|now apply Rinv_0_lt_compat]. specialize (Pos k' w' Hin). destruct (Reqb w' 0) eqn:E1; [discriminate|]. apply Reqb_f in E1. lra.
    + rewrite map_map. cbn. unfold dkeys. clear. induction d as [|[k w] d IH]; cbn; [auto|]. intros N. inversion N as [|? ? N1 N2]; subst. destruct (negb (Reqb w 0)); cbn; [|now apply IH]. constructor; [|now apply IH]. intros H. apply N1. apply in_map_iff in H. destruct H as (kv & E & H). apply filter_In in H. apply in_map_iff. exists kv. tauto.
    + split.
      * intros k w H. apply in_map_iff in H. destruct H as ([k' w'] & H & Hin). cbn in H. injection H as <- _. apply filter_In in Hin. exists w'. tauto.
      * rewrite map_length. clear. induction d as [|kv d IH]; cbn; [lia|]. destruct (negb _); cbn; lia.
Qed.
Lemma pay_txns rnd : rounding rnd -> forall plan a, (forall k x, In (k, x) plan -> rnd x = x /\ dget Reqb (r_txns a) k = None) -> NoDup (map fst plan) ->
  pay rnd a (map (fun kx => (fst kx, Fin (snd kx))) plan) = {| r_bal := r_bal a; r_rate := r_rate a; r_nper := r_nper a; r_txns := r_txns a ++ plan |}.
Proof.
  intros (M & Z & I). induction plan as [|[k x] plan IH]; intros a H N; [cbn; rewrite app_nil_r; now destruct a|]. inversion N as [|? ? N1 N2]; subst. destruct (H k x (or_introl eq_refl)) as [Hx Hk].
  assert (E : add_transaction rnd a x k = {| r_bal := r_bal a; r_rate := r_rate a; r_nper := r_nper a; r_txns := r_txns a ++ [(k, x)] |}).
  { unfold add_transaction, rval. rewrite Hk, Rplus_0_l, Hx. f_equal. apply dset_fresh. apply Forall_forall. intros y Hy ->. clear - Hk Hy. induction (r_txns a) as [|[k' v'] l IH]; [destruct Hy|]. cbn in *. destruct (Reqb k k') eqn:E; [discriminate|]. apply Reqb_f in E. destruct Hy as [-> | Hy]; [contradiction|]. now apply IH. }
  cbn [map]. unfold pay. cbn [fold_left fst snd]. rewrite E. fold (pay rnd {| r_bal := r_bal a; r_rate := r_rate a; r_nper := r_nper a; r_txns := r_txns a ++ [(k, x)] |} (map (fun kx => (fst kx, Fin (snd kx))) plan)). rewrite IH; cbn [r_bal r_rate r_nper r_txns]; [now rewrite <- app_assoc| |exact N2].
  intros k' x' Hin. split; [apply (H k' x'); now right|]. assert (Hk' : dget Reqb (r_txns a) k' = None) by (apply (H k' x'); now right). assert (NEk : k' <> k) by (intros ->; apply N1; apply in_map_iff; exists (k, x'); auto).
  clear - Hk' NEk. induction (r_txns a) as [|[k0 v0] l IH]; cbn in *; [destruct (Reqb k' k) eqn:E; [apply Reqb_t in E; contradiction|reflexivity]|]. destruct (Reqb k' k0); [discriminate|now apply IH].
Qed.

(** The transactions planned to reach a balance do reach it, up to (4n + 12) units of relative error, n the number of times; whatever the
    power function's own error. *)
Theorem C116_target : forall u rnd pw e a target d, rounding rnd -> accurate u rnd -> (forall t, 0 < growth rnd pw e (r_rate a) (r_nper a) t) -> new_times a d ->
  8 * u * (INR (List.length d) + 5) <= 1 ->
  exists plan, transactions_to_balance rnd pw e a (Fin target) d PInf MInf = Ok plan /\
    Rabs (balance_at_time rnd pw e (pay rnd a plan) 1 - target) <= (4 * INR (List.length d) + 12) * u * Rmax (Rabs (balance_at_time rnd pw e a 1)) (Rabs target).
Proof.
  intros u rnd pw e a target d Rd A Gp (NE & W & T) Hu. pose proof Rd as (M & Z & I). assert (U : 0 <= u < 1) by apply A.
  destruct (normalized_ok u rnd d A NE ltac:(intros; eapply T; eassumption)) as (NE' & Pos & ND & Inc & Len). specialize (ND (keys_nodup d W)). set (nt := normalized rnd d) in *.
  set (g := fun k => growth rnd pw e (r_rate a) (r_nper a) (rnd (1 - k))). set (B := balance_at_time rnd pw e a 1).
  set (l := map (fun kw => (snd kw, g (fst kw))) nt).
  assert (F : Forall (fun wg : R * R => 0 <= fst wg /\ 0 < snd wg) l). { apply Forall_forall. intros x Hx. apply in_map_iff in Hx. destruct Hx as ([k w] & <- & Hx). cbn. split; [apply Rlt_le, (Pos k w Hx)|apply Gp]. }
  assert (G0 : 0 < Rsum (map (fun wg => fst wg * snd wg) l)). { apply Rsum_pos; [intros H; apply NE'; unfold l in H; rewrite map_map in H; now apply map_eq_nil in H|]. intros x Hx. unfold l in Hx. rewrite map_map in Hx. apply in_map_iff in Hx. destruct Hx as ([k w] & <- & Hx). cbn. apply Rmult_lt_0_compat; [apply (Pos k w Hx)|apply Gp]. }
  assert (Ll : List.length l = List.length nt) by (unfold l; now rewrite map_length). assert (LN : INR (List.length l) <= INR (List.length d)) by (apply le_INR; lia). pose proof (pos_INR (List.length l)).
  destruct (reach u rnd A l B target F G0) as [A0 Re]. { apply Rle_trans with (8 * u * (INR (List.length d) + 5)); [|exact Hu]. apply Rmult_le_compat_l; lra. }
  set (accum := fold_left _ l 0) in *. set (Tt := rnd (rnd (target - B) / accum)) in *.
  assert (Ea : fold_left (fun s kv => rnd (s + rnd (snd kv * growth rnd pw e (r_rate a) (r_nper a) (rnd (1 - fst kv))))) nt 0 = accum).
  { unfold accum, l. clear. generalize 0 as s. induction nt as [|kv nt IH]; intros s; cbn [map fold_left fst snd]; [reflexivity|]. rewrite IH. reflexivity. }
  set (plan := map (fun kv => (fst kv, rnd (Tt * snd kv))) nt). exists (map (fun kx => (fst kx, Fin (snd kx))) plan). split.
  - unfold transactions_to_balance. fold nt. rewrite Ea. destruct (Reqb accum 0) eqn:E; [apply Reqb_t in E; lra|]. f_equal. fold B. cbn [esub ernd ediv]. cbn. fold Tt. unfold plan. rewrite map_map. cbn. reflexivity.
  - rewrite pay_txns; [|exact Rd| |].
    + unfold balance_at_time at 1. cbn [r_bal r_rate r_nper r_txns]. rewrite filter_app, fold_left_app. fold (balance_at_time rnd pw e a 1). fold B.
      assert (Fp : filter (fun kv : R * R => Rleb (fst kv) 1) plan = plan).
      { assert (K1 : forall k x, In (k, x) plan -> k <= 1). { intros k x Hx. apply in_map_iff in Hx. destruct Hx as ([k' w] & Hx & Hin). cbn in Hx. injection Hx as <- _. destruct (Inc k' w Hin) as (w' & Hd). apply (T k' w' Hd). }
        clearbody plan. clear - K1. induction plan as [|[k x] l IH]; cbn; [reflexivity|]. destruct (Rleb k 1) eqn:E; [rewrite IH; [reflexivity|]; intros k' x' Hx'; apply (K1 k' x'); now right|]. apply Rleb_f in E. specialize (K1 k x (or_introl eq_refl)). lra. }
      rewrite Fp.
      assert (Ef : fold_left (fun s kv => rnd (s + value_at_time rnd pw e (snd kv) (r_rate a) (fst kv) 1 (r_nper a))) plan B = fold_left (fun s wg => rnd (s + rnd (rnd (Tt * fst wg) * snd wg))) l B).
      { unfold plan, l. clearbody Tt B. clear. generalize B as s. induction nt as [|kv nt IH]; intros s; cbn [map fold_left fst snd]; [reflexivity|]. rewrite IH. reflexivity. }
      rewrite Ef. eapply Rle_trans; [exact Re|]. fold B. apply Rmult_le_compat_r; [eapply Rle_trans; [apply Rabs_pos|apply Rmax_l]|]. apply Rmult_le_compat_r; lra.
    + intros k x Hx. apply in_map_iff in Hx. destruct Hx as ([k' w] & Hx & Hin). cbn in Hx. injection Hx as <- <-. split; [apply I|]. destruct (Inc k' w Hin) as (w' & Hd). apply (T k' w' Hd).
    + unfold plan. rewrite map_map. cbn. exact ND.
Qed.
Print Assumptions C116_target.

(** In particular an account that is not overdrawn at the end of the year is emptied by its largest withdrawals. *)
Theorem C116_emptied : forall u rnd pw e a d, rounding rnd -> accurate u rnd -> (forall t, 0 < growth rnd pw e (r_rate a) (r_nper a) t) -> new_times a d ->
  8 * u * (INR (List.length d) + 5) <= 1 -> 0 <= balance_at_time rnd pw e a 1 ->
  exists plan, max_outflows rnd pw e a MInf d MInf (Fin 0) = Ok plan /\ (forall k x, In (k, x) plan -> ele x (Fin 0)) /\
    Rabs (balance_at_time rnd pw e (pay rnd a plan) 1) <= (4 * INR (List.length d) + 12) * u * balance_at_time rnd pw e a 1.
Proof.
  intros u rnd pw e a d Rd A Gp New Hu B0. pose proof Rd as (M & Z & I). destruct (C116_target u rnd pw e a 0 d Rd A Gp New Hu) as (plan & P & E).
  assert (E' : max_outflows rnd pw e a MInf d MInf (Fin 0) = Ok plan /\ (forall k x, In (k, x) plan -> ele x (Fin 0))).
  { unfold max_outflows, transactions_to_balance in *. destruct New as (NE & W & T). destruct (normalized_ok u rnd d A NE ltac:(intros; eapply T; eassumption)) as (_ & Pos & _). set (nt := normalized rnd d) in *.
    set (accum := fold_left _ nt 0) in *. destruct (Reqb accum 0) eqn:Ea; [discriminate|]. cbn in P |- *. apply Reqb_f in Ea.
    assert (A0 : 0 < accum). { assert (0 <= accum); [|lra]. unfold accum. clear - M Z Pos Gp A. assert (G : forall l s, 0 <= s -> (forall k w, In (k, w) l -> 0 < w) -> 0 <= fold_left (fun s kv => rnd (s + rnd (snd kv * growth rnd pw e (r_rate a) (r_nper a) (rnd (1 - fst kv))))) l s); [|apply G; [lra|exact Pos]].
      induction l as [|[k w] l IH]; intros s Hs F; cbn [fold_left fst snd]; [exact Hs|]. apply IH; [|intros; eapply F; right; eassumption]. rewrite <- Z. apply M. assert (0 <= rnd (w * growth rnd pw e (r_rate a) (r_nper a) (rnd (1 - k)))); [|lra]. rewrite <- Z. apply M. apply Rmult_le_pos; [apply Rlt_le; eapply F; now left|apply Rlt_le, Gp]. }
    assert (C : rnd (rnd (0 - balance_at_time rnd pw e a 1) / accum) <= 0). { assert (C0 : forall x, x <= 0 -> rnd x <= 0) by (intros x Hx; apply Rle_trans with (rnd 0); [now apply M|lra]). apply C0. assert (rnd (0 - balance_at_time rnd pw e a 1) <= 0) by (apply C0; lra). assert (0 < / accum) by now apply Rinv_0_lt_compat. unfold Rdiv. nra. }
    set (Tt := rnd (rnd (0 - _) / accum)) in *. injection P as <-. unfold emin, eleb. assert (Rleb Tt 0 = true) as -> by (apply Rleb_t; exact C). split; [reflexivity|].
    intros k x Hx. apply in_map_iff in Hx. destruct Hx as ([k' w] & Hx & Hin). cbn in Hx. injection Hx as _ <-. cbn. apply Rle_trans with (rnd 0); [|lra]. apply M. specialize (Pos k' w Hin). nra. }
  exists plan. split; [apply E'|]. split; [apply E'|]. rewrite Rminus_0_r, Rabs_R0, Rmax_left, (Rabs_pos_eq (balance_at_time rnd pw e a 1)) in E; [exact E|exact B0|apply Rabs_pos].
Qed.
Print Assumptions C116_emptied.

(** *** Limits *)
Lemma plan_series u rnd d T : rounding rnd -> accurate u rnd -> d <> [] -> (forall k w, In (k, w) d -> 0 < w) -> 8 * u * INR (List.length d) <= 1 ->
  exists plan, map (fun kv => (fst kv, ernd rnd (escale (Fin T) (snd kv)))) (normalized rnd d) = map (fun kx => (fst kx, Fin (snd kx))) plan /\
    dkeys plan = dkeys d /\ (0 <= T -> forall k x, In (k, x) plan -> 0 <= x) /\ (T <= 0 -> forall k x, In (k, x) plan -> x <= 0) /\
    Rabs (Rsum (dvals plan) - T) <= (2 * INR (List.length d) + 3) * u * Rabs T.
Proof.
  intros Rd A NE Pos Hu. pose proof Rd as (M & Z & I). assert (U : 0 <= u < 1) by apply A.
  assert (W0 : 0 < Rsum (dvals d)). { apply Rsum_pos; [destruct d; [contradiction|discriminate]|]. intros x Hx. apply in_map_iff in Hx. destruct Hx as ([k w] & <- & Hx). apply (Pos k w Hx). }
  assert (Af : accurate_from 0 u rnd) by (destruct A as [A1 A2]; split; [exact A1|]; split; [lra|]; intros x _; apply A2).
  assert (Am : ample 0 d T). { intros k w Hin. right. specialize (Pos k w Hin). split; [exact Pos|]. split; [lra|]. split; [lra|]. right. rewrite !Rmult_0_r, Rmult_0_l. apply Rmult_le_pos; [lra|apply Rabs_pos]. }
  destruct (C115_time_series 0 u rnd d T Rd Af W0 Hu Am) as (s & E & F & B). exists s.
  destruct (normalized_ok u rnd d A NE ltac:(intros; apply Rlt_le; eapply Pos; eassumption)) as (_ & NP & _).
  unfold time_series, normalized in *. set (N := rsum rnd (dvals d)) in *. destruct (Reqb N 0) eqn:EN; [destruct d; [contradiction|discriminate]|]. cbn [andb] in E. injection E as <-.
  assert (Fl : filter (fun kv : R * R => negb (Reqb (snd kv) 0)) d = d). { clear - Pos. induction d as [|[k w] d IH]; cbn; [reflexivity|]. destruct (Reqb w 0) eqn:E; [apply Reqb_t in E; specialize (Pos k w (or_introl eq_refl)); lra|]. cbn. rewrite IH; [reflexivity|]. intros k' w' H. apply (Pos k' w'). now right. }
  rewrite Fl in *.
  assert (Q0 : forall k w, In (k, w) d -> 0 < rnd (w / N)) by (intros k w Hin; apply (NP k); apply in_map_iff; exists (k, w); auto).
  split; [|split; [|split; [|split]]].
  - rewrite !map_map. apply map_ext. intros [k w]. cbn. now rewrite Rmult_comm.
  - unfold dkeys. now rewrite map_map.
  - intros HT k x Hx. apply in_map_iff in Hx. destruct Hx as ([k' w] & Hx & Hin). cbn in Hx. injection Hx as _ <-. apply Rle_trans with (rnd 0); [lra|]. apply M. specialize (Q0 k' w Hin). apply Rmult_le_pos; lra.
  - intros HT k x Hx. apply in_map_iff in Hx. destruct Hx as ([k' w] & Hx & Hin). cbn in Hx. injection Hx as _ <-. apply Rle_trans with (rnd 0); [|lra]. apply M. specialize (Q0 k' w Hin). nra.
  - exact B.
Qed.
(** what has been paid in or out, counted with rounding *)
Lemma power_small u k : 0 <= u < 1 -> 8 * u * INR k <= 1 -> (1 + u) ^ k <= 1 + 2 * INR k * u.
Proof.
  intros U H. pose proof (bernoulli u k ltac:(lra)) as Be. pose proof (pow_pair u k U) as Pp. pose proof (pos_INR k) as K0. assert (1 <= (1 + u) ^ k) by (apply pow_R1_Rle; lra). set (z := (1 + u) ^ k) in *. assert (v0 : 0 <= INR k * u) by (apply Rmult_le_pos; lra).
  assert (z * (1 - INR k * u) <= 1). { apply Rle_trans with (z * (1 - u) ^ k); [apply Rmult_le_compat_l; lra|exact Pp]. } set (v := INR k * u) in *. assert (v <= 1/8) by (unfold v; lra). replace (2 * INR k * u) with (2 * v) by (unfold v; ring). clearbody v z. nra.
Qed.
Lemma counted u rnd l : accurate u rnd -> Forall (Rle 0) l -> 8 * u * (INR (List.length l) + 1) <= 1 -> Rabs (rnd (0 + rsum rnd l) - Rsum l) <= 2 * (INR (List.length l) + 1) * u * Rsum l.
Proof.
  intros A F H. assert (U : 0 <= u < 1) by apply A. pose proof (sum_near u rnd A l 0 0 0 F (near_refl u 0 (Rle_refl 0))) as N. rewrite Rplus_0_l in N. fold (rsum rnd l) in N. apply (near_round u rnd _ _ _ A) in N. rewrite Rplus_0_l. destruct N as (N0 & N1 & N2). cbn [Nat.add] in *. set (k := S (List.length l)) in *.
  assert (Ek : INR k = INR (List.length l) + 1) by (unfold k; now rewrite S_INR). rewrite <- Ek in *. pose proof (power_small u k U H) as P1. pose proof (bernoulli u k ltac:(lra)) as P2. pose proof (pos_INR k). assert (0 <= INR k * u) by (apply Rmult_le_pos; lra).
  apply Rabs_le. assert (Rsum l * (1 + u) ^ k <= Rsum l * (1 + 2 * INR k * u)) by (apply Rmult_le_compat_l; lra). assert (Rsum l * (1 - INR k * u) <= Rsum l * (1 - u) ^ k) by (apply Rmult_le_compat_l; lra). assert (0 <= Rsum l * (INR k * u)) by (apply Rmult_le_pos; lra). split; lra.
Qed.
Lemma counted_out u rnd l : accurate u rnd -> Forall (fun x => x <= 0) l -> 8 * u * (INR (List.length l) + 1) <= 1 -> Rabs (rnd (0 + rsum rnd l) - Rsum l) <= 2 * (INR (List.length l) + 1) * u * - Rsum l.
Proof.
  intros A F H. set (r' := fun x => - rnd (- x)). assert (A' : accurate u r'). { destruct A as [U A]. split; [exact U|]. intros x. unfold r'. specialize (A (- x)). rewrite Rabs_Ropp in A. replace (- rnd (- x) - x) with (- (rnd (- x) - - x)) by ring. now rewrite Rabs_Ropp. }
  pose proof (counted u r' (map Ropp l) A') as C. rewrite map_length in C.
  assert (E : rsum r' (map Ropp l) = - rsum rnd l). { unfold rsum, r'. replace 0 with (- 0) at 1 by ring. generalize 0 as s. clear. induction l as [|x l IH]; intros s; cbn [map fold_left]; [reflexivity|]. replace (- (- s + - x)) with (s + x) by ring. apply IH. }
  assert (E' : Rsum (map Ropp l) = - Rsum l) by (clear; induction l as [|x l IH]; cbn [map]; [unfold Rsum; cbn; ring|]; change (Rsum (?a :: ?b)) with (a + Rsum b); rewrite IH; ring).
  rewrite E, E' in C. unfold r' in C. replace (- (0 + - rsum rnd l)) with (0 + rsum rnd l) in C by ring. replace (- rnd (0 + rsum rnd l) - - Rsum l) with (- (rnd (0 + rsum rnd l) - Rsum l)) in C by ring. rewrite Rabs_Ropp in C. apply C; [|exact H]. clear - F. induction F; constructor; [lra|assumption].
Qed.
(** The largest deposits are never negative and keep to the room that is left, and the largest withdrawals are never positive and keep to
    theirs, up to (2n + 3) units of relative error; what has been paid in or out is counted up to 2(m + 1) units, m transactions. *)
Theorem C116_limits : forall u rnd pw e a d limit target, rounding rnd -> accurate u rnd -> (forall t, 0 < growth rnd pw e (r_rate a) (r_nper a) t) ->
  d <> [] -> (forall k w, In (k, w) d -> 0 < w) -> 8 * u * INR (List.length d) <= 1 -> 8 * u * (INR (List.length (r_txns a)) + 1) <= 1 ->
  let small := (2 * INR (List.length d) + 3) * u in let small' := 2 * (INR (List.length (r_txns a)) + 1) * u in
  let deposited := Rsum (filter (fun v => Rltb 0 v) (dvals (r_txns a))) in let withdrawn := Rsum (filter (fun v => Rltb v 0) (dvals (r_txns a))) in
  (exists plan counted, max_inflows rnd pw e a (Fin limit) d PInf target = Ok (map (fun kx => (fst kx, Fin (snd kx))) plan) /\
     dkeys plan = dkeys d /\ (forall k x, In (k, x) plan -> 0 <= x) /\
     Rabs (counted - deposited) <= small' * deposited /\ Rsum (dvals plan) <= Rmax (rnd (limit - counted)) 0 * (1 + small)) /\
  (exists plan counted, max_outflows rnd pw e a (Fin limit) d MInf target = Ok (map (fun kx => (fst kx, Fin (snd kx))) plan) /\
     dkeys plan = dkeys d /\ (forall k x, In (k, x) plan -> x <= 0) /\
     Rabs (counted - withdrawn) <= small' * - withdrawn /\ Rmin (rnd (limit - counted)) 0 * (1 + small) <= Rsum (dvals plan)).
Proof.
  intros u rnd pw e a d limit target Rd A Gp NE Pos Hu Hm small small' deposited withdrawn. set (dr := Rmax (rnd (limit - flows rnd (fun v => Rltb 0 v) a)) 0). set (wr := Rmin (rnd (limit - flows rnd (fun v => Rltb v 0) a)) 0). pose proof Rd as (M & Z & I). assert (U : 0 <= u < 1) by apply A. pose proof (pos_INR (List.length d)) as n0.
  assert (Lf : forall f, INR (List.length (filter f (dvals (r_txns a)))) <= INR (List.length (r_txns a))).
  { intros f. apply le_INR. unfold dvals. rewrite <- (map_length snd (r_txns a)). generalize (map snd (r_txns a)) as l. induction l as [|x l IH]; cbn; [lia|]. destruct (f x); cbn; lia. }
  assert (CI : Rabs (flows rnd (fun v => Rltb 0 v) a - deposited) <= small' * deposited).
  { assert (Fp : Forall (Rle 0) (filter (fun v => Rltb 0 v) (dvals (r_txns a)))) by (apply Forall_forall; intros x Hx; apply filter_In in Hx; destruct Hx as [_ Hx]; rb; lra).
    specialize (Lf (fun v => Rltb 0 v)). unfold flows, deposited. eapply Rle_trans; [apply (counted u rnd _ A Fp); nra|]. apply Rmult_le_compat_r; [apply Rsum_nonneg; now apply Forall_forall|]. unfold small'. nra. }
  assert (CO : Rabs (flows rnd (fun v => Rltb v 0) a - withdrawn) <= small' * - withdrawn).
  { assert (Fp : Forall (fun x => x <= 0) (filter (fun v => Rltb v 0) (dvals (r_txns a)))) by (apply Forall_forall; intros x Hx; apply filter_In in Hx; destruct Hx as [_ Hx]; rb; lra).
    specialize (Lf (fun v => Rltb v 0)). unfold flows, withdrawn. eapply Rle_trans; [apply (counted_out u rnd _ A Fp); nra|]. assert (Rsum (filter (fun v => Rltb v 0) (dvals (r_txns a))) <= 0) by (apply Rsum_nonpos; now apply Forall_forall). apply Rmult_le_compat_r; [lra|]. unfold small'. nra. }
  assert (sm : 0 <= small) by (unfold small; apply Rmult_le_pos; lra).
  destruct (normalized_ok u rnd d A NE ltac:(intros; apply Rlt_le; eapply Pos; eassumption)) as (NE' & NP & _).
  unfold max_inflows, max_outflows, transactions_to_balance. set (nt := normalized rnd d) in *. set (accum := fold_left _ nt 0).
  assert (A0 : 0 < accum).
  { unfold accum. assert (G : forall l s, 0 <= s -> (forall k w, In (k, w) l -> 0 < w) -> (l <> [] \/ 0 < s) -> 0 < fold_left (fun s kv => rnd (s + rnd (snd kv * growth rnd pw e (r_rate a) (r_nper a) (rnd (1 - fst kv))))) l s).
    { induction l as [|[k w] l IH]; intros s Hs F O; cbn [fold_left fst snd]; [destruct O as [O | O]; [contradiction|exact O]|].
      assert (P : 0 < rnd (s + rnd (w * growth rnd pw e (r_rate a) (r_nper a) (rnd (1 - k))))). { apply (accurate_pos u); [exact A|]. assert (0 < rnd (w * growth rnd pw e (r_rate a) (r_nper a) (rnd (1 - k)))); [|lra]. apply (accurate_pos u); [exact A|]. apply Rmult_lt_0_compat; [eapply F; now left|apply Gp]. }
      apply IH; [lra|intros; eapply F; right; eassumption|now right]. }
    apply G; [lra|exact NP|now left]. }
  destruct (Reqb accum 0) eqn:Ea; [apply Reqb_t in Ea; lra|]. cbn [esub ernd]. set (X := ernd rnd (ediv _ accum)). split.
  - set (m := rnd (limit - flows rnd (fun v => Rltb 0 v) a)) in *. assert (Em : emax (emin (Fin m) PInf) (Fin 0) = Fin dr).
    { unfold dr, emin, emax, eleb. destruct (Rleb m 0) eqn:L; rb; [rewrite Rmax_right by lra; reflexivity|rewrite Rmax_left; [reflexivity|lra]]. }
    rewrite Em. assert (D0 : 0 <= dr) by (unfold dr; apply Rmax_r).
    assert (TT : exists T, emax (emin X (Fin dr)) (Fin 0) = Fin T /\ 0 <= T <= dr).
    { unfold emin, emax, eleb. destruct X as [x| |].
      - destruct (Rleb x dr) eqn:L1; [destruct (Rleb x 0) eqn:L2|destruct (Rleb dr 0) eqn:L2]; rb; eexists; (split; [reflexivity|lra]).
      - destruct (Rleb dr 0) eqn:L2; rb; eexists; (split; [reflexivity|lra]).
      - eexists; (split; [reflexivity|lra]). }
    destruct TT as (T & -> & T0). destruct (plan_series u rnd d T Rd A NE Pos Hu) as (plan & E & K & P & _ & B). exists plan, (flows rnd (fun v => Rltb 0 v) a). fold nt in E. rewrite E. split; [reflexivity|]. split; [exact K|]. split; [apply P; lra|]. split; [exact CI|]. fold m. fold dr.
    rewrite (Rabs_pos_eq T) in B by lra. fold small in B. apply Rabs_def2_le in B. assert (T * (1 + small) <= dr * (1 + small)) by (apply Rmult_le_compat_r; lra). lra.
  - set (m := rnd (limit - flows rnd (fun v => Rltb v 0) a)) in *. assert (Em : emin (emax (Fin m) MInf) (Fin 0) = Fin wr).
    { unfold wr, emin, emax, eleb. destruct (Rleb m 0) eqn:L; rb; [rewrite Rmin_left by lra; reflexivity|rewrite Rmin_right; [reflexivity|lra]]. }
    rewrite Em. assert (D0 : wr <= 0) by (unfold wr; apply Rmin_r).
    assert (TT : exists T, emax (emin X (Fin 0)) (Fin wr) = Fin T /\ wr <= T <= 0).
    { unfold emin, emax, eleb. destruct X as [x| |].
      - destruct (Rleb x 0) eqn:L1; [destruct (Rleb x wr) eqn:L2|destruct (Rleb 0 wr) eqn:L2]; rb; eexists; (split; [reflexivity|lra]).
      - destruct (Rleb 0 wr) eqn:L2; rb; eexists; (split; [reflexivity|lra]).
      - eexists; (split; [reflexivity|lra]). }
    destruct TT as (T & -> & T0). destruct (plan_series u rnd d T Rd A NE Pos Hu) as (plan & E & K & _ & P & B). exists plan, (flows rnd (fun v => Rltb v 0) a). fold nt in E. rewrite E. split; [reflexivity|]. split; [exact K|]. split; [apply P; lra|]. split; [exact CO|]. fold m. fold wr.
    rewrite (Rabs_left1 T) in B by lra. fold small in B. apply Rabs_def2_le in B. assert (wr * (1 + small) <= T * (1 + small)) by (apply Rmult_le_compat_r; lra). lra.
Qed.
Print Assumptions C116_limits.

(** ** Floats and Decimals are such number types *)
From Flocq Require Import Core Relative.
Definition ten : radix := Build_radix 10 eq_refl.
Lemma float64_int n : (Z.abs n < 2 ^ 53)%Z -> float64 (IZR n) = IZR n.
Proof.
  intros H. apply round_generic; [apply valid_rnd_N|]. apply generic_format_FLT. exists (Float radix2 n 0); [|exact H|discriminate]. unfold F2R. cbn. ring.
Qed.
Lemma decimal28_int n : (Z.abs n < 10 ^ 28)%Z -> decimal28 (IZR n) = IZR n.
Proof.
  intros H. apply round_generic; [apply valid_rnd_N|]. apply generic_format_FLX. exists (Float ten n 0); [|exact H]. unfold F2R. cbn. ring.
Qed.
Lemma float64_accurate : accurate_from (bpow radix2 (-1022)) (/ 2 * bpow radix2 (-53 + 1)) float64.
Proof.
  split; [|split; [apply bpow_ge_0|]].
  - split; [apply Rmult_le_pos; [lra|apply bpow_ge_0]|]. pose proof (bpow_le radix2 (-53 + 1) 0 ltac:(discriminate)) as H. change (bpow radix2 0) with 1 in H. set (e := bpow _ _) in *. clearbody e. lra.
  - intros x H. apply relative_error_N_FLT; [reflexivity|exact H].
Qed.
Lemma decimal28_accurate : accurate (/ 2 * bpow ten (-28 + 1)) decimal28.
Proof. apply C113_number_types. Qed.
(** the unit of relative error is tiny *)
Lemma small_unit : 0 <= / 2 * bpow ten (-28 + 1) <= 1 / 1000000.
Proof. split; [apply Rmult_le_pos; [lra|apply bpow_ge_0]|]. pose proof (bpow_le ten (-28 + 1) (-6) ltac:(discriminate)) as H. assert (E : bpow ten (-6) = / 1000000) by reflexivity. rewrite E in H. set (e := bpow _ _) in *. clearbody e. lra. Qed.
Lemma small_unit64 : 0 <= / 2 * bpow radix2 (-53 + 1) <= 1 / 1000000 /\ 0 <= bpow radix2 (-1022) <= 1 / 1000000.
Proof.
  assert (E : bpow radix2 (-20) = / 1048576) by reflexivity. pose proof (bpow_le radix2 (-53 + 1) (-20) ltac:(discriminate)) as H. pose proof (bpow_le radix2 (-1022) (-20) ltac:(discriminate)) as H'. pose proof (bpow_ge_0 radix2 (-53 + 1)). pose proof (bpow_ge_0 radix2 (-1022)). rewrite E in *. set (a := bpow radix2 (-53 + 1)) in *. set (b := bpow radix2 (-1022)) in *. clearbody a b. lra.
Qed.

(** inflation of 2% in floats, a century; a monthly timing in floats; and it splits 1200 *)
Example C114_sat : (exists f, inflation_adjust float64 (fun _ => 2/100) 2100 2000 = Ok f /\ 1 <= f) /\ (exists f, inflation_adjust float64 (fun _ => 2/100) 2000 2100 = Ok f /\ 0 <= f <= 1).
Proof.
  destruct (C114_monotone float64 (fun _ => 2/100) (proj1 C113_number_types) (float64_int 1 eq_refl) ltac:(intros; lra)) as (f & E & S & M & _).
  pose proof (M 2000%Z 2100%Z 2000%Z ltac:(lia)) as H. rewrite S in H. pose proof (M 2000%Z 2100%Z 2100%Z ltac:(lia)) as H'. rewrite S in H'.
  split; eexists; rewrite E; (split; [reflexivity|lra]).
Qed.
Example C114_floats_sat : exists f g, inflation_adjust float64 (fun _ => 2/100) 2001 2000 = Ok f /\ inflation_adjust float64 (fun _ => 2/100) 2000 2001 = Ok g /\ Rabs (f * g - 1) <= / 2 * bpow radix2 (-53 + 1).
Proof.
  destruct small_unit64 as [U1 U2]. destruct (C114_accuracy_floats _ _ float64 (fun _ => 2/100) 2000 2001 (proj1 C113_number_types) float64_accurate (float64_int 1 eq_refl)) as (f & g & F & G & _ & B).
  - set (b := bpow radix2 (-1022)) in *. clearbody b. lra.
  - intros; lra.
  - lia.
  - change (years 2000 2001) with [2000%Z]. change (Z.to_nat (2001 - 2000)) with 1%nat. cbn [compound Nat.mul Nat.add pow]. set (a := / 2 * bpow radix2 (-53 + 1)) in *. set (b := bpow radix2 (-1022)) in *. clearbody a b.
    apply Rle_trans with (4 * (1 / 1000000)); [|lra]. apply Rmult_le_compat; try lra; nra.
  - exists f, g. split; [exact F|]. split; [exact G|]. apply Rabs_le. set (a := / 2 * bpow radix2 (-53 + 1)) in *. clearbody a. lra.
Qed.
Example C115_sat : List.length (timing float64 0 12) = 12%nat /\ StronglySorted Rlt (dkeys (timing float64 0 12)) /\
  exists s, time_series float64 (timing float64 0 12) 1200 = Ok s /\ Rabs (Rsum (dvals s) - 1200) <= 1.
Proof.
  destruct small_unit64 as [U1 U2]. pose proof float64_accurate as FA. destruct (C115_timing (bpow radix2 (-1022)) (/ 2 * bpow radix2 (-53 + 1)) float64 0 12 (proj1 C113_number_types) float64_accurate (float64_int 1 eq_refl) (float64_int 12 eq_refl)) as (L & S & K & (w & W0 & W) & Sm).
  - lra.
  - set (a := / 2 * bpow radix2 (-53 + 1)) in *. clearbody a. lra.
  - set (b := bpow radix2 (-1022)) in *. clearbody b. lra.
  - set (a := / 2 * bpow radix2 (-53 + 1)) in *. set (b := bpow radix2 (-1022)) in *. clearbody a b. set (d := timing float64 0 12) in *. change (Pos.to_nat 12) with 12%nat in L. split; [exact L|]. split; [exact S|].
    assert (Sw : Rsum (dvals d) = 12 * w). { assert (G : forall l, (forall x, In x l -> x = w) -> Rsum l = INR (List.length l) * w). { induction l as [|x l IH]; intros H; [cbn; ring|]. change (Rsum (x :: l)) with (x + Rsum l). cbn [List.length]. rewrite S_INR, IH by (intros; apply H; now right). rewrite (H x) by now left. ring. } rewrite (G _ W). unfold dvals. rewrite map_length, L. cbn. ring. }
    destruct (C115_time_series b a float64 d 1200 (proj1 C113_number_types) FA) as (s & E & _ & B).
    + lra.
    + rewrite L. cbn. lra.
    + intros k x Hin. right. assert (x = w) as -> by (apply W, in_map_iff; exists (k, x); auto). rewrite Sw in *. rewrite (Rabs_pos_eq 1200) by lra. assert (b * w <= 1 / 1000000 * w) by (apply Rmult_le_compat_r; lra). split; [exact W0|]. split; [|split; [|right]]; lra.
    + exists s. split; [exact E|]. eapply Rle_trans; [exact B|]. rewrite L, (Rabs_pos_eq 1200) by lra. cbn. lra.
Qed.

(** an account with Decimals: 1000 at 6% compounded monthly, a deposit of 100 in mid-year, emptied by withdrawals at both ends of the year *)
Definition powers (rnd : R -> R) (b x : R) : R := rnd (Rpower b x).
Definition saving : raccount := {| r_bal := 1000; r_rate := 6/100; r_nper := Some 12%positive; r_txns := [(1/2, 100)] |}.
Lemma powers_ok rnd : rounding rnd -> rnd 1 = 1 -> power_ok (powers rnd) /\ forall b x y, 1 <= b -> 0 <= x <= y -> powers rnd b x <= powers rnd b y.
Proof.
  intros (M & Z & I) One. split; [split|].
  - intros b x _. unfold powers. rewrite <- Z. apply M. apply Rlt_le, exp_pos.
  - intros b x Hb Hx. unfold powers. rewrite <- One. apply M. unfold Rpower. rewrite <- exp_0. assert (0 <= ln b) by (destruct Hb as [Hb | <-]; [apply Rlt_le; rewrite <- ln_1; apply ln_increasing; lra|rewrite ln_1; lra]). assert (0 <= x * ln b) by now apply Rmult_le_pos. destruct H0 as [H0 | <-]; [apply Rlt_le, exp_increasing; exact H0|lra].
  - intros b x y Hb Hx. unfold powers. apply M. destruct Hb as [Hb | <-]; [apply Rle_Rpower; lra|]. unfold Rpower. rewrite ln_1, !Rmult_0_r. lra.
Qed.
Example C116_sat : sound decimal28 (decimal28 (exp 1)) saving /\ power_ok (powers decimal28) /\ rounding decimal28 /\ decimal28 (-1) = -1 /\
  1000 <= balance_at_time decimal28 (powers decimal28) (decimal28 (exp 1)) saving 1 /\
  exists plan, max_outflows decimal28 (powers decimal28) (decimal28 (exp 1)) saving MInf [(0, 1); (1, 3)] MInf (Fin 0) = Ok plan /\
    Rabs (balance_at_time decimal28 (powers decimal28) (decimal28 (exp 1)) (pay decimal28 saving plan) 1) <= 20 * (/ 2 * bpow ten (-28 + 1)) * balance_at_time decimal28 (powers decimal28) (decimal28 (exp 1)) saving 1.
Proof.
  assert (Rd : rounding decimal28) by apply C113_number_types. pose proof Rd as (M & Z & I). destruct (powers_ok decimal28 Rd (decimal28_int 1 eq_refl)) as [P _].
  assert (E1 : 1 <= decimal28 (exp 1)). { rewrite <- (decimal28_int 1 eq_refl) at 1. apply M. pose proof (exp_increasing 0 1 ltac:(lra)) as H. rewrite exp_0 in H. lra. }
  assert (S : sound decimal28 (decimal28 (exp 1)) saving).
  { split; [apply (decimal28_int 1000 eq_refl)|]. split; [cbn; auto|]. split; [intros k v [H | []]; injection H as <- <-; split; [lra|apply (decimal28_int 100 eq_refl)]|]. split; [exact E1|]. cbn. lra. }
  assert (Gp : forall t, 0 < growth decimal28 (powers decimal28) (decimal28 (exp 1)) (r_rate saving) (r_nper saving) t).
  { intros t. unfold growth. cbn [r_nper saving]. apply (accurate_pos _ _ _ decimal28_accurate). apply exp_pos. }
  assert (B : 1000 <= balance_at_time decimal28 (powers decimal28) (decimal28 (exp 1)) saving 1).
  { apply (C116_no_losses decimal28 (powers decimal28) (decimal28 (exp 1)) saving 1 Rd (decimal28_int 1 eq_refl) P S); cbn; try lra. intros k v [H | []]. injection H as <- <-. lra. }
  split; [exact S|]. split; [exact P|]. split; [exact Rd|]. split; [apply (decimal28_int (-1) eq_refl)|]. split; [exact B|].
  destruct (C116_emptied _ decimal28 (powers decimal28) (decimal28 (exp 1)) saving [(0, 1); (1, 3)] Rd decimal28_accurate Gp) as (plan & E & _ & L).
  - split; [discriminate|]. split; [cbn; destruct (Reqb 0 1) eqn:E; [apply Reqb_t in E; lra|auto]|]. intros k w [H | [H | []]]; injection H as <- <-; (split; [lra|split; [lra|]]); cbn.
    + destruct (Reqb 0 (1/2)) eqn:E; [apply Reqb_t in E; lra|reflexivity].
    + destruct (Reqb 1 (1/2)) eqn:E; [apply Reqb_t in E; lra|reflexivity].
  - pose proof small_unit as U. set (a := / 2 * bpow ten (-28 + 1)) in *. clearbody a. cbn. lra.
  - lra.
  - exists plan. split; [exact E|]. eapply Rle_trans; [exact L|]. right. f_equal. f_equal. cbn. ring.
Qed.
