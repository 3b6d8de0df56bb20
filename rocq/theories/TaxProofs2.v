From Verif Require Import Base BaseFacts InflationModel InflationProofs RegModel RegSpec Prop_RRSP TaxModel TaxSpec TaxProofs.
From Coq Require Import Permutation Sorted Lia.

Lemma asc_of (d : table) : table_ok d -> exists l, Permutation d l /\ asc l /\ l <> [].
Proof.
  intros [Hn W]. exists (psort d). split; [symmetry; apply psort_perm|]. split; [apply psort_asc; exact W|].
  intro E. pose proof (psort_perm d) as P. rewrite E in P. apply Permutation_nil in P. congruence.
Qed.
Lemma progressive_sorted (d : table) l x : Permutation d l -> asc l -> progressive d x == prog l x.
Proof. intros P A. rewrite (progressive_perm d l x P). apply prog_spec. exact A. Qed.

(** ** Monotone and Lipschitz *)
Lemma prog_lip : forall l x y R, asc l -> l <> [] -> (forall k r, In (k, r) l -> 0 <= r <= R) -> x <= y ->
  prog l x <= prog l y /\
  (forall k r rest, l = (k, r) :: rest -> prog l y - prog l x <= R * (qmax y k - qmax x k)).
Proof.
  induction l as [|[k r] rest IH]; intros x y R Hs Hne Hr Hxy; [congruence|]. 
  assert (Hkr : 0 <= r <= R) by (apply (Hr k); left; reflexivity).
  destruct rest as [|[k2 r2] rest'].
  - cbn [prog]. split; [|intros k' r' rest'' E; injection E as <- <- <-].
    + assert (qmax 0 (x - k) <= qmax 0 (y - k)) by (unfold qmax; destruct (Qle_bool 0 (x - k)) eqn:E1, (Qle_bool 0 (y - k)) eqn:E2; qb; lra).
      setoid_replace (r * qmax 0 (x - k)) with (qmax 0 (x - k) * r) by ring. setoid_replace (r * qmax 0 (y - k)) with (qmax 0 (y - k) * r) by ring.
      apply Qplus_le_compat; [|apply Qle_refl]. apply Qmult_le_compat_r; tauto.
    + assert (E : qmax 0 (y - k) - qmax 0 (x - k) == qmax y k - qmax x k) by (unfold qmax; destruct (Qle_bool 0 (x - k)) eqn:E1, (Qle_bool 0 (y - k)) eqn:E2, (Qle_bool y k) eqn:E3, (Qle_bool x k) eqn:E4; qb; lra).
      assert (P : 0 <= qmax y k - qmax x k) by (unfold qmax; destruct (Qle_bool y k) eqn:E3, (Qle_bool x k) eqn:E4; qb; lra).
      setoid_replace (r * qmax 0 (y - k) + 0 - (r * qmax 0 (x - k) + 0)) with ((qmax 0 (y - k) - qmax 0 (x - k)) * r) by ring.
      rewrite E, (Qmult_comm R). rewrite !(Qmult_comm (qmax y k - qmax x k)). apply Qmult_le_compat_r; tauto.
  - inversion Hs as [|? ? Hs' Hall]; subst. assert (H12 : k < k2) by (inversion Hall; subst; assumption).
    destruct (IH x y R Hs' ltac:(discriminate)) as [IH1 IH2]; [intros; apply (Hr k0); right; assumption|exact Hxy|].
    specialize (IH2 k2 r2 rest' eq_refl). remember (prog ((k2, r2) :: rest')) as pr eqn:Epr.
    assert (Hp : forall z, prog ((k, r) :: (k2, r2) :: rest') z = r * qmax 0 (qmin z k2 - k) + pr z) by (intro z; subst pr; reflexivity).
    rewrite !Hp. clear Epr Hp.
    set (A := qmax 0 (qmin y k2 - k)) in *. set (B := qmax 0 (qmin x k2 - k)) in *.
    assert (HAB : B <= A) by (unfold A, B, qmax, qmin; destruct (Qle_bool x k2) eqn:E1, (Qle_bool y k2) eqn:E2; 
      repeat match goal with |- context [Qle_bool ?u ?v] => destruct (Qle_bool u v) eqn:?Ez end; qb; lra).
    split.
    + rewrite !(Qmult_comm r). apply Qplus_le_compat; [apply Qmult_le_compat_r; tauto|exact IH1].
    + intros k' r' rest'' E. injection E as <- <- <-.
      assert (HT : A - B + (qmax y k2 - qmax x k2) == qmax y k - qmax x k).
      { unfold A, B, qmax, qmin. destruct (Qle_bool x k2) eqn:E1, (Qle_bool y k2) eqn:E2, (Qle_bool x k) eqn:E3, (Qle_bool y k) eqn:E4;
        repeat match goal with |- context [Qle_bool ?u ?v] => destruct (Qle_bool u v) eqn:?Ez end; qb; lra. }
      rewrite <- HT. assert (r * (A - B) <= R * (A - B)) by (apply Qmult_le_compat_r; [tauto|lra]). lra.
Qed.
Lemma progressive_lip (d : table) x y R : table_ok d -> (forall k r, In (k, r) d -> 0 <= r <= R) -> x <= y ->
  progressive d x <= progressive d y /\ progressive d y - progressive d x <= R * (y - x).
Proof.
  intros Hd Hr Hxy. destruct (asc_of d Hd) as (l & P & A & Hn).
  rewrite !(progressive_sorted d l _ P A).
  assert (Hr' : forall k r, In (k, r) l -> 0 <= r <= R) by (intros k r Hin; apply (Hr k); apply Permutation_sym in P; apply (Permutation_in _ P); exact Hin).
  destruct (prog_lip l x y R A Hn Hr' Hxy) as [H1 H2]. split; [exact H1|]. destruct l as [|[k r] rest]; [congruence|].
  specialize (H2 k r rest eq_refl). eapply Qle_trans; [exact H2|].
  assert (0 <= r <= R) by (apply (Hr' k); left; reflexivity).
  rewrite !(Qmult_comm R). apply Qmult_le_compat_r; [|lra]. unfold qmax. destruct (Qle_bool y k) eqn:E1, (Qle_bool x k) eqn:E2; qb; lra.
Qed.
Lemma progressive_nonneg (d : table) x : rates_nonneg d -> 0 <= progressive d x.
Proof.
  intro H. unfold progressive. apply Qsum_nonneg. intros q Hq. apply in_map_iff in Hq. destruct Hq as ([k r] & <- & Hin). cbn [fst snd].
  apply Qmult_le_0_compat; [apply (H k); exact Hin|]. unfold in_bracket. apply qmax_l.
Qed.
Lemma progressive_below (d : table) x m : table_ok d -> lowest d m -> x <= m -> progressive d x == 0.
Proof.
  intros Hd [_ Hm] Hx. destruct (asc_of d Hd) as (l & P & A & Hn). rewrite (progressive_sorted d l _ P A).
  apply (prog_below l x m); [|exact Hx]. intros [k r] Hin. apply Hm. apply (in_map fst) with (x := (k, r)). apply Permutation_sym in P. apply (Permutation_in _ P). exact Hin.
Qed.

(** ** tax_money on a listed year *)
Lemma lowest_ex (d : table) : d <> [] -> exists m r, lowest d m /\ In (m, r) d.
Proof.
  intro H. destruct (qmin_head (dkeys d)) as (m & _ & Hin & Hm); [destruct d; [congruence|discriminate]|].
  unfold dkeys in Hin. assert (Hin' := Hin). apply in_map_iff in Hin'. destruct Hin' as ([k r] & <- & Hi). exists k, r. split; [split; assumption|exact Hi].
Qed.
Lemma lowest_eq (d : table) m m' : lowest d m -> lowest d m' -> m == m'.
Proof. intros [A B] [A' B']. apply Qle_antisym; [apply B; exact A'|apply B'; exact A]. Qed.
Lemma bracket_formula (d acc : table) x b : table_ok d -> add_accum d = Ok acc -> is_bracket d x b ->
  exists a r, dget Qeq_bool acc b = Some a /\ dget Qeq_bool d b = Some r /\ gross_tax d x (a + (x - b) * r).
Proof.
  intros Hd Hacc [Hin Hb]. destruct (add_accum_sorted d Hd) as (k & r & l & Es & Ha & E2). rewrite Hacc in E2. injection E2 as ->.
  pose proof (psort_perm d) as P. rewrite Es in P. apply Permutation_sym in P.
  assert (Hin' : In b (map fst ((k, r) :: l))) by (apply (Permutation_in _ (Permutation_map fst P)); exact Hin).
  assert (Hkey : forall k', In k' (dkeys d) <-> In k' (map fst ((k, r) :: l))).
  { intro k'. split; apply Permutation_in; [|apply Permutation_sym]; apply Permutation_map; exact P. }
  assert (Hlow : lowest d k).
  { split; [apply Hkey; left; reflexivity|]. intros k' Hk'. apply Hkey in Hk'. destruct Hk' as [<-|Hk']; [apply Qle_refl|].
    apply in_map_iff in Hk'. destruct Hk' as ([a q] & <- & Hk'). inversion Ha as [|? ? _ Hx]; subst. rewrite Forall_forall in Hx. specialize (Hx _ Hk'). cbn in *. lra. }
  assert (Hgd : forall k' v, dget Qeq_bool ((k, r) :: l) k' = v -> dget Qeq_bool d k' = v).
  { intros k' v <-. apply dget_perm; [apply Hd|exact P]. }
  assert (Hkd : In (k, r) d) by (apply Permutation_sym in P; apply (Permutation_in _ P); left; reflexivity).
  destruct (Qlt_le_dec k x) as [Hx|Hx].
  - assert (Hbx : b < x /\ forall k', In k' (dkeys d) -> k' < x -> k' <= b).
    { destruct Hb as [[H1 H2]|[H1 H2]]; [split; assumption|]. exfalso. apply (H1 k); [apply Hlow|exact Hx]. }
    destruct Hbx as [Hbx Hmax].
    destruct (marginal_formula l k r 0 x b Ha Hx Hin' Hbx) as (a & q & A & B & C).
    + intros k' Hk'. apply Hmax. apply Hkey. exact Hk'.
    + exists a, q. split; [exact A|]. split; [apply Hgd; exact B|]. exists k, r. split; [exact Hlow|]. split; [exact Hkd|]. split; [|intro; lra].
      intros _. rewrite C, (progressive_sorted d _ x P Ha). ring.
  - assert (Hbk : b == k).
    { destruct Hb as [[H1 H2]|[H1 H2]].
      - assert (k <= b) by (apply Hlow; exact Hin). lra.
      - apply Qle_antisym; [apply H2; apply Hlow|apply Hlow; exact Hin]. }
    exists 0, r. split; [|split].
    + cbn [dget]. assert (E : Qeq_bool b k = true) by (apply Qeq_bool_t; exact Hbk). rewrite E. reflexivity.
    + apply Hgd. cbn [dget]. assert (E : Qeq_bool b k = true) by (apply Qeq_bool_t; exact Hbk). rewrite E. reflexivity.
    + exists k, r. split; [exact Hlow|]. split; [exact Hkd|]. split; [intro; lra|]. intros _. rewrite Hbk. ring.
Qed.
Lemma tax_money_listed s x y ded cred d c : well_built s -> dget Z.eqb (x_brk s) y = Some d -> credit_rate s y = Ok c ->
  exists g, gross_tax d (x - ded) g /\ tax_money s x y ded cred = Ok (qmax (g - cred * c) 0, s).
Proof.
  intros (_ & Hw & _) Hy Hc. destruct (Hw y d Hy) as (Hd & acc & Ea & Eacc).
  destruct (bracket_spec d (x - ded) (proj1 Hd)) as (b & Eb & Hb).
  destruct (bracket_formula d acc (x - ded) b Hd Eacc Hb) as (a & r & A & B & G).
  exists (a + (x - ded - b) * r). split; [exact G|]. unfold tax_money, marginal_bracket, tax_brackets. rewrite Hy. cbn [bind].
  rewrite Hy. cbn [bind]. rewrite Eb. cbn [bind]. unfold dget_r at 1. rewrite B. cbn [bind]. unfold accum. rewrite Ea. cbn [bind].
  unfold dget_r. rewrite A. cbn [bind]. rewrite Hc. reflexivity.
Qed.
Lemma gross_unique d x g g' : table_ok d -> gross_tax d x g -> gross_tax d x g' -> g == g'.
Proof.
  intros Hd (m & r & L & I & A & B) (m' & r' & L' & I' & A' & B').
  pose proof (lowest_eq d m m' L L') as E. destruct (Qlt_le_dec m x) as [H|H].
  - rewrite (A H), (A' ltac:(lra)). reflexivity.
  - rewrite (B H), (B' ltac:(lra)). assert (r = r').
    { apply (qIn_dget d m r (proj2 Hd)) in I. apply (qIn_dget d m' r' (proj2 Hd)) in I'. rewrite (qdget_congr d m m' E) in I. congruence. }
    subst. rewrite E. reflexivity.
Qed.

(** ** Scaling *)
Lemma scale_keys_ok f : forall b out, 0 < f -> dwf Qeq_bool b ->
  (forall x y, In x out -> In y b -> ~ fst x == fst y * f) ->
  scale_keys (Ok f) b out = Ok (out ++ map (fun kv => (fst kv * f, snd kv)) b).
Proof.
  induction b as [|[k r] l IH]; intros out Hf W Hd; cbn [scale_keys bind map fst snd]; [rewrite app_nil_r; reflexivity|].
  rewrite dset_snoc.
  - rewrite IH; [rewrite <- app_assoc; reflexivity|exact Hf|exact (proj2 W)|].
    intros x y Hx Hy. apply in_app_or in Hx. destruct Hx as [Hx|[<-|[]]]; [apply Hd; [exact Hx|right; exact Hy]|]. cbn [fst].
    intro E. destruct y as [k' r']. cbn [fst] in E. apply (qdwf_In_ne ((k, r) :: l) k r k' r' l eq_refl W Hy). apply (Qmult_inj_r k k' f); [lra|exact E].
  - intros x Hx. apply (Hd x (k, r)); [exact Hx|left; reflexivity].
Qed.
Lemma dget_scaled f (d : table) k : 0 < f -> dget Qeq_bool (map (fun kv => (fst kv * f, snd kv)) d) (k * f) = dget Qeq_bool d k.
Proof.
  intro Hf. induction d as [|[k' r] l IH]; [reflexivity|]. cbn. destruct (Qeq_bool (k * f) (k' * f)) eqn:E, (Qeq_bool k k') eqn:E'; qb; try reflexivity; try exact IH.
  - exfalso. apply E'. apply (Qmult_inj_r k k' f); [lra|exact E].
  - exfalso. apply E. rewrite E'. reflexivity.
Qed.
Lemma scaled_ok f (d : table) : 0 < f -> table_ok d -> table_ok (map (fun kv => (fst kv * f, snd kv)) d).
Proof.
  intros Hf [Hn W]. split; [destruct d; [congruence|discriminate]|]. induction d as [|[k r] l IH]; [exact I|]. destruct W as [A B]. cbn. split.
  - rewrite dget_scaled by exact Hf. exact A.
  - destruct l as [|x l']; [exact I|apply IH; [discriminate|exact B]].
Qed.
Lemma same_table_refl t : same_table t t.
Proof. induction t; constructor; [split; reflexivity|assumption]. Qed.
Lemma same_table_sym t u : same_table t u -> same_table u t.
Proof. induction 1 as [|? ? ? ? [A B]]; constructor; [split; symmetry; assumption|assumption]. Qed.
Lemma same_table_trans t u v : same_table t u -> same_table u v -> same_table t v.
Proof.
  intro H. revert v. induction H as [|x y t u [A B] H IH]; intros v Hv; inversion Hv as [|? z ? v' [C D] Hv']; subst; constructor.
  - split; etransitivity; eassumption.
  - apply IH. exact Hv'.
Qed.
Lemma scaled_inflated f d : same_table (map (fun kv => (fst kv * f, snd kv)) d) (inflated f d).
Proof. unfold inflated. induction d as [|[k r] l IH]; constructor; [cbn; split; [ring|reflexivity]|exact IH]. Qed.
Lemma inflated_same f g a b : f == g -> same_table a b -> same_table (inflated f a) (inflated g b).
Proof. intros E H. induction H as [|? ? ? ? [A B] H IH]; constructor; [cbn; split; [rewrite E, A; reflexivity|exact B]|exact IH]. Qed.
Lemma inflated_comp f g d : same_table (inflated f (inflated g d)) (inflated (f * g) d).
Proof. unfold inflated. rewrite map_map. induction d as [|[k r] l IH]; constructor; [cbn; split; [ring|reflexivity]|exact IH]. Qed.
Lemma inflated_1 f d : f == 1 -> same_table d (inflated f d).
Proof. intro E. unfold inflated. induction d as [|[k r] l IH]; constructor; [cbn; split; [rewrite E; ring|reflexivity]|exact IH]. Qed.

(** progressive tax on equal tables, and on inflated ones *)
Lemma filter_same : forall (a b : table) p q, same_table a b -> p == q ->
  Forall2 Qeq (filter (fun k => Qlt_bool p k) (dkeys a)) (filter (fun k => Qlt_bool q k) (dkeys b)).
Proof.
  intros a b p q H E. induction H as [|[k r] [k' r'] a b [A B] H IH]; [constructor|]. cbn in *.
  assert (Hb : Qlt_bool p k = Qlt_bool q k') by (destruct (Qlt_bool p k) eqn:E1, (Qlt_bool q k') eqn:E2; try reflexivity; qb; exfalso; lra).
  rewrite Hb. destruct (Qlt_bool q k'); [constructor; [exact A|exact IH]|exact IH].
Qed.
Lemma foldmin_same : forall l l' x y, Forall2 Qeq l l' -> x == y -> fold_right qmin x l == fold_right qmin y l'.
Proof. intros l l' x y H E. induction H as [|a b l l' Hab H IH]; cbn; [exact E|]. rewrite Hab, IH. reflexivity. Qed.
Lemma progressive_same a b x y : same_table a b -> x == y -> progressive a x == progressive b y.
Proof.
  intros H E. unfold progressive.
  assert (Hg : forall a' b', same_table a' b' -> Qsum (map (fun kv => snd kv * in_bracket a (fst kv) x) a') == Qsum (map (fun kv => snd kv * in_bracket b (fst kv) y) b')).
  { intros a' b' H'. induction H' as [|[k r] [k' r'] a' b' [A B] H' IH]; [reflexivity|]. cbn [map Qsum fst snd] in *. rewrite IH. apply Qplus_comp; [|reflexivity].
    unfold in_bracket, above. rewrite (foldmin_same _ _ x y (filter_same a b k k' H A) E), A, B. reflexivity. }
  apply Hg. exact H.
Qed.
Lemma same_keys a b k : same_table a b -> In k (dkeys a) -> exists k', In k' (dkeys b) /\ k == k'.
Proof.
  induction 1 as [|[k1 r1] [k2 r2] a b [A B] H IH]; intro Hin; [destruct Hin|]. cbn in *. destruct Hin as [<-|Hin]; [exists k2; auto|].
  destruct (IH Hin) as (k' & P & Q'). exists k'. auto.
Qed.
Lemma same_entry a b k r : same_table a b -> In (k, r) a -> exists k' r', In (k', r') b /\ k == k' /\ r == r'.
Proof.
  induction 1 as [|[k1 r1] [k2 r2] a b [A B] H IH]; intro Hin; [destruct Hin|]. cbn in A, B. destruct Hin as [E|Hin]; [injection E as <- <-; exists k2, r2; cbn; auto|].
  destruct (IH Hin) as (k' & r' & P & Q'). exists k', r'. cbn. auto.
Qed.
Lemma same_dget a b k k' : same_table a b -> k == k' -> match dget Qeq_bool a k, dget Qeq_bool b k' with Some r, Some r' => r == r' | None, None => True | _, _ => False end.
Proof.
  intros H E. induction H as [|[k1 r1] [k2 r2] a b [A B] H IH]; cbn; [exact I|]. cbn in A, B.
  assert (Hb : Qeq_bool k k1 = Qeq_bool k' k2) by (destruct (Qeq_bool k k1) eqn:E1, (Qeq_bool k' k2) eqn:E2; try reflexivity; qb; exfalso; lra).
  rewrite Hb. destruct (Qeq_bool k' k2); [exact B|exact IH].
Qed.
Lemma same_ok a b : same_table a b -> table_ok a -> table_ok b.
Proof.
  intros H [Hn W]. split; [inversion H; subst; [congruence|discriminate]|]. clear Hn. induction H as [|[k1 r1] [k2 r2] a b [A B] H IH]; [exact I|].
  destruct W as [W1 W2]. split; [|apply IH; exact W2]. cbn in A. pose proof (same_dget a b k1 k2 H A) as Hd. rewrite W1 in Hd. destruct (dget Qeq_bool b k2); [contradiction|reflexivity].
Qed.
Lemma lowest_same a b m m' : same_table a b -> lowest a m -> lowest b m' -> m == m'.
Proof.
  intros H [A1 A2] [B1 B2]. apply Qle_antisym.
  - destruct (same_keys b a m' (same_table_sym _ _ H) B1) as (k & K1 & K2). specialize (A2 k K1). lra.
  - destruct (same_keys a b m H A1) as (k & K1 & K2). specialize (B2 k K1). lra.
Qed.
Lemma gross_same a b x g g' : table_ok a -> same_table a b -> gross_tax a x g -> gross_tax b x g' -> g == g'.
Proof.
  intros Ha H (m & r & L & I & A & B) (m' & r' & L' & I' & A' & B'). pose proof (lowest_same a b m m' H L L') as E.
  destruct (Qlt_le_dec m x) as [Hx|Hx].
  - rewrite (A Hx), (A' ltac:(lra)). apply progressive_same; [exact H|reflexivity].
  - rewrite (B Hx), (B' ltac:(lra)). apply (qIn_dget a m r (proj2 Ha)) in I. apply (qIn_dget b m' r' (proj2 (same_ok a b H Ha))) in I'.
    pose proof (same_dget a b m m' H E) as Hd. rewrite I, I' in Hd. rewrite E, Hd. reflexivity.
Qed.
Lemma foldmin_inflated f l : 0 < f -> forall x, fold_right qmin (f * x) (map (fun k => f * k) l) == f * fold_right qmin x l.
Proof.
  intro Hf. induction l as [|a l IH]; intro x; cbn; [reflexivity|]. rewrite IH. set (m := fold_right qmin x l).
  unfold qmin. destruct (Qle_bool (f * a) (f * m)) eqn:E1, (Qle_bool a m) eqn:E2; qb; try reflexivity; exfalso.
  - assert (f * m < f * a) by (apply Qmult_lt_l; assumption). lra.
  - assert (f * a <= f * m) by (apply Qmult_le_l; assumption). lra.
Qed.
Lemma progressive_inflated f d x : 0 < f -> progressive (inflated f d) (f * x) == f * progressive d x.
Proof.
  intro Hf. unfold progressive. etransitivity; [|apply Qmult_comm]. etransitivity; [|apply Qsum_map_scale]. unfold inflated at 2. rewrite map_map. apply Qsum_map_ext. intros [k r] _. cbn [fst snd].
  assert (E : in_bracket (inflated f d) (f * k) (f * x) == f * in_bracket d k x).
  { unfold in_bracket. assert (Ha : above (inflated f d) (f * k) = map (fun k => f * k) (above d k)).
    { unfold above, dkeys, inflated. rewrite map_map. cbn. induction d as [|[k1 r1] l IH]; [reflexivity|]. cbn. rewrite IH.
      assert (Hb : Qlt_bool (f * k) (f * k1) = Qlt_bool k k1).
      { destruct (Qlt_bool (f * k) (f * k1)) eqn:E1, (Qlt_bool k k1) eqn:E2; qb; try reflexivity; exfalso.
        - assert (f * k1 <= f * k) by (apply Qmult_le_l; assumption). lra.
        - assert (f * k < f * k1) by (apply Qmult_lt_l; assumption). lra. }
      rewrite Hb. destruct (Qlt_bool k k1); reflexivity. }
    rewrite Ha, (foldmin_inflated f (above d k) Hf x). set (m := fold_right qmin x (above d k)).
    unfold qmax. destruct (Qle_bool 0 (f * m - f * k)) eqn:E1, (Qle_bool 0 (m - k)) eqn:E2; qb; try ring; exfalso.
    - assert (f * m < f * k) by (apply Qmult_lt_l; lra). lra.
    - assert (f * k <= f * m) by (apply Qmult_le_l; lra). lra. }
  rewrite E. ring.
Qed.
