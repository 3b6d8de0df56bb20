(** C38-C44: income tax. *)
From Verif Require Import Base BaseFacts TimingModel TimingSpec TimingProofs InflationModel InflationProofs RegModel RegSpec Prop_RRSP TaxModel TaxSpec TaxProofs TaxProofs2 TaxProofs3.
From Coq Require Import Permutation Lia.
Local Open Scope string_scope.

(** [pays s x y ded cred v]: asking [s] for the tax on income [x] in year [y] answers [v] *)
Definition pays (s : tax) (x : Q) (y : Z) (ded cred v : Q) : Prop := exists s', call_money s x y (Some ded) (Some cred) = Ok (v, s').
(** [s] was built by the constructor from [tables] and [d] is the table of year [y] *)
Definition built (tables : dict Z table) (s : tax) (y : Z) (d : table) : Prop :=
  (exists pd cr ia, tax_init tables pd cr ia = Ok s) /\ dwf Z.eqb tables /\ (forall y d, In (y, d) tables -> table_ok d) /\ dget Z.eqb tables y = Some d.
Lemma built_ok tables s y d : built tables s y d -> well_built s /\ dget Z.eqb (x_brk s) y = Some d /\ table_ok d /\ x_cr s <> [] /\ x_pd s <> [].
Proof.
  intros ((pd & cr & ia & H) & W & Hb & Hd). destruct (init_ok tables pd cr ia s H) as (A & B & C & D); [intro E; subst; discriminate|exact W|exact Hb|].
  split; [exact A|]. split; [rewrite B; exact Hd|]. split; [apply zdget_In in Hd; apply (Hb _ _ Hd)|]. split; [exact C|exact D].
Qed.
Lemma pays_ex tables s y d x ded cred c : built tables s y d -> credit_rate s y = Ok c ->
  exists g, gross_tax d (x - ded) g /\ forall v, pays s x y ded cred v <-> v = qmax (g - cred * c) 0.
Proof.
  intros H Hc. destruct (built_ok tables s y d H) as (W & Hy & Hd & _). destruct (tax_money_listed s x y ded cred d c W Hy Hc) as (g & Hg & E).
  exists g. split; [exact Hg|]. intro v. unfold pays, call_money, opt0. rewrite E. split.
  - intros (s' & H'). injection H' as <- _. reflexivity.
  - intros ->. eauto.
Qed.
Lemma gross_nonneg d x g : table_ok d -> rates_nonneg d -> gross_tax d x g -> qmax g 0 == progressive d x /\ g <= progressive d x.
Proof.
  intros Hd Hr (m & r & L & I & A & B). pose proof (progressive_nonneg d x Hr) as Hp. destruct (Qlt_le_dec m x) as [Hx|Hx].
  - rewrite (A Hx). split; [destruct (qmax_case (progressive d x) 0) as [[P E]|[P E]]; rewrite E; lra|apply Qle_refl].
  - specialize (B Hx). rewrite (progressive_below d x m Hd L Hx). assert (g <= 0).
    { rewrite B. setoid_replace ((x - m) * r) with (- ((m - x) * r)) by ring. assert (0 <= (m - x) * r) by (apply Qmult_le_0_compat; [lra|apply (Hr m); exact I]). lra. }
    split; [|exact H]. destruct (qmax_case g 0) as [[P E]|[P E]]; rewrite E; lra.
Qed.

(** ** C38 *)
(** the tax on [x] without deductions or credits is the sum over the brackets of rate x the part of
    [x] in that bracket *)
Theorem C38_sum_over_brackets : forall tables s y d, built tables s y d -> rates_nonneg d ->
  forall x, exists v, pays s x y 0 0 v /\ v == progressive d x.
Proof.
  intros tables s y d H Hr x. destruct (built_ok tables s y d H) as (_ & _ & Hd & Hcr & _). destruct (credit_rate_some s y Hcr) as (c & Hc).
  destruct (pays_ex tables s y d x 0 0 c H Hc) as (g & Hg & Hv). exists (qmax (g - 0 * c) 0). split; [apply Hv; reflexivity|].
  destruct (gross_nonneg d (x - 0) g Hd Hr Hg) as [E _]. setoid_replace (g - 0 * c) with g by ring. rewrite E. apply progressive_same; [apply same_table_refl|ring].
Qed.
Print Assumptions C38_sum_over_brackets.
(** rates of any sign, income above the lowest threshold: the same, floored at zero *)
Theorem C38_any_rates : forall tables s y d m, built tables s y d -> lowest d m ->
  forall x, m < x -> exists v, pays s x y 0 0 v /\ v == qmax (progressive d x) 0.
Proof.
  intros tables s y d m H Hm x Hx. destruct (built_ok tables s y d H) as (_ & _ & Hd & Hcr & _). destruct (credit_rate_some s y Hcr) as (c & Hc).
  destruct (pays_ex tables s y d x 0 0 c H Hc) as (g & Hg & Hv). exists (qmax (g - 0 * c) 0). split; [apply Hv; reflexivity|].
  destruct Hg as (m' & r & L & _ & A & _). pose proof (lowest_eq d m m' Hm L). rewrite (A ltac:(lra)). setoid_replace (progressive d (x - 0) - 0 * c) with (progressive d x); [reflexivity|].
  rewrite (progressive_same d d (x - 0) x); [ring|apply same_table_refl|ring].
Qed.
Print Assumptions C38_any_rates.
Theorem C38_listing_order_irrelevant : forall tables tables' s s' y d d', built tables s y d -> built tables' s' y d' ->
  rates_nonneg d -> Permutation d d' -> forall x v v', pays s x y 0 0 v -> pays s' x y 0 0 v' -> v == v'.
Proof.
  intros tables tables' s s' y d d' H H' Hr P x v v' Hv Hv'.
  assert (Hr' : rates_nonneg d') by (intros k r Hin; apply (Hr k); apply Permutation_sym in P; apply (Permutation_in _ P); exact Hin).
  destruct (C38_sum_over_brackets tables s y d H Hr x) as (w & (t & E) & Ew). destruct (C38_sum_over_brackets tables' s' y d' H' Hr' x) as (w' & (t' & E') & Ew').
  destruct Hv as (u & Hv), Hv' as (u' & Hv'). rewrite E in Hv. rewrite E' in Hv'. injection Hv as <- _. injection Hv' as <- _.
  rewrite Ew, Ew'. apply progressive_perm. exact P.
Qed.
Print Assumptions C38_listing_order_irrelevant.
Definition demo_table : table := [(100, 1#5); (0, 1#10); (1000, 1#2)].
Definition demo : res tax := tax_init [(2000%Z, demo_table)] [(2000%Z, 50)] [(2000%Z, 1#4)] (IDict [(2000%Z, 1); (2001%Z, 2); (2002%Z, 4)]).
Definition demo_s : tax := match demo with Ok s => s | Err _ => {| x_brk := []; x_acc := []; x_ia := fun _ _ => Err KeyError; x_pd := []; x_cr := [] |} end.
Example C38_sat : built [(2000%Z, demo_table)] demo_s 2000 demo_table /\ rates_nonneg demo_table /\ lowest demo_table 0 /\
  (exists v, pays demo_s 1100 2000 0 0 v /\ v == 10 + 180 + 50) /\ progressive demo_table 1100 == 10 + 180 + 50.
Proof.
  assert (T : table_ok demo_table) by (split; [discriminate|cbn; auto]).
  split; [split; [exists [(2000%Z, 50)], [(2000%Z, 1#4)], (IDict [(2000%Z, 1); (2001%Z, 2); (2002%Z, 4)]); reflexivity|split; [cbn; auto|split; [|reflexivity]]]|].
  - intros y d [E|[]]. injection E as _ <-. exact T.
  - split; [intros k r [E|[E|[E|[]]]]; injection E as <- <-; discriminate|]. split; [split; [right; left; reflexivity|intros k [<-|[<-|[<-|[]]]]; discriminate]|].
    split; [eexists; split; [eexists; reflexivity|reflexivity]|reflexivity].
Qed.

(** ** C39 *)
Theorem C39_nonnegative : forall s x y ded cred v, pays s x y ded cred v -> 0 <= v.
Proof.
  intros s x y ded cred v (s' & H). unfold call_money, tax_money in H. destruct (tax_brackets s y) as [[b s1]|]; [|discriminate]. cbn [bind] in H.
  destruct (marginal_bracket s1 _ y) as [[k s2]|]; [|discriminate]. cbn [bind] in H. destruct (dget_r Qeq_bool b k) as [r|]; [|discriminate]. cbn [bind] in H.
  destruct (accum s2 y) as [[a s3]|]; [|discriminate]. cbn [bind] in H. destruct (dget_r Qeq_bool a k) as [aa|]; [|discriminate]. cbn [bind] in H.
  destruct (credit_rate s3 y) as [c|]; [|discriminate]. cbn [bind] in H. injection H as <- _. apply qmax_r.
Qed.
Print Assumptions C39_nonnegative.
(** the whole formula: progressive tax on income less deductions, less credits at the credit rate,
    never negative *)
Theorem C39_formula : forall tables s y d c, built tables s y d -> rates_nonneg d -> credit_rate s y = Ok c -> 0 <= c ->
  forall x ded cred, 0 <= cred -> exists v, pays s x y ded cred v /\ v == qmax (progressive d (x - ded) - cred * c) 0.
Proof.
  intros tables s y d c H Hr Hc Hc0 x ded cred Hcred. destruct (built_ok tables s y d H) as (_ & _ & Hd & _).
  destruct (pays_ex tables s y d x ded cred c H Hc) as (g & Hg & Hv). eexists. split; [apply Hv; reflexivity|].
  destruct (gross_nonneg d (x - ded) g Hd Hr Hg) as [E L].
  assert (0 <= cred * c) by (apply Qmult_le_0_compat; assumption). pose proof (progressive_nonneg d (x - ded) Hr).
  destruct (qmax_case (g - cred * c) 0) as [[P Q']|[P Q']], (qmax_case (progressive d (x - ded) - cred * c) 0) as [[P2 Q2]|[P2 Q2]]; rewrite Q', Q2; revert E; destruct (qmax_case g 0) as [[P3 Q3]|[P3 Q3]]; rewrite Q3; intro E; lra.
Qed.
Print Assumptions C39_formula.
(** more income never means less tax, and never more than the top rate of the extra income;
    deductions and credits never increase the tax; a dollar of credit is worth at most the credit rate *)
Theorem C39_monotone_and_bounded : forall tables s y d c R, built tables s y d -> rates_nonneg d -> rates_at_most d R ->
  credit_rate s y = Ok c -> 0 <= c ->
  forall x x' ded ded' cred cred' v v', x <= x' -> ded' <= ded -> 0 <= cred' -> cred' <= cred ->
  pays s x y ded cred v -> pays s x' y ded' cred' v' ->
  v <= v' /\ v' - v <= R * ((x' - x) + (ded - ded')) + c * (cred - cred').
Proof.
  intros tables s y d c R H Hr HR Hc Hc0 x x' ded ded' cred cred' v v' Hx Hd Hcr0 Hcr Hv Hv'.
  destruct (C39_formula tables s y d c H Hr Hc Hc0 x ded cred ltac:(lra)) as (w & (t & E) & Ew).
  destruct (C39_formula tables s y d c H Hr Hc Hc0 x' ded' cred' Hcr0) as (w' & (t' & E') & Ew').
  destruct Hv as (u & Hv), Hv' as (u' & Hv'). rewrite E in Hv. rewrite E' in Hv'. injection Hv as <- _. injection Hv' as <- _.
  destruct (built_ok tables s y d H) as (_ & _ & Hd' & _).
  destruct (progressive_lip d (x - ded) (x' - ded') R Hd') as [L1 L2]; [intros k r Hin; split; [apply (Hr k); exact Hin|apply (HR k); exact Hin]|lra|].
  assert (0 <= (cred - cred') * c) by (apply Qmult_le_0_compat; lra).
  assert (HRp : 0 <= R). { destruct Hd' as [Hn _]. destruct d as [|[k r] rest]; [congruence|]. pose proof (Hr k r (or_introl eq_refl)). pose proof (HR k r (or_introl eq_refl)). lra. }
  assert (0 <= R * (x' - ded' - (x - ded))) by (apply Qmult_le_0_compat; lra).
  setoid_replace (R * (x' - x + (ded - ded')) + c * (cred - cred')) with (R * (x' - ded' - (x - ded)) + (cred * c - cred' * c)) by ring.
  assert (Hc' : cred' * c <= cred * c) by lra.
  rewrite Ew, Ew'. destruct (qmax_case (progressive d (x - ded) - cred * c) 0) as [[P Q']|[P Q']], (qmax_case (progressive d (x' - ded') - cred' * c) 0) as [[P2 Q2]|[P2 Q2]]; rewrite Q', Q2; split; lra.
Qed.
Print Assumptions C39_monotone_and_bounded.
Example C39_sat : credit_rate demo_s 2000 = Ok (1#4) /\ rates_at_most demo_table (1#2) /\
  exists v v', pays demo_s 1100 2000 100 20 v /\ pays demo_s 1200 2000 50 10 v' /\ v == 185 /\ v' == 10 + 180 + 75 - (5#2).
Proof.
  split; [reflexivity|]. split; [intros k r [E|[E|[E|[]]]]; injection E as <- <-; discriminate|].
  do 2 eexists. split; [eexists; reflexivity|]. split; [eexists; reflexivity|]. split; reflexivity.
Qed.

(** ** C40 *)
(** for an unlisted year the brackets are the nearest listed year's with thresholds times the
    inflation factor and the same rates, and tax is computed from those *)
Theorem C40_inflated_brackets : forall tables s y base d f, (exists y0 d0, built tables s y0 d0) ->
  dget Z.eqb tables y = None -> nearest_year (x_brk s) y = Some base -> dget Z.eqb tables base = Some d ->
  x_ia s y (Some base) = Ok f -> 0 < f ->
  exists d' s', tax_brackets s y = Ok (d', s') /\ same_table d' (inflated f d) /\
    (rates_nonneg d -> forall x v, pays s x y 0 0 v -> v == progressive (inflated f d) x).
Proof.
  intros tables s y base d f (y0 & d0 & Hb) Hy Hn Hd Hf Hpos. destruct Hb as ((pd & cr & ia & Hi) & W & Ht & Hd0).
  destruct (init_ok tables pd cr ia s Hi) as (A & B & C & D); [intro E; subst; discriminate|exact W|exact Ht|].
  destruct (tax_brackets_new s y base d f A) as (s' & E & W' & B' & C' & D' & F'); [rewrite B; exact Hy|exact Hn|rewrite B; exact Hd|exact Hf|exact Hpos|].
  do 2 eexists. split; [exact E|]. split; [apply scaled_inflated|]. intros Hr x v (t & Hv).
  assert (G : dget Z.eqb (x_brk s') y = Some (map (fun kv => (fst kv * f, snd kv)) d)) by (rewrite B', zdget_dset, Z.eqb_refl; reflexivity).
  destruct (credit_rate_some s' y) as (c & Hc); [rewrite F'; exact C|].
  destruct (tax_money_listed s' x y 0 0 _ c W' G Hc) as (g & Hg & Em).
  assert (Hv' : tax_money s x y 0 0 = tax_money s' x y 0 0).
  { unfold tax_money. rewrite E. cbn [bind]. unfold tax_brackets at 1. rewrite G. reflexivity. }
  unfold call_money, opt0 in Hv. rewrite Hv', Em in Hv. injection Hv as <- _.
  destruct W' as (_ & W1 & _). destruct (W1 y _ G) as (Hok & _).
  destruct (gross_nonneg _ (x - 0) g Hok) as [Eg _]; [|exact Hg|].
  - intros k r Hin. apply in_map_iff in Hin. destruct Hin as ([k1 r1] & E1 & Hin). injection E1 as _ <-. apply (Hr k1). exact Hin.
  - setoid_replace (g - 0 * c) with g by ring. rewrite Eg. apply progressive_same; [apply scaled_inflated|ring].
Qed.
Print Assumptions C40_inflated_brackets.
(** hence real income is taxed alike in every year *)
Theorem C40_indexed : forall f d x, 0 < f -> progressive (inflated f d) (f * x) == f * progressive d x.
Proof. intros f d x H. apply progressive_inflated. exact H. Qed.
Print Assumptions C40_indexed.
(** the personal deduction is indexed, the credit rate is carried over unchanged *)
Theorem C40_other_parameters : forall s y,
  (forall q, dget Z.eqb (x_pd s) y = Some q -> personal_deduction s y = Ok q) /\
  (forall b q f, dget Z.eqb (x_pd s) y = None -> nearest_year (x_pd s) y = Some b -> dget Z.eqb (x_pd s) b = Some q ->
     x_ia s y (Some b) = Ok f -> personal_deduction s y = Ok (q * f)) /\
  (forall b q, nearest_year (x_cr s) y = Some b -> dget Z.eqb (x_cr s) b = Some q -> credit_rate s y = Ok q).
Proof.
  intros s y.
  assert (Hg : forall k, dget Z.eqb (map (fun kv => (fst kv, VScalar (snd kv))) (x_pd s)) k = option_map VScalar (dget Z.eqb (x_pd s) k)).
  { intro k. induction (x_pd s) as [|[k0 v0] r IH]; [reflexivity|]. cbn. destruct (Z.eqb k k0); [reflexivity|exact IH]. }
  assert (Hk : dkeys (map (fun kv => (fst kv, VScalar (snd kv))) (x_pd s)) = dkeys (x_pd s)) by (unfold dkeys; rewrite map_map; reflexivity).
  assert (Hn : nearest_year (map (fun kv => (fst kv, VScalar (snd kv))) (x_pd s)) y = nearest_year (x_pd s) y).
  { unfold nearest_year. unfold dmem. rewrite Hg, Hk. destruct (x_pd s); [reflexivity|]. cbn [map]. destruct (dget Z.eqb (p :: d) y); reflexivity. }
  split; [|split].
  - intros q H. unfold personal_deduction, extend_inflation_adjusted. rewrite Hg, H. reflexivity.
  - intros b q f H Hb Hq Hf. unfold personal_deduction, extend_inflation_adjusted. rewrite Hg, H, Hn, Hb. cbn [option_map].
    destruct (Z.eqb_spec b y); [subst; congruence|]. unfold dget_r. rewrite Hg, Hq. cbn [option_map bind]. rewrite Hf. reflexivity.
  - intros b q Hb Hq. unfold credit_rate. rewrite Hb. unfold dget_r. rewrite Hq. reflexivity.
Qed.
Print Assumptions C40_other_parameters.
(** the deductions and credit rates are those given to the constructor; none given means no deduction
    and credits that count in full, in every year *)
Theorem C40_given_parameters : forall tables pd cr ia s, tax_init tables pd cr ia = Ok s ->
  (pd = [] -> forall y q, personal_deduction s y = Ok q -> q == 0) /\
  (forall y q, dget Z.eqb pd y = Some q -> personal_deduction s y = Ok q) /\
  (forall y b q f, dget Z.eqb pd y = None -> nearest_year pd y = Some b -> dget Z.eqb pd b = Some q ->
     x_ia s y (Some b) = Ok f -> personal_deduction s y = Ok (q * f)) /\
  (cr = [] -> forall y, credit_rate s y = Ok 1) /\
  (forall y b q, nearest_year cr y = Some b -> dget Z.eqb cr b = Some q -> credit_rate s y = Ok q).
Proof.
  intros tables pd cr ia s H. unfold tax_init in H. destruct (build_inflation_adjust ia) as [f|]; [|discriminate]. cbn [bind] in H.
  destruct (add_all_brackets _ tables) as [s0|]; [|discriminate]. cbn [bind] in H.
  match type of H with bind ?X _ = _ => destruct X as [p|] eqn:Ep; [|discriminate] end. cbn [bind] in H.
  match type of H with bind ?X _ = _ => destruct X as [c|] eqn:Ec; [|discriminate] end. cbn [bind] in H.
  assert (Hpd : x_pd s = p) by (injection H as <-; reflexivity). assert (Hcr : x_cr s = c) by (injection H as <-; reflexivity). clear H.
  assert (Pn : pd <> [] -> x_pd s = pd) by (rewrite Hpd; destruct pd; [congruence|]; injection Ep as <-; reflexivity).
  assert (Cn : cr <> [] -> x_cr s = cr) by (rewrite Hcr; destruct cr; [congruence|]; injection Ec as <-; reflexivity).
  split; [|split; [|split; [|split]]].
  - intros -> y q Hq. destruct (zminl (dkeys (x_brk s0))) as [m|]; [|discriminate]. injection Ep as <-.
    unfold personal_deduction in Hq. rewrite Hpd in Hq. cbn [map fst snd] in Hq. unfold extend_inflation_adjusted in Hq. cbn [dget] in Hq.
    destruct (Z.eqb y m) eqn:E; [cbn [bind] in Hq; assert (0 = q) by congruence; subst; reflexivity|].
    match type of Hq with context [nearest_year ?d y] => destruct (nearest_year d y) as [b|] end; [|discriminate].
    destruct (Z.eqb b y); [discriminate|]. unfold dget_r in Hq. cbn [dget] in Hq. destruct (Z.eqb b m); [|discriminate]. cbn [bind] in Hq.
    destruct (x_ia s y (Some b)) as [g|]; [|discriminate]. cbn [bind] in Hq. assert (E' : 0 * g = q) by congruence. rewrite <- E'. ring.
  - intros y q Hq. destruct (C40_other_parameters s y) as (A & _). apply A. rewrite Pn; [exact Hq|]. intros ->. discriminate.
  - intros y b q g Hn Hb Hq Hg. destruct (C40_other_parameters s y) as (_ & A & _). assert (pd <> []) by (intros ->; discriminate).
    apply (A b q g); rewrite ?Pn; assumption.
  - intros -> y. destruct (zminl (dkeys (x_brk s0))) as [m|]; [|discriminate]. injection Ec as <-. unfold credit_rate. rewrite Hcr.
    destruct (nearest_some [(m, 1)] y) as (b & v & E1 & E2); [discriminate|]. rewrite E1. unfold dget_r. rewrite E2. cbn [dget] in E2.
    destruct (Z.eqb b m); [|discriminate]. congruence.
  - intros y b q Hb Hq. destruct (C40_other_parameters s y) as (_ & _ & A). assert (cr <> []) by (intros ->; discriminate). apply (A b q); rewrite Cn; assumption.
Qed.
Print Assumptions C40_given_parameters.
(** asked first, accum(year) indexes the rates instead of the thresholds (and caches that) *)
Theorem C40_accum_first_refuted : exists a s1 d s2, accum demo_s 2001 = Ok (a, s1) /\ tax_brackets s1 2001 = Ok (d, s2) /\
  same_table d [(100, 2#5); (0, 2#10); (1000, 1)] /\ ~ same_table d (inflated 2 demo_table).
Proof.
  do 4 eexists. split; [vm_compute; reflexivity|]. split; [vm_compute; reflexivity|]. split.
  - repeat constructor.
  - intro H. inversion H as [|? ? ? ? [A _] _]; subst. cbn in A. discriminate A.
Qed.
Print Assumptions C40_accum_first_refuted.
Example C40_sat : dget Z.eqb [(2000%Z, demo_table)] 2001%Z = None /\ nearest_year (x_brk demo_s) 2001 = Some 2000%Z /\ x_ia demo_s 2001 (Some 2000%Z) = Ok 2.
Proof. repeat split. Qed.

(** ** C41 *)
(** with a consistent inflation function, any number of earlier queries (of anything but accum)
    leaves every answer unchanged *)
Theorem C41_queries_independent_partial : forall tables s y0 d0 qs q, built tables s y0 d0 -> consistent_inflation (x_ia s) ->
  Forall (fun q => fst q <> QAccum) (q :: qs) ->
  exists s' a a' t t', ask_all s qs = Ok s' /\ ask s q = Ok (a, t) /\ ask s' q = Ok (a', t') /\ same_answer a a'.
Proof.
  intros tables s y0 d0 qs q Hb (f & F1 & F2 & F3 & F4) Hq. destruct (built_ok tables s y0 d0 Hb) as (W & _ & _ & Hcr & _).
  inversion Hq as [|? ? Hq0 Hqs]; subst. pose proof (derived_refl f s W F3) as D.
  destruct (ask_all_derived f s F1 F2 F4 (proj1 W) Hcr qs s D Hqs) as (s' & E & D').
  destruct (ask_same f s F1 F2 F4 (proj1 W) Hcr s s' q D D' Hq0) as (a & a' & t & t' & A & B & C).
  exists s', a, a', t, t'. auto.
Qed.
Print Assumptions C41_queries_independent_partial.
(** asking for the accumulated-tax table first changes the tax *)
Theorem C41_accum_changes_tax_refuted : exists s' v v', ask_all demo_s [(QAccum, 2001%Z)] = Ok s' /\
  pays demo_s 1000 2001 0 0 v /\ pays s' 1000 2001 0 0 v' /\ ~ v == v'.
Proof. do 3 eexists. split; [vm_compute; reflexivity|]. split; [eexists; vm_compute; reflexivity|]. split; [eexists; vm_compute; reflexivity|]. intro H. discriminate H. Qed.
Print Assumptions C41_accum_changes_tax_refuted.
(** with an inconsistent inflation function (any callable is accepted) even tax queries interfere *)
Theorem C41_inconsistent_inflation_refuted : exists s s' v v',
  tax_init [(2000%Z, demo_table)] [] [] (ICallable (fun t b => Ok (match b with Some b => inject_Z (1 + (t - b) * (t - b)) | None => 1 end))) = Ok s /\
  ask_all s [(QBrackets, 2001%Z)] = Ok s' /\ pays s 1000 2002 0 0 v /\ pays s' 1000 2002 0 0 v' /\ ~ v == v'.
Proof.
  do 4 eexists. split; [reflexivity|]. split; [vm_compute; reflexivity|]. split; [eexists; vm_compute; reflexivity|]. split; [eexists; vm_compute; reflexivity|]. intro H. discriminate H.
Qed.
Print Assumptions C41_inconsistent_inflation_refuted.
Example C41_sat : exists s, tax_init [(2000%Z, demo_table)] [] [] INone = Ok s /\ consistent_inflation (x_ia s) /\
  exists s', ask_all s [(QTax 500 0 0, 2010%Z); (QMarginalRate 3, 1990%Z)] = Ok s'.
Proof.
  eexists. split; [reflexivity|]. split.
  - exists (fun _ _ => 1). repeat split; intros; reflexivity.
  - eexists. vm_compute. reflexivity.
Qed.

(** ** C42 *)
(** [p]'s own figures for the year *)
Definition figures (p : taxpayer) (y : Z) (income ded cred : Q) : Prop :=
  dget Z.eqb (tp_income p) y = Some income /\ dget Z.eqb (tp_deduction p) y = Some ded /\ dget Z.eqb (tp_credit p) y = Some cred.
Lemma tax_person_eq s p y income d c pdn ded cred : figures p y income d c -> personal_deduction s y = Ok pdn ->
  tax_person s p y ded cred = tax_money s income y (d + (pdn + d) + ded) (c + c + cred).
Proof.
  intros (A & B & C) P. unfold tax_person, deduction, credit, dget_r. rewrite A, B. cbn [bind]. rewrite P. cbn [bind]. rewrite C. reflexivity.
Qed.
(** someone with no deductions or credits of their own *)
Theorem C42_no_own_deductions_partial : forall tables s y d c p income pdn ded cred, built tables s y d -> rates_nonneg d ->
  credit_rate s y = Ok c -> 0 <= c -> 0 <= cred -> figures p y income 0 0 -> personal_deduction s y = Ok pdn ->
  exists v s', tax_person s p y ded cred = Ok (v, s') /\ v == qmax (progressive d (income - (pdn + ded)) - cred * c) 0.
Proof.
  intros tables s y d c p income pdn ded cred H Hr Hc Hc0 Hcred Hf Hp. rewrite (tax_person_eq s p y income 0 0 pdn ded cred Hf Hp).
  destruct (C39_formula tables s y d c H Hr Hc Hc0 income (0 + (pdn + 0) + ded) (0 + 0 + cred) ltac:(lra)) as (v & (s' & E) & Ev).
  exists v, s'. split; [exact E|]. rewrite Ev. apply qmax_proper; [|reflexivity]. rewrite (progressive_same d d _ (income - (pdn + ded))); [ring|apply same_table_refl|ring].
Qed.
Print Assumptions C42_no_own_deductions_partial.
(** what is charged in general: own deductions and credits count twice *)
Theorem C42_counted_twice_refuted : forall tables s y d c p income own_d own_c pdn ded cred, built tables s y d -> rates_nonneg d ->
  credit_rate s y = Ok c -> 0 <= c -> 0 <= cred -> 0 <= own_c -> figures p y income own_d own_c -> personal_deduction s y = Ok pdn ->
  exists v s', tax_person s p y ded cred = Ok (v, s') /\ v == qmax (progressive d (income - (pdn + 2 * own_d + ded)) - (2 * own_c + cred) * c) 0.
Proof.
  intros tables s y d c p income own_d own_c pdn ded cred H Hr Hc Hc0 Hcred Hoc Hf Hp. rewrite (tax_person_eq s p y income own_d own_c pdn ded cred Hf Hp).
  destruct (C39_formula tables s y d c H Hr Hc Hc0 income (own_d + (pdn + own_d) + ded) (own_c + own_c + cred) ltac:(lra)) as (v & (s' & E) & Ev).
  exists v, s'. split; [exact E|]. rewrite Ev. apply qmax_proper; [|reflexivity].
  rewrite (progressive_same d d _ (income - (pdn + 2 * own_d + ded))); [ring|apply same_table_refl|ring].
Qed.
Print Assumptions C42_counted_twice_refuted.
(** concretely: 100 of deductions at 20% save 40, not 20 *)
Example C42_sat : let p := {| tp_income := [(2000%Z, 550)]; tp_deduction := [(2000%Z, 100)]; tp_credit := [(2000%Z, 0)] |} in
  let p0 := {| tp_income := [(2000%Z, 550)]; tp_deduction := [(2000%Z, 0)]; tp_credit := [(2000%Z, 0)] |} in
  exists v s v0 s0, tax_person demo_s p 2000 0 0 = Ok (v, s) /\ tax_person demo_s p0 2000 0 0 = Ok (v0, s0) /\ v0 - v == 40.
Proof. do 4 eexists. split; [vm_compute; reflexivity|]. split; [vm_compute; reflexivity|]. reflexivity. Qed.

(** ** C43 *)
Lemma person_derived f s0 s p y ded cred v t : (forall t b, x_ia s0 t (Some b) = Ok (f t b)) -> (forall t b, 0 < f t b) -> (forall t m b, f t m * f m b == f t b) ->
  x_brk s0 <> [] -> x_cr s0 <> [] -> derived f s0 s0 -> derived f s0 s -> tax_person s0 p y ded cred = Ok (v, t) ->
  exists v' s', tax_person s p y ded cred = Ok (v', s') /\ v' == v /\ derived f s0 s'.
Proof.
  intros F1 F2 F4 Hne Hcr D0 D H. pose proof D as (E1 & E2 & _).
  assert (Hp : personal_deduction s y = personal_deduction s0 y) by (unfold personal_deduction; rewrite E1, E2; reflexivity).
  unfold tax_person, deduction in *. rewrite Hp. destruct (dget_r Z.eqb (tp_income p) y) as [i|]; [|discriminate]. cbn [bind] in *.
  destruct (dget_r Z.eqb (tp_deduction p) y) as [d1|]; [|discriminate]. cbn [bind] in *. destruct (personal_deduction s0 y) as [pd|]; [|discriminate]. cbn [bind] in *.
  unfold credit in *. destruct (dget_r Z.eqb (tp_credit p) y) as [c1|]; [|discriminate]. cbn [bind] in *.
  pose proof (ask_same f s0 F1 F2 F4 Hne Hcr s0 s (QTax i (d1 + (pd + d1) + ded) (c1 + c1 + cred), y) D0 D ltac:(discriminate)) as (a & a' & t1 & t2 & A & B & C).
  destruct (ask_derived f s0 F1 F2 F4 Hne Hcr s (QTax i (d1 + (pd + d1) + ded) (c1 + c1 + cred), y) D ltac:(discriminate)) as (a2 & s2 & E2' & D2).
  cbn [ask] in *. rewrite H in A. cbn [bind] in A. injection A as <- _.
  destruct (tax_money s i y (d1 + (pd + d1) + ded) (c1 + c1 + cred)) as [[v' s']|]; [|discriminate]. cbn [bind] in *. injection B as <- _. injection E2' as _ <-.
  exists v', s'. split; [reflexivity|]. split; [symmetry; exact C|exact D2].
Qed.
Section Household.
  Variables (f : Z -> Z -> Q) (s0 : tax) (who : nat -> taxpayer) (y : Z) (ded cred : dict nat Q) (v : nat -> Q).
  Hypotheses (F1 : forall t b, x_ia s0 t (Some b) = Ok (f t b)) (F2 : forall t b, 0 < f t b) (F4 : forall t m b, f t m * f m b == f t b)
    (Hne : x_brk s0 <> []) (Hcr : x_cr s0 <> []) (D0 : derived f s0 s0).
  Lemma each_sum : forall l s, derived f s0 s ->
    (forall n, In n l -> exists t, tax_person s0 (who n) y (amount_for ded n) (amount_for cred n) = Ok (v n, t)) ->
    exists t s', tax_each s who l y ded cred = Ok (t, s') /\ t == Qsum (map v l) /\ derived f s0 s'.
  Proof.
    induction l as [|n r IH]; intros s D Hv; [exists 0, s; split; [reflexivity|]; split; [reflexivity|exact D]|]. destruct (Hv n (or_introl eq_refl)) as (t & Ht).
    destruct (person_derived f s0 s (who n) y _ _ (v n) t F1 F2 F4 Hne Hcr D0 D Ht) as (v' & s1 & E & Ev & D1).
    destruct (IH s1 D1) as (u & s2 & E2 & Eu & D2); [intros; apply Hv; right; assumption|].
    exists (v' + u), s2. cbn [tax_each]. rewrite E. cbn [bind]. rewrite E2. cbn [bind]. split; [reflexivity|]. split; [cbn; rewrite Ev, Eu; reflexivity|exact D2].
  Qed.
  Lemma in_minus l m n : In n (minus l m) <-> In n l /\ ~ In n m.
  Proof.
    unfold minus. rewrite filter_In. split; intros [A B]; (split; [exact A|]).
    - intro H. apply negb_true_iff in B. assert (existsb (Nat.eqb n) m = true) by (apply existsb_exists; exists n; split; [exact H|apply Nat.eqb_refl]). congruence.
    - apply negb_true_iff. destruct (existsb (Nat.eqb n) m) eqn:E; [|reflexivity]. apply existsb_exists in E. destruct E as (k & K1 & K2). apply Nat.eqb_eq in K2. subst. contradiction.
  Qed.
  Lemma minus_split l m : NoDup l -> NoDup m -> (forall n, In n m -> In n l) -> Permutation l (m ++ minus l m).
  Proof.
    intros Hl Hm Hs. apply NoDup_Permutation; [exact Hl| |].
    - assert (NoDup (minus l m)) by (apply NoDup_filter; exact Hl). revert Hm. clear Hs. induction m as [|a m IH]; intro Hm; [exact H|]. 
      assert (Hgen : forall m', NoDup m' -> (forall x, In x m' -> ~ In x (minus l (a :: m))) -> NoDup (m' ++ minus l (a :: m))).
      { induction m' as [|b m' IHm]; intros Hn Hd; [exact H|]. inversion Hn; subst. cbn. constructor; [|apply IHm; [assumption|intros; apply Hd; right; assumption]].
        intro Hin. apply in_app_or in Hin. destruct Hin as [Hin|Hin]; [contradiction|]. apply (Hd b); [left; reflexivity|exact Hin]. }
      apply (Hgen (a :: m) Hm). intros x Hx Hin. apply in_minus in Hin. tauto.
    - intro x. rewrite in_app_iff, in_minus. split.
      + intro H. destruct (in_dec Nat.eq_dec x m); tauto.
      + intros [H|[H _]]; [apply Hs; exact H|exact H].
  Qed.
  Lemma people_sum (order : list nat -> list nat) (spouse : nat -> option nat) : (forall l, Permutation (order l) l) ->
    forall fuel people s, (List.length people <= fuel)%nat -> NoDup people -> derived f s0 s ->
    (forall n, In n people -> exists t, tax_person s0 (who n) y (amount_for ded n) (amount_for cred n) = Ok (v n, t)) ->
    exists t s', tax_people fuel order s who spouse people y ded cred = Ok (t, s') /\ t == Qsum (map v people) /\ derived f s0 s'.
  Proof.
    intros Ho. induction fuel as [|fuel IH]; intros people s Hl Hnd D Hv.
    - destruct people; [|cbn in Hl; lia]. exists 0, s. split; [reflexivity|]. split; [reflexivity|exact D].
    - destruct people as [|n r]; [exists 0, s; split; [reflexivity|]; split; [reflexivity|exact D]|].
      assert (Hstep : forall m, m <> [] -> NoDup m -> (forall k, In k m -> In k (n :: r)) -> forall s1, derived f s0 s1 ->
        exists t s', tax_people fuel order s1 who spouse (order (minus (n :: r) m)) y ded cred = Ok (t, s') /\ t == Qsum (map v (minus (n :: r) m)) /\ derived f s0 s').
      { intros m Hm0 Hm Hs s1 D1. pose proof (minus_split (n :: r) m Hnd Hm Hs) as P.
        destruct (IH (order (minus (n :: r) m)) s1) as (t & s' & E & Et & D').
        - rewrite (Permutation_length (Ho _)). apply Permutation_length in P. rewrite app_length in P. destruct m; [congruence|]. cbn in P, Hl. cbn. lia.
        - eapply Permutation_NoDup; [symmetry; apply Ho|]. apply NoDup_filter. exact Hnd.
        - exact D1.
        - intros k Hk. apply Hv. apply (Permutation_in _ (Ho _)) in Hk. apply in_minus in Hk. tauto.
        - exists t, s'. split; [exact E|]. split; [|exact D']. rewrite Et. apply Qsum_map_perm. apply Ho. }
      assert (Halone : exists t s', (let* (t, s1) := tax_person s (who n) y (amount_for ded n) (amount_for cred n) in
        let* (u, s2) := tax_people fuel order s1 who spouse (order (minus (n :: r) [n])) y ded cred in Ok (t + u, s2)) = Ok (t, s') /\ t == Qsum (map v (n :: r)) /\ derived f s0 s').
      { destruct (Hv n (or_introl eq_refl)) as (t & Ht). destruct (person_derived f s0 s (who n) y _ _ (v n) t F1 F2 F4 Hne Hcr D0 D Ht) as (v' & s1 & E & Ev & D1).
        destruct (Hstep [n] ltac:(discriminate) ltac:(repeat constructor; intros []) ltac:(intros k [<-|[]]; left; reflexivity) s1 D1) as (u & s2 & E2 & Eu & D2).
        exists (v' + u), s2. rewrite E. cbn [bind]. rewrite E2. split; [reflexivity|]. split; [|exact D2].
        rewrite (Qsum_map_perm v (n :: r) ([n] ++ minus (n :: r) [n])); [cbn [app map Qsum]; rewrite Ev, Eu; reflexivity|].
        apply minus_split; [exact Hnd|repeat constructor; intros []|intros k [<-|[]]; left; reflexivity]. }
      cbn [tax_people]. destruct (spouse n) as [m|]; [|exact Halone]. destruct (existsb (Nat.eqb m) (n :: r)) eqn:Em; [|exact Halone].
      assert (Hm : In m (n :: r)) by (apply existsb_exists in Em; destruct Em as (k & K1 & K2); apply Nat.eqb_eq in K2; subst; exact K1).
      set (cp := if Nat.eqb n m then [n] else [n; m]).
      assert (Hcp : NoDup cp /\ cp <> [] /\ (forall k, In k cp -> In k (n :: r)) /\ minus (n :: r) [n; m] = minus (n :: r) cp).
      { unfold cp. destruct (Nat.eqb_spec n m) as [<-|Hne'].
        - split; [repeat constructor; intros []|]. split; [discriminate|]. split; [intros k [<-|[]]; left; reflexivity|].
          unfold minus. apply filter_ext. intro k. cbn. destruct (Nat.eqb k n); reflexivity.
        - split; [repeat constructor; [intros [E|[]]; congruence|intros []]|]. split; [discriminate|]. split; [intros k [<-|[<-|[]]]; [left; reflexivity|exact Hm]|reflexivity]. }
      destruct Hcp as (C1 & C2 & C3 & C4). rewrite C4.
      destruct (each_sum (order cp) s D) as (t & s1 & E & Et & D1); [intros k Hk; apply Hv, C3; apply (Permutation_in _ (Ho _)); exact Hk|].
      destruct (Hstep cp C2 C1 C3 s1 D1) as (u & s2 & E2 & Eu & D2). rewrite E. cbn [bind]. rewrite E2. cbn [bind].
      exists (t + u), s2. split; [reflexivity|]. split; [|exact D2]. rewrite Et, Eu, (Qsum_map_perm v (order cp) cp (Ho _)).
      rewrite (Qsum_map_perm v (n :: r) (cp ++ minus (n :: r) cp)) by (apply minus_split; assumption). rewrite map_app, Qsum_app. reflexivity.
  Qed.
End Household.
(** whatever the spouse relation, the iteration orders and the earlier contents of the caches: the
    household's tax is the sum of the members' own taxes *)
Theorem C43_household_is_sum : forall tables s y0 d0 who spouse order y ded cred v people,
  built tables s y0 d0 -> consistent_inflation (x_ia s) -> NoDup people -> (forall l, Permutation (order l) l) ->
  (forall n, In n people -> exists t, tax_person s (who n) y (amount_for ded n) (amount_for cred n) = Ok (v n, t)) ->
  exists t s', tax_people (List.length people) order s who spouse people y ded cred = Ok (t, s') /\ t == Qsum (map v people).
Proof.
  intros tables s y0 d0 who spouse order y ded cred v people Hb (f & F1 & F2 & F3 & F4) Hnd Ho Hv.
  destruct (built_ok tables s y0 d0 Hb) as (W & _ & _ & Hcr & _). pose proof (derived_refl f s W F3) as D.
  destruct (people_sum f s who y ded cred v F1 F2 F4 (proj1 W) Hcr D order spouse Ho (List.length people) people s (le_n _) Hnd D Hv) as (t & s' & E & Et & _).
  exists t, s'. split; assumption.
Qed.
Print Assumptions C43_household_is_sum.
(** lists of people, which the documentation allows, always fail (unless empty: then there is no tax) *)
Theorem C43_lists_refuted : forall s who spouse people y ded cred,
  (people <> [] -> exists e, tax_people_list s who spouse people y ded cred = Err e) /\
  (people = [] -> tax_people_list s who spouse people y ded cred = Ok (0, s)).
Proof.
  intros s who spouse people y ded cred. split; [intros H|intros ->; reflexivity]. destruct people as [|n r]; [congruence|]. cbn [tax_people_list].
  match goal with |- exists e, bind ?m _ = _ => destruct m as [[t s']|e] end; cbn [bind]; eauto.
Qed.
Print Assumptions C43_lists_refuted.
Example C43_sat : exists s t s', tax_init [(2000%Z, demo_table)] [] [] INone = Ok s /\
  tax_people 3 (@rev nat) s (fun n => {| tp_income := [(2005%Z, inject_Z (Z.of_nat n) * 200)]; tp_deduction := [(2005%Z, 0)]; tp_credit := [(2005%Z, 0)] |})
    (fun n => match n with 1%nat => Some 2%nat | 2%nat => Some 1%nat | _ => Some 7%nat end) [1; 2; 3]%nat 2005 [] [] = Ok (t, s') /\ t == 30 + 70 + 110.
Proof. do 3 eexists. split; [reflexivity|]. split; [vm_compute; reflexivity|]. reflexivity. Qed.

(** ** C44 *)
Theorem C44_sum_of_jurisdictions : forall js x y ded cred total js', multi_call js x y ded cred = Ok (total, js') ->
  exists vs, Forall2 (fun ij v => exists t, call_money (snd ij) x y (dget Nat.eqb ded (fst ij)) (dget Nat.eqb cred (fst ij)) = Ok (v, t))
                     (combine (seq 0 (List.length js)) js) vs /\ total == Qsum vs.
Proof.
  intros js x y ded cred. unfold multi_call. generalize 0%nat as i. induction js as [|j r IH]; intros i total js' H; cbn [sum_over] in H.
  - injection H as <- _. exists []. split; [constructor|reflexivity].
  - destruct (call_money j x y _ _) as [[v j1]|] eqn:E; [|discriminate]. cbn [bind] in H.
    destruct (sum_over _ (S i) r) as [[u r1]|] eqn:E2; [|discriminate]. cbn [bind] in H. injection H as <- _.
    destruct (IH (S i) u r1 E2) as (vs & F & T). exists (v :: vs). cbn [List.length seq combine]. split; [constructor; [exists j1; exact E|exact F]|]. cbn. rewrite T. reflexivity.
Qed.
Print Assumptions C44_sum_of_jurisdictions.
Theorem C44_marginal_rate_is_sum : forall js x y total js', multi_marginal_rate js x y = Ok (total, js') ->
  exists rs, Forall2 (fun j r => exists t, marginal_rate j x y = Ok (r, t)) js rs /\ total == Qsum rs.
Proof.
  intros js x y. unfold multi_marginal_rate. generalize 0%nat as i. induction js as [|j r IH]; intros i total js' H; cbn [sum_over] in H.
  - injection H as <- _. exists []. split; [constructor|reflexivity].
  - destruct (marginal_rate j x y) as [[v j1]|] eqn:E; [|discriminate]. cbn [bind] in H.
    destruct (sum_over _ (S i) r) as [[u r1]|] eqn:E2; [|discriminate]. cbn [bind] in H. injection H as <- _.
    destruct (IH (S i) u r1 E2) as (vs & F & T). exists (v :: vs). split; [constructor; [exists j1; exact E|exact F]|]. cbn. rewrite T. reflexivity.
Qed.
Print Assumptions C44_marginal_rate_is_sum.
(** The merged table's thresholds are those of the jurisdictions' tables, each once, in ascending order. *)
Lemma map_over_spec : forall {A B} (f : A -> res (B * A)) js vs js', map_over f js = Ok (vs, js') -> Forall2 (fun j v => exists j', f j = Ok (v, j')) js vs.
Proof.
  intros A B f js. induction js as [|j r IH]; intros vs js' H; cbn [map_over] in H; [injection H as <- _; constructor|].
  destruct (f j) as [[v j1]|] eqn:E; [|discriminate]. cbn [bind] in H. destruct (map_over f r) as [[u r1]|] eqn:E2; [|discriminate]. cbn [bind] in H. injection H as <- _.
  constructor; [eauto|]. eapply IH. reflexivity.
Qed.
Lemma nodup_keys_distinct : forall l, distinctQ (nodup_keys l).
Proof.
  assert (F : forall f l, distinctQ l -> distinctQ (filter f l)).
  { intros f l. induction l as [|x l IH]; cbn; [auto|]. intros [D1 D2]. specialize (IH D2). destruct (f x); [|exact IH]. cbn. split; [|exact IH]. intros y Hy. apply filter_In in Hy. now apply D1. }
  induction l as [|x l IH]; cbn; [exact Logic.I|]. split; [|now apply F]. intros y Hy. apply filter_In in Hy. destruct Hy as [_ Hy]. apply Bool.negb_true_iff in Hy. intro E. rewrite (proj2 (Qeq_bool_iff x y)) in Hy; [discriminate|now rewrite E].
Qed.
Lemma nodup_keys_same : forall l k, (exists k', In k' (nodup_keys l) /\ k' == k) <-> exists k', In k' l /\ k' == k.
Proof.
  induction l as [|x l IH]; intro k; cbn; [tauto|]. split.
  - intros (k' & [->|I] & E); [eauto|]. apply filter_In in I. destruct (proj1 (IH k)) as (k2 & J & E2); [exists k'; tauto|]. eauto.
  - intros (k' & [->|I] & E); [eauto|]. destruct (proj2 (IH k)) as (k2 & J & E2); [eauto|]. destruct (Qeq_bool x k2) eqn:B.
    + exists x. split; [now left|]. apply Qeq_bool_iff in B. now rewrite B.
    + exists k2. split; [right; apply filter_In; split; [exact J|now rewrite B]|exact E2].
Qed.
Theorem C44_merged_thresholds : forall js y t js', multi_brackets js y = Ok (t, js') ->
  exists bs, Forall2 (fun j b => exists j1, tax_brackets j y = Ok (b, j1)) js bs /\ Sorted.StronglySorted Qlt (dkeys t) /\
    forall k, (exists k', In k' (dkeys t) /\ k' == k) <-> exists b k', In b bs /\ In k' (dkeys b) /\ k' == k.
Proof.
  intros js y t js' H. unfold multi_brackets in H. destruct (map_over _ js) as [[bs js1]|] eqn:M; [|discriminate]. cbn [bind] in H.
  destruct js as [|j rest]; [discriminate|]. exists bs. split; [exact (map_over_spec _ _ _ _ M)|]. cbn [mapM bind Qsum] in H.
  set (ks := qsort _) in H.
  assert (Hg : mapM (fun k : Q => Ok (k, 0)) ks = Ok (map (fun k => (k, 0)) ks)).
  { generalize ks. clear. intro ks. induction ks as [|k0 l IH]; [reflexivity|]. cbn. rewrite IH. reflexivity. }
  rewrite Hg in H. cbn [bind] in H. injection H as <- _.
  assert (K : dkeys (map (fun k => (k, 0)) ks) = ks) by (unfold dkeys; rewrite map_map; cbn; apply map_id). rewrite K. unfold ks. split.
  - apply strict_of_distinct; [apply qsort_sorted|]. eapply distinctQ_perm; [symmetry; apply qsort_perm|]. apply nodup_keys_distinct.
  - intro k. split.
    + intros (k' & I & E). apply (Permutation_in _ (qsort_perm _)) in I. destruct (proj1 (nodup_keys_same (flat_map (fun b => dkeys b) bs) k)) as (k2 & J & E2); [eauto|]. apply in_flat_map in J. destruct J as (b & Ib & Ik). eauto.
    + intros (b & k' & Ib & Ik & E). destruct (proj2 (nodup_keys_same (flat_map (fun b => dkeys b) bs) k)) as (k2 & J & E2); [exists k'; split; [apply in_flat_map; eauto|exact E]|].
      exists k2. split; [|exact E2]. apply (Permutation_in _ (Permutation_sym (qsort_perm _))). exact J.
Qed.
Print Assumptions C44_merged_thresholds.
(** The marginal bracket is the highest of the jurisdictions' marginal brackets. *)
Theorem C44_marginal_bracket_is_highest : forall js x y b js', multi_marginal_bracket js x y = Ok (b, js') ->
  exists bs, Forall2 (fun j v => exists t, marginal_bracket j x y = Ok (v, t)) js bs /\ In b bs /\ forall b', In b' bs -> b' <= b.
Proof.
  intros js x y b js' H. unfold multi_marginal_bracket in H. destruct (map_over _ js) as [[bs js1]|] eqn:M; [|discriminate]. cbn [bind] in H.
  exists bs. split; [exact (map_over_spec _ _ _ _ M)|]. destruct bs as [|z r]; [discriminate|]. cbn [qmax_opt] in H. injection H as <- _.
  destruct (qmax_fold r z) as (A & B & C). cbv zeta in *. split; [destruct A as [A|A]; [left; congruence|right; exact A]|]. intros b' [<-|I]; auto.
Qed.
Print Assumptions C44_marginal_bracket_is_highest.
(** When every jurisdiction is given a deduction and a credit, tax_money is the same sum. *)
Theorem C44_tax_money_given : forall js x y ded cred,
  (forall i, (i < List.length js)%nat -> dget Nat.eqb ded i <> None /\ dget Nat.eqb cred i <> None) ->
  multi_tax_money js x y ded cred = multi_call js x y ded cred.
Proof.
  intros js x y ded cred H. unfold multi_tax_money, multi_call.
  assert (G : forall js i, (forall k, (k < List.length js)%nat -> dget Nat.eqb ded (i + k)%nat <> None /\ dget Nat.eqb cred (i + k)%nat <> None) ->
    sum_over (fun i j => match dget Nat.eqb ded i, dget Nat.eqb cred i with Some d, Some c => tax_money j x y d c | None, _ => Err TypeError | Some d, None => let* _ := tax_money j x y d 0 in Err TypeError end) i js
    = sum_over (fun i j => call_money j x y (dget Nat.eqb ded i) (dget Nat.eqb cred i)) i js).
  { clear. induction js as [|j r IH]; intros i H; [reflexivity|]. cbn [sum_over]. destruct (H 0%nat) as [A B]; [cbn; lia|]. rewrite Nat.add_0_r in A, B.
    destruct (dget Nat.eqb ded i) as [d|]; [|congruence]. destruct (dget Nat.eqb cred i) as [c|]; [|congruence]. unfold call_money at 1. cbn [opt0].
    rewrite IH; [reflexivity|]. intros k Hk. specialize (H (S k)). rewrite Nat.add_succ_r in H. apply H. cbn. lia. }
  apply G. intros k Hk. apply H. exact Hk.
Qed.
Print Assumptions C44_tax_money_given.
(** the merged bracket table has every rate zero *)
Theorem C44_merged_rates_zero_refuted : forall js y t js', multi_brackets js y = Ok (t, js') -> forall k r, In (k, r) t -> r = 0.
Proof.
  intros js y t js' H k r Hin. unfold multi_brackets in H. destruct (map_over _ js) as [[bs js1]|]; [|discriminate]. cbn [bind] in H.
  destruct js as [|j rest]; [discriminate|]. cbn [mapM bind Qsum] in H.
  set (ks := qsort _) in H. clearbody ks.
  assert (Hg : mapM (fun k : Q => Ok (k, 0)) ks = Ok (map (fun k => (k, 0)) ks)).
  { clear. induction ks as [|k0 l IH]; [reflexivity|]. cbn. rewrite IH. reflexivity. }
  rewrite Hg in H. cbn [bind] in H. injection H as <- _. apply in_map_iff in Hin. destruct Hin as (k0 & E & _). injection E as _ <-. reflexivity.
Qed.
Print Assumptions C44_merged_rates_zero_refuted.
(** tax_money without explicit deductions, accum without a bracket and deduction always fail *)
Theorem C44_methods_fail_refuted : forall j js x y p, 
  multi_tax_money (j :: js) x y [] [] = Err TypeError /\ (exists e, multi_accum (j :: js) y = Err e) /\ multi_deduction (j :: js) p y = Err AttributeError.
Proof.
  intros j js x y p. split; [reflexivity|]. split; [|reflexivity]. cbn [multi_accum]. destruct (accum j y); cbn [bind]; eauto.
Qed.
Print Assumptions C44_methods_fail_refuted.
Example C44_sat : exists v js, multi_call [demo_s; demo_s] 1100 2000 [(1%nat, 100)] [] = Ok (v, js) /\ v == 240 + 190 /\
  exists t js, multi_brackets [demo_s; demo_s] 2000 = Ok (t, js) /\ dkeys t = [0; 100; 1000].
Proof. do 2 eexists. split; [vm_compute; reflexivity|]. split; [reflexivity|]. do 2 eexists. split; [vm_compute; reflexivity|]. reflexivity. Qed.
