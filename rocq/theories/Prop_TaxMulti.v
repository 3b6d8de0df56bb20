(** C122: tax on people in several jurisdictions. *)
From Verif Require Import Base BaseFacts InflationModel InflationProofs RegModel RegSpec Prop_RRSP TaxModel TaxSpec TaxProofs TaxProofs2 TaxProofs3 Prop_Tax TaxCanadaModel Prop_TaxCanada CanadaConstsModel Prop_CanadaConsts TaxMultiModel.
From Coq Require Import Permutation Lia Qpower.

(** ** Specification *)
(** a jurisdiction as its constructor leaves it, under consistent inflation *)
Definition made (j : jur) : Prop := (exists tables y0 d0, built tables (j_tax j) y0 d0) /\ consistent_inflation (x_ia (j_tax j)).
(** [js] is [js0] after any number of successful calls, about any people and any years *)
Inductive asked (js0 : list jur) : list jur -> Prop :=
| asked_nothing : asked js0 js0
| asked_more who spouse order js x y ded cred t js' : asked js0 js -> (forall l, Permutation (order l) l) -> mcall who spouse order js x y ded cred = Ok (t, js') -> asked js0 js'.
(** what [n] owes in year [y] in the freshly made jurisdiction [j], alone, with extra deduction [d] and credit [c] *)
Definition owes who spouse order (j : jur) (n : nat) (y : Z) (d c v : Q) : Prop := exists j', jcall who spouse order j (One n) y (Flat d) (Flat c) = Ok (v, j').
(** the part of an optional {person: amount} dict that concerns [n] *)
Definition share (a : amounts) (n : nat) : Q := match a with Each d => amount_for d n | Flat q => q | Nothing => 0 end.
Definition per_head (a : amounts) : Prop := forall q, a <> Flat q.
Definition single (a : amounts) : Prop := forall d, a <> Each d.

(** ** Proofs *)
Definition steady (f : Z -> Z -> Q) (s : tax) : Prop :=
  (forall t b, x_ia s t (Some b) = Ok (f t b)) /\ (forall t b, 0 < f t b) /\ (forall t m b, f t m * f m b == f t b) /\ x_brk s <> [] /\ x_cr s <> [] /\ derived f s s.
Definition descends (j0 j : jur) : Prop := exists f, steady f (j_tax j0) /\ j_kind j = j_kind j0 /\ derived f (j_tax j0) (j_tax j).
Lemma made_descends j : made j -> descends j j.
Proof.
  intros ((tables & y0 & d0 & B) & (f & F1 & F2 & F3 & F4)). destruct (built_ok _ _ _ _ B) as (W & _ & _ & Hcr & _). pose proof (derived_refl f (j_tax j) W F3) as D.
  exists f. split; [|split; [reflexivity|exact D]]. split; [exact F1|]. split; [exact F2|]. split; [exact F4|]. split; [apply W|]. split; [exact Hcr|exact D].
Qed.
Lemma money_step f s0 s x y d c : steady f s0 -> derived f s0 s ->
  exists v s' v' t, tax_money s x y d c = Ok (v, s') /\ derived f s0 s' /\ tax_money s0 x y d c = Ok (v', t) /\ v == v'.
Proof.
  intros (F1 & F2 & F4 & Hne & Hcr & D0) D.
  pose proof (ask_same f s0 F1 F2 F4 Hne Hcr s s0 (QTax x d c, y) D D0 ltac:(discriminate)) as (a & a' & t1 & t2 & A & B & C).
  destruct (ask_derived f s0 F1 F2 F4 Hne Hcr s (QTax x d c, y) D ltac:(discriminate)) as (a2 & s2 & E & D2). cbn [ask] in *.
  destruct (tax_money s x y d c) as [[v s']|]; [|discriminate]. destruct (tax_money s0 x y d c) as [[v' t]|]; [|discriminate]. cbn [bind] in *.
  injection A as <- _. injection B as <- _. injection E as _ <-. exists v, s', v', t. auto.
Qed.
Lemma derived_pd f s0 s y : derived f s0 s -> personal_deduction s y = personal_deduction s0 y.
Proof. intros (E1 & E2 & _). unfold personal_deduction. rewrite E1, E2. reflexivity. Qed.

Section People.
Variables (who : nat -> cperson) (spouse : nat -> option nat) (order : list nat -> list nat).
Lemma jcredit_same j0 j n y : descends j0 j -> jcredit who spouse j n y = jcredit who spouse j0 n y.
Proof.
  intros (f & S & K & D). unfold jcredit. rewrite K. destruct (j_kind j0) as [|p s]; [reflexivity|].
  unfold cj_credit, pension_credit, spousal_credit, indexed, deduction. cbn [cj_tax cj_pension cj_spousal]. rewrite (derived_pd f _ _ y D). destruct D as (E1 & _). rewrite E1. reflexivity.
Qed.
(** a person's tax does not depend on what was asked before, and leaves a descendant *)
Lemma jperson_same j0 j n y ded cred : descends j0 j ->
  match jperson who spouse j0 n y ded cred with
  | Err e => jperson who spouse j n y ded cred = Err e
  | Ok (v, _) => exists v' j', jperson who spouse j n y ded cred = Ok (v', j') /\ v' == v /\ descends j0 j'
  end.
Proof.
  intro H. pose proof H as (f & S & K & D). unfold jperson. rewrite (jcredit_same j0 j n y H). unfold deduction. rewrite (derived_pd f _ _ y D).
  destruct (dget_r Z.eqb (tp_income _) y) as [i|]; [|reflexivity]. cbn [bind]. destruct (dget_r Z.eqb (tp_deduction _) y) as [d1|]; [|reflexivity]. cbn [bind].
  destruct (personal_deduction _ y) as [pd|]; [|reflexivity]. cbn [bind]. destruct (number ded) as [d3|]; [|reflexivity]. cbn [bind].
  destruct (dget_r Z.eqb (tp_credit _) y) as [c1|]; [|reflexivity]. cbn [bind]. destruct (jcredit who spouse j0 n y) as [c2|]; [|reflexivity]. cbn [bind].
  destruct (number cred) as [c3|]; [|reflexivity]. cbn [bind].
  destruct (money_step f (j_tax j0) (j_tax j) i y (d1 + (pd + d1) + d3) (c1 + c2 + c3) S D) as (v & s' & v' & t & E & D' & E' & V). rewrite E', E. cbn [bind].
  exists v, (with_tax j s'). split; [reflexivity|]. split; [exact V|]. exists f. split; [exact S|]. split; [exact K|exact D'].
Qed.
Lemma jperson_keeps j0 j n y ded cred v j' : descends j0 j -> jperson who spouse j n y ded cred = Ok (v, j') -> descends j0 j'.
Proof.
  intros D E. pose proof (jperson_same j0 j n y ded cred D) as X. destruct (jperson who spouse j0 n y ded cred) as [[w k]|e]; [|congruence].
  destruct X as (v' & j1 & E1 & _ & D1). congruence.
Qed.
Lemma jmoney_same j0 j x y ded cred : descends j0 j ->
  match jmoney j0 x y ded cred with
  | Err e => jmoney j x y ded cred = Err e
  | Ok (v, _) => exists v' j', jmoney j x y ded cred = Ok (v', j') /\ v' == v /\ descends j0 j'
  end.
Proof.
  intros (f & S & K & D). unfold jmoney. destruct (number ded) as [d|]; [|reflexivity]. cbn [bind].
  assert (X : forall c, exists v s' v' t, tax_money (j_tax j) x y d c = Ok (v, s') /\ derived f (j_tax j0) s' /\ tax_money (j_tax j0) x y d c = Ok (v', t) /\ v == v') by (intro c; apply money_step; assumption).
  destruct cred as [|c|l]; [destruct (X 0) as (v & s' & v' & t & -> & _ & -> & _); reflexivity| |destruct (X 0) as (v & s' & v' & t & -> & _ & -> & _); reflexivity].
  destruct (X c) as (v & s' & v' & t & -> & D' & -> & V). cbn [bind]. exists v, (with_tax j s'). split; [reflexivity|]. split; [exact V|]. exists f. auto.
Qed.

Section OneJur.
Variables (j0 : jur) (y : Z) (ded cred : dict nat Q) (v : nat -> Q).
Definition taxed (n : nat) : Prop := exists t, jperson who spouse j0 n y (Flat (amount_for ded n)) (Flat (amount_for cred n)) = Ok (v n, t).
Lemma jperson_ok j n : descends j0 j -> taxed n -> exists v' j', jperson who spouse j n y (Flat (amount_for ded n)) (Flat (amount_for cred n)) = Ok (v', j') /\ v' == v n /\ descends j0 j'.
Proof. intros D (t & E). pose proof (jperson_same j0 j n y (Flat (amount_for ded n)) (Flat (amount_for cred n)) D) as X. rewrite E in X. exact X. Qed.
Lemma jeach_sum : forall l j, descends j0 j -> (forall n, In n l -> taxed n) -> exists t j', jeach who spouse j l y ded cred = Ok (t, j') /\ t == Qsum (map v l) /\ descends j0 j'.
Proof.
  induction l as [|n r IH]; intros j D H; [exists 0, j; split; [reflexivity|]; split; [reflexivity|exact D]|].
  destruct (jperson_ok j n D (H n (or_introl eq_refl))) as (v' & j1 & E & Ev & D1). destruct (IH j1 D1) as (u & j2 & E2 & Eu & D2); [intros; apply H; right; assumption|].
  exists (v' + u), j2. cbn [jeach]. rewrite E. cbn [bind]. rewrite E2. cbn [bind]. split; [reflexivity|]. split; [cbn; rewrite Ev, Eu; reflexivity|exact D2].
Qed.
(** the people visited: the first one, with the spouse if present *)
Definition couple (people : list nat) (n : nat) : list nat :=
  match spouse n with Some m => if existsb (Nat.eqb m) people then (if Nat.eqb n m then [n] else [n; m]) else [n] | None => [n] end.
Lemma couple_ok n r : NoDup (couple (n :: r) n) /\ couple (n :: r) n <> [] /\ (forall k, In k (couple (n :: r) n) -> In k (n :: r)) /\
  match spouse n with Some m => existsb (Nat.eqb m) (n :: r) = true -> minus (n :: r) [n; m] = minus (n :: r) (couple (n :: r) n) | None => True end.
Proof.
  unfold couple. destruct (spouse n) as [m|]; [|split; [repeat constructor; intros []|]; split; [discriminate|]; split; [intros k [<-|[]]; left; reflexivity|exact Logic.I]].
  destruct (existsb (Nat.eqb m) (n :: r)) eqn:Em; [|split; [repeat constructor; intros []|]; split; [discriminate|]; split; [intros k [<-|[]]; left; reflexivity|discriminate]].
  assert (Hm : In m (n :: r)) by (apply existsb_exists in Em; destruct Em as (k & K1 & K2); apply Nat.eqb_eq in K2; subst; exact K1).
  destruct (Nat.eqb_spec n m) as [<-|Hne].
  - split; [repeat constructor; intros []|]. split; [discriminate|]. split; [intros k [<-|[]]; left; reflexivity|]. intros _. unfold minus. apply filter_ext. intro k. cbn. destruct (Nat.eqb k n); reflexivity.
  - split; [repeat constructor; [intros [E|[]]; congruence|intros []]|]. split; [discriminate|]. split; [intros k [<-|[<-|[]]]; [left; reflexivity|exact Hm]|reflexivity].
Qed.
Lemma order_one (Ho : forall l, Permutation (order l) l) (n : nat) : order [n] = [n].
Proof. apply Permutation_length_1_inv. symmetry. apply Ho. Qed.
(** one round of the recursion, in one form for singles and couples *)
Lemma jgroup_round (Ho : forall l, Permutation (order l) l) fuel j n r :
  jgroup who spouse order (S fuel) j (n :: r) y ded cred =
  let* (t, j1) := jeach who spouse j (order (couple (n :: r) n)) y ded cred in
  let* (u, j2) := jgroup who spouse order fuel j1 (order (minus (n :: r) (couple (n :: r) n))) y ded cred in Ok ((if match spouse n with Some m => existsb (Nat.eqb m) (n :: r) | None => false end then t else match jperson who spouse j n y (Flat (amount_for ded n)) (Flat (amount_for cred n)) with Ok (t0, _) => t0 | _ => t end) + u, j2).
Proof.
  cbn [jgroup]. pose proof (couple_ok n r) as (_ & _ & _ & C). unfold couple in *. destruct (spouse n) as [m|].
  - destruct (existsb (Nat.eqb m) (n :: r)) eqn:Em; [rewrite <- (C eq_refl); reflexivity|].
    rewrite (order_one Ho n). cbn [jeach]. destruct (jperson who spouse j n y _ _) as [[t j1]|]; reflexivity.
  - rewrite (order_one Ho n). cbn [jeach]. destruct (jperson who spouse j n y _ _) as [[t j1]|]; reflexivity.
Qed.
Lemma jgroup_sum (Ho : forall l, Permutation (order l) l) : forall fuel people j, (List.length people <= fuel)%nat -> NoDup people -> descends j0 j -> (forall n, In n people -> taxed n) ->
  exists t j', jgroup who spouse order fuel j people y ded cred = Ok (t, j') /\ t == Qsum (map v people) /\ descends j0 j'.
Proof.
  induction fuel as [|fuel IH]; intros people j Hl Hnd D H.
  - destruct people; [|cbn in Hl; lia]. exists 0, j. split; [reflexivity|]. split; [reflexivity|exact D].
  - destruct people as [|n r]; [exists 0, j; split; [reflexivity|]; split; [reflexivity|exact D]|]. rewrite (jgroup_round Ho).
    destruct (couple_ok n r) as (C1 & C2 & C3 & _). set (cp := couple (n :: r) n) in *.
    destruct (jeach_sum (order cp) j D) as (t & j1 & E & Et & D1); [intros k Hk; apply H, C3; apply (Permutation_in _ (Ho _)); exact Hk|].
    pose proof (minus_split (fun n => cp_tp (who n)) v (n :: r) cp Hnd C1 C3) as P.
    destruct (IH (order (minus (n :: r) cp)) j1) as (u & j2 & E2 & Eu & D2).
    + rewrite (Permutation_length (Ho _)). apply Permutation_length in P. rewrite app_length in P. destruct cp; [congruence|]. cbn in P, Hl. cbn. lia.
    + eapply Permutation_NoDup; [symmetry; apply Ho|]. apply NoDup_filter. exact Hnd.
    + exact D1.
    + intros k Hk. apply H. apply (Permutation_in _ (Ho _)) in Hk. apply in_minus in Hk. tauto.
    + rewrite E. cbn [bind]. rewrite E2. cbn [bind]. do 2 eexists. split; [reflexivity|]. split; [|exact D2].
      rewrite (Qsum_map_perm v (n :: r) (cp ++ minus (n :: r) cp) P), map_app, Qsum_app, Eu, (Qsum_map_perm v _ _ (Ho (minus (n :: r) cp))).
      assert (T : t == Qsum (map v cp)) by (rewrite Et; apply Qsum_map_perm, Ho).
      destruct (match spouse n with Some m => existsb (Nat.eqb m) (n :: r) | None => false end) eqn:Es; [rewrite T; reflexivity|].
      assert (Hc : cp = [n]) by (unfold cp, couple; destruct (spouse n); [rewrite Es|]; reflexivity).
      destruct (jperson_ok j n D (H n (or_introl eq_refl))) as (v' & j' & -> & Ev & _). rewrite Ev, Hc. cbn. ring.
Qed.
(** success means that everybody could be taxed *)
Lemma jeach_keeps : forall l j t j', descends j0 j -> jeach who spouse j l y ded cred = Ok (t, j') ->
  descends j0 j' /\ forall n, In n l -> exists w k, jperson who spouse j0 n y (Flat (amount_for ded n)) (Flat (amount_for cred n)) = Ok (w, k).
Proof.
  induction l as [|n r IH]; intros j t j' D E; cbn [jeach] in E; [injection E as _ <-; split; [exact D|intros n []]|].
  pose proof (jperson_same j0 j n y (Flat (amount_for ded n)) (Flat (amount_for cred n)) D) as X.
  destruct (jperson who spouse j0 n y _ _) as [[w k]|e] eqn:E0; [|rewrite X in E; discriminate]. destruct X as (v' & j1 & E1 & _ & D1). rewrite E1 in E. cbn [bind] in E.
  destruct (jeach who spouse j1 r y ded cred) as [[u j2]|] eqn:E2; [|discriminate]. cbn [bind] in E. injection E as _ <-.
  destruct (IH j1 u j2 D1 E2) as (D2 & H). split; [exact D2|]. intros m [<-|Hm]; [eauto|apply H; exact Hm].
Qed.
Lemma jgroup_keeps (Ho : forall l, Permutation (order l) l) : forall fuel people j t j', descends j0 j -> jgroup who spouse order fuel j people y ded cred = Ok (t, j') ->
  descends j0 j' /\ forall n, In n people -> exists w k, jperson who spouse j0 n y (Flat (amount_for ded n)) (Flat (amount_for cred n)) = Ok (w, k).
Proof.
  induction fuel as [|fuel IH]; intros people j t j' D E.
  - destruct people; [|discriminate]. cbn in E. injection E as _ <-. split; [exact D|intros n []].
  - destruct people as [|n r]; [cbn in E; injection E as _ <-; split; [exact D|intros m []]|]. rewrite (jgroup_round Ho) in E.
    destruct (jeach who spouse j (order (couple (n :: r) n)) y ded cred) as [[t1 j1]|] eqn:E1; [|discriminate]. cbn [bind] in E.
    destruct (jgroup who spouse order fuel j1 _ y ded cred) as [[u j2]|] eqn:E2; [|discriminate]. cbn [bind] in E. injection E as _ <-.
    destruct (jeach_keeps _ _ _ _ D E1) as (D1 & H1). destruct (IH _ _ _ _ D1 E2) as (D2 & H2). split; [exact D2|].
    intros m Hm. destruct (in_dec Nat.eq_dec m (couple (n :: r) n)) as [Hc|Hc]; [apply H1; apply (Permutation_in _ (Permutation_sym (Ho _))); exact Hc|].
    apply H2. apply (Permutation_in _ (Permutation_sym (Ho _))). apply in_minus. tauto.
Qed.
End OneJur.
End People.

Lemma jcall_keeps who spouse order j0 j x y ded cred t j' : (forall l, Permutation (order l) l) -> descends j0 j -> jcall who spouse order j x y ded cred = Ok (t, j') -> descends j0 j'.
Proof.
  intros Ho D. unfold jcall. destruct x as [q|n|l|l].
  - intro E. pose proof (jmoney_same j0 j q y (given ded) (given cred) D) as X. destruct (jmoney j0 q y (given ded) (given cred)) as [[v k]|e]; [|congruence]. destruct X as (v' & j1 & E1 & _ & D1). congruence.
  - apply jperson_keeps. exact D.
  - unfold jpeople. destruct l as [|n r]; [intro E; injection E as _ <-; exact D|]. destruct (per_person ded) as [d|]; [|discriminate]. cbn [bind]. destruct (per_person cred) as [c|]; [|discriminate]. cbn [bind].
    intro E. apply (jgroup_keeps who spouse order j0 y d c (fun _ => 0) Ho) in E; [apply E|exact D].
  - unfold jlist. destruct l as [|n r]; [intro E; injection E as _ <-; exact D|]. destruct (per_person ded) as [d|]; [|discriminate]. cbn [bind]. destruct (per_person cred) as [c|]; [|discriminate]. cbn [bind].
    match goal with |- bind ?m _ = _ -> _ => destruct m; discriminate end.
Qed.
Lemma asked_descends js0 js : Forall made js0 -> asked js0 js -> Forall2 descends js0 js.
Proof.
  intros M A. induction A as [|who spouse order js x y ded cred t js' A IH Ho E].
  - induction M as [|j l Hj M IH]; constructor; [apply made_descends; exact Hj|exact IH].
  - clear A M. unfold mcall in E. revert E. generalize 0%nat as i. revert t js'. induction IH as [|j0 j l0 l D IH IH2]; intros t js' i E; cbn [sum_over] in E; [injection E as _ <-; constructor|].
    destruct (jcall who spouse order j x y _ _) as [[v j1]|] eqn:E1; [|discriminate]. cbn [bind] in E. destruct (sum_over _ (S i) l) as [[u l1]|] eqn:E2; [|discriminate]. cbn [bind] in E. injection E as _ <-.
    constructor; [eapply jcall_keeps; eassumption|eapply IH2; exact E2].
Qed.
(** sum() over the jurisdictions *)
Lemma sum_over_same (g : nat -> jur -> res (Q * jur)) (v : nat -> Q) js0 js : Forall2 descends js0 js -> forall i,
  (forall k j0 j, nth_error js0 k = Some j0 -> descends j0 j -> exists t j', g (i + k)%nat j = Ok (t, j') /\ t == v (i + k)%nat) ->
  exists t js', sum_over g i js = Ok (t, js') /\ t == Qsum (map v (seq i (List.length js0))).
Proof.
  induction 1 as [|j0 j l0 l D F IH]; intros i H; cbn [sum_over List.length seq map]; [do 2 eexists; split; reflexivity|].
  destruct (H 0%nat j0 j eq_refl D) as (t & j' & E & T). rewrite Nat.add_0_r in E, T. rewrite E. cbn [bind].
  destruct (IH (S i)) as (u & l' & E2 & U). { intros k k0 k1 Hk Hd. specialize (H (S k) k0 k1 Hk Hd). rewrite Nat.add_succ_r in H. exact H. }
  rewrite E2. cbn [bind]. do 2 eexists. split; [reflexivity|]. cbn [Qsum]. rewrite T, U. reflexivity.
Qed.
Lemma sum_over_err (g : nat -> jur -> res (Q * jur)) js0 js : Forall2 descends js0 js -> forall i k j0, nth_error js0 k = Some j0 ->
  (forall j, descends j0 j -> exists e, g (i + k)%nat j = Err e) -> exists e, sum_over g i js = Err e.
Proof.
  induction 1 as [|j0 j l0 l D F IH]; intros i k z Hk H; [destruct k; discriminate|]. cbn [sum_over]. destruct k as [|k].
  - injection Hk as <-. destruct (H j D) as (e & E). rewrite Nat.add_0_r in E. rewrite E. eexists. reflexivity.
  - destruct (g i j) as [[t j']|e]; [|eexists; reflexivity]. cbn [bind]. destruct (IH (S i) k z Hk) as (e & E); [intros x Hx; specialize (H x Hx); rewrite Nat.add_succ_r in H; exact H|]. rewrite E. eexists. reflexivity.
Qed.

(** ** C122 *)
(** The tax of a set of people is the sum, over the jurisdictions and over the people, of what each
    one owes alone: whatever was asked before, whoever is married to whom, in whatever order the sets
    are visited, with amounts given for some, all or none of the people and jurisdictions. *)
Theorem C122_household_is_sum : forall who spouse order js0 js people y ded cred v,
  Forall made js0 -> asked js0 js -> NoDup people -> (forall l, Permutation (order l) l) ->
  (forall i, per_head (entry ded i) /\ per_head (entry cred i)) ->
  (forall i j n, nth_error js0 i = Some j -> In n people -> owes who spouse order j n y (share (entry ded i) n) (share (entry cred i) n) (v i n)) ->
  exists t js', mcall who spouse order js (Group people) y ded cred = Ok (t, js') /\
    t == Qsum (map (fun i => Qsum (map (v i) people)) (seq 0 (List.length js0))).
Proof.
  intros who spouse order js0 js people y ded cred v M A Hnd Ho Hp Hv. unfold mcall. apply sum_over_same; [apply asked_descends; assumption|].
  cbn [Nat.add]. intros k j0 j Hk D. cbn [jcall]. unfold jpeople. destruct people as [|n r]; [do 2 eexists; split; reflexivity|]. set (people := n :: r) in *.
  destruct (Hp k) as [Pd Pc].
  assert (X : forall a, per_head a -> exists d, per_person a = Ok d /\ forall m, amount_for d m = share a m).
  { intros a Ha. destruct a as [|q|d]; [exists []; split; reflexivity|exfalso; apply (Ha q); reflexivity|exists d; split; reflexivity]. }
  destruct (X _ Pd) as (d & -> & Ed). destruct (X _ Pc) as (c & -> & Ec). cbn [bind].
  destruct (jgroup_sum who spouse order j0 y d c (v k) Ho (List.length people) people j (le_n _) Hnd D) as (t & j' & E & T & _).
  - intros m Hm. unfold taxed. rewrite Ed, Ec. destruct (Hv k j0 m Hk Hm) as (j1 & E1). exists j1. exact E1.
  - exists t, j'. split; assumption.
Qed.
Print Assumptions C122_household_is_sum.
(** The tax of one person is the sum over the jurisdictions, amounts left out counting as zero. *)
Theorem C122_person_is_sum : forall who spouse order js0 js n y ded cred v,
  Forall made js0 -> asked js0 js -> (forall i, single (entry ded i) /\ single (entry cred i)) ->
  (forall i j, nth_error js0 i = Some j -> owes who spouse order j n y (share (entry ded i) n) (share (entry cred i) n) (v i)) ->
  exists t js', mcall who spouse order js (One n) y ded cred = Ok (t, js') /\ t == Qsum (map v (seq 0 (List.length js0))).
Proof.
  intros who spouse order js0 js n y ded cred v M A Hp Hv. unfold mcall. apply sum_over_same; [apply asked_descends; assumption|].
  cbn [Nat.add]. intros k j0 j Hk D. cbn [jcall]. destruct (Hp k) as [Pd Pc].
  assert (X : forall a, single a -> given a = Flat (share a n)) by (intros a Ha; destruct a as [|q|d]; [reflexivity|reflexivity|exfalso; apply (Ha d); reflexivity]).
  rewrite (X _ Pd), (X _ Pc). destruct (Hv k j0 Hk) as (j1 & E1). cbn [jcall given] in E1.
  pose proof (jperson_same who spouse j0 j n y (Flat (share (entry ded k) n)) (Flat (share (entry cred k) n)) D) as Y. rewrite E1 in Y. destruct Y as (t & j' & E & T & _). exists t, j'. split; assumption.
Qed.
Print Assumptions C122_person_is_sum.
(** tax_spouses, which goes through its people one by one, also takes lists, and people more than once *)
Theorem C122_spouses_is_sum : forall who spouse order js0 js people y ded cred v,
  Forall made js0 -> asked js0 js -> (forall i, per_head (entry ded i) /\ per_head (entry cred i)) ->
  (forall i j n, nth_error js0 i = Some j -> In n people -> owes who spouse order j n y (share (entry ded i) n) (share (entry cred i) n) (v i n)) ->
  exists t js', mspouses who spouse js people y ded cred = Ok (t, js') /\ t == Qsum (map (fun i => Qsum (map (v i) people)) (seq 0 (List.length js0))).
Proof.
  intros who spouse order js0 js people y ded cred v M A Hp Hv. unfold mspouses. apply sum_over_same; [apply asked_descends; assumption|].
  cbn [Nat.add]. intros k j0 j Hk D. unfold jspouses. destruct people as [|n r]; [do 2 eexists; split; reflexivity|]. destruct (Hp k) as [Pd Pc].
  assert (X : forall a, per_head a -> exists d, per_person a = Ok d /\ forall m, amount_for d m = share a m).
  { intros a Ha. destruct a as [|q|d]; [exists []; split; reflexivity|exfalso; apply (Ha q); reflexivity|exists d; split; reflexivity]. }
  destruct (X _ Pd) as (d & -> & Ed). destruct (X _ Pc) as (c & -> & Ec). cbn [bind].
  destruct (jeach_sum who spouse j0 y d c (v k) (n :: r) j D) as (t & j' & E & T & _).
  - intros m Hm. unfold taxed. rewrite Ed, Ec. destruct (Hv k j0 m Hk Hm) as (j1 & E1). exists j1. exact E1.
  - exists t, j'. split; assumption.
Qed.
Print Assumptions C122_spouses_is_sum.
(** If somebody cannot be taxed by some jurisdiction (say a year's history is missing), the household
    is not taxed either. *)
Theorem C122_all_or_nothing : forall who spouse order js0 js people y ded cred i j n,
  Forall made js0 -> asked js0 js -> (forall l, Permutation (order l) l) -> nth_error js0 i = Some j -> In n people ->
  (forall v, ~ owes who spouse order j n y (share (entry ded i) n) (share (entry cred i) n) v) ->
  exists e, mcall who spouse order js (Group people) y ded cred = Err e.
Proof.
  intros who spouse order js0 js people y ded cred i j n M A Ho Hi Hn Hv. unfold mcall. apply (sum_over_err _ js0 js (asked_descends _ _ M A) 0 i j Hi).
  cbn [Nat.add]. intros j1 D. cbn [jcall]. destruct (jpeople who spouse order j1 people y (entry ded i) (entry cred i)) as [[t j2]|e] eqn:E; [|eexists; reflexivity]. exfalso.
  unfold jpeople in E. destruct people as [|m r]; [destruct Hn|].
  destruct (entry ded i) as [|q|d] eqn:Ed; cbn [per_person bind] in E; try discriminate; destruct (entry cred i) as [|q'|c] eqn:Ec; cbn [per_person bind] in E; try discriminate;
    apply (jgroup_keeps who spouse order j y _ _ (fun _ => 0) Ho) in E; try exact D; destruct E as (_ & E); destruct (E n Hn) as (w & k & Ew); apply (Hv w); exists k; exact Ew.
Qed.
Print Assumptions C122_all_or_nothing.
(** Asking through [tax_person] instead of calling works only if an amount was given for every
    jurisdiction: an omitted one is passed on as None *)
(** the same when [tax_people] itself is asked *)
Theorem C122_tax_people_is_sum : forall who spouse order js0 js people y ded cred v,
  Forall made js0 -> asked js0 js -> NoDup people -> (forall l, Permutation (order l) l) ->
  (forall i, per_head (entry ded i) /\ per_head (entry cred i)) ->
  (forall i j n, nth_error js0 i = Some j -> In n people -> owes who spouse order j n y (share (entry ded i) n) (share (entry cred i) n) (v i n)) ->
  exists t js', mpeople who spouse order js people y ded cred = Ok (t, js') /\
    t == Qsum (map (fun i => Qsum (map (v i) people)) (seq 0 (List.length js0))).
Proof. exact C122_household_is_sum. Qed.

(** and when [tax_person] is, an amount being given for every jurisdiction *)
Theorem C122_tax_person_is_sum_partial : forall who spouse order js0 js n y ded cred d c v,
  Forall made js0 -> asked js0 js -> (forall i, (i < List.length js0)%nat -> entry ded i = Flat (d i) /\ entry cred i = Flat (c i)) ->
  (forall i j, nth_error js0 i = Some j -> owes who spouse order j n y (d i) (c i) (v i)) ->
  exists t js', mperson who spouse js n y ded cred = Ok (t, js') /\ t == Qsum (map v (seq 0 (List.length js0))).
Proof.
  intros who spouse order js0 js n y ded cred d c v M A Hp Hv. unfold mperson. apply sum_over_same; [apply asked_descends; assumption|].
  cbn [Nat.add]. intros k j0 j Hk D. assert (Hl : (k < List.length js0)%nat) by (apply nth_error_Some; rewrite Hk; discriminate).
  destruct (Hp k Hl) as [Ed Ec]. rewrite Ed, Ec. destruct (Hv k j0 Hk) as (j1 & E1). cbn [jcall given] in E1.
  pose proof (jperson_same who spouse j0 j n y (Flat (d k)) (Flat (c k)) D) as Y. rewrite E1 in Y. destruct Y as (t & j' & E & T & _). exists t, j'. split; assumption.
Qed.

Theorem C122_tax_person_needs_amounts_refuted : forall who spouse js n y ded cred i, (i < List.length js)%nat -> (entry ded i = Nothing \/ entry cred i = Nothing) ->
  exists e, mperson who spouse js n y ded cred = Err e.
Proof.
  intros who spouse js n y ded cred i Hi H. unfold mperson. assert (G : forall js k, (exists m, (m < List.length js)%nat /\ (k + m)%nat = i) -> exists e, sum_over (fun i j => jperson who spouse j n y (entry ded i) (entry cred i)) k js = Err e).
  { clear js Hi. induction js as [|j r IH]; intros k (m & Hm & Hk); cbn [List.length] in Hm; [lia|]. cbn [sum_over]. destruct m as [|m].
    - rewrite Nat.add_0_r in Hk. subst k. assert (E : exists e, jperson who spouse j n y (entry ded i) (entry cred i) = Err e).
      { unfold jperson. repeat match goal with |- exists e, bind ?m _ = _ => destruct m eqn:?; cbn [bind]; [|eexists; reflexivity] end.
        destruct H as [H|H]; rewrite H in *; discriminate. }
      destruct E as (e & ->). eexists. reflexivity.
    - destruct (jperson who spouse j n y (entry ded k) (entry cred k)) as [[t j']|e]; [|eexists; reflexivity]. cbn [bind].
      destruct (IH (S k)) as (e & ->); [exists m; split; lia|]. eexists. reflexivity. }
  apply G. exists i. split; [exact Hi|reflexivity].
Qed.
Print Assumptions C122_tax_person_needs_amounts_refuted.
(** Lists and tuples of people, which the documentation allows, cannot be taxed. *)
Theorem C122_lists_refuted : forall who spouse order j js people y ded cred, people <> [] -> exists e, mcall who spouse order (j :: js) (Listed people) y ded cred = Err e.
Proof.
  intros who spouse order j js people y ded cred H. unfold mcall. cbn [sum_over jcall]. destruct people as [|n r]; [congruence|].
  assert (E : exists e, jlist who spouse order j (n :: r) y (entry ded 0) (entry cred 0) = Err e).
  { unfold jlist. repeat match goal with |- exists e, bind ?m _ = _ => destruct m; cbn [bind]; [|eexists; reflexivity] end. eexists. reflexivity. }
  destruct E as (e & ->). eexists. reflexivity.
Qed.
Print Assumptions C122_lists_refuted.
(** The rate of a threshold can be asked for only if all jurisdictions share the threshold; then it is
    the sum of their rates.  (The documentation describes combined brackets.) *)
Theorem C122_shared_threshold_partial : forall js y k tables rates, Forall2 (fun j d => dget Z.eqb (x_brk (j_tax j)) y = Some d) js tables ->
  (Forall2 (fun d r => dget Qeq_bool d k = Some r) tables rates -> exists t js', mbracket js y k = Ok (t, js') /\ t == Qsum rates) /\
  (Exists (fun d => dget Qeq_bool d k = None) tables -> mbracket js y k = Err KeyError).
Proof.
  intros js y k tables rates H. unfold mbracket. generalize 0%nat as i. revert rates. induction H as [|j d l ds Hd H IH]; intros rates i; cbn [sum_over].
  - split; [intro R; inversion R; subst; do 2 eexists; split; reflexivity|intro R; inversion R].
  - unfold tax_brackets at 1 3. rewrite Hd. cbn [bind]. unfold dget_r at 1 3. split; intro R.
    + inversion R as [|? r ? rs R1 R2]; subst. rewrite R1. cbn [bind]. destruct (IH rs (S i)) as [A _]. destruct (A R2) as (t & l' & E & T). rewrite E. cbn [bind]. do 2 eexists. split; [reflexivity|]. cbn [Qsum]. rewrite T. reflexivity.
    + destruct (dget Qeq_bool d k) as [r|] eqn:Ek; [|reflexivity]. cbn [bind]. inversion R as [? ? R1|? ? R1]; subst; [congruence|]. destruct (IH rates (S i)) as [_ B]. rewrite (B R1). reflexivity.
Qed.
Print Assumptions C122_shared_threshold_partial.
(** the same for the tax accumulated below a threshold *)
Theorem C122_accumulated_partial : forall js y k tables taxes, Forall2 (fun j d => dget Z.eqb (x_acc (j_tax j)) y = Some d) js tables ->
  (Forall2 (fun d r => dget Qeq_bool d k = Some r) tables taxes -> exists t js', maccum js y k = Ok (t, js') /\ t == Qsum taxes) /\
  (Exists (fun d => dget Qeq_bool d k = None) tables -> maccum js y k = Err KeyError).
Proof.
  intros js y k tables rates H. unfold maccum. generalize 0%nat as i. revert rates. induction H as [|j d l ds Hd H IH]; intros rates i; cbn [sum_over].
  - split; [intro R; inversion R; subst; do 2 eexists; split; reflexivity|intro R; inversion R].
  - unfold accum at 1 3. rewrite Hd. cbn [bind]. unfold dget_r at 1 3. split; intro R.
    + inversion R as [|? r ? rs R1 R2]; subst. rewrite R1. cbn [bind]. destruct (IH rs (S i)) as [A _]. destruct (A R2) as (t & l' & E & T). rewrite E. cbn [bind]. do 2 eexists. split; [reflexivity|]. cbn [Qsum]. rewrite T. reflexivity.
    + destruct (dget Qeq_bool d k) as [r|] eqn:Ek; [|reflexivity]. cbn [bind]. inversion R as [? ? R1|? ? R1]; subst; [congruence|]. destruct (IH rates (S i)) as [_ B]. rewrite (B R1). reflexivity.
Qed.
Print Assumptions C122_accumulated_partial.

(** ** A household in Canada, with the shipped constants *)
(** a year's figures: what people earned, deducted and were credited with, as recorded *)
Section Canada.
Variables (who : nat -> cperson) (spouse : nat -> option nat) (inc od oc : nat -> Q).
(** the spousal credit goes to the one with the larger net income; of equals, to the one with the larger identity *)
Definition net (pd : Q) (n : nat) : Q := cp_income_now (who n) - (pd + od n).
Definition claims (pd : Q) (n m : nat) : bool :=
  Qlt_bool (net pd m) (net pd n) || (Qeq_bool (net pd n) (net pd m) && negb (Z.ltb (cp_id (who n)) (cp_id (who m)))).
Definition credits (pd pension amount : Q) (n : nat) : Q :=
  oc n + (oc n + qmin (qabs (Qsum (cp_rrsp_out (who n)))) pension +
          match spouse n with Some m => if claims pd n m then qmax (amount - net pd m) 0 else 0 | None => 0 end).
(** one jurisdiction's tax: the indexed schedule on the income less the personal and (twice) the own
    deductions, less the credits at the credit rate, not below zero *)
Definition dues (f rate pd pension amount : Q) (n : nat) : Q :=
  qmax (indexed_schedule f (inc n - (pd * f + 2 * od n)) - rate * credits (pd * f) (pension * f) (amount * f) n) 0.
Definition concerned (people : list nat) (n : nat) : Prop := In n people \/ exists m, In m people /\ spouse m = Some n.

Lemma indexed_proper f x x' : 0 < f -> x == x' -> indexed_schedule f x == indexed_schedule f x'.
Proof. intros F E. rewrite <- !progressive_indexed by exact F. apply progressive_same; [apply same_table_refl|exact E]. Qed.
Lemma indexed17 arg s y f q : build_inflation_adjust arg = Ok (x_ia s) -> price_rise arg y f -> exists m, indexed s [(2017%Z, q)] y = Ok m /\ m == q * f.
Proof.
  intros B (F & F17 & Fn). unfold indexed. cbn [map fst snd]. unfold extend_inflation_adjusted. cbn [dget]. destruct (Z.eqb_spec y 2017) as [->|Hy].
  - cbn [bind]. exists q. split; [reflexivity|]. rewrite (F17 eq_refl). ring.
  - destruct (Fn Hy) as (ia & Ei & Ef). rewrite B in Ei. injection Ei as <-.
    pose proof (nearest_year_spec [(2017%Z, VScalar q)] y) as N. destruct (nearest_year [(2017%Z, VScalar q)] y) as [k|]; [|discriminate N].
    destruct N as [[N|[]] _]. cbn in N. subst k. destruct (Z.eqb_spec 2017 y) as [E|_]; [congruence|]. unfold dget_r. cbn [dget]. rewrite Z.eqb_refl. cbn [bind].
    rewrite Ef. cbn [bind]. exists (q * f). split; reflexivity.
Qed.
Lemma qmin_proper a b c d : a == b -> c == d -> qmin a c == qmin b d.
Proof. intros A B. unfold qmin. destruct (Qle_bool a c) eqn:E, (Qle_bool b d) eqn:E'; qb; lra. Qed.
Lemma claims_proper a b n m : a == b -> claims a n m = claims b n m.
Proof.
  intro E. unfold claims, net. assert (H : forall k, cp_income_now (who k) - (a + od k) == cp_income_now (who k) - (b + od k)) by (intro k; rewrite E; reflexivity).
  pose proof (H n) as H1. pose proof (H m) as H2. revert H1 H2. generalize (cp_income_now (who n) - (a + od n)) (cp_income_now (who m) - (a + od m)) (cp_income_now (who n) - (b + od n)) (cp_income_now (who m) - (b + od m)). intros p q r s Hp Hq.
  assert (Qlt_bool q p = Qlt_bool s r) as ->. { destruct (Qlt_bool q p) eqn:A, (Qlt_bool s r) eqn:B; try reflexivity; qb; lra. }
  assert (Qeq_bool p q = Qeq_bool r s) as ->. { destruct (Qeq_bool p q) eqn:A, (Qeq_bool r s) eqn:B; try reflexivity; qb; lra. } reflexivity.
Qed.
Lemma jcredit17 arg s y f pd pen amt n :
  build_inflation_adjust arg = Ok (x_ia s) -> x_pd s = [(2017%Z, pd)] -> price_rise arg y f ->
  figures (cp_tp (who n)) y (inc n) (od n) (oc n) -> (forall m, spouse n = Some m -> figures (cp_tp (who m)) y (inc m) (od m) (oc m)) ->
  exists c, jcredit who spouse {| j_tax := s; j_kind := Canadian [(2017%Z, pen)] [(2017%Z, amt)] |} n y = Ok c /\ oc n + c == credits (pd * f) (pen * f) (amt * f) n.
Proof.
  intros B P F Hn Hm. destruct Hn as (N1 & N2 & N3). unfold jcredit, cj_credit, pension_credit. cbn [j_kind j_tax cj_tax cj_pension].
  unfold credit, dget_r at 1. rewrite N3. cbn [bind]. destruct (indexed17 arg s y f pen B F) as (a & -> & Ea). cbn [bind].
  assert (D : forall k, figures (cp_tp (who k)) y (inc k) (od k) (oc k) -> exists d, deduction s (cp_tp (who k)) y = Ok (d + od k) /\ personal_deduction s y = Ok d /\ d == pd * f).
  { intros k (K1 & K2 & K3). destruct (indexed17 arg s y f pd B F) as (d & E & Ed). rewrite <- P in E. change (indexed s (x_pd s) y) with (personal_deduction s y) in E.
    exists d. unfold deduction. rewrite E. cbn [bind]. unfold dget_r. rewrite K2. split; [reflexivity|]. split; [reflexivity|exact Ed]. }
  unfold credits, spousal_credit. destruct (spouse n) as [m|] eqn:Es; cbn [option_map].
  - cbn [cj_tax cj_spousal]. destruct (indexed17 arg s y f amt B F) as (b & -> & Eb). cbn [bind].
    destruct (D m (Hm m eq_refl)) as (dm & Em & Pm & Dm). destruct (D n ltac:(repeat split; assumption)) as (dn & En & Pn & Dn). rewrite Em, En. cbn [bind].
    rewrite Pm in Pn. injection Pn as <-.
    assert (C : claims (pd * f) n m = claims dm n m) by (apply claims_proper; symmetry; exact Dm). rewrite C. unfold claims, net.
    set (pn := cp_income_now (who n) - (dm + od n)). set (sn := cp_income_now (who m) - (dm + od m)).
    assert (Q1 : qmin (qabs (Qsum (cp_rrsp_out (who n)))) a == qmin (qabs (Qsum (cp_rrsp_out (who n)))) (pen * f)) by (apply qmin_proper; [reflexivity|exact Ea]).
    assert (Q2 : qmax (b - sn) 0 == qmax (amt * f - (cp_income_now (who m) - (pd * f + od m))) 0) by (apply qmax_proper; [|reflexivity]; unfold sn; rewrite Eb, Dm; reflexivity).
    destruct (Qlt_bool pn sn) eqn:L1; [|destruct (Qeq_bool pn sn) eqn:L2; [destruct (Z.ltb (cp_id (who n)) (cp_id (who m))) eqn:L3|]]; cbn [bind andb orb negb].
    + assert (Qlt_bool sn pn = false) as -> by (destruct (Qlt_bool sn pn) eqn:X; [qb; lra|reflexivity]). assert (Qeq_bool pn sn = false) as -> by (destruct (Qeq_bool pn sn) eqn:X; [qb; lra|reflexivity]).
      cbn [orb andb]. eexists. split; [reflexivity|]. rewrite Q1. ring.
    + assert (Qlt_bool sn pn = false) as -> by (destruct (Qlt_bool sn pn) eqn:X; [qb; lra|reflexivity]). cbn [orb]. eexists. split; [reflexivity|]. rewrite Q1. ring.
    + rewrite orb_true_r. eexists. split; [reflexivity|]. rewrite Q1, Q2. ring.
    + assert (Qlt_bool sn pn = true) as -> by (destruct (Qlt_bool sn pn) eqn:X; [reflexivity|]; exfalso; destruct (Qeq_bool pn sn) eqn:Y; [discriminate|]; apply Qeq_bool_neq in Y; apply Y; qb; lra).
      cbn [orb]. eexists. split; [reflexivity|]. rewrite Q1, Q2. ring.
  - cbn [bind]. eexists. split; [reflexivity|]. assert (Q1 : qmin (qabs (Qsum (cp_rrsp_out (who n)))) a == qmin (qabs (Qsum (cp_rrsp_out (who n)))) (pen * f)) by (apply qmin_proper; [reflexivity|exact Ea]). rewrite Q1. ring.
Qed.
Lemma credits_nonneg pd pen amt n : 0 <= pen -> 0 <= oc n -> 0 <= credits pd pen amt n.
Proof.
  intros P O. unfold credits. assert (0 <= qmin (qabs (Qsum (cp_rrsp_out (who n)))) pen) by (unfold qmin; destruct (Qle_bool _ _); [unfold qabs; destruct (Qle_bool _ _) eqn:E; qb; lra|exact P]).
  assert (0 <= match spouse n with Some m => if claims pd n m then qmax (amt - net pd m) 0 else 0 | None => 0 end).
  { destruct (spouse n); [|lra]. destruct (claims pd n _); [|lra]. unfold qmax. destruct (Qle_bool _ _) eqn:E; qb; lra. } lra.
Qed.
(** one person in one shipped jurisdiction *)
Lemma person17 arg s y f pd rate pen amt n :
  tax_init [(2017%Z, T17)] [(2017%Z, pd)] [(2017%Z, rate)] arg = Ok s -> 0 <= rate -> 0 <= pen -> price_rise arg y f -> 0 <= oc n ->
  figures (cp_tp (who n)) y (inc n) (od n) (oc n) -> (forall m, spouse n = Some m -> figures (cp_tp (who m)) y (inc m) (od m) (oc m)) ->
  exists v j', jperson who spouse {| j_tax := s; j_kind := Canadian [(2017%Z, pen)] [(2017%Z, amt)] |} n y (Flat 0) (Flat 0) = Ok (v, j') /\ v == dues f rate pd pen amt n.
Proof.
  intros T R Hp F O Hn Hm. destruct (init_ia _ _ _ _ _ T ltac:(discriminate) ltac:(discriminate)) as (B & _ & P).
  destruct (jcredit17 arg s y f pd pen amt n B P F Hn Hm) as (c & Ec & Cc). pose proof F as (F0 & _). pose proof Hn as (N1 & N2 & N3).
  destruct (indexed17 arg s y f pd B F) as (d & Ed & Dd). rewrite <- P in Ed. change (indexed s (x_pd s) y) with (personal_deduction s y) in Ed.
  unfold jperson. rewrite Ec. unfold deduction, dget_r. cbn [j_tax]. rewrite N1, N2, N3, Ed. cbn [bind number].
  assert (Np : 0 <= pen * f) by (apply Qmult_le_0_compat; lra). pose proof (credits_nonneg (pd * f) (pen * f) (amt * f) n Np O) as Nc.
  destruct (one_jurisdiction [(2017%Z, pd)] rate arg s y f (inc n) (Some (od n + (d + od n) + 0)) (Some (oc n + c + 0)) T ltac:(discriminate) R F ltac:(cbn [opt0]; lra)) as (v & s' & E & V).
  unfold call_money, opt0 in E. rewrite E. cbn [bind]. do 2 eexists. split; [reflexivity|]. rewrite V. unfold dues. cbn [opt0]. apply qmax_proper; [|reflexivity].
  rewrite (indexed_proper f (inc n - (od n + (d + od n) + 0)) (inc n - (pd * f + 2 * od n)) F0) by (rewrite Dd; ring). rewrite <- Cc. ring.
Qed.
End Canada.
Lemma jurs_eq arg fed bc : canada_jurs arg "BC" = Ok (fed, bc) -> exists s1 s2,
  tax_init [(2017%Z, T17)] [(2017%Z, 11635)] [(2017%Z, 15 # 100)] arg = Ok s1 /\ tax_init [(2017%Z, T17)] [(2017%Z, 10208)] [(2017%Z, 506 # 10000)] arg = Ok s2 /\
  fed = {| j_tax := s1; j_kind := Canadian [(2017%Z, 2000)] [(2017%Z, 11635)] |} /\ bc = {| j_tax := s2; j_kind := Canadian [(2017%Z, 1000)] [(2017%Z, 9614)] |}.
Proof.
  unfold canada_jurs, cjur_init, jurisdiction_init.
  change (dget_r String.eqb TAX_BRACKETS "Federal"%string) with (Ok [(2017%Z, T17)]). change (dget_r String.eqb TAX_BRACKETS "BC"%string) with (Ok [(2017%Z, T17)]).
  change (dget_r String.eqb TAX_PERSONAL_DEDUCTION "Federal"%string) with (Ok [(2017%Z, 11635)]). change (dget_r String.eqb TAX_PERSONAL_DEDUCTION "BC"%string) with (Ok [(2017%Z, 10208)]).
  change (dget_r String.eqb TAX_CREDIT_RATE "Federal"%string) with (Ok [(2017%Z, 15 # 100)]). change (dget_r String.eqb TAX_CREDIT_RATE "BC"%string) with (Ok [(2017%Z, 506 # 10000)]).
  cbn [bind]. destruct (tax_init [(2017%Z, T17)] [(2017%Z, 11635)] _ arg) as [s1|]; [|discriminate]. cbn [bind].
  destruct (tax_init [(2017%Z, T17)] [(2017%Z, 10208)] _ arg) as [s2|]; [|discriminate]. 
  change (dget_r String.eqb TAX_PENSION_CREDIT "Federal"%string) with (Ok [(2017%Z, 2000)]). change (dget_r String.eqb TAX_SPOUSAL_AMOUNT "Federal"%string) with (Ok [(2017%Z, 11635)]).
  change (dget_r String.eqb TAX_PENSION_CREDIT "BC"%string) with (Ok [(2017%Z, 1000)]). change (dget_r String.eqb TAX_SPOUSAL_AMOUNT "BC"%string) with (Ok [(2017%Z, 9614)]). cbn [bind].
  intro H. injection H as <- <-. exists s1, s2. auto.
Qed.
(** In every year, under every consistent inflation assumption, whoever is married to whom and
    whatever was asked before: the tax of a household is the sum of its members' federal and
    provincial dues. *)
Theorem C122_canadian_household : forall who spouse order inc od oc arg ia fed bc js people y f,
  canada_jurs arg "BC" = Ok (fed, bc) -> build_inflation_adjust arg = Ok ia -> consistent_inflation ia -> price_rise arg y f ->
  asked [fed; bc] js -> NoDup people -> (forall l, Permutation (order l) l) ->
  (forall n, concerned spouse people n -> figures (cp_tp (who n)) y (inc n) (od n) (oc n)) -> (forall n, In n people -> 0 <= oc n) ->
  exists t js', mcall who spouse order js (Group people) y [] [] = Ok (t, js') /\
    t == Qsum (map (dues who spouse inc od oc f (15 # 100) 11635 2000 11635) people) + Qsum (map (dues who spouse inc od oc f (506 # 10000) 10208 1000 9614) people).
Proof.
  intros who spouse order inc od oc arg ia fed bc js people y f J Hia Hc F A Hnd Ho Hf Hoc. destruct (jurs_eq arg fed bc J) as (s1 & s2 & T1 & T2 & -> & ->).
  set (j1 := {| j_tax := s1; j_kind := _ |}) in *. set (j2 := {| j_tax := s2; j_kind := _ |}) in *.
  assert (P : forall n, In n people -> exists v j', jperson who spouse j1 n y (Flat 0) (Flat 0) = Ok (v, j') /\ v == dues who spouse inc od oc f (15 # 100) 11635 2000 11635 n).
  { intros n Hn. apply (person17 who spouse inc od oc arg s1 y f 11635 (15 # 100) 2000 11635 n T1); [lra|lra|exact F|apply Hoc; exact Hn|apply Hf; left; exact Hn|intros m Hm; apply Hf; right; exists n; split; assumption]. }
  assert (P2 : forall n, In n people -> exists v j', jperson who spouse j2 n y (Flat 0) (Flat 0) = Ok (v, j') /\ v == dues who spouse inc od oc f (506 # 10000) 10208 1000 9614 n).
  { intros n Hn. apply (person17 who spouse inc od oc arg s2 y f 10208 (506 # 10000) 1000 9614 n T2); [lra|lra|exact F|apply Hoc; exact Hn|apply Hf; left; exact Hn|intros m Hm; apply Hf; right; exists n; split; assumption]. }
  set (v := fun (i n : nat) => match jperson who spouse (match i with O => j1 | _ => j2 end) n y (Flat 0) (Flat 0) with Ok (q, _) => q | _ => 0 end).
  assert (Bt : forall s pd rate, tax_init [(2017%Z, T17)] [(2017%Z, pd)] [(2017%Z, rate)] arg = Ok s -> forall k, made {| j_tax := s; j_kind := k |}).
  { intros s pd rate T k. split; cbn [j_tax].
    - exists [(2017%Z, T17)], 2017%Z, T17. split; [exists [(2017%Z, pd)], [(2017%Z, rate)], arg; exact T|]. split; [repeat constructor; intros []|]. split; [|reflexivity].
      intros y0 d0 [E|[]]. injection E as <- <-. apply T17_ok.
    - destruct (init_ia _ _ _ _ _ T ltac:(discriminate) ltac:(discriminate)) as (B & _). rewrite Hia in B. injection B as ->. exact Hc. }
  destruct (C122_household_is_sum who spouse order [j1; j2] js people y [] [] v) as (t & js' & E & T).
  - constructor; [apply (Bt _ _ _ T1)|]. constructor; [apply (Bt _ _ _ T2)|constructor].
  - exact A.
  - exact Hnd.
  - exact Ho.
  - intro i. split; discriminate.
  - intros [|[|i]] j n Hj Hn; [| |destruct i; discriminate Hj]; injection Hj as <-; cbn [entry dget share]; unfold owes, v; cbn [jcall given].
    + destruct (P n Hn) as (q & j' & Eq & _). rewrite Eq. exists j'. reflexivity.
    + destruct (P2 n Hn) as (q & j' & Eq & _). rewrite Eq. exists j'. reflexivity.
  - exists t, js'. split; [exact E|]. rewrite T. cbn [List.length seq map Qsum].
    assert (X : forall g h : nat -> Q, (forall n, In n people -> g n == h n) -> Qsum (map g people) == Qsum (map h people)).
    { clear. intros g h. induction people as [|n r IH]; intro H; [reflexivity|]. cbn [map Qsum]. rewrite (H n (or_introl eq_refl)), IH; [reflexivity|]. intros; apply H; right; assumption. }
    rewrite (X (v 0%nat) (dues who spouse inc od oc f (15 # 100) 11635 2000 11635)), (X (v 1%nat) (dues who spouse inc od oc f (506 # 10000) 10208 1000 9614)); [ring| |].
    + intros n Hn. unfold v. destruct (P2 n Hn) as (q & j' & -> & Q1). exact Q1.
    + intros n Hn. unfold v. destruct (P n Hn) as (q & j' & -> & Q1). exact Q1.
Qed.
Print Assumptions C122_canadian_household.
(** TaxCanada's own arguments: federal_deduction and the like win over the entries for that
    jurisdiction in [deductions] and [credits_] *)
Definition effective (a : amounts) (d : option (dict nat amounts)) (i : nat) : amounts :=
  match a with Nothing => match d with Some d => entry d i | None => Nothing end | _ => a end.
Lemma put_entry d a b i : entry (put (put (match d with Some d => d | None => [] end) 0 a) 1 b) i = match i with 0%nat => effective a d 0 | 1%nat => effective b d 1 | _ => match d with Some d => entry d i | None => Nothing end end.
Proof.
  assert (G : forall e k x i, entry (put e k x) i = match x with Nothing => entry e i | _ => if Nat.eqb i k then x else entry e i end).
  { intros e k x n. unfold put, entry. destruct x; [reflexivity| |]; (rewrite ndget_dset; destruct (Nat.eqb n k); reflexivity). }
  rewrite !G. unfold effective. destruct d as [d|], i as [|[|i]], a, b; cbn [Nat.eqb]; reflexivity.
Qed.
Theorem C122_canadian_arguments : forall who spouse order fed0 prov0 fed prov people y fd fc pd pc ded cred vf vp,
  Forall made [fed0; prov0] -> asked [fed0; prov0] [fed; prov] -> NoDup people -> (forall l, Permutation (order l) l) ->
  (forall n, In n people -> owes who spouse order fed0 n y (share (effective fd ded 0) n) (share (effective fc cred 0) n) (vf n)) ->
  (forall n, In n people -> owes who spouse order prov0 n y (share (effective pd ded 1) n) (share (effective pc cred 1) n) (vp n)) ->
  (per_head (effective fd ded 0) /\ per_head (effective fc cred 0) /\ per_head (effective pd ded 1) /\ per_head (effective pc cred 1) ->
   exists t js', canada who spouse order fed prov (Group people) y fd fc pd pc ded cred = Ok (t, js') /\ t == Qsum (map vf people) + Qsum (map vp people)) /\
  (single (effective fd ded 0) /\ single (effective fc cred 0) /\ single (effective pd ded 1) /\ single (effective pc cred 1) ->
   forall n, In n people -> exists t js', canada who spouse order fed prov (One n) y fd fc pd pc ded cred = Ok (t, js') /\ t == vf n + vp n).
Proof.
  intros who spouse order fed0 prov0 fed prov people y fd fc pd pc ded cred vf vp M A Hnd Ho Hf Hp.
  set (v := fun i : nat => match i with O => vf | _ => vp end). pose proof (asked_descends _ _ M A) as Hd.
  inversion Hd as [|? ? ? ? D1 Hd1]; subst. inversion Hd1 as [|? ? ? ? D2 _]; subst. unfold canada, mcall. cbn [sum_over].
  assert (X : forall a, per_head a -> exists d, per_person a = Ok d /\ forall m, amount_for d m = share a m).
  { intros a Ha. destruct a as [|q|d]; [exists []; split; reflexivity|exfalso; apply (Ha q); reflexivity|exists d; split; reflexivity]. }
  assert (G : forall j0 j a c w, descends j0 j -> per_head a -> per_head c -> (forall n, In n people -> owes who spouse order j0 n y (share a n) (share c n) (w n)) ->
    exists t j', jpeople who spouse order j people y a c = Ok (t, j') /\ t == Qsum (map w people)).
  { intros j0 j a c w D Pa Pc Hw. unfold jpeople. destruct people as [|n r]; [do 2 eexists; split; reflexivity|].
    destruct (X _ Pa) as (d & -> & Ed). destruct (X _ Pc) as (e & -> & Ee). cbn [bind].
    destruct (jgroup_sum who spouse order j0 y d e w Ho (List.length (n :: r)) (n :: r) j (le_n _) Hnd D) as (t & j' & E & T & _); [|exists t, j'; split; assumption].
    intros m Hm. unfold taxed. rewrite Ed, Ee. destruct (Hw m Hm) as (j1 & E1). exists j1. exact E1. }
  assert (G1 : forall j0 j a c n w, descends j0 j -> single a -> single c -> owes who spouse order j0 n y (share a n) (share c n) w ->
    exists t j', jperson who spouse j n y (given a) (given c) = Ok (t, j') /\ t == w).
  { intros j0 j a c n w D Pa Pc (j1 & Hw). assert (Y : forall a, single a -> given a = Flat (share a n)) by (intros b Hb; destruct b as [|q|d]; [reflexivity|reflexivity|exfalso; apply (Hb d); reflexivity]).
    rewrite (Y _ Pa), (Y _ Pc). cbn [jcall given] in Hw. pose proof (jperson_same who spouse j0 j n y (Flat (share a n)) (Flat (share c n)) D) as Z0. rewrite Hw in Z0. destruct Z0 as (t & j' & E & T & _). exists t, j'. split; assumption. }
  rewrite !put_entry. cbn iota. split.
  - intros (P1 & P2 & P3 & P4). cbn [jcall]. destruct (G _ _ _ _ _ D1 P1 P2 Hf) as (t & j1 & -> & T). destruct (G _ _ _ _ _ D2 P3 P4 Hp) as (u & j2 & -> & U). cbn [bind]. do 2 eexists. split; [reflexivity|]. rewrite T, U. ring.
  - intros (P1 & P2 & P3 & P4) n Hn. cbn [jcall]. destruct (G1 _ _ _ _ _ _ D1 P1 P2 (Hf n Hn)) as (t & j1 & -> & T). destruct (G1 _ _ _ _ _ _ D2 P3 P4 (Hp n Hn)) as (u & j2 & -> & U). cbn [bind]. do 2 eexists. split; [reflexivity|]. rewrite T, U. ring.
Qed.
Print Assumptions C122_canadian_arguments.
(** Hence a household never pays a negative amount, nor more than 66% of its members' incomes. *)
Lemma dues_bounds who spouse inc od oc f rate pd pen amt n : 0 < f -> 0 <= rate -> 0 <= pen -> 0 <= pd -> 0 <= od n -> 0 <= oc n ->
  0 <= dues who spouse inc od oc f rate pd pen amt n /\ dues who spouse inc od oc f rate pd pen amt n <= (33 # 100) * qmax (inc n) 0.
Proof.
  intros F R P D Hd Hc. unfold dues. assert (P1 : 0 <= pd * f) by (apply Qmult_le_0_compat; lra). assert (P2 : 0 <= pen * f) by (apply Qmult_le_0_compat; lra).
  assert (C : 0 <= rate * credits who spouse od oc (pd * f) (pen * f) (amt * f) n) by (apply Qmult_le_0_compat; [exact R|apply credits_nonneg; assumption]).
  set (x := inc n - (pd * f + 2 * od n)). assert (X : x <= qmax (inc n) 0 /\ 0 <= qmax (inc n) 0) by (unfold x; destruct (qmax_case (inc n) 0) as [[A B]|[A B]]; rewrite B; split; lra).
  assert (Z0 : indexed_schedule f 0 == 0). { unfold indexed_schedule. rewrite <- T17_schedule, (progressive_same T17 T17 (0 / f) 0 (same_table_refl _)) by (field; lra). setoid_replace (progressive T17 0) with 0 by reflexivity. ring. }
  destruct (indexed_lip f x (qmax (inc n) 0) F (proj1 X)) as [A _]. destruct (indexed_lip f 0 (qmax (inc n) 0) F (proj2 X)) as [_ B]. rewrite Z0 in B.
  destruct (qmax_case (indexed_schedule f x - rate * credits who spouse od oc (pd * f) (pen * f) (amt * f) n) 0) as [[Y E]|[Y E]]; rewrite E; split; lra.
Qed.
Theorem C122_canadian_bounds : forall who spouse order inc od oc arg ia fed bc js people y f t js',
  canada_jurs arg "BC" = Ok (fed, bc) -> build_inflation_adjust arg = Ok ia -> consistent_inflation ia -> price_rise arg y f ->
  asked [fed; bc] js -> NoDup people -> (forall l, Permutation (order l) l) ->
  (forall n, concerned spouse people n -> figures (cp_tp (who n)) y (inc n) (od n) (oc n)) -> (forall n, In n people -> 0 <= oc n /\ 0 <= od n) ->
  mcall who spouse order js (Group people) y [] [] = Ok (t, js') -> 0 <= t /\ t <= (66 # 100) * Qsum (map (fun n => qmax (inc n) 0) people).
Proof.
  intros who spouse order inc od oc arg ia fed bc js people y f t js' J Hia Hc F A Hnd Ho Hf Hoc E.
  destruct (C122_canadian_household who spouse order inc od oc arg ia fed bc js people y f J Hia Hc F A Hnd Ho Hf ltac:(intros n Hn; apply Hoc; exact Hn)) as (t' & js2 & E' & T). rewrite E in E'. injection E' as <- _. rewrite T.
  assert (G : forall rate pd pen amt, 0 <= rate -> 0 <= pen -> 0 <= pd -> 0 <= Qsum (map (dues who spouse inc od oc f rate pd pen amt) people) <= (33 # 100) * Qsum (map (fun n => qmax (inc n) 0) people)).
  { intros rate pd pen amt R P D. clear -Hoc R P D F. induction people as [|n r IH]; [cbn; lra|]. cbn [map Qsum]. destruct (Hoc n (or_introl eq_refl)).
    destruct (dues_bounds who spouse inc od oc f rate pd pen amt n (proj1 F) R P D) as [B1 B2]; [assumption|assumption|]. destruct IH as [I1 I2]; [intros; apply Hoc; right; assumption|]. split; lra. }
  pose proof (G (15 # 100) 11635 2000 11635 ltac:(lra) ltac:(lra) ltac:(lra)). pose proof (G (506 # 10000) 10208 1000 9614 ltac:(lra) ltac:(lra) ltac:(lra)). lra.
Qed.
Print Assumptions C122_canadian_bounds.
(** TaxMulti.personal_deduction is documented as the combined deduction; it is the first jurisdiction's *)
Theorem C122_combined_deduction_refuted : forall arg fed bc y f, canada_jurs arg "BC" = Ok (fed, bc) -> price_rise arg y f ->
  exists d d1 d2, mdeduction [fed; bc] y = Ok d /\ personal_deduction (j_tax fed) y = Ok d1 /\ personal_deduction (j_tax bc) y = Ok d2 /\ d == 11635 * f /\ d1 + d2 == 21843 * f /\ ~ d == d1 + d2.
Proof.
  intros arg fed bc y f J F. destruct (jurs_eq arg fed bc J) as (s1 & s2 & T1 & T2 & -> & ->). cbn [mdeduction j_tax].
  destruct (init_ia _ _ _ _ _ T1 ltac:(discriminate) ltac:(discriminate)) as (B1 & _ & P1). destruct (init_ia _ _ _ _ _ T2 ltac:(discriminate) ltac:(discriminate)) as (B2 & _ & P2).
  destruct (indexed17 arg s1 y f 11635 B1 F) as (d1 & E1 & D1). destruct (indexed17 arg s2 y f 10208 B2 F) as (d2 & E2 & D2). rewrite <- P1 in E1. rewrite <- P2 in E2.
  change (indexed s1 (x_pd s1) y) with (personal_deduction s1 y) in E1. change (indexed s2 (x_pd s2) y) with (personal_deduction s2 y) in E2.
  exists d1, d1, d2. split; [exact E1|]. split; [exact E1|]. split; [exact E2|]. split; [exact D1|]. destruct F as (F & _). split; [lra|]. intro H. lra.
Qed.
Print Assumptions C122_combined_deduction_refuted.

(** likewise credit_rate and credit: what TaxMulti reports is the federal part alone *)
Theorem C122_combined_credit_refuted : forall who spouse inc od oc arg fed bc y f n, canada_jurs arg "BC" = Ok (fed, bc) -> price_rise arg y f ->
  figures (cp_tp (who n)) y (inc n) (od n) (oc n) -> (forall m, spouse n = Some m -> figures (cp_tp (who m)) y (inc m) (od m) (oc m)) ->
  mrate [fed; bc] y = Ok (15 # 100) /\ exists c, mcredit who spouse [fed; bc] n y = Ok c /\ oc n + c == credits who spouse od oc (11635 * f) (2000 * f) (11635 * f) n.
Proof.
  intros who spouse inc od oc arg fed bc y f n J F Hn Hm. destruct (jurs_eq arg fed bc J) as (s1 & s2 & T1 & T2 & -> & ->). cbn [mrate mcredit j_tax].
  destruct (init_ia _ _ _ _ _ T1 ltac:(discriminate) ltac:(discriminate)) as (B1 & C1 & P1). split.
  - unfold credit_rate. rewrite C1. pose proof (nearest_year_spec [(2017%Z, 15 # 100)] y) as N. destruct (nearest_year [(2017%Z, 15 # 100)] y) as [k|]; [|discriminate N]. destruct N as [[N|[]] _]. cbn in N. subst k. reflexivity.
  - apply (jcredit17 who spouse inc od oc arg s1 y f 11635 2000 11635 n B1 P1 F Hn Hm).
Qed.
Print Assumptions C122_combined_credit_refuted.

(** prices double every year; 1 and 2 are married, 3 is married to somebody outside the household *)
Definition doubling (t : Z) (b : option Z) : res Q := match b with Some b => Ok (Qpower 2 (t - b)) | None => Err TypeError end.
Lemma doubling_consistent : consistent_inflation doubling.
Proof.
  exists (fun t b => Qpower 2 (t - b)). split; [reflexivity|]. split; [intros; apply Qpower_0_lt; lra|]. split; [intro b; rewrite Z.sub_diag; reflexivity|].
  intros t m b. rewrite <- Qpower_plus by discriminate. replace (t - m + (m - b))%Z with (t - b)%Z by lia. reflexivity.
Qed.
Definition demo_inc (n : nat) : Q := match n with 1%nat => 250000 | 2%nat => 20000 | 3%nat => 90000 | _ => 45000 end.
Definition demo_od (n : nat) : Q := match n with 1%nat => 3000 | _ => 0 end.
Definition demo_oc (n : nat) : Q := match n with 2%nat => 40 | _ => 0 end.
Definition demo_who (n : nat) : cperson := {| cp_id := Z.of_nat n; cp_tp := {| tp_income := [(2018%Z, demo_inc n)]; tp_deduction := [(2018%Z, demo_od n)]; tp_credit := [(2018%Z, demo_oc n)] |};
  cp_income_now := demo_inc n; cp_rrsp_out := [- (100)] |}.
Definition demo_spouse (n : nat) : option nat := match n with 1%nat => Some 2%nat | 2%nat => Some 1%nat | 3%nat => Some 4%nat | _ => Some 3%nat end.
Example C122_sat : exists fed bc js t0 t js', canada_jurs (ICallable doubling) "BC" = Ok (fed, bc) /\ Forall made [fed; bc] /\ price_rise (ICallable doubling) 2018 2 /\
  mcall demo_who demo_spouse (@rev nat) [fed; bc] (One 2) 2018 [] [(1%nat, Flat 100)] = Ok (t0, js) /\ asked [fed; bc] js /\
  (forall n, concerned demo_spouse [1; 2; 3]%nat n -> figures (cp_tp (demo_who n)) 2018 (demo_inc n) (demo_od n) (demo_oc n)) /\
  (exists v, forall j n, In j [fed; bc] -> In n [1; 2; 3]%nat -> owes demo_who demo_spouse (@rev nat) j n 2018 0 0 (v j n)) /\
  mcall demo_who demo_spouse (@rev nat) js (Group [1; 2; 3]%nat) 2018 [] [] = Ok (t, js') /\
  t == Qsum (map (dues demo_who demo_spouse demo_inc demo_od demo_oc 2 (15 # 100) 11635 2000 11635) [1; 2; 3]%nat) + Qsum (map (dues demo_who demo_spouse demo_inc demo_od demo_oc 2 (506 # 10000) 10208 1000 9614) [1; 2; 3]%nat) /\
  100388 < t /\ t < 100389.
Proof.
  destruct (canada_jurs (ICallable doubling) "BC") as [[fed bc]|e] eqn:J; [|vm_compute in J; discriminate].
  assert (M : Forall made [fed; bc]).
  { destruct (jurs_eq _ fed bc J) as (s1 & s2 & T1 & T2 & -> & ->).
    assert (G : forall s pd rate k, tax_init [(2017%Z, T17)] [(2017%Z, pd)] [(2017%Z, rate)] (ICallable doubling) = Ok s -> made {| j_tax := s; j_kind := k |}).
    { intros s pd rate k T. split; cbn [j_tax].
      - exists [(2017%Z, T17)], 2017%Z, T17. split; [exists [(2017%Z, pd)], [(2017%Z, rate)], (ICallable doubling); exact T|]. split; [repeat constructor; intros []|]. split; [|reflexivity]. intros y0 d0 [E|[]]. injection E as <- <-. apply T17_ok.
      - destruct (init_ia _ _ _ _ _ T ltac:(discriminate) ltac:(discriminate)) as (B & _). injection B as <-. apply doubling_consistent. }
    constructor; [apply (G _ _ _ _ T1)|]. constructor; [apply (G _ _ _ _ T2)|constructor]. }
  assert (C : exists t0 js, mcall demo_who demo_spouse (@rev nat) [fed; bc] (One 2) 2018 [] [(1%nat, Flat 100)] = Ok (t0, js)).
  { vm_compute in J. injection J as <- <-. do 2 eexists. vm_compute. reflexivity. }
  destruct C as (t0 & js & C). assert (A : asked [fed; bc] js) by (eapply asked_more; [apply asked_nothing|intro l; symmetry; apply Permutation_rev|exact C]).
  assert (F : price_rise (ICallable doubling) 2018 2) by (split; [reflexivity|split; [discriminate|]]; intros _; eexists; split; reflexivity).
  assert (Hf : forall n, concerned demo_spouse [1; 2; 3]%nat n -> figures (cp_tp (demo_who n)) 2018 (demo_inc n) (demo_od n) (demo_oc n)) by (intros n _; repeat split; reflexivity).
  destruct (C122_canadian_household demo_who demo_spouse (@rev nat) demo_inc demo_od demo_oc (ICallable doubling) doubling fed bc js [1; 2; 3]%nat 2018 2 J eq_refl doubling_consistent F A) as (t & js' & E & T).
  - repeat constructor; cbn; intuition discriminate.
  - intro l. symmetry. apply Permutation_rev.
  - exact Hf.
  - intros n _. unfold demo_oc. destruct n as [|[|[|]]]; discriminate.
  - exists fed, bc, js, t0, t, js'. split; [reflexivity|]. split; [exact M|]. split; [exact F|]. split; [exact C|]. split; [exact A|]. split; [exact Hf|]. split.
    + exists (fun j n => match jcall demo_who demo_spouse (@rev nat) j (One n) 2018 (Flat 0) (Flat 0) with Ok (q, _) => q | _ => 0 end). clear -J.
      intros j n Hj Hn. unfold owes. assert (X : exists q k, jcall demo_who demo_spouse (@rev nat) j (One n) 2018 (Flat 0) (Flat 0) = Ok (q, k)).
      { vm_compute in J. injection J as <- <-. destruct Hj as [<-|[<-|[]]]; destruct Hn as [<-|[<-|[<-|[]]]]; do 2 eexists; vm_compute; reflexivity. }
      destruct X as (q & k & ->). exists k. reflexivity.
    + split; [exact E|]. split; [exact T|]. rewrite T. split; vm_compute; reflexivity.
Qed.
(** the other theorems: a year without history, given amounts, thresholds *)
Example C122_sat_more : exists fed bc, canada_jurs (ICallable doubling) "BC" = Ok (fed, bc) /\
  (forall v, ~ owes demo_who demo_spouse (@rev nat) bc 3 2019 0 0 v) /\ mcall demo_who demo_spouse (@rev nat) [fed; bc] (Group [1; 3]%nat) 2019 [] [] = Err KeyError /\
  (exists a b t js, owes demo_who demo_spouse (@rev nat) fed 1 2018 500 0 a /\ owes demo_who demo_spouse (@rev nat) bc 1 2018 0 900 b /\
     canada demo_who demo_spouse (@rev nat) fed bc (Group [1]%nat) 2018 (Each [(1%nat, 500)]) Nothing Nothing Nothing (Some [(0%nat, Each [(1%nat, 700)])]) (Some [(1%nat, Each [(1%nat, 900)])]) = Ok (t, js) /\ t == a + b /\ 0 < b /\ 0 < a) /\
  (exists t js, mspouses demo_who demo_spouse [fed; bc] [1; 2]%nat 2018 [] [] = Ok (t, js)) /\
  (exists t js t' js', mpeople demo_who demo_spouse (@rev nat) [fed; bc] [1; 2]%nat 2018 [(0%nat, Each [(1%nat, 500)])] [(1%nat, Each [(2%nat, 900)])] = Ok (t, js) /\
     mpeople demo_who demo_spouse (@rev nat) [fed; bc] [1; 2]%nat 2018 [] [(0%nat, Each [(1%nat, 500)]); (1%nat, Each [(2%nat, 900)])] = Ok (t', js') /\ t < t' /\ 0 < t) /\
  (exists a b t js, owes demo_who demo_spouse (@rev nat) fed 1 2018 500 7 a /\ owes demo_who demo_spouse (@rev nat) bc 1 2018 20 900 b /\
     mperson demo_who demo_spouse [fed; bc] 1 2018 [(0%nat, Flat 500); (1%nat, Flat 20)] [(0%nat, Flat 7); (1%nat, Flat 900)] = Ok (t, js) /\ t == a + b /\ 0 < b /\ 0 < a) /\
  (exists e, mperson demo_who demo_spouse [fed; bc] 1 2018 [] [] = Err e) /\ (exists e, mcall demo_who demo_spouse (@rev nat) [fed; bc] (Listed [1; 2]%nat) 2018 [] [] = Err e) /\
  (exists t js, mbracket [fed; bc] 2017 (4596123 # 100) = Ok (t, js) /\ t == 41 # 100) /\ mbracket [fed; bc] 2017 1 = Err KeyError /\
  (exists t js, maccum [fed; bc] 2017 (4596123 # 100) = Ok (t, js) /\ t == (3 # 10) * (4596123 # 100)) /\ maccum [fed; bc] 2017 1 = Err KeyError.
Proof.
  do 2 eexists. split; [vm_compute; reflexivity|]. split; [intros v (j & H); vm_compute in H; discriminate|]. split; [vm_compute; reflexivity|].
  split; [do 4 eexists; split; [eexists; vm_compute; reflexivity|]; split; [eexists; vm_compute; reflexivity|]; split; [vm_compute; reflexivity|]; split; [vm_compute; reflexivity|split; vm_compute; reflexivity]|].
  split; [do 2 eexists; vm_compute; reflexivity|].
  split; [do 4 eexists; split; [vm_compute; reflexivity|]; split; [vm_compute; reflexivity|]; split; vm_compute; reflexivity|].
  split; [do 4 eexists; split; [eexists; vm_compute; reflexivity|]; split; [eexists; vm_compute; reflexivity|]; split; [vm_compute; reflexivity|]; split; [vm_compute; reflexivity|split; vm_compute; reflexivity]|].
  split; [eexists; vm_compute; reflexivity|]. split; [eexists; vm_compute; reflexivity|].
  split; [do 2 eexists; split; vm_compute; reflexivity|]. split; [vm_compute; reflexivity|]. split; [do 2 eexists; split; vm_compute; reflexivity|]. vm_compute. reflexivity.
Qed.
