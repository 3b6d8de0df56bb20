From Verif Require Import Base BaseFacts LedgerModel LedgerProofs PersonModel PersonSpec.
From Coq Require Import ZArith Lia.

(** ** Dates *)
Lemma leap_day_only d y : valid_date d -> ~ (d_m d = 2 /\ d_d d = 29)%Z -> (d_d d <= days_in_month y (d_m d))%Z.
Proof.
  intros [Hm Hd] H. unfold days_in_month in *. destruct (Z.eqb_spec (d_m d) 2) as [E|E]; [|exact (proj2 Hd)].
  destruct (leap (d_y d)), (leap y); lia.
Qed.
Lemma date_lt_irrefl_same b y : date_lt {| d_y := d_y b; d_m := d_m b; d_d := y |} b = Z.ltb y (d_d b).
Proof. unfold date_lt. cbn. rewrite Z.ltb_irrefl, Z.eqb_refl, Z.ltb_irrefl, Z.eqb_refl. reflexivity. Qed.
Lemma age_year_regular b y : valid_date b -> ~ (d_m b = 2 /\ d_d b = 29)%Z -> age_in_year b y = Ok (y - d_y b)%Z.
Proof.
  intros Hv Hn. pose proof (leap_day_only b y Hv Hn) as H1. destruct Hv as [Hm Hd].
  unfold age_in_year, age_at, parse_year, replace_year. cbn. rewrite Z.min_l by exact H1.
  destruct (Z.leb_spec (d_d b) (days_in_month (d_y b) (d_m b))) as [L|L]; [|lia]. cbn.
  rewrite date_lt_irrefl_same, Z.ltb_irrefl. reflexivity.
Qed.
Lemma age_year_leap b y : valid_date b -> (d_m b = 2 /\ d_d b = 29)%Z ->
  age_in_year b y = Ok (if leap y then y - d_y b else y - d_y b - 1)%Z.
Proof.
  intros Hv [Em Ed]. destruct Hv as [Hm Hd]. unfold age_in_year, age_at, parse_year, replace_year. cbn.
  rewrite Em, Ed in *. unfold days_in_month in *. cbn [Z.eqb Pos.eqb] in *.
  destruct (leap (d_y b)) eqn:Lb; [|lia]. destruct (leap y) eqn:Ly; cbn.
  - pose proof (date_lt_irrefl_same b 29) as H. rewrite Em, Ed in H. rewrite H. reflexivity.
  - pose proof (date_lt_irrefl_same b 28) as H. rewrite Em, Ed in H. rewrite H. reflexivity.
Qed.

(** ** Spouses *)
Lemma upd_fn_eq {A} (f : nat -> A) i v j : upd_fn f i v j = if Nat.eqb j i then v else f j.
Proof. reflexivity. Qed.
Lemma set_spouse_symmetric sp i v : symmetric sp -> orderly sp i v -> symmetric (set_spouse sp i v).
Proof.
  intros Hs Ho. unfold set_spouse. intros a b H.
  assert (Hi : forall j, sp i = Some j -> sp j = Some i) by (intros; apply Hs; assumption).
  destruct (sp i) as [j|] eqn:Ei; destruct v as [k|]; cbn [orderly] in Ho; rewrite !upd_fn_eq in *;
  repeat match goal with
  | H : context [Nat.eqb ?x ?y] |- _ => destruct (Nat.eqb_spec x y); subst
  | |- context [Nat.eqb ?x ?y] => destruct (Nat.eqb_spec x y); subst
  end; try congruence; try discriminate; try (apply Hs; assumption);
  try (injection H as <-; congruence).
  all: try (specialize (Hi _ eq_refl)); try (pose proof (Hs _ _ H)); try (destruct Ho); try congruence.
Qed.
Lemma run_spouses_symmetric : forall h sp, symmetric sp -> all_orderly sp h -> symmetric (run_spouses h sp).
Proof.
  induction h as [|[i v] r IH]; intros sp Hs Ho; [exact Hs|]. cbn. destruct Ho as [H1 H2].
  apply IH; [|exact H2]. apply set_spouse_symmetric; assumption.
Qed.

(** ** Owners *)
Lemma in_remove a b l : In b (remove_id a l) <-> In b l /\ b <> a.
Proof.
  unfold remove_id. rewrite filter_In. destruct (Nat.eqb_spec a b); cbn; intuition congruence.
Qed.
Lemma in_add a b l : In b (add_id a l) <-> In b l \/ b = a.
Proof.
  unfold add_id. destruct (existsb (Nat.eqb a) l) eqn:E.
  - apply existsb_exists in E. destruct E as (x & Hx & Hxa). apply Nat.eqb_eq in Hxa. subst. intuition congruence.
  - rewrite in_app_iff. cbn. intuition congruence.
Qed.
Lemma existsb_in a l : existsb (Nat.eqb a) l = true <-> In a l.
Proof.
  rewrite existsb_exists. split; [intros (x & Hx & E); apply Nat.eqb_eq in E; subst; exact Hx|].
  intro H. exists a. split; [exact H|apply Nat.eqb_refl].
Qed.
Lemma set_owner_agree s a v : owners_agree s -> v <> VNotAPerson ->
  owners_agree (fst (set_owner s a v)) /\ snd (set_owner s a v) = None /\
  os_owner (fst (set_owner s a v)) a = match v with VPerson q => Some q | _ => None end /\
  (forall b, b <> a -> os_owner (fst (set_owner s a v)) b = os_owner s b).
Proof.
  intros H Hv. unfold set_owner. destruct (os_owner s a) as [p|] eqn:Eo.
  - assert (Hin : existsb (Nat.eqb a) (os_accts s p) = true) by (apply existsb_in, H; exact Eo). rewrite Hin.
    destruct v as [|q|]; [| |congruence]; cbn [fst snd os_owner os_accts]; (split; [|split; [reflexivity|split]]).
    2,5: rewrite upd_fn_eq, Nat.eqb_refl; reflexivity.
    2,4: intros b Hb; rewrite upd_fn_eq; destruct (Nat.eqb_spec b a); congruence.
    + intros b r. cbn [os_owner os_accts]. rewrite !upd_fn_eq. destruct (Nat.eqb_spec r p) as [->|Hr]; destruct (Nat.eqb_spec b a) as [->|Hb];
        rewrite ?in_remove, ?(H _ _); intuition congruence.
    + intros b r. cbn [os_owner os_accts]. rewrite !upd_fn_eq.
      destruct (Nat.eqb_spec r q) as [->|Hr]; destruct (Nat.eqb_spec b a) as [->|Hb];
      rewrite ?in_add; (destruct (Nat.eqb_spec q p); subst || idtac);
      try (destruct (Nat.eqb_spec r p); subst || idtac);
      rewrite ?in_remove, ?(H _ _); intuition congruence.
  - destruct v as [|q|]; [| |congruence]; cbn [fst snd os_owner os_accts]; (split; [|split; [reflexivity|split]]).
    2,5: rewrite upd_fn_eq, Nat.eqb_refl; reflexivity.
    2,4: intros b Hb; rewrite upd_fn_eq; destruct (Nat.eqb_spec b a); congruence.
    + intros b r. cbn [os_owner os_accts]. rewrite !upd_fn_eq. destruct (Nat.eqb_spec b a) as [->|Hb]; rewrite (H _ _); intuition congruence.
    + intros b r. cbn [os_owner os_accts]. rewrite !upd_fn_eq.
      destruct (Nat.eqb_spec r q) as [->|Hr]; destruct (Nat.eqb_spec b a) as [->|Hb]; rewrite ?in_add, ?(H _ _); intuition congruence.
Qed.
Lemma run_owners_agree : forall h s, owners_agree s -> (forall a v, In (a, v) h -> v <> VNotAPerson) -> owners_agree (run_owners h s).
Proof.
  induction h as [|[a v] r IH]; intros s H Hv; [exact H|]. cbn. apply IH; [|intros; eapply Hv; right; eassumption].
  apply set_owner_agree; [exact H|]. eapply Hv. left. reflexivity.
Qed.

(** ** Income *)
Section Income.
  Context (P : pparams) (order : list nat) (y0 : Z) (gross : Q).
  Notation C := (person_class P order).
  Definition val (p : nat) (y : Z) : Q :=
    if Nat.eqb p GROSS then gross_in P y0 gross y else if Nat.eqb p NET then net_in P y0 gross y
    else if Nat.eqb p RAISE then raise_in P y else withheld_in P y0 gross y.
  Definition inv (s : lstate Q acct_sums) : Prop :=
    (y0 <= year s)%Z /\ keeps_inputs C s /\
    (forall p, In p [GROSS; NET; RAISE; WITHHELD] -> hist s p (year s) = None \/ hist s p (year s) = Some (val p (year s))) /\
    (forall y, (y0 <= y < year s)%Z -> hist s GROSS y = Some (val GROSS y)) /\
    (year s = y0 -> hist s GROSS y0 = Some (val GROSS y0)) /\
    (forall p y, (year s < y)%Z -> hist s p y = pp_inputs P p y).

  Lemma person_pure : forall p, pure (fget C p).
  Proof.
    intro p. cbn. unfold person_fget. 
    repeat match goal with |- pure (if ?b then _ else _) => destruct b end; try (repeat (constructor; intros); fail).
    - constructor. intro y. destruct (match pp_retire P with Some r => Z.ltb r y | None => false end); [constructor|].
      constructor. intros [g|]; repeat (constructor; intros).
    - constructor. intro y. destruct (pp_raise P y); constructor.
    - destruct (pp_tax P); repeat (constructor; intros).
  Qed.
  Lemma no_input s p : keeps_inputs C s -> hist s p (year s) = None -> pp_inputs P p (year s) = None.
  Proof. intros H E. destruct (pp_inputs P p (year s)) eqn:X; [|reflexivity]. specialize (H p (year s) _ X). congruence. Qed.
  Lemma gross_in_next y : (y0 < y)%Z -> gross_in P y0 gross y =
    or_input P GROSS y (if retired_in P y then 0 else gross_in P y0 gross (y - 1) * (1 + raise_in P y)).
  Proof.
    intro H. unfold gross_in. replace (Z.to_nat (y - y0)) with (S (Z.to_nat (y - 1 - y0))) by lia. cbn [gross_after].
    replace (y0 + Z.of_nat (S (Z.to_nat (y - 1 - y0))))%Z with y by lia. reflexivity.
  Qed.
  Lemma rd_raise s v : inv s -> rd C s RAISE v -> v = val RAISE (year s).
  Proof.
    intros (_ & Hk & Hv & _) [H|[H He]].
    - destruct (Hv RAISE) as [E|E]; [cbn; tauto|congruence|congruence].
    - cbn [val]. unfold val. cbn. unfold raise_in, or_input. rewrite (no_input s RAISE Hk H). cbn in He.
      inversion He; subst. destruct (pp_raise P (year s)); inversion H1. reflexivity.
  Qed.
  Lemma rd_gross s v : inv s -> rd C s GROSS v -> v = val GROSS (year s).
  Proof.
    intros Hi Hr. pose proof Hi as (Hy & Hk & Hv & Hp & H0 & Hf). destruct Hr as [H|[H He]].
    - destruct (Hv GROSS) as [E|E]; [cbn; tauto|congruence|congruence].
    - assert (Hlt : (y0 < year s)%Z).
      { destruct (Z.eq_dec (year s) y0) as [E|E]; [|lia]. specialize (H0 E). rewrite E in H. congruence. }
      change (val GROSS (year s)) with (gross_in P y0 gross (year s)). rewrite gross_in_next by exact Hlt.
      unfold or_input. rewrite (no_input s GROSS Hk H). unfold retired_in.
      change (fget C GROSS) with (person_fget P GROSS) in He. unfold person_fget in He. cbn [Nat.eqb GROSS] in He.
      inversion He as [| | | | | |k w He2|]; subst. destruct (match pp_retire P with Some r => Z.ltb r (year s) | None => false end).
      + inversion He2. reflexivity.
      + inversion He2 as [| | | | | | |? ? ? ? He3]; subst. rewrite (Hp (year s - 1)%Z) in He3 by lia.
        change (val GROSS (year s - 1)) with (gross_in P y0 gross (year s - 1)) in He3.
        inversion He3; subst.
        * assert (v0 = val RAISE (year s)) by (apply rd_raise; [exact Hi|left; assumption]). subst.
          match goal with Hx : ev _ _ (Ret _) _ |- _ => inversion Hx; subst end. reflexivity.
        * assert (v0 = val RAISE (year s)) by (apply rd_raise; [exact Hi|right; split; assumption]). subst.
          match goal with Hx : ev _ _ (Ret _) _ |- _ => inversion Hx; subst end. reflexivity.
  Qed.
  Lemma ev_get s p k w : ev C s (Get p k) w -> exists v, rd C s p v /\ ev C s (k v) w.
  Proof. intro H. inversion H; subst; [exists v; split; [left|]; assumption|exists v; split; [right; split|]; assumption]. Qed.
  Lemma rd_withheld s v : inv s -> rd C s WITHHELD v -> v = val WITHHELD (year s).
  Proof.
    intros Hi Hr. pose proof Hi as (Hy & Hk & Hv & Hp & H0 & Hf). destruct Hr as [H|[H He]].
    - destruct (Hv WITHHELD) as [E|E]; [cbn; tauto|congruence|congruence].
    - change (val WITHHELD (year s)) with (withheld_in P y0 gross (year s)). unfold withheld_in, or_input.
      rewrite (no_input s WITHHELD Hk H). change (fget C WITHHELD) with (person_fget P WITHHELD) in He.
      unfold person_fget in He. cbn [Nat.eqb GROSS NET RAISE WITHHELD] in He. destruct (pp_tax P) as [f|].
      + apply ev_get in He. destruct He as (g & Hg & He). apply rd_gross in Hg; [|exact Hi]. subst.
        inversion He as [| | | | | |? ? He2|]; subst. inversion He2. reflexivity.
      + inversion He. reflexivity.
  Qed.
  Lemma rd_net s v : inv s -> rd C s NET v -> v = val NET (year s).
  Proof.
    intros Hi Hr. pose proof Hi as (Hy & Hk & Hv & Hp & H0 & Hf). destruct Hr as [H|[H He]].
    - destruct (Hv NET) as [E|E]; [cbn; tauto|congruence|congruence].
    - change (val NET (year s)) with (net_in P y0 gross (year s)). unfold net_in, or_input.
      rewrite (no_input s NET Hk H). change (fget C NET) with (person_fget P NET) in He.
      unfold person_fget in He. cbn [Nat.eqb GROSS NET RAISE WITHHELD] in He.
      apply ev_get in He. destruct He as (g & Hg & He). apply rd_gross in Hg; [|exact Hi].
      apply ev_get in He. destruct He as (t & Ht & He). apply rd_withheld in Ht; [|exact Hi].
      inversion He. subst. reflexivity.
  Qed.
  Lemma rd_val s p v : inv s -> In p [GROSS; NET; RAISE; WITHHELD] -> rd C s p v -> v = val p (year s).
  Proof.
    intros Hi [<-|[<-|[<-|[<-|[]]]]]; [apply rd_gross|apply rd_net|apply rd_raise|apply rd_withheld]; exact Hi.
  Qed.
  Lemma inv_refines s s' : inv s -> refines C s s' -> keeps_inputs C s' -> inv s'.
  Proof.
    intros Hi (E1 & E2 & E3 & E4) Hk'. pose proof Hi as (Hy & Hk & Hv & Hp & H0 & Hf). unfold inv. rewrite E1.
    split; [exact Hy|]. split; [exact Hk'|]. split; [|split; [|split]].
    - intros p Hin. destruct (E4 p) as [E|[E (v & Ev & Ee)]].
      + rewrite E. apply Hv. exact Hin.
      + right. rewrite Ev. f_equal. apply (rd_val s); [exact Hi|exact Hin|right; split; assumption].
    - intros y Hlt. rewrite E3 by lia. apply Hp. exact Hlt.
    - intro E. specialize (H0 E). destruct (E4 GROSS) as [X|[X _]]; rewrite E in *; congruence.
    - intros p y Hlt. rewrite E3 by lia. apply Hf. exact Hlt.
  Qed.
  Hypothesis Horder : In GROSS order.
  Lemma inv_step n s o s' : inv s -> leaves_income o -> step C n s o = Some s' -> inv s'.
  Proof.
    intros Hi Hl H. assert (Hk' : keeps_inputs C s') by (eapply step_keeps; [apply Hi|exact H]).
    pose proof Hi as (Hy & Hk & Hv & Hp & H0 & Hf).
    assert (Hput : forall p w, ~ In p [GROSS; NET; RAISE; WITHHELD] -> keeps_inputs C (put s p (year s) w) -> inv (put s p (year s) w)).
    { intros p w Hn Hkp. unfold inv. split; [exact Hy|]. split; [exact Hkp|]. cbn [put year hist].
      assert (Hg : GROSS <> p) by (intro; subst; apply Hn; cbn; tauto).
      split; [|split; [|split]].
      - intros q Hq. rewrite upd_other; [apply Hv; exact Hq|]. left. intro; subst; contradiction.
      - intros y Hlt. rewrite upd_other by (left; exact Hg). apply Hp. exact Hlt.
      - intro E. rewrite upd_other by (left; exact Hg). apply H0. exact E.
      - intros q y Hlt. rewrite upd_other by (right; lia). apply Hf. exact Hlt. }
    destruct o as [p|p y|p v|p| |f|]; cbn in H, Hl.
    - destruct (getp C n s p) as [[v s1]|] eqn:E; [|discriminate]. injection H as <-.
      apply (getp_ev C person_pure n s) in E; [|apply refines_refl]. eapply inv_refines; [exact Hi|apply E|exact Hk'].
    - destruct (getp C n s p) as [[v s1]|] eqn:E; [|discriminate]. injection H as <-.
      apply (getp_ev C person_pure n s) in E; [|apply refines_refl]. eapply inv_refines; [exact Hi|apply E|exact Hk'].
    - injection H as <-. unfold setter in *. destruct (has_input C s p); [exact Hi|]. cbn in *. apply Hput; assumption.
    - injection H as <-. unfold deleter in *. destruct (has_input C s p); [exact Hi|]. cbn in *. apply Hput; assumption.
    - contradiction.
    - injection H as <-. split; [exact Hy|]. split; [exact Hk'|]. split; [exact Hv|]. split; [exact Hp|]. split; [exact H0|exact Hf].
    - unfold next_year in H. destruct (record C n (props C) s) as [s1|] eqn:E; [|discriminate]. injection H as <-.
      assert (Hk1 : keeps_inputs C s1) by (eapply record_keeps; [exact Hk|exact E]).
      apply (record_ev C person_pure n s) in E; [|apply refines_refl]. destruct E as (Hr & _ & H3).
      pose proof (inv_refines s s1 Hi Hr Hk1) as (Hy1 & _ & Hv1 & Hp1 & H01 & Hf1).
      destruct Hr as (E1 & _ & E3 & _). rewrite E1 in *.
      destruct (H3 GROSS Horder) as (g & Hg & Hrd). apply rd_gross in Hrd; [|exact Hi]. subst g.
      unfold inv. cbn [year hist]. split; [lia|]. split; [exact Hk'|]. split; [|split; [|split]].
      + intros p Hin. rewrite Hf1 by lia. destruct (pp_inputs P p (year s + 1)) as [i|] eqn:Ei; [right|left; reflexivity].
        f_equal. destruct Hin as [<-|[<-|[<-|[<-|[]]]]].
        * change (val GROSS (year s + 1)) with (gross_in P y0 gross (year s + 1)). rewrite gross_in_next by lia.
          unfold or_input. rewrite Ei. reflexivity.
        * change (val NET (year s + 1)) with (net_in P y0 gross (year s + 1)). unfold net_in, or_input. rewrite Ei. reflexivity.
        * change (val RAISE (year s + 1)) with (raise_in P (year s + 1)). unfold raise_in, or_input. rewrite Ei. reflexivity.
        * change (val WITHHELD (year s + 1)) with (withheld_in P y0 gross (year s + 1)). unfold withheld_in, or_input. rewrite Ei. reflexivity.
      + intros y Hlt. destruct (Z.eq_dec y (year s)) as [->|Hne]; [exact Hg|]. apply Hp1. lia.
      + lia.
      + intros p y Hlt. apply Hf1. lia.
  Qed.

  Lemma inv_steps n : forall os s s', inv s -> Forall leaves_income os -> steps C n s os = Some s' -> inv s'.
  Proof.
    induction os as [|o r IH]; intros s s' Hi Hl H; [injection H as <-; exact Hi|]. cbn in H.
    inversion Hl; subst. destruct (step C n s o) as [s1|] eqn:E; [|discriminate].
    eapply IH; [|eassumption|exact H]. eapply inv_step; eassumption.
  Qed.
  Lemma person_init_inv e s : person_init P order y0 gross e = Some s -> inv s /\ year s = y0.
  Proof.
    unfold person_init. intro H.
    assert (Hi : inv (setter C (init C y0 e) GROSS gross)).
    { assert (Hk : keeps_inputs C (setter C (init C y0 e) GROSS gross)).
      { eapply (step_keeps C 1 (init C y0 e) (OSet GROSS gross)); [|reflexivity]. intros p y v Hv. exact Hv. }
      assert (Hg : val GROSS y0 = or_input P GROSS y0 gross).
      { change (val GROSS y0) with (gross_in P y0 gross y0). unfold gross_in. rewrite Z.sub_diag. cbn. rewrite Z.add_0_r. reflexivity. }
      assert (Hin : forall p, In p [NET; RAISE; WITHHELD] -> pp_inputs P p y0 = None \/ pp_inputs P p y0 = Some (val p y0)).
      { intros p Hp. destruct (pp_inputs P p y0) eqn:E; [right|left; reflexivity]. f_equal.
        destruct Hp as [<-|[<-|[<-|[]]]].
        - change (val NET y0) with (net_in P y0 gross y0). unfold net_in, or_input. rewrite E. reflexivity.
        - change (val RAISE y0) with (raise_in P y0). unfold raise_in, or_input. rewrite E. reflexivity.
        - change (val WITHHELD y0) with (withheld_in P y0 gross y0). unfold withheld_in, or_input. rewrite E. reflexivity. }
      unfold setter, has_input in *. cbn [inputs person_class year init fset] in *. unfold or_input in Hg.
      destruct (pp_inputs P GROSS y0) as [g|] eqn:Eg.
      - unfold inv. cbn [year init hist]. split; [lia|]. split; [exact Hk|]. split; [|split; [|split]].
        + intros p [<-|Hp]; [right; change (pp_inputs P GROSS y0 = Some (val GROSS y0)); rewrite Hg; exact Eg|apply Hin; exact Hp].
        + lia.
        + intros _. change (pp_inputs P GROSS y0 = Some (val GROSS y0)). rewrite Hg. exact Eg.
        + reflexivity.
      - unfold inv. cbn [year init hist put]. split; [lia|]. split; [exact Hk|]. split; [|split; [|split]].
        + intros p [<-|Hp]; [right; rewrite upd_same; congruence|]. rewrite upd_other; [apply Hin; exact Hp|].
          left. destruct Hp as [<-|[<-|[<-|[]]]]; discriminate.
        + lia.
        + intros _. rewrite upd_same. congruence.
        + intros p y Hlt. rewrite upd_other by (right; lia). reflexivity. }
    set (s0 := setter C (init C y0 e) GROSS gross) in *.
    assert (Ey : year s0 = y0).
    { unfold s0, setter. destruct (has_input C (init C y0 e) GROSS); reflexivity. }
    destruct (getp C 5 s0 GROSS) as [[g s1]|] eqn:E1; [|discriminate].
    assert (Hi1 : inv s1 /\ year s1 = y0 /\ g = val GROSS y0).
    { assert (Hk1 : keeps_inputs C s1) by (eapply (step_keeps C 5 s0 (OGet GROSS)); [apply Hi|cbn [step]; rewrite E1; reflexivity]).
      apply (getp_ev C person_pure 5 s0) in E1; [|apply refines_refl]. destruct E1 as [Hr Hf].
      split; [eapply inv_refines; [exact Hi|exact Hf|exact Hk1]|]. split; [destruct Hf as [X _]; congruence|].
      rewrite <- Ey. apply (rd_val s0); [exact Hi|cbn; tauto|exact Hr]. }
    destruct Hi1 as (Hi1 & Ey1 & Hg).
    destruct (getp C 5 s1 WITHHELD) as [[t s2]|] eqn:E2; [|discriminate]. injection H as <-.
    assert (Hi2 : inv s2 /\ year s2 = y0 /\ t = val WITHHELD y0).
    { assert (Hk1 : keeps_inputs C s2) by (eapply (step_keeps C 5 s1 (OGet WITHHELD)); [apply Hi1|cbn [step]; rewrite E2; reflexivity]).
      apply (getp_ev C person_pure 5 s1) in E2; [|apply refines_refl]. destruct E2 as [Hr Hf].
      split; [eapply inv_refines; [exact Hi1|exact Hf|exact Hk1]|]. split; [destruct Hf as [X _]; congruence|].
      rewrite <- Ey1. apply (rd_val s1); [exact Hi1|cbn; tauto|exact Hr]. }
    destruct Hi2 as (Hi2 & Ey2 & Ht).
    assert (Hk3 : keeps_inputs C (setter C s2 NET (g - t))).
    { eapply (step_keeps C 1 s2 (OSet NET _)); [apply Hi2|reflexivity]. }
    pose proof Hi2 as (Hy & Hk & Hv & Hp & H0 & Hf).
    unfold setter, has_input in *. cbn [inputs person_class fset] in *.
    destruct (pp_inputs P NET (year s2)) as [i|] eqn:Ei; [split; [exact Hi2|exact Ey2]|].
    split; [|exact Ey2]. unfold inv. cbn [year hist put]. split; [exact Hy|]. split; [exact Hk3|]. split; [|split; [|split]].
    - intros p Hin. destruct (Nat.eq_dec p NET) as [->|Hne].
      + right. rewrite upd_same, Ey2. f_equal. rewrite Hg, Ht. change (val NET y0) with (net_in P y0 gross y0).
        unfold net_in, or_input. rewrite Ey2 in Ei. rewrite Ei. reflexivity.
      + rewrite upd_other by (left; exact Hne). apply Hv. exact Hin.
    - intros y Hlt. rewrite upd_other by (left; discriminate). apply Hp. exact Hlt.
    - intro E. rewrite upd_other by (left; discriminate). apply H0. exact E.
    - intros p y Hlt. rewrite upd_other by (right; lia). apply Hf. exact Hlt.
  Qed.
  Lemma income_read n m e s0 os s p v s' :
    person_init P order y0 gross e = Some s0 -> Forall leaves_income os -> steps C n s0 os = Some s ->
    In p [GROSS; NET; RAISE; WITHHELD] -> getp C m s p = Some (v, s') -> v = val p (year s).
  Proof.
    intros H1 H2 H3 Hp H4. apply person_init_inv in H1. destruct H1 as [Hi _].
    pose proof (inv_steps n os s0 s Hi H2 H3) as Hs.
    apply (getp_ev C person_pure m s) in H4; [|apply refines_refl]. destruct H4 as [Hr _].
    apply (rd_val s); assumption.
  Qed.
  Lemma income_past n e s0 os s y :
    person_init P order y0 gross e = Some s0 -> Forall leaves_income os -> steps C n s0 os = Some s ->
    (y0 <= y < year s)%Z -> hist s GROSS y = Some (gross_in P y0 gross y).
  Proof.
    intros H1 H2 H3 Hy. apply person_init_inv in H1. destruct H1 as [Hi _].
    destruct (inv_steps n os s0 s Hi H2 H3) as (_ & _ & _ & Hp & _). apply (Hp y Hy).
  Qed.
  (** reads never fail when the raise rate is known for every year *)
  Lemma income_total s n p : inv s -> (forall y, pp_raise P y <> None) -> In p [GROSS; NET; RAISE; WITHHELD] ->
    getp C (S (S (S (S n)))) s p <> None.
  Proof.
    intros Hi Hr Hp.
    assert (HR : forall m s, getp C (S m) s RAISE <> None).
    { intros m s1. unfold getp, get_with. destruct (hist s1 RAISE (year s1)); [discriminate|].
      change (fget C RAISE) with (Year (E:=acct_sums) (fun y => match pp_raise P y with Some r => Ret r | None => Raise end)). cbn.
      specialize (Hr (year s1)). destruct (pp_raise P (year s1)); [discriminate|congruence]. }
    assert (HG : forall m s, inv s -> getp C (S (S m)) s GROSS <> None).
    { intros m s1 (Hy1 & _ & _ & Hp1 & H01 & _). unfold getp, get_with. destruct (hist s1 GROSS (year s1)) as [g|] eqn:Eg; [discriminate|].
      change (fget C GROSS) with (person_fget P GROSS). unfold person_fget. cbn [Nat.eqb GROSS].
      change (run C (S (S m)) s1 (Year (fun y => if match pp_retire P with Some r => Z.ltb r y | None => false end then Ret 0
         else PastAt GROSS 1 (fun o => match o with None => Raise | Some g => Get RAISE (fun r => Ret (g * (1 + r))) end))))
        with (run C (S (S m)) s1 (if match pp_retire P with Some r => Z.ltb r (year s1) | None => false end then Ret 0
         else PastAt GROSS 1 (fun o => match o with None => Raise | Some g => Get RAISE (fun r => Ret (g * (1 + r))) end))).
      destruct (match pp_retire P with Some r => Z.ltb r (year s1) | None => false end); [discriminate|].
      assert (Hlt : (y0 < year s1)%Z).
      { destruct (Z.eq_dec (year s1) y0) as [E|E]; [|lia]. specialize (H01 E). rewrite <- E in H01. congruence. }
      match goal with |- context [PastAt GROSS 1 ?k] =>
        change (run C (S (S m)) s1 (PastAt GROSS 1 k)) with (run C (S (S m)) s1 (k (hist s1 GROSS (year s1 - 1)%Z))) end.
      cbv beta. rewrite (Hp1 (year s1 - 1)%Z) by lia.
      match goal with |- context [Get RAISE ?k] =>
        change (run C (S (S m)) s1 (Get RAISE k)) with
          (match getp C (S m) s1 RAISE with None => None | Some (v, s') => run C (S (S m)) s' (k v) end) end.
      specialize (HR m s1). destruct (getp C (S m) s1 RAISE) as [[r s2]|]; [discriminate|congruence]. }
    assert (HW : forall m s, inv s -> getp C (S (S (S m))) s WITHHELD <> None).
    { intros m s1 Hi1. unfold getp, get_with. destruct (hist s1 WITHHELD (year s1)) as [g|] eqn:Eg; [discriminate|].
      change (fget C WITHHELD) with (person_fget P WITHHELD). unfold person_fget. cbn [Nat.eqb GROSS NET RAISE WITHHELD].
      destruct (pp_tax P) as [f|]; [|discriminate].
      match goal with |- context [Get GROSS ?k] =>
        change (run C (S (S (S m))) s1 (Get GROSS k)) with
          (match getp C (S (S m)) s1 GROSS with None => None | Some (v, s') => run C (S (S (S m))) s' (k v) end) end.
      specialize (HG m s1 Hi1). destruct (getp C (S (S m)) s1 GROSS) as [[r s2]|]; [discriminate|congruence]. }
    destruct Hp as [<-|[<-|[<-|[<-|[]]]]]; [apply HG; exact Hi| |apply HR|apply HW; exact Hi].
    unfold getp, get_with. destruct (hist s NET (year s)) as [g|] eqn:Eg; [discriminate|].
    change (fget C NET) with (person_fget P NET). unfold person_fget. cbn [Nat.eqb GROSS NET].
    match goal with |- context [Get GROSS ?k] =>
        change (run C (S (S (S (S n)))) s (Get GROSS k)) with
          (match getp C (S (S (S n))) s GROSS with None => None | Some (v, s') => run C (S (S (S (S n)))) s' (k v) end) end.
    pose proof (HG (S n) s Hi) as Hg. destruct (getp C (S (S (S n))) s GROSS) as [[g s2]|] eqn:E2; [|congruence].
    assert (Hi2 : inv s2).
    { assert (Hk1 : keeps_inputs C s2) by (eapply (step_keeps C _ s (OGet GROSS)); [apply Hi|cbn [step]; rewrite E2; reflexivity]).
      apply (getp_ev C person_pure _ s) in E2; [|apply refines_refl]. eapply inv_refines; [exact Hi|apply E2|exact Hk1]. }
    cbv beta. match goal with |- context [Get WITHHELD ?k] =>
        change (run C (S (S (S (S n)))) s2 (Get WITHHELD k)) with
          (match getp C (S (S (S n))) s2 WITHHELD with None => None | Some (v, s') => run C (S (S (S (S n)))) s' (k v) end) end.
    pose proof (HW n s2 Hi2) as Hw. destruct (getp C (S (S (S n))) s2 WITHHELD) as [[w s3]|]; [discriminate|congruence].
  Qed.
  Lemma income_readable n m e s0 os s p :
    person_init P order y0 gross e = Some s0 -> Forall leaves_income os -> steps C n s0 os = Some s ->
    (forall y, pp_raise P y <> None) ->
    In p [GROSS; NET; RAISE; WITHHELD] -> exists v s', getp C (4 + m) s p = Some (v, s').
  Proof.
    intros H1 H2 H3 Hr Hp. apply person_init_inv in H1. destruct H1 as [Hi _].
    pose proof (inv_steps n os s0 s Hi H2 H3) as Hs. pose proof (income_total s m p Hs Hr Hp) as H. cbn [Nat.add].
    destruct (getp C (S (S (S (S m)))) s p) as [[v s']|]; [eauto|congruence].
  Qed.
End Income.
