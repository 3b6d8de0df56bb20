(** C107: what a forecast reports for each year. *)
From Verif Require Import Base BaseFacts TimingModel SubModel ForecastsModel HorizonModel ReportModel Prop_SubForecast Prop_Forecasts Prop_Horizon.
From Verif Require LedgerModel LedgerProofs.
Import LedgerModel(year, hist, getp, history_at, with_env).
From Coq Require Import Permutation Lqa.

(** [answered g w p v]: with the parts in state [w], the figure [p] is [v] *)
Definition answered {W} (g : figures W) (w : W) (p : nat) (v : Q) : Prop :=
  (p = INCOME /\ g_income g w = Ok v) \/
  (p = LIVING /\ g_living g w = Ok v) \/
  (p = SAVINGS /\ exists i l, g_income g w = Ok i /\ g_living g w = Ok l /\ v = if Qle_bool (i - l) 0 then 0 else (i - l)%Q) \/
  (p = PRINCIPAL /\ g_principal g w = Ok v) \/
  (p = WITHDRAWALS /\ g_withdrawals g w = Ok v) \/
  (p = TAX /\ g_tax g w = Ok v).

Section Year.
  Context {W : Type} (g : figures W) (order : list nat).
  Notation C := (report_class g order).
  Lemma report_pure : forall p, LedgerProofs.pure (LedgerModel.fget C p).
  Proof.
    intros p. cbn [report_class LedgerModel.fget]. unfold report_get, ask.
    assert (A : forall f, LedgerProofs.pure (LedgerModel.EnvRd (fun s : fstate W => match f (f_world s) with Ok v => @LedgerModel.Ret Q (fstate W) v | Err _ => LedgerModel.Raise end))).
    { intros f. apply LedgerProofs.PEnv. intros s. destruct (f (f_world s)); [apply LedgerProofs.PRet|apply LedgerProofs.PRaise]. }
    destruct p as [|[|[|[|[|[|p]]]]]]; try apply A; [|apply LedgerProofs.PRaise].
    apply LedgerProofs.PGet. intros i. apply LedgerProofs.PGet. intros l. apply LedgerProofs.PRet.
  Qed.
  Lemma asked : forall L f v, LedgerProofs.ev C L (ask f) v -> f (f_world (LedgerModel.env L)) = Ok v.
  Proof.
    intros L f v H. unfold ask in H. inversion H; subst. destruct (f (f_world (LedgerModel.env L))) as [x|er].
    - match goal with K : LedgerProofs.ev _ _ (LedgerModel.Ret _) _ |- _ => inversion K; subst end. reflexivity.
    - match goal with K : LedgerProofs.ev _ _ LedgerModel.Raise _ |- _ => inversion K end.
  Qed.
  Lemma savings_eq : forall i l, reported_savings i l = if Qle_bool (i - l) 0 then 0 else (i - l)%Q.
  Proof. intros. unfold reported_savings, qmax. reflexivity. Qed.
  Lemma read_answered : forall L p v, (forall q, hist L q (year L) = None) -> LedgerProofs.rd C L p v ->
    answered g (f_world (LedgerModel.env L)) p v.
  Proof.
    intros L p v N [H|[_ H]]; [rewrite N in H; discriminate|]. cbn [report_class LedgerModel.fget] in H. unfold report_get in H.
    destruct p as [|[|[|[|[|[|p]]]]]]; try (apply asked in H; unfold answered; unfold INCOME, LIVING, SAVINGS, PRINCIPAL, WITHDRAWALS, TAX; tauto); [|inversion H].
    inversion H as [| |q k i w' Hn Hi Hk| | | | |]; subst; [match goal with K : hist _ _ _ = Some _ |- _ => rewrite N in K; discriminate end|].
    inversion Hk as [| |q k l w'' Hn' Hl Hk'| | | | |]; subst; [match goal with K : hist _ _ _ = Some _ |- _ => rewrite N in K; discriminate end|].
    inversion Hk'; subst. apply asked in Hi. apply asked in Hl. right. right. left. split; [reflexivity|]. exists i, l. split; [exact Hi|]. split; [exact Hl|]. apply savings_eq.
  Qed.
  (** recording a year *)
  Lemma year_recorded : forall L L', (forall q, hist L q (year L) = None) -> LedgerModel.next_year C depth L = Some L' ->
    year L' = (year L + 1)%Z /\
    (forall p, In p order -> exists v, hist L' p (year L) = Some v /\ answered g (f_world (LedgerModel.env L)) p v) /\
    (forall p y, y <> year L -> hist L' p y = hist L p y).
  Proof.
    intros L L' N H. unfold LedgerModel.next_year in H. destruct (LedgerModel.record C depth _ L) as [L1|] eqn:E; [|discriminate]. injection H as <-.
    apply (LedgerProofs.record_ev C report_pure depth L) in E; [|apply LedgerProofs.refines_refl]. destruct E as ((E1 & E2 & E3 & _) & _ & R).
    cbn [year hist]. split; [now rewrite E1|]. split; [|exact E3]. intros p Hp. destruct (R p Hp) as (v & V1 & V2). exists v. split; [exact V1|]. now apply read_answered.
  Qed.
  Lemma run_Get : forall m L p k, LedgerModel.run C (S m) L (LedgerModel.Get p k) =
    match LedgerModel.get_with C (LedgerModel.run C m) p L with None => None | Some (v, L') => LedgerModel.run C (S m) L' (k v) end.
  Proof. reflexivity. Qed.
  Definition with_cache (L : LedgerModel.lstate Q (fstate W)) p v := if LedgerModel.cached C p then LedgerModel.put L p (year L) (Some v) else L.
  Lemma ask_get : forall L m p f v, hist L p (year L) = None -> report_get g p = ask f -> f (f_world (LedgerModel.env L)) = Ok v ->
    LedgerModel.get_with C (LedgerModel.run C (S m)) p L = Some (v, with_cache L p v).
  Proof.
    intros L m p f v N E A. unfold LedgerModel.get_with. rewrite N. cbn [report_class LedgerModel.fget]. rewrite E. unfold ask.
    cbn [LedgerModel.run]. rewrite A. reflexivity.
  Qed.
  Lemma present_read : forall L p v, (forall q, hist L q (year L) = None) -> answered g (f_world (LedgerModel.env L)) p v ->
    exists L2, getp C depth L p = Some (v, L2).
  Proof.
    intros L p v N A. unfold getp, LedgerModel.get_with. rewrite N.
    destruct A as [[-> A]|[[-> A]|[[-> (i & l & A1 & A2 & ->)]|[[-> A]|[[-> A]|[-> A]]]]]];
      cbn [report_class LedgerModel.fget report_get INCOME LIVING SAVINGS PRINCIPAL WITHDRAWALS TAX ask];
      try (unfold ask; cbn [LedgerModel.run depth]; rewrite A; eexists; reflexivity).
    unfold depth. rewrite run_Get. rewrite (ask_get L 1 INCOME (g_income g) i (N _) eq_refl A1). cbv beta iota.
    rewrite run_Get.
    erewrite (ask_get _ 1 LIVING (g_living g) l); [|cbn [with_cache LedgerModel.put year hist]; try (rewrite LedgerProofs.upd_other by (left; discriminate)); apply N|reflexivity|exact A2].
    cbv beta iota. cbn [LedgerModel.run]. rewrite savings_eq. eexists. reflexivity.
  Qed.
End Year.

Section Run.
  Context {W : Type} (e : HorizonModel.env W) (g : figures W) (order : list nat) (Ord : Permutation order (seq 0 6)).
  Notation C := (report_class g order).
  (** a ledger whose surroundings are the state, at the start of a year *)
  Definition opened (s : fstate W) (L : LedgerModel.lstate Q (fstate W)) : Prop :=
    LedgerModel.env L = s /\ year L = f_year s /\ forall p y, (f_year s <= y)%Z -> hist L p y = None.
  Lemma in_order : forall p, (p < 6)%nat -> In p order.
  Proof. intros p Hp. apply (Permutation_in p (Permutation_sym Ord)). apply in_seq. lia. Qed.
  Lemma next_f_year : forall s s', HorizonModel.next_year e s = Ok s' -> f_year s' = (f_year s + 1)%Z.
  Proof.
    intros s s' H. unfold HorizonModel.next_year in H. destruct (e_adj e (f_world s)) as [adj|]; [|discriminate]. cbn [bind] in H.
    destruct (advance e NextSub _ _ _ _ _) as [[subs w1] l1]. destruct (advance e NextPerson _ _ _ _ _) as [[people w2] l2]. destruct (advance e NextAccount _ _ _ _ _) as [[accts w3] l3].
    destruct (carryover_tax e w3 _ adj) as [a2|]; [|discriminate]. cbn [bind] in H. injection H as <-. reflexivity.
  Qed.
  Lemma call_f_year : forall s s', call_subforecasts e s = Ok s' -> f_year s' = f_year s.
  Proof. intros s s' H. unfold call_subforecasts in H. apply call_from_shape in H. tauto. Qed.
  Lemma run_reported : forall n s L s' L', opened s L -> report_years e g order n (s, L) = Ok (s', L') ->
    exists start called : nat -> fstate W, start 0%nat = s /\ start n = s' /\
      (forall i, (i < n)%nat -> call_subforecasts e (start i) = Ok (called i) /\ HorizonModel.next_year e (called i) = Ok (start (S i))) /\
      opened s' L' /\ f_year s' = (f_year s + Z.of_nat n)%Z /\
      (forall i p, (i < n)%nat -> (p < 6)%nat -> exists v, hist L' p (f_year s + Z.of_nat i) = Some v /\ answered g (f_world (called i)) p v) /\
      (forall p y, (y < f_year s)%Z -> hist L' p y = hist L p y).
  Proof.
    induction n as [|n IH]; intros s L s' L' O H; cbn [report_years] in H.
    - injection H as <- <-. exists (fun _ => s), (fun _ => s). do 2 (split; [reflexivity|]). split; [lia|]. split; [exact O|]. split; [lia|]. split; [lia|reflexivity].
    - unfold report_calls at 1 in H. cbn [fst snd] in H. destruct (call_subforecasts e s) as [s1|] eqn:E1; [|discriminate]. cbn [bind] in H.
      unfold report_next in H. cbn [fst snd] in H.
      destruct (LedgerModel.next_year C depth (with_env L s1)) as [L1|] eqn:E2; [|discriminate].
      destruct (HorizonModel.next_year e s1) as [s2|] eqn:E3; [|discriminate]. cbn [bind] in H.
      destruct O as (O1 & O2 & O3). pose proof (call_f_year _ _ E1) as Y1. pose proof (next_f_year _ _ E3) as Y2.
      destruct (year_recorded g order (with_env L s1) L1) as (R1 & R2 & R3); [intros q; cbn; apply O3; lia|exact E2|]. cbn [with_env year hist LedgerModel.env] in R1, R2, R3.
      assert (O' : opened s2 (with_env L1 s2)).
      { split; [reflexivity|]. cbn [with_env year hist]. split; [lia|]. intros p y Hy. rewrite R3 by lia. apply O3. lia. }
      destruct (IH _ _ _ _ O' H) as (st & cd & S0 & Sn & St & On & Yn & Hr & Hp).
      exists (fun i => match i with O => s | S j => st j end), (fun i => match i with O => s1 | S j => cd j end).
      split; [reflexivity|]. split; [exact Sn|]. split.
      { intros [|i] Hi; [rewrite S0; auto|]. apply St. lia. }
      split; [exact On|]. split; [lia|]. split.
      + intros [|i] p Hi Hp6.
        * destruct (R2 p (in_order p Hp6)) as (v & V1 & V2). exists v. split; [|exact V2]. rewrite Z.add_0_r. rewrite Hp by lia. cbn [with_env hist]. now rewrite <- O2.
        * destruct (Hr i p ltac:(lia) Hp6) as (v & V1 & V2). exists v. split; [|exact V2]. replace (f_year s + Z.of_nat (S i))%Z with (f_year s2 + Z.of_nat i)%Z by lia. exact V1.
      + intros p y Hy. rewrite Hp by lia. cbn [with_env hist]. apply R3. lia.
  Qed.
  Lemma same_run : forall n s L s1 L1, report_years e g order n (s, L) = Ok (s1, L1) -> run_years e n s = Ok s1.
  Proof.
    induction n as [|n IH]; intros s L0 s1 L1 E; cbn [report_years run_years] in *; [congruence|].
    unfold report_calls at 1 in E. cbn [fst snd] in E. destruct (call_subforecasts e s) as [s2|]; [|discriminate]. cbn [bind] in E |- *.
    unfold report_next in E. cbn [fst snd] in E. destruct (LedgerModel.next_year _ _ _) as [L2|]; [|discriminate].
    destruct (HorizonModel.next_year e s2) as [s3|]; [|discriminate]. cbn [bind] in E |- *. eapply IH. exact E.
  Qed.
End Run.

(** [called i] is the state of everything once year [i]'s sub-forecasts have been called (and before
    anything moves on to the next year); [start i] is the state at the start of that year. *)
Theorem C107_reported : forall W (e : HorizonModel.env W) g order last s s' L, Permutation order (seq 0 6) -> (f_year s <= last)%Z ->
  report_forecast e g order last s = Ok (s', L) ->
  exists start called : nat -> fstate W, start 0%nat = s /\
    (forall i, (f_year s + Z.of_nat i < last)%Z -> call_subforecasts e (start i) = Ok (called i) /\ HorizonModel.next_year e (called i) = Ok (start (S i))) /\
    call_subforecasts e (start (Z.to_nat (last - f_year s))) = Ok s' /\
    run_forecast e last s = Ok s' /\
    year L = last /\
    (** every figure of every year before the last *)
    (forall i p, (f_year s + Z.of_nat i < last)%Z -> (p < 6)%nat ->
       exists v, answered g (f_world (called i)) p v /\ hist L p (f_year s + Z.of_nat i) = Some v /\
         forall h, history_at (report_class g order) depth L p (f_year s + Z.of_nat i) = Some h -> h = Some v) /\
    (** the last year's are read from the state the forecast ends in *)
    (forall p v, answered g (f_world s') p v -> (exists L2, getp (report_class g order) depth L p = Some (v, L2)) /\
         history_at (report_class g order) depth L p last = Some (Some v)) /\
    (** and nothing is reported for other years *)
    (forall p y, (y < f_year s \/ last < y)%Z -> hist L p y = None).
Proof.
  intros W e g order last s s' L P Le H. unfold report_forecast in H. set (L0 := LedgerModel.init (report_class g order) (f_year s) s) in *.
  destruct (report_years e g order (turns (f_year s) last) (s, L0)) as [[s1 L1]|] eqn:E; [|discriminate]. cbn [bind] in H.
  unfold report_calls in H. cbn [fst snd] in H. destruct (call_subforecasts e s1) as [s2|] eqn:E2; [|discriminate]. cbn [bind] in H. injection H as -> <-.
  assert (O : opened s L0) by (split; [reflexivity|]; split; [reflexivity|]; intros; reflexivity).
  assert (Rn : run_years e (turns (f_year s) last) s = Ok s1).
  { eapply same_run. exact E. }
  destruct (run_reported e g order P _ _ _ _ _ O E) as (st & cd & S0 & Sn & St & (O1 & O2 & O3) & Yn & Hr & Hp). unfold turns in *.
  assert (Hn : f_year s1 = last) by lia.
  exists st, cd. split; [exact S0|]. split; [intros i Hi; apply St; lia|]. split; [now rewrite Sn|].
  split; [unfold run_forecast, turns; rewrite Rn; exact E2|]. split; [cbn; congruence|].
  assert (Fr : forall q, hist (with_env L1 s') q (year (with_env L1 s')) = None) by (intros q; cbn; rewrite O2; apply O3; lia).
  split; [|split].
  - intros i p Hi Hp6. destruct (Hr i p ltac:(lia) Hp6) as (v & V1 & V2). exists v. split; [exact V2|]. split; [exact V1|].
    intros h Hh. apply LedgerProofs.history_past in Hh; [cbn in Hh; congruence|]. cbn. lia.
  - intros p v A. destruct (present_read g order (with_env L1 s') p v Fr A) as [L2 R]. split; [exists L2; exact R|].
    unfold history_at. rewrite R. cbn [with_env year]. rewrite O2, Hn, Z.eqb_refl. reflexivity.
  - intros p y [Hy|Hy]; cbn [with_env hist]; [rewrite Hp by exact Hy; reflexivity|apply O3; lia].
Qed.
Print Assumptions C107_reported.

(** ** The reported figures and the household's cash *)
(** the reported figure, summed over [n] years *)
Definition reported {St} (L : LedgerModel.lstate Q (fstate (world St))) (p : nat) (y0 : Z) (n : nat) : Q :=
  Qsum (map (fun i => match hist L p (y0 + Z.of_nat i)%Z with Some v => v | None => 0 end) (seq 0 n)).
Definition moved (pl : plan) : Q := Qsum (map (fun al => Qsum (dvals (snd al))) pl).
Lemma net_income_eq : forall ps, net_income ps == Qsum (map p_gross ps) - Qsum (map p_withheld ps).
Proof. unfold net_income, p_net. induction ps as [|p r IH]; cbn [map Qsum]; [lra|]. rewrite IH. lra. Qed.
Lemma answered_inv : forall W (g : figures W) w p v, answered g w p v ->
  match p with 0%nat => g_income g w = Ok v | 1%nat => g_living g w = Ok v | 4%nat => g_withdrawals g w = Ok v | 5%nat => g_tax g w = Ok v | _ => True end.
Proof. intros W g w p v [[-> A]|[[-> A]|[[-> A]|[[-> A]|[[-> A]|[-> A]]]]]]; cbn; auto. Qed.
Lemma Qsum_seq_S : forall (f : nat -> Q) n, Qsum (map f (seq 0 (S n))) == Qsum (map f (seq 0 n)) + f n.
Proof. intros f n. rewrite seq_S, map_app, Qsum_app. cbn [map Qsum Nat.add]. lra. Qed.

Theorem C107_reconciled : forall St (c : config St) bal order last s s' L, Permutation order (seq 0 6) -> (f_year s <= last)%Z ->
  sound c -> keeps_paid c -> usable_env (real_env c) ->
  together s -> Datatypes.length (f_subs s) = 5%nat -> fresh (f_world s) -> paid_people (hh_people (f_world s)) ->
  report_forecast (real_env c) (real_figures c bal) order last s = Ok (s', L) ->
  exists (start called : nat -> fstate (world St)) (saving withdrawing : nat -> plan) (paid : nat -> Q),
    start 0%nat = s /\ call_subforecasts (real_env c) (start (Z.to_nat (last - f_year s))) = Ok s' /\
    (forall i, (f_year s + Z.of_nat i < last)%Z ->
       call_subforecasts (real_env c) (start i) = Ok (called i) /\ HorizonModel.next_year (real_env c) (called i) = Ok (start (S i)) /\
       tax_withheld (c_wh c (hh_rest (f_world (called i))) (hh_heap (f_world (called i)))) (hh_people (f_world (called i))) = Ok (paid i) /\
       exists income living withdrawals tax h1 h2,
         hist L INCOME (f_year s + Z.of_nat i) = Some income /\ hist L LIVING (f_year s + Z.of_nat i) = Some living /\
         hist L WITHDRAWALS (f_year s + Z.of_nat i) = Some withdrawals /\ hist L TAX (f_year s + Z.of_nat i) = Some tax /\
         c_save c (hh_rest (f_world (start i))) h1 = Ok (saving i) /\ c_withdraw c (hh_rest (f_world (start i))) h2 = Ok (withdrawing i) /\ shown (start i) income living (saving i) h1 h2 /\
         (** within the year *)
         total (f_avail (called i)) == total (f_avail (start i)) + income - living - moved (saving i) - moved (withdrawing i) + (withheld_of (called i) - withheld_of (start i)) /\
         (** into the next year *)
         total (f_avail (start (S i))) == total (f_avail (called i)) + (paid i - tax) /\
         (** what is reported as withdrawals is the shortfall before anything is withdrawn *)
         withdrawals == - (total (f_avail (start i)) + income - living - moved (saving i))) /\
    (** over the whole horizon *)
    forall n, (f_year s + Z.of_nat n <= last)%Z ->
      total (f_avail (start n)) == total (f_avail s) + reported L INCOME (f_year s) n - reported L LIVING (f_year s) n
        - Qsum (map (fun i => moved (saving i)) (seq 0 n)) - Qsum (map (fun i => moved (withdrawing i)) (seq 0 n))
        + (Qsum (map paid (seq 0 n)) - reported L TAX (f_year s) n) + (withheld_of (start n) - withheld_of s).
Proof.
  intros Ty c bal order last s s' L P Le Sd K U T Ln F Pp H.
  destruct (C107_reported _ _ _ _ _ _ _ _ P Le H) as (st & cd & S0 & St & Sl & _ & _ & Hr & _).
  assert (I : forall i, (f_year s + Z.of_nat i <= last)%Z -> together (st i) /\ Datatypes.length (f_subs (st i)) = 5%nat /\ fresh (f_world (st i)) /\ paid_people (hh_people (f_world (st i))) /\
             withheld_of (st i) = match i with O => withheld_of s | S j => withheld_of (cd j) end).
  { induction i as [|i IH]; intros Hi; [rewrite S0; auto 10|]. destruct (IH ltac:(lia)) as (T0 & L0 & F0 & P0 & _). destruct (St i ltac:(lia)) as [C1 N1].
    pose proof (call_together _ _ _ _ T0 C1) as T1.
    assert (L1 : Datatypes.length (f_subs (cd i)) = 5%nat) by (pose proof C1 as Q; unfold call_subforecasts in Q; apply call_from_shape in Q; destruct Q as (_ & Q & _); now rewrite Q).
    destruct (year_full c _ _ Sd L0 F0 P0 C1) as (l & p1 & p2 & held & h1 & h2 & _ & _ & _ & _ & _ & Y5 & _).
    assert (P1 : paid_people (hh_people (f_world (cd i)))) by (rewrite Y5; exact P0).
    destruct (fresh_next c _ _ K T1 L1 P1 N1) as (F2 & P2 & W2). destruct (next_year_shape _ _ _ _ T1 N1) as (_ & T2 & L2 & _). rewrite L2. auto 10. }
  assert (Y : forall i, exists x : plan * plan * Q, (f_year s + Z.of_nat i < last)%Z ->
     tax_withheld (c_wh c (hh_rest (f_world (cd i))) (hh_heap (f_world (cd i)))) (hh_people (f_world (cd i))) = Ok (snd x) /\
     exists income living withdrawals tax h1 h2,
         hist L INCOME (f_year s + Z.of_nat i) = Some income /\ hist L LIVING (f_year s + Z.of_nat i) = Some living /\
         hist L WITHDRAWALS (f_year s + Z.of_nat i) = Some withdrawals /\ hist L TAX (f_year s + Z.of_nat i) = Some tax /\
         c_save c (hh_rest (f_world (st i))) h1 = Ok (fst (fst x)) /\ c_withdraw c (hh_rest (f_world (st i))) h2 = Ok (snd (fst x)) /\ shown (st i) income living (fst (fst x)) h1 h2 /\
         total (f_avail (cd i)) == total (f_avail (st i)) + income - living - moved (fst (fst x)) - moved (snd (fst x)) + (withheld_of (cd i) - withheld_of (st i)) /\
         total (f_avail (st (S i))) == total (f_avail (cd i)) + (snd x - tax) /\
         withdrawals == - (total (f_avail (st i)) + income - living - moved (fst (fst x)))).
  { intros i. destruct (Z_lt_dec (f_year s + Z.of_nat i) last) as [Hi|Hi]; [|exists ([], [], 0); intros; contradiction].
    destruct (I i ltac:(lia)) as (T0 & L0 & F0 & P0 & _). destruct (St i Hi) as [C1 N1].
    destruct (year_full c _ _ Sd L0 F0 P0 C1) as (l & p1 & p2 & held & h1 & h2 & Y1 & Y2 & Y3 & Y4 & Yh & Y5 & Y6 & Y7 & Y8 & _ & _ & Yx).
    destruct (Hr i INCOME Hi ltac:(unfold INCOME; lia)) as (vi & A1 & B1 & _). destruct (Hr i LIVING Hi ltac:(unfold LIVING; lia)) as (vl & A2 & B2 & _).
    destruct (Hr i WITHDRAWALS Hi ltac:(unfold WITHDRAWALS; lia)) as (vw & A3 & B3 & _). destruct (Hr i TAX Hi ltac:(unfold TAX; lia)) as (vt & A4 & B4 & _).
    apply answered_inv in A1, A2, A3, A4. cbn [INCOME LIVING WITHDRAWALS TAX real_figures g_income g_living g_withdrawals g_tax] in A1, A2, A3, A4.
    rewrite Y5 in A1. rewrite Y5, Y7, Yx, Y1 in A2. injection A1 as A1. injection A2 as A2. injection A3 as A3. subst vl.
    assert (Ni : vi == Qsum (map p_gross (hh_people (f_world (st i)))) - Qsum (map p_withheld (hh_people (f_world (st i))))) by (rewrite <- A1; apply net_income_eq).
    destruct (C67_year_start _ (real_env c) (cd i) (st (S i)) U N1) as [C _]. unfold carried in C. cbn [real_env e_adj] in C.
    unfold HorizonModel.next_year in N1. cbn [real_env e_adj] in N1. unfold tax_adjustment in N1, C.
    destruct (tax_withheld (c_wh c (hh_rest (f_world (cd i))) (hh_heap (f_world (cd i)))) (hh_people (f_world (cd i)))) as [pd|er] eqn:Et; [|discriminate].
    cbn [bind] in C. rewrite A4 in C. cbn [bind] in C.
    exists (p1, p2, pd). intros _. cbn [fst snd]. split; [reflexivity|]. exists vi, l, vw, vt, h1, h2.
    do 4 (split; [assumption|]). split; [exact Y2|]. split; [exact Y3|].
    destruct Y4 as (S1 & S2 & S3 & S4). split.
    { split; [rewrite S1, Ni; reflexivity|]. split; [exact S2|]. split; [exact S3|exact S4]. }
    unfold moved, withheld_of. rewrite Yh in Y6. split; [lra|]. split; [exact C|]. rewrite <- A3, Y8. lra. }
  assert (Ch : forall n, exists f : nat -> plan * plan * Q, forall i, (i < n)%nat -> (f_year s + Z.of_nat i < last)%Z ->
     tax_withheld (c_wh c (hh_rest (f_world (cd i))) (hh_heap (f_world (cd i)))) (hh_people (f_world (cd i))) = Ok (snd (f i)) /\
     exists income living withdrawals tax h1 h2,
         hist L INCOME (f_year s + Z.of_nat i) = Some income /\ hist L LIVING (f_year s + Z.of_nat i) = Some living /\
         hist L WITHDRAWALS (f_year s + Z.of_nat i) = Some withdrawals /\ hist L TAX (f_year s + Z.of_nat i) = Some tax /\
         c_save c (hh_rest (f_world (st i))) h1 = Ok (fst (fst (f i))) /\ c_withdraw c (hh_rest (f_world (st i))) h2 = Ok (snd (fst (f i))) /\ shown (st i) income living (fst (fst (f i))) h1 h2 /\
         total (f_avail (cd i)) == total (f_avail (st i)) + income - living - moved (fst (fst (f i))) - moved (snd (fst (f i))) + (withheld_of (cd i) - withheld_of (st i)) /\
         total (f_avail (st (S i))) == total (f_avail (cd i)) + (snd (f i) - tax) /\
         withdrawals == - (total (f_avail (st i)) + income - living - moved (fst (fst (f i))))).
  { induction n as [|n [f IH]]; [exists (fun _ => ([], [], 0)); lia|]. destruct (Y n) as [x X].
    exists (fun i => if Nat.eqb i n then x else f i). intros i Hi. destruct (Nat.eqb_spec i n) as [->|Ne]; [exact X|]. apply IH. lia. }
  destruct (Ch (Z.to_nat (last - f_year s))) as [f Hf]. clear Ch Y.
  exists st, cd, (fun i => fst (fst (f i))), (fun i => snd (fst (f i))), (fun i => snd (f i)).
  split; [exact S0|]. split; [exact Sl|]. split.
  { intros i Hi. destruct (St i Hi) as [C1 N1]. split; [exact C1|]. split; [exact N1|]. apply Hf; [lia|exact Hi]. }
  induction n as [|n IH]; intros Hn.
  - rewrite S0. unfold reported. cbn [seq map Qsum]. lra.
  - specialize (IH ltac:(lia)). destruct (Hf n ltac:(lia) ltac:(lia)) as (_ & inc & liv & wd & tx & h1 & h2 & B1 & B2 & B3 & B4 & _ & _ & _ & E1 & E2 & _).
    destruct (I (S n) Hn) as (_ & _ & _ & _ & W1). unfold reported in *. rewrite !Qsum_seq_S. rewrite B1, B2, B4. rewrite W1. lra.
Qed.
Print Assumptions C107_reconciled.
(** a household over four years; the balances are those of the two accounts shown *)
Definition demo_balances (w : world Q) : res Q := Ok (htotal (hh_heap w) 1 + htotal (hh_heap w) 2).
Definition demo_order : list nat := [2; 5; 0; 4; 1; 3]%nat.
Example C107_sat : Permutation demo_order (seq 0 6) /\ (f_year demo_forecast <= 2003)%Z /\ sound demo_cfg /\ keeps_paid demo_cfg /\ usable_env (real_env demo_cfg) /\
  together demo_forecast /\ fresh (f_world demo_forecast) /\ paid_people (hh_people (f_world demo_forecast)) /\
  exists s' L, report_forecast (real_env demo_cfg) (real_figures demo_cfg demo_balances) demo_order 2003 demo_forecast = Ok (s', L) /\
    reported L INCOME 2000 3 == 3 * net_income [ann; bob] /\ reported L LIVING 2000 3 == 180 /\ reported L TAX 2000 3 == 75 /\
    reported L SAVINGS 2000 3 == 3 * (net_income [ann; bob] - 60) /\
    (exists a b c, hist L PRINCIPAL 2000 = Some a /\ hist L PRINCIPAL 2001 = Some b /\ hist L PRINCIPAL 2002 = Some c /\ ~ a == b /\ ~ b == c) /\
    hist L INCOME 2003 = None /\ (exists v L2, getp (report_class (real_figures demo_cfg demo_balances) demo_order) depth L SAVINGS = Some (v, L2)).
Proof.
  destruct C85_sat as (A1 & A2 & A3 & A4 & A5 & A6 & _).
  split; [|split; [vm_compute; discriminate|]].
  { apply NoDup_Permutation; [repeat constructor; cbn; intuition discriminate|apply seq_NoDup|]. intros x. unfold demo_order. rewrite in_seq. cbn. intuition lia. }
  do 6 (split; [assumption|]).
  destruct (report_forecast (real_env demo_cfg) (real_figures demo_cfg demo_balances) demo_order 2003 demo_forecast) as [[s' L]|] eqn:E; [|vm_compute in E; discriminate].
  exists s', L. split; [reflexivity|]. vm_compute in E. injection E as <- <-.
  do 4 (split; [vm_compute; reflexivity|]). split; [do 3 eexists; do 3 (split; [vm_compute; reflexivity|]); split; vm_compute; discriminate|].
  split; [vm_compute; reflexivity|]. do 2 eexists. vm_compute. reflexivity.
Qed.
