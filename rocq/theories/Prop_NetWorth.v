(** C109: a household's net worth: cash plus what its accounts hold. *)
From Verif Require Import Base BaseFacts RBase GrowthModel AccountModel TimingModel SubModel ForecastsModel HorizonModel Prop_SubForecast Prop_Forecasts Prop_Horizon.
From Verif Require GrowthProofs Prop_Account.
From Coq Require Import Lia Lra Reals Qreals.
From Coq Require Lqa.
Local Open Scope R_scope.

(** ** Specification *)
(** an account's books for the year: its opening balance, its rate and compounding, and the transactions
    the forecast has put in it *)
Definition money (d : dict Q Q) : dict R R := map (fun kv => (Q2R (fst kv), Q2R (snd kv))) d.
Definition ledger_of (rate : nat -> R) (nper : nat -> option positive) (bal : nat -> R) (h : heap) (y : Z) (a : nat) : account :=
  {| a_year := y; a_bal := bal a; a_rate := fun _ => rate a; a_nper := nper a; a_txns := money (hget h a); a_timing := [] |}.
(** a year's figures *)
Record year_row : Type := { y_gross : Q; y_living : Q; y_tax : Q; y_withheld : Q; y_returns : R }.
Section Household.
  Context {St : Type}.
  Local Notation world := (HorizonModel.world St).
  Local Notation config := (HorizonModel.config St).
  Variables (c : config) (rate : nat -> R) (nper : nat -> option positive) (accts : list nat).
  (** the years of a household: each year the sub-forecasts are called, the accounts are closed (C20, C108:
      next_year) and the next year begins *)
  Fixpoint live (n : nat) (s : fstate world) (bal : nat -> R) : res (fstate world * (nat -> R)) :=
    match n with
    | O => Ok (s, bal)
    | S m =>
        let* s1 := call_subforecasts (real_env c) s in
        let* s2 := HorizonModel.next_year (real_env c) s1 in
        live m s2 (fun a => a_bal (AccountModel.next_year (ledger_of rate nper bal (hh_heap (f_world s1)) (f_year s1) a)))
    end.
  Definition net_worth (s : fstate world) (bal : nat -> R) : R := Q2R (total (f_avail s)) + Rsum (map bal accts).
  (** the rows are the years' actual figures: gross income of the people, living expenses, tax owing,
      tax withheld by the accounts, returns of the accounts *)
  Fixpoint figures (rows : list year_row) (s : fstate world) (bal : nat -> R) : Prop :=
    match rows with
    | [] => True
    | r :: rest => exists s1 s2,
        call_subforecasts (real_env c) s = Ok s1 /\ HorizonModel.next_year (real_env c) s1 = Ok s2 /\
        (y_gross r == Qsum (map p_gross (hh_people (f_world s))))%Q /\
        c_living c (hh_rest (f_world s)) (hh_people (f_world s)) (s_year (hh_living (f_world s))) = Ok (y_living r) /\
        c_owing c (hh_rest (f_world s1)) (hh_heap (f_world s1)) (hh_people (f_world s1)) = Ok (y_tax r) /\
        (y_withheld r == Qsum (map (c_wh c (hh_rest (f_world s1)) (hh_heap (f_world s1))) (union_accts (hh_people (f_world s1)))))%Q /\
        y_returns r = Rsum (map (fun a => returns (ledger_of rate nper bal (hh_heap (f_world s1)) (f_year s1) a)) accts) /\
        figures rest s2 (fun a => a_bal (AccountModel.next_year (ledger_of rate nper bal (hh_heap (f_world s1)) (f_year s1) a)))
    end.
  (** Account.next_year gives the account a fresh dict of transactions; Person.next_year touches no account *)
  Definition renews : Prop :=
    (forall i y x h ps a, nth_error accts i = Some a -> exists x', c_next c (NextAccount i y) (x, h, ps) = (x', hset h a [], ps)) /\
    (forall i y x h ps, snd (fst (c_next c (NextPerson i y) (x, h, ps))) = h).
  (** the strategies' plans are for the household's accounts, each named once *)
  Definition own_accounts : Prop :=
    NoDup accts /\ ~ In 0%nat accts /\
    (forall x h pl, c_save c x h = Ok pl -> forall a, In a (map fst pl) -> In a accts) /\
    (forall x h pl, c_withdraw c x h = Ok pl -> NoDup (map fst pl) /\ forall a, In a (map fst pl) -> In a accts).
  (** at the start: one entry per account, none with transactions yet *)
  Definition opening (s : fstate world) : Prop :=
    Datatypes.length (f_accts s) = Datatypes.length accts /\ forall a, In a accts -> hget (hh_heap (f_world s)) a = [].

  (** ** Proofs *)
  Lemma heap_kept : forall ev ys i year w log, (forall j y w, hh_heap (real_next c (ev j y) w) = hh_heap w) ->
    let '(_, w', _) := advance (real_env c) ev i ys year w log in hh_heap w' = hh_heap w.
  Proof.
    intros ev ys. induction ys as [|y ys IH]; intros i year w log K; cbn [advance]; [reflexivity|].
    assert (C1 : forall t z w log, let '(_, w', _) := catch_up (real_env c) (ev i) t z w log in hh_heap w' = hh_heap w).
    { clear -K. induction t as [|t IHt]; intros z w log; cbn [catch_up]; [reflexivity|]. specialize (IHt (z + 1)%Z (e_next (real_env c) (ev i z) w) (log ++ [ev i z])).
      destruct (catch_up (real_env c) (ev i) t (z + 1) _ _) as [[y' w'] log']. rewrite IHt. apply K. }
    specialize (C1 (turns y year) y w log). destruct (catch_up (real_env c) (ev i) (turns y year) y w log) as [[y' w1] l1]. specialize (IH (S i) year w1 l1 K).
    destruct (advance (real_env c) ev (S i) ys year w1 l1) as [[ys' w2] l2]. congruence.
  Qed.
  Lemma accounts_cleared : renews -> forall ys i year w log, Forall (fun z => z = year) ys -> (i + Datatypes.length ys = Datatypes.length accts)%nat ->
    (forall j a, (j < i)%nat -> nth_error accts j = Some a -> hget (hh_heap w) a = []) ->
    let '(_, w', _) := advance (real_env c) NextAccount i ys (year + 1) w log in forall a, In a accts -> hget (hh_heap w') a = [].
  Proof.
    intros [Rn _] ys. induction ys as [|y ys IH]; intros i year w log F L K; cbn [advance].
    - intros a Ha. apply In_nth_error in Ha as [j Hj]. apply (K j a); [|exact Hj]. assert (j < Datatypes.length accts)%nat by (apply nth_error_Some; congruence). cbn in L. lia.
    - inversion F as [|? ? F1 F2]; subst. unfold turns. replace (year + 1 - year)%Z with 1%Z by lia. change (Z.to_nat 1) with 1%nat. cbn [catch_up real_env e_next real_next].
      destruct (nth_error accts i) as [b|] eqn:Eb; [|apply nth_error_None in Eb; cbn in L; lia]. match goal with |- context[c_next c _ (?x, ?h, ?ps)] => destruct (Rn i year x h ps b Eb) as [x' ->] end.
      match goal with |- context[advance _ NextAccount (S i) ys _ ?w' ?l'] => specialize (IH (S i) year w' l' F2 ltac:(cbn in L; lia)) end. fold (real_env c).
      match type of IH with ?A -> _ => assert (Pr : A) end.
      { intros j a Hj Ha. cbn [hh_heap]. rewrite hget_set. destruct (Nat.eqb_spec a b) as [->|Nb]; [reflexivity|]. apply (K j a); [|exact Ha]. destruct (Nat.eq_dec j i) as [->|]; [congruence|lia]. }
      specialize (IH Pr). destruct (advance (real_env c) NextAccount (S i) ys (year + 1) _ _) as [[ys' w2] l2]. exact IH.
  Qed.
  Lemma next_opening : renews -> forall s s', together s -> Datatypes.length (f_accts s) = Datatypes.length accts -> HorizonModel.next_year (real_env c) s = Ok s' -> opening s'.
  Proof.
    intros Rn s s' T L H. destruct (next_year_shape _ _ _ _ T H) as (_ & _ & _ & _ & La & _). split; [congruence|]. destruct T as (_ & _ & T3).
    unfold HorizonModel.next_year in H. destruct (e_adj (real_env c) (f_world s)) as [adj|]; [|discriminate]. cbn [bind] in H.
    destruct (advance (real_env c) NextSub 0 (f_subs s) (f_year s + 1) (f_world s) (f_log s)) as [[subs w1] l1].
    destruct (advance (real_env c) NextPerson 0 (f_people s) (f_year s + 1) w1 l1) as [[people w2] l2].
    pose proof (accounts_cleared Rn (f_accts s) 0 (f_year s) w2 l2 T3 L ltac:(intros; lia)) as A3.
    destruct (advance (real_env c) NextAccount 0 (f_accts s) (f_year s + 1) w2 l2) as [[ac w3] l3].
    destruct (carryover_tax _ w3 _ adj) as [a2|]; [|discriminate]. cbn [bind] in H. injection H as <-. exact A3.
  Qed.

  Lemma Q2R_sum : forall l, Q2R (Qsum l) = Rsum (map Q2R l).
  Proof. induction l as [|x l IH]; cbn [Qsum Rsum map]; [unfold Q2R; cbn; lra|]. rewrite Q2R_plus, IH. reflexivity. Qed.
  Lemma money_total d : Rsum (dvals (money d)) = Q2R (total d).
  Proof. unfold total, dvals, money. rewrite Q2R_sum, !map_map. reflexivity. Qed.
  Lemma Rsum_add {A} (f g : A -> R) : forall l, Rsum (map (fun a => f a + g a) l) = Rsum (map f l) + Rsum (map g l).
  Proof. induction l as [|x l IH]; cbn; [lra|]. rewrite IH. lra. Qed.
  Lemma Rsum_ext {A} (f g : A -> R) : forall l, (forall a, In a l -> f a = g a) -> Rsum (map f l) = Rsum (map g l).
  Proof. intros l H. f_equal. now apply map_ext_in. Qed.
  Lemma Qsum_ext_in {A} (f g : A -> Q) : forall l, (forall a, In a l -> (f a == g a)%Q) -> (Qsum (map f l) == Qsum (map g l))%Q.
  Proof. induction l as [|x l IH]; intros H; cbn [map Qsum]; [reflexivity|]. rewrite IH by (intros; apply H; now right). rewrite (H x) by now left. reflexivity. Qed.
  Lemma Qsum_plus {A} (f g : A -> Q) : forall l, (Qsum (map (fun a => f a + g a) l) == Qsum (map f l) + Qsum (map g l))%Q.
  Proof. induction l as [|x l IH]; cbn [map Qsum]; [Lqa.lra|]. rewrite IH. Lqa.lra. Qed.

  (** one year: cash and what the accounts have received *)
  Lemma year_worth : sound c -> own_accounts -> usable_env (real_env c) -> forall s s1 s2, Datatypes.length (f_subs s) = 5%nat -> fresh (f_world s) -> paid_people (hh_people (f_world s)) -> opening s ->
    call_subforecasts (real_env c) s = Ok s1 -> HorizonModel.next_year (real_env c) s1 = Ok s2 ->
    exists gross living tax withheld,
      (gross == Qsum (map p_gross (hh_people (f_world s))))%Q /\
      c_living c (hh_rest (f_world s)) (hh_people (f_world s)) (s_year (hh_living (f_world s))) = Ok living /\
      c_owing c (hh_rest (f_world s1)) (hh_heap (f_world s1)) (hh_people (f_world s1)) = Ok tax /\
      (withheld == Qsum (map (c_wh c (hh_rest (f_world s1)) (hh_heap (f_world s1))) (union_accts (hh_people (f_world s1)))))%Q /\
      (total (f_avail s2) + Qsum (map (fun a => total (hget (hh_heap (f_world s1)) a)) accts) ==
        total (f_avail s) + gross - living - tax + withheld + (withheld_of s1 - withheld_of s))%Q /\
      ((forall x h a, c_wh c x h a == 0)%Q -> (withheld_of s1 - withheld_of s == 0)%Q).
  Proof.
    intros Sd (Nd & N0 & Sv & Wd) U s s1 s2 L F P [_ Op] E1 E2.
    destruct (year_full c s s1 Sd L F P E1) as (living & p1 & p2 & held & h1 & h2 & Y1 & Y2 & Y3 & (S1 & S2 & S3 & S4) & Y4 & Y5 & Y6 & _ & _ & Y7 & Y8 & _).
    destruct Sd as (_ & Sd1 & _). destruct (Sd1 _ _ _ Y2) as [D1 _]. destruct (Wd _ _ _ Y3) as [D2 W2].
    destruct (C67_year_start _ (real_env c) s1 s2 U E2) as [C _]. unfold carried in C.
    destruct (tax_adjustment (c_wh c (hh_rest (f_world s1)) (hh_heap (f_world s1))) (c_owing c (hh_rest (f_world s1)) (hh_heap (f_world s1)) (hh_people (f_world s1))) (hh_people (f_world s1))) as [a|e] eqn:Ea.
    2:{ exfalso. unfold HorizonModel.next_year in E2. cbn [real_env e_adj] in E2. rewrite Ea in E2. discriminate. }
    cbn [real_env e_adj] in C. rewrite Ea in C. cbn [bind] in C. unfold tax_adjustment in Ea.
    destruct (tax_withheld _ (hh_people (f_world s1))) as [wh|] eqn:Ew; [|discriminate]. cbn [bind] in Ea.
    destruct (c_owing c _ _ _) as [tax|] eqn:Eo; [|discriminate]. cbn [bind] in Ea. injection Ea as Ea.
    assert (Ew' : (wh == Qsum (map p_withheld (hh_people (f_world s))) + Qsum (map (c_wh c (hh_rest (f_world s1)) (hh_heap (f_world s1))) (union_accts (hh_people (f_world s1)))))%Q).
    { rewrite Y5 in Ew |- *. unfold tax_withheld in Ew. destruct (hh_people (f_world s)); [discriminate|]. injection Ew as <-. reflexivity. }
    exists (Qsum (map p_gross (hh_people (f_world s)))), living, tax, (Qsum (map (c_wh c (hh_rest (f_world s1)) (hh_heap (f_world s1))) (union_accts (hh_people (f_world s1))))).
    split; [reflexivity|]. split; [exact Y1|]. split; [reflexivity|]. split; [reflexivity|]. split.
    - pose proof (planned_sum p1 accts D1 Nd (Sv _ _ _ Y2)) as M1. pose proof (planned_sum p2 accts D2 Nd W2) as M2. unfold savings_total in M1, M2.
      assert (A : (Qsum (map (fun a => total (hget (hh_heap (f_world s1)) a)) accts) == Qsum (map (fun a => Qsum (dvals (planned p1 a))) accts) + Qsum (map (fun a => Qsum (dvals (planned p2 a))) accts))%Q).
      { rewrite <- Qsum_plus. apply Qsum_ext_in. intros b Hb. assert (Nb : b <> 0%nat) by (intros ->; contradiction).
        specialize (Y7 D2 b Nb). specialize (S2 b Nb). specialize (S4 b Nb). unfold htotal in *. unfold total in *. rewrite (Op b Hb) in S2. cbn in S2. Lqa.lra. }
      unfold withheld_of. rewrite <- Y4. rewrite Y6 in C. rewrite <- Ea in C. rewrite Ew' in C. Lqa.lra.
    - intros Z. unfold withheld_of. rewrite <- Y4. exact (Y8 Z).
  Qed.
  Lemma close_worth : forall bal h y, (Rsum (map (fun a => a_bal (AccountModel.next_year (ledger_of rate nper bal h y a))) accts) =
    Rsum (map bal accts) + Q2R (Qsum (map (fun a => total (hget h a)) accts)) + Rsum (map (fun a => returns (ledger_of rate nper bal h y a)) accts)).
  Proof.
    intros bal h y. rewrite Q2R_sum, map_map, <- !Rsum_add. apply Rsum_ext. intros a _.
    destruct (Prop_Account.C19_conservation_partial (ledger_of rate nper bal h y a) eq_refl) as [H _]. rewrite H. cbn [a_bal a_txns ledger_of]. rewrite money_total. reflexivity.
  Qed.
  (** ** Theorems *)
  (** Over any number of years, with accounts at constant rates: the change in net worth is gross income less
      living expenses and tax, plus the accounts' returns -- and plus the tax the accounts withheld, and what
      the withdrawal forecast books for it (missing: it should not depend on the withholding, see
      [C109_withholding_creates_money_refuted]; rates that vary, see C19). *)
  Theorem C109_net_worth_partial : sound c -> keeps_paid c -> usable_env (real_env c) -> own_accounts -> renews ->
    forall n s bal s' bal', together s -> Datatypes.length (f_subs s) = 5%nat -> fresh (f_world s) -> paid_people (hh_people (f_world s)) -> opening s ->
    live n s bal = Ok (s', bal') ->
    exists rows, Datatypes.length rows = n /\ figures rows s bal /\
      net_worth s' bal' = net_worth s bal + Q2R (Qsum (map y_gross rows) - Qsum (map y_living rows) - Qsum (map y_tax rows)) + Rsum (map y_returns rows)
        + Q2R (Qsum (map y_withheld rows) + (withheld_of s' - withheld_of s)) /\
      ((forall x h a, c_wh c x h a == 0)%Q -> Q2R (Qsum (map y_withheld rows) + (withheld_of s' - withheld_of s)) = 0).
  Proof.
    intros Sd K U Ow Rn n. induction n as [|n IH]; intros s bal s' bal' T L F P Op H; cbn [live] in H.
    - injection H as <- <-. exists []. split; [reflexivity|]. split; [exact I|]. cbn [map Qsum Rsum].
      replace (Q2R (0 - 0 - 0)) with 0 by (unfold Q2R; cbn; lra). rewrite (Qeq_eqR (0 + (withheld_of s - withheld_of s)) 0) by Lqa.lra. replace (Q2R 0) with 0 by (unfold Q2R; cbn; lra). split; [lra|auto].
    - destruct (call_subforecasts (real_env c) s) as [s1|] eqn:E1; [|discriminate]. cbn [bind] in H.
      destruct (HorizonModel.next_year (real_env c) s1) as [s2|] eqn:E2; [|discriminate]. cbn [bind] in H.
      destruct (year_worth Sd Ow U s s1 s2 L F P Op E1 E2) as (g & l & t & w & Y1 & Y2 & Y3 & Y4 & Y5 & Y6).
      pose proof (call_together _ _ _ _ T E1) as T1.
      destruct (call_from_shape _ _ _ _ _ _ (E1 : call_from _ _ _ _ = Ok s1)) as (Sh1 & Sh2 & Sh3 & Sh4 & _).
      assert (L1 : Datatypes.length (f_subs s1) = 5%nat) by (now rewrite Sh2).
      assert (P1 : paid_people (hh_people (f_world s1))). { destruct (year_full c s s1 Sd L F P E1) as (? & ? & ? & ? & ? & ? & _ & _ & _ & _ & _ & -> & _). exact P. }
      destruct (fresh_next c s1 s2 K T1 L1 P1 E2) as (F2 & P2 & W2). destruct (next_year_shape _ _ _ _ T1 E2) as (_ & T2 & L2 & _).
      assert (Op2 : opening s2) by (apply (next_opening Rn s1 s2 T1); [rewrite Sh4; apply Op|exact E2]).
      destruct (IH s2 _ s' bal' T2 ltac:(rewrite L2; exact L1) F2 P2 Op2 H) as (rows & R1 & R2 & R3 & R4).
      exists ({| y_gross := g; y_living := l; y_tax := t; y_withheld := w;
                 y_returns := Rsum (map (fun a => returns (ledger_of rate nper bal (hh_heap (f_world s1)) (f_year s1) a)) accts) |} :: rows).
      split; [cbn; now rewrite R1|]. split; [exists s1, s2; cbn [y_gross y_living y_tax y_withheld y_returns]; repeat split; auto|]. split.
      + rewrite R3. unfold net_worth. rewrite close_worth. cbn [map Qsum Rsum y_gross y_living y_tax y_withheld y_returns].
        apply Qeq_eqR in Y5. rewrite !Q2R_plus, !Q2R_minus in *. rewrite !Q2R_plus in *. rewrite W2. lra.
      + intros Z. specialize (R4 Z). specialize (Y6 Z). cbn [map Qsum y_withheld].
        assert (Zw : (w == 0)%Q). { rewrite Y4. generalize (union_accts (hh_people (f_world s1))) as u. induction u as [|x u IHu]; cbn [map Qsum]; [reflexivity|]. rewrite IHu, Z. Lqa.lra. }
        rewrite W2 in R4. rewrite (Qeq_eqR _ (Qsum (map y_withheld rows) + (withheld_of s' - withheld_of s1))%Q); [exact R4|]. rewrite Zw. Lqa.lra.
  Qed.
End Household.
Print Assumptions C109_net_worth_partial.
(** [live] is the forecast's own loop over the years *)
Lemma live_runs : forall {St} (c : config St) rate nper n s bal s', run_years (real_env c) n s = Ok s' -> exists bal', live c rate nper n s bal = Ok (s', bal').
Proof.
  intros St c rate nper n. induction n as [|n IH]; intros s bal s' H; cbn [run_years live] in *; [injection H as <-; eauto|].
  destruct (call_subforecasts (real_env c) s) as [s1|]; [|discriminate]. cbn [bind] in *. destruct (HorizonModel.next_year (real_env c) s1) as [s2|]; [|discriminate]. cbn [bind] in *. now apply IH.
Qed.
(** Where no account withholds tax, money neither appears nor disappears: over any number of years net worth
    changes by gross income, living expenses, tax and returns only. *)
Theorem C109_no_withholding_partial : forall St (c : config St) rate nper accts, (forall x h a, c_wh c x h a == 0)%Q ->
  sound c -> keeps_paid c -> usable_env (real_env c) -> own_accounts c accts -> renews c accts ->
  forall n s bal s', together s -> Datatypes.length (f_subs s) = 5%nat -> fresh (f_world s) -> paid_people (hh_people (f_world s)) -> opening accts s ->
  run_years (real_env c) n s = Ok s' ->
  exists bal' rows, live c rate nper n s bal = Ok (s', bal') /\ Datatypes.length rows = n /\ figures c rate nper accts rows s bal /\
    net_worth accts s' bal' = net_worth accts s bal + Q2R (Qsum (map y_gross rows) - Qsum (map y_living rows) - Qsum (map y_tax rows)) + Rsum (map y_returns rows).
Proof.
  intros St c rate nper accts Z Sd K U Ow Rn n s bal s' T L F P Op H. destruct (live_runs c rate nper n s bal s' H) as [bal' Lv].
  destruct (C109_net_worth_partial c rate nper accts Sd K U Ow Rn n s bal s' bal' T L F P Op Lv) as (rows & R1 & R2 & R3 & R4).
  exists bal', rows. repeat split; auto. rewrite R3, (R4 Z). lra.
Qed.
Print Assumptions C109_no_withholding_partial.

(** ** A household whose account withholds 30% of withdrawals *)
Definition renewing (ev : event) (w : Q * heap * list person) : Q * heap * list person :=
  let '(x, h, ps) := w in match ev with NextAccount i _ => ((x + 1)%Q, hset h (S i) [], ps) | _ => w end.
Definition wh_cfg : config Q := {|
  c_kinds := fun _ => None; c_default := [(0, 1)%Q]; c_living := fun _ _ _ => Ok 60%Q;
  c_save := fun _ _ => Ok [(2%nat, [(1, 20)%Q])]; c_withdraw := fun _ _ => Ok [(1%nat, [((1 # 2)%Q, (-1000)%Q)])];
  c_wh := fun _ => wh30; c_owing := fun _ _ _ => Ok 0%Q; c_refund := None; c_pay := None; c_next := renewing |}.
Definition dora : person := {| p_gross := 100; p_withheld := 0; p_timing := [((1 # 2)%Q, 1%Q)]; p_accts := [1%nat; 2%nat]; p_retire := Some 2000%Z |}.
Definition wh_world : world Q := {| hh_rest := 0%Q; hh_heap := [(0%nat, []); (1%nat, []); (2%nat, [])]; hh_people := [dora];
  hh_income := new_sub 2000; hh_living := new_sub 2000; hh_saving := new_sub 2000; hh_withdrawal := {| w_sub := new_sub 2000; w_withheld := 0 |} |}.
Definition wh_forecast : fstate (world Q) := {| f_year := 2000; f_avail := []; f_world := wh_world; f_subs := [2000; 2000; 2000; 2000; 2000]%Z; f_people := [2000]%Z; f_accts := [2000; 2000]%Z; f_log := [] |}.
Lemma two_renewed c : c_next c = renewing -> renews c [1; 2]%nat.
Proof.
  intros E. split; rewrite E; [|reflexivity]. intros i y x h ps a H. exists (x + 1)%Q. destruct i as [|[|i]]; cbn in H; [injection H as <-; reflexivity|injection H as <-; reflexivity|destruct i; discriminate].
Qed.
Lemma wh_ok : sound wh_cfg /\ keeps_paid wh_cfg /\ usable_env (real_env wh_cfg) /\ own_accounts wh_cfg [1; 2]%nat /\ renews wh_cfg [1; 2]%nat /\
  together wh_forecast /\ fresh wh_world /\ paid_people [dora] /\ opening [1; 2]%nat wh_forecast.
Proof.
  split.
  { split; [reflexivity|]. split; intros x h pl E; cbn [wh_cfg c_save c_withdraw] in E; injection E as <-; cbn.
    - split; [repeat constructor; intuition|intuition discriminate].
    - split; [|intuition discriminate]. intros al [<-|[]]. split; [discriminate|]. left. repeat constructor. cbn. Lqa.lra. }
  split; [intros ev x h ps P; destruct ev; exact P|]. split; [split; intros w tm E; discriminate E|].
  split. { split; [repeat constructor; cbn; intuition discriminate|]. split; [cbn; intuition discriminate|]. split; intros x h pl E; cbn [wh_cfg c_save c_withdraw] in E; injection E as <-.
    - cbn. tauto.
    - split; [repeat constructor; cbn; tauto|]. cbn. tauto. }
  split; [now apply two_renewed|]. split; [repeat split; repeat constructor|]. split; [repeat split|].
  split. { split; [discriminate|]. intros p [<-|[]]. split; [split; [reflexivity|exact I]|]. vm_compute. discriminate. }
  split; [reflexivity|]. intros a [<-|[<-|[]]]; reflexivity.
Qed.
Lemma flat t n : accumulation_function t 0 n = 1.
Proof.
  destruct n as [n|]; cbn [accumulation_function]; [|rewrite Rmult_0_l; apply exp_0].
  replace (1 + 0 / IZR (Z.pos n)) with 1 by (unfold Rdiv; lra). unfold Rpower. rewrite ln_1, Rmult_0_r. apply exp_0.
Qed.
Lemma flat_returns nper bal h y a : returns (ledger_of (fun _ => 0) nper bal h y a) = 0.
Proof.
  unfold returns, growth, AccountModel.rate. cbn [ledger_of a_bal a_rate a_nper a_txns a_year]. rewrite flat.
  assert (K : forall l, Rsum (map (fun kv : R * R => snd kv * (accumulation_function (1 - fst kv) 0 (nper a) - 1)) l) = 0) by (induction l as [|kv l IH]; cbn [map Rsum]; [reflexivity|]; rewrite IH, flat; lra).
  rewrite K. lra.
Qed.
(** 100 is earned, 60 spent, 20 saved and 1000 withdrawn, of which 300 is withheld; no tax is owing and
    nothing earns any returns: net worth should rise by 40 and rises by 640. *)
Theorem C109_withholding_creates_money_refuted : forall bal, exists s' bal' r,
  live wh_cfg (fun _ => 0) (fun _ => Some 1%positive) 1 wh_forecast bal = Ok (s', bal') /\ figures wh_cfg (fun _ => 0) (fun _ => Some 1%positive) [1; 2]%nat [r] wh_forecast bal /\
  (y_gross r == 100 /\ y_living r == 60 /\ y_tax r == 0)%Q /\ y_returns r = 0 /\
  net_worth [1; 2]%nat s' bal' = net_worth [1; 2]%nat wh_forecast bal + 640.
Proof.
  intros bal. destruct wh_ok as (Sd & K & U & Ow & Rn & T & F & P & Op).
  destruct (run_years (real_env wh_cfg) 1 wh_forecast) as [s'|] eqn:E; [|vm_compute in E; discriminate].
  destruct (live_runs wh_cfg (fun _ => 0) (fun _ => Some 1%positive) 1 wh_forecast bal s' E) as [bal' Lv].
  destruct (C109_net_worth_partial wh_cfg (fun _ => 0) (fun _ => Some 1%positive) [1; 2]%nat Sd K U Ow Rn 1 wh_forecast bal s' bal' T eq_refl F P Op Lv) as (rows & R1 & R2 & R3 & _).
  destruct rows as [|r [|? ?]]; try discriminate R1. pose proof R2 as R2'. cbn [figures] in R2'. destruct R2' as (s1 & s2 & C1 & N1 & G1 & G2 & G3 & G4 & G5 & _).
  exists s', bal', r. split; [exact Lv|]. split; [exact R2|]. cbn [wh_cfg c_living c_owing] in G2, G3. injection G2 as G2. injection G3 as G3.
  assert (Gr : (y_gross r == 100)%Q) by (rewrite G1; vm_compute; reflexivity).
  assert (Wh : (y_withheld r == 300)%Q). { rewrite G4. clear -C1. vm_compute in C1. injection C1 as <-. vm_compute. reflexivity. }
  assert (Wo : (withheld_of s' - withheld_of wh_forecast == 300)%Q). { clear -E. vm_compute in E. injection E as <-. vm_compute. reflexivity. }
  assert (Rt : y_returns r = 0) by (rewrite G5; cbn [map Rsum]; rewrite !flat_returns; lra).
  split; [split; [exact Gr|]; rewrite <- G2, <- G3; split; reflexivity|]. split; [exact Rt|].
  rewrite R3. cbn [map Qsum Rsum]. rewrite Rt.
  rewrite (Qeq_eqR (y_gross r + 0 - (y_living r + 0) - (y_tax r + 0)) 40) by (rewrite Gr, <- G2, <- G3; Lqa.lra).
  rewrite (Qeq_eqR (y_withheld r + 0 + (withheld_of s' - withheld_of wh_forecast)) 600) by (rewrite Wh, Wo; Lqa.lra).
  replace (Q2R 40) with 40 by (unfold Q2R; cbn; lra). replace (Q2R 600) with 600 by (unfold Q2R; cbn; lra). lra.
Qed.
Print Assumptions C109_withholding_creates_money_refuted.

(** three years of a household without withholding: an account at 10%, one at 0 *)
(** the amount drawn depends on the rest of the world, which changes from year to year *)
Definition plain_cfg : config Q := {|
  c_kinds := fun _ => None; c_default := [(0, 1)%Q]; c_living := fun _ _ _ => Ok 60%Q;
  c_save := fun _ h => Ok [(1%nat, [(1%Q, (Qsum (dvals (hget h 0)) - 10)%Q)])]; c_withdraw := fun x _ => Ok [(2%nat, [((1 # 2)%Q, (- qabs x)%Q)])];
  c_wh := fun _ _ _ => 0%Q; c_owing := fun _ _ _ => Ok 25%Q; c_refund := None; c_pay := None; c_next := renewing |}.
Example C109_sat : (forall x h a, c_wh plain_cfg x h a == 0)%Q /\ sound plain_cfg /\ keeps_paid plain_cfg /\ usable_env (real_env plain_cfg) /\
  own_accounts plain_cfg [1; 2]%nat /\ renews plain_cfg [1; 2]%nat /\ together wh_forecast /\ fresh (f_world wh_forecast) /\ paid_people (hh_people (f_world wh_forecast)) /\ opening [1; 2]%nat wh_forecast /\
  exists s', run_years (real_env plain_cfg) 3 wh_forecast = Ok s' /\ ~ (total (f_avail s') == 0)%Q.
Proof.
  destruct wh_ok as (_ & _ & _ & _ & _ & T & F & P & Op). split; [reflexivity|]. split.
  { split; [reflexivity|]. split; intros x h pl E; cbn [plain_cfg c_save c_withdraw] in E; injection E as <-; cbn.
    - split; [repeat constructor; intuition|intuition discriminate].
    - split; [|intuition discriminate]. intros al [<-|[]]. split; [discriminate|]. left. repeat constructor. cbn. destruct (qabs_case x) as [[? ?]|[? ?]]; Lqa.lra. }
  split; [intros ev x h ps Q; destruct ev; exact Q|]. split; [split; intros w tm E; discriminate E|].
  split. { split; [repeat constructor; cbn; intuition discriminate|]. split; [cbn; intuition discriminate|]. split; intros x h pl E; cbn [plain_cfg c_save c_withdraw] in E; injection E as <-.
    - cbn. tauto.
    - split; [repeat constructor; cbn; tauto|]. cbn. tauto. }
  split; [now apply two_renewed|]. do 4 (split; [assumption|]).
  destruct (run_years (real_env plain_cfg) 3 wh_forecast) as [s'|] eqn:E; [|vm_compute in E; discriminate].
  exists s'. split; [reflexivity|]. vm_compute in E. injection E as <-. vm_compute. discriminate.
Qed.
