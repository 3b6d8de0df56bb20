(** Properties C47-C49 and C73 of people. *)
From Verif Require Import Base BaseFacts LedgerModel LedgerProofs PersonModel PersonSpec PersonProofs.
From Coq Require Import Lia.

(** ** C47 *)
(** As long as nobody is married to somebody who already has another partner, every sequence of
    assignments keeps marriage symmetric (hence one-to-one). *)
Theorem C47_symmetric_orderly_partial : forall h,
  all_orderly (fun _ => None) h -> symmetric (run_spouses h (fun _ => None)).
Proof. intros h H. apply run_spouses_symmetric; [|exact H]. intros i j E. discriminate. Qed.
Print Assumptions C47_symmetric_orderly_partial.
(** one assignment does what it says, whatever the state *)
Theorem C47_assignment : forall sp i k, i <> k ->
  set_spouse sp i (Some k) i = Some k /\ set_spouse sp i (Some k) k = Some i /\ set_spouse sp i None i = None.
Proof.
  intros sp i k H. unfold set_spouse. destruct (sp i); rewrite !upd_fn_eq, !Nat.eqb_refl;
  (destruct (Nat.eqb_spec k i) as [E|E]; [congruence|]); repeat split.
Qed.
Print Assumptions C47_assignment.
(** ... but remarrying somebody's partner leaves the abandoned person still pointing at them *)
Theorem C47_symmetric_refuted :
  ~ forall h, symmetric (run_spouses h (fun _ => None)).
Proof. intro H. specialize (H [(0%nat, Some 1%nat); (2%nat, Some 1%nat)] 0%nat 1%nat eq_refl). discriminate. Qed.
Print Assumptions C47_symmetric_refuted.
Example C47_sat : all_orderly (fun _ => None)
  [(0%nat, Some 1%nat); (1%nat, None); (1%nat, Some 2%nat); (0%nat, Some 3%nat); (2%nat, Some 1%nat)].
Proof. cbn. unfold set_spouse, upd_fn. cbn. tauto. Qed.

(** ** C48 *)
Definition no_accounts : ostate := {| os_owner := fun _ => None; os_accts := fun _ => [] |}.
Theorem C48_owners_consistent_partial : forall h,
  (forall a v, In (a, v) h -> v <> VNotAPerson) -> owners_agree (run_owners h no_accounts).
Proof. intros h H. apply run_owners_agree; [|exact H]. intros a p. cbn. split; [tauto|discriminate]. Qed.
Print Assumptions C48_owners_consistent_partial.
(** from any consistent state, assigning a person or None succeeds, takes effect and changes no
    other account's owner *)
Theorem C48_assignment_takes_effect : forall s a v, owners_agree s -> v <> VNotAPerson ->
  snd (set_owner s a v) = None /\
  os_owner (fst (set_owner s a v)) a = match v with VPerson q => Some q | _ => None end /\
  (forall b, b <> a -> os_owner (fst (set_owner s a v)) b = os_owner s b).
Proof. intros s a v H Hv. destruct (set_owner_agree s a v H Hv) as (_ & K). exact K. Qed.
Print Assumptions C48_assignment_takes_effect.
(** An assignment that is refused with TypeError nevertheless removes the account from its
    owner's set, and the account can then never be reassigned (KeyError). *)
Theorem C48_refused_assignment_refuted :
  ~ forall h, owners_agree (run_owners h no_accounts).
Proof.
  intro H. specialize (H [(0%nat, VPerson 1); (0%nat, VNotAPerson)] 0%nat 1%nat).
  cbn in H. destruct H as [_ H]. exact (H eq_refl).
Qed.
Print Assumptions C48_refused_assignment_refuted.
Theorem C48_stuck_after_refusal_refuted : forall s a p v, os_owner s a = Some p -> In a (os_accts s p) ->
  let s1 := fst (set_owner s a VNotAPerson) in
  snd (set_owner s a VNotAPerson) = Some TypeError /\ set_owner s1 a v = (s1, Some KeyError).
Proof.
  intros s a p v E Hin. apply existsb_in in Hin. cbn zeta.
  set (s1 := {| os_owner := os_owner s; os_accts := upd_fn (os_accts s) p (remove_id a (os_accts s p)) |}).
  assert (R : set_owner s a VNotAPerson = (s1, Some TypeError)) by (unfold set_owner; rewrite E, Hin; reflexivity).
  rewrite R. cbn [fst snd]. split; [reflexivity|]. unfold set_owner. change (os_owner s1 a) with (os_owner s a). rewrite E.
  change (os_accts s1 p) with (upd_fn (os_accts s) p (remove_id a (os_accts s p)) p). rewrite upd_fn_eq, Nat.eqb_refl.
  assert (X : existsb (Nat.eqb a) (remove_id a (os_accts s p)) = false).
  { destruct (existsb (Nat.eqb a) (remove_id a (os_accts s p))) eqn:F; [|reflexivity].
    apply existsb_in, in_remove in F. tauto. }
  rewrite X. reflexivity.
Qed.
Print Assumptions C48_stuck_after_refusal_refuted.
Example C48_sat : owners_agree (run_owners [(0%nat, VPerson 1); (2%nat, VPerson 1); (0%nat, VPerson 3); (2%nat, VNone)] no_accounts)
  /\ os_accts (run_owners [(0%nat, VPerson 1); (2%nat, VPerson 1); (0%nat, VPerson 3); (2%nat, VNone)] no_accounts) 3%nat = [0%nat].
Proof.
  split; [|reflexivity]. apply C48_owners_consistent_partial. intros a v H. cbn in H.
  repeat (destruct H as [H|H]; [injection H as <- <-; discriminate|]). destruct H.
Qed.

(** ** C49 *)
(** Whatever reads, advances, assignments of other properties and changes to accounts happen,
    every read of an income property returns the value the raise/retirement rule gives. *)
Theorem C49_income : forall P order y0 gross n m e s0 os s p v s',
  In GROSS order ->
  person_init P order y0 gross e = Some s0 -> Forall leaves_income os ->
  steps (person_class P order) n s0 os = Some s ->
  getp (person_class P order) m s p = Some (v, s') ->
  (p = GROSS -> v = gross_in P y0 gross (year s)) /\
  (p = WITHHELD -> v = withheld_in P y0 gross (year s)) /\
  (p = NET -> v = net_in P y0 gross (year s)) /\
  (p = RAISE -> v = raise_in P (year s)).
Proof.
  intros P order y0 gross n m e s0 os s p v s' Hord H1 H2 H3 H4.
  assert (H : In p [GROSS; NET; RAISE; WITHHELD] -> v = val P y0 gross p (year s)).
  { intro Hp. eapply income_read; eassumption. }
  repeat split; intros ->; apply H; cbn; tauto.
Qed.
Print Assumptions C49_income.
(** ... and so do the recorded histories *)
Theorem C49_history : forall P order y0 gross n e s0 os s y,
  In GROSS order ->
  person_init P order y0 gross e = Some s0 -> Forall leaves_income os ->
  steps (person_class P order) n s0 os = Some s -> (y0 <= y < year s)%Z ->
  hist s GROSS y = Some (gross_in P y0 gross y).
Proof. intros. eapply income_past; eassumption. Qed.
Print Assumptions C49_history.
(** reads do not fail as long as the raise rate is known for every year *)
Theorem C49_readable : forall P order y0 gross n m e s0 os s p,
  In GROSS order ->
  person_init P order y0 gross e = Some s0 -> Forall leaves_income os ->
  steps (person_class P order) n s0 os = Some s -> (forall y, pp_raise P y <> None) ->
  In p [GROSS; NET; RAISE; WITHHELD] -> exists v s', getp (person_class P order) (4 + m) s p = Some (v, s').
Proof. intros. eapply income_readable; eassumption. Qed.
Print Assumptions C49_readable.
(** the rule itself, read as English: growth by the raise up to and including the retirement
    year, zero afterwards, net = gross - withheld, inputs taking precedence *)
Theorem C49_rule : forall P y0 gross y, (y0 < y)%Z ->
  pp_inputs P GROSS y = None -> pp_inputs P NET y = None ->
  (forall r, pp_retire P = Some r -> (r < y)%Z -> gross_in P y0 gross y = 0) /\
  ((forall r, pp_retire P = Some r -> (y <= r)%Z) -> gross_in P y0 gross y = gross_in P y0 gross (y - 1) * (1 + raise_in P y)) /\
  net_in P y0 gross y = gross_in P y0 gross y - withheld_in P y0 gross y.
Proof.
  intros P y0 gross y Hy Hg Hn. split; [|split].
  - intros r Hr Hlt. rewrite gross_in_next by exact Hy. unfold or_input, retired_in. rewrite Hg, Hr.
    apply Z.ltb_lt in Hlt. rewrite Hlt. reflexivity.
  - intro Hr. rewrite gross_in_next by exact Hy. unfold or_input, retired_in. rewrite Hg.
    destruct (pp_retire P) as [r|]; [|reflexivity]. specialize (Hr r eq_refl). destruct (Z.ltb_spec r y); [lia|reflexivity].
  - unfold net_in, or_input. rewrite Hn. reflexivity.
Qed.
Print Assumptions C49_rule.
Definition C49_P : pparams := {| pp_retire := Some 2002%Z; pp_raise := fun _ => Some (1#10); pp_tax := Some (fun g _ => g / 4); pp_inputs := fun p y => if (Nat.eqb p GROSS && Z.eqb y 2001)%bool then Some 500 else None |}.
Definition C49_order : list nat := [NET; GROSS; RAISE; TAXABLE; WITHHELD; CREDIT; DEDUCTION].
Definition C49_env : acct_sums := {| s_taxable := [7]; s_deduction := []; s_credit := [] |}.
Definition C49_run : option (Q * Q * Q) :=
  match person_init C49_P C49_order 2000 100 C49_env with
  | None => None
  | Some s0 => match steps (person_class C49_P C49_order) 9 s0 [ONext; OGet NET; ONext] with
    | None => None
    | Some s => match getp (person_class C49_P C49_order) 9 s GROSS, steps (person_class C49_P C49_order) 9 s [ONext] with
        | Some (g, _), Some s' => match getp (person_class C49_P C49_order) 9 s' GROSS, getp (person_class C49_P C49_order) 9 s NET with
            | Some (g', _), Some (n, _) => Some (Qred g, Qred g', Qred n) | _, _ => None end
        | _, _ => None end
    end
  end.
Example C49_sat : C49_run = Some (550, 0, 825 # 2).
Proof. vm_compute. reflexivity. Qed.
(** Clearing the cache in the first year loses the income the person was constructed with: every
    later read raises. *)
Theorem C49_clear_cache_refuted : forall P order y0 gross e s0 s n, In GROSS order ->
  (forall r, pp_retire P = Some r -> (y0 <= r)%Z) -> pp_inputs P GROSS y0 = None ->
  person_init P order y0 gross e = Some s0 ->
  hist s0 GROSS (y0 - 1) = None ->
  steps (person_class P order) n s0 [OClear] = Some s -> getp (person_class P order) n s GROSS = None.
Proof.
  intros P order y0 gross e s0 s n Hin Hr Hn H0 Hpast H. cbn in H. injection H as <-.
  apply person_init_inv in H0. destruct H0 as [_ Hy].
  assert (K : forall ps s1, year s1 = y0 -> hist s1 GROSS (y0 - 1) = None ->
    let s2 := fold_left (deleter (person_class P order)) ps s1 in
    year s2 = y0 /\ hist s2 GROSS (y0 - 1) = None /\ (In GROSS ps \/ hist s1 GROSS y0 = None -> hist s2 GROSS y0 = None)).
  { induction ps as [|p ps IH]; intros s1 E1 E2; [cbn; tauto|]. cbn [fold_left].
    set (s3 := deleter (person_class P order) s1 p).
    assert (E3 : year s3 = y0) by (unfold s3, deleter; destruct (has_input _ s1 p); exact E1).
    assert (E4 : hist s3 GROSS (y0 - 1) = None).
    { unfold s3, deleter. destruct (has_input _ s1 p); [exact E2|]. cbn. rewrite upd_other by (right; rewrite E1; lia). exact E2. }
    destruct (IH s3 E3 E4) as (A & B & D). split; [exact A|]. split; [exact B|]. intro Hor. apply D.
    destruct (Nat.eq_dec GROSS p) as [<-|Hne].
    - right. unfold s3, deleter, has_input. cbn [inputs person_class]. rewrite E1, Hn. cbn [put hist fdel person_class]. apply upd_same.
    - destruct Hor as [[Hx|Hx]|Hx]; [congruence|left; exact Hx|right].
      unfold s3, deleter. destruct (has_input _ s1 p); [exact Hx|]. cbn. rewrite upd_other by (left; exact Hne). exact Hx. }
  unfold clear_cache. destruct (K (filter person_cached order) s0 Hy Hpast) as (A & B & D).
  assert (D' : hist (fold_left (deleter (person_class P order)) (filter person_cached order) s0) GROSS y0 = None).
  { apply D. left. apply filter_In. split; [exact Hin|reflexivity]. }
  change (cached (person_class P order)) with person_cached. change (props (person_class P order)) with order.
  set (s2 := fold_left (deleter (person_class P order)) (filter person_cached order) s0) in *.
  unfold getp, get_with. rewrite A, D'. change (fget (person_class P order) GROSS) with (person_fget P GROSS).
  destruct n as [|n]; [reflexivity|]. cbn. rewrite A.
  assert (Hb : match pp_retire P with Some r => Z.ltb r y0 | None => false end = false).
  { destruct (pp_retire P) as [r|]; [|reflexivity]. specialize (Hr r eq_refl). apply Z.ltb_ge. exact Hr. }
  rewrite Hb. change (y0 - 1)%Z with (y0 - 1)%Z in B. rewrite A, B. reflexivity.
Qed.
Print Assumptions C49_clear_cache_refuted.

(** ** C73 *)
(** the calendar of the model is the Gregorian one: leap years are the multiples of 4 that are not
    centuries, except multiples of 400; 29 February exists exactly in those years, and consecutive
    400-year periods are alike *)
Theorem C73_calendar : forall y,
  (leap y = true <-> (4 | y)%Z /\ (~ (100 | y)%Z \/ (400 | y)%Z)) /\
  (valid_date {| d_y := y; d_m := 2; d_d := 29 |} <-> leap y = true) /\
  valid_date {| d_y := y; d_m := 2; d_d := 28 |} /\
  (forall m d, valid_date {| d_y := y; d_m := m; d_d := d |} ->
     (1 <= m <= 12 /\ 1 <= d <= 31 /\ (In m [4; 6; 9; 11] -> d <= 30) /\ (m = 2 -> d <= 29))%Z) /\
  (forall m d, (1 <= m <= 12 -> m <> 2 -> 1 <= d <= 30 -> valid_date {| d_y := y; d_m := m; d_d := d |})%Z) /\
  (forall m, (In m [1; 3; 5; 7; 8; 10; 12] -> valid_date {| d_y := y; d_m := m; d_d := 31 |})%Z).
Proof.
  intro y.
  assert (L : leap y = true <-> (4 | y)%Z /\ (~ (100 | y)%Z \/ (400 | y)%Z)).
  { unfold leap. rewrite Bool.andb_true_iff, Bool.orb_true_iff, Bool.negb_true_iff, !Z.eqb_eq, Z.eqb_neq.
    rewrite !Z.mod_divide by lia. reflexivity. }
  split; [exact L|]. unfold valid_date, days_in_month. cbn [d_y d_m d_d].
  split; [|split; [|split; [|split]]].
  - change (Z.eqb 2 2) with true. cbn iota. destruct (leap y); split; intro H; try reflexivity; try lia; try discriminate.
  - change (Z.eqb 2 2) with true. cbn iota. destruct (leap y); lia.
  - intros m d H. destruct (Z.eqb_spec m 2) as [->|N].
    + split; [lia|]. destruct (leap y); (split; [lia|]); (split; [cbn [In]; lia|lia]).
    + split; [lia|]. destruct (_ || _)%bool eqn:E; (split; [lia|]); (split; [|lia]); cbn [In]; intros Hi; [lia|].
      rewrite !Bool.orb_false_iff, !Z.eqb_neq in E. lia.
  - intros m d Hm N Hd. destruct (Z.eqb_spec m 2); [contradiction|]. destruct (_ || _)%bool; lia.
  - intros m Hi. cbn [In] in Hi. destruct Hi as [<-|[<-|[<-|[<-|[<-|[<-|[<-|[]]]]]]]]; cbn; lia.
Qed.
Print Assumptions C73_calendar.
(** anyone not born on 29 February reaches age (year - birth year) in that year *)
Theorem C73_age_in_year_partial : forall b y, valid_date b -> ~ (d_m b = 2 /\ d_d b = 29)%Z ->
  age_in_year b y = Ok (y - d_y b)%Z.
Proof. exact age_year_regular. Qed.
Print Assumptions C73_age_in_year_partial.
(** people born on 29 February are one year too young in every common year *)
Theorem C73_leap_birth_refuted : forall b y, valid_date b -> (d_m b = 2 /\ d_d b = 29)%Z ->
  age_in_year b y = Ok (if leap y then y - d_y b else y - d_y b - 1)%Z.
Proof. exact age_year_leap. Qed.
Print Assumptions C73_leap_birth_refuted.
(** for a date argument: the age goes up on the birthday; the 29th of February raises ValueError
    for anyone born in a common year *)
Theorem C73_age_at_date : forall b d, valid_date b -> valid_date d -> ~ (d_m d = 2 /\ d_d d = 29)%Z ->
  age_at b d = Ok (d_y d - d_y b - (if date_lt d {| d_y := d_y d; d_m := d_m b; d_d := d_d b |} then 1 else 0))%Z.
Proof.
  intros b d Hb Hd Hn. unfold age_at, replace_year. pose proof (leap_day_only d (d_y b) Hd Hn) as L.
  apply Z.leb_le in L. rewrite L. cbn. unfold date_lt. cbn. rewrite !Z.ltb_irrefl, !Z.eqb_refl. cbn.
  match goal with |- Ok (if ?c then _ else _) = _ => destruct c end; f_equal; lia.
Qed.
Print Assumptions C73_age_at_date.
Theorem C73_leap_date_refuted : forall b d, leap (d_y b) = false -> (d_m d = 2 /\ d_d d = 29)%Z ->
  age_at b d = Err ValueError.
Proof. intros b d Hl [Em Ed]. unfold age_at, replace_year. rewrite Em, Ed. cbn. unfold days_in_month. cbn. rewrite Hl. reflexivity. Qed.
Print Assumptions C73_leap_date_refuted.
Example C73_sat : age_in_year {| d_y := 1980; d_m := 12; d_d := 31 |} 2020 = Ok 40%Z
  /\ age_in_year {| d_y := 1980; d_m := 2; d_d := 29 |} 2021 = Ok 40%Z
  /\ age_at {| d_y := 1981; d_m := 2; d_d := 28 |} {| d_y := 2020; d_m := 2; d_d := 29 |} = Err ValueError.
Proof. repeat split; reflexivity. Qed.
