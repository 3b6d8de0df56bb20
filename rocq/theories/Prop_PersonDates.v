(** C91: retirement dates and ages.  C92: raise rates. *)
From Verif Require Import Base BaseFacts LedgerModel PersonModel PersonProofs PersonDatesModel.
From Coq Require Import Lia.
Local Open Scope Z_scope.

(** ** Specification *)
(** [d] comes before [e] in the calendar *)
Definition earlier (d e : date) : Prop :=
  d_y d < d_y e \/ d_y d = d_y e /\ (d_m d < d_m e \/ d_m d = d_m e /\ d_d d < d_d e).
(** the birthday [n] years on: same month, same day (or the last day of a shorter month) *)
Definition birthday (b : date) (n : Z) : date :=
  {| d_y := d_y b + n; d_m := d_m b; d_d := Z.min (d_d b) (days_in_month (d_y b + n) (d_m b)) |}.
Definition in_calendar (y : Z) : Prop := 1 <= y <= 9999.
Fixpoint run_dates (s : pdates) (os : list dop) : pdates := match os with [] => s | o :: r => run_dates (fst (dstep s o)) r end.
(** the retirement date, if there is one, is not before the birth date *)
Definition dates_ok (s : pdates) : Prop := forall d, pd_retire s = Some d -> ~ earlier d (pd_birth s).

Lemma date_lt_spec : forall d e, date_lt d e = true <-> earlier d e.
Proof.
  intros d e. unfold date_lt, earlier. rewrite orb_true_iff, andb_true_iff, orb_true_iff, andb_true_iff, !Z.ltb_lt, !Z.eqb_eq. tauto.
Qed.
Lemma date_lt_f : forall d e, date_lt d e = false <-> ~ earlier d e.
Proof. intros d e. rewrite <- date_lt_spec. destruct (date_lt d e); split; congruence. Qed.

Lemma years_birthday : forall b n, 1 <= d_m b <= 12 -> in_calendar (d_y b + n) -> add_months b (12 * n) = Ok (birthday b n).
Proof.
  intros b n Hm Hy. unfold add_months, birthday, in_calendar in *.
  assert (E1 : (d_y b * 12 + (d_m b - 1) + 12 * n) / 12 = d_y b + n) by (symmetry; apply Z.div_unique with (r := d_m b - 1); lia).
  assert (E2 : (d_y b * 12 + (d_m b - 1) + 12 * n) mod 12 = d_m b - 1) by (symmetry; apply Z.mod_unique with (q := d_y b + n); lia).
  rewrite E1, E2. replace (d_m b - 1 + 1) with (d_m b) by lia.
  destruct (Z.leb_spec 1 (d_y b + n)); [|lia]. destruct (Z.leb_spec (d_y b + n) 9999); [|lia]. reflexivity.
Qed.
Lemma years_outside : forall b n, 1 <= d_m b <= 12 -> ~ in_calendar (d_y b + n) -> add_months b (12 * n) = Err ValueError.
Proof.
  intros b n Hm Hy. unfold add_months, in_calendar in *.
  assert (E1 : (d_y b * 12 + (d_m b - 1) + 12 * n) / 12 = d_y b + n) by (symmetry; apply Z.div_unique with (r := d_m b - 1); lia).
  rewrite E1. destruct (Z.leb_spec 1 (d_y b + n)); destruct (Z.leb_spec (d_y b + n) 9999); try reflexivity. lia.
Qed.

(** C91: assigning a retirement age sets the retirement date to that birthday, and reads back as that age *)
Theorem C91_age_round_trip : forall s n, valid_date (pd_birth s) -> 0 <= n -> 1 <= d_y (pd_birth s) -> d_y (pd_birth s) + n <= 9999 ->
  dstep s (SetAge (Some n)) = ({| pd_birth := pd_birth s; pd_retire := Some (birthday (pd_birth s) n) |}, None) /\
  retirement_age (fst (dstep s (SetAge (Some n)))) = Ok n.
Proof.
  intros s n [Hm Hd] Hn H1 H2. set (b := pd_birth s) in *.
  assert (C : in_calendar (d_y b + n)) by (unfold in_calendar; lia).
  assert (NB : ~ earlier (birthday b n) b).
  { unfold earlier, birthday. cbn [d_y d_m d_d]. intros [K|[K [L|[_ L]]]]; try lia. assert (n = 0) by lia. subst n. rewrite Z.add_0_r in L. lia. }
  assert (E : dstep s (SetAge (Some n)) = ({| pd_birth := b; pd_retire := Some (birthday b n) |}, None)).
  { cbn [dstep]. fold b. rewrite (years_birthday b n Hm C). unfold set_retire, check_retirement. fold b. apply date_lt_f in NB. now rewrite NB. }
  split; [exact E|]. rewrite E. cbn [fst retirement_age pd_retire pd_birth]. unfold rel_years.
  assert (M : (d_y (birthday b n) - d_y b) * 12 + (d_m (birthday b n) - d_m b) = 12 * n) by (unfold birthday; cbn [d_y d_m]; lia).
  rewrite M, (years_birthday b n Hm C). cbn [bind]. pose proof NB as NB'. apply date_lt_f in NB'. rewrite NB'.
  assert (S : date_lt (birthday b n) (birthday b n) = false) by (apply date_lt_f; unfold earlier; lia). rewrite S.
  f_equal. rewrite (Z.mul_comm 12 n). apply Z.quot_mul. lia.
Qed.
Print Assumptions C91_age_round_trip.
(** C91: the retirement age is the number of birthdays reached by the retirement date *)
Theorem C91_age_counts_birthdays : forall s d a, valid_date (pd_birth s) -> valid_date d -> 1 <= d_y (pd_birth s) -> d_y d <= 9999 ->
  pd_retire s = Some d -> ~ earlier d (pd_birth s) -> retirement_age s = Ok a ->
  0 <= a /\ ~ earlier d (birthday (pd_birth s) a) /\ earlier d (birthday (pd_birth s) (a + 1)).
Proof.
  intros s d a [Hm Hd] [Hm' Hd'] H1 H2 R NE H. unfold retirement_age in H. rewrite R in H. set (b := pd_birth s) in *. unfold rel_years in H.
  pose proof NE as NE'. apply date_lt_f in NE'. rewrite NE' in H. set (m := (d_y d - d_y b) * 12 + (d_m d - d_m b)) in *.
  assert (M0 : 0 <= m) by (unfold earlier, m in *; lia).
  assert (T : add_months b m = Ok {| d_y := d_y d; d_m := d_m d; d_d := Z.min (d_d b) (days_in_month (d_y d) (d_m d)) |}).
  { unfold add_months. assert (E1 : (d_y b * 12 + (d_m b - 1) + m) / 12 = d_y d) by (symmetry; apply Z.div_unique with (r := d_m d - 1); unfold m; lia).
    assert (E2 : (d_y b * 12 + (d_m b - 1) + m) mod 12 = d_m d - 1) by (symmetry; apply Z.mod_unique with (q := d_y d); unfold m; lia).
    rewrite E1, E2. replace (d_m d - 1 + 1) with (d_m d) by lia. assert (Y : d_y b <= d_y d) by (unfold earlier in NE; lia).
    destruct (Z.leb_spec 1 (d_y d)); [|lia]. destruct (Z.leb_spec (d_y d) 9999); [|lia]. reflexivity. }
  rewrite T in H. cbn [bind] in H. set (t := {| d_y := d_y d; d_m := d_m d; d_d := Z.min (d_d b) (days_in_month (d_y d) (d_m d)) |}) in *.
  destruct (date_lt d t) eqn:L; injection H as <-.
  - apply date_lt_spec in L. assert (Ld : d_d d < Z.min (d_d b) (days_in_month (d_y d) (d_m d))) by (unfold earlier, t in L; cbn [d_y d_m d_d] in L; lia).
    assert (M1 : 1 <= m). { destruct (Z.eq_dec m 0) as [Z0|]; [|lia]. exfalso. apply NE. unfold earlier. unfold m in Z0. lia. }
    assert (Q := Z.quot_rem' (m - 1) 12). assert (B := Z.rem_bound_pos (m - 1) 12 ltac:(lia) ltac:(lia)). set (a := Z.quot (m - 1) 12) in *.
    assert (A0 : 0 <= a) by lia. split; [exact A0|]. split.
    + unfold earlier, birthday. cbn [d_y d_m d_d]. unfold m in *. lia.
    + unfold earlier, birthday. cbn [d_y d_m d_d]. unfold m in *.
      destruct (Z.lt_ge_cases (d_y d) (d_y b + (a + 1))) as [|Ge]; [now left|right].
      assert (Ey : d_y d = d_y b + (a + 1)) by lia. split; [exact Ey|]. destruct (Z.lt_ge_cases (d_m d) (d_m b)); [now left|right].
      assert (Em : d_m d = d_m b) by lia. split; [exact Em|]. rewrite <- Ey, <- Em. exact Ld.
  - apply date_lt_f in L. assert (Q := Z.quot_rem' m 12). assert (B := Z.rem_bound_pos m 12 ltac:(lia) ltac:(lia)). set (a := Z.quot m 12) in *.
    assert (A0 : 0 <= a) by lia. split; [exact A0|]. split.
    + unfold birthday. intros K. unfold earlier in K. cbn [d_y d_m d_d] in K. unfold m in *.
      destruct K as [K|[K1 [K|[K2 K]]]]; try lia. apply L. unfold earlier, t. cbn [d_y d_m d_d]. right. split; [reflexivity|]. right. split; [reflexivity|]. rewrite K1, K2. exact K.
    + unfold earlier, birthday. cbn [d_y d_m d_d]. unfold m in *. lia.
Qed.
Print Assumptions C91_age_counts_birthdays.
(** C91: as long as the birth date is not reassigned, the retirement date never precedes it, whatever is assigned
    and however many assignments fail *)
Theorem C91_never_before_birth_partial : forall os s, dates_ok s -> (forall d, ~ In (SetBirth d) os) -> dates_ok (run_dates s os).
Proof.
  induction os as [|o os IH]; intros s D NB; [exact D|]. cbn [run_dates]. apply IH; [|intros d H; apply (NB d); now right].
  assert (R : forall v, dates_ok (fst (set_retire s v))).
  { intros [d|]; cbn; [|discriminate]. destruct (date_lt d (pd_birth s)) eqn:L; cbn; [exact D|]. intros e E. cbn in *. injection E as <-. now apply date_lt_f. }
  destruct o as [d|v|[n|]]; cbn [dstep].
  - exfalso. apply (NB d). now left.
  - apply R.
  - destruct (add_months (pd_birth s) (12 * n)); [apply R|exact D].
  - apply R.
Qed.
Print Assumptions C91_never_before_birth_partial.
(** C91: a date before birth, a negative age and an age beyond the calendar are refused with ValueError and change
    nothing; nothing else but None is refused *)
Theorem C91_refused : forall s, valid_date (pd_birth s) -> 1 <= d_y (pd_birth s) ->
  (forall d, earlier d (pd_birth s) -> dstep s (SetRetire (Some d)) = (s, Some ValueError)) /\
  (forall n, n < 0 \/ 9999 < d_y (pd_birth s) + n -> dstep s (SetAge (Some n)) = (s, Some ValueError)) /\
  (forall d, ~ earlier d (pd_birth s) -> dstep s (SetRetire (Some d)) = ({| pd_birth := pd_birth s; pd_retire := Some d |}, None)).
Proof.
  intros s [Hm Hd] H1. split; [|split].
  - intros d E. cbn. apply date_lt_spec in E. now rewrite E.
  - intros n Hn. cbn [dstep]. destruct (Z.lt_ge_cases n 0) as [N|N].
    + destruct (Z.lt_ge_cases (d_y (pd_birth s) + n) 1) as [L|L].
      * rewrite years_outside by (unfold in_calendar; lia). reflexivity.
      * destruct (Z.lt_ge_cases 9999 (d_y (pd_birth s) + n)) as [G|G].
        -- rewrite years_outside by (unfold in_calendar; lia). reflexivity.
        -- rewrite years_birthday by (unfold in_calendar; lia). cbn. assert (E : date_lt (birthday (pd_birth s) n) (pd_birth s) = true) by (apply date_lt_spec; unfold earlier, birthday; cbn [d_y d_m d_d]; lia).
           now rewrite E.
    + rewrite years_outside by (unfold in_calendar; lia). reflexivity.
  - intros d E. cbn. apply date_lt_f in E. now rewrite E.
Qed.
Print Assumptions C91_refused.
(** refuted: reassigning the birth date is never checked against the retirement date *)
Theorem C91_birth_date_refuted : forall s d b, pd_retire s = Some d -> earlier d b ->
  snd (dstep s (SetBirth b)) = None /\ ~ dates_ok (fst (dstep s (SetBirth b))).
Proof. intros s d b R E. split; [reflexivity|]. intros K. exact (K d R E). Qed.
Print Assumptions C91_birth_date_refuted.
(** refuted: assigning None raises, but the retirement date is gone afterwards: the retirement age reads 0 and the
    person never stops earning *)
Theorem C91_none_refuted : forall s o, o = SetRetire None \/ o = SetAge None ->
  snd (dstep s o) = Some NotImplementedError /\ pd_retire (fst (dstep s o)) = None /\ retirement_age (fst (dstep s o)) = Ok 0 /\
  forall q last year, next_gross (set_raise (RScalar q)) (pd_retire (fst (dstep s o))) last year = Ok (last * (1 + q))%Q.
Proof. intros s o [->| ->]; repeat split. Qed.
Print Assumptions C91_none_refuted.
(** C91: a new person has the dates given; a retirement date before birth is refused *)
Theorem C91_new_person : forall b d,
  (~ earlier d b -> exists s, new_person b (Some d) = Ok s /\ pd_birth s = b /\ pd_retire s = Some d /\ dates_ok s) /\
  (earlier d b -> new_person b (Some d) = Err ValueError).
Proof.
  intros b d. unfold new_person, set_retire, check_retirement. cbn [pd_birth]. split; intro H.
  - assert (L := H). apply date_lt_f in L. rewrite L. eexists. repeat split. intros e E. cbn in E. injection E as <-. exact H.
  - apply date_lt_spec in H. now rewrite H.
Qed.
Print Assumptions C91_new_person.
(** refuted: the retirement date is documented as optional, but a person cannot be made without one *)
Theorem C91_optional_refuted : forall b, new_person b None = Err NotImplementedError.
Proof. reflexivity. Qed.
Print Assumptions C91_optional_refuted.
Definition ex_person : pdates := {| pd_birth := {| d_y := 1980; d_m := 2; d_d := 29 |}; pd_retire := None |}.
Example C91_sat : valid_date (pd_birth ex_person) /\ dates_ok ex_person /\
  pd_retire (fst (dstep ex_person (SetAge (Some 65)))) = Some {| d_y := 2045; d_m := 2; d_d := 28 |} /\
  retirement_age (fst (dstep ex_person (SetRetire (Some {| d_y := 2045; d_m := 2; d_d := 27 |})))) = Ok 64 /\
  retirement_age (fst (dstep ex_person (SetRetire (Some {| d_y := 2045; d_m := 2; d_d := 28 |})))) = Ok 65.
Proof. split; [unfold valid_date; cbn; lia|]. split; [discriminate|]. repeat split. Qed.

(** ** C92 *)
(** gross income over the years after [y], starting from [g] *)
Fixpoint incomes (raise : Z -> res rval) (retire : option date) (g : Q) (y : Z) (n : nat) : res (list Q) :=
  match n with
  | O => Ok []
  | S n => let* g' := next_gross raise retire g (y + 1) in let* r := incomes raise retire g' (y + 1) n in Ok (g' :: r)
  end.
(** the rate an argument promises for a year *)
Definition promised (v : rarg) (y : Z) : res Q :=
  match v with
  | RNone => Ok 0%Q | RScalar q => Ok q
  | RDict d => match dget Z.eqb d y with Some q => Ok q | None => Err KeyError end
  | RFun f => f y
  end.
Fixpoint promised_incomes (v : rarg) (retire : option date) (g : Q) (y : Z) (n : nat) : res (list Q) :=
  match n with
  | O => Ok []
  | S n =>
      if match retire with Some d => d_y d <? y + 1 | None => false end
      then let* r := promised_incomes v retire 0%Q (y + 1) n in Ok (0%Q :: r)
      else let* q := promised v (y + 1) in let* r := promised_incomes v retire (g * (1 + q))%Q (y + 1) n in Ok ((g * (1 + q))%Q :: r)
  end.
(** C92: a person constructed with a rate, a table of rates, a function or nothing gets exactly the raises it promises *)
Theorem C92_constructed : forall v retire n g y, incomes (init_raise v) retire g y n = promised_incomes v retire g y n.
Proof.
  intros v retire. induction n as [|n IH]; intros g y; [reflexivity|]. cbn [incomes promised_incomes]. unfold next_gross.
  destruct (match retire with Some d => d_y d <? y + 1 | None => false end).
  - cbn [bind]. now rewrite IH.
  - assert (E : init_raise v (y + 1) = (let* q := promised v (y + 1) in Ok (VNum q))).
    { destruct v as [|d|q|f]; try reflexivity. cbn. destruct (dget Z.eqb d (y + 1)); reflexivity. }
    rewrite E. destruct (promised v (y + 1)); cbn [bind]; [now rewrite IH|reflexivity].
Qed.
Print Assumptions C92_constructed.
(** C92: so does one that is later assigned a rate, a table or a function *)
Theorem C92_assigned_partial : forall v retire n g y, v <> RNone -> incomes (set_raise v) retire g y n = promised_incomes v retire g y n.
Proof. intros v retire n g y H. rewrite <- C92_constructed. destruct v; [contradiction| | |]; reflexivity. Qed.
Print Assumptions C92_assigned_partial.
(** C92: a constant rate compounds *)
Fixpoint qpow (q : Q) (n : nat) : Q := match n with O => 1%Q | S n => (q * qpow q n)%Q end.
Theorem C92_constant_rate : forall q n g y, exists l, incomes (set_raise (RScalar q)) None g y n = Ok l /\
  Forall2 (fun k x => (x == g * qpow (1 + q) (S k))%Q) (seq 0 n) l.
Proof.
  intros q. induction n as [|n IH]; intros g y; [exists []; split; [reflexivity|constructor]|].
  destruct (IH (g * (1 + q))%Q (y + 1)) as (l & E & F). cbn [incomes]. change (next_gross (set_raise (RScalar q)) None g (y + 1)) with (Ok (g * (1 + q))%Q).
  cbn [bind]. rewrite E. cbn [bind]. eexists. split; [reflexivity|]. cbn [seq]. constructor; [cbn; ring|].
  rewrite <- seq_shift. clear E IH. revert F. generalize (seq 0 n). intros ks F. induction F as [|k x ks xs Fx F IHF]; cbn [map]; constructor; [|exact IHF].
  rewrite Fx. cbn [qpow]. ring.
Qed.
Print Assumptions C92_constant_rate.
(** refuted: None ("treat as reverting to the default rate") makes every later income of a working person a TypeError *)
Theorem C92_none_refuted : forall retire n g y, match retire with Some d => y < d_y d | None => True end ->
  incomes (set_raise RNone) retire g y (S n) = Err TypeError /\ exists l, promised_incomes RNone retire g y (S n) = Ok l.
Proof.
  intros retire n g y H. split.
  - cbn [incomes]. unfold next_gross. destruct retire as [d|]; [|reflexivity]. destruct (Z.ltb_spec (d_y d) (y + 1)); [lia|reflexivity].
  - generalize (S n). clear n H. intros n. revert g y. induction n as [|n IH]; intros g y; [now eexists|]. cbn [promised_incomes promised].
    destruct (match retire with Some d => d_y d <? y + 1 | None => false end); cbn [bind].
    + destruct (IH 0%Q (y + 1)) as [l E]. rewrite E. cbn [bind]. eauto.
    + destruct (IH (g * (1 + 0))%Q (y + 1)) as [l E]. rewrite E. cbn [bind]. eauto.
Qed.
Print Assumptions C92_none_refuted.
Example C92_sat : incomes (init_raise (RDict [(2021, 1#10); (2022, 0%Q); (2023, 1#2)])) (Some {| d_y := 2022; d_m := 6; d_d := 1 |}) 1000 2020 3 =
  Ok [1000 * (1 + (1#10)); 1000 * (1 + (1#10)) * (1 + 0); 0]%Q.
Proof. reflexivity. Qed.
