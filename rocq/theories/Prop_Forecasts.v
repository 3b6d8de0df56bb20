(** C62-C66: the sub-forecasts' effects on the accounts. *)
From Verif Require Import Base BaseFacts TimingModel SubModel ForecastsModel Prop_SubForecast.
From Coq Require Import Lqa Lia.

(** ** Specification vocabulary *)
(** the part of a payment made at time [t] under a timing *)
Definition share (timing : dict Q Q) (t : Q) : Q := qval timing t / Qsum (dvals timing).
(** a proper timing: distinct times, at least one *)
Definition proper (timing : dict Q Q) : Prop := dwf Qeq_bool timing /\ timing <> [].

(** ** Payments from outside happen exactly when they are due *)
Lemma qval_cons : forall w s (l : dict Q Q) t, qval ((w, s) :: l) t = if Qeq_bool t w then s else qval l t.
Proof. intros. unfold qval, qget. cbn [dget]. destruct (Qeq_bool t w); reflexivity. Qed.
Lemma timed_exact : forall kd hx v timing to st hx', 0 <= v -> dwf Qeq_bool timing ->
  add_timed kd hx v timing None to st = Ok hx' ->
  forall a t, hval (fst hx') a t == hval (fst hx) a t + v * share timing t * (if oeqb to (Some a) then 1 else 0).
Proof.
  intros kd hx v timing to st hx' Hv W H a t. unfold add_timed in H. destruct (Qlt_bool v 0) eqn:E; [exfalso; qb; lra|].
  unfold share. set (total := Qsum (dvals timing)) in *. clearbody total. revert hx H W. induction timing as [|[w s] l IH]; intros hx H W; cbn [fold_left] in H.
  - injection H as <-. change (qval [] t) with 0. unfold Qdiv. lra.
  - cbn [bind fst snd] in H. destruct (qdiv s total) as [sh|e] eqn:Eq; cbn [bind] in H.
    + assert (Es : sh = s / total) by (unfold qdiv in Eq; destruct (Qeq_bool total 0); [discriminate|congruence]). subst sh.
      destruct W as [W1 W2]. rewrite (IH _ H W2). clear IH H.
      destruct (add_one_moved kd hx (v * (s / total)) w None to st) as (r & (M & _) & R). subst r. rewrite M. clear M.
      unfold dir. cbn [oeqb]. rewrite qval_cons. destruct (Qeq_bool t w) eqn:Q.
      * apply Qeq_bool_t in Q. rewrite (qval_congr l t w Q). assert (V0 : qval l w = 0) by (unfold qval, qget; rewrite W1; reflexivity). rewrite V0. unfold Qdiv. lra.
      * lra.
    + exfalso. revert H. apply fold_ne.
Qed.

(** ** C62 *)
Lemma pay_effect : forall kd default people avail hx hx', (forall p, In p people -> proper (p_timing p)) ->
  run kd default hx (pay_each people avail) = Ok hx' ->
  (forall a, htotal (fst hx') a == htotal (fst hx) a + net_income people * (if Nat.eqb avail a then 1 else 0)) /\
  ((forall p, In p people -> 0 <= p_net p) -> forall a t,
     hval (fst hx') a t == hval (fst hx) a t + Qsum (map (fun p => p_net p * share (p_timing p) t) people) * (if Nat.eqb avail a then 1 else 0)).
Proof.
  intros kd default people avail. unfold net_income. induction people as [|p r IH]; intros hx hx' P H; cbn [pay_each run] in H.
  - injection H as <-. split; intros; cbn [map Qsum]; lra.
  - unfold add_transaction, timing_arg in H. cbn [bind] in H.
    destruct (add_timed kd hx (p_net p) (p_timing p) None (Some avail) false) as [hy|e] eqn:E; [|discriminate]. cbn [bind] in H.
    destruct (IH hy hx' (fun q Hq => P q (or_intror Hq)) H) as [I1 I2].
    destruct (P p (or_introl eq_refl)) as [Wp Np].
    destruct (C58_double_entry _ _ _ _ _ _ _ _ Np E) as (m & _ & _ & T & _). split.
    + intros a. rewrite I1, T. unfold dir. cbn [oeqb map Qsum]. lra.
    + intros Pos a t. rewrite (I2 (fun q Hq => Pos q (or_intror Hq))).
      rewrite (timed_exact kd hx (p_net p) (p_timing p) (Some avail) false hy (Pos p (or_introl eq_refl)) Wp E). cbn [oeqb map Qsum]. lra.
Qed.
Lemma zero_effect : forall kd default hx to hx', add_transaction kd default hx 0 TDefault None to false = Ok hx' ->
  (forall a, htotal (fst hx') a == htotal (fst hx) a) /\ (forall a t, hval (fst hx') a t == hval (fst hx) a t).
Proof.
  intros kd default hx to hx' H. unfold add_transaction, timing_arg in H. cbn [bind] in H. unfold add_timed in H. cbn in H.
  revert H. generalize (Qsum (dvals default)) as total. intros total. revert hx.
  induction default as [|[w s] l IH]; intros hx H; cbn [fold_left] in H; [injection H as <-; split; intros; reflexivity|].
  cbn [bind fst snd] in H. destruct (qdiv s total) as [sh|e] eqn:E.
  - cbn [bind] in H. destruct (IH _ H) as [I1 I2]. destruct (add_one_moved kd hx (0 * sh) w None to false) as (r & (M1 & _ & M3 & _) & _).
    split; intros; [rewrite I1, M3|rewrite I2, M1; destruct (Qeq_bool t r)]; lra.
  - exfalso. revert H. apply fold_ne.
Qed.
(** Called once in the year, an income forecast leaves in [available] what was carried over plus
    everyone's gross income less everyone's withholding, and touches no other account; when no net
    income is negative each payment is made exactly at the times of the person's payment timing, in
    the proportions of that timing. *)
Theorem C62_income_credited_partial : forall kd default people avail h s h' s', kd avail = None -> s_invoked s = false ->
  (forall p, In p people -> proper (p_timing p)) ->
  call kd default (income_body people avail) h s avail = Ok (h', s') ->
  htotal h' avail == htotal h avail + (Qsum (map p_gross people) - Qsum (map p_withheld people)) /\
  s_total s' == htotal h avail /\
  (forall a, a <> avail -> htotal h' a == htotal h a) /\
  ((forall p, In p people -> 0 <= p_net p) -> forall t, hval h' avail t == hval h avail t + Qsum (map (fun p => p_net p * share (p_timing p) t) people)).
Proof.
  intros kd default people avail h s h' s' Ka Inv P H. unfold call, begin_call in H. rewrite Inv in H.
  destruct (run kd default _ (income_body people avail h)) as [[h2 x]|e] eqn:R; [|discriminate]. cbn [bind] in H. injection H as <- <-.
  unfold income_body in R. cbn [run] in R. destruct (add_transaction kd default _ 0 TDefault None (Some avail) false) as [hy|e] eqn:E; [|discriminate].
  cbn [bind] in R. destruct (zero_effect _ _ _ _ _ E) as [Z1 Z2]. cbn [fst] in Z1, Z2.
  destruct (pay_effect kd default people avail hy (h2, x) P R) as [T V]. cbn [fst] in T, V.
  assert (G : net_income people == Qsum (map p_gross people) - Qsum (map p_withheld people)).
  { unfold net_income, p_net. clear. induction people as [|p r IH]; cbn [map Qsum]; lra. }
  split; [rewrite T, Z1, Nat.eqb_refl; lra|]. split; [unfold set_tx; cbn [s_total]; rewrite Ka; reflexivity|]. split.
  - intros a Na. rewrite T, Z1. destruct (Nat.eqb_spec avail a) as [->|_]; [congruence|lra].
  - intros Pos t. rewrite (V Pos), Z2, Nat.eqb_refl. lra.
Qed.
Print Assumptions C62_income_credited_partial.
(** what the forecast reports is what it credits: the gross income less the tax withheld, over everyone *)
Theorem C62_reported_partial : forall kd default people avail h s h' s', kd avail = None -> s_invoked s = false ->
  (forall p, In p people -> proper (p_timing p)) ->
  call kd default (income_body people avail) h s avail = Ok (h', s') ->
  htotal h' avail == htotal h avail + net_income people /\ net_income people == gross_income people - income_withheld people /\
  gross_income people == Qsum (map p_gross people).
Proof.
  intros kd default people avail h s h' s' K N P C. destruct (C62_income_credited_partial kd default people avail h s h' s' K N P C) as (A & _).
  assert (G : net_income people == Qsum (map p_gross people) - Qsum (map p_withheld people)).
  { unfold net_income, p_net. clear. induction people as [|p r IH]; cbn [map Qsum]; lra. }
  unfold gross_income, income_withheld. rewrite A, G. repeat split; reflexivity.
Qed.

(** A person may have a payment timing without times: [Timing] returns one for cash flows that net to
    zero, or for an empty mapping.  That person's income is then lost without an error. *)
Theorem C62_income_lost_refuted : Timing (WDict [(0, 100); (1 # 2, -100)]) (FNum 1) = Ok [] /\
  forall kd p avail h s, s_invoked s = false -> s_tx s = [] -> p_timing p = [] ->
  exists s', call kd [] (income_body [p] avail) h s avail = Ok (h, s').
Proof.
  split; [vm_compute; reflexivity|]. intros kd p avail h s Inv Tx Pt. unfold call, begin_call. rewrite Inv. unfold income_body. cbn [run pay_each].
  unfold add_transaction, timing_arg. cbn [bind]. unfold add_timed at 1. cbn. rewrite Pt. unfold add_timed. destruct (Qlt_bool (p_net p) 0); cbn; eexists; reflexivity.
Qed.
Print Assumptions C62_income_lost_refuted.
Definition ann : person := {| p_gross := 100; p_withheld := 20; p_timing := [(1 # 2, 1); (1, 3)]; p_accts := [1%nat; 2%nat]; p_retire := Some 2040%Z |}.
Definition bob : person := {| p_gross := 50; p_withheld := 10; p_timing := [(0, 1)]; p_accts := [2%nat]; p_retire := Some 2045%Z |}.
Lemma ab_proper : forall p, In p [ann; bob] -> proper (p_timing p).
Proof.
  intros p [<-|[<-|[]]]; (split; [|discriminate]); cbn; auto.
Qed.
Definition cash : heap := [(0%nat, [(0, 7)])].
Example C62_sat : demo_kinds 0%nat = None /\ (forall p, In p [ann; bob] -> proper (p_timing p) /\ 0 <= p_net p) /\
  exists h' s', call demo_kinds [] (income_body [ann; bob] 0) cash (new_sub 2000) 0 = Ok (h', s') /\ htotal h' 0 == 127 /\ hval h' 0 1 == 60.
Proof.
  split; [reflexivity|]. split; [intros p Hp; split; [now apply ab_proper|destruct Hp as [<-|[<-|[]]]; vm_compute; discriminate]|].
  destruct (call demo_kinds [] (income_body [ann; bob] 0) cash (new_sub 2000) 0) as [[h' s']|] eqn:E; [|vm_compute in E; discriminate].
  exists h', s'. split; [reflexivity|]. vm_compute in E. injection E as <- <-. split; vm_compute; reflexivity.
Qed.

(** ** C63 *)
Lemma spend_effect : forall kd default living total avail people hx hx', (forall p, In p people -> p_timing p <> []) ->
  run kd default hx (spend_each living total people avail) = Ok hx' ->
  exists f : nat -> heap, f 0%nat = fst hx /\ f (Datatypes.length people) = fst hx' /\
    (forall i p, nth_error people i = Some p ->
       htotal (f (S i)) avail == htotal (f i) avail - living * (p_net p / total) /\ forall a, a <> avail -> htotal (f (S i)) a == htotal (f i) a).
Proof.
  intros kd default living total avail people. induction people as [|p r IH]; intros hx hx' P H; cbn [spend_each run] in H.
  - injection H as <-. exists (fun _ => fst hx). repeat split; auto; destruct i; discriminate.
  - unfold add_transaction, timing_arg in H. cbn [bind] in H.
    destruct (add_timed kd hx _ (p_timing p) (Some avail) None false) as [hy|e] eqn:E; [|discriminate]. cbn [bind] in H.
    destruct (IH hy hx' (fun q Hq => P q (or_intror Hq)) H) as (f & F0 & F1 & F2).
    destruct (C58_double_entry _ _ _ _ _ _ _ _ (P p (or_introl eq_refl)) E) as (m & _ & _ & T & _).
    exists (fun n => match n with O => fst hx | S n => f n end). split; [reflexivity|]. split; [exact F1|].
    intros i q Hq. destruct i as [|i]; cbn [nth_error] in Hq; [injection Hq as <-|exact (F2 i q Hq)].
    rewrite F0. split; [rewrite T|intros a Na; rewrite T]; unfold dir; cbn [oeqb]; [rewrite Nat.eqb_refl; lra|].
    destruct (Nat.eqb_spec avail a) as [->|_]; [congruence|lra].
Qed.
Lemma chain_sum : forall (g : person -> Q) people (v : nat -> Q), (forall i p, nth_error people i = Some p -> v (S i) == v i - g p) ->
  v (Datatypes.length people) == v 0%nat - Qsum (map g people).
Proof.
  intros g people. induction people as [|p r IH]; intros v H; cbn [Datatypes.length map Qsum]; [lra|].
  rewrite (IH (fun n => v (S n)) (fun i q Hq => H (S i) q Hq)). rewrite (H 0%nat p eq_refl). lra.
Qed.
(** With some net income in the household: the living expenses leave [available]; no other account is
    touched.  (How they are split: C63_paid_when_due.) *)
Theorem C63_living_expenses_removed_partial : forall kd default living people avail h s h' s', s_invoked s = false ->
  people <> [] -> (forall p, In p people -> p_timing p <> []) ->
  call kd default (living_body (Ok living) people avail) h s avail = Ok (h', s') ->
  htotal h' avail == htotal h avail - living /\
  (forall a, a <> avail -> htotal h' a == htotal h a).
Proof.
  intros kd default living people avail h s h' s' Inv Ne P H. unfold call, begin_call in H. rewrite Inv in H.
  destruct (run kd default _ (living_body (Ok living) people avail h)) as [[h2 x]|e] eqn:R; [|discriminate]. cbn [bind] in H. injection H as <- <-.
  unfold living_body in R. destruct people as [|p0 r] eqn:Ep; [contradiction|]. rewrite <- Ep in *.
  destruct (Qeq_bool (net_income people) 0) eqn:E; [discriminate|]. apply Qeq_bool_neq in E.
  destruct (spend_effect _ _ _ _ _ _ _ _ P R) as (f & F0 & F1 & F2). cbn [fst] in F0, F1.
  assert (Tot : htotal h2 avail == htotal h avail - living).
  { pose proof (chain_sum (fun p => living * (p_net p / net_income people)) people (fun n => htotal (f n) avail) (fun i p Hp => proj1 (F2 i p Hp))) as C.
    cbn beta in C. rewrite F0, F1 in C. rewrite C.
    assert (S : Qsum (map (fun p => living * (p_net p / net_income people)) people) == living * (net_income people / net_income people)).
    { unfold net_income at 2. generalize (net_income people) as n. intros n. clear. induction people as [|p r IH]; cbn [map Qsum]; [unfold Qdiv; lra|]. rewrite IH. unfold Qdiv. lra. }
    rewrite S. assert (O : net_income people / net_income people == 1) by (field; exact E). rewrite O. lra. }
  split; [exact Tot|].
  { intros a Na.
    assert (C0 : forall i p, nth_error people i = Some p -> htotal (f (S i)) a == htotal (f i) a - 0) by (intros i p Hp; rewrite (proj2 (F2 i p Hp) a Na); lra).
    pose proof (chain_sum (fun _ => 0) people (fun n => htotal (f n) a) C0) as C.
    cbn beta in C. rewrite F0, F1 in C. rewrite C. clear. assert (Z0 : Qsum (map (fun _ : person => 0) people) == 0) by (induction people as [|p r IH]; cbn [map Qsum]; lra). lra. }
Qed.
Print Assumptions C63_living_expenses_removed_partial.
(** ** When the shares are paid *)
(** what the timings say has to be paid at time [t] / by time [t] *)
Definition part (living : Q) (people : list person) (p : person) : Q := living * (p_net p / Qsum (map p_net people)).
Definition due_at (living : Q) (people : list person) (t : Q) : Q := Qsum (map (fun p => part living people p * share (p_timing p) t) people).
Definition due_by (living : Q) (people : list person) (t : Q) : Q :=
  Qsum (map (fun p => part living people p * (upto (p_timing p) t / Qsum (dvals (p_timing p)))) people).
Definition nonneg_weights (timing : dict Q Q) : Prop := forall w s, In (w, s) timing -> 0 <= s.
Definition from_time (T : Q) (timing : dict Q Q) : Prop := forall w s, In (w, s) timing -> T <= w.

Lemma post_upto : forall h o t v a s, upto (hget (post h o t v) a) s == upto (hget h a) s + (if oeqb o (Some a) then (if Qle_bool t s then v else 0) else 0).
Proof.
  intros h o t v a s. destruct o as [i|]; cbn [post oeqb]; [|lra]. rewrite hget_set. rewrite (Nat.eqb_sym i a).
  destruct (Nat.eqb_spec a i) as [->|N]; [apply upto_incr|lra].
Qed.
Lemma out_upto : forall kd hx v w a s, exists r, r = shift_when kd (fst hx) v w a /\
  upto (hget (fst (add_one kd hx v w (Some a) None false)) a) s == upto (hget (fst hx) a) s - (if Qle_bool r s then v else 0).
Proof.
  intros kd [h x] v w a s. exists (shift_when kd h v w a). split; [reflexivity|]. unfold add_one. cbn [fst]. rewrite post_upto. cbn [oeqb].
  rewrite post_upto. cbn [oeqb]. rewrite Nat.eqb_refl. destruct (Qle_bool _ s); lra.
Qed.
Lemma shift_late : forall kd h v w a, kd a = None -> w <= shift_when kd h v w a.
Proof.
  intros kd h v w a Ka. unfold shift_when. rewrite Ka. destruct (shift_spec (hget h a) w v) as [(S & _)|[_ S]]; [exact S|rewrite S; lra].
Qed.
Lemma shift_covered : forall kd h v w a, kd a = None -> covers (hget h a) v w -> shift_when kd h v w a == w.
Proof.
  intros kd h v w a Ka C. pose proof (shift_late kd h v w a Ka). unfold shift_when in *. rewrite Ka in *.
  destruct (shift_spec (hget h a) w v) as [(_ & _ & M)|[_ S]]; [|rewrite S; reflexivity]. specialize (M w ltac:(lra) C). lra.
Qed.
Lemma share_nonneg : forall s total, 0 <= s -> 0 <= total -> 0 <= s / total.
Proof. intros s total A B. destruct (Qeq_dec total 0) as [Z|Z]; [rewrite Z; unfold Qdiv, Qinv; cbn; lra|]. apply Qle_shift_div_l; lra. Qed.
Lemma sum_nonneg : forall timing, nonneg_weights timing -> 0 <= Qsum (dvals timing).
Proof.
  intros timing. unfold dvals. induction timing as [|[w s] l IH]; intros N; cbn [map Qsum snd]; [lra|].
  pose proof (N w s (or_introl eq_refl)). assert (0 <= Qsum (map snd l)) by (apply IH; intros w' s' I; apply (N w' s'); now right). lra.
Qed.
(** one payment out of a plain mapping, spread over a timing *)
Lemma timed_out : forall kd hx v timing a hx', kd a = None -> 0 <= v -> nonneg_weights timing ->
  add_timed kd hx v timing (Some a) None false = Ok hx' ->
  (forall s, upto (hget (fst hx') a) s >= upto (hget (fst hx) a) s - v * (upto timing s / Qsum (dvals timing))) /\
  (forall T extra, dwf Qeq_bool timing -> from_time T timing -> 0 <= extra -> covers (hget (fst hx) a) (v + extra) T ->
     (forall t, hval (fst hx') a t == hval (fst hx) a t - v * share timing t) /\ covers (hget (fst hx') a) extra T).
Proof.
  intros kd hx v timing a hx' Ka Hv N H. unfold add_timed in H. destruct (Qlt_bool v 0) eqn:E; [exfalso; qb; lra|]. clear E. unfold share.
  pose proof (sum_nonneg timing N) as Pt.
  assert (Le : Qsum (dvals timing) / Qsum (dvals timing) <= 1).
  { destruct (Qeq_dec (Qsum (dvals timing)) 0) as [Z|Z]; [rewrite Z; unfold Qdiv, Qinv; cbn; lra|].
    assert (O : Qsum (dvals timing) / Qsum (dvals timing) == 1) by (field; exact Z). lra. }
  set (total := Qsum (dvals timing)) in *.
  assert (G : (forall s, upto (hget (fst hx') a) s >= upto (hget (fst hx) a) s - v * (upto timing s / total)) /\
    (forall T extra, dwf Qeq_bool timing -> from_time T timing -> 0 <= extra -> covers (hget (fst hx) a) (v * (Qsum (dvals timing) / total) + extra) T ->
     (forall t, hval (fst hx') a t == hval (fst hx) a t - v * (qval timing t / total)) /\ covers (hget (fst hx') a) extra T)).
  { clear Le. clearbody total. revert hx H N. induction timing as [|[w s] l IH]; intros hx H N; cbn [fold_left] in H.
    - injection H as <-. split; [intros s; unfold upto; cbn [filter map Qsum]; unfold Qdiv; lra|]. intros T extra _ _ X C. split.
      + intros t. change (qval [] t) with 0. unfold Qdiv. lra.
      + intros s Hs. specialize (C s Hs). unfold dvals in C. cbn [map Qsum] in C. unfold Qdiv in C. lra.
    - cbn [bind fst snd] in H. destruct (qdiv s total) as [sh|e] eqn:Eq; cbn [bind] in H; [|exfalso; revert H; apply fold_ne].
      assert (Es : sh = s / total) by (unfold qdiv in Eq; destruct (Qeq_bool total 0); [discriminate|congruence]). subst sh.
      assert (Nl : nonneg_weights l) by (intros w' s' I; apply (N w' s'); now right).
      pose proof (N w s (or_introl eq_refl)) as Ns. pose proof (share_nonneg s total Ns Pt) as Sn.
      assert (Vn : 0 <= v * (s / total)) by (apply Qmult_le_0_compat; assumption).
      destruct (IH _ H Nl) as [I1 I2]. clear IH. split.
      + intros t. specialize (I1 t). destruct (out_upto kd hx (v * (s / total)) w a t) as (r & Er & U). rewrite U in I1. clear U.
        pose proof (shift_late kd (fst hx) (v * (s / total)) w a Ka) as L. rewrite <- Er in L.
        assert (Uc : upto ((w, s) :: l) t == (if Qle_bool w t then s else 0) + upto l t) by (unfold upto; cbn [filter fst]; destruct (Qle_bool w t); cbn [map Qsum snd]; lra).
        rewrite Uc. destruct (Qle_bool w t) eqn:Q1, (Qle_bool r t) eqn:Q2; qb; unfold Qdiv in *; lra.
      + intros T extra W F X C. destruct W as [W1 W2]. pose proof (F w s (or_introl eq_refl)) as Tw.
        assert (Rest : 0 <= v * (Qsum (dvals l) / total)) by (apply Qmult_le_0_compat; [exact Hv|apply share_nonneg; [exact (sum_nonneg l Nl)|exact Pt]]).
        unfold dvals in C. cbn [map Qsum snd] in C. fold (dvals l) in C.
        assert (Sh : shift_when kd (fst hx) (v * (s / total)) w a == w).
        { apply shift_covered; [exact Ka|]. intros u Hu. specialize (C u ltac:(lra)). unfold Qdiv in *. lra. }
        destruct (I2 T extra W2 (fun w' s' I => F w' s' (or_intror I)) X) as [J1 J2].
        { intros u Hu. destruct (out_upto kd hx (v * (s / total)) w a u) as (r & Er & U). rewrite U. specialize (C u Hu).
          destruct (Qle_bool r u); unfold Qdiv in *; lra. }
        split; [|exact J2]. intros t. rewrite J1. clear J1 J2 I1 I2 H.
        destruct (add_one_moved kd hx (v * (s / total)) w (Some a) None false) as (r & (M & _) & R). rewrite M. clear M.
        unfold dir. cbn [oeqb]. rewrite Nat.eqb_refl. rewrite qval_cons. rewrite <- R in Sh.
        assert (Eb : Qeq_bool t r = Qeq_bool t w).
        { apply Bool.eq_iff_eq_true. rewrite !Qeq_bool_iff, Sh. reflexivity. }
        rewrite Eb. destruct (Qeq_bool t w) eqn:Q.
        * apply Qeq_bool_t in Q. rewrite (qval_congr l t w Q). assert (V0 : qval l w = 0) by (unfold qval, qget; rewrite W1; reflexivity). rewrite V0. unfold Qdiv. lra.
        * lra. }
  destruct G as [G1 G2]. split; [exact G1|]. intros T extra W F X C. apply (G2 T extra W F X). intros s Hs. specialize (C s Hs).
  assert (v * (Qsum (dvals timing) / total) <= v * 1) by (apply Qmult_le_l_compat' || (rewrite (Qmult_comm v), (Qmult_comm v); apply Qmult_le_compat_r; [exact Le|exact Hv])). lra.
Qed.
(** the household's shares, one after the other; [n]: the household's net income *)
Lemma spend_timed : forall kd default living n avail people hx hx', kd avail = None -> 0 <= living -> 0 <= n ->
  (forall p, In p people -> 0 <= p_net p /\ nonneg_weights (p_timing p)) ->
  run kd default hx (spend_each living n people avail) = Ok hx' ->
  (forall s, upto (hget (fst hx') avail) s >= upto (hget (fst hx) avail) s -
     Qsum (map (fun p => living * (p_net p / n) * (upto (p_timing p) s / Qsum (dvals (p_timing p)))) people)) /\
  (forall T, (forall p, In p people -> proper (p_timing p) /\ from_time T (p_timing p)) ->
     covers (hget (fst hx) avail) (Qsum (map (fun p => living * (p_net p / n)) people)) T ->
     forall t, hval (fst hx') avail t == hval (fst hx) avail t - Qsum (map (fun p => living * (p_net p / n) * share (p_timing p) t) people)).
Proof.
  intros kd default living n avail people hx hx' Ka Hl Hn. revert hx. induction people as [|p r IH]; intros hx P H; cbn [spend_each run] in H.
  - injection H as <-. split; intros; cbn [map Qsum]; lra.
  - unfold add_transaction, timing_arg in H. cbn [bind] in H.
    destruct (add_timed kd hx _ (p_timing p) (Some avail) None false) as [hy|e] eqn:E; [|discriminate]. cbn [bind] in H.
    destruct (IH hy (fun q Hq => P q (or_intror Hq)) H) as [I1 I2]. clear IH H.
    destruct (P p (or_introl eq_refl)) as [Np Nw].
    assert (Pos : forall q, In q (p :: r) -> 0 <= living * (p_net q / n)).
    { intros q Hq. apply Qmult_le_0_compat; [exact Hl|]. apply share_nonneg; [exact (proj1 (P q Hq))|exact Hn]. }
    destruct (timed_out _ _ _ _ _ _ Ka (Pos p (or_introl eq_refl)) Nw E) as [T1 T2]. split.
    + intros s. specialize (I1 s). specialize (T1 s). cbn [map Qsum]. lra.
    + intros T Pr C t. cbn [map Qsum] in C |- *. destruct (Pr p (or_introl eq_refl)) as [[Wp _] Fp].
      assert (Rn : 0 <= Qsum (map (fun p => living * (p_net p / n)) r)).
      { clear -Pos. assert (Pos' : forall q, In q r -> 0 <= living * (p_net q / n)) by (intros q Hq; apply Pos; now right). clear Pos. induction r as [|q r IH]; cbn [map Qsum]; [lra|].
        pose proof (Pos' q (or_introl eq_refl)). pose proof (IH (fun q Hq => Pos' q (or_intror Hq))). lra. }
      destruct (T2 T _ Wp Fp Rn C) as [V C2]. rewrite (I2 T (fun q Hq => Pr q (or_intror Hq)) C2). rewrite V. lra.
Qed.
(** Living expenses are never taken before they fall due under the earners' payment timings; and when
    the cash there is always covers them, each earner's share is taken exactly at that earner's times. *)
Theorem C63_paid_when_due : forall kd default living people avail h s h' s', kd avail = None -> s_invoked s = false -> 0 <= living ->
  people <> [] -> (forall p, In p people -> 0 <= p_net p /\ proper (p_timing p) /\ nonneg_weights (p_timing p)) ->
  call kd default (living_body (Ok living) people avail) h s avail = Ok (h', s') ->
  (forall t, upto (hget h avail) t - upto (hget h' avail) t <= due_by living people t) /\
  (forall T, (forall p, In p people -> from_time T (p_timing p)) -> covers (hget h avail) living T ->
     forall t, hval h' avail t == hval h avail t - due_at living people t).
Proof.
  intros kd default living people avail h s h' s' Ka Inv Hl Ne P H. unfold call, begin_call in H. rewrite Inv in H.
  destruct (run kd default _ (living_body (Ok living) people avail h)) as [[h2 x]|e] eqn:R; [|discriminate]. cbn [bind] in H. injection H as <- <-.
  unfold living_body in R. destruct people as [|p0 r] eqn:Ep; [contradiction|]. rewrite <- Ep in *.
  destruct (Qeq_bool (net_income people) 0) eqn:E; [discriminate|]. apply Qeq_bool_neq in E.
  assert (Hn : 0 <= net_income people).
  { unfold net_income. clear -P. induction people as [|q r IH]; cbn [map Qsum]; [lra|]. pose proof (proj1 (P q (or_introl eq_refl))). pose proof (IH (fun q Hq => P q (or_intror Hq))). lra. }
  destruct (spend_timed _ _ _ _ _ _ _ _ Ka Hl Hn (fun p Hp => conj (proj1 (P p Hp)) (proj2 (proj2 (P p Hp)))) R) as [S1 S2]. cbn [fst] in S1, S2.
  split; [intros t; specialize (S1 t); unfold due_by, part; fold (net_income people); lra|].
  intros T F C t. unfold due_at, part. fold (net_income people). apply (S2 T); [intros p Hp; split; [exact (proj1 (proj2 (P p Hp)))|exact (F p Hp)]|].
  intros u Hu. specialize (C u Hu).
  assert (Sm : Qsum (map (fun p => living * (p_net p / net_income people)) people) == living * (net_income people / net_income people)).
  { unfold net_income at 2. generalize (net_income people) as n. intros n. clear. induction people as [|p r IH]; cbn [map Qsum]; [unfold Qdiv; lra|]. rewrite IH. unfold Qdiv. lra. }
  rewrite Sm. assert (O : net_income people / net_income people == 1) by (field; exact E). rewrite O. lra.
Qed.
Print Assumptions C63_paid_when_due.
Example C63_timing_sat : (forall p, In p [ann; bob] -> 0 <= p_net p /\ proper (p_timing p) /\ nonneg_weights (p_timing p) /\ from_time 0 (p_timing p)) /\
  covers [(0, 200)] 60 0 /\
  exists h' s', call demo_kinds [] (living_body (Ok 60) [ann; bob] 0) [(0%nat, [(0, 200)])] (new_sub 2000) 0 = Ok (h', s') /\
    hval h' 0 0 == 180 /\ hval h' 0 (1 # 2) == - (10) /\ hval h' 0 1 == - (30).
Proof.
  split.
  - intros p Hp. split; [destruct Hp as [<-|[<-|[]]]; vm_compute; discriminate|]. split; [exact (ab_proper p Hp)|].
    split; intros w s Hw; destruct Hp as [<-|[<-|[]]]; cbn in Hw; repeat (destruct Hw as [Hw|Hw]; [injection Hw as <- <-; vm_compute; discriminate|]); destruct Hw.
  - split; [intros s Hs; unfold upto; cbn [filter fst]; rewrite (proj2 (Qle_bool_iff 0 s) Hs); cbn; lra|].
    destruct (call demo_kinds [] (living_body (Ok 60) [ann; bob] 0) [(0%nat, [(0, 200)])] (new_sub 2000) 0) as [[h' s']|] eqn:E; [|vm_compute in E; discriminate].
    exists h', s'. split; [reflexivity|]. vm_compute in E. injection E as <- <-. split; [|split]; vm_compute; reflexivity.
Qed.
(** With no net income in the household -- everyone retired -- the forecast fails. *)
Theorem C63_no_income_refuted : forall kd default living people avail h s, people <> [] -> Qsum (map p_net people) == 0 ->
  call kd default (living_body living people avail) h s avail = Err ZeroDivisionError.
Proof.
  intros kd default living people avail h s Ne Z0. unfold call, begin_call, living_body. destruct people as [|p r]; [contradiction|].
  unfold net_income. rewrite (proj2 (Qeq_bool_iff _ _) Z0). reflexivity.
Qed.
Print Assumptions C63_no_income_refuted.
(** living expenses also cannot be determined while someone has no retirement date *)
Theorem C63_no_retirement_date_refuted : forall strategy year people p, In p people -> p_retire p = None ->
  living_expenses strategy year people = Err AttributeError.
Proof.
  intros strategy year people p Hp Hr. unfold living_expenses.
  assert (E : fold_right (fun p r => let* l := r in match p_retire p with Some y => Ok (y :: l) | None => Err AttributeError end) (Ok []) people = Err AttributeError).
  { induction people as [|q r IH]; [destruct Hp|]. cbn [fold_right]. destruct Hp as [->|Hp].
    - rewrite Hr. clear IH. destruct (fold_right _ (Ok []) r) as [l|e] eqn:E; [reflexivity|]. cbn [bind].
      clear -E. revert e E. induction r as [|q r IH]; intros e E; [discriminate|]. cbn [fold_right] in E. destruct (fold_right _ (Ok []) r) as [l|e'].
      + cbn [bind] in E. destruct (p_retire q); [discriminate|]. injection E as <-. reflexivity.
      + cbn [bind] in E. injection E as <-. exact (IH e' eq_refl).
    - rewrite (IH Hp). reflexivity. }
  rewrite E. reflexivity.
Qed.
Print Assumptions C63_no_retirement_date_refuted.
Example C63_sat : (forall p, In p [ann; bob] -> p_timing p <> []) /\
  exists h' s', call demo_kinds [] (living_body (Ok 60) [ann; bob] 0) [(0%nat, [(0, 200)])] (new_sub 2000) 0 = Ok (h', s') /\ htotal h' 0 == 140.
Proof.
  split; [intros p [<-|[<-|[]]]; discriminate|].
  destruct (call demo_kinds [] (living_body (Ok 60) [ann; bob] 0) [(0%nat, [(0, 200)])] (new_sub 2000) 0) as [[h' s']|] eqn:E; [|vm_compute in E; discriminate].
  exists h', s'. split; [reflexivity|]. vm_compute in E. injection E as <- <-. vm_compute. reflexivity.
Qed.
Example C63_refuted_sat : exists p, Qsum (map p_net [p]) == 0 /\ p_retire p = Some 2000%Z.
Proof. exists {| p_gross := 0; p_withheld := 0; p_timing := [(1 # 2, 1)]; p_accts := []; p_retire := Some 2000%Z |}. split; reflexivity. Qed.

(** ** C64 *)
Lemma num_timing : forall w tm, Timing (WNum w) (FNum 1) = Ok tm -> tm <> [].
Proof.
  intros w tm H. unfold Timing in H. cbn [when_conv] in H. destruct (Qlt_bool 1 w || Qlt_bool w 0)%bool; [discriminate|].
  cbn [bind frequency_conv] in H. cbn in H. injection H as <-. discriminate.
Qed.
Lemma arg_effect : forall kd default hx v w from to st hx', SubModel.add_transaction kd default hx v (TArg (WNum w)) from to st = Ok hx' ->
  forall a, htotal (fst hx') a == htotal (fst hx) a + v * dir from to (Some a).
Proof.
  intros kd default hx v w from to st hx' H a. unfold add_transaction, timing_arg in H. destruct (Timing (WNum w) (FNum 1)) as [tm|e] eqn:E; [|discriminate].
  cbn [bind] in H. destruct (C58_double_entry _ _ _ _ _ _ _ _ (num_timing _ _ E) H) as (m & _ & _ & T & _). apply T.
Qed.
Lemma move_effect : forall kd default from to k l hx hx', run kd default hx (move_each l from to k (fst hx)) = Ok hx' ->
  exists hy, run kd default hy (k (fst hy)) = Ok hx' /\ forall a, htotal (fst hy) a == htotal (fst hx) a + Qsum (dvals l) * dir from to (Some a).
Proof.
  intros kd default from to k l. induction l as [|[w v] l IH]; intros hx hx' H; cbn [move_each] in H.
  - exists hx. split; [exact H|]. intros a. unfold dvals. cbn [map Qsum]. lra.
  - cbn [run] in H. destruct (add_transaction kd default hx v (TArg (WNum w)) from to false) as [hz|e] eqn:E; [|discriminate]. cbn [bind] in H.
    destruct (IH hz hx' H) as (hy & R & T). exists hy. split; [exact R|]. intros a. rewrite T, (arg_effect _ _ _ _ _ _ _ _ _ E a). unfold dvals. cbn [map Qsum snd]. lra.
Qed.
Lemma save_effect : forall kd default avail pl hx hx', run kd default hx (save_each pl avail (fst hx)) = Ok hx' ->
  forall a, htotal (fst hx') a == htotal (fst hx) a + Qsum (map (fun bl => Qsum (dvals (snd bl)) * dir (Some avail) (Some (fst bl)) (Some a)) pl).
Proof.
  intros kd default avail pl. induction pl as [|[b l] pl IH]; intros hx hx' H a; cbn [save_each] in H.
  - cbn [run] in H. injection H as <-. cbn [map Qsum]. lra.
  - destruct (move_effect _ _ _ _ _ _ _ _ H) as (hy & R & T). rewrite (IH hy hx' R a), T. cbn [map Qsum fst snd]. lra.
Qed.
(** The plan is carried out in full: what it assigns to each account reaches that account, and
    [available] loses the total. *)
Theorem C64_plan_carried_out : forall kd default strategy pl avail h s h' s', s_invoked s = false ->
  strategy h = Ok pl -> NoDup (map fst pl) -> ~ In avail (map fst pl) ->
  call kd default (saving_body strategy avail) h s avail = Ok (h', s') ->
  htotal h' avail == htotal h avail - savings_total pl /\
  forall a, a <> avail -> htotal h' a == htotal h a + Qsum (dvals (planned pl a)).
Proof.
  intros kd default strategy pl avail h s h' s' Inv Hs D Na H. unfold call, begin_call in H. rewrite Inv in H. unfold saving_body in H at 1. rewrite Hs in H.
  destruct (run kd default (h, _) (save_each pl avail h)) as [[h2 x]|e] eqn:R; [|discriminate]. cbn [bind] in H. injection H as <- <-.
  pose proof (save_effect kd default avail pl (h, _) (h2, x) R) as T. cbn [fst] in T. split.
  - rewrite T. unfold savings_total. clear -Na. assert (S : Qsum (map (fun bl => Qsum (dvals (snd bl)) * dir (Some avail) (Some (fst bl)) (Some avail)) pl) == - Qsum (map (fun al => Qsum (dvals (snd al))) pl)).
    { induction pl as [|[b l] pl IH]; cbn [map Qsum fst snd]; [lra|]. rewrite IH by (intros Q; apply Na; now right).
      unfold dir. cbn [oeqb]. rewrite Nat.eqb_refl. destruct (Nat.eqb_spec b avail) as [->|_]; [exfalso; apply Na; now left|]. lra. }
    lra.
  - intros a Ha. rewrite T. clear -D Ha. apply Qplus_inj_l.
    assert (Nz : forall pl, ~ In a (map fst pl) -> Qsum (map (fun bl : nat * dict Q Q => Qsum (dvals (snd bl)) * dir (Some avail) (Some (fst bl)) (Some a)) pl) == 0).
    { clear D pl. intros pl. induction pl as [|[c m] pl IH]; intros Hn; cbn [map Qsum fst snd]; [lra|]. rewrite IH by (intros Q; apply Hn; now right).
      unfold dir. cbn [oeqb]. destruct (Nat.eqb_spec avail a) as [->|_]; [congruence|]. destruct (Nat.eqb_spec c a) as [->|_]; [exfalso; apply Hn; now left|]. lra. }
    induction pl as [|[b l] pl IH]; cbn [map Qsum fst snd]; [unfold planned, dvals; cbn; lra|].
    inversion D as [|? ? D1 D2]; subst. unfold planned in *. cbn [dget].
    unfold dir at 1. cbn [oeqb]. destruct (Nat.eqb_spec avail a) as [->|_]; [congruence|].
    destruct (Nat.eqb_spec a b) as [->|Nb].
    + rewrite Nat.eqb_refl. rewrite (Nz pl D1). lra.
    + destruct (Nat.eqb_spec b a) as [->|_]; [congruence|]. rewrite (IH D2). lra.
Qed.
Print Assumptions C64_plan_carried_out.
Lemma planned_sum : forall pl accts, NoDup (map fst pl) -> NoDup accts -> (forall a, In a (map fst pl) -> In a accts) ->
  savings_total pl == Qsum (map (fun a => Qsum (dvals (planned pl a))) accts).
Proof.
  intros pl. unfold savings_total. induction pl as [|[b l] pl IH]; intros accts D Da H; cbn [map Qsum snd].
  - clear. induction accts as [|a r IH]; cbn [map Qsum]; [reflexivity|]. rewrite <- IH. unfold planned, dvals. cbn. lra.
  - inversion D as [|? ? D1 D2]; subst. destruct (in_split b accts (H b (or_introl eq_refl))) as (u & v & ->).
    assert (Du : NoDup (u ++ v)) by (eapply NoDup_remove_1; exact Da). pose proof (NoDup_remove_2 _ _ _ Da) as Nb.
    rewrite (IH (u ++ v) D2 Du).
    + rewrite !map_app. cbn [map]. rewrite !Qsum_app. cbn [Qsum].
      assert (Eq : forall w, ~ In b w -> Qsum (map (fun a => Qsum (dvals (planned ((b, l) :: pl) a))) w) == Qsum (map (fun a => Qsum (dvals (planned pl a))) w)).
      { intros w. induction w as [|c w IHw]; intros Hn; cbn [map Qsum]; [reflexivity|]. rewrite IHw by (intros Q; apply Hn; now right).
        unfold planned. cbn [dget]. destruct (Nat.eqb_spec c b) as [->|_]; [exfalso; apply Hn; now left|]. reflexivity. }
      rewrite (Eq u) by (intros Q; apply Nb; apply in_or_app; now left). rewrite (Eq v) by (intros Q; apply Nb; apply in_or_app; now right).
      unfold planned at 4. cbn [dget]. rewrite Nat.eqb_refl. lra.
    + intros a Ha. specialize (H a (or_intror Ha)). apply in_app_or in H. apply in_or_app. destruct H as [H|[<-|H]]; auto. contradiction.
Qed.
(** Total savings are what goes to the retirement accounts plus what goes to the debts, and
    [retirement_savings] is the former. *)
Theorem C64_total_adds_up_partial : forall pl retirement debts, NoDup (map fst pl) -> NoDup (retirement ++ debts) ->
  (forall a, In a (map fst pl) -> In a (retirement ++ debts)) ->
  savings_total pl == retirement_savings pl retirement + Qsum (map (fun a => Qsum (dvals (planned pl a))) debts).
Proof.
  intros pl r d D Dr H. rewrite (planned_sum pl (r ++ d) D Dr H). rewrite map_app, Qsum_app. unfold retirement_savings. reflexivity.
Qed.
Print Assumptions C64_total_adds_up_partial.
(** [debt_repayment], however, is always the amount saved for retirement: with 100 to a retirement
    account and 30 to a debt it is 100, and total savings are not the sum of the two parts. *)
Theorem C64_debt_repayment_refuted :
  (forall pl retirement debts, debt_repayment pl retirement debts = retirement_savings pl retirement) /\
  (let pl := [(1%nat, [(1 # 2, 100)]); (2%nat, [(1 # 2, 30)])] in
   debt_repayment pl [1%nat] [2%nat] == 100 /\ Qsum (dvals (planned pl 2)) == 30 /\ savings_total pl == 130 /\
   ~ savings_total pl == debt_repayment pl [1%nat] [2%nat] + retirement_savings pl [1%nat]).
Proof. split; [reflexivity|]. cbn zeta. repeat split; try (vm_compute; reflexivity). vm_compute. discriminate. Qed.
Print Assumptions C64_debt_repayment_refuted.
Example C64_sat : let pl := [(1%nat, [(1 # 2, 100); (1, 20)]); (2%nat, [(1 # 2, 30)])] in
  NoDup (map fst pl) /\ ~ In 0%nat (map fst pl) /\
  exists h' s', call demo_kinds [] (saving_body (fun _ => Ok pl) 0) [(0%nat, [(0, 200)])] (new_sub 2000) 0 = Ok (h', s') /\ htotal h' 0 == 50 /\ htotal h' 1 == 120.
Proof.
  cbn zeta. split; [repeat constructor; cbn; intuition discriminate|]. split; [cbn; intuition discriminate|].
  match goal with |- exists h' s', ?c = _ /\ _ => destruct c as [[h' s']|] eqn:E; [|vm_compute in E; discriminate] end.
  exists h', s'. split; [reflexivity|]. vm_compute in E. injection E as <- <-. split; vm_compute; reflexivity.
Qed.

(** ** C65 *)
Lemma adds_effect : forall kd default l hx from to st hx', SubModel.add_transactions kd default hx l from to st = Ok hx' ->
  forall a, htotal (fst hx') a == htotal (fst hx) a + Qsum (dvals l) * dir from to (Some a).
Proof.
  intros kd default l hx from to st hx'. unfold add_transactions. revert hx. induction l as [|[w v] l IH]; intros hx H a; cbn [fold_left bind fst snd] in H.
  - injection H as <-. unfold dvals. cbn [map Qsum]. lra.
  - destruct (add_transaction kd default hx v (TArg (WNum w)) from to st) as [hy|e] eqn:E.
    + rewrite (IH hy H a), (arg_effect _ _ _ _ _ _ _ _ _ E a). unfold dvals. cbn [map Qsum snd]. lra.
    + exfalso. clear -H. revert H. induction l as [|y l IH]; cbn [fold_left bind]; [discriminate|exact IH].
Qed.
Lemma from_timing_total : forall tm v ts, tm <> [] -> transactions_from_timing tm v = Ok ts -> Qsum (dvals ts) == v.
Proof.
  intros tm v ts N H. unfold transactions_from_timing in H. destruct tm as [|kv r] eqn:E; [contradiction|]. rewrite <- E in *.
  destruct (Qeq_bool (Qsum (dvals tm)) 0) eqn:Z0; [discriminate|]. injection H as <-. apply Qeq_bool_neq in Z0. unfold dvals. rewrite map_map. cbn [snd].
  assert (S : Qsum (map (fun x : Q * Q => v * (snd x / Qsum (dvals tm))) tm) == v * (Qsum (dvals tm) / Qsum (dvals tm))).
  { unfold dvals at 2. generalize (Qsum (dvals tm)) as n. intros n. clear. induction tm as [|[a b] tm IH]; cbn [map Qsum snd]; [unfold Qdiv; lra|]. rewrite IH. unfold Qdiv. lra. }
  rewrite S. field. exact Z0.
Qed.
(** transactions all in one direction, and at least one: what a traversal plans for an account (C55) -
    withdrawals when cash is short, deposits when there is cash left over *)
Definition one_way (l : dict Q Q) : Prop := l <> [] /\ (Forall (fun v => v <= 0) (dvals l) \/ Forall (fun v => 0 <= v) (dvals l)).
Lemma one_way_timing : forall l tm, one_way l -> Timing (WDict l) (FNum 1) = Ok tm -> tm <> [].
Proof.
  intros l tm [N F] H. unfold Timing in H. injection H as <-. unfold convert_dict. destruct l as [|kv r]; [contradiction|].
  destruct (forallb (fun v => Qeq_bool v 0) (dvals (kv :: r))); [discriminate|].
  destruct (forallb (fun v => Qle_bool 0 v) (dvals (kv :: r))) eqn:P; [discriminate|].
  destruct F as [F|F].
  - assert (E : forallb (fun v => Qle_bool v 0) (dvals (kv :: r)) = true) by (apply forallb_forall; intros x Hx; apply Qle_bool_iff; rewrite Forall_forall in F; now apply F).
    rewrite E. discriminate.
  - exfalso. assert (E : forallb (fun v => Qle_bool 0 v) (dvals (kv :: r)) = true) by (apply forallb_forall; intros x Hx; apply Qle_bool_iff; rewrite Forall_forall in F; now apply F). congruence.
Qed.
Lemma withdraw_effect : forall kd default wh h0 avail pl hx tw hx' tw', (forall al, In al pl -> one_way (snd al)) -> ~ In avail (map fst pl) ->
  withdraw_all kd default wh h0 avail (hx, tw) pl = Ok (hx', tw') ->
  htotal (fst hx') avail == htotal (fst hx) avail - savings_total pl + (tw' - tw).
Proof.
  intros kd default wh h0 avail pl. unfold savings_total. induction pl as [|[b l] pl IH]; intros hx tw hx' tw' W Na H; cbn [withdraw_all] in H.
  - injection H as <- <-. cbn [map Qsum]. lra.
  - destruct (withdraw_one kd default wh h0 avail (hx, tw) (b, l)) as [[hy ty]|e] eqn:E; [|discriminate]. cbn [bind] in H.
    rewrite (IH hy ty hx' tw' (fun al Hal => W al (or_intror Hal)) (fun Q => Na (or_intror Q)) H). cbn [map Qsum snd].
    unfold withdraw_one in E. destruct (add_transactions kd default hx l (Some avail) (Some b) false) as [h1|e] eqn:E1; [|discriminate]. cbn [bind] in E.
    pose proof (adds_effect _ _ _ _ _ _ _ _ E1 avail) as T1. unfold dir in T1. cbn [oeqb] in T1. rewrite Nat.eqb_refl in T1.
    destruct (Nat.eqb_spec b avail) as [->|_]; [exfalso; apply Na; now left|].
    destruct (Qeq_bool (wh (fst h1) b - wh h0 b) 0) eqn:Z0; [injection E as <- <-; lra|].
    destruct (Timing (WDict l) (FNum 1)) as [tm|e] eqn:E2; [|discriminate]. cbn [bind] in E.
    destruct (transactions_from_timing tm _) as [ts|e] eqn:E3; [|discriminate]. cbn [bind] in E.
    destruct (add_transactions kd default h1 ts None (Some avail) false) as [h2|e] eqn:E4; [|discriminate]. cbn [bind] in E. injection E as <- <-.
    pose proof (adds_effect _ _ _ _ _ _ _ _ E4 avail) as T2. unfold dir in T2. cbn [oeqb] in T2. rewrite Nat.eqb_refl in T2.
    rewrite (from_timing_total _ _ _ (one_way_timing _ _ (W (b, l) (or_introl eq_refl)) E2) E3) in T2. lra.
Qed.
(** What [available] gains over the first call in a year: the withdrawals ([- savings_total], the
    plan's values being negative) PLUS what the accounts' tax withheld rose by, both in full. *)
Theorem C65_available_gains_partial : forall kd default strategy wh pl avail h w h' w', s_invoked (w_sub w) = false ->
  strategy h = Ok pl -> (forall al, In al pl -> one_way (snd al)) -> ~ In avail (map fst pl) ->
  withdraw_call kd default strategy wh h w avail = Ok (h', w') ->
  htotal h' avail - htotal h avail == - savings_total pl + (w_withheld w' - w_withheld w).
Proof.
  intros kd default strategy wh pl avail h w h' w' Inv Hs W Na H. unfold withdraw_call, begin_call in H. rewrite Inv, Hs in H. cbn [bind] in H.
  destruct (withdraw_all kd default wh h avail (h, _, w_withheld w) pl) as [[hx tw]|e] eqn:E; [|discriminate]. cbn [bind] in H. injection H as <- <-.
  pose proof (withdraw_effect _ _ _ _ _ _ _ _ _ _ W Na E) as T. cbn [fst w_withheld] in *. lra.
Qed.
Print Assumptions C65_available_gains_partial.
(** the total of the accounts' tax withheld, when each account's withholding depends on that account only *)
Definition local (wh : withheld_fn) : Prop := forall h h' a, hget h a = hget h' a -> wh h a = wh h' a.
(** An RRSP-like account withholds 30% of what is withdrawn and reports it as positive, as the tax
    forecast expects (it counts it as tax already paid).  1000 is withdrawn, 300 of it withheld:
    [available] gains 1300 instead of 700, while the tax forecast reports 300 as paid. *)
Definition wh30 : withheld_fn := fun h a => (3 # 10) * - Qsum (filter (fun v => Qlt_bool v 0) (dvals (hget h a))).
Definition carl : person := {| p_gross := 0; p_withheld := 0; p_timing := [(1 # 2, 1)]; p_accts := [1%nat]; p_retire := Some 2000%Z |}.
Definition wplan : plan := [(1%nat, [(1 # 2, -1000)])].
Definition wstart : wsub := {| w_sub := new_sub 2000; w_withheld := 0 |}.
Definition wheap : heap := [(0%nat, [(1 # 2, -1000)]); (1%nat, [(0, 5000)])].
Theorem C65_withholding_added_refuted : local wh30 /\ exists h' w',
  withdraw_call demo_kinds [] (fun _ => Ok wplan) wh30 wheap wstart 0 = Ok (h', w') /\
  - savings_total wplan == 1000 /\
  (exists q, tax_withheld (wh30 h') [carl] = Ok q /\ q == 300) /\ (exists q, tax_withheld (wh30 wheap) [carl] = Ok q /\ q == 0) /\
  htotal h' 0 - htotal wheap 0 == 1300.
Proof.
  split; [intros h h' a E; unfold wh30; now rewrite E|].
  destruct (withdraw_call demo_kinds [] (fun _ => Ok wplan) wh30 wheap wstart 0) as [[h' w']|] eqn:E; [|vm_compute in E; discriminate].
  exists h', w'. split; [reflexivity|]. vm_compute in E. injection E as <- <-. split; [vm_compute; reflexivity|].
  split; [eexists; split; [vm_compute; reflexivity|vm_compute; reflexivity]|]. split; [eexists; split; [vm_compute; reflexivity|vm_compute; reflexivity]|]. vm_compute. reflexivity.
Qed.
Print Assumptions C65_withholding_added_refuted.
(** transactions touch the two accounts they are between and no other *)
Lemma add_one_frame : forall kd hx v w from to st b, from <> Some b -> to <> Some b -> hget (fst (add_one kd hx v w from to st)) b = hget (fst hx) b.
Proof.
  intros kd [h x] v w from to st b F T. unfold add_one. cbn [fst]. unfold post.
  destruct to as [i|]; [rewrite hget_set; destruct (Nat.eqb_spec b i) as [->|_]; [contradiction|]|];
  (destruct from as [j|]; [rewrite hget_set; destruct (Nat.eqb_spec b j) as [->|_]; [contradiction|]|]); reflexivity.
Qed.
Lemma adds_frame : forall kd default l hx from to st hx' b, SubModel.add_transactions kd default hx l from to st = Ok hx' -> from <> Some b -> to <> Some b ->
  hget (fst hx') b = hget (fst hx) b.
Proof.
  intros kd default l hx from to st hx' b. unfold add_transactions. revert hx. induction l as [|[w v] l IH]; intros hx H F T; cbn [fold_left bind fst snd] in H.
  - injection H as <-. reflexivity.
  - destruct (add_transaction kd default hx v (TArg (WNum w)) from to st) as [hy|e] eqn:E; [|rewrite fold_err in H; discriminate].
    rewrite (IH hy H F T). clear H IH. unfold add_transaction in E. destruct (timing_arg default (TArg (WNum w))) as [tm|] eqn:E1; [|discriminate]. cbn [bind] in E.
    unfold add_timed in E. set (sw := Qlt_bool v 0) in *. clearbody sw.
    assert (G : forall f t vv total, f <> Some b -> t <> Some b -> forall tm hz, fold_left (fun r tw => let* hx := r in let* share := qdiv (snd tw) total in
                         Ok (add_one kd hx (vv * share) (fst tw) f t st)) tm (Ok hz) = Ok hy -> hget (fst hy) b = hget (fst hz) b).
    { intros f t vv total Hf Ht tm0. induction tm0 as [|[a c] tm0 IH0]; intros hz Hz; cbn [fold_left bind fst snd] in Hz; [injection Hz as <-; reflexivity|].
      destruct (qdiv c total) as [q|]; cbn [bind] in Hz; [|rewrite fold_err in Hz; discriminate]. rewrite (IH0 _ Hz). now apply add_one_frame. }
    destruct sw; eapply G; [| |exact E| | |exact E]; assumption.
Qed.
Lemma withdraw_one_frame : forall kd default wh h0 avail al hx tw hx' tw' b, withdraw_one kd default wh h0 avail (hx, tw) al = Ok (hx', tw') ->
  b <> avail -> b <> fst al -> hget (fst hx') b = hget (fst hx) b.
Proof.
  intros kd default wh h0 avail [a l] hx tw hx' tw' b H N1 N2. unfold withdraw_one in H. cbn [fst] in N2.
  destruct (add_transactions kd default hx l (Some avail) (Some a) false) as [h1|] eqn:E1; [|discriminate]. cbn [bind] in H.
  pose proof (adds_frame _ _ _ _ _ _ _ _ b E1 ltac:(congruence) ltac:(congruence)) as F1.
  destruct (Qeq_bool _ 0); [injection H as <- <-; exact F1|].
  destruct (Timing (WDict l) (FNum 1)) as [tm|]; [|discriminate]. cbn [bind] in H.
  destruct (transactions_from_timing tm _) as [ts|]; [|discriminate]. cbn [bind] in H.
  destruct (add_transactions kd default h1 ts None (Some avail) false) as [h2|] eqn:E2; [|discriminate]. cbn [bind] in H. injection H as <- <-.
  rewrite (adds_frame _ _ _ _ _ _ _ _ b E2 ltac:(congruence) ltac:(congruence)). exact F1.
Qed.
Lemma withdraw_all_frame : forall kd default wh h0 avail pl hx tw hx' tw' b, withdraw_all kd default wh h0 avail (hx, tw) pl = Ok (hx', tw') ->
  b <> avail -> ~ In b (map fst pl) -> hget (fst hx') b = hget (fst hx) b.
Proof.
  intros kd default wh h0 avail pl. induction pl as [|al pl IH]; intros hx tw hx' tw' b H N1 N2; cbn [withdraw_all] in H; [injection H as <- <-; reflexivity|].
  destruct (withdraw_one kd default wh h0 avail (hx, tw) al) as [[hy ty]|] eqn:E; [|discriminate]. cbn [bind] in H. cbn [map In] in N2.
  rewrite (IH _ _ _ _ b H N1 ltac:(tauto)). apply (withdraw_one_frame _ _ _ _ _ _ _ _ _ _ b E N1). intro X. apply N2. left. symmetry. exact X.
Qed.
Lemma withdraw_withheld : forall kd default wh h0 avail pl hx tw hx' tw', local wh -> NoDup (map fst pl) -> ~ In avail (map fst pl) ->
  withdraw_all kd default wh h0 avail (hx, tw) pl = Ok (hx', tw') -> tw' == tw + Qsum (map (fun al => wh (fst hx') (fst al) - wh h0 (fst al)) pl).
Proof.
  intros kd default wh h0 avail pl. induction pl as [|[a l] pl IH]; intros hx tw hx' tw' L D N H; cbn [withdraw_all] in H.
  - injection H as <- <-. cbn [map Qsum]. lra.
  - destruct (withdraw_one kd default wh h0 avail (hx, tw) (a, l)) as [[hy ty]|] eqn:E; [|discriminate]. cbn [bind] in H. cbn [map fst] in D, N. inversion D; subst.
    rewrite (IH _ _ _ _ L ltac:(assumption) (fun Q => N (or_intror Q)) H). cbn [map Qsum fst].
    assert (Na : a <> avail) by (intro X; apply N; now left).
    rewrite (L (fst hx') (fst hy) a) by (apply (withdraw_all_frame _ _ _ _ _ _ _ _ _ _ a H Na); assumption).
    unfold withdraw_one in E. destruct (add_transactions kd default hx l (Some avail) (Some a) false) as [h1|] eqn:E1; [|discriminate]. cbn [bind] in E.
    destruct (Qeq_bool (wh (fst h1) a - wh h0 a) 0) eqn:Z0.
    + injection E as <- <-. qb. lra.
    + destruct (Timing (WDict l) (FNum 1)) as [tm|]; [|discriminate]. cbn [bind] in E.
      destruct (transactions_from_timing tm _) as [ts|]; [|discriminate]. cbn [bind] in E.
      destruct (add_transactions kd default h1 ts None (Some avail) false) as [h2|] eqn:E2; [|discriminate]. cbn [bind] in E. injection E as <- <-.
      rewrite (L (fst h2) (fst h1) a) by (apply (adds_frame _ _ _ _ _ _ _ _ a E2); congruence). lra.
Qed.
(** What the forecast reports as tax withheld: within a year it is restarted at each call (the figure
    of an earlier call does not count twice) and equals what the accounts of the plan report as
    withheld afterwards, less what they reported before; only over years does it accumulate. *)
Theorem C65_withheld_reported_partial : forall kd default strategy wh pl avail h w h1 h' w', local wh ->
  h1 = (if s_invoked (w_sub w) then undo h (w_sub w) else h) ->
  strategy h1 = Ok pl -> NoDup (map fst pl) -> ~ In avail (map fst pl) ->
  withdraw_call kd default strategy wh h w avail = Ok (h', w') ->
  w_withheld w' == (if s_invoked (w_sub w) then 0 else w_withheld w) + Qsum (map (fun a => wh h' a - wh h1 a) (map fst pl)).
Proof.
  intros kd default strategy wh pl avail h w h1 h' w' L -> Hs D N H. unfold withdraw_call, begin_call in H. rewrite Hs in H. cbn [bind] in H.
  match type of H with bind ?X _ = _ => destruct X as [[hx tw]|] eqn:E; [|discriminate] end. cbn [bind] in H. injection H as <- <-. cbn [w_withheld].
  rewrite (withdraw_withheld _ _ _ _ _ _ _ _ _ _ L D N E), map_map. reflexivity.
Qed.
Print Assumptions C65_withheld_reported_partial.
Example C65_withheld_sat : exists h1 w1 h2 w2, withdraw_call demo_kinds [] (fun _ => Ok wplan) wh30 wheap wstart 0 = Ok (h1, w1) /\
  withdraw_call demo_kinds [] (fun _ => Ok wplan) wh30 h1 w1 0 = Ok (h2, w2) /\ s_invoked (w_sub w1) = true /\ w_withheld w1 == 300 /\ w_withheld w2 == 300.
Proof.
  destruct (withdraw_call demo_kinds [] (fun _ => Ok wplan) wh30 wheap wstart 0) as [[h1 w1]|] eqn:E; [|vm_compute in E; discriminate].
  destruct (withdraw_call demo_kinds [] (fun _ => Ok wplan) wh30 h1 w1 0) as [[h2 w2]|] eqn:E2; [|vm_compute in E; injection E as <- <-; vm_compute in E2; discriminate].
  exists h1, w1, h2, w2. split; [reflexivity|]. split; [exact E2|]. vm_compute in E. injection E as <- <-. vm_compute in E2. injection E2 as <- <-. repeat split; vm_compute; reflexivity.
Qed.
Example C65_sat : s_invoked (w_sub wstart) = false /\ (forall al, In al wplan -> one_way (snd al)) /\ ~ In 0%nat (map fst wplan).
Proof.
  split; [reflexivity|]. split; [|cbn; intuition discriminate]. intros al [<-|[]]. split; [discriminate|]. left. cbn. constructor; [|constructor]. vm_compute. discriminate.
Qed.

(** ** C82 *)
(** The reported gross withdrawals never depend on the plan: they are what [available] lacked before,
    negative if there was a surplus. *)
Theorem C82_gross_ignores_plan_refuted : forall kd default strategy wh avail h w h' w', kd avail = None -> s_invoked (w_sub w) = false ->
  withdraw_call kd default strategy wh h w avail = Ok (h', w') -> gross_withdrawals w' == - htotal h avail.
Proof.
  intros kd default strategy wh avail h w h' w' Ka Inv H. unfold withdraw_call, begin_call in H. rewrite Inv in H.
  destruct (strategy h) as [pl|e]; [|discriminate]. cbn [bind] in H.
  destruct (withdraw_all kd default wh h avail _ pl) as [[hx tw]|e] eqn:E; [|discriminate]. cbn [bind] in H. injection H as <- <-.
  unfold gross_withdrawals, set_tx. cbn [w_sub s_total]. rewrite Ka. reflexivity.
Qed.
Print Assumptions C82_gross_ignores_plan_refuted.
(** 500 to spare, nothing withdrawn: reported withdrawals of -500 *)
Example C82_surplus : exists h' w', withdraw_call demo_kinds [] (fun _ => Ok []) wh30 [(0%nat, [(0, 500)]); (1%nat, [(0, 5000)])] wstart 0 = Ok (h', w') /\
  gross_withdrawals w' == -500 /\ htotal h' 1 == 5000.
Proof.
  match goal with |- exists h' w', ?c = _ /\ _ => destruct c as [[h' w']|] eqn:E; [|vm_compute in E; discriminate] end.
  exists h', w'. split; [reflexivity|]. vm_compute in E. injection E as <- <-. split; vm_compute; reflexivity.
Qed.
(** The tax withheld in earlier years stays in [net_withdrawals]: a year without withdrawals reports
    all the tax ever withheld (until the forecast is re-run within a year). *)
Theorem C82_withheld_accumulates_refuted : forall kd default wh avail h w h' w', 
  withdraw_call kd default (fun _ => Ok []) wh h (withdraw_next_year w) avail = Ok (h', w') ->
  net_withdrawals w' == gross_withdrawals w' + w_withheld w.
Proof.
  intros kd default wh avail h w h' w' H. unfold withdraw_call, begin_call in H. cbn [withdraw_next_year w_sub w_withheld] in H.
  assert (Inv : s_invoked (next_year (w_sub w)) = false) by reflexivity. rewrite Inv in H. cbn [bind withdraw_all] in H. injection H as <- <-.
  unfold net_withdrawals. cbn [w_withheld]. reflexivity.
Qed.
Print Assumptions C82_withheld_accumulates_refuted.
Example C82_sat : exists h1 w1 h2 w2, withdraw_call demo_kinds [] (fun _ => Ok wplan) wh30 wheap wstart 0 = Ok (h1, w1) /\
  withdraw_call demo_kinds [] (fun _ => Ok []) wh30 [(0%nat, [])] (withdraw_next_year w1) 0 = Ok (h2, w2) /\
  w_withheld w1 == 300 /\ gross_withdrawals w2 == 0 /\ net_withdrawals w2 == 300.
Proof.
  destruct (withdraw_call demo_kinds [] (fun _ => Ok wplan) wh30 wheap wstart 0) as [[h1 w1]|] eqn:E; [|vm_compute in E; discriminate].
  destruct (withdraw_call demo_kinds [] (fun _ => Ok []) wh30 [(0%nat, [])] (withdraw_next_year w1) 0) as [[h2 w2]|] eqn:E2; [|vm_compute in E; injection E as <- <-; vm_compute in E2; discriminate].
  exists h1, w1, h2, w2. split; [reflexivity|]. split; [exact E2|]. vm_compute in E. injection E as <- <-. vm_compute in E2. injection E2 as <- <-. repeat split; vm_compute; reflexivity.
Qed.

(** ** C66 *)
(** Every person's withholding is counted once, and every account's once however many people share
    it; the adjustment is what was withheld less what is owing. *)
Theorem C66_adjustment : forall wh owing people accts, people <> [] -> NoDup accts ->
  (forall a, In a accts <-> exists p, In p people /\ In a (p_accts p)) ->
  exists adj, tax_adjustment wh (Ok owing) people = Ok adj /\ adj == Qsum (map p_withheld people) + Qsum (map wh accts) - owing.
Proof.
  intros wh owing people accts N D H. unfold tax_adjustment, tax_withheld. destruct people as [|p0 r] eqn:E; [contradiction|]. rewrite <- E in *. cbn [bind].
  eexists. split; [reflexivity|].
  assert (P : Permutation.Permutation (union_accts people) accts).
  { apply Permutation.NoDup_Permutation; [apply NoDup_nodup|exact D|]. intros a. unfold union_accts. rewrite nodup_In, in_concat, H. split.
    - intros (l & L1 & L2). apply in_map_iff in L1. destruct L1 as (p & <- & Hp). eauto.
    - intros (p & Hp & Ha). exists (p_accts p). split; [now apply in_map|exact Ha]. }
  assert (S : Qsum (map wh (union_accts people)) == Qsum (map wh accts)).
  { clear -P. induction P; cbn [map Qsum]; try lra. }
  lra.
Qed.
Print Assumptions C66_adjustment.
Example C66_sat : NoDup [1%nat; 2%nat] /\ (forall a, In a [1%nat; 2%nat] <-> exists p, In p [ann; bob] /\ In a (p_accts p)) /\
  exists adj, tax_adjustment (fun a => if Nat.eqb a 2 then 5 else 0) (Ok 25) [ann; bob] = Ok adj /\ adj == 10.
Proof.
  split; [repeat constructor; cbn; intuition discriminate|]. split.
  - intros a. split.
    + intros [<-|[<-|[]]]; exists ann; cbn; auto.
    + intros (p & [<-|[<-|[]]] & Ha); cbn in Ha; cbn; intuition.
  - eexists. split; [vm_compute; reflexivity|]. vm_compute. reflexivity.
Qed.

(** ** C60 for the sub-forecasts themselves: what they do depends only on amounts at times, so one
    repetition within the year leaves the accounts as they were. *)
(** the same transactions: the same times in the same order, equal amounts *)
Definition same (d d' : dict Q Q) : Prop := Forall2 (fun p q => fst p = fst q /\ snd p == snd q) d d'.
Definition same_plan (pl pl' : plan) : Prop := Forall2 (fun x y => fst x = fst y /\ same (snd x) (snd y)) pl pl'.
(** a strategy that plans the same for accounts that are alike *)
Definition consistent (strategy : heap -> res plan) : Prop := forall h h', wf_heap h -> wf_heap h' -> heq h h' ->
  match strategy h, strategy h' with Ok pl, Ok pl' => same_plan pl pl' | Err e, Err e' => e = e' | _, _ => False end.
(** every account it plans to take money from is steady *)
Definition from_steady (kd : kinds) (strategy : heap -> res plan) : Prop :=
  forall h pl a l, strategy h = Ok pl -> In (a, l) pl -> steady kd (Some a) \/ Forall (fun v => 0 <= v) (dvals l).

Lemma pay_alike : forall kd people avail, kd avail = None -> alike kd (pay_each people avail) (pay_each people avail).
Proof.
  intros kd people avail K. induction people as [|p r IH]; cbn [pay_each]; constructor; [reflexivity|right; destruct (Qlt_bool _ 0); [now apply plain_steady|exact I]|]. intros. exact IH.
Qed.
Lemma spend_alike : forall kd living total people avail, kd avail = None -> alike kd (spend_each living total people avail) (spend_each living total people avail).
Proof.
  intros kd living total people avail K. induction people as [|p r IH]; cbn [spend_each]; constructor; [reflexivity|right; destruct (Qlt_bool _ 0); [exact I|now apply plain_steady]|]. intros. exact IH.
Qed.
Theorem C60_income_and_living_partial : forall kd default people living avail body h s h1 s1, kd avail = None ->
  body = income_body people avail \/ body = living_body living people avail ->
  wf_heap h -> s_invoked s = false -> s_tx s = [] ->
  call kd default body h s avail = Ok (h1, s1) ->
  exists h2 s2, call kd default body h1 s1 avail = Ok (h2, s2) /\ heq h2 h1.
Proof.
  intros kd default people living avail body h s h1 s1 K B. apply C60_second_call_same_accounts_partial. intros a b _ _ _. destruct B as [->| ->].
  - unfold income_body. constructor; [reflexivity|right; exact I|]. intros. now apply pay_alike.
  - unfold living_body. destruct people as [|p r]; [constructor|]. destruct (Qeq_bool _ 0); [constructor|]. destruct living; [now apply spend_alike|constructor].
Qed.
Print Assumptions C60_income_and_living_partial.
Lemma same_sign : forall v v', v == v' -> Qlt_bool v 0 = Qlt_bool v' 0.
Proof. intros v v' E. destruct (Qlt_bool v 0) eqn:A, (Qlt_bool v' 0) eqn:B; try reflexivity; exfalso; qb; lra. Qed.
Lemma move_alike : forall kd avail a k k' l l' h h', kd avail = None -> steady kd (Some a) \/ Forall (fun v => 0 <= v) (dvals l) -> same l l' -> wf_heap h -> wf_heap h' -> heq h h' ->
  (forall h h', wf_heap h -> wf_heap h' -> heq h h' -> alike kd (k h) (k' h')) -> alike kd (move_each l (Some avail) (Some a) k h) (move_each l' (Some avail) (Some a) k' h').
Proof.
  intros kd avail a k k' l. induction l as [|[w v] l IH]; intros l' h h' P1 P2 Sm W W' E K; inversion Sm as [|? [w' v'] ? l2 [S1 S2] S3]; subst; cbn [move_each]; [now apply K|].
  cbn [fst snd] in S1, S2. subst w'. constructor; [exact S2|right|].
  - destruct (Qlt_bool v 0) eqn:B; [|now apply plain_steady]. destruct P2 as [P2|P2]; [exact P2|]. exfalso. cbn in P2. inversion P2; subst. qb. lra.
  - intros. apply IH; auto. destruct P2 as [P2|P2]; [now left|right]. cbn in P2. now inversion P2.
Qed.
(** savings: `available` is a mapping of cash flows, the accounts anything that money can be put into;
    those that the strategy takes money from must be steady *)
Theorem C60_saving_partial : forall kd default strategy avail h s h1 s1, kd avail = None -> consistent strategy -> from_steady kd strategy ->
  wf_heap h -> s_invoked s = false -> s_tx s = [] ->
  call kd default (saving_body strategy avail) h s avail = Ok (h1, s1) ->
  exists h2 s2, call kd default (saving_body strategy avail) h1 s1 avail = Ok (h2, s2) /\ heq h2 h1.
Proof.
  intros kd default strategy avail h s h1 s1 K Sx Fs. apply C60_second_call_same_accounts_partial. intros a b Wa Wb E. unfold saving_body. specialize (Sx a b Wa Wb E). specialize (Fs a).
  destruct (strategy a) as [pl|e]; destruct (strategy b) as [pl'|e']; try contradiction; [|subst; constructor]. specialize (fun i l => Fs pl i l eq_refl).
  revert pl' Sx a b Wa Wb E. induction pl as [|[i l] pl IH]; intros pl' Sx a b Wa Wb E; inversion Sx as [|? [i' l'] ? pl2 [S1 S2] S3]; subst; cbn [save_each]; [constructor|].
  cbn [fst snd] in S1, S2. subst i'. apply move_alike; auto; [apply (Fs i l); now left|]. intros. apply IH; auto. intros j m Hj. apply (Fs j m). now right.
Qed.
Print Assumptions C60_saving_partial.

(** *** Withdrawals *)
Lemma same_keys : forall l l', same l l' -> dkeys l = dkeys l'.
Proof. intros l l' H. unfold dkeys. induction H as [|[a b] [c d] l l' [H1 H2] _ IH]; [reflexivity|]. cbn in *. now rewrite H1, IH. Qed.
Lemma same_qval : forall l l' t, same l l' -> qval l t == qval l' t.
Proof.
  intros l l' t H. unfold qval, qget. induction H as [|[a b] [c d] l l' [H1 H2] _ IH]; [reflexivity|]. cbn [fst snd dget] in *. subst c. destruct (Qeq_bool t a); [exact H2|exact IH].
Qed.
Lemma same_sum : forall l l', same l l' -> Qsum (dvals l) == Qsum (dvals l').
Proof. intros l l' H. unfold dvals. induction H as [|[a b] [c d] l l' [H1 H2] _ IH]; [reflexivity|]. cbn [map Qsum snd] in *. lra. Qed.
Lemma same_refl : forall l, same l l.
Proof. induction l; constructor; [split; reflexivity|assumption]. Qed.
Lemma same_forallb : forall (P : Q -> bool), (forall u v, u == v -> P u = P v) -> forall l l', same l l' -> forallb P (dvals l) = forallb P (dvals l').
Proof. intros P HP l l' H. unfold dvals. induction H as [|[a b] [c d] l l' [H1 H2] _ IH]; [reflexivity|]. cbn [map forallb snd] in *. now rewrite (HP _ _ H2), IH. Qed.
Lemma same_map : forall (f g : Q -> Q -> Q) l l', (forall t u v, u == v -> f t u == g t v) -> same l l' -> same (map (fun kv => (fst kv, f (fst kv) (snd kv))) l) (map (fun kv => (fst kv, g (fst kv) (snd kv))) l').
Proof. intros f g l l' Hf H. induction H as [|[a b] [c d] l l' [H1 H2] _ IH]; cbn [map fst snd] in *; constructor; [|exact IH]. cbn. subst. split; [reflexivity|]. now apply Hf. Qed.
Lemma prefix_same : forall d d', same d d' -> forall ts a b, a == b -> same (accum_prefix d a ts) (accum_prefix d' b ts).
Proof.
  intros d d' H. induction ts as [|t ts IH]; intros a b E; cbn [accum_prefix]; constructor.
  - cbn. split; [reflexivity|]. rewrite E, (same_qval d d' t H). reflexivity.
  - apply IH. rewrite E, (same_qval d d' t H). reflexivity.
Qed.
Lemma minl_same : forall l l', Forall2 Qeq l l' -> match qminl l, qminl l' with Some m, Some m' => m == m' | None, None => True | _, _ => False end.
Proof.
  intros l l' H. destruct (qminl l) as [m|] eqn:E, (qminl l') as [m'|] eqn:E'.
  - destruct (TimingProofs.qminl_in _ _ E) as (x & X1 & X2), (TimingProofs.qminl_in _ _ E') as (y & Y1 & Y2).
    assert (A : exists x', In x' l' /\ x == x') by (clear -H X1; induction H as [|u v l l' E H IH]; [contradiction|]; destruct X1 as [->|X1]; [exists v; split; [now left|exact E]|destruct (IH X1) as (z & Z1 & Z2); exists z; split; [now right|exact Z2]]).
    assert (B : exists y', In y' l /\ y == y') by (clear -H Y1; induction H as [|u v l l' E H IH]; [contradiction|]; destruct Y1 as [->|Y1]; [exists u; split; [now left|symmetry; exact E]|destruct (IH Y1) as (z & Z1 & Z2); exists z; split; [now right|exact Z2]]).
    destruct A as (x' & A1 & A2), B as (y' & B1 & B2). pose proof (TimingProofs.qminl_le _ _ E y' B1). pose proof (TimingProofs.qminl_le _ _ E' x' A1). lra.
  - destruct H; [discriminate|]. cbn in E'. destruct (qminl l'); discriminate.
  - destruct H; [discriminate|]. cbn in E. destruct (qminl l); discriminate.
  - exact I.
Qed.
Lemma inflows_same : forall ts d d', same d d' -> same (accum_inflows_loop d ts) (accum_inflows_loop d' ts).
Proof.
  induction ts as [|t ts IH]; intros d d' H; cbn [accum_inflows_loop]; [constructor|].
  assert (F : Forall2 Qeq (map snd (filter (fun kv => Qle_bool t (fst kv)) d)) (map snd (filter (fun kv => Qle_bool t (fst kv)) d'))).
  { clear IH. induction H as [|[a b] [c e] l l' [H1 H2] _ IH]; cbn [filter map fst snd] in *; [constructor|]. subst c. destruct (Qle_bool t a); [cbn [map snd]; constructor; assumption|exact IH]. }
  apply minl_same in F. destruct (qminl (map snd (filter (fun kv => Qle_bool t (fst kv)) d))) as [m|], (qminl (map snd (filter (fun kv => Qle_bool t (fst kv)) d'))) as [m'|]; try contradiction; [|constructor].
  assert (B : Qlt_bool 0 m = Qlt_bool 0 m') by (destruct (Qlt_bool 0 m) eqn:A, (Qlt_bool 0 m') eqn:B; try reflexivity; exfalso; qb; lra). rewrite B.
  destruct (Qlt_bool 0 m'); [|exact (IH _ _ H)]. constructor; [split; [reflexivity|exact F]|]. apply IH. clear -H F.
  induction H as [|[a b] [c e] l l' [H1 H2] _ IH]; cbn [map fst snd] in *; constructor; [|exact IH]. subst c. destruct (Qle_bool t a); cbn; split; try reflexivity; lra.
Qed.
Lemma outflows_same : forall d d', same d d' -> forall ts a b, a == b -> same (accum_outflows_loop d a ts) (accum_outflows_loop d' b ts).
Proof.
  intros d d' H. induction ts as [|t ts IH]; intros a b E; cbn [accum_outflows_loop]; [constructor|].
  assert (E2 : a + qval d t == b + qval d' t) by (rewrite E, (same_qval d d' t H); reflexivity). rewrite (same_sign _ _ E2).
  destruct (Qlt_bool (b + qval d' t) 0); [constructor; [cbn; split; [reflexivity|lra]|now apply IH]|now apply IH].
Qed.
Lemma convert_same : forall l l', same l l' -> same (convert_dict l) (convert_dict l').
Proof.
  intros l l' H. pose proof (same_keys l l' H) as K. pose proof (same_sum l l' H) as S. unfold convert_dict.
  destruct l as [|x l], l' as [|x' l']; try (inversion H; fail); [constructor|].
  rewrite (same_forallb (fun v => Qeq_bool v 0)) with (l' := x' :: l') by (auto; intros u v E; destruct (Qeq_bool u 0) eqn:A, (Qeq_bool v 0) eqn:B; try reflexivity; exfalso; qb; lra).
  rewrite (same_forallb (fun v => Qle_bool 0 v)) with (l' := x' :: l') by (auto; intros u v E; destruct (Qle_bool 0 u) eqn:A, (Qle_bool 0 v) eqn:B; try reflexivity; exfalso; qb; lra).
  rewrite (same_forallb (fun v => Qle_bool v 0)) with (l' := x' :: l') by (auto; intros u v E; destruct (Qle_bool u 0) eqn:A, (Qle_bool v 0) eqn:B; try reflexivity; exfalso; qb; lra).
  destruct (forallb _ _); [apply (same_map (fun _ _ => 1) (fun _ _ => 1)); [reflexivity|exact H]|].
  destruct (forallb _ _); [exact H|]. destruct (forallb _ _); [apply (same_map (fun _ v => - v) (fun _ v => - v)); [intros; lra|exact H]|].
  assert (B : Qeq_bool (Qsum (dvals (x :: l))) 0 = Qeq_bool (Qsum (dvals (x' :: l'))) 0) by (destruct (Qeq_bool (Qsum (dvals (x :: l))) 0) eqn:A, (Qeq_bool (Qsum (dvals (x' :: l'))) 0) eqn:B; try reflexivity; exfalso; qb; lra).
  cbn zeta. rewrite B. destruct (Qeq_bool (Qsum (dvals (x' :: l'))) 0); [constructor|].
  assert (C : Qlt_bool 0 (Qsum (dvals (x :: l))) = Qlt_bool 0 (Qsum (dvals (x' :: l')))) by (destruct (Qlt_bool 0 (Qsum (dvals (x :: l)))) eqn:A, (Qlt_bool 0 (Qsum (dvals (x' :: l')))) eqn:C; try reflexivity; exfalso; qb; lra).
  rewrite C. destruct (Qlt_bool 0 (Qsum (dvals (x' :: l')))).
  - unfold accum_inflows. rewrite K. apply inflows_same. apply prefix_same; [exact H|reflexivity].
  - unfold accum_outflows. rewrite K. apply outflows_same; [exact H|reflexivity].
Qed.
Lemma from_timing_same : forall d d' v v', same d d' -> v == v' ->
  match transactions_from_timing d v, transactions_from_timing d' v' with Ok l, Ok l' => same l l' | Err e, Err e' => e = e' | _, _ => False end.
Proof.
  intros d d' v v' H E. pose proof (same_sum d d' H) as S. unfold transactions_from_timing.
  destruct d as [|x d], d' as [|x' d']; try (inversion H; fail); [constructor|].
  assert (B : Qeq_bool (Qsum (dvals (x :: d))) 0 = Qeq_bool (Qsum (dvals (x' :: d'))) 0) by (destruct (Qeq_bool (Qsum (dvals (x :: d))) 0) eqn:A, (Qeq_bool (Qsum (dvals (x' :: d'))) 0) eqn:B; try reflexivity; exfalso; qb; lra).
  rewrite B. destruct (Qeq_bool (Qsum (dvals (x' :: d'))) 0); [reflexivity|]. apply (same_map (fun _ u => v * (u / Qsum (dvals (x :: d)))) (fun _ u => v' * (u / Qsum (dvals (x' :: d'))))); [|exact H].
  intros _ a b Eab. rewrite E, Eab, S. reflexivity.
Qed.
(** what two runs leave behind: the same accounts, the same additions to the record *)
Definition both (x x' : txs) (r r' : res (heap * txs)) : Prop :=
  match r, r' with
  | Ok r, Ok r' => heq (fst r) (fst r') /\ wf_heap (fst r) /\ wf_heap (fst r') /\ (forall o t, tval (snd r') o t - tval x' o t == tval (snd r) o t - tval x o t)
  | Err e, Err e' => e = e'
  | _, _ => False
  end.
Lemma adds_heq : forall kd default from to l l' h h' x x', same l l' ->
  (forall v, In v (dvals l) -> steady kd (if Qlt_bool v 0 then to else from)) -> wf_heap h -> wf_heap h' -> heq h h' ->
  both x x' (SubModel.add_transactions kd default (h, x) l from to false) (SubModel.add_transactions kd default (h', x') l' from to false).
Proof.
  intros kd default from to l. unfold SubModel.add_transactions. induction l as [|[w v] l IH]; intros l' h h' x x' Sm St W W' E; inversion Sm as [|? [w' v'] ? l2 [S1 S2] S3]; subst; cbn [fold_left bind fst snd].
  - unfold both. cbn [fst snd]. repeat split; auto. intros. lra.
  - cbn [fst snd] in S1, S2. subst w'.
    pose proof (run_heq kd default (Do v (TArg (WNum w)) from to false (fun _ => Done)) (Do v' (TArg (WNum w)) from to false (fun _ => Done))
      (alike_do kd v v' _ from to false _ _ S2 (or_intror (St v (or_introl eq_refl))) (fun _ _ _ _ _ => alike_done kd)) h h' x x' W W' E) as R.
    cbn [run] in R.
    destruct (add_transaction kd default (h, x) v (TArg (WNum w)) from to false) as [[h1 x1]|e], (add_transaction kd default (h', x') v' (TArg (WNum w)) from to false) as [[h2 x2]|e']; cbn [bind] in R; try contradiction.
    + cbn [fst snd] in R. destruct R as (R1 & R2 & R3 & R4). specialize (IH l2 h1 h2 x1 x2 S3 (fun u Hu => St u (or_intror Hu)) R2 R3 R1). unfold both in *.
      destruct (fold_left _ l (Ok (h1, x1))) as [r|], (fold_left _ l2 (Ok (h2, x2))) as [r'|]; auto. destruct IH as (B1 & B2 & B3 & B4). repeat split; auto.
      intros o t. specialize (R4 o t). specialize (B4 o t). lra.
    + subst e'. rewrite !fold_err. reflexivity.
Qed.
Definition alike_withheld (wh : withheld_fn) : Prop := forall h h' a, wf_heap h -> wf_heap h' -> heq h h' -> wh h a == wh h' a.
Definition both_withheld (tw tw' : Q) (x x' : txs) (r r' : res (heap * txs * Q)) : Prop :=
  match r, r' with
  | Ok (r, q), Ok (r', q') => both x x' (Ok r) (Ok r') /\ q' - tw' == q - tw
  | Err e, Err e' => e = e'
  | _, _ => False
  end.
Lemma withdraw_all_heq : forall kd default wh avail h0 h0' pl pl', kd avail = None -> alike_withheld wh -> wf_heap h0 -> wf_heap h0' -> heq h0 h0' -> same_plan pl pl' ->
  (forall a l, In (a, l) pl -> steady kd (Some a) \/ Forall (fun v => 0 <= v) (dvals l)) -> forall h h' x x' tw tw', wf_heap h -> wf_heap h' -> heq h h' ->
  both_withheld tw tw' x x' (withdraw_all kd default wh h0 avail (h, x, tw) pl) (withdraw_all kd default wh h0' avail (h', x', tw') pl').
Proof.
  intros kd default wh avail h0 h0' pl pl' K Wh W0 W0' E0 Sp. induction Sp as [|[a l] [a' l'] pl pl' [S1 S2] _ IH]; intros St h h' x x' tw tw' W W' E; cbn [withdraw_all].
  - unfold both_withheld, both. cbn [fst snd]. repeat split; auto; intros; lra.
  - cbn [fst snd] in S1, S2. subst a'. specialize (IH (fun b m Hb => St b m (or_intror Hb))).
    pose proof (adds_heq kd default (Some avail) (Some a) l l' h h' x x' S2) as A1.
    assert (St1 : forall v, In v (dvals l) -> steady kd (if Qlt_bool v 0 then Some a else Some avail)).
    { intros v Hv. destruct (Qlt_bool v 0) eqn:B; [|now apply plain_steady]. destruct (St a l (or_introl eq_refl)) as [P|P]; [exact P|]. rewrite Forall_forall in P. specialize (P v Hv). qb. lra. }
    specialize (A1 ltac:(intros v Hv; specialize (St1 v Hv); destruct (Qlt_bool v 0); exact St1) W W' E). unfold withdraw_one.
    destruct (SubModel.add_transactions kd default (h, x) l (Some avail) (Some a) false) as [[h1 x1]|e] eqn:R1, (SubModel.add_transactions kd default (h', x') l' (Some avail) (Some a) false) as [[h2 x2]|e'] eqn:R2;
      unfold both in A1; try contradiction; [|subst e'; cbn [bind]; reflexivity].
    cbn [bind fst snd] in *. destruct A1 as (B1 & B2 & B3 & B4).
    assert (Ec : wh h1 a - wh h0 a == wh h2 a - wh h0' a) by (rewrite (Wh h1 h2 a B2 B3 B1), (Wh h0 h0' a W0 W0' E0); reflexivity).
    assert (Bq : Qeq_bool (wh h1 a - wh h0 a) 0 = Qeq_bool (wh h2 a - wh h0' a) 0) by (destruct (Qeq_bool (wh h1 a - wh h0 a) 0) eqn:A, (Qeq_bool (wh h2 a - wh h0' a) 0) eqn:B; try reflexivity; exfalso; qb; lra).
    rewrite Bq. destruct (Qeq_bool (wh h2 a - wh h0' a) 0).
    + cbn [bind]. specialize (IH h1 h2 x1 x2 tw tw' B2 B3 B1). unfold both_withheld in *.
      destruct (withdraw_all kd default wh h0 avail (h1, x1, tw) pl) as [[r q]|], (withdraw_all kd default wh h0' avail (h2, x2, tw') pl') as [[r' q']|]; auto.
      destruct IH as [(C1 & C2 & C3 & C4) C5]. split; [|exact C5]. unfold both. repeat split; auto. intros o t. specialize (B4 o t). specialize (C4 o t). lra.
    + cbn [Timing bind]. pose proof (from_timing_same _ _ _ _ (convert_same l l' S2) Ec) as T.
      destruct (transactions_from_timing (convert_dict l) _) as [ts|e], (transactions_from_timing (convert_dict l') _) as [ts'|e']; try contradiction; [|subst e'; reflexivity].
      cbn [bind]. pose proof (adds_heq kd default None (Some avail) ts ts' h1 h2 x1 x2 T) as A2.
      specialize (A2 ltac:(intros v _; destruct (Qlt_bool v 0); [now apply plain_steady|exact I]) B2 B3 B1).
      destruct (SubModel.add_transactions kd default (h1, x1) ts None (Some avail) false) as [[h3 x3]|e], (SubModel.add_transactions kd default (h2, x2) ts' None (Some avail) false) as [[h4 x4]|e'];
        unfold both in A2; try contradiction; [|subst e'; cbn [bind]; reflexivity].
      cbn [bind fst snd] in *. destruct A2 as (D1 & D2 & D3 & D4).
      specialize (IH h3 h4 x3 x4 (tw + (wh h1 a - wh h0 a)) (tw' + (wh h2 a - wh h0' a)) D2 D3 D1). unfold both_withheld in *.
      destruct (withdraw_all kd default wh h0 avail (h3, x3, _) pl) as [[r q]|], (withdraw_all kd default wh h0' avail (h4, x4, _) pl') as [[r' q']|]; auto.
      destruct IH as [(C1 & C2 & C3 & C4) C5]. split; [|lra]. unfold both. repeat split; auto. intros o t. specialize (B4 o t). specialize (C4 o t). specialize (D4 o t). lra.
Qed.
Lemma adds_run : forall kd default from to l hx h, SubModel.add_transactions kd default hx l from to false = run kd default hx (move_each l from to (fun _ => Done) h).
Proof.
  intros kd default from to. unfold SubModel.add_transactions. induction l as [|[w v] l IH]; intros hx h; cbn [fold_left bind fst snd move_each run]; [reflexivity|].
  destruct (add_transaction kd default hx v (TArg (WNum w)) from to false) as [hy|e]; cbn [bind]; [apply IH|now rewrite fold_err].
Qed.
(** what is recorded is what the accounts changed by, and is kept in order *)
Definition recorded (x : txs) (h : heap) (hx : heap * txs) : Prop := wf_tx (snd hx) /\ wf_heap (fst hx) /\ forall a t, hval (fst hx) a t - tval (snd hx) (Some a) t == hval h a t - tval x (Some a) t.
Lemma run_wf_heap : forall kd default p hx hx', wf_heap (fst hx) -> run kd default hx p = Ok hx' -> wf_heap (fst hx').
Proof.
  intros kd default p. induction p as [|e|v t f to st k IH]; intros hx hx' W H; cbn [run] in H; [injection H as <-; exact W|discriminate|].
  destruct (add_transaction kd default hx v t f to st) as [hy|e] eqn:E; [|discriminate]. cbn [bind] in H. refine (IH _ _ _ _ H).
  unfold add_transaction in E. destruct (timing_arg default t) as [tm|e]; [|discriminate]. cbn [bind] in E. unfold add_timed in E.
  destruct (if Qlt_bool v 0 then (to, f) else (f, to)) as [f0 t0]. revert E.
  generalize (Qsum (dvals tm)) as total. generalize (if Qlt_bool v 0 then - v else v) as u. intros u total. clear H IH. revert hx W.
  induction tm as [|[w s] l IH]; intros hx W E; cbn [fold_left] in E; [injection E as <-; exact W|].
  cbn [bind fst snd] in E. destruct (qdiv s total) as [sh|e] eqn:Eq; [|exfalso; revert E; apply fold_ne].
  cbn [bind] in E. refine (IH _ _ E). destruct hx as [h x]. unfold add_one. cbn [fst] in *. now apply post_wf, post_wf.
Qed.
Lemma adds_recorded : forall kd default from to l hx hx' x h, recorded x h hx -> SubModel.add_transactions kd default hx l from to false = Ok hx' -> recorded x h hx'.
Proof.
  intros kd default from to l hx hx' x h (A1 & A2 & A3) H. rewrite (adds_run kd default from to l hx h) in H. split; [|split].
  - exact (run_wf_tx _ _ _ _ _ A1 H).
  - exact (run_wf_heap _ _ _ _ _ A2 H).
  - intros a t. destruct (C58_runs_balance kd default _ hx hx' H) as [B _]. specialize (B a t). specialize (A3 a t). lra.
Qed.
Lemma withdraw_recorded : forall kd default wh h0 avail x h pl hx tw hx' tw', recorded x h hx -> withdraw_all kd default wh h0 avail (hx, tw) pl = Ok (hx', tw') -> recorded x h hx'.
Proof.
  intros kd default wh h0 avail x h pl. induction pl as [|[a l] pl IH]; intros hx tw hx' tw' R H; cbn [withdraw_all] in H; [injection H as <- <-; exact R|].
  destruct (withdraw_one kd default wh h0 avail (hx, tw) (a, l)) as [[hy ty]|e] eqn:E; [|discriminate]. cbn [bind] in H. refine (IH _ _ _ _ _ H).
  unfold withdraw_one in E. destruct (SubModel.add_transactions kd default hx l (Some avail) (Some a) false) as [h1|e] eqn:E1; [|discriminate]. cbn [bind] in E.
  pose proof (adds_recorded _ _ _ _ _ _ _ _ _ R E1) as R1. destruct (Qeq_bool _ 0); [injection E as <- <-; exact R1|].
  destruct (Timing (WDict l) (FNum 1)) as [tm|]; [|discriminate]. cbn [bind] in E. destruct (transactions_from_timing tm _) as [ts|]; [|discriminate]. cbn [bind] in E.
  destruct (SubModel.add_transactions kd default h1 ts None (Some avail) false) as [h2|] eqn:E2; [|discriminate]. cbn [bind] in E. injection E as <- <-.
  exact (adds_recorded _ _ _ _ _ _ _ _ _ R1 E2).
Qed.
(** withdrawals: a second call in the year leaves the accounts as the first left them; the tax withheld
    that the sub-forecast reports is then the year's, without what earlier years left in it *)
Theorem C60_withdrawal_partial : forall kd default strategy wh avail h w h1 w1, kd avail = None -> consistent strategy -> from_steady kd strategy -> alike_withheld wh ->
  wf_heap h -> s_invoked (w_sub w) = false -> s_tx (w_sub w) = [] ->
  withdraw_call kd default strategy wh h w avail = Ok (h1, w1) ->
  exists h2 w2, withdraw_call kd default strategy wh h1 w1 avail = Ok (h2, w2) /\ heq h2 h1 /\ w_withheld w2 == w_withheld w1 - w_withheld w.
Proof.
  intros kd default strategy wh avail h w h1 w1 K Sx Fs Wh W Inv Tx H. unfold withdraw_call, begin_call in H. rewrite Inv in H. unfold s_tx in H, Tx. cbn [s_objs s_ref] in H. rewrite Tx in H.
  destruct (strategy h) as [pl|e] eqn:P; [|discriminate]. cbn [bind] in H.
  destruct (withdraw_all kd default wh h avail (h, _, w_withheld w) pl) as [[[h1' x] q]|e] eqn:R; [|discriminate]. cbn [bind fst snd] in H. injection H as <- <-.
  assert (R0 : recorded [] h (h, [])) by (split; [split; [exact I|intros; exact I]|split; [exact W|intros; reflexivity]]).
  destruct (withdraw_recorded _ _ _ _ _ [] h _ _ _ _ _ R0 R) as (Wx & W1 & B). cbn [fst snd] in Wx, W1, B.
  unfold withdraw_call, begin_call, set_tx, undo, s_tx. cbn [w_sub s_invoked s_objs s_ref]. rewrite Nat.eqb_refl.
  set (h2 := fold_left undo_one x h1').
  assert (U : heq h h2) by (intros a t; unfold h2; rewrite undo_val by exact Wx; specialize (B a t); change (tval [] (Some a) t) with 0 in B; lra).
  pose proof (undo_wf x h1' W1) as W2. fold h2 in W2.
  pose proof (Sx h h2 W W2 U) as S. rewrite P in S. destruct (strategy h2) as [pl'|]; [|contradiction]. cbn [bind].
  pose proof (withdraw_all_heq kd default wh avail h h2 pl pl' K Wh W W2 U S (fun a l => Fs h pl a l P) h h2 [] x (w_withheld w) 0 W W2 U) as A. rewrite R in A.
  destruct (withdraw_all kd default wh h2 avail (h2, x, 0) pl') as [[r q']|]; [|contradiction]. destruct A as [(A1 & _) A2]. cbn [bind fst snd] in *.
  eexists _, _. split; [reflexivity|]. cbn [w_withheld]. split; [|lra]. intros a t. symmetry. apply A1.
Qed.
Print Assumptions C60_withdrawal_partial.

(** a household whose third account is an account of the kind [level]: 500 to begin with, no growth *)
Definition level500 : acct_view :=
  {| av_out := fun d t => - (500 + upto d t); av_outs := fun d t => - (500 + upto d t);
     av_time := fun d v w => qminl (filter (fun k => Qlt_bool w k && Qle_bool v (500 + upto d k)) (dkeys d)) |}.
Definition mixed_kinds : kinds := fun a => if Nat.eqb a 2 then Some level500 else None.
Lemma level500_level : level level500 500.
Proof.
  split; [intros d t; cbn; lra|]. intros d v w t T. right. cbn in T. destruct (TimingProofs.qminl_in _ _ T) as (x & X1 & X2). apply filter_In in X1. exists x. split; [tauto|lra].
Qed.
(** put 40 into account 1 and 60 into account 2 when there is plenty; else take 300 from account 2 and 100 from account 1 *)
Definition saver : heap -> res plan := fun h => Ok [(1%nat, [(1 # 2, 40)]); (2%nat, [(1, 60)])].
Definition spender : heap -> res plan := fun h => if Qlt_bool (upto (hget h 0) 1) 0 then Ok [(2%nat, [(1 # 4, -300)]); (1%nat, [(1 # 2, -100)])] else Ok [].
Definition mixed_heap : heap := [(0%nat, [(1 # 4, -400)]); (1%nat, [(0, 5000)]); (2%nat, [(0, -300); (1 # 2, 200)])].
Definition wh10 : withheld_fn := fun h a => if Nat.eqb a 1 then - (1 # 10) * (upto (hget h a) 1 - 5000) else 0.
Example C60_mixed_sat : mixed_kinds 0%nat = None /\ consistent saver /\ from_steady mixed_kinds saver /\ consistent spender /\ from_steady mixed_kinds spender /\ alike_withheld wh10 /\ wf_heap mixed_heap /\
  (exists h1 s1, call mixed_kinds [] (saving_body saver 0) mixed_heap (new_sub 2000) 0 = Ok (h1, s1) /\ htotal h1 2 == -40) /\
  exists h1 w1, withdraw_call mixed_kinds [] spender wh10 mixed_heap wstart 0 = Ok (h1, w1) /\ hval h1 2 (1 # 2) == -100 /\ htotal h1 1 == 4900 /\ w_withheld w1 == 10.
Proof.
  assert (L : forall a, steady mixed_kinds (Some a)).
  { intros a. destruct (Nat.eqb_spec a 2) as [->|N]; [exact (level_steady mixed_kinds 2 level500 500 eq_refl level500_level)|].
    apply plain_steady. unfold mixed_kinds. now rewrite (proj2 (Nat.eqb_neq a 2) N). }
  split; [reflexivity|]. split; [intros h h' _ _ _; unfold saver; cbn; repeat constructor|]. split; [intros h pl a l _ _; left; apply L|].
  split.
  { intros h h' W W' E. unfold spender. assert (U : upto (hget h 0) 1 == upto (hget h' 0) 1) by (apply upto_heq; [apply W|apply W'|intros t; apply (E 0%nat t)]).
    rewrite (same_sign _ _ U). destruct (Qlt_bool (upto (hget h' 0) 1) 0); repeat constructor. }
  split; [intros h pl a l _ _; left; apply L|].
  split.
  { intros h h' a W W' E. unfold wh10. destruct (Nat.eqb a 1); [|reflexivity]. assert (U : upto (hget h a) 1 == upto (hget h' a) 1) by (apply upto_heq; [apply W|apply W'|intros t; apply (E a t)]). rewrite U. reflexivity. }
  split.
  { intros a. unfold hget, mixed_heap. cbn [dget]. destruct (Nat.eqb a 0); [split; [reflexivity|exact I]|]. destruct (Nat.eqb a 1); [split; [reflexivity|exact I]|]. destruct (Nat.eqb a 2); [|exact I]. repeat split; reflexivity. }
  split.
  - destruct (call mixed_kinds [] (saving_body saver 0) mixed_heap (new_sub 2000) 0) as [[h1 s1]|] eqn:E; [|vm_compute in E; discriminate].
    exists h1, s1. split; [reflexivity|]. vm_compute in E. injection E as <- <-. vm_compute. reflexivity.
  - destruct (withdraw_call mixed_kinds [] spender wh10 mixed_heap wstart 0) as [[h1 w1]|] eqn:E; [|vm_compute in E; discriminate].
    exists h1, w1. split; [reflexivity|]. vm_compute in E. injection E as <- <-. repeat split; vm_compute; reflexivity.
Qed.
