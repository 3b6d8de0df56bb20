(** C45, C46, C76: Canadian credits and the two-jurisdiction tax. *)
From Verif Require Import Base BaseFacts InflationModel RegModel TaxModel TaxSpec TaxProofs TaxProofs2 TaxProofs3 Prop_Tax TaxCanadaModel.
From Coq Require Import Lia.

(** net income as the jurisdiction sees it *)
Definition net_income (j : cjur) (p : cperson) (y : Z) (n : Q) : Prop :=
  exists d, deduction (cj_tax j) (cp_tp p) y = Ok d /\ n = cp_income_now p - d.
Definition max_spousal (j : cjur) (y : Z) (m : Q) : Prop := indexed (cj_tax j) (cj_spousal j) y = Ok m.

(** ** C45 *)
(** of two spouses the one with the lower net income claims nothing; on a tie exactly one of them
    may claim; the claim is the maximum less the other's net income, never negative *)
Theorem C45_one_claimant : forall j p q y m np nq, cp_id p <> cp_id q -> max_spousal j y m -> net_income j p y np -> net_income j q y nq ->
  exists cp cq, spousal_credit j p (Some q) y = Ok cp /\ spousal_credit j q (Some p) y = Ok cq /\
    0 <= cp /\ 0 <= cq /\ (cp == 0 \/ cq == 0) /\
    (np < nq -> cp == 0 /\ cq == qmax (m - np) 0) /\
    (np == nq -> cp + cq == qmax (m - np) 0).
Proof.
  intros j p q y m np nq Hid Hm (dp & Ep & ->) (dq & Eq' & ->). unfold spousal_credit. rewrite Hm, Ep, Eq'. cbn [bind].
  set (P := cp_income_now p - dp). set (N := cp_income_now q - dq).
  destruct (Qlt_bool P N) eqn:E1, (Qlt_bool N P) eqn:E2; qb; try (exfalso; lra).
  - assert (E3 : Qeq_bool N P = false) by (apply Qeq_bool_f; lra). rewrite E3. cbn [andb].
    do 2 eexists. split; [reflexivity|]. split; [reflexivity|]. split; [lra|]. split; [apply qmax_r|]. split; [left; reflexivity|]. split; [intro; split; reflexivity|intro; exfalso; lra].
  - assert (E3 : Qeq_bool P N = false) by (apply Qeq_bool_f; lra). rewrite E3. cbn [andb].
    do 2 eexists. split; [reflexivity|]. split; [reflexivity|]. split; [apply qmax_r|]. split; [lra|]. split; [right; reflexivity|]. split; intro; exfalso; lra.
  - assert (E : P == N) by lra. assert (E3 : Qeq_bool P N = true) by (apply Qeq_bool_t; exact E). assert (E4 : Qeq_bool N P = true) by (apply Qeq_bool_t; lra). rewrite E3, E4. cbn [andb].
    destruct (Z.ltb_spec (cp_id p) (cp_id q)), (Z.ltb_spec (cp_id q) (cp_id p)); try lia.
    + do 2 eexists. split; [reflexivity|]. split; [reflexivity|]. split; [lra|]. split; [apply qmax_r|]. split; [left; reflexivity|]. split; [intro; exfalso; lra|intro; ring].
    + do 2 eexists. split; [reflexivity|]. split; [reflexivity|]. split; [apply qmax_r|]. split; [lra|]. split; [right; reflexivity|]. split; [intro; exfalso; lra|intro; rewrite E; ring].
Qed.
Print Assumptions C45_one_claimant.
(** within the maximum when the lower earner's net income is not negative *)
Theorem C45_within_maximum_partial : forall j p q y m np nq c, max_spousal j y m -> 0 <= m -> net_income j p y np -> net_income j q y nq -> 0 <= nq ->
  spousal_credit j p (Some q) y = Ok c -> 0 <= c <= m.
Proof.
  intros j p q y m np nq c Hm Hm0 (dp & Ep & ->) (dq & Eq' & ->) Hn. unfold spousal_credit. rewrite Hm, Ep, Eq'. cbn [bind].
  set (P := cp_income_now p - dp) in *. set (N := cp_income_now q - dq) in *. intro H.
  assert (Hc : c = 0 \/ c = qmax (m - N) 0) by (destruct (Qlt_bool P N); [injection H as <-; tauto|]; destruct (Qeq_bool P N && (cp_id p <? cp_id q)%Z); injection H as <-; tauto).
  destruct Hc as [-> | ->]; [lra|]. destruct (qmax_case (m - N) 0) as [[A B]|[A B]]; rewrite B; lra.
Qed.
Print Assumptions C45_within_maximum_partial.
Theorem C45_unmarried : forall j p y, spousal_credit j p None y = Ok 0.
Proof. reflexivity. Qed.
Print Assumptions C45_unmarried.
Definition demo_j : cjur := {| cj_tax := demo_s; cj_pension := [(2000%Z, 30)]; cj_spousal := [(2000%Z, 80)] |}.
Definition demo_p (i : Z) (income now own : Q) : cperson :=
  {| cp_id := i; cp_tp := {| tp_income := [(2000%Z, income); (2001%Z, income)]; tp_deduction := [(2000%Z, own); (2001%Z, own)]; tp_credit := [(2000%Z, 0); (2001%Z, 0)] |};
     cp_income_now := now; cp_rrsp_out := [-20; -15] |}.
(** a spouse whose deductions exceed their income pushes the credit above the statutory maximum:
    maximum 80, spouse without income and personal deduction 50 gives 130 *)
Theorem C45_exceeds_maximum_refuted : exists j p q y m c, max_spousal j y m /\ spousal_credit j p (Some q) y = Ok c /\ m < c.
Proof. exists demo_j, (demo_p 1 500 500 0), (demo_p 2 0 0 0), 2000%Z, 80, 130. split; [reflexivity|]. split; reflexivity. Qed.
Print Assumptions C45_exceeds_maximum_refuted.
(** the credit for a given year is computed from whatever the incomes are now, not from that year's
    recorded incomes: asking again after incomes changed gives another answer *)
Theorem C45_uses_current_income_refuted : exists j p p' q q' y c c', cp_id p = cp_id p' /\ cp_tp p = cp_tp p' /\ cp_id q = cp_id q' /\ cp_tp q = cp_tp q' /\
  spousal_credit j p (Some q) y = Ok c /\ spousal_credit j p' (Some q') y = Ok c' /\ c < c'.
Proof.
  exists demo_j, (demo_p 1 500 500 0), (demo_p 1 500 700 0), (demo_p 2 90 90 0), (demo_p 2 90 60 0), 2000%Z. do 2 eexists.
  do 4 (split; [reflexivity|]). split; [vm_compute; reflexivity|]. split; [vm_compute; reflexivity|]. reflexivity.
Qed.
Print Assumptions C45_uses_current_income_refuted.
Example C45_sat : cp_id (demo_p 1 500 500 0) <> cp_id (demo_p 2 70 70 0) /\ max_spousal demo_j 2000 80 /\ net_income demo_j (demo_p 1 500 500 0) 2000 (500 - (50 + 0)) /\
  net_income demo_j (demo_p 2 70 70 0) 2000 (70 - (50 + 0)) /\ exists c, spousal_credit demo_j (demo_p 1 500 500 0) (Some (demo_p 2 70 70 0)) 2000 = Ok c /\ c == 60.
Proof.
  split; [discriminate|]. split; [reflexivity|]. split; [exists (50 + 0); split; reflexivity|]. split; [exists (50 + 0); split; reflexivity|].
  eexists. split; [vm_compute; reflexivity|reflexivity].
Qed.

(** ** C46 *)
Theorem C46_pension_credit : forall j p y m, indexed (cj_tax j) (cj_pension j) y = Ok m -> 0 <= m -> (forall o, In o (cp_rrsp_out p) -> o <= 0) ->
  exists c, pension_credit j p y = Ok c /\ 0 <= c <= m /\ c <= - Qsum (cp_rrsp_out p) /\ c == qmin (- Qsum (cp_rrsp_out p)) m.
Proof.
  intros j p y m Hm Hm0 Ho. unfold pension_credit. rewrite Hm. cbn [bind]. eexists. split; [reflexivity|].
  pose proof (Qsum_nonpos (cp_rrsp_out p) Ho) as Hs.
  assert (E : qabs (Qsum (cp_rrsp_out p)) == - Qsum (cp_rrsp_out p)) by (destruct (qabs_case (Qsum (cp_rrsp_out p))) as [[A B]|[A B]]; rewrite B; lra).
  split; [|split; [|rewrite E; reflexivity]].
  - rewrite E. destruct (qmin_case (- Qsum (cp_rrsp_out p)) m) as [[A B]|[A B]]; rewrite B; lra.
  - rewrite <- E. apply qmin_l.
Qed.
Print Assumptions C46_pension_credit.
(** the credits a jurisdiction grants are the recorded ones plus pension plus spousal credit; in the
    tax the recorded ones are then added once more *)
Theorem C46_total_credit : forall j p spouse y own a b, dget Z.eqb (tp_credit (cp_tp p)) y = Some own ->
  pension_credit j p y = Ok a -> spousal_credit j p spouse y = Ok b -> cj_credit j p spouse y = Ok (own + a + b) /\
  forall income own_d pdn ded cred, dget Z.eqb (tp_income (cp_tp p)) y = Some income -> dget Z.eqb (tp_deduction (cp_tp p)) y = Some own_d ->
    personal_deduction (cj_tax j) y = Ok pdn ->
    cj_tax_person j p spouse y ded cred = tax_money (cj_tax j) income y (own_d + (pdn + own_d) + ded) (own + (own + a + b) + cred).
Proof.
  intros j p spouse y own a b Ho Ha Hb. assert (E : cj_credit j p spouse y = Ok (own + a + b)).
  { unfold cj_credit, credit, dget_r. rewrite Ho. cbn [bind]. rewrite Ha. cbn [bind]. rewrite Hb. reflexivity. }
  split; [exact E|]. intros income own_d pdn ded cred Hi Hd Hp. unfold cj_tax_person, deduction, dget_r. rewrite Hi, Hd, Hp. cbn [bind]. rewrite Ho. cbn [bind]. rewrite E. reflexivity.
Qed.
Print Assumptions C46_total_credit.
Example C46_sat : indexed (cj_tax demo_j) (cj_pension demo_j) 2001 = Ok (30 * 2) /\ exists c, pension_credit demo_j (demo_p 1 500 500 0) 2001 = Ok c /\ c == 35 /\
  exists c0, pension_credit demo_j (demo_p 1 500 500 0) 2000 = Ok c0 /\ c0 == 30.
Proof. split; [reflexivity|]. eexists. split; [vm_compute; reflexivity|]. split; [reflexivity|]. eexists. split; [vm_compute; reflexivity|]. reflexivity. Qed.

(** ** C76 *)
(** each convenience argument affects only its own jurisdiction; total = federal + provincial *)
(** the argument that applies to a jurisdiction: its own keyword, else its entry in the dict passed *)
Definition applies (own : option Q) (passed : option (dict nat Q)) (jurisdiction : nat) : option Q :=
  match own, passed with Some q, _ => Some q | None, Some d => dget Nat.eqb d jurisdiction | None, None => None end.
Theorem C76_federal_plus_provincial : forall fed prov x y fd fc pd pc ded cred t dc, canada_call fed prov x y fd fc pd pc ded cred = Ok (t, dc) ->
  exists a b s s', call_money fed x y (applies fd ded 0) (applies fc cred 0) = Ok (a, s) /\
    call_money prov x y (applies pd ded 1) (applies pc cred 1) = Ok (b, s') /\ t == a + b.
Proof.
  intros fed prov x y fd fc pd pc ded cred t dc H. unfold canada_call, multi_call in H. cbn [sum_over] in H.
  assert (L0 : forall (a b : option Q) (o : option (dict nat Q)), dget Nat.eqb (opt_set (opt_set (match o with Some d => d | None => nil end) 0 a) 1 b) 0%nat = applies a o 0).
  { intros a b o. unfold applies. destruct a as [?|], b as [?|], o as [?|]; cbn [opt_set]; rewrite ?ndget_dset; reflexivity. }
  assert (L1 : forall (a b : option Q) (o : option (dict nat Q)), dget Nat.eqb (opt_set (opt_set (match o with Some d => d | None => nil end) 0 a) 1 b) 1%nat = applies b o 1).
  { intros a b o. unfold applies. destruct a as [?|], b as [?|], o as [?|]; cbn [opt_set]; rewrite ?ndget_dset; reflexivity. }
  rewrite !L0, !L1 in H. destruct (call_money fed x y _ _) as [[a s]|] eqn:E1; [|discriminate]. cbn [bind] in H.
  destruct (call_money prov x y _ _) as [[b s']|] eqn:E2; [|discriminate]. cbn [bind] in H. injection H as <- _.
  exists a, b, s, s'. split; [reflexivity|]. split; [reflexivity|]. ring.
Qed.
Print Assumptions C76_federal_plus_provincial.
(** the caller's dict is modified: what was meant for one call is applied again in the next *)
Theorem C76_caller_dict_modified_refuted : exists fed prov x y t d c t' dc t0 dc0, 
  canada_call fed prov x y (Some 100) None None None (Some []) None = Ok (t, (d, c)) /\ d <> [] /\
  canada_call fed prov x y None None None None (Some d) None = Ok (t', dc) /\
  canada_call fed prov x y None None None None (Some []) None = Ok (t0, dc0) /\ ~ t' == t0.
Proof.
  exists demo_s, demo_s, 500, 2000%Z. do 7 eexists. split; [vm_compute; reflexivity|]. split; [discriminate|]. split; [vm_compute; reflexivity|]. split; [vm_compute; reflexivity|]. intro H. discriminate H.
Qed.
Print Assumptions C76_caller_dict_modified_refuted.
Example C76_sat : exists t dc, canada_call demo_s demo_s 500 2000 (Some 100) None None (Some 40) None None = Ok (t, dc) /\ t == (10 + 60) + (10 + 80 - 10).
Proof. do 2 eexists. split; [vm_compute; reflexivity|]. reflexivity. Qed.
