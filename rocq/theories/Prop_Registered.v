(** Properties C29, C30 and C74: groups of registered accounts. *)
From Verif Require Import Base BaseFacts InflationModel PersonModel PersonProofs RegModel RegSpec RegProofs.
From Coq Require Import Lia.

Lemma together_sync group s y i : together group s y -> In i group -> in_sync group s i = true.
Proof. intros H Hi. apply forallb_forall. intros k Hk. rewrite (H k Hk), (H i Hi). apply Z.eqb_refl. Qed.
Lemma together_M group s y : together group s y -> (M group s (y + 1) <= List.length group)%nat.
Proof.
  unfold together, M. generalize group. induction group0 as [|k l IH]; intro H; [cbn; lia|].
  unfold list_sum in *. cbn [map fold_right List.length]. rewrite (H k (or_introl eq_refl)).
  specialize (IH (fun j Hj => H j (or_intror Hj))). lia.
Qed.

Lemma dget_ddel_ne {V} (d : dict Z V) k k' : k' <> k -> dget Z.eqb (ddel Z.eqb d k) k' = dget Z.eqb d k'.
Proof.
  intro H. induction d as [|[a v] r IH]; [reflexivity|]. cbn. destruct (Z.eqb_spec k a) as [->|Ha].
  - destruct (Z.eqb_spec k' a); [congruence|reflexivity].
  - cbn. destruct (Z.eqb k' a); [reflexivity|exact IH].
Qed.
Lemma dget_ddel_none {V} (d : dict Z V) k k' : dget Z.eqb d k' = None -> dget Z.eqb (ddel Z.eqb d k) k' = None.
Proof.
  induction d as [|[a v] r IH]; intro H; [reflexivity|]. cbn in *. destruct (Z.eqb_spec k' a) as [->|Ha]; [discriminate|].
  destruct (Z.eqb_spec k a); [exact H|]. cbn. destruct (Z.eqb_spec k' a); [congruence|]. apply IH. exact H.
Qed.
(** ** C29 *)
(** Whichever account is advanced first: afterwards the whole group and the contributor are in
    the next year, every account has recorded the room it showed in the old year, all have
    an empty transaction list, and the shared room has become the new figure. *)
Theorem C29_lockstep : forall group rule n s i y r,
  In i group -> together group s y -> (List.length group <= n)%nat ->
  room_next rule s i y r ->
  exists s', reg_next_year group rule n s i = Ok s' /\
    together group s' (y + 1) /\ g_person s' = Z.max (g_person s) (y + 1)%Z /\
    (forall k, In k group -> ra_txns (g_acct s' k) = [] /\
                             dget Z.eqb (ra_hist (g_acct s' k)) y = Some (room_of s k)) /\
    (forall k, In k group -> ra_inputs (g_acct s' k) = ra_inputs (g_acct s k) /\
       forall y', y' <> y -> dget Z.eqb (ra_hist (g_acct s k)) y' = None -> dget Z.eqb (ra_hist (g_acct s' k)) y' = None) /\
    (forall k, ~ In k group -> g_acct s' k = g_acct s k) /\
    (dmem Z.eqb (ra_inputs (g_acct s i)) (y + 1)%Z = false -> g_room s' = Some r).
Proof.
  intros group rule n s i y r Hi Ht Hn Hr.
  pose proof (together_sync _ _ _ _ Ht Hi) as Hs. pose proof (together_M _ _ _ Ht) as HM.
  assert (Hr' : new_room rule s i = Ok (Some r)).
  { unfold new_room. rewrite (Ht i Hi). destruct Hr as [E|[E1 E2]]; [rewrite E; reflexivity|rewrite E1, E2; reflexivity]. }
  destruct (ny_first group rule n s i (Some r) Hi Hs) as (s3 & E & A & B & C & D); [rewrite (Ht i Hi); lia|exact Hr'|].
  rewrite (Ht i Hi) in *. eexists. split; [exact E|].
  assert (Hadv : forall k, In k group -> g_acct s3 k = advance (g_room s) (g_acct s k)).
  { intros k Hk. rewrite (A k Hk), (Ht k Hk). replace (Z.to_nat (y + 1 - y)) with 1%nat by lia. reflexivity. }
  split; [|split; [|split; [|split; [|split]]]].
  - intros k Hk. rewrite set_room_years. rewrite (all_at_year _ _ _ _ _ A Hk), (Ht k Hk). lia.
  - unfold set_room. destruct (dmem Z.eqb _ _); exact D.
  - intros k Hk.
    assert (Hrec : ra_txns (g_acct s3 k) = [] /\ dget Z.eqb (ra_hist (g_acct s3 k)) y = Some (room_of s k)).
    { rewrite (Hadv k Hk). split; [reflexivity|]. unfold advance, room_of. cbn [ra_hist].
      pose proof (Ht k Hk) as Ek. unfold yr in Ek. rewrite Ek.
      destruct (dget Z.eqb (ra_hist (g_acct s k)) y) as [v|] eqn:Eg; [exact Eg|]. rewrite zdget_dset, Z.eqb_refl. reflexivity. }
    unfold set_room. destruct (dmem Z.eqb (ra_inputs (g_acct s3 i)) (ra_year (g_acct s3 i))); [exact Hrec|].
    cbn [g_acct]. rewrite upd_fn_eq. destruct (Nat.eqb_spec k i) as [->|]; [|exact Hrec]. cbn [ra_txns ra_hist].
    split; [apply Hrec|]. rewrite dget_ddel_ne; [apply Hrec|]. intro Ey.
    exfalso. rewrite (Hadv i Hi) in Ey. unfold advance in Ey. cbn [ra_year] in Ey. pose proof (Ht i Hi) as Ei. unfold yr in Ei. lia.
  - intros k Hk.
    assert (Hrec : ra_inputs (g_acct s3 k) = ra_inputs (g_acct s k) /\ forall y', y' <> y ->
      dget Z.eqb (ra_hist (g_acct s k)) y' = None -> dget Z.eqb (ra_hist (g_acct s3 k)) y' = None).
    { rewrite (Hadv k Hk). split; [reflexivity|]. intros y' Hne Hnone. unfold advance. cbn [ra_hist].
      pose proof (Ht k Hk) as Ek. unfold yr in Ek. rewrite Ek.
      destruct (dget Z.eqb (ra_hist (g_acct s k)) y) as [v|] eqn:Eg; [exact Hnone|]. rewrite zdget_dset.
      destruct (Z.eqb_spec y' y); [contradiction|exact Hnone]. }
    unfold set_room. destruct (dmem Z.eqb (ra_inputs (g_acct s3 i)) (ra_year (g_acct s3 i))); [exact Hrec|].
    cbn [g_acct]. rewrite upd_fn_eq. destruct (Nat.eqb_spec k i) as [->|]; [|exact Hrec]. cbn [ra_inputs ra_hist].
    split; [apply Hrec|]. intros y' Hne Hnone. apply dget_ddel_none. apply Hrec; assumption.
  - intros k Hk. unfold set_room. destruct (dmem Z.eqb _ _); [apply B; exact Hk|]. cbn [g_acct]. rewrite upd_fn_eq.
    destruct (Nat.eqb_spec k i) as [->|]; [contradiction|apply B; exact Hk].
  - intro Hno. unfold set_room. rewrite (Hadv i Hi). unfold advance. cbn [ra_inputs ra_year].
    pose proof (Ht i Hi) as Ei. unfold yr in Ei. rewrite Ei, Hno. reflexivity.
Qed.
Print Assumptions C29_lockstep.

(** In an arbitrary, possibly out-of-step state, advancing one account brings every account that
    is behind up to that account's new year, moves nobody past it, and does not touch the room. *)
Theorem C29_out_of_step : forall group rule s i,
  In i group -> (exists j, In j group /\ yr s j <> yr s i) ->
  exists N, forall n, (N <= n)%nat -> exists s', reg_next_year group rule n s i = Ok s' /\
    (forall k, In k group -> yr s' k = Z.max (yr s k) (yr s i + 1)) /\
    g_room s' = g_room s /\ g_person s' = Z.max (g_person s) (yr s i + 1).
Proof.
  intros group rule s i Hi (j & Hj & Hne). exists (M group s (yr s i + 1)). intros n Hn.
  destruct (ny_not_first group rule n s i Hi (in_sync_f group s i j Hj Hne) Hn) as (s' & E & A & _ & C & D).
  exists s'. split; [exact E|]. split; [|split; [exact C|exact D]]. intros k Hk. apply (all_at_year _ _ _ _ _ A Hk).
Qed.
Print Assumptions C29_out_of_step.

(** Advancing every account of any list (any order, repetitions, any subset) to next year by
    guarded loops has exactly the effect of advancing the first of them once. *)
Theorem C29_any_order : forall group rule n s i l y s',
  In i group -> incl l group -> together group s y -> (List.length group <= n)%nat ->
  reg_next_year group rule n s i = Ok s' -> advance_list group rule n (i :: l) s (y + 1) = Ok s'.
Proof.
  intros group rule n s i l y s' Hi Hl Ht Hn E. apply advance_list_once; try assumption.
  pose proof (together_M _ _ _ Ht). lia.
Qed.
Print Assumptions C29_any_order.

(** Over any number of years, with any (non-empty) list of accounts advanced in each, a rule that
    maps this year's room to next year's is applied exactly once per year. *)
Fixpoint room_after (f : Z -> Q -> Q) (y : Z) (r : Q) (T : nat) : Q :=
  match T with O => r | S T' => room_after f (y + 1) (f y r) T' end.
Definition room_rule (f : Z -> Q -> Q) (i : nat) (s : gstate) : res Q :=
  match room_of s i with Some r => Ok (f (yr s i) r) | None => Err TypeError end.
Theorem C29_once_per_year : forall group f n ls s y r,
  (List.length group <= n)%nat -> together group s y -> g_room s = Some r -> (g_person s <= y)%Z ->
  (forall k, In k group -> ra_inputs (g_acct s k) = [] /\
     forall y', (y <= y')%Z -> dget Z.eqb (ra_hist (g_acct s k)) y' = None) ->
  (forall l, In l ls -> l <> [] /\ incl l group) ->
  exists s', run_years group (room_rule f) n ls s y = Ok s' /\
    together group s' (y + Z.of_nat (List.length ls)) /\
    (ls <> [] -> g_person s' = (y + Z.of_nat (List.length ls))%Z) /\
    g_room s' = Some (room_after f y r (List.length ls)) /\
    (forall k, In k group -> room_of s' k = Some (room_after f y r (List.length ls))).
Proof.
  intros group f n ls. induction ls as [|l ls IH]; intros s y r Hn Ht Hr Hp Hh Hls.
  - exists s. cbn. rewrite Z.add_0_r. split; [reflexivity|]. split; [exact Ht|]. split; [congruence|]. split; [exact Hr|].
    intros k Hk. unfold room_of. pose proof (Ht k Hk) as E. unfold yr in E. rewrite E.
    destruct (Hh k Hk) as [_ H]. rewrite (H y) by lia. exact Hr.
  - destruct (Hls l (or_introl eq_refl)) as [Hne Hin]. destruct l as [|i l]; [congruence|].
    assert (Hi : In i group) by (apply Hin; left; reflexivity).
    assert (Hroom : room_of s i = Some r).
    { unfold room_of. pose proof (Ht i Hi) as E. unfold yr in E. rewrite E. destruct (Hh i Hi) as [_ H]. rewrite (H y) by lia. exact Hr. }
    destruct (C29_lockstep group (room_rule f) n s i y (f y r) Hi Ht Hn) as (s1 & E1 & T1 & P1 & R1 & H1 & _ & G1).
    { right. split; [apply Hh; [exact Hi|lia]|]. unfold room_rule. rewrite Hroom, (Ht i Hi). reflexivity. }
    destruct (IH s1 (y + 1)%Z (f y r)) as (s2 & E2 & T2 & P2 & G2 & R2).
    + exact Hn.
    + exact T1.
    + apply G1. destruct (Hh i Hi) as [-> _]. reflexivity.
    + lia.
    + intros k Hk. destruct (H1 k Hk) as [A B]. destruct (Hh k Hk) as [A' B']. split; [congruence|].
      intros y' Hy'. apply B; [lia|]. apply B'. lia.
    + intros q Hq. apply Hls. right. exact Hq.
    + exists s2. cbn [run_years].
      rewrite (C29_any_order group (room_rule f) n s i l y s1 Hi); [|intros x Hx; apply Hin; right; exact Hx|exact Ht|exact Hn|exact E1].
      cbn [bind List.length]. rewrite Nat2Z.inj_succ. replace (y + Z.succ (Z.of_nat (List.length ls)))%Z with (y + 1 + Z.of_nat (List.length ls))%Z by lia.
      split; [exact E2|]. split; [exact T2|]. split; [|split; [exact G2|exact R2]].
      intros _. destruct ls as [|l' ls']; [cbn in *; injection E2 as <-; lia|apply P2; discriminate].
Qed.
Print Assumptions C29_once_per_year.
Definition C29_s : gstate := {| g_acct := fun _ => {| ra_year := 2000; ra_txns := [(1#2, 5)]; ra_hist := []; ra_inputs := [] |}; g_room := Some 100; g_person := 1999%Z |}.
Definition C29_show (x : res gstate) : option (list Z * option Q * Z) :=
  match x with Ok s => Some (map (yr s) [0%nat; 1%nat; 2%nat], option_map Qred (g_room s), g_person s) | Err _ => None end.
Example C29_sat : C29_show (run_years [2; 0; 1]%nat (room_rule (fun y r => r + 7)) 3 [[1;2;0]; [0;0]; [2]]%nat C29_s 2000)
  = Some ([2003; 2003; 2003]%Z, Some 121, 2003%Z).
Proof. vm_compute. reflexivity. Qed.
Example C29_out_of_step_sat : C29_show (reg_next_year [2; 0; 1]%nat (room_rule (fun y r => r + 7)) 9
    (set_acct C29_s 1 {| ra_year := 2003; ra_txns := []; ra_hist := []; ra_inputs := [] |}) 1)
  = Some ([2004; 2004; 2004]%Z, Some 100, 2004%Z).
Proof. vm_compute. reflexivity. Qed.

(** ** C30 *)
Lemma Qsum_one (f : nat -> Q) i : forall l, NoDup l -> In i l -> (forall k, In k l -> k <> i -> f k == 0) -> Qsum (map f l) == f i.
Proof.
  induction l as [|a l IH]; intros Hd Hi Hz; [destruct Hi|]. inversion Hd; subst. cbn [map Qsum].
  destruct (Nat.eq_dec a i) as [->|Hne].
  - assert (Z0 : Qsum (map f l) == 0).
    { assert (G : forall k, In k l -> f k == 0) by (intros k Hk; apply Hz; [right; exact Hk|intro; subst; contradiction]).
      clear -G. induction l as [|b l IH]; [reflexivity|]. cbn. rewrite (G b), IH; [reflexivity| |left; reflexivity].
      intros k Hk. apply G. right. exact Hk. }
    rewrite Z0. ring.
  - destruct Hi as [->|Hi]; [congruence|]. rewrite (Hz a) by (cbn; tauto). rewrite IH; [ring|assumption|exact Hi|].
    intros k Hk Hk'. apply Hz; [right; exact Hk|exact Hk'].
Qed.
Lemma only_active_in group s i : NoDup group -> In i group -> only_active group s i ->
  group_inflows group s == r_inflows (g_acct s i) /\ group_outflows group s == r_outflows (g_acct s i).
Proof.
  intros Hd Hi Ha. split; [apply (Qsum_one (fun k => r_inflows (g_acct s k)))|apply (Qsum_one (fun k => r_outflows (g_acct s k)))]; try assumption;
  intros k Hk Hne; unfold r_inflows, r_outflows; rewrite (Ha k Hk Hne); reflexivity.
Qed.
(** If only the account that happens to be advanced first has been used, next year's room is this
    year's less the group's contributions plus the new accrual. *)
Theorem C30_rrsp_partial : forall K ia contributor income group n s i y r a inc mx,
  NoDup group -> In i group -> together group s y -> (List.length group <= n)%nat ->
  only_active group s i ->
  dget Z.eqb (ra_hist (g_acct s i)) (y + 1)%Z = None -> dmem Z.eqb (ra_inputs (g_acct s i)) (y + 1)%Z = false ->
  room_of s i = Some r ->
  age_in_year contributor (y + 1) = Ok a -> (a <= rc_rrsp_age K)%Z ->
  income y = Ok inc -> extend_scalar (rc_rrsp_max K) ia (y + 1) = Ok mx ->
  exists s' r', reg_next_year group (rrsp_rule K ia contributor income) n s i = Ok s' /\
    g_room s' = Some r' /\ r' == r - group_inflows group s + qmin (inc * rc_rrsp_rate K) mx.
Proof.
  intros K ia contributor income group n s i y r a inc mx Hd Hi Ht Hn Hact Hh Hin Hr Ha Hle Hinc Hmx.
  destruct (C29_lockstep group (rrsp_rule K ia contributor income) n s i y
              (qmin (inc * rc_rrsp_rate K) mx + (r - r_inflows (g_acct s i))) Hi Ht Hn) as (s' & E & _ & _ & _ & _ & _ & G).
  - right. split; [exact Hh|]. unfold rrsp_rule, rrsp_next_room. rewrite (Ht i Hi), Ha. cbn [bind].
    destruct (Z.ltb_spec (rc_rrsp_age K) a) as [L|L]; [lia|]. rewrite Hinc. cbn [bind]. rewrite Hmx. cbn [bind]. rewrite Hr. reflexivity.
  - exists s', (qmin (inc * rc_rrsp_rate K) mx + (r - r_inflows (g_acct s i))). split; [exact E|]. split; [apply G; exact Hin|].
    destruct (only_active_in group s i Hd Hi Hact) as [-> _]. ring.
Qed.
Print Assumptions C30_rrsp_partial.
Theorem C30_tfsa_partial : forall K ia owner group n s i y r acc,
  NoDup group -> In i group -> together group s y -> (List.length group <= n)%nat ->
  only_active group s i ->
  dget Z.eqb (ra_hist (g_acct s i)) (y + 1)%Z = None -> dmem Z.eqb (ra_inputs (g_acct s i)) (y + 1)%Z = false ->
  room_of s i = Some r -> tfsa_accrual K ia (owner i) (y + 1) = Ok acc ->
  exists s' r', reg_next_year group (tfsa_rule K ia owner) n s i = Ok s' /\
    g_room s' = Some r' /\ r' == r - group_inflows group s - group_outflows group s + acc.
Proof.
  intros K ia owner group n s i y r acc Hd Hi Ht Hn Hact Hh Hin Hr Hacc.
  destruct (C29_lockstep group (tfsa_rule K ia owner) n s i y
              (acc + (r - (r_outflows (g_acct s i) + r_inflows (g_acct s i)))) Hi Ht Hn) as (s' & E & _ & _ & _ & _ & _ & G).
  - right. split; [exact Hh|]. unfold tfsa_rule, tfsa_next_room. rewrite (Ht i Hi), Hacc. cbn [bind]. rewrite Hr. reflexivity.
  - exists s', (acc + (r - (r_outflows (g_acct s i) + r_inflows (g_acct s i)))). split; [exact E|]. split; [apply G; exact Hin|].
    destruct (only_active_in group s i Hd Hi Hact) as [-> ->]. ring.
Qed.
Print Assumptions C30_tfsa_partial.
Definition C30_K : reg_consts := {| rc_rrsp_rate := 18 # 100; rc_rrsp_max := [(2017%Z, 26000)]; rc_rrsp_age := 71; rc_rrif_min := [(71%Z, 528 # 10000); (72%Z, 54 # 1000)];
  rc_withhold := [(2017%Z, [(0, 1 # 10); (5000, 2 # 10); (15000, 3 # 10)])]; rc_tfsa := [(2009%Z, 5000); (2010%Z, 5000); (2011%Z, 5500)];
  rc_tfsa_age := 18; rc_tfsa_round := 500 |}.
Definition flat : iadj := fun _ _ => Ok 1.
Definition C30_s (t0 t1 : dict Q Q) : gstate := {| g_acct := fun k => {| ra_year := 2017; ra_txns := if Nat.eqb k 0 then t0 else t1; ra_hist := []; ra_inputs := [] |}; g_room := Some 30000; g_person := 2017%Z |}.
Definition C30_birth : date := {| d_y := 1980; d_m := 6; d_d := 15 |}.
Definition C30_rrsp (i : nat) t0 t1 : option Q :=
  match reg_next_year [0; 1]%nat (rrsp_rule C30_K flat C30_birth (fun _ => Ok 100000)) 2 (C30_s t0 t1) i with
  | Ok s => option_map Qred (g_room s) | Err _ => None end.
Definition C30_tfsa (i : nat) t0 t1 : option Q :=
  match reg_next_year [0; 1]%nat (tfsa_rule C30_K flat (fun _ => C30_birth)) 2 (C30_s t0 t1) i with
  | Ok s => option_map Qred (g_room s) | Err _ => None end.
Example C30_sat : C30_rrsp 0 [(1 # 2, 4000); (1, -500)] [] = Some 44000 /\ C30_tfsa 0 [(1 # 2, 4000); (1, -500)] [] = Some 31500.
Proof. split; vm_compute; reflexivity. Qed.
(** Contributions made to any other account of the group are forgotten: they never reduce next
    year's room. *)
Theorem C30_other_accounts_refuted :
  ~ (forall K ia contributor income group n s i y r a inc mx,
      NoDup group -> In i group -> together group s y -> (List.length group <= n)%nat ->
      dget Z.eqb (ra_hist (g_acct s i)) (y + 1)%Z = None -> dmem Z.eqb (ra_inputs (g_acct s i)) (y + 1)%Z = false ->
      room_of s i = Some r ->
      age_in_year contributor (y + 1) = Ok a -> (a <= rc_rrsp_age K)%Z ->
      income y = Ok inc -> extend_scalar (rc_rrsp_max K) ia (y + 1) = Ok mx ->
      exists s' r', reg_next_year group (rrsp_rule K ia contributor income) n s i = Ok s' /\
        g_room s' = Some r' /\ r' == r - group_inflows group s + qmin (inc * rc_rrsp_rate K) mx).
Proof.
  intro H. specialize (H C30_K flat C30_birth (fun _ => Ok 100000) [0; 1]%nat 2%nat (C30_s [] [(1, 4000)]) 0%nat 2017%Z 30000 38%Z 100000 26000).
  destruct H as (s' & r' & E & G & V); try reflexivity.
  - repeat constructor; cbn; intuition discriminate.
  - left. reflexivity.
  - intros k _. reflexivity.
  - cbn. lia.
  - assert (X : C30_rrsp 0 [] [(1, 4000)] = Some 48000) by (vm_compute; reflexivity).
    unfold C30_rrsp in X. rewrite E in X. rewrite G in X. cbn in X. injection X as X.
    rewrite <- (Qred_correct r'), X in V. vm_compute in V. discriminate.
Qed.
Print Assumptions C30_other_accounts_refuted.
(** ... so the result depends on which account is advanced first *)
Theorem C30_order_dependence_refuted :
  C30_rrsp 0 [] [(1, 4000)] = Some 48000 /\ C30_rrsp 1 [] [(1, 4000)] = Some 44000 /\
  C30_tfsa 0 [] [(1, 4000)] = Some 35000 /\ C30_tfsa 1 [] [(1, 4000)] = Some 31000.
Proof. repeat split; vm_compute; reflexivity. Qed.
Print Assumptions C30_order_dependence_refuted.

(** ** C74 *)
(** without inputs, the room an account reports is exactly the limit that caps its contributions *)
Theorem C74_room_caps_contributions_partial : forall s i r,
  dget Z.eqb (ra_hist (g_acct s i)) (yr s i) = None -> room_of s i = Some r ->
  reg_max_inflow s i = Ok (qmax (r - r_inflows (g_acct s i)) 0).
Proof. intros s i r H E. unfold room_of in E. fold (yr s i) in E. rewrite H in E. unfold reg_max_inflow. rewrite E. reflexivity. Qed.
Print Assumptions C74_room_caps_contributions_partial.
(** Room given for next year as an input: the account reports it, but the limit that actually caps
    contributions stays last year's. *)
Theorem C74_input_room_ignored_refuted : forall group rule n s i y r,
  In i group -> together group s y -> (List.length group <= n)%nat ->
  dget Z.eqb (ra_inputs (g_acct s i)) (y + 1)%Z = Some r ->
  dget Z.eqb (ra_hist (g_acct s i)) (y + 1)%Z = Some (Some r) ->
  exists s', reg_next_year group rule n s i = Ok s' /\ room_of s' i = Some r /\
    forall limit, g_room s = Some limit -> exists m, reg_max_inflow s' i = Ok m /\ m == qmax limit 0.
Proof.
  intros group rule n s i y r Hi Ht Hn Hin Hh.
  pose proof (together_sync _ _ _ _ Ht Hi) as Hs. pose proof (together_M _ _ _ Ht) as HM.
  assert (Hr' : new_room rule s i = Ok (Some r)) by (unfold new_room; rewrite (Ht i Hi), Hh; reflexivity).
  destruct (ny_first group rule n s i (Some r) Hi Hs) as (s3 & E & A & B & C & D); [rewrite (Ht i Hi); lia|exact Hr'|].
  eexists. split; [exact E|]. rewrite (Ht i Hi) in *. pose proof (Ht i Hi) as Ei. unfold yr in Ei.
  assert (Hadv : g_acct s3 i = advance (g_room s) (g_acct s i)).
  { rewrite (A i Hi), (Ht i Hi). replace (Z.to_nat (y + 1 - y)) with 1%nat by lia. reflexivity. }
  assert (Hm : dmem Z.eqb (ra_inputs (g_acct s3 i)) (ra_year (g_acct s3 i)) = true).
  { rewrite Hadv. unfold advance. cbn [ra_inputs ra_year]. unfold dmem. rewrite Ei, Hin. reflexivity. }
  unfold set_room. rewrite Hm. split.
  2: { intros limit L. unfold reg_max_inflow. cbn [g_room] in C. rewrite C, L, Hadv. eexists. split; [reflexivity|].
       unfold advance, r_inflows. cbn [ra_txns map filter Qsum]. qmm; lra. }
  unfold room_of. rewrite Hadv. unfold advance. cbn [ra_hist ra_year]. rewrite Ei.
  destruct (dget Z.eqb (ra_hist (g_acct s i)) y); [rewrite Hh; reflexivity|].
  rewrite zdget_dset. destruct (Z.eqb_spec (y + 1) y); [lia|]. rewrite Hh. reflexivity.
Qed.
Print Assumptions C74_input_room_ignored_refuted.
(** Room given for the first year as an input: every attempt to find out how much can be
    contributed raises TypeError. *)
Theorem C74_input_initial_year_refuted : forall y0 inputs default r,
  dget Z.eqb inputs y0 = Some r ->
  exists s, reg_init y0 inputs None default = Ok s /\ room_of s 0 = Some r /\ reg_max_inflow s 0 = Err TypeError.
Proof.
  intros y0 inputs default r H.
  set (s := {| g_acct := fun _ => {| ra_year := y0; ra_txns := []; ra_hist := map (fun kv => (fst kv, Some (snd kv))) inputs; ra_inputs := inputs |}; g_room := None; g_person := y0 |}).
  assert (E : dget Z.eqb (map (fun kv : Z * Q => (fst kv, Some (snd kv))) inputs) y0 = Some (Some r)).
  { revert H. induction inputs as [|[k v] l IH]; [discriminate|]. cbn. destruct (Z.eqb y0 k); [intro H; injection H as ->; reflexivity|exact IH]. }
  assert (Hr : room_of s 0 = Some r) by (unfold room_of, s; cbn [g_acct ra_hist ra_year]; rewrite E; reflexivity).
  exists s. split; [|split; [exact Hr|reflexivity]]. unfold reg_init. fold s. rewrite Hr. reflexivity.
Qed.
Print Assumptions C74_input_initial_year_refuted.
(** without inputs, construction always leaves a usable limit: the argument or the class default *)
Theorem C74_constructed_room : forall y0 room d,
  exists s, reg_init y0 [] room (Ok d) = Ok s /\
    g_room s = Some (match room with Some r => r | None => d end) /\ room_of s 0 = g_room s.
Proof.
  intros y0 [r|] d; unfold reg_init, room_of; cbn; eexists; (split; [reflexivity|]); split; reflexivity.
Qed.
Print Assumptions C74_constructed_room.
(** the user says 5000 of room next year; the account says 5000 too, but accepts 100 (last year's room) *)
Example C74_sat : exists s s', reg_init 2000 [(2001%Z, 5000)] (Some 100) (Ok 0) = Ok s /\ together [0%nat] s 2000 /\
  dget Z.eqb (ra_inputs (g_acct s 0)) 2001%Z = Some 5000 /\ dget Z.eqb (ra_hist (g_acct s 0)) 2001%Z = Some (Some 5000) /\
  reg_max_inflow s 0 = Ok 100 /\ dget Z.eqb (ra_hist (g_acct s 0)) (yr s 0) = None /\ room_of s 0 = Some 100 /\
  reg_next_year [0%nat] (fun _ _ => Ok 0) 1 s 0 = Ok s' /\ room_of s' 0 = Some 5000 /\ reg_max_inflow s' 0 = Ok 100.
Proof.
  eexists. eexists. split; [vm_compute; reflexivity|]. split; [intros k [<-|[]]; reflexivity|].
  split; [reflexivity|]. split; [reflexivity|]. split; [vm_compute; reflexivity|]. split; [reflexivity|]. split; [reflexivity|].
  split; [vm_compute; reflexivity|]. split; vm_compute; reflexivity.
Qed.
