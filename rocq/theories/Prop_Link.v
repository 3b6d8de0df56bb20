(** Properties C26-C28 and C72 of linked accounts. *)
From Verif Require Import Base BaseFacts RBase GrowthModel GrowthProofs AccountModel AccountSpec AccountProofs LinkModel LinkSpec LinkProofs.
From Coq Require Import Permutation.
Open Scope R_scope.
Local Open Scope string_scope.

(** ** C26 *)
(** a limit written through one account is what every account sharing that link reads, for
    whatever kind of limit each of them uses the link *)
Theorem C26_write_seen_by_group : forall w a b s s' l v w',
  la_link a (setter_slot s) = Some l -> la_link b s' = Some l ->
  set_limit w a s v = Ok w' -> get_limit w' b s' = Some v.
Proof.
  intros w a b s s' l v w' Ha Hb H. unfold set_limit in H. rewrite Ha in H. unfold get_limit. rewrite Hb.
  rewrite (link_data_set _ _ _ _ _ H), link_eqb_refl. reflexivity.
Qed.
Print Assumptions C26_write_seen_by_group.
Theorem C26_outside_group_unchanged : forall w a b s s' l v w',
  la_link a (setter_slot s) = Some l -> la_link b s' <> Some l ->
  set_limit w a s v = Ok w' -> get_limit w' b s' = get_limit w b s'.
Proof.
  intros w a b s s' l v w' Ha Hb H. unfold set_limit in H. rewrite Ha in H. unfold get_limit.
  destruct (la_link b s') as [l'|]; [|reflexivity]. rewrite (link_data_set _ _ _ _ _ H).
  destruct (link_eqb l' l) eqn:E; [|reflexivity]. apply link_eqb_t in E. congruence.
Qed.
Print Assumptions C26_outside_group_unchanged.
(** after any history of constructions, registrations, links, unlinks, writes and
    transactions, the group of a link is exactly what the history says, without repetition *)
Theorem C26_group_is_history : forall h l i,
  (match rec_of (lrun h) l with
   | Some r => (true, existsb (Nat.eqb i) (l_group r))
   | None => (false, false)
   end) = member_history l i h.
Proof. exact group_history. Qed.
Print Assumptions C26_group_is_history.
Theorem C26_group_no_duplicates : forall h l r, rec_of (lrun h) l = Some r -> NoDup (l_group r).
Proof. exact gn_run. Qed.
Print Assumptions C26_group_no_duplicates.
(** construction never fails, joins exactly the groups named, and a given limit is shared *)
Theorem C26_construct : forall w i a links limits, exists w',
  new_account w i a links limits = Ok w' /\
  (forall l, uses links l = true -> exists r, rec_of w' l = Some r /\ In i (l_group r)) /\
  (forall l, uses links l = false -> rec_of w' l = rec_of w l).
Proof.
  intros w i a links lims. destruct (new_account_ok w i a links lims) as [w' E]. exists w'. split; [exact E|]. split.
  - intros l Hu. pose proof (mem_new _ _ _ _ _ _ l i E) as M. rewrite Hu, Nat.eqb_refl, orb_true_r in M.
    unfold mem_of in M. destruct (rec_of w' l) as [r|] eqn:F; [|discriminate]. exists r. split; [reflexivity|].
    injection M as M. apply existsb_exists in M. destruct M as (x & Hx & Hxi). apply Nat.eqb_eq in Hxi. subst. exact Hx.
  - assert (Hp : forall w0 o lim w1 l, process_link w0 i o lim = Ok w1 ->
      (match o with Some l' => link_eqb l l' | None => false end) = false -> rec_of w1 l = rec_of w0 l).
    { clear. intros w0 o lim w1 l H Hl. unfold process_link in H. destruct o as [l0|]; [|injection H as <-; reflexivity].
      unfold link_account in H. destruct (rec_of (register w0 l0 None) l0) as [r|]; [|discriminate]. cbn [bind] in H.
      assert (R0 : rec_of (register w0 l0 None) l = rec_of w0 l).
      { unfold register. destruct (is_registered w0 l0); [reflexivity|]. rewrite rec_set, Hl. reflexivity. }
      set (w2 := if existsb (Nat.eqb i) (l_group r) then register w0 l0 None else _) in H.
      assert (R2 : rec_of w2 l = rec_of w0 l) by (unfold w2; destruct (existsb _ _); [exact R0|rewrite rec_set, Hl; exact R0]).
      destruct lim; [|injection H as <-; exact R2]. unfold set_link_data in H. destruct (rec_of w2 l0); [|discriminate].
      injection H as <-. rewrite rec_set, Hl. exact R2. }
    intros l Hu. unfold uses in Hu. cbn [existsb] in Hu.
    apply orb_false_iff in Hu. destruct Hu as [U1 Hu]. apply orb_false_iff in Hu. destruct Hu as [U2 Hu].
    apply orb_false_iff in Hu. destruct Hu as [U3 Hu]. apply orb_false_iff in Hu. destruct Hu as [U4 _].
    unfold new_account in E.
    destruct (process_link w i (links MaxIn) (lims MaxIn)) as [w1|] eqn:E1; [|discriminate]. cbn [bind] in E.
    destruct (process_link w1 i (links MinIn) (lims MinIn)) as [w2|] eqn:E2; [|discriminate]. cbn [bind] in E.
    destruct (process_link w2 i (links MaxOut) (lims MaxOut)) as [w3|] eqn:E3; [|discriminate]. cbn [bind] in E.
    destruct (process_link w3 i (links MinOut) (lims MinOut)) as [w4|] eqn:E4; [|discriminate]. cbn [bind] in E.
    injection E as <-. rewrite rec_set_acct, (Hp _ _ _ _ _ E4 U4), (Hp _ _ _ _ _ E3 U3), (Hp _ _ _ _ _ E2 U2), (Hp _ _ _ _ _ E1 U1).
    reflexivity.
Qed.
Print Assumptions C26_construct.

Definition acctL (bal : R) (tx : dict R R) : account :=
  {| a_year := 2000; a_bal := bal; a_rate := fun _ => 0; a_nper := Some 1%positive; a_txns := tx; a_timing := [(1, 1)] |}.
Definition only (s0 : slot) (l : link) (s : slot) : option link :=
  match s0, s with MaxIn, MaxIn | MinIn, MinIn | MaxOut, MaxOut | MinOut, MinOut => Some l | _, _ => None end.
Definition nolim (s : slot) : option er := None.
Definition lim_at (s0 : slot) (v : er) (s : slot) : option er :=
  match s0, s with MaxIn, MaxIn | MinIn, MinIn | MaxOut, MaxOut | MinOut, MinOut => Some v | _, _ => None end.
Definition lk : link := (7%nat, "rrsp").
Definition h26 : list lop :=
  [ONew 1 (acctL 10 []) (only MaxIn lk) (lim_at MaxIn (Fin 100));
   ONew 2 (acctL 20 []) (only MaxIn lk) nolim; OUnlink lk 1; OSet 2 MaxIn (Fin 50)].
Example C26_sat : member_history lk 2 h26 = (true, true) /\ member_history lk 1 h26 = (true, false) /\
  option_map (fun a => get_limit (lrun h26) a MaxIn) (acct_of (lrun h26) 1) = Some (Some (Fin 50)).
Proof. repeat split. Qed.

(** the transactions the caller plans for the account itself *)
Definition own_extra (i : nat) (extra : option (dict R R)) (group : dict nat (dict R R)) : dict R R :=
  match extra with Some d => d | None => match dget Nat.eqb group i with Some d => d | None => [] end end.
(** an account that has no link for a limit is there a plain account: unlimited maxima, no minima, and only its own
    transactions count *)
Theorem C26_unlinked_is_plain : forall w i a s timing tl bl extra group, la_link a s = None ->
  get_limit w a s = Some (match s with MaxIn => PInf | MaxOut => MInf | MinIn | MinOut => Fin 0 end) /\
  linked_flows w i a s (group_order w i a s) timing tl bl extra group =
    match s with
    | MaxIn => inflows_upto (la_acct a) PInf timing tl bl (Some (own_extra i extra group))
    | MinIn => inflows_upto (la_acct a) (Fin 0) timing tl bl (Some (own_extra i extra group))
    | MaxOut => outflows_upto (la_acct a) MInf timing tl bl (Some (own_extra i extra group))
    | MinOut => outflows_upto (la_acct a) (Fin 0) timing tl bl (Some (own_extra i extra group))
    end.
Proof.
  intros w i a s timing tl bl extra group H. unfold linked_flows, read_limit, get_limit, group_order. rewrite H.
  split; [destruct s; reflexivity|]. unfold merge_transactions. cbn [fold_left bind]. destruct s; reflexivity.
Qed.
Print Assumptions C26_unlinked_is_plain.
Example C26_sat_unlinked : option_map (fun a => (la_link a MinIn, get_limit (lrun h26) a MinIn)) (acct_of (lrun h26) 1) = Some (None, Some (Fin 0)).
Proof. reflexivity. Qed.

(** ** C27 *)
Theorem C27_inflow_setters : forall w a s l v w', s = MaxIn \/ s = MinIn ->
  la_link a s = Some l -> set_limit w a s v = Ok w' ->
  get_limit w' a s = Some v /\
  (forall s', la_link a s' <> Some l -> get_limit w' a s' = get_limit w a s').
Proof.
  intros w a s l v w' Hs Hl H. assert (Hss : setter_slot s = s) by (destruct Hs; subst; reflexivity). split.
  - eapply C26_write_seen_by_group; [rewrite Hss; exact Hl|exact Hl|exact H].
  - intros s' Hs'. eapply C26_outside_group_unchanged; [rewrite Hss; exact Hl|exact Hs'|exact H].
Qed.
Print Assumptions C27_inflow_setters.
(** the outflow setters never do what they promise: whatever the account, the outflow limit is
    not changed and the inflow limit is overwritten (or AttributeError without inflow link) *)
Theorem C27_outflow_setters_refuted : forall w a v lin lout, lin <> lout ->
  (la_link a MaxIn = Some lin -> la_link a MaxOut = Some lout -> forall w', set_limit w a MaxOut v = Ok w' ->
     get_limit w' a MaxOut = get_limit w a MaxOut /\ get_limit w' a MaxIn = Some v) /\
  (la_link a MinIn = Some lin -> la_link a MinOut = Some lout -> forall w', set_limit w a MinOut v = Ok w' ->
     get_limit w' a MinOut = get_limit w a MinOut /\ get_limit w' a MinIn = Some v) /\
  (la_link a MaxIn = None -> set_limit w a MaxOut v = Err AttributeError) /\
  (la_link a MinIn = None -> set_limit w a MinOut v = Err AttributeError).
Proof.
  intros w a v lin lout Hne. repeat split.
  - exact (C26_outside_group_unchanged w a a MaxOut MaxOut lin v w' H ltac:(congruence) H1).
  - exact (C26_write_seen_by_group w a a MaxOut MaxIn lin v w' H H H1).
  - exact (C26_outside_group_unchanged w a a MinOut MinOut lin v w' H ltac:(congruence) H1).
  - exact (C26_write_seen_by_group w a a MinOut MinIn lin v w' H H H1).
  - intro H. unfold set_limit. cbn. rewrite H. reflexivity.
  - intro H. unfold set_limit. cbn. rewrite H. reflexivity.
Qed.
Print Assumptions C27_outflow_setters_refuted.
Definition both (s : slot) : option link := match s with MaxIn => Some (7%nat, "in") | MaxOut => Some (7%nat, "out") | _ => None end.
Definition a27 : lacct := {| la_acct := acctL 10 []; la_link := both |}.
Example C27_sat : exists w w', acct_of w 1 = Some a27 /\ set_limit w a27 MaxOut (Fin (-5)) = Ok w' /\
  get_limit w a27 MaxIn = Some (Fin 100) /\ get_limit w' a27 MaxIn = Some (Fin (-5)) /\ get_limit w' a27 MaxOut = None.
Proof.
  exists (lrun [ONew 1 (acctL 10 []) both (lim_at MaxIn (Fin 100))]). eexists. repeat split.
Qed.

(** ** C28: [others w l i] are the other accounts of the group.  Contributions already made or
    planned by the group count in full whenever amounts recorded at the same instant do not have
    opposite signs. *)
Theorem C28_max_inflows_partial : forall w i a l lim order timing tl bl extra group flows c,
  la_link a MaxIn = Some l -> link_data w l = Some lim -> Permutation order (others w l i) ->
  timing_ok (clean_timing (la_acct a) timing) ->
  signs_agree c (own_extra i extra group) ->
  (forall j, In j order -> signs_agree c (txns_of w j) /\ signs_agree c (planned group j)) ->
  linked_flows w i a MaxIn order timing tl bl extra group = Ok flows ->
  let used := pos_part (a_txns (la_acct a)) + pos_part (own_extra i extra group) + gross_in w group (others w l i) in
  (forall t x, In (t, x) flows -> ele (Fin 0) x) /\
  ele (esum (map snd flows)) (emax (esub lim used) (Fin 0)).
Proof.
  intros w i a l lim order timing tl bl extra group flows c Hl Hd HP Ht Hs Ho H used.
  unfold linked_flows, read_limit, get_limit in H. rewrite Hl, Hd in H. cbn [bind] in H.
  apply inflows_upto_spec in H; [|exact Ht]. destruct H as [H1 H2]. split; [exact H1|].
  assert (Hu : inflows (la_acct a) (Some (merge_transactions w i extra group order)) = used).
  { unfold inflows, merge_transactions, used.
    destruct (merge_gross c w group order (merge_start i extra group)) as [-> _]; [apply signs_agree_rval; exact Hs|exact Ho|].
    assert (Hg : gross_in w group order = gross_in w group (others w l i)) by (apply Rsum_perm, Permutation_map, HP).
    rewrite Hg. unfold own_extra, merge_start. lra. }
  rewrite Hu in H2. eapply ele_trans; [exact H2|].
  assert (Hm : ele (opt_emin (esub lim used) tl) (esub lim used)) by (destruct tl; [apply emin_l|apply ele_refl]).
  destruct (emax_case (opt_emin (esub lim used) tl) (Fin 0)) as [[_ ->]|[_ ->]]; [apply emax_r|].
  eapply ele_trans; [exact Hm|apply emax_l].
Qed.
Print Assumptions C28_max_inflows_partial.
Theorem C28_max_outflows_partial : forall w i a l lim order timing tl (bl : option R) extra group c,
  la_link a MaxOut = Some l -> link_data w l = Some lim -> lim <> PInf -> tl <> Some PInf ->
  Permutation order (others w l i) ->
  timing_ok (clean_timing (la_acct a) timing) ->
  signs_agree c (own_extra i extra group) ->
  (forall j, In j order -> signs_agree c (txns_of w j) /\ signs_agree c (planned group j)) ->
  let used := neg_part (a_txns (la_acct a)) + neg_part (own_extra i extra group) + gross_out w group (others w l i) in
  exists flows, linked_flows w i a MaxOut order timing tl (option_map Fin bl) extra group = Ok (fin_flows flows) /\
  (forall t x, In (t, x) flows -> x <= 0) /\
  ele (emin (esub lim used) (Fin 0)) (Fin (Rsum (dvals flows))).
Proof.
  intros w i a l lim order timing tl bl extra group c Hl Hd Hp Htl HP Ht Hs Ho used.
  unfold linked_flows, read_limit, get_limit. rewrite Hl, Hd. cbn [bind].
  destruct (outflows_upto_spec (la_acct a) lim timing tl bl (Some (merge_transactions w i extra group order)) Ht Hp Htl)
    as (flows & a' & H1 & H2 & H3 & _).
  exists flows. split; [exact H1|]. split; [exact H2|].
  assert (Hu : outflows (la_acct a) (Some (merge_transactions w i extra group order)) = used).
  { unfold outflows, merge_transactions, used.
    destruct (merge_gross c w group order (merge_start i extra group)) as [_ ->]; [apply signs_agree_rval; exact Hs|exact Ho|].
    assert (Hg : gross_out w group order = gross_out w group (others w l i)) by (apply Rsum_perm, Permutation_map, HP).
    rewrite Hg. unfold own_extra, merge_start. lra. }
  rewrite Hu in H3. eapply ele_trans; [|exact H3].
  assert (Hm : ele (esub lim used) (opt_emax (esub lim used) tl)) by (destruct tl; [apply emax_l|apply ele_refl]).
  destruct (emin_case (opt_emax (esub lim used) tl) (Fin 0)) as [[_ ->]|[_ ->]]; [|apply emin_r].
  eapply ele_trans; [apply emin_l|exact Hm].
Qed.
Print Assumptions C28_max_outflows_partial.
(** any number of contributions by any members of the group, in any order, each contributing
    its full [max_inflows] at the time, brings the group's contributions exactly to the shared
    limit and never beyond it *)
(** a shared minimum: what the group must still contribute (withdraw) this year, no more and no less (unless the
    account runs dry) *)
Theorem C28_min_inflows_partial : forall w i a l lim order timing extra group c,
  la_link a MinIn = Some l -> link_data w l = Some (Fin lim) -> Permutation order (others w l i) ->
  timing_ok (clean_timing (la_acct a) timing) ->
  signs_agree c (own_extra i extra group) ->
  (forall j, In j order -> signs_agree c (txns_of w j) /\ signs_agree c (planned group j)) ->
  let used := pos_part (a_txns (la_acct a)) + pos_part (own_extra i extra group) + gross_in w group (others w l i) in
  exists flows, linked_flows w i a MinIn order timing None None extra group = Ok (fin_flows flows) /\
    (forall t v, In (t, v) flows -> 0 <= v) /\ Rsum (dvals flows) = Rmax (lim - used) 0.
Proof.
  intros w i a l lim order timing extra group c Hl Hd HP Ht Hs Ho used.
  assert (Hu : inflows (la_acct a) (Some (merge_transactions w i extra group order)) = used).
  { unfold inflows, merge_transactions, used.
    destruct (merge_gross c w group order (merge_start i extra group)) as [-> _]; [apply signs_agree_rval; exact Hs|exact Ho|].
    assert (Hg : gross_in w group order = gross_in w group (others w l i)) by (apply Rsum_perm, Permutation_map, HP).
    rewrite Hg. unfold own_extra, merge_start. lra. }
  unfold linked_flows, read_limit, get_limit. rewrite Hl, Hd. cbn [bind].
  destruct (inflows_upto_finite (la_acct a) (Fin lim) timing None None (Some (merge_transactions w i extra group order)) Ht) as (flows & a' & H1 & H2 & H3 & H4 & _ & H6);
    [discriminate|left; discriminate|]. cbn [option_map] in *. exists flows. split; [exact H1|]. split; [exact H3|].
  rewrite Hu in H6. cbn [opt_emin esub] in H6.
  destruct H6 as [(b & Hb & _)|[H6|(b & Hb & _)]]; try discriminate.
  destruct (emax_case (Fin (lim - used)) (Fin 0)) as [[Hc E]|[Hc E]]; rewrite E in H6; cbn in Hc; injection H6 as <-.
  - rewrite Rmax_right; [reflexivity|exact Hc].
  - rewrite Rmax_left; [reflexivity|exact Hc].
Qed.
Print Assumptions C28_min_inflows_partial.
Theorem C28_min_outflows_partial : forall w i a l lim order timing extra group c,
  la_link a MinOut = Some l -> link_data w l = Some (Fin lim) -> Permutation order (others w l i) ->
  timing_ok (clean_timing (la_acct a) timing) ->
  signs_agree c (own_extra i extra group) ->
  (forall j, In j order -> signs_agree c (txns_of w j) /\ signs_agree c (planned group j)) ->
  let used := neg_part (a_txns (la_acct a)) + neg_part (own_extra i extra group) + gross_out w group (others w l i) in
  exists flows a', linked_flows w i a MinOut order timing None None extra group = Ok (fin_flows flows) /\
    (forall t v, In (t, v) flows -> v <= 0) /\ add_all (la_acct a) flows = Ok a' /\
    Rmin (lim - used) 0 <= Rsum (dvals flows) /\
    let all := Some (merge_transactions w i extra group order) in
    (Rsum (dvals flows) = Rmin (lim - used) 0 \/ balance_at_time a' 1 all = 0 \/ (balance_at_time (la_acct a) 1 all <= 0 /\ Rsum (dvals flows) = 0)).
Proof.
  intros w i a l lim order timing extra group c Hl Hd HP Ht Hs Ho used.
  assert (Hu : outflows (la_acct a) (Some (merge_transactions w i extra group order)) = used).
  { unfold outflows, merge_transactions, used.
    destruct (merge_gross c w group order (merge_start i extra group)) as [_ ->]; [apply signs_agree_rval; exact Hs|exact Ho|].
    assert (Hg : gross_out w group order = gross_out w group (others w l i)) by (apply Rsum_perm, Permutation_map, HP).
    rewrite Hg. unfold own_extra, merge_start. lra. }
  unfold linked_flows, read_limit, get_limit. rewrite Hl, Hd. cbn [bind].
  destruct (outflows_upto_spec (la_acct a) (Fin lim) timing None None (Some (merge_transactions w i extra group order)) Ht) as (flows & a' & H1 & H2 & H3 & H4 & H5 & H6);
    [discriminate|discriminate|]. exists flows, a'. cbn [option_map] in *.
  rewrite Hu in H3, H6. cbn [opt_emax esub] in H3, H6.
  assert (Hm : emin (Fin (lim - used)) (Fin 0) = Fin (Rmin (lim - used) 0)).
  { destruct (emin_case (Fin (lim - used)) (Fin 0)) as [[Hc E]|[Hc E]]; rewrite E; cbn in Hc; f_equal.
    - rewrite Rmin_left; [reflexivity|exact Hc].
    - rewrite Rmin_right; [reflexivity|exact Hc]. }
  rewrite Hm in H3, H6. cbn in H3. split; [exact H1|]. split; [exact H2|]. split; [exact H4|].
  split; [exact H3|]. cbv zeta. destruct H6 as [H6|[H6|H6]]; [auto|left; congruence|auto].
Qed.
Print Assumptions C28_min_outflows_partial.
(** while nobody has set a group's limit, the members' flows cannot be computed at all *)
Theorem C28_no_limit_fails : forall w i a l s order timing tl bl extra group,
  la_link a s = Some l -> link_data w l = None -> linked_flows w i a s order timing tl bl extra group = Err TypeError.
Proof. intros w i a l s order timing tl bl extra group Hl Hd. unfold linked_flows, read_limit, get_limit. rewrite Hl, Hd. reflexivity. Qed.
Print Assumptions C28_no_limit_fails.
Theorem C28_sequence_of_contributions : forall ids w l lim g, contributing w l lim g -> NoDup g ->
  (forall i, In i ids -> In i g) ->
  exists w', contribute_all w ids = Ok w' /\ contributing w' l lim g /\
    gross_in w' [] g = (if ids then gross_in w [] g else Rmax lim (gross_in w [] g)).
Proof. exact contribute_all_exact. Qed.
Print Assumptions C28_sequence_of_contributions.
(** the result does not depend on the iteration order of the group (a Python set) *)
Theorem C28_iteration_order_irrelevant : forall w i a s o1 o2 timing tl bl extra group,
  Permutation o1 o2 -> dwf Reqb (own_extra i extra group) ->
  linked_flows w i a s o1 timing tl bl extra group = linked_flows w i a s o2 timing tl bl extra group.
Proof.
  intros w i a s o1 o2 timing tl bl extra group HP Hwf.
  destruct (merge_perm w group o1 o2 (merge_start i extra group) Hwf HP) as (P1 & P2 & P3).
  unfold linked_flows. destruct (read_limit w a s) as [lim|]; [|reflexivity]. cbn [bind].
  assert (Hb : forall t, balance_at_time (la_acct a) t (Some (merge_transactions w i extra group o1))
                       = balance_at_time (la_acct a) t (Some (merge_transactions w i extra group o2))).
  { intro t. rewrite !balance_at_time_eq. cbn [extra_wsum]. unfold merge_transactions. rewrite P3. reflexivity. }
  assert (Hi : inflows (la_acct a) (Some (merge_transactions w i extra group o1)) = inflows (la_acct a) (Some (merge_transactions w i extra group o2)))
    by (unfold inflows, merge_transactions; rewrite P1; reflexivity).
  assert (Ho : outflows (la_acct a) (Some (merge_transactions w i extra group o1)) = outflows (la_acct a) (Some (merge_transactions w i extra group o2)))
    by (unfold outflows, merge_transactions; rewrite P2; reflexivity).
  destruct s; unfold inflows_upto, outflows_upto, transactions_to_balance; rewrite ?Hi, ?Ho, Hb; reflexivity.
Qed.
Print Assumptions C28_iteration_order_irrelevant.

(** refuted in general: two accounts share a limit of 100.  B has contributed 100 and a third
    member C has withdrawn 100 at the same instant; merged, they cancel, so A may contribute the
    full 100 again *)
Definition w28 : world := lrun
  [ONew 1 (acctL 0 []) (only MaxIn lk) (lim_at MaxIn (Fin 100));
   ONew 2 (acctL 0 [(1, 100)]) (only MaxIn lk) nolim;
   ONew 3 (acctL 500 [(1, -100)]) (only MaxIn lk) nolim].
Definition a28 : lacct := {| la_acct := acctL 0 []; la_link := only MaxIn lk |}.
Theorem C28_simultaneous_flows_refuted :
  acct_of w28 1 = Some a28 /\ get_limit w28 a28 MaxIn = Some (Fin 100) /\
  gross_in w28 [] [1%nat; 2%nat; 3%nat] = 100 /\
  linked_flows w28 1 a28 MaxIn [2%nat; 3%nat] None None None None [] = Ok [(1, Fin 100)].
Proof.
  split; [reflexivity|]. split; [reflexivity|]. split.
  - unfold gross_in. cbn. unfold pos_part. cbn. destruct (Rltb 0 100) eqn:E; rb; [|lra].
    destruct (Rltb 0 (-100)) eqn:E2; rb; [lra|]. cbn. lra.
  - unfold linked_flows. cbn [read_limit get_limit]. change (get_limit w28 a28 MaxIn) with (Some (Fin 100)). 
    unfold read_limit. change (get_limit w28 a28 MaxIn) with (Some (Fin 100)). cbn [bind].
    set (m := merge_transactions w28 1 None [] [2%nat; 3%nat]).
    assert (Hm : m = [(1, 0)]).
    { unfold m, merge_transactions. cbn. unfold radd_transactions. cbn. unfold rincr. cbn. unfold rval. cbn. rewrite Reqb_refl. cbn.
      do 2 f_equal. lra. }
    rewrite Hm. clear m Hm.
    destruct (inflows_upto_finite (la_acct a28) (Fin 100) None None None (Some [(1, 0)])) as (flows & a' & F1 & F2 & F3 & F4 & _ & F6).
    { split; [discriminate|]. intros k w [E|[]]. injection E as <- <-. lra. }
    { discriminate. } { left; discriminate. }
    rewrite (ttb_eq (la_acct a28)) in F1 || idtac.
    unfold inflows_upto in F1 |- *.
    assert (Hin : inflows (la_acct a28) (Some [(1, 0)]) = 0).
    { unfold inflows, pos_part. cbn. destruct (Rltb 0 0) eqn:E; rb; cbn; lra. }
    rewrite Hin in *.
    assert (Ht : timing_ok (clean_timing (la_acct a28) None)).
    { split; [discriminate|]. intros k w [E|[]]. injection E as <- <-. lra. }
    assert (Hn : normalized_timing (clean_timing (la_acct a28) None) = [(1, 1)]).
    { unfold normalized_timing. cbn. destruct (Reqb (1 + 0) 0) eqn:E; rb; [lra|]. cbn.
      destruct (Reqb 1 0) eqn:E1; rb; [lra|]. cbn. do 2 f_equal. field. }
    rewrite (ttb_eq _ _ _ _ _ _ Ht), Hn. cbn [map fst snd opt_default option_map].
    set (W := wacc _ _). 
    assert (HT : clamp (ediv (esub PInf (balance_at_time (la_acct a28) 1 (Some [(1, 0)]))) W)
             (Some (emax (opt_emin (esub (Fin 100) 0) None) (Fin 0))) (Some (Fin 0)) = Fin 100).
    { cbn [esub opt_emin]. unfold emax at 1. cbn [eleb]. destruct (Rleb (100 - 0) 0) eqn:E; rb; [lra|].
      unfold clamp. cbn [ediv]. 
      assert (HW : 0 < W) by (unfold W; rewrite <- Hn; apply wacc_pos; exact Ht).
      destruct (Rltb 0 W) eqn:E2; rb; [|lra]. unfold emin. cbn [eleb]. unfold emax. cbn [eleb].
      destruct (Rleb (100 - 0) 0) eqn:E3; rb; [lra|]. f_equal. lra. }
    match goal with |- context [inflows ?a ?e] => replace (inflows a e) with 0 by (symmetry; exact Hin) end.
    match goal with |- context [clamp ?a ?b ?c] => replace (clamp a b c) with (Fin 100) by (symmetry; exact HT) end.
    cbn. repeat f_equal. lra.
Qed.
Print Assumptions C28_simultaneous_flows_refuted.
Example C28_sat : contributing (lrun
  [ONew 1 (acctL 0 []) (only MaxIn lk) (lim_at MaxIn (Fin 100));
   ONew 2 (acctL 0 [(1, 60)]) (only MaxIn lk) nolim]) lk 100 [1%nat; 2%nat] /\ NoDup [1%nat; 2%nat].
Proof.
  split.
  - split; [eexists; repeat split|]. intros j [<-|[<-|[]]]; eexists; (split; [reflexivity|]); cbn.
    + split; [reflexivity|]. split; [|intros t v []]. split; [discriminate|]. intros k w [E|[]]. injection E as <- <-. lra.
    + split; [reflexivity|]. split; [|intros t v [E|[]]; injection E as <- <-; lra]. split; [discriminate|].
      intros k w [E|[]]. injection E as <- <-. lra.
  - repeat constructor; cbn; intuition congruence.
Qed.

Definition w28m (s0 : slot) (v lim : R) : world :=
  lrun [ONew 1 (acctL 5 []) (only s0 lk) (lim_at s0 (Fin lim)); ONew 2 (acctL 5 [(1, v)]) (only s0 lk) nolim].
Example C28_sat_min : forall s0 v lim, (s0 = MinIn /\ v = 60 /\ lim = 100) \/ (s0 = MinOut /\ v = -60 /\ lim = -100) ->
  exists a, acct_of (w28m s0 v lim) 1 = Some a /\ la_link a s0 = Some lk /\ link_data (w28m s0 v lim) lk = Some (Fin lim) /\
    others (w28m s0 v lim) lk 1 = [2%nat] /\ timing_ok (clean_timing (la_acct a) None) /\
    signs_agree (fun _ => Rltb 0 v) (own_extra 1 None []) /\
    (forall j, In j [2%nat] -> signs_agree (fun _ => Rltb 0 v) (txns_of (w28m s0 v lim) j) /\ signs_agree (fun _ => Rltb 0 v) (planned [] j)).
Proof.
  intros s0 v lim [(-> & -> & ->)|(-> & -> & ->)]; (eexists; split; [reflexivity|]; split; [reflexivity|]; split; [reflexivity|]; split; [reflexivity|]; split;
    [split; [discriminate|]; intros t x [E|[]]; injection E as <- <-; lra|]; split; [intros t x []|]; intros j [<-|[]]; split; [|intros t x []];
    intros t x [E|[]]; injection E as <- <-; destruct (Rltb 0 _) eqn:B; rb; lra).
Qed.

(** ** C72: withdrawing from a linked account *)
(** if the rest of the group has no transactions, the account is never overdrawn *)
Theorem C72_no_overdraft_partial : forall w i a l lim order timing tl extra,
  la_link a MaxOut = Some l -> link_data w l = Some lim -> lim <> PInf -> tl <> Some PInf ->
  timing_ok (clean_timing (la_acct a) timing) ->
  (forall j, In j order -> txns_of w j = []) ->
  exists flows a', linked_flows w i a MaxOut order timing tl None extra [] = Ok (fin_flows flows) /\
    add_all (la_acct a) flows = Ok a' /\
    (0 <= balance_at_time (la_acct a) 1 extra -> 0 <= balance_at_time a' 1 extra).
Proof.
  intros w i a l lim order timing tl extra Hl Hd Hp Htl Ht Ho.
  unfold linked_flows, read_limit, get_limit. rewrite Hl, Hd. cbn [bind].
  assert (Hm : merge_transactions w i extra [] order = match extra with Some d => d | None => [] end).
  { unfold merge_transactions, merge_start. cbn. revert Ho. generalize (match extra with Some d => d | None => [] end).
    induction order as [|j r IH]; intros d Ho; [reflexivity|]. cbn [fold_left].
    assert (E : merge_one w [] d j = d) by (rewrite merge_one_eq, (Ho j (or_introl eq_refl)); reflexivity).
    rewrite E. apply IH. intros k Hk. apply Ho. right. exact Hk. }
  rewrite Hm. set (e := match extra with Some d => d | None => [] end).
  destruct (outflows_upto_spec (la_acct a) lim timing tl None (Some e) Ht Hp Htl) as (flows & a' & H1 & _ & _ & H4 & H5 & _).
  exists flows, a'. split; [exact H1|]. split; [exact H4|].
  assert (Hb : forall b, balance_at_time b 1 (Some e) = balance_at_time b 1 extra).
  { intro b. rewrite !balance_at_time_eq. unfold e. destruct extra; cbn; [reflexivity|]. change (wsum (fv b 1) []) with 0. lra. }
  rewrite !Hb in H5. exact H5.
Qed.
Print Assumptions C72_no_overdraft_partial.
(** refuted in general: another account's deposit of 1000 lets an account holding 50 be
    drained of 1050 *)
Definition w72 : world := lrun
  [ONew 1 (acctL 50 []) (only MaxOut lk) (lim_at MaxOut MInf);
   ONew 2 (acctL 0 [(1, 1000)]) (only MaxOut lk) nolim].
Definition a72 : lacct := {| la_acct := acctL 50 []; la_link := only MaxOut lk |}.
Theorem C72_overdraft_refuted : acct_of w72 1 = Some a72 /\
  balance_at_time (la_acct a72) 1 None = 50 /\
  exists flows a', linked_flows w72 1 a72 MaxOut [2%nat] None None None None [] = Ok (fin_flows flows) /\
    add_all (la_acct a72) flows = Ok a' /\ balance_at_time a' 1 None = -1000.
Proof.
  split; [reflexivity|].
  assert (Hg : forall t, growth (acctL 50 []) t = 1).
  { intro t. unfold growth, accumulation_function. cbn. replace (1 + 0 / 1) with 1 by lra.
    unfold Rpower. rewrite ln_1, Rmult_0_r. apply exp_0. }
  assert (H50 : balance_at_time (acctL 50 []) 1 None = 50).
  { rewrite balance_at_time_eq, Hg. cbn. unfold wsum. cbn. lra. }
  split; [exact H50|].
  unfold linked_flows, read_limit. change (get_limit w72 a72 MaxOut) with (Some MInf). cbn [bind].
  set (m := merge_transactions w72 1 None [] [2%nat]).
  assert (Hm : m = [(1, 1000)]) by (unfold m, merge_transactions; cbn; unfold radd_transactions; cbn; unfold rincr; cbn; do 2 f_equal; lra).
  rewrite Hm. clear m Hm.
  destruct (outflows_upto_spec (la_acct a72) MInf None None None (Some [(1, 1000)])) as (flows & a' & F1 & F2 & F3 & F4 & F5 & F6).
  { split; [discriminate|]. intros k w [E|[]]. injection E as <- <-. lra. }
  { discriminate. } { discriminate. }
  exists flows, a'. split; [exact F1|]. split; [exact F4|].
  assert (Hext : forall b, balance_at_time b 1 (Some [(1, 1000)]) = balance_at_time b 1 None + 1000 * fv b 1 1).
  { intros b. rewrite !balance_at_time_eq. cbn [extra_wsum]. unfold wsum. cbn. lra. }
  assert (Hfv : forall b, fv b 1 1 = 1).
  { intro b. unfold fv. destruct (Rleb 1 1) eqn:E; rb; [|lra]. replace (1 - 1) with 0 by ring. apply growth_0. }
  destruct F6 as [F6|[F6|[F6 _]]].
  - rewrite Hext, Hfv in F6. lra.
  - cbn in F6. discriminate.
  - rewrite Hext, Hfv in F6. change (la_acct a72) with (acctL 50 []) in F6. rewrite H50 in F6. lra.
Qed.
Print Assumptions C72_overdraft_refuted.
(** two linked accounts, no transactions in the other one *)
Definition w72q : world := lrun
  [ONew 1 (acctL 50 []) (only MaxOut lk) (lim_at MaxOut MInf);
   ONew 2 (acctL 70 []) (only MaxOut lk) nolim].
Example C72_sat : acct_of w72q 1 = Some a72 /\ la_link a72 MaxOut = Some lk /\ link_data w72q lk = Some MInf /\
  timing_ok (clean_timing (la_acct a72) None) /\ (forall j, In j [2%nat] -> txns_of w72q j = []) /\ acct_of w72q 2 <> None.
Proof.
  split; [reflexivity|]. split; [reflexivity|]. split; [reflexivity|]. split; [split; [discriminate|]; intros k w [E|[]]; injection E as <- <-; lra|].
  split; [intros j [<-|[]]; reflexivity|discriminate].
Qed.
