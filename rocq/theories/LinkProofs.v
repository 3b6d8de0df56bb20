From Verif Require Import Base BaseFacts RBase GrowthModel GrowthProofs AccountModel AccountSpec AccountProofs LinkModel LinkSpec.
From Coq Require Import Permutation.
Open Scope R_scope.

Lemma link_eqb_t a b : link_eqb a b = true <-> a = b.
Proof.
  destruct a as [a1 a2], b as [b1 b2]. unfold link_eqb. cbn. rewrite andb_true_iff, Nat.eqb_eq, String.eqb_eq.
  split; [intros [-> ->]; reflexivity|intro H; injection H; auto].
Qed.
Lemma link_eqb_refl a : link_eqb a a = true. Proof. apply link_eqb_t. reflexivity. Qed.
Lemma link_eqb_sym a b : link_eqb a b = link_eqb b a.
Proof.
  destruct (link_eqb a b) eqn:E, (link_eqb b a) eqn:F; auto.
  - apply link_eqb_t in E. subst. rewrite link_eqb_refl in F. discriminate.
  - apply link_eqb_t in F. subst. rewrite link_eqb_refl in E. discriminate.
Qed.
Lemma link_eqb_trans a b c : link_eqb a b = true -> link_eqb b c = true -> link_eqb a c = true.
Proof. rewrite !link_eqb_t. congruence. Qed.
Lemma ldget_dset {V} (d : dict link V) k v k' :
  dget link_eqb (dset link_eqb d k v) k' = if link_eqb k' k then Some v else dget link_eqb d k'.
Proof. apply (dget_dset link_eqb link_eqb_sym link_eqb_trans). Qed.
Lemma ldset_wf {V} (d : dict link V) k v : dwf link_eqb d -> dwf link_eqb (dset link_eqb d k v).
Proof. apply (dset_wf link_eqb link_eqb_sym link_eqb_trans). Qed.

Lemma rec_set w l r l' : rec_of (set_rec w l r) l' = if link_eqb l' l then Some r else rec_of w l'.
Proof. unfold rec_of, set_rec. cbn. apply ldget_dset. Qed.
Lemma acct_set_rec w l r i : acct_of (set_rec w l r) i = acct_of w i. Proof. reflexivity. Qed.
Lemma rec_set_acct w i a l : rec_of (set_acct w i a) l = rec_of w l. Proof. reflexivity. Qed.
Lemma acct_set w i a j : acct_of (set_acct w i a) j = if Nat.eqb j i then Some a else acct_of w j.
Proof. unfold acct_of, set_acct. cbn. apply ndget_dset. Qed.

(** ** C26 *)
Definition mem_of (w : world) (l : link) (i : nat) : bool * bool :=
  match rec_of w l with Some r => (true, existsb (Nat.eqb i) (l_group r)) | None => (false, false) end.
Lemma is_reg w l : is_registered w l = match rec_of w l with Some _ => true | None => false end.
Proof. unfold is_registered, dmem, rec_of. destruct (dget link_eqb (w_data w) l); reflexivity. Qed.

Lemma mem_register w l0 d l i : mem_of (register w l0 d) l i = if link_eqb l l0 then (true, snd (mem_of w l i)) else mem_of w l i.
Proof.
  unfold register. rewrite is_reg. unfold mem_of. destruct (link_eqb l l0) eqn:E.
  - apply link_eqb_t in E. subst. destruct (rec_of w l0) eqn:F; [rewrite F; reflexivity|].
    rewrite rec_set, link_eqb_refl. reflexivity.
  - destruct (rec_of w l0) eqn:F; [reflexivity|]. rewrite rec_set, E. reflexivity.
Qed.
Lemma existsb_app_one (l : list nat) i j : existsb (Nat.eqb i) (l ++ [j]) = orb (existsb (Nat.eqb i) l) (Nat.eqb i j).
Proof. rewrite existsb_app. cbn. rewrite orb_false_r. reflexivity. Qed.
Lemma mem_link_account w l0 j w' l i : link_account w l0 j = Ok w' ->
  mem_of w' l i = if link_eqb l l0 then (true, orb (snd (mem_of w l i)) (Nat.eqb i j)) else mem_of w l i.
Proof.
  unfold link_account. destruct (rec_of w l0) as [r|] eqn:F; [|discriminate]. intro H. injection H as <-.
  destruct (existsb (Nat.eqb j) (l_group r)) eqn:G.
  - destruct (link_eqb l l0) eqn:E; [|reflexivity]. apply link_eqb_t in E. subst. unfold mem_of. rewrite F. cbn.
    f_equal. destruct (Nat.eqb i j) eqn:H; [apply Nat.eqb_eq in H; subst; rewrite G; reflexivity|rewrite orb_false_r; reflexivity].
  - unfold mem_of. rewrite rec_set. destruct (link_eqb l l0) eqn:E; [|reflexivity]. apply link_eqb_t in E. subst.
    rewrite F. cbn. rewrite existsb_app_one. reflexivity.
Qed.
Lemma mem_set_data w l0 v w' l i : set_link_data w l0 v = Ok w' -> mem_of w' l i = mem_of w l i.
Proof.
  unfold set_link_data. destruct (rec_of w l0) as [r|] eqn:F; [|discriminate]. intro H. injection H as <-.
  unfold mem_of. rewrite rec_set. destruct (link_eqb l l0) eqn:E; [|reflexivity]. apply link_eqb_t in E. subst. rewrite F. reflexivity.
Qed.
Lemma rec_register w l d : exists r, rec_of (register w l d) l = Some r.
Proof.
  unfold register. rewrite is_reg. destruct (rec_of w l) eqn:F; [eauto|]. rewrite rec_set, link_eqb_refl. eauto.
Qed.
Lemma process_link_ok w j l0 lim : exists w', process_link w j l0 lim = Ok w'.
Proof.
  unfold process_link. destruct l0 as [l0|]; [|eauto]. destruct (rec_register w l0 None) as [r Hr].
  unfold link_account. rewrite Hr. cbn.
  set (w1 := if existsb (Nat.eqb j) (l_group r) then register w l0 None else _).
  assert (H1 : exists r1, rec_of w1 l0 = Some r1).
  { unfold w1. destruct (existsb _ _); [eauto|]. rewrite rec_set, link_eqb_refl. eauto. }
  destruct H1 as [r1 H1]. destruct lim; [|eauto]. unfold set_link_data. rewrite H1. eauto.
Qed.
Lemma mem_process w j l0 lim w' l i : process_link w j l0 lim = Ok w' ->
  mem_of w' l i = match l0 with
                  | Some l1 => if link_eqb l l1 then (true, orb (snd (mem_of w l i)) (Nat.eqb i j)) else mem_of w l i
                  | None => mem_of w l i end.
Proof.
  unfold process_link. destruct l0 as [l0|]; [|intro H; injection H as <-; reflexivity].
  destruct (link_account (register w l0 None) l0 j) as [w1|] eqn:E; [|discriminate]. cbn [bind].
  intro H. assert (Hm : mem_of w' l i = mem_of w1 l i).
  { destruct lim; [eapply mem_set_data; exact H|]. injection H as <-. reflexivity. }
  rewrite Hm, (mem_link_account _ _ _ _ _ _ E), mem_register. destruct (link_eqb l l0); reflexivity.
Qed.
Lemma new_account_ok w j a links lims : exists w', new_account w j a links lims = Ok w'.
Proof.
  unfold new_account.
  destruct (process_link_ok w j (links MaxIn) (lims MaxIn)) as [w1 ->]. cbn [bind].
  destruct (process_link_ok w1 j (links MinIn) (lims MinIn)) as [w2 ->]. cbn [bind].
  destruct (process_link_ok w2 j (links MaxOut) (lims MaxOut)) as [w3 ->]. cbn [bind].
  destruct (process_link_ok w3 j (links MinOut) (lims MinOut)) as [w4 ->]. cbn [bind]. eauto.
Qed.
Lemma mem_new w j a links lims w' l i : new_account w j a links lims = Ok w' ->
  mem_of w' l i = if uses links l then (true, orb (snd (mem_of w l i)) (Nat.eqb i j)) else mem_of w l i.
Proof.
  unfold new_account.
  destruct (process_link w j (links MaxIn) (lims MaxIn)) as [w1|] eqn:E1; [|discriminate]. cbn [bind].
  destruct (process_link w1 j (links MinIn) (lims MinIn)) as [w2|] eqn:E2; [|discriminate]. cbn [bind].
  destruct (process_link w2 j (links MaxOut) (lims MaxOut)) as [w3|] eqn:E3; [|discriminate]. cbn [bind].
  destruct (process_link w3 j (links MinOut) (lims MinOut)) as [w4|] eqn:E4; [|discriminate]. cbn [bind].
  intro H. injection H as <-. change (mem_of (set_acct w4 j {| la_acct := a; la_link := links |}) l i) with (mem_of w4 l i).
  rewrite (mem_process _ _ _ _ _ _ _ E4), (mem_process _ _ _ _ _ _ _ E3), (mem_process _ _ _ _ _ _ _ E2), (mem_process _ _ _ _ _ _ _ E1).
  unfold uses. cbn [existsb].
  destruct (links MaxIn) as [l1|]; [destruct (link_eqb l l1)|]; (destruct (links MinIn) as [l2|]; [destruct (link_eqb l l2)|]);
  (destruct (links MaxOut) as [l3|]; [destruct (link_eqb l l3)|]); (destruct (links MinOut) as [l4|]; [destruct (link_eqb l l4)|]);
  cbn; try reflexivity; destruct (snd (mem_of w l i)), (Nat.eqb i j); reflexivity.
Qed.
Lemma ddel_data_wf w l : dwf link_eqb (w_data w) -> dwf link_eqb (w_data (unregister w l)).
Proof.
  intro H. unfold unregister. destruct (is_registered w l); [|exact H]. cbn.
  apply (ddel_wf link_eqb link_eqb_sym link_eqb_trans). exact H.
Qed.
Definition wok (w : world) : Prop := dwf link_eqb (w_data w).
Lemma wok_set_rec w l r : wok w -> wok (set_rec w l r). Proof. apply ldset_wf. Qed.
Lemma wok_process w j l0 lim w' : wok w -> process_link w j l0 lim = Ok w' -> wok w'.
Proof.
  intros H. unfold process_link. destruct l0 as [l0|]; [|intro E; injection E as <-; exact H].
  unfold link_account. destruct (rec_of (register w l0 None) l0) as [r|] eqn:F; [|discriminate]. cbn [bind].
  assert (H1 : wok (register w l0 None)) by (unfold register; destruct (is_registered w l0); [exact H|apply wok_set_rec; exact H]).
  set (w1 := if existsb (Nat.eqb j) (l_group r) then register w l0 None else _).
  assert (H2 : wok w1) by (unfold w1; destruct (existsb _ _); [exact H1|apply wok_set_rec; exact H1]).
  destruct lim; [|intro E; injection E as <-; exact H2]. unfold set_link_data. destruct (rec_of w1 l0); [|discriminate].
  intro E; injection E as <-. apply wok_set_rec. exact H2.
Qed.
Lemma wok_step w o : wok w -> wok (lstep w o).
Proof.
  intro H. destruct o; cbn.
  - destruct (new_account w i a links limits) as [w'|] eqn:E; [|exact H]. revert E. unfold new_account.
    destruct (process_link w i (links MaxIn) _) as [w1|] eqn:E1; [|discriminate]. cbn [bind].
    destruct (process_link w1 i (links MinIn) _) as [w2|] eqn:E2; [|discriminate]. cbn [bind].
    destruct (process_link w2 i (links MaxOut) _) as [w3|] eqn:E3; [|discriminate]. cbn [bind].
    destruct (process_link w3 i (links MinOut) _) as [w4|] eqn:E4; [|discriminate]. cbn [bind].
    intro E; injection E as <-. change (wok w4).
    eapply wok_process; [|exact E4]. eapply wok_process; [|exact E3]. eapply wok_process; [|exact E2]. eapply wok_process; [|exact E1]. exact H.
  - destruct (acct_of w i) as [a|]; [|exact H]. unfold set_limit. destruct (la_link a (setter_slot s)); [|exact H].
    unfold set_link_data. destruct (rec_of w l); [|exact H]. apply wok_set_rec. exact H.
  - unfold register. destruct (is_registered w l); [exact H|apply wok_set_rec; exact H].
  - apply ddel_data_wf. exact H.
  - unfold link_account. destruct (rec_of w l) as [r|]; [|exact H]. destruct (existsb _ _); [exact H|apply wok_set_rec; exact H].
  - unfold unlink_account. destruct (rec_of w l) as [r|]; [|exact H]. destruct (existsb _ _); [apply wok_set_rec; exact H|exact H].
  - unfold set_link_data. destruct (rec_of w l); [|exact H]. apply wok_set_rec. exact H.
  - unfold record_flows. destruct (acct_of w i) as [a|]; [|exact H]. destruct (add_all (la_acct a) flows); exact H.
Qed.
Lemma rec_unregister w l0 l : wok w -> rec_of (unregister w l0) l = if link_eqb l l0 then None else rec_of w l.
Proof.
  intro H. unfold unregister. rewrite is_reg. destruct (rec_of w l0) as [r|] eqn:F.
  - unfold rec_of. cbn. apply (dget_ddel link_eqb link_eqb_sym link_eqb_trans). exact H.
  - destruct (link_eqb l l0) eqn:E; [|reflexivity]. apply link_eqb_t in E. subst. exact F.
Qed.
Lemma existsb_filter_ne (l : list nat) i j :
  existsb (Nat.eqb i) (filter (fun k => negb (Nat.eqb j k)) l) = andb (existsb (Nat.eqb i) l) (negb (Nat.eqb i j)).
Proof.
  induction l as [|x l IH]; [reflexivity|]. cbn. destruct (Nat.eqb j x) eqn:E; cbn.
  - apply Nat.eqb_eq in E. subst. rewrite IH. destruct (Nat.eqb i x); cbn; [rewrite andb_false_r; reflexivity|reflexivity].
  - rewrite IH. destruct (Nat.eqb i x) eqn:F; cbn; [|reflexivity]. apply Nat.eqb_eq in F. subst.
    rewrite (neqb_sym x j), E. reflexivity.
Qed.
Lemma mem_step w o l i : wok w -> mem_of (lstep w o) l i = member_step l i (mem_of w l i) o.
Proof.
  intro H. destruct o as [j a links lims|j s v|l0|l0|l0 j|l0 j|l0 v|j flows]; cbn [lstep]; unfold member_step.
  - destruct (new_account_ok w j a links lims) as [w' E]. rewrite E, (mem_new _ _ _ _ _ _ _ _ E).
    destruct (mem_of w l i) as [reg mem]. cbn [snd]. destruct (uses links l); [|reflexivity].
    destruct (Nat.eqb i j), mem; reflexivity.
  - destruct (mem_of w l i) as [reg mem] eqn:M. destruct (acct_of w j) as [a|]; [|exact M].
    destruct (set_limit w a s v) as [w'|] eqn:E; [|exact M]. unfold set_limit in E.
    destruct (la_link a (setter_slot s)); [|discriminate]. rewrite (mem_set_data _ _ _ _ _ _ E). exact M.
  - rewrite mem_register. destruct (mem_of w l i) as [reg mem]. reflexivity.
  - unfold mem_of at 1. rewrite rec_unregister by exact H. destruct (mem_of w l i) as [reg mem] eqn:M.
    destruct (link_eqb l l0); [reflexivity|]. exact M.
  - destruct (link_account w l0 j) as [w'|] eqn:E.
    + rewrite (mem_link_account _ _ _ _ _ _ E). destruct (link_eqb l l0) eqn:G; [|destruct (mem_of w l i); reflexivity].
      apply link_eqb_t in G. subst. unfold link_account in E. unfold mem_of. destruct (rec_of w l0) as [r|]; [|discriminate]. cbn.
      destruct (Nat.eqb i j); [rewrite orb_true_r; reflexivity|rewrite orb_false_r; reflexivity].
    + unfold link_account in E. destruct (rec_of w l0) as [r|] eqn:F; [discriminate|].
      destruct (link_eqb l l0) eqn:G; [|destruct (mem_of w l i); reflexivity]. apply link_eqb_t in G. subst.
      unfold mem_of. rewrite F. destruct (Nat.eqb i j); reflexivity.
  - unfold unlink_account. destruct (rec_of w l0) as [r|] eqn:F.
    + destruct (existsb (Nat.eqb j) (l_group r)) eqn:X.
      * unfold mem_of. rewrite rec_set. destruct (link_eqb l l0) eqn:G.
        -- apply link_eqb_t in G. subst. rewrite F. cbn [l_group]. rewrite existsb_filter_ne.
           destruct (Nat.eqb i j); cbn; [rewrite andb_false_r; reflexivity|rewrite andb_true_r; reflexivity].
        -- destruct (rec_of w l); reflexivity.
      * unfold mem_of. destruct (link_eqb l l0) eqn:G; [|destruct (rec_of w l); reflexivity].
        apply link_eqb_t in G. subst. rewrite F. destruct (Nat.eqb i j) eqn:Y; [|reflexivity].
        apply Nat.eqb_eq in Y. subst. rewrite X. reflexivity.
    + unfold mem_of. destruct (link_eqb l l0) eqn:G; [|destruct (rec_of w l); reflexivity].
      apply link_eqb_t in G. subst. rewrite F. destruct (Nat.eqb i j); reflexivity.
  - destruct (set_link_data w l0 v) as [w'|] eqn:E; [rewrite (mem_set_data _ _ _ _ _ _ E)|]; destruct (mem_of w l i); reflexivity.
  - unfold record_flows. destruct (acct_of w j) as [a|]; [|destruct (mem_of w l i); reflexivity].
    destruct (add_all (la_acct a) flows); cbn; [change (mem_of (set_acct w j {| la_acct := a0; la_link := la_link a |}) l i) with (mem_of w l i)|]; destruct (mem_of w l i); reflexivity.
Qed.
Lemma wok_run h : wok (lrun h).
Proof.
  unfold lrun. assert (H : forall w, wok w -> wok (fold_left lstep h w)).
  { induction h as [|o h IH]; intros w Hw; [exact Hw|]. cbn. apply IH. apply wok_step. exact Hw. }
  apply H. exact I.
Qed.
Lemma group_history h l i : mem_of (lrun h) l i = member_history l i h.
Proof.
  unfold lrun, member_history. assert (H : forall w s, wok w -> mem_of w l i = s ->
    mem_of (fold_left lstep h w) l i = fold_left (member_step l i) h s).
  { induction h as [|o h IH]; intros w s Hw Hs; [exact Hs|]. cbn. apply IH; [apply wok_step; exact Hw|].
    rewrite mem_step by exact Hw. rewrite Hs. reflexivity. }
  apply H; [exact I|reflexivity].
Qed.

Lemma link_data_set w l v w' l' : set_link_data w l v = Ok w' ->
  link_data w' l' = if link_eqb l' l then v else link_data w l'.
Proof.
  unfold set_link_data. destruct (rec_of w l) as [r|] eqn:F; [|discriminate]. intro H. injection H as <-.
  unfold link_data. rewrite rec_set. destruct (link_eqb l' l); reflexivity.
Qed.

(** ** C28: gross sums under merging *)
Definition ppos (x : R) : R := if Rltb 0 x then x else 0.
Lemma pos_part_eq d : pos_part d = Rsum (map (fun kv => ppos (snd kv)) d).
Proof.
  unfold pos_part, ppos, dvals. induction d as [|[k v] r IH]; [reflexivity|]. cbn. destruct (Rltb 0 v); cbn; rewrite IH; lra.
Qed.
Lemma pos_part_dset d k v : pos_part (dset Reqb d k v) = pos_part d + ppos v - ppos (rval d k).
Proof.
  rewrite !pos_part_eq. unfold rval. induction d as [|[k' v'] r IH]; cbn.
  - unfold ppos at 3. destruct (Rltb 0 0) eqn:E; rb; lra.
  - destruct (Reqb k k') eqn:E; cbn; [lra|]. rewrite IH. lra.
Qed.
Lemma pos_part_ddel d k : pos_part (ddel Reqb d k) = pos_part d - ppos (rval d k).
Proof.
  rewrite !pos_part_eq. unfold rval. induction d as [|[k' v'] r IH]; cbn.
  - unfold ppos. destruct (Rltb 0 0) eqn:E; rb; lra.
  - destruct (Reqb k k') eqn:E; cbn; [lra|]. rewrite IH. lra.
Qed.
Lemma pos_part_rincr d k v : pos_part (rincr d k v) = pos_part d + ppos (rval d k + v) - ppos (rval d k).
Proof. unfold rincr. rewrite pos_part_dset. unfold rval. reflexivity. Qed.

Definition agree (c : R -> bool) (d : dict R R) : Prop := forall t, if c t then 0 <= rval d t else rval d t <= 0.
Lemma signs_agree_rval c d : signs_agree c d -> agree c d.
Proof.
  intros H t. unfold rval. destruct (dget Reqb d t) as [v|] eqn:E.
  - apply rdget_In in E. exact (H t v E).
  - destruct (c t); lra.
Qed.
Lemma agree_rincr c d k v : agree c d -> (if c k then 0 <= v else v <= 0) -> agree c (rincr d k v).
Proof.
  intros H Hv t. rewrite rval_rincr. specialize (H t). destruct (Reqb t k) eqn:E; rb.
  - subst. destruct (c k); lra.
  - destruct (c t); lra.
Qed.
Lemma agree_radd c : forall e d, agree c d -> signs_agree c e ->
  agree c (radd_transactions d e) /\ pos_part (radd_transactions d e) = pos_part d + pos_part e.
Proof.
  unfold radd_transactions. induction e as [|[k v] r IH]; intros d Hd He; cbn [fold_left].
  - split; [exact Hd|]. unfold pos_part at 3. cbn. lra.
  - assert (Hv : if c k then 0 <= v else v <= 0) by (apply He; left; reflexivity).
    cbn [fst snd]. destruct (IH (rincr d k v)) as [H1 H2].
    + apply agree_rincr; assumption.
    + intros t x Hin. apply He. right. exact Hin.
    + split; [exact H1|]. rewrite H2, pos_part_rincr.
      assert (Hp : pos_part ((k, v) :: r) = ppos v + pos_part r) by (rewrite !pos_part_eq; reflexivity).
      rewrite Hp. specialize (Hd k). unfold ppos. destruct (c k);
      repeat match goal with |- context [Rltb 0 ?x] => destruct (Rltb 0 x) eqn:?; rb end; lra.
Qed.
Lemma Rsum_dvals_radd e d : Rsum (dvals (radd_transactions d e)) = Rsum (dvals d) + Rsum (dvals e).
Proof. rewrite <- !wsum_one. apply wsum_radd. Qed.

Lemma merge_one_eq w group d j : merge_one w group d j = radd_transactions (radd_transactions d (txns_of w j)) (planned group j).
Proof. unfold merge_one, planned. destruct (dget Nat.eqb group j); reflexivity. Qed.
Lemma merge_gross c w group : forall order d, agree c d ->
  (forall j, In j order -> signs_agree c (txns_of w j) /\ signs_agree c (planned group j)) ->
  pos_part (fold_left (merge_one w group) order d) = pos_part d + gross_in w group order /\
  neg_part (fold_left (merge_one w group) order d) = neg_part d + gross_out w group order.
Proof.
  induction order as [|j r IH]; intros d Hd H; cbn [fold_left].
  - unfold gross_in, gross_out. cbn. lra.
  - destruct (H j (or_introl eq_refl)) as [H1 H2]. rewrite merge_one_eq.
    destruct (agree_radd c _ _ Hd H1) as [A1 P1]. destruct (agree_radd c _ _ A1 H2) as [A2 P2].
    destruct (IH _ A2) as [I1 I2]; [intros k Hk; apply H; right; exact Hk|].
    assert (N : neg_part (radd_transactions (radd_transactions d (txns_of w j)) (planned group j))
                = neg_part d + neg_part (txns_of w j) + neg_part (planned group j)).
    { pose proof (parts_sum (radd_transactions (radd_transactions d (txns_of w j)) (planned group j))) as S.
      rewrite !Rsum_dvals_radd in S. pose proof (parts_sum d). pose proof (parts_sum (txns_of w j)).
      pose proof (parts_sum (planned group j)). lra. }
    rewrite I1, I2, N, P2, P1. unfold gross_in, gross_out. cbn. lra.
Qed.

(** gross totals without any sign assumption are at least the merged ones *)
Lemma pos_part_radd_le : forall e d, pos_part (radd_transactions d e) <= pos_part d + pos_part e.
Proof.
  unfold radd_transactions. induction e as [|[k v] r IH]; intros d; cbn [fold_left].
  - unfold pos_part at 3. cbn. lra.
  - cbn [fst snd]. specialize (IH (rincr d k v)). rewrite pos_part_rincr in IH.
    assert (Hp : pos_part ((k, v) :: r) = ppos v + pos_part r) by (rewrite !pos_part_eq; reflexivity).
    rewrite Hp. unfold ppos in *.
    repeat match goal with |- context [Rltb 0 ?x] => destruct (Rltb 0 x) eqn:?; rb
                      | H : context [Rltb 0 ?x] |- _ => destruct (Rltb 0 x) eqn:?; rb end; lra.
Qed.

(** *** order independence *)
Lemma radd_wf : forall e d, dwf Reqb d -> dwf Reqb (radd_transactions d e).
Proof.
  unfold radd_transactions. induction e as [|[k v] r IH]; intros d H; [exact H|]. cbn. apply IH. apply rincr_wf. exact H.
Qed.
Lemma pos_part_rval : forall d d', dwf Reqb d -> dwf Reqb d' -> (forall t, rval d t = rval d' t) -> pos_part d = pos_part d'.
Proof.
  induction d as [|[k v] r IH]; intros d' H H' E.
  - assert (Hz : forall l : dict R R, (forall t x, In (t, x) l -> x = 0) -> pos_part l = 0).
    { clear. intro l. rewrite pos_part_eq. induction l as [|[k v] r IH]; intro H; [reflexivity|]. cbn.
      rewrite (H k v (or_introl eq_refl)), IH by (intros; eapply H; right; eassumption).
      unfold ppos. destruct (Rltb 0 0) eqn:X; rb; lra. }
    rewrite (Hz d'); [reflexivity|]. intros t x Hin. pose proof (rIn_dget _ _ _ H' Hin) as G.
    specialize (E t). unfold rval in E. rewrite G in E. cbn in E. auto.
  - assert (Hp : pos_part ((k, v) :: r) = ppos v + pos_part r) by (rewrite !pos_part_eq; reflexivity).
    destruct H as [Hnk Hr].
    rewrite Hp, (IH (ddel Reqb d' k)).
    + rewrite pos_part_ddel. rewrite <- E. unfold rval. cbn. rewrite Reqb_refl. lra.
    + exact Hr.
    + apply rddel_wf. exact H'.
    + intro t. unfold rval. rewrite rdget_ddel by exact H'. specialize (E t). unfold rval in E. cbn in E.
      destruct (Reqb t k) eqn:X; [|exact E]. rb. subst.
      unfold dmem in Hnk. destruct (dget Reqb r k); [discriminate|reflexivity].
Qed.
Lemma merge_rval w group t : forall order d, rval (fold_left (merge_one w group) order d) t
  = rval d t + Rsum (map (fun j => Rsum (map (fun kv => if Reqb t (fst kv) then snd kv else 0) (txns_of w j))
                          + Rsum (map (fun kv => if Reqb t (fst kv) then snd kv else 0) (planned group j))) order).
Proof.
  induction order as [|j r IH]; intro d; cbn [fold_left]; cbn [map Rsum]; [lra|].
  rewrite IH, merge_one_eq, !rval_radd. lra.
Qed.
Lemma merge_wf w group : forall order d, dwf Reqb d -> dwf Reqb (fold_left (merge_one w group) order d).
Proof.
  induction order as [|j r IH]; intros d H; [exact H|]. cbn. apply IH. rewrite merge_one_eq. apply radd_wf, radd_wf, H.
Qed.
Lemma merge_wsum w group f : forall order d, wsum f (fold_left (merge_one w group) order d)
  = wsum f d + Rsum (map (fun j => wsum f (txns_of w j) + wsum f (planned group j)) order).
Proof.
  induction order as [|j r IH]; intro d; cbn [fold_left]; cbn [map Rsum]; [lra|].
  rewrite IH, merge_one_eq, !wsum_radd. lra.
Qed.
Lemma Rsum_perm l l' : Permutation l l' -> Rsum l = Rsum l'.
Proof. induction 1; cbn; lra. Qed.
Lemma merge_perm w group o1 o2 d : dwf Reqb d -> Permutation o1 o2 ->
  pos_part (fold_left (merge_one w group) o1 d) = pos_part (fold_left (merge_one w group) o2 d) /\
  neg_part (fold_left (merge_one w group) o1 d) = neg_part (fold_left (merge_one w group) o2 d) /\
  forall f, wsum f (fold_left (merge_one w group) o1 d) = wsum f (fold_left (merge_one w group) o2 d).
Proof.
  intros H P.
  assert (Hw : forall f, wsum f (fold_left (merge_one w group) o1 d) = wsum f (fold_left (merge_one w group) o2 d)).
  { intro f. rewrite !merge_wsum. f_equal. apply Rsum_perm, Permutation_map, P. }
  assert (Hp : pos_part (fold_left (merge_one w group) o1 d) = pos_part (fold_left (merge_one w group) o2 d)).
  { apply pos_part_rval; try apply merge_wf; auto. intro t. rewrite !merge_rval. f_equal. apply Rsum_perm, Permutation_map, P. }
  split; [exact Hp|]. split; [|exact Hw].
  pose proof (parts_sum (fold_left (merge_one w group) o1 d)) as S1. pose proof (parts_sum (fold_left (merge_one w group) o2 d)) as S2.
  rewrite <- !wsum_one, Hw in S1. rewrite <- wsum_one in S2. lra.
Qed.

(** ** sequences of contributions *)
Lemma finite_fin l : finite_flows (fin_flows l) = Ok l.
Proof. induction l as [|[t v] r IH]; [reflexivity|]. cbn. fold (fin_flows r). rewrite IH. reflexivity. Qed.
Lemma add_all_txns : forall l a a', add_all a l = Ok a' -> a_txns a' = radd_transactions (a_txns a) l.
Proof.
  unfold radd_transactions. induction l as [|[t v] r IH]; intros a a' H; cbn [add_all] in H; [injection H as <-; reflexivity|].
  rewrite add_txn_num in H. destruct (orb (Rltb 1 t) (Rltb t 0)); cbn [bind] in H; [discriminate|].
  apply IH in H. cbn in H. exact H.
Qed.
Lemma Rsum_split_one (f : nat -> R) i : forall l, NoDup l -> In i l ->
  Rsum (map f l) = f i + Rsum (map f (filter (fun j => negb (Nat.eqb i j)) l)).
Proof.
  induction l as [|x l IH]; intros Hn Hi; [destruct Hi|]. inversion Hn as [|? ? Hx Hl]; subst. cbn [map Rsum filter].
  destruct Hi as [->|Hi].
  - rewrite Nat.eqb_refl. cbn [negb].
    assert (Hf : filter (fun j => negb (Nat.eqb i j)) l = l).
    { clear -Hx. induction l as [|y l IH]; [reflexivity|]. cbn. destruct (Nat.eqb i y) eqn:E.
      - apply Nat.eqb_eq in E. subst. exfalso. apply Hx. left. reflexivity.
      - cbn. rewrite IH; [reflexivity|]. intro. apply Hx. right. assumption. }
    rewrite Hf. reflexivity.
  - destruct (Nat.eqb i x) eqn:E; [apply Nat.eqb_eq in E; subst; contradiction|]. cbn [negb map Rsum].
    rewrite (IH Hl Hi). lra.
Qed.
Lemma nonneg_radd e d : (forall t v, In (t, v) d -> 0 <= v) -> (forall t v, In (t, v) e -> 0 <= v) ->
  forall t v, In (t, v) (radd_transactions d e) -> 0 <= v.
Proof.
  unfold radd_transactions. revert d. induction e as [|[k x] r IH]; intros d Hd He; [exact Hd|]. cbn [fold_left].
  apply IH; [|intros; eapply He; right; eassumption]. cbn [fst snd]. intros t v Hin. unfold rincr in Hin.
  apply In_dset in Hin. destruct Hin as [[-> ->]|Hin]; [|eauto].
  assert (0 <= x) by (eapply He; left; reflexivity). unfold rval.
  destruct (dget Reqb d k) eqn:E; [apply rdget_In in E; apply Hd in E; lra|lra].
Qed.
Lemma pos_part_nonneg_list d : (forall t v, In (t, v) d -> 0 <= v) -> pos_part d = Rsum (dvals d).
Proof.
  intro H. rewrite pos_part_eq. unfold dvals. induction d as [|[k v] r IH]; [reflexivity|]. cbn.
  rewrite IH by (intros; eapply H; right; eassumption). assert (0 <= v) by (eapply H; left; reflexivity).
  unfold ppos. destruct (Rltb 0 v) eqn:E; rb; lra.
Qed.
Lemma contribute_step w l lim g i : contributing w l lim g -> NoDup g -> In i g ->
  exists a flows w', acct_of w i = Some a /\
    linked_flows w i a MaxIn (group_order w i a MaxIn) None None None None [] = Ok (fin_flows flows) /\
    record_flows w i flows = Ok w' /\ contributing w' l lim g /\
    gross_in w' [] g = Rmax lim (gross_in w [] g) .
Proof.
  intros [(r & Hr & Hd & Hg) Ha] Hn Hi. destruct (Ha i Hi) as (a & Hai & Hl & Ht & Hp).
  exists a. unfold linked_flows, read_limit, get_limit, link_data, group_order, others. rewrite Hl, Hr, Hd, Hg. cbn [bind].
  set (oth := filter (fun j => negb (Nat.eqb i j)) g).
  set (merged := merge_transactions w i None [] oth).
  destruct (inflows_upto_finite (la_acct a) (Fin lim) None None None (Some merged)) as (flows & a' & F1 & F2 & F3 & F4 & _ & F6);
    [exact Ht|discriminate|left; discriminate|].
  exists flows, (set_acct w i {| la_acct := a'; la_link := la_link a |}).
  split; [exact Hai|]. split; [exact F1|]. split; [unfold record_flows; rewrite Hai, F2; reflexivity|].
  assert (Htx : a_txns a' = radd_transactions (a_txns (la_acct a)) flows) by (apply add_all_txns; exact F2).
  assert (Hp' : forall t v, In (t, v) (a_txns a') -> 0 <= v) by (rewrite Htx; apply nonneg_radd; assumption).
  split.
  { split; [exists r; repeat split; auto|]. intros j Hj. rewrite acct_set. destruct (Nat.eqb j i) eqn:E.
    - apply Nat.eqb_eq in E. subst j. eexists. split; [reflexivity|]. cbn. split; [exact Hl|]. split; [|exact Hp'].
      apply add_all_fields in F2. destruct F2 as (_ & _ & _ & _ & ->). exact Ht.
    - apply Ha. exact Hj. }
  assert (Hin : inflows (la_acct a) (Some merged) = gross_in w [] g).
  { unfold inflows, merged, merge_transactions.
    destruct (merge_gross (fun _ => true) w [] oth (merge_start i None [])) as [-> _].
    - intro t. cbn. lra.
    - intros j Hj. unfold oth in Hj. apply filter_In in Hj. destruct Hj as [Hj _]. split.
      + destruct (Ha j Hj) as (b & Hb & _ & _ & Hbp). unfold txns_of. rewrite Hb. intros t v Hin. exact (Hbp t v Hin).
      + intros t v Hin. destruct Hin.
    - unfold gross_in. rewrite (Rsum_split_one _ i g Hn Hi). fold oth. unfold txns_of at 2. rewrite Hai.
      unfold planned. cbn. unfold pos_part at 1 4. cbn. lra. }
  assert (Hsum : Rsum (dvals flows) = Rmax (lim - gross_in w [] g) 0).
  { destruct F6 as [(b & Hb & _)|[F6|(b & Hb & _)]]; try discriminate.
    cbn [opt_emin esub] in F6. rewrite Hin in F6.
    destruct (emax_case (Fin (lim - gross_in w [] g)) (Fin 0)) as [[Hc E]|[Hc E]]; rewrite E in F6; cbn in Hc; injection F6 as <-.
    - rewrite Rmax_right; [reflexivity|exact Hc].
    - rewrite Rmax_left; [reflexivity|exact Hc]. }
  assert (Hgi : gross_in (set_acct w i {| la_acct := a'; la_link := la_link a |}) [] g = gross_in w [] g + Rsum (dvals flows)).
  { unfold gross_in. rewrite !(Rsum_split_one _ i g Hn Hi).
    assert (Ho : forall j, In j oth -> txns_of (set_acct w i {| la_acct := a'; la_link := la_link a |}) j = txns_of w j).
    { intros j Hj. unfold oth in Hj. apply filter_In in Hj. destruct Hj as [_ Hj]. unfold txns_of. rewrite acct_set.
      rewrite (neqb_sym j i). destruct (Nat.eqb i j); [discriminate|reflexivity]. }
    fold oth. erewrite (Rsum_map_ext _ _ oth); [|intros j Hj; rewrite (Ho j Hj); reflexivity].
    unfold txns_of at 1. rewrite acct_set, Nat.eqb_refl. cbn [la_acct]. unfold txns_of at 2. rewrite Hai.
    rewrite (pos_part_nonneg_list (a_txns a') Hp'), (pos_part_nonneg_list (a_txns (la_acct a)) Hp), Htx, Rsum_dvals_radd. lra. }
  rewrite Hgi, Hsum. unfold Rmax. repeat destruct (Rle_dec _ _); lra.
Qed.
Lemma contribute_all_exact : forall ids w l lim g, contributing w l lim g -> NoDup g ->
  (forall i, In i ids -> In i g) ->
  exists w', contribute_all w ids = Ok w' /\ contributing w' l lim g /\
    gross_in w' [] g = (if ids then gross_in w [] g else Rmax lim (gross_in w [] g)).
Proof.
  induction ids as [|i r IH]; intros w l lim g Hc Hn Hi; [exists w; auto|].
  destruct (contribute_step w l lim g i Hc Hn) as (a & flows & w1 & E1 & E2 & E3 & Hc1 & E4); [apply Hi; left; reflexivity|].
  destruct (IH w1 l lim g Hc1 Hn) as (w' & F1 & F2 & F3); [intros j Hj; apply Hi; right; exact Hj|].
  exists w'. cbn [contribute_all]. rewrite E1. rewrite E2. cbn [bind]. rewrite finite_fin. cbn [bind]. rewrite E3. cbn [bind].
  split; [exact F1|]. split; [exact F2|]. rewrite F3. destruct r; [exact E4|]. rewrite E4.
  unfold Rmax. repeat destruct (Rle_dec _ _); lra.
Qed.
(** groups never contain duplicates *)
Definition groups_nodup (w : world) : Prop := forall l r, rec_of w l = Some r -> NoDup (l_group r).
Lemma gn_set w l r : groups_nodup w -> NoDup (l_group r) -> groups_nodup (set_rec w l r).
Proof. intros H Hr l' r'. rewrite rec_set. destruct (link_eqb l' l); [intro E; injection E as <-; exact Hr|apply H]. Qed.
Lemma gn_data w l v w' : groups_nodup w -> set_link_data w l v = Ok w' -> groups_nodup w'.
Proof.
  intros H E. unfold set_link_data in E. destruct (rec_of w l) as [r|] eqn:F; [|discriminate]. injection E as <-.
  apply gn_set; [exact H|]. exact (H l r F).
Qed.
Lemma gn_register w l d : groups_nodup w -> groups_nodup (register w l d).
Proof. intro H. unfold register. destruct (is_registered w l); [exact H|]. apply gn_set; [exact H|constructor]. Qed.
Lemma NoDup_app_one (l : list nat) i : NoDup l -> existsb (Nat.eqb i) l = false -> NoDup (l ++ [i]).
Proof.
  intros H E. apply (Permutation_NoDup (l := i :: l)); [apply Permutation_cons_append|]. constructor; [|exact H].
  intro Hin. assert (existsb (Nat.eqb i) l = true) by (apply existsb_exists; exists i; split; [exact Hin|apply Nat.eqb_refl]). congruence.
Qed.
Lemma gn_link w l i w' : groups_nodup w -> link_account w l i = Ok w' -> groups_nodup w'.
Proof.
  intros H E. unfold link_account in E. destruct (rec_of w l) as [r|] eqn:F; [|discriminate]. injection E as <-.
  destruct (existsb (Nat.eqb i) (l_group r)) eqn:X; [exact H|]. apply gn_set; [exact H|]. cbn. apply NoDup_app_one; [exact (H l r F)|exact X].
Qed.
Lemma gn_process w j l0 lim w' : groups_nodup w -> process_link w j l0 lim = Ok w' -> groups_nodup w'.
Proof.
  intros H. unfold process_link. destruct l0 as [l0|]; [|intro E; injection E as <-; exact H].
  destruct (link_account (register w l0 None) l0 j) as [w1|] eqn:E; [|discriminate]. cbn [bind].
  apply gn_link in E; [|apply gn_register; exact H]. destruct lim; [apply gn_data; exact E|]. intro X. injection X as <-. exact E.
Qed.
Lemma gn_step w o : wok w -> groups_nodup w -> groups_nodup (lstep w o).
Proof.
  intros Hok H. destruct o; cbn.
  - destruct (new_account w i a links limits) as [w'|] eqn:E; [|exact H]. revert E. unfold new_account.
    destruct (process_link w i (links MaxIn) _) as [w1|] eqn:E1; [|discriminate]. cbn [bind].
    destruct (process_link w1 i (links MinIn) _) as [w2|] eqn:E2; [|discriminate]. cbn [bind].
    destruct (process_link w2 i (links MaxOut) _) as [w3|] eqn:E3; [|discriminate]. cbn [bind].
    destruct (process_link w3 i (links MinOut) _) as [w4|] eqn:E4; [|discriminate]. cbn [bind].
    intro E; injection E as <-. change (groups_nodup w4).
    eapply gn_process; [|exact E4]. eapply gn_process; [|exact E3]. eapply gn_process; [|exact E2]. eapply gn_process; [|exact E1]. exact H.
  - destruct (acct_of w i) as [a|]; [|exact H]. destruct (set_limit w a s v) as [w'|] eqn:E; [|exact H].
    unfold set_limit in E. destruct (la_link a (setter_slot s)); [|discriminate]. eapply gn_data; eassumption.
  - apply gn_register. exact H.
  - intros l' r'. rewrite rec_unregister by exact Hok. destruct (link_eqb l' l); [discriminate|apply H].
  - destruct (link_account w l i) as [w'|] eqn:E; [eapply gn_link; eassumption|exact H].
  - unfold unlink_account. destruct (rec_of w l) as [r|] eqn:F; [|exact H]. destruct (existsb _ _); [|exact H].
    apply gn_set; [exact H|]. cbn. apply NoDup_filter. exact (H l r F).
  - destruct (set_link_data w l v) as [w'|] eqn:E; [eapply gn_data; eassumption|exact H].
  - unfold record_flows. destruct (acct_of w i) as [a|]; [|exact H]. destruct (add_all (la_acct a) flows); exact H.
Qed.
Lemma gn_run h : groups_nodup (lrun h).
Proof.
  unfold lrun. assert (H : forall w, wok w -> groups_nodup w -> groups_nodup (fold_left lstep h w)).
  { induction h as [|o h IH]; intros w Hw Hg; [exact Hg|]. cbn. apply IH; [apply wok_step; exact Hw|apply gn_step; assumption]. }
  apply H; [exact I|]. intros l r E. discriminate.
Qed.
