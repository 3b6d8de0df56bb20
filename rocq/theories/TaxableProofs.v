From Verif Require Import Base BaseFacts RBase GrowthModel AccountModel TaxableModel TaxableSpec.
From Coq Require Import Permutation Sorted Lia.
Open Scope R_scope.

Lemma rinsert_perm kv l : Permutation (rinsert kv l) (kv :: l).
Proof.
  induction l as [|x r IH]; [reflexivity|]. cbn. destruct (Rleb (fst kv) (fst x)); [reflexivity|].
  rewrite IH. apply perm_swap.
Qed.
Lemma rsort_perm l : Permutation (rsort l) l.
Proof. induction l as [|x r IH]; [reflexivity|]. cbn. rewrite rinsert_perm, IH. reflexivity. Qed.
Lemma rinsert_sorted kv l : StronglySorted (fun a b => fst a <= fst b) l -> StronglySorted (fun a b => fst a <= fst b) (rinsert kv l).
Proof.
  induction l as [|x r IH]; intro H; cbn; [repeat constructor|]. inversion H as [|? ? Hr Hx]; subst.
  destruct (Rleb (fst kv) (fst x)) eqn:E; rb.
  - constructor; [exact H|]. constructor; [exact E|]. eapply Forall_impl; [|exact Hx]. cbn. intros; lra.
  - constructor; [apply IH; exact Hr|]. apply Forall_forall. intros y Hy.
    apply (Permutation_in _ (rinsert_perm kv r)) in Hy. destruct Hy as [<-|Hy]; [lra|]. rewrite Forall_forall in Hx. apply Hx. exact Hy.
Qed.
Lemma rsort_sorted l : StronglySorted (fun a b => fst a <= fst b) (rsort l).
Proof. induction l as [|x r IH]; [constructor|]. apply rinsert_sorted. exact IH. Qed.
Lemma Rsum_perm' l l' : Permutation l l' -> Rsum l = Rsum l'.
Proof. induction 1; cbn; lra. Qed.
Lemma rsort_sum l : Rsum (map snd (rsort l)) = Rsum (map snd l).
Proof. apply Rsum_perm', Permutation_map, rsort_perm. Qed.

Lemma gain_conserved bal : forall l g acb g' acb', gain_loop bal l g acb = Ok (g', acb') ->
  acb' = acb + Rsum (map snd l) + (g' - g).
Proof.
  induction l as [|[w v] r IH]; intros g acb g' acb' H; cbn [gain_loop] in H.
  - injection H as <- <-. cbn. lra.
  - cbn [map snd Rsum]. destruct (Rleb 0 v) eqn:E.
    + apply IH in H. lra.
    + unfold rdiv in H. destruct (Reqb (bal w - v) 0) eqn:Z0; [discriminate|]. cbn [bind] in H. apply IH in H. rb.
      rewrite H. field. lra.
Qed.
Lemma gain_ok bal : forall l g acb, (forall t v, In (t, v) l -> v < 0 -> bal t - v <> 0) -> exists g' acb', gain_loop bal l g acb = Ok (g', acb').
Proof.
  induction l as [|[w v] r IH]; intros g acb H; cbn [gain_loop]; [eauto|].
  assert (Hr : forall t u, In (t, u) r -> u < 0 -> bal t - u <> 0) by (intros; eapply H; [right; eassumption|assumption]).
  destruct (Rleb 0 v) eqn:E; [apply IH; exact Hr|]. rb. unfold rdiv.
  destruct (Reqb (bal w - v) 0) eqn:Z0; rb.
  - exfalso. apply (H w v); [left; reflexivity|lra|exact Z0].
  - cbn [bind]. apply IH. exact Hr.
Qed.
Lemma gain_inflows bal : forall l g acb, (forall t v, In (t, v) l -> 0 <= v) -> gain_loop bal l g acb = Ok (g, acb + Rsum (map snd l)).
Proof.
  induction l as [|[w v] r IH]; intros g acb H; cbn [gain_loop map Rsum snd].
  - rewrite Rplus_0_r. reflexivity.
  - assert (Hv : 0 <= v) by (apply (H w); left; reflexivity). destruct (Rleb 0 v) eqn:E; rb; [|lra].
    rewrite IH by (intros; eapply H; right; eassumption). do 2 f_equal. lra.
Qed.
Lemma gain_bounds bal : forall l g acb g' acb', covered bal l -> 0 <= acb -> gain_loop bal l g acb = Ok (g', acb') -> 0 <= acb'.
Proof.
  induction l as [|[w v] r IH]; intros g acb g' acb' Hc Ha H; cbn [gain_loop] in H.
  - injection H as <- <-. exact Ha.
  - assert (Hr : covered bal r) by (intros t u Hin; apply Hc; right; exact Hin).
    destruct (Rleb 0 v) eqn:E; rb; [eapply IH; [exact Hr| |exact H]; lra|].
    unfold rdiv in H. destruct (Reqb (bal w - v) 0) eqn:Z0; [discriminate|]. cbn [bind] in H.
    destruct (Hc w v (or_introl eq_refl) ltac:(lra)) as [B1 B2].
    eapply IH; [exact Hr| |exact H]. apply Rmult_le_pos; [exact Ha|].
    assert (- v / (bal w - v) <= 1) by (apply Rmult_le_reg_r with (bal w - v); [exact B1|unfold Rdiv; rewrite Rmult_assoc, Rinv_l; lra]). lra.
Qed.

(** ** Invariant *)
Definition tinv (y0 : Z) (s : tacct) : Prop :=
  (y0 <= t_year s)%Z /\ dwf Z.eqb (t_acb s) /\ dwf Z.eqb (t_gain s) /\
  (exists a, dget Z.eqb (t_acb s) (t_year s) = Some a) /\
  (forall y, (t_year s < y)%Z -> dget Z.eqb (t_gain s) y = None) /\
  (forall g, dget Z.eqb (t_gain s) (t_year s) = Some g -> exists a', computed s g a' /\ dget Z.eqb (t_acb s) (t_year s + 1)%Z = Some a') /\
  (forall y, (y0 <= y < t_year s)%Z -> conserved_in s y).
Lemma conserved_ext s s' y : dget Z.eqb (t_acb s') y = dget Z.eqb (t_acb s) y -> dget Z.eqb (t_acb s') (y + 1)%Z = dget Z.eqb (t_acb s) (y + 1)%Z ->
  dget Z.eqb (t_gain s') y = dget Z.eqb (t_gain s) y -> dget Z.eqb (t_txns s') y = dget Z.eqb (t_txns s) y ->
  conserved_in s y -> conserved_in s' y.
Proof. intros A B C D (a & a' & g & d & H). exists a, a', g, d. rewrite A, B, C, D. exact H. Qed.
Lemma tinv_init a acb : tinv (a_year a) (t_init a acb [] []).
Proof.
  unfold tinv, t_init, t_year. cbn. split; [lia|]. split; [repeat constructor|]. split; [constructor|].
  rewrite Z.eqb_refl. split; [eauto|]. split; [reflexivity|]. split; [discriminate|lia].
Qed.
Lemma dget_wf_ddel s k (d : dict Z R) : dwf Z.eqb d -> dget Z.eqb (ddel Z.eqb d k) s = if Z.eqb s k then None else dget Z.eqb d s.
Proof. apply zdget_ddel. Qed.
Lemma tinv_invalidate y0 s a : tinv y0 s -> a_year a = t_year s ->
  tinv y0 (t_with s a (ddel Z.eqb (t_acb s) (t_year s + 1)%Z) (ddel Z.eqb (t_gain s) (t_year s))).
Proof.
  intros (Hy & W1 & W2 & (b & Hb) & Hf & Hc & Hl) Ea. unfold tinv, t_year in *. cbn [t_with t_acct t_acb t_gain]. rewrite Ea.
  split; [exact Hy|]. split; [apply zddel_wf; exact W1|]. split; [apply zddel_wf; exact W2|]. split; [|split; [|split]].
  - exists b. rewrite zdget_ddel by exact W1. destruct (Z.eqb_spec (a_year (t_acct s)) (a_year (t_acct s) + 1)); [lia|exact Hb].
  - intros y Hlt. rewrite zdget_ddel by exact W2. destruct (Z.eqb_spec y (a_year (t_acct s))); [lia|apply Hf; exact Hlt].
  - intros g. rewrite zdget_ddel by exact W2. rewrite Z.eqb_refl. discriminate.
  - intros y Hlt. apply (conserved_ext s); [| | |reflexivity|apply Hl; exact Hlt]; cbn [t_with t_acb t_gain].
    + rewrite zdget_ddel by exact W1. destruct (Z.eqb_spec y (a_year (t_acct s) + 1)); [lia|reflexivity].
    + rewrite zdget_ddel by exact W1. destruct (Z.eqb_spec (y + 1) (a_year (t_acct s) + 1)); [lia|reflexivity].
    + rewrite zdget_ddel by exact W2. destruct (Z.eqb_spec y (a_year (t_acct s))); [lia|reflexivity].
Qed.
Lemma read_gain_ok y0 s v s' : tinv y0 s -> read_gain s = Ok (v, s') ->
  t_acct s' = t_acct s /\ tinv y0 s' /\ (exists a', computed s v a') /\ dget Z.eqb (t_gain s') (t_year s') = Some v.
Proof.
  intros Hi H. pose proof Hi as (Hy & W1 & W2 & (b & Hb) & Hf & Hc & Hl). unfold read_gain in H.
  destruct (dget Z.eqb (t_gain s) (t_year s)) as [g|] eqn:Eg.
  - injection H as <- <-. split; [reflexivity|]. split; [exact Hi|]. split; [|exact Eg].
    destruct (Hc g eq_refl) as (a' & Hcomp & _). eauto.
  - destruct (read_acb s) as [acb|] eqn:Ea; [|discriminate]. cbn [bind] in H.
    destruct (gain_loop _ _ _ _) as [[g a']|] eqn:El; [|discriminate]. cbn [bind fst snd] in H. injection H as <- <-.
    assert (Hcomp : computed s g a') by (exists acb; split; assumption).
    split; [reflexivity|]. split; [|split; [eauto|]].
    + unfold tinv, t_year in *. cbn [t_with t_acct t_acb t_gain].
      split; [exact Hy|]. split; [apply zdset_wf; exact W1|]. split; [apply zdset_wf; exact W2|]. split; [|split; [|split]].
      * exists b. rewrite zdget_dset. destruct (Z.eqb_spec (a_year (t_acct s)) (a_year (t_acct s) + 1)); [lia|exact Hb].
      * intros y Hlt. rewrite zdget_dset. destruct (Z.eqb_spec y (a_year (t_acct s))); [lia|apply Hf; exact Hlt].
      * intros g0. rewrite zdget_dset, Z.eqb_refl. intro E. injection E as <-. exists a'. split.
        -- exists acb. split; [|exact El]. unfold read_acb, dget_r, t_year in *. cbn [t_with t_acct t_acb]. rewrite zdget_dset.
           destruct (Z.eqb_spec (a_year (t_acct s)) (a_year (t_acct s) + 1)); [lia|exact Ea].
        -- rewrite zdget_dset, Z.eqb_refl. reflexivity.
      * intros y Hlt. apply (conserved_ext s); [| | |reflexivity|apply Hl; exact Hlt]; cbn [t_with t_acb t_gain]; rewrite zdget_dset.
        -- destruct (Z.eqb_spec y (a_year (t_acct s) + 1)); [lia|reflexivity].
        -- destruct (Z.eqb_spec (y + 1) (a_year (t_acct s) + 1)); [lia|reflexivity].
        -- destruct (Z.eqb_spec y (a_year (t_acct s))); [lia|reflexivity].
    + unfold t_year. cbn [t_with t_acct t_gain]. rewrite zdget_dset, Z.eqb_refl. reflexivity.
Qed.
Lemma tstep_inv y0 s o s' : tinv y0 s -> no_removal o -> tstep s o = Ok s' -> tinv y0 s'.
Proof.
  intros Hi Hn H. destruct o as [v w|w v|t| | | |]; cbn [tstep no_removal] in *; try contradiction.
  - unfold t_add in H. destruct (add_transaction (t_acct s) v w) as [a|] eqn:E; [|discriminate]. cbn [bind] in H. injection H as <-.
    apply tinv_invalidate; [exact Hi|]. unfold add_transaction in E. destruct (rwhen_conv w); [|discriminate]. cbn [bind] in E. injection E as <-. reflexivity.
  - unfold t_set in H. destruct (setitem (t_acct s) w v) as [a|] eqn:E; [|discriminate]. cbn [bind] in H. injection H as <-.
    apply tinv_invalidate; [exact Hi|]. unfold setitem, add_transaction in E. destruct (rwhen_conv w); [|discriminate]. cbn [bind] in E.
    injection E as <-. destruct w as [t|]; [destruct (dmem Reqb (a_txns (t_acct s)) t)|]; reflexivity.
  - destruct (read_gain s) as [[g s1]|] eqn:E; [|discriminate]. cbn [bind snd] in H. injection H as <-. apply (read_gain_ok y0 s g); assumption.
  - unfold read_taxable in H. destruct (read_gain s) as [[g s1]|] eqn:E; [|discriminate]. cbn [bind fst snd] in H. injection H as <-. apply (read_gain_ok y0 s g); assumption.
  - unfold t_next in H. destruct (read_acb s) as [a0|]; [|discriminate]. cbn [bind] in H.
    destruct (read_gain s) as [[g s1]|] eqn:E; [|discriminate]. cbn [bind snd] in H. injection H as <-.
    destruct (read_gain_ok y0 s g s1 Hi E) as (Ea & Hi1 & _ & Hg). destruct Hi1 as (Hy & W1 & W2 & (b & Hb) & Hf & Hc & Hl).
    destruct (Hc g Hg) as (a' & (acb & Hacb & Hloop) & Ha').
    unfold tinv, t_year in *. cbn [t_acct t_acb t_gain next_year a_year].
    split; [lia|]. split; [exact W1|]. split; [exact W2|]. split; [eauto|]. split; [|split].
    + intros y Hlt. apply Hf. lia.
    + intros g0. rewrite Hf by lia. discriminate.
    + intros y Hlt. destruct (Z.eq_dec y (a_year (t_acct s1))) as [->|Hne].
      * exists b, a', g, (a_txns (t_acct s1)). cbn [t_acb t_gain t_txns]. split; [exact Hb|]. split; [exact Ha'|]. split; [exact Hg|].
        split; [rewrite zdget_dset, Z.eqb_refl; reflexivity|].
        unfold read_acb, dget_r, t_year in Hacb. rewrite Hb in Hacb. injection Hacb as <-.
        apply gain_conserved in Hloop. rewrite rsort_sum in Hloop. unfold dvals. lra.
      * apply (conserved_ext s1); [reflexivity|reflexivity|reflexivity| |apply Hl; lia]. cbn [t_txns]. rewrite zdget_dset.
        destruct (Z.eqb_spec y (a_year (t_acct s1))); [contradiction|reflexivity].
Qed.
Lemma tsteps_inv y0 : forall os s s', tinv y0 s -> Forall no_removal os -> tsteps s os = Ok s' -> tinv y0 s'.
Proof.
  induction os as [|o r IH]; intros s s' Hi Hn H; [injection H as <-; exact Hi|]. cbn [tsteps] in H. inversion Hn; subst.
  destruct (tstep s o) as [s1|] eqn:E; [|discriminate]. cbn [bind] in H. eapply IH; [|eassumption|exact H]. eapply tstep_inv; eassumption.
Qed.
