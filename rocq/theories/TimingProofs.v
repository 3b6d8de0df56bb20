From Verif Require Import Base BaseFacts TimingModel TimingSpec.
From Coq Require Import Permutation Sorted Morphisms Qfield.

(** * sorting *)
Lemma qinsert_perm x l : Permutation (qinsert x l) (x :: l).
Proof.
  induction l as [|y r IH]; cbn; [reflexivity|].
  destruct (Qle_bool x y); [reflexivity|].
  rewrite IH. apply perm_swap.
Qed.
Lemma qsort_perm l : Permutation (qsort l) l.
Proof. induction l; cbn; [reflexivity|]. rewrite qinsert_perm. constructor. assumption. Qed.
Lemma qinsert_sorted x l : StronglySorted Qle l -> StronglySorted Qle (qinsert x l).
Proof.
  induction l as [|y r IH]; cbn; intros H.
  - constructor; constructor.
  - inversion H as [|? ? Hs Hf]; subst. destruct (Qle_bool x y) eqn:E; qb.
    + constructor; [assumption|]. constructor; [assumption|].
      eapply Forall_impl; [|exact Hf]. cbn; intros; lra.
    + constructor; [auto|].
      rewrite Forall_forall in *. intros z Hz.
      apply (Permutation_in _ (qinsert_perm x r)) in Hz. destruct Hz as [<-|Hz]; [lra|auto].
Qed.
Lemma qsort_sorted l : StronglySorted Qle (qsort l).
Proof. induction l; cbn; [constructor|]. apply qinsert_sorted. assumption. Qed.

(** * distinct keys *)
Lemma distinctQ_perm l1 l2 : Permutation l1 l2 -> distinctQ l1 -> distinctQ l2.
Proof.
  induction 1; cbn; auto.
  - intros [H1 H2]. split; auto. intros z Hz. apply H1.
    eapply Permutation_in; [symmetry; eassumption|assumption].
  - intros [H1 [H2 H3]]. split; [|split].
    + intros z [<-|Hz]; [|auto]. intro E. apply (H1 x (or_introl eq_refl)). symmetry. exact E.
    + intros z Hz. apply H1. right. exact Hz.
    + exact H3.
Qed.
Lemma wf_distinct d : wf d <-> distinctQ (dkeys d).
Proof.
  unfold wf. induction d as [|[k v] r IH]; cbn; [tauto|].
  rewrite IH. clear IH. split; intros [H1 H2]; split; auto.
  - intros y Hy. apply in_map_iff in Hy. destruct Hy as [[k' v'] [E HI]]. cbn in E; subst.
    rewrite dget_None in H1. specialize (H1 _ _ HI). qb. exact H1.
  - apply dget_None. intros k' v' HI. apply Qeq_bool_f. apply H1.
    apply in_map_iff. exists (k', v'); auto.
Qed.
Lemma strict_of_distinct l : StronglySorted Qle l -> distinctQ l -> StronglySorted Qlt l.
Proof.
  induction l as [|x r IH]; intros H D; [constructor|].
  inversion H as [|? ? Hs Hf]; subst. destruct D as [D1 D2]. constructor; [auto|].
  rewrite Forall_forall in *. intros y Hy. specialize (D1 y Hy). specialize (Hf y Hy).
  apply Qle_lteq in Hf. destruct Hf; [assumption|tauto].
Qed.
Lemma qsort_strict d : wf d -> StronglySorted Qlt (qsort (dkeys d)).
Proof.
  intro H. apply strict_of_distinct; [apply qsort_sorted|].
  apply wf_distinct in H. eapply distinctQ_perm; [|exact H]. symmetry. apply qsort_perm.
Qed.

Lemma wf_In_val d k v : wf d -> In (k, v) d -> qval d k = v.
Proof.
  intros H HI. unfold qval, qget. rewrite (qIn_dget _ _ _ H HI). reflexivity.
Qed.
Lemma wf_tail a d : wf (a :: d) -> wf d.
Proof. destruct a. intros [_ H]. exact H. Qed.

(** values by keys *)
Lemma vals_by_keys d : wf d -> map snd d = map (qval d) (dkeys d).
Proof.
  intro H. unfold dkeys. rewrite map_map. apply map_ext_in. intros [k v] HI. cbn.
  symmetry. apply wf_In_val; assumption.
Qed.
Lemma filter_keys (f : Q -> bool) d :
  map fst (filter (fun kv : Q * Q => f (fst kv)) d) = filter f (map fst d).
Proof. induction d as [|[k v] r IH]; cbn; [reflexivity|]. destruct (f k); cbn; congruence. Qed.
Lemma filter_perm {A} (f : A -> bool) l1 l2 : Permutation l1 l2 -> Permutation (filter f l1) (filter f l2).
Proof.
  induction 1; cbn; auto.
  - destruct (f x); auto.
  - destruct (f x), (f y); auto. apply perm_swap.
  - etransitivity; eauto.
Qed.
Lemma cum_by_keys d t : wf d ->
  cum d t == Qsum (map (qval d) (filter (fun k => Qle_bool k t) (qsort (dkeys d)))).
Proof.
  intro H. unfold cum.
  assert (E : map snd (filter (fun kv => Qle_bool (fst kv) t) d)
    = map (qval d) (map fst (filter (fun kv => Qle_bool (fst kv) t) d))).
  { rewrite map_map. apply map_ext_in. intros [k v] HI. apply filter_In in HI.
    symmetry. apply wf_In_val; tauto. }
  rewrite E, (filter_keys (fun k => Qle_bool k t)). apply Qsum_map_perm. apply filter_perm.
  symmetry. apply qsort_perm.
Qed.
Lemma total_by_keys d : wf d -> total d == Qsum (map (qval d) (qsort (dkeys d))).
Proof.
  intro H. unfold total, dvals. rewrite vals_by_keys by assumption.
  apply Qsum_map_perm. symmetry. apply qsort_perm.
Qed.

Lemma has_time_In d u : has_time d u <-> exists k, In k (qsort (dkeys d)) /\ k == u.
Proof.
  split.
  - intros (k & v & HI & E). exists k. split; [|exact E].
    eapply Permutation_in; [symmetry; apply qsort_perm|]. apply in_map_iff. exists (k, v); auto.
  - intros (k & HI & E). apply (Permutation_in _ (qsort_perm _)) in HI.
    apply in_map_iff in HI. destruct HI as [[k' v] [E' HI]]. cbn in E'; subst.
    exists k, v; auto.
Qed.

(** * qminl *)
Lemma qminl_some l : l <> [] -> exists m, qminl l = Some m.
Proof. destruct l as [|x r]; [congruence|]. cbn. destruct (qminl r); eauto. Qed.
Lemma qminl_le l m : qminl l = Some m -> forall x, In x l -> m <= x.
Proof.
  revert m; induction l as [|y r IH]; cbn; intros m H x HI; [contradiction|].
  destruct (qminl r) as [m'|] eqn:E.
  - injection H as <-. destruct HI as [<-|HI]; [apply qmin_l|].
    specialize (IH m' eq_refl x HI). pose proof (qmin_r y m'). lra.
  - injection H as <-. destruct HI as [<-|HI]; [lra|].
    destruct r; [contradiction|]. cbn in E. destruct (qminl r); discriminate.
Qed.
Lemma qminl_in l m : qminl l = Some m -> exists x, In x l /\ x == m.
Proof.
  revert m; induction l as [|y r IH]; cbn; intros m H; [discriminate|].
  destruct (qminl r) as [m'|] eqn:E.
  - injection H as <-. destruct (qmin_case y m') as [[? Hq]|[? Hq]].
    + exists y. split; [auto|]. lra.
    + destruct (IH m' eq_refl) as (x & HI & Hx). exists x. split; [auto|]. lra.
  - injection H as <-. exists y. split; [auto|lra].
Qed.

(** * the inflow loop: invariant over a split accum = pre ++ suf *)
Definition minsuf (suf : dict Q Q) (k m : Q) : Prop :=
  (exists u v, In (u, v) suf /\ k <= u /\ v == m) /\
  (forall u v, In (u, v) suf -> k <= u -> m <= v).

Lemma filter_split (pre suf : dict Q Q) t :
  (forall u v, In (u, v) pre -> u < t) -> (forall u v, In (u, v) suf -> t <= u) ->
  filter (fun kv => Qle_bool t (fst kv)) (pre ++ suf) = suf.
Proof.
  intros Hp Hs. rewrite filter_app.
  assert (E1 : filter (fun kv => Qle_bool t (fst kv)) pre = []).
  { induction pre as [|[u v] r IH]; cbn; [reflexivity|].
    destruct (Qle_bool t u) eqn:E; qb.
    - exfalso. specialize (Hp u v (or_introl eq_refl)). lra.
    - apply IH. intros; eapply Hp; right; eauto. }
  rewrite E1. cbn. clear E1 Hp.
  induction suf as [|[u v] r IH]; cbn; [reflexivity|].
  destruct (Qle_bool t u) eqn:E; qb.
  - f_equal. apply IH. intros; eapply Hs; right; eauto.
  - exfalso. specialize (Hs u v (or_introl eq_refl)). lra.
Qed.

Lemma map_split (pre suf : dict Q Q) t m :
  (forall u v, In (u, v) pre -> u < t) -> (forall u v, In (u, v) suf -> t <= u) ->
  map (fun kv => if Qle_bool t (fst kv) then (fst kv, snd kv - m) else kv) (pre ++ suf)
  = pre ++ map (fun kv => (fst kv, snd kv - m)) suf.
Proof.
  intros Hp Hs. rewrite map_app. f_equal.
  - rewrite <- (map_id pre) at 2. apply map_ext_in. intros [u v] HI. cbn.
    specialize (Hp u v HI). destruct (Qle_bool t u) eqn:E; qb; [lra|reflexivity].
  - apply map_ext_in. intros [u v] HI. cbn. specialize (Hs u v HI).
    destruct (Qle_bool t u) eqn:E; qb; [reflexivity|lra].
Qed.

Lemma inflow_loop_spec : forall ts pre suf,
  map fst suf = ts -> StronglySorted Qlt ts ->
  (forall u v t, In (u, v) pre -> In t ts -> u < t) ->
  let r := accum_inflows_loop (pre ++ suf) ts in
  (forall k v, In (k, v) r -> 0 < v /\ In k ts) /\
  StronglySorted Qlt (map fst r) /\
  (forall k m, (exists k', In k' ts /\ k' == k) -> minsuf suf k m -> cum r k == qmax 0 m).
Proof.
  induction ts as [|t ts IH]; intros pre suf Hk Hs Hp; cbn zeta.
  { destruct suf; [|discriminate]. cbn. split; [contradiction|]. split; [constructor|].
    intros k m [k' [[] _]]. }
  destruct suf as [|[t0 p] suf]; [discriminate|]. cbn in Hk. injection Hk as -> Hk.
  inversion Hs as [|? ? Hs' Hf]; subst a l. rewrite Forall_forall in Hf.
  assert (Hsuf : forall u v, In (u, v) suf -> t < u).
  { intros u v HI. apply Hf. rewrite <- Hk. apply in_map_iff. exists (u, v); auto. }
  cbn [accum_inflows_loop].
  rewrite filter_split; [| intros u v HI; apply (Hp u v t HI); left; reflexivity
    | intros u v [HI|HI]; [injection HI as <- <-; lra|apply Hsuf in HI; lra]].
  destruct (qminl (map snd ((t, p) :: suf))) as [m0|] eqn:Em.
  2:{ destruct (qminl_some (map snd ((t, p) :: suf))) as [m E]; [discriminate|congruence]. }
  assert (Hm0le : forall u v, In (u, v) ((t, p) :: suf) -> m0 <= v).
  { intros u v HI. eapply qminl_le; [exact Em|]. apply in_map_iff. exists (u, v); auto. }
  destruct (qminl_in _ _ Em) as (x & Hxin & Hxeq).
  apply in_map_iff in Hxin. destruct Hxin as [[u0 v0] [Ev Hin0]]. cbn in Ev; subst v0.
  destruct (Qlt_bool 0 m0) eqn:Epos; qb.
  - rewrite map_split; [| intros u v HI; apply (Hp u v t HI); left; reflexivity
      | intros u v [HI|HI]; [injection HI as <- <-; lra|apply Hsuf in HI; lra]].
    cbn [map fst snd].
    change (pre ++ (t, p - m0) :: map (fun kv => (fst kv, snd kv - m0)) suf)
      with (pre ++ [(t, p - m0)] ++ map (fun kv => (fst kv, snd kv - m0)) suf).
    rewrite app_assoc.
    set (pre' := pre ++ [(t, p - m0)]).
    set (suf' := map (fun kv => (fst kv, snd kv - m0)) suf).
    destruct (IH pre' suf') as (H1 & H2 & H3).
    + unfold suf'. rewrite map_map. cbn. exact Hk.
    + assumption.
    + intros u v t' HI Ht'. unfold pre' in HI. apply in_app_or in HI. destruct HI as [HI|[HI|[]]].
      * apply (Hp u v t' HI). right; assumption.
      * injection HI as <- <-. auto.
    + set (r := accum_inflows_loop (pre' ++ suf') ts) in *.
      split; [|split].
      * intros k v [HI|HI]; [injection HI as <- <-; split; [assumption|left; reflexivity]|].
        destruct (H1 k v HI). split; [assumption|right; assumption].
      * cbn. constructor; [assumption|]. rewrite Forall_forall. intros y Hy.
        apply in_map_iff in Hy. destruct Hy as [[k v] [<- HI]]. cbn.
        destruct (H1 k v HI). auto.
      * intros k m Hk' [Hex Hall]. unfold cum. cbn [filter fst].
        assert (Htk : t <= k).
        { destruct Hk' as (k' & [<-|Hin] & E); [lra|]. specialize (Hf k' Hin). lra. }
        destruct (Qle_bool t k) eqn:Etk; qb; [|lra]. cbn [map Qsum snd].
        fold (cum r k).
        destruct Hk' as (k' & [<-|Hin] & E).
        -- (* k == t *)
           assert (Hc : cum r k == 0).
           { unfold cum. assert (Hnil : filter (fun kv => Qle_bool (fst kv) k) r = []).
             { clear -H1 Hf E. induction r as [|[k1 v1] r IHr]; cbn; [reflexivity|].
               destruct (H1 k1 v1 (or_introl eq_refl)) as [_ Hi]. specialize (Hf _ Hi).
               destruct (Qle_bool k1 k) eqn:E1; qb; [lra|].
               apply IHr. intros; apply H1; right; assumption. }
             rewrite Hnil. reflexivity. }
           assert (Hmm : m == m0).
           { destruct Hex as (u & v & HI & Hu & Hv). specialize (Hm0le u v HI).
             assert (m <= x). { apply (Hall u0 x Hin0). destruct Hin0 as [HE|HI0].
               - injection HE as <- <-. lra.
               - apply Hsuf in HI0. lra. }
             lra. }
           rewrite Hc, Hmm. qmm; lra.
        -- assert (Htk' : t < k). { specialize (Hf k' Hin). lra. }
           assert (Hms : minsuf suf' k (m - m0)).
           { split.
             - destruct Hex as (u & v & HI & Hu & Hv). destruct HI as [HE|HI].
               + injection HE as <- <-. lra.
               + exists u, (v - m0). split; [|split; [assumption|lra]].
                 unfold suf'. apply in_map_iff. exists (u, v); auto.
             - intros u v HI Hu. unfold suf' in HI. apply in_map_iff in HI.
               destruct HI as [[u1 v1] [HE HI]]. cbn in HE. injection HE as <- <-.
               specialize (Hall u1 v1 (or_intror HI) Hu). lra. }
           rewrite (H3 k (m - m0)); [|exists k'; auto|assumption].
           assert (m0 <= m).
           { destruct Hex as (u & v & HI & Hu & Hv). specialize (Hm0le u v HI). lra. }
           qmm; lra.
  - change (pre ++ (t, p) :: suf) with (pre ++ [(t, p)] ++ suf). rewrite app_assoc.
    set (pre' := pre ++ [(t, p)]).
    destruct (IH pre' suf) as (H1 & H2 & H3).
    + exact Hk.
    + assumption.
    + intros u v t' HI Ht'. unfold pre' in HI. apply in_app_or in HI. destruct HI as [HI|[HI|[]]].
      * apply (Hp u v t' HI). right; assumption.
      * injection HI as <- <-. auto.
    + set (r := accum_inflows_loop (pre' ++ suf) ts) in *.
      split; [|split; [exact H2|]].
      * intros k v HI. destruct (H1 k v HI). split; [assumption|right; assumption].
      * intros k m Hk' [Hex Hall].
        destruct Hk' as (k' & [<-|Hin] & E).
        -- assert (Hc : cum r k == 0).
           { unfold cum. assert (Hnil : filter (fun kv => Qle_bool (fst kv) k) r = []).
             { clear -H1 Hf E. induction r as [|[k1 v1] r IHr]; cbn; [reflexivity|].
               destruct (H1 k1 v1 (or_introl eq_refl)) as [_ Hi]. specialize (Hf _ Hi).
               destruct (Qle_bool k1 k) eqn:E1; qb; [lra|].
               apply IHr. intros; apply H1; right; assumption. }
             rewrite Hnil. reflexivity. }
           assert (m <= x). { apply (Hall u0 x Hin0). destruct Hin0 as [HE|HI0].
               - injection HE as <- <-. lra.
               - apply Hsuf in HI0. lra. }
           rewrite Hc. qmm; lra.
        -- apply H3; [exists k'; auto|]. assert (Htk' : t < k). { specialize (Hf k' Hin). lra. }
           split.
           ++ destruct Hex as (u & v & [HE|HI] & Hu & Hv); [injection HE as <- <-; lra|].
              exists u, v; auto.
           ++ intros u v HI Hu. apply (Hall u v); auto. right; assumption.
Qed.

Lemma accum_prefix_keys w tl ts : map fst (accum_prefix w tl ts) = ts.
Proof. revert tl; induction ts as [|t r IH]; cbn; intros tl; [reflexivity|]. rewrite IH. reflexivity. Qed.
Lemma accum_prefix_vals w : forall ts tl t v, StronglySorted Qlt ts -> In (t, v) (accum_prefix w tl ts) ->
  v == tl + Qsum (map (qval w) (filter (fun k => Qle_bool k t) ts)).
Proof.
  induction ts as [|t0 r IH]; cbn; intros tl t v Hs HI; [contradiction|].
  inversion Hs as [|? ? Hs' Hf]; subst. rewrite Forall_forall in Hf.
  destruct HI as [HE|HI].
  - injection HE as <- <-. destruct (Qle_bool t0 t0) eqn:E; qb; [|lra]. cbn.
    assert (Hn : filter (fun k => Qle_bool k t0) r = []).
    { clear -Hf. induction r as [|y r IHr]; cbn; [reflexivity|].
      specialize (Hf y (or_introl eq_refl)) as Hy. destruct (Qle_bool y t0) eqn:E; qb; [lra|].
      apply IHr. intros; apply Hf; right; assumption. }
    rewrite Hn. cbn. lra.
  - pose proof (IH _ _ _ Hs' HI) as Hv.
    assert (In t r). { rewrite <- (accum_prefix_keys w (tl + qval w t0) r). apply in_map_iff. exists (t, v); auto. }
    specialize (Hf t H). destruct (Qle_bool t0 t) eqn:E; qb; [|lra]. cbn. lra.
Qed.

Lemma StronglySorted_wf d : StronglySorted Qlt (map fst d) -> wf d.
Proof.
  intro H. apply wf_distinct. unfold dkeys. induction H as [|x l Hs IH Hf]; cbn; [exact I|].
  split; [|assumption]. rewrite Forall_forall in Hf. intros y Hy E. specialize (Hf y Hy). lra.
Qed.

Lemma accum_inflows_main d : wf d ->
  let r := accum_inflows d in
  wf r /\ (forall k v, In (k, v) r -> 0 < v /\ has_time d k) /\
  (forall k m, has_time d k -> is_min_future d k m -> cum r k == qmax 0 m).
Proof.
  intros H r. unfold r, accum_inflows.
  pose proof (qsort_strict d H) as Hs.
  set (ts := qsort (dkeys d)) in *.
  destruct (inflow_loop_spec ts [] (accum_prefix d 0 ts)) as (H1 & H2 & H3).
  - apply accum_prefix_keys.
  - exact Hs.
  - cbn; contradiction.
  - cbn [app] in *. split; [|split].
    + apply StronglySorted_wf. exact H2.
    + intros k v HI. destruct (H1 k v HI). split; [assumption|]. apply has_time_In. exists k; auto with qarith.
    + intros k m Hk [Hex Hall]. apply H3.
      * apply has_time_In. exact Hk.
      * split.
        -- destruct Hex as (u & Hu & Hle & Hc). apply has_time_In in Hu. destruct Hu as (k' & Hin & E).
           fold ts in Hin.
           assert (Hi : In k' (map fst (accum_prefix d 0 ts))) by (rewrite accum_prefix_keys; exact Hin).
           apply in_map_iff in Hi. destruct Hi as [[k1 v1] [E1 Hi]]. cbn in E1; subst k1.
           exists k', v1. split; [assumption|]. split; [lra|].
           rewrite (accum_prefix_vals d ts 0 k' v1 Hs Hi).
           pose proof (cum_by_keys d k' H) as Hc'. fold ts in Hc'.
           assert (E2 : cum d u == cum d k').
           { unfold cum. apply Qsum_perm. erewrite filter_ext; [reflexivity|].
             intros [a b]; cbn. rewrite E. reflexivity. }
           lra.
        -- intros u v HI Hu. rewrite (accum_prefix_vals d ts 0 u v Hs HI).
           assert (Hht : has_time d u).
           { apply has_time_In. exists u. split; [|reflexivity]. fold ts.
             rewrite <- (accum_prefix_keys d 0 ts). apply in_map_iff. exists (u, v); auto. }
           specialize (Hall u Hht Hu). pose proof (cum_by_keys d u H) as Hc'. fold ts in Hc'. lra.
Qed.

(** * the outflow loop *)
Definition S_upto (w : dict Q Q) (ts : list Q) (u : Q) : Q :=
  Qsum (map (qval w) (filter (fun k => Qle_bool k u) ts)).

Lemma S_upto_head w t ts u : t <= u -> S_upto w (t :: ts) u == qval w t + S_upto w ts u.
Proof. intro H. unfold S_upto. cbn. destruct (Qle_bool t u) eqn:E; qb; [reflexivity|lra]. Qed.
Lemma S_upto_none w ts u : (forall k, In k ts -> u < k) -> S_upto w ts u == 0.
Proof.
  unfold S_upto. induction ts as [|y r IH]; cbn; intros H; [reflexivity|].
  specialize (H y (or_introl eq_refl)) as Hy. destruct (Qle_bool y u) eqn:E; qb; [lra|].
  apply IH. intros; apply H; right; assumption.
Qed.
Lemma cum_none (r : dict Q Q) u : (forall k v, In (k, v) r -> u < k) -> cum r u == 0.
Proof.
  unfold cum. induction r as [|[y z] r IH]; cbn; intros H; [reflexivity|].
  specialize (H y z (or_introl eq_refl)) as Hy. destruct (Qle_bool y u) eqn:E; qb; [lra|].
  apply IH. intros; eapply H; right; eassumption.
Qed.
Lemma cum_cons k v r u : cum ((k, v) :: r) u == (if Qle_bool k u then v else 0) + cum r u.
Proof. unfold cum. cbn. destruct (Qle_bool k u); cbn; lra. Qed.

Lemma outflow_loop_spec w : forall ts a, 0 <= a -> StronglySorted Qlt ts ->
  let r := accum_outflows_loop w a ts in
  (forall k v, In (k, v) r -> 0 < v /\ In k ts) /\
  StronglySorted Qlt (map fst r) /\
  (forall k, In k ts ->
     0 <= cum r k /\
     (forall u, In u ts -> u <= k -> - (a + S_upto w ts u) <= cum r k) /\
     (cum r k == 0 \/ exists u, In u ts /\ u <= k /\ cum r k == - (a + S_upto w ts u))).
Proof.
  induction ts as [|t ts IH]; intros a Ha Hs; cbn zeta.
  { cbn. split; [contradiction|]. split; [constructor|]. contradiction. }
  inversion Hs as [|? ? Hs' Hf]; subst. rewrite Forall_forall in Hf.
  assert (St : S_upto w (t :: ts) t == qval w t).
  { rewrite S_upto_head by lra. rewrite S_upto_none by assumption. lra. }
  cbn [accum_outflows_loop].
  set (a' := a + qval w t).
  destruct (Qlt_bool a' 0) eqn:E; qb.
  - destruct (IH 0) as (H1 & H2 & H3); [lra|assumption|]. cbn zeta in *.
    set (r := accum_outflows_loop w 0 ts) in *.
    assert (Hr : forall k v, In (k, v) r -> t < k) by (intros k v HI; destruct (H1 k v HI); auto).
    split; [|split].
    + intros k v [HE|HI]; [injection HE as <- <-; split; [lra|left; reflexivity]|].
      destruct (H1 k v HI). split; [assumption|right; assumption].
    + cbn. constructor; [assumption|]. rewrite Forall_forall. intros y Hy.
      apply in_map_iff in Hy. destruct Hy as [[k v] [<- HI]]. cbn. eauto.
    + intros k Hk. pose proof (cum_cons t (- a') r k) as HC.
      set (C := cum ((t, - a') :: r) k) in *.
      assert (Htk : t <= k) by (destruct Hk as [<-|Hk]; [lra|specialize (Hf k Hk); lra]).
      destruct (Qle_bool t k) eqn:Et; qb; [|lra].
      destruct Hk as [<-|Hk].
      * rewrite (cum_none r t) in HC by exact Hr. split; [lra|]. split.
        -- intros u Hu Hle. destruct Hu as [<-|Hu]; [rewrite St; unfold a' in *; lra|].
           specialize (Hf u Hu). lra.
        -- right. exists t. split; [left; reflexivity|]. split; [lra|]. rewrite St. unfold a' in *. lra.
      * destruct (H3 k Hk) as (G1 & G2 & G3). split; [lra|]. split.
        -- intros u Hu Hle. destruct Hu as [<-|Hu].
           ++ rewrite St. fold a'. lra.
           ++ specialize (G2 u Hu Hle). rewrite S_upto_head by (specialize (Hf u Hu); lra).
              unfold a' in *. lra.
        -- right. destruct G3 as [G3|(u & Hu & Hle & G3)].
           ++ exists t. split; [left; reflexivity|]. split; [lra|]. rewrite St. unfold a' in *. lra.
           ++ exists u. split; [right; assumption|]. split; [assumption|].
              rewrite S_upto_head by (specialize (Hf u Hu); lra). unfold a' in *. lra.
  - destruct (IH a') as (H1 & H2 & H3); [lra|assumption|]. cbn zeta in *.
    set (r := accum_outflows_loop w a' ts) in *.
    assert (Hr : forall k v, In (k, v) r -> t < k) by (intros k v HI; destruct (H1 k v HI); auto).
    split; [|split; [assumption|]].
    + intros k v HI. destruct (H1 k v HI). split; [assumption|right; assumption].
    + intros k Hk. destruct Hk as [<-|Hk].
      * pose proof (cum_none r t Hr) as HC. split; [lra|]. split; [|left; exact HC].
        intros u [<-|Hu] Hle; [rewrite St; unfold a' in *; lra|]. specialize (Hf u Hu). lra.
      * destruct (H3 k Hk) as (G1 & G2 & G3). split; [assumption|]. split.
        -- intros u Hu Hle. destruct Hu as [<-|Hu].
           ++ rewrite St. unfold a' in *. lra.
           ++ specialize (G2 u Hu Hle). rewrite S_upto_head by (specialize (Hf u Hu); lra).
              unfold a' in *. lra.
        -- destruct G3 as [G3|(u & Hu & Hle & G3)]; [left; assumption|right].
           exists u. split; [right; assumption|]. split; [assumption|].
           rewrite S_upto_head by (specialize (Hf u Hu); lra). unfold a' in *. lra.
Qed.

Lemma cum_congr d u k : u == k -> cum d u == cum d k.
Proof.
  intro E. unfold cum. apply Qsum_perm. erewrite filter_ext; [reflexivity|].
  intros [a b]; cbn. rewrite E. reflexivity.
Qed.

Lemma accum_outflows_main d : wf d ->
  let r := accum_outflows d in
  wf r /\ (forall k v, In (k, v) r -> 0 < v /\ has_time d k) /\
  (forall k m, has_time d k -> is_min_past d k m -> cum r k == qmax 0 (- m)).
Proof.
  intros H r. unfold r, accum_outflows.
  pose proof (qsort_strict d H) as Hs.
  set (ts := qsort (dkeys d)) in *.
  destruct (outflow_loop_spec d ts 0) as (H1 & H2 & H3); [lra|exact Hs|]. cbn zeta in *.
  split; [|split].
  - apply StronglySorted_wf. exact H2.
  - intros k v HI. destruct (H1 k v HI). split; [assumption|]. apply has_time_In. exists k.
    split; [assumption|reflexivity].
  - intros k m Hk [Hex Hall]. apply has_time_In in Hk. destruct Hk as (k' & Hin & E). fold ts in Hin.
    rewrite <- (cum_congr _ k' k E).
    destruct (H3 k' Hin) as (G1 & G2 & G3).
    assert (HS : forall u, cum d u == S_upto d ts u) by (intro u; apply cum_by_keys; assumption).
    destruct Hex as (u & Hu & Hle & Hc). apply has_time_In in Hu. destruct Hu as (u' & Hin' & E').
    fold ts in Hin'. specialize (G2 u' Hin'). rewrite <- HS in G2.
    rewrite (cum_congr d u' u E') in G2.
    assert (L : - (0 + cum d u) <= cum (accum_outflows_loop d 0 ts) k') by (apply G2; lra).
    assert (U : cum (accum_outflows_loop d 0 ts) k' == 0 \/
                cum (accum_outflows_loop d 0 ts) k' <= - m).
    { destruct G3 as [G3|(x & Hx & Hxle & G3)]; [left; exact G3|right].
      rewrite <- HS in G3. assert (m <= cum d x).
      { apply Hall; [|lra]. apply has_time_In. exists x. split; [assumption|reflexivity]. }
      lra. }
    destruct U; qmm; lra.
Qed.

(** * totals *)
Lemma cum_total (r : dict Q Q) t : (forall k v, In (k, v) r -> k <= t) -> cum r t == total r.
Proof.
  unfold cum, total, dvals. induction r as [|[k v] r IH]; cbn; intros H; [reflexivity|].
  specialize (H k v (or_introl eq_refl)) as Hk. destruct (Qle_bool k t) eqn:E; qb; [|lra].
  cbn. rewrite IH; [reflexivity|]. intros; eapply H; right; eassumption.
Qed.

(** the latest time of a non-empty dict *)
Lemma last_time (d : dict Q Q) : d <> [] -> exists t, has_time d t /\ forall k v, In (k, v) d -> k <= t.
Proof.
  induction d as [|[k v] r IH]; [congruence|]. intros _.
  destruct r as [|kv r'].
  - exists k. split; [exists k, v; split; [left; reflexivity|reflexivity]|].
    intros k' v' [HE|[]]. injection HE as <- <-. lra.
  - destruct IH as (t & (k1 & v1 & Hi & E) & Hle); [discriminate|].
    destruct (Qlt_le_dec t k) as [Hl|Hl].
    + exists k. split; [exists k, v; split; [left; reflexivity|reflexivity]|].
      intros k' v' [HE|HI]; [injection HE as <- <-; lra|]. specialize (Hle k' v' HI). lra.
    + exists t. split; [exists k1, v1; split; [right; assumption|assumption]|].
      intros k' v' [HE|HI]; [injection HE as <- <-; lra|]. exact (Hle k' v' HI).
Qed.

Lemma accum_inflows_total d : wf d -> 0 < total d -> total (accum_inflows d) == total d.
Proof.
  intros H Ht.
  assert (Hne : d <> []) by (intros ->; cbn in Ht; unfold total in Ht; cbn in Ht; lra).
  destruct (last_time d Hne) as (t & Hht & Hmax).
  destruct (accum_inflows_main d H) as (W & K & C).
  assert (Hm : is_min_future d t (total d)).
  { split.
    - exists t. split; [assumption|]. split; [lra|]. apply cum_total. assumption.
    - intros u (k & v & HI & E) Hu. pose proof (Hmax k v HI).
      rewrite (cum_congr d u t) by lra. rewrite cum_total by assumption. lra. }
  rewrite <- (cum_total (accum_inflows d) t).
  - rewrite (C t (total d) Hht Hm). qmm; lra.
  - intros k v HI. destruct (K k v HI) as [_ (k' & v' & HI' & E)]. specialize (Hmax k' v' HI'). lra.
Qed.

(** * even schedules *)
Lemma dset_fresh (d : dict Q Q) k v : dget Qeq_bool d k = None -> dset Qeq_bool d k v = d ++ [(k, v)].
Proof.
  induction d as [|[k0 v0] r IH]; cbn; [reflexivity|].
  destruct (Qeq_bool k k0) eqn:E; [discriminate|]. intro H. rewrite IH by assumption. reflexivity.
Qed.
Lemma dget_app_none (d1 d2 : dict Q Q) k :
  dget Qeq_bool (d1 ++ d2) k = None <-> dget Qeq_bool d1 k = None /\ dget Qeq_bool d2 k = None.
Proof.
  induction d1 as [|[k0 v0] r IH]; cbn; [tauto|].
  destruct (Qeq_bool k k0); [split; [discriminate|intros [H _]; discriminate]|exact IH].
Qed.
Lemma dset_fold {A} (f : A -> Q) (g : A -> Q) : forall (l : list A) (d : dict Q Q),
  distinctQ (map f l) -> (forall x, In x l -> dget Qeq_bool d (f x) = None) ->
  fold_left (fun d k => dset Qeq_bool d (f k) (g k)) l d = d ++ map (fun k => (f k, g k)) l.
Proof.
  induction l as [|x r IH]; cbn; intros d Hd Hn; [symmetry; apply app_nil_r|].
  destruct Hd as [Hd1 Hd2]. rewrite dset_fresh by auto. rewrite IH.
  - rewrite <- app_assoc. reflexivity.
  - assumption.
  - intros y Hy. apply dget_app_none. split; [auto|]. cbn.
    destruct (Qeq_bool (f y) (f x)) eqn:E; [|reflexivity]. qb.
    exfalso. apply (Hd1 (f y)); [apply in_map; assumption|]. symmetry. exact E.
Qed.

Lemma zrange_In n k : In k (zrange n) <-> (0 <= k < n)%Z.
Proof.
  unfold zrange. rewrite in_map_iff. split.
  - intros (x & <- & H). apply in_seq in H. lia.
  - intros H. exists (Z.to_nat k). split; [lia|]. apply in_seq. lia.
Qed.
Lemma zrange_length n : List.length (zrange n) = Z.to_nat n.
Proof. unfold zrange. rewrite map_length, seq_length. reflexivity. Qed.
Lemma zrange_NoDup n : NoDup (zrange n).
Proof. unfold zrange. apply FinFun.Injective_map_NoDup; [intros a b; lia|apply seq_NoDup]. Qed.

Lemma inject_pos n : (0 < n)%Z -> 0 < inject_Z n.
Proof. intro H. change 0 with (inject_Z 0). rewrite <- Zlt_Qlt. exact H. Qed.

Lemma distinct_map_inj {A} (f : A -> Q) l :
  NoDup l -> (forall x y, In x l -> In y l -> f x == f y -> x = y) -> distinctQ (map f l).
Proof.
  induction l as [|x r IH]; cbn; intros Hn Hi; [exact I|].
  inversion Hn; subst. split.
  - intros y Hy E. apply in_map_iff in Hy. destruct Hy as (z & <- & Hz).
    apply Hi in E; auto. subst. contradiction.
  - apply IH; auto.
Qed.

Lemma build_even_eq w n : (1 <= n)%Z ->
  build_even w n = map (fun k => ((inject_Z k + w) / inject_Z n, 1 / inject_Z n)) (zrange n).
Proof.
  intro H. unfold build_even. rewrite (dset_fold (fun k => (inject_Z k + w) / inject_Z n) (fun _ => 1 / inject_Z n)).
  - reflexivity.
  - apply distinct_map_inj; [apply zrange_NoDup|]. intros x y _ _ E.
    pose proof (inject_pos n) as Hp.
    assert (E' : inject_Z x + w == inject_Z y + w).
    { assert (Hnz : ~ inject_Z n == 0) by (specialize (Hp ltac:(lia)); lra).
      setoid_replace (inject_Z x + w) with ((inject_Z x + w) / inject_Z n * inject_Z n) by (field; exact Hnz).
      rewrite E. field. exact Hnz. }
    assert (inject_Z x == inject_Z y) by lra. apply eq_sym, inject_Z_injective. symmetry. assumption.
  - reflexivity.
Qed.

Lemma distinct_keys_wf (d : dict Q Q) : distinctQ (map fst d) -> wf d.
Proof. intro H. apply wf_distinct. exact H. Qed.

Lemma qtrunc_inject n : qtrunc (inject_Z n) = n.
Proof. unfold qtrunc, inject_Z. cbn. apply Z.quot_1_r. Qed.

Lemma frequency_conv_int n : (1 <= n)%Z -> frequency_conv (FNum (inject_Z n)) = Ok (Some n).
Proof.
  intro H. unfold frequency_conv. rewrite qtrunc_inject, qeqb_refl. cbn [negb].
  destruct (Qle_bool (inject_Z n) 0) eqn:E; qb; [|reflexivity].
  exfalso. pose proof (inject_pos n). specialize (H0 ltac:(lia)). lra.
Qed.

Lemma build_even_spec w n : 0 <= w <= 1 -> (1 <= n)%Z -> even_schedule w n (build_even w n).
Proof.
  intros Hw Hn. pose proof (inject_pos n ltac:(lia)) as Hp.
  assert (Hnz : ~ inject_Z n == 0) by lra.
  rewrite build_even_eq by assumption.
  assert (Hwf : wf (map (fun k => ((inject_Z k + w) / inject_Z n, 1 / inject_Z n)) (zrange n))).
  { apply distinct_keys_wf. rewrite map_map. cbn.
    apply distinct_map_inj; [apply zrange_NoDup|]. intros x y _ _ E.
    assert (E' : inject_Z x + w == inject_Z y + w).
    { setoid_replace (inject_Z x + w) with ((inject_Z x + w) / inject_Z n * inject_Z n) by (field; exact Hnz).
      rewrite E. field. exact Hnz. }
    assert (inject_Z x == inject_Z y) by lra. apply inject_Z_injective. assumption. }
  unfold even_schedule. split; [|split; [|split; [|split]]].
  - rewrite map_length, zrange_length. reflexivity.
  - exact Hwf.
  - intros k Hk. exists (1 / inject_Z n). split; [|reflexivity].
    unfold qget. apply qIn_dget; [exact Hwf|]. apply in_map_iff. exists k. split; [reflexivity|].
    apply zrange_In. exact Hk.
  - intros t v HI. apply in_map_iff in HI. destruct HI as (k & HE & Hk). injection HE as <- <-.
    apply zrange_In in Hk. assert (0 <= inject_Z k) by (change 0 with (inject_Z 0); rewrite <- Zle_Qle; lia).
    assert (inject_Z k + 1 <= inject_Z n).
    { change 1 with (inject_Z 1). rewrite <- inject_Z_plus, <- Zle_Qle. lia. }
    split; [|split; [reflexivity|exists k; split; [assumption|reflexivity]]].
    split.
    + apply Qle_shift_div_l; [assumption|]. lra.
    + apply Qle_shift_div_r; [assumption|]. lra.
  - unfold total, dvals. rewrite map_map. cbn [snd]. rewrite Qsum_map_const, zrange_length.
    rewrite Z2Nat.id by lia. field. exact Hnz.
Qed.

Lemma when_conv_in w : 0 <= w <= 1 -> when_conv (WNum w) = Ok w.
Proof.
  intros [H1 H2]. unfold when_conv.
  destruct (Qlt_bool 1 w) eqn:E1, (Qlt_bool w 0) eqn:E2; qb; cbn; try lra; reflexivity.
Qed.

Lemma Timing_even w n : 0 <= w <= 1 -> (1 <= n)%Z ->
  exists d, Timing (WNum w) (FNum (inject_Z n)) = Ok d /\ even_schedule w n d.
Proof.
  intros Hw Hn. exists (build_even w n). split; [|apply build_even_spec; assumption].
  unfold Timing. rewrite when_conv_in by assumption. cbn [bind].
  rewrite frequency_conv_int by assumption. reflexivity.
Qed.

Lemma Timing_code s n : dget String.eqb FREQUENCY_MAPPING s = Some (Some n) ->
  forall f, exists d, Timing (WStr s) f = Ok d /\ even_schedule (1#2) n d.
Proof.
  intros H f. exists (build_even (1#2) n). split.
  - unfold Timing, dmem. rewrite H. cbn [bind].
    rewrite when_conv_in by (unfold WHEN_DEFAULT; lra). cbn [bind frequency_conv]. rewrite H. reflexivity.
  - apply build_even_spec; [lra|].
    cbn in H. repeat match type of H with
    | (if ?b then _ else _) = _ => destruct b; [first [discriminate | injection H as <-; lia]|]
    end; discriminate.
Qed.

(** * normalisation *)
Lemma sum_keys_ok d : forall ks, (forall k, In k ks -> dget Qeq_bool d k <> None) ->
  exists s, sum_keys d ks = Ok s /\ s == Qsum (map (qval d) ks).
Proof.
  induction ks as [|k r IH]; cbn; intros H; [exists 0; split; reflexivity|].
  destruct IH as (s & E & Hs); [auto|].
  unfold dget_r, qval, qget in *. destruct (dget Qeq_bool d k) as [v|] eqn:Ev.
  2:{ exfalso. apply (H k); auto. }
  cbn [bind]. rewrite E. cbn [bind]. exists (v + s). split; [reflexivity|]. lra.
Qed.
Lemma sum_keys_err d ks k : In k ks -> dget Qeq_bool d k = None -> sum_keys d ks = Err KeyError.
Proof.
  intros HI HN. induction ks as [|k0 r IH]; [contradiction|]. cbn. unfold dget_r.
  destruct (dget Qeq_bool d k0) as [v|] eqn:Ev; [|reflexivity].
  destruct HI as [->|HI]; [congruence|]. cbn. rewrite IH by assumption. reflexivity.
Qed.
Lemma div_keys_ok d n : ~ n == 0 -> forall ks out,
  (forall k, In k ks -> dget Qeq_bool d k <> None) -> distinctQ ks ->
  (forall k, In k ks -> dget Qeq_bool out k = None) ->
  div_keys d n ks out = Ok (out ++ map (fun k => (k, qval d k / n)) ks).
Proof.
  intro Hn. induction ks as [|k r IH]; cbn; intros out H Hd Ho; [rewrite app_nil_r; reflexivity|].
  destruct Hd as [Hd1 Hd2].
  unfold dget_r. destruct (dget Qeq_bool d k) as [v|] eqn:Ev.
  2:{ exfalso. apply (H k); auto. }
  cbn [bind]. unfold qdiv. destruct (Qeq_bool n 0) eqn:E0; qb; [contradiction|]. cbn [bind].
  rewrite IH.
  - rewrite dset_fresh by auto. rewrite <- app_assoc. cbn.
    assert (Eq : qval d k = v) by (unfold qval, qget; rewrite Ev; reflexivity). rewrite Eq. reflexivity.
  - auto.
  - assumption.
  - intros y Hy. rewrite qdget_dset. destruct (Qeq_bool y k) eqn:E; qb; [|auto].
    exfalso. apply (Hd1 y Hy). symmetry. exact E.
Qed.

Lemma normalized_dict_ok d ks : distinctQ ks -> (forall k, In k ks -> dget Qeq_bool d k <> None) ->
  ~ Qsum (map (qval d) ks) == 0 ->
  exists n, n == Qsum (map (qval d) ks) /\
    normalized_dict d (Some ks) = Ok (map (fun k => (k, qval d k / n)) ks).
Proof.
  intros Hd Hk Hs. unfold normalized_dict.
  destruct (sum_keys_ok d ks Hk) as (n & E & Hn). exists n. split; [exact Hn|].
  rewrite E. cbn [bind]. rewrite div_keys_ok; auto. rewrite Hn. exact Hs.
Qed.
Lemma normalized_dict_none d : normalized_dict d None = normalized_dict d (Some (dkeys d)).
Proof. reflexivity. Qed.
Lemma dkeys_get d k : wf d -> In k (dkeys d) -> dget Qeq_bool d k <> None.
Proof.
  intros H HI. apply in_map_iff in HI. destruct HI as ([k' v] & <- & HI). cbn.
  rewrite (qIn_dget _ _ _ H HI). discriminate.
Qed.

Lemma map_keys_wf (f : Q -> Q) ks : distinctQ ks -> wf (map (fun k => (k, f k)) ks).
Proof. intro H. apply distinct_keys_wf. rewrite map_map. cbn. rewrite map_id. exact H. Qed.

Lemma qval_map_keys (f : Q -> Q) ks k : distinctQ ks -> In k ks ->
  qval (map (fun k => (k, f k)) ks) k = f k.
Proof.
  intros Hd HI. apply wf_In_val; [apply map_keys_wf; assumption|].
  apply in_map_iff. exists k; auto.
Qed.

Lemma time_series_keys d s ks : distinctQ ks -> (forall k, In k ks -> dget Qeq_bool d k <> None) ->
  ~ Qsum (map (qval d) ks) == 0 ->
  exists r, time_series d s (Some ks) = Ok r /\ map fst r = ks /\ wf r /\ total r == s /\
    (forall k, In k ks -> qval r k == s * qval d k / Qsum (map (qval d) ks)).
Proof.
  intros Hd Hk Hs. destruct (normalized_dict_ok d ks Hd Hk Hs) as (n & Hn & E).
  assert (Hnz : ~ n == 0) by (rewrite Hn; exact Hs).
  set (r := map (fun k => (k, qval d k / n * s)) ks).
  exists r. unfold time_series. rewrite E. cbn [bind]. rewrite map_map. cbn [fst snd].
  fold r. split; [reflexivity|]. split; [|split; [|split]].
  - unfold r. rewrite map_map. cbn. apply map_id.
  - apply (map_keys_wf (fun k => qval d k / n * s)). exact Hd.
  - unfold total, dvals, r. rewrite map_map. cbn [snd].
    rewrite (Qsum_map_scale (fun k => qval d k / n)).
    rewrite (Qsum_map_ext (fun k => qval d k / n) (fun k => qval d k * / n)) by (intros; reflexivity).
    rewrite Qsum_map_scale, <- Hn. field. exact Hnz.
  - intros k HI. unfold r. rewrite (qval_map_keys (fun k => qval d k / n * s)) by assumption.
    rewrite Hn. field. exact Hs.
Qed.

Lemma time_series_missing d s ks k : In k ks -> dget Qeq_bool d k = None ->
  time_series d s (Some ks) = Err KeyError.
Proof.
  intros HI HN. unfold time_series, normalized_dict. rewrite (sum_keys_err d ks k) by assumption. reflexivity.
Qed.
Lemma time_series_zero d s ks : ks <> [] -> (forall k, In k ks -> dget Qeq_bool d k <> None) ->
  Qsum (map (qval d) ks) == 0 -> time_series d s (Some ks) = Err ZeroDivisionError.
Proof.
  intros Hne Hk Hz. unfold time_series, normalized_dict.
  destruct (sum_keys_ok d ks Hk) as (n & E & Hn). rewrite E. cbn [bind].
  destruct ks as [|k r]; [congruence|]. cbn. unfold dget_r.
  destruct (dget Qeq_bool d k) eqn:Ek; [|exfalso; apply (Hk k); [left; reflexivity|assumption]].
  cbn. unfold qdiv. destruct (Qeq_bool n 0) eqn:E0; qb; [reflexivity|]. exfalso. apply E0. rewrite Hn. exact Hz.
Qed.

(** a dict with no negative and some non-zero value is returned unchanged *)
Lemma convert_dict_nonneg d : (forall k v, In (k, v) d -> 0 <= v) -> ~ total d == 0 -> convert_dict d = d.
Proof.
  intros H Ht. unfold convert_dict. destruct d as [|kv r]; [reflexivity|].
  set (d := kv :: r) in *.
  destruct (forallb (fun v => Qeq_bool v 0) (dvals d)) eqn:E.
  { exfalso. apply Ht. unfold total. rewrite forallb_forall in E. clear -E.
    induction (dvals d) as [|x l IH]; cbn; [reflexivity|].
    pose proof (E x (or_introl eq_refl)) as Hx. qb. rewrite IH; [lra|]. intros; apply E; right; assumption. }
  assert (E2 : forallb (fun v => Qle_bool 0 v) (dvals d) = true).
  { apply forallb_forall. intros x Hx. apply in_map_iff in Hx. destruct Hx as ([k v] & <- & HI).
    apply Qle_bool_t. eapply H; exact HI. }
  rewrite E2. reflexivity.
Qed.
Lemma wf_time_val d k : wf d -> In k (dkeys d) -> In (k, qval d k) d.
Proof.
  intros H HI. apply in_map_iff in HI. destruct HI as ([k' v] & <- & HI). cbn.
  rewrite (wf_In_val _ _ _ H HI). exact HI.
Qed.

Lemma normalized_all d : wf d -> (forall k v, In (k, v) d -> 0 <= v) -> ~ total d == 0 ->
  exists r, normalized d None = Ok r /\ map fst r = map fst d /\ wf r /\ total r == 1 /\
    (forall k, In k (dkeys d) -> qval r k == qval d k / total d).
Proof.
  intros H Hnn Ht.
  assert (Hd : distinctQ (dkeys d)) by (apply wf_distinct; exact H).
  assert (Hs : Qsum (map (qval d) (dkeys d)) = total d)
    by (unfold total, dvals; rewrite (vals_by_keys d H); reflexivity).
  assert (Htot : 0 <= total d).
  { apply Qsum_nonneg. intros x Hx. apply in_map_iff in Hx. destruct Hx as ([k v] & <- & HI). eapply Hnn; exact HI. }
  destruct (normalized_dict_ok d (dkeys d)) as (n & Hn & E); auto.
  { intros; apply dkeys_get; assumption. }
  { rewrite Hs. exact Ht. }
  rewrite Hs in Hn. assert (Hnp : 0 < n) by lra.
  set (r := map (fun k => (k, qval d k / n)) (dkeys d)) in *.
  assert (Htr : total r == 1).
  { unfold total, dvals, r. rewrite map_map. cbn [snd].
    rewrite (Qsum_map_ext (fun k => qval d k / n) (fun k => qval d k * / n)) by (intros; reflexivity).
    rewrite Qsum_map_scale, Hs, <- Hn. field. lra. }
  exists r. unfold normalized. rewrite normalized_dict_none, E. cbn [bind].
  rewrite convert_dict_nonneg.
  - split; [reflexivity|]. split; [unfold r; rewrite map_map; cbn; apply map_id|].
    split; [apply (map_keys_wf (fun k => qval d k / n)); exact Hd|]. split; [exact Htr|].
    intros k HI. unfold r. rewrite (qval_map_keys (fun k => qval d k / n)) by assumption. rewrite Hn. reflexivity.
  - intros k v HI. unfold r in HI. apply in_map_iff in HI. destruct HI as (k' & HE & Hk). injection HE as <- <-.
    apply Qle_shift_div_l; [exact Hnp|]. rewrite Qmult_0_l. eapply Hnn. apply wf_time_val; eassumption.
  - rewrite Htr. lra.
Qed.

Lemma normalized_keys d ks : (forall k v, In (k, v) d -> 0 <= v) ->
  distinctQ ks -> (forall k, In k ks -> dget Qeq_bool d k <> None) -> ~ Qsum (map (qval d) ks) == 0 ->
  exists r, normalized d (Some ks) = Ok r /\ map fst r = ks /\ wf r /\ total r == 1 /\
    (forall k, In k ks -> qval r k == qval d k / Qsum (map (qval d) ks)).
Proof.
  intros Hnn Hd Hk Hs.
  assert (Hv : forall k, 0 <= qval d k).
  { intro k. unfold qval, qget. destruct (dget Qeq_bool d k) as [v|] eqn:E; [|lra].
    apply dget_In in E. destruct E as (k' & _ & HI). exact (Hnn _ _ HI). }
  assert (Htot : 0 <= Qsum (map (qval d) ks)).
  { apply Qsum_nonneg. intros x Hx. apply in_map_iff in Hx. destruct Hx as (k & <- & _). apply Hv. }
  destruct (normalized_dict_ok d ks Hd Hk Hs) as (n & Hn & E).
  assert (Hnp : 0 < n) by lra.
  set (r := map (fun k => (k, qval d k / n)) ks) in *.
  assert (Htr : total r == 1).
  { unfold total, dvals, r. rewrite map_map. cbn [snd].
    rewrite (Qsum_map_ext (fun k => qval d k / n) (fun k => qval d k * / n)) by (intros; reflexivity).
    rewrite Qsum_map_scale, <- Hn. field. lra. }
  exists r. unfold normalized. rewrite E. cbn [bind].
  rewrite convert_dict_nonneg.
  - split; [reflexivity|]. split; [unfold r; rewrite map_map; cbn; apply map_id|].
    split; [apply (map_keys_wf (fun k => qval d k / n)); exact Hd|]. split; [exact Htr|].
    intros k HI. unfold r. rewrite (qval_map_keys (fun k => qval d k / n)) by assumption. rewrite Hn. reflexivity.
  - intros k v HI. unfold r in HI. apply in_map_iff in HI. destruct HI as (k' & HE & Hk'). injection HE as <- <-.
    apply Qle_shift_div_l; [exact Hnp|]. rewrite Qmult_0_l. apply Hv.
  - rewrite Htr. lra.
Qed.

Lemma keys_error d ks : (exists k, In k ks /\ dget Qeq_bool d k = None) <-> normalized_dict d (Some ks) = Err KeyError.
Proof.
  split.
  - intros (k & HI & HN). unfold normalized_dict. rewrite (sum_keys_err d ks k HI HN). reflexivity.
  - intro H. unfold normalized_dict in H.
    destruct (existsb (fun k => match dget Qeq_bool d k with None => true | Some _ => false end) ks) eqn:E.
    + apply existsb_exists in E. destruct E as (k & HI & HN). exists k. split; [exact HI|].
      destruct (dget Qeq_bool d k); [discriminate|reflexivity].
    + exfalso. assert (Hk : forall k, In k ks -> dget Qeq_bool d k <> None).
      { intros k HI HN. assert (X : existsb (fun k => match dget Qeq_bool d k with None => true | Some _ => false end) ks = true).
        { apply existsb_exists. exists k. rewrite HN. auto. } congruence. }
      destruct (sum_keys_ok d ks Hk) as (n & En & _). rewrite En in H. cbn [bind] in H. clear En E. revert H.
      generalize (@nil (Q * Q)). induction ks as [|k r IH]; intro out; cbn; [discriminate|].
      unfold dget_r. destruct (dget Qeq_bool d k) eqn:Ek; [|exfalso; apply (Hk k); [left; reflexivity|exact Ek]].
      cbn. unfold qdiv. destruct (Qeq_bool n 0); cbn; [discriminate|]. apply IH. intros; apply Hk; right; assumption.
Qed.

(** * add / subtract *)
Lemma qval_dset d k v u : qval (dset Qeq_bool d k v) u = if Qeq_bool u k then v else qval d u.
Proof. unfold qval, qget. rewrite qdget_dset. destruct (Qeq_bool u k); reflexivity. Qed.

Lemma add_step_val b k x u :
  qval (match dget Qeq_bool b k with
        | Some v => dset Qeq_bool b k (v + x) | None => dset Qeq_bool b k x end) u
  == qval b u + (if Qeq_bool u k then x else 0).
Proof.
  destruct (dget Qeq_bool b k) as [v|] eqn:E; rewrite qval_dset; destruct (Qeq_bool u k) eqn:Eu; try lra; qb.
  - rewrite (qval_congr b u k Eu). unfold qval, qget. rewrite E. lra.
  - rewrite (qval_congr b u k Eu). unfold qval, qget. rewrite E. lra.
Qed.
Lemma sub_step_val b k x u :
  qval (match dget Qeq_bool b k with
        | Some v => dset Qeq_bool b k (v - x) | None => dset Qeq_bool b k (- x) end) u
  == qval b u - (if Qeq_bool u k then x else 0).
Proof.
  destruct (dget Qeq_bool b k) as [v|] eqn:E; rewrite qval_dset; destruct (Qeq_bool u k) eqn:Eu; try lra; qb.
  - rewrite (qval_congr b u k Eu). unfold qval, qget. rewrite E. lra.
  - rewrite (qval_congr b u k Eu). unfold qval, qget. rewrite E. lra.
Qed.
Lemma qval_cons k v r u : qval ((k, v) :: r) u = if Qeq_bool u k then v else qval r u.
Proof. unfold qval, qget. cbn. destruct (Qeq_bool u k); reflexivity. Qed.
Lemma qval_none r k u : dget Qeq_bool r k = None -> Qeq_bool u k = true -> qval r u = 0.
Proof. intros H E. qb. unfold qval, qget. rewrite (qdget_congr r u k E), H. reflexivity. Qed.

Lemma add_transactions_val : forall added base u, wf added ->
  qval (add_transactions base added) u == qval base u + qval added u.
Proof.
  unfold add_transactions. induction added as [|[k x] r IH]; intros base u H; cbn [fold_left fst snd].
  - unfold qval at 3, qget. cbn. lra.
  - destruct H as [H1 H2]. rewrite IH by exact H2. rewrite add_step_val, qval_cons.
    destruct (Qeq_bool u k) eqn:E; [|lra]. rewrite (qval_none r k u H1 E). lra.
Qed.
Lemma subtract_transactions_val : forall added base u, wf added ->
  qval (subtract_transactions base added) u == qval base u - qval added u.
Proof.
  unfold subtract_transactions. induction added as [|[k x] r IH]; intros base u H; cbn [fold_left fst snd].
  - unfold qval at 3, qget. cbn. lra.
  - destruct H as [H1 H2]. rewrite IH by exact H2. rewrite sub_step_val, qval_cons.
    destruct (Qeq_bool u k) eqn:E; [|lra]. rewrite (qval_none r k u H1 E). lra.
Qed.
Lemma add_transactions_wf : forall added base, wf base -> wf (add_transactions base added).
Proof.
  unfold add_transactions. induction added as [|[k x] r IH]; intros base H; cbn [fold_left fst snd]; [exact H|].
  apply IH. destruct (dget Qeq_bool base k); apply qdset_wf; exact H.
Qed.
Lemma subtract_transactions_wf : forall added base, wf base -> wf (subtract_transactions base added).
Proof.
  unfold subtract_transactions. induction added as [|[k x] r IH]; intros base H; cbn [fold_left fst snd]; [exact H|].
  apply IH. destruct (dget Qeq_bool base k); apply qdset_wf; exact H.
Qed.
Lemma total_dset d k v : total (dset Qeq_bool d k v) == total d - qval d k + v.
Proof.
  unfold total, dvals. induction d as [|[k0 v0] r IH]; cbn.
  - unfold qval, qget; cbn. lra.
  - rewrite qval_cons. destruct (Qeq_bool k k0) eqn:E; cbn; [lra|]. rewrite IH. lra.
Qed.
Lemma add_transactions_total : forall added base,
  total (add_transactions base added) == total base + total added.
Proof.
  unfold add_transactions. induction added as [|[k x] r IH]; intros base; cbn [fold_left fst snd].
  - unfold total at 3; cbn. lra.
  - rewrite IH. unfold total at 4. cbn. fold (dvals r). fold (total r).
    destruct (dget Qeq_bool base k) as [v|] eqn:E; rewrite total_dset;
      unfold qval, qget; rewrite E; lra.
Qed.
Lemma subtract_transactions_total : forall added base,
  total (subtract_transactions base added) == total base - total added.
Proof.
  unfold subtract_transactions. induction added as [|[k x] r IH]; intros base; cbn [fold_left fst snd].
  - unfold total at 3; cbn. lra.
  - rewrite IH. unfold total at 4. cbn. fold (dvals r). fold (total r).
    destruct (dget Qeq_bool base k) as [v|] eqn:E; rewrite total_dset;
      unfold qval, qget; rewrite E; lra.
Qed.

(** * conversions *)
Lemma mixed_branches d : mixed d ->
  forallb (fun v => Qeq_bool v 0) (dvals d) = false /\
  forallb (fun v => Qle_bool 0 v) (dvals d) = false /\
  forallb (fun v => Qle_bool v 0) (dvals d) = false /\ d <> [].
Proof.
  intros [(k1 & v1 & H1 & P1) (k2 & v2 & H2 & P2)].
  assert (I1 : In v1 (dvals d)) by (apply in_map_iff; exists (k1, v1); auto).
  assert (I2 : In v2 (dvals d)) by (apply in_map_iff; exists (k2, v2); auto).
  repeat split.
  - destruct (forallb _ (dvals d)) eqn:E; [|reflexivity]. rewrite forallb_forall in E.
    specialize (E v1 I1). cbn in E. qb. lra.
  - destruct (forallb _ (dvals d)) eqn:E; [|reflexivity]. rewrite forallb_forall in E.
    specialize (E v2 I2). cbn in E. qb. lra.
  - destruct (forallb _ (dvals d)) eqn:E; [|reflexivity]. rewrite forallb_forall in E.
    specialize (E v1 I1). cbn in E. qb. lra.
  - intros ->. contradiction.
Qed.
Lemma convert_dict_mixed d : mixed d ->
  convert_dict d = if Qeq_bool (total d) 0 then [] else
                   if Qlt_bool 0 (total d) then accum_inflows d else accum_outflows d.
Proof.
  intro M. destruct (mixed_branches d M) as (E1 & E2 & E3 & Hne).
  unfold convert_dict. rewrite E1, E2, E3. unfold total. destruct d; [congruence|reflexivity].
Qed.

Lemma has_time_max d k : has_time d k ->
  exists m, is_min_future d k m.
Proof.
  intros Hk.
  set (l := map (cum d) (filter (fun u => Qle_bool k u) (dkeys d))).
  assert (Hne : l <> []).
  { destruct Hk as (k' & v & HI & E). unfold l. intro Hl. apply map_eq_nil in Hl.
    assert (In k' (filter (fun u => Qle_bool k u) (dkeys d))).
    { apply filter_In. split; [apply in_map_iff; exists (k', v); auto|]. apply Qle_bool_t. lra. }
    rewrite Hl in H. contradiction. }
  destruct (qminl_some l Hne) as [m Em]. exists m. split.
  - destruct (qminl_in _ _ Em) as (x & Hx & E). unfold l in Hx. apply in_map_iff in Hx.
    destruct Hx as (u & <- & Hu). apply filter_In in Hu. destruct Hu as [Hu1 Hu2]. qb.
    exists u. split; [|split; [assumption|assumption]].
    apply in_map_iff in Hu1. destruct Hu1 as ([u' v] & <- & HI). exists u', v. split; [assumption|reflexivity].
  - intros u (u' & v & HI & E) Hle. rewrite <- (cum_congr d u' u E). eapply qminl_le; [exact Em|].
    apply in_map_iff. exists u'. split; [reflexivity|]. apply filter_In.
    split; [apply in_map_iff; exists (u', v); auto|]. apply Qle_bool_t. lra.
Qed.
Lemma has_time_min d k : has_time d k -> exists m, is_min_past d k m.
Proof.
  intros Hk.
  set (l := map (cum d) (filter (fun u => Qle_bool u k) (dkeys d))).
  assert (Hne : l <> []).
  { destruct Hk as (k' & v & HI & E). unfold l. intro Hl. apply map_eq_nil in Hl.
    assert (In k' (filter (fun u => Qle_bool u k) (dkeys d))).
    { apply filter_In. split; [apply in_map_iff; exists (k', v); auto|]. apply Qle_bool_t. lra. }
    rewrite Hl in H. contradiction. }
  destruct (qminl_some l Hne) as [m Em]. exists m. split.
  - destruct (qminl_in _ _ Em) as (x & Hx & E). unfold l in Hx. apply in_map_iff in Hx.
    destruct Hx as (u & <- & Hu). apply filter_In in Hu. destruct Hu as [Hu1 Hu2]. qb.
    exists u. split; [|split; [assumption|assumption]].
    apply in_map_iff in Hu1. destruct Hu1 as ([u' v] & <- & HI). exists u', v. split; [assumption|reflexivity].
  - intros u (u' & v & HI & E) Hle. rewrite <- (cum_congr d u' u E). eapply qminl_le; [exact Em|].
    apply in_map_iff. exists u'. split; [reflexivity|]. apply filter_In.
    split; [apply in_map_iff; exists (u', v); auto|]. apply Qle_bool_t. lra.
Qed.

Lemma net_inflow_main d f : wf d -> mixed d -> 0 < total d ->
  exists r, Timing (WDict d) f = Ok r /\ wf r /\
    (forall k v, In (k, v) r -> 0 < v /\ has_time d k) /\
    total r == total d /\
    (forall t m, has_time d t -> is_min_future d t m -> cum r t == qmax 0 m).
Proof.
  intros H M Ht. exists (accum_inflows d).
  destruct (accum_inflows_main d H) as (W & K & C).
  split; [|split; [exact W|split; [exact K|split; [apply accum_inflows_total; assumption|exact C]]]].
  cbn. rewrite convert_dict_mixed by exact M.
  destruct (Qeq_bool (total d) 0) eqn:E; qb; [lra|].
  destruct (Qlt_bool 0 (total d)) eqn:E'; qb; [reflexivity|lra].
Qed.

Lemma net_inflow_safe d f r : wf d -> mixed d -> 0 < total d -> Timing (WDict d) f = Ok r ->
  (forall t u, has_time d t -> has_time d u -> t <= u -> cum r t <= qmax 0 (cum d u)) /\
  (forall (other : dict Q Q) t, has_time d t ->
     (forall t u, has_time d t -> has_time d u -> t <= u -> cum other t <= qmax 0 (cum d u)) ->
     cum other t <= cum r t).
Proof.
  intros H M Ht E. destruct (net_inflow_main d f H M Ht) as (r' & E' & W & K & Tt & C).
  rewrite E in E'. injection E' as <-. split.
  - intros t u HT HU Hle. destruct (has_time_max d t HT) as (m & Hm).
    rewrite (C t m HT Hm). destruct Hm as [_ Hm]. specialize (Hm u HU Hle). qmm; lra.
  - intros other t HT Ho. destruct (has_time_max d t HT) as (m & Hm).
    rewrite (C t m HT Hm). destruct Hm as [(u & HU & Hle & Hc) _].
    specialize (Ho t u HT HU Hle). rewrite Hc in Ho. exact Ho.
Qed.

Lemma net_outflow_main d f : wf d -> mixed d -> total d < 0 ->
  exists r, Timing (WDict d) f = Ok r /\ wf r /\
    (forall k v, In (k, v) r -> 0 < v /\ has_time d k) /\
    (forall t m, has_time d t -> is_min_past d t m -> cum r t == qmax 0 (- m)).
Proof.
  intros H M Ht. exists (accum_outflows d).
  destruct (accum_outflows_main d H) as (W & K & C).
  split; [|split; [exact W|split; [exact K|exact C]]].
  cbn. rewrite convert_dict_mixed by exact M.
  destruct (Qeq_bool (total d) 0) eqn:E; qb; [lra|].
  destruct (Qlt_bool 0 (total d)) eqn:E'; qb; [lra|reflexivity].
Qed.

Lemma cum_mono (r : dict Q Q) t u : (forall k v, In (k, v) r -> 0 <= v) -> t <= u -> cum r t <= cum r u.
Proof.
  intros H Hle. unfold cum. induction r as [|[k v] r IH]; cbn; [lra|].
  pose proof (H k v (or_introl eq_refl)). assert (IH' := IH (fun k' v' HI => H k' v' (or_intror HI))).
  destruct (Qle_bool k t) eqn:E1, (Qle_bool k u) eqn:E2; qb; cbn; lra.
Qed.
Lemma cum_nonneg (r : dict Q Q) t : (forall k v, In (k, v) r -> 0 <= v) -> 0 <= cum r t.
Proof.
  intros H. unfold cum. apply Qsum_nonneg. intros x Hx. apply in_map_iff in Hx.
  destruct Hx as ([k v] & <- & HI). apply filter_In in HI. eapply H. exact (proj1 HI).
Qed.

Lemma net_outflow_safe d f r : wf d -> mixed d -> total d < 0 -> Timing (WDict d) f = Ok r ->
  (forall t, has_time d t -> 0 <= cum d t + cum r t) /\
  (forall (other : dict Q Q) t, has_time d t -> (forall k v, In (k, v) other -> 0 <= v) ->
     (forall t, has_time d t -> 0 <= cum d t + cum other t) -> cum r t <= cum other t) /\
  (exists t, has_time d t /\ total r == - cum d t /\
     forall u, has_time d u -> cum d t <= cum d u).
Proof.
  intros H M Ht E. destruct (net_outflow_main d f H M Ht) as (r' & E' & W & K & C).
  rewrite E in E'. injection E' as <-. split; [|split].
  - intros t HT. destruct (has_time_min d t HT) as (m & Hm).
    rewrite (C t m HT Hm). destruct Hm as [_ Hm]. specialize (Hm t HT (Qle_refl t)). qmm; lra.
  - intros other t HT Hnn Ho. destruct (has_time_min d t HT) as (m & Hm).
    rewrite (C t m HT Hm). destruct Hm as [(u & HU & Hle & Hc) _].
    specialize (Ho u HU). pose proof (cum_mono other u t Hnn Hle). pose proof (cum_nonneg other t Hnn).
    qmm; lra.
  - assert (Hne : d <> []) by (intros ->; cbn in Ht; unfold total in Ht; cbn in Ht; lra).
    destruct (last_time d Hne) as (tl & HT & Hmax).
    destruct (has_time_min d tl HT) as (m & Hm). pose proof (C tl m HT Hm) as Hc.
    destruct Hm as [(u & HU & Hle & Hcu) Hall].
    exists u. split; [exact HU|]. split.
    + rewrite <- (cum_total r tl).
      * rewrite Hc. pose proof (Hall tl HT (Qle_refl tl)) as Hx.
        rewrite (cum_total d tl Hmax) in Hx. qmm; lra.
      * intros k v HI. destruct (K k v HI) as [_ (k' & v' & HI' & Ek)]. specialize (Hmax k' v' HI'). lra.
    + intros x HX. rewrite Hcu. apply Hall; [exact HX|]. destruct HX as (k & v & HI & Ek). specialize (Hmax k v HI). lra.
Qed.

(** C05: all weights non-negative, times from the dict *)
Lemma convert_dict_all d : wf d ->
  wf (convert_dict d) /\
  (forall k v, In (k, v) (convert_dict d) -> 0 <= v /\ has_time d k).
Proof.
  intro H. destruct d as [|kv r]; [cbn; split; [exact I|contradiction]|].
  set (d := kv :: r) in *.
  assert (Hht : forall k v, In (k, v) d -> has_time d k)
    by (intros k v HI; exists k, v; split; [exact HI|reflexivity]).
  unfold convert_dict. fold d. destruct d as [|kv' r'] eqn:Ed; [discriminate|]. rewrite <- Ed in *.
  destruct (forallb (fun v => Qeq_bool v 0) (dvals d)) eqn:E0.
  { split.
    - apply distinct_keys_wf. rewrite map_map. cbn. apply wf_distinct in H. exact H.
    - intros k v HI. apply in_map_iff in HI. destruct HI as ([k1 v1] & HE & HI). injection HE as <- <-.
      split; [lra|]. eapply Hht; exact HI. }
  destruct (forallb (fun v => Qle_bool 0 v) (dvals d)) eqn:E1.
  { split; [exact H|]. intros k v HI. split; [|eapply Hht; exact HI].
    rewrite forallb_forall in E1. assert (In v (dvals d)) by (apply in_map_iff; exists (k, v); auto).
    specialize (E1 v H0). qb. exact E1. }
  destruct (forallb (fun v => Qle_bool v 0) (dvals d)) eqn:E2.
  { split.
    - apply distinct_keys_wf. rewrite map_map. cbn. apply wf_distinct in H. exact H.
    - intros k v HI. apply in_map_iff in HI. destruct HI as ([k1 v1] & HE & HI). injection HE as <- <-. cbn [fst snd] in HI |- *.
      split; [|eapply Hht; exact HI].
      rewrite forallb_forall in E2. assert (In v1 (dvals d)) by (apply in_map_iff; exists (k1, v1); auto).
      specialize (E2 v1 H0). qb. lra. }
  destruct (Qeq_bool (Qsum (dvals d)) 0); [split; [exact I|contradiction]|].
  destruct (Qlt_bool 0 (Qsum (dvals d))).
  - destruct (accum_inflows_main d H) as (W & K & C). split; [exact W|].
    intros k v HI. destruct (K k v HI). split; [lra|assumption].
  - destruct (accum_outflows_main d H) as (W & K & C). split; [exact W|].
    intros k v HI. destruct (K k v HI). split; [lra|assumption].
Qed.

Lemma convert_dict_onesign d : wf d -> d <> [] -> ~ mixed d ->
  map fst (convert_dict d) = map fst d /\
  ((exists k v, In (k, v) d /\ ~ v == 0) -> forall k, has_time d k -> qval (convert_dict d) k == qabs (qval d k)) /\
  ((forall k v, In (k, v) d -> v == 0) -> forall k, has_time d k -> qval (convert_dict d) k == 1).
Proof.
  intros H Hne M.
  assert (Hkt : forall k, has_time d k -> exists k' v, In (k', v) d /\ k' == k) by (intros k (k' & v & HI & E); eauto).
  unfold convert_dict. destruct d as [|kv' r'] eqn:Ed; [congruence|]. rewrite <- Ed in *.
  destruct (forallb (fun v => Qeq_bool v 0) (dvals d)) eqn:E0.
  { rewrite forallb_forall in E0. split; [rewrite map_map; reflexivity|]. split.
    - intros (k & v & HI & Hv) ? ?. exfalso. apply Hv.
      assert (Hiv : In v (dvals d)) by (apply in_map_iff; exists (k, v); auto). specialize (E0 v Hiv). qb. exact E0.
    - intros _ k Hk. destruct (Hkt k Hk) as (k' & v & HI & E). rewrite <- (qval_congr _ k' k E).
      assert (W : wf (map (fun kv => (fst kv, 1)) d)).
      { apply distinct_keys_wf. rewrite map_map. cbn. apply wf_distinct in H. exact H. }
      rewrite (wf_In_val _ k' 1 W); [reflexivity|]. apply in_map_iff. exists (k', v); auto. }
  assert (Hnz : ~ (forall k v, In (k, v) d -> v == 0)).
  { intro Hz. assert (forallb (fun v => Qeq_bool v 0) (dvals d) = true); [|congruence].
    apply forallb_forall. intros v Hv. apply in_map_iff in Hv. destruct Hv as ([k v'] & <- & HI).
    apply Qeq_bool_t. eapply Hz; exact HI. }
  destruct (forallb (fun v => Qle_bool 0 v) (dvals d)) eqn:E1.
  { rewrite forallb_forall in E1. split; [reflexivity|]. split; [|tauto].
    intros _ k Hk. destruct (Hkt k Hk) as (k' & v & HI & E). rewrite <- (qval_congr _ k' k E).
    rewrite (wf_In_val _ _ _ H HI). assert (In v (dvals d)) by (apply in_map_iff; exists (k', v); auto).
    specialize (E1 v H0). qb. qmm; lra. }
  destruct (forallb (fun v => Qle_bool v 0) (dvals d)) eqn:E2.
  { rewrite forallb_forall in E2. split; [rewrite map_map; reflexivity|]. split; [|tauto].
    intros _ k Hk. destruct (Hkt k Hk) as (k' & v & HI & E).
    rewrite <- (qval_congr _ k' k E), <- (qval_congr d k' k E).
    assert (W : wf (map (fun kv => (fst kv, - snd kv)) d)).
    { apply distinct_keys_wf. rewrite map_map. cbn. apply wf_distinct in H. exact H. }
    rewrite (wf_In_val _ k' (- v) W); [|apply in_map_iff; exists (k', v); auto].
    rewrite (wf_In_val _ _ _ H HI). assert (In v (dvals d)) by (apply in_map_iff; exists (k', v); auto).
    specialize (E2 v H0). qb. qmm; lra. }
  exfalso. apply M. split.
  - assert (Hx : exists v, In v (dvals d) /\ Qle_bool v 0 = false).
    { clear -E2. induction (dvals d) as [|x l IH]; cbn in *; [discriminate|].
      destruct (Qle_bool x 0) eqn:E; [destruct IH as (v & ? & ?); [assumption|exists v; auto]|exists x; auto]. }
    destruct Hx as (v & Hv & Hq). qb. apply in_map_iff in Hv. destruct Hv as ([k v'] & <- & HI).
    exists k, v'. auto.
  - assert (Hx : exists v, In v (dvals d) /\ Qle_bool 0 v = false).
    { clear -E1. induction (dvals d) as [|x l IH]; cbn in *; [discriminate|].
      destruct (Qle_bool 0 x) eqn:E; [destruct IH as (v & ? & ?); [assumption|exists v; auto]|exists x; auto]. }
    destruct Hx as (v & Hv & Hq). qb. apply in_map_iff in Hv. destruct Hv as ([k v'] & <- & HI).
    exists k, v'. auto.
Qed.

Lemma convert_dict_zero_total d : mixed d -> total d == 0 -> convert_dict d = [].
Proof.
  intros M Ht. rewrite convert_dict_mixed by exact M.
  destruct (Qeq_bool (total d) 0) eqn:E; qb; [reflexivity|tauto].
Qed.

(** C06 *)
Lemma when_conv_spec w q : when_conv w = Ok q <->
  (w = WStr "start" /\ q = 0) \/ (w = WStr "end" /\ q = 1) \/ (w = WNum q /\ 0 <= q <= 1).
Proof.
  destruct w as [x|s|d|d]; cbn.
  - destruct (Qlt_bool 1 x || Qlt_bool x 0) eqn:E.
    + split; [discriminate|]. intros [[? _]|[[? _]|[He [? ?]]]]; try discriminate.
      injection He as ->. apply orb_true_iff in E. destruct E; qb; lra.
    + apply orb_false_iff in E. destruct E; qb. split.
      * intro He; injection He as ->. right; right. split; [reflexivity|lra].
      * intros [[? _]|[[? _]|[He _]]]; try discriminate. injection He as ->. reflexivity.
  - destruct (String.eqb s "end") eqn:E1.
    + apply String.eqb_eq in E1. subst. split.
      * intro He; injection He as <-. right; left; auto.
      * intros [[? _]|[[_ ->]|[? _]]]; try discriminate. reflexivity.
    + destruct (String.eqb s "start") eqn:E2.
      * apply String.eqb_eq in E2. subst. split.
        -- intro He; injection He as <-. left; auto.
        -- intros [[_ ->]|[[? _]|[? _]]]; try discriminate. reflexivity.
      * split; [discriminate|]. intros [[He _]|[[He _]|[? _]]]; try discriminate; injection He as ->; discriminate.
  - split; [discriminate|]. intros [[? _]|[[? _]|[? _]]]; discriminate.
  - split; [discriminate|]. intros [[? _]|[[? _]|[? _]]]; discriminate.
Qed.

Lemma qtrunc_int q n : q == inject_Z n -> qtrunc q = n.
Proof.
  unfold Qeq, qtrunc, inject_Z. cbn. intro H. rewrite Z.mul_1_r in H. rewrite H.
  apply Z.quot_mul. discriminate.
Qed.

Lemma frequency_conv_num q n : frequency_conv (FNum q) = Ok n <->
  exists m, n = Some m /\ q == inject_Z m /\ (0 < m)%Z.
Proof.
  cbn. destruct (Qeq_bool q (inject_Z (qtrunc q))) eqn:E; cbn.
  - destruct (Qle_bool q 0) eqn:E0; qb.
    + split; [discriminate|]. intros (m & -> & Hq & Hm). pose proof (inject_pos m Hm). lra.
    + split.
      * intro H; injection H as <-. exists (qtrunc q). split; [reflexivity|]. split; [exact E|].
        assert (H : inject_Z 0 < inject_Z (qtrunc q)) by (change (inject_Z 0) with 0; lra).
        rewrite <- Zlt_Qlt in H. exact H.
      * intros (m & -> & Hq & Hm). rewrite (qtrunc_int q m Hq). reflexivity.
  - qb. split; [discriminate|]. intros (m & -> & Hq & Hm). exfalso. apply E.
    rewrite (qtrunc_int q m Hq). exact Hq.
Qed.

Lemma frequency_conv_code s n : frequency_conv (FStr s) = Ok n <->
  In (s, n) [("C", None); ("D", Some 365); ("W", Some 52); ("BW", Some 26); ("SM", Some 24);
   ("M", Some 12); ("BM", Some 6); ("Q", Some 4); ("SA", Some 2); ("A", Some 1)]%Z%string.
Proof.
  unfold frequency_conv. fold FREQUENCY_MAPPING. split.
  - destruct (dget String.eqb FREQUENCY_MAPPING s) as [m|] eqn:E; [|discriminate].
    intro H; injection H as <-. apply dget_In in E. destruct E as (k & Hk & HI).
    apply String.eqb_eq in Hk. subst. exact HI.
  - intro HI. unfold FREQUENCY_MAPPING in HI.
    repeat (destruct HI as [HE|HI]; [injection HE as <- <-; reflexivity|]). contradiction.
Qed.
Lemma add_transactions_all added base : wf added ->
  (forall u, qval (add_transactions base added) u == qval base u + qval added u) /\
  total (add_transactions base added) == total base + total added /\
  (wf base -> wf (add_transactions base added)).
Proof.
  intro H. split; [intro u; apply add_transactions_val; exact H|].
  split; [apply add_transactions_total|apply add_transactions_wf].
Qed.
Lemma subtract_transactions_all added base : wf added ->
  (forall u, qval (subtract_transactions base added) u == qval base u - qval added u) /\
  total (subtract_transactions base added) == total base - total added /\
  (wf base -> wf (subtract_transactions base added)).
Proof.
  intro H. split; [intro u; apply subtract_transactions_val; exact H|].
  split; [apply subtract_transactions_total|apply subtract_transactions_wf].
Qed.
Lemma subtract_add base added u : wf added ->
  qval (subtract_transactions (add_transactions base added) added) u == qval base u.
Proof. intro H. rewrite subtract_transactions_val, add_transactions_val by exact H. lra. Qed.
Lemma add_comm a b u : wf a -> wf b ->
  qval (add_transactions a b) u == qval (add_transactions b a) u.
Proof. intros Ha Hb. rewrite !add_transactions_val by assumption. lra. Qed.
