(** C126: a forecast's transactions in high precision. *)
From Verif Require Import Base BaseFacts InflationModel RBase KindModel KindTaxModel KindSubModel.
From Verif Require TimingModel SubModel Prop_Kind.
From Coq Require Import Lia Lqa.
Open Scope Q_scope.

(** ** Specification *)
(** with high_precision, any number but a float; without it, any number but a high-precision one *)
Definition fits (hp : bool) (a : qn) : Prop := if hp then kd a <> Float else kd a <> High.
(** with high_precision, a high-precision number; without it, any other *)
Definition proper (hp : bool) (a : qn) : Prop := if hp then kd a = High else kd a <> High.
(** the same numbers without their types *)
Definition amounts (d : kflows) : dict Q Q := map (fun kv => (va (fst kv), va (snd kv))) d.
Definition contents {K} (h : dict K kflows) : dict K (dict Q Q) := map (fun kv => (fst kv, amounts (snd kv))) h.
(** times [T] and amounts [P] throughout *)
Definition flows_of (T P : qn -> Prop) (d : kflows) : Prop := Forall (fun kv => T (fst kv) /\ P (snd kv)) d.
Definition all_flows {K} (T P : qn -> Prop) (h : dict K kflows) : Prop := Forall (fun kv => flows_of T P (snd kv)) h.
Definition any (_ : qn) : Prop := True.
(** an account answers in numbers that fit whenever it is asked with such numbers, and its answers are those of [av] *)
Definition answers (hp : bool) (av : SubModel.acct_view) (kv : kview) : Prop :=
  forall d t, flows_of (fits hp) (fits hp) d -> fits hp t ->
    (exists m, kv_out kv d t = Ok m /\ fits hp m /\ va m = SubModel.av_out av (amounts d) (va t)) /\
    (exists m, kv_outs kv d t = Ok m /\ fits hp m /\ va m = SubModel.av_outs av (amounts d) (va t)) /\
    (forall v, fits hp v -> exists o, kv_time kv d v t = Ok o /\ (forall u, o = Some u -> fits hp u) /\
                            option_map va o = SubModel.av_time av (amounts d) (va v) (va t)).
Definition same_accounts (hp : bool) (ks : kkinds) (kd : SubModel.kinds) : Prop :=
  forall a, match ks a, kd a with Some kv, Some av => answers hp av kv | None, None => True | _, _ => False end.
(** nothing is withdrawn from or paid into an [Account]: only plain dicts of cash flows *)
Definition no_accounts (ks : kkinds) (kd : SubModel.kinds) : Prop := forall a, ks a = None /\ kd a = None.
(** the timing argument without its types *)
Definition timing_of (t : ktiming_in) : SubModel.timing_in :=
  match t with
  | KDefault => SubModel.TDefault
  | KObj d => SubModel.TObj (amounts d)
  | KArg (QNum w) => SubModel.TArg (TimingModel.WNum (va w))
  | KArg (QText s) => SubModel.TArg (TimingModel.WStr s)
  end.
(** a Timing object's weights, which are never converted: with high_precision they are to be high-precision numbers *)
Definition weights_fit (hp : bool) (t : ktiming_in) : Prop :=
  match t with KObj d => Forall (proper hp) (dvals d) | _ => True end.
(** the times that may be used with accounts: no floats with high_precision; and there a whole number is turned into a float,
    and so are the times of a frequency code *)
Definition times_fit (hp : bool) (t : ktiming_in) : Prop :=
  match t with
  | KDefault => True
  | KObj d => Forall (fits hp) (dkeys d)
  | KArg (QNum w) => proper hp w
  | KArg (QText s) => hp = false \/ s = "start"%string \/ s = "end"%string
  end.

(** one transaction after another, as the rest of a forecast makes them *)
Record transfer : Type := { tr_value : qn; tr_timing : ktiming_in; tr_from : option nat; tr_to : option nat; tr_strict : bool }.
Definition make (hp : bool) (ks : kkinds) (default : kflows) (hx : kheap * ktxs) (l : list transfer) : res (kheap * ktxs) :=
  fold_left (fun r t => let* hx := r in kadd_transaction hp ks default hx (tr_value t) (tr_timing t) (tr_from t) (tr_to t) (tr_strict t)) l (Ok hx).
Definition make_plain (kd : SubModel.kinds) (default : dict Q Q) (hx : SubModel.heap * SubModel.txs) (l : list transfer) : res (SubModel.heap * SubModel.txs) :=
  fold_left (fun r t => let* hx := r in
    SubModel.add_transaction kd default hx (va (tr_value t)) (timing_of (tr_timing t)) (tr_from t) (tr_to t) (tr_strict t)) l (Ok hx).
(** the types of the result [r] of a computation are right, and the numbers are those of [s] *)
Definition typed_as (hp : bool) (T : qn -> Prop) (r : res (kheap * ktxs)) (s : res (SubModel.heap * SubModel.txs)) : Prop :=
  match r with
  | Ok (h, x) => s = Ok (contents h, contents x) /\ all_flows T (fits hp) h /\ all_flows T (proper hp) x
  | Err e => s = Err e
  end.

(** ** Proofs *)
Lemma proper_fits hp a : proper hp a -> fits hp a.
Proof. destruct hp; cbn; [intros ->; discriminate|auto]. Qed.
Lemma qadd_fits hp a b : fits hp a -> fits hp b -> exists c, qadd a b = Ok c /\ fits hp c /\ va c = va a + va b.
Proof. intros A B. destruct (Prop_Kind.lift_fits Qplus hp a b A B) as (k & E & F). exists (Num k (va a + va b)). repeat split; assumption. Qed.
Lemma qadd_l hp a b : proper hp a -> fits hp b -> exists c, qadd a b = Ok c /\ proper hp c /\ va c = va a + va b.
Proof. intros A B. destruct (Prop_Kind.lift_l Qplus hp a b A B) as (k & E & F). exists (Num k (va a + va b)). repeat split; assumption. Qed.
Lemma qadd_r hp a b : fits hp a -> proper hp b -> exists c, qadd a b = Ok c /\ proper hp c /\ va c = va a + va b.
Proof. intros A B. destruct (Prop_Kind.lift_r Qplus hp a b A B) as (k & E & F). exists (Num k (va a + va b)). repeat split; assumption. Qed.
Lemma qmul_r hp a b : fits hp a -> proper hp b -> exists c, qmul a b = Ok c /\ proper hp c /\ va c = va a * va b.
Proof. intros A B. destruct (Prop_Kind.lift_r Qmult hp a b A B) as (k & E & F). exists (Num k (va a * va b)). repeat split; assumption. Qed.
Lemma kqdiv_l hp a b : proper hp a -> fits hp b ->
  match kqdiv a b with Ok c => proper hp c /\ qdiv (va a) (va b) = Ok (va c) | Err e => qdiv (va a) (va b) = Err e end.
Proof.
  intros A B. destruct (Prop_Kind.mix_l hp _ _ A B) as (k & E & F). unfold kqdiv. rewrite E. destruct (qdiv (va a) (va b)) as [v|e]; cbn [bind]; [|reflexivity].
  split; [apply (Prop_Kind.kdiv_kind hp k F)|reflexivity].
Qed.
Lemma kneg_fits hp a : fits hp a -> fits hp (kneg a). Proof. exact (fun H => H). Qed.
Lemma kneg_proper hp a : proper hp a -> proper hp (kneg a). Proof. exact (fun H => H). Qed.
Lemma whole_fits hp x : fits hp (whole x). Proof. destruct hp; discriminate. Qed.

Lemma kqsum_fits hp l : Forall (fits hp) l -> exists s, kqsum l = Ok s /\ fits hp s /\ va s = Qsum (map va l).
Proof.
  induction 1 as [|x r Hx Hr (s & E & F & V)]; cbn [kqsum map Qsum]; [exists (whole 0); repeat split; apply whole_fits|].
  rewrite E. cbn [bind]. destruct (qadd_fits hp x s Hx F) as (c & E1 & F1 & V1). exists c. rewrite V1, V. repeat split; assumption.
Qed.
Lemma dget_contents {K} (eqb : K -> K -> bool) (h : dict K kflows) k : dget eqb (contents h) k = option_map amounts (dget eqb h k).
Proof. induction h as [|[k' d] r IH]; cbn [contents map dget fst snd option_map]; [reflexivity|]. destruct (eqb k k'); [reflexivity|exact IH]. Qed.
Lemma dset_contents {K} (eqb : K -> K -> bool) (h : dict K kflows) k d : contents (dset eqb h k d) = dset eqb (contents h) k (amounts d).
Proof.
  induction h as [|[k' d'] r IH]; cbn [contents map dset fst snd]; [reflexivity|]. destruct (eqb k k'); cbn [map fst snd]; [reflexivity|].
  f_equal. exact IH.
Qed.
Lemma dget_amounts d t : dget Qeq_bool (amounts d) (va t) = option_map va (dget keq d t).
Proof. induction d as [|[k v] r IH]; cbn [amounts map dget fst snd option_map]; [reflexivity|]. unfold keq at 1. destruct (Qeq_bool (va t) (va k)); [reflexivity|exact IH]. Qed.
Lemma dset_amounts d t v : amounts (dset keq d t v) = dset Qeq_bool (amounts d) (va t) (va v).
Proof. induction d as [|[k w] r IH]; cbn [amounts map dset fst snd]; [reflexivity|]. unfold keq at 1. destruct (Qeq_bool (va t) (va k)); cbn [map fst snd]; [reflexivity|f_equal; exact IH]. Qed.
Lemma dmem_amounts d t : dmem Qeq_bool (amounts d) (va t) = dmem keq d t.
Proof. unfold dmem. rewrite dget_amounts. destruct (dget keq d t); reflexivity. Qed.
Lemma dkeys_amounts d : dkeys (amounts d) = map va (dkeys d).
Proof. unfold dkeys, amounts. rewrite !map_map. reflexivity. Qed.
Lemma dvals_amounts d : dvals (amounts d) = map va (dvals d).
Proof. unfold dvals, amounts. rewrite !map_map. reflexivity. Qed.
Lemma kval_amounts d t : kval d t = qval (amounts d) (va t).
Proof. unfold kval, qval, qget. rewrite dget_amounts. destruct (dget keq d t); reflexivity. Qed.
Lemma dget_flows T P d t v : flows_of T P d -> dget keq d t = Some v -> P v.
Proof. induction 1 as [|[k w] r [_ Hw] _ IH]; cbn [dget]; [discriminate|]. destruct (keq t k); [intros [= <-]; exact Hw|exact IH]. Qed.
Lemma dset_flows (T P : qn -> Prop) d t v : flows_of T P d -> T t -> P v -> flows_of T P (dset keq d t v).
Proof.
  intros H Ht Hv. induction H as [|[k w] r [Hk Hw] Hr IH]; cbn [dset]; [repeat constructor; assumption|].
  destruct (keq t k); constructor; try assumption; split; assumption.
Qed.
Lemma keys_flows T P d : flows_of T P d -> Forall T (dkeys d).
Proof. induction 1 as [|[k w] r [Hk _] _ IH]; cbn; constructor; assumption. Qed.
Lemma vals_flows T P d : flows_of T P d -> Forall P (dvals d).
Proof. induction 1 as [|[k w] r [_ Hw] _ IH]; cbn; constructor; assumption. Qed.
Lemma flows_weaken (T T' P P' : qn -> Prop) d : (forall x, T x -> T' x) -> (forall x, P x -> P' x) -> flows_of T P d -> flows_of T' P' d.
Proof. intros HT HP. apply Forall_impl. intros kv [A B]. split; auto. Qed.
Lemma dget_all {K} (eqb : K -> K -> bool) T P (h : dict K kflows) k d : all_flows T P h -> dget eqb h k = Some d -> flows_of T P d.
Proof. induction 1 as [|[k' d'] r Hd _ IH]; cbn [dget]; [discriminate|]. destruct (eqb k k'); [intros [= <-]; exact Hd|exact IH]. Qed.
Lemma dset_all {K} (eqb : K -> K -> bool) T P (h : dict K kflows) k d : all_flows T P h -> flows_of T P d -> all_flows T P (dset eqb h k d).
Proof.
  intros H Hd. induction H as [|[k' d'] r Hd' Hr IH]; cbn [dset]; [repeat constructor; exact Hd|].
  destruct (eqb k k'); constructor; try assumption.
Qed.
Lemma filter_va (p : Q -> bool) l : map va (filter (fun t : qn => p (va t)) l) = filter p (map va l).
Proof. induction l as [|x r IH]; cbn; [reflexivity|]. destruct (p (va x)); cbn; rewrite IH; reflexivity. Qed.
Lemma Forall_filter {A} (P : A -> Prop) p l : Forall P l -> Forall P (filter p l).
Proof. induction 1 as [|x r H _ IH]; cbn; [constructor|]. destruct (p x); [constructor; assumption|exact IH]. Qed.

Lemma kincr_ok (hp : bool) (T P : qn -> Prop) d t v :
  (forall a b, P a -> P b -> exists c, qadd a b = Ok c /\ P c /\ va c = va a + va b) ->
  flows_of T P d -> T t -> P v -> exists d', kincr d t v = Ok d' /\ flows_of T P d' /\ amounts d' = SubModel.incr (amounts d) (va t) (va v).
Proof.
  intros C H Ht Hv. unfold kincr, SubModel.incr. rewrite dget_amounts. destruct (dget keq d t) as [y|] eqn:E; cbn [option_map].
  - destruct (C y v (dget_flows _ _ _ _ _ H E) Hv) as (c & Ec & Pc & Vc). rewrite Ec. cbn [bind]. eexists. split; [reflexivity|].
    split; [apply dset_flows; assumption|]. rewrite dset_amounts, Vc. reflexivity.
  - eexists. split; [reflexivity|]. split; [apply dset_flows; assumption|apply dset_amounts].
Qed.
Lemma fits_closed hp a b : fits hp a -> fits hp b -> exists c, qadd a b = Ok c /\ fits hp c /\ va c = va a + va b.
Proof. apply qadd_fits. Qed.
Lemma proper_closed hp a b : proper hp a -> proper hp b -> exists c, qadd a b = Ok c /\ proper hp c /\ va c = va a + va b.
Proof. intros A B. apply qadd_l; [exact A|now apply proper_fits]. Qed.

(** *** the timing *)
Lemma kbuild_ok hp t n (T : qn -> Prop) : n <> 0%Z -> (forall k n s key, qadd (whole (inject_Z k)) t = Ok s -> kqdiv s (whole (inject_Z n)) = Ok key -> T key) ->
  exists d, kbuild hp t n = Ok d /\ flows_of T (proper hp) d /\ amounts d = TimingModel.build_even (va t) n.
Proof.
  intros Hn HT. unfold kbuild, TimingModel.build_even.
  assert (Z : Qeq_bool (inject_Z n) 0 = false).
  { destruct (Qeq_bool (inject_Z n) 0) eqn:E; [|reflexivity]. qb. unfold Qeq in E. cbn in E. lia. }
  assert (W : exists w, kqdiv (conv hp (whole 1)) (whole (inject_Z n)) = Ok w /\ proper hp w /\ va w = 1 / inject_Z n).
  { pose proof (kqdiv_l hp (conv hp (whole 1)) (whole (inject_Z n)) (Prop_Kind.conv_any hp (whole 1) (whole_fits hp 1)) (whole_fits hp _)) as X.
    rewrite Prop_Kind.conv_va in X. unfold qdiv in X. cbn [va whole] in X. rewrite Z in X. destruct (kqdiv _ _) as [w|e]; [|discriminate]. destruct X as [P X].
    exists w. repeat split; [exact P|]. now injection X as <-. }
  destruct W as (w & -> & Pw & Vw). cbn [bind]. generalize (TimingModel.zrange n). intros l.
  assert (G : forall l d0, flows_of T (proper hp) d0 -> exists d, fold_left (fun r k => let* d := r in let* s := qadd (whole (inject_Z k)) t in let* key := kqdiv s (whole (inject_Z n)) in Ok (dset keq d key w)) l (Ok d0) = Ok d /\
      flows_of T (proper hp) d /\ amounts d = fold_left (fun d k => dset Qeq_bool d ((inject_Z k + va t) / inject_Z n) (1 / inject_Z n)) l (amounts d0)).
  { clear l. induction l as [|k r IH]; intros d0 H0; cbn [fold_left]; [exists d0; repeat split; exact H0|]. cbn [bind].
    assert (A : exists s, qadd (whole (inject_Z k)) t = Ok s /\ va s = inject_Z k + va t).
    { unfold qadd, lift, whole. cbn [kd]. destruct (kd t); cbn [mix]; eexists; split; reflexivity. }
    destruct A as (s & Es & Vs). rewrite Es. cbn [bind].
    assert (B : exists key, kqdiv s (whole (inject_Z n)) = Ok key /\ va key = (inject_Z k + va t) / inject_Z n).
    { unfold kqdiv, whole. cbn [kd va]. unfold qdiv. rewrite Z, Vs. destruct (kd s); cbn [mix bind]; eexists; split; reflexivity. }
    destruct B as (key & Ek & Vk). rewrite Ek. cbn [bind]. destruct (IH (dset keq d0 key w)) as (d & E & F & V).
    - apply dset_flows; [exact H0|exact (HT _ _ _ _ Es Ek)|exact Pw].
    - exists d. split; [exact E|]. split; [exact F|]. rewrite V, dset_amounts, Vk, Vw. reflexivity. }
  destruct (G l []) as (d & E & F & V); [constructor|]. exists d. repeat split; assumption.
Qed.
(** a time given as a fitting number stays one: an int becomes a float only without high_precision *)
Lemma key_any t : forall k n s key, qadd (whole (inject_Z k)) t = Ok s -> kqdiv s (whole (inject_Z n)) = Ok key -> any key.
Proof. intros; exact I. Qed.
Lemma key_kind t k n s key : qadd (whole (inject_Z k)) t = Ok s -> kqdiv s (whole (inject_Z n)) = Ok key ->
  kd key = match kd t with Int => Float | x => x end.
Proof.
  unfold qadd, lift, kqdiv, whole. cbn [kd va]. destruct (kd t); cbn [mix]; intros [= <-]; cbn [kd mix]; destruct (qdiv _ _); cbn [bind]; intros [= <-]; reflexivity.
Qed.

Lemma default_ok hp (T : qn -> Prop) : (forall x, fits hp x -> T x) -> exists d, kdefault hp = Ok d /\ flows_of T (proper hp) d /\ amounts d = TimingModel.build_even (1 # 2) 1.
Proof.
  intros HT. unfold kdefault. destruct (kbuild_ok hp (conv hp (Num Float (1 # 2))) 1 T) as (d & E & F & V).
  - discriminate.
  - intros k n s key A B. pose proof (key_kind _ _ _ _ _ A B) as K. apply HT. destruct hp; cbn in K |- *; rewrite K; discriminate.
  - exists d. rewrite Prop_Kind.conv_va in V. repeat split; assumption.
Qed.
Lemma code_number s n : dget String.eqb TimingModel.FREQUENCY_MAPPING s = Some (Some n) -> n <> 0%Z.
Proof.
  unfold TimingModel.FREQUENCY_MAPPING. cbn [dget]. repeat match goal with |- (if ?b then _ else _) = _ -> _ => destruct b; [intros [= <-]; discriminate|] end.
  discriminate.
Qed.
Lemma code_default s n : dget String.eqb TimingModel.FREQUENCY_MAPPING s = Some n -> s <> "start"%string /\ s <> "end"%string.
Proof. intros H. split; intros ->; vm_compute in H; discriminate. Qed.

Definition time_of (w : ktime) : TimingModel.when_arg := match w with QNum t => TimingModel.WNum (va t) | QText s => TimingModel.WStr s end.
Lemma ktiming_ok hp w (T : qn -> Prop) : ((forall x, T x) \/ ((forall x, fits hp x -> T x) /\ times_fit hp (KArg w))) ->
  match ktiming hp w with
  | Ok d => flows_of T (proper hp) d /\ TimingModel.Timing (time_of w) (TimingModel.FNum 1) = Ok (amounts d)
  | Err e => TimingModel.Timing (time_of w) (TimingModel.FNum 1) = Err e
  end.
Proof.
  intros HT.
  assert (B : forall t n, n <> 0%Z -> ((forall x, T x) \/ ((forall x, fits hp x -> T x) /\ proper hp t)) ->
      exists d, kbuild hp t n = Ok d /\ flows_of T (proper hp) d /\ amounts d = TimingModel.build_even (va t) n).
  { intros t n Hn H. apply kbuild_ok; [exact Hn|]. intros k m s key A C. pose proof (key_kind _ _ _ _ _ A C) as K. destruct H as [H|[H P]]; [apply H|].
    apply H. destruct hp; cbn in P |- *; rewrite K; [rewrite P; discriminate|destruct (kd t); congruence]. }
  unfold ktiming. destruct w as [t|s]; cbn [time_of TimingModel.Timing].
  - cbn [kwhen_conv TimingModel.when_conv]. destruct (Qlt_bool 1 (va t) || Qlt_bool (va t) 0); cbn [bind]; [reflexivity|].
    destruct (B t 1%Z) as (d & E & F & V); [discriminate|destruct HT as [H|[H P]]; [left; exact H|right; split; [exact H|exact P]]|].
    rewrite E. split; [exact F|]. rewrite V. reflexivity.
  - unfold dmem. destruct (dget String.eqb TimingModel.FREQUENCY_MAPPING s) as [[n|]|] eqn:E.
    + cbn [kwhen_conv va]. cbn [bind TimingModel.when_conv TimingModel.frequency_conv]. unfold TimingModel.WHEN_DEFAULT.
      change (Qlt_bool 1 (1 # 2) || Qlt_bool (1 # 2) 0) with false. cbn iota. cbn [bind]. rewrite E. cbn [bind].
      destruct (B (Num Float (1 # 2)) n) as (d & E1 & F & V); [exact (code_number s n E)| |rewrite E1; split; [exact F|rewrite V; reflexivity]].
      destruct HT as [H|[H P]]; [left; exact H|]. right. split; [exact H|]. destruct (code_default s _ E) as [N1 N2]. cbn in P. destruct P as [-> | [P|P]]; [discriminate|contradiction|contradiction].
    + cbn [kwhen_conv va]. cbn [bind TimingModel.when_conv TimingModel.frequency_conv]. unfold TimingModel.WHEN_DEFAULT.
      change (Qlt_bool 1 (1 # 2) || Qlt_bool (1 # 2) 0) with false. cbn iota. cbn [bind]. rewrite E. reflexivity.
    + cbn [kwhen_conv TimingModel.when_conv]. destruct (String.eqb s "end").
      * cbn [bind]. destruct (B (conv hp (whole 1)) 1%Z) as (d & E1 & F & V); [discriminate| |rewrite E1; split; [exact F|rewrite V, Prop_Kind.conv_va; reflexivity]].
        destruct HT as [H|[H P]]; [left; exact H|right; split; [exact H|apply (Prop_Kind.conv_any hp (whole 1)); apply whole_fits]].
      * destruct (String.eqb s "start"); [|reflexivity].
        cbn [bind]. destruct (B (conv hp (whole 0)) 1%Z) as (d & E1 & F & V); [discriminate| |rewrite E1; split; [exact F|rewrite V, Prop_Kind.conv_va; reflexivity]].
        destruct HT as [H|[H P]]; [left; exact H|right; split; [exact H|apply (Prop_Kind.conv_any hp (whole 0)); apply whole_fits]].
Qed.

(** *** finding a time *)
Lemma kminl_va l : option_map va (kminl l) = TimingModel.qminl (map va l).
Proof. induction l as [|x r IH]; cbn [kminl map TimingModel.qminl option_map]; [reflexivity|]. rewrite <- IH. destruct (kminl r); reflexivity. Qed.
Lemma kminl_in (T : qn -> Prop) l t : (forall x y, kd x = kd y -> T x -> T y) -> Forall T l -> kminl l = Some t -> T t.
Proof.
  intros HT H. revert t. induction H as [|x r Hx _ IH]; cbn [kminl]; [discriminate|]. intros t. destruct (kminl r) as [m|]; intros [= <-]; [|exact Hx].
  destruct (Qlt_bool (va m) (va x)) eqn:E; unfold kmin2; rewrite E; [apply (HT m)|apply (HT x)]; cbn; auto.
Qed.
Lemma ksort_va l : map va (ksort l) = TimingModel.qsort (map va l).
Proof.
  induction l as [|x r IH]; cbn [ksort map TimingModel.qsort]; [reflexivity|]. rewrite <- IH. generalize (ksort r). clear IH. intros q.
  induction q as [|y q IH]; cbn [kinsert map TimingModel.qinsert]; [reflexivity|]. destruct (Qle_bool (va x) (va y)); cbn [map]; [reflexivity|]. f_equal. exact IH.
Qed.
Lemma ksort_all (T : qn -> Prop) l : Forall T l -> Forall T (ksort l).
Proof.
  induction 1 as [|x r Hx _ IH]; cbn [ksort]; [constructor|]. induction IH as [|y q Hy Hq IH]; cbn [kinsert]; [repeat constructor; exact Hx|].
  destruct (Qle_bool (va x) (va y)); repeat constructor; assumption.
Qed.
Lemma keligible_va accum value t : keligible accum value t = SubModel.eligible (amounts accum) (va value) (va t).
Proof. unfold keligible, SubModel.eligible, amounts. induction accum as [|[k v] r IH]; cbn [forallb map fst snd]; [reflexivity|]. rewrite IH. reflexivity. Qed.
Lemma kearliest_ok (T : qn -> Prop) P accum value w : (forall x y, kd x = kd y -> T x -> T y) -> flows_of T P accum -> T w ->
  T (kearliest accum value w) /\ va (kearliest accum value w) = SubModel.earliest (amounts accum) (va value) (va w).
Proof.
  intros HT H Hw. unfold kearliest, SubModel.earliest. rewrite dkeys_amounts.
  assert (E : filter (SubModel.eligible (amounts accum) (va value)) (map va (dkeys accum)) = map va (filter (keligible accum value) (dkeys accum))).
  { rewrite <- filter_va. f_equal. apply filter_ext. intros t. symmetry. apply keligible_va. }
  rewrite E, <- kminl_va. destruct (kminl (filter (keligible accum value) (dkeys accum))) as [m|] eqn:M; cbn [option_map]; [|split; [exact Hw|reflexivity]].
  split; [|reflexivity]. apply (kminl_in T _ _ HT) with (2 := M). apply Forall_filter. exact (keys_flows _ _ _ H).
Qed.
Lemma kkeys_ok T P d w : flows_of T P d -> T w -> Forall T (kkeys_with d w) /\ map va (kkeys_with d w) = SubModel.keys_with (amounts d) (va w).
Proof.
  intros H Hw. unfold kkeys_with, SubModel.keys_with. rewrite dmem_amounts, dkeys_amounts. destruct (dmem keq d w).
  - split; [exact (keys_flows _ _ _ H)|reflexivity].
  - split; [apply Forall_app; split; [exact (keys_flows _ _ _ H)|repeat constructor; exact Hw]|apply map_app].
Qed.
Lemma mapM_flows (T P : qn -> Prop) (f : qn -> res qn) (g : Q -> Q) l :
  Forall T l -> (forall t, T t -> exists s, f t = Ok s /\ P s /\ va s = g (va t)) ->
  exists d, mapM (fun t => let* s := f t in Ok (t, s)) l = Ok d /\ flows_of T P d /\ amounts d = map (fun t => (t, g t)) (map va l).
Proof.
  intros H Hf. induction H as [|t r Ht _ (d & E & F & V)]; cbn [mapM map]; [exists []; repeat split; constructor|].
  destruct (Hf t Ht) as (s & Es & Ps & Vs). rewrite Es. cbn [bind]. rewrite E. cbn [bind]. eexists. split; [reflexivity|]. split; [constructor; [split; assumption|exact F]|].
  cbn [amounts map fst snd]. rewrite Vs. f_equal. exact V.
Qed.
Lemma kupto_ok hp T d t : flows_of T (fits hp) d -> exists s, kupto d t = Ok s /\ fits hp s /\ va s = SubModel.upto (amounts d) (va t).
Proof.
  intros H. unfold kupto, SubModel.upto.
  assert (E : map snd (filter (fun kv => Qle_bool (fst kv) (va t)) (amounts d)) = map va (map snd (filter (fun kv : qn * qn => Qle_bool (va (fst kv)) (va t)) d))).
  { clear H. unfold amounts. induction d as [|[k v] r IH]; cbn [filter map fst snd]; [reflexivity|]. destruct (Qle_bool (va k) (va t)); cbn [map fst snd]; [f_equal|]; exact IH. }
  rewrite E. apply kqsum_fits. clear E. induction H as [|[k v] r [_ Hv] _ IH]; cbn [filter map fst snd]; [constructor|].
  destruct (Qle_bool (va k) (va t)); cbn [map snd]; [constructor; [exact Hv|]|]; exact IH.
Qed.
Lemma kaccum_plain_ok hp (T : qn -> Prop) d w : flows_of T (fits hp) d -> T w ->
  exists a, kaccum_plain d w = Ok a /\ flows_of T (fits hp) a /\ amounts a = SubModel.accum_plain (amounts d) (va w).
Proof.
  intros H Hw. unfold kaccum_plain, SubModel.accum_plain. destruct (kkeys_ok _ _ d w H Hw) as [K V].
  destruct (mapM_flows T (fits hp) (kupto d) (SubModel.upto (amounts d)) (filter (fun t => Qle_bool (va w) (va t)) (kkeys_with d w))) as (a & E & F & A).
  - apply Forall_filter. exact K.
  - intros t _. exact (kupto_ok hp T d t H).
  - exists a. repeat split; [exact E|exact F|]. rewrite A, (filter_va (fun t => Qle_bool (va w) t)), V. reflexivity.
Qed.
Lemma kinterpolate_cons kv d target known e l r accum : kinterpolate kv d target known (e :: l :: r) accum =
  let* accum' := (if Qlt_bool (va target) (kval known l) && Qlt_bool (kval known e) (va target) || Qlt_bool (kval known l) (va target) && Qlt_bool (va target) (kval known e)
      then let* o := kv_time kv d target e in match o with
            | Some t => if Qlt_bool (va e) (va t) && Qlt_bool (va t) (va l) then let* m := kv_outs kv d t in Ok (dset keq accum t (kneg m)) else Ok accum
            | None => Ok accum end else Ok accum) in kinterpolate kv d target known (l :: r) accum'.
Proof. reflexivity. Qed.
Lemma interpolate_cons av d target known e l r accum : SubModel.interpolate av d target known (e :: l :: r) accum =
  SubModel.interpolate av d target known (l :: r) (if Qlt_bool target (qval known l) && Qlt_bool (qval known e) target || Qlt_bool (qval known l) target && Qlt_bool target (qval known e)
      then match SubModel.av_time av d target e with
           | Some t => if Qlt_bool e t && Qlt_bool t l then dset Qeq_bool accum t (- SubModel.av_outs av d t) else accum
           | None => accum end else accum).
Proof. reflexivity. Qed.
Lemma kinterpolate_ok hp av kv d target : answers hp av kv -> flows_of (fits hp) (fits hp) d -> fits hp target ->
  forall known times accum, Forall (fits hp) times -> flows_of (fits hp) (fits hp) accum ->
  exists a, kinterpolate kv d target known times accum = Ok a /\ flows_of (fits hp) (fits hp) a /\
    amounts a = SubModel.interpolate av (amounts d) (va target) (amounts known) (map va times) (amounts accum).
Proof.
  intros A H Ht known times. induction times as [|e r IH]; intros accum Htm Ha; [exists accum; repeat split; exact Ha|].
  destruct r as [|l r]; [exists accum; repeat split; exact Ha|]. inversion Htm as [|? ? He Hr]; subst.
  rewrite kinterpolate_cons. cbn [map]. rewrite interpolate_cons, !kval_amounts.
  assert (X : exists a, (if Qlt_bool (va target) (qval (amounts known) (va l)) && Qlt_bool (qval (amounts known) (va e)) (va target) || Qlt_bool (qval (amounts known) (va l)) (va target) && Qlt_bool (va target) (qval (amounts known) (va e))
      then let* o := kv_time kv d target e in match o with
            | Some t => if Qlt_bool (va e) (va t) && Qlt_bool (va t) (va l) then let* m := kv_outs kv d t in Ok (dset keq accum t (kneg m)) else Ok accum
            | None => Ok accum end else Ok accum) = Ok a /\ flows_of (fits hp) (fits hp) a /\
      amounts a = (if Qlt_bool (va target) (qval (amounts known) (va l)) && Qlt_bool (qval (amounts known) (va e)) (va target) || Qlt_bool (qval (amounts known) (va l)) (va target) && Qlt_bool (va target) (qval (amounts known) (va e))
      then match SubModel.av_time av (amounts d) (va target) (va e) with
           | Some t => if Qlt_bool (va e) t && Qlt_bool t (va l) then dset Qeq_bool (amounts accum) t (- SubModel.av_outs av (amounts d) t) else amounts accum
           | None => amounts accum end else amounts accum)).
  { destruct (_ || _); [|exists accum; repeat split; exact Ha]. destruct (A d e H He) as (_ & _ & At). destruct (At target Ht) as (o & Eo & Fo & Vo). rewrite Eo. cbn [bind].
    rewrite <- Vo. destruct o as [t|]; cbn [option_map]; [|exists accum; repeat split; exact Ha].
    destruct (Qlt_bool (va e) (va t) && Qlt_bool (va t) (va l)); [|exists accum; repeat split; exact Ha].
    destruct (A d t H (Fo t eq_refl)) as (_ & (m & Em & Fm & Vm) & _). rewrite Em. cbn [bind]. eexists. split; [reflexivity|]. split; [apply dset_flows; [exact Ha|exact (Fo t eq_refl)|exact Fm]|].
    rewrite dset_amounts. cbn [kneg va]. rewrite Vm. reflexivity. }
  destruct X as (a1 & E1 & F1 & V1). rewrite E1. cbn [bind]. destruct (IH a1 Hr F1) as (b & Eb & Fb & Vb). exists b. split; [exact Eb|]. split; [exact Fb|]. rewrite Vb, V1. reflexivity.
Qed.
Lemma kaccum_account_ok hp av kv d w target : answers hp av kv -> flows_of (fits hp) (fits hp) d -> fits hp w -> fits hp target ->
  exists a, kaccum_account kv d w target = Ok a /\ flows_of (fits hp) (fits hp) a /\ amounts a = SubModel.accum_account av (amounts d) (va w) (va target).
Proof.
  intros A H Hw Ht. unfold kaccum_account, SubModel.accum_account. destruct (kkeys_ok _ _ d w H Hw) as [K V].
  destruct (mapM_flows (fits hp) (fits hp) (fun t => let* m := kv_out kv d t in Ok (kneg m)) (fun t => - SubModel.av_out av (amounts d) t) (filter (fun t => Qle_bool (va w) (va t)) (kkeys_with d w))) as (a & E & F & Va).
  - apply Forall_filter. exact K.
  - intros t Htt. destruct (A d t H Htt) as ((m & Em & Fm & Vm) & _). rewrite Em. cbn [bind]. exists (kneg m). repeat split; [exact Fm|]. cbn [kneg va]. rewrite Vm. reflexivity.
  - assert (E' : mapM (fun t => let* m := kv_out kv d t in Ok (t, kneg m)) (filter (fun t => Qle_bool (va w) (va t)) (kkeys_with d w)) = Ok a).
    { rewrite <- E. generalize (filter (fun t => Qle_bool (va w) (va t)) (kkeys_with d w)). intros l. induction l as [|t r IH]; cbn [mapM]; [reflexivity|]. rewrite IH. destruct (kv_out kv d t); reflexivity. }
    rewrite E'. cbn [bind]. rewrite (filter_va (fun t => Qle_bool (va w) t)), V in Va.
    destruct (kinterpolate_ok hp av kv d target A H Ht a (ksort (dkeys a)) a) as (b & Eb & Fb & Vb); [apply ksort_all; exact (keys_flows _ _ _ F)|exact F|].
    exists b. repeat split; [exact Eb|exact Fb|]. rewrite Vb, ksort_va, <- dkeys_amounts, Va. reflexivity.
Qed.

(** *** transactions *)
(** plain dicts only, with times of any type; or accounts too, with times that fit *)
Definition setting (hp : bool) (T : qn -> Prop) (ks : kkinds) (kd : SubModel.kinds) : Prop :=
  T = any /\ no_accounts ks kd \/ T = fits hp /\ same_accounts hp ks kd.
Definition sound (hp : bool) (T : qn -> Prop) (hx : kheap * ktxs) : Prop := all_flows T (fits hp) (fst hx) /\ all_flows T (proper hp) (snd hx).
Definition plain (hx : kheap * ktxs) : SubModel.heap * SubModel.txs := (contents (fst hx), contents (snd hx)).
Lemma setting_kind hp T ks kd_ : setting hp T ks kd_ -> forall x y, kd x = kd y -> T x -> T y.
Proof. intros [[-> _]|[-> _]] x y E; unfold any, fits; [trivial|rewrite E; trivial]. Qed.

Lemma khget_ok T P h a : all_flows T P h -> flows_of T P (khget h a) /\ amounts (khget h a) = SubModel.hget (contents h) a.
Proof.
  intros H. unfold khget, SubModel.hget. rewrite dget_contents. destruct (dget Nat.eqb h a) as [d|] eqn:E; cbn [option_map]; [|split; [constructor|reflexivity]].
  split; [exact (dget_all _ _ _ _ _ _ H E)|reflexivity].
Qed.
Lemma ktget_ok T P x a : all_flows T P x -> flows_of T P (ktget x a) /\ amounts (ktget x a) = SubModel.tget (contents x) a.
Proof.
  intros H. unfold ktget, SubModel.tget. rewrite dget_contents. destruct (dget SubModel.oeqb x a) as [d|] eqn:E; cbn [option_map]; [|split; [constructor|reflexivity]].
  split; [exact (dget_all _ _ _ _ _ _ H E)|reflexivity].
Qed.
Lemma kshift_ok hp T ks kd_ h value w a : setting hp T ks kd_ -> all_flows T (fits hp) h -> T w -> fits hp value ->
  exists w', kshift_when ks h value w a = Ok w' /\ T w' /\ va w' = SubModel.shift_when kd_ (contents h) (va value) (va w) a.
Proof.
  intros S H Hw Hv. destruct (khget_ok T _ h a H) as [Hd Vd]. unfold kshift_when, SubModel.shift_when. rewrite <- Vd.
  assert (X : exists c, match ks a with Some kv => kaccum_account kv (khget h a) w value | None => kaccum_plain (khget h a) w end = Ok c /\ flows_of T (fits hp) c /\
     amounts c = match kd_ a with Some av => SubModel.accum_account av (amounts (khget h a)) (va w) (va value) | None => SubModel.accum_plain (amounts (khget h a)) (va w) end).
  { destruct S as [[-> N]|[-> N]]; specialize (N a).
    - destruct N as [-> ->]. apply kaccum_plain_ok; assumption.
    - destruct (ks a), (kd_ a); try contradiction; [apply kaccum_account_ok; assumption|apply kaccum_plain_ok; assumption]. }
  destruct X as (c & -> & F & V). cbn [bind]. eexists. split; [reflexivity|]. rewrite <- V. apply kearliest_ok with (P := fits hp); try assumption. exact (setting_kind _ _ _ _ S).
Qed.
Lemma kpost_ok hp (T : qn -> Prop) h a t v : all_flows T (fits hp) h -> T t -> fits hp v ->
  exists h', kpost h a t v = Ok h' /\ all_flows T (fits hp) h' /\ contents h' = SubModel.post (contents h) a (va t) (va v).
Proof.
  intros H Ht Hv. destruct a as [i|]; cbn [kpost SubModel.post]; [|exists h; repeat split; exact H].
  destruct (khget_ok T _ h i H) as [Hd Vd]. destruct (kincr_ok hp T (fits hp) (khget h i) t v (fits_closed hp) Hd Ht Hv) as (d & E & F & V).
  rewrite E. cbn [bind]. eexists. split; [reflexivity|]. split; [apply dset_all; assumption|]. unfold khset, SubModel.hset. rewrite dset_contents, V, Vd. reflexivity.
Qed.
Lemma kbook_ok hp (T : qn -> Prop) x a t v : all_flows T (proper hp) x -> T t -> proper hp v ->
  exists x', kbook x a t v = Ok x' /\ all_flows T (proper hp) x' /\ contents x' = SubModel.book (contents x) a (va t) (va v).
Proof.
  intros H Ht Hv. unfold kbook, SubModel.book. destruct (ktget_ok T _ x a H) as [Hd Vd]. destruct (kincr_ok hp T (proper hp) (ktget x a) t v (proper_closed hp) Hd Ht Hv) as (d & E & F & V).
  rewrite E. cbn [bind]. eexists. split; [reflexivity|]. split; [apply dset_all; assumption|]. rewrite dset_contents, V, Vd. reflexivity.
Qed.
Lemma kadd_one_ok hp T ks kd_ hx value w from to strict : setting hp T ks kd_ -> sound hp T hx -> proper hp value -> T w ->
  exists hx', kadd_one ks hx value w from to strict = Ok hx' /\ sound hp T hx' /\ plain hx' = SubModel.add_one kd_ (plain hx) (va value) (va w) from to strict.
Proof.
  intros S [Hh Hx] Hv Hw. destruct hx as [h x]. cbn [fst snd] in Hh, Hx. pose proof (proper_fits _ _ Hv) as Fv. unfold kadd_one, SubModel.add_one, plain. cbn [fst snd].
  assert (X : exists w', match from with Some a => if strict then Ok w else kshift_when ks h value w a | None => Ok w end = Ok w' /\ T w' /\
      va w' = match from with Some a => if strict then va w else SubModel.shift_when kd_ (contents h) (va value) (va w) a | None => va w end).
  { destruct from as [a|]; [|exists w; repeat split; exact Hw]. destruct strict; [exists w; repeat split; exact Hw|]. apply kshift_ok with (hp := hp); assumption. }
  destruct X as (w' & -> & Hw' & <-). cbn [bind].
  destruct (kpost_ok hp T h from w' (kneg value) Hh Hw' (kneg_fits _ _ Fv)) as (h1 & -> & Hh1 & V1). cbn [bind].
  destruct (kbook_ok hp T x from w' (kneg value) Hx Hw' (kneg_proper _ _ Hv)) as (x1 & -> & Hx1 & W1). cbn [bind].
  destruct (kpost_ok hp T h1 to w' value Hh1 Hw' Fv) as (h2 & -> & Hh2 & V2). cbn [bind].
  destruct (kbook_ok hp T x1 to w' value Hx1 Hw' Hv) as (x2 & -> & Hx2 & W2). cbn [bind].
  eexists. split; [reflexivity|]. split; [split; assumption|]. cbn [fst snd]. rewrite V2, V1, W2, W1. reflexivity.
Qed.
(** the typed result and the plain one: both fail alike, or agree *)
Definition agrees (hp : bool) (T : qn -> Prop) (r : res (kheap * ktxs)) (s : res (SubModel.heap * SubModel.txs)) : Prop :=
  match r with Ok hx => sound hp T hx /\ s = Ok (plain hx) | Err e => s = Err e end.
Lemma fold_err {A B} (f : A -> B -> res A) l e : fold_left (fun r b => let* a := r in f a b) l (Err e) = Err e.
Proof. induction l as [|b r IH]; cbn [fold_left]; [reflexivity|exact IH]. Qed.
Lemma kadd_timed_ok hp T ks kd_ hx value timing from to strict : setting hp T ks kd_ -> sound hp T hx -> fits hp value -> flows_of T (proper hp) timing ->
  agrees hp T (kadd_timed ks hx value timing from to strict) (SubModel.add_timed kd_ (plain hx) (va value) (amounts timing) from to strict).
Proof.
  intros S H Hv Ht. unfold kadd_timed, SubModel.add_timed. set (swap := Qlt_bool (va value) 0).
  assert (X : exists f t, (if swap then (to, from) else (from, to)) = (f, t)) by (destruct swap; eauto). destruct X as (f & t & ->).
  set (v := if swap then kneg value else value). assert (Fv : fits hp v) by (subst v; destruct swap; [apply kneg_fits|]; exact Hv).
  assert (Vv : (if swap then - va value else va value) = va v) by (subst v; destruct swap; reflexivity). rewrite Vv.
  destruct (kqsum_fits hp (dvals timing)) as (total & -> & Ftot & Vtot).
  { eapply Forall_impl; [|exact (vals_flows _ _ _ Ht)]. intros ?; apply proper_fits. }
  cbn [bind]. rewrite dvals_amounts, <- Vtot. clear Vtot Vv. revert hx H. induction Ht as [|[w q] r [Hw Hq] _ IH]; intros hx H; cbn [fold_left amounts map fst snd].
  - split; [exact H|reflexivity].
  - cbn [bind]. pose proof (kqdiv_l hp q total Hq Ftot) as D. destruct (kqdiv q total) as [share|e].
    + destruct D as [Ps ->]. cbn [bind]. destruct (qmul_r hp v share Fv Ps) as (s & -> & Pss & Vs). cbn [bind].
      destruct (kadd_one_ok hp T ks kd_ hx s w f t strict S H Pss Hw) as (hx' & -> & H' & E). rewrite <- Vs, <- E. exact (IH hx' H').
    + rewrite D. cbn [bind]. rewrite !fold_err. reflexivity.
Qed.

Lemma ktiming_arg_ok hp T ks kd_ default t : setting hp T ks kd_ -> flows_of T (proper hp) default -> weights_fit hp t -> (T = any \/ times_fit hp t) ->
  match ktiming_arg hp default t with
  | Ok d => flows_of T (proper hp) d /\ SubModel.timing_arg (amounts default) (timing_of t) = Ok (amounts d)
  | Err e => SubModel.timing_arg (amounts default) (timing_of t) = Err e
  end.
Proof.
  intros S Hd Hw Ht. destruct t as [|d|w]; cbn [ktiming_arg timing_of SubModel.timing_arg].
  - split; [exact Hd|reflexivity].
  - split; [|reflexivity]. cbn in Hw. assert (K : Forall T (dkeys d)).
    { destruct S as [[-> _]|[-> _]]; [apply Forall_forall; intros; exact I|]. destruct Ht as [Ht|Ht]; [|exact Ht]. rewrite Ht. apply Forall_forall; intros; exact I. }
    clear - Hw K. unfold dkeys, dvals in *. induction d as [|[k v] r IH]; [constructor|]. cbn in *. inversion Hw; inversion K; subst. constructor; [split; assumption|apply IH; assumption].
  - assert (E : SubModel.timing_arg (amounts default) (timing_of (KArg w)) = TimingModel.Timing (time_of w) (TimingModel.FNum 1)) by (destruct w; reflexivity).
    pose proof (ktiming_ok hp w T) as X. cbn [timing_of] in E. unfold SubModel.timing_arg in E. destruct w as [w|w]; cbn in E |- *; cbn [time_of] in X;
      (destruct (ktiming hp _); apply X; (destruct S as [[-> _]|[-> _]]; [left; intros; exact I|right; split; [auto|]; destruct Ht as [Ht|Ht]; [|exact Ht]])).
    all: try (exfalso; assert (Z : forall y, any y -> fits hp y) by (rewrite Ht; auto); destruct hp; [apply (Z (Num Float 0) I)|apply (Z (Num High 0) I)]; reflexivity).
Qed.
Lemma transaction_ok hp T ks kd_ default hx value t from to strict : setting hp T ks kd_ -> flows_of T (proper hp) default -> weights_fit hp t -> (T = any \/ times_fit hp t) ->
  sound hp T hx -> fits hp value ->
  agrees hp T (kadd_transaction hp ks default hx value t from to strict) (SubModel.add_transaction kd_ (amounts default) (plain hx) (va value) (timing_of t) from to strict).
Proof.
  intros S Hd Hw Ht H Hv. unfold kadd_transaction, SubModel.add_transaction. pose proof (ktiming_arg_ok hp T ks kd_ default t S Hd Hw Ht) as X.
  destruct (ktiming_arg hp default t) as [d|e]; [destruct X as [F ->]|rewrite X]; cbn [bind]; [|reflexivity]. apply kadd_timed_ok; assumption.
Qed.
Lemma make_ok hp T ks kd_ default l : setting hp T ks kd_ -> flows_of T (proper hp) default ->
  Forall (fun t => fits hp (tr_value t) /\ weights_fit hp (tr_timing t) /\ (T = any \/ times_fit hp (tr_timing t))) l -> forall hx, sound hp T hx ->
  agrees hp T (make hp ks default hx l) (make_plain kd_ (amounts default) (plain hx) l).
Proof.
  intros S Hd Hl. unfold make, make_plain. induction Hl as [|t r (Hv & Hw & Ht) _ IH]; intros hx H; cbn [fold_left]; [split; [exact H|reflexivity]|]. cbn [bind].
  pose proof (transaction_ok hp T ks kd_ default hx (tr_value t) (tr_timing t) (tr_from t) (tr_to t) (tr_strict t) S Hd Hw Ht H Hv) as X.
  destruct (kadd_transaction _ _ _ _ _ _ _ _ _) as [hx'|e]; cbn [agrees] in X; [destruct X as [H' ->]; exact (IH hx' H')|rewrite X, !fold_err; reflexivity].
Qed.
Lemma agrees_typed hp T r s : agrees hp T r s -> typed_as hp T r s.
Proof. destruct r as [[h x]|e]; cbn; [intros [[A B] C]; auto|auto]. Qed.

(** ** Theorems *)
(** With plain dicts of cash flows, whatever the types of the times: every amount recorded has the right type, and is the amount of SubModel.v *)
Theorem C126_cash_flows_partial : forall hp ks kd default h x l,
  no_accounts ks kd -> Forall (proper hp) (dvals default) -> all_flows any (fits hp) h -> all_flows any (proper hp) x ->
  (forall t, In t l -> fits hp (tr_value t) /\ weights_fit hp (tr_timing t)) ->
  typed_as hp any (make hp ks default (h, x) l) (make_plain kd (amounts default) (contents h, contents x) l).
Proof.
  intros hp ks kd_ default h x l N Hd Hh Hx Hl. apply agrees_typed. apply (make_ok hp any ks kd_ default l); [left; split; [reflexivity|exact N]| | |split; assumption].
  - clear - Hd. unfold dvals in Hd. induction default as [|[k v] r IH]; [constructor|]. cbn in Hd. inversion Hd; subst. constructor; [split; [exact I|assumption]|apply IH; assumption].
  - apply Forall_forall. intros t Ht. destruct (Hl t Ht). repeat split; try assumption. left. reflexivity.
Qed.

(** With accounts, when the times fit too *)
Theorem C126_accounts_partial : forall hp ks kd default h x l,
  same_accounts hp ks kd -> flows_of (fits hp) (proper hp) default -> all_flows (fits hp) (fits hp) h -> all_flows (fits hp) (proper hp) x ->
  (forall t, In t l -> fits hp (tr_value t) /\ weights_fit hp (tr_timing t) /\ times_fit hp (tr_timing t)) ->
  typed_as hp (fits hp) (make hp ks default (h, x) l) (make_plain kd (amounts default) (contents h, contents x) l).
Proof.
  intros hp ks kd_ default h x l N Hd Hh Hx Hl. apply agrees_typed. apply (make_ok hp (fits hp) ks kd_ default l); [right; split; [reflexivity|exact N]|exact Hd| |split; assumption].
  apply Forall_forall. intros t Ht. destruct (Hl t Ht) as (A & B & C). repeat split; try assumption. right. exact C.
Qed.

(** The default timing is the middle of the year, in numbers that may be used together with the others *)
Theorem C126_default_timing : forall hp, exists t w, kdefault hp = Ok [(t, w)] /\ va t == 1 # 2 /\ va w == 1 /\ proper hp t /\ proper hp w /\
  amounts [(t, w)] = TimingModel.build_even (1 # 2) 1.
Proof.
  intros hp. destruct (default_ok hp any (fun x _ => I)) as (d & E & _ & V).
  assert (X : exists t w, kdefault hp = Ok [(t, w)] /\ va t == 1 # 2 /\ va w == 1 /\ proper hp t /\ proper hp w)
    by (destruct hp; do 2 eexists; (split; [reflexivity|]); repeat split; discriminate).
  destruct X as (t & w & Ed & A & B & C & D). exists t, w. rewrite E in Ed. injection Ed as ->. repeat (split; [assumption||reflexivity|]). exact V.
Qed.

(** Several transactions at once, by the times at which they are made *)
Theorem C126_add_transactions_partial : forall hp T ks kd default h x l from to strict,
  T = any /\ no_accounts ks kd \/ T = fits hp /\ same_accounts hp ks kd /\ Forall (proper hp) (dkeys l) ->
  flows_of T (proper hp) default -> all_flows T (fits hp) h -> all_flows T (proper hp) x -> Forall (fits hp) (dvals l) ->
  typed_as hp T (kadd_transactions hp ks default (h, x) l from to strict)
    (SubModel.add_transactions kd (amounts default) (contents h, contents x) (amounts l) from to strict).
Proof.
  intros hp T ks kd_ default h x l from to strict S Hd Hh Hx Hl. apply agrees_typed.
  assert (S' : setting hp T ks kd_) by (destruct S as [S|(A & B & _)]; [left; exact S|right; split; assumption]).
  assert (K : Forall (fun k => T = any \/ times_fit hp (KArg (QNum k))) (dkeys l)).
  { destruct S as [[-> _]|(_ & _ & K)]; [apply Forall_forall; intros; left; reflexivity|]. revert K. apply Forall_impl. intros k Hk. right. exact Hk. }
  clear S. change (contents h, contents x) with (plain (h, x)). assert (H : sound hp T (h, x)) by (split; assumption). revert H. generalize (h, x). clear Hh Hx h x.
  unfold kadd_transactions, SubModel.add_transactions. induction l as [|[w v] r IH]; intros hx H; cbn [fold_left amounts map fst snd]; [split; [exact H|reflexivity]|]. cbn [bind].
  unfold dvals, dkeys in Hl, K. cbn in Hl, K. inversion Hl as [|? ? Hv Hr]; inversion K as [|? ? Hk Kr]; subst.
  pose proof (transaction_ok hp T ks kd_ default hx v (KArg (QNum w)) from to strict S' Hd I Hk H Hv) as X. cbn [timing_of] in X.
  destruct (kadd_transaction _ _ _ _ _ _ _ _ _) as [hx'|e]; cbn [agrees] in X; [destruct X as [H' ->]; exact (IH Hr Kr hx' H')|rewrite X, !fold_err; reflexivity].
Qed.

(** Undoing what was recorded never fails either, and undoes the same amounts *)
Theorem C126_undone : forall hp T h x s, all_flows T (fits hp) h -> all_flows T (proper hp) x -> SubModel.s_tx s = contents x ->
  exists h', kundo h x = Ok h' /\ all_flows T (fits hp) h' /\ contents h' = SubModel.undo (contents h) s.
Proof.
  intros hp T h x s Hh Hx E. unfold kundo, SubModel.undo. rewrite E. clear E s. revert h Hh. induction Hx as [|[a d] r Hd _ IH]; intros h Hh; cbn [fold_left contents map fst snd]; [exists h; repeat split; exact Hh|].
  cbn [snd] in Hd. assert (X : exists h1, kundo_one (Ok h) (a, d) = Ok h1 /\ all_flows T (fits hp) h1 /\ contents h1 = SubModel.undo_one (contents h) (a, amounts d)).
  { destruct a as [a|]; unfold kundo_one, SubModel.undo_one; cbn [fst snd]; [|exists h; repeat split; exact Hh]. clear IH. revert h Hh.
    induction Hd as [|[t v] d [Ht Hv] _ IH]; intros h Hh; cbn [fold_left amounts map fst snd]; [exists h; repeat split; exact Hh|]. cbn [bind].
    destruct (khget_ok T _ h a Hh) as [Hd' Vd]. destruct (kincr_ok hp T (fits hp) (khget h a) t (kneg v) (fits_closed hp) Hd' Ht (proper_fits _ _ Hv)) as (d' & -> & F & V). cbn [bind].
    destruct (IH (khset h a d')) as (h1 & E1 & F1 & V1); [apply dset_all; assumption|]. exists h1. repeat split; [exact E1|exact F1|]. rewrite V1. unfold khset, SubModel.hset. rewrite dset_contents, V, Vd. reflexivity. }
  destruct X as (h1 & X1 & F1 & V1). destruct (IH h1 F1) as (h2 & E2 & F2 & V2). exists h2. split; [etransitivity; [|exact E2]; apply f_equal; exact X1|]. split; [exact F2|]. rewrite V2, V1. reflexivity.
Qed.

(** The total available is that of SubModel.v *)
Theorem C126_total_available : forall hp T ks kd h a s, T = any /\ no_accounts ks kd \/ T = fits hp /\ same_accounts hp ks kd ->
  all_flows T (fits hp) h -> SubModel.s_invoked s = false ->
  exists m, ktotal_available ks h a = Ok m /\ fits hp m /\ va m = SubModel.s_total (snd (SubModel.begin_call kd (contents h) s a)).
Proof.
  intros hp T ks kd_ h a s S Hh N. unfold ktotal_available, SubModel.begin_call. rewrite N. cbn [snd SubModel.s_total]. destruct (khget_ok T _ h a Hh) as [Hd Vd]. rewrite <- Vd.
  assert (P : exists m, kqsum (dvals (khget h a)) = Ok m /\ fits hp m /\ va m = Qsum (dvals (amounts (khget h a)))).
  { rewrite dvals_amounts. apply kqsum_fits. exact (vals_flows _ _ _ Hd). }
  destruct S as [[-> S]|[-> S]]; specialize (S a); [destruct S as [-> ->]; exact P|].
  destruct (ks a) as [kv|], (kd_ a) as [av|]; try contradiction; [|exact P].
  destruct (S (khget h a) (whole 1) Hd (whole_fits hp 1)) as (X & _). exact X.
Qed.

(** Refuted: amounts are not converted.  A float is not accepted with high_precision, *)
Theorem C126_floats_refuted : forall ks hx x t w r from to strict, kd x = Float -> kd w = High -> Forall (proper true) (dvals r) ->
  exists e, kadd_timed ks hx x ((t, w) :: r) from to strict = Err e.
Proof.
  intros ks hx x t w r from to strict Hx Hw Hr. unfold kadd_timed.
  assert (X : exists f g, (if Qlt_bool (va x) 0 then (to, from) else (from, to)) = (f, g)) by (destruct (Qlt_bool _ _); eauto). destruct X as (f & g & ->).
  match goal with |- context [kqsum ?l] => destruct (kqsum_fits true l) as (total & -> & Ft & _) end.
  { cbn. constructor; [cbn; rewrite Hw; discriminate|]. eapply Forall_impl; [|exact Hr]. intros ?; apply proper_fits. }
  cbn [bind fold_left snd fst]. pose proof (kqdiv_l true w total Hw Ft) as D. destruct (kqdiv w total) as [s|e]; cbn [bind]; [|rewrite fold_err; eauto].
  destruct D as [Ps _]. cbn in Ps. exists TypeError. assert (E : qmul (if Qlt_bool (va x) 0 then kneg x else x) s = Err TypeError).
  { unfold qmul, lift. rewrite Ps. destruct (Qlt_bool (va x) 0); cbn [kneg kd]; rewrite Hx; reflexivity. }
  rewrite E. cbn [bind]. apply fold_err.
Qed.
(** nor a high-precision number without it, *)
Theorem C126_high_refuted : forall ks hx x t w r from to strict, kd x = High -> kd w <> High -> Forall (proper false) (dvals r) ->
  exists e, kadd_timed ks hx x ((t, w) :: r) from to strict = Err e.
Proof.
  intros ks hx x t w r from to strict Hx Hw Hr. unfold kadd_timed.
  assert (X : exists f g, (if Qlt_bool (va x) 0 then (to, from) else (from, to)) = (f, g)) by (destruct (Qlt_bool _ _); eauto). destruct X as (f & g & ->).
  match goal with |- context [kqsum ?l] => destruct (kqsum_fits false l) as (total & -> & Ft & _) end; [cbn; constructor; [exact Hw|exact Hr]|].
  cbn [bind fold_left snd fst]. unfold kqdiv. destruct (mix (kd w) (kd total)) as [k|] eqn:M; cbn [bind]; [|rewrite fold_err; eauto].
  destruct (qdiv (va w) (va total)) as [q|e]; cbn [bind]; [|rewrite fold_err; eauto].
  assert (K : match k with Int => Float | _ => k end = Float) by (cbn in Ft; revert M Hw Ft; destruct (kd w), (kd total); cbn; intros M ? ?; try (injection M as <-); try reflexivity; congruence).
  exists TypeError. assert (E : qmul (if Qlt_bool (va x) 0 then kneg x else x) (Num (match k with Int => Float | _ => k end) q) = Err TypeError).
  { rewrite K. unfold qmul, lift. cbn [kd]. destruct (Qlt_bool (va x) 0); cbn [kneg kd]; rewrite Hx; reflexivity. }
  rewrite E. cbn [bind]. apply fold_err.
Qed.
(** and with high_precision the times of a frequency code, or of a number that is not a high-precision one, are floats, which an
    account's own computations do not accept *)
Theorem C126_times_refuted : forall w d, ktiming true w = Ok d ->
  match w with QNum t => kd t <> High | QText s => s <> "start"%string /\ s <> "end"%string end -> Forall (fun t => kd t = Float) (dkeys d).
Proof.
  intros w d E H.
  assert (B : forall t n d, kd t <> High -> kbuild true t n = Ok d -> Forall (fun t => kd t = Float) (dkeys d)).
  { clear. intros t n d N. destruct (Z.eq_dec n 0) as [-> |Hn]; [unfold kbuild; destruct (kqdiv _ _); cbn; [intros [= <-]; constructor|discriminate]|]. intros E.
    destruct (kbuild_ok true t n (fun t => kd t = Float) Hn) as (d' & E' & F & _).
    - intros k m s key A C. rewrite (key_kind _ _ _ _ _ A C). destruct (kd t); congruence.
    - rewrite E in E'. injection E' as <-. exact (keys_flows _ _ _ F). }
  unfold ktiming in E. destruct w as [t|s].
  - cbn [kwhen_conv] in E. destruct (_ || _); cbn [bind] in E; [discriminate|]. exact (B _ _ _ H E).
  - unfold dmem in E. destruct (dget String.eqb TimingModel.FREQUENCY_MAPPING s) as [[n|]|] eqn:D.
    + cbn [kwhen_conv va] in E. destruct (_ || _); cbn [bind] in E; [discriminate|]. rewrite D in E. cbn [bind] in E. refine (B _ _ _ _ E). discriminate.
    + cbn [kwhen_conv va] in E. destruct (_ || _); cbn [bind] in E; [discriminate|]. rewrite D in E. discriminate.
    + cbn [kwhen_conv] in E. destruct H as [H1 H2]. apply String.eqb_neq in H1, H2. rewrite H1, H2 in E. discriminate.
Qed.

(** ** The hypotheses are met *)
(** an account that can be emptied at any time, and always expects the balance wanted an eighth of a year later *)
Definition demo_kview : kview := {|
  kv_out := fun d t => let* s := kupto d t in Ok (kneg s); kv_outs := fun d t => let* s := kupto d t in Ok (kneg s);
  kv_time := fun d v t => Ok (Some (Num (kd t) (va t + (1 # 8)))) |}.
Definition demo_view : SubModel.acct_view := {|
  SubModel.av_out := fun d t => - SubModel.upto d t; SubModel.av_outs := fun d t => - SubModel.upto d t;
  SubModel.av_time := fun d v t => Some (t + (1 # 8)) |}.
Definition demo_ks : kkinds := fun a => if Nat.eqb a 2 then Some demo_kview else None.
Definition demo_kd : SubModel.kinds := fun a => if Nat.eqb a 2 then Some demo_view else None.
Definition dec (x : Q) : qn := Num High x.
Definition flt (x : Q) : qn := Num Float x.
(** cash 0 receives an income at four times; 2 is the account *)
Definition demo_heap : kheap := [(0%nat, [(dec 0, dec 100); (dec (1 # 2), dec 100)]); (2%nat, [(dec (1 # 4), whole 40); (dec (3 # 4), dec 40)])].
Definition demo_heap_floats : kheap := [(0%nat, [(flt 0, dec 100); (flt (1 # 2), dec 100)])].
Definition demo_transfers : list transfer := [
  {| tr_value := dec 150; tr_timing := KDefault; tr_from := Some 0%nat; tr_to := Some 1%nat; tr_strict := false |};
  {| tr_value := whole 60; tr_timing := KArg (QText "start"); tr_from := Some 2%nat; tr_to := None; tr_strict := false |};
  {| tr_value := dec (-8); tr_timing := KArg (QNum (dec (1 # 4))); tr_from := Some 1%nat; tr_to := Some 0%nat; tr_strict := true |}].
Definition demo_codes : list transfer := [
  {| tr_value := dec 120; tr_timing := KArg (QText "M"); tr_from := Some 0%nat; tr_to := Some 1%nat; tr_strict := false |};
  {| tr_value := dec 10; tr_timing := KObj [(flt (1 # 3), dec 1); (whole 1, dec 3)]; tr_from := Some 0%nat; tr_to := None; tr_strict := true |}].

(** the income at mid-year pays for a purchase then; the account's 60 are there only after its second deposit; 8 come back *)
Example C126_sat : exists default h x h2 s,
  kdefault true = Ok default /\ flows_of (fits true) (proper true) default /\ same_accounts true demo_ks demo_kd /\ all_flows (fits true) (fits true) demo_heap /\
  (forall t, In t demo_transfers -> fits true (tr_value t) /\ weights_fit true (tr_timing t) /\ times_fit true (tr_timing t)) /\
  make true demo_ks default (demo_heap, []) demo_transfers = Ok (h, x) /\
  khget h 0 = [(dec 0, dec 100); (dec (1 # 2), dec (-50)); (dec (1 # 4), dec (-8))] /\
  khget h 1 = [(dec (1 # 2), dec 150); (dec (1 # 4), dec 8)] /\
  khget h 2 = [(dec (1 # 4), whole 40); (dec (3 # 4), dec (-20))] /\
  ktget x None = [(dec (3 # 4), dec 60)] /\
  SubModel.s_tx s = contents x /\ kundo h x = Ok h2 /\ khget h2 2 = [(dec (1 # 4), whole 40); (dec (3 # 4), dec 40)] /\
  ktotal_available demo_ks h 2 = Ok (dec (-20)).
Proof.
  destruct (make true demo_ks [(dec (1 # 2), dec 1)] (demo_heap, []) demo_transfers) as [[h x]|e] eqn:E; [|vm_compute in E; discriminate].
  exists [(dec (1 # 2), dec 1)], h, x. vm_compute in E. injection E as <- <-. eexists. eexists (SubModel.set_tx (SubModel.new_sub 2020) _).
  split; [vm_compute; reflexivity|]. split; [repeat constructor; discriminate|]. split.
  { intros a. unfold demo_ks, demo_kd. destruct (Nat.eqb a 2); [|exact I]. intros d t H Ht.
    destruct (kupto_ok true (fits true) d t H) as (s & Es & Fs & Vs).
    split; [|split].
    - exists (kneg s). cbn [kv_out demo_kview]. rewrite Es. repeat split; [exact Fs|]. cbn [kneg va]. rewrite Vs. reflexivity.
    - exists (kneg s). cbn [kv_outs demo_kview]. rewrite Es. repeat split; [exact Fs|]. cbn [kneg va]. rewrite Vs. reflexivity.
    - intros v Hv. exists (Some (Num (kd t) (va t + (1 # 8)))). repeat split. intros u [= <-]. exact Ht. }
  split; [repeat constructor; discriminate|]. split.
  { intros t [<-|[<-|[<-|[]]]]; repeat split; try discriminate; cbn; auto. }
  split; [vm_compute; reflexivity|]. split; [vm_compute; reflexivity|]. split; [vm_compute; reflexivity|]. split; [vm_compute; reflexivity|]. split; [vm_compute; reflexivity|].
  split; [reflexivity|]. split; [vm_compute; reflexivity|]. split; vm_compute; reflexivity.
Qed.

(** plain cash flows with times of every type, and the refused cases *)
Example C126_sat_more :
  no_accounts (fun _ => None) (fun _ => None) /\ all_flows any (fits true) demo_heap_floats /\
  (forall t, In t demo_codes -> fits true (tr_value t) /\ weights_fit true (tr_timing t)) /\
  (exists h x, make true (fun _ => None) [(dec (1 # 2), dec 1)] (demo_heap_floats, []) demo_codes = Ok (h, x) /\
     List.length (khget h 1) = 12%nat /\ Forall (fun v => kd v = High /\ va v == 10) (dvals (khget h 1)) /\ Qsum (dvals (amounts (khget h 0))) == 70) /\
  (exists d, ktiming true (QText "M") = Ok d /\ List.length d = 12%nat /\ ktiming true (QNum (whole 0)) = Ok [(flt 0, dec 1)]) /\
  kadd_transaction true (fun _ => None) [(dec (1 # 2), dec 1)] (demo_heap_floats, []) (flt 5) KDefault (Some 0%nat) None false = Err TypeError /\
  (exists d, kdefault false = Ok d /\ kadd_transaction false (fun _ => None) d ([], []) (dec 5) KDefault (Some 0%nat) None false = Err TypeError /\
     exists h x, kadd_transaction false (fun _ => None) d ([], []) (whole 5) KDefault (Some 0%nat) None false = Ok (h, x) /\ khget h 0 = [(flt (1 # 2), flt (-5))]).
Proof.
  split; [intros a; split; reflexivity|]. split; [repeat constructor; discriminate|]. split.
  { intros t [<-|[<-|[]]]; repeat split; try discriminate; cbn; repeat constructor. }
  split. { do 2 eexists. split; [vm_compute; reflexivity|]. split; [vm_compute; reflexivity|]. split; [|vm_compute; reflexivity].
    vm_compute. repeat constructor. }
  split. { eexists. split; [vm_compute; reflexivity|]. split; vm_compute; reflexivity. }
  split; [vm_compute; reflexivity|]. eexists. split; [vm_compute; reflexivity|]. split; [vm_compute; reflexivity|]. do 2 eexists. split; vm_compute; reflexivity.
Qed.

Print Assumptions C126_cash_flows_partial.
Print Assumptions C126_accounts_partial.
Print Assumptions C126_default_timing.
Print Assumptions C126_add_transactions_partial.
Print Assumptions C126_undone.
Print Assumptions C126_total_available.
Print Assumptions C126_floats_refuted.
Print Assumptions C126_high_refuted.
Print Assumptions C126_times_refuted.
