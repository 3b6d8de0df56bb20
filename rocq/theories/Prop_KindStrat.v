(** C120: living expenses and asset allocations in high precision. *)
From Verif Require Import Base BaseFacts InflationModel RBase KindModel Prop_Kind KindTaxModel Prop_KindTax KindRegModel Prop_KindReg KindStratModel PersonModel.
From Verif Require RegModel LivingModel StrategyModel ScenarioModel.
From Coq Require Import Lia.
Open Scope Q_scope.

(** ** Specification.  [fits], [proper]: Prop_Kind.v; [convertible], [plain_...]: Prop_KindTax.v and Prop_KindReg.v *)
(** *** Living expenses *)
(** the same without the types *)
Definition plain_lperson (p : klperson) : LivingModel.lperson :=
  {| LivingModel.lp_net := va (kl_net p); LivingModel.lp_gross := va (kl_gross p); LivingModel.lp_net_hist := plain_amounts (kl_net_hist p);
     LivingModel.lp_gross_hist := plain_amounts (kl_gross_hist p); LivingModel.lp_accounts := kl_accounts p |}.
Definition plain_lcall (c : klcall) : LivingModel.lcall :=
  {| LivingModel.c_people := option_map (map plain_lperson) (kc_people c); LivingModel.c_year := kc_year c; LivingModel.c_retire := kc_retire c;
     LivingModel.c_balance := fun a => plain_amounts (kc_balance c a) |}.
(** strategy [s], but with the base amount of [b] and the rate of [r] *)
Definition plain_with (b r s : klparams) : LivingModel.lparams :=
  {| LivingModel.l_kind := kl_kind s; LivingModel.l_base := va (kl_base b); LivingModel.l_rate := va (kl_rate r); LivingModel.l_infl := fun y d => plain_res (kl_infl s y d) |}.
Fixpoint plain_lexp (e : klexp) : LivingModel.lexp :=
  match e with Plain s => LivingModel.Plain (plain_with s s s) | Sched w r m => LivingModel.Sched (plain_lexp w) (plain_lexp r) (option_map plain_lexp m) end.
(** types that go together *)
Definition lparams_fit (hp : bool) (s : klparams) : Prop :=
  convertible hp (kd (kl_base s)) /\ convertible hp (kd (kl_rate s)) /\ forall y d v, kl_infl s y d = Ok v -> fits hp (kd v).
Definition lperson_fits (hp : bool) (p : klperson) : Prop :=
  fits hp (kd (kl_net p)) /\ fits hp (kd (kl_gross p)) /\ amounts_fit hp (kl_net_hist p) /\ amounts_fit hp (kl_gross_hist p).
Definition lcall_fits (hp : bool) (c : klcall) : Prop :=
  (forall l, kc_people c = Some l -> Forall (lperson_fits hp) l) /\ forall a, amounts_fit hp (kc_balance c a).
(** the strategies a schedule is made of *)
Fixpoint strategies (e : klexp) : list klparams :=
  match e with Plain s => [s] | Sched w r m => strategies w ++ strategies r ++ match m with Some m => strategies m | None => [] end end.
(** what a program does with such strategies, and the state of the class afterwards *)
Inductive lop : Type := LBuild | LCall (e : klexp) (c : klcall).
Definition lstep (hp : bool) (st : lcache) (o : lop) : lcache := match o with LBuild => build_living st | LCall e c => snd (expenses hp e c st) end.
Definition lrun (hp : bool) (ops : list lop) : lcache := fold_left (lstep hp) ops no_cache.
Definition called (s : klparams) (ops : list lop) : Prop := exists e c, In (LCall e c) ops /\ In s (strategies e).
Definition op_fits (hp : bool) (o : lop) : Prop := match o with LBuild => True | LCall e c => Forall (lparams_fit hp) (strategies e) /\ lcall_fits hp c end.
(** the same error, or the same number, in a type that fits; if positive, of the high-precision type *)
Definition answers (hp : bool) (r : res qn) (p : res Q) : Prop :=
  match p with Err e => r = Err e | Ok q => exists a, r = Ok a /\ va a == q /\ fits hp (kd a) /\ (hp = true -> 0 < q -> kd a = High) end.

(** *** Asset allocation *)
(** strategy [p], but with the minimum of [mn], the maximum of [mx] and the target of [t] *)
Definition plain_alloc_with (mn mx t p : kaparams) : StrategyModel.aparams :=
  {| StrategyModel.a_target := va (ka_target t); StrategyModel.a_min := va (ka_min mn); StrategyModel.a_max := va (ka_max mx);
     StrategyModel.a_std_age := ka_std_age p; StrategyModel.a_period := ka_period p; StrategyModel.a_adjust := ka_adjust p |}.
Definition plain_name (n : kaname) : StrategyModel.akind := match n with NAge => StrategyModel.NAge | Transition => StrategyModel.Transition end.
Definition aparams_fit (hp : bool) (p : kaparams) : Prop := convertible hp (kd (ka_target p)) /\ convertible hp (kd (ka_min p)) /\ convertible hp (kd (ka_max p)).
Inductive aop : Type := ABuild (p : kaparams) | AAsk (p : kaparams) (birth : date) (retirement_age : option Z) (rs rb ro : Z -> res qn) (year : Z).
Definition astep (hp : bool) (st : acache) (o : aop) : acache :=
  match o with ABuild p => snd (build_allocation hp p st) | AAsk p b r rs rb ro y => snd (rate_function hp p b r rs rb ro y st) end.
Definition arun (hp : bool) (ops : list aop) : acache := fold_left (astep hp) ops no_acache.
Definition used (p : kaparams) (ops : list aop) : Prop := In (ABuild p) ops \/ exists b r rs rb ro y, In (AAsk p b r rs rb ro y) ops.
Definition aop_fits (hp : bool) (o : aop) : Prop :=
  match o with ABuild p => aparams_fit hp p | AAsk p _ _ _ _ _ _ => aparams_fit hp p end.

(** ** Proofs *)
Section Sim.
Context {S : Type} (I : S -> Prop).
Definition sim {A B} (P : A -> B -> Prop) (m : prog S A) (r : res B) : Prop := forall st, I st -> agree P (fst (m st)) r /\ I (snd (m st)).
Lemma sim_ret {A B} (P : A -> B -> Prop) r r' : agree P r r' -> sim P (ret r) r'.
Proof. intros H st K. now split. Qed.
Lemma sim_bind {A B C D} (P : A -> B -> Prop) (T : C -> D -> Prop) (m : prog S A) r k k' :
  sim P m r -> (forall a b, P a b -> sim T (k a) (k' b)) -> sim T (pbind m k) (bind r k').
Proof.
  intros M K st H. destruct (M st H) as [G H']. unfold pbind. destruct (m st) as [[a|e] st']; destruct r as [b|e']; cbn in *; try contradiction; [now apply K|now split].
Qed.
(** a step the plain computation does not have *)
Lemma sim_step {A B C D} (P : A -> B -> Prop) (T : C -> D -> Prop) (m : prog S A) b k r' :
  sim P m (Ok b) -> (forall a, P a b -> sim T (k a) r') -> sim T (pbind m k) r'.
Proof.
  intros M K st H. destruct (M st H) as [G H']. unfold pbind. destruct (m st) as [[a|e] st']; cbn in *; [|contradiction]. now apply K.
Qed.
End Sim.

(** numbers up to == *)
Section Values.
Variable hp : bool.
Definition vf (a : qn) (q : Q) : Prop := va a == q /\ fits hp (kd a).
Definition vp (a : qn) (q : Q) : Prop := va a == q /\ proper hp (kd a).
Lemma vp_vf a q : vp a q -> vf a q. Proof. intros [V P]. split; [exact V|now apply fits_proper]. Qed.
Lemma lift_pp (f : Q -> Q -> Q) (M : Proper (Qeq ==> Qeq ==> Qeq) f) a b x y : vp a x -> vf b y -> agree vp (lift f a b) (Ok (f x y)).
Proof. intros [V A] [W B]. destruct (lift_l f hp a b A B) as (k & E & P). rewrite E. cbn. split; [cbn; now apply M|exact P]. Qed.
Lemma lift_fp (f : Q -> Q -> Q) (M : Proper (Qeq ==> Qeq ==> Qeq) f) a b x y : vf a x -> vp b y -> agree vp (lift f a b) (Ok (f x y)).
Proof. intros [V A] [W B]. destruct (lift_r f hp a b A B) as (k & E & P). rewrite E. cbn. split; [cbn; now apply M|exact P]. Qed.
Lemma lift_ff (f : Q -> Q -> Q) (M : Proper (Qeq ==> Qeq ==> Qeq) f) a b x y : vf a x -> vf b y -> agree vf (lift f a b) (Ok (f x y)).
Proof. intros [V A] [W B]. destruct (lift_fits f hp a b A B) as (k & E & P). rewrite E. cbn. split; [cbn; now apply M|exact P]. Qed.
Lemma div_p a b x y : vp a x -> vf b y -> agree vp (kqdiv a b) (qdiv x y).
Proof.
  intros [V A] [W B]. unfold kqdiv. destruct (mix_l hp _ _ A B) as (k & -> & P). unfold qdiv. assert (E : Qeq_bool (va b) 0 = Qeq_bool y 0) by (destruct (Qeq_bool (va b) 0) eqn:X, (Qeq_bool y 0) eqn:Y; auto; qb; exfalso; rewrite W in *; contradiction).
  rewrite E. destruct (Qeq_bool y 0); cbn; [reflexivity|]. split; [cbn; rewrite V, W; reflexivity|]. cbn. now apply kdiv_kind.
Qed.
Lemma whole_vf q : vf (whole q) q. Proof. split; [reflexivity|apply fits_int]. Qed.
Lemma max_vp a b x y : vp a x -> vp b y -> vp (kmax2 a b) (qmax x y).
Proof.
  intros [V A] [W B]. split; [|cbn; destruct (Qlt_bool _ _); auto]. cbn. unfold qmax. assert (E : forall p q r s, p == q -> r == s -> Qle_bool p r = Qle_bool q s).
  { intros p q r s H1 H2. destruct (Qle_bool p r) eqn:X, (Qle_bool q s) eqn:Y; auto; qb; exfalso; Lqa.lra. }
  rewrite (E _ _ _ _ V W). destruct (Qle_bool x y); assumption.
Qed.
Lemma max_vf a b x y : vf a x -> vf b y -> vf (kmax2 a b) (qmax x y).
Proof.
  intros [V A] [W B]. split; [|cbn; destruct (Qlt_bool _ _); auto]. cbn. unfold qmax. assert (E : forall p q r s, p == q -> r == s -> Qle_bool p r = Qle_bool q s).
  { intros p q r s H1 H2. destruct (Qle_bool p r) eqn:X, (Qle_bool q s) eqn:Y; auto; qb; exfalso; Lqa.lra. }
  rewrite (E _ _ _ _ V W). destruct (Qle_bool x y); assumption.
Qed.
Lemma total_rel l m : Forall2 (agree (nr hp)) l m -> agree vf (total l) (LivingModel.sum_res m).
Proof.
  intros H. unfold total. assert (G : forall s, fits hp (kd s) -> agree (fun a q => va a == va s + q /\ fits hp (kd a)) (ksumM s l) (LivingModel.sum_res m)).
  { induction H as [|r q l m E H IH]; intros s F; cbn; [split; [ring|exact F]|]. destruct r as [v|], q as [w|]; cbn in E; try contradiction; cbn [bind]; [|exact E].
    destruct E as [<- Fv]. destruct (lift_fits Qplus hp s v F Fv) as (k & Es & Fk). unfold qadd. rewrite Es. cbn [bind]. specialize (IH (Num k (va s + va v)) Fk). cbn [va] in IH.
    destruct (ksumM _ l) as [a|], (LivingModel.sum_res m) as [ws|]; cbn in *; auto. destruct IH as [V Fa]. split; [rewrite V; ring|exact Fa]. }
  specialize (G (whole 0) (fits_int hp 0)). destruct (ksumM _ l), (LivingModel.sum_res m); cbn in *; auto. destruct G as [V F]. split; [rewrite V; ring|exact F].
Qed.
Lemma total_ok {A} (f : A -> qn) l : Forall (fun x => fits hp (kd (f x))) l -> agree vf (total (map (fun x => Ok (f x)) l)) (Ok (Qsum (map (fun x => va (f x)) l))).
Proof.
  intros H. assert (E : LivingModel.sum_res (map (fun x => Ok (va (f x))) l) = Ok (Qsum (map (fun x => va (f x)) l))) by (clear; induction l as [|x l IH]; cbn; [reflexivity|]; now rewrite IH).
  rewrite <- E. apply total_rel. clear E. induction H as [|x l E' H IH]; cbn; constructor; [cbn; now split|exact IH].
Qed.
Lemma hist_rel d y : amounts_fit hp d -> agree (nr hp) (khist_get d y) (LivingModel.hist_get (plain_amounts d) y).
Proof. intros H. destruct y as [y|]; cbn; [|reflexivity]. apply zr_get_r. now apply amounts_rel_z. Qed.
End Values.

Lemma read_again hp c0 c own : c = c0 \/ c = snd (read hp c0 own) -> fst (read hp c own) = fst (read hp c0 own) /\ (snd (read hp c own) = c0 \/ snd (read hp c own) = snd (read hp c0 own)).
Proof. intros [-> | ->]; unfold read; destruct hp, c0; cbn; auto. Qed.
(** *** One call *)
Section Living.
Variables (hp : bool) (s : klparams) (st0 : lcache) (b r : qn).
Hypothesis SF : lparams_fit hp s.
(** what [s] reads in state [st0] *)
Hypothesis RB : fst (read hp (lc_base st0) (kl_base s)) = b.
Hypothesis RR : fst (read hp (lc_rate st0) (kl_rate s)) = r.
Hypothesis PB : proper hp (kd b).
Hypothesis PR : proper hp (kd r).
Definition inv (st : lcache) : Prop :=
  (lc_base st = lc_base st0 \/ lc_base st = snd (read hp (lc_base st0) (kl_base s))) /\
  (lc_rate st = lc_rate st0 \/ lc_rate st = snd (read hp (lc_rate st0) (kl_rate s))).
Lemma sim_base : sim inv (vp hp) (base_amount hp s) (Ok (va b)).
Proof.
  intros st [B R]. destruct (read_again hp _ _ _ B) as [E1 E2]. unfold base_amount. destruct (read hp (lc_base st) (kl_base s)) as [v c] eqn:X. cbn [fst snd] in *. rewrite RB in E1. subst v. split; [cbn; now split|]. split; [exact E2|exact R].
Qed.
Lemma sim_rate : sim inv (vp hp) (rate hp s) (Ok (va r)).
Proof.
  intros st [B R]. destruct (read_again hp _ _ _ R) as [E1 E2]. unfold rate. destruct (read hp (lc_rate st) (kl_rate s)) as [v c] eqn:X. cbn [fst snd] in *. rewrite RR in E1. subst v. split; [cbn; now split|]. split; [exact B|exact E2].
Qed.
Definition eff : LivingModel.lparams := {| LivingModel.l_kind := kl_kind s; LivingModel.l_base := va b; LivingModel.l_rate := va r; LivingModel.l_infl := fun y d => plain_res (kl_infl s y d) |}.
Lemma infl_vf y d : agree (vf hp) (kl_infl s y d) (plain_res (kl_infl s y d)).
Proof. destruct SF as (_ & _ & F). specialize (F y d). destruct (kl_infl s y d); cbn; [split; [reflexivity|auto]|reflexivity]. Qed.
Variable c : klcall.
Hypothesis CF : lcall_fits hp c.
Definition people_rel (l : list klperson) (l' : list LivingModel.lperson) : Prop := l' = map plain_lperson l /\ Forall (lperson_fits hp) l.
Lemma people_agree : agree people_rel (kpeople_of c) (LivingModel.people_of (plain_lcall c)).
Proof. unfold kpeople_of, LivingModel.people_of. cbn. destruct CF as [F _]. destruct (kc_people c) as [l|]; cbn; [|reflexivity]. split; [reflexivity|auto]. Qed.
Lemma nets ps : Forall (lperson_fits hp) ps -> agree (vf hp) (total (map (fun p => Ok (kl_net p)) ps)) (Ok (Qsum (map LivingModel.lp_net (map plain_lperson ps)))).
Proof. intros F. rewrite map_map. apply (total_ok hp kl_net). eapply Forall_impl; [|exact F]. intros p (A & _). exact A. Qed.
Lemma grosses ps : Forall (lperson_fits hp) ps -> agree (vf hp) (total (map (fun p => Ok (kl_gross p)) ps)) (Ok (Qsum (map LivingModel.lp_gross (map plain_lperson ps)))).
Proof. intros F. rewrite map_map. apply (total_ok hp kl_gross). eapply Forall_impl; [|exact F]. intros p (_ & A & _). exact A. Qed.
Lemma history_rel l m : Forall2 (agree (nr hp)) l m ->
  sim inv (vp hp) (let! b := ret (total l) in let! r := rate hp s in let! x := ret (qmul r b) in let! i := ret (kl_infl s (kc_year c) (Some (kc_retire c))) in ret (qmul x i))
    (let* b := LivingModel.sum_res m in let* i := plain_res (kl_infl s (kc_year c) (Some (kc_retire c))) in Ok (va r * b * i)).
Proof.
  intros H. eapply sim_bind; [apply sim_ret; apply total_rel; exact H|]. intros t q T. eapply sim_step; [apply sim_rate|]. intros r' R'.
  eapply sim_step; [apply sim_ret; unfold qmul; apply lift_pp; [typeclasses eauto|exact R'|exact T]|]. intros x X. eapply sim_bind; [apply sim_ret; apply infl_vf|]. intros i j J. apply sim_ret. unfold qmul. apply lift_pp; [typeclasses eauto|exact X|exact J].
Qed.
Lemma kind_rel accounts : sim inv (vp hp) (run_kind hp s c accounts) (LivingModel.run_kind eff (plain_lcall c) accounts).
Proof.
  unfold run_kind, LivingModel.run_kind. cbn [eff LivingModel.l_kind LivingModel.l_base LivingModel.l_rate LivingModel.l_infl]. cbn [plain_lcall LivingModel.c_year LivingModel.c_retire LivingModel.c_balance].
  destruct (kl_kind s).
  - eapply sim_bind; [apply sim_ret, people_agree|]. intros ps ps' [-> F]. eapply sim_step; [apply sim_ret, nets, F|]. intros t T. eapply sim_step; [apply sim_base|]. intros b' B.
    eapply sim_bind; [apply sim_ret, infl_vf|]. intros i j J. eapply sim_step; [apply sim_ret; unfold qmul; apply lift_pp; [typeclasses eauto|exact B|exact J]|]. intros x X. apply sim_ret. unfold qsub. apply lift_fp; [typeclasses eauto|exact T|exact X].
  - eapply sim_step; [apply sim_base|]. intros b' B. eapply sim_bind; [apply sim_ret, infl_vf|]. intros i j J. apply sim_ret. unfold qmul. apply lift_pp; [typeclasses eauto|exact B|exact J].
  - eapply sim_step; [apply sim_rate|]. intros r' R. eapply sim_bind; [apply sim_ret, people_agree|]. intros ps ps' [-> F]. eapply sim_step; [apply sim_ret, nets, F|]. intros t T. apply sim_ret. unfold qmul. apply lift_pp; [typeclasses eauto|exact R|exact T].
  - eapply sim_step; [apply sim_rate|]. intros r' R. eapply sim_bind; [apply sim_ret, people_agree|]. intros ps ps' [-> F]. eapply sim_step; [apply sim_ret, grosses, F|]. intros t T. apply sim_ret. unfold qmul. apply lift_pp; [typeclasses eauto|exact R|exact T].
  - eapply sim_step; [apply sim_base|]. intros b' B. eapply sim_bind; [apply sim_ret, infl_vf|]. intros i j J. eapply sim_step; [apply sim_ret; unfold qmul; apply lift_pp; [typeclasses eauto|exact B|exact J]|]. intros x X.
    eapply sim_bind; [apply sim_ret, people_agree|]. intros ps ps' [-> F]. eapply sim_step; [apply sim_ret, nets, F|]. intros t T. eapply sim_step; [apply sim_ret; unfold qsub; apply lift_fp; [typeclasses eauto|exact T|exact X]|]. intros d D.
    eapply sim_step; [apply sim_rate|]. intros r' R. eapply sim_step; [apply sim_ret; unfold qmul; apply lift_pp; [typeclasses eauto|exact D|exact (vp_vf hp _ _ R)]|]. intros y Y. apply sim_ret. unfold qadd. apply lift_pp; [typeclasses eauto|exact X|exact (vp_vf hp _ _ Y)].
  - destruct accounts as [l|]; [|apply sim_ret; reflexivity]. apply history_rel. destruct CF as [_ F]. induction l as [|a l IH]; cbn; constructor; [|exact IH]. apply hist_rel, F.
  - eapply sim_bind; [apply sim_ret, people_agree|]. intros ps ps' [-> F]. apply history_rel. rewrite map_map. induction F as [|p ps (_ & _ & A & _) F IH]; cbn; constructor; [|exact IH]. now apply hist_rel.
  - eapply sim_bind; [apply sim_ret, people_agree|]. intros ps ps' [-> F]. apply history_rel. rewrite map_map. induction F as [|p ps (_ & _ & _ & A) F IH]; cbn; constructor; [|exact IH]. now apply hist_rel.
Qed.
(** a living expense *)
Definition lr (a : qn) (q : Q) : Prop := va a == q /\ fits hp (kd a) /\ (hp = true -> 0 < q -> kd a = High).
Lemma call_rel : sim inv lr (living_call hp s c) (LivingModel.living_call eff (plain_lcall c)).
Proof.
  unfold living_call, LivingModel.living_call. eapply sim_bind with (P := eq).
  - apply sim_ret. cbn [plain_lcall LivingModel.c_people]. destruct (kc_people c) as [[|p l]|]; cbn; try reflexivity. rewrite map_map. reflexivity.
  - intros ac ac' <-. eapply sim_bind; [apply kind_rel|]. intros v q V. apply sim_ret. cbn. destruct (max_vf hp v (whole 0) q 0 (vp_vf hp _ _ V) (whole_vf hp 0)) as [W F]. split; [exact W|]. split; [exact F|]. intros Hh G. cbn [kmax2 kd whole].
    destruct V as [V P]. destruct (Qlt_bool (va v) (va (whole 0))) eqn:X; [exfalso|rewrite Hh in P; exact P]. qb. cbn in X. rewrite V in X. revert G. unfold qmax. destruct (Qle_bool q 0) eqn:Y; qb; Lqa.lra.
Qed.
End Living.

(** *** Histories *)
Section Histories.
Variables (hp : bool) (Q0 : klparams -> Prop).
Hypothesis QF : forall s, Q0 s -> lparams_fit hp s.
(** the caches hold amounts of strategies in [Q0] *)
Definition known (st : lcache) : Prop :=
  (forall v, lc_base st = Some v -> exists s, Q0 s /\ v = conv hp (kl_base s)) /\ (forall v, lc_rate st = Some v -> exists s, Q0 s /\ v = conv hp (kl_rate s)).
Lemma known_read st s : known st -> Q0 s -> exists b r, Q0 b /\ Q0 r /\ (hp = false -> b = s /\ r = s) /\
  fst (read hp (lc_base st) (kl_base s)) = conv hp (kl_base b) /\ fst (read hp (lc_rate st) (kl_rate s)) = conv hp (kl_rate r).
Proof.
  intros [KB KR] Hs.
  assert (B : exists b, Q0 b /\ (hp = false -> b = s) /\ fst (read hp (lc_base st) (kl_base s)) = conv hp (kl_base b)).
  { unfold read. destruct hp; [|exists s; auto]. destruct (lc_base st) as [v|]; [|exists s; repeat split; auto; discriminate]. destruct (KB v eq_refl) as (b & Hb & ->). exists b. repeat split; auto. discriminate. }
  assert (R : exists b, Q0 b /\ (hp = false -> b = s) /\ fst (read hp (lc_rate st) (kl_rate s)) = conv hp (kl_rate b)).
  { unfold read. destruct hp; [|exists s; auto]. destruct (lc_rate st) as [v|]; [|exists s; repeat split; auto; discriminate]. destruct (KR v eq_refl) as (b & Hb & ->). exists b. repeat split; auto. discriminate. }
  destruct B as (b & B1 & B2 & B3), R as (r & R1 & R2 & R3). exists b, r. repeat split; auto.
Qed.
Lemma known_inv st0 s st : known st0 -> Q0 s -> inv hp s st0 st -> known st.
Proof.
  intros [KB KR] Hs [B R]. split; intros v E.
  - destruct B as [B | B]; rewrite B in E; [auto|]. revert E. unfold read. destruct hp; cbn [snd]; [|auto]. destruct (lc_base st0) eqn:X; cbn [snd]; intros E; [apply KB; congruence|injection E as <-; eauto].
  - destruct R as [R | R]; rewrite R in E; [auto|]. revert E. unfold read. destruct hp; cbn [snd]; [|auto]. destruct (lc_rate st0) eqn:X; cbn [snd]; intros E; [apply KR; congruence|injection E as <-; eauto].
Qed.
Lemma call_known s c st : known st -> Q0 s -> lcall_fits hp c -> exists b r, Q0 b /\ Q0 r /\ (hp = false -> b = s /\ r = s) /\
  agree (lr hp) (fst (living_call hp s c st)) (LivingModel.living_call (plain_with b r s) (plain_lcall c)) /\ known (snd (living_call hp s c st)).
Proof.
  intros K Hs CF. destruct (known_read st s K Hs) as (b & r & Hb & Hr & HF & EB & ER). exists b, r. split; [exact Hb|]. split; [exact Hr|]. split; [exact HF|].
  destruct (QF b Hb) as (Fb & _ & _), (QF r Hr) as (_ & Fr & _).
  destruct (call_rel hp s st _ _ (QF s Hs) EB ER (conv_fits hp _ Fb) (conv_fits hp _ Fr) c CF st) as [G H]; [split; now left|].
  split; [|exact (known_inv st s _ K Hs H)]. unfold eff in G. rewrite !conv_va in G. exact G.
Qed.
(** induction over schedules *)
Fixpoint schedule_ind (P : klexp -> Prop) (HP : forall s, P (Plain s)) (HS : forall w r m, P w -> P r -> (forall e, m = Some e -> P e) -> P (Sched w r m)) (e : klexp) : P e :=
  match e with
  | Plain s => HP s
  | Sched w r m => HS w r m (schedule_ind P HP HS w) (schedule_ind P HP HS r)
      (match m return (forall e, m = Some e -> P e) with
       | Some e0 => fun e E => match E in (_ = o) return (match o with Some e => P e | None => True end) with eq_refl => schedule_ind P HP HS e0 end
       | None => fun e E => match E in (_ = o) return (match o with Some e => P e | None => True end) with eq_refl => Logic.I end
       end)
  end.
Lemma expenses_known e : (forall s, In s (strategies e) -> Q0 s) -> forall c st, known st -> lcall_fits hp c -> known (snd (expenses hp e c st)).
Proof.
  induction e as [s|w r m IHw IHr IHm] using schedule_ind; intros HS c st K CF; cbn [expenses].
  - destruct (call_known s c st K (HS s (or_introl eq_refl)) CF) as (? & ? & _ & _ & _ & _ & H). exact H.
  - assert (X : known (snd ((if kretired c then expenses hp r c else expenses hp w c) st))).
    { destruct (kretired c); [apply IHr|apply IHw]; auto; intros s I; apply HS; cbn; rewrite !in_app_iff; auto. }
    unfold pbind. destruct ((if kretired c then expenses hp r c else expenses hp w c) st) as [[v|er] st']; cbn [snd] in X; [|exact X].
    destruct m as [m|]; [|exact X]. specialize (IHm m eq_refl (fun s I => HS s ltac:(cbn; rewrite !in_app_iff; auto)) c st' X CF). destruct (expenses hp m c st') as [[lo|er] st'']; exact IHm.
Qed.
Variables (B R : Q).
Hypothesis UN : hp = false \/ forall s, Q0 s -> va (kl_base s) = B /\ va (kl_rate s) = R.
Lemma lr_max a b x y : lr hp a x -> lr hp b y -> lr hp (kmax2 a b) (qmax x y).
Proof.
  intros (V & F & H) (W & G & H'). destruct (max_vf hp a b x y (conj V F) (conj W G)) as [M N]. split; [exact M|]. split; [exact N|]. intros Hh P. cbn [kmax2 kd].
  destruct (Qlt_bool (va a) (va b)) eqn:X; [apply H'|apply H]; auto; unfold qmax in P; destruct (Qle_bool x y) eqn:Y; qb; Lqa.lra.
Qed.
Lemma uniform_rel e : (forall s, In s (strategies e) -> Q0 s) -> forall c, lcall_fits hp c -> sim known (lr hp) (expenses hp e c) (LivingModel.expenses (plain_lexp e) (plain_lcall c)).
Proof.
  induction e as [s|w r m IHw IHr IHm] using schedule_ind; intros HS c CF; cbn [expenses plain_lexp LivingModel.expenses].
  - intros st K. pose proof (HS s (or_introl eq_refl)) as Hs. destruct (call_known s c st K Hs CF) as (b & r & Hb & Hr & HF & G & H). split; [|exact H].
    assert (E : plain_with s s s = plain_with b r s); [|rewrite E; exact G]. unfold plain_with. destruct UN as [U | U]; [destruct (HF U) as [-> ->]; reflexivity|]. destruct (U s Hs) as [-> ->], (U b Hb) as [-> _], (U r Hr) as [_ ->]. reflexivity.
  - eapply sim_bind with (P := lr hp).
    + replace (LivingModel.retired (plain_lcall c)) with (kretired c) by reflexivity. destruct (kretired c); [apply IHr|apply IHw]; auto; intros s I; apply HS; cbn; rewrite !in_app_iff; auto.
    + intros v q V. destruct m as [m|]; cbn [option_map]; [|apply sim_ret; exact V]. eapply sim_bind; [apply (IHm m eq_refl); auto; intros s I; apply HS; cbn; rewrite !in_app_iff; auto|]. intros lo l L. apply sim_ret. cbn. now apply lr_max.
Qed.
End Histories.
Lemma known_run hp (Q0 : klparams -> Prop) ops : (forall s, Q0 s -> lparams_fit hp s) -> Forall (op_fits hp) ops -> (forall s, called s ops -> Q0 s) -> known hp Q0 (lrun hp ops).
Proof.
  intros QF F C. unfold lrun. assert (N : known hp Q0 no_cache) by (split; discriminate). revert N. generalize no_cache. induction F as [|o ops Fo F IH]; intros st K; cbn; [exact K|]. apply IH.
  - intros s (e & c & I & J). apply C. exists e, c. split; [now right|exact J].
  - destruct o as [|e c]; cbn; [split; discriminate|]. destruct Fo as [_ CF]. apply expenses_known; auto. intros s I. apply C. exists e, c. split; [now left|exact I].
Qed.
Lemma called_fit hp ops : Forall (op_fits hp) ops -> forall s, called s ops -> lparams_fit hp s.
Proof. intros F s (e & c & I & J). rewrite Forall_forall in F. destruct (F _ I) as [G _]. rewrite Forall_forall in G. auto. Qed.
Lemma lr_answers hp r p : agree (lr hp) r p -> answers hp r p.
Proof. unfold answers. destruct r as [a|e], p as [q|e']; cbn; try tauto; [|now intros ->]. intros (V & F & H). eauto. Qed.

(** In any program, a strategy answers as it would without the types - but with the base amount of one strategy that was called (or its
    own) and the rate of one that was called (or its own); without high_precision always its own. *)
Theorem C120_whose_amounts_partial : forall hp ops s c, Forall (op_fits hp) ops -> lparams_fit hp s -> lcall_fits hp c ->
  exists b r, (b = s \/ called b ops) /\ (r = s \/ called r ops) /\ (hp = false -> b = s /\ r = s) /\
    answers hp (fst (living_call hp s c (lrun hp ops))) (LivingModel.living_call (plain_with b r s) (plain_lcall c)).
Proof.
  intros hp ops s c F SF CF. set (Q0 := fun x => x = s \/ called x ops).
  assert (QF : forall x, Q0 x -> lparams_fit hp x) by (intros x [-> | H]; [exact SF|eapply called_fit; eauto]).
  destruct (call_known hp Q0 QF s c (lrun hp ops)) as (b & r & Hb & Hr & HF & G & _); [|now left|exact CF|].
  - apply known_run; auto. intros x H. now right.
  - exists b, r. split; [exact Hb|]. split; [exact Hr|]. split; [exact HF|]. now apply lr_answers.
Qed.
Print Assumptions C120_whose_amounts_partial.
(** So a schedule whose strategies, and those called before, all have the same amounts - or any, without high_precision - always answers as
    it would without the types. *)
Theorem C120_same_amounts_partial : forall hp ops e c, Forall (op_fits hp) ops -> op_fits hp (LCall e c) ->
  (hp = false \/ forall s s', In s (strategies e) -> In s' (strategies e) \/ called s' ops -> va (kl_base s') = va (kl_base s) /\ va (kl_rate s') = va (kl_rate s)) ->
  answers hp (fst (expenses hp e c (lrun hp ops))) (LivingModel.expenses (plain_lexp e) (plain_lcall c)).
Proof.
  intros hp ops e c F [EF CF] U. set (Q0 := fun x => In x (strategies e) \/ called x ops).
  assert (QF : forall x, Q0 x -> lparams_fit hp x) by (intros x [H | H]; [rewrite Forall_forall in EF; auto|eapply called_fit; eauto]).
  assert (K : known hp Q0 (lrun hp ops)) by (apply known_run; auto; intros x H; now right).
  assert (N : exists s, In s (strategies e)) by (clear; induction e as [s|w r m (s & I) _ _] using schedule_ind; [exists s; now left|exists s; cbn; rewrite !in_app_iff; auto]). destruct N as (s & I).
  apply lr_answers. refine (proj1 (uniform_rel hp Q0 QF (va (kl_base s)) (va (kl_rate s)) _ e (fun x H => or_introl H) c CF _ K)).
  destruct U as [U | U]; [now left|right]. intros x H. exact (U s x I H).
Qed.
Print Assumptions C120_same_amounts_partial.
(** Otherwise not: a schedule of constant expenses spends the working years' amount in retirement. *)
Theorem C120_retirement_refuted : forall w r c1 c2 i1 i2,
  kl_kind w = LivingModel.ConstExpenses -> kl_kind r = LivingModel.ConstExpenses -> lcall_fits true c1 -> kc_people c1 <> Some [] -> kc_people c2 <> Some [] ->
  kretired c1 = false -> kretired c2 = true -> kl_infl w (kc_year c1) None = Ok i1 -> kl_infl r (kc_year c2) None = Ok i2 -> kd i2 <> Float ->
  exists v, fst (expenses true (Sched (Plain w) (Plain r) None) c2 (lrun true [LBuild; LBuild; LCall (Sched (Plain w) (Plain r) None) c1])) = Ok v /\
    va v == qmax (va (kl_base w) * va i2) 0.
Proof.
  intros w r c1 c2 i1 i2 Kw Kr CF N1 N2 R1 R2 E1 E2 F2.
  assert (X : forall st, lc_base (snd (expenses true (Sched (Plain w) (Plain r) None) c1 st)) = match lc_base st with Some v => Some v | None => Some (conv true (kl_base w)) end).
  { intros st. cbn [expenses]. rewrite R1. unfold living_call, run_kind. rewrite Kw. unfold pbind, ret, base_amount, read. rewrite E1. destruct (kc_people c1) as [[|p l]|]; [contradiction| |]; destruct (lc_base st); cbn [fst snd lc_base]; destruct (qmul _ _); reflexivity. }
  unfold lrun. cbn [fold_left lstep]. set (st := snd (expenses true (Sched (Plain w) (Plain r) None) c1 (build_living (build_living no_cache)))). assert (B : lc_base st = Some (conv true (kl_base w))) by (unfold st; rewrite X; reflexivity). clearbody st.
  cbn [expenses]. rewrite R2. unfold living_call, run_kind. rewrite Kr. unfold pbind, ret, base_amount, read. rewrite B, E2.
  assert (M : qmul (conv true (kl_base w)) i2 = Ok (Num High (va (kl_base w) * va i2))) by (unfold qmul, lift; cbn [conv kd va]; destruct (kd i2); try contradiction; reflexivity).
  destruct (kc_people c2) as [[|p l]|]; [contradiction| |]; cbn [fst snd]; rewrite M; eexists; (split; [reflexivity|]); cbn; reflexivity.
Qed.
Print Assumptions C120_retirement_refuted.
(** Inflation in floats: no constant amount can be adjusted. *)
Theorem C120_float_inflation_refuted : forall ops s c i, Forall (op_fits true) ops -> kl_kind s = LivingModel.ConstExpenses -> kc_people c <> Some [] ->
  kl_infl s (kc_year c) None = Ok i -> kd i = Float -> fst (living_call true s c (lrun true ops)) = Err TypeError.
Proof.
  intros ops s c i OF K N E F. destruct (known_run true (fun x => called x ops) ops) as [KB _]; auto; [intros x H; eapply called_fit; eauto|]. set (st := lrun true ops) in *. clearbody st.
  unfold living_call, run_kind. rewrite K. unfold pbind, ret, base_amount, read. rewrite E.
  assert (H : forall v, lc_base st = Some v -> kd v = High) by (intros v X; destruct (KB v X) as (s' & _ & ->); reflexivity).
  destruct (kc_people c) as [[|p l]|]; [contradiction| |]; destruct (lc_base st) as [v|]; cbn [fst snd]; unfold qmul, lift; rewrite F; try rewrite (H v eq_refl); reflexivity.
Qed.
Print Assumptions C120_float_inflation_refuted.

(** *** Sharing living expenses *)
Lemma div_list hp t (y : Q) l : vf hp t y -> ~ y == 0 -> Forall (fun n : qn => proper hp (kd n)) l ->
  exists ws, mapM (fun n => kqdiv n t) l = Ok ws /\ Forall2 (fun n w => vp hp w (va n / y)) l ws.
Proof.
  intros T NZ F. induction F as [|n l P F (ws & E & G)]; cbn [mapM]; [exists []; split; [reflexivity|constructor]|].
  pose proof (div_p hp n t (va n) y (conj (Qeq_refl _) P) T) as D. unfold qdiv in D. destruct (Qeq_bool y 0) eqn:Z; [apply Qeq_bool_iff in Z; contradiction|]. destruct (kqdiv n t) as [w|]; cbn in D; [|contradiction]. cbn [bind]. rewrite E. cbn [bind]. eexists. split; [reflexivity|]. constructor; assumption.
Qed.
(** Each person pays for the living expenses in proportion to their net income, the payments add up to the expenses, and are of the
    high-precision type, if the incomes are. *)
Theorem C120_shares_partial : forall hp expense nets, Forall (fun n : qn => proper hp (kd n)) nets -> fits hp (kd expense) -> ~ Qsum (map va nets) == 0 ->
  exists l, shares expense nets = Ok l /\ Forall2 (fun n x => va x == va expense * va n / Qsum (map va nets) /\ proper hp (kd x)) nets l /\ Qsum (map va l) == va expense.
Proof.
  intros hp e nets F FE NZ. unfold shares. pose proof (total_ok hp (fun n : qn => n) nets) as T. cbn beta in T. assert (F' : Forall (fun x : qn => fits hp (kd x)) nets) by (eapply Forall_impl; [|exact F]; intros n; apply fits_proper). specialize (T F').
  destruct (total _) as [t|]; cbn in T; [|contradiction]. cbn [bind]. assert (T' : vf hp t (Qsum (map va nets))) by exact T. destruct (div_list hp t _ nets T' NZ F) as (ws & -> & G). cbn [bind]. clear F F' T T'.
  set (y := Qsum (map va nets)) in *. assert (Y : exists z, y == z /\ ~ z == 0 /\ exists l, mapM (fun w => qmul e w) ws = Ok l /\ Forall2 (fun n x => va x == va e * va n / y /\ proper hp (kd x)) nets l /\ Qsum (map va l) == va e * (Qsum (map va nets) / z)).
  { exists y. split; [reflexivity|]. split; [exact NZ|]. clearbody y. induction G as [|n w ns ws W G (l & E & L & S)]; cbn [mapM]; [exists []; split; [reflexivity|]; split; [constructor|]; cbn; field; exact NZ|].
    pose proof (lift_fp hp Qmult ltac:(typeclasses eauto) e w _ _ (conj (Qeq_refl _) FE) W) as M. unfold qmul at 1. destruct (lift Qmult e w) as [x|]; cbn in M; [|contradiction]. cbn [bind]. rewrite E. cbn [bind]. eexists. split; [reflexivity|]. destruct M as [V P].
    split; [constructor; [split; [rewrite V; unfold Qdiv; ring|exact P]|exact L]|]. cbn. rewrite S, V. unfold Qdiv. ring. }
  destruct Y as (z & Ez & Nz & l & E & L & S). exists l. split; [exact E|]. split; [exact L|]. rewrite S. fold y. rewrite Ez. field. exact Nz.
Qed.
Print Assumptions C120_shares_partial.
(** With incomes in whole numbers nobody can pay for expenses in high precision. *)
Theorem C120_whole_incomes_refuted : forall expense n nets, Forall (fun n : qn => kd n = Int) (n :: nets) -> kd expense = High -> ~ Qsum (map va (n :: nets)) == 0 ->
  shares expense (n :: nets) = Err TypeError.
Proof.
  intros e n nets F K NZ. unfold shares. assert (T : exists t, total (map (fun n => Ok n) (n :: nets)) = Ok t /\ kd t = Int /\ va t == Qsum (map va (n :: nets))).
  { unfold total. assert (G : forall l : list qn, Forall (fun n : qn => kd n = Int) l -> forall s, kd s = Int -> exists t, ksumM s (map (fun n => Ok n) l) = Ok t /\ kd t = Int /\ va t == va s + Qsum (map va l)).
    { induction l as [|x l IH]; intros Fl s Ks; cbn; [exists s; repeat split; [exact Ks|ring]|]. inversion Fl; subst. unfold qadd, lift. match goal with H : kd x = Int |- _ => rewrite H end. rewrite Ks. cbn. destruct (IH ltac:(assumption) (Num Int (va s + va x)) eq_refl) as (t & E & Kt & Vt). exists t. split; [exact E|]. split; [exact Kt|]. rewrite Vt. cbn. ring. }
    destruct (G _ F (whole 0) eq_refl) as (t & E & Kt & Vt). exists t. split; [exact E|]. split; [exact Kt|]. rewrite Vt. cbn. ring. }
  destruct T as (t & -> & Kt & Vt). cbn [bind].
  assert (D : forall x : qn, kd x = Int -> kqdiv x t = Ok (Num Float (va x / va t))).
  { intros x Kx. unfold kqdiv, qdiv. rewrite Kx, Kt. cbn. destruct (Qeq_bool (va t) 0) eqn:Z; [exfalso; qb; apply NZ; now rewrite <- Vt|reflexivity]. }
  assert (M : exists ws, mapM (fun n => kqdiv n t) (n :: nets) = Ok (Num Float (va n / va t) :: ws)).
  { inversion F as [|? ? Kn Fn]; subst. cbn [mapM]. rewrite (D n Kn). cbn [bind]. assert (X : exists ws, mapM (fun n => kqdiv n t) nets = Ok ws) by (clear - D Fn; induction Fn as [|x l Kx Fl (ws & E)]; cbn [mapM]; [eauto|]; rewrite (D x Kx), E; cbn; eauto). destruct X as (ws & ->). cbn. eauto. }
  destruct M as (ws & ->). cbn [bind mapM]. unfold qmul at 1, lift. rewrite K. reflexivity.
Qed.
Print Assumptions C120_whole_incomes_refuted.

(** *** Asset allocation *)
Lemma inject_Z_minus_q a b : inject_Z (a - b) = inject_Z a - inject_Z b.
Proof. unfold Z.sub, Qminus. now rewrite inject_Z_plus, inject_Z_opp. Qed.
Section Alloc.
Variables (hp : bool) (p : kaparams) (st0 : acache) (mn mx t : qn).
Hypothesis RN : fst (read hp (ac_min st0) (ka_min p)) = mn.
Hypothesis RX : fst (read hp (ac_max st0) (ka_max p)) = mx.
Hypothesis RT : fst (read hp (ac_target st0) (ka_target p)) = t.
Hypothesis PN : proper hp (kd mn).
Hypothesis PX : proper hp (kd mx).
Hypothesis PT : proper hp (kd t).
Definition ainv (st : acache) : Prop :=
  (ac_min st = ac_min st0 \/ ac_min st = snd (read hp (ac_min st0) (ka_min p))) /\
  (ac_max st = ac_max st0 \/ ac_max st = snd (read hp (ac_max st0) (ka_max p))) /\
  (ac_target st = ac_target st0 \/ ac_target st = snd (read hp (ac_target st0) (ka_target p))).
Lemma sim_min : sim ainv (pn hp) (min_equity hp p) (Ok (va mn)).
Proof.
  intros st (A & B & C). destruct (read_again hp _ _ _ A) as [E1 E2]. unfold min_equity. destruct (read hp (ac_min st) (ka_min p)) as [v c] eqn:X. cbn [fst snd] in *. rewrite RN in E1. subst v. split; [cbn; now split|]. repeat split; assumption.
Qed.
Lemma sim_max : sim ainv (pn hp) (max_equity hp p) (Ok (va mx)).
Proof.
  intros st (A & B & C). destruct (read_again hp _ _ _ B) as [E1 E2]. unfold max_equity. destruct (read hp (ac_max st) (ka_max p)) as [v c] eqn:X. cbn [fst snd] in *. rewrite RX in E1. subst v. split; [cbn; now split|]. repeat split; assumption.
Qed.
Lemma sim_target : sim ainv (pn hp) (target hp p) (Ok (va t)).
Proof.
  intros st (A & B & C). destruct (read_again hp _ _ _ C) as [E1 E2]. unfold target. destruct (read hp (ac_target st) (ka_target p)) as [v c] eqn:X. cbn [fst snd] in *. rewrite RT in E1. subst v. split; [cbn; now split|]. repeat split; assumption.
Qed.
Definition aeff : StrategyModel.aparams :=
  {| StrategyModel.a_target := va t; StrategyModel.a_min := va mn; StrategyModel.a_max := va mx; StrategyModel.a_std_age := ka_std_age p; StrategyModel.a_period := ka_period p; StrategyModel.a_adjust := ka_adjust p |}.
(** allocations: stocks and bonds are proper *)
Definition ar (a : kalloc) (q : StrategyModel.alloc) : Prop :=
  pn hp (k_stocks a) (StrategyModel.stocks q) /\ pn hp (k_bonds a) (StrategyModel.bonds q) /\ nr hp (k_other a) (StrategyModel.other q).
Lemma div_pn a b x y : pn hp a x -> nr hp b y -> agree (pn hp) (kqdiv a b) (qdiv x y).
Proof.
  intros [<- A] [<- B]. unfold kqdiv. destruct (mix_l hp _ _ A B) as (k & -> & P). unfold qdiv. destruct (Qeq_bool (va b) 0); cbn; [reflexivity|]. split; [reflexivity|]. cbn. now apply kdiv_kind.
Qed.
Lemma whole_nr q : nr hp (whole q) q. Proof. split; [reflexivity|apply fits_int]. Qed.
Lemma finish x q : pn hp x q -> sim ainv ar (let! b := ret (qsub (whole 1) x) in ret (Ok {| k_stocks := x; k_bonds := b; k_other := whole 0 |})) (Ok {| StrategyModel.stocks := q; StrategyModel.bonds := 1 - q; StrategyModel.other := 0 |}).
Proof.
  intros P. eapply sim_step; [apply sim_ret; unfold qsub; apply (pn_r Qminus hp (whole 1) x 1 q (whole_nr 1) P)|]. intros b B. apply sim_ret. cbn. split; [exact P|]. split; [exact B|]. apply whole_nr.
Qed.
Lemma nage_rel age ra : sim ainv ar (n_minus_age hp p age ra) (StrategyModel.n_minus_age aeff (inject_Z age) (option_map inject_Z ra)).
Proof.
  unfold n_minus_age, StrategyModel.n_minus_age. cbn [aeff StrategyModel.a_adjust StrategyModel.a_std_age StrategyModel.a_target].
  eapply sim_bind with (P := fun z q => inject_Z z = q).
  { apply sim_ret. destruct (ka_adjust p); [|reflexivity]. destruct ra as [r|]; cbn; [|reflexivity]. unfold Z.sub. rewrite !inject_Z_plus, inject_Z_opp. reflexivity. }
  intros z q <-. eapply sim_step; [apply sim_target|]. intros t' T. eapply sim_step; [apply sim_ret; unfold qsub; apply (pn_l Qminus hp t' _ _ _ T (whole_nr (inject_Z z)))|]. intros d D.
  eapply sim_step; [apply sim_ret; pose proof (div_pn d (whole 100) _ _ D (whole_nr 100)) as X; unfold qdiv in X; cbn in X; exact X|]. intros x X. apply finish. exact X.
Qed.
Lemma transition_rel age ra : sim ainv ar (transition_to_const hp p age ra) (StrategyModel.transition_to_const aeff (inject_Z age) (option_map inject_Z ra)).
Proof.
  unfold transition_to_const, StrategyModel.transition_to_const. cbn [aeff StrategyModel.a_adjust StrategyModel.a_std_age StrategyModel.a_target StrategyModel.a_max StrategyModel.a_min StrategyModel.a_period].
  eapply sim_bind with (P := fun z q => inject_Z z = q).
  { apply sim_ret. destruct (ka_adjust p); [|reflexivity]. destruct ra as [r|]; reflexivity. }
  intros r q <-. assert (L1 : Z.leb age (r - ka_period p) = Qle_bool (inject_Z age) (inject_Z r - inject_Z (ka_period p))).
  { unfold Qminus. rewrite <- inject_Z_opp, <- inject_Z_plus. destruct (Z.leb age (r - ka_period p)) eqn:X; symmetry; [apply Qle_bool_iff; rewrite <- Zle_Qle; apply Z.leb_le in X; lia|]. destruct (Qle_bool _ _) eqn:Y; [|reflexivity]. apply Qle_bool_iff in Y. rewrite <- Zle_Qle in Y. apply Z.leb_gt in X. lia. }
  assert (L2 : Z.leb r age = Qle_bool (inject_Z r) (inject_Z age)).
  { destruct (Z.leb r age) eqn:X; symmetry; [apply Qle_bool_iff; rewrite <- Zle_Qle; apply Z.leb_le in X; lia|]. destruct (Qle_bool (inject_Z r) (inject_Z age)) eqn:Y; [|reflexivity]. apply Qle_bool_iff in Y. rewrite <- Zle_Qle in Y. apply Z.leb_gt in X. lia. }
  rewrite <- L1, <- L2. destruct (Z.leb age (r - ka_period p)).
  - eapply sim_step; [apply sim_max|]. intros x X. eapply sim_step; [apply sim_max|]. intros y Y. eapply sim_step; [apply sim_ret; unfold qsub; apply (pn_r Qminus hp (whole 1) y 1 _ (whole_nr 1) Y)|]. intros b B. apply sim_ret. cbn. split; [exact X|]. split; [exact B|]. apply whole_nr.
  - destruct (Z.leb r age).
    + eapply sim_step; [apply sim_min|]. intros x X. eapply sim_step; [apply sim_target|]. intros y Y. apply finish. now apply pn_max.
    + eapply sim_step; [apply sim_target|]. intros x X. eapply sim_step; [apply sim_max|]. intros y Y. eapply sim_step; [apply sim_target|]. intros z Z. eapply sim_step; [apply sim_ret; unfold qsub; apply (pn_l Qminus hp y z _ _ Y (pn_nr hp _ _ Z))|]. intros d D.
      eapply sim_step; [apply sim_ret; unfold qmul; apply (pn_l Qmult hp d _ _ _ D (whole_nr (inject_Z (r - age))))|]. intros m M. rewrite inject_Z_minus_q in M.
      eapply sim_bind; [apply sim_ret; apply (div_pn m _ _ _ M (whole_nr (inject_Z (ka_period p))))|]. intros v q V. eapply sim_step; [apply sim_ret; unfold qadd; apply (pn_l Qplus hp x v _ _ X (pn_nr hp _ _ V))|]. intros w W. apply finish. exact W.
Qed.
Lemma portion_rel d part b o x y u w : pn hp d x -> nr hp part y -> pn hp b u -> nr hp o w -> agree (pn hp) (portion d part b o) (qdiv (x * y) (u + w)).
Proof.
  intros D P B O. unfold portion. pose proof (pn_l Qmult hp d part _ _ D P) as M. unfold qmul. destruct (lift Qmult d part) as [m|]; cbn in M; [|contradiction]. cbn [bind].
  pose proof (pn_l Qplus hp b o _ _ B O) as T. unfold qadd. destruct (lift Qplus b o) as [s|]; cbn in T; [|contradiction]. cbn [bind]. apply div_pn; [exact M|now apply pn_nr].
Qed.
Lemma balance_rel a q : ar a q -> sim ainv ar (balance hp p a) (StrategyModel.balance aeff q).
Proof.
  intros (S & B & O). unfold balance, StrategyModel.balance. cbn [aeff StrategyModel.a_max StrategyModel.a_min]. eapply sim_step; [apply sim_max|]. intros x X. pose proof (proj1 X) as X1. pose proof (proj1 S) as S1. rewrite X1, S1.
  destruct (Qlt_bool (va mx) (StrategyModel.stocks q)).
  - eapply sim_step; [apply sim_ret; unfold qsub; apply (pn_l Qminus hp _ _ _ _ S (pn_nr hp _ _ X))|]. intros d D. eapply sim_bind; [apply sim_ret; apply (portion_rel _ _ _ _ _ _ _ _ D (pn_nr hp _ _ B) B O)|]. intros b b' Hb. eapply sim_step; [apply sim_ret; unfold qadd; apply (pn_l Qplus hp _ _ _ _ B (pn_nr hp _ _ Hb))|]. intros b2 B2.
    eapply sim_step; [apply sim_ret; unfold qsub; apply (pn_l Qminus hp _ _ _ _ S (pn_nr hp _ _ X))|]. intros d2 D2. eapply sim_bind; [apply sim_ret; apply (portion_rel _ _ _ _ _ _ _ _ D2 O B O)|]. intros o o' Ho. eapply sim_step; [apply sim_ret; unfold qadd; apply (pn_r Qplus hp _ _ _ _ O Ho)|]. intros o2 O2.
    apply sim_ret. cbn. split; [exact X|]. split; [exact B2|now apply pn_nr].
  - eapply sim_step; [apply sim_min|]. intros n N. pose proof (proj1 N) as N1. rewrite N1. destruct (Qlt_bool (StrategyModel.stocks q) (va mn)); [|apply sim_ret; exact (conj S (conj B O))].
    eapply sim_step; [apply sim_ret; unfold qsub; apply (pn_l Qminus hp _ _ _ _ N (pn_nr hp _ _ S))|]. intros d D. eapply sim_bind; [apply sim_ret; apply (portion_rel _ _ _ _ _ _ _ _ D (pn_nr hp _ _ B) B O)|]. intros b b' Hb. eapply sim_step; [apply sim_ret; unfold qsub; apply (pn_l Qminus hp _ _ _ _ B (pn_nr hp _ _ Hb))|]. intros b2 B2.
    eapply sim_step; [apply sim_ret; unfold qsub; apply (pn_l Qminus hp _ _ _ _ X (pn_nr hp _ _ S))|]. intros d2 D2. eapply sim_bind; [apply sim_ret; apply (portion_rel _ _ _ _ _ _ _ _ D2 O B O)|]. intros o o' Ho. eapply sim_step; [apply sim_ret; unfold qsub; apply (pn_r Qminus hp _ _ _ _ O Ho)|]. intros o2 O2.
    apply sim_ret. cbn. split; [exact N|]. split; [exact B2|now apply pn_nr].
Qed.
Lemma allocate_rel age ra : sim ainv ar (allocate hp p age ra) (StrategyModel.allocate (plain_name (ka_name p)) aeff (inject_Z age) (option_map inject_Z ra)).
Proof.
  unfold allocate, StrategyModel.allocate. eapply sim_bind with (P := ar); [|intros a q A; exact (balance_rel a q A)]. destruct (ka_name p); cbn [plain_name StrategyModel.raw_allocation]; [apply nage_rel|apply transition_rel].
Qed.
Variables (rs rb ro : krates) (sc : ScenarioModel.scenario) (birth : date) (ra : option Z).
Hypothesis Rs : rates_are (fits hp) rs.
Hypothesis Rb : rates_are (fits hp) rb.
Hypothesis Ro : rates_are (fits hp) ro.
Hypothesis Ss : ScenarioModel.stock_return sc = plain_rates rs.
Hypothesis Sb : ScenarioModel.bond_return sc = plain_rates rb.
Hypothesis So : ScenarioModel.other_return sc = plain_rates ro.
Lemma weighted_rel a q y : ar a q -> agree (pn hp) (weighted_rate a (rate_in rs y) (rate_in rb y) (rate_in ro y))
  (let* x := ScenarioModel.series_get (plain_rates rs) y in let* z := ScenarioModel.series_get (plain_rates rb) y in let* w := ScenarioModel.series_get (plain_rates ro) y in StrategyModel.weighted_rate q x z w).
Proof.
  intros (S & B & O). unfold weighted_rate. eapply agree_bind; [apply (rate_rel _ rs y Rs)|]. intros x x' X. change (nr hp x x') in X. pose proof (pn_l Qmult hp _ _ _ _ S X) as M1. unfold qmul at 1. destruct (lift Qmult (k_stocks a) x) as [m1|]; cbn in M1; [|contradiction]. cbn [bind].
  eapply agree_bind; [apply (rate_rel _ rb y Rb)|]. intros z z' Z. change (nr hp z z') in Z. pose proof (pn_l Qmult hp _ _ _ _ B Z) as M2. unfold qmul at 1. destruct (lift Qmult (k_bonds a) z) as [m2|]; cbn in M2; [|contradiction]. cbn [bind].
  pose proof (pn_l Qplus hp _ _ _ _ M1 (pn_nr hp _ _ M2)) as A1. unfold qadd at 1. destruct (lift Qplus m1 m2) as [a1|]; cbn in A1; [|contradiction]. cbn [bind].
  eapply agree_bind; [apply (rate_rel _ ro y Ro)|]. intros w w' W. change (nr hp w w') in W. pose proof (nn Qmult hp _ _ _ _ O W) as M3. unfold qmul. destruct (lift Qmult (k_other a) w) as [m3|]; cbn in M3; [|contradiction]. cbn [bind].
  pose proof (pn_l Qplus hp _ _ _ _ A1 M3) as A2. unfold qadd at 1. destruct (lift Qplus a1 m3) as [a2|]; cbn in A2; [|contradiction]. cbn [bind].
  pose proof (pn_l Qplus hp _ _ _ _ S (pn_nr hp _ _ B)) as T1. unfold qadd at 1. destruct (lift Qplus (k_stocks a) (k_bonds a)) as [t1|]; cbn in T1; [|contradiction]. cbn [bind].
  pose proof (pn_l Qplus hp _ _ _ _ T1 O) as T2. unfold qadd. destruct (lift Qplus t1 (k_other a)) as [t2|]; cbn in T2; [|contradiction]. cbn [bind]. unfold StrategyModel.weighted_rate. apply div_pn; [exact A2|now apply pn_nr].
Qed.
Lemma function_rel y : sim ainv (pn hp) (rate_function hp p birth ra (rate_in rs) (rate_in rb) (rate_in ro) y)
  (StrategyModel.rate_function (plain_name (ka_name p)) aeff birth (option_map inject_Z ra) sc y).
Proof.
  unfold rate_function, StrategyModel.rate_function. eapply sim_bind with (P := eq); [apply sim_ret; destruct (age_in_year birth y); cbn; reflexivity|]. intros age age' <-. eapply sim_bind; [apply allocate_rel|]. intros a q A. apply sim_ret. rewrite Ss, Sb, So. now apply weighted_rel.
Qed.
End Alloc.

Section AllocHistories.
Variables (hp : bool) (Q0 : kaparams -> Prop).
Definition aknown (st : acache) : Prop :=
  (forall v, ac_min st = Some v -> exists p, Q0 p /\ v = conv hp (ka_min p)) /\ (forall v, ac_max st = Some v -> exists p, Q0 p /\ v = conv hp (ka_max p)) /\
  (forall v, ac_target st = Some v -> exists p, Q0 p /\ v = conv hp (ka_target p)).
Lemma known_of (c : option qn) (f : kaparams -> qn) p : (forall v, c = Some v -> exists p, Q0 p /\ v = conv hp (f p)) -> Q0 p ->
  exists b, Q0 b /\ (hp = false -> b = p) /\ fst (read hp c (f p)) = conv hp (f b).
Proof.
  intros K Hp. unfold read. destruct hp; [|exists p; auto]. destruct c as [v|]; [|exists p; repeat split; auto; discriminate]. destruct (K v eq_refl) as (b & Hb & ->). exists b. repeat split; auto. discriminate.
Qed.
Lemma kept (c0 c : option qn) (f : kaparams -> qn) p : (forall v, c0 = Some v -> exists p, Q0 p /\ v = conv hp (f p)) -> Q0 p -> c = c0 \/ c = snd (read hp c0 (f p)) ->
  forall v, c = Some v -> exists p, Q0 p /\ v = conv hp (f p).
Proof.
  intros K Hp [-> | ->]; [exact K|]. intros v. unfold read. destruct hp; cbn [snd]; [|auto]. destruct c0 eqn:X; cbn [snd]; intros E; [apply K; congruence|injection E as <-; eauto].
Qed.
Lemma aknown_inv st0 p st : aknown st0 -> Q0 p -> ainv hp p st0 st -> aknown st.
Proof. intros (A & B & C) Hp (X & Y & Z). split; [|split]; [eapply (kept _ _ ka_min)|eapply (kept _ _ ka_max)|eapply (kept _ _ ka_target)]; eauto. Qed.
(** state kept by any question *)
Lemma read_kept {A} (m : prog acache A) p : (forall st0 st, ainv hp p st0 st -> ainv hp p st0 (snd (m st))) -> forall st, aknown st -> Q0 p -> aknown (snd (m st)).
Proof. intros H st K Hp. eapply aknown_inv; [exact K|exact Hp|]. apply H. repeat split; now left. Qed.
End AllocHistories.
(** whatever the types, a computation only reads the caches *)
Section Kept.
Variables (hp : bool) (p : kaparams) (st0 : acache).
Definition keeps {A} (m : prog acache A) : Prop := forall st, ainv hp p st0 st -> ainv hp p st0 (snd (m st)).
Lemma keeps_ret {A} (r : res A) : keeps (ret r). Proof. intros st H. exact H. Qed.
Lemma keeps_bind {A B} (m : prog acache A) (k : A -> prog acache B) : keeps m -> (forall a, keeps (k a)) -> keeps (pbind m k).
Proof. intros M K st H. specialize (M st H). unfold pbind. destruct (m st) as [[a|e] st']; [now apply K|exact M]. Qed.
Lemma keeps_min : keeps (min_equity hp p).
Proof. intros st (A & B & C). destruct (read_again hp _ _ _ A) as [_ E2]. unfold min_equity. destruct (read hp (ac_min st) (ka_min p)). now repeat split. Qed.
Lemma keeps_max : keeps (max_equity hp p).
Proof. intros st (A & B & C). destruct (read_again hp _ _ _ B) as [_ E2]. unfold max_equity. destruct (read hp (ac_max st) (ka_max p)). now repeat split. Qed.
Lemma keeps_target : keeps (target hp p).
Proof. intros st (A & B & C). destruct (read_again hp _ _ _ C) as [_ E2]. unfold target. destruct (read hp (ac_target st) (ka_target p)). now repeat split. Qed.
Ltac kp := repeat first [apply keeps_min | apply keeps_max | apply keeps_target | apply keeps_ret | apply keeps_bind; [|intro] | match goal with |- keeps (if ?c then _ else _) => destruct c end].
Lemma keeps_function birth ra rs rb ro y : keeps (rate_function hp p birth ra rs rb ro y).
Proof.
  unfold rate_function. apply keeps_bind; [apply keeps_ret|]. intros age. apply keeps_bind; [|intro; apply keeps_ret]. unfold allocate. apply keeps_bind.
  - destruct (ka_name p); [unfold n_minus_age|unfold transition_to_const]; kp.
  - intros a. unfold balance. kp.
Qed.
End Kept.
Lemma build_known hp (Q0 : kaparams -> Prop) p st : Q0 p -> aknown hp Q0 (snd (build_allocation hp p st)).
Proof.
  intros Hp. unfold build_allocation. set (m := pbind _ _). assert (K : keeps hp p no_acache m) by (unfold m; apply keeps_bind; [apply keeps_max|intro; apply keeps_bind; [apply keeps_min|intro; apply keeps_ret]]).
  apply (read_kept hp Q0 m p); [|repeat split; discriminate|exact Hp]. intros st0. unfold m. apply keeps_bind; [apply keeps_max|intro; apply keeps_bind; [apply keeps_min|intro; apply keeps_ret]].
Qed.
Lemma arun_known hp (Q0 : kaparams -> Prop) ops : (forall p, used p ops -> Q0 p) -> aknown hp Q0 (arun hp ops).
Proof.
  intros C. unfold arun. assert (N : aknown hp Q0 no_acache) by (repeat split; discriminate). revert N. generalize no_acache. induction ops as [|o ops IH]; intros st K; cbn; [exact K|]. apply IH.
  - intros p [H | (b & r & rs & rb & ro & y & H)]; apply C; [left; now right|right; exists b, r, rs, rb, ro, y; now right].
  - destruct o as [p|p b r rs rb ro y]; cbn.
    + apply build_known. apply C. left. now left.
    + apply (read_kept hp Q0 (rate_function hp p b r rs rb ro y) p); [|exact K|]. * intros st0. apply keeps_function. * apply C. right. exists b, r, rs, rb, ro, y. now left.
Qed.

(** In any program, an allocation strategy's rate of return is what it would be without the types - but with the minimum, maximum and target
    each of some strategy that was built or used (or its own); without high_precision always its own. *)
Theorem C120_whose_bounds_partial : forall hp ops p birth ra rs rb ro sc year,
  Forall (aop_fits hp) ops -> aparams_fit hp p -> rates_are (fits hp) rs -> rates_are (fits hp) rb -> rates_are (fits hp) ro ->
  ScenarioModel.stock_return sc = plain_rates rs -> ScenarioModel.bond_return sc = plain_rates rb -> ScenarioModel.other_return sc = plain_rates ro ->
  exists mn mx t, (mn = p \/ used mn ops) /\ (mx = p \/ used mx ops) /\ (t = p \/ used t ops) /\ (hp = false -> mn = p /\ mx = p /\ t = p) /\
    gives_same hp true (fst (rate_function hp p birth ra (rate_in rs) (rate_in rb) (rate_in ro) year (arun hp ops)))
      (StrategyModel.rate_function (plain_name (ka_name p)) (plain_alloc_with mn mx t p) birth (option_map inject_Z ra) sc year).
Proof.
  intros hp ops p birth ra rs rb ro sc year OF PF Rs Rb Ro Ss Sb So. set (Q0 := fun x => x = p \/ used x ops).
  assert (QF : forall x, Q0 x -> aparams_fit hp x).
  { intros x [-> | [H | (b & r & a1 & a2 & a3 & y & H)]]; [exact PF| |]; rewrite Forall_forall in OF; exact (OF _ H). }
  assert (K : aknown hp Q0 (arun hp ops)) by (apply arun_known; intros x H; now right). destruct K as (KN & KX & KT).
  destruct (known_of hp Q0 _ ka_min p KN (or_introl eq_refl)) as (mn & Hn & Fn & En). destruct (known_of hp Q0 _ ka_max p KX (or_introl eq_refl)) as (mx & Hx & Fx & Ex). destruct (known_of hp Q0 _ ka_target p KT (or_introl eq_refl)) as (t & Ht & Ft & Et).
  exists mn, mx, t. split; [exact Hn|]. split; [exact Hx|]. split; [exact Ht|]. split; [auto|]. apply pn_gives.
  destruct (QF mn Hn) as (_ & C1 & _), (QF mx Hx) as (_ & _ & C2), (QF t Ht) as (C3 & _).
  destruct (function_rel hp p (arun hp ops) _ _ _ En Ex Et (conv_fits hp _ C1) (conv_fits hp _ C2) (conv_fits hp _ C3) rs rb ro sc birth ra Rs Rb Ro Ss Sb So year (arun hp ops)) as [G _]; [repeat split; now left|].
  unfold aeff in G. rewrite !conv_va in G. exact G.
Qed.
Print Assumptions C120_whose_bounds_partial.
(** It can be built exactly when its own minimum is at most its own maximum, whatever was built or used before. *)
Theorem C120_bounds_checked : forall hp ops p,
  (va (ka_min p) <= va (ka_max p) -> fst (build_allocation hp p (arun hp ops)) = Ok tt) /\
  (va (ka_max p) < va (ka_min p) -> fst (build_allocation hp p (arun hp ops)) = Err ValueError).
Proof.
  intros hp ops p. assert (E : fst (build_allocation hp p (arun hp ops)) = if Qlt_bool (va (ka_max p)) (va (ka_min p)) then Err ValueError else Ok tt) by (destruct hp; reflexivity).
  rewrite E. split; intros H; [destruct (Qlt_bool _ _) eqn:L; [exfalso; qb; Lqa.lra|reflexivity]|destruct (Qlt_bool _ _) eqn:L; [reflexivity|exfalso; qb; Lqa.lra]].
Qed.
Print Assumptions C120_bounds_checked.
(** So with one strategy, or all with the same bounds and target, rates of return are as without the types and of the high-precision type. *)
Theorem C120_same_bounds_partial : forall hp ops p birth ra rs rb ro sc year,
  Forall (aop_fits hp) ops -> aparams_fit hp p -> rates_are (fits hp) rs -> rates_are (fits hp) rb -> rates_are (fits hp) ro ->
  ScenarioModel.stock_return sc = plain_rates rs -> ScenarioModel.bond_return sc = plain_rates rb -> ScenarioModel.other_return sc = plain_rates ro ->
  hp = false \/ (forall p', used p' ops -> va (ka_min p') = va (ka_min p) /\ va (ka_max p') = va (ka_max p) /\ va (ka_target p') = va (ka_target p)) ->
  gives_same hp true (fst (rate_function hp p birth ra (rate_in rs) (rate_in rb) (rate_in ro) year (arun hp ops)))
    (StrategyModel.rate_function (plain_name (ka_name p)) (plain_alloc_with p p p p) birth (option_map inject_Z ra) sc year).
Proof.
  intros hp ops p birth ra rs rb ro sc year OF PF Rs Rb Ro Ss Sb So U.
  destruct (C120_whose_bounds_partial hp ops p birth ra rs rb ro sc year OF PF Rs Rb Ro Ss Sb So) as (mn & mx & t & Hn & Hx & Ht & HF & G).
  assert (E : plain_alloc_with p p p p = plain_alloc_with mn mx t p); [|rewrite E; exact G]. unfold plain_alloc_with. destruct U as [U | U]; [destruct (HF U) as (-> & -> & ->); reflexivity|].
  f_equal; symmetry; [destruct Ht as [-> | H]|destruct Hn as [-> | H]|destruct Hx as [-> | H]]; try reflexivity; apply (U _ H).
Qed.
Print Assumptions C120_same_bounds_partial.
(** Otherwise not: a strategy keeps to the bounds of whichever strategy was built last. *)
Theorem C120_other_bounds_refuted : forall a b age ra, ka_name a = Transition -> ka_adjust a = false -> (age <= ka_std_age a - ka_period a)%Z -> va (ka_min b) <= va (ka_max b) ->
  exists al, fst (allocate true a age ra (arun true [ABuild a; ABuild b])) = Ok al /\ k_stocks al = conv true (ka_max b) /\ va (k_bonds al) = 1 - va (ka_max b).
Proof.
  intros a b age ra N A L LE. unfold arun. cbn [fold_left astep]. set (st := snd (build_allocation true b _)).
  assert (E : ac_max st = Some (conv true (ka_max b)) /\ ac_min st = Some (conv true (ka_min b))) by (split; reflexivity). destruct E as [E1 E2]. clearbody st.
  unfold allocate. rewrite N. unfold transition_to_const. rewrite A. unfold pbind at 1. unfold pbind at 1. cbn [ret fst snd]. rewrite (proj2 (Z.leb_le _ _) L). unfold pbind, ret, max_equity, read. rewrite E1. cbn [fst snd]. cbn [ac_max]. unfold qsub, lift. cbn [conv kd whole mix va]. unfold balance, pbind, max_equity, read. cbn [ac_max fst snd k_stocks va conv].
  assert (X : Qlt_bool (va (ka_max b)) (va (ka_max b)) = false) by (unfold Qlt_bool; rewrite (proj2 (Qle_bool_iff _ _) (Qle_refl _)); reflexivity). rewrite X. unfold min_equity, read. cbn [ac_min]. rewrite E2. cbn [fst snd conv va].
  assert (Y : Qlt_bool (va (ka_max b)) (va (ka_min b)) = false) by (unfold Qlt_bool; rewrite (proj2 (Qle_bool_iff _ _) LE); reflexivity). rewrite Y. cbn. eexists. split; [reflexivity|]. split; reflexivity.
Qed.
Print Assumptions C120_other_bounds_refuted.
(** Returns in floats (a Scenario does not convert them) cannot be combined with an allocation in high precision. *)
Theorem C120_float_returns_refuted : forall ops p birth age ra rs rb ro year r al, Forall (aop_fits true) ops -> aparams_fit true p ->
  age_in_year birth year = Ok age -> fst (allocate true p age ra (arun true ops)) = Ok al -> rs year = Ok r -> kd r = Float ->
  fst (rate_function true p birth ra rs rb ro year (arun true ops)) = Err TypeError.
Proof.
  intros ops p birth age ra rs rb ro year r al OF PF AG AL RS KR. set (Q0 := fun x => x = p \/ used x ops).
  assert (K : aknown true Q0 (arun true ops)) by (apply arun_known; intros x H; now right). destruct K as (KN & KX & KT).
  destruct (known_of true Q0 _ ka_min p KN (or_introl eq_refl)) as (mn & _ & _ & En). destruct (known_of true Q0 _ ka_max p KX (or_introl eq_refl)) as (mx & _ & _ & Ex). destruct (known_of true Q0 _ ka_target p KT (or_introl eq_refl)) as (t & _ & _ & Et).
  destruct (allocate_rel true p (arun true ops) _ _ _ En Ex Et eq_refl eq_refl eq_refl age ra (arun true ops)) as [G _]; [repeat split; now left|].
  unfold rate_function, pbind, ret. rewrite AG. destruct (allocate true p age ra (arun true ops)) as [[a|e] st']; cbn [fst] in *; [|discriminate]. injection AL as ->. destruct (StrategyModel.allocate _ _ _ _); cbn in G; [|contradiction]. destruct G as ((_ & S) & _).
  unfold weighted_rate. rewrite RS. cbn [bind]. unfold qmul at 1, lift. cbn in S. rewrite S, KR. reflexivity.
Qed.
Print Assumptions C120_float_returns_refuted.

(** ** Concrete cases *)
Definition sample_l (base : Z) : klparams :=
  {| kl_kind := LivingModel.ConstExpenses; kl_base := Num Float (inject_Z base); kl_rate := whole 1; kl_infl := fun _ _ => Ok (whole 1) |}.
Definition sample_c (year : Z) : klcall := {| kc_people := None; kc_year := Some year; kc_retire := Some 2030%Z; kc_balance := fun _ => [] |}.
Definition sample_a (mx : Q) : kaparams :=
  {| ka_name := Transition; ka_target := Num Float (1 # 2); ka_min := whole 0; ka_max := Num Float mx; ka_std_age := 65; ka_period := 20; ka_adjust := false |}.
Definition sample_sched (a b : Z) : klexp := Sched (Plain (sample_l a)) (Plain (sample_l b)) (Some (Plain (sample_l a))).
Definition lshown (r : res qn) : res (kind * Q) := match r with Ok v => Ok (kd v, Qred (va v)) | Err e => Err e end.
Example C120_sat :
  (forall a b y, op_fits true (LCall (sample_sched a b) (sample_c y))) /\ lparams_fit true (sample_l 30000) /\
  lshown (fst (expenses true (sample_sched 50000 50000) (sample_c 2035) (lrun true [LBuild; LBuild; LCall (sample_sched 50000 50000) (sample_c 2020)]))) = Ok (High, 50000) /\
  lshown (fst (expenses true (Sched (Plain (sample_l 50000)) (Plain (sample_l 30000)) None) (sample_c 2035)
    (lrun true [LBuild; LBuild; LCall (Sched (Plain (sample_l 50000)) (Plain (sample_l 30000)) None) (sample_c 2020)]))) = Ok (High, 50000) /\
  lshown (fst (expenses false (Sched (Plain (sample_l 50000)) (Plain (sample_l 30000)) None) (sample_c 2035)
    (lrun false [LBuild; LBuild; LCall (Sched (Plain (sample_l 50000)) (Plain (sample_l 30000)) None) (sample_c 2020)]))) = Ok (Float, 30000) /\
  (* sharing *)
  option_map (map (fun v => (kd v, Qred (va v)))) (match shares (hi 40000) [hi 30000; hi 50000] with Ok l => Some l | Err _ => None end) = Some [(High, 15000); (High, 25000)] /\
  shares (hi 40000) [whole 30000; whole 50000] = Err TypeError /\
  (* allocation *)
  aparams_fit true (sample_a 1) /\ rates_are (fits true) (KConst (hi (7 # 100))) /\ rates_are (fits true) (KConst (whole 0)) /\
  lshown (fst (rate_function true (sample_a 1) {| d_y := 1970; d_m := 1; d_d := 1 |} None (rate_in (KConst (hi (8 # 100)))) (rate_in (KConst (hi (4 # 100)))) (rate_in (KConst (whole 0))) 2025 (arun true [ABuild (sample_a 1)]))) = Ok (High, 7 # 100) /\
  (exists al, fst (allocate true (sample_a 1) 40 None (arun true [ABuild (sample_a 1); ABuild (sample_a (6 # 10))])) = Ok al /\ va (k_stocks al) = 6 # 10) /\
  fst (rate_function true (sample_a 1) {| d_y := 1970; d_m := 1; d_d := 1 |} None (rate_in (KConst (Num Float (8 # 100)))) (rate_in (KConst (hi (4 # 100)))) (rate_in (KConst (whole 0))) 2025 (arun true [ABuild (sample_a 1)])) = Err TypeError.
Proof.
  split. { intros a b y. assert (F : forall n, lparams_fit true (sample_l n)) by (intros n; split; [left; reflexivity|]; split; [left; reflexivity|]; intros y' d v E; injection E as <-; apply fits_int). split; [cbn; auto|]. split; [discriminate|intros x; constructor]. }
  split. { split; [left; reflexivity|]; split; [left; reflexivity|]; intros y' d v E; injection E as <-; discriminate. }
  split; [vm_compute; reflexivity|]. split; [vm_compute; reflexivity|]. split; [vm_compute; reflexivity|]. split; [vm_compute; reflexivity|]. split; [vm_compute; reflexivity|].
  split; [repeat split; left; reflexivity|]. split; [discriminate|]. split; [discriminate|]. split; [vm_compute; reflexivity|]. split; [eexists; split; vm_compute; reflexivity|]. vm_compute. reflexivity.
Qed.
