(** C118: taxes in high precision. *)
From Verif Require Import Base BaseFacts InflationModel RBase KindModel AccountModel AccountSpec AccountProofs KindModel Prop_Kind KindTaxModel.
From Verif Require RegModel TaxModel TaxSpec TaxProofs3 Prop_Tax.
From Coq Require Import Lia.
Open Scope Q_scope.

(** ** Specification *)
(** all numbers of a table (a dict of thresholds, rates, amounts...) are whole numbers or of the one type [h] stands for:
    the high-precision type (true) or floats (false) *)
Definition table_fits (h : bool) (b : ktable) : Prop := Forall (fun kv => fits h (kd (fst kv)) /\ fits h (kd (snd kv))) b.
Definition tables_fit (h : bool) (d : dict Z ktable) : Prop := Forall (fun yb => table_fits h (snd yb)) d.
Definition amounts_fit {K} (h : bool) (d : dict K qn) : Prop := Forall (fun kv => fits h (kd (snd kv))) d.
(** inflation: nothing, a function with such values, or a table of such values (only of the high-precision type itself, see C118_whole_inflation_refuted) *)
Definition inflation_fits (h : bool) (ia : kinfl) : Prop :=
  match ia with
  | INone => True
  | IDict d => Forall (fun yv => proper h (kd (snd yv))) d
  | ICallable f => forall y b v, f y b = Ok v -> fits h (kd v)
  | IOther => True
  end.
Definition payer_fits (h : bool) (p : kpayer) : Prop := amounts_fit h (kp_income p) /\ amounts_fit h (kp_deduction p) /\ amounts_fit h (kp_credit p).

(** the same without the types *)
Definition plain_table (b : ktable) : TaxModel.table := map (fun kv => (va (fst kv), va (snd kv))) b.
Definition plain_amounts {K} (d : dict K qn) : dict K Q := map (fun kv => (fst kv, va (snd kv))) d.
Definition plain_tables (d : dict Z ktable) : dict Z TaxModel.table := map (fun yb => (fst yb, plain_table (snd yb))) d.
Definition plain_res (r : res qn) : res Q := match r with Ok v => Ok (va v) | Err e => Err e end.
Definition plain_inflation (ia : kinfl) : infl_arg :=
  match ia with INone => InflationModel.INone | IDict d => InflationModel.IDict (plain_amounts d) | ICallable f => InflationModel.ICallable (fun y b => plain_res (f y b)) | IOther => InflationModel.IOther end.
Definition plain_payer (p : kpayer) : TaxModel.taxpayer :=
  {| TaxModel.tp_income := plain_amounts (kp_income p); TaxModel.tp_deduction := plain_amounts (kp_deduction p); TaxModel.tp_credit := plain_amounts (kp_credit p) |}.

(** what may be asked of a Tax object; the last four are not taxes *)
Inductive query : Type :=
| Money (income : qn) (year : Z) (deduction credit : qn)
| Person (p : kpayer) (year : Z) (deduction credit : qn)
| People (fuel : nat) (order : list nat -> list nat) (who : nat -> kpayer) (spouse : nat -> option nat) (people : list nat) (year : Z) (deduction credit : dict nat qn)
| MarginalRate (income : qn) (year : Z) | MarginalBracket (income : qn) (year : Z) | PersonalDeduction (year : Z) | CreditRate (year : Z).
Definition query_fits (h : bool) (q : query) : Prop :=
  match q with
  | Money i _ d c => fits h (kd i) /\ fits h (kd d) /\ fits h (kd c)
  | Person p _ d c => payer_fits h p /\ fits h (kd d) /\ fits h (kd c)
  | People _ _ who _ _ _ d c => (forall n, payer_fits h (who n)) /\ amounts_fit h d /\ amounts_fit h c
  | _ => True
  end.
Definition is_tax (q : query) : bool := match q with Money _ _ _ _ | Person _ _ _ _ | People _ _ _ _ _ _ _ _ => true | _ => false end.
Definition same_state {A} (r : res A) (s : ktax) : res (A * ktax) := let* v := r in Ok (v, s).
Definition ask (s : ktax) (q : query) : res (qn * ktax) :=
  match q with
  | Money i y d c => tax_money s i y d c
  | Person p y d c => tax_person s p y d c
  | People n o w sp l y d c => tax_people n o s w sp l y d c
  | MarginalRate i y => marginal_rate s i y
  | MarginalBracket i y => marginal_bracket s i y
  | PersonalDeduction y => let* v := personal_deduction s y in Ok (v, s)
  | CreditRate y => let* v := credit_rate s y in Ok (v, s)
  end.
Definition ask_plain (s : TaxModel.tax) (q : query) : res (Q * TaxModel.tax) :=
  match q with
  | Money i y d c => TaxModel.tax_money s (va i) y (va d) (va c)
  | Person p y d c => TaxModel.tax_person s (plain_payer p) y (va d) (va c)
  | People n o w sp l y d c => TaxModel.tax_people n o s (fun m => plain_payer (w m)) sp l y (plain_amounts d) (plain_amounts c)
  | MarginalRate i y => TaxModel.marginal_rate s (va i) y
  | MarginalBracket i y => TaxModel.marginal_bracket s (va i) y
  | PersonalDeduction y => let* v := TaxModel.personal_deduction s y in Ok (v, s)
  | CreditRate y => let* v := TaxModel.credit_rate s y in Ok (v, s)
  end.
(** all the answers, or the first error *)
Fixpoint ask_all (s : ktax) (qs : list query) : res (list (query * qn)) :=
  match qs with [] => Ok [] | q :: r => let* (v, s') := ask s q in let* vs := ask_all s' r in Ok ((q, v) :: vs) end.
Fixpoint ask_all_plain (s : TaxModel.tax) (qs : list query) : res (list Q) :=
  match qs with [] => Ok [] | q :: r => let* (v, s') := ask_plain s q in let* vs := ask_all_plain s' r in Ok (v :: vs) end.

(** ** Proofs *)
Definition agree {A B} (P : A -> B -> Prop) (r : res A) (r' : res B) : Prop :=
  match r, r' with Ok a, Ok b => P a b | Err e, Err e' => e = e' | _, _ => False end.
Lemma agree_bind {A B C D} (P : A -> B -> Prop) (T : C -> D -> Prop) m m' k k' :
  agree P m m' -> (forall a b, P a b -> agree T (k a) (k' b)) -> agree T (bind m k) (bind m' k').
Proof. destruct m, m'; cbn; intros H K; auto; contradiction. Qed.

Lemma fits_int h x : fits h (kd (whole x)). Proof. destruct h; discriminate. Qed.
Section Sim.
Variables (h hp : bool).
Hypothesis consist : hp = true -> h = true.
(** a typed number stands for [q] *)
Definition nr (a : qn) (q : Q) : Prop := va a = q /\ fits h (kd a).
(** ... and is in high precision if the tax object is *)
Definition pr (a : qn) (q : Q) : Prop := nr a q /\ (hp = true -> kd a = High).
Lemma pr_nr a q : pr a q -> nr a q. Proof. now intros []. Qed.
Lemma zero_pr x : pr (conv hp (whole x)) x.
Proof. split; [split; [apply conv_va|]|]. - destruct hp eqn:E; cbn [conv kd]; [rewrite consist by reflexivity; discriminate|apply fits_int]. - intros ->. reflexivity. Qed.
Lemma lift_nr (f : Q -> Q -> Q) a b x y : nr a x -> nr b y -> exists c, lift f a b = Ok c /\ nr c (f x y).
Proof. intros [<- A] [<- B]. destruct (lift_fits f h a b A B) as (k & E & F). rewrite E. eexists. split; [reflexivity|split; [reflexivity|exact F]]. Qed.
Lemma lift_pr_l (f : Q -> Q -> Q) a b x y : pr a x -> nr b y -> exists c, lift f a b = Ok c /\ pr c (f x y).
Proof.
  intros [A HA] B. destruct (lift_nr f a b x y A B) as (c & E & C). exists c. split; [exact E|]. split; [exact C|]. intros H. specialize (HA H).
  unfold lift in E. rewrite HA in E. destruct (kd b); cbn in E; try discriminate; injection E as <-; reflexivity.
Qed.
Lemma lift_pr_r (f : Q -> Q -> Q) a b x y : nr a x -> pr b y -> exists c, lift f a b = Ok c /\ pr c (f x y).
Proof.
  intros A [B HB]. destruct (lift_nr f a b x y A B) as (c & E & C). exists c. split; [exact E|]. split; [exact C|]. intros H. specialize (HB H).
  unfold lift in E. rewrite HB in E. destruct (kd a); cbn in E; try discriminate; injection E as <-; reflexivity.
Qed.
Lemma max_pr a b x y : pr a x -> pr b y -> pr (kmax2 a b) (qmax x y).
Proof.
  intros [[<- A] HA] [[<- B] HB]. unfold kmax2. split; [split; [reflexivity|]|]; cbn [kd va]; destruct (Qlt_bool _ _); auto.
Qed.
Lemma max_nr a b x y : nr a x -> nr b y -> nr (kmax2 a b) (qmax x y).
Proof. intros [<- A] [<- B]. split; [reflexivity|]. cbn. destruct (Qlt_bool _ _); auto. Qed.
Lemma min_nr a b x y : nr a x -> nr b y -> nr (kmin2 a b) (qmin x y).
Proof. intros [<- A] [<- B]. split; [reflexivity|]. cbn. destruct (Qlt_bool _ _); auto. Qed.

(** lists of keys *)
Definition keys_rel := Forall2 nr.
Lemma fold_max l l' a x : keys_rel l l' -> nr a x -> nr (fold_left kmax2 l a) (fold_left qmax l' x).
Proof. intros H. revert a x. induction H; intros; cbn; [assumption|]. apply IHForall2. now apply max_nr. Qed.
Lemma fold_min l l' a x : keys_rel l l' -> nr a x -> nr (fold_left kmin2 l a) (fold_left qmin l' x).
Proof. intros H. revert a x. induction H; intros; cbn; [assumption|]. apply IHForall2. now apply min_nr. Qed.
Definition opt_rel {A B} (P : A -> B -> Prop) (a : option A) (b : option B) : Prop := match a, b with Some x, Some y => P x y | None, None => True | _, _ => False end.
Lemma max_opt l l' : keys_rel l l' -> opt_rel nr (kmax_opt l) (RegModel.qmax_opt l').
Proof. intros []; cbn; [exact Logic.I|]. now apply fold_max. Qed.
Lemma min_opt l l' : keys_rel l l' -> opt_rel nr (kmin_opt l) (RegModel.qmin_opt l').
Proof. intros []; cbn; [exact Logic.I|]. now apply fold_min. Qed.
Lemma insert_rel k q l l' : nr k q -> keys_rel l l' -> keys_rel (kinsert k l) (TaxModel.qinsert q l').
Proof.
  intros K H. induction H as [|x y l l' E H IH]; cbn; [constructor; [exact K|constructor]|]. pose proof (proj1 K) as K1. pose proof (proj1 E) as E1. rewrite K1, E1.
  destruct (Qle_bool q y); [|now constructor]. constructor; [exact K|now constructor].
Qed.
Lemma sort_rel l l' : keys_rel l l' -> keys_rel (ksort l) (TaxModel.qsort l').
Proof. intros H. induction H; cbn; [constructor|]. now apply insert_rel. Qed.
Lemma remove_rel k q l l' : nr k q -> keys_rel l l' -> keys_rel (kremove k l) (TaxModel.qremove q l').
Proof. intros K H. induction H as [|x y l l' E H IH]; cbn; [constructor|]. unfold keq. rewrite (proj1 K), (proj1 E). destruct (Qeq_bool y q); [exact H|now constructor]. Qed.
Lemma filter_rel q l l' : keys_rel l l' -> keys_rel (filter (fun k => Qlt_bool (va k) q) l) (filter (fun b => Qlt_bool b q) l').
Proof. intros H. induction H as [|x y l l' E H IH]; cbn; [constructor|]. rewrite (proj1 E). destruct (Qlt_bool y q); [now constructor|exact IH]. Qed.

(** tables *)
Definition tr (P : qn -> Q -> Prop) (b : ktable) (t : TaxModel.table) : Prop := Forall2 (fun kv qv => nr (fst kv) (fst qv) /\ P (snd kv) (snd qv)) b t.
Lemma tr_keys P b t : tr P b t -> keys_rel (dkeys b) (dkeys t).
Proof. intros H. induction H as [|x y b t [E _] H IH]; cbn; constructor; auto. Qed.
Lemma tr_get P b t k q : tr P b t -> nr k q -> opt_rel P (dget keq b k) (dget Qeq_bool t q).
Proof.
  intros H K. induction H as [|[x u] [y v] b t [E F] H IH]; cbn; [exact Logic.I|]. unfold keq. rewrite (proj1 K). cbn [fst snd] in *. rewrite (proj1 E). destruct (Qeq_bool q y); [exact F|exact IH].
Qed.
Lemma tr_get_r P b t k q : tr P b t -> nr k q -> agree P (dget_r keq b k) (dget_r Qeq_bool t q).
Proof. intros H K. pose proof (tr_get P b t k q H K) as O. unfold dget_r. destruct (dget keq b k), (dget Qeq_bool t q); cbn in *; auto; contradiction. Qed.
Lemma tr_set P b t k q v x : tr P b t -> nr k q -> P v x -> tr P (dset keq b k v) (dset Qeq_bool t q x).
Proof.
  intros H K F. induction H as [|[c u] [y w] b t [E G] H IH]; cbn; [constructor; [now split|constructor]|]. unfold keq at 1. cbn [fst snd] in *. rewrite (proj1 K), (proj1 E).
  destruct (Qeq_bool q y); [constructor; [now split|exact H]|]. constructor; [now split|exact IH].
Qed.
Lemma accum_loop_rel b t p p' ks ks' acc acc' : tr nr b t -> nr p p' -> keys_rel ks ks' -> tr pr acc acc' ->
  agree (tr pr) (accum_loop b p ks acc) (TaxModel.accum_loop t p' ks' acc').
Proof.
  intros B P K. revert p p' P acc acc'. induction K as [|k k' ks ks' E K IH]; intros p p' P acc acc' A; cbn [accum_loop TaxModel.accum_loop]; [exact A|].
  destruct (lift_nr Qminus k p _ _ E P) as (w & Ew & W). unfold qsub. rewrite Ew. cbn [bind].
  eapply agree_bind; [apply (tr_get_r nr b t p p' B P)|]. intros rate rate' R.
  destruct (lift_nr Qmult w rate _ _ W R) as (m & Em & M). unfold qmul. rewrite Em. cbn [bind].
  eapply agree_bind; [apply (tr_get_r pr acc acc' p p' A P)|]. intros a a' AA.
  destruct (lift_pr_r Qplus m a _ _ M AA) as (s & Es & S). unfold qadd. rewrite Es. cbn [bind].
  apply IH; [exact E|]. now apply tr_set.
Qed.
Lemma add_accum_rel b t : tr nr b t -> agree (tr pr) (add_accum hp b) (TaxModel.add_accum t).
Proof.
  intros B. unfold add_accum, TaxModel.add_accum. pose proof (min_opt _ _ (tr_keys nr b t B)) as O.
  destruct (kmin_opt (dkeys b)) as [p|], (RegModel.qmin_opt (dkeys t)) as [p'|]; cbn in O; try contradiction; [|reflexivity].
  apply accum_loop_rel; auto. - apply remove_rel; [exact O|]. apply sort_rel. now apply (tr_keys nr). - constructor; [|constructor]. split; [exact O|apply zero_pr].
Qed.
Definition zr {A B} (P : A -> B -> Prop) (d : dict Z A) (e : dict Z B) : Prop := Forall2 (fun kv qv => fst kv = fst qv /\ P (snd kv) (snd qv)) d e.
Lemma zr_get {A B} (P : A -> B -> Prop) d e y : zr P d e -> opt_rel P (dget Z.eqb d y) (dget Z.eqb e y).
Proof. intros H. induction H as [|[k a] [k' b] d e [E F] H IH]; cbn in *; [exact Logic.I|]. subst k'. destruct (Z.eqb y k); auto. Qed.
Lemma zr_get_r {A B} (P : A -> B -> Prop) d e y : zr P d e -> agree P (dget_r Z.eqb d y) (dget_r Z.eqb e y).
Proof. intros H. pose proof (zr_get P d e y H) as O. unfold dget_r. destruct (dget Z.eqb d y), (dget Z.eqb e y); cbn in *; auto; contradiction. Qed.
Lemma zr_set {A B} (P : A -> B -> Prop) d e y a b : zr P d e -> P a b -> zr P (dset Z.eqb d y a) (dset Z.eqb e y b).
Proof. intros H F. induction H as [|[k u] [k' w] d e [E G] H IH]; cbn in *; [constructor; [now split|constructor]|]. subst k'. destruct (Z.eqb y k); constructor; auto. Qed.
Lemma zr_keys {A B} (P : A -> B -> Prop) d e : zr P d e -> dkeys d = dkeys e.
Proof. intros H. induction H as [|[k u] [k' w] d e [E G] H IH]; cbn in *; [reflexivity|]. subst k'. unfold dkeys in *. cbn. now rewrite IH. Qed.
Lemma zr_mem {A B} (P : A -> B -> Prop) d e y : zr P d e -> dmem Z.eqb d y = dmem Z.eqb e y.
Proof. intros H. pose proof (zr_get P d e y H) as O. unfold dmem. destruct (dget Z.eqb d y), (dget Z.eqb e y); cbn in O; auto; contradiction. Qed.
Lemma zr_nearest {A B} (P : A -> B -> Prop) d e y : zr P d e -> nearest_year d y = nearest_year e y.
Proof.
  intros H. unfold nearest_year. rewrite (zr_keys P d e H), (zr_mem P d e y H). now destruct H.
Qed.
(** a typed tax object stands for a plain one *)
Record sim (s : ktax) (t : TaxModel.tax) : Prop := {
  m_hp : k_hp s = hp;
  m_brk : zr (tr nr) (k_brk s) (TaxModel.x_brk t);
  m_acc : zr (tr pr) (k_acc s) (TaxModel.x_acc t);
  m_ia : forall y b, agree nr (k_ia s y b) (TaxModel.x_ia t y b);
  m_pd : zr nr (k_pd s) (TaxModel.x_pd t);
  m_cr : zr nr (k_cr s) (TaxModel.x_cr t) }.
Lemma add_brackets_rel s t b c y : sim s t -> tr nr b c -> agree sim (add_brackets s b y) (TaxModel.add_brackets t c y).
Proof.
  intros M B. unfold add_brackets, TaxModel.add_brackets. rewrite (m_hp s t M). eapply agree_bind; [apply (add_accum_rel b c B)|]. intros a a' A. cbn.
  destruct M. split; cbn; auto; now apply zr_set.
Qed.
Definition both {A B} (P : A -> B -> Prop) (x : A * ktax) (y : B * TaxModel.tax) : Prop := P (fst x) (fst y) /\ sim (snd x) (snd y).
Lemma scale_keys_rel r r' b c out out' : agree nr r r' -> tr nr b c -> tr nr out out' -> agree (tr nr) (scale_keys r b out) (TaxModel.scale_keys r' c out').
Proof.
  intros R B. revert out out'. induction B as [|[k v] [k' v'] b c [E F] B IH]; intros out out' O; cbn [scale_keys TaxModel.scale_keys]; [exact O|].
  eapply agree_bind; [exact R|]. intros f f' G. cbn [fst snd] in *. destruct (lift_nr Qmult k f _ _ E G) as (x & Ex & X). unfold qmul. rewrite Ex. cbn [bind]. apply IH. now apply tr_set.
Qed.
Lemma tax_brackets_rel s t y : sim s t -> agree (both (tr nr)) (tax_brackets s y) (TaxModel.tax_brackets t y).
Proof.
  intros M. unfold tax_brackets, TaxModel.tax_brackets. pose proof (zr_get _ _ _ y (m_brk s t M)) as O.
  destruct (dget Z.eqb (k_brk s) y) as [b|], (dget Z.eqb (TaxModel.x_brk t) y) as [c|]; cbn in O; try contradiction; [split; assumption|].
  rewrite <- (zr_nearest _ _ _ y (m_brk s t M)). destruct (nearest_year (k_brk s) y) as [base|]; [|reflexivity].
  eapply agree_bind; [apply (zr_get_r _ _ _ base (m_brk s t M))|]. intros b c B.
  eapply agree_bind; [apply (scale_keys_rel _ _ b c [] []); [apply (m_ia s t M)|exact B|constructor]|]. intros b' c' B'.
  eapply agree_bind; [apply (add_brackets_rel s t b' c' y M B')|]. intros s' t' M'. now split.
Qed.
Lemma mapM_rel {A B C D} (P : A -> B -> Prop) (T : C -> D -> Prop) f g l m : Forall2 P l m -> (forall a b, P a b -> agree T (f a) (g b)) ->
  agree (Forall2 T) (mapM f l) (mapM g m).
Proof.
  intros H F. induction H as [|a b l m E H IH]; cbn; [constructor|]. eapply agree_bind; [now apply F|]. intros c d X. eapply agree_bind; [exact IH|]. intros cs ds Y. now constructor.
Qed.
Lemma accum_rel s t y : sim s t -> agree (both (tr pr)) (accum s y) (TaxModel.accum t y).
Proof.
  intros M. unfold accum, TaxModel.accum. pose proof (zr_get _ _ _ y (m_acc s t M)) as O.
  destruct (dget Z.eqb (k_acc s) y) as [b|], (dget Z.eqb (TaxModel.x_acc t) y) as [c|]; cbn in O; try contradiction; [split; assumption|]. clear O.
  unfold extend_inflation_adjusted.
  set (vd := map (fun kv => (fst kv, VDict (snd kv))) (TaxModel.x_brk t)).
  assert (Z1 : zr (fun b v => exists c, v = VDict c /\ tr nr b c) (k_brk s) vd).
  { unfold vd. pose proof (m_brk s t M) as H. induction H as [|[k u] [k' w] d e [E G] H IH]; cbn in *; [constructor|]. constructor; [split; [exact E|cbn; eauto]|exact IH]. }
  rewrite <- (zr_nearest _ _ _ y Z1). pose proof (zr_get _ _ _ y Z1) as O.
  assert (last : forall b c, tr nr b c -> agree (both (tr pr)) (let* s' := add_brackets s b y in let* a := dget_r Z.eqb (k_acc s') y in Ok (a, s')) (let* s' := TaxModel.add_brackets t c y in let* a := dget_r Z.eqb (TaxModel.x_acc s') y in Ok (a, s'))).
  { intros b c B. eapply agree_bind; [apply (add_brackets_rel s t b c y M B)|]. intros s' t' M'. eapply agree_bind; [apply (zr_get_r _ _ _ y (m_acc s' t' M'))|]. intros a a' A. now split. }
  destruct (dget Z.eqb (k_brk s) y) as [b|], (dget Z.eqb vd y) as [v|]; cbn in O; try contradiction.
  - destruct O as (c & -> & B). cbn [bind]. now apply last.
  - destruct (nearest_year (k_brk s) y) as [base|]; [|reflexivity]. destruct (Z.eqb base y); [reflexivity|].
    pose proof (zr_get_r _ _ _ base Z1) as O2. destruct (dget_r Z.eqb (k_brk s) base) as [b|e], (dget_r Z.eqb vd base) as [v|e']; cbn in O2; try contradiction; [|subst; reflexivity].
    destruct O2 as (c & -> & B). cbn [bind].
    match goal with |- agree _ (bind ?m _) (bind (bind ?n _) _) => assert (X : agree (tr nr) m n) end.
    { eapply mapM_rel; [exact B|]. intros [k u] [k' w] [E F]. cbn [fst snd] in *. eapply agree_bind; [apply (m_ia s t M)|]. intros f f' G.
      destruct (lift_nr Qmult u f _ _ F G) as (x & Ex & X). unfold qmul. rewrite Ex. cbn. split; assumption. }
    destruct (mapM _ b) as [b'|], (mapM _ c) as [c'|]; cbn in X; try contradiction; [|now subst]. cbn [bind]. now apply last.
Qed.
Lemma personal_deduction_rel s t y : sim s t -> agree nr (personal_deduction s y) (TaxModel.personal_deduction t y).
Proof.
  intros M. unfold personal_deduction, TaxModel.personal_deduction, extend_inflation_adjusted.
  set (vd := map (fun kv => (fst kv, VScalar (snd kv))) (TaxModel.x_pd t)).
  assert (Z1 : zr (fun b v => exists c, v = VScalar c /\ nr b c) (k_pd s) vd).
  { unfold vd. pose proof (m_pd s t M) as H. induction H as [|[k u] [k' w] d e [E G] H IH]; cbn in *; [constructor|]. constructor; [split; [exact E|cbn; eauto]|exact IH]. }
  rewrite <- (zr_nearest _ _ _ y Z1). pose proof (zr_get _ _ _ y Z1) as O.
  destruct (dget Z.eqb (k_pd s) y) as [b|], (dget Z.eqb vd y) as [v|]; cbn in O; try contradiction.
  - destruct O as (c & -> & B). exact B.
  - destruct (nearest_year (k_pd s) y) as [base|]; [|reflexivity]. destruct (Z.eqb base y); [reflexivity|].
    pose proof (zr_get_r _ _ _ base Z1) as O2. destruct (dget_r Z.eqb (k_pd s) base) as [b|e], (dget_r Z.eqb vd base) as [v|e']; cbn in O2; try contradiction; [|subst; reflexivity].
    destruct O2 as (c & -> & B). cbn [bind]. pose proof (m_ia s t M y (Some base)) as IA. destruct (k_ia s y (Some base)) as [f|], (TaxModel.x_ia t y (Some base)) as [f'|]; cbn in IA; try contradiction; [|subst; reflexivity].
    cbn [bind]. destruct (lift_nr Qmult b f _ _ B IA) as (x & Ex & X). unfold qmul. rewrite Ex. exact X.
Qed.
Lemma credit_rate_rel s t y : sim s t -> agree nr (credit_rate s y) (TaxModel.credit_rate t y).
Proof.
  intros M. unfold credit_rate, TaxModel.credit_rate. rewrite <- (zr_nearest _ _ _ y (m_cr s t M)). destruct (nearest_year (k_cr s) y); [|reflexivity]. apply zr_get_r, (m_cr s t M).
Qed.
Lemma bracket_of_rel b c i j : tr nr b c -> va i = j -> agree nr (bracket_of b i) (RegModel.bracket_of c j).
Proof.
  intros B I. unfold bracket_of, RegModel.bracket_of. pose proof (tr_keys nr b c B) as K. pose proof (max_opt _ _ (filter_rel j _ _ K)) as O. rewrite I.
  destruct (kmax_opt _), (RegModel.qmax_opt _); cbn in O; try contradiction; [exact O|]. clear O. pose proof (min_opt _ _ K) as O.
  destruct (kmin_opt _), (RegModel.qmin_opt _); cbn in O; try contradiction; [exact O|reflexivity].
Qed.
Lemma marginal_bracket_rel s t i j y : sim s t -> va i = j -> agree (both nr) (marginal_bracket s i y) (TaxModel.marginal_bracket t j y).
Proof.
  intros M I. unfold marginal_bracket, TaxModel.marginal_bracket. eapply agree_bind; [apply (tax_brackets_rel s t y M)|]. intros [b s1] [c t1] [B M1]. cbn [fst snd] in *.
  eapply agree_bind; [apply (bracket_of_rel b c i j B I)|]. intros k k' K. now split.
Qed.
Lemma marginal_rate_rel s t i j y : sim s t -> va i = j -> agree (both nr) (marginal_rate s i y) (TaxModel.marginal_rate t j y).
Proof.
  intros M I. unfold marginal_rate, TaxModel.marginal_rate. eapply agree_bind; [apply (tax_brackets_rel s t y M)|]. intros [b s1] [c t1] [B M1]. cbn [fst snd] in *.
  eapply agree_bind; [apply (marginal_bracket_rel s1 t1 i j y M1 I)|]. intros [k s2] [k' t2] [K M2]. cbn [fst snd] in *.
  eapply agree_bind; [apply (tr_get_r nr b c k k' B K)|]. intros r r' X. now split.
Qed.
Lemma tax_money_rel s t i j y d d' c c' : sim s t -> nr i j -> nr d d' -> nr c c' -> agree (both pr) (tax_money s i y d c) (TaxModel.tax_money t j y d' c').
Proof.
  intros M I D C. unfold tax_money, TaxModel.tax_money. destruct (lift_nr Qminus i d _ _ I D) as (ti & Et & T). unfold qsub at 1. rewrite Et. cbn [bind].
  eapply agree_bind; [apply (tax_brackets_rel s t y M)|]. intros [b s1] [b' t1] [B M1]. cbn [fst snd] in *.
  eapply agree_bind; [apply (marginal_bracket_rel s1 t1 ti (j - d') y M1 (proj1 T))|]. intros [k s2] [k' t2] [K M2]. cbn [fst snd] in *.
  eapply agree_bind; [apply (tr_get_r nr b b' k k' B K)|]. intros r r' X.
  eapply agree_bind; [apply (accum_rel s2 t2 y M2)|]. intros [a s3] [a' t3] [A M3]. cbn [fst snd] in *.
  eapply agree_bind; [apply (tr_get_r pr a a' k k' A K)|]. intros v v' V.
  destruct (lift_nr Qminus ti k _ _ T K) as (o & Eo & O). unfold qsub at 1. rewrite Eo. cbn [bind].
  destruct (lift_nr Qmult o r _ _ O X) as (m & Em & Mm). unfold qmul at 1. rewrite Em. cbn [bind].
  destruct (lift_pr_l Qplus v m _ _ V Mm) as (g & Eg & G). unfold qadd. rewrite Eg. cbn [bind].
  eapply agree_bind; [apply (credit_rate_rel s3 t3 y M3)|]. intros cr cr' CR.
  destruct (lift_nr Qmult c cr _ _ C CR) as (x & Ex & XX). unfold qmul. rewrite Ex. cbn [bind].
  destruct (lift_pr_l Qminus g x _ _ G XX) as (n & En & N). unfold qsub. rewrite En. cbn [bind agree both fst snd].
  split; [|exact M3]. rewrite (m_hp s t M). apply max_pr; [exact N|apply zero_pr].
Qed.
Record payer_rel (p : kpayer) (q : TaxModel.taxpayer) : Prop := {
  r_income : zr nr (kp_income p) (TaxModel.tp_income q); r_ded : zr nr (kp_deduction p) (TaxModel.tp_deduction q); r_cred : zr nr (kp_credit p) (TaxModel.tp_credit q) }.
Lemma tax_person_rel s t p q y d d' c c' : sim s t -> payer_rel p q -> nr d d' -> nr c c' -> agree (both pr) (tax_person s p y d c) (TaxModel.tax_person t q y d' c').
Proof.
  intros M PP D C. unfold tax_person, TaxModel.tax_person, TaxModel.deduction, TaxModel.credit.
  eapply agree_bind; [apply (zr_get_r _ _ _ y (r_income p q PP))|]. intros i i' I.
  pose proof (zr_get_r _ _ _ y (r_ded p q PP)) as DD. destruct (dget_r Z.eqb (kp_deduction p) y) as [d1|], (dget_r Z.eqb (TaxModel.tp_deduction q) y) as [d1'|]; cbn in DD; try contradiction; [|subst; reflexivity]. cbn [bind].
  pose proof (personal_deduction_rel s t y M) as PD. destruct (personal_deduction s y) as [pd|], (TaxModel.personal_deduction t y) as [pd'|]; cbn in PD; try contradiction; [|subst; reflexivity]. cbn [bind].
  destruct (lift_nr Qplus pd d1 _ _ PD DD) as (d2 & E2 & D2). unfold qadd at 1. rewrite E2. cbn [bind].
  destruct (lift_nr Qplus d1 d2 _ _ DD D2) as (d3 & E3 & D3). unfold qadd at 1. rewrite E3. cbn [bind].
  destruct (lift_nr Qplus d3 d _ _ D3 D) as (d4 & E4 & D4). unfold qadd at 1. rewrite E4. cbn [bind].
  pose proof (zr_get_r _ _ _ y (r_cred p q PP)) as CC. destruct (dget_r Z.eqb (kp_credit p) y) as [c1|], (dget_r Z.eqb (TaxModel.tp_credit q) y) as [c1'|]; cbn in CC; try contradiction; [|subst; reflexivity]. cbn [bind].
  destruct (lift_nr Qplus c1 c1 _ _ CC CC) as (c2 & F2 & C2). unfold qadd at 1. rewrite F2. cbn [bind].
  destruct (lift_nr Qplus c2 c _ _ C2 C) as (c3 & F3 & C3). unfold qadd at 1. rewrite F3. cbn [bind].
  now apply tax_money_rel.
Qed.
Definition nat_rel (d : dict nat qn) (e : dict nat Q) : Prop := Forall2 (fun kv qv => fst kv = fst qv /\ nr (snd kv) (snd qv)) d e.
Lemma amount_rel d e n : nat_rel d e -> nr (amount_for d n) (TaxModel.amount_for e n).
Proof.
  intros H. unfold amount_for, TaxModel.amount_for. induction H as [|[k u] [k' w] d e [E G] H IH]; cbn in *; [split; [reflexivity|apply fits_int]|]. subst k'. destruct (Nat.eqb n k); [exact G|exact IH].
Qed.
Lemma tax_each_rel s t who who' people y d d' c c' : sim s t -> (forall n, payer_rel (who n) (who' n)) -> nat_rel d d' -> nat_rel c c' ->
  agree (both pr) (tax_each s who people y d c) (TaxModel.tax_each t who' people y d' c').
Proof.
  intros M W D C. revert s t M. induction people as [|n r IH]; intros s t M; cbn [tax_each TaxModel.tax_each].
  - split; [|exact M]. cbn [fst]. rewrite (m_hp s t M). apply zero_pr.
  - eapply agree_bind; [apply (tax_person_rel s t (who n) (who' n) y _ _ _ _ M (W n) (amount_rel d d' n D) (amount_rel c c' n C))|]. intros [a s1] [a' t1] [A M1]. cbn [fst snd] in *.
    eapply agree_bind; [apply (IH s1 t1 M1)|]. intros [b s2] [b' t2] [B M2]. cbn [fst snd] in *.
    destruct (lift_pr_l Qplus a b _ _ A (pr_nr _ _ B)) as (v & Ev & V). unfold qadd. rewrite Ev. now split.
Qed.
Lemma tax_people_rel fuel order spouse who who' y d d' c c' : (forall n, payer_rel (who n) (who' n)) -> nat_rel d d' -> nat_rel c c' -> forall s t people, sim s t ->
  agree (both pr) (tax_people fuel order s who spouse people y d c) (TaxModel.tax_people fuel order t who' spouse people y d' c').
Proof.
  intros W D C. assert (Z : forall s t, sim s t -> both pr (conv (k_hp s) (whole 0), s) (0, t)) by (intros s t M; split; [cbn [fst]; rewrite (m_hp s t M); apply zero_pr|exact M]).
  induction fuel as [|f IH]; intros s t people M; cbn [tax_people TaxModel.tax_people]; (destruct people as [|n r]; [now apply Z|]); [reflexivity|].
  assert (rest : forall m m' l, agree (both pr) m m' -> agree (both pr)
     (let* (t0, s1) := m in let* (u, s2) := tax_people f order s1 who spouse l y d c in let* v := qadd t0 u in Ok (v, s2))
     (let* (t0, s1) := m' in let* (u, s2) := TaxModel.tax_people f order s1 who' spouse l y d' c' in Ok (t0 + u, s2))).
  { intros m m' l E. eapply agree_bind; [exact E|]. intros [a s1] [a' t1] [A M1]. cbn [fst snd] in *. eapply agree_bind; [apply (IH s1 t1 l M1)|]. intros [b s2] [b' t2] [B M2]. cbn [fst snd] in *.
    destruct (lift_pr_l Qplus a b _ _ A (pr_nr _ _ B)) as (v & Ev & V). unfold qadd. rewrite Ev. now split. }
  assert (alone : forall l, agree (both pr)
     (let* (t0, s1) := tax_person s (who n) y (amount_for d n) (amount_for c n) in let* (u, s2) := tax_people f order s1 who spouse l y d c in let* v := qadd t0 u in Ok (v, s2))
     (let* (t0, s1) := TaxModel.tax_person t (who' n) y (TaxModel.amount_for d' n) (TaxModel.amount_for c' n) in let* (u, s2) := TaxModel.tax_people f order s1 who' spouse l y d' c' in Ok (t0 + u, s2))).
  { intros l. apply rest. apply tax_person_rel; auto; now apply amount_rel. }
  destruct (spouse n) as [m|]; [|apply alone]. destruct (existsb (Nat.eqb m) (n :: r)); [|apply alone]. apply rest. now apply tax_each_rel.
Qed.
End Sim.
Lemma amounts_rel_z h (d : dict Z qn) : amounts_fit h d -> zr (nr h) d (plain_amounts d).
Proof. intros H. induction H as [|[k v] d F H IH]; cbn; constructor; auto. split; [reflexivity|]. now split. Qed.
Lemma amounts_rel_n h (d : dict nat qn) : amounts_fit h d -> nat_rel h d (plain_amounts d).
Proof. intros H. induction H as [|[k v] d F H IH]; cbn; constructor; auto. split; [reflexivity|]. now split. Qed.
Lemma table_rel h b : table_fits h b -> tr h (nr h) b (plain_table b).
Proof. intros H. induction H as [|[k v] b [F G] H IH]; cbn; constructor; auto. split; now split. Qed.
Lemma payer_fits_rel h p : payer_fits h p -> payer_rel h p (plain_payer p).
Proof. intros (A & B & C). split; now apply amounts_rel_z. Qed.
Lemma add_all_rel h hp l : (hp = true -> h = true) -> tables_fit h l -> forall s t, sim h hp s t -> agree (sim h hp) (add_all_brackets s l) (TaxModel.add_all_brackets t (plain_tables l)).
Proof.
  intros C H. induction H as [|[y b] l F H IH]; intros s t M; cbn [add_all_brackets plain_tables map TaxModel.add_all_brackets fst snd]; [exact M|].
  eapply agree_bind; [apply (add_brackets_rel h hp C s t b (plain_table b) y M (table_rel h b F))|]. intros s' t' M'. now apply IH.
Qed.
Lemma infl_rel h ia : inflation_fits h ia -> agree (fun f g => forall y b, agree (nr h) (f y b) (g y b)) (build_inflation_adjust ia) (InflationModel.build_inflation_adjust (plain_inflation ia)).
Proof.
  intros F. destruct ia as [|d|f|]; cbn; [intros; split; [reflexivity|apply fits_int]| | |reflexivity].
  - assert (K : dkeys (plain_amounts d) = dkeys d) by (unfold dkeys, plain_amounts; rewrite map_map; reflexivity). rewrite K. destruct (zminl (dkeys d)) as [m|]; [|reflexivity]. cbn. intros y b.
    assert (Z1 : zr (fun a q => va a = q /\ proper h (kd a)) d (plain_amounts d)) by (clear - F; cbn in F; induction F as [|[k v] d E F IH]; [constructor|]; cbn; constructor; [split; [reflexivity|now split]|exact IH]).
    eapply agree_bind; [apply (zr_get_r _ _ _ y Z1)|]. intros x x' [<- X]. eapply agree_bind; [apply (zr_get_r _ _ _ _ Z1)|]. intros z z' [<- Z].
    unfold kqdiv. destruct (mix_l h _ _ X (fits_proper _ _ Z)) as (k & -> & Pk). unfold qdiv. destruct (Qeq_bool (va z) 0); cbn; [reflexivity|]. split; [reflexivity|]. apply fits_proper. cbn [kd]. now apply kdiv_kind.
  - intros y b. cbn in F. specialize (F y b). destruct (f y b) as [v|e]; cbn; [|reflexivity]. split; [reflexivity|now apply F].
Qed.
Lemma init_rel h hp brackets pd cr ia : (hp = true -> h = true) -> tables_fit h brackets -> amounts_fit h pd -> amounts_fit h cr -> inflation_fits h ia ->
  agree (sim h hp) (tax_init hp brackets pd cr ia) (TaxModel.tax_init (plain_tables brackets) (plain_amounts pd) (plain_amounts cr) (plain_inflation ia)).
Proof.
  intros C B P R I. unfold tax_init, TaxModel.tax_init. eapply agree_bind; [apply (infl_rel h ia I)|]. intros f g FG.
  eapply agree_bind; [apply (add_all_rel h hp brackets C B); split; cbn; auto; try constructor; now apply amounts_rel_z|]. intros s t M.
  assert (Z : forall x (d : dict Z qn), amounts_fit h d -> agree (zr (nr h))
     (match d with [] => match zminl (dkeys (k_brk s)) with Some y => Ok [(y, conv hp (whole x))] | None => Err ValueError end | _ => Ok d end)
     (match plain_amounts d with [] => match zminl (dkeys (TaxModel.x_brk t)) with Some y => Ok [(y, x)] | None => Err ValueError end | _ => Ok (plain_amounts d) end)).
  { intros x d D. rewrite (zr_keys _ _ _ (m_brk h hp s t M)). destruct d as [|kv d]; cbn [plain_amounts map].
    - destruct (zminl _); [|reflexivity]. constructor; [|constructor]. split; [reflexivity|]. apply pr_nr with (hp := hp). now apply zero_pr.
    - exact (amounts_rel_z h (kv :: d) D). }
  eapply agree_bind; [apply (Z 0 pd P)|]. intros p p' PP. eapply agree_bind; [apply (Z 1 cr R)|]. intros c c' CC. destruct M. split; cbn; auto.
Qed.
Lemma ask_rel h hp s t q : (hp = true -> h = true) -> sim h hp s t -> query_fits h q ->
  agree (both h hp (fun a v => nr h a v /\ (is_tax q = true -> hp = true -> kd a = High))) (ask s q) (ask_plain t q).
Proof.
  intros C M F.
  assert (T : is_tax q = true -> forall m n, agree (both h hp (pr h hp)) m n -> agree (both h hp (fun a v => nr h a v /\ (is_tax q = true -> hp = true -> kd a = High))) m n).
  { intros _ [[a s1]|] [[v t1]|]; cbn; auto. intros [[A H] X]. split; [split; auto|exact X]. }
  assert (N : is_tax q = false -> forall m n, agree (both h hp (nr h)) m n -> agree (both h hp (fun a v => nr h a v /\ (is_tax q = true -> hp = true -> kd a = High))) m n).
  { intros -> [[a s1]|] [[v t1]|]; cbn; auto. intros [A X]. split; [split; [exact A|discriminate]|exact X]. }
  destruct q; cbn [ask ask_plain query_fits] in *.
  - apply T; [reflexivity|]. destruct F as (F1 & F2 & F3). apply tax_money_rel; auto; now split.
  - apply T; [reflexivity|]. destruct F as (F1 & F2 & F3). apply tax_person_rel; auto; try (now split). now apply payer_fits_rel.
  - apply T; [reflexivity|]. destruct F as (F1 & F2 & F3). apply (tax_people_rel h hp C); auto using amounts_rel_n. intros n. now apply payer_fits_rel.
  - apply N; [reflexivity|]. now apply marginal_rate_rel.
  - apply N; [reflexivity|]. now apply marginal_bracket_rel.
  - apply N; [reflexivity|]. eapply agree_bind; [apply (personal_deduction_rel h hp s t year M)|]. intros a v A. now split.
  - apply N; [reflexivity|]. eapply agree_bind; [apply (credit_rate_rel h hp s t year M)|]. intros a v A. now split.
Qed.

(** Whatever is asked of a Tax object, in whatever order: if every number given to it is a whole number or of one other type, it answers
    exactly as if there were no types - the same errors, the same values - and if it was made with high_precision, every tax it computes is
    of the high-precision type. *)
Theorem C118_agrees_partial : forall h hp brackets pd cr ia qs, (hp = true -> h = true) ->
  tables_fit h brackets -> amounts_fit h pd -> amounts_fit h cr -> inflation_fits h ia -> Forall (query_fits h) qs ->
  match (let* t := TaxModel.tax_init (plain_tables brackets) (plain_amounts pd) (plain_amounts cr) (plain_inflation ia) in ask_all_plain t qs) with
  | Err e => (let* s := tax_init hp brackets pd cr ia in ask_all s qs) = Err e
  | Ok values => exists answers, (let* s := tax_init hp brackets pd cr ia in ask_all s qs) = Ok answers /\
      map fst answers = qs /\ map (fun qa => va (snd qa)) answers = values /\
      forall q a, In (q, a) answers -> fits h (kd a) /\ (hp = true -> is_tax q = true -> kd a = High)
  end.
Proof.
  intros h hp brackets pd cr ia qs C B P R I F. pose proof (init_rel h hp brackets pd cr ia C B P R I) as M.
  destruct (tax_init hp brackets pd cr ia) as [s|e], (TaxModel.tax_init _ _ _ _) as [t|e']; cbn in M; try contradiction; [|now subst]. cbn [bind]. clear - M F C.
  revert s t M. induction F as [|q qs Q F IH]; intros s t M; cbn [ask_all ask_all_plain].
  - exists []. repeat split; contradiction.
  - pose proof (ask_rel h hp s t q C M Q) as A. destruct (ask s q) as [[a s1]|e], (ask_plain t q) as [[v t1]|e']; cbn in A; try contradiction; [|now subst]. cbn [bind].
    destruct A as [[A H] M1]. cbn [fst snd] in *. specialize (IH s1 t1 M1). destruct (ask_all_plain t1 qs) as [vs|e]; cbn [bind]; [|now rewrite IH].
    destruct IH as (as_ & -> & E1 & E2 & E3). cbn [bind]. eexists. split; [reflexivity|]. cbn [map fst snd]. rewrite E1, E2, (proj1 A). split; [reflexivity|]. split; [reflexivity|].
    intros q' a' [X|X]; [|now apply E3]. injection X as <- <-. split; [exact (proj2 A)|]. intros X Y. now apply H.
Qed.
Print Assumptions C118_agrees_partial.

(** In particular, the tax on an amount for a year in the tables is the sum over the brackets of C38, in high precision if that was asked for. *)
Theorem C118_sum_over_brackets : forall h hp brackets pd cr ia s x y d, (hp = true -> h = true) ->
  tables_fit h brackets -> amounts_fit h pd -> amounts_fit h cr -> inflation_fits h ia -> fits h (kd x) ->
  dwf Z.eqb brackets -> (forall y d, In (y, d) brackets -> TaxSpec.table_ok (plain_table d)) -> dget Z.eqb brackets y = Some d -> TaxSpec.rates_nonneg (plain_table d) ->
  tax_init hp brackets pd cr ia = Ok s ->
  exists t s', tax_money s x y (whole 0) (whole 0) = Ok (t, s') /\ va t == TaxSpec.progressive (plain_table d) (va x) /\ (hp = true -> kd t = High).
Proof.
  intros h hp brackets pd cr ia s x y d C B P R I Fx W TO G RN E. pose proof (init_rel h hp brackets pd cr ia C B P R I) as M. rewrite E in M.
  destruct (TaxModel.tax_init _ _ _ _) as [t|e] eqn:EI; cbn in M; [|contradiction].
  assert (BU : Prop_Tax.built (plain_tables brackets) t y (plain_table d)).
  { split; [eauto|]. split; [|split].
    - clear - W. induction brackets as [|[k b] l IH]; cbn in *; [exact Logic.I|]. destruct W as [W1 W2]. split; [|now apply IH]. clear - W1. induction l as [|[k' b'] l IH]; cbn in *; [reflexivity|]. destruct (Z.eqb k k'); [discriminate|auto].
    - intros y0 d0 H. apply in_map_iff in H. destruct H as ([y1 d1] & H1 & H2). injection H1 as <- <-. now apply (TO y1).
    - clear - G. induction brackets as [|[k b] l IH]; cbn in *; [discriminate|]. destruct (Z.eqb y k); [now injection G as ->|auto]. }
  destruct (Prop_Tax.C38_sum_over_brackets _ _ _ _ BU RN (va x)) as (v & (t' & PY) & V). cbn in PY.
  pose proof (tax_money_rel h hp C s t x (va x) y (whole 0) 0 (whole 0) 0 M (conj eq_refl Fx) (conj eq_refl (fits_int h 0)) (conj eq_refl (fits_int h 0))) as A.
  unfold TaxModel.call_money in PY. cbn [TaxModel.opt0] in PY. rewrite PY in A. destruct (tax_money s x y (whole 0) (whole 0)) as [[a s']|e]; cbn in A; [|contradiction].
  destruct A as [[[VA _] HA] _]. cbn in VA, HA. exists a, s'. split; [reflexivity|]. split; [now rewrite VA|exact HA].
Qed.
Print Assumptions C118_sum_over_brackets.

(** *** Several jurisdictions *)
(** the arguments a jurisdiction is made with: brackets, personal deductions, credit rates, inflation *)
Definition made_with : Type := dict Z ktable * dict Z qn * dict Z qn * kinfl.
Definition made_fits (h : bool) (m : made_with) : Prop := let '(b, p, c, ia) := m in tables_fit h b /\ amounts_fit h p /\ amounts_fit h c /\ inflation_fits h ia.
Definition make (hp : bool) (m : made_with) : res ktax := let '(b, p, c, ia) := m in tax_init hp b p c ia.
Definition make_plain (m : made_with) : res TaxModel.tax := let '(b, p, c, ia) := m in TaxModel.tax_init (plain_tables b) (plain_amounts p) (plain_amounts c) (plain_inflation ia).
Lemma opt_amount h d i : amounts_fit h d -> nr h (opt0 (dget Nat.eqb d i)) (TaxModel.opt0 (dget Nat.eqb (plain_amounts d) i)).
Proof. intros H. induction H as [|[k v] d F H IH]; cbn; [split; [reflexivity|apply fits_int]|]. destruct (Nat.eqb i k); [split; [reflexivity|exact F]|exact IH]. Qed.
(** The tax charged by several jurisdictions on an amount of money: the same with the types as without them, and in high precision if they are. *)
Theorem C118_multi_partial : forall h hp js income year ded cred, (hp = true -> h = true) -> Forall (made_fits h) js ->
  fits h (kd income) -> amounts_fit h ded -> amounts_fit h cred ->
  match (let* l := mapM make_plain js in TaxModel.multi_call l (va income) year (plain_amounts ded) (plain_amounts cred)) with
  | Err e => (let* l := mapM (make hp) js in multi_call l income year ded cred) = Err e
  | Ok (v, _) => exists a l', (let* l := mapM (make hp) js in multi_call l income year ded cred) = Ok (a, l') /\
      va a == v /\ fits h (kd a) /\ (hp = true -> js <> [] -> kd a = High)
  end.
Proof.
  intros h hp js income year ded cred C J I D R.
  assert (M : agree (Forall2 (sim h hp)) (mapM (make hp) js) (mapM make_plain js)).
  { clear - C J. induction J as [|[[[b p] c] ia] js (B & P & Cr & I) J IH]; cbn [mapM]; [constructor|]. eapply agree_bind; [apply (init_rel h hp b p c ia C B P Cr I)|]. intros s t M. eapply agree_bind; [exact IH|]. intros l l' L. now constructor. }
  assert (LN : forall l l', mapM (make hp) js = Ok l -> Forall2 (sim h hp) l l' -> js <> [] -> l <> []) by (intros l l' E F N ->; destruct js as [|j js]; [contradiction|]; cbn in E; destruct (make hp j); [|discriminate]; cbn in E; destruct (mapM _ js); discriminate).
  destruct (mapM (make hp) js) as [l|e], (mapM make_plain js) as [l'|e']; cbn in M; try contradiction; [|now subst]. cbn [bind]. specialize (LN l l' eq_refl M).
  assert (X : forall i x, fits h (kd x) -> match TaxModel.sum_over (fun i j => TaxModel.call_money j (va income) year (dget Nat.eqb (plain_amounts ded) i) (dget Nat.eqb (plain_amounts cred) i)) i l' with
     | Err e => multi_from i x l income year ded cred = Err e
     | Ok (v, _) => exists a m, multi_from i x l income year ded cred = Ok (a, m) /\ va a == va x + v /\ fits h (kd a) /\ (hp = true -> kd x = High \/ l <> [] -> kd a = High) end).
  { clear J LN. induction M as [|s t l l' S M IH]; intros i x F; cbn [TaxModel.sum_over multi_from]; [exists x, []; repeat split; auto; [Lqa.lra|intros _ [X | X]; [exact X|contradiction]]|].
    unfold TaxModel.call_money at 1. pose proof (tax_money_rel h hp C s t income (va income) year _ _ _ _ S (conj eq_refl I) (opt_amount h ded i D) (opt_amount h cred i R)) as A.
    destruct (tax_money s income year _ _) as [[a s']|e], (TaxModel.tax_money t _ _ _ _) as [[v t']|e']; cbn in A; try contradiction; [|now subst]. cbn [bind]. destruct A as [A _]. cbn [fst] in A.
    destruct (lift_pr_r h hp Qplus x a (va x) v (conj eq_refl F) A) as (y & E & [[VY FY] HY]). unfold qadd. rewrite E. cbn [bind]. specialize (IH (Datatypes.S i) y FY).
    destruct (TaxModel.sum_over _ (Datatypes.S i) l') as [[u k]|e]; cbn [bind]; [|now rewrite IH]. destruct IH as (z & m & E2 & V2 & F2 & H2). rewrite E2. cbn [bind]. exists z, (s' :: m). split; [reflexivity|]. split; [rewrite V2, VY; Lqa.lra|]. split; [exact F2|]. intros P _. apply H2; [exact P|]. left. now apply HY. }
  specialize (X 0%nat (whole 0) (fits_int h 0)). unfold multi_call, TaxModel.multi_call. destruct (TaxModel.sum_over _ 0%nat l') as [[v k]|e]; [|exact X]. destruct X as (a & m & E & V & F & H). exists a, m. split; [exact E|]. split; [rewrite V; cbn; Lqa.lra|]. split; [exact F|]. intros P N. apply H; [exact P|]. right. now apply LN.
Qed.
Print Assumptions C118_multi_partial.

(** *** Inflation in floats *)
(** the inflation adjustment from every year of the brackets to [year] is a float: a function that gives floats, or a table of whole
    numbers or floats *)
Definition float_inflation (ia : kinfl) (brackets : dict Z ktable) (year : Z) : Prop :=
  match ia with
  | ICallable f => forall y, In y (dkeys brackets) -> exists v, f year (Some y) = Ok v /\ kd v = Float
  | IDict d => (exists v, dget Z.eqb d year = Some v /\ kd v <> High) /\ forall y, In y (dkeys brackets) -> exists v, dget Z.eqb d y = Some v /\ kd v <> High /\ ~ va v == 0
  | _ => False
  end.
(** rates of the high-precision type, thresholds of that type or whole numbers *)
Definition high_table (b : ktable) : Prop := Forall (fun kv => kd (fst kv) <> Float /\ kd (snd kv) = High) b.

(** the same number, of the same type *)
Definition same (a b : qn) : Prop := va a == va b /\ kd a = kd b.
Definition among (a : qn) (l : list qn) : Prop := exists y, In y l /\ same a y.
Lemma min2_in a b : same (kmin2 a b) a \/ same (kmin2 a b) b.
Proof. unfold same, kmin2, qmin. cbn [va kd]. destruct (Qlt_bool (va b) (va a)) eqn:E, (Qle_bool (va a) (va b)) eqn:L; qb; try (left; split; [Lqa.lra|reflexivity]); right; split; try reflexivity; Lqa.lra. Qed.
Lemma fold_min_in : forall l a, among (fold_left kmin2 l a) (a :: l).
Proof.
  induction l as [|b l IH]; intros a; cbn [fold_left]; [exists a; split; [now left|split; reflexivity]|].
  destruct (IH (kmin2 a b)) as (y & I & V & K). destruct I as [<- | I]; [|exists y; split; [right; now right|now split]].
  destruct (min2_in a b) as [[V2 K2] | [V2 K2]]; [exists a|exists b]; (split; [cbn; tauto|]); split; [now rewrite V|congruence|now rewrite V|congruence].
Qed.
Lemma max2_in a b : same (kmax2 a b) a \/ same (kmax2 a b) b.
Proof. unfold same, kmax2, qmax. cbn [va kd]. destruct (Qlt_bool (va a) (va b)) eqn:E, (Qle_bool (va a) (va b)) eqn:L; qb; try (left; split; [Lqa.lra|reflexivity]); right; split; try reflexivity; Lqa.lra. Qed.
Lemma fold_max_in : forall l a, among (fold_left kmax2 l a) (a :: l).
Proof.
  induction l as [|b l IH]; intros a; cbn [fold_left]; [exists a; split; [now left|split; reflexivity]|].
  destruct (IH (kmax2 a b)) as (y & I & V & K). destruct I as [<- | I]; [|exists y; split; [right; now right|now split]].
  destruct (max2_in a b) as [[V2 K2] | [V2 K2]]; [exists a|exists b]; (split; [cbn; tauto|]); split; [now rewrite V|congruence|now rewrite V|congruence].
Qed.
Lemma min_opt_in l p : kmin_opt l = Some p -> among p l.
Proof. destruct l as [|a l]; cbn [kmin_opt]; [discriminate|]. intros E. injection E as <-. apply fold_min_in. Qed.
Lemma max_opt_in l p : kmax_opt l = Some p -> among p l.
Proof. destruct l as [|a l]; cbn [kmax_opt]; [discriminate|]. intros E. injection E as <-. apply fold_max_in. Qed.
Lemma bracket_in b i k : bracket_of b i = Ok k -> among k (dkeys b).
Proof.
  unfold bracket_of. destruct (kmax_opt _) as [m|] eqn:E.
  - intros H. injection H as <-. apply max_opt_in in E. destruct E as (y & I & S). apply filter_In in I. exists y. now split.
  - destruct (kmin_opt (dkeys b)) as [m|] eqn:E2; intros H; [|discriminate]. injection H as <-. now apply min_opt_in.
Qed.
Lemma bracket_some b i : b <> [] -> exists k, bracket_of b i = Ok k.
Proof. intros N. unfold bracket_of. destruct (kmax_opt _); [eauto|]. destruct b as [|[k r] b]; [contradiction|]. cbn. eauto. Qed.
Lemma get_in (b : ktable) k : among k (dkeys b) -> exists v, dget keq b k = Some v /\ exists k', In (k', v) b.
Proof.
  induction b as [|[k' v'] b IH]; intros (y & I & V & K); cbn in I |- *; [contradiction|]. destruct (keq k k') eqn:E; [exists v'; split; [reflexivity|exists k'; now left]|].
  destruct I as [-> | I]; [unfold keq in E; apply Qeq_bool_iff in V; congruence|]. destruct IH as (v & G & k2 & J); [exists y; repeat split; auto|]. exists v. split; [exact G|]. exists k2. now right.
Qed.
(** keys all floats, rates in high precision *)
Definition float_keys (b : ktable) : Prop := Forall (fun kv => kd (fst kv) = Float /\ kd (snd kv) = High) b.
Lemma float_set b k v : float_keys b -> kd k = Float -> kd v = High -> float_keys (dset keq b k v).
Proof. intros H K V. induction H as [|[k' v'] b [E F] H IH]; cbn; [repeat constructor; auto|]. destruct (keq k k'); constructor; auto. Qed.
Lemma set_nonempty (b : ktable) k v : dset keq b k v <> []. Proof. destruct b as [|[k' v'] b]; cbn; [discriminate|]. destruct (keq k k'); discriminate. Qed.
Lemma scale_float (f : qn) (b : ktable) : kd f = Float -> high_table b -> forall out, float_keys out ->
  scale_keys (Ok f) b out = Err TypeError \/ exists c, scale_keys (Ok f) b out = Ok c /\ float_keys c /\ (b <> [] \/ out <> [] -> c <> []).
Proof.
  intros F H. induction H as [|[k r] b [K R] H IH]; intros out O; cbn [scale_keys]; [right; exists out; repeat split; auto; tauto|]. cbn [bind fst snd] in *.
  unfold qmul, lift. rewrite F. destruct (kd k) eqn:E; cbn [mix]; [|contradiction (K eq_refl)|now left]. cbn [bind].
  destruct (IH (dset keq out (Num Float (va k * va f)) r)) as [X | (c & X & C & N)]; [now apply float_set|now left|]. right. exists c. split; [exact X|]. split; [exact C|]. intros _. apply N. right. apply set_nonempty.
Qed.
Lemma float_accum hp (b : ktable) : float_keys b -> b <> [] ->
  add_accum hp b = Err TypeError \/ exists p k, dkeys b = [k] /\ keq k p = true /\ add_accum hp b = Ok [(p, conv hp (whole 0))].
Proof.
  intros F N. unfold add_accum. destruct (kmin_opt (dkeys b)) as [p|] eqn:E; [|destruct b as [|[? ?] ?]; [contradiction|discriminate]]. pose proof (min_opt_in _ _ E) as I.
  assert (KF : Forall (fun k : qn => kd k = Float) (dkeys b)). { clear - F. unfold dkeys. induction F as [|x b [X _] F IH]; cbn; constructor; auto. }
  assert (S : forall l : list qn, Forall (fun k : qn => kd k = Float) l -> Forall (fun k : qn => kd k = Float) (ksort l) /\ @List.length qn (ksort l) = @List.length qn l).
  { induction l as [|x l IH]; intros H; cbn; [split; [constructor|reflexivity]|]. inversion H; subst. destruct (IH ltac:(assumption)) as [A B]. revert A B. generalize (ksort l). intros m A B. rewrite <- B. clear - A H2.
    induction A as [|y m Y A IH]; cbn; [split; [now constructor|reflexivity]|]. destruct (Qle_bool (va x) (va y)); [split; [now repeat constructor|reflexivity]|]. destruct IH as [P Q]. split; [now constructor|]. cbn. now rewrite Q. }
  destruct (S _ KF) as [SF SL]. clear S.
  assert (Rm : forall l : list qn, Forall (fun k : qn => kd k = Float) l -> Forall (fun k : qn => kd k = Float) (kremove p l) /\ (@List.length qn l <= S (@List.length qn (kremove p l)))%nat).
  { intros l H. induction H as [|x l X H [A B]]; cbn; [split; [constructor|apply le_S, le_n]|]. destruct (keq x p); [split; [exact H|apply le_n]|]. split; [now constructor|cbn [List.length]; now apply le_n_S]. }
  destruct (Rm _ SF) as [RF RL]. rewrite SL in RL. destruct (kremove p (ksort (dkeys b))) as [|k ks] eqn:EK.
  - right. exists p. cbn in RL. destruct I as (y & I & V & _). destruct (dkeys b) as [|q [|q' l]]; [destruct I| |cbn in RL; lia]. destruct I as [-> | []]. exists y. repeat split. unfold keq. apply Qeq_bool_iff. now symmetry.
  - left. cbn [accum_loop]. inversion RF; subst. rewrite Forall_forall in KF. assert (KP : kd p = Float) by (destruct I as (y & I & V & ->); now apply KF). unfold qsub, lift at 1. rewrite H1, KP. cbn [mix bind].
    destruct (get_in b p I) as (v & G & k' & J). unfold dget_r at 1. rewrite G. cbn [bind]. unfold float_keys in F. rewrite Forall_forall in F. destruct (F _ J) as [_ V]. cbn in V. unfold qmul, lift. rewrite V. reflexivity.
Qed.
Lemma add_all_tables : forall l s s', add_all_brackets s l = Ok s' ->
  k_ia s' = k_ia s /\ k_hp s' = k_hp s /\ (forall y b, dget Z.eqb (k_brk s') y = Some b -> dget Z.eqb (k_brk s) y = Some b \/ In (y, b) l) /\
  (forall y b, In (y, b) l -> b <> []) /\ (forall y b, dget Z.eqb (k_brk s) y = Some b -> exists b', dget Z.eqb (k_brk s') y = Some b') /\ (l <> [] -> k_brk s' <> []).
Proof.
  induction l as [|[y b] l IH]; intros s s' H; cbn [add_all_brackets] in H; [injection H as <-; repeat split; auto; try contradiction; eauto|].
  unfold add_brackets in H. destruct (add_accum (k_hp s) b) as [a|e] eqn:E; cbn [bind] in H; [|discriminate].
  destruct (IH _ _ H) as (A & B & C & D & F & G). cbn in *. split; [exact A|]. split; [exact B|]. split; [|split; [|split]].
  - intros z c X. destruct (C z c X) as [Y | Y]; [|now right; right]. rewrite dget_dset in Y by (try exact Z.eqb_sym; try (intros ? ? ?; rewrite !Z.eqb_eq; congruence)).
    destruct (Z.eqb z y) eqn:Q; [injection Y as <-; apply Z.eqb_eq in Q; subst; right; now left|now left].
  - intros z c [X | X]; [injection X as <- <-|now apply (D z c)]. intros ->. cbn in E. discriminate.
  - intros z c X. destruct (Z.eqb z y) eqn:Q.
    + apply (F z b). rewrite dget_dset by (try exact Z.eqb_sym; try (intros ? ? ?; rewrite !Z.eqb_eq; congruence)). now rewrite Q.
    + apply (F z c). rewrite dget_dset by (try exact Z.eqb_sym; try (intros ? ? ?; rewrite !Z.eqb_eq; congruence)). now rewrite Q.
  - intros _ X. destruct (F y b) as (b' & Y); [rewrite dget_dset by (try exact Z.eqb_sym; try (intros ? ? ?; rewrite !Z.eqb_eq; congruence)); now rewrite Z.eqb_refl|]. now rewrite X in Y.
Qed.
Lemma nearest_some {V} (d : dict Z V) y : d <> [] -> exists b v, nearest_year d y = Some b /\ dget Z.eqb d b = Some v.
Proof. exact (TaxProofs3.nearest_some d y). Qed.
(** With inflation as floats - a table of whole numbers is enough - no tax can be computed in high precision for a year that is not in the
    tables. *)
Theorem C118_float_inflation_refuted : forall hp brackets pd cr ia s year income deduction credit, brackets <> [] ->
  Forall (fun yb => high_table (snd yb)) brackets -> ~ In year (dkeys brackets) -> float_inflation ia brackets year ->
  tax_init hp brackets pd cr ia = Ok s ->
  kd income <> Float -> kd deduction <> Float -> kd income = High \/ kd deduction = High ->
  tax_money s income year deduction credit = Err TypeError.
Proof.
  intros hp brackets pd cr ia s year income deduction credit NE HT NY FI E F1 F2 H. unfold tax_init in E.
  destruct (build_inflation_adjust ia) as [g|e] eqn:EI; cbn [bind] in E; [|discriminate].
  destruct (add_all_brackets _ brackets) as [s0|e] eqn:EB; cbn [bind] in E; [|discriminate].
  destruct (add_all_tables _ _ _ EB) as (A & B & C & D & _ & G). cbn in A, B, C.
  match type of E with bind ?m _ = _ => destruct m as [p|]; cbn [bind] in E; [|discriminate] end. match type of E with bind ?m _ = _ => destruct m as [c|]; cbn [bind] in E; [|discriminate] end. injection E as <-.
  assert (T : exists ti, qsub income deduction = Ok ti /\ kd ti = High).
  { unfold qsub, lift. destruct (kd income), (kd deduction); cbn in *; try (now destruct (F1 eq_refl)); try (now destruct (F2 eq_refl)); try (now destruct H); eexists; split; reflexivity. }
  destruct T as (ti & T & KT). unfold tax_money. rewrite T. cbn [bind]. unfold tax_brackets at 1. cbn [k_brk k_ia].
  assert (NO : dget Z.eqb (k_brk s0) year = None). { destruct (dget Z.eqb (k_brk s0) year) as [b|] eqn:X; [|reflexivity]. destruct (C _ _ X) as [Y | Y]; [discriminate|]. contradiction NY. unfold dkeys. apply in_map_iff. exists (year, b). now split. }
  rewrite NO. destruct (nearest_some (k_brk s0) year (G NE)) as (base & b & NB & GB). rewrite NB. unfold dget_r at 1. rewrite GB. cbn [bind]. destruct (C _ _ GB) as [Y | IB]; [discriminate|].
  assert (KB : In base (dkeys brackets)) by (unfold dkeys; apply in_map_iff; exists (base, b); now split).
  assert (FF : exists f, k_ia s0 year (Some base) = Ok f /\ kd f = Float).
  { rewrite A. destruct ia as [|d|f|]; cbn in FI; try contradiction.
    - cbn in EI. destruct (zminl (dkeys d)); [|discriminate]. injection EI as <-. destruct FI as ((v & V & KV) & W). destruct (W base KB) as (w & GW & KW & NW). unfold dget_r. rewrite V, GW. cbn [bind]. unfold kqdiv, qdiv.
      destruct (Qeq_bool (va w) 0) eqn:Z; [apply Qeq_bool_iff in Z; contradiction|]. destruct (kd v), (kd w); cbn; try (now destruct (KV eq_refl)); try (now destruct (KW eq_refl)); eexists; split; reflexivity.
    - cbn in EI. injection EI as <-. exact (FI base KB). }
  destruct FF as (f & -> & KF). rewrite Forall_forall in HT. pose proof (HT _ IB) as HB. cbn in HB.
  destruct (scale_float f b KF HB [] ltac:(constructor)) as [-> | (b' & -> & FK & N)]; [reflexivity|]. cbn [bind]. specialize (N (or_introl (D _ _ IB))).
  unfold add_brackets. cbn [k_hp k_brk k_acc]. destruct (float_accum hp b' FK N) as [-> | (p0 & k0 & EK & Q0 & ->)]; [reflexivity|]. cbn [bind with_tables].
  unfold marginal_bracket, tax_brackets. cbn [k_brk with_tables]. assert (ZS : forall a c, Z.eqb a c = Z.eqb c a) by exact Z.eqb_sym. assert (ZT : forall a c d, Z.eqb a c = true -> Z.eqb c d = true -> Z.eqb a d = true) by (intros ? ? ?; rewrite !Z.eqb_eq; congruence).
  rewrite dget_dset by assumption. rewrite Z.eqb_refl. cbn [bind]. destruct (bracket_some b' ti N) as (k & EBK). rewrite EBK. cbn [bind]. pose proof (bracket_in _ _ _ EBK) as IK. destruct (get_in b' k IK) as (r & GR & _). unfold dget_r at 1. rewrite GR. cbn [bind].
  unfold accum. cbn [k_acc with_tables]. rewrite dget_dset by assumption. rewrite Z.eqb_refl. cbn [bind]. rewrite EK in IK. destruct IK as (k1 & [<- | []] & V & K). unfold dget_r at 1. cbn [dget].
  assert (KQ : keq k p0 = true) by (unfold keq in *; apply Qeq_bool_iff; apply Qeq_bool_iff in Q0; now rewrite V). rewrite KQ. cbn [bind]. unfold qsub, lift. rewrite KT, K.
  assert (KK : kd k0 = Float). { destruct b' as [|[x y] b']; [discriminate|]. cbn in EK. injection EK as <- _. inversion FK as [|? ? [X _] _]; subst. exact X. }
  rewrite KK. reflexivity.
Qed.
Print Assumptions C118_float_inflation_refuted.

(** *** Canada *)
(** canada/tax.py takes high_precision and does not pass it on: no tax for a Canadian jurisdiction is the int 0, which the same tables
    and high_precision give in the high-precision type otherwise. *)
Theorem C118_canada_zero_refuted : forall rate income credit year ia g, build_inflation_adjust ia = Ok g ->
  0 < va income -> kd income = High -> kd rate = High -> kd credit = High -> va income * va rate < va credit ->
  let tax_of (init : bool -> dict Z ktable -> dict Z qn -> dict Z qn -> kinfl -> res ktax) :=
    let* s := init true [(year, [(whole 0, rate)])] [] [(year, whole 1)] ia in
    let* (t, _) := tax_money s income year (whole 0) credit in Ok t in
  tax_of canada_init = Ok (whole 0) /\ tax_of tax_init = Ok (Num High 0).
Proof.
  intros rate income credit year ia g EI P K1 K2 K3 L tax_of.
  assert (X : forall hp, (let* s := tax_init hp [(year, [(whole 0, rate)])] [] [(year, whole 1)] ia in let* (t, _) := tax_money s income year (whole 0) credit in Ok t) = Ok (conv hp (whole 0))).
  { intros hp. unfold tax_init. rewrite EI. cbn [bind add_all_brackets]. unfold add_brackets at 1. cbn [k_hp]. unfold add_accum. cbn [dkeys map fst kmin_opt fold_left ksort kinsert kremove]. unfold keq. cbn [va whole]. change (Qeq_bool 0 0) with true. cbn [accum_loop bind with_tables k_brk k_acc dset k_hp k_ia k_pd k_cr].
    cbn [dkeys map fst zminl]. cbn [bind fold_left]. unfold tax_money. unfold qsub at 1, lift at 1. rewrite K1. cbn [kd whole mix bind va]. unfold tax_brackets at 1. cbn [k_brk dget]. rewrite Z.eqb_refl. cbn [bind]. unfold marginal_bracket, tax_brackets. cbn [k_brk dget]. rewrite Z.eqb_refl. cbn [bind].
    unfold bracket_of. cbn [dkeys map fst filter va whole]. destruct (Qlt_bool 0 (va income - 0)) eqn:E; [|qb; Lqa.lra]. cbn [kmax_opt fold_left bind]. unfold dget_r at 1. cbn [dget]. unfold keq at 1. cbn [va whole]. change (Qeq_bool 0 0) with true. cbn [bind].
    unfold accum. cbn [k_acc dget]. rewrite Z.eqb_refl. cbn [bind]. unfold dget_r at 1. cbn [dget]. unfold keq at 1. cbn [va whole]. change (Qeq_bool 0 0) with true. cbn [bind]. unfold qsub at 1, lift at 1. cbn [kd mix bind va whole].
    unfold qmul at 1, lift at 1. rewrite K2. cbn [kd mix bind va]. unfold qadd, lift at 1. cbn [kd]. assert (M : mix (kd (conv hp (whole 0))) High = Some High) by (destruct hp; reflexivity). rewrite M. cbn [bind].
    unfold credit_rate. cbn [k_cr]. unfold nearest_year, dmem. cbn [dget]. rewrite Z.eqb_refl. unfold dget_r. cbn [dget]. rewrite Z.eqb_refl. cbn [bind]. unfold qmul, lift at 1. rewrite K3. cbn [kd whole mix bind va]. unfold qsub, lift. cbn [kd mix bind va]. rewrite conv_va. cbn [va whole].
    unfold kmax2, qmax. rewrite !conv_va. cbn [va kd whole]. destruct (Qlt_bool _ 0) eqn:E1; [|qb; exfalso; Lqa.nra]. destruct (Qle_bool _ 0) eqn:E2; [|qb; exfalso; Lqa.nra]. destruct hp; reflexivity. }
  split; [exact (X false)|exact (X true)].
Qed.
Print Assumptions C118_canada_zero_refuted.

(** *** Settling the tax *)
Open Scope R_scope.
(** what is paid at the time [t], and in all *)
Definition paid (d : kdict) (t : R) : R := Rsum (map (fun kv => if Reqb (va (fst kv)) t then va (snd kv) else 0) d).
Definition in_all (d : kdict) : R := Rsum (map (fun kv => va (snd kv)) d).
Lemma paid_wsum d t : paid d t = wsum (fun k => if Reqb k t then 1 else 0) (values d).
Proof. unfold paid, wsum, values. rewrite map_map. f_equal. apply map_ext. intros [k v]. cbn. destruct (Reqb (va k) t); lra. Qed.
Lemma all_wsum d : in_all d = wsum (fun _ => 1) (values d).
Proof. unfold in_all, wsum, values. rewrite map_map. f_equal. apply map_ext. intros [k v]. cbn. lra. Qed.
Lemma series_ok hp d x : weights hp d -> fits hp (kd x) -> in_all d <> 0 ->
  exists l, time_series d x = Ok l /\ payments hp l /\ forall f, wsum f (values l) = va x * wsum f (values d) / in_all d.
Proof.
  intros W F N. unfold time_series. destruct (sum_fits hp (map snd d) (int 0) (int_fits hp _) (weights_fit hp d W)) as (k & E & FK). rewrite E. cbn [bind].
  assert (T : va (int 0) + Rsum (map va (map snd d)) = in_all d) by (unfold in_all; rewrite map_map; cbn; lra). rewrite T. clear E T. revert N. generalize (in_all d). intros total N.
  induction W as [|[t w] d [[Ft It] Pw] W (l & E & P & S)]; cbn [mapM fst snd] in *; [exists []; repeat split; [constructor|intros f; unfold wsum; cbn; unfold Rdiv; lra]|].
  destruct (kdiv_l Rdiv hp w (Num k total) Pw FK N) as (k1 & E1 & P1). rewrite E1. cbn [bind]. destruct (lift_l Rmult hp (Num k1 (va w / va (Num k total))) x P1 F) as (k2 & E2 & P2). unfold kmul at 1. rewrite E2. cbn [bind].
  rewrite E. cbn [bind]. eexists. split; [reflexivity|]. split; [constructor; [cbn; repeat split; auto; try apply It; now apply fits_proper|exact P]|].
  intros f. specialize (S f). unfold wsum in *. cbn [values map Rsum fst snd va] in *. unfold values in S. rewrite S. cbn [va]. field. exact N.
Qed.
(** A tax adjustment (above 0: a refund) goes through if the Timing to be used has weights of the type in use: each time gets its share, and
    the money available changes by the adjustment in all.  So it does without high_precision. *)
Theorem C118_settlement_partial : forall hp available adjustment refund payment d,
  payments hp available -> fits hp (kd adjustment) -> va adjustment <> 0 ->
  tax_timing (if Rltb 0 (va adjustment) then refund else payment) = Ok d -> weights hp d -> in_all d <> 0 ->
  exists after, carryover_tax available adjustment refund payment = Ok after /\ payments hp after /\
    (forall t, paid after t = paid available t + va adjustment * (paid d t / in_all d)) /\ in_all after = in_all available + va adjustment.
Proof.
  intros hp av x r p d A F N T W S. destruct (series_ok hp d x W F S) as (l & E & P & V). destruct (added hp l av A P) as (after & E2 & P2 & V2). exists after.
  split; [|split; [exact P2|]].
  - unfold carryover_tax. destruct (Rltb 0 (va x)) eqn:L1; [rewrite T; cbn [bind]; rewrite E; exact E2|]. destruct (Rltb (va x) 0) eqn:L2; [rewrite T; cbn [bind]; rewrite E; exact E2|]. rb; lra.
  - split; [intros t; rewrite !paid_wsum, V2, wsum_radd, V; unfold Rdiv; lra|]. rewrite (all_wsum after), V2, wsum_radd, V, <- !all_wsum. field. exact S.
Qed.
Print Assumptions C118_settlement_partial.
(** Nothing is paid if there is nothing to settle. *)
Theorem C118_no_adjustment : forall available adjustment refund payment, va adjustment = 0 -> carryover_tax available adjustment refund payment = Ok available.
Proof. intros av x r p E. unfold carryover_tax. rewrite E. destruct (Rltb 0 0) eqn:L; [rb; lra|reflexivity]. Qed.

(** In high precision it never goes through if the timings were set as text or numbers, as the tax treatments do by default ("start") and in
    Canada (0.3): their weights are floats whatever high_precision is. *)
Lemma build_weights t f w : forall l d, build t f w l = Ok d -> Forall (fun kv => snd kv = w) d /\ List.length d = List.length l.
Proof.
  induction l as [|i l IH]; intros d; rewrite ?build_nil, ?build_cons; intros H; [injection H as <-; split; [constructor|reflexivity]|].
  destruct (kadd _ t) as [s|]; cbn [bind] in H; [|discriminate]. destruct (kdiv Rdiv s f) as [k|]; cbn [bind] in H; [|discriminate]. destruct (build t f w l) as [d'|]; cbn [bind] in H; [|discriminate]. injection H as <-.
  destruct (IH _ eq_refl) as [A B]. split; [now constructor|cbn; now rewrite B].
Qed.
Lemma float_weights w d : tax_timing (VWhen w) = Ok d -> d <> [] /\ Forall (fun kv => kd (snd kv) = Float) d.
Proof.
  cbn [tax_timing]. intros H.
  assert (B : exists t n, (0 < n)%Z /\ (let* weight := kdiv Rdiv (int 1) (int (IZR n)) in build t (int (IZR n)) weight (seq 0 (Z.to_nat n))) = Ok d).
  { destruct w as [x|s].
    - rewrite timing_plain in H by discriminate. destruct (when_conv _ _) as [t|]; cbn [bind] in H; [|discriminate]. exists t, 1%Z. split; [lia|exact H].
    - destruct (dmem String.eqb TimingModel.FREQUENCY_MAPPING s) eqn:M.
      + unfold timing in H. rewrite M in H. destruct (when_conv _ _) as [t|]; cbn [bind] in H; [|discriminate]. destruct (dget String.eqb TimingModel.FREQUENCY_MAPPING s) as [[n|]|] eqn:G; cbn [bind] in H; try discriminate.
        exists t, n. split; [|exact H]. cbn in G. repeat (match type of G with (if ?c then _ else _) = _ => destruct c end; [first [discriminate G | injection G as <-; lia]|]). discriminate.
      + rewrite timing_plain in H by (intros s' E; injection E as <-; exact M). destruct (when_conv _ _) as [t|]; cbn [bind] in H; [|discriminate]. exists t, 1%Z. split; [lia|exact H]. }
  destruct B as (t & n & P & E). assert (NP : 0 < IZR n) by now apply IZR_lt. unfold kdiv at 1 in E. cbn [kd va int mix] in E. destruct (Reqb (IZR n) 0) eqn:Z; [rb; lra|]. cbn [bind] in E.
  destruct (build_weights _ _ _ _ _ E) as [A L]. split; [intros ->; rewrite seq_length in L; cbn in L; lia|]. eapply Forall_impl; [|exact A]. intros kv ->. reflexivity.
Qed.
Lemma floats_fail d x : d <> [] -> Forall (fun kv : num R * num R => kd (snd kv) = Float) d -> kd x = High -> forall s, kd s <> High -> va s + in_all d <> 0 ->
  (let* total := ksum s (map snd d) in mapM (fun kv : num R * num R => let* a := kdiv Rdiv (snd kv) total in let* y := kmul a x in Ok (fst kv, y)) d) = Err TypeError.
Proof.
  intros N F X s KS S. assert (T : exists k, ksum s (map snd d) = Ok (Num k (va s + in_all d)) /\ k <> High).
  { clear N S. revert s KS. unfold in_all. induction F as [|[t w] d W F IH]; intros s KS; cbn [map ksum Rsum fst snd] in *; [exists (kd s); rewrite Rplus_0_r; destruct s; auto|].
    unfold kadd, lift. rewrite W. destruct (kd s); cbn [mix bind]; try contradiction (KS eq_refl); (destruct (IH (Num Float (va s + va w)) ltac:(discriminate)) as (k & E & K); exists k; split; [rewrite E; cbn [va]; do 2 f_equal; lra|exact K]). }
  destruct T as (k & -> & K). cbn [bind]. destruct d as [|[t w] d]; [contradiction|]. inversion F as [|? ? W _]; subst. cbn [mapM fst snd] in *. unfold kdiv at 1. rewrite W. cbn [kd va]. destruct (Reqb _ 0) eqn:Z; [apply Reqb_t in Z; contradiction|].
  destruct k; cbn [mix bind]; try contradiction (K eq_refl); unfold kmul at 1, lift; cbn [kd]; rewrite X; reflexivity.
Qed.
Theorem C118_settlement_refuted : forall available adjustment refund payment, kd adjustment = High -> va adjustment <> 0 ->
  (exists t, moment false (Given refund) t) \/ (exists x, refund = KNum x /\ in_year (va x)) ->
  (exists t, moment false (Given payment) t) \/ (exists x, payment = KNum x /\ in_year (va x)) ->
  carryover_tax available adjustment (VWhen refund) (VWhen payment) = Err TypeError.
Proof.
  intros av x r p K N MR MP.
  assert (X : forall w, (exists t, moment false (Given w) t) \/ (exists x, w = KNum x /\ in_year (va x)) -> (let* d := tax_timing (VWhen w) in let* t := time_series d x in add_transactions av t) = Err TypeError).
  { intros w M. assert (T : exists d, tax_timing (VWhen w) = Ok d /\ in_all d = 1).
    { cbn [tax_timing]. assert (TM : exists t, when_conv false w = Ok t). { destruct M as [(t & M) | (y & -> & I)]; [|exists y; now apply in_year_conv]. destruct w as [y|s]; cbn in M; [destruct M as (V & _ & I); exists y; apply in_year_conv; now rewrite V|]. destruct M as [[-> _] | [-> _]]; eexists; reflexivity. }
      destruct TM as (t & TM). rewrite timing_plain by (intros s E; injection E as ->; destruct M as [(t' & [[-> _] | [-> _]]) | (y & Y & _)]; [reflexivity|reflexivity|discriminate]). rewrite TM. cbn [bind]. unfold kdiv at 1. cbn [conv kd va int mix]. destruct (Reqb (IZR (Zpos 1)) 0) eqn:Z; [rb; lra|]. cbn [bind].
      change (seq 0 (Z.to_nat 1)) with [0%nat]. rewrite build_cons, build_nil. unfold kadd, lift. cbn [kd int]. assert (Q : exists k, mix Int (kd t) = Some k) by (destruct (kd t); cbn; eauto). destruct Q as (k & ->). cbn [bind]. unfold kdiv. cbn [kd va int]. assert (Q : exists k', mix k Int = Some k') by (destruct k; cbn; eauto). destruct Q as (k' & ->). rewrite Z. cbn [bind].
      eexists. split; [reflexivity|]. unfold in_all. cbn. lra. }
    destruct T as (d & T & S). destruct (float_weights w d T) as [NE FW]. rewrite T. cbn [bind]. unfold time_series. rewrite (floats_fail d x NE FW K (int 0)); [reflexivity|discriminate|]. cbn. lra. }
  unfold carryover_tax. destruct (Rltb 0 (va x)) eqn:L1; [now apply X|]. destruct (Rltb (va x) 0) eqn:L2; [now apply X|]. rb; lra.
Qed.
Print Assumptions C118_settlement_refuted.

(** *** The hypotheses can be met *)
Open Scope Q_scope.
Definition hi (x : Q) : qn := Num High x.
Definition sample : dict Z ktable := [(2000%Z, [(whole 0, hi (1#10)); (whole 100, hi (1#5)); (hi 1000, hi (3#10))])].
Definition grow : kinfl := ICallable (fun y b => Ok (hi (match b with Some b => inject_Z (y - b) + 1 | None => 1 end))).
Definition worker : kpayer := {| kp_income := [(2001%Z, hi 1000)]; kp_deduction := [(2001%Z, whole 0)]; kp_credit := [(2001%Z, hi 5)] |}.
Definition in_turn : list query := [Money (hi 400) 2001 (whole 0) (hi 3); Person worker 2001 (whole 10) (whole 0); MarginalRate (whole 250) 2001; Money (hi 400) 2002 (hi 50) (whole 0)].
Example C118_sat :
  tables_fit true sample /\ amounts_fit true [(2000%Z, hi 20)] /\ amounts_fit true ([] : dict Z qn) /\ inflation_fits true grow /\ Forall (query_fits true) in_turn /\
  (exists answers, (let* s := tax_init true sample [(2000%Z, hi 20)] [] grow in ask_all s in_turn) = Ok answers /\
     map (fun qa => Qred (va (snd qa))) answers = [57; 160; 1#5; 35] /\ map (fun qa => kd (snd qa)) answers = [High; High; High; High]) /\
  (* floats *)
  float_inflation (IDict [(2000%Z, whole 2); (2001%Z, whole 3)]) sample 2001 /\ ~ In 2001%Z (dkeys sample) /\ Forall (fun yb => high_table (snd yb)) sample /\
  (exists s, tax_init true sample [] [] (IDict [(2000%Z, whole 2); (2001%Z, whole 3)]) = Ok s /\ tax_money s (hi 400) 2001 (whole 0) (whole 0) = Err TypeError) /\
  (* several jurisdictions *)
  Forall (made_fits true) [(sample, [], [], grow); (sample, [(2000%Z, hi 20)], [], INone)] /\
  (* settlement *)
  (exists d, tax_timing (VTiming [(Num High (3/10)%R, Num High 1%R)]) = Ok d /\ weights true d /\ in_all d <> 0%R) /\
  payments true [(Num High 0%R, Num High 100%R)] /\
  carryover_tax [] (Num High 10%R) (VWhen (KText "start")) (VWhen (KText "start")) = Err TypeError.
Proof.
  assert (F : tables_fit true sample) by (repeat constructor; cbn; discriminate).
  assert (G : inflation_fits true grow) by (intros y b v E; injection E as <-; discriminate).
  split; [exact F|]. split; [repeat constructor; discriminate|]. split; [constructor|]. split; [exact G|]. split; [repeat constructor; cbn; try discriminate; repeat constructor; discriminate|].
  split; [eexists; split; [vm_compute; reflexivity|split; vm_compute; reflexivity]|]. split.
  { cbn. split; [exists (whole 3); split; [reflexivity|discriminate]|]. intros y [<- | []]. exists (whole 2). repeat split; discriminate. }
  split; [intros [E | []]; discriminate|]. split; [repeat constructor; discriminate|]. split; [eexists; split; vm_compute; reflexivity|].
  split; [repeat constructor; auto; try discriminate; intros ? ? ? E; injection E as <-; discriminate|].
  split; [eexists; split; [reflexivity|split; [repeat constructor; cbn; try discriminate; unfold in_year; lra|unfold in_all; cbn; lra]]|].
  split; [repeat constructor; cbn; try discriminate; unfold in_year; lra|].
  apply C118_settlement_refuted; [reflexivity|cbn; lra|left; exists 0%R; left; split; reflexivity|left; exists 0%R; left; split; reflexivity].
Qed.
