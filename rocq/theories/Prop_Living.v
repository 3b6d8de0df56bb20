(** C52: living expenses strategies. *)
From Verif Require Import Base BaseFacts LivingModel.
From Coq Require Import Lia Permutation.
Local Open Scope Q_scope.

(** ** what each strategy is meant to compute *)
Definition total_net (ps : list lperson) : Q := Qsum (map lp_net ps).
Definition total_gross (ps : list lperson) : Q := Qsum (map lp_gross ps).
(** [v] is the sum over [l] of the values recorded for year [y] *)
Definition total_recorded {A} (l : list A) (h : A -> dict Z Q) (y : Z) (v : Q) : Prop :=
  exists qs, Forall2 (fun a q => dget Z.eqb (h a) y = Some q) l qs /\ v == Qsum qs.
(** every account owned by at least one of the people, each once *)
Definition owned_once (ps : list lperson) (l : list nat) : Prop :=
  NoDup l /\ forall a, In a l <-> exists p, In p ps /\ In a (lp_accounts p).
(** the documented amounts ([i1]: inflation to this year, [i2]: inflation since retirement) *)
Definition documented (s : lparams) (ps : list lperson) (bal : nat -> dict Z Q) (ret : Z) (i1 i2 v : Q) : Prop :=
  match l_kind s with
  | ConstContribution => v == total_net ps - l_base s * i1
  | ConstExpenses => v == l_base s * i1
  | NetPercent => v == l_rate s * total_net ps
  | GrossPercent => v == l_rate s * total_gross ps
  | PercentOverBase => v == l_base s * i1 + l_rate s * (total_net ps - l_base s * i1)
  | PrincipalRet => exists l b, owned_once ps l /\ total_recorded l bal ret b /\ v == l_rate s * b * i2
  | NetPercentRet => exists b, total_recorded ps lp_net_hist ret b /\ v == l_rate s * b * i2
  | GrossPercentRet => exists b, total_recorded ps lp_gross_hist ret b /\ v == l_rate s * b * i2
  end.
Definition at_least_zero (v w : Q) : Prop := (0 <= v -> w == v) /\ (v <= 0 -> w == 0).

Lemma sum_res_ok {A} (h : A -> dict Z Q) y l b : sum_res (map (fun a => hist_get (h a) (Some y)) l) = Ok b -> total_recorded l h y b.
Proof.
  revert b. induction l as [|a l IH]; cbn [map sum_res]; intros b H.
  - injection H as <-. exists []. split; [constructor|reflexivity].
  - change (hist_get (h a) (Some y)) with (dget_r Z.eqb (h a) y) in H. unfold dget_r at 1 in H. destruct (dget Z.eqb (h a) y) as [q|] eqn:E; cbn [bind] in H; [|discriminate].
    destruct (sum_res _) as [r|] eqn:Er; cbn [bind] in H; [|discriminate]. injection H as <-.
    destruct (IH r eq_refl) as (qs & F & Eq). exists (q :: qs). split; [constructor; assumption|]. cbn [Qsum]. rewrite Eq. reflexivity.
Qed.
Lemma sum_res_total {A} (h : A -> dict Z Q) y l : (forall a, In a l -> exists q, dget Z.eqb (h a) y = Some q) ->
  exists b, sum_res (map (fun a => hist_get (h a) (Some y)) l) = Ok b.
Proof.
  induction l as [|a l IH]; cbn [map sum_res]; intro H; [eexists; reflexivity|].
  destruct (H a (or_introl eq_refl)) as [q E]. destruct IH as [b Eb]; [intros; apply H; right; assumption|].
  change (hist_get (h a) (Some y)) with (dget_r Z.eqb (h a) y). unfold dget_r at 1. rewrite E. cbn [bind]. rewrite Eb. eexists. reflexivity.
Qed.
Lemma set_union_owned ps : owned_once ps (set_union (map lp_accounts ps)).
Proof.
  split; [apply NoDup_nodup|]. intro a. unfold set_union. rewrite nodup_In, in_concat. split.
  - intros (l & Hl & Ha). apply in_map_iff in Hl. destruct Hl as (p & <- & Hp). eauto.
  - intros (p & Hp & Ha). exists (lp_accounts p). split; [apply in_map; exact Hp|exact Ha].
Qed.
Lemma qmax0 v : at_least_zero v (qmax v 0).
Proof. unfold at_least_zero. destruct (qmax_case v 0) as [[? E]|[? E]]; rewrite E; split; intro; lra. Qed.

(** ** C52 *)
(** whatever is returned is the documented amount, or zero when that is negative; money in an
    account owned by several people counts once *)
Theorem C52_documented_amounts : forall s c ps ret v, c_people c = Some ps -> c_retire c = Some ret -> living_call s c = Ok v ->
  exists i1 i2 w, (l_kind s = ConstContribution \/ l_kind s = ConstExpenses \/ l_kind s = PercentOverBase -> l_infl s (c_year c) None = Ok i1) /\
    (l_kind s = PrincipalRet \/ l_kind s = NetPercentRet \/ l_kind s = GrossPercentRet -> l_infl s (c_year c) (Some (Some ret)) = Ok i2) /\
    documented s ps (c_balance c) ret i1 i2 w /\ at_least_zero w v.
Proof.
  intros s c ps ret v Hp Hr H. unfold living_call in H. rewrite Hp in H. destruct ps as [|p0 ps']; [discriminate|]. set (ps := p0 :: ps') in *. cbn [bind] in H.
  destruct (run_kind s c _) as [w|] eqn:E; cbn [bind] in H; [|discriminate]. injection H as <-.
  unfold run_kind, people_of in E. rewrite Hp, Hr in E. unfold documented, total_net, total_gross.
  destruct (l_kind s) eqn:K; cbn [bind] in E.
  all: try (destruct (l_infl s (c_year c) None) as [i|] eqn:Ei; cbn [bind] in E; [|discriminate]; injection E as <-; exists i, 0;
            eexists; split; [auto|]; split; [intros [D|[D|D]]; discriminate|]; split; [|apply qmax0]; first [reflexivity | unfold ps; cbn [map Qsum]; ring]).
  all: try (injection E as <-; exists 0, 0; eexists; split; [intros [D|[D|D]]; discriminate|]; split; [intros [D|[D|D]]; discriminate|]; split; [reflexivity|apply qmax0]).
  all: destruct (sum_res _) as [b|] eqn:Eb; cbn [bind] in E; [|discriminate]; apply sum_res_ok in Eb;
       destruct (l_infl s (c_year c) (Some (Some ret))) as [i|] eqn:Ei; cbn [bind] in E; [|discriminate]; injection E as <-;
       exists 0, i; eexists; (split; [intros [D|[D|D]]; discriminate|]); (split; [auto|]); (split; [|apply qmax0]).
  - exists (set_union (map lp_accounts ps)), b. split; [apply set_union_owned|]. split; [exact Eb|reflexivity].
  - exists b. split; [exact Eb|reflexivity].
  - exists b. split; [exact Eb|reflexivity].
Qed.
Print Assumptions C52_documented_amounts.
(** and with someone to ask about, a known retirement year, recorded figures for it and a working
    inflation function there always is an answer *)
Theorem C52_answers : forall s c ps ret, c_people c = Some ps -> ps <> [] -> c_retire c = Some ret ->
  (forall b, exists q, l_infl s (c_year c) b = Ok q) ->
  (forall p, In p ps -> (exists q, dget Z.eqb (lp_net_hist p) ret = Some q) /\ (exists q, dget Z.eqb (lp_gross_hist p) ret = Some q) /\
     forall a, In a (lp_accounts p) -> exists q, dget Z.eqb (c_balance c a) ret = Some q) ->
  exists v, living_call s c = Ok v.
Proof.
  intros s c ps ret Hp Hne Hr Hi Hh. unfold living_call. rewrite Hp. destruct ps as [|p0 ps']; [congruence|]. set (ps := p0 :: ps') in *. cbn [bind].
  assert (G : exists w, run_kind s c (Some (set_union (map lp_accounts ps))) = Ok w).
  { unfold run_kind, people_of. rewrite Hp, Hr. destruct (Hi None) as [i1 E1]. destruct (Hi (Some (Some ret))) as [i2 E2].
    destruct (l_kind s); cbn [bind]; rewrite ?E1; cbn [bind]; try (eexists; reflexivity).
    - destruct (sum_res_total (c_balance c) ret (set_union (map lp_accounts ps))) as [b ->].
      { intros a Ha. apply (set_union_owned ps) in Ha. destruct Ha as (p & Hp' & Ha). destruct (Hh p Hp') as (_ & _ & H3). auto. }
      cbn [bind]. rewrite E2. eexists. reflexivity.
    - destruct (sum_res_total lp_net_hist ret ps) as [b ->]; [intros a Ha; apply (Hh a Ha)|]. cbn [bind]. rewrite E2. eexists. reflexivity.
    - destruct (sum_res_total lp_gross_hist ret ps) as [b ->]; [intros a Ha; apply (Hh a Ha)|]. cbn [bind]. rewrite E2. eexists. reflexivity. }
  destruct G as [w ->]. eexists. reflexivity.
Qed.
Print Assumptions C52_answers.
(** never negative, for a strategy and for any nesting of schedules *)
Theorem C52_never_negative : forall e c v, expenses e c = Ok v -> 0 <= v.
Proof.
  fix IH 1. intros [s|w r m] c v H; cbn [expenses] in H.
  - unfold living_call in H. destruct (match c_people c with None => _ | Some _ => _ end); cbn [bind] in H; [|discriminate].
    destruct (run_kind _ _ _); cbn [bind] in H; [|discriminate]. injection H as <-. apply qmax_r.
  - destruct (if retired c then expenses r c else expenses w c) as [x|] eqn:E; cbn [bind] in H; [|discriminate].
    assert (Hx : 0 <= x) by (destruct (retired c); apply IH in E; exact E).
    destruct m as [m|]; [|injection H as <-; exact Hx].
    destruct (expenses m c) as [lo|]; cbn [bind] in H; [|discriminate]. injection H as <-.
    destruct (qmax_case x lo) as [[? Em]|[? Em]]; rewrite Em; lra.
Qed.
Print Assumptions C52_never_negative.
(** the switch: the retirement strategy is used exactly in years after the retirement year (and only
    when both years are known); the minimum is the floor *)
Theorem C52_schedule : forall w r m c v, expenses (Sched w r m) c = Ok v ->
  exists x, ((exists y ret, c_year c = Some y /\ c_retire c = Some ret /\ (ret < y)%Z) -> expenses r c = Ok x) /\
    (~ (exists y ret, c_year c = Some y /\ c_retire c = Some ret /\ (ret < y)%Z) -> expenses w c = Ok x) /\
    x <= v /\ (m = None -> v = x) /\
    (forall lo, m = Some lo -> exists f, expenses lo c = Ok f /\ f <= v /\ (v == f \/ v == x)).
Proof.
  intros w r m c v H. cbn [expenses] in H.
  destruct (if retired c then expenses r c else expenses w c) as [x|] eqn:E; cbn [bind] in H; [|discriminate].
  exists x.
  assert (R : retired c = true <-> exists y ret, c_year c = Some y /\ c_retire c = Some ret /\ (ret < y)%Z).
  { unfold retired. destruct (c_year c) as [y|]; destruct (c_retire c) as [q|]; split; intro G; try discriminate;
      try (destruct G as (? & ? & ? & ? & ?); discriminate).
    - exists y, q. apply Z.ltb_lt in G. auto.
    - destruct G as (y' & q' & G1 & G2 & G3). injection G1 as ->. injection G2 as ->. apply Z.ltb_lt. exact G3. }
  split; [intro G; apply R in G; rewrite G in E; exact E|]. split; [intro G; destruct (retired c); [exfalso; apply G, R; reflexivity|exact E]|].
  destruct m as [m|].
  - destruct (expenses m c) as [lo|] eqn:El; cbn [bind] in H; [|discriminate]. injection H as <-.
    split; [destruct (qmax_case x lo) as [[? Em]|[? Em]]; rewrite Em; lra|]. split; [discriminate|].
    intros lo' HH. injection HH as <-. exists lo. split; [exact El|]. destruct (qmax_case x lo) as [[? Em]|[? Em]]; rewrite Em; (split; [lra|]); first [left; reflexivity | right; reflexivity].
  - injection H as <-. split; [lra|]. split; [reflexivity|]. intros ? ?; discriminate.
Qed.
Print Assumptions C52_schedule.
Definition demo_lp (net gross : Q) (accts : list nat) : lperson :=
  {| lp_net := net; lp_gross := gross; lp_net_hist := [(2000%Z, net)]; lp_gross_hist := [(2000%Z, gross)]; lp_accounts := accts |}.
Definition demo_lc (ps : option (list lperson)) (y : Z) (r : option Z) : lcall :=
  {| c_people := ps; c_year := Some y; c_retire := r; c_balance := fun a => [(2000%Z, inject_Z (Z.of_nat a))] |}.
Definition demo_ls (k : lkind) (b r : Q) : lparams := {| l_kind := k; l_base := b; l_rate := r; l_infl := no_inflation |}.
(** the documentation promises ValueError when a required value is missing; what is raised is a
    KeyError (no retirement year) or a TypeError (no people), the latter also for an empty list of
    people and a strategy that needs none *)
Theorem C52_missing_values_refuted :
  living_call (demo_ls PrincipalRet 0 (1 # 10)) (demo_lc (Some [demo_lp 1 2 [5%nat]]) 2001 None) = Err KeyError /\
  living_call (demo_ls NetPercent 0 (1 # 10)) (demo_lc None 2001 None) = Err TypeError /\
  living_call (demo_ls ConstExpenses 100 0) (demo_lc (Some []) 2001 None) = Err TypeError.
Proof. repeat split; reflexivity. Qed.
Print Assumptions C52_missing_values_refuted.
Example C52_sat : exists v, expenses (Sched (Plain (demo_ls NetPercent 0 (1 # 2))) (Plain (demo_ls PrincipalRet 0 (1 # 10))) (Some (Plain (demo_ls ConstExpenses 3 0))))
    (demo_lc (Some [demo_lp 100 120 [40%nat; 70%nat]; demo_lp 30 40 [70%nat]]) 2001 (Some 2000%Z)) = Ok v /\ v == 11.
Proof. eexists. split; vm_compute; reflexivity. Qed.
Example C52_sat2 : exists v, living_call (demo_ls ConstContribution 200 0) (demo_lc (Some [demo_lp 100 120 []]) 2001 None) = Ok v /\ v == 0.
Proof. eexists. split; vm_compute; reflexivity. Qed.
