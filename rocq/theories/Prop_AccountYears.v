(** C108: an account's figures over its years, whatever is read and changed on the way. *)
From Verif Require Import Base BaseFacts RBase GrowthModel AccountModel AccountLedgerModel LedgerProofs.
From Verif Require LedgerModel GrowthProofs.
Import LedgerModel(get_with, run, getp, record, year, hist, put, setter, upd, with_env, lstate).
From Coq Require Import Lia Lra Reals.
Local Open Scope R_scope.

(** ** Specification: the account's books *)
(** [b_last]: last year's balance and transactions; [b_shown], [b_rshown]: this year's balance and rate
    once they are settled (assigned, given as an input, or shown) *)
Record book : Type := {
  b_year : Z; b_rate : Z -> option R; b_nper : option positive; b_tx : dict R R;
  b_last : option (R * dict R R); b_shown : option R; b_rshown : option R }.
(** a sum of money and dated payments, at the end of a year at rate [r] compounded [n] times *)
Definition grown (b : R) (t : dict R R) (r : R) (n : option positive) : R :=
  b * accumulation_function 1 r n + Rsum (map (fun kv => snd kv * accumulation_function (1 - fst kv) r n) t).
Definition rate_now (b : book) : option R := match b_rshown b with Some r => Some r | None => b_rate b (b_year b) end.
Definition balance_now (b : book) : option R :=
  match b_shown b with
  | Some x => Some x
  | None => match b_last b, rate_now b with Some (x, t), Some r => Some (grown x t r (b_nper b)) | _, _ => None end
  end.
(** what the year earns: this year's balance and payments grown to the end, less themselves *)
Definition returns_now (b : book) : option R :=
  match balance_now b, rate_now b with
  | Some x, Some r => Some (grown x (b_tx b) r (b_nper b) - (x + Rsum (dvals (b_tx b))))
  | _, _ => None
  end.
(** what the user sees *)
Definition shows (b : book) (p : nat) : option aval :=
  match p with
  | 0%nat => option_map VNum (balance_now b)
  | 1%nat => option_map VNum (rate_now b)
  | 2%nat => Some (VTx (b_tx b))
  | 3%nat => option_map VNum (returns_now b)
  | 4%nat => option_map (fun x => VNum (Rmax x 0)) (returns_now b)
  | _ => None
  end.
Definition settle (b : book) (x r : option R) : book :=
  {| b_year := b_year b; b_rate := b_rate b; b_nper := b_nper b; b_tx := b_tx b; b_last := b_last b; b_shown := x; b_rshown := r |}.
(** reading settles what was read and what it was worked out from *)
Definition read_book (p : nat) (b : book) : book :=
  match p with
  | 0%nat => match b_shown b with Some _ => b | None => settle b (balance_now b) (rate_now b) end
  | 1%nat => settle b (b_shown b) (rate_now b)
  | 2%nat => b
  | _ => settle b (balance_now b) (rate_now b)
  end.
Section Books.
  Variables inB inR : Z -> option R.   (* the user's inputs for balance and rate *)
  Definition book_op (b : book) (o : aop) : option book :=
    match o with
    | Read p => match shows b p with Some _ => Some (read_book p b) | None => None end
    | Put t v => Some {| b_year := b_year b; b_rate := b_rate b; b_nper := b_nper b; b_tx := rincr (b_tx b) t v; b_last := b_last b; b_shown := b_shown b; b_rshown := b_rshown b |}
    | Assign x => Some (match inB (b_year b) with Some _ => b | None => settle b (Some x) (b_rshown b) end)
    | SetRate v => Some {| b_year := b_year b; b_rate := rate_callable v; b_nper := b_nper b; b_tx := b_tx b; b_last := b_last b; b_shown := b_shown b; b_rshown := b_rshown b |}
    | SetNper n => Some {| b_year := b_year b; b_rate := b_rate b; b_nper := n; b_tx := b_tx b; b_last := b_last b; b_shown := b_shown b; b_rshown := b_rshown b |}
    | Advance => match balance_now b, rate_now b with
                 | Some x, Some _ => Some {| b_year := (b_year b + 1)%Z; b_rate := b_rate b; b_nper := b_nper b; b_tx := [];
                                             b_last := Some (x, b_tx b); b_shown := inB (b_year b + 1)%Z; b_rshown := inR (b_year b + 1)%Z |}
                 | _, _ => None
                 end
    end.
  Fixpoint book_ops (b : book) (os : list aop) : option book :=
    match os with [] => Some b | o :: r => match book_op b o with Some b' => book_ops b' r | None => None end end.
  Definition new_book (y : Z) (balance : R) (rate : rate_arg) (nper : option positive) : book :=
    {| b_year := y; b_rate := rate_callable rate; b_nper := nper; b_tx := []; b_last := None;
       b_shown := Some (match inB y with Some x => x | None => balance end); b_rshown := inR y |}.
  Definition inputs_of (p : nat) (y : Z) : option aval :=
    match p with 0%nat => option_map VNum (inB y) | 1%nat => option_map VNum (inR y) | _ => None end.

  (** ** Proofs *)
  Variable order : list nat.
  Hypothesis Hord : forall p, In p order <-> (p < 5)%nat.
  Notation C := (account_class inputs_of order).
  (** books and ledger agree; [strict]: nothing but balance and rate is recorded for this year *)
  Record Sim (strict : bool) (s : aledger) (b : book) : Prop := {
    m_year : year s = b_year b;
    m_env : LedgerModel.env s = {| at_rate := b_rate b; at_nper := b_nper b; at_txns := b_tx b |};
    m_bal : hist s BALANCE (year s) = option_map VNum (b_shown b);
    m_rate : hist s RATE (year s) = option_map VNum (b_rshown b);
    m_rest : forall p, (2 <= p < 5)%nat -> hist s p (year s) = None \/ (strict = false /\ hist s p (year s) = shows b p);
    m_last : match b_last b with
             | Some (x, t) => hist s BALANCE (year s - 1)%Z = Some (VNum x) /\ hist s TRANSACTIONS (year s - 1)%Z = Some (VTx t)
             | None => b_shown b <> None
             end;
    m_next : forall p y, (year s < y)%Z -> hist s p y = inputs_of p y }.
  Definition same (b c : book) : Prop :=
    b_year b = b_year c /\ b_rate b = b_rate c /\ b_nper b = b_nper c /\ b_tx b = b_tx c /\ b_last b = b_last c /\ rate_now b = rate_now c /\ balance_now b = balance_now c.
  Lemma same_refl b : same b b. Proof. repeat split. Qed.
  Lemma same_trans a b c : same a b -> same b c -> same a c.
  Proof. intros (A1 & A2 & A3 & A4 & A5 & A6 & A7) (B1 & B2 & B3 & B4 & B5 & B6 & B7). repeat split; congruence. Qed.
  Lemma same_shows b c p : same b c -> shows b p = shows c p.
  Proof. intros (A1 & A2 & A3 & A4 & A5 & A6 & A7). unfold shows, returns_now. rewrite A3, A4, A6, A7. reflexivity. Qed.
  Lemma settle_rate_same b : same b (settle b (b_shown b) (rate_now b)).
  Proof.
    assert (R1 : rate_now b = rate_now (settle b (b_shown b) (rate_now b))).
    { unfold rate_now at 2. cbn. destruct (rate_now b) eqn:E; [reflexivity|]. unfold rate_now in E. destruct (b_rshown b); [discriminate|]. congruence. }
    repeat split; [exact R1|]. unfold balance_now at 2. rewrite <- R1. reflexivity.
  Qed.
  Lemma settle_same b : same b (settle b (balance_now b) (rate_now b)).
  Proof.
    assert (R1 : rate_now b = rate_now (settle b (balance_now b) (rate_now b))).
    { unfold rate_now at 2. cbn. destruct (rate_now b) eqn:E; [reflexivity|]. unfold rate_now in E. destruct (b_rshown b); [discriminate|]. congruence. }
    repeat split; [exact R1|]. unfold balance_now at 2. cbn [b_shown settle b_last b_nper]. rewrite <- R1. unfold balance_now.
    destruct (b_shown b); [reflexivity|]. destruct (b_last b) as [[x t]|]; [|reflexivity]. destruct (rate_now b); reflexivity.
  Qed.
  Lemma read_same p b : same b (read_book p b).
  Proof.
    destruct p as [|[|[|p]]]; cbn [read_book]; [|apply settle_rate_same|apply same_refl|apply settle_same].
    destruct (b_shown b); [apply same_refl|apply settle_same].
  Qed.

  Lemma hist_put (s : aledger) p y v q z : hist (put s p y v) q z = if (Nat.eqb q p && Z.eqb z y)%bool then v else hist s q z.
  Proof. reflexivity. Qed.
  (** recording a settled balance or rate *)
  Lemma sim_put_rate st s b r : Sim st s b -> rate_now b = Some r -> Sim st (put s RATE (year s) (Some (VNum r))) (settle b (b_shown b) (Some r)).
  Proof.
    intros [Y E B R0 Re L N] Hr. pose proof (settle_rate_same b) as Sm. rewrite Hr in Sm. constructor; cbn [year put LedgerModel.env]; [exact Y|exact E|rewrite hist_put; cbn [Nat.eqb BALANCE RATE andb]; exact B| | | |].
    - rewrite hist_put, !Z.eqb_refl. reflexivity.
    - intros p Hp. rewrite hist_put. destruct (Nat.eqb_spec p RATE) as [->|_]; [unfold RATE in Hp; lia|]. cbn [andb].
      destruct (Re p Hp) as [H|[S0 H]]; [now left|right]. split; [exact S0|]. rewrite H. apply same_shows. exact Sm.
    - cbn [b_last settle]. destruct (b_last b) as [[x t]|]; [|exact L]. rewrite !hist_put. cbn [Nat.eqb andb]. exact L.
    - intros p y Hy. rewrite hist_put. destruct (Z.eqb_spec y (year s)); [lia|]. rewrite andb_false_r. now apply N.
  Qed.
  Lemma sim_put_bal st s b x : Sim st s b -> balance_now b = Some x -> same b (settle b (Some x) (b_rshown b)) -> Sim st (put s BALANCE (year s) (Some (VNum x))) (settle b (Some x) (b_rshown b)).
  Proof.
    intros [Y E B R0 Re L N] Hx Sm. constructor; cbn [year put LedgerModel.env]; [exact Y|exact E| |rewrite hist_put; cbn [Nat.eqb BALANCE RATE andb]; exact R0| | |].
    - rewrite hist_put, !Z.eqb_refl. reflexivity.
    - intros p Hp. rewrite hist_put. destruct (Nat.eqb_spec p BALANCE) as [->|_]; [unfold BALANCE in Hp; lia|]. cbn [andb].
      destruct (Re p Hp) as [H|[S0 H]]; [now left|right]. split; [exact S0|]. rewrite H. apply same_shows. exact Sm.
    - cbn [b_last settle b_shown]. destruct (b_last b) as [[x0 t]|]; [|discriminate]. rewrite !hist_put. destruct (Z.eqb_spec (year s - 1) (year s)); [lia|]. rewrite !andb_false_r. exact L.
    - intros p y Hy. rewrite hist_put. destruct (Z.eqb_spec y (year s)); [lia|]. rewrite andb_false_r. now apply N.
  Qed.
  Lemma settle_id b : settle b (b_shown b) (b_rshown b) = b. Proof. destruct b. reflexivity. Qed.

  Lemma read_rate : forall n st s b, Sim st s b ->
    match rate_now b with
    | Some r => exists s', get_with C (run C (S n)) RATE s = Some (VNum r, s') /\ Sim st s' (settle b (b_shown b) (Some r))
    | None => get_with C (run C (S n)) RATE s = None
    end.
  Proof.
    intros n st s b HS. pose proof (m_rate _ _ _ HS) as R0. unfold get_with. rewrite R0. unfold rate_now at 1. destruct (b_rshown b) as [r|] eqn:Er; cbn [option_map].
    - exists s. split; [reflexivity|]. rewrite <- Er, settle_id. exact HS.
    - cbn [run LedgerModel.fget account_class account_get RATE rate_get]. rewrite (m_env _ _ _ HS). cbn [at_rate]. rewrite (m_year _ _ _ HS).
      destruct (b_rate b (b_year b)) as [r|] eqn:E; [|reflexivity]. cbn. eexists. split; [reflexivity|]. apply sim_put_rate; [exact HS|]. unfold rate_now. now rewrite Er.
  Qed.
  Lemma read_balance : forall n st s b, Sim st s b ->
    match balance_now b with
    | Some x => exists s', get_with C (run C (S (S n))) BALANCE s = Some (VNum x, s') /\ Sim st s' (read_book BALANCE b)
    | None => get_with C (run C (S (S n))) BALANCE s = None
    end.
  Proof.
    intros n st s b HS. pose proof (m_bal _ _ _ HS) as B0. unfold get_with at 1 2. rewrite B0. cbn [read_book BALANCE]. unfold balance_now at 1. destruct (b_shown b) as [x|] eqn:Ex; cbn [option_map].
    - exists s. split; [reflexivity|exact HS].
    - pose proof (m_last _ _ _ HS) as L. destruct (b_last b) as [[x t]|] eqn:El; [|congruence]. destruct L as [L1 L2].
      change (LedgerModel.fget C BALANCE) with balance_get. unfold balance_get.
      assert (K : forall k, run C (S (S n)) s (LedgerModel.PastAt BALANCE 1 k) = run C (S (S n)) s (k (hist s BALANCE (year s - 1)%Z))) by reflexivity.
      rewrite K, L1. cbn [as_num].
      assert (K2 : forall k, run C (S (S n)) s (LedgerModel.Get RATE k) = match get_with C (run C (S n)) RATE s with None => None | Some (v, s') => run C (S (S n)) s' (k v) end) by reflexivity.
      rewrite K2. pose proof (read_rate n st s b HS) as Rr. destruct (rate_now b) as [r|] eqn:Er; [|rewrite Rr; reflexivity].
      destruct Rr as (s1 & G & S1). rewrite G. cbn [as_num].
      assert (K3 : forall k, run C (S (S n)) s1 (LedgerModel.EnvRd k) = run C (S (S n)) s1 (k (LedgerModel.env s1))) by reflexivity.
      assert (K4 : forall k, run C (S (S n)) s1 (LedgerModel.PastAt TRANSACTIONS 1 k) = run C (S (S n)) s1 (k (hist s1 TRANSACTIONS (year s1 - 1)%Z))) by reflexivity.
      rewrite K3, K4. pose proof (m_last _ _ _ S1) as L'. cbn [b_last settle] in L'. rewrite El in L'. destruct L' as [_ L'2]. rewrite L'2. cbn [as_txs]. rewrite (m_env _ _ _ S1). cbn [at_nper b_nper settle].
      assert (Hb : balance_now b = Some (grown x t r (b_nper b))) by (unfold balance_now; rewrite Ex, El, Er; reflexivity).
      assert (Eq : value_at_time x r 0 1 (b_nper b) + Rsum (map (fun kv : R * R => value_at_time (snd kv) r (fst kv) 1 (b_nper b)) t) = grown x t r (b_nper b)).
      { unfold grown, value_at_time. rewrite Rminus_0_r. reflexivity. }
      change (match (Some (VNum (value_at_time x r 0 1 (b_nper b) + Rsum (map (fun kv : R * R => value_at_time (snd kv) r (fst kv) 1 (b_nper b)) t))), s1) with
              | (Some v, s') => exists s0 : aledger, Some (v, put s' BALANCE (year s') (Some v)) = Some (VNum (grown x t r (b_nper b)), s0) /\ Sim st s0 (settle b (balance_now b) (Some r))
              | _ => False end).
      cbv beta iota. rewrite Eq, Hb. eexists. split; [reflexivity|].
      pose proof (settle_same b) as Sm. rewrite Hb, Er in Sm.
      pose proof (settle_rate_same b) as Sr. rewrite Er in Sr.
      assert (Hb1 : balance_now (settle b (b_shown b) (Some r)) = Some (grown x t r (b_nper b))) by (rewrite <- Hb; symmetry; apply Sr).
      pose proof (sim_put_bal st s1 _ _ S1 Hb1) as F. cbn [settle b_rshown b_year b_rate b_nper b_tx b_last] in F. apply F.
      assert (Ss : same (settle b (b_shown b) (Some r)) b) by (destruct Sr as (A1 & A2 & A3 & A4 & A5 & A6 & A7); repeat split; congruence).
      exact (same_trans _ _ _ Ss Sm).
  Qed.

  Lemma run_get n s p k : run C (S n) s (LedgerModel.Get p k) = match get_with C (run C n) p s with None => None | Some (v, s') => run C (S n) s' (k v) end.
  Proof. reflexivity. Qed.
  Lemma run_env n s k : run C (S n) s (LedgerModel.EnvRd k) = run C (S n) s (k (LedgerModel.env s)).
  Proof. reflexivity. Qed.
  Lemma run_ret n s v : run C (S n) s (LedgerModel.Ret v) = Some (v, s).
  Proof. reflexivity. Qed.
  (** [hist] may already hold the figure while the year is being recorded *)
  Lemma read_tx : forall n st s b, Sim st s b -> exists s', get_with C (run C (S n)) TRANSACTIONS s = Some (VTx (b_tx b), s') /\ Sim st s' b.
  Proof.
    intros n st s b HS. destruct (m_rest _ _ _ HS TRANSACTIONS) as [H|[_ H]]; [unfold TRANSACTIONS; lia| |]; unfold get_with; rewrite H.
    - cbn [LedgerModel.fget account_class account_get TRANSACTIONS]. rewrite run_env, run_ret. cbn [LedgerModel.cached account_class Nat.ltb Nat.leb]. rewrite (m_env _ _ _ HS). exists s. split; [reflexivity|exact HS].
    - cbn [shows TRANSACTIONS]. exists s. split; [reflexivity|exact HS].
  Qed.
  Lemma balance_first b : same b (read_book BALANCE b) /\ rate_now (read_book BALANCE b) = rate_now b /\
    settle (read_book BALANCE b) (b_shown (read_book BALANCE b)) (rate_now b) = settle b (balance_now b) (rate_now b).
  Proof.
    split; [apply read_same|]. split; [symmetry; apply (read_same BALANCE b)|]. cbn [read_book BALANCE].
    assert (K : forall r, b_shown b = Some r -> balance_now b = Some r) by (intros r E; unfold balance_now; rewrite E; reflexivity).
    destruct (b_shown b) eqn:E; [rewrite (K r eq_refl), E; reflexivity|reflexivity].
  Qed.
  Lemma returns_eq x t r n : grown x t r n - (x + Rsum (dvals t)) =
    x * (accumulation_function 1 r n - 1) + Rsum (map (fun kv : R * R => snd kv * (accumulation_function (1 - fst kv) r n - 1)) t).
  Proof.
    unfold grown. assert (K : Rsum (map (fun kv : R * R => snd kv * (accumulation_function (1 - fst kv) r n - 1)) t) =
      Rsum (map (fun kv : R * R => snd kv * accumulation_function (1 - fst kv) r n) t) - Rsum (dvals t)).
    { unfold dvals. induction t as [|[k v] t IH]; cbn; [lra|]. rewrite IH. lra. }
    rewrite K. lra.
  Qed.
  Lemma read_returns : forall n st s b, Sim st s b ->
    match returns_now b with
    | Some x => exists s' b', get_with C (run C (S (S (S n)))) RETURNS s = Some (VNum x, s') /\ Sim st s' b' /\ same b b' /\ (st = true -> b' = read_book RETURNS b)
    | None => get_with C (run C (S (S (S n)))) RETURNS s = None
    end.
  Proof.
    intros n st s b HS. unfold get_with at 1 2. destruct (m_rest _ _ _ HS RETURNS) as [H|[S0 H]]; [unfold RETURNS; lia| |]; rewrite H.
    2:{ cbn [shows RETURNS]. destruct (returns_now b) as [x|] eqn:E; cbn [option_map].
        - exists s, b. split; [reflexivity|]. split; [exact HS|]. split; [apply same_refl|]. intros ->; discriminate.
        - cbn [LedgerModel.fget account_class account_get RETURNS]. unfold returns_get. rewrite run_get. pose proof (read_balance n st s b HS) as Rb. unfold returns_now in E.
          destruct (balance_now b) as [x|] eqn:Eb; [|rewrite Rb; reflexivity]. destruct Rb as (s1 & G1 & S1). rewrite G1. cbn [as_num]. rewrite run_get.
          destruct (balance_first b) as (_ & F2 & _). pose proof (read_rate (S n) st s1 _ S1) as Rr. rewrite F2 in Rr. destruct (rate_now b); [discriminate|]. rewrite Rr. reflexivity. }
    cbn [LedgerModel.fget account_class account_get RETURNS]. unfold returns_get. rewrite run_get. pose proof (read_balance n st s b HS) as Rb. unfold returns_now.
    destruct (balance_now b) as [x|] eqn:Eb; [|rewrite Rb; reflexivity]. destruct Rb as (s1 & G1 & S1). rewrite G1. cbn [as_num]. rewrite run_get.
    destruct (balance_first b) as (F1 & F2 & F3). pose proof (read_rate (S n) st s1 _ S1) as Rr. rewrite F2 in Rr. destruct (rate_now b) as [r|] eqn:Er; [|rewrite Rr; reflexivity].
    destruct Rr as (s2 & G2 & S2). rewrite G2. cbn [as_num]. rewrite run_env, run_get. rewrite F3 in S2.
    destruct (read_tx (S n) st s2 _ S2) as (s3 & G3 & S3). rewrite G3. cbn [as_txs]. rewrite run_ret. cbn [LedgerModel.cached account_class RETURNS Nat.ltb Nat.leb].
    rewrite (m_env _ _ _ S2). cbn [at_nper settle b_nper b_tx]. rewrite Eb in S3.
    exists s3, (settle b (Some x) (Some r)). split; [rewrite returns_eq; reflexivity|]. split; [exact S3|].
    pose proof (settle_same b) as Sm. rewrite Eb, Er in Sm. split; [exact Sm|]. intros _. cbn [read_book RETURNS]. rewrite Eb, Er. reflexivity.
  Qed.
  Lemma read_taxable : forall n st s b, Sim st s b ->
    match returns_now b with
    | Some x => exists s' b', get_with C (run C (S (S (S (S n))))) TAXABLE s = Some (VNum (Rmax x 0), s') /\ Sim st s' b' /\ same b b' /\ (st = true -> b' = read_book TAXABLE b)
    | None => get_with C (run C (S (S (S (S n))))) TAXABLE s = None
    end.
  Proof.
    intros n st s b HS. unfold get_with at 1 2. destruct (m_rest _ _ _ HS TAXABLE) as [H|[S0 H]]; [unfold TAXABLE; lia| |]; rewrite H.
    - cbn [LedgerModel.fget account_class account_get TAXABLE]. rewrite run_get. pose proof (read_returns n st s b HS) as Rr.
      destruct (returns_now b) as [x|]; [|rewrite Rr; reflexivity]. destruct Rr as (s1 & b1 & G1 & S1 & Sm & E1). rewrite G1. cbn [as_num]. rewrite run_ret.
      cbn [LedgerModel.cached account_class TAXABLE Nat.ltb Nat.leb]. exists s1, b1. auto.
    - cbn [shows TAXABLE]. destruct (returns_now b) as [x|] eqn:E; cbn [option_map].
      + exists s, b. split; [reflexivity|]. split; [exact HS|]. split; [apply same_refl|]. intros ->; discriminate.
      + cbn [LedgerModel.fget account_class account_get TAXABLE]. rewrite run_get. pose proof (read_returns n st s b HS) as Rr. rewrite E in Rr. rewrite Rr. reflexivity.
  Qed.
  Lemma read_any : forall p st s b, Sim st s b ->
    match shows b p with
    | Some v => exists s' b', getp C depth s p = Some (v, s') /\ Sim st s' b' /\ same b b' /\ (st = true -> b' = read_book p b)
    | None => (p < 5)%nat -> getp C depth s p = None
    end.
  Proof.
    intros p st s b HS. unfold getp, depth. destruct p as [|[|[|[|[|p]]]]]; cbn [shows].
    - pose proof (read_balance 2 st s b HS) as H. destruct (balance_now b) as [x|]; cbn [option_map]; [|intros _; exact H]. destruct H as (s' & G & S1). exists s', (read_book BALANCE b).
      split; [exact G|]. split; [exact S1|]. split; [apply read_same|auto].
    - pose proof (read_rate 3 st s b HS) as H. destruct (rate_now b) as [x|] eqn:E; cbn [option_map]; [|intros _; exact H]. destruct H as (s' & G & S1). exists s', (read_book RATE b).
      split; [exact G|]. split; [cbn [read_book RATE]; rewrite E; exact S1|]. split; [apply read_same|auto].
    - destruct (read_tx 3 st s b HS) as (s' & G & S1). exists s', b. split; [exact G|]. split; [exact S1|]. split; [apply same_refl|auto].
    - pose proof (read_returns 1 st s b HS) as H. destruct (returns_now b) as [x|]; cbn [option_map]; [|intros _; exact H]. destruct H as (s' & b' & G & S1 & Sm & E). exists s', b'. auto.
    - pose proof (read_taxable 0 st s b HS) as H. destruct (returns_now b) as [x|]; cbn [option_map]; [|intros _; exact H]. destruct H as (s' & b' & G & S1 & Sm & E). exists s', b'. auto.
    - lia.
  Qed.
  (** ** Recording a year *)
  Lemma sim_shown s b p v : (p < 5)%nat -> Sim false s b -> hist s p (year s) = Some v -> shows b p = Some v.
  Proof.
    intros Hp HS H. destruct p as [|[|p]].
    - cbn [shows]. change 0%nat with BALANCE in H. rewrite (m_bal _ _ _ HS) in H. unfold balance_now. destruct (b_shown b); [exact H|discriminate].
    - cbn [shows]. change 1%nat with RATE in H. rewrite (m_rate _ _ _ HS) in H. unfold rate_now. destruct (b_rshown b); [exact H|discriminate].
    - destruct (m_rest _ _ _ HS (S (S p)) ltac:(lia)) as [E|[_ E]]; congruence.
  Qed.
  Lemma sim_put s b p v : (p < 5)%nat -> Sim false s b -> shows b p = Some v ->
    exists b', Sim false (put s p (year s) (Some v)) b' /\ same b b'.
  Proof.
    intros Hp HS Hv. destruct p as [|[|p]].
    - cbn [shows] in Hv. destruct (balance_now b) as [x|] eqn:E; [|discriminate]. injection Hv as <-. exists (settle b (Some x) (b_rshown b)).
      assert (Sm : same b (settle b (Some x) (b_rshown b))) by (repeat split; exact E). split; [apply (sim_put_bal false s b x HS E Sm)|exact Sm].
    - cbn [shows] in Hv. destruct (rate_now b) as [x|] eqn:E; [|discriminate]. injection Hv as <-. exists (settle b (b_shown b) (Some x)).
      split; [apply (sim_put_rate false s b x HS E)|]. rewrite <- E. apply settle_rate_same.
    - exists b. split; [|apply same_refl]. destruct HS as [Y E B R0 Re L N]. constructor; cbn [year put LedgerModel.env]; [exact Y|exact E| | | | |].
      + rewrite hist_put. exact B.
      + rewrite hist_put. exact R0.
      + intros q Hq. rewrite hist_put. destruct (Nat.eqb_spec q (S (S p))) as [->|_]; [|cbn [andb]; now apply Re]. rewrite Z.eqb_refl. cbn [andb]. right. split; [reflexivity|]. now symmetry.
      + destruct (b_last b) as [[x t]|]; [|exact L]. rewrite !hist_put. destruct (Z.eqb_spec (year s - 1) (year s)); [lia|]. rewrite !andb_false_r. exact L.
      + intros q y Hy. rewrite hist_put. destruct (Z.eqb_spec y (year s)); [lia|]. rewrite andb_false_r. now apply N.
  Qed.
  Lemma account_nosets p q : nosets p (LedgerModel.fget C q).
  Proof.
    cbn [LedgerModel.fget account_class]. destruct q as [|[|[|[|[|q]]]]]; cbn [account_get]; unfold balance_get, rate_get, returns_get, as_num, as_txs;
      repeat (match goal with |- nosets _ (match ?x with _ => _ end) => destruct x | |- nosets _ _ => constructor; intros end).
  Qed.
  Lemma get_keep p w s q v s1 : getp C depth s p = Some (w, s1) -> year s1 = year s -> hist s q (year s) = Some v -> hist s1 q (year s) = Some v.
  Proof. intros G Y H. rewrite <- Y. apply (getp_holds C q (account_nosets q) depth s p w s1 v G H). Qed.
  Lemma record_fails : forall ps s b p0, (forall p, In p ps -> (p < 5)%nat) -> Sim false s b -> In p0 ps -> shows b p0 = None -> record C depth ps s = None.
  Proof.
    induction ps as [|p ps IH]; intros s b p0 Hp HS Hin H0; [destruct Hin|]. cbn [record]. destruct (hist s p (year s)) as [v|] eqn:Eh.
    - pose proof (sim_shown s b p v (Hp p (or_introl eq_refl)) HS Eh) as E. destruct Hin as [<-|Hin]; [congruence|]. apply (IH s b p0); auto. intros q Hq. apply Hp. now right.
    - pose proof (read_any p false s b HS) as Rd. destruct (shows b p) as [v|] eqn:Ev; [|rewrite (Rd (Hp p (or_introl eq_refl))); reflexivity].
      destruct Rd as (s1 & b1 & G & S1 & Sm1 & _). rewrite G. destruct Hin as [<-|Hin]; [congruence|].
      assert (Ev1 : shows b1 p = Some v) by (rewrite <- (same_shows b b1 p Sm1); exact Ev).
      destruct (sim_put s1 b1 p v (Hp p (or_introl eq_refl)) S1 Ev1) as (b2 & S2 & Sm2). apply (IH _ b2 p0); auto; [intros q Hq; apply Hp; now right|].
      rewrite <- (same_shows b b2 p0 (same_trans _ _ _ Sm1 Sm2)). exact H0.
  Qed.
  Lemma record_year : forall ps s b, (forall p, In p ps -> (p < 5)%nat) -> Sim false s b ->
    (forall p, In p ps -> shows b p <> None) ->
    exists s' b', record C depth ps s = Some s' /\ Sim false s' b' /\ same b b' /\ year s' = year s /\ (forall p, In p ps -> hist s' p (year s') = shows b p) /\
                  (forall p v, hist s p (year s) = Some v -> hist s' p (year s) = Some v).
  Proof.
    induction ps as [|p ps IH]; intros s b Hp HS Sh.
    - exists s, b. split; [reflexivity|]. split; [exact HS|]. split; [apply same_refl|]. split; [reflexivity|]. split; [intros p []|auto].
    - cbn [record]. destruct (hist s p (year s)) as [v|] eqn:Eh.
      + destruct (IH s b) as (s' & b' & G & S1 & Sm & Y & Hs & Kp); auto; [intros q Hq; apply Hp; now right|intros q Hq; apply Sh; now right|].
        exists s', b'. split; [exact G|]. split; [exact S1|]. split; [exact Sm|]. split; [exact Y|]. split; [|exact Kp]. intros q [<-|Hq]; [|now apply Hs].
        rewrite Y, (Kp p v Eh). symmetry. apply (sim_shown s b p v); auto. apply Hp. now left.
      + pose proof (read_any p false s b HS) as Rd. destruct (shows b p) as [v|] eqn:Ev; [|exfalso; apply (Sh p); [now left|exact Ev]].
        destruct Rd as (s1 & b1 & G & S1 & Sm1 & _). rewrite G. pose proof (frame_getp C depth s p v s1 G) as Fr.
        assert (Y1 : year s1 = year s) by (rewrite (m_year _ _ _ S1), (m_year _ _ _ HS); symmetry; apply Sm1).
        assert (Ev1 : shows b1 p = Some v) by (rewrite <- (same_shows b b1 p Sm1); exact Ev).
        destruct (sim_put s1 b1 p v (Hp p (or_introl eq_refl)) S1 Ev1) as (b2 & S2 & Sm2). pose proof (same_trans _ _ _ Sm1 Sm2) as Sm.
        destruct (IH (put s1 p (year s1) (Some v)) b2) as (s' & b' & G' & S' & Sm' & Y & Hs & Kp); auto.
        { intros q Hq. apply Hp. now right. }
        { intros q Hq. rewrite <- (same_shows b b2 q Sm). apply Sh. now right. }
        cbn [year put] in Y, Kp. exists s', b'. split; [exact G'|]. split; [exact S'|]. split; [exact (same_trans _ _ _ Sm Sm')|]. split; [congruence|]. split.
        * intros q [<-|Hq]; [|rewrite (Hs q Hq); symmetry; now apply same_shows]. rewrite Y. rewrite (Kp p v); [now symmetry|]. rewrite hist_put, Nat.eqb_refl, Z.eqb_refl. reflexivity.
        * intros q w Hq. rewrite <- Y1. apply Kp. rewrite hist_put. destruct (Nat.eqb_spec q p) as [->|Nq]; [congruence|]. cbn [andb].
          rewrite Y1. exact (get_keep p v s q w s1 G Y1 Hq).
  Qed.

  Lemma weaken s b : Sim true s b -> Sim false s b.
  Proof. intros [Y E B R0 Re L N]. constructor; auto. intros p Hp. destruct (Re p Hp) as [H|[H _]]; [now left|discriminate]. Qed.
  Lemma sim_put_tx s b t v : Sim true s b -> Sim true (with_env s (set_txns (LedgerModel.env s) (rincr (at_txns (LedgerModel.env s)) t v)))
    {| b_year := b_year b; b_rate := b_rate b; b_nper := b_nper b; b_tx := rincr (b_tx b) t v; b_last := b_last b; b_shown := b_shown b; b_rshown := b_rshown b |}.
  Proof.
    intros [Y E B R0 Re L N]. constructor; cbn; auto.
    - rewrite E. reflexivity.
    - intros p Hp. destruct (Re p Hp) as [H|[H _]]; [now left|discriminate].
  Qed.
  Lemma sim_set_rate s b v : Sim true s b -> Sim true (with_env s (set_rate (LedgerModel.env s) v))
    {| b_year := b_year b; b_rate := rate_callable v; b_nper := b_nper b; b_tx := b_tx b; b_last := b_last b; b_shown := b_shown b; b_rshown := b_rshown b |}.
  Proof.
    intros [Y E B R0 Re L N]. constructor; cbn; auto.
    - rewrite E. reflexivity.
    - intros p Hp. destruct (Re p Hp) as [H|[H _]]; [now left|discriminate].
  Qed.
  Lemma sim_set_nper s b n : Sim true s b -> Sim true (with_env s (set_nper (LedgerModel.env s) n))
    {| b_year := b_year b; b_rate := b_rate b; b_nper := n; b_tx := b_tx b; b_last := b_last b; b_shown := b_shown b; b_rshown := b_rshown b |}.
  Proof.
    intros [Y E B R0 Re L N]. constructor; cbn; auto.
    - rewrite E. reflexivity.
    - intros p Hp. destruct (Re p Hp) as [H|[H _]]; [now left|discriminate].
  Qed.
  Lemma sim_assign s b x : Sim true s b -> Sim true (setter C s BALANCE (VNum x)) (match inB (b_year b) with Some _ => b | None => settle b (Some x) (b_rshown b) end).
  Proof.
    intros HS. unfold setter, LedgerModel.has_input. cbn [LedgerModel.inputs LedgerModel.fset account_class inputs_of BALANCE]. rewrite (m_year _ _ _ HS).
    destruct (inB (b_year b)) as [i|]; cbn [option_map]; [exact HS|]. destruct HS as [Y E B R0 Re L N]. constructor; cbn [year put LedgerModel.env settle b_year b_rate b_nper b_tx b_last b_shown b_rshown]; rewrite <- ?Y.
    - reflexivity.
    - exact E.
    - rewrite hist_put, !Z.eqb_refl. reflexivity.
    - rewrite hist_put. exact R0.
    - intros p Hp. rewrite hist_put. destruct (Nat.eqb_spec p BALANCE) as [->|_]; [unfold BALANCE in Hp; lia|]. cbn [andb]. destruct (Re p Hp) as [H|[H _]]; [now left|discriminate].
    - destruct (b_last b) as [[x0 t]|]; [|discriminate]. rewrite !hist_put. destruct (Z.eqb_spec (year s - 1) (year s)); [lia|]. rewrite !andb_false_r. exact L.
    - intros q y Hy. rewrite hist_put. destruct (Z.eqb_spec y (year s)); [lia|]. rewrite andb_false_r. now apply N.
  Qed.
  Lemma sim_advance s b : Sim true s b ->
    match book_op b Advance with
    | Some b' => exists s', do inputs_of order s Advance = Some s' /\ Sim true s' b'
    | None => do inputs_of order s Advance = None
    end.
  Proof.
    intros HS. apply weaken in HS. cbn [book_op do]. unfold LedgerModel.next_year. cbn [LedgerModel.props account_class].
    assert (Hlt : forall p, In p order -> (p < 5)%nat) by (intros p; apply Hord).
    assert (F : forall p, (p < 5)%nat -> shows b p = None -> record C depth order s = None).
    { intros p Hp H0. apply (record_fails order s b p Hlt HS); [now apply Hord|exact H0]. }
    destruct (balance_now b) as [x|] eqn:Eb; [|rewrite (F 0%nat); [reflexivity|lia|cbn [shows]; rewrite Eb; reflexivity]].
    destruct (rate_now b) as [r|] eqn:Er; [|rewrite (F 1%nat); [reflexivity|lia|cbn [shows]; rewrite Er; reflexivity]].
    destruct (record_year order s b Hlt HS) as (s' & b' & G & S' & Sm & Y & Hh & _).
    { intros p Hp. apply Hlt in Hp. destruct p as [|[|[|[|[|p]]]]]; cbn [shows]; unfold returns_now; rewrite ?Eb, ?Er; try discriminate. lia. }
    rewrite G. eexists. split; [reflexivity|]. destruct Sm as (A1 & A2 & A3 & A4 & A5 & A6 & A7).
    assert (Yb : year s' = b_year b) by (rewrite Y; apply (m_year _ _ _ HS)).
    assert (Nx : forall p, hist s' p (year s' + 1)%Z = inputs_of p (year s' + 1)%Z) by (intros p; apply (m_next _ _ _ S'); lia).
    constructor; cbn [year with_env LedgerModel.env hist b_year b_rate b_nper b_tx b_last b_shown b_rshown].
    - now rewrite Yb.
    - rewrite (m_env _ _ _ S'). unfold set_txns. cbn. congruence.
    - rewrite Nx, Yb. reflexivity.
    - rewrite Nx, Yb. reflexivity.
    - intros p Hp. left. rewrite Nx. destruct p as [|[|p]]; [lia|lia|reflexivity].
    - replace (year s' + 1 - 1)%Z with (year s') by lia. rewrite (Hh BALANCE), (Hh TRANSACTIONS) by (apply Hord; unfold BALANCE, TRANSACTIONS; lia). cbn [shows BALANCE TRANSACTIONS]. rewrite Eb. split; reflexivity.
    - intros p y Hy. apply (m_next _ _ _ S'). lia.
  Qed.
  Lemma sim_op s b o : (forall p, o = Read p -> (p < 5)%nat) -> Sim true s b ->
    match book_op b o with
    | Some b' => exists s', do inputs_of order s o = Some s' /\ Sim true s' b'
    | None => do inputs_of order s o = None
    end.
  Proof.
    intros Hp HS. destruct o as [p|t v|x|v|n|]; [| | | | |now apply sim_advance]; cbn [book_op do].
    - pose proof (read_any p true s b HS) as H. destruct (shows b p) as [v|]; [|rewrite (H (Hp p eq_refl)); reflexivity].
      destruct H as (s' & b' & G & S' & _ & E). rewrite G. exists s'. split; [reflexivity|]. rewrite <- (E eq_refl). exact S'.
    - eexists. split; [reflexivity|]. now apply sim_put_tx.
    - eexists. split; [reflexivity|]. now apply sim_assign.
    - eexists. split; [reflexivity|]. now apply sim_set_rate.
    - eexists. split; [reflexivity|]. now apply sim_set_nper.
  Qed.
  Lemma sim_ops : forall os s b, (forall p, In (Read p) os -> (p < 5)%nat) -> Sim true s b ->
    match book_ops b os with
    | Some b' => exists s', do_all inputs_of order s os = Some s' /\ Sim true s' b'
    | None => do_all inputs_of order s os = None
    end.
  Proof.
    induction os as [|o os IH]; intros s b Hp HS; cbn [book_ops do_all]; [exists s; auto|].
    pose proof (sim_op s b o) as H. destruct (book_op b o) as [b'|].
    - destruct H as (s' & G & S'); [intros p ->; apply Hp; now left|exact HS|]. rewrite G. apply IH; [intros p Hq; apply Hp; now right|exact S'].
    - rewrite H; [reflexivity|intros p ->; apply Hp; now left|exact HS].
  Qed.
  Lemma sim_new y balance rate nper : Sim true (new_account inputs_of order y balance rate nper) (new_book y balance rate nper).
  Proof.
    unfold new_account, new_book, setter, LedgerModel.has_input. cbn [LedgerModel.inputs LedgerModel.fset account_class LedgerModel.init year inputs_of BALANCE].
    assert (K : inputs_of 0 y = option_map VNum (inB y)) by reflexivity.
    destruct (inB y) as [i|] eqn:E; cbn [option_map]; constructor; cbn [year put LedgerModel.env LedgerModel.init hist b_year b_rate b_nper b_tx b_last b_shown b_rshown]; try reflexivity; try discriminate.
    - cbn. rewrite E. reflexivity.
    - intros p Hp. left. destruct p as [|[|p]]; [lia|lia|reflexivity].
    - unfold upd. cbn. rewrite Z.eqb_refl. reflexivity.
    - intros p Hp. left. unfold upd. destruct p as [|[|p]]; [lia|lia|reflexivity].
    - intros p z Hz. unfold upd. destruct (Z.eqb_spec z y); [lia|]. rewrite andb_false_r. reflexivity.
  Qed.
End Books.

(** ** C108 *)
(** what the user sees when reading a property *)
Definition figure (inB inR : Z -> option R) (order : list nat) (s : aledger) (p : nat) : option aval :=
  option_map fst (getp (account_class (inputs_of inB inR) order) depth s p).
(** the five properties, in whatever order the set is iterated *)
Definition whole (order : list nat) : Prop := forall p, In p order <-> (p < 5)%nat.
Definition known (os : list aop) : Prop := forall p, In (Read p) os -> (p < 5)%nat.
Definition none : Z -> option R := fun _ => None.
Lemma sim_figure inB inR order s b p : Sim inB inR true s b -> (p < 5)%nat -> figure inB inR order s p = shows b p.
Proof.
  intros HS Hp. unfold figure. pose proof (read_any inB inR order p true s b HS) as H. destruct (shows b p) as [v|].
  - destruct H as (s' & b' & G & _). rewrite G. reflexivity.
  - rewrite (H Hp). reflexivity.
Qed.
(** whatever is read, assigned, deposited, changed and advanced in whatever order, the account shows
    what its books say, and raises when they cannot say *)
Theorem C108_books : forall inB inR order y balance rate nper os, whole order -> known os ->
  match book_ops inB inR (new_book inB inR y balance rate nper) os with
  | Some b => exists s, do_all (inputs_of inB inR) order (new_account (inputs_of inB inR) order y balance rate nper) os = Some s /\
                        forall p, (p < 5)%nat -> figure inB inR order s p = shows b p
  | None => do_all (inputs_of inB inR) order (new_account (inputs_of inB inR) order y balance rate nper) os = None
  end.
Proof.
  intros inB inR order y balance rate nper os Ho Hk. pose proof (sim_ops inB inR order Ho os _ _ Hk (sim_new inB inR order y balance rate nper)) as H.
  destruct (book_ops _ _ _ os) as [b|]; [|exact H]. destruct H as (s & G & S1). exists s. split; [exact G|]. intros p Hp. now apply sim_figure.
Qed.
Print Assumptions C108_books.

(** *** With fixed settings *)
Definition plain (o : aop) : bool := match o with SetRate _ | SetNper _ => false | _ => true end.
Definition silent (o : aop) : bool := match o with Read _ => false | _ => true end.
Lemma same_op inB inR b c o b' : same b c -> plain o = true -> book_op inB inR b o = Some b' ->
  if silent o then exists c', book_op inB inR c o = Some c' /\ same b' c' else same b' c.
Proof.
  intros Sm Hp H. pose proof Sm as (A1 & A2 & A3 & A4 & A5 & A6 & A7). destruct o as [p|t v|x|v|n|]; try discriminate Hp; cbn [silent book_op] in *.
  - destruct (shows b p); [|discriminate]. injection H as <-. pose proof (read_same p b) as (B1 & B2 & B3 & B4 & B5 & B6 & B7). repeat split; congruence.
  - injection H as <-. eexists. split; [reflexivity|]. repeat split; cbn; try congruence.
    + unfold rate_now in *. cbn. exact A6.
    + unfold balance_now in *. cbn. unfold rate_now in *. cbn. exact A7.
  - injection H as <-. eexists. split; [reflexivity|]. rewrite <- A1. destruct (inB (b_year b)); [exact Sm|]. repeat split; cbn; try congruence. exact A6.
  - destruct (balance_now b) as [x|] eqn:E1; [|discriminate]. destruct (rate_now b) as [r|] eqn:E2; [|discriminate]. injection H as <-. rewrite <- A7, <- A6. eexists. split; [reflexivity|].
    rewrite <- A1, A2, A3, A4. apply same_refl.
Qed.
Lemma same_ops inB inR : forall os b c b', same b c -> forallb plain os = true -> book_ops inB inR b os = Some b' ->
  exists c', book_ops inB inR c (filter silent os) = Some c' /\ same b' c'.
Proof.
  induction os as [|o os IH]; intros b c b' Sm Hp H; cbn [book_ops filter] in *; [injection H as <-; eauto|]. apply andb_true_iff in Hp as [P1 P2].
  destruct (book_op inB inR b o) as [b1|] eqn:E; [|discriminate]. pose proof (same_op inB inR b c o b1 Sm P1 E) as K. destruct (silent o) eqn:Es.
  - destruct K as (c1 & Ec & S1). cbn [book_ops]. rewrite Ec. exact (IH b1 c1 b' S1 P2 H).
  - exact (IH b1 c b' K P2 H).
Qed.
(** reading is harmless: leaving the reads out changes no figure, now or in any later year (missing: when
    the rate or the compounding is changed on the way; see [C108_reading_matters_refuted]) *)
Theorem C108_reads_harmless_partial : forall inB inR order y balance rate nper os s, whole order -> known os -> forallb plain os = true ->
  do_all (inputs_of inB inR) order (new_account (inputs_of inB inR) order y balance rate nper) os = Some s ->
  exists s', do_all (inputs_of inB inR) order (new_account (inputs_of inB inR) order y balance rate nper) (filter silent os) = Some s' /\
             forall p, (p < 5)%nat -> figure inB inR order s' p = figure inB inR order s p.
Proof.
  intros inB inR order y balance rate nper os s Ho Hk Hp H. pose proof (sim_ops inB inR order Ho os _ _ Hk (sim_new inB inR order y balance rate nper)) as K.
  destruct (book_ops _ _ _ os) as [b|] eqn:Eb; [|congruence]. destruct K as (s0 & G & S0). assert (s0 = s) by congruence. subst s0.
  destruct (same_ops inB inR os _ _ b (same_refl _) Hp Eb) as (c & Ec & Sm).
  assert (Hk' : known (filter silent os)) by (intros p Hin; apply filter_In in Hin as [Hin _]; now apply Hk).
  pose proof (sim_ops inB inR order Ho _ _ _ Hk' (sim_new inB inR order y balance rate nper)) as K. rewrite Ec in K. destruct K as (s' & G' & S').
  exists s'. split; [exact G'|]. intros q Hq. rewrite (sim_figure _ _ order s' c q S' Hq), (sim_figure _ _ order s b q S0 Hq). symmetry. now apply same_shows.
Qed.
Print Assumptions C108_reads_harmless_partial.

(** *** The account of C19 and C20 *)
(** the same operations on the account whose year-on-year behaviour C19, C20 and C96 describe *)
Definition with_bal (a : account) (x : R) : account :=
  {| a_year := a_year a; a_bal := x; a_rate := a_rate a; a_nper := a_nper a; a_txns := a_txns a; a_timing := a_timing a |}.
Fixpoint on_account (a : account) (os : list aop) : res account :=
  match os with
  | [] => Ok a
  | Put t v :: r => let* a' := add_transaction a v (RNum t) in on_account a' r
  | Assign x :: r => on_account (with_bal a x) r
  | Advance :: r => on_account (AccountModel.next_year a) r
  | _ :: r => on_account a r
  end.
(** what an account shows *)
Definition seen (a : account) (p : nat) : option aval :=
  match p with
  | 0%nat => Some (VNum (a_bal a)) | 1%nat => Some (VNum (AccountModel.rate a)) | 2%nat => Some (VTx (a_txns a))
  | 3%nat => Some (VNum (returns a)) | 4%nat => Some (VNum (taxable_income a)) | _ => None
  end.
Definition tied (b : book) (a : account) : Prop :=
  b_year b = a_year a /\ (forall y, b_rate b y = Some (a_rate a y)) /\ b_nper b = a_nper a /\ b_tx b = a_txns a /\ balance_now b = Some (a_bal a) /\ rate_now b = Some (AccountModel.rate a).
Lemma tied_shows b a p : tied b a -> shows b p = seen a p.
Proof.
  intros (A1 & A2 & A3 & A4 & A5 & A6).
  assert (K : returns_now b = Some (returns a)).
  { unfold returns_now. rewrite A5, A6. f_equal. rewrite returns_eq. unfold returns, growth. rewrite A3, A4. reflexivity. }
  destruct p as [|[|[|[|[|p]]]]]; cbn [shows seen]; rewrite ?A5, ?A6, ?A4, ?K; reflexivity.
Qed.
Lemma tied_ops : forall os b a a', known os -> forallb plain os = true -> tied b a -> on_account a os = Ok a' ->
  exists b', book_ops none none b os = Some b' /\ tied b' a'.
Proof.
  induction os as [|o os IH]; intros b a a' Hk Hp T H; cbn [book_ops on_account] in *; [injection H as <-; eauto|]. apply andb_true_iff in Hp as [P1 P2].
  assert (Hk' : known os) by (intros p Hin; apply Hk; now right). pose proof T as (A1 & A2 & A3 & A4 & A5 & A6). destruct o as [p|t v|x|v|n|]; try discriminate P1; cbn [book_op].
  - assert (Hs : exists v, shows b p = Some v). { rewrite (tied_shows b a p T). assert (p < 5)%nat by (apply Hk; now left). destruct p as [|[|[|[|[|p]]]]]; cbn [seen]; eauto. lia. }
    destruct Hs as [v ->]. apply (IH _ a a' Hk' P2); [|exact H]. pose proof (read_same p b) as (B1 & B2 & B3 & B4 & B5 & B6 & B7).
    repeat split; try congruence.
  - destruct (add_transaction a v (RNum t)) as [a1|] eqn:E; [|discriminate]. apply (IH _ a1 a' Hk' P2); [|exact H].
    unfold add_transaction in E. destruct (rwhen_conv (RNum t)) as [t'|] eqn:Et; [|discriminate]. cbn [bind] in E. injection E as <-.
    assert (t' = t). { cbn in Et. destruct (Rltb 1 t || Rltb t 0)%bool; [discriminate|congruence]. } subst t'.
    repeat split; cbn; auto; congruence.
  - cbn [none]. apply (IH _ (with_bal a x) a' Hk' P2); [|exact H]. repeat split; cbn; auto.
  - rewrite A5, A6. apply (IH _ (AccountModel.next_year a) a' Hk' P2); [|exact H]. repeat split; cbn; auto.
    + congruence.
    + unfold balance_now, rate_now. cbn. rewrite A1, A2. f_equal. unfold next_balance, grown, value_at_time. rewrite A3, A4, Rminus_0_r. reflexivity.
    + unfold rate_now. cbn. rewrite A1, A2. reflexivity.
Qed.
(** reading, depositing, withdrawing, assigning and advancing in any order: the figures are those of the
    account that C19, C20 and C96 are about *)
Theorem C108_years_of_account : forall order a os a', whole order -> known os -> forallb plain os = true ->
  a_txns a = [] -> on_account a os = Ok a' ->
  exists s, do_all (inputs_of none none) order
              (new_account (inputs_of none none) order (a_year a) (a_bal a) (RateFun (fun y => Some (a_rate a y))) (a_nper a)) os = Some s /\
            forall p, (p < 5)%nat -> figure none none order s p = seen a' p.
Proof.
  intros order a os a' Ho Hk Hp Ht H.
  assert (T : tied (new_book none none (a_year a) (a_bal a) (RateFun (fun y => Some (a_rate a y))) (a_nper a)) a) by (repeat split; cbn; auto).
  destruct (tied_ops os _ a a' Hk Hp T H) as (b & Eb & Tb).
  pose proof (C108_books none none order (a_year a) (a_bal a) (RateFun (fun y => Some (a_rate a y))) (a_nper a) os Ho Hk) as K. rewrite Eb in K. destruct K as (s & G & F).
  exists s. split; [exact G|]. intros p H0. rewrite (F p H0). now apply tied_shows.
Qed.
Print Assumptions C108_years_of_account.

(** a year's growth is the returns shown: at a constant rate, next year's balance is this year's balance,
    payments and returns (missing: varying rates, C19, and settings changed on the way) *)
Theorem C108_conservation_partial : forall order y balance r nper os s x d g, whole order -> known os -> forallb plain os = true ->
  do_all (inputs_of none none) order (new_account (inputs_of none none) order y balance (RateNum r) nper) os = Some s ->
  figure none none order s BALANCE = Some (VNum x) -> figure none none order s TRANSACTIONS = Some (VTx d) -> figure none none order s RETURNS = Some (VNum g) ->
  exists s', do (inputs_of none none) order s Advance = Some s' /\ figure none none order s' BALANCE = Some (VNum (x + Rsum (dvals d) + g)).
Proof.
  intros order y balance r nper os s x d g Ho Hk Hp H H1 H2 H3.
  pose proof (sim_ops none none order Ho os _ _ Hk (sim_new none none order y balance (RateNum r) nper)) as K.
  destruct (book_ops _ _ _ os) as [b|] eqn:Eb; [|congruence]. destruct K as (s0 & G & S0). assert (s0 = s) by congruence. subst s0.
  assert (Fg : forall p, (p < 5)%nat -> figure none none order s p = shows b p) by (intros p Hq; now apply sim_figure).
  rewrite Fg in H1, H2, H3 by (unfold BALANCE, TRANSACTIONS, RETURNS; lia). cbn [shows BALANCE TRANSACTIONS RETURNS] in H1, H2, H3.
  assert (R1 : (forall z, b_rate b z = Some r) /\ (forall z, b_rshown b = Some z -> z = r)).
  { clear -Eb Hp. assert (I : (forall z, b_rate (new_book none none y balance (RateNum r) nper) z = Some r) /\ (forall z, b_rshown (new_book none none y balance (RateNum r) nper) = Some z -> z = r)) by (split; [reflexivity|discriminate]).
    revert I Hp Eb. generalize (new_book none none y balance (RateNum r) nper) as c. induction os as [|o os IH]; intros c [I1 I2] Hp Eb; cbn [book_ops] in Eb; [injection Eb as <-; auto|].
    apply andb_true_iff in Hp as [P1 P2]. destruct (book_op none none c o) as [c'|] eqn:E; [|discriminate]. refine (IH c' _ P2 Eb).
    assert (Rn : rate_now c = Some r). { unfold rate_now. destruct (b_rshown c) as [z|] eqn:Ez; [now rewrite (I2 z eq_refl)|apply I1]. }
    destruct o as [p|t v|z|v|n|]; try discriminate P1; cbn [book_op none] in E.
    - destruct (shows c p); [|discriminate]. injection E as <-. destruct p as [|[|[|p]]]; cbn [read_book]; [destruct (b_shown c)| | |]; cbn; auto; (split; [exact I1|]); intros z; rewrite Rn; congruence.
    - injection E as <-. cbn. auto.
    - injection E as <-. cbn. auto.
    - destruct (balance_now c), (rate_now c); try discriminate E. injection E as <-. cbn. split; [exact I1|discriminate]. }
  destruct R1 as [I1 I2]. assert (Rn : rate_now b = Some r). { unfold rate_now. destruct (b_rshown b) as [z|] eqn:Ez; [now rewrite (I2 z eq_refl)|apply I1]. }
  unfold returns_now in H3. destruct (balance_now b) as [x0|] eqn:Ex; [|discriminate]. rewrite Rn in H3. cbn [option_map] in H1, H3. injection H1 as ->. injection H2 as Hd. injection H3 as Hg.
  pose proof (sim_op none none order Ho s b Advance ltac:(discriminate) S0) as K. cbn [book_op] in K. rewrite Ex, Rn in K. destruct K as (s' & G' & S').
  exists s'. split; [exact G'|]. rewrite (sim_figure none none order s' _ _ S') by (unfold BALANCE; lia). cbn [shows BALANCE]. unfold balance_now, rate_now. cbn. rewrite I1. cbn. f_equal. f_equal. rewrite Hd in Hg |- *. lra.
Qed.
Print Assumptions C108_conservation_partial.

(** *** Changing the rate *)
Lemma book_ops_app inB inR : forall os os' b, book_ops inB inR b (os ++ os') = match book_ops inB inR b os with Some b' => book_ops inB inR b' os' | None => None end.
Proof. induction os as [|o os IH]; intros os' b; cbn [book_ops app]; [reflexivity|]. destruct (book_op inB inR b o); [apply IH|reflexivity]. Qed.
Definition is_rate (o : aop) : bool := match o with SetRate _ => true | _ => false end.
Definition is_advance (o : aop) : bool := match o with Advance => true | _ => false end.
(** in every later year the rate shown (and so used) is the last one assigned, or the year's input *)
Lemma rate_kept inB inR f : forall os b b', existsb is_rate os = false -> (forall z, b_rate b z = f z) -> book_ops inB inR b os = Some b' ->
  (forall z, b_rate b' z = f z) /\ ((b_rshown b = inR (b_year b) \/ b_rshown b = match inR (b_year b) with Some r => Some r | None => f (b_year b) end \/ existsb is_advance os = true) ->
    (b_rshown b' = inR (b_year b') \/ b_rshown b' = match inR (b_year b') with Some r => Some r | None => f (b_year b') end)).
Proof.
  induction os as [|o os IH]; intros b b' Hn Hf H; cbn [book_ops existsb] in *; [injection H as <-; split; [exact Hf|intros [K|[K|K]]; [auto|auto|discriminate]]|].
  apply orb_false_iff in Hn as [N1 N2]. destruct (book_op inB inR b o) as [b1|] eqn:E; [|discriminate].
  assert (F1 : forall z, b_rate b1 z = f z).
  { destruct o as [p|t v|x|v|n|]; try discriminate N1; cbn [book_op] in E.
    - destruct (shows b p); [|discriminate]. injection E as <-. intros z. rewrite <- Hf. destruct (read_same p b) as (_ & A & _). congruence.
    - injection E as <-. exact Hf.
    - injection E as <-. destruct (inB (b_year b)); exact Hf.
    - injection E as <-. exact Hf.
    - destruct (balance_now b), (rate_now b); try discriminate E. injection E as <-. exact Hf. }
  destruct (IH b1 b' N2 F1 H) as [G1 G2]. split; [exact G1|]. intros K. apply G2.
  assert (D : b_rshown b = inR (b_year b) \/ b_rshown b = match inR (b_year b) with Some r => Some r | None => f (b_year b) end -> rate_now b = match inR (b_year b) with Some r => Some r | None => f (b_year b) end).
  { unfold rate_now. rewrite <- Hf. intros [-> | ->]; destruct (inR (b_year b)); try reflexivity. destruct (b_rate b (b_year b)); reflexivity. }
  destruct o as [p|t v|x|v|n|]; try discriminate N1; cbn [book_op is_advance orb] in *.
  - destruct (shows b p); [|discriminate]. injection E as <-. destruct K as [K|[K|K]]; [| |auto].
    + specialize (D (or_introl K)). destruct p as [|[|[|p]]]; cbn [read_book]; [destruct (b_shown b)| | |]; cbn; rewrite ?D; auto.
    + specialize (D (or_intror K)). destruct p as [|[|[|p]]]; cbn [read_book]; [destruct (b_shown b)| | |]; cbn; rewrite ?D; auto.
  - injection E as <-. exact K.
  - injection E as <-. destruct (inB (b_year b)); exact K.
  - injection E as <-. exact K.
  - destruct (balance_now b), (rate_now b); try discriminate E. injection E as <-. cbn. auto.
Qed.
(** the figure the rate property shows is the last rate assigned, or the year's input, in every year after
    the assignment ([existsb is_advance later]), and at once if nothing was read since the year began
    (missing: otherwise, in the year of the assignment; see [C108_rate_ignored_refuted]) *)
Theorem C108_rate_assigned_partial : forall inB inR order y balance rate nper before quiet v later s, whole order -> known (before ++ Advance :: quiet ++ SetRate v :: later) ->
  existsb is_rate later = false -> forallb silent quiet = true \/ existsb is_advance later = true ->
  do_all (inputs_of inB inR) order (new_account (inputs_of inB inR) order y balance rate nper) (before ++ Advance :: quiet ++ SetRate v :: later) = Some s ->
  figure inB inR order s RATE = option_map VNum (match inR (year s) with Some r => Some r | None => rate_callable v (year s) end).
Proof.
  intros inB inR order y balance rate nper before quiet v later s Ho Hk Hl Hq H.
  pose proof (sim_ops inB inR order Ho _ _ _ Hk (sim_new inB inR order y balance rate nper)) as K.
  destruct (book_ops _ _ _ _) as [b|] eqn:Eb; [|congruence]. destruct K as (s0 & G & S0). assert (s0 = s) by congruence. subst s0.
  rewrite (sim_figure inB inR order s b _ S0) by (unfold RATE; lia). cbn [shows RATE]. f_equal. rewrite (m_year _ _ _ _ _ S0).
  rewrite book_ops_app in Eb. destruct (book_ops inB inR _ before) as [b1|]; [|discriminate]. cbn [book_ops] in Eb. destruct (book_op inB inR b1 Advance) as [b2|] eqn:E2; [|discriminate].
  rewrite book_ops_app in Eb. destruct (book_ops inB inR b2 quiet) as [b3|] eqn:E3; [|discriminate]. cbn [book_ops book_op] in Eb.
  assert (RK := fun h => rate_kept inB inR (rate_callable v) later _ b Hl h Eb). destruct (RK (fun z => eq_refl)) as [F1 F2]. clear RK. cbn [b_rshown b_year] in F2.
  assert (K : b_rshown b3 = inR (b_year b3) \/ existsb is_advance later = true).
  { destruct Hq as [Hq|Hq]; [left|now right].
    assert (I : b_rshown b2 = inR (b_year b2)). { cbn [book_op] in E2. destruct (balance_now b1), (rate_now b1); try discriminate E2. injection E2 as <-. reflexivity. }
    clear -I Hq E3. revert b2 I E3. induction quiet as [|o os IH]; intros b2 I E3; cbn [book_ops forallb] in *; [congruence|]. apply andb_true_iff in Hq as [Q1 Q2].
    destruct (book_op inB inR b2 o) as [c|] eqn:E; [|discriminate]. apply (IH Q2 c); [|exact E3]. destruct o as [p|t x|x|w|n|]; try discriminate Q1; cbn [book_op] in E.
    - injection E as <-. exact I.
    - injection E as <-. destruct (inB (b_year b2)); exact I.
    - injection E as <-. exact I.
    - injection E as <-. exact I.
    - destruct (balance_now b2), (rate_now b2); try discriminate E. injection E as <-. reflexivity. }
  assert (D : b_rshown b = inR (b_year b) \/ b_rshown b = match inR (b_year b) with Some r => Some r | None => rate_callable v (b_year b) end) by (apply F2; tauto).
  unfold rate_now. rewrite F1. destruct D as [-> | ->]; destruct (inR (b_year b)); try reflexivity. destruct (rate_callable v (b_year b)); reflexivity.
Qed.
Print Assumptions C108_rate_assigned_partial.
Definition but_rate (b c : book) : Prop :=
  b_year b = b_year c /\ b_nper b = b_nper c /\ b_tx b = b_tx c /\ b_last b = b_last c /\ b_shown b = b_shown c /\ b_rshown b = b_rshown c /\ b_rshown b <> None.
Lemma but_rate_shows b c p : but_rate b c -> shows b p = shows c p.
Proof.
  intros (A1 & A2 & A3 & A4 & A5 & A6 & A7). assert (R1 : rate_now b = rate_now c) by (unfold rate_now; rewrite <- A6; destruct (b_rshown b); [reflexivity|congruence]).
  assert (B1 : balance_now b = balance_now c) by (unfold balance_now; rewrite R1, A2, A4, A5; reflexivity).
  unfold shows, returns_now. rewrite R1, B1, A2, A3. reflexivity.
Qed.
Lemma but_rate_ops inB inR : forall os b c b', existsb is_advance os = false -> but_rate b c -> book_ops inB inR b os = Some b' -> exists c', book_ops inB inR c os = Some c' /\ but_rate b' c'.
Proof.
  induction os as [|o os IH]; intros b c b' Hn T H; cbn [book_ops existsb] in *; [injection H as <-; eauto|]. apply orb_false_iff in Hn as [N1 N2].
  destruct (book_op inB inR b o) as [b1|] eqn:E; [|discriminate]. pose proof T as (A1 & A2 & A3 & A4 & A5 & A6 & A7).
  assert (K : exists c1, book_op inB inR c o = Some c1 /\ but_rate b1 c1).
  { destruct o as [p|t v|x|v|n|]; try discriminate N1; cbn [book_op] in *.
    - rewrite <- (but_rate_shows b c p T). destruct (shows b p) as [v|]; [|discriminate]. injection E as <-. eexists. split; [reflexivity|].
      assert (R1 : rate_now b = rate_now c) by (unfold rate_now; rewrite <- A6; destruct (b_rshown b); [reflexivity|congruence]).
      assert (B1 : balance_now b = balance_now c) by (unfold balance_now; rewrite R1, A2, A4, A5; reflexivity).
      assert (R2 : rate_now b <> None) by (unfold rate_now; destruct (b_rshown b); [discriminate|congruence]).
      destruct p as [|[|[|p]]]; cbn [read_book]; [rewrite <- A5; destruct (b_shown b) eqn:Es| | |]; try exact T; unfold but_rate; cbn; rewrite <- ?R1, <- ?B1; repeat split; auto.
    - injection E as <-. eexists. split; [reflexivity|]. unfold but_rate; cbn. rewrite A3. repeat split; auto.
    - injection E as <-. eexists. split; [reflexivity|]. rewrite <- A1. destruct (inB (b_year b)); [exact T|]. unfold but_rate; cbn. repeat split; auto.
    - injection E as <-. eexists. split; [reflexivity|]. unfold but_rate; cbn. repeat split; auto.
    - injection E as <-. eexists. split; [reflexivity|]. unfold but_rate; cbn. repeat split; auto. }
  destruct K as (c1 & Ec & T1). rewrite Ec. exact (IH b1 c1 b' N2 T1 H).
Qed.
(** once this year's rate has been read, assigning another has no effect on any figure for the rest of the year *)
Theorem C108_rate_ignored_refuted : forall inB inR order y balance rate nper before v rest s, whole order -> known (before ++ Read RATE :: SetRate v :: rest) ->
  existsb is_advance rest = false ->
  do_all (inputs_of inB inR) order (new_account (inputs_of inB inR) order y balance rate nper) (before ++ Read RATE :: SetRate v :: rest) = Some s ->
  exists s', do_all (inputs_of inB inR) order (new_account (inputs_of inB inR) order y balance rate nper) (before ++ Read RATE :: rest) = Some s' /\
             forall p, (p < 5)%nat -> figure inB inR order s p = figure inB inR order s' p.
Proof.
  intros inB inR order y balance rate nper before v rest s Ho Hk Hn H.
  assert (Hk' : known (before ++ Read RATE :: rest)).
  { intros p Hin. apply Hk. apply in_app_or in Hin as [Hin|[Hin|Hin]]; apply in_or_app; [now left|right; now left|right; right; now right]. }
  pose proof (sim_ops inB inR order Ho _ _ _ Hk (sim_new inB inR order y balance rate nper)) as K.
  destruct (book_ops _ _ _ _) as [b|] eqn:Eb; [|congruence]. destruct K as (s0 & G & S0). assert (s0 = s) by congruence. subst s0.
  pose proof (sim_ops inB inR order Ho _ _ _ Hk' (sim_new inB inR order y balance rate nper)) as K.
  rewrite book_ops_app in Eb, K. destruct (book_ops inB inR _ before) as [b1|]; [|discriminate]. cbn [book_ops] in Eb, K. destruct (book_op inB inR b1 (Read RATE)) as [b2|] eqn:E2; [|discriminate].
  cbn [book_op] in Eb.
  assert (T : forall f, but_rate {| b_year := b_year b2; b_rate := f; b_nper := b_nper b2; b_tx := b_tx b2; b_last := b_last b2; b_shown := b_shown b2; b_rshown := b_rshown b2 |} b2).
  { intros f. unfold but_rate. cbn. repeat split. cbn [book_op shows RATE read_book] in E2. destruct (rate_now b1) as [r|] eqn:Er; [|discriminate]. cbn [option_map] in E2. injection E2 as <-. cbn. discriminate. }
  destruct (but_rate_ops inB inR rest _ b2 b Hn (T _) Eb) as (c & Ec & Tc). rewrite Ec in K. destruct K as (s' & G' & S'). exists s'. split; [exact G'|].
  intros p Hp. rewrite (sim_figure _ _ order s b p S0 Hp), (sim_figure _ _ order s' c p S' Hp). now apply but_rate_shows.
Qed.
Print Assumptions C108_rate_ignored_refuted.

Local Ltac books K := match type of K with match ?x with _ => _ end => let x' := eval cbn -[grown] in x in change x with x' in K end; cbv beta iota in K.
Definition five : list nat := [0; 1; 2; 3; 4]%nat.
Lemma whole_five : whole five.
Proof. intros p. unfold five. cbn. lia. Qed.
Lemma twice : accumulation_function 1 1 (Some 2%positive) = 9 / 4.
Proof.
  pose proof (GrowthProofs.accum_years 1 2 1) as H. assert (K : 0 < 1 + 1 / IZR 2) by lra. specialize (H K). change (INR 1) with 1 in H. rewrite H. replace (Pos.to_nat 2 * 1)%nat with 2%nat by reflexivity. cbn [pow]. lra.
Qed.
Lemma once : accumulation_function 1 1 (Some 1%positive) = 2.
Proof. rewrite GrowthProofs.accum_annual; lra. Qed.
(** reading can change what is shown later, and a year's growth can differ from the returns shown for it:
    1000 at 100% compounded once returns 1000; change to twice a year after New Year and the balance is
    2250, unless it was read before the change *)
Theorem C108_reading_matters_refuted :
  let acct := new_account (inputs_of none none) five 2000 1000 (RateNum 1) (Some 1%positive) in
  figure none none five acct RETURNS = Some (VNum 1000) /\
  (exists s, do_all (inputs_of none none) five acct [Advance; SetNper (Some 2%positive)] = Some s /\ figure none none five s BALANCE = Some (VNum 2250)) /\
  (exists s, do_all (inputs_of none none) five acct [Advance; Read BALANCE; SetNper (Some 2%positive)] = Some s /\ figure none none five s BALANCE = Some (VNum 2000)).
Proof.
  assert (Kn : forall os, forallb (fun o => match o with Read p => Nat.ltb p 5 | _ => true end) os = true -> known os).
  { intros os H p Hin. rewrite forallb_forall in H. specialize (H _ Hin). cbn beta iota in H. now apply Nat.ltb_lt in H. }
  split; [|split].
  - rewrite (sim_figure none none five _ _ RETURNS (sim_new none none five 2000 1000 (RateNum 1) (Some 1%positive))) by (unfold RETURNS; lia).
    cbn. unfold grown. rewrite once. cbn. do 2 f_equal. lra.
  - pose proof (C108_books none none five 2000 1000 (RateNum 1) (Some 1%positive) [Advance; SetNper (Some 2%positive)] whole_five (Kn [Advance; SetNper (Some 2%positive)] eq_refl)) as K.
    books K. destruct K as (s & G & F). exists s. split; [exact G|]. rewrite (F BALANCE) by (unfold BALANCE; lia).
    cbn. unfold grown. rewrite twice. cbn. do 2 f_equal. lra.
  - pose proof (C108_books none none five 2000 1000 (RateNum 1) (Some 1%positive) [Advance; Read BALANCE; SetNper (Some 2%positive)] whole_five (Kn [Advance; Read BALANCE; SetNper (Some 2%positive)] eq_refl)) as K.
    books K. destruct K as (s & G & F). exists s. split; [exact G|]. rewrite (F BALANCE) by (unfold BALANCE; lia).
    cbn. unfold grown. rewrite once. cbn. do 2 f_equal. lra.
Qed.
Print Assumptions C108_reading_matters_refuted.

(** a deposit in each of two years, a rate from a table, read on the way *)
Example C108_sat :
  let acct := new_account (inputs_of none none) five 2000 100 (RateTable [(2000%Z, 1); (2001%Z, 1); (2002%Z, 3)]) (Some 1%positive) in
  exists s, do_all (inputs_of none none) five acct [Put 0 50; Read RETURNS; Advance; Put 1 10; Read TAXABLE; Advance] = Some s /\
            figure none none five s BALANCE = Some (VNum 1210) /\ figure none none five s RATE = Some (VNum 3) /\ figure none none five s RETURNS = Some (VNum 3630) /\
            do (inputs_of none none) five s Advance <> None /\ do_all (inputs_of none none) five s [Advance; Read RATE] = None.
Proof.
  intros acct. set (os := [Put 0 50; Read RETURNS; Advance; Put 1 10; Read TAXABLE; Advance]).
  assert (Kn : known os). { intros p Hin. unfold os in Hin. cbn in Hin. repeat destruct Hin as [Hin|Hin]; try discriminate Hin; try (injection Hin as <-; unfold RETURNS, TAXABLE; lia); destruct Hin. }
  pose proof (sim_ops none none five whole_five os _ _ Kn (sim_new none none five 2000 100 (RateTable [(2000%Z, 1); (2001%Z, 1); (2002%Z, 3)]) (Some 1%positive))) as K.
  books K. destruct K as (s & G & S0). exists s. split; [exact G|].
  assert (A : forall r, -1 < r -> accumulation_function 1 r (Some 1%positive) = 1 + r) by (intros; now apply GrowthProofs.accum_annual).
  assert (A0 : forall r, accumulation_function 0 r (Some 1%positive) = 1) by (intros; apply GrowthProofs.accum_0).
  repeat split.
  - rewrite (sim_figure none none five s _ BALANCE S0) by (unfold BALANCE; lia). cbn -[grown]. unfold grown. cbn -[accumulation_function]. rewrite Rminus_0_r, Rminus_diag_eq, !A, A0 by lra. do 2 f_equal. lra.
  - rewrite (sim_figure none none five s _ RATE S0) by (unfold RATE; lia). reflexivity.
  - rewrite (sim_figure none none five s _ RETURNS S0) by (unfold RETURNS; lia). cbn -[grown]. unfold grown. cbn -[accumulation_function]. replace (1 - 0) with 1 by lra. replace (1 - 1) with 0 by lra. rewrite !A, !A0 by lra. do 2 f_equal. lra.
  - pose proof (sim_op none none five whole_five s _ Advance ltac:(discriminate) S0) as K. books K. destruct K as (s' & -> & _). discriminate.
  - assert (Kn2 : known [Advance; Read RATE]). { intros p [Hin|[Hin|[]]]; [discriminate|injection Hin as <-; unfold RATE; lia]. }
    pose proof (sim_ops none none five whole_five _ _ _ Kn2 S0) as K. books K. exact K.
Qed.
