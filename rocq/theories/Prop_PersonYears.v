(** C111: a person's figures over the years, whatever is read and changed on the way. *)
From Verif Require Import Base BaseFacts PersonModel PersonYearsModel LedgerProofs.
From Verif Require LedgerModel.
Import LedgerModel(get_with, run, getp, record, year, hist, put, setter, deleter, upd, with_env, lstate).
From Coq Require Import Lia Lqa.

(** ** Specification: the person's books *)
(** [k_last]: last year's gross income; [k_set p]: this year's figure [p] once it is settled (given as an input, assigned,
    or shown, if it is one of those the person remembers) *)
Record book : Type := { k_year : Z; k_params : pparams; k_accts : acct_sums; k_last : option Q; k_set : nat -> option Q }.
Definition retired (b : book) : bool := match pp_retire (k_params b) with Some r => Z.ltb r (k_year b) | None => false end.
Definition raise_now (b : book) : option Q := match k_set b RAISE with Some r => Some r | None => pp_raise (k_params b) (k_year b) end.
Definition gross_now (b : book) : option Q :=
  match k_set b GROSS with
  | Some g => Some g
  | None => if retired b then Some 0 else match k_last b, raise_now b with Some g, Some r => Some (g * (1 + r)) | _, _ => None end
  end.
Definition withheld_now (b : book) : option Q :=
  match k_set b WITHHELD with
  | Some t => Some t
  | None => match pp_tax (k_params b) with Some f => option_map (fun g => f g (k_year b)) (gross_now b) | None => Some 0 end
  end.
Definition net_now (b : book) : option Q :=
  match k_set b NET with
  | Some n => Some n
  | None => match gross_now b, withheld_now b with Some g, Some t => Some (g - t) | _, _ => None end
  end.
Definition taxable_now (b : book) : option Q :=
  match k_set b TAXABLE with Some x => Some x | None => option_map (fun g => g + Qsum (s_taxable (k_accts b))) (gross_now b) end.
(** what the user sees *)
Definition shows (b : book) (p : nat) : option Q :=
  match p with
  | 0%nat => gross_now b
  | 1%nat => net_now b
  | 2%nat => raise_now b
  | 3%nat => withheld_now b
  | 4%nat => Some (match k_set b DEDUCTION with Some x => x | None => Qsum (s_deduction (k_accts b)) end)
  | 5%nat => Some (match k_set b CREDIT with Some x => x | None => Qsum (s_credit (k_accts b)) end)
  | 6%nat => taxable_now b
  | _ => None
  end.
Definition keep (b : book) (p : nat) (v : option Q) : book :=
  {| k_year := k_year b; k_params := k_params b; k_accts := k_accts b; k_last := k_last b; k_set := fun q => if Nat.eqb q p then v else k_set b q |}.
(** reading settles what was read and what it was worked out from *)
Definition read_raise (b : book) : book := match k_set b RAISE with Some _ => b | None => keep b RAISE (raise_now b) end.
Definition read_gross (b : book) : book :=
  match k_set b GROSS with Some _ => b | None => keep (if retired b then b else read_raise b) GROSS (gross_now b) end.
Definition read_withheld (b : book) : book :=
  match k_set b WITHHELD with Some _ => b | None => match pp_tax (k_params b) with Some _ => read_gross b | None => b end end.
Definition read_book (p : nat) (b : book) : book :=
  match k_set b p with
  | Some _ => b
  | None =>
      match p with
      | 0%nat => read_gross b
      | 1%nat => keep (read_withheld (read_gross b)) NET (net_now b)
      | 2%nat => read_raise b
      | 3%nat => read_withheld b
      | 6%nat => read_gross b
      | _ => keep b p (shows b p)
      end
  end.
Definition book_params (b : book) (P : pparams) : book := {| k_year := k_year b; k_params := P; k_accts := k_accts b; k_last := k_last b; k_set := k_set b |}.
Section Books.
  Variable inp : nat -> Z -> option Q.   (* the user's inputs *)
  Definition params_of (retire : option Z) (raise : Z -> option Q) (tax : option (Q -> Z -> Q)) : pparams :=
    {| pp_retire := retire; pp_raise := raise; pp_tax := tax; pp_inputs := inp |}.
  Definition book_op (b : book) (o : lop) : option book :=
    let P := k_params b in
    match o with
    | Read p => match shows b p with Some _ => Some (read_book p b) | None => None end
    | Assign p v => Some (match inp p (k_year b) with Some _ => b | None => keep b p (Some v) end)
    | Delete p => Some (match inp p (k_year b) with Some _ => b | None => keep b p None end)
    | SetRaise f => Some (book_params b (params_of (pp_retire P) f (pp_tax P)))
    | SetTax f => Some (book_params b (params_of (pp_retire P) (pp_raise P) f))
    | SetRetire y => Some (book_params b (params_of (Some y) (pp_raise P) (pp_tax P)))
    | SetAccounts e => Some {| k_year := k_year b; k_params := P; k_accts := e; k_last := k_last b; k_set := k_set b |}
    | Advance => match gross_now b, net_now b, raise_now b, withheld_now b, taxable_now b with
                 | Some g, Some _, Some _, Some _, Some _ =>
                     Some {| k_year := (k_year b + 1)%Z; k_params := P; k_accts := k_accts b; k_last := Some g; k_set := fun p => inp p (k_year b + 1)%Z |}
                 | _, _, _, _, _ => None
                 end
    end.
  Fixpoint book_ops (b : book) (os : list lop) : option book :=
    match os with [] => Some b | o :: r => match book_op b o with Some b' => book_ops b' r | None => None end end.
  (** a new person: the gross income given, and net income worked out at once *)
  Definition new_book (retire : option Z) (raise : Z -> option Q) (tax : option (Q -> Z -> Q)) (y : Z) (gross : Q) (e : acct_sums) : option book :=
    let b := {| k_year := y; k_params := params_of retire raise tax; k_accts := e; k_last := inp GROSS (y - 1)%Z; k_set := fun p => inp p y |} in
    match book_op b (Assign GROSS gross) with
    | Some b => match gross_now b, withheld_now b with Some g, Some t => book_op b (Assign NET (g - t)) | _, _ => None end
    | None => None
    end.

  (** ** Proofs *)
  Variable order : list nat.
  Hypothesis Hord : forall p, In p order <-> (p < 7)%nat.
  Notation C P := (person_class P order).
  Record Sim (s : lstate Q acct_sums) (b : book) : Prop := {
    m_inp : pp_inputs (k_params b) = inp;
    m_year : year s = k_year b;
    m_env : LedgerModel.env s = k_accts b;
    m_set : forall p, hist s p (year s) = k_set b p;
    m_last : hist s GROSS (year s - 1)%Z = k_last b;
    m_next : forall p y, (year s < y)%Z -> hist s p y = inp p y }.
  Lemma hist_put (s : lstate Q acct_sums) p y v q z : hist (put s p y v) q z = if (Nat.eqb q p && Z.eqb z y)%bool then v else hist s q z.
  Proof. reflexivity. Qed.
  Lemma sim_keep s b p v : Sim s b -> Sim (put s p (year s) v) (keep b p v).
  Proof.
    intros [I Y E S0 L N]. constructor; cbn [year put LedgerModel.env keep k_params k_year k_accts k_set k_last]; [exact I|exact Y|exact E| | |].
    - intros q. rewrite hist_put, Z.eqb_refl, andb_true_r. destruct (Nat.eqb q p); [reflexivity|apply S0].
    - rewrite hist_put. destruct (Z.eqb_spec (year s - 1) (year s)); [lia|]. rewrite andb_false_r. exact L.
    - intros q y Hy. rewrite hist_put. destruct (Z.eqb_spec y (year s)); [lia|]. rewrite andb_false_r. now apply N.
  Qed.
  (** settling what is shown changes nothing that is shown *)
  Definition same (b c : book) : Prop :=
    k_year b = k_year c /\ k_params b = k_params c /\ k_accts b = k_accts c /\ k_last b = k_last c /\ forall p, shows b p = shows c p.
  Lemma same_refl b : same b b. Proof. repeat split. Qed.
  Lemma same_trans a b c : same a b -> same b c -> same a c.
  Proof. intros (A1 & A2 & A3 & A4 & A5) (B1 & B2 & B3 & B4 & B5). repeat split; first [congruence|intros p; rewrite A5; apply B5]. Qed.
  Lemma same_sym a b : same a b -> same b a.
  Proof. intros (A1 & A2 & A3 & A4 & A5). repeat split; first [congruence|intros p; symmetry; apply A5]. Qed.
  Lemma set_shows b p v : (p < 7)%nat -> k_set b p = Some v -> shows b p = Some v.
  Proof. intros Hp H. destruct p as [|[|[|[|[|[|[|p]]]]]]]; [..|lia]; cbn [shows]; unfold gross_now, net_now, raise_now, withheld_now, taxable_now; unfold GROSS, NET, RAISE, WITHHELD, DEDUCTION, CREDIT, TAXABLE; rewrite H; reflexivity. Qed.
  Lemma keep_same b p v : (p < 7)%nat -> shows b p = Some v -> same b (keep b p (Some v)).
  Proof.
    intros Hp H. repeat split. intros q.
    destruct (k_set b p) as [w|] eqn:K.
    { assert (w = v) by (rewrite (set_shows b p w Hp K) in H; congruence). subst w.
      assert (E : forall q, k_set (keep b p (Some v)) q = k_set b q) by (intros r; cbn; destruct (Nat.eqb_spec r p) as [->|]; congruence).
      unfold shows, gross_now, net_now, raise_now, withheld_now, taxable_now, gross_now, withheld_now, gross_now, raise_now, retired. rewrite !E. reflexivity. }
    destruct p as [|[|[|[|[|[|[|p]]]]]]]; [..|lia]; cbn [shows] in H.
    - assert (G : gross_now (keep b 0 (Some v)) = gross_now b) by (rewrite H; reflexivity).
      destruct q as [|[|[|[|[|[|[|q]]]]]]]; cbn [shows]; unfold net_now, withheld_now, taxable_now; rewrite ?G; reflexivity.
    - assert (G : net_now (keep b 1 (Some v)) = net_now b) by (rewrite H; reflexivity).
      destruct q as [|[|[|[|[|[|[|q]]]]]]]; cbn [shows]; rewrite ?G; reflexivity.
    - assert (R0 : raise_now (keep b 2 (Some v)) = raise_now b) by (rewrite H; reflexivity).
      assert (G : gross_now (keep b 2 (Some v)) = gross_now b) by (unfold gross_now; rewrite R0; reflexivity).
      destruct q as [|[|[|[|[|[|[|q]]]]]]]; cbn [shows]; unfold net_now, withheld_now, taxable_now; rewrite ?G, ?R0; reflexivity.
    - assert (G : withheld_now (keep b 3 (Some v)) = withheld_now b) by (rewrite H; reflexivity).
      destruct q as [|[|[|[|[|[|[|q]]]]]]]; cbn [shows]; unfold net_now; rewrite ?G; reflexivity.
    - destruct q as [|[|[|[|[|[|[|q]]]]]]]; cbn [shows]; try reflexivity. cbn. unfold DEDUCTION in *. rewrite K in H |- *. exact H.
    - destruct q as [|[|[|[|[|[|[|q]]]]]]]; cbn [shows]; try reflexivity. cbn. unfold CREDIT in *. rewrite K in H |- *. exact H.
    - assert (G : taxable_now (keep b 6 (Some v)) = taxable_now b) by (rewrite H; reflexivity).
      destruct q as [|[|[|[|[|[|[|q]]]]]]]; cbn [shows]; rewrite ?G; reflexivity.
  Qed.
  Lemma read_raise_same b : same b (read_raise b).
  Proof.
    unfold read_raise. destruct (k_set b RAISE) eqn:K; [apply same_refl|]. destruct (raise_now b) as [r|] eqn:E; [apply keep_same; [unfold RAISE; lia|exact E]|].
    repeat split. intros q. assert (X : forall q, k_set (keep b RAISE None) q = k_set b q) by (intros r; cbn; destruct (Nat.eqb_spec r RAISE) as [->|]; congruence).
    unfold shows, gross_now, net_now, raise_now, withheld_now, taxable_now, gross_now, withheld_now, gross_now, raise_now, retired. rewrite !X. reflexivity.
  Qed.
  Lemma read_gross_same b : gross_now b <> None -> same b (read_gross b).
  Proof.
    intros G. unfold read_gross. destruct (k_set b GROSS) eqn:K; [apply same_refl|]. destruct (gross_now b) as [g|] eqn:E; [|congruence].
    assert (Sm : same b (if retired b then b else read_raise b)) by (destruct (retired b); [apply same_refl|apply read_raise_same]).
    apply (same_trans _ _ _ Sm). apply keep_same; [unfold GROSS; lia|]. destruct Sm as (_ & _ & _ & _ & Sm). rewrite <- (Sm GROSS). exact E.
  Qed.
  Lemma withheld_gross b : withheld_now b <> None -> k_set b WITHHELD = None -> pp_tax (k_params b) <> None -> gross_now b <> None.
  Proof. unfold withheld_now. intros H K T. rewrite K in H. destruct (pp_tax (k_params b)); [|congruence]. destruct (gross_now b); [discriminate|exact H]. Qed.
  Lemma read_withheld_same b : withheld_now b <> None -> same b (read_withheld b).
  Proof.
    intros G. unfold read_withheld. destruct (k_set b WITHHELD) eqn:K; [apply same_refl|]. destruct (pp_tax (k_params b)) eqn:T; [|apply same_refl].
    apply read_gross_same. apply withheld_gross; auto. congruence.
  Qed.
  Lemma read_same p b : (p < 7)%nat -> shows b p <> None -> same b (read_book p b).
  Proof.
    intros Hp G. unfold read_book. destruct (k_set b p) eqn:K; [apply same_refl|]. destruct p as [|[|[|[|[|[|[|p]]]]]]]; [..|lia].
    - now apply read_gross_same.
    - cbn [shows] in G. destruct (net_now b) as [n|] eqn:E; [|congruence].
      assert (A : gross_now b <> None /\ withheld_now b <> None) by (unfold net_now in E; unfold NET in E; rewrite K in E; destruct (gross_now b), (withheld_now b); try discriminate; split; discriminate).
      destruct A as [A1 A2]. pose proof (read_gross_same b A1) as S1.
      assert (S2 : same (read_gross b) (read_withheld (read_gross b))).
      { apply read_withheld_same. destruct S1 as (_ & _ & _ & _ & S1). specialize (S1 WITHHELD). cbn [shows WITHHELD] in S1. congruence. }
      pose proof (same_trans _ _ _ S1 S2) as S3. apply (same_trans _ _ _ S3). apply keep_same; [unfold NET; lia|]. destruct S3 as (_ & _ & _ & _ & S3). rewrite <- (S3 NET). exact E.
    - apply read_raise_same.
    - now apply read_withheld_same.
    - destruct (shows b 4) as [v|] eqn:E; [apply keep_same; [lia|exact E]|congruence].
    - destruct (shows b 5) as [v|] eqn:E; [apply keep_same; [lia|exact E]|congruence].
    - apply read_gross_same. cbn [shows] in G. unfold taxable_now in G. unfold TAXABLE in G. rewrite K in G. destruct (gross_now b); [discriminate|exact G].
  Qed.

  Lemma run_get P n s p k : run (C P) (S n) s (LedgerModel.Get p k) = match get_with (C P) (run (C P) n) p s with None => None | Some (v, s') => run (C P) (S n) s' (k v) end.
  Proof. reflexivity. Qed.
  Lemma run_env P n s k : run (C P) (S n) s (LedgerModel.EnvRd k) = run (C P) (S n) s (k (LedgerModel.env s)).
  Proof. reflexivity. Qed.
  Lemma run_year P n s k : run (C P) (S n) s (LedgerModel.Year k) = run (C P) (S n) s (k (year s)).
  Proof. reflexivity. Qed.
  Lemma run_past P n s p d k : run (C P) (S n) s (LedgerModel.PastAt p d k) = run (C P) (S n) s (k (hist s p (year s - Zpos d)%Z)).
  Proof. reflexivity. Qed.
  Lemma run_ret P n s v : run (C P) (S n) s (LedgerModel.Ret v) = Some (v, s).
  Proof. reflexivity. Qed.
  Lemma run_raise P n s : run (C P) (S n) s LedgerModel.Raise = None.
  Proof. reflexivity. Qed.
  Ltac step := repeat first [rewrite run_get | rewrite run_env | rewrite run_year | rewrite run_past | rewrite run_ret | rewrite run_raise].
  Lemma keep_id b p : forall q, k_set (keep b p (k_set b p)) q = k_set b q.
  Proof. intros q. cbn. destruct (Nat.eqb_spec q p) as [->|]; reflexivity. Qed.

  Lemma do_raise n s b : Sim s b ->
    match raise_now b with
    | Some r => exists s', get_with (C (k_params b)) (run (C (k_params b)) (S n)) RAISE s = Some (r, s') /\ Sim s' (read_raise b)
    | None => get_with (C (k_params b)) (run (C (k_params b)) (S n)) RAISE s = None
    end.
  Proof.
    intros HS. unfold get_with. rewrite (m_set _ _ HS RAISE). unfold raise_now, read_raise. destruct (k_set b RAISE) as [r|] eqn:K; [exists s; auto|].
    change (LedgerModel.fget (C (k_params b)) RAISE) with (LedgerModel.Year (fun y => match pp_raise (k_params b) y with Some r => LedgerModel.Ret r | None => LedgerModel.Raise end) : LedgerModel.prog Q acct_sums).
    step. rewrite (m_year _ _ HS). destruct (pp_raise (k_params b) (k_year b)) as [r|] eqn:E; [|reflexivity]. step. cbn [LedgerModel.cached person_class person_cached].
    eexists. split; [reflexivity|]. unfold raise_now. rewrite K, E. now apply sim_keep.
  Qed.
  Lemma read_raise_fields b : k_year (read_raise b) = k_year b /\ k_params (read_raise b) = k_params b /\ k_accts (read_raise b) = k_accts b.
  Proof. unfold read_raise. destruct (k_set b RAISE); auto. Qed.
  Lemma do_gross n s b : Sim s b ->
    match gross_now b with
    | Some g => exists s', get_with (C (k_params b)) (run (C (k_params b)) (S (S n))) GROSS s = Some (g, s') /\ Sim s' (read_gross b)
    | None => get_with (C (k_params b)) (run (C (k_params b)) (S (S n))) GROSS s = None
    end.
  Proof.
    intros HS. unfold get_with at 1 2. rewrite (m_set _ _ HS GROSS). unfold gross_now at 1, read_gross. destruct (k_set b GROSS) as [g|] eqn:K; [exists s; auto|].
    change (LedgerModel.fget (C (k_params b)) GROSS) with (person_fget (k_params b) GROSS). cbn [person_fget Nat.eqb GROSS]. step. rewrite (m_year _ _ HS).
    change (match pp_retire (k_params b) with Some r => (r <? k_year b)%Z | None => false end) with (retired b). destruct (retired b) eqn:R.
    - step. cbn [LedgerModel.cached person_class person_cached]. eexists. split; [reflexivity|].
      assert (G : gross_now b = Some 0) by (unfold gross_now; rewrite K, R; reflexivity). rewrite G. now apply sim_keep.
    - rewrite run_past. change (0%nat) with GROSS. rewrite (m_last _ _ HS). destruct (k_last b) as [g|] eqn:L; [|step; reflexivity]. rewrite run_get.
      pose proof (do_raise n s b HS) as D. destruct (raise_now b) as [r|] eqn:E; [|rewrite D; reflexivity]. destruct D as (s1 & D1 & D2). rewrite D1. step.
      cbn [LedgerModel.cached person_class person_cached]. eexists. split; [reflexivity|].
      assert (G : gross_now b = Some (g * (1 + r))) by (unfold gross_now; rewrite K, R, L, E; reflexivity). rewrite G. now apply sim_keep.
  Qed.
  Lemma read_gross_fields b : k_year (read_gross b) = k_year b /\ k_params (read_gross b) = k_params b /\ k_accts (read_gross b) = k_accts b /\
    forall q, q <> GROSS -> q <> RAISE -> k_set (read_gross b) q = k_set b q.
  Proof.
    unfold read_gross, read_raise. destruct (k_set b GROSS); [auto|]. destruct (retired b), (k_set b RAISE); cbn; (split; [reflexivity|split; [reflexivity|split; [reflexivity|intros z N1 N2]]]);
      rewrite ?(proj2 (Nat.eqb_neq z GROSS) N1), ?(proj2 (Nat.eqb_neq z RAISE) N2); reflexivity.
  Qed.
  Lemma do_withheld n s b : Sim s b ->
    match withheld_now b with
    | Some t => exists s', get_with (C (k_params b)) (run (C (k_params b)) (S (S (S n)))) WITHHELD s = Some (t, s') /\ Sim s' (read_withheld b)
    | None => get_with (C (k_params b)) (run (C (k_params b)) (S (S (S n)))) WITHHELD s = None
    end.
  Proof.
    intros HS. unfold get_with at 1 2. rewrite (m_set _ _ HS WITHHELD). unfold withheld_now, read_withheld. destruct (k_set b WITHHELD) as [t|] eqn:K; [exists s; auto|].
    change (LedgerModel.fget (C (k_params b)) WITHHELD) with (person_fget (k_params b) WITHHELD). cbn [person_fget Nat.eqb GROSS NET RAISE WITHHELD].
    destruct (pp_tax (k_params b)) as [f|] eqn:T; [|step; exists s; auto]. change (0%nat) with GROSS. rewrite run_get. pose proof (do_gross n s b HS) as D. destruct (gross_now b) as [g|]; cbn [option_map]; [|rewrite D; reflexivity].
    destruct D as (s1 & D1 & D2). rewrite D1. step. cbn [LedgerModel.cached person_class person_cached existsb Nat.eqb]. exists s1. split; [|exact D2].
    rewrite (m_year _ _ D2). destruct (read_gross_fields b) as (F & _). rewrite F. reflexivity.
  Qed.
  Lemma do_any p s b : (p < 7)%nat -> Sim s b ->
    match shows b p with
    | Some v => exists s', getp (C (k_params b)) depth s p = Some (v, s') /\ Sim s' (read_book p b)
    | None => getp (C (k_params b)) depth s p = None
    end.
  Proof.
    intros Hp HS. unfold getp, depth. destruct (k_set b p) as [v|] eqn:K.
    { rewrite (set_shows b p v Hp K). unfold read_book. rewrite K. exists s. split; [|exact HS]. unfold get_with. rewrite (m_set _ _ HS p), K. reflexivity. }
    unfold read_book. rewrite K. destruct p as [|[|[|[|[|[|[|p]]]]]]]; [..|lia].
    - apply (do_gross 3 s b HS).
    - cbn [shows]. unfold get_with at 1 2. rewrite (m_set _ _ HS 1), K.
      change (LedgerModel.fget (C (k_params b)) 1) with (LedgerModel.Get GROSS (fun g => LedgerModel.Get WITHHELD (fun t => LedgerModel.Ret (g - t))) : LedgerModel.prog Q acct_sums). rewrite run_get.
      pose proof (do_gross 2 s b HS) as D. pose proof (eq_refl (net_now b)) as Nn. unfold net_now in Nn at 1. unfold NET in Nn at 1. rewrite K in Nn.
      destruct (gross_now b) as [g|] eqn:G; [|rewrite D, <- Nn; reflexivity]. destruct D as (s1 & D1 & D2). rewrite D1. rewrite run_get.
      destruct (read_gross_fields b) as (F1 & F2 & F3 & _). pose proof (do_withheld 1 s1 _ D2) as E. rewrite F2 in E.
      assert (W : withheld_now (read_gross b) = withheld_now b) by (pose proof (read_gross_same b ltac:(congruence)) as (_ & _ & _ & _ & Sm); symmetry; exact (Sm WITHHELD)).
      rewrite W in E. destruct (withheld_now b) as [t|]; [|rewrite E, <- Nn; reflexivity]. destruct E as (s2 & E1 & E2). rewrite E1. rewrite run_ret. rewrite <- Nn.
      cbn [LedgerModel.cached person_class person_cached existsb Nat.eqb NET GROSS orb]. eexists. split; [reflexivity|]. now apply sim_keep.
    - apply (do_raise 4 s b HS).
    - apply (do_withheld 2 s b HS).
    - cbn [shows]. unfold DEDUCTION. rewrite K. unfold get_with. rewrite (m_set _ _ HS 4), K.
      change (LedgerModel.fget (C (k_params b)) 4) with (LedgerModel.EnvRd (fun e => LedgerModel.Ret (Qsum (s_deduction e))) : LedgerModel.prog Q acct_sums). step. rewrite (m_env _ _ HS).
      cbn [LedgerModel.cached person_class person_cached existsb Nat.eqb NET GROSS RAISE DEDUCTION orb]. eexists. split; [reflexivity|]. now apply sim_keep.
    - cbn [shows]. unfold CREDIT. rewrite K. unfold get_with. rewrite (m_set _ _ HS 5), K.
      change (LedgerModel.fget (C (k_params b)) 5) with (LedgerModel.EnvRd (fun e => LedgerModel.Ret (Qsum (s_credit e))) : LedgerModel.prog Q acct_sums). step. rewrite (m_env _ _ HS).
      cbn [LedgerModel.cached person_class person_cached existsb Nat.eqb NET GROSS RAISE DEDUCTION CREDIT orb]. eexists. split; [reflexivity|]. now apply sim_keep.
    - cbn [shows]. unfold taxable_now, TAXABLE. rewrite K. unfold get_with at 1 2. rewrite (m_set _ _ HS 6), K.
      change (LedgerModel.fget (C (k_params b)) 6) with (LedgerModel.Get GROSS (fun g => LedgerModel.EnvRd (fun e => LedgerModel.Ret (g + Qsum (s_taxable e)))) : LedgerModel.prog Q acct_sums). rewrite run_get.
      pose proof (do_gross 2 s b HS) as D. destruct (gross_now b) as [g|]; cbn [option_map]; [|rewrite D; reflexivity]. destruct D as (s1 & D1 & D2). rewrite D1. step.
      cbn [LedgerModel.cached person_class person_cached existsb Nat.eqb NET GROSS RAISE DEDUCTION CREDIT orb]. exists s1. split; [|exact D2].
      rewrite (m_env _ _ D2). destruct (read_gross_fields b) as (_ & _ & F & _). rewrite F. reflexivity.
  Qed.
  (** ** Recording a year *)
  Definition mono (b c : book) : Prop := forall p v, k_set b p = Some v -> k_set c p = Some v.
  Lemma mono_refl b : mono b b. Proof. intros p v H. exact H. Qed.
  Lemma mono_trans a b c : mono a b -> mono b c -> mono a c. Proof. intros A B p v H. apply B, A, H. Qed.
  Lemma mono_keep b p v : k_set b p = None -> mono b (keep b p v).
  Proof. intros K q w H. cbn. destruct (Nat.eqb_spec q p) as [->|]; [congruence|exact H]. Qed.
  Lemma mono_raise b : mono b (read_raise b).
  Proof. unfold read_raise. destruct (k_set b RAISE) eqn:K; [apply mono_refl|now apply mono_keep]. Qed.
  Lemma mono_gross b : mono b (read_gross b).
  Proof.
    unfold read_gross. destruct (k_set b GROSS) eqn:K; [apply mono_refl|]. apply (mono_trans _ (if retired b then b else read_raise b)); [destruct (retired b); [apply mono_refl|apply mono_raise]|].
    apply mono_keep. destruct (retired b); [exact K|]. unfold read_raise. destruct (k_set b RAISE); [exact K|]. exact K.
  Qed.
  Lemma mono_withheld b : mono b (read_withheld b).
  Proof. unfold read_withheld. destruct (k_set b WITHHELD); [apply mono_refl|]. destruct (pp_tax (k_params b)); [apply mono_gross|apply mono_refl]. Qed.
  Lemma mono_read p b : mono b (read_book p b).
  Proof.
    unfold read_book. destruct (k_set b p) eqn:K; [apply mono_refl|]. destruct p as [|[|[|[|[|[|[|p]]]]]]]; try (now apply mono_keep); [apply mono_gross| |apply mono_raise|apply mono_withheld|apply mono_gross].
    apply (mono_trans _ (read_gross b)); [apply mono_gross|]. apply (mono_trans _ (read_withheld (read_gross b))); [apply mono_withheld|]. apply mono_keep.
    assert (G : forall c, k_set c 1 = None -> k_set (read_gross c) 1 = None).
    { intros c Hc. destruct (read_gross_fields c) as (_ & _ & _ & F). rewrite F; [exact Hc|discriminate|discriminate]. }
    unfold NET, read_withheld. destruct (k_set (read_gross b) WITHHELD); [now apply G|]. destruct (pp_tax (k_params (read_gross b))); [now apply G, G|now apply G].
  Qed.
  Lemma record_all : forall ps s b, (forall p, In p ps -> (p < 7)%nat) -> Sim s b ->
    ((forall p, In p ps -> shows b p <> None) -> exists s' b', record (C (k_params b)) depth ps s = Some s' /\ Sim s' b' /\ same b b' /\ mono b b' /\ forall p, In p ps -> k_set b' p = shows b p) /\
    (forall p, In p ps -> shows b p = None -> record (C (k_params b)) depth ps s = None).
  Proof.
    induction ps as [|p ps IH]; intros s b Hp HS.
    - split; [|intros p []]. intros _. exists s, b. split; [reflexivity|]. split; [exact HS|]. split; [apply same_refl|]. split; [apply mono_refl|intros p []].
    - assert (Hps : forall q, In q ps -> (q < 7)%nat) by (intros q Hq; apply Hp; now right). pose proof (Hp p (or_introl eq_refl)) as Hp0. cbn [record]. rewrite (m_set _ _ HS p).
      destruct (k_set b p) as [v|] eqn:K.
      + pose proof (set_shows b p v Hp0 K) as Sh. destruct (IH s b Hps HS) as [A B]. split.
        * intros H. destruct A as (s' & b' & A1 & A2 & A3 & A4 & A5); [intros q Hq; apply H; now right|]. exists s', b'. split; [exact A1|]. split; [exact A2|]. split; [exact A3|]. split; [exact A4|].
          intros q [<-|Hq]; [rewrite Sh; now apply A4|now apply A5].
        * intros q [<-|Hq] H; [congruence|exact (B q Hq H)].
      + pose proof (do_any p s b Hp0 HS) as D. destruct (shows b p) as [v|] eqn:Sh.
        * destruct D as (s1 & D1 & D2). rewrite D1. pose proof (read_same p b Hp0 ltac:(congruence)) as Sm1.
          set (c := keep (read_book p b) p (Some v)). assert (Sc : Sim (put s1 p (year s1) (Some v)) c) by now apply sim_keep.
          assert (Pc : k_params c = k_params b) by (cbn; destruct Sm1 as (_ & E & _); now symmetry).
          assert (Sh1 : shows (read_book p b) p = Some v) by (destruct Sm1 as (_ & _ & _ & _ & E); rewrite <- E; exact Sh).
          assert (Sm : same b c) by (apply (same_trans _ _ _ Sm1); now apply keep_same).
          assert (Mo : mono b c).
          { intros q w H. unfold c. cbn. destruct (Nat.eqb_spec q p) as [->|]; [congruence|]. now apply mono_read. }
          destruct (IH _ c Hps Sc) as [A B]. rewrite Pc in A, B. split.
          -- intros H. destruct A as (s' & b' & A1 & A2 & A3 & A4 & A5).
             { intros q Hq. destruct Sm as (_ & _ & _ & _ & E). rewrite <- E. apply H. now right. }
             exists s', b'. split; [exact A1|]. split; [exact A2|]. split; [exact (same_trans _ _ _ Sm A3)|]. split; [exact (mono_trans _ _ _ Mo A4)|].
             intros q [<-|Hq]; [rewrite Sh; apply A4; unfold c; cbn; now rewrite Nat.eqb_refl|]. rewrite (A5 q Hq). destruct Sm as (_ & _ & _ & _ & E). symmetry. apply E.
          -- intros q [<-|Hq] H; [congruence|]. apply (B q Hq). destruct Sm as (_ & _ & _ & _ & E). rewrite <- E. exact H.
        * rewrite D. split; [intros H; exfalso; apply (H p); [now left|exact Sh]|reflexivity].
  Qed.
  (** ** Every operation *)
  Definition Rel (l : living) (b : book) : Prop := l_params l = k_params b /\ Sim (l_led l) b.
  Definition knows (o : lop) : Prop := match o with Read p | Assign p _ | Delete p => (p < 7)%nat | _ => True end.
  Lemma sim_params s b P : Sim s b -> pp_inputs P = inp -> Sim s (book_params b P).
  Proof. intros [I Y E S0 L N] H. constructor; cbn; auto. Qed.
  Lemma rel_op l b o : knows o -> Rel l b ->
    match book_op b o with Some b' => exists l', do order l o = Some l' /\ Rel l' b' | None => do order l o = None end.
  Proof.
    intros Kn [Pl HS]. destruct l as [P s]. cbn [l_params l_led] in *. subst P. pose proof (m_inp _ _ HS) as Ip.
    destruct o as [p|p v|p|f|f|y|e|]; cbn [book_op do l_params l_led knows] in *.
    - pose proof (do_any p s b Kn HS) as D. destruct (shows b p) as [v|] eqn:Sh; [|rewrite D; reflexivity]. destruct D as (s' & D1 & D2). rewrite D1. eexists. split; [reflexivity|].
      split; cbn [with_led l_params l_led]; [|exact D2]. pose proof (read_same p b Kn ltac:(congruence)) as (_ & E & _). exact E.
    - eexists. split; [reflexivity|]. unfold setter, LedgerModel.has_input. cbn [LedgerModel.inputs LedgerModel.fset person_class]. rewrite (m_year _ _ HS), Ip.
      destruct (inp p (k_year b)); split; cbn [with_led l_params l_led]; auto. rewrite <- (m_year _ _ HS). now apply sim_keep.
    - eexists. split; [reflexivity|]. unfold deleter, LedgerModel.has_input. cbn [LedgerModel.inputs LedgerModel.fdel person_class]. rewrite (m_year _ _ HS), Ip.
      destruct (inp p (k_year b)); split; cbn [with_led l_params l_led]; auto. rewrite <- (m_year _ _ HS). now apply sim_keep.
    - eexists. split; [reflexivity|]. unfold params_of. rewrite Ip. split; [reflexivity|]. now apply sim_params.
    - eexists. split; [reflexivity|]. unfold params_of. rewrite Ip. split; [reflexivity|]. now apply sim_params.
    - eexists. split; [reflexivity|]. unfold params_of. rewrite Ip. split; [reflexivity|]. now apply sim_params.
    - eexists. split; [reflexivity|]. split; [reflexivity|]. cbn [with_led l_led]. destruct HS as [I Y E S0 L N]. constructor; cbn; auto.
    - unfold LedgerModel.next_year. cbn [LedgerModel.props person_class]. destruct (record_all order s b (fun p => proj1 (Hord p)) HS) as [A B].
      assert (F : forall p, (p < 7)%nat -> shows b p = None -> match record (C (k_params b)) depth order s with None => None | Some s' => Some (with_led {| l_params := k_params b; l_led := s |} {| year := (year s' + 1)%Z; hist := hist s'; LedgerModel.env := LedgerModel.env s' |}) end = None).
      { intros p Hp H. rewrite (B p (proj2 (Hord p) Hp) H). reflexivity. }
      assert (F' : forall p, (p < 7)%nat -> shows b p = None -> match match record (C (k_params b)) depth order s with None => None | Some s' => Some {| year := (year s' + 1)%Z; hist := hist s'; LedgerModel.env := LedgerModel.env s' |} end with Some s' => Some (with_led {| l_params := k_params b; l_led := s |} s') | None => None end = None).
      { intros p Hp H. rewrite (B p (proj2 (Hord p) Hp) H). reflexivity. }
      destruct (gross_now b) as [g|] eqn:E0; [|apply (F' 0%nat); [lia|exact E0]]. destruct (net_now b) as [n|] eqn:E1; [|apply (F' 1%nat); [lia|exact E1]].
      destruct (raise_now b) as [r|] eqn:E2; [|apply (F' 2%nat); [lia|exact E2]]. destruct (withheld_now b) as [t|] eqn:E3; [|apply (F' 3%nat); [lia|exact E3]].
      destruct (taxable_now b) as [x|] eqn:E6; [|apply (F' 6%nat); [lia|exact E6]]. clear F F'.
      destruct A as (s' & b' & A1 & A2 & A3 & A4 & A5).
      { intros p Hp. apply Hord in Hp. destruct p as [|[|[|[|[|[|[|p]]]]]]]; cbn [shows]; try congruence. lia. }
      rewrite A1. eexists. split; [reflexivity|]. split; [reflexivity|]. cbn [with_led l_led]. destruct A3 as (B1 & B2 & B3 & B4 & B5).
      constructor; cbn [k_params k_year k_accts k_set k_last year LedgerModel.env hist].
      + exact Ip.
      + rewrite (m_year _ _ A2), <- B1. reflexivity.
      + rewrite (m_env _ _ A2). now symmetry.
      + intros p. rewrite (m_next _ _ A2) by lia. rewrite (m_year _ _ A2), <- B1. reflexivity.
      + replace (year s' + 1 - 1)%Z with (year s') by lia. rewrite (m_set _ _ A2 GROSS), (A5 GROSS); [exact E0|]. apply Hord. unfold GROSS. lia.
      + intros p y Hy. apply (m_next _ _ A2). lia.
  Qed.
  Lemma rel_ops : forall os l b, Forall knows os -> Rel l b ->
    match book_ops b os with Some b' => exists l', do_all order l os = Some l' /\ Rel l' b' | None => do_all order l os = None end.
  Proof.
    induction os as [|o os IH]; intros l b Kn R0; cbn [book_ops do_all]; [exists l; auto|]. inversion Kn; subst. pose proof (rel_op l b o H1 R0) as D.
    destruct (book_op b o) as [b'|]; [|rewrite D; reflexivity]. destruct D as (l' & D1 & D2). rewrite D1. now apply IH.
  Qed.
  Lemma rel_new retire raise tax y gross e :
    match new_book retire raise tax y gross e with
    | Some b => exists l, new_person (params_of retire raise tax) order y gross e = Some l /\ Rel l b
    | None => new_person (params_of retire raise tax) order y gross e = None
    end.
  Proof.
    unfold new_book, new_person, person_init. set (P := params_of retire raise tax). set (b0 := {| k_year := y; k_params := P; k_accts := e; k_last := inp GROSS (y - 1)%Z; k_set := fun p => inp p y |}).
    assert (S0 : Sim (LedgerModel.init (C P) y e) b0) by (constructor; cbn; auto).
    pose proof (rel_op {| l_params := P; l_led := LedgerModel.init (C P) y e |} b0 (Assign GROSS gross) ltac:(cbn; unfold GROSS; lia) (conj eq_refl S0)) as D. cbn [book_op do l_params l_led with_led k_year k_params b0] in *.
    destruct D as (l1 & D1 & D2). injection D1 as <-. destruct D2 as [_ D2]. cbn [l_led] in D2.
    set (b1 := match inp GROSS y with Some _ => b0 | None => keep b0 GROSS (Some gross) end) in *. set (s1 := setter (C P) (LedgerModel.init (C P) y e) GROSS gross) in *.
    assert (Pb : k_params b1 = P) by (unfold b1; destruct (inp GROSS y); reflexivity).
    assert (Yb : k_year b1 = y) by (unfold b1; destruct (inp GROSS y); reflexivity).
    pose proof (do_any GROSS s1 b1 ltac:(unfold GROSS; lia) D2) as G. rewrite Pb in G. cbn [shows GROSS] in G. change 0%nat with GROSS in G. change (getp (C P) 5 s1 GROSS) with (getp (C P) depth s1 GROSS).
    destruct (gross_now b1) as [g|] eqn:Eg; [|rewrite G; reflexivity]. destruct G as (s2 & G1 & G2). rewrite G1.
    assert (K0 : exists x, k_set b1 GROSS = Some x) by (unfold b1; destruct (inp GROSS y) eqn:I0; [exists q; exact I0|exists gross; cbn; reflexivity]). destruct K0 as [x K0].
    assert (Eb : read_book GROSS b1 = b1) by (unfold read_book; rewrite K0; reflexivity). rewrite Eb in G2.
    pose proof (do_any WITHHELD s2 b1 ltac:(unfold WITHHELD; lia) G2) as W. rewrite Pb in W. cbn [shows WITHHELD] in W. change 3%nat with WITHHELD in W. change (getp (C P) 5 s2 WITHHELD) with (getp (C P) depth s2 WITHHELD).
    destruct (withheld_now b1) as [t|] eqn:Et; [|rewrite W; reflexivity]. destruct W as (s3 & W1 & W2). rewrite W1.
    assert (Ew : read_book WITHHELD b1 = b1).
    { unfold read_book, read_withheld, read_gross. destruct (k_set b1 WITHHELD) eqn:K3; [reflexivity|]. unfold WITHHELD in K3 |- *. cbn [read_book]. rewrite K0. destruct (pp_tax (k_params b1)); reflexivity. }
    rewrite Ew in W2.
    pose proof (rel_op {| l_params := P; l_led := s3 |} b1 (Assign NET (g - t)) ltac:(cbn; unfold NET; lia) (conj (eq_sym Pb) W2)) as F. cbn [book_op do l_params l_led with_led] in F |- *.
    destruct F as (l4 & F1 & F2). injection F1 as <-. eexists. split; [reflexivity|exact F2].
  Qed.
End Books.

(** ** The theorems *)
(** an iteration order of the set of all recorded properties of a person *)
Definition whole (order : list nat) : Prop := forall p, In p order <-> (p < 7)%nat.
(** what the user sees when reading property [p] now *)
Definition figure (order : list nat) (l : living) (p : nat) : option Q := option_map fst (getp (person_class (l_params l) order) depth (l_led l) p).

(** The person shows exactly what the books say, and raises exactly when the books have no answer. *)
Theorem C111_books : forall inp order retire raise tax y gross e os, whole order -> Forall knows os ->
  let made := new_person (params_of inp retire raise tax) order y gross e in
  match new_book inp retire raise tax y gross e with
  | None => made = None
  | Some b0 => exists l0, made = Some l0 /\
      match book_ops inp b0 os with
      | Some b => exists l, do_all order l0 os = Some l /\ forall p, (p < 7)%nat -> figure order l p = shows b p
      | None => do_all order l0 os = None
      end
  end.
Proof.
  intros inp order retire raise tax y gross e os Ho Kn made. pose proof (rel_new inp order Ho retire raise tax y gross e) as R0.
  destruct (new_book inp retire raise tax y gross e) as [b0|]; [|exact R0]. destruct R0 as (l0 & R1 & R2). exists l0. split; [exact R1|].
  pose proof (rel_ops inp order Ho os l0 b0 Kn R2) as S1. destruct (book_ops inp b0 os) as [b|]; [|exact S1]. destruct S1 as (l & S1 & S2 & S3). exists l. split; [exact S1|].
  intros p Hp. unfold figure. rewrite S2. pose proof (do_any inp order p (l_led l) b Hp S3) as D. destruct (shows b p) as [v|]; [|rewrite D; reflexivity]. destruct D as (s' & D1 & _). rewrite D1. reflexivity.
Qed.
Print Assumptions C111_books.

(** the order in which the recorded properties are visited does not matter *)
Theorem C111_order_irrelevant : forall inp order order' retire raise tax y gross e os l, whole order -> whole order' -> Forall knows os ->
  (exists l0, new_person (params_of inp retire raise tax) order y gross e = Some l0 /\ do_all order l0 os = Some l) ->
  exists l0' l', new_person (params_of inp retire raise tax) order' y gross e = Some l0' /\ do_all order' l0' os = Some l' /\
    forall p, (p < 7)%nat -> figure order' l' p = figure order l p.
Proof.
  intros inp order order' retire raise tax y gross e os l Ho Ho' Kn (l0 & N0 & D0).
  pose proof (C111_books inp order retire raise tax y gross e os Ho Kn) as A. pose proof (C111_books inp order' retire raise tax y gross e os Ho' Kn) as B. cbn zeta in A, B.
  destruct (new_book inp retire raise tax y gross e) as [b0|]; [|congruence]. destruct A as (a0 & A1 & A2), B as (l0' & B1 & B2). assert (a0 = l0) by congruence. subst a0.
  destruct (book_ops inp b0 os) as [b|]; [|congruence]. destruct A2 as (la & A2 & A3), B2 as (l' & B2 & B3). assert (la = l) by congruence. subst la.
  exists l0', l'. split; [exact B1|]. split; [exact B2|]. intros p Hp. now rewrite (A3 p Hp), (B3 p Hp).
Qed.
Print Assumptions C111_order_irrelevant.

(** changes are made only while nothing has been read in the year ([fresh]: nothing has) *)
Fixpoint orderly (fresh : bool) (os : list lop) : bool :=
  match os with
  | [] => true
  | Read _ :: r => orderly false r
  | Advance :: r => orderly true r
  | _ :: r => fresh && orderly true r
  end.
Definition silent (o : lop) : bool := match o with Read _ => false | _ => true end.
Definition is_advance (o : lop) : bool := match o with Advance => true | _ => false end.
Definition is_set_raise (o : lop) : bool := match o with SetRaise _ => true | _ => false end.
Definition assigns (p : nat) (o : lop) : bool := match o with Assign q _ => Nat.eqb q p | _ => false end.
Definition deletes (p : nat) (o : lop) : bool := match o with Delete q => Nat.eqb q p | _ => false end.

Lemma shows_ext b c : k_year b = k_year c -> k_params b = k_params c -> k_accts b = k_accts c -> k_last b = k_last c -> (forall p, k_set b p = k_set c p) -> same b c.
Proof.
  intros Y P A L K. repeat split; auto. intros p. unfold shows, gross_now, net_now, raise_now, withheld_now, taxable_now, gross_now, withheld_now, gross_now, raise_now, retired. rewrite !K, Y, P, A, L. reflexivity.
Qed.
Definition changes (o : lop) : bool := match o with Read _ | Advance => false | _ => true end.
(** a change made to two books that agree in everything *)
Lemma change_ext inp b c o : changes o = true -> same b c -> (forall p, k_set b p = k_set c p) ->
  exists b' c', book_op inp b o = Some b' /\ book_op inp c o = Some c' /\ same b' c' /\ (forall p, k_set b' p = k_set c' p).
Proof.
  intros H Sm K. assert (F := Sm). destruct F as (Y & P & A & L & _). destruct o as [p|p v|p|f|f|y|e|]; try discriminate H; cbn [book_op]; eexists _, _; (split; [reflexivity|split; [reflexivity|]]).
  - rewrite <- Y. destruct (inp p (k_year b)); [split; assumption|]. assert (K' : forall q, k_set (keep b p (Some v)) q = k_set (keep c p (Some v)) q) by (intros q; cbn; now rewrite K). split; [apply shows_ext; auto|exact K'].
  - rewrite <- Y. destruct (inp p (k_year b)); [split; assumption|]. assert (K' : forall q, k_set (keep b p None) q = k_set (keep c p None) q) by (intros q; cbn; now rewrite K). split; [apply shows_ext; auto|exact K'].
  - rewrite <- P. split; [apply shows_ext; auto|exact K].
  - rewrite <- P. split; [apply shows_ext; auto|exact K].
  - rewrite <- P. split; [apply shows_ext; auto|exact K].
  - split; [apply shows_ext; auto|exact K].
Qed.
Lemma advance_same inp b c b' : same b c -> book_op inp b Advance = Some b' -> exists c', book_op inp c Advance = Some c' /\ same b' c' /\ (forall p, k_set b' p = k_set c' p).
Proof.
  intros (Y & P & A & L & Sh) H. cbn [book_op] in *. pose proof (Sh GROSS) as S0. pose proof (Sh NET) as S1. pose proof (Sh RAISE) as S2. pose proof (Sh WITHHELD) as S3. pose proof (Sh TAXABLE) as S6.
  cbn [shows GROSS NET RAISE WITHHELD TAXABLE] in *. rewrite <- S0, <- S1, <- S2, <- S3, <- S6. destruct (gross_now b) as [g|]; [|discriminate]. destruct (net_now b); [|discriminate].
  destruct (raise_now b); [|discriminate]. destruct (withheld_now b); [|discriminate]. destruct (taxable_now b); [|discriminate]. injection H as <-. rewrite <- Y, <- P, <- A.
  eexists. split; [reflexivity|]. split; [apply same_refl|reflexivity].
Qed.
Lemma reads_dropped inp : forall os f b c b', Forall knows os -> orderly f os = true -> same b c -> (f = true -> forall p, k_set b p = k_set c p) -> book_ops inp b os = Some b' ->
  exists c', book_ops inp c (filter silent os) = Some c' /\ same b' c'.
Proof.
  induction os as [|o os IH]; intros f b c b' Kn O Sm K H; cbn [book_ops] in H; [injection H as <-; exists c; auto|]. inversion Kn; subst.
  destruct (book_op inp b o) as [b1|] eqn:E; [|discriminate]. destruct (changes o) eqn:Ch.
  - assert (O' : f = true /\ orderly true os = true) by (destruct o; try discriminate Ch; cbn in O; apply andb_prop in O; exact O). destruct O' as [-> O'].
    destruct (change_ext inp b c o Ch Sm (K eq_refl)) as (b2 & c2 & A1 & A2 & A3 & A4). assert (b2 = b1) by congruence. subst b2.
    destruct (IH true b1 c2 b' H3 O' A3 (fun _ => A4) H) as (c' & B1 & B2). exists c'. split; [|exact B2]. cbn [filter]. destruct o; try discriminate Ch; cbn [silent book_ops]; rewrite A2; exact B1.
  - destruct o; try discriminate Ch; cbn [filter silent orderly] in *.
    + cbn [book_op] in E. destruct (shows b p) as [v|] eqn:Sh; [|discriminate]. injection E as <-. refine (IH false _ c b' H3 O _ ltac:(discriminate) H).
      apply (same_trans _ b); [apply same_sym; apply read_same; [exact H2|congruence]|exact Sm].
    + destruct (advance_same inp b c b1 Sm E) as (c1 & A1 & A2 & A3). destruct (IH true b1 c1 b' H3 O A2 (fun _ => A3) H) as (c' & B1 & B2). exists c'. split; [|exact B2]. cbn [book_ops]. rewrite A1. exact B1.
Qed.
Lemma knows_filter os : Forall knows os -> Forall knows (filter silent os).
Proof. intros H. apply Forall_forall. intros o Ho. apply filter_In in Ho. rewrite Forall_forall in H. now apply H. Qed.
(** Reading is harmless as long as changes are made only while nothing has been read in the year: without
    the reads, the same figures are shown at the end. *)
Theorem C111_reads_harmless_partial : forall inp order retire raise tax y gross e os l0 l, whole order -> Forall knows os -> orderly true os = true ->
  new_person (params_of inp retire raise tax) order y gross e = Some l0 -> do_all order l0 os = Some l ->
  exists l', do_all order l0 (filter silent os) = Some l' /\ forall p, (p < 7)%nat -> figure order l' p = figure order l p.
Proof.
  intros inp order retire raise tax y gross e os l0 l Ho Kn O N D.
  pose proof (C111_books inp order retire raise tax y gross e os Ho Kn) as A. pose proof (C111_books inp order retire raise tax y gross e _ Ho (knows_filter os Kn)) as B. cbn zeta in A, B.
  destruct (new_book inp retire raise tax y gross e) as [b0|]; [|congruence]. destruct A as (a0 & A1 & A2), B as (a1 & B1 & B2). assert (a0 = l0) by congruence. assert (a1 = l0) by congruence. subst a0 a1.
  destruct (book_ops inp b0 os) as [b|] eqn:E; [|congruence]. destruct A2 as (la & A2 & A3). assert (la = l) by congruence. subst la.
  destruct (reads_dropped inp os true b0 b0 b Kn O (same_refl b0) (fun _ _ => eq_refl) E) as (c & C1 & C2). rewrite C1 in B2. destruct B2 as (l' & B2 & B3). exists l'. split; [exact B2|].
  intros p Hp. rewrite (A3 p Hp), (B3 p Hp). symmetry. apply C2.
Qed.
Print Assumptions C111_reads_harmless_partial.

(** *** Net income *)
Definition net_ok (b : book) : Prop := forall n, k_set b NET = Some n -> exists g t, gross_now b = Some g /\ withheld_now b = Some t /\ n = g - t.
Lemma net_read p b : (p < 7)%nat -> shows b p <> None -> net_ok b -> net_ok (read_book p b).
Proof.
  intros Hp Sh J n Hn. pose proof (read_same p b Hp Sh) as (_ & _ & _ & _ & Sm). pose proof (Sm GROSS) as S0. pose proof (Sm WITHHELD) as S3. pose proof (Sm NET) as S1. cbn [shows GROSS NET WITHHELD] in S0, S1, S3. rewrite <- S0, <- S3.
  destruct (k_set b NET) as [m|] eqn:K; [apply J; rewrite <- (mono_read p b NET m K), Hn in K; congruence|].
  assert (E : net_now (read_book p b) = Some n) by (unfold net_now; rewrite Hn; reflexivity). rewrite <- S1 in E. unfold net_now in E. rewrite K in E.
  destruct (gross_now b) as [g|]; [|discriminate]. destruct (withheld_now b) as [t|]; [|discriminate]. exists g, t. split; [reflexivity|split; [reflexivity|congruence]].
Qed.
Lemma net_kept inp : (forall y, inp NET y = None) -> forall os f b b', Forall knows os -> orderly f os = true -> forallb (fun o => negb (assigns NET o)) os = true ->
  net_ok b -> (f = true -> k_set b NET = None) -> book_ops inp b os = Some b' -> net_ok b'.
Proof.
  intros In. induction os as [|o os IH]; intros f b b' Kn O As J Kf H; cbn [book_ops] in H; [injection H as <-; exact J|]. inversion Kn; subst.
  cbn [forallb] in As. apply andb_prop in As. destruct As as [As1 As2]. destruct (book_op inp b o) as [b1|] eqn:E; [|discriminate]. destruct (changes o) eqn:Ch.
  - assert (O' : f = true /\ orderly true os = true) by (destruct o; try discriminate Ch; cbn in O; apply andb_prop in O; exact O). destruct O' as [-> O']. specialize (Kf eq_refl).
    assert (K1 : k_set b1 NET = None).
    { destruct o as [p|p v|p|g|g|y|e|]; try discriminate Ch; cbn [book_op] in E; injection E as <-; try exact Kf; destruct (inp p (k_year b)); try exact Kf; cbn [keep k_set]; destruct (Nat.eqb_spec NET p) as [<-|]; auto; discriminate As1. }
    refine (IH true b1 b' H3 O' As2 _ (fun _ => K1) H). intros n Hn. congruence.
  - destruct o; try discriminate Ch; cbn [orderly] in O.
    + cbn [book_op] in E. destruct (shows b p) as [v|] eqn:Sh; [|discriminate]. injection E as <-. refine (IH false _ b' H3 O As2 _ ltac:(discriminate) H). apply net_read; auto. congruence.
    + assert (K1 : k_set b1 NET = None).
      { cbn [book_op] in E. destruct (gross_now b); [|discriminate]. destruct (net_now b); [|discriminate]. destruct (raise_now b); [|discriminate]. destruct (withheld_now b); [|discriminate]. destruct (taxable_now b); [|discriminate]. injection E as <-. cbn. apply In. }
      refine (IH true b1 b' H3 O As2 _ (fun _ => K1) H). intros n Hn. congruence.
Qed.
(** Net income is gross income less tax withheld, if changes are made only in later years than the first and before
    anything is read in the year, and net income itself is not given. *)
Theorem C111_net_partial : forall inp order retire raise tax y gross e os l0 l n, whole order -> Forall knows os -> (forall y, inp NET y = None) ->
  orderly false os = true -> forallb (fun o => negb (assigns NET o)) os = true ->
  new_person (params_of inp retire raise tax) order y gross e = Some l0 -> do_all order l0 os = Some l ->
  figure order l NET = Some n -> exists g t, figure order l GROSS = Some g /\ figure order l WITHHELD = Some t /\ n = g - t.
Proof.
  intros inp order retire raise tax y gross e os l0 l n Ho Kn In O As N D Fn.
  pose proof (C111_books inp order retire raise tax y gross e os Ho Kn) as A. cbn zeta in A.
  destruct (new_book inp retire raise tax y gross e) as [b0|] eqn:Eb; [|congruence]. destruct A as (a0 & A1 & A2). assert (a0 = l0) by congruence. subst a0.
  destruct (book_ops inp b0 os) as [b|] eqn:E; [|congruence]. destruct A2 as (la & A2 & A3). assert (la = l) by congruence. subst la.
  rewrite (A3 GROSS), (A3 WITHHELD) by (unfold GROSS, WITHHELD; lia). rewrite (A3 NET) in Fn by (unfold NET; lia). cbn [shows GROSS NET WITHHELD] in *.
  assert (J : net_ok b).
  { refine (net_kept inp In os false b0 b Kn O As _ ltac:(discriminate) E). unfold new_book in Eb. cbn [book_op k_year] in Eb.
    set (b1 := match inp GROSS y with Some _ => _ | None => _ end) in Eb. destruct (gross_now b1) as [g|] eqn:G; [|discriminate]. destruct (withheld_now b1) as [t|] eqn:W; [|discriminate].
    rewrite In in Eb. injection Eb as <-. intros m Hm. cbn in Hm. injection Hm as <-. exists g, t. 
    split; [rewrite <- G; unfold gross_now, retired, raise_now; cbn; reflexivity|]. split; [|reflexivity]. rewrite <- W. unfold withheld_now, gross_now, retired, raise_now. cbn. reflexivity. }
  unfold net_now in Fn. destruct (k_set b NET) as [m|] eqn:K; [injection Fn as ->; now apply J|].
  destruct (gross_now b) as [g|]; [|discriminate]. destruct (withheld_now b) as [t|]; [|discriminate]. exists g, t. split; [reflexivity|split; [reflexivity|congruence]].
Qed.
Print Assumptions C111_net_partial.
(** In the year a person is made, net income is worked out at once: whatever gross income is assigned afterwards, net
    income stays what it was, while the tax withheld follows the new gross income. *)
Theorem C111_first_year_net_refuted : forall order retire raise tax y gross e g', whole order ->
  exists l0 l, new_person (params_of (fun _ _ => None) retire raise (Some tax)) order y gross e = Some l0 /\ do_all order l0 [Assign GROSS g'] = Some l /\
    figure order l GROSS = Some g' /\ figure order l WITHHELD = Some (tax g' y) /\ figure order l NET = Some (gross - tax gross y).
Proof.
  intros order retire raise tax y gross e g' Ho.
  pose proof (C111_books (fun _ _ => None) order retire raise (Some tax) y gross e [Assign GROSS g'] Ho ltac:(repeat constructor)) as A. cbn in A.
  destruct A as (l0 & A1 & l & A2 & A3). exists l0, l. split; [exact A1|]. split; [exact A2|]. rewrite (A3 GROSS), (A3 WITHHELD), (A3 NET) by (unfold GROSS, NET, WITHHELD; lia). repeat split.
Qed.
Print Assumptions C111_first_year_net_refuted.

(** *** Raises *)
Definition raise_from (inp : nat -> Z -> option Q) (f : Z -> option Q) (b : book) : Prop :=
  pp_raise (k_params b) = f /\ (k_set b RAISE = None \/ k_set b RAISE = (match inp RAISE (k_year b) with Some r => Some r | None => f (k_year b) end)) /\ (inp RAISE (k_year b) <> None -> k_set b RAISE = inp RAISE (k_year b)).
Lemma raise_shown inp f b : raise_from inp f b -> raise_now b = match inp RAISE (k_year b) with Some r => Some r | None => f (k_year b) end.
Proof.
  intros (P & K & I0). unfold raise_now. destruct (inp RAISE (k_year b)) as [r|] eqn:E; [rewrite I0 by discriminate; reflexivity|].
  destruct K as [K|K]; rewrite K, P; [reflexivity|]. destruct (f (k_year b)); reflexivity.
Qed.
Lemma keep_other b p v q : q <> p -> k_set (keep b p v) q = k_set b q.
Proof. intros N. cbn. now rewrite (proj2 (Nat.eqb_neq q p) N). Qed.
Lemma read_raise_set b : k_set (read_raise b) RAISE = k_set b RAISE \/ k_set (read_raise b) RAISE = raise_now b.
Proof. unfold read_raise. destruct (k_set b RAISE) eqn:K; [left; exact K|right]. reflexivity. Qed.
Lemma read_gross_set b : k_set (read_gross b) RAISE = k_set b RAISE \/ k_set (read_gross b) RAISE = raise_now b.
Proof.
  unfold read_gross. destruct (k_set b GROSS); [now left|]. rewrite keep_other by discriminate. destruct (retired b); [now left|apply read_raise_set].
Qed.
Lemma read_withheld_set b : k_set (read_withheld b) RAISE = k_set b RAISE \/ k_set (read_withheld b) RAISE = raise_now b.
Proof. unfold read_withheld. destruct (k_set b WITHHELD); [now left|]. destruct (pp_tax (k_params b)); [apply read_gross_set|now left]. Qed.
Lemma read_set p b : (p < 7)%nat -> shows b p <> None -> k_set (read_book p b) RAISE = k_set b RAISE \/ k_set (read_book p b) RAISE = raise_now b.
Proof.
  intros Hp Sh. unfold read_book. destruct (k_set b p) eqn:K; [now left|]. destruct p as [|[|[|[|[|[|[|p]]]]]]]; [..|lia].
  - apply read_gross_set.
  - rewrite keep_other by discriminate. assert (G : gross_now b <> None) by (cbn [shows] in Sh; unfold net_now in Sh; unfold NET in Sh; rewrite K in Sh; destruct (gross_now b); congruence).
    destruct (read_gross_same b G) as (_ & _ & _ & _ & Sm). specialize (Sm RAISE). cbn [shows RAISE] in Sm.
    destruct (read_withheld_set (read_gross b)) as [H|H]; rewrite H; [apply read_gross_set|right; now symmetry].
  - apply read_raise_set.
  - apply read_withheld_set.
  - left. apply keep_other. discriminate.
  - left. apply keep_other. discriminate.
  - apply read_gross_set.
Qed.
Lemma raise_kept inp f : forall os b b', Forall knows os -> existsb is_set_raise os = false -> existsb (assigns RAISE) os = false -> raise_from inp f b -> book_ops inp b os = Some b' -> raise_from inp f b'.
Proof.
  induction os as [|o os IH]; intros b b' Kn N1 N2 J H; cbn [book_ops] in H; [injection H as <-; exact J|]. inversion Kn; subst. cbn [existsb] in N1, N2. apply orb_false_elim in N1, N2. destruct N1 as [N1 N1'], N2 as [N2 N2'].
  destruct (book_op inp b o) as [b1|] eqn:E; [|discriminate]. refine (IH b1 b' H3 N1' N2' _ H). clear IH H. pose proof (raise_shown inp f b J) as Rs. destruct J as (P & K & I0).
  destruct o as [p|p v|p|g|g|y|e|]; try discriminate N1; cbn [book_op] in E.
  - destruct (shows b p) as [v|] eqn:Sh; [|discriminate]. injection E as <-. pose proof (read_same p b H2 ltac:(congruence)) as (Y & P' & _). unfold raise_from. rewrite <- Y, <- P'. split; [exact P|].
    split; [|intros I1; specialize (I0 I1); destruct (inp RAISE (k_year b)) as [r|]; [|congruence]; now apply mono_read].
    destruct (read_set p b H2 ltac:(congruence)) as [H|H]; rewrite H; [exact K|right; exact Rs].
  - injection E as <-. destruct (inp p (k_year b)) eqn:Ip; [repeat split; auto|]. cbn in N2. apply Nat.eqb_neq in N2. unfold raise_from. rewrite (keep_other b p (Some v) RAISE) by congruence. cbn [keep k_params k_year]. auto.
  - injection E as <-. destruct (inp p (k_year b)) eqn:Ip; [repeat split; auto|]. unfold raise_from. cbn [keep k_params k_year]. split; [exact P|]. destruct (Nat.eqb_spec RAISE p) as [<-|Np].
    + split; [left; cbn; reflexivity|congruence].
    + rewrite keep_other by exact Np. auto.
  - injection E as <-. repeat split; auto.
  - injection E as <-. repeat split; auto.
  - injection E as <-. repeat split; auto.
  - destruct (gross_now b); [|discriminate]. destruct (net_now b); [|discriminate]. destruct (raise_now b); [|discriminate]. destruct (withheld_now b); [|discriminate]. destruct (taxable_now b); [|discriminate]. injection E as <-.
    unfold raise_from. cbn [k_params k_year k_set]. split; [exact P|]. split; [|auto]. destruct (inp RAISE (k_year b + 1)%Z); auto.
Qed.
Lemma raise_fresh inp : forall os b b', Forall knows os -> forallb silent os = true -> existsb (assigns RAISE) os = false ->
  (k_set b RAISE = None \/ k_set b RAISE = inp RAISE (k_year b)) /\ (inp RAISE (k_year b) <> None -> k_set b RAISE = inp RAISE (k_year b)) -> book_ops inp b os = Some b' ->
  (k_set b' RAISE = None \/ k_set b' RAISE = inp RAISE (k_year b')) /\ (inp RAISE (k_year b') <> None -> k_set b' RAISE = inp RAISE (k_year b')).
Proof.
  induction os as [|o os IH]; intros b b' Kn S1 N2 J H; cbn [book_ops] in H; [injection H as <-; exact J|]. inversion Kn; subst. cbn [existsb forallb] in S1, N2. apply orb_false_elim in N2. apply andb_prop in S1. destruct S1 as [S1 S1'], N2 as [N2 N2'].
  destruct (book_op inp b o) as [b1|] eqn:E; [|discriminate]. refine (IH b1 b' H3 S1' N2' _ H). clear IH H. destruct J as (K & I0).
  destruct o as [p|p v|p|g|g|y|e|]; try discriminate S1; cbn [book_op] in E; try (injection E as <-; split; assumption).
  - injection E as <-. destruct (inp p (k_year b)) eqn:Ip; [split; assumption|]. cbn in N2. apply Nat.eqb_neq in N2. rewrite keep_other by congruence. split; assumption.
  - injection E as <-. destruct (inp p (k_year b)) eqn:Ip; [split; assumption|]. destruct (Nat.eqb_spec RAISE p) as [<-|Np]; [split; [left; reflexivity|cbn; congruence]|]. rewrite keep_other by exact Np. split; assumption.
  - destruct (gross_now b); [|discriminate]. destruct (net_now b); [|discriminate]. destruct (raise_now b); [|discriminate]. destruct (withheld_now b); [|discriminate]. destruct (taxable_now b); [|discriminate]. injection E as <-. split; [now right|reflexivity].
Qed.
Lemma book_ops_app inp os os' b : book_ops inp b (os ++ os') = match book_ops inp b os with Some c => book_ops inp c os' | None => None end.
Proof. revert b. induction os as [|o os IH]; intros b; cbn [app book_ops]; [reflexivity|]. destruct (book_op inp b o); [apply IH|reflexivity]. Qed.
(** after an Advance, every change of years resets what is settled; [later] contains one *)
Lemma raise_after_advance inp f : forall os b b', Forall knows os -> existsb is_set_raise os = false -> existsb (assigns RAISE) os = false -> existsb is_advance os = true -> pp_raise (k_params b) = f -> book_ops inp b os = Some b' -> raise_from inp f b'.
Proof.
  induction os as [|o os IH]; intros b b' Kn N1 N2 Ad P H; [discriminate|]. inversion Kn; subst. cbn [existsb] in N1, N2, Ad. apply orb_false_elim in N1, N2. destruct N1 as [N1 N1'], N2 as [N2 N2']. cbn [book_ops] in H.
  destruct (book_op inp b o) as [b1|] eqn:E; [|discriminate]. destruct (is_advance o) eqn:Ia.
  - destruct o; try discriminate Ia. cbn [book_op] in E. refine (raise_kept inp _ os b1 b' H3 N1' N2' _ H).
    destruct (gross_now b); [|discriminate]. destruct (net_now b); [|discriminate]. destruct (raise_now b); [|discriminate]. destruct (withheld_now b); [|discriminate]. destruct (taxable_now b); [|discriminate]. injection E as <-.
    unfold raise_from. cbn [k_params k_year k_set]. split; [reflexivity|]. split; [|auto]. destruct (inp RAISE (k_year b + 1)%Z); auto.
  - cbn [orb] in Ad. refine (IH b1 b' H3 N1' N2' Ad _ H). destruct o as [p|p v|p|g|g|y|e|]; try discriminate N1; try discriminate Ia; cbn [book_op] in E; try (injection E as <-; reflexivity).
    + destruct (shows b p) as [v|] eqn:Sh; [|discriminate]. injection E as <-. pose proof (read_same p b H2 ltac:(congruence)) as (_ & P' & _). now rewrite <- P'.
    + injection E as <-. destruct (inp p (k_year b)); reflexivity.
    + injection E as <-. destruct (inp p (k_year b)); reflexivity.
Qed.
(** A newly assigned raise rate applies from then on, if nothing has been read yet in the year it is assigned (or a
    new year has begun since) and the raise itself is not assigned; inputs win. *)
Theorem C111_raise_assigned_partial : forall inp order retire raise tax y gross e before quiet f later l0 l,
  let os := before ++ Advance :: quiet ++ SetRaise f :: later in
  whole order -> Forall knows os -> existsb is_set_raise later = false -> existsb (assigns RAISE) (quiet ++ later) = false ->
  forallb silent quiet = true \/ existsb is_advance later = true ->
  new_person (params_of inp retire raise tax) order y gross e = Some l0 -> do_all order l0 os = Some l ->
  figure order l RAISE = match inp RAISE (year (l_led l)) with Some r => Some r | None => f (year (l_led l)) end.
Proof.
  intros inp order retire raise tax y gross e before quiet f later l0 l os Ho Kn Nr Na Q N D.
  pose proof (rel_new inp order Ho retire raise tax y gross e) as A. rewrite N in A. destruct (new_book inp retire raise tax y gross e) as [b0|]; [|discriminate]. destruct A as (a0 & A1 & A2). injection A1 as <-.
  pose proof (rel_ops inp order Ho os l0 b0 Kn A2) as B. destruct (book_ops inp b0 os) as [b|] eqn:E; [|congruence]. destruct B as (la & B1 & B2 & B3). assert (la = l) by congruence. subst la.
  assert (F : figure order l RAISE = raise_now b).
  { unfold figure. rewrite B2. pose proof (do_any inp order RAISE (l_led l) b ltac:(unfold RAISE; lia) B3) as H. cbn [shows RAISE] in H. change 2%nat with RAISE in H. destruct (raise_now b) as [v|]; [|rewrite H; reflexivity]. destruct H as (s' & H & _). rewrite H. reflexivity. }
  rewrite F, (m_year _ _ _ B3). apply raise_shown. clear F A2 B1 B2 B3 N D. unfold os in E, Kn. apply Forall_app in Kn. destruct Kn as [_ Kn]. inversion Kn as [|? ? _ Kn']; subst. apply Forall_app in Kn'. destruct Kn' as [Kq Kl]. inversion Kl; subst.
  rewrite existsb_app in Na. apply orb_false_elim in Na. destruct Na as [Na1 Na2].
  rewrite book_ops_app in E. destruct (book_ops inp b0 before) as [b1|]; [|discriminate]. cbn [book_ops] in E. destruct (book_op inp b1 Advance) as [b2|] eqn:E2; [|discriminate].
  rewrite book_ops_app in E. destruct (book_ops inp b2 quiet) as [b3|] eqn:E3; [|discriminate]. cbn [book_ops] in E. destruct (book_op inp b3 (SetRaise f)) as [b4|] eqn:E4; [|discriminate].
  assert (P4 : pp_raise (k_params b4) = f) by (cbn in E4; injection E4 as <-; reflexivity).
  destruct Q as [Q|Q]; [|exact (raise_after_advance inp f later b4 b H2 Nr Na2 Q P4 E)].
  refine (raise_kept inp f later b4 b H2 Nr Na2 _ E). assert (J : (k_set b3 RAISE = None \/ k_set b3 RAISE = inp RAISE (k_year b3)) /\ (inp RAISE (k_year b3) <> None -> k_set b3 RAISE = inp RAISE (k_year b3))).
  { refine (raise_fresh inp quiet b2 b3 Kq Q Na1 _ E3). cbn [book_op] in E2. destruct (gross_now b1); [|discriminate]. destruct (net_now b1); [|discriminate]. destruct (raise_now b1); [|discriminate]. destruct (withheld_now b1); [|discriminate]. destruct (taxable_now b1); [|discriminate]. injection E2 as <-. split; [now right|reflexivity]. }
  cbn in E4. injection E4 as <-. destruct J as [J1 J2]. unfold raise_from. cbn [book_params k_params params_of pp_raise k_set k_year]. split; [reflexivity|]. split; [|exact J2].
  destruct J1 as [J1|J1]; [now left|]. destruct (inp RAISE (k_year b3)); [now right|now left].
Qed.
Print Assumptions C111_raise_assigned_partial.
(** once this year's raise has been read, a newly assigned raise rate changes nothing until the next year *)
Definition other_raise (b : book) (f : Z -> option Q) : book :=
  book_params b {| pp_retire := pp_retire (k_params b); pp_raise := f; pp_tax := pp_tax (k_params b); pp_inputs := pp_inputs (k_params b) |}.
Lemma other_now b f r : k_set b RAISE = Some r -> gross_now (other_raise b f) = gross_now b /\ raise_now (other_raise b f) = raise_now b.
Proof. intros K. unfold gross_now, raise_now, retired. cbn. rewrite K. auto. Qed.
Lemma other_shows b f r p : k_set b RAISE = Some r -> shows (other_raise b f) p = shows b p.
Proof.
  intros K. destruct (other_now b f r K) as [G R0]. destruct p as [|[|[|[|[|[|[|p]]]]]]]; cbn [shows]; unfold net_now, withheld_now, taxable_now; rewrite ?G, ?R0; reflexivity.
Qed.
Lemma other_gross b f r : k_set b RAISE = Some r -> read_gross (other_raise b f) = other_raise (read_gross b) f.
Proof.
  intros K. unfold read_gross, read_raise. destruct (other_now b f r K) as [G _]. rewrite G. cbn [other_raise book_params k_set]. rewrite K. destruct (k_set b GROSS); [reflexivity|].
  change (retired (other_raise b f)) with (retired b). destruct (retired b); reflexivity.
Qed.
Lemma gross_params b : k_params (read_gross b) = k_params b.
Proof. apply (read_gross_fields b). Qed.
Lemma other_withheld b f r : k_set b RAISE = Some r -> read_withheld (other_raise b f) = other_raise (read_withheld b) f.
Proof.
  intros K. unfold read_withheld. cbn [other_raise book_params k_set k_params pp_tax]. destruct (k_set b WITHHELD); [reflexivity|]. destruct (pp_tax (k_params b)); [|reflexivity]. exact (other_gross b f r K).
Qed.
Lemma other_read b f r p : k_set b RAISE = Some r -> read_book p (other_raise b f) = other_raise (read_book p b) f.
Proof.
  intros K. unfold read_book. change (k_set (other_raise b f) p) with (k_set b p). destruct (k_set b p); [reflexivity|].
  destruct p as [|[|[|[|[|[|[|p]]]]]]]; try (rewrite (other_shows b f r _ K); reflexivity).
  - exact (other_gross b f r K).
  - rewrite (other_gross b f r K), (other_withheld (read_gross b) f r) by (now apply mono_gross). pose proof (other_shows b f r NET K) as N. cbn [shows NET] in N. rewrite N. reflexivity.
  - unfold read_raise. change (k_set (other_raise b f) RAISE) with (k_set b RAISE). rewrite K. reflexivity.
  - exact (other_withheld b f r K).
  - exact (other_gross b f r K).
Qed.
Lemma other_ops inp f : forall os b r b', pp_inputs (k_params b) = inp -> Forall knows os -> existsb is_advance os = false -> existsb (deletes RAISE) os = false -> k_set b RAISE = Some r -> book_ops inp (other_raise b f) os = Some b' ->
  exists c, book_ops inp b os = Some c /\ forall p, shows b' p = shows c p.
Proof.
  induction os as [|o os IH]; intros b r b' Ip Kn Na Nd K H; cbn [book_ops] in H |- *; [injection H as <-; exists b; split; [reflexivity|intros p; exact (other_shows b f r p K)]|].
  inversion Kn; subst. cbn [existsb] in Na, Nd. apply orb_false_elim in Na, Nd. destruct Na as [Na Na'], Nd as [Nd Nd'].
  assert (X : (exists b1 r1, book_op (pp_inputs (k_params b)) b o = Some b1 /\ book_op (pp_inputs (k_params b)) (other_raise b f) o = Some (other_raise b1 f) /\ k_set b1 RAISE = Some r1 /\ pp_inputs (k_params b1) = pp_inputs (k_params b)) \/
             (exists b1, book_op (pp_inputs (k_params b)) b o = Some b1 /\ book_op (pp_inputs (k_params b)) (other_raise b f) o = Some b1) \/ book_op (pp_inputs (k_params b)) (other_raise b f) o = None).
  { destruct o as [p|p v|p|g|g|y|e|]; try discriminate Na; cbn [book_op].
    - rewrite (other_shows b f r p K). destruct (shows b p) as [v|] eqn:Sh; [|right; right; reflexivity]. left. exists (read_book p b), r. split; [reflexivity|]. split; [f_equal; exact (other_read b f r p K)|]. split; [now apply mono_read|].
      pose proof (read_same p b H2 ltac:(congruence)) as (_ & P' & _). now rewrite <- P'.
    - left. change (k_year (other_raise b f)) with (k_year b). destruct (pp_inputs (k_params b) p (k_year b)); [exists b, r; auto|]. exists (keep b p (Some v)), (if Nat.eqb RAISE p then v else r). repeat split. cbn [keep k_set]. destruct (Nat.eqb RAISE p); [reflexivity|exact K].
    - left. change (k_year (other_raise b f)) with (k_year b). destruct (pp_inputs (k_params b) p (k_year b)); [exists b, r; auto|]. exists (keep b p None), r. repeat split. cbn [keep k_set]. cbn in Nd. rewrite Nat.eqb_sym, Nd. exact K.
    - right. left. eexists. split; [reflexivity|]. reflexivity.
    - left. exists (book_params b (params_of (pp_inputs (k_params b)) (pp_retire (k_params b)) (pp_raise (k_params b)) g)), r. repeat split. exact K.
    - left. exists (book_params b (params_of (pp_inputs (k_params b)) (Some y) (pp_raise (k_params b)) (pp_tax (k_params b)))), r. repeat split. exact K.
    - left. eexists _, r. split; [reflexivity|]. split; [reflexivity|]. split; [exact K|reflexivity]. }
  destruct X as [(b1 & r1 & X1 & X2 & X3 & X4)|[(b1 & X1 & X2)|X2]]; rewrite X2 in H; [rewrite X1|rewrite X1|discriminate].
  - exact (IH b1 r1 b' X4 H3 Na' Nd' X3 H).
  - exists b'. split; [exact H|reflexivity].
Qed.
Theorem C111_raise_ignored_refuted : forall inp order retire raise tax y gross e before f rest l0 l, whole order -> Forall knows (before ++ Read RAISE :: SetRaise f :: rest) ->
  existsb is_advance rest = false -> existsb (deletes RAISE) rest = false ->
  new_person (params_of inp retire raise tax) order y gross e = Some l0 -> do_all order l0 (before ++ Read RAISE :: SetRaise f :: rest) = Some l ->
  exists l', do_all order l0 (before ++ Read RAISE :: rest) = Some l' /\ forall p, (p < 7)%nat -> figure order l p = figure order l' p.
Proof.
  intros inp order retire raise tax y gross e before f rest l0 l Ho Kn Na Nd N D.
  assert (Kn' : Forall knows (before ++ Read RAISE :: rest)).
  { apply Forall_app in Kn. destruct Kn as [K1 K2]. inversion K2 as [|? ? K3 K4]; subst. inversion K4; subst. apply Forall_app. split; [exact K1|]. now constructor. }
  pose proof (C111_books inp order retire raise tax y gross e _ Ho Kn) as A. pose proof (C111_books inp order retire raise tax y gross e _ Ho Kn') as B. cbn zeta in A, B.
  pose proof (rel_new inp order Ho retire raise tax y gross e) as R0.
  destruct (new_book inp retire raise tax y gross e) as [b0|]; [|congruence]. destruct A as (a0 & A1 & A2), B as (a1 & B1 & B2), R0 as (a2 & R1 & R2). assert (a0 = l0) by congruence. assert (a1 = l0) by congruence. assert (a2 = l0) by congruence. subst a0 a1 a2.
  destruct (book_ops inp b0 (before ++ Read RAISE :: SetRaise f :: rest)) as [b|] eqn:E; [|congruence]. destruct A2 as (la & A2 & A3). assert (la = l) by congruence. subst la.
  rewrite book_ops_app in E, B2. apply Forall_app in Kn'. destruct Kn' as [Kb Kr]. pose proof (rel_ops inp order Ho before l0 b0 Kb R2) as Rb.
  destruct (book_ops inp b0 before) as [b1|]; [|discriminate]. destruct Rb as (l1 & _ & _ & S1). cbn [book_ops] in E, B2.
  cbn [book_op shows RAISE] in E, B2. destruct (raise_now b1) as [r|] eqn:Er; [|discriminate].
  assert (K : k_set (read_book 2 b1) RAISE = Some r).
  { unfold read_book. destruct (k_set b1 2) as [w|] eqn:K0; [unfold raise_now, RAISE in Er; rewrite K0 in Er; unfold RAISE; congruence|]. unfold read_raise. unfold RAISE at 1. rewrite K0. cbn. exact Er. }
  assert (Ip : pp_inputs (k_params (read_book 2 b1)) = inp).
  { pose proof (read_same 2 b1 ltac:(lia) ltac:(cbn; congruence)) as (_ & P' & _). rewrite <- P'. exact (m_inp _ _ _ S1). }
  change (read_book RAISE b1) with (read_book 2 b1) in E, B2.
  replace (params_of inp _ f _) with (k_params (other_raise (read_book 2 b1) f)) in E by (unfold other_raise, params_of; rewrite Ip; reflexivity).
  inversion Kr; subst x l2. destruct (other_ops inp f rest (read_book 2 b1) r b Ip ltac:(assumption) Na Nd K E) as (c & C1 & C2). rewrite C1 in B2.
  destruct B2 as (l' & B2 & B3). exists l'. split; [exact B2|]. intros p Hp. rewrite (A3 p Hp), (B3 p Hp). apply C2.
Qed.
Print Assumptions C111_raise_ignored_refuted.

(** *** A concrete person *)
Definition demo_order : list nat := [6; 3; 0; 5; 1; 4; 2]%nat.
Definition demo_inputs (p : nat) (y : Z) : option Q := if (Nat.eqb p GROSS && Z.eqb y 2003)%bool then Some 90000 else None.
Definition demo_person := new_person (params_of demo_inputs (Some 2004%Z) (fun _ => Some (1#10)) (Some (fun g _ => g * (1#4)))) demo_order 2000 50000 {| s_taxable := [100]; s_deduction := []; s_credit := [] |}.
Definition demo_ops : list lop := [Read TAXABLE; Advance; SetRaise (fun _ => Some (1#5)); Read NET; Advance; Advance; Read NET; Advance; Advance].
Definition firstn_figures (ns : list nat) (l0 : living) : list (list (option Q)) :=
  map (fun n => match do_all demo_order l0 (firstn n demo_ops) with Some l => map (fun p => option_map Qred (figure demo_order l p)) [GROSS; NET; TAXABLE] | None => [] end) ns.
(** the hypotheses of the theorems above hold of it; the figures of 2000 to 2005 *)
Example C111_sat :
  whole demo_order /\ Forall knows demo_ops /\ orderly true demo_ops = true /\ orderly false demo_ops = true /\ forallb (fun o => negb (assigns NET o)) demo_ops = true /\
  demo_ops = [Read TAXABLE] ++ Advance :: [] ++ SetRaise (fun _ => Some (1#5)) :: skipn 3 demo_ops /\
  option_map (firstn_figures [0; 4; 5; 7; 8; 9]%nat) demo_person = Some
   [[Some 50000; Some 37500; Some 50100]; [Some 60000; Some 45000; Some 60100]; [Some 72000; Some 54000; Some 72100];
    [Some 90000; Some 67500; Some 90100]; [Some 108000; Some 81000; Some 108100]; [Some 0; Some 0; Some 100]].
Proof.
  split; [intros p; cbn; lia|]. split; [unfold demo_ops, knows, TAXABLE, NET; repeat constructor; lia|]. repeat (split; [reflexivity|]). vm_compute. reflexivity.
Qed.
