(** Property C105: a person's tax figures (person.py:396-412). *)
From Verif Require Import Base BaseFacts LedgerModel LedgerProofs PersonModel PersonSpec PersonProofs.
From Coq Require Import Lia.

(** ** Vocabulary *)
(** operations that assign or delete none of the person's income or tax figures, nor clear the cache;
    what remains: reading anything, changes to the accounts, and the passing of years *)
Definition leaves_tax (o : op Q acct_sums) : Prop :=
  match o with
  | OSet p _ | ODel p => ~ In p [GROSS; NET; RAISE; WITHHELD; DEDUCTION; CREDIT; TAXABLE]
  | OClear => False
  | _ => True
  end.
(** what the accounts report after a history of operations *)
Definition accounts_after (os : list (op Q acct_sums)) (e : acct_sums) : acct_sums :=
  fold_left (fun e o => match o with OEnv f => f e | _ => e end) os e.
(** does the operation read the figure? *)
Definition reads (p : nat) (o : op Q acct_sums) : bool :=
  match o with OGet q | OHist q _ => Nat.eqb p q | _ => false end.
(** what the accounts reported when the figure was first read this year, if it was *)
Fixpoint first_read (p : nat) (os : list (op Q acct_sums)) (e : acct_sums) (seen : option acct_sums)
    : option acct_sums :=
  match os with
  | [] => seen
  | o :: r =>
      first_read p r (accounts_after [o] e)
        (match o with
         | ONext => None
         | _ => match seen with Some e0 => Some e0 | None => if reads p o then Some e else None end
         end)
  end.

(** ** Proofs *)
Section Untouched.
  Context {V E : Type} (C : lclass V E) (p : nat).
  Inductive avoids : prog V E -> Prop :=
  | ARet v : avoids (Ret v)
  | AGet q k : q <> p -> (forall v, avoids (k v)) -> avoids (Get q k)
  | AEnv k : (forall e, avoids (k e)) -> avoids (EnvRd k)
  | AYear k : (forall y, avoids (k y)) -> avoids (Year k)
  | APast q d k : (forall v, avoids (k v)) -> avoids (PastAt q d k)
  | ARaise : avoids Raise.
  Hypothesis Hav : forall q, avoids (fget C q).
  Lemma get_with_untouched r q s w s' :
    (forall s g w s', avoids g -> r s g = Some (w, s') -> forall y, hist s' p y = hist s p y) ->
    q <> p -> get_with C r q s = Some (w, s') -> forall y, hist s' p y = hist s p y.
  Proof.
    intros Hr Hq H y. unfold get_with in H. destruct (hist s q (year s)); [injection H as <- <-; reflexivity|].
    destruct (r s (fget C q)) as [[v1 s1]|] eqn:Er; [|discriminate]. injection H as <- <-.
    destruct (cached C q); cbn [put hist]; [rewrite upd_other by (left; auto)|]; eapply Hr; [apply Hav|exact Er|apply Hav|exact Er].
  Qed.
  Lemma run_untouched : forall n s g w s', avoids g -> run C n s g = Some (w, s') -> forall y, hist s' p y = hist s p y.
  Proof.
    induction n as [|m IH]; intros s g w s'; [discriminate|].
    revert s. induction g as [v0|q k IHg|q y k IHg|k IHg|f k IHg|k IHg|q v0 k IHg|q d k IHg|]; intros s Hp H y0;
      cbn in H; inversion Hp; subst.
    - injection H as <- <-. reflexivity.
    - destruct (get_with C (run C m) q s) as [[v1 s1]|] eqn:Eg; [|discriminate].
      transitivity (hist s1 p y0); [eapply IHg; [|exact H]; auto|]. eapply get_with_untouched; [exact IH| |exact Eg]. assumption.
    - eapply IHg; [|exact H]. auto.
    - eapply IHg; [|exact H]. auto.
    - eapply IHg; [|exact H]. auto.
    - discriminate.
  Qed.
  Lemma getp_untouched n s q w s' : q <> p -> getp C n s q = Some (w, s') -> forall y, hist s' p y = hist s p y.
  Proof. intros Hq H. eapply get_with_untouched; [|exact Hq|exact H]. intros s1 g w1 s2 Ha Hr. exact (run_untouched n s1 g w1 s2 Ha Hr). Qed.
End Untouched.

Section PersonTax.
  Context (P : pparams) (order : list nat) (y0 : Z) (gross : Q).
  Notation C := (person_class P order).
  Hypothesis Hin : In GROSS order.
  Definition figure (p : nat) (e : acct_sums) : Q :=
    if Nat.eqb p DEDUCTION then Qsum (s_deduction e) else Qsum (s_credit e).
  Hypothesis Hnone : forall p y, In p [DEDUCTION; CREDIT; TAXABLE] -> pp_inputs P p y = None.

  Lemma person_avoids p q : In p [DEDUCTION; CREDIT; TAXABLE] -> avoids p (fget C q).
  Proof.
    intro Hp. cbn. unfold person_fget.
    assert (Hg : GROSS <> p) by (intros <-; cbn in Hp; intuition discriminate).
    assert (Hr : RAISE <> p) by (intros <-; cbn in Hp; intuition discriminate).
    assert (Hw : WITHHELD <> p) by (intros <-; cbn in Hp; intuition discriminate).
    repeat match goal with |- avoids _ (if ?b then _ else _) => destruct b end; try (repeat (constructor; auto; intros); fail).
    - constructor. intro y. destruct (match pp_retire P with Some r => Z.ltb r y | None => false end); [constructor|].
      constructor. intros [g|]; repeat (constructor; auto; intros).
    - constructor. intro y. destruct (pp_raise P y); constructor.
    - destruct (pp_tax P); repeat (constructor; auto; intros).
  Qed.

  Record J (s : lstate Q acct_sums) (e : acct_sums) (fz : nat -> option acct_sums) : Prop := {
    J_inv : inv P order y0 gross s;
    J_env : env s = e;
    J_tax : hist s TAXABLE (year s) = None;
    J_fz : forall p, In p [DEDUCTION; CREDIT] -> hist s p (year s) = option_map (figure p) (fz p) }.

  Lemma rd_figure s p v : In p [DEDUCTION; CREDIT] -> rd C s p v -> hist s p (year s) = None -> v = figure p (env s).
  Proof.
    intros Hp [H|[_ H]] Hn; [congruence|]. destruct Hp as [<-|[<-|[]]]; cbn in H; inversion H as [| | | | |k w H2| |]; subst; inversion H2; reflexivity.
  Qed.
  Lemma rd_tax s e fz v : J s e fz -> rd C s TAXABLE v -> v = gross_in P y0 gross (year s) + Qsum (s_taxable e).
  Proof.
    intros HJ [H|[_ H]]; [rewrite (J_tax _ _ _ HJ) in H; discriminate|].
    change (fget C TAXABLE) with (person_fget P TAXABLE) in H. unfold person_fget in H. cbn [Nat.eqb GROSS NET RAISE WITHHELD DEDUCTION CREDIT TAXABLE] in H.
    apply ev_get in H. destruct H as (g & Hg & H). apply (rd_gross P order y0 gross) in Hg; [|apply (J_inv _ _ _ HJ)]. subst g.
    inversion H as [| | | | |k w H2| |]; subst. inversion H2. rewrite (J_env _ _ _ HJ). reflexivity.
  Qed.
  Lemma J_get n s q e fz w s' : J s e fz -> getp C n s q = Some (w, s') ->
    J s' e (fun p => match fz p with Some x => Some x | None => if Nat.eqb p q then Some e else None end).
  Proof.
    intros HJ Hg. pose proof (J_inv _ _ _ HJ) as Hi. pose proof Hg as Hg0.
    apply (getp_ev C (person_pure P order) n s) in Hg; [|apply refines_refl]. destruct Hg as [Hrd Hrf].
    pose proof Hrf as (E1 & E2 & E3 & E4).
    assert (Hk : keeps_inputs C s') by (eapply getp_keeps; [apply Hi|exact Hg0]).
    constructor.
    - eapply inv_refines; [exact Hi|exact Hrf|exact Hk].
    - rewrite E2. apply (J_env _ _ _ HJ).
    - rewrite E1. destruct (Nat.eq_dec q TAXABLE) as [->|Hq].
      + unfold getp, get_with in Hg0. rewrite (J_tax _ _ _ HJ) in Hg0.
        destruct (run C n s (fget C TAXABLE)) as [[v1 s1]|] eqn:Er; [|discriminate]. cbn [cached person_class person_cached] in Hg0.
        injection Hg0 as _ <-. rewrite (run_untouched C TAXABLE (fun x => person_avoids TAXABLE x ltac:(cbn; tauto)) n s _ _ _ (person_avoids TAXABLE TAXABLE ltac:(cbn; tauto)) Er).
        apply (J_tax _ _ _ HJ).
      + rewrite (getp_untouched C TAXABLE (fun x => person_avoids TAXABLE x ltac:(cbn; tauto)) n s q _ _ Hq Hg0). apply (J_tax _ _ _ HJ).
    - intros p Hp. rewrite E1. pose proof (J_fz _ _ _ HJ p Hp) as Hf.
      assert (Hp3 : In p [DEDUCTION; CREDIT; TAXABLE]) by (cbn in *; tauto).
      destruct (Nat.eqb_spec p q) as [<-|Hne].
      + destruct (fz p) as [x|] eqn:Ex; cbn [option_map] in *.
        * destruct (E4 p) as [E|[E _]]; congruence.
        * unfold getp, get_with in Hg0. rewrite Hf in Hg0.
          destruct (run C n s (fget C p)) as [[v1 s1]|] eqn:Er; [|discriminate].
          assert (Hc : cached C p = true) by (destruct Hp as [<-|[<-|[]]]; reflexivity). rewrite Hc in Hg0.
          injection Hg0 as Hw Hs. rewrite <- Hs. cbn [put hist].
          pose proof (frame_run C n s _ _ _ Er) as Hfr. rewrite (frame_hist_year _ _ Hfr), upd_same. f_equal.
          rewrite Hw. rewrite <- (J_env _ _ _ HJ). apply rd_figure; assumption.
      + rewrite (getp_untouched C p (fun x => person_avoids p x Hp3) n s q _ _ (fun E => Hne (eq_sym E)) Hg0). rewrite Hf.
        destruct (fz p); reflexivity.
  Qed.
  Lemma J_step n s o s' e fz : J s e fz -> leaves_tax o -> step C n s o = Some s' ->
    J s' (accounts_after [o] e)
      (fun p => match o with ONext => None | _ => match fz p with Some x => Some x | None => if reads p o then Some e else None end end).
  Proof.
    intros HJ Hl H.
    assert (Hli : leaves_income o) by (destruct o; cbn in *; try tauto).
    pose proof (inv_step P order y0 gross Hin n s o s' (J_inv _ _ _ HJ) Hli H) as Hi'.
    destruct o as [q|q y|q v|q| |f|]; cbn in H, Hl; cbn [accounts_after fold_left reads].
    - destruct (getp C n s q) as [[v s1]|] eqn:E; [|discriminate]. injection H as <-. eapply J_get; eassumption.
    - destruct (getp C n s q) as [[v s1]|] eqn:E; [|discriminate]. injection H as <-. eapply J_get; eassumption.
    - injection H as <-. unfold setter in *. destruct (has_input C s q).
      + destruct HJ as [A B D F]. constructor; try assumption. intros p Hp. rewrite (F p Hp). destruct (fz p); reflexivity.
      + cbn [fset person_class] in *. destruct HJ as [A B D F]. constructor; [exact Hi'|exact B| |]; cbn [put hist year].
        * rewrite upd_other by (left; intro; subst; cbn in Hl; tauto). exact D.
        * intros p Hp. rewrite upd_other by (left; intro; subst; cbn in Hl, Hp; tauto). rewrite (F p Hp). destruct (fz p); reflexivity.
    - injection H as <-. unfold deleter in *. destruct (has_input C s q).
      + destruct HJ as [A B D F]. constructor; try assumption. intros p Hp. rewrite (F p Hp). destruct (fz p); reflexivity.
      + cbn [fdel person_class] in *. destruct HJ as [A B D F]. constructor; [exact Hi'|exact B| |]; cbn [put hist year].
        * rewrite upd_other by (left; intro; subst; cbn in Hl; tauto). exact D.
        * intros p Hp. rewrite upd_other by (left; intro; subst; cbn in Hl, Hp; tauto). rewrite (F p Hp). destruct (fz p); reflexivity.
    - contradiction.
    - injection H as <-. destruct HJ as [A B D F]. constructor; [exact Hi'|cbn; rewrite B; reflexivity|exact D|].
      intros p Hp. cbn [with_env hist year]. rewrite (F p Hp). destruct (fz p); reflexivity.
    - unfold next_year in H. destruct (record C n (props C) s) as [s1|] eqn:E; [|discriminate]. injection H as <-.
      apply (record_ev C (person_pure P order) n s) in E; [|apply refines_refl]. destruct E as ((E1 & E2 & E3 & _) & _ & _).
      pose proof (J_inv _ _ _ HJ) as (_ & _ & _ & _ & _ & Hf0).
      assert (K : forall p, In p [DEDUCTION; CREDIT; TAXABLE] -> hist s1 p (year s1 + 1) = None).
      { intros p Hp. rewrite E3 by lia. rewrite Hf0 by lia. apply Hnone. exact Hp. }
      constructor; cbn [year hist env].
      + exact Hi'.
      + rewrite E2. apply (J_env _ _ _ HJ).
      + apply K. cbn; tauto.
      + intros p Hp. apply K. cbn in *; tauto.
  Qed.
  Lemma J_ext s e fz fz' : (forall p, fz p = fz' p) -> J s e fz -> J s e fz'.
  Proof. intros E [A B D F]. constructor; try assumption. intros p Hp. rewrite <- E. apply F. exact Hp. Qed.
  Lemma J_steps n : forall os s s' e fz, J s e fz -> Forall leaves_tax os -> steps C n s os = Some s' ->
    J s' (accounts_after os e) (fun p => first_read p os e (fz p)).
  Proof.
    induction os as [|o r IH]; intros s s' e fz HJ Hl H; cbn in H.
    - injection H as <-. exact HJ.
    - inversion Hl as [|? ? Ho Hr]; subst. destruct (step C n s o) as [s1|] eqn:E; [|discriminate].
      pose proof (J_step n s o s1 e fz HJ Ho E) as HJ1. specialize (IH s1 s' _ _ HJ1 Hr H).
      exact IH.
  Qed.
  Lemma J_setter s e p v : ~ In p [DEDUCTION; CREDIT; TAXABLE] ->
    env s = e -> (forall q, In q [DEDUCTION; CREDIT; TAXABLE] -> hist s q (year s) = None) ->
    let s' := setter C s p v in year s' = year s /\ env s' = e /\ (forall q, In q [DEDUCTION; CREDIT; TAXABLE] -> hist s' q (year s') = None).
  Proof.
    intros Hp He Hn. cbn zeta. unfold setter. destruct (has_input C s p); [auto|]. cbn. split; [reflexivity|]. split; [exact He|].
    intros q Hq. rewrite upd_other by (left; intros ->; contradiction). apply Hn. exact Hq.
  Qed.
  Lemma J_init e s : person_init P order y0 gross e = Some s -> J s e (fun _ => None) /\ year s = y0.
  Proof.
    intro H. pose proof (person_init_inv P order y0 gross e s H) as [Hi Hy].
    cut (env s = e /\ forall q, In q [DEDUCTION; CREDIT; TAXABLE] -> hist s q (year s) = None).
    { intros [He Hn]. split; [|exact Hy]. constructor; [exact Hi|exact He|apply Hn; cbn; tauto|]. intros p Hp. apply Hn. cbn in *; tauto. }
    unfold person_init in H. set (s1 := setter C (init C y0 e) GROSS gross) in H.
    destruct (J_setter (init C y0 e) e GROSS gross) as (A1 & A2 & A3).
    { cbn. intuition discriminate. } { reflexivity. } { intros q Hq. cbn. apply Hnone. exact Hq. }
    fold s1 in A1, A2, A3. clearbody s1.
    assert (G : forall t w t' r, env t = e -> (forall q, In q [DEDUCTION; CREDIT; TAXABLE] -> hist t q (year t) = None) ->
      ~ In r [DEDUCTION; CREDIT; TAXABLE] -> getp C 5 t r = Some (w, t') ->
      env t' = e /\ (forall q, In q [DEDUCTION; CREDIT; TAXABLE] -> hist t' q (year t') = None)).
    { intros t w t' r B1 B2 B3 B4. pose proof B4 as B5. apply (getp_ev C (person_pure P order) 5 t) in B5; [|apply refines_refl].
      destruct B5 as [_ (E1 & E2 & _)]. split; [congruence|]. intros q Hq. rewrite E1.
      rewrite (getp_untouched C q (fun x => person_avoids q x Hq) 5 t r w t'); [apply B2; exact Hq| |exact B4].
      intros ->; contradiction. }
    destruct (getp C 5 s1 GROSS) as [[g s2]|] eqn:E2; [|discriminate].
    destruct (G s1 g s2 GROSS A2 A3) as [B1 B2]; [cbn; intuition discriminate|exact E2|].
    destruct (getp C 5 s2 WITHHELD) as [[t s3]|] eqn:E3; [|discriminate].
    destruct (G s2 t s3 WITHHELD B1 B2) as [D1 D2]; [cbn; intuition discriminate|exact E3|].
    injection H as <-. destruct (J_setter s3 e NET (g - t)) as (_ & F2 & F3); [cbn; intuition discriminate|exact D1|exact D2|].
    split; [exact F2|exact F3].
  Qed.
End PersonTax.

(** ** C105 *)
(** Taxable income, read at any moment of any history, is this year's gross income plus what the
    person's accounts report as taxable at that very moment. *)
Theorem C105_taxable_income : forall P order y0 gross n m e s0 os s v s',
  In GROSS order -> (forall p y, In p [DEDUCTION; CREDIT; TAXABLE] -> pp_inputs P p y = None) ->
  person_init P order y0 gross e = Some s0 -> Forall leaves_tax os ->
  steps (person_class P order) n s0 os = Some s ->
  getp (person_class P order) m s TAXABLE = Some (v, s') ->
  v = gross_in P y0 gross (year s) + Qsum (s_taxable (accounts_after os e)).
Proof.
  intros P order y0 gross n m e s0 os s v s' Hin Hno H0 Hl Hs Hg.
  destruct (J_init P order y0 gross Hno e s0 H0) as [HJ _].
  pose proof (J_steps P order y0 gross Hin Hno n os s0 s e _ HJ Hl Hs) as HJ1.
  apply (getp_ev _ (person_pure P order) m s) in Hg; [|apply refines_refl]. destruct Hg as [Hr _].
  eapply rd_tax; [exact HJ1|exact Hr].
Qed.
Print Assumptions C105_taxable_income.
(** Deductions and credits are what the accounts reported the first time the figure was read this
    year - which is what they report now only if it was not read before. *)
Theorem C105_deductions_credits_partial : forall P order y0 gross n m e s0 os s p v s',
  In GROSS order -> (forall p y, In p [DEDUCTION; CREDIT; TAXABLE] -> pp_inputs P p y = None) ->
  person_init P order y0 gross e = Some s0 -> Forall leaves_tax os ->
  steps (person_class P order) n s0 os = Some s ->
  getp (person_class P order) m s p = Some (v, s') ->
  let e1 := match first_read p os e None with Some e1 => e1 | None => accounts_after os e end in
  (p = DEDUCTION -> v = Qsum (s_deduction e1)) /\ (p = CREDIT -> v = Qsum (s_credit e1)).
Proof.
  intros P order y0 gross n m e s0 os s p v s' Hin Hno H0 Hl Hs Hg.
  destruct (J_init P order y0 gross Hno e s0 H0) as [HJ _].
  pose proof (J_steps P order y0 gross Hin Hno n os s0 s e _ HJ Hl Hs) as HJ1.
  apply (getp_ev _ (person_pure P order) m s) in Hg; [|apply refines_refl]. destruct Hg as [Hr _].
  cut (In p [DEDUCTION; CREDIT] -> v = figure p (match first_read p os e None with Some e1 => e1 | None => accounts_after os e end)).
  { intro K. split; intros ->; apply K; cbn; tauto. }
  intro Hp. pose proof (J_fz _ _ _ _ _ _ _ HJ1 p Hp) as Hf. destruct (first_read p os e None) as [e1|]; cbn [option_map] in Hf.
  - destruct Hr as [Hr|[Hr _]]; congruence.
  - rewrite <- (J_env _ _ _ _ _ _ _ HJ1). eapply rd_figure; eassumption.
Qed.
Print Assumptions C105_deductions_credits_partial.
(** When the year closes, these same values are what the histories keep. *)
Theorem C105_recorded : forall P order y0 gross n e s0 os s s',
  In GROSS order -> (forall p y, In p [DEDUCTION; CREDIT; TAXABLE] -> pp_inputs P p y = None) ->
  person_init P order y0 gross e = Some s0 -> Forall leaves_tax os ->
  steps (person_class P order) n s0 os = Some s ->
  steps (person_class P order) n s [ONext] = Some s' ->
  (In TAXABLE order -> hist s' TAXABLE (year s) = Some (gross_in P y0 gross (year s) + Qsum (s_taxable (accounts_after os e)))) /\
  (first_read DEDUCTION os e None = None -> In DEDUCTION order ->
     hist s' DEDUCTION (year s) = Some (Qsum (s_deduction (accounts_after os e)))) /\
  (first_read CREDIT os e None = None -> In CREDIT order ->
     hist s' CREDIT (year s) = Some (Qsum (s_credit (accounts_after os e)))).
Proof.
  intros P order y0 gross n e s0 os s s' Hin Hno H0 Hl Hs Hn.
  destruct (J_init P order y0 gross Hno e s0 H0) as [HJ _].
  pose proof (J_steps P order y0 gross Hin Hno n os s0 s e _ HJ Hl Hs) as HJ1.
  cbn [steps step] in Hn. destruct (next_year (person_class P order) n s) as [s1|] eqn:E; [|discriminate]. injection Hn as <-.
  unfold next_year in E. destruct (record (person_class P order) n (props (person_class P order)) s) as [s2|] eqn:E2; [|discriminate].
  injection E as <-. cbn [hist].
  apply (record_ev _ (person_pure P order) n s) in E2; [|apply refines_refl]. destruct E2 as (_ & _ & H3).
  split; [|split].
  - intro Hi. destruct (H3 TAXABLE Hi) as (v & Hv & Hr). rewrite Hv. f_equal. eapply rd_tax; [exact HJ1|exact Hr].
  - intros Hf Hi. destruct (H3 DEDUCTION Hi) as (v & Hv & Hr). rewrite Hv. f_equal.
    pose proof (J_fz _ _ _ _ _ _ _ HJ1 DEDUCTION ltac:(cbn; tauto)) as Hz. cbn beta in Hz. rewrite Hf in Hz.
    rewrite <- (J_env _ _ _ _ _ _ _ HJ1). apply (rd_figure P order s DEDUCTION); [cbn; tauto|exact Hr|exact Hz].
  - intros Hf Hi. destruct (H3 CREDIT Hi) as (v & Hv & Hr). rewrite Hv. f_equal.
    pose proof (J_fz _ _ _ _ _ _ _ HJ1 CREDIT ltac:(cbn; tauto)) as Hz. cbn beta in Hz. rewrite Hf in Hz.
    rewrite <- (J_env _ _ _ _ _ _ _ HJ1). apply (rd_figure P order s CREDIT); [cbn; tauto|exact Hr|exact Hz].
Qed.
Print Assumptions C105_recorded.
(** "The deduction is always the accounts' current total" is false: after one read, a change in an
    account (say a further RRSP contribution) leaves the person's deduction, and the deduction
    recorded for the year, at the old value. *)
Theorem C105_stale_deduction_refuted : forall P order y0 gross n e f s0 s v s1 s',
  In GROSS order -> In DEDUCTION order -> (forall p y, In p [DEDUCTION; CREDIT; TAXABLE] -> pp_inputs P p y = None) ->
  person_init P order y0 gross e = Some s0 ->
  steps (person_class P order) n s0 [OGet DEDUCTION; OEnv f] = Some s ->
  ~ Qsum (s_deduction (f e)) == Qsum (s_deduction e) ->
  getp (person_class P order) n s DEDUCTION = Some (v, s1) ->
  steps (person_class P order) n s [ONext] = Some s' ->
  env s = f e /\ ~ v == Qsum (s_deduction (env s)) /\ hist s' DEDUCTION (year s) = Some v.
Proof.
  intros P order y0 gross n e f s0 s v s1 s' Hin Hd Hno H0 Hs Hne Hg Hn.
  assert (Hl : Forall leaves_tax [OGet DEDUCTION; OEnv f]) by (repeat constructor).
  destruct (J_init P order y0 gross Hno e s0 H0) as [HJ _].
  pose proof (J_steps P order y0 gross Hin Hno n _ s0 s e _ HJ Hl Hs) as HJ1.
  pose proof (C105_deductions_credits_partial P order y0 gross n n e s0 _ s DEDUCTION v s1 Hin Hno H0 Hl Hs Hg) as [K _].
  specialize (K eq_refl). cbn in K. assert (He : env s = f e) by apply (J_env _ _ _ _ _ _ _ HJ1).
  split; [exact He|]. split; [rewrite He, K; intro X; apply Hne; symmetry; exact X|].
  cbn [steps step] in Hn. destruct (next_year (person_class P order) n s) as [s3|] eqn:E; [|discriminate]. injection Hn as <-.
  unfold next_year in E. destruct (record (person_class P order) n (props (person_class P order)) s) as [s2|] eqn:E2; [|discriminate].
  injection E as <-. cbn [hist].
  apply (record_ev _ (person_pure P order) n s) in E2; [|apply refines_refl]. destruct E2 as (_ & H2 & _).
  apply H2. pose proof (J_fz _ _ _ _ _ _ _ HJ1 DEDUCTION ltac:(cbn; tauto)) as Hz. rewrite Hz, K. reflexivity.
Qed.
Print Assumptions C105_stale_deduction_refuted.
Definition C105_P : pparams := {| pp_retire := None; pp_raise := fun _ => Some (1#10); pp_tax := None; pp_inputs := fun _ _ => None |}.
Definition C105_order : list nat := [NET; GROSS; RAISE; TAXABLE; WITHHELD; CREDIT; DEDUCTION].
Definition C105_e : acct_sums := {| s_taxable := [7; 3]; s_deduction := [5]; s_credit := [] |}.
Definition C105_f (e : acct_sums) : acct_sums := {| s_taxable := s_taxable e ++ [20]; s_deduction := s_deduction e ++ [40]; s_credit := [2] |}.
(** a person earning 100 with two accounts: reading the deduction before the accounts change freezes
    it (5), reading taxable income does not (100 + 7 + 3 + 20), and next year all is current again *)
Example C105_sat :
  match person_init C105_P C105_order 2000 100 C105_e with
  | None => None
  | Some s0 => match steps (person_class C105_P C105_order) 9 s0 [OGet DEDUCTION; OGet TAXABLE; OEnv C105_f] with
    | None => None
    | Some s => match getp (person_class C105_P C105_order) 9 s TAXABLE, getp (person_class C105_P C105_order) 9 s DEDUCTION,
                      steps (person_class C105_P C105_order) 9 s [ONext] with
      | Some (t, _), Some (d, _), Some s' =>
          match getp (person_class C105_P C105_order) 9 s' TAXABLE, getp (person_class C105_P C105_order) 9 s' DEDUCTION with
          | Some (t', _), Some (d', _) => Some (Qred t, Qred d, Qred t', Qred d', option_map Qred (hist s' DEDUCTION 2000))
          | _, _ => None end
      | _, _, _ => None end
    end
  end = Some (130, 5, 140, 45, Some 5)
  /\ Forall leaves_tax [OGet DEDUCTION; OGet TAXABLE; OEnv C105_f; ONext].
Proof. split; [vm_compute; reflexivity|]. repeat constructor. Qed.
