From Verif Require Import LedgerModel.
From Coq Require Import ZArith List Bool Lia.
Import ListNotations.
Local Open Scope Z_scope.

Section Proofs.
  Context {V E : Type} (C : lclass V E).
  Notation lstate := (lstate V E).
  Notation prog := (prog V E).

  Lemma upd_same (h : nat -> Z -> option V) p y v : upd h p y v p y = v.
  Proof. unfold upd. rewrite Nat.eqb_refl, Z.eqb_refl. reflexivity. Qed.
  Lemma upd_other (h : nat -> Z -> option V) p y v p' y' : p' <> p \/ y' <> y -> upd h p y v p' y' = h p' y'.
  Proof.
    intros H. unfold upd. destruct (Nat.eqb_spec p' p), (Z.eqb_spec y' y); cbn; try reflexivity. tauto.
  Qed.

  (** [frame s s']: same year, histories of other years unchanged *)
  Definition frame (s s' : lstate) : Prop :=
    year s' = year s /\ forall p y, y <> year s -> hist s' p y = hist s p y.
  Lemma frame_refl s : frame s s.
  Proof. split; auto. Qed.
  Lemma frame_trans a b c : frame a b -> frame b c -> frame a c.
  Proof. intros [H1 H2] [H3 H4]. split; [congruence|]. intros p y Hy. rewrite H4, H2; congruence. Qed.
  Lemma frame_put s p v : frame s (put s p (year s) v).
  Proof. split; [reflexivity|]. intros p' y Hy. cbn. apply upd_other. auto. Qed.
  Lemma frame_env s e : frame s (with_env s e).
  Proof. split; reflexivity. Qed.
  Lemma frame_setter s p v : frame s (setter C s p v).
  Proof.
    unfold setter. destruct (has_input C s p); [apply frame_refl|].
    destruct (fset C p); [|apply frame_put].
    eapply frame_trans; [apply (frame_put s p None)|apply frame_env].
  Qed.
  Lemma frame_deleter s p : frame s (deleter C s p).
  Proof.
    unfold deleter. destruct (has_input C s p); [apply frame_refl|].
    destruct (fdel C p); [|apply frame_put].
    eapply frame_trans; [apply (frame_put s p None)|apply frame_env].
  Qed.
  Lemma frame_get_with r p s v s' :
    (forall s g v s', r s g = Some (v, s') -> frame s s') ->
    get_with C r p s = Some (v, s') -> frame s s'.
  Proof.
    intros Hr. unfold get_with. destruct (hist s p (year s)).
    - intro H; injection H as <- <-. apply frame_refl.
    - destruct (r s (fget C p)) as [[v1 s1]|] eqn:Er; [|discriminate].
      apply Hr in Er. intro H; injection H as <- <-.
      destruct (cached C p); [|exact Er]. eapply frame_trans; [exact Er|apply frame_put].
  Qed.
  Lemma frame_run : forall n s g v s', run C n s g = Some (v, s') -> frame s s'.
  Proof.
    induction n as [|m IH]; intros s g v s'; [discriminate|].
    revert s. induction g as [v0|p k IHg|p y k IHg|k IHg|f k IHg|k IHg|p v0 k IHg|p d k IHg|]; intros s H; cbn in H.
    - injection H as <- <-. apply frame_refl.
    - destruct (get_with C (run C m) p s) as [[v1 s1]|] eqn:Eg; [|discriminate].
      apply frame_get_with in Eg; [|exact IH]. eapply frame_trans; [exact Eg|]. eapply IHg. exact H.
    - destruct (get_with C (run C m) p s) as [[v1 s1]|] eqn:Eg; [|discriminate].
      apply frame_get_with in Eg; [|exact IH]. eapply frame_trans; [exact Eg|]. eapply IHg. exact H.
    - eapply IHg. exact H.
    - eapply frame_trans; [apply frame_env|]. eapply IHg. exact H.
    - eapply IHg. exact H.
    - eapply frame_trans; [apply frame_setter|]. eapply IHg. exact H.
    - eapply IHg. exact H.
    - discriminate.
  Qed.
  Lemma frame_getp n s p v s' : getp C n s p = Some (v, s') -> frame s s'.
  Proof. apply frame_get_with. intros. eapply frame_run; eauto. Qed.
  Lemma frame_record n : forall ps s s', record C n ps s = Some s' -> frame s s'.
  Proof.
    induction ps as [|p r IH]; intros s s' H; cbn in H; [injection H as <-; apply frame_refl|].
    destruct (hist s p (year s)); [apply IH; exact H|].
    destruct (getp C n s p) as [[v s1]|] eqn:Eg; [|discriminate].
    apply frame_getp in Eg. eapply frame_trans; [exact Eg|].
    eapply frame_trans; [apply frame_put|]. apply IH. exact H.
  Qed.
  Lemma frame_clear s : frame s (clear_cache C s).
  Proof.
    unfold clear_cache. generalize (filter (cached C) (props C)). intro l. revert s.
    induction l as [|p r IH]; intro s; cbn; [apply frame_refl|].
    eapply frame_trans; [apply frame_deleter|apply IH].
  Qed.

  (** ** C14 *)
  Lemma step_past n s o s' : step C n s o = Some s' ->
    (year s <= year s') /\ forall p y, y < year s -> hist s' p y = hist s p y.
  Proof.
    destruct o; cbn; intro H.
    - destruct (getp C n s p) as [[v s1]|] eqn:Eg; [|discriminate]. injection H as <-.
      apply frame_getp in Eg. destruct Eg as [E1 E2]. split; [lia|]. intros; apply E2; lia.
    - destruct (getp C n s p) as [[v s1]|] eqn:Eg; [|discriminate]. injection H as <-.
      apply frame_getp in Eg. destruct Eg as [E1 E2]. split; [lia|]. intros; apply E2; lia.
    - injection H as <-. destruct (frame_setter s p v) as [E1 E2]. split; [lia|]. intros; apply E2; lia.
    - injection H as <-. destruct (frame_deleter s p) as [E1 E2]. split; [lia|]. intros; apply E2; lia.
    - injection H as <-. destruct (frame_clear s) as [E1 E2]. split; [lia|]. intros; apply E2; lia.
    - injection H as <-. split; [cbn; lia|reflexivity].
    - unfold next_year in H. destruct (record C n (props C) s) as [s1|] eqn:Er; [|discriminate].
      injection H as <-. apply frame_record in Er. destruct Er as [E1 E2]. cbn. split; [lia|].
      intros; apply E2; lia.
  Qed.
  Lemma steps_past n : forall os s s', steps C n s os = Some s' ->
    (year s <= year s') /\ forall p y, y < year s -> hist s' p y = hist s p y.
  Proof.
    induction os as [|o r IH]; intros s s' H; cbn in H; [injection H as <-; split; [lia|reflexivity]|].
    destruct (step C n s o) as [s1|] eqn:Es; [|discriminate].
    apply step_past in Es. destruct Es as [E1 E2]. apply IH in H. destruct H as [H1 H2].
    split; [lia|]. intros p y Hy. rewrite H2 by lia. apply E2. exact Hy.
  Qed.
  Lemma history_past n s p y h : y <> year s -> history_at C n s p y = Some h -> h = hist s p y.
  Proof.
    unfold history_at. intros Hy. destruct (getp C n s p) as [[v s1]|] eqn:Eg; [|discriminate].
    apply frame_getp in Eg. destruct Eg as [E1 E2].
    destruct (Z.eqb_spec y (year s)); [contradiction|]. intro H; injection H as <-. apply E2. exact Hy.
  Qed.
  Lemma past_history_immutable n os s s' p y h h' :
    steps C n s os = Some s' -> y < year s ->
    history_at C n s p y = Some h -> history_at C n s' p y = Some h' -> h' = h.
  Proof.
    intros Hs Hy H1 H2. apply steps_past in Hs. destruct Hs as [E1 E2].
    apply history_past in H1; [|lia]. apply history_past in H2; [|lia].
    rewrite H1, H2. apply E2. exact Hy.
  Qed.

  (** ** C15 *)
  Definition keeps_inputs (s : lstate) : Prop :=
    forall p y v, inputs C p y = Some v -> hist s p y = Some v.
  Lemma init_keeps y0 e : keeps_inputs (init C y0 e).
  Proof. intros p y v H. exact H. Qed.
  Lemma put_keeps s p v : keeps_inputs s -> inputs C p (year s) = None -> keeps_inputs (put s p (year s) v).
  Proof.
    intros H Hn p' y v' Hi. cbn. unfold upd.
    destruct (Nat.eqb_spec p' p) as [->|], (Z.eqb_spec y (year s)) as [->|]; cbn; try (apply H; exact Hi).
    congruence.
  Qed.
  Lemma env_keeps s e : keeps_inputs s -> keeps_inputs (with_env s e).
  Proof. intros H p y v Hi. exact (H p y v Hi). Qed.
  Lemma setter_keeps s p v : keeps_inputs s -> keeps_inputs (setter C s p v).
  Proof.
    intro H. unfold setter, has_input. destruct (inputs C p (year s)) eqn:Ei; [exact H|].
    destruct (fset C p); [apply env_keeps|]; apply put_keeps; assumption.
  Qed.
  Lemma deleter_keeps s p : keeps_inputs s -> keeps_inputs (deleter C s p).
  Proof.
    intro H. unfold deleter, has_input. destruct (inputs C p (year s)) eqn:Ei; [exact H|].
    destruct (fdel C p); [apply env_keeps|]; apply put_keeps; assumption.
  Qed.
  Lemma get_with_keeps r p s v s' :
    (forall s g v s', r s g = Some (v, s') -> frame s s') ->
    (forall s g v s', keeps_inputs s -> r s g = Some (v, s') -> keeps_inputs s') ->
    keeps_inputs s -> get_with C r p s = Some (v, s') -> keeps_inputs s'.
  Proof.
    intros Hf Hr H. unfold get_with. destruct (hist s p (year s)) eqn:Eh.
    - intro H1; injection H1 as <- <-. exact H.
    - destruct (r s (fget C p)) as [[v1 s1]|] eqn:Er; [|discriminate].
      pose proof (Hf _ _ _ _ Er) as [Ey _]. apply Hr in Er; [|exact H]. intro H1; injection H1 as <- <-.
      destruct (cached C p); [|exact Er]. apply put_keeps; [exact Er|]. rewrite Ey.
      destruct (inputs C p (year s)) eqn:Ei; [|reflexivity]. apply H in Ei. congruence.
  Qed.
  Lemma run_keeps : forall n s g v s', keeps_inputs s -> run C n s g = Some (v, s') -> keeps_inputs s'.
  Proof.
    induction n as [|m IH]; intros s g v s'; [discriminate|].
    revert s. induction g as [v0|p k IHg|p y k IHg|k IHg|f k IHg|k IHg|p v0 k IHg|p d k IHg|]; intros s Hk H; cbn in H.
    - injection H as <- <-. exact Hk.
    - destruct (get_with C (run C m) p s) as [[v1 s1]|] eqn:Eg; [|discriminate].
      eapply IHg; [|exact H]. eapply get_with_keeps; [apply frame_run|exact IH|exact Hk|exact Eg].
    - destruct (get_with C (run C m) p s) as [[v1 s1]|] eqn:Eg; [|discriminate].
      eapply IHg; [|exact H]. eapply get_with_keeps; [apply frame_run|exact IH|exact Hk|exact Eg].
    - eapply IHg; eassumption.
    - eapply IHg; [|exact H]. apply env_keeps. exact Hk.
    - eapply IHg; eassumption.
    - eapply IHg; [|exact H]. apply setter_keeps. exact Hk.
    - eapply IHg; eassumption.
    - discriminate.
  Qed.
  Lemma getp_keeps n s p v s' : keeps_inputs s -> getp C n s p = Some (v, s') -> keeps_inputs s'.
  Proof. apply get_with_keeps; [apply frame_run|apply run_keeps]. Qed.
  Lemma record_keeps n : forall ps s s', keeps_inputs s -> record C n ps s = Some s' -> keeps_inputs s'.
  Proof.
    induction ps as [|p r IH]; intros s s' Hk H; cbn in H; [injection H as <-; exact Hk|].
    destruct (hist s p (year s)) eqn:Eh; [eapply IH; eassumption|].
    destruct (getp C n s p) as [[v s1]|] eqn:Eg; [|discriminate].
    pose proof (frame_getp _ _ _ _ _ Eg) as [Ey _].
    apply getp_keeps in Eg; [|exact Hk]. eapply IH; [|exact H]. apply put_keeps; [exact Eg|].
    rewrite Ey. destruct (inputs C p (year s)) eqn:Ei; [|reflexivity]. apply Hk in Ei. congruence.
  Qed.
  Lemma clear_keeps s : keeps_inputs s -> keeps_inputs (clear_cache C s).
  Proof.
    unfold clear_cache. generalize (filter (cached C) (props C)). intro l. revert s.
    induction l as [|p r IH]; intros s H; cbn; [exact H|]. apply IH. apply deleter_keeps. exact H.
  Qed.
  Lemma step_keeps n s o s' : keeps_inputs s -> step C n s o = Some s' -> keeps_inputs s'.
  Proof.
    intro Hk. destruct o; cbn; intro H.
    - destruct (getp C n s p) as [[v s1]|] eqn:Eg; [|discriminate]. injection H as <-. eapply getp_keeps; eassumption.
    - destruct (getp C n s p) as [[v s1]|] eqn:Eg; [|discriminate]. injection H as <-. eapply getp_keeps; eassumption.
    - injection H as <-. apply setter_keeps. exact Hk.
    - injection H as <-. apply deleter_keeps. exact Hk.
    - injection H as <-. apply clear_keeps. exact Hk.
    - injection H as <-. apply env_keeps. exact Hk.
    - unfold next_year in H. destruct (record C n (props C) s) as [s1|] eqn:Er; [|discriminate].
      injection H as <-. apply record_keeps in Er; [|exact Hk]. intros p y v Hi. exact (Er p y v Hi).
  Qed.
  Lemma steps_keeps n : forall os s s', keeps_inputs s -> steps C n s os = Some s' -> keeps_inputs s'.
  Proof.
    induction os as [|o r IH]; intros s s' Hk H; cbn in H; [injection H as <-; exact Hk|].
    destruct (step C n s o) as [s1|] eqn:Es; [|discriminate]. eapply IH; [|exact H]. eapply step_keeps; eassumption.
  Qed.
  Lemma inputs_win n os y0 e s p v :
    steps C n (init C y0 e) os = Some s -> inputs C p (year s) = Some v ->
    getp C n s p = Some (v, s).
  Proof.
    intros H Hi. assert (Hk : keeps_inputs s) by (eapply steps_keeps; [apply init_keeps|exact H]).
    unfold getp, get_with. rewrite (Hk p (year s) v Hi). reflexivity.
  Qed.
  Lemma inputs_in_history n os y0 e s p y v h :
    steps C n (init C y0 e) os = Some s -> inputs C p y = Some v ->
    history_at C n s p y = Some h -> h = Some v.
  Proof.
    intros H Hi Hh. assert (Hk : keeps_inputs s) by (eapply steps_keeps; [apply init_keeps|exact H]).
    destruct (Z.eq_dec y (year s)) as [->|Hne].
    - unfold history_at in Hh. erewrite inputs_win in Hh by eassumption.
      rewrite Z.eqb_refl in Hh. congruence.
    - apply history_past in Hh; [|exact Hne]. rewrite Hh. apply Hk. exact Hi.
  Qed.

  (** ** C16 *)
  Definition is_next (o : op V E) : bool := match o with ONext => true | _ => false end.
  Lemma step_year n s o s' : step C n s o = Some s' -> year s' = year s + (if is_next o then 1 else 0).
  Proof.
    destruct o; cbn; intro H.
    - destruct (getp C n s p) as [[v s1]|] eqn:Eg; [|discriminate]. injection H as <-.
      apply frame_getp in Eg. destruct Eg as [E1 E2]. lia.
    - destruct (getp C n s p) as [[v s1]|] eqn:Eg; [|discriminate]. injection H as <-.
      apply frame_getp in Eg. destruct Eg as [E1 E2]. lia.
    - injection H as <-. destruct (frame_setter s p v) as [E1 E2]. lia.
    - injection H as <-. destruct (frame_deleter s p) as [E1 E2]. lia.
    - injection H as <-. destruct (frame_clear s) as [E1 E2]. lia.
    - injection H as <-. cbn. lia.
    - unfold next_year in H. destruct (record C n (props C) s) as [s1|] eqn:Er; [|discriminate].
      injection H as <-. apply frame_record in Er. destruct Er as [E1 E2]. cbn. lia.
  Qed.
  Lemma steps_year n : forall os s s', steps C n s os = Some s' ->
    year s' = year s + Z.of_nat (length (filter is_next os)).
  Proof.
    induction os as [|o r IH]; intros s s' H; cbn in H; [injection H as <-; cbn; lia|].
    destruct (step C n s o) as [s1|] eqn:Es; [|discriminate].
    apply step_year in Es. apply IH in H. cbn [filter]. destruct (is_next o); cbn [length]; lia.
  Qed.
End Proofs.

Section Recorded.
  Context {V E : Type} (C : lclass V E).
  Notation lstate := (lstate V E).
  Notation prog := (prog V E).
  (** getters that neither assign recorded properties nor write other attributes *)
  Inductive pure : prog -> Prop :=
  | PRet v : pure (Ret v)
  | PGet p k : (forall v, pure (k v)) -> pure (Get p k)
  | PHist p y k : (forall v, pure (k v)) -> pure (HistAt p y k)
  | PEnv k : (forall e, pure (k e)) -> pure (EnvRd k)
  | PYear k : (forall y, pure (k y)) -> pure (Year k)
  | PPast p d k : (forall v, pure (k v)) -> pure (PastAt p d k)
  | PRaise : pure Raise.

  (** the value of a getter in a state, with every unrecorded property computed afresh *)
  Inductive ev (s : lstate) : prog -> V -> Prop :=
  | ERet v : ev s (Ret v) v
  | EGetH p k v w : hist s p (year s) = Some v -> ev s (k v) w -> ev s (Get p k) w
  | EGetC p k v w : hist s p (year s) = None -> ev s (fget C p) v -> ev s (k v) w -> ev s (Get p k) w
  | EHistH p y k v w : hist s p (year s) = Some v ->
      ev s (k (if y =? year s then Some v else hist s p y)) w -> ev s (HistAt p y k) w
  | EHistC p y k v w : hist s p (year s) = None -> ev s (fget C p) v ->
      ev s (k (if y =? year s then Some v else hist s p y)) w -> ev s (HistAt p y k) w
  | EEnv k w : ev s (k (env s)) w -> ev s (EnvRd k) w
  | EYear k w : ev s (k (year s)) w -> ev s (Year k) w
  | EPast p d k w : ev s (k (hist s p (year s - Zpos d))) w -> ev s (PastAt p d k) w.

  Lemma ev_det s g v : ev s g v -> forall w, ev s g w -> v = w.
  Proof.
    induction 1; intros w' H'; inversion H'; subst; clear H'; try congruence; auto.
    - rewrite H in *. match goal with Hx : Some _ = Some _ |- _ => injection Hx as -> end. auto.
    - assert (v = v0) by auto. subst. auto.
    - rewrite H in *. match goal with Hx : Some _ = Some _ |- _ => injection Hx as -> end. auto.
    - assert (v = v0) by auto. subst. auto.
  Qed.

  Definition refines (s0 s : lstate) : Prop :=
    year s = year s0 /\ env s = env s0 /\
    (forall p y, y <> year s0 -> hist s p y = hist s0 p y) /\
    (forall p, hist s p (year s0) = hist s0 p (year s0) \/
       (hist s0 p (year s0) = None /\ exists v, hist s p (year s0) = Some v /\ ev s0 (fget C p) v)).
  Lemma refines_refl s : refines s s.
  Proof. repeat split; auto. Qed.

  Definition rd (s0 : lstate) (p : nat) (v : V) : Prop :=
    hist s0 p (year s0) = Some v \/ (hist s0 p (year s0) = None /\ ev s0 (fget C p) v).
  Lemma rd_det s0 p v w : rd s0 p v -> rd s0 p w -> v = w.
  Proof. intros [H|[H H']] [K|[K K']]; try congruence. eapply ev_det; eassumption. Qed.

  Hypothesis all_pure : forall p, pure (fget C p).

  Lemma put_refines s0 s p v : refines s0 s -> rd s0 p v -> refines s0 (put s p (year s) (Some v)).
  Proof.
    intros (E1 & E2 & E3 & E4) Hr. split; [exact E1|]. split; [exact E2|]. cbn. rewrite E1. split.
    - intros q y Hy. rewrite upd_other by (right; exact Hy). apply E3. exact Hy.
    - intro q. destruct (Nat.eq_dec q p) as [->|Hq].
      + rewrite upd_same. destruct Hr as [Hr|[Hr Hr']]; [left; congruence|right]. split; [exact Hr|].
        exists v. auto.
      + rewrite upd_other by (left; exact Hq). apply E4.
  Qed.
  Lemma get_with_ev r s0 s p v s' :
    (forall s g v s', refines s0 s -> pure g -> r s g = Some (v, s') -> ev s0 g v /\ refines s0 s') ->
    refines s0 s -> get_with C r p s = Some (v, s') -> rd s0 p v /\ refines s0 s'.
  Proof.
    intros Hr Hle. pose proof Hle as (E1 & E2 & E3 & E4). unfold get_with. rewrite E1.
    destruct (hist s p (year s0)) as [v0|] eqn:Eh.
    - intro H; injection H as <- <-. split; [|exact Hle].
      destruct (E4 p) as [Ea|[Ea (v & Ev & Eev)]]; [left; congruence|right]. split; [exact Ea|]. congruence.
    - destruct (r s (fget C p)) as [[v1 s1]|] eqn:Er; [|discriminate].
      apply Hr in Er; [|exact Hle|apply all_pure]. destruct Er as [Ev Hs1].
      assert (Hrd : rd s0 p v1).
      { right. split; [|exact Ev]. destruct (E4 p) as [Ea|[Ea (v2 & Ev2 & _)]]; congruence. }
      intro H; injection H as <- <-. split; [exact Hrd|].
      destruct (cached C p); [|exact Hs1]. apply put_refines; assumption.
  Qed.
  Lemma run_ev s0 : forall n s g v s', refines s0 s -> pure g ->
    run C n s g = Some (v, s') -> ev s0 g v /\ refines s0 s'.
  Proof.
    induction n as [|m IH]; intros s g v s'; [discriminate|].
    revert s. induction g as [v0|p k IHg|p y k IHg|k IHg|f k IHg|k IHg|p v0 k IHg|p d k IHg|]; intros s Hle Hp H;
      cbn in H; inversion Hp; subst.
    - injection H as <- <-. split; [constructor|exact Hle].
    - destruct (get_with C (run C m) p s) as [[v1 s1]|] eqn:Eg; [|discriminate].
      destruct (get_with_ev _ s0 s p v1 s1 IH Hle Eg) as [Hrd Hs1].
      apply IHg in H; auto. destruct H as [Hev Hs']. split; [|exact Hs'].
      destruct Hrd as [Hrd|[Hrd Hrd']]; [eapply EGetH|eapply EGetC]; eassumption.
    - destruct (get_with C (run C m) p s) as [[v1 s1]|] eqn:Eg; [|discriminate].
      destruct (get_with_ev _ s0 s p v1 s1 IH Hle Eg) as [Hrd Hs1].
      apply IHg in H; auto. destruct H as [Hev Hs']. split; [|exact Hs'].
      destruct Hle as (E1 & _ & _ & _). destruct Hs1 as (_ & _ & E3 & _). rewrite E1 in Hev.
      assert (Heq : (if y =? year s0 then Some v1 else hist s1 p y) = (if y =? year s0 then Some v1 else hist s0 p y)).
      { destruct (Z.eqb_spec y (year s0)); [reflexivity|]. apply E3. assumption. }
      rewrite Heq in Hev.
      destruct Hrd as [Hrd|[Hrd Hrd']]; [eapply EHistH|eapply EHistC]; eassumption.
    - pose proof Hle as (E1 & E2 & _). apply IHg in H; auto. destruct H as [Hev Hs']. split; [|exact Hs'].
      constructor. rewrite <- E2. exact Hev.
    - pose proof Hle as (E1 & E2 & _). apply IHg in H; auto. destruct H as [Hev Hs']. split; [|exact Hs'].
      constructor. rewrite <- E1. exact Hev.
    - pose proof Hle as (E1 & E2 & E3 & _). apply IHg in H; auto. destruct H as [Hev Hs']. split; [|exact Hs'].
      constructor. rewrite E1, E3 in Hev by lia. exact Hev.
    - discriminate.
  Qed.
  Lemma getp_ev n s0 s p v s' : refines s0 s -> getp C n s p = Some (v, s') -> rd s0 p v /\ refines s0 s'.
  Proof. apply get_with_ev. intros; eapply run_ev; eassumption. Qed.

  Lemma hist_refines_Some s0 s p v : refines s0 s -> hist s p (year s0) = Some v -> rd s0 p v.
  Proof.
    intros (E1 & E2 & E3 & E4) H. destruct (E4 p) as [Ea|[Ea (w & Ew & Ee)]]; [left; congruence|right].
    split; [exact Ea|]. congruence.
  Qed.
  Lemma record_ev n s0 : forall ps s s', refines s0 s -> record C n ps s = Some s' ->
    refines s0 s' /\ (forall p v, hist s p (year s0) = Some v -> hist s' p (year s0) = Some v)
    /\ (forall p, In p ps -> exists v, hist s' p (year s0) = Some v /\ rd s0 p v).
  Proof.
    induction ps as [|p r IH]; intros s s' Hle H; cbn in H.
    { injection H as <-. repeat split; try apply Hle; auto. intros p []. }
    pose proof Hle as (E1 & _). rewrite E1 in H.
    destruct (hist s p (year s0)) as [v0|] eqn:Eh.
    - apply IH in H; [|exact Hle]. destruct H as (H1 & H2 & H3). split; [exact H1|]. split; [exact H2|].
      intros q [<-|Hq]; [|auto]. exists v0. split; [auto|]. eapply hist_refines_Some; [exact Hle|exact Eh].
    - destruct (getp C n s p) as [[v s1]|] eqn:Eg; [|discriminate].
      pose proof Eg as Eg0.
      apply (getp_ev n s0) in Eg; [|exact Hle]. destruct Eg as [Hrd Hs1].
      pose proof (put_refines s0 s1 p v Hs1 Hrd) as Hp.
      apply IH in H; [|exact Hp]. destruct H as (H1 & H2 & H3). split; [exact H1|].
      pose proof Hs1 as (Ey & _). rewrite Ey in H2. cbn in H2. split.
      + intros q w Hq. assert (Hqp : q <> p) by congruence.
        apply H2. rewrite upd_other by (left; exact Hqp).
        (* a value already recorded survives the read *)
        assert (Hrf : refines s s1) by (eapply getp_ev; [apply refines_refl|exact Eg0]).
        destruct Hrf as (_ & _ & _ & G4). rewrite E1 in G4. destruct (G4 q) as [G|[G _]]. all: congruence.
      + intros q [<-|Hq]; [|auto]. exists v. split; [|exact Hrd]. apply H2. apply upd_same.
  Qed.

  Lemma next_year_records_read n m s s' p v s1 :
    next_year C n s = Some s' -> In p (props C) -> getp C m s p = Some (v, s1) ->
    hist s' p (year s) = Some v.
  Proof.
    unfold next_year. intros H Hp Hg.
    destruct (record C n (props C) s) as [s2|] eqn:Er; [|discriminate]. injection H as <-.
    apply (record_ev n s) in Er; [|apply refines_refl]. destruct Er as (_ & _ & H3).
    destruct (H3 p Hp) as (w & Hw & Hrd). cbn. rewrite Hw. f_equal.
    apply (getp_ev m s) in Hg; [|apply refines_refl]. destruct Hg as [Hrd' _].
    eapply rd_det; eassumption.
  Qed.
End Recorded.

Section Complete.
  Context {V E : Type} (C : lclass V E).
  Notation lstate := (lstate V E).
  (** every elapsed year is in every history: no purity needed, only that no getter assigns
      or deletes another recorded property that is already recorded *)
  Inductive nosets (p : nat) : prog V E -> Prop :=
  | NRet v : nosets p (Ret v)
  | NGet q k : (forall v, nosets p (k v)) -> nosets p (Get q k)
  | NHist q y k : (forall v, nosets p (k v)) -> nosets p (HistAt q y k)
  | NEnv k : (forall e, nosets p (k e)) -> nosets p (EnvRd k)
  | NEnvW f k : nosets p k -> nosets p (EnvWr f k)
  | NYear k : (forall y, nosets p (k y)) -> nosets p (Year k)
  | NSet q v k : q <> p -> nosets p k -> nosets p (SetP q v k)
  | NPast q d k : (forall v, nosets p (k v)) -> nosets p (PastAt q d k)
  | NRaise : nosets p Raise.

  Definition holds (p : nat) (v : V) (s : lstate) : Prop := hist s p (year s) = Some v.

  Lemma put_holds p v s q w : holds p v s -> (q = p -> w = Some v) -> holds p v (put s q (year s) w).
  Proof.
    unfold holds. cbn. intros H Hw. destruct (Nat.eq_dec p q) as [->|Hne].
    - rewrite upd_same. auto.
    - rewrite upd_other by auto. exact H.
  Qed.
  Lemma setter_holds p v s q w : q <> p -> holds p v s -> holds p v (setter C s q w).
  Proof.
    intros Hq H. unfold setter. destruct (has_input C s q); [exact H|].
    destruct (fset C q).
    - unfold holds, with_env. cbn. rewrite upd_other by auto. exact H.
    - apply put_holds; [exact H|tauto].
  Qed.
  Lemma deleter_holds p v s q : q <> p -> holds p v s -> holds p v (deleter C s q).
  Proof.
    intros Hq H. unfold deleter. destruct (has_input C s q); [exact H|].
    destruct (fdel C q); unfold holds, with_env; cbn; rewrite upd_other by auto; exact H.
  Qed.
  Lemma frame_hist_year (s s' : lstate) : frame s s' -> year s' = year s.
  Proof. intros [H _]. exact H. Qed.

  Section P.
  Context (p : nat).
  Hypothesis Hns : forall q, nosets p (fget C q).

  Lemma get_with_holds r q s w s' v :
    (forall s g w s', nosets p g -> r s g = Some (w, s') -> holds p v s -> holds p v s') ->
    get_with C r q s = Some (w, s') -> holds p v s -> holds p v s'.
  Proof.
    intros Hr. unfold get_with. destruct (hist s q (year s)) eqn:Eh.
    - intro H; injection H as <- <-. auto.
    - destruct (r s (fget C q)) as [[v1 s1]|] eqn:Er; [|discriminate].
      intros H Hh. assert (Hqp : q <> p) by (unfold holds in Hh; congruence).
      apply Hr in Er; [|apply Hns|exact Hh]. injection H as <- <-.
      destruct (cached C q); [|exact Er]. apply put_holds; [exact Er|tauto].
  Qed.
  Lemma run_holds v : forall n s g w s', nosets p g -> run C n s g = Some (w, s') -> holds p v s -> holds p v s'.
  Proof.
    induction n as [|m IH]; intros s g w s'; [discriminate|].
    revert s. induction g as [v0|q k IHg|q y k IHg|k IHg|f k IHg|k IHg|q v0 k IHg|q d k IHg|]; intros s Hp H Hh;
      cbn in H; inversion Hp; subst.
    - injection H as <- <-. exact Hh.
    - destruct (get_with C (run C m) q s) as [[v1 s1]|] eqn:Eg; [|discriminate].
      eapply get_with_holds in Eg; [|exact IH|exact Hh]. eapply IHg; eauto.
    - destruct (get_with C (run C m) q s) as [[v1 s1]|] eqn:Eg; [|discriminate].
      eapply get_with_holds in Eg; [|exact IH|exact Hh]. eapply IHg; [|exact H|exact Eg]. auto.
    - eapply IHg; [|exact H|exact Hh]. auto.
    - eapply IHg; [assumption|exact H|]. exact Hh.
    - eapply IHg; [|exact H|exact Hh]. auto.
    - eapply IHg; [assumption|exact H|]. apply setter_holds; assumption.
    - eapply IHg; [|exact H|exact Hh]. auto.
    - discriminate.
  Qed.
  Lemma getp_holds n s q w s' v : getp C n s q = Some (w, s') -> holds p v s -> holds p v s'.
  Proof. apply get_with_holds. intros; eapply run_holds; eassumption. Qed.
  Lemma record_holds n v : forall ps s s', record C n ps s = Some s' -> holds p v s -> holds p v s'.
  Proof.
    induction ps as [|q r IH]; intros s s' H Hh; cbn in H; [injection H as <-; exact Hh|].
    destruct (hist s q (year s)) eqn:Eh; [eapply IH; eassumption|].
    destruct (getp C n s q) as [[w s1]|] eqn:Eg; [|discriminate].
    eapply IH; [exact H|]. pose proof (getp_holds _ _ _ _ _ _ Eg Hh) as H1.
    apply put_holds; [exact H1|]. intros ->. unfold holds in Hh. congruence.
  Qed.
  Lemma record_complete n : forall ps s s', record C n ps s = Some s' -> In p ps ->
    exists v, holds p v s'.
  Proof.
    induction ps as [|q r IH]; intros s s' H Hin; [destruct Hin|]. cbn in H.
    destruct (hist s q (year s)) as [v0|] eqn:Eh.
    - destruct Hin as [->|Hin]; [|eapply IH; eassumption]. exists v0. eapply record_holds; eassumption.
    - destruct (getp C n s q) as [[w s1]|] eqn:Eg; [|discriminate].
      destruct Hin as [->|Hin]; [|eapply IH; eassumption].
      exists w. eapply record_holds; [exact H|]. unfold holds. cbn. apply upd_same.
  Qed.
  Lemma next_year_complete n s s' : next_year C n s = Some s' -> In p (props C) ->
    exists v, hist s' p (year s) = Some v.
  Proof.
    unfold next_year. intros H Hp. destruct (record C n (props C) s) as [s1|] eqn:Er; [|discriminate].
    injection H as <-. cbn. pose proof (frame_record _ _ _ _ _ Er) as [Ey _].
    apply record_complete in Er; [|exact Hp]. destruct Er as [v Hv]. exists v. unfold holds in Hv. congruence.
  Qed.
  Lemma steps_complete n : forall os s s' y, steps C n s os = Some s' -> In p (props C) ->
    year s <= y < year s' -> exists v, hist s' p y = Some v.
  Proof.
    induction os as [|o r IH]; intros s s' y H Hp Hy; cbn in H; [injection H as <-; lia|].
    destruct (step C n s o) as [s1|] eqn:Es; [|discriminate].
    pose proof (step_year _ _ _ _ _ Es) as Ey.
    destruct (is_next o) eqn:En.
    - destruct o; try discriminate. cbn in Es.
      destruct (Z.eq_dec y (year s)) as [->|Hne]; [|eapply IH; [exact H|exact Hp|lia]].
      destruct (next_year_complete _ _ _ Es Hp) as [v Hv].
      pose proof (steps_past _ _ _ _ _ H) as [_ Hpast]. exists v. rewrite Hpast by lia. exact Hv.
    - eapply IH; [exact H|exact Hp|lia].
  Qed.

  (** ** C17 *)
  Definition unrelated (o : op V E) : Prop :=
    match o with OSet q _ | ODel q => q <> p | OClear | ONext => False | _ => True end.
  Lemma steps_holds n v : forall os s s', Forall unrelated os -> steps C n s os = Some s' ->
    holds p v s -> holds p v s'.
  Proof.
    induction os as [|o r IH]; intros s s' Hf H Hh; cbn in H; [injection H as <-; exact Hh|].
    inversion Hf as [|? ? Ho Hr]; subst.
    destruct (step C n s o) as [s1|] eqn:Es; [|discriminate]. eapply IH; [exact Hr|exact H|]. clear H.
    destruct o; cbn in Es, Ho.
    - destruct (getp C n s p0) as [[w s2]|] eqn:Eg; [|discriminate]. injection Es as <-. eapply getp_holds; eassumption.
    - destruct (getp C n s p0) as [[w s2]|] eqn:Eg; [|discriminate]. injection Es as <-. eapply getp_holds; eassumption.
    - injection Es as <-. apply setter_holds; assumption.
    - injection Es as <-. apply deleter_holds; assumption.
    - destruct Ho.
    - injection Es as <-. exact Hh.
    - destruct Ho.
  Qed.
  Lemma cached_stable n m os s v s1 s2 :
    cached C p = true -> getp C n s p = Some (v, s1) -> Forall unrelated os ->
    steps C n s1 os = Some s2 -> getp C m s2 p = Some (v, s2).
  Proof.
    intros Hc Hg Hf Hs. assert (H1 : holds p v s1).
    { unfold getp, get_with in Hg. destruct (hist s p (year s)) as [v0|] eqn:Eh.
      - injection Hg as <- <-. exact Eh.
      - destruct (run C n s (fget C p)) as [[w s3]|]; [|discriminate]. rewrite Hc in Hg.
        injection Hg as <- <-. unfold holds. cbn. apply upd_same. }
    pose proof (steps_holds _ _ _ _ _ Hf Hs H1) as H2. unfold getp, get_with. rewrite H2. reflexivity.
  Qed.
  End P.

  Lemma deleter_none p s : has_input C s p = false -> hist (deleter C s p) p (year s) = None.
  Proof.
    intro H. unfold deleter. rewrite H. destruct (fdel C p); cbn; apply upd_same.
  Qed.
  Lemma deleter_none_stable p q s : hist s p (year s) = None -> hist (deleter C s q) p (year s) = None.
  Proof.
    intro H. unfold deleter. destruct (has_input C s q); [exact H|].
    destruct (fdel C q); cbn; unfold upd; destruct (_ && _)%bool; auto.
  Qed.
  Lemma clear_none p : forall l s, inputs C p (year s) = None -> (In p l \/ hist s p (year s) = None) ->
    hist (fold_left (deleter C) l s) p (year s) = None.
  Proof.
    induction l as [|q r IH]; intros s Hi Hor; cbn; [destruct Hor as [[]|H]; exact H|].
    pose proof (frame_deleter C s q) as [Ey _]. rewrite <- Ey. apply IH; [rewrite Ey; exact Hi|].
    rewrite Ey. destruct Hor as [[->|Hin]|H].
    - right. apply deleter_none. unfold has_input. rewrite Hi. reflexivity.
    - left. exact Hin.
    - right. apply deleter_none_stable. exact H.
  Qed.
  (** after clear_cache, the read runs the getter again *)
  Lemma clear_recomputes n p s v s' :
    In p (props C) -> cached C p = true -> inputs C p (year s) = None ->
    getp C n (clear_cache C s) p = Some (v, s') ->
    exists s1, run C n (clear_cache C s) (fget C p) = Some (v, s1).
  Proof.
    intros Hp Hc Hi. unfold getp, get_with.
    destruct (frame_clear C s) as [Ey _]. rewrite Ey.
    unfold clear_cache at 1. rewrite clear_none; [|exact Hi|left; apply filter_In; auto].
    destruct (run C n (clear_cache C s) (fget C p)) as [[w s1]|]; [|discriminate].
    intro H. exists s1. congruence.
  Qed.
  Lemma deleted_recomputes n p s v s' :
    inputs C p (year s) = None ->
    getp C n (deleter C s p) p = Some (v, s') ->
    exists s1, run C n (deleter C s p) (fget C p) = Some (v, s1).
  Proof.
    intros Hi. unfold getp, get_with.
    destruct (frame_deleter C s p) as [Ey _]. rewrite Ey.
    rewrite deleter_none by (unfold has_input; rewrite Hi; reflexivity).
    destruct (run C n (deleter C s p) (fget C p)) as [[w s1]|]; [|discriminate].
    intro H. exists s1. congruence.
  Qed.
  Lemma history_agrees n s p v s' : getp C n s p = Some (v, s') ->
    history_at C n s p (year s) = Some (Some v).
  Proof. intro H. unfold history_at. rewrite H, Z.eqb_refl. reflexivity. Qed.
End Complete.

