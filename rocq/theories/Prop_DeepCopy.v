(** Property C93: running a forecast leaves the people, accounts and debts it is given alone. *)
From Verif Require Import Base BaseFacts DeepCopyModel DeepCopyProofs.
From Coq Require Import Lia Arith.

(** ** Specification *)
(** [y] can be reached from [x] through parts *)
Inductive reach (h : heap) (x : nat) : nat -> Prop :=
| reach_here : reach h x x
| reach_part : forall y z c, reach h x y -> nth_error h y = Some c -> In z (c_parts c) -> reach h x z.
Definition mutable (h : heap) (x : nat) : Prop := exists c, nth_error h x = Some c /\ c_kind c <> Atomic.
(** atoms have no parts (what a function captures is not a part: see DeepCopyModel) *)
Definition atoms_plain (h : heap) : Prop := forall x c, nth_error h x = Some c -> c_kind c = Atomic -> c_parts c = [].
(** [R] relates objects of [h] to objects of [h'] of the same class, part by part *)
Definition pairing (R : nat -> nat -> Prop) (h h' : heap) : Prop := forall x y, R x y ->
  exists c c', nth_error h x = Some c /\ nth_error h' y = Some c' /\ c_kind c = c_kind c' /\ c_tag c = c_tag c' /\ Forall2 R (c_parts c) (c_parts c').
(** as structures, [x] in [h] and [y] in [h'] are the same *)
Definition same_structure (h : heap) (x : nat) (h' : heap) (y : nat) : Prop := exists R, R x y /\ pairing R h h'.
(** no set contains itself through sets alone (impossible in Python) *)
Definition no_set_cycle (h : heap) : Prop := exists rank bound, (forall x, (rank x <= bound)%nat) /\
  forall x c k ck, nth_error h x = Some c -> c_kind c = Late -> In k (c_parts c) -> nth_error h k = Some ck -> c_kind ck = Late -> (rank k < rank x)%nat.
Definition given (h : heap) (p a d : nat) : Prop := closed h /\ atoms_plain h /\ (p < Datatypes.length h)%nat /\ (a < Datatypes.length h)%nat /\ (d < Datatypes.length h)%nat.
Definition input (h : heap) (p a d z : nat) : Prop := reach h p z \/ reach h a z \/ reach h d z.

Lemma relm_pairing : forall h h' m, atoms_plain h -> closed h -> Post h h [] h' m m -> pairing (relm h m) h h'.
Proof.
  intros h h' m Ap Cl P x y [I|[<- (c & E & K)]].
  - destruct (p_new _ _ _ _ _ _ P x y I) as (_ & c & c' & E & E' & F). destruct (i_mem _ _ _ (p_inv _ _ _ _ _ _ P) x y I) as (_ & _ & d & d' & D & D' & A1 & A2 & _).
    rewrite E in D. injection D as <-. rewrite E' in D'. injection D' as <-. exists c, c'. auto.
  - exists c, c. split; [exact E|]. assert (L : (x < Datatypes.length h)%nat) by (apply nth_error_Some; congruence).
    split; [rewrite (p_old _ _ _ _ _ _ P) by exact L; exact E|]. split; [reflexivity|]. split; [reflexivity|]. rewrite (Ap x c E K). constructor.
Qed.
(** ** C93 *)
(** The copies are the same structures as the originals; all three copies together map every object
    to one copy and different objects to different copies (so who owns what, who is whose spouse and which accounts share
    a limit is preserved between the three); the originals themselves are not changed by copying.
    (For sets only: the same set met again while its own elements are being copied may get two copies.) *)
Theorem C93_copies_correspond : forall fuel h p a d h' m p' a' d', given h p a d ->
  copy_arguments fuel h p a d = Some (h', m, (p', a', d')) ->
  (forall i, (i < Datatypes.length h)%nat -> nth_error h' i = nth_error h i) /\
  exists R, R p p' /\ R a a' /\ R d d' /\ pairing R h h' /\
    (forall x y y', eager h x -> R x y -> R x y' -> y = y') /\ (forall x x' y, R x y -> R x' y -> x = x').
Proof.
  intros fuel h p a d h' m p' a' d' (Cl & Ap & Lp & La & Ld) H.
  destruct (copies_spec h Cl fuel p a d h' m p' a' d' Lp La Ld H) as (P & Rp & Ra & Rd). split; [exact (p_old _ _ _ _ _ _ P)|].
  exists (relm h m). split; [exact Rp|]. split; [exact Ra|]. split; [exact Rd|]. split; [now apply relm_pairing|].
  pose proof (p_inv _ _ _ _ _ _ P) as I. assert (At : forall x, atomic h x -> (x < Datatypes.length h)%nat) by (intros x (c & E & _); apply nth_error_Some; congruence).
  split.
  - intros x y y' E [J|[<- J]] [J'|[<- J']]; auto.
    + exact (i_eag _ _ _ I x y y' J J' E).
    + destruct E as (c & E1 & E2), J' as (c2 & E3 & E4). rewrite E1 in E3. injection E3 as <-. congruence.
    + destruct E as (c & E1 & E2), J as (c2 & E3 & E4). rewrite E1 in E3. injection E3 as <-. congruence.
  - intros x x' y [J|[<- J]] [J'|[<- J']]; auto.
    + assert (ND := i_dup _ _ _ I). clear -J J' ND. induction m as [|[u v] m IH]; [destruct J|]. cbn in ND. inversion ND as [|? ? N1 N2]; subst.
      destruct J as [J|J], J' as [J'|J'].
      * congruence.
      * injection J as -> ->. exfalso. apply N1. apply in_map_iff. exists (x', y). auto.
      * injection J' as -> ->. exfalso. apply N1. apply in_map_iff. exists (x, y). auto.
      * exact (IH J J' N2).
    + destruct (i_mem _ _ _ I x x' J) as (_ & B & _). specialize (At x' J'). lia.
    + destruct (i_mem _ _ _ I x' x J') as (_ & B & _). specialize (At x J). lia.
Qed.
Print Assumptions C93_copies_correspond.
Lemma reach_pairing : forall R h h' x y z, pairing R h h' -> R x y -> reach h' y z -> exists w, R w z /\ reach h x w.
Proof.
  intros R h h' x y z P Rxy H. induction H as [|u v c H IH E I]; [exists x; split; [exact Rxy|constructor]|].
  destruct IH as (w & Rw & Hw). destruct (P w u Rw) as (cw & cu & E1 & E2 & _ & _ & F). rewrite E in E2. injection E2 as <-.
  assert (G : exists k, In k (c_parts cw) /\ R k v).
  { clear -F I. induction F as [|k k' l l' Rk F IH]; [destruct I|]. destruct I as [->|I]; [exists k; split; [now left|exact Rk]|]. destruct (IH I) as (j & J1 & J2). exists j. split; [now right|exact J2]. }
  destruct G as (k & K1 & K2). exists k. split; [exact K2|]. econstructor; eauto.
Qed.
Lemma copies_new : forall fuel h p a d h' m p' a' d', given h p a d -> copy_arguments fuel h p a d = Some (h', m, (p', a', d')) ->
  forall r z, r = p' \/ r = a' \/ r = d' -> reach h' r z -> (Datatypes.length h <= z)%nat \/ atomic h z.
Proof.
  intros fuel h p a d h' m p' a' d' (Cl & Ap & Lp & La & Ld) H r z Hr Hz.
  destruct (copies_spec h Cl fuel p a d h' m p' a' d' Lp La Ld H) as (P & Rp & Ra & Rd).
  assert (G : exists x, relm h m x r) by (destruct Hr as [->|[->| ->]]; eauto). destruct G as (x & Rx).
  destruct (reach_pairing _ h h' x r z (relm_pairing h h' m Ap Cl P) Rx Hz) as (w & [J|[<- J]] & _); [|now right]. left. exact (proj1 (p_new _ _ _ _ _ _ P w z J)).
Qed.
(** Everything mutable that can be reached from the copies is new. *)
Theorem C93_copies_are_new : forall fuel h p a d h' m p' a' d', given h p a d ->
  copy_arguments fuel h p a d = Some (h', m, (p', a', d')) ->
  forall z, input h' p' a' d' z -> mutable h' z -> nth_error h z = None.
Proof.
  intros fuel h p a d h' m p' a' d' G H z Hz M. apply nth_error_None.
  assert (S : (Datatypes.length h <= z)%nat \/ atomic h z) by (destruct Hz as [Hz|[Hz|Hz]]; refine (copies_new _ _ _ _ _ _ _ _ _ _ G H _ z _ Hz); tauto).
  destruct S as [S|(c & E & K)]; [exact S|]. exfalso. destruct M as (c' & E' & K').
  destruct (C93_copies_correspond _ _ _ _ _ _ _ _ _ _ G H) as (O & _). rewrite O in E' by (apply nth_error_Some; congruence). rewrite E in E'. injection E' as <-. congruence.
Qed.
Print Assumptions C93_copies_are_new.
(** Copying always comes to an end: some recursion depth suffices (Python's own limit on recursion is
    not modelled). *)
Theorem C93_copying_terminates : forall h p a d, given h p a d -> no_set_cycle h -> exists fuel r, copy_arguments fuel h p a d = Some r.
Proof.
  intros h p a d (Cl & _ & Lp & La & Ld) (rank & b & Hb & Hr). exact (copies_total h Cl rank b Hb Hr p a d Lp La Ld).
Qed.
Print Assumptions C93_copying_terminates.

(** ** What the forecast does with the copies *)
Record safe (O : nat -> Prop) (h0 : heap) (s : machine) : Prop := {
  s_len : (Datatypes.length h0 <= Datatypes.length (k_heap s))%nat;
  s_same : forall x, O x -> nth_error (k_heap s) x = nth_error h0 x;
  s_atom : forall x, atomic h0 x -> nth_error (k_heap s) x = nth_error h0 x;
  s_out : forall r x, In r (k_known s) -> reach (k_heap s) r x -> ~ O x;
  s_range : forall r, In r (k_known s) -> (r < Datatypes.length (k_heap s))%nat;
  s_closed : closed (k_heap s);
  s_plain : atoms_plain (k_heap s) }.
Lemma knows_in : forall s l, knows s l = true -> forall x, In x l -> In x (k_known s).
Proof.
  intros s l H x I. unfold knows in H. rewrite forallb_forall in H. specialize (H x I). apply existsb_exists in H. destruct H as (y & J & E). apply Nat.eqb_eq in E. now subst.
Qed.
Lemma act_safe : forall (O : nat -> Prop) (h0 : heap) a s, (forall x, O x -> (x < Datatypes.length h0)%nat) -> safe O h0 s -> safe O h0 (act s a).
Proof.
  intros O h0 a s OB S. destruct a as [x i|k t parts|x t parts]; cbn [act].
  - destruct (knows s [x]) eqn:K; [|exact S]. destruct (nth_error (k_heap s) x) as [c|] eqn:E; [|exact S]. destruct (nth_error (c_parts c) i) as [y|] eqn:E2; [|exact S].
    pose proof (knows_in _ _ K x (or_introl eq_refl)) as Kx. destruct S as [S1 S2 S3 S4 S5 S6 S7]. assert (Iy : In y (c_parts c)) by (eapply nth_error_In; eauto).
    constructor; auto.
    + intros r z [<-|I] Hz; [|exact (S4 r z I Hz)]. cbn [k_heap] in Hz. apply (S4 x z Kx). clear -E Iy Hz. induction Hz as [|u v c' Hz IH E' I']; [econstructor; [constructor| |]; eauto|econstructor; eauto].
    + intros r [<-|I]; [|exact (S5 r I)]. cbn [k_heap]. specialize (S6 x c E). rewrite Forall_forall in S6. now apply S6.
  - destruct (knows s parts) eqn:K; [|exact S]. pose proof (knows_in _ _ K) as Kp. destruct S as [S1 S2 S3 S4 S5 S6 S7]. set (h := k_heap s) in *. set (c := {| c_kind := k; c_tag := t; c_parts := match k with Atomic => [] | _ => parts end |}).
    assert (Ks : forall z, In z (c_parts c) -> In z (k_known s)) by (intros z; cbn; destruct k; [intros []| |]; apply Kp).
    assert (Old : forall x, (x < Datatypes.length h)%nat -> nth_error (h ++ [c]) x = nth_error h x) by (intros x L; now rewrite nth_error_app1).
    assert (LN : Datatypes.length (h ++ [c]) = S (Datatypes.length h)) by (rewrite app_length; cbn; lia).
    constructor; cbn [k_heap k_known].
    + lia.
    + intros x Ox. specialize (OB x Ox). rewrite Old by lia. now apply S2.
    + intros x Ax. pose proof Ax as (c0 & E0 & _). assert ((x < Datatypes.length h0)%nat) by (apply nth_error_Some; congruence). rewrite Old by lia. now apply S3.
    + intros r x I Hx. assert (C : x = Datatypes.length h \/ exists r', In r' (k_known s) /\ reach h r' x).
      { induction Hx as [|u v c' Hx IH E' I'].
        - destruct I as [<-|I]; [now left|]. right. exists r. split; [exact I|constructor].
        - destruct IH as [->|(r' & I1 & I2)].
          + rewrite snoc_nth, Nat.ltb_irrefl, Nat.eqb_refl in E'. injection E' as <-. right. exists v. split; [now apply Ks|constructor].
          + rewrite snoc_nth in E'. destruct (Nat.ltb_spec u (Datatypes.length h)).
            * right. exists r'. split; [exact I1|]. econstructor; eauto.
            * destruct (Nat.eqb_spec u (Datatypes.length h)); [|discriminate]. injection E' as <-. right. exists v. split; [now apply Ks|constructor]. }
      destruct C as [->|(r' & I1 & I2)]; [|exact (S4 r' x I1 I2)]. intros Ox. specialize (OB _ Ox). lia.
    + intros r [<-|I]; [lia|]. specialize (S5 r I). lia.
    + intros i c' E. rewrite snoc_nth in E. apply Forall_forall. intros z Iz. rewrite LN. destruct (Nat.ltb_spec i (Datatypes.length h)).
      * specialize (S6 i c' E). rewrite Forall_forall in S6. specialize (S6 z Iz). fold h in S6. lia.
      * destruct (Nat.eqb i (Datatypes.length h)); [|discriminate]. injection E as <-. specialize (S5 z (Ks z Iz)). lia.
    + intros i c' E Ki. rewrite snoc_nth in E. destruct (Nat.ltb_spec i (Datatypes.length h)); [exact (S7 i c' E Ki)|].
      destruct (Nat.eqb i (Datatypes.length h)); [|discriminate]. injection E as <-. cbn in *. subst k. reflexivity.
  - destruct (knows s (x :: parts)) eqn:K; [|exact S]. destruct (nth_error (k_heap s) x) as [c|] eqn:E; [|exact S].
    pose proof (knows_in _ _ K) as Kp.
    assert (G : c_kind c <> Atomic -> safe O h0 {| k_heap := put (k_heap s) x {| c_kind := c_kind c; c_tag := t; c_parts := parts |}; k_known := k_known s |}).
    { intros NA. destruct S as [S1 S2 S3 S4 S5 S6 S7]. set (h := k_heap s) in *. assert (Lx : (x < Datatypes.length h)%nat) by (apply nth_error_Some; congruence).
      assert (Nx : ~ O x) by (apply (S4 x x (Kp x (or_introl eq_refl))); constructor).
      constructor; cbn [k_heap k_known]; rewrite ?put_length; auto.
      - intros z Oz. rewrite put_nth by exact Lx. destruct (Nat.eqb_spec z x) as [->|_]; [contradiction|now apply S2].
      - intros z Az. rewrite put_nth by exact Lx. destruct (Nat.eqb_spec z x) as [->|_]; [|now apply S3]. exfalso. specialize (S3 x Az). destruct Az as (c0 & E0 & K0). rewrite E, E0 in S3. injection S3 as ->. congruence.
      - intros r z I Hz. assert (C : exists r', In r' (k_known s) /\ reach h r' z).
        { induction Hz as [|u v c' Hz IH E' I']; [exists r; split; [exact I|constructor]|]. rewrite put_nth in E' by exact Lx. destruct (Nat.eqb_spec u x) as [->|_].
          - injection E' as <-. cbn in I'. exists v. split; [apply Kp; now right|constructor].
          - destruct IH as (r' & I1 & I2). exists r'. split; [exact I1|]. econstructor; eauto. }
        destruct C as (r' & I1 & I2). exact (S4 r' z I1 I2).
      - intros i c' Ei. rewrite put_nth in Ei by exact Lx. destruct (Nat.eqb_spec i x) as [->|_].
        + injection Ei as <-. cbn [c_parts]. apply Forall_forall. intros z Iz. rewrite put_length. exact (S5 z (Kp z (or_intror Iz))).
        + rewrite put_length. exact (S6 i c' Ei).
      - intros i c' Ei Ki. rewrite put_nth in Ei by exact Lx. destruct (Nat.eqb_spec i x) as [->|_]; [injection Ei as <-; cbn in Ki; congruence|exact (S7 i c' Ei Ki)]. }
    destruct (c_kind c); [exact S| |]; apply G; discriminate.
Qed.
Lemma acts_safe : forall (O : nat -> Prop) (h0 : heap) l s, (forall x, O x -> (x < Datatypes.length h0)%nat) -> safe O h0 s -> safe O h0 (acts s l).
Proof. intros O h0 l. unfold acts. induction l as [|a l IH]; intros s OB S; [exact S|]. cbn. apply IH; [exact OB|]. now apply act_safe. Qed.
Lemma reach_bound : forall h x z, closed h -> (x < Datatypes.length h)%nat -> reach h x z -> (z < Datatypes.length h)%nat.
Proof. intros h x z Cl L H. induction H as [|u v c H IH E I]; [exact L|]. specialize (Cl u c E). rewrite Forall_forall in Cl. now apply Cl. Qed.
Lemma reach_frame : forall h h' x z, closed h -> (x < Datatypes.length h)%nat -> (forall i, (i < Datatypes.length h)%nat -> nth_error h' i = nth_error h i) -> reach h' x z -> reach h x z.
Proof.
  intros h h' x z Cl L O H. induction H as [|u v c H IH E I]; [constructor|]. rewrite O in E by exact (reach_bound h x u Cl L IH). econstructor; eauto.
Qed.
Lemma copied_closed : forall h h' m, closed h -> Post h h [] h' m m -> closed h'.
Proof.
  intros h h' m Cl P i c E. pose proof (i_cov _ _ _ (p_inv _ _ _ _ _ _ P)) as Cov. apply Forall_forall. intros z Iz. assert (Li : (i < Datatypes.length h')%nat) by (apply nth_error_Some; congruence).
  pose proof (p_len _ _ _ _ _ _ P) as LL. destruct (Nat.lt_ge_cases i (Datatypes.length h)) as [L|L].
  - rewrite (p_old _ _ _ _ _ _ P) in E by exact L. specialize (Cl i c E). rewrite Forall_forall in Cl. specialize (Cl z Iz). lia.
  - destruct (Cov i (conj L Li)) as (x & J). destruct (p_new _ _ _ _ _ _ P x i J) as (_ & c1 & c2 & E1 & E2 & F). rewrite E in E2. injection E2 as <-.
    assert (G : exists k, relm h m k z). { clear -F Iz. induction F as [|k k' l l' Rk F IH]; [destruct Iz|]. destruct Iz as [->|Iz]; eauto. }
    destruct G as (k & [J'|[-> (ca & Ea & _)]]); [destruct (i_mem _ _ _ (p_inv _ _ _ _ _ _ P) k z J') as (_ & B & _); lia|]. assert ((z < Datatypes.length h)%nat) by (apply nth_error_Some; congruence). lia.
Qed.

(** the objects the forecaster shares with the forecast (scenario, strategies, tax treatment) exist and lead to no
    mutable object that is also part of the people, accounts or debts *)
Definition separate (h : heap) (p a d : nat) (shared : list nat) : Prop := forall r, In r shared ->
  (r < Datatypes.length h)%nat /\ forall z, reach h r z -> input h p a d z -> ~ mutable h z.
Lemma run_safe : forall fuel h p a d shared program h' m r, given h p a d -> separate h p a d shared ->
  run_forecast fuel h p a d shared program = Some (h', m, r) ->
  (forall z, input h p a d z -> nth_error h' z = nth_error h z) /\ closed h' /\ atoms_plain h' /\ (Datatypes.length h <= Datatypes.length h')%nat.
Proof.
  intros fuel h p a d shared program h' m r G Sh H. unfold run_forecast in H.
  destruct (copy_arguments fuel h p a d) as [[[h1 m1] [[p1 a1] d1]]|] eqn:E; [|discriminate]. injection H as <- <- <-.
  pose proof G as (Cl & Ap & Lp & La & Ld). destruct (copies_spec h Cl fuel p a d h1 m1 p1 a1 d1 Lp La Ld E) as (P & Rp & Ra & Rd).
  pose proof (p_len _ _ _ _ _ _ P) as LL. pose proof (p_inv _ _ _ _ _ _ P) as I.
  set (O := fun z => input h p a d z /\ mutable h z).
  assert (OB : forall x, O x -> (x < Datatypes.length h)%nat) by (intros x (_ & c & Ex & _); apply nth_error_Some; congruence).
  assert (OB1 : forall x, O x -> (x < Datatypes.length h1)%nat) by (intros x Ox; specialize (OB x Ox); lia).
  set (s := {| k_heap := h1; k_known := p1 :: a1 :: d1 :: shared |}).
  assert (RB : forall x y, relm h m1 x y -> (y < Datatypes.length h1)%nat).
  { intros x y [J|[-> (c & Ec & _)]]; [exact (proj2 (proj1 (proj2 (i_mem _ _ _ I x y J))))|]. assert ((y < Datatypes.length h)%nat) by (apply nth_error_Some; congruence). lia. }
  assert (S : safe O h1 s).
  { constructor; cbn [s k_heap k_known]; auto.
    - intros r x Ir Hx (In1 & Mx).
      assert (New : r = p1 \/ r = a1 \/ r = d1 -> False).
      { intros Hr. destruct (copies_new _ _ _ _ _ _ _ _ _ _ G E r x Hr Hx) as [L|(c & Ec & Kc)].
        - destruct Mx as (c & Ec & _). assert ((x < Datatypes.length h)%nat) by (apply nth_error_Some; congruence). lia.
        - destruct Mx as (c' & Ec' & Kc'). rewrite Ec in Ec'. injection Ec' as <-. congruence. }
      destruct Ir as [<-|[<-|[<-|Ir]]]; [apply New; auto|apply New; auto|apply New; auto|].
      destruct (Sh r Ir) as (Lr & Nr). apply (Nr x); [|exact In1|exact Mx]. apply (reach_frame h h1 r x Cl Lr); [exact (p_old _ _ _ _ _ _ P)|exact Hx].
    - intros r [<-|[<-|[<-|Ir]]]; eauto. destruct (Sh r Ir). lia.
    - exact (copied_closed h h1 m1 Cl P).
    - intros i c Ei Ki. destruct (Nat.lt_ge_cases i (Datatypes.length h)) as [L|L].
      + rewrite (p_old _ _ _ _ _ _ P) in Ei by exact L. exact (Ap i c Ei Ki).
      + assert (Li : (i < Datatypes.length h1)%nat) by (apply nth_error_Some; congruence). destruct (i_cov _ _ _ I i (conj L Li)) as (x & J).
        destruct (i_mem _ _ _ I x i J) as (_ & _ & c1 & c2 & _ & E2 & A1 & _ & A3). rewrite Ei in E2. injection E2 as <-. congruence. }
  pose proof (acts_safe O h1 program s OB1 S) as [T1 T2 T3 T4 T5 T6 T7].
  split; [|split; [exact T6|split; [exact T7|lia]]].
  intros z Hz. assert (Lz : (z < Datatypes.length h)%nat) by (destruct Hz as [Hz|[Hz|Hz]]; [exact (reach_bound h p z Cl Lp Hz)|exact (reach_bound h a z Cl La Hz)|exact (reach_bound h d z Cl Ld Hz)]).
  rewrite <- (p_old _ _ _ _ _ _ P z Lz). assert (X : exists c, nth_error h z = Some c) by (destruct (nth_error h z) eqn:Ez; [eauto|apply nth_error_None in Ez; lia]). destruct X as (c & Ez).
  destruct (c_kind c) eqn:Kc; [apply T3; exists c; rewrite (p_old _ _ _ _ _ _ P z Lz); auto|apply T2; split; [exact Hz|]; exists c; split; [exact Ez|congruence]|apply T2; split; [exact Hz|]; exists c; split; [exact Ez|congruence]].
Qed.
(** Running a forecast changes none of the people, accounts and debts it was given, nor anything they refer to,
    whatever the forecast does with the copies: provided the strategies, scenario and tax treatment the
    forecaster holds lead to none of those objects. *)
Theorem C93_inputs_untouched_partial : forall fuel h p a d shared program h' m r, given h p a d -> separate h p a d shared ->
  run_forecast fuel h p a d shared program = Some (h', m, r) -> forall z, input h p a d z -> nth_error h' z = nth_error h z.
Proof. intros fuel h p a d shared program h' m r G Sh H. exact (proj1 (run_safe _ _ _ _ _ _ _ _ _ _ G Sh H)). Qed.
Print Assumptions C93_inputs_untouched_partial.
(** So a second forecast from the same arguments starts from the same people, accounts and debts: its copies correspond,
    object by object, to the arguments as they were before the first. *)
Theorem C93_repeatable : forall fuel fuel2 h p a d shared program h' m r h2 m2 p2 a2 d2, given h p a d -> separate h p a d shared ->
  run_forecast fuel h p a d shared program = Some (h', m, r) -> copy_arguments fuel2 h' p a d = Some (h2, m2, (p2, a2, d2)) ->
  exists R, R p p2 /\ R a a2 /\ R d d2 /\ pairing R h h2 /\
    (forall x y y', eager h x -> R x y -> R x y' -> y = y') /\ (forall x x' y, R x y -> R x' y -> x = x').
Proof.
  intros fuel fuel2 h p a d shared program h' m r h2 m2 p2 a2 d2 G Sh H H2.
  destruct (run_safe _ _ _ _ _ _ _ _ _ _ G Sh H) as (U & Cl & Ap & LL). pose proof G as (Cl0 & Ap0 & Lp & La & Ld).
  assert (G2 : given h' p a d) by (repeat split; auto; lia).
  destruct (C93_copies_correspond _ _ _ _ _ _ _ _ _ _ G2 H2) as (_ & R & Rp & Ra & Rd & PR & F1 & F2).
  exists (fun x y => R x y /\ input h p a d x).
  split; [split; [exact Rp|left; constructor]|]. split; [split; [exact Ra|right; left; constructor]|]. split; [split; [exact Rd|right; right; constructor]|].
  split; [|split].
  - intros x y (Rxy & Ix). destruct (PR x y Rxy) as (c & c' & E & E' & K & T & F). rewrite (U x Ix) in E. exists c, c'. split; [exact E|]. split; [exact E'|]. split; [exact K|]. split; [exact T|].
    assert (Ip : forall z, In z (c_parts c) -> input h p a d z) by (intros z Iz; destruct Ix as [Ix|[Ix|Ix]]; [left|right; left|right; right]; econstructor; eauto).
    clear -F Ip. induction F as [|u v l l' Ruv F IH]; constructor; [split; [exact Ruv|apply Ip; now left]|]. apply IH. intros z Iz. apply Ip. now right.
  - intros x y y' Ex (R1 & Ix) (R2 & _). apply (F1 x y y'); auto. destruct Ex as (c & Ec & Kc). exists c. rewrite (U x Ix). auto.
  - intros x x' y (R1 & _) (R2 & _). exact (F2 x x' y R1 R2).
Qed.
Print Assumptions C93_repeatable.

(** ** Examples *)
(** two people married to each other, each holding the set of their accounts; the first also refers to a tax treatment
    with a cache (a dict); a set of people, a set of accounts (each referring to its owner) and an empty set of debts *)
Definition couple : heap := [
  {| c_kind := Atomic; c_tag := 7; c_parts := [] |};             (* 0: a number *)
  {| c_kind := Eager; c_tag := 1; c_parts := [0; 0] |};          (* 1: the tax treatment's cache *)
  {| c_kind := Eager; c_tag := 2; c_parts := [1] |};             (* 2: the tax treatment *)
  {| c_kind := Eager; c_tag := 3; c_parts := [4; 2; 5] |};       (* 3: first person: spouse, tax treatment, accounts *)
  {| c_kind := Eager; c_tag := 3; c_parts := [3; 0; 6] |};       (* 4: second person *)
  {| c_kind := Late; c_tag := 4; c_parts := [7] |};              (* 5: first person's accounts *)
  {| c_kind := Late; c_tag := 4; c_parts := [] |};               (* 6 *)
  {| c_kind := Eager; c_tag := 5; c_parts := [3; 0] |};          (* 7: an account: owner, balance *)
  {| c_kind := Late; c_tag := 4; c_parts := [3; 4] |};           (* 8: people *)
  {| c_kind := Late; c_tag := 4; c_parts := [7] |};              (* 9: accounts *)
  {| c_kind := Late; c_tag := 4; c_parts := [] |} ]%nat.         (* 10: debts *)
Example C93_sat :
  given couple 8 9 10 /\ no_set_cycle couple /\ separate couple 8 9 10 [0%nat] /\
  (exists h' m r, run_forecast 20 couple 8 9 10 [0%nat] [Look 19 0; Change 19 77 [19]]%nat = Some (h', m, r) /\ h' <> fst (fst (match copy_arguments 20 couple 8 9 10 with Some x => x | None => (couple, [], (0, 0, 0)) end))%nat).
Proof.
  split; [|split; [|split]].
  - split; [|split; [|cbn; lia]].
    + intros i c E. do 11 (destruct i as [|i]; [injection E as <-; cbn; repeat constructor; lia|]). cbn in E. now destruct i.
    + intros i c E K. do 11 (destruct i as [|i]; [injection E as <-; cbn in *; try discriminate; reflexivity|]). cbn in E. now destruct i.
  - exists (fun _ => 0%nat), 0%nat. split; [lia|]. intros x c k ck E K I E2 K2. exfalso.
    do 11 (destruct x as [|x]; [injection E as <-; cbn in K, I; try discriminate; repeat destruct I as [<-|I]; try destruct I; cbn in E2; injection E2 as <-; discriminate|]). cbn in E. now destruct x.
  - intros r [<-|[]]. split; [cbn; lia|]. intros z Hz _ (c & E & K). assert (z = 0%nat).
    { clear -Hz. induction Hz as [|u v c Hz IH E I]; [reflexivity|]. subst u. injection E as <-. destruct I. }
    subst z. injection E as <-. now apply K.
  - vm_compute. do 3 eexists. split; [reflexivity|]. discriminate.
Qed.
(** Without that proviso the claim fails: a person's tax treatment that is also the forecaster's own (forecaster.py:241,
    263: self.tax_treatment is used directly) is not copied for the forecaster, and the forecast, computing taxes, extends
    its cached brackets (C41), so the objects the caller passed in have changed. *)
Theorem C93_shared_parameters_refuted : exists h p a d tax program h' m r z, given h p a d /\ no_set_cycle h /\ (tax < Datatypes.length h)%nat /\
  run_forecast 20 h p a d [tax] program = Some (h', m, r) /\ input h p a d z /\ nth_error h' z <> nth_error h z.
Proof.
  destruct C93_sat as (G & C & _). exists couple, 8%nat, 9%nat, 10%nat, 2%nat, [Look 2 0; Look 1 0; Change 1 1 [0; 0; 0; 0]]%nat.
  do 3 eexists. exists 1%nat. split; [exact G|]. split; [exact C|]. split; [cbn; lia|]. split; [vm_compute; reflexivity|]. split; [|vm_compute; discriminate].
  left. eapply (reach_part _ _ 2%nat); [|reflexivity|now left]. eapply (reach_part _ _ 3%nat); [|reflexivity|right; now left]. eapply (reach_part _ _ 8%nat); [constructor|reflexivity|now left].
Qed.
Print Assumptions C93_shared_parameters_refuted.
