(** Proofs about DeepCopyModel: what deepcopy produces. *)
From Verif Require Import Base BaseFacts DeepCopyModel.
From Coq Require Import Lia Arith.

Lemma put_nth : forall h i c j, (i < Datatypes.length h)%nat -> nth_error (put h i c) j = if Nat.eqb j i then Some c else nth_error h j.
Proof.
  induction h as [|x h IH]; intros i c j H; cbn in H; [lia|]. destruct i as [|i], j as [|j]; cbn; try reflexivity. apply IH. lia.
Qed.
Lemma put_length : forall h i c, Datatypes.length (put h i c) = Datatypes.length h.
Proof. induction h as [|x h IH]; intros [|i] c; cbn; auto. Qed.
Lemma snoc_nth : forall (h : heap) c j, nth_error (h ++ [c]) j = if Nat.ltb j (Datatypes.length h) then nth_error h j else if Nat.eqb j (Datatypes.length h) then Some c else None.
Proof.
  intros h c j. destruct (Nat.ltb_spec j (Datatypes.length h)).
  - now rewrite nth_error_app1.
  - rewrite nth_error_app2 by assumption. destruct (Nat.eqb_spec j (Datatypes.length h)) as [->|N]; [now rewrite Nat.sub_diag|].
    destruct (j - Datatypes.length h)%nat as [|k] eqn:E; [lia|]. cbn. now destruct k.
Qed.
Lemma dget_none : forall (m : memo) x y, dget Nat.eqb m x = None -> ~ In (x, y) m.
Proof.
  induction m as [|[a b] m IH]; intros x y H; [intros []|]. cbn in H. destruct (Nat.eqb_spec x a) as [->|N]; [discriminate|].
  intros [E|I]; [injection E as -> ->; congruence|]. exact (IH x y H I).
Qed.
Lemma dget_some : forall (m : memo) x y, dget Nat.eqb m x = Some y -> In (x, y) m.
Proof.
  induction m as [|[a b] m IH]; intros x y H; [discriminate|]. cbn in H. destruct (Nat.eqb_spec x a) as [->|N]; [injection H as ->; now left|]. right. now apply IH.
Qed.
Lemma dget_app_some : forall (l m : memo) x y, In (x, y) m -> exists z, dget Nat.eqb (l ++ m) x = Some z.
Proof.
  intros l m x y H. destruct (dget Nat.eqb (l ++ m) x) as [z|] eqn:E; [eauto|]. exfalso. apply (dget_none _ x y E). apply in_or_app. now right.
Qed.

Definition closed (h : heap) : Prop := forall i c, nth_error h i = Some c -> Forall (fun k => (k < Datatypes.length h)%nat) (c_parts c).
Definition atomic (h : heap) (x : nat) : Prop := exists c, nth_error h x = Some c /\ c_kind c = Atomic.
Definition eager (h : heap) (x : nat) : Prop := exists c, nth_error h x = Some c /\ c_kind c = Eager.

Section Copy.
  Variable h0 : heap.
  Hypothesis H0 : closed h0.
  Notation N := (Datatypes.length h0).
  (** the correspondence given by the memo's entries *)
  Definition relm (m : memo) (x y : nat) : Prop := In (x, y) m \/ (x = y /\ atomic h0 x).
  Lemma relm_app : forall l m x y, relm m x y -> relm (l ++ m) x y.
  Proof. intros l m x y [I|A]; [left; apply in_or_app; now right|now right]. Qed.
  Lemma relm_list : forall l m xs ys, Forall2 (relm m) xs ys -> Forall2 (relm (l ++ m)) xs ys.
  Proof. intros l m xs ys F. induction F; constructor; auto using relm_app. Qed.
  Definition alike (c c' : cell) : Prop := c_kind c = c_kind c' /\ c_tag c = c_tag c' /\ c_kind c <> Atomic.
  Record Inv (h : heap) (m : memo) : Prop := {
    i_len : (N <= Datatypes.length h)%nat;
    i_old : forall i, (i < N)%nat -> nth_error h i = nth_error h0 i;
    i_mem : forall x y, In (x, y) m -> (x < N)%nat /\ (N <= y < Datatypes.length h)%nat /\ exists c c', nth_error h0 x = Some c /\ nth_error h y = Some c' /\ alike c c';
    i_dup : NoDup (map snd m);
    i_eag : forall x y y', In (x, y) m -> In (x, y') m -> eager h0 x -> y = y';
    i_cov : forall y, (N <= y < Datatypes.length h)%nat -> exists x, In (x, y) m }.
  Record Post (h : heap) (m : memo) (h' : heap) (m' : memo) (l : memo) : Prop := {
    p_inv : Inv h' m';
    p_ext : m' = l ++ m;
    p_old : forall i, (i < Datatypes.length h)%nat -> nth_error h' i = nth_error h i;
    p_len : (Datatypes.length h <= Datatypes.length h')%nat;
    p_new : forall a b, In (a, b) l -> (Datatypes.length h <= b)%nat /\ exists c c', nth_error h0 a = Some c /\ nth_error h' b = Some c' /\ Forall2 (relm m') (c_parts c) (c_parts c') }.
  Lemma post_refl : forall h m, Inv h m -> Post h m h m [].
  Proof. intros h m I. constructor; auto; [intros a b []]. Qed.
  Lemma post_trans : forall h m h1 m1 l1 h2 m2 l2, Post h m h1 m1 l1 -> Post h1 m1 h2 m2 l2 -> Post h m h2 m2 (l2 ++ l1).
  Proof.
    intros h m h1 m1 l1 h2 m2 l2 A B. destruct A as [Ai Ae Ao Al An], B as [Bi Be Bo Bl Bn]. constructor; auto.
    - rewrite Be, Ae, app_assoc. reflexivity.
    - intros i Hi. rewrite Bo by lia. now apply Ao.
    - lia.
    - intros a b I. apply in_app_or in I. destruct I as [I|I].
      + destruct (Bn a b I) as [L R]. split; [lia|exact R].
      + destruct (An a b I) as [L (c & c' & E1 & E2 & F)]. split; [exact L|]. exists c, c'. split; [exact E1|]. split.
        * destruct (i_mem _ _ Ai a b) as (_ & Lb & _); [rewrite Ae; apply in_or_app; now left|]. rewrite Bo by lia. exact E2.
        * rewrite Be. now apply relm_list.
  Qed.
  Definition good (f : heap -> memo -> nat -> option (heap * memo * nat)) : Prop := forall h m x h' m' y, Inv h m -> (x < N)%nat ->
    f h m x = Some (h', m', y) -> exists l, Post h m h' m' l /\ relm m' x y.
  Lemma copy_all_spec : forall f, good f -> forall l h m h' m' ys, Inv h m -> Forall (fun k => (k < N)%nat) l ->
    copy_all f h m l = Some (h', m', ys) -> exists e, Post h m h' m' e /\ Forall2 (relm m') l ys.
  Proof.
    intros f Hf l. induction l as [|x l IH]; intros h m h' m' ys I B H; cbn [copy_all] in H.
    - injection H as <- <- <-. exists []. split; [now apply post_refl|constructor].
    - destruct (f h m x) as [[[h1 m1] y]|] eqn:E; [|discriminate]. destruct (copy_all f h1 m1 l) as [[[h2 m2] zs]|] eqn:E2; [|discriminate]. injection H as <- <- <-.
      inversion B as [|? ? B1 B2]; subst. destruct (Hf _ _ _ _ _ _ I B1 E) as (e1 & P1 & R1).
      destruct (IH _ _ _ _ _ (p_inv _ _ _ _ _ P1) B2 E2) as (e2 & P2 & R2). exists (e2 ++ e1). split; [now apply (post_trans _ _ _ _ _ _ _ _ P1 P2)|].
      constructor; [|exact R2]. rewrite (p_ext _ _ _ _ _ P2). now apply relm_app.
  Qed.
  Lemma inv_shell : forall h m x c, Inv h m -> (x < N)%nat -> dget Nat.eqb m x = None -> nth_error h0 x = Some c -> c_kind c = Eager ->
    Inv (h ++ [shell c]) ((x, Datatypes.length h) :: m).
  Proof.
    intros h m x c I B G C K. set (y0 := Datatypes.length h) in *. set (h1 := h ++ [shell c]) in *. set (m1 := (x, y0) :: m) in *.
    assert (L1 : Datatypes.length h1 = S y0) by (unfold h1; rewrite app_length; cbn; lia).
    pose proof (i_len _ _ I) as LN. change (N <= y0)%nat in LN.
    constructor.
        - lia.
        - intros i Hi. unfold h1. rewrite snoc_nth. destruct (Nat.ltb_spec i (Datatypes.length h)); [|lia]. now apply (i_old _ _ I).
        - intros a b [E|J].
          + injection E as <- <-. split; [exact B|]. split; [lia|]. exists c, (shell c). split; [exact C|]. split.
            * unfold h1. rewrite snoc_nth, Nat.ltb_irrefl, Nat.eqb_refl. reflexivity.
            * unfold alike. cbn. rewrite K. repeat split; discriminate.
          + destruct (i_mem _ _ I a b J) as (A1 & A2 & c1 & c2 & A3 & A4 & A5). split; [exact A1|]. split; [lia|]. exists c1, c2. split; [exact A3|]. split; [|exact A5].
            unfold h1. rewrite snoc_nth. destruct (Nat.ltb_spec b (Datatypes.length h)); [exact A4|lia].
        - cbn. constructor; [|exact (i_dup _ _ I)]. intros J. apply in_map_iff in J. destruct J as ([a b] & E & J). cbn in E. subst b.
          destruct (i_mem _ _ I a _ J) as (_ & A2 & _). unfold y0 in A2. lia.
        - intros a b b' J J' Ea. destruct J as [E|J], J' as [E'|J'].
          + congruence.
          + injection E as <- <-. exfalso. exact (dget_none _ _ _ G J').
          + injection E' as <- <-. exfalso. exact (dget_none _ _ _ G J).
          + exact (i_eag _ _ I a b b' J J' Ea).
        - intros b Hb. destruct (Nat.eq_dec b y0) as [->|Nb]; [exists x; now left|]. destruct (i_cov _ _ I b) as (a & J); [fold y0; lia|]. exists a. now right.
  Qed.
  Lemma deepcopy_good : forall n, good (deepcopy n).
  Proof.
    induction n as [|n IH]; intros h m x h' m' y I B H; cbn [deepcopy] in H; [discriminate|].
    destruct (dget Nat.eqb m x) as [y0|] eqn:G.
    { injection H as <- <- <-. exists []. split; [now apply post_refl|]. left. now apply dget_some. }
    pose proof (i_old _ _ I x B) as O. rewrite O in H. destruct (nth_error h0 x) as [c|] eqn:C; [|discriminate].
    assert (Pc : Forall (fun k => (k < N)%nat) (c_parts c)) by exact (H0 x c C).
    destruct (c_kind c) eqn:K.
    - injection H as <- <- <-. exists []. split; [now apply post_refl|]. right. split; [reflexivity|]. exists c. auto.
    - set (y0 := Datatypes.length h) in *. set (h1 := h ++ [shell c]) in *. set (m1 := (x, y0) :: m) in *.
      assert (L1 : Datatypes.length h1 = S y0) by (unfold h1; rewrite app_length; cbn; lia).
      pose proof (i_len _ _ I) as LN. change (N <= y0)%nat in LN.
      assert (I1 : Inv h1 m1) by (apply inv_shell; assumption).
      destruct (copy_all (deepcopy n) h1 m1 (c_parts c)) as [[[h2 m2] ys]|] eqn:E; [|discriminate]. injection H as <- <- <-.
      destruct (copy_all_spec _ IH _ _ _ _ _ _ I1 Pc E) as (e & P & R).
      assert (Ly : (y0 < Datatypes.length h2)%nat) by (pose proof (p_len _ _ _ _ _ P); lia).
      assert (Sy : nth_error h2 y0 = Some (shell c)).
      { rewrite (p_old _ _ _ _ _ P) by lia. unfold h1. rewrite snoc_nth. fold y0. rewrite Nat.ltb_irrefl, Nat.eqb_refl. reflexivity. }
      pose proof (p_inv _ _ _ _ _ P) as I2.
      exists (e ++ [(x, y0)]). split.
      + constructor.
        * constructor.
          -- rewrite put_length. exact (i_len _ _ I2).
          -- intros i Hi. rewrite put_nth by exact Ly. destruct (Nat.eqb_spec i y0); [lia|]. now apply (i_old _ _ I2).
          -- intros a b J. destruct (i_mem _ _ I2 a b J) as (A1 & A2 & c1 & c2 & A3 & A4 & A5). rewrite put_length. split; [exact A1|]. split; [exact A2|].
             rewrite put_nth by exact Ly. destruct (Nat.eqb_spec b y0) as [->|_]; [|eauto].
             exists c1, (filled c ys). split; [exact A3|]. split; [reflexivity|]. rewrite Sy in A4. injection A4 as <-. exact A5.
          -- exact (i_dup _ _ I2).
          -- exact (i_eag _ _ I2).
          -- intros b Hb. rewrite put_length in Hb. exact (i_cov _ _ I2 b Hb).
        * rewrite (p_ext _ _ _ _ _ P). unfold m1. rewrite <- app_assoc. reflexivity.
        * intros i Hi. fold y0 in Hi. rewrite put_nth by exact Ly. destruct (Nat.eqb_spec i y0); [lia|]. rewrite (p_old _ _ _ _ _ P) by lia.
          unfold h1. rewrite snoc_nth. fold y0. destruct (Nat.ltb_spec i y0); [reflexivity|lia].
        * rewrite put_length. lia.
        * intros a b J. apply in_app_or in J. destruct J as [J|[J|[]]].
          -- destruct (p_new _ _ _ _ _ P a b J) as (A1 & c1 & c2 & A2 & A3 & A4). fold y0. split; [lia|]. exists c1, c2. split; [exact A2|]. split; [|exact A4].
             rewrite put_nth by exact Ly. destruct (Nat.eqb_spec b y0); [lia|exact A3].
          -- injection J as <- <-. split; [lia|]. exists c, (filled c ys). split; [exact C|]. split; [|exact R].
             rewrite put_nth by exact Ly. now rewrite Nat.eqb_refl.
      + left. rewrite (p_ext _ _ _ _ _ P). apply in_or_app. right. now left.
    - destruct (copy_all (deepcopy n) h m (c_parts c)) as [[[h2 m2] ys]|] eqn:E; [|discriminate]. injection H as <- <- <-.
      destruct (copy_all_spec _ IH _ _ _ _ _ _ I Pc E) as (e & P & R). pose proof (p_inv _ _ _ _ _ P) as I2. set (y0 := Datatypes.length h2) in *.
      pose proof (i_len _ _ I2) as LN. change (N <= y0)%nat in LN.
      assert (Fr : forall b, In b (map snd m2) -> (b < y0)%nat).
      { intros b J. apply in_map_iff in J. destruct J as ([a b'] & Eb & J). cbn in Eb. subst b'. destruct (i_mem _ _ I2 a b J) as (_ & A2 & _). fold y0 in A2. lia. }
      assert (Old : forall i, (i < y0)%nat -> nth_error (h2 ++ [filled c ys]) i = nth_error h2 i).
      { intros i Hi. rewrite snoc_nth. fold y0. destruct (Nat.ltb_spec i y0); [reflexivity|lia]. }
      exists ((x, y0) :: e). split.
      + constructor.
        * constructor.
          -- rewrite app_length. fold y0. lia.
          -- intros i Hi. rewrite Old by lia. now apply (i_old _ _ I2).
          -- intros a b J. rewrite app_length. fold y0. cbn [Datatypes.length]. destruct J as [J|J].
             ++ injection J as <- <-. split; [exact B|]. split; [lia|]. exists c, (filled c ys). split; [exact C|]. split.
                ** rewrite snoc_nth. fold y0. rewrite Nat.ltb_irrefl, Nat.eqb_refl. reflexivity.
                ** unfold alike. cbn. rewrite K. repeat split; discriminate.
             ++ destruct (i_mem _ _ I2 a b J) as (A1 & A2 & c1 & c2 & A3 & A4 & A5). fold y0 in A2. split; [exact A1|]. split; [lia|]. exists c1, c2. rewrite Old by lia. auto.
          -- cbn. constructor; [|exact (i_dup _ _ I2)]. intros J. specialize (Fr _ J). lia.
          -- intros a b b' J J' Ea. destruct J as [J|J].
             ++ injection J as <- <-. destruct Ea as (c1 & A1 & A2). rewrite C in A1. injection A1 as <-. congruence.
             ++ destruct J' as [J'|J']; [|exact (i_eag _ _ I2 a b b' J J' Ea)]. injection J' as <- <-. destruct Ea as (c1 & A1 & A2). rewrite C in A1. injection A1 as <-. congruence.
          -- intros b Hb. rewrite app_length in Hb. fold y0 in Hb. cbn [Datatypes.length] in Hb. destruct (Nat.eq_dec b y0) as [->|Nb]; [exists x; now left|]. destruct (i_cov _ _ I2 b) as (a & J); [fold y0; lia|]. exists a. now right.
        * rewrite (p_ext _ _ _ _ _ P). reflexivity.
        * intros i Hi. rewrite Old by (pose proof (p_len _ _ _ _ _ P); lia). now apply (p_old _ _ _ _ _ P).
        * rewrite app_length. pose proof (p_len _ _ _ _ _ P). lia.
        * intros a b J. destruct J as [J|J].
          -- injection J as <- <-. split; [unfold y0; exact (p_len _ _ _ _ _ P)|]. exists c, (filled c ys). split; [exact C|]. split.
             ++ rewrite snoc_nth. fold y0. rewrite Nat.ltb_irrefl, Nat.eqb_refl. reflexivity.
             ++ cbn [filled c_parts]. apply (relm_list [(x, y0)]). exact R.
          -- destruct (p_new _ _ _ _ _ P a b J) as (A1 & c1 & c2 & A2 & A3 & A4). split; [exact A1|]. exists c1, c2. split; [exact A2|]. split.
             ++ rewrite Old; [exact A3|]. destruct (i_mem _ _ I2 a b) as (_ & A5 & _); [rewrite (p_ext _ _ _ _ _ P); apply in_or_app; now left|]. fold y0 in A5. lia.
             ++ apply (relm_list [(x, y0)]). exact A4.
      + left. now left.
  Qed.
  Lemma inv_start : Inv h0 [].
  Proof. constructor; auto; [intros x y []|constructor|intros x y y' []|intros y Hy; lia]. Qed.
  Lemma copies_spec : forall fuel p a d h m p' a' d', (p < N)%nat -> (a < N)%nat -> (d < N)%nat ->
    copy_arguments fuel h0 p a d = Some (h, m, (p', a', d')) ->
    Post h0 [] h m m /\ relm m p p' /\ relm m a a' /\ relm m d d'.
  Proof.
    intros fuel p a d h m p' a' d' Hp Ha Hd H. unfold copy_arguments in H.
    destruct (deepcopy fuel h0 [] p) as [[[h1 m1] p1]|] eqn:E1; [|discriminate].
    destruct (deepcopy fuel h1 m1 a) as [[[h2 m2] a1]|] eqn:E2; [|discriminate].
    destruct (deepcopy fuel h2 m2 d) as [[[h3 m3] d1]|] eqn:E3; [|discriminate]. injection H as <- <- <- <- <-.
    destruct (deepcopy_good _ _ _ _ _ _ _ inv_start Hp E1) as (l1 & P1 & R1).
    destruct (deepcopy_good _ _ _ _ _ _ _ (p_inv _ _ _ _ _ P1) Ha E2) as (l2 & P2 & R2).
    destruct (deepcopy_good _ _ _ _ _ _ _ (p_inv _ _ _ _ _ P2) Hd E3) as (l3 & P3 & R3).
    pose proof (post_trans _ _ _ _ _ _ _ _ (post_trans _ _ _ _ _ _ _ _ P1 P2) P3) as P.
    assert (E : m3 = l3 ++ (l2 ++ l1)) by (rewrite (p_ext _ _ _ _ _ P), app_nil_r; reflexivity).
    split; [rewrite E at 2; exact P|]. split; [|split; [|exact R3]].
    - rewrite (p_ext _ _ _ _ _ P3), (p_ext _ _ _ _ _ P2). now apply relm_app, relm_app.
    - rewrite (p_ext _ _ _ _ _ P3). now apply relm_app.
  Qed.
  (** ** Enough fuel *)
  Definition is_eager (x : nat) : bool := match nth_error h0 x with Some c => match c_kind c with Eager => true | _ => false end | None => false end.
  Definition undone (m : memo) : nat := Datatypes.length (filter (fun x => is_eager x && negb (dmem Nat.eqb m x)) (seq 0 N)).
  Lemma filter_le : forall (P Q : nat -> bool) l, (forall x, P x = true -> Q x = true) -> (Datatypes.length (filter P l) <= Datatypes.length (filter Q l))%nat.
  Proof.
    intros P Q l H. induction l as [|x l IH]; cbn; [lia|]. specialize (H x). destruct (P x), (Q x); cbn; try lia; specialize (H eq_refl); discriminate.
  Qed.
  Lemma filter_lt : forall (P Q : nat -> bool) l x, (forall x, P x = true -> Q x = true) -> In x l -> P x = false -> Q x = true ->
    (Datatypes.length (filter P l) < Datatypes.length (filter Q l))%nat.
  Proof.
    intros P Q l x H I Px Qx. induction l as [|z l IH]; [destruct I|]. cbn. destruct I as [->|I].
    - rewrite Px, Qx. cbn. pose proof (filter_le P Q l H). lia.
    - specialize (IH I). specialize (H z). destruct (P z), (Q z); cbn; try lia; specialize (H eq_refl); discriminate.
  Qed.
  Lemma undone_app : forall l m, (undone (l ++ m) <= undone m)%nat.
  Proof.
    intros l m. apply filter_le. intros x E. apply Bool.andb_true_iff in E. destruct E as [E1 E2]. rewrite E1. cbn [andb].
    unfold dmem in *. destruct (dget Nat.eqb m x) as [y|] eqn:G; [|reflexivity]. apply dget_some in G. destruct (dget_app_some l m x y G) as (z & Ez). rewrite Ez in E2. discriminate.
  Qed.
  Lemma undone_push : forall x y m, (x < N)%nat -> is_eager x = true -> dget Nat.eqb m x = None -> (undone ((x, y) :: m) < undone m)%nat.
  Proof.
    intros x y m B E G. unfold undone. apply filter_lt with (x := x).
    - intros z F. apply Bool.andb_true_iff in F. destruct F as [E1 E2]. rewrite E1. cbn [andb]. unfold dmem in *. cbn [dget] in E2.
      destruct (Nat.eqb z x); [discriminate|exact E2].
    - apply in_seq. lia.
    - rewrite E. cbn [andb]. unfold dmem. cbn [dget]. rewrite Nat.eqb_refl. reflexivity.
    - rewrite E. cbn [andb]. unfold dmem. rewrite G. reflexivity.
  Qed.
  Variable rank : nat -> nat.
  Variable R : nat.
  Hypothesis rank_bound : forall x, (rank x <= R)%nat.
  (** no set contains itself through sets alone *)
  Hypothesis rank_late : forall x c k ck, nth_error h0 x = Some c -> c_kind c = Late -> In k (c_parts c) -> nth_error h0 k = Some ck -> c_kind ck = Late -> (rank k < rank x)%nat.
  Definition own (x : nat) : nat := match nth_error h0 x with Some c => match c_kind c with Late => rank x + 2 | _ => 1 end | None => 1 end.
  Definition need (m : memo) (x : nat) : nat := (undone m * (R + 2) + own x)%nat.
  Lemma own_le : forall x, (1 <= own x <= R + 2)%nat.
  Proof. intros x. unfold own. destruct (nth_error h0 x) as [c|]; [|lia]. pose proof (rank_bound x). destruct (c_kind c); lia. Qed.
  Lemma copy_all_total : forall n l h m, (forall h m x, Inv h m -> (x < N)%nat -> (need m x <= n)%nat -> exists r, deepcopy n h m x = Some r) ->
    Inv h m -> Forall (fun k => (k < N)%nat /\ (need m k <= n)%nat) l -> exists r, copy_all (deepcopy n) h m l = Some r.
  Proof.
    intros n l h m T. revert h m. induction l as [|x l IH]; intros h m I F; cbn [copy_all]; [eauto|].
    inversion F as [|? ? [B L] F']; subst. destruct (T h m x I B L) as [[[h1 m1] y] E]. rewrite E.
    destruct (deepcopy_good _ _ _ _ _ _ _ I B E) as (e & P & _).
    destruct (IH h1 m1 (p_inv _ _ _ _ _ P)) as [[[h2 m2] ys] E2].
    - apply Forall_forall. intros k Ik. rewrite Forall_forall in F'. destruct (F' k Ik) as [B' L']. split; [exact B'|]. unfold need in *. rewrite (p_ext _ _ _ _ _ P).
      pose proof (undone_app e m). nia.
    - rewrite E2. eauto.
  Qed.
  Lemma deepcopy_total : forall n h m x, Inv h m -> (x < N)%nat -> (need m x <= n)%nat -> exists r, deepcopy n h m x = Some r.
  Proof.
    induction n as [|n IH]; intros h m x I B L; [unfold need in L; pose proof (own_le x); lia|]. cbn [deepcopy].
    destruct (dget Nat.eqb m x) as [y|] eqn:G; [eauto|]. rewrite (i_old _ _ I x B). destruct (nth_error h0 x) as [c|] eqn:C.
    2:{ apply nth_error_None in C. lia. }
    pose proof (H0 x c C) as Pc. destruct (c_kind c) eqn:K; [eauto| |].
    - destruct (copy_all_total n (c_parts c) (h ++ [shell c]) ((x, Datatypes.length h) :: m) IH) as [[[h2 m2] ys] E]; [now apply inv_shell| |rewrite E; eauto].
      apply Forall_forall. intros k Ik. rewrite Forall_forall in Pc. split; [now apply Pc|]. unfold need in *.
      assert (U : (undone ((x, Datatypes.length h) :: m) < undone m)%nat) by (apply undone_push; auto; unfold is_eager; now rewrite C, K).
      pose proof (own_le k). pose proof (own_le x). nia.
    - destruct (copy_all_total n (c_parts c) h m IH I) as [[[h2 m2] ys] E]; [|rewrite E; eauto].
      apply Forall_forall. intros k Ik. rewrite Forall_forall in Pc. split; [now apply Pc|]. unfold need in *.
      assert (O : (S (own k) <= own x)%nat).
      { unfold own. rewrite C, K. destruct (nth_error h0 k) as [ck|] eqn:Ck; [|lia]. destruct (c_kind ck) eqn:Kk; [lia|lia|]. pose proof (rank_late x c k ck C K Ik Ck Kk). lia. }
      lia.
  Qed.
  Lemma copies_total : forall p a d, (p < N)%nat -> (a < N)%nat -> (d < N)%nat -> exists fuel r, copy_arguments fuel h0 p a d = Some r.
  Proof.
    intros p a d Hp Ha Hd. set (F := (undone [] * (R + 2) + (R + 2))%nat). exists F.
    assert (B : forall l x, (need (l ++ []) x <= F)%nat) by (intros l x; unfold need, F; pose proof (undone_app l []); pose proof (own_le x); nia).
    unfold copy_arguments. destruct (deepcopy_total F h0 [] p inv_start Hp (B [] p)) as [[[h1 m1] p1] E1]. rewrite E1.
    destruct (deepcopy_good _ _ _ _ _ _ _ inv_start Hp E1) as (l1 & P1 & _).
    destruct (deepcopy_total F h1 m1 a (p_inv _ _ _ _ _ P1) Ha) as [[[h2 m2] a1] E2]; [rewrite (p_ext _ _ _ _ _ P1); apply B|]. rewrite E2.
    destruct (deepcopy_good _ _ _ _ _ _ _ (p_inv _ _ _ _ _ P1) Ha E2) as (l2 & P2 & _).
    destruct (deepcopy_total F h2 m2 d (p_inv _ _ _ _ _ P2) Hd) as [[[h3 m3] d1] E3]; [rewrite (p_ext _ _ _ _ _ P2), (p_ext _ _ _ _ _ P1), app_assoc; apply B|]. rewrite E3. eauto.
  Qed.
End Copy.
