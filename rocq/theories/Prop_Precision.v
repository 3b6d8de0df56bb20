(** High-precision attributes: C71. *)
From Verif Require Import Base BaseFacts PrecisionModel.

(** ---- specification ----
    What a user may expect of an attribute after a history of operations, worked out from the
    history alone: the last value assigned to the object, the last precision assigned to it, and the
    one converted with the other. *)
Section Spec.
  Context {V F : Type} (conv : F -> V -> V).
  (** the last value assigned to object [o] in history [l] (newest operation last) *)
  Definition last_value (o : nat) (l : list (@pop V F)) : option (option V) :=
    fold_left (fun acc a => match a with PSet o' v => if Nat.eqb o' o then Some v else acc | _ => acc end) l None.
  Definition last_precision (o : nat) (l : list (@pop V F)) : option (option F) :=
    fold_left (fun acc a => match a with PHp o' f => if Nat.eqb o' o then Some f else acc | _ => acc end) l None.
  Definition expected (o : nat) (l : list (@pop V F)) : option (option V) :=
    match last_precision o l, last_value o l with
    | Some (Some f), Some (Some v) => Some (Some (conv f v))
    | Some _, Some v => Some v
    | _, _ => None
    end.
  (** object [x] is read somewhere in the history *)
  Definition reads (o : nat) (l : list (@pop V F)) : Prop := In (PGet o) l.
End Spec.
Definition answer {A S} (r : res (A * S)) : option A := match r with Ok (v, _) => Some v | Err _ => None end.
Definition got {A} (r : res A) : option A := match r with Ok v => Some v | Err _ => None end.

Section Proofs.
  Context {V F : Type} (feqb : F -> F -> bool) (conv : F -> V -> V).
  Hypothesis feqb_eq : forall f g, feqb f g = true <-> f = g.

  Notation run := (prun feqb conv).
  Notation state := (@pstate V F).

  Lemma run_snoc : forall l a, run (l ++ [a]) = pstep feqb conv (run l) a.
  Proof. intros. unfold prun. rewrite fold_left_app. reflexivity. Qed.

  Lemma lv_snoc : forall o l (a : @pop V F), last_value o (l ++ [a]) =
    match a with PSet o' v => if Nat.eqb o' o then Some v else last_value o l | _ => last_value o l end.
  Proof. intros. unfold last_value. rewrite fold_left_app. destruct a; reflexivity. Qed.
  Lemma lp_snoc : forall o l (a : @pop V F), last_precision o (l ++ [a]) =
    match a with PHp o' f => if Nat.eqb o' o then Some f else last_precision o l | _ => last_precision o l end.
  Proof. intros. unfold last_precision. rewrite fold_left_app. destruct a; reflexivity. Qed.

  (** reading changes nothing but the cache *)
  Lemma get_objs : forall (s : state) o v s', cached_get feqb conv s o None = Ok (v, s') -> p_objs s' = p_objs s.
  Proof.
    unfold cached_get, cached_with. intros s o v s' H.
    destruct (hp (p_objs s o)) as [f|e]; cbn [bind] in H; [|discriminate].
    destruct f as [f|].
    - destruct (p_vcache s), (p_fcache s); try destruct (feqb f0 f); try (injection H as <- <-; reflexivity);
        destruct (plain_get _ _ _); cbn [bind] in H; try discriminate; injection H as <- <-; reflexivity.
    - destruct (raw _); cbn [bind] in H; [|discriminate]. injection H as <- <-. reflexivity.
  Qed.

  Lemma run_objs : forall l o,
    o_raw (p_objs (run l) o) = last_value o l /\ o_hp (p_objs (run l) o) = last_precision o l.
  Proof.
    induction l as [|a l IH] using rev_ind; intros o; [split; reflexivity|].
    rewrite run_snoc, lv_snoc, lp_snoc. destruct a as [o'|o' v|o' f]; cbn [pstep].
    - destruct (cached_get feqb conv (run l) o' None) as [[v s']|e] eqn:E; [|apply IH].
      rewrite (get_objs _ _ _ _ E). apply IH.
    - unfold cached_set, plain_set, put. cbn [p_objs]. rewrite (Nat.eqb_sym o o').
      destruct (Nat.eqb o' o) eqn:E; [apply Nat.eqb_eq in E; subst; cbn; split; [reflexivity|apply IH]|apply IH].
    - unfold set_hp, put. cbn [p_objs]. rewrite (Nat.eqb_sym o o').
      destruct (Nat.eqb o' o) eqn:E; [apply Nat.eqb_eq in E; subst; cbn; split; [apply IH|reflexivity]|apply IH].
  Qed.

  (** the uncached attribute always answers with the object's own value and precision *)
  Theorem C71_uncached : forall l o, got (plain_get conv (p_objs (urun l) o) None) = expected conv o l.
  Proof.
    assert (H : forall l o, o_raw (p_objs (urun l) o) = last_value o l /\ o_hp (p_objs (@urun V F l) o) = last_precision o l).
    { induction l as [|a l IH] using rev_ind; intros o; [split; reflexivity|].
      unfold urun in *. rewrite fold_left_app. cbn [fold_left]. rewrite lv_snoc, lp_snoc.
      destruct a as [o'|o' v|o' f]; cbn [ustep]; [apply IH| |].
      - unfold plain_set, put. cbn [p_objs]. rewrite (Nat.eqb_sym o o').
        destruct (Nat.eqb o' o) eqn:E; [apply Nat.eqb_eq in E; subst; cbn; split; [reflexivity|apply IH]|apply IH].
      - unfold set_hp, put. cbn [p_objs]. rewrite (Nat.eqb_sym o o').
        destruct (Nat.eqb o' o) eqn:E; [apply Nat.eqb_eq in E; subst; cbn; split; [apply IH|reflexivity]|apply IH]. }
    intros l o. destruct (H l o) as [R P]. unfold plain_get, raw, hp, expected. rewrite R, P.
    destruct (last_value o l) as [[v|]|], (last_precision o l) as [[f|]|]; reflexivity.
  Qed.

  (** the cache holds some reader's current value, converted with the cached function *)
  Lemma cache_inv : forall l c g, p_vcache (run l) = Some c -> p_fcache (run l) = Some g ->
    exists o v, reads o l /\ last_value o l = Some (Some v) /\ c = conv g v.
  Proof.
    induction l as [|a l IH] using rev_ind; intros c g Hc Hg; [discriminate|].
    rewrite run_snoc in Hc, Hg. destruct a as [o'|o' w|o' f]; cbn [pstep] in Hc, Hg.
    - assert (K : forall c g, p_vcache (run l) = Some c -> p_fcache (run l) = Some g ->
                exists o v, reads o (l ++ [PGet o']) /\ last_value o (l ++ [PGet o']) = Some (Some v) /\ c = conv g v).
      { intros c1 g1 H1 H2. destruct (IH _ _ H1 H2) as (o & v & R & L & E). exists o, v.
        rewrite lv_snoc. repeat split; auto. apply in_or_app. left; exact R. }
      destruct (cached_get feqb conv (run l) o' None) as [[u s']|e] eqn:E; [|apply (K _ _ Hc Hg)].
      unfold cached_get in E. destruct (hp (p_objs (run l) o')) as [f|e] eqn:Hf; cbn [bind] in E; [|discriminate].
      destruct f as [f|].
      + assert (N : plain_get conv (p_objs (run l) o') (Some f) = Ok u /\ s' = {| p_objs := p_objs (run l); p_vcache := u; p_fcache := Some f |}
                    \/ s' = run l).
        { unfold cached_with in E. destruct (p_vcache (run l)) as [c0|], (p_fcache (run l)) as [g0|];
            try destruct (feqb g0 f); try (injection E as <- <-; right; reflexivity);
            left; destruct (plain_get conv (p_objs (run l) o') (Some f)); cbn [bind] in E; try discriminate;
            injection E as <- <-; split; reflexivity. }
        destruct N as [[Pg Es]|Es]; [|rewrite Es in Hc, Hg; apply (K _ _ Hc Hg)].
        rewrite Es in Hc, Hg. cbn in Hc, Hg. subst u. injection Hg as <-.
        unfold plain_get, raw in Pg. destruct (run_objs l o') as [R _]. rewrite R in Pg.
        destruct (last_value o' l) as [[v|]|] eqn:L; cbn in Pg; try discriminate. injection Pg as <-.
        exists o', v. rewrite lv_snoc. repeat split; auto. apply in_or_app. right. left. reflexivity.
      + destruct (raw (p_objs (run l) o')); cbn [bind] in E; [|discriminate]. injection E as <- <-. apply (K _ _ Hc Hg).
    - discriminate.
    - destruct (IH c g Hc Hg) as (o & v & R & L & E). exists o, v. rewrite lv_snoc.
      repeat split; auto. apply in_or_app. left; exact R.
  Qed.

  (** Whatever has happened before, reading the cached attribute of a configured object gives the
      value currently set on SOME object, converted with the reader's own function -- an object that
      was itself read, or the reader itself -- and gives the unconverted own value when the object
      has no high precision. *)
  Theorem C71_whose_value_partial : forall l o v f,
    last_precision o l = Some (Some f) -> last_value o l = Some (Some v) ->
    exists o' v', (o' = o \/ reads o' l) /\ last_value o' l = Some (Some v') /\
      answer (cached_get feqb conv (run l) o None) = Some (Some (conv f v')).
  Proof.
    intros l o v f P L. destruct (run_objs l o) as [R H]. rewrite L in R. rewrite P in H.
    unfold cached_get, hp. rewrite H. cbn [bind]. unfold cached_with.
    assert (G : plain_get conv (p_objs (run l) o) (Some f) = Ok (Some (conv f v))).
    { unfold plain_get, raw. rewrite R. reflexivity. }
    destruct (p_vcache (run l)) as [c|] eqn:C, (p_fcache (run l)) as [g|] eqn:Fc;
      try destruct (feqb g f) eqn:E; try (rewrite G; exists o, v; cbn; auto; fail).
    apply feqb_eq in E. subst g. destruct (cache_inv l c f C Fc) as (o' & v' & Rd & L' & ->).
    exists o', v'. cbn. auto.
  Qed.

  (** converting a value by hand uses the function last assigned to the object, whatever else happened *)
  Theorem C71_convert : forall l o v f, (last_precision o l = Some (Some f) -> precision_convert conv (p_objs (run l) o) v = Ok (conv f v)) /\
    (last_precision o l = Some None -> precision_convert conv (p_objs (run l) o) v = Ok v).
  Proof. intros l o v f. destruct (run_objs l o) as [_ H]. unfold precision_convert, hp. rewrite H. split; intros ->; reflexivity. Qed.
  Theorem C71_no_precision : forall l o v,
    last_precision o l = Some None -> last_value o l = Some v ->
    answer (cached_get feqb conv (run l) o None) = expected conv o l.
  Proof.
    intros l o v P L. destruct (run_objs l o) as [R H]. unfold cached_get, hp. rewrite H, P. cbn [bind].
    unfold raw. rewrite R, L. unfold expected. rewrite P, L. destruct v; reflexivity.
  Qed.

  (** so the attribute is right whenever the other objects that are read hold the same value, and
      in particular when only one object is ever read *)
  Theorem C71_same_values : forall l o v f,
    last_precision o l = Some (Some f) -> last_value o l = Some (Some v) ->
    (forall o', reads o' l -> last_value o' l = last_value o l \/ last_value o' l = None \/ last_value o' l = Some None) ->
    answer (cached_get feqb conv (run l) o None) = expected conv o l.
  Proof.
    intros l o v f P L S. destruct (C71_whose_value_partial l o v f P L) as (o' & v' & W & L' & ->).
    unfold expected. rewrite P, L. do 2 f_equal. f_equal.
    destruct W as [->|W]; [congruence|]. destruct (S o' W) as [E|[E|E]]; congruence.
  Qed.
  Theorem C71_one_reader : forall l o v f,
    last_precision o l = Some (Some f) -> last_value o l = Some (Some v) -> (forall o', reads o' l -> o' = o) ->
    answer (cached_get feqb conv (run l) o None) = expected conv o l.
  Proof. intros l o v f P L S. eapply C71_same_values; eauto. intros o' W. rewrite (S o' W). auto. Qed.

  (** objects with different conversion functions never see each other's values *)
  Lemma cache_owner : forall l c g o, (forall o', o' <> o -> ~ In (PHp o' (Some g)) l) ->
    p_vcache (run l) = Some c -> p_fcache (run l) = Some g ->
    exists v, last_value o l = Some (Some v) /\ c = conv g v.
  Proof.
    induction l as [|a l IH] using rev_ind; intros c g o S Hc Hg; [discriminate|].
    assert (S' : forall o', o' <> o -> ~ In (PHp o' (Some g)) l).
    { intros o' N I. apply (S o' N). apply in_or_app. left; exact I. }
    rewrite run_snoc in Hc, Hg. rewrite lv_snoc. destruct a as [o'|o' w|o' f]; cbn [pstep] in Hc, Hg.
    - destruct (cached_get feqb conv (run l) o' None) as [[u s']|e] eqn:E; [|apply (IH _ _ _ S' Hc Hg)].
      unfold cached_get in E. destruct (hp (p_objs (run l) o')) as [f|e] eqn:Hf; cbn [bind] in E; [|discriminate].
      destruct f as [f|].
      + assert (N : plain_get conv (p_objs (run l) o') (Some f) = Ok u /\ s' = {| p_objs := p_objs (run l); p_vcache := u; p_fcache := Some f |}
                    \/ s' = run l).
        { unfold cached_with in E. destruct (p_vcache (run l)) as [c0|], (p_fcache (run l)) as [g0|];
            try destruct (feqb g0 f); try (injection E as <- <-; right; reflexivity);
            left; destruct (plain_get conv (p_objs (run l) o') (Some f)); cbn [bind] in E; try discriminate;
            injection E as <- <-; split; reflexivity. }
        destruct N as [[Pg Es]|Es]; [|rewrite Es in Hc, Hg; apply (IH _ _ _ S' Hc Hg)].
        rewrite Es in Hc, Hg. cbn in Hc, Hg. subst u. injection Hg as ->.
        assert (Eo : o' = o).
        { destruct (Nat.eq_dec o' o) as [|N]; [assumption|exfalso]. unfold hp in Hf.
          destruct (run_objs l o') as [_ H]. rewrite H in Hf.
          destruct (last_precision o' l) as [p|] eqn:P; [|discriminate]. injection Hf as ->.
          assert (I : In (PHp o' (Some g)) l); [|exact (S' o' N I)].
          clear - P. induction l as [|a l IH] using rev_ind; [discriminate|].
          rewrite lp_snoc in P. apply in_or_app. destruct a as [x|x v|x f]; auto.
          destruct (Nat.eqb x o') eqn:E; auto. apply Nat.eqb_eq in E. subst. injection P as ->. right; left; reflexivity. }
        subst o'. unfold plain_get, raw in Pg. destruct (run_objs l o) as [R _]. rewrite R in Pg.
        destruct (last_value o l) as [[v|]|] eqn:L; cbn in Pg; try discriminate. injection Pg as <-. eauto.
      + destruct (raw (p_objs (run l) o')); cbn [bind] in E; [|discriminate]. injection E as <- <-. apply (IH _ _ _ S' Hc Hg).
    - discriminate.
    - apply (IH _ _ _ S' Hc Hg).
  Qed.
  Theorem C71_own_function : forall l o v f,
    last_precision o l = Some (Some f) -> last_value o l = Some (Some v) ->
    (forall o', o' <> o -> ~ In (PHp o' (Some f)) l) ->
    answer (cached_get feqb conv (run l) o None) = expected conv o l.
  Proof.
    intros l o v f P L S. destruct (run_objs l o) as [R H]. rewrite L in R. rewrite P in H.
    unfold cached_get, hp. rewrite H. cbn [bind]. unfold cached_with.
    assert (G : plain_get conv (p_objs (run l) o) (Some f) = Ok (Some (conv f v))).
    { unfold plain_get, raw. rewrite R. reflexivity. }
    unfold expected. rewrite P, L.
    destruct (p_vcache (run l)) as [c|] eqn:C, (p_fcache (run l)) as [g|] eqn:Fc;
      try destruct (feqb g f) eqn:E; try (rewrite G; reflexivity).
    apply feqb_eq in E. subst g. destruct (cache_owner l c f o S C Fc) as (v' & L' & ->). cbn. congruence.
  Qed.

  (** an object that has just been assigned a value reads it back *)
  Theorem C71_read_after_write : forall l o v f, last_precision o l = Some (Some f) ->
    answer (cached_get feqb conv (run (l ++ [PSet o (Some v)])) o None) = Some (Some (conv f v)).
  Proof.
    intros l o v f P. rewrite run_snoc. cbn [pstep]. unfold cached_get, hp, cached_set, plain_set, put.
    cbn [p_objs p_vcache p_fcache]. rewrite Nat.eqb_refl. cbn [o_hp]. destruct (run_objs l o) as [_ H].
    rewrite H, P. cbn [bind]. unfold cached_with. cbn [p_vcache]. unfold plain_get, raw. cbn [p_objs].
    rewrite Nat.eqb_refl. reflexivity.
  Qed.
End Proofs.

(** Two objects of the same class with the same precision function but different values: the second
    one reads the first one's value. *)
Definition two_objects : list (@pop Q nat) :=
  [PHp 0%nat (Some 7%nat); PSet 0%nat (Some 1); PHp 1%nat (Some 7%nat); PSet 1%nat (Some (1#2)); PGet 0%nat].
Theorem C71_other_objects_value_refuted : exists (l : list (@pop Q nat)) (o : nat),
  answer (cached_get Nat.eqb (fun _ v => v) (prun Nat.eqb (fun _ v => v) l) o None) <> expected (fun _ v => v) o l /\
  last_value 0%nat l <> last_value 1%nat l.
Proof. exists two_objects, 1%nat. split; vm_compute; intros H; discriminate. Qed.

Example C71_sat : last_precision 0%nat two_objects = Some (Some 7%nat) /\ last_value 0%nat two_objects = Some (Some 1) /\
  (forall o', reads o' two_objects -> o' = 0%nat) /\ (forall f g, Nat.eqb f g = true <-> f = g).
Proof.
  repeat split; try reflexivity; try (apply Nat.eqb_eq).
  intros o' H. unfold reads, two_objects in H. cbn in H.
  repeat (destruct H as [H|H]; [first [discriminate|injection H as <-; reflexivity]|]). destruct H.
Qed.
(** two objects with their own precision functions, and a third, without precision, that shares its value with
    a reader *)
Definition three_objects : list (@pop Q nat) :=
  [PHp 0%nat (Some 7%nat); PSet 0%nat (Some 1); PHp 1%nat (Some 8%nat); PSet 1%nat (Some 1); PHp 2%nat None; PSet 2%nat (Some (1#2));
   PGet 0%nat; PGet 1%nat].
Example C71_sat_more : last_precision 1%nat three_objects = Some (Some 8%nat) /\ last_value 1%nat three_objects = Some (Some 1) /\
  (forall o', o' <> 1%nat -> ~ In (PHp o' (Some 8%nat)) three_objects) /\
  (forall o', reads o' three_objects -> last_value o' three_objects = last_value 1%nat three_objects) /\
  (exists o', reads o' three_objects /\ o' <> 1%nat) /\
  last_precision 2%nat three_objects = Some None /\ last_value 2%nat three_objects = Some (Some (1#2)).
Proof.
  repeat split; try reflexivity.
  - intros o' N H. cbn in H. repeat (destruct H as [H|H]; [first [discriminate|injection H as <-; congruence]|]). destruct H.
  - intros o' H. unfold reads, three_objects in H. cbn in H.
    repeat (destruct H as [H|H]; [first [discriminate|injection H as <-; reflexivity]|]). destruct H.
  - exists 0%nat. split; [|discriminate]. unfold reads. cbn. tauto.
Qed.
Print Assumptions C71_uncached.
Print Assumptions C71_whose_value_partial.
Print Assumptions C71_convert.
Print Assumptions C71_no_precision.
Print Assumptions C71_same_values.
Print Assumptions C71_one_reader.
Print Assumptions C71_own_function.
Print Assumptions C71_read_after_write.
Print Assumptions C71_other_objects_value_refuted.
