(** Property C94: an account used as a mapping from times to transactions. *)
From Verif Require Import Base BaseFacts TimingModel TimingSpec TimingProofs MappingModel.
From Coq Require Import Lia Permutation Sorted.

(** ** Specification: a partial function from times in [0, 1] to amounts *)
Definition ledger : Type := Q -> option Q.
Definition same_ledger (f g : ledger) : Prop := forall t, match f t, g t with Some a, Some b => a == b | None, None => True | _, _ => False end.
Definition put_at (f : ledger) (t v : Q) : ledger := fun u => if Qeq_bool u t then Some v else f u.
Definition drop_at (f : ledger) (t : Q) : ledger := fun u => if Qeq_bool u t then None else f u.
(** times at which something is recorded, ascending, each once *)
Definition lists (f : ledger) (l : list Q) : Prop := StronglySorted Qlt l /\ forall t, (exists u, In u l /\ u == t) <-> f t <> None.
(** what a use of the mapping means for the partial function: the new function, and which answers are right *)
Inductive means (f : ledger) : use -> answer -> ledger -> Prop :=
| mn_set : forall t v, means f (Set_ (KNum t) v) Done (put_at f t v)
| mn_add : forall t v, means f (Add (KNum t) v) Done (put_at f t (match f t with Some x => x + v | None => v end))
| mn_del : forall t x, f t = Some x -> means f (Del (KNum t)) Done (drop_at f t)
| mn_del_missing : forall t, f t = None -> means f (Del (KNum t)) (Raised KeyError) f
| mn_read : forall t x y, f t = Some x -> y == x -> means f (Read (KNum t)) (Value y) f
| mn_has : forall t, means f (Has (KNum t)) (Truth (match f t with Some _ => true | None => false end)) f
| mn_size : forall l, lists f l -> means f Size (Count (Datatypes.length l)) f
| mn_times : forall l, lists f l -> means f Times (Listed (map KNum l)) f
| mn_clear : means f Clear Done (fun _ => None)
| mn_next : means f NextYear Done (fun _ => None).
Inductive run_means : ledger -> list use -> list answer -> ledger -> Prop :=
| rm_nil : forall f g, same_ledger f g -> run_means f [] [] g
| rm_cons : forall f u a f1 us as_ g, means f u a f1 -> run_means f1 us as_ g -> run_means f (u :: us) (a :: as_) g.
(** numeric times within the year; only recorded times are read *)
Definition proper_key (k : mkey) : Prop := match k with KNum t => 0 <= t <= 1 | KText _ => False end.
Definition proper (d : flows) (u : use) : Prop :=
  match u with
  | Set_ k _ | Add k _ | Del k | Has k => proper_key k
  | Read k => proper_key k /\ m_contains d k = Ok true
  | Size | Times | Clear | NextYear => True
  end.
Fixpoint all_proper (d : flows) (l : list use) : Prop := match l with [] => True | u :: r => proper d u /\ all_proper (snd (step d u)) r end.

(** ** Proofs *)
Lemma mk_sym : forall a b, mkeqb a b = mkeqb b a.
Proof. intros [p|s] [q|t]; cbn; auto using qeqb_sym, String.eqb_sym. Qed.
Lemma mk_trans : forall a b c, mkeqb a b = true -> mkeqb b c = true -> mkeqb a c = true.
Proof. intros [p|s] [q|t] [r|u]; cbn; try discriminate; [apply qeqb_trans|]. intros H K. apply String.eqb_eq in H. apply String.eqb_eq in K. subst. apply String.eqb_refl. Qed.
Definition numeric (d : flows) : Prop := forall k v, In (k, v) d -> exists t, k = KNum t.
Definition ledger_of (d : flows) : ledger := fun t => dget mkeqb d (KNum t).
Definition good (d : flows) : Prop := dwf mkeqb d /\ numeric d.
Lemma numeric_dset : forall d t v, numeric d -> numeric (dset mkeqb d (KNum t) v).
Proof.
  induction d as [|[k x] d IH]; intros t v N k' v' I; cbn [dset In] in I; [destruct I as [E|[]]; injection E as <- _; eauto|].
  destruct (mkeqb (KNum t) k); destruct I as [E|I].
  - injection E as <- _. apply (N k x). now left.
  - apply (N k' v'). now right.
  - injection E as <- _. apply (N k x). now left.
  - refine (IH t v _ k' v' I). intros a b J. apply (N a b). now right.
Qed.
Lemma in_ddel : forall (d : flows) k e, In e (ddel mkeqb d k) -> In e d.
Proof. induction d as [|[k' v] d IH]; intros k e I; [exact I|]. cbn in I. destruct (mkeqb k k'); [now right|]. destruct I as [->|I]; [now left|]. right. eauto. Qed.
Lemma dget_ddel : forall (d : flows) k k', dwf mkeqb d -> dget mkeqb (ddel mkeqb d k) k' = if mkeqb k' k then None else dget mkeqb d k'.
Proof.
  induction d as [|[a v] d IH]; intros k k' W; cbn; [now destruct (mkeqb k' k)|]. destruct W as [W1 W2]. destruct (mkeqb k a) eqn:E.
  - destruct (mkeqb k' k) eqn:F.
    + pose proof (mk_trans _ _ _ F E) as G. clear -W1 G. induction d as [|[b w] d IH]; [reflexivity|]. cbn [dget dset] in *. destruct (mkeqb a b) eqn:H; [discriminate|]. destruct (mkeqb k' b) eqn:K; [|auto].
      rewrite mk_sym in G. rewrite (mk_trans _ _ _ G K) in H. discriminate.
    + destruct (mkeqb k' a) eqn:G; [|reflexivity]. rewrite mk_sym in E. rewrite (mk_trans _ _ _ G E) in F. discriminate.
  - cbn. destruct (mkeqb k' a) eqn:G.
    + destruct (mkeqb k' k) eqn:F; [|reflexivity]. rewrite mk_sym in F. rewrite (mk_trans _ _ _ F G) in E. discriminate.
    + now apply IH.
Qed.
Lemma ddel_wf : forall (d : flows) k, dwf mkeqb d -> dwf mkeqb (ddel mkeqb d k).
Proof.
  induction d as [|[a v] d IH]; intros k W; [exact W|]. pose proof W as [W1 W2]. cbn. destruct (mkeqb k a) eqn:E; [exact W2|]. cbn. split; [|now apply IH].
  rewrite dget_ddel by exact W2. now destruct (mkeqb a k).
Qed.
Lemma good_dset : forall d t v, good d -> good (dset mkeqb d (KNum t) v).
Proof. intros d t v [W N]. split; [now apply (dset_wf _ mk_sym mk_trans)|now apply numeric_dset]. Qed.
Lemma good_ddel : forall d k, good d -> good (ddel mkeqb d k).
Proof. intros d k [W N]. split; [now apply ddel_wf|]. intros a b I. exact (N a b (in_ddel _ _ _ I)). Qed.
Lemma when_proper : forall t, 0 <= t <= 1 -> when_conv_key (KNum t) = Ok t.
Proof. intros t [A B]. cbn. destruct (Qlt_bool 1 t) eqn:E; qb; [lra|]. destruct (Qlt_bool t 0) eqn:F; qb; [lra|]. reflexivity. Qed.
Lemma numbers_keys : forall d, numeric d -> map KNum (numbers_of (dkeys d)) = dkeys d /\ texts_of (dkeys d) = [].
Proof.
  induction d as [|[k v] d IH]; intro N; [auto|]. destruct (N k v (or_introl eq_refl)) as [t ->]. destruct IH as [A B]; [intros a b I; apply (N a b); now right|].
  split; [|exact B]. change (KNum t :: map KNum (numbers_of (dkeys d)) = KNum t :: dkeys d). now rewrite A.
Qed.
Lemma good_lists : forall d, good d -> lists (ledger_of d) (qsort (numbers_of (dkeys d))) /\ Datatypes.length (qsort (numbers_of (dkeys d))) = Datatypes.length d.
Proof.
  intros d [W N]. destruct (numbers_keys d N) as [A B]. split.
  - assert (D : distinctQ (numbers_of (dkeys d))).
    { clear A B. induction d as [|[k v] d IH]; [exact Logic.I|]. destruct (N k v (or_introl eq_refl)) as [t ->]. destruct W as [W1 W2]. assert (N' : numeric d) by (intros a b I; apply (N a b); now right).
      cbn. split; [|now apply IH]. intros u Iu E. destruct (numbers_keys d N') as [A _]. assert (J : In (KNum u) (dkeys d)) by (rewrite <- A; now apply in_map). apply in_map_iff in J. destruct J as ([k' v'] & Ek & J). cbn in Ek. subst k'.
      clear -W1 E J. induction d as [|[b w] d IH]; [destruct J|]. cbn [dget] in W1. destruct (mkeqb (KNum t) b) eqn:F; [discriminate|]. destruct J as [J|J]; [injection J as -> _; cbn in F; qb; tauto|auto]. }
    split; [apply strict_of_distinct; [apply qsort_sorted|]; eapply distinctQ_perm; [symmetry; apply qsort_perm|exact D]|].
    intro t. unfold ledger_of. split.
    + intros (u & Iu & E) G. apply (Permutation_in _ (qsort_perm _)) in Iu. assert (J : In (KNum u) (dkeys d)) by (rewrite <- A; now apply in_map). apply in_map_iff in J. destruct J as ([k' v'] & Ek & J). cbn in Ek. subst k'.
      clear -E G J. induction d as [|[b w] d IH]; [destruct J|]. cbn [dget] in G. destruct (mkeqb (KNum t) b) eqn:F; [discriminate|]. destruct J as [J|J]; [injection J as -> _; cbn in F; qb; apply F; now symmetry|auto].
    + intro G. assert (X : exists k v, In (k, v) d /\ mkeqb (KNum t) k = true).
      { clear -G. induction d as [|[b w] d IH]; [now destruct G|]. cbn [dget] in G. destruct (mkeqb (KNum t) b) eqn:F; [exists b, w; split; [now left|exact F]|]. destruct (IH G) as (k & v & I & E). exists k, v. split; [now right|exact E]. }
      destruct X as (k & v & I & E). destruct (N k v I) as [u ->]. cbn in E. qb. exists u. split; [|now symmetry]. apply (Permutation_in _ (Permutation_sym (qsort_perm _))).
      assert (J : In (KNum u) (map KNum (numbers_of (dkeys d)))) by (rewrite A; apply in_map_iff; exists (KNum u, v); auto). apply in_map_iff in J. destruct J as (w & Ew & J). injection Ew as ->. exact J.
  - rewrite (Permutation_length (qsort_perm _)). rewrite <- (map_length KNum), A. unfold dkeys. apply map_length.
Qed.
Lemma good_step : forall d u, good d -> proper d u -> good (snd (step d u)).
Proof.
  intros d u G P. destruct u as [k v|k v|k|k|k| | | |]; cbn [step proper] in *; try exact G.
  - destruct k as [t|s]; [|destruct P]. unfold m_set, add_flow. rewrite (when_proper t P). cbn. apply good_dset. destruct (dmem mkeqb d (KNum t)); [now apply good_ddel|exact G].
  - destruct k as [t|s]; [|destruct P]. unfold add_flow. rewrite (when_proper t P). cbn. now apply good_dset.
  - unfold m_del. destruct (dget mkeqb d k); cbn; [now apply good_ddel|exact G].
  - destruct k as [t|s]; [|destruct (proj1 P)]. unfold m_get, default_get. destruct (dget mkeqb d (KNum t)); [exact G|]. cbn. now apply good_dset.
  - split; [exact Logic.I|intros k v []].
  - split; [exact Logic.I|intros k v []].
Qed.
Lemma same_refl : forall f, same_ledger f f.
Proof. intros f t. destruct (f t); [reflexivity|exact Logic.I]. Qed.
(** the state of an account corresponds to a partial function *)
Definition agrees (f : ledger) (d : flows) : Prop := same_ledger f (ledger_of d).
Lemma agrees_some : forall f d t x, agrees f d -> dget mkeqb d (KNum t) = Some x -> exists y, f t = Some y /\ x == y.
Proof. intros f d t x A E. specialize (A t). unfold ledger_of in A. rewrite E in A. destruct (f t) as [y|]; [exists y; split; [reflexivity|now symmetry]|destruct A]. Qed.
Lemma agrees_none : forall f d t, agrees f d -> dget mkeqb d (KNum t) = None -> f t = None.
Proof. intros f d t A E. specialize (A t). unfold ledger_of in A. rewrite E in A. now destruct (f t). Qed.
Lemma lists_agrees : forall f d l, agrees f d -> lists (ledger_of d) l -> lists f l.
Proof.
  intros f d l A [S H]. split; [exact S|]. intro t. rewrite H. specialize (A t). destruct (f t), (ledger_of d t); split; try congruence; try destruct A; intros _; discriminate.
Qed.
Lemma step_means : forall f d u, agrees f d -> good d -> proper d u -> exists f1, means f u (fst (step d u)) f1 /\ agrees f1 (snd (step d u)).
Proof.
  intros f d u A G P. destruct u as [k v|k v|k|k|k| | | |]; cbn [step proper] in *.
  - destruct k as [t|s]; [|destruct P]. unfold m_set, add_flow. rewrite (when_proper t P). cbn [fst snd of_unit]. exists (put_at f t v). split; [constructor|].
    intro u. unfold put_at, ledger_of. rewrite (dget_dset _ mk_sym mk_trans). cbn [mkeqb]. set (d1 := if dmem mkeqb d (KNum t) then _ else d).
    assert (D1 : forall k, dget mkeqb d1 k = if mkeqb k (KNum t) then None else dget mkeqb d k).
    { intro k. unfold d1, dmem. destruct (dget mkeqb d (KNum t)) eqn:E; [apply dget_ddel, G|]. destruct (mkeqb k (KNum t)) eqn:F; [|reflexivity].
      clear -E F. induction d as [|[b w] d IH]; [reflexivity|]. cbn [dget dset] in *. destruct (mkeqb (KNum t) b) eqn:H; [discriminate|]. destruct (mkeqb k b) eqn:K; [|auto]. rewrite mk_sym in F. rewrite (mk_trans _ _ _ F K) in H. discriminate. }
    destruct (Qeq_bool u t) eqn:E.
    + unfold default_get. rewrite D1. cbn [mkeqb]. rewrite qeqb_refl. cbn. lra.
    + rewrite D1. cbn [mkeqb]. rewrite E. apply A.
  - destruct k as [t|s]; [|destruct P]. unfold add_flow. rewrite (when_proper t P). cbn [fst snd of_unit]. eexists. split; [constructor|].
    intro u. unfold put_at, ledger_of. rewrite (dget_dset _ mk_sym mk_trans). cbn [mkeqb]. destruct (Qeq_bool u t) eqn:E; [|apply A].
    unfold default_get. destruct (dget mkeqb d (KNum t)) as [x|] eqn:D; cbn [fst].
    + destruct (agrees_some f d t x A D) as (y & -> & Exy). rewrite Exy. reflexivity.
    + rewrite (agrees_none f d t A D). lra.
  - destruct k as [t|s]; [|destruct P]. unfold m_del. destruct (dget mkeqb d (KNum t)) as [x|] eqn:D; cbn [fst snd of_unit].
    + destruct (agrees_some f d t x A D) as (y & F & Exy). exists (drop_at f t). split; [econstructor; exact F|]. intro u. unfold drop_at, ledger_of. rewrite dget_ddel by apply G. cbn [mkeqb]. destruct (Qeq_bool u t); [exact Logic.I|apply A].
    + exists f. split; [constructor; exact (agrees_none f d t A D)|exact A].
  - destruct P as [P H]. destruct k as [t|s]; [|destruct P]. unfold m_contains in H. rewrite (when_proper t P) in H. cbn [bind] in H. injection H as H. unfold dmem in H. unfold m_get, default_get.
    destruct (dget mkeqb d (KNum t)) as [x|] eqn:D; [|discriminate]. destruct (agrees_some f d t x A D) as (y & F & Exy). exists f. split; [econstructor; eauto|exact A].
  - destruct k as [t|s]; [|destruct P]. unfold m_contains. rewrite (when_proper t P). cbn [bind fst snd]. exists f. split; [|exact A].
    replace (dmem mkeqb d (KNum t)) with (match f t with Some _ => true | None => false end); [constructor|]. unfold dmem. specialize (A t). unfold ledger_of in A. destruct (f t), (dget mkeqb d (KNum t)); tauto.
  - exists f. split; [|exact A]. destruct (good_lists d G) as [L E]. unfold m_len. cbn [fst]. rewrite <- E. constructor. exact (lists_agrees f d _ A L).
  - exists f. split; [|exact A]. destruct (good_lists d G) as [L E]. destruct (numbers_keys d (proj2 G)) as [_ T]. unfold m_iter. rewrite T. cbn [fst]. destruct (numbers_of (dkeys d)); cbn [fst]; constructor; exact (lists_agrees f d _ A L).
  - eexists. split; [constructor|]. intro t. exact Logic.I.
  - eexists. split; [constructor|]. intro t. exact Logic.I.
Qed.
(** ** C94 *)
(** Over every history of uses with numeric times within the year, in which only recorded times are read, an account behaves
    as a partial function from times to amounts: assigning replaces, adding accumulates, deleting removes (and
    reports a missing time), membership, size and iteration (ascending, each time once) agree. *)
Theorem C94_behaves_as_mapping_partial : forall us, all_proper [] us -> exists g, run_means (fun _ => None) us (fst (uses [] us)) g /\ same_ledger g (ledger_of (snd (uses [] us))).
Proof.
  assert (X : forall us f d, agrees f d -> good d -> all_proper d us -> exists g, run_means f us (fst (uses d us)) g /\ same_ledger g (ledger_of (snd (uses d us)))).
  { induction us as [|u us IH]; intros f d A G P; cbn [uses].
    - exists f. split; [constructor; apply same_refl|exact A].
    - destruct P as [P1 P2]. destruct (step_means f d u A G P1) as (f1 & M & A1). destruct (IH f1 _ A1 (good_step d u G P1) P2) as (g & R & S). clear IH P2.
      destruct (step d u) as [a d1]. cbn [fst snd] in *. destruct (uses d1 us) as [as_ d2]. cbn [fst snd] in *. exists g. split; [econstructor; eauto|exact S]. }
  intros us P. apply X; auto; [intro t; exact Logic.I|split; [exact Logic.I|intros k v []]].
Qed.
Print Assumptions C94_behaves_as_mapping_partial.
(** A time outside the year is refused by assignment, addition and membership, without effect. *)
Theorem C94_refused : forall d t v, ~ 0 <= t <= 1 -> m_contains d (KNum t) = Err ValueError /\ add_flow d v (KNum t) = (Err ValueError, d) /\
  (dget mkeqb d (KNum t) = None -> m_set d (KNum t) v = (Err ValueError, d)).
Proof.
  intros d t v H. assert (E : when_conv_key (KNum t) = Err ValueError).
  { cbn. destruct (Qlt_bool 1 t) eqn:A; [reflexivity|]. destruct (Qlt_bool t 0) eqn:B; [reflexivity|]. qb. exfalso. apply H. split; assumption. }
  unfold m_contains, m_set, add_flow, dmem. rewrite E. split; [reflexivity|]. split; [reflexivity|]. intros ->. reflexivity.
Qed.
Print Assumptions C94_refused.
(** Assigning at 'start' or 'end' adds to what is recorded there instead of replacing it. *)
Theorem C94_text_assignment_refuted : forall d x v, dget mkeqb d (KNum 1) = Some x -> dget mkeqb d (KText "end") = None -> fst (m_set d (KText "end") v) = Ok tt /\
  exists y, dget mkeqb (snd (m_set d (KText "end") v)) (KNum 1) = Some y /\ y == x + v.
Proof.
  intros d x v H T. unfold m_set, dmem. rewrite T. cbn. split; [reflexivity|]. unfold default_get. rewrite H. cbn [fst].
  exists (x + v). split; [|reflexivity]. rewrite (dget_dset _ mk_sym mk_trans). reflexivity.
Qed.
Print Assumptions C94_text_assignment_refuted.
(** Reading (by key) where nothing is recorded records a zero there: even outside the year, where nothing may be recorded. *)
Theorem C94_reading_records_refuted : forall d t, dget mkeqb d (KNum t) = None ->
  fst (m_get d (KNum t)) = 0 /\ m_len (snd (m_get d (KNum t))) = S (m_len d) /\ dget mkeqb (snd (m_get d (KNum t))) (KNum t) = Some 0.
Proof.
  intros d t H. unfold m_get, default_get. rewrite H. cbn [fst snd]. split; [reflexivity|]. split.
  - unfold m_len. clear -H. induction d as [|[k v] d IH]; [reflexivity|]. cbn [dget dset] in *. destruct (mkeqb (KNum t) k); [discriminate|]. cbn. now rewrite IH.
  - rewrite (dget_dset _ mk_sym mk_trans). cbn. now rewrite qeqb_refl.
Qed.
Print Assumptions C94_reading_records_refuted.
(** Reading at 'start' does not give the amount recorded at the start, and from then on iterating over the account fails. *)
Theorem C94_text_reading_refuted : forall d x, good d -> dget mkeqb d (KNum 0) = Some x -> 
  m_contains d (KText "start") = Ok true /\ fst (m_get d (KText "start")) = 0 /\ m_iter (snd (m_get d (KText "start"))) = Err TypeError.
Proof.
  intros d x [W N] H. split; [cbn; unfold dmem; now rewrite H|]. assert (E : dget mkeqb d (KText "start") = None).
  { clear -N. induction d as [|[k v] d IH]; [reflexivity|]. destruct (N k v (or_introl eq_refl)) as [t ->]. cbn. apply IH. intros a b I. apply (N a b). now right. }
  unfold m_get, default_get. rewrite E. split; [reflexivity|]. cbn [snd]. assert (A : dset mkeqb d (KText "start") 0 = d ++ [(KText "start", 0)]).
  { clear -E. induction d as [|[k v] d IH]; [reflexivity|]. cbn [dget dset] in *. destruct (mkeqb (KText "start") k) eqn:F; [discriminate|]. cbn. now rewrite IH. }
  rewrite A. unfold m_iter, dkeys. rewrite map_app. cbn [map fst]. unfold numbers_of, texts_of. rewrite !flat_map_app. cbn.
  destruct (numbers_keys d N) as [_ T]. unfold texts_of, dkeys in T. rewrite T. rewrite app_nil_r. cbn.
  destruct d as [|[k v] d]; [discriminate|]. destruct (N k v (or_introl eq_refl)) as [t ->]. reflexivity.
Qed.
Print Assumptions C94_text_reading_refuted.
Definition demo_uses : list use := [Set_ (KNum (1#2)) 5; Add (KNum 0) 3; Add (KNum (2#4)) (-1); Set_ (KNum 1) 8; Set_ (KNum 1) 9; Read (KNum (1#2)); Times; Del (KNum 0); Del (KNum 0); Has (KNum 0); Size].
Example C94_sat : all_proper [] demo_uses /\ fst (uses [] demo_uses) =
  [Done; Done; Done; Done; Done; Value 4; Listed [KNum 0; KNum (1#2); KNum 1]; Done; Raised KeyError; Truth false; Count 2].
Proof. split; [|vm_compute; reflexivity]. cbn. repeat split; try discriminate; reflexivity. Qed.
