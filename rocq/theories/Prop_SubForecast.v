(** C58-C61: sub-forecasts move money between accounts. *)
From Verif Require Import Base BaseFacts TimingModel SubModel.
From Verif Require TimingSpec TimingProofs.
From Coq Require Import Lqa Lia Permutation Sorted.

(** ** Specification vocabulary *)
(** the amount of account [a] at time [t], and its total over all times *)
Definition hval (h : heap) (a : nat) (t : Q) : Q := qval (hget h a) t.
Definition htotal (h : heap) (a : nat) : Q := Qsum (dvals (hget h a)).
(** the same for the sub-forecast's own record; None is the world outside the model *)
Definition tval (x : txs) (o : option nat) (t : Q) : Q := qval (tget x o) t.
Definition ttotal (x : txs) (o : option nat) : Q := Qsum (dvals (tget x o)).
(** +1 for the destination, -1 for the source *)
Definition dir (from to o : option nat) : Q := (if oeqb to o then 1 else 0) - (if oeqb from o then 1 else 0).

(** ** Facts about mappings *)
Lemma qval_set : forall d k v t, qval (dset Qeq_bool d k v) t = if Qeq_bool t k then v else qval d t.
Proof. intros. unfold qval, qget. rewrite qdget_dset. destruct (Qeq_bool t k); reflexivity. Qed.
Lemma qval_congr : forall d a b, a == b -> qval d a = qval d b.
Proof. intros. unfold qval, qget. now rewrite (qdget_congr d a b). Qed.
Lemma incr_val : forall d t v t', qval (incr d t v) t' == qval d t' + (if Qeq_bool t' t then v else 0).
Proof.
  intros d t v t'. unfold incr. destruct (dget Qeq_bool d t) as [y|] eqn:E; rewrite qval_set; destruct (Qeq_bool t' t) eqn:Q; try lra;
    apply Qeq_bool_t in Q; rewrite (qval_congr d t' t Q); unfold qval, qget; rewrite E; lra.
Qed.
Lemma qset_total : forall (d : dict Q Q) k v, Qsum (dvals (dset Qeq_bool d k v)) == Qsum (dvals d) + v - qval d k.
Proof.
  unfold dvals. induction d as [|[a x] d IH]; intros k v; cbn [dset map Qsum snd]; [unfold qval, qget; cbn; lra|].
  unfold qval, qget. cbn [dget]. destruct (Qeq_bool k a); cbn [map Qsum snd]; [lra|]. specialize (IH k v). unfold qval, qget in IH. lra.
Qed.
Lemma incr_total : forall d t v, Qsum (dvals (incr d t v)) == Qsum (dvals d) + v.
Proof.
  intros d t v. unfold incr. destruct (dget Qeq_bool d t) as [y|] eqn:E; rewrite qset_total; unfold qval, qget; rewrite E; lra.
Qed.
Lemma hget_set : forall h a d b, hget (hset h a d) b = if Nat.eqb b a then d else hget h b.
Proof. intros. unfold hget, hset. rewrite ndget_dset. destruct (Nat.eqb b a); reflexivity. Qed.
Lemma oeqb_eq : forall a b, oeqb a b = true <-> a = b.
Proof.
  intros [a|] [b|]; cbn; try (split; congruence). rewrite Nat.eqb_eq. split; congruence.
Qed.
Lemma oeqb_sym : forall a b, oeqb a b = oeqb b a.
Proof. intros [a|] [b|]; cbn; auto. apply Nat.eqb_sym. Qed.
Lemma tget_set : forall (x : txs) a d b, tget (dset oeqb x a d) b = if oeqb b a then d else tget x b.
Proof.
  intros x a d b. unfold tget. rewrite dget_dset; [destruct (oeqb b a); reflexivity|exact oeqb_sym|].
  intros u v w H1 H2. apply oeqb_eq in H1, H2. subst. now apply oeqb_eq.
Qed.
Lemma post_val : forall h o t v a t', hval (post h o t v) a t' == hval h a t' + (if oeqb o (Some a) then (if Qeq_bool t' t then v else 0) else 0).
Proof.
  intros h [i|] t v a t'; unfold hval; cbn [post oeqb]; [|lra]. rewrite hget_set. rewrite (Nat.eqb_sym a i). destruct (Nat.eqb_spec i a) as [->|N]; [apply incr_val|lra].
Qed.
Lemma post_total : forall h o t v a, htotal (post h o t v) a == htotal h a + (if oeqb o (Some a) then v else 0).
Proof.
  intros h [i|] t v a; unfold htotal; cbn [post oeqb]; [|lra]. rewrite hget_set. rewrite (Nat.eqb_sym a i). destruct (Nat.eqb_spec i a) as [->|N]; [apply incr_total|lra].
Qed.
Lemma book_val : forall x o t v a t', tval (book x o t v) a t' == tval x a t' + (if oeqb o a then (if Qeq_bool t' t then v else 0) else 0).
Proof.
  intros x o t v a t'. unfold tval, book. rewrite tget_set, (oeqb_sym a o). destruct (oeqb o a) eqn:E; [apply oeqb_eq in E; subst; apply incr_val|lra].
Qed.
Lemma book_total : forall x o t v a, ttotal (book x o t v) a == ttotal x a + (if oeqb o a then v else 0).
Proof.
  intros x o t v a. unfold ttotal, book. rewrite tget_set, (oeqb_sym a o). destruct (oeqb o a) eqn:E; [apply oeqb_eq in E; subst; apply incr_total|lra].
Qed.

(** what one piece does *)
Definition moved (from to : option nat) (m : Q -> Q) (total : Q) (hx hx' : heap * txs) : Prop :=
  (forall a t, hval (fst hx') a t == hval (fst hx) a t + m t * dir from to (Some a)) /\
  (forall o t, tval (snd hx') o t == tval (snd hx) o t + m t * dir from to o) /\
  (forall a, htotal (fst hx') a == htotal (fst hx) a + total * dir from to (Some a)) /\
  (forall o, ttotal (snd hx') o == ttotal (snd hx) o + total * dir from to o).
Lemma add_one_moved : forall kd hx v w from to st, exists t, moved from to (fun t' => if Qeq_bool t' t then v else 0) v hx (add_one kd hx v w from to st) /\
  t = match from with Some a => if st then w else shift_when kd (fst hx) v w a | None => w end.
Proof.
  intros kd [h x] v w from to st. unfold add_one. cbn [fst snd]. eexists. split; [|reflexivity].
  set (t := match from with Some a => if st then w else shift_when kd h v w a | None => w end).
  unfold moved, dir. cbn [fst snd]. split; [|split; [|split]].
  - intros a t'. rewrite !post_val. destruct (oeqb to (Some a)), (oeqb from (Some a)), (Qeq_bool t' t); lra.
  - intros o t'. rewrite !book_val. destruct (oeqb to o), (oeqb from o), (Qeq_bool t' t); lra.
  - intros a. rewrite !post_total. destruct (oeqb to (Some a)), (oeqb from (Some a)); lra.
  - intros o. rewrite !book_total. destruct (oeqb to o), (oeqb from o); lra.
Qed.
Lemma moved_refl : forall from to hx, moved from to (fun _ => 0) 0 hx hx.
Proof. intros from to [h x]. unfold moved. repeat split; intros; lra. Qed.
Lemma moved_trans : forall from to m n p q a b c, moved from to m p a b -> moved from to n q b c -> moved from to (fun t => m t + n t) (p + q) a c.
Proof.
  intros from to m n p q a b c (A1 & A2 & A3 & A4) (B1 & B2 & B3 & B4). unfold moved. split; [|split; [|split]]; intros.
  - rewrite B1, A1. lra.
  - rewrite B2, A2. lra.
  - rewrite B3, A3. lra.
  - rewrite B4, A4. lra.
Qed.
Lemma fold_err : forall {A B} (f : A -> B -> res A) e (l : list B), fold_left (fun r x => let* a := r in f a x) l (Err e) = Err e.
Proof. intros A B f e l. induction l as [|x l IH]; [reflexivity|exact IH]. Qed.
Lemma fold_ne : forall kd v total f t st e (l : dict Q Q) y,
  fold_left (fun r tw => let* hx := r in let* share := qdiv (snd tw) total in Ok (add_one kd hx (v * share) (fst tw) f t st)) l (Err e) <> Ok y.
Proof. intros kd v total f t st e l y. induction l as [|x l IH]; [discriminate|exact IH]. Qed.
Lemma pieces : forall kd v total f t st timing hx hx', ~ total == 0 ->
  fold_left (fun r tw => let* hx := r in let* share := qdiv (snd tw) total in Ok (add_one kd hx (v * share) (fst tw) f t st)) timing (Ok hx) = Ok hx' ->
  exists m, moved f t m (v * (Qsum (dvals timing) / total)) hx hx'.
Proof.
  intros kd v total f t st timing. induction timing as [|[w s] l IH]; intros hx hx' Ht H; cbn [fold_left] in H.
  - injection H as <-. exists (fun _ => 0). destruct (moved_refl f t hx) as (A1 & A2 & A3 & A4). unfold dvals. cbn [map Qsum].
    assert (E0 : v * (0 / total) == 0) by (field; exact Ht).
    unfold moved. split; [exact A1|]. split; [exact A2|]. split; intros; rewrite E0; [apply A3|apply A4].
  - cbn [bind fst snd] in H.
    assert (Eq : qdiv s total = Ok (s / total)) by (unfold qdiv; destruct (Qeq_bool total 0) eqn:E; [apply Qeq_bool_t in E; contradiction|reflexivity]).
    rewrite Eq in H. clear Eq. cbn [bind] in H.
    destruct (IH _ _ Ht H) as [m M]. destruct (add_one_moved kd hx (v * (s / total)) w f t st) as (t0 & A & _).
    eexists. pose proof (moved_trans _ _ _ _ _ _ _ _ _ A M) as R.
    destruct R as (R1 & R2 & R3 & R4). unfold moved. split; [exact R1|]. split; [exact R2|].
    assert (Eq : v * (s / total) + v * (Qsum (dvals l) / total) == v * (Qsum (dvals ((w, s) :: l)) / total)) by (unfold dvals; cbn [map Qsum snd]; field; exact Ht).
    split; intros; [rewrite R3|rewrite R4]; rewrite Eq; reflexivity.
Qed.

(** ** C58 *)
(** Whatever leaves the source arrives at the destination, at the same times; nothing else changes;
    the pieces add up to the value; and the sub-forecast's record says the same. *)
Theorem C58_double_entry : forall kd hx value timing from to strict hx', timing <> [] ->
  add_timed kd hx value timing from to strict = Ok hx' ->
  exists m : Q -> Q,
    (forall a t, hval (fst hx') a t == hval (fst hx) a t + m t * dir from to (Some a)) /\
    (forall o t, tval (snd hx') o t == tval (snd hx) o t + m t * dir from to o) /\
    (forall a, htotal (fst hx') a == htotal (fst hx) a + value * dir from to (Some a)) /\
    (forall o, ttotal (snd hx') o == ttotal (snd hx) o + value * dir from to o).
Proof.
  intros kd hx value timing from to st hx' N H. unfold add_timed in H.
  assert (Ht : ~ Qsum (dvals timing) == 0).
  { intros E. destruct timing as [|[w s] l]; [contradiction|].
    destruct (if Qlt_bool value 0 then (to, from) else (from, to)) as [f t]. cbn [fold_left bind fst snd] in H.
    set (tot := Qsum (dvals ((w, s) :: l))) in *.
    assert (Eq : qdiv s tot = Err ZeroDivisionError) by (unfold qdiv; rewrite (proj2 (Qeq_bool_iff _ _) E); reflexivity).
    rewrite Eq in H. cbn [bind] in H. revert H. apply fold_ne. }
  destruct (Qlt_bool value 0) eqn:Sg.
  - destruct (pieces kd (- value) _ to from st timing hx hx' Ht H) as (m & M1 & M2 & M3 & M4). exists (fun t => - m t).
    assert (Eq : (- value) * (Qsum (dvals timing) / Qsum (dvals timing)) == - value) by (field; exact Ht).
    assert (Dr : forall o, dir to from o == - dir from to o) by (intros o; unfold dir; lra).
    split; [|split; [|split]]; intros; [rewrite M1|rewrite M2|rewrite M3, Eq|rewrite M4, Eq]; rewrite Dr; lra.
  - destruct (pieces kd value _ from to st timing hx hx' Ht H) as (m & M1 & M2 & M3 & M4). exists m.
    assert (Eq : value * (Qsum (dvals timing) / Qsum (dvals timing)) == value) by (field; exact Ht).
    split; [exact M1|]. split; [exact M2|]. split; intros; [rewrite M3, Eq|rewrite M4, Eq]; lra.
Qed.
Print Assumptions C58_double_entry.
(** a negative value is the reverse transaction *)
Theorem C58_negative_is_reversed : forall kd hx value timing from to strict, ~ value == 0 ->
  add_timed kd hx (- value) timing from to strict = add_timed kd hx value timing to from strict.
Proof.
  intros kd hx v timing from to st N. unfold add_timed.
  assert (Inv : - - v = v) by (destruct v as [n d]; unfold Qopp; cbn; now rewrite Z.opp_involutive).
  destruct (Qlt_bool v 0) eqn:E1, (Qlt_bool (- v) 0) eqn:E2; try (apply Qlt_bool_t in E1); try (apply Qlt_bool_f in E1); try (apply Qlt_bool_t in E2); try (apply Qlt_bool_f in E2).
  - exfalso. lra.
  - reflexivity.
  - rewrite Inv. reflexivity.
  - exfalso. apply N. lra.
Qed.
Print Assumptions C58_negative_is_reversed.
(** money moved between two tracked accounts leaves their total unchanged *)
Theorem C58_total_conserved : forall kd hx value timing a b strict hx' accts, timing <> [] ->
  NoDup accts -> In a accts -> In b accts ->
  add_timed kd hx value timing (Some a) (Some b) strict = Ok hx' ->
  Qsum (map (htotal (fst hx')) accts) == Qsum (map (htotal (fst hx)) accts).
Proof.
  intros kd hx value timing a b st hx' l N D Ia Ib H. destruct (C58_double_entry _ _ _ _ _ _ _ _ N H) as (m & _ & _ & T & _).
  assert (S : Qsum (map (htotal (fst hx')) l) == Qsum (map (htotal (fst hx)) l) + value * (Qsum (map (fun c => if Nat.eqb b c then 1 else 0) l) - Qsum (map (fun c => if Nat.eqb a c then 1 else 0) l))).
  { clear D Ia Ib. induction l as [|c l IH]; cbn [map Qsum]; [lra|]. rewrite IH, T. unfold dir. cbn [oeqb]. lra. }
  assert (One : forall x, In x l -> Qsum (map (fun c => if Nat.eqb x c then 1 else 0) l) == 1).
  { intros x. clear -D. induction l as [|c l IH]; intros Hx; [destruct Hx|]. inversion D; subst. cbn [map Qsum].
    assert (Z0 : ~ In x l -> Qsum (map (fun c => if Nat.eqb x c then 1 else 0) l) == 0).
    { clear. induction l as [|c l IH]; intros Hn; cbn [map Qsum]; [reflexivity|]. destruct (Nat.eqb_spec x c) as [->|Nc]; [exfalso; apply Hn; now left|].
      rewrite IH; [lra|]. intros Q. apply Hn. now right. }
    destruct (Nat.eqb_spec x c) as [->|Nc]; [rewrite Z0 by assumption; lra|]. destruct Hx as [->|Hx]; [contradiction|]. rewrite IH by assumption. lra. }
  rewrite S, (One a Ia), (One b Ib). lra.
Qed.
Print Assumptions C58_total_conserved.

(** whole runs: any number of transactions, each decided after looking at the accounts *)
(** all that the record says about time [t], over every account and the outside world *)
Definition rec_net (x : txs) (t : Q) : Q := Qsum (map (fun od => qval (snd od) t) x).
Lemma book_net : forall x o t v t', rec_net (book x o t v) t' == rec_net x t' + (if Qeq_bool t' t then v else 0).
Proof.
  intros x o t v t'. unfold book, rec_net, tget. induction x as [|[k d] x IH]; cbn [dget dset map Qsum snd].
  - rewrite incr_val. unfold qval at 1, qget. cbn. lra.
  - destruct (oeqb o k) eqn:E; cbn [map Qsum snd]; [rewrite incr_val; lra|]. rewrite IH. lra.
Qed.
Definition tracks (hx hx' : heap * txs) : Prop :=
  (forall a t, hval (fst hx') a t - hval (fst hx) a t == tval (snd hx') (Some a) t - tval (snd hx) (Some a) t) /\
  (forall t, rec_net (snd hx') t == rec_net (snd hx) t).
Lemma tracks_trans : forall a b c, tracks a b -> tracks b c -> tracks a c.
Proof.
  intros a b c [A1 A2] [B1 B2]. split; intros.
  - specialize (A1 a0 t). specialize (B1 a0 t). lra.
  - rewrite B2. apply A2.
Qed.
Lemma add_one_tracks : forall kd hx v w from to st, tracks hx (add_one kd hx v w from to st).
Proof.
  intros kd hx v w from to st. destruct (add_one_moved kd hx v w from to st) as (t & (M1 & M2 & _) & _). split.
  - intros a t'. rewrite M1, M2. lra.
  - intros t'. destruct hx as [h x]. unfold add_one. cbn [snd]. rewrite !book_net.
    match goal with |- _ + (if ?b then _ else _) + _ == _ => destruct b end; lra.
Qed.
Lemma tracks_refl : forall hx, tracks hx hx.
Proof. intros. split; intros; lra. Qed.
Lemma add_timed_tracks : forall kd hx v timing from to st hx', add_timed kd hx v timing from to st = Ok hx' -> tracks hx hx'.
Proof.
  intros kd hx v timing from to st hx' H. unfold add_timed in H.
  destruct (if Qlt_bool v 0 then (to, from) else (from, to)) as [f t]. revert H.
  generalize (Qsum (dvals timing)) as total. generalize (if Qlt_bool v 0 then - v else v) as u. intros u total. revert hx.
  induction timing as [|[w s] l IH]; intros hx H; cbn [fold_left] in H; [injection H as <-; apply tracks_refl|].
  cbn [bind fst snd] in H. destruct (qdiv s total) as [sh|e] eqn:E.
  - cbn [bind] in H. eapply tracks_trans; [apply add_one_tracks|]. exact (IH _ H).
  - exfalso. revert H. apply fold_ne.
Qed.
(** In any run, each account changes at each time by exactly what the record says it does, and the
    record's entries for each time, over all accounts and the outside, cancel. *)
Theorem C58_runs_balance : forall kd default p hx hx', run kd default hx p = Ok hx' ->
  (forall a t, hval (fst hx') a t - hval (fst hx) a t == tval (snd hx') (Some a) t - tval (snd hx) (Some a) t) /\
  (forall t, rec_net (snd hx') t == rec_net (snd hx) t).
Proof.
  intros kd default p. induction p as [|e|v t f to st k IH]; intros hx hx' H; cbn [run] in H.
  - injection H as <-. apply tracks_refl.
  - discriminate.
  - destruct (add_transaction kd default hx v t f to st) as [hy|e] eqn:E; [|discriminate]. cbn [bind] in H.
    apply (tracks_trans hx hy hx'); [|exact (IH _ _ _ H)].
    unfold add_transaction in E. destruct (timing_arg default t) as [tm|e]; [|discriminate]. exact (add_timed_tracks _ _ _ _ _ _ _ _ E).
Qed.
Print Assumptions C58_runs_balance.

(** ** C59 *)
(** the cash in the source from time [t] on always covers [value] *)
Definition covers (d : dict Q Q) (value t : Q) : Prop := forall s, t <= s -> value <= upto d s.
Lemma upto_ext : forall d a b, (forall k v, In (k, v) d -> (k <= a <-> k <= b)) -> upto d a == upto d b.
Proof.
  intros d a b. unfold upto. induction d as [|[k v] d IH]; intros H; cbn [filter map Qsum fst]; [reflexivity|].
  assert (E : Qle_bool k a = Qle_bool k b).
  { pose proof (H k v (or_introl eq_refl)) as [A B]. destruct (Qle_bool k a) eqn:Ea, (Qle_bool k b) eqn:Eb; try reflexivity; exfalso; qb; lra. }
  rewrite E. specialize (IH (fun k' v' Hi => H k' v' (or_intror Hi))). destruct (Qle_bool k b); cbn [map Qsum snd]; [rewrite IH|]; try reflexivity. exact IH.
Qed.
Lemma last_before : forall (l : list Q) s w, In w l -> w <= s -> exists k, In k l /\ w <= k /\ k <= s /\ forall x, In x l -> x <= s -> x <= k.
Proof.
  intros l s. induction l as [|x l IH]; intros w Hw Hs; [destruct Hw|].
  assert (D : (exists y, In y l /\ y <= s) \/ forall y, In y l -> s < y).
  { clear. induction l as [|y l IH]; [right; intros z []|]. destruct (Qlt_le_dec s y) as [A|A].
    - destruct IH as [(z & Hz & Hs)|N]; [left; exists z; split; [now right|exact Hs]|right]. intros z [<-|Hz]; auto.
    - left. exists y. split; [now left|exact A]. }
  destruct (Qlt_le_dec s x) as [A|A].
  - destruct Hw as [->|Hw]; [exfalso; lra|]. destruct (IH w Hw Hs) as (k & K1 & K2 & K3 & K4). exists k. split; [now right|]. repeat split; auto.
    intros y [<-|Hy] Hys; [exfalso; lra|auto].
  - destruct D as [(y & Hy & Hys)|N].
    + destruct (IH y Hy Hys) as (k & K1 & K2 & K3 & K4). destruct (Qlt_le_dec k x) as [B|B].
      * exists x. split; [now left|]. split; [destruct Hw as [<-|Hw]; [lra|specialize (K4 w Hw Hs); lra]|]. split; [exact A|].
        intros z [<-|Hz] Hzs; [lra|specialize (K4 z Hz Hzs); lra].
      * exists k. split; [now right|]. split; [destruct Hw as [<-|Hw]; [lra|exact (K4 w Hw Hs)]|]. split; [exact K3|].
        intros z [<-|Hz] Hzs; [exact B|exact (K4 z Hz Hzs)].
    + exists x. split; [now left|]. split; [destruct Hw as [<-|Hw]; [lra|specialize (N w Hw); lra]|]. split; [exact A|].
      intros z [<-|Hz] Hzs; [lra|specialize (N z Hz); lra].
Qed.
Lemma keys_with_all : forall d w k v, In (k, v) d -> In k (keys_with d w).
Proof.
  intros d w k v H. assert (I : In k (dkeys d)) by (unfold dkeys; change k with (fst (k, v)); now apply in_map).
  unfold keys_with. destruct (dmem Qeq_bool d w); [exact I|apply in_or_app; now left].
Qed.
Lemma keys_with_w : forall d w, exists k, In k (keys_with d w) /\ k == w.
Proof.
  intros d w. unfold keys_with, dmem. destruct (dget Qeq_bool d w) as [y|] eqn:E.
  - revert E. induction d as [|[k v] d IH]; cbn [dget]; intros E; [discriminate|]. destruct (Qeq_bool w k) eqn:Q.
    + exists k. split; [now left|]. apply Qeq_bool_t in Q. now symmetry.
    + destruct (IH E) as (z & Z1 & Z2). exists z. split; [now right|exact Z2].
  - exists w. split; [apply in_or_app; right; now left|reflexivity].
Qed.
(** the accumulated dict decides [covers] at its own times *)
Lemma accum_keys : forall d w t, In t (dkeys (accum_plain d w)) <-> In t (keys_with d w) /\ w <= t.
Proof.
  intros d w t. unfold accum_plain, dkeys. rewrite map_map. cbn [fst]. rewrite map_id, filter_In. split; intros [A B]; split; auto; qb; auto.
  apply Qle_bool_iff. exact B.
Qed.
Lemma snap : forall d w s t, In t (keys_with d w) -> t <= s -> exists k, In k (keys_with d w) /\ t <= k /\ k <= s /\ upto d k == upto d s /\
  forall r, k <= r -> r <= s -> upto d r == upto d s.
Proof.
  intros d w s t Ht Hs. destruct (last_before _ _ _ Ht Hs) as (k & K1 & K2 & K3 & K4).
  assert (U : forall r, k <= r -> r <= s -> upto d r == upto d s).
  { intros r Hk Hr. apply upto_ext. intros x v Hx. split; intros L; [lra|]. specialize (K4 x (keys_with_all _ _ _ _ Hx) L). lra. }
  exists k. split; [exact K1|]. split; [exact K2|]. split; [exact K3|]. split; [apply U; lra|exact U].
Qed.
Lemma eligible_iff : forall d w value t, In t (dkeys (accum_plain d w)) -> eligible (accum_plain d w) value t = true <-> covers d value t.
Proof.
  intros d w value t Ht. apply accum_keys in Ht. destruct Ht as [Ht Hw]. unfold eligible. rewrite forallb_forall. split.
  - intros H s Hs. destruct (snap d w s t Ht Hs) as (k & K1 & K2 & K3 & K4 & _). rewrite <- K4.
    specialize (H (k, upto d k)). cbn [fst snd] in H.
    assert (I : In (k, upto d k) (accum_plain d w)).
    { unfold accum_plain. apply in_map_iff. exists k. split; [reflexivity|]. apply filter_In. split; [exact K1|]. apply Qle_bool_iff. lra. }
    specialize (H I). rewrite (proj2 (Qle_bool_iff t k) K2) in H. cbn in H. now apply Qle_bool_iff.
  - intros H [k x] Hx. unfold accum_plain in Hx. apply in_map_iff in Hx. destruct Hx as (y & Ey & _). injection Ey as -> <-. cbn [fst snd].
    destruct (Qle_bool t k) eqn:E; [cbn|reflexivity]. apply Qle_bool_iff. apply H. now apply Qle_bool_iff.
Qed.
Lemma covers_congr : forall d v a b, a == b -> covers d v a -> covers d v b.
Proof. intros d v a b E H s Hs. apply H. lra. Qed.
Lemma eligible_none : forall d w value, filter (eligible (accum_plain d w) value) (dkeys (accum_plain d w)) = [] ->
  forall t, w <= t -> ~ covers d value t.
Proof.
  intros d w value F t Hw C. destruct (keys_with_w d w) as (w' & W1 & W2).
  destruct (snap d w t w' W1) as (k & K1 & K2 & K3 & _ & K5); [lra|].
  assert (I : In k (dkeys (accum_plain d w))) by (apply accum_keys; split; [exact K1|lra]).
  assert (E : In k (filter (eligible (accum_plain d w) value) (dkeys (accum_plain d w)))).
  { apply filter_In. split; [exact I|]. apply eligible_iff; [exact I|]. intros s Hs.
    destruct (Qlt_le_dec s t) as [L|L]; [|now apply C]. rewrite (K5 s Hs) by lra. apply C. lra. }
  rewrite F in E. destruct E.
Qed.
Lemma shift_spec : forall d w value, let r := earliest (accum_plain d w) value w in
  (w <= r /\ covers d value r /\ forall t, w <= t -> covers d value t -> r <= t) \/ ((forall t, w <= t -> ~ covers d value t) /\ r = w).
Proof.
  intros d w value r. unfold r, earliest. destruct (qminl _) as [m|] eqn:E.
  - left. destruct (TimingProofs.qminl_in _ _ E) as (x & X1 & X2). apply filter_In in X1. destruct X1 as [I1 I2].
    apply eligible_iff in I2; [|exact I1]. pose proof (proj1 (accum_keys _ _ _) I1) as [_ L].
    split; [lra|]. split; [exact (covers_congr _ _ _ _ X2 I2)|]. intros t Ht C.
    destruct (keys_with_w d w) as (w' & W1 & W2). destruct (snap d w t w' W1) as (k & K1 & K2 & K3 & _ & K5); [lra|].
    assert (I : In k (dkeys (accum_plain d w))) by (apply accum_keys; split; [exact K1|lra]).
    assert (F : In k (filter (eligible (accum_plain d w) value) (dkeys (accum_plain d w)))).
    { apply filter_In. split; [exact I|]. apply eligible_iff; [exact I|]. intros s Hs.
      destruct (Qlt_le_dec s t) as [Ls|Ls]; [|now apply C]. rewrite (K5 s Hs) by lra. apply C. lra. }
    pose proof (TimingProofs.qminl_le _ _ E k F). lra.
  - right. split; [|reflexivity]. apply eligible_none. destruct (filter _ _) as [|a l] eqn:F; [reflexivity|].
    exfalso. destruct (TimingProofs.qminl_some (a :: l)) as [m Hm]; [discriminate|congruence].
Qed.
(** The first time a transaction is shifted to: a source that is a plain cash-flow mapping.  Times
    range over all rationals, not just the times already in the mapping. *)
Theorem C59_earliest_affordable : forall kd h value w a, kd a = None ->
  let r := shift_when kd h value w a in
  ((exists t, w <= t /\ covers (hget h a) value t) ->
     w <= r /\ covers (hget h a) value r /\ forall t, w <= t -> covers (hget h a) value t -> r <= t) /\
  (~ (exists t, w <= t /\ covers (hget h a) value t) -> r = w).
Proof.
  intros kd h value w a Ka r. unfold r, shift_when. rewrite Ka. destruct (shift_spec (hget h a) w value) as [S|[S1 S2]].
  - split; [intros _; exact S|]. intros N. exfalso. apply N. eexists. destruct S as (A & B & _). split; [exact A|exact B].
  - split; [intros (t & T1 & T2); exfalso; exact (S1 t T1 T2)|intros _; exact S2].
Qed.
Print Assumptions C59_earliest_affordable.
(** where a transaction with a single time goes *)
Theorem C59_placement : forall kd h x value w s a to strict hx', kd a = None -> 0 <= value -> ~ s == 0 ->
  add_timed kd (h, x) value [(w, s)] (Some a) to strict = Ok hx' ->
  exists r v, v == value /\ r = (if strict then w else shift_when kd h v w a) /\
    (forall b t, hval (fst hx') b t == hval h b t + (if Qeq_bool t r then value else 0) * dir (Some a) to (Some b)).
Proof.
  intros kd h x value w s a to st hx' Ka Hv Hs H. unfold add_timed in H. destruct (Qlt_bool value 0) eqn:E; [exfalso; qb; lra|].
  unfold dvals in H. cbn [fold_left bind map Qsum snd fst] in H.
  assert (Eq : qdiv s (s + 0) = Ok (s / (s + 0))) by (unfold qdiv; destruct (Qeq_bool (s + 0) 0) eqn:E0; [exfalso; apply Qeq_bool_t in E0; apply Hs; lra|reflexivity]).
  rewrite Eq in H. cbn [bind] in H. injection H as <-. set (v := value * (s / (s + 0))).
  assert (Ev : v == value) by (unfold v; field; intros Q; apply Hs; lra).
  destruct (add_one_moved kd (h, x) v w (Some a) to st) as (r & (M & _) & R). exists r, v. split; [exact Ev|]. split; [exact R|].
  intros b t. rewrite M. cbn [fst]. destruct (Qeq_bool t r); rewrite ?Ev; lra.
Qed.
Print Assumptions C59_placement.

(** An Account source: judged by [max_outflow] at each time it knows of. *)
Definition interp_add (av : acct_view) (d : dict Q Q) (target : Q) (known : dict Q Q) (e l : Q) (accum : dict Q Q) : dict Q Q :=
  if (Qlt_bool target (qval known l) && Qlt_bool (qval known e) target) || (Qlt_bool (qval known l) target && Qlt_bool target (qval known e)) then
    match av_time av d target e with
    | Some t => if Qlt_bool e t && Qlt_bool t l then dset Qeq_bool accum t (- av_outs av d t) else accum
    | None => accum
    end
  else accum.
Lemma interpolate_step : forall av d target known e l r accum,
  interpolate av d target known (e :: l :: r) accum = interpolate av d target known (l :: r) (interp_add av d target known e l accum).
Proof. reflexivity. Qed.
Lemma interpolate_known : forall av d target known times pre accum, StronglySorted Qlt (pre ++ times) ->
  (forall k, In k (pre ++ times) -> dget Qeq_bool (interpolate av d target known times accum) k = dget Qeq_bool accum k).
Proof.
  intros av d target known times. induction times as [|e [|l r] IH]; intros pre accum Ss k Hk; [reflexivity|reflexivity|].
  rewrite interpolate_step. set (acc := interp_add av d target known e l accum).
  replace (pre ++ e :: l :: r) with ((pre ++ [e]) ++ l :: r) in * by (rewrite <- app_assoc; reflexivity).
  rewrite (IH (pre ++ [e]) acc Ss k Hk). subst acc. unfold interp_add.
  destruct ((_ && _) || (_ && _))%bool; [|reflexivity]. destruct (av_time av d target e) as [t|]; [|reflexivity].
  destruct (Qlt_bool e t && Qlt_bool t l)%bool eqn:B; [|reflexivity]. apply andb_prop in B. destruct B as [B1 B2]. apply Qlt_bool_t in B1, B2.
  rewrite qdget_dset. destruct (Qeq_bool k t) eqn:Ekt; [exfalso|reflexivity]. apply Qeq_bool_t in Ekt.
  assert (Spl : forall (a b : list Q) x y, StronglySorted Qlt (a ++ b) -> In x a -> In y b -> x < y).
  { clear. induction a as [|z a IHa]; intros b x y S Hx Hy; [destruct Hx|]. inversion S as [|? ? S1 F]; subst. destruct Hx as [<-|Hx].
    - rewrite Forall_forall in F. apply F. apply in_or_app. now right.
    - exact (IHa b x y S1 Hx Hy). }
  apply in_app_or in Hk. destruct Hk as [Hk|Hk].
  - apply in_app_or in Hk. destruct Hk as [Hk|[<-|[]]]; [|lra]. rewrite <- app_assoc in Ss. pose proof (Spl _ _ k e Ss Hk (or_introl eq_refl)). lra.
  - destruct Hk as [<-|Hk]; [lra|].
    assert (S2 : StronglySorted Qlt (((pre ++ [e]) ++ [l]) ++ r)) by (rewrite <- app_assoc; exact Ss).
    pose proof (Spl _ _ l k S2 (in_or_app (pre ++ [e]) [l] l (or_intror (or_introl eq_refl))) Hk). lra.
Qed.
Lemma keys_filter_wf : forall (f : Q -> Q) (l : list Q) (P : Q -> bool), (forall a b, a == b -> P a = P b) ->
  dwf Qeq_bool (map (fun t => (t, f t)) l) -> dwf Qeq_bool (map (fun t => (t, f t)) (filter P l)).
Proof.
  intros f l P HP. induction l as [|x l IH]; cbn [filter map dwf]; [tauto|]. intros [A B]. destruct (P x) eqn:Px; [|exact (IH B)].
  cbn [map dwf]. split; [|exact (IH B)]. clear IH B. induction l as [|y l IH]; [reflexivity|]. cbn [map dget] in A. destruct (Qeq_bool x y) eqn:E; [discriminate|].
  cbn [filter]. destruct (P y); [cbn [map dget]; rewrite E|]; exact (IH A).
Qed.
Lemma keys_with_wf : forall (f : Q -> Q) d w, dwf Qeq_bool d -> dwf Qeq_bool (map (fun t => (t, f t)) (keys_with d w)).
Proof.
  intros f d w W. unfold keys_with, dmem.
  assert (G : forall (d : dict Q Q) k, dget Qeq_bool d k = None -> dget Qeq_bool (map (fun t => (t, f t)) (dkeys d)) k = None).
  { clear. intros d k. unfold dkeys. induction d as [|[a b] d IH]; cbn [map fst dget]; [reflexivity|]. destruct (Qeq_bool k a); [discriminate|exact IH]. }
  destruct (dget Qeq_bool d w) as [y|] eqn:E.
  - clear E y. induction d as [|[k v] d IH]; cbn; [exact I|]. destruct W as [W1 W2]. split; [exact (G d k W1)|exact (IH W2)].
  - induction d as [|[k v] d IH]; cbn; [tauto|]. destruct W as [W1 W2]. cbn [dget] in E. destruct (Qeq_bool w k) eqn:Q; [discriminate|].
    split; [|exact (IH W2 E)]. fold (dkeys d). rewrite map_app. specialize (G d k W1). revert G. generalize (map (fun t => (t, f t)) (dkeys d)) as m. clear -Q.
    intros m. induction m as [|[a b] m IHm]; cbn [app map dget]; [|destruct (Qeq_bool k a); [discriminate|exact IHm]].
    intros _. rewrite qeqb_sym, Q. reflexivity.
Qed.
(** the chosen time is no earlier than requested; from it on, at every time the account knows of,
    the value can be withdrawn (or else the transaction stays at the requested time).  This goes beyond
    C59, which is about cash-flow mappings; nothing is claimed about times the account has no entry for. *)
Theorem C59_account_known_times : forall kd h value w a av, kd a = Some av -> dwf Qeq_bool (hget h a) ->
  let r := shift_when kd h value w a in
  r = w \/
  (w <= r /\ forall s, In s (keys_with (hget h a) w) -> r <= s -> w <= s -> value <= - av_out av (hget h a) s).
Proof.
  intros kd h value w a av Ka W r. unfold r, shift_when. rewrite Ka. set (d := hget h a) in *. unfold earliest.
  destruct (qminl _) as [m|] eqn:E; [right|now left].
  destruct (TimingProofs.qminl_in _ _ E) as (x & X1 & X2). apply filter_In in X1. destruct X1 as [I1 I2].
  unfold accum_account in *. set (known := map (fun t => (t, - av_out av d t)) (filter (fun t => Qle_bool w t) (keys_with d w))) in *.
  assert (Wk : dwf Qeq_bool known).
  { apply (keys_filter_wf (fun t => - av_out av d t)); [|exact (keys_with_wf _ d w W)]. intros p q Ee. destruct (Qle_bool w p) eqn:A, (Qle_bool w q) eqn:B; try reflexivity; exfalso; qb; lra. }
  assert (Ss : StronglySorted Qlt ([] ++ qsort (dkeys known))) by exact (TimingProofs.qsort_strict known Wk).
  assert (Hge : forall times acc, (forall t, In t (dkeys acc) -> w <= t) -> (forall t, In t times -> w <= t) -> forall t, In t (dkeys (interpolate av d value known times acc)) -> w <= t).
  { clear. induction times as [|e [|l r] IH]; intros acc Ha Ht t Hi; [exact (Ha t Hi)|exact (Ha t Hi)|].
    rewrite interpolate_step in Hi. revert Hi. apply IH; [|intros z Hz; apply Ht; now right].
    intros z Hz. unfold interp_add in Hz. destruct ((_ && _) || (_ && _))%bool; [|exact (Ha z Hz)]. destruct (av_time av d value e) as [t0|]; [|exact (Ha z Hz)].
    destruct (Qlt_bool e t0 && Qlt_bool t0 l)%bool eqn:B; [|exact (Ha z Hz)]. apply andb_prop in B. destruct B as [B1 B2]. apply Qlt_bool_t in B1.
    assert (K : In z (dkeys acc) \/ z == t0).
    { revert Hz. generalize (- av_outs av d t0) as v. clear. intros v. induction acc as [|[k u] acc IHa]; cbn.
      - intros [<-|[]]. right. reflexivity.
      - destruct (Qeq_bool t0 k) eqn:Q; cbn; [intros [<-|Hz]; auto|]. intros [<-|Hz]; [auto|]. destruct (IHa Hz); auto. }
    destruct K as [K|K]; [exact (Ha z K)|]. specialize (Ht e (or_introl eq_refl)). lra. }
  assert (Kn : forall t, In t (dkeys known) <-> In t (keys_with d w) /\ w <= t).
  { intros t. unfold known, dkeys. rewrite map_map. cbn [fst]. rewrite map_id, filter_In, Qle_bool_iff. reflexivity. }
  assert (Kge : forall t, In t (dkeys known) -> w <= t) by (intros t Ht; apply Kn in Ht; tauto).
  split.
  - assert (L : w <= x); [|lra]. refine (Hge _ _ Kge _ x I1). intros t Ht. apply Kge. apply (Permutation_in _ (TimingProofs.qsort_perm _) Ht).
  - intros s Hs Hr Hw. assert (Ik : In s (dkeys known)) by (apply Kn; auto).
    assert (Gk : dget Qeq_bool known s = Some (- av_out av d s)).
    { apply qIn_dget; [exact Wk|]. unfold known. apply in_map_iff. exists s. split; [reflexivity|]. apply filter_In. split; [exact Hs|now apply Qle_bool_iff]. }
    pose proof (interpolate_known av d value known (qsort (dkeys known)) [] known Ss s) as G. cbn [app] in G.
    clear G. unfold eligible in I2. rewrite forallb_forall in I2.
    pose proof (interpolate_known av d value known (qsort (dkeys known)) [] known Ss s (Permutation_in _ (Permutation_sym (TimingProofs.qsort_perm _)) Ik)) as G.
    rewrite Gk in G. apply dget_In in G. destruct G as (k & G2 & G1). specialize (I2 _ G1). cbn [fst snd] in I2. apply Qeq_bool_t in G2.
    destruct (Qle_bool x k) eqn:Q; cbn in I2; [now apply Qle_bool_iff|]. exfalso. qb. lra.
Qed.
Print Assumptions C59_account_known_times.

(** ** C60 *)
(** two sets of accounts with the same amount in each account at each time *)
Definition heq (h h' : heap) : Prop := forall a t, hval h a t == hval h' a t.
Definition wf_heap (h : heap) : Prop := forall a, dwf Qeq_bool (hget h a).
(** the time chosen for taking money from [o] depends only on the amounts it holds at each time: so it
    is for every mapping of cash flows and every account that does not grow (shown below), not for
    accounts that grow (Prop_Shift.v, C60_growing_account_refuted) *)
Definition steady (kd : kinds) (o : option nat) : Prop :=
  match o with
  | Some a => forall h h' v v' w w', wf_heap h -> wf_heap h' -> heq h h' -> v == v' -> w == w' -> shift_when kd h v w a == shift_when kd h' v' w' a
  | None => True
  end.
(** programs that act alike on accounts that are alike, and take money only from accounts that are steady *)
Inductive alike (kd : kinds) : prog -> prog -> Prop :=
| alike_done : alike kd Done Done
| alike_fail : forall e, alike kd (Fail e) (Fail e)
| alike_do : forall v v' t f to st k k', v == v' -> st = true \/ steady kd (if Qlt_bool v 0 then to else f) ->
    (forall h h', wf_heap h -> wf_heap h' -> heq h h' -> alike kd (k h) (k' h')) -> alike kd (Do v t f to st k) (Do v' t f to st k').
Definition extensional (kd : kinds) (body : heap -> prog) : Prop := forall h h', wf_heap h -> wf_heap h' -> heq h h' -> alike kd (body h) (body h').

Lemma incr_wf : forall d t v, dwf Qeq_bool d -> dwf Qeq_bool (incr d t v).
Proof. intros d t v W. unfold incr. destruct (dget Qeq_bool d t); now apply qdset_wf. Qed.
Lemma post_wf : forall h o t v, wf_heap h -> wf_heap (post h o t v).
Proof. intros h [i|] t v W a; cbn [post]; [|apply W]. rewrite hget_set. destruct (Nat.eqb a i); [now apply incr_wf|apply W]. Qed.
Lemma upto_incr : forall d t v s, upto (incr d t v) s == upto d s + (if Qle_bool t s then v else 0).
Proof.
  intros d t v s. unfold incr, upto. induction d as [|[k x] d IH]; cbn [dget dset filter fst].
  - destruct (Qle_bool t s); cbn [map Qsum snd]; lra.
  - destruct (Qeq_bool t k) eqn:E; cbn [filter fst].
    + apply Qeq_bool_t in E. assert (B : Qle_bool t s = Qle_bool k s) by (destruct (Qle_bool t s) eqn:A, (Qle_bool k s) eqn:B; try reflexivity; exfalso; qb; lra).
      rewrite B. destruct (Qle_bool k s); cbn [map Qsum snd]; lra.
    + destruct (dget Qeq_bool d t); cbn [filter fst] in *; destruct (Qle_bool k s); cbn [map Qsum snd]; lra.
Qed.
Definition minus (d e : dict Q Q) : dict Q Q := fold_left (fun a kv => incr a (fst kv) (- snd kv)) e d.
Lemma minus_upto : forall e d s, upto (minus d e) s == upto d s - upto e s.
Proof.
  unfold minus. induction e as [|[k v] e IH]; intros d s; cbn [fold_left fst snd]; [unfold upto; cbn; lra|].
  rewrite IH, upto_incr. unfold upto at 4. cbn [filter fst]. destruct (Qle_bool k s); cbn [map Qsum snd]; unfold upto; lra.
Qed.
Lemma minus_wf : forall e d, dwf Qeq_bool d -> dwf Qeq_bool (minus d e).
Proof. unfold minus. induction e as [|[k v] e IH]; intros d W; cbn [fold_left]; [exact W|]. apply IH. now apply incr_wf. Qed.
Lemma minus_val : forall e d t, dwf Qeq_bool e -> qval (minus d e) t == qval d t - qval e t.
Proof.
  unfold minus. induction e as [|[k v] e IH]; intros d t W; cbn [fold_left fst snd]; [unfold qval at 3, qget; cbn; lra|].
  destruct W as [W1 W2]. rewrite IH by exact W2. rewrite incr_val. unfold qval at 4, qget. cbn [dget].
  destruct (Qeq_bool t k) eqn:E; [|unfold qval, qget; lra]. apply Qeq_bool_t in E. rewrite (qval_congr e t k E). unfold qval at 2, qget. rewrite W1. lra.
Qed.
Lemma upto_heq : forall d e, dwf Qeq_bool d -> dwf Qeq_bool e -> (forall t, qval d t == qval e t) -> forall s, upto d s == upto e s.
Proof.
  intros d e Wd We H s. assert (Z0 : upto (minus d e) s == 0).
  { assert (V : forall t, qval (minus d e) t == 0) by (intros t; rewrite minus_val by exact We; rewrite H; lra).
    assert (I : forall k v, In (k, v) (minus d e) -> v == 0).
    { intros k v Hi. specialize (V k). unfold qval, qget in V. rewrite (qIn_dget _ _ _ (minus_wf e d Wd) Hi) in V. exact V. }
    revert I. generalize (minus d e) as m. clear. intros m I. unfold upto. induction m as [|[k v] m IH]; cbn [filter fst]; [reflexivity|].
    assert (R := IH (fun k' v' Hi => I k' v' (or_intror Hi))). pose proof (I k v (or_introl eq_refl)). destruct (Qle_bool k s); cbn [map Qsum snd]; lra. }
  rewrite minus_upto in Z0. lra.
Qed.
Lemma shift_heq : forall kd h h' v v' w w' a, kd a = None -> wf_heap h -> wf_heap h' -> heq h h' -> v == v' -> w == w' ->
  shift_when kd h v w a == shift_when kd h' v' w' a.
Proof.
  intros kd h h' v v' w w' a Ka W W' E Ev Ew. unfold shift_when. rewrite Ka.
  assert (U : forall s, upto (hget h a) s == upto (hget h' a) s) by (apply upto_heq; [apply W|apply W'|intros t; apply (E a t)]).
  assert (C : forall t, covers (hget h a) v t <-> covers (hget h' a) v' t) by (intros t; split; intros C s Hs; specialize (C s Hs); specialize (U s); lra).
  destruct (shift_spec (hget h a) w v) as [(A1 & A2 & A3)|[A1 A2]], (shift_spec (hget h' a) w' v') as [(B1 & B2 & B3)|[B1 B2]].
  - apply C in A2. apply C in B2. apply Qle_antisym; [apply A3|apply B3]; auto; lra.
  - exfalso. apply (B1 (earliest (accum_plain (hget h a) w) v w)); [lra|]. now apply C.
  - exfalso. apply (A1 (earliest (accum_plain (hget h' a) w') v' w')); [lra|]. now apply C.
  - rewrite A2, B2. exact Ew.
Qed.
Lemma plain_steady : forall kd a, kd a = None -> steady kd (Some a).
Proof. intros kd a K h h' v v' w w' W W' E Ev Ew. now apply shift_heq. Qed.
(** an account that does not grow: what can be taken out is the opening amount and what has come in,
    and the time it reaches a value is the time of a transaction (or has already come) *)
Definition level (av : acct_view) (opening : Q) : Prop :=
  (forall d t, - av_out av d t == opening + upto d t) /\
  (forall d v w t, av_time av d v w = Some t -> t <= w \/ exists k, In k (dkeys d) /\ k == t).
Lemma level_interpolate : forall av b d target known w, level av b -> (forall k, In k (dkeys d) -> w <= k -> exists k', In k' (dkeys known) /\ k' == k) -> (forall t, In t (dkeys known) -> w <= t) ->
  forall times pre acc, StronglySorted Qlt (pre ++ times) -> (forall t, In t (dkeys known) -> In t (pre ++ times)) -> interpolate av d target known times acc = acc \/ exists t, In t times /\ ~ w <= t.
Proof.
  intros av b d target known w [_ L] Kd Kw. induction times as [|e [|l r] IH]; intros pre acc Ss Kn; [now left|now left|]. rewrite interpolate_step.
  assert (A : w <= e \/ ~ w <= e) by (destruct (Qlt_le_dec e w); [right; lra|now left]). destruct A as [A|A]; [|right; exists e; split; [now left|exact A]].
  assert (N : interp_add av d target known e l acc = acc).
  { unfold interp_add. destruct ((_ && _) || (_ && _))%bool; [|reflexivity]. destruct (av_time av d target e) as [t|] eqn:T; [|reflexivity].
    destruct (Qlt_bool e t && Qlt_bool t l)%bool eqn:B; [|reflexivity]. exfalso. apply andb_prop in B. destruct B as [B1 B2]. apply Qlt_bool_t in B1, B2.
    destruct (L _ _ _ _ T) as [C|(k & C1 & C2)]; [lra|]. destruct (Kd k C1 ltac:(lra)) as (k' & D1 & D2). apply Kn in D1.
    apply in_app_or in D1. destruct D1 as [D1|[D1|[D1|D1]]].
    - assert (k' < e) by (clear -Ss D1; induction pre as [|x pre IHp]; [contradiction|]; cbn in Ss; inversion Ss as [|? ? S1 S2]; subst; destruct D1 as [<-|D1]; [rewrite Forall_forall in S2; apply S2; apply in_or_app; right; now left|exact (IHp S1 D1)]). lra.
    - subst. lra.
    - subst. lra.
    - assert (l < k') by (clear -Ss D1; induction pre as [|x pre IHp]; cbn in Ss; inversion Ss as [|? ? S1 S2]; subst; [inversion S1 as [|? ? S3 S4]; subst; rewrite Forall_forall in S4; now apply S4|exact (IHp S1)]). lra. }
  rewrite N. destruct (IH (pre ++ [e]) acc) as [H|(t & H1 & H2)]; [rewrite <- app_assoc; exact Ss|intros t Ht; rewrite <- app_assoc; now apply Kn|left; exact H|right; exists t; split; [now right|exact H2]].
Qed.
Lemma level_steady : forall kd a av b, kd a = Some av -> level av b -> steady kd (Some a).
Proof.
  intros kd a av b Ka L.
  assert (G : forall h v w, wf_heap h -> shift_when kd h v w a = shift_when (fun _ => None) h (v - b) w a).
  { intros h v w W. unfold shift_when. rewrite Ka. set (d := hget h a). unfold accum_account.
    set (known := map (fun t => (t, - av_out av d t)) (filter (fun t => Qle_bool w t) (keys_with d w))).
    assert (Wk : dwf Qeq_bool known).
    { apply (keys_filter_wf (fun t => - av_out av d t)); [|exact (keys_with_wf _ d w (W a))]. intros p q Ee. destruct (Qle_bool w p) eqn:A, (Qle_bool w q) eqn:B; try reflexivity; exfalso; qb; lra. }
    assert (Kn : forall t, In t (dkeys known) <-> In t (keys_with d w) /\ w <= t).
    { intros t. unfold known, dkeys. rewrite map_map. cbn [fst]. rewrite map_id, filter_In, Qle_bool_iff. reflexivity. }
    assert (I : interpolate av d v known (qsort (dkeys known)) known = known).
    { destruct (level_interpolate av b d v known w L) with (times := qsort (dkeys known)) (pre := @nil Q) (acc := known) as [H|(t & H1 & H2)].
      - intros k Hk Hw. exists k. split; [|reflexivity]. apply Kn. split; [|exact Hw]. unfold keys_with. destruct (dmem Qeq_bool d w); [exact Hk|apply in_or_app; now left].
      - intros t Ht. now apply Kn in Ht.
      - exact (TimingProofs.qsort_strict known Wk).
      - intros t Ht. exact (Permutation_in _ (Permutation_sym (TimingProofs.qsort_perm _)) Ht).
      - exact H.
      - exfalso. apply H2. apply Kn. exact (Permutation_in _ (TimingProofs.qsort_perm _) H1). }
    rewrite I. unfold earliest, accum_plain. fold d.
    assert (Dk : dkeys known = dkeys (map (fun t => (t, upto d t)) (filter (fun t => Qle_bool w t) (keys_with d w)))) by (unfold known, dkeys; now rewrite !map_map).
    rewrite <- Dk. assert (El : forall t, eligible known v t = eligible (map (fun t => (t, upto d t)) (filter (fun t => Qle_bool w t) (keys_with d w))) (v - b) t).
    { intros t. unfold eligible, known. destruct L as [L _]. generalize (filter (fun t0 => Qle_bool w t0) (keys_with d w)) as l. intros l. induction l as [|x l IHl]; [reflexivity|].
      cbn [map forallb fst snd]. rewrite IHl. f_equal. f_equal. specialize (L d x). destruct (Qle_bool v (- av_out av d x)) eqn:A, (Qle_bool (v - b) (upto d x)) eqn:B; try reflexivity; exfalso; qb; lra. }
    replace (filter (eligible (map (fun t => (t, upto d t)) (filter (fun t => Qle_bool w t) (keys_with d w))) (v - b)) (dkeys known)) with (filter (eligible known v) (dkeys known)); [reflexivity|].
    apply filter_ext. exact El. }
  intros h h' v v' w w' W W' E Ev Ew. rewrite (G h v w W), (G h' v' w' W'). apply shift_heq; auto. lra.
Qed.
Lemma add_one_heq : forall kd h h' x x' v v' w f to st, st = true \/ steady kd f -> wf_heap h -> wf_heap h' -> heq h h' -> v == v' ->
  let r := add_one kd (h, x) v w f to st in let r' := add_one kd (h', x') v' w f to st in
  heq (fst r) (fst r') /\ wf_heap (fst r) /\ wf_heap (fst r') /\
  (forall o t, tval (snd r') o t - tval x' o t == tval (snd r) o t - tval x o t).
Proof.
  intros kd h h' x x' v v' w f to st P W W' E Ev r r'.
  destruct (add_one_moved kd (h, x) v w f to st) as (t & (M1 & M2 & _) & T).
  destruct (add_one_moved kd (h', x') v' w f to st) as (t' & (M1' & M2' & _) & T'). cbn [fst snd] in *.
  assert (Et : t == t').
  { rewrite T, T'. destruct f as [a|]; [|reflexivity]. destruct st; [reflexivity|]. destruct P as [P|P]; [discriminate|]. apply P; auto. reflexivity. }
  assert (Eb : forall u, Qeq_bool u t = Qeq_bool u t') by (intros u; destruct (Qeq_bool u t) eqn:A, (Qeq_bool u t') eqn:B; try reflexivity; exfalso; qb; lra).
  split; [|split; [|split]].
  - intros a u. unfold r, r'. rewrite M1, M1', Eb, (E a u). destruct (Qeq_bool u t'); rewrite ?Ev; lra.
  - unfold r, add_one. cbn [fst]. now apply post_wf, post_wf.
  - unfold r', add_one. cbn [fst]. now apply post_wf, post_wf.
  - intros o u. unfold r, r'. rewrite M2, M2', Eb. destruct (Qeq_bool u t'); rewrite ?Ev; lra.
Qed.
Lemma add_timed_heq : forall kd timing h h' x x' v v' f to st, st = true \/ steady kd (if Qlt_bool v 0 then to else f) -> wf_heap h -> wf_heap h' -> heq h h' -> v == v' ->
  match add_timed kd (h, x) v timing f to st, add_timed kd (h', x') v' timing f to st with
  | Ok r, Ok r' => heq (fst r) (fst r') /\ wf_heap (fst r) /\ wf_heap (fst r') /\ (forall o t, tval (snd r') o t - tval x' o t == tval (snd r) o t - tval x o t)
  | Err e, Err e' => e = e'
  | _, _ => False
  end.
Proof.
  intros kd timing h h' x x' v v' f to st P W W' E Ev. unfold add_timed.
  assert (Sg : Qlt_bool v 0 = Qlt_bool v' 0) by (destruct (Qlt_bool v 0) eqn:A, (Qlt_bool v' 0) eqn:B; try reflexivity; exfalso; qb; lra).
  rewrite <- Sg. set (ft := if Qlt_bool v 0 then (to, f) else (f, to)).
  assert (Pf : st = true \/ steady kd (fst ft)) by (unfold ft; destruct (Qlt_bool v 0); exact P).
  destruct ft as [f0 t0]. cbn [fst] in Pf. generalize (Qsum (dvals timing)) as total. intros total.
  set (u := if Qlt_bool v 0 then - v else v). set (u' := if Qlt_bool v 0 then - v' else v').
  assert (Eu : u == u') by (unfold u, u'; destruct (Qlt_bool v 0); lra). clearbody u u'. clear Ev Sg P v v' f to.
  revert h h' x x' W W' E. induction timing as [|[w s] l IH]; intros h h' x x' W W' E; cbn [fold_left].
  - cbn [fst snd]. repeat split; auto. intros. lra.
  - cbn [bind fst snd]. destruct (qdiv s total) as [sh|e] eqn:Eq.
    + cbn [bind]. pose proof (add_one_heq kd h h' x x' (u * sh) (u' * sh) w f0 t0 st Pf W W' E) as A. cbn zeta in A.
      specialize (A ltac:(rewrite Eu; reflexivity)). destruct A as (A1 & A2 & A3 & A4).
      destruct (add_one kd (h, x) (u * sh) w f0 t0 st) as [h1 x1] eqn:R1, (add_one kd (h', x') (u' * sh) w f0 t0 st) as [h2 x2] eqn:R2. cbn [fst snd] in *.
      specialize (IH h1 h2 x1 x2 A2 A3 A1).
      destruct (fold_left _ l (Ok (h1, x1))) as [r|e1], (fold_left _ l (Ok (h2, x2))) as [r'|e2]; auto. destruct IH as (B1 & B2 & B3 & B4).
      repeat split; auto. intros o t. specialize (A4 o t). specialize (B4 o t). lra.
    + cbn [bind]. assert (F : forall u : Q, fold_left (fun (r : res (heap * txs)) (tw : Q * Q) => let* hx := r in let* share := qdiv (snd tw) total in Ok (add_one kd hx (u * share) (fst tw) f0 t0 st)) l (Err e) = Err e) by (intros; clear; induction l as [|y l IH]; [reflexivity|exact IH]).
      rewrite !F. reflexivity.
Qed.
Lemma run_heq : forall kd default p p', alike kd p p' -> forall h h' x x', wf_heap h -> wf_heap h' -> heq h h' ->
  match run kd default (h, x) p, run kd default (h', x') p' with
  | Ok r, Ok r' => heq (fst r) (fst r') /\ wf_heap (fst r) /\ wf_heap (fst r') /\ (forall o t, tval (snd r') o t - tval x' o t == tval (snd r) o t - tval x o t)
  | Err e, Err e' => e = e'
  | _, _ => False
  end.
Proof.
  intros kd default p p' A. induction A as [|e|v v' t f to st k k' Ev P _ IH]; intros h h' x x' W W' E; cbn [run].
  - cbn [fst snd]. repeat split; auto. intros. lra.
  - reflexivity.
  - unfold add_transaction. destruct (timing_arg default t) as [tm|e]; [|reflexivity]. cbn [bind].
    pose proof (add_timed_heq kd tm h h' x x' v v' f to st P W W' E Ev) as B.
    destruct (add_timed kd (h, x) v tm f to st) as [[h1 x1]|e1], (add_timed kd (h', x') v' tm f to st) as [[h2 x2]|e2]; try contradiction; [|cbn [bind]; exact B].
    cbn [bind fst snd] in *. destruct B as (B1 & B2 & B3 & B4). specialize (IH h1 h2 B2 B3 B1 h1 h2 x1 x2 B2 B3 B1).
    destruct (run kd default (h1, x1) (k h1)) as [r|], (run kd default (h2, x2) (k' h2)) as [r'|]; auto. destruct IH as (C1 & C2 & C3 & C4).
    repeat split; auto. intros o u. specialize (B4 o u). specialize (C4 o u). lra.
Qed.

(** undoing *)
Definition wf_tx (x : txs) : Prop := dwf oeqb x /\ forall o, dwf Qeq_bool (tget x o).
Lemma odset_wf : forall (x : txs) o d, dwf oeqb x -> dwf oeqb (dset oeqb x o d).
Proof.
  intros x o d. apply dset_wf; [exact oeqb_sym|]. intros u v w H1 H2. apply oeqb_eq in H1, H2. subst. now apply oeqb_eq.
Qed.
Lemma book_wf : forall x o t v, wf_tx x -> wf_tx (book x o t v).
Proof.
  intros x o t v [A B]. split; [now apply odset_wf|]. intros o'. unfold book. rewrite tget_set. destruct (oeqb o' o); [apply incr_wf, B|apply B].
Qed.
Lemma run_wf_tx : forall kd default p hx hx', wf_tx (snd hx) -> run kd default hx p = Ok hx' -> wf_tx (snd hx').
Proof.
  intros kd default p. induction p as [|e|v t f to st k IH]; intros hx hx' W H; cbn [run] in H; [injection H as <-; exact W|discriminate|].
  destruct (add_transaction kd default hx v t f to st) as [hy|e] eqn:E; [|discriminate]. cbn [bind] in H. refine (IH _ _ _ _ H).
  unfold add_transaction in E. destruct (timing_arg default t) as [tm|e]; [|discriminate]. cbn [bind] in E. unfold add_timed in E.
  destruct (if Qlt_bool v 0 then (to, f) else (f, to)) as [f0 t0]. revert E.
  generalize (Qsum (dvals tm)) as total. generalize (if Qlt_bool v 0 then - v else v) as u. intros u total. clear H IH. revert hx W.
  induction tm as [|[w s] l IH]; intros hx W E; cbn [fold_left] in E; [injection E as <-; exact W|].
  cbn [bind fst snd] in E. destruct (qdiv s total) as [sh|e] eqn:Eq; [|exfalso; revert E; apply fold_ne].
  cbn [bind] in E. refine (IH _ _ E). destruct hx as [h x]. unfold add_one. cbn [snd] in *. now apply book_wf, book_wf.
Qed.
Lemma undo_acct : forall d h a b t, dwf Qeq_bool d -> hval (undo_one h (Some a, d)) b t == hval h b t - (if Nat.eqb a b then qval d t else 0).
Proof.
  intros d h a b t W. unfold undo_one. cbn [fst snd]. revert h. induction d as [|[k v] d IH]; intros h; cbn [fold_left fst snd].
  - unfold qval at 1, qget. cbn. destruct (Nat.eqb a b); lra.
  - destruct W as [W1 W2]. rewrite (IH W2). unfold hval. rewrite hget_set, (Nat.eqb_sym b a). destruct (Nat.eqb_spec a b) as [->|N]; [|lra].
    rewrite incr_val. unfold qval at 4, qget. cbn [dget]. destruct (Qeq_bool t k) eqn:E; [|unfold qval, qget; lra].
    apply Qeq_bool_t in E. rewrite (qval_congr d t k E). unfold qval at 2, qget. rewrite W1. lra.
Qed.
Lemma undo_wf : forall x h, wf_heap h -> wf_heap (fold_left undo_one x h).
Proof.
  induction x as [|[o d] x IH]; intros h W; cbn [fold_left]; [exact W|]. apply IH. destruct o as [a|]; [|exact W]. unfold undo_one. cbn [fst snd].
  revert h W. induction d as [|[k v] d IHd]; intros h W; cbn [fold_left]; [exact W|]. apply IHd. exact (post_wf h (Some a) k (- v) W).
Qed.
Lemma undo_val : forall x h a t, wf_tx x -> hval (fold_left undo_one x h) a t == hval h a t - tval x (Some a) t.
Proof.
  intros x. induction x as [|[o d] x IH]; intros h a t [W1 W2]; cbn [fold_left].
  - unfold tval, tget, qval, qget. cbn. lra.
  - destruct W1 as [N W1].
    assert (W2' : wf_tx x).
    { split; [exact W1|]. intros o'. specialize (W2 o'). unfold tget in *. cbn [dget] in W2. destruct (oeqb o' o) eqn:E; [|exact W2].
      apply oeqb_eq in E. subst. rewrite N. exact I. }
    rewrite IH by exact W2'. assert (Wd : dwf Qeq_bool d).
    { specialize (W2 o). unfold tget in W2. cbn [dget] in W2. rewrite (proj2 (oeqb_eq o o) eq_refl) in W2. exact W2. }
    assert (TV : tval ((o, d) :: x) (Some a) t = if oeqb (Some a) o then qval d t else tval x (Some a) t).
    { unfold tval, tget. cbn [dget]. destruct (oeqb (Some a) o); reflexivity. }
    rewrite TV. destruct o as [b|].
    + rewrite (undo_acct d h b a t Wd). cbn [oeqb]. rewrite (Nat.eqb_sym a b). destruct (Nat.eqb_spec b a) as [->|Nb]; [|lra].
      unfold tval, tget. rewrite N. unfold qval at 2, qget. cbn. lra.
    + cbn [undo_one fst oeqb]. lra.
Qed.

(** One repetition in the year: the accounts are as after a single call, and no error is raised that
    a single call does not raise. *)
Theorem C60_second_call_same_accounts_partial : forall kd default body h s available h1 s1, extensional kd body ->
  wf_heap h -> s_invoked s = false -> s_tx s = [] ->
  call kd default body h s available = Ok (h1, s1) ->
  exists h2 s2, call kd default body h1 s1 available = Ok (h2, s2) /\ heq h2 h1.
Proof.
  intros kd default body h s av h1 s1 X W Inv Tx H. unfold call, begin_call in H. rewrite Inv in H. cbn [s_tx s_objs s_ref] in H.
  destruct (run kd default (h, _) (body h)) as [[h1' x]|e] eqn:R; [|discriminate]. cbn [bind] in H. injection H as <- <-.
  unfold s_tx in R. cbn [s_objs s_ref] in R. unfold s_tx in Tx. rewrite Tx in R.
  unfold call, begin_call, set_tx, undo, s_tx. cbn [s_invoked s_objs s_ref]. rewrite Nat.eqb_refl.
  assert (Wx : wf_tx x) by (apply (run_wf_tx kd default (body h) (h, []) (h1', x)); [split; [exact I|intros; exact I]|exact R]).
  pose proof (C58_runs_balance kd default (body h) (h, []) (h1', x) R) as [B _]; cbn [fst snd] in B.
  pose proof (run_heq kd default (body h) (body h) (X h h W W (fun a t => Qeq_refl _)) h h [] [] W W (fun a t => Qeq_refl _)) as S; rewrite R in S; cbn [fst snd] in S; destruct S as (_ & W1 & _).
  assert (U : heq h (fold_left undo_one x h1')) by (intros a t; rewrite undo_val by exact Wx; specialize (B a t); unfold tval at 2, tget, qval, qget in B; cbn in B; unfold qval, qget in *; unfold tval, hval, qval, qget in *; lra).
  pose proof (undo_wf x h1' W1) as W2.
  pose proof (run_heq kd default _ _ (X _ _ W W2 U) h _ [] x W W2 U) as S; rewrite R in S.
  destruct (run kd default (fold_left undo_one x h1', x) (body (fold_left undo_one x h1'))) as [[h2 x2]|] eqn:R2; [|contradiction].
  cbn [bind]; eexists _, _; split; [reflexivity|]; cbn [fst] in S; destruct S as (S & _); intros a t; symmetry; apply S.
Qed.
Print Assumptions C60_second_call_same_accounts_partial.

(** The record of transactions is not cleared when they are undone: after the second call it holds
    them twice, and the third call reverses them twice.  Here a sub-forecast moves 10 from account 0
    (which holds 100) to account 1; after the third call account 1 has nothing. *)
Definition demo_body : heap -> prog := fun _ => Do 10 (TArg (WNum (1 # 2))) (Some 0%nat) (Some 1%nat) false (fun _ => Done).
Definition demo_heap : heap := [(0%nat, [(0, 100)]); (1%nat, [])].
Definition demo_kinds : kinds := fun _ => None.
Definition demo_calls (n : nat) : res (heap * sub) :=
  nat_rect (fun _ => res (heap * sub)) (Ok (demo_heap, new_sub 2000)) (fun _ r => let* (h, s) := r in call demo_kinds [] demo_body h s 0%nat) n.
Theorem C60_third_call_refuted : exists kd default body h s available h1 s1 h2 s2 h3 s3,
  extensional kd body /\ wf_heap h /\ s = new_sub 2000 /\
  call kd default body h s available = Ok (h1, s1) /\ call kd default body h1 s1 available = Ok (h2, s2) /\ call kd default body h2 s2 available = Ok (h3, s3) /\
  htotal h1 1 == 10 /\ htotal h2 1 == 10 /\ ttotal (s_tx s2) (Some 1%nat) == 20 /\ htotal h3 1 == 0 /\ hval h3 0 (1 # 2) == 0.
Proof.
  assert (X : extensional demo_kinds demo_body).
  { intros h h' _ _ _. unfold demo_body. constructor; [reflexivity|right; now apply plain_steady|]. intros. constructor. }
  assert (W : wf_heap demo_heap).
  { intros a. unfold hget, demo_heap. cbn [dget]. destruct (Nat.eqb a 0); [split; [reflexivity|exact I]|]. destruct (Nat.eqb a 1); exact I. }
  destruct (demo_calls 1) as [[h1 s1]|] eqn:E1; [|vm_compute in E1; discriminate].
  destruct (call demo_kinds [] demo_body h1 s1 0%nat) as [[h2 s2]|] eqn:E2; [|vm_compute in E1; injection E1 as <- <-; vm_compute in E2; discriminate].
  destruct (call demo_kinds [] demo_body h2 s2 0%nat) as [[h3 s3]|] eqn:E3; [|vm_compute in E1; injection E1 as <- <-; vm_compute in E2; injection E2 as <- <-; vm_compute in E3; discriminate].
  exists demo_kinds, [], demo_body, demo_heap, (new_sub 2000), 0%nat, h1, s1, h2, s2, h3, s3.
  split; [exact X|]. split; [exact W|]. split; [reflexivity|]. split; [exact E1|]. split; [exact E2|]. split; [exact E3|].
  vm_compute in E1. injection E1 as <- <-. vm_compute in E2. injection E2 as <- <-. vm_compute in E3. injection E3 as <- <-.
  repeat split; vm_compute; reflexivity.
Qed.
Print Assumptions C60_third_call_refuted.
Example C60_sat : extensional demo_kinds demo_body /\ wf_heap demo_heap /\ s_invoked (new_sub 2000) = false /\ s_tx (new_sub 2000) = [] /\
  exists h1 s1, call demo_kinds [] demo_body demo_heap (new_sub 2000) 0%nat = Ok (h1, s1) /\ htotal h1 1 == 10.
Proof.
  split; [intros h h' _ _ _; unfold demo_body; constructor; [reflexivity|right; now apply plain_steady|]; intros; constructor|].
  split; [intros a; unfold hget, demo_heap; cbn [dget]; destruct (Nat.eqb a 0); [split; [reflexivity|exact I]|]; destruct (Nat.eqb a 1); exact I|].
  split; [reflexivity|]. split; [reflexivity|].
  destruct (call demo_kinds [] demo_body demo_heap (new_sub 2000) 0%nat) as [[h1 s1]|] eqn:E; [|vm_compute in E; discriminate].
  exists h1, s1. split; [reflexivity|]. vm_compute in E. injection E as <- <-. vm_compute. reflexivity.
Qed.

(** ** C61 *)
(** Whatever was recorded, moving to the next year empties the year's entry in the history: the
    history holds the very object that is then cleared (and refilled in the new year). *)
Theorem C61_history_refuted : forall s, dget Z.eqb (s_hist s) (s_year s) = None ->
  tx_history s (s_year s) = Some (s_tx s) /\
  tx_history (next_year s) (s_year s) = Some [] /\
  forall x, tx_history (set_tx (next_year s) x) (s_year s) = Some x.
Proof.
  intros s N. unfold tx_history. rewrite N, Z.eqb_refl. split; [reflexivity|].
  assert (G : dget Z.eqb (s_hist (next_year s)) (s_year s) = Some (s_ref s)).
  { unfold next_year, set_tx, dmem. cbn [s_hist]. rewrite N. rewrite zdget_dset, Z.eqb_refl. reflexivity. }
  split.
  - rewrite G. unfold next_year, set_tx. cbn [s_objs s_ref]. rewrite Nat.eqb_refl. reflexivity.
  - intros x. cbn [set_tx s_hist]. rewrite G. cbn [s_objs set_tx]. unfold next_year, set_tx. cbn [s_ref]. rewrite Nat.eqb_refl. reflexivity.
Qed.
Print Assumptions C61_history_refuted.
(** a year with a transaction recorded *)
Example C61_sat : exists h s, call demo_kinds [] demo_body demo_heap (new_sub 2000) 0%nat = Ok (h, s) /\
  dget Z.eqb (s_hist s) (s_year s) = None /\ s_year s = 2000%Z /\ ttotal (s_tx s) (Some 1%nat) == 10 /\
  (exists x, tx_history (next_year s) 2000 = Some x /\ ttotal x (Some 1%nat) == 0).
Proof.
  destruct (call demo_kinds [] demo_body demo_heap (new_sub 2000) 0%nat) as [[h1 s1]|] eqn:E; [|vm_compute in E; discriminate].
  exists h1, s1. split; [reflexivity|]. vm_compute in E. injection E as <- <-. split; [reflexivity|]. split; [reflexivity|]. split; [vm_compute; reflexivity|].
  eexists. split; [vm_compute; reflexivity|]. vm_compute. reflexivity.
Qed.
(** what C61 does guarantee: the year's record lasts until the next year begins, and each year
    begins with an empty record *)
Theorem C61_each_year_starts_empty_partial : forall s, s_tx (next_year s) = [] /\ s_invoked (next_year s) = false /\ s_year (next_year s) = (s_year s + 1)%Z.
Proof. intros s. unfold next_year, set_tx, s_tx. cbn. rewrite Nat.eqb_refl. auto. Qed.
Print Assumptions C61_each_year_starts_empty_partial.

Example C58_sat : exists hx', add_timed demo_kinds (demo_heap, []) (-12) [(0, 1); (1 # 2, 3)] (Some 1%nat) (Some 0%nat) false = Ok hx' /\
  hval (fst hx') 1 0 == 3 /\ hval (fst hx') 1 (1 # 2) == 9 /\ htotal (fst hx') 0 == 88.
Proof. eexists. split; [vm_compute; reflexivity|]. repeat split; vm_compute; reflexivity. Qed.
(** 50 now, 60 more at a half, 40 less at three quarters, 5 more at the end: 20 can be spared at
    once, 60 from a half on, 72 only at the end, and 80 never *)
Definition flows : heap := [(0%nat, [(0, 50); (1 # 2, 60); (3 # 4, -40); (1, 5)])].
Example C59_sat : demo_kinds 0%nat = None /\ shift_when demo_kinds flows 20 (1 # 4) 0 == 1 # 4 /\ shift_when demo_kinds flows 60 (1 # 4) 0 == 1 # 2 /\
  shift_when demo_kinds flows 72 (1 # 4) 0 == 1 /\ shift_when demo_kinds flows 80 (1 # 4) 0 == 1 # 4.
Proof. repeat split; vm_compute; reflexivity. Qed.
