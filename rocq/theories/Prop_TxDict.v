(** C117: TransactionDict maps accounts, dicts and numbers, each to its own value. *)
From Coq Require Import ZArith Lia Sorting.Sorted Sorting.Permutation.
From Verif Require Import Base BaseFacts TxDictModel.
Open Scope Z_scope.

(** ** Specification: a history of uses *)
Inductive use (V : Type) : Type := Read (k : key) | Write (k : key) (v : V) | Clear.
Arguments Read {V}. Arguments Write {V}. Arguments Clear {V}.
(** the value last written for the very same key since the last clear *)
Fixpoint last_written {V} (k : key) (os : list (use V)) (sofar : option V) : option V :=
  match os with
  | [] => sofar
  | Read _ :: r => last_written k r sofar
  | Write k' v :: r => last_written k r (if key_eqb k k' then Some v else sofar)
  | Clear :: r => last_written k r None
  end.
(** the keys used since the last clear, each once, in the order of first use *)
Fixpoint first_used {V} (os : list (use V)) (sofar : list key) : list key :=
  let add k := if existsb (key_eqb k) sofar then sofar else sofar ++ [k] in
  match os with
  | [] => sofar
  | Read k :: r => first_used r (add k)
  | Write k _ :: r => first_used r (add k)
  | Clear :: r => first_used r []
  end.
(** integers that are nobody's id *)
Definition separate (id : nat -> Z) (k : key) : Prop := match k with Int z => forall n, z <> id n | _ => True end.
Definition separate_use {V} (id : nat -> Z) (o : use V) : Prop := match o with Read k | Write k _ => separate id k | Clear => True end.
Definition distinct_ids (id : nat -> Z) : Prop := forall n m, id n = id m -> n = m.

Definition step {V} id (default : V) (d : tdict V) (o : use V) : tdict V :=
  match o with Read k => snd (getitem id V default d k) | Write k v => setitem id V d k v | Clear => clear V d end.
Definition run {V} id (default : V) (os : list (use V)) : tdict V := fold_left (step id default) os (new V).

(** ** Proofs *)
Lemma key_eqb_eq a b : key_eqb a b = true <-> a = b.
Proof.
  destruct a, b; cbn; try (split; [discriminate|congruence]).
  - rewrite Nat.eqb_eq. split; [now intros ->|congruence].
  - rewrite Nat.eqb_eq. split; [now intros ->|congruence].
  - rewrite Z.eqb_eq. split; [now intros ->|congruence].
Qed.
Lemma key_refl a : key_eqb a a = true. Proof. now apply key_eqb_eq. Qed.
Lemma key_neq a b : key_eqb a b = false <-> a <> b.
Proof. rewrite <- key_eqb_eq. destruct (key_eqb a b); split; congruence. Qed.
Lemma kget_dset {V} (l : list (key * V)) k v k' : dget key_eqb (dset key_eqb l k v) k' = if key_eqb k' k then Some v else dget key_eqb l k'.
Proof.
  induction l as [|[k0 v0] l IH]; cbn.
  - reflexivity.
  - destruct (key_eqb k k0) eqn:E; cbn.
    + apply key_eqb_eq in E. subst k0. destruct (key_eqb k' k); reflexivity.
    + rewrite IH. destruct (key_eqb k' k0) eqn:E1; [|reflexivity]. apply key_eqb_eq in E1. subst k0. destruct (key_eqb k' k) eqn:E2; [|reflexivity]. apply key_eqb_eq in E2. subst k'. rewrite key_refl in E. discriminate.
Qed.
Lemma keys_dset {V} (l : list (key * V)) k v : dkeys (dset key_eqb l k v) = if dmem key_eqb l k then dkeys l else dkeys l ++ [k].
Proof.
  unfold dmem. induction l as [|[k0 v0] l IH]; cbn; [reflexivity|]. destruct (key_eqb k k0) eqn:E; cbn; [reflexivity|]. unfold dkeys in IH. rewrite IH. destruct (dget key_eqb l k); reflexivity.
Qed.
Lemma kmem_keys {V} (l : list (key * V)) k : dmem key_eqb l k = existsb (key_eqb k) (dkeys l).
Proof. unfold dmem. induction l as [|[k0 v0] l IH]; cbn; [reflexivity|]. destruct (key_eqb k k0); cbn; [reflexivity|]. exact IH. Qed.

Lemma key_sym a b : key_eqb a b = key_eqb b a.
Proof. destruct (key_eqb a b) eqn:E; symmetry; [apply key_eqb_eq in E; subst; apply key_refl|]. apply key_neq. apply key_neq in E. congruence. Qed.
Lemma key_trans a b c : key_eqb a b = true -> key_eqb b c = true -> key_eqb a c = true.
Proof. intros H1 H2. apply key_eqb_eq in H1, H2. subst. apply key_refl. Qed.
Lemma kset_wf {V} (l : list (key * V)) k v : dwf key_eqb l -> dwf key_eqb (dset key_eqb l k v).
Proof. exact (dset_wf key_eqb key_sym key_trans l k v). Qed.
Lemma kIn_dget {V} (l : list (key * V)) k v : dwf key_eqb l -> In (k, v) l -> dget key_eqb l k = Some v.
Proof. exact (In_dget key_eqb key_refl key_sym key_trans l k v). Qed.

(** the key of the underlying dict *)
Definition under (id : nat -> Z) (k : key) : key := match k with Plain n => Int (id n) | _ => k end.
Lemma under_inj id k k' : distinct_ids id -> separate id k -> separate id k' -> under id k = under id k' -> k = k'.
Proof.
  intros D S S' E. destruct k as [n|n|z], k' as [m|m|w]; cbn in *; try discriminate; injection E as E; try (apply D in E); try congruence.
  all: exfalso; first [apply (S' n); congruence|apply (S m); congruence].
Qed.
Definition good {V} id (d : tdict V) : Prop :=
  (forall z n, dget Z.eqb (t_unhashable d) z = Some n -> z = id n) /\
  forall k, In k (dkeys (t_items d)) -> exists k0, separate id k0 /\ k = under id k0 /\ match k0 with Plain n => dget Z.eqb (t_unhashable d) (id n) = Some n | _ => True end.
Lemma translate_under {V} id (d : tdict V) k : good id d -> separate id k -> match k with Plain n => dget Z.eqb (t_unhashable d) (id n) = Some n | _ => True end -> translate V d (under id k) = k.
Proof.
  intros [G _] S H. destruct k; cbn; [reflexivity|now rewrite H|]. destruct (dget Z.eqb (t_unhashable d) z) eqn:E; [|reflexivity]. apply G in E. exfalso. apply (S n), E.
Qed.
(** what both ways of using a key do to the underlying dict *)
Definition touched {V} id (d : tdict V) (k : key) (v : V) : tdict V :=
  {| t_items := dset key_eqb (t_items d) (under id k) v; t_unhashable := match k with Plain n => remember id (t_unhashable d) n | _ => t_unhashable d end |}.
Lemma remember_get id l n z : (forall z n, dget Z.eqb l z = Some n -> z = id n) -> distinct_ids id -> dget Z.eqb (remember id l n) z = if Z.eqb z (id n) then Some n else dget Z.eqb l z.
Proof.
  intros G D. unfold remember. unfold dmem. destruct (dget Z.eqb l (id n)) as [m|] eqn:E.
  - destruct (Z.eqb_spec z (id n)) as [-> |]; [|reflexivity]. rewrite E. apply G in E. apply D in E. now subst.
  - apply zdget_dset.
Qed.
Lemma touched_good {V} id (d : tdict V) k v : distinct_ids id -> separate id k -> good id d ->
  good id (touched id d k v) /\ iter V (touched id d k v) = (if existsb (key_eqb k) (iter V d) then iter V d else iter V d ++ [k]).
Proof.
  intros D S G. pose proof G as [G1 G2].
  assert (U : forall z n, dget Z.eqb (t_unhashable d) z = Some n -> dget Z.eqb (t_unhashable (touched id d k v)) z = Some n).
  { intros z n H. destruct k as [m|m|m]; cbn; try exact H. rewrite remember_get by assumption. destruct (Z.eqb_spec z (id m)) as [-> |]; [|exact H]. apply G1 in H. apply D in H. now subst. }
  assert (K : match k with Plain n => dget Z.eqb (t_unhashable (touched id d k v)) (id n) = Some n | _ => True end).
  { destruct k as [m|m|m]; cbn; auto. rewrite remember_get by assumption. now rewrite Z.eqb_refl. }
  assert (G' : good id (touched id d k v)).
  { split.
    - intros z n H. destruct k as [m|m|m]; cbn in H; try (now apply G1). rewrite remember_get in H by assumption. destruct (Z.eqb_spec z (id m)) as [-> |]; [now injection H as <-|now apply G1].
    - intros x Hx. unfold touched in Hx. cbn [t_items] in Hx. rewrite keys_dset in Hx.
      assert (Hd : In x (dkeys (t_items d)) \/ x = under id k). { destruct (dmem key_eqb (t_items d) (under id k)); [now left|]. apply in_app_iff in Hx. destruct Hx as [Hx | [<- | []]]; auto. }
      destruct Hd as [Hd | ->]; [|exists k; auto]. destruct (G2 x Hd) as (k0 & S0 & E0 & H0). exists k0. split; [exact S0|]. split; [exact E0|]. destruct k0; auto. }
  split; [exact G'|].
  assert (T : forall x, In x (dkeys (t_items d)) -> translate V (touched id d k v) x = translate V d x).
  { intros x Hx. destruct (G2 x Hx) as (k0 & S0 & -> & H0). rewrite (translate_under id d k0 G S0 H0). apply translate_under; auto. destruct k0; auto. }
  unfold iter. unfold touched at 2. cbn [t_items]. rewrite keys_dset.
  assert (M : dmem key_eqb (t_items d) (under id k) = existsb (key_eqb k) (map (translate V d) (dkeys (t_items d)))).
  { rewrite kmem_keys. clear T. revert G2. generalize (dkeys (t_items d)) as l. induction l as [|x l IH]; intros G2; cbn [existsb map]; [reflexivity|]. f_equal; [|apply IH; intros; apply G2; now right].
    destruct (G2 x (or_introl eq_refl)) as (k0 & S0 & -> & H0). rewrite (translate_under id d k0 G S0 H0). destruct (key_eqb k k0) eqn:E; [apply key_eqb_eq in E; subst; apply key_refl|]. apply key_neq. apply key_neq in E. intros H. apply E. now apply (under_inj id). }
  rewrite <- M. assert (TM : map (translate V (touched id d k v)) (dkeys (t_items d)) = map (translate V d) (dkeys (t_items d))) by (now apply map_ext_in).
  destruct (dmem key_eqb (t_items d) (under id k)); [exact TM|]. rewrite map_app, TM. cbn [map]. f_equal. f_equal. now apply translate_under.
Qed.
Lemma setitem_touched {V} id (d : tdict V) k v : setitem id V d k v = touched id d k v.
Proof. destruct k; reflexivity. Qed.
Lemma getitem_touched {V} id default (d : tdict V) k : good id d -> distinct_ids id -> separate id k ->
  let v := match dget key_eqb (t_items d) (under id k) with Some v => v | None => default end in
  fst (getitem id V default d k) = v /\ iter V (snd (getitem id V default d k)) = iter V (touched id d k v) /\ good id (snd (getitem id V default d k)) /\
  forall k', dget key_eqb (t_items (snd (getitem id V default d k))) k' = dget key_eqb (t_items (touched id d k v)) k'.
Proof.
  intros G D S v. destruct (touched_good id d k v D S G) as [G' I']. pose proof G as [G1 G2].
  assert (E : getitem id V default d k = (v, {| t_items := snd (base_get V default (t_items d) (under id k)); t_unhashable := t_unhashable (touched id d k v) |})).
  { unfold v. destruct k; cbn; unfold base_get; destruct (dget key_eqb (t_items d) _); reflexivity. }
  rewrite E. cbn [fst snd]. split; [reflexivity|]. unfold base_get. fold v. destruct (dget key_eqb (t_items d) (under id k)) as [w|] eqn:Q; cbn [snd]; [|unfold v; split; [reflexivity|split; [exact G'|reflexivity]]].
  assert (Kd : dkeys (dset key_eqb (t_items d) (under id k) v) = dkeys (t_items d)) by (rewrite keys_dset; unfold dmem; now rewrite Q).
  split; [|split].
  - unfold iter. change (t_items (touched id d k v)) with (dset key_eqb (t_items d) (under id k) v). rewrite Kd. apply map_ext. intros x. destruct x; reflexivity.
  - destruct G' as [H1 H2]. split; [exact H1|]. intros x Hx. apply H2. unfold touched. cbn [t_items] in *. rewrite Kd. exact Hx.
  - intros k'. cbn [t_items touched]. rewrite kget_dset. destruct (key_eqb k' (under id k)) eqn:E'; [|reflexivity]. apply key_eqb_eq in E'. subst k'. now rewrite Q.
Qed.
Lemma last_snoc {V} k (os : list (use V)) o : forall a, last_written k (os ++ [o]) a = match o with Read _ => last_written k os a | Write k' v => if key_eqb k k' then Some v else last_written k os a | Clear => None end.
Proof. induction os as [|x os IH]; intros a; cbn [app last_written]; [destruct o; reflexivity|]. destruct x; apply IH. Qed.
Lemma used_snoc {V} (os : list (use V)) o : forall a, first_used (os ++ [o]) a = match o with Read k | Write k _ => if existsb (key_eqb k) (first_used os a) then first_used os a else first_used os a ++ [k] | Clear => [] end.
Proof. induction os as [|x os IH]; intros a; cbn [app first_used]; [destruct o; reflexivity|]. destruct x; apply IH. Qed.

Lemma run_spec {V} id (default : V) : distinct_ids id -> forall os, Forall (separate_use id) os ->
  let d := run id default os in good id d /\ iter V d = first_used os [] /\
  forall k, separate id k -> dget key_eqb (t_items d) (under id k) = if existsb (key_eqb k) (first_used os []) then Some (match last_written k os None with Some v => v | None => default end) else None.
Proof.
  intros D. induction os as [|o os IH] using rev_ind; intros F.
  - cbn. split; [|split; [reflexivity|reflexivity]]. split; [discriminate|intros k []].
  - apply Forall_app in F. destruct F as [F Fo]. inversion Fo as [|? ? So _]; subst. destruct (IH F) as (G & I & L). clear IH.
    unfold run in *. rewrite fold_left_app. cbn [fold_left]. set (d := fold_left _ os _) in *. rewrite used_snoc.
    assert (key_ext : forall k k', separate id k -> separate id k' -> key_eqb (under id k') (under id k) = key_eqb k' k).
    { intros k k' S S'. destruct (key_eqb k' k) eqn:E; [apply key_eqb_eq in E; subst; apply key_refl|]. apply key_neq. apply key_neq in E. intros H. apply E. now apply (under_inj id). }
    assert (ex_add : forall k k' l, existsb (key_eqb k') (if existsb (key_eqb k) l then l else l ++ [k]) = (key_eqb k' k || existsb (key_eqb k') l)%bool).
    { intros k k' l. destruct (existsb (key_eqb k) l) eqn:E.
      - destruct (key_eqb k' k) eqn:E'; [|reflexivity]. apply key_eqb_eq in E'. subst k'. exact E.
      - rewrite existsb_app. cbn. rewrite Bool.orb_false_r. apply Bool.orb_comm. }
    destruct o as [k|k v|]; cbn [step separate_use] in *.
    + destruct (getitem_touched id default d k G D So) as (_ & I2 & G2 & L2). set (v := match dget _ _ _ with Some v => v | None => default end) in *.
      split; [exact G2|]. destruct (touched_good id d k v D So G) as [_ I3]. rewrite I2, I3, I. split; [reflexivity|].
      intros k' S'. rewrite L2. unfold touched. cbn [t_items]. rewrite kget_dset, key_ext by assumption. rewrite ex_add, last_snoc. destruct (key_eqb k' k) eqn:E; cbn [orb].
      * apply key_eqb_eq in E. subst k'. f_equal. unfold v. rewrite L by assumption. destruct (existsb (key_eqb k) (first_used os [])) eqn:Ex; [reflexivity|].
        assert (W : forall os' : list (use V), existsb (key_eqb k) (first_used os' []) = false -> last_written k os' None = None).
        { induction os' as [|o' os' IHo] using rev_ind; intros H; [reflexivity|]. rewrite used_snoc in H. rewrite last_snoc. destruct o' as [k0|k0 v0|]; auto; rewrite ex_add in H; apply Bool.orb_false_iff in H; destruct H as [H1 H2]; [now apply IHo|]. rewrite H1. now apply IHo. }
        now rewrite W.
      * now apply L.
    + rewrite setitem_touched. destruct (touched_good id d k v D So G) as [G2 I2]. split; [exact G2|]. rewrite I2, I. split; [reflexivity|].
      intros k' S'. unfold touched. cbn [t_items]. rewrite kget_dset, key_ext by assumption. rewrite ex_add, last_snoc. destruct (key_eqb k' k) eqn:E; cbn [orb]; [reflexivity|now apply L].
    + split; [|split; [reflexivity|reflexivity]]. destruct G as [G1 _]. split; [exact G1|intros x []].
Qed.

Lemma run_wf {V} id (default : V) os : dwf key_eqb (t_items (run id default os)).
Proof.
  unfold run. assert (H : forall os d0, dwf key_eqb (t_items (V := V) d0) -> dwf key_eqb (t_items (fold_left (step id default) os d0))).
  { clear. assert (dset_ok : forall (l : list (key * V)) k v, dwf key_eqb l -> dwf key_eqb (dset key_eqb l k v)) by (intros; now apply kset_wf).
    induction os as [|o os IH]; intros d0 H; cbn; [exact H|]. apply IH. destruct o as [k|k v|]; cbn; auto.
    - destruct k; cbn; unfold base_get; destruct (dget key_eqb (t_items d0) _); cbn; auto.
    - rewrite setitem_touched. cbn. auto. }
  apply H. cbn. exact Logic.I.
Qed.
(** Whatever was done before, reading a key - an account, a dict, a number - gives the value last written for that very key, or the
    default if there was none since the last clear; and iterating gives the keys themselves, each once, in the order of first use. *)
Theorem C117_mapping : forall V id (default : V) os, distinct_ids id -> Forall (separate_use id) os ->
  let d := run id default os in
  (forall k, separate id k -> fst (getitem id V default d k) = match last_written k os None with Some v => v | None => default end) /\
  iter V d = first_used os [] /\ map snd (items V d) = map (fun k => match last_written k os None with Some v => v | None => default end) (iter V d).
Proof.
  intros V id default os D F d. destruct (run_spec id default D os F) as (G & I & L). fold d in G, I, L.
  assert (W : forall k, existsb (key_eqb k) (first_used os []) = false -> last_written k os None = None).
  { intros k. clear - os. induction os as [|o' os' IHo] using rev_ind; intros H; [reflexivity|]. rewrite used_snoc in H. rewrite last_snoc.
    assert (ex_add : forall k k' l, existsb (key_eqb k') (if existsb (key_eqb k) l then l else l ++ [k]) = (key_eqb k' k || existsb (key_eqb k') l)%bool).
    { intros k1 k2 l. destruct (existsb (key_eqb k1) l) eqn:E.
      - destruct (key_eqb k2 k1) eqn:E'; [|reflexivity]. apply key_eqb_eq in E'. subst k2. exact E.
      - rewrite existsb_app. cbn. rewrite Bool.orb_false_r. apply Bool.orb_comm. }
    destruct o' as [k0|k0 v0|]; auto; rewrite ex_add in H; apply Bool.orb_false_iff in H; destruct H as [H1 H2]; [now apply IHo|]. rewrite H1. now apply IHo. }
  split; [|split; [exact I|]].
  - intros k S. destruct (getitem_touched id default d k G D S) as [-> _]. rewrite L by exact S. destruct (existsb _ _) eqn:E; [reflexivity|]. now rewrite W.
  - unfold items, iter.
    assert (ND : dwf key_eqb (t_items d)).
    { apply run_wf. }
    rewrite map_map. assert (P : forall kv, In kv (t_items d) -> snd kv = match last_written (translate V d (fst kv)) os None with Some v => v | None => default end).
    { intros [k v] Hin. destruct G as [G1 G2]. destruct (G2 k) as (k0 & S0 & -> & H0); [apply in_map_iff; exists (k, v); auto|]. cbn [fst snd]. rewrite (translate_under id d k0 (conj G1 G2) S0 H0).
      assert (Q : dget key_eqb (t_items d) (under id k0) = Some v). { now apply kIn_dget. }
      rewrite L in Q by exact S0. destruct (existsb _ _); [now injection Q as <-|discriminate]. }
    unfold dkeys. rewrite map_map. now apply map_ext_in.
Qed.
Print Assumptions C117_mapping.

(** What does not work: the overridden keys() sorts the keys, which raises TypeError as soon as there are two of which one is not a
    number - two accounts, say *)
Theorem C117_keys_refuted : forall V (d : tdict V) k k' r, iter V d = k :: k' :: r -> (exists x, In x (iter V d) /\ (forall z, x <> Int z)) -> keys V d = Err TypeError.
Proof.
  intros V d k k' r E (x & Hx & N). unfold keys, sorted. rewrite E in *. destruct (forallb (comparable k) (k :: k' :: r)) eqn:F; [|reflexivity].
  rewrite forallb_forall in F. pose proof (F x Hx) as C. exfalso. destruct k; cbn in C; try discriminate. destruct x; try discriminate. now apply (N z0).
Qed.
Print Assumptions C117_keys_refuted.
(** the inherited methods do not know unhashable keys, even those that are there: in, get and del raise TypeError, and items() gives
    their ids instead of the keys *)
Theorem C117_inherited_refuted : forall V id (default : V) os n v, distinct_ids id -> Forall (separate_use id) os ->
  let d := run id default (os ++ [Write (Plain n) v]) in
  fst (getitem id V default d (Plain n)) = v /\ contains V d (Plain n) = Err TypeError /\ get V d (Plain n) = Err TypeError /\ delitem V d (Plain n) = Err TypeError /\
  In (Int (id n), v) (items V d) /\ ~ In (Plain n) (map fst (items V d)).
Proof.
  intros V id default os n v D F d. assert (F' : Forall (separate_use id) (os ++ [Write (Plain n) v])) by (apply Forall_app; split; [exact F|constructor; [exact Logic.I|constructor]]).
  destruct (C117_mapping V id default _ D F') as (M & _). fold d in M. split; [rewrite (M (Plain n) Logic.I), last_snoc, key_refl; reflexivity|].
  split; [reflexivity|]. split; [reflexivity|]. split; [reflexivity|].
  destruct (run_spec id default D _ F') as (G & _ & L). fold d in G, L. split.
  - specialize (L (Plain n) Logic.I). rewrite used_snoc, last_snoc, key_refl in L. assert (Ex : existsb (key_eqb (Plain n)) (if existsb (key_eqb (Plain n)) (first_used os []) then first_used os [] else first_used os [] ++ [Plain n]) = true) by (destruct (existsb (key_eqb (Plain n)) (first_used os [])) eqn:E; [exact E|]; rewrite existsb_app; cbn [existsb]; rewrite key_refl; now rewrite Bool.orb_true_r). rewrite Ex in L. cbn [under] in L.
    apply (dget_In key_eqb) in L. destruct L as (k' & E & H). apply key_eqb_eq in E. subst k'. exact H.
  - intros H. destruct G as [_ G]. destruct (G (Plain n) H) as (k0 & _ & E & _). destruct k0; discriminate.
Qed.
Print Assumptions C117_inherited_refuted.
(** an integer that happens to be the id of a dict in use is taken for that dict: reading it gives the dict's value *)
Theorem C117_collision_refuted : forall V id (default v w : V) n, let d := setitem id V (setitem id V (new V) (Plain n) v) (Int (id n)) w in
  fst (getitem id V default d (Plain n)) = w /\ iter V d = [Plain n].
Proof.
  intros. unfold d, setitem, new, getitem, base_get, iter, translate, remember. cbn. rewrite Z.eqb_refl. cbn. rewrite !Z.eqb_refl. split; reflexivity.
Qed.
Print Assumptions C117_collision_refuted.

(** what does work: with numbers only, keys() gives the keys used, in ascending order *)
Lemma insert_spec z l : Sorted Z.le l -> Sorted Z.le (map (fun k => match k with Int x => x | _ => 0 end) (insert (Int z) (map Int l))) /\
  Permutation (insert (Int z) (map Int l)) (Int z :: map Int l) /\ (forall y, HdRel Z.le y l -> y <= z -> HdRel Z.le y (map (fun k => match k with Int x => x | _ => 0 end) (insert (Int z) (map Int l)))).
Proof.
  induction l as [|x l IH]; intros S; cbn [map insert].
  - split; [repeat constructor|]. split; [reflexivity|]. intros y _ L. now constructor.
  - assert (I : map (fun k => match k with Int x => x | _ => 0 end) (map Int l) = l) by (rewrite map_map; apply map_id).
    inversion S as [|? ? S' H]; subst. destruct (Z.leb_spec z x) as [L|L]; cbn [map]; rewrite ?I.
    + split; [constructor; [exact S|now constructor]|]. split; [reflexivity|]. intros y _ L'. now constructor.
    + destruct (IH S') as (I1 & I2 & I3). split; [constructor; [exact I1|apply I3; [exact H|lia]]|]. split; [rewrite I2; apply perm_swap|]. intros y Hy _. inversion Hy; subst. now constructor.
Qed.
Theorem C117_numbers : forall V id (default : V) os, distinct_ids id -> Forall (separate_use id) os ->
  (forall k, In k (first_used os []) -> exists z, k = Int z) ->
  exists zs, keys V (run id default os) = Ok (map Int zs) /\ Sorted Z.le zs /\ Permutation (map Int zs) (first_used os []).
Proof.
  intros V id default os D F N. destruct (run_spec id default D os F) as (_ & I & _). unfold keys. rewrite I. clear I. set (l := first_used os []) in *. clearbody l. clear - N.
  assert (E : exists zs, l = map Int zs).
  { induction l as [|k l IH]; [now exists []|]. destruct (N k) as [z ->]; [now left|]. destruct IH as [zs ->]; [intros k' H; apply N; now right|]. now exists (z :: zs). }
  destruct E as [zs ->]. clear N.
  assert (Q : exists ws, fold_right insert [] (map Int zs) = map Int ws /\ Sorted Z.le ws /\ Permutation (map Int ws) (map Int zs)).
  { induction zs as [|z zs (ws & E & S & P)]; [exists []; repeat split; constructor|]. cbn [map fold_right]. rewrite E. destruct (insert_spec z ws S) as (S2 & P2 & _).
    assert (E3 : forall l, (forall k, In k l -> exists z, k = Int z) -> map Int (map (fun k => match k with Int x => x | _ => 0 end) l) = l).
    { clear. induction l as [|k l IH]; intros H; [reflexivity|]. cbn. rewrite IH by (intros; apply H; now right). destruct (H k) as [x ->]; [now left|reflexivity]. }
    eexists. split; [symmetry; apply E3|split; [exact S2|]].
    - intros k H. apply (Permutation_in _ P2) in H. destruct H as [<- | H]; [eauto|]. apply in_map_iff in H. destruct H as (x & <- & _). eauto.
    - rewrite E3; [rewrite P2; now constructor|]. intros k H. apply (Permutation_in _ P2) in H. destruct H as [<- | H]; [eauto|]. apply in_map_iff in H. destruct H as (x & <- & _). eauto. }
  destruct zs as [|z [|z' zs]]; [exists []; repeat split; constructor|exists [z]; repeat split; repeat constructor|].
  destruct Q as (ws & E & S & P). exists ws. split; [|now split]. unfold sorted. cbn [map]. change (Int z :: Int z' :: map Int zs) with (map Int (z :: z' :: zs)). rewrite E.
  assert (C : forallb (comparable (Int z)) (map Int (z :: z' :: zs)) = true). { apply forallb_forall. intros x H. apply in_map_iff in H. destruct H as (w & <- & _). reflexivity. }
  now rewrite C.
Qed.
Print Assumptions C117_numbers.
(** and for accounts and numbers, in tells whether the key was used and get gives the value, without changing anything *)
Theorem C117_hashable : forall V id (default : V) os k, distinct_ids id -> Forall (separate_use id) os -> separate id k -> (forall n, k <> Plain n) ->
  let d := run id default os in
  contains V d k = Ok (existsb (key_eqb k) (first_used os [])) /\
  get V d k = Ok (if existsb (key_eqb k) (first_used os []) then Some (match last_written k os None with Some v => v | None => default end) else None) /\
  (forall d', delitem V d k = Ok d' -> existsb (key_eqb k) (first_used os []) = true /\
    (forall k', separate id k' -> fst (getitem id V default d' k') = if key_eqb k' k then default else fst (getitem id V default d k'))) /\
  (existsb (key_eqb k) (first_used os []) = false -> delitem V d k = Err KeyError).
Proof.
  intros V id default os k D F S N d. destruct (run_spec id default D os F) as (G & I & L). fold d in G, I, L. specialize (L k S) as Lk.
  assert (U : under id k = k) by (destruct k; [reflexivity|now destruct (N n)|reflexivity]). rewrite U in Lk.
  assert (H : hashable k = true) by (destruct k; [reflexivity|now destruct (N n)|reflexivity]).
  assert (M : dmem key_eqb (t_items d) k = existsb (key_eqb k) (first_used os [])) by (unfold dmem; rewrite Lk; now destruct (existsb _ _)).
  unfold contains, get, delitem. rewrite H, M, Lk. split; [reflexivity|]. split; [reflexivity|]. split; [|intros ->; reflexivity].
  intros d' E. destruct (existsb _ _); [|discriminate]. split; [reflexivity|]. injection E as <-. intros k' S'.
  assert (B : forall d k', fst (getitem id V default d k') = match dget key_eqb (t_items d) (under id k') with Some v => v | None => default end).
  { intros d0 k0. destruct k0; cbn; unfold base_get; destruct (dget key_eqb (t_items d0) _); reflexivity. }
  rewrite !B. cbn [t_items].
  rewrite (dget_ddel key_eqb key_sym key_trans) by apply run_wf. assert (X : key_eqb (under id k') k = key_eqb k' k).
  { destruct (key_eqb k' k) eqn:E; [apply key_eqb_eq in E; subst k'; rewrite U; apply key_refl|]. apply key_neq in E. apply key_neq. intros E'. apply E, (under_inj id); try assumption. congruence. }
  rewrite X. now destruct (key_eqb k' k).
Qed.
Print Assumptions C117_hashable.
(** two accounts, a dict and a number; the first account's default is read, then written *)
Example C117_sat : let os := [Read (Acct 1); Write (Plain 7) 5%nat; Write (Acct 1) 3%nat; Write (Int 2) 4%nat; Write (Plain 7) 6%nat; Read (Acct 2)] in
  distinct_ids (fun n => 1000 + Z.of_nat n) /\ Forall (separate_use (fun n => 1000 + Z.of_nat n)) os /\
  iter nat (run (fun n => 1000 + Z.of_nat n) 0%nat os) = [Acct 1; Plain 7; Int 2; Acct 2] /\
  fst (getitem (fun n => 1000 + Z.of_nat n) nat 0%nat (run (fun n => 1000 + Z.of_nat n) 0%nat os) (Plain 7)) = 6%nat /\
  keys nat (run (fun n => 1000 + Z.of_nat n) 0%nat os) = Err TypeError.
Proof.
  cbn zeta. split; [intros n m H; lia|]. split; [apply Forall_forall; intros o Ho; cbn in Ho; repeat (destruct Ho as [<- | Ho]; [unfold separate_use, separate; try exact Logic.I; try (intros n; lia)|]); contradiction|]. repeat split; vm_compute; reflexivity.
Qed.
Example C117_numbers_sat : let os := [Write (Int 7) 5%nat; Read (Int 2); Write (Int 9) 3%nat; Write (Int 2) 4%nat] in
  Forall (separate_use (fun n => 1000 + Z.of_nat n)) os /\ first_used os [] = [Int 7; Int 2; Int 9] /\
  keys nat (run (fun n => 1000 + Z.of_nat n) 0%nat os) = Ok [Int 2; Int 7; Int 9].
Proof.
  cbn zeta. split; [apply Forall_forall; intros o Ho; cbn in Ho; repeat (destruct Ho as [<- | Ho]; [unfold separate_use, separate; intros n; lia|]); contradiction|]. repeat split; vm_compute; reflexivity.
Qed.
