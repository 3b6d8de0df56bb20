From Verif Require Import Base BaseFacts InflationModel InflationSpec.
From Coq Require Import Permutation Qfield.

Lemma zmaxl_spec l : match zmaxl l with
  | None => l = [] | Some m => In m l /\ forall x, In x l -> (x <= m)%Z end.
Proof.
  induction l as [|x r IH]; cbn; [reflexivity|].
  destruct (zmaxl r) as [m|].
  - destruct IH as [H1 H2]. split.
    + destruct (Z.max_spec x m) as [[_ ->]|[_ ->]]; auto.
    + intros y [<-|Hy]; [lia|]. specialize (H2 y Hy). lia.
  - subst. split; [auto|]. intros y [<-|[]]. lia.
Qed.
Lemma zminl_spec l : match zminl l with
  | None => l = [] | Some m => In m l /\ forall x, In x l -> (m <= x)%Z end.
Proof.
  induction l as [|x r IH]; cbn; [reflexivity|].
  destruct (zminl r) as [m|].
  - destruct IH as [H1 H2]. split.
    + destruct (Z.min_spec x m) as [[_ ->]|[_ ->]]; auto.
    + intros y [<-|Hy]; [lia|]. specialize (H2 y Hy). lia.
  - subst. split; [auto|]. intros y [<-|[]]. lia.
Qed.
Lemma dmem_keys {V} (d : dict Z V) y : dmem Z.eqb d y = true <-> In y (dkeys d).
Proof.
  unfold dmem, dkeys. induction d as [|[k v] r IH]; cbn; [split; [discriminate|contradiction]|].
  destruct (Z.eqb_spec y k) as [->|Hne].
  - split; auto.
  - rewrite IH. split; [auto|]. intros [E|H]; [congruence|exact H].
Qed.

Lemma nearest_year_spec {V} (vals : dict Z V) year :
  match nearest_year vals year with
  | None => vals = []
  | Some k => In k (dkeys vals) /\
      (In year (dkeys vals) -> k = year) /\
      (~ In year (dkeys vals) ->
         (k < year /\ forall x, In x (dkeys vals) -> x < year -> x <= k) \/
         (year < k /\ forall x, In x (dkeys vals) -> k <= x))%Z
  end.
Proof.
  unfold nearest_year. destruct vals as [|kv r]; [reflexivity|].
  set (vals := kv :: r). destruct (dmem Z.eqb vals year) eqn:E.
  - apply dmem_keys in E. split; [exact E|]. split; [reflexivity|tauto].
  - assert (Hn : ~ In year (dkeys vals)) by (rewrite <- dmem_keys; congruence).
    pose proof (zmaxl_spec (filter (fun k => (k <? year)%Z) (dkeys vals))) as H1.
    destruct (zmaxl _) as [k|].
    + destruct H1 as [H1 H2]. apply filter_In in H1. destruct H1 as [H1 H3].
      apply Z.ltb_lt in H3. split; [exact H1|]. split; [tauto|]. intros _. left. split; [exact H3|].
      intros x Hx Hlt. apply H2. apply filter_In. split; [exact Hx|]. apply Z.ltb_lt. exact Hlt.
    + pose proof (zminl_spec (filter (fun k => (year <? k)%Z) (dkeys vals))) as H4.
      assert (Hall : forall x, In x (dkeys vals) -> (year < x)%Z).
      { intros x Hx. destruct (Z.lt_trichotomy x year) as [Hl|[->|Hl]]; [|tauto|exact Hl].
        exfalso. assert (In x (filter (fun k => (k <? year)%Z) (dkeys vals))).
        { apply filter_In. split; [exact Hx|]. apply Z.ltb_lt. exact Hl. }
        rewrite H1 in H. contradiction. }
      destruct (zminl _) as [k|].
      * destruct H4 as [H4 H5]. apply filter_In in H4. destruct H4 as [H4 H6].
        split; [exact H4|]. split; [tauto|]. intros _. right. split; [auto|].
        intros x Hx. apply H5. apply filter_In. split; [exact Hx|]. apply Z.ltb_lt. auto.
      * exfalso. assert (In (fst kv) (dkeys vals)) by (left; reflexivity).
        assert (In (fst kv) (filter (fun k => (year <? k)%Z) (dkeys vals))).
        { apply filter_In. split; [exact H|]. apply Z.ltb_lt. auto. }
        rewrite H4 in H0. contradiction.
Qed.

Lemma nearest_year_perm {V} (a b : dict Z V) year :
  Permutation a b -> nearest_year a year = nearest_year b year.
Proof.
  intro P. pose proof (nearest_year_spec a year) as Ha. pose proof (nearest_year_spec b year) as Hb.
  assert (PK : forall x, In x (dkeys a) <-> In x (dkeys b)).
  { intro x. split; apply Permutation_in, Permutation_map; [exact P|symmetry; exact P]. }
  destruct (nearest_year a year) as [k1|], (nearest_year b year) as [k2|]; [| | |reflexivity].
  - destruct Ha as (A1 & A2 & A3), Hb as (B1 & B2 & B3). f_equal.
    destruct (in_dec Z.eq_dec year (dkeys a)) as [Hi|Hi].
    + rewrite A2 by exact Hi. rewrite B2; [reflexivity|]. apply PK. exact Hi.
    + assert (Hi' : ~ In year (dkeys b)) by (rewrite <- PK; exact Hi).
      destruct (A3 Hi) as [[a1 a2]|[a1 a2]], (B3 Hi') as [[b1 b2]|[b1 b2]].
      * apply PK in A1 as A1'. apply PK in B1 as B1'.
        specialize (a2 k2 B1' b1). specialize (b2 k1 A1' a1). lia.
      * apply PK in A1 as A1'. specialize (b2 k1 A1'). lia.
      * apply PK in B1 as B1'. specialize (a2 k2 B1'). lia.
      * apply PK in A1 as A1'. apply PK in B1 as B1'. specialize (a2 k2 B1'). specialize (b2 k1 A1'). lia.
  - subst. apply Permutation_sym, Permutation_nil in P. subst. destruct Ha as [[] _].
  - subst. apply Permutation_nil in P. subst. destruct Hb as [[] _].
Qed.

Lemma extend_exact vals ia y v : dget Z.eqb vals y = Some v ->
  extend_inflation_adjusted vals ia y = Ok v.
Proof. intro H. unfold extend_inflation_adjusted. rewrite H. reflexivity. Qed.

Lemma mapM_Forall2 {A B} (f : A -> res B) (R : A -> B -> Prop) l :
  (forall x, In x l -> exists y, f x = Ok y /\ R x y) -> exists l', mapM f l = Ok l' /\ Forall2 R l l'.
Proof.
  induction l as [|x r IH]; intro H; cbn; [exists []; split; [reflexivity|constructor]|].
  destruct (H x (or_introl eq_refl)) as (y & E & Hy). rewrite E. cbn [bind].
  destruct IH as (l' & E' & Hl); [intros; apply H; right; assumption|]. rewrite E'. cbn [bind].
  exists (y :: l'). split; [reflexivity|]. constructor; assumption.
Qed.

Lemma extend_adjusted vals ia y base v f :
  dget Z.eqb vals y = None -> nearest_year vals y = Some base -> dget Z.eqb vals base = Some v ->
  ia y (Some base) = Ok f ->
  exists w, extend_inflation_adjusted vals ia y = Ok w /\ scaled v w f.
Proof.
  intros H1 H2 H3 H4. unfold extend_inflation_adjusted. rewrite H1, H2.
  destruct (Z.eqb_spec base y) as [->|Hne]; [congruence|].
  unfold dget_r. rewrite H3. cbn [bind]. destruct v as [q|l|d].
  - rewrite H4. cbn [bind]. exists (VScalar (q * f)). split; [reflexivity|]. cbn. reflexivity.
  - destruct (mapM_Forall2 (fun x => let* a := ia y (Some base) in Ok (x * a)) (fun a b => b == a * f) l) as (l' & E & Hl).
    { intros x _. rewrite H4. exists (x * f). split; reflexivity. }
    rewrite E. exists (VList l'). split; [reflexivity|exact Hl].
  - destruct (mapM_Forall2 (fun kv => let* a := ia y (Some base) in Ok (fst kv, snd kv * a))
       (fun a b : Q * Q => fst b = fst a /\ snd b == snd a * f) d) as (d' & E & Hd).
    { intros x _. rewrite H4. exists (fst x, snd x * f). cbn. split; [reflexivity|split; reflexivity]. }
    rewrite E. exists (VDict d'). split; [reflexivity|exact Hd].
Qed.
Lemma nearest_year_get {V} (vals : dict Z V) y base :
  nearest_year vals y = Some base -> exists v, dget Z.eqb vals base = Some v.
Proof.
  intro H. pose proof (nearest_year_spec vals y) as Hs. rewrite H in Hs. destruct Hs as [Hi _].
  apply dmem_keys in Hi. unfold dmem in Hi. destruct (dget Z.eqb vals base); [eauto|discriminate].
Qed.

(** C10 *)
Lemma build_dict_ratio d : d <> [] ->
  exists f base, build_inflation_adjust (IDict d) = Ok f /\
    In base (dkeys d) /\ (forall y, In y (dkeys d) -> (base <= y)%Z) /\
    (forall t, f t None = f t (Some base)) /\
    (forall t b x y, dget Z.eqb d t = Some x -> dget Z.eqb d b = Some y -> ~ y == 0 -> f t (Some b) = Ok (x / y)) /\
    (forall t b, dget Z.eqb d t = None \/ dget Z.eqb d b = None -> f t (Some b) = Err KeyError).
Proof.
  intro Hne. unfold build_inflation_adjust. pose proof (zminl_spec (dkeys d)) as H.
  destruct (zminl (dkeys d)) as [m|].
  2:{ exfalso. apply Hne. destruct d; [reflexivity|discriminate]. }
  destruct H as [H1 H2]. eexists; exists m. split; [reflexivity|]. split; [exact H1|]. split; [exact H2|].
  split; [reflexivity|]. split.
  - intros t b x y Ht Hb Hy. unfold dget_r. rewrite Ht, Hb. cbn. unfold qdiv.
    destruct (Qeq_bool y 0) eqn:E; qb; [contradiction|reflexivity].
  - intros t b [H|H]; unfold dget_r; rewrite H; cbn; [reflexivity|].
    destruct (dget Z.eqb d t); reflexivity.
Qed.

Lemma build_dict_compose d f : build_inflation_adjust (IDict d) = Ok f ->
  (forall y v, dget Z.eqb d y = Some v -> ~ v == 0) ->
  forall a b c, In a (dkeys d) -> In b (dkeys d) -> In c (dkeys d) ->
  exists fab fbc fac faa, f a (Some b) = Ok fab /\ f b (Some c) = Ok fbc /\ f a (Some c) = Ok fac /\
    f a (Some a) = Ok faa /\ fac == fab * fbc /\ faa == 1.
Proof.
  intros E Hnz a b c Ha Hb Hc.
  assert (Hne : d <> []) by (intros ->; contradiction).
  destruct (build_dict_ratio d Hne) as (f' & base & E' & _ & _ & _ & R & _).
  rewrite E in E'. injection E' as <-.
  assert (G : forall y, In y (dkeys d) -> exists v, dget Z.eqb d y = Some v).
  { intros y Hy. apply dmem_keys in Hy. unfold dmem in Hy. destruct (dget Z.eqb d y); [eauto|discriminate]. }
  destruct (G a Ha) as (x & Hx), (G b Hb) as (y & Hy), (G c Hc) as (z & Hz).
  exists (x / y), (y / z), (x / z), (x / x).
  rewrite (R a b x y), (R b c y z), (R a c x z), (R a a x x); eauto.
  repeat split; try reflexivity; field; eauto.
Qed.
