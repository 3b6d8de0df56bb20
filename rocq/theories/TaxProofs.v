From Verif Require Import Base BaseFacts InflationModel InflationProofs RegModel RegSpec Prop_RRSP TaxModel TaxSpec.
From Coq Require Import Permutation Sorted Lia.

(** ** Sorting *)
Fixpoint pinsert (kv : Q * Q) (l : list (Q * Q)) : list (Q * Q) :=
  match l with [] => [kv] | x :: r => if Qle_bool (fst kv) (fst x) then kv :: l else x :: pinsert kv r end.
Fixpoint psort (l : list (Q * Q)) : list (Q * Q) := match l with [] => [] | x :: r => pinsert x (psort r) end.
Lemma pinsert_keys kv l : map fst (pinsert kv l) = qinsert (fst kv) (map fst l).
Proof. induction l as [|x r IH]; [reflexivity|]. cbn. destruct (Qle_bool (fst kv) (fst x)); [reflexivity|]. cbn. rewrite IH. reflexivity. Qed.
Lemma psort_keys l : map fst (psort l) = qsort (map fst l).
Proof. induction l as [|x r IH]; [reflexivity|]. cbn. rewrite pinsert_keys, IH. reflexivity. Qed.
Lemma pinsert_perm kv l : Permutation (pinsert kv l) (kv :: l).
Proof.
  induction l as [|x r IH]; [reflexivity|]. cbn. destruct (Qle_bool (fst kv) (fst x)); [reflexivity|].
  rewrite IH. apply perm_swap.
Qed.
Lemma psort_perm l : Permutation (psort l) l.
Proof. induction l as [|x r IH]; [reflexivity|]. cbn. rewrite pinsert_perm, IH. reflexivity. Qed.
Definition asc (l : list (Q * Q)) : Prop := StronglySorted (fun a b => fst a < fst b) l.
Lemma qdwf_In_ne (d : table) k v k' v' r : d = (k, v) :: r -> dwf Qeq_bool d -> In (k', v') r -> ~ k == k'.
Proof.
  intros -> [H _] Hin E. rewrite (qdget_congr r k k' E) in H. 
  destruct (keys_get r k') as (x & Hx); [apply (in_map fst) in Hin; exact Hin|]. congruence.
Qed.
Lemma dwf_perm (d d' : table) : Permutation d d' -> dwf Qeq_bool d -> dwf Qeq_bool d'.
Proof.
  induction 1 as [|[k v] l l' P IH|[k v] [k' v'] l|l1 l2 l3 P1 IH1 P2 IH2]; intro H.
  - exact I.
  - destruct H as [A B]. split; [|apply IH; exact B]. destruct (dget Qeq_bool l' k) as [x|] eqn:E; [|reflexivity].
    exfalso. destruct (dget_In Qeq_bool l' k x E) as (k2 & E2 & Hin). 
    apply Permutation_sym in P. apply (Permutation_in _ P) in Hin.
    apply Qeq_bool_iff in E2. rewrite (qdget_congr l k k2 E2) in A. destruct (keys_get l k2) as (y & Hy); [apply (in_map fst) in Hin; exact Hin|]. congruence.
  - cbn in H. destruct H as (A & B & C). cbn. rewrite qeqb_sym. destruct (Qeq_bool k' k); [discriminate|]. auto.
  - auto.
Qed.
Lemma pinsert_asc kv l : asc l -> (forall x, In x l -> ~ fst kv == fst x) -> asc (pinsert kv l).
Proof.
  unfold asc. induction l as [|x r IH]; intros H Hn; cbn; [repeat constructor|]. inversion H as [|? ? Hr Hx]; subst.
  destruct (Qle_bool (fst kv) (fst x)) eqn:E; qb.
  - assert (fst kv < fst x) by (specialize (Hn x (or_introl eq_refl)); destruct (Qlt_le_dec (fst kv) (fst x)); [assumption|exfalso; apply Hn; apply Qle_antisym; assumption]).
    constructor; [exact H|]. constructor; [assumption|]. eapply Forall_impl; [|exact Hx]. cbn. intros; lra.
  - constructor; [apply IH; [exact Hr|intros y Hy; apply Hn; right; exact Hy]|]. apply Forall_forall. intros y Hy.
    apply (Permutation_in _ (pinsert_perm kv r)) in Hy. destruct Hy as [<-|Hy]; [exact E|]. rewrite Forall_forall in Hx. apply Hx. exact Hy.
Qed.
Lemma psort_asc (d : table) : dwf Qeq_bool d -> asc (psort d).
Proof.
  induction d as [|[k v] r IH]; intro H; [constructor|]. destruct H as [A B]. cbn [psort]. apply pinsert_asc; [apply IH; exact B|].
  intros [k' v'] Hin. apply (Permutation_in _ (psort_perm r)) in Hin. cbn. apply (qdwf_In_ne ((k, v) :: r) k v k' v' r eq_refl); [split; assumption|exact Hin].
Qed.
Lemma asc_dwf l : asc l -> dwf Qeq_bool l.
Proof.
  induction l as [|[k v] r IH]; intro H; [exact I|]. inversion H as [|? ? Hr Hx]; subst. split; [|apply IH; exact Hr].
  destruct (dget Qeq_bool r k) as [x|] eqn:E; [|reflexivity]. destruct (dget_In Qeq_bool r k x E) as (k2 & E2 & Hin).
  rewrite Forall_forall in Hx. specialize (Hx _ Hin). cbn in Hx. apply Qeq_bool_iff in E2. lra.
Qed.
Lemma dget_perm (d d' : table) k : dwf Qeq_bool d -> Permutation d d' -> dget Qeq_bool d k = dget Qeq_bool d' k.
Proof.
  intros W P. pose proof (dwf_perm d d' P W) as W'. 
  destruct (dget Qeq_bool d k) as [v|] eqn:E.
  - destruct (dget_In Qeq_bool d k v E) as (k2 & E2 & Hin). apply (Permutation_in _ P) in Hin. apply Qeq_bool_iff in E2.
    rewrite (qdget_congr d' k k2 E2). symmetry. apply qIn_dget; assumption.
  - destruct (dget Qeq_bool d' k) as [v|] eqn:E'; [|reflexivity].
    destruct (dget_In Qeq_bool d' k v E') as (k2 & E2 & Hin). apply Permutation_sym in P. apply (Permutation_in _ P) in Hin. apply Qeq_bool_iff in E2.
    rewrite (qdget_congr d k k2 E2) in E. rewrite (qIn_dget d k2 v W Hin) in E. discriminate.
Qed.

(** ** The accumulated-tax table *)
Fixpoint pre (l : list (Q * Q)) (prev rate a : Q) : list (Q * Q) :=
  match l with
  | [] => []
  | (k, r) :: rest => (k, (k - prev) * rate + a) :: pre rest k r ((k - prev) * rate + a)
  end.
Lemma pre_keys l : forall p r a, map fst (pre l p r a) = map fst l.
Proof. induction l as [|[k v] rest IH]; intros; cbn; [reflexivity|]. rewrite IH. reflexivity. Qed.
Lemma dset_snoc (d : table) k v : (forall x, In x d -> ~ fst x == k) -> dset Qeq_bool d k v = d ++ [(k, v)].
Proof.
  induction d as [|[k' v'] r IH]; intro H; [reflexivity|]. cbn. destruct (Qeq_bool k k') eqn:E; qb.
  - exfalso. apply (H (k', v')); [left; reflexivity|cbn; symmetry; exact E].
  - rewrite IH by (intros; apply H; right; assumption). reflexivity.
Qed.
Lemma dget_app_l (d e : table) k v : dget Qeq_bool d k = Some v -> dget Qeq_bool (d ++ e) k = Some v.
Proof. induction d as [|[k' v'] r IH]; cbn; [discriminate|]. destruct (Qeq_bool k k'); auto. Qed.
Lemma dget_app_r (d e : table) k : dget Qeq_bool d k = None -> dget Qeq_bool (d ++ e) k = dget Qeq_bool e k.
Proof. induction d as [|[k' v'] r IH]; cbn; [reflexivity|]. destruct (Qeq_bool k k'); [discriminate|auto]. Qed.
Lemma accum_loop_pre (b : table) : forall l acc prev rate a,
  asc ((prev, rate) :: l) -> dget Qeq_bool b prev = Some rate -> (forall k r, In (k, r) l -> dget Qeq_bool b k = Some r) ->
  (forall x, In x acc -> fst x <= prev) -> dget Qeq_bool acc prev = Some a ->
  accum_loop b prev (map fst l) acc = Ok (acc ++ pre l prev rate a).
Proof.
  induction l as [|[k r] rest IH]; intros acc prev rate a Hs Hb Hl Hle Ha; cbn [map accum_loop fst pre].
  - rewrite app_nil_r. reflexivity.
  - unfold dget_r. rewrite Hb, Ha. cbn [bind]. inversion Hs as [|? ? Hs' Hx]; subst.
    assert (Hk : prev < k) by (inversion Hx; subst; assumption).
    rewrite dset_snoc.
    + rewrite (IH _ k r ((k - prev) * rate + a)).
      * rewrite <- app_assoc. reflexivity.
      * exact Hs'.
      * apply Hl. left. reflexivity.
      * intros; apply Hl; right; assumption.
      * intros x Hin. apply in_app_or in Hin. destruct Hin as [Hin|[<-|[]]]; [|apply Qle_refl]. specialize (Hle x Hin). lra.
      * rewrite dget_app_r; [cbn; rewrite qeqb_refl; reflexivity|].
        destruct (dget Qeq_bool acc k) as [z|] eqn:E; [|reflexivity]. destruct (dget_In Qeq_bool acc k z E) as (k2 & E2 & Hin). qb. specialize (Hle _ Hin). cbn in Hle. lra.
    + intros x Hin E. specialize (Hle x Hin). lra.
Qed.
(** the smallest key heads the sorted list *)
Lemma qmin_head l : l <> [] -> exists m, qmin_opt l = Some m /\ In m l /\ forall k, In k l -> m <= k.
Proof.
  intro H. destruct l as [|x r]; [congruence|]. cbn. eexists. split; [reflexivity|]. destruct (qmin_fold r x) as (A & B & C). cbv zeta in *. split.
  - destruct A as [A|A]; [left; congruence|right; exact A].
  - intros k [<-|Hk]; [exact B|apply C; exact Hk].
Qed.
Lemma add_accum_sorted (d : table) : table_ok d -> exists k r l,
  psort d = (k, r) :: l /\ asc ((k, r) :: l) /\ add_accum d = Ok ((k, 0) :: pre l k r 0).
Proof.
  intros [Hne W]. pose proof (psort_asc d W) as Ha. pose proof (psort_perm d) as Hp.
  destruct (psort d) as [|[k r] l] eqn:E; [apply Permutation_nil in Hp; congruence|].
  exists k, r, l. split; [reflexivity|]. split; [exact Ha|]. unfold add_accum.
  assert (Hk : dkeys d <> []) by (destruct d; [congruence|discriminate]).
  destruct (qmin_head (dkeys d) Hk) as (m & Em & Hin & Hmin). rewrite Em.
  assert (Hmk : m = k).
  { unfold dkeys in Hin. apply in_map_iff in Hin. destruct Hin as ([k1 r1] & <- & Hin). cbn [fst] in *.
    apply Permutation_sym in Hp. apply (Permutation_in _ Hp) in Hin. destruct Hin as [Hin|Hin]; [congruence|].
    inversion Ha as [|? ? _ Hx]; subst. rewrite Forall_forall in Hx. specialize (Hx _ Hin). cbn in Hx.
    assert (k1 <= k). { apply Hmin. apply (in_map fst) with (x := (k, r)). apply Permutation_sym in Hp. apply (Permutation_in _ Hp). left. reflexivity. }
    lra. }
  subst m. unfold dkeys. rewrite <- psort_keys, E. cbn [map fst qremove]. rewrite qeqb_refl.
  assert (Hget : forall k' r', In (k', r') ((k, r) :: l) -> dget Qeq_bool d k' = Some r').
  { intros k' r' Hin'. rewrite (dget_perm d ((k, r) :: l)); [|exact W|symmetry; exact Hp]. apply qIn_dget; [apply asc_dwf; exact Ha|exact Hin']. }
  rewrite (accum_loop_pre d l [(k, 0)] k r 0); [reflexivity|exact Ha|apply Hget; left; reflexivity| | |].
  - intros; apply Hget; right; assumption.
  - intros x [<-|[]]. apply Qle_refl.
  - cbn. rewrite qeqb_refl. reflexivity.
Qed.

(** ** The progressive formula on a sorted table *)
Fixpoint prog (l : list (Q * Q)) (x : Q) : Q :=
  match l with
  | [] => 0
  | (b, r) :: rest => r * qmax 0 ((match rest with [] => x | (b2, _) :: _ => qmin x b2 end) - b) + prog rest x
  end.
Lemma foldmin_le l : forall x k, In k l -> fold_right qmin x l <= k.
Proof.
  induction l as [|a l IH]; intros x k H; [destruct H|]. cbn. destruct H as [->|H]; [apply qmin_l|].
  eapply Qle_trans; [apply qmin_r|apply IH; exact H].
Qed.
Lemma foldmin_x l : forall x, fold_right qmin x l <= x.
Proof. induction l as [|a l IH]; intro x; cbn; [apply Qle_refl|]. eapply Qle_trans; [apply qmin_r|apply IH]. Qed.
Lemma foldmin_glb l : forall x c, c <= x -> (forall k, In k l -> c <= k) -> c <= fold_right qmin x l.
Proof. induction l as [|a l IH]; intros x c Hx H; cbn; [exact Hx|]. apply qmin_glb; [apply H; left; reflexivity|apply IH; [exact Hx|intros; apply H; right; assumption]]. Qed.
Lemma foldmin_set l l' x : (forall k, In k l <-> In k l') -> fold_right qmin x l == fold_right qmin x l'.
Proof.
  intro H. apply Qle_antisym.
  - apply foldmin_glb; [apply foldmin_x|intros k Hk; apply foldmin_le, H, Hk].
  - apply foldmin_glb; [apply foldmin_x|intros k Hk; apply foldmin_le, H, Hk].
Qed.
Global Instance qmax_proper : Morphisms.Proper (Qeq ==> Qeq ==> Qeq) qmax.
Proof. intros a a' Ha b b' Hb. unfold qmax. destruct (Qle_bool a b) eqn:E, (Qle_bool a' b') eqn:E'; qb; try assumption; rewrite ?Ha, ?Hb in *; lra. Qed.
Global Instance qmin_proper : Morphisms.Proper (Qeq ==> Qeq ==> Qeq) qmin.
Proof. intros a a' Ha b b' Hb. unfold qmin. destruct (Qle_bool a b) eqn:E, (Qle_bool a' b') eqn:E'; qb; try assumption; rewrite ?Ha, ?Hb in *; lra. Qed.
Lemma in_bracket_set (d d' : table) b x : (forall k, In k (above d b) <-> In k (above d' b)) -> in_bracket d b x == in_bracket d' b x.
Proof. intro H. unfold in_bracket. rewrite (foldmin_set _ _ x H). reflexivity. Qed.
Lemma progressive_perm (d d' : table) x : Permutation d d' -> progressive d x == progressive d' x.
Proof.
  intro P. unfold progressive. rewrite (Qsum_map_perm _ d d' P). apply Qsum_map_ext. intros [k r] _. cbn [fst snd].
  rewrite (in_bracket_set d d' k x); [reflexivity|]. intro k'. unfold above, dkeys. rewrite !filter_In.
  split; intros [H1 H2]; (split; [|exact H2]); eapply Permutation_in; try exact H1; apply Permutation_map; [exact P|symmetry; exact P].
Qed.
Lemma progressive_cons k r l x : asc ((k, r) :: l) -> progressive ((k, r) :: l) x == r * in_bracket ((k, r) :: l) k x + progressive l x.
Proof.
  intro H. unfold progressive. cbn [map Qsum fst snd]. apply Qplus_comp; [reflexivity|]. apply Qsum_map_ext. intros [b q] Hin. cbn [fst snd].
  rewrite (in_bracket_set ((k, r) :: l) l b x); [reflexivity|]. intro k'. unfold above, dkeys. cbn [map filter fst].
  inversion H as [|? ? _ Hx]; subst. rewrite Forall_forall in Hx. specialize (Hx _ Hin). cbn in Hx.
  destruct (Qlt_bool b k) eqn:E; qb; [lra|]. tauto.
Qed.
Lemma prog_spec : forall l x, asc l -> progressive l x == prog l x.
Proof.
  induction l as [|[k r] rest IH]; intros x H; [reflexivity|]. rewrite progressive_cons by exact H. cbn [prog].
  inversion H as [|? ? Hr Hx]; subst. rewrite (IH x Hr). apply Qplus_comp; [|reflexivity]. unfold in_bracket.
  assert (E : fold_right qmin x (above ((k, r) :: rest) k) == match rest with [] => x | (b2, _) :: _ => qmin x b2 end); [|rewrite E; reflexivity].
  assert (Ha : forall k', In k' (above ((k, r) :: rest) k) <-> In k' (map fst rest)).
  { intro k'. unfold above, dkeys. rewrite filter_In. cbn [map fst]. split.
    - intros [[<-|H1] H2]; [qb; lra|exact H1].
    - intro H1. split; [right; exact H1|]. apply in_map_iff in H1. destruct H1 as ([a b] & <- & H1). rewrite Forall_forall in Hx. specialize (Hx _ H1). cbn in *. apply Qlt_bool_t. exact Hx. }
  rewrite (foldmin_set _ _ x Ha). destruct rest as [|[b2 r2] rest']; [reflexivity|]. cbn [map fst fold_right].
  inversion Hr as [|? ? _ Hx2]; subst. apply Qle_antisym.
  - apply qmin_glb; [eapply Qle_trans; [apply qmin_r|apply foldmin_x]|apply qmin_l].
  - apply qmin_glb; [apply qmin_r|]. apply foldmin_glb; [apply qmin_l|]. intros k' Hk. apply in_map_iff in Hk. destruct Hk as ([a b] & <- & Hk).
    rewrite Forall_forall in Hx2. specialize (Hx2 _ Hk). cbn in *. eapply Qle_trans; [apply qmin_r|lra].
Qed.
Lemma prog_below : forall l x k, (forall y, In y l -> k <= fst y) -> x <= k -> prog l x == 0.
Proof.
  induction l as [|[b r] rest IH]; intros x k H Hx; [reflexivity|]. cbn [prog]. rewrite (IH x k) by (intros; try apply H; try right; assumption).
  assert (Hb : k <= b) by (apply (H (b, r)); left; reflexivity).
  assert (E : qmax 0 (match rest with [] => x | (b2, _) :: _ => qmin x b2 end - b) == 0).
  { assert (match rest with [] => x | (b2, _) :: _ => qmin x b2 end <= x) by (destruct rest as [|[b2 r2] rr]; [apply Qle_refl|apply qmin_l]).
    destruct (qmax_case 0 (match rest with [] => x | (b2, _) :: _ => qmin x b2 end - b)) as [[A B]|[A B]]; rewrite B; lra. }
  rewrite E. ring.
Qed.
(** the code's formula: accumulated tax of the marginal bracket plus the rest at its rate *)
Lemma marginal_formula : forall l k0 r0 a0 x b, asc ((k0, r0) :: l) -> k0 < x ->
  In b (map fst ((k0, r0) :: l)) -> b < x -> (forall k, In k (map fst ((k0, r0) :: l)) -> k < x -> k <= b) ->
  exists a r, dget Qeq_bool ((k0, a0) :: pre l k0 r0 a0) b = Some a /\ dget Qeq_bool ((k0, r0) :: l) b = Some r /\
    a + (x - b) * r == a0 + prog ((k0, r0) :: l) x.
Proof.
  induction l as [|[k1 r1] rest IH]; intros k0 r0 a0 x b Hs Hx Hin Hb Hmax.
  - destruct Hin as [<-|[]]. exists a0, r0. cbn. rewrite qeqb_refl. split; [reflexivity|]. split; [reflexivity|].
    destruct (qmax_case 0 (x - k0)) as [[A B]|[A B]]; rewrite B; [lra|ring].
  - inversion Hs as [|? ? Hs' Hall]; subst. assert (H01 : k0 < k1) by (inversion Hall; subst; assumption).
    destruct (Qlt_le_dec k1 x) as [H1|H1].
    + assert (Hb1 : k1 <= b) by (apply Hmax; [right; left; reflexivity|exact H1]).
      destruct (IH k1 r1 ((k1 - k0) * r0 + a0) x b Hs' H1) as (a & r & A & B & C).
      * destruct Hin as [E|Hin]; [cbn in E; subst b; lra|exact Hin].
      * exact Hb.
      * intros k Hk. apply Hmax. right. exact Hk.
      * exists a, r. cbn [pre] in *. cbn [dget] in *. assert (E : Qeq_bool b k0 = false) by (apply Qeq_bool_f; lra). rewrite E. split; [exact A|]. split; [exact B|].
        rewrite C. cbn [prog]. destruct (qmin_case x k1) as [[P Q']|[P Q']]; rewrite Q'; [lra|].
        destruct (qmax_case 0 (k1 - k0)) as [[P' Q'']|[P' Q'']]; rewrite Q''; [lra|ring].
    + assert (Eb : b = k0).
      { destruct Hin as [E|Hin]; [cbn in E; congruence|]. exfalso. destruct Hin as [E|Hin]; [cbn in E; subst b; lra|].
        apply in_map_iff in Hin. destruct Hin as ([a q] & <- & Hin). inversion Hs' as [|? ? _ Hx']; subst. rewrite Forall_forall in Hx'. specialize (Hx' _ Hin). cbn in *. lra. }
      subst b. exists a0, r0. cbn [dget]. rewrite qeqb_refl. split; [reflexivity|]. split; [reflexivity|].
      cbn [prog]. destruct (qmin_case x k1) as [[P Q']|[P Q']]; rewrite Q'.
      * destruct (qmax_case 0 (x - k0)) as [[P' Q'']|[P' Q'']]; rewrite Q''; [lra|].
        pose proof (prog_below ((k1, r1) :: rest) x k1) as Hz. cbn [prog] in Hz. rewrite Hz; [ring| |exact H1].
        intros y [<-|Hy]; [apply Qle_refl|]. inversion Hs' as [|? ? _ Hx']; subst. rewrite Forall_forall in Hx'. specialize (Hx' _ Hy). cbn in *. lra.
      * assert (x == k1) by lra. destruct (qmax_case 0 (k1 - k0)) as [[P' Q'']|[P' Q'']]; rewrite Q''; [lra|].
        pose proof (prog_below ((k1, r1) :: rest) x k1) as Hz. cbn [prog] in Hz. rewrite Hz; [rewrite H; ring| |exact H1].
        intros y [<-|Hy]; [apply Qle_refl|]. inversion Hs' as [|? ? _ Hx']; subst. rewrite Forall_forall in Hx'. specialize (Hx' _ Hy). cbn in *. lra.
Qed.
