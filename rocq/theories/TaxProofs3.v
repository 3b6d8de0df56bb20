From Verif Require Import Base BaseFacts InflationModel InflationProofs RegModel RegSpec Prop_RRSP TaxModel TaxSpec TaxProofs TaxProofs2.
From Coq Require Import Permutation Sorted Lia.

Lemma add_accum_ok d : table_ok d -> exists a, add_accum d = Ok a.
Proof. intro H. destruct (add_accum_sorted d H) as (k & r & l & _ & _ & E). eauto. Qed.
Lemma well_built_add s d y : (x_brk s = [] /\ x_acc s = [] \/ well_built s) -> table_ok d -> exists s', add_brackets s d y = Ok s' /\ well_built s' /\
  x_brk s' = dset Z.eqb (x_brk s) y d /\ x_ia s' = x_ia s /\ x_pd s' = x_pd s /\ x_cr s' = x_cr s.
Proof.
  intros Hs Hd. destruct (add_accum_ok d Hd) as (a & Ea). unfold add_brackets. rewrite Ea. cbn [bind]. eexists. split; [reflexivity|].
  split; [|repeat split]. unfold well_built, with_tables. cbn [x_brk x_acc].
  assert (W : dwf Z.eqb (x_brk s) /\ dwf Z.eqb (x_acc s)) by (destruct Hs as [[-> ->]|Hs]; [split; exact I|unfold well_built in Hs; tauto]).
  split; [destruct (x_brk s) as [|[k v] r]; cbn; [discriminate|destruct (Z.eqb y k); discriminate]|]. split; [|split; [|split; [apply zdset_wf; tauto|apply zdset_wf; tauto]]].
  - intros y' d'. rewrite !zdget_dset. destruct (Z.eqb_spec y' y).
    + intro E. injection E as <-. split; [exact Hd|]. eauto.
    + destruct Hs as [[-> ->]|(_ & Hs & _)]; [discriminate|apply Hs].
  - intros y'. rewrite !zdget_dset. destruct (Z.eqb_spec y' y); [discriminate|].
    destruct Hs as [[-> ->]|(_ & _ & Hs & _)]; [reflexivity|apply Hs].
Qed.
Lemma well_built_add_all : forall l s s', (x_brk s = [] /\ x_acc s = [] \/ well_built s) -> (forall y d, In (y, d) l -> table_ok d) ->
  add_all_brackets s l = Ok s' -> (l = [] /\ s' = s \/ well_built s') /\ x_ia s' = x_ia s /\ x_pd s' = x_pd s /\ x_cr s' = x_cr s /\
  forall y, dget Z.eqb (x_brk s') y = match dget Z.eqb (rev l) y with Some d => Some d | None => dget Z.eqb (x_brk s) y end.
Proof.
  induction l as [|[y d] r IH]; intros s s' Hs Hl H; cbn [add_all_brackets] in H.
  - injection H as <-. split; [left; auto|]. repeat split.
  - destruct (well_built_add s d y Hs (Hl y d (or_introl eq_refl))) as (s1 & E & W & B & C & D & F). rewrite E in H. cbn [bind] in H.
    destruct (IH s1 s' (or_intror W)) as (A1 & A2 & A3 & A4 & A5); [intros; eapply Hl; right; eassumption|exact H|].
    split; [right; destruct A1 as [[-> ->]|A1]; assumption|]. rewrite A2, A3, A4. repeat split; try assumption.
    intro y'. rewrite A5, B, zdget_dset. cbn [rev].
    assert (Happ : forall (u v : dict Z table), dget Z.eqb (u ++ v) y' = match dget Z.eqb u y' with Some x => Some x | None => dget Z.eqb v y' end).
    { induction u as [|[k0 v0] u IHu]; intro v; cbn; [reflexivity|]. destruct (Z.eqb y' k0); [reflexivity|apply IHu]. }
    rewrite Happ. destruct (dget Z.eqb (rev r) y'); [reflexivity|]. cbn. destruct (Z.eqb y' y); reflexivity.
Qed.
Lemma dget_rev (l : dict Z table) y : dwf Z.eqb l -> dget Z.eqb (rev l) y = dget Z.eqb l y.
Proof.
  intro W. assert (Happ : forall (u v : dict Z table), dget Z.eqb (u ++ v) y = match dget Z.eqb u y with Some x => Some x | None => dget Z.eqb v y end).
  { induction u as [|[k0 v0] u IHu]; intro v; cbn; [reflexivity|]. destruct (Z.eqb y k0); [reflexivity|apply IHu]. }
  induction l as [|[k v] r IH]; [reflexivity|]. destruct W as [A B]. cbn [rev]. rewrite Happ, (IH B). cbn. destruct (Z.eqb_spec y k); [subst; rewrite A; reflexivity|].
  destruct (dget Z.eqb r y); reflexivity.
Qed.
Lemma init_ok brackets pd cr ia s : tax_init brackets pd cr ia = Ok s -> brackets <> [] -> dwf Z.eqb brackets -> (forall y d, In (y, d) brackets -> table_ok d) ->
  well_built s /\ (forall y, dget Z.eqb (x_brk s) y = dget Z.eqb brackets y) /\ x_cr s <> [] /\ x_pd s <> [].
Proof.
  intros H Hne W Hb. unfold tax_init in H. destruct (build_inflation_adjust ia) as [f|]; [|discriminate]. cbn [bind] in H.
  destruct (add_all_brackets _ brackets) as [s1|] eqn:E; [|discriminate]. cbn [bind] in H.
  pose proof (well_built_add_all brackets {| x_brk := []; x_acc := []; x_ia := f; x_pd := pd; x_cr := cr |} s1 (or_introl (conj eq_refl eq_refl)) Hb E) as HH.
  destruct HH as ([[A _]|A] & _ & _ & _ & F); [congruence|]. cbn [x_brk dget] in F.
  match type of H with (let* p := ?P in _) = _ => destruct P as [p|] eqn:Ep; [|discriminate] end. cbn [bind] in H.
  match type of H with (let* c := ?P in _) = _ => destruct P as [c|] eqn:Ec; [|discriminate] end. cbn [bind] in H. injection H as <-.
  cbn [x_brk x_cr]. split; [exact A|]. split; [|split].
  - intro y. rewrite F, dget_rev by exact W. destruct (dget Z.eqb brackets y); reflexivity.
  - destruct cr; [destruct (zminl _); [injection Ec as <-; discriminate|discriminate]|injection Ec as <-; discriminate].
  - cbn [x_pd]. destruct pd; [destruct (zminl _); [injection Ep as <-; discriminate|discriminate]|injection Ep as <-; discriminate].
Qed.
Lemma nearest_some {V} (d : dict Z V) y : d <> [] -> exists b v, nearest_year d y = Some b /\ dget Z.eqb d b = Some v.
Proof.
  intro H. pose proof (nearest_year_spec d y) as Hs. destruct (nearest_year d y) as [b|]; [|congruence]. destruct Hs as [Hi _].
  apply dmem_keys in Hi. unfold dmem in Hi. destruct (dget Z.eqb d b) as [v|] eqn:E; [|discriminate]. eauto.
Qed.
Lemma credit_rate_some s y : x_cr s <> [] -> exists c, credit_rate s y = Ok c.
Proof. intro H. unfold credit_rate. destruct (nearest_some (x_cr s) y H) as (b & v & -> & E). unfold dget_r. rewrite E. eauto. Qed.

Lemma tax_brackets_new s y b d f : well_built s -> dget Z.eqb (x_brk s) y = None -> nearest_year (x_brk s) y = Some b -> dget Z.eqb (x_brk s) b = Some d ->
  x_ia s y (Some b) = Ok f -> 0 < f -> exists s',
  tax_brackets s y = Ok (map (fun kv => (fst kv * f, snd kv)) d, s') /\ well_built s' /\
  x_brk s' = dset Z.eqb (x_brk s) y (map (fun kv => (fst kv * f, snd kv)) d) /\ x_ia s' = x_ia s /\ x_pd s' = x_pd s /\ x_cr s' = x_cr s.
Proof.
  intros Hw Hy Hb Hd Hf Hp. pose proof Hw as (_ & Hw1 & _). destruct (Hw1 b d Hd) as (Ht & _).
  destruct (well_built_add s (map (fun kv => (fst kv * f, snd kv)) d) y (or_intror Hw) (scaled_ok f d Hp Ht)) as (s' & E & W & B & C & D & F).
  exists s'. unfold tax_brackets. rewrite Hy, Hb. unfold dget_r. rewrite Hd. cbn [bind]. rewrite Hf.
  rewrite (scale_keys_ok f d [] Hp (proj2 Ht)) by (intros x z []). cbn [bind app]. rewrite E. cbn [bind]. tauto.
Qed.

(** ** States reached by queries *)
Definition derived (f : Z -> Z -> Q) (s0 s : tax) : Prop :=
  x_ia s = x_ia s0 /\ x_pd s = x_pd s0 /\ x_cr s = x_cr s0 /\ well_built s /\
  (forall y d, dget Z.eqb (x_brk s0) y = Some d -> dget Z.eqb (x_brk s) y = Some d) /\
  (forall y d, dget Z.eqb (x_brk s) y = Some d -> exists b0 d0, nearest_year (x_brk s0) y = Some b0 /\ dget Z.eqb (x_brk s0) b0 = Some d0 /\ same_table d (inflated (f y b0) d0)).
Lemma nearest_refl {V} (d : dict Z V) y v : dget Z.eqb d y = Some v -> nearest_year d y = Some y.
Proof. intro H. unfold nearest_year. destruct d; [discriminate|]. unfold dmem. rewrite H. reflexivity. Qed.
Lemma derived_refl f s : well_built s -> (forall b, f b b == 1) -> derived f s s.
Proof.
  intros H H1. unfold derived. repeat (split; [reflexivity|]). split; [exact H|]. split; [auto|].
  intros y d Hy. exists y, d. split; [eapply nearest_refl; exact Hy|]. split; [exact Hy|]. apply inflated_1. apply H1.
Qed.
Lemma keys_dget {V} (d : dict Z V) y : In y (dkeys d) <-> exists v, dget Z.eqb d y = Some v.
Proof. rewrite <- dmem_keys. unfold dmem. destruct (dget Z.eqb d y); split; intros; eauto; try discriminate. destruct H; discriminate. Qed.
(** the nearest original year of the nearest known year is the nearest original year *)
Lemma nearest_through {V} (o c : dict Z V) y b b0 : (forall x, In x (dkeys o) -> In x (dkeys c)) -> o <> [] ->
  nearest_year c y = Some b -> nearest_year o b = Some b0 -> ~ In y (dkeys c) -> nearest_year o y = Some b0.
Proof.
  intros Hsub Hne Hb Hb0 Hy. pose proof (nearest_year_spec c y) as Sc. rewrite Hb in Sc. destruct Sc as (C1 & _ & C3). specialize (C3 Hy).
  pose proof (nearest_year_spec o b) as So. rewrite Hb0 in So. destruct So as (O1 & O2 & O3).
  pose proof (nearest_year_spec o y) as Sy. destruct (nearest_year o y) as [z|]; [|congruence]. destruct Sy as (Y1 & _ & Y3).
  assert (Hyo : ~ In y (dkeys o)) by (intro H; apply Hy; apply Hsub; exact H). specialize (Y3 Hyo). f_equal.
  pose proof (Hsub z Y1) as Zc. pose proof (Hsub b0 O1) as Bc.
  destruct (in_dec Z.eq_dec b (dkeys o)) as [Hbo|Hbo].
  - rewrite (O2 Hbo). destruct C3 as [[c1 c2]|[c1 c2]], Y3 as [[y1 y2]|[y1 y2]].
    + specialize (c2 z Zc y1). specialize (y2 b Hbo c1). lia.
    + specialize (y2 b Hbo). lia.
    + specialize (c2 z Zc). lia.
    + specialize (c2 z Zc). specialize (y2 b Hbo). lia.
  - specialize (O3 Hbo). destruct C3 as [[c1 c2]|[c1 c2]], Y3 as [[y1 y2]|[y1 y2]], O3 as [[o1 o2]|[o1 o2]].
    + pose proof (c2 z Zc y1). assert (z <> b) by congruence. pose proof (o2 z Y1 ltac:(lia)). pose proof (y2 b0 O1 ltac:(lia)). lia.
    + pose proof (c2 z Zc y1). pose proof (o2 z Y1). lia.
    + pose proof (y2 b0 O1). lia.
    + pose proof (y2 b0 O1). pose proof (o2 z Y1). lia.
    + pose proof (c2 z Zc). lia.
    + pose proof (c2 z Zc). lia.
    + pose proof (c2 b0 Bc). lia.
    + pose proof (y2 b0 O1). pose proof (o2 z Y1). lia.
Qed.
Lemma derived_brackets f s0 s y : (forall t b, x_ia s0 t (Some b) = Ok (f t b)) -> (forall t b, 0 < f t b) -> (forall t m b, f t m * f m b == f t b) ->
  x_brk s0 <> [] -> derived f s0 s ->
  exists d s', tax_brackets s y = Ok (d, s') /\ derived f s0 s' /\ dget Z.eqb (x_brk s') y = Some d.
Proof.
  intros Hia Hpos Htr Hne Hd. pose proof Hd as (E1 & E2 & E3 & W & Hk & Hs).
  destruct (dget Z.eqb (x_brk s) y) as [d|] eqn:Ey.
  - exists d, s. unfold tax_brackets. rewrite Ey. auto.
  - destruct (nearest_some (x_brk s) y) as (b & d & Hb & Hdb); [apply W|].
    destruct (tax_brackets_new s y b d (f y b) W Ey Hb Hdb) as (s' & E & W' & B & C & D & F); [rewrite E1; apply Hia|apply Hpos|].
    eexists. exists s'. split; [exact E|]. split; [|rewrite B, zdget_dset, Z.eqb_refl; reflexivity].
    unfold derived. rewrite C, D, F. split; [exact E1|]. split; [exact E2|]. split; [exact E3|]. split; [exact W'|]. rewrite B. split.
    + intros y' d' H'. rewrite zdget_dset. destruct (Z.eqb_spec y' y); [subst; rewrite (Hk _ _ H') in Ey; discriminate|apply Hk; exact H'].
    + intros y' d'. rewrite zdget_dset. destruct (Z.eqb_spec y' y) as [->|Hn]; [|apply Hs]. intro H'. injection H' as <-.
      destruct (Hs b d Hdb) as (b0 & d0 & N & G & S). exists b0, d0. split; [|split; [exact G|]].
      * apply (nearest_through (x_brk s0) (x_brk s) y b b0); [|exact Hne|exact Hb|exact N|].
        -- intros x Hx. apply keys_dget in Hx. destruct Hx as (v & Hv). apply keys_dget. exists v. apply Hk. exact Hv.
        -- intro Hin. apply keys_dget in Hin. destruct Hin as (v & Hv). congruence.
      * eapply same_table_trans; [apply scaled_inflated|]. eapply same_table_trans; [apply inflated_same; [reflexivity|exact S]|].
        eapply same_table_trans; [apply inflated_comp|]. apply inflated_same; [apply Htr|apply same_table_refl].
Qed.
Lemma derived_same f s0 s s' y d d' : derived f s0 s -> derived f s0 s' -> dget Z.eqb (x_brk s) y = Some d -> dget Z.eqb (x_brk s') y = Some d' -> same_table d d'.
Proof.
  intros (_ & _ & _ & _ & _ & H) (_ & _ & _ & _ & _ & H') Hd Hd'. destruct (H y d Hd) as (b & e & N & G & S), (H' y d' Hd') as (b' & e' & N' & G' & S').
  rewrite N in N'. injection N' as <-. rewrite G in G'. injection G' as <-. eapply same_table_trans; [exact S|apply same_table_sym; exact S'].
Qed.
Lemma is_bracket_same a b x k k' : same_table a b -> is_bracket a x k -> is_bracket b x k' -> k == k'.
Proof.
  intros H [A1 A2] [B1 B2]. destruct (same_keys a b k H A1) as (q & Q1 & Q2). destruct (same_keys b a k' (same_table_sym _ _ H) B1) as (p & P1 & P2).
  destruct A2 as [[A2 A3]|[A2 A3]], B2 as [[B2 B3]|[B2 B3]].
  - pose proof (A3 p P1 ltac:(lra)). pose proof (B3 q Q1 ltac:(lra)). lra.
  - exfalso. apply (B2 q Q1). lra.
  - exfalso. apply (A2 p P1). lra.
  - pose proof (A3 p P1). pose proof (B3 q Q1). lra.
Qed.
(** every query other than accum *)
Definition is_accum (q : query * Z) : Prop := fst q = QAccum.
Lemma credit_rate_derived f s0 s y : derived f s0 s -> credit_rate s y = credit_rate s0 y.
Proof. intros (_ & _ & E & _). unfold credit_rate. rewrite E. reflexivity. Qed.
Lemma tax_brackets_same_year s y d s' : tax_brackets s y = Ok (d, s') -> dget Z.eqb (x_brk s') y = Some d -> tax_brackets s' y = Ok (d, s').
Proof. intros _ H. unfold tax_brackets. rewrite H. reflexivity. Qed.
Section Queries.
  Variables (f : Z -> Z -> Q) (s0 : tax).
  Hypotheses (Hia : forall t b, x_ia s0 t (Some b) = Ok (f t b)) (Hpos : forall t b, 0 < f t b) (Htr : forall t m b, f t m * f m b == f t b)
    (Hne : x_brk s0 <> []) (Hcr : x_cr s0 <> []).
  Lemma mb_derived s x y : derived f s0 s -> exists d b s', dget Z.eqb (x_brk s') y = Some d /\ derived f s0 s' /\
    is_bracket d x b /\ marginal_bracket s x y = Ok (b, s') /\ tax_brackets s y = Ok (d, s').
  Proof.
    intro H. destruct (derived_brackets f s0 s y Hia Hpos Htr Hne H) as (d & s' & E & D & G).
    pose proof D as (_ & _ & _ & W & _). destruct W as (_ & W & _). destruct (W y d G) as (Hd & _).
    destruct (bracket_spec d x (proj1 Hd)) as (b & Eb & Hb). exists d, b, s'. split; [exact G|]. split; [exact D|]. split; [exact Hb|].
    split; [|exact E]. unfold marginal_bracket. rewrite E. cbn [bind]. rewrite Eb. reflexivity.
  Qed.
  Lemma mr_derived s x y : derived f s0 s -> exists d b r s', dget Z.eqb (x_brk s') y = Some d /\ derived f s0 s' /\
    is_bracket d x b /\ dget Qeq_bool d b = Some r /\ marginal_rate s x y = Ok (r, s').
  Proof.
    intro H. destruct (mb_derived s x y H) as (d & b & s' & G & D & Hb & E & E').
    destruct (keys_get d b (proj1 Hb)) as (r & Er). exists d, b, r, s'. split; [exact G|]. split; [exact D|]. split; [exact Hb|]. split; [exact Er|].
    unfold marginal_rate. rewrite E'. cbn [bind]. unfold marginal_bracket. rewrite (tax_brackets_same_year s y d s' E' G). cbn [bind].
    unfold marginal_bracket in E. rewrite E' in E. cbn [bind] in E. destruct (bracket_of d x) as [b'|]; [|discriminate]. cbn [bind] in *. injection E as ->.
    unfold dget_r. rewrite Er. reflexivity.
  Qed.
  Lemma tm_derived s x y ded cred : derived f s0 s -> exists d g c s', dget Z.eqb (x_brk s') y = Some d /\ derived f s0 s' /\
    gross_tax d (x - ded) g /\ credit_rate s0 y = Ok c /\ tax_money s x y ded cred = Ok (qmax (g - cred * c) 0, s').
  Proof.
    intro H. destruct (derived_brackets f s0 s y Hia Hpos Htr Hne H) as (d & s' & E & D & G).
    destruct (credit_rate_some s0 y Hcr) as (c & Ec). pose proof (credit_rate_derived f s0 s' y D) as Ec'. rewrite Ec in Ec'.
    destruct (tax_money_listed s' x y ded cred d c) as (g & Hg & Em); [apply D|exact G|exact Ec'|].
    exists d, g, c, s'. split; [exact G|]. split; [exact D|]. split; [exact Hg|]. split; [exact Ec|]. rewrite <- Em.
    unfold tax_money at 1. rewrite E. cbn [bind]. unfold tax_money. rewrite (tax_brackets_same_year s y d s' E G). reflexivity.
  Qed.
  Lemma ask_derived s q : derived f s0 s -> ~ is_accum q -> exists a s', ask s q = Ok (a, s') /\ derived f s0 s'.
  Proof.
    intros H Hq. destruct q as [[|x|x|x d c|] y]; cbn [ask]; [| | | |exfalso; apply Hq; reflexivity].
    - destruct (derived_brackets f s0 s y Hia Hpos Htr Hne H) as (t & s' & E & D & G). rewrite E. cbn [bind]. eauto.
    - destruct (mb_derived s x y H) as (t & b & s' & G & D & _ & E & _). rewrite E. cbn [bind]. eauto.
    - destruct (mr_derived s x y H) as (t & b & r & s' & G & D & _ & _ & E). rewrite E. cbn [bind]. eauto.
    - destruct (tm_derived s x y d c H) as (t & g & cc & s' & G & D & _ & _ & E). rewrite E. cbn [bind]. eauto.
  Qed.
  Lemma ask_all_derived : forall qs s, derived f s0 s -> Forall (fun q => ~ is_accum q) qs -> exists s', ask_all s qs = Ok s' /\ derived f s0 s'.
  Proof.
    induction qs as [|q r IH]; intros s H Hq; [cbn; eauto|]. inversion Hq; subst. destruct (ask_derived s q H) as (a & s' & E & D); [assumption|].
    cbn [ask_all]. rewrite E. cbn [bind]. apply IH; assumption.
  Qed.
  Lemma ask_same s s' q : derived f s0 s -> derived f s0 s' -> ~ is_accum q -> exists a a' t t', ask s q = Ok (a, t) /\ ask s' q = Ok (a', t') /\ same_answer a a'.
  Proof.
    intros H H' Hq. destruct q as [[|x|x|x d c|] y]; cbn [ask]; [| | | |exfalso; apply Hq; reflexivity].
    - destruct (derived_brackets f s0 s y Hia Hpos Htr Hne H) as (t & s1 & E & D & G).
      destruct (derived_brackets f s0 s' y Hia Hpos Htr Hne H') as (t' & s1' & E' & D' & G'). rewrite E, E'. cbn [bind].
      do 4 eexists. split; [reflexivity|]. split; [reflexivity|]. cbn. exact (derived_same f s0 s1 s1' y t t' D D' G G').
    - destruct (mb_derived s x y H) as (t & b & s1 & G & D & B & E & _). destruct (mb_derived s' x y H') as (t' & b' & s1' & G' & D' & B' & E' & _). rewrite E, E'. cbn [bind].
      do 4 eexists. split; [reflexivity|]. split; [reflexivity|]. cbn. eapply is_bracket_same; [eapply derived_same; [exact D|exact D'|exact G|exact G']|exact B|exact B'].
    - destruct (mr_derived s x y H) as (t & b & r & s1 & G & D & B & R & E). destruct (mr_derived s' x y H') as (t' & b' & r' & s1' & G' & D' & B' & R' & E'). rewrite E, E'. cbn [bind].
      do 4 eexists. split; [reflexivity|]. split; [reflexivity|]. cbn.
      pose proof (derived_same f s0 s1 s1' y t t' D D' G G') as S. pose proof (is_bracket_same t t' x b b' S B B') as Eb.
      pose proof (same_dget t t' b b' S Eb) as Hd. rewrite R, R' in Hd. exact Hd.
    - destruct (tm_derived s x y d c H) as (t & g & cc & s1 & G & D & B & R & E). destruct (tm_derived s' x y d c H') as (t' & g' & cc' & s1' & G' & D' & B' & R' & E'). rewrite E, E'. cbn [bind].
      do 4 eexists. split; [reflexivity|]. split; [reflexivity|]. cbn. rewrite R in R'. injection R' as <-.
      pose proof (derived_same f s0 s1 s1' y t t' D D' G G') as S. pose proof D as (_ & _ & _ & (_ & W & _) & _). destruct (W y t G) as (Hd & _).
      rewrite (gross_same t t' (x - d) g g' Hd S B B'). reflexivity.
  Qed.
End Queries.
