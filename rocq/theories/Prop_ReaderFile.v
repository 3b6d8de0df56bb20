(** Settings files, continued: deleting (C86), writing and reading back (C87), failures (C88). *)
From Coq Require Import Qround Permutation.
From Verif Require Import Base BaseFacts ReaderModel Prop_Reader.

(** ---- specification ---- *)
(** equal up to the order of the keys of dicts *)
Inductive same : json -> json -> Prop :=
| s_null : same JNull JNull
| s_bool : forall b, same (JBool b) (JBool b)
| s_num : forall n, same (JNum n) (JNum n)
| s_str : forall s, same (JStr s) (JStr s)
| s_list : forall l l', Forall2 same l l' -> same (JList l) (JList l')
| s_dict : forall d d1 d', Permutation d d1 -> Forall2 (fun e e' => fst e = fst e' /\ same (snd e) (snd e')) d1 d' ->
    same (JDict d) (JDict d').

Section Storable.
  Context (float_of : string -> option fl) (int_text : Z -> string) (float_text : Q -> string) (high_text : fl -> string) (r : reader).
  (** the text a reader in high-precision mode writes for a number *)
  Definition text_of_high (x : fl) : string := match r_ser r with Some f => f x | None => high_text x end.
  (** a numeric key whose text reads back as that key *)
  Inductive number_key : jkey -> Prop :=
  | nk_int : forall z, reads_as float_of (r_hp r) (int_text z) (NInt z) -> number_key (KNum (NInt z))
  | nk_float : forall x, x <> NaN -> reads_as float_of (r_hp r) (float_str float_text x) (NFloat x) -> number_key (KNum (NFloat x)).
  Inductive name_key : jkey -> Prop :=
  | nk_name : forall s, float_of s = None -> name_key (KStr s).
  (** trees that survive: no numeric strings, no NaN; floats only outside high-precision mode,
      high-precision numbers only inside it and only if they read back as themselves; the keys of each dict
      all names or all numbers *)
  Inductive storable : json -> Prop :=
  | st_null : storable JNull
  | st_bool : forall b, storable (JBool b)
  | st_int : forall z, storable (JNum (NInt z))
  | st_float : forall q, r_hp r = None -> float_of (float_text q) = Some (Fin q) -> storable (JNum (NFloat (Fin q)))
  | st_pinf : r_hp r = None -> storable (JNum (NFloat PInf))
  | st_ninf : r_hp r = None -> storable (JNum (NFloat NInf))
  | st_high : forall x, reads_as float_of (r_hp r) (text_of_high x) (NHigh x) -> storable (JNum (NHigh x))
  | st_str : forall s, float_of s = None -> storable (JStr s)
  | st_list : forall l, Forall storable l -> storable (JList l)
  | st_dict : forall d, dwf keqb d -> Forall (fun e => name_key (fst e)) d \/ Forall (fun e => number_key (fst e)) d ->
      Forall (fun e => storable (snd e)) d -> storable (JDict d).
End Storable.
(** a reader whose values can be cleared: a dict (as after any successful read) or a list *)
Definition usable (r : reader) : Prop := match r_values r with JDict _ | JList _ => True | _ => False end.

(** ---- C86 ---- *)
(** after a delete the value is gone, other attributes are untouched ... *)
Theorem C86_deleted : forall r d name e r' default name',
  r_values r = JDict d -> dwf keqb d -> attr_del r name = (e, r') ->
  attr_get r' default name' =
    if String.eqb name' name
    then match default with Some v => if r_use_defaults r then Ok v else Err KeyError | None => Err KeyError end
    else attr_get r default name'.
Proof.
  intros r d name e r' default name' Hd W H. unfold attr_del in H. rewrite Hd in H.
  assert (G : forall d : list (jkey * json), dwf keqb d -> dget keqb (ddel keqb d (KStr name)) (KStr name') =
    if String.eqb name' name then None else dget keqb d (KStr name')).
  { clear. induction d as [|[k v] d IH]; intros W; [cbn; destruct (String.eqb name' name); reflexivity|].
    cbn [ddel dget]. destruct W as [W1 W2]. destruct (keqb (KStr name) k) eqn:E.
    - destruct k as [s|n]; [|discriminate]. cbn in E. apply String.eqb_eq in E. subst s. cbn.
      destruct (String.eqb name' name) eqn:E; [|reflexivity]. apply String.eqb_eq in E. subst. exact W1.
    - cbn [dget]. rewrite (IH W2). destruct (String.eqb name' name) eqn:E2.
      + apply String.eqb_eq in E2. subst. rewrite E. reflexivity.
      + reflexivity. }
  destruct (dget keqb d (KStr name)) as [v|] eqn:E; injection H as _ <-.
  - unfold attr_get, contains, index, set_values. cbn [r_values r_use_defaults]. rewrite Hd. cbn [bind]. unfold dmem, dget_r.
    rewrite (G d W). destruct (String.eqb name' name); cbn; destruct default, (r_use_defaults r); reflexivity.
  - destruct (String.eqb name' name) eqn:E2; [|reflexivity]. apply String.eqb_eq in E2. subst name'.
    eapply C70_attribute_default; eauto.
Qed.
(** ... but the delete statement itself always fails *)
Theorem C86_delete_raises_refuted : forall r d name v, r_values r = JDict d -> dget keqb d (KStr name) = Some v ->
  fst (attr_del r name) = Err KeyError.
Proof. intros r d name v Hd H. unfold attr_del. rewrite Hd, H. reflexivity. Qed.
Example C86_sat : exists r', attr_del {| r_values := JDict [(KStr "a", JNull)]; r_use_defaults := true; r_hp := None; r_ser := None |} "a"
  = (Err KeyError, r') /\ attr_get r' (Some (JBool true)) "a" = Ok (JBool true).
Proof. eexists. split; reflexivity. Qed.

(** ---- C87: write then read ---- *)
Lemma dget_none : forall {V} (d : list (jkey * V)) k, dget keqb d k = None <-> Forall (fun e => keqb k (fst e) = false) d.
Proof.
  induction d as [|[k0 v0] d IH]; intros k; cbn; [split; auto|]. destruct (keqb k k0) eqn:E.
  - split; [discriminate|]. intros H. apply Forall_inv in H. cbn in H. congruence.
  - rewrite IH. split; intros H; [constructor; auto|eapply Forall_inv_tail; eauto].
Qed.
Lemma dwf_perm : forall {V} (d d' : list (jkey * V)), Permutation d d' -> dwf keqb d -> dwf keqb d'.
Proof.
  intros V d d' P. induction P as [|[k v] d d' P IH|[k v] [k2 v2] d|]; intros W; auto.
  - destruct W as [W1 W2]. split; [|auto]. rewrite dget_none in *. rewrite Forall_forall in *. intros e I. apply W1.
    eapply Permutation_in; [apply Permutation_sym; eauto|auto].
  - destruct W as [W1 [W2 W3]]. cbn in W1. destruct (keqb k2 k) eqn:E; [discriminate|]. cbn. rewrite keqb_sym, E. auto.
Qed.
Lemma ins_perm : forall e l, Permutation (e :: l) (ins e l).
Proof.
  induction l as [|x r IH]; cbn; auto. destruct (key_leb e x); auto.
  eapply Permutation_trans; [apply perm_swap|]. constructor. exact IH.
Qed.
Lemma sort_perm : forall l, Permutation l (fold_right ins [] l).
Proof.
  induction l as [|x r IH]; cbn; auto. eapply Permutation_trans; [|apply ins_perm]. constructor. exact IH.
Qed.
Lemma reads_convert : forall float_of hp s n, reads_as float_of hp s n -> convert_str float_of hp s = Ok (inr n).
Proof.
  intros float_of hp s n H. unfold convert_str. destruct H as [q z H Hz|h hf x y H Hw Hh Hs|x H Hw Hh]; rewrite H.
  - destruct (integral_complete q z Hz) as [-> ->]. reflexivity.
  - assert (I : integral x = false). { destruct (integral x) eqn:I; auto. exfalso. apply Hw.
      destruct (integral_spec x I) as (q & -> & Hq). exists q, (to_int (Fin q)). auto. }
    rewrite I. rewrite Hh, Hs. reflexivity.
  - assert (I : integral x = false). { destruct (integral x) eqn:I; auto. exfalso. apply Hw.
      destruct (integral_spec x I) as (q & -> & Hq). exists q, (to_int (Fin q)). auto. }
    rewrite I. rewrite Hh. reflexivity.
Qed.

Section RoundTrip.
  Context (float_of : string -> option fl) (int_text : Z -> string) (float_text : Q -> string) (high_text : fl -> string) (r : reader).
  Notation hp := (r_hp r).
  Notation enc := (encode int_text float_text high_text r).
  Notation ld := (load float_of hp).
  Notation nc := (numeric_convert float_of hp).
  Notation ck := (convert_key float_of hp).
  Notation kt := (key_text int_text float_text).

  Definition back (t t' : json) : Prop := exists w t1, enc t = Ok w /\ ld w = Ok t1 /\ nc t1 = Ok t'.

  Definition enc_list : list json -> res (list ReaderModel.raw) :=
    fix go l := match l with [] => Ok [] | x :: q => let* y := enc x in let* q' := go q in Ok (y :: q') end.
  Definition enc_dict : list (jkey * json) -> res (list (jkey * ReaderModel.raw)) :=
    fix go d := match d with [] => Ok [] | (k, v) :: q => let* v' := enc v in let* q' := go q in Ok ((k, v') :: q') end.
  Definition ld_list : list ReaderModel.raw -> res (list json) :=
    fix go l := match l with [] => Ok [] | x :: q => let* y := ld x in let* q' := go q in Ok (y :: q') end.
  Definition ld_dict : list (string * ReaderModel.raw) -> list (jkey * json) -> res (list (jkey * json)) :=
    fix go d acc := match d with [] => Ok acc | (k, v) :: q => let* v' := ld v in go q (dset keqb acc (KStr k) v') end.
  Lemma enc_l : forall l, enc (JList l) = let* l' := enc_list l in Ok (RList l'). Proof. reflexivity. Qed.
  Lemma enc_d : forall d, enc (JDict d) = let* d1 := enc_dict d in let* d2 := sort_items d1 in
    let* d3 := key_texts int_text float_text d2 in Ok (RDict d3). Proof. reflexivity. Qed.
  Lemma ld_l : forall l, ld (RList l) = let* l' := ld_list l in Ok (JList l'). Proof. reflexivity. Qed.
  Lemma ld_d : forall d, ld (RDict d) = let* d' := ld_dict d [] in Ok (JDict d'). Proof. reflexivity. Qed.

  (** keys that come back *)
  Definition good_key (k : jkey) : Prop := keqb k k = true /\ exists s, kt k = Ok s /\ ck (KStr s) = Ok k.
  Lemma name_good : forall k, name_key float_of k -> good_key k.
  Proof.
    intros k [s H]. split; [apply String.eqb_refl|]. exists s. split; [reflexivity|].
    cbn. unfold convert_str. rewrite H. reflexivity.
  Qed.
  Lemma number_good : forall k, number_key float_of int_text float_text r k -> good_key k.
  Proof.
    intros k [z H|x N H].
    - split; [cbn; apply qeqb_refl|]. exists (int_text z). split; [reflexivity|].
      cbn. rewrite (reads_convert _ _ _ _ H). reflexivity.
    - split; [destruct x; cbn; auto using qeqb_refl; congruence|]. exists (float_str float_text x). split; [reflexivity|].
      cbn. rewrite (reads_convert _ _ _ _ H). reflexivity.
  Qed.

  (** loading and converting a dict whose keys come back distinct *)
  Lemma dict_back : forall (ds : list (jkey * json)) d2,
    Forall2 (fun e e2 => fst e2 = fst e /\ exists t1 t', ld (snd e2) = Ok t1 /\ nc t1 = Ok t' /\ same (snd e) t') ds d2 ->
    Forall (fun e => good_key (fst e)) ds -> dwf keqb ds ->
    exists d3 l1 d', key_texts int_text float_text d2 = Ok d3 /\ ld_dict d3 [] = Ok l1 /\ conv_dict float_of hp l1 [] = Ok d' /\
      Forall2 (fun e e' => fst e = fst e' /\ same (snd e) (snd e')) ds d'.
  Proof.
    intros ds d2 F. 
    assert (G : Forall (fun e => good_key (fst e)) ds -> dwf keqb ds ->
      exists d3 l1 d', key_texts int_text float_text d2 = Ok d3 /\
        Forall2 (fun e3 e1 => fst e1 = KStr (fst e3) /\ ld (snd e3) = Ok (snd e1)) d3 l1 /\
        Forall2 (fun e1 e' => ck (fst e1) = Ok (fst e') /\ nc (snd e1) = Ok (snd e')) l1 d' /\
        Forall2 (fun e e' => fst e = fst e' /\ same (snd e) (snd e')) ds d').
    { induction F as [|[k v] [k2 w] ds d2 [Hk (t1 & t' & H1 & H2 & H3)] F IH]; intros Gd W.
      - exists [], [], []. repeat split; constructor.
      - cbn in Hk, H1, H3. subst k2. destruct W as [W1 W2].
        destruct (IH (Forall_inv_tail Gd) W2) as (d3 & l1 & d' & E & F1 & F2 & F3).
        destruct (Forall_inv Gd) as [Kr (s & Ks & Kc)]. cbn in Ks, Kc, Kr.
        exists ((s, w) :: d3), ((KStr s, t1) :: l1), ((k, t') :: d'). cbn [key_texts]. rewrite Ks. cbn [bind]. rewrite E.
        repeat split; constructor; cbn; auto. }
    intros Gd W. destruct (G Gd W) as (d3 & l1 & d' & E & F1 & F2 & F3). exists d3, l1, d'. split; [exact E|].
    (* the keys of d' are those of ds: distinct *)
    assert (W' : dwf keqb d').
    { clear - F3 W. induction F3 as [|[k v] [k' v'] ds d' [Hk _] F IH]; cbn; auto. destruct W as [W1 W2]. cbn in Hk. subst k'.
      split; [|auto]. rewrite dget_none in *. clear - F W1. induction F as [|e e' ds d' [Hk _] F IH]; constructor.
      - rewrite <- Hk. apply (Forall_inv W1). - apply IH. apply (Forall_inv_tail W1). }
    assert (R' : Forall (fun e => keqb (fst e) (fst e) = true) d').
    { clear - F3 Gd. induction F3 as [|e e' ds d' [Hk _] F IH]; constructor.
      - rewrite <- Hk. apply (Forall_inv Gd). - apply IH. apply (Forall_inv_tail Gd). }
    assert (W1 : dwf keqb l1).
    { clear - F1 F2 W' R'. revert d3 F1. induction F2 as [|[k1 v1] [k' v'] l1 d' [Hk _] F2 IH]; intros d3 F1; cbn; auto.
      inversion F1 as [|x1 y1 l2 l2' [Hs _] Hr]; subst. destruct W' as [W1 W2]. split; [|eapply IH; eauto using Forall_inv_tail].
      apply dget_none. apply dget_none in W1. cbn in Hk, Hs. pose proof (Forall_inv R') as Rk. cbn in Rk.
      clear - Hk Hs Hr F2 W1 Rk. revert l2 Hr. induction F2 as [|[k2 v2] [k2' v2'] l1 d' [Hk2 _] F2 IH]; intros l F1; constructor.
      - inversion F1 as [|x2 y2 l3 l3' [Hs2 _] Hr]; subst. cbn [fst] in *. subst. cbn [keqb]. destruct (String.eqb (fst x1) (fst x2)) eqn:E; [|auto].
        apply String.eqb_eq in E. rewrite E in Hk. pose proof (Forall_inv W1) as Wk. cbn [fst] in Wk.
        rewrite Hk in Hk2. injection Hk2 as ->. congruence.
      - inversion F1 as [|x2 y2 l3 l3' _ Hr]; subst. eapply IH; eauto using Forall_inv_tail. }
    split; [|split; [|exact F3]].
    - assert (L : forall l3 la acc, Forall2 (fun e3 e1 => fst e1 = KStr (fst e3) /\ ld (snd e3) = Ok (snd e1)) l3 la ->
        dwf keqb la -> (forall e, In e la -> dget keqb acc (fst e) = None) -> ld_dict l3 acc = Ok (acc ++ la)).
      { clear. induction l3 as [|[s w] l3 IH]; intros la acc F W D; inversion F as [|a b c e Hx Hf]; subst; [cbn; rewrite app_nil_r; reflexivity|].
        destruct b as [k1 t1]. destruct Hx as [Hs Hl]. cbn in Hs, Hl. subst k1. destruct W as [W1 W2].
        replace (ld_dict ((s, w) :: l3) acc) with (let* v' := ld w in ld_dict l3 (dset keqb acc (KStr s) v')) by reflexivity.
        rewrite Hl. cbn [bind]. rewrite dset_fresh by (apply (D (KStr s, t1)); left; reflexivity).
        rewrite (IH e); auto; [rewrite <- app_assoc; reflexivity|].
        intros e0 I. rewrite dget_app, (D e0 (or_intror I)). cbn [dget]. 
        apply dget_none in W1. rewrite Forall_forall in W1. specialize (W1 e0 I). rewrite keqb_sym, W1. reflexivity. }
      rewrite (L d3 l1 [] F1 W1); [reflexivity|]. intros; reflexivity.
    - assert (L : forall la lb acc, Forall2 (fun e1 e' => ck (fst e1) = Ok (fst e') /\ nc (snd e1) = Ok (snd e')) la lb ->
        dwf keqb lb -> (forall e, In e lb -> dget keqb acc (fst e) = None) -> conv_dict float_of hp la acc = Ok (acc ++ lb)).
      { clear. induction la as [|[k w] la IH]; intros lb acc F W D; inversion F as [|a b c e Hx Hf]; subst; [cbn; rewrite app_nil_r; reflexivity|].
        destruct b as [k1 t1]. destruct Hx as [Hs Hl]. cbn in Hs, Hl. destruct W as [W1 W2].
        rewrite conv_dict_cons, Hs. cbn [bind]. rewrite Hl. cbn [bind]. rewrite dset_fresh by (apply (D (k1, t1)); left; reflexivity).
        rewrite (IH e); auto; [rewrite <- app_assoc; reflexivity|].
        intros e0 I. rewrite dget_app, (D e0 (or_intror I)). cbn [dget]. 
        apply dget_none in W1. rewrite Forall_forall in W1. specialize (W1 e0 I). rewrite keqb_sym, W1. reflexivity. }
      rewrite (L l1 d' [] F2 W'); [reflexivity|]. intros; reflexivity.
  Qed.

  Lemma kinds_sort : forall (d : list (jkey * json)) (d1 : list (jkey * ReaderModel.raw)),
    map fst d1 = map fst d -> Forall (fun e => name_key float_of (fst e)) d \/ Forall (fun e => number_key float_of int_text float_text r (fst e)) d ->
    sort_items d1 = Ok (fold_right ins [] d1).
  Proof.
    intros d d1 M K. unfold sort_items.
    assert (E : forallb is_str_key d1 || forallb (fun e => negb (is_str_key e)) d1 = true); [|rewrite E; reflexivity].
    apply orb_true_iff. destruct K as [K|K]; [left|right]; apply forallb_forall; intros [k w] I;
      apply (in_map fst) in I; rewrite M in I; apply in_map_iff in I; destruct I as ([k' v'] & Ek & I); cbn in Ek; subst k';
      rewrite Forall_forall in K; specialize (K _ I); cbn in K; inversion K; subst; reflexivity.
  Qed.

  Theorem round_trip : forall t, storable float_of int_text float_text high_text r t ->
    exists w t1 t', enc t = Ok w /\ ld w = Ok t1 /\ nc t1 = Ok t' /\ same t t'.
  Proof.
    induction t as [|b|n|s|l IH|d IH] using json_induction; intros St.
    - exists RNull, JNull, JNull. repeat split; constructor.
    - exists (RBool b), (JBool b), (JBool b). repeat split; constructor.
    - inversion St as [| |z|q H1 H2|H1|H1|x H1| | |]; subst; cbn [encode].
      + exists (RInt z), (JNum (NInt z)), (JNum (NInt z)). repeat split; constructor.
      + eexists _, (JNum (NFloat (Fin q))), (JNum (NFloat (Fin q))). split; [reflexivity|]. cbn. unfold parse_float. rewrite H1, H2.
        repeat split; constructor.
      + eexists _, (JNum (NFloat PInf)), (JNum (NFloat PInf)). split; [reflexivity|]. cbn. unfold parse_constant. rewrite H1. cbn.
        repeat split; constructor.
      + eexists _, (JNum (NFloat NInf)), (JNum (NFloat NInf)). split; [reflexivity|]. cbn. unfold parse_constant. rewrite H1. cbn.
        repeat split; constructor.
      + pose proof H1 as H2. apply reads_convert in H2.
        inversion H1 as [|h hf x0 y F0 Hw Hh Hs Ey|]; subst. unfold encode_high. rewrite Hh.
        eexists _, (JStr (text_of_high high_text r x)), (JNum (NHigh x)). split; [reflexivity|]. split; [reflexivity|].
        split; [|constructor]. cbn [numeric_convert]. rewrite <- Hh. rewrite H2. reflexivity.
    - inversion St; subst. exists (RStr s), (JStr s), (JStr s). split; [reflexivity|]. split; [reflexivity|].
      split; [|constructor]. cbn. unfold convert_str. rewrite H0. reflexivity.
    - inversion St as [| | | | | | | |l0 Fl|]; subst.
      assert (G : exists w t1 t', enc_list l = Ok w /\ ld_list w = Ok t1 /\ conv_list float_of hp t1 = Ok t' /\ Forall2 same l t').
      { clear St. induction l as [|x q IHq]; [exists [], [], []; repeat split; constructor|].
        destruct (Forall_inv IH (Forall_inv Fl)) as (w & t1 & t' & E1 & E2 & E3 & E4).
        destruct (IHq (Forall_inv_tail IH) (Forall_inv_tail Fl)) as (ws & ts & ts' & F1 & F2 & F3 & F4).
        exists (w :: ws), (t1 :: ts), (t' :: ts').
        replace (enc_list (x :: q)) with (let* y := enc x in let* q' := enc_list q in Ok (y :: q')) by reflexivity.
        replace (ld_list (w :: ws)) with (let* y := ld w in let* q' := ld_list ws in Ok (y :: q')) by reflexivity.
        rewrite conv_list_cons, E1, E2, E3, F1, F2, F3. repeat split; constructor; auto. }
      destruct G as (w & t1 & t' & E1 & E2 & E3 & E4). exists (RList w), (JList t1), (JList t').
      rewrite enc_l, ld_l, nc_list, E1, E2, E3. repeat split. constructor. exact E4.
    - inversion St as [| | | | | | | | |d0 W K Fs]; subst.
      assert (G : exists d1, enc_dict d = Ok d1 /\ map fst d1 = map fst d /\
        Forall2 (fun e e2 => fst e2 = fst e /\ exists t1 t', ld (snd e2) = Ok t1 /\ nc t1 = Ok t' /\ same (snd e) t') d d1).
      { clear St K W. induction d as [|[k v] q IHq]; [exists []; repeat split; constructor|].
        destruct (Forall_inv IH (Forall_inv Fs)) as (w & t1 & t' & E1 & E2 & E3 & E4). cbn in E1, E4.
        destruct (IHq (Forall_inv_tail IH) (Forall_inv_tail Fs)) as (ws & F1 & F2 & F3).
        exists ((k, w) :: ws).
        replace (enc_dict ((k, v) :: q)) with (let* v' := enc v in let* q' := enc_dict q in Ok ((k, v') :: q')) by reflexivity.
        rewrite E1, F1. split; [reflexivity|]. split; [cbn; rewrite F2; reflexivity|]. constructor; auto. cbn. split; auto. exists t1, t'. auto. }
      destruct G as (d1 & E1 & M & F). rewrite enc_d, E1. cbn [bind]. rewrite (kinds_sort d d1 M K). cbn [bind].
      assert (F' : Forall2 (fun (e2 : jkey * ReaderModel.raw) e => fst e2 = fst e /\ exists t1 t', ld (snd e2) = Ok t1 /\ nc t1 = Ok t' /\ same (snd e) t') d1 d).
      { clear - F. induction F; constructor; auto. }
      destruct (Permutation_Forall2 (sort_perm d1) F') as (ds & P & F2).
      assert (F3 : Forall2 (fun e e2 => fst e2 = fst e /\ exists t1 t', ld (snd e2) = Ok t1 /\ nc t1 = Ok t' /\ same (snd e) t') ds (fold_right ins [] d1)).
      { clear - F2. induction F2; constructor; auto. }
      destruct (dict_back ds _ F3) as (d3 & l1 & d' & A1 & A2 & A3 & A4).
      + rewrite Forall_forall. intros e I. apply (Permutation_in e (Permutation_sym P)) in I.
        destruct K as [K|K]; rewrite Forall_forall in K; [apply name_good|apply number_good]; apply (K e I).
      + apply (dwf_perm d); auto.
      + exists (RDict d3), (JDict l1), (JDict d'). rewrite A1, ld_d, A2, nc_dict, A3. repeat split.
        apply s_dict with (d1 := ds); auto.
  Qed.

  (** the reader's values, written and read back by a reader with the same settings, are the same *)
  Theorem C87_round_trip : forall d, r_values r = JDict d -> storable float_of int_text float_text high_text r (JDict d) ->
    forall r2, r_hp r2 = r_hp r -> usable r2 ->
    exists f r3 d', write int_text float_text high_text r Own = (Ok tt, f) /\ read float_of r2 f true = (Ok tt, r3) /\
      r_values r3 = JDict d' /\ same (JDict d) (JDict d').
  Proof.
    intros d Hd St r2 Hh Hu. destruct (round_trip _ St) as (w & t1 & t' & E1 & E2 & E3 & E4).
    inversion E4 as [| | | | |d0 d1 d' P F]; subst. exists (Json w). unfold write. rewrite Hd, E1. 
    assert (C : exists v0, clear (r_values r2) = Ok v0).
    { unfold usable in Hu. destruct (r_values r2); try destruct Hu; cbn; eauto. }
    destruct C as [v0 C]. unfold read. rewrite C. cbn [load_file]. rewrite Hh, E2, E3.
    eexists _, d'. repeat split; [exact E4].
  Qed.
End RoundTrip.

(** refuted: keys of both kinds (such as a file with names and years at one level gives) cannot be written *)
Theorem C87_mixed_keys_refuted : forall int_text float_text high_text r,
  encode int_text float_text high_text r (JDict [(KStr "name", JNull); (KNum (NInt 2017), JNull)]) = Err TypeError.
Proof. reflexivity. Qed.
(** refuted: high-precision numbers as keys cannot be written, in any mode *)
Theorem C87_high_precision_keys_refuted : forall int_text float_text high_text r x,
  encode int_text float_text high_text r (JDict [(KNum (NHigh x), JNull)]) = Err TypeError.
Proof. reflexivity. Qed.
(** refuted: a whole high-precision number comes back as an int, and so does one whose double is whole *)
Theorem C87_high_precision_truncated_refuted : forall float_of int_text float_text high_text r h hf x q z,
  r_hp r = Some (h, hf) -> r_ser r = None -> float_of (high_text x) = Some (Fin q) -> q == inject_Z z ->
  exists w t1, encode int_text float_text high_text r (JNum (NHigh x)) = Ok w /\ load float_of (r_hp r) w = Ok t1 /\
    numeric_convert float_of (r_hp r) t1 = Ok (JNum (NInt z)).
Proof.
  intros float_of int_text float_text high_text r h hf x q z Hh Hs Hf Hz. cbn. unfold encode_high. rewrite Hh, Hs.
  eexists _, (JStr (high_text x)). repeat split. cbn. unfold convert_str. rewrite Hf.
  destruct (integral_complete q z Hz) as [-> ->]. reflexivity.
Qed.
(** refuted: a value that is a string of digits comes back as a number *)
Theorem C87_numeric_strings_refuted : forall float_of int_text float_text high_text r s q z,
  float_of s = Some (Fin q) -> q == inject_Z z ->
  exists w t1, encode int_text float_text high_text r (JStr s) = Ok w /\ load float_of (r_hp r) w = Ok t1 /\
    numeric_convert float_of (r_hp r) t1 = Ok (JNum (NInt z)).
Proof.
  intros float_of int_text float_text high_text r s q z Hf Hz. eexists _, _. repeat split. cbn. unfold convert_str. rewrite Hf.
  destruct (integral_complete q z Hz) as [-> ->]. reflexivity.
Qed.
(** refuted: passing a reader as the values to write, as the documentation offers, always fails *)
Theorem C87_other_reader_refuted : forall int_text float_text high_text r r2,
  fst (write int_text float_text high_text r (OtherReader r2)) = Err TypeError.
Proof. reflexivity. Qed.
Example C87_sat : storable demo_float (fun _ => "2017"%string) (fun _ => "0.25"%string) (fun _ => EmptyString)
  {| r_values := JNull; r_use_defaults := true; r_hp := None; r_ser := None |}
  (JDict [(KStr "b", JDict [(KNum (NInt 2017), JNum (NFloat (Fin (1#4))))]); (KStr "a", JList [JStr "x"; JNum (NFloat PInf)])]).
Proof.
  apply st_dict; [cbn; auto|left; repeat constructor|].
  constructor; [|constructor; [|constructor]]; cbn [snd].
  - apply st_dict; [cbn; auto| |repeat constructor].
    right. constructor; [|constructor]. apply nk_int. apply ra_int with (q := 2017); reflexivity.
  - repeat constructor.
Qed.

(** ---- C87: the written file lists the keys of each dict in ascending order ---- *)
Definition fl_before (a b : fl) : Prop :=
  match a, b with Fin p, Fin q => p <= q | NInf, NaN => False | NInf, _ => True | _, PInf => a <> NaN | _, _ => False end.
Definition key_before (a b : jkey) : Prop :=
  match a, b with KStr s, KStr t => String.compare s t <> Gt | KNum m, KNum n => fl_before (nval m) (nval n) | _, _ => False end.
Definition not_nan (k : jkey) : Prop := match k with KNum n => nval n <> NaN | KStr _ => True end.
Lemma key_leb_before : forall a b, not_nan (fst a) -> not_nan (fst b) -> (key_leb a b = true <-> key_before (fst a) (fst b)).
Proof.
  intros [[s|m] v] [[t|n] w] A B; unfold key_leb, key_before; cbn [fst] in *; try (split; [discriminate|tauto]).
  - destruct (String.compare s t); split; congruence.
  - cbn in A, B. destruct (nval m), (nval n); cbn; try (split; [discriminate|tauto]); try (split; [reflexivity|now intros]); try (split; congruence); try congruence. apply Qle_bool_iff.
Qed.
Lemma key_before_total : forall a b v w, not_nan a -> not_nan b -> is_str_key (a, v : raw) = is_str_key (b, w : raw) -> key_before a b \/ key_before b a.
Proof.
  intros [s|m] [t|n] v w A B E; cbn in *; try discriminate.
  - rewrite (String.compare_antisym t s). destruct (String.compare s t); cbn; [left; discriminate|left; discriminate|right; intro X; discriminate X].
  - destruct (nval m) as [p| | |], (nval n) as [q| | |]; cbn; try (left; now auto); try (right; now auto); try congruence; try (left; congruence); try (right; congruence).
    destruct (Qlt_le_dec p q); [left; lra|right; assumption].
Qed.
Lemma ins_sorted : forall e l, Forall (fun x => not_nan (fst x) /\ is_str_key x = is_str_key e) (e :: l) ->
  Sorted.Sorted (fun x y => key_before (fst x) (fst y)) l -> Sorted.Sorted (fun x y => key_before (fst x) (fst y)) (ins e l).
Proof.
  intros e l. induction l as [|x l IH]; intros F S; cbn [ins]; [repeat constructor|].
  inversion F as [|? ? [Ne _] F1]; subst. inversion F1 as [|? ? [Nx Ex] F2]; subst. destruct (key_leb e x) eqn:L.
  - constructor; [exact S|]. constructor. now apply key_leb_before.
  - inversion S as [|? ? S1 Hd]; subst. constructor; [apply IH; [constructor; auto|exact S1]|].
    assert (Xe : key_before (fst x) (fst e)).
    { destruct x as [kx vx], e as [ke ve]. cbn [fst] in *. destruct (key_before_total kx ke vx ve Nx Ne Ex) as [H|H]; [exact H|]. apply (key_leb_before (ke, ve) (kx, vx) Ne Nx) in H. congruence. }
    destruct l as [|z l]; cbn [ins]; [constructor; exact Xe|]. destruct (key_leb e z); constructor; [exact Xe|]. now inversion Hd.
Qed.
Lemma sort_sorted : forall l b, Forall (fun x => not_nan (fst x) /\ is_str_key x = b) l -> Sorted.Sorted (fun x y => key_before (fst x) (fst y)) (fold_right ins [] l).
Proof.
  induction l as [|e l IH]; intros b F; cbn [fold_right]; [constructor|]. inversion F as [|? ? [Ne Eb] F1]; subst. apply ins_sorted; [|now apply (IH (is_str_key e))].
  constructor; [auto|]. rewrite Forall_forall in *. intros x I. apply F1. eapply Permutation_in; [apply Permutation_sym, sort_perm|exact I].
Qed.
Theorem C87_keys_ascending : forall float_text high_text int_text r d d3, encode int_text float_text high_text r (JDict d) = Ok (RDict d3) ->
  Forall (fun e => not_nan (fst e)) d ->
  exists ks, Permutation (dkeys d) ks /\ Sorted.Sorted key_before ks /\ Forall2 (fun k name => key_text int_text float_text k = Ok name) ks (map fst d3).
Proof.
  intros float_text high_text int_text r d d3 H NN. cbn [encode] in H. match type of H with bind ?X _ = _ => set (G := X) in H; destruct G as [d1|] eqn:E1; [|discriminate] end. subst G. cbn [bind] in H.
  destruct (sort_items d1) as [d2|] eqn:E2; [|discriminate]. cbn [bind] in H. destruct (key_texts int_text float_text d2) as [d4|] eqn:E3; [|discriminate]. cbn [bind] in H. injection H as <-.
  assert (K1 : map fst d1 = map fst d).
  { clear -E1. revert d1 E1. induction d as [|[k v] d IH]; intros d1 E1; [injection E1 as <-; reflexivity|]. destruct (encode int_text float_text high_text r v) as [v'|]; [|discriminate]. cbn [bind] in E1.
    match type of E1 with bind ?X _ = _ => destruct X as [q|] eqn:Eq; [|discriminate] end. cbn [bind] in E1. injection E1 as <-. cbn. f_equal. now apply IH. }
  assert (N1 : Forall (fun e => not_nan (fst e)) d1).
  { apply Forall_forall. intros e I. apply (in_map fst) in I. rewrite K1 in I. apply in_map_iff in I. destruct I as (e' & Ee & I). rewrite Forall_forall in NN. rewrite <- Ee. now apply NN. }
  unfold sort_items in E2. destruct (forallb is_str_key d1 || forallb (fun e => negb (is_str_key e)) d1) eqn:B; [|discriminate]. injection E2 as <-.
  assert (S : Sorted.Sorted (fun x y => key_before (fst x) (fst y)) (fold_right ins [] d1)).
  { apply Bool.orb_true_iff in B. rewrite Forall_forall in N1. destruct B as [B|B]; rewrite forallb_forall in B.
    - apply (sort_sorted d1 true). apply Forall_forall. intros x I. split; [now apply N1|now apply B].
    - apply (sort_sorted d1 false). apply Forall_forall. intros x I. split; [now apply N1|]. specialize (B x I). now apply Bool.negb_true_iff in B. }
  exists (map fst (fold_right ins [] d1)). split; [|split].
  - unfold dkeys. rewrite <- K1. apply Permutation_map, sort_perm.
  - clear -S. induction S as [|x l S IH Hd]; cbn; constructor; [exact IH|]. destruct Hd; cbn; constructor. assumption.
  - clear -E3. revert d4 E3. generalize (fold_right ins [] d1) as l. induction l as [|[k v] l IH]; intros d4 E; cbn [key_texts] in E; [injection E as <-; constructor|].
    destruct (key_text int_text float_text k) as [n|] eqn:Ek; [|discriminate]. cbn [bind] in E. destruct (key_texts int_text float_text l) as [q|] eqn:Eq; [|discriminate]. cbn [bind] in E. injection E as <-.
    cbn. constructor; [exact Ek|]. now apply IH.
Qed.
Print Assumptions C87_keys_ascending.

(** ---- C88 ---- *)
(** a failed write has already emptied the file: nothing of the old settings is left, and the file no
    longer reads *)
Theorem C88_failed_write_destroys_refuted : forall float_of int_text float_text high_text r w e f r2,
  write int_text float_text high_text r w = (Err e, f) -> usable r2 ->
  f = NotJson /\ fst (read float_of r2 f true) = Err ValueError.
Proof.
  intros float_of int_text float_text high_text r w e f r2 H Hu. unfold write in H.
  destruct (match w with Own => _ | Vals _ => _ | OtherReader _ => _ end); [discriminate|]. injection H as _ <-. split; auto.
  unfold read, usable in *. destruct (r_values r2); try destruct Hu; reflexivity.
Qed.
(** a read does not depend on what a usable reader held before, so after any failure that leaves the
    reader usable a later read behaves as on a new reader ... *)
Theorem C88_read_forgets : forall float_of r1 r2 f numeric, usable r1 -> usable r2 ->
  r_hp r1 = r_hp r2 -> r_use_defaults r1 = r_use_defaults r2 -> 
  fst (read float_of r1 f numeric) = fst (read float_of r2 f numeric) /\
  (fst (read float_of r1 f numeric) = Ok tt -> forall default name,
     attr_get (snd (read float_of r1 f numeric)) default name = attr_get (snd (read float_of r2 f numeric)) default name).
Proof.
  intros float_of r1 r2 f numeric U1 U2 Hh Hu. unfold read, usable in *.
  assert (C1 : exists v0, clear (r_values r1) = Ok v0) by (destruct (r_values r1); try destruct U1; cbn; eauto).
  assert (C2 : exists v0, clear (r_values r2) = Ok v0) by (destruct (r_values r2); try destruct U2; cbn; eauto).
  destruct C1 as [v1 ->], C2 as [v2 ->]. rewrite <- Hh.
  destruct (load_file float_of (r_hp r1) f) as [v|e]; [|split; [reflexivity|discriminate]].
  destruct (if numeric then numeric_convert float_of (r_hp r1) v else Ok v) as [w|e]; [|split; [reflexivity|discriminate]].
  split; [reflexivity|]. intros _ default name. unfold attr_get, set_values. cbn. rewrite Hu. reflexivity.
Qed.
(** ... and whatever was read before, successfully or not, a reader that can still read gives what a new reader made
    with the same settings gives (the conversion to high precision, the defaults, and what a write would store) *)
Fixpoint read_all (float_of : string -> option fl) (r : reader) (fs : list (file * bool)) : reader :=
  match fs with [] => r | (f, n) :: l => read_all float_of (snd (read float_of r f n)) l end.
Theorem C88_like_a_new_reader : forall float_of hp ser ud fs f numeric,
  let r := read_all float_of (snd (new_reader float_of hp ser ud None true)) fs in
  let new := new_reader float_of hp ser ud (Some f) numeric in
  usable r ->
  fst (read float_of r f numeric) = fst new /\
  (fst new = Ok tt -> snd (read float_of r f numeric) = snd new).
Proof.
  intros float_of hp ser ud fs f numeric r new U. subst new.
  assert (K : r_hp r = hp /\ r_use_defaults r = ud /\ r_ser r = ser).
  { subst r. clear U. cbn [new_reader snd].
    set (r0 := {| r_values := JDict []; r_use_defaults := ud; r_hp := hp; r_ser := ser |}).
    assert (K0 : r_hp r0 = hp /\ r_use_defaults r0 = ud /\ r_ser r0 = ser) by (repeat split; reflexivity).
    clearbody r0. revert r0 K0. induction fs as [|[g n] l IH]; intros r0 K0; cbn [read_all]; [exact K0|]. apply IH.
    unfold read. destruct (clear (r_values r0)); [|exact K0]. destruct (load_file float_of (r_hp r0) g) as [w|]; [|exact K0].
    destruct (if n then numeric_convert float_of (r_hp r0) w else Ok w); exact K0. }
  destruct K as (Kh & Ku & Ks). cbn [new_reader]. unfold read. cbn [r_values r_hp clear]. rewrite Kh.
  assert (C : exists v0, clear (r_values r) = Ok v0) by (unfold usable in U; destruct (r_values r); try destruct U; cbn; eauto).
  destruct C as (v0 & ->). destruct (load_file float_of hp f) as [v|e]; [|split; [reflexivity|discriminate]].
  destruct (if numeric then numeric_convert float_of hp v else Ok v) as [w|e]; [|split; [reflexivity|discriminate]].
  split; [reflexivity|]. intros _. cbn [snd]. unfold set_values. cbn. rewrite Kh, Ku, Ks. reflexivity.
Qed.
Print Assumptions C88_like_a_new_reader.
(** ... and every outcome leaves the reader usable unless the file was a bare number, string, true, false
    or null *)
Theorem C88_stays_usable_partial : forall float_of r f numeric, usable r ->
  (forall t, f = Json t -> match t with RList _ | RDict _ => True | _ => False end) ->
  usable (snd (read float_of r f numeric)).
Proof.
  intros float_of r f numeric U Hf. unfold read.
  assert (C : exists v0, clear (r_values r) = Ok v0 /\ match v0 with JDict _ | JList _ => True | _ => False end).
  { unfold usable in U. destruct (r_values r); try destruct U; (eexists; split; [reflexivity|exact I]). }
  destruct C as (v0 & -> & U0). destruct f as [|t|]; [exact U0| |exact U0].
  specialize (Hf t eq_refl). cbn [load_file]. destruct (load float_of (r_hp r) t) as [v|e] eqn:L; [|exact U0].
  assert (Uv : match v with JDict _ | JList _ => True | _ => False end).
  { destruct t; try destruct Hf.
    - rewrite ld_l in L. destruct (ld_list float_of r l); cbn in L; [|discriminate]. injection L as <-. exact I.
    - rewrite ld_d in L. destruct (ld_dict float_of r d []); cbn in L; [|discriminate]. injection L as <-. exact I. }
  destruct numeric; [|exact Uv].
  destruct (numeric_convert float_of (r_hp r) v) as [w|e] eqn:E; [|exact Uv].
  destruct v; try destruct Uv.
  - rewrite nc_list in E. destruct (conv_list float_of (r_hp r) l); cbn in E; [|discriminate]. injection E as <-. exact I.
  - rewrite nc_dict in E. destruct (conv_dict float_of (r_hp r) d []); cbn in E; [|discriminate]. injection E as <-. exact I.
Qed.
(** a file that is missing, is not JSON or holds a number that cannot be read leaves nothing of what was
    read before: every attribute has its default, or is missing *)
Theorem C88_failed_read_forgets : forall float_of r d f numeric e default name, r_values r = JDict d -> load_file float_of (r_hp r) f = Err e ->
  fst (read float_of r f numeric) = Err e /\
  attr_get (snd (read float_of r f numeric)) default name =
    match default with Some v => if r_use_defaults r then Ok v else Err KeyError | None => Err KeyError end.
Proof.
  intros float_of r d f numeric e default name Hd Hf. unfold read. rewrite Hd. cbn [clear]. rewrite Hf. split; [reflexivity|]. cbn [snd].
  unfold attr_get, contains, index, set_values. cbn. destruct default as [v|]; [|reflexivity]. destruct (r_use_defaults r); reflexivity.
Qed.
Print Assumptions C88_failed_read_forgets.
(** refuted: after reading such a file (which is reported with a TypeError) the reader can never read again *)
Theorem C88_unusable_forever_refuted : forall float_of r z, usable r ->
  fst (read float_of r (Json (RInt z)) true) = Err TypeError /\
  forall f numeric, read float_of (snd (read float_of r (Json (RInt z)) true)) f numeric
    = (Err AttributeError, snd (read float_of r (Json (RInt z)) true)).
Proof.
  intros float_of r z U.
  assert (E : read float_of r (Json (RInt z)) true = (Err TypeError, set_values r (JNum (NInt z)))).
  { unfold read, usable in *. destruct (r_values r); try destruct U; reflexivity. }
  rewrite E. split; reflexivity.
Qed.
Example C88_sat : usable {| r_values := JDict []; r_use_defaults := true; r_hp := None; r_ser := None |}.
Proof. exact I. Qed.
Print Assumptions C86_deleted.
Print Assumptions C86_delete_raises_refuted.
Print Assumptions C87_round_trip.
Print Assumptions C87_mixed_keys_refuted.
Print Assumptions C87_high_precision_keys_refuted.
Print Assumptions C87_high_precision_truncated_refuted.
Print Assumptions C87_numeric_strings_refuted.
Print Assumptions C87_other_reader_refuted.
Print Assumptions C88_failed_write_destroys_refuted.
Print Assumptions C88_read_forgets.
Print Assumptions C88_stays_usable_partial.
Print Assumptions C88_unusable_forever_refuted.
