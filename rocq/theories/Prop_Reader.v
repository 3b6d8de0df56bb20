(** Settings files: C70. *)
From Coq Require Import Qround.
From Verif Require Import Base BaseFacts ReaderModel.

(** ---- specification ---- *)
(** a whole number *)
Definition whole (x : fl) : Prop := exists q z, x = Fin q /\ q == inject_Z z.
Section Spec.
  (** [float_of s = Some x]: Python's float accepts the text [s]; [hp]: the high-precision functions, if any *)
  Context (float_of : string -> option fl) (hp : option ((string -> res fl) * (fl -> res fl))).
  (** the number a numeric string stands for: an int when it is whole, otherwise a high-precision
      number when there is such a type, otherwise a float *)
  Inductive reads_as (s : string) : num -> Prop :=
  | ra_int : forall q z, float_of s = Some (Fin q) -> q == inject_Z z -> reads_as s (NInt z)
  | ra_high : forall h hf x y, float_of s = Some x -> ~ whole x -> hp = Some (h, hf) -> h s = Ok y ->
      reads_as s (NHigh y)
  | ra_float : forall x, float_of s = Some x -> ~ whole x -> hp = None -> reads_as s (NFloat x).
  Inductive key_converted : jkey -> jkey -> Prop :=
  | kc_num : forall n, key_converted (KNum n) (KNum n)
  | kc_str : forall s, float_of s = None -> key_converted (KStr s) (KStr s)
  | kc_read : forall s n, reads_as s n -> key_converted (KStr s) (KNum n).
  (** the tree with its numeric strings (keys and values) replaced by numbers, and nothing else changed *)
  Inductive converted : json -> json -> Prop :=
  | c_null : converted JNull JNull
  | c_bool : forall b, converted (JBool b) (JBool b)
  | c_num : forall n, converted (JNum n) (JNum n)
  | c_str : forall s, float_of s = None -> converted (JStr s) (JStr s)
  | c_read : forall s n, reads_as s n -> converted (JStr s) (JNum n)
  | c_list : forall l l', Forall2 converted l l' -> converted (JList l) (JList l')
  | c_dict : forall d d', Forall2 (fun e e' => key_converted (fst e) (fst e') /\ converted (snd e) (snd e')) d d' ->
      converted (JDict d) (JDict d').
  (** no numeric string is left anywhere *)
  Inductive numeric_free : json -> Prop :=
  | nf_null : numeric_free JNull | nf_bool : forall b, numeric_free (JBool b) | nf_num : forall n, numeric_free (JNum n)
  | nf_str : forall s, float_of s = None -> numeric_free (JStr s)
  | nf_list : forall l, Forall numeric_free l -> numeric_free (JList l)
  | nf_dict : forall d, Forall (fun e => (forall s, fst e = KStr s -> float_of s = None) /\ numeric_free (snd e)) d ->
      numeric_free (JDict d).
  (** no dict of the tree has two keys that become equal *)
  Inductive clash_free : json -> Prop :=
  | cf_null : clash_free JNull | cf_bool : forall b, clash_free (JBool b) | cf_num : forall n, clash_free (JNum n)
  | cf_str : forall s, clash_free (JStr s)
  | cf_list : forall l, Forall clash_free l -> clash_free (JList l)
  | cf_dict : forall d,
      (forall d1 e1 d2 e2 d3 k1 k2, d = d1 ++ e1 :: d2 ++ e2 :: d3 ->
         key_converted (fst e1) k1 -> key_converted (fst e2) k2 -> keqb k1 k2 = false) ->
      Forall (fun e => clash_free (snd e)) d -> clash_free (JDict d).
  (** every dict of the tree has distinct keys (a Python dict has) *)
  Inductive proper_dicts : json -> Prop :=
  | pd_null : proper_dicts JNull | pd_bool : forall b, proper_dicts (JBool b) | pd_num : forall n, proper_dicts (JNum n)
  | pd_str : forall s, proper_dicts (JStr s)
  | pd_list : forall l, Forall proper_dicts l -> proper_dicts (JList l)
  | pd_dict : forall d, dwf keqb d -> Forall (fun e => proper_dicts (snd e)) d -> proper_dicts (JDict d).
End Spec.
(** finite numbers a double can hold (53-bit significand, any exponent) *)
Definition double (q : Q) : Prop := exists m e : Z, (Z.abs m < 2 ^ 53)%Z /\
  q == if (0 <=? e)%Z then inject_Z (m * 2 ^ e) else inject_Z m / inject_Z (2 ^ (- e)).

(** ---- induction over trees ---- *)
Section Ind.
  Context (P : json -> Prop) (Hn : P JNull) (Hb : forall b, P (JBool b)) (Hm : forall n, P (JNum n)) (Hs : forall s, P (JStr s))
    (Hl : forall l, Forall P l -> P (JList l)) (Hd : forall d, Forall (fun e => P (snd e)) d -> P (JDict d)).
  Fixpoint json_induction (t : json) : P t :=
    match t with
    | JNull => Hn | JBool b => Hb b | JNum n => Hm n | JStr s => Hs s
    | JList l => Hl l ((fix go l : Forall P l := match l with [] => Forall_nil _ | x :: r => Forall_cons x (json_induction x) (go r) end) l)
    | JDict d => Hd d ((fix go d : Forall (fun e => P (snd e)) d :=
        match d with [] => Forall_nil _ | (k, x) :: r => Forall_cons (k, x) (json_induction x) (go r) end) d)
    end.
End Ind.

Lemma fl_eqb_sym : forall a b, fl_eqb a b = fl_eqb b a.
Proof. destruct a, b; cbn; auto using qeqb_sym. Qed.
Lemma fl_eqb_trans : forall a b c, fl_eqb a b = true -> fl_eqb b c = true -> fl_eqb a c = true.
Proof. destruct a, b, c; cbn; intros; try discriminate; auto. eapply qeqb_trans; eauto. Qed.
Lemma keqb_sym : forall a b, keqb a b = keqb b a.
Proof. destruct a, b; cbn; auto using String.eqb_sym. apply fl_eqb_sym. Qed.
Lemma keqb_trans : forall a b c, keqb a b = true -> keqb b c = true -> keqb a c = true.
Proof.
  destruct a, b, c; cbn; intros A B; try discriminate.
  - apply String.eqb_eq in A, B. subst. apply String.eqb_refl.
  - eapply fl_eqb_trans; eauto.
Qed.

Section Conv.
  Context (float_of : string -> option fl) (hp : option ((string -> res fl) * (fl -> res fl))).
  Notation nc := (numeric_convert float_of hp).
  Notation ck := (convert_key float_of hp).
  Definition conv_list : list json -> res (list json) :=
    fix go l := match l with [] => Ok [] | x :: r => let* y := nc x in let* r' := go r in Ok (y :: r') end.
  Definition conv_dict : list (jkey * json) -> list (jkey * json) -> res (list (jkey * json)) :=
    fix go d acc := match d with
      | [] => Ok acc
      | (k, v) :: r => let* k' := ck k in let* v' := nc v in go r (dset keqb acc k' v')
      end.
  Lemma nc_list : forall l, nc (JList l) = let* l' := conv_list l in Ok (JList l').
  Proof. reflexivity. Qed.
  Lemma nc_dict : forall d, nc (JDict d) = let* d' := conv_dict d [] in Ok (JDict d').
  Proof. reflexivity. Qed.
  Lemma conv_dict_cons : forall k v r acc, conv_dict ((k, v) :: r) acc =
    let* k' := ck k in let* v' := nc v in conv_dict r (dset keqb acc k' v').
  Proof. reflexivity. Qed.
  Lemma conv_list_cons : forall x r, conv_list (x :: r) = let* y := nc x in let* r' := conv_list r in Ok (y :: r').
  Proof. reflexivity. Qed.

  (** ---- strings ---- *)
  Lemma integral_spec : forall x, integral x = true -> exists q, x = Fin q /\ q == inject_Z (to_int x).
  Proof.
    destruct x as [q| | |]; cbn; try discriminate. intros H. exists q. split; auto. apply Qeq_bool_t in H. lra.
  Qed.
  Lemma integral_complete : forall q z, q == inject_Z z -> integral (Fin q) = true /\ to_int (Fin q) = z.
  Proof.
    intros q z H. unfold integral, to_int. assert (E : Qfloor q = z) by (rewrite H; apply Qfloor_Z). rewrite E. split; auto.
    apply Qeq_bool_iff. rewrite H. ring.
  Qed.
  Lemma not_integral : forall x, integral x = false -> ~ whole x.
  Proof. intros x H (q & z & -> & Hq). destruct (integral_complete q z Hq) as [E _]. congruence. Qed.
  Lemma convert_str_spec : forall s c, convert_str float_of hp s = Ok c ->
    match c with inl s' => s' = s /\ float_of s = None | inr n => reads_as float_of hp s n end.
  Proof.
    unfold convert_str. intros s c H. destruct (float_of s) as [x|] eqn:E; [|injection H as <-; auto].
    destruct (integral x) eqn:I.
    - injection H as <-. destruct (integral_spec x I) as (q & -> & Hq). eapply ra_int; eauto.
    - destruct hp as [[h hf]|] eqn:Hh; cbn [bind] in H.
      + destruct (h s) eqn:Hs; cbn in H; [|discriminate]. injection H as <-.
        eapply ra_high; eauto using not_integral.
      + injection H as <-. eapply ra_float; eauto using not_integral.
  Qed.
  Lemma ck_spec : forall k k', ck k = Ok k' -> key_converted float_of hp k k'.
  Proof.
    intros [s|n] k' H; cbn in H; [|injection H as <-; constructor].
    destruct (convert_str float_of hp s) as [c|] eqn:E; cbn in H; [|discriminate]. injection H as <-.
    apply convert_str_spec in E. destruct c; [destruct E as [-> E]; constructor; auto|constructor; auto].
  Qed.

  (** ---- C70: without clashing keys, exactly the numeric strings are replaced ---- *)
  Lemma dget_app : forall (a b : list (jkey * json)) k, dget keqb (a ++ b) k =
    match dget keqb a k with Some v => Some v | None => dget keqb b k end.
  Proof. induction a as [|[k0 v0] a IH]; cbn; intros; auto. destruct (keqb k k0); auto. Qed.
  Lemma dset_fresh : forall (a : list (jkey * json)) k v, dget keqb a k = None -> dset keqb a k v = a ++ [(k, v)].
  Proof.
    induction a as [|[k0 v0] a IH]; cbn; intros k v H; auto. destruct (keqb k k0); [discriminate|]. rewrite IH; auto.
  Qed.

  Theorem C70_converts_exactly : forall t t', clash_free float_of hp t -> nc t = Ok t' -> converted float_of hp t t'.
  Proof.
    induction t as [| | |s|l IH|d IH] using json_induction; intros t' C H;
      try (cbn in H; injection H as <-; constructor; fail).
    - cbn in H. destruct (convert_str float_of hp s) as [c|] eqn:E; cbn in H; [|discriminate]. injection H as <-.
      apply convert_str_spec in E. destruct c; [destruct E as [-> E]|]; constructor; auto.
    - rewrite nc_list in H. destruct (conv_list l) as [l'|] eqn:E; cbn in H; [|discriminate]. injection H as <-.
      constructor. inversion C; subst. clear C. revert l' E. induction l as [|x r IHr]; intros l' E.
      + injection E as <-. constructor.
      + rewrite conv_list_cons in E. inversion IH; subst. inversion H0; subst.
        destruct (nc x) eqn:Ex; cbn in E; [|discriminate]. destruct (conv_list r) eqn:Er; cbn in E; [|discriminate].
        injection E as <-. constructor; auto.
    - rewrite nc_dict in H. destruct (conv_dict d []) as [d'|] eqn:E; cbn in H; [|discriminate]. injection H as <-.
      constructor. inversion C as [| | | | |d0 Cl Cv]; subst. clear C.
      assert (G : forall r acc d0 d',
        d = d0 ++ r -> Forall2 (fun e e' => key_converted float_of hp (fst e) (fst e') /\ converted float_of hp (snd e) (snd e')) d0 acc ->
        conv_dict r acc = Ok d' ->
        Forall2 (fun e e' => key_converted float_of hp (fst e) (fst e') /\ converted float_of hp (snd e) (snd e')) d d').
      { clear E d'. induction r as [|[k v] r IHr]; intros acc d0 d' Hd F E.
        - injection E as <-. rewrite app_nil_r in Hd. subst. exact F.
        - rewrite conv_dict_cons in E. destruct (ck k) as [k'|] eqn:Ek; cbn in E; [|discriminate].
          destruct (nc v) as [v'|] eqn:Ev; cbn in E; [|discriminate].
          assert (Kn : dget keqb acc k' = None).
          { destruct (dget keqb acc k') as [w|] eqn:Eg; [exfalso|reflexivity].
            apply dget_In in Eg. destruct Eg as (k0 & Hk & Hin). apply in_split in Hin. destruct Hin as (a1 & a2 & ->).
            apply Forall2_app_inv_r in F. destruct F as (b1 & b2 & F1 & F2 & Eb).
            inversion F2 as [|x y l0 l1 [Hxk _] Fr]; subst. cbn in Hxk.
            assert (K : keqb k0 k' = false).
            { apply (Cl b1 x l0 (k, v) r k0 k'); [rewrite <- app_assoc; reflexivity|exact Hxk|apply ck_spec; exact Ek]. }
            rewrite keqb_sym in Hk. congruence. }
          rewrite (dset_fresh _ _ _ Kn) in E.
          eapply (IHr _ (d0 ++ [(k, v)])); [|apply Forall2_app; [exact F|]|exact E].
          + rewrite <- app_assoc. exact Hd.
          + constructor; [|constructor]. cbn. split; [apply ck_spec; auto|].
            rewrite Forall_forall in IH, Cv.
            assert (I : In (k, v) d) by (rewrite Hd; apply in_or_app; right; left; reflexivity).
            apply (IH (k, v) I); [apply (Cv (k, v) I)|exact Ev]. }
      eapply (G d [] []); eauto.
  Qed.

  (** ---- C70: in every dict, a key looks up the conversion of the last entry it comes from ---- *)
  Theorem C70_lookup : forall d t, nc (JDict d) = Ok t -> exists d', t = JDict d' /\ forall k v',
    dget keqb d' k = Some v' <->
    exists d1 k0 v0 d2 k', d = d1 ++ (k0, v0) :: d2 /\ ck k0 = Ok k' /\ keqb k k' = true /\ nc v0 = Ok v' /\
      forall k1 v1 k1', In (k1, v1) d2 -> ck k1 = Ok k1' -> keqb k k1' = false.
  Proof.
    intros d t H. rewrite nc_dict in H. destruct (conv_dict d []) as [d'|] eqn:E; cbn in H; [|discriminate]. injection H as <-.
    exists d'. split; auto. intros k v'.
    assert (G : forall r acc, conv_dict r acc = Ok d' ->
      (dget keqb d' k = Some v' <->
       (exists d1 k0 v0 d2 k', r = d1 ++ (k0, v0) :: d2 /\ ck k0 = Ok k' /\ keqb k k' = true /\ nc v0 = Ok v' /\
          forall k1 v1 k1', In (k1, v1) d2 -> ck k1 = Ok k1' -> keqb k k1' = false) \/
       (dget keqb acc k = Some v' /\ forall k1 v1 k1', In (k1, v1) r -> ck k1 = Ok k1' -> keqb k k1' = false))).
    { clear E. induction r as [|[k0 v0] r IH]; intros acc E.
      - injection E as <-. split; [intros H; right; split; auto; intros ? ? ? []|].
        intros [(d1 & k0 & v0 & d2 & k' & H & _)|[H _]]; auto. destruct d1; discriminate.
      - rewrite conv_dict_cons in E. destruct (ck k0) as [k0'|] eqn:Ek; cbn in E; [|discriminate].
        destruct (nc v0) as [v0'|] eqn:Ev; cbn in E; [|discriminate].
        rewrite (IH _ E). rewrite (dget_dset _ keqb_sym keqb_trans).
        split.
        + intros [(d1 & k1 & v1 & d2 & k' & Hr & Hrest)|[Hg Hn]].
          * left. exists ((k0, v0) :: d1), k1, v1, d2, k'. rewrite Hr. split; [reflexivity|exact Hrest].
          * destruct (keqb k k0') eqn:Ekk.
            -- injection Hg as <-. left. exists [], k0, v0, r, k0'. repeat split; auto.
            -- right. split; auto. intros k1 v1 k1' [HI|HI] Hc; [|eauto]. injection HI as <- <-. congruence.
        + intros [(d1 & k1 & v1 & d2 & k' & Hr & Hc & Hk & Hv & Hl)|[Hg Hn]].
          * destruct d1 as [|e d1]; cbn in Hr.
            -- injection Hr as -> -> ->. right. rewrite Hc in Ek. injection Ek as <-. rewrite Hk. rewrite Ev in Hv. injection Hv as <-. auto.
            -- injection Hr as _ Hr. left. exists d1, k1, v1, d2, k'. repeat split; auto.
          * right. rewrite (Hn k0 v0 k0' (or_introl eq_refl) Ek). split; auto. intros k1 v1 k1' HI. apply (Hn k1 v1 k1' (or_intror HI)). }
    rewrite (G d [] E). split; [|auto]. intros [?|[? _]]; auto. discriminate.
  Qed.

  (** ---- C70: no numeric string is left, whatever the input; converting again changes nothing ---- *)
  Lemma dset_Forall : forall (P : jkey * json -> Prop) (a : list (jkey * json)) k v,
    (forall k0 v0, keqb k k0 = true -> P (k0, v0) -> P (k, v) -> P (k0, v)) ->
    Forall P a -> P (k, v) -> Forall P (dset keqb a k v).
  Proof.
    intros P a k v Hc Ha Hv. induction Ha as [|[k0 v0] a Hx Ha IH]; cbn; [constructor; auto|].
    destruct (keqb k k0) eqn:E; constructor; eauto.
  Qed.
  Theorem C70_no_numeric_strings : forall t t', nc t = Ok t' -> numeric_free float_of t' .
  Proof.
    induction t as [| | |s|l IH|d IH] using json_induction; intros t' H;
      try (cbn in H; injection H as <-; constructor; fail).
    - cbn in H. destruct (convert_str float_of hp s) as [c|] eqn:E; cbn in H; [|discriminate]. injection H as <-.
      apply convert_str_spec in E. destruct c; [destruct E as [-> E]|]; constructor; auto.
    - rewrite nc_list in H. destruct (conv_list l) as [l'|] eqn:E; cbn in H; [|discriminate]. injection H as <-.
      constructor. revert l' E. induction l as [|x r IHr]; intros l' E.
      + injection E as <-. constructor.
      + rewrite conv_list_cons in E. inversion IH; subst.
        destruct (nc x) eqn:Ex; cbn in E; [|discriminate]. destruct (conv_list r) eqn:Er; cbn in E; [|discriminate].
        injection E as <-. constructor; auto.
    - rewrite nc_dict in H. destruct (conv_dict d []) as [d'|] eqn:E; cbn in H; [|discriminate]. injection H as <-.
      constructor. assert (A : Forall (fun e : jkey * json => (forall s, fst e = KStr s -> float_of s = None) /\ numeric_free float_of (snd e)) [])
        by constructor. revert A E. generalize (@nil (jkey * json)). induction d as [|[k v] r IHr]; intros acc A E.
      + injection E as <-. exact A.
      + rewrite conv_dict_cons in E. inversion IH; subst. destruct (ck k) as [k'|] eqn:Ek; cbn in E; [|discriminate].
        destruct (nc v) as [v'|] eqn:Ev; cbn in E; [|discriminate].
        refine (IHr H2 _ _ E). apply dset_Forall; auto.
        * cbn. intros k0 v0 _ [H _] [_ H']. auto.
        * cbn. split; [|apply H1; auto]. intros s ->. apply ck_spec in Ek. inversion Ek; subst; auto.
  Qed.
  Lemma proper_result : forall t t', nc t = Ok t' -> proper_dicts t'.
  Proof.
    induction t as [| | |s|l IH|d IH] using json_induction; intros t' H;
      try (cbn in H; injection H as <-; constructor; fail).
    - cbn in H. destruct (convert_str float_of hp s) as [c|] eqn:E; cbn in H; [|discriminate]. injection H as <-.
      destruct c; constructor.
    - rewrite nc_list in H. destruct (conv_list l) as [l'|] eqn:E; cbn in H; [|discriminate]. injection H as <-.
      constructor. revert l' E. induction l as [|x r IHr]; intros l' E.
      + injection E as <-. constructor.
      + rewrite conv_list_cons in E. inversion IH; subst.
        destruct (nc x) eqn:Ex; cbn in E; [|discriminate]. destruct (conv_list r) eqn:Er; cbn in E; [|discriminate].
        injection E as <-. constructor; auto.
    - rewrite nc_dict in H. destruct (conv_dict d []) as [d'|] eqn:E; cbn in H; [|discriminate]. injection H as <-.
      assert (A : dwf keqb (@nil (jkey * json)) /\ Forall (fun e : jkey * json => proper_dicts (snd e)) []) by (split; [exact I|constructor]).
      assert (G : dwf keqb d' /\ Forall (fun e : jkey * json => proper_dicts (snd e)) d'); [|constructor; tauto].
      revert A E. generalize (@nil (jkey * json)). induction d as [|[k v] r IHr]; intros acc A E.
      + injection E as <-. exact A.
      + rewrite conv_dict_cons in E. inversion IH; subst. destruct (ck k) as [k'|] eqn:Ek; cbn in E; [|discriminate].
        destruct (nc v) as [v'|] eqn:Ev; cbn in E; [|discriminate].
        refine (IHr H2 _ _ E). destruct A as [A1 A2]. split; [apply (dset_wf _ keqb_sym keqb_trans); auto|].
        apply dset_Forall; auto. 
  Qed.
  Lemma settled_fixed : forall t, numeric_free float_of t -> proper_dicts t -> nc t = Ok t.
  Proof.
    induction t as [| | |s|l IH|d IH] using json_induction; intros N P; try reflexivity.
    - inversion N; subst. cbn. unfold convert_str. rewrite H0. reflexivity.
    - rewrite nc_list. assert (E : conv_list l = Ok l); [|rewrite E; reflexivity].
      inversion N; subst. inversion P; subst. clear N P. induction l as [|x r IHr]; [reflexivity|].
      rewrite conv_list_cons, (Forall_inv IH (Forall_inv H0) (Forall_inv H1)), (IHr (Forall_inv_tail IH) (Forall_inv_tail H0) (Forall_inv_tail H1)).
      reflexivity.
    - rewrite nc_dict. assert (E : conv_dict d [] = Ok d); [|rewrite E; reflexivity].
      inversion N; subst. inversion P as [| | | | |d0 W Pv]; subst. clear N P.
      assert (G : forall r acc, Forall (fun e => nc (snd e) = Ok (snd e)) r ->
        Forall (fun e : jkey * json => (forall s, fst e = KStr s -> float_of s = None)) r ->
        (forall k v, In (k, v) r -> dget keqb acc k = None) -> dwf keqb r -> conv_dict r acc = Ok (acc ++ r)).
      { induction r as [|[k v] r IHr]; intros acc F1 F2 D Wr; [rewrite app_nil_r; reflexivity|].
        pose proof (Forall_inv F1) as H3. pose proof (Forall_inv F2) as H7. cbn in H3, H7. rewrite conv_dict_cons.
        apply Forall_inv_tail in F1, F2.
        assert (Ek : ck k = Ok k).
        { destruct k as [s|n]; [|reflexivity]. cbn. unfold convert_str. rewrite (H7 s eq_refl). reflexivity. }
        rewrite Ek. cbn [bind]. rewrite H3. cbn [bind]. rewrite dset_fresh by (eapply D; left; reflexivity).
        destruct Wr as [Wk Wr]. rewrite IHr; auto.
        - rewrite <- app_assoc. reflexivity.
        - intros k1 v1 I1. rewrite dget_app. rewrite (D k1 v1 (or_intror I1)). cbn.
          destruct (keqb k1 k) eqn:E; auto. exfalso. rewrite keqb_sym in E.
          revert Wk E I1. clear. induction r as [|[k2 v2] r IH]; cbn; [tauto|]. intros Wk E [I|I].
          + injection I as -> ->. rewrite E in Wk. discriminate.
          + destruct (keqb k k2); [discriminate|]. auto. }
      rewrite (G d []); auto.
      + rewrite Forall_forall in *. intros e I. apply IH; auto. apply (H0 e I).
      + rewrite Forall_forall in *. intros e I. apply (H0 e I).
  Qed.
  Theorem C70_idempotent : forall t t', nc t = Ok t' -> nc t' = Ok t'.
  Proof. intros t t' H. apply settled_fixed; [eapply C70_no_numeric_strings|eapply proper_result]; eauto. Qed.
  (** and a tree with no numeric strings is left alone *)
  Theorem C70_nothing_else : forall t, numeric_free float_of t -> proper_dicts t -> nc t = Ok t.
  Proof. exact settled_fixed. Qed.

  (** ---- C70: without a high-precision type it never fails; with one, only if that type rejects a string ---- *)
  Theorem C70_total : (forall s, float_of s <> None -> match hp with Some (h, _) => is_ok (h s) = true | None => True end) ->
    forall t, exists t', nc t = Ok t'.
  Proof.
    intros Hh. assert (S : forall s, exists c, convert_str float_of hp s = Ok c).
    { intros s. unfold convert_str. specialize (Hh s). destruct (float_of s) as [x|]; [|eauto].
      destruct (integral x); [eauto|]. destruct hp as [[h hf]|]; [|eauto].
      assert (K : is_ok (h s) = true) by (apply Hh; discriminate). destruct (h s); cbn; [eauto|discriminate]. }
    assert (Sk : forall k, exists k', ck k = Ok k').
    { intros [s|n]; [|cbn; eauto]. destruct (S s) as [c E]. cbn. rewrite E. cbn. eauto. }
    induction t as [| | |s|l IH|d IH] using json_induction; try (cbn; eauto; fail).
    - destruct (S s) as [c E]. cbn. rewrite E. cbn. eauto.
    - rewrite nc_list. assert (E : exists l', conv_list l = Ok l'); [|destruct E as [l' ->]; cbn; eauto].
      induction l as [|x r IHr]; [cbn; eauto|]. inversion IH; subst. destruct (IHr H2) as [r' Er]. destruct H1 as [y Ey].
      rewrite conv_list_cons, Ey. cbn [bind]. rewrite Er. cbn. eauto.
    - rewrite nc_dict. assert (E : forall acc, exists d', conv_dict d acc = Ok d'); [|destruct (E []) as [d' ->]; cbn; eauto].
      induction d as [|[k v] r IHr]; intros acc; [cbn; eauto|]. inversion IH; subst. destruct (Sk k) as [k' Ek].
      destruct H1 as [v' Ev]. cbn in Ev. rewrite conv_dict_cons, Ek. cbn [bind]. rewrite Ev. cbn [bind]. apply IHr; auto.
  Qed.
End Conv.

(** ---- C70: attributes ---- *)
(** a stored value is what the attribute gives *)
Theorem C70_attribute_stored : forall r d default name v,
  r_values r = JDict d -> dget keqb d (KStr name) = Some v -> attr_get r default name = Ok v.
Proof.
  intros r d default name v Hd Hv. unfold attr_get, contains, index. rewrite Hd. cbn. unfold dmem, dget_r. rewrite Hv. reflexivity.
Qed.
(** what a number in a file means.  [h] applies the high-precision function to the text as written, [hf] to
    a float *)
Inductive token_means (float_of : string -> option fl) : option ((string -> res fl) * (fl -> res fl)) -> raw -> num -> Prop :=
| TMInt hp z : token_means float_of hp (RInt z) (NInt z)
| TMFloat s x : float_of s = Some x -> token_means float_of None (RFloat s) (NFloat x)
| TMExact h hf s y : h s = Ok y -> token_means float_of (Some (h, hf)) (RFloat s) (NHigh y)
| TMVia h hf s e x y : h s = Err e -> float_of s = Some x -> hf x = Ok y -> token_means float_of (Some (h, hf)) (RFloat s) (NHigh y)
| TMInf : token_means float_of None (RConst "Infinity") (NFloat PInf)
| TMNinf : token_means float_of None (RConst "-Infinity") (NFloat NInf)
| TMInfHigh h hf y : hf PInf = Ok y -> token_means float_of (Some (h, hf)) (RConst "Infinity") (NHigh y)
| TMNinfHigh h hf y y' : hf PInf = Ok y -> (y = PInf /\ y' = NInf \/ y = NInf /\ y' = PInf \/ y = NaN /\ y' = NaN \/ exists q, y = Fin q /\ y' = Fin (- q)) ->
    token_means float_of (Some (h, hf)) (RConst "-Infinity") (NHigh y').
(** a number read from a file is the number written there, in the precision asked for; NaN is refused *)
Theorem C70_number_tokens : forall float_of hp t n, (forall l, t <> RList l) -> (forall d, t <> RDict d) ->
  (load float_of hp t = Ok (JNum n) <-> token_means float_of hp t n).
Proof.
  intros float_of hp t n NL ND. split.
  - destruct t as [|b|z|s|s|s|l|d]; intro H; cbn [load] in H; try discriminate; try (exfalso; now apply (NL l)); try (exfalso; now apply (ND d)).
    + injection H as <-. constructor.
    + unfold parse_float in H. destruct hp as [[h hf]|].
      * destruct (h s) as [y|e] eqn:Eh; cbn [bind] in H; [injection H as <-; now constructor|].
        destruct (float_of s) as [x|] eqn:Ex; [|discriminate]. destruct (hf x) as [y|] eqn:Ey; [|discriminate]. cbn in H. injection H as <-. econstructor; eassumption.
      * destruct (float_of s) as [x|] eqn:Ex; [|discriminate]. cbn in H. injection H as <-. now constructor.
    + unfold parse_constant in H. destruct hp as [[h hf]|].
      * destruct (hf PInf) as [y|] eqn:Ey; [|discriminate]. cbn [bind] in H. destruct (String.eqb_spec s "Infinity") as [->|_]; [cbn in H; injection H as <-; now constructor|].
        destruct (String.eqb_spec s "-Infinity") as [->|_]; [|discriminate]. cbn [bind] in H. injection H as <-. econstructor; [exact Ey|]. destruct y as [q| | |]; cbn [fl_neg]; eauto 8.
      * cbn [bind] in H. destruct (String.eqb_spec s "Infinity") as [->|_]; [cbn in H; injection H as <-; constructor|].
        destruct (String.eqb_spec s "-Infinity") as [->|_]; [|discriminate]. cbn [bind] in H. injection H as <-. constructor.
  - intro H. destruct H as [hp z|s x Ex|h hf s y Ey|h hf s e x y Ee Ex Ey| | |h hf y Ey|h hf y y' Ey Hy]; cbn [load]; unfold parse_float, parse_constant.
    + reflexivity.
    + rewrite Ex. reflexivity.
    + rewrite Ey. reflexivity.
    + rewrite Ee, Ex, Ey. reflexivity.
    + reflexivity.
    + reflexivity.
    + rewrite Ey. reflexivity.
    + rewrite Ey. cbn. do 3 f_equal. destruct Hy as [[-> ->]|[[-> ->]|[[-> ->]|(q & -> & ->)]]]; reflexivity.
Qed.
Print Assumptions C70_number_tokens.
(** no stored value: the default when defaults are in use and there is one, otherwise KeyError *)
Theorem C70_attribute_default : forall r d default name,
  r_values r = JDict d -> dget keqb d (KStr name) = None ->
  attr_get r default name =
    match default with Some v => if r_use_defaults r then Ok v else Err KeyError | None => Err KeyError end.
Proof.
  intros r d default name Hd Hv. unfold attr_get, contains, index. rewrite Hd. cbn. unfold dmem, dget_r. rewrite Hv. cbn.
  destruct default, (r_use_defaults r); reflexivity.
Qed.
(** a reader made without a file has nothing stored: every attribute is its default if defaults are in use *)
Theorem C70_no_file : forall float_of hp ser use_defaults numeric,
  exists r, new_reader float_of hp ser use_defaults None numeric = (Ok tt, r) /\
    forall default name, attr_get r default name =
      match default with Some v => if use_defaults then Ok v else Err KeyError | None => Err KeyError end.
Proof.
  intros float_of hp ser ud numeric. eexists. split; [reflexivity|]. intros default name.
  exact (C70_attribute_default {| r_values := JDict []; r_use_defaults := ud; r_hp := hp; r_ser := ser |} [] default name eq_refl eq_refl).
Qed.
Print Assumptions C70_no_file.
(** the file holds a text or a list rather than an object: the default still serves while the name does not occur in it
    (anywhere in the text, as an element of the list); otherwise, and without a default, TypeError *)
Lemma prefixb_spec : forall p s, prefixb p s = true <-> exists b, s = (p ++ b)%string.
Proof.
  induction p as [|c p IH]; intros s; cbn [prefixb]; [split; [intros _; exists s; reflexivity|reflexivity]|].
  destruct s as [|d s]; [split; [discriminate|intros (b & H); discriminate]|]. destruct (Ascii.eqb_spec c d) as [->|N].
  - rewrite IH. split; intros (b & H); exists b; [cbn; now rewrite <- H|cbn in H; congruence].
  - split; [discriminate|]. intros (b & H). cbn in H. congruence.
Qed.
Lemma substr_spec : forall p s, substr p s = true <-> exists a b, s = (a ++ p ++ b)%string.
Proof.
  intros p s. induction s as [|c s IH]; cbn [substr].
  - rewrite Bool.orb_true_iff, prefixb_spec. split.
    + intros [(b & H)|H]; [exists EmptyString, b; exact H|discriminate].
    + intros (a & b & H). left. exists b. destruct a; [exact H|discriminate].
  - rewrite Bool.orb_true_iff, prefixb_spec, IH. split.
    + intros [(b & H)|(a & b & H)]; [exists EmptyString, b; exact H|]. exists (String c a), b. cbn. now rewrite H.
    + intros (a & b & H). destruct a as [|e a]; [left; exists b; exact H|right]. exists a, b. cbn in H. congruence.
Qed.
Definition occurs (name : string) (v : json) : Prop :=
  match v with JStr s => exists a b, s = (a ++ name ++ b)%string | JList l => In (JStr name) l | _ => True end.
Theorem C70_not_an_object : forall r default name, (forall d, r_values r <> JDict d) ->
  (occurs name (r_values r) \/ default = None \/ r_use_defaults r = false -> attr_get r default name = Err TypeError) /\
  (~ occurs name (r_values r) -> r_use_defaults r = true -> forall v, default = Some v -> attr_get r default name = Ok v).
Proof.
  intros r default name N. unfold attr_get, contains, index.
  assert (L : forall l, existsb (fun x => match x with JStr s => String.eqb s name | _ => false end) l = true <-> In (JStr name) l).
  { intro l. rewrite existsb_exists. split.
    - intros (x & I & E). destruct x; try discriminate. apply String.eqb_eq in E. now subst.
    - intro I. exists (JStr name). split; [exact I|apply String.eqb_refl]. }
  destruct (r_values r) as [|b|n|s|l|d] eqn:E; cbn [bind occurs]; try (split; [reflexivity|tauto]).
  - pose proof (substr_spec name s) as S. destruct (substr name s); cbn [negb]; split.
    + reflexivity.
    + intros H. exfalso. apply H. now apply S.
    + intros [H|[->| ->]]; [apply S in H; discriminate|reflexivity|]. now destruct default.
    + intros _ U v ->. now rewrite U.
  - pose proof (L l) as S. destruct (existsb _ l); cbn [negb]; split.
    + reflexivity.
    + intros H. exfalso. apply H. now apply S.
    + intros [H|[->| ->]]; [apply S in H; discriminate|reflexivity|]. now destruct default.
    + intros _ U v ->. now rewrite U.
  - exfalso. now apply (N d).
Qed.
Print Assumptions C70_not_an_object.
(** assigning an attribute changes that attribute and no other *)
Theorem C70_attribute_assigned : forall r d name v r' default name',
  r_values r = JDict d -> attr_set r name v = Ok r' ->
  attr_get r' default name' = if String.eqb name' name then Ok v else attr_get r default name'.
Proof.
  intros r d name v r' default name' Hd H. unfold attr_set in H. rewrite Hd in H. injection H as <-.
  unfold attr_get, contains, index, set_values. cbn [r_values r_use_defaults]. rewrite Hd. cbn [bind]. unfold dmem, dget_r.
  rewrite (dget_dset _ keqb_sym keqb_trans). cbn. destruct (String.eqb name' name); reflexivity.
Qed.
(** after a successful read the attributes are those of the (converted) file: a name that is a numeric
    string can no longer be found, any other name gives the converted value of its last entry *)
Theorem C70_read_attribute : forall float_of r d r' name v default,
  read float_of r (Json (RDict d)) true = (Ok tt, r') -> float_of name = None ->
  (exists d1 v0 d2 v1, d = d1 ++ (name, v0) :: d2 /\ (forall v2, ~ In (name, v2) d2) /\
     load float_of (r_hp r) v0 = Ok v1 /\ numeric_convert float_of (r_hp r) v1 = Ok v) ->
  attr_get r' default name = Ok v.
Proof.
  intros float_of r d r' name v default H Hn (d1 & v0 & d2 & v1 & -> & Hlast & Hl & Hc).
  unfold read in H. destruct (clear (r_values r)) as [w|]; [|discriminate].
  destruct (load_file float_of (r_hp r) (Json (RDict (d1 ++ (name, v0) :: d2)))) as [t|] eqn:L; [|discriminate].
  unfold load_file in L.
  set (go := fix go (d : list (string * ReaderModel.raw)) (acc : list (jkey * json)) : res (list (jkey * json)) :=
                      match d with
                      | [] => Ok acc
                      | (k, v) :: r0 => let* v' := load float_of (r_hp r) v in go r0 (dset keqb acc (KStr k) v')
                      end) in L.
  assert (L' : (let* d' := go (d1 ++ (name, v0) :: d2) [] in Ok (JDict d')) = Ok t) by exact L. clear L.
  destruct (go (d1 ++ (name, v0) :: d2) []) as [d'|] eqn:G; cbn in L'; [|discriminate]. injection L' as <-.
  (* what the loaded dict holds under the name *)
  assert (Step : forall k v r0 acc, go ((k, v) :: r0) acc = let* v' := load float_of (r_hp r) v in go r0 (dset keqb acc (KStr k) v')) by reflexivity.
  assert (Keep : forall l acc, go l acc = Ok d' -> (forall v2, ~ In (name, v2) l) -> dget keqb d' (KStr name) = dget keqb acc (KStr name)).
  { clear G. induction l as [|[k x] l IH]; intros acc G N; [injection G as <-; reflexivity|].
    rewrite Step in G. destruct (load float_of (r_hp r) x) as [y|]; cbn in G; [|discriminate].
    rewrite (IH _ G). 2:{ intros v2 I. apply (N v2). right; exact I. }
    rewrite (dget_dset _ keqb_sym keqb_trans). cbn. destruct (String.eqb name k) eqn:E; auto.
    apply String.eqb_eq in E. subst k. exfalso. apply (N x). left; reflexivity. }
  assert (Look : dget keqb d' (KStr name) = Some v1).
  { revert G. generalize (@nil (jkey * json)). induction d1 as [|[k x] d1 IH]; intros acc G; cbn [app] in G; rewrite Step in G.
    - rewrite Hl in G. cbn in G. rewrite (Keep _ _ G Hlast), (dget_dset _ keqb_sym keqb_trans). cbn. rewrite String.eqb_refl. reflexivity.
    - destruct (load float_of (r_hp r) x); cbn in G; [|discriminate]. eauto. }
  destruct (numeric_convert float_of (r_hp r) (JDict d')) as [t|] eqn:C; [|discriminate].
  destruct (C70_lookup _ _ _ _ C) as (d'' & -> & Lk). injection H as <-.
  apply C70_attribute_stored with (d := d''); [reflexivity|].
  apply Lk. 
  (* the loaded dict is a proper dict of string keys, so the entry found is the only one *)
  assert (W : dwf keqb d' /\ Forall (fun e : jkey * json => exists s, fst e = KStr s) d').
  { assert (A : dwf keqb (@nil (jkey * json)) /\ Forall (fun e : jkey * json => exists s, fst e = KStr s) []) by (split; [exact I|constructor]).
    clear Look Keep Hlast C Lk. revert A G. generalize (@nil (jkey * json)). generalize (d1 ++ (name, v0) :: d2).
    induction l as [|[k x] l IH]; intros acc A G; [injection G as <-; exact A|].
    rewrite Step in G. destruct (load float_of (r_hp r) x) as [y|]; cbn in G; [|discriminate]. refine (IH _ _ G).
    destruct A as [A1 A2]. split; [apply (dset_wf _ keqb_sym keqb_trans); auto|].
    apply dset_Forall; auto; cbn; eauto. }
  destruct W as [W1 W2]. apply dget_In in Look. destruct Look as (k0 & Ek & I0).
  apply in_split in I0. destruct I0 as (a & b & ->).
  destruct k0 as [s|n]; [|discriminate]. cbn in Ek. apply String.eqb_eq in Ek. subst s.
  exists a, (KStr name), v1, b, (KStr name). 
  assert (Cn : convert_key float_of (r_hp r) (KStr name) = Ok (KStr name)) by (cbn; unfold convert_str; rewrite Hn; reflexivity).
  repeat split; auto; [cbn; apply String.eqb_refl|].
  intros k1 w1 k1' I1 C1. rewrite Forall_forall in W2. destruct (W2 (k1, w1)) as [s Es]; [apply in_or_app; right; right; exact I1|].
  cbn in Es. subst k1. cbn in C1. destruct (convert_str float_of (r_hp r) s) as [c|] eqn:Es; cbn in C1; [|discriminate].
  injection C1 as <-. apply convert_str_spec in Es. destruct c as [s'|n]; [|reflexivity]. destruct Es as [-> _].
  cbn. destruct (String.eqb name s) eqn:E; auto. apply String.eqb_eq in E. subst s. exfalso.
  clear - W1 I1. induction a as [|[k x] a IH]; cbn in W1; destruct W1 as [W1 W1']; auto.
  clear W1'. revert W1 I1. induction b as [|[k2 x2] b IH]; [cbn; tauto|]. intros W1 [I|I].
  - injection I as -> ->. cbn in W1. rewrite String.eqb_refl in W1. discriminate.
  - cbn [dget] in W1. destruct (keqb (KStr name) k2); [discriminate|]. auto.
Qed.

(** ---- refuted: two numeric keys that are equal as numbers collapse into one entry ---- *)
Theorem C70_equal_keys_lose_entries_refuted : forall float_of, float_of "1"%string = Some (Fin 1) -> float_of "1.0"%string = Some (Fin 1) ->
  numeric_convert float_of None (JDict [(KStr "1", JStr "a"); (KStr "1.0", JNull)])
  = Ok (JDict [(KNum (NInt 1), JNull)]).
Proof. intros float_of H1 H2. cbn. unfold convert_str. rewrite H1. cbn. destruct (float_of "a"%string) as [x|] eqn:Ea.
  - destruct (integral x); cbn; rewrite H2; reflexivity.
  - cbn. rewrite H2. reflexivity.
Qed.

(** ---- refuted: integers written as strings are converted through a double: 2^53+1 is never read exactly ---- *)
Theorem C70_long_integers_refuted : forall float_of hp,
  (forall q, float_of "9007199254740993"%string = Some (Fin q) -> double q) ->
  numeric_convert float_of hp (JStr "9007199254740993") <> Ok (JNum (NInt 9007199254740993)).
Proof.
  intros float_of hp D H. cbn in H. destruct (convert_str float_of hp "9007199254740993") as [c|] eqn:E; cbn in H; [|discriminate].
  apply convert_str_spec in E. destruct c as [s|n]; [discriminate|]. injection H as ->. inversion E; subst.
  destruct (D q H0) as (m & e & Hm & Hq). rewrite H1 in Hq. clear - Hm Hq.
  destruct (0 <=? e)%Z eqn:He.
  - assert (K : 9007199254740993%Z = (m * 2 ^ e)%Z) by (unfold Qeq in Hq; cbn in Hq; lia). clear Hq.
    apply Z.leb_le in He. destruct (Z.eq_dec e 0) as [->|Ne]; [cbn in *; lia|].
    replace e with (1 + (e - 1))%Z in K by lia. rewrite Z.pow_add_r in K by lia. 
    assert (Z.even 9007199254740993 = true); [|discriminate]. rewrite K. rewrite Z.mul_assoc, Z.mul_comm, Z.mul_assoc.
    rewrite (Z.even_mul _ (2 ^ 1)). apply orb_true_r.
  - apply Z.leb_gt in He. assert (P : (0 < 2 ^ (- e))%Z) by (apply Z.pow_pos_nonneg; lia).
    assert (K : inject_Z 9007199254740993 * inject_Z (2 ^ (- e)) == inject_Z m).
    { rewrite Hq. field. intros Z0. unfold Qeq in Z0. cbn in Z0. lia. }
    rewrite <- inject_Z_mult in K. pose proof (proj1 (inject_Z_injective _ _) K) as K2. 
    assert (K' : (9007199254740993 * 2 ^ (- e) = m)%Z) by exact K2. clear K K2 Hq. change (2 ^ 53)%Z with 9007199254740992%Z in Hm. generalize dependent (2 ^ (- e))%Z. intros. lia.
Qed.

(** ---- examples ---- *)
Definition demo_float (s : string) : option fl :=
  if String.eqb s "2017" then Some (Fin 2017) else if String.eqb s "0.25" then Some (Fin (1#4)) else
  if String.eqb s "inf" then Some PInf else None.
Definition demo_file : ReaderModel.raw :=
  RDict [("tax"%string, RDict [("2017"%string, RStr "0.25"); ("inf"%string, RList [RStr "x"; RBool true])]); ("name"%string, RStr "Ann")].
Example C70_sat :
  numeric_convert demo_float None (JDict [(KStr "2017", JList [JStr "0.25"; JStr "Ann"]); (KStr "inf", JNull)])
  = Ok (JDict [(KNum (NInt 2017), JList [JNum (NFloat (Fin (1#4))); JStr "Ann"]); (KNum (NFloat PInf), JNull)]) /\
  clash_free demo_float None (JDict [(KStr "2017", JList [JStr "0.25"; JStr "Ann"]); (KStr "inf", JNull)]).
Proof.
  split; [reflexivity|]. constructor.
  - intros d1 e1 d2 e2 d3 k1 k2 H H1 H2. 
    destruct d1 as [|? [|? [|? ?]]]; cbn in H; injection H; intros; subst; try discriminate.
    + destruct d2 as [|? [|? ?]]; cbn in *; try discriminate.
      * injection H. intros _ <-. inversion H1; subst; inversion H2; subst; try discriminate; auto.
        inversion H4; inversion H5; subst; cbn in *; try discriminate; try reflexivity.
        all: match goal with A : Some _ = Some _ |- _ => injection A as <- end; try reflexivity.
        all: repeat match goal with A : Some _ = Some _ |- _ => injection A as <- end.
        all: try (exfalso; match goal with A : ~ whole (Fin _) |- _ => apply A; exists 2017, 2017%Z; split; reflexivity end); reflexivity.
    + destruct d2; discriminate.
  - repeat constructor.
Qed.
Example C70_read_sat : exists r', read demo_float {| r_values := JDict []; r_use_defaults := true; r_hp := None; r_ser := None |} (Json demo_file) true = (Ok tt, r') /\
  attr_get r' None "name" = Ok (JStr "Ann").
Proof. eexists. split; [reflexivity|reflexivity]. Qed.
(** the attributes of a reader: stored, defaulted, assigned; a file that is a list; number tokens in ordinary
    and in high precision; an already converted tree *)
Definition demo_reader (v : json) (u : bool) : reader := {| r_values := v; r_use_defaults := u; r_hp := None; r_ser := None |}.
Definition demo_hp : option ((string -> res fl) * (fl -> res fl)) := Some (fun s => if String.eqb s "0.25" then Ok (Fin (1#4)) else Err ValueError, fun x => Ok x).
Example C70_sat_attributes : let r := demo_reader (JDict [(KStr "a", JNull)]) true in
  attr_get r (Some (JStr "d")) "a" = Ok JNull /\
  attr_get r (Some (JStr "d")) "b" = Ok (JStr "d") /\ attr_get r None "b" = Err KeyError /\
  attr_get (demo_reader (JDict []) false) (Some (JStr "d")) "b" = Err KeyError /\
  (exists r', attr_set r "b" (JBool true) = Ok r' /\ attr_get r' None "b" = Ok (JBool true) /\ attr_get r' None "a" = Ok JNull) /\
  occurs "a" (JList [JStr "a"]) /\ attr_get (demo_reader (JList [JStr "a"]) true) (Some JNull) "a" = Err TypeError /\
  ~ occurs "b" (JList [JStr "a"]) /\ attr_get (demo_reader (JList [JStr "a"]) true) (Some JNull) "b" = Ok JNull.
Proof.
  repeat split; try reflexivity.
  - eexists. repeat split; reflexivity.
  - cbn. auto.
  - cbn. intros [H|[]]. discriminate.
Qed.
Example C70_sat_tokens :
  token_means demo_float None (RFloat "0.25") (NFloat (Fin (1#4))) /\ token_means demo_float demo_hp (RFloat "0.25") (NHigh (Fin (1#4))) /\
  token_means demo_float demo_hp (RFloat "2017") (NHigh (Fin 2017)) /\ token_means demo_float demo_hp (RConst "-Infinity") (NHigh NInf) /\
  (forall n, ~ token_means demo_float None (RConst "NaN") n) /\
  numeric_free demo_float (JDict [(KNum (NInt 2017), JStr "Ann")]) /\ proper_dicts (JDict [(KNum (NInt 2017), JStr "Ann")]).
Proof.
  split; [apply TMFloat; reflexivity|]. split; [apply TMExact; reflexivity|].
  split; [eapply TMVia; reflexivity|]. split; [eapply TMNinfHigh; [reflexivity|auto]|].
  split; [intros n H; inversion H|]. split; [|repeat constructor].
  repeat constructor; intros; discriminate.
Qed.
Print Assumptions C70_converts_exactly.
Print Assumptions C70_lookup.
Print Assumptions C70_no_numeric_strings.
Print Assumptions C70_idempotent.
Print Assumptions C70_nothing_else.
Print Assumptions C70_total.
Print Assumptions C70_attribute_stored.
Print Assumptions C70_attribute_default.
Print Assumptions C70_attribute_assigned.
Print Assumptions C70_read_attribute.
Print Assumptions C70_equal_keys_lose_entries_refuted.
Print Assumptions C70_long_integers_refuted.
