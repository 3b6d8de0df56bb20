(** The parameters of a forecast: C69. *)
From Coq Require Import Qround.
From Verif Require Import Base BaseFacts ReaderModel ForecasterModel.

(** ---- specification ---- *)
(** the user gave this value for the parameter *)
Definition supplied (st : fstate) (name : string) (v : val) : Prop := dget String.eqb (f_attr st) name = Some v /\ v <> VNone.
Definition not_supplied (st : fstate) (name : string) : Prop := dget String.eqb (f_attr st) name = Some VNone.
Definition a_string (v : val) : Prop := exists s, v = VStr s.
(** the scenario a forecast uses: the user's, or the one built (and noted in the memo) *)
Definition scenario_in_use (st : fstate) (m : list (string * val)) (sc : val) : Prop :=
  supplied st "scenario" sc \/ not_supplied st "scenario" /\ dget String.eqb m "scenario"%string = Some sc.
(** the object a value refers to *)
Definition object (st : fstate) (v : val) (o : obj) : Prop := exists i, v = VObj i /\ nth_error (f_heap st) i = Some o.
Definition kwarg (o : obj) (k : string) : option val := dget String.eqb (ob_kw o) k.
(** one more object if the user did not supply the parameter *)
Definition one_if_absent (st : fstate) (name : string) : nat :=
  match dget String.eqb (f_attr st) name with Some VNone => 1%nat | _ => 0%nat end.

(** the setting an argument of a parameter comes from: the parameter's prefix and the argument's name,
    three names being abbreviated *)
Definition prefix_of (name : string) : option string :=
  (if String.eqb name "living_expenses_strategy" then Some "living_expenses_"
   else if String.eqb name "saving_strategy" then Some "saving_"
   else if String.eqb name "withdrawal_strategy" then Some "withdrawal_"
   else if String.eqb name "allocation_strategy" then Some "allocation_"
   else if String.eqb name "tax_treatment" then Some "tax_"
   else if String.eqb name "scenario" then Some "" else None)%string.
Definition abbreviated (k : string) : string :=
  (if String.eqb k "standard_retirement_age" then "std_retirement_age"
   else if String.eqb k "risk_transition_period" then "risk_trans_period"
   else if String.eqb k "adjust_for_retirement_plan" then "adjust_retirement"
   else if String.eqb k "tax_brackets" then "brackets" else k)%string.
Definition setting_name (name k : string) : option string :=
  match prefix_of name with Some p => Some (String.append p (abbreviated k)) | None => None end.

(** ---- machinery ---- *)
Lemma seqb_sym : forall a b, String.eqb a b = String.eqb b a. Proof. exact String.eqb_sym. Qed.
Lemma seqb_trans : forall a b c, String.eqb a b = true -> String.eqb b c = true -> String.eqb a c = true.
Proof. intros a b c A B. apply String.eqb_eq in A, B. subst. apply String.eqb_refl. Qed.

(** the dotted names of the defaults start at the settings or at the scenario, the scenario's own at the settings *)
Lemma default_tops : forall name tbl, default_values name = Some tbl ->
  Forall (fun e : string * list string => exists rest, snd e = "settings"%string :: rest \/ snd e = "scenario"%string :: rest) tbl /\
  (name = "scenario"%string -> Forall (fun e : string * list string => exists rest, snd e = "settings"%string :: rest) tbl).
Proof.
  intros name tbl H. unfold default_values, from_settings in H.
  repeat match type of H with (if String.eqb name ?x then _ else _) = _ => destruct (String.eqb name x) eqn:?Hn end;
    try discriminate; injection H as <-;
    (split; [repeat constructor; cbn; eauto|]); intros ->; try discriminate; repeat constructor; cbn; eauto.
Qed.

Section Machinery.
  Context (settings : string -> res val) (init_ok : ptype -> list val -> list (string * val) -> res unit)
    (float_of : string -> option fl) (hp : option ((string -> res fl) * (fl -> res fl))).
  Notation bld := (build settings init_ok).
  Definition getp (n : nat) (path : list string) (m : list (string * val)) (st : fstate) : res (val * list (string * val) * fstate) :=
    match path with
    | [] => Err AttributeError
    | top :: rest =>
        let* a := attr st top in
        let* (a, m, st) := match a, default_values top with VNone, Some _ => bld n st m top [] None [] | _, _ => Ok (a, m, st) end in
        let* v := members settings a rest in
        Ok (v, m, st)
    end.
  Definition fillp (n : nat) : list (string * list string) -> list (string * val) -> fstate -> res (list (string * val) * list (string * val) * fstate) :=
    fix fill tbl m st :=
      match tbl with
      | [] => Ok ([], m, st)
      | (key, path) :: r =>
          let* (v, m, st) := getp n path m st in
          let* (kw, m, st) := fill r m st in
          Ok ((key, v) :: kw, m, st)
      end.
  Definition finish (st : fstate) (m : list (string * val)) (name : string) (args : list val) (pt : option ptype) (kw : list (string * val)) :=
    let* t := match pt with
              | Some t => Ok t
              | None => match default_types name with Some t => Ok t | None => Err KeyError end
              end in
    let* kw := if high_precision_type t && negb (dmem String.eqb kw "high_precision"%string)
               then let* h := attr st "high_precision"%string in Ok (dset String.eqb kw "high_precision"%string h)
               else Ok kw in
    let* _ := construct init_ok t args kw in
    let (v, st) := alloc st {| ob_type := t; ob_args := args; ob_kw := kw |} in
    Ok (v, dset String.eqb m name v, st).
  Lemma build_S : forall n st m name args pt kw, bld (S n) st m name args pt kw =
    match dget String.eqb m name with
    | Some v => Ok (v, m, st)
    | None =>
        let* (kw, m, st) := match default_values name with
                            | Some tbl => let* (d, m, st) := fillp n tbl m st in Ok (update d kw, m, st)
                            | None => Ok (kw, m, st)
                            end in
        finish st m name args pt kw
    end.
  Proof. reflexivity. Qed.
  Lemma fillp_cons : forall n key path r m st, fillp n ((key, path) :: r) m st =
    let* (v, m, st) := getp n path m st in let* (kw, m, st) := fillp n r m st in Ok ((key, v) :: kw, m, st).
  Proof. reflexivity. Qed.

  (** memo entries stay, attributes stay, objects stay *)
  Definition grows (m : list (string * val)) (st : fstate) (m' : list (string * val)) (st' : fstate) : Prop :=
    (forall k v, dget String.eqb m k = Some v -> dget String.eqb m' k = Some v) /\
    f_attr st' = f_attr st /\ exists l, f_heap st' = f_heap st ++ l.
  Lemma grows_refl : forall m st, grows m st m st.
  Proof. intros. repeat split; auto. exists []. rewrite app_nil_r. reflexivity. Qed.
  Lemma grows_trans : forall m1 s1 m2 s2 m3 s3, grows m1 s1 m2 s2 -> grows m2 s2 m3 s3 -> grows m1 s1 m3 s3.
  Proof.
    intros m1 s1 m2 s2 m3 s3 (A & B & (l & C)) (A' & B' & (l' & C')). repeat split; auto; [congruence|].
    exists (l ++ l'). rewrite C', C, app_assoc. reflexivity.
  Qed.
  Lemma finish_spec : forall st m name args pt kw v m' st', dget String.eqb m name = None -> finish st m name args pt kw = Ok (v, m', st') ->
    grows m st m' st' /\ dget String.eqb m' name = Some v /\ v = VObj (Datatypes.length (f_heap st)) /\ m' = dset String.eqb m name v /\
    exists t kw', (match pt with Some t => Some t | None => default_types name end) = Some t /\
      f_heap st' = f_heap st ++ [{| ob_type := t; ob_args := args; ob_kw := kw' |}] /\
      construct init_ok t args kw' = Ok tt /\
      (forall k, k <> "high_precision"%string -> dget String.eqb kw' k = dget String.eqb kw k) /\
      (high_precision_type t = true ->
         dget String.eqb kw' "high_precision"%string =
           match dget String.eqb kw "high_precision"%string with
           | Some h => Some h | None => dget String.eqb (f_attr st) "high_precision"%string end) /\
      (high_precision_type t = false -> kw' = kw).
  Proof.
    unfold finish. intros st m name args pt kw v m' st' Nm H.
    assert (T : exists t, (match pt with Some t => Some t | None => default_types name end) = Some t /\
      (match pt with Some t => Ok t | None => match default_types name with Some t => Ok t | None => Err KeyError end end) = Ok t).
    { destruct pt; [eauto|]. destruct (default_types name); [eauto|discriminate]. }
    destruct T as (t & T1 & T2). rewrite T2 in H. cbn [bind] in H.
    assert (K : exists kw', (if high_precision_type t && negb (dmem String.eqb kw "high_precision"%string)
               then let* h := attr st "high_precision"%string in Ok (dset String.eqb kw "high_precision"%string h)
               else Ok kw) = Ok kw' /\
      (forall k, k <> "high_precision"%string -> dget String.eqb kw' k = dget String.eqb kw k) /\
      (high_precision_type t = true ->
         dget String.eqb kw' "high_precision"%string =
           match dget String.eqb kw "high_precision"%string with
           | Some h => Some h | None => dget String.eqb (f_attr st) "high_precision"%string end) /\
      (high_precision_type t = false -> kw' = kw)).
    { destruct (high_precision_type t); cbn [andb] in *; [|exists kw; repeat split; auto; discriminate].
      unfold dmem in *. destruct (dget String.eqb kw "high_precision"%string) as [h|] eqn:G; cbn [negb] in *.
      - exists kw. repeat split; auto; discriminate.
      - unfold attr in *. destruct (dget String.eqb (f_attr st) "high_precision"%string) as [h|] eqn:Gh; cbn [bind] in *; [|discriminate].
        eexists. split; [reflexivity|]. repeat split; try discriminate.
        + intros k N. rewrite (dget_dset _ seqb_sym seqb_trans). destruct (String.eqb k "high_precision") eqn:E; auto.
          apply String.eqb_eq in E. congruence.
        + intros _. rewrite (dget_dset _ seqb_sym seqb_trans). reflexivity. }
    destruct K as (kw' & K & K1 & K2 & K3). rewrite K in H. cbn [bind] in H.
    destruct (construct init_ok t args kw') as [[]|] eqn:C; cbn in H; [|discriminate]. injection H as <- <- <-.
    split; [|split; [|split; [reflexivity|split; [reflexivity|]]]].
    - repeat split; cbn; [|eauto]. intros k v H. rewrite (dget_dset _ seqb_sym seqb_trans).
      destruct (String.eqb k name) eqn:E; auto. apply String.eqb_eq in E. congruence.
    - rewrite (dget_dset _ seqb_sym seqb_trans), String.eqb_refl. reflexivity.
    - exists t, kw'. cbn. repeat split; auto.
  Qed.

  (** where a dotted name leads, given the final memo *)
  Definition root (st : fstate) (m : list (string * val)) (top : string) : option val :=
    match dget String.eqb (f_attr st) top, default_values top with
    | Some VNone, Some _ => dget String.eqb m top
    | r, _ => r
    end.
  Definition resolved (st : fstate) (m : list (string * val)) (path : list string) (v : val) : Prop :=
    exists top rest a, path = top :: rest /\ root st m top = Some a /\ members settings a rest = Ok v.
  Lemma resolved_grows : forall m st m' st' path v, grows m st m' st' -> resolved st m path v -> resolved st' m' path v.
  Proof.
    intros m st m' st' path v (A & B & _) (top & rest & a & -> & R & M). exists top, rest, a. repeat split; auto.
    unfold root in *. rewrite B. destruct (dget String.eqb (f_attr st) top) as [w|]; auto. destruct w, (default_values top); auto.
  Qed.

  Lemma getp_spec : forall n path m st v m' st',
    (forall top st m v m' st', bld n st m top [] None [] = Ok (v, m', st') -> grows m st m' st' /\ dget String.eqb m' top = Some v) ->
    getp n path m st = Ok (v, m', st') -> grows m st m' st' /\ resolved st m' path v.
  Proof.
    intros n path m st v m' st' IH H. unfold getp in H. destruct path as [|top rest]; [discriminate|].
    unfold attr in H. destruct (dget String.eqb (f_attr st) top) as [a|] eqn:A; cbn [bind] in H; [|discriminate].
    assert (D : (a = VNone /\ default_values top <> None) \/ (match a, default_values top with VNone, Some _ => bld n st m top [] None [] | _, _ => Ok (a, m, st) end = Ok (a, m, st) /\ forall m, root st m top = Some a)).
    { unfold root. rewrite A. destruct a; auto. destruct (default_values top); auto. left. split; congruence. }
    destruct D as [[-> D]|[E R]].
    - destruct (default_values top) as [tbl|] eqn:Ed; [|congruence].
      destruct (bld n st m top [] None []) as [[[a m1] st1]|] eqn:B; cbn [bind] in H; [|discriminate].
      destruct (IH _ _ _ _ _ _ B) as [G L]. destruct (members settings a rest) as [w|] eqn:M; cbn [bind] in H; [|discriminate].
      injection H as <- <- <-. split; auto. exists top, rest, a. repeat split; auto. unfold root. rewrite A, Ed. exact L.
    - rewrite E in H. cbn [bind] in H. destruct (members settings a rest) as [w|] eqn:M; cbn [bind] in H; [|discriminate].
      injection H as <- <- <-. split; [apply grows_refl|]. exists top, rest, a. repeat split; auto.
  Qed.
  Lemma fillp_spec : forall n tbl m st kw m' st',
    (forall top st m v m' st', bld n st m top [] None [] = Ok (v, m', st') -> grows m st m' st' /\ dget String.eqb m' top = Some v) ->
    fillp n tbl m st = Ok (kw, m', st') ->
    grows m st m' st' /\ Forall2 (fun e e' => fst e = fst e' /\ resolved st m' (snd e) (snd e')) tbl kw.
  Proof.
    intros n tbl. induction tbl as [|[key path] r IHr]; intros m st kw m' st' IH H.
    - injection H as <- <- <-. split; [apply grows_refl|constructor].
    - rewrite fillp_cons in H. destruct (getp n path m st) as [[[v m1] st1]|] eqn:E1; cbn [bind] in H; [|discriminate].
      destruct (fillp n r m1 st1) as [[[kw1 m2] st2]|] eqn:E2; cbn [bind] in H; [|discriminate]. injection H as <- <- <-.
      destruct (getp_spec _ _ _ _ _ _ _ IH E1) as [G1 R1]. destruct (IHr _ _ _ _ _ IH E2) as [G2 F2].
      split; [eapply grows_trans; eauto|]. constructor.
      + cbn. split; auto. destruct G2 as (A & B & C). 
        destruct R1 as (top & rest & a & -> & R & M). exists top, rest, a. repeat split; auto.
        unfold root in *. destruct (dget String.eqb (f_attr st) top) as [w|]; auto. destruct w, (default_values top); auto.
      + destruct G1 as (_ & B & _). clear - F2 B. induction F2 as [|e e' a b [H1 H2] F IH]; constructor; auto. split; auto.
        destruct H2 as (top & rest & x & P & R & M). exists top, rest, x. repeat split; auto. unfold root in *. rewrite B in R. exact R.
  Qed.
  Lemma update_get : forall kw d k, NoDup (map fst kw) ->
    dget String.eqb (update d kw) k = match dget String.eqb kw k with Some v => Some v | None => dget String.eqb d k end.
  Proof.
    induction kw as [|[k0 v0] kw IH]; intros d k N; [reflexivity|]. inversion N; subst. unfold update in *. cbn [fold_left fst snd].
    rewrite IH by auto. cbn [dget]. rewrite (dget_dset _ seqb_sym seqb_trans). destruct (String.eqb k k0) eqn:E; auto.
    apply String.eqb_eq in E. subst k0. assert (G : dget String.eqb kw k = None); [|rewrite G; reflexivity].
    destruct (dget String.eqb kw k) as [w|] eqn:G; auto. apply dget_In in G. destruct G as (k' & E & I).
    apply String.eqb_eq in E. subst k'. exfalso. apply H1. apply (in_map fst) in I. exact I.
  Qed.

  Lemma build_spec : forall n st m name args pt kw v m' st', bld n st m name args pt kw = Ok (v, m', st') ->
    grows m st m' st' /\ dget String.eqb m' name = Some v.
  Proof.
    induction n as [|n IH]; intros st m name args pt kw v m' st' H; [discriminate|]. rewrite build_S in H.
    destruct (dget String.eqb m name) as [w|] eqn:Em; [injection H as <- <- <-; split; auto using grows_refl|].
    destruct (default_values name) as [tbl|] eqn:Ed.
    - destruct (fillp n tbl m st) as [[[d m1] st1]|] eqn:Ef; cbn [bind] in H; [|discriminate].
      destruct (fillp_spec n tbl m st d m1 st1) as [G F]; auto; [intros; eapply IH; eauto|].
      destruct (dget String.eqb m1 name) as [w|] eqn:Em1.
      + (* the parameter appeared in the memo meanwhile: cannot be overwritten by a different one *)
        unfold finish in H. 
        destruct (match pt with Some t => Ok t | None => _ end) as [t|]; cbn [bind] in H; [|discriminate].
        destruct (if _ && _ then _ else _) as [kw2|]; cbn [bind] in H; [|discriminate].
        destruct (construct init_ok t args kw2); cbn [bind] in H; [|discriminate]. cbn in H. injection H as <- <- <-.
        split; [|rewrite (dget_dset _ seqb_sym seqb_trans), String.eqb_refl; reflexivity].
        destruct G as (A & B & (l & C)). repeat split; cbn; auto.
        * intros k x Hk. rewrite (dget_dset _ seqb_sym seqb_trans). destruct (String.eqb k name) eqn:E; auto.
          apply String.eqb_eq in E. congruence.
        * eexists. rewrite C, <- app_assoc. reflexivity.
      + destruct (finish_spec _ _ _ _ _ _ _ _ _ Em1 H) as (G2 & L & _). split; [eapply grows_trans; eauto|exact L].
    - cbn [bind] in H. destruct (finish_spec _ _ _ _ _ _ _ _ _ Em H) as (G2 & L & _). auto.
  Qed.
End Machinery.

Section Theorems.
  Context (settings : string -> res val) (init_ok : ptype -> list val -> list (string * val) -> res unit)
    (float_of : string -> option fl) (hp : option ((string -> res fl) * (fl -> res fl))).
  Notation bld := (build settings init_ok).
  Notation getpar := (get_param settings init_ok float_of hp).
  Notation runp := (run_params settings init_ok float_of hp).

  (** C69: a supplied object is what is used, as it is *)
  Theorem C69_supplied_wins : forall fuel st m name v, supplied st name v -> ~ a_string v -> getpar fuel st m name = Ok (v, m, st).
  Proof.
    intros fuel st m name v [Hv N] S. unfold get_param, attr. rewrite Hv. cbn [bind].
    destruct v; try congruence; try reflexivity. exfalso. apply S. eexists. reflexivity.
  Qed.
  (** a supplied string is used as the number it stands for, if it stands for one *)
  Theorem C69_supplied_string : forall fuel st m name s, supplied st name (VStr s) ->
    (float_of s = None -> getpar fuel st m name = Ok (VStr s, m, st)) /\
    (forall q z, float_of s = Some (Fin q) -> q == inject_Z z -> getpar fuel st m name = Ok (VNum (NInt z), m, st)) /\
    (forall q, float_of s = Some (Fin q) -> (forall z, ~ q == inject_Z z) -> hp = None ->
       getpar fuel st m name = Ok (VNum (NFloat (Fin q)), m, st)) /\
    (forall q h hf y, float_of s = Some (Fin q) -> (forall z, ~ q == inject_Z z) -> hp = Some (h, hf) -> h s = Ok y ->
       getpar fuel st m name = Ok (VNum (NHigh y), m, st)).
  Proof.
    intros fuel st m name s [Hv _].
    assert (E : getpar fuel st m name = let* v := to_number float_of hp (VStr s) in Ok (v, m, st)).
    { unfold get_param, attr. rewrite Hv. reflexivity. }
    rewrite E. unfold to_number.
    assert (NI : forall q, (forall z, ~ q == inject_Z z) -> exists z, py_int (Fin q) = Ok z /\ fl_eqb (Fin q) (Fin (inject_Z z)) = false).
    { intros q N. unfold py_int. eexists. split; [reflexivity|]. cbn [fl_eqb]. destruct (Qeq_bool q _) eqn:B; auto.
      exfalso. apply Qeq_bool_t in B. eapply N; eauto. }
    repeat split.
    - intros ->. reflexivity.
    - intros q z -> Hz. unfold py_int. cbn [bind].
      assert (Z1 : (if Qle_bool 0 q then Qfloor q else Qceiling q) = z).
      { destruct (Qle_bool 0 q); rewrite Hz; [apply Qfloor_Z|apply Qceiling_Z]. }
      rewrite Z1. cbn [fl_eqb]. assert (B : Qeq_bool q (inject_Z z) = true) by (apply Qeq_bool_iff; exact Hz). rewrite B. reflexivity.
    - intros q -> N ->. destruct (NI q N) as (z & -> & B). cbn [bind]. rewrite B. reflexivity.
    - intros q h hf y -> N -> Hh. destruct (NI q N) as (z & -> & B). cbn [bind]. rewrite B. rewrite Hh. reflexivity.
  Qed.

  (** C69: building leaves the forecaster's attributes alone, only adds objects, and never drops or
      replaces a memoised parameter; the parameter built is memoised *)
  Theorem C69_building_overwrites_nothing : forall fuel st m name args pt kw v m' st',
    bld fuel st m name args pt kw = Ok (v, m', st') ->
    f_attr st' = f_attr st /\ (exists l, f_heap st' = f_heap st ++ l) /\
    (forall k w, dget String.eqb m k = Some w -> dget String.eqb m' k = Some w) /\ dget String.eqb m' name = Some v.
  Proof. intros fuel st m name args pt kw v m' st' H. apply build_spec in H. destruct H as [(A & B & C) L]. auto. Qed.

  (** C69: what is built when there is no memoised parameter: a new object of the parameter's class, whose
      arguments are the explicit ones, then the settings' defaults *)
  Theorem C69_built_object : forall fuel st m name args kw v m' st' tbl,
    bld fuel st m name args None kw = Ok (v, m', st') -> dget String.eqb m name = None -> NoDup (map fst kw) ->
    default_values name = Some tbl ->
    (exists i, v = VObj i /\ (Datatypes.length (f_heap st) <= i)%nat) /\
    exists o, object st' v o /\ Some (ob_type o) = default_types name /\ ob_args o = args /\
      forall k, k <> "high_precision"%string -> 
        match dget String.eqb kw k with
        | Some x => kwarg o k = Some x
        | None => match dget String.eqb tbl k with
                  | Some path => exists x, kwarg o k = Some x /\ resolved settings st m' path x
                  | None => kwarg o k = None
                  end
        end.
  Proof.
    intros fuel st m name args kw v m' st' tbl H Em N Ed. destruct fuel as [|n]; [discriminate|].
    rewrite build_S, Em, Ed in H.
    destruct (fillp settings init_ok n tbl m st) as [[[d m1] st1]|] eqn:Ef; cbn [bind] in H; [|discriminate].
    destruct (fillp_spec settings init_ok n tbl m st d m1 st1) as [G F]; auto; [intros; eapply build_spec; eauto|].
    assert (Em1 : dget String.eqb m1 name = None \/ exists w, dget String.eqb m1 name = Some w) by (destruct (dget String.eqb m1 name); eauto).
    assert (Look : forall k, match dget String.eqb tbl k with
                  | Some path => exists x, dget String.eqb d k = Some x /\ resolved settings st m1 path x
                  | None => dget String.eqb d k = None end).
    { clear - F. induction F as [|[k1 p1] [k2 v2] a b [E R] F IH]; intros k; cbn; auto. cbn in E, R. subst k2.
      destruct (String.eqb k k1); [eauto|apply IH]. }
    assert (Fin : exists t kw', v = VObj (Datatypes.length (f_heap st1)) /\ default_types name = Some t /\
       f_heap st' = f_heap st1 ++ [{| ob_type := t; ob_args := args; ob_kw := kw' |}] /\ m' = dset String.eqb m1 name v /\
       forall k, k <> "high_precision"%string -> dget String.eqb kw' k = dget String.eqb (update d kw) k).
    { unfold finish in H. destruct (default_types name) as [t|]; cbn [bind] in H; [|discriminate].
      assert (K : exists kw', (if high_precision_type t && negb (dmem String.eqb (update d kw) "high_precision"%string)
               then let* h := attr st1 "high_precision"%string in Ok (dset String.eqb (update d kw) "high_precision"%string h)
               else Ok (update d kw)) = Ok kw' /\ forall k, k <> "high_precision"%string -> dget String.eqb kw' k = dget String.eqb (update d kw) k).
      { destruct (high_precision_type t && _); [|eauto]. destruct (attr st1 "high_precision"%string) as [h|]; cbn [bind] in *; [|discriminate].
        eexists. split; [reflexivity|]. intros k Nk. rewrite (dget_dset _ seqb_sym seqb_trans).
        destruct (String.eqb k "high_precision") eqn:E; auto. apply String.eqb_eq in E. congruence. }
      destruct K as (kw' & K & K1). rewrite K in H. cbn [bind] in H. destruct (construct init_ok t args kw'); cbn [bind] in H; [|discriminate].
      cbn in H. injection H as <- <- <-. exists t, kw'. cbn. repeat split; auto. }
    destruct Fin as (t & kw' & -> & Ht & Hh & Hm & Hk). destruct G as (Ga & Gb & (l & Gc)).
    assert (HA : f_attr st' = f_attr st).
    { assert (B : bld (S n) st m name args None kw = Ok (VObj (Datatypes.length (f_heap st1)), m', st')).
      { rewrite build_S, Em, Ed, Ef. exact H. }
      apply build_spec in B. apply B. }
    split. { eexists. split; [reflexivity|]. rewrite Gc, app_length. lia. }
    exists {| ob_type := t; ob_args := args; ob_kw := kw' |}. split; [|split; [cbn; congruence|split; [reflexivity|]]].
    - eexists. split; [reflexivity|]. rewrite Hh, nth_error_app2, Nat.sub_diag by lia. reflexivity.
    - intros k Nk. unfold kwarg. cbn [ob_kw]. rewrite (Hk k Nk), (update_get kw d k N).
      destruct (dget String.eqb kw k); auto. specialize (Look k). destruct (dget String.eqb tbl k) as [path|] eqn:Ep; auto.
      destruct Look as (x & L & R). exists x. split; auto.
      destruct R as (top & rest & a & P & R & M). exists top, rest, a. repeat split; auto.
      unfold root in *. destruct (dget String.eqb (f_attr st) top) as [w|]; auto. destruct w; auto. destruct (default_values top) eqn:Edt; auto.
      rewrite Hm, (dget_dset _ seqb_sym seqb_trans). destruct (String.eqb top name) eqn:E; auto.
      exfalso. apply String.eqb_eq in E. subst top. destruct (default_tops _ _ Ed) as [Ft Fn].
      assert (I : In (name :: rest) (map snd tbl)).
      { clear - Ep P. subst path. induction tbl as [|[k0 p0] tbl IH]; [discriminate|]. cbn in *. destruct (String.eqb k k0); [injection Ep as ->; auto|auto]. }
      apply in_map_iff in I. destruct I as ([k0 p0] & E0 & I). cbn in E0. subst p0.
      rewrite Forall_forall in Ft. destruct (Ft _ I) as (rest' & [E1|E1]); cbn in E1; injection E1 as E1 _; subst name.
      + discriminate.
      + rewrite Forall_forall in Fn. specialize (Fn eq_refl _ I). destruct Fn as (r2 & E2). discriminate.
  Qed.

  (** C69: each argument a default object gets that is not taken from the scenario is the setting of that
      name, under the name of the parameter *)
  Theorem C69_settings_used : forall fuel st m name v m' st' o k x, dget String.eqb (f_attr st) "settings"%string = Some VSettings ->
    bld fuel st m name [] None [] = Ok (v, m', st') -> dget String.eqb m name = None -> default_values name <> None ->
    object st' v o -> kwarg o k = Some x -> k <> "high_precision"%string -> k <> "inflation_adjust"%string ->
    exists a, setting_name name k = Some a /\ settings a = Ok x.
  Proof.
    intros fuel st m name v m' st' o k x Hset H Em Hd Ho Hk N1 N2.
    destruct (default_values name) as [tbl|] eqn:Ed; [|congruence].
    destruct (C69_built_object _ _ _ _ _ _ _ _ _ _ H Em (NoDup_nil _) Ed) as (_ & o' & Ho' & _ & _ & Hkw).
    assert (o' = o) by (destruct Ho as (i & -> & E1), Ho' as (j & E & E2); injection E as <-; congruence). subst o'.
    specialize (Hkw k N1). cbn [dget] in Hkw. destruct (dget String.eqb tbl k) as [path|] eqn:Ep; [|congruence].
    destruct Hkw as (x' & Hx & R). rewrite Hk in Hx. injection Hx as <-.
    assert (P : exists a, path = ["settings"; a]%string /\ setting_name name k = Some a).
    { clear -Ed Ep N2. unfold default_values, from_settings in Ed.
      repeat match type of Ed with (if String.eqb name ?x then _ else _) = _ => destruct (String.eqb_spec name x) as [->|?Hn] end; try discriminate;
      apply (f_equal (fun x => match x with Some y => y | None => [] end)) in Ed; cbn [map app fst snd] in Ed; subst tbl; cbn [dget] in Ep;
      repeat match type of Ep with (if String.eqb k ?x then _ else _) = _ => destruct (String.eqb_spec k x) as [->|?Hk] end; try discriminate; try congruence;
      apply (f_equal (fun x => match x with Some y => y | None => [] end)) in Ep; subst path; eexists; split; reflexivity. }
    destruct P as (a & -> & Ea). exists a. split; [exact Ea|].
    destruct R as (top & rest & w & P & R & M). injection P as <- <-. unfold root in R. rewrite Hset in R. subst w || (injection R as <-).
    cbn [members member] in M. destruct (settings a) as [u|] eqn:Eu; cbn [bind] in M; [|discriminate]. injection M as <-. reflexivity.
  Qed.
  (** C69: set_param makes the built object the parameter's value from then on, and changes no other
      parameter *)
  Theorem C69_set_param : forall fuel st m name args pt kw st', set_param settings init_ok fuel st m name args pt kw = Ok st' ->
    exists v st1 m1, bld fuel st m name args pt kw = Ok (v, m1, st1) /\
    (forall k, k <> name -> dget String.eqb (f_attr st') k = dget String.eqb (f_attr st) k) /\
    (forall w o, object st1 w o -> object st' w o) /\
    (dget String.eqb m name = None -> supplied st' name v /\ forall fuel' m2, getpar fuel' st' m2 name = Ok (v, m2, st')).
  Proof.
    intros fuel st m name args pt kw st' H. unfold set_param in H.
    destruct (bld fuel st m name args pt kw) as [[[v m1] st1]|] eqn:B; [|discriminate]. cbn [bind] in H. injection H as <-.
    exists v, st1, m1. split; [reflexivity|]. split.
    - intros k Nk. cbn [set_attr f_attr]. rewrite (dget_dset _ seqb_sym seqb_trans). destruct (String.eqb_spec k name); [congruence|].
      apply C69_building_overwrites_nothing in B. destruct B as (-> & _). reflexivity.
    - split; [intros w o Hw; exact Hw|]. intro Em. assert (Hv : exists i, v = VObj i).
      { destruct fuel as [|n]; [discriminate|]. rewrite build_S, Em in B.
        assert (F : forall kw m st, finish init_ok st m name args pt kw = Ok (v, m1, st1) -> exists i, v = VObj i).
        { intros kw0 m0 st0 F. unfold finish in F. destruct (match pt with Some t => Ok t | None => _ end) as [t|]; [|discriminate]. cbn [bind] in F.
          destruct (if high_precision_type t && _ then _ else _) as [kw1|]; [|discriminate]. cbn [bind] in F. destruct (construct init_ok t args kw1); [|discriminate]. cbn [bind] in F.
          cbn in F. injection F as <- _ _. eauto. }
        destruct (default_values name) as [tbl|].
        - destruct (fillp settings init_ok n tbl m st) as [[[d m2] st2]|]; cbn [bind] in B; [|discriminate]. eapply F. exact B.
        - eapply F. exact B. }
      destruct Hv as (i & ->). assert (Hs : supplied (set_attr st1 name (VObj i)) name (VObj i)).
      { split; [|discriminate]. cbn [set_attr f_attr]. rewrite (dget_dset _ seqb_sym seqb_trans), String.eqb_refl. reflexivity. }
      split; [exact Hs|]. intros fuel' m2. apply C69_supplied_wins; [exact Hs|]. intros (t & E). discriminate.
  Qed.

  (** C69: precision.  Every object built, except scenarios, gets the forecaster's own high_precision
      (a function or None) unless one is given explicitly. *)
  Theorem C69_high_precision : forall fuel st m name args pt kw v m' st',
    bld fuel st m name args pt kw = Ok (v, m', st') -> dget String.eqb m name = None -> NoDup (map fst kw) ->
    exists o, object st' v o /\
      kwarg o "high_precision" = match dget String.eqb kw "high_precision"%string with
                                 | Some h => Some h
                                 | None => match ob_type o with
                                           | TScenario => None
                                           | TLiving | TTransaction | TAllocation | TTax => dget String.eqb (f_attr st) "high_precision"%string
                                           end
                                 end.
  Proof.
    intros fuel st m name args pt kw v m' st' H Em N. destruct fuel as [|n]; [discriminate|].
    rewrite build_S, Em in H.
    assert (Fin : forall st1 m1 kw1, f_attr st1 = f_attr st -> dget String.eqb kw1 "high_precision"%string = dget String.eqb kw "high_precision"%string ->
      finish init_ok st1 m1 name args pt kw1 = Ok (v, m', st') ->
      exists o, object st' v o /\
      kwarg o "high_precision" = match dget String.eqb kw "high_precision"%string with
                                 | Some h => Some h
                                 | None => match ob_type o with
                                           | TScenario => None
                                           | TLiving | TTransaction | TAllocation | TTax => dget String.eqb (f_attr st) "high_precision"%string
                                           end
                                 end).
    { intros st1 m1 kw1 EA EK F. unfold finish in F.
      destruct (match pt with Some t => Ok t | None => _ end) as [t|]; cbn [bind] in F; [|discriminate].
      match type of F with bind ?X _ = _ => destruct X as [kw2|] eqn:Ek end; cbn [bind] in F; [|discriminate].
      destruct (construct init_ok t args kw2); cbn [bind] in F; [|discriminate]. cbn in F. injection F as <- <- <-.
      exists {| ob_type := t; ob_args := args; ob_kw := kw2 |}. split.
      { eexists. split; [reflexivity|]. cbn [f_heap]. rewrite nth_error_app2, Nat.sub_diag by lia. reflexivity. }
      unfold kwarg. cbn [ob_kw ob_type]. rewrite <- EK, <- EA. unfold dmem, attr in Ek.
      destruct (dget String.eqb kw1 "high_precision"%string) as [h|] eqn:G.
      - rewrite Bool.andb_false_r in Ek. injection Ek as <-. exact G.
      - cbn [negb] in Ek. rewrite Bool.andb_true_r in Ek.
        destruct t; cbn [high_precision_type] in Ek; try (injection Ek as <-; exact G);
        (destruct (dget String.eqb (f_attr st1) "high_precision"%string) as [h|] eqn:Gh; cbn [bind] in Ek; [|discriminate]; injection Ek as <-;
         rewrite (dget_dset _ seqb_sym seqb_trans); reflexivity). }
    destruct (default_values name) as [tbl|] eqn:Ed; [|cbn [bind] in H; eapply Fin; eauto].
    destruct (fillp settings init_ok n tbl m st) as [[[d m1] st1]|] eqn:Ef; cbn [bind] in H; [|discriminate].
    destruct (fillp_spec settings init_ok n tbl m st d m1 st1) as [G F]; auto; [intros; eapply build_spec; eauto|].
    apply (Fin st1 m1 (update d kw)); auto; [apply G|]. rewrite (update_get kw d _ N).
    destruct (dget String.eqb kw "high_precision"%string); auto.
    assert (No : dget String.eqb tbl "high_precision"%string = None).
    { clear - Ed. unfold default_values, from_settings in Ed.
      repeat match type of Ed with (if String.eqb name ?x then _ else _) = _ => destruct (String.eqb name x) end; try discriminate; injection Ed as <-; reflexivity. }
    clear - F No. induction F as [|[k1 p1] [k2 v2] a b [E R] F IH]; auto. cbn [fst] in E. subst k2. cbn [dget] in *.
    destruct (String.eqb "high_precision" k1); [discriminate|]. apply IH. exact No.
  Qed.

  (** ---- running a forecast ---- *)
  Lemma get_step : forall fuel st m name v m' st', getpar fuel st m name = Ok (v, m', st') ->
    (exists a, supplied st name a /\ m' = m /\ st' = st /\ to_number float_of hp a = Ok v) \/
    (not_supplied st name /\ exists w, bld fuel st m name [] None [] = Ok (w, m', st') /\ to_number float_of hp w = Ok v).
  Proof.
    unfold get_param, attr. intros fuel st m name v m' st' H.
    destruct (dget String.eqb (f_attr st) name) as [a|] eqn:A; cbn [bind] in H; [|discriminate].
    destruct (match a with VNone => _ | _ => _ end) as [[[w m1] st1]|] eqn:E; cbn [bind] in H; [|discriminate].
    destruct (to_number float_of hp w) as [u|] eqn:U; cbn [bind] in H; [|discriminate]. injection H as <- <- <-.
    destruct a; try (left; injection E as <- <- <-; eexists; split; [split; [exact A|discriminate]|auto]; fail).
    right. split; auto. eauto.
  Qed.
  Lemma settings_only : forall n tbl m st kw m' st', Forall (fun e : string * list string => exists rest, snd e = "settings"%string :: rest) tbl ->
    fillp settings init_ok n tbl m st = Ok (kw, m', st') -> m' = m /\ st' = st.
  Proof.
    induction tbl as [|[key path] r IH]; intros m st kw m' st' F H; [injection H as <- <- <-; auto|].
    rewrite fillp_cons in H. destruct (Forall_inv F) as [rest P]. cbn in P. subst path. unfold getp in H.
    change (default_values "settings") with (@None (list (string * list string))) in H.
    destruct (attr st "settings") as [a|]; cbn [bind] in H; [|discriminate].
    assert (E : match a with VNone => Ok (a, m, st) | _ => Ok (a, m, st) end = Ok (a, m, st)) by (destruct a; reflexivity).
    rewrite E in H. cbn [bind] in H. clear E.
    destruct (members settings a rest); cbn [bind] in H; [|discriminate].
    destruct (fillp settings init_ok n r m st) as [[[k1 m1] s1]|] eqn:Ef; cbn [bind] in H; [|discriminate]. injection H as <- <- <-.
    eapply IH; eauto using Forall_inv_tail.
  Qed.
  (** building one parameter memoises that parameter and possibly the scenario *)
  Lemma scenario_build : forall n st m args pt kw v m' st', bld n st m "scenario" args pt kw = Ok (v, m', st') ->
    dget String.eqb m "scenario"%string = None ->
    v = VObj (Datatypes.length (f_heap st)) /\ m' = dset String.eqb m "scenario"%string v /\ exists o, f_heap st' = f_heap st ++ [o].
  Proof.
    intros n st m args pt kw v m' st' H Em. destruct n as [|n]; [discriminate|]. rewrite build_S, Em in H.
    destruct (default_values "scenario") as [tbl|] eqn:Ed; [|discriminate].
    destruct (fillp settings init_ok n tbl m st) as [[[d m1] st1]|] eqn:Ef; cbn [bind] in H; [|discriminate].
    destruct (default_tops _ _ Ed) as [_ Fn]. destruct (settings_only _ _ _ _ _ _ _ (Fn eq_refl) Ef) as [-> ->].
    destruct (finish_spec init_ok _ _ _ _ _ _ _ _ _ Em H) as (_ & _ & -> & -> & t & kw' & _ & Hh & _). rewrite Hh. eauto.
  Qed.
  Lemma fill_keys : forall n tbl m st kw m' st', Forall (fun e : string * list string => exists rest, snd e = "settings"%string :: rest \/ snd e = "scenario"%string :: rest) tbl ->
    fillp settings init_ok n tbl m st = Ok (kw, m', st') ->
    (forall k, k <> "scenario"%string -> dget String.eqb m' k = dget String.eqb m k) /\
    (dget String.eqb m "scenario"%string <> None \/ ~ not_supplied st "scenario" -> m' = m /\ st' = st).
  Proof.
    induction tbl as [|[key path] r IH]; intros m st kw m' st' F H; [injection H as <- <- <-; auto|].
    rewrite fillp_cons in H. destruct (getp settings init_ok n path m st) as [[[v m1] st1]|] eqn:Eg; cbn [bind] in H; [|discriminate].
    destruct (fillp settings init_ok n r m1 st1) as [[[k1 m2] s2]|] eqn:Ef; cbn [bind] in H; [|discriminate]. injection H as <- <- <-.
    destruct (IH _ _ _ _ _ (Forall_inv_tail F) Ef) as [K2 S2].
    assert (K1 : (forall k, k <> "scenario"%string -> dget String.eqb m1 k = dget String.eqb m k) /\
      (dget String.eqb m "scenario"%string <> None \/ ~ not_supplied st "scenario" -> m1 = m /\ st1 = st)).
    { unfold getp in Eg. destruct (Forall_inv F) as [rest [P|P]]; cbn in P; subst path.
      - change (default_values "settings") with (@None (list (string * list string))) in Eg.
        destruct (attr st "settings") as [a|]; cbn [bind] in Eg; [|discriminate].
        assert (E : match a with VNone => Ok (a, m, st) | _ => Ok (a, m, st) end = Ok (a, m, st)) by (destruct a; reflexivity).
        rewrite E in Eg. cbn [bind] in Eg. destruct (members settings a rest); cbn [bind] in Eg; [|discriminate]. injection Eg as <- <- <-. auto.
      - unfold attr in Eg. destruct (dget String.eqb (f_attr st) "scenario"%string) as [a|] eqn:A; cbn [bind] in Eg; [|discriminate].
        destruct (default_values "scenario") as [tb|] eqn:Ed; [|discriminate].
        assert (D : a = VNone \/ match a with VNone => bld n st m "scenario" [] None [] | _ => Ok (a, m, st) end = Ok (a, m, st)).
        { destruct a; auto. }
        destruct D as [->|E].
        + destruct (bld n st m "scenario" [] None []) as [[[w mw] sw]|] eqn:B; cbn [bind] in Eg; [|discriminate].
          destruct (members settings w rest); cbn [bind] in Eg; [|discriminate]. injection Eg as <- <- <-.
          destruct (dget String.eqb m "scenario"%string) as [x|] eqn:Em.
          * destruct n as [|n]; [discriminate|]. rewrite build_S, Em in B. injection B as <- <- <-. auto.
          * destruct (scenario_build _ _ _ _ _ _ _ _ _ B Em) as (-> & -> & _). split.
            -- intros k Nk. rewrite (dget_dset _ seqb_sym seqb_trans). destruct (String.eqb k "scenario") eqn:E; auto. apply String.eqb_eq in E. congruence.
            -- intros [C|C]; [congruence|]. exfalso. apply C. exact A.
        + rewrite E in Eg. cbn [bind] in Eg. destruct (members settings a rest); cbn [bind] in Eg; [|discriminate]. injection Eg as <- <- <-. auto. }
    destruct K1 as [K1 S1]. split.
    - intros k Nk. rewrite K2, K1; auto.
    - intros C. destruct (S1 C) as [-> ->]. apply S2. exact C.
  Qed.
  Lemma build_keys : forall n st m name kw v m' st', bld n st m name [] None kw = Ok (v, m', st') ->
    dget String.eqb m name = None -> default_values name <> None ->
    (forall k, k <> name -> k <> "scenario"%string -> dget String.eqb m' k = dget String.eqb m k) /\
    (dget String.eqb m "scenario"%string <> None \/ ~ not_supplied st "scenario" -> exists o, f_heap st' = f_heap st ++ [o]).
  Proof.
    intros n st m name kw v m' st' H Em Dn. destruct n as [|n]; [discriminate|]. rewrite build_S, Em in H.
    destruct (default_values name) as [tbl|] eqn:Ed; [|congruence].
    destruct (fillp settings init_ok n tbl m st) as [[[d m1] st1]|] eqn:Ef; cbn [bind] in H; [|discriminate].
    destruct (default_tops _ _ Ed) as [Ft Fn]. destruct (fill_keys _ _ _ _ _ _ _ Ft Ef) as [K S].
    assert (Em1 : dget String.eqb m1 name = None).
    { destruct (String.eqb name "scenario") eqn:E.
      - apply String.eqb_eq in E. destruct (settings_only _ _ _ _ _ _ _ (Fn E) Ef) as [-> _]. exact Em.
      - rewrite K; auto. intros ->. discriminate. }
    destruct (finish_spec init_ok _ _ _ _ _ _ _ _ _ Em1 H) as (_ & _ & -> & -> & t & kw' & _ & Hh & _). split.
    - intros k N1 N2. rewrite (dget_dset _ seqb_sym seqb_trans). destruct (String.eqb k name) eqn:E; [apply String.eqb_eq in E; congruence|]. auto.
    - intros C. destruct (S C) as [-> ->]. rewrite Hh. eauto.
  Qed.

  (** one get_param of a parameter other than the scenario, when the scenario is settled *)
  Definition settled (st : fstate) (m : list (string * val)) : Prop := dget String.eqb m "scenario"%string <> None \/ ~ not_supplied st "scenario".
  Lemma get_other : forall fuel st m name v m' st', getpar fuel st m name = Ok (v, m', st') ->
    default_values name <> None -> name <> "scenario"%string -> dget String.eqb m name = None -> settled st m ->
    f_attr st' = f_attr st /\ settled st' m' /\ dget String.eqb m' "scenario"%string = dget String.eqb m "scenario"%string /\
    (forall k, k <> name -> dget String.eqb m' k = dget String.eqb m k) /\
    (exists l, f_heap st' = f_heap st ++ l /\ Datatypes.length l = one_if_absent st name) /\
    ((exists a, supplied st name a /\ to_number float_of hp a = Ok v) \/
     (not_supplied st name /\ exists o, object st' v o /\ Some (ob_type o) = default_types name /\ ob_args o = [] /\
        forall k path, (exists tbl, default_values name = Some tbl /\ dget String.eqb tbl k = Some path) -> k <> "high_precision"%string ->
          exists x, kwarg o k = Some x /\ resolved settings st m' path x)).
  Proof.
    intros fuel st m name v m' st' H Dn Ns Em S. apply get_step in H.
    destruct H as [(a & Sa & -> & -> & Ha)|(Sn & w & B & Hw)].
    - repeat (split; auto). 2:{ left; eauto. } exists []. rewrite app_nil_r. split; auto. unfold one_if_absent. destruct Sa as [-> N]. destruct a; auto. congruence.
    - destruct (build_keys _ _ _ _ _ _ _ _ B Em Dn) as [K L]. destruct (build_spec _ _ _ _ _ _ _ _ _ _ _ _ B) as [(G1 & G2 & G3) Lk].
      destruct (L S) as [o Ho].
      assert (Ksc : dget String.eqb m' "scenario"%string = dget String.eqb m "scenario"%string).
      { destruct (dget String.eqb m "scenario"%string) as [x|] eqn:E; [apply G1; auto|].
        destruct fuel as [|n]; [discriminate|]. rewrite build_S, Em in B. destruct (default_values name) as [tbl|] eqn:Ed; [|congruence].
        destruct (fillp settings init_ok n tbl m st) as [[[d m1] st1]|] eqn:Ef; cbn [bind] in B; [|discriminate].
        destruct (default_tops _ _ Ed) as [Ft Fn]. destruct (fill_keys _ _ _ _ _ _ _ Ft Ef) as [K1 S1]. destruct (S1 S) as [-> ->].
        destruct (finish_spec init_ok _ _ _ _ _ _ _ _ _ Em B) as (_ & _ & _ & -> & _). rewrite (dget_dset _ seqb_sym seqb_trans).
        destruct (String.eqb "scenario" name) eqn:En; auto. apply String.eqb_eq in En. congruence. }
      destruct (default_values name) as [tbl|] eqn:Ed; [|congruence].
      destruct (C69_built_object _ _ _ _ _ _ _ _ _ _ B Em (NoDup_nil _) Ed) as ((i & -> & Hi) & o' & Ho' & Ht & Ha & Hk).
      cbn in Hw. injection Hw as <-.
      split; [auto|]. split. { unfold settled, not_supplied in *. rewrite G2, Ksc. exact S. }
      split; [auto|]. split. { intros k Nk. destruct (String.eqb k "scenario") eqn:E; [apply String.eqb_eq in E; subst; auto|]. apply K; auto. intros ->; discriminate. }
      split. { exists [o]. split; auto. unfold one_if_absent. unfold not_supplied in Sn. rewrite Sn. reflexivity. }
      right. split; auto. exists o'. repeat split; auto. intros k path (tbl' & E1 & E2) Nk. injection E1 as <-. specialize (Hk k Nk). cbn in Hk.
      rewrite E2 in Hk. exact Hk.
  Qed.
  Lemma get_scenario : forall fuel st v m' st', getpar fuel st [] "scenario" = Ok (v, m', st') ->
    f_attr st' = f_attr st /\ settled st' m' /\ (forall k, k <> "scenario"%string -> dget String.eqb m' k = None) /\
    (exists l, f_heap st' = f_heap st ++ l /\ Datatypes.length l = one_if_absent st "scenario") /\
    ((exists a, supplied st "scenario" a /\ to_number float_of hp a = Ok v /\ m' = []) \/
     (not_supplied st "scenario" /\ dget String.eqb m' "scenario"%string = Some v /\
      exists o, object st' v o /\ ob_type o = TScenario)).
  Proof.
    intros fuel st v m' st' H. apply get_step in H. destruct H as [(a & Sa & -> & -> & Ha)|(Sn & w & B & Hw)].
    - split; [reflexivity|]. split. { right. unfold not_supplied. destruct Sa as [Sa Na]. rewrite Sa. congruence. }
      split; [reflexivity|]. split; [|left; eauto]. exists []. rewrite app_nil_r. split; auto. unfold one_if_absent. destruct Sa as [-> N]. destruct a; auto. congruence.
    - destruct (scenario_build _ _ _ _ _ _ _ _ _ B eq_refl) as (-> & -> & o & Ho). cbn in Hw. injection Hw as <-.
      destruct (build_spec _ _ _ _ _ _ _ _ _ _ _ _ B) as [(G1 & G2 & G3) Lk].
      destruct (default_values "scenario") as [tbl|] eqn:Ed; [|discriminate].
      destruct (C69_built_object _ _ _ _ _ _ _ _ _ _ B eq_refl (NoDup_nil _) Ed) as ((i & Ei & Hi) & o' & Ho' & Ht & Ha & Hk).
      split; [auto|]. split. { left. cbn. discriminate. }
      split. { intros k Nk. cbn. destruct (String.eqb k "scenario") eqn:E; auto. apply String.eqb_eq in E. congruence. }
      split. { exists [o]. split; auto. unfold one_if_absent. unfold not_supplied in Sn. rewrite Sn. reflexivity. }
      right. repeat split; auto. exists o'. split; auto. change (default_types "scenario") with (Some TScenario) in Ht. congruence.
  Qed.

  (** C69: in one forecast everything shares one scenario: the user's, or a single one built for it *)
  Definition uses_scenario (st st' : fstate) (name : string) (v sc : val) : Prop :=
    (exists a, supplied st name a /\ to_number float_of hp a = Ok v) \/
    (not_supplied st name /\ exists o, object st' v o /\ Some (ob_type o) = default_types name /\
       kwarg o "inflation_adjust" = Some (VAttr sc "inflation_adjust")).
  Lemma object_later : forall st st' l v o, object st v o -> f_heap st' = f_heap st ++ l -> object st' v o.
  Proof. intros st st' l v o (i & -> & H) E. exists i. split; auto. rewrite E. rewrite nth_error_app1; auto. apply nth_error_Some. congruence. Qed.

  Theorem C69_one_scenario : forall fuel st p st', runp fuel st = Ok (p, st') -> ~ supplied st "scenario" VSettings ->
    (supplied st "scenario" (p_scenario p) \/
     not_supplied st "scenario" /\ exists o, object st' (p_scenario p) o /\ ob_type o = TScenario) /\
    uses_scenario st st' "living_expenses_strategy" (p_living p) (p_scenario p) /\
    uses_scenario st st' "tax_treatment" (p_tax p) (p_scenario p) /\
    f_attr st' = f_attr st /\
    exists l, f_heap st' = f_heap st ++ l /\
      Datatypes.length l = (one_if_absent st "scenario" + one_if_absent st "living_expenses_strategy" + one_if_absent st "saving_strategy"
        + one_if_absent st "withdrawal_strategy" + one_if_absent st "tax_treatment")%nat.
  Proof.
    intros fuel st p st' H NS. unfold run_params in H.
    destruct (getpar fuel st [] "scenario") as [[[sc m0] s0]|] eqn:E0; cbn [bind] in H; [|discriminate].
    destruct (member settings sc "initial_year") as [y|] eqn:Ey; cbn [bind] in H; [|discriminate].
    destruct (getpar fuel s0 m0 "living_expenses_strategy") as [[[li m1] s1]|] eqn:E1; cbn [bind] in H; [|discriminate].
    destruct (getpar fuel s1 m1 "saving_strategy") as [[[sa m2] s2]|] eqn:E2; cbn [bind] in H; [|discriminate].
    destruct (getpar fuel s2 m2 "withdrawal_strategy") as [[[wi m3] s3]|] eqn:E3; cbn [bind] in H; [|discriminate].
    destruct (getpar fuel s3 m3 "tax_treatment") as [[[ta m4] s4]|] eqn:E4; cbn [bind] in H; [|discriminate].
    injection H as <- <-. cbn [p_scenario p_living p_tax].
    destruct (get_scenario _ _ _ _ _ E0) as (A0 & S0 & K0 & (l0 & H0 & L0) & C0).
    destruct (get_other _ _ _ _ _ _ _ E1) as (A1 & S1 & Q1 & K1 & (l1 & H1 & L1) & C1); [discriminate|discriminate|apply K0; discriminate|exact S0|].
    destruct (get_other _ _ _ _ _ _ _ E2) as (A2 & S2 & Q2 & K2 & (l2 & H2 & L2) & C2); [discriminate|discriminate|rewrite K1, K0; [reflexivity|discriminate|discriminate]|exact S1|].
    destruct (get_other _ _ _ _ _ _ _ E3) as (A3 & S3 & Q3 & K3 & (l3 & H3 & L3) & C3); [discriminate|discriminate|rewrite K2, K1, K0; [reflexivity|discriminate|discriminate|discriminate]|exact S2|].
    destruct (get_other _ _ _ _ _ _ _ E4) as (A4 & S4 & Q4 & K4 & (l4 & H4 & L4) & C4); [discriminate|discriminate|rewrite K3, K2, K1, K0; [reflexivity|discriminate|discriminate|discriminate|discriminate]|exact S3|].
    assert (T0 : f_attr s4 = f_attr st) by congruence.
    assert (T1 : forall a, supplied st "scenario" a -> to_number float_of hp a = Ok sc -> a = sc).
    { intros a Sa Ha. destruct a; cbn in Ha; try (injection Ha as <-; reflexivity). exfalso.
      destruct (float_of s) as [x|]; [|injection Ha as <-; discriminate]. destruct (py_int x) as [z|]; cbn [bind] in Ha; [|discriminate].
      destruct (fl_eqb x (Fin (inject_Z z))); [injection Ha as <-; discriminate|].
      destruct hp as [[h hf]|]; [|injection Ha as <-; discriminate].
      destruct (h s); [injection Ha as <-; discriminate|]. destruct (hf x); cbn [bind] in Ha; [|discriminate]. injection Ha as <-. discriminate. }
    assert (Root : forall s m, f_attr s = f_attr st -> dget String.eqb m "scenario"%string = dget String.eqb m0 "scenario"%string ->
      root s m "scenario" = Some sc).
    { intros s m As Ms. unfold root. rewrite As, Ms. change (default_values "scenario") with (default_values "scenario").
      destruct C0 as [(a & Sa & Ha & Em)|(Sn & Em & _)].
      - rewrite <- (T1 a Sa Ha). destruct Sa as [-> N]. destruct a; try reflexivity. congruence.
      - unfold not_supplied in Sn. rewrite Sn. cbn. exact Em. }
    assert (Infl : forall s m v, f_attr s = f_attr st -> dget String.eqb m "scenario"%string = dget String.eqb m0 "scenario"%string ->
      resolved settings s m ["scenario"; "inflation_adjust"]%string v -> v = VAttr sc "inflation_adjust").
    { intros s m v As Ms (top & rest & a & P & R & M). injection P as <- <-. rewrite (Root s m As Ms) in R. injection R as <-.
      cbn in M. destruct (member settings sc "inflation_adjust") as [w|] eqn:Em; cbn in M; [|discriminate]. injection M as <-.
      destruct C0 as [(a & Sa & Ha & Em0)|(Sn & Em0 & o & (i & -> & _) & _)]; [|cbn in Em; injection Em as <-; reflexivity].
      pose proof (T1 a Sa Ha) as ->. destruct sc; cbn in Ey, Em; try discriminate; try (injection Em as <-; reflexivity).
      exfalso. apply NS. exact Sa. }
    split; [|split; [|split; [|split]]]; auto.
    - destruct C0 as [(a & Sa & Ha & Em)|(Sn & Em & o & Ho & Ht)]; [left; rewrite <- (T1 a Sa Ha); exact Sa|].
      right. split; auto. exists o. split; auto. eapply object_later; [eapply object_later; [eapply object_later; [eapply object_later; [exact Ho|exact H1]|exact H2]|exact H3]|exact H4].
    - unfold uses_scenario. destruct C1 as [(a & Sa & Ha)|(Sn & o & Ho & Ht & _ & Hk)].
      + left. exists a. unfold supplied in *. rewrite A0 in Sa. auto.
      + right. unfold not_supplied in *. rewrite A0 in Sn. split; auto. exists o. split; [|split; auto].
        * eapply object_later; [eapply object_later; [eapply object_later; [exact Ho|exact H2]|exact H3]|exact H4].
        * destruct (Hk "inflation_adjust"%string ["scenario"; "inflation_adjust"]%string) as (x & Hx & Rx); [eexists; split; reflexivity|discriminate|].
          rewrite Hx. f_equal. eapply Infl; [| |exact Rx]; [congruence|congruence].
    - unfold uses_scenario. destruct C4 as [(a & Sa & Ha)|(Sn & o & Ho & Ht & _ & Hk)].
      + left. exists a. unfold supplied in *. replace (f_attr st) with (f_attr s3) by congruence. auto.
      + right. unfold not_supplied in *. replace (f_attr st) with (f_attr s3) by congruence. split; auto. exists o. split; [exact Ho|split; auto].
        destruct (Hk "inflation_adjust"%string ["scenario"; "inflation_adjust"]%string) as (x & Hx & Rx); [eexists; split; reflexivity|discriminate|].
        rewrite Hx. f_equal. eapply Infl; [| |exact Rx]; [congruence|congruence].
    - exists (l0 ++ l1 ++ l2 ++ l3 ++ l4). split; [rewrite H4, H3, H2, H1, H0, <- !app_assoc; reflexivity|].
      rewrite !app_length, L0, L1, L2, L3, L4. unfold one_if_absent. rewrite A3, A2, A1, A0. lia.
  Qed.

  (** C69: with a complete settings object every default can be passed to its class: only the class's own
      checks of the values can reject it *)
  Theorem C69_defaults_fit : forall n st name,
    (forall a, exists v, settings a = Ok v) -> (forall t args kw, init_ok t args kw = Ok tt) ->
    dget String.eqb (f_attr st) "settings"%string = Some VSettings ->
    (exists h, dget String.eqb (f_attr st) "high_precision"%string = Some h) ->
    not_supplied st "scenario" \/ (exists k, supplied st "scenario" (VUser k)) ->
    In name ["scenario"; "living_expenses_strategy"; "saving_strategy"; "withdrawal_strategy"; "allocation_strategy"; "tax_treatment"]%string ->
    exists v m' st', bld (S (S n)) st [] name [] None [] = Ok (v, m', st').
  Proof.
    intros n st name Hs Hi As Ah Sc I. destruct Ah as [h Ah].
    assert (G : forall k a m st1, f_attr st1 = f_attr st ->
       exists v, getp settings init_ok k ["settings"; a]%string m st1 = Ok (v, m, st1)).
    { intros k a m st1 E1. destruct (Hs a) as [v Hv]. exists v. unfold getp, attr. rewrite E1, As. cbn. rewrite Hv. reflexivity. }
    assert (G2 : forall k a m st1 v, f_attr st1 = f_attr st -> settings a = Ok v -> getp settings init_ok k ["settings"; a]%string m st1 = Ok (v, m, st1)).
    { intros k a m st1 v E1 Hv. unfold getp, attr. rewrite E1, As. cbn. rewrite Hv. reflexivity. }
    assert (Fill : forall k tbl m st1, f_attr st1 = f_attr st -> Forall (fun e : string * list string => exists a, snd e = ["settings"; a]%string) tbl ->
       exists kw, fillp settings init_ok k tbl m st1 = Ok (kw, m, st1) /\ map fst kw = map fst tbl).
    { intros k tbl m st1 E1 F. induction tbl as [|[key path] r IH]; [exists []; auto|]. destruct (Forall_inv F) as [a P]. cbn in P. subst path.
      destruct (IH (Forall_inv_tail F)) as (kw & E & M). destruct (G k a m st1 E1) as (v & Eg). exists ((key, v) :: kw).
      rewrite fillp_cons, Eg. cbn [bind]. rewrite E. cbn. rewrite M. auto. }
    assert (HP : forall st1, f_attr st1 = f_attr st -> attr st1 "high_precision" = Ok h) by (intros st1 E1; unfold attr; rewrite E1, Ah; reflexivity).
    assert (Smem : forall (kw : list (string * val)) k, dmem String.eqb kw k = smem k (map fst kw)).
    { intros kw k. unfold dmem, smem. induction kw as [|[k0 v0] kw IH]; cbn; auto. destruct (String.eqb k k0); auto. }
    assert (Keys : forall (kw : list (string * val)) k v, smem k (map fst kw) = false -> map fst (dset String.eqb kw k v) = map fst kw ++ [k]).
    { intros kw k v. unfold smem. induction kw as [|[k0 v0] kw IH]; cbn; auto. destruct (String.eqb k k0); [discriminate|]. intros Hk. cbn. rewrite IH; auto. }
    assert (FinOk : forall t st1 m nm d, f_attr st1 = f_attr st -> default_types nm = Some t ->
       smem "high_precision"%string (map fst d) = false ->
       call_ok t [] (map (fun k => (k, VNone)) (map fst d ++ if high_precision_type t then ["high_precision"%string] else [])) = true ->
       exists v m' st', finish init_ok st1 m nm [] None d = Ok (v, m', st')).
    { intros t st1 m nm d E1 Ht Hk C. unfold finish. rewrite Ht. cbn [bind]. rewrite Smem, Hk. cbn [negb andb]. rewrite andb_true_r.
      assert (CK : forall kw, map fst kw = map fst d ++ (if high_precision_type t then ["high_precision"%string] else []) -> construct init_ok t [] kw = Ok tt).
      { intros kw Mk. unfold construct. replace (call_ok t [] kw) with true; [apply Hi|]. rewrite <- C. unfold call_ok, dkeys. rewrite Mk, map_map, map_id. reflexivity. }
      destruct (high_precision_type t).
      - rewrite (HP st1 E1). cbn [bind]. rewrite CK; [cbn; eauto|]. apply Keys. exact Hk.
      - cbn [bind]. rewrite CK; [cbn; eauto|]. rewrite app_nil_r. reflexivity. }
    assert (Plain : forall k nm tbl t st1 m, f_attr st1 = f_attr st -> default_values nm = Some tbl -> default_types nm = Some t -> dget String.eqb m nm = None ->
       Forall (fun e : string * list string => exists a, snd e = ["settings"; a]%string) tbl ->
       smem "high_precision"%string (map fst tbl) = false ->
       call_ok t [] (map (fun k => (k, VNone)) (map fst tbl ++ if high_precision_type t then ["high_precision"%string] else [])) = true ->
       exists v m' st', bld (S k) st1 m nm [] None [] = Ok (v, m', st')).
    { intros k nm tbl t st1 m E1 Ed Ht Em F Hk C. rewrite build_S, Em, Ed. destruct (Fill k tbl m st1 E1 F) as (kw & Ef & Mk). rewrite Ef. cbn [bind].
      unfold update. cbn [fold_left]. apply (FinOk t); auto; rewrite Mk; auto. }
    assert (Scen : forall m, dget String.eqb m "scenario"%string = None -> exists v m' st', bld (S n) st m "scenario" [] None [] = Ok (v, m', st')).
    { intros m Em. eapply (Plain n "scenario"%string _ TScenario); [reflexivity|reflexivity|reflexivity|exact Em|repeat constructor; cbn; eauto|reflexivity|reflexivity]. }
    assert (Infl : forall m, dget String.eqb m "scenario"%string = None -> exists v m' st', getp settings init_ok (S n) ["scenario"; "inflation_adjust"]%string m st = Ok (v, m', st') /\ f_attr st' = f_attr st).
    { intros m Em. unfold getp, attr. destruct Sc as [Sn|[k [Sk _]]].
      - unfold not_supplied in Sn. rewrite Sn. cbn [bind]. change (default_values "scenario") with (Some (from_settings [("initial_year", "initial_year"); ("inflation", "inflation"); ("stock_return", "stock_return");
       ("bond_return", "bond_return"); ("other_return", "other_return"); ("management_fees", "management_fees"); ("num_years", "num_years")]%string)).
        destruct (Scen m Em) as (v & m' & st' & B). cbv beta iota. rewrite B. cbn [bind].
        destruct (scenario_build _ _ _ _ _ _ _ _ _ B Em) as (-> & _ & _). cbn.
        destruct (build_spec _ _ _ _ _ _ _ _ _ _ _ _ B) as [(_ & E & _) _]. eauto 6.
      - rewrite Sk. cbn. eauto 6. }
    cbn [In] in I. destruct I as [<-|[<-|[<-|[<-|[<-|[<-|[]]]]]]].
    - eapply (Plain (S n) "scenario"%string _ TScenario); [reflexivity|reflexivity|reflexivity|reflexivity|repeat constructor; cbn; eauto|reflexivity|reflexivity].
    - rewrite build_S. cbn [dget]. 
      change (default_values "living_expenses_strategy") with (Some (from_settings [("strategy", "living_expenses_strategy"); ("base_amount", "living_expenses_base_amount");
       ("rate", "living_expenses_rate")]%string ++ [("inflation_adjust", ["scenario"; "inflation_adjust"])]%string)). cbv beta iota.
      destruct (Hs "living_expenses_strategy"%string) as [v1 V1]. destruct (Hs "living_expenses_base_amount"%string) as [v2 V2].
      destruct (Hs "living_expenses_rate"%string) as [v3 V3]. destruct (Infl [] eq_refl) as (v4 & m4 & st4 & E4 & A4).
      unfold from_settings. cbn [map app fst snd].
      rewrite fillp_cons, (G2 _ _ _ _ v1 eq_refl V1). cbn [bind]. rewrite fillp_cons, (G2 _ _ _ _ v2 eq_refl V2). cbn [bind].
      rewrite fillp_cons, (G2 _ _ _ _ v3 eq_refl V3). cbn [bind]. rewrite fillp_cons, E4. cbn [bind fillp].
      apply (FinOk TLiving); auto.
    - eapply (Plain (S n) "saving_strategy"%string _ TTransaction); [reflexivity|reflexivity|reflexivity|reflexivity|repeat constructor; cbn; eauto|reflexivity|reflexivity].
    - eapply (Plain (S n) "withdrawal_strategy"%string _ TTransaction); [reflexivity|reflexivity|reflexivity|reflexivity|repeat constructor; cbn; eauto|reflexivity|reflexivity].
    - eapply (Plain (S n) "allocation_strategy"%string _ TAllocation); [reflexivity|reflexivity|reflexivity|reflexivity|repeat constructor; cbn; eauto|reflexivity|reflexivity].
    - rewrite build_S. cbn [dget]. 
      change (default_values "tax_treatment") with (Some (from_settings [("tax_brackets", "tax_brackets"); ("personal_deduction", "tax_personal_deduction");
       ("credit_rate", "tax_credit_rate")]%string ++ [("inflation_adjust", ["scenario"; "inflation_adjust"])]%string ++ from_settings [("payment_timing", "tax_payment_timing")]%string)). cbv beta iota.
      destruct (Hs "tax_brackets"%string) as [v1 V1]. destruct (Hs "tax_personal_deduction"%string) as [v2 V2].
      destruct (Hs "tax_credit_rate"%string) as [v3 V3]. destruct (Hs "tax_payment_timing"%string) as [v5 V5]. destruct (Infl [] eq_refl) as (v4 & m4 & st4 & E4 & A4).
      unfold from_settings. cbn [map app fst snd].
      rewrite fillp_cons, (G2 _ _ _ _ v1 eq_refl V1). cbn [bind]. rewrite fillp_cons, (G2 _ _ _ _ v2 eq_refl V2). cbn [bind].
      rewrite fillp_cons, (G2 _ _ _ _ v3 eq_refl V3). cbn [bind]. rewrite fillp_cons, E4. cbn [bind].
      rewrite fillp_cons, (G2 _ _ _ _ v5 A4 V5). cbn [bind fillp].
      apply (FinOk TTax); auto.
  Qed.

  (** C69, refuted: the convenience method for allocation strategies cannot succeed *)
  Theorem C69_allocation_strategy_refuted : forall fuel st args kw, NoDup (map fst kw) ->
    is_ok (build_allocation_strategy settings init_ok fuel st args kw) = false.
  Proof.
    intros fuel st args kw N. unfold build_allocation_strategy.
    destruct (bld fuel st [] "allocation_strategy" (VType TAllocation :: args) None kw) as [[[v m'] st']|] eqn:B; auto. exfalso.
    destruct fuel as [|n]; [discriminate|]. rewrite build_S in B. cbn [dget] in B.
    destruct (default_values "allocation_strategy") as [tbl|] eqn:Ed; [|discriminate].
    destruct (fillp settings init_ok n tbl [] st) as [[[d m1] st1]|] eqn:Ef; cbn [bind] in B; [|discriminate].
    destruct (default_tops _ _ Ed) as [Ft _]. destruct (fill_keys _ _ _ _ _ _ _ Ft Ef) as [K _].
    assert (Em : dget String.eqb m1 "allocation_strategy"%string = None) by (rewrite K; [reflexivity|discriminate]).
    destruct (finish_spec init_ok _ _ _ _ _ _ _ _ _ Em B) as (_ & _ & _ & _ & t & kw' & Ht & _ & C & Hk & _).
    injection Ht as <-.
    destruct (fillp_spec settings init_ok n tbl [] st d m1 st1) as [_ F]; auto; [intros; eapply build_spec; eauto|].
    assert (S1 : exists x, dget String.eqb d "strategy"%string = Some x).
    { cbn in Ed. injection Ed as <-. inversion F as [|a b c e [E _] _]; subst. destruct b as [k x]. cbn in E. subst k. exists x. reflexivity. }
    destruct S1 as [x Sx]. specialize (Hk "strategy"%string). rewrite update_get, Sx in Hk by auto.
    assert (S2 : exists y, dget String.eqb kw' "strategy"%string = Some y) by (destruct (dget String.eqb kw "strategy"%string); rewrite Hk by discriminate; eauto).
    destruct S2 as [y Sy]. unfold construct in C. destruct (call_ok TAllocation (VType TAllocation :: args) kw') eqn:O; [|discriminate].
    unfold call_ok in O. apply andb_true_iff in O. destruct O as [O _]. apply andb_true_iff in O. destruct O as [_ O].
    rewrite forallb_forall in O. apply dget_In in Sy. destruct Sy as (k' & E & I). apply String.eqb_eq in E. subst k'.
    specialize (O "strategy"%string (in_map fst _ _ I)). cbn in O. discriminate.
  Qed.
  (** C69, refuted: a memoised parameter is used even when explicit arguments are given *)
  Theorem C69_memo_ignores_arguments_refuted : forall n st m name args pt kw v,
    dget String.eqb m name = Some v -> bld (S n) st m name args pt kw = Ok (v, m, st).
  Proof. intros. rewrite build_S, H. reflexivity. Qed.
  (** C69, refuted: a supplied string that reads as infinite makes get_param raise *)
  Theorem C69_infinite_string_refuted : forall fuel st m name s, supplied st name (VStr s) -> float_of s = Some PInf ->
    getpar fuel st m name = Err OverflowError.
  Proof. intros fuel st m name s [H _] Hf. unfold get_param, attr. rewrite H. cbn. rewrite Hf. reflexivity. Qed.
  (** C69: precision, from the start: a forecaster made with a conversion function hands a function to every object it builds
      that takes one, a forecaster made without hands None; a scenario takes none *)
  Theorem C69_new_forecaster_precision : forall fuel sc li sa wi ta m name args pt kw v m' st',
    bld fuel (new_forecaster hp sc li sa wi ta) m name args pt kw = Ok (v, m', st') ->
    dget String.eqb m name = None -> NoDup (map fst kw) -> ~ In "high_precision"%string (map fst kw) ->
    exists o, object st' v o /\
      (ob_type o <> TScenario -> hp = None -> kwarg o "high_precision" = Some VNone) /\
      (ob_type o <> TScenario -> hp <> None -> kwarg o "high_precision" = Some VFun) /\
      (ob_type o = TScenario -> kwarg o "high_precision" = None).
  Proof.
    intros fuel sc li sa wi ta m name args pt kw v m' st' H Em N Hk.
    destruct (C69_high_precision _ _ _ _ _ _ _ _ _ _ H Em N) as (o & Ho & E). exists o. split; [exact Ho|].
    assert (G : dget String.eqb kw "high_precision"%string = None).
    { clear - Hk. induction kw as [|[k w] kw IH]; [reflexivity|]. cbn [map fst] in Hk. cbn [dget].
      destruct (String.eqb_spec "high_precision" k) as [<-|]; [exfalso; apply Hk; left; reflexivity|]. apply IH. intro I. apply Hk. right. exact I. }
    rewrite G in E. cbn in E. destruct (ob_type o), hp; (split; [|split]); intros; congruence.
  Qed.
End Theorems.

(** C69, refuted: some documented settings have no effect at all on the parameters of a forecast *)
Theorem C69_unused_settings_refuted : forall s1 s2 init_ok float_of hp fuel st,
  (forall a, a <> "living_expenses_inflation_adjust"%string -> a <> "debt_payment_strategy"%string -> s1 a = s2 a) ->
  run_params s1 init_ok float_of hp fuel st = run_params s2 init_ok float_of hp fuel st.
Proof.
  intros s1 s2 init_ok float_of hp fuel st Hs.
  assert (Mem : forall v rest, (forall a, In a rest -> a <> "living_expenses_inflation_adjust"%string /\ a <> "debt_payment_strategy"%string) -> members s1 v rest = members s2 v rest).
  { intros v rest. revert v. induction rest as [|a r IH]; intros v Hr; [reflexivity|]. cbn [members].
    assert (E : member s1 v a = member s2 v a). { destruct v; cbn; auto. destruct (Hr a (or_introl eq_refl)). auto. }
    rewrite E. destruct (member s2 v a); cbn [bind]; auto. apply IH. intros b Ib. apply Hr. right; auto. }
  assert (Tbl : forall name tbl, default_values name = Some tbl ->
    Forall (fun e : string * list string => forall a, In a (tl (snd e)) -> a <> "living_expenses_inflation_adjust"%string /\ a <> "debt_payment_strategy"%string) tbl).
  { intros name tbl H. unfold default_values, from_settings in H.
    repeat match type of H with (if String.eqb name ?x then _ else _) = _ => destruct (String.eqb name x) eqn:?Hn end;
    try discriminate; injection H as <-; cbn [map app fst snd];
      repeat (apply Forall_cons; [cbn [snd tl In]; intros a [<-|[]]; split; discriminate|]); apply Forall_nil. }
  assert (B : forall n st m name args pt kw, build s1 init_ok n st m name args pt kw = build s2 init_ok n st m name args pt kw).
  { induction n as [|n IH]; intros st0 m name args pt kw; [reflexivity|]. rewrite !build_S.
    destruct (dget String.eqb m name); auto. destruct (default_values name) as [tbl|] eqn:Ed; auto.
    assert (F : forall t m st, Forall (fun e : string * list string => forall a, In a (tl (snd e)) -> a <> "living_expenses_inflation_adjust"%string /\ a <> "debt_payment_strategy"%string) t ->
      fillp s1 init_ok n t m st = fillp s2 init_ok n t m st).
    { induction t as [|[key path] r IHr]; intros m1 st1 Ft; [reflexivity|]. rewrite !fillp_cons.
      assert (G : getp s1 init_ok n path m1 st1 = getp s2 init_ok n path m1 st1).
      { unfold getp. destruct path as [|top rest]; auto. destruct (attr st1 top) as [a|]; cbn [bind]; auto. rewrite IH.
        destruct (match a with VNone => _ | _ => _ end) as [[[w m2] st2]|]; cbn [bind]; auto.
        rewrite (Mem w rest); [reflexivity|]. apply (Forall_inv Ft). }
      rewrite G. destruct (getp s2 init_ok n path m1 st1) as [[[v m2] st2]|]; cbn [bind]; auto. rewrite IHr; [reflexivity|]. apply (Forall_inv_tail Ft). }
    rewrite (F tbl m st0 (Tbl _ _ Ed)). reflexivity. }
  assert (Gp : forall st m name, get_param s1 init_ok float_of hp fuel st m name = get_param s2 init_ok float_of hp fuel st m name).
  { intros st0 m name. unfold get_param. destruct (attr st0 name) as [a|]; cbn [bind]; auto. rewrite B. reflexivity. }
  unfold run_params. rewrite Gp. destruct (get_param s2 init_ok float_of hp fuel st [] "scenario") as [[[sc m0] s0]|]; cbn [bind]; auto.
  assert (My : member s1 sc "initial_year" = member s2 sc "initial_year"). { destruct sc; cbn; auto. apply Hs; discriminate. }
  rewrite My. destruct (member s2 sc "initial_year"); cbn [bind]; auto.
  rewrite Gp. destruct (get_param s2 init_ok float_of hp fuel s0 m0 _) as [[[v1 m1] t1]|]; cbn [bind]; auto.
  rewrite Gp. destruct (get_param s2 init_ok float_of hp fuel t1 m1 _) as [[[v2 m2] t2]|]; cbn [bind]; auto.
  rewrite Gp. destruct (get_param s2 init_ok float_of hp fuel t2 m2 _) as [[[v3 m3] t3]|]; cbn [bind]; auto.
  rewrite Gp. reflexivity.
Qed.

(** ---- examples ---- *)
Definition demo_settings (a : string) : res val := Ok (VStr a).
Definition demo_fc : fstate := new_forecaster None VNone VNone (VUser 1) VNone VNone.
Example C69_sat : exists p st', run_params demo_settings (fun _ _ _ => Ok tt) (fun _ => None) None 3 demo_fc = Ok (p, st') /\
  p_scenario p = VObj 0 /\ p_living p = VObj 1 /\ p_saving p = VUser 1 /\ Datatypes.length (f_heap st') = 4%nat /\
  ~ supplied demo_fc "scenario" VSettings.
Proof. eexists _, _. split; [vm_compute; reflexivity|]. repeat split. intros [H _]. discriminate. Qed.
(** parameters supplied as strings (read as a whole number, a fraction, infinity or left as they are), a
    built object with one keyword overridden, and a second request for the same name in one build *)
Definition demo_float_of (s : string) : option fl :=
  if String.eqb s "3" then Some (Fin 3) else if String.eqb s "0.5" then Some (Fin (1#2)) else if String.eqb s "inf" then Some PInf else None.
Definition demo_strings (s : string) : fstate := new_forecaster None VNone (VStr s) (VUser 1) VNone VNone.
Example C69_sat_strings : let get s := get_param demo_settings (fun _ _ _ => Ok tt) demo_float_of None 3 (demo_strings s) [] "living_expenses_strategy" in
  (forall s, supplied (demo_strings s) "living_expenses_strategy" (VStr s)) /\
  get "3"%string = Ok (VNum (NInt 3), [], demo_strings "3") /\
  get "0.5"%string = Ok (VNum (NFloat (Fin (1#2))), [], demo_strings "0.5") /\
  get "inf"%string = Err OverflowError /\
  get "Constant"%string = Ok (VStr "Constant", [], demo_strings "Constant").
Proof. repeat split; try reflexivity. discriminate. Qed.
Example C69_sat_build : exists m' st', NoDup (map fst [("rate", VNum (NInt 1))]%string) /\
  dget String.eqb (f_attr demo_fc) "settings"%string = Some VSettings /\
  build demo_settings (fun _ _ _ => Ok tt) 3 demo_fc [] "living_expenses_strategy" [] None [("rate"%string, VNum (NInt 1))] = Ok (VObj 1, m', st') /\
  (exists o, object st' (VObj 1) o /\ ob_args o = [] /\ kwarg o "rate" = Some (VNum (NInt 1)) /\
     kwarg o "base_amount" = Some (VStr "living_expenses_base_amount")) /\
  dget String.eqb m' "living_expenses_strategy"%string = Some (VObj 1) /\
  build demo_settings (fun _ _ _ => Ok tt) 3 st' m' "living_expenses_strategy" [] None [] = Ok (VObj 1, m', st') /\
  exists st2, set_param demo_settings (fun _ _ _ => Ok tt) 3 demo_fc [] "scenario" [] None [] = Ok st2 /\ supplied st2 "scenario" (VObj 0).
Proof.
  eexists _, _. split; [repeat constructor; cbn; tauto|]. split; [reflexivity|]. split; [vm_compute; reflexivity|].
  split; [eexists; split; [eexists; split; reflexivity|]; repeat split|].
  split; [reflexivity|]. split; [reflexivity|]. eexists. split; [vm_compute; reflexivity|]. split; [reflexivity|discriminate].
Qed.
Print Assumptions C69_supplied_wins.
Print Assumptions C69_supplied_string.
Print Assumptions C69_building_overwrites_nothing.
Print Assumptions C69_built_object.
Print Assumptions C69_settings_used.
Print Assumptions C69_set_param.
Print Assumptions C69_high_precision.
Print Assumptions C69_one_scenario.
Print Assumptions C69_defaults_fit.
Print Assumptions C69_allocation_strategy_refuted.
Print Assumptions C69_memo_ignores_arguments_refuted.
Print Assumptions C69_infinite_string_refuted.
Print Assumptions C69_unused_settings_refuted.
Print Assumptions C69_new_forecaster_precision.
