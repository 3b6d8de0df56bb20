(** Properties C99-C101: constructing registered accounts and changing their contributor. *)
From Coq Require Import Permutation Lqa Lia.
From Verif Require Import Base BaseFacts RegBuildModel.
Local Open Scope Q_scope.

(** ** Specification *)
(** the contributor and token a constructor call asks for: the link it names, else the contributor (the owner by
    default) with the token (by default one per class) *)
Definition person (p : parg) : option nat := match p with PPerson p => Some p | _ => None end.
Definition asks_for (w : hw) (a : ctor_args) (p : nat) (t : string) : Prop :=
  match c_kw_link a with
  | Some (LPair q u) => person q = Some p /\ u = t
  | Some (LObj r) => nth_error (h_links w) r = Some (p, t)
  | Some _ => False
  | None => person (match c_contributor a with Some q => q | None => c_owner a end) = Some p /\
            t = match c_token a with Some u => u | None => (c_class a ++ ".max_inflow")%string end
  end.
(** the room it asks for, under either name *)
Definition asks_room (a : ctor_args) : option Q :=
  match c_room a, c_kw_limit a with Some q, _ => Some q | None, Some v => v | None, None => None end.
(** the room already shared under (p, t) *)
Definition shared (w : hw) (p : nat) (t : string) : option Q :=
  match dget lkeyb (h_data w) (p, t) with Some g => g_limit g | None => None end.
Definition ambiguous (a : ctor_args) : Prop :=
  (c_room a <> None /\ c_kw_limit a <> None) \/ ((c_contributor a <> None \/ c_token a <> None) /\ c_kw_link a <> None).
(** what is visible to everyone else: people's accounts, the shared records, the existing accounts and links *)
Definition account_count (w : hw) : nat := Datatypes.length (h_objs w).
(** the accounts, including half-constructed ones, that draw on the room (p, t) *)
Definition keyb (w : hw) (k : lkey) (i : nat) : bool := match link_key w i with Some k' => lkeyb k' k | None => false end.
Definition drawing_on (w : hw) (k : lkey) : list nat := filter (keyb w k) (seq 0 (account_count w)).

(** ** Facts *)
Lemma lkeyb_t a b : lkeyb a b = true <-> a = b.
Proof.
  destruct a as [a1 a2], b as [b1 b2]. unfold lkeyb. cbn. rewrite andb_true_iff, Nat.eqb_eq, String.eqb_eq.
  split; [intros [-> ->]; reflexivity|]. intro H. injection H. auto.
Qed.
Lemma lkeyb_refl a : lkeyb a a = true. Proof. apply lkeyb_t. reflexivity. Qed.
Lemma lget_set {V} (d : dict lkey V) k v k' : dget lkeyb (dset lkeyb d k v) k' = if lkeyb k' k then Some v else dget lkeyb d k'.
Proof.
  induction d as [|[a b] d IH]; cbn [dget dset].
  - destruct (lkeyb k' k); reflexivity.
  - destruct (lkeyb k a) eqn:E; cbn [dget].
    + apply lkeyb_t in E. subst a. destruct (lkeyb k' k); reflexivity.
    + destruct (lkeyb k' a) eqn:F; [|exact IH]. apply lkeyb_t in F. subst a. destruct (lkeyb k' k) eqn:G; [|reflexivity].
      apply lkeyb_t in G. subst. rewrite lkeyb_refl in E. discriminate.
Qed.
Lemma nth_upd {A} (l : list A) i f j : nth_error (upd_nth l i f) j = if Nat.eqb j i then option_map f (nth_error l j) else nth_error l j.
Proof.
  revert i j. induction l as [|x l IH]; intros [|i] [|j]; cbn [upd_nth nth_error Nat.eqb]; try reflexivity.
  - destruct (Nat.eqb j i); reflexivity.
  - apply IH.
Qed.
Lemma len_upd {A} (l : list A) i f : Datatypes.length (upd_nth l i f) = Datatypes.length l.
Proof. revert i. induction l as [|x l IH]; intros [|i]; cbn; auto. Qed.
Lemma sadd_In x l y : In y (sadd x l) <-> y = x \/ In y l.
Proof.
  unfold sadd. destruct (existsb (Nat.eqb x) l) eqn:E.
  - apply existsb_exists in E. destruct E as (z & Hz & E). apply Nat.eqb_eq in E. subst z. split; [auto|]. intros [->|]; auto.
  - rewrite in_app_iff. cbn. split; [intros [H|[->|[]]]; auto|]. intros [->|H]; auto.
Qed.
Lemma sadd_nodup x l : NoDup l -> NoDup (sadd x l).
Proof.
  intro H. unfold sadd. destruct (existsb (Nat.eqb x) l) eqn:E; [exact H|].
  apply (Permutation_NoDup (Permutation_app_comm [x] l)). constructor; [|exact H].
  intro I. assert (existsb (Nat.eqb x) l = true); [|congruence]. apply existsb_exists. exists x. split; [exact I|apply Nat.eqb_refl].
Qed.
(** joining a link *)
Definition prior (w : hw) (k : lkey) : lrecord := match rec_at w k with Some g => g | None => {| g_members := []; g_limit := None |} end.
Definition joined (w : hw) (k : lkey) (i : nat) (limit : option Q) : lrecord :=
  {| g_members := sadd i (g_members (prior w k)); g_limit := match limit with Some _ => limit | None => g_limit (prior w k) end |}.
Lemma link_ok w i l limit u w2 : process_max_inflow_link w i l limit = (Ok u, w2) ->
  (l = LNone /\ w2 = w) \/
  exists r k, (match l with LPair q t => exists p, q = PPerson p /\ k = (p, t) | LObj r' => r' = r /\ nth_error (h_links w) r = Some k | _ => False end) /\
    nth_error (h_links w2) r = Some k /\ (exists tl, h_links w2 = h_links w ++ tl) /\ h_accounts w2 = h_accounts w /\
    h_objs w2 = upd_nth (h_objs w) i (fun o => {| o_owner := o_owner o; o_link := Some r; o_txns := o_txns o |}) /\
    (forall k', rec_at w2 k' = if lkeyb k' k then Some (joined w k i limit) else rec_at w k').
Proof.
  destruct l as [|q t|r|]; cbn [process_max_inflow_link]; intro H.
  - left. split; [reflexivity|]. congruence.
  - right. destruct q as [|p|]; cbn [new_link] in H; try discriminate.
    assert (N : nth_error (h_links w ++ [(p, t)]) (Datatypes.length (h_links w)) = Some (p, t)).
    { rewrite nth_error_app2 by lia. rewrite Nat.sub_diag. reflexivity. }
    exists (Datatypes.length (h_links w)), (p, t). split; [exists p; split; reflexivity|].
    destruct (rec_at w (p, t)) as [g|] eqn:R.
    + unfold join in H. cbn [h_links set_links] in H. rewrite N in H.
      change (rec_at (set_links w (h_links w ++ [(p, t)])) (p, t)) with (rec_at w (p, t)) in H. rewrite R in H.
      injection H as _ <-. cbn. split; [exact N|]. split; [exists [(p, t)]; reflexivity|]. split; [reflexivity|]. split; [reflexivity|].
      intro k'. unfold rec_at. cbn. rewrite lget_set. unfold joined, prior. rewrite R. reflexivity.
    + unfold join in H. cbn [h_links put_rec set_data set_links] in H. rewrite N in H.
      unfold rec_at in H at 1. cbn [h_data put_rec set_data set_links] in H. rewrite lget_set, lkeyb_refl in H. cbn [g_members g_limit] in H.
      injection H as _ <-. cbn. split; [exact N|]. split; [exists [(p, t)]; reflexivity|]. split; [reflexivity|]. split; [reflexivity|].
      intro k'. unfold rec_at. cbn. rewrite !lget_set. unfold joined, prior. rewrite R. destruct (lkeyb k' (p, t)); reflexivity.
  - right. unfold join in H. destruct (nth_error (h_links w) r) as [k|] eqn:N; [|discriminate].
    destruct (rec_at w k) as [g|] eqn:R; [|discriminate]. injection H as _ <-. exists r, k. split; [split; [reflexivity|exact N]|].
    cbn. split; [exact N|]. split; [exists []; rewrite app_nil_r; reflexivity|]. split; [reflexivity|]. split; [reflexivity|].
    intro k'. unfold rec_at. cbn. rewrite lget_set. unfold joined, prior. rewrite R. reflexivity.
  - discriminate.
Qed.
Lemma link_err w i l limit e w2 : process_max_inflow_link w i l limit = (Err e, w2) -> w2 = w.
Proof.
  destruct l as [|q t|r|]; cbn [process_max_inflow_link]; intro H; try congruence.
  - destruct q as [|p|]; cbn [new_link] in H; try congruence. exfalso.
    assert (N : nth_error (h_links w ++ [(p, t)]) (Datatypes.length (h_links w)) = Some (p, t)).
    { rewrite nth_error_app2 by lia. rewrite Nat.sub_diag. reflexivity. }
    destruct (rec_at w (p, t)) as [g|] eqn:R; unfold join in H; cbn [h_links set_links put_rec set_data] in H; rewrite N in H.
    + change (rec_at (set_links w (h_links w ++ [(p, t)])) (p, t)) with (rec_at w (p, t)) in H. rewrite R in H. discriminate.
    + unfold rec_at in H at 1. cbn [h_data put_rec set_data set_links] in H. rewrite lget_set, lkeyb_refl in H. discriminate.
  - unfold join in H. destruct (nth_error (h_links w) r) as [k|]; [|congruence]. destruct (rec_at w k); congruence.
Qed.
(** the subclass rules change at most the limit of the account's own record *)
Lemma class_effect mc inf w i o kd r w3 : class_init mc inf w i o kd = (r, w3) ->
  w3 = w \/ exists k g v, link_key w i = Some k /\ rec_at w k = Some g /\ g_limit g = None /\
    w3 = put_rec w k {| g_members := g_members g; g_limit := Some v |}.
Proof.
  assert (S : forall v r w3, room_unset w i = true -> set_room w i v = (r, w3) -> w3 = w \/ exists k g v, link_key w i = Some k /\ rec_at w k = Some g /\ g_limit g = None /\
    w3 = put_rec w k {| g_members := g_members g; g_limit := Some v |}).
  { intros v r0 w4 U H. unfold set_room in H. unfold room_unset, room in U. destruct (link_key w i) as [k|] eqn:K; [|left; congruence].
    destruct (rec_at w k) as [g|] eqn:R; [|left; congruence]. right. exists k, g, v. injection H as _ <-.
    split; [reflexivity|]. split; [exact R|]. split; [|reflexivity]. destruct (g_limit g); [discriminate|reflexivity]. }
  destruct kd as [y| |]; cbn [class_init]; intro H.
  - unfold bind_out in H. destruct y as [y|]; [destruct (mc o) as [m|e]; [destruct (Z.ltb m y)|]|].
    + left. congruence.
    + destruct (room_unset w i) eqn:U; [apply (S 0 r w3 eq_refl H)|left; congruence].
    + left. congruence.
    + destruct (room_unset w i) eqn:U; [apply (S 0 r w3 eq_refl H)|left; congruence].
  - destruct (room_unset w i) eqn:U; [|left; congruence]. destruct (inf w i) as [q|e]; [apply (S q r w3 eq_refl H)|left; congruence].
  - left. congruence.
Qed.
(** the superclass __init__ *)
Lemma init_effect w a r w1 : account_init w a = (r, w1) ->
  (w1 = w /\ exists e, r = Err e) \/
  ((r = Ok (account_count w) \/ r = Err ValueError) /\ h_data w1 = h_data w /\ h_links w1 = h_links w /\
   h_objs w1 = h_objs w ++ [{| o_owner := person (c_owner a); o_link := None; o_txns := [] |}] /\
   h_accounts w1 = match c_owner a with PPerson p => upd_nat (h_accounts w) p (sadd (account_count w) (h_accounts w p)) | _ => h_accounts w end).
Proof.
  unfold account_init, account_count. destruct (c_owner a) as [|p|].
  - destruct (c_year a); intro H.
    + right. destruct (c_nper_ok a); injection H as <- <-; cbn; auto 7.
    + left. injection H as <- <-. eauto.
  - intro H. right. destruct (c_nper_ok a); injection H as <- <-; cbn; auto 7.
  - intro H. left. injection H as <- <-. eauto.
Qed.

(** ** The whole constructor, successful *)
Lemma construct_ok mc inf w a i w3 : construct mc inf w a = (Ok i, w3) ->
  exists link limit w1 w2, process_alias_args a = Ok (link, limit) /\ account_init w a = (Ok i, w1) /\
    process_max_inflow_link w1 i link limit = (Ok tt, w2) /\ class_init mc inf w2 i (person (c_owner a)) (c_kind a) = (Ok tt, w3).
Proof.
  unfold construct. destruct (process_alias_args a) as [[link limit]|e] eqn:P; [|congruence]. unfold bind_out.
  destruct (account_init w a) as [[j|e] w1] eqn:A; [|congruence].
  destruct (process_max_inflow_link w1 j link limit) as [[[]|e] w2] eqn:L; [|congruence].
  change (match c_owner a with PPerson p => Some p | _ => None end) with (person (c_owner a)).
  destruct (class_init mc inf w2 j (person (c_owner a)) (c_kind a)) as [[[]|e] w4] eqn:C; [|congruence].
  intro H. injection H as <- <-. exists link, limit, w1, w2. auto.
Qed.
Lemma alias_ok a link limit : process_alias_args a = Ok (link, limit) ->
  limit = asks_room a /\ match c_kw_link a with Some l => link = l | None =>
    link = LPair (match c_contributor a with Some q => q | None => c_owner a end) (match c_token a with Some u => u | None => (c_class a ++ ".max_inflow")%string end) end.
Proof.
  unfold process_alias_args, asks_room. destruct (c_room a) as [q|], (c_kw_limit a) as [v|]; cbn; try discriminate;
    (destruct (c_kw_link a) as [l|]; [destruct (c_contributor a), (c_token a); cbn; try discriminate|]);
    intro H; injection H as <- <-; split; reflexivity.
Qed.
Definition links_known (w : hw) : Prop := forall i o r, nth_error (h_objs w) i = Some o -> o_link o = Some r -> nth_error (h_links w) r <> None.

Lemma link_key_put w k g i : link_key (put_rec w k g) i = link_key w i.
Proof. reflexivity. Qed.
Lemma rec_put w k g k' : rec_at (put_rec w k g) k' = if lkeyb k' k then Some g else rec_at w k'.
Proof. unfold rec_at, put_rec. cbn. apply lget_set. Qed.
(** everything a successful call that names a link does *)
Lemma built mc inf w a i w' p t : construct mc inf w a = (Ok i, w') -> asks_for w a p t ->
  i = account_count w /\ link_key w' i = Some (p, t) /\
  (exists L, rec_at w' (p, t) = Some {| g_members := sadd i (g_members (prior w (p, t))); g_limit := L |} /\
     match (match asks_room a with Some q => Some q | None => shared w p t end) with
     | Some q => L = Some q
     | None => match c_kind a with KRRSP _ => L = Some 0 | KTFSA => exists w0 q, inf w0 i = Ok q /\ L = Some q | KOther => L = None end
     end) /\
  (forall k, k <> (p, t) -> rec_at w' k = rec_at w k) /\
  h_accounts w' = (match c_owner a with PPerson q => upd_nat (h_accounts w) q (sadd i (h_accounts w q)) | _ => h_accounts w end) /\
  (forall j o, nth_error (h_objs w) j = Some o -> nth_error (h_objs w') j = Some o) /\ account_count w' = S (account_count w) /\
  (exists tl, h_links w' = h_links w ++ tl).
Proof.
  intros H As. destruct (construct_ok _ _ _ _ _ _ H) as (link & limit & w1 & w2 & P & A & L & C).
  destruct (alias_ok _ _ _ P) as [El Ek]. subst limit.
  destruct (init_effect _ _ _ _ A) as [[_ [e E]]|(R & D1 & L1 & O1 & A1)]; [discriminate|].
  assert (Ei : i = account_count w) by (destruct R as [R|R]; congruence). subst i. set (i := account_count w) in *.
  assert (Rec1 : forall k, rec_at w1 k = rec_at w k) by (intro k; unfold rec_at; rewrite D1; reflexivity).
  assert (Pr1 : forall k, prior w1 k = prior w k) by (intro k; unfold prior; rewrite Rec1; reflexivity).
  destruct (link_ok _ _ _ _ _ _ L) as [[-> _]|(r & k & Hl & N2 & [tl T2] & A2 & O2 & R2)].
  { exfalso. unfold asks_for in As. destruct (c_kw_link a) as [l|]; [subst l; exact As|discriminate]. }
  assert (k = (p, t)).
  { unfold asks_for in As. destruct (c_kw_link a) as [l|].
    - subst l. destruct link as [|q u|r'|]; try contradiction.
      + destruct Hl as (p' & -> & ->). cbn in As. destruct As as [E <-]. injection E as ->. reflexivity.
      + destruct Hl as [-> Hl]. rewrite L1 in Hl. congruence.
    - subst link. destruct Hl as (p' & E & ->). rewrite E in As. cbn in As. destruct As as [E' ->]. injection E' as ->. reflexivity. }
  subst k.
  assert (Len : Datatypes.length (h_objs w1) = S i). { rewrite O1, app_length. unfold i, account_count. cbn. lia. }
  assert (K2 : link_key w2 i = Some (p, t)).
  { unfold link_key. rewrite O2, nth_upd, Nat.eqb_refl, O1, nth_error_app2 by (unfold i, account_count; lia).
    unfold i, account_count. rewrite Nat.sub_diag. cbn. exact N2. }
  assert (Old2 : forall j o, nth_error (h_objs w) j = Some o -> nth_error (h_objs w2) j = Some o).
  { intros j o Hj. assert (j < i)%nat by (unfold i, account_count; apply nth_error_Some; congruence).
    rewrite O2, nth_upd. replace (Nat.eqb j i) with false by (symmetry; apply Nat.eqb_neq; lia). rewrite O1, nth_error_app1 by (unfold i, account_count in *; lia). exact Hj. }
  assert (R2' : rec_at w2 (p, t) = Some (joined w (p, t) i (asks_room a))).
  { rewrite R2, lkeyb_refl. unfold joined. rewrite Pr1. reflexivity. }
  assert (R2o : forall k, k <> (p, t) -> rec_at w2 k = rec_at w k).
  { intros k Hk. rewrite R2. destruct (lkeyb k (p, t)) eqn:E; [apply lkeyb_t in E; contradiction|apply Rec1]. }
  assert (Cnt : forall g, account_count (put_rec w2 (p, t) g) = S i).
  { intro g. unfold account_count, put_rec, set_data. cbn [h_objs]. rewrite O2, len_upd. exact Len. }
  assert (Cnt2 : account_count w2 = S i). { unfold account_count. rewrite O2, len_upd. exact Len. }
  assert (Tl2 : h_links w2 = h_links w ++ tl) by (rewrite T2, L1; reflexivity).
  assert (Sh : match asks_room a with Some q => Some q | None => shared w p t end = g_limit (joined w (p, t) i (asks_room a))).
  { unfold joined, shared, prior, rec_at. cbn [g_limit]. destruct (asks_room a); [reflexivity|]. destruct (dget lkeyb (h_data w) (p, t)); reflexivity. }
  rewrite Sh. split; [reflexivity|].
  assert (Room2 : room w2 i = g_limit (joined w (p, t) i (asks_room a))). { unfold room. rewrite K2, R2'. reflexivity. }
  assert (Un : room_unset w2 i = match g_limit (joined w (p, t) i (asks_room a)) with None => true | _ => false end).
  { unfold room_unset. rewrite K2, Room2. reflexivity. }
  destruct (class_effect _ _ _ _ _ _ _ _ C) as [->|(k & g & v & Kk & Rk & Gn & ->)].
  - split; [exact K2|]. split.
    + exists (g_limit (joined w (p, t) i (asks_room a))). split; [rewrite R2'; unfold joined; reflexivity|].
      destruct (g_limit (joined w (p, t) i (asks_room a))) as [q|] eqn:G; [reflexivity|]. rewrite ?G in Un.
      destruct (c_kind a) as [y| |]; cbn [class_init] in C.
      * unfold bind_out in C. exfalso. destruct y as [y|]; [destruct (mc (person (c_owner a))) as [m|]; [destruct (Z.ltb m y)|]|]; try congruence;
          rewrite Un in C; unfold set_room in C; rewrite K2, R2' in C; apply (f_equal snd) in C; cbn [snd] in C;
          apply (f_equal (fun w => rec_at w (p, t))) in C; rewrite rec_put, lkeyb_refl, R2' in C; injection C as C; unfold joined in C; cbn in G; rewrite G in C; discriminate.
      * exfalso. rewrite Un in C. destruct (inf w2 i) as [q|e]; [|congruence].
          unfold set_room in C; rewrite K2, R2' in C; apply (f_equal snd) in C; cbn [snd] in C;
          apply (f_equal (fun w => rec_at w (p, t))) in C; rewrite rec_put, lkeyb_refl, R2' in C; injection C as C; unfold joined in C; cbn in G; rewrite G in C; discriminate.
      * reflexivity.
    + split; [exact R2o|]. split; [rewrite A2, A1; reflexivity|]. split; [exact Old2|]. split; [exact Cnt2|]. exists tl. exact Tl2.
  - assert (k = (p, t)) by congruence. subst k. assert (g = joined w (p, t) i (asks_room a)) by congruence. subst g.
    rewrite link_key_put. split; [exact K2|]. split.
    + exists (Some v). split; [rewrite rec_put, lkeyb_refl; unfold joined; reflexivity|]. rewrite Gn. rewrite Gn in Un.
      assert (E : forall x u, set_room w2 i x = (Ok u, put_rec w2 (p, t) {| g_members := g_members (joined w (p, t) i (asks_room a)); g_limit := Some v |}) -> x = v).
      { intros x u E. unfold set_room in E. rewrite K2, R2' in E. apply (f_equal snd) in E. cbn [snd] in E.
        apply (f_equal (fun w => rec_at w (p, t))) in E. rewrite !rec_put, lkeyb_refl in E. congruence. }
      destruct (c_kind a) as [y| |]; cbn [class_init] in C.
      * unfold bind_out in C. destruct y as [y|]; [destruct (mc (person (c_owner a))) as [m|]; [destruct (Z.ltb m y)|]|]; try congruence;
          rewrite Un in C; f_equal; symmetry; exact (E _ _ C).
      * rewrite Un in C. destruct (inf w2 i) as [q|e] eqn:Q; [|congruence]. exists w2, q. split; [exact Q|]. f_equal. symmetry. exact (E _ _ C).
      * exfalso. apply (f_equal snd) in C. cbn [snd] in C. apply (f_equal (fun w => rec_at w (p, t))) in C. rewrite rec_put, lkeyb_refl, R2' in C. injection C as C.
        unfold joined in C. cbn in Gn. rewrite Gn in C. discriminate.
    + split; [|split; [rewrite <- A1; exact A2|split; [exact Old2|split; [apply Cnt|exists tl; exact Tl2]]]].
      intros k Hk. rewrite rec_put. destruct (lkeyb k (p, t)) eqn:F; [apply lkeyb_t in F; contradiction|apply R2o; exact Hk].
Qed.

(** C99: a call that succeeds gives an account with exactly the contributor, group and room asked for *)
Theorem C99_built_as_asked : forall mc inf w a i w' p t, construct mc inf w a = (Ok i, w') -> asks_for w a p t ->
  contributor w' i = Ok p /\
  (exists g, dget lkeyb (h_data w') (p, t) = Some g /\ In i (g_members g)) /\
  (forall q, c_owner a = PPerson q -> In i (h_accounts w' q)) /\
  (forall q, asks_room a = Some q -> room w' i = Some q) /\
  (forall q, asks_room a = None -> shared w p t = Some q -> room w' i = Some q) /\
  (asks_room a = None -> shared w p t = None ->
     match c_kind a with KRRSP _ => room w' i = Some 0 | KTFSA => exists w0 q, inf w0 i = Ok q /\ room w' i = Some q | KOther => room w' i = None end).
Proof.
  intros mc inf w a i w' p t H As. destruct (built _ _ _ _ _ _ _ _ H As) as (Ei & K & (L & R & HL) & _ & Ac & _).
  assert (Rm : room w' i = L) by (unfold room; rewrite K, R; reflexivity).
  split; [unfold contributor; rewrite K; reflexivity|]. split; [eexists; split; [exact R|]; cbn; apply sadd_In; auto|].
  split. { intros q E. rewrite Ac, E. unfold upd_nat. rewrite Nat.eqb_refl. apply sadd_In. auto. }
  rewrite Rm. split; [intros q E; rewrite E in HL; exact HL|]. split; [intros q E S; rewrite E, S in HL; exact HL|].
  intros E S. rewrite E, S in HL. exact HL.
Qed.
Print Assumptions C99_built_as_asked.
(** ... and every other account keeps its contributor; the room and members of every other group, and everyone else's accounts, are
    untouched; an existing member of the group keeps its membership *)
Theorem C99_others_untouched : forall mc inf w a i w' p t, construct mc inf w a = (Ok i, w') -> asks_for w a p t ->
  (forall j c, contributor w j = Ok c -> contributor w' j = Ok c) /\
  (forall k, k <> (p, t) -> dget lkeyb (h_data w') k = dget lkeyb (h_data w) k) /\
  (forall q, c_owner a <> PPerson q -> h_accounts w' q = h_accounts w q) /\
  (forall q j, j <> i -> (In j (h_accounts w' q) <-> In j (h_accounts w q))) /\
  (forall g, dget lkeyb (h_data w) (p, t) = Some g -> exists g', dget lkeyb (h_data w') (p, t) = Some g' /\ forall j, j <> i -> (In j (g_members g') <-> In j (g_members g))).
Proof.
  intros mc inf w a i w' p t H As. destruct (built _ _ _ _ _ _ _ _ H As) as (Ei & K & (L & R & HL) & Ro & Ac & Ob & _ & [tl Tl]).
  split.
  { intros j c Hc. unfold contributor, link_key in *. destruct (nth_error (h_objs w) j) as [o|] eqn:Eo; [|discriminate].
    rewrite (Ob _ _ Eo). destruct (o_link o) as [r|]; [|discriminate]. destruct (nth_error (h_links w) r) as [k|] eqn:Er; [|discriminate].
    rewrite Tl, nth_error_app1 by (apply nth_error_Some; congruence). rewrite Er. exact Hc. }
  split; [exact Ro|]. split.
  { intros q E. rewrite Ac. destruct (c_owner a) as [|x|]; try reflexivity. unfold upd_nat. destruct (Nat.eqb q x) eqn:F; [|reflexivity].
    apply Nat.eqb_eq in F. subst. contradiction. }
  split.
  { intros q j Hj. rewrite Ac. destruct (c_owner a) as [|x|]; try tauto. unfold upd_nat. destruct (Nat.eqb q x) eqn:F; [|tauto].
    apply Nat.eqb_eq in F. subst x. rewrite sadd_In. tauto. }
  intros g Hg. eexists. split; [exact R|]. intros j Hj. cbn. rewrite sadd_In. unfold prior, rec_at. rewrite Hg. tauto.
Qed.
Print Assumptions C99_others_untouched.
(** naming the room or the link twice is an error that changes nothing *)
Theorem C99_ambiguous_rejected : forall mc inf w a, ambiguous a -> construct mc inf w a = (Err ValueError, w).
Proof.
  intros mc inf w a H. unfold construct. replace (process_alias_args a) with (Err ValueError : res (larg * option Q)); [reflexivity|].
  unfold process_alias_args, ambiguous in *. destruct (c_room a) as [q|], (c_kw_limit a) as [v|], (c_kw_link a) as [l|], (c_contributor a) as [x|], (c_token a) as [y|];
    cbn; try reflexivity; exfalso; destruct H as [[A B]|[[A|A] B]]; congruence.
Qed.
Print Assumptions C99_ambiguous_rejected.
(** the two spellings mean the same *)
Theorem C99_spellings_agree : forall mc inf w a b,
  c_kind a = c_kind b -> c_class a = c_class b -> c_owner a = c_owner b -> c_year a = c_year b -> c_nper_ok a = c_nper_ok b ->
  ~ ambiguous a -> ~ ambiguous b -> asks_room a = asks_room b ->
  (exists p t, c_kw_link a = None /\ c_contributor a = Some p /\ c_token a = Some t /\ c_kw_link b = Some (LPair p t)) ->
  construct mc inf w a = construct mc inf w b.
Proof.
  intros mc inf w a b E1 E2 E3 E4 E5 Na Nb Er (p & t & A1 & A2 & A3 & B).
  assert (Pa : process_alias_args a = Ok (LPair p t, asks_room a)).
  { unfold process_alias_args, asks_room, ambiguous in *. rewrite A1, A2, A3. destruct (c_room a), (c_kw_limit a); cbn; try reflexivity. exfalso. apply Na. left. split; discriminate. }
  assert (Pb : process_alias_args b = Ok (LPair p t, asks_room b)).
  { unfold process_alias_args, asks_room, ambiguous in *. rewrite B in *. destruct (c_room b), (c_kw_limit b), (c_contributor b), (c_token b); cbn; try reflexivity;
      exfalso; apply Nb; first [left; split; discriminate | right; split; [left; discriminate|discriminate] | right; split; [right; discriminate|discriminate]]. }
  unfold construct. rewrite Pa, Pb, Er, E1, E3.
  assert (Ai : account_init w a = account_init w b). { unfold account_init. rewrite E3, E4, E5. reflexivity. }
  rewrite Ai. reflexivity.
Qed.
Print Assumptions C99_spellings_agree.

(** Satisfiability: person 0 builds a TFSA with inferred room, then person 1 builds an RRSP to which person 0 contributes *)
Definition base_args (k : akind) (cls : string) (p : nat) : ctor_args :=
  {| c_kind := k; c_class := cls; c_owner := PPerson p; c_year := false; c_nper_ok := true; c_room := None; c_contributor := None;
     c_token := None; c_kw_limit := None; c_kw_link := None |}.
Definition tfsa_of := base_args KTFSA "TFSA".
Definition rrsp_of := base_args (KRRSP None) "RRSP".
Definition with_contributor (a : ctor_args) (p : nat) : ctor_args :=
  {| c_kind := c_kind a; c_class := c_class a; c_owner := c_owner a; c_year := c_year a; c_nper_ok := c_nper_ok a; c_room := c_room a;
     c_contributor := Some (PPerson p); c_token := c_token a; c_kw_limit := c_kw_limit a; c_kw_link := c_kw_link a |}.
Definition with_room (a : ctor_args) (q : Q) : ctor_args :=
  {| c_kind := c_kind a; c_class := c_class a; c_owner := c_owner a; c_year := c_year a; c_nper_ok := c_nper_ok a; c_room := Some q;
     c_contributor := c_contributor a; c_token := c_token a; c_kw_limit := c_kw_limit a; c_kw_link := c_kw_link a |}.
Definition mc0 : option nat -> res Z := fun _ => Ok 2040%Z.
Definition inf0 : hw -> nat -> res Q := fun _ _ => Ok 5000.
Definition house : hw := rrun mc0 inf0 [RConstruct (tfsa_of 0); RConstruct (with_contributor (rrsp_of 1) 0); RConstruct (with_room (rrsp_of 0) 700)] empty_hw.
Example C99_sat : exists w i w', construct mc0 inf0 w (with_room (rrsp_of 0) 700) = (Ok i, w') /\ asks_for w (with_room (rrsp_of 0) 700) 0 "RRSP.max_inflow" /\
  contributor w' 0 = Ok 0%nat /\ contributor w' 1 = Ok 0%nat /\ room w' 0 = Some 5000 /\ room w' 1 = Some 700 /\ room w' 2 = Some 700 /\
  h_accounts w' 0%nat = [0%nat; 2%nat] /\ h_accounts w' 1%nat = [1%nat] /\ w' = house.
Proof.
  exists (rrun mc0 inf0 [RConstruct (tfsa_of 0); RConstruct (with_contributor (rrsp_of 1) 0)] empty_hw), 2%nat, house.
  split; [reflexivity|]. split; [cbn; auto|]. repeat (split; [reflexivity|]). reflexivity.
Qed.

(** ** C100: a constructor that raises leaves no trace *)
Definition no_trace (w w' : hw) : Prop := (forall q, h_accounts w' q = h_accounts w q) /\ (forall k, dget lkeyb (h_data w') k = dget lkeyb (h_data w) k).
(** true when the arguments contradict each other or the owner is not acceptable *)
Theorem C100_early_errors_partial : forall mc inf w a e w', construct mc inf w a = (Err e, w') ->
  ambiguous a \/ c_owner a = POther \/ (c_owner a = PNone /\ c_year a = false) -> w' = w.
Proof.
  intros mc inf w a e w' H [Am|Ow]; [rewrite (C99_ambiguous_rejected mc inf w a Am) in H; congruence|].
  unfold construct in H. destruct (process_alias_args a) as [[l m]|]; [|congruence]. unfold bind_out in H.
  assert (A : account_init w a = (Err TypeError, w)). { unfold account_init. destruct Ow as [->|[-> ->]]; reflexivity. }
  rewrite A in H. congruence.
Qed.
Print Assumptions C100_early_errors_partial.
Lemma construct_effect mc inf w a r w' : construct mc inf w a = (r, w') ->
  w' = w \/ exists link limit w1, process_alias_args a = Ok (link, limit) /\ (account_init w a = (Err ValueError, w1) \/ account_init w a = (Ok (account_count w), w1)) /\
    h_data w1 = h_data w /\ h_links w1 = h_links w /\
    h_objs w1 = h_objs w ++ [{| o_owner := person (c_owner a); o_link := None; o_txns := [] |}] /\
    h_accounts w1 = (match c_owner a with PPerson p => upd_nat (h_accounts w) p (sadd (account_count w) (h_accounts w p)) | _ => h_accounts w end) /\
    (w' = w1 \/ exists w2, process_max_inflow_link w1 (account_count w) link limit = (Ok tt, w2) /\
       (w' = w2 \/ exists k g v, link_key w2 (account_count w) = Some k /\ rec_at w2 k = Some g /\ g_limit g = None /\ w' = put_rec w2 k {| g_members := g_members g; g_limit := Some v |})).
Proof.
  unfold construct. destruct (process_alias_args a) as [[link limit]|e]; [|intro H; left; congruence]. unfold bind_out. intro H.
  destruct (account_init w a) as [r1 w1] eqn:A. destruct (init_effect _ _ _ _ A) as [[-> [e ->]]|(R & D1 & L1 & O1 & A1)]; [left; congruence|].
  right. exists link, limit, w1. split; [reflexivity|]. split; [destruct R as [->| ->]; auto|]. split; [exact D1|]. split; [exact L1|]. split; [exact O1|]. split; [exact A1|].
  destruct R as [->| ->]; [|left; congruence].
  destruct (process_max_inflow_link w1 (account_count w) link limit) as [[[]|e] w2] eqn:L; [|left; rewrite (link_err _ _ _ _ _ _ L) in H; congruence].
  right. exists w2. split; [reflexivity|].
  destruct (class_init mc inf w2 (account_count w) (match c_owner a with PPerson p => Some p | _ => None end) (c_kind a)) as [r3 w3] eqn:C.
  destruct r3; injection H as _ <-; exact (class_effect _ _ _ _ _ _ _ _ C).
Qed.
(** in general the damage is confined to the owner's accounts and to the group asked for *)
Theorem C100_damage_is_local_partial : forall mc inf w a e w' p t, construct mc inf w a = (Err e, w') -> asks_for w a p t ->
  (forall q, c_owner a <> PPerson q -> h_accounts w' q = h_accounts w q) /\
  (forall q j, j <> account_count w -> (In j (h_accounts w' q) <-> In j (h_accounts w q))) /\
  (forall k, k <> (p, t) -> dget lkeyb (h_data w') k = dget lkeyb (h_data w) k) /\
  (forall j o, nth_error (h_objs w) j = Some o -> nth_error (h_objs w') j = Some o) /\
  (forall j c, contributor w j = Ok c -> contributor w' j = Ok c).
Proof.
  intros mc inf w a e w' p t H As. destruct (construct_effect _ _ _ _ _ _ H) as [->|(link & limit & w1 & P & A & D1 & L1 & O1 & A1 & E)]; [repeat split; auto|].
  destruct (alias_ok _ _ _ P) as [-> Ek].
  assert (F : h_accounts w' = h_accounts w1 /\ (forall k, k <> (p, t) -> rec_at w' k = rec_at w1 k) /\
    (forall j o, nth_error (h_objs w) j = Some o -> nth_error (h_objs w') j = Some o) /\ (exists tl, h_links w' = h_links w1 ++ tl)).
  { assert (O1' : forall j o, nth_error (h_objs w) j = Some o -> nth_error (h_objs w1) j = Some o).
    { intros j o Hj. rewrite O1, nth_error_app1; [exact Hj|]. apply nth_error_Some. congruence. }
    destruct E as [->|(w2 & L & E)]; [split; [reflexivity|]; split; [reflexivity|]; split; [exact O1'|exists []; rewrite app_nil_r; reflexivity]|].
    assert (G : h_accounts w2 = h_accounts w1 /\ (forall k, k <> (p, t) -> rec_at w2 k = rec_at w1 k) /\ link_key w2 (account_count w) = Some (p, t) /\
      (forall j o, nth_error (h_objs w) j = Some o -> nth_error (h_objs w2) j = Some o) /\ (exists tl, h_links w2 = h_links w1 ++ tl)).
    { destruct (link_ok _ _ _ _ _ _ L) as [[-> _]|(r & k & Hl & N2 & Tl & A2 & O2 & R2)].
      { exfalso. unfold asks_for in As. destruct (c_kw_link a) as [l|]; [subst l; exact As|discriminate]. }
      assert (k = (p, t)).
      { unfold asks_for in As. destruct (c_kw_link a) as [l|].
        - subst l. destruct link as [|q u|r'|]; try contradiction.
          + destruct Hl as (p' & -> & ->). cbn in As. destruct As as [X <-]. injection X as ->. reflexivity.
          + destruct Hl as [-> Hl]. rewrite L1 in Hl. congruence.
        - subst link. destruct Hl as (p' & X & ->). rewrite X in As. cbn in As. destruct As as [X' ->]. injection X' as ->. reflexivity. }
      subst k. split; [exact A2|]. split; [intros k Hk; rewrite R2; destruct (lkeyb k (p, t)) eqn:F; [apply lkeyb_t in F; contradiction|reflexivity]|].
      split; [|split; [|exact Tl]].
      - unfold link_key. rewrite O2, nth_upd, Nat.eqb_refl, O1. unfold account_count. rewrite nth_error_app2, Nat.sub_diag by lia. cbn. exact N2.
      - intros j o Hj. rewrite O2, nth_upd. assert (j < account_count w)%nat by (unfold account_count; apply nth_error_Some; congruence).
        replace (Nat.eqb j (account_count w)) with false by (symmetry; apply Nat.eqb_neq; lia). apply O1'. exact Hj. }
    destruct G as (G1 & G2 & G3 & G4 & G5). destruct E as [->|(k & g & v & Kk & Rk & _ & ->)]; [auto|].
    assert (k = (p, t)) by congruence. subst k. split; [exact G1|]. split; [|split; [exact G4|exact G5]].
    intros k Hk. rewrite rec_put. destruct (lkeyb k (p, t)) eqn:F; [apply lkeyb_t in F; contradiction|apply G2; exact Hk]. }
  destruct F as (F1 & F2 & F3 & [tl F4]).
  split. { intros q Hq. rewrite F1, A1. destruct (c_owner a) as [|x|]; try reflexivity. unfold upd_nat. destruct (Nat.eqb q x) eqn:G; [|reflexivity]. apply Nat.eqb_eq in G. subst. contradiction. }
  split. { intros q j Hj. rewrite F1, A1. destruct (c_owner a) as [|x|]; try tauto. unfold upd_nat. destruct (Nat.eqb q x) eqn:G; [|tauto]. apply Nat.eqb_eq in G. subst x. rewrite sadd_In. tauto. }
  split. { intros k Hk. generalize (F2 k Hk). unfold rec_at. rewrite D1. auto. }
  split; [exact F3|].
  intros j c Hc. unfold contributor, link_key in *. destruct (nth_error (h_objs w) j) as [o|] eqn:Eo; [|discriminate].
  rewrite (F3 _ _ Eo). destruct (o_link o) as [r|]; [|discriminate]. destruct (nth_error (h_links w) r) as [k|] eqn:Er; [|discriminate].
  rewrite F4, L1, nth_error_app1 by (apply nth_error_Some; congruence). rewrite Er. exact Hc.
Qed.
Print Assumptions C100_damage_is_local_partial.
(** an RRSP whose conversion year is too late is rejected, but a half-made account stays in its owner's accounts and in the group, and the
    contribution room passed to the rejected call has replaced the room of the existing accounts *)
Theorem C100_late_conversion_refuted : exists a w', construct mc0 inf0 house a = (Err ValueError, w') /\ ~ no_trace house w' /\
  h_accounts house 0%nat = [0%nat; 2%nat] /\ h_accounts w' 0%nat = [0%nat; 2%nat; 3%nat] /\ room house 2 = Some 700 /\ room w' 2 = Some 90000.
Proof.
  exists (with_room (base_args (KRRSP (Some 2041%Z)) "RRSP" 0) 90000). eexists. split; [reflexivity|].
  split; [intros [N _]; specialize (N 0%nat); discriminate N|]. repeat (split; [reflexivity|]). reflexivity.
Qed.
Print Assumptions C100_late_conversion_refuted.
(** so is an account with a bad compounding frequency (any kind of account), and one with a bad link *)
Theorem C100_bad_frequency_refuted : exists a w', construct mc0 inf0 house a = (Err ValueError, w') /\ ~ no_trace house w' /\
  h_accounts w' 1%nat = [1%nat; 3%nat] /\ contributor w' 3 = Err AttributeError.
Proof.
  exists {| c_kind := KTFSA; c_class := "TFSA"; c_owner := PPerson 1; c_year := true; c_nper_ok := false; c_room := None; c_contributor := None; c_token := None;
     c_kw_limit := None; c_kw_link := None |}. eexists. split; [reflexivity|]. split; [intros [N _]; specialize (N 1%nat); discriminate N|]. split; reflexivity.
Qed.
Print Assumptions C100_bad_frequency_refuted.
Theorem C100_bad_link_refuted : exists a w', construct mc0 inf0 house a = (Err TypeError, w') /\ ~ no_trace house w' /\ c_kw_link a = Some LBad /\
  h_accounts w' 1%nat = [1%nat; 3%nat].
Proof.
  exists {| c_kind := KTFSA; c_class := "TFSA"; c_owner := PPerson 1; c_year := true; c_nper_ok := true; c_room := None; c_contributor := None; c_token := None;
     c_kw_limit := None; c_kw_link := Some LBad |}. eexists. split; [reflexivity|]. split; [intros [N _]; specialize (N 1%nat); discriminate N|]. split; reflexivity.
Qed.
Print Assumptions C100_bad_link_refuted.
Example C100_sat : exists a e w', construct mc0 inf0 house a = (Err e, w') /\ (ambiguous a \/ c_owner a = POther \/ (c_owner a = PNone /\ c_year a = false)) /\
  exists b e' w'', construct mc0 inf0 house b = (Err e', w'') /\ asks_for house b 0 "RRSP.max_inflow".
Proof.
  exists {| c_kind := KTFSA; c_class := "TFSA"; c_owner := POther; c_year := true; c_nper_ok := true; c_room := Some 3; c_contributor := None; c_token := None;
     c_kw_limit := None; c_kw_link := None |}. do 2 eexists. split; [reflexivity|]. split; [right; left; reflexivity|].
  exists (base_args (KRRSP (Some 2041%Z)) "RRSP" 0). do 2 eexists. split; [reflexivity|]. cbn. auto.
Qed.

(** ** C101: every contribution counts against the contributor's room *)
Definition no_contributor_change (l : list rop) : Prop := forall i p, ~ In (RContributor i p) l.
Record inv (w : hw) : Prop := {
  i_links : links_known w;
  i_in : forall i k, link_key w i = Some k -> exists g, rec_at w k = Some g /\ In i (g_members g);
  i_out : forall k g i, rec_at w k = Some g -> In i (g_members g) -> link_key w i = Some k;
  i_nd : forall k g, rec_at w k = Some g -> NoDup (g_members g) }.
Lemma inv_put w k g v : inv w -> rec_at w k = Some g -> inv (put_rec w k {| g_members := g_members g; g_limit := v |}).
Proof.
  intros [L I O N] R. split.
  - exact L.
  - intros i k' H. rewrite link_key_put in H. rewrite rec_put. destruct (I _ _ H) as (g' & Hg & Hi). destruct (lkeyb k' k) eqn:E; [|exists g'; auto].
    apply lkeyb_t in E. subst k'. eexists. split; [reflexivity|]. cbn. congruence.
  - intros k' g' i. rewrite rec_put, link_key_put. destruct (lkeyb k' k) eqn:E; [|apply O]. apply lkeyb_t in E. subst k'. intro H. injection H as <-. cbn. apply O. exact R.
  - intros k' g'. rewrite rec_put. destruct (lkeyb k' k) eqn:E; [|apply N]. intro H. injection H as <-. cbn. apply (N _ _ R).
Qed.
Lemma inv_deposit w i v : inv w -> inv (deposit w i v).
Proof.
  intros [L I O N].
  assert (K : forall j, link_key (deposit w i v) j = link_key w j).
  { intro j. unfold link_key, deposit. cbn. rewrite nth_upd. destruct (Nat.eqb j i); [|reflexivity]. destruct (nth_error (h_objs w) j); reflexivity. }
  split.
  - intros j o r Ho Hr. unfold deposit in Ho. cbn in Ho. rewrite nth_upd in Ho. destruct (Nat.eqb j i); [|exact (L _ _ _ Ho Hr)].
    destruct (nth_error (h_objs w) j) as [o'|] eqn:E; [|discriminate]. cbn in Ho. injection Ho as <-. cbn in Hr. exact (L _ _ _ E Hr).
  - intros j k. rewrite K. apply I.
  - intros k g j R M. rewrite K. apply (O k g); assumption.
  - exact N.
Qed.
Lemma inv_init w w1 o : inv w -> h_data w1 = h_data w -> h_links w1 = h_links w -> h_objs w1 = h_objs w ++ [{| o_owner := o; o_link := None; o_txns := [] |}] ->
  inv w1 /\ link_key w1 (account_count w) = None.
Proof.
  intros [L I O N] D1 L1 O1.
  assert (K : forall j, link_key w1 j = link_key w j).
  { intro j. unfold link_key. rewrite O1, L1. destruct (Nat.lt_ge_cases j (account_count w)) as [H|H]; unfold account_count in H.
    - rewrite nth_error_app1 by exact H. reflexivity.
    - rewrite nth_error_app2 by exact H. assert (nth_error (h_objs w) j = None) as -> by (apply nth_error_None; exact H).
      destruct (j - Datatypes.length (h_objs w))%nat as [|[|n]]; reflexivity. }
  assert (R : forall k, rec_at w1 k = rec_at w k) by (intro k; unfold rec_at; rewrite D1; reflexivity).
  split; [split|].
  - intros j ob r Ho Hr. rewrite O1 in Ho. rewrite L1. destruct (Nat.lt_ge_cases j (Datatypes.length (h_objs w))) as [H|H].
    + rewrite nth_error_app1 in Ho by exact H. exact (L _ _ _ Ho Hr).
    + rewrite nth_error_app2 in Ho by exact H. destruct (j - Datatypes.length (h_objs w))%nat as [|[|n]]; try discriminate. cbn in Ho. injection Ho as <-. discriminate.
  - intros j k. rewrite K, R. apply I.
  - intros k g j. rewrite K, R. apply O.
  - intros k g. rewrite R. apply N.
  - unfold link_key. rewrite O1. unfold account_count. rewrite nth_error_app2, Nat.sub_diag by lia. reflexivity.
Qed.
Lemma inv_link w i l limit w2 : inv w -> link_key w i = None -> nth_error (h_objs w) i <> None -> process_max_inflow_link w i l limit = (Ok tt, w2) -> inv w2.
Proof.
  intros V Ki Hi H. destruct (link_ok _ _ _ _ _ _ H) as [[_ ->]|(r & k & Hl & N2 & [tl Tl] & A2 & O2 & R2)]; [exact V|].
  destruct V as [L I O N].
  assert (K2 : link_key w2 i = Some k). { unfold link_key. rewrite O2, nth_upd, Nat.eqb_refl. destruct (nth_error (h_objs w) i); [cbn; exact N2|contradiction]. }
  assert (K : forall j, j <> i -> link_key w2 j = link_key w j).
  { intros j Hj. unfold link_key. rewrite O2, nth_upd. replace (Nat.eqb j i) with false by (symmetry; apply Nat.eqb_neq; exact Hj).
    destruct (nth_error (h_objs w) j) as [o|] eqn:Eo; [|reflexivity]. destruct (o_link o) as [s|] eqn:Es; [|reflexivity].
    rewrite Tl, nth_error_app1; [reflexivity|]. apply nth_error_Some. exact (L _ _ _ Eo Es). }
  assert (Pm : forall j, In j (g_members (prior w k)) -> link_key w j = Some k).
  { intros j Hj. unfold prior in Hj. destruct (rec_at w k) as [g|] eqn:E; [apply (O k g); assumption|contradiction]. }
  split.
  - intros j o s Ho Hs. rewrite O2, nth_upd in Ho. destruct (Nat.eqb j i) eqn:E.
    + destruct (nth_error (h_objs w) j); [|discriminate]. cbn in Ho. injection Ho as <-. cbn in Hs. injection Hs as <-. congruence.
    + rewrite Tl, nth_error_app1; [exact (L _ _ _ Ho Hs)|]. apply nth_error_Some. exact (L _ _ _ Ho Hs).
  - intros j k' Hj. rewrite R2. destruct (Nat.eq_dec j i) as [->|Ne].
    + assert (k' = k) by congruence. subst k'. rewrite lkeyb_refl. eexists. split; [reflexivity|]. cbn. apply sadd_In. auto.
    + rewrite (K j Ne) in Hj. destruct (I _ _ Hj) as (g & Hg & Hm). destruct (lkeyb k' k) eqn:E; [|exists g; auto]. apply lkeyb_t in E. subst k'.
      eexists. split; [reflexivity|]. cbn. apply sadd_In. right. unfold prior. rewrite Hg. exact Hm.
  - intros k' g j. rewrite R2. destruct (lkeyb k' k) eqn:E.
    + apply lkeyb_t in E. subst k'. intro X. injection X as <-. cbn. rewrite sadd_In. intros [->|Hm]; [exact K2|].
      specialize (Pm _ Hm). destruct (Nat.eq_dec j i) as [->|Ne]; [congruence|]. rewrite K by exact Ne. exact Pm.
    + intros Hg Hm. assert (Kj := O _ _ _ Hg Hm). destruct (Nat.eq_dec j i) as [->|Ne]; [congruence|]. rewrite K by exact Ne. exact Kj.
  - intros k' g. rewrite R2. destruct (lkeyb k' k) eqn:E; [|apply N]. intro X. injection X as <-. cbn. apply sadd_nodup. unfold prior.
    destruct (rec_at w k) as [g|] eqn:F; [apply (N _ _ F)|constructor].
Qed.
Lemma inv_construct mc inf w a : inv w -> inv (snd (construct mc inf w a)).
Proof.
  intro V. destruct (construct mc inf w a) as [r w'] eqn:H. cbn [snd].
  destruct (construct_effect _ _ _ _ _ _ H) as [->|(link & limit & w1 & P & A & D1 & L1 & O1 & A1 & E)]; [exact V|].
  destruct (inv_init w w1 _ V D1 L1 O1) as [V1 K1]. destruct E as [->|(w2 & L & E)]; [exact V1|].
  assert (V2 : inv w2). { apply (inv_link w1 (account_count w) link limit w2 V1 K1); [|exact L]. rewrite O1. unfold account_count. rewrite nth_error_app2, Nat.sub_diag by lia. discriminate. }
  destruct E as [->|(k & g & v & Kk & Rk & _ & ->)]; [exact V2|]. apply inv_put; assumption.
Qed.
Lemma inv_run mc inf l : no_contributor_change l -> forall w, inv w -> inv (rrun mc inf l w).
Proof.
  unfold rrun. induction l as [|o l IH]; intros Nc w V; cbn [fold_left]; [exact V|].
  apply IH; [intros i p Hi; apply (Nc i p); right; exact Hi|].
  destruct o as [a|i v|i v|i p]; cbn [rstep].
  - apply inv_construct. exact V.
  - apply inv_deposit. exact V.
  - unfold set_room. destruct (link_key w i) as [k|] eqn:K; [|exact V]. destruct (rec_at w k) as [g|] eqn:R; [|exact V]. cbn [snd]. apply inv_put; assumption.
  - exfalso. apply (Nc i p). left. reflexivity.
Qed.
Lemma inv_empty : inv empty_hw.
Proof.
  split.
  - intros i o r H. destruct i; discriminate.
  - intros i k H. unfold link_key in H. destruct i; discriminate.
  - intros k g i H. discriminate.
  - intros k g H. discriminate.
Qed.
Lemma members_perm w k g : inv w -> rec_at w k = Some g -> Permutation (g_members g) (drawing_on w k).
Proof.
  intros [L I O N] R. apply NoDup_Permutation; [apply (N _ _ R)|apply NoDup_filter, seq_NoDup|].
  intro j. unfold drawing_on. rewrite filter_In, in_seq. unfold keyb. split.
  - intro H. assert (K := O _ _ _ R H). rewrite K, lkeyb_refl. split; [|reflexivity]. split; [lia|].
    unfold link_key in K. unfold account_count. apply nth_error_Some. destruct (nth_error (h_objs w) j); [discriminate|discriminate].
  - intros [_ H]. destruct (link_key w j) as [k'|] eqn:K; [|discriminate]. apply lkeyb_t in H. subst k'. destruct (I _ _ K) as (g' & Hg & Hj). congruence.
Qed.
Lemma take_out (f : nat -> Q) l i : NoDup l -> In i l -> f i + Qsum (map f (filter (fun j => negb (Nat.eqb i j)) l)) == Qsum (map f l).
Proof.
  induction l as [|x l IH]; intros N H; [contradiction|]. inversion N as [|y m Hx N' E]; subst. cbn [filter map Qsum]. destruct H as [->|H].
  - rewrite Nat.eqb_refl. cbn [negb]. replace (filter (fun j => negb (Nat.eqb i j)) l) with l; [reflexivity|].
    clear IH N N'. induction l as [|y l IH]; [reflexivity|]. cbn [filter]. destruct (Nat.eqb i y) eqn:E; cbn [negb].
    + apply Nat.eqb_eq in E. subst. exfalso. apply Hx. left. reflexivity.
    + f_equal. apply IH. intro H. apply Hx. right. exact H.
  - destruct (Nat.eqb i x) eqn:E; [apply Nat.eqb_eq in E; subst; contradiction|]. cbn [negb map Qsum]. rewrite <- (IH N' H). lra.
Qed.
(** whatever accounts are built (successfully or not), deposits made and rooms assigned: what may still go into an account is its room
    less everything contributed to the accounts that draw on the same room *)
Lemma everyone_counts : forall mc inf l w i p t m, no_contributor_change l -> w = rrun mc inf l empty_hw ->
  link_key w i = Some (p, t) -> room w i = Some m ->
  exists x, room_left w i = Some x /\ x == qmax (m - Qsum (map (inflow_of w) (drawing_on w (p, t)))) 0.
Proof.
  intros mc inf l w i p t m Nc -> K R. set (w := rrun mc inf l empty_hw) in *. assert (V : inv w) by (apply inv_run; [exact Nc|exact inv_empty]).
  unfold room in R. rewrite K in R. unfold room_left. rewrite K. destruct (rec_at w (p, t)) as [g|] eqn:G; [|discriminate]. rewrite R. eexists. split; [reflexivity|].
  assert (M := members_perm _ _ _ V G). destruct (i_in _ V _ _ K) as (g' & Hg & Hi). assert (g' = g) by congruence. subst g'.
  assert (E : inflow_of w i + Qsum (map (inflow_of w) (filter (fun j => negb (Nat.eqb i j)) (g_members g))) == Qsum (map (inflow_of w) (drawing_on w (p, t)))).
  { rewrite (take_out (inflow_of w) (g_members g) i (i_nd _ V _ _ G) Hi). apply Qsum_map_perm. exact M. }
  unfold qmax. destruct (Qle_bool _ 0) eqn:A, (Qle_bool (m - Qsum (map (inflow_of w) (drawing_on w (p, t)))) 0) eqn:B; qb; lra.
Qed.
(** the amounts put into (or, if negative, taken out of) account [i] during a history, in order *)
Fixpoint given (l : list rop) (i : nat) : list Q :=
  match l with
  | [] => []
  | RDeposit j v :: r => if Nat.eqb j i then v :: given r i else given r i
  | _ :: r => given r i
  end.
(** what was put in; what was taken out does not count *)
Definition contributed (l : list rop) (i : nat) : Q := Qsum (filter (fun v => Qle_bool 0 v) (given l i)).
(** transactions are made only with accounts that exist *)
Definition sensible (mc : option nat -> res Z) (inf : hw -> nat -> res Q) (l : list rop) : Prop :=
  forall l1 j v l2, l = l1 ++ RDeposit j v :: l2 -> (j < account_count (rrun mc inf l1 empty_hw))%nat.
Definition txns (w : hw) : list (list Q) := map o_txns (h_objs w).
Lemma map_upd {A B} (h : A -> B) f : forall l i, (forall x, h (f x) = h x) -> map h (upd_nth l i f) = map h l.
Proof. induction l as [|x l IH]; intros [|i] H; cbn; [reflexivity..|now rewrite H|now rewrite IH]. Qed.
Lemma join_txns w i r limit : txns (snd (join w i r limit)) = txns w.
Proof. unfold join. destruct (nth_error (h_links w) r); [|reflexivity]. destruct (rec_at w _); reflexivity. Qed.
Lemma attr_txns w i r : txns (set_link_attr w i r) = txns w.
Proof. unfold txns, set_link_attr. cbn [h_objs set_objs]. now apply map_upd. Qed.
Lemma link_txns w i l limit : txns (snd (process_max_inflow_link w i l limit)) = txns w.
Proof.
  unfold process_max_inflow_link. destruct l as [|p t|r|]; try reflexivity.
  - assert (N : txns (snd (new_link w p t)) = txns w) by (unfold new_link; destruct p; try reflexivity; destruct (rec_at w _); reflexivity).
    destruct (new_link w p t) as [[r|e] w1]; cbn [snd] in *; [|exact N]. pose proof (join_txns w1 i r limit) as J.
    destruct (join w1 i r limit) as [[[]|e] w2]; cbn [snd] in *; [now rewrite attr_txns, J|now rewrite J].
  - pose proof (join_txns w i r limit) as J. destruct (join w i r limit) as [[[]|e] w1]; cbn [snd] in *; [now rewrite attr_txns|exact J].
Qed.
Lemma room_txns w i v : txns (snd (set_room w i v)) = txns w.
Proof. unfold set_room. destruct (link_key w i); [|reflexivity]. destruct (rec_at w _); reflexivity. Qed.
Lemma class_txns mc inf w i o k : txns (snd (class_init mc inf w i o k)) = txns w.
Proof.
  unfold class_init, bind_out. destruct k as [y| |]; [| |reflexivity].
  - destruct y as [y|]; [destruct (mc o) as [m|e]; [destruct (Z.ltb m y)|]|]; cbn; try reflexivity; (destruct (room_unset w i); [apply room_txns|reflexivity]).
  - destruct (room_unset w i); [|reflexivity]. destruct (inf w i); [apply room_txns|reflexivity].
Qed.
Lemma construct_txns mc inf w a : txns (snd (construct mc inf w a)) = txns w \/ txns (snd (construct mc inf w a)) = txns w ++ [[]].
Proof.
  unfold construct. destruct (process_alias_args a) as [[link limit]|e]; [|now left].
  assert (I : txns (snd (account_init w a)) = txns w \/ txns (snd (account_init w a)) = txns w ++ [[]]).
  { unfold account_init. destruct (c_owner a); try (destruct (c_year a)); try (now left); right; unfold txns; cbn [snd h_objs set_objs set_accounts]; now rewrite map_app. }
  match goal with |- txns (snd ?X) = _ \/ _ => assert (K : txns (snd X) = txns (snd (account_init w a))); [|rewrite K; exact I] end.
  clear I. unfold bind_out at 1. destruct (account_init w a) as [[i|e] w1]; cbn [snd]; [|reflexivity].
  unfold bind_out at 1. pose proof (link_txns w1 i link limit) as L. destruct (process_max_inflow_link w1 i link limit) as [[x|e] w2]; cbn [snd] in *; [|exact L].
  unfold bind_out. pose proof (class_txns mc inf w2 i (match c_owner a with PPerson p => Some p | _ => None end) (c_kind a)) as Cl.
  destruct (class_init mc inf w2 i _ (c_kind a)) as [[y|e] w3]; cbn [snd] in *; now rewrite Cl, L.
Qed.
Lemma given_app l l' i : given (l ++ l') i = given l i ++ given l' i.
Proof. induction l as [|[a|j v|j v|j v] l IH]; cbn; try exact IH; [reflexivity|]. destruct (Nat.eqb j i); cbn; now rewrite IH. Qed.
Lemma txns_given mc inf : forall l, sensible mc inf l -> forall i,
  match nth_error (txns (rrun mc inf l empty_hw)) i with Some ts => ts = given l i | None => given l i = [] end.
Proof.
  intros l. induction l as [|o l IH] using rev_ind; intros S i; [destruct i; reflexivity|].
  assert (Sl : sensible mc inf l) by (intros l1 j v l2 E; apply (S l1 j v (l2 ++ [o])); now rewrite E, <- app_assoc).
  specialize (IH Sl). unfold rrun in *. rewrite fold_left_app. cbn [fold_left]. set (w := fold_left (rstep mc inf) l empty_hw) in *. rewrite given_app.
  assert (Same : txns (rstep mc inf w o) = txns w \/ txns (rstep mc inf w o) = txns w ++ [[]] -> given [o] i = [] ->
    match nth_error (txns (rstep mc inf w o)) i with Some ts => ts = given l i ++ given [o] i | None => given l i ++ given [o] i = [] end).
  { intros [E|E] G; rewrite E, G, app_nil_r; [apply IH|]. destruct (Nat.lt_ge_cases i (Datatypes.length (txns w))) as [H|H].
    - rewrite nth_error_app1 by exact H. apply IH.
    - rewrite nth_error_app2 by exact H. specialize (IH i). rewrite (proj2 (nth_error_None _ _) H) in IH. rewrite IH.
      destruct (i - Datatypes.length (txns w))%nat as [|[|n]]; reflexivity. }
  destruct o as [a|j v|j v|j p].
  - apply Same; [apply construct_txns|reflexivity].
  - assert (J : (j < account_count w)%nat) by (apply (S l j v []); reflexivity).
    cbn [rstep]. unfold deposit, txns. cbn [h_objs set_objs]. rewrite nth_error_map, nth_upd. specialize (IH i). unfold txns in IH. rewrite nth_error_map in IH.
    cbn [given]. rewrite (Nat.eqb_sym j i). destruct (Nat.eqb i j) eqn:Ei; [|rewrite app_nil_r; exact IH]. apply Nat.eqb_eq in Ei. subst j.
    destruct (nth_error (h_objs w) i) as [ob|] eqn:Eo; cbn in *; [now rewrite IH|]. apply nth_error_None in Eo. unfold account_count in J. lia.
  - apply Same; [left; apply room_txns|reflexivity].
  - apply Same; [left|reflexivity]. cbn [rstep]. unfold set_contributor. destruct (nth_error (h_objs w) j) as [[oo [r|] ot]|]; reflexivity.
Qed.
Lemma inflow_given mc inf : forall l i, sensible mc inf l -> inflow_of (rrun mc inf l empty_hw) i == contributed l i.
Proof.
  intros l i S. pose proof (txns_given mc inf l S i) as T. unfold txns in T. rewrite nth_error_map in T. unfold inflow_of, contributed.
  destruct (nth_error (h_objs (rrun mc inf l empty_hw)) i) as [o|]; cbn in T; [|rewrite T; reflexivity]. rewrite T. clear.
  induction (given l i) as [|v vs IH]; [reflexivity|]. cbn [map filter Qsum]. unfold qmax at 1. destruct (Qle_bool 0 v) eqn:E; cbn [Qsum]; rewrite IH; destruct (Qle_bool v 0) eqn:E2; qb; lra.
Qed.
Theorem C101_everyone_counts_partial : forall mc inf l w i p t m, no_contributor_change l -> sensible mc inf l -> w = rrun mc inf l empty_hw ->
  link_key w i = Some (p, t) -> room w i = Some m ->
  exists x, room_left w i = Some x /\ x == qmax (m - Qsum (map (contributed l) (drawing_on w (p, t)))) 0.
Proof.
  intros mc inf l w i p t m N S W K R. destruct (everyone_counts mc inf l w i p t m N W K R) as (x & X1 & X2). exists x. split; [exact X1|]. rewrite X2.
  assert (E : Qsum (map (inflow_of w) (drawing_on w (p, t))) == Qsum (map (contributed l) (drawing_on w (p, t)))).
  { generalize (drawing_on w (p, t)). intros ds. induction ds as [|j ds IH]; [reflexivity|]. cbn [map Qsum]. rewrite IH. subst w. now rewrite (inflow_given mc inf l j S). }
  unfold qmax. destruct (Qle_bool (m - Qsum (map (inflow_of w) _)) 0) eqn:A, (Qle_bool (m - Qsum (map (contributed l) _)) 0) eqn:B; qb; lra.
Qed.
Print Assumptions C101_everyone_counts_partial.
(** changing the contributor redirects the account's link and nothing else: its contributions are not counted against the new contributor's
    other accounts (10000 can be contributed to a room of 5000) and still are against the old contributor's *)
Definition couple : list rop := [RConstruct (tfsa_of 0); RConstruct (tfsa_of 1); RConstruct (tfsa_of 0)].
Theorem C101_new_contributor_refuted : exists w, w = rrun mc0 inf0 (couple ++ [RContributor 0 1; RDeposit 0 5000]) empty_hw /\
  contributor w 0 = Ok 1%nat /\ contributor w 1 = Ok 1%nat /\ room w 0 = Some 5000 /\ room w 1 = Some 5000 /\
  drawing_on w (1%nat, "TFSA.max_inflow"%string) = [0%nat; 1%nat] /\ room_left w 1 = Some (5000 - (0 + 0)) /\
  drawing_on w (0%nat, "TFSA.max_inflow"%string) = [2%nat] /\ room_left w 2 = Some 0.
Proof. eexists. split; [reflexivity|]. repeat (split; [reflexivity|]). reflexivity. Qed.
Print Assumptions C101_new_contributor_refuted.
(** with a contributor who has no account of the class yet the account has no room at all (None), and assigning it fails *)
Theorem C101_unregistered_contributor_refuted : exists w, w = rrun mc0 inf0 (couple ++ [RContributor 0 2]) empty_hw /\
  contributor w 0 = Ok 2%nat /\ room w 0 = None /\ room_left w 0 = None /\ fst (set_room w 0 100) = Err AttributeError.
Proof. eexists. split; [reflexivity|]. repeat (split; [reflexivity|]). reflexivity. Qed.
Print Assumptions C101_unregistered_contributor_refuted.
(** accounts built with the same AccountLink object change contributor together *)
Definition tfsa_via (p r : nat) : ctor_args :=
  {| c_kind := KTFSA; c_class := "TFSA"; c_owner := PPerson p; c_year := false; c_nper_ok := true; c_room := None; c_contributor := None; c_token := None;
     c_kw_limit := None; c_kw_link := Some (LObj r) |}.
Theorem C101_shared_link_refuted : exists w w', w = rrun mc0 inf0 [RConstruct (tfsa_of 0); RConstruct (tfsa_via 1 0)] empty_hw /\
  contributor w 0 = Ok 0%nat /\ contributor w 1 = Ok 0%nat /\ set_contributor w 0 2 = (Ok tt, w') /\ contributor w' 1 = Ok 2%nat.
Proof. do 2 eexists. split; [reflexivity|]. repeat (split; [reflexivity|]). reflexivity. Qed.
Print Assumptions C101_shared_link_refuted.
Example C101_sat : exists l w, no_contributor_change l /\ sensible mc0 inf0 l /\ w = rrun mc0 inf0 l empty_hw /\ link_key w 2 = Some (0%nat, "TFSA.max_inflow"%string) /\
  room w 2 = Some 5000 /\ drawing_on w (0%nat, "TFSA.max_inflow"%string) = [0%nat; 2%nat] /\ exists x, room_left w 2 = Some x /\ x == 2850.
Proof.
  exists (couple ++ [RDeposit 0 2000; RDeposit 2 100; RDeposit 1 70; RDeposit 0 50; RDeposit 2 (- (60))]). eexists. split; [intros i p H; cbn in H; intuition discriminate|].
  split; [|split; [reflexivity|]; repeat (split; [reflexivity|]); eexists; split; reflexivity].
  intros l1 j v l2 E. unfold couple in E. cbn [app] in E.
  do 9 (destruct l1 as [|o l1]; [cbn [app] in E; (discriminate E || (injection E as <- _ _; vm_compute; lia))|cbn [app] in E; (discriminate E || injection E as <- E)]).
Qed.
