(** C121: recorded properties, however they are declared and inherited. *)
From Verif Require Import Base BaseFacts DecoratorModel.
From Coq Require Import Permutation.
Local Open Scope string_scope.

(** ** Specification *)
Section Spec.
Context {V E : Type}.
Notation obj := (obj V E). Notation getfn := (getfn V E). Notation setfn := (setfn V E). Notation delfn := (delfn V E).
Notation prop := (prop V E). Notation decorator := (decorator V E).
(** the functions given last *)
Definition last_getter (f : getfn) (l : list decorator) : getfn := fold_left (fun g d => match d with DGetter f => f | _ => g end) l f.
Definition last_setter (l : list decorator) : option setfn := fold_left (fun g d => match d with DSetter f => Some f | _ => g end) l None.
Definition last_deleter (l : list decorator) : option delfn := fold_left (fun g d => match d with DDeleter f => Some f | _ => g end) l None.
(** all functions have the name of the property *)
Definition named (x : string) (d : decorator) : Prop := match d with DGetter f => g_name f = x | DSetter f => s_name f = x | DDeleter f => d_name f = x end.
(** what a property is expected to do: [recorded o x]: the years recorded for property [x] of [o], if it keeps any *)
Definition recorded (o : obj) (x : string) : option (dict Z V) := dget String.eqb (o_hist o) ("_" ++ x ++ "_history").
Definition with_recorded (o : obj) (x : string) (d : dict Z V) : obj :=
  {| o_year := o_year o; o_inputs := o_inputs o; o_hist := dset String.eqb (o_hist o) ("_" ++ x ++ "_history") d; o_env := o_env o |}.
Definition store (o : obj) (x : string) (v : V) : obj := match recorded o x with Some d => with_recorded o x (dset Z.eqb d (o_year o) v) | None => o end.
Definition forget (o : obj) (x : string) : obj :=
  match recorded o x with Some d => with_recorded o x (filter (fun kv => negb (Z.eqb (fst kv) (o_year o))) d) | None => o end.
Definition fixed_by_user (o : obj) (x : string) : bool := match dget String.eqb (o_inputs o) x with Some d => dmem Z.eqb d (o_year o) | None => false end.
(** reading: what is recorded for this year, or else what the getter computes - and, if cached, that is then recorded *)
Definition plain_get (cached : bool) (x : string) (f : getfn) (o : obj) : res V * obj :=
  match recorded o x with
  | None => (Err AttributeError, o)
  | Some d => match dget Z.eqb d (o_year o) with
              | Some v => (Ok v, o)
              | None => match g_run f o with (Ok v, o') => (Ok v, if cached then store o' x v else o') | (Err e, o') => (Err e, o') end
              end
  end.
(** assigning: ignored if the user has fixed the value; otherwise recorded or, if there is a setter, forgotten and given to that *)
Definition plain_set (x : string) (s : option setfn) (v : V) (o : obj) : res unit * obj :=
  if fixed_by_user o x then (Ok tt, o)
  else match recorded o x with
       | None => (Err AttributeError, o)
       | Some _ => match s with None => (Ok tt, store o x v) | Some f => s_run f v (forget o x) end
       end.
(** deleting likewise *)
Definition plain_del (x : string) (s : option delfn) (o : obj) : res unit * obj :=
  if fixed_by_user o x then (Ok tt, o)
  else match recorded o x with
       | None => (Err AttributeError, o)
       | Some _ => match s with None => (Ok tt, forget o x) | Some f => d_run f (forget o x) end
       end.
(** the history: all that is recorded, and this year's value *)
Definition plain_history (cached : bool) (x : string) (f : getfn) (o : obj) : res (dict Z V) * obj :=
  match recorded o x with
  | None => (Err AttributeError, o)
  | Some d => if dmem Z.eqb d (o_year o) then (Ok d, o)
              else match g_run f o with
                   | (Ok v, o') => if cached then (match recorded (store o' x v) x with Some d => Ok d | None => Err AttributeError end, store o' x v)
                                   else (Ok (dset Z.eqb d (o_year o') v), o')
                   | (Err e, o') => (Err e, o')
                   end
  end.
(** the same object but for the order of the years in its histories *)
Definition same_object (o o' : obj) : Prop :=
  o_year o = o_year o' /\ o_inputs o = o_inputs o' /\ o_env o = o_env o' /\ dkeys (o_hist o) = dkeys (o_hist o') /\
  forall a, match dget String.eqb (o_hist o) a, dget String.eqb (o_hist o') a with
            | Some d, Some d' => forall y, dget Z.eqb d y = dget Z.eqb d' y
            | None, None => True
            | _, _ => False
            end.
End Spec.

(** ** Proofs *)
Section Proofs.
Context {V E : Type}.
Notation obj := (obj V E). Notation getfn := (getfn V E). Notation setfn := (setfn V E). Notation delfn := (delfn V E).
Notation prop := (prop V E). Notation decorator := (decorator V E).
Lemma seq_refl (k : string) : String.eqb k k = true. Proof. apply String.eqb_refl. Qed.
Lemma sget_set {A} (h : dict string A) k v : dget String.eqb (dset String.eqb h k v) k = Some v.
Proof. induction h as [|[k' v'] h IH]; cbn; [now rewrite seq_refl|]. destruct (String.eqb k k') eqn:X; cbn; rewrite X; auto. Qed.
Lemma sget_other {A} (h : dict string A) k k' v : k <> k' -> dget String.eqb (dset String.eqb h k v) k' = dget String.eqb h k'.
Proof.
  intros N. induction h as [|[k0 v0] h IH]; cbn; [apply not_eq_sym, String.eqb_neq in N; now rewrite N|].
  destruct (String.eqb k k0) eqn:X; cbn; [apply String.eqb_eq in X; subst k0; apply not_eq_sym, String.eqb_neq in N; now rewrite N|]. destruct (String.eqb k' k0); auto.
Qed.
Lemma set_set {A} (h : dict string A) k v w : dset String.eqb (dset String.eqb h k v) k w = dset String.eqb h k w.
Proof. induction h as [|[k' v'] h IH]; cbn; [now rewrite seq_refl|]. destruct (String.eqb k k') eqn:X; cbn; rewrite X; [reflexivity|now rewrite IH]. Qed.
Lemma zset_set {A} (h : dict Z A) k v w : dset Z.eqb (dset Z.eqb h k v) k w = dset Z.eqb h k w.
Proof. induction h as [|[k' v'] h IH]; cbn; [now rewrite Z.eqb_refl|]. destruct (Z.eqb k k') eqn:X; cbn; rewrite X; [reflexivity|now rewrite IH]. Qed.
Lemma keys_set {A} (h : dict string A) k v v0 : dget String.eqb h k = Some v0 -> dkeys (dset String.eqb h k v) = dkeys h.
Proof. induction h as [|[k' v'] h IH]; cbn; [discriminate|]. destruct (String.eqb k k') eqn:X; cbn; [reflexivity|]. intros H. f_equal. now apply IH. Qed.
Lemma filter_twice {A} (f : A -> bool) l : filter f (filter f l) = filter f l.
Proof. induction l as [|a l IH]; cbn; [reflexivity|]. destruct (f a) eqn:X; cbn; rewrite ?X, ?IH; reflexivity. Qed.
(** the model's state changes are those of the specification *)
Lemma attr_recorded (o : obj) n : hist_attr o (history_dict_name n) = recorded o n. Proof. reflexivity. Qed.
Lemma change_store (o : obj) n v : change_hist o (history_dict_name n) (fun d => dset Z.eqb d (o_year o) v) = store o n v.
Proof. reflexivity. Qed.
Lemma change_forget (o : obj) n : change_hist o (history_dict_name n) (hdel (o_year o)) = forget o n.
Proof. reflexivity. Qed.
Lemma rec_store (o : obj) x v : recorded (store o x v) x = option_map (fun d => dset Z.eqb d (o_year o) v) (recorded o x).
Proof. unfold store. destruct (recorded o x) as [d|] eqn:X; [|exact X]. unfold recorded, with_recorded. cbn. apply sget_set. Qed.
Lemma rec_forget (o : obj) x : recorded (forget o x) x = option_map (filter (fun kv => negb (Z.eqb (fst kv) (o_year o)))) (recorded o x).
Proof. unfold forget. destruct (recorded o x) as [d|] eqn:X; [|exact X]. unfold recorded, with_recorded. cbn. apply sget_set. Qed.
Lemma store_year (o : obj) x v : o_year (store o x v) = o_year o. Proof. unfold store. now destruct (recorded o x). Qed.
Lemma forget_year (o : obj) x : o_year (forget o x) = o_year o. Proof. unfold forget. now destruct (recorded o x). Qed.
Lemma store_twice (o : obj) x v : store (store o x v) x v = store o x v.
Proof.
  unfold store at 1. rewrite rec_store, store_year. unfold store. destruct (recorded o x) as [d|] eqn:X; cbn [option_map]; [|reflexivity].
  rewrite zset_set. unfold with_recorded. cbn. now rewrite set_set.
Qed.
Lemma forget_twice (o : obj) x : forget (forget o x) x = forget o x.
Proof.
  unfold forget at 1. rewrite rec_forget, forget_year. unfold forget. destruct (recorded o x) as [d|] eqn:X; cbn [option_map]; [|reflexivity].
  rewrite filter_twice. unfold with_recorded. cbn. now rewrite set_set.
Qed.
Lemma forget_fixed (o : obj) x : fixed_by_user (forget o x) x = fixed_by_user o x. Proof. unfold forget. now destruct (recorded o x). Qed.
Lemma same_refl (o : obj) : same_object o o.
Proof. repeat split. intros a. now destruct (dget String.eqb (o_hist o) a). Qed.
Lemma zget_filter {A} (d : dict Z A) y k : k <> y -> dget Z.eqb (filter (fun kv => negb (Z.eqb (fst kv) y)) d) k = dget Z.eqb d k.
Proof.
  intros N. induction d as [|[k0 v0] d IH]; cbn; [reflexivity|]. destruct (Z.eqb k0 y) eqn:X; cbn; [apply Z.eqb_eq in X; subst k0; apply Z.eqb_neq in N; now rewrite N|]. destruct (Z.eqb k k0); auto.
Qed.
Lemma zget_set {A} (h : dict Z A) k v k' : dget Z.eqb (dset Z.eqb h k v) k' = if Z.eqb k' k then Some v else dget Z.eqb h k'.
Proof.
  induction h as [|[k0 v0] h IH]; cbn; [reflexivity|]. destruct (Z.eqb k k0) eqn:X; cbn.
  - apply Z.eqb_eq in X. subst k0. now destruct (Z.eqb k' k).
  - rewrite IH. destruct (Z.eqb k' k) eqn:Y, (Z.eqb k' k0) eqn:W; auto. apply Z.eqb_eq in Y, W. subst. rewrite Z.eqb_refl in X. discriminate.
Qed.
Lemma store_forget (o : obj) x v : same_object (store (forget o x) x v) (store o x v).
Proof.
  unfold store at 1. rewrite rec_forget, forget_year. unfold store, forget. destruct (recorded o x) as [d|] eqn:X; cbn [option_map]; [|apply same_refl].
  unfold with_recorded. cbn [o_year o_inputs o_hist o_env]. rewrite set_set. repeat split; cbn [o_year o_inputs o_hist o_env].
  - now rewrite !(keys_set _ _ _ _ X).
  - intros a. destruct (String.eqb_spec ("_" ++ x ++ "_history") a) as [<- | N]; [rewrite !sget_set|rewrite !sget_other by exact N; now destruct (dget String.eqb (o_hist o) a)].
    intros y. rewrite !zget_set. destruct (Z.eqb_spec y (o_year o)) as [|M]; [reflexivity|]. now apply zget_filter.
Qed.
Definition same_result {A} (r r' : A * obj) : Prop := fst r = fst r' /\ same_object (snd r) (snd r').
(** one property does what is expected *)
Record does (x : string) (cached : bool) (f : getfn) (s : option setfn) (d : option delfn) (p : prop) : Prop := {
  do_name : p_name p = x; do_cached : p_cached p = cached;
  do_gname : g_name (p_get p) = "getter"; do_sname : s_name (p_set p) = "setter"; do_dname : d_name (p_del p) = "deleter";
  do_get : forall o, g_run (p_get p) o = plain_get cached x f o;
  do_set : forall v o, same_result (s_run (p_set p) v o) (plain_set x s v o);
  do_del : forall o, d_run (p_del p) o = plain_del x d o;
  do_hist : forall o, p_history p o = plain_history cached x f o }.

(** reading through a getter that already does [plain_get] *)
Definition like_get (cached : bool) (x : string) (f g : getfn) : Prop := g_run g = g_run f \/ forall o, g_run g o = plain_get cached x f o.
Definition like_set (x : string) (s t : option setfn) : Prop :=
  t = s \/ exists g, t = Some g /\ forall v o, same_result (s_run g v o) (plain_set x s v o).
Definition like_del (x : string) (s t : option delfn) : Prop :=
  t = s \/ exists g, t = Some g /\ forall o, d_run g o = plain_del x s o.
Lemma declare_does x cached f g s t d u : name_of g t u = x -> like_get cached x f g -> like_set x s t -> like_del x d u -> does x cached f s d (declare cached g t u).
Proof.
  intros N LG LS LD.
  assert (GET : forall o, g_run (getter x (if cached then caching x g else g)) o = plain_get cached x f o).
  { intros o. cbn [getter g_run]. rewrite attr_recorded. unfold plain_get. destruct (recorded o x) as [r|] eqn:R; [|reflexivity]. destruct (dget Z.eqb r (o_year o)) eqn:G; [reflexivity|].
    destruct cached.
    - cbn [caching g_run]. rewrite attr_recorded, R. destruct LG as [-> | LG]; [destruct (g_run f o) as [[v|e] o']; reflexivity|]. rewrite LG. unfold plain_get. rewrite R, G. destruct (g_run f o) as [[v|e] o']; [|reflexivity]. rewrite change_store, store_twice. reflexivity.
    - destruct LG as [-> | LG]; [destruct (g_run f o) as [[v|e] o']; reflexivity|]. rewrite LG. unfold plain_get. rewrite R, G. reflexivity. }
  assert (SET : forall v o, same_result (s_run (setter x t) v o) (plain_set x s v o)).
  { intros v o. cbn [setter s_run]. rewrite attr_recorded. unfold plain_set. change (has_input o x) with (fixed_by_user o x). destruct (fixed_by_user o x) eqn:F; [split; [reflexivity|apply same_refl]|].
    destruct (recorded o x) as [r|] eqn:R; [|split; [reflexivity|apply same_refl]]. rewrite change_forget, change_store.
    destruct LS as [-> | (h & -> & LS)].
    - destruct s; (split; [reflexivity|apply same_refl]).
    - destruct (LS v (forget o x)) as [A B]. unfold plain_set in A, B. rewrite forget_fixed, F, rec_forget, R in A, B. cbn [option_map] in A, B. destruct s as [s0|]; [rewrite forget_twice in A, B; split; assumption|]. cbn [fst snd] in *. split; [exact A|].
      cbn [snd]. destruct B as (B1 & B2 & B3 & B4 & B5). destruct (store_forget o x v) as (C1 & C2 & C3 & C4 & C5). repeat split; try congruence. intros a. specialize (B5 a). specialize (C5 a).
      destruct (dget String.eqb (o_hist (snd (s_run h v (forget o x)))) a), (dget String.eqb (o_hist (store (forget o x) x v)) a), (dget String.eqb (o_hist (store o x v)) a); try contradiction; auto. intros y. now rewrite B5. }
  assert (DEL : forall o, d_run (deleter x u) o = plain_del x d o).
  { intros o. cbn [deleter d_run]. rewrite attr_recorded. unfold plain_del. change (has_input o x) with (fixed_by_user o x). destruct (fixed_by_user o x) eqn:F; [reflexivity|].
    destruct (recorded o x) as [r|] eqn:R; [|reflexivity]. cbn zeta. rewrite change_forget. destruct LD as [-> | (h & -> & LD)]; [reflexivity|]. rewrite LD. unfold plain_del. rewrite forget_fixed, F, rec_forget, R. cbn [option_map]. rewrite forget_twice. reflexivity. }
  assert (HIS : forall o, (if cached then cached_history x g else history x g) o = plain_history cached x f o).
  { intros o. destruct cached; unfold cached_history, history, plain_history; rewrite attr_recorded; destruct (recorded o x) as [r|] eqn:R; try reflexivity; destruct (dmem Z.eqb r (o_year o)) eqn:M; try reflexivity;
      (assert (G : dget Z.eqb r (o_year o) = None) by (unfold dmem in M; destruct (dget Z.eqb r (o_year o)); [discriminate|reflexivity]));
      (destruct LG as [-> | LG]; [destruct (g_run f o) as [[v|e] o']; reflexivity|]); rewrite LG; unfold plain_get; rewrite R, G; destruct (g_run f o) as [[v|e] o']; try reflexivity.
    cbn zeta. rewrite change_store, store_twice, attr_recorded. reflexivity. }
  unfold declare. destruct cached; [unfold recorded_property_cached; cbn zeta; change (name_of _ t u) with (name_of g t u)|unfold recorded_property; cbn zeta]; rewrite N; constructor; try reflexivity; assumption.
Qed.
Lemma declared_does x cached f l : x <> "getter" -> x <> "setter" -> x <> "deleter" -> g_name f = x -> Forall (named x) l ->
  does x cached (last_getter f l) (last_setter l) (last_deleter l) (declared cached f l).
Proof.
  intros Ng Ns Nd Hf. unfold declared, last_getter, last_setter, last_deleter.
  assert (NG : String.eqb x "getter" = false) by now apply String.eqb_neq. assert (NS : String.eqb x "setter" = false) by now apply String.eqb_neq. assert (ND : String.eqb x "deleter" = false) by now apply String.eqb_neq.
  assert (STEP : forall l f p s d, does x cached f s d p -> Forall (named x) l ->
    does x cached (fold_left (fun g d => match d with DGetter f => f | _ => g end) l f) (fold_left (fun g d => match d with DSetter f => Some f | _ => g end) l s)
      (fold_left (fun g d => match d with DDeleter f => Some f | _ => g end) l d) (fold_left redeclare l p)).
  2: { intros F. apply STEP; [|exact F]. apply declare_does; [unfold name_of; rewrite Hf, NG; reflexivity|now left|now left|now left]. }
  clear f l Hf. induction l as [|c l IH]; intros f p s d D F; cbn; [exact D|]. inversion_clear F as [|? ? Nc F']. apply IH; [|exact F']. destruct D as [D1 D2 D3 D4 D5 D6 D7 D8 D9]. rewrite <- D2.
  assert (LG : forall y, p_cached p = y -> like_get y x f (p_get p)) by (intros y <-; right; rewrite D2; exact D6).
  assert (LS : like_set x s (Some (p_set p))) by (right; eauto). assert (LD : like_del x d (Some (p_del p))) by (right; eauto).
  destruct c as [g|g|g]; cbn [redeclare named] in *; apply declare_does; try assumption; try (left; reflexivity); try (apply LG; reflexivity).
  - unfold name_of. rewrite Nc, NG. reflexivity.
  - unfold name_of. rewrite D3, Nc, NS. reflexivity.
  - unfold name_of. rewrite D3, D4, Nc, ND. reflexivity.
Qed.

(** A recorded property does what its last getter, setter and deleter say, in whatever order and however often they are given. *)
Theorem C121_declaration : forall cached x (f : getfn) (l : list decorator),
  x <> "getter" -> x <> "setter" -> x <> "deleter" -> g_name f = x -> Forall (named x) l ->
  let p := declared cached f l in
  p_name p = x /\ p_cached p = cached /\
  (forall o, g_run (p_get p) o = plain_get cached x (last_getter f l) o) /\
  (forall v o, fst (s_run (p_set p) v o) = fst (plain_set x (last_setter l) v o) /\ same_object (snd (s_run (p_set p) v o)) (snd (plain_set x (last_setter l) v o))) /\
  (forall o, d_run (p_del p) o = plain_del x (last_deleter l) o) /\
  (forall o, p_history p o = plain_history cached x (last_getter f l) o).
Proof.
  intros cached x f l Ng Ns Nd Hf F p. destruct (declared_does x cached f l Ng Ns Nd Hf F) as [D1 D2 D3 D4 D5 D6 D7 D8 D9]. auto 10.
Qed.
Print Assumptions C121_declaration.
End Proofs.

(** ** Classes *)
Section Classes.
Context {V E : Type}.
Notation obj := (obj V E). Notation getfn := (getfn V E). Notation prop := (prop V E). Notation decorator := (decorator V E). Notation class := (class V E). Notation attr := (attr V E).
(** *** Specification *)
(** attribute [x] of class [c] - its own or inherited - is recorded property [p] *)
Definition property_of (c : class) (x : string) (p : prop) : Prop := resolve c x = Some (ARecorded p).
(** recorded properties are found under their own names, and none is called like the history of another *)
Definition sensible (c : class) : Prop :=
  (forall x p, property_of c x p -> p_name p = x) /\ (forall x p y q, property_of c x p -> property_of c y q -> x <> y ++ "_history").
(** a new class: attributes [own], then those of classes made before *)
Definition subclass (own : dict string attr) (parent : ledger_class V E) : class := {| c_own := own; c_mro := c_own (l_class parent) :: c_mro (l_class parent) |}.

(** *** Proofs *)
Lemma app_cancel (a b s : string) : a ++ s = b ++ s -> a = b.
Proof.
  assert (L : forall u v, String.length (u ++ v) = (String.length u + String.length v)%nat) by (intros u v; induction u as [|c u IH]; cbn; [reflexivity|now rewrite IH]).
  revert b. induction a as [|c a IH]; intros [|d b] H; [reflexivity| | |]; cbn in H.
  - apply (f_equal String.length) in H. cbn in H. rewrite L in H. lia.
  - apply (f_equal String.length) in H. cbn in H. rewrite L in H. lia.
  - injection H as -> H. f_equal. now apply IH.
Qed.
Lemma names_in (l : list (dict string attr)) n a : first_found l n = Some a -> In n (List.concat (map (@dkeys string attr) l)).
Proof.
  induction l as [|d l IH]; cbn [first_found map List.concat]; [discriminate|]. rewrite in_app_iff. destruct (dget String.eqb d n) eqn:X; [|auto]. intros _. left. clear IH. induction d as [|[k v] d IH]; cbn in *; [discriminate|]. destruct (String.eqb_spec n k) as [->|]; auto.
Qed.
Lemma members_iff (c : class) p : In p (members c) <-> exists x, property_of c x p.
Proof.
  unfold members, property_of. rewrite in_flat_map. split.
  - intros (x & _ & H). exists x. destruct (resolve c x) as [[q|q|]|]; cbn in H; try contradiction. destruct H as [-> | []]. reflexivity.
  - intros (x & H). exists x. split; [|rewrite H; now left]. unfold member_names. rewrite nodup_In. eapply names_in. exact H.
Qed.
Lemma set_all (ps : list prop) : forall (c : class) x,
  resolve (fold_left (fun c p => set_own c (history_prop_name (p_name p)) (AHistory p)) ps c) x =
  fold_left (fun a p => if String.eqb x (history_prop_name (p_name p)) then Some (AHistory p) else a) ps (resolve c x).
Proof.
  induction ps as [|p ps IH]; intros c x; cbn [fold_left]; [reflexivity|]. rewrite IH. f_equal. unfold resolve, set_own. cbn [first_found c_own c_mro].
  destruct (String.eqb_spec x (history_prop_name (p_name p))) as [-> | N]; [now rewrite sget_set|]. now rewrite sget_other by auto.
Qed.
Lemma fold_keep (ps : list prop) x a : (forall p, In p ps -> x <> history_prop_name (p_name p)) ->
  fold_left (fun a p => if String.eqb x (history_prop_name (p_name p)) then Some (AHistory p) else a) ps a = a.
Proof.
  revert a. induction ps as [|p ps IH]; intros a H; cbn [fold_left]; [reflexivity|]. rewrite IH by (intros q I; apply H; now right). destruct (String.eqb_spec x (history_prop_name (p_name p))) as [Y|]; [|reflexivity]. exfalso. exact (H p (or_introl eq_refl) Y).
Qed.
Lemma fold_found (ps : list prop) x p : In p ps -> x = history_prop_name (p_name p) -> (forall q, In q ps -> x = history_prop_name (p_name q) -> q = p) -> forall a,
  fold_left (fun a p => if String.eqb x (history_prop_name (p_name p)) then Some (AHistory p) else a) ps a = Some (AHistory p).
Proof.
  intros I H U. assert (K : forall qs, (forall q, In q qs -> In q ps) -> fold_left (fun a p => if String.eqb x (history_prop_name (p_name p)) then Some (AHistory p) else a) qs (Some (AHistory p)) = Some (AHistory p)).
  { induction qs as [|q qs IH]; intros Q; cbn [fold_left]; [reflexivity|]. destruct (String.eqb_spec x (history_prop_name (p_name q))) as [Y|]; [rewrite (U q (Q q (or_introl eq_refl)) Y)|]; apply IH; intros z Hz; apply Q; now right. }
  assert (G : forall qs, (forall q, In q qs -> In q ps) -> In p qs -> forall a, fold_left (fun a p => if String.eqb x (history_prop_name (p_name p)) then Some (AHistory p) else a) qs a = Some (AHistory p)); [|apply G; auto].
  induction qs as [|q qs IH]; intros Q J a; [contradiction|]; destruct J as [-> | J]; cbn [fold_left]; [rewrite H, String.eqb_refl, <- H; apply K; intros z Hz; apply Q; now right|]. apply IH; [intros z Hz; apply Q; now right|exact J].
Qed.
Lemma objects (ps : list prop) (inputs : dict string (dict Z V)) x : (exists p, In p ps /\ p_name p = x) -> forall h,
  dget String.eqb (fold_left (fun h p => dset String.eqb h (history_dict_name (p_name p)) match dget String.eqb inputs (p_name p) with Some d => d | None => [] end) ps h) (history_dict_name x) =
  Some match dget String.eqb inputs x with Some d => d | None => [] end.
Proof.
  set (val := fun x => match dget String.eqb inputs x with Some d => d | None => [] end).
  assert (K : forall (qs : list prop) (h : dict string (dict Z V)), dget String.eqb h (history_dict_name x) = Some (val x) ->
    dget String.eqb (fold_left (fun h p => dset String.eqb h (history_dict_name (p_name p)) (val (p_name p))) qs h) (history_dict_name x) = Some (val x)).
  { induction qs as [|q qs IH]; intros h H; cbn [fold_left]; [exact H|]. apply IH. destruct (string_dec (history_dict_name (p_name q)) (history_dict_name x)) as [Y|N]; [|now rewrite sget_other].
    assert (p_name q = x) as -> by (apply (app_cancel _ _ "_history"); unfold history_dict_name, history_prop_name in Y; cbn in Y; now injection Y). apply sget_set. }
  intros (p & I & N). induction ps as [|q ps IH]; intros h; [contradiction|]. cbn [fold_left]. destruct I as [-> | I]; [apply K; rewrite N; apply sget_set|now apply IH].
Qed.
Lemma objects_none (ps : list prop) (inputs : dict string (dict Z V)) x : (forall p, In p ps -> p_name p <> x) -> forall h, dget String.eqb h (history_dict_name x) = None ->
  dget String.eqb (fold_left (fun h p => dset String.eqb h (history_dict_name (p_name p)) match dget String.eqb inputs (p_name p) with Some d => d | None => [] end) ps h) (history_dict_name x) = None.
Proof.
  induction ps as [|q ps IH]; intros N h H; cbn [fold_left]; [exact H|]. apply IH; [intros p I; apply N; now right|]. rewrite sget_other; [exact H|]. intros Y. apply (N q (or_introl eq_refl)). apply (app_cancel _ _ "_history"). unfold history_dict_name, history_prop_name in Y. cbn in Y. now injection Y.
Qed.
Lemma history_attr (c : class) x p : sensible c -> property_of c x p -> resolve (l_class (ledger_type c)) (history_prop_name x) = Some (AHistory p).
Proof.
  intros [W N] P. cbn [ledger_type l_class]. rewrite set_all. apply fold_found; [apply members_iff; eauto|now rewrite (W x p P)|]. intros q I Y. apply members_iff in I. destruct I as (y & Q). rewrite (W y q Q) in Y.
  apply (app_cancel _ _ "_history") in Y. subst y. unfold property_of in *. congruence.
Qed.

(** Every recorded property of a class, its own or inherited, is recorded for each object: reading it, and its history, does what its
    declaration says, with the years the user gave as inputs recorded at the start. *)
Theorem C121_inherited : forall (c : class) x p cached f (l : list decorator) year inputs e,
  sensible c -> property_of c x p -> p = declared cached f l -> g_name f = x -> Forall (named x) l -> x <> "getter" -> x <> "setter" -> x <> "deleter" ->
  let L := ledger_type c in let o := new_object L year inputs e in
  (forall o, read_attr L x o = Some (plain_get cached x (last_getter f l) o)) /\
  (forall o, read_history L x o = Some (plain_history cached x (last_getter f l) o)) /\
  In p (l_recorded L) /\ (In p (l_cached L) <-> cached = true) /\
  recorded o x = Some match dget String.eqb inputs x with Some d => d | None => [] end.
Proof.
  intros c x p cached f l year inputs e S P Ep Hf F Ng Ns Nd L o. destruct (C121_declaration cached x f l Ng Ns Nd Hf F) as (D1 & D2 & D3 & _ & _ & D6). cbn zeta in *. rewrite <- Ep in *.
  assert (I : In p (members c)) by (apply members_iff; eauto). split; [|split; [|split; [exact I|split]]].
  - intros o'. unfold read_attr, L. cbn [ledger_type l_class]. rewrite set_all, fold_keep; [unfold property_of in P; rewrite P; f_equal; apply D3|]. intros q J Y. apply members_iff in J. destruct J as (y & Q). destruct S as [W N]. rewrite (W y q Q) in Y. exact (N x p y q P Q Y).
  - intros o'. unfold read_history, L. rewrite (history_attr c x p S P). f_equal. apply D6.
  - cbn [L ledger_type l_cached]. rewrite filter_In, D2. tauto.
  - unfold recorded, o. cbn [new_object o_hist L ledger_type l_recorded]. change ("_" ++ x ++ "_history") with (history_dict_name x). apply objects. exists p. split; [exact I|exact D1].
Qed.
Print Assumptions C121_inherited.
(** Nothing else is recorded, and nothing twice. *)
Theorem C121_only_properties : forall (c : class), sensible c -> NoDup (map p_name (l_recorded (ledger_type c))) /\ forall p, In p (l_recorded (ledger_type c)) -> property_of c (p_name p) p.
Proof.
  intros c [W N]. split.
  - cbn [ledger_type l_recorded]. unfold members. pose proof (NoDup_nodup string_dec (List.concat (map (@dkeys string attr) (c_own c :: c_mro c)))) as ND. fold (member_names c) in ND. induction ND as [|n ns NI ND IH]; cbn [flat_map map]; [constructor|].
    rewrite map_app. destruct (resolve c n) as [[p|p|]|] eqn:X; cbn [map app]; try exact IH. constructor; [|exact IH]. rewrite (W n p X). intros J. apply NI. apply in_map_iff in J. destruct J as (q & Q1 & Q2). apply in_flat_map in Q2. destruct Q2 as (m & M1 & M2).
    destruct (resolve c m) as [[q'|q'|]|] eqn:Y; cbn in M2; try contradiction. destruct M2 as [-> | []]. rewrite <- Q1, (W m q Y). exact M1.
  - intros p I. apply members_iff in I. destruct I as (x & P). now rewrite (W x p P).
Qed.
Print Assumptions C121_only_properties.
(** A user's input is what is read, whatever is assigned. *)
Theorem C121_inputs_win : forall (c : class) x p cached f (l : list decorator) year (inputs : dict string (dict Z V)) e d v w,
  sensible c -> property_of c x p -> p = declared cached f l -> g_name f = x -> Forall (named x) l -> x <> "getter" -> x <> "setter" -> x <> "deleter" ->
  dget String.eqb inputs x = Some d -> dget Z.eqb d year = Some v ->
  let o := new_object (ledger_type c) year inputs e in
  read_attr (ledger_type c) x o = Some (Ok v, o) /\ s_run (p_set p) w o = (Ok tt, o) /\ d_run (p_del p) o = (Ok tt, o).
Proof.
  intros c x p cached f l year inputs e d v w S P Ep Hf F Ng Ns Nd Hd Hv o.
  destruct (C121_inherited c x p cached f l year inputs e S P Ep Hf F Ng Ns Nd) as (R & _ & _ & _ & Rec). destruct (C121_declaration cached x f l Ng Ns Nd Hf F) as (Nm & _ & _ & _ & D & _). cbn zeta in *. fold o in Rec. rewrite Hd in Rec.
  assert (FX : fixed_by_user o x = true) by (unfold fixed_by_user, o; cbn [new_object o_inputs o_year]; rewrite Hd; unfold dmem; now rewrite Hv).
  split; [|split].
  - rewrite R. unfold plain_get. rewrite Rec. change (o_year o) with year. now rewrite Hv.
  - assert (K : forall p' : prop, p_name p' = x -> (exists t, p_set p' = setter (p_name p') t) -> s_run (p_set p') w o = (Ok tt, o)) by (intros p' <- (t & ->); cbn [setter s_run]; change (has_input o (p_name p')) with (fixed_by_user o (p_name p')); now rewrite FX).
    rewrite Ep. apply K; [exact Nm|]. unfold declared. clear. assert (G : forall g t u, exists t', p_set (declare cached g t u : prop) = setter (p_name (declare cached g t u : prop)) t') by (intros; unfold declare; destruct cached; eexists; reflexivity).
    assert (G' : forall b (g : getfn) t u, exists t', p_set (declare b g t u) = setter (p_name (declare b g t u)) t') by (intros; unfold declare; destruct b; eexists; reflexivity).
    destruct (rev l) as [|a m] eqn:X; [rewrite <- (rev_involutive l), X; apply G'|]. rewrite <- (rev_involutive l), X. cbn [rev]. rewrite fold_left_app. cbn [fold_left]. destruct a; cbn [redeclare]; apply G'.
  - rewrite Ep, D. unfold plain_del. now rewrite FX.
Qed.
Print Assumptions C121_inputs_win.
(** all recorded properties are declared under their own names, with last getters [G] and deleters [D] *)
Definition ordinary (G : getfn -> Prop) (D : option (delfn V E) -> Prop) (c : class) : Prop :=
  sensible c /\ forall x p, property_of c x p -> x <> "getter" /\ x <> "setter" /\ x <> "deleter" /\
    exists cached f l, p = declared cached f l /\ g_name f = x /\ Forall (named x) l /\ G (last_getter f l) /\ D (last_deleter l).
(** the object keeps a history for each *)
Definition has_histories (c : class) (o : obj) : Prop := forall x p, property_of c x p -> exists d, recorded o x = Some d.
(** histories are only added to, and only for this year *)
Definition only_adds (o o' : obj) : Prop :=
  o_year o' = o_year o /\ forall x d, recorded o x = Some d -> exists d', recorded o' x = Some d' /\
    (forall y, y <> o_year o \/ dmem Z.eqb d y = true -> dget Z.eqb d' y = dget Z.eqb d y).
Definition quiet (f : getfn) : Prop := forall o, only_adds o (snd (g_run f o)).
Definition always_works (f : getfn) : Prop := forall o, exists v o', g_run f o = (Ok v, o').

Lemma adds_refl o : only_adds o o. Proof. split; [reflexivity|]. intros x d R. exists d. split; [exact R|reflexivity]. Qed.
Lemma adds_trans o o1 o2 : only_adds o o1 -> only_adds o1 o2 -> only_adds o o2.
Proof.
  intros [Y1 A1] [Y2 A2]. split; [congruence|]. intros x d R. destruct (A1 x d R) as (d1 & R1 & H1). destruct (A2 x d1 R1) as (d2 & R2 & H2). exists d2. split; [exact R2|]. intros y C.
  rewrite H2; [apply H1; exact C|]. rewrite Y1. destruct C as [C | C]; [now left|right]. unfold dmem. rewrite H1 by now right. exact C.
Qed.
Lemma rec_other (o : obj) x z v : x <> z -> recorded (store o x v) z = recorded o z.
Proof. intros N. unfold store. destruct (recorded o x); [|reflexivity]. unfold recorded, with_recorded. cbn [o_hist]. apply sget_other. intros Y. apply N. apply (app_cancel _ _ "_history"). cbn in Y. now injection Y. Qed.
(** recording a value that was missing *)
Lemma adds_store o o1 x v d : recorded o x = Some d -> dmem Z.eqb d (o_year o) = false -> only_adds o o1 -> only_adds o (store o1 x v).
Proof.
  intros R M [Y A]. split; [now rewrite store_year|]. intros z dz Rz. destruct (A z dz Rz) as (d1 & R1 & H1). destruct (string_dec x z) as [<- | N]; [|rewrite rec_other by exact N; eauto].
  rewrite rec_store, R1. cbn [option_map]. eexists. split; [reflexivity|]. intros y C. rewrite zget_set. destruct (Z.eqb_spec y (o_year o1)) as [-> | Ny]; [|now apply H1]. exfalso. rewrite Y in C. destruct C as [C | C]; [now apply C|]. rewrite R in Rz. injection Rz as <-. congruence.
Qed.
Lemma get_adds cached x f o : quiet f -> only_adds o (snd (plain_get cached x f o)).
Proof.
  intros QF. unfold plain_get. destruct (recorded o x) as [d|] eqn:R; [|apply adds_refl]. destruct (dget Z.eqb d (o_year o)) eqn:G; [apply adds_refl|]. specialize (QF o). destruct (g_run f o) as [[v|e] o1]; cbn [snd] in *; [|exact QF].
  destruct cached; [|exact QF]. eapply adds_store; eauto. unfold dmem. now rewrite G.
Qed.
Lemma record_adds c D : ordinary (fun f => quiet f /\ always_works f) D c -> forall ps o, (forall p, In p ps -> In p (members c)) -> has_histories c o ->
  exists o', record_all (ledger_type c) ps o = (Ok tt, o') /\ only_adds o o' /\ forall p, In p ps -> exists d, recorded o' (p_name p) = Some d /\ dmem Z.eqb d (o_year o) = true.
Proof.
  intros [S O]. induction ps as [|p ps IH]; intros o I H; cbn [record_all]; [exists o; split; [reflexivity|]; split; [apply adds_refl|intros q []]|].
  assert (P : property_of c (p_name p) p) by (apply C121_only_properties; [exact S|apply I; now left]). destruct (O _ _ P) as (Ng & Ns & Nd & cached & f & l & Ep & Hf & F & (QF & AW) & _).
  destruct (H _ _ P) as (d & R). rewrite attr_recorded, R.
  assert (STEP : forall o1, only_adds o o1 -> (exists d, recorded o1 (p_name p) = Some d /\ dmem Z.eqb d (o_year o) = true) -> has_histories c o1 ->
    exists o', record_all (ledger_type c) ps o1 = (Ok tt, o') /\ only_adds o o' /\ forall q, In q (p :: ps) -> exists d, recorded o' (p_name q) = Some d /\ dmem Z.eqb d (o_year o) = true).
  { intros o1 A (d1 & R1 & M1) H1. destruct (IH o1 (fun q J => I q (or_intror J)) H1) as (o' & E1 & A1 & K). exists o'. split; [exact E1|]. split; [eapply adds_trans; eauto|]. intros q [<- | J].
    - destruct A1 as [_ A1]. destruct (A1 _ _ R1) as (d2 & R2 & H2). exists d2. split; [exact R2|]. unfold dmem. rewrite H2 by now right. exact M1.
    - destruct (K q J) as (d2 & R2 & M2). exists d2. split; [exact R2|]. destruct A as [Y _]. now rewrite <- Y. }
  destruct (dmem Z.eqb d (o_year o)) eqn:M; [apply STEP; [apply adds_refl|eauto|exact H]|].
  destruct (C121_inherited c (p_name p) p cached f l 0%Z [] (o_env o) S P Ep Hf F Ng Ns Nd) as (RD & _). rewrite RD. pose proof (get_adds cached (p_name p) (last_getter f l) o QF) as A. unfold plain_get in A |- *. rewrite R in A |- *.
  assert (G : dget Z.eqb d (o_year o) = None) by (unfold dmem in M; destruct (dget Z.eqb d (o_year o)); [discriminate|reflexivity]). rewrite G in A |- *. destruct (AW o) as (v & o1 & E1). rewrite E1 in A |- *. cbn [snd] in A.
  assert (A2 : only_adds o (change_hist (if cached then store o1 (p_name p) v else o1) (history_dict_name (p_name p)) (fun d => dset Z.eqb d (o_year (if cached then store o1 (p_name p) v else o1)) v))) by (rewrite change_store; eapply adds_store; eauto).
  apply STEP; [exact A2| |].
  - rewrite change_store, rec_store. destruct A as [Y A]. destruct (A _ _ R) as (d1 & R1 & _). rewrite R1. cbn [option_map]. eexists. split; [reflexivity|]. unfold dmem. rewrite zget_set, Y, Z.eqb_refl. reflexivity.
  - intros x q Q. destruct (H x q Q) as (dq & Rq). destruct A2 as [_ A2]. destruct (A2 _ _ Rq) as (d2 & R2 & _). eauto.
Qed.
(** next_year: if the getters work and only add to histories, then afterwards every recorded property has a value for the year that
    ends, and nothing recorded - or given by the user for other years - has changed. *)
Theorem C121_next_year : forall (c : class) D o, ordinary (fun f => quiet f /\ always_works f) D c -> has_histories c o ->
  exists o', next_year (ledger_type c) o = (Ok tt, o') /\ o_year o' = (o_year o + 1)%Z /\ has_histories c o' /\
    forall x p, property_of c x p -> exists d d', recorded o x = Some d /\ recorded o' x = Some d' /\ dmem Z.eqb d' (o_year o) = true /\
      forall y, y <> o_year o \/ dmem Z.eqb d y = true -> dget Z.eqb d' y = dget Z.eqb d y.
Proof.
  intros c D o O H. destruct (record_adds c D O (members c) o (fun p I => I) H) as (o1 & E1 & [Y A] & K). unfold next_year. cbn [ledger_type l_recorded] in *. rewrite E1. eexists. split; [reflexivity|]. cbn [o_year]. split; [now rewrite Y|].
  assert (X : forall x p, property_of c x p -> exists d d', recorded o x = Some d /\ recorded o1 x = Some d' /\ dmem Z.eqb d' (o_year o) = true /\ forall y, y <> o_year o \/ dmem Z.eqb d y = true -> dget Z.eqb d' y = dget Z.eqb d y).
  { intros x p P. destruct (H x p P) as (d & R). destruct (A x d R) as (d' & R' & G). exists d, d'. split; [exact R|]. split; [exact R'|]. split; [|exact G]. destruct (K p) as (d2 & R2 & M2); [apply members_iff; eauto|]. destruct O as [[W _] _]. rewrite (W x p P) in R2. rewrite R2 in R'. injection R' as <-. exact M2. }
  split; [intros x p P; destruct (X x p P) as (d & d' & _ & R' & _); exists d'; exact R'|exact X].
Qed.
Print Assumptions C121_next_year.
(** clear_cache forgets this year's values of the cached properties, unless the user gave them, and nothing else. *)
Theorem C121_clear_cache : forall (c : class) G o, ordinary G (fun d => d = None) c -> has_histories c o ->
  exists o', clear_cache (ledger_type c) o = (Ok tt, o') /\ o_year o' = o_year o /\ o_inputs o' = o_inputs o /\ o_env o' = o_env o /\
    forall x p, property_of c x p -> exists d d', recorded o x = Some d /\ recorded o' x = Some d' /\
      forall y, dget Z.eqb d' y = if andb (andb (p_cached p) (negb (fixed_by_user o x))) (Z.eqb y (o_year o)) then None else dget Z.eqb d y.
Proof.
  intros c G o [S O] H.
  assert (K : forall ps, (forall p, In p ps -> In p (members c)) -> forall o, has_histories c o -> exists o', clear_all ps o = (Ok tt, o') /\ o_year o' = o_year o /\ o_inputs o' = o_inputs o /\ o_env o' = o_env o /\
    forall x p, property_of c x p -> exists d d', recorded o x = Some d /\ recorded o' x = Some d' /\ ((In p ps -> fixed_by_user o x = false -> forall y, dget Z.eqb d' y = if Z.eqb y (o_year o) then None else dget Z.eqb d y) /\ (~ In p ps \/ fixed_by_user o x = true -> d' = d))).
  { clear o H. induction ps as [|p ps IH]; intros I o H; cbn [clear_all].
    - exists o. repeat split. intros x p P. destruct (H x p P) as (d & R). exists d, d. repeat split; auto. intros [].
    - assert (P : property_of c (p_name p) p) by (apply C121_only_properties; [exact S|apply I; now left]). destruct (O _ _ P) as (Ng & Ns & Nd & cached & f & l & Ep & Hf & F & _ & DN).
      destruct (C121_declaration cached (p_name p) f l Ng Ns Nd Hf F) as (_ & _ & _ & _ & D & _). cbn zeta in D. rewrite <- Ep in D. rewrite D. rewrite DN. unfold plain_del. destruct (H _ _ P) as (dp & Rp). rewrite Rp.
      set (o1 := if fixed_by_user o (p_name p) then o else forget o (p_name p)). replace (if fixed_by_user o (p_name p) then (Ok tt, o) else (Ok tt, forget o (p_name p))) with (@Ok unit tt, o1) by (unfold o1; now destruct (fixed_by_user o (p_name p))).
      assert (R1 : forall z, recorded o1 z = if andb (String.eqb z (p_name p)) (negb (fixed_by_user o (p_name p))) then option_map (filter (fun kv => negb (Z.eqb (fst kv) (o_year o)))) (recorded o z) else recorded o z).
      { intros z. unfold o1. destruct (fixed_by_user o (p_name p)); [now rewrite andb_false_r|]. rewrite andb_true_r. destruct (String.eqb_spec z (p_name p)) as [-> | N]; [apply rec_forget|]. unfold forget. rewrite Rp. unfold recorded, with_recorded. cbn [o_hist]. apply sget_other. intros Y. apply N. symmetry. apply (app_cancel _ _ "_history"). cbn in Y. now injection Y. }
      assert (F1 : o_year o1 = o_year o /\ o_inputs o1 = o_inputs o /\ o_env o1 = o_env o) by (unfold o1; destruct (fixed_by_user o (p_name p)); [auto|]; unfold forget; destruct (recorded o (p_name p)); auto). destruct F1 as (Y1 & I1 & E1).
      assert (H1 : has_histories c o1) by (intros x q Q; rewrite R1; destruct (H x q Q) as (d & ->); destruct (_ && _)%bool; cbn; eauto).
      destruct (IH (fun q J => I q (or_intror J)) o1 H1) as (o' & E' & Y' & I' & N' & T). exists o'. split; [exact E'|]. split; [congruence|]. split; [congruence|]. split; [congruence|].
      intros x q Q. destruct (T x q Q) as (d1 & d2 & Q1 & Q2 & T1 & T2). destruct (H x q Q) as (d & R). exists d, d2. split; [exact R|]. split; [exact Q2|].
      assert (FX : fixed_by_user o1 x = fixed_by_user o x) by (unfold fixed_by_user; now rewrite I1, Y1). rewrite FX, Y1 in *. rewrite R1, R in Q1.
      assert (FG : forall (d : dict Z V) y, dget Z.eqb (filter (fun kv => negb (Z.eqb (fst kv) (o_year o))) d) y = if Z.eqb y (o_year o) then None else dget Z.eqb d y).
      { clear. intros d y. destruct (Z.eqb_spec y (o_year o)) as [-> | N]; [|now apply zget_filter]. induction d as [|[k v] d IH]; cbn; [reflexivity|]. destruct (Z.eqb k (o_year o)) eqn:X; cbn; [exact IH|]. rewrite Z.eqb_sym, X. exact IH. }
      assert (SAME : x = p_name p -> q = p) by (intros ->; unfold property_of in *; congruence).
      destruct (String.eqb_spec x (p_name p)) as [Ex | Nx].
      + specialize (SAME Ex). subst q. rewrite Ex in *. destruct (fixed_by_user o (p_name p)) eqn:FB; cbn [andb negb option_map] in Q1; injection Q1 as <-.
        * split; [discriminate|]. intros _. apply T2. now right.
        * split; [|intros [C | C]; [exfalso; apply C; now left|discriminate]]. intros _ _ y. destruct (in_dec string_dec (p_name p) (map p_name ps)) as [J | J].
          -- apply in_map_iff in J. destruct J as (p' & J1 & J2). assert (p' = p) as ->. { pose proof (proj2 (C121_only_properties c S) p' (I p' (or_intror J2))) as P'. rewrite J1 in P'. unfold property_of in *. congruence. } rewrite (T1 J2 eq_refl y), FG. now destruct (Z.eqb y (o_year o)).
          -- rewrite T2; [apply FG|]. left. intros J'. apply J. apply in_map_iff. eauto.
      + cbn [andb] in Q1. injection Q1 as <-. split.
        * intros [C | C]; [subst q; exfalso; apply Nx; symmetry; apply (proj1 S); exact Q|]. apply T1. exact C.
        * intros [C | C]; apply T2; [left; intros J; apply C; now right|now right]. }
  unfold clear_cache. cbn [ledger_type l_cached]. destruct (K (filter p_cached (members c))) with (o := o) as (o' & E' & Y' & I' & N' & T); [intros p J; apply filter_In in J; apply J|exact H|].
  exists o'. split; [exact E'|]. split; [exact Y'|]. split; [exact I'|]. split; [exact N'|]. intros x p P. destruct (T x p P) as (d & d' & R & R' & T1 & T2). exists d, d'. split; [exact R|]. split; [exact R'|]. intros y.
  destruct (p_cached p) eqn:PC; cbn [andb]; [destruct (fixed_by_user o x) eqn:FB; cbn [andb negb]|]; [rewrite T2; [reflexivity|now right]| |].
  - rewrite T1; [reflexivity| |reflexivity]. apply filter_In. split; [apply members_iff; eauto|exact PC].
  - rewrite T2; [reflexivity|]. left. intros J. apply filter_In in J. destruct J as [_ J]. congruence.
Qed.
Print Assumptions C121_clear_cache.
(** But a subclass that replaces a recorded property by something else keeps a history attribute that cannot be read. *)
Theorem C121_replaced_refuted : forall (c : class) x p cached f (l : list decorator) own year inputs e,
  sensible c -> property_of c x p -> p = declared cached f l -> g_name f = x -> Forall (named x) l -> x <> "getter" -> x <> "setter" -> x <> "deleter" ->
  dget String.eqb own x = Some AOther -> dget String.eqb own (x ++ "_history") = None -> sensible (subclass own (ledger_type c)) ->
  let L := ledger_type (subclass own (ledger_type c)) in let o := new_object L year inputs e in
  read_history L x o = Some (Err AttributeError, o).
Proof.
  intros c x p cached f l own year inputs e S P Ep Hf F Ng Ns Nd OX OH S' L o. destruct (C121_declaration cached x f l Ng Ns Nd Hf F) as (_ & _ & _ & _ & _ & D). cbn zeta in D.
  assert (NO : forall q, In q (members (subclass own (ledger_type c))) -> p_name q <> x).
  { intros q I Y. apply members_iff in I. destruct I as (y & Q). pose proof (proj1 S' y q Q) as Ny. rewrite Y in Ny. subst y. unfold property_of, resolve in Q. cbn [subclass c_own first_found] in Q. rewrite OX in Q. discriminate. }
  unfold read_history, L. cbn [ledger_type l_class]. rewrite set_all, fold_keep.
  2: { intros q I Y. apply (NO q I). symmetry. exact (app_cancel _ _ "_history" Y). }
  unfold resolve. cbn [subclass c_own c_mro first_found]. change (history_prop_name x) with (x ++ "_history"). rewrite OH. pose proof (history_attr c x p S P) as H. unfold resolve in H. cbn [first_found] in H. change (history_prop_name x) with (x ++ "_history") in H. rewrite H.
  rewrite Ep, D. unfold plain_history. assert (R : recorded o x = None); [|now rewrite R]. unfold recorded, o. cbn [new_object o_hist L ledger_type l_recorded]. change ("_" ++ x ++ "_history") with (history_dict_name x). apply objects_none; [exact NO|reflexivity].
Qed.
Print Assumptions C121_replaced_refuted.
(** And a property that happens to be called "setter" or "deleter" forgets its name when given a setter or deleter. *)
Theorem C121_name_refuted : forall cached (f : getfn) (s : setfn V E), g_name f = "setter" -> s_name s = "setter" -> p_name (declared cached f []) = "setter" /\ p_name (declared cached f [DSetter s]) = "getter".
Proof.
  intros cached f s Hf Hs. unfold declared. cbn [fold_left redeclare]. split.
  - destruct cached; cbn [declare recorded_property recorded_property_cached p_name]; unfold name_of; cbn [g_name]; unfold caching_name; rewrite Hf; reflexivity.
  - destruct cached; cbn [declare recorded_property recorded_property_cached p_name p_cached p_get p_set p_del]; unfold name_of; cbn [getter deleter g_name d_name caching]; unfold caching_name; cbn [g_name]; rewrite Hs; reflexivity.
Qed.
Print Assumptions C121_name_refuted.
End Classes.

(** ** Concrete cases: a class with a cached property and one with a setter and a deleter, and subclasses of it *)
Definition const_get (n : string) (f : Z -> Z) : getfn Z Z := {| g_name := n; g_run o := (Ok (f (o_env o)), o) |}.
Definition env_set (n : string) : setfn Z Z := {| s_name := n; s_run v o := (Ok tt, {| o_year := o_year o; o_inputs := o_inputs o; o_hist := o_hist o; o_env := v |}) |}.
Definition env_del (n : string) : delfn Z Z := {| d_name := n; d_run o := (Ok tt, {| o_year := o_year o; o_inputs := o_inputs o; o_hist := o_hist o; o_env := 0%Z |}) |}.
Definition sample_room : prop Z Z := declared false (const_get "room" (fun e => e)) [DSetter (env_set "room"); DDeleter (env_del "room")].
Definition sample_balance : prop Z Z := declared true (const_get "balance" (fun e => 2 * e)%Z) [].
Definition sample_class : class Z Z := {| c_own := [("room", ARecorded sample_room)]; c_mro := [[("balance", ARecorded sample_balance); ("owner", AOther)]] |}.
Lemma sample_props x p : property_of sample_class x p -> (x = "room" /\ p = sample_room) \/ (x = "balance" /\ p = sample_balance).
Proof.
  unfold property_of, resolve. cbn [sample_class c_own c_mro first_found dget]. destruct (String.eqb_spec x "room") as [->|]; [injection 1 as <-; auto|]. destruct (String.eqb_spec x "balance") as [->|]; [injection 1 as <-; auto|]. destruct (String.eqb x "owner"); discriminate.
Qed.
Lemma sample_sensible : sensible sample_class.
Proof.
  split; [intros x p H; destruct (sample_props x p H) as [[-> ->] | [-> ->]]; reflexivity|]. intros x p y q H K. destruct (sample_props x p H) as [[-> ->] | [-> ->]], (sample_props y q K) as [[-> ->] | [-> ->]]; discriminate.
Qed.
Definition sample_own : dict string (attr Z Z) := [("room", AOther)].
Lemma sample_sub : sensible (subclass sample_own (ledger_type sample_class)).
Proof.
  assert (H : forall x p, property_of (subclass sample_own (ledger_type sample_class)) x p -> x = "balance" /\ p = sample_balance).
  { intros x p. unfold property_of. assert (G : resolve (subclass sample_own (ledger_type sample_class)) x = if String.eqb x "room" then Some AOther else resolve (l_class (ledger_type sample_class)) x).
    { unfold resolve at 1. cbn [subclass c_own c_mro]. unfold first_found at 1. fold (first_found (V := Z) (E := Z)). cbn [sample_own dget]. destruct (String.eqb x "room"); reflexivity. }
    rewrite G. destruct (String.eqb_spec x "room") as [->|N]; [discriminate|].
    cbn [ledger_type l_class]. rewrite set_all. change (members sample_class) with [sample_room; sample_balance]. cbn [fold_left]. change (history_prop_name (p_name sample_room)) with "room_history". change (history_prop_name (p_name sample_balance)) with "balance_history".
    destruct (String.eqb x "balance_history"); [discriminate|]. destruct (String.eqb x "room_history"); [discriminate|]. intros R. destruct (sample_props x p R) as [[-> _] | ?]; [contradiction|assumption]. }
  split; [intros x p K; destruct (H x p K) as [-> ->]; reflexivity|]. intros x p y q K J. destruct (H x p K) as [-> _], (H y q J) as [-> _]. discriminate.
Qed.
Definition sample_obj : obj Z Z := new_object (ledger_type sample_class) 2020 [("room", [(2021%Z, 7%Z)])] 5%Z.
Example C121_sat :
  sensible sample_class /\ property_of sample_class "room" sample_room /\ property_of sample_class "balance" sample_balance /\
  Forall (named "room") [DSetter (env_set "room"); DDeleter (env_del "room")] /\
  (* reading, and what is recorded *)
  option_map fst (read_attr (ledger_type sample_class) "room" sample_obj) = Some (Ok 5%Z) /\
  option_map fst (read_history (ledger_type sample_class) "balance" sample_obj) = Some (Ok [(2020%Z, 10%Z)]) /\
  option_map fst (read_history (ledger_type sample_class) "room" sample_obj) = Some (Ok [(2021%Z, 7%Z); (2020%Z, 5%Z)]) /\
  (let o := snd (s_run (p_set sample_room) 9%Z sample_obj) in option_map fst (read_attr (ledger_type sample_class) "room" o) = Some (Ok 9%Z) /\
     let o' := snd (next_year (ledger_type sample_class) o) in o_year o' = 2021%Z /\ recorded o' "balance" = Some [(2020%Z, 18%Z)] /\
     option_map fst (read_attr (ledger_type sample_class) "room" o') = Some (Ok 7%Z) /\ s_run (p_set sample_room) 3%Z o' = (Ok tt, o')) /\
  (* what next_year and clear_cache need *)
  ordinary (fun f => quiet f /\ always_works f) (fun _ => True) sample_class /\ has_histories sample_class sample_obj /\
  ordinary (fun _ => True) (fun d => d = None) {| c_own := [("balance", ARecorded sample_balance)]; c_mro := [] |} /\
  (* replaced by something else *)
  sensible (subclass sample_own (ledger_type sample_class)) /\
  (let L := ledger_type (subclass sample_own (ledger_type sample_class)) in option_map fst (read_history L "room" (new_object L 2020 [] 5%Z)) = Some (Err AttributeError)).
Proof.
  split; [exact sample_sensible|]. split; [reflexivity|]. split; [reflexivity|]. split; [repeat constructor|]. split; [reflexivity|]. split; [reflexivity|]. split; [reflexivity|]. split; [cbn zeta; repeat split; vm_compute; reflexivity|].
  assert (QW : forall n f, quiet (const_get n f) /\ always_works (const_get n f)) by (intros n f; split; [intros o; apply adds_refl|intros o; eexists; eexists; reflexivity]).
  split. { split; [exact sample_sensible|]. intros x p P. destruct (sample_props x p P) as [[-> ->] | [-> ->]]; (do 3 (split; [discriminate|])).
    - exists false, (const_get "room" (fun e => e)), [DSetter (env_set "room"); DDeleter (env_del "room")]. split; [reflexivity|]. split; [reflexivity|]. split; [repeat constructor|]. split; [apply QW|exact Logic.I].
    - exists true, (const_get "balance" (fun e => 2 * e)%Z), []. split; [reflexivity|]. split; [reflexivity|]. split; [constructor|]. split; [apply QW|exact Logic.I]. }
  split. { intros x p P. destruct (sample_props x p P) as [[-> ->] | [-> ->]]; eexists; vm_compute; reflexivity. }
  assert (ONE : forall x p, property_of {| c_own := [("balance", ARecorded sample_balance)]; c_mro := [] |} x p -> x = "balance" /\ p = sample_balance).
  { intros x p. unfold property_of, resolve. cbn [c_own c_mro first_found dget]. destruct (String.eqb_spec x "balance") as [->|]; [injection 1 as <-; auto|discriminate]. }
  split. { split; [split; [intros x p P; destruct (ONE x p P) as [-> ->]; reflexivity|intros x p y q P Q; destruct (ONE x p P) as [-> _], (ONE y q Q) as [-> _]; discriminate]|].
    intros x p P. destruct (ONE x p P) as [-> ->]. do 3 (split; [discriminate|]). exists true, (const_get "balance" (fun e => 2 * e)%Z), []. repeat split. constructor. }
  split; [exact sample_sub|]. vm_compute. reflexivity.
Qed.
