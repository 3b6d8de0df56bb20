From Verif Require Import Base BaseFacts InflationModel InflationProofs PersonModel PersonProofs RegModel.
From Coq Require Import Lia Qround.

Definition adv_iter (k : nat) (room : option Q) (a : racct) : racct := Nat.iter k (advance room) a.
Lemma adv_iter_year k room a : ra_year (adv_iter k room a) = (ra_year a + Z.of_nat k)%Z.
Proof.
  induction k as [|k IH]; [cbn; lia|]. change (adv_iter (S k) room a) with (advance room (adv_iter k room a)).
  change (ra_year (advance room (adv_iter k room a))) with (ra_year (adv_iter k room a) + 1)%Z. rewrite IH. lia.
Qed.
Lemma adv_iter_add j k room a : adv_iter j room (adv_iter k room a) = adv_iter (j + k) room a.
Proof.
  induction j as [|j IH]; [reflexivity|]. change (adv_iter (S j + k) room a) with (advance room (adv_iter (j + k) room a)).
  rewrite <- IH. reflexivity.
Qed.

Section Group.
  Context (group : list nat) (rule : nat -> gstate -> res Q).
  Notation ny := (reg_next_year group rule).
  Definition M (s : gstate) (t : Z) : nat := list_sum (map (fun k => Z.to_nat (t - yr s k)) group).
  (** [s'] is [s] with some accounts advanced, none beyond [t] *)
  Definition between (t : Z) (s s' : gstate) : Prop :=
    (forall k, In k group -> exists m, (m <= Z.to_nat (t - yr s k))%nat /\ g_acct s' k = adv_iter m (g_room s) (g_acct s k)) /\
    (forall k, ~ In k group -> g_acct s' k = g_acct s k) /\
    g_room s' = g_room s /\ (g_person s <= g_person s' <= Z.max (g_person s) t)%Z.
  Lemma between_refl t s : between t s s.
  Proof. split; [|split; [|split]]; [|reflexivity|reflexivity|lia]. intros k _. exists O. split; [lia|reflexivity]. Qed.
  Lemma between_year t s s' k : between t s s' -> In k group -> (yr s k <= yr s' k <= Z.max (yr s k) t)%Z.
  Proof. intros (H & _) Hk. destruct (H k Hk) as (m & Hm & E). unfold yr. rewrite E, adv_iter_year. unfold yr in Hm. lia. Qed.
  Lemma between_trans t t' s1 s2 s3 : (t' <= t)%Z -> between t s1 s2 -> between t' s2 s3 -> between t s1 s3.
  Proof.
    intros Ht H12 H23. pose proof H12 as (A & B & C & D). destruct H23 as (A' & B' & C' & D').
    split; [|split; [|split]]; [| |congruence|lia].
    - intros k Hk. destruct (A k Hk) as (m & Hm & E). destruct (A' k Hk) as (m' & Hm' & E').
      exists (m' + m)%nat. split.
      + unfold yr in *. rewrite E, adv_iter_year in Hm'. lia.
      + rewrite E', E, C, adv_iter_add. reflexivity.
    - intros k Hk. rewrite B', B by exact Hk. reflexivity.
  Qed.
  Lemma M_mono t t' s s' : (t' <= t)%Z -> (forall k, In k group -> (yr s k <= yr s' k)%Z) -> (M s' t' <= M s t)%nat.
  Proof.
    intros Ht H. unfold M. revert H. generalize group as l. induction l as [|k l IH]; intro H; [cbn; lia|].
    cbn [map list_sum fold_right]. pose proof (H k (or_introl eq_refl)). unfold list_sum in *. cbn [fold_right]. specialize (IH (fun j Hj => H j (or_intror Hj))). lia.
  Qed.
  Lemma M_adv t s i : In i group -> (yr s i < t)%Z -> (M (set_acct s i (advance (g_room s) (g_acct s i))) t < M s t)%nat.
  Proof.
    intros Hi Ht. unfold M. assert (H : forall k, yr (set_acct s i (advance (g_room s) (g_acct s i))) k = if Nat.eqb k i then (yr s i + 1)%Z else yr s k).
    { intro k. unfold yr, set_acct. cbn [g_acct]. rewrite upd_fn_eq. destruct (Nat.eqb k i); reflexivity. }
    revert Hi. generalize group as l. induction l as [|k l IH]; intro Hin; [destruct Hin|].
    unfold list_sum in *. cbn [map fold_right]. rewrite H.
    assert (Hle : (fold_right Nat.add 0 (map (fun k => Z.to_nat (t - yr (set_acct s i (advance (g_room s) (g_acct s i))) k)) l) <=
                   fold_right Nat.add 0 (map (fun k => Z.to_nat (t - yr s k)) l))%nat).
    { clear IH Hin. induction l as [|j l IH]; [cbn; lia|]. cbn [map fold_right]. rewrite H. destruct (Nat.eqb_spec j i); subst; lia. }
    destruct (Nat.eqb_spec k i) as [->|Hne]; [lia|]. destruct Hin as [->|Hin]; [congruence|]. specialize (IH Hin). lia.
  Qed.
  Definition in_sync (s : gstate) (i : nat) : bool := forallb (fun j => Z.eqb (yr s j) (yr s i)) group.
  Lemma in_sync_f s i j : In j group -> yr s j <> yr s i -> in_sync s i = false.
  Proof.
    intros Hj Hne. unfold in_sync. destruct (forallb _ group) eqn:E; [|reflexivity]. rewrite forallb_forall in E.
    specialize (E j Hj). apply Z.eqb_eq in E. congruence.
  Qed.
  (** what a nested (not first) call does *)
  Definition nested_ok (m : nat) : Prop := forall s j, In j group -> in_sync s j = false -> (M s (yr s j + 1) <= m)%nat ->
    exists s', ny m s j = Ok s' /\ between (yr s j + 1) s s' /\ (forall k, In k group -> (yr s j + 1 <= yr s' k)%Z).
  Lemma catch_up_ok m i t : nested_ok m -> In i group -> forall k s j, In j group -> (yr s i >= t)%Z ->
    (M s t <= m)%nat -> (t - yr s j <= Z.of_nat k)%Z ->
    exists s', catch_up (ny m) k s j t = Ok s' /\ between t s s' /\ (t <= yr s' j)%Z.
  Proof.
    intros Hn Hi. induction k as [|k IH]; intros s j Hj Hyi Hm Hk.
    - exists s. split; [reflexivity|]. split; [apply between_refl|lia].
    - cbn [catch_up]. destruct (Z.ltb_spec (yr s j) t) as [L|L].
      + destruct (Hn s j Hj) as (s1 & E1 & B1 & Y1).
        * apply in_sync_f with i; [exact Hi|lia].
        * etransitivity; [|exact Hm]. apply M_mono; [lia|intros; lia].
        * rewrite E1. cbn [bind]. destruct (IH s1 j Hj) as (s2 & E2 & B2 & Y2).
          -- pose proof (between_year _ _ _ i B1 Hi). lia.
          -- etransitivity; [|exact Hm]. apply M_mono; [lia|]. intros q Hq. pose proof (between_year _ _ _ q B1 Hq). lia.
          -- pose proof (Y1 j Hj). lia.
          -- exists s2. split; [exact E2|]. split; [|exact Y2].
             apply between_trans with (t' := t) (s2 := s1); [lia| |exact B2].
             apply between_trans with (t' := (yr s j + 1)%Z) (s2 := s); [lia|apply between_refl|exact B1].
      + exists s. split; [reflexivity|]. split; [apply between_refl|lia].
  Qed.
  Lemma catch_all_ok m i t : nested_ok m -> In i group -> forall l s, incl l group -> (yr s i >= t)%Z -> (M s t <= m)%nat ->
    exists s', catch_all (ny m) l s t = Ok s' /\ between t s s' /\ (forall k, In k l -> (t <= yr s' k)%Z).
  Proof.
    intros Hn Hi. induction l as [|j l IH]; intros s Hl Hyi Hm.
    - exists s. split; [reflexivity|]. split; [apply between_refl|intros k []].
    - assert (Hj : In j group) by (apply Hl; left; reflexivity). cbn [catch_all]. unfold catch_up_to.
      destruct (catch_up_ok m i t Hn Hi (Z.to_nat (t - yr s j)) s j Hj Hyi Hm) as (s1 & E1 & B1 & Y1); [lia|].
      rewrite E1. cbn [bind]. destruct (IH s1) as (s2 & E2 & B2 & Y2).
      + intros q Hq. apply Hl. right. exact Hq.
      + pose proof (between_year _ _ _ i B1 Hi). lia.
      + etransitivity; [|exact Hm]. apply M_mono; [lia|]. intros q Hq. pose proof (between_year _ _ _ q B1 Hq). lia.
      + exists s2. split; [exact E2|]. split; [apply between_trans with (t' := t) (s2 := s1); [lia|exact B1|exact B2]|].
        intros k [<-|Hk]; [|apply Y2; exact Hk]. pose proof (between_year _ _ _ j B2 Hj). lia.
  Qed.
  Lemma self_between s i : In i group -> between (yr s i + 1) s (set_acct s i (advance (g_room s) (g_acct s i))).
  Proof.
    intro Hi. split; [|split; [|split]]; cbn [set_acct g_acct g_room g_person]; [| |reflexivity|lia].
    - intros k _. rewrite upd_fn_eq. destruct (Nat.eqb_spec k i) as [->|Hne]; [exists 1%nat|exists O]; split; try reflexivity; lia.
    - intros k Hk. rewrite upd_fn_eq. destruct (Nat.eqb_spec k i) as [->|Hne]; [contradiction|reflexivity].
  Qed.
  (** the part of [next_year] before the room is assigned *)
  Lemma body_ok m s i : nested_ok m -> In i group -> (M s (yr s i + 1) <= S m)%nat ->
    exists s2, catch_all (ny m) group (set_acct s i (advance (g_room s) (g_acct s i))) (yr s i + 1) = Ok s2 /\
      between (yr s i + 1) s s2 /\ (forall k, In k group -> (yr s i + 1 <= yr s2 k)%Z).
  Proof.
    intros Hn Hi Hm. set (s1 := set_acct s i (advance (g_room s) (g_acct s i))).
    assert (Ey : yr s1 i = (yr s i + 1)%Z) by (unfold s1, yr, set_acct; cbn [g_acct]; rewrite upd_fn_eq, Nat.eqb_refl; reflexivity).
    destruct (catch_all_ok m i (yr s i + 1) Hn Hi group s1) as (s2 & E & B & Y).
    - intros x Hx. exact Hx.
    - lia.
    - pose proof (M_adv (yr s i + 1) s i Hi ltac:(lia)). unfold s1. lia.
    - exists s2. split; [exact E|]. split; [|exact Y]. apply between_trans with (t' := (yr s i + 1)%Z) (s2 := s1); [lia|apply self_between; exact Hi|exact B].
  Qed.
  Lemma nested_all : forall m, nested_ok m.
  Proof.
    induction m as [|m IH]; intros s j Hj Hs Hm.
    - exfalso. pose proof (M_adv (yr s j + 1) s j Hj ltac:(lia)). lia.
    - destruct (body_ok m s j IH Hj Hm) as (s2 & E & B & Y). cbn [reg_next_year]. cbv zeta.
      change (forallb (fun k => Z.eqb (yr s k) (yr s j)) group) with (in_sync s j). rewrite Hs. cbn [bind]. rewrite E. cbn [bind].
      eexists. split; [reflexivity|]. split.
      + destruct B as (A1 & A2 & A3 & A4). split; [exact A1|]. split; [exact A2|]. split; [exact A3|]. cbn [g_person]. lia.
      + exact Y.
  Qed.
  (** accounts after advancing everything to [t] *)
  Definition all_at (t : Z) (s s' : gstate) : Prop :=
    forall k, In k group -> g_acct s' k = adv_iter (Z.to_nat (t - yr s k)) (g_room s) (g_acct s k).
  Lemma between_done t s s' : between t s s' -> (forall k, In k group -> (t <= yr s' k)%Z) -> all_at t s s'.
  Proof.
    intros (A & _) Y k Hk. destruct (A k Hk) as (m & Hm & E). specialize (Y k Hk). unfold yr in Y. rewrite E, adv_iter_year in Y.
    rewrite E. f_equal. unfold yr in *. lia.
  Qed.
  Definition new_room (s : gstate) (i : nat) : res (option Q) :=
    match dget Z.eqb (ra_hist (g_acct s i)) (yr s i + 1)%Z with
    | Some r => Ok r
    | None => let* r := rule i s in Ok (Some r)
    end.
  Lemma ny_first n s i room : In i group -> in_sync s i = true -> (M s (yr s i + 1) <= n)%nat -> new_room s i = Ok room ->
    exists s3, ny n s i = Ok (set_room s3 i room) /\ all_at (yr s i + 1) s s3 /\
      (forall k, ~ In k group -> g_acct s3 k = g_acct s k) /\ g_room s3 = g_room s /\ g_person s3 = Z.max (g_person s) (yr s i + 1).
  Proof.
    intros Hi Hs Hm Hr. destruct n as [|n].
    - exfalso. pose proof (M_adv (yr s i + 1) s i Hi ltac:(lia)). lia.
    - destruct (body_ok n s i (nested_all n) Hi Hm) as (s2 & E & B & Y). cbn [reg_next_year]. cbv zeta.
      change (forallb (fun k => Z.eqb (yr s k) (yr s i)) group) with (in_sync s i). rewrite Hs.
      unfold new_room in Hr. rewrite Hr. cbn [bind]. rewrite E. cbn [bind].
      eexists. split; [reflexivity|]. pose proof (between_done _ _ _ B Y) as D. destruct B as (A1 & A2 & A3 & A4).
      split; [exact D|]. split; [exact A2|]. split; [exact A3|]. cbn [g_person]. lia.
  Qed.
  Lemma ny_not_first n s i : In i group -> in_sync s i = false -> (M s (yr s i + 1) <= n)%nat ->
    exists s3, ny n s i = Ok s3 /\ all_at (yr s i + 1) s s3 /\
      (forall k, ~ In k group -> g_acct s3 k = g_acct s k) /\ g_room s3 = g_room s /\ g_person s3 = Z.max (g_person s) (yr s i + 1).
  Proof.
    intros Hi Hs Hm. destruct n as [|n].
    - exfalso. pose proof (M_adv (yr s i + 1) s i Hi ltac:(lia)). lia.
    - destruct (body_ok n s i (nested_all n) Hi Hm) as (s2 & E & B & Y). cbn [reg_next_year]. cbv zeta.
      change (forallb (fun k => Z.eqb (yr s k) (yr s i)) group) with (in_sync s i). rewrite Hs. cbn [bind]. rewrite E. cbn [bind].
      eexists. split; [reflexivity|]. pose proof (between_done _ _ _ B Y) as D. destruct B as (A1 & A2 & A3 & A4).
      split; [exact D|]. split; [exact A2|]. split; [exact A3|]. cbn [g_person]. lia.
  Qed.
  Lemma set_room_years s i v k : yr (set_room s i v) k = yr s k.
  Proof.
    unfold set_room, yr. destruct (dmem Z.eqb _ _); [reflexivity|]. cbn [g_acct]. rewrite upd_fn_eq.
    destruct (Nat.eqb_spec k i) as [->|]; reflexivity.
  Qed.
  Lemma all_at_year t s s' k : all_at t s s' -> In k group -> yr s' k = Z.max (yr s k) t.
  Proof. intros H Hk. unfold yr. rewrite (H k Hk), adv_iter_year. unfold yr. lia. Qed.
  Lemma catch_all_done n t : forall l s, (forall j, In j l -> (t <= yr s j)%Z) -> catch_all (ny n) l s t = Ok s.
  Proof.
    induction l as [|j l IH]; intros s H; [reflexivity|]. cbn [catch_all]. unfold catch_up_to.
    replace (Z.to_nat (t - yr s j)) with O; [|pose proof (H j (or_introl eq_refl)); lia]. cbn [catch_up bind]. apply IH.
    intros q Hq. apply H. right. exact Hq.
  Qed.
  Lemma advance_list_once n s i l y s' : In i group -> incl l group -> (forall k, In k group -> yr s k = y) ->
    (M s (y + 1) <= n)%nat -> ny n s i = Ok s' -> advance_list group rule n (i :: l) s (y + 1) = Ok s'.
  Proof.
    intros Hi Hl Hy Hm E. unfold advance_list. cbn [catch_all]. unfold catch_up_to.
    rewrite (Hy i Hi). replace (Z.to_nat (y + 1 - y)) with 1%nat by lia. cbn [catch_up]. rewrite (Hy i Hi).
    destruct (Z.ltb_spec y (y + 1)) as [L|L]; [|lia]. rewrite E. cbn [bind].
    apply catch_all_done. intros j Hj.
    assert (Hs : in_sync s i = true).
    { unfold in_sync. apply forallb_forall. intros k Hk. rewrite (Hy k Hk), (Hy i Hi). apply Z.eqb_refl. }
    destruct (new_room s i) as [r|e] eqn:Er.
    - destruct (ny_first n s i r Hi Hs) as (s3 & E3 & A & _); [rewrite (Hy i Hi); exact Hm|exact Er|].
      rewrite E3 in E. injection E as <-. rewrite set_room_years, (all_at_year _ _ _ j A (Hl j Hj)). rewrite (Hy i Hi). lia.
    - exfalso. destruct n as [|n]; [discriminate|]. cbn [reg_next_year] in E. cbv zeta in E.
      change (forallb (fun k => Z.eqb (yr s k) (yr s i)) group) with (in_sync s i) in E. rewrite Hs in E.
      unfold new_room in Er. rewrite Er in E. discriminate.
  Qed.
End Group.
