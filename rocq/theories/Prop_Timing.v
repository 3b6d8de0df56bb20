(** Properties C01-C07: utility/timing.py. *)
From Verif Require Import Base BaseFacts TimingModel TimingSpec TimingProofs.

(** ** C01 *)
Theorem C01_timing_even_schedule : forall w n, 0 <= w <= 1 -> (1 <= n)%Z ->
  exists d, Timing (WNum w) (FNum (inject_Z n)) = Ok d /\
    List.length d = Z.to_nat n /\ wf d /\
    (forall k, (0 <= k < n)%Z ->
       exists v, qget d ((inject_Z k + w) / inject_Z n) = Some v /\ v == 1 / inject_Z n) /\
    (forall t v, In (t, v) d -> 0 <= t <= 1 /\ v == 1 / inject_Z n /\
       exists k, (0 <= k < n)%Z /\ t == (inject_Z k + w) / inject_Z n) /\
    total d == 1.
Proof. exact Timing_even. Qed.
Print Assumptions C01_timing_even_schedule.

(** the documented frequency codes give the same schedule with when = 1/2 *)
Theorem C01_timing_code_schedule : forall s n, dget String.eqb FREQUENCY_MAPPING s = Some (Some n) ->
  forall f, exists d, Timing (WStr s) f = Ok d /\ even_schedule (1#2) n d.
Proof. exact Timing_code. Qed.
Print Assumptions C01_timing_code_schedule.
Example C01_sat : (0 <= 1#4 <= 1) /\ (1 <= 12)%Z /\
  dget String.eqb FREQUENCY_MAPPING "BW"%string = Some (Some 26%Z).
Proof. split; [lra|]. split; [lia|reflexivity]. Qed.

(** ** C02 *)
Theorem C02_time_series_proportional : forall d s ks,
  distinctQ ks -> (forall k, In k ks -> dget Qeq_bool d k <> None) ->
  ~ Qsum (map (qval d) ks) == 0 ->
  exists r, time_series d s (Some ks) = Ok r /\ map fst r = ks /\ wf r /\ total r == s /\
    (forall k, In k ks -> qval r k == s * qval d k / Qsum (map (qval d) ks)).
Proof. exact time_series_keys. Qed.
Print Assumptions C02_time_series_proportional.

(** without keys: all the times of the timing *)
Theorem C02_time_series_all : forall d s, wf d -> ~ total d == 0 ->
  exists r, time_series d s None = Ok r /\ map fst r = map fst d /\ wf r /\ total r == s /\
    (forall k v, In (k, v) d -> qval r k == s * v / total d).
Proof.
  intros d s H Ht.
  assert (Hs : Qsum (map (qval d) (dkeys d)) = total d)
    by (unfold total, dvals; rewrite (vals_by_keys d H); reflexivity).
  destruct (time_series_keys d s (dkeys d)) as (r & E & Hk & W & T & V);
    [apply wf_distinct; exact H|intros; apply dkeys_get; assumption|rewrite Hs; exact Ht|].
  exists r. split; [exact E|]. split; [exact Hk|]. split; [exact W|]. split; [exact T|].
  intros k v HI. rewrite V, Hs, (wf_In_val _ _ _ H HI); [reflexivity|].
  apply in_map_iff. exists (k, v). auto.
Qed.
Print Assumptions C02_time_series_all.

(** KeyError exactly when a requested time is not one of the timing's *)
Theorem C02_missing_key_rejected : forall d s ks,
  (time_series d s (Some ks) = Err KeyError <-> exists k, In k ks /\ dget Qeq_bool d k = None) /\
  (normalized d (Some ks) = Err KeyError <-> exists k, In k ks /\ dget Qeq_bool d k = None).
Proof.
  intros d s ks. rewrite (keys_error d ks). unfold time_series, normalized.
  destruct (normalized_dict d (Some ks)) as [x|e]; cbn [bind]; split; split; intro H; try discriminate H; try exact H.
Qed.
Print Assumptions C02_missing_key_rejected.

Theorem C02_zero_weight_rejected : forall d s ks,
  ks <> [] -> (forall k, In k ks -> dget Qeq_bool d k <> None) ->
  Qsum (map (qval d) ks) == 0 -> time_series d s (Some ks) = Err ZeroDivisionError.
Proof. exact time_series_zero. Qed.
Print Assumptions C02_zero_weight_rejected.

Theorem C02_normalized_sums_to_one : forall d,
  wf d -> (forall k v, In (k, v) d -> 0 <= v) -> ~ total d == 0 ->
  exists r, normalized d None = Ok r /\ map fst r = map fst d /\ wf r /\ total r == 1 /\
    (forall k, In k (dkeys d) -> qval r k == qval d k / total d).
Proof. exact normalized_all. Qed.
Print Assumptions C02_normalized_sums_to_one.

Theorem C02_normalized_keys : forall d ks, (forall k v, In (k, v) d -> 0 <= v) ->
  distinctQ ks -> (forall k, In k ks -> dget Qeq_bool d k <> None) -> ~ Qsum (map (qval d) ks) == 0 ->
  exists r, normalized d (Some ks) = Ok r /\ map fst r = ks /\ wf r /\ total r == 1 /\
    (forall k, In k ks -> qval r k == qval d k / Qsum (map (qval d) ks)).
Proof. exact normalized_keys. Qed.
Print Assumptions C02_normalized_keys.

(** normalising what is already normalised changes nothing *)
Theorem C02_normalized_unchanged : forall d,
  wf d -> (forall k v, In (k, v) d -> 0 <= v) -> total d == 1 ->
  exists r, normalized d None = Ok r /\ map fst r = map fst d /\
    (forall k v, In (k, v) d -> exists v', In (k, v') r /\ v' == v).
Proof.
  intros d H Hnn Ht. destruct (normalized_all d H Hnn) as (r & E & Hk & W & _ & V); [lra|].
  exists r. split; [exact E|]. split; [exact Hk|]. intros k v HI.
  assert (Hkd : In k (dkeys d)) by (apply in_map_iff; exists (k, v); auto).
  exists (qval r k). split; [apply wf_time_val; [exact W|]; unfold dkeys in *; rewrite Hk; exact Hkd|].
  rewrite V, (wf_In_val _ _ _ H HI), Ht; [field|exact Hkd].
Qed.
Print Assumptions C02_normalized_unchanged.
Example C02_sat :
  distinctQ [1#4; 3#4] /\ ~ Qsum (map (qval [(1#4, 1); (1#2, 2); (3#4, 3)]) [1#4; 3#4]) == 0 /\
  time_series [(1#4, 1); (1#2, 2); (3#4, 3)] 8 (Some [1#4; 3#4]) <> Err KeyError.
Proof. repeat split; try (cbn; intros y [<-|[]]; lra); try (cbn; intros y []); vm_compute; discriminate. Qed.
Example C02_sat_more : let d := [(1#4, 1); (1#2, 2); (3#4, 3)] in wf d /\ (forall k v, In (k, v) d -> 0 <= v) /\ ~ total d == 0 /\
  (exists r, normalized d (Some [1#4; 3#4]) = Ok r /\ qval r (1#4) == 1#4 /\ qval r (3#4) == 3#4) /\
  (exists r, normalized d None = Ok r /\ qval r (1#2) == 1#3) /\
  time_series d 8 (Some [0; 1#4]) = Err KeyError /\
  (forall k, In k [0; 1] -> dget Qeq_bool [(0, 1); (1, -(1))] k <> None) /\ Qsum (map (qval [(0, 1); (1, -(1))]) [0; 1]) == 0 /\
  time_series [(0, 1); (1, -(1))] 8 (Some [0; 1]) = Err ZeroDivisionError.
Proof.
  cbv zeta. repeat match goal with |- _ /\ _ => split end; try (vm_compute; reflexivity).
  - unfold wf, dwf. repeat constructor; cbn; intros; intuition (subst; try discriminate).
  - cbn. intros k v H. intuition (match goal with E : (_, _) = (_, _) |- _ => injection E as <- <- end; discriminate).
  - discriminate.
  - eexists. split; [reflexivity|]. split; reflexivity.
  - eexists. split; [reflexivity|]. reflexivity.
  - cbn. intros k [<- | [<- | []]]; discriminate.
Qed.

(** ** C03 *)
Theorem C03_net_inflow_timing : forall d f, wf d -> mixed d -> 0 < total d ->
  exists r, Timing (WDict d) f = Ok r /\ wf r /\
    (forall k v, In (k, v) r -> 0 < v /\ has_time d k) /\
    total r == total d /\
    (forall t m, has_time d t -> is_min_future d t m -> cum r t == qmax 0 m).
Proof. exact net_inflow_main. Qed.
Print Assumptions C03_net_inflow_timing.

(** never overspends; and no other schedule that never overspends gets more money by any time *)
Theorem C03_net_inflow_safe_and_greedy : forall d f r,
  wf d -> mixed d -> 0 < total d -> Timing (WDict d) f = Ok r ->
  (forall t u, has_time d t -> has_time d u -> t <= u -> cum r t <= qmax 0 (cum d u)) /\
  (forall (other : dict Q Q) t, has_time d t ->
     (forall t u, has_time d t -> has_time d u -> t <= u -> cum other t <= qmax 0 (cum d u)) ->
     cum other t <= cum r t).
Proof. exact net_inflow_safe. Qed.
Print Assumptions C03_net_inflow_safe_and_greedy.
Example C03_sat : let d := [(1, 5); (0, 10); (1#2, -5)] in
  wf d /\ mixed d /\ 0 < total d /\ Timing (WDict d) (FNum 1) = Ok [(0, 5); (1, 5)].
Proof.
  cbn zeta. split; [|split; [|split; [|vm_compute; reflexivity]]].
  - cbn. repeat split; reflexivity.
  - split; [exists 0, 10|exists (1#2), (-5)]; cbn; split; auto; lra.
  - vm_compute. reflexivity.
Qed.

(** ** C04 *)
Theorem C04_net_outflow_timing : forall d f, wf d -> mixed d -> total d < 0 ->
  exists r, Timing (WDict d) f = Ok r /\ wf r /\
    (forall k v, In (k, v) r -> 0 < v /\ has_time d k) /\
    (forall t m, has_time d t -> is_min_past d t m -> cum r t == qmax 0 (- m)).
Proof. exact net_outflow_main. Qed.
Print Assumptions C04_net_outflow_timing.

(** covers every shortfall; no other top-up schedule that does so is ever smaller;
    the total is the largest cumulative deficit *)
Theorem C04_net_outflow_covers_minimally : forall d f r,
  wf d -> mixed d -> total d < 0 -> Timing (WDict d) f = Ok r ->
  (forall t, has_time d t -> 0 <= cum d t + cum r t) /\
  (forall (other : dict Q Q) t, has_time d t -> (forall k v, In (k, v) other -> 0 <= v) ->
     (forall t, has_time d t -> 0 <= cum d t + cum other t) -> cum r t <= cum other t) /\
  (exists t, has_time d t /\ total r == - cum d t /\
     forall u, has_time d u -> cum d t <= cum d u).
Proof. exact net_outflow_safe. Qed.
Print Assumptions C04_net_outflow_covers_minimally.
Example C04_sat : let d := [(0, -10); (1#2, -5); (1, 5)] in
  wf d /\ mixed d /\ total d < 0 /\ Timing (WDict d) (FNum 1) = Ok [(0, 10); (1#2, 5)].
Proof.
  cbn zeta. split; [|split; [|split; [|vm_compute; reflexivity]]].
  - cbn. repeat split; reflexivity.
  - split; [exists 1, 5|exists (1#2), (-5)]; cbn; split; auto; lra.
  - vm_compute. reflexivity.
Qed.

(** ** C05 *)
Theorem C05_timing_weights_nonnegative : forall d f, wf d ->
  exists r, Timing (WDict d) f = Ok r /\ wf r /\ (forall k v, In (k, v) r -> 0 <= v /\ has_time d k).
Proof. intros d f H. exists (convert_dict d). split; [reflexivity|]. exact (convert_dict_all d H). Qed.
Print Assumptions C05_timing_weights_nonnegative.

Theorem C05_one_signed_flows_kept : forall d f r, wf d -> d <> [] -> ~ mixed d -> Timing (WDict d) f = Ok r ->
  map fst r = map fst d /\
  ((exists k v, In (k, v) d /\ ~ v == 0) -> forall k, has_time d k -> qval r k == qabs (qval d k)) /\
  ((forall k v, In (k, v) d -> v == 0) -> forall k, has_time d k -> qval r k == 1).
Proof. intros d f r H1 H2 H3 E. injection E as <-. exact (convert_dict_onesign d H1 H2 H3). Qed.
Print Assumptions C05_one_signed_flows_kept.

(** no money, or money that exactly balances: nothing to schedule *)
Theorem C05_balanced_flows_give_empty_timing : forall d f, (mixed d /\ total d == 0) \/ d = [] ->
  Timing (WDict d) f = Ok [].
Proof.
  intros d f [[H1 H2]| ->]; [|reflexivity]. unfold Timing. rewrite (convert_dict_zero_total d H1 H2). reflexivity.
Qed.
Print Assumptions C05_balanced_flows_give_empty_timing.
Example C05_sat : wf [(0, -3); (1, -4)] /\ convert_dict [(0, -3); (1, -4)] = [(0, 3); (1, 4)] /\
  mixed [(0, 3); (1, -3)] /\ total [(0, 3); (1, -3)] == 0.
Proof.
  split; [cbn; auto|]. split; [vm_compute; reflexivity|]. split; [|vm_compute; reflexivity].
  split; [exists 0, 3|exists 1, (-3)]; cbn; split; auto; lra.
Qed.

(** ** C06 *)
Theorem C06_when_conv_exact : forall w q, when_conv w = Ok q <->
  (w = WStr "start" /\ q = 0) \/ (w = WStr "end" /\ q = 1) \/ (w = WNum q /\ 0 <= q <= 1).
Proof. exact when_conv_spec. Qed.
Print Assumptions C06_when_conv_exact.

Theorem C06_frequency_conv_number : forall q n, frequency_conv (FNum q) = Ok n <->
  exists m, n = Some m /\ q == inject_Z m /\ (0 < m)%Z.
Proof. exact frequency_conv_num. Qed.
Print Assumptions C06_frequency_conv_number.

Theorem C06_frequency_conv_code : forall s n, frequency_conv (FStr s) = Ok n <->
  In (s, n) [("C", None); ("D", Some 365); ("W", Some 52); ("BW", Some 26); ("SM", Some 24);
   ("M", Some 12); ("BM", Some 6); ("Q", Some 4); ("SA", Some 2); ("A", Some 1)]%Z%string.
Proof. exact frequency_conv_code. Qed.
Print Assumptions C06_frequency_conv_code.

Theorem C06_frequency_conv_none : frequency_conv FNone = Ok None.
Proof. reflexivity. Qed.
Print Assumptions C06_frequency_conv_none.

(** everything else is rejected, and how *)
Theorem C06_rejections :
  (forall q, q < 0 \/ 1 < q -> when_conv (WNum q) = Err ValueError) /\
  (forall s, s <> "start"%string -> s <> "end"%string -> when_conv (WStr s) = Err TypeError) /\
  (forall s, (forall n, ~ In (s, n) [("C", None); ("D", Some 365); ("W", Some 52); ("BW", Some 26);
      ("SM", Some 24); ("M", Some 12); ("BM", Some 6); ("Q", Some 4); ("SA", Some 2); ("A", Some 1)]%Z%string) ->
     frequency_conv (FStr s) = Err ValueError) /\
  (forall q, (forall m, ~ q == inject_Z m) -> frequency_conv (FNum q) = Err TypeError) /\
  (forall m, (m <= 0)%Z -> frequency_conv (FNum (inject_Z m)) = Err ValueError).
Proof.
  split; [|split; [|split; [|split]]].
  - intros q H. unfold when_conv. destruct (Qlt_bool 1 q) eqn:E1; [reflexivity|]. cbn.
    destruct (Qlt_bool q 0) eqn:E2; [reflexivity|]. qb. exfalso. lra.
  - intros s H1 H2. unfold when_conv. destruct (String.eqb s "end") eqn:E1; [apply String.eqb_eq in E1; contradiction|].
    destruct (String.eqb s "start") eqn:E2; [apply String.eqb_eq in E2; contradiction|reflexivity].
  - intros s H. destruct (frequency_conv (FStr s)) as [n|e] eqn:E.
    + exfalso. apply (H n). apply frequency_conv_code. exact E.
    + unfold frequency_conv in E. destruct (dget String.eqb FREQUENCY_MAPPING s); congruence.
  - intros q H. unfold frequency_conv. destruct (Qeq_bool q (inject_Z (qtrunc q))) eqn:E; [|reflexivity].
    qb. exfalso. exact (H _ E).
  - intros m H. unfold frequency_conv. rewrite (qtrunc_int (inject_Z m) m) by reflexivity.
    assert (E : Qeq_bool (inject_Z m) (inject_Z m) = true) by (apply Qeq_bool_t; reflexivity). rewrite E. cbn.
    assert (E0 : Qle_bool (inject_Z m) 0 = true) by (apply Qle_bool_t; change 0 with (inject_Z 0); rewrite <- Zle_Qle; exact H).
    rewrite E0. reflexivity.
Qed.
Print Assumptions C06_rejections.
Example C06_sat : when_conv (WNum (3 # 4)) = Ok (3 # 4) /\ when_conv (WNum (5 # 4)) = Err ValueError /\
  when_conv (WStr "later") = Err TypeError /\ frequency_conv (FNum 12) = Ok (Some 12%Z) /\
  frequency_conv (FNum (5 # 2)) = Err TypeError /\ frequency_conv (FStr "X") = Err ValueError.
Proof. vm_compute. repeat split. Qed.

(** ** C07 *)
Theorem C07_add_transactions_pointwise : forall added base, wf added ->
  (forall u, qval (add_transactions base added) u == qval base u + qval added u) /\
  total (add_transactions base added) == total base + total added /\
  (wf base -> wf (add_transactions base added)).
Proof. exact add_transactions_all. Qed.
Print Assumptions C07_add_transactions_pointwise.

Theorem C07_subtract_transactions_pointwise : forall added base, wf added ->
  (forall u, qval (subtract_transactions base added) u == qval base u - qval added u) /\
  total (subtract_transactions base added) == total base - total added /\
  (wf base -> wf (subtract_transactions base added)).
Proof. exact subtract_transactions_all. Qed.
Print Assumptions C07_subtract_transactions_pointwise.

Theorem C07_subtract_undoes_add : forall base added u, wf added ->
  qval (subtract_transactions (add_transactions base added) added) u == qval base u.
Proof. exact subtract_add. Qed.
Print Assumptions C07_subtract_undoes_add.

Theorem C07_add_commutes : forall a b u, wf a -> wf b ->
  qval (add_transactions a b) u == qval (add_transactions b a) u.
Proof. exact add_comm. Qed.
Print Assumptions C07_add_commutes.
Example C07_sat : wf [(1#2, 5); (1, 2)] /\
  add_transactions [(0, 1); (2#4, 7)] [(1#2, 5); (1, 2)] = [(0, 1); (2#4, 12); (1, 2)].
Proof. split; [cbn; auto|vm_compute; reflexivity]. Qed.

(** Tests of the model against the docstring examples (not proofs). *)
Example doc_inflows : accum_inflows [(0, 10); (1#2, -5); (1, 5)] = [(0, 5); (1, 5)].
Proof. vm_compute. reflexivity. Qed.
Example doc_outflows : accum_outflows [(0, -10); (1#2, -5); (1, 5)] = [(0, 10); (1#2, 5)].
Proof. vm_compute. reflexivity. Qed.
