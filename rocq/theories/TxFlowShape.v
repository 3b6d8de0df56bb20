(** Invariants of the graph builder of TxGraphModel. *)
From Verif Require Import Base BaseFacts TxGraphModel TxFlowFacts.
From Coq Require Import Permutation Lia ZArith.
(** the two mutually recursive functions unfolded once *)
Lemma successors_S : forall P memo limit f g n capacity subset add_overflow,
  add_successors P memo limit (S f) g n capacity subset add_overflow =
  (        let (g1, cap) := embed_limit P memo limit g n capacity in
        let u := TLim (t_id n) in
        match body_src (t_body n) with
        | TLeaf a => add_account P memo limit (add_edge [] g1 u (Acc a) (Some (Fin cap)) None) a
        | TOrd _ =>
            let* l := children_of n in
            (fix go g l weight :=
               match l with
               | [] => Ok g
               | c :: r =>
                   let* g2 := add_successors P memo limit f (add_edge [] g u (TN (t_id c)) (Some (Fin cap)) (Some weight)) c None None add_overflow in
                   let* s := sum_weight f g2 (TN (t_id c)) in
                   go g2 r (Z.max weight s + 1)%Z
               end) g1 l 0%Z
        | TWt _ =>
            let* l := match subset with
                      | Some l => Ok l
                      | None => match t_body n with TWt l => Ok l | _ => Err AttributeError end
                      end in
            let g2 := if add_overflow
                      then fold_left (fun g c => add_edge [] g (TOvf (t_id n)) (TN (t_id (fst c))) (Some (Fin cap)) None) l
                             (add_edge [] g1 u (TOvf (t_id n)) (Some (Fin cap)) None)
                      else g1 in
            let* g3 := add_weighted_children P memo limit f g2 n l cap add_overflow in
            if add_overflow then
              let* ws := (fix go l := match l with [] => Ok [] | c :: r => let* s := sum_weight f g3 (TN (t_id (fst c))) in let* t := go r in Ok (s :: t) end) l in
              match ws with
              | [] => Err ValueError
              | w :: r => Ok (add_edge [] g3 u (TOvf (t_id n)) None (Some (1 + fold_left Z.max r w)%Z))
              end
            else Ok g3
        | TCopied _ => Err AttributeError
        end
  ).
Proof. reflexivity. Qed.
Lemma weighted_S : forall P memo limit f g n l capacity add_overflow,
  add_weighted_children P memo limit (S f) g n l capacity add_overflow =
  (        let u := TLim (t_id n) in
        let norm := Qsum (map snd l) in
        let* flows := flow_children memo u (map (fun c => TN (t_id (fst c))) l) in
        let* totals := totals_of memo u (capacity + fl flows) norm l in
        let neg := filter (fun t => Qlt_bool (snd t) 0) totals in
        let* gt :=
          match neg with
          | [] => Ok (g, totals)
          | _ =>
              let again := filter (fun c => existsb (fun t => node_eqb (fst t) (fst c) && Qlt_bool 0 (snd t)) totals) l in
              let* g' := add_weighted_children P memo limit f g n again (capacity + Qsum (map snd neg)) add_overflow in
              Ok (g', map (fun t => (fst t, 0)) (filter (fun t => Qle_bool (snd t) 0) totals))
          end in
        (fix go g ts :=
           match ts with
           | [] => Ok g
           | (c, t) :: r =>
               let* g' := add_successors P memo limit f (add_edge [] g u (TN (t_id c)) (Some (Fin t)) None) c None None add_overflow in
               go g' r
           end) (fst gt) (snd gt)
  ).
Proof. reflexivity. Qed.
Definition recurse_of (P : env) (memo : flowd) (limit : lk) (f : nat) (n : tnode) (g : graph) (cs : list tnode) (fl_ : gnode -> gnode -> Z) (ra : bool) : res graph :=
          let capacity := fold_right Z.add 0%Z (map (fun c => (fl_ (TLim (t_id n)) (TN (t_id c)) + fl_ (TOvf (t_id n)) (TN (t_id c)))%Z) cs) in
          let* sub := children_subset n cs in
          match sub with
          | CSeq _ => Err TypeError
          | CMap l =>
              let* g1 := add_successors P memo limit f g n (Some (fl capacity)) (Some l) false in
              if Nat.ltb 1 (Datatypes.length cs) then
                let* all := children_of n in
                balance_flows P memo limit f (restrict_overflow g1 n all cs fl_) n cs ra
              else Ok g1
          end.
Lemma balance_S : forall P memo limit f g n children rebalance_all,
  balance_flows P memo limit (S f) g n children rebalance_all =
  (        match children with
        | [] => Ok g
        | _ =>
            let* fl_ := p_flow P g in
            let* uos := classify g n fl_ children in
            let '(u, o, s) := uos in
            let go (u o s : list tnode) : res graph :=
              let* g1 := recurse_of P memo limit f n g (p_hash P (u ++ s)) fl_ true in
              let* su := swap_saturated g1 n fl_ children s u in
              recurse_of P memo limit f n g1 (p_hash P (o ++ fst su)) fl_ true in
            match u, o with
            | [], [] => Ok g
            | _ :: _, _ :: _ => go u o s
            | _, _ =>
                if rebalance_all then recurse_of P memo limit f n g children fl_ false
                else match s with
                     | [] => Ok g
                     | _ => match u with [] => go s o [] | _ => go u s [] end
                     end
            end
        end
  ).
Proof. reflexivity. Qed.
Local Open Scope Z_scope.

Lemma add_edge_nx : forall memo g u v cap w, add_edge memo g u v cap w =
  nx_add_edge g u v (match cap with None | Some (Inf _) => None | Some (Fin q) => Some (int_of (qabs q - fl (flow_edge memo u v))%Q) end) w.
Proof. reflexivity. Qed.

(** no edge has a negative weight *)
Definition nonneg (g : graph) : Prop := gwf g /\ forall u v e z, edge_of g u v = Some e -> e_w e = Some z -> 0 <= z.
Definition wpos (w : option Z) : Prop := match w with Some z => 0 <= z | None => True end.
Lemma sum_weight_S : forall f g u, sum_weight (S f) g u =
      (fix go l := match l with
                   | [] => Ok 0%Z
                   | (v, e) :: r => let* s := sum_weight f g v in let* t := go r in
                                    Ok ((match e_w e with Some x => x | None => 0 end) + s + t)%Z
                   end) (adj g u).
Proof. reflexivity. Qed.
Lemma adj_edge : forall g u v e, gwf g -> In (v, e) (adj g u) -> edge_of g u v = Some e.
Proof.
  intros g u v e (N & A & _) H. unfold edge_of. apply gIn_get; [apply A|exact H].
Qed.
Lemma sum_weight_pos : forall f g u s, nonneg g -> sum_weight f g u = Ok s -> 0 <= s.
Proof.
  induction f as [|f IH]; intros g u s N H; [discriminate|]. rewrite sum_weight_S in H.
  assert (K : forall v e, In (v, e) (adj g u) -> 0 <= match e_w e with Some x => x | None => 0 end).
  { intros v e I. destruct (e_w e) as [z|] eqn:Z; [|lia]. destruct N as [W N]. eapply N; [eapply adj_edge; eauto|exact Z]. }
  revert s H. induction (adj g u) as [|[v e] l IHl]; intros s H; [injection H as <-; lia|].
  destruct (sum_weight f g v) as [x|] eqn:X; [|discriminate]. cbn [bind] in H.
  match type of H with bind ?Y _ = _ => destruct Y as [y|] eqn:E; [|discriminate] end. cbn [bind] in H. injection H as <-.
  pose proof (K v e (or_introl eq_refl)). pose proof (IH g v x N X). assert (0 <= y) by (apply IHl; [intros; eapply K; right; eauto|reflexivity]). lia.
Qed.
Section Pres.
  Variables (P : env) (memo : flowd) (limit : lk) (G : tnode -> Prop) (Inv : graph -> Prop).
  Definition is_child (n c : tnode) : Prop := exists l, children_of n = Ok l /\ In c l.
  Hypothesis Gc : forall n c, G n -> is_child n c -> G c.
  Hypothesis H_lim : forall g n c, G n -> Inv g -> Inv (fst (embed_limit P memo limit g n c)).
  (** the weights written are not negative, provided the invariant rules negative weights out *)
  Definition wok (w : option Z) : Prop := (forall g, Inv g -> nonneg g) -> wpos w.
  Hypothesis H_tc : forall g n c cap w, G n -> is_child n c -> wok w -> Inv g -> Inv (nx_add_edge g (TLim (t_id n)) (TN (t_id c)) cap w).
  Hypothesis H_oc : forall g n c cap, G n -> is_weighted n = true -> is_child n c -> Inv g -> Inv (nx_add_edge g (TOvf (t_id n)) (TN (t_id c)) cap None).
  Hypothesis H_to : forall g n cap w, G n -> is_weighted n = true -> wok w -> Inv g -> Inv (nx_add_edge g (TLim (t_id n)) (TOvf (t_id n)) cap w).
  Hypothesis H_ta : forall g n a cap, G n -> body_src (t_body n) = TLeaf a -> Inv g -> Inv (nx_add_edge g (TLim (t_id n)) (Acc a) cap None).
  Hypothesis H_a : forall g n a g', G n -> body_src (t_body n) = TLeaf a -> Inv g -> add_account P memo limit g a = Ok g' -> Inv g'.

  Definition sub_ok (n : tnode) (l : list (tnode * Q)) : Prop := forall c, In c (map fst l) -> is_child n c.

  Lemma totals_fst : forall u cap norm l ts, totals_of memo u cap norm l = Ok ts -> map fst ts = map fst l.
  Proof.
    intros u cap norm l. induction l as [|[c w] l IH]; intros ts H; cbn in H.
    - injection H as <-. reflexivity.
    - destruct (qdiv (cap * w) norm) as [t|]; [|discriminate]. cbn in H. destruct (totals_of memo u cap norm l) as [ts'|]; [|discriminate].
      cbn in H. injection H as <-. cbn. now rewrite (IH ts').
  Qed.

  Lemma build_pres : forall fuel,
    (forall g n cap sub ov g', G n -> (forall l, sub = Some l -> sub_ok n l) -> Inv g -> add_successors P memo limit fuel g n cap sub ov = Ok g' -> Inv g') /\
    (forall g n l cap ov g', G n -> sub_ok n l -> Inv g -> add_weighted_children P memo limit fuel g n l cap ov = Ok g' -> Inv g').
  Proof.
    induction fuel as [|f [IHs IHw]]; [split; intros; discriminate|]. split.
    - intros g n cap sub ov g' Gn S I H. rewrite successors_S in H. cbv zeta in H.
      pose proof (H_lim g n cap Gn I) as I1. destruct (embed_limit P memo limit g n cap) as [g1 c1]. cbn [fst] in I1.
      destruct (body_src (t_body n)) as [a|l0|l0|b0] eqn:B.
      + rewrite add_edge_nx in H. eapply H_a; [exact Gn|exact B| |exact H]. now apply H_ta.
      + destruct (children_of n) as [l|] eqn:C; [|discriminate]. cbn [bind] in H. clear B l0.
        assert (K : forall c, In c l -> is_child n c) by (intros c Hc; exists l; auto). clear C.
        assert (exists w, w = 0) as (w & Ew) by eauto. rewrite <- Ew in H.
        assert (W0 : (forall g, Inv g -> nonneg g) -> 0 <= w) by lia. clear Ew.
        revert g1 I1 w W0 H. induction l as [|c r IHl]; intros g1 I1 w W0 H.
        * injection H as <-. exact I1.
        * rewrite add_edge_nx in H.
          match type of H with bind ?X _ = _ => destruct X as [g2|] eqn:X2; [|discriminate] end. cbn [bind] in H.
          destruct (sum_weight f g2 (TN (t_id c))) as [s|] eqn:SW; [|discriminate]. cbn [bind] in H.
          assert (I2 : Inv g2).
          { eapply IHs; [| | |exact X2].
            - eapply Gc; [exact Gn|]. apply K. now left.
            - intros l E. discriminate.
            - apply H_tc; [exact Gn|apply K; now left|intros NN; cbn; now apply W0|exact I1]. }
          eapply IHl; [intros d Hd; apply K; now right|exact I2| |exact H].
          intros NN. pose proof (sum_weight_pos _ _ _ _ (NN _ I2) SW). lia.
      + assert (exists l, (match sub with Some l => Ok l | None => match t_body n with TWt l => Ok l | _ => Err AttributeError end end) = Ok l /\ sub_ok n l) as (l & L1 & L2).
        { destruct sub as [l|]; [exists l; split; [reflexivity|now apply S]|].
          destruct (t_body n) as [a|l|l|b] eqn:T; try (rewrite T in H; discriminate H); try discriminate H.
          exists l. split; [reflexivity|]. intros c Hc. exists (map fst l). split; [unfold children_of; now rewrite T|exact Hc]. }
        rewrite L1 in H. cbn [bind] in H. assert (WT : is_weighted n = true) by (unfold is_weighted; now rewrite B).
        match type of H with bind (add_weighted_children _ _ _ _ ?X _ _ _ _) _ = _ => assert (I2 : Inv X) end.
        { destruct ov; [|exact I1]. rewrite add_edge_nx. pose proof (H_to g1 n (Some (int_of (qabs c1 - fl (flow_edge [] (TLim (t_id n)) (TOvf (t_id n))))%Q)) None Gn WT (fun _ => Logic.I) I1) as I2.
          clear -I2 L2 H_oc Gn WT. match type of I2 with Inv ?Y => generalize dependent Y end. induction l as [|c l IH]; intros g I2; [exact I2|]. cbn [fold_left].
          apply IH; [intros d Hd; apply L2; now right|]. rewrite add_edge_nx. apply H_oc; auto. apply L2. now left. }
        match type of H with bind ?X _ = _ => destruct X as [g3|] eqn:X3; [|discriminate] end. cbn [bind] in H.
        assert (I3 : Inv g3) by (eapply IHw; [exact Gn|exact L2|exact I2|exact X3]).
        destruct ov; [|injection H as <-; exact I3].
        match type of H with bind ?X _ = _ => destruct X as [ws|] eqn:WS; [|discriminate] end. cbn [bind] in H.
        destruct ws as [|z0 zr]; [discriminate|]. injection H as <-. rewrite add_edge_nx. apply H_to; auto. intros NN. change (0 <= 1 + fold_left Z.max zr z0).
        assert (Z : forall z, In z (z0 :: zr) -> 0 <= z).
        { specialize (NN _ I3). clear -NN WS. revert WS. generalize (z0 :: zr) as zs. induction l as [|c l IH]; intros zs WS z Hz; [injection WS as <-; destruct Hz|].
          destruct (sum_weight f g3 (TN (t_id (fst c)))) as [s|] eqn:SW; [|discriminate]. cbn [bind] in WS.
          match type of WS with bind ?X _ = _ => destruct X as [t|] eqn:E; [|discriminate] end. cbn [bind] in WS. injection WS as <-.
          destruct Hz as [<-|Hz]; [eapply sum_weight_pos; eauto|eapply IH; [reflexivity|exact Hz]]. }
        assert (M : forall zr z0, 0 <= z0 -> 0 <= fold_left Z.max zr z0).
        { clear. induction zr as [|z zr IH]; intros z0 H; cbn; [exact H|]. apply IH. lia. }
        specialize (M zr z0 (Z z0 (or_introl eq_refl))). lia.
      + discriminate.
    - intros g n l cap ov g' Gn S I H. rewrite weighted_S in H. cbv zeta in H.
      destruct (flow_children memo (TLim (t_id n)) (map (fun c => TN (t_id (fst c))) l)) as [fl0|]; [|discriminate]. cbn [bind] in H.
      destruct (totals_of memo (TLim (t_id n)) (cap + fl fl0) (Qsum (map snd l)) l) as [totals|] eqn:T; [|discriminate]. cbn [bind] in H.
      apply totals_fst in T.
      match type of H with bind ?X _ = _ => destruct X as [gt|] eqn:X1; [|discriminate] end. cbn [bind] in H.
      assert (J : Inv (fst gt) /\ sub_ok n (snd gt)).
      { destruct (filter (fun t => Qlt_bool (snd t) 0) totals) as [|n0 neg] eqn:NEG.
        - injection X1 as <-. split; [exact I|]. cbn [snd]. unfold sub_ok. rewrite T. exact S.
        - match type of X1 with bind ?Y _ = _ => destruct Y as [gg|] eqn:X2; [|discriminate] end. cbn [bind] in X1.
          injection X1 as <-. cbn [fst snd]. split.
          + eapply IHw; [exact Gn| |exact I|exact X2]. intros c Hc. apply S. rewrite in_map_iff in *. destruct Hc as [x [X3 X4]].
            apply filter_In in X4. exists x. tauto.
          + intros c Hc. apply S. rewrite map_map in Hc. cbn [fst] in Hc. rewrite <- T. rewrite in_map_iff in *. destruct Hc as [x [X3 X4]].
            apply filter_In in X4. exists x. tauto. }
      destruct gt as [g1 ts]. cbn [fst snd] in *. destruct J as [I1 S1]. clear -H S1 I1 IHs H_tc Gc Gn.
      revert g1 I1 H. induction ts as [|[c t] r IHl]; intros g1 I1 H.
      + injection H as <-. exact I1.
      + match type of H with bind ?X _ = _ => destruct X as [g2|] eqn:X2; [|discriminate] end. cbn [bind] in H.
        eapply IHl; [intros d Hd; apply S1; now right| |exact H].
        rewrite add_edge_nx in X2. assert (C : is_child n c) by (apply S1; now left).
        eapply IHs; [eapply Gc; eauto| | |exact X2]; [intros l0 E0; discriminate|]. apply H_tc; auto. intros _. exact Logic.I.
  Qed.

  (** ** rebalancing *)
  Hypothesis Hash : forall l c, In c (p_hash P l) -> In c l.
  Lemma classify_in : forall g n f l u o s, classify g n f l = Ok (u, o, s) -> forall c, In c u \/ In c o \/ In c s -> In c l.
  Proof.
    intros g n f l. induction l as [|c l IH]; intros u o s H x Hx; cbn in H.
    - injection H as <- <- <-. cbn in Hx. tauto.
    - destruct (classify g n f l) as [[[u0 o0] s0]|]; [|discriminate]. cbn in H.
      destruct (edge_of g (TLim (t_id n)) (TN (t_id c))) as [[[k|] w]|]; try discriminate.
      destruct (f (TLim (t_id n)) (TN (t_id c)) <? k); [|destruct (0 <? f (TOvf (t_id n)) (TN (t_id c)))];
        injection H as <- <- <-; cbn in *; specialize (IH _ _ _ eq_refl x); intuition.
  Qed.
  Lemma swap_in : forall g n f l sat non s' n', swap_saturated g n f l sat non = Ok (s', n') -> forall c, In c s' -> In c sat.
  Proof.
    intros g n f l. induction l as [|c l IH]; intros sat non s' n' H x Hx; cbn in H.
    - injection H as <- <-. exact Hx.
    - destruct (has_node c sat); [|eapply IH; eauto].
      destruct (edge_of g (TLim (t_id n)) (TN (t_id c))) as [[[k|] w]|]; try discriminate.
      destruct (k =? f (TLim (t_id n)) (TN (t_id c))); [eapply IH; eauto|].
      eapply IH in H; [|exact Hx]. apply filter_In in H. tauto.
  Qed.
  Lemma subset_keys : forall n cs l, children_subset n cs = Ok (CMap l) -> forall c, In c (map fst l) -> In c cs.
  Proof.
    intros n cs l H. unfold children_subset in H. destruct (t_body n) as [a|l0|l0|b0].
    - destruct cs; discriminate.
    - destruct (forallb (fun c => has_node c l0) cs); discriminate.
    - assert (K : forall cs acc, (fix go s acc := match s with
                       | [] => Ok (CMap acc)
                       | c :: r => let* w := dget_r node_eqb l0 c in go r (dset node_eqb acc c w)
                       end) cs acc = Ok (CMap l) -> forall c, In c (map fst l) -> In c cs \/ In c (map fst acc)).
      { clear. induction cs as [|d cs IH]; intros acc H c Hc; [injection H as ->; now right|].
        destruct (dget_r node_eqb l0 d) as [w|]; [|discriminate]. cbn [bind] in H. apply IH with (c := c) in H; [|exact Hc].
        destruct H as [H|H]; [left; now right|].
        enough (forall acc, In c (map fst (dset node_eqb acc d w)) -> c = d \/ In c (map fst acc)) as Q by (apply Q in H; cbn; intuition).
        clear. induction acc as [|[k v] acc IH]; cbn; [intuition|]. destruct (node_eqb d k); cbn; intuition. }
      intros c Hc. destruct (K cs [] H c Hc) as [?|[]]; auto.
    - discriminate.
  Qed.
  Lemma balance_pres : forall fuel g n children ra g', G n -> (forall c, In c children -> is_child n c) -> Inv g ->
    balance_flows P memo limit fuel g n children ra = Ok g' -> Inv g'.
  Proof.
    induction fuel as [|f IH]; intros g n children ra g' Gn Ch I H; [discriminate|]. rewrite balance_S in H. cbv zeta in H. set (recurse := recurse_of P memo limit f n) in H.
    assert (RP : forall g cs fl_ ra g', (forall c, In c cs -> is_child n c) -> Inv g -> recurse g cs fl_ ra = Ok g' -> Inv g').
    { clear H g ra g' I. intros g cs fl_ ra g' Hcs I H. unfold recurse, recurse_of in H. cbv zeta in H.
      destruct (children_subset n cs) as [[l|l]|] eqn:CS; cbn [bind] in H; try discriminate.
      match type of H with bind ?X _ = _ => destruct X as [g1|] eqn:X1; [|discriminate] end. cbn [bind] in H.
      assert (I1 : Inv g1).
      { eapply (proj1 (build_pres f)); [exact Gn| |exact I|exact X1]. intros l' E. injection E as <-. intros c Hc. apply Hcs. eapply subset_keys; eauto. }
      destruct (Nat.ltb 1 (Datatypes.length cs)); [|injection H as <-; exact I1].
      destruct (children_of n) as [all|] eqn:CO; [|discriminate]. cbn [bind] in H.
      eapply IH; [exact Gn|exact Hcs| |exact H].
      assert (A : forall c, In c all -> is_child n c) by (intros c Hc; exists all; auto).
      assert (WT : is_weighted n = true).
      { unfold is_weighted. unfold children_subset in CS. destruct (t_body n) as [a|l0|l0|b0]; [destruct cs; discriminate|destruct (forallb _ cs); discriminate|reflexivity|discriminate]. }
      clear -A I1 H_oc Gn WT. unfold restrict_overflow. revert g1 I1. induction all as [|c all IHa]; intros g1 I1; [exact I1|]. cbn [fold_left].
      apply IHa; [intros d Hd; apply A; now right|]. destruct (has_node c cs); [exact I1|]. apply H_oc; [exact Gn|exact WT|apply A; now left|exact I1]. }
    destruct children as [|c0 cr] eqn:EC; [injection H as <-; exact I|]. rewrite <- EC in *. clear EC.
    destruct (p_flow P g) as [fl_|]; [|discriminate]. cbn [bind] in H.
    destruct (classify g n fl_ children) as [[[u o] s]|] eqn:CL; [|discriminate]. cbn [bind] in H.
    pose proof (classify_in _ _ _ _ _ _ _ CL) as CI.
    assert (GO : forall u o s g', (forall c, In c u \/ In c o \/ In c s -> In c children) ->
       (let* g1 := recurse g (p_hash P (u ++ s)) fl_ true in
        let* su := swap_saturated g1 n fl_ children s u in recurse g1 (p_hash P (o ++ fst su)) fl_ true) = Ok g' -> Inv g').
    { clear H CI CL u o s g'. intros u o s g' CI H.
      destruct (recurse g (p_hash P (u ++ s)) fl_ true) as [g1|] eqn:R1; [|discriminate]. cbn [bind] in H.
      assert (I1 : Inv g1).
      { eapply RP; [|exact I|exact R1]. intros c Hc. apply Ch, CI. apply Hash, in_app_or in Hc. tauto. }
      destruct (swap_saturated g1 n fl_ children s u) as [[s2 n2]|] eqn:SW; [|discriminate]. cbn [bind fst] in H.
      eapply RP; [|exact I1|exact H]. intros c Hc. apply Ch, CI. apply Hash, in_app_or in Hc.
      destruct Hc as [Hc|Hc]; [tauto|]. right; right. eapply swap_in; eauto. }
    destruct u as [|u0 ur]; destruct o as [|o0 orr].
    - injection H as <-. exact I.
    - destruct ra; [eapply RP; [exact Ch|exact I|exact H]|]. destruct s as [|s0 sr]; [injection H as <-; exact I|].
      eapply GO; [|exact H]. intros c Hc. apply CI. cbn in Hc |- *. tauto.
    - destruct ra; [eapply RP; [exact Ch|exact I|exact H]|]. destruct s as [|s0 sr]; [injection H as <-; exact I|].
      eapply GO; [|exact H]. intros c Hc. apply CI. cbn in Hc |- *. tauto.
    - eapply GO; [|exact H]. exact CI.
  Qed.
  Lemma bfs_good : forall fuel q ws, (forall n, In n q -> G n) -> bfs_weighted fuel q = Ok ws -> forall n, In n ws -> G n.
  Proof.
    induction fuel as [|f IH]; intros q ws Hq H n Hn; [discriminate|]. cbn in H. destruct q as [|m q]; [injection H as <-; destruct Hn|].
    destruct (children_of m) as [cs|] eqn:C; [|discriminate]. cbn [bind] in H.
    destruct (bfs_weighted f (q ++ cs)) as [r|] eqn:B; [|discriminate]. cbn [bind] in H.
    assert (K : In n r -> G n).
    { eapply IH; [|exact B]. intros x Hx. apply in_app_or in Hx. destruct Hx as [Hx|Hx]; [apply Hq; now right|].
      eapply Gc; [apply Hq; now left|]. exists cs. auto. }
    injection H as <-. destruct (is_weighted m); [|auto]. destruct Hn as [<-|Hn]; [apply Hq; now left|auto].
  Qed.
  Definition balance_fold (fuel : nat) (ws : list tnode) (g : res graph) : res graph :=
    fold_left (fun g n => let* g := g in let* cs := children_of n in balance_flows P memo limit fuel g n cs true) ws g.
  Lemma balance_fold_pres : forall fuel ws g g', (forall n, In n ws -> G n) -> Inv g -> balance_fold fuel ws (Ok g) = Ok g' -> Inv g'.
  Proof.
    intros fuel ws g g' GW I H. unfold balance_fold in H.
    assert (K : forall ws e, (forall g, fold_left (fun g n => let* g := g in let* cs := children_of n in balance_flows P memo limit fuel g n cs true) ws (@Err graph e) <> Ok g)).
    { clear. induction ws as [|n ws IH]; intros e g; cbn; [discriminate|apply IH]. }
    revert g I H. induction ws as [|n ws IH]; intros g I H; cbn [fold_left] in H; [injection H as <-; exact I|].
    cbn [bind] in H. destruct (children_of n) as [cs|] eqn:C; cbn [bind] in H; [|exfalso; eapply K; eauto].
    destruct (balance_flows P memo limit fuel g n cs true) as [g1|] eqn:B; [|exfalso; eapply K; eauto].
    eapply IH; [intros m Hm; apply GW; now right| |exact H].
    eapply balance_pres; [apply GW; now left| |exact I|exact B]. intros c Hc. exists cs. auto.
  Qed.
  Lemma balance_weighted_pres : forall fuel g root g', G root -> Inv g -> balance_weighted P memo limit fuel g root = Ok g' -> Inv g'.
  Proof.
    intros fuel g root g' Gr I H. unfold balance_weighted in H. destruct (bfs_weighted fuel [root]) as [ws|] eqn:B; [|discriminate]. cbn [bind] in H.
    eapply (balance_fold_pres fuel ws); [|exact I|exact H]. eapply bfs_good; [|exact B]. intros n [<-|[]]. exact Gr.
  Qed.
  Lemma build_graph_pres : forall fuel root total g', G root ->
    Inv (add_edge memo [] Src (TN (t_id root)) (Some (scaled_total P total)) None) ->
    build_graph P memo limit fuel root total = Ok g' -> Inv g'.
  Proof.
    intros fuel root total g' Gr I H. unfold build_graph in H.
    match type of H with bind ?X _ = _ => destruct X as [g1|] eqn:X1; [|discriminate] end. cbn [bind] in H.
    eapply balance_weighted_pres; [exact Gr| |exact H].
    eapply (proj1 (build_pres fuel)); [exact Gr| |exact I|exact X1]. intros l E. discriminate.
  Qed.
End Pres.
