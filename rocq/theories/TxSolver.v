(** An executable solver for examples: successive shortest paths (Bellman-Ford on the residual graph).
    An answer is only given if it passes the optimality checks of [Prop_TxOrder.opt_solver], so nothing
    about the search itself is trusted. In the examples it takes the place of
    networkx.max_flow_min_cost, which /repo calls through [p_flow] of TxGraphModel
    (forecaster/strategy/transaction/graph.py); it does not model networkx's own algorithm. *)
From Verif Require Import Base BaseFacts TxGraphModel TxFlowFacts TxFlowShape Prop_TxGraph Prop_TxOrder.
From Coq Require Import ZArith.
Local Open Scope Z_scope.

Definition fdict : Type := list ((gnode * gnode) * Z).
Definition fget (f : fdict) (u v : gnode) : Z :=
  match find (fun x => geqb u (fst (fst x)) && geqb v (snd (fst x))) f with Some x => snd x | None => 0 end.
Definition fadd (f : fdict) (u v : gnode) (k : Z) : fdict :=
  ((u, v), fget f u v + k) :: filter (fun x => negb (geqb u (fst (fst x)) && geqb v (snd (fst x)))) f.
(** a residual edge: from, to, cost, room (None: no bound), forwards? *)
Definition redge : Type := gnode * gnode * Z * option Z * bool.
Definition redges (f : fdict) (u v : gnode) (e : edge) : list redge :=
  let w := match e_w e with Some w => w | None => 0 end in
  let x := fget f u v in
  let fw := match e_cap e with
            | None => [(u, v, w, None, true)]
            | Some c => if x <? c then [(u, v, w, Some (c - x), true)] else []
            end in
  let bw := if 0 <? x then [(v, u, - w, Some x, false)] else [] in
  (fw ++ bw)%list.
Definition residual (g : graph) (f : fdict) : list redge :=
  flat_map (fun ua : gnode * dict gnode edge => flat_map (fun ve : gnode * edge => redges f (fst ua) (fst ve) (snd ve)) (snd ua)) g.
Definition dists : Type := list (gnode * (Z * list redge)).
Definition relax (d : dists) (e : redge) : dists :=
  match e with
  | (u, v, w, _, _) =>
    match dget geqb d u with
    | None => d
    | Some (du, p) =>
      match dget geqb d v with
      | Some (dv, _) => if du + w <? dv then dset geqb d v (du + w, e :: p) else d
      | None => dset geqb d v (du + w, e :: p)
      end
    end
  end.
Fixpoint bellman (k : nat) (es : list redge) (d : dists) : dists :=
  match k with O => d | S k => bellman k es (fold_left relax es d) end.
Definition room_on (p : list redge) : option Z :=
  fold_right (fun e r => match e with (_, _, _, Some c, _) => Some (match r with Some x => Z.min x c | None => c end) | _ => r end) None p.
Definition push (f : fdict) (p : list redge) (k : Z) : fdict :=
  fold_left (fun f e => match e with (u, v, _, _, true) => fadd f u v k | (u, v, _, _, false) => fadd f v u (- k) end) p f.
Fixpoint augment (fuel : nat) (g : graph) (f : fdict) : fdict :=
  match fuel with
  | O => f
  | S n =>
    match dget geqb (bellman (List.length (nodes g)) (residual g f) [(Src, (0, []))]) Snk with
    | None => f
    | Some (_, p) => match room_on p with Some k => augment n g (push f p k) | None => f end
    end
  end.
Definition best_flow (g : graph) : fdict := augment 60 g [].
Definition best_pot (g : graph) : gnode -> Z :=
  let d := bellman (List.length (nodes g)) (residual g (best_flow g)) (map (fun u => (u, (0, []))) (nodes g)) in
  fun u => match dget geqb d u with Some (x, _) => x | None => 0 end.
Definition best_cut (g : graph) : gnode -> Z :=
  let d := bellman (List.length (nodes g)) (residual g (best_flow g)) [(Src, (0, []))] in
  fun u => match dget geqb d u with Some _ => 0 | None => 1 end.
Definition mcmf : graph -> res (gnode -> gnode -> Z) :=
  opt_solver (fun g => let f := best_flow g in fget f) (fun g => let c := best_cut g in c) (fun g => let p := best_pot g in p).
Lemma mcmf_optimal : forall g f, mcmf g = Ok f -> optimal g f.
Proof. intros g f. apply opt_solver_ok. Qed.
