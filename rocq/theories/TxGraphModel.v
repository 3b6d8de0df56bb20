(** Model of /repo/forecaster/strategy/transaction/{node,graph,util,base}.py: priority trees, the
    flow network built from them and the traversal that turns flows into transactions. *)
From Verif Require Import Base.

(** ** node.py *)
(** accounts/util.py:8-10 the four fields of a LimitTuple *)
Inductive lk : Type := MinIn | MaxIn | MinOut | MaxOut.
Definition limits : Type := lk -> option Q.
Definition no_limits : limits := fun _ => None.
(** a TransactionNode object: identity, limits and what it wraps with its [children] attribute;
    [TCopied]: a node made from another node, which has no [children] attribute (node.py:53-57) *)
Inductive tnode : Type := TNode (id : nat) (lims : limits) (body : tbody)
with tbody : Type := TLeaf (a : nat) | TOrd (l : list tnode) | TWt (l : list (tnode * Q)) | TCopied (was : tbody).
Definition t_id (n : tnode) : nat := match n with TNode i _ _ => i end.
Definition t_lims (n : tnode) : limits := match n with TNode _ l _ => l end.
Definition t_body (n : tnode) : tbody := match n with TNode _ _ b => b end.
(** a user-provided source: an account (anything that is not a list, tuple or dict), a list or
    tuple, a dict, or a ready-made TransactionNode *)
Inductive src : Type := SAcct (a : nat) | SSeq (l : list src) | SDict (l : list (src * Q)) | SNode (n : tnode).
(** node.py:51-77, 137-171 TransactionNode(source, limits): fresh objects are numbered from [next] *)
Fixpoint mk_node (s : src) (lims : limits) (next : nat) : tnode * nat :=
  match s with
  | SNode n => (TNode next (t_lims n) (TCopied (t_body n)), S next)
  | SAcct a => (TNode next lims (TLeaf a), S next)
  | SSeq l =>
      let r := (fix go l k := match l with
                              | [] => ([], k)
                              | SNode n :: t => let (ns, k') := go t k in (n :: ns, k')
                              | s :: t => let (n, k1) := mk_node s no_limits k in let (ns, k') := go t k1 in (n :: ns, k')
                              end) l (S next) in
      (TNode next lims (TOrd (fst r)), snd r)
  | SDict l =>
      let r := (fix go l k := match l with
                              | [] => ([], k)
                              | (SNode n, w) :: t => let (ns, k') := go t k in ((n, w) :: ns, k')
                              | (s, w) :: t => let (n, k1) := mk_node s no_limits k in let (ns, k') := go t k1 in ((n, w) :: ns, k')
                              end) l (S next) in
      (TNode next lims (TWt (fst r)), snd r)
  end.
(** what kind of Python object [source] is *)
Fixpoint body_src (b : tbody) : tbody := match b with TCopied b => body_src b | _ => b end.
(** node.py:79-97 *)
Definition is_weighted (n : tnode) : bool := match body_src (t_body n) with TWt _ => true | _ => false end.
Definition is_ordered (n : tnode) : bool := match body_src (t_body n) with TOrd _ => true | _ => false end.
Definition is_parent (n : tnode) : bool := match body_src (t_body n) with TOrd _ | TWt _ => true | _ => false end.
Definition is_leaf (n : tnode) : bool := negb (is_parent n).
(** the [children] attribute: a dict or a tuple of nodes *)
Definition children_of (n : tnode) : res (list tnode) :=
  match t_body n with TLeaf _ => Ok [] | TOrd l => Ok l | TWt l => Ok (map fst l) | TCopied _ => Err AttributeError end.
(** node.py:99-135 children_subset; nodes are compared by identity *)
Definition node_eqb (a b : tnode) : bool := Nat.eqb (t_id a) (t_id b).
Definition has_node (n : tnode) (l : list tnode) : bool := existsb (node_eqb n) l.
Inductive childset : Type := CSeq (l : list tnode) | CMap (l : list (tnode * Q)).
Definition children_subset (n : tnode) (subset : list tnode) : res childset :=
  match t_body n with
  | TWt l =>
      (fix go s acc := match s with
                       | [] => Ok (CMap acc)
                       | c :: r => let* w := dget_r node_eqb l c in go r (dset node_eqb acc c w)
                       end) subset []
  | TOrd l => if forallb (fun c => has_node c l) subset then Ok (CSeq (filter (fun c => has_node c subset) l)) else Err KeyError
  | TLeaf _ => match subset with [] => Ok (CSeq []) | _ => Err KeyError end
  | TCopied _ => Err AttributeError
  end.

(** ** graph.py *)
(** the hashable objects used as graph nodes: source (0), sink (1), a TransactionNode, its limit
    node (node, "limit"), its overflow node, an account, and the frozenset of a group of linked accounts *)
Inductive gnode : Type := Src | Snk | TN (i : nat) | TLim (i : nat) | TOvf (i : nat) | Acc (a : nat) | Grp (g : nat).
Definition geqb (a b : gnode) : bool :=
  match a, b with
  | Src, Src | Snk, Snk => true
  | TN i, TN j | TLim i, TLim j | TOvf i, TOvf j | Acc i, Acc j | Grp i, Grp j => Nat.eqb i j
  | _, _ => false
  end.
(** edge attributes: "capacity" (absent: unlimited) and "weight" (absent: 0) *)
Record edge : Type := { e_cap : option Z; e_w : option Z }.
(** networkx.DiGraph: every node has an adjacency dict *)
Definition graph : Type := dict gnode (dict gnode edge).
Definition flowd : Type := dict gnode (dict gnode Z).
Definition adj (g : graph) (u : gnode) : dict gnode edge := match dget geqb g u with Some d => d | None => [] end.
Definition edge_of (g : graph) (u v : gnode) : option edge := dget geqb (adj g u) v.
(** DiGraph.add_edge(u, v, **attrs): adds both nodes, updates the given attributes *)
Definition nx_add_node (g : graph) (u : gnode) : graph := if dmem geqb g u then g else g ++ [(u, [])].
Definition nx_add_edge (g : graph) (u v : gnode) (cap w : option Z) : graph :=
  let g1 := nx_add_node (nx_add_node g u) v in
  let old := match edge_of g1 u v with Some e => e | None => {| e_cap := None; e_w := None |} end in
  let new := {| e_cap := match cap with Some c => Some c | None => e_cap old end;
                e_w := match w with Some x => Some x | None => e_w old end |} in
  dset geqb g1 u (dset geqb (adj g1 u) v new).
(** numbers that may be infinite *)
Inductive xnum : Type := Fin (q : Q) | Inf (positive : bool).
(** Python's int(): truncation towards zero *)
Definition int_of (q : Q) : Z := Z.quot (Qnum q) (Zpos (Qden q)).
Definition fl (z : Z) : Q := inject_Z z.
(** graph.py:198-246 _flows_through, its three uses *)
Definition flow_out (m : flowd) (u : gnode) : Z :=
  match dget geqb m u with None => 0%Z | Some d => fold_right Z.add 0%Z (dvals d) end.
Definition flow_edge (m : flowd) (u v : gnode) : Z :=
  match dget geqb m u with None => 0%Z | Some d => match dget geqb d v with Some x => x | None => 0%Z end end.
Definition flow_children (m : flowd) (u : gnode) (vs : list gnode) : res Z :=
  match dget geqb m u with
  | None => Ok 0%Z
  | Some d => (fix go vs := match vs with [] => Ok 0%Z | v :: r => let* x := dget_r geqb d v in let* y := go r in Ok (x + y)%Z end) vs
  end.
(** graph.py:115-172 _add_edge *)
Definition add_edge (memo : flowd) (g : graph) (u v : gnode) (cap : option xnum) (w : option Z) : graph :=
  let c := match cap with
           | None | Some (Inf _) => None
           | Some (Fin q) => Some (int_of (qabs q - fl (flow_edge memo u v)))
           end in
  nx_add_edge g u v c w.
(** graph.py:20-43 _inbound_capacity *)
Definition inbound_capacity (g : graph) (v : gnode) : Z :=
  fold_right Z.add 0%Z (map (fun ua => match dget geqb (snd ua) v with Some {| e_cap := Some c |} => c | _ => 0%Z end) g).
(** graph.py:88-113 _sum_weight (recursion bounded by Python's stack) *)
Fixpoint sum_weight (fuel : nat) (g : graph) (u : gnode) : res Z :=
  match fuel with
  | O => Err RecursionError
  | S fuel' =>
      (fix go l := match l with
                   | [] => Ok 0%Z
                   | (v, e) :: r => let* s := sum_weight fuel' g v in let* t := go r in
                                    Ok ((match e_w e with Some x => x | None => 0 end) + s + t)%Z
                   end) (adj g u)
  end.
(** graph.py:174-196 _merge_flows *)
Definition merge_flows (first second : flowd) : flowd :=
  fold_left (fun m ud =>
    fold_left (fun m vx =>
      let d := match dget geqb m (fst ud) with Some d => d | None => [] end in
      let x := match dget geqb d (fst vx) with Some y => (y + snd vx)%Z | None => snd vx end in
      dset geqb m (fst ud) (dset geqb d (fst vx) x)) (snd ud) m) second first.

(** ** base.py *)
(** a traversal object and the world it reads: the accounts' transaction methods for the timing
    passed (without limit: [p_limit], the total; with a limit: [p_tx]), their groups, the precision,
    networkx.max_flow_min_cost and the iteration order of Python sets *)
Record env : Type := {
  p_limit : lk -> nat -> res xnum;
  p_tx : lk -> nat -> Q -> res (dict Q Q);
  p_grp : lk -> nat -> option nat;
  p_prec : Q;
  p_flow : graph -> res (gnode -> gnode -> Z);
  p_hash : list tnode -> list tnode }.
Definition xsubq (x : xnum) (q : Q) : xnum := match x with Fin a => Fin (a - q) | Inf b => Inf b end.
Definition xdivq (x : xnum) (q : Q) : xnum := match x with Fin a => Fin (a / q) | Inf b => Inf b end.

Section Build.
  Variables (P : env) (memo : flowd) (limit : lk).
  (** base.py:554-629 _embed_limit for a TransactionNode; [capacity]: given or the inbound capacity *)
  Definition embed_limit (g : graph) (n : tnode) (capacity : option Q) : graph * Q :=
    let c := match capacity with Some c => c | None => fl (inbound_capacity g (TN (t_id n))) end in
    match t_lims n limit with
    | Some L => let v := L / p_prec P - fl (flow_out memo (TN (t_id n))) in
                (add_edge [] g (TN (t_id n)) (TLim (t_id n)) (Some (Fin v)) None, qmin c v)
    | None => (add_edge [] g (TN (t_id n)) (TLim (t_id n)) None None, c)
    end.
  (** base.py:1105-1188 _add_node_account *)
  Definition add_account (g : graph) (a : nat) : res graph :=
    let* t := p_limit P limit a in
    let c := xdivq t (p_prec P) in
    match p_grp P limit a with
    | Some r => let c' := xsubq c (fl (flow_out memo (Grp r))) in
                Ok (add_edge [] (add_edge [] g (Acc a) (Grp r) (Some c') None) (Grp r) Snk (Some c') None)
    | None => let c' := xsubq c (fl (flow_out memo (Acc a))) in
              Ok (add_edge [] g (Acc a) Snk (Some c') None)
    end.
  Definition totals_of (u : gnode) (capacity norm : Q) : list (tnode * Q) -> res (list (tnode * Q)) :=
    fix go l := match l with
                | [] => Ok []
                | (c, w) :: r => let* t := qdiv (capacity * w) norm in let* ts := go r in
                                 Ok ((c, t - fl (flow_edge memo u (TN (t_id c)))) :: ts)
                end.
  (** base.py:487-552 _add_successors and, mutually recursive with it, 631-714 _add_node_weighted,
      716-803 _add_weighted_children, 1024-1062 _add_node_ordered, 1064-1103 _add_node_leaf.
      Recursion is bounded by Python's stack ([fuel]). *)
  Fixpoint add_successors (fuel : nat) (g : graph) (n : tnode) (capacity : option Q) (subset : option (list (tnode * Q))) (add_overflow : bool) {struct fuel} : res graph :=
    match fuel with
    | O => Err RecursionError
    | S f =>
        let (g1, cap) := embed_limit g n capacity in
        let u := TLim (t_id n) in
        match body_src (t_body n) with
        | TLeaf a => add_account (add_edge [] g1 u (Acc a) (Some (Fin cap)) None) a
        | TOrd _ =>
            let* l := children_of n in
            (fix go g l weight :=
               match l with
               | [] => Ok g
               | c :: r =>
                   let* g2 := add_successors f (add_edge [] g u (TN (t_id c)) (Some (Fin cap)) (Some weight)) c None None add_overflow in
                   let* s := sum_weight f g2 (TN (t_id c)) in
                   go g2 r (Z.max weight s + 1)%Z
               end) g1 l 0%Z
        | TWt _ =>
            let* l := match subset with
                      | Some l => Ok l
                      | None => match t_body n with TWt l => Ok l | _ => Err AttributeError end
                      end in
            let g2 := if add_overflow
                      then fold_left (fun g c => add_edge [] g (TOvf (t_id n)) (TN (t_id (fst c))) (Some (Fin cap)) None) l
                             (add_edge [] g1 u (TOvf (t_id n)) (Some (Fin cap)) None)
                      else g1 in
            let* g3 := add_weighted_children f g2 n l cap add_overflow in
            if add_overflow then
              let* ws := (fix go l := match l with [] => Ok [] | c :: r => let* s := sum_weight f g3 (TN (t_id (fst c))) in let* t := go r in Ok (s :: t) end) l in
              match ws with
              | [] => Err ValueError
              | w :: r => Ok (add_edge [] g3 u (TOvf (t_id n)) None (Some (1 + fold_left Z.max r w)%Z))
              end
            else Ok g3
        | TCopied _ => Err AttributeError
        end
    end
  with add_weighted_children (fuel : nat) (g : graph) (n : tnode) (l : list (tnode * Q)) (capacity : Q) (add_overflow : bool) {struct fuel} : res graph :=
    match fuel with
    | O => Err RecursionError
    | S f =>
        let u := TLim (t_id n) in
        let norm := Qsum (map snd l) in
        let* flows := flow_children memo u (map (fun c => TN (t_id (fst c))) l) in
        let* totals := totals_of u (capacity + fl flows) norm l in
        let neg := filter (fun t => Qlt_bool (snd t) 0) totals in
        let* gt :=
          match neg with
          | [] => Ok (g, totals)
          | _ =>
              let again := filter (fun c => existsb (fun t => node_eqb (fst t) (fst c) && Qlt_bool 0 (snd t)) totals) l in
              let* g' := add_weighted_children f g n again (capacity + Qsum (map snd neg)) add_overflow in
              Ok (g', map (fun t => (fst t, 0)) (filter (fun t => Qle_bool (snd t) 0) totals))
          end in
        (fix go g ts :=
           match ts with
           | [] => Ok g
           | (c, t) :: r =>
               let* g' := add_successors f (add_edge [] g u (TN (t_id c)) (Some (Fin t)) None) c None None add_overflow in
               go g' r
           end) (fst gt) (snd gt)
    end.

  (** ** rebalancing *)
  (** graph.py:492-559 _classify_children_by_flows: (underflow, overflow, saturated) *)
  Fixpoint classify (g : graph) (n : tnode) (fl_ : gnode -> gnode -> Z) (l : list tnode) : res (list tnode * list tnode * list tnode) :=
    match l with
    | [] => Ok ([], [], [])
    | c :: r =>
        let* uos := classify g n fl_ r in
        let '(u, o, s) := uos in
        match edge_of g (TLim (t_id n)) (TN (t_id c)) with
        | Some {| e_cap := Some k |} =>
            if Z.ltb (fl_ (TLim (t_id n)) (TN (t_id c))) k then Ok (c :: u, o, s)
            else if Z.ltb 0 (fl_ (TOvf (t_id n)) (TN (t_id c))) then Ok (u, c :: o, s)
            else Ok (u, o, c :: s)
        | _ => Err KeyError
        end
    end.
  (** graph.py:448-490 _swap_saturated: (saturated, non_saturated) *)
  Fixpoint swap_saturated (g : graph) (n : tnode) (fl_ : gnode -> gnode -> Z) (children sat non : list tnode) : res (list tnode * list tnode) :=
    match children with
    | [] => Ok (sat, non)
    | c :: r =>
        if has_node c sat then
          match edge_of g (TLim (t_id n)) (TN (t_id c)) with
          | Some {| e_cap := Some k |} =>
              if Z.eqb k (fl_ (TLim (t_id n)) (TN (t_id c))) then swap_saturated g n fl_ r sat non
              else swap_saturated g n fl_ r (filter (fun x => negb (node_eqb x c)) sat) (non ++ [c])
          | _ => Err KeyError
          end
        else swap_saturated g n fl_ r sat non
    end.
  (** graph.py:370-414 _restrict_overflow; the node's overflow node is TOvf *)
  Definition restrict_overflow (g : graph) (n : tnode) (all children : list tnode) (fl_ : gnode -> gnode -> Z) : graph :=
    fold_left (fun g c => if has_node c children then g
                          else nx_add_edge g (TOvf (t_id n)) (TN (t_id c)) (Some (fl_ (TOvf (t_id n)) (TN (t_id c)))) None) all g.
  (** base.py:840-959 _balance_flows and 961-1022 _balance_flows_recurse.  The call of
      _unrestrict_overflow (base.py:1022) passes no outbound_nodes, so it looks the overflow node up
      under the wrong key, finds none and returns without doing anything (graph.py:433-439). *)
  Fixpoint balance_flows (fuel : nat) (g : graph) (n : tnode) (children : list tnode) (rebalance_all : bool) : res graph :=
    match fuel with
    | O => Err RecursionError
    | S f =>
        let recurse (g : graph) (cs : list tnode) (fl_ : gnode -> gnode -> Z) (ra : bool) : res graph :=
          let capacity := fold_right Z.add 0%Z (map (fun c => (fl_ (TLim (t_id n)) (TN (t_id c)) + fl_ (TOvf (t_id n)) (TN (t_id c)))%Z) cs) in
          let* sub := children_subset n cs in
          match sub with
          | CSeq _ => Err TypeError
          | CMap l =>
              let* g1 := add_successors f g n (Some (fl capacity)) (Some l) false in
              if Nat.ltb 1 (Datatypes.length cs) then
                let* all := children_of n in
                balance_flows f (restrict_overflow g1 n all cs fl_) n cs ra
              else Ok g1
          end in
        match children with
        | [] => Ok g
        | _ =>
            let* fl_ := p_flow P g in
            let* uos := classify g n fl_ children in
            let '(u, o, s) := uos in
            let go (u o s : list tnode) : res graph :=
              let* g1 := recurse g (p_hash P (u ++ s)) fl_ true in
              let* su := swap_saturated g1 n fl_ children s u in
              recurse g1 (p_hash P (o ++ fst su)) fl_ true in
            match u, o with
            | [], [] => Ok g
            | _ :: _, _ :: _ => go u o s
            | _, _ =>
                if rebalance_all then recurse g children fl_ false
                else match s with
                     | [] => Ok g
                     | _ => match u with [] => go s o [] | _ => go u s [] end
                     end
            end
        end
    end.
  (** base.py:805-838 _balance_weighted_flows: the weighted nodes in breadth-first order *)
  Fixpoint bfs_weighted (fuel : nat) (queue : list tnode) : res (list tnode) :=
    match fuel with
    | O => Err RecursionError
    | S f =>
        match queue with
        | [] => Ok []
        | n :: q => let* cs := children_of n in
                    let* r := bfs_weighted f (q ++ cs) in
                    Ok (if is_weighted n then n :: r else r)
        end
    end.
  Definition balance_weighted (fuel : nat) (g : graph) (root : tnode) : res graph :=
    let* ws := bfs_weighted fuel [root] in
    fold_left (fun g n => let* g := g in let* cs := children_of n in balance_flows fuel g n cs true) ws (Ok g).
  (** base.py:333-485 _build_graph; the graph may only have integer capacities *)
  Definition scaled_total (total : xnum) : xnum :=
    match total with Fin q => Fin (fl (int_of (q / p_prec P))) | Inf b => Inf b end.
  Definition build_graph (fuel : nat) (root : tnode) (total : xnum) : res graph :=
    let g0 := add_edge memo [] Src (TN (t_id root)) (Some (scaled_total total)) None in
    let* g1 := add_successors fuel g0 root None None true in
    balance_weighted fuel g1 root.
End Build.

(** util.py:134-159 _get_accounts (a set) *)
Fixpoint accounts_of (fuel : nat) (n : tnode) : res (list nat) :=
  match fuel with
  | O => Err RecursionError
  | S f =>
      match body_src (t_body n) with
      | TLeaf a => Ok [a]
      | _ => let* cs := children_of n in
             (fix go l := match l with [] => Ok [] | c :: r => let* x := accounts_of f c in let* y := go r in Ok (x ++ y) end) cs
      end
  end.
(** the flow dict returned by networkx: a flow for every edge *)
Definition flow_dict (g : graph) (fl_ : gnode -> gnode -> Z) : flowd :=
  map (fun ua => (fst ua, map (fun ve => (fst ve, fl_ (fst ua) (fst ve))) (snd ua))) g.
(** util.py:68-132 _convert_flows_to_transactions *)
Fixpoint convert_flows (P : env) (limit : lk) (outflows : bool) (flows : flowd) (accounts : list nat) : res (dict nat (dict Q Q)) :=
  match accounts with
  | [] => Ok []
  | a :: r =>
      let* rest := convert_flows P limit outflows flows r in
      if dmem geqb flows (Acc a) then
        let t := p_prec P * fl (flow_out flows (Acc a)) in
        let* tx := p_tx P limit a (if outflows then - t else t) in
        Ok ((a, tx) :: rest)
      else Ok rest
  end.
(** base.py:280-331 _traverse_priority: the transactions and the updated memo *)
Definition traverse (P : env) (fuel : nat) (root : tnode) (memo : flowd) (total : xnum) (limit : lk) : res (dict nat (dict Q Q) * flowd) :=
  let* g := build_graph P memo limit fuel root total in
  let* fl_ := p_flow P g in
  let flows := flow_dict g fl_ in
  let* accounts := accounts_of fuel root in
  let neg := match total with Fin q => Qlt_bool q 0 | Inf b => negb b end in
  let* tx := convert_flows P limit neg flows (nodup Nat.eq_dec accounts) in
  Ok (tx, merge_flows memo flows).
(** utility add_transactions: adds the second dict's values into the first *)
Definition add_tx (d e : dict Q Q) : dict Q Q :=
  fold_left (fun d kv => match dget Qeq_bool d (fst kv) with Some v => dset Qeq_bool d (fst kv) (v + snd kv) | None => dset Qeq_bool d (fst kv) (snd kv) end) e d.
(** base.py:272-278 *)
Definition combine_tx (mx mn : dict nat (dict Q Q)) : dict nat (dict Q Q) :=
  fold_left (fun d ax => match dget Nat.eqb d (fst ax) with Some t => dset Nat.eqb d (fst ax) (add_tx t (snd ax)) | None => dset Nat.eqb d (fst ax) (snd ax) end) mn mx.
(** base.py:226-278 TransactionTraversal.__call__ for a given total; [assign_min] is accepted and ignored *)
Definition call (P : env) (fuel : nat) (root : tnode) (total : Q) : res (dict nat (dict Q Q)) :=
  if Qlt_bool (p_prec P) total then
    let* (mn, memo) := traverse P fuel root [] (Fin total) MinIn in
    let* (mx, _) := traverse P fuel root memo (Fin total) MaxIn in
    Ok (combine_tx mx mn)
  else if Qlt_bool total (- p_prec P) then
    let* (mn, memo) := traverse P fuel root [] (Inf false) MinOut in
    let* (mx, _) := traverse P fuel root memo (Fin total) MaxOut in
    Ok (combine_tx mx mn)
  else Ok [].
