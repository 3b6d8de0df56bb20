(** Specification vocabulary for account properties (C18-C25). *)
From Verif Require Import Base RBase GrowthModel AccountModel.
Open Scope R_scope.

(** all transactions happen within the year *)
Definition times_ok (d : dict R R) : Prop := forall k v, In (k, v) d -> 0 <= k <= 1.

(** a usable timing: at least one time, all times within the year, weights not negative
    (what Timing guarantees, C05) *)
Definition timing_ok (d : dict R R) : Prop :=
  d <> [] /\ forall k w, In (k, w) d -> 0 <= k <= 1 /\ 0 <= w.

(** a result of finite flows *)
Definition fin_flows (l : list (R * R)) : list (R * er) := map (fun kv => (fst kv, Fin (snd kv))) l.

(** running several years: each year some transactions are recorded, then the year ends *)
Fixpoint run_years (a : account) (years : list (list (R * R))) : res (account * R * R) :=
  match years with
  | [] => Ok (a, 0, 0)
  | l :: r => let* a1 := add_all a l in
              let* (out, tx, ret) := run_years (next_year a1) r in
              Ok (out, Rsum (dvals (a_txns a1)) + tx, returns a1 + ret)
  end.

(** total of optional extra transactions *)
Definition opt_sum (e : option (dict R R)) : R := match e with Some d => Rsum (dvals d) | None => 0 end.
