(** Model of what forecaster.py:204-288 (run_forecast) does with its arguments: it deep-copies people,
    accounts and debts, one after the other, with one memo (forecaster.py:228-232), and hands the copies
    to the forecast, which mutates them.

    Objects live on a heap and refer to each other by address.  A cell has a tag (its class, the names
    of its attributes or keys, or an atom's value) and the addresses of its parts.  Simplified: the tag
    is one number; parts are listed in a fixed order (for sets: the order of iteration).  Functions are
    atoms: what they capture is not listed as a part.  In this code the captured objects are a table or number
    of rates (accounts/base.py:272-279, person.py:262-271), which calling the function only reads, and the
    account itself in the default factory of its flows (accounts/base.py:160-161), which only reads its
    precision settings: a copied account's factory therefore still refers to the original account. *)
From Verif Require Import Base.

(** how copy.deepcopy treats an object (Python's Lib/copy.py):
    [Atomic]: numbers, strings, None, functions, classes: the copy is the object itself;
    [Eager]: instances, dicts and lists: an empty copy is made and entered in the memo, then the parts
    are copied into it; [Late]: sets: the elements are copied first, then the copy is made and entered *)
Inductive kind : Type := Atomic | Eager | Late.
Record cell : Type := { c_kind : kind; c_tag : nat; c_parts : list nat }.
Definition heap : Type := list cell.
(** the memo, latest entry first *)
Definition memo : Type := list (nat * nat).
(** assigning the cell at address [i] *)
Fixpoint put (h : heap) (i : nat) (c : cell) : heap :=
  match h, i with [], _ => [] | _ :: r, O => c :: r | x :: r, S j => x :: put r j c end.
Definition shell (c : cell) : cell := {| c_kind := c_kind c; c_tag := c_tag c; c_parts := [] |}.
Definition filled (c : cell) (parts : list nat) : cell := {| c_kind := c_kind c; c_tag := c_tag c; c_parts := parts |}.

(** copying a list of parts in turn *)
Fixpoint copy_all (f : heap -> memo -> nat -> option (heap * memo * nat)) (h : heap) (m : memo) (l : list nat) : option (heap * memo * list nat) :=
  match l with
  | [] => Some (h, m, [])
  | x :: r => match f h m x with
              | Some (h1, m1, y) => match copy_all f h1 m1 r with Some (h2, m2, ys) => Some (h2, m2, y :: ys) | None => None end
              | None => None
              end
  end.
(** copy.deepcopy(x, memo); None: out of fuel (Python: RecursionError) or a dangling address *)
Fixpoint deepcopy (fuel : nat) (h : heap) (m : memo) (x : nat) : option (heap * memo * nat) :=
  match fuel with
  | O => None
  | S n =>
      match dget Nat.eqb m x with
      | Some y => Some (h, m, y)
      | None =>
          match nth_error h x with
          | None => None
          | Some c =>
              match c_kind c with
              | Atomic => Some (h, m, x)
              | Eager =>
                  let y := Datatypes.length h in
                  match copy_all (deepcopy n) (h ++ [shell c]) ((x, y) :: m) (c_parts c) with
                  | Some (h2, m2, ys) => Some (put h2 y (filled c ys), m2, y)
                  | None => None
                  end
              | Late =>
                  match copy_all (deepcopy n) h m (c_parts c) with
                  | Some (h2, m2, ys) => let y := Datatypes.length h2 in Some (h2 ++ [filled c ys], (x, y) :: m2, y)
                  | None => None
                  end
              end
          end
      end
  end.
(** forecaster.py:228-232: the arguments are copied in turn, sharing the memo *)
Definition copy_arguments (fuel : nat) (h : heap) (people accounts debts : nat) : option (heap * memo * (nat * nat * nat)) :=
  match deepcopy fuel h [] people with
  | Some (h1, m1, p) =>
      match deepcopy fuel h1 m1 accounts with
      | Some (h2, m2, a) =>
          match deepcopy fuel h2 m2 debts with
          | Some (h3, m3, d) => Some (h3, m3, (p, a, d))
          | None => None
          end
      | None => None
      end
  | None => None
  end.

(** ** What the forecast may do with the objects it has been handed: look at the parts of an object it
    knows, make new objects from objects it knows (atoms have no parts), and change the parts of a (mutable) object it knows.
    [known] are the addresses it holds. *)
Record machine : Type := { k_heap : heap; k_known : list nat }.
Inductive action : Type := Look (x : nat) (i : nat) | Make (k : kind) (t : nat) (parts : list nat) | Change (x : nat) (t : nat) (parts : list nat).
Definition knows (s : machine) (l : list nat) : bool := forallb (fun x => existsb (Nat.eqb x) (k_known s)) l.
(** actions on unknown objects cannot be expressed: they do nothing here *)
Definition act (s : machine) (a : action) : machine :=
  match a with
  | Look x i => if knows s [x] then
                  match nth_error (k_heap s) x with
                  | Some c => match nth_error (c_parts c) i with
                              | Some y => {| k_heap := k_heap s; k_known := y :: k_known s |}
                              | None => s
                              end
                  | None => s
                  end
                else s
  | Make k t parts => if knows s parts then
                        {| k_heap := k_heap s ++ [{| c_kind := k; c_tag := t; c_parts := match k with Atomic => [] | _ => parts end |}];
                           k_known := Datatypes.length (k_heap s) :: k_known s |}
                      else s
  | Change x t parts => if knows s (x :: parts) then
                          match nth_error (k_heap s) x with
                          | Some c => match c_kind c with
                                      | Atomic => s
                                      | k => {| k_heap := put (k_heap s) x {| c_kind := k; c_tag := t; c_parts := parts |}; k_known := k_known s |}
                                      end
                          | None => s
                          end
                        else s
  end.
Definition acts (s : machine) (l : list action) : machine := fold_left act l s.
(** forecaster.py:204-288: [shared] are the objects the forecaster itself holds (scenario, strategies, tax
    treatment: forecaster.py:234-247), which are not copied *)
Definition run_forecast (fuel : nat) (h : heap) (people accounts debts : nat) (shared : list nat) (program : list action) : option (heap * memo * (nat * nat * nat)) :=
  match copy_arguments fuel h people accounts debts with
  | Some (h1, m, (p, a, d)) => Some (k_heap (acts {| k_heap := h1; k_known := p :: a :: d :: shared |} program), m, (p, a, d))
  | None => None
  end.
