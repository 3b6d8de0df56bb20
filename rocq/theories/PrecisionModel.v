(** Model of /repo/forecaster/utility/precision.py: numeric attributes that are converted to a
    high-precision type when read.  Types of native values and of conversion functions are
    parameters; [feqb] is Python's [==] on conversion functions and [conv f v] is [f(v)], which the
    class asks to be stateless (precision.py:99-102). *)
From Verif Require Import Base.

Section Precision.
  Context {V F : Type} (feqb : F -> F -> bool) (conv : F -> V -> V).

  (** an object with one such attribute.  [o_hp]: its high_precision attribute (outer None: the
      attribute does not exist; inner None: Python's None); [o_raw]: the private attribute holding
      the value that was set (same convention) *)
  Record pobj : Type := { o_hp : option (option F); o_raw : option (option V) }.
  Definition no_obj : pobj := {| o_hp := None; o_raw := None |}.
  (** the objects of the class, by identity, and the cache fields of the descriptor, of which there
      is one per class (precision.py:108-112) *)
  Record pstate : Type := { p_objs : nat -> pobj; p_vcache : option V; p_fcache : option F }.
  Definition pinit : pstate := {| p_objs := fun _ => no_obj; p_vcache := None; p_fcache := None |}.
  Definition put (s : pstate) (o : nat) (x : pobj) : pstate :=
    {| p_objs := fun n => if Nat.eqb n o then x else p_objs s n; p_vcache := p_vcache s; p_fcache := p_fcache s |}.

  (** precision.py:74, 126: getattr *)
  Definition raw (x : pobj) : res (option V) := match o_raw x with Some v => Ok v | None => Err AttributeError end.
  (** precision.py:80, 123 *)
  Definition hp (x : pobj) : res (option F) := match o_hp x with Some f => Ok f | None => Err AttributeError end.
  (** precision.py:61-88: the uncached read; [arg] is the high_precision argument *)
  Definition plain_get (x : pobj) (arg : option F) : res (option V) :=
    let* value := raw x in
    let* f := match arg with Some f => Ok (Some f) | None => hp x end in
    match f with
    | None => Ok value
    | Some f => match value with Some v => Ok (Some (conv f v)) | None => Ok None end
    end.
  (** precision.py:90-92 *)
  Definition plain_set (s : pstate) (o : nat) (v : option V) : pstate :=
    put s o {| o_hp := o_hp (p_objs s o); o_raw := Some v |}.

  (** precision.py:128-149: from the test of the cache on *)
  Definition cached_with (s : pstate) (o : nat) (f : F) : res (option V * pstate) :=
    match p_vcache s, p_fcache s with
    | Some c, Some g => if feqb g f then Ok (Some c, s)
                        else let* v := plain_get (p_objs s o) (Some f) in
                             Ok (v, {| p_objs := p_objs s; p_vcache := v; p_fcache := Some f |})
    | _, _ => let* v := plain_get (p_objs s o) (Some f) in
              Ok (v, {| p_objs := p_objs s; p_vcache := v; p_fcache := Some f |})
    end.
  (** precision.py:114-149: the cached read *)
  Definition cached_get (s : pstate) (o : nat) (arg : option F) : res (option V * pstate) :=
    let* f := match arg with Some f => Ok (Some f) | None => hp (p_objs s o) end in
    match f with
    | None => let* v := raw (p_objs s o) in Ok (v, s)
    | Some f => cached_with s o f
    end.
  (** precision.py:151-154 *)
  Definition cached_set (s : pstate) (o : nat) (v : option V) : pstate :=
    let s := plain_set s o v in {| p_objs := p_objs s; p_vcache := None; p_fcache := p_fcache s |}.
  (** precision.py:205: assigning high_precision *)
  Definition set_hp (s : pstate) (o : nat) (f : option F) : pstate :=
    put s o {| o_hp := Some f; o_raw := o_raw (p_objs s o) |}.
  (** precision.py:207-224 *)
  Definition precision_convert (x : pobj) (v : V) : res V :=
    let* f := hp x in match f with Some f => Ok (conv f v) | None => Ok v end.

  (** what client code can do with the attribute; a read that raises leaves the state as it was *)
  Inductive pop : Type := PGet (o : nat) | PSet (o : nat) (v : option V) | PHp (o : nat) (f : option F).
  Definition pstep (s : pstate) (a : pop) : pstate :=
    match a with
    | PGet o => match cached_get s o None with Ok (_, s') => s' | Err _ => s end
    | PSet o v => cached_set s o v
    | PHp o f => set_hp s o f
    end.
  Definition prun (l : list pop) : pstate := fold_left pstep l pinit.
  (** the same client on the uncached property *)
  Definition ustep (s : pstate) (a : pop) : pstate :=
    match a with PGet _ => s | PSet o v => plain_set s o v | PHp o f => set_hp s o f end.
  Definition urun (l : list pop) : pstate := fold_left ustep l pinit.
End Precision.
