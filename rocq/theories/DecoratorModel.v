(** Model of how recorded properties are declared: the decorators of /repo/forecaster/ledger/recorded_property.py, applied one
    after the other as in [@x.setter], and the metaclass LedgerType of ledger/base.py, which collects them.  LedgerModel.v starts
    from the result: a class with a list of recorded properties, each with at most one getter, setter and deleter.
    User functions are arbitrary: they may raise, and read and change anything about the object. *)
From Verif Require Import Base.
Local Open Scope string_scope.

Section Decorators.
Context {V E : Type}.

(** ** Objects *)
(** an instance: [this_year], [inputs], the attributes that hold a history ([o_hist], by attribute name) and all others *)
Record obj : Type := { o_year : Z; o_inputs : dict string (dict Z V); o_hist : dict string (dict Z V); o_env : E }.
Definition set_hist (o : obj) (h : dict string (dict Z V)) : obj := {| o_year := o_year o; o_inputs := o_inputs o; o_hist := h; o_env := o_env o |}.
(** [getattr(obj, attr)]; a missing attribute raises AttributeError *)
Definition hist_attr (o : obj) (attr : string) : option (dict Z V) := dget String.eqb (o_hist o) attr.
(** changing the dict that is attribute [attr].  Simplified: the dict is looked up again after the getter has run, where the code
    keeps the one it looked up before (they differ only if the getter replaces or deletes the attribute itself). *)
Definition change_hist (o : obj) (attr : string) (f : dict Z V -> dict Z V) : obj :=
  match hist_attr o attr with Some d => set_hist o (dset String.eqb (o_hist o) attr (f d)) | None => o end.
(** [del d[y]]: all entries for [y]; a Python dict has at most one *)
Definition hdel (y : Z) (d : dict Z V) : dict Z V := filter (fun kv => negb (Z.eqb (fst kv) y)) d.

(** ** Functions, with their [__name__] *)
Record getfn : Type := { g_name : string; g_run : obj -> res V * obj }.
Record setfn : Type := { s_name : string; s_run : V -> obj -> res unit * obj }.
Record delfn : Type := { d_name : string; d_run : obj -> res unit * obj }.

(** ** recorded_property and recorded_property_cached objects *)
Record prop : Type := {
  p_cached : bool;
  p_name : string;                                   (* __name__ *)
  p_get : getfn; p_set : setfn; p_del : delfn;       (* fget, fset, fdel of the [property] *)
  p_history : obj -> res (dict Z V) * obj            (* history_property *)
}.
(** recorded_property.py:53-54 *)
Definition history_prop_name (n : string) : string := n ++ "_history".
Definition history_dict_name (n : string) : string := "_" ++ history_prop_name n.
(** recorded_property.py:42-50; a getter is always given *)
Definition name_of (fget : getfn) (fset : option setfn) (fdel : option delfn) : string :=
  if negb (String.eqb (g_name fget) "getter") then g_name fget
  else match fset with
       | Some f => if negb (String.eqb (s_name f) "setter") then s_name f
                   else match fdel with Some d => if negb (String.eqb (d_name d) "deleter") then d_name d else g_name fget | None => g_name fget end
       | None => match fdel with Some d => if negb (String.eqb (d_name d) "deleter") then d_name d else g_name fget | None => g_name fget end
       end.
(** recorded_property.py:59-65 *)
Definition getter (n : string) (fget : getfn) : getfn :=
  {| g_name := "getter";
     g_run o := match hist_attr o (history_dict_name n) with
                | None => (Err AttributeError, o)
                | Some d => match dget Z.eqb d (o_year o) with Some v => (Ok v, o) | None => g_run fget o end
                end |}.
(** recorded_property.py:70-72, 97-99 *)
Definition has_input (o : obj) (n : string) : bool :=
  match dget String.eqb (o_inputs o) n with Some d => dmem Z.eqb d (o_year o) | None => false end.
(** recorded_property.py:67-92 *)
Definition setter (n : string) (fset : option setfn) : setfn :=
  {| s_name := "setter";
     s_run v o := if has_input o n then (Ok tt, o)
                  else match hist_attr o (history_dict_name n) with
                       | None => (Err AttributeError, o)
                       | Some _ =>
                         match fset with
                         | None => (Ok tt, change_hist o (history_dict_name n) (fun d => dset Z.eqb d (o_year o) v))
                         | Some f => s_run f v (change_hist o (history_dict_name n) (hdel (o_year o)))
                         end
                       end |}.
(** recorded_property.py:94-107 *)
Definition deleter (n : string) (fdel : option delfn) : delfn :=
  {| d_name := "deleter";
     d_run o := if has_input o n then (Ok tt, o)
                else match hist_attr o (history_dict_name n) with
                     | None => (Err AttributeError, o)
                     | Some _ =>
                       let o' := change_hist o (history_dict_name n) (hdel (o_year o)) in
                       match fdel with None => (Ok tt, o') | Some f => d_run f o' end
                     end |}.
(** recorded_property.py:111-122 *)
Definition history (n : string) (fget : getfn) (o : obj) : res (dict Z V) * obj :=
  match hist_attr o (history_dict_name n) with
  | None => (Err AttributeError, o)
  | Some d => if dmem Z.eqb d (o_year o) then (Ok d, o)
              else match g_run fget o with
                   | (Ok v, o') => (Ok (dset Z.eqb d (o_year o') v), o')
                   | (Err e, o') => (Err e, o')
                   end
  end.
(** recorded_property.py:26-130 *)
Definition recorded_property (fget : getfn) (fset : option setfn) (fdel : option delfn) : prop :=
  let n := name_of fget fset fdel in
  {| p_cached := false; p_name := n; p_get := getter n fget; p_set := setter n fset; p_del := deleter n fdel; p_history := history n fget |}.

(** recorded_property.py:161 *)
Definition caching_name (fget : getfn) : string := g_name fget.
(** recorded_property.py:152-162: the getter it hands on *)
Definition caching (n : string) (fget : getfn) : getfn :=
  {| g_name := caching_name fget;
     g_run o := match hist_attr o (history_dict_name n) with
                | None => (Err AttributeError, o)
                | Some _ => match g_run fget o with
                            | (Ok v, o') => (Ok v, change_hist o' (history_dict_name n) (fun d => dset Z.eqb d (o_year o') v))
                            | (Err e, o') => (Err e, o')
                            end
                end |}.
(** recorded_property.py:168-173 *)
Definition cached_history (n : string) (fget : getfn) (o : obj) : res (dict Z V) * obj :=
  match hist_attr o (history_dict_name n) with
  | None => (Err AttributeError, o)
  | Some d => if dmem Z.eqb d (o_year o) then (Ok d, o)
              else match g_run fget o with
                   | (Ok v, o') =>
                     let o'' := change_hist o' (history_dict_name n) (fun d => dset Z.eqb d (o_year o') v) in
                     (match hist_attr o'' (history_dict_name n) with Some d => Ok d | None => Err AttributeError end, o'')
                   | (Err e, o') => (Err e, o')
                   end
  end.
(** recorded_property.py:147-181 *)
Definition recorded_property_cached (fget : getfn) (fset : option setfn) (fdel : option delfn) : prop :=
  let n := name_of {| g_name := caching_name fget; g_run := g_run fget |} fset fdel in
  let f := caching n fget in
  {| p_cached := true; p_name := n; p_get := getter n f; p_set := setter n fset; p_del := deleter n fdel; p_history := cached_history n fget |}.
Definition declare (cached : bool) : getfn -> option setfn -> option delfn -> prop := if cached then recorded_property_cached else recorded_property.

(** [@x.getter], [@x.setter], [@x.deleter]: Python's [property] makes a new object of the same class from the functions it has *)
Inductive decorator : Type := DGetter (f : getfn) | DSetter (f : setfn) | DDeleter (f : delfn).
Definition redeclare (p : prop) (d : decorator) : prop :=
  match d with
  | DGetter f => declare (p_cached p) f (Some (p_set p)) (Some (p_del p))
  | DSetter f => declare (p_cached p) (p_get p) (Some f) (Some (p_del p))
  | DDeleter f => declare (p_cached p) (p_get p) (Some (p_set p)) (Some f)
  end.
(** [@recorded_property def x ...] followed by further decorators *)
Definition declared (cached : bool) (f : getfn) (l : list decorator) : prop := fold_left redeclare l (declare cached f None None).

(** ** Classes *)
(** what a class attribute can be: a recorded property, the history property of one, anything else *)
Inductive attr : Type := ARecorded (p : prop) | AHistory (p : prop) | AOther.
(** a class: its own attributes, and the classes after it in its method resolution order *)
Record class : Type := { c_own : dict string attr; c_mro : list (dict string attr) }.
(** [getattr(cls, name)] *)
Fixpoint first_found (l : list (dict string attr)) (n : string) : option attr :=
  match l with [] => None | d :: r => match dget String.eqb d n with Some a => Some a | None => first_found r n end end.
Definition resolve (c : class) (n : string) : option attr := first_found (c_own c :: c_mro c) n.
(** [inspect.getmembers(cls, lambda x: hasattr(x, 'history_property'))] (base.py:25-26): each name found in the class or after it,
    once, with what it resolves to.  Simplified: in some order; the order is that of the names *)
Definition member_names (c : class) : list string := nodup string_dec (List.concat (map (@dkeys string attr) (c_own c :: c_mro c))).
Definition members (c : class) : list prop :=
  flat_map (fun n => match resolve c n with Some (ARecorded p) => [p] | _ => [] end) (member_names c).
(** base.py:16-38: [LedgerType.__init__]: the recorded properties, the cached ones, and the class with the history properties set *)
Record ledger_class : Type := { l_class : class; l_recorded : list prop; l_cached : list prop }.
Definition set_own (c : class) (n : string) (a : attr) : class := {| c_own := dset String.eqb (c_own c) n a; c_mro := c_mro c |}.
Definition ledger_type (c : class) : ledger_class :=
  let ps := members c in
  {| l_class := fold_left (fun c p => set_own c (history_prop_name (p_name p)) (AHistory p)) ps c;
     l_recorded := ps; l_cached := filter p_cached ps |}.
(** base.py:60-92: [Ledger.__init__]; [inputs] as the user gave them *)
Definition new_object (c : ledger_class) (y : Z) (inputs : dict string (dict Z V)) (e : E) : obj :=
  {| o_year := y; o_inputs := inputs;
     o_hist := fold_left (fun h p => dset String.eqb h (history_dict_name (p_name p)) match dget String.eqb inputs (p_name p) with Some d => d | None => [] end) (l_recorded c) [];
     o_env := e |}.

(** [obj.x], [obj.x = v], [del obj.x] and [obj.x_history]; attributes that are neither recorded properties nor histories of them
    are not modelled *)
Definition read_attr (c : ledger_class) (n : string) (o : obj) : option (res V * obj) :=
  match resolve (l_class c) n with Some (ARecorded p) => Some (g_run (p_get p) o) | _ => None end.
Definition read_history (c : ledger_class) (n : string) (o : obj) : option (res (dict Z V) * obj) :=
  match resolve (l_class c) (history_prop_name n) with Some (AHistory p) => Some (p_history p o) | _ => None end.
(** base.py:94-111 [next_year] *)
Fixpoint record_all (c : ledger_class) (ps : list prop) (o : obj) : res unit * obj :=
  match ps with
  | [] => (Ok tt, o)
  | p :: r =>
    match hist_attr o (history_dict_name (p_name p)) with
    | None => (Err AttributeError, o)
    | Some d =>
      if dmem Z.eqb d (o_year o) then record_all c r o
      else match read_attr c (p_name p) o with
           | Some (Ok v, o') => record_all c r (change_hist o' (history_dict_name (p_name p)) (fun d => dset Z.eqb d (o_year o') v))
           | Some (Err e, o') => (Err e, o')
           | None => (Err AttributeError, o)
           end
    end
  end.
Definition next_year (c : ledger_class) (o : obj) : res unit * obj :=
  match record_all c (l_recorded c) o with
  | (Ok _, o') => (Ok tt, {| o_year := (o_year o' + 1)%Z; o_inputs := o_inputs o'; o_hist := o_hist o'; o_env := o_env o' |})
  | (Err e, o') => (Err e, o')
  end.
(** base.py:113-118 [clear_cache] *)
Fixpoint clear_all (ps : list prop) (o : obj) : res unit * obj :=
  match ps with [] => (Ok tt, o) | p :: r => match d_run (p_del p) o with (Ok _, o') => clear_all r o' | (Err e, o') => (Err e, o') end end.
Definition clear_cache (c : ledger_class) (o : obj) : res unit * obj := clear_all (l_cached c) o.
End Decorators.
Arguments obj : clear implicits. Arguments getfn : clear implicits. Arguments setfn : clear implicits. Arguments delfn : clear implicits.
Arguments prop : clear implicits. Arguments decorator : clear implicits. Arguments attr : clear implicits. Arguments class : clear implicits.
Arguments ledger_class : clear implicits.
