(** Model of /repo/forecaster/value_reader.py: settings read from JSON files.

    Python's built-in [float(text)] is the parameter [float_of] (None: ValueError), [str(int)] and
    [repr(float)] are [int_text] and [float_text]; the user's high-precision function and serialiser are part
    of the reader.  The tokenising of the file's text is not modelled: a file holds a [raw] tree of
    JSON tokens, or something that is not JSON. *)
From Coq Require Import Qround.
From Verif Require Import Base.

(** a float (or high-precision number) *)
Inductive fl : Type := Fin (q : Q) | PInf | NInf | NaN.
(** Python ints, floats, and numbers of the high-precision type *)
Inductive num : Type := NInt (z : Z) | NFloat (x : fl) | NHigh (x : fl).
(** dict keys: strings, or numbers after conversion *)
Inductive jkey : Type := KStr (s : string) | KNum (n : num).
(** the Python value of a JSON document (value_reader.py:305-313) *)
Inductive json : Type :=
  JNull | JBool (b : bool) | JNum (n : num) | JStr (s : string) | JList (l : list json) | JDict (d : list (jkey * json)).
(** a JSON document as text: tokens not yet interpreted.  RFloat and RConst carry the token's text. *)
Inductive raw : Type :=
  RNull | RBool (b : bool) | RInt (z : Z) | RFloat (s : string) | RConst (s : string) | RStr (s : string)
| RList (l : list raw) | RDict (d : list (string * raw)).

(** Python's equality of numbers is by value; NaN equals nothing *)
Definition fl_eqb (a b : fl) : bool :=
  match a, b with Fin p, Fin q => Qeq_bool p q | PInf, PInf | NInf, NInf => true | _, _ => false end.
Definition nval (n : num) : fl := match n with NInt z => Fin (inject_Z z) | NFloat x | NHigh x => x end.
Definition num_eqb (a b : num) : bool := fl_eqb (nval a) (nval b).
Definition keqb (a b : jkey) : bool :=
  match a, b with KStr s, KStr t => String.eqb s t | KNum m, KNum n => num_eqb m n | _, _ => false end.

(** value_reader.py:194-207: a ValueReader.  [r_hp]: the high_precision callable applied to a string and to
    a float (None: not in high-precision mode).  [r_values] is normally a dict but see [read]. *)
Record reader : Type := {
  r_values : json; r_use_defaults : bool;
  r_hp : option ((string -> res fl) * (fl -> res fl)); r_ser : option (fl -> string) }.
Definition set_values (r : reader) (v : json) : reader :=
  {| r_values := v; r_use_defaults := r_use_defaults r; r_hp := r_hp r; r_ser := r_ser r |}.

(** the integrality test [x % 1 == 0] of value_reader.py:340: false for inf and NaN *)
Definition integral (x : fl) : bool := match x with Fin q => Qeq_bool (q - inject_Z (Qfloor q)) 0 | _ => false end.
(** [int(x)] for an integral float, value_reader.py:344 *)
Definition to_int (x : fl) : Z := match x with Fin q => Qfloor q | _ => 0%Z end.

Section Reader.
  Context (float_of : string -> option fl).

  (** value_reader.py:330-349: a string *)
  Definition convert_str (hp : option ((string -> res fl) * (fl -> res fl))) (s : string) : res (string + num) :=
    match float_of s with
    | None => Ok (inl s)
    | Some x =>
        if integral x then Ok (inr (NInt (to_int x)))
        else match hp with
             | Some (h, _) => let* y := h s in Ok (inr (NHigh y))
             | None => Ok (inr (NFloat x))
             end
    end.
  (** value_reader.py:320: converting a key *)
  Definition convert_key (hp : option ((string -> res fl) * (fl -> res fl))) (k : jkey) : res jkey :=
    match k with
    | KStr s => let* c := convert_str hp s in Ok (match c with inl s => KStr s | inr n => KNum n end)
    | KNum n => Ok (KNum n)
    end.
  (** value_reader.py:300-349: _numeric_convert.  The dict comprehension inserts entries in order, a
      later entry with an equal key replacing the earlier value. *)
  Fixpoint numeric_convert (hp : option ((string -> res fl) * (fl -> res fl))) (t : json) : res json :=
    match t with
    | JDict d =>
        let* d' := (fix go (d : list (jkey * json)) (acc : list (jkey * json)) : res (list (jkey * json)) :=
                      match d with
                      | [] => Ok acc
                      | (k, v) :: r =>
                          let* k' := convert_key hp k in
                          let* v' := numeric_convert hp v in
                          go r (dset keqb acc k' v')
                      end) d [] in
        Ok (JDict d')
    | JList l =>
        let* l' := (fix go (l : list json) : res (list json) :=
                      match l with
                      | [] => Ok []
                      | x :: r => let* y := numeric_convert hp x in let* r' := go r in Ok (y :: r')
                      end) l in
        Ok (JList l')
    | JStr s => let* c := convert_str hp s in Ok (match c with inl s => JStr s | inr n => JNum n end)
    | _ => Ok t
    end.

  (** value_reader.py:261-282: a JSON number with a fraction or exponent *)
  Definition parse_float (hp : option ((string -> res fl) * (fl -> res fl))) (s : string) : res num :=
    match hp with
    | Some (h, hf) =>
        match h s with
        | Ok y => Ok (NHigh y)
        | Err _ => match float_of s with
                   | Some x => let* y := hf x in Ok (NHigh y)
                   | None => Err ValueError
                   end
        end
    | None => match float_of s with Some x => Ok (NFloat x) | None => Err ValueError end
    end.
  (** [-x] *)
  Definition fl_neg (x : fl) : fl := match x with Fin q => Fin (- q) | PInf => NInf | NInf => PInf | NaN => NaN end.
  (** value_reader.py:284-298 *)
  Definition parse_constant (hp : option ((string -> res fl) * (fl -> res fl))) (s : string) : res num :=
    let* inf := match hp with Some (_, hf) => let* y := hf PInf in Ok (NHigh y) | None => Ok (NFloat PInf) end in
    if String.eqb s "Infinity"%string then Ok inf
    else if String.eqb s "-Infinity"%string
         then Ok (match inf with NHigh y => NHigh (fl_neg y) | NFloat y => NFloat (fl_neg y) | NInt z => NInt (- z)%Z end)
         else Err ValueError.
  (** json.load as called at value_reader.py:248-252; JSON objects become dicts, the last of several
      equal names winning *)
  Fixpoint load (hp : option ((string -> res fl) * (fl -> res fl))) (t : raw) : res json :=
    match t with
    | RNull => Ok JNull
    | RBool b => Ok (JBool b)
    | RInt z => Ok (JNum (NInt z))
    | RFloat s => let* n := parse_float hp s in Ok (JNum n)
    | RConst s => let* n := parse_constant hp s in Ok (JNum n)
    | RStr s => Ok (JStr s)
    | RList l =>
        let* l' := (fix go (l : list raw) : res (list json) :=
                      match l with
                      | [] => Ok []
                      | x :: r => let* y := load hp x in let* r' := go r in Ok (y :: r')
                      end) l in
        Ok (JList l')
    | RDict d =>
        let* d' := (fix go (d : list (string * raw)) (acc : list (jkey * json)) : res (list (jkey * json)) :=
                      match d with
                      | [] => Ok acc
                      | (k, v) :: r => let* v' := load hp v in go r (dset keqb acc (KStr k) v')
                      end) d [] in
        Ok (JDict d')
    end.

  (** a file: absent, JSON, or not JSON (json.JSONDecodeError is a ValueError) *)
  Inductive file : Type := NoFile | Json (t : raw) | NotJson.
  Definition load_file (hp : option ((string -> res fl) * (fl -> res fl))) (f : file) : res json :=
    match f with NoFile => Err OSError | NotJson => Err ValueError | Json t => load hp t end.
  (** [self.values.clear()], value_reader.py:241: only dicts and lists have it *)
  Definition clear (v : json) : res json :=
    match v with JDict _ => Ok (JDict []) | JList _ => Ok (JList []) | _ => Err AttributeError end.
  (** value_reader.py:212-259: read; gives the outcome and the reader afterwards (also when raising) *)
  Definition read (r : reader) (f : file) (numeric : bool) : res unit * reader :=
    match clear (r_values r) with
    | Err e => (Err e, r)
    | Ok v0 =>
        match load_file (r_hp r) f with
        | Err e => (Err e, set_values r v0)
        | Ok v1 =>
            match (if numeric then numeric_convert (r_hp r) v1 else Ok v1) with
            | Err e => (Err e, set_values r v1)
            | Ok v2 => (match v2 with JDict _ => Ok tt | _ => Err TypeError end, set_values r v2)
            end
        end
    end.
  (** value_reader.py:194-210: __init__ *)
  Definition new_reader (hp : option ((string -> res fl) * (fl -> res fl))) (ser : option (fl -> string)) (use_defaults : bool)
      (f : option file) (numeric : bool) : res unit * reader :=
    let r := {| r_values := JDict []; r_use_defaults := use_defaults; r_hp := hp; r_ser := ser |} in
    match f with Some f => read r f numeric | None => (Ok tt, r) end.
End Reader.

(** substring test, for [name in "text"] *)
Fixpoint prefixb (p s : string) : bool :=
  match p, s with
  | EmptyString, _ => true
  | String a p, String b s => if Ascii.eqb a b then prefixb p s else false
  | _, EmptyString => false
  end.
Fixpoint substr (p s : string) : bool :=
  prefixb p s || match s with EmptyString => false | String _ s => substr p s end.
(** [name in values] *)
Definition contains (v : json) (name : string) : res bool :=
  match v with
  | JDict d => Ok (dmem keqb d (KStr name))
  | JList l => Ok (existsb (fun x => match x with JStr s => String.eqb s name | _ => false end) l)
  | JStr s => Ok (substr name s)
  | _ => Err TypeError
  end.
(** [values[name]] *)
Definition index (v : json) (name : string) : res json :=
  match v with JDict d => dget_r keqb d (KStr name) | _ => Err TypeError end.
(** value_reader.py:40-52: reading a managed attribute with the given default (None: no default) *)
Definition attr_get (r : reader) (default : option json) (name : string) : res json :=
  let* present := contains (r_values r) name in
  match negb present, default, r_use_defaults r with
  | true, Some v, true => Ok v
  | _, _, _ => index (r_values r) name
  end.
(** value_reader.py:54-56 *)
Definition attr_set (r : reader) (name : string) (v : json) : res reader :=
  match r_values r with JDict d => Ok (set_values r (JDict (dset keqb d (KStr name) v))) | _ => Err TypeError end.
(** value_reader.py:58-62.  The instance's own __dict__ never holds the name of a managed attribute (a
    data descriptor takes precedence on assignment), so line 62 raises KeyError. *)
Definition attr_del (r : reader) (name : string) : res unit * reader :=
  match r_values r with
  | JDict d => match dget keqb d (KStr name) with
               | Some _ => (Err KeyError, set_values r (JDict (ddel keqb d (KStr name))))
               | None => (Err KeyError, r)
               end
  | _ => (Err TypeError, r)
  end.

(** ---- writing ---- *)
Section Writer.
  (** Python's [str(int)], [repr(float)] of a finite float, and [str] of a high-precision number *)
  Context (int_text : Z -> string) (float_text : Q -> string) (high_text : fl -> string).

  (** json's text for floats: Infinity, -Infinity and NaN are emitted (value_reader.py:369) *)
  Definition float_str (x : fl) : string :=
    match x with Fin q => float_text q | PInf => "Infinity" | NInf => "-Infinity" | NaN => "NaN" end%string.
  (** json.JSONEncoder's treatment of dict keys: other types raise TypeError, whatever [default] does *)
  Definition key_text (k : jkey) : res string :=
    match k with
    | KStr s => Ok s
    | KNum (NInt z) => Ok (int_text z)
    | KNum (NFloat x) => Ok (float_str x)
    | KNum (NHigh _) => Err TypeError
    end.
  (** sort_keys=True, value_reader.py:371: sorting keys of different kinds raises TypeError *)
  Definition is_str_key (e : jkey * raw) : bool := match fst e with KStr _ => true | _ => false end.
  Definition fl_leb (a b : fl) : bool :=
    match a, b with
    | Fin p, Fin q => Qle_bool p q | NInf, (Fin _ | PInf | NInf) => true | Fin _, PInf => true | PInf, PInf => true | _, _ => false
    end.
  Definition key_leb (a b : jkey * raw) : bool :=
    match fst a, fst b with
    | KStr s, KStr t => match String.compare s t with Gt => false | _ => true end
    | KNum m, KNum n => fl_leb (nval m) (nval n)
    | _, _ => false
    end.
  Fixpoint ins (e : jkey * raw) (l : list (jkey * raw)) : list (jkey * raw) :=
    match l with [] => [e] | x :: r => if key_leb e x then e :: l else x :: ins e r end.
  Definition sort_items (d : list (jkey * raw)) : res (list (jkey * raw)) :=
    if forallb is_str_key d || forallb (fun e => negb (is_str_key e)) d then Ok (fold_right ins [] d) else Err TypeError.
  (** value_reader.py:96-135: [default], for a number of the high-precision type; TypeError when the
      encoder was not given that type *)
  Definition encode_high (r : reader) (x : fl) : res raw :=
    match r_hp r with
    | Some _ => Ok (RStr (match r_ser r with Some f => f x | None => high_text x end))
    | None => Err TypeError
    end.
  (** the texts of the keys of the sorted items *)
  Fixpoint key_texts (d : list (jkey * raw)) : res (list (string * raw)) :=
    match d with [] => Ok [] | (k, v) :: q => let* k' := key_text k in let* q' := key_texts q in Ok ((k', v) :: q') end.
  (** json.dump with HighPrecisionJSONEncoder, value_reader.py:366-386.  Python sorts a dict's items before it
      encodes their values; here the values are encoded first, which differs only in which of several
      TypeErrors is raised. *)
  Fixpoint encode (r : reader) (t : json) : res raw :=
    match t with
    | JNull => Ok RNull
    | JBool b => Ok (RBool b)
    | JNum (NInt z) => Ok (RInt z)
    | JNum (NFloat (Fin q)) => Ok (RFloat (float_text q))
    | JNum (NFloat x) => Ok (RConst (float_str x))
    | JNum (NHigh x) => encode_high r x
    | JStr s => Ok (RStr s)
    | JList l =>
        let* l' := (fix go (l : list json) : res (list raw) :=
                      match l with [] => Ok [] | x :: q => let* y := encode r x in let* q' := go q in Ok (y :: q') end) l in
        Ok (RList l')
    | JDict d =>
        let* d1 := (fix go (d : list (jkey * json)) : res (list (jkey * raw)) :=
                      match d with [] => Ok [] | (k, v) :: q => let* v' := encode r v in let* q' := go q in Ok ((k, v') :: q') end) d in
        let* d2 := sort_items d1 in
        let* d3 := key_texts d2 in
        Ok (RDict d3)
    end.
  (** what is to be written: the reader's own values, a tree, or (as the docstring allows,
      value_reader.py:355-358) another reader *)
  Inductive to_write : Type := Own | Vals (t : json) | OtherReader (r : reader).
  (** value_reader.py:351-386: opening the file for writing empties it; a failure part-way leaves an
      incomplete text.  A reader object is not a JSON type and [default] raises TypeError. *)
  Definition write (r : reader) (w : to_write) : res unit * file :=
    match (match w with Own => encode r (r_values r) | Vals t => encode r t | OtherReader _ => Err TypeError end) with
    | Ok t => (Ok tt, Json t)
    | Err e => (Err e, NotJson)
    end.
End Writer.
