(** The pydantic schemas of Option, Result and Block, and dict(), which serialises them.

    Pydantic itself is not in the repository.  What its core schemas do is written down
    here for the schemas the library builds: a union takes the first alternative that
    accepts; a validator that raises ValueError makes its alternative fail, any other
    exception leaves the validation; ValidationError is a ValueError.  The schemas of the
    item types that are none of the three classes are parameters ([check] for Python
    input and [check_json] for JSON input).  JSON text is left out: the input of the JSON
    schemas is the decoded data. *)
From Coq Require Import List String Bool.
From Verif.Model Require Import Base.
Import ListNotations.
Local Open Scope py_scope.

(** Python objects: instances of the three classes, None, str, list, dict (with str keys,
    in the order of the entries) and anything else. *)
Inductive pv (atom : Type) : Type :=
| Atom (a : atom) | PStr (s : string) | PNone | PList (l : list (pv atom)) | PDict (d : list (string * pv atom))
| PSome (v : pv atom) | PNothing | POk (v : pv atom) | PError (v : pv atom) | PBlock (l : list (pv atom)).
Arguments Atom {atom}. Arguments PStr {atom}. Arguments PNone {atom}. Arguments PList {atom}. Arguments PDict {atom}.
Arguments PSome {atom}. Arguments PNothing {atom}. Arguments POk {atom}. Arguments PError {atom}. Arguments PBlock {atom}.

(** Option[t], Result[ok, error], Block[t] and other types. *)
Inductive ty (base : Type) : Type := TBase (b : base) | TOption (t : ty base) | TResult (ok error : ty base) | TBlock (t : ty base).
Arguments TBase {base}. Arguments TOption {base}. Arguments TResult {base}. Arguments TBlock {base}.

Section Schemas.
  Context {base atom : Type}.
  Notation val := (pv atom).
  Variables check check_json : base -> val -> res val.
  (** [name in a] for an object that is none of the others *)
  Variable contains_atom : atom -> string -> res bool.
  (** Which alternative a union prefers when both accept: pydantic compares how exact
      they are. *)
  Variable prefers_ok : val -> bool.

  (** option.py:268-279, result.py:207-219, block.py:446-455 [dict]: a payload that has a
      method model_dump or dict is converted, others are kept as they are *)
  Fixpoint dump (v : val) : val :=
    match v with
    | PSome v => dump v
    | PNothing => PNone
    | POk v => PDict [("tag", PStr "ok"); ("ok", dump v)]
    | PError v => PDict [("tag", PStr "error"); ("error", dump v)]
    | PBlock l => PList (List.map dump l)
    | v => v
    end%string.

  (** [name in v] and [v[name]] for a str *)
  Definition is_str (name : string) (v : val) : bool := match v with PStr s => String.eqb s name | _ => false end.
  Definition find_key (name : string) (d : list (string * val)) : option val :=
    match find (fun kv => String.eqb (fst kv) name) d with Some kv => Some (snd kv) | None => None end.
  Definition contains (v : val) (name : string) : res bool :=
    match v with
    | Atom a => contains_atom a name
    | PStr s => Ret (match index 0 name s with Some _ => true | None => false end)
    | PNone => Raise TypeError
    | PList l | PBlock l => Ret (existsb (is_str name) l)
    | PDict d => Ret (match find_key name d with Some _ => true | None => false end)
    | PSome v | POk v => Ret (is_str name v)
    | PNothing | PError _ => Raise EffectErrorExn
    end.
  Definition subscript (v : val) (name : string) : res val :=
    match v with PDict d => match find_key name d with Some x => Ret x | None => Raise KeyError end | _ => Raise TypeError end.

  (** The items of a sequence: all are validated, the ValueErrors are collected *)
  Fixpoint items (f : val -> res val) (l : list val) : res (list val) :=
    match l with
    | [] => Ret []
    | x :: l =>
        match f x with
        | Ret y => dor ys <- items f l; Ret (y :: ys)
        | Raise ValueError => dor _ <- items f l; Raise ValueError
        | Raise e => Raise e
        end
    end.
  (** A union of two alternatives *)
  Definition either (v : val) (first second : res val) : res val :=
    match first, second with
    | Raise ValueError, r => r
    | Raise e, _ => Raise e
    | Ret x, Ret y => Ret (if prefers_ok v then y else x)
    | Ret x, Raise ValueError => Ret x
    | Ret x, Raise e => if prefers_ok v then Raise e else Ret x
    end.
  (** result.py:310-321 [validate_ok], [validate_error] *)
  Definition validate_case (name : string) (wrap : val -> val) (handler : val -> res val) (v : val) : res val :=
    dor there <- contains v name;
    if there then (dor x <- subscript v name; dor y <- handler x; Ret (wrap y)) else Raise ValueError.

  (** Python input: option.py:337-363, result.py:310-329, block.py:539-553.  Instances of
      the class are taken as they are. *)
  Fixpoint validate (t : ty base) (v : val) : res val :=
    match t with
    | TBase b => check b v
    | TOption t =>
        match v with
        | PSome _ | PNothing => Ret v
        | PNone => Ret PNothing
        | v => dor x <- validate t v; Ret (PSome x)
        end
    | TResult ok error =>
        match v with
        | POk _ | PError _ => Ret v
        | v => either v (validate_case "error" PError (validate error) v) (validate_case "ok" POk (validate ok) v)
        end
    | TBlock t =>
        match v with
        | PBlock _ => Ret v
        | PList l => dor ys <- items (validate t) l; Ret (PBlock ys)
        | _ => Raise ValueError
        end
    end.

  (** result.py:332-347, a typed dict with the str [tag] and the field [name]; other keys
      are ignored *)
  Definition typed_dict (name : string) (handler : val -> res val) (v : val) : res unit :=
    match v with
    | PDict d =>
        let tagged := match find_key "tag" d with Some (PStr _) => true | _ => false end in
        match find_key name d with
        | Some x => dor _ <- handler x; if tagged then Ret tt else Raise ValueError
        | None => Raise ValueError
        end
    | _ => Raise ValueError
    end.
  (** JSON input: option.py:365-374, where [cls(some=data)] is an instance of Option and
      accepted as such; result.py:330-354, where [cls(data)] is a call of the constructor
      with a positional argument, which it does not have (tagged_union.py:84,
      TypeError); block.py:552-555. *)
  Fixpoint validate_json (t : ty base) (v : val) : res val :=
    match t with
    | TBase b => check_json b v
    | TOption _ => match v with PNone => Ret PNothing | v => Ret (PSome v) end
    | TResult ok error =>
        match typed_dict "ok" (validate_json ok) v with
        | Ret _ => Raise TypeError
        | Raise ValueError => match typed_dict "error" (validate_json error) v with Ret _ => Raise TypeError | Raise e => Raise e end
        | Raise e => Raise e
        end
    | TBlock t => match v with PList l => dor ys <- items (validate_json t) l; Ret (PBlock ys) | _ => Raise ValueError end
    end.
End Schemas.
