(** Model of the rule files of ml/param/base_param.py (validate and its helpers). *)
From Verif Require Export PyBase QcBase EncryptModeModel.
From stdpp Require Export strings.
Local Open Scope string_scope.

(** An attribute of a built-in type; numbers are exact. *)
Inductive rval := RNum (q : Qc) | RStr (s : string) | RNone.
Global Instance rval_eq_dec : EqDecision rval.
Proof. solve_decision. Defined.
(** What a rule file gives for an operation: a number, a list of values or a list of intervals. *)
Inductive rarg := ANum (l : Qc) | AList (l : list rval) | ARanges (l : list (Qc * Qc)).
(** The operations for one attribute, in the order of the file; the attributes of a section; the file with its keys. A key that is
    no class name may have anything, of which nothing is read. *)
Definition rules : Type := list (string * rarg).
Definition section : Type := list (string * rules).
Definition rule_file : Type := list (string * section).
(** An attribute: a value, or a parameter object with the name of its class and its attributes (its __dict__). The attributes
    builtin_types and func that validate itself adds (lines 33-39) are left out: no rule file has keys of these names. *)
Inductive pattr := PVal (v : rval) | PSub (class : string) (fields : list (string * pattr)).

(** [name in d] and [d[name]] for a dict; a later key of the same name does not occur. *)
Fixpoint get {A} (name : string) (d : list (string * A)) : option A :=
  match d with [] => None | (k, x) :: d' => if String.eqb k name then Some x else get name d' end.
Definition item {A} (name : string) (d : list (string * A)) : res A := match get name d with Some x => Ok x | None => Err KeyError end.

(** ml/param/base_param.py:136-138, 140-142: compared with a tolerance of FLOAT_ZERO. *)
Definition greater_equal_than (v : rval) (a : rarg) : res bool :=
  match v, a with RNum q, ANum l => Ok (qleb (l - FLOAT_ZERO)%Qc q) | _, _ => Err TypeError end.
Definition less_equal_than (v : rval) (a : rarg) : res bool :=
  match v, a with RNum q, ANum l => Ok (qleb q (l + FLOAT_ZERO)%Qc) | _, _ => Err TypeError end.
(** ml/param/base_param.py:144-152 *)
Definition range (v : rval) (a : rarg) : res bool :=
  match a with
  | ARanges l => (fix go (l : list (Qc * Qc)) : res bool :=
      match l with
      | [] => Ok false
      | (left_limit, right_limit) :: l' =>
          match v with RNum q => if qleb (left_limit - FLOAT_ZERO)%Qc q && qleb q (right_limit + FLOAT_ZERO)%Qc then Ok true else go l' | _ => Err TypeError end
      end) l
  | _ => Err TypeError
  end.
(** ml/param/base_param.py:154-160 *)
Definition is_in (v : rval) (a : rarg) : res bool := match a with AList l => Ok (bool_decide (v ∈ l)) | _ => Err TypeError end.
(** ml/param/base_param.py:34-39, 73 self.func[op_type](value, ...) *)
Definition apply_rule (op : string) (v : rval) (a : rarg) : res bool :=
  if String.eqb op "ge" then greater_equal_than v a else if String.eqb op "le" then less_equal_than v a
  else if String.eqb op "in" then is_in v a else if String.eqb op "not_in" then b ← is_in v a; Ok (negb b)
  else if String.eqb op "range" then range v a else Err KeyError.
(** ml/param/base_param.py:70-75 *)
Fixpoint value_legal (v : rval) (l : rules) : res bool :=
  match l with [] => Ok false | (op, a) :: l' => b ← apply_rule op v a; if b : bool then Ok true else value_legal v l' end.

Section Validate.
  Context (json : rule_file).
  (** ml/param/base_param.py:57-83 _validate_param for an object; a value has nothing to check by itself. *)
  Fixpoint validate_param (x : pattr) : res unit :=
    match x with
    | PVal _ => Ok tt
    | PSub class fields =>
        (fix go (l : list (string * pattr)) : res unit :=
           match l with
           | [] => Ok tt
           | (variable, attr) :: l' =>
               match get variable json with
               | None => go l'
               | Some _ =>
                   _ ← match attr with
                       | PVal value => s ← item class json; d ← item variable s; b ← value_legal value d; if b : bool then Ok tt else Err ValueError
                       | PSub _ _ => validate_param attr
                       end;
                   go l'
               end
           end) fields
    end.
End Validate.
(** ml/param/base_param.py:32-55; without a readable file nothing is checked. *)
Definition validate (file : option rule_file) (x : pattr) : res unit := match file with None => Ok tt | Some json => validate_param json x end.
