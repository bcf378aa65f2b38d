(** Shared vocabulary of the model: Python exceptions as values, dictionaries as
    insertion-ordered association lists, and loops that may raise. *)
From stdpp Require Export list.

(** The exception classes that the modelled code raises (or lets escape). *)
Inductive exn : Type :=
| ValueError | TypeError | IndexError | KeyError | AttributeError | NameError
| ZeroDivisionError | OverflowError | NotImplementedError | AssertionError
| OutOfFuel (** not a Python exception: the explicit "still looping" result *).

Global Instance exn_eq_dec : EqDecision exn.
Proof. solve_decision. Defined.

(** Result of a Python computation: a value or the class of the raised exception. *)
Inductive res (A : Type) : Type :=
| Ok (a : A)
| Err (e : exn).
Arguments Ok {A} a.
Arguments Err {A} e.

Global Instance res_ret : MRet res := fun A a => Ok a.
Global Instance res_bind : MBind res :=
  fun A B f m => match m with Ok a => f a | Err e => Err e end.
Global Instance res_fmap : FMap res :=
  fun A B f m => match m with Ok a => Ok (f a) | Err e => Err e end.

(** [for x in l: acc = f(acc, x)] where the body may raise. *)
Fixpoint foldM {A B} (f : A -> B -> res A) (acc : A) (l : list B) : res A :=
  match l with
  | [] => Ok acc
  | x :: l' => match f acc x with Ok acc' => foldM f acc' l' | Err e => Err e end
  end.

(** [[f(x) for x in l]] where the body may raise. *)
Fixpoint mapR {A B} (f : A -> res B) (l : list A) : res (list B) :=
  match l with
  | [] => Ok []
  | x :: l' => match f x with
               | Ok y => match mapR f l' with Ok ys => Ok (y :: ys) | Err e => Err e end
               | Err e => Err e
               end
  end.

(** Python [dict]: insertion-ordered association list (language guarantee since 3.7). *)
Definition dict (K V : Type) : Type := list (K * V).

Section Dict.
  Context {K V : Type} `{EqDecision K}.

  (** [d.get(k)] *)
  Fixpoint dict_get (k : K) (d : dict K V) : option V :=
    match d with
    | [] => None
    | (k', v) :: d' => if decide (k = k') then Some v else dict_get k d'
    end.

  (** [k in d] *)
  Definition dict_mem (k : K) (d : dict K V) : bool :=
    match dict_get k d with Some _ => true | None => false end.

  (** [d[k] = v]: overwrite in place, or append at the end. *)
  Fixpoint dict_set (k : K) (v : V) (d : dict K V) : dict K V :=
    match d with
    | [] => [(k, v)]
    | (k', v') :: d' => if decide (k = k') then (k', v) :: d' else (k', v') :: dict_set k v d'
    end.

  (** [d[k]] with KeyError when absent. *)
  Definition dict_index (k : K) (d : dict K V) : res V :=
    match dict_get k d with Some v => Ok v | None => Err KeyError end.
End Dict.

(** [l[i]] with IndexError when out of range (no negative indices are used by the modelled code). *)
Definition list_index {A} (l : list A) (i : nat) : res A :=
  match l !! i with Some x => Ok x | None => Err IndexError end.
