(** Specification vocabulary for tables: finite maps as functions, written without using the model's
    dictionary helpers. *)
From Verif Require Import PyBase DTableModel.

(** Keys pairwise distinct. *)
Definition dt_wf {K V} (t : dtable K V) : Prop := NoDup (dt_data t).*1.

(** A table that user code can hold: the result of a successful constructor call. *)
Definition constructed {K V} `{EqDecision K} (t : dtable K V) : Prop :=
  exists rows, dt_new_keyed rows = Ok t.

(** The rows of [t] are exactly the graph of the finite map [m]. *)
Definition agrees {K V} (t : dtable K V) (m : K -> option V) : Prop :=
  forall k v, (k, v) ∈ dt_collect t <-> m k = Some v.

(** One table operation with its arguments (key type preserved). *)
Inductive op (K V : Type) : Type :=
| OMap (f : K -> V -> V)
| OMapValues (f : V -> V)
| OFilter (p : K -> V -> bool)
| OJoin (o : dtable K V) (mo : K -> option V) (f : V -> V -> V)
| OUnion (o : dtable K V) (mo : K -> option V) (f : V -> V -> V)
| OSubtract (o : dtable K V) (mo : K -> option V).
Arguments OMap {K V}. Arguments OMapValues {K V}. Arguments OFilter {K V}.
Arguments OJoin {K V}. Arguments OUnion {K V}. Arguments OSubtract {K V}.

(** The operand tables are constructed tables whose contents are the given finite maps. *)
Definition operand_ok {K V} `{EqDecision K} (o : op K V) : Prop :=
  match o with
  | OJoin t m _ | OUnion t m _ | OSubtract t m => constructed t /\ agrees t m
  | _ => True
  end.

(** Running an operation on the implementation. *)
Definition run_op {K V} `{EqDecision K} (t : dtable K V) (o : op K V) : res (dtable K V) :=
  match o with
  | OMap f => dt_map (fun k v => Ok (f k v)) t
  | OMapValues f => dt_mapValues (fun v => Ok (f v)) t
  | OFilter p => dt_filter p t
  | OJoin o _ f => dt_join (fun a b => Ok (f a b)) t o
  | OUnion o _ f => dt_union f t o
  | OSubtract o _ => dt_subtractByKey t o
  end.

(** The same operation on finite maps. *)
Definition fm_op {K V} (m : K -> option V) (o : op K V) : K -> option V :=
  match o with
  | OMap f => fun k => match m k with Some v => Some (f k v) | None => None end
  | OMapValues f => fun k => match m k with Some v => Some (f v) | None => None end
  | OFilter p => fun k => match m k with Some v => if p k v then Some v else None | None => None end
  | OJoin _ mo f => fun k => match m k, mo k with Some a, Some b => Some (f a b) | _, _ => None end
  | OUnion _ mo f => fun k => match m k, mo k with
                              | Some a, Some b => Some (f a b)
                              | Some a, None => Some a
                              | None, ob => ob
                              end
  | OSubtract _ mo => fun k => match m k, mo k with Some a, None => Some a | _, _ => None end
  end.

Section MRPSpec.
  Context {K2 W : Type} `{EqDecision K2}.

  (** left fold of [r] over a non-empty list, [None] for the empty list *)
  Definition fold1 (r : W -> W -> W) (l : list W) : option W :=
    match l with [] => None | w :: l' => Some (fold_left r l' w) end.

  (** keys in order of first occurrence *)
  Fixpoint first_occ (l : list K2) : list K2 :=
    match l with [] => [] | k :: l' => k :: List.filter (fun k' => bool_decide (k' ≠ k)) (first_occ l') end.

  (** the values carried by key [k], in order *)
  Definition vals_of (k : K2) (l : list (K2 * W)) : list W :=
    map snd (List.filter (fun kv => bool_decide (kv.1 = k)) l).
End MRPSpec.
