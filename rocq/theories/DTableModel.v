(** Model of computing/d_table.py (class DTable). *)
From Verif Require Import PyBase.

(** computing/d_table.py:19,31 — the private attribute [__data], a dict. The attribute [schema]
    (computing/_computing.py) is a plain attribute carried by callers and is not part of the table. *)
Record dtable (K V : Type) : Type := DT { dt_data : dict K V }.
Arguments DT {K V} _.
Arguments dt_data {K V} _.

(** What a Python function handed to [mapPartitions] may return: a list, or some other object.
    computing/d_table.py:15 tests [isinstance(data, typing.List)]. *)
Inductive pydata (V : Type) : Type := PList (l : list V) | PNotList.
Arguments PList {V} l.
Arguments PNotList {V}.

Section DTable.
  Context {K V : Type} `{EqDecision K}.

  (** computing/d_table.py:18-29 — [DTable(True, data)]: insert the pairs one by one, ValueError on
      a key already present. The check that every item is a 2-tuple (line 23) is discharged by typing. *)
  Definition dt_new_keyed (rows : list (K * V)) : res (dtable K V) :=
    match foldM (fun d kv => if dict_mem kv.1 d then Err ValueError else Ok (dict_set kv.1 kv.2 d)) [] rows with
    | Ok d => Ok (DT d)
    | Err e => Err e
    end.

  (** computing/d_table.py:41-42 — [collect()]; also [get_kvs] 132-133. *)
  Definition dt_collect (t : dtable K V) : list (K * V) := dt_data t.

  (** computing/d_table.py:129-130 — [get_keys()] *)
  Definition dt_keys (t : dtable K V) : list K := map fst (dt_data t).

  (** computing/d_table.py:135-136 — [get_values()] *)
  Definition dt_values (t : dtable K V) : list V := map snd (dt_data t).

  (** computing/d_table.py:44-51 — [take(n)]: rows are appended until the running index reaches n. *)
  Definition dt_take (n : nat) (t : dtable K V) : list (K * V) :=
    (fix go (i : nat) (l : dict K V) :=
       match l with
       | [] => []
       | kv :: l' => if decide (n <= i) then [] else kv :: go (S i) l'
       end) 0 (dt_data t).

  (** computing/d_table.py:54-59 — [first()]: the VALUE of the first row, None when empty. *)
  Definition dt_first (t : dtable K V) : option V :=
    match dt_data t with [] => None | kv :: _ => Some kv.2 end.

  (** computing/d_table.py:61-62 *)
  Definition dt_count (t : dtable K V) : nat := length (dt_data t).

  (** computing/d_table.py:99-104 — [filter(func)]; [func] returns a bool. *)
  Definition dt_filter (f : K -> V -> bool) (t : dtable K V) : res (dtable K V) :=
    let new_table :=
      fold_left (fun acc kv => if f kv.1 kv.2 then acc ++ [kv] else acc) (dt_data t) [] in
    dt_new_keyed new_table.

  (** computing/d_table.py:122-127 *)
  Definition dt_subtractByKey {W} (t : dtable K V) (other : dtable K W) : res (dtable K V) :=
    let new_table :=
      fold_left (fun acc kv => if dict_mem kv.1 (dt_data other) then acc else acc ++ [kv]) (dt_data t) [] in
    dt_new_keyed new_table.

  (** computing/d_table.py:113-120 — [union(other, func)]; default func keeps the first value.
      The deepcopy of line 114 only matters for aliasing. *)
  Definition dt_union (f : V -> V -> V) (t other : dtable K V) : res (dtable K V) :=
    let new_dict :=
      fold_left (fun d kv => match dict_get kv.1 d with
                             | Some v0 => dict_set kv.1 (f v0 kv.2) d
                             | None => dict_set kv.1 kv.2 d
                             end) (dt_data other) (dt_data t) in
    dt_new_keyed new_dict.

  (** computing/d_table.py:90-97 — [reduce(func)]. [ret_val is None] is the test of line 93: the
      accumulator starts as None and None VALUES are indistinguishable from "no value yet", so values
      and results are [option V] with [None] the Python None. *)
  Definition dt_reduce (f : option V -> option V -> option V) (t : dtable K (option V)) : option V :=
    fold_left (fun acc v => match acc with None => v | Some _ => f acc v end) (map snd (dt_data t)) None.
End DTable.

Section DTable2.
  Context {K V W : Type} `{EqDecision K}.

  (** computing/d_table.py:64-68 — [map(func)]: keeps the key, value [func(k, v)]; [func] may raise. *)
  Definition dt_map (f : K -> V -> res W) (t : dtable K V) : res (dtable K W) :=
    match mapR (fun kv => match f kv.1 kv.2 with Ok w => Ok (kv.1, w) | Err e => Err e end) (dt_data t) with
    | Ok new_table => dt_new_keyed new_table
    | Err e => Err e
    end.

  (** computing/d_table.py:70-74 *)
  Definition dt_mapValues (f : V -> res W) (t : dtable K V) : res (dtable K W) :=
    match mapR (fun kv => match f kv.2 with Ok w => Ok (kv.1, w) | Err e => Err e end) (dt_data t) with
    | Ok new_table => dt_new_keyed new_table
    | Err e => Err e
    end.
End DTable2.

(** computing/d_table.py:30-33 — [DTable(False, data)]: keys 0, 1, 2, ... via enumerate. *)
Definition dt_new_unkeyed {V} (vs : list V) : dtable nat V :=
  DT (fst (fold_left (fun st v => (dict_set (snd st) v (fst st), S (snd st))) vs ([], 0))).

(** computing/d_table.py:76-78 — [mapPartitions(func)]: the whole table is one partition; the result
    is re-keyed 0,1,2,...; a non-list result makes the constructor raise TypeError (lines 15-16). *)
Definition dt_mapPartitions {K V W} (f : list (K * V) -> res (pydata W)) (t : dtable K V)
  : res (dtable nat W) :=
  match f (dt_data t) with
  | Ok (PList l) => Ok (dt_new_unkeyed l)
  | Ok PNotList => Err TypeError
  | Err e => Err e
  end.

(** computing/d_table.py:80-88 *)
Definition dt_mapReducePartitions {K V K2 W} `{EqDecision K2}
  (mapper : list (K * V) -> list (K2 * W)) (reducer : W -> W -> W) (t : dtable K V)
  : res (dtable K2 W) :=
  let new_dict :=
    fold_left (fun d kv => match dict_get kv.1 d with
                           | None => dict_set kv.1 kv.2 d
                           | Some w0 => dict_set kv.1 (reducer w0 kv.2) d
                           end) (mapper (dt_data t)) [] in
  dt_new_keyed new_dict.

(** computing/d_table.py:106-111 — [join(other, func)]: iterates over OTHER, keeps the keys present in
    self; [func(self value, other value)] may raise; default keeps the self value. *)
Definition dt_join {K V W X} `{EqDecision K} (f : V -> W -> res X) (t : dtable K V) (other : dtable K W)
  : res (dtable K X) :=
  let new_table :=
    foldM (fun acc kv => match dict_get kv.1 (dt_data t) with
                         | Some v => match f v kv.2 with Ok x => Ok (acc ++ [(kv.1, x)]) | Err e => Err e end
                         | None => Ok acc
                         end) [] (dt_data other) in
  match new_table with Ok l => dt_new_keyed l | Err e => Err e end.
