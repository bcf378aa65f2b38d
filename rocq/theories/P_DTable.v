(** Property theorems C01-C04: tables. *)
From Verif Require Import PyBase DTableModel DTableSpec DTableProofs.

(** C01 *)
Theorem C01_construct_keyed :
  forall (K V : Type) (HK : EqDecision K) (rows : list (K * V)),
    (NoDup rows.*1 -> exists t, dt_new_keyed rows = Ok t /\ dt_collect t = rows /\ dt_count t = length rows)
    /\ (¬ NoDup rows.*1 -> dt_new_keyed rows = Err ValueError).
Proof. exact (fun K V HK => new_keyed_iff). Qed.
Print Assumptions C01_construct_keyed.

Theorem C01_construct_unkeyed :
  forall (V : Type) (vs : list V),
    dt_collect (dt_new_unkeyed vs) = zip (seq 0 (length vs)) vs
    /\ dt_count (dt_new_unkeyed vs) = length vs.
Proof. exact (fun V => new_unkeyed_full). Qed.
Print Assumptions C01_construct_unkeyed.

Example C01_ex_ok : NoDup ([(3, 7); (1, 8); (2, 7)] : list (nat * nat)).*1
  /\ dt_new_keyed ([(3, 7); (1, 8); (2, 7)] : list (nat * nat)) = Ok (DT [(3, 7); (1, 8); (2, 7)]).
Proof. split; [|reflexivity]. apply (bool_decide_eq_true_1 _). reflexivity. Qed.
Example C01_ex_dup : dt_new_keyed ([(3, 7); (1, 8); (3, 9)] : list (nat * nat)) = Err ValueError.
Proof. reflexivity. Qed.

(** C02 *)
Theorem C02_history_refines_finite_maps :
  forall (K V : Type) (HK : EqDecision K) (ops : list (op K V)) (t : dtable K V) (m : K -> option V),
    constructed t -> Forall operand_ok ops -> agrees t m ->
    exists t', foldM run_op t ops = Ok t' /\ NoDup (dt_keys t') /\ agrees t' (fold_left fm_op ops m).
Proof. exact (fun K V HK => run_ops_constructed). Qed.
Print Assumptions C02_history_refines_finite_maps.

Theorem C02_mapPartitions_total :
  forall (K V W : Type) (f : list (K * V) -> list W) (t : dtable K V),
    exists t', dt_mapPartitions (fun rows => Ok (PList (f rows))) t = Ok t'
    /\ dt_collect t' = zip (seq 0 (length (f (dt_collect t)))) (f (dt_collect t))
    /\ NoDup (dt_keys t').
Proof. exact (fun K V W => mapPartitions_full). Qed.
Print Assumptions C02_mapPartitions_total.
(** A function that returns no list makes mapPartitions raise; errors of the function pass through. *)
Theorem C02_mapPartitions_raises :
  forall (K V W : Type) (f : list (K * V) -> res (pydata W)) (t : dtable K V) (e : exn),
    dt_mapPartitions f t = Err e <-> f (dt_collect t) = Err e \/ (f (dt_collect t) = Ok PNotList /\ e = TypeError).
Proof.
  intros K V W f t e. unfold dt_mapPartitions, dt_collect. destruct (f (dt_data t)) as [[l|]|e']; split.
  - discriminate.
  - intros [X|[X _]]; discriminate.
  - intros [= <-]. auto.
  - intros [X|[_ ->]]; [discriminate|reflexivity].
  - intros [= ->]. auto.
  - intros [[= ->]|[X _]]; [reflexivity|discriminate].
Qed.
Print Assumptions C02_mapPartitions_raises.
Example C02_ex_raises : dt_mapPartitions (W := nat) (fun rows => Ok (if length rows =? 3 then PNotList else PList [1])) (DT [(5, 1); (2, 4); (9, 4)]) = Err TypeError.
Proof. reflexivity. Qed.

Example C02_ex_t : dtable nat nat := DT [(5, 1); (2, 4); (9, 4)].
Example C02_ex_u : dtable nat nat := DT [(9, 10); (7, 20); (5, 30)].
Example C02_ex_constructed : constructed C02_ex_t /\ constructed C02_ex_u.
Proof. split; eexists; [exact (eq_refl : dt_new_keyed [(5, 1); (2, 4); (9, 4)] = Ok C02_ex_t)
                       |exact (eq_refl : dt_new_keyed [(9, 10); (7, 20); (5, 30)] = Ok C02_ex_u)]. Qed.
Example C02_ex_run :
  foldM run_op C02_ex_t
    [OJoin C02_ex_u (fun _ => None) Nat.add; OUnion C02_ex_u (fun _ => None) Nat.mul; OFilter (fun k _ => Nat.ltb k 9)]
  = Ok (DT [(5, 930); (7, 20)]).
Proof. vm_compute. reflexivity. Qed.

(** C03 *)
Theorem C03_join :
  forall (K V W X : Type) (HK : EqDecision K) (f : V -> W -> X) (a : dtable K V) (b : dtable K W),
    constructed a -> constructed b ->
    exists t, dt_join (fun v w => Ok (f v w)) a b = Ok t
    /\ dt_keys t = List.filter (fun k => bool_decide (k ∈ dt_keys a)) (dt_keys b)
    /\ (forall k x, (k, x) ∈ dt_collect t <->
          exists v w, (k, v) ∈ dt_collect a /\ (k, w) ∈ dt_collect b /\ x = f v w).
Proof. exact (fun K V W X HK => join_full). Qed.
Print Assumptions C03_join.

Theorem C03_union :
  forall (K V : Type) (HK : EqDecision K) (f : V -> V -> V) (a b : dtable K V),
    constructed a -> constructed b ->
    exists t, dt_union f a b = Ok t
    /\ dt_keys t = dt_keys a ++ List.filter (fun k => bool_decide (k ∉ dt_keys a)) (dt_keys b)
    /\ (forall k x, (k, x) ∈ dt_collect t <->
          (exists u v, (k, u) ∈ dt_collect a /\ (k, v) ∈ dt_collect b /\ x = f u v)
          \/ ((k, x) ∈ dt_collect a /\ k ∉ dt_keys b)
          \/ (k ∉ dt_keys a /\ (k, x) ∈ dt_collect b)).
Proof. exact (fun K V HK => union_full). Qed.
Print Assumptions C03_union.

Theorem C03_subtractByKey :
  forall (K V W : Type) (HK : EqDecision K) (a : dtable K V) (b : dtable K W),
    constructed a ->
    exists t, dt_subtractByKey a b = Ok t
    /\ dt_collect t = List.filter (fun kv => bool_decide (kv.1 ∉ dt_keys b)) (dt_collect a).
Proof. exact (fun K V W HK => subtract_full). Qed.
Print Assumptions C03_subtractByKey.

Theorem C03_filter :
  forall (K V : Type) (HK : EqDecision K) (p : K -> V -> bool) (a : dtable K V),
    constructed a ->
    exists t, dt_filter p a = Ok t
    /\ dt_collect t = List.filter (fun kv => p kv.1 kv.2) (dt_collect a).
Proof. exact (fun K V HK => filter_full). Qed.
Print Assumptions C03_filter.

Theorem C03_map :
  forall (K V W : Type) (HK : EqDecision K) (f : K -> V -> W) (a : dtable K V),
    constructed a ->
    exists t, dt_map (fun k v => Ok (f k v)) a = Ok t
    /\ dt_collect t = map (fun kv => (kv.1, f kv.1 kv.2)) (dt_collect a).
Proof. exact (fun K V W HK => map_full). Qed.
Print Assumptions C03_map.

Theorem C03_mapValues :
  forall (K V W : Type) (HK : EqDecision K) (f : V -> W) (a : dtable K V),
    constructed a ->
    exists t, dt_mapValues (fun v => Ok (f v)) a = Ok t
    /\ dt_collect t = map (fun kv => (kv.1, f kv.2)) (dt_collect a).
Proof. exact (fun K V W HK => mapValues_full). Qed.
Print Assumptions C03_mapValues.

Example C03_ex_join : dt_join (fun v w => Ok (v, w)) C02_ex_t C02_ex_u = Ok (DT [(9, (4, 10)); (5, (1, 30))]).
Proof. reflexivity. Qed.

(** C04 *)
Theorem C04_reduce_folds :
  forall (K V : Type) (g : V -> V -> V) (f : option V -> option V -> option V) (l : list (K * V)),
    (forall a b, f (Some a) (Some b) = Some (g a b)) ->
    dt_reduce f (DT (map (fun kv => (kv.1, Some kv.2)) l)) = fold1 g (map snd l).
Proof. exact (fun K V => reduce_some). Qed.
Print Assumptions C04_reduce_folds.

Theorem C04_reduce_restarts_after_None :
  forall (K V : Type) (f : option V -> option V -> option V) (l1 l2 : list (K * option V)),
    dt_reduce f (DT l1) = None -> dt_reduce f (DT (l1 ++ l2)) = dt_reduce f (DT l2).
Proof. exact (fun K V => reduce_restart). Qed.
Print Assumptions C04_reduce_restarts_after_None.

Theorem C04_mapReducePartitions :
  forall (K K1 V1 V : Type) (HK : EqDecision K)
         (mapper : list (K1 * V1) -> list (K * V)) (r : V -> V -> V) (t : dtable K1 V1),
    exists t', dt_mapReducePartitions mapper r t = Ok t'
    /\ dt_keys t' = first_occ (mapper (dt_collect t)).*1
    /\ (forall k w, (k, w) ∈ dt_collect t' <-> fold1 r (vals_of k (mapper (dt_collect t))) = Some w).
Proof. exact (fun K K1 V1 V HK => mrp_full). Qed.
Print Assumptions C04_mapReducePartitions.

Theorem C04_take_first :
  forall (K V : Type) (n : nat) (t : dtable K V),
    dt_take n t = take n (dt_collect t) /\ dt_first t = head (dt_collect t).*2.
Proof. exact (fun K V => take_first_full). Qed.
Print Assumptions C04_take_first.

Example C04_ex_reduce : (* a leading None is skipped, and a None result restarts the fold *)
  dt_reduce (fun a b => match a, b with Some x, Some y => if Nat.eqb y 0 then None else Some (x + y) | _, _ => None end)
    (DT [(0, None); (1, Some 3); (2, Some 4); (3, Some 0); (4, Some 9)]) = Some 9.
Proof. reflexivity. Qed.
Example C04_ex_mrp :
  dt_mapReducePartitions (fun l => l) Nat.sub (DT [(4, 10); (2, 5); (4, 1); (4, 2)]) = Ok (DT [(4, 7); (2, 5)]).
Proof. reflexivity. Qed.
