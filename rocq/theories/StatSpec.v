(** Batch statistics of a list of numbers, and histories of the running statistics. *)
From Verif Require Export StatModel.
Local Open Scope Qc_scope.

Definition addup (l : list Qc) : Qc := foldr Qcplus 0 l.
Definition squares (l : list Qc) : Qc := addup (map (fun x => x * x) l).
Definition average (l : list Qc) : Qc := addup l / zq (Z.of_nat (length l)).
(** The mean squared deviation. *)
Definition spread (l : list Qc) : Qc := average (map (fun x => (x - average l) * (x - average l)) l).
Definition largest (l : list Qc) (m : Qc) : Prop := m ∈ l /\ forall x, x ∈ l -> x <= m.
Definition smallest (l : list Qc) (m : Qc) : Prop := m ∈ l /\ forall x, x ∈ l -> m <= x.

(** A history: new object, add_value, merge with the object of another history. *)
Inductive history : Type := HNew | HAdd (p : history) (v : Qc) | HMerge (p q : history).
(** The values seen, abnormal ones left out; the number of additions and merges. *)
Fixpoint seen (abnormal : list Qc) (p : history) : list Qc :=
  match p with
  | HNew => []
  | HAdd p v => if decide (v ∈ abnormal) then seen abnormal p else seen abnormal p ++ [v]
  | HMerge p q => seen abnormal p ++ seen abnormal q
  end.
Fixpoint ops (p : history) : nat := match p with HNew => 0 | HAdd p _ => S (ops p) | HMerge p q => S (ops p + ops q) end.
Fixpoint play (rnd : Qc -> Qc) (abnormal : list Qc) (p : history) : res sstat :=
  match p with
  | HNew => Ok (ss_new abnormal)
  | HAdd p v => s ← play rnd abnormal p; add_value rnd s v
  | HMerge p q => s ← play rnd abnormal p; o ← play rnd abnormal q; Ok (ss_merge rnd s o)
  end.
(** Values whose square is a float. *)
Definition squarable (v : Qc) : Prop := v * v < zq float_limit.
