(** Arrays of results. *)
From Verif Require Export ArrayModel.
Local Open Scope nat_scope.

(** The shape of the result: one more dimension for a vector, nothing after the first 0. *)
Fixpoint cut_shape (s : list nat) : list nat := match s with [] => [] | 0 :: _ => [0] | n :: s' => n :: cut_shape s' end.
Definition out_shape (s : list nat) : list nat := match s with [n] => [1; n] | _ => cut_shape s end.
Definition well_formed {V} (a : arr V) : Prop := a.1 <> [] /\ length a.2 = prod_shape a.1.
