(** What prediction with one tree should give: walking a tree whose nodes know their owner and threshold. *)
From Verif Require Export QcBase.
Local Open Scope nat_scope.

(** [own = None] is the guest, [Some i] host i. *)
Inductive ptree : Type := PL (w : Qc) | PN (own : option nat) (fid : nat) (thr : Qc) (l r : ptree).
Fixpoint pdepth (t : ptree) : nat := match t with PL _ => 0 | PN _ _ _ l r => S (Nat.max (pdepth l) (pdepth r)) end.

(** [x own f] is the value of feature [f] of the party [own] in the row. *)
Fixpoint pwalk (x : option nat -> nat -> Qc) (t : ptree) : Qc :=
  match t with PL w => w | PN own f thr l r => if qleb (x own f) thr then pwalk x l else pwalk x r end.
(** The row meets only nodes of the guest. *)
Fixpoint guest_only (x : option nat -> nat -> Qc) (t : ptree) : Prop :=
  match t with PL _ => True | PN None f thr l r => if qleb (x None f) thr then guest_only x l else guest_only x r | PN (Some _) _ _ _ _ => False end.
