(** What boosting should give: scores add up the leaf weights, and every tree is learnt from the gradients at the scores so far. *)
From Verif Require Export TreeSpec PredictSpec BoostModel.
Local Open Scope nat_scope.

(** The score of a row that meets the leaf weights [ws] in this order: start at 0 and add [lr] times each. *)
Definition add_up (rnd : Qc -> Qc) (lr : Qc) (ws : list Qc) : Qc := fold_left (fun f w => rnd (f + rnd (lr * w)))%Qc ws (zq 0).

Section Scores.
  Context {K : Type} (rnd : Qc -> Qc) (lr : Qc) (dim : nat).
  (** [W j k] is the weight that tree [j] gives to row [k]. In every round class 0, 1, ... gets one tree. *)
  Definition score (W : nat -> K -> Qc) (r c : nat) (k : K) : Qc := add_up rnd lr (map (fun r' => W (r' * dim + c) k) (seq 0 r)).
  Definition scores (W : nat -> K -> Qc) (r : nat) (k : K) : list Qc := map (fun c => score W r c k) (seq 0 dim).
End Scores.

(** The derivatives of the loss of a row with label [y] and predicted probabilities [p] by the score of class [c]. *)
Definition gradient (rnd : Qc -> Qc) (kind : loss_kind) (y : nat) (p : list Qc) (c : nat) : Qc :=
  match kind with
  | Sigmoid => rnd (nth c p (zq 0) - zq (Z.of_nat y))%Qc
  | Softmax => if decide (c = y) then rnd (nth c p (zq 0) - zq 1)%Qc else nth c p (zq 0)
  end.
Definition hessian (rnd : Qc -> Qc) (p : list Qc) (c : nat) : Qc := rnd (nth c p (zq 0) * rnd (zq 1 - nth c p (zq 0)))%Qc.

(** A party that uses the features [v] only. *)
Definition with_valid {K} (p : party K) (v : list bool) : party K := Party (p_bin p) (p_nb p) v (p_min_sample p) (p_min_leaf p).

(** The boosting loop for one party that has all features: which trees it learns. *)
Section Central.
  Context {K : Type} (U : list K) (guest : party K) (hosts : list (party K)) (lab : K -> nat) (kind : loss_kind) (dim : nat).
  Context (rnd : Qc -> Qc) (lr : Qc) (pred : loss_kind -> list Qc -> list Qc).
  (** How tree [j] is learnt from gradients. *)
  Context (grown : nat -> (K -> Qc) -> (K -> Qc) -> dtree -> Prop).

  Definition wt (T : list dtree) (j : nat) (k : K) : Qc := match T !! j with Some t => route guest hosts t k | None => zq 0 end.
  Definition boosted (T : list dtree) : Prop := forall r c t, c < dim -> T !! (r * dim + c) = Some t ->
    exists vg vh, grown (r * dim + c) vg vh t /\ forall k, k ∈ U ->
      vg k = gradient rnd kind (lab k) (pred kind (scores rnd lr dim (wt T) r k)) c /\ vh k = hessian rnd (pred kind (scores rnd lr dim (wt T) r k)) c.
End Central.

(** When training stops, given the losses of the rounds: after the first round (but the very first) whose loss differs from the
    one before by less than [tol], or after [rounds] rounds. *)
Definition close (rnd : Qc -> Qc) (tol : Qc) (hist : list Qc) (r : nat) : Prop :=
  exists a b, hist !! r = Some a /\ hist !! S r = Some b /\ (qabs (rnd (a - b)) < tol)%Qc.
Definition stops (rnd : Qc -> Qc) (early : bool) (tol : Qc) (rounds : nat) (hist : list Qc) : Prop :=
  length hist <= rounds /\
  if early then (forall r, S (S r) < length hist -> ~ close rnd tol hist r) /\ (length hist < rounds -> exists r, length hist = S (S r) /\ close rnd tol hist r)
  else length hist = rounds.

(** Rounding keeps signs and the interval [-1, 1]. *)
Definition rnd_ok (rnd : Qc -> Qc) : Prop := (forall x, (0 <= x)%Qc -> (0 <= rnd x)%Qc) /\ (forall x, (qabs x <= 1)%Qc -> (qabs (rnd x) <= 1)%Qc).

(** The number of splits, and the sum of the gains, of the nodes of a tree that party [own] splits on feature [f]. *)
Fixpoint splits_on (own : option nat) (f : nat) (t : dtree) : list Qc :=
  match t with
  | TLeaf _ _ _ => []
  | TSplit _ _ _ c g l r => (if decide (ch_own c = own /\ ch_fid c = f) then [g] else []) ++ splits_on own f l ++ splits_on own f r
  end.
