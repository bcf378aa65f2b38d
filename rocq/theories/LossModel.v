(** Model of ml/optim/activation.py, ml/loss/cross_entropy.py and ml/loss/regression_loss.py over the real numbers. Simplifications:
    numpy computes in doubles, so overflow, rounding and nan_to_num (which only replaces nan and infinities) are left out; arrays
    with one entry are taken as that entry. *)
From Verif Require Export PyBase DTableModel.
From Coq Require Export Reals Lra.
Local Open Scope R_scope.

(** ml/utils/consts.py:29 *)
Definition RFLOAT_ZERO : R := / 1000000.

Definition rsum (l : list R) : R := foldr Rplus 0 l.
(** np.max of a non-empty array; 0 stands for the ValueError of an empty one. *)
Fixpoint rmax (l : list R) : R := match l with [] => 0 | [x] => x | x :: l' => Rmax x (rmax l') end.

(** ** ml/optim/activation.py *)
(** 20-22; np.clip *)
Definition hard_sigmoid (x : R) : R := Rmin (Rmax (2 / 10 * x + 5 / 10) 0) 1.
(** 25-27, for a vector *)
Definition softmax (x : list R) : list R :=
  let y := map (fun v => exp (v - rmax x)) x in map (fun v => v / rsum y) y.
(** 30-36 *)
Definition sigmoid (x : R) : R := if Rle_dec x 0 then let a := exp x in a / (1 + a) else 1 / (1 + exp (- x)).
(** 39-40 *)
Definition softplus (x : R) : R := ln (1 + exp x).
(** 43-44 *)
Definition softsign (x : R) : R := x / (1 + Rabs x).
(** 51-56 *)
Definition log_logistic (x : R) : R := if Rle_dec x 0 then x - ln (1 + exp x) else - ln (1 + exp (- x)).

(** ** compute_loss of all losses: join the labels with the predictions, [row] of both and 1, add up, divide. The sum of an
    empty table is None, which cannot be unpacked. *)
Definition mean_loss {K A B} `{EqDecision K} (row : A -> B -> R) (y : dtable K A) (p : dtable K B) : res R :=
  t ← dt_join (fun a b => Ok (Some (row a b, 1))) y p;
  match dt_reduce (fun a b => match a, b with Some a, Some b => Some (a.1 + b.1, a.2 + b.2) | _, _ => None end) t with
  | Some s => Ok (s.1 / s.2)
  | None => Err TypeError
  end.

(** ** ml/loss/cross_entropy.py *)
(** 76: the loss of a row, from the probability *)
Definition ce_row (y p : R) : R := - (y * ln p + (1 - y) * ln (1 - p)).
(** 81-98 compute_grad, 100-117 compute_hess *)
Definition ce_grad (y p : R) : R := p - y.
Definition ce_hess (y p : R) : R := p * (1 - p).
(** 175: the loss of a row with label y, from the probabilities. *)
Definition sce_row (y : nat) (p : list R) : R := - ln (nth y p 0).
(** 180-198 and 200-217 *)
Definition sce_grad (y : nat) (p : list R) : list R := <[y := nth y p 0 - 1]> p.
Definition sce_hess (y : nat) (p : list R) : list R := map (fun x => x * (1 - x)) p.

(** ** ml/loss/regression_loss.py *)
(** 38, 43-44, 46-52 *)
Definition lse_row (y p : R) : R := (y - p) * (y - p).
Definition lse_grad (y p : R) : R := 2 * (p - y).
Definition lse_hess (y p : R) : R := 2.
(** 70, 75-90 (the branch for arrays: three masked assignments in turn); the hessian is 1. *)
Definition lae_row (y p : R) : R := Rabs (y - p).
Definition lae_grad_array (y p : R) : R :=
  let diff := p - y in
  let diff := if Rlt_dec RFLOAT_ZERO diff then 1 else diff in
  let diff := if Rlt_dec diff RFLOAT_ZERO then -1 else diff in
  if Rle_dec (Rabs diff) RFLOAT_ZERO then 0 else diff.
Definition lae_grad_scalar (y p : R) : R :=
  let diff := p - y in if Rlt_dec RFLOAT_ZERO diff then 1 else if Rlt_dec diff RFLOAT_ZERO then -1 else 0.
(** 110-117: __init__ of HuberLoss; None is left out. FairLoss 147-154 does the same with c (for None it raises NameError). *)
Definition at_least_zero (delta : R) : R := if Rlt_dec (Rabs delta) RFLOAT_ZERO then RFLOAT_ZERO else delta.
(** 120-121, 129-135 *)
Definition huber_row (delta y p : R) : R := delta ^ 2 * (sqrt (1 + ((p - y) / delta) ^ 2) - 1).
Definition huber_grad (delta y p : R) : R := let diff := p - y in diff / sqrt (1 + diff * diff / delta ^ 2).
Definition huber_hess (delta y p : R) : R := let diff := p - y in 1 / Rpower (1 + diff * diff / delta ^ 2) (15 / 10).
(** 161-162, 167-173 *)
Definition fair_row (c y p : R) : R := c * Rabs (p - y) - c ^ 2 * ln (Rabs (p - y) / c + 1).
Definition fair_grad (c y p : R) : R := let diff := p - y in c * diff / (Rabs diff + c).
Definition fair_hess (c y p : R) : R := let diff := p - y in c ^ 2 / (Rabs diff + c) ^ 2.
(** 191, 197-202 *)
Definition log_cosh_row (y p : R) : R := ln (cosh (p - y)).
Definition log_cosh_grad (y p : R) : R := tanh (p - y).
Definition log_cosh_hess (y p : R) : R := 1 - tanh (p - y) ^ 2.
(** 225-228, 233-237 *)
Definition tweedie_row (rho y p : R) : R :=
  - y * exp (1 - rho) * ln (Rmax p RFLOAT_ZERO) / (1 - rho) + exp (2 - rho) * ln (Rmax RFLOAT_ZERO p) / (2 - rho).
Definition tweedie_grad (rho y p : R) : R := - y * exp (1 - rho) * p + exp (2 - rho) * p.
Definition tweedie_hess (rho y p : R) : R := - y * (1 - rho) * exp (1 - rho) * p + (2 - rho) * exp (2 - rho) * p.
