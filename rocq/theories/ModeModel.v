(** The encryption calculator of ml/secureprotol/encrypt_mode.py inside boosting: one object for all trees of a fit
    (ml/tree/hetero_secureboosting_tree_guest.py:98-106, 252, 268). *)
From Verif Require Export BoostModel EncryptModePaillier.
From Verif Require Import PaillierModel FixedPointModel.
Local Open Scope nat_scope.

Section Calc.
  Context {K : Type} `{EqDecision K}.
  (** A row of grad_and_hess is the tuple (g, h) (hetero_secureboosting_tree_guest.py:211-215), an Iterable, so the calculator
      encrypts it number by number (encrypt_mode.py:47-53). *)
  Definition gh_row (c : Qc * Qc) : row Qc := RSeq [c.1; c.2].
  (** The hosts take an encrypted row apart again, grad and hess (ml/tree/feateur_histogram.py:101). *)
  Definition gh_cells (r : row enum) : res (cell * cell) :=
    match r with RSeq [g; h] => Ok (CEnc g, CEnc h) | _ => Err ValueError end.

  (** ml/tree/hetero_decision_tree_guest.py:409-412 encrypt_grad_and_hess, the call of the calculator for tree number
      [num] with previous tables [st]. [fresh] are the random numbers of encryption, [u num] is the number drawn by
      gen_random_number, [rate] is re_encrypted_rate. *)
  Definition gh_calc (n : Z) (fresh : nat -> K -> nat -> Z) (mode : em_mode) (rate : Qc) (u : nat -> Qc) (num : nat)
      (st : @em_state K Qc enum) (gs : dtable K (Qc * Qc)) : res (@em_state K Qc enum * dtable K (cell * cell)) :=
    t ← dt_mapValues (fun c => Ok (gh_row c)) gs;
    r ← em_encrypt (pe_enc_float n fresh) float_sub pe_add_float mode rate num (u num) st t;
    out ← dt_mapValues gh_cells r.2;
    Ok (r.1, out).
End Calc.
