(** What a host can compute from the encrypted gradients it is sent. Nothing here is in the repository: these are the
    computations of a host that keeps what it receives. Only public data is used: the modulus, the ciphertexts and their
    exponents, which are attributes of the objects the host is sent. *)
From Verif Require Export ModeModel TableRel ProcModel TreeModel.
From Verif Require Import PaillierModel FixedPointModel.
Local Open Scope Z_scope.

(** From two ciphertexts of the same row: align the first, divide, take off the 1, read the rest as a signed fraction. *)
Definition read_diff (c c' : enum) : res Qc :=
  let n := en_pk c in
  d ← invert (powmod (en_ct c) (16 ^ (en_exp c' - en_exp c)) (n * n)) (n * n);
  let m := ((en_ct c' * d) mod (n * n) - 1) / n in
  Ok (zq (if n <? 2 * m then m - n else m) * p2 (- (4 * en_exp c')))%Qc.

(** The tables of encrypted gradients among the messages a host has received, in order. *)
Definition tables {K E} (log : list (msg K cell E)) : list (dtable K (cell * cell)) :=
  omap (fun m => match m with MGH t => Some t | _ => None end) log.

Section Guess.
  Context {K : Type} `{EqDecision K}.
  (** Did the gradient of a row go down from one table to the next? *)
  Definition went_down (k : K) (t t' : dtable K (cell * cell)) : bool :=
    match tget t k, tget t' k with
    | Some (CEnc a, _), Some (CEnc b, _) => match read_diff a b with Ok w => qltb w (- p2 (-20)) | Err _ => false end
    | _, _ => false
    end.
  (** The first table, counting from [c], that is lower than the one before; 0 if there is none. *)
  Fixpoint first_down (k : K) (c : nat) (t : dtable K (cell * cell)) (l : list (dtable K (cell * cell))) : nat :=
    match l with [] => 0%nat | t' :: l' => if went_down k t t' then c else first_down k (S c) t' l' end.
  (** The label of a row according to a host: the first round has one tree for each of the [dim] classes. *)
  Definition guess {E} (dim : nat) (log : list (msg K cell E)) (k : K) : nat :=
    match take dim (tables log) with t :: l => first_down k 1 t l | [] => 0%nat end.
End Guess.

(** A party that also writes down what it receives. *)
Fixpoint diary {M S} (p : proc unit M S) (log : list M) : proc unit M (S * list M) :=
  match p with
  | Ret r => Ret (r, log)
  | Fail e => Fail e
  | Send i m q => Send i m (diary q log)
  | Recv i q => Recv i (fun m => diary (q m) (log ++ [m]))
  end.
Definition with_diaries {M R S} (s : sys M R S) : sys M R (S * list M) :=
  Sys (s_guest s) (map (fun h => (diary h.1.1 [], h.1.2, h.2)) (s_hosts s)).

(** The calculator called for one table after the other, from call number [num] on. *)
Fixpoint calls {X A B : Type} (calc : nat -> X -> A -> res (X * B)) (num : nat) (x : X) (l : list A) : res (list B) :=
  match l with
  | [] => Ok []
  | a :: l' => r ← calc num x a; bs ← calls calc (S num) r.1 l'; Ok (r.2 :: bs)
  end.
