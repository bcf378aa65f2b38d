(** What a history of calls to the encryption-mode calculator should return. *)
From Verif Require Export EncryptModeModel TableRel.
From Verif Require Import PyBase QcBase DTableModel DTableSpec.
Local Open Scope nat_scope.

Definition row_elems {A} (r : row A) : list A := match r with RSeq l => l | RVal a => [a] end.
(** Shape of a row: [Some n] for a sequence of length n, [None] for a single number. *)
Definition row_shape {A} (r : row A) : option nat := match r with RSeq l => Some (length l) | RVal _ => None end.

(** Same shape and elementwise related. *)
Definition row_rel {A B} (R : A -> B -> Prop) (r : row A) (r' : row B) : Prop :=
  row_shape r = row_shape r' /\ Forall2 R (row_elems r) (row_elems r').

Section spec.
  Context {K P C : Type} `{EqDecision K}.

  (** Is the whole input encrypted anew at a call that is not the first one? *)
  Definition em_full (mode : em_mode) (rate u : Qc) : Prop :=
    match mode with MStrict => True | MFast => False | MBalance => (u <= rate + FLOAT_ZERO)%Qc end.

  (** [em_expect mode rate prev hist l]: [l] lists, for each call of the history, the number of difference
      steps since the last full encryption and the keys present in the returned table. *)
  Inductive em_expect (mode : em_mode) (rate : Qc) :
      option (nat * (K -> Prop)) -> list (Qc * dtable K (row P)) -> list (nat * (K -> Prop)) -> Prop :=
  | expect_nil prev : em_expect mode rate prev [] []
  | expect_full prev u t hist l :
      (prev = None \/ em_full mode rate u) ->
      em_expect mode rate (Some (0, fun k => k ∈ dt_keys t)) hist l ->
      em_expect mode rate prev ((u, t) :: hist) ((0, fun k => k ∈ dt_keys t) :: l)
  | expect_diff s Q u t hist l :
      ~ em_full mode rate u ->
      em_expect mode rate (Some (S s, fun k => k ∈ dt_keys t /\ Q k)) hist l ->
      em_expect mode rate (Some (s, Q)) ((u, t) :: hist) ((S s, fun k => k ∈ dt_keys t /\ Q k) :: l).

  (** The tables of a history are real tables, the row of each key always has the same shape, and all numbers
      satisfy [valid]. *)
  Definition hist_ok (valid : P -> Prop) (sh : K -> option nat) (hist : list (Qc * dtable K (row P))) : Prop :=
    Forall (fun ut => constructed ut.2 /\
      forall k r, tget ut.2 k = Some r -> row_shape r = sh k /\ Forall valid (row_elems r)) hist.

  (** One returned table against its input: keys as expected, every row decrypts ([D]) to the input row. *)
  Definition out_ok (D : nat -> C -> P -> Prop) (t : dtable K (row P)) (e : nat * (K -> Prop))
      (out : dtable K (row C)) : Prop :=
    (forall k, k ∈ dt_keys out <-> e.2 k) /\
    forall k r, tget out k = Some r -> exists p, tget t k = Some p /\ row_rel (D e.1) r p.
End spec.
