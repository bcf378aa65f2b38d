(** Specification vocabulary for the transport: where messages start in a byte stream. *)
From Verif Require Import PyBase.
From Coq Require Import ZArith.

(** Stream positions at which the messages [ms], each preceded by a 16-byte header, begin. *)
Fixpoint starts (p : nat) (ms : list (list Z)) : list nat :=
  match ms with
  | [] => []
  | m :: ms' => p :: starts (p + 16 + length m) ms'
  end.

(** The first byte of a serialised message is not a space (pickle protocol 2+ starts with 0x80). *)
Definition starts_nonblank (m : list Z) : Prop := exists b m', m = b :: m' /\ b ≠ 32%Z.
