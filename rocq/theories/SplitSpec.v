(** What a split search should return, stated without the loops. *)
From Verif Require Export SplitModel.
Local Open Scope nat_scope.

(** Scan order of (feature, bin). *)
Definition lex_lt (a b : nat * nat) : Prop := a.1 < b.1 \/ (a.1 = b.1 /\ a.2 < b.2).

(** [cand f b x]: splitting feature [f] after bin [b] is allowed and gains [x]. [best_of] says that [r] is the first among
    the largest gains above [m], or nothing if no gain exceeds [m]. *)
Definition best_of (cand : nat -> nat -> Qc -> Prop) (m : Qc) (r : option (nat * nat * Qc)) : Prop :=
  match r with
  | Some (f, b, x) => cand f b x /\ (m < x)%Qc /\
      forall f' b' x', cand f' b' x' -> (x' <= x)%Qc /\ (lex_lt (f', b') (f, b) -> (x' < x)%Qc)
  | None => forall f b x, cand f b x -> (x <= m)%Qc
  end.

(** Feature [f] is used: not masked, and it has bins. *)
Definition used {C} (valid : list bool) (h : list (list (trip C))) (f : nat) (tot : trip C) : Prop :=
  valid !! f = Some true /\ exists bins, h !! f = Some bins /\ last bins = Some tot.

(** Bin [b] of feature [f] is a candidate: the feature is used, no used feature up to it has fewer than min_sample rows, and
    both sides of the split keep at least min_leaf rows. *)
Definition candidate {C} (P : sparams) (valid : list bool) (h : list (list (trip C))) (f b : nat) (t tot : trip C) : Prop :=
  used valid h f tot /\ (exists bins, h !! f = Some bins /\ bins !! b = Some t) /\
  (forall f' tot', f' <= f -> used valid h f' tot' -> (min_sample P <= tc tot')%Z) /\
  (min_leaf P <= tc t)%Z /\ (min_leaf P <= tc tot - tc t)%Z.

(** The score -2 * min_w (g w + (h + lam) w^2 / 2). *)
Definition score (lam g h : Qc) : Qc := (g * g / (h + lam))%Qc.
Definition gain_of (lam g h gl hl : Qc) : Qc :=
  (score lam gl hl + score lam (g - gl) (h - hl) - score lam g h)%Qc.
(** None of the three denominators is zero. *)
Definition no_zero (lam h hl : Qc) : Prop :=
  (hl + lam)%Qc <> zq 0 /\ ((h - hl) + lam)%Qc <> zq 0 /\ (h + lam)%Qc <> zq 0.

(** First element with the largest score above [m]. *)
Fixpoint first_best {A} (m : Qc) (l : list (A * Qc)) : option (A * Qc) :=
  match l with
  | [] => None
  | (a, x) :: l' =>
      match first_best m l' with
      | Some (a', x') => if qltb x x' then Some (a', x') else if qltb m x then Some (a, x) else Some (a', x')
      | None => if qltb m x then Some (a, x) else None
      end
  end.
