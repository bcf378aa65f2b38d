(** Model of ml/utils/fate_operator.py and of the convergence functions of ml/optim/convergence.py. Numbers are finite floats (exact
    rationals); [rnd] rounds the result of a float operation. *)
From Verif Require Export BoostModel.
Local Open Scope nat_scope.

Section Operator.
  Context (rnd : Qc -> Qc).

  (** fate_operator.py:25-31 _one_dimension_dot; the literal 1e-5 is the double next to it. *)
  Definition TINY : Qc := fround (Q2Qc (1 # 100000)).
  Fixpoint one_dot (i : nat) (acc : Qc) (X w : list Qc) : res Qc :=
    match X with
    | [] => Ok acc
    | x :: X' => if qltb (qabs x) TINY then one_dot (S i) acc X' w
                 else y ← list_index w i; one_dot (S i) (rnd (acc + rnd (y * x)))%Qc X' w
    end.
  (** fate_operator.py:34-52 dot of a 1-d [w] with a 1-d array (also the features of an Instance) or a 2-d array; the other shapes go
      to np.dot and are left out. *)
  Definition dot (X : list Qc + list (list Qc)) (w : list Qc) : res (Qc + list Qc) :=
    match X with
    | inl x => r ← one_dot 0 (zq 0) x w; Ok (inl r)
    | inr rows => r ← mapR (fun x => one_dot 0 (zq 0) x w) rows; Ok (inr r)
    end.

  (** fate_operator.py:55-70 reduce_add; the values are None, a number or a list. A number and a list do not add, a number has no
      items. *)
  Inductive summand : Type := Nothing | Number (q : Qc) | Vector (l : list Qc).
  Definition reduce_add (x y : summand) : res summand :=
    match x, y with
    | Nothing, _ => Ok y
    | _, Nothing => Ok x
    | Number a, Number b => Ok (Number (rnd (a + b)%Qc))
    | Number _, Vector _ => Err TypeError
    | Vector l, Number _ => match l with [] => Ok (Vector []) | _ :: _ => Err TypeError end
    | Vector l, Vector m => r ← mapR (fun ia => b ← list_index m ia.1; Ok (rnd (ia.2 + b)%Qc)) (imap (fun i a => (i, a)) l); Ok (Vector r)
    end.

  (** fate_operator.py:73-89 norm; [npnorm] is np.linalg.norm of a 1-d array. *)
  Context (npnorm : list Qc -> Z -> Qc).
  Definition norm (v : list Qc) (p : Z) : res Qc := if (p <? 1)%Z then Err ValueError else Ok (npnorm v p).

  (** Subtraction of 1-d numpy arrays, with broadcasting of an array of one element. *)
  Definition np_sub (a b : list Qc) : res (list Qc) :=
    if length a =? length b then Ok (zip_with (fun x y => rnd (x - y)%Qc) a b)
    else match a, b with
         | [x], _ => Ok (map (fun y => rnd (x - y)%Qc) b)
         | _, [y] => Ok (map (fun x => rnd (x - y)%Qc) a)
         | _, _ => Err ValueError
         end.
  (** convergence.py:75-84 WeightDiffConverge.is_converge. Arrays are objects: [h] holds their contents at the time of the call,
      pre_weight and the argument are references. Afterwards pre_weight is the argument. *)
  Definition weight_converge (eps : Qc) (h : list (list Qc)) (pre : option nat) (w : nat) : res bool :=
    match pre with
    | None => Ok false
    | Some p =>
        a ← list_index h p; b ← list_index h w;
        d ← np_sub a b;
        diff ← norm d 2;
        size ← norm b 2;
        Ok (qltb diff (rnd (eps * (if qltb size (zq 1) then zq 1 else size)))%Qc)
    end.
  (** A sequence of calls on one object; the contents of the arrays may change between the calls. *)
  Fixpoint weight_calls (eps : Qc) (pre : option nat) (calls : list (list (list Qc) * nat)) : res (list bool) :=
    match calls with
    | [] => Ok []
    | (h, w) :: calls' => c ← weight_converge eps h pre w; r ← weight_calls eps (Some w) calls'; Ok (c :: r)
    end.
  (** The same for DiffConverge (convergence.py:42-49, [is_converge] of BoostModel). *)
  Fixpoint diff_calls (eps : Qc) (pre : option Qc) (losses : list Qc) : list bool :=
    match losses with [] => [] | l :: r => is_converge rnd eps pre l :: diff_calls eps (Some l) r end.
End Operator.
