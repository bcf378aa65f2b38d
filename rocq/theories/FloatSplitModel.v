(** The guest's own arithmetic in doubles: the sums of ml/tree/feateur_histogram.py and the gains of ml/tree/creterion.py and
    ml/tree/splitter.py with every addition, subtraction, multiplication and division rounded to the nearest double. Overflow and
    the loss of digits of numbers below 2^-1022 are left out, see [fround]. *)
From Verif Require Export SplitModel.
Local Open Scope nat_scope.

(** feateur_histogram.py:41-48 and 134-155: + and - on Python floats. The first += finds the int 0, and 0 + x = x. *)
Definition fops : numops Qc := NumOps (zq 0) (fun a b => Ok (fround (a + b)%Qc)) (fun a b => Ok (fround (a - b)%Qc)).

(** creterion.py:50-51 *)
Definition f_node_gain (lam g h : Qc) : res Qc :=
  let d := fround (h + lam)%Qc in
  if decide (d = zq 0) then Err ZeroDivisionError else Ok (fround (fround (g * g) / d)%Qc).

(** creterion.py:42-48 *)
Definition f_split_gain (lam g h gl hl gr hr : Qc) : res Qc :=
  a ← f_node_gain lam gl hl; b ← f_node_gain lam gr hr; c ← f_node_gain lam g h; Ok (fround (fround (a + b) - c)%Qc).

Section FSplit.
  Context (P : sparams).

  (** splitter.py:51-69: one bin of feature [fid] whose last bin is [tot]. *)
  Definition f_guest_bin (fid : nat) (tot : trip Qc) (b : best) (bt : nat * trip Qc) : res best :=
    let t := bt.2 in
    let gr := fround (tg tot - tg t)%Qc in
    let hr := fround (th tot - th t)%Qc in
    let cr := (tc tot - tc t)%Z in
    if (min_leaf P <=? tc t)%Z && (min_leaf P <=? cr)%Z then
      gain ← f_split_gain (reg_lambda P) (tg tot) (th tot) (tg t) (th t) gr hr;
      if qltb (min_impurity P) gain && qltb (b_gain b) gain
      then Ok (Best gain (Some (fid, bt.1, (tg t, th t)))) else Ok b
    else Ok b.

  (** splitter.py:38-69, as [guest_features]. *)
  Fixpoint f_guest_features (valid : list bool) (fid : nat) (feats : list (list (trip Qc))) (b : best) : res best :=
    match feats with
    | [] => Ok b
    | bins :: feats' =>
        v ← list_index valid fid;
        if negb v then f_guest_features valid (S fid) feats' b
        else match last bins with
             | None => f_guest_features valid (S fid) feats' b
             | Some tot =>
                 if (tc tot <? min_sample P)%Z then Ok b
                 else b' ← foldM (f_guest_bin fid tot) b (combine (seq 0 (length bins)) bins);
                      f_guest_features valid (S fid) feats' b'
             end
    end.

  (** splitter.py:32-74 find_split_single_histogram_guest *)
  Definition f_find_split_guest (valid : list bool) (h : list (list (trip Qc))) : res (splitinfo Qc Qc) :=
    b ← f_guest_features valid 0 h (Best (fround (min_impurity P - fround FLOAT_ZERO)%Qc) None);
    Ok (match b_at b with
        | Some (fid, bid, (g, w)) => SInfo GuestSite (Some fid) (Some bid) (Some g) (Some w) (Some (b_gain b))
        | None => SInfo GuestSite None None None None (Some (b_gain b))
        end).
End FSplit.
