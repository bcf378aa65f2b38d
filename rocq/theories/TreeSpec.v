(** What training one tree should give: a greedy learner that sees the features of all parties. *)
From Verif Require Export SplitSpec HistSpec.
Local Open Scope nat_scope.

(** What matters about one party: the bin of every row in every feature, the number of split points of every feature, which
    features take part, and the limits on row counts. *)
Record party (K : Type) : Type := Party {
  p_bin : K -> nat -> nat; p_nb : list nat; p_valid : list bool; p_min_sample : Z; p_min_leaf : Z }.
Arguments Party {K}. Arguments p_bin {K}. Arguments p_nb {K}. Arguments p_valid {K}. Arguments p_min_sample {K}. Arguments p_min_leaf {K}.

(** A split: its owner ([None] is the guest, [Some i] host i), feature, bin, and the sums of the left child. *)
Record choice : Type := Choice { ch_own : option nat; ch_fid : nat; ch_bin : nat; ch_g : Qc; ch_h : Qc }.

Inductive dtree : Type :=
| TLeaf (w G H : Qc)
| TSplit (w G H : Qc) (c : choice) (gain : Qc) (l r : dtree).

Section Learner.
  Context {K : Type} (U : list K).

  (** Rows of [S] on the left of bin [b] of feature [f]. *)
  Definition left_of (p : party K) (S : K -> bool) (f b : nat) (k : K) : bool := S k && (p_bin p k f <=? b).
  Definition right_of (p : party K) (S : K -> bool) (f b : nat) (k : K) : bool := S k && negb (p_bin p k f <=? b).
  Definition allowed (p : party K) (S : K -> bool) (f b : nat) : bool :=
    (p_min_leaf p <=? count_if (left_of p S f b) U)%Z && (p_min_leaf p <=? count_if S U - count_if (left_of p S f b) U)%Z.
  (** The splits of [S] that the party may propose, in scan order. *)
  Definition cands (p : party K) (S : K -> bool) : list (nat * nat) :=
    if (count_if S U <? p_min_sample p)%Z then []
    else flat_map (fun fn => match p_valid p !! fn.1 with
                             | Some true => map (fun b => (fn.1, b)) (List.filter (allowed p S fn.1) (seq 0 (Datatypes.S fn.2)))
                             | _ => []
                             end) (combine (seq 0 (length (p_nb p))) (p_nb p)).

  (** Regularisation, least gain, the guest's and the hosts' features, the true gradients; the values that the hosts see
      (encoded), what decryption makes of a sum, and what it makes of a gain. For a plaintext run these are the identity. *)
  Context (lam min_imp : Qc) (guest : party K) (hosts : list (party K)) (vg vh eg eh : K -> Qc) (rnd : Qc -> Qc) (rt : Qc -> res Qc).

  Definition no_zero_dec (h hl : Qc) : bool :=
    negb (bool_decide ((hl + lam)%Qc = zq 0)) && negb (bool_decide (((h - hl) + lam)%Qc = zq 0)) && negb (bool_decide ((h + lam)%Qc = zq 0)).
  Definition sgain (G H gl hl : Qc) : res Qc :=
    if no_zero_dec H hl then Ok (gain_of lam G H gl hl) else Err ZeroDivisionError.
  Definition sweight (G H : Qc) : res Qc :=
    if decide ((lam + H)%Qc = zq 0) then Err ZeroDivisionError else Ok (- G / (lam + H))%Qc.

  (** The first best of the candidates of one party above the least gain. *)
  Definition propose (own : option nat) (p : party K) (S : K -> bool) (G H : Qc) (sg sh : (K -> bool) -> Qc) : res (option (choice * Qc)) :=
    let mk := fun fb => Choice own fb.1 fb.2 (sg (left_of p S fb.1 fb.2)) (sh (left_of p S fb.1 fb.2)) in
    l ← mapR (fun fb => x ← sgain G H (ch_g (mk fb)) (ch_h (mk fb)); Ok (mk fb, x)) (cands p S);
    Ok (first_best min_imp l).

  Definition guest_best (S : K -> bool) : res (option (choice * Qc)) :=
    propose None guest S (sum_if S vg U) (sum_if S vh U) (fun L => sum_if L vg U) (fun L => sum_if L vh U).
  (** A host's proposal carries the gain as it comes back from encryption. *)
  Definition host_best (S : K -> bool) (G H : Qc) (ip : nat * party K) : res (option (choice * Qc)) :=
    o ← propose (Some ip.1) ip.2 S G H (fun L => rnd (sum_if L eg U)) (fun L => rnd (sum_if L eh U));
    match o with
    | Some (c, x) => y ← rt x; Ok (Some (c, y))
    | None => _ ← rt (min_imp - FLOAT_ZERO)%Qc; Ok None
    end.

  (** The winner: the first best host that beats the guest by more than FLOAT_ZERO, else the guest. *)
  Definition best_split (S : K -> bool) (G H : Qc) : res (option (choice * Qc)) :=
    g ← guest_best S;
    hs ← mapR (host_best S G H) (combine (seq 0 (length hosts)) hosts);
    let gg := match g with Some (_, x) => x | None => (min_imp - FLOAT_ZERO)%Qc end in
    Ok (match first_best (gg + FLOAT_ZERO)%Qc (omap id hs) with Some o => Some o | None => g end).

  Definition owner (own : option nat) : option (party K) := match own with None => Some guest | Some i => hosts !! i end.
  Definition goes (side : party K -> (K -> bool) -> nat -> nat -> K -> bool) (S : K -> bool) (c : choice) : K -> bool :=
    match owner (ch_own c) with Some p => side p S (ch_fid c) (ch_bin c) | None => fun _ => false end.

  (** A tree of at most [d] levels of splits for the rows [S] with gradient sums [G] and [H]. *)
  Fixpoint grow (d : nat) (S : K -> bool) (G H : Qc) : res dtree :=
    w ← sweight G H;
    o ← best_split S G H;
    match d, o with
    | Datatypes.S d', Some (c, x) =>
        if qleb x (min_imp + FLOAT_ZERO)%Qc then Ok (TLeaf w G H)
        else
          l ← grow d' (goes left_of S c) (ch_g c) (ch_h c);
          r ← grow d' (goes right_of S c) (G - ch_g c)%Qc (H - ch_h c)%Qc;
          Ok (TSplit w G H c x l r)
    | _, _ => Ok (TLeaf w G H)
    end.

  (** The whole tree. *)
  Definition learn (d : nat) : res dtree := grow d (fun _ => true) (sum_if (fun _ => true) vg U) (sum_if (fun _ => true) vh U).

  (** The weight that the tree gives to row [k]. *)
  Fixpoint route (t : dtree) (k : K) : Qc :=
    match t with
    | TLeaf w _ _ => w
    | TSplit _ _ _ c _ l r => if goes left_of (fun _ => true) c k then route l k else route r k
    end.
End Learner.
