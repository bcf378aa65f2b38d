(** What a stored tree must satisfy to be a greedy tree up to small errors: which rows every node stands for, and how far the
    stored sums, weights and gains may be from those of its rows. *)
From Verif Require Export TreeSpec TreeModel.
Local Open Scope nat_scope.

Section NearTree.
  Context {K : Type} (U : list K) (me : party K) (vg vh : K -> Qc) (lam least : Qc).
  (** Errors allowed for sums, weights and gains; the level of the deepest leaves; the party's split points. *)
  Context (E W D : Qc) (bottom : nat) (points : list (list Qc)).

  (** The gain of splitting the rows [S] at bin [c.2] of column [c.1]. *)
  Definition rows_gain (S : K -> bool) (c : nat * nat) : Qc :=
    gain_of lam (sum_if S vg U) (sum_if S vh U) (sum_if (left_of me S c.1 c.2) vg U) (sum_if (left_of me S c.1 c.2) vh U).

  Definition near_stats (S : K -> bool) (nd : node) : Prop :=
    (qabs (n_grad nd - sum_if S vg U) <= E /\ qabs (n_hess nd - sum_if S vh U) <= E /\
     qabs (n_weight nd - (- sum_if S vg U / (sum_if S vh U + lam))) <= W)%Qc.

  (** A leaf: at the bottom, or no split allowed gains more than the least gain. *)
  Definition near_leaf (S : K -> bool) (level : nat) : Prop :=
    level = bottom \/ forall c, c ∈ cands U me S -> (rows_gain S c <= least + zq 3 * D)%Qc.

  (** An inner node: an allowed split [(f, b)] that gains more than the least gain and at most [2 D] less than any other. *)
  Definition near_split (S : K -> bool) (level f b : nat) : Prop :=
    level < bottom /\ (f, b) ∈ cands U me S /\ (least - D < rows_gain S (f, b))%Qc /\ forall c, c ∈ cands U me S -> (rows_gain S c <= rows_gain S (f, b) + zq 2 * D)%Qc.

  (** [rows] and [levels] give the rows and the level of every node of the list [T]; the root has all rows, the children of an
      inner node share its rows by the bins of the split, whose real value [mask] holds. *)
  Record near_tree (T : list node) (mask : dict nat mval) (rows : list (K -> bool)) (levels : list nat) : Prop := {
    nt_root : exists S, rows !! 0 = Some S /\ levels !! 0 = Some 0 /\ forall k, k ∈ U -> S k = true;
    nt_size : length rows = length T /\ length levels = length T;
    nt_node : forall i nd S level, T !! i = Some nd -> rows !! i = Some S -> levels !! i = Some level ->
      n_id nd = i /\ near_stats S nd /\
      (n_leaf nd = true -> near_leaf S level) /\
      (n_leaf nd = false -> exists f b p x l r Sl Sr, n_fid nd = Some f /\ points !! f = Some p /\ p !! b = Some x /\ dict_get i mask = Some (MReal x) /\
         near_split S level f b /\ n_left nd = Some l /\ n_right nd = Some r /\ i < l < r /\
         rows !! l = Some Sl /\ rows !! r = Some Sr /\ levels !! l = Some (level + 1) /\ levels !! r = Some (level + 1) /\
         (forall k, Sl k = left_of me S f b k) /\ (forall k, Sr k = right_of me S f b k)) }.

  (** The splits of the tree [t] for the rows [S], of at most [r] levels, are clear: every one gains more than [2 D] above any other
      that is allowed and more than [3 D] above the least gain, and where the tree stops early no allowed split comes within [D] of
      the least gain. *)
  Fixpoint clear (r : nat) (S : K -> bool) (t : dtree) : Prop :=
    match t with
    | TLeaf _ _ _ => r = 0 \/ forall c, c ∈ cands U me S -> (rows_gain S c <= least - D)%Qc
    | TSplit _ _ _ c _ tl tr =>
        (least + zq 3 * D < rows_gain S (ch_fid c, ch_bin c))%Qc /\
        (forall c', c' ∈ cands U me S -> c' <> (ch_fid c, ch_bin c) -> (rows_gain S c' + zq 2 * D < rows_gain S (ch_fid c, ch_bin c))%Qc) /\
        clear (r - 1) (left_of me S (ch_fid c) (ch_bin c)) tl /\ clear (r - 1) (right_of me S (ch_fid c) (ch_bin c)) tr
    end.

  (** Entry [i] of the stored tree is [t], with the same splits, and numbers within the errors. *)
  Inductive same_tree (T : list node) (mask : dict nat mval) : nat -> dtree -> Prop :=
  | same_leaf i nd w G H : T !! i = Some nd -> n_leaf nd = true ->
      (qabs (n_grad nd - G) <= E)%Qc -> (qabs (n_hess nd - H) <= E)%Qc -> (qabs (n_weight nd - w) <= W)%Qc -> same_tree T mask i (TLeaf w G H)
  | same_split i nd w G H c g tl tr p x l r : T !! i = Some nd -> n_leaf nd = false ->
      (qabs (n_grad nd - G) <= E)%Qc -> (qabs (n_hess nd - H) <= E)%Qc -> (qabs (n_weight nd - w) <= W)%Qc ->
      n_fid nd = Some (ch_fid c) -> points !! ch_fid c = Some p -> p !! ch_bin c = Some x -> dict_get i mask = Some (MReal x) ->
      n_left nd = Some l -> n_right nd = Some r -> same_tree T mask l tl -> same_tree T mask r tr -> same_tree T mask i (TSplit w G H c g tl tr).
End NearTree.
